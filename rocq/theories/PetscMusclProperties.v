(** C80: second-order simulations on the PETSc back end, from the parts of the global solution to the parts of the
    global right-hand side, and whole runs, on any number of processes. *)
From Verif Require Import Base RoeModel RoeProofs EdgeModel EdgeProofs HRModel EtaModel SourceModel SourceProofs TracerModel AssemblyModel AssemblyProofs DecompModel DecompSpec DecompProofs DecompProperties
  MeshMapsProofs AMRProofs ConservationProperties CeedLayoutModel CeedLayoutSpec CeedLayoutProofs CeedLayoutProperties CeedHRModel CeedHRSpec CeedHRProofs CeedHRProperties CeedRunModel CeedRunSpec CeedRunProofs CeedRunProperties
  MusclModel MusclProofs MusclProperties FreeStreamProperties CeedMusclModel CeedMusclSpec CeedMusclProofs CeedMusclProperties MusclRunModel MusclRunSpec MusclRunProofs MusclRunProperties
  PetscRunModel PetscRunSpec PetscRunProofs PetscRunProperties PetscMusclModel PetscMusclSpec PetscMusclProofs.
Local Open Scope R_scope.
Local Notation length := List.length.

(** ** One evaluation *)
Section RHS2.
  Context (lim : limiter) (cf : cconfig) (G : geometry) (m : mesh) (g : cellgeom) (src : nat -> vec3) (u f1 : nat -> vec3) (C : flow_config cf) (UG : unoriented G).
  Local Notation S2 := (frozen_petsc lim cf G (slopes G m u) g).
  Hypothesis E1 : interior_loop vadd vscal everything (area m) (s_interior S2 u) (iedges m) zero_field = Some f1.
  Local Notation mine k c p f := (rsum (fun l => if Nat.eqb (cp_gid p l) c then nth (l * 3 + k) f 0 else 0) (seq 0 (cm_cells (cp_mesh p)))).

  Lemma petsc_fluxes_ok : forall ps us grads ges,
    (forall p, In p ps -> process_ok Standard cf m (fun _ => 0) g src (sp_base p) /\ geometry_ok G m p) ->
    Forall2 (fun p x => local_ok u (sp_base p) x) ps us -> Forall2 (has_slopes G m u) ps grads ->
    Forall2 (fun p es => Forall2 (fun e e' => exists flip, eview (cp_gid p) flip e e') (map (iedge_of (cp_mesh p)) (owned_internal (cp_mesh p))) es) (map sp_base ps) ges -> incl (concat ges) (iedges m) ->
    exists fs, omap (fun x => local_interior_flux2 lim cf (sp_rmesh (fst (fst x))) (snd x) (snd (fst x))) (combine (combine ps us) grads) = Some fs /\
      Forall2 (fun p f => length f = (3 * cm_cells (cp_mesh p))%nat) (map sp_base ps) fs /\
      forall k c, (k < 3)%nat -> rsum (fun pf => mine k c (fst pf) (snd pf)) (combine (map sp_base ps) fs) = rsum (gcontrib S2 m u (component k) c) (concat ges).
  Proof.
    induction ps as [|p ps IH]; intros us grads ges HP HU HS HG IG; cbn [map] in HG; inversion HU; inversion HS; inversion HG; subst.
    - exists []. split; [reflexivity|]. split; [constructor|]. intros. reflexivity.
    - rename y into x. rename y0 into gr. rename y1 into es. cbn [concat] in IG. cbn [combine omap fst snd map].
      destruct (HP p (or_introl eq_refl)) as (PO & GO).
      assert (I1 : incl es (iedges m)) by (intros e He; apply IG; apply in_or_app; left; exact He).
      assert (O1 : owned_edges_are (rank_of (sp_base p)) es) by (unfold owned_edges_are; rewrite rank_owned_edges; assumption).
      match goal with H1 : local_ok u (sp_base p) x, H2 : has_slopes G m u p gr |- _ =>
        destruct (petsc_flux_total lim cf G m g src p C PO GO UG u f1 es x gr E1 O1 I1 H1 H2) as (y & Ey & Ly & Vy) end.
      rewrite Ey, obind_Some.
      edestruct IH as (fs & Efs & Lfs & Vfs); [intros q Hq; apply HP; right; exact Hq|eassumption|eassumption|eassumption|intros e He; apply IG; apply in_or_app; right; exact He|].
      rewrite Efs, obind_Some. exists (y :: fs). split; [reflexivity|]. split; [constructor; assumption|]. intros k c Hk. cbn [combine rsum fst snd concat]. rewrite !rsum_app.
      rewrite (Vfs k c Hk), (Vy k c Hk). ring.
  Qed.
End RHS2.

(* boundaries and sources on one process *)
Lemma petsc_rest_process lim cf G m g src dt p u ul x1 sts f1 f2 f :
  petsc_config cf -> unoriented G -> mesh_wf m -> petsc_process_ok Standard cf m (fun _ => 0) g src p -> local_ok u p ul -> Forall2 bop_sized (map cb_edges (cp_bounds p)) sts ->
  part_holds f1 (map (cp_gid p) (owned_cells (cp_mesh p))) x1 ->
  boundary_loop vadd vscal everything (area m) (s_boundary (frozen_petsc lim cf G (slopes G m u) g) u) (bedges m) f1 = Some f2 ->
  source_loop (s_source (frozen_petsc lim cf G (slopes G m u) g) dt u src) (cells m) f2 = Some f ->
  exists x pvs sts', petsc_rest cf dt p ul x1 sts = Some (x, pvs, sts') /\ part_holds f (map (cp_gid p) (owned_cells (cp_mesh p))) x /\
    primitives cf u p pvs /\ Forall2 bop_sized (map cb_edges (cp_bounds p)) sts' /\ all_recorded cf u dt p sts sts'.
Proof.
  intros C UG WF PO (Lu & Vu) SZ (L1 & V1) E2 E3. assert (NB := pp_numbered _ _ _ _ _ _ _ PO). assert (T := proj2 (proj2 (proj1 C))).
  assert (HR1 : rel (cp_mesh p) x1 (to_local (prank_of p) f1)).
  { rewrite map_length in L1. split; [unfold sized; lia|]. intros c k Hc Hk. assert (Hs := owned_slot (cp_mesh p) NB c Hc).
    assert (X := V1 (cm_l2o (cp_mesh p) c) (cp_gid p c)). rewrite nth_error_map, Hs in X. specialize (X eq_refl). unfold value, to_local, component. cbn [prank_of rk_gid]. rewrite <- X, nth_block by exact Hk.
    rewrite (Nat.mul_comm 3). reflexivity. }
  destruct (rank_rest_ok (petsc_scheme_of Standard cf (fun _ => 0) g) (petsc_scheme_of Standard cf (fun _ => 0) (geom_at (cp_gid p) g)) m (prank_of p) dt src u f1 f2 f
    (petsc_scheme_view Standard cf (fun _ => 0) g (cp_gid p) T) (pp_numbering _ _ _ _ _ _ _ PO) WF (pp_overlap _ _ _ _ _ _ _ PO) E2 E3) as (g2 & fl & G2 & G3 & Vfl).
  destruct (petsc_rest_ok Standard cf m (fun _ => 0) g src p C PO u ul Lu Vu dt sts x1 _ g2 fl SZ HR1 G2 G3) as (x2 & x & pvs & sts' & X2 & X3 & Sx & Vx & Sp & Vp & Z & RC).
  exists x, pvs, sts'. split; [unfold petsc_rest; rewrite X2, obind_Some; cbn [fst snd]; cbn [includes_slope] in X3; rewrite X3, obind_Some; reflexivity|]. split; [|split; [|split; [exact Z|exact RC]]].
  - split; [rewrite map_length; exact Sx|]. intros i c Hi. rewrite nth_error_map in Hi. destruct (nth_error (owned_cells (cp_mesh p)) i) as [l|] eqn:El; [|discriminate]. injection Hi as <-.
    assert (Hl : In l (owned_cells (cp_mesh p))) by (eapply nth_error_In; exact El). apply (sized_entries _ _ _ l _ NB Sx El). intros k Hk. rewrite (Vx l k Hl Hk). destruct (owned_range _ _ Hl).
    rewrite (Vfl l); [reflexivity|cbn; apply in_seq; lia|assumption].
  - split; [exact Sp|]. intros i l El. assert (Hl : In l (owned_cells (cp_mesh p))) by (eapply nth_error_In; exact El). eexists. split; [apply petsc_velocities_some; exact T|].
    exact (sized_entries _ _ _ l _ NB Sp El (fun k Hk => Vp l k Hl Hk)).
Qed.

(* Any number of processes, any distribution of a mesh over them, whatever the arrays of the boundary operators
   hold from earlier evaluations: if the second-order right-hand side of the whole domain is defined for a field, the
   parts of a global vector holding the field are turned into parts holding the right-hand side, and the fluxes
   through the boundary are recorded. *)
Theorem C80_rhs : forall lim cf G m g src dt ps S U u f,
  petsc_config cf -> unoriented G -> mesh_wf m -> petsc_distributed2 cf G m g src ps -> bops_sized (boundary_edges (map sp_base ps)) S -> holds (layout (map sp_base ps)) U u ->
  rhs_domain (petsc_scheme2_of lim cf G m g) m dt src u = Some f ->
  exists U' S', PetscRHSFunction2 lim cf dt ps S U = Some (U', S') /\ holds (layout (map sp_base ps)) U' f /\ bops_sized (boundary_edges (map sp_base ps)) S' /\
    Forall2 (fun psts sts' => all_recorded cf u dt (fst psts) (snd psts) sts') (combine (map sp_base ps) S) S'.
Proof.
  intros lim cf G m g src dt ps S U u f C UG WF D SZ H Hf. rewrite rhs_frozen_petsc in Hf. assert (D2 := p2_geometry _ _ _ _ _ _ D). assert (D0 := d2_distributed _ _ _ _ _ _ D2). assert (DP := p2_base _ _ _ _ _ _ D).
  destruct (serial_steps _ m dt src u f Hf) as (f1 & f2 & E1 & E2 & E3 & _).
  unfold PetscRHSFunction2, ApplyInteriorFlux2R. rewrite (num_comp_flow cf (proj1 C)). cbn [Nat.eqb].
  destruct (omap_rel (dm_global_to_local 3 U) (local_ok u) (map sp_base ps)) as (us & Eus & Fus).
  { intros p Hp. exact (global_to_local_ok _ _ _ _ _ _ _ U u p D0 H Hp). }
  rewrite Eus, obind_Some. assert (Fus' := proj2 (Forall2_map_l _ _ _ _) Fus).
  destruct (slopes_ok cf G m g src ps us u D2 Fus') as (grads & Eg & HS). rewrite Eg, obind_Some.
  destruct (CeedRunSpec.di_iedges _ _ _ _ _ _ _ D0) as (ges & FG & PG).
  destruct (petsc_fluxes_ok lim cf G m g src u f1 (proj1 C) UG E1 ps us grads ges) as (fs & Efs & Lfs & Vfs);
    [intros p Hp; split; [exact (CeedRunSpec.di_processes _ _ _ _ _ _ _ D0 _ (in_map _ _ _ Hp))|exact (d2_geometry _ _ _ _ _ _ D2 p Hp)]|exact Fus'|exact HS|exact FG|exact (fun e He => Permutation_in e PG He)|].
  rewrite Efs, obind_Some.
  destruct (divergence_holds Standard cf m (fun _ => 0) g src (map sp_base ps) fs f1 D0 (proj1 WF) Lfs) as (divs & Ed & HD).
  { intros k c Hk. rewrite (Vfs k c Hk), (rsum_perm _ _ _ PG).
    destruct (interior_loop_val vadd vscal (component k) (component_add k) (component_scal k) everything (area m) (s_interior (frozen_petsc lim cf G (slopes G m u) g) u) (kg (frozen_petsc lim cf G (slopes G m u) g) u) (iedges m)) with (f := zero_field) as (f1' & E1' & V1).
    { intros e He. unfold kg. destruct (interior_loop_inv _ _ _ _ _ _ E1 e He) as ((kk & ->) & _). reflexivity. }
    { intros e He. apply (interior_loop_inv _ _ _ _ _ _ E1 e He). }
    rewrite E1 in E1'. injection E1' as <-. rewrite V1. unfold zero_field. rewrite component_zero, Rplus_0_l. reflexivity. }
  rewrite Ed, obind_Some.
  assert (R0 : exists rs, omap (fun x => let '(p, u, f, sts) := x in petsc_rest cf dt p u f sts) (combine (combine (combine (map sp_base ps) us) divs) S) = Some rs /\
    Forall2 (part_holds f) (layout (map sp_base ps)) (map (fun r => fst (fst r)) rs) /\ Forall2 (Forall2 bop_sized) (boundary_edges (map sp_base ps)) (map snd rs) /\
    Forall2 (fun psts sts' => all_recorded cf u dt (fst psts) (snd psts) sts') (combine (map sp_base ps) S) (map snd rs)).
  { assert (HP := pd_processes _ _ _ _ _ _ _ DP). clear Eus H D DP D0 D2 Eg Efs Ed Vfs Lfs FG HS Fus'. unfold bops_sized, boundary_edges, layout in *. revert us divs S Fus SZ HP HD.
    generalize (map sp_base ps). clear ps. induction l as [|p ps IH]; intros us divs S Fus SZ HP HD; cbn [map] in SZ, HD; inversion Fus; inversion SZ; inversion HD; subst.
    - exists []. cbn. repeat split; constructor.
    - cbn [combine omap].
      match goal with X : local_ok u p ?x, Y : Forall2 bop_sized _ ?s, Z : part_holds f1 _ ?d |- _ =>
        destruct (petsc_rest_process lim cf G m g src dt p u x d s f1 f2 f C UG WF (HP p (or_introl eq_refl)) X Y Z E2 E3) as (xr & pvs & sts' & E & V & _ & Q & RC) end.
      rewrite E, obind_Some. edestruct IH as (rs & Ers & V2 & Z2 & RC2); [eassumption|eassumption|intros q Hq; apply HP; right; exact Hq|eassumption|].
      rewrite Ers, obind_Some. exists ((xr, pvs, sts') :: rs). split; [reflexivity|]. cbn [map fst snd combine]. repeat split; constructor; assumption. }
  destruct R0 as (rs & Ers & V & Z & RC). rewrite Ers, obind_Some. do 2 eexists. split; [reflexivity|]. auto.
Qed.
Print Assumptions C80_rhs.

(** ** Whole runs *)
(* what the processes hold during the steps of a run: boundary values and sources change, the layout of the
   global vectors and the edges of the boundaries do not *)
Definition petsc_run_distributed2 (cf : cconfig) (G : geometry) (m : mesh) (g : cellgeom) (L : list (list nat)) (E : list (list (list nat))) (x : step_input) (st : R * list sprocess) : Prop :=
  fst st = st_dt x /\ boundary_in m (st_bedges x) /\ layout (map sp_base (snd st)) = L /\ boundary_edges (map sp_base (snd st)) = E /\
  petsc_distributed2 cf G (with_boundary m (st_bedges x)) g (st_src x) (snd st).

Theorem C80_run : forall i lim cf G m g L E xs steps U S u u',
  petsc_config cf -> unoriented G -> well_formed m -> Forall2 (petsc_run_distributed2 cf G m g L E) xs steps -> holds L U u -> bops_sized E S ->
  run i (petsc_scheme2_of lim cf G m g) m xs u = Some u' ->
  exists U' S', petsc_muscl_run i lim cf steps (U, S) = Some (U', S') /\ holds L U' u' /\ bops_sized E S'.
Proof.
  intros i lim cf G m g L E xs steps U S u u' C UG WF F. revert U S u. unfold run, petsc_muscl_run. induction F as [|x st xs steps Hx F IH]; intros U S u HU HS H; cbn [ofold] in *.
  - injection H as <-. exists U, S. auto.
  - apply obind_some in H. destruct H as (u1 & E1 & H). destruct Hx as (Hdt & Hb & HL & HE & HD). unfold advance_step in E1.
    destruct (state_step_ok (bops_sized E) i L (PetscRHSFunction2 lim cf (fst st) (snd st)) (rhs_domain (petsc_scheme2_of lim cf G m g) (with_boundary m (st_bedges x)) (st_dt x) (st_src x)) (st_dt x) U u u1 S) as (U1 & S1 & EU & HU1 & HS1); [|exact HS|exact HU|exact E1|].
    { intros V v f s Hs HV Hf. rewrite <- HL in HV |- *. rewrite <- HE in Hs |- *. rewrite Hdt.
      destruct (C80_rhs lim cf G (with_boundary m (st_bedges x)) g (st_src x) (st_dt x) (snd st) s V v f C UG) as (V' & s' & Q1 & Q2 & Q3 & _); [|exact HD|exact Hs|exact HV|exact Hf|eauto].
      destruct WF as (W1 & W2). split; [exact W1|]. split; [exact W2|exact Hb]. }
    rewrite Hdt in EU |- *. rewrite EU, obind_Some. apply (IH U1 S1 u1 HU1 HS1 H).
Qed.
Print Assumptions C80_run.

(* two distributions of the same problem compute the same field, whatever their boundary operators held before *)
Theorem C80_any_number_of_processes : forall i lim cf G m g L E L' E' xs steps steps' U S U' S' u u',
  petsc_config cf -> unoriented G -> well_formed m ->
  Forall2 (petsc_run_distributed2 cf G m g L E) xs steps -> holds L U u -> bops_sized E S ->
  Forall2 (petsc_run_distributed2 cf G m g L' E') xs steps' -> holds L' U' u -> bops_sized E' S' ->
  run i (petsc_scheme2_of lim cf G m g) m xs u = Some u' ->
  exists V T V' T', petsc_muscl_run i lim cf steps (U, S) = Some (V, T) /\ petsc_muscl_run i lim cf steps' (U', S') = Some (V', T') /\
    forall r j c r' j' gs gs' x x', nth_error L r = Some gs -> nth_error gs j = Some c -> nth_error V r = Some x ->
      nth_error L' r' = Some gs' -> nth_error gs' j' = Some c -> nth_error V' r' = Some x' -> block 3 x j = block 3 x' j'.
Proof.
  intros i lim cf G m g L E L' E' xs steps steps' U S U' S' u u' C UG WF F HU HS F' HU' HS' H.
  destruct (C80_run i lim cf G m g L E xs steps U S u u' C UG WF F HU HS H) as (V & T & EV & HV & _). destruct (C80_run i lim cf G m g L' E' xs steps' U' S' u u' C UG WF F' HU' HS' H) as (V' & T' & EV' & HV' & _).
  exists V, T, V', T'. split; [exact EV|]. split; [exact EV'|]. intros r j c r' j' gs gs' x x' A B Hx A' B' Hx'.
  destruct (Forall2_get _ _ _ _ _ HV A) as (y & Hy & _ & Py). destruct (Forall2_get _ _ _ _ _ HV' A') as (y' & Hy' & _ & Py').
  assert (y = x) by congruence. assert (y' = x') by congruence. subst. rewrite (Py _ _ B), (Py' _ _ B'). reflexivity.
Qed.
Print Assumptions C80_any_number_of_processes.

(* in a closed basin the arrays of all processes together keep the water *)
Theorem C80_volume : forall i lim cf G m g L E xs steps U S u u',
  petsc_config cf -> unoriented G -> well_formed m -> Permutation (concat L) (cells m) -> Forall2 (petsc_run_distributed2 cf G m g L E) xs steps -> holds L U u -> bops_sized E S ->
  (forall x, In x xs -> closed m x) ->
  run i (petsc_scheme2_of lim cf G m g) m xs u = Some u' ->
  exists U' S', petsc_muscl_run i lim cf steps (U, S) = Some (U', S') /\ array_volume m L U' = array_volume m L U.
Proof.
  intros i lim cf G m g L E xs steps U S u u' C UG WF P F HU HS HC H.
  destruct (C80_run i lim cf G m g L E xs steps U S u u' C UG WF F HU HS H) as (U' & S' & EU & HU' & _). exists U', S'. split; [exact EU|].
  rewrite (array_volume_holds m L U u HU), (array_volume_holds m L U' u' HU'). rewrite !(rsum_perm _ _ _ P).
  apply (C09_closed_basin_keeps_volume i (petsc_scheme2_of lim cf G m g) m xs u u'); [|exact WF|exact HC|exact H].
  unfold petsc_scheme2_of. constructor. exact (proj2 (proj2 (proj1 C))).
Qed.
Print Assumptions C80_volume.

(* a uniform flow over a flat frictionless bed: the run succeeds and the arrays still hold the flow *)
Theorem C80_uniform_flow : forall i lim cf G m g L E xs steps U S q,
  petsc_config cf -> unoriented G -> well_formed m -> Forall2 (petsc_run_distributed2 cf G m g L E) xs steps -> holds L U (uniform q) -> bops_sized E S ->
  cf_tiny_h cf < c0 q -> smooth (friction_of cf) g m -> (forall c, In c (cells m) -> area m c <> 0) ->
  (forall x, In x xs -> (forall e, In e (st_bedges x) -> compatible q e) /\ forall c, In c (cells m) -> st_src x c = vzero /\ cell_closes m (st_bedges x) c) ->
  exists U' S', petsc_muscl_run i lim cf steps (U, S) = Some (U', S') /\ holds L U' (uniform q).
Proof.
  intros i lim cf G m g L E xs steps U S q C UG WF F HU HS HT SM HA HX.
  destruct (C80_run i lim cf G m g L E xs steps U S (uniform q) (uniform q) C UG WF F HU HS) as (U' & S' & EU & HU' & _); [|exists U', S'; auto].
  apply C55_uniform_flow_preserved; [|exact WF|exact HA|].
  - unfold petsc_scheme2_of. apply Flat_petsc_2r; [|exact SM]. split; [exact (proj2 (proj2 (proj1 C)))|exact HT].
  - intros x Hx. destruct (HX x Hx) as (A & B). split; [|split; [exact A|exact B]].
    apply Forall2_in_l with (a := x) in F; [|exact Hx]. destruct F as (st & _ & _ & Hb & _). exact Hb.
Qed.
Print Assumptions C80_uniform_flow.

(** ** Boundary fluxes over a run *)
(* With Euler's method, what a boundary operator has accumulated on an edge over a second-order run is the time
   integral of the flux through it. *)
Definition bases (steps : list (R * list sprocess)) : list (R * list cprocess) := map (fun st => (fst st, map sp_base (snd st))) steps.
Theorem C80_accumulated_flux : forall lim cf G m g L E xs steps U S u u' q j i k a I,
  petsc_config cf -> unoriented G -> well_formed m -> Forall2 (petsc_run_distributed2 cf G m g L E) xs steps -> holds L U u -> bops_sized E S ->
  run Euler (petsc_scheme2_of lim cf G m g) m xs u = Some u' -> (k < 3)%nat ->
  accumulated S q j i k = Some a -> flux_integral cf (petsc_scheme2_of lim cf G m g) m xs (bases steps) u q j i k = Some I ->
  exists U' S', petsc_muscl_run Euler lim cf steps (U, S) = Some (U', S') /\ holds L U' u' /\ accumulated S' q j i k = Some (a + I).
Proof.
  intros lim cf G m g L E xs steps U S u u' q j i k a I C UG WF F HU HS H Hk. revert U S u a I HU HS H. unfold run, petsc_muscl_run. induction F as [|x st xs steps Hx F IH]; intros U S u a I HU HS H EA EI; cbn [ofold flux_integral bases map] in *.
  - injection H as <-. injection EI as <-. exists U, S. split; [reflexivity|]. split; [exact HU|]. rewrite Rplus_0_r. exact EA.
  - apply obind_some in H. destruct H as (u1 & E1 & H). destruct Hx as (Hdt & Hb & HL & HE & HD). cbn [snd] in EI.
    apply obind_some in EI. destruct EI as (Q & EQ & EI). rewrite E1, obind_Some in EI. apply obind_some in EI. destruct EI as (r & Er & EI). injection EI as <-.
    unfold advance_step in E1. cbn [ts_step] in E1. unfold euler_step in E1. apply obind_some in E1. destruct E1 as (f & Ef & E1). injection E1 as <-.
    assert (WFx : mesh_wf (with_boundary m (st_bedges x))) by (destruct WF as (W1 & W2); split; [exact W1|]; split; [exact W2|exact Hb]).
    assert (HU0 := HU). assert (HS0 := HS). rewrite <- HL in HU0. rewrite <- HE in HS0.
    destruct (C80_rhs lim cf G (with_boundary m (st_bedges x)) g (st_src x) (st_dt x) (snd st) S U u f C UG WFx HD HS0 HU0 Ef) as (K & S1 & EK & HK & Z & RC). rewrite HL in HK. rewrite HE in Z.
    cbn [state_step]. unfold state_euler. rewrite Hdt, EK, !obind_Some.
    destruct (IH (waxpy U (st_dt x) K) S1 _ (a + st_dt x * nth k (comps3 Q) 0) r (waxpy_holds _ _ _ _ _ (st_dt x) HU HK) Z H) as (U' & S' & EU & HU' & EA'); [|exact Er|].
    + eapply recorded_accumulated; eassumption.
    + exists U', S'. split; [exact EU|]. split; [exact HU'|]. rewrite EA', Rplus_assoc. reflexivity.
Qed.
Print Assumptions C80_accumulated_flux.

(** ** An evaluation never fails *)
(* with semi-implicit friction every evaluation on a distributed mesh succeeds if the depths at the boundary are
   not negative; in the interior they may be *)
Lemma petsc_defined lim cf G m g dt src u :
  petsc_config cf -> cf_source cf = SOURCE_SEMI_IMPLICIT -> mesh_wf m -> 0 <= dt -> (forall c, In c (cells m) -> area m c <> 0) ->
  (forall e, In e (bedges m) -> bc_ok (be_bc e) /\ 0 <= c0 (u (be_c e))) -> exists f, rhs_domain (petsc_scheme2_of lim cf G m g) m dt src u = Some f.
Proof.
  intros C SI WF Hdt Ha Hb. assert (T := proj2 (proj2 (proj1 C))). apply (rhs_defined (petsc_scheme2_of lim cf G m g) m dt src u WF Ha).
  - intros e _. unfold petsc_scheme2_of. destruct (C01_second_order_edge_finite lim G (iedges m) (cf_tiny_h cf) (cf_h_anuga cf) (fun _ _ => 0) (fun _ _ => 0) (friction_of cf) g u e T) as ((a & b & c & E) & _). eauto.
  - intros e He. destruct (Hb e He) as (B1 & B2). unfold petsc_scheme2_of. cbn [s_boundary petsc_2r_scheme petsc_scheme].
    destruct (petsc_boundary_edge_some (cf_tiny_h cf) (cf_h_anuga cf) (be_bc e) (u (be_c e)) (be_sn e) (be_cn e) T B2 B1) as (x & a & X). eauto.
  - intros c F Hc. unfold petsc_scheme2_of. cbn [s_source petsc_2r_scheme petsc_scheme]. unfold friction_of. rewrite SI.
    destruct (Rle_dec (cf_tiny_h cf) (c0 (u c))) as [Hw|Hd].
    + destruct (petsc_semi_implicit_step true dt (cf_tiny_h cf) (manning g c) (dzdx g c) (dzdy g c) (u c) F (src c) Hdt T Hw) as (s0 & r & _ & _ & E & _). eauto.
    + unfold petsc_rhs. rewrite petsc_source_dry by lra. cbn. eauto.
Qed.
Theorem C80_defined : forall lim cf G m g src dt ps S U u,
  petsc_config cf -> cf_source cf = SOURCE_SEMI_IMPLICIT -> unoriented G -> mesh_wf m -> 0 <= dt -> (forall c, In c (cells m) -> area m c <> 0) ->
  (forall e, In e (bedges m) -> bc_ok (be_bc e) /\ 0 <= c0 (u (be_c e))) ->
  petsc_distributed2 cf G m g src ps -> bops_sized (boundary_edges (map sp_base ps)) S -> holds (layout (map sp_base ps)) U u ->
  exists U' S', PetscRHSFunction2 lim cf dt ps S U = Some (U', S').
Proof.
  intros lim cf G m g src dt ps S U u C SI UG WF Hdt Ha Hb D SZ HU.
  destruct (petsc_defined lim cf G m g dt src u C SI WF Hdt Ha Hb) as (f & E).
  destruct (C80_rhs lim cf G m g src dt ps S U u f C UG WF D SZ HU E) as (U' & S' & EU & _). eauto.
Qed.
Print Assumptions C80_defined.

(** ** Examples: the three squares in an L of C79 *)
Lemma ell_petsc_ok n b : petsc_process_ok Standard (one_config 0 false) ell (fun _ => 0) (ell_geom n) (fun _ => vzero) (sp_base (ell_process n b)).
Proof.
  assert (O := ell_process_ok n b). constructor.
  - destruct b; discriminate.
  - exact (po_values _ _ _ _ _ _ _ O).
  - destruct (po_numbering _ _ _ _ _ _ _ O) as [N1 N2 N3 _ _]. constructor; [exact N1|exact N2|exact N3| |].
    + intros e He. destruct b; cbn in He; repeat (destruct He as [<-|He]; [cbn; lia|]); contradiction.
    + intros e He. destruct b; cbn in He; repeat (destruct He as [<-|He]; [cbn; lia|]); contradiction.
  - constructor.
    + exists (if b then [IEdge 0 2 1 1 0] else iedges ell). split; [|split].
      * destruct b; cbn; repeat (constructor; [exists false; cbn; repeat split; reflexivity|]); constructor.
      * destruct b; [|apply incl_refl]. intros e [<-|[]]. cbn. auto.
      * destruct b; cbn; apply Permutation_refl.
    + exists (if b then [BEdge 0 1 (-1) 0 BCReflecting; BEdge 0 1 0 (-1) BCReflecting; BEdge 2 1 0 (-1) BCReflecting; BEdge 2 1 1 0 BCReflecting; BEdge 2 1 0 1 BCReflecting] else bedges ell). split; [|split].
      * destruct b; cbn; repeat (constructor; [repeat split; reflexivity|]); constructor.
      * destruct b; [|apply incl_refl]. intros e He. cbn in He. repeat (destruct He as [<-|He]; [cbn; tauto|]). contradiction.
      * destruct b; cbn; apply Permutation_refl.
  - intros i c Hi. destruct b; cbn in Hi; do 2 (destruct i as [|i]; [try discriminate Hi; injection Hi as <-; reflexivity|]); destruct i; discriminate.
  - exact (po_area _ _ _ _ _ _ _ O).
  - exact (po_slope _ _ _ _ _ _ _ O).
  - discriminate.
  - exact (po_ext_length _ _ _ _ _ _ _ O).
  - exact (po_mat_length _ _ _ _ _ _ _ O).
  - exact (po_ext _ _ _ _ _ _ _ O).
  - exact (po_mat _ _ _ _ _ _ _ O).
Qed.
Lemma ell_petsc_distributed n : petsc_distributed2 (one_config 0 false) ell_shape ell (ell_geom n) (fun _ => vzero) (ell_ps n).
Proof.
  constructor; [exact (ell_distributed n)|]. constructor; [intros p [<-|[<-|[]]]; apply ell_petsc_ok|].
  exact (CeedRunSpec.di_sf _ _ _ _ _ _ _ (d2_distributed _ _ _ _ _ _ (ell_distributed n))).
Qed.
Definition ell_edges : list (list (list nat)) := [[[2;3;4;5;6;7;8;9]];[[2;3;7;8;9]]]%nat.
(* arrays as created, except that those of the second process hold undefined values *)
Definition ell_states : list (list bop) :=
  [[bop_created [2;3;4;5;6;7;8;9]%nat]; [BOp (repeat (RState None 7 7 None None) 5) [] (repeat None 15)]].
Lemma ell_states_sized : bops_sized ell_edges ell_states.
Proof. repeat constructor. Qed.
Lemma ell_petsc_run n : petsc_run_distributed2 (one_config 0 false) ell_shape ell (ell_geom n) [[0;1];[2]]%nat ell_edges ell_step (1/10, ell_ps n).
Proof. split; [reflexivity|]. split; [exact (proj2 (proj2 ell_wf))|]. split; [reflexivity|]. split; [reflexivity|exact (ell_petsc_distributed n)]. Qed.
Lemma ell_dam_held : holds [[0;1];[2]]%nat [[2;0;0;1;0;0]; [1;0;0]] ell_dam.
Proof. repeat constructor; (intros i c Hi; do 2 (destruct i as [|i]; [try discriminate Hi; injection Hi as <-; reflexivity|]); destruct i; discriminate). Qed.
(* a dam around the corner breaks: the step succeeds and keeps the four cubic metres *)
Example C80_dam_break_example : exists U' S', petsc_muscl_run Euler LimVanLeer (one_config 0 false) [(1/10, ell_ps (1/50))] ([[2;0;0;1;0;0]; [1;0;0]], ell_states) = Some (U', S') /\
  array_volume ell [[0;1];[2]]%nat U' = 4.
Proof.
  destruct (petsc_defined LimVanLeer (one_config 0 false) ell_shape ell (ell_geom (1/50)) (1/10) (fun _ => vzero) ell_dam square_config eq_refl ell_wf) as (f & E).
  - lra.
  - intros c _. cbn. lra.
  - intros e He. split; [cbn in He; repeat (destruct He as [<-|He]; [exact I|]); contradiction|]. unfold ell_dam. destruct (Nat.eqb _ _); cbn; lra.
  - destruct (C80_volume Euler LimVanLeer (one_config 0 false) ell_shape ell (ell_geom (1/50)) [[0;1];[2]]%nat ell_edges [ell_step] [(1/10, ell_ps (1/50))] [[2;0;0;1;0;0]; [1;0;0]] ell_states ell_dam
                (fun c => vadd (ell_dam c) (vscal (1/10) (f c))) square_config ell_unoriented (conj (proj1 ell_wf) (proj1 (proj2 ell_wf))) (Permutation_refl _)) as (U' & S' & EU & V).
    + constructor; [apply ell_petsc_run|constructor].
    + exact ell_dam_held.
    + exact ell_states_sized.
    + intros x [<-|[]]. exact ell_closed.
    + unfold run. cbn [ofold]. unfold advance_step, ts_step, euler_step. change (with_boundary ell (st_bedges ell_step)) with ell. cbn [ell_step st_dt st_src].
      rewrite E. reflexivity.
    + exists U', S'. split; [exact EU|]. rewrite V, (array_volume_holds _ _ _ _ ell_dam_held). cbn. ring.
Qed.
(* still water stays still through two Runge-Kutta steps *)
Example C80_still_example : exists U' S', petsc_muscl_run RK4 LimMinmod (one_config 0 false) [(1/10, ell_ps 0); (1/10, ell_ps 0)] ([[2;0;0;2;0;0]; [2;0;0]], ell_states) = Some (U', S') /\
  holds [[0;1];[2]]%nat U' (uniform (V3 2 0 0)).
Proof.
  apply (C80_uniform_flow RK4 LimMinmod (one_config 0 false) ell_shape ell (ell_geom 0) [[0;1];[2]]%nat ell_edges [ell_step; ell_step]).
  - exact square_config.
  - exact ell_unoriented.
  - exact (conj (proj1 ell_wf) (proj1 (proj2 ell_wf))).
  - constructor; [apply ell_petsc_run|constructor; [apply ell_petsc_run|constructor]].
  - repeat constructor; (intros i c Hi; do 2 (destruct i as [|i]; [try discriminate Hi; injection Hi as <-; reflexivity|]); destruct i; discriminate).
  - exact ell_states_sized.
  - cbn. lra.
  - split; [intros c _; repeat split; reflexivity|exact I].
  - intros c _. cbn. lra.
  - intros x Hx. assert (x = ell_step) as -> by (destruct Hx as [<-|[<-|[]]]; reflexivity). split.
    + intros e He. cbn in He. do 8 (destruct He as [<-|He]; [right; unfold FluxProperties.unit_normal, FluxProperties.along; cbn; repeat split; lra|]). contradiction.
    + intros c Hc. split; [reflexivity|]. unfold cell_closes. destruct Hc as [<-|[<-|[<-|[]]]]; cbn; split; ring.
Qed.
