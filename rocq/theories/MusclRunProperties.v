(** C79: second-order simulations on the libCEED back end, from the parts of the global solution to the parts of
    the global right-hand side, and whole runs, on any number of processes. *)
From Coq Require Import String.
From Verif Require Import Base RoeModel RoeProofs EdgeModel EdgeProofs HRModel EtaModel SourceModel SourceProofs TracerModel AssemblyModel AssemblyProofs DecompModel DecompSpec DecompProofs DecompProperties
  MeshMapsProofs AMRProofs ConservationProperties CeedLayoutModel CeedLayoutSpec CeedLayoutProofs CeedLayoutProperties CeedHRModel CeedHRSpec CeedHRProofs CeedHRProperties CeedRunModel CeedRunSpec CeedRunProofs CeedRunProperties
  MusclModel MusclProofs MusclProperties FreeStreamProperties CeedMusclModel CeedMusclSpec CeedMusclProofs CeedMusclProperties MusclRunModel MusclRunSpec MusclRunProofs.
Local Open Scope R_scope.
Local Notation length := List.length.

Section RHS2.
  Context (lim : limiter) (cf : cconfig) (G : geometry) (m : mesh) (g : cellgeom) (src : nat -> vec3) (dtm dt : R) (u f1 f2 : nat -> vec3) (C : flow_config cf) (UG : unoriented G).
  Local Notation S2 := (frozen_ceed lim cf G (slopes G m u) g).
  Hypothesis E1 : interior_loop vadd vscal everything (area m) (s_interior S2 u) (iedges m) zero_field = Some f1.
  Hypothesis E2 : boundary_loop vadd vscal everything (area m) (s_boundary S2 u) (bedges m) f1 = Some f2.
  Local Notation mine k c p f := (rsum (fun l => if Nat.eqb (cp_gid p l) c then nth (l * 3 + k) f 0 else 0) (seq 0 (cm_cells (cp_mesh p)))).

  Lemma muscl_fluxes_ok : forall ps us grads ges gbs,
    (forall p, In p ps -> process_ok Standard cf m (fun _ => 0) g src (sp_base p) /\ geometry_ok G m p) ->
    Forall2 (fun p x => local_ok u (sp_base p) x) ps us -> Forall2 (has_slopes G m u) ps grads ->
    Forall2 (fun p es => Forall2 (fun e e' => exists flip, eview (cp_gid p) flip e e') (map (iedge_of (cp_mesh p)) (owned_internal (cp_mesh p))) es) (map sp_base ps) ges -> incl (concat ges) (iedges m) ->
    Forall2 (fun p es => Forall2 (bview (cp_gid p)) (flat_map (fun b => map (bedge_of (cp_mesh p) b) (owned_boundary (cp_mesh p) b)) (cp_bounds p)) es) (map sp_base ps) gbs -> incl (concat gbs) (bedges m) ->
    exists fs, omap (fun x => let p := fst (fst x) in muscl_flux_rhs lim cf (sp_rmesh p) (initial_eta (cp_mesh (sp_base p))) (snd x) dtm dt (cp_bounds (sp_base p)) (snd (fst x)))
                    (combine (combine ps us) grads) = Some fs /\
      Forall2 (fun p f => length f = (3 * cm_cells (cp_mesh p))%nat) (map sp_base ps) fs /\
      forall k c, (k < 3)%nat -> rsum (fun pf => mine k c (fst pf) (snd pf)) (combine (map sp_base ps) fs) =
        rsum (gcontrib S2 m u (component k) c) (concat ges) + rsum (gbcontrib S2 m u (component k) c) (concat gbs).
  Proof.
    induction ps as [|p ps IH]; intros us grads ges gbs HP HU HS HG IG HB IB; cbn [map] in HG, HB; inversion HU; inversion HS; inversion HG; inversion HB; subst.
    - exists []. split; [reflexivity|]. split; [constructor|]. intros. cbn [map combine rsum concat]. ring.
    - rename y into x. rename y0 into gr. rename y1 into es. rename y2 into bes. cbn [concat] in IG, IB. cbn [combine omap fst snd map].
      destruct (HP p (or_introl eq_refl)) as (PO & GO).
      assert (I1 : incl es (iedges m)) by (intros e He; apply IG; apply in_or_app; left; exact He).
      assert (I2 : incl bes (bedges m)) by (intros e He; apply IB; apply in_or_app; left; exact He).
      assert (O1 : owned_edges_are (rank_of (sp_base p)) es) by (unfold owned_edges_are; rewrite rank_owned_edges; assumption).
      assert (O2 : owned_bedges_are (rank_of (sp_base p)) bes) by (unfold owned_bedges_are; rewrite rank_owned_bedges; assumption).
      match goal with H1 : local_ok u (sp_base p) x, H2 : has_slopes G m u p gr |- _ =>
        destruct (muscl_flux_total lim cf G m g src p C PO GO UG dtm dt u f1 f2 es bes x gr E1 E2 O1 O2 I1 I2 H1 H2) as (y & Ey & Ly & Vy) end.
      cbv zeta. cbn [fst snd]. rewrite Ey, obind_Some.
      edestruct IH as (fs & Efs & Lfs & Vfs); [intros q Hq; apply HP; right; exact Hq|eassumption|eassumption|eassumption|intros e He; apply IG; apply in_or_app; right; exact He|eassumption|intros e He; apply IB; apply in_or_app; right; exact He|].
      cbv zeta in Efs. rewrite Efs, obind_Some. exists (y :: fs). split; [reflexivity|]. split; [constructor; assumption|]. intros k c Hk. cbn [combine rsum fst snd concat]. rewrite !rsum_app.
      rewrite (Vfs k c Hk), (Vy k c Hk). ring.
  Qed.
End RHS2.

(* Any number of processes, any distribution of a mesh over them: if the second-order right-hand side of the whole
   domain is defined for a field, the parts of a global vector holding the field are turned into parts holding the
   right-hand side. *)
Theorem C79_rhs : forall lim cf G m g src dtm dt ps U u f,
  flow_config cf -> unoriented G -> mesh_wf m -> distributed2 cf G m g src ps -> holds (layout (map sp_base ps)) U u ->
  rhs_domain (scheme2_of lim cf G m g) m dt src u = Some f ->
  exists U', OperatorRHSFunction2 lim cf dtm dt ps U = Some U' /\ holds (layout (map sp_base ps)) U' f.
Proof.
  intros lim cf G m g src dtm dt ps U u f C UG WF D H Hf. rewrite rhs_frozen in Hf. assert (D0 := d2_distributed _ _ _ _ _ _ D).
  destruct (serial_steps _ m dt src u f Hf) as (f1 & f2 & E1 & E2 & E3 & V).
  unfold OperatorRHSFunction2, ApplyCeedOperator2.
  destruct (omap_rel (dm_global_to_local 3 U) (local_ok u) (map sp_base ps)) as (us & Eus & Fus).
  { intros p Hp. exact (global_to_local_ok _ _ _ _ _ _ _ U u p D0 H Hp). }
  rewrite Eus, obind_Some. assert (Fus' := proj2 (Forall2_map_l _ _ _ _) Fus).
  destruct (slopes_ok cf G m g src ps us u D Fus') as (grads & Eg & HS). rewrite Eg, obind_Some.
  destruct (CeedRunSpec.di_iedges _ _ _ _ _ _ _ D0) as (ges & FG & PG). destruct (CeedRunSpec.di_bedges _ _ _ _ _ _ _ D0) as (gbs & FB & PB).
  destruct (muscl_fluxes_ok lim cf G m g src dtm dt u f1 f2 C UG E1 E2 ps us grads ges gbs) as (fs & Efs & Lfs & Vfs);
    [intros p Hp; split; [exact (CeedRunSpec.di_processes _ _ _ _ _ _ _ D0 _ (in_map _ _ _ Hp))|exact (d2_geometry _ _ _ _ _ _ D p Hp)]|exact Fus'|exact HS|exact FG|exact (fun e He => Permutation_in e PG He)|exact FB|exact (fun e He => Permutation_in e PB He)|].
  cbv zeta in Efs |- *. rewrite Efs, obind_Some.
  destruct (divergence_holds Standard cf m (fun _ => 0) g src (map sp_base ps) fs f2 D0 (proj1 WF) Lfs) as (divs & Ed & HD).
  { intros k c Hk. rewrite (Vfs k c Hk). rewrite (V (component k) (component_add k) (component_scal k) c), component_zero, Rplus_0_l.
    rewrite (rsum_perm _ _ _ PG), (rsum_perm _ _ _ PB). reflexivity. }
  rewrite Ed, obind_Some. exact (sources_hold Standard cf m (fun _ => 0) g src dt (map sp_base ps) us divs u f2 f C (proj1 WF) D0 Fus HD E3).
Qed.
Print Assumptions C79_rhs.

(** ** Whole runs *)
(* what the processes hold during the steps of a run: boundary values and sources change, the layout of the
   global vectors does not *)
Definition run_distributed2 (cf : cconfig) (G : geometry) (m : mesh) (g : cellgeom) (L : list (list nat)) (x : step_input) (st : R * list sprocess) : Prop :=
  fst st = st_dt x /\ boundary_in m (st_bedges x) /\ layout (map sp_base (snd st)) = L /\ distributed2 cf G (with_boundary m (st_bedges x)) g (st_src x) (snd st).

Theorem C79_run : forall i lim cf G m g dtm L xs steps U u u',
  flow_config cf -> unoriented G -> well_formed m -> Forall2 (run_distributed2 cf G m g L) xs steps -> holds L U u ->
  run i (scheme2_of lim cf G m g) m xs u = Some u' ->
  exists U', muscl_run i lim cf dtm steps U = Some U' /\ holds L U' u'.
Proof.
  intros i lim cf G m g dtm L xs steps U u u' C UG WF F. revert U u. unfold run, muscl_run. induction F as [|x st xs steps Hx F IH]; intros U u HU H; cbn [ofold] in *.
  - injection H as <-. exists U. split; [reflexivity|exact HU].
  - apply obind_some in H. destruct H as (u1 & E1 & H). destruct Hx as (Hdt & Hb & HL & HD). unfold advance_step in E1.
    destruct (vec_step_ok i L (OperatorRHSFunction2 lim cf dtm (fst st) (snd st)) (rhs_domain (scheme2_of lim cf G m g) (with_boundary m (st_bedges x)) (st_dt x) (st_src x)) (st_dt x) U u u1) as (U1 & EU & HU1); [|exact HU|exact E1|].
    { intros V v f HV Hf. rewrite <- HL in HV |- *. rewrite Hdt. eapply (C79_rhs lim cf G (with_boundary m (st_bedges x)) g (st_src x)); [exact C|exact UG| |exact HD|exact HV|exact Hf].
      destruct WF as (W1 & W2). split; [exact W1|]. split; [exact W2|exact Hb]. }
    rewrite Hdt in EU |- *. rewrite EU, obind_Some. apply (IH U1 u1 HU1 H).
Qed.
Print Assumptions C79_run.

(** ** What this says about the arrays *)

(* two distributions of the same problem compute the same field *)
Theorem C79_any_number_of_processes : forall i lim cf G m g dtm dtm' L L' xs steps steps' U U' u u',
  flow_config cf -> unoriented G -> well_formed m ->
  Forall2 (run_distributed2 cf G m g L) xs steps -> holds L U u ->
  Forall2 (run_distributed2 cf G m g L') xs steps' -> holds L' U' u ->
  run i (scheme2_of lim cf G m g) m xs u = Some u' ->
  exists V V', muscl_run i lim cf dtm steps U = Some V /\ muscl_run i lim cf dtm' steps' U' = Some V' /\
    forall r j c r' j' gs gs' x x', nth_error L r = Some gs -> nth_error gs j = Some c -> nth_error V r = Some x ->
      nth_error L' r' = Some gs' -> nth_error gs' j' = Some c -> nth_error V' r' = Some x' -> block 3 x j = block 3 x' j'.
Proof.
  intros i lim cf G m g dtm dtm' L L' xs steps steps' U U' u u' C UG WF F HU F' HU' H.
  destruct (C79_run i lim cf G m g dtm L xs steps U u u' C UG WF F HU H) as (V & EV & HV). destruct (C79_run i lim cf G m g dtm' L' xs steps' U' u u' C UG WF F' HU' H) as (V' & EV' & HV').
  exists V, V'. split; [exact EV|]. split; [exact EV'|]. intros r j c r' j' gs gs' x x' A B Hx A' B' Hx'.
  destruct (Forall2_get _ _ _ _ _ HV A) as (y & Hy & _ & Py). destruct (Forall2_get _ _ _ _ _ HV' A') as (y' & Hy' & _ & Py').
  assert (y = x) by congruence. assert (y' = x') by congruence. subst. rewrite (Py _ _ B), (Py' _ _ B'). reflexivity.
Qed.
Print Assumptions C79_any_number_of_processes.

(* in a closed basin the arrays of all processes together keep the water *)
Theorem C79_volume : forall i lim cf G m g dtm L xs steps U u u',
  flow_config cf -> unoriented G -> well_formed m -> Permutation (concat L) (cells m) -> Forall2 (run_distributed2 cf G m g L) xs steps -> holds L U u ->
  (forall x, In x xs -> closed m x) ->
  run i (scheme2_of lim cf G m g) m xs u = Some u' ->
  exists U', muscl_run i lim cf dtm steps U = Some U' /\ array_volume m L U' = array_volume m L U.
Proof.
  intros i lim cf G m g dtm L xs steps U u u' C UG WF P F HU HC H.
  destruct (C79_run i lim cf G m g dtm L xs steps U u u' C UG WF F HU H) as (U' & E & HU'). exists U'. split; [exact E|].
  rewrite (array_volume_holds m L U u HU), (array_volume_holds m L U' u' HU'). rewrite !(rsum_perm _ _ _ P).
  apply (C09_closed_basin_keeps_volume i (scheme2_of lim cf G m g) m xs u u'); [|exact WF|exact HC|exact H].
  destruct C as (_ & _ & T). unfold scheme2_of. constructor; exact T.
Qed.
Print Assumptions C79_volume.

(* a uniform flow over a flat frictionless bed: the run succeeds and the arrays still hold the flow *)
Theorem C79_uniform_flow : forall i lim cf G m g dtm L xs steps U q,
  flow_config cf -> unoriented G -> well_formed m -> Forall2 (run_distributed2 cf G m g L) xs steps -> holds L U (uniform q) ->
  cf_tiny_h cf < c0 q -> smooth (friction_of cf) g m -> (forall c, In c (cells m) -> area m c <> 0) ->
  (forall x, In x xs -> (forall e, In e (st_bedges x) -> compatible q e) /\ forall c, In c (cells m) -> st_src x c = vzero /\ cell_closes m (st_bedges x) c) ->
  exists U', muscl_run i lim cf dtm steps U = Some U' /\ holds L U' (uniform q).
Proof.
  intros i lim cf G m g dtm L xs steps U q C UG WF F HU HT HS HA HX.
  apply (C79_run i lim cf G m g dtm L xs steps U (uniform q) (uniform q) C UG WF F HU).
  apply C55_uniform_flow_preserved; [|exact WF|exact HA|].
  - unfold scheme2_of. apply Flat_ceed_2r; [|exact HS]. destruct C as (_ & _ & T). lra.
  - intros x Hx. destruct (HX x Hx) as (A & B). split; [|split; [exact A|exact B]].
    apply Forall2_in_l with (a := x) in F; [|exact Hx]. destruct F as (st & _ & _ & Hb & _). exact Hb.
Qed.
Print Assumptions C79_uniform_flow.

(** ** An evaluation never fails *)
Lemma rhs_defined s m dt src u : mesh_wf m -> (forall c, In c (cells m) -> area m c <> 0) ->
  (forall e, In e (iedges m) -> exists x, s_interior s u e = Some x) -> (forall e, In e (bedges m) -> exists x, s_boundary s u e = Some x) ->
  (forall c F, In c (cells m) -> exists v, s_source s dt u src c F = Some v) -> exists f, rhs_domain s m dt src u = Some f.
Proof.
  intros (Hnd & Hi & Hb) Ha HK HKB HSrc. unfold rhs_domain, flux_divergence.
  set (k := fun e => match s_interior s u e with Some x => x | None => (vzero, vzero, 0) end).
  destruct (interior_loop_val vadd vscal c0 (fun _ _ => eq_refl) (fun _ _ => eq_refl) everything (area m) (s_interior s u) k (iedges m)) with (f := zero_field) as (f1 & E1 & _).
  { intros e He. unfold k. destruct (HK e He) as (x & ->). reflexivity. }
  { intros e He. destruct (Hi e He) as (H1 & H2). split; apply Ha; assumption. }
  rewrite E1. cbn [obind].
  set (kb := fun e => match s_boundary s u e with Some x => x | None => (vzero, 0) end).
  destruct (boundary_loop_val vadd vscal c0 (fun _ _ => eq_refl) (fun _ _ => eq_refl) everything (area m) (s_boundary s u) kb (bedges m)) with (f := f1) as (f2 & E2 & _).
  { intros e He _. unfold kb. destruct (HKB e He) as (x & ->). reflexivity. }
  { intros e He _. apply Ha, Hb, He. }
  rewrite E2. cbn [obind]. apply source_loop_some; [exact Hnd|]. intros c Hc. apply HSrc, Hc.
Qed.
(* with semi-implicit friction every evaluation on a distributed mesh succeeds if the depths at the boundary are
   not negative; in the interior they may be *)
Theorem C79_defined : forall lim cf G m g src dtm dt ps U u,
  flow_config cf -> cf_source cf = SOURCE_SEMI_IMPLICIT -> unoriented G -> mesh_wf m -> 0 <= dt -> (forall c, In c (cells m) -> area m c <> 0) ->
  (forall e, In e (bedges m) -> bc_ok (be_bc e) /\ 0 <= c0 (u (be_c e))) ->
  distributed2 cf G m g src ps -> holds (layout (map sp_base ps)) U u ->
  exists U', OperatorRHSFunction2 lim cf dtm dt ps U = Some U'.
Proof.
  intros lim cf G m g src dtm dt ps U u C SI UG WF Hdt Ha Hb D HU. assert (T := proj2 (proj2 C)).
  destruct (rhs_defined (scheme2_of lim cf G m g) m dt src u WF Ha) as (f & E).
  - intros e _. unfold scheme2_of. cbn [s_interior ceed_2r_scheme]. unfold face_states. cbn [fst snd]. rewrite ceed_interior_edge_some; [|exact GRAVITY_pos|lra|apply Rmax_l|apply Rmax_l].
    destruct (_ || _)%bool; cbn; eauto.
  - intros e He. destruct (Hb e He) as (B1 & B2). unfold scheme2_of. cbn [s_boundary ceed_2r_scheme ceed_scheme].
    destruct (ceed_boundary_edge_some GRAVITY (cf_tiny_h cf) (cf_h_anuga cf) (be_bc e) (u (be_c e)) (be_sn e) (be_cn e) 0 GRAVITY_pos (Rlt_le _ _ T) B2 B1) as (x & a & X). eauto.
  - intros c F Hc. unfold scheme2_of. cbn [s_source ceed_2r_scheme ceed_scheme]. unfold friction_of. rewrite SI.
    destruct (Rlt_dec (cf_tiny_h cf) (c0 (u c))) as [Hw|Hd].
    + edestruct (ceed_semi_implicit_step GRAVITY) as (sg & r & _ & _ & X & _); [exact GRAVITY_pos|exact Hdt|exact (Rlt_le _ _ T)|exact Hw|]. eexists. exact X.
    + rewrite ceed_rhs_dry by lra. eauto.
  - destruct (C79_rhs lim cf G m g src dtm dt ps U u f C UG WF D HU E) as (U' & EU & _). eauto.
Qed.
Print Assumptions C79_defined.

(** ** An example: three squares in an L on two processes; the first owns the corner and its right neighbour, the
    second the square above the corner *)
Definition above (b : bool) (c : nat) : nat := if b then (match c with 0 => 2 | 1 => 0 | _ => c end)%nat else c.
Definition above_inv (b : bool) (c : nat) : nat := if b then (match c with 2 => 0 | 0 => 1 | _ => c end)%nat else c.
Definition ell_points (v : nat) : pt := nth v [Pt 0 0; Pt 1 0; Pt 2 0; Pt 0 1; Pt 1 1; Pt 2 1; Pt 0 2; Pt 1 2] (Pt 0 0).
Definition ell_mesh (b : bool) : cmesh :=
  CMesh (if b then 2 else 3)%nat 8 (if b then [1] else [0;1])%nat (fun k => above_inv b (nth k [0;1;0;2;0;0;0;0;1;1;1;1;1;1;2;2;2;2;2;2]%nat 0%nat))
        (fun k => nth k [1;4;3;4;0;1;3;0;1;2;2;5;5;4;6;3;7;6;4;7]%nat 0%nat) (fun e => if b then Nat.leb 7 e else Nat.ltb e 7)
        (fun e => nth e [0;1;-1;0;-1;0;1;0;1;0] 0) (fun e => nth e [1;0;0;-1;0;1;0;-1;0;1] 0) (fun _ => 1) (fun _ => 1)
        (fun c => Nat.ltb c (if b then 1 else 2)) (fun c => c) (fun _ => 0) (fun _ => 0) (fun _ => 0).
Definition ell_process (n : R) (b : bool) : sprocess :=
  SProcess (CProcess (HMesh (ell_mesh b) (fun c => 4 * c)%nat (fun _ => 0%nat) (fun _ => 4%nat) (fun _ => 0))
                     [CBoundary (if b then [2;3;7;8;9] else [2;3;4;5;6;7;8;9])%nat REFLECTING []] (if b then [0;0;0] else [0;0;0;0;0;0]) (if b then [n] else [n;n]) (above b)
                     (fun c => nth (above b c) [(0,0);(0,1);(1,0)]%nat (0,0)%nat))
           (fun c => nth (above b c) [Pt (1/2) (1/2); Pt (3/2) (1/2); Pt (1/2) (3/2)] (Pt 0 0)) ell_points.
Definition ell_ps (n : R) : list sprocess := [ell_process n false; ell_process n true].
Definition ell : mesh :=
  Mesh [0;1;2]%nat (fun _ => 1) [IEdge 0 1 1 0 1; IEdge 0 2 1 1 0]
    [BEdge 0 1 (-1) 0 BCReflecting; BEdge 0 1 0 (-1) BCReflecting; BEdge 1 1 (-1) 0 BCReflecting; BEdge 1 1 0 1 BCReflecting; BEdge 1 1 1 0 BCReflecting;
     BEdge 2 1 0 (-1) BCReflecting; BEdge 2 1 1 0 BCReflecting; BEdge 2 1 0 1 BCReflecting].
Definition ell_shape : geometry :=
  Geometry (fun c => nth c [Pt (1/2) (1/2); Pt (3/2) (1/2); Pt (1/2) (3/2)] (Pt 0 0)) (fun e => if Nat.eqb (ie_l e + ie_r e) 1 then Pt 1 (1/2) else Pt (1/2) 1).
Definition ell_geom (n : R) : cellgeom := CellGeom (fun _ => n) (fun _ => 0) (fun _ => 0).
Lemma below_three c : (c < 3)%nat -> c = 0%nat \/ c = 1%nat \/ c = 2%nat. Proof. lia. Qed.
Lemma ell_cells b c : (c < cm_cells (ell_mesh b))%nat -> c = 0%nat \/ c = 1%nat \/ (b = false /\ c = 2%nat).
Proof. destruct b; cbn; intros H; [lia|]. destruct (below_three c H) as [-> | [-> | ->]]; auto. Qed.
Lemma ell_unoriented : unoriented ell_shape.
Proof. intros e. cbn [midpoint ell_shape reverse ie_l ie_r]. rewrite Nat.add_comm. reflexivity. Qed.
Lemma ell_wf : mesh_wf ell.
Proof.
  split; [cbn; repeat constructor; cbn; lia|]. split; [intros e [<-|[<-|[]]]; cbn; auto|]. intros e He. cbn in He. repeat (destruct He as [<-|He]; [cbn; tauto|]). contradiction.
Qed.
Lemma ell_process_ok n b : process_ok Standard (one_config 0 false) ell (fun _ => 0) (ell_geom n) (fun _ => vzero) (sp_base (ell_process n b)).
Proof.
  constructor.
  - constructor.
    + intros e He _. destruct b; cbn in He; repeat (destruct He as [<-|He]; [unfold edge_ok; cbn; repeat split; try lia; lra|]); contradiction.
    + intros bd e [<-|[]] He _. destruct b; cbn in He; repeat (destruct He as [<-|He]; [unfold edge_ok; cbn; repeat split; try lia; lra|]); contradiction.
    + intros c Hc. exact Hc.
    + intros c c' _ _ E. exact E.
  - intros bd [<-|[]] X. discriminate X.
  - constructor.
    + destruct b; cbn; repeat constructor; cbn; lia.
    + intros x y Hx Hy. destruct b; cbn in Hx, Hy; repeat (destruct Hx as [<-|Hx]; [repeat (destruct Hy as [<-|Hy]; [cbn; lia|]); contradiction|]); contradiction.
    + intros l Hl. destruct b; cbn in Hl; repeat (destruct Hl as [<-|Hl]; [cbn; lia|]); contradiction.
    + intros e He. destruct b; cbn in He; repeat (destruct He as [<-|He]; [cbn; lia|]); contradiction.
    + intros e He. destruct b; cbn in He; repeat (destruct He as [<-|He]; [cbn; lia|]); contradiction.
  - exists (if b then 1 else 2)%nat. intros c Hc. reflexivity.
  - intros c Hc. change (c = local_to_owned (rank_of (sp_base (ell_process n b))) c). symmetry. apply ghosts_last_identity; [|change (In c (seq 0 (cm_cells (ell_mesh b)))); apply in_seq; split; [lia|exact Hc]].
    exists (cm_cells (ell_mesh b)), (if b then 1 else 2)%nat. split; reflexivity.
  - intros c Hc. reflexivity.
  - intros _ c Hc. split; reflexivity.
  - discriminate.
  - destruct b; reflexivity.
  - destruct b; reflexivity.
  - intros i c Hi. destruct b; cbn in Hi; repeat (destruct i as [|i]; [reflexivity|]); destruct i; discriminate.
  - intros i c Hi. destruct b; cbn in Hi; repeat (destruct i as [|i]; [reflexivity|]); destruct i; discriminate.
Qed.
Lemma ell_geometry_ok n b : geometry_ok ell_shape ell (ell_process n b).
Proof.
  constructor.
  - intros c Hc. reflexivity.
  - intros e He. destruct b; cbn in He; repeat (destruct He as [<-|He]; [unfold midpoint_of; cbn; apply f_equal2; field|]); contradiction.
  - intros e He. destruct b; cbn in He; repeat (destruct He as [<-|He]; [cbn; lia|]); contradiction.
  - destruct b; [exists [IEdge 0 2 1 1 0]|exists (iedges ell)]; (split; [|cbn; apply Permutation_refl]); repeat constructor; exists false; cbn; repeat split; reflexivity.
Qed.
Lemma ell_distributed n : distributed2 (one_config 0 false) ell_shape ell (ell_geom n) (fun _ => vzero) (ell_ps n).
Proof.
  constructor.
  - constructor.
    + intros p [<-|[<-|[]]]; apply ell_process_ok.
    + apply Permutation_refl.
    + exists [iedges ell; []]. split; [|cbn; apply Permutation_refl]. repeat constructor; exists false; cbn; repeat split; reflexivity.
    + exists [firstn 5 (bedges ell); skipn 5 (bedges ell)]. split; [|cbn; apply Permutation_refl]. repeat constructor.
    + intros p c Hp Hc. assert (exists b, p = sp_base (ell_process n b)) as (b & ->) by (destruct Hp as [<-|[<-|[]]]; eauto).
      destruct (ell_cells b c Hc) as [-> | [-> | (-> & ->)]]; [destruct b|destruct b|]; cbn; eexists; split; reflexivity.
  - intros p [<-|[<-|[]]]; apply ell_geometry_ok.
Qed.
Definition ell_step : step_input := StepInput (1/10) (bedges ell) (fun _ => vzero).
Lemma ell_run n : run_distributed2 (one_config 0 false) ell_shape ell (ell_geom n) [[0;1];[2]]%nat ell_step (1/10, ell_ps n).
Proof. split; [reflexivity|]. split; [exact (proj2 (proj2 ell_wf))|]. split; [reflexivity|exact (ell_distributed n)]. Qed.
Lemma ell_closed : closed ell ell_step.
Proof.
  split; [|reflexivity]. intros e He. cbn in He. repeat (destruct He as [<-|He]; [split; [cbn; tauto|split; [reflexivity|cbn; ring]]|]). contradiction.
Qed.
Definition ell_dam (c : nat) : vec3 := if Nat.eqb c 0 then V3 2 0 0 else V3 1 0 0.
(* a dam around the corner breaks: the step succeeds and keeps the four cubic metres *)
Example C79_dam_break_example : exists U', muscl_run Euler LimVanLeer (one_config 0 false) 0 [(1/10, ell_ps (1/50))] [[2;0;0;1;0;0]; [1;0;0]] = Some U' /\ array_volume ell [[0;1];[2]]%nat U' = 4.
Proof.
  assert (C : flow_config (one_config 0 false)) by (repeat split; cbn; lra).
  assert (HU : holds [[0;1];[2]]%nat [[2;0;0;1;0;0]; [1;0;0]] ell_dam).
  { repeat constructor; (intros i c Hi; do 2 (destruct i as [|i]; [try discriminate Hi; injection Hi as <-; reflexivity|]); destruct i; discriminate). }
  destruct (rhs_defined (scheme2_of LimVanLeer (one_config 0 false) ell_shape ell (ell_geom (1/50))) ell (1/10) (fun _ => vzero) ell_dam ell_wf) as (f & E).
  - intros c _. cbn. lra.
  - intros e _. unfold scheme2_of. cbn [s_interior ceed_2r_scheme]. unfold face_states. cbn [fst snd]. rewrite ceed_interior_edge_some; [|exact GRAVITY_pos|cbn; lra|apply Rmax_l|apply Rmax_l].
    destruct (_ || _)%bool; cbn; eauto.
  - intros e He. unfold scheme2_of. cbn [s_boundary ceed_2r_scheme ceed_scheme].
    destruct (ceed_boundary_edge_some GRAVITY (1/1000) 0 (be_bc e) (ell_dam (be_c e)) (be_sn e) (be_cn e) 0 GRAVITY_pos) as (x & a & X); [lra|unfold ell_dam; destruct (Nat.eqb _ _); cbn; lra| |eauto].
    cbn in He. repeat (destruct He as [<-|He]; [exact I|]). contradiction.
  - intros c F Hc. unfold scheme2_of. cbn [s_source ceed_2r_scheme ceed_scheme].
    edestruct (ceed_semi_implicit_step GRAVITY) as (sg & r & _ & _ & X & _); [exact GRAVITY_pos| | | |eexists; exact X]; [lra|cbn; lra|unfold ell_dam; destruct (Nat.eqb _ _); cbn; lra].
  - destruct (C79_volume Euler LimVanLeer (one_config 0 false) ell_shape ell (ell_geom (1/50)) 0 [[0;1];[2]]%nat [ell_step] [(1/10, ell_ps (1/50))] [[2;0;0;1;0;0]; [1;0;0]] ell_dam
                (fun c => vadd (ell_dam c) (vscal (1/10) (f c))) C ell_unoriented (conj (proj1 ell_wf) (proj1 (proj2 ell_wf))) (Permutation_refl _)) as (U' & EU & V).
    + constructor; [apply ell_run|constructor].
    + exact HU.
    + intros x [<-|[]]. exact ell_closed.
    + cbn [run ofold]. unfold run. cbn [ofold]. unfold advance_step, ts_step, euler_step. change (with_boundary ell (st_bedges ell_step)) with ell. cbn [ell_step st_dt st_src].
      rewrite E. reflexivity.
    + exists U'. split; [exact EU|]. rewrite V, (array_volume_holds _ _ _ _ HU). cbn. ring.
Qed.
(* still water stays still through two Runge-Kutta steps *)
Example C79_still_example : exists U', muscl_run RK4 LimMinmod (one_config 0 false) 0 [(1/10, ell_ps 0); (1/10, ell_ps 0)] [[2;0;0;2;0;0]; [2;0;0]] = Some U' /\ holds [[0;1];[2]]%nat U' (uniform (V3 2 0 0)).
Proof.
  apply (C79_uniform_flow RK4 LimMinmod (one_config 0 false) ell_shape ell (ell_geom 0) 0 [[0;1];[2]]%nat [ell_step; ell_step]).
  - repeat split; cbn; lra.
  - exact ell_unoriented.
  - exact (conj (proj1 ell_wf) (proj1 (proj2 ell_wf))).
  - constructor; [apply ell_run|constructor; [apply ell_run|constructor]].
  - repeat constructor; (intros i c Hi; do 2 (destruct i as [|i]; [try discriminate Hi; injection Hi as <-; reflexivity|]); destruct i; discriminate).
  - cbn. lra.
  - split; [intros c _; repeat split; reflexivity|exact I].
  - intros c _. cbn. lra.
  - intros x Hx. assert (x = ell_step) as -> by (destruct Hx as [<-|[<-|[]]]; reflexivity). split.
    + intros e He. cbn in He. do 8 (destruct He as [<-|He]; [right; unfold FluxProperties.unit_normal, FluxProperties.along; cbn; repeat split; lra|]). contradiction.
    + intros c Hc. split; [reflexivity|]. unfold cell_closes. destruct Hc as [<-|[<-|[<-|[]]]]; cbn; split; ring.
Qed.
