(** C73: the PETSc back end, from the parts of the global solution to the parts of the global right-hand side,
    with the arrays kept by its boundary operators, and whole runs. *)
From Coq Require Import String.
From Verif Require Import Base RoeModel RoeProofs EdgeModel EdgeProofs HRModel EtaModel SourceModel AssemblyModel AssemblyProofs DecompModel DecompSpec DecompProofs DecompProperties
  MeshMapsProofs AMRProofs ConservationProperties HRProperties CeedLayoutModel CeedLayoutSpec CeedLayoutProofs CeedLayoutProperties CeedMusclProofs CeedHRModel CeedHRSpec CeedHRProofs CeedHRProperties
  CeedRunModel CeedRunSpec CeedRunProofs CeedRunProperties PetscRunModel PetscRunSpec PetscRunProofs.
Local Open Scope R_scope.
Local Notation length := List.length.

(** ** One evaluation *)
Lemma petsc_global_to_local ps U u p : (forall c, (c < cm_cells (cp_mesh p))%nat ->
    exists gs, nth_error (layout ps) (fst (cp_sf p c)) = Some gs /\ nth_error gs (snd (cp_sf p c)) = Some (cp_gid p c)) -> holds (layout ps) U u ->
  exists x, dm_global_to_local 3 U p = Some x /\ local_ok u p x.
Proof.
  intros D H. unfold dm_global_to_local, local_ok.
  rewrite (omap_map _ (fun c => comps3 (u (cp_gid p c)))).
  - rewrite obind_Some. eexists. split; [reflexivity|]. split.
    + rewrite (concat_length_const 3); [rewrite map_length, seq_length; reflexivity|]. intros r Hr. apply in_map_iff in Hr. destruct Hr as (c & <- & _). reflexivity.
    + intros c Hc.
      assert (F := fetch_concat 3 (fun c => comps3 (u (cp_gid p c))) (seq 0 (cm_cells (cp_mesh p))) c c (fun _ => eq_refl) (nth_error_seq0 _ _ Hc)).
      rewrite fetch_block in F; [injection F as F; exact F|].
      rewrite (concat_length_const 3); [rewrite map_length, seq_length; lia|]. intros r Hr. apply in_map_iff in Hr. destruct Hr as (c' & <- & _). reflexivity.
  - intros c Hc. apply in_seq in Hc. destruct (D c ltac:(lia)) as (gs & E1 & E2).
    destruct (Forall2_get _ _ _ _ _ H E1) as (x & Ex & Lx & Vx). rewrite Ex, obind_Some.
    assert ((snd (cp_sf p c) < length gs)%nat) by (apply nth_error_Some; congruence).
    rewrite fetch_block by lia. rewrite (Vx _ _ E2). reflexivity.
Qed.

(* the boundary operators of a process record the fluxes of the state [u] *)
Definition all_recorded (cf : cconfig) (u : nat -> vec3) (dt : R) (p : cprocess) (sts sts' : list bop) : Prop :=
  Forall2 (fun bst st' => records cf u dt p (fst bst) (snd bst) st') (combine (cp_bounds p) sts) sts'.

Lemma sized_entries M x i c q : numbered M -> sized M x -> nth_error (owned_cells M) i = Some c -> (forall k, (k < 3)%nat -> value M x c k = component k q) -> block 3 x i = comps3 q.
Proof.
  intros NB S Hi V. assert (i < length (owned_cells M))%nat by (apply nth_error_Some; congruence). unfold sized in S.
  apply (block_ext 3); [apply block_length; lia|reflexivity|]. intros k Hk. rewrite nth_block by exact Hk. specialize (V k Hk). unfold value in V. rewrite (NB i c Hi) in V.
  rewrite (Nat.mul_comm i 3). exact V.
Qed.

Lemma petsc_process w cf m z g src dt p u ul sts f :
  petsc_config cf -> mesh_wf m -> petsc_process_ok w cf m z g src p -> local_ok u p ul -> Forall2 bop_sized (map cb_edges (cp_bounds p)) sts ->
  rhs_domain (petsc_scheme_of w cf z g) m dt src u = Some f ->
  exists x pvs sts', ApplyPetscOperator w cf dt p ul sts = Some (x, pvs, sts') /\ part_holds f (map (cp_gid p) (owned_cells (cp_mesh p))) x /\
    primitives cf u p pvs /\ Forall2 bop_sized (map cb_edges (cp_bounds p)) sts' /\ all_recorded cf u dt p sts sts'.
Proof.
  intros C WF PO (Lu & Vu) SZ Hf. assert (NB := pp_numbered _ _ _ _ _ _ _ PO). assert (T := proj2 (proj2 (proj1 C))).
  destruct (rank_rhs_ok (petsc_scheme_of w cf z g) (petsc_scheme_of w cf (fun l => z (cp_gid p l)) (geom_at (cp_gid p) g)) m (prank_of p) dt src u u f
    (petsc_scheme_view w cf z g (cp_gid p) T) (pp_numbering _ _ _ _ _ _ _ PO) WF (fun c _ => eq_refl) Hf (pp_overlap _ _ _ _ _ _ _ PO)) as (fl & Efl & Vfl).
  destruct (petsc_operator_ok w cf m z g src p C PO u ul Lu Vu dt sts fl SZ Efl) as (x & pvs & sts' & E & Sx & Vx & Sp & Vp & Z & RC).
  exists x, pvs, sts'. split; [exact E|]. split; [|split; [|split; [exact Z|exact RC]]].
  - split; [rewrite map_length; exact Sx|]. intros i c Hi. rewrite nth_error_map in Hi. destruct (nth_error (owned_cells (cp_mesh p)) i) as [l|] eqn:El; [|discriminate]. injection Hi as <-.
    assert (Hl : In l (owned_cells (cp_mesh p))) by (eapply nth_error_In; exact El). apply (sized_entries _ _ _ l _ NB Sx El). intros k Hk. rewrite (Vx l k Hl Hk). destruct (owned_range _ _ Hl).
    rewrite (Vfl l); [reflexivity|cbn; apply in_seq; lia|assumption].
  - split; [exact Sp|]. intros i l El. assert (Hl : In l (owned_cells (cp_mesh p))) by (eapply nth_error_In; exact El). eexists. split; [apply petsc_velocities_some; exact T|].
    exact (sized_entries _ _ _ l _ NB Sp El (fun k Hk => Vp l k Hl Hk)).
Qed.

(* Any number of processes, any distribution of a mesh over them, whatever the arrays of the boundary operators
   hold from earlier evaluations: if the right-hand side of the whole domain is defined for a field, the parts of a
   global vector holding the field are turned into parts holding the right-hand side, and the fluxes through the
   boundary are recorded. *)
Theorem C73_rhs : forall w cf m z g src dt ps S U u f,
  petsc_config cf -> mesh_wf m -> petsc_distributed w cf m z g src ps -> bops_sized (boundary_edges ps) S -> holds (layout ps) U u ->
  rhs_domain (petsc_scheme_of w cf z g) m dt src u = Some f ->
  exists U' S', PetscRHSFunction w cf dt ps S U = Some (U', S') /\ holds (layout ps) U' f /\ bops_sized (boundary_edges ps) S' /\
    Forall2 (fun psts sts' => all_recorded cf u dt (fst psts) (snd psts) sts') (combine ps S) S'.
Proof.
  intros w cf m z g src dt ps S U u f C WF D SZ H Hf. unfold PetscRHSFunction.
  destruct (omap_rel (dm_global_to_local 3 U) (local_ok u) ps) as (us & Eus & Fus).
  { intros p Hp. apply (petsc_global_to_local ps); [intros c Hc; exact (pd_sf _ _ _ _ _ _ _ D p c Hp Hc)|exact H]. }
  rewrite Eus, obind_Some.
  assert (G : exists rs, omap (fun x => ApplyPetscOperator w cf dt (fst (fst x)) (snd (fst x)) (snd x)) (combine (combine ps us) S) = Some rs /\
    Forall2 (part_holds f) (layout ps) (map (fun r => fst (fst r)) rs) /\ Forall2 (Forall2 bop_sized) (boundary_edges ps) (map snd rs) /\
    Forall2 (fun psts sts' => all_recorded cf u dt (fst psts) (snd psts) sts') (combine ps S) (map snd rs)).
  { assert (HP := pd_processes _ _ _ _ _ _ _ D). clear Eus H D. unfold bops_sized, boundary_edges, layout in *. revert us S Fus SZ HP. induction ps as [|p ps IH]; intros us S Fus SZ HP; cbn [map] in SZ; inversion Fus; inversion SZ; subst.
    - exists []. cbn. repeat split; constructor.
    - cbn [combine omap fst snd].
      match goal with X : local_ok u p ?x, Y : Forall2 bop_sized _ ?s |- _ => destruct (petsc_process w cf m z g src dt p u x s f C WF (HP p (or_introl eq_refl)) X Y Hf) as (xr & pvs & sts' & E & V & _ & Z & RC) end.
      rewrite E, obind_Some. edestruct IH as (rs & Ers & V2 & Z2 & RC2); [eassumption|eassumption|intros q Hq; apply HP; right; exact Hq|].
      rewrite Ers, obind_Some. exists ((xr, pvs, sts') :: rs). split; [reflexivity|]. cbn [map fst snd]. repeat split; constructor; assumption. }
  destruct G as (rs & Ers & V & Z & RC). rewrite Ers, obind_Some. do 2 eexists. split; [reflexivity|]. auto.
Qed.
Print Assumptions C73_rhs.

(* the primitive variables of the owned cells: the depth and velocities the fluxes are computed with *)
Theorem C73_primitive_variables : forall w cf m z g src dt p u ul sts f,
  petsc_config cf -> mesh_wf m -> petsc_process_ok w cf m z g src p -> local_ok u p ul -> Forall2 bop_sized (map cb_edges (cp_bounds p)) sts ->
  rhs_domain (petsc_scheme_of w cf z g) m dt src u = Some f ->
  exists x pvs sts', ApplyPetscOperator w cf dt p ul sts = Some (x, pvs, sts') /\ primitives cf u p pvs.
Proof.
  intros w cf m z g src dt p u ul sts f C WF PO L SZ Hf. destruct (petsc_process w cf m z g src dt p u ul sts f C WF PO L SZ Hf) as (x & pvs & sts' & E & _ & P & _).
  exists x, pvs, sts'. auto.
Qed.
Print Assumptions C73_primitive_variables.

(** ** Whole runs *)
Lemma state_step_ok {S} (Inv : S -> Prop) i L (F : S -> list (list R) -> option (list (list R) * S)) G dt U u u' s :
  (forall U u f s, Inv s -> holds L U u -> G u = Some f -> exists U' s', F s U = Some (U', s') /\ holds L U' f /\ Inv s') ->
  Inv s -> holds L U u -> ts_step i G dt u = Some u' -> exists U' s', state_step F i dt (U, s) = Some (U', s') /\ holds L U' u' /\ Inv s'.
Proof.
  intros HF I HU H. destruct i; cbn [ts_step state_step] in *; unfold euler_step, rk4_step, state_euler, state_rk4 in *.
  - apply obind_some in H. destruct H as (k & Ek & H). injection H as <-. destruct (HF U u k s I HU Ek) as (K & s1 & EK & HK & I1). rewrite EK, obind_Some.
    do 2 eexists. split; [reflexivity|]. split; [apply waxpy_holds; assumption|exact I1].
  - apply obind_some in H. destruct H as (k1 & Ek1 & H). apply obind_some in H. destruct H as (k2 & Ek2 & H).
    apply obind_some in H. destruct H as (k3 & Ek3 & H). apply obind_some in H. destruct H as (k4 & Ek4 & H). injection H as <-.
    destruct (HF _ _ _ _ I HU Ek1) as (K1 & s1 & EK1 & HK1 & I1). rewrite EK1, obind_Some.
    destruct (HF _ _ _ _ I1 (waxpy_holds _ _ _ _ _ (dt / 2) HU HK1) Ek2) as (K2 & s2 & EK2 & HK2 & I2). rewrite EK2, obind_Some.
    destruct (HF _ _ _ _ I2 (waxpy_holds _ _ _ _ _ (dt / 2) HU HK2) Ek3) as (K3 & s3 & EK3 & HK3 & I3). rewrite EK3, obind_Some.
    destruct (HF _ _ _ _ I3 (waxpy_holds _ _ _ _ _ dt HU HK3) Ek4) as (K4 & s4 & EK4 & HK4 & I4). rewrite EK4, obind_Some.
    do 2 eexists. split; [reflexivity|]. split; [repeat (first [assumption|apply waxpy_holds])|exact I4].
Qed.

(* what the processes hold during the steps of a run: boundary values and sources change; the layout [L] of the
   global vectors and the edges [E] of the boundaries do not *)
Definition petsc_run_distributed (w : balancing) (cf : cconfig) (m : mesh) (z : nat -> R) (g : cellgeom) (L : list (list nat)) (E : list (list (list nat))) (x : step_input) (st : R * list cprocess) : Prop :=
  fst st = st_dt x /\ boundary_in m (st_bedges x) /\ layout (snd st) = L /\ boundary_edges (snd st) = E /\ petsc_distributed w cf (with_boundary m (st_bedges x)) z g (st_src x) (snd st).

Theorem C73_run : forall i w cf m z g L E xs steps U S u u',
  petsc_config cf -> well_formed m -> Forall2 (petsc_run_distributed w cf m z g L E) xs steps -> holds L U u -> bops_sized E S ->
  run i (petsc_scheme_of w cf z g) m xs u = Some u' ->
  exists U' S', petsc_run i w cf steps (U, S) = Some (U', S') /\ holds L U' u' /\ bops_sized E S'.
Proof.
  intros i w cf m z g L E xs steps U S u u' C WF F. revert U S u. unfold run, petsc_run. induction F as [|x st xs steps Hx F IH]; intros U S u HU HS H; cbn [ofold] in *.
  - injection H as <-. exists U, S. auto.
  - apply obind_some in H. destruct H as (u1 & E1 & H). destruct Hx as (Hdt & Hb & HL & HE & HD). unfold advance_step in E1.
    destruct (state_step_ok (bops_sized E) i L (PetscRHSFunction w cf (fst st) (snd st)) (rhs_domain (petsc_scheme_of w cf z g) (with_boundary m (st_bedges x)) (st_dt x) (st_src x)) (st_dt x) U u u1 S) as (U1 & S1 & EU & HU1 & HS1); [|exact HS|exact HU|exact E1|].
    { intros V v f s Hs HV Hf. rewrite <- HL in HV |- *. rewrite <- HE in Hs |- *. rewrite Hdt.
      destruct (C73_rhs w cf (with_boundary m (st_bedges x)) z g (st_src x) (st_dt x) (snd st) s V v f C) as (V' & s' & Q1 & Q2 & Q3 & _); [|exact HD|exact Hs|exact HV|exact Hf|eauto].
      destruct WF as (W1 & W2). split; [exact W1|]. split; [exact W2|exact Hb]. }
    rewrite Hdt in EU |- *. rewrite EU, obind_Some. apply (IH U1 S1 u1 HU1 HS1 H).
Qed.
Print Assumptions C73_run.

(* in a closed basin the arrays of all processes together keep the water *)
Theorem C73_volume : forall i w cf m z g L E xs steps U S u u',
  petsc_config cf -> well_formed m -> Permutation (concat L) (cells m) -> Forall2 (petsc_run_distributed w cf m z g L E) xs steps -> holds L U u -> bops_sized E S ->
  (forall x, In x xs -> closed m x) ->
  run i (petsc_scheme_of w cf z g) m xs u = Some u' ->
  exists U' S', petsc_run i w cf steps (U, S) = Some (U', S') /\ array_volume m L U' = array_volume m L U.
Proof.
  intros i w cf m z g L E xs steps U S u u' C WF P F HU HS HC H.
  destruct (C73_run i w cf m z g L E xs steps U S u u' C WF F HU HS H) as (U' & S' & EU & HU' & _). exists U', S'. split; [exact EU|].
  rewrite (array_volume_holds m L U u HU), (array_volume_holds m L U' u' HU'). rewrite !(rsum_perm _ _ _ P).
  apply (C09_closed_basin_keeps_volume i (petsc_scheme_of w cf z g) m xs u u'); [|exact WF|exact HC|exact H].
  assert (T := proj2 (proj2 (proj1 C))). destruct w; cbn [petsc_scheme_of]; constructor; exact T.
Qed.
Print Assumptions C73_volume.

(* a lake at rest, whatever the number of processes and whatever the arrays of the boundary operators hold *)
Theorem C73_lake_at_rest : forall i file cf m z g L E xs steps U S eta,
  petsc_config cf -> friction_ok (friction_of cf) -> well_formed m -> (forall c, In c (concat L) -> In c (cells m)) ->
  Forall2 (petsc_run_distributed (Hydrostatic file) cf m z g L E) xs steps ->
  resolved (cf_tiny_h cf) m z eta -> (forall x, In x xs -> quiet_step m x) -> holds L U (lake_field z eta) -> bops_sized E S ->
  exists U' S', petsc_run i (Hydrostatic file) cf steps (U, S) = Some (U', S') /\ holds L U' (lake_field z eta).
Proof.
  intros i file cf m z g L E xs steps U S eta C FO WF Lin F RS QS HU HS'.
  assert (HS : hr_scheme (cf_tiny_h cf) z (petsc_scheme_of (Hydrostatic file) cf z g)) by (cbn [petsc_scheme_of]; constructor; exact FO).
  destruct (C11_lake_stays_at_rest_partial (cf_tiny_h cf) eta z _ m i xs (lake_field z eta) (proj2 (proj2 (proj1 C))) HS RS QS (fun c _ => eq_refl)) as (u' & EU' & Hu').
  destruct (C73_run i (Hydrostatic file) cf m z g L E xs steps U S _ u' C WF F HU HS' EU') as (U' & S' & EU & HU' & _). exists U', S'. split; [exact EU|].
  apply Forall2_nth; [exact (Forall2_len _ _ _ HU')|]. intros q gs x Hq Hx. destruct (Forall2_get _ _ _ _ _ HU' Hq) as (x' & Ex & Lx & Vx). assert (x' = x) by congruence. subst x'.
  split; [exact Lx|]. intros k c Hk. rewrite (Vx k c Hk). rewrite (Hu' c); [reflexivity|]. apply Lin. apply in_concat. exists gs. split; [eapply nth_error_In; exact Hq|eapply nth_error_In; exact Hk].
Qed.
Print Assumptions C73_lake_at_rest.

(** ** Boundary fluxes over a run *)
(* the flux recorded on process [q], boundary [j], edge [i], if the cell of the edge is owned *)
Definition edge_flux (cf : cconfig) (ps : list cprocess) (u : nat -> vec3) (q j i : nat) : option vec3 :=
  let* p := nth_error ps q in
  let* b := nth_error (cp_bounds p) j in
  let* e := nth_error (cb_edges b) i in
  let m := cp_mesh p in
  if cm_owned m (left_cell m e) then
    petsc_boundary_recorded (cf_tiny_h cf) (cf_h_anuga cf) (flow_condition (cb_type b) (block 3 (cb_values b) i)) (u (cp_gid p (left_cell m e))) (cm_sn m e) (cm_cn m e)
  else None.
Definition accumulated (S : list (list bop)) (q j i k : nat) : option R :=
  let* sts := nth_error S q in let* st := nth_error sts j in let* v := nth_error (bo_accum st) (3 * i + k) in v.
(* the sum of step length times flux along a run of the whole domain by Euler's method *)
Fixpoint flux_integral (cf : cconfig) (s : scheme) (m : mesh) (xs : list step_input) (steps : list (R * list cprocess)) (u : nat -> vec3) (q j i k : nat) : option R :=
  match xs, steps with
  | x :: xs, st :: steps =>
    let* F := edge_flux cf (snd st) u q j i in
    let* u1 := advance_step Euler s m u x in
    let* r := flux_integral cf s m xs steps u1 q j i k in
    Some (st_dt x * nth k (comps3 F) 0 + r)
  | _, _ => Some 0
  end.
Lemma recorded_accumulated cf u dt ps S S' q j i k F a : Forall2 (fun psts sts' => all_recorded cf u dt (fst psts) (snd psts) sts') (combine ps S) S' ->
  edge_flux cf ps u q j i = Some F -> accumulated S q j i k = Some a -> (k < 3)%nat -> accumulated S' q j i k = Some (a + dt * nth k (comps3 F) 0).
Proof.
  intros H EF EA Hk. unfold edge_flux in EF. unfold accumulated in EA |- *.
  apply obind_some in EF. destruct EF as (p & Ep & EF). apply obind_some in EF. destruct EF as (b & Eb & EF). apply obind_some in EF. destruct EF as (e & Ee & EF).
  apply obind_some in EA. destruct EA as (sts & Es & EA). apply obind_some in EA. destruct EA as (st & Et & EA). apply obind_some in EA. destruct EA as (v & Ev & EA). subst v.
  destruct (cm_owned _ _) eqn:O; [|discriminate EF].
  destruct (Forall2_get _ _ _ _ _ H (combine_get _ _ _ _ _ Ep Es)) as (sts' & Es' & RC). cbn [fst snd] in RC. unfold all_recorded in RC.
  destruct (Forall2_get _ _ _ _ _ RC (combine_get _ _ _ _ _ Eb Et)) as (st' & Et' & RB). cbn [fst snd] in RB.
  rewrite Es', obind_Some, Et', obind_Some. destruct (RB i e F Ee O EF k Hk) as (_ & R2). rewrite (R2 a Ev), obind_Some. reflexivity.
Qed.

(* With Euler's method, what a boundary operator has accumulated on an edge over a run is the time integral of the
   flux through it. *)
Theorem C73_accumulated_flux : forall w cf m z g L E xs steps U S u u' q j i k a I,
  petsc_config cf -> well_formed m -> Forall2 (petsc_run_distributed w cf m z g L E) xs steps -> holds L U u -> bops_sized E S ->
  run Euler (petsc_scheme_of w cf z g) m xs u = Some u' -> (k < 3)%nat ->
  accumulated S q j i k = Some a -> flux_integral cf (petsc_scheme_of w cf z g) m xs steps u q j i k = Some I ->
  exists U' S', petsc_run Euler w cf steps (U, S) = Some (U', S') /\ holds L U' u' /\ accumulated S' q j i k = Some (a + I).
Proof.
  intros w cf m z g L E xs steps U S u u' q j i k a I C WF F HU HS H Hk. revert U S u a I HU HS H. unfold run, petsc_run. induction F as [|x st xs steps Hx F IH]; intros U S u a I HU HS H EA EI; cbn [ofold flux_integral] in *.
  - injection H as <-. injection EI as <-. exists U, S. split; [reflexivity|]. split; [exact HU|]. rewrite Rplus_0_r. exact EA.
  - apply obind_some in H. destruct H as (u1 & E1 & H). destruct Hx as (Hdt & Hb & HL & HE & HD).
    apply obind_some in EI. destruct EI as (Q & EQ & EI). rewrite E1, obind_Some in EI. apply obind_some in EI. destruct EI as (r & Er & EI). injection EI as <-.
    unfold advance_step in E1. cbn [ts_step] in E1. unfold euler_step in E1. apply obind_some in E1. destruct E1 as (f & Ef & E1). injection E1 as <-.
    assert (WFx : mesh_wf (with_boundary m (st_bedges x))) by (destruct WF as (W1 & W2); split; [exact W1|]; split; [exact W2|exact Hb]).
    assert (HU0 := HU). assert (HS0 := HS). rewrite <- HL in HU0. rewrite <- HE in HS0.
    destruct (C73_rhs w cf (with_boundary m (st_bedges x)) z g (st_src x) (st_dt x) (snd st) S U u f C WFx HD HS0 HU0 Ef) as (K & S1 & EK & HK & Z & RC). rewrite HL in HK. rewrite HE in Z.
    cbn [state_step]. unfold state_euler. rewrite Hdt, EK, !obind_Some.
    destruct (IH (waxpy U (st_dt x) K) S1 _ (a + st_dt x * nth k (comps3 Q) 0) r (waxpy_holds _ _ _ _ _ (st_dt x) HU HK) Z H) as (U' & S' & EU & HU' & EA'); [|exact Er|].
    + eapply recorded_accumulated; eassumption.
    + exists U', S'. split; [exact EU|]. split; [exact HU'|]. rewrite EA', Rplus_assoc. reflexivity.
Qed.
Print Assumptions C73_accumulated_flux.

(** ** Examples: the two squares of C72 *)
Lemma square_petsc_ok b : petsc_process_ok (Hydrostatic true) (one_config 0 false) squares INR square_geom (fun _ => vzero) (square_process b).
Proof.
  assert (O := square_process_ok true b eq_refl). constructor.
  - destruct b; discriminate.
  - exact (po_values _ _ _ _ _ _ _ O).
  - destruct (po_numbering _ _ _ _ _ _ _ O) as [N1 N2 N3 _ _]. constructor; [exact N1|exact N2|exact N3| |].
    + intros e He. cbn in He. destruct He as [<-|[]]. destruct b; cbn; lia.
    + intros e He. destruct b; cbn in He; repeat (destruct He as [<-|He]; [cbn; lia|]); contradiction.
  - constructor.
    + exists (iedges squares). split; [|split; [apply incl_refl|apply Permutation_refl]]. repeat constructor. exists false. destruct b; cbn; repeat split; reflexivity.
    + exists (bedges squares). split; [|split; [apply incl_refl|apply Permutation_refl]]. destruct b; cbn; repeat (constructor; [repeat split; reflexivity|]); constructor.
  - intros i c Hi. destruct b; cbn in Hi; (destruct i as [|i]; [injection Hi as <-; reflexivity|destruct i; discriminate]).
  - exact (po_area _ _ _ _ _ _ _ O).
  - discriminate.
  - exact (po_bed _ _ _ _ _ _ _ O).
  - exact (po_ext_length _ _ _ _ _ _ _ O).
  - exact (po_mat_length _ _ _ _ _ _ _ O).
  - exact (po_ext _ _ _ _ _ _ _ O).
  - exact (po_mat _ _ _ _ _ _ _ O).
Qed.
Lemma squares_petsc_distributed : petsc_distributed (Hydrostatic true) (one_config 0 false) squares INR square_geom (fun _ => vzero) square_ps.
Proof.
  constructor; [intros p [<-|[<-|[]]]; apply square_petsc_ok|]. exact (di_sf _ _ _ _ _ _ _ squares_distributed).
Qed.
Definition square_edges : list (list (list nat)) := [[[1;2;3;4;5;6]];[[1;2;3;4;5;6]]]%nat.
(* arrays as created, except that those of the second process hold undefined values *)
Definition square_states : list (list bop) :=
  [[bop_created [1;2;3;4;5;6]%nat]; [BOp (repeat (RState None 7 7 None None) 6) [] (repeat None 18)]].
Lemma square_states_sized : bops_sized square_edges square_states.
Proof. repeat constructor. Qed.
Lemma square_petsc_run : Forall2 (petsc_run_distributed (Hydrostatic true) (one_config 0 false) squares INR square_geom [[0];[1]]%nat square_edges) [square_step; square_step] [(1/10, square_ps); (1/10, square_ps)].
Proof.
  assert (X : petsc_run_distributed (Hydrostatic true) (one_config 0 false) squares INR square_geom [[0];[1]]%nat square_edges square_step (1/10, square_ps)).
  { split; [reflexivity|]. split; [|split; [reflexivity|split; [reflexivity|exact squares_petsc_distributed]]]. intros e He. cbn in He |- *. repeat (destruct He as [<-|He]; [cbn; tauto|]). contradiction. }
  constructor; [exact X|constructor; [exact X|constructor]].
Qed.
Lemma square_depths : depth_at INR 2 0 = 2 /\ depth_at INR 2 1 = 1.
Proof. unfold depth_at. cbn [INR]. rewrite !Rmax_right by lra. split; ring. Qed.
Lemma squares_resolved : resolved (cf_tiny_h (one_config 0 false)) squares INR 2.
Proof.
  destruct square_depths as (D0 & D1). split.
  - intros c Hc. change (cf_tiny_h (one_config 0 false)) with (1/1000). destruct Hc as [<-|[<-|[]]]; [rewrite D0|rewrite D1]; right; lra.
  - intros e [<-|[]]. change (cf_tiny_h (one_config 0 false)) with (1/1000). cbn [ie_l ie_r INR]. rewrite Rmax_right by lra. right. lra.
Qed.
Lemma squares_hold : holds [[0];[1]]%nat [[2;0;0]; [1;0;0]] (lake_field INR 2).
Proof.
  destruct square_depths as (D0 & D1).
  repeat constructor; (intros i c Hi; destruct i as [|i]; [injection Hi as <-; unfold lake_field; rewrite ?D0, ?D1; reflexivity|destruct i; discriminate]).
Qed.
Lemma square_config : petsc_config (one_config 0 false).
Proof. split; [repeat split; cbn; lra|discriminate]. Qed.
(* level 2 over a bed of 0 and 1 metres: both cells keep their depth for two Runge-Kutta steps *)
Example C73_lake_example : exists U' S', petsc_run RK4 (Hydrostatic true) (one_config 0 false) [(1/10, square_ps); (1/10, square_ps)] ([[2;0;0]; [1;0;0]], square_states) = Some (U', S') /\
  holds [[0];[1]]%nat U' (lake_field INR 2) /\ array_volume squares [[0];[1]]%nat U' = 3.
Proof.
  destruct square_depths as (D0 & D1).
  destruct (C73_lake_at_rest RK4 true (one_config 0 false) squares INR square_geom [[0];[1]]%nat square_edges [square_step; square_step] [(1/10, square_ps); (1/10, square_ps)] [[2;0;0]; [1;0;0]] square_states 2) as (U' & S' & E & H).
  - exact square_config.
  - exact I.
  - split; [cbn; repeat constructor; cbn; lia|]. intros e [<-|[]]. cbn. auto.
  - intros c Hc. exact Hc.
  - exact square_petsc_run.
  - exact squares_resolved.
  - intros x [<-|[<-|[]]]; exact squares_quiet.
  - exact squares_hold.
  - exact square_states_sized.
  - exists U', S'. split; [exact E|]. split; [exact H|]. rewrite (array_volume_holds _ _ _ _ H). cbn [concat app rsum]. unfold lake_field. rewrite D0, D1. cbn. ring.
Qed.

(** ** A process that owns no cells *)
(* The source operator divides by the number of owned cells, so no state is advanced on such a process ... *)
Theorem C73_needs_owned_cells : forall w cf dt p u sts, owned_cells (cp_mesh p) = [] -> ApplyPetscOperator w cf dt p u sts = None.
Proof.
  intros w cf dt p u sts H. unfold ApplyPetscOperator, ApplySource, dofs_of_sources. rewrite H. cbn [length Nat.eqb].
  destruct (petsc_flux _ _ _ _ _ _ _); [|reflexivity]. cbn [obind]. destruct (petsc_friction cf); reflexivity.
Qed.
Print Assumptions C73_needs_owned_cells.
(* ... while a distribution with such a process is one the libCEED back end computes on. *)
Definition empty_process : cprocess :=
  CProcess (HMesh (CMesh 0 0 [] (fun _ => 0%nat) (fun _ => 0%nat) (fun _ => true) (fun _ => 0) (fun _ => 1) (fun _ => 1) (fun _ => 1) (fun _ => true) (fun c => c) (fun _ => 0) (fun _ => 0) (fun _ => 0))
                  (fun _ => 0%nat) (fun _ => 0%nat) (fun _ => 4%nat) (fun _ => 0))
           [CBoundary [] REFLECTING []] [] [] (fun c => c) (fun _ => (0, 0)%nat).
Lemma empty_process_ok : process_ok (Hydrostatic true) (one_config 0 false) squares INR square_geom (fun _ => vzero) empty_process.
Proof.
  constructor; try (intros c Hc; cbn in Hc; lia).
  - constructor.
    + intros e [].
    + intros bd e [<-|[]] [].
    + intros c Hc. cbn in Hc. lia.
    + intros c c' Hc. cbn in Hc. lia.
  - intros bd [<-|[]] X. discriminate X.
  - constructor; cbn; [constructor|intros a b []|intros l []|intros e []|intros e []].
  - exists 0%nat. intros c Hc. cbn in Hc. lia.
  - discriminate.
  - intros file E. injection E as <-. split; [intros c Hc; cbn in Hc; lia|intros c Hc; cbn in Hc; lia].
  - reflexivity.
  - reflexivity.
  - intros i c Hi. destruct i; discriminate.
  - intros i c Hi. destruct i; discriminate.
Qed.
Definition three_ps : list cprocess := square_ps ++ [empty_process].
Lemma three_distributed : distributed (Hydrostatic true) (one_config 0 false) squares INR square_geom (fun _ => vzero) three_ps.
Proof.
  constructor.
  - intros p [<-|[<-|[<-|[]]]]; [apply square_process_ok; reflexivity..|exact empty_process_ok].
  - apply Permutation_refl.
  - exists [iedges squares; []; []]. split; [|cbn; apply Permutation_refl]. repeat constructor. exists false. cbn. repeat split; reflexivity.
  - exists [firstn 3 (bedges squares); skipn 3 (bedges squares); []]. split; [|cbn; apply Permutation_refl]. unfold three_ps, square_ps. repeat constructor.
  - intros p c Hp Hc. destruct Hp as [<-|[<-|[<-|[]]]]; [| |cbn in Hc; lia].
    + destruct (below_two c Hc) as [-> | ->]; cbn; eexists; split; reflexivity.
    + destruct (below_two c Hc) as [-> | ->]; cbn; eexists; split; reflexivity.
Qed.
Theorem C73_empty_process_refuted : exists w cf m z g src dt ps S U,
  petsc_config cf /\ mesh_wf m /\ distributed w cf m z g src ps /\ bops_sized (boundary_edges ps) S /\
  (exists U', OperatorRHSFunction w cf dt ps U = Some U') /\ PetscRHSFunction w cf dt ps S U = None.
Proof.
  exists (Hydrostatic true), (one_config 0 false), squares, INR, square_geom, (fun _ => vzero), (1/10), three_ps,
    [[bop_created [1;2;3;4;5;6]%nat]; [bop_created [1;2;3;4;5;6]%nat]; [bop_created []]], [[2;0;0]; [1;0;0]; []].
  assert (WF : mesh_wf squares) by (split; [cbn; repeat constructor; cbn; lia|split; [intros e [<-|[]]; cbn; auto|intros e He; cbn in He; repeat (destruct He as [<-|He]; [cbn; tauto|]); contradiction]]).
  split; [exact square_config|]. split; [exact WF|]. split; [exact three_distributed|]. split; [repeat constructor|]. split.
  - assert (HS : hr_scheme (cf_tiny_h (one_config 0 false)) INR (scheme_of (Hydrostatic true) (one_config 0 false) INR square_geom)) by (cbn [scheme_of]; constructor; exact I).
    destruct (C11_lake_stays_at_rest_partial (cf_tiny_h (one_config 0 false)) 2 INR _ squares Euler [square_step] (lake_field INR 2) (proj2 (proj2 (proj1 square_config))) HS squares_resolved) as (u' & E & _).
    { intros x [<-|[]]. exact squares_quiet. }
    { intros c _. reflexivity. }
    unfold run in E. cbn [ofold] in E. apply obind_some in E. destruct E as (u1 & E & _). unfold advance_step in E. cbn [ts_step] in E. unfold euler_step in E. apply obind_some in E. destruct E as (f & Ef & _).
    destruct (C72_rhs (Hydrostatic true) (one_config 0 false) squares INR square_geom (fun _ => vzero) (1/10) three_ps [[2;0;0]; [1;0;0]; []] (lake_field INR 2) f (proj1 square_config) WF three_distributed) as (U' & EU & _); [|exact Ef|eauto].
    change (layout three_ps) with [[0]; [1]; []]%nat. assert (H := squares_hold). inversion H as [|? ? ? ? H1 H2]; subst. inversion H2 as [|? ? ? ? H3 H4]; subst.
    constructor; [exact H1|constructor; [exact H3|constructor; [|constructor]]]. split; [reflexivity|]. intros i c Hi. destruct i; discriminate.
  - unfold PetscRHSFunction. destruct (omap _ three_ps) as [us|] eqn:Eu; [|reflexivity]. rewrite obind_Some.
    assert (L : exists a b c, us = [a; b; c]).
    { unfold three_ps, square_ps in Eu. cbn [app omap] in Eu. apply obind_some in Eu. destruct Eu as (a & _ & Eu). apply obind_some in Eu. destruct Eu as (l & El & Eu). injection Eu as <-.
      apply obind_some in El. destruct El as (b & _ & El). apply obind_some in El. destruct El as (l2 & El2 & El). injection El as <-. apply obind_some in El2. destruct El2 as (c & _ & El2). injection El2 as <-. eauto. }
    destruct L as (a & b & c & ->). unfold three_ps, square_ps. cbn [app combine omap fst snd].
    destruct (ApplyPetscOperator _ _ _ (square_process false) _ _); [|reflexivity]. rewrite obind_Some.
    destruct (ApplyPetscOperator _ _ _ (square_process true) _ _); [|reflexivity]. rewrite obind_Some.
    rewrite (C73_needs_owned_cells _ _ _ empty_process) by reflexivity. reflexivity.
Qed.
Print Assumptions C73_empty_process_refuted.

(* One Euler step of the lake: the wall on the west of the first square, under 2 metres of water, has received the
   pressure of the water for a tenth of a second. *)
Lemma recorded_used tiny ha bc q sn cn f a L Rt : petsc_boundary_edge tiny ha bc q sn cn = Some (f, a) -> petsc_boundary_states tiny ha bc q sn cn = Some (L, Rt) ->
  (prim_dry tiny L && prim_dry tiny Rt)%bool = false -> petsc_boundary_recorded tiny ha bc q sn cn = Some f.
Proof. unfold petsc_boundary_edge, petsc_boundary_recorded. intros E S N. rewrite S in E |- *. cbn [obind] in E |- *. rewrite N in E. rewrite E. reflexivity. Qed.
Example C73_accumulated_example : exists U' S', petsc_run Euler (Hydrostatic true) (one_config 0 false) [(1/10, square_ps)] ([[2;0;0]; [1;0;0]], square_states) = Some (U', S') /\
  accumulated S' 0 0 0 0 = Some 0 /\ accumulated S' 0 0 0 1 = Some (- (1/10) * (1/2 * GRAVITY * (2 * 2))).
Proof.
  destruct square_depths as (D0 & D1). assert (T := proj2 (proj2 (proj1 square_config))).
  assert (HS : hr_scheme (cf_tiny_h (one_config 0 false)) INR (petsc_scheme_of (Hydrostatic true) (one_config 0 false) INR square_geom)) by (cbn [petsc_scheme_of]; constructor; exact I).
  destruct (C11_lake_stays_at_rest_partial (cf_tiny_h (one_config 0 false)) 2 INR _ squares Euler [square_step] (lake_field INR 2) T HS squares_resolved) as (u' & E & _).
  { intros x [<-|[]]. exact squares_quiet. }
  { intros c _. reflexivity. }
  destruct (petsc_reflecting_edge (cf_tiny_h (one_config 0 false)) (cf_h_anuga (one_config 0 false)) (V3 2 0 0) 0 (-1) T) as (f & a & EE & F0 & _ & F2); [cbn; lra|unfold unit2; ring|].
  destruct F2 as (F1 & F2); [rewrite HRProofs.pvel_rest; unfold unorm; cbn; ring|].
  assert (EF : edge_flux (one_config 0 false) square_ps (lake_field INR 2) 0 0 0 = Some f).
  { change (petsc_boundary_recorded (cf_tiny_h (one_config 0 false)) (cf_h_anuga (one_config 0 false)) BCReflecting (lake_field INR 2 0) 0 (-1) = Some f). unfold lake_field. rewrite D0.
    eapply recorded_used; [exact EE|unfold petsc_boundary_states; rewrite petsc_velocities_some, obind_Some by exact T; reflexivity|].
    unfold prim_dry. rewrite pvel_h. cbn [c0]. replace (2 <? _) with false; [reflexivity|]. symmetry. apply Rltb_false. cbn. lra. }
  assert (X : Forall2 (petsc_run_distributed (Hydrostatic true) (one_config 0 false) squares INR square_geom [[0];[1]]%nat square_edges) [square_step] [(1/10, square_ps)]).
  { assert (H := square_petsc_run). inversion H; subst. constructor; [assumption|constructor]. }
  assert (WF : well_formed squares) by (split; [cbn; repeat constructor; cbn; lia|intros e [<-|[]]; cbn; auto]).
  assert (FI : forall k, flux_integral (one_config 0 false) (petsc_scheme_of (Hydrostatic true) (one_config 0 false) INR square_geom) squares [square_step] [(1/10, square_ps)] (lake_field INR 2) 0 0 0 k = Some (st_dt square_step * nth k (comps3 f) 0 + 0)).
  { intros k. cbn [flux_integral snd]. rewrite EF, obind_Some. unfold run in E. cbn [ofold] in E. apply obind_some in E. destruct E as (u1 & E & _). rewrite E, !obind_Some. reflexivity. }
  destruct (C73_accumulated_flux (Hydrostatic true) (one_config 0 false) squares INR square_geom _ _ _ _ _ square_states _ u' 0 0 0 0 0 _ square_config WF X squares_hold square_states_sized E ltac:(lia) eq_refl (FI 0%nat)) as (U1 & S1 & R1 & _ & A1).
  destruct (C73_accumulated_flux (Hydrostatic true) (one_config 0 false) squares INR square_geom _ _ _ _ _ square_states _ u' 0 0 0 1 0 _ square_config WF X squares_hold square_states_sized E ltac:(lia) eq_refl (FI 1%nat)) as (U2 & S2 & R2 & _ & A2).
  rewrite R1 in R2. injection R2 as <- <-. exists U1, S1. split; [exact R1|]. rewrite A1, A2. split; apply f_equal; cbn [comps3 nth square_step st_dt].
  - rewrite F0. ring.
  - rewrite F1. cbn [c0]. field.
Qed.
