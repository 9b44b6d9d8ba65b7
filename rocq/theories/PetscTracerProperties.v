(** C75: tracers on the PETSc back end, from the parts of the global solution to the parts of the global right-hand
    side, with the arrays kept by its operators, and whole runs. *)
From Coq Require Import String.
From Verif Require Import Base RoeModel RoeProofs EdgeModel EdgeProofs HRModel SourceModel AssemblyModel AssemblyProofs TracerModel TracerProofs DecompModel DecompSpec DecompProofs DecompProperties
  TracerDecompModel TracerDecompSpec TracerDecompProofs TracerDecompProperties ConservationProperties
  MeshMapsProofs AMRProofs CeedLayoutModel CeedLayoutSpec CeedLayoutProofs CeedLayoutProperties CeedMusclProofs CeedHRModel CeedHRSpec CeedHRProofs CeedHRProperties
  CeedRunModel CeedRunSpec CeedRunProofs CeedRunProperties PetscRunModel PetscRunSpec PetscRunProofs PetscRunProperties PetscTracerModel PetscTracerSpec PetscTracerProofs.
Local Open Scope R_scope.
Local Notation length := List.length.

(** ** One evaluation *)
Lemma sediment_comps cf : sediment_config cf -> num_comp cf = (3 + cf_classes cf)%nat.
Proof. intros (_ & Sa & He & _). unfold num_comp, num_tracers. rewrite Sa, He. lia. Qed.
Definition tlocal_ok (nt : nat) (u : nat -> tvec) (p : cprocess) (x : list R) : Prop :=
  length x = ((3 + nt) * cm_cells (cp_mesh p))%nat /\ forall c, (c < cm_cells (cp_mesh p))%nat -> block (3 + nt) x c = comps nt (u (cp_gid p c)).
Lemma tracer_global_to_local nt ps U u p : (forall c, (c < cm_cells (cp_mesh p))%nat ->
    exists gs, nth_error (layout ps) (fst (cp_sf p c)) = Some gs /\ nth_error gs (snd (cp_sf p c)) = Some (cp_gid p c)) -> tholds nt (layout ps) U u ->
  exists x, dm_global_to_local (3 + nt) U p = Some x /\ tlocal_ok nt u p x.
Proof.
  intros D H. unfold dm_global_to_local, tlocal_ok.
  assert (RL : forall r, In r (map (fun c => comps nt (u (cp_gid p c))) (seq 0 (cm_cells (cp_mesh p)))) -> length r = (3 + nt)%nat).
  { intros r Hr. apply in_map_iff in Hr. destruct Hr as (c & <- & _). apply comps_length. }
  rewrite (omap_map _ (fun c => comps nt (u (cp_gid p c)))).
  - rewrite obind_Some. eexists. split; [reflexivity|].
    assert (LC : length (concat (map (fun c => comps nt (u (cp_gid p c))) (seq 0 (cm_cells (cp_mesh p))))) = ((3 + nt) * cm_cells (cp_mesh p))%nat).
    { rewrite (concat_length_const (3 + nt)) by exact RL. rewrite map_length, seq_length. reflexivity. }
    split; [exact LC|]. intros c Hc.
    assert (F := fetch_concat (3 + nt) (fun c => comps nt (u (cp_gid p c))) (seq 0 (cm_cells (cp_mesh p))) c c (fun _ => comps_length _ _) (nth_error_seq0 _ _ Hc)).
    rewrite fetch_block in F; [injection F as F; exact F|]. rewrite LC. nia.
  - intros c Hc. apply in_seq in Hc. destruct (D c ltac:(lia)) as (gs & E1 & E2).
    destruct (Forall2_get _ _ _ _ _ H E1) as (x & Ex & Lx & Vx). rewrite Ex, obind_Some.
    assert ((snd (cp_sf p c) < length gs)%nat) by (apply nth_error_Some; congruence).
    rewrite fetch_block by nia. rewrite (Vx _ _ E2). reflexivity.
Qed.
Lemma tsized_entries nt M x i c q : numbered M -> tsized (3 + nt) M x -> nth_error (owned_cells M) i = Some c -> (forall k, (k < 3 + nt)%nat -> tvalue (3 + nt) M x c k = tcomp k q) -> block (3 + nt) x i = comps nt q.
Proof.
  intros NB Sx Hi V. assert (i < length (owned_cells M))%nat by (apply nth_error_Some; congruence). unfold tsized in Sx.
  apply (block_ext (3 + nt)); [apply block_length; nia|apply comps_length|]. intros k Hk. rewrite nth_block by exact Hk. specialize (V k Hk). unfold tvalue in V. rewrite (NB i c Hi) in V.
  rewrite comps_nth by exact Hk. rewrite <- V. f_equal. lia.
Qed.

(* the boundary operators of a process record the fluxes of the state [u] *)
Definition tall_recorded (cf : cconfig) (u : nat -> tvec) (p : cprocess) (sts' : list tbop) : Prop := Forall2 (trecords cf u p) (cp_bounds p) sts'.

Lemma petsc_tracer_process w cf m bcs z g src dt p u ul pv0 sts f :
  sediment_config cf -> mesh_wf m -> tprocess_ok w cf m bcs z g src p -> tlocal_ok (cf_classes cf) u p ul -> kept_sized (cf_classes cf) (length (owned_cells (cp_mesh p))) (map cb_edges (cp_bounds p)) (pv0, sts) ->
  trhs (tscheme_of (tchoice_of w cf z g) bcs) m dt src u = Some f ->
  exists x pvs sts', ApplyPetscTracerOperator w cf dt p ul pv0 sts = Some (x, pvs, sts') /\ tpart_holds (cf_classes cf) f (map (cp_gid p) (owned_cells (cp_mesh p))) x /\
    kept_sized (cf_classes cf) (length (owned_cells (cp_mesh p))) (map cb_edges (cp_bounds p)) (pvs, sts') /\ tall_recorded cf u p sts' /\ (w = Standard -> tprimitives cf u p pvs).
Proof.
  intros C WF PO (Lu & Vu) (SP & SZ) Hf. assert (NB := tp_numbered _ _ _ _ _ _ _ _ PO). assert (T := ttiny_pos cf C). set (nt := cf_classes cf) in *.
  destruct (trank_rhs_ok (tscheme_of (tchoice_of w cf z g)) (tscheme_of (tchoice_at (cp_gid p) (tchoice_of w cf z g))) m bcs (trank_of nt p) dt src u u f
    (tscheme_of_view (cp_gid p) (tchoice_of w cf z g) T) (tp_part _ _ _ _ _ _ _ _ PO) WF (fun c _ => eq_refl) Hf) as (fl & Efl & Vfl).
  destruct (tracer_operator_ok w cf m bcs z g src p C PO u ul Lu Vu dt pv0 sts fl SP SZ Efl) as (x & pvs & sts' & E & Sx & Vx & Sp & Vp & Z & RC).
  exists x, pvs, sts'. split; [exact E|]. split; [|split; [split; [exact Sp|exact Z]|split; [exact RC|]]].
  - split; [rewrite map_length; exact Sx|]. intros i c Hi. rewrite nth_error_map in Hi. destruct (nth_error (owned_cells (cp_mesh p)) i) as [l|] eqn:El; [|discriminate]. injection Hi as <-.
    assert (Hl : In l (owned_cells (cp_mesh p))) by (eapply nth_error_In; exact El). apply (tsized_entries nt _ _ _ l _ NB Sx El). intros k Hk. unfold nt in Hk |- *. rewrite (Vx l k Hl Hk). destruct (owned_range _ _ Hl).
    rewrite (Vfl l); [reflexivity|cbn; apply in_seq; lia|assumption].
  - intros W. split; [exact Sp|]. intros i l El. assert (Hl : In l (owned_cells (cp_mesh p))) by (eapply nth_error_In; exact El).
    exists (pvel (cf_tiny_h cf) (cf_h_anuga cf) (tflow (u (cp_gid p l)))), (map (ttr (tprims cf (u (cp_gid p l)))) (seq 0 nt)). split; [apply petsc_velocities_some; exact T|]. split.
    + apply omap_map. intros j _. unfold tracer_output_conc. destruct (tprims_parts cf C (u (cp_gid p l))) as (_ & _ & _ & P3). exact (P3 j).
    + change (ph (pvel (cf_tiny_h cf) (cf_h_anuga cf) (tflow (u (cp_gid p l)))) :: pu (pvel (cf_tiny_h cf) (cf_h_anuga cf) (tflow (u (cp_gid p l)))) :: pv (pvel (cf_tiny_h cf) (cf_h_anuga cf) (tflow (u (cp_gid p l)))) :: map (ttr (tprims cf (u (cp_gid p l)))) (seq 0 nt))%list with (comps nt (tprims cf (u (cp_gid p l)))).
      apply (tsized_entries nt _ _ _ l _ NB Sp El). intros k Hk. unfold nt in Hk |- *. rewrite (Vp l k Hl Hk), W. reflexivity.
Qed.

(* Any number of processes, any distribution of a mesh over them, any number of sediment classes, whatever the arrays
   of the operators hold from earlier evaluations: if the right-hand side of the whole domain is defined for a field,
   the parts of a global vector holding the field are turned into parts holding the right-hand side, and the fluxes
   of water, momentum and sediment through the boundary are recorded. *)
Theorem C75_rhs : forall w cf m bcs z g src dt ps S U u f,
  sediment_config cf -> mesh_wf m -> tracer_distributed w cf m bcs z g src ps -> all_kept (cf_classes cf) (layout ps) (boundary_edges ps) S -> tholds (cf_classes cf) (layout ps) U u ->
  trhs (tscheme_of (tchoice_of w cf z g) bcs) m dt src u = Some f ->
  exists U' S', PetscTracerRHSFunction w cf dt ps S U = Some (U', S') /\ tholds (cf_classes cf) (layout ps) U' f /\ all_kept (cf_classes cf) (layout ps) (boundary_edges ps) S' /\
    Forall2 (fun p k' => tall_recorded cf u p (snd k') /\ (w = Standard -> tprimitives cf u p (fst k'))) ps S'.
Proof.
  intros w cf m bcs z g src dt ps S U u f C WF D SZ H Hf. unfold PetscTracerRHSFunction. rewrite (sediment_comps cf C).
  destruct (omap_rel (dm_global_to_local (3 + cf_classes cf) U) (tlocal_ok (cf_classes cf) u) ps) as (us & Eus & Fus).
  { intros p Hp. apply (tracer_global_to_local _ ps); [intros c Hc; exact (td_sf _ _ _ _ _ _ _ _ D p c Hp Hc)|exact H]. }
  rewrite Eus, obind_Some.
  assert (G : exists rs, omap (fun x => ApplyPetscTracerOperator w cf dt (fst (fst x)) (snd (fst x)) (fst (snd x)) (snd (snd x))) (combine (combine ps us) S) = Some rs /\
    Forall2 (tpart_holds (cf_classes cf) f) (layout ps) (map (fun r => fst (fst r)) rs) /\ all_kept (cf_classes cf) (layout ps) (boundary_edges ps) (map (fun r => (snd (fst r), snd r)) rs) /\
    Forall2 (fun p k' => tall_recorded cf u p (snd k') /\ (w = Standard -> tprimitives cf u p (fst k'))) ps (map (fun r => (snd (fst r), snd r)) rs)).
  { assert (HP := td_processes _ _ _ _ _ _ _ _ D). clear Eus H D. unfold all_kept, boundary_edges, layout in *. revert us S Fus SZ HP. induction ps as [|p ps IH]; intros us S Fus SZ HP; cbn [map combine] in SZ; inversion Fus; inversion SZ; subst.
    - exists []. cbn. repeat split; constructor.
    - cbn [combine omap fst snd].
      match goal with X : tlocal_ok _ u p ?x, Y : kept_sized _ _ _ ?s |- _ => cbn [fst snd] in Y; rewrite map_length in Y; destruct s as [pv0 sts0]; destruct (petsc_tracer_process w cf m bcs z g src dt p u x pv0 sts0 f C WF (HP p (or_introl eq_refl)) X Y Hf) as (xr & pvs & sts' & E & V & Z & RC & PV) end.
      cbn [fst snd]. rewrite E, obind_Some. edestruct IH as (rs & Ers & V2 & Z2 & RC2); [eassumption|eassumption|intros q Hq; apply HP; right; exact Hq|].
      rewrite Ers, obind_Some. exists ((xr, pvs, sts') :: rs). split; [reflexivity|]. cbn [map fst snd combine]. split; [constructor; assumption|]. split; [constructor; [cbn [fst snd]; rewrite map_length; exact Z|exact Z2]|]. constructor; [split; assumption|assumption]. }
  destruct G as (rs & Ers & V & Z & RC). rewrite Ers, obind_Some. do 2 eexists. split; [reflexivity|]. auto.
Qed.
Print Assumptions C75_rhs.

(** ** Whole runs *)
Lemma tpart_holds_entry nt u gs x : length x = ((3 + nt) * length gs)%nat -> (forall i c k, nth_error gs i = Some c -> (k < 3 + nt)%nat -> nth (i * (3 + nt) + k) x 0 = tcomp k (u c)) -> tpart_holds nt u gs x.
Proof.
  intros L V. split; [exact L|]. intros i c Hi. assert (i < length gs)%nat by (apply nth_error_Some; congruence).
  apply (block_ext (3 + nt)); [apply block_length; nia|apply comps_length|]. intros k Hk. rewrite nth_block, comps_nth by exact Hk. apply V; assumption.
Qed.
Lemma tpart_holds_nth nt u gs x i c k : tpart_holds nt u gs x -> nth_error gs i = Some c -> (k < 3 + nt)%nat -> nth (i * (3 + nt) + k) x 0 = tcomp k (u c).
Proof. intros (L & V) Hi Hk. rewrite <- nth_block by exact Hk. rewrite (V i c Hi). apply comps_nth. exact Hk. Qed.
Lemma waxpy_tholds nt L : forall U K u k a, tholds nt L U u -> tholds nt L K k -> tholds nt L (waxpy U a K) (taxpy u a k).
Proof.
  intros U K u k a HU. revert K. unfold tholds, waxpy. induction HU as [|gs x L U Hx HU IH]; intros K HK; inversion HK; subst; cbn [combine map fst snd]; constructor; [|apply IH; assumption].
  rename y into y0. match goal with X : tpart_holds nt k gs y0 |- _ => rename X into Hy end.
  apply tpart_holds_entry.
  - rewrite map_length, combine_length, (proj1 Hx), (proj1 Hy). lia.
  - intros i c j Hi Hj. assert (Hl : (i < length gs)%nat) by (apply nth_error_Some; congruence).
    assert (X1 := tpart_holds_nth _ _ _ _ _ _ _ Hx Hi Hj). assert (X2 := tpart_holds_nth _ _ _ _ _ _ _ Hy Hi Hj).
    erewrite nth_error_nth; [|rewrite nth_error_map; erewrite combine_get by (apply nth_error_nth'; rewrite ?(proj1 Hx), ?(proj1 Hy); nia); reflexivity].
    cbn [fst snd]. rewrite X1, X2. unfold taxpy. rewrite tcomp_add, tcomp_scal. reflexivity.
Qed.
Lemma tstate_step_ok {S} (Inv : S -> Prop) i nt L (F : S -> list (list R) -> option (list (list R) * S)) G dt U u u' s :
  (forall U u f s, Inv s -> tholds nt L U u -> G u = Some f -> exists U' s', F s U = Some (U', s') /\ tholds nt L U' f /\ Inv s') ->
  Inv s -> tholds nt L U u -> tts_step i G dt u = Some u' -> exists U' s', state_step F i dt (U, s) = Some (U', s') /\ tholds nt L U' u' /\ Inv s'.
Proof.
  intros HF I HU H. destruct i; cbn [tts_step state_step] in *; unfold teuler_step, trk4_step, state_euler, state_rk4 in *.
  - apply obind_some in H. destruct H as (k & Ek & H). injection H as <-. destruct (HF U u k s I HU Ek) as (K & s1 & EK & HK & I1). rewrite EK, obind_Some.
    do 2 eexists. split; [reflexivity|]. split; [apply waxpy_tholds; assumption|exact I1].
  - apply obind_some in H. destruct H as (k1 & Ek1 & H). apply obind_some in H. destruct H as (k2 & Ek2 & H).
    apply obind_some in H. destruct H as (k3 & Ek3 & H). apply obind_some in H. destruct H as (k4 & Ek4 & H). injection H as <-.
    destruct (HF _ _ _ _ I HU Ek1) as (K1 & s1 & EK1 & HK1 & I1). rewrite EK1, obind_Some.
    destruct (HF _ _ _ _ I1 (waxpy_tholds _ _ _ _ _ _ (dt / 2) HU HK1) Ek2) as (K2 & s2 & EK2 & HK2 & I2). rewrite EK2, obind_Some.
    destruct (HF _ _ _ _ I2 (waxpy_tholds _ _ _ _ _ _ (dt / 2) HU HK2) Ek3) as (K3 & s3 & EK3 & HK3 & I3). rewrite EK3, obind_Some.
    destruct (HF _ _ _ _ I3 (waxpy_tholds _ _ _ _ _ _ dt HU HK3) Ek4) as (K4 & s4 & EK4 & HK4 & I4). rewrite EK4, obind_Some.
    do 2 eexists. split; [reflexivity|]. split; [repeat (first [assumption|apply waxpy_tholds])|exact I4].
Qed.

(* what the processes hold during the steps of a run: boundary values and sources change; the layout [L] of the
   global vectors and the edges [E] of the boundaries do not *)
Definition tracer_run_distributed (w : balancing) (cf : cconfig) (m : mesh) (z : nat -> R) (g : cellgeom) (L : list (list nat)) (E : list (list (list nat))) (x : tserial_input) (st : R * list cprocess) : Prop :=
  fst st = tsi_dt x /\ layout (snd st) = L /\ boundary_edges (snd st) = E /\ tracer_distributed w cf m (tsi_bcs x) z g (tsi_src x) (snd st).

Theorem C75_run : forall i w cf m z g L E xs steps U S u u',
  sediment_config cf -> mesh_wf m -> Forall2 (tracer_run_distributed w cf m z g L E) xs steps -> tholds (cf_classes cf) L U u -> all_kept (cf_classes cf) L E S ->
  tserial_run i (tchoice_of w cf z g) m xs u = Some u' ->
  exists U' S', petsc_tracer_run i w cf steps (U, S) = Some (U', S') /\ tholds (cf_classes cf) L U' u' /\ all_kept (cf_classes cf) L E S'.
Proof.
  intros i w cf m z g L E xs steps U S u u' C WF F. revert U S u. unfold tserial_run, petsc_tracer_run. induction F as [|x st xs steps Hx F IH]; intros U S u HU HS H; cbn [ofold] in *.
  - injection H as <-. exists U, S. auto.
  - apply obind_some in H. destruct H as (u1 & E1 & H). destruct Hx as (Hdt & HL & HE & HD).
    destruct (tstate_step_ok (all_kept (cf_classes cf) L E) i (cf_classes cf) L (PetscTracerRHSFunction w cf (fst st) (snd st)) (trhs (tscheme_of (tchoice_of w cf z g) (tsi_bcs x)) m (tsi_dt x) (tsi_src x)) (tsi_dt x) U u u1 S) as (U1 & S1 & EU & HU1 & HS1); [|exact HS|exact HU|exact E1|].
    { intros V v f s Hs HV Hf. rewrite <- HL in HV, Hs |- *. rewrite <- HE in Hs |- *. rewrite Hdt.
      destruct (C75_rhs w cf m (tsi_bcs x) z g (tsi_src x) (tsi_dt x) (snd st) s V v f C WF HD Hs HV Hf) as (V' & s' & Q1 & Q2 & Q3 & _). eauto. }
    rewrite Hdt in EU |- *. cbn [fst]. rewrite EU, obind_Some. apply (IH U1 S1 u1 HU1 HS1 H).
Qed.
Print Assumptions C75_run.

(* Non-negative depths everywhere: the evaluation goes through on all processes. *)
Theorem C75_defined_for_nonnegative_depths : forall w cf m bcs z g src dt ps S U u,
  sediment_config cf -> mesh_wf m -> 0 <= dt -> (forall c, In c (cells m) -> 0 < area m c) -> tracer_distributed w cf m bcs z g src ps -> all_kept (cf_classes cf) (layout ps) (boundary_edges ps) S ->
  tholds (cf_classes cf) (layout ps) U u -> (forall c, In c (cells m) -> 0 <= depth (u c)) -> (forall e, In e (bedges m) -> tbc_ok (bcs e)) ->
  exists U' S', PetscTracerRHSFunction w cf dt ps S U = Some (U', S').
Proof.
  intros w cf m bcs z g src dt ps S U u C WF Hd Ha D SZ H Hu Hb. destruct WF as (W1 & W2 & W3).
  destruct (C74_defined_for_nonnegative_depths (tchoice_of w cf z g) m bcs dt src u) as (f & Ef); try assumption; [exact (ttiny_pos cf C)|split; assumption|].
  destruct (C75_rhs w cf m bcs z g src dt ps S U u f C (conj W1 (conj W2 W3)) D SZ H Ef) as (U' & S' & E & _). eauto.
Qed.
Print Assumptions C75_defined_for_nonnegative_depths.

(** ** What goes wrong *)
(* salinity and heat are not carried by this back end *)
Theorem C75_salinity_and_heat_refused : forall w cf dt p u pv sts, (cf_salinity cf || cf_heat cf = true)%bool -> ApplyPetscTracerOperator w cf dt p u pv sts = None.
Proof.
  intros w cf dt p u pv sts H. assert (N : Nat.eqb (num_comp cf) (3 + cf_classes cf) = false).
  { apply Nat.eqb_neq. unfold num_comp, num_tracers. destruct (cf_salinity cf), (cf_heat cf); cbn in H; try discriminate; lia. }
  unfold ApplyPetscTracerOperator, ptracer_flux. destruct w.
  - unfold ApplyTracerInteriorFlux. cbv zeta. rewrite N. reflexivity.
  - destruct (cell_beds false (cp_hmesh p)); [|reflexivity]. cbn [obind]. unfold ApplyTracerInteriorFluxHR. cbv zeta. rewrite N. reflexivity.
Qed.
Print Assumptions C75_salinity_and_heat_refused.

(* with hydrostatic reconstruction the primitive variables stay as they were *)
Lemma tsource_keeps cf M ext mat div dt u l : forall f pv f' pv', ofold (tsource_cell false cf M ext mat div dt u) l (f, pv) = Some (f', pv') -> pv' = pv.
Proof.
  induction l as [|c l IH]; intros f pv f' pv' E; cbn [ofold] in E; [congruence|]. apply obind_some in E. destruct E as ([f1 pv1] & E1 & E).
  assert (pv1 = pv); [|subst pv1; exact (IH _ _ _ _ E)]. unfold tsource_cell in E1. destruct (cm_owned M c); [|congruence]. cbv zeta in E1.
  do 5 (apply obind_some in E1; let x := fresh "x" in destruct E1 as (x & _ & E1)). apply obind_some in E1. destruct E1 as ([[f2 tx] ty] & _ & E1).
  do 6 (apply obind_some in E1; let x := fresh "x" in destruct E1 as (x & _ & E1)). congruence.
Qed.
Theorem C75_hr_primitive_variables_not_written : forall file cf dt p u pv sts x pvs sts',
  ApplyPetscTracerOperator (Hydrostatic file) cf dt p u pv sts = Some (x, pvs, sts') -> pvs = pv.
Proof.
  intros file cf dt p u pv sts x pvs sts' E. unfold ApplyPetscTracerOperator in E. apply obind_some in E. destruct E as (fs & _ & E). cbv zeta in E. apply obind_some in E. destruct E as ([f2 pv2] & E2 & E). injection E as _ <- _.
  unfold ApplyTracerSource in E2. cbn [includes_slope fst snd] in E2 |- *. destruct (cf_source cf); try discriminate E2. exact (tsource_keeps _ _ _ _ _ _ _ _ _ _ _ _ E2).
Qed.
Print Assumptions C75_hr_primitive_variables_not_written.

(* the roughness is read at the local number of a cell, in an array with an entry for each owned cell: a wet owned
   cell numbered after as many cells as there are owned ones is read out of bounds *)
Lemma tsource_out_of_bounds bd cf M ext mat div dt u l : forall fp c,
  In c l -> cm_owned M c = true -> (length mat <= c)%nat -> (forall h, nth_error u (num_comp cf * c + 0) = Some h -> cf_tiny_h cf <= h) ->
  ofold (tsource_cell bd cf M ext mat div dt u) l fp = None.
Proof.
  induction l as [|a l IH]; intros fp c Hc Ho Hm Hh; [destruct Hc|]. cbn [ofold]. destruct Hc as [-> | Hc].
  - assert (N : tsource_cell bd cf M ext mat div dt u fp c = None); [|rewrite N; reflexivity].
    unfold tsource_cell. destruct fp as [f pv]. rewrite Ho. cbv zeta. destruct (nth_error u (num_comp cf * c + 0)) as [h|]; [|reflexivity]. specialize (Hh h eq_refl). cbn [obind].
    destruct (nth_error u (num_comp cf * c + 1)); [|reflexivity]. destruct (nth_error u (num_comp cf * c + 2)); [|reflexivity]. cbn [obind].
    destruct (nth_error div (num_comp cf * cm_l2o M c + 1)); [|reflexivity]. destruct (nth_error div (num_comp cf * cm_l2o M c + 2)); [|reflexivity]. cbn [obind].
    replace (cf_tiny_h cf <=? h) with true by (symmetry; apply Rleb_true; exact Hh). destruct (rdiv _ _); [|reflexivity]. destruct (rdiv _ _); [|reflexivity]. cbn [obind].
    replace (nth_error mat c) with (@None R) by (symmetry; apply nth_error_None; exact Hm). reflexivity.
  - destruct (tsource_cell bd cf M ext mat div dt u fp a); [|reflexivity]. cbn [obind]. eapply IH; eassumption.
Qed.
(* the roughness vector has an entry for each owned cell *)
Definition cp_ok_mat (p : cprocess) : Prop := length (cp_mat p) = length (owned_cells (cp_mesh p)).
Theorem C75_owned_cells_first : forall w cf dt p u pv sts c,
  cp_ok_mat p -> (c < cm_cells (cp_mesh p))%nat -> cm_owned (cp_mesh p) c = true -> (length (owned_cells (cp_mesh p)) <= c)%nat ->
  (forall h, nth_error u (num_comp cf * c + 0) = Some h -> cf_tiny_h cf <= h) -> ApplyPetscTracerOperator w cf dt p u pv sts = None.
Proof.
  intros w cf dt p u pv sts c Hm Hc Ho Hn Hh. unfold ApplyPetscTracerOperator. destruct (ptracer_flux w cf p u sts _) as [fs|]; [|reflexivity]. cbn [obind]. cbv zeta.
  unfold ApplyTracerSource. destruct (cf_source cf); try reflexivity. rewrite (tsource_out_of_bounds _ _ _ _ _ _ _ _ _ _ c); try assumption; [reflexivity|apply in_seq; lia|]. unfold cp_ok_mat in Hm. lia.
Qed.
Print Assumptions C75_owned_cells_first.

(** ** Examples: the two squares of C72 on a slope, with an inflow on one edge, for one class of sediment *)
(* vertices 0, 1, 2 and 3, 4, 5 at x = 0, 1, 2; the bed rises by one metre per metre *)
Definition slope_mesh (b : bool) : cmesh :=
  CMesh 2 6 [0%nat] (fun k => swap b (nth k [0;1;0;0;0;0;0;0;1;1;1;1;1;1]%nat 0%nat)) (fun k => nth k [1;4;0;3;0;1;3;4;2;5;1;2;4;5]%nat 0%nat)
        (fun e => if b then Nat.ltb 3 e else Nat.leb e 3) (fun e => nth e [0;0;-1;1;0;-1;1] 0) (fun e => nth e [1;-1;0;0;1;0;0] 0) (fun _ => 1) (fun _ => 1)
        (fun c => Nat.eqb c 0) (fun c => c) (fun _ => 1) (fun _ => 0) (fun v => nth v [0;1;2;0;1;2] 0).
Definition slope_bounds : list cboundary := [CBoundary [1]%nat DIRICHLET [1; 1/2; 0; 1/10]; CBoundary [2;3;4;5;6]%nat REFLECTING []].
Definition slope_process (b : bool) : cprocess :=
  CProcess (HMesh (slope_mesh b) (fun c => 4 * c)%nat (fun k => nth k (if b then [1;2;5;4;0;1;4;3] else [0;1;4;3;1;2;5;4])%nat 0%nat) (fun _ => 4%nat) (fun c => INR (swap b c)))
           slope_bounds [0;0;0;0] [1/50] (swap b) (fun c => (swap b c, 0%nat)).
Definition slope_ps : list cprocess := [slope_process false; slope_process true].
Definition slope_geom : cellgeom := CellGeom (fun _ => 1/50) (fun _ => 1) (fun _ => 0).
Definition slope_bed (c : nat) : R := if Nat.eqb c 0 then 1/2 else 3/2.
Definition slope_bcs (e : bedge) : tbcond := if be_cn e <? 0 then TDirichlet (tv [1; 1/2; 0; 1/10]) else TReflecting.
Lemma slope_bcs_in c l sn : slope_bcs (BEdge c l sn (-1) BCReflecting) = TDirichlet (tv [1; 1/2; 0; 1/10]).
Proof. unfold slope_bcs. cbn [be_cn]. replace (-1 <? 0) with true by (symmetry; apply Rltb_true; lra). reflexivity. Qed.
Lemma slope_bcs_wall c l sn cn : 0 <= cn -> slope_bcs (BEdge c l sn cn BCReflecting) = TReflecting.
Proof. intros H. unfold slope_bcs. cbn [be_cn]. replace (cn <? 0) with false by (symmetry; apply Rltb_false; lra). reflexivity. Qed.
Lemma slope_process_ok w b : tprocess_ok w (one_config 1 false) squares slope_bcs slope_bed slope_geom (fun _ => tzero) (slope_process b).
Proof.
  constructor.
  - intros bd [<-|[<-|[]]]; discriminate.
  - intros bd [<-|[<-|[]]]; cbn; intros X; try discriminate X; reflexivity.
  - constructor.
    + cbn. repeat constructor; cbn; lia.
    + intros x y Hx Hy. cbn in Hx, Hy. destruct Hx as [<-|[<-|[]]]; destruct Hy as [<-|[<-|[]]]; destruct b; cbn; lia.
    + intros l Hl. cbn in Hl. destruct Hl as [<-|[<-|[]]]; destruct b; cbn; lia.
    + intros e He. cbn in He. destruct He as [<-|[]]. destruct b; cbn; lia.
    + intros e He. destruct b; cbn in He; repeat (destruct He as [<-|He]; [cbn; lia|]); contradiction.
    + exists (iedges squares). split; [|split; [apply incl_refl|apply Permutation_refl]]. repeat constructor. exists false. destruct b; cbn; repeat split; reflexivity.
    + exists (bedges squares). split; [|split; [apply incl_refl|apply Permutation_refl]].
      destruct b; (constructor; [repeat (split; [reflexivity|]); cbn [snd]; rewrite slope_bcs_in; reflexivity|]; repeat (constructor; [repeat (split; [reflexivity|]); cbn [snd]; rewrite slope_bcs_wall by lra; reflexivity|]); constructor).
  - intros i c Hi. destruct b; cbn in Hi; (destruct i as [|i]; [injection Hi as <-; reflexivity|destruct i; discriminate]).
  - exists 1%nat. intros c Hc. destruct b; cbn in Hc |- *; destruct (below_two c Hc) as [-> | ->]; reflexivity.
  - intros c Hc. reflexivity.
  - intros _ c Hc. split; reflexivity.
  - intros file E. split.
    + intros c Hc. split; [|discriminate]. unfold cell_vertices. rewrite map_length, seq_length. cbn [hm_offsets hm_count slope_process cp_hmesh]. lia.
    + intros c Hc. destruct b; cbn in Hc; destruct (below_two c Hc) as [-> | ->]; unfold bed, cell_vertices, slope_bed; cbn; lra.
  - reflexivity.
  - reflexivity.
  - intros i c Hi. destruct b; cbn in Hi; (destruct i as [|i]; [reflexivity|destruct i; discriminate]).
  - intros i c Hi. destruct b; cbn in Hi; (destruct i as [|i]; [reflexivity|destruct i; discriminate]).
Qed.
Lemma slopes_distributed w : tracer_distributed w (one_config 1 false) squares slope_bcs slope_bed slope_geom (fun _ => tzero) slope_ps.
Proof.
  constructor.
  - intros p [<-|[<-|[]]]; apply slope_process_ok.
  - intros p c Hp Hc. assert (c = 0%nat \/ c = 1%nat) as Hc' by (destruct Hp as [<-|[<-|[]]]; cbn in Hc; lia).
    destruct Hp as [<-|[<-|[]]]; destruct Hc' as [-> | ->]; cbn; eexists; split; reflexivity.
Qed.
Lemma squares_wf : mesh_wf squares.
Proof.
  split; [|split].
  - repeat constructor; simpl; intuition discriminate.
  - intros e [<-|[]]; cbn; auto.
  - intros e He. cbn in He. repeat (destruct He as [<-|He]; [cbn; tauto|]). contradiction.
Qed.
Lemma one_class : sediment_config (one_config 1 false).
Proof. repeat split; try (cbn; lia). cbn. lra. Qed.
Definition slope_edges : list (list (list nat)) := [[[1];[2;3;4;5;6]];[[1];[2;3;4;5;6]]]%nat.
(* kept arrays with undefined values in them *)
Definition slope_kept : list (list R * list tbop) :=
  let junk k := TBOp (repeat (TState (RState None 7 7 None None) [7] [None]) k) [] in
  [([9;9;9;9], [junk 1%nat; junk 5%nat]); ([8;8;8;8], [junk 1%nat; junk 5%nat])].
(* wet and dry, with sediment *)
Definition slope_state (c : nat) : tvec := if Nat.eqb c 0 then tv [1; 1/4; 0; 1/5] else tv [0; 0; 0; 0].
Example C75_example : forall w, exists u' U' S', tserial_run Euler (tchoice_of w (one_config 1 false) slope_bed slope_geom) squares [TSerialInput (1/100) (fun _ => tzero) slope_bcs] slope_state = Some u' /\
  petsc_tracer_run Euler w (one_config 1 false) [(1/100, slope_ps)] ([[1; 1/4; 0; 1/5]; [0;0;0;0]], slope_kept) = Some (U', S') /\ tholds 1 [[0];[1]]%nat U' u'.
Proof.
  intros w. destruct squares_wf as (W1 & W2 & W3).
  destruct (C74_defined_for_nonnegative_depths (tchoice_of w (one_config 1 false) slope_bed slope_geom) squares slope_bcs (1/100) (fun _ => tzero) slope_state) as (f & Ef).
  - cbn. lra. - lra. - split; assumption. - exact W3. - intros; cbn; lra.
  - intros c _. unfold slope_state, depth. destruct (Nat.eqb c 0); cbn; lra.
  - intros e _. unfold slope_bcs. destruct (be_cn e <? 0); cbn; [unfold depth; cbn; lra|exact I].
  - assert (E : tserial_run Euler (tchoice_of w (one_config 1 false) slope_bed slope_geom) squares [TSerialInput (1/100) (fun _ => tzero) slope_bcs] slope_state = Some (taxpy slope_state (1/100) f)).
    { unfold tserial_run. cbn [ofold tts_step tsi_dt tsi_src tsi_bcs]. unfold teuler_step. rewrite Ef. reflexivity. }
    destruct (C75_run Euler w (one_config 1 false) squares slope_bed slope_geom [[0];[1]]%nat slope_edges [TSerialInput (1/100) (fun _ => tzero) slope_bcs] [(1/100, slope_ps)] [[1; 1/4; 0; 1/5]; [0;0;0;0]] slope_kept slope_state (taxpy slope_state (1/100) f) one_class (conj W1 (conj W2 W3))) with (4 := E) as (U' & S' & EU & HU & _).
    + constructor; [|constructor]. split; [reflexivity|]. split; [reflexivity|]. split; [reflexivity|]. apply slopes_distributed.
    + repeat constructor; (intros i c Hi; destruct i as [|i]; [injection Hi as <-; reflexivity|destruct i; discriminate]).
    + repeat constructor.
    + exists (taxpy slope_state (1/100) f), U', S'. auto.
Qed.

(* a ghost numbered before an owned cell: the evaluation fails although everything it needs is there *)
Definition ghost_first : cprocess :=
  CProcess (HMesh (CMesh 2 0 [] (fun _ => 0%nat) (fun _ => 0%nat) (fun _ => true) (fun _ => 0) (fun _ => 1) (fun _ => 1) (fun _ => 1) (fun c => Nat.eqb c 1) (fun _ => 0%nat) (fun _ => 0) (fun _ => 0) (fun _ => 0))
                  (fun c => c) (fun k => k) (fun _ => 1%nat) (fun _ => 0)) [] [0;0;0;0] [1/50] (fun c => c) (fun c => (0%nat, c)).
Theorem C75_ghosts_first_refuted : exists cf p, sediment_config cf /\ cp_ok_mat p /\ numbered (cp_mesh p) /\
  forall w dt u pv sts, (forall h, nth_error u (num_comp cf * 1 + 0) = Some h -> cf_tiny_h cf <= h) -> ApplyPetscTracerOperator w cf dt p u pv sts = None.
Proof.
  exists (one_config 1 false), ghost_first. split; [exact one_class|]. split; [reflexivity|]. split.
  - intros i c Hi. cbn in Hi. destruct i as [|i]; [injection Hi as <-; reflexivity|destruct i; discriminate].
  - intros w dt u pv0 sts H. apply (C75_owned_cells_first w _ dt ghost_first u pv0 sts 1%nat); [reflexivity|cbn; lia|reflexivity|cbn; lia|exact H].
Qed.
Print Assumptions C75_ghosts_first_refuted.

(* Elevations of cells given in a file are not used when there are tracers: water at rest, level over those
   elevations, starts to flow. *)
Definition step_process : cprocess :=
  CProcess (HMesh (CMesh 2 6 [0%nat] (fun k => k) (fun k => nth k [1;4]%nat 0%nat) (fun _ => true) (fun _ => 0) (fun _ => 1) (fun _ => 1) (fun _ => 1) (fun _ => true) (fun c => c) (fun _ => 0) (fun _ => 0) (fun _ => 0))
                  (fun c => 4 * c)%nat (fun k => nth k [0;1;4;3;1;2;5;4]%nat 0%nat) (fun _ => 4%nat) INR) [] [0;0;0;0;0;0;0;0] [1/50;1/50] (fun c => c) (fun c => (0%nat, c)).
Definition two_open : mesh := Mesh [0;1]%nat (fun _ => 1) [IEdge 0 1 1 0 1] [].
Definition level_state (c : nat) : tvec := tv [2 - INR c; 0; 0; 0].
Lemma step_process_ok : tprocess_ok (Hydrostatic true) (one_config 1 false) two_open (fun _ => TReflecting) (fun _ => 0) square_geom (fun _ => tzero) step_process.
Proof.
  constructor.
  - intros bd [].
  - intros bd [].
  - constructor.
    + cbn. repeat constructor; cbn; lia.
    + intros x y _ _ X. exact X.
    + intros l Hl. exact Hl.
    + intros e He. cbn in He. destruct He as [<-|[]]. cbn; lia.
    + intros e [].
    + exists (iedges two_open). split; [|split; [apply incl_refl|apply Permutation_refl]]. repeat constructor. exists false. cbn; repeat split; reflexivity.
    + exists []. split; [constructor|]. split; [apply incl_refl|apply Permutation_refl].
  - intros i c Hi. cbn in Hi. destruct i as [|[|i]]; [injection Hi as <-; reflexivity|injection Hi as <-; reflexivity|destruct i; discriminate].
  - exists 2%nat. intros c Hc. cbn in Hc |- *. destruct (below_two c Hc) as [-> | ->]; reflexivity.
  - intros c Hc. reflexivity.
  - discriminate.
  - intros file E. split.
    + intros c Hc. split; [|discriminate]. unfold cell_vertices. rewrite map_length, seq_length. cbn [hm_offsets hm_count step_process cp_hmesh]. lia.
    + intros c Hc. cbn in Hc; destruct (below_two c Hc) as [-> | ->]; unfold bed, cell_vertices; cbn; lra.
  - reflexivity.
  - reflexivity.
  - intros i c Hi. cbn in Hi. destruct i as [|[|i]]; [reflexivity|reflexivity|destruct i; discriminate].
  - intros i c Hi. cbn in Hi. destruct i as [|[|i]]; [reflexivity|reflexivity|destruct i; discriminate].
Qed.
Lemma pfix_positive a al ar : 0 < a -> 0 < pfix a al ar.
Proof.
  intros Ha. unfold pfix. destruct (a <? _) eqn:E; [|exact Ha]. apply Rltb_true in E. assert (0 < a * a / Rmax 0 (2 * (ar - al))) by (apply Rdiv_lt_0_compat; nra). lra.
Qed.
(* between two bodies of still water, water flows to the lower one *)
Lemma still_flux hl hr sn cn : 0 < hr -> hr < hl -> 0 < c0 (pflux GRAVITY (Prim hl 0 0) (Prim hr 0 0) sn cn).
Proof.
  intros H1 H2. unfold pflux, assemble_flux, flux_row, side_flux, pspec, uperp, unorm, uhat, vhat. cbn [c0 c1 c2 lam row0 dW ph pu pv].
  set (c := chat GRAVITY (Prim hl 0 0) (Prim hr 0 0)). assert (C : 0 < c) by (unfold c, chat; cbn [ph]; apply sqrt_lt_R0; unfold GRAVITY; lra).
  set (S1 := sqrt hl + sqrt hr). assert (0 < S1) by (unfold S1; assert (0 < sqrt hl) by (apply sqrt_lt_R0; lra); assert (0 < sqrt hr) by (apply sqrt_lt_R0; lra); lra).
  replace ((sqrt hl * 0 + sqrt hr * 0) / S1 * cn + (sqrt hl * 0 + sqrt hr * 0) / S1 * sn) with 0 by (field; lra).
  match goal with |- context [pfix ?a ?b ?d] => assert (P1 := pfix_positive a b d) end.
  match goal with |- context [pfix (Rabs (0 + c)) ?b ?d] => assert (P2 := pfix_positive (Rabs (0 + c)) b d) end.
  assert (0 < Rabs (0 - c)) by (apply Rabs_pos_lt; lra). assert (0 < Rabs (0 + c)) by (apply Rabs_pos_lt; lra). specialize (P1 ltac:(assumption)). specialize (P2 ltac:(assumption)).
  match type of P1 with 0 < ?x => set (X := x) in * end. match type of P2 with 0 < ?x => set (Y := x) in * end.
  match goal with |- 0 < ?e => replace e with ((hl - hr) * (X + Y) / 4) by (field; lra) end. nra.
Qed.
Lemma tracer_rhs_water bd dt tiny n zx zy q F src r : petsc_tracer_rhs bd dt tiny n zx zy q F src = Some r -> c0 (tflow r) = c0 (tflow F) + c0 (tflow src).
Proof.
  unfold petsc_tracer_rhs, petsc_rhs, petsc_source. cbv zeta. intros E. apply obind_some in E. destruct E as (fw & E1 & E). apply obind_some in E1. destruct E1 as (s & E1 & E2). injection E2 as <-.
  apply obind_some in E1. destruct E1 as ([tx ty] & _ & E1). injection E1 as <-.
  destruct (tiny <=? depth q); [do 4 (apply obind_some in E; let x := fresh "x" in destruct E as (x & _ & E))|]; injection E as <-; reflexivity.
Qed.
Theorem C75_elevation_file_refuted : exists cf p u, sediment_config cf /\
  (forall c, (c < cm_cells (cp_mesh p))%nat -> block 4 u c = [2 - bed true (cp_hmesh p) c; 0; 0; 0]) /\
  exists x pvs sts, ApplyPetscTracerOperator (Hydrostatic true) cf (1/10) p u (repeat 0 8) [] = Some (x, pvs, sts) /\ nth 0 x 0 < 0.
Proof.
  exists (one_config 1 false), step_process, [2;0;0;0;1;0;0;0]. split; [exact one_class|]. split.
  { intros c Hc. cbn in Hc; destruct (below_two c Hc) as [-> | ->]; unfold bed, block; cbn; apply (f_equal2 cons); try reflexivity; lra. }
  set (x := tchoice_of (Hydrostatic true) (one_config 1 false) (fun _ => 0) square_geom).
  assert (W : mesh_wf two_open). { split; [repeat constructor; simpl; intuition discriminate|]. split; [intros e [<-|[]]; cbn; auto|intros e []]. }
  destruct (C74_defined_for_nonnegative_depths x two_open (fun _ => TReflecting) (1/10) (fun _ => tzero) level_state) as (f & Ef).
  - cbn. lra. - lra. - split; apply W. - exact (proj2 (proj2 W)). - intros; cbn; lra.
  - intros c Hc. unfold level_state, depth. cbn. destruct Hc as [<-|[<-|[]]]; cbn; lra.
  - intros e [].
  - assert (LO : tlocal_ok 1 level_state step_process [2;0;0;0;1;0;0;0]).
    { split; [reflexivity|]. intros c Hc. cbn in Hc; destruct (below_two c Hc) as [-> | ->]; unfold level_state, block; cbn; apply (f_equal2 cons); try reflexivity; lra. }
    destruct (petsc_tracer_process (Hydrostatic true) (one_config 1 false) two_open (fun _ => TReflecting) (fun _ => 0) square_geom (fun _ => tzero) (1/10) step_process level_state [2;0;0;0;1;0;0;0] (repeat 0 8) [] f one_class W step_process_ok LO) as (xr & pvs & sts' & E & V & _); [|exact Ef|].
    { split; [reflexivity|]. constructor. }
    exists xr, pvs, sts'. split; [exact E|]. destruct V as (_ & V). specialize (V 0%nat 0%nat eq_refl).
    assert (G : nth 0 xr 0 = c0 (tflow (f 0%nat))). { assert (G := f_equal (fun l => nth 0 l 0) V). change (3 + cf_classes (one_config 1 false))%nat with 4%nat in G. cbv beta in G. rewrite nth_block in G by lia. exact G. }
    rewrite G. clear G V E. unfold trhs, tdivergence in Ef. cbn [iedges bedges two_open cells interior_loop boundary_loop ofold source_loop] in Ef.
    unfold interior_loop, boundary_loop, source_loop in Ef. cbn [ofold] in Ef. apply obind_some in Ef. destruct Ef as (fd & Efd & Ef).
    apply obind_some in Efd. destruct Efd as (f1 & E1 & Efd). injection Efd as ->.
    apply obind_some in Ef. destruct Ef as (f2 & E2 & Ef). apply obind_some in Ef. destruct Ef as (f3 & E3 & Ef). injection Ef as ->.
    unfold cell_update in E2, E3. apply obind_some in E2. destruct E2 as (r0 & R0 & E2). injection E2 as <-. apply obind_some in E3. destruct E3 as (r1 & _ & E3). injection E3 as <-. cbn [Nat.eqb].
    cbn in R0. apply tracer_rhs_water in R0. rewrite R0. clear R0 r1. apply obind_some in E1. destruct E1 as (f4 & E1 & E4). injection E4 as ->.
    unfold edge_update in E1. apply obind_some in E1. destruct E1 as ([[gl gr] a] & K & E1). apply obind_some in E1. destruct E1 as (sl & Sl & E1). apply obind_some in E1. destruct E1 as (sr & _ & E1). injection E1 as <-.
    cbn [area two_open ie_len ie_l ie_r] in Sl. rewrite rdiv_some in Sl by lra. injection Sl as <-. cbn.
    unfold x, tchoice_of, tscheme_of in K. cbn [tc_hr includes_slope negb petsc_tracer_hr_scheme ts_interior tc_kind tc_tiny tc_anuga tc_bed ie_l ie_r ie_sn ie_cn] in K.
    unfold petsc_tracer_hr_edge, level_state, depth in K. cbn [tflow tv nth c0 INR cf_tiny_h one_config] in K.
    change (c0 (v3 [2 - 0; 0; 0; 0])) with (2 - 0) in K. change (c0 (v3 [2 - 1; 0; 0; 0])) with (2 - 1) in K.
    replace (2 - 1 <? 1/1000) with false in K by (symmetry; apply Rltb_false; lra). cbn [andb] in K.
    assert (H0 : hr_depth (2 - 0) 0 0 = 2) by (unfold hr_depth; cbv zeta; rewrite (Rmax_left 0 0) by lra; rewrite Rmax_right by lra; ring).
    assert (H1 : hr_depth (2 - 1) 0 0 = 1) by (unfold hr_depth; cbv zeta; rewrite (Rmax_left 0 0) by lra; rewrite Rmax_right by lra; ring). rewrite H0, H1 in K.
    destruct (hr_tracer_prim_some (1/1000) (cf_h_anuga (one_config 1 false)) 2 (tv [2 - 0; 0; 0; 0]) ltac:(lra)) as (PL & EL & TL & _).
    destruct (hr_tracer_prim_some (1/1000) (cf_h_anuga (one_config 1 false)) 1 (tv [2 - 1; 0; 0; 0]) ltac:(lra)) as (PR & ER & TR & _).
    rewrite EL, ER in K. cbn [obind] in K. replace (1/1000 <? 2) with true in K by (symmetry; apply Rltb_true; lra). cbn [orb] in K.
    assert (VL : tp PL = Prim 2 0 0).
    { rewrite TL. unfold cvel. change (c0 (tflow (tv [2 - 0; 0; 0; 0]))) with (2 - 0). change (c1 (tflow (tv [2 - 0; 0; 0; 0]))) with 0. change (c2 (tflow (tv [2 - 0; 0; 0; 0]))) with 0.
      destruct (1/1000 <? 2 - 0); cbn [pu pv]; [|reflexivity]. unfold Rdiv. rewrite !Rmult_0_l. reflexivity. }
    assert (VR : tp PR = Prim 1 0 0).
    { rewrite TR. unfold cvel. change (c0 (tflow (tv [2 - 1; 0; 0; 0]))) with (2 - 1). change (c1 (tflow (tv [2 - 1; 0; 0; 0]))) with 0. change (c2 (tflow (tv [2 - 1; 0; 0; 0]))) with 0.
      destruct (1/1000 <? 2 - 1); cbn [pu pv]; [|reflexivity]. unfold Rdiv. rewrite !Rmult_0_l. reflexivity. }
    destruct (petsc_tracer_flux_some (tkind (cf_riemann (one_config 1 false))) PL PR 0 1) as (T & EF & _); [rewrite VL, VR; unfold wetpair; cbn; lra|].
    rewrite EF, VL, VR in K. cbn [obind] in K. injection K as <- _ _. assert (P := still_flux 2 1 0 1 ltac:(lra) ltac:(lra)). cbn [tadd tcorrection tflow hr_correction vadd c0]. lra.
Qed.
Print Assumptions C75_elevation_file_refuted.
