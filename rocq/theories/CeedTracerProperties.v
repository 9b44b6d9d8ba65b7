(** C81: sediment on the libCEED back end, from the parts of the global solution to the parts of the global
    right-hand side, and whole runs. *)
From Coq Require Import String.
From Verif Require Import Base RoeModel RoeProofs EdgeModel EdgeProofs HRModel HRProofs SourceModel AssemblyModel AssemblyProofs TracerModel TracerProofs TracerMeshProofs TracerProperties SedimentProperties DecompModel DecompSpec DecompProofs DecompProperties
  TracerDecompModel TracerDecompSpec TracerDecompProofs TracerDecompProperties ConservationProperties
  MeshMapsProofs AMRProofs CeedLayoutModel CeedLayoutSpec CeedLayoutProofs CeedLayoutProperties CeedMusclProofs CeedHRModel CeedHRSpec CeedHRProofs CeedHRProperties
  CeedRunModel CeedRunSpec CeedRunProofs CeedRunProperties PetscRunModel PetscRunSpec PetscRunProofs PetscRunProperties PetscTracerModel PetscTracerSpec PetscTracerProofs PetscTracerProperties CeedTracerSpec CeedTracerProofs.
Local Open Scope R_scope.
Local Notation length := List.length.

(** ** One evaluation *)

(* The fluxes of all processes, added up in the global vector, and the sources of every process give the right-hand
   side of the undivided domain, for the flow and for every class of sediment. *)
Theorem C81_rhs : forall either w cf m bcs z g src dt ps U u f,
  device_config cf -> mesh_wf m -> dev_distributed either w cf m bcs z g src ps -> tholds (cf_classes cf) (layout ps) U u ->
  trhs (dev_scheme either w cf z g bcs) m dt src u = Some f ->
  exists U', OperatorRHSFunction w cf dt ps U = Some U' /\ tholds (cf_classes cf) (layout ps) U' f.
Proof.
  intros either w cf m bcs z g src dt ps U u f C WF D H Hf. destruct (device_comps cf C) as (N & _).
  destruct (tserial_steps (dev_scheme either w cf z g) m bcs dt src u f Hf) as (f1 & f2 & E1 & E2 & E3 & V).
  unfold OperatorRHSFunction, ApplyCeedOperator. rewrite N.
  destruct (omap_rel (dm_global_to_local (3 + cf_classes cf) U) (tlocal_ok (cf_classes cf) u) ps) as (us & Eus & Fus).
  { intros p Hp. apply (tracer_global_to_local _ ps); [|exact H]. intros c Hc. exact (dd_sf _ _ _ _ _ _ _ _ _ D p c Hp Hc). }
  rewrite Eus, obind_Some.
  destruct (dd_iedges _ _ _ _ _ _ _ _ _ D) as (ges & FG & PG). destruct (dd_bedges _ _ _ _ _ _ _ _ _ D) as (gbs & FB & PB).
  destruct (dfluxes_ok either w cf m bcs z g src C dt u f1 f2 E1 E2 ps us ges gbs (dd_processes _ _ _ _ _ _ _ _ _ D) Fus FG (fun e He => Permutation_in e PG He) FB (fun e He => Permutation_in e PB He)) as (fs & Efs & Lfs & Vfs).
  rewrite Efs, obind_Some.
  destruct (ddivergence_holds either w cf m bcs z g src ps fs f2 D (proj1 WF) Lfs) as (divs & Ed & HD).
  { intros k c Hk. rewrite (Vfs k c Hk), (V k c). replace (tcomp k tzero) with 0 by (do 3 (destruct k as [|k]; [reflexivity|]); reflexivity). rewrite Rplus_0_l.
    rewrite (rsum_perm _ _ _ PG), (rsum_perm _ _ _ PB). reflexivity. }
  rewrite Ed, obind_Some. exact (dsources_hold either w cf m bcs z g src C dt ps us divs u f2 f (proj1 WF) D Fus HD E3).
Qed.
Print Assumptions C81_rhs.

(** ** Whole runs *)
Theorem C81_run : forall i either w cf m z g L xs steps U u u',
  device_config cf -> mesh_wf m -> Forall2 (dev_run_distributed either w cf m z g L) xs steps -> tholds (cf_classes cf) L U u ->
  dev_run i either w cf z g m xs u = Some u' ->
  exists U', ceed_run i w cf steps U = Some U' /\ tholds (cf_classes cf) L U' u'.
Proof.
  intros i either w cf m z g L xs steps U u u' C WF F. revert U u. unfold dev_run, ceed_run. induction F as [|x st xs steps Hx F IH]; intros U u HU H; cbn [ofold] in *.
  - injection H as <-. exists U. split; [reflexivity|exact HU].
  - apply obind_some in H. destruct H as (u1 & E1 & H). destruct Hx as (Hdt & HL & HD).
    destruct (tvec_step_ok i (cf_classes cf) L (OperatorRHSFunction w cf (fst st) (snd st)) (trhs (dev_scheme either w cf z g (tsi_bcs x)) m (tsi_dt x) (tsi_src x)) (tsi_dt x) U u u1) as (U1 & EU & HU1); [|exact HU|exact E1|].
    { intros V v f HV Hf. rewrite <- HL in HV |- *. rewrite Hdt. eapply C81_rhs; [exact C|exact WF|exact HD|exact HV|exact Hf]. }
    rewrite Hdt in EU |- *. rewrite EU, obind_Some. apply (IH U1 u1 HU1 H).
Qed.
Print Assumptions C81_run.

(* However the domain is divided, the arrays hold the same field at the end. *)
Theorem C81_any_number_of_processes : forall i either w cf m z g L1 L2 xs steps1 steps2 U1 U2 u u',
  device_config cf -> mesh_wf m ->
  Forall2 (dev_run_distributed either w cf m z g L1) xs steps1 -> tholds (cf_classes cf) L1 U1 u ->
  Forall2 (dev_run_distributed either w cf m z g L2) xs steps2 -> tholds (cf_classes cf) L2 U2 u ->
  dev_run i either w cf z g m xs u = Some u' ->
  exists V1 V2, ceed_run i w cf steps1 U1 = Some V1 /\ ceed_run i w cf steps2 U2 = Some V2 /\
    forall p1 p2 q1 q2 a b x y c k, (k < 3 + cf_classes cf)%nat ->
      nth_error L1 p1 = Some a -> nth_error a q1 = Some c -> nth_error V1 p1 = Some x ->
      nth_error L2 p2 = Some b -> nth_error b q2 = Some c -> nth_error V2 p2 = Some y ->
      nth (q1 * (3 + cf_classes cf) + k) x 0 = nth (q2 * (3 + cf_classes cf) + k) y 0.
Proof.
  intros i either w cf m z g L1 L2 xs steps1 steps2 U1 U2 u u' C WF F1 H1 F2 H2 E.
  destruct (C81_run i either w cf m z g L1 xs steps1 U1 u u' C WF F1 H1 E) as (V1 & E1 & HV1).
  destruct (C81_run i either w cf m z g L2 xs steps2 U2 u u' C WF F2 H2 E) as (V2 & E2 & HV2).
  exists V1, V2. split; [exact E1|]. split; [exact E2|]. intros p1 p2 q1 q2 a b x y c k Hk A1 A2 A3 B1 B2 B3.
  destruct (Forall2_get _ _ _ _ _ HV1 A1) as (x' & Ex & Hx). assert (x' = x) by congruence. subst x'.
  destruct (Forall2_get _ _ _ _ _ HV2 B1) as (y' & Ey & Hy). assert (y' = y) by congruence. subst y'.
  rewrite (tpart_holds_nth _ _ _ _ _ _ _ Hx A2 Hk), (tpart_holds_nth _ _ _ _ _ _ _ Hy B2 Hk). reflexivity.
Qed.
Print Assumptions C81_any_number_of_processes.

(** ** The run of the undivided domain is a run of the kernels of the code *)
Definition kernels (w : balancing) (cf : cconfig) (z : nat -> R) : tracer_kind := match w with Standard => KCeed (tkind (cf_riemann cf)) | Hydrostatic _ => KCeedHR (cf_h_anuga cf) z end.
(* hydrostatic reconstruction has the Roe flux only; on boundaries it is the configured flux *)
Definition one_flux (w : balancing) (cf : cconfig) : Prop := match w with Standard => True | Hydrostatic _ => tkind (cf_riemann cf) = TRoe end.
Lemma code_rhs either w cf z g bcs m dt src u f : one_flux w cf ->
  trhs (dev_scheme either w cf z g bcs) m dt src u = Some f -> trhs (tracer_scheme (kernels w cf z) (cf_tiny_h cf) g bcs) m dt src u = Some f.
Proof.
  intros HK. apply trhs_mono; destruct w; cbn [kernels tracer_scheme ceed_tracer_scheme ceed_tracer_hr_scheme dev_scheme ts_interior ts_boundary ts_source includes_slope dev_interior one_flux] in *;
    try (intros; reflexivity); intros e x _; unfold dev_boundary; try rewrite HK; match goal with |- (if ?b then _ else _) = _ -> _ => destruct b; [discriminate|auto] end.
Qed.
Definition code_run (i : integrator) (K : tracer_kind) (tiny_h : R) (g : cellgeom) (m : mesh) (xs : list tserial_input) (u : nat -> tvec) : option (nat -> tvec) :=
  ofold (fun u x => tts_step i (trhs (tracer_scheme K tiny_h g (tsi_bcs x)) m (tsi_dt x) (tsi_src x)) (tsi_dt x) u) xs u.
Theorem C81_reference : forall i either w cf m z g xs u u', one_flux w cf ->
  dev_run i either w cf z g m xs u = Some u' -> code_run i (kernels w cf z) (cf_tiny_h cf) g m xs u = Some u'.
Proof.
  intros i either w cf m z g xs u u' HK. revert u. unfold dev_run, code_run. induction xs as [|x xs IH]; intros u H; cbn [ofold] in *; [exact H|].
  apply obind_some in H. destruct H as (u1 & E1 & H). rewrite (tts_mono i _ _ _ _ _ (fun v f => code_rhs either w cf z g (tsi_bcs x) m (tsi_dt x) (tsi_src x) v f HK) E1), obind_Some. exact (IH u1 H).
Qed.
Print Assumptions C81_reference.

(** ** What this says about the arrays *)

(* the amount of component [k] in the parts of a global vector *)
Definition array_amount (m : mesh) (n k : nat) (L : list (list nat)) (U : list (list R)) : R :=
  rsum (fun gx => rsum (fun ci => area m (fst ci) * nth (snd ci * n + k) (snd gx) 0) (combine (fst gx) (seq 0 (length (fst gx))))) (combine L U).
Lemma array_amount_holds m nt k L U u : (k < 3 + nt)%nat -> tholds nt L U u -> array_amount m (3 + nt) k L U = rsum (fun c => area m c * tcomp k (u c)) (concat L).
Proof.
  intros Hk H. unfold array_amount. induction H as [|gs x L U Hx H IH]; cbn [combine rsum concat fst snd]; [reflexivity|]. rewrite rsum_app, IH. f_equal.
  assert (G : forall gs0 j, (forall i c, nth_error gs0 i = Some c -> nth ((j + i) * (3 + nt) + k) x 0 = tcomp k (u c)) ->
    rsum (fun ci => area m (fst ci) * nth (snd ci * (3 + nt) + k) x 0) (combine gs0 (seq j (length gs0))) = rsum (fun c => area m c * tcomp k (u c)) gs0).
  { induction gs0 as [|c gs0 IH0]; intros j HG; cbn [length seq combine rsum fst snd]; [reflexivity|]. rewrite (IH0 (S j)).
    - f_equal. f_equal. specialize (HG 0%nat c eq_refl). rewrite Nat.add_0_r in HG. exact HG.
    - intros i d Hi. specialize (HG (S i) d Hi). replace (S j + i)%nat with (j + S i)%nat by lia. exact HG. }
  apply G. intros i c Hi. cbn [Nat.add]. exact (tpart_holds_nth _ _ _ _ _ _ _ Hx Hi Hk).
Qed.
Lemma array_mass m nt j L U u : (j < nt)%nat -> Permutation (concat L) (cells m) -> tholds nt L U u -> array_amount m (3 + nt) (3 + j) L U = tracer_mass m j u.
Proof. intros Hj P H. rewrite (array_amount_holds m nt (3 + j) L U u) by (lia || exact H). unfold tracer_mass. apply rsum_perm. exact P. Qed.

(* What enters the water in one run, by the quadrature of the integrator: what the bed gives, what is supplied and
   what flows in through the boundary. *)
Fixpoint sediment_gain (i : integrator) (K : tracer_kind) (tiny_h : R) (g : cellgeom) (m : mesh) (j : nat) (xs : list tserial_input) (u : nat -> tvec) : R :=
  match xs with
  | [] => 0
  | x :: t =>
    let s := tracer_scheme K tiny_h g (tsi_bcs x) in
    tstep_gain i s m (fun v y => bed_exchange K tiny_h g m j v + supplied m j (tst_src y) - tracer_outflow s m j v) u (TStep (tsi_dt x) (tsi_src x))
    + match tts_step i (trhs s m (tsi_dt x) (tsi_src x)) (tsi_dt x) u with Some u' => sediment_gain i K tiny_h g m j t u' | None => 0 end
  end.
Lemma code_run_mass i K tiny_h g m j : mesh_wf m -> match K with KCeed _ | KCeedHR _ _ => True | _ => False end -> forall xs u u', code_run i K tiny_h g m xs u = Some u' ->
  tracer_mass m j u' = tracer_mass m j u + sediment_gain i K tiny_h g m j xs u.
Proof.
  intros WF HK. unfold code_run. induction xs as [|x xs IH]; intros u u' H; cbn [ofold sediment_gain] in *.
  - injection H as <-. ring.
  - apply obind_some in H. destruct H as (u1 & E1 & H). cbv zeta. rewrite E1, (IH u1 u' H).
    assert (B := C54_tracer_balance K tiny_h g (tsi_bcs x) i m j [TStep (tsi_dt x) (tsi_src x)] u u1 WF). cbv zeta in B. rewrite B.
    + cbn [trun_gain tst_dt tst_src]. rewrite E1.
      assert (CT : forall v y, counted K tiny_h m j (tst_src y) v = supplied m j (tst_src y)) by (intros; apply C54_ceed_whole_supply_counted; exact HK).
      assert (TG : forall f1 f2, (forall v y, f1 v y = f2 v y) -> forall y, tstep_gain i (tracer_scheme K tiny_h g (tsi_bcs x)) m f1 u y = tstep_gain i (tracer_scheme K tiny_h g (tsi_bcs x)) m f2 u y).
      { intros f1 f2 Hf y. unfold tstep_gain. destruct (tstages _ _ _ _); [|reflexivity]. f_equal. apply rsum_ext. intros. rewrite Hf. reflexivity. }
      rewrite (TG _ (fun v y => bed_exchange K tiny_h g m j v + supplied m j (tst_src y) - tracer_outflow (tracer_scheme K tiny_h g (tsi_bcs x)) m j v)); [ring|].
      intros v y. rewrite CT. reflexivity.
    + unfold trun. cbn [ofold tst_dt tst_src]. rewrite E1. reflexivity.
Qed.
Theorem C81_sediment_balance : forall i either w cf m z g L xs steps U u u' j,
  device_config cf -> one_flux w cf -> mesh_wf m -> Permutation (concat L) (cells m) -> (j < cf_classes cf)%nat ->
  Forall2 (dev_run_distributed either w cf m z g L) xs steps -> tholds (cf_classes cf) L U u -> dev_run i either w cf z g m xs u = Some u' ->
  exists U', ceed_run i w cf steps U = Some U' /\
    array_amount m (3 + cf_classes cf) (3 + j) L U' = array_amount m (3 + cf_classes cf) (3 + j) L U + sediment_gain i (kernels w cf z) (cf_tiny_h cf) g m j xs u.
Proof.
  intros i either w cf m z g L xs steps U u u' j C HK WF P Hj F H E. destruct (C81_run i either w cf m z g L xs steps U u u' C WF F H E) as (U' & EU & HU').
  exists U'. split; [exact EU|]. rewrite !(array_mass m (cf_classes cf) j L _ _ Hj P H), !(array_mass m (cf_classes cf) j L _ _ Hj P HU').
  apply code_run_mass; [exact WF|destruct w; exact I|]. eapply C81_reference; eassumption.
Qed.
Print Assumptions C81_sediment_balance.

(** ** When the run is defined *)

(* the depths an edge sees *)
Definition edge_depth (w : balancing) (z : nat -> R) (u : nat -> tvec) (a b : nat) : R := match w with Standard => depth (u a) | Hydrostatic _ => hr_depth (depth (u a)) (z a) (z b) end.
(* an edge may be wet on one side only if it is never traversed the other way, and then not from wet to empty *)
Definition passable (either : bool) (tiny_h a b : R) : Prop := if either then (tiny_h < a <-> tiny_h < b) else (tiny_h < a -> 0 < b).
Definition inlet_ok (tiny_h : R) (q : tvec) (bc : tbcond) : Prop :=
  match bc with TDirichlet r => 0 <= depth r /\ (tiny_h < depth q \/ tiny_h < depth r) /\ (tiny_h < depth q -> 0 < depth r) | TReflecting => True end.
Lemma dev_interior_defined either w cf zL zR qL qR sn cn : 0 < cf_tiny_h cf -> 0 <= depth qL -> 0 <= depth qR ->
  passable either (cf_tiny_h cf) (match w with Standard => depth qL | _ => hr_depth (depth qL) zL zR end) (match w with Standard => depth qR | _ => hr_depth (depth qR) zR zL end) ->
  exists y, dev_interior either w cf zL zR qL qR sn cn = Some y.
Proof.
  intros Ht H1 H2 HP.
  assert (OS : forall a b, passable either (cf_tiny_h cf) a b -> (either && one_sided (cf_tiny_h cf) a b)%bool = false /\ (cf_tiny_h cf < a -> 0 < b)).
  { intros a b P. unfold passable in P. destruct either; cbn [andb]; [|split; [reflexivity|exact P]]. split; [|intros X; apply P in X; lra].
    unfold one_sided. destruct (Rltb (cf_tiny_h cf) a) eqn:A; destruct (Rltb (cf_tiny_h cf) b) eqn:B; try reflexivity; [apply Rltb_true in A; apply P in A; apply Rltb_false in B; lra|apply Rltb_true in B; apply P in B; apply Rltb_false in A; lra]. }
  destruct w as [|file]; cbn [dev_interior]; destruct (OS _ _ HP) as (-> & HP').
  - unfold ceed_tracer_edge. destruct (_ || _)%bool eqn:B; [|cbn; eauto]. destruct (ceed_tracer_flux_defined (tkind (cf_riemann cf)) (cf_tiny_h cf) qL qR sn cn Ht H1 H2) as (F & a & ->); [|exact HP'|cbn; eauto].
    apply Bool.orb_true_iff in B. destruct B as [B|B]; apply Rltb_true in B; auto.
  - unfold ceed_tracer_hr_edge. destruct (hr_tracer_prim_some (cf_tiny_h cf) (cf_h_anuga cf) (hr_depth (depth qL) zL zR) qL Ht) as (P & -> & TP & _).
    destruct (hr_tracer_prim_some (cf_tiny_h cf) (cf_h_anuga cf) (hr_depth (depth qR) zR zL) qR Ht) as (Q & -> & TQ & _). cbn [obind].
    destruct (_ || _)%bool; [|eauto]. destruct (_ || _)%bool eqn:B; [|cbn; eauto].
    match goal with |- context [ceed_tracer_flux TRoe GRAVITY _ ?a ?b _ _] => destruct (ceed_tracer_flux_defined TRoe (cf_tiny_h cf) a b sn cn Ht) as (F & y & ->) end; [..|cbn; eauto];
      unfold depth in *; cbn [tflow c0]; rewrite ?TP, ?TQ; cbn [ph].
    + apply Rmax_l.
    + apply Rmax_l.
    + apply Bool.orb_true_iff in B. destruct B as [B|B]; apply Rltb_true in B; auto.
    + exact HP'.
Qed.
Theorem C81_defined : forall either w cf m bcs z g src dt ps U u,
  device_config cf -> mesh_wf m -> dev_distributed either w cf m bcs z g src ps -> tholds (cf_classes cf) (layout ps) U u ->
  0 <= dt -> (forall c, In c (cells m) -> 0 < area m c /\ 0 <= depth (u c)) ->
  (forall e, In e (iedges m) -> passable either (cf_tiny_h cf) (edge_depth w z u (ie_l e) (ie_r e)) (edge_depth w z u (ie_r e) (ie_l e))) ->
  (forall e, In e (bedges m) -> inlet_ok (cf_tiny_h cf) (u (be_c e)) (bcs e)) ->
  exists f U', trhs (dev_scheme either w cf z g bcs) m dt src u = Some f /\ OperatorRHSFunction w cf dt ps U = Some U' /\ tholds (cf_classes cf) (layout ps) U' f.
Proof.
  intros either w cf m bcs z g src dt ps U u C WF D H Hd Hc Hi Hb. destruct (device_comps cf C) as (_ & _ & _ & T).
  cut (exists f, trhs (dev_scheme either w cf z g bcs) m dt src u = Some f).
  { intros (f & Ef). destruct (C81_rhs either w cf m bcs z g src dt ps U u f C WF D H Ef) as (U' & EU & HU). exists f, U'. auto. }
  destruct WF as (Hnd & We & Wb). unfold trhs, tdivergence. set (s := dev_scheme either w cf z g bcs).
  assert (HK : forall e, In e (iedges m) -> exists y, ts_interior s u e = Some y).
  { intros e He. destruct (We e He) as (A & B). specialize (Hi e He). cbn [s dev_scheme ts_interior]. apply dev_interior_defined; [exact T|apply Hc, A|apply Hc, B|destruct w; exact Hi]. }
  assert (HKB : forall e, In e (bedges m) -> exists y, ts_boundary s u e = Some y).
  { intros e He. assert (Hu := proj2 (Hc _ (Wb e He))). specialize (Hb e He). cbn [s dev_scheme ts_boundary]. unfold dev_boundary. destruct (bcs e) as [q|].
    - destruct Hb as (H0 & H1 & H2). cbn [ceed_tracer_bedge]. unfold ceed_tracer_edge. destruct (_ || _)%bool eqn:B; cbn [negb].
      + destruct (ceed_tracer_flux_defined (tkind (cf_riemann cf)) (cf_tiny_h cf) (u (be_c e)) q (be_sn e) (be_cn e) T Hu H0 H1 H2) as (F & a & ->). eauto.
      + exfalso. apply Bool.orb_false_iff in B. destruct B as (B1 & B2). apply Rltb_false in B1, B2. lra.
    - cbn [ceed_tracer_bedge]. destruct (Rltb _ _) eqn:B; [|eauto]. apply Rltb_true in B.
      match goal with |- context [ceed_tracer_flux ?k GRAVITY _ ?a ?b ?x ?y] => destruct (ceed_tracer_flux_defined k (cf_tiny_h cf) a b x y T Hu) as (F & v & ->) end; eauto; unfold depth in *; cbn [tflow c0]; lra. }
  set (k := fun e => match ts_interior s u e with Some y => y | None => (tzero, tzero, 0) end).
  destruct (interior_loop_val tadd tscal (tcomp 0) (tcomp_add 0) (tcomp_scal 0) everything (area m) (ts_interior s u) k (iedges m)) with (f := fun _ : nat => tzero) as (f1 & E1 & _).
  { intros e He. unfold k. destruct (HK e He) as (y & ->). reflexivity. }
  { intros e He. destruct (We e He) as (H1 & H2). destruct (Hc _ H1), (Hc _ H2). split; lra. }
  rewrite E1. cbn [obind].
  set (kb := fun e => match ts_boundary s u e with Some y => y | None => (tzero, 0) end).
  destruct (boundary_loop_val tadd tscal (tcomp 0) (tcomp_add 0) (tcomp_scal 0) everything (area m) (ts_boundary s u) kb (bedges m)) with (f := f1) as (f2 & E2 & _).
  { intros e He _. unfold kb. destruct (HKB e He) as (y & ->). reflexivity. }
  { intros e He _. destruct (Hc _ (Wb e He)). lra. }
  rewrite E2. cbn [obind]. apply source_loop_some; [exact Hnd|]. intros c _ . cbn [s dev_scheme ts_source]. apply ceed_tracer_rhs_defined; assumption.
Qed.
Print Assumptions C81_defined.

(** ** Examples: the two squares on a slope of C75, the edge between them seen in either direction *)
Definition squares_seen (flip : bool) : mesh := if flip then Mesh (cells squares) (area squares) [IEdge 1 0 1 (- 0) (- (1))] (bedges squares) else squares.
Lemma squares_seen_wf flip : mesh_wf (squares_seen flip).
Proof. destruct flip; [|exact squares_wf]. destruct squares_wf as (A & _ & B). split; [exact A|]. split; [|exact B]. intros e [<-|[]]; cbn; auto. Qed.
Lemma one_device : device_config (one_config 1 false).
Proof. split; [exact one_class|]. cbn. unfold MAX_NUM_SEDIMENT_CLASSES. lia. Qed.
Lemma slope_edge_ok b e : (e < 7)%nat -> edge_ok (slope_mesh b) e.
Proof. intros H. unfold edge_ok. do 7 (destruct e as [|e]; [destruct b; cbn; repeat split; try lia; lra|]). lia. Qed.
(* the bed: the elevations at the centres, if they come from a file, or the means over the vertices *)
Definition slope_z (w : balancing) : nat -> R := match w with Hydrostatic true => INR | _ => slope_bed end.
Lemma slope_device_ok w flip b : dprocess_ok w (one_config 1 false) (squares_seen flip) (slope_z w) slope_geom (fun _ => tzero) (slope_process b).
Proof.
  constructor.
  - constructor.
    + intros e [<-|[]] _. split; [apply slope_edge_ok; lia|]. destruct b; cbn; split; try lia; lra.
    + intros bd e [<-|[<-|[]]] He _; apply slope_edge_ok; cbn in He; lia.
    + intros c Hc. exact Hc.
    + intros c c' _ _ E. exact E.
  - intros bd [<-|[<-|[]]]; discriminate.
  - intros bd [<-|[<-|[]]]; cbn; intros X; try discriminate X; reflexivity.
  - intros c Hc. destruct b; cbn in Hc; destruct (below_two c Hc) as [-> | ->]; destruct flip; cbn; tauto.
  - exists 1%nat. intros c Hc. destruct b; cbn in Hc |- *; destruct (below_two c Hc) as [-> | ->]; reflexivity.
  - intros c Hc. cbn [slope_process cp_mesh cp_hmesh hm_mesh slope_mesh cm_l2o]. symmetry. apply ghosts_last_identity; [|cbn; cbn in Hc; lia].
    exists 2%nat, 1%nat. split; [reflexivity|]. intros l Hl. destruct (below_two l Hl) as [-> | ->]; reflexivity.
  - intros c Hc. destruct flip; reflexivity.
  - intros _ c Hc. split; reflexivity.
  - intros file E. split.
    + intros c Hc. split; [|discriminate]. unfold cell_vertices. rewrite map_length, seq_length. cbn [hm_offsets hm_count slope_process cp_hmesh]. lia.
    + intros c Hc. destruct b; cbn in Hc; destruct (below_two c Hc) as [-> | ->]; unfold bed, cell_vertices, slope_z, slope_bed; rewrite E; destruct file; cbn; lra.
  - reflexivity.
  - reflexivity.
  - intros i c Hi. destruct b; cbn in Hi; (destruct i as [|i]; [reflexivity|destruct i; discriminate]).
  - intros i c Hi. destruct b; cbn in Hi; (destruct i as [|i]; [reflexivity|destruct i; discriminate]).
Qed.
Lemma slopes_on_device either w flip : (flip = true -> either = true) -> dev_distributed either w (one_config 1 false) (squares_seen flip) slope_bcs (slope_z w) slope_geom (fun _ => tzero) slope_ps.
Proof.
  intros HF. constructor.
  - intros p [<-|[<-|[]]]; apply slope_device_ok.
  - destruct flip; apply Permutation_refl.
  - exists [iedges (squares_seen flip); []]. split; [|cbn; rewrite app_nil_r; apply Permutation_refl]. constructor; [|constructor; [constructor|constructor]].
    assert (X : seen either (cp_gid (slope_process false)) (iedge_of (slope_mesh false) 0) (if flip then IEdge 1 0 1 (- 0) (- (1)) else IEdge 0 1 1 0 1)).
    { exists flip. split; [exact HF|]. destruct flip; cbn; repeat split; try reflexivity; cbn; lra. }
    destruct flip; exact (Forall2_cons _ _ X (Forall2_nil _)).
  - exists [firstn 3 (bedges squares); skipn 3 (bedges squares)]. split; [|destruct flip; apply Permutation_refl].
    constructor; [|constructor; [|constructor]].
    + constructor; [repeat (split; [reflexivity|]); cbn [snd]; rewrite slope_bcs_in; reflexivity|]. repeat (constructor; [repeat (split; [reflexivity|]); cbn [snd]; rewrite slope_bcs_wall by lra; reflexivity|]). constructor.
    + repeat (constructor; [repeat (split; [reflexivity|]); cbn [snd]; rewrite slope_bcs_wall by lra; reflexivity|]). constructor.
  - intros p c Hp Hc. assert (c = 0%nat \/ c = 1%nat) as Hc' by (destruct Hp as [<-|[<-|[]]]; cbn in Hc; lia).
    destruct Hp as [<-|[<-|[]]]; destruct Hc' as [-> | ->]; cbn; eexists; split; reflexivity.
Qed.
(* water over both squares; the reconstructed depths are one metre on both sides *)
Definition slope_wet (c : nat) : tvec := if Nat.eqb c 0 then tv [2; 1/4; 0; 1/5] else tv [1; 0; 0; 1/10].
Example C81_example : forall w flip, exists u' U', dev_run Euler true w (one_config 1 false) (slope_z w) slope_geom (squares_seen flip) [TSerialInput (1/100) (fun _ => tzero) slope_bcs] slope_wet = Some u' /\
  ceed_run Euler w (one_config 1 false) [(1/100, slope_ps)] [[2; 1/4; 0; 1/5]; [1;0;0;1/10]] = Some U' /\ tholds 1 [[0];[1]]%nat U' u' /\
  array_amount (squares_seen flip) 4 3 [[0];[1]]%nat [[2; 1/4; 0; 1/5]; [1;0;0;1/10]] = 3/10.
Proof.
  intros w flip. assert (D := slopes_on_device true w flip (fun _ => eq_refl)).
  assert (H : tholds 1 [[0];[1]]%nat [[2; 1/4; 0; 1/5]; [1;0;0;1/10]] slope_wet).
  { repeat constructor; (intros i c Hi; destruct i as [|i]; [injection Hi as <-; reflexivity|destruct i; discriminate]). }
  destruct (C81_defined true w (one_config 1 false) (squares_seen flip) slope_bcs (slope_z w) slope_geom (fun _ => tzero) (1/100) slope_ps [[2; 1/4; 0; 1/5]; [1;0;0;1/10]] slope_wet one_device (squares_seen_wf flip) D H) as (f & _ & Ef & _).
  - lra.
  - intros c Hc. split; [destruct flip; cbn; lra|]. unfold slope_wet, depth. destruct (Nat.eqb c 0); cbn; lra.
  - assert (X : forall a b, ((a = 0 /\ b = 1) \/ (a = 1 /\ b = 0))%nat -> 1/1000 < edge_depth w (slope_z w) slope_wet a b).
    { intros a b [(-> & ->)|(-> & ->)]; destruct w as [|[|]]; unfold edge_depth, slope_wet, slope_z, slope_bed, depth, hr_depth; cbn; try lra; unfold Rmax; repeat destruct (Rle_dec _ _); lra. }
    intros e He. unfold passable. cbn [cf_tiny_h one_config]. destruct flip; destruct He as [<-|[]]; cbn [ie_l ie_r]; split; intros _; apply X; auto.
  - intros e _. unfold slope_bcs. destruct (be_cn e <? 0); cbn; [|exact I]. unfold slope_wet, depth. cbn. destruct (Nat.eqb (be_c e) 0); cbn; lra.
  - assert (E : dev_run Euler true w (one_config 1 false) (slope_z w) slope_geom (squares_seen flip) [TSerialInput (1/100) (fun _ => tzero) slope_bcs] slope_wet = Some (taxpy slope_wet (1/100) f)).
    { unfold dev_run. cbn [ofold tts_step tsi_dt tsi_src tsi_bcs]. unfold teuler_step. rewrite Ef. reflexivity. }
    destruct (C81_run Euler true w (one_config 1 false) (squares_seen flip) (slope_z w) slope_geom [[0];[1]]%nat [TSerialInput (1/100) (fun _ => tzero) slope_bcs] [(1/100, slope_ps)] [[2; 1/4; 0; 1/5]; [1;0;0;1/10]] slope_wet (taxpy slope_wet (1/100) f) one_device (squares_seen_wf flip)) with (2 := H) (3 := E) as (U' & EU & HU).
    + constructor; [|constructor]. split; [reflexivity|]. split; [reflexivity|exact D].
    + exists (taxpy slope_wet (1/100) f), U'. split; [exact E|]. split; [exact EU|]. split; [exact HU|]. unfold array_amount. destruct flip; cbn; lra.
Qed.

(** ** One-sided edges *)
Lemma wet_to_empty k tiny qL qR sn cn : 0 <= tiny -> tiny < depth qL -> depth qR = 0 -> ceed_tracer_edge k GRAVITY tiny qL qR sn cn = None.
Proof.
  intros Ht HL HR. unfold ceed_tracer_edge. assert (G : (tiny <? depth qL) = true) by (apply Rltb_true; exact HL). rewrite G. cbn [orb].
  unfold ceed_tracer_flux. destruct (ceed_tracer_left tiny qL) as [P|]; [|reflexivity]. cbn [obind]. unfold ceed_tracer_right. rewrite HR, G, rdivs_none.
  repeat (match goal with |- context [SafeDiv ?a ?b ?c ?d] => destruct (SafeDiv a b c d) end; cbn [obind]); reflexivity.
Qed.
(* Without the restriction to edges wet on both sides or on neither the run depends on how cells are numbered: the
   processes below evaluate the right-hand side at the front between an empty and a wet cell, and the same kernels on
   the same domain, with the edge between the two cells listed the other way round, do not. *)
Theorem C81_numbering_refuted :
  exists cf m m' bcs z g ps U u, device_config cf /\ mesh_wf m /\ mesh_wf m' /\ dev_distributed true Standard cf m bcs z g (fun _ => tzero) ps /\ dev_distributed true Standard cf m' bcs z g (fun _ => tzero) ps /\
    tholds (cf_classes cf) (layout ps) U u /\ (forall c, 0 <= depth (u c)) /\
    (exists U' f, OperatorRHSFunction Standard cf (1/100) ps U = Some U' /\ trhs (tracer_scheme (kernels Standard cf z) (cf_tiny_h cf) g bcs) m (1/100) (fun _ => tzero) u = Some f /\ tholds (cf_classes cf) (layout ps) U' f) /\
    trhs (tracer_scheme (kernels Standard cf z) (cf_tiny_h cf) g bcs) m' (1/100) (fun _ => tzero) u = None.
Proof.
  set (u := fun c : nat => if Nat.eqb c 0 then tv [0;0;0;0] else tv [1;0;0;5]).
  assert (H : tholds 1 [[0];[1]]%nat [[0;0;0;0]; [1;0;0;5]] u).
  { repeat constructor; (intros i c Hi; destruct i as [|i]; [injection Hi as <-; reflexivity|destruct i; discriminate]). }
  assert (N : forall c, 0 <= depth (u c)) by (intros c; unfold u, depth; destruct (Nat.eqb c 0); cbn; lra).
  exists (one_config 1 false), (squares_seen false), (squares_seen true), slope_bcs, slope_bed, slope_geom, slope_ps, [[0;0;0;0]; [1;0;0;5]], u.
  split; [exact one_device|]. split; [apply squares_seen_wf|]. split; [apply squares_seen_wf|].
  split; [exact (slopes_on_device true Standard false (fun _ => eq_refl))|]. split; [exact (slopes_on_device true Standard true (fun _ => eq_refl))|]. split; [exact H|]. split; [exact N|]. split.
  - destruct (C81_defined false Standard (one_config 1 false) (squares_seen false) slope_bcs slope_bed slope_geom (fun _ => tzero) (1/100) slope_ps [[0;0;0;0]; [1;0;0;5]] u one_device (squares_seen_wf false)
      (slopes_on_device false Standard false ltac:(discriminate)) H) as (f & U' & Ef & EU & HU).
    + lra.
    + intros c Hc. split; [cbn; lra|apply N].
    + intros e [<-|[]]. cbn. unfold depth. cbn. lra.
    + intros e _. unfold slope_bcs. destruct (be_cn e <? 0); [|exact I]. unfold inlet_ok. unfold depth at 1 3 5. cbn. lra.
    + exists U', f. split; [exact EU|]. split; [|exact HU]. eapply code_rhs; [exact I|exact Ef].
  - unfold trhs, tdivergence, interior_loop. cbn [squares_seen iedges ofold]. unfold edge_update. cbn [kernels tracer_scheme ceed_tracer_scheme ts_interior ie_l ie_r ie_sn ie_cn].
    rewrite wet_to_empty; [reflexivity|cbn; lra|cbn; unfold depth; cbn; lra|reflexivity].
Qed.
Print Assumptions C81_numbering_refuted.
