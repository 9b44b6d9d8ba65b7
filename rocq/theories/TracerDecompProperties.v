(** C74: with tracers, too, the answer does not depend on how the mesh is distributed over processes (PETSc back end). *)
From Verif Require Import Base RoeModel RoeProofs EdgeModel EdgeProofs HRModel HRProofs SourceModel SourceProofs AssemblyModel AssemblyProofs
  ConservationProperties TracerModel TracerProofs SedimentProperties DecompModel DecompSpec DecompProofs TracerDecompModel TracerDecompSpec TracerDecompProofs.

(** For every distribution, and a different one at every step if you like, a run on several processes gives the result
    of the run on one process, for the flow and for every tracer in every cell. *)
Theorem C74_distribution_independent :
  forall i x m xs ys u v u',
    0 < tc_tiny x -> well_formed m -> boundary_in m (bedges m) ->
    Forall2 (fun a b => tpi_dt b = tsi_dt a /\ tpi_src b = tsi_src a /\ tdecomposes x m (tsi_bcs a) (tpi_ranks b)) xs ys ->
    tagree m u v ->
    tserial_run i x m xs u = Some u' ->
    exists v', tpar_run i m ys v = Some v' /\ tagree m u' v'.
Proof.
  intros i x m xs ys u v u' Ht (Hnd & Hi) Hb HF. revert u v. unfold tserial_run, tpar_run.
  induction HF as [|a b xs ys (Hdt & Hsrc & Hdec) HF IH]; intros u v Huv E; cbn [ofold] in *.
  - injection E as <-. eauto.
  - apply obind_some in E. destruct E as (u1 & E1 & E2). rewrite Hdt, Hsrc.
    destruct (tts_step_agree m i _ (tpar_rhs (tpi_ranks b) (area m) (tsi_dt a) (tsi_src a)) _ u v u1
       (fun p q f Hpq Ef => tpar_rhs_ok x m (tsi_bcs a) (tpi_ranks b) _ _ p q f Ht (conj Hnd (conj Hi Hb)) Hdec Hpq Ef) Huv E1) as (v1 & -> & Hv1).
    cbn [obind]. apply (IH u1 v1 Hv1 E2).
Qed.
Print Assumptions C74_distribution_independent.

(** Two distributions of the same simulation give the same answer. *)
Theorem C74_two_distributions :
  forall i x m xs ys zs u u',
    0 < tc_tiny x -> well_formed m -> boundary_in m (bedges m) ->
    Forall2 (fun a b => tpi_dt b = tsi_dt a /\ tpi_src b = tsi_src a /\ tdecomposes x m (tsi_bcs a) (tpi_ranks b)) xs ys ->
    Forall2 (fun a b => tpi_dt b = tsi_dt a /\ tpi_src b = tsi_src a /\ tdecomposes x m (tsi_bcs a) (tpi_ranks b)) xs zs ->
    tserial_run i x m xs u = Some u' ->
    exists v w, tpar_run i m ys u = Some v /\ tpar_run i m zs u = Some w /\ tagree m v w.
Proof.
  intros i x m xs ys zs u u' Ht Hw Hb HY HZ E. assert (R0 : tagree m u u) by (intros c _; reflexivity).
  destruct (C74_distribution_independent i x m xs ys u u u' Ht Hw Hb HY R0 E) as (v & Ev & Av).
  destruct (C74_distribution_independent i x m xs zs u u u' Ht Hw Hb HZ R0 E) as (w & Ew & Aw).
  exists v, w. split; [exact Ev|]. split; [exact Ew|]. intros c Hc. rewrite <- (Av c Hc). apply Aw; exact Hc.
Qed.
Print Assumptions C74_two_distributions.

(** ** An evaluation is defined whenever no depth is negative *)
Definition tbc_ok (bc : tbcond) : Prop := match bc with TDirichlet q => 0 <= depth q | TReflecting => True end.
Lemma petsc_tracer_bedge_defined k tiny bc q sn cn : 0 < tiny -> 0 <= depth q -> tbc_ok bc -> exists x, petsc_tracer_bedge k tiny bc q sn cn = Some x.
Proof.
  intros Ht Hq Hbc. unfold petsc_tracer_bedge. destruct (petsc_tracer_prim_some tiny q Ht) as (L & -> & EL & _). cbn [obind].
  assert (HL : ph (tp L) = depth q) by (rewrite EL, pvel_h; reflexivity).
  assert (W : exists Rt, match bc with TDirichlet qR => petsc_tracer_prim tiny qR | TReflecting => Some (petsc_tracer_reflect L sn cn) end = Some Rt /\ 0 <= ph (tp Rt)).
  { destruct bc as [qR|].
    - destruct (petsc_tracer_prim_some tiny qR Ht) as (Rt & -> & ER & _). exists Rt. split; [reflexivity|]. rewrite ER, pvel_h. exact Hbc.
    - exists (petsc_tracer_reflect L sn cn). split; [reflexivity|]. unfold petsc_tracer_reflect. cbn [tp ph petsc_reflect]. unfold petsc_reflect. cbn [ph]. lra. }
  destruct W as (Rt & -> & HR). cbn [obind]. destruct (_ && _)%bool eqn:E; [eauto|]. apply Bool.andb_false_iff in E. rewrite !Rltb_false in E.
  destruct (petsc_tracer_flux_some k L Rt sn cn) as (T & -> & _); [unfold wetpair; rewrite HL in *; lra|eauto].
Qed.
Lemma petsc_tracer_rhs_defined bed dt tiny n zx zy q F s : 0 < tiny -> 0 <= dt -> exists r, petsc_tracer_rhs bed dt tiny n zx zy q F s = Some r.
Proof.
  intros Ht Hd. unfold petsc_tracer_rhs. destruct (Rle_or_lt tiny (depth q)) as [Hw|Hdry].
  - destruct (petsc_semi_implicit_step bed dt tiny n zx zy (tflow q) (tflow F) (tflow s) Hd Ht Hw) as (s0 & r & _ & _ & -> & _). cbn [obind].
    rewrite (proj2 (Rleb_true _ _) Hw), !rdiv_some, rpowneg_some, rdivs_some by lra. cbn [obind]. eauto.
  - unfold petsc_rhs. rewrite petsc_source_dry by exact Hdry. cbn [obind]. rewrite (proj2 (Rleb_false _ _) Hdry). eauto.
Qed.
Lemma tinterior_defined x bcs u e : 0 < tc_tiny x -> 0 <= depth (u (ie_l e)) -> 0 <= depth (u (ie_r e)) -> exists y, ts_interior (tscheme_of x bcs) u e = Some y.
Proof.
  intros Ht Hl Hr. unfold tscheme_of. destruct (tc_hr x).
  - cbn [ts_interior petsc_tracer_hr_scheme]. unfold petsc_tracer_hr_edge. destruct (_ && _)%bool; [eauto|].
    set (hl := hr_depth _ _ _). set (hr := hr_depth _ _ _). assert (0 <= hl) by apply hr_depth_nonneg. assert (0 <= hr) by apply hr_depth_nonneg.
    destruct (hr_tracer_prim_some (tc_tiny x) (tc_anuga x) hl (u (ie_l e)) Ht) as (PL & -> & EL & _). destruct (hr_tracer_prim_some (tc_tiny x) (tc_anuga x) hr (u (ie_r e)) Ht) as (PR & -> & ER & _). cbn [obind].
    destruct (_ || _)%bool eqn:E; [|cbn [obind]; eauto]. apply Bool.orb_true_iff in E. rewrite !Rltb_true in E.
    destruct (petsc_tracer_flux_some (tc_kind x) PL PR (ie_sn e) (ie_cn e)) as (T & -> & _); [rewrite EL, ER; unfold wetpair; cbn [ph]; lra|]. cbn [obind]. eauto.
  - cbn [ts_interior petsc_tracer_scheme]. destruct (petsc_tracer_edge_some (tc_kind x) (tc_tiny x) (u (ie_l e)) (u (ie_r e)) (ie_sn e) (ie_cn e) Ht Hl Hr) as (F & a & -> & _). cbn. eauto.
Qed.

Theorem C74_defined_for_nonnegative_depths :
  forall x m bcs dt src u,
    0 < tc_tiny x -> 0 <= dt -> well_formed m -> boundary_in m (bedges m) -> (forall c, In c (cells m) -> 0 < area m c) ->
    (forall c, In c (cells m) -> 0 <= depth (u c)) -> (forall e, In e (bedges m) -> tbc_ok (bcs e)) ->
    exists f, trhs (tscheme_of x bcs) m dt src u = Some f.
Proof.
  intros x m bcs dt src u Ht Hd (Hnd & Hi) Hb Ha Hu Hbc. unfold trhs, tdivergence. set (s := tscheme_of x bcs).
  assert (HK : forall e, In e (iedges m) -> exists y, ts_interior s u e = Some y).
  { intros e He. destruct (Hi e He). apply tinterior_defined; auto. }
  assert (HKB : forall e, In e (bedges m) -> exists y, ts_boundary s u e = Some y).
  { intros e He. replace (ts_boundary s u e) with (petsc_tracer_bedge (tc_kind x) (tc_tiny x) (bcs e) (u (be_c e)) (be_sn e) (be_cn e)) by (unfold s, tscheme_of; destruct (tc_hr x); reflexivity).
    apply petsc_tracer_bedge_defined; auto. }
  set (k := fun e => match ts_interior s u e with Some y => y | None => (tzero, tzero, 0) end).
  destruct (interior_loop_val tadd tscal (tcomp 0) (tcomp_add 0) (tcomp_scal 0) everything (area m) (ts_interior s u) k (iedges m)) with (f := fun _ : nat => tzero) as (f1 & E1 & _).
  { intros e He. unfold k. destruct (HK e He) as (y & ->). reflexivity. }
  { intros e He. destruct (Hi e He) as (H1 & H2). assert (A1 := Ha _ H1). assert (A2 := Ha _ H2). split; lra. }
  rewrite E1. cbn [obind].
  set (kb := fun e => match ts_boundary s u e with Some y => y | None => (tzero, 0) end).
  destruct (boundary_loop_val tadd tscal (tcomp 0) (tcomp_add 0) (tcomp_scal 0) everything (area m) (ts_boundary s u) kb (bedges m)) with (f := f1) as (f2 & E2 & _).
  { intros e He _. unfold kb. destruct (HKB e He) as (y & ->). reflexivity. }
  { intros e He _. assert (A1 := Ha _ (Hb e He)). lra. }
  rewrite E2. cbn [obind]. apply source_loop_some; [exact Hnd|]. intros c Hc. unfold s, tscheme_of. destruct (tc_hr x); cbn [ts_source petsc_tracer_hr_scheme petsc_tracer_scheme]; apply petsc_tracer_rhs_defined; assumption.
Qed.
Print Assumptions C74_defined_for_nonnegative_depths.

(** ** An example: a wet and a dry cell with walls, an inflow that carries sediment, two processes *)
Definition inlet : bedge := BEdge 0 1 0 (-1) BCReflecting.
Definition wall : bedge := BEdge 1 1 0 1 BCReflecting.
Definition two_tracer_cells : mesh := Mesh [0%nat; 1%nat] (fun _ => 1) [IEdge 0 1 1 0 1] [inlet; wall].
Definition inflow (e : bedge) : tbcond := if Nat.eqb (be_c e) 0 then TDirichlet (TV (V3 2 1 0) (fun j => INR j)) else TReflecting.
Definition bed_step (hr : bool) : tchoice := TChoice hr TUpwind (1/1000) 0 (fun c => if Nat.eqb c 0 then 0 else 1/2) (CellGeom (fun c => if Nat.eqb c 0 then 1/50 else 1/30) (fun _ => 0) (fun _ => 0)).
Definition both_ways (hr : bool) : list (trank * ((bedge -> tbcond) -> tscheme)) :=
  (* process 0 owns cell 0; process 1 owns cell 1 and sees the edge the other way round; both see both ends of the channel *)
  [(TRank [0%nat; 1%nat] (fun l => l) (fun l => Nat.ltb l 1) [IEdge 0 1 1 0 1] [(inlet, inflow inlet); (wall, TReflecting)], tscheme_of (tchoice_at (fun l => l) (bed_step hr)));
   (TRank [0%nat; 1%nat] (fun l => 1 - l)%nat (fun l => Nat.ltb l 1) [IEdge 0 1 1 (- 0) (-1)] [(BEdge 0 1 0 1 BCReflecting, TReflecting)], tscheme_of (tchoice_at (fun l => 1 - l)%nat (bed_step hr)))].

Lemma both_ways_decompose hr : tdecomposes (bed_step hr) two_tracer_cells inflow (both_ways hr).
Proof.
  split.
  - intros r sl [E|[E|[]]]; injection E as <- <-; (split; [reflexivity|]); constructor; cbn.
    + repeat constructor; simpl; intuition discriminate.
    + auto.
    + tauto.
    + intros e [<-|[]]. cbn. tauto.
    + intros e [<-|[<-|[]]]; cbn; tauto.
    + exists [IEdge 0 1 1 0 1]. split; [repeat constructor; exists false; repeat split|]. split; [intros e He; exact He|]. apply Permutation_refl.
    + exists [inlet; wall]. split; [repeat constructor|]. split; [intros e He; exact He|]. apply Permutation_refl.
    + repeat constructor; simpl; intuition discriminate.
    + intros a b [<-|[<-|[]]] [<-|[<-|[]]] E; cbn in E; congruence.
    + intros l [<-|[<-|[]]]; cbn; auto.
    + intros e [<-|[]]. cbn. tauto.
    + intros e [<-|[]]; cbn; tauto.
    + exists [IEdge 0 1 1 0 1]. split; [constructor; [exists true; repeat split|constructor]|]. split; [intros e He; exact He|]. apply Permutation_refl.
    + exists [wall]. split; [repeat constructor|]. split; [intros e [<-|[]]; cbn; auto|]. apply Permutation_refl.
  - intros c [<-|[<-|[]]].
    + do 2 eexists. split; [left; reflexivity|]. exists 0%nat. cbn. auto.
    + do 2 eexists. split; [right; left; reflexivity|]. exists 0%nat. cbn. auto.
Qed.
Example C74_example : forall hr, exists u' v',
  tserial_run Euler (bed_step hr) two_tracer_cells [TSerialInput (1/100) (fun _ => tzero) inflow] (fun c => if Nat.eqb c 0 then TV (V3 1 0 0) (fun _ => 1) else tzero) = Some u' /\
  tpar_run Euler two_tracer_cells [TParInput (1/100) (fun _ => tzero) (both_ways hr)] (fun c => if Nat.eqb c 0 then TV (V3 1 0 0) (fun _ => 1) else tzero) = Some v' /\ tagree two_tracer_cells u' v'.
Proof.
  intros hr. set (u := fun c : nat => if Nat.eqb c 0 then _ else _).
  assert (W : well_formed two_tracer_cells). { split; [repeat constructor; simpl; intuition discriminate|]. intros e [<-|[]]; cbn; auto. }
  assert (B : boundary_in two_tracer_cells (bedges two_tracer_cells)) by (intros e [<-|[<-|[]]]; cbn; auto).
  destruct (C74_defined_for_nonnegative_depths (bed_step hr) two_tracer_cells inflow (1/100) (fun _ => tzero) u) as (f & Ef); try assumption.
  - cbn. lra. - lra. - intros; cbn; lra.
  - intros c _. unfold u. destruct (Nat.eqb c 0); unfold depth; cbn; lra.
  - intros e [<-|[<-|[]]]; cbn; [unfold depth; cbn; lra|exact I].
  - assert (E : tserial_run Euler (bed_step hr) two_tracer_cells [TSerialInput (1/100) (fun _ => tzero) inflow] u = Some (taxpy u (1/100) f)).
    { unfold tserial_run. cbn [ofold tts_step tsi_dt tsi_src tsi_bcs]. unfold teuler_step. rewrite Ef. reflexivity. }
    destruct (C74_distribution_independent Euler (bed_step hr) two_tracer_cells [TSerialInput (1/100) (fun _ => tzero) inflow] [TParInput (1/100) (fun _ => tzero) (both_ways hr)] u u (taxpy u (1/100) f) ltac:(cbn; lra) W B) with (3 := E) as (v' & Ev & A).
    + constructor; [|constructor]. split; [reflexivity|]. split; [reflexivity|]. apply both_ways_decompose.
    + intros c _. reflexivity.
    + exists (taxpy u (1/100) f), v'. auto.
Qed.

(** ** libCEED: the direction in which an edge is traversed matters *)
(* Between a dry and a wet cell the flux is a number in one direction and a NaN in the other, whichever Riemann solver is used:
   a process that happens to number the two cells the other way round computes something else. *)
Theorem C74_ceed_direction_refuted :
  exists qL qR, forall k, (exists F a, ceed_tracer_edge k GRAVITY (1/1000) qL qR 0 1 = Some (F, a)) /\ ceed_tracer_edge k GRAVITY (1/1000) qR qL (- 0) (- (1)) = None.
Proof.
  destruct C19_ceed_tracer_left_behind_refuted as (qL & qR & HL & HR & _ & H). exists qL, qR. intros k. destruct (H k) as (F & a & E & _).
  split; [exists F, a; exact E|]. subst qL. clear H E F a.
  unfold ceed_tracer_edge. rewrite HR. assert (G : Rltb (1/1000) 1 = true) by (apply Rltb_true; lra). rewrite G. cbn [orb].
  unfold ceed_tracer_flux. assert (W : exists L, ceed_tracer_left (1/1000) qR = Some L).
  { unfold ceed_tracer_left. unfold SafeDiv. unfold depth in HR |- *. rewrite HR, G, !rdiv_some by lra. cbn [obind]. rewrite rdivs_some by lra. cbn [obind]. eauto. }
  destruct W as (L & ->). cbn [obind]. unfold ceed_tracer_right. rewrite HR, G. unfold depth; cbn [tzero tflow vzero c0]. rewrite rdivs_none. reflexivity.
Qed.
Print Assumptions C74_ceed_direction_refuted.
