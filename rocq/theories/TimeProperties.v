(** C28, C29, C30: time units, adaptive steps, advancing and finishing. *)
From Verif Require Import Base DiagModel TimeModel.
From Coq Require Import ZArith.

(** ** C28 *)
(* seconds in one unit, by the calendar of the documentation *)
Definition unit_seconds (u : time_unit) : R :=
  match u with
  | SECONDS => 1 | MINUTES => 60 | HOURS => 60 * 60 | DAYS => 24 * (60 * 60)
  | MONTHS => 30 * (24 * (60 * 60)) | YEARS => 365 * (24 * (60 * 60)) | UNSET => 1
  end.
Definition is_unit (u : time_unit) : Prop := u <> UNSET.

Lemma unit_seconds_pos u : 0 < unit_seconds u.
Proof. destruct u; cbn; lra. Qed.
Lemma to_seconds t u : is_unit u -> ConvertTimeToSeconds t u = t * unit_seconds u.
Proof. intros H. destruct u; [contradiction H; reflexivity|..]; cbn; unfold secs_in_min, mins_in_hr, hrs_in_day, days_in_mon, days_in_yr; ring. Qed.
Lemma from_seconds t u : is_unit u -> ConvertTimeFromSeconds t u = t / unit_seconds u.
Proof. intros H. destruct u; [contradiction H; reflexivity|..]; cbn; unfold secs_in_min, mins_in_hr, hrs_in_day, days_in_mon, days_in_yr; field. Qed.

Theorem C28_calendar :
  forall t u, is_unit u -> ConvertTimeToSeconds t u = t * unit_seconds u /\ ConvertTimeFromSeconds t u * unit_seconds u = t.
Proof.
  intros t u H. split; [apply to_seconds; exact H|]. rewrite from_seconds by exact H. field. apply Rgt_not_eq, unit_seconds_pos.
Qed.
Print Assumptions C28_calendar.

Theorem C28_round_trip :
  forall t u v, is_unit u -> is_unit v -> RDyConvertTime v (RDyConvertTime u t v) u = t.
Proof.
  intros t u v Hu Hv. unfold RDyConvertTime. rewrite (from_seconds _ v), (to_seconds _ v), (to_seconds _ u), (from_seconds _ u) by assumption.
  assert (A := unit_seconds_pos u). assert (B := unit_seconds_pos v). field. lra.
Qed.
Print Assumptions C28_round_trip.

Theorem C28_composition :
  forall t u v w, is_unit u -> is_unit v -> is_unit w -> RDyConvertTime v (RDyConvertTime u t v) w = RDyConvertTime u t w.
Proof.
  intros t u v w Hu Hv Hw. unfold RDyConvertTime. rewrite (from_seconds _ v), (to_seconds _ v), (to_seconds _ u), !(from_seconds _ w) by assumption.
  assert (A := unit_seconds_pos w). assert (B := unit_seconds_pos v). field. lra.
Qed.
Print Assumptions C28_composition.

Theorem C28_order_preserved :
  forall a b u v, is_unit u -> is_unit v -> a < b -> RDyConvertTime u a v < RDyConvertTime u b v.
Proof.
  intros a b u v Hu Hv H. unfold RDyConvertTime. rewrite !(to_seconds _ u), !(from_seconds _ v) by assumption. unfold Rdiv.
  apply Rmult_lt_compat_r; [apply Rinv_0_lt_compat, unit_seconds_pos|]. apply Rmult_lt_compat_r; [apply unit_seconds_pos|exact H].
Qed.
Print Assumptions C28_order_preserved.

(* the coupling interval read back in any unit is the one that was set in any unit *)
Theorem C28_coupling_interval_round_trip :
  forall tc x u v, is_unit (tc_unit tc) -> is_unit u -> is_unit v ->
    RDyGetCouplingInterval (RDySetCouplingInterval tc u x) v = RDyConvertTime u x v.
Proof.
  intros tc x u v Ht Hu Hv. unfold RDyGetCouplingInterval, RDySetCouplingInterval. cbn [tc_unit tc_coupling].
  apply (C28_composition x u (tc_unit tc) v); assumption.
Qed.
Print Assumptions C28_coupling_interval_round_trip.

(* An unset unit is not rejected: every time is converted to the number of an error code. *)
Theorem C28_unset_unit_rejected_refuted :
  exists t t', t <> t' /\ RDyConvertTime UNSET t SECONDS = 83 /\ RDyConvertTime UNSET t' SECONDS = 83 /\ RDyConvertTime HOURS t UNSET = 83.
Proof. exists 0, 1. split; [lra|]. repeat split. Qed.
Print Assumptions C28_unset_unit_rejected_refuted.

Example C28_example : is_unit HOURS /\ is_unit DAYS /\ RDyConvertTime DAYS 2 HOURS = 48 /\ RDyConvertTime YEARS 1 MONTHS = 365 / 30.
Proof.
  split; [discriminate|]. split; [discriminate|].
  split; unfold RDyConvertTime; rewrite from_seconds, to_seconds by discriminate; cbn; field.
Qed.

(** ** C29 *)
(* accepted by the validation of the configuration (yaml_input.c:954-960, 995) *)
Definition adaptive_ok (target maxf interval : R) : Prop := 0 < target < 1 /\ 1 < maxf /\ 0 < interval.

Lemma adapt_factor target courant maxf : 0 < target -> 1 < maxf -> 0 <= courant -> courant < target ->
  1 < increase_factor target courant maxf <= maxf /\ courant * increase_factor target courant maxf <= target.
Proof.
  intros Ht Hm Hc Hl. unfold increase_factor. destruct (Req_EM_T courant 0) as [->|N]; [lra|].
  assert (P : 0 < courant) by lra.
  assert (1 < target / courant) by (apply (Rmult_lt_reg_r courant); [exact P|]; unfold Rdiv; rewrite Rmult_assoc, Rinv_l by lra; lra).
  split; [split; [apply Rmin_glb_lt; lra|apply Rmin_r]|].
  apply Rle_trans with (courant * (target / courant)); [apply Rmult_le_compat_l; [lra|apply Rmin_l]|]. right. field. lra.
Qed.

(* one choice of the time step *)
Theorem C29_step_positive_and_growth_limited :
  forall target maxf interval dt courant,
    adaptive_ok target maxf interval -> 0 < dt -> 0 <= courant ->
    let dt' := adapt_dt target maxf interval dt courant in
    0 < dt' /\ dt' <= maxf * dt /\ (courant < target -> dt' <= interval) /\ (dt <= interval -> dt' <= interval) /\ (target <= courant -> dt' <= dt).
Proof.
  intros target maxf interval dt courant ((Ht & _) & Hm & Hi) Hd Hc. cbv zeta. unfold adapt_dt. destruct (courant <? target) eqn:E.
  - apply Rltb_true in E. destruct (adapt_factor target courant maxf Ht Hm Hc E) as ((F1 & F2) & _). set (k := increase_factor _ _ _) in *.
    assert (K1 : dt < dt * k) by (rewrite <- (Rmult_1_r dt) at 1; apply Rmult_lt_compat_l; assumption).
    assert (K2 : dt * k <= dt * maxf) by (apply Rmult_le_compat_l; lra).
    destruct (interval <? dt * k) eqn:L; [apply Rltb_true in L|apply Rltb_false in L]; repeat split; intros; lra.
  - apply Rltb_false in E. assert (Pc : 0 < courant) by lra.
    assert (Q : 0 < target / courant) by (apply Rdiv_lt_0_compat; lra).
    assert (Q1 : target / courant <= 1) by (apply (Rmult_le_reg_r courant); [exact Pc|]; unfold Rdiv; rewrite Rmult_assoc, Rinv_l by lra; lra).
    assert (D : dt * (target / courant) <= dt) by (rewrite <- (Rmult_1_r dt) at 2; apply Rmult_le_compat_l; lra).
    assert (P : 0 < dt * (target / courant)) by (apply Rmult_lt_0_compat; assumption).
    assert (dt <= maxf * dt) by (rewrite <- (Rmult_1_l dt) at 1; apply Rmult_le_compat_r; lra).
    repeat split; intros; lra.
Qed.
Print Assumptions C29_step_positive_and_growth_limited.

(* If the number was measured with a step of the current size, and the wave speeds stay the same, the
   next step meets the target.  [w]: Courant number per second. *)
Theorem C29_target_met :
  forall target maxf interval dt w,
    adaptive_ok target maxf interval -> 0 < dt -> 0 <= w ->
    w * adapt_dt target maxf interval dt (w * dt) <= target.
Proof.
  intros target maxf interval dt w ((Ht & _) & Hm & Hi) Hd Hw. unfold adapt_dt. assert (Hc : 0 <= w * dt) by (apply Rmult_le_pos; lra).
  destruct (w * dt <? target) eqn:E.
  - apply Rltb_true in E. destruct (adapt_factor target (w * dt) maxf Ht Hm Hc E) as (_ & F). set (k := increase_factor _ _ _) in *.
    destruct (interval <? dt * k) eqn:L.
    + apply Rltb_true in L. apply Rle_trans with (w * (dt * k)); [apply Rmult_le_compat_l; lra|lra].
    + lra.
  - apply Rltb_false in E. assert (w <> 0) by (intros ->; rewrite Rmult_0_l in E; lra).
    right. field. lra.
Qed.
Print Assumptions C29_target_met.

(* All histories of measured Courant numbers. *)
Fixpoint dts (target maxf interval dt : R) (cs : list R) : list R :=
  match cs with [] => [] | c :: t => let d := adapt_dt target maxf interval dt c in d :: dts target maxf interval d t end.
Theorem C29_every_history :
  forall target maxf interval dt cs,
    adaptive_ok target maxf interval -> 0 < dt <= interval -> (forall c, In c cs -> 0 <= c) ->
    forall d, In d (dts target maxf interval dt cs) -> 0 < d <= interval.
Proof.
  intros target maxf interval dt cs Ok. revert dt. induction cs as [|c t IH]; intros dt Hd Hc d Hin; [destruct Hin|]. cbn [dts] in Hin.
  destruct (C29_step_positive_and_growth_limited target maxf interval dt c Ok (proj1 Hd) (Hc c (or_introl eq_refl))) as (P & _ & _ & I & _).
  specialize (I (proj2 Hd)). destruct Hin as [<-|Hin]; [auto|]. apply (IH _ (conj P I) (fun x H => Hc x (or_intror H)) d Hin).
Qed.
Print Assumptions C29_every_history.

(* A step longer than the coupling interval (the initial one, or after the interval was shortened) is
   not cut to the interval when the Courant number is at the target or above. *)
Theorem C29_interval_limit_refuted :
  exists target maxf interval dt courant, adaptive_ok target maxf interval /\ 0 < dt /\ target <= courant /\
    interval < adapt_dt target maxf interval dt courant.
Proof.
  exists (1/2), 2, 1, 10, 1. unfold adaptive_ok. split; [lra|]. split; [lra|]. split; [lra|].
  unfold adapt_dt. assert (G : Rltb 1 (1/2) = false) by (apply Rltb_false; lra). rewrite G. lra.
Qed.
Print Assumptions C29_interval_limit_refuted.

(* The number is measured on the last internal steps, which are shortened to hit the coupling time, but
   the factor is applied to the full step: with fixed wave speeds the next advance starts with a step whose
   Courant number exceeds the target. *)
Theorem C29_target_after_short_step_refuted :
  exists target maxf interval dt w short,
    adaptive_ok target maxf interval /\ 0 < dt <= interval /\ 0 < w /\ w * dt = target /\
    (* the interval is one full step, at the target, and two shorter ones *)
    petsc_pick dt interval = dt /\ petsc_pick dt (interval - dt) = short /\ petsc_pick dt (interval - dt - short) = short /\ dt + short + short = interval /\
    let dt' := adapt_dt target maxf interval dt (w * short) in
    target < w * dt' /\ target < w * petsc_pick dt' interval.
Proof.
  assert (T : forall a b, a <= b -> (a <=? b) = true) by (intros; apply Rleb_true; lra).
  assert (F : forall a b, b < a -> (a <=? b) = false) by (intros; apply Rleb_false; lra).
  assert (T' : forall a b, a < b -> (a <? b) = true) by (intros; apply Rltb_true; lra).
  assert (F' : forall a b, b <= a -> (a <? b) = false) by (intros; apply Rltb_false; lra).
  assert (A : adapt_dt (1/2) 2 (5/2) 1 (1/2 * (3/4)) = 4/3).
  { unfold adapt_dt. rewrite (T' (1/2 * (3/4)) (1/2)) by lra. unfold increase_factor. destruct (Req_EM_T (1/2 * (3/4)) 0); [lra|].
    replace (1/2 / (1/2 * (3/4))) with (4/3) by field. rewrite (Rmin_left (4/3) 2) by lra. rewrite (F' (5/2) (1 * (4/3))) by lra. lra. }
  exists (1/2), 2, (5/2), 1, (1/2), (3/4). unfold adaptive_ok. split; [lra|]. split; [lra|]. split; [lra|]. split; [lra|].
  unfold petsc_pick.
  split. { rewrite (F (5/2) (1 * (101/100))), (F' (5/2) (2 * 1)) by lra. reflexivity. }
  split. { rewrite (F (5/2 - 1) (1 * (101/100))), (T' (5/2 - 1) (2 * 1)) by lra. lra. }
  split. { rewrite (T (5/2 - 1 - 3/4) (1 * (101/100))) by lra. lra. }
  split; [lra|]. cbv zeta. rewrite A. split; [lra|].
  rewrite (F (5/2) (4/3 * (101/100))), (T' (5/2) (2 * (4/3))) by lra. lra.
Qed.
Print Assumptions C29_target_after_short_step_refuted.

Example C29_example : adaptive_ok (4/5) 2 100 /\ 0 < 1 <= 100 /\
  dts (4/5) 2 100 1 [0; 2/5; 8/5] = [2; 4; 2].
Proof.
  unfold adaptive_ok. split; [lra|]. split; [lra|]. cbn [dts].
  assert (A : adapt_dt (4/5) 2 100 1 0 = 2).
  { unfold adapt_dt. assert (L : Rltb 0 (4/5) = true) by (apply Rltb_true; lra). rewrite L. unfold increase_factor. destruct (Req_EM_T 0 0); [|lra].
    assert (M : Rltb 100 (1 * 2) = false) by (apply Rltb_false; lra). rewrite M. lra. }
  assert (B : adapt_dt (4/5) 2 100 2 (2/5) = 4).
  { unfold adapt_dt. assert (L : Rltb (2/5) (4/5) = true) by (apply Rltb_true; lra). rewrite L. unfold increase_factor. destruct (Req_EM_T (2/5) 0); [lra|].
    replace (4/5 / (2/5)) with 2 by field. rewrite (Rmin_left 2 2) by lra.
    assert (M : Rltb 100 (2 * 2) = false) by (apply Rltb_false; lra). rewrite M. lra. }
  assert (C : adapt_dt (4/5) 2 100 4 (8/5) = 2).
  { unfold adapt_dt. assert (L : Rltb (8/5) (4/5) = false) by (apply Rltb_false; lra). rewrite L. field. }
  rewrite A, B, C. reflexivity.
Qed.

(** ** C30 *)
Lemma petsc_pick_rule : step_rule petsc_pick.
Proof.
  intros dt rem Hd Hr. unfold petsc_pick. destruct (rem <=? dt * (101/100)) eqn:E; [apply Rleb_true in E|apply Rleb_false in E].
  { split; [lra|]. split; [left; reflexivity|]. split; intros; lra. }
  destruct (rem <? 2 * dt) eqn:L; [apply Rltb_true in L|apply Rltb_false in L]; (split; [lra|]; split; [right; lra|]; split; intros; lra).
Qed.
Lemma unbounded x : exists k, x <= INR k.
Proof.
  exists (Z.to_nat (up x)). destruct (archimed x) as (A & _). destruct (Z_le_gt_dec 0 (up x)) as [H|H].
  - rewrite INR_IZR_INZ, Z2Nat.id by exact H. lra.
  - assert (IZR (up x) <= 0) by (apply IZR_le; lia). assert (0 <= INR (Z.to_nat (up x))) by apply pos_INR. lra.
Qed.

(* TSSolve without a limit ends, exactly at the requested time *)
Lemma solve_reaches pick dt T : step_rule pick -> 0 < dt -> forall k t n, t <= T -> T - t <= INR k * (dt / 2) ->
  exists n', ts_solve pick dt T None (t, n) (T, n').
Proof.
  intros Hp Hd. induction k as [|k IH]; intros t n Ht Hk.
  - assert (t = T) by (cbn in Hk; lra). subst. exists n. apply Solve_time. lra.
  - destruct (Rle_lt_or_eq_dec t T Ht) as [Hlt| ->]; [|exists n; apply Solve_time; lra].
    destruct (Hp dt (T - t) Hd ltac:(lra)) as (U & [E|L] & _).
    + exists (S n). apply Solve_step; [exact Hlt|discriminate|]. rewrite E. replace (t + (T - t)) with T by ring. apply Solve_time. lra.
    + destruct (IH (t + pick dt (T - t)) (S n)) as (n' & S'); [lra|rewrite S_INR in Hk; lra|].
      exists n'. apply Solve_step; [exact Hlt|discriminate|exact S'].
Qed.
Lemma solve_time_exact pick dt T a b : step_rule pick -> 0 < dt -> ts_solve pick dt T None a b -> fst a <= T -> fst b = T /\ (snd a <= snd b)%nat /\ (fst a < T -> (snd a < snd b)%nat).
Proof.
  intros Hp Hd S. induction S as [t n H|t n k H E|t n r H Hk S IH]; intros Ht; cbn [fst snd] in *.
  - split; [lra|]. split; [lia|]. lra.
  - discriminate.
  - destruct IH as (A & B & _). { destruct (Hp dt (T - t) Hd ltac:(lra)) as (U & _). lra. }
    split; [exact A|]. split; [lia|]. intros _. lia.
Qed.

Definition interval_of (tc : time_config) : R := ConvertTimeToSeconds (tc_coupling tc) (tc_unit tc).
Definition adaptive_run (tc : time_config) (s : run_state) : Prop :=
  tc_adaptive tc = true /\ adaptive_ok (tc_target tc) (tc_max_factor tc) (interval_of tc) /\ 0 < rs_dt s /\ (rs_updated s = true -> 0 <= rs_courant s).

(* Adaptive stepping: every advance completes, moves the time by exactly the coupling interval, keeps the
   time step positive and takes at least one step, for every measured Courant number. *)
Theorem C30_advance_exact :
  forall pick tc s c, step_rule pick -> adaptive_run tc s ->
    (exists s', advance pick tc c s s') /\
    forall s', advance pick tc c s s' -> rs_time s' = rs_time s + interval_of tc /\ 0 < rs_dt s' /\ (rs_step s < rs_step s')%nat.
Proof.
  intros pick tc s c Hp (Ad & Ok & Hd & Hc). 
  set (dt := if (tc_adaptive tc && rs_updated s)%bool then adapt_dt (tc_target tc) (tc_max_factor tc) (interval_of tc) (rs_dt s) (rs_courant s) else rs_dt s).
  assert (Hdt : 0 < dt).
  { unfold dt. destruct (tc_adaptive tc && rs_updated s)%bool eqn:E; [|exact Hd]. apply Bool.andb_true_iff in E.
    apply C29_step_positive_and_growth_limited; [exact Ok|exact Hd|apply Hc, E]. }
  assert (Hi : 0 < interval_of tc) by apply Ok. assert (L : step_limit tc = None) by (unfold step_limit; rewrite Ad; reflexivity).
  split.
  - destruct (unbounded (interval_of tc / (dt / 2))) as (k & Hk).
    destruct (solve_reaches pick dt (rs_time s + interval_of tc) Hp Hdt k (rs_time s) (rs_step s)) as (n' & S'); [lra| |].
    + replace (rs_time s + interval_of tc - rs_time s) with (interval_of tc / (dt / 2) * (dt / 2)) by (field; lra). apply Rmult_le_compat_r; lra.
    + eexists. apply (Advance pick tc c s (rs_time s + interval_of tc) n'). rewrite L. exact S'.
  - intros s' A. inversion A as [s0 t' n' iv dt' S' E1 E2]; subst s0. cbn [rs_time rs_dt rs_step].
    rewrite L in S'. apply solve_time_exact in S'; [|exact Hp|exact Hdt|cbn [fst]; unfold iv; fold (interval_of tc); lra]. cbn [fst snd] in S'.
    destruct S' as (Et & _ & Hn). split; [exact Et|]. split; [exact Hdt|]. apply Hn. unfold iv. fold (interval_of tc). lra.
Qed.
Print Assumptions C30_advance_exact.

Lemma advances_exact pick tc : step_rule pick -> forall cs s s', adaptive_run tc s -> (forall c, In c cs -> 0 <= c) ->
  advances pick tc cs s s' -> rs_time s' = rs_time s + INR (length cs) * interval_of tc /\ adaptive_run tc s'.
Proof.
  intros Hp. induction cs as [|c t IH]; intros s s' Hs Hc A; inversion A as [|c0 cs0 s0 s1 s2 A1 A2]; subst.
  - split; [cbn; ring|exact Hs].
  - destruct (C30_advance_exact pick tc s c Hp Hs) as (_ & H). destruct (H s1 A1) as (Et & Hd & _).
    assert (Hs1 : adaptive_run tc s1).
    { destruct Hs as (Ad & Ok & _ & _). split; [exact Ad|]. split; [exact Ok|]. split; [exact Hd|]. inversion A1; subst. cbn. intros _. apply Hc. left. reflexivity. }
    destruct (IH s1 s' Hs1 (fun x Hx => Hc x (or_intror Hx)) A2) as (Et' & Hs'). split; [|exact Hs'].
    rewrite Et', Et. cbn [length]. rewrite S_INR. ring.
Qed.

(* After finitely many advances the run reports that it is finished, and it does so only when the time is
   within the tolerance of the stop time or past it. *)
Theorem C30_terminates :
  forall pick tc s, step_rule pick -> adaptive_run tc s -> is_unit (tc_unit tc) -> 
    exists k, forall cs s', (k <= length cs)%nat -> (forall c, In c cs -> 0 <= c) -> advances pick tc cs s s' -> RDyFinished tc s' = true.
Proof.
  intros pick tc s Hp Hs Hu. assert (Hi : 0 < interval_of tc) by apply Hs.
  destruct (unbounded ((tc_stop tc * unit_seconds (tc_unit tc) - rs_time s) / interval_of tc)) as (k & Hk). exists k. intros cs s' Hl Hc A.
  destruct (advances_exact pick tc Hp cs s s' Hs Hc A) as (Et & _). unfold RDyFinished. apply Rltb_true.
  rewrite from_seconds by exact Hu. assert (U := unit_seconds_pos (tc_unit tc)).
  assert (Ht : tc_stop tc * unit_seconds (tc_unit tc) <= rs_time s').
  { rewrite Et. assert (INR k <= INR (length cs)) by (apply le_INR; exact Hl).
    assert ((tc_stop tc * unit_seconds (tc_unit tc) - rs_time s) / interval_of tc * interval_of tc <= INR (length cs) * interval_of tc) by (apply Rmult_le_compat_r; lra).
    replace ((tc_stop tc * unit_seconds (tc_unit tc) - rs_time s) / interval_of tc * interval_of tc) with (tc_stop tc * unit_seconds (tc_unit tc) - rs_time s) in H0 by (field; lra). lra. }
  assert (tc_stop tc <= rs_time s' / unit_seconds (tc_unit tc)).
  { apply (Rmult_le_reg_r (unit_seconds (tc_unit tc))); [exact U|]. unfold Rdiv. rewrite Rmult_assoc, Rinv_l by lra. lra. }
  assert (0 < tolerance) by (apply Rinv_0_lt_compat, pow_lt; lra). lra.
Qed.
Print Assumptions C30_terminates.

Theorem C30_not_finished_early :
  forall tc s, is_unit (tc_unit tc) -> RDyFinished tc s = true ->
    (tc_stop tc - tolerance) * unit_seconds (tc_unit tc) < rs_time s.
Proof.
  intros tc s Hu F. unfold RDyFinished in F. apply Rltb_true in F. rewrite from_seconds in F by exact Hu.
  assert (U := unit_seconds_pos (tc_unit tc)).
  apply (Rmult_lt_reg_r (/ unit_seconds (tc_unit tc))); [apply Rinv_0_lt_compat; exact U|]. rewrite Rmult_assoc, Rinv_r by lra. unfold Rdiv in F. lra.
Qed.
Print Assumptions C30_not_finished_early.

(* Fixed step: if the coupling interval is a whole number of time steps, every advance moves the time by
   exactly the coupling interval until the step limit; the last one ends at the step limit. *)
Lemma solve_fixed pick dt N : step_rule pick -> 0 < dt -> forall j k r,
  ts_solve pick dt (INR (k + j) * dt) (Some N) (INR k * dt, k) r <-> (r = (INR (Nat.max k (Nat.min (k + j) N)) * dt, Nat.max k (Nat.min (k + j) N))).
Proof.
  intros Hp Hd. induction j as [|j IH]; intros k r.
  - rewrite Nat.add_0_r. replace (Nat.max k (Nat.min k N)) with k by lia. split.
    + intros S. inversion S; subst; [reflexivity|reflexivity|lra].
    + intros ->. apply Solve_time. lra.
  - assert (Lt : INR k * dt < INR (k + S j) * dt) by (apply Rmult_lt_compat_r; [exact Hd|]; apply lt_INR; lia).
    assert (P : INR k * dt + pick dt (INR (k + S j) * dt - INR k * dt) = INR (S k) * dt).
    { destruct (Hp dt (INR (k + S j) * dt - INR k * dt) Hd ltac:(lra)) as (_ & _ & P1 & P2). rewrite plus_INR, S_INR in *.
      replace ((INR k + (INR j + 1)) * dt - INR k * dt) with ((INR j + 1) * dt) in * by ring.
      rewrite S_INR. destruct j as [|j].
      - cbn [INR] in *. rewrite P1 by lra. lra.
      - rewrite P2; [lra|]. apply Rmult_le_compat_r; [lra|]. rewrite S_INR. assert (0 <= INR j) by apply pos_INR. lra. }
    destruct (le_lt_dec N k) as [H|H].
    + replace (Nat.max k (Nat.min (k + S j) N)) with k by lia. split.
      * intros S. inversion S; subst; [lra|reflexivity|]. exfalso. specialize (H3 N eq_refl). lia.
      * intros ->. eapply Solve_limit; [exact Lt|reflexivity|exact H].
    + replace (Nat.max k (Nat.min (k + S j) N)) with (Nat.max (S k) (Nat.min (S k + j) N)) by lia.
      rewrite <- (IH (S k) r). replace (S k + j)%nat with (k + S j)%nat by lia. rewrite <- P. split.
      * intros S. inversion S; subst; [lra| |assumption]. exfalso. match goal with E : Some _ = Some _ |- _ => injection E; intros; subst end. lia.
      * intros S. apply Solve_step; [exact Lt|intros ? [= <-]; exact H|exact S].
Qed.

Theorem C30_fixed_step_exact :
  forall pick tc m N k dt c u cr s',
    step_rule pick -> tc_adaptive tc = false -> 0 < dt -> interval_of tc = INR m * dt -> tc_stop_n tc = N -> (k <= N)%nat ->
    advance pick tc c (RunState (INR k * dt) k dt cr u) s' <->
    s' = RunState (INR (Nat.min (k + m) N) * dt) (Nat.min (k + m) N) dt c false.
Proof.
  intros pick tc m N k dt c u cr s' Hp Ad Hd Hi HN Hk.
  replace (Nat.min (k + m) N) with (Nat.max k (Nat.min (k + m) N)) by lia.
  assert (L : step_limit tc = Some N) by (unfold step_limit; rewrite Ad, HN; reflexivity).
  assert (T : INR k * dt + interval_of tc = INR (k + m) * dt) by (rewrite plus_INR, Hi; ring).
  split.
  - intros A. inversion A as [s0 t' n' iv dt' S E1 E2]. subst s0. revert S. cbn [rs_time rs_step]. unfold dt', iv. rewrite Ad. cbn [andb rs_dt]. fold (interval_of tc). rewrite L, T.
    rewrite (solve_fixed pick dt N Hp Hd m k). intros [= -> ->]. reflexivity.
  - intros ->. assert (Q := Advance pick tc c (RunState (INR k * dt) k dt cr u)). rewrite Ad in Q. cbn [andb rs_dt rs_time rs_step] in Q. apply Q. fold (interval_of tc).
    rewrite L, T, (solve_fixed pick dt N Hp Hd m k). reflexivity.
Qed.
Print Assumptions C30_fixed_step_exact.

(* With the time step the code derives from the configuration (final time / number of steps), a run whose
   coupling interval is m steps ends at the final time after the least number of advances covering it. *)
Lemma fixed_advances pick tc m N dt : step_rule pick -> tc_adaptive tc = false -> 0 < dt -> interval_of tc = INR m * dt -> tc_stop_n tc = N ->
  forall cs k u cr s', (k <= N)%nat -> advances pick tc cs (RunState (INR k * dt) k dt cr u) s' ->
    rs_time s' = INR (Nat.min (k + length cs * m) N) * dt /\ rs_step s' = Nat.min (k + length cs * m) N.
Proof.
  intros Hp Ad Hd Hi HN. induction cs as [|c t IH]; intros k u cr s' Hk A; inversion A as [|c0 cs0 s0 s1 s2 A1 A2]; subst s'.
  - cbn [rs_time rs_step length]. replace (Nat.min (k + 0 * m) N) with k by lia. split; reflexivity.
  - apply (C30_fixed_step_exact pick tc m N k dt c u cr s1 Hp Ad Hd Hi HN Hk) in A1. subst s1.
    apply IH in A2; [|lia]. cbn [length].
    replace (Nat.min (k + S (length t) * m) N) with (Nat.min (Nat.min (k + m) N + length t * m) N) by lia. exact A2.
Qed.
Theorem C30_fixed_step_terminates :
  forall pick tc m dt cs s', step_rule pick -> tc_adaptive tc = false -> is_unit (tc_unit tc) -> 0 < tc_stop tc ->
    (1 <= m)%nat -> (1 <= tc_stop_n tc)%nat ->
    initial_dt tc None = Some dt -> interval_of tc = INR m * dt -> advances pick tc cs (RunState 0 0 dt 0 false) s' ->
    ((tc_stop_n tc <= length cs * m)%nat -> RDyFinished tc s' = true /\ rs_time s' = tc_stop tc * unit_seconds (tc_unit tc)) /\
    ((length cs * m <= tc_stop_n tc)%nat -> rs_time s' = INR (length cs) * interval_of tc).
Proof.
  intros pick tc m dt cs s' Hp Ad Hu Hs Hm HN Hdt Hi A. unfold initial_dt in Hdt. assert (N0 : 1 <= INR (tc_stop_n tc)) by (apply (le_INR 1); exact HN).
  rewrite to_seconds in Hdt by exact Hu. assert (U := unit_seconds_pos (tc_unit tc)).
  rewrite rdiv_some in Hdt by lra. injection Hdt as Hdt.
  assert (Hd : 0 < dt) by (rewrite <- Hdt; apply Rdiv_lt_0_compat; [apply Rmult_lt_0_compat; assumption|lra]).
  replace (RunState 0 0 dt 0 false) with (RunState (INR 0 * dt) 0 dt 0 false) in A by (f_equal; cbn; ring).
  destruct (fixed_advances pick tc m (tc_stop_n tc) dt Hp Ad Hd Hi eq_refl cs 0 false 0 s' (Nat.le_0_l _) A) as (Et & _). cbn [Nat.add] in Et. split; intros Hl.
  - rewrite (Nat.min_r (length cs * m) (tc_stop_n tc)) in Et by exact Hl.
    assert (Es : rs_time s' = tc_stop tc * unit_seconds (tc_unit tc)) by (rewrite Et, <- Hdt; field; lra).
    split; [|exact Es]. unfold RDyFinished. apply Rltb_true. rewrite from_seconds, Es by exact Hu.
    replace (tc_stop tc * unit_seconds (tc_unit tc) / unit_seconds (tc_unit tc)) with (tc_stop tc) by (field; lra).
    assert (0 < tolerance) by (apply Rinv_0_lt_compat, pow_lt; lra). lra.
  - rewrite (Nat.min_l (length cs * m) (tc_stop_n tc)) in Et by exact Hl. rewrite Et, Hi, mult_INR. ring.
Qed.
Print Assumptions C30_fixed_step_terminates.

(* With the option -dt the steps have the size given there; the configured number of steps still limits them. *)
Theorem C30_dt_option :
  forall pick tc m d dt cs, step_rule pick -> tc_adaptive tc = false -> 0 < d -> initial_dt tc (Some d) = Some dt -> interval_of tc = INR m * d ->
    (exists s', advances pick tc cs (RunState 0 0 dt 0 false) s') /\
    forall s', advances pick tc cs (RunState 0 0 dt 0 false) s' ->
      rs_step s' = Nat.min (length cs * m) (tc_stop_n tc) /\ rs_time s' = INR (Nat.min (length cs * m) (tc_stop_n tc)) * d.
Proof.
  intros pick tc m d dt cs Hp Ad Hd Hdt Hi. cbn in Hdt. injection Hdt as <-.
  replace (RunState 0 0 d 0 false) with (RunState (INR 0 * d) 0 d 0 false) by (f_equal; cbn; ring). split.
  - assert (G : forall cs k u cr, (k <= tc_stop_n tc)%nat -> exists s', advances pick tc cs (RunState (INR k * d) k d cr u) s').
    { clear cs. induction cs as [|c cs IH]; intros k u cr Hk; [eexists; constructor|].
      destruct (IH (Nat.min (k + m) (tc_stop_n tc)) false c ltac:(lia)) as (s' & A). exists s'. econstructor; [|exact A].
      now apply (C30_fixed_step_exact pick tc m (tc_stop_n tc) k d c u cr _ Hp Ad Hd Hi eq_refl Hk). }
    apply G. lia.
  - intros s' A. destruct (fixed_advances pick tc m (tc_stop_n tc) d Hp Ad Hd Hi eq_refl cs 0 false 0 s' (Nat.le_0_l _) A) as (Et & En). now split.
Qed.
Print Assumptions C30_dt_option.
(* Hence a run with a smaller step than the configured one never finishes: 2 s in two steps, with -dt 0.5, stands still
   after 1 s however often it is advanced. *)
Definition halved : time_config := TimeConfig SECONDS 2 2 1 false (1/2) 2.
Theorem C30_dt_option_refuted :
  initial_dt halved None = Some 1 /\ initial_dt halved (Some (1/2)) = Some (1/2) /\
  forall cs, (exists s', advances petsc_pick halved cs (RunState 0 0 (1/2) 0 false) s') /\
    forall s', advances petsc_pick halved cs (RunState 0 0 (1/2) 0 false) s' -> RDyFinished halved s' = false /\ rs_time s' <= 1.
Proof.
  split; [cbn; rewrite rdiv_some by lra; f_equal; lra|]. split; [reflexivity|]. intros cs.
  assert (I : interval_of halved = INR 2 * (1/2)) by (unfold interval_of; cbn; lra).
  destruct (C30_dt_option petsc_pick halved 2 (1/2) (1/2) cs petsc_pick_rule eq_refl ltac:(lra) eq_refl I) as (E & W). split; [exact E|].
  intros s' A. destruct (W s' A) as (_ & Et). cbn [tc_stop_n halved] in Et.
  assert (L : rs_time s' <= 1).
  { rewrite Et. assert (H : INR (Nat.min (length cs * 2) 2) <= INR 2) by (apply le_INR; lia). cbn [INR] in H. lra. }
  split; [|exact L]. unfold RDyFinished. apply Rltb_false. cbn [tc_stop tc_unit halved ConvertTimeFromSeconds].
  assert (tolerance < 1). { unfold tolerance. rewrite <- Rinv_1. apply Rinv_lt_contravar; [|cbn; lra]. rewrite Rmult_1_l. apply pow_lt. lra. }
  lra.
Qed.
Print Assumptions C30_dt_option_refuted.

(* A coupling interval that is not a multiple of the time step uses more steps than the limit allows: two
   advances of 0.3 s with steps of 0.5 s exhaust the two steps needed for 1 s; from then on the time stands
   still and the run never reports that it is finished. *)
Definition stuck : time_config := TimeConfig SECONDS 1 2 (3/10) false (1/2) 2.
Theorem C30_step_limit_refuted :
  complete_times (Some 1) (Some 2%nat) None = Some (1, 2%nat, 1/2) /\ initial_dt stuck None = Some (1/2) /\
  forall cs s', advances petsc_pick stuck cs (RunState 0 0 (1/2) 0 false) s' ->
    RDyFinished stuck s' = false /\ ((2 <= length cs)%nat -> rs_time s' = 3/5).
Proof.
  split. { cbn. rewrite rdiv_some by lra. cbn. do 2 f_equal; lra. }
  split. { cbn. rewrite rdiv_some by lra. f_equal; lra. }
  assert (T : forall a b, a <= b -> (a <=? b) = true) by (intros; apply Rleb_true; lra).
  assert (Lone : forall t n c u cr s', (n < 2)%nat -> advance petsc_pick stuck c (RunState t n (1/2) cr u) s' -> s' = RunState (t + 3/10) (S n) (1/2) c false).
  { intros t n c u cr s' Hn A. inversion A as [s0 t' n' iv dt' S E1 E2]. subst s0. unfold dt', iv in S |- *. cbn in S |- *.
    inversion S as [t0 n0 H|t0 n0 k H E Hk|t0 n0 r H Hk S']; subst.
    - lra.
    - injection E as <-. lia.
    - assert (Pk : petsc_pick (1/2) (t + 3/10 - t) = 3/10) by (unfold petsc_pick; rewrite (T (t + 3/10 - t) (1/2 * (101/100))) by lra; lra).
      rewrite Pk in S'. inversion S' as [t1 n1 H1|t1 n1 k H1 E Hk1|t1 n1 r1 H1 Hk1 S2]; subst; [reflexivity|lra|lra]. }
  assert (Lend : forall t c u cr s', advance petsc_pick stuck c (RunState t 2 (1/2) cr u) s' -> s' = RunState t 2 (1/2) c false).
  { intros t c u cr s' A. inversion A as [s0 t' n' iv dt' S E1 E2]. subst s0. unfold dt', iv in S |- *. cbn in S |- *.
    inversion S as [t0 n0 H|t0 n0 k H E Hk|t0 n0 r H Hk S']; subst; [reflexivity|reflexivity|].
    exfalso. specialize (Hk 2%nat eq_refl). lia. }
  assert (Lall : forall cs t u cr s', advances petsc_pick stuck cs (RunState t 2 (1/2) cr u) s' -> rs_time s' = t).
  { induction cs as [|c cs IH]; intros t u cr s' A; inversion A as [|c0 cs0 s0 s1 s2 A1 A2]; subst; [reflexivity|]. apply Lend in A1. subst. apply (IH t _ _ _ A2). }
  assert (Tol : tolerance < 1/5).
  { unfold tolerance. apply Rle_lt_trans with (/ 10); [|lra]. apply Rinv_le_contravar; [lra|]. cbn [pow]. lra. }
  intros cs s' A.
  assert (Fin : forall s, rs_time s <= 3/5 -> RDyFinished stuck s = false) by (intros s Hs; unfold RDyFinished; apply Rltb_false; cbn; lra).
  inversion A as [|c0 cs0 s0 s1 s2 A1 A2]; subst. { split; [apply Fin; cbn; lra|cbn; lia]. }
  apply Lone in A1; [|lia]. subst s1. inversion A2 as [|c1 cs1 s0 s1 s2 A3 A4]; subst. { split; [apply Fin; cbn; lra|cbn; lia]. }
  apply Lone in A3; [|lia]. subst s1. apply Lall in A4. assert (rs_time s' = 3/5) by lra. split; [apply Fin; lra|auto].
Qed.
Print Assumptions C30_step_limit_refuted.

(* The step used with final_time and time_step given is final_time / truncation(final_time / time_step):
   it is never smaller than the configured one, but it can differ from it. *)
Theorem C30_time_step_used :
  forall stop time_step s n d, 0 < time_step <= stop -> complete_times (Some stop) None (Some time_step) = Some (s, n, d) ->
    forall u coupling, let tc := TimeConfig u stop n coupling false 0 0 in is_unit u ->
    exists dt, initial_dt tc None = Some dt /\ INR n * dt = stop * unit_seconds u /\
      time_step * unit_seconds u <= dt < 2 * (time_step * unit_seconds u) /\ (dt = time_step * unit_seconds u <-> stop = INR n * time_step).
Proof.
  intros stop time_step s n d H E u coupling tc Hu. cbn in E. rewrite rdiv_some in E by lra. cbn in E. injection E as -> <- <-.
  assert (Q1 : 1 <= s / time_step) by (apply (Rmult_le_reg_r time_step); [lra|]; unfold Rdiv; rewrite Rmult_assoc, Rinv_l by lra; lra).
  destruct (base_Int_part (s / time_step)) as (B1 & B2).
  assert (B0 : (0 < Int_part (s / time_step))%Z) by (apply lt_IZR; lra).
  assert (EN : INR (Z.to_nat (Int_part (s / time_step))) = IZR (Int_part (s / time_step))) by (rewrite INR_IZR_INZ, Z2Nat.id by lia; reflexivity).
  unfold initial_dt, tc. cbn [tc_stop tc_unit tc_stop_n]. rewrite to_seconds by exact Hu. rewrite EN.
  set (q := IZR (Int_part (s / time_step))) in *. assert (Q2 : 1 <= q) by (apply (IZR_le 1); lia). clearbody q.
  assert (U := unit_seconds_pos u). set (v := unit_seconds u) in *. clearbody v.
  assert (S1 : q * time_step <= s) by (apply Rle_trans with (s / time_step * time_step); [apply Rmult_le_compat_r; lra|right; field; lra]).
  assert (S2 : s < (q + 1) * time_step) by (apply Rle_lt_trans with (s / time_step * time_step); [right; field; lra|apply Rmult_lt_compat_r; lra]).
  assert (S3 : time_step <= q * time_step) by (rewrite <- (Rmult_1_l time_step) at 1; apply Rmult_le_compat_r; lra).
  exists (s * v / q). rewrite rdiv_some by lra. split; [reflexivity|]. split; [field; lra|].
  assert (D : s * v / q * q = s * v) by (field; lra). split; [split|split].
  - apply (Rmult_le_reg_r q); [lra|]. rewrite D. replace (time_step * v * q) with (q * time_step * v) by ring. apply Rmult_le_compat_r; lra.
  - apply (Rmult_lt_reg_r q); [lra|]. rewrite D. replace (2 * (time_step * v) * q) with (2 * q * time_step * v) by ring. apply Rmult_lt_compat_r; lra.
  - intros X. apply (Rmult_eq_reg_r v); [|lra]. rewrite <- D, X. ring.
  - intros ->. field. lra.
Qed.
Print Assumptions C30_time_step_used.
Theorem C30_configured_time_step_refuted :
  exists stop time_step n dt, complete_times (Some stop) None (Some time_step) = Some (stop, n, time_step) /\ 
    initial_dt (TimeConfig SECONDS stop n stop false 0 0) None = Some dt /\ 0 < time_step < stop /\ dt <> time_step.
Proof.
  assert (Q : Int_part (1 / (2/5)) = 2%Z).
  { replace (1 / (2/5)) with (5/2) by field. symmetry. assert (up (5/2) = 3)%Z by (symmetry; apply tech_up; lra). unfold Int_part. lia. }
  exists 1, (2/5), 2%nat, (1/2). cbn. rewrite !rdiv_some by lra. cbn [obind]. rewrite Q. split; [reflexivity|]. split; [f_equal; lra|]. lra.
Qed.
Print Assumptions C30_configured_time_step_refuted.

Example C30_example :
  let tc := TimeConfig HOURS 2 720 (1/2) true (9/10) 2 in
  adaptive_run tc (RunState 0 0 10 0 false) /\ is_unit (tc_unit tc) /\ step_rule petsc_pick /\ interval_of tc = 1800 /\
  let tf := TimeConfig HOURS 2 720 (1/2) false (9/10) 2 in
  initial_dt tf None = Some 10 /\ interval_of tf = INR 180 * 10 /\ tc_adaptive tf = false.
Proof.
  cbv zeta. assert (I : forall b, interval_of (TimeConfig HOURS 2 720 (1/2) b (9/10) 2) = 1800) by (intros b; unfold interval_of; rewrite to_seconds by discriminate; cbn; lra).
  split. { split; [reflexivity|]. split; [unfold adaptive_ok; rewrite I; cbn; lra|]. cbn. split; [lra|discriminate]. }
  split; [discriminate|]. split; [exact petsc_pick_rule|]. split; [apply I|]. split.
  { unfold initial_dt. rewrite to_seconds by discriminate. cbn [tc_stop tc_unit tc_stop_n unit_seconds]. rewrite INR_IZR_INZ. replace (Z.of_nat 720) with 720%Z by (vm_compute; reflexivity).
    rewrite rdiv_some by lra. f_equal. field. }
  split; [|reflexivity]. rewrite I, INR_IZR_INZ. replace (Z.of_nat 180) with 180%Z by (vm_compute; reflexivity). lra.
Qed.
