(** C86: the standalone driver. *)
From Verif Require Import Base DiagModel TimeModel TimeProperties DriverModel.
From Coq Require Import ZArith.

(** ** Each run has at most one verdict *)
Lemma solve_unique pick dt T N a b : ts_solve pick dt T N a b -> forall b', ts_solve pick dt T N a b' -> b = b'.
Proof.
  induction 1 as [t n H|t n k H E L|t n r H Hk S1 IH]; intros b' S2; inversion S2 as [t0 n0 H'|t0 n0 k' H' E' L'|t0 n0 r' H' Hk' S']; subst.
  - reflexivity.
  - lra.
  - lra.
  - lra.
  - reflexivity.
  - exfalso. specialize (Hk' k eq_refl). lia.
  - lra.
  - exfalso. specialize (Hk k' eq_refl). lia.
  - apply IH. exact S'.
Qed.
Lemma advance_unique pick tc c s s1 s2 : advance pick tc c s s1 -> advance pick tc c s s2 -> s1 = s2.
Proof.
  intros A B. inversion A as [sa ta na iva dta Sa Ea1 Ea2]. inversion B as [sb tb nb ivb dtb Sb Eb1 Eb2]. subst.
  assert (E := solve_unique _ _ _ _ _ _ Sa _ Sb). injection E as -> ->. reflexivity.
Qed.
Lemma drive_unique pick tc u x re meas n s prev v : drive pick tc u x re meas n s prev v -> forall v', drive pick tc u x re meas n s prev v' -> v = v'.
Proof.
  induction 1 as [n s prev F|n s prev s' e F A C|n s prev s' prev' v F A C D IH]; intros v' D'; inversion D' as [n0 s0 p0 F'|n0 s0 p0 s1 e1 F' A' C'|n0 s0 p0 s1 p1 v1 F' A' C' D1]; subst; try congruence.
  - assert (E := advance_unique _ _ _ _ _ _ A A'). subst. congruence.
  - assert (E := advance_unique _ _ _ _ _ _ A A'). subst. congruence.
  - assert (E := advance_unique _ _ _ _ _ _ A A'). subst. congruence.
  - assert (E := advance_unique _ _ _ _ _ _ A A'). subst. rewrite C in C'. injection C' as <-. apply IH. exact D1.
Qed.

(** ** The interval in use *)
(* the driver's interval replaces that of the configuration *)
Definition with_interval (tc : time_config) (x : R) : time_config :=
  TimeConfig (tc_unit tc) (tc_stop tc) (tc_stop_n tc) x (tc_adaptive tc) (tc_target tc) (tc_max_factor tc).
Lemma set_interval tc x : is_unit (tc_unit tc) -> RDySetCouplingInterval tc (tc_unit tc) x = with_interval tc x.
Proof.
  intros Hu. unfold RDySetCouplingInterval, with_interval. f_equal. rewrite from_seconds, to_seconds by exact Hu.
  assert (U := unit_seconds_pos (tc_unit tc)). field. lra.
Qed.
Lemma chosen_default tc : is_unit (tc_unit tc) -> chosen_interval tc None = tc_coupling tc.
Proof.
  intros Hu. unfold chosen_interval, RDyGetCouplingInterval, RDyConvertTime. rewrite from_seconds, to_seconds by exact Hu.
  assert (U := unit_seconds_pos (tc_unit tc)). field. lra.
Qed.
Lemma interval_with tc x : is_unit (tc_unit tc) -> interval_of (with_interval tc x) = x * unit_seconds (tc_unit tc).
Proof. intros Hu. unfold interval_of. cbn [tc_coupling tc_unit with_interval]. apply to_seconds. exact Hu. Qed.

(* the time in the unit of the configuration *)
Definition time_in (tc : time_config) (s : run_state) : R := rs_time s / unit_seconds (tc_unit tc).
Definition requested (tc : time_config) (opt : option R) : R := match opt with Some x => x | None => tc_coupling tc end.
Lemma run_driver_eq pick tc opt re meas s v : is_unit (tc_unit tc) ->
  run_driver pick tc opt re meas s v <-> drive pick (with_interval tc (requested tc opt)) (tc_unit tc) (requested tc opt) re meas 0 s (time_in tc s) v.
Proof.
  intros Hu. unfold run_driver. cbv zeta.
  assert (E : chosen_interval tc opt = requested tc opt) by (destruct opt; [reflexivity|apply chosen_default; exact Hu]).
  rewrite E, set_interval, from_seconds by exact Hu. reflexivity.
Qed.

Lemma tol_pos : 0 < tolerance. Proof. apply Rinv_0_lt_compat, pow_lt. lra. Qed.
Lemma atol_pos : 0 < advance_tolerance. Proof. apply Rinv_0_lt_compat, pow_lt. lra. Qed.
Lemma tol_lt : tolerance < advance_tolerance.
Proof. unfold tolerance, advance_tolerance. apply Rinv_lt_contravar; [apply Rmult_lt_0_compat; apply pow_lt; lra|]. replace (10 ^ 13) with (10 * 10 ^ 12) by ring. assert (0 < 10 ^ 12) by (apply pow_lt; lra). lra. Qed.
Lemma finished_in tc x s : is_unit (tc_unit tc) -> RDyFinished (with_interval tc x) s = (tc_stop tc - time_in tc s <? tolerance).
Proof. intros Hu. unfold RDyFinished, time_in. cbn [tc_stop tc_unit with_interval]. rewrite from_seconds by exact Hu. reflexivity. Qed.

(* an advance passes the checks *)
Lemma checks_pass tc x re prev s : is_unit (tc_unit tc) -> prev < time_in tc s -> 0 < rs_dt s -> (re = false -> Rabs (time_in tc s - prev - x) < advance_tolerance) -> (0 < rs_step s)%nat ->
  after_advance (tc_unit tc) x re prev s = inl (if re then time_in tc s else prev + x).
Proof.
  intros Hu Ht Hd Hx Hn. unfold after_advance. cbv zeta. rewrite !from_seconds by exact Hu. fold (time_in tc s).
  rewrite (proj2 (Rltb_true prev (time_in tc s)) Ht).
  assert (U := unit_seconds_pos (tc_unit tc)).
  rewrite (proj2 (Rltb_true 0 (rs_dt s / unit_seconds (tc_unit tc)))) by (apply Rdiv_lt_0_compat; lra).
  rewrite (proj2 (Nat.ltb_lt 0 (rs_step s)) Hn). destruct re; cbn [negb andb]; [reflexivity|].
  rewrite (proj2 (Rltb_true _ _) (Hx eq_refl)). reflexivity.
Qed.
(* what passing them means *)
Lemma checks_mean tc x re prev s prev' : is_unit (tc_unit tc) -> after_advance (tc_unit tc) x re prev s = inl prev' ->
  prev < time_in tc s /\ 0 < rs_dt s /\ (0 < rs_step s)%nat /\ (re = true -> prev' = time_in tc s) /\ (re = false -> prev' = prev + x /\ Rabs (time_in tc s - prev - x) < advance_tolerance).
Proof.
  intros Hu. unfold after_advance. cbv zeta. rewrite !from_seconds by exact Hu. fold (time_in tc s). assert (U := unit_seconds_pos (tc_unit tc)).
  destruct (prev <? time_in tc s) eqn:E1; cbn [negb]; [|discriminate].
  destruct (0 <? rs_dt s / unit_seconds (tc_unit tc)) eqn:E2; cbn [negb]; [|discriminate].
  apply Rltb_true in E1, E2.
  assert (D : 0 < rs_dt s).
  { replace (rs_dt s) with (rs_dt s / unit_seconds (tc_unit tc) * unit_seconds (tc_unit tc)) by (field; lra). apply Rmult_lt_0_compat; lra. }
  destruct re; cbn [negb andb].
  - destruct (Nat.ltb 0 (rs_step s)) eqn:E3; cbn [negb]; [|discriminate]. apply Nat.ltb_lt in E3. intros [= <-]. repeat (split; try assumption; try reflexivity; try discriminate).
  - destruct (Rabs (time_in tc s - prev - x) <? advance_tolerance) eqn:E4; cbn [negb]; [|discriminate]. apply Rltb_true in E4.
    destruct (Nat.ltb 0 (rs_step s)) eqn:E3; cbn [negb]; [|discriminate]. apply Nat.ltb_lt in E3. intros [= <-].
    split; [exact E1|]. split; [exact D|]. split; [exact E3|]. split; [discriminate|]. intros _. split; [reflexivity|exact E4].
Qed.

(** ** Completion is what it says *)
(* a run reported as completed has reached the final time (up to the tolerance of RDyFinished), and, unless
   it is a restart, its time is that of some number of whole intervals up to the tolerance of the driver *)
Lemma completed_mean pick tc x re meas n s prev v : is_unit (tc_unit tc) -> drive pick (with_interval tc x) (tc_unit tc) x re meas n s prev v ->
  forall s', v = Completed s' -> tc_stop tc - tolerance < time_in tc s' /\
   (re = false -> Rabs (time_in tc s - prev) < advance_tolerance -> exists k, Rabs (time_in tc s' - (prev + INR k * x)) < advance_tolerance).
Proof.
  intros Hu D. induction D as [n s prev F|n s prev s1 e F A C|n s prev s1 prev1 v F A C D IH]; intros s' Ev.
  - injection Ev as <-. rewrite finished_in in F by exact Hu. apply Rltb_true in F. split; [lra|]. intros _ H. exists 0%nat. cbn [INR].
    replace (prev + 0 * x) with prev by ring. exact H.
  - subst e. exfalso. revert C. unfold after_advance. cbv zeta.
    repeat match goal with |- context [if ?b then _ else _] => destruct b; try discriminate end.
  - destruct (checks_mean tc x re prev s1 prev1 Hu C) as (_ & _ & _ & _ & Q). destruct (IH s' Ev) as (I1 & I2). split; [exact I1|].
    intros -> _. destruct (Q eq_refl) as (-> & Hx). destruct (I2 eq_refl) as (k & Hk).
    { replace (time_in tc s1 - (prev + x)) with (time_in tc s1 - prev - x) by ring. exact Hx. }
    exists (S k). rewrite S_INR. replace (prev + (INR k + 1) * x) with (prev + x + INR k * x) by ring. exact Hk.
Qed.
Theorem C86_completed :
  forall pick tc opt restarted meas s s', is_unit (tc_unit tc) -> run_driver pick tc opt restarted meas s (Completed s') ->
    tc_stop tc - tolerance < time_in tc s' /\
    (restarted = false -> exists k, Rabs (time_in tc s' - (time_in tc s + INR k * requested tc opt)) < advance_tolerance).
Proof.
  intros pick tc opt re meas s s' Hu D. apply run_driver_eq in D; [|exact Hu].
  destruct (completed_mean _ _ _ _ _ _ _ _ _ Hu D s' eq_refl) as (A & B). split; [exact A|]. intros Hr. apply B; [exact Hr|].
  replace (time_in tc s - time_in tc s) with 0 by ring. rewrite Rabs_R0. apply atol_pos.
Qed.
Print Assumptions C86_completed.

(** ** Adaptive steps: every run is completed *)
Lemma drive_adaptive pick tc x re meas : step_rule pick -> is_unit (tc_unit tc) -> 0 < x -> (forall n, 0 <= meas n) ->
  forall k n s, adaptive_run (with_interval tc x) s -> 
    tc_stop tc - (time_in tc s + INR k * x) < tolerance -> (forall j, (j < k)%nat -> tolerance <= tc_stop tc - (time_in tc s + INR j * x)) ->
    exists s', drive pick (with_interval tc x) (tc_unit tc) x re meas n s (time_in tc s) (Completed s') /\ time_in tc s' = time_in tc s + INR k * x.
Proof.
  intros Hp Hu Hx Hm. assert (U := unit_seconds_pos (tc_unit tc)). induction k as [|k IH]; intros n s Hs He Hb.
  - exists s. split; [|cbn [INR]; ring]. apply Drive_done. rewrite finished_in by exact Hu. apply Rltb_true. cbn [INR] in He. lra.
  - destruct (C30_advance_exact pick _ s (meas n) Hp Hs) as ((s1 & A) & Q). destruct (Q s1 A) as (Et & Hd & Hn).
    rewrite interval_with in Et by exact Hu.
    assert (E1 : time_in tc s1 = time_in tc s + x) by (unfold time_in; rewrite Et; field; lra).
    assert (Hs1 : adaptive_run (with_interval tc x) s1).
    { destruct Hs as (Ad & Ok & _ & _). split; [exact Ad|]. split; [exact Ok|]. split; [exact Hd|]. inversion A; subst. cbn [rs_courant]. intros _. apply Hm. }
    destruct (IH (S n) s1 Hs1) as (s' & D & E').
    { rewrite E1. rewrite S_INR in He. lra. }
    { intros j Hj. rewrite E1. specialize (Hb (S j) ltac:(lia)). rewrite S_INR in Hb. lra. }
    exists s'. split; [|rewrite E', E1, S_INR; ring].
    apply Drive_next with s1 (time_in tc s1); [|exact A| |exact D].
    + rewrite finished_in by exact Hu. apply Rltb_false. specialize (Hb 0%nat ltac:(lia)). cbn [INR] in Hb. lra.
    + rewrite checks_pass; [destruct re; [reflexivity|rewrite E1; reflexivity]|exact Hu|lra|exact Hd| |lia].
      intros _. rewrite E1. replace (time_in tc s + x - time_in tc s - x) with 0 by ring. rewrite Rabs_R0. apply atol_pos.
Qed.
(* the least number of intervals after which the run counts as finished *)
Lemma least_intervals tc x t : 0 < x -> exists k, tc_stop tc - (t + INR k * x) < tolerance /\ forall j, (j < k)%nat -> tolerance <= tc_stop tc - (t + INR j * x).
Proof.
  intros Hx. destruct (unbounded ((tc_stop tc - t) / x)) as (k0 & Hk0).
  assert (H0 : tc_stop tc - (t + INR k0 * x) < tolerance).
  { assert ((tc_stop tc - t) / x * x <= INR k0 * x) by (apply Rmult_le_compat_r; lra). replace ((tc_stop tc - t) / x * x) with (tc_stop tc - t) in H by (field; lra). assert (T := tol_pos). lra. }
  clear Hk0. revert H0. induction k0 as [k0 IH] using lt_wf_ind. intros H0.
  destruct k0 as [|m]; [exists 0%nat; split; [exact H0|intros; lia]|].
  destruct (Rlt_le_dec (tc_stop tc - (t + INR m * x)) tolerance) as [L|L]; [apply (IH m); [lia|exact L]|].
  exists (S m). split; [exact H0|]. intros j Hj. assert (INR j <= INR m) by (apply le_INR; lia).
  assert (INR j * x <= INR m * x) by (apply Rmult_le_compat_r; lra). lra.
Qed.
Theorem C86_adaptive :
  forall pick tc opt restarted meas s, step_rule pick -> is_unit (tc_unit tc) -> tc_adaptive tc = true ->
    0 < tc_target tc < 1 -> 1 < tc_max_factor tc -> 0 < requested tc opt -> 0 < rs_dt s -> (rs_updated s = true -> 0 <= rs_courant s) -> (forall n, 0 <= meas n) ->
    exists s' k, (forall v, run_driver pick tc opt restarted meas s v <-> v = Completed s') /\
      time_in tc s' = time_in tc s + INR k * requested tc opt /\
      tc_stop tc - time_in tc s' < tolerance /\
      (forall j, (j < k)%nat -> tolerance <= tc_stop tc - (time_in tc s + INR j * requested tc opt)).
Proof.
  intros pick tc opt re meas s Hp Hu Ad Ht Hf Hx Hd Hc Hm. set (x := requested tc opt) in *.
  assert (U := unit_seconds_pos (tc_unit tc)).
  assert (Hs : adaptive_run (with_interval tc x) s).
  { split; [exact Ad|]. split; [|split; [exact Hd|exact Hc]]. split; [exact Ht|]. split; [exact Hf|]. rewrite interval_with by exact Hu. apply Rmult_lt_0_compat; lra. }
  destruct (least_intervals tc x (time_in tc s) Hx) as (k & K1 & K2).
  destruct (drive_adaptive pick tc x re meas Hp Hu Hx Hm k 0 s Hs K1 K2) as (s' & D & E). exists s', k. split; [|split; [exact E|]; split; [rewrite E; exact K1|exact K2]].
  intros v. rewrite run_driver_eq by exact Hu. fold x. split.
  - intros D'. symmetry. apply (drive_unique _ _ _ _ _ _ _ _ _ _ D _ D').
  - intros ->. exact D.
Qed.
Print Assumptions C86_adaptive.

(** ** Fixed steps *)
(* interval of m steps, N steps in all, each of dt seconds, at least the tolerance of the checks in the unit
   of the configuration; [k]: steps done *)
Section Fixed.
  Variable pick : R -> R -> R.
  Variable tc : time_config.
  Variable x : R.
  Variable m : nat.
  Variable dt : R.
  Variable meas : nat -> R.
  Hypothesis Hp : step_rule pick.
  Hypothesis Hu : is_unit (tc_unit tc).
  Hypothesis Ad : tc_adaptive tc = false.
  Hypothesis Hdt : advance_tolerance * unit_seconds (tc_unit tc) <= dt.
  Hypothesis Hm : (1 <= m)%nat.
  Hypothesis Hx : x * unit_seconds (tc_unit tc) = INR m * dt.
  Hypothesis Hstop : tc_stop tc * unit_seconds (tc_unit tc) = INR (tc_stop_n tc) * dt.
  Local Notation N := (tc_stop_n tc).
  Local Notation tcx := (with_interval tc x).

  Lemma fdt : 0 < dt.
  Proof. assert (U := unit_seconds_pos (tc_unit tc)). assert (T := atol_pos). assert (0 < advance_tolerance * unit_seconds (tc_unit tc)) by (apply Rmult_lt_0_compat; lra). lra. Qed.
  Lemma fstep k c u cr s' : (k <= N)%nat -> advance pick tcx c (RunState (INR k * dt) k dt cr u) s' <-> s' = RunState (INR (Nat.min (k + m) N) * dt) (Nat.min (k + m) N) dt c false.
  Proof. intros Hk. apply C30_fixed_step_exact; [exact Hp|exact Ad|apply fdt|rewrite interval_with by exact Hu; exact Hx|reflexivity|exact Hk]. Qed.
  (* times in units: multiples of d = dt/U *)
  Lemma ftime k n c u : time_in tc (RunState (INR k * dt) n dt c u) = INR k * (dt / unit_seconds (tc_unit tc)).
  Proof. unfold time_in. cbn [rs_time]. assert (U := unit_seconds_pos (tc_unit tc)). field. lra. Qed.
  Lemma fd : advance_tolerance <= dt / unit_seconds (tc_unit tc).
  Proof. assert (U := unit_seconds_pos (tc_unit tc)). apply (Rmult_le_reg_r (unit_seconds (tc_unit tc))); [exact U|]. replace (dt / unit_seconds (tc_unit tc) * unit_seconds (tc_unit tc)) with dt by (field; lra). exact Hdt. Qed.
  Lemma fx : x = INR m * (dt / unit_seconds (tc_unit tc)).
  Proof. assert (U := unit_seconds_pos (tc_unit tc)). apply (Rmult_eq_reg_r (unit_seconds (tc_unit tc))); [|lra]. rewrite Hx. field. lra. Qed.
  Lemma fs : tc_stop tc = INR N * (dt / unit_seconds (tc_unit tc)).
  Proof. assert (U := unit_seconds_pos (tc_unit tc)). apply (Rmult_eq_reg_r (unit_seconds (tc_unit tc))); [|lra]. rewrite Hstop. field. lra. Qed.
  Lemma ffin k c u : (k <= N)%nat -> RDyFinished tcx (RunState (INR k * dt) k dt c u) = Nat.eqb k N.
  Proof.
    intros Hk. rewrite finished_in, ftime, fs by exact Hu. assert (D := fd). assert (T := tol_lt). assert (T0 := tol_pos). set (d := dt / unit_seconds (tc_unit tc)) in *.
    destruct (Nat.eqb k N) eqn:E.
    - apply Nat.eqb_eq in E. subst k. apply Rltb_true. lra.
    - apply Nat.eqb_neq in E. apply Rltb_false. assert (INR k + 1 <= INR N) by (rewrite <- S_INR; apply le_INR; lia).
      assert (1 * d <= (INR N - INR k) * d) by (apply Rmult_le_compat_r; lra). lra.
  Qed.
  (* the state a completed run ends in *)
  Definition final (k n : nat) (c : R) (u : bool) : run_state :=
    if Nat.eqb k N then RunState (INR N * dt) N dt c u else RunState (INR N * dt) N dt (meas (n + ((N - k - 1) / m))) false.

  Lemma fnext re k n c u : (k + m <= N)%nat \/ ((k < N)%nat /\ re = true) ->
    let k' := Nat.min (k + m) N in let s' := RunState (INR k' * dt) k' dt (meas n) false in
    after_advance (tc_unit tc) x re (time_in tc (RunState (INR k * dt) k dt c u)) s' = inl (time_in tc s').
  Proof.
    intros H k' s'. assert (K : (k < k')%nat) by (unfold k'; lia). assert (F := fdt). assert (D := fd). assert (T := atol_pos).
    assert (Kr : INR k < INR k') by (apply lt_INR; exact K).
    rewrite checks_pass; [|exact Hu| |exact F| |unfold s'; cbn [rs_step]; lia].
    - destruct re; [reflexivity|]. destruct H as [H|(_ & H)]; [|discriminate]. unfold s'. rewrite !ftime. unfold k'. rewrite Nat.min_l by exact H. rewrite plus_INR, fx. f_equal. ring.
    - unfold s'. rewrite !ftime. apply Rmult_lt_compat_r; lra.
    - intros ->. destruct H as [H|(_ & H)]; [|discriminate]. unfold s'. rewrite !ftime. unfold k'. rewrite Nat.min_l by exact H. rewrite plus_INR. rewrite fx at 1.
      match goal with |- Rabs ?e < _ => replace e with 0 by ring end. rewrite Rabs_R0. exact T.
  Qed.

  Lemma drive_fixed re : forall k n c u, (k <= N)%nat -> re = true \/ Nat.modulo (N - k) m = 0%nat ->
    drive pick tcx (tc_unit tc) x re meas n (RunState (INR k * dt) k dt c u) (time_in tc (RunState (INR k * dt) k dt c u)) (Completed (final k n c u)).
  Proof.
    intros k. remember (N - k)%nat as j eqn:Ej. revert k Ej. induction j as [j IH] using lt_wf_ind. intros k Ej n c u Hk Hr.
    destruct (Nat.eq_dec k N) as [->|Ne].
    { unfold final. rewrite Nat.eqb_refl. apply Drive_done. rewrite ffin by lia. apply Nat.eqb_refl. }
    assert (Hcase : (k + m <= N)%nat \/ ((k < N)%nat /\ re = true)).
    { destruct Hr as [-> |Hr]; [right; split; [lia|reflexivity]|]. left. destruct (le_lt_dec m j) as [L|L]; [lia|]. rewrite Nat.mod_small in Hr by exact L. lia. }
    set (k' := Nat.min (k + m) N). assert (K : (k < k' <= N)%nat) by (unfold k'; lia).
    apply Drive_next with (RunState (INR k' * dt) k' dt (meas n) false) (time_in tc (RunState (INR k' * dt) k' dt (meas n) false)).
    - rewrite ffin by exact Hk. apply Nat.eqb_neq. exact Ne.
    - apply fstep; [exact Hk|reflexivity].
    - apply (fnext re k n c u Hcase).
    - replace (final k n c u) with (final k' (S n) (meas n) false).
      + apply (IH (N - k')%nat); [lia|reflexivity|lia|]. destruct Hr as [Hr|Hr]; [left; exact Hr|right].
        destruct Hcase as [H|(_ & H)].
        * unfold k'. rewrite Nat.min_l by exact H. replace j with (N - (k + m) + 1 * m)%nat in Hr by lia. rewrite Nat.mod_add in Hr by lia. exact Hr.
        * destruct (le_lt_dec m j) as [L|L]; [|rewrite Nat.mod_small in Hr by exact L; lia].
          unfold k'. rewrite Nat.min_l by lia. replace j with (N - (k + m) + 1 * m)%nat in Hr by lia. rewrite Nat.mod_add in Hr by lia. exact Hr.
      + unfold final. rewrite (proj2 (Nat.eqb_neq k N) Ne). destruct (Nat.eqb k' N) eqn:E'.
        * apply Nat.eqb_eq in E'. assert (N - k - 1 < m)%nat by (unfold k' in E'; lia). rewrite Nat.div_small by exact H. rewrite Nat.add_0_r. reflexivity.
        * apply Nat.eqb_neq in E'. assert (k' = k + m)%nat by (unfold k' in *; lia). do 2 f_equal.
          replace (N - k - 1)%nat with (N - k' - 1 + 1 * m)%nat by lia. rewrite Nat.div_add by lia. lia.
  Qed.
  Lemma drive_short : forall k n c u, (k <= N)%nat -> Nat.modulo (N - k) m <> 0%nat ->
    drive pick tcx (tc_unit tc) x false meas n (RunState (INR k * dt) k dt c u) (time_in tc (RunState (INR k * dt) k dt c u)) Advanced_improperly.
  Proof.
    intros k. remember (N - k)%nat as j eqn:Ej. revert k Ej. induction j as [j IH] using lt_wf_ind. intros k Ej n c u Hk Hr.
    assert (Ne : k <> N) by (intros ->; apply Hr; replace j with 0%nat by lia; apply Nat.mod_0_l; lia).
    assert (F0 : RDyFinished tcx (RunState (INR k * dt) k dt c u) = false) by (rewrite ffin by exact Hk; apply Nat.eqb_neq; exact Ne).
    destruct (le_lt_dec (k + m) N) as [L|L].
    - set (k' := Nat.min (k + m) N). assert (k' = k + m)%nat by (unfold k'; lia).
      apply Drive_next with (RunState (INR k' * dt) k' dt (meas n) false) (time_in tc (RunState (INR k' * dt) k' dt (meas n) false)).
      + exact F0.
      + apply fstep; [exact Hk|reflexivity].
      + apply (fnext false k n c u). left. exact L.
      + apply (IH (N - k')%nat); [lia|reflexivity|lia|]. replace j with (N - k' + 1 * m)%nat in Hr by lia. rewrite Nat.mod_add in Hr by lia. exact Hr.
    - apply Drive_fail with (RunState (INR N * dt) N dt (meas n) false); [exact F0| |].
      + replace (RunState (INR N * dt) N dt (meas n) false) with (RunState (INR (Nat.min (k + m) N) * dt) (Nat.min (k + m) N) dt (meas n) false) by (rewrite Nat.min_r by lia; reflexivity).
        apply fstep; [exact Hk|reflexivity].
      + assert (F := fdt). assert (D := fd). assert (U := unit_seconds_pos (tc_unit tc)). assert (T := atol_pos).
        unfold after_advance. cbv zeta. rewrite !from_seconds by exact Hu. cbn [rs_dt rs_step]. rewrite !ftime. fold (time_in tc (RunState (INR N * dt) N dt (meas n) false)). rewrite ftime.
        set (d := dt / unit_seconds (tc_unit tc)) in *. 
        assert (KN : INR k + 1 <= INR N) by (rewrite <- S_INR; apply le_INR; lia).
        assert (NM : INR N + 1 <= INR k + INR m) by (rewrite <- S_INR, <- plus_INR; apply le_INR; lia).
        rewrite (proj2 (Rltb_true (INR k * d) (INR N * d))) by (apply Rmult_lt_compat_r; lra).
        rewrite (proj2 (Rltb_true 0 d)) by lra. cbn [negb andb]. rewrite fx. fold d.
        replace (INR N * d - INR k * d - INR m * d) with (- ((INR k + INR m - INR N) * d)) by ring. rewrite Rabs_Ropp.
        assert (1 * d <= (INR k + INR m - INR N) * d) by (apply Rmult_le_compat_r; lra).
        rewrite Rabs_pos_eq by lra. rewrite (proj2 (Rltb_false _ _)) by lra. reflexivity.
  Qed.
End Fixed.

(* with the time step of the configuration and an interval of m steps: a new run (k = 0) or a restart from
   step k is completed, at the final time, unless it is a new run whose number of steps is not a multiple of
   m: this one is reported as an error, although the simulation reaches the final time *)
Theorem C86_fixed :
  forall pick tc opt restarted meas m k dt c u, step_rule pick -> is_unit (tc_unit tc) -> tc_adaptive tc = false -> (1 <= m)%nat -> (1 <= tc_stop_n tc)%nat ->
    initial_dt tc None = Some dt -> advance_tolerance * unit_seconds (tc_unit tc) <= dt ->
    requested tc opt * unit_seconds (tc_unit tc) = INR m * dt -> (k <= tc_stop_n tc)%nat ->
    let s := RunState (INR k * dt) k dt c u in
    (restarted = true \/ Nat.modulo (tc_stop_n tc - k) m = 0%nat ->
       exists s', (forall v, run_driver pick tc opt restarted meas s v <-> v = Completed s') /\ time_in tc s' = tc_stop tc /\ rs_step s' = tc_stop_n tc) /\
    (restarted = false -> Nat.modulo (tc_stop_n tc - k) m <> 0%nat -> forall v, run_driver pick tc opt restarted meas s v <-> v = Advanced_improperly).
Proof.
  intros pick tc opt re meas m k dt c u Hp Hu Ad Hm HN Hi Hdt Hx Hk s. assert (U := unit_seconds_pos (tc_unit tc)).
  assert (N0 : 1 <= INR (tc_stop_n tc)) by (apply (le_INR 1); exact HN).
  assert (Hs : tc_stop tc * unit_seconds (tc_unit tc) = INR (tc_stop_n tc) * dt).
  { unfold initial_dt in Hi. rewrite to_seconds, rdiv_some in Hi by (exact Hu || lra). injection Hi as <-. field. lra. }
  set (x := requested tc opt) in *. split.
  - intros Hr. assert (D := drive_fixed pick tc x m dt meas Hp Hu Ad Hdt Hm Hx Hs re k 0 c u Hk Hr). fold s in D.
    exists (final tc m dt meas k 0 c u). split; [|split].
    + intros v. rewrite run_driver_eq by exact Hu. fold x. split; [intros D'; symmetry; apply (drive_unique _ _ _ _ _ _ _ _ _ _ D _ D')|intros ->; exact D].
    + assert (E : rs_time (final tc m dt meas k 0 c u) = INR (tc_stop_n tc) * dt) by (unfold final; destruct (Nat.eqb k (tc_stop_n tc)); reflexivity).
      unfold time_in. rewrite E, <- Hs. field. lra.
    + unfold final. destruct (Nat.eqb k (tc_stop_n tc)); reflexivity.
  - intros -> Hr v. assert (D := drive_short pick tc x m dt meas Hp Hu Ad Hdt Hm Hx Hs k 0 c u Hk Hr). fold s in D. rewrite run_driver_eq by exact Hu. fold x.
    split; [intros D'; symmetry; apply (drive_unique _ _ _ _ _ _ _ _ _ _ D _ D')|intros ->; exact D].
Qed.
Print Assumptions C86_fixed.

(* an accepted configuration on which the driver reports an error: 3 s in 3 steps with an interval of 2 s *)
Definition short : time_config := TimeConfig SECONDS 3 3 2 false (1/2) 2.
Lemma small_tolerance : advance_tolerance < 1/10.
Proof.
  unfold advance_tolerance. replace (1/10) with (/ 10) by field. apply Rinv_lt_contravar; [apply Rmult_lt_0_compat; [lra|apply pow_lt; lra]|].
  replace (10 ^ 12) with (10 * 10 ^ 11) by ring. assert (1 < 10 ^ 11) by (apply Rlt_pow_R1; [lra|lia]). lra.
Qed.
Theorem C86_short_interval_refuted :
  complete_times (Some 3) (Some 3%nat) None = Some (3, 3%nat, 1) /\ initial_dt short None = Some 1 /\
  (forall meas v, run_driver petsc_pick short None false meas (RunState 0 0 1 0 false) v <-> v = Advanced_improperly) /\
  forall meas, exists s', (forall v, run_driver petsc_pick short (Some 1) false meas (RunState 0 0 1 0 false) v <-> v = Completed s') /\ rs_time s' = 3.
Proof.
  assert (I : initial_dt short None = Some 1) by (cbn; rewrite rdiv_some by lra; f_equal; lra).
  split. { cbn. rewrite rdiv_some by lra. cbn. do 2 f_equal; lra. }
  split; [exact I|].
  assert (St := small_tolerance).
  assert (Z : RunState 0 0 1 0 false = RunState (INR 0 * 1) 0 1 0 false) by (f_equal; cbn; ring).
  split.
  - intros meas v. rewrite Z.
    assert (Q := C86_fixed petsc_pick short None false meas 2 0 1 0 false petsc_pick_rule ltac:(discriminate) eq_refl ltac:(lia) ltac:(cbn; lia) I).
    destruct Q as (_ & Q); [cbn [tc_unit short unit_seconds]; lra|cbn; lra|cbn; lia|]. apply Q; [reflexivity|]. vm_compute. discriminate.
  - intros meas. rewrite Z.
    assert (Q := C86_fixed petsc_pick short (Some 1) false meas 1 0 1 0 false petsc_pick_rule ltac:(discriminate) eq_refl ltac:(lia) ltac:(cbn; lia) I).
    destruct Q as (Q & _); [cbn [tc_unit short unit_seconds]; lra|cbn; lra|cbn; lia|]. destruct Q as (s' & A & B & _); [right; reflexivity|].
    exists s'. split; [exact A|]. unfold time_in in B. cbn [tc_unit short unit_seconds tc_stop] in B. lra.
Qed.
Print Assumptions C86_short_interval_refuted.

(** ** Intervals that do not move the time *)
(* the option is not checked: an interval that is zero or negative is reported at the first iteration *)
Theorem C86_no_interval :
  forall pick tc opt restarted meas s v, is_unit (tc_unit tc) -> requested tc opt <= 0 -> tolerance <= tc_stop tc - time_in tc s ->
    run_driver pick tc opt restarted meas s v <-> v = Non_increasing_time.
Proof.
  intros pick tc opt re meas s v Hu Hx Hs. rewrite run_driver_eq by exact Hu. set (x := requested tc opt) in *. assert (U := unit_seconds_pos (tc_unit tc)).
  assert (D : drive pick (with_interval tc x) (tc_unit tc) x re meas 0 s (time_in tc s) Non_increasing_time).
  { set (dt := if (tc_adaptive (with_interval tc x) && rs_updated s)%bool then adapt_dt (tc_target (with_interval tc x)) (tc_max_factor (with_interval tc x)) (ConvertTimeToSeconds (tc_coupling (with_interval tc x)) (tc_unit (with_interval tc x))) (rs_dt s) (rs_courant s) else rs_dt s).
    apply Drive_fail with (RunState (rs_time s) (rs_step s) dt (meas 0%nat) (tc_adaptive (with_interval tc x))).
    - rewrite finished_in by exact Hu. apply Rltb_false. exact Hs.
    - apply (Advance pick (with_interval tc x) (meas 0%nat) s (rs_time s) (rs_step s)). apply Solve_time.
      fold (interval_of (with_interval tc x)). rewrite interval_with by exact Hu.
      assert (x * unit_seconds (tc_unit tc) <= 0 * unit_seconds (tc_unit tc)) by (apply Rmult_le_compat_r; lra). lra.
    - unfold after_advance. cbv zeta. rewrite !from_seconds by exact Hu. cbn [rs_time]. fold (time_in tc s).
      rewrite (proj2 (Rltb_false (time_in tc s) (time_in tc s))) by lra. reflexivity. }
  split; [intros D'; symmetry; apply (drive_unique _ _ _ _ _ _ _ _ _ _ D _ D')|intros ->; exact D].
Qed.
Print Assumptions C86_no_interval.

(* a fixed-step run whose interval is not a multiple of the time step: the limit on the number of steps is
   reached before the final time (the configuration of [C30_step_limit_refuted]), and the driver reports it
   instead of repeating advances that do nothing, also for a restart *)
Lemma stuck_advance t n c cr u : (n < 2)%nat -> advance petsc_pick stuck c (RunState t n (1/2) cr u) (RunState (t + 3/10) (S n) (1/2) c false).
Proof.
  intros Hn. apply (Advance petsc_pick stuck c (RunState t n (1/2) cr u) (t + 3/10) (S n)). cbn [rs_time rs_step rs_dt stuck tc_adaptive tc_unit tc_coupling andb step_limit ConvertTimeToSeconds tc_stop_n].
  apply Solve_step; [lra|intros k [= <-]; exact Hn|].
  assert (Pk : petsc_pick (1/2) (t + 3/10 - t) = 3/10) by (unfold petsc_pick; rewrite (proj2 (Rleb_true (t + 3/10 - t) (1/2 * (101/100)))) by lra; lra).
  rewrite Pk. apply Solve_time. lra.
Qed.
Lemma stuck_still t c cr u : advance petsc_pick stuck c (RunState t 2 (1/2) cr u) (RunState t 2 (1/2) c false).
Proof.
  apply (Advance petsc_pick stuck c (RunState t 2 (1/2) cr u) t 2). cbn [rs_time rs_step rs_dt stuck tc_adaptive tc_unit tc_coupling andb step_limit ConvertTimeToSeconds tc_stop_n].
  apply (Solve_limit _ _ _ _ _ _ 2); [lra|reflexivity|lia].
Qed.
Theorem C86_step_limit :
  forall restarted meas v, run_driver petsc_pick stuck None restarted meas (RunState 0 0 (1/2) 0 false) v <-> v = Non_increasing_time.
Proof.
  intros re meas v. assert (Hu : is_unit (tc_unit stuck)) by discriminate. rewrite run_driver_eq by exact Hu.
  assert (W : with_interval stuck (requested stuck None) = stuck) by reflexivity. rewrite W.
  assert (St := small_tolerance). assert (Tl := tol_lt).
  assert (Nf : forall t n c u, t <= 3/5 -> RDyFinished stuck (RunState t n (1/2) c u) = false) by (intros; unfold RDyFinished; apply Rltb_false; cbn; lra).
  assert (Ti : forall t n c u, time_in stuck (RunState t n (1/2) c u) = t) by (intros; unfold time_in; cbn; field).
  assert (P : forall t n c u, (0 < n)%nat -> after_advance (tc_unit stuck) (requested stuck None) re t (RunState (t + 3/10) n (1/2) c u) = inl (t + 3/10)).
  { intros t n c u Hn. rewrite checks_pass; [|exact Hu|rewrite Ti; lra|cbn; lra| |exact Hn].
    - rewrite Ti. destruct re; reflexivity.
    - intros _. rewrite Ti. cbn [requested stuck tc_coupling]. match goal with |- Rabs ?e < _ => replace e with 0 by lra end. rewrite Rabs_R0. apply atol_pos. }
  assert (D : drive petsc_pick stuck (tc_unit stuck) (requested stuck None) re meas 0 (RunState 0 0 (1/2) 0 false) (time_in stuck (RunState 0 0 (1/2) 0 false)) Non_increasing_time).
  { rewrite Ti. eapply Drive_next; [apply Nf; lra|apply stuck_advance; lia|apply P; lia|].
    eapply Drive_next; [apply Nf; lra|apply stuck_advance; lia|apply P; lia|].
    eapply Drive_fail; [apply Nf; lra|apply stuck_still|].
    unfold after_advance. cbv zeta. rewrite !from_seconds by exact Hu. cbn [rs_time tc_unit stuck unit_seconds].
    match goal with |- context [?a <? ?b] => rewrite (proj2 (Rltb_false a b)) by lra end. reflexivity. }
  split; [intros D'; symmetry; apply (drive_unique _ _ _ _ _ _ _ _ _ _ D _ D')|intros ->; exact D].
Qed.
Print Assumptions C86_step_limit.

(** ** The driver always ends, with one verdict *)
Lemma solve_limited pick dt T N : forall j t n, (N - n <= j)%nat -> exists r, ts_solve pick dt T (Some N) (t, n) r.
Proof.
  induction j as [|j IH]; intros t n Hj; (destruct (Rle_lt_dec T t) as [H|H]; [eexists; apply Solve_time; exact H|]).
  - eexists. apply (Solve_limit _ _ _ _ _ _ N); [exact H|reflexivity|lia].
  - destruct (le_lt_dec N n) as [L|L]; [eexists; apply (Solve_limit _ _ _ _ _ _ N); [exact H|reflexivity|exact L]|].
    destruct (IH (t + pick dt (T - t)) (S n)) as (r & S'); [lia|]. exists r. apply Solve_step; [exact H|intros k [= <-]; exact L|exact S'].
Qed.
Lemma solve_progress pick dt T N a b : ts_solve pick dt T (Some N) a b -> (snd a <= snd b <= Nat.max (snd a) N)%nat /\ (fst b <> fst a -> (snd a < snd b)%nat).
Proof.
  intros Sv. induction Sv as [t n H|t n k H E L|t n r H Hk S1 IH]; cbn [fst snd] in *.
  - split; [lia|intros X; congruence].
  - split; [lia|intros X; congruence].
  - specialize (Hk N eq_refl). split; [lia|intros _; lia].
Qed.
Theorem C86_always_ends :
  forall pick tc opt restarted meas s, step_rule pick -> is_unit (tc_unit tc) ->
    (tc_adaptive tc = true -> 0 < tc_target tc < 1 /\ 1 < tc_max_factor tc /\ 0 < rs_dt s /\ (rs_updated s = true -> 0 <= rs_courant s) /\ (forall n, 0 <= meas n)) ->
    exists v, forall v', run_driver pick tc opt restarted meas s v' <-> v' = v.
Proof.
  intros pick tc opt re meas s Hp Hu Ha.
  assert (Q : forall v, run_driver pick tc opt re meas s v -> exists v, forall v', run_driver pick tc opt re meas s v' <-> v' = v).
  { intros v D. exists v. intros v'. split; [|intros ->; exact D]. intros D'. apply run_driver_eq in D; [|exact Hu]. apply run_driver_eq in D'; [|exact Hu].
    symmetry. apply (drive_unique _ _ _ _ _ _ _ _ _ _ D _ D'). }
  destruct (Rle_lt_dec tolerance (tc_stop tc - time_in tc s)) as [Nf|Fi].
  2: { apply (Q (Completed s)). apply run_driver_eq; [exact Hu|]. apply Drive_done. rewrite finished_in by exact Hu. apply Rltb_true. exact Fi. }
  destruct (Rle_lt_dec (requested tc opt) 0) as [Nx|Hx].
  { apply (Q Non_increasing_time). apply C86_no_interval; [exact Hu|exact Nx|exact Nf|reflexivity]. }
  destruct (tc_adaptive tc) eqn:Ad.
  { destruct (Ha eq_refl) as (H1 & H2 & H3 & H4 & H5). destruct (C86_adaptive pick tc opt re meas s Hp Hu Ad H1 H2 Hx H3 H4 H5) as (s' & k & D & _).
    apply (Q (Completed s')). apply D. reflexivity. }
  cut (exists v, drive pick (with_interval tc (requested tc opt)) (tc_unit tc) (requested tc opt) re meas 0 s (time_in tc s) v).
  { intros (v & D). apply (Q v). apply run_driver_eq; [exact Hu|exact D]. }
  set (x := requested tc opt) in *. clear Nf Q Ha. generalize 0%nat as n.
  assert (L : step_limit (with_interval tc x) = Some (tc_stop_n tc)) by (unfold step_limit; cbn [tc_adaptive with_interval]; rewrite Ad; reflexivity).
  assert (Ex : forall c s, exists s', advance pick (with_interval tc x) c s s').
  { intros c s0. set (dt := if (tc_adaptive (with_interval tc x) && rs_updated s0)%bool then adapt_dt (tc_target (with_interval tc x)) (tc_max_factor (with_interval tc x)) (ConvertTimeToSeconds (tc_coupling (with_interval tc x)) (tc_unit (with_interval tc x))) (rs_dt s0) (rs_courant s0) else rs_dt s0).
    destruct (solve_limited pick dt (rs_time s0 + ConvertTimeToSeconds (tc_coupling (with_interval tc x)) (tc_unit (with_interval tc x))) (tc_stop_n tc) _ (rs_time s0) (rs_step s0) (le_n _)) as ((t' & n') & Sv).
    rewrite <- L in Sv. eexists. apply (Advance pick (with_interval tc x) c s0 t' n'). exact Sv. }
  destruct re.
  - (* a restart: each iteration takes a step *)
    remember (tc_stop_n tc - rs_step s)%nat as j eqn:Ej. revert s Ej. induction j as [j IH] using lt_wf_ind. intros s Ej n.
    destruct (RDyFinished (with_interval tc x) s) eqn:F; [eexists; apply Drive_done; exact F|].
    destruct (Ex (meas n) s) as (s1 & A). destruct (after_advance (tc_unit tc) x true (time_in tc s) s1) as [p|e] eqn:C; [|eexists; apply (Drive_fail _ _ _ _ _ _ _ _ _ _ _ F A C)].
    destruct (checks_mean tc x true (time_in tc s) s1 p Hu C) as (C1 & _ & _ & C2 & _). specialize (C2 eq_refl). subst p.
    assert (K : (tc_stop_n tc - rs_step s1 < j)%nat).
    { inversion A as [s0 t' n' iv dt' Sv E1 E2]. subst s0. rewrite L in Sv. apply solve_progress in Sv. cbn [fst snd] in Sv. destruct Sv as (S1 & S2).
      assert (rs_step s < n')%nat; [|subst; cbn [rs_step]; lia].
      apply S2. intros X. revert C1. subst s1. unfold time_in. cbn [rs_time]. rewrite X. lra. }
    destruct (IH _ K s1 eq_refl (S n)) as (v & D). exists v. apply (Drive_next _ _ _ _ _ _ _ _ _ _ _ _ F A C D).
  - (* a new run: the expected time grows by the interval *)
    destruct (unbounded ((tc_stop tc - (time_in tc s - x)) / x)) as (k & Hk).
    assert (Hs : tc_stop tc <= time_in tc s - x + INR k * x).
    { assert ((tc_stop tc - (time_in tc s - x)) / x * x <= INR k * x) by (apply Rmult_le_compat_r; lra).
      replace ((tc_stop tc - (time_in tc s - x)) / x * x) with (tc_stop tc - (time_in tc s - x)) in H by (field; lra). lra. }
    assert (Hi : time_in tc s - x < time_in tc s) by lra. revert Hs Hi. clear Hk. generalize (time_in tc s) at 1 2 4 as prev. revert s.
    induction k as [|k IH]; intros s prev Hs Hi n.
    + eexists. apply Drive_done. rewrite finished_in by exact Hu. apply Rltb_true. cbn [INR] in Hs. assert (T := tol_pos). lra.
    + destruct (RDyFinished (with_interval tc x) s) eqn:F; [eexists; apply Drive_done; exact F|].
      destruct (Ex (meas n) s) as (s1 & A). destruct (after_advance (tc_unit tc) x false prev s1) as [p|e] eqn:C; [|eexists; apply (Drive_fail _ _ _ _ _ _ _ _ _ _ _ F A C)].
      destruct (checks_mean tc x false prev s1 p Hu C) as (C1 & _ & _ & _ & C2). destruct (C2 eq_refl) as (-> & _).
      destruct (IH s1 (prev + x)) with (n := S n) as (v & D); [rewrite S_INR in Hs; lra|lra|]. exists v. apply (Drive_next _ _ _ _ _ _ _ _ _ _ _ _ F A C D).
Qed.
Print Assumptions C86_always_ends.

Example C86_example :
  let tc := TimeConfig HOURS 2 720 (1/2) true (9/10) 2 in
  let tf := TimeConfig HOURS 2 720 (1/2) false (9/10) 2 in
  step_rule petsc_pick /\ is_unit (tc_unit tc) /\ 0 < tc_target tc < 1 /\ 1 < tc_max_factor tc /\ 0 < requested tc None /\ 0 < requested tc (Some 1) /\
  initial_dt tf None = Some 10 /\ advance_tolerance * unit_seconds (tc_unit tf) <= 10 /\ requested tf None * unit_seconds (tc_unit tf) = INR 180 * 10 /\
  Nat.modulo (720 - 0) 180 = 0%nat /\ Nat.modulo (3 - 0) 2 <> 0%nat /\ 
  (exists s', forall v, run_driver petsc_pick tf None false (fun _ => 0) (RunState (INR 0 * 10) 0 10 0 false) v <-> v = Completed s').
Proof.
  cbv zeta. destruct C30_example as (_ & _ & R & _ & I & J & _). cbv zeta in I, J.
  assert (T : advance_tolerance * unit_seconds HOURS <= 10).
  { unfold advance_tolerance. cbn [unit_seconds]. apply (Rmult_le_reg_l (10 ^ 12)); [apply pow_lt; lra|]. rewrite <- Rmult_assoc, Rinv_r by (apply pow_nonzero; lra).
    replace (10 ^ 12) with (10 ^ 9 * 10 ^ 3) by ring. assert (1 < 10 ^ 9) by (apply Rlt_pow_R1; [lra|lia]). cbn [pow] in *. lra. }
  assert (Rq : (1/2) * unit_seconds HOURS = INR 180 * 10) by (rewrite INR_IZR_INZ; replace (Z.of_nat 180) with 180%Z by (vm_compute; reflexivity); cbn; lra).
  split; [exact R|]. split; [discriminate|]. cbn [tc_target tc_max_factor requested tc_coupling tc_unit]. split; [lra|]. split; [lra|]. split; [lra|]. split; [lra|].
  split; [exact I|]. split; [exact T|]. split; [exact Rq|]. split; [vm_compute; reflexivity|]. split; [vm_compute; discriminate|].
  destruct (C86_fixed petsc_pick (TimeConfig HOURS 2 720 (1/2) false (9/10) 2) None false (fun _ => 0) 180 0 10 0 false R ltac:(discriminate) eq_refl ltac:(lia) ltac:(cbn [tc_stop_n]; lia) I T Rq ltac:(cbn [tc_stop_n]; lia)) as (Q & _).
  destruct Q as (s' & D & _); [right; vm_compute; reflexivity|]. exists s'. exact D.
Qed.
