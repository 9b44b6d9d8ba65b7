(** Properties of the source terms: C13, C14, C15, and the source part of C08. *)
From Verif Require Import Base RoeModel RoeProofs SourceModel SourceProofs.

(** ** Specification *)

(* The force of the bed slope on a column of depth [h] (none if the scheme does not use it). *)
Definition slope_force (with_slope : bool) (g h dz : R) : R := if with_slope then g * h * dz else 0.
(* Momentum after a step of length [dt] without friction and without external momentum source:
   momentum + dt * (flux divergence - bed slope force). *)
Definition predicted (with_slope : bool) (g dt m f h dz : R) : R := m + dt * (f - slope_force with_slope g h dz).
Definition speed_of (x y : R) : R := sqrt (x * x + y * y).

(* Which program is run: [run rhs] returns the new state of the cell after one explicit step. *)
Definition petsc_step fr bed dt tiny n dzx dzy q F src : option vec3 :=
  option_map (euler dt q) (petsc_rhs fr bed dt tiny n dzx dzy q F src).
Definition ceed_step fr bed dt tiny ha n dzx dzy q F src : option vec3 :=
  option_map (euler dt q) (ceed_rhs fr bed GRAVITY dt tiny ha n dzx dzy q F src).

(* [q'] is the frictionless prediction damped by one factor in (0,1], plus the external source. *)
Definition damped (bed : bool) (dt n dzx dzy : R) (q F src q' : vec3) : Prop :=
  exists s, 0 < s <= 1 /\ (n = 0 -> s = 1) /\
    c0 q' = c0 q + dt * (c0 F + c0 src) /\
    c1 q' = s * predicted bed GRAVITY dt (c1 q) (c1 F) (c0 q) dzx + dt * c1 src /\
    c2 q' = s * predicted bed GRAVITY dt (c2 q) (c2 F) (c0 q) dzy + dt * c2 src.

Lemma predicted_eq bed g dt m f h dz : predicted bed g dt m f h dz = m + dt * (f - bed_force bed g dz h).
Proof. unfold predicted, slope_force, bed_force. destruct bed; ring. Qed.

(** ** C13 *)
Theorem C13_semi_implicit_friction_slows :
  forall bed dt tiny_h h_anuga n dzx dzy q F src,
    0 <= dt -> 0 < tiny_h -> tiny_h < c0 q ->
    (exists q', petsc_step SemiImplicit bed dt tiny_h n dzx dzy q F src = Some q' /\
                damped bed dt n dzx dzy q F src q') /\
    (exists q', ceed_step SemiImplicit bed dt tiny_h h_anuga n dzx dzy q F src = Some q' /\
                damped bed dt n dzx dzy q F src q').
Proof.
  intros bed dt tiny ha n dzx dzy q F src Hd Ht Hh. unfold petsc_step, ceed_step, damped. split.
  - destruct (petsc_semi_implicit_step bed dt tiny n dzx dzy q F src Hd Ht (Rlt_le _ _ Hh)) as (s & rhs & Hs & H0 & E & A).
    rewrite E; cbn [option_map]. eexists; split; [reflexivity|]. exists s. rewrite !predicted_eq. auto.
  - destruct (ceed_semi_implicit_step GRAVITY bed dt tiny ha n dzx dzy q F src GRAVITY_pos Hd (Rlt_le _ _ Ht) Hh) as (s & rhs & Hs & H0 & E & A).
    rewrite E; cbn [option_map]. eexists; split; [reflexivity|]. exists s. rewrite !predicted_eq. auto.
Qed.
Print Assumptions C13_semi_implicit_friction_slows.
Example C13_example : 0 <= 10 /\ 0 < 1/1000 /\ 1/1000 < c0 (V3 2 3 (-1)). Proof. cbn; lra. Qed.

(* Friction really acts: moving water over a rough bed loses momentum. *)
Theorem C13_friction_acts :
  forall bed dt tiny_h n dzx dzy q F src q',
    0 < dt -> 0 < tiny_h -> tiny_h < c0 q -> n <> 0 -> c1 q * c1 q + c2 q * c2 q <> 0 ->
    petsc_step SemiImplicit bed dt tiny_h n dzx dzy q F src = Some q' ->
    exists s, 0 < s < 1 /\
      c1 q' = s * predicted bed GRAVITY dt (c1 q) (c1 F) (c0 q) dzx + dt * c1 src /\
      c2 q' = s * predicted bed GRAVITY dt (c2 q) (c2 F) (c0 q) dzy + dt * c2 src.
Proof.
  intros bed dt tiny n dzx dzy q F src q' Hd Ht Hh Hn Hm E.
  unfold petsc_step, petsc_rhs, petsc_source in E.
  assert (Eb : Rleb tiny (c0 q) = true) by (apply Rleb_true; lra). rewrite Eb in E.
  rewrite petsc_semi_implicit_some in E by lra. cbn [obind option_map] in E.
  set (tb := tb_rate _ _ _ _) in E. assert (Hb : 0 < tb).
  { unfold tb, tb_rate. assert (Hp := Rpower_nonneg (c0 q) (- (1/3))).
    assert (Hs : 0 < sqrt (c1 q / c0 q * (c1 q / c0 q) + c2 q / c0 q * (c2 q / c0 q))).
    { apply sqrt_lt_R0. replace (c1 q / c0 q * (c1 q / c0 q) + c2 q / c0 q * (c2 q / c0 q))
        with ((c1 q * c1 q + c2 q * c2 q) * / (c0 q * c0 q)) by (field; lra).
      apply Rmult_lt_0_compat; [|apply Rinv_0_lt_compat; nra].
      assert (H1 := Rle_0_sqr (c1 q)). assert (H2 := Rle_0_sqr (c2 q)). unfold Rsqr in *. lra. }
    assert (0 < n * n) by (assert (0 <= n * n) by apply Rle_0_sqr; assert (n * n <> 0) by nra; lra).
    assert (Hg := GRAVITY_pos). apply Rmult_lt_0_compat; [|apply Rinv_0_lt_compat; lra].
    apply Rmult_lt_0_compat; [|exact Hs]. apply Rmult_lt_0_compat; [|exact Hp]. apply Rmult_lt_0_compat; assumption. }
  assert (Hdt : 0 < dt * tb) by (apply Rmult_lt_0_compat; assumption).
  injection E as <-. exists (/ (1 + dt * tb)). split.
  - split; [apply Rinv_0_lt_compat; lra|]. rewrite <- Rinv_1. apply Rinv_lt_contravar; lra.
  - rewrite !predicted_eq. unfold euler, vadd, vscal; cbn [c0 c1 c2]. clearbody tb. split; field; lra.
Qed.
Print Assumptions C13_friction_acts.
Example C13_acts_example : 0 < 1 /\ 1/1000 < c0 (V3 2 3 0) /\ (1/50 <> 0) /\ c1 (V3 2 3 0) * c1 (V3 2 3 0) + c2 (V3 2 3 0) * c2 (V3 2 3 0) <> 0.
Proof. cbn; lra. Qed.

(** ** C14 *)
(* The implicit friction equation for momentum (x,y), prediction (mx,my). *)
Definition solves_implicit (g n h dt mx my x y : R) : Prop :=
  x = mx - dt * (g * (n * n) * Rpower h (- (7/3)) * speed_of x y * x) /\
  y = my - dt * (g * (n * n) * Rpower h (- (7/3)) * speed_of x y * y).
(* Same direction, not faster. *)
Definition same_direction_not_faster (mx my x y : R) : Prop :=
  (exists s, 0 < s /\ x = s * mx /\ y = s * my) /\ speed_of x y <= speed_of mx my.

Lemma smaller_speed s mx my : 0 < s <= 1 -> speed_of (s * mx) (s * my) <= speed_of mx my.
Proof.
  intros Hs. change speed_of with norm2. rewrite norm2_scale by lra.
  assert (H := norm2_nonneg mx my). nra.
Qed.

Theorem C14_implicit_equation_solved :
  forall bed dt thr tiny_h h_anuga n dzx dzy q F src,
    0 < dt -> 0 < thr -> 0 < tiny_h -> tiny_h < c0 q ->
    let mx := predicted bed GRAVITY dt (c1 q) (c1 F) (c0 q) dzx in
    let my := predicted bed GRAVITY dt (c2 q) (c2 F) (c0 q) dzy in
    exists q',
      petsc_step (XQ2018 thr) bed dt tiny_h n dzx dzy q F src = Some q' /\
      ceed_step (XQ2018 thr) bed dt tiny_h h_anuga n dzx dzy q F src = Some q' /\
      c0 q' = c0 q + dt * (c0 F + c0 src) /\
      (thr <= dt * (GRAVITY * (n * n) * Rpower (c0 q) (- (7/3)) * speed_of mx my) ->
         solves_implicit GRAVITY n (c0 q) dt mx my (c1 q' - dt * c1 src) (c2 q' - dt * c2 src) /\
         same_direction_not_faster mx my (c1 q' - dt * c1 src) (c2 q' - dt * c2 src)).
Proof.
  intros bed dt thr tiny ha n dzx dzy q F src Hd Ht Hty Hh mx my.
  unfold petsc_step, ceed_step. rewrite xq_backends; try lra; [|discriminate].
  unfold petsc_rhs, petsc_source.
  assert (Eb : Rleb tiny (c0 q) = true) by (apply Rleb_true; lra). rewrite Eb.
  destruct (xq2018_step_val GRAVITY dt thr n q F (bed_force bed GRAVITY dzx (c0 q)) (bed_force bed GRAVITY dzy (c0 q))
              GRAVITY_pos Hd Ht ltac:(lra)) as (tbx & tby & E & Hhi & _).
  rewrite E. cbn [obind option_map]. eexists. split; [reflexivity|]. split; [reflexivity|].
  unfold euler, vadd, vscal; cbn [c0 c1 c2]. split; [ring|].
  rewrite <- !predicted_eq in Hhi. fold mx my in Hhi. intros Hx. cbv zeta in Hhi.
  specialize (Hhi Hx). destruct Hhi as (A & B & s & Hs & Ex & Ey).
  assert (Qx : c1 q + dt * (c1 F + (- bed_force bed GRAVITY dzx (c0 q) - tbx + c1 src)) - dt * c1 src = mx - dt * tbx)
    by (unfold mx; rewrite predicted_eq; ring).
  assert (Qy : c2 q + dt * (c2 F + (- bed_force bed GRAVITY dzy (c0 q) - tby + c2 src)) - dt * c2 src = my - dt * tby)
    by (unfold my; rewrite predicted_eq; ring).
  rewrite Qx, Qy. split; [split; assumption|]. split.
  - exists s. split; [lra|auto].
  - rewrite Ex, Ey. apply smaller_speed; exact Hs.
Qed.
Print Assumptions C14_implicit_equation_solved.

(* Below the threshold the friction is evaluated explicitly; with a threshold of at most 1 this
   still neither reverses nor accelerates the flow. *)
Theorem C14_below_threshold_damped :
  forall bed dt thr tiny_h n dzx dzy q F src,
    0 < dt -> 0 < thr <= 1 -> 0 < tiny_h -> tiny_h < c0 q ->
    let mx := predicted bed GRAVITY dt (c1 q) (c1 F) (c0 q) dzx in
    let my := predicted bed GRAVITY dt (c2 q) (c2 F) (c0 q) dzy in
    exists q',
      petsc_step (XQ2018 thr) bed dt tiny_h n dzx dzy q F src = Some q' /\
      same_direction_not_faster mx my (c1 q' - dt * c1 src) (c2 q' - dt * c2 src).
Proof.
  intros bed dt thr tiny n dzx dzy q F src Hd Ht Hty Hh mx my.
  unfold petsc_step, petsc_rhs, petsc_source.
  assert (Eb : Rleb tiny (c0 q) = true) by (apply Rleb_true; lra). rewrite Eb.
  destruct (xq2018_step_val GRAVITY dt thr n q F (bed_force bed GRAVITY dzx (c0 q)) (bed_force bed GRAVITY dzy (c0 q))
              GRAVITY_pos Hd (proj1 Ht) ltac:(lra)) as (tbx & tby & E & Hhi & Hlo).
  rewrite E. cbn [obind option_map]. eexists. split; [reflexivity|].
  unfold euler, vadd, vscal; cbn [c0 c1 c2].
  rewrite <- !predicted_eq in Hhi, Hlo. fold mx my in Hhi, Hlo. cbv zeta in Hhi, Hlo.
  assert (Qx : c1 q + dt * (c1 F + (- bed_force bed GRAVITY dzx (c0 q) - tbx + c1 src)) - dt * c1 src = mx - dt * tbx)
    by (unfold mx; rewrite predicted_eq; ring).
  assert (Qy : c2 q + dt * (c2 F + (- bed_force bed GRAVITY dzy (c0 q) - tby + c2 src)) - dt * c2 src = my - dt * tby)
    by (unfold my; rewrite predicted_eq; ring).
  rewrite Qx, Qy. set (x := dt * (xq_coef GRAVITY n (c0 q) * norm2 mx my)) in *.
  destruct (Rle_or_lt thr x) as [Hx|Hx].
  - destruct (Hhi Hx) as (_ & _ & s & Hs & Ex & Ey). rewrite Ex, Ey. split; [exists s; split; [lra|auto]|apply smaller_speed; exact Hs].
  - destruct (Hlo Hx) as (Ex & Ey). rewrite Ex, Ey.
    assert (0 <= x). { unfold x. apply Rmult_le_pos; [lra|]. apply Rmult_le_pos; [apply xq_coef_nonneg, GRAVITY_pos|apply norm2_nonneg]. }
    split; [exists (1 - x); split; [lra|auto]|apply smaller_speed; lra].
Qed.
Print Assumptions C14_below_threshold_damped.

Example C14_example :
  0 < 1 /\ 0 < 1/1000 /\ 1/1000 < c0 (V3 1 3 4) /\
  1/2 <= 1 * (GRAVITY * (1 * 1) * Rpower (c0 (V3 1 3 4)) (- (7/3)) * speed_of 3 4).
Proof.
  cbn [c0]. rewrite (Rpower_O 1) || unfold Rpower. rewrite ln_1, Rmult_0_r, exp_0.
  assert (E : speed_of 3 4 = 5). { unfold speed_of. replace (3*3+4*4) with (5*5) by ring. apply sqrt_square; lra. }
  rewrite E. unfold GRAVITY. lra.
Qed.

(* What does not hold for every threshold the configuration reader accepts (yaml_input.c:910-914
   rejects none for the xq2018 method): a threshold above 1 lets friction reverse the flow, and a
   threshold of zero produces 0/0 in a cell at rest. *)
Theorem C14_any_threshold_refuted :
  (exists dt thr tiny_h n q,
     0 < dt /\ 0 < thr /\ 0 < tiny_h < c0 q /\ 0 < c1 q /\
     exists q', petsc_step (XQ2018 thr) true dt tiny_h n 0 0 q vzero vzero = Some q' /\ c1 q' < 0) /\
  (forall dt tiny_h n h, 0 < tiny_h < h ->
     petsc_step (XQ2018 0) true dt tiny_h n 0 0 (V3 h 0 0) vzero vzero = None).
Proof.
  split.
  - exists (3 / (2 * GRAVITY)), 2, (1/10), 1, (V3 1 1 0). cbn [c0 c1].
    assert (Hg := GRAVITY_pos).
    assert (Hdt : 0 < 3 / (2 * GRAVITY)) by (apply Rmult_lt_0_compat; [lra|apply Rinv_0_lt_compat; lra]).
    split; [exact Hdt|]. split; [lra|]. split; [lra|]. split; [lra|].
    unfold petsc_step, petsc_rhs, petsc_source. cbn [c0 c1 c2].
    assert (Eb : Rleb (1/10) 1 = true) by (apply Rleb_true; lra). rewrite Eb.
    destruct (xq2018_step_val GRAVITY (3 / (2 * GRAVITY)) 2 1 (V3 1 1 0) vzero (bed_force true GRAVITY 0 1) (bed_force true GRAVITY 0 1)
                GRAVITY_pos Hdt ltac:(lra) ltac:(cbn; lra)) as (tbx & tby & E & _ & Hlo).
    rewrite E. cbn [obind option_map]. eexists; split; [reflexivity|].
    unfold euler, vadd, vscal, vzero; cbn [c0 c1 c2]. unfold vzero in Hlo; cbn [c0 c1 c2] in Hlo. cbv zeta in Hlo.
    unfold bed_force in *.
    assert (EK : xq_coef GRAVITY 1 1 = GRAVITY).
    { unfold xq_coef, Rpower. rewrite ln_1, Rmult_0_r, exp_0. ring. }
    assert (E1 : 1 + 3 / (2 * GRAVITY) * (0 - 0 * GRAVITY * 1) = 1) by (field; lra).
    assert (E0 : 0 + 3 / (2 * GRAVITY) * (0 - 0 * GRAVITY * 1) = 0) by (field; lra).
    rewrite E1, E0, EK in Hlo.
    assert (EN : norm2 1 0 = 1). { unfold norm2. replace (1*1+0*0) with (1*1) by ring. apply sqrt_square; lra. }
    rewrite EN in Hlo. assert (EX : 3 / (2 * GRAVITY) * (GRAVITY * 1) = 3/2) by (field; lra). rewrite EX in Hlo.
    destruct (Hlo ltac:(lra)) as (Hx & _).
    replace (1 + 3 / (2 * GRAVITY) * (0 + (- (0 * GRAVITY * 1) - tbx + 0))) with (1 - 3 / (2 * GRAVITY) * tbx) by ring.
    rewrite Hx. lra.
  - intros dt tiny n h Hh. unfold petsc_step, petsc_rhs, petsc_source; cbn [c0].
    assert (Eb : Rleb tiny h = true) by (apply Rleb_true; lra). rewrite Eb.
    replace (bed_force true GRAVITY 0 h) with 0 by (unfold bed_force; ring).
    rewrite xq2018_zero_threshold by lra. reflexivity.
Qed.
Print Assumptions C14_any_threshold_refuted.

(** ** C15 *)
Theorem C15_dry_cell_sources :
  forall fr bed dt tiny_h h_anuga n dzx dzy q F src,
    c0 q < tiny_h ->
    let rhs := V3 (c0 F + c0 src) (c1 F - slope_force bed GRAVITY (c0 q) dzx + c1 src)
                  (c2 F - slope_force bed GRAVITY (c0 q) dzy + c2 src) in
    petsc_rhs fr bed dt tiny_h n dzx dzy q F src = Some rhs /\
    ceed_rhs fr bed GRAVITY dt tiny_h h_anuga n dzx dzy q F src = Some rhs.
Proof.
  intros fr bed dt tiny ha n dzx dzy q F src Hd rhs. unfold petsc_rhs.
  rewrite petsc_source_dry by exact Hd. rewrite ceed_rhs_dry by lra. cbn [obind]. unfold rhs.
  split; f_equal; apply vec3_ext; unfold vadd, slope_force, bed_force; cbn [c0 c1 c2]; destruct bed; ring.
Qed.
Print Assumptions C15_dry_cell_sources.

(* Wet or dry, rain is added unchanged to the water balance and nothing else is. *)
Theorem C15_rain_added_unchanged :
  forall fr bed dt tiny_h h_anuga n dzx dzy q F src,
    (forall s, petsc_rhs fr bed dt tiny_h n dzx dzy q F src = Some s -> c0 s = c0 F + c0 src) /\
    (forall s, ceed_rhs fr bed GRAVITY dt tiny_h h_anuga n dzx dzy q F src = Some s -> c0 s = c0 F + c0 src).
Proof.
  intros; split; intros s H.
  - unfold petsc_rhs in H. destruct (petsc_source _ _ _ _ _ _ _ _ _ _) as [p|] eqn:E; cbn [obind] in H; [|discriminate].
    injection H as <-. apply petsc_source_mass in E. unfold vadd; cbn [c0]. rewrite E. reflexivity.
  - eapply ceed_rhs_mass; exact H.
Qed.
Print Assumptions C15_rain_added_unchanged.
Example C15_example : c0 (V3 0 1 (-1)) < 1/10 /\ c0 (V3 (1/20) 1 (-1)) < 1/10. Proof. cbn; lra. Qed.

(** ** C08, source terms: the back ends agree off the threshold when the velocities are not
    regularised (the friction of the XQ2018 scheme never is). *)
Theorem C08_sources_agree_partial :
  forall fr bed dt tiny_h h_anuga n dzx dzy q F src,
    0 <= dt -> 0 < tiny_h -> c0 q <> tiny_h -> (fr = SemiImplicit -> h_anuga = 0) ->
    ceed_rhs fr bed GRAVITY dt tiny_h h_anuga n dzx dzy q F src = petsc_rhs fr bed dt tiny_h n dzx dzy q F src.
Proof. intros. apply xq_backends; assumption. Qed.
Print Assumptions C08_sources_agree_partial.
Example C08_sources_example : 0 <= 1 /\ 0 < 1/10 /\ c0 (V3 1 1 1) <> 1/10. Proof. cbn; lra. Qed.
