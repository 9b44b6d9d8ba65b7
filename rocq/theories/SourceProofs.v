(** Lemmas about the source terms. *)
From Verif Require Import Base RoeModel RoeProofs SourceModel.

Lemma Rpower_nonneg x y : 0 < Rpower x y. Proof. unfold Rpower. apply exp_pos. Qed.

(** ** Semi-implicit friction *)
Definition tb_rate (g n h speed : R) : R := g * (n * n) * Rpower h (- (1/3)) * speed / h.
Lemma tb_rate_nonneg g n h speed : 0 < g -> 0 < h -> 0 <= speed -> 0 <= tb_rate g n h speed.
Proof.
  intros Hg Hh Hs. unfold tb_rate. assert (Hp := Rpower_nonneg h (- (1/3))).
  apply Rmult_le_pos; [|left; apply Rinv_0_lt_compat; exact Hh].
  apply Rmult_le_pos; [|exact Hs]. apply Rmult_le_pos; [|lra]. apply Rmult_le_pos; [lra|apply Rle_0_sqr].
Qed.

Lemma friction_factor dt tb m : 0 <= dt -> 0 <= tb -> m - dt * (m * (tb / (1 + dt * tb))) = m * / (1 + dt * tb).
Proof. intros Hd Ht. assert (0 <= dt * tb) by (apply Rmult_le_pos; assumption). field. lra. Qed.

Lemma factor_range dt tb : 0 <= dt -> 0 <= tb -> 0 < / (1 + dt * tb) <= 1.
Proof.
  intros Hd Ht. assert (0 <= dt * tb) by (apply Rmult_le_pos; assumption).
  split; [apply Rinv_0_lt_compat; lra|]. rewrite <- Rinv_1. apply Rinv_le_contravar; lra.
Qed.

Lemma petsc_semi_implicit_some dt n q F bx by_ :
  0 <= dt -> 0 < c0 q ->
  let tb := tb_rate GRAVITY n (c0 q) (sqrt (c1 q / c0 q * (c1 q / c0 q) + c2 q / c0 q * (c2 q / c0 q))) in
  petsc_semi_implicit dt n q F bx by_
  = Some ((c1 q + dt * c1 F - dt * bx) * (tb / (1 + dt * tb)), (c2 q + dt * c2 F - dt * by_) * (tb / (1 + dt * tb))).
Proof.
  intros Hd Hh tb. unfold petsc_semi_implicit.
  rewrite !rdiv_some by lra. cbn [obind]. rewrite rpowneg_some by exact Hh. cbn [obind].
  rewrite rsqrt_some by (apply Rplus_le_le_0_compat; apply Rle_0_sqr). cbn [obind].
  rewrite (rdiv_some _ (c0 q)) by lra. cbn [obind]. fold (tb_rate GRAVITY n (c0 q) (sqrt (c1 q / c0 q * (c1 q / c0 q) + c2 q / c0 q * (c2 q / c0 q)))).
  fold tb. assert (Hb : 0 <= tb) by (apply tb_rate_nonneg; [apply GRAVITY_pos|exact Hh|apply sqrt_pos]).
  assert (0 <= dt * tb) by (apply Rmult_le_pos; assumption).
  rewrite rdiv_some by lra. reflexivity.
Qed.

Lemma denom_pos h ha : 0 < h -> 0 < h * h + ha * ha.
Proof. intros. assert (0 < h * h) by nra. assert (0 <= ha * ha) by nra. lra. Qed.

Lemma ceed_semi_implicit_some g dt tiny ha n q F bx by_ :
  0 < g -> 0 <= dt -> 0 <= tiny -> tiny < c0 q ->
  let d := c0 q * c0 q + ha * ha in
  let tb := tb_rate g n (c0 q) (sqrt (c1 q * c0 q / d * (c1 q * c0 q / d) + c2 q * c0 q / d * (c2 q * c0 q / d))) in
  ceed_semi_implicit g dt tiny ha n q F bx by_
  = Some ((c1 q + dt * (c1 F - bx)) * (tb / (1 + dt * tb)), (c2 q + dt * (c2 F - by_)) * (tb / (1 + dt * tb))).
Proof.
  intros Hg Hd Ht Hh d tb. unfold ceed_semi_implicit, SafeDiv.
  assert (E : Rltb tiny (c0 q) = true) by (apply Rltb_true; exact Hh). rewrite E.
  assert (Hdp := denom_pos (c0 q) ha ltac:(lra)).
  rewrite !(rdiv_some _ (c0 q * c0 q + ha * ha)) by lra. cbn [obind]. rewrite rpowneg_some by lra. cbn [obind].
  rewrite rsqrt_some by (apply Rplus_le_le_0_compat; apply Rle_0_sqr). cbn [obind].
  rewrite (rdiv_some _ (c0 q)) by lra. cbn [obind]. fold d.
  fold (tb_rate g n (c0 q) (sqrt (c1 q * c0 q / d * (c1 q * c0 q / d) + c2 q * c0 q / d * (c2 q * c0 q / d)))).
  fold tb. assert (Hb : 0 <= tb) by (apply tb_rate_nonneg; [exact Hg|lra|apply sqrt_pos]).
  assert (0 <= dt * tb) by (apply Rmult_le_pos; assumption).
  rewrite rdiv_some by lra. reflexivity.
Qed.

Lemma tb_rate_0 g h speed : 0 < h -> tb_rate g 0 h speed = 0.
Proof. intros Hh. unfold tb_rate. field. lra. Qed.

Lemma petsc_semi_implicit_step bed dt tiny n dzx dzy q F src :
  0 <= dt -> 0 < tiny -> tiny <= c0 q ->
  let mx := c1 q + dt * (c1 F - bed_force bed GRAVITY dzx (c0 q)) in
  let my := c2 q + dt * (c2 F - bed_force bed GRAVITY dzy (c0 q)) in
  exists s rhs, 0 < s <= 1 /\ (n = 0 -> s = 1) /\
    petsc_rhs SemiImplicit bed dt tiny n dzx dzy q F src = Some rhs /\
    c0 (euler dt q rhs) = c0 q + dt * (c0 F + c0 src) /\
    c1 (euler dt q rhs) = s * mx + dt * c1 src /\ c2 (euler dt q rhs) = s * my + dt * c2 src.
Proof.
  intros Hd Ht Hh mx my. unfold petsc_rhs, petsc_source.
  assert (E : Rleb tiny (c0 q) = true) by (apply Rleb_true; exact Hh). rewrite E.
  rewrite petsc_semi_implicit_some by lra. cbn [obind].
  set (tb := tb_rate _ _ _ _).
  assert (Hb : 0 <= tb) by (apply tb_rate_nonneg; [apply GRAVITY_pos|lra|apply sqrt_pos]).
  exists (/ (1 + dt * tb)). eexists. split; [apply factor_range; assumption|].
  split; [intros ->; unfold tb; rewrite tb_rate_0 by lra; field|].
  split; [reflexivity|].
  unfold euler, vadd, vscal; cbn [c0 c1 c2]. split; [ring|].
  assert (Hdt : 0 <= dt * tb) by (apply Rmult_le_pos; assumption).
  split.
  - unfold mx. field. lra.
  - unfold my. field. lra.
Qed.

Lemma ceed_semi_implicit_step g bed dt tiny ha n dzx dzy q F src :
  0 < g -> 0 <= dt -> 0 <= tiny -> tiny < c0 q ->
  let mx := c1 q + dt * (c1 F - bed_force bed g dzx (c0 q)) in
  let my := c2 q + dt * (c2 F - bed_force bed g dzy (c0 q)) in
  exists s rhs, 0 < s <= 1 /\ (n = 0 -> s = 1) /\
    ceed_rhs SemiImplicit bed g dt tiny ha n dzx dzy q F src = Some rhs /\
    c0 (euler dt q rhs) = c0 q + dt * (c0 F + c0 src) /\
    c1 (euler dt q rhs) = s * mx + dt * c1 src /\ c2 (euler dt q rhs) = s * my + dt * c2 src.
Proof.
  intros Hg Hd Ht Hh mx my. unfold ceed_rhs.
  assert (E : Rltb tiny (c0 q) = true) by (apply Rltb_true; exact Hh). rewrite E.
  rewrite ceed_semi_implicit_some by assumption. cbn [obind].
  set (tb := tb_rate _ _ _ _).
  assert (Hb : 0 <= tb) by (apply tb_rate_nonneg; [exact Hg|lra|apply sqrt_pos]).
  exists (/ (1 + dt * tb)). eexists. split; [apply factor_range; assumption|].
  split; [intros ->; unfold tb; rewrite tb_rate_0 by lra; field|].
  split; [reflexivity|].
  unfold euler, vadd, vscal; cbn [c0 c1 c2]. split; [ring|].
  assert (Hdt : 0 <= dt * tb) by (apply Rmult_le_pos; assumption).
  split.
  - unfold mx. field. lra.
  - unfold my. field. lra.
Qed.

(** ** XQ2018 *)
Definition xq_coef (g n h : R) : R := g * (n * n) * Rpower h (- (7/3)).
Definition norm2 (x y : R) : R := sqrt (x * x + y * y).

Lemma norm2_nonneg x y : 0 <= norm2 x y. Proof. apply sqrt_pos. Qed.
Lemma norm2_scale s x y : 0 <= s -> norm2 (s * x) (s * y) = s * norm2 x y.
Proof.
  intros Hs. unfold norm2.
  replace (s * x * (s * x) + s * y * (s * y)) with ((s * s) * (x * x + y * y)) by ring.
  rewrite sqrt_mult by (try apply Rplus_le_le_0_compat; apply Rle_0_sqr).
  rewrite sqrt_square by exact Hs. reflexivity.
Qed.

Lemma xq_lambda g n h mx my : 0 < h ->
  g * (n * n) * Rpower h (- (4/3)) * sqrt (mx / h * (mx / h) + my / h * (my / h)) = xq_coef g n h * norm2 mx my.
Proof.
  intros Hh. unfold xq_coef.
  replace (mx / h) with (/ h * mx) by (field; lra). replace (my / h) with (/ h * my) by (field; lra).
  fold (norm2 (/ h * mx) (/ h * my)).
  rewrite norm2_scale by (left; apply Rinv_0_lt_compat; exact Hh).
  replace (/ h) with (Rpower h (- (1))) by (rewrite Rpower_Ropp, Rpower_1 by exact Hh; reflexivity).
  replace (- (7/3)) with (- (4/3) + - (1)) by lra. rewrite Rpower_plus. ring.
Qed.

Lemma xq_coef_nonneg g n h : 0 < g -> 0 <= xq_coef g n h.
Proof.
  intros Hg. unfold xq_coef. assert (Hp := Rpower_nonneg h (- (7/3))).
  apply Rmult_le_pos; [|lra]. apply Rmult_le_pos; [lra|apply Rle_0_sqr].
Qed.

(* the positive root of x s^2 + s - 1 = 0 *)
Definition xq_root (x : R) : R := (sqrt (1 + 4 * x) - 1) / (2 * x).
Lemma xq_root_eq x : 0 < x -> x * xq_root x * xq_root x + xq_root x = 1 /\ 0 < xq_root x <= 1.
Proof.
  intros Hx. unfold xq_root. assert (Hs2 : sqrt (1 + 4 * x) * sqrt (1 + 4 * x) = 1 + 4 * x) by (apply sqrt_sqrt; lra).
  assert (Hs0 := sqrt_pos (1 + 4 * x)). set (r := sqrt (1 + 4 * x)) in *.
  assert (Hr : 1 < r) by nra.
  assert (Hq : x * ((r - 1) / (2 * x)) * ((r - 1) / (2 * x)) + (r - 1) / (2 * x) = (r * r - 1) / (4 * x)) by (field; lra).
  split; [rewrite Hq, Hs2; field; lra|]. split.
  - apply Rmult_lt_0_compat; [lra|apply Rinv_0_lt_compat; lra].
  - apply Rmult_le_reg_r with (2 * x); [lra|]. replace ((r - 1) / (2 * x) * (2 * x)) with (r - 1) by (field; lra). nra.
Qed.

Lemma xq2018_some g dt thr n q F bx by_ :
  0 < g -> 0 < dt -> 0 < thr -> 0 < c0 q ->
  let mx := c1 q + (c1 F - bx) * dt in
  let my := c2 q + (c2 F - by_) * dt in
  let x := dt * (xq_coef g n (c0 q) * norm2 mx my) in
  let s := if x <? thr then 1 else xq_root x in
  0 < s <= 1 /\
  xq2018_friction g dt thr n q F bx by_
  = Some (xq_coef g n (c0 q) * (s * mx) * norm2 (s * mx) (s * my), xq_coef g n (c0 q) * (s * my) * norm2 (s * mx) (s * my)).
Proof.
  intros Hg Hd Ht Hh mx my x s. unfold xq2018_friction.
  rewrite rpowneg_some by exact Hh. cbn [obind]. rewrite !rdiv_some by lra. cbn [obind].
  rewrite rsqrt_some by (apply Rplus_le_le_0_compat; apply Rle_0_sqr). cbn [obind].
  fold mx my. rewrite xq_lambda by exact Hh. fold x.
  assert (Hc := xq_coef_nonneg g n (c0 q) Hg). assert (Hn := norm2_nonneg mx my).
  destruct (Rltb x thr) eqn:E.
  - cbn [obind]. split; [unfold s; lra|]. unfold s. rewrite !Rmult_1_l.
    rewrite rsqrt_some by (apply Rplus_le_le_0_compat; apply Rle_0_sqr). cbn [obind].
    rewrite rpowneg_some by exact Hh. cbn [obind]. unfold xq_coef, norm2. reflexivity.
  - apply Rltb_false in E. assert (Hx : 0 < x) by lra.
    destruct (xq_root_eq x Hx) as (_ & Hr). split; [exact Hr|]. unfold s.
    replace (4 * dt * (xq_coef g n (c0 q) * norm2 mx my)) with (4 * x) by (unfold x; ring).
    replace (-2 * dt * (xq_coef g n (c0 q) * norm2 mx my)) with (- (2 * x)) by (unfold x; ring).
    rewrite rsqrt_some by lra. cbn [obind]. rewrite !rdiv_some by lra. cbn [obind].
    replace ((mx - mx * sqrt (1 + 4 * x)) / - (2 * x)) with (xq_root x * mx) by (unfold xq_root; field; lra).
    replace ((my - my * sqrt (1 + 4 * x)) / - (2 * x)) with (xq_root x * my) by (unfold xq_root; field; lra).
    rewrite rsqrt_some by (apply Rplus_le_le_0_compat; apply Rle_0_sqr). cbn [obind].
    rewrite rpowneg_some by exact Hh. cbn [obind]. unfold xq_coef, norm2. reflexivity.
Qed.

(* Value of the momentum after one step, both regimes. *)
Lemma xq2018_step_val g dt thr n q F bx by_ :
  0 < g -> 0 < dt -> 0 < thr -> 0 < c0 q ->
  let mx := c1 q + dt * (c1 F - bx) in
  let my := c2 q + dt * (c2 F - by_) in
  let k := xq_coef g n (c0 q) in
  exists tbx tby, xq2018_friction g dt thr n q F bx by_ = Some (tbx, tby) /\
    let qx := mx - dt * tbx in let qy := my - dt * tby in
    (thr <= dt * (k * norm2 mx my) ->
       qx = mx - dt * (k * norm2 qx qy * qx) /\ qy = my - dt * (k * norm2 qx qy * qy) /\
       exists s, 0 < s <= 1 /\ qx = s * mx /\ qy = s * my) /\
    (dt * (k * norm2 mx my) < thr ->
       qx = (1 - dt * (k * norm2 mx my)) * mx /\ qy = (1 - dt * (k * norm2 mx my)) * my).
Proof.
  intros Hg Hd Ht Hh mx my k.
  assert (Emx : c1 q + (c1 F - bx) * dt = mx) by (unfold mx; ring).
  assert (Emy : c2 q + (c2 F - by_) * dt = my) by (unfold my; ring).
  destruct (xq2018_some g dt thr n q F bx by_ Hg Hd Ht Hh) as (Hs & E).
  rewrite Emx, Emy in *. fold k in Hs, E. set (x := dt * (k * norm2 mx my)) in *.
  do 2 eexists; split; [exact E|]. cbv zeta. clear E. split; intros Hx.
  - assert (Eb : Rltb x thr = false) by (apply Rltb_false; lra). rewrite Eb in *.
    set (s := xq_root x) in *. destruct (xq_root_eq x ltac:(lra)) as (Hroot & _). fold s in Hroot.
    rewrite norm2_scale by lra.
    assert (Ex : mx - dt * (k * (s * mx) * (s * norm2 mx my)) = s * mx).
    { transitivity (mx * (1 - x * s * s)); [unfold x; ring|]. replace (1 - x * s * s) with s by lra. ring. }
    assert (Ey : my - dt * (k * (s * my) * (s * norm2 mx my)) = s * my).
    { transitivity (my * (1 - x * s * s)); [unfold x; ring|]. replace (1 - x * s * s) with s by lra. ring. }
    rewrite Ex, Ey. rewrite norm2_scale by lra. split; [|split].
    + rewrite <- Ex at 1. ring.
    + rewrite <- Ey at 1. ring.
    + exists s. auto.
  - assert (Eb : Rltb x thr = true) by (apply Rltb_true; lra). rewrite Eb in *.
    rewrite !Rmult_1_l. split; unfold x; ring.
Qed.

(** ** Dry cells *)
Lemma petsc_source_dry fr bed dt tiny n dzx dzy q F src :
  c0 q < tiny ->
  petsc_source fr bed dt tiny n dzx dzy q F src
  = Some (V3 (c0 src) (- bed_force bed GRAVITY dzx (c0 q) + c1 src) (- bed_force bed GRAVITY dzy (c0 q) + c2 src)).
Proof.
  intros H. unfold petsc_source.
  assert (E : Rleb tiny (c0 q) = false) by (apply Rleb_false; lra). rewrite E. cbn [obind].
  f_equal. apply vec3_ext; cbn [c0 c1 c2]; ring.
Qed.
Lemma ceed_rhs_dry fr bed g dt tiny ha n dzx dzy q F src :
  c0 q <= tiny ->
  ceed_rhs fr bed g dt tiny ha n dzx dzy q F src
  = Some (V3 (c0 F + c0 src) (c1 F - bed_force bed g dzx (c0 q) + c1 src) (c2 F - bed_force bed g dzy (c0 q) + c2 src)).
Proof.
  intros H. unfold ceed_rhs.
  assert (E : Rltb tiny (c0 q) = false) by (apply Rltb_false; lra). rewrite E. cbn [obind].
  f_equal. apply vec3_ext; cbn [c0 c1 c2]; ring.
Qed.

(* The mass equation never sees friction or bed slope. *)
Lemma petsc_source_mass fr bed dt tiny n dzx dzy q F src s :
  petsc_source fr bed dt tiny n dzx dzy q F src = Some s -> c0 s = c0 src.
Proof.
  unfold petsc_source. destruct (if tiny <=? c0 q then _ else _) as [[tbx tby]|]; cbn [obind]; [|discriminate].
  intros H; injection H as <-. reflexivity.
Qed.
Lemma ceed_rhs_mass fr bed g dt tiny ha n dzx dzy q F src s :
  ceed_rhs fr bed g dt tiny ha n dzx dzy q F src = Some s -> c0 s = c0 F + c0 src.
Proof.
  unfold ceed_rhs. destruct (if tiny <? c0 q then _ else _) as [[tbx tby]|]; cbn [obind]; [|discriminate].
  intros H; injection H as <-. reflexivity.
Qed.

(** ** Agreement of the back ends *)
Lemma xq_backends fr bed dt tiny ha n dzx dzy q F src :
  c0 q <> tiny -> (fr = SemiImplicit -> ha = 0) -> 0 < tiny -> 0 <= dt ->
  ceed_rhs fr bed GRAVITY dt tiny ha n dzx dzy q F src = petsc_rhs fr bed dt tiny n dzx dzy q F src.
Proof.
  intros Hne Hha Ht Hd. unfold ceed_rhs, petsc_rhs, petsc_source.
  destruct (Rlt_dec tiny (c0 q)) as [Hw|Hw].
  - assert (E1 : Rltb tiny (c0 q) = true) by (apply Rltb_true; exact Hw).
    assert (E2 : Rleb tiny (c0 q) = true) by (apply Rleb_true; lra). rewrite E1, E2.
    destruct fr as [| |thr].
    + cbn [obind]. f_equal. apply vec3_ext; cbn [vadd c0 c1 c2]; ring.
    + specialize (Hha eq_refl). subst ha.
      rewrite ceed_semi_implicit_some by (try apply GRAVITY_pos; lra).
      rewrite petsc_semi_implicit_some by lra. cbn [obind].
      assert (Ev : forall m, m * c0 q / (c0 q * c0 q + 0 * 0) = m / c0 q).
      { intros m. replace (c0 q * c0 q + 0 * 0) with (c0 q * c0 q) by ring. field. lra. }
      rewrite !Ev. set (tb := tb_rate _ _ _ _). set (fa := tb / (1 + dt * tb)).
      f_equal. apply vec3_ext; cbn [vadd c0 c1 c2]; ring.
    + destruct (xq2018_friction GRAVITY dt thr n q F _ _) as [[tbx tby]|]; cbn [obind]; [|reflexivity].
      f_equal. apply vec3_ext; cbn [vadd c0 c1 c2]; ring.
  - assert (E1 : Rltb tiny (c0 q) = false) by (apply Rltb_false; lra).
    assert (E2 : Rleb tiny (c0 q) = false) by (apply Rleb_false; lra). rewrite E1, E2.
    cbn [obind]. f_equal. apply vec3_ext; cbn [vadd c0 c1 c2]; ring.
Qed.

(* A threshold of zero divides 0 by 0 in a cell without momentum. *)
Lemma xq2018_zero_threshold dt n h : 0 < h ->
  xq2018_friction GRAVITY dt 0 n (V3 h 0 0) vzero 0 0 = None.
Proof.
  intros Hh. unfold xq2018_friction, vzero; cbn [c0 c1 c2].
  rewrite rpowneg_some by exact Hh. cbn [obind]. rewrite !rdiv_some by lra. cbn [obind].
  rewrite rsqrt_some by (apply Rplus_le_le_0_compat; apply Rle_0_sqr). cbn [obind].
  rewrite xq_lambda by exact Hh.
  assert (E0 : norm2 (0 + (0 - 0) * dt) (0 + (0 - 0) * dt) = 0).
  { unfold norm2. replace ((0 + (0 - 0) * dt) * (0 + (0 - 0) * dt) + (0 + (0 - 0) * dt) * (0 + (0 - 0) * dt)) with 0 by ring. apply sqrt_0. }
  rewrite E0, !Rmult_0_r.
  assert (E1 : Rltb 0 0 = false) by (apply Rltb_false; lra). rewrite E1.
  replace (1 + 0) with 1 by ring. rewrite rsqrt_some by lra. cbn [obind]. rewrite rdiv_none. reflexivity.
Qed.
