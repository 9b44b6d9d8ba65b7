(** C63: with the sources of the manufactured-solution driver, the manufactured solution solves the equations. *)
From Coq Require Import String.
From Verif Require Import Base RoeModel RoeProofs SourceModel TracerModel MeshMapsModel DataModel DataProperties MMSModel.
Local Open Scope R_scope.

(** ** Specification *)
(* partial derivatives of a function of (x, y, t), in the sense of analysis *)
Definition partial_x (F : R -> R -> R -> R) (x y t d : R) : Prop := derivable_pt_lim (fun x' => F x' y t) x d.
Definition partial_y (F : R -> R -> R -> R) (x y t d : R) : Prop := derivable_pt_lim (fun y' => F x y' t) y d.
Definition partial_t (F : R -> R -> R -> R) (x y t d : R) : Prop := derivable_pt_lim (fun t' => F x y t') t d.
(* the expressions given for the derivatives are the derivatives *)
Definition derives (f : field) : Prop := forall x y t,
  partial_x (f_val f) x y t (f_dx f x y t) /\ partial_y (f_val f) x y t (f_dy f x y t) /\ partial_t (f_val f) x y t (f_dt f x y t).
Definition derives2 (z zx zy : R -> R -> R) : Prop := forall x y, derivable_pt_lim (fun x' => z x' y) x (zx x y) /\ derivable_pt_lim (fun y' => z x y') y (zy x y).
Definition given (s : solutions) : Prop :=
  derives (s_h s) /\ derives (s_u s) /\ derives (s_v s) /\ derives2 (s_z s) (s_dzdx s) (s_dzdy s) /\ forall i, derives (s_c s i).

(* q_t + f_x + g_y = r at (x,y,t) *)
Definition balance (q f g : R -> R -> R -> R) (r x y t : R) : Prop :=
  exists qt fx gy, partial_t q x y t qt /\ partial_x f x y t fx /\ partial_y g x y t gy /\ qt + fx + gy = r.
(* Manning's friction: g n^2 h^(-1/3) |U| U *)
Definition friction_force (n h u v w : R) : R := GRAVITY * n ^ 2 * Rpower h (- (1/3)) * sqrt (u ^ 2 + v ^ 2) * w.
(* The shallow water equations with bed slope, friction and external sources (sh, sx, sy) *)
Definition shallow_water (h u v : R -> R -> R -> R) (z n : R -> R -> R) (sh sx sy x y t : R) : Prop :=
  balance h (fun x y t => h x y t * u x y t) (fun x y t => h x y t * v x y t) sh x y t /\
  (exists zx, derivable_pt_lim (fun x' => z x' y) x zx /\
     balance (fun x y t => h x y t * u x y t) (fun x y t => h x y t * u x y t ^ 2 + GRAVITY / 2 * h x y t ^ 2) (fun x y t => h x y t * u x y t * v x y t)
             (- GRAVITY * h x y t * zx - friction_force (n x y) (h x y t) (u x y t) (v x y t) (u x y t) + sx) x y t) /\
  (exists zy, derivable_pt_lim (fun y' => z x y') y zy /\
     balance (fun x y t => h x y t * v x y t) (fun x y t => h x y t * u x y t * v x y t) (fun x y t => h x y t * v x y t ^ 2 + GRAVITY / 2 * h x y t ^ 2)
             (- GRAVITY * h x y t * zy - friction_force (n x y) (h x y t) (u x y t) (v x y t) (v x y t) + sy) x y t).
(* Transport of a sediment class with erosion, deposition and the external source sc *)
Definition bed_stress (n h u v : R) : R := 1000 / 2 * (GRAVITY * n ^ 2 * Rpower h (- (1/3))) * (u ^ 2 + v ^ 2).
Definition sediment_transport (h u v c : R -> R -> R -> R) (n : R -> R -> R) (sc x y t : R) : Prop :=
  let tau := bed_stress (n x y) (h x y t) (u x y t) (v x y t) in
  balance (fun x y t => h x y t * c x y t) (fun x y t => h x y t * u x y t * c x y t) (fun x y t => h x y t * v x y t * c x y t)
          (1/1000 * (tau - 1/10) / (1/10) - 1/100 * c x y t * (1 - tau / 1000) + sc) x y t.

(** ** Derivatives *)
Lemma d_mul f g x a b c : derivable_pt_lim f x a -> derivable_pt_lim g x b -> a * g x + f x * b = c -> derivable_pt_lim (fun s => f s * g s) x c.
Proof. intros Hf Hg <-. exact (derivable_pt_lim_mult f g x a b Hf Hg). Qed.
Lemma d_add f g x a b c : derivable_pt_lim f x a -> derivable_pt_lim g x b -> a + b = c -> derivable_pt_lim (fun s => f s + g s) x c.
Proof. intros Hf Hg <-. exact (derivable_pt_lim_plus f g x a b Hf Hg). Qed.
Lemma d_scal k f x a c : derivable_pt_lim f x a -> k * a = c -> derivable_pt_lim (fun s => k * f s) x c.
Proof. intros Hf <-. exact (derivable_pt_lim_scal f k x a Hf). Qed.
Lemma d_sq f x a c : derivable_pt_lim f x a -> 2 * f x * a = c -> derivable_pt_lim (fun s => f s ^ 2) x c.
Proof.
  intros Hf <-. cbn [pow]. eapply (d_mul f (fun s => f s * 1)); [exact Hf| |].
  - eapply (d_mul f (fun _ => 1)); [exact Hf|apply derivable_pt_lim_const|reflexivity].
  - cbn. ring.
Qed.
Lemma sq_speed u v : sqrt (u * u + v * v) = sqrt (u ^ 2 + v ^ 2).
Proof. f_equal. ring. Qed.

(** ** Theorems *)
(** Flow: wherever the depth is positive, the sources are finite, and with them the manufactured solution
    solves the shallow water equations. *)
Theorem C63_flow_sources : forall s x y t, given s -> 0 < f_val (s_h s) x y t ->
  exists src, flow_source_at s t (x, y) = Some src /\
    shallow_water (f_val (s_h s)) (f_val (s_u s)) (f_val (s_v s)) (s_z s) (s_n s) (c0 src) (c1 src) (c2 src) x y t.
Proof.
  intros s x y t (Dh & Du & Dv & Dz & _) Hh. unfold flow_source_at, flow_source. rewrite rpowneg_some by exact Hh. cbn [obind].
  rewrite rsqrt_some by (assert (A := Rle_0_sqr (f_val (s_u s) x y t)); assert (B := Rle_0_sqr (f_val (s_v s) x y t)); unfold Rsqr in *; lra). cbn [obind].
  eexists. split; [reflexivity|]. cbn [c0 c1 c2].
  destruct (Dh x y t) as (hx & hy & ht). destruct (Du x y t) as (ux & uy & ut). destruct (Dv x y t) as (vx & vy & vt). destruct (Dz x y) as (zx & zy).
  unfold partial_x, partial_y, partial_t in *. split; [|split].
  - do 3 eexists. unfold partial_x, partial_y, partial_t. split; [exact ht|]. split; [eapply d_mul; [exact hx|exact ux|reflexivity]|]. split; [eapply d_mul; [exact hy|exact vy|reflexivity]|]. ring.
  - eexists. split; [exact zx|]. do 3 eexists. unfold partial_x, partial_y, partial_t.
    split; [eapply d_mul; [exact ht|exact ut|reflexivity]|]. split.
    { eapply d_add; [eapply d_mul; [exact hx|eapply d_sq; [exact ux|reflexivity]|reflexivity]|eapply d_scal; [eapply d_sq; [exact hx|reflexivity]|reflexivity]|reflexivity]. }
    split. { eapply d_mul; [eapply d_mul; [exact hy|exact uy|reflexivity]|exact vy|reflexivity]. }
    unfold friction_force. rewrite sq_speed. field.
  - eexists. split; [exact zy|]. do 3 eexists. unfold partial_x, partial_y, partial_t.
    split; [eapply d_mul; [exact ht|exact vt|reflexivity]|].
    split. { eapply d_mul; [eapply d_mul; [exact hx|exact ux|reflexivity]|exact vx|reflexivity]. }
    split. { eapply d_add; [eapply d_mul; [exact hy|eapply d_sq; [exact vy|reflexivity]|reflexivity]|eapply d_scal; [eapply d_sq; [exact hy|reflexivity]|reflexivity]|reflexivity]. }
    unfold friction_force. rewrite sq_speed. field.
Qed.
Print Assumptions C63_flow_sources.

(** Sediment classes *)
Theorem C63_sediment_sources : forall s x y t i, given s -> 0 < f_val (s_h s) x y t ->
  exists src, sediment_source_at s t i (x, y) = Some src /\
    sediment_transport (f_val (s_h s)) (f_val (s_u s)) (f_val (s_v s)) (f_val (s_c s i)) (s_n s) src x y t.
Proof.
  intros s x y t i (Dh & Du & Dv & Dz & Dc) Hh. unfold sediment_source_at, sediment_source. rewrite rpowneg_some by exact Hh. cbn [obind].
  eexists. split; [reflexivity|]. unfold sediment_transport, bed_stress.
  destruct (Dh x y t) as (hx & hy & ht). destruct (Du x y t) as (ux & uy & ut). destruct (Dv x y t) as (vx & vy & vt). destruct (Dc i x y t) as (cx & cy & ct).
  unfold partial_x, partial_y, partial_t in *. do 3 eexists. unfold partial_x, partial_y, partial_t.
  split; [eapply d_mul; [exact ht|exact ct|reflexivity]|].
  split. { eapply d_mul; [eapply d_mul; [exact hx|exact ux|reflexivity]|exact cx|reflexivity]. }
  split. { eapply d_mul; [eapply d_mul; [exact hy|exact vy|reflexivity]|exact cy|reflexivity]. }
  unfold kp_constant, rhow, settling_velocity, tau_critical_erosion, tau_critical_deposition. field.
Qed.
Print Assumptions C63_sediment_sources.

(** ** The equations the solver integrates *)
(* [F] is minus the divergence of the exact fluxes of the manufactured solution *)
Definition minus_divergence (h u v : R -> R -> R -> R) (x y t : R) (F : vec3) : Prop :=
  exists a b c d e f,
    partial_x (fun x y t => h x y t * u x y t) x y t a /\ partial_y (fun x y t => h x y t * v x y t) x y t b /\
    partial_x (fun x y t => h x y t * u x y t ^ 2 + GRAVITY / 2 * h x y t ^ 2) x y t c /\ partial_y (fun x y t => h x y t * u x y t * v x y t) x y t d /\
    partial_x (fun x y t => h x y t * u x y t * v x y t) x y t e /\ partial_y (fun x y t => h x y t * v x y t ^ 2 + GRAVITY / 2 * h x y t ^ 2) x y t f /\
    F = V3 (- (a + b)) (- (c + d)) (- (e + f)).
Definition tracer_minus_divergence (h u v c : R -> R -> R -> R) (x y t r : R) : Prop :=
  exists a b, partial_x (fun x y t => h x y t * u x y t * c x y t) x y t a /\ partial_y (fun x y t => h x y t * v x y t * c x y t) x y t b /\ r = - (a + b).
Definition state_at (s : solutions) (x y t : R) : vec3 :=
  V3 (f_val (s_h s) x y t) (f_val (s_h s) x y t * f_val (s_u s) x y t) (f_val (s_h s) x y t * f_val (s_v s) x y t).
(* [d] is the time derivative of the manufactured state *)
Definition state_rate (s : solutions) (x y t : R) (d : vec3) : Prop :=
  partial_t (f_val (s_h s)) x y t (c0 d) /\ partial_t (fun x y t => f_val (s_h s) x y t * f_val (s_u s) x y t) x y t (c1 d) /\
  partial_t (fun x y t => f_val (s_h s) x y t * f_val (s_v s) x y t) x y t (c2 d).
Definition has_friction (fr : friction) : Prop := match fr with NoFriction => False | SemiImplicit => True | XQ2018 thr => 0 < thr end.

Lemma speed_scaled h u v : 0 < h -> sqrt (h * u * (h * u) + h * v * (h * v)) = h * sqrt (u ^ 2 + v ^ 2).
Proof.
  intros H. replace (h * u * (h * u) + h * v * (h * v)) with (h * h * (u ^ 2 + v ^ 2)) by ring.
  rewrite sqrt_mult_alt by nra. rewrite sqrt_square by lra. reflexivity.
Qed.
Lemma squares_nonneg a b : 0 <= a * a + b * b.
Proof. nra. Qed.
Lemma semi_implicit_zero n h u v F bx by_ : 0 < h ->
  petsc_semi_implicit 0 n (V3 h (h * u) (h * v)) F bx by_ = Some (friction_force n h u v u, friction_force n h u v v).
Proof.
  intros H. unfold petsc_semi_implicit. cbn [c0 c1 c2]. rewrite !rdiv_some by lra. cbn [obind]. rewrite rpowneg_some by exact H. cbn [obind].
  rewrite rsqrt_some by apply squares_nonneg. cbn [obind]. rewrite rdiv_some by lra. cbn [obind]. rewrite rdiv_some by lra. cbn [obind].
  replace (h * u / h) with u by (field; lra). replace (h * v / h) with v by (field; lra). unfold friction_force. rewrite sq_speed.
  f_equal; f_equal; field; lra.
Qed.
Lemma xq_zero thr n h u v F bx by_ : 0 < h -> 0 < thr ->
  xq2018_friction GRAVITY 0 thr n (V3 h (h * u) (h * v)) F bx by_ = Some (friction_force n h u v u, friction_force n h u v v).
Proof.
  intros H Ht. unfold xq2018_friction. cbn [c0 c1 c2]. rewrite rpowneg_some by exact H. cbn [obind]. rewrite !rdiv_some by lra. cbn [obind].
  rewrite rsqrt_some by apply squares_nonneg. cbn [obind]. rewrite Rmult_0_l.
  replace (0 <? thr) with true by (symmetry; apply Rltb_true; exact Ht). cbn [obind]. rewrite rsqrt_some by apply squares_nonneg. cbn [obind].
  rewrite rpowneg_some by exact H. cbn [obind]. rewrite !Rmult_0_r, !Rplus_0_r. rewrite speed_scaled by exact H.
  assert (E : Rpower h (- (7/3)) * h * h = Rpower h (- (1/3))).
  { replace (Rpower h (- (1/3))) with (Rpower h (- (7/3) + 1 + 1)) by (f_equal; lra). rewrite !Rpower_plus, Rpower_1 by exact H. reflexivity. }
  unfold friction_force. rewrite <- E. f_equal; f_equal; ring.
Qed.
Lemma ceed_semi_implicit_zero tiny n h u v F bx by_ : 0 < h -> tiny < h ->
  ceed_semi_implicit GRAVITY 0 tiny 0 n (V3 h (h * u) (h * v)) F bx by_ = Some (friction_force n h u v u, friction_force n h u v v).
Proof.
  intros H Ht. unfold ceed_semi_implicit, SafeDiv. cbn [c0 c1 c2]. replace (tiny <? h) with true by (symmetry; apply Rltb_true; exact Ht).
  rewrite !rdiv_some by nra. cbn [obind]. rewrite rpowneg_some by exact H. cbn [obind].
  rewrite rsqrt_some by apply squares_nonneg. cbn [obind]. rewrite rdiv_some by lra. cbn [obind]. rewrite rdiv_some by lra. cbn [obind].
  replace (h * u * h / (h * h + 0 * 0)) with u by (field; nra). replace (h * v * h / (h * h + 0 * 0)) with v by (field; nra).
  unfold friction_force. rewrite sq_speed. f_equal; f_equal; field; lra.
Qed.
Lemma exact_rate s x y t src F : given s -> 0 < f_val (s_h s) x y t -> flow_source_at s t (x, y) = Some src ->
  minus_divergence (f_val (s_h s)) (f_val (s_u s)) (f_val (s_v s)) x y t F ->
  let h := f_val (s_h s) x y t in let u := f_val (s_u s) x y t in let v := f_val (s_v s) x y t in
  state_rate s x y t (V3 (c0 F + c0 src)
    (c1 F - s_dzdx s x y * GRAVITY * h - friction_force (s_n s x y) h u v u + c1 src)
    (c2 F - s_dzdy s x y * GRAVITY * h - friction_force (s_n s x y) h u v v + c2 src)).
Proof.
  intros G Hh Hs (a & b & c & d & e & f & Ha & Hb & Hc & Hd & He & Hf & ->). cbv zeta.
  destruct (C63_flow_sources s x y t G Hh) as (src' & E & B0 & (zx & Hzx & B1) & (zy & Hzy & B2)). rewrite E in Hs. injection Hs as ->.
  destruct G as (_ & _ & _ & Dz & _). destruct (Dz x y) as (Dzx & Dzy).
  assert (Ez := uniqueness_limite _ _ _ _ Hzx Dzx). assert (Ez' := uniqueness_limite _ _ _ _ Hzy Dzy). subst zx zy.
  destruct B0 as (q0 & f0 & g0 & Q0 & P0 & R0 & <-). destruct B1 as (q1 & f1 & g1 & Q1 & P1 & R1 & E1). destruct B2 as (q2 & f2 & g2 & Q2 & P2 & R2 & E2).
  assert (X0 := uniqueness_limite _ _ _ _ P0 Ha). assert (Y0 := uniqueness_limite _ _ _ _ R0 Hb).
  assert (X1 := uniqueness_limite _ _ _ _ P1 Hc). assert (Y1 := uniqueness_limite _ _ _ _ R1 Hd).
  assert (X2 := uniqueness_limite _ _ _ _ P2 He). assert (Y2 := uniqueness_limite _ _ _ _ R2 Hf). subst.
  unfold state_rate. cbn [c0 c1 c2]. split; [|split].
  - replace (- (a + b) + (q0 + a + b)) with q0 by ring. exact Q0.
  - match goal with |- partial_t _ _ _ _ ?r => replace r with q1 by lra end. exact Q1.
  - match goal with |- partial_t _ _ _ _ ?r => replace r with q2 by lra end. exact Q2.
Qed.

(** Solver: where the fluxes are exact, the right-hand side the solver computes (for steps of length zero) is
    the time derivative of the manufactured solution, for both back ends and both friction methods. *)
Theorem C63_solver_rate : forall s x y t src F tiny fr, given s -> 0 < f_val (s_h s) x y t -> flow_source_at s t (x, y) = Some src ->
  minus_divergence (f_val (s_h s)) (f_val (s_u s)) (f_val (s_v s)) x y t F -> has_friction fr ->
  (tiny <= f_val (s_h s) x y t -> exists d, petsc_rhs fr true 0 tiny (s_n s x y) (s_dzdx s x y) (s_dzdy s x y) (state_at s x y t) F src = Some d /\ state_rate s x y t d) /\
  (tiny < f_val (s_h s) x y t -> exists d, ceed_rhs fr true GRAVITY 0 tiny 0 (s_n s x y) (s_dzdx s x y) (s_dzdy s x y) (state_at s x y t) F src = Some d /\ state_rate s x y t d).
Proof.
  intros s x y t src F tiny fr G Hh Hs Hd Hf. assert (Rt := exact_rate s x y t src F G Hh Hs Hd). cbv zeta in Rt. split; intros Ht.
  - unfold petsc_rhs, petsc_source, state_at, bed_force. cbn [c0 c1 c2]. replace (tiny <=? f_val (s_h s) x y t) with true by (symmetry; apply Rleb_true; exact Ht).
    assert (X : forall bx by_, match fr with NoFriction => Some (0, 0) | SemiImplicit => petsc_semi_implicit 0 (s_n s x y) (state_at s x y t) F bx by_
      | XQ2018 thr => xq2018_friction GRAVITY 0 thr (s_n s x y) (state_at s x y t) F bx by_ end =
      Some (friction_force (s_n s x y) (f_val (s_h s) x y t) (f_val (s_u s) x y t) (f_val (s_v s) x y t) (f_val (s_u s) x y t), friction_force (s_n s x y) (f_val (s_h s) x y t) (f_val (s_u s) x y t) (f_val (s_v s) x y t) (f_val (s_v s) x y t))).
    { intros. destruct fr as [| |thr]; [contradiction|apply semi_implicit_zero; exact Hh|apply xq_zero; [exact Hh|exact Hf]]. }
    unfold state_at in X. rewrite X. cbn [obind]. eexists. split; [reflexivity|]. unfold vadd. cbn [c0 c1 c2].
    eapply eq_ind; [exact Rt|]. apply vec3_ext; cbn [c0 c1 c2]; ring.
  - unfold ceed_rhs, state_at, bed_force. cbn [c0 c1 c2]. replace (tiny <? f_val (s_h s) x y t) with true by (symmetry; apply Rltb_true; exact Ht).
    assert (X : forall bx by_, match fr with NoFriction => Some (0, 0) | SemiImplicit => ceed_semi_implicit GRAVITY 0 tiny 0 (s_n s x y) (state_at s x y t) F bx by_
      | XQ2018 thr => xq2018_friction GRAVITY 0 thr (s_n s x y) (state_at s x y t) F bx by_ end =
      Some (friction_force (s_n s x y) (f_val (s_h s) x y t) (f_val (s_u s) x y t) (f_val (s_v s) x y t) (f_val (s_u s) x y t), friction_force (s_n s x y) (f_val (s_h s) x y t) (f_val (s_u s) x y t) (f_val (s_v s) x y t) (f_val (s_v s) x y t))).
    { intros. destruct fr as [| |thr]; [contradiction|apply ceed_semi_implicit_zero; [exact Hh|exact Ht]|apply xq_zero; [exact Hh|exact Hf]]. }
    unfold state_at in X. rewrite X. cbn [obind]. eexists. split; [reflexivity|]. exact Rt.
Qed.
Print Assumptions C63_solver_rate.

(** Sediment in the solver *)
Theorem C63_solver_sediment_rate : forall s x y t src F tiny (srcs fs : nat -> R) i, given s -> 0 < f_val (s_h s) x y t ->
  flow_source_at s t (x, y) = Some src -> sediment_source_at s t i (x, y) = Some (srcs i) ->
  minus_divergence (f_val (s_h s)) (f_val (s_u s)) (f_val (s_v s)) x y t F ->
  tracer_minus_divergence (f_val (s_h s)) (f_val (s_u s)) (f_val (s_v s)) (f_val (s_c s i)) x y t (fs i) ->
  let q := TV (state_at s x y t) (fun j => f_val (s_h s) x y t * f_val (s_c s j) x y t) in
  let rate d := state_rate s x y t (tflow d) /\ partial_t (fun x y t => f_val (s_h s) x y t * f_val (s_c s i) x y t) x y t (ttr d i) in
  (tiny <= f_val (s_h s) x y t -> exists d, petsc_tracer_rhs true 0 tiny (s_n s x y) (s_dzdx s x y) (s_dzdy s x y) q (TV F fs) (TV src srcs) = Some d /\ rate d) /\
  (tiny < f_val (s_h s) x y t -> exists d, ceed_tracer_rhs true GRAVITY 0 tiny (s_n s x y) (s_dzdx s x y) (s_dzdy s x y) q (TV F fs) (TV src srcs) = Some d /\ rate d).
Proof.
  intros s x y t src F tiny srcs fs i G Hh Hs Hc Hd (a & b & Ha & Hb & Hr). cbv zeta.
  destruct (C63_sediment_sources s x y t i G Hh) as (sc & E & (qt & fx & gy & Qt & Px & Py & Eq)). rewrite E in Hc. injection Hc as Hc.
  assert (X := uniqueness_limite _ _ _ _ Px Ha). assert (Y := uniqueness_limite _ _ _ _ Py Hb). subst fx gy.
  set (h := f_val (s_h s) x y t) in *. set (u := f_val (s_u s) x y t) in *. set (v := f_val (s_v s) x y t) in *. set (n := s_n s x y) in *.
  assert (Tau : forall U V, U = u -> V = v -> tau_bed (GRAVITY * (n * n) * Rpower h (- (1/3))) U V = bed_stress n h u v).
  { intros U V -> ->. unfold tau_bed, bed_stress, rhow. field. }
  assert (Eu : h * u / h = u) by (field; lra). assert (Ev : h * v / h = v) by (field; lra).
  assert (Ec : h * f_val (s_c s i) x y t / h = f_val (s_c s i) x y t) by (field; lra).
  split; intros Ht.
  - destruct (C63_solver_rate s x y t src F tiny SemiImplicit G Hh Hs Hd I) as (P & _). destruct (P Ht) as (d & Ed & Rd).
    unfold petsc_tracer_rhs. cbn [tflow ttr depth]. unfold depth. cbn [tflow]. fold n in Ed. rewrite Ed. cbn [obind].
    unfold state_at. cbn [c0 c1 c2]. fold h u v. replace (tiny <=? h) with true by (symmetry; apply Rleb_true; exact Ht).
    rewrite !rdiv_some by lra. cbn [obind]. rewrite rpowneg_some by exact Hh. cbn [obind]. unfold rdivs. destruct (Req_EM_T h 0); [lra|]. cbn [obind].
    eexists. split; [reflexivity|]. cbn [tflow ttr]. split; [exact Rd|]. rewrite (Tau _ _ Eu Ev), Ec, <- Hc, Hr.
    match goal with |- partial_t _ _ _ _ ?r => replace r with qt; [exact Qt|] end.
    unfold erosion, deposition, kp_constant, settling_velocity, tau_critical_erosion, tau_critical_deposition. set (B := bed_stress n h u v) in *. cbv zeta in Eq. fold h u v n in Eq. fold B in Eq. lra.
  - assert (Rt := exact_rate s x y t src F G Hh Hs Hd). cbv zeta in Rt. fold h u v n in Rt.
    unfold ceed_tracer_rhs, depth. cbn [tflow ttr]. unfold state_at. cbn [c0 c1 c2]. fold h u v. replace (tiny <? h) with true by (symmetry; apply Rltb_true; exact Ht).
    unfold SafeDiv. replace (tiny <? h) with true by (symmetry; apply Rltb_true; exact Ht). rewrite !rdiv_some by lra. cbn [obind]. rewrite rpowneg_some by exact Hh. cbn [obind].
    rewrite rsqrt_some by apply squares_nonneg. cbn [obind]. rewrite rdiv_some by lra. cbn [obind]. rewrite rdiv_some by lra. cbn [obind]. unfold rdivs. destruct (Req_EM_T h 0); [lra|]. cbn [obind].
    eexists. split; [reflexivity|]. cbn [tflow ttr]. rewrite (Tau _ _ Eu Ev), Ec, <- Hc, Hr, Eu, Ev. split.
    + eapply eq_ind; [exact Rt|]. unfold bed_force, friction_force. rewrite sq_speed. apply vec3_ext; cbn [c0 c1 c2]; field; lra.
    + match goal with |- partial_t _ _ _ _ ?r => replace r with qt; [exact Qt|] end.
      unfold erosion, deposition, kp_constant, settling_velocity, tau_critical_erosion, tau_critical_deposition. set (B := bed_stress n h u v) in *. cbv zeta in Eq. fold h u v n in Eq. fold B in Eq. lra.
Qed.
Print Assumptions C63_solver_sediment_rate.
