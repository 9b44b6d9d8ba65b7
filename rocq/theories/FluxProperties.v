(** Properties of the shallow-water fluxes: C01 - C08. *)
From Verif Require Import Base RoeModel RoeProofs EdgeModel EdgeProofs.

(** ** Specification *)

(* The exact shallow-water flux of depth [h], velocity [(u,v)] through the unit normal
   [(cn,sn)]: mass h(u.n), momentum h u (u.n) + g h^2/2 n. *)
Definition exact_flux (g h u v sn cn : R) : vec3 :=
  let un := u * cn + v * sn in
  V3 (h * un) (h * u * un + g * h * h / 2 * cn) (h * v * un + g * h * h / 2 * sn).

Definition unit_normal (sn cn : R) : Prop := cn * cn + sn * sn = 1.
Definition nonneg_depth (q : vec3) : Prop := 0 <= c0 q.
Definition dirichlet_depth_nonneg (bc : bcond) : Prop :=
  match bc with BCDirichlet q => 0 <= c0 q | _ => True end.
(* the two sides of an edge as (h, u, v), at least one of them with water *)
Definition one_side_wet (L Rt : prim) : Prop := 0 <= ph L /\ 0 <= ph Rt /\ 0 < ph L + ph Rt.

(* Rotation of the momentum components by the angle with cosine co, sine si. *)
Definition rotate (co si : R) (v : vec3) : vec3 :=
  V3 (c0 v) (co * c1 v - si * c2 v) (si * c1 v + co * c2 v).
Definition neg (v : vec3) : vec3 := V3 (- c0 v) (- c1 v) (- c2 v).
(* component of a flux / velocity along the normal and along the tangent *)
Definition along (a b sn cn : R) : R := a * cn + b * sn.
Definition across (a b sn cn : R) : R := - a * sn + b * cn.

Lemma side_flux_exact g P sn cn : side_flux g P sn cn = exact_flux g (ph P) (pu P) (pv P) sn cn.
Proof. unfold side_flux, exact_flux. apply vec3_ext; cbn [c0 c1 c2]; field. Qed.
Lemma neg_vscal v : vscal (-1) v = neg v.
Proof. unfold vscal, neg. apply vec3_ext; cbn [c0 c1 c2]; ring. Qed.

(** ** C01 Edge fluxes are finite *)
Theorem C01_interior_edge_finite :
  forall tiny_h h_anuga qL qR sn cn dhv,
    0 < tiny_h -> nonneg_depth qL -> nonneg_depth qR ->
    (exists f a, petsc_interior_edge tiny_h h_anuga qL qR sn cn = Some (f, a)) /\
    (exists f a, ceed_interior_edge GRAVITY tiny_h h_anuga qL qR sn cn dhv = Some (f, a)).
Proof.
  intros tiny_h h_anuga qL qR sn cn dhv Ht Hl Hr; split.
  - rewrite petsc_interior_edge_some by assumption. destruct (_ && _)%bool; eauto.
  - rewrite ceed_interior_edge_some by (try apply GRAVITY_pos; try assumption; lra).
    destruct (_ || _)%bool; eauto.
Qed.
Print Assumptions C01_interior_edge_finite.

Theorem C01_boundary_edge_finite :
  forall tiny_h h_anuga bc qL sn cn dhv,
    0 < tiny_h -> nonneg_depth qL -> dirichlet_depth_nonneg bc ->
    (exists f a, petsc_boundary_edge tiny_h h_anuga bc qL sn cn = Some (f, a)) /\
    (exists f a, ceed_boundary_edge GRAVITY tiny_h h_anuga bc qL sn cn dhv = Some (f, a)).
Proof.
  intros tiny_h h_anuga bc qL sn cn dhv Ht Hl Hb; split.
  - exact (petsc_boundary_edge_some tiny_h h_anuga bc qL sn cn Ht Hl Hb).
  - exact (ceed_boundary_edge_some GRAVITY tiny_h h_anuga bc qL sn cn dhv GRAVITY_pos (Rlt_le _ _ Ht) Hl Hb).
Qed.
Print Assumptions C01_boundary_edge_finite.

(* Non-vacuity: a wet cell next to a dry one, a Dirichlet value of zero depth. *)
Example C01_example : 0 < 1/10 /\ nonneg_depth (V3 2 3 (-1)) /\ nonneg_depth (V3 0 0 0) /\
  dirichlet_depth_nonneg (BCDirichlet (V3 0 0 0)).
Proof. unfold nonneg_depth, dirichlet_depth_nonneg; cbn; lra. Qed.

(* What does not hold: the boundary flux recorded for output has no guard on the PETSc side, and
   on an edge of a dry cell it is 0/0 (then added to the accumulated flux), although the
   contribution to the time derivative is finite.  libCEED records zero there. *)
Theorem C01_recorded_boundary_flux_finite_refuted :
  exists tiny_h h_anuga qL sn cn,
    0 < tiny_h /\ nonneg_depth qL /\ unit_normal sn cn /\
    petsc_boundary_recorded tiny_h h_anuga BCReflecting qL sn cn = None /\
    (exists f a, petsc_boundary_edge tiny_h h_anuga BCReflecting qL sn cn = Some (f, a)) /\
    ceed_boundary_edge GRAVITY tiny_h h_anuga BCReflecting qL sn cn 0 = Some (vzero, 0).
Proof.
  exists 1, 0, (V3 0 0 0), 0, 1. unfold nonneg_depth, unit_normal; cbn [c0].
  split; [lra|]. split; [lra|]. split; [lra|]. split; [apply petsc_recorded_dry; lra|]. split.
  - apply petsc_boundary_edge_some; cbn; lra.
  - unfold ceed_boundary_edge; cbn [c0].
    assert (E : Rltb 1 0 = false) by (apply Rltb_false; lra). rewrite E. reflexivity.
Qed.
Print Assumptions C01_recorded_boundary_flux_finite_refuted.

(** ** C02 Consistency *)
Theorem C02_flux_consistent :
  forall tiny_h q sn cn,
    0 < tiny_h -> tiny_h < c0 q ->
    (exists a, petsc_interior_edge tiny_h 0 q q sn cn
               = Some (exact_flux GRAVITY (c0 q) (c1 q / c0 q) (c2 q / c0 q) sn cn, a)) /\
    (exists a, ceed_interior_edge GRAVITY tiny_h 0 q q sn cn 0
               = Some (exact_flux GRAVITY (c0 q) (c1 q / c0 q) (c2 q / c0 q) sn cn, a)).
Proof.
  intros tiny_h q sn cn Ht Hh.
  rewrite <- (side_flux_exact GRAVITY (Prim (c0 q) (c1 q / c0 q) (c2 q / c0 q))). split.
  - apply petsc_interior_consistent; lra.
  - apply ceed_interior_consistent; try apply GRAVITY_pos; lra.
Qed.
Print Assumptions C02_flux_consistent.

(* The Riemann solver itself, for any velocities. *)
Theorem C02_riemann_solver_consistent :
  forall P sn cn, 0 < ph P ->
    exists a, petsc_roe_flux P P sn cn = Some (exact_flux GRAVITY (ph P) (pu P) (pv P) sn cn, a).
Proof.
  intros P sn cn Hp. rewrite petsc_roe_flux_some by (unfold wetpair; lra).
  rewrite pflux_consistent by (try apply GRAVITY_pos; exact Hp). rewrite side_flux_exact. eauto.
Qed.
Print Assumptions C02_riemann_solver_consistent.

Example C02_example : 0 < 1/10 /\ 1/10 < c0 (V3 2 3 (-1)).
Proof. cbn; lra. Qed.

(** ** C03 Orientation and axes *)
Theorem C03_orientation :
  forall tiny_h h_anuga qL qR sn cn dhv,
    0 < tiny_h -> nonneg_depth qL -> nonneg_depth qR ->
    petsc_interior_edge tiny_h h_anuga qR qL (- sn) (- cn)
    = option_map (fun r => (neg (fst r), snd r)) (petsc_interior_edge tiny_h h_anuga qL qR sn cn) /\
    ceed_interior_edge GRAVITY tiny_h h_anuga qR qL (- sn) (- cn) (- dhv)
    = option_map (fun r => (neg (fst r), snd r)) (ceed_interior_edge GRAVITY tiny_h h_anuga qL qR sn cn dhv).
Proof.
  intros tiny_h h_anuga qL qR sn cn dhv Ht Hl Hr.
  rewrite petsc_interior_reverse, ceed_interior_reverse by (try apply GRAVITY_pos; try assumption; lra).
  unfold oneg. split.
  - destruct (petsc_interior_edge _ _ _ _ _ _) as [[f a]|]; cbn [option_map fst snd]; [rewrite neg_vscal|]; reflexivity.
  - destruct (ceed_interior_edge _ _ _ _ _ _ _ _) as [[f a]|]; cbn [option_map fst snd]; [rewrite neg_vscal|]; reflexivity.
Qed.
Print Assumptions C03_orientation.

Theorem C03_rotation :
  forall tiny_h h_anuga qL qR sn cn co si dhv,
    0 < tiny_h -> nonneg_depth qL -> nonneg_depth qR -> co * co + si * si = 1 ->
    petsc_interior_edge tiny_h h_anuga (rotate co si qL) (rotate co si qR) (si * cn + co * sn) (co * cn - si * sn)
    = option_map (fun r => (rotate co si (fst r), snd r)) (petsc_interior_edge tiny_h h_anuga qL qR sn cn) /\
    ceed_interior_edge GRAVITY tiny_h h_anuga (rotate co si qL) (rotate co si qR) (si * cn + co * sn) (co * cn - si * sn) dhv
    = option_map (fun r => (rotate co si (fst r), snd r)) (ceed_interior_edge GRAVITY tiny_h h_anuga qL qR sn cn dhv).
Proof.
  intros tiny_h h_anuga qL qR sn cn co si dhv Ht Hl Hr Hu. split.
  - exact (petsc_interior_rotate tiny_h h_anuga qL qR sn cn co si Ht Hl Hr Hu).
  - exact (ceed_interior_rotate GRAVITY tiny_h h_anuga qL qR sn cn co si dhv GRAVITY_pos (Rlt_le _ _ Ht) Hl Hr Hu).
Qed.
Print Assumptions C03_rotation.

Example C03_example : 0 < 1/10 /\ nonneg_depth (V3 2 3 (-1)) /\ nonneg_depth (V3 1 0 4) /\
  (3/5) * (3/5) + (4/5) * (4/5) = 1.
Proof. unfold nonneg_depth; cbn; lra. Qed.

(** ** C04 Exact linearisation and full upwinding *)

(* Roe-averaged normal velocity and celerity *)
Definition roe_speed (L Rt : prim) (sn cn : R) : R :=
  (sqrt (ph L) * along (pu L) (pv L) sn cn + sqrt (ph Rt) * along (pu Rt) (pv Rt) sn cn)
  / (sqrt (ph L) + sqrt (ph Rt)).
Definition roe_celerity (g : R) (L Rt : prim) : R := sqrt (g * (ph L + ph Rt) / 2).

Lemma roe_celerity_chat g L Rt : roe_celerity g L Rt = chat g L Rt.
Proof. unfold roe_celerity, chat. f_equal. field. Qed.

Lemma roe_speed_uperp L Rt sn cn : one_side_wet L Rt -> roe_speed L Rt sn cn = uperp L Rt sn cn.
Proof. intros Hw. rewrite (uperp_avg L Rt sn cn Hw). reflexivity. Qed.

(* The difference of the exact fluxes of the two states is the sum over the three waves of
   (signed Roe speed) x (wave strength) x (eigenvector), both back ends. *)
Theorem C04_roe_linearisation :
  forall L Rt sn cn,
    one_side_wet L Rt -> unit_normal sn cn ->
    exists s, petsc_eigenspectrum L Rt sn cn = Some s /\ ceed_eigenspectrum GRAVITY L Rt sn cn = Some s /\
      let up := roe_speed L Rt sn cn in let c := roe_celerity GRAVITY L Rt in
      let expand row := c0 row * (up - c) * c0 (dW s) + c1 row * up * c1 (dW s) + c2 row * (up + c) * c2 (dW s) in
      let FL := exact_flux GRAVITY (ph L) (pu L) (pv L) sn cn in
      let FR := exact_flux GRAVITY (ph Rt) (pu Rt) (pv Rt) sn cn in
      c0 FR - c0 FL = expand (row0 s) /\ c1 FR - c1 FL = expand (row1 s) /\ c2 FR - c2 FL = expand (row2 s).
Proof.
  intros L Rt sn cn Hw Hu. exists (pspec GRAVITY L Rt sn cn).
  split; [exact (petsc_eigenspectrum_some L Rt sn cn Hw)|].
  split; [exact (ceed_eigenspectrum_some GRAVITY L Rt sn cn GRAVITY_pos Hw)|].
  cbv zeta. rewrite <- !side_flux_exact, roe_celerity_chat.
  rewrite (roe_speed_uperp L Rt sn cn Hw).
  exact (roe_linearisation GRAVITY L Rt sn cn GRAVITY_pos Hw Hu).
Qed.
Print Assumptions C04_roe_linearisation.

(* The sonic correction is inactive: 2 ((u.n -/+ c)_R - (u.n -/+ c)_L) does not exceed the speed. *)
Definition correction_inactive (g : R) (L Rt : prim) (sn cn : R) : Prop :=
  let up := roe_speed L Rt sn cn in let c := roe_celerity g L Rt in
  let nl := along (pu L) (pv L) sn cn in let nr := along (pu Rt) (pv Rt) sn cn in
  2 * ((nr - sqrt (g * ph Rt)) - (nl - sqrt (g * ph L))) <= Rabs (up - c) /\
  2 * ((nr + sqrt (g * ph Rt)) - (nl + sqrt (g * ph L))) <= Rabs (up + c).

Theorem C04_full_upwind :
  forall L Rt sn cn,
    one_side_wet L Rt -> unit_normal sn cn -> correction_inactive GRAVITY L Rt sn cn ->
    (roe_celerity GRAVITY L Rt <= roe_speed L Rt sn cn ->
     exists a, petsc_roe_flux L Rt sn cn = Some (exact_flux GRAVITY (ph L) (pu L) (pv L) sn cn, a)) /\
    (roe_speed L Rt sn cn <= - roe_celerity GRAVITY L Rt ->
     exists a, petsc_roe_flux L Rt sn cn = Some (exact_flux GRAVITY (ph Rt) (pu Rt) (pv Rt) sn cn, a)).
Proof.
  intros L Rt sn cn Hw Hu Hf.
  rewrite petsc_roe_flux_some by exact Hw. rewrite roe_celerity_chat.
  unfold correction_inactive in Hf. cbv zeta in Hf.
  rewrite (roe_speed_uperp L Rt sn cn Hw) in *. rewrite roe_celerity_chat in Hf.
  split; intros Hs.
  - exists (chat GRAVITY L Rt + Rabs (uperp L Rt sn cn)). rewrite <- side_flux_exact.
    rewrite pflux_upwind_left; [reflexivity|apply GRAVITY_pos|exact Hw|exact Hu|lra|exact Hf].
  - exists (chat GRAVITY L Rt + Rabs (uperp L Rt sn cn)). rewrite <- side_flux_exact.
    rewrite pflux_upwind_right; [reflexivity|apply GRAVITY_pos|exact Hw|exact Hu|lra|exact Hf].
Qed.
Print Assumptions C04_full_upwind.

(* Non-vacuity: equal depths, supercritical flow, slightly decelerating. *)
Example C04_example :
  let L := Prim 1 100 0 in let Rt := Prim 1 99 0 in
  one_side_wet L Rt /\ unit_normal 0 1 /\ correction_inactive GRAVITY L Rt 0 1 /\
  roe_celerity GRAVITY L Rt <= roe_speed L Rt 0 1.
Proof.
  cbv zeta. unfold one_side_wet, unit_normal, correction_inactive, roe_speed, roe_celerity, along; cbn [ph pu pv].
  rewrite sqrt_1. replace (GRAVITY * (1 + 1) / 2) with GRAVITY by field. rewrite Rmult_1_r.
  assert (H : 0 <= sqrt GRAVITY) by apply sqrt_pos.
  assert (H2 : sqrt GRAVITY * sqrt GRAVITY = GRAVITY) by (apply sqrt_sqrt; apply Rlt_le, GRAVITY_pos).
  assert (H10 : sqrt GRAVITY <= 10) by (unfold GRAVITY in *; nra).
  assert (P1 := Rabs_pos ((1 * (100 * 1 + 0 * 0) + 1 * (99 * 1 + 0 * 0)) / (1 + 1) - sqrt GRAVITY)).
  assert (P2 := Rabs_pos ((1 * (100 * 1 + 0 * 0) + 1 * (99 * 1 + 0 * 0)) / (1 + 1) + sqrt GRAVITY)).
  repeat split; lra.
Qed.

(** ** C05 Sonic correction and reported wave speed *)
Theorem C05_correction_only_adds_dissipation :
  forall L Rt sn cn,
    one_side_wet L Rt ->
    exists s, petsc_eigenspectrum L Rt sn cn = Some s /\
      let up := roe_speed L Rt sn cn in let c := roe_celerity GRAVITY L Rt in
      Rabs (up - c) <= c0 (lam s) /\ Rabs up <= c1 (lam s) /\ Rabs (up + c) <= c2 (lam s) /\
      (* transonic rarefaction: the wave speed goes from negative on the left to positive on the right *)
      (along (pu L) (pv L) sn cn - sqrt (GRAVITY * ph L) < 0 < along (pu Rt) (pv Rt) sn cn - sqrt (GRAVITY * ph Rt) ->
       0 < c0 (lam s)) /\
      (along (pu L) (pv L) sn cn + sqrt (GRAVITY * ph L) < 0 < along (pu Rt) (pv Rt) sn cn + sqrt (GRAVITY * ph Rt) ->
       0 < c2 (lam s)).
Proof.
  intros L Rt sn cn Hw. exists (pspec GRAVITY L Rt sn cn).
  split; [exact (petsc_eigenspectrum_some L Rt sn cn Hw)|]. cbv zeta.
  rewrite roe_celerity_chat, (roe_speed_uperp L Rt sn cn Hw).
  unfold pspec, along; cbn [lam c0 c1 c2]. fold (unorm L sn cn) (unorm Rt sn cn).
  split; [apply pfix_ge, Rabs_pos|]. split; [lra|]. split; [apply pfix_ge, Rabs_pos|]. split; intros H.
  - eapply Rlt_le_trans; [|apply pfix_rarefaction; [apply Rabs_pos|lra]]. lra.
  - eapply Rlt_le_trans; [|apply pfix_rarefaction; [apply Rabs_pos|lra]]. lra.
Qed.
Print Assumptions C05_correction_only_adds_dissipation.

Theorem C05_reported_speed_bounds_roe_waves :
  forall L Rt sn cn f a,
    one_side_wet L Rt -> petsc_roe_flux L Rt sn cn = Some (f, a) ->
    let up := roe_speed L Rt sn cn in let c := roe_celerity GRAVITY L Rt in
    Rabs (up - c) <= a /\ Rabs up <= a /\ Rabs (up + c) <= a.
Proof.
  intros L Rt sn cn f a Hw E. rewrite petsc_roe_flux_some in E by exact Hw. injection E as <- <-.
  cbv zeta. rewrite roe_celerity_chat, (roe_speed_uperp L Rt sn cn Hw).
  exact (amax_bounds GRAVITY L Rt sn cn GRAVITY_pos Hw).
Qed.
Print Assumptions C05_reported_speed_bounds_roe_waves.

(* The reported speed does not bound the corrected speeds actually used in the flux: at a wet/dry
   front the flux uses 9/8 sqrt(g h) while the Courant number is computed with sqrt(g h / 2). *)
Theorem C05_reported_speed_bounds_used_speeds_refuted :
  exists L Rt sn cn s,
    one_side_wet L Rt /\ unit_normal sn cn /\ petsc_eigenspectrum L Rt sn cn = Some s /\
    amax s < c0 (lam s).
Proof.
  exists (Prim 1 0 0), (Prim 0 0 0), 0, 1, (pspec GRAVITY (Prim 1 0 0) (Prim 0 0 0) 0 1).
  assert (Hw : wetpair (Prim 1 0 0) (Prim 0 0 0)) by (unfold wetpair; cbn [ph]; lra).
  split; [exact Hw|]. split; [unfold unit_normal; lra|].
  split; [exact (petsc_eigenspectrum_some _ _ _ _ Hw)|].
  destruct (wetdry GRAVITY 1 GRAVITY_pos Rlt_0_1) as (El & Ea & _).
  change (amax (pspec GRAVITY (Prim 1 0 0) (Prim 0 0 0) 0 1))
    with (chat GRAVITY (Prim 1 0 0) (Prim 0 0 0) + Rabs (uperp (Prim 1 0 0) (Prim 0 0 0) 0 1)).
  rewrite El, Ea. cbn [c0]. assert (Hg := GRAVITY_pos).
  assert (Hc : 0 < sqrt (GRAVITY * 1)) by (apply sqrt_lt_R0; lra).
  assert (H2 : 0 < sqrt 2) by (apply sqrt_lt_R0; lra).
  assert (H22 : sqrt 2 * sqrt 2 = 2) by (apply sqrt_sqrt; lra).
  apply Rmult_lt_reg_r with (sqrt 2); [exact H2|].
  replace (sqrt (GRAVITY * 1) / sqrt 2 * sqrt 2) with (sqrt (GRAVITY * 1)) by (field; lra).
  assert (1 < sqrt 2) by nra. nra.
Qed.
Print Assumptions C05_reported_speed_bounds_used_speeds_refuted.

Example C05_example : one_side_wet (Prim 1 (-1) 0) (Prim 2 8 3).
Proof. unfold one_side_wet; cbn; lra. Qed.

(** ** C06 Reflecting wall *)
Theorem C06_wall_passes_no_water :
  forall tiny_h h_anuga qL sn cn dhv,
    0 < tiny_h -> nonneg_depth qL -> unit_normal sn cn ->
    (exists f a, petsc_boundary_edge tiny_h h_anuga BCReflecting qL sn cn = Some (f, a) /\
                 c0 f = 0 /\ across (c1 f) (c2 f) sn cn = 0) /\
    (exists f a, ceed_boundary_edge GRAVITY tiny_h h_anuga BCReflecting qL sn cn dhv = Some (f, a) /\
                 c0 f = 0 /\ across (c1 f) (c2 f) sn cn = 0).
Proof.
  intros tiny_h h_anuga qL sn cn dhv Ht Hh Hu. split.
  - exact (petsc_reflecting_no_mass tiny_h h_anuga qL sn cn Ht Hh Hu).
  - exact (ceed_reflecting_no_mass GRAVITY tiny_h h_anuga qL sn cn dhv GRAVITY_pos (Rlt_le _ _ Ht) Hh Hu).
Qed.
Print Assumptions C06_wall_passes_no_water.

Theorem C06_mirror_state :
  forall L sn cn, unit_normal sn cn ->
    let M := petsc_reflect L sn cn in
    ph M = ph L /\ along (pu M) (pv M) sn cn = - along (pu L) (pv L) sn cn /\
    across (pu M) (pv M) sn cn = across (pu L) (pv L) sn cn.
Proof.
  intros L sn cn Hu. split; [reflexivity|]. split.
  - exact (reflect_normal L sn cn Hu).
  - exact (reflect_tangent L sn cn Hu).
Qed.
Print Assumptions C06_mirror_state.

(* Water that does not move towards or away from the wall feels exactly the hydrostatic pressure. *)
Theorem C06_wall_pressure :
  forall tiny_h qL sn cn,
    0 < tiny_h -> tiny_h <= c0 qL -> unit_normal sn cn -> along (c1 qL) (c2 qL) sn cn = 0 ->
    exists a, petsc_boundary_edge tiny_h 0 BCReflecting qL sn cn
              = Some (V3 0 (GRAVITY * c0 qL * c0 qL / 2 * cn) (GRAVITY * c0 qL * c0 qL / 2 * sn), a).
Proof.
  intros tiny_h qL sn cn Ht Hh Hu Hn.
  destruct (petsc_reflecting_edge tiny_h 0 qL sn cn Ht Hh Hu) as (f & a & E & F0 & _ & F).
  exists a. rewrite E. destruct F as [F1 F2].
  { rewrite pvel_wet by exact Hh. unfold unorm; cbn [pu pv]. rewrite !vel_plain by lra.
    unfold along in Hn. transitivity ((c1 qL * cn + c2 qL * sn) / c0 qL); [field; lra|rewrite Hn; field; lra]. }
  f_equal. f_equal. apply vec3_ext; cbn [c0 c1 c2]; [exact F0|rewrite F1; field|rewrite F2; field].
Qed.
Print Assumptions C06_wall_pressure.

Example C06_example : 0 < 1/10 /\ 1/10 <= c0 (V3 2 3 (-1)) /\ unit_normal (4/5) (3/5) /\
  along (-4/5 * 7) (3/5 * 7) (4/5) (3/5) = 0.
Proof. unfold unit_normal, along; cbn; lra. Qed.

(** ** C07 Critical outflow *)

(* The exterior state is critical and carries the interior discharge. *)
Theorem C07_exterior_state_critical :
  forall L sn cn, unit_normal sn cn -> 0 <= ph L -> 0 <= along (pu L) (pv L) sn cn ->
    exists Rt, petsc_outflow L sn cn = Some (L, Rt) /\ 0 <= ph Rt /\
      along (pu Rt) (pv Rt) sn cn = sqrt (GRAVITY * ph Rt) /\ across (pu Rt) (pv Rt) sn cn = 0 /\
      ph Rt * along (pu Rt) (pv Rt) sn cn = ph L * along (pu L) (pv L) sn cn.
Proof. exact (fun L sn cn Hu Hh Hn => petsc_outflow_out L sn cn Hu Hh Hn). Qed.
Print Assumptions C07_exterior_state_critical.

(* PETSc back end: water never enters, at least the interior discharge leaves, and nothing at all
   crosses when the interior flow points inwards. *)
Theorem C07_petsc_outflow_never_in :
  forall tiny_h qL sn cn,
    0 < tiny_h -> nonneg_depth qL -> unit_normal sn cn ->
    exists f a, petsc_boundary_edge tiny_h 0 BCCriticalOutflow qL sn cn = Some (f, a) /\
      0 <= c0 f /\
      (tiny_h <= c0 qL -> 0 <= along (c1 qL) (c2 qL) sn cn -> along (c1 qL) (c2 qL) sn cn <= c0 f) /\
      (tiny_h <= c0 qL -> along (c1 qL) (c2 qL) sn cn < 0 -> f = vzero).
Proof.
  intros tiny_h qL sn cn Ht Hh Hu.
  destruct (petsc_outflow_edge tiny_h 0 qL sn cn Ht Hh Hu) as (f & a & E & F1 & F2 & F3).
  destruct (petsc_outflow_never_in tiny_h 0 qL sn cn Ht Hh Hu) as (f' & a' & E' & F').
  rewrite E in E'. injection E' as <- <-.
  exists f, a. split; [exact E|]. split; [exact F'|].
  assert (Hun : tiny_h <= c0 qL -> c0 qL * unorm (pvel tiny_h 0 qL) sn cn = along (c1 qL) (c2 qL) sn cn).
  { intros Hw. rewrite pvel_wet by exact Hw. unfold unorm, along; cbn [pu pv]. rewrite !vel_plain by lra. field. lra. }
  split; intros Hw Hn; specialize (Hun Hw).
  - rewrite <- Hun. apply F2; [|exact Hw].
    rewrite <- Hun in Hn. nra.
  - apply F1. rewrite <- Hun in Hn. nra.
Qed.
Print Assumptions C07_petsc_outflow_never_in.

Example C07_example : 0 < 1/10 /\ nonneg_depth (V3 2 3 (-1)) /\ unit_normal (4/5) (3/5) /\
  0 <= along 3 (-1) (4/5) (3/5).
Proof. unfold nonneg_depth, unit_normal, along; cbn; lra. Qed.

(* libCEED back end: a dry cell with residual outward momentum draws water IN through a
   critical-outflow boundary. *)
Theorem C07_ceed_outflow_never_in_refuted :
  exists tiny_h h_anuga qL sn cn f a,
    0 < tiny_h /\ nonneg_depth qL /\ unit_normal sn cn /\ 0 < along (c1 qL) (c2 qL) sn cn /\
    ceed_boundary_edge GRAVITY tiny_h h_anuga BCCriticalOutflow qL sn cn 0 = Some (f, a) /\ c0 f < 0.
Proof.
  assert (Ht : 0 < 1/2) by lra. assert (Ht1 : 1/2 < 1) by lra.
  exists (1/2), 0.
  assert (Hk : 0 < sqrt GRAVITY) by (apply sqrt_lt_R0, GRAVITY_pos).
  destruct (ceed_outflow_dry_inflow (1/2) 0 Ht Ht1) as (q & f & a & H1 & H2 & H3 & H4 & _).
  exists q, 0, 1, f, a. unfold nonneg_depth, unit_normal, along.
  repeat split; try lra; assumption.
Qed.
Print Assumptions C07_ceed_outflow_never_in_refuted.

(** ** C08 Both back ends compute the same *)

(* Equal contributions unless a depth is exactly at the dry threshold (interior, Dirichlet and
   reflecting edges); on outflow edges without velocity regularisation and away from the dry
   threshold.  Partial: the equality fails in the cases refuted below. *)
Theorem C08_backends_agree_partial :
  forall tiny_h h_anuga qL qR sn cn,
    0 < tiny_h -> nonneg_depth qL -> nonneg_depth qR -> c0 qL <> tiny_h -> c0 qR <> tiny_h ->
    ceed_interior_edge GRAVITY tiny_h h_anuga qL qR sn cn 0 = petsc_interior_edge tiny_h h_anuga qL qR sn cn /\
    ceed_boundary_edge GRAVITY tiny_h h_anuga (BCDirichlet qR) qL sn cn 0
      = petsc_boundary_edge tiny_h h_anuga (BCDirichlet qR) qL sn cn /\
    ceed_boundary_edge GRAVITY tiny_h h_anuga BCReflecting qL sn cn 0
      = petsc_boundary_edge tiny_h h_anuga BCReflecting qL sn cn /\
    (tiny_h < c0 qL ->
     (* reversed flow, or a critical exterior depth above the threshold *)
     along (c1 qL) (c2 qL) sn cn < 0 \/
     GRAVITY * (tiny_h * tiny_h * tiny_h) < along (c1 qL) (c2 qL) sn cn * along (c1 qL) (c2 qL) sn cn ->
     ceed_boundary_edge GRAVITY tiny_h 0 BCCriticalOutflow qL sn cn 0
       = petsc_boundary_edge tiny_h 0 BCCriticalOutflow qL sn cn).
Proof.
  intros tiny_h h_anuga qL qR sn cn Ht Hl Hr Nl Nr.
  split; [exact (interior_backends_agree tiny_h h_anuga qL qR sn cn Ht Hl Hr Nl Nr)|].
  split; [exact (dirichlet_backends_agree tiny_h h_anuga qL qR sn cn Ht Hl Hr Nl Nr)|].
  split; [exact (reflecting_backends_agree tiny_h h_anuga qL sn cn Ht Hl Nl)|].
  exact (outflow_backends_agree tiny_h qL sn cn Ht).
Qed.
Print Assumptions C08_backends_agree_partial.

Example C08_example : 0 < 1/10 /\ nonneg_depth (V3 2 3 (-1)) /\ nonneg_depth (V3 0 0 0) /\
  c0 (V3 2 3 (-1)) <> 1/10 /\ c0 (V3 0 0 0) <> 1/10 /\ along 3 (-1) 1 0 < 0.
Proof. unfold nonneg_depth, along; cbn; lra. Qed.

(* At a depth exactly equal to the threshold PETSc moves water and libCEED does not. *)
Theorem C08_backends_agree_refuted :
  exists tiny_h h_anuga qL qR sn cn,
    0 < tiny_h /\ nonneg_depth qL /\ nonneg_depth qR /\ unit_normal sn cn /\
    petsc_interior_edge tiny_h h_anuga qL qR sn cn <> ceed_interior_edge GRAVITY tiny_h h_anuga qL qR sn cn 0.
Proof.
  exists 1, 0, (V3 1 0 0), (V3 0 0 0), 0, 1. unfold nonneg_depth, unit_normal; cbn [c0].
  destruct (backends_differ_at_threshold 1 0 Rlt_0_1) as (f & a & E1 & Hf & E2).
  repeat split; try lra. rewrite E1, E2. intros H. injection H as -> ->. cbn in Hf. lra.
Qed.
Print Assumptions C08_backends_agree_refuted.

(* On an outflow boundary of a dry cell with residual momentum they differ as well. *)
Theorem C08_outflow_backends_agree_refuted :
  exists tiny_h h_anuga qL sn cn f a,
    0 < tiny_h /\ c0 qL = 0 /\ unit_normal sn cn /\
    petsc_boundary_edge tiny_h h_anuga BCCriticalOutflow qL sn cn = Some (vzero, 0) /\
    ceed_boundary_edge GRAVITY tiny_h h_anuga BCCriticalOutflow qL sn cn 0 = Some (f, a) /\ c0 f <> 0.
Proof.
  assert (Ht : 0 < 1/2) by lra. assert (Ht1 : 1/2 < 1) by lra.
  destruct (ceed_outflow_dry_inflow (1/2) 0 Ht Ht1) as (q & f & a & H1 & _ & H2 & H3 & H4).
  exists (1/2), 0, q, 0, 1, f, a. unfold unit_normal.
  repeat split; try lra; assumption.
Qed.
Print Assumptions C08_outflow_backends_agree_refuted.
