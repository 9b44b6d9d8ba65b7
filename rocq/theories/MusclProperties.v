(** C20, C21: second-order reconstruction. *)
From Verif Require Import Base RoeModel RoeProofs EdgeModel EdgeProofs FluxProperties SourceModel AssemblyModel AssemblyProofs MusclModel MusclProofs.

(** ** Specification *)
(* the field a + b x + d y sampled at the cell centroids *)
Definition linear_field (G : geometry) (a b d : R) (c : nat) : R := a + b * px (centroid G c) + d * py (centroid G c).
(* [c] has two neighbours seen in directions that are not parallel *)
Definition surrounded (G : geometry) (es : list iedge) (c : nat) : Prop :=
  exists e1 e2, In e1 es /\ In e2 es /\ (ie_l e1 = c \/ ie_r e1 = c) /\ (ie_l e2 = c \/ ie_r e2 = c) /\
    px (disp G e1) * py (disp G e2) - px (disp G e2) * py (disp G e1) <> 0.
(* least-squares matrix of [c]: sum over its neighbours of (d d^T)/|d|, d the vector between centroids *)
Definition ls_det (G : geometry) (es : list iedge) (c : nat) : R :=
  let S f := rsum (fun e => ends c e * ls_weight G e * f (disp G e)) es in
  S (fun d => px d * px d) * S (fun d => py d * py d) - S (fun d => px d * py d) * S (fun d => px d * py d).

Lemma ls_det_sdet G es c : ls_det G es c = sdet (ls_matrix G es c).
Proof.
  destruct (ls_matrix_val G es c) as (M0 & M1 & M2). unfold ls_det, sdet. rewrite M0, M1, M2.
  f_equal; f_equal; apply rsum_ext; intros; ring.
Qed.

(** ** C20 *)
(* Exact for linear fields in every cell whose least-squares matrix has determinant at least 1e-15;
   the determinant is positive exactly when the cell is surrounded.  Missing: surrounded cells with a
   determinant in (0, 1e-15), see the refutation below. *)
Theorem C20_gradients_exact_for_linear_fields_partial :
  forall G es a b d c, / 10 ^ 15 <= ls_det G es c -> ls_gradients G es (linear_field G a b d) c = Pt b d.
Proof.
  intros G es a b d c H. apply ls_linear.
  - intros k. unfold linear_field. ring.
  - rewrite <- ls_det_sdet, Rabs_right; [exact H|]. assert (P := degenerate_pos). unfold degenerate_det in P. lra.
Qed.
Print Assumptions C20_gradients_exact_for_linear_fields_partial.

Theorem C20_surrounded_cells_are_determined :
  forall G es c, surrounded G es c <-> 0 < ls_det G es c.
Proof.
  intros G es c. rewrite ls_det_sdet. split.
  - intros (e1 & e2 & I1 & I2 & C1 & C2 & H). exact (det_pos G es c e1 e2 I1 I2 C1 C2 H).
  - intros H. assert (L := det_lagrange G es c).
    assert (P : rsum (fun a => rsum (fun b => ends c a * ls_weight G a * (ends c b * ls_weight G b)
       * ((px (disp G a) * py (disp G b) - px (disp G b) * py (disp G a)) * (px (disp G a) * py (disp G b) - px (disp G b) * py (disp G a)))) es) es <> 0) by lra.
    assert (X : forall (f : iedge -> R) l, rsum f l <> 0 -> exists e, In e l /\ f e <> 0).
    { intros f l. induction l as [|e t IH]; cbn [rsum]; intros N; [congruence|]. destruct (Req_EM_T (f e) 0) as [Z|Z].
      - destruct IH as (e' & I & N'); [lra|]. exists e'. split; [right; exact I|exact N'].
      - exists e. split; [left; reflexivity|exact Z]. }
    destruct (X _ _ P) as (e1 & I1 & N1). destruct (X _ _ N1) as (e2 & I2 & N2). exists e1, e2. split; [exact I1|]. split; [exact I2|].
    assert (E : forall e, ends c e <> 0 -> ie_l e = c \/ ie_r e = c).
    { intros e He. unfold ends in He. destruct (Nat.eqb_spec c (ie_l e)); [left; congruence|]. destruct (Nat.eqb_spec c (ie_r e)); [right; congruence|]. lra. }
    split; [apply E; intros Z; apply N2; rewrite Z; ring|]. split; [apply E; intros Z; apply N2; rewrite Z; ring|].
    intros Z. apply N2. rewrite Z. ring.
Qed.
Print Assumptions C20_surrounded_cells_are_determined.

(* A constant field has zero gradient in every cell, determined or not. *)
Theorem C20_constant_field_has_zero_gradient :
  forall G es v c, ls_gradients G es (fun _ => v) c = Pt 0 0.
Proof. intros. apply (ls_constant G es _ c v). reflexivity. Qed.
Print Assumptions C20_constant_field_has_zero_gradient.

(* Gradients are linear in the field: no interaction between components or states. *)
Theorem C20_gradients_are_linear :
  forall G es q r s c,
    px (ls_gradients G es (fun k => q k + s * r k) c) = px (ls_gradients G es q c) + s * px (ls_gradients G es r c) /\
    py (ls_gradients G es (fun k => q k + s * r k) c) = py (ls_gradients G es q c) + s * py (ls_gradients G es r c).
Proof.
  intros G es q r s c.
  assert (S : forall f : iedge -> R, rsum (fun e => f e * (q (ie_r e) + s * r (ie_r e) - (q (ie_l e) + s * r (ie_l e)))) es
     = rsum (fun e => f e * (q (ie_r e) - q (ie_l e))) es + s * rsum (fun e => f e * (r (ie_r e) - r (ie_l e))) es).
  { intros f. rewrite <- rsum_scal, <- rsum_plus. apply rsum_ext. intros; ring. }
  destruct (ls_gradients_val G es (fun k => q k + s * r k) c) as (X1 & Y1). destruct (ls_gradients_val G es q c) as (X2 & Y2). destruct (ls_gradients_val G es r c) as (X3 & Y3).
  rewrite X1, Y1, X2, Y2, X3, Y3. cbv beta.
  rewrite (S (fun e => ends c e * ls_weight G e * px (disp G e))), (S (fun e => ends c e * ls_weight G e * py (disp G e))). split; ring.
Qed.
Print Assumptions C20_gradients_are_linear.

(* Three cells in an L shape; [s] is their spacing. *)
Definition corner (s : R) : geometry :=
  Geometry (fun c => match c with O => Pt 0 0 | S O => Pt s 0 | _ => Pt 0 s end) (fun e => match ie_r e with S O => Pt (s/2) 0 | _ => Pt 0 (s/2) end).
Definition corner_edges : list iedge := [IEdge 0 1 1 0 1; IEdge 0 2 1 1 0].
Lemma corner_det s : 0 < s -> ls_det (corner s) corner_edges 0%nat = s * s.
Proof.
  intros Hs. unfold ls_det, ls_weight, ends, corner_edges, disp, corner; cbn.
  replace ((s - 0) * (s - 0) + (0 - 0) * (0 - 0)) with (s * s) by ring. replace ((0 - 0) * (0 - 0) + (s - 0) * (s - 0)) with (s * s) by ring.
  rewrite sqrt_square by lra. assert (G : Rltb 0 s = true) by (apply Rltb_true; exact Hs). rewrite G. field. lra.
Qed.
Example C20_example : surrounded (corner 1) corner_edges 0%nat /\ / 10 ^ 15 <= ls_det (corner 1) corner_edges 0%nat.
Proof.
  split.
  - apply C20_surrounded_cells_are_determined. rewrite corner_det by lra. lra.
  - rewrite corner_det by lra. assert (H : 10 ^ 15 >= 1) by (cbn; lra). apply Rle_trans with (/ 1); [apply Rinv_le_contravar; lra|rewrite Rinv_1; lra].
Qed.

(* Cells closer together than about 3e-8 length units are treated as degenerate: their gradient is
   zero although the cell is surrounded (the cut-off is not relative to the size of the cells). *)
Theorem C20_small_cells_refuted :
  exists G es c a b d, surrounded G es c /\ b = 1 /\ ls_gradients G es (linear_field G a b d) c = Pt 0 0.
Proof.
  assert (Hs : 0 < / 10 ^ 8) by (apply Rinv_0_lt_compat, pow_lt; lra).
  exists (corner (/ 10 ^ 8)), corner_edges, 0%nat, 0, 1, 0. split; [|split; [reflexivity|]].
  - apply C20_surrounded_cells_are_determined. rewrite corner_det by exact Hs. apply Rmult_lt_0_compat; exact Hs.
  - set (G := corner (/ 10 ^ 8)). destruct (ls_gradients_val G corner_edges (linear_field G 0 1 0) 0%nat) as (X & Y).
    assert (I : ls_inverse (ls_matrix G corner_edges 0%nat) = Sym2 0 0 0).
    { unfold ls_inverse. rewrite <- ls_det_sdet. unfold G. rewrite corner_det by exact Hs.
      assert (L : Rltb (Rabs (/ 10 ^ 8 * / 10 ^ 8)) degenerate_det = true).
      { apply Rltb_true. rewrite Rabs_right by (apply Rle_ge, Rmult_le_pos; lra). unfold degenerate_det.
        rewrite <- Rinv_mult. rewrite <- pow_add. apply Rinv_lt_contravar; [apply Rmult_lt_0_compat; apply pow_lt; lra|].
        apply Rlt_pow; [lra|]. cbn; lia. }
      rewrite L. reflexivity. }
    rewrite I in X, Y. cbn [m00 m01 m11] in X, Y. destruct (ls_gradients _ _ _ _) as [gx gy]. cbn [px py] in X, Y. f_equal; [rewrite X|rewrite Y]; ring.
Qed.
Print Assumptions C20_small_cells_refuted.

(** ** C21 *)
Definition between (x a b : R) : Prop := Rmin a b <= x <= Rmax a b.
Lemma between_up x a b : (a <= b -> a <= x <= b) -> (b <= a -> b <= x <= a) -> between x a b.
Proof.
  intros H1 H2. unfold between. destruct (Rle_dec a b).
  - rewrite Rmin_left, Rmax_right by assumption. auto. - rewrite Rmin_right, Rmax_left by lra. apply H2; lra.
Qed.

(* Any gradient whatsoever, any cell values, any geometry. *)
(* Which limiter is used: the option for van Leer always wins, then a request for none, then the configuration. *)
Theorem C21_limiter_choice :
  forall cfg cfg_no opt_no opt_vl,
    let used := resolve_limiter cfg cfg_no opt_no opt_vl in
    (used = LimVanLeer <-> opt_vl = true \/ (cfg_no = false /\ opt_no = false /\ cfg = LimVanLeer)) /\
    (used = LimNone <-> opt_vl = false /\ (cfg_no = true \/ opt_no = true \/ cfg = LimNone)) /\
    (used = LimMinmod <-> opt_vl = false /\ cfg_no = false /\ opt_no = false /\ cfg = LimMinmod).
Proof.
  intros [] [] [] []; cbn; intuition (congruence || auto).
Qed.
Print Assumptions C21_limiter_choice.
Theorem C21_minmod_within_half_jump :
  forall G g q e,
    between (face_left LimMinmod G g q e) (q (ie_l e)) ((q (ie_l e) + q (ie_r e)) / 2) /\
    between (face_right LimMinmod G g q e) (q (ie_r e)) ((q (ie_l e) + q (ie_r e)) / 2).
Proof.
  intros G g q e. unfold face_left, face_right; cbn [LimitSlope]. set (a := q (ie_l e)). set (b := q (ie_r e)).
  destruct (Minmod_range (extrapolate G g e (ie_l e)) (1/2 * (b - a))) as (A1 & A2). destruct (Minmod_range (extrapolate G g e (ie_r e)) (- (1/2) * (b - a))) as (B1 & B2).
  split; apply between_up; intros H; lra.
Qed.
Print Assumptions C21_minmod_within_half_jump.
Theorem C21_limited_face_values_between_cells :
  forall lim G g q e, lim = LimMinmod \/ lim = LimVanLeer ->
    between (face_left lim G g q e) (q (ie_l e)) (q (ie_r e)) /\ between (face_right lim G g q e) (q (ie_l e)) (q (ie_r e)).
Proof.
  intros lim G g q e [->| ->]; unfold face_left, face_right; cbn [LimitSlope]; set (a := q (ie_l e)); set (b := q (ie_r e)).
  - destruct (Minmod_range (extrapolate G g e (ie_l e)) (1/2 * (b - a))) as (A1 & A2). destruct (Minmod_range (extrapolate G g e (ie_r e)) (- (1/2) * (b - a))) as (B1 & B2).
    split; apply between_up; intros H; lra.
  - destruct (VanLeer_range (extrapolate G g e (ie_l e)) (1/2 * (b - a))) as (A1 & A2). destruct (VanLeer_range (extrapolate G g e (ie_r e)) (- (1/2) * (b - a))) as (B1 & B2).
    split; apply between_up; intros H; lra.
Qed.
Print Assumptions C21_limited_face_values_between_cells.

(* Depths: never negative, whatever the limiter; and with a limiter, non-negative cell depths need no
   clamping (the face depth is itself between the two cell depths). *)
Theorem C21_face_depths :
  forall lim G es u e,
    let q := face_states lim G es u e in
    0 <= c0 (fst q) /\ 0 <= c0 (snd q) /\
    ((lim = LimMinmod \/ lim = LimVanLeer) -> 0 <= c0 (u (ie_l e)) -> 0 <= c0 (u (ie_r e)) ->
       between (c0 (fst q)) (c0 (u (ie_l e))) (c0 (u (ie_r e))) /\ between (c0 (snd q)) (c0 (u (ie_l e))) (c0 (u (ie_r e)))).
Proof.
  intros lim G es u e. unfold face_states; cbn [fst snd c0]. split; [apply Rmax_l|]. split; [apply Rmax_l|]. intros Hl H1 H2.
  destruct (C21_limited_face_values_between_cells lim G (ls_gradients G es (fun c => comp 0 (u c))) (fun c => comp 0 (u c)) e Hl) as (B1 & B2).
  cbn [comp] in *. assert (M : 0 <= Rmin (c0 (u (ie_l e))) (c0 (u (ie_r e)))) by (apply Rmin_glb; assumption).
  set (fl := face_left _ _ _ _ _) in *. set (fr := face_right _ _ _ _ _) in *. destruct B1 as (B1 & B1'). destruct B2 as (B2 & B2').
  rewrite (Rmax_right 0 fl), (Rmax_right 0 fr) by lra. rewrite (Rmax_right 0 fl), (Rmax_right 0 fr) by lra. split; split; assumption.
Qed.
Print Assumptions C21_face_depths.

(* A constant state (non-negative depth) is reconstructed exactly, with any limiter or none. *)
Theorem C21_constant_state_exact :
  forall lim G es v e, 0 <= c0 v -> face_states lim G es (fun _ => v) e = (v, v).
Proof.
  intros lim G es v e Hv.
  assert (K : forall w c, face_left lim G (ls_gradients G es (fun _ => w)) (fun _ => w) c = w /\ face_right lim G (ls_gradients G es (fun _ => w)) (fun _ => w) c = w).
  { intros w c. unfold face_left, face_right, extrapolate. rewrite !C20_constant_field_has_zero_gradient. cbn [px py].
    destruct lim; cbn [LimitSlope].
    - unfold Minmod. assert (E : forall x y, Rleb ((0 * x + 0 * y) * (1/2 * (w - w))) 0 = true) by (intros; apply Rleb_true; lra).
      assert (F : forall x y, Rleb ((0 * x + 0 * y) * (- (1/2) * (w - w))) 0 = true) by (intros; apply Rleb_true; lra). rewrite E, F. split; ring.
    - unfold VanLeer. assert (E : forall x y, Rleb ((0 * x + 0 * y) * (1/2 * (w - w))) 0 = true) by (intros; apply Rleb_true; lra).
      assert (F : forall x y, Rleb ((0 * x + 0 * y) * (- (1/2) * (w - w))) 0 = true) by (intros; apply Rleb_true; lra). rewrite E, F. split; ring.
    - split; ring. }
  unfold face_states. cbn [comp]. destruct (K (c0 v) e) as (-> & ->). destruct (K (c1 v) e) as (-> & ->). destruct (K (c2 v) e) as (-> & ->).
  rewrite !(Rmax_right 0 (c0 v)) by exact Hv. destruct v; reflexivity.
Qed.
Print Assumptions C21_constant_state_exact.

(* Without limiter, a linear state is reconstructed exactly at the edge midpoint (second order). *)
Theorem C21_unlimited_linear_state_exact :
  forall G es a b d e, / 10 ^ 15 <= ls_det G es (ie_l e) -> / 10 ^ 15 <= ls_det G es (ie_r e) ->
    let q := linear_field G a b d in
    let exact := a + b * px (midpoint G e) + d * py (midpoint G e) in
    face_left LimNone G (ls_gradients G es q) q e = exact /\ face_right LimNone G (ls_gradients G es q) q e = exact.
Proof.
  intros G es a b d e H1 H2 q exact. unfold face_left, face_right, extrapolate; cbn [LimitSlope]. unfold q.
  rewrite !C20_gradients_exact_for_linear_fields_partial by assumption. cbn [px py]. unfold linear_field, exact. split; ring.
Qed.
Print Assumptions C21_unlimited_linear_state_exact.

(* the limiters are not constant: minmod and van Leer pass a slope on *)
Example C21_example : Minmod 1 2 = 1 /\ Minmod 3 2 = 2 /\ Minmod (-1) 2 = 0 /\ VanLeer 1 3 = 3/2.
Proof.
  unfold Minmod, VanLeer.
  repeat match goal with
  | |- context [Rleb ?a ?b] => first [assert (E : Rleb a b = true) by (apply Rleb_true; lra) | assert (E : Rleb a b = false) by (apply Rleb_false; lra)]; rewrite E; clear E
  end.
  rewrite !Rabs_right by lra.
  repeat match goal with
  | |- context [Rltb ?a ?b] => first [assert (E : Rltb a b = true) by (apply Rltb_true; lra) | assert (E : Rltb a b = false) by (apply Rltb_false; lra)]; rewrite E; clear E
  end. repeat split; lra.
Qed.

(** ** Second-order edges: finite (C01), and the same on both code paths (C08) *)
(* Whatever the cell values (even negative depths), geometry and limiter. *)
Theorem C01_second_order_edge_finite :
  forall lim G es tiny_h h_anuga dhv dhvb fr g u e, 0 < tiny_h ->
    (exists fl fr' a, s_interior (petsc_2r_scheme lim G es tiny_h h_anuga fr g) u e = Some (fl, fr', a)) /\
    (exists fl fr' a, s_interior (ceed_2r_scheme lim G es tiny_h h_anuga dhv dhvb fr g) u e = Some (fl, fr', a)).
Proof.
  intros lim G es tiny ha dhv dhvb fr g u e Ht. cbn [s_interior petsc_2r_scheme ceed_2r_scheme].
  destruct (C21_face_depths lim G es u e) as (H1 & H2 & _). set (q := face_states lim G es u e) in *.
  destruct (C01_interior_edge_finite tiny ha (fst q) (snd q) (ie_sn e) (ie_cn e) (dhv u e) Ht H1 H2) as ((f & a & E) & (f' & a' & E')).
  rewrite E, E'. cbn. split; eauto.
Qed.
Print Assumptions C01_second_order_edge_finite.

Theorem C08_second_order_agree_partial :
  forall lim G es tiny_h h_anuga dhvb fr g u e, 0 < tiny_h ->
    c0 (fst (face_states lim G es u e)) <> tiny_h -> c0 (snd (face_states lim G es u e)) <> tiny_h ->
    s_interior (ceed_2r_scheme lim G es tiny_h h_anuga (fun _ _ => 0) dhvb fr g) u e
      = s_interior (petsc_2r_scheme lim G es tiny_h h_anuga fr g) u e.
Proof.
  intros lim G es tiny ha dhvb fr g u e Ht N1 N2. cbn [s_interior petsc_2r_scheme ceed_2r_scheme].
  destruct (C21_face_depths lim G es u e) as (H1 & H2 & _). set (q := face_states lim G es u e) in *.
  destruct (C08_backends_agree_partial tiny ha (fst q) (snd q) (ie_sn e) (ie_cn e) Ht H1 H2 N1 N2) as (E & _). rewrite E. reflexivity.
Qed.
Print Assumptions C08_second_order_agree_partial.

(* A uniform state gets the first-order flux: the second-order scheme keeps every first-order result
   about uniform states (in particular C02). *)
Theorem C21_uniform_state_first_order_flux :
  forall lim G es tiny_h h_anuga dhv dhvb fr g v e, 0 <= c0 v ->
    s_interior (petsc_2r_scheme lim G es tiny_h h_anuga fr g) (fun _ => v) e = s_interior (petsc_scheme tiny_h h_anuga fr g) (fun _ => v) e /\
    s_interior (ceed_2r_scheme lim G es tiny_h h_anuga dhv dhvb fr g) (fun _ => v) e = s_interior (ceed_scheme tiny_h h_anuga dhv dhvb fr g) (fun _ => v) e.
Proof.
  intros lim G es tiny ha dhv dhvb fr g v e Hv. cbn [s_interior petsc_2r_scheme ceed_2r_scheme petsc_scheme ceed_scheme].
  rewrite C21_constant_state_exact by exact Hv. split; reflexivity.
Qed.
Print Assumptions C21_uniform_state_first_order_flux.
Example C21_uniform_example : 0 <= c0 (V3 1 2 3) /\ face_states LimMinmod (corner 1) corner_edges (fun _ => V3 1 2 3) (IEdge 0 1 1 0 1) = (V3 1 2 3, V3 1 2 3).
Proof. split; [cbn; lra|]. apply C21_constant_state_exact. cbn; lra. Qed.
