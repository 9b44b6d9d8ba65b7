From Verif Require Import Base RoeModel RoeProofs EdgeModel EdgeProofs SourceModel AssemblyModel AssemblyProofs MusclModel.

(* how often cell [c] is an end of edge [e] *)
Definition ends (c : nat) (e : iedge) : R := (if Nat.eqb c (ie_l e) then 1 else 0) + (if Nat.eqb c (ie_r e) then 1 else 0).
Lemma ends_nonneg c e : 0 <= ends c e.
Proof. unfold ends. destruct (Nat.eqb _ _), (Nat.eqb _ _); lra. Qed.

Section Acc.
  Context {V : Type} (add : V -> V -> V) (p : V -> R) (p_add : forall a b, p (add a b) = p a + p b).
  Lemma fold_ends (tl tr : iedge -> V) es : forall f c,
    p (fold_left (fun g e => add_at add (add_at add g (ie_l e) (tl e)) (ie_r e) (tr e)) es f c)
    = p (f c) + rsum (fun e => (if Nat.eqb c (ie_l e) then p (tl e) else 0) + (if Nat.eqb c (ie_r e) then p (tr e) else 0)) es.
  Proof.
    induction es as [|e t IH]; intros f c; cbn [fold_left rsum]; [ring|]. rewrite IH.
    rewrite (add_at_val add p p_add), (add_at_val add p p_add). ring.
  Qed.
End Acc.

Lemma ls_matrix_val G es c :
  m00 (ls_matrix G es c) = rsum (fun e => ends c e * ls_weight G e * px (disp G e) * px (disp G e)) es /\
  m01 (ls_matrix G es c) = rsum (fun e => ends c e * ls_weight G e * px (disp G e) * py (disp G e)) es /\
  m11 (ls_matrix G es c) = rsum (fun e => ends c e * ls_weight G e * py (disp G e) * py (disp G e)) es.
Proof.
  unfold ls_matrix. split; [|split].
  - rewrite (fold_ends madd m00 (fun _ _ => eq_refl) (ls_term G) (ls_term G)). cbn [m00]. rewrite Rplus_0_l. apply rsum_ext. intros e _. unfold ends; cbn. destruct (Nat.eqb _ _), (Nat.eqb _ _); ring.
  - rewrite (fold_ends madd m01 (fun _ _ => eq_refl) (ls_term G) (ls_term G)). cbn [m01]. rewrite Rplus_0_l. apply rsum_ext. intros e _. unfold ends; cbn. destruct (Nat.eqb _ _), (Nat.eqb _ _); ring.
  - rewrite (fold_ends madd m11 (fun _ _ => eq_refl) (ls_term G) (ls_term G)). cbn [m11]. rewrite Rplus_0_l. apply rsum_ext. intros e _. unfold ends; cbn. destruct (Nat.eqb _ _), (Nat.eqb _ _); ring.
Qed.
Lemma ls_gradients_val G es q c :
  let inv := ls_inverse (ls_matrix G es c) in
  let sx := rsum (fun e => ends c e * ls_weight G e * px (disp G e) * (q (ie_r e) - q (ie_l e))) es in
  let sy := rsum (fun e => ends c e * ls_weight G e * py (disp G e) * (q (ie_r e) - q (ie_l e))) es in
  px (ls_gradients G es q c) = m00 inv * sx + m01 inv * sy /\ py (ls_gradients G es q c) = m01 inv * sx + m11 inv * sy.
Proof.
  intros inv sx sy. unfold ls_gradients. split.
  - rewrite (fold_ends padd px (fun _ _ => eq_refl) (fun e => pscal (q (ie_r e) - q (ie_l e)) (ls_coeff G (ls_inverse (ls_matrix G es (ie_l e))) e))
       (fun e => pscal (q (ie_r e) - q (ie_l e)) (ls_coeff G (ls_inverse (ls_matrix G es (ie_r e))) e))).
    cbn [px]. unfold sx, sy. rewrite Rplus_0_l, <- !rsum_scal, <- rsum_plus. apply rsum_ext. intros e _.
    unfold ends, pscal, ls_coeff; cbn [px py]. destruct (Nat.eqb_spec c (ie_l e)) as [<-|], (Nat.eqb_spec c (ie_r e)) as [<-|]; fold inv; ring.
  - rewrite (fold_ends padd py (fun _ _ => eq_refl) (fun e => pscal (q (ie_r e) - q (ie_l e)) (ls_coeff G (ls_inverse (ls_matrix G es (ie_l e))) e))
       (fun e => pscal (q (ie_r e) - q (ie_l e)) (ls_coeff G (ls_inverse (ls_matrix G es (ie_r e))) e))).
    cbn [py]. unfold sx, sy. rewrite Rplus_0_l, <- !rsum_scal, <- rsum_plus. apply rsum_ext. intros e _.
    unfold ends, pscal, ls_coeff; cbn [px py]. destruct (Nat.eqb_spec c (ie_l e)) as [<-|], (Nat.eqb_spec c (ie_r e)) as [<-|]; fold inv; ring.
Qed.

Lemma degenerate_pos : 0 < degenerate_det.
Proof. unfold degenerate_det. apply Rinv_0_lt_compat, pow_lt. lra. Qed.

Lemma ls_linear G es q c b d : (forall k, q k = q 0%nat + b * (px (centroid G k) - px (centroid G 0%nat)) + d * (py (centroid G k) - py (centroid G 0%nat))) ->
  degenerate_det <= Rabs (sdet (ls_matrix G es c)) -> ls_gradients G es q c = Pt b d.
Proof.
  intros Hq Hd. destruct (ls_gradients_val G es q c) as (Hx & Hy). destruct (ls_matrix_val G es c) as (M0 & M1 & M2).
  assert (Hp := degenerate_pos).
  assert (Hn : sdet (ls_matrix G es c) <> 0) by (intros E; rewrite E, Rabs_R0 in Hd; lra).
  set (M := ls_matrix G es c) in *.
  assert (Q : forall e, q (ie_r e) - q (ie_l e) = b * px (disp G e) + d * py (disp G e)).
  { intros e. rewrite (Hq (ie_r e)), (Hq (ie_l e)). unfold disp; cbn. ring. }
  assert (SX : rsum (fun e => ends c e * ls_weight G e * px (disp G e) * (q (ie_r e) - q (ie_l e))) es = b * m00 M + d * m01 M).
  { rewrite M0, M1, <- !rsum_scal, <- rsum_plus. apply rsum_ext. intros e _. rewrite Q. ring. }
  assert (SY : rsum (fun e => ends c e * ls_weight G e * py (disp G e) * (q (ie_r e) - q (ie_l e))) es = b * m01 M + d * m11 M).
  { rewrite M1, M2, <- !rsum_scal, <- rsum_plus. apply rsum_ext. intros e _. rewrite Q. ring. }
  rewrite SX, SY in Hx, Hy. unfold ls_inverse in Hx, Hy.
  assert (G0 : Rltb (Rabs (sdet M)) degenerate_det = false) by (apply Rltb_false; lra). rewrite G0 in Hx, Hy. cbn [MusclModel.m00 MusclModel.m01 MusclModel.m11] in Hx, Hy.
  destruct (ls_gradients G es q c) as [gx gy]. cbn [px py] in *. f_equal.
  - rewrite Hx. unfold sdet in *. field. exact Hn.
  - rewrite Hy. unfold sdet in *. field. exact Hn.
Qed.
Lemma ls_constant G es q c v : (forall k, q k = v) -> ls_gradients G es q c = Pt 0 0.
Proof.
  intros Hq. destruct (ls_gradients_val G es q c) as (Hx & Hy).
  assert (Z : forall f : iedge -> R, rsum (fun e => f e * (q (ie_r e) - q (ie_l e))) es = 0) by (intros f; apply rsum_zero; intros e _; rewrite !Hq; ring).
  rewrite (Z (fun e => ends c e * ls_weight G e * px (disp G e))), (Z (fun e => ends c e * ls_weight G e * py (disp G e))) in Hx, Hy.
  destruct (ls_gradients G es q c) as [gx gy]. cbn [px py] in *. f_equal; [rewrite Hx|rewrite Hy]; ring.
Qed.

(* Lagrange's identity *)
Lemma rsum_mult {A B} (f : A -> R) (g : B -> R) la lb : rsum f la * rsum g lb = rsum (fun a => rsum (fun b => f a * g b) lb) la.
Proof. induction la as [|a t IH]; cbn [rsum]; [ring|]. rewrite <- IH, rsum_scal. ring. Qed.
Lemma lagrange {A} (w x y : A -> R) l :
  2 * (rsum (fun a => w a * x a * x a) l * rsum (fun a => w a * y a * y a) l - rsum (fun a => w a * x a * y a) l * rsum (fun a => w a * x a * y a) l)
  = rsum (fun a => rsum (fun b => w a * w b * ((x a * y b - x b * y a) * (x a * y b - x b * y a))) l) l.
Proof.
  replace (2 * (rsum (fun a => w a * x a * x a) l * rsum (fun a => w a * y a * y a) l - rsum (fun a => w a * x a * y a) l * rsum (fun a => w a * x a * y a) l))
    with (rsum (fun a => w a * x a * x a) l * rsum (fun a => w a * y a * y a) l + rsum (fun a => w a * y a * y a) l * rsum (fun a => w a * x a * x a) l
          + (-2) * (rsum (fun a => w a * x a * y a) l * rsum (fun a => w a * x a * y a) l)) by ring.
  rewrite !rsum_mult, <- rsum_scal, <- !rsum_plus. apply rsum_ext. intros a _. rewrite <- rsum_scal, <- !rsum_plus. apply rsum_ext. intros b _. ring.
Qed.
Lemma weight_pos G e : (px (disp G e) <> 0 \/ py (disp G e) <> 0) -> 0 < ls_weight G e.
Proof.
  intros H. unfold ls_weight. set (x := px (disp G e)) in *. set (y := py (disp G e)) in *.
  assert (P : 0 < x * x + y * y) by (destruct H; nra). assert (S := sqrt_lt_R0 _ P).
  assert (E : Rltb 0 (sqrt (x * x + y * y)) = true) by (apply Rltb_true; exact S). rewrite E. apply Rdiv_lt_0_compat; lra.
Qed.
Lemma weight_nonneg G e : 0 <= ls_weight G e.
Proof.
  unfold ls_weight. set (d := sqrt _). destruct (Rltb 0 d) eqn:E; [|lra]. apply Rltb_true in E. apply Rlt_le, Rdiv_lt_0_compat; lra.
Qed.
Lemma rsum_in_pos {A} (f : A -> R) l a : (forall b, In b l -> 0 <= f b) -> In a l -> 0 < f a -> 0 < rsum f l.
Proof.
  induction l as [|b t IH]; intros H Hi Hp; [destruct Hi|]. cbn [rsum]. destruct Hi as [->|Hi].
  - assert (0 <= rsum f t) by (apply rsum_nonneg; intros; apply H; right; assumption). lra.
  - assert (0 <= f b) by (apply H; left; reflexivity). assert (0 < rsum f t) by (apply IH; auto; intros; apply H; right; assumption). lra.
Qed.
Lemma det_lagrange G es c :
  2 * sdet (ls_matrix G es c) = rsum (fun a => rsum (fun b => ends c a * ls_weight G a * (ends c b * ls_weight G b)
     * ((px (disp G a) * py (disp G b) - px (disp G b) * py (disp G a)) * (px (disp G a) * py (disp G b) - px (disp G b) * py (disp G a)))) es) es.
Proof.
  destruct (ls_matrix_val G es c) as (M0 & M1 & M2). unfold sdet. rewrite M0, M1, M2.
  exact (lagrange (fun e => ends c e * ls_weight G e) (fun e => px (disp G e)) (fun e => py (disp G e)) es).
Qed.
Lemma det_nonneg G es c : 0 <= sdet (ls_matrix G es c).
Proof.
  assert (L := det_lagrange G es c). enough (0 <= 2 * sdet (ls_matrix G es c)) by lra. rewrite L.
  apply rsum_nonneg. intros a _. apply rsum_nonneg. intros b _.
  apply Rmult_le_pos; [|apply Rle_0_sqr]. apply Rmult_le_pos; apply Rmult_le_pos; auto using ends_nonneg, weight_nonneg.
Qed.
Lemma det_pos G es c e1 e2 : In e1 es -> In e2 es -> (ie_l e1 = c \/ ie_r e1 = c) -> (ie_l e2 = c \/ ie_r e2 = c) ->
  px (disp G e1) * py (disp G e2) - px (disp G e2) * py (disp G e1) <> 0 -> 0 < sdet (ls_matrix G es c).
Proof.
  intros I1 I2 C1 C2 H. assert (L := det_lagrange G es c). enough (0 < 2 * sdet (ls_matrix G es c)) by lra. rewrite L.
  assert (NN : forall a b, 0 <= ends c a * ls_weight G a * (ends c b * ls_weight G b)
     * ((px (disp G a) * py (disp G b) - px (disp G b) * py (disp G a)) * (px (disp G a) * py (disp G b) - px (disp G b) * py (disp G a)))).
  { intros a b. apply Rmult_le_pos; [|apply Rle_0_sqr]. apply Rmult_le_pos; apply Rmult_le_pos; auto using ends_nonneg, weight_nonneg. }
  assert (EP : forall e, (ie_l e = c \/ ie_r e = c) -> 0 < ends c e).
  { intros e [<-|<-]; unfold ends; rewrite Nat.eqb_refl; destruct (Nat.eqb _ _); lra. }
  apply (rsum_in_pos _ es e1); [intros; apply rsum_nonneg; intros; apply NN|exact I1|].
  apply (rsum_in_pos _ es e2); [intros; apply NN|exact I2|].
  set (x1 := px (disp G e1)) in *. set (y1 := py (disp G e1)) in *. set (x2 := px (disp G e2)) in *. set (y2 := py (disp G e2)) in *.
  assert (W1 : 0 < ls_weight G e1). { apply weight_pos. fold x1 y1. destruct (Req_EM_T x1 0); [right|left; assumption]. intros Z. apply H. rewrite e, Z. ring. }
  assert (W2 : 0 < ls_weight G e2). { apply weight_pos. fold x2 y2. destruct (Req_EM_T x2 0); [right|left; assumption]. intros Z. apply H. rewrite e, Z. ring. }
  apply Rmult_lt_0_compat; [|set (z := x1 * y2 - x2 * y1) in *; nra].
  apply Rmult_lt_0_compat; apply Rmult_lt_0_compat; auto.
Qed.

(** Limiters *)
Lemma VanLeer_safe a b : a * b <= 0 \/ a + b <> 0.
Proof. destruct (Rle_dec (a * b) 0); [left; assumption|right; nra]. Qed.
Lemma Minmod_range a b : (0 <= b -> 0 <= Minmod a b <= b) /\ (b <= 0 -> b <= Minmod a b <= 0).
Proof.
  unfold Minmod. destruct (Rleb (a * b) 0) eqn:E; [lra|]. apply Rleb_false in E.
  destruct (Rltb (Rabs a) (Rabs b)) eqn:F; [|split; nra]. apply Rltb_true in F.
  destruct (Rabs_cases a) as [(A1 & A2)|(A1 & A2)], (Rabs_cases b) as [(B1 & B2)|(B1 & B2)]; rewrite A2, B2 in F; split; nra.
Qed.
Lemma VanLeer_range a b : (0 <= b -> 0 <= VanLeer a b <= 2 * b) /\ (b <= 0 -> 2 * b <= VanLeer a b <= 0).
Proof.
  unfold VanLeer. destruct (Rleb (a * b) 0) eqn:E; [lra|]. apply Rleb_false in E.
  assert (N : a + b <> 0) by nra. set (z := 2 * a * b / (a + b)). assert (Hz : z * (a + b) = 2 * a * b) by (unfold z; field; exact N).
  split; intros Hb; assert (0 < a /\ 0 < b \/ a < 0 /\ b < 0) as [(Ha & Hb')|(Ha & Hb')] by (destruct (Rlt_dec 0 a); [left|right]; nra); try lra; split; nra.
Qed.
