(** Level of a partly wet triangle in terms of the height of the middle (d) and highest (D) vertex above
    the lowest one. *)
From Verif Require Import Base RoeModel EtaModel.

Definition lvl (d D h : R) : R :=
  if Rle_dec ((2 * D - d) / 3) h then (d + D) / 3 + h
  else if Rle_dec (3 * D * h) (d * d) then cbrt (3 * h * d * D)
  else (- D + sqrt (D * D + 4 * D * d + 12 * D * h)) / 2.

Lemma eta_cell_wet tiny z1 z2 z3 h : z1 <= z2 -> z2 <= z3 -> 0 <= tiny -> tiny < h ->
  eta_cell tiny z1 z2 z3 h = Some (z1 + lvl (z2 - z1) (z3 - z1) h).
Proof.
  intros H12 H23 Ht Hh. unfold eta_cell, lvl. set (d := z2 - z1). set (D := z3 - z1).
  assert (G : Rleb h tiny = false) by (apply Rleb_false; lra). rewrite G.
  assert (Eh3 : z3 - (z1 + z2 + z3) / 3 = (2 * D - d) / 3) by (unfold D, d; field).
  assert (E2 : exists h2, (if z2 <? z3 then rdiv (d * d) (3 * D) else Some (z3 - (z1 + z2 + z3) / 3)) = Some h2
       /\ 3 * D * h2 = d * d /\ (z2 = z3 -> h2 = (2 * D - d) / 3)).
  { destruct (Rlt_dec z2 z3) as [L|L].
    - assert (G2 : Rltb z2 z3 = true) by (apply Rltb_true; exact L). rewrite G2. rewrite rdiv_some by (unfold D; lra).
      eexists. split; [reflexivity|]. split; [unfold D, d; field; lra|lra].
    - assert (G2 : Rltb z2 z3 = false) by (apply Rltb_false; lra). rewrite G2. assert (z2 = z3) by lra. eexists. split; [reflexivity|].
      rewrite Eh3. unfold D, d. subst z3. split; [field|intros _; field]. }
  destruct E2 as (h2 & -> & Q & Qe). cbn [obind]. rewrite Eh3.
  destruct (Rle_dec ((2 * D - d) / 3) h) as [A|A].
  { assert (G3 : Rleb ((2 * D - d) / 3) h = true) by (apply Rleb_true; exact A). rewrite G3. f_equal. unfold D, d. field. }
  assert (G3 : Rleb ((2 * D - d) / 3) h = false) by (apply Rleb_false; lra). rewrite G3.
  assert (G4 : Rltb 0 h = true) by (apply Rltb_true; lra). rewrite G4. cbn [andb].
  assert (HD : 0 < D) by (unfold D, d in *; lra). assert (Hd : 0 <= d) by (unfold d; lra).
  destruct (Rle_dec (3 * D * h) (d * d)) as [B|B].
  - assert (G5 : Rleb h h2 = true) by (apply Rleb_true; apply Rmult_le_reg_l with (3 * D); lra). rewrite G5.
    rewrite rcbrt_some; [reflexivity|]. fold d D. apply Rmult_le_pos; [|lra]. apply Rmult_le_pos; lra.
  - assert (G5 : Rleb h h2 = false) by (apply Rleb_false; apply Rmult_lt_reg_l with (3 * D); lra). rewrite G5.
    assert (G6 : Rltb h2 h = true) by (apply Rltb_true; apply Rmult_lt_reg_l with (3 * D); lra). rewrite G6.
    assert (G7 : Rltb h ((2 * D - d) / 3) = true) by (apply Rltb_true; lra). rewrite G7. cbn [andb].
    replace ((z3 - 3 * z1) * (z3 - 3 * z1) - 4 * (z1 * z2 + z1 * z1 - z3 * z2 - 3 * h * D)) with (D * D + 4 * D * d + 12 * D * h) by (unfold D, d; ring).
    rewrite rsqrt_some by (assert (0 <= D * d) by (apply Rmult_le_pos; lra); assert (0 < D * h) by (apply Rmult_lt_0_compat; lra); nra).
    cbn [obind]. f_equal. set (r := sqrt _). clearbody r. unfold D. field.
Qed.
Lemma eta_cell_dry tiny z1 z2 z3 h : z1 <= z2 -> z2 <= z3 -> h <= tiny -> eta_cell tiny z1 z2 z3 h = Some z1.
Proof.
  intros H12 H23 Hh. unfold eta_cell. assert (G : Rleb h tiny = true) by (apply Rleb_true; lra). rewrite G.
  destruct (Rlt_dec z2 z3).
  - assert (G2 : Rltb z2 z3 = true) by (apply Rltb_true; lra). rewrite G2, rdiv_some by lra. reflexivity.
  - assert (G2 : Rltb z2 z3 = false) by (apply Rltb_false; lra). rewrite G2. reflexivity.
Qed.

(* the depth that belongs to a level, as the code inverts it *)
Definition dep (d D t : R) : R :=
  if Rle_dec D t then t - (d + D) / 3
  else if Rle_dec d t then (t * t + D * t - D * d) / (3 * D)
  else t * t * t / (3 * d * D).

Lemma cube_mono x y : 0 <= x -> x < y -> x * x * x < y * y * y.
Proof. intros Hx H. assert (x * x < y * y) by nra. assert (0 <= x * x) by nra. nra. Qed.
Lemma cube_le x y : 0 <= x -> 0 <= y -> x * x * x <= y * y * y -> x <= y.
Proof. intros Hx Hy H. destruct (Rle_dec x y) as [L|L]; [exact L|]. assert (y * y * y < x * x * x) by (apply cube_mono; lra). lra. Qed.

(* the regimes of [lvl] *)
Lemma lvl_cases d D h : 0 <= d -> d <= D -> 0 < h ->
  let t := lvl d D h in
  (D <= t /\ h = t - (d + D) / 3) \/
  (0 < D /\ d <= t /\ t < D /\ 3 * D * h = t * t + D * t - D * d) \/
  (0 < D /\ 0 < d /\ 0 < t /\ t <= d /\ 3 * D * d * h = t * t * t).
Proof.
  intros Hd HD Hh t. unfold t, lvl. destruct (Rle_dec _ h) as [A|A].
  - left. split; lra.
  - assert (DP : 0 < D) by lra. destruct (Rle_dec _ (d * d)) as [B|B].
    + right; right. assert (Dp : 0 < d) by (destruct (Req_dec d 0) as [Z|Z]; [subst d; nra|lra]).
      assert (Px : 0 < 3 * h * d * D) by (repeat apply Rmult_lt_0_compat; lra).
      assert (Q := cbrt_cube (3 * h * d * D) ltac:(lra)). assert (P := cbrt_pos _ Px). set (c := cbrt (3 * h * d * D)) in *.
      repeat split; try lra. apply cube_le; try lra. rewrite Q. assert (3 * D * h * d <= d * d * d) by (apply Rmult_le_compat_r; lra). lra.
    + right; left. assert (0 <= D * d) by (apply Rmult_le_pos; lra). assert (0 < D * h) by (apply Rmult_lt_0_compat; lra).
      set (X := D * D + 4 * D * d + 12 * D * h). assert (PX : 0 <= X) by (unfold X; nra).
      assert (S := sqrt_sqrt X PX). assert (SP := sqrt_pos X). set (s := sqrt X) in *.
      assert (L1 : D + 2 * d < s).
      { destruct (Rlt_dec (D + 2 * d) s) as [L|L]; [exact L|]. exfalso. assert (s * s <= (D + 2 * d) * (D + 2 * d)) by (apply Rmult_le_compat; lra).
        rewrite S in H1. unfold X in H1. nra. }
      assert (L2 : s < 3 * D).
      { destruct (Rlt_dec s (3 * D)) as [L|L]; [exact L|]. exfalso. assert (3 * D * (3 * D) <= s * s) by (apply Rmult_le_compat; lra).
        rewrite S in H1. unfold X in H1. assert (h * D < (2 * D - d) / 3 * D) by (apply Rmult_lt_compat_r; lra). nra. }
      repeat split; try lra. replace (3 * D * h) with ((X - D * D - 4 * D * d) / 4) by (unfold X; field). rewrite <- S. field.
Qed.

Lemma lvl_pos d D h : 0 <= d -> d <= D -> 0 < h -> 0 < lvl d D h.
Proof. intros Hd HD Hh. destruct (lvl_cases d D h Hd HD Hh) as [(A & B)|[(A & B & C & E)|(A & B & C & _)]]; try lra.
  destruct (Rlt_dec 0 (lvl d D h)) as [L|L]; [exact L|]. assert (lvl d D h = 0) by lra. rewrite H in E. assert (d = 0) by lra. subst d. nra. Qed.

Lemma dep_lvl d D h : 0 <= d -> d <= D -> 0 < h -> dep d D (lvl d D h) = h.
Proof.
  intros Hd HD Hh. destruct (lvl_cases d D h Hd HD Hh) as [(A & B)|[(A & B & C & E)|(A & B & C & E & F)]]; unfold dep; set (t := lvl d D h) in *.
  - destruct (Rle_dec D t); lra.
  - destruct (Rle_dec D t); [lra|]. destruct (Rle_dec d t); [|lra]. rewrite <- E. field. lra.
  - destruct (Req_dec t d) as [Z|Z].
    + rewrite Z in *. destruct (Rle_dec D d).
      * assert (d = D) by lra. subst D. assert (3 * h = d). { apply Rmult_eq_reg_l with (d * d); [nra|nra]. } lra.
      * destruct (Rle_dec d d); [|lra]. apply Rmult_eq_reg_l with (3 * D * d); [|nra]. rewrite F. field. lra.
    + destruct (Rle_dec D t); [lra|]. destruct (Rle_dec d t); [lra|]. rewrite <- F. field. lra.
Qed.

Lemma dep_incr d D s t : 0 <= d -> d <= D -> 0 <= s -> s < t -> dep d D s < dep d D t.
Proof.
  intros Hd HD Hs H.
  (* compare each branch with the values at the joints *)
  assert (Q : 0 < D -> forall x y, 0 <= x -> x < y -> (x * x + D * x - D * d) / (3 * D) < (y * y + D * y - D * d) / (3 * D)).
  { intros DP x y Hx Hxy. unfold Rdiv. apply Rmult_lt_compat_r; [apply Rinv_0_lt_compat; lra|]. nra. }
  assert (C : 0 < d -> forall x y, 0 <= x -> x < y -> x * x * x / (3 * d * D) < y * y * y / (3 * d * D)).
  { intros DP x y Hx Hxy. unfold Rdiv. apply Rmult_lt_compat_r; [apply Rinv_0_lt_compat; apply Rmult_lt_0_compat; lra|]. apply cube_mono; assumption. }
  assert (J1 : 0 < D -> (D * D + D * D - D * d) / (3 * D) = D - (d + D) / 3) by (intros; field; lra).
  assert (J2 : 0 < d -> d * d * d / (3 * d * D) = (d * d + D * d - D * d) / (3 * D)) by (intros; field; lra).
  unfold dep. destruct (Rle_dec D s); destruct (Rle_dec D t); try lra.
  - assert (DP : 0 < D) by lra. destruct (Rle_dec d s).
    + assert (q := Q DP s D ltac:(lra) ltac:(lra)). rewrite J1 in q by exact DP. lra.
    + assert (dP : 0 < d) by lra. assert (c := C dP s d ltac:(lra) ltac:(lra)). rewrite J2 in c by exact dP.
      destruct (Req_dec d D) as [Z|Z]; [subst D; rewrite J1 in c by exact DP; lra|]. assert (q := Q DP d D ltac:(lra) ltac:(lra)). rewrite J1 in q by exact DP. lra.
  - assert (DP : 0 < D) by lra. destruct (Rle_dec d s); destruct (Rle_dec d t); try lra.
    + apply Q; lra.
    + assert (dP : 0 < d) by lra. assert (c := C dP s d ltac:(lra) ltac:(lra)). rewrite J2 in c by exact dP.
      destruct (Req_dec d t) as [Z|Z]; [subst t; exact c|]. assert (q := Q DP d t ltac:(lra) ltac:(lra)). lra.
    + apply C; lra.
Qed.
Lemma dep_zero d D : 0 <= d -> d <= D -> dep d D 0 = 0.
Proof.
  intros Hd HD. unfold dep. destruct (Rle_dec D 0); [lra|]. destruct (Rle_dec d 0); [replace d with 0 by lra; field; lra|]. field. lra.
Qed.

Lemma lvl_dep d D t : 0 <= d -> d <= D -> 0 < t -> lvl d D (dep d D t) = t.
Proof.
  intros Hd HD Ht. assert (P : 0 < dep d D t) by (rewrite <- (dep_zero d D Hd HD); apply dep_incr; lra).
  assert (E := dep_lvl d D _ Hd HD P). assert (L := lvl_pos d D _ Hd HD P). set (s := lvl d D (dep d D t)) in *.
  destruct (Rtotal_order s t) as [C|[C|C]]; [|exact C|].
  - assert (dep d D s < dep d D t) by (apply dep_incr; lra). lra.
  - assert (dep d D t < dep d D s) by (apply dep_incr; lra). lra.
Qed.
Lemma lvl_incr d D h k : 0 <= d -> d <= D -> 0 < h -> h < k -> lvl d D h < lvl d D k.
Proof.
  intros Hd HD Hh Hk. assert (E1 := dep_lvl d D h Hd HD Hh). assert (E2 := dep_lvl d D k Hd HD ltac:(lra)).
  assert (L1 := lvl_pos d D h Hd HD Hh). assert (L2 := lvl_pos d D k Hd HD ltac:(lra)).
  destruct (Rtotal_order (lvl d D h) (lvl d D k)) as [C|[C|C]]; [exact C|rewrite C in E1; lra|].
  assert (dep d D (lvl d D k) < dep d D (lvl d D h)) by (apply dep_incr; lra). lra.
Qed.
Lemma lvl_cont d D h eps : 0 <= d -> d <= D -> 0 < h -> 0 < eps ->
  exists delta, 0 < delta /\ forall k, 0 < k -> Rabs (k - h) < delta -> Rabs (lvl d D k - lvl d D h) < eps.
Proof.
  intros Hd HD Hh He. assert (Lh := lvl_pos d D h Hd HD Hh). set (t := lvl d D h) in *.
  set (lo := Rmax (t / 2) (t - eps / 2)). assert (Hlo : 0 < lo /\ lo < t /\ t - eps < lo).
  { unfold lo. destruct (Rmax_cases (t / 2) (t - eps / 2)) as [(A & E)|(A & E)]; rewrite E; lra. }
  assert (D1 : dep d D lo < h). { rewrite <- (dep_lvl d D h Hd HD Hh). fold t. apply dep_incr; lra. }
  assert (D2 : h < dep d D (t + eps)). { rewrite <- (dep_lvl d D h Hd HD Hh) at 1. fold t. apply dep_incr; lra. }
  assert (P : 0 < dep d D lo) by (rewrite <- (dep_zero d D Hd HD); apply dep_incr; lra).
  exists (Rmin (h - dep d D lo) (dep d D (t + eps) - h)). split; [apply Rmin_glb_lt; lra|].
  intros k Hk HA. assert (A1 := Rmin_l (h - dep d D lo) (dep d D (t + eps) - h)). assert (A2 := Rmin_r (h - dep d D lo) (dep d D (t + eps) - h)).
  apply Rabs_def2 in HA. assert (K1 : lvl d D (dep d D lo) < lvl d D k) by (apply lvl_incr; lra).
  assert (K2 : lvl d D k < lvl d D (dep d D (t + eps))) by (apply lvl_incr; lra). rewrite !lvl_dep in * by lra. apply Rabs_def1; lra.
Qed.

Lemma sort3_sorted a b c : let '(x, y, z) := sort3 a b c in x <= y /\ y <= z.
Proof.
  unfold sort3. destruct (Rltb b a) eqn:E1; [apply Rltb_true in E1|apply Rltb_false in E1];
  match goal with |- context [Rltb c ?q] => destruct (Rltb c q) eqn:E2; [apply Rltb_true in E2|apply Rltb_false in E2] end;
  match goal with |- context [if Rltb ?p ?q then _ else _] => destruct (Rltb p q) eqn:E3; [apply Rltb_true in E3|apply Rltb_false in E3] end; lra.
Qed.
