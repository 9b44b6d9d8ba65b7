(** Lemmas about the Riemann solver. *)
From Verif Require Import Base RoeModel.

Definition wetpair (L Rt : prim) : Prop := 0 <= ph L /\ 0 <= ph Rt /\ 0 < ph L + ph Rt.
Definition unit2 (sn cn : R) : Prop := cn * cn + sn * sn = 1.

Lemma GRAVITY_pos : 0 < GRAVITY. Proof. unfold GRAVITY; lra. Qed.

(** ** Closed forms *)
Definition pfix (a al ar : R) : R :=
  let da := Rmax 0 (2 * (ar - al)) in
  if a <? da then 1/2 * (a * a / da + da) else a.

Lemma critical_fix_some a al ar : 0 <= a -> critical_fix a al ar = Some (pfix a al ar).
Proof.
  intros Ha; unfold critical_fix, pfix.
  destruct (Rltb a (Rmax 0 (2 * (ar - al)))) eqn:E; [|reflexivity].
  apply Rltb_true in E. rewrite rdiv_some by lra. reflexivity.
Qed.

Definition duml (L : prim) := sqrt (ph L).
Definition uhat (L Rt : prim) := (sqrt (ph L) * pu L + sqrt (ph Rt) * pu Rt) / (sqrt (ph L) + sqrt (ph Rt)).
Definition vhat (L Rt : prim) := (sqrt (ph L) * pv L + sqrt (ph Rt) * pv Rt) / (sqrt (ph L) + sqrt (ph Rt)).
Definition chat (g : R) (L Rt : prim) := sqrt (1/2 * g * (ph L + ph Rt)).
Definition hhat (L Rt : prim) := sqrt (ph L) * sqrt (ph Rt).
Definition unorm (P : prim) (sn cn : R) := pu P * cn + pv P * sn.
Definition utan (P : prim) (sn cn : R) := - pu P * sn + pv P * cn.
Definition uperp (L Rt : prim) (sn cn : R) := uhat L Rt * cn + vhat L Rt * sn.

Definition pspec (g : R) (L Rt : prim) (sn cn : R) : spectrum :=
  let cl := sqrt (g * ph L) in
  let cr := sqrt (g * ph Rt) in
  let up := uperp L Rt sn cn in
  let c := chat g L Rt in
  let dh := ph Rt - ph L in
  let du := pu Rt - pu L in
  let dv := pv Rt - pv L in
  let r := hhat L Rt * (du * cn + dv * sn) / c in
  {| lam := V3 (pfix (Rabs (up - c)) (unorm L sn cn - cl) (unorm Rt sn cn - cr))
               (Rabs up)
               (pfix (Rabs (up + c)) (unorm L sn cn + cl) (unorm Rt sn cn + cr));
     row0 := V3 1 0 1;
     row1 := V3 (uhat L Rt - c * cn) (- sn) (uhat L Rt + c * cn);
     row2 := V3 (vhat L Rt - c * sn) cn (vhat L Rt + c * sn);
     dW := V3 (1/2 * (dh - r)) (hhat L Rt * (- du * sn + dv * cn)) (1/2 * (dh + r));
     amax := c + Rabs up |}.

Lemma sqrt_sum_pos L Rt : wetpair L Rt -> 0 < sqrt (ph L) + sqrt (ph Rt).
Proof.
  intros (Hl & Hr & Hs).
  assert (H1 := sqrt_pos (ph L)). assert (H2 := sqrt_pos (ph Rt)).
  destruct (Rle_lt_or_eq_dec _ _ Hl) as [Hl'|Hl'].
  - assert (0 < sqrt (ph L)) by (apply sqrt_lt_R0; exact Hl'). lra.
  - assert (0 < sqrt (ph Rt)) by (apply sqrt_lt_R0; lra). lra.
Qed.

Lemma chat_pos g L Rt : 0 < g -> wetpair L Rt -> 0 < chat g L Rt.
Proof.
  intros Hg (Hl & Hr & Hs). unfold chat. apply sqrt_lt_R0.
  apply Rmult_lt_0_compat; [lra|exact Hs].
Qed.

Lemma chat_sq g L Rt : 0 < g -> wetpair L Rt -> chat g L Rt * chat g L Rt = 1/2 * g * (ph L + ph Rt).
Proof.
  intros Hg (Hl & Hr & Hs). unfold chat. apply sqrt_sqrt.
  apply Rmult_le_pos; lra.
Qed.

Lemma petsc_eigenspectrum_some L Rt sn cn :
  wetpair L Rt -> petsc_eigenspectrum L Rt sn cn = Some (pspec GRAVITY L Rt sn cn).
Proof.
  intros H. assert (Hg := GRAVITY_pos).
  assert (Hs := sqrt_sum_pos _ _ H). assert (Hc := chat_pos _ _ _ Hg H).
  destruct H as (Hl & Hr & Hsum).
  unfold petsc_eigenspectrum.
  rewrite !rsqrt_some by (try apply Rmult_le_pos; lra). cbn [obind].
  rewrite !rdiv_some by lra. cbn [obind].
  rewrite !critical_fix_some by apply Rabs_pos. cbn [obind].
  unfold chat in Hc. rewrite rdiv_some by lra. cbn [obind].
  reflexivity.
Qed.

Lemma ceed_eigenspectrum_some g L Rt sn cn :
  0 < g -> wetpair L Rt -> ceed_eigenspectrum g L Rt sn cn = Some (pspec g L Rt sn cn).
Proof.
  intros Hg H.
  assert (Hs := sqrt_sum_pos _ _ H). assert (Hc := chat_pos _ _ _ Hg H).
  destruct H as (Hl & Hr & Hsum).
  unfold ceed_eigenspectrum.
  rewrite !rsqrt_some by (try apply Rmult_le_pos; lra). cbn [obind].
  rewrite !rdiv_some by lra. cbn [obind].
  rewrite !critical_fix_some by apply Rabs_pos. cbn [obind].
  unfold chat in Hc. rewrite rdiv_some by lra. cbn [obind].
  unfold pspec. rewrite (sqrt_mult g (ph L)), (sqrt_mult g (ph Rt)) by lra. reflexivity.
Qed.

Definition pflux (g : R) (L Rt : prim) (sn cn : R) : vec3 :=
  assemble_flux g L Rt sn cn (pspec g L Rt sn cn).

Lemma petsc_roe_flux_some L Rt sn cn :
  wetpair L Rt ->
  petsc_roe_flux L Rt sn cn
  = Some (pflux GRAVITY L Rt sn cn, chat GRAVITY L Rt + Rabs (uperp L Rt sn cn)).
Proof.
  intros H. unfold petsc_roe_flux. rewrite petsc_eigenspectrum_some by exact H. reflexivity.
Qed.

(* Both dry: 0/0. *)
Lemma petsc_roe_flux_dry L Rt sn cn :
  ph L = 0 -> ph Rt = 0 -> petsc_roe_flux L Rt sn cn = None.
Proof.
  intros Hl Hr. unfold petsc_roe_flux, petsc_eigenspectrum. rewrite Hl, Hr.
  rewrite !rsqrt_some by lra. cbn [obind]. rewrite !Rmult_0_r, !sqrt_0.
  replace (0 + 0) with 0 by ring. rewrite rdiv_none. reflexivity.
Qed.
Lemma petsc_roe_flux_negative L Rt sn cn :
  ph L < 0 -> petsc_roe_flux L Rt sn cn = None.
Proof.
  intros Hl. unfold petsc_roe_flux, petsc_eigenspectrum. rewrite rsqrt_none by lra. reflexivity.
Qed.

(** ** Consistency *)
Lemma pflux_consistent g P sn cn :
  0 < g -> 0 < ph P -> pflux g P P sn cn = side_flux g P sn cn.
Proof.
  intros Hg Hp.
  assert (Hw : wetpair P P) by (unfold wetpair; lra).
  assert (Hc := chat_pos _ _ _ Hg Hw).
  unfold pflux, assemble_flux, pspec, flux_row, side_flux; cbn [lam row0 row1 row2 dW c0 c1 c2].
  f_equal; field; lra.
Qed.

(** ** Roe linearisation *)
Lemma roe_alg (a b ul ur nl nr : R) : a + b <> 0 ->
  b * b * ur * nr - a * a * ul * nl
  = (a * ul + b * ur) / (a + b) * ((a * nl + b * nr) / (a + b)) * (b * b - a * a)
    + a * b * ((a * ul + b * ur) / (a + b) * (nr - nl) + (a * nl + b * nr) / (a + b) * (ur - ul)).
Proof. intros H. field. exact H. Qed.
Lemma roe_alg0 (a b nl nr : R) : a + b <> 0 ->
  b * b * nr - a * a * nl
  = (a * nl + b * nr) / (a + b) * (b * b - a * a) + a * b * (nr - nl).
Proof. intros H. field. exact H. Qed.

(* The (signed) wave expansion of the flux difference. *)
Definition wave_row (row : vec3) (l1 l2 l3 : R) (W : vec3) : R :=
  c0 row * l1 * c0 W + c1 row * l2 * c1 W + c2 row * l3 * c2 W.

Lemma uperp_avg L Rt sn cn : wetpair L Rt ->
  uperp L Rt sn cn = (sqrt (ph L) * unorm L sn cn + sqrt (ph Rt) * unorm Rt sn cn)
                     / (sqrt (ph L) + sqrt (ph Rt)).
Proof. intros H. assert (Hs := sqrt_sum_pos _ _ H). unfold uperp, uhat, vhat, unorm. field. lra. Qed.

Lemma roe_linearisation g L Rt sn cn :
  0 < g -> wetpair L Rt -> unit2 sn cn ->
  let s := pspec g L Rt sn cn in
  let up := uperp L Rt sn cn in let c := chat g L Rt in
  let FL := side_flux g L sn cn in let FR := side_flux g Rt sn cn in
  c0 FR - c0 FL = wave_row (row0 s) (up - c) up (up + c) (dW s) /\
  c1 FR - c1 FL = wave_row (row1 s) (up - c) up (up + c) (dW s) /\
  c2 FR - c2 FL = wave_row (row2 s) (up - c) up (up + c) (dW s).
Proof.
  intros Hg Hw Hu s up c FL FR.
  assert (Hs := sqrt_sum_pos _ _ Hw). assert (Hc := chat_pos _ _ _ Hg Hw).
  assert (Hc2 := chat_sq _ _ _ Hg Hw).
  assert (Hup := uperp_avg L Rt sn cn Hw).
  assert (Hhl : ph L = sqrt (ph L) * sqrt (ph L)) by (symmetry; apply sqrt_sqrt; apply Hw).
  assert (Hhr : ph Rt = sqrt (ph Rt) * sqrt (ph Rt)) by (symmetry; apply sqrt_sqrt; apply Hw).
  subst s FL FR. unfold unit2 in Hu.
  assert (Hr : exists r, r * c = hhat L Rt * (unorm Rt sn cn - unorm L sn cn) /\
               r = hhat L Rt * ((pu Rt - pu L) * cn + (pv Rt - pv L) * sn) / c).
  { eexists; split; [|reflexivity]. unfold c, unorm. field. lra. }
  destruct Hr as (r & Hr & Er).
  unfold wave_row, pspec, side_flux; cbn [row0 row1 row2 dW lam c0 c1 c2].
  fold up c. fold c in Hc, Hc2. fold up in Hup. rewrite <- Er. clear Er. clearbody c up.
  fold (unorm L sn cn) (unorm Rt sn cn).
  assert (H0 : (up - c) * (1 / 2 * (ph Rt - ph L - r)) + (up + c) * (1 / 2 * (ph Rt - ph L + r))
               = up * (ph Rt - ph L) + r * c) by field.
  assert (H1 : forall x n : R,
     (x - c * n) * (up - c) * (1 / 2 * (ph Rt - ph L - r)) + (x + c * n) * (up + c) * (1 / 2 * (ph Rt - ph L + r))
     = x * up * (ph Rt - ph L) + (c * c) * n * (ph Rt - ph L) + (x + n * up) * (r * c)) by (intros; field).
  assert (Hu1 : cn * (unorm Rt sn cn - unorm L sn cn)
                - sn * (- (pu Rt - pu L) * sn + (pv Rt - pv L) * cn) = pu Rt - pu L).
  { transitivity ((cn * cn + sn * sn) * (pu Rt - pu L)); [unfold unorm; ring|rewrite Hu; ring]. }
  assert (Hu2 : sn * (unorm Rt sn cn - unorm L sn cn)
                + cn * (- (pu Rt - pu L) * sn + (pv Rt - pv L) * cn) = pv Rt - pv L).
  { transitivity ((cn * cn + sn * sn) * (pv Rt - pv L)); [unfold unorm; ring|rewrite Hu; ring]. }
  assert (E0 := roe_alg0 (sqrt (ph L)) (sqrt (ph Rt)) (unorm L sn cn) (unorm Rt sn cn) ltac:(lra)).
  assert (E1 := roe_alg (sqrt (ph L)) (sqrt (ph Rt)) (pu L) (pu Rt) (unorm L sn cn) (unorm Rt sn cn) ltac:(lra)).
  assert (E2 := roe_alg (sqrt (ph L)) (sqrt (ph Rt)) (pv L) (pv Rt) (unorm L sn cn) (unorm Rt sn cn) ltac:(lra)).
  fold (uhat L Rt) in E1. fold (vhat L Rt) in E2.
  rewrite <- Hup in E0, E1, E2. rewrite <- Hhl, <- Hhr in E0, E1, E2.
  fold (hhat L Rt) in E0, E1, E2.
  set (nl := unorm L sn cn) in *. set (nr := unorm Rt sn cn) in *.
  repeat split.
  - transitivity (up * (ph Rt - ph L) + r * c); [|rewrite <- H0; field].
    rewrite Hr, <- E0. ring.
  - transitivity (uhat L Rt * up * (ph Rt - ph L) + (c * c) * cn * (ph Rt - ph L)
                  + (uhat L Rt + cn * up) * (r * c)
                  - sn * up * (hhat L Rt * (- (pu Rt - pu L) * sn + (pv Rt - pv L) * cn)));
      [|rewrite <- H1; field].
    rewrite Hr, Hc2.
    transitivity (ph Rt * pu Rt * nr - ph L * pu L * nl
                  + 1/2 * g * (ph L + ph Rt) * cn * (ph Rt - ph L)); [field|].
    rewrite E1.
    replace (up * (pu Rt - pu L)) with (up * (cn * (nr - nl) - sn * (- (pu Rt - pu L) * sn + (pv Rt - pv L) * cn)))
      by (rewrite Hu1; reflexivity). field.
  - transitivity (vhat L Rt * up * (ph Rt - ph L) + (c * c) * sn * (ph Rt - ph L)
                  + (vhat L Rt + sn * up) * (r * c)
                  + cn * up * (hhat L Rt * (- (pu Rt - pu L) * sn + (pv Rt - pv L) * cn)));
      [|rewrite <- H1; field].
    rewrite Hr, Hc2.
    transitivity (ph Rt * pv Rt * nr - ph L * pv L * nl
                  + 1/2 * g * (ph L + ph Rt) * sn * (ph Rt - ph L)); [field|].
    rewrite E2.
    replace (up * (pv Rt - pv L)) with (up * (sn * (nr - nl) + cn * (- (pu Rt - pu L) * sn + (pv Rt - pv L) * cn)))
      by (rewrite Hu2; reflexivity). field.
Qed.

(** ** Full upwinding *)
Lemma flux_row_left fl fr row l1 l2 l3 W :
  fr - fl = wave_row row l1 l2 l3 W ->
  flux_row fl fr row (V3 l1 l2 l3) W = fl.
Proof. unfold flux_row, wave_row; cbn [c0 c1 c2]. intros H. lra. Qed.
Lemma flux_row_right fl fr row l1 l2 l3 W :
  fr - fl = wave_row row l1 l2 l3 W ->
  flux_row fl fr row (V3 (- l1) (- l2) (- l3)) W = fr.
Proof. unfold flux_row, wave_row; cbn [c0 c1 c2]. intros H. lra. Qed.

(* The sonic correction is inactive for one wave. *)
Definition fix_off (a al ar : R) : Prop := 2 * (ar - al) <= a.

Lemma pfix_off a al ar : 0 <= a -> fix_off a al ar -> pfix a al ar = a.
Proof.
  intros Ha H. unfold pfix, fix_off in *.
  destruct (Rltb a (Rmax 0 (2 * (ar - al)))) eqn:E; [|reflexivity].
  apply Rltb_true in E. destruct (Rmax_cases 0 (2 * (ar - al))) as [[_ E']|[_ E']]; rewrite E' in E; lra.
Qed.

Definition fixes_off g L Rt sn cn : Prop :=
  fix_off (Rabs (uperp L Rt sn cn - chat g L Rt)) (unorm L sn cn - sqrt (g * ph L)) (unorm Rt sn cn - sqrt (g * ph Rt)) /\
  fix_off (Rabs (uperp L Rt sn cn + chat g L Rt)) (unorm L sn cn + sqrt (g * ph L)) (unorm Rt sn cn + sqrt (g * ph Rt)).

Lemma vec3_ext (a b : vec3) : c0 a = c0 b -> c1 a = c1 b -> c2 a = c2 b -> a = b.
Proof. destruct a, b; cbn; intros; subst; reflexivity. Qed.

Lemma pflux_upwind_left g L Rt sn cn :
  0 < g -> wetpair L Rt -> unit2 sn cn ->
  0 <= uperp L Rt sn cn - chat g L Rt -> fixes_off g L Rt sn cn ->
  pflux g L Rt sn cn = side_flux g L sn cn.
Proof.
  intros Hg Hw Hu Hs (F1 & F3).
  assert (Hc := chat_pos _ _ _ Hg Hw).
  destruct (roe_linearisation g L Rt sn cn Hg Hw Hu) as (E0 & E1 & E2).
  assert (El : lam (pspec g L Rt sn cn)
     = V3 (uperp L Rt sn cn - chat g L Rt) (uperp L Rt sn cn) (uperp L Rt sn cn + chat g L Rt)).
  { unfold pspec; cbn [lam]. rewrite !pfix_off by (try apply Rabs_pos; assumption).
    rewrite !Rabs_right by lra. reflexivity. }
  apply vec3_ext; unfold pflux, assemble_flux; cbn [c0 c1 c2]; rewrite El;
    apply flux_row_left; assumption.
Qed.

Lemma pflux_upwind_right g L Rt sn cn :
  0 < g -> wetpair L Rt -> unit2 sn cn ->
  uperp L Rt sn cn + chat g L Rt <= 0 -> fixes_off g L Rt sn cn ->
  pflux g L Rt sn cn = side_flux g Rt sn cn.
Proof.
  intros Hg Hw Hu Hs (F1 & F3).
  assert (Hc := chat_pos _ _ _ Hg Hw).
  destruct (roe_linearisation g L Rt sn cn Hg Hw Hu) as (E0 & E1 & E2).
  assert (El : lam (pspec g L Rt sn cn)
     = V3 (- (uperp L Rt sn cn - chat g L Rt)) (- uperp L Rt sn cn) (- (uperp L Rt sn cn + chat g L Rt))).
  { unfold pspec; cbn [lam]. rewrite !pfix_off by (try apply Rabs_pos; assumption).
    rewrite !Rabs_left1 by lra. reflexivity. }
  apply vec3_ext; unfold pflux, assemble_flux; cbn [c0 c1 c2]; rewrite El;
    apply flux_row_right; assumption.
Qed.

(** ** Reversal and rotation *)
Lemma wetpair_sym L Rt : wetpair L Rt -> wetpair Rt L.
Proof. unfold wetpair; intros; lra. Qed.
Lemma uhat_sym L Rt : uhat Rt L = uhat L Rt.
Proof.
  unfold uhat. rewrite (Rplus_comm (sqrt (ph Rt) * _)), (Rplus_comm (sqrt (ph Rt))). reflexivity.
Qed.
Lemma vhat_sym L Rt : vhat Rt L = vhat L Rt.
Proof.
  unfold vhat. rewrite (Rplus_comm (sqrt (ph Rt) * _)), (Rplus_comm (sqrt (ph Rt))). reflexivity.
Qed.
Lemma chat_sym g L Rt : chat g Rt L = chat g L Rt.
Proof. unfold chat. rewrite (Rplus_comm (ph Rt)). reflexivity. Qed.
Lemma hhat_sym L Rt : hhat Rt L = hhat L Rt.
Proof. unfold hhat; ring. Qed.

Lemma pfix_ext a a' al ar al' ar' : a = a' -> ar - al = ar' - al' -> pfix a al ar = pfix a' al' ar'.
Proof. intros -> H. unfold pfix. rewrite H. reflexivity. Qed.

Lemma pflux_reverse g L Rt sn cn :
  0 < g -> wetpair L Rt ->
  pflux g Rt L (- sn) (- cn) = vscal (-1) (pflux g L Rt sn cn).
Proof.
  intros Hg Hw. assert (Hc := chat_pos _ _ _ Hg Hw).
  unfold pflux, assemble_flux, pspec, flux_row, side_flux, vscal; cbn [lam row0 row1 row2 dW c0 c1 c2].
  rewrite uhat_sym, vhat_sym, chat_sym, hhat_sym.
  assert (Eu : uperp Rt L (- sn) (- cn) = - uperp L Rt sn cn).
  { unfold uperp. rewrite uhat_sym, vhat_sym. ring. }
  rewrite Eu.
  assert (E1 : pfix (Rabs (- uperp L Rt sn cn - chat g L Rt)) (unorm Rt (- sn) (- cn) - sqrt (g * ph Rt))
                 (unorm L (- sn) (- cn) - sqrt (g * ph L))
             = pfix (Rabs (uperp L Rt sn cn + chat g L Rt)) (unorm L sn cn + sqrt (g * ph L))
                 (unorm Rt sn cn + sqrt (g * ph Rt))).
  { apply pfix_ext; [|unfold unorm; ring].
    rewrite <- Rabs_Ropp. f_equal; ring. }
  assert (E3 : pfix (Rabs (- uperp L Rt sn cn + chat g L Rt)) (unorm Rt (- sn) (- cn) + sqrt (g * ph Rt))
                 (unorm L (- sn) (- cn) + sqrt (g * ph L))
             = pfix (Rabs (uperp L Rt sn cn - chat g L Rt)) (unorm L sn cn - sqrt (g * ph L))
                 (unorm Rt sn cn - sqrt (g * ph Rt))).
  { apply pfix_ext; [|unfold unorm; ring].
    rewrite <- Rabs_Ropp. f_equal; ring. }
  rewrite E1, E3, Rabs_Ropp.
  f_equal; field; lra.
Qed.

Lemma amax_reverse g L Rt sn cn :
  chat g Rt L + Rabs (uperp Rt L (- sn) (- cn)) = chat g L Rt + Rabs (uperp L Rt sn cn).
Proof.
  rewrite chat_sym. f_equal. rewrite <- Rabs_Ropp. f_equal.
  unfold uperp. rewrite uhat_sym, vhat_sym. ring.
Qed.

(* Rotation of the axes by the angle with cosine [co] and sine [si]. *)
Definition rot_prim (co si : R) (P : prim) : prim :=
  Prim (ph P) (co * pu P - si * pv P) (si * pu P + co * pv P).
Definition rot_vec (co si : R) (v : vec3) : vec3 :=
  V3 (c0 v) (co * c1 v - si * c2 v) (si * c1 v + co * c2 v).

Lemma pflux_rotate g L Rt sn cn co si :
  0 < g -> wetpair L Rt -> unit2 si co ->
  pflux g (rot_prim co si L) (rot_prim co si Rt) (si * cn + co * sn) (co * cn - si * sn)
  = rot_vec co si (pflux g L Rt sn cn).
Proof.
  intros Hg Hw Hu. assert (Hc := chat_pos _ _ _ Hg Hw). assert (Hs := sqrt_sum_pos _ _ Hw).
  unfold unit2 in Hu.
  set (L' := rot_prim co si L). set (R' := rot_prim co si Rt).
  assert (Hn : forall P, unorm (rot_prim co si P) (si * cn + co * sn) (co * cn - si * sn) = unorm P sn cn).
  { intros P. unfold unorm, rot_prim; cbn [pu pv].
    transitivity ((co * co + si * si) * (pu P * cn + pv P * sn)); [ring|rewrite Hu; ring]. }
  assert (Huh : uhat L' R' = co * uhat L Rt - si * vhat L Rt).
  { unfold L', R', uhat, vhat, rot_prim; cbn [ph pu pv]. field. lra. }
  assert (Hvh : vhat L' R' = si * uhat L Rt + co * vhat L Rt).
  { unfold L', R', uhat, vhat, rot_prim; cbn [ph pu pv]. field. lra. }
  assert (Hch : chat g L' R' = chat g L Rt) by reflexivity.
  assert (Hhh : hhat L' R' = hhat L Rt) by reflexivity.
  assert (Hup : uperp L' R' (si * cn + co * sn) (co * cn - si * sn) = uperp L Rt sn cn).
  { unfold uperp. rewrite Huh, Hvh.
    transitivity ((co * co + si * si) * (uhat L Rt * cn + vhat L Rt * sn)); [ring|rewrite Hu; ring]. }
  assert (Hdn : (pu R' - pu L') * (co * cn - si * sn) + (pv R' - pv L') * (si * cn + co * sn)
                = (pu Rt - pu L) * cn + (pv Rt - pv L) * sn).
  { unfold L', R', rot_prim; cbn [pu pv].
    transitivity ((co * co + si * si) * ((pu Rt - pu L) * cn + (pv Rt - pv L) * sn)); [ring|rewrite Hu; ring]. }
  assert (Hdt : - (pu R' - pu L') * (si * cn + co * sn) + (pv R' - pv L') * (co * cn - si * sn)
                = - (pu Rt - pu L) * sn + (pv Rt - pv L) * cn).
  { unfold L', R', rot_prim; cbn [pu pv].
    transitivity ((co * co + si * si) * (- (pu Rt - pu L) * sn + (pv Rt - pv L) * cn)); [ring|rewrite Hu; ring]. }
  assert (Hsf : forall P, side_flux g (rot_prim co si P) (si * cn + co * sn) (co * cn - si * sn)
                = rot_vec co si (side_flux g P sn cn)).
  { intros P. unfold side_flux. fold (unorm (rot_prim co si P) (si * cn + co * sn) (co * cn - si * sn)).
    rewrite Hn. unfold unorm, rot_vec, rot_prim; cbn [ph pu pv c0 c1 c2]. f_equal; field. }
  unfold pflux, assemble_flux. unfold L', R'. rewrite (Hsf L), (Hsf Rt). fold L' R'.
  unfold pspec; cbn [lam row0 row1 row2 dW].
  rewrite Hdn, Hdt, Hup, Hch, Hhh, Huh, Hvh.
  unfold L', R'. rewrite !Hn. cbn [ph rot_prim].
  unfold flux_row, rot_vec. apply vec3_ext; cbn [c0 c1 c2]; [reflexivity|field; lra|field; lra].
Qed.

Lemma amax_rotate g L Rt sn cn co si :
  wetpair L Rt -> unit2 si co ->
  chat g (rot_prim co si L) (rot_prim co si Rt)
  + Rabs (uperp (rot_prim co si L) (rot_prim co si Rt) (si * cn + co * sn) (co * cn - si * sn))
  = chat g L Rt + Rabs (uperp L Rt sn cn).
Proof.
  intros Hw Hu. assert (Hs := sqrt_sum_pos _ _ Hw). unfold unit2 in Hu.
  f_equal. f_equal. unfold uperp, uhat, vhat; cbn [rot_prim ph pu pv].
  transitivity ((co * co + si * si) * ((sqrt (ph L) * pu L + sqrt (ph Rt) * pu Rt) / (sqrt (ph L) + sqrt (ph Rt)) * cn +
    (sqrt (ph L) * pv L + sqrt (ph Rt) * pv Rt) / (sqrt (ph L) + sqrt (ph Rt)) * sn)); [field; lra|rewrite Hu; ring].
Qed.

(** ** The sonic correction *)
Lemma pfix_ge a al ar : 0 <= a -> a <= pfix a al ar.
Proof.
  intros Ha. unfold pfix. destruct (Rltb a (Rmax 0 (2 * (ar - al)))) eqn:E; [|lra].
  apply Rltb_true in E. set (da := Rmax 0 (2 * (ar - al))) in *.
  assert (Hd : 0 < da) by lra.
  assert (H : 0 <= (a - da) * (a - da) / da).
  { apply Rmult_le_pos; [apply Rle_0_sqr|left; apply Rinv_0_lt_compat; exact Hd]. }
  replace ((a - da) * (a - da) / da) with (a * a / da + da - 2 * a) in H by (field; lra). lra.
Qed.

Lemma pfix_rarefaction a al ar : 0 <= a -> al < ar -> ar - al <= pfix a al ar.
Proof.
  intros Ha Hlt. unfold pfix.
  assert (Hm : Rmax 0 (2 * (ar - al)) = 2 * (ar - al)) by (apply Rmax_right; lra).
  rewrite Hm. destruct (Rltb a (2 * (ar - al))) eqn:E.
  - apply Rltb_true in E.
    assert (0 <= a * a / (2 * (ar - al))).
    { apply Rmult_le_pos; [nra|left; apply Rinv_0_lt_compat; lra]. }
    lra.
  - apply Rltb_false in E. lra.
Qed.

Lemma pfix_le a al ar : 0 <= a -> pfix a al ar <= Rmax a (2 * (ar - al)).
Proof.
  intros Ha. unfold pfix. destruct (Rltb a (Rmax 0 (2 * (ar - al)))) eqn:E.
  - apply Rltb_true in E.
    destruct (Rmax_cases 0 (2 * (ar - al))) as [[H E']|[H E']]; rewrite E' in E |- *; [|lra].
    assert (Hd : 0 < 2 * (ar - al)) by lra. set (da := 2 * (ar - al)) in *.
    rewrite (Rmax_right a da) by lra.
    assert (a * a / da <= da).
    { apply Rmult_le_reg_r with da; [exact Hd|]. replace (a * a / da * da) with (a * a) by (field; lra). nra. }
    lra.
  - apply Rmax_l.
Qed.

Lemma amax_bounds g L Rt sn cn :
  0 < g -> wetpair L Rt ->
  let a := chat g L Rt + Rabs (uperp L Rt sn cn) in
  Rabs (uperp L Rt sn cn - chat g L Rt) <= a /\ Rabs (uperp L Rt sn cn) <= a /\
  Rabs (uperp L Rt sn cn + chat g L Rt) <= a.
Proof.
  intros Hg Hw. assert (Hc := chat_pos _ _ _ Hg Hw). cbv zeta.
  destruct (Rabs_cases (uperp L Rt sn cn)) as [[? ->]|[? ->]];
  destruct (Rabs_cases (uperp L Rt sn cn - chat g L Rt)) as [[? ->]|[? ->]];
  destruct (Rabs_cases (uperp L Rt sn cn + chat g L Rt)) as [[? ->]|[? ->]]; lra.
Qed.
