(** Lemmas about the edge kernels. *)
From Verif Require Import Base RoeModel RoeProofs EdgeModel.

(** ** Velocities *)
Definition pvel (tiny_h h_anuga : R) (q : vec3) : prim :=
  if c0 q <? tiny_h then Prim (c0 q) 0 0
  else Prim (c0 q) (c1 q * c0 q / (c0 q * c0 q + h_anuga * h_anuga))
                   (c2 q * c0 q / (c0 q * c0 q + h_anuga * h_anuga)).
Definition cvel (tiny_h h_anuga : R) (q : vec3) : prim :=
  if tiny_h <? c0 q
  then Prim (c0 q) (c1 q * c0 q / (c0 q * c0 q + h_anuga * h_anuga))
                   (c2 q * c0 q / (c0 q * c0 q + h_anuga * h_anuga))
  else Prim (c0 q) 0 0.

Lemma denom_nz h ha : 0 < h -> h * h + ha * ha <> 0.
Proof. intros H. assert (0 < h * h) by nra. assert (0 <= ha * ha) by nra. lra. Qed.

Lemma petsc_velocities_some tiny ha q : 0 < tiny -> petsc_velocities tiny ha q = Some (pvel tiny ha q).
Proof.
  intros Ht. unfold petsc_velocities, pvel. destruct (Rltb (c0 q) tiny) eqn:E; [reflexivity|].
  apply Rltb_false in E. rewrite !rdiv_some by (apply denom_nz; lra). reflexivity.
Qed.
Lemma ceed_velocities_some tiny ha q : 0 <= tiny -> ceed_velocities tiny ha q = Some (cvel tiny ha q).
Proof.
  intros Ht. unfold ceed_velocities, cvel, SafeDiv. destruct (Rltb tiny (c0 q)) eqn:E; [|reflexivity].
  apply Rltb_true in E. rewrite !rdiv_some by (apply denom_nz; lra). reflexivity.
Qed.
Lemma pvel_h tiny ha q : ph (pvel tiny ha q) = c0 q.
Proof. unfold pvel. destruct (Rltb _ _); reflexivity. Qed.
Lemma cvel_h tiny ha q : ph (cvel tiny ha q) = c0 q.
Proof. unfold cvel. destruct (Rltb _ _); reflexivity. Qed.
Lemma cvel_pvel tiny ha q : c0 q <> tiny -> cvel tiny ha q = pvel tiny ha q.
Proof.
  intros H. unfold cvel, pvel.
  destruct (Rltb tiny (c0 q)) eqn:E1; destruct (Rltb (c0 q) tiny) eqn:E2; try reflexivity;
  [apply Rltb_true in E1; apply Rltb_true in E2|apply Rltb_false in E1; apply Rltb_false in E2]; lra.
Qed.

(** ** Interior edges *)
Lemma petsc_interior_edge_some tiny ha qL qR sn cn :
  0 < tiny -> 0 <= c0 qL -> 0 <= c0 qR ->
  petsc_interior_edge tiny ha qL qR sn cn =
  if ((c0 qR <? tiny) && (c0 qL <? tiny))%bool then Some (vzero, 0)
  else Some (pflux GRAVITY (pvel tiny ha qL) (pvel tiny ha qR) sn cn,
             chat GRAVITY (pvel tiny ha qL) (pvel tiny ha qR)
             + Rabs (uperp (pvel tiny ha qL) (pvel tiny ha qR) sn cn)).
Proof.
  intros Ht Hl Hr. unfold petsc_interior_edge.
  rewrite !petsc_velocities_some by exact Ht. cbn [obind].
  unfold prim_dry. rewrite !pvel_h.
  destruct ((c0 qR <? tiny) && (c0 qL <? tiny))%bool eqn:E; [reflexivity|].
  apply petsc_roe_flux_some. unfold wetpair. rewrite !pvel_h.
  apply Bool.andb_false_iff in E. destruct E as [E|E]; apply Rltb_false in E; lra.
Qed.

Definition cflux (g : R) (L Rt : prim) (sn cn dhv : R) : vec3 :=
  let f := pflux g L Rt sn cn in
  V3 (c0 f) (c1 f + g * (dhv * dhv) / 24 * cn) (c2 f + g * (dhv * dhv) / 24 * sn).

Lemma ceed_roe_flux_some g tiny ha qL qR sn cn dhv :
  0 < g -> 0 <= tiny -> 0 <= c0 qL -> 0 <= c0 qR -> 0 < c0 qL + c0 qR ->
  ceed_roe_flux g tiny ha qL qR sn cn dhv =
  Some (cflux g (cvel tiny ha qL) (cvel tiny ha qR) sn cn dhv,
        chat g (cvel tiny ha qL) (cvel tiny ha qR) + Rabs (uperp (cvel tiny ha qL) (cvel tiny ha qR) sn cn)).
Proof.
  intros Hg Ht Hl Hr Hs. unfold ceed_roe_flux.
  rewrite !ceed_velocities_some by exact Ht. cbn [obind].
  rewrite ceed_eigenspectrum_some; [reflexivity|exact Hg|].
  unfold wetpair. rewrite !cvel_h. lra.
Qed.

Lemma cflux_0 g L Rt sn cn : cflux g L Rt sn cn 0 = pflux g L Rt sn cn.
Proof. unfold cflux. apply vec3_ext; cbn [c0 c1 c2]; field. Qed.

Lemma ceed_interior_edge_some g tiny ha qL qR sn cn dhv :
  0 < g -> 0 <= tiny -> 0 <= c0 qL -> 0 <= c0 qR ->
  ceed_interior_edge g tiny ha qL qR sn cn dhv =
  if ((tiny <? c0 qL) || (tiny <? c0 qR))%bool
  then Some (cflux g (cvel tiny ha qL) (cvel tiny ha qR) sn cn dhv,
             chat g (cvel tiny ha qL) (cvel tiny ha qR) + Rabs (uperp (cvel tiny ha qL) (cvel tiny ha qR) sn cn))
  else Some (vzero, 0).
Proof.
  intros Hg Ht Hl Hr. unfold ceed_interior_edge.
  destruct ((tiny <? c0 qL) || (tiny <? c0 qR))%bool eqn:E; [|reflexivity].
  apply ceed_roe_flux_some; try assumption.
  apply Bool.orb_true_iff in E. destruct E as [E|E]; apply Rltb_true in E; lra.
Qed.

(* The two back ends agree unless a depth is exactly the dry threshold. *)
Lemma interior_backends_agree tiny ha qL qR sn cn :
  0 < tiny -> 0 <= c0 qL -> 0 <= c0 qR -> c0 qL <> tiny -> c0 qR <> tiny ->
  ceed_interior_edge GRAVITY tiny ha qL qR sn cn 0 = petsc_interior_edge tiny ha qL qR sn cn.
Proof.
  intros Ht Hl Hr Nl Nr.
  rewrite petsc_interior_edge_some by assumption.
  rewrite ceed_interior_edge_some by (try apply GRAVITY_pos; lra).
  rewrite cflux_0, !cvel_pvel by assumption.
  assert (Hneg : forall x, x <> tiny -> Rltb x tiny = negb (Rltb tiny x)).
  { intros x Hx. destruct (Rltb x tiny) eqn:E1; destruct (Rltb tiny x) eqn:E2; try reflexivity;
    [apply Rltb_true in E1; apply Rltb_true in E2|apply Rltb_false in E1; apply Rltb_false in E2]; lra. }
  rewrite (Hneg (c0 qL) Nl), (Hneg (c0 qR) Nr).
  destruct (Rltb tiny (c0 qL)); destruct (Rltb tiny (c0 qR)); reflexivity.
Qed.

(** ** Reflecting wall *)
Lemma reflect_normal L sn cn : unit2 sn cn -> unorm (petsc_reflect L sn cn) sn cn = - unorm L sn cn.
Proof.
  unfold unit2, unorm, petsc_reflect; cbn [pu pv]. intros H.
  transitivity (- ((cn * cn + sn * sn) * (pu L * cn + pv L * sn))); [ring|rewrite H; ring].
Qed.
Lemma reflect_tangent L sn cn : unit2 sn cn -> utan (petsc_reflect L sn cn) sn cn = utan L sn cn.
Proof.
  unfold unit2, utan, petsc_reflect; cbn [pu pv]. intros H.
  transitivity ((cn * cn + sn * sn) * (- pu L * sn + pv L * cn)); [ring|rewrite H; ring].
Qed.

Lemma reflect_flux g L sn cn :
  0 < g -> 0 < ph L -> unit2 sn cn ->
  let f := pflux g L (petsc_reflect L sn cn) sn cn in
  c0 f = 0 /\ - c1 f * sn + c2 f * cn = 0 /\
  c1 f * cn + c2 f * sn =
    1/2 * g * ph L * ph L + ph L * unorm L sn cn * unorm L sn cn
    + pfix (sqrt (g * ph L)) 0 (- 2 * unorm L sn cn) * ph L * unorm L sn cn.
Proof.
  intros Hg Hh Hu f. subst f.
  set (Rt := petsc_reflect L sn cn).
  assert (EhR : ph Rt = ph L) by reflexivity.
  assert (Hw : wetpair L Rt) by (unfold wetpair; rewrite EhR; lra).
  assert (Hc := chat_pos _ _ _ Hg Hw). assert (Hs := sqrt_sum_pos _ _ Hw).
  assert (Hn := reflect_normal L sn cn Hu). assert (Ht := reflect_tangent L sn cn Hu).
  fold Rt in Hn, Ht.
  assert (Ech : chat g L Rt = sqrt (g * ph L)).
  { unfold chat. rewrite EhR. f_equal. field. }
  assert (Eup : uperp L Rt sn cn = 0).
  { rewrite uperp_avg by exact Hw. rewrite Hn, EhR. field. rewrite EhR in Hs. lra. }
  assert (Ehh : hhat L Rt = ph L).
  { unfold hhat. rewrite EhR. apply sqrt_sqrt. lra. }
  assert (Edn : (pu Rt - pu L) * cn + (pv Rt - pv L) * sn = - 2 * unorm L sn cn).
  { transitivity (unorm Rt sn cn - unorm L sn cn); [unfold unorm; ring|rewrite Hn; ring]. }
  assert (Edt : - (pu Rt - pu L) * sn + (pv Rt - pv L) * cn = 0).
  { transitivity (utan Rt sn cn - utan L sn cn); [unfold utan; ring|rewrite Ht; ring]. }
  assert (Etan : - uhat L Rt * sn + vhat L Rt * cn = utan L sn cn).
  { assert (E : - uhat L Rt * sn + vhat L Rt * cn
        = (sqrt (ph L) * utan L sn cn + sqrt (ph Rt) * utan Rt sn cn) / (sqrt (ph L) + sqrt (ph Rt))).
    { unfold uhat, vhat, utan. field. lra. }
    rewrite E, Ht, EhR. field. rewrite EhR in Hs. lra. }
  assert (El1 : pfix (Rabs (uperp L Rt sn cn - chat g L Rt)) (unorm L sn cn - sqrt (g * ph L))
                  (unorm Rt sn cn - sqrt (g * ph Rt)) = pfix (sqrt (g * ph L)) 0 (- 2 * unorm L sn cn)).
  { apply pfix_ext.
    - rewrite Eup, Ech. replace (0 - sqrt (g * ph L)) with (- sqrt (g * ph L)) by ring.
      rewrite Rabs_Ropp. apply Rabs_right. rewrite <- Ech. lra.
    - rewrite Hn, EhR. ring. }
  assert (El3 : pfix (Rabs (uperp L Rt sn cn + chat g L Rt)) (unorm L sn cn + sqrt (g * ph L))
                  (unorm Rt sn cn + sqrt (g * ph Rt)) = pfix (sqrt (g * ph L)) 0 (- 2 * unorm L sn cn)).
  { apply pfix_ext.
    - rewrite Eup, Ech. rewrite Rplus_0_l. apply Rabs_right. rewrite <- Ech. lra.
    - rewrite Hn, EhR. ring. }
  unfold pflux, assemble_flux, pspec, flux_row, side_flux; cbn [lam row0 row1 row2 dW c0 c1 c2].
  rewrite El1, El3, Edn, Edt, Ehh, EhR.
  fold (unorm L sn cn) (unorm Rt sn cn). rewrite Hn.
  rewrite Ech in *.
  set (n := unorm L sn cn) in *. set (c := sqrt (g * ph L)) in *. set (P := pfix c 0 (-2 * n)) in *.
  set (h := ph L) in *.
  assert (HuL : - pu L * sn + pv L * cn = utan L sn cn) by reflexivity.
  assert (HuR : - pu Rt * sn + pv Rt * cn = utan L sn cn) by (rewrite <- Ht; reflexivity).
  assert (HnL : pu L * cn + pv L * sn = n) by reflexivity.
  assert (HnR : pu Rt * cn + pv Rt * sn = - n) by (rewrite <- Hn; reflexivity).
  assert (Hnh : uhat L Rt * cn + vhat L Rt * sn = 0) by exact Eup.
  set (uL := pu L) in *. set (vL := pv L) in *. set (uR := pu Rt) in *. set (vR := pv Rt) in *.
  set (uh := uhat L Rt) in *. set (vh := vhat L Rt) in *. set (t := utan L sn cn) in *.
  unfold unit2 in Hu.
  split; [field; lra|split].
  - transitivity (1/2 * (h * n * ((- uL * sn + vL * cn) - (- uR * sn + vR * cn)))
                  + 1/2 * P * (h * n / c) * ((- uh * sn + vh * cn) - (- uh * sn + vh * cn))); [field; lra|].
    rewrite HuL, HuR. field. lra.
  - transitivity (1/2 * (n * h * (uL * cn + vL * sn) - n * h * (uR * cn + vR * sn)
                   + g * h * h * (cn * cn + sn * sn))
                  + P * h * n * (cn * cn + sn * sn)); [field; lra|].
    rewrite HnL, HnR, Hu. field.
Qed.

(** ** Critical outflow *)
Lemma petsc_outflow_in L sn cn : unorm L sn cn < 0 -> petsc_outflow L sn cn = Some (Prim 0 0 0, Prim 0 0 0).
Proof.
  intros H. unfold petsc_outflow. fold (unorm L sn cn).
  assert (E : Rltb (unorm L sn cn) 0 = true) by (apply Rltb_true; exact H). rewrite E. reflexivity.
Qed.

Lemma petsc_outflow_out L sn cn :
  unit2 sn cn -> 0 <= ph L -> 0 <= unorm L sn cn ->
  exists Rt, petsc_outflow L sn cn = Some (L, Rt) /\ 0 <= ph Rt /\
    unorm Rt sn cn = sqrt (GRAVITY * ph Rt) /\ utan Rt sn cn = 0 /\
    ph Rt * unorm Rt sn cn = ph L * unorm L sn cn.
Proof.
  intros Hu Hh Hn. assert (Hg := GRAVITY_pos).
  unfold petsc_outflow. fold (unorm L sn cn).
  assert (E : Rltb (unorm L sn cn) 0 = false) by (apply Rltb_false; exact Hn). rewrite E.
  rewrite (Rabs_right (unorm L sn cn)) by lra.
  set (q := ph L * unorm L sn cn). assert (Hq : 0 <= q) by (apply Rmult_le_pos; assumption).
  rewrite rdiv_some by lra. cbn [obind].
  assert (Hx : 0 <= q * q / GRAVITY).
  { apply Rmult_le_pos; [nra|left; apply Rinv_0_lt_compat; exact Hg]. }
  rewrite rcbrt_some by exact Hx. cbn [obind].
  assert (Hc0 := cbrt_nonneg (q * q / GRAVITY)). set (hr := cbrt (q * q / GRAVITY)) in *.
  assert (Hcu : hr * hr * hr = q * q / GRAVITY) by (apply cbrt_cube; exact Hx).
  assert (Hgh : 0 <= GRAVITY * hr) by (apply Rmult_le_pos; lra).
  rewrite rsqrt_some by exact Hgh. cbn [obind].
  eexists; split; [reflexivity|]. cbn [ph]. split; [exact Hc0|].
  set (w := sqrt (GRAVITY * hr)). assert (Hw0 : 0 <= w) by apply sqrt_pos.
  assert (Hw2 : w * w = GRAVITY * hr) by (apply sqrt_sqrt; exact Hgh).
  assert (Hun : unorm (Prim hr (w * cn) (w * sn)) sn cn = w).
  { unfold unorm; cbn [pu pv]. unfold unit2 in Hu.
    transitivity (w * (cn * cn + sn * sn)); [ring|rewrite Hu; ring]. }
  rewrite Hun. split; [reflexivity|]. split; [unfold utan; cbn [pu pv]; ring|].
  apply Rsqr_inj; [nra|exact Hq|]. unfold Rsqr.
  transitivity (hr * hr * (w * w)); [ring|]. rewrite Hw2.
  transitivity (GRAVITY * (hr * hr * hr)); [ring|]. rewrite Hcu. field. lra.
Qed.

Section Outflow.
  Variables (g sn cn : R) (L Rt : prim).
  Hypothesis Hg : 0 < g.
  Hypothesis Hu : unit2 sn cn.
  Hypothesis Hh : 0 < ph L.
  Hypothesis Hr0 : 0 <= ph Rt.
  Hypothesis Hcrit : unorm Rt sn cn = sqrt (g * ph Rt).
  Hypothesis Hq : ph Rt * unorm Rt sn cn = ph L * unorm L sn cn.

  Let k := sqrt g.
  Let a := sqrt (ph L).
  Let b := sqrt (ph Rt).
  Let c := chat g L Rt.
  Let up := uperp L Rt sn cn.

  Local Lemma of_wet : wetpair L Rt. Proof. unfold wetpair; lra. Qed.
  Local Lemma of_k : 0 < k /\ k * k = g.
  Proof. unfold k; split; [apply sqrt_lt_R0; exact Hg|apply sqrt_sqrt; lra]. Qed.
  Local Lemma of_a : 0 < a /\ a * a = ph L.
  Proof. unfold a; split; [apply sqrt_lt_R0; exact Hh|apply sqrt_sqrt; lra]. Qed.
  Local Lemma of_b : 0 <= b /\ b * b = ph Rt.
  Proof. unfold b; split; [apply sqrt_pos|apply sqrt_sqrt; lra]. Qed.
  Local Lemma of_nr : unorm Rt sn cn = k * b.
  Proof. rewrite Hcrit. unfold k, b. apply sqrt_mult; lra. Qed.
  Local Lemma of_nl : unorm L sn cn = k * (b * b * b) / (a * a).
  Proof.
    destruct of_a as (Ha & Ha2), of_b as (Hb & Hb2). pose proof of_nr as E.
    rewrite E, <- Ha2, <- Hb2 in Hq.
    apply Rmult_eq_reg_l with (a * a); [|nra]. rewrite <- Hq. field. lra.
  Qed.
  Local Lemma of_up : up = k * (b * b) / a.
  Proof.
    destruct of_a as (Ha & Ha2), of_b as (Hb & Hb2).
    unfold up. rewrite uperp_avg by apply of_wet. fold a b. rewrite of_nl, of_nr. field. split; lra.
  Qed.
  Local Lemma of_c : 0 < c /\ c * c = 1/2 * (k * k) * (a * a + b * b).
  Proof.
    destruct of_a as (Ha & Ha2), of_b as (Hb & Hb2), of_k as (Hk & Hk2).
    unfold c; split; [apply chat_pos; [exact Hg|apply of_wet]|].
    rewrite chat_sq by (try exact Hg; apply of_wet). rewrite Hk2, Ha2, Hb2. reflexivity.
  Qed.
  Local Lemma of_cr : sqrt (g * ph Rt) = k * b.
  Proof. unfold k, b. apply sqrt_mult; lra. Qed.
  Local Lemma of_cl : sqrt (g * ph L) = k * a.
  Proof. unfold k, a. apply sqrt_mult; lra. Qed.

  Lemma outflow_subcritical : ph Rt <= ph L ->
    ph L * unorm L sn cn <= c0 (pflux g L Rt sn cn).
  Proof.
    intros Hsub.
    destruct of_a as (Ha & Ha2), of_b as (Hb & Hb2), of_k as (Hk & Hk2), of_c as (Hc & Hc2).
    pose proof of_up as Eup. pose proof of_nl as Enl. pose proof of_nr as Enr.
    assert (Hba : b <= a) by nra.
    assert (Hup0 : 0 <= up).
    { rewrite Eup. apply Rmult_le_pos; [apply Rmult_le_pos; nra|left; apply Rinv_0_lt_compat; exact Ha]. }
    assert (Hupc : up <= c).
    { apply Rsqr_incr_0_var; [|lra]. unfold Rsqr. rewrite Hc2.
      replace (up * up) with (k * k * (b * b * b * b / (a * a))) by (rewrite Eup; field; lra).
      assert (b * b * b * b / (a * a) <= b * b).
      { apply Rmult_le_reg_r with (a * a); [nra|].
        replace (b * b * b * b / (a * a) * (a * a)) with (b * b * (b * b)) by (field; lra).
        apply Rmult_le_compat_l; nra. }
      assert (0 < k * k) by nra. assert (b * b <= a * a) by nra.
      apply Rle_trans with (k * k * (b * b)); [apply Rmult_le_compat_l; lra|].
      apply Rle_trans with (k * k * (1/2 * (a * a + b * b))); [apply Rmult_le_compat_l; lra|].
      right. field. }
    unfold pflux, assemble_flux, pspec, flux_row, side_flux; cbn [lam row0 row1 row2 dW c0 c1 c2].
    fold c up. fold (unorm L sn cn) (unorm Rt sn cn).
    assert (Edn : (pu Rt - pu L) * cn + (pv Rt - pv L) * sn = unorm Rt sn cn - unorm L sn cn)
      by (unfold unorm; ring).
    rewrite Edn.
    set (l1 := pfix (Rabs (up - c)) _ _). set (l3 := pfix (Rabs (up + c)) _ _).
    assert (Hl1 : 0 <= l1).
    { apply Rle_trans with (Rabs (up - c)); [apply Rabs_pos|apply pfix_ge; apply Rabs_pos]. }
    assert (Hl3 : 0 <= l3).
    { apply Rle_trans with (Rabs (up + c)); [apply Rabs_pos|apply pfix_ge; apply Rabs_pos]. }
    unfold hhat. fold a b.
    assert (Er : a * b * (unorm Rt sn cn - unorm L sn cn) / c = - up * (ph Rt - ph L) / c).
    { f_equal. rewrite Enl, Enr, Eup, <- Ha2, <- Hb2. field. lra. }
    rewrite Er.
    assert (HdW0 : ph Rt - ph L - - up * (ph Rt - ph L) / c = (ph Rt - ph L) * (1 + up / c)) by (field; lra).
    assert (HdW2 : ph Rt - ph L + - up * (ph Rt - ph L) / c = (ph Rt - ph L) * (1 - up / c)) by (field; lra).
    rewrite HdW0, HdW2.
    assert (Hx : 0 <= up / c <= 1).
    { split; [apply Rmult_le_pos; [exact Hup0|left; apply Rinv_0_lt_compat; exact Hc]|].
      apply Rmult_le_reg_r with c; [exact Hc|]. replace (up / c * c) with up by (field; lra). lra. }
    assert (P1 : 0 <= l1 * ((ph L - ph Rt) * (1 + up / c))) by (apply Rmult_le_pos; [exact Hl1|apply Rmult_le_pos; lra]).
    assert (P3 : 0 <= l3 * ((ph L - ph Rt) * (1 - up / c))) by (apply Rmult_le_pos; [exact Hl3|apply Rmult_le_pos; lra]).
    replace (unorm Rt sn cn * ph Rt) with (ph L * unorm L sn cn) by (rewrite <- Hq; ring).
    nra.
  Qed.

  Lemma outflow_supercritical : ph L <= ph Rt -> pflux g L Rt sn cn = side_flux g L sn cn.
  Proof.
    intros Hsup.
    destruct of_a as (Ha & Ha2), of_b as (Hb & Hb2), of_k as (Hk & Hk2), of_c as (Hc & Hc2).
    pose proof of_up as Eup. pose proof of_nl as Enl. pose proof of_nr as Enr.
    assert (Hab : a <= b) by nra.
    assert (Hba2 : b <= b * b / a).
    { apply Rmult_le_reg_r with a; [exact Ha|]. replace (b * b / a * a) with (b * b) by (field; lra). nra. }
    assert (Hupc : c <= up).
    { apply Rsqr_incr_0_var.
      2:{ rewrite Eup. apply Rmult_le_pos; [apply Rmult_le_pos; nra|left; apply Rinv_0_lt_compat; exact Ha]. }
      unfold Rsqr. rewrite Hc2.
      replace (up * up) with (k * k * ((b * b / a) * (b * b / a))) by (rewrite Eup; field; lra).
      assert (0 < k * k) by nra. assert (a * a <= b * b) by nra.
      apply Rle_trans with (k * k * (b * b)).
      - apply Rle_trans with (k * k * (1/2 * (a * a + b * b))); [right; field|apply Rmult_le_compat_l; lra].
      - apply Rmult_le_compat_l; [lra|]. apply Rmult_le_compat; lra. }
    apply pflux_upwind_left; try assumption; [apply of_wet|fold up c; lra|].
    unfold fixes_off, fix_off. fold up c. rewrite of_cr, of_cl, Enr, Enl.
    assert (Hx : a * a <= b * b * b / (a * a) * a).
    { replace (b * b * b / (a * a) * a) with (b * (b * b) / a) by (field; lra).
      apply Rmult_le_reg_r with a; [exact Ha|]. replace (b * (b * b) / a * a) with (b * (b * b)) by (field; lra).
      assert (a * a <= b * b) by nra. nra. }
    (* 2 b - b^3/a^2 - a <= 0 *)
    assert (Hy : 2 * b - b * b * b / (a * a) - a <= 0).
    { apply Rmult_le_reg_r with (a * a); [nra|].
      replace ((2 * b - b * b * b / (a * a) - a) * (a * a)) with (2 * b * (a * a) - b * b * b - a * a * a) by (field; lra).
      assert (0 <= (b - a) * (b * b + a * b - a * a)).
      { apply Rmult_le_pos; [lra|]. assert (a * a <= b * b) by nra. nra. }
      nra. }
    split.
    - apply Rle_trans with 0; [|apply Rabs_pos].
      assert (a <= b * b * b / (a * a)).
      { apply Rmult_le_reg_r with a; [exact Ha|]. lra. }
      replace (2 * (k * b - k * b - (k * (b * b * b) / (a * a) - k * a)))
        with (2 * (k * (a - b * b * b / (a * a)))) by (field; lra). nra.
    - apply Rle_trans with 0; [|apply Rabs_pos].
      replace (2 * (k * b + k * b - (k * (b * b * b) / (a * a) + k * a)))
        with (2 * (k * (2 * b - b * b * b / (a * a) - a))) by (field; lra). nra.
  Qed.

  Lemma outflow_mass : ph L * unorm L sn cn <= c0 (pflux g L Rt sn cn).
  Proof.
    destruct (Rle_dec (ph Rt) (ph L)) as [H|H]; [apply outflow_subcritical; exact H|].
    rewrite outflow_supercritical by lra. unfold side_flux; cbn [c0]. fold (unorm L sn cn). lra.
  Qed.
End Outflow.

(** ** Boundary edges *)
Lemma wet_of_guard tiny (L Rt : prim) :
  0 < tiny -> 0 <= ph L -> 0 <= ph Rt ->
  (prim_dry tiny L && prim_dry tiny Rt)%bool = false -> wetpair L Rt.
Proof.
  intros Ht Hl Hr E. unfold wetpair, prim_dry in *.
  apply Bool.andb_false_iff in E. destruct E as [E|E]; apply Rltb_false in E; lra.
Qed.

Definition bc_ok (bc : bcond) : Prop := match bc with BCDirichlet q => 0 <= c0 q | _ => True end.

Lemma petsc_outflow_some L sn cn : 0 <= ph L ->
  exists L' Rt, petsc_outflow L sn cn = Some (L', Rt) /\ 0 <= ph L' /\ 0 <= ph Rt.
Proof.
  intros Hh. assert (Hg := GRAVITY_pos). unfold petsc_outflow.
  destruct (Rltb _ 0) eqn:E; [do 2 eexists; split; [reflexivity|cbn [ph]; lra]|].
  rewrite rdiv_some by lra. cbn [obind].
  set (x := _ / GRAVITY).
  assert (Hx : 0 <= x).
  { apply Rmult_le_pos; [apply Rle_0_sqr|left; apply Rinv_0_lt_compat; exact Hg]. }
  rewrite rcbrt_some by exact Hx. cbn [obind].
  assert (Hc0 := cbrt_nonneg x).
  rewrite rsqrt_some by (apply Rmult_le_pos; lra). cbn [obind].
  do 2 eexists; split; [reflexivity|cbn [ph]; lra].
Qed.

Lemma petsc_boundary_states_some tiny ha bc qL sn cn :
  0 < tiny -> 0 <= c0 qL -> bc_ok bc ->
  exists L Rt, petsc_boundary_states tiny ha bc qL sn cn = Some (L, Rt) /\ 0 <= ph L /\ 0 <= ph Rt.
Proof.
  intros Ht Hh Hb. unfold petsc_boundary_states.
  rewrite petsc_velocities_some by exact Ht. cbn [obind].
  destruct bc as [qR| |].
  - rewrite petsc_velocities_some by exact Ht. cbn [obind].
    do 2 eexists; split; [reflexivity|rewrite !pvel_h; split; [exact Hh|exact Hb]].
  - do 2 eexists; split; [reflexivity|]. cbn [petsc_reflect ph]. rewrite !pvel_h; lra.
  - apply petsc_outflow_some. rewrite pvel_h. exact Hh.
Qed.

Lemma petsc_boundary_edge_some tiny ha bc qL sn cn :
  0 < tiny -> 0 <= c0 qL -> bc_ok bc ->
  exists f a, petsc_boundary_edge tiny ha bc qL sn cn = Some (f, a).
Proof.
  intros Ht Hh Hb.
  destruct (petsc_boundary_states_some tiny ha bc qL sn cn Ht Hh Hb) as (L & Rt & E & Hl & Hr).
  unfold petsc_boundary_edge. rewrite E. cbn [obind].
  destruct (prim_dry tiny L && prim_dry tiny Rt)%bool eqn:G; [do 2 eexists; reflexivity|].
  rewrite petsc_roe_flux_some by (apply (wet_of_guard tiny); assumption).
  do 2 eexists; reflexivity.
Qed.

Lemma ceed_boundary_edge_some g tiny ha bc qL sn cn dhv :
  0 < g -> 0 <= tiny -> 0 <= c0 qL -> bc_ok bc ->
  exists f a, ceed_boundary_edge g tiny ha bc qL sn cn dhv = Some (f, a).
Proof.
  intros Hg Ht Hh Hb. unfold ceed_boundary_edge. destruct bc as [qR| |].
  - rewrite ceed_interior_edge_some by assumption.
    destruct (_ || _)%bool; do 2 eexists; reflexivity.
  - destruct (Rltb tiny (c0 qL)) eqn:E; [|do 2 eexists; reflexivity].
    apply Rltb_true in E. rewrite ceed_roe_flux_some by (cbn [c0]; lra). do 2 eexists; reflexivity.
  - rewrite rdiv_some by lra. cbn [obind]. set (x := _ / g).
    assert (Hx : 0 <= x).
    { apply Rmult_le_pos; [apply Rle_0_sqr|left; apply Rinv_0_lt_compat; exact Hg]. }
    rewrite rcbrt_some by exact Hx. cbn [obind]. assert (Hc0 := cbrt_nonneg x).
    rewrite rsqrt_some by (apply Rmult_le_pos; lra). cbn [obind].
    destruct (_ && _)%bool eqn:E; [|do 2 eexists; reflexivity].
    apply Bool.andb_true_iff in E. destruct E as [E _]. apply Bool.orb_true_iff in E.
    rewrite ceed_roe_flux_some; cbn [c0]; try assumption; [do 2 eexists; reflexivity|].
    destruct E as [E|E]; apply Rltb_true in E; lra.
Qed.

(* Nothing guards the recorded flux: an edge of a dry cell records 0/0. *)
Lemma petsc_recorded_dry tiny ha sn cn hu hv :
  0 < tiny -> petsc_boundary_recorded tiny ha BCReflecting (V3 0 hu hv) sn cn = None.
Proof.
  intros Ht. unfold petsc_boundary_recorded, petsc_boundary_states.
  rewrite petsc_velocities_some by exact Ht. cbn [obind].
  rewrite petsc_roe_flux_dry; [reflexivity| |].
  - rewrite pvel_h; reflexivity.
  - cbn [petsc_reflect ph]; rewrite pvel_h; reflexivity.
Qed.

Lemma pvel_wet tiny ha q : tiny <= c0 q ->
  pvel tiny ha q = Prim (c0 q) (c1 q * c0 q / (c0 q * c0 q + ha * ha)) (c2 q * c0 q / (c0 q * c0 q + ha * ha)).
Proof. intros H. unfold pvel. assert (E : Rltb (c0 q) tiny = false) by (apply Rltb_false; lra). rewrite E. reflexivity. Qed.
Lemma pvel_dry tiny ha q : c0 q < tiny -> pvel tiny ha q = Prim (c0 q) 0 0.
Proof. intros H. unfold pvel. assert (E : Rltb (c0 q) tiny = true) by (apply Rltb_true; lra). rewrite E. reflexivity. Qed.
Lemma cvel_wet tiny ha q : tiny < c0 q ->
  cvel tiny ha q = Prim (c0 q) (c1 q * c0 q / (c0 q * c0 q + ha * ha)) (c2 q * c0 q / (c0 q * c0 q + ha * ha)).
Proof. intros H. unfold cvel. assert (E : Rltb tiny (c0 q) = true) by (apply Rltb_true; lra). rewrite E. reflexivity. Qed.
Lemma cvel_dry tiny ha q : c0 q <= tiny -> cvel tiny ha q = Prim (c0 q) 0 0.
Proof. intros H. unfold cvel. assert (E : Rltb tiny (c0 q) = false) by (apply Rltb_false; lra). rewrite E. reflexivity. Qed.

(* Mirroring momenta or mirroring velocities is the same. *)
Definition mirror (q : vec3) (sn cn : R) : vec3 :=
  V3 (c0 q) (c1 q * (sn * sn - cn * cn) - c2 q * (2 * sn * cn)) (- c1 q * (2 * sn * cn) - c2 q * (sn * sn - cn * cn)).
Lemma cvel_mirror tiny ha q sn cn :
  0 <= tiny -> tiny < c0 q -> cvel tiny ha (mirror q sn cn) = petsc_reflect (cvel tiny ha q) sn cn.
Proof.
  intros Ht H. rewrite !cvel_wet by (cbn [mirror c0]; lra).
  assert (D := denom_nz (c0 q) ha ltac:(lra)).
  unfold petsc_reflect, mirror; cbn [c0 c1 c2 ph pu pv]. f_equal; field; exact D.
Qed.

Lemma reflecting_backends_agree tiny ha qL sn cn :
  0 < tiny -> 0 <= c0 qL -> c0 qL <> tiny ->
  ceed_boundary_edge GRAVITY tiny ha BCReflecting qL sn cn 0 = petsc_boundary_edge tiny ha BCReflecting qL sn cn.
Proof.
  intros Ht Hh Hne. unfold petsc_boundary_edge, petsc_boundary_states, ceed_boundary_edge.
  rewrite petsc_velocities_some by exact Ht. cbn [obind].
  unfold prim_dry. cbn [petsc_reflect ph]. rewrite pvel_h. rewrite Bool.andb_diag.
  destruct (Rltb tiny (c0 qL)) eqn:E.
  - apply Rltb_true in E.
    assert (E2 : Rltb (c0 qL) tiny = false) by (apply Rltb_false; lra). rewrite E2.
    fold (mirror qL sn cn).
    rewrite ceed_roe_flux_some by (cbn [mirror c0]; try apply GRAVITY_pos; lra).
    rewrite cflux_0, cvel_mirror, !cvel_pvel by (try exact Hne; lra).
    fold (petsc_reflect (pvel tiny ha qL) sn cn).
    rewrite <- petsc_roe_flux_some.
    + unfold petsc_reflect. rewrite pvel_h. reflexivity.
    + unfold wetpair; cbn [petsc_reflect ph]; rewrite pvel_h; lra.
  - apply Rltb_false in E.
    assert (E2 : Rltb (c0 qL) tiny = true) by (apply Rltb_true; lra). rewrite E2. reflexivity.
Qed.

Lemma dirichlet_backends_agree tiny ha qL qR sn cn :
  0 < tiny -> 0 <= c0 qL -> 0 <= c0 qR -> c0 qL <> tiny -> c0 qR <> tiny ->
  ceed_boundary_edge GRAVITY tiny ha (BCDirichlet qR) qL sn cn 0
  = petsc_boundary_edge tiny ha (BCDirichlet qR) qL sn cn.
Proof.
  intros Ht Hl Hr Nl Nr. cbn [ceed_boundary_edge]. rewrite interior_backends_agree by assumption.
  unfold petsc_interior_edge, petsc_boundary_edge, petsc_boundary_states.
  rewrite !petsc_velocities_some by exact Ht. cbn [obind].
  rewrite Bool.andb_comm. reflexivity.
Qed.

(* On a dry cell whose residual momentum points outwards the libCEED outflow condition draws
   water in through the boundary; the PETSc one does nothing. *)
Lemma ceed_outflow_dry_inflow tiny ha :
  0 < tiny -> tiny < 1 ->
  exists q f a,
    c0 q = 0 /\ 0 < c1 q * 1 + c2 q * 0 /\ ceed_boundary_edge GRAVITY tiny ha BCCriticalOutflow q 0 1 0 = Some (f, a) /\ c0 f < 0 /\
    petsc_boundary_edge tiny ha BCCriticalOutflow q 0 1 = Some (vzero, 0).
Proof.
  intros Ht Ht1. assert (Hg := GRAVITY_pos). set (g := GRAVITY) in *.
  assert (Hk : 0 < sqrt g) by (apply sqrt_lt_R0; exact Hg).
  assert (Hk2 : sqrt g * sqrt g = g) by (apply sqrt_sqrt; lra). set (k := sqrt g) in *.
  set (q := V3 0 k 0).
  assert (Eq : Rabs (k * 1 + 0 * 0) * Rabs (k * 1 + 0 * 0) / g = 1).
  { replace (k * 1 + 0 * 0) with k by ring. rewrite Rabs_right by lra. rewrite Hk2. field. lra. }
  assert (Ec : cbrt 1 = 1).
  { assert (H := cbrt_cube 1 ltac:(lra)). assert (H0 := cbrt_nonneg 1). set (x := cbrt 1) in *. nra. }
  assert (E : ceed_boundary_edge g tiny ha BCCriticalOutflow q 0 1 0
              = ceed_roe_flux g tiny ha q (V3 1 (1 * k * 1) (1 * k * 0)) 0 1 0).
  { unfold ceed_boundary_edge. unfold q at 1 2 3 4; cbn [c0 c1 c2].
    rewrite rdiv_some by lra. cbn [obind]. rewrite Eq, rcbrt_some, Ec by lra. cbn [obind].
    rewrite Rmult_1_r, rsqrt_some by lra. cbn [obind]. fold k.
    assert (E1 : Rltb tiny 1 = true) by (apply Rltb_true; exact Ht1). rewrite E1, Bool.orb_true_r.
    match goal with |- context [Rleb 0 ?x] =>
      assert (E2 : Rleb 0 x = true) by (apply Rleb_true; cbn [q c1 c2]; lra); rewrite E2 end.
    cbn [andb]. reflexivity. }
  rewrite ceed_roe_flux_some in E by (cbn [q c0]; lra).
  rewrite cflux_0 in E.
  do 3 eexists. split; [|split; [|split; [exact E|split]]].
  - reflexivity.
  - cbn [q c1 c2]. lra.
  - rewrite (cvel_dry tiny ha q) by (cbn [q c0]; lra).
    rewrite cvel_wet by (cbn [c0]; lra). cbn [q c0 c1 c2].
    set (d := 1 * 1 + ha * ha). assert (Hd : 1 <= d) by (unfold d; nra).
    set (w := k / d).
    assert (Ew : 1 * k * 1 * 1 / d = w) by (unfold w; field; lra).
    assert (Ew0 : 1 * k * 0 * 1 / d = 0) by (field; lra).
    rewrite Ew, Ew0.
    assert (Hw0 : 0 < w) by (apply Rmult_lt_0_compat; [exact Hk|apply Rinv_0_lt_compat; lra]).
    assert (Hwk : w <= k).
    { apply Rmult_le_reg_r with d; [lra|]. unfold w. replace (k / d * d) with k by (field; lra). nra. }
    set (L := Prim 0 0 0). set (Rt := Prim 1 w 0).
    unfold pflux, assemble_flux, pspec, flux_row, side_flux; cbn [lam row0 row1 row2 dW c0 c1 c2].
    assert (Hhh : hhat L Rt = 0) by (unfold hhat, L, Rt; cbn [ph]; rewrite sqrt_0; ring).
    assert (Eun : forall x y, unorm (Prim x y 0) 0 1 = y) by (intros; unfold unorm; cbn [pu pv]; ring).
    assert (EuL : unorm L 0 1 = 0) by apply Eun. assert (EuR : unorm Rt 0 1 = w) by apply Eun.
    rewrite Hhh, EuL, EuR.
    change (ph L) with 0. change (ph Rt) with 1. change (pu L) with 0. change (pv L) with 0.
    change (pu Rt) with w. change (pv Rt) with 0.
    rewrite (Rmult_0_r g), sqrt_0, (Rmult_1_r g). fold k.
    set (c := chat g L Rt). set (up := uperp L Rt 0 1).
    assert (Eup : up = w).
    { unfold up, uperp, uhat, vhat, L, Rt; cbn [ph pu pv]. rewrite sqrt_0, sqrt_1. field. }
    assert (Ecc : c * c = 1/2 * g).
    { unfold c. rewrite chat_sq; [unfold L, Rt; cbn [ph]; field|exact Hg|unfold wetpair, L, Rt; cbn [ph]; lra]. }
    assert (Hc : 0 < c) by (apply chat_pos; [exact Hg|unfold wetpair, L, Rt; cbn [ph]; lra]).
    set (l1 := pfix (Rabs (up - c)) _ _). set (l3 := pfix (Rabs (up + c)) _ _).
    assert (H3 : w + k <= l3).
    { unfold l3. assert (H := pfix_rarefaction (Rabs (up + c)) (0 + 0) (w + k) (Rabs_pos _) ltac:(lra)). lra. }
    assert (H1 : 0 <= l1).
    { unfold l1. eapply Rle_trans; [apply Rabs_pos|apply pfix_ge; apply Rabs_pos]. }
    assert (Hz : 0 * ((w - 0) * 1 + (0 - 0) * 0) / c = 0) by (field; lra). rewrite Hz.
    assert (Hk' : k < 2 * c) by nra.
    destruct (Rle_lt_or_eq_dec 0 l1 H1) as [H1'|H1'].
    + nra.
    + (* l1 = 0 would need up = c, and then up + c corrects l3 strictly above w + k *)
      assert (Huc : up = c).
      { assert (Hle : Rabs (up - c) <= l1) by (unfold l1; apply pfix_ge; apply Rabs_pos).
        assert (Hp := Rabs_pos (up - c)). assert (Hz0 : Rabs (up - c) = 0) by lra.
        destruct (Req_dec (up - c) 0) as [Hz1|Hz1]; [lra|]. apply Rabs_no_R0 in Hz1. lra. }
      assert (Hl3 : w + k < l3).
      { unfold l3, pfix. rewrite (Rabs_right (up + c)) by lra.
        assert (Hm : Rmax 0 (2 * (w + k - (0 + 0))) = 2 * (w + k)) by (rewrite Rmax_right; lra).
        rewrite Hm. assert (Hlt : Rltb (up + c) (2 * (w + k)) = true) by (apply Rltb_true; nra).
        rewrite Hlt.
        assert (0 < (up + c) * (up + c) / (2 * (w + k))).
        { apply Rmult_lt_0_compat; [nra|apply Rinv_0_lt_compat; lra]. }
        lra. }
      nra.
  - unfold petsc_boundary_edge, petsc_boundary_states.
    rewrite petsc_velocities_some by exact Ht. cbn [obind].
    rewrite pvel_dry by (cbn [q c0]; exact Ht).
    unfold petsc_outflow. cbn [ph pu pv q c0]. change GRAVITY with g.
    replace (0 * 1 + 0 * 0) with 0 by ring.
    assert (E0 : Rltb 0 0 = false) by (apply Rltb_false; lra). rewrite E0, Rmult_0_l, Rmult_0_l.
    rewrite rdiv_some by lra. cbn [obind].
    assert (E00 : 0 / g = 0) by (field; lra). rewrite E00.
    rewrite rcbrt_some by lra. cbn [obind].
    assert (Ec0 : cbrt 0 = 0).
    { assert (H := cbrt_cube 0 ltac:(lra)). set (x := cbrt 0) in *.
      apply Rmult_integral in H. destruct H as [H|H]; [|exact H].
      apply Rmult_integral in H. destruct H as [H|H]; exact H. }
    rewrite Ec0, Rmult_0_r, rsqrt_some by lra. cbn [obind].
    unfold prim_dry; cbn [ph].
    assert (Et : Rltb 0 tiny = true) by (apply Rltb_true; exact Ht). rewrite Et. reflexivity.
Qed.

(** ** Edge-level symmetries *)
Definition oneg (r : option (vec3 * R)) : option (vec3 * R) :=
  option_map (fun p => (vscal (-1) (fst p), snd p)) r.

Lemma wet_pvel tiny ha qL qR :
  0 < tiny -> 0 <= c0 qL -> 0 <= c0 qR -> ((c0 qR <? tiny) && (c0 qL <? tiny))%bool = false ->
  wetpair (pvel tiny ha qL) (pvel tiny ha qR).
Proof.
  intros Ht Hl Hr E. unfold wetpair. rewrite !pvel_h.
  apply Bool.andb_false_iff in E. destruct E as [E|E]; apply Rltb_false in E; lra.
Qed.
Lemma wet_cvel tiny ha qL qR :
  0 <= tiny -> 0 <= c0 qL -> 0 <= c0 qR -> ((tiny <? c0 qL) || (tiny <? c0 qR))%bool = true ->
  wetpair (cvel tiny ha qL) (cvel tiny ha qR).
Proof.
  intros Ht Hl Hr E. unfold wetpair. rewrite !cvel_h.
  apply Bool.orb_true_iff in E. destruct E as [E|E]; apply Rltb_true in E; lra.
Qed.

Lemma petsc_interior_reverse tiny ha qL qR sn cn :
  0 < tiny -> 0 <= c0 qL -> 0 <= c0 qR ->
  petsc_interior_edge tiny ha qR qL (- sn) (- cn) = oneg (petsc_interior_edge tiny ha qL qR sn cn).
Proof.
  intros Ht Hl Hr. rewrite !petsc_interior_edge_some by assumption.
  rewrite (Bool.andb_comm (c0 qL <? tiny)).
  destruct ((c0 qR <? tiny) && (c0 qL <? tiny))%bool eqn:E.
  - cbn [oneg option_map fst snd]. unfold vscal, vzero; cbn [c0 c1 c2].
    rewrite !Rmult_0_r. reflexivity.
  - cbn [oneg option_map fst snd].
    rewrite (pflux_reverse GRAVITY (pvel tiny ha qL)) by (try apply GRAVITY_pos; apply wet_pvel; assumption).
    rewrite amax_reverse. reflexivity.
Qed.

Lemma ceed_interior_reverse g tiny ha qL qR sn cn dhv :
  0 < g -> 0 <= tiny -> 0 <= c0 qL -> 0 <= c0 qR ->
  ceed_interior_edge g tiny ha qR qL (- sn) (- cn) (- dhv) = oneg (ceed_interior_edge g tiny ha qL qR sn cn dhv).
Proof.
  intros Hg Ht Hl Hr. rewrite !ceed_interior_edge_some by assumption.
  rewrite (Bool.orb_comm (tiny <? c0 qR)).
  destruct ((tiny <? c0 qL) || (tiny <? c0 qR))%bool eqn:E.
  - cbn [oneg option_map fst snd]. unfold cflux.
    rewrite (pflux_reverse g (cvel tiny ha qL)) by (try exact Hg; apply wet_cvel; assumption).
    rewrite amax_reverse. f_equal. f_equal. apply vec3_ext; cbn [vscal c0 c1 c2]; field.
  - cbn [oneg option_map fst snd]. unfold vscal, vzero; cbn [c0 c1 c2].
    rewrite !Rmult_0_r. reflexivity.
Qed.

Lemma pvel_rot tiny ha co si q : 0 < tiny -> pvel tiny ha (rot_vec co si q) = rot_prim co si (pvel tiny ha q).
Proof.
  intros Ht. unfold pvel, rot_vec; cbn [c0 c1 c2].
  destruct (Rltb (c0 q) tiny) eqn:E; unfold rot_prim; cbn [ph pu pv].
  - f_equal; ring.
  - apply Rltb_false in E. assert (D := denom_nz (c0 q) ha ltac:(lra)). f_equal; field; exact D.
Qed.
Lemma cvel_rot tiny ha co si q : 0 <= tiny -> cvel tiny ha (rot_vec co si q) = rot_prim co si (cvel tiny ha q).
Proof.
  intros Ht. unfold cvel, rot_vec; cbn [c0 c1 c2].
  destruct (Rltb tiny (c0 q)) eqn:E; unfold rot_prim; cbn [ph pu pv].
  - apply Rltb_true in E. assert (D := denom_nz (c0 q) ha ltac:(lra)). f_equal; field; exact D.
  - f_equal; ring.
Qed.

Definition orot (co si : R) (r : option (vec3 * R)) : option (vec3 * R) :=
  option_map (fun p => (rot_vec co si (fst p), snd p)) r.

Lemma rot_vzero co si : rot_vec co si vzero = vzero.
Proof. unfold rot_vec, vzero; cbn [c0 c1 c2]. f_equal; ring. Qed.

Lemma petsc_interior_rotate tiny ha qL qR sn cn co si :
  0 < tiny -> 0 <= c0 qL -> 0 <= c0 qR -> unit2 si co ->
  petsc_interior_edge tiny ha (rot_vec co si qL) (rot_vec co si qR) (si * cn + co * sn) (co * cn - si * sn)
  = orot co si (petsc_interior_edge tiny ha qL qR sn cn).
Proof.
  intros Ht Hl Hr Hu. rewrite !petsc_interior_edge_some by assumption.
  cbn [rot_vec c0].
  fold (rot_vec co si qL) (rot_vec co si qR). rewrite !pvel_rot by exact Ht.
  destruct ((c0 qR <? tiny) && (c0 qL <? tiny))%bool eqn:E; cbn [orot option_map fst snd].
  - rewrite rot_vzero. reflexivity.
  - rewrite pflux_rotate, amax_rotate; try assumption; try apply GRAVITY_pos; try (apply wet_pvel; assumption).
    reflexivity.
Qed.

Lemma ceed_interior_rotate g tiny ha qL qR sn cn co si dhv :
  0 < g -> 0 <= tiny -> 0 <= c0 qL -> 0 <= c0 qR -> unit2 si co ->
  ceed_interior_edge g tiny ha (rot_vec co si qL) (rot_vec co si qR) (si * cn + co * sn) (co * cn - si * sn) dhv
  = orot co si (ceed_interior_edge g tiny ha qL qR sn cn dhv).
Proof.
  intros Hg Ht Hl Hr Hu. rewrite !ceed_interior_edge_some by assumption.
  cbn [rot_vec c0].
  fold (rot_vec co si qL) (rot_vec co si qR). rewrite !cvel_rot by exact Ht.
  destruct ((tiny <? c0 qL) || (tiny <? c0 qR))%bool eqn:E; cbn [orot option_map fst snd].
  - unfold cflux. rewrite pflux_rotate, amax_rotate; try assumption; try (apply wet_cvel; assumption).
    f_equal. f_equal. apply vec3_ext; cbn [rot_vec c0 c1 c2]; field.
  - rewrite rot_vzero. reflexivity.
Qed.

(** ** Consistency at the edge level, without velocity regularisation *)
Lemma vel_plain h m : 0 < h -> m * h / (h * h + 0 * 0) = m / h.
Proof. intros H. replace (h * h + 0 * 0) with (h * h) by ring. field. lra. Qed.

Lemma petsc_interior_consistent tiny q sn cn :
  0 < tiny -> tiny <= c0 q ->
  exists a, petsc_interior_edge tiny 0 q q sn cn
            = Some (side_flux GRAVITY (Prim (c0 q) (c1 q / c0 q) (c2 q / c0 q)) sn cn, a).
Proof.
  intros Ht Hh. rewrite petsc_interior_edge_some by lra.
  assert (E : Rltb (c0 q) tiny = false) by (apply Rltb_false; lra). rewrite E. cbn [andb].
  eexists. rewrite pflux_consistent by (try rewrite pvel_h; try apply GRAVITY_pos; lra).
  rewrite pvel_wet by exact Hh. rewrite !vel_plain by lra. reflexivity.
Qed.
Lemma ceed_interior_consistent g tiny q sn cn :
  0 < g -> 0 <= tiny -> tiny < c0 q ->
  exists a, ceed_interior_edge g tiny 0 q q sn cn 0
            = Some (side_flux g (Prim (c0 q) (c1 q / c0 q) (c2 q / c0 q)) sn cn, a).
Proof.
  intros Hg Ht Hh. rewrite ceed_interior_edge_some by lra.
  assert (E : Rltb tiny (c0 q) = true) by (apply Rltb_true; lra). rewrite E. cbn [orb].
  eexists. rewrite cflux_0, pflux_consistent by (try rewrite cvel_h; lra).
  rewrite cvel_wet by exact Hh. rewrite !vel_plain by lra. reflexivity.
Qed.

(** ** Reflecting and outflow edges *)
Lemma petsc_reflecting_edge tiny ha qL sn cn :
  0 < tiny -> tiny <= c0 qL -> unit2 sn cn ->
  let L := pvel tiny ha qL in
  exists f a, petsc_boundary_edge tiny ha BCReflecting qL sn cn = Some (f, a) /\
    c0 f = 0 /\ - c1 f * sn + c2 f * cn = 0 /\
    (unorm L sn cn = 0 -> c1 f = 1/2 * GRAVITY * c0 qL * c0 qL * cn /\ c2 f = 1/2 * GRAVITY * c0 qL * c0 qL * sn).
Proof.
  intros Ht Hh Hu L.
  unfold petsc_boundary_edge, petsc_boundary_states.
  rewrite petsc_velocities_some by exact Ht. cbn [obind]. fold L.
  assert (EhL : ph L = c0 qL) by apply pvel_h.
  unfold prim_dry. cbn [petsc_reflect ph]. rewrite EhL, Bool.andb_diag.
  assert (E : Rltb (c0 qL) tiny = false) by (apply Rltb_false; lra). rewrite E.
  rewrite <- EhL. fold (petsc_reflect L sn cn).
  rewrite petsc_roe_flux_some by (unfold wetpair; cbn [petsc_reflect ph]; rewrite EhL; lra).
  destruct (reflect_flux GRAVITY L sn cn GRAVITY_pos ltac:(rewrite EhL; lra) Hu) as (F0 & F1 & F2).
  do 2 eexists; split; [reflexivity|]. split; [exact F0|]. split; [exact F1|].
  intros Hn. rewrite Hn in F2. cbn [petsc_reflect ph] in *.
  set (f := pflux _ _ _ _ _) in *. unfold unit2 in Hu.
  assert (F2' : c1 f * cn + c2 f * sn = 1/2 * GRAVITY * ph L * ph L) by (rewrite F2; ring).
  split.
  - transitivity (cn * (c1 f * cn + c2 f * sn) - sn * (- c1 f * sn + c2 f * cn)).
    + transitivity ((cn * cn + sn * sn) * c1 f); [rewrite Hu; ring|ring].
    + rewrite F1, F2'. ring.
  - transitivity (sn * (c1 f * cn + c2 f * sn) + cn * (- c1 f * sn + c2 f * cn)).
    + transitivity ((cn * cn + sn * sn) * c2 f); [rewrite Hu; ring|ring].
    + rewrite F1, F2'. ring.
Qed.

Lemma petsc_reflecting_dry tiny ha qL sn cn :
  0 < tiny -> c0 qL < tiny -> petsc_boundary_edge tiny ha BCReflecting qL sn cn = Some (vzero, 0).
Proof.
  intros Ht Hh. unfold petsc_boundary_edge, petsc_boundary_states.
  rewrite petsc_velocities_some by exact Ht. cbn [obind].
  unfold prim_dry. cbn [petsc_reflect ph]. rewrite pvel_h, Bool.andb_diag.
  assert (E : Rltb (c0 qL) tiny = true) by (apply Rltb_true; lra). rewrite E. reflexivity.
Qed.

Lemma petsc_reflecting_no_mass tiny ha qL sn cn :
  0 < tiny -> 0 <= c0 qL -> unit2 sn cn ->
  exists f a, petsc_boundary_edge tiny ha BCReflecting qL sn cn = Some (f, a) /\
              c0 f = 0 /\ - c1 f * sn + c2 f * cn = 0.
Proof.
  intros Ht Hh Hu. destruct (Rlt_dec (c0 qL) tiny) as [H|H].
  - exists vzero, 0. rewrite petsc_reflecting_dry by assumption.
    split; [reflexivity|]. unfold vzero; cbn [c0 c1 c2]. split; ring.
  - destruct (petsc_reflecting_edge tiny ha qL sn cn Ht ltac:(lra) Hu) as (f & a & E & F0 & F1 & _).
    exists f, a. auto.
Qed.

Lemma ceed_reflecting_no_mass g tiny ha qL sn cn dhv :
  0 < g -> 0 <= tiny -> 0 <= c0 qL -> unit2 sn cn ->
  exists f a, ceed_boundary_edge g tiny ha BCReflecting qL sn cn dhv = Some (f, a) /\
              c0 f = 0 /\ - c1 f * sn + c2 f * cn = 0.
Proof.
  intros Hg Ht Hh Hu. unfold ceed_boundary_edge.
  destruct (Rltb tiny (c0 qL)) eqn:E.
  - apply Rltb_true in E. fold (mirror qL sn cn).
    rewrite ceed_roe_flux_some by (cbn [mirror c0]; lra).
    rewrite cvel_mirror by lra.
    destruct (reflect_flux g (cvel tiny ha qL) sn cn Hg ltac:(rewrite cvel_h; lra) Hu) as (F0 & F1 & F2).
    do 2 eexists; split; [reflexivity|]. unfold cflux; cbn [c0 c1 c2]. split; [exact F0|].
    rewrite <- F1. field.
  - exists vzero, 0. split; [reflexivity|]. unfold vzero; cbn [c0 c1 c2]. split; ring.
Qed.

Lemma petsc_outflow_edge tiny ha qL sn cn :
  0 < tiny -> 0 <= c0 qL -> unit2 sn cn ->
  let L := pvel tiny ha qL in
  exists f a, petsc_boundary_edge tiny ha BCCriticalOutflow qL sn cn = Some (f, a) /\
    (unorm L sn cn < 0 -> f = vzero) /\
    (0 <= unorm L sn cn -> tiny <= c0 qL -> c0 qL * unorm L sn cn <= c0 f) /\
    (c0 qL < tiny -> f = vzero).
Proof.
  intros Ht Hh Hu L. assert (Hg := GRAVITY_pos).
  unfold petsc_boundary_edge, petsc_boundary_states.
  rewrite petsc_velocities_some by exact Ht. cbn [obind]. fold L.
  assert (EhL : ph L = c0 qL) by apply pvel_h.
  assert (Et0 : Rltb 0 tiny = true) by (apply Rltb_true; exact Ht).
  destruct (Rlt_dec (unorm L sn cn) 0) as [Hn|Hn].
  - rewrite petsc_outflow_in by exact Hn. cbn [obind]. unfold prim_dry; cbn [ph]. rewrite Et0. cbn [andb].
    exists vzero, 0. repeat split; try reflexivity. intros; lra.
  - destruct (petsc_outflow_out L sn cn Hu ltac:(rewrite EhL; exact Hh) ltac:(lra)) as (Rt & E & Hr & Hc & Hut & Hq).
    rewrite E. cbn [obind]. unfold prim_dry. rewrite EhL.
    destruct (Rltb (c0 qL) tiny) eqn:G.
    + (* dry: velocities are zero, so the exterior is dry too *)
      apply Rltb_true in G. cbn [andb].
      assert (EL : L = Prim (c0 qL) 0 0) by (unfold L; apply pvel_dry; exact G).
      assert (Eun : unorm L sn cn = 0) by (rewrite EL; unfold unorm; cbn [pu pv]; ring).
      rewrite Eun, Rmult_0_r in Hq.
      assert (Hr0 : ph Rt = 0).
      { apply Rmult_integral in Hq. destruct Hq as [Hq|Hq]; [exact Hq|]. rewrite Hc in Hq.
        destruct (Rle_lt_or_eq_dec 0 (ph Rt) Hr) as [Hp|Hp]; [|lra].
        assert (0 < sqrt (GRAVITY * ph Rt)) by (apply sqrt_lt_R0; apply Rmult_lt_0_compat; lra). lra. }
      rewrite Hr0, Et0. exists vzero, 0. repeat split; try reflexivity. intros; lra.
    + apply Rltb_false in G. cbn [andb].
      rewrite petsc_roe_flux_some by (unfold wetpair; rewrite EhL; lra).
      do 2 eexists; split; [reflexivity|]. split; [intros; lra|]. split; [|intros; lra].
      intros _ _. rewrite <- EhL. apply outflow_mass; try assumption. rewrite EhL; lra.
Qed.

Lemma petsc_outflow_never_in tiny ha qL sn cn :
  0 < tiny -> 0 <= c0 qL -> unit2 sn cn ->
  exists f a, petsc_boundary_edge tiny ha BCCriticalOutflow qL sn cn = Some (f, a) /\ 0 <= c0 f.
Proof.
  intros Ht Hh Hu.
  destruct (petsc_outflow_edge tiny ha qL sn cn Ht Hh Hu) as (f & a & E & F1 & F2 & F3).
  exists f, a. split; [exact E|].
  destruct (Rlt_dec (unorm (pvel tiny ha qL) sn cn) 0) as [Hn|Hn].
  - rewrite F1 by exact Hn. cbn. lra.
  - destruct (Rlt_dec (c0 qL) tiny) as [Hd|Hd].
    + rewrite F3 by exact Hd. cbn. lra.
    + apply Rle_trans with (c0 qL * unorm (pvel tiny ha qL) sn cn); [apply Rmult_le_pos; lra|apply F2; lra].
Qed.

(** ** Wet cell next to a dry one *)
Lemma wetdry g h :
  0 < g -> 0 < h ->
  let L := Prim h 0 0 in let Rt := Prim 0 0 0 in let c := sqrt (g * h) in
  lam (pspec g L Rt 0 1) = V3 (9/8 * c) 0 (c / sqrt 2) /\
  chat g L Rt + Rabs (uperp L Rt 0 1) = c / sqrt 2 /\
  c0 (pflux g L Rt 0 1) = 1/4 * h * (9/8 * c + c / sqrt 2).
Proof.
  intros Hg Hh L Rt c.
  assert (Hw : wetpair L Rt) by (unfold wetpair, L, Rt; cbn [ph]; lra).
  assert (Hc : 0 < c) by (apply sqrt_lt_R0; apply Rmult_lt_0_compat; assumption).
  assert (Hc2 : c * c = g * h) by (apply sqrt_sqrt; apply Rmult_le_pos; lra).
  assert (H2 : 0 < sqrt 2) by (apply sqrt_lt_R0; lra).
  assert (H22 : sqrt 2 * sqrt 2 = 2) by (apply sqrt_sqrt; lra).
  assert (Hs : 0 < sqrt h) by (apply sqrt_lt_R0; exact Hh).
  assert (Ech : chat g L Rt = c / sqrt 2).
  { unfold chat, L, Rt; cbn [ph].
    apply Rsqr_inj; [apply sqrt_pos|apply Rmult_le_pos; [lra|left; apply Rinv_0_lt_compat; exact H2]|].
    unfold Rsqr. rewrite sqrt_sqrt by (apply Rmult_le_pos; lra).
    transitivity (c * c / (sqrt 2 * sqrt 2)); [rewrite Hc2, H22; field|field; lra]. }
  assert (Eup : uperp L Rt 0 1 = 0).
  { unfold uperp, uhat, vhat, L, Rt; cbn [ph pu pv]. rewrite sqrt_0. field. lra. }
  assert (Eg0 : sqrt (g * 0) = 0) by (rewrite Rmult_0_r; apply sqrt_0).
  assert (Hcs : 0 < c / sqrt 2) by (rewrite <- Ech; apply chat_pos; assumption).
  assert (Hlt : c / sqrt 2 < c).
  { apply Rmult_lt_reg_r with (sqrt 2); [exact H2|]. replace (c / sqrt 2 * sqrt 2) with c by (field; lra).
    assert (1 < sqrt 2) by nra. nra. }
  assert (Hsq : c / sqrt 2 * (c / sqrt 2) = c * c / 2).
  { transitivity (c * c / (sqrt 2 * sqrt 2)); [field; lra|rewrite H22; reflexivity]. }
  assert (El : lam (pspec g L Rt 0 1) = V3 (9/8 * c) 0 (c / sqrt 2)).
  { unfold pspec; cbn [lam]. rewrite Eup, Ech, Rabs_R0.
    replace (unorm L 0 1) with 0 by (unfold unorm, L; cbn [pu pv]; ring).
    replace (unorm Rt 0 1) with 0 by (unfold unorm, Rt; cbn [pu pv]; ring).
    cbn [ph L Rt]. change (ph L) with h. change (ph Rt) with 0. rewrite Eg0. fold c.
    f_equal.
    - unfold pfix. rewrite Rmax_right by lra.
      replace (0 - c / sqrt 2) with (- (c / sqrt 2)) by ring. rewrite Rabs_Ropp, Rabs_right by lra.
      assert (E : Rltb (c / sqrt 2) (2 * (0 - 0 - (0 - c))) = true) by (apply Rltb_true; lra). rewrite E.
      rewrite Hsq. field. lra.
    - rewrite Rplus_0_l. rewrite Rabs_right by lra. apply pfix_off; [lra|unfold fix_off; lra]. }
  split; [exact El|]. split; [rewrite Eup, Ech, Rabs_R0; ring|].
  unfold pflux, assemble_flux. cbn [c0]. rewrite El. unfold flux_row, side_flux, pspec; cbn [c0 c1 c2 row0 dW].
  replace (hhat L Rt) with 0 by (unfold hhat, Rt; cbn [ph]; rewrite sqrt_0; ring).
  change (ph L) with h. change (ph Rt) with 0. change (pu L) with 0. change (pv L) with 0.
  change (pu Rt) with 0. change (pv Rt) with 0. rewrite Ech. field. lra.
Qed.

(** ** Where the back ends differ *)
Lemma backends_differ_at_threshold tiny ha :
  0 < tiny ->
  exists f a, petsc_interior_edge tiny ha (V3 tiny 0 0) (V3 0 0 0) 0 1 = Some (f, a) /\ 0 < c0 f /\
    ceed_interior_edge GRAVITY tiny ha (V3 tiny 0 0) (V3 0 0 0) 0 1 0 = Some (vzero, 0).
Proof.
  intros Ht. assert (Hg := GRAVITY_pos).
  rewrite petsc_interior_edge_some by (cbn [c0]; lra). cbn [c0].
  assert (E : Rltb tiny tiny = false) by (apply Rltb_false; lra). rewrite E, Bool.andb_false_r.
  do 2 eexists; split; [reflexivity|]. split.
  - rewrite pvel_wet by (cbn [c0]; lra). rewrite pvel_dry by (cbn [c0]; lra). cbn [c0 c1 c2].
    assert (D := denom_nz tiny ha Ht).
    replace (0 * tiny / (tiny * tiny + ha * ha)) with 0 by (field; exact D).
    destruct (wetdry GRAVITY tiny Hg Ht) as (_ & _ & E2). rewrite E2.
    assert (H2 : 0 < sqrt 2) by (apply sqrt_lt_R0; lra).
    assert (Hc : 0 < sqrt (GRAVITY * tiny)) by (apply sqrt_lt_R0; apply Rmult_lt_0_compat; assumption).
    assert (0 < sqrt (GRAVITY * tiny) / sqrt 2) by (apply Rmult_lt_0_compat; [exact Hc|apply Rinv_0_lt_compat; exact H2]).
    apply Rmult_lt_0_compat; lra.
  - unfold ceed_interior_edge; cbn [c0]. rewrite E.
    assert (E2 : Rltb tiny 0 = false) by (apply Rltb_false; lra). rewrite E2. reflexivity.
Qed.

(** ** Agreement of the outflow condition (no velocity regularisation, wet exterior) *)
Lemma prim_ext (P Q : prim) : ph P = ph Q -> pu P = pu Q -> pv P = pv Q -> P = Q.
Proof. destruct P, Q; cbn; intros; subst; reflexivity. Qed.

Lemma outflow_backends_agree tiny qL sn cn :
  0 < tiny -> tiny < c0 qL ->
  (c1 qL * cn + c2 qL * sn < 0 \/
   GRAVITY * (tiny * tiny * tiny) < (c1 qL * cn + c2 qL * sn) * (c1 qL * cn + c2 qL * sn)) ->
  ceed_boundary_edge GRAVITY tiny 0 BCCriticalOutflow qL sn cn 0
  = petsc_boundary_edge tiny 0 BCCriticalOutflow qL sn cn.
Proof.
  intros Ht Hh Hcase. assert (Hg := GRAVITY_pos).
  unfold ceed_boundary_edge, petsc_boundary_edge, petsc_boundary_states.
  rewrite petsc_velocities_some by exact Ht. cbn [obind].
  rewrite pvel_wet by lra. rewrite !vel_plain by lra.
  set (q := c1 qL * cn + c2 qL * sn) in *.
  assert (Eun : c1 qL / c0 qL * cn + c2 qL / c0 qL * sn = q / c0 qL) by (unfold q; field; lra).
  unfold petsc_outflow; cbn [ph pu pv]. rewrite Eun.
  rewrite !rdiv_some by lra. cbn [obind].
  set (x := Rabs q * Rabs q / GRAVITY).
  assert (Hx : 0 <= x).
  { apply Rmult_le_pos; [apply Rle_0_sqr|left; apply Rinv_0_lt_compat; exact Hg]. }
  rewrite (rcbrt_some x) by exact Hx. cbn [obind]. assert (Hr0 := cbrt_nonneg x).
  rewrite (rsqrt_some (GRAVITY * cbrt x)) by (apply Rmult_le_pos; lra). cbn [obind].
  assert (Hl : Rltb tiny (c0 qL) = true) by (apply Rltb_true; exact Hh). rewrite Hl. cbn [orb andb].
  destruct (Rlt_dec q 0) as [Hq|Hq].
  - assert (E1 : Rleb 0 q = false) by (apply Rleb_false; lra). rewrite E1.
    assert (E2 : Rltb (q / c0 qL) 0 = true).
    { apply Rltb_true. unfold Rdiv. assert (0 < / c0 qL) by (apply Rinv_0_lt_compat; lra). nra. }
    rewrite E2. cbn [obind]. unfold prim_dry; cbn [ph].
    assert (E3 : Rltb 0 tiny = true) by (apply Rltb_true; exact Ht). rewrite E3. reflexivity.
  - destruct Hcase as [Hc|Hc]; [lra|].
    assert (E1 : Rleb 0 q = true) by (apply Rleb_true; lra). rewrite E1.
    assert (Hqd : 0 <= q / c0 qL).
    { apply Rmult_le_pos; [lra|left; apply Rinv_0_lt_compat; lra]. }
    assert (E2 : Rltb (q / c0 qL) 0 = false) by (apply Rltb_false; exact Hqd). rewrite E2.
    assert (Eq : c0 qL * Rabs (q / c0 qL) = Rabs q).
    { rewrite !Rabs_right by lra. field. lra. }
    rewrite Eq. fold x. rewrite (rcbrt_some x) by exact Hx. cbn [obind].
    rewrite (rsqrt_some (GRAVITY * cbrt x)) by (apply Rmult_le_pos; lra). cbn [obind].
    set (hr := cbrt x) in *. set (w := sqrt (GRAVITY * hr)).
    assert (Hcu : hr * hr * hr = q * q / GRAVITY).
    { unfold hr. rewrite cbrt_cube by exact Hx. unfold x. rewrite Rabs_right by lra. reflexivity. }
    assert (Hhr : tiny < hr).
    { destruct (Rlt_dec tiny hr) as [H|H]; [exact H|exfalso].
      assert (H3 : hr * hr * hr <= tiny * tiny * tiny).
      { apply Rmult_le_compat; [apply Rmult_le_pos; lra|lra| |lra]. apply Rmult_le_compat; lra. }
      rewrite Hcu in H3.
      assert (q * q <= GRAVITY * (tiny * tiny * tiny)).
      { replace (q * q) with (GRAVITY * (q * q / GRAVITY)) by (field; lra).
        apply Rmult_le_compat_l; lra. }
      lra. }
    unfold prim_dry; cbn [ph].
    assert (E4 : Rltb (c0 qL) tiny = false) by (apply Rltb_false; lra). rewrite E4. cbn [andb].
    rewrite ceed_roe_flux_some by (cbn [c0]; lra). rewrite cflux_0.
    rewrite cvel_wet by lra. rewrite cvel_wet by (cbn [c0]; lra). cbn [c0 c1 c2].
    rewrite !vel_plain by lra.
    replace (hr * w * cn / hr) with (w * cn) by (field; lra).
    replace (hr * w * sn / hr) with (w * sn) by (field; lra).
    rewrite petsc_roe_flux_some by (unfold wetpair; cbn [ph]; lra). reflexivity.
Qed.
