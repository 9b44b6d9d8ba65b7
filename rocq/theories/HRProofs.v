(** Lemmas about hydrostatic reconstruction. *)
From Verif Require Import Base RoeModel RoeProofs EdgeModel EdgeProofs HRModel SourceModel SourceProofs AssemblyModel AssemblyProofs.

(** ** Reconstructed depths *)
Lemma hr_depth_range h z zo : 0 <= h -> 0 <= hr_depth h z zo <= h.
Proof.
  intros H. unfold hr_depth. destruct (Rmax_cases z zo) as [(A & ->)|(A & ->)];
  match goal with |- context [Rmax 0 ?x] => destruct (Rmax_cases 0 x) as [(B & ->)|(B & ->)] end; lra.
Qed.
Lemma hr_depth_own h z zo : 0 <= h -> zo <= z -> hr_depth h z zo = h.
Proof.
  intros H Hz. unfold hr_depth. rewrite (Rmax_left z zo Hz). rewrite Rmax_right; lra.
Qed.
Lemma hr_depth_lake eta z zo :
  hr_depth (Rmax 0 (eta - z)) z zo = Rmax 0 (eta - Rmax z zo).
Proof.
  unfold hr_depth. destruct (Rmax_cases z zo) as [(A & ->)|(A & ->)];
  destruct (Rmax_cases 0 (eta - z)) as [(B & ->)|(B & ->)];
  repeat match goal with |- context [Rmax 0 ?x] => destruct (Rmax_cases 0 x) as [(? & ->)|(? & ->)] end; lra.
Qed.

(** ** Water at rest *)
Lemma cvel_rest tiny ha h : cvel tiny ha (V3 h 0 0) = Prim h 0 0.
Proof. unfold cvel; cbn [c0 c1 c2]. destruct (Rltb tiny h); [|reflexivity]. unfold Rdiv. rewrite !Rmult_0_l. reflexivity. Qed.
Lemma pvel_rest tiny ha h : pvel tiny ha (V3 h 0 0) = Prim h 0 0.
Proof. unfold pvel; cbn [c0 c1 c2]. destruct (Rltb h tiny); [reflexivity|]. unfold Rdiv. rewrite !Rmult_0_l. reflexivity. Qed.

Definition npush (P sn cn : R) : vec3 := V3 0 (P * cn) (P * sn).

Lemma pflux_rest g r sn cn : 0 < g -> 0 < r -> pflux g (Prim r 0 0) (Prim r 0 0) sn cn = npush (1/2 * g * (r * r)) sn cn.
Proof.
  intros Hg Hr. rewrite pflux_consistent by (cbn; lra). unfold side_flux, npush; cbn [ph pu pv]. apply vec3_ext; cbn [c0 c1 c2]; ring.
Qed.

(* what one edge gives to a side of depth [h] when the water is at rest and both reconstructed depths are [r] *)
Definition rest_pressure (tiny g h r P : R) : Prop :=
  1/2 * g * (h * h) - 1/2 * g * (tiny * tiny) <= P <= 1/2 * g * (h * h) /\
  (h = 0 -> P = 0) /\
  (tiny < h -> (r = 0 \/ tiny < r) -> P = 1/2 * g * (h * h)) /\
  (tiny < h -> r <= tiny -> P = 1/2 * g * (h * h - r * r)).

Lemma npush_corr g h r sn cn : vadd (npush (1/2 * g * (r * r)) sn cn) (hr_correction g h r sn cn) = npush (1/2 * g * (h * h)) sn cn.
Proof. unfold vadd, npush, hr_correction; apply vec3_ext; cbn [c0 c1 c2]; ring. Qed.
Lemma vzero_corr g h r sn cn : vadd vzero (hr_correction g h r sn cn) = npush (1/2 * g * (h * h - r * r)) sn cn.
Proof. unfold vadd, vzero, npush, hr_correction; apply vec3_ext; cbn [c0 c1 c2]; ring. Qed.
Lemma npush_0 sn cn : npush 0 sn cn = vzero.
Proof. unfold npush, vzero. apply vec3_ext; cbn [c0 c1 c2]; ring. Qed.

Lemma half_sq g a b : 0 < g -> 0 <= a <= b -> 0 <= 1/2 * g * (a * a) <= 1/2 * g * (b * b).
Proof. intros. assert (a * a <= b * b) by nra. assert (0 <= a * a) by nra. nra. Qed.

Lemma rest_pressure_deep tiny g h r :
  0 < g -> 0 < tiny -> 0 <= r <= h -> tiny < r -> rest_pressure tiny g h r (1/2 * g * (h * h)).
Proof.
  intros Hg Ht Hr Hd. assert (A := half_sq g 0 tiny Hg ltac:(lra)).
  unfold rest_pressure; repeat split; intros; try reflexivity; lra.
Qed.
Lemma rest_pressure_shallow tiny g h r :
  0 < g -> 0 < tiny -> 0 <= r <= h -> r <= tiny -> rest_pressure tiny g h r (1/2 * g * (h * h - r * r)).
Proof.
  intros Hg Ht Hr Hd. assert (A := half_sq g r tiny Hg ltac:(lra)).
  unfold rest_pressure; repeat split; intros; try reflexivity; try lra.
  - assert (r = 0) by lra. subst. ring.
  - destruct H0 as [->|]; [ring|lra].
Qed.
Lemma rest_pressure_dry tiny g h r :
  0 < g -> 0 < tiny -> 0 <= h <= tiny -> rest_pressure tiny g h r 0.
Proof.
  intros Hg Ht Hh. assert (A := half_sq g h tiny Hg ltac:(lra)).
  unfold rest_pressure; repeat split; intros; try reflexivity; try lra.
Qed.

Lemma petsc_hr_rest tiny ha eta zL zR sn cn :
  0 < tiny ->
  let hl := Rmax 0 (eta - zL) in let hr := Rmax 0 (eta - zR) in let r := Rmax 0 (eta - Rmax zL zR) in
  exists PL PR a, petsc_hr_edge tiny ha zL zR (V3 hl 0 0) (V3 hr 0 0) sn cn = Some (npush PL sn cn, npush PR sn cn, a) /\
    rest_pressure tiny GRAVITY hl r PL /\ rest_pressure tiny GRAVITY hr r PR.
Proof.
  intros Ht hl hr r. assert (Hg := GRAVITY_pos).
  assert (Hl : 0 <= hl) by apply Rmax_l. assert (Hr : 0 <= hr) by apply Rmax_l.
  assert (El : hr_depth hl zL zR = r) by apply hr_depth_lake.
  assert (Er : hr_depth hr zR zL = r) by (unfold hr; rewrite hr_depth_lake, (Rmax_comm zR zL); reflexivity).
  assert (Rl := hr_depth_range hl zL zR Hl). assert (Rr := hr_depth_range hr zR zL Hr). rewrite El in Rl. rewrite Er in Rr.
  unfold petsc_hr_edge, hr_velocity; cbn [c0]. rewrite El, Er.
  destruct ((hr <? tiny) && (hl <? tiny))%bool eqn:E.
  - apply andb_prop in E. destruct E as (E1 & E2). apply Rltb_true in E1. apply Rltb_true in E2.
    exists 0, 0, 0. rewrite npush_0. split; [reflexivity|]. split; apply rest_pressure_dry; lra.
  - rewrite !ceed_velocities_some by lra. cbn [obind]. rewrite !cvel_rest. cbn [pu pv]. rewrite Bool.orb_diag.
    destruct (Rltb tiny r) eqn:E1.
    + apply Rltb_true in E1. rewrite petsc_roe_flux_some by (unfold wetpair; cbn; lra). cbn [obind]. rewrite pflux_rest by lra.
      rewrite !npush_corr. do 3 eexists; split; [reflexivity|]. split; apply rest_pressure_deep; lra.
    + apply Rltb_false in E1. cbn [obind]. rewrite !vzero_corr.
      do 3 eexists; split; [reflexivity|]. split; apply rest_pressure_shallow; lra.
Qed.

Lemma ceed_hr_rest tiny ha eta zL zR sn cn :
  0 < tiny ->
  let hl := Rmax 0 (eta - zL) in let hr := Rmax 0 (eta - zR) in let r := Rmax 0 (eta - Rmax zL zR) in
  exists PL PR a, ceed_hr_edge GRAVITY tiny ha zL zR (V3 hl 0 0) (V3 hr 0 0) sn cn = Some (npush PL sn cn, npush PR sn cn, a) /\
    rest_pressure tiny GRAVITY hl r PL /\ rest_pressure tiny GRAVITY hr r PR.
Proof.
  intros Ht hl hr r. assert (Hg := GRAVITY_pos).
  assert (Hl : 0 <= hl) by apply Rmax_l. assert (Hr : 0 <= hr) by apply Rmax_l.
  assert (El : hr_depth hl zL zR = r) by apply hr_depth_lake.
  assert (Er : hr_depth hr zR zL = r) by (unfold hr; rewrite hr_depth_lake, (Rmax_comm zR zL); reflexivity).
  assert (Rl := hr_depth_range hl zL zR Hl). assert (Rr := hr_depth_range hr zR zL Hr). rewrite El in Rl. rewrite Er in Rr.
  unfold ceed_hr_edge; cbn [c0]. rewrite El, Er.
  rewrite !ceed_velocities_some by lra. cbn [obind]. rewrite !cvel_rest. cbn [pu pv]. rewrite Bool.orb_diag.
  destruct ((tiny <? hl) || (tiny <? hr))%bool eqn:E.
  - destruct (Rltb tiny r) eqn:E1.
    + apply Rltb_true in E1. rewrite !Rmult_0_r. rewrite ceed_roe_flux_some by (cbn [c0]; lra). cbn [obind].
      rewrite !cvel_rest, cflux_0, pflux_rest by lra.
      rewrite !npush_corr. do 3 eexists; split; [reflexivity|]. split; apply rest_pressure_deep; lra.
    + apply Rltb_false in E1. cbn [obind]. rewrite !vzero_corr.
      do 3 eexists; split; [reflexivity|]. split; apply rest_pressure_shallow; lra.
  - apply Bool.orb_false_iff in E. destruct E as (E1 & E2). apply Rltb_false in E1. apply Rltb_false in E2.
    exists 0, 0, 0. rewrite npush_0. split; [reflexivity|]. split; apply rest_pressure_dry; lra.
Qed.

(* reflecting wall; the reconstructed depth is the depth itself *)
Lemma petsc_wall_rest tiny ha h sn cn :
  0 < tiny -> 0 <= h -> cn * cn + sn * sn = 1 ->
  exists P a, petsc_boundary_edge tiny ha BCReflecting (V3 h 0 0) sn cn = Some (npush P sn cn, a) /\
    rest_pressure tiny GRAVITY h h P.
Proof.
  intros Ht Hh Hu. assert (Hg := GRAVITY_pos). destruct (Rlt_dec h tiny) as [H|H].
  - exists 0, 0. rewrite petsc_reflecting_dry by (cbn; assumption). rewrite npush_0. split; [reflexivity|]. apply rest_pressure_dry; lra.
  - destruct (petsc_reflecting_edge tiny ha (V3 h 0 0) sn cn Ht ltac:(cbn; lra) Hu) as (f & a & E & F0 & _ & F2).
    rewrite pvel_rest in F2. destruct F2 as (F1 & F2); [unfold unorm; cbn; ring|]. cbn [c0] in *.
    exists (1/2 * GRAVITY * (h * h)), a. rewrite E. split.
    + f_equal. f_equal. unfold npush. apply vec3_ext; cbn [c0 c1 c2]; rewrite ?F0, ?F1, ?F2; ring.
    + assert (A := half_sq GRAVITY 0 tiny Hg ltac:(lra)).
      unfold rest_pressure; repeat split; intros; try reflexivity; lra.
Qed.
Lemma ceed_wall_rest tiny ha h sn cn :
  0 < tiny -> 0 <= h -> cn * cn + sn * sn = 1 ->
  exists P a, ceed_boundary_edge GRAVITY tiny ha BCReflecting (V3 h 0 0) sn cn 0 = Some (npush P sn cn, a) /\
    rest_pressure tiny GRAVITY h h P.
Proof.
  intros Ht Hh Hu. assert (Hg := GRAVITY_pos). unfold ceed_boundary_edge. fold (mirror (V3 h 0 0) sn cn). change (c0 (V3 h 0 0)) with h.
  destruct (Rltb tiny h) eqn:E.
  - apply Rltb_true in E.
    assert (Em : mirror (V3 h 0 0) sn cn = V3 h 0 0) by (unfold mirror; apply vec3_ext; cbn [c0 c1 c2]; ring).
    rewrite Em, ceed_roe_flux_some by (cbn [c0]; lra). rewrite cvel_rest, cflux_0, pflux_rest by lra.
    do 2 eexists; split; [reflexivity|].
    assert (A := half_sq GRAVITY 0 tiny Hg ltac:(lra)).
    unfold rest_pressure; repeat split; intros; try reflexivity; lra.
  - apply Rltb_false in E. exists 0, 0. rewrite npush_0. split; [reflexivity|]. apply rest_pressure_dry; lra.
Qed.

(** ** Friction at rest *)
Lemma some_pair (a b c d : R) : a = c -> b = d -> Some (a, b) = Some (c, d).
Proof. intros -> ->; reflexivity. Qed.
Lemma petsc_semi_rest dt n h : 0 <= dt -> 0 < h -> petsc_semi_implicit dt n (V3 h 0 0) vzero 0 0 = Some (0, 0).
Proof.
  intros Hd Hh. rewrite petsc_semi_implicit_some by (cbn [c0]; lra). unfold vzero; cbn [c0 c1 c2].
  apply some_pair; rewrite Rmult_0_r, Rplus_0_r, Rminus_0_r; apply Rmult_0_l.
Qed.
Lemma ceed_semi_rest dt tiny ha n h : 0 <= dt -> 0 <= tiny -> tiny < h ->
  ceed_semi_implicit GRAVITY dt tiny ha n (V3 h 0 0) vzero 0 0 = Some (0, 0).
Proof.
  intros Hd Ht Hh. rewrite ceed_semi_implicit_some by (try apply GRAVITY_pos; cbn [c0]; lra). unfold vzero; cbn [c0 c1 c2].
  apply some_pair; rewrite Rminus_0_r, Rmult_0_r, Rplus_0_r; apply Rmult_0_l.
Qed.
Lemma xq_rest dt t n h : 0 < dt -> 0 < t -> 0 < h -> xq2018_friction GRAVITY dt t n (V3 h 0 0) vzero 0 0 = Some (0, 0).
Proof.
  intros Hd Ht Hh.
  destruct (xq2018_some GRAVITY dt t n (V3 h 0 0) vzero 0 0 GRAVITY_pos Hd Ht ltac:(cbn [c0]; lra)) as (_ & Es).
  rewrite Es. unfold vzero; cbn [c0 c1 c2]. rewrite Rminus_0_r, Rmult_0_l, Rplus_0_r.
  apply some_pair; rewrite !Rmult_0_r; apply Rmult_0_l.
Qed.
Lemma petsc_rhs_rest fr dt tiny n dzx dzy h :
  0 < dt -> 0 < tiny -> (forall t, fr = XQ2018 t -> 0 < t) ->
  petsc_rhs fr false dt tiny n dzx dzy (V3 h 0 0) vzero vzero = Some vzero.
Proof.
  intros Hd Ht Hx. unfold petsc_rhs, petsc_source, bed_force. change (c0 (V3 h 0 0)) with h.
  assert (E : (if tiny <=? h then match fr with NoFriction => Some (0, 0) | SemiImplicit => petsc_semi_implicit dt n (V3 h 0 0) vzero 0 0
                 | XQ2018 thr => xq2018_friction GRAVITY dt thr n (V3 h 0 0) vzero 0 0 end else Some (0, 0)) = Some (0, 0)).
  { destruct (Rleb tiny h) eqn:E; [|reflexivity]. apply Rleb_true in E.
    destruct fr as [| |t]; [reflexivity|apply petsc_semi_rest; lra|apply xq_rest; auto; lra]. }
  rewrite E. cbn [obind]. f_equal. unfold vadd, vzero. apply vec3_ext; cbn [c0 c1 c2]; ring.
Qed.
Lemma ceed_rhs_rest fr dt tiny ha n dzx dzy h :
  0 < dt -> 0 < tiny -> (forall t, fr = XQ2018 t -> 0 < t) ->
  ceed_rhs fr false GRAVITY dt tiny ha n dzx dzy (V3 h 0 0) vzero vzero = Some vzero.
Proof.
  intros Hd Ht Hx. unfold ceed_rhs, bed_force. change (c0 (V3 h 0 0)) with h.
  assert (E : (if tiny <? h then match fr with NoFriction => Some (0, 0) | SemiImplicit => ceed_semi_implicit GRAVITY dt tiny ha n (V3 h 0 0) vzero 0 0
                 | XQ2018 thr => xq2018_friction GRAVITY dt thr n (V3 h 0 0) vzero 0 0 end else Some (0, 0)) = Some (0, 0)).
  { destruct (Rltb tiny h) eqn:E; [|reflexivity]. apply Rltb_true in E.
    destruct fr as [| |t]; [reflexivity|apply ceed_semi_rest; lra|apply xq_rest; auto; lra]. }
  rewrite E. cbn [obind]. f_equal. unfold vzero. apply vec3_ext; cbn [c0 c1 c2]; ring.
Qed.

(** ** Assembly: fluxes that are pressures along the normals *)
Section Push.
  Variables (s : scheme) (m : mesh) (u : nat -> vec3).
  Variables (PL PR : iedge -> R) (PB : bedge -> R).
  Hypothesis Hin : forall e, In e (iedges m) -> exists a,
    s_interior s u e = Some (npush (PL e) (ie_sn e) (ie_cn e), npush (PR e) (ie_sn e) (ie_cn e), a).
  Hypothesis Hbd : forall e, In e (bedges m) -> exists a, s_boundary s u e = Some (npush (PB e) (be_sn e) (be_cn e), a).
  Hypothesis Hai : forall e, In e (iedges m) -> area m (ie_l e) <> 0 /\ area m (ie_r e) <> 0.
  Hypothesis Hab : forall e, In e (bedges m) -> area m (be_c e) <> 0.

  (* net push on a cell, for the direction cosine given by [ni], [nb] *)
  Definition push (ni : iedge -> R) (nb : bedge -> R) (c : nat) : R :=
    rsum (fun e => (if Nat.eqb c (ie_l e) then - (ie_len e * PL e * ni e) else 0)
                 + (if Nat.eqb c (ie_r e) then ie_len e * PR e * ni e else 0)) (iedges m)
    + rsum (fun e => if Nat.eqb c (be_c e) then - (be_len e * PB e * nb e) else 0) (bedges m).

  Lemma push_divergence :
    exists f, flux_divergence s m u = Some f /\
      forall c, area m c <> 0 -> c0 (f c) = 0 /\ c1 (f c) = / area m c * push ie_cn be_cn c /\ c2 (f c) = / area m c * push ie_sn be_sn c.
  Proof.
    set (k := fun e => match s_interior s u e with Some x => x | None => (vzero, vzero, 0) end).
    set (kb := fun e => match s_boundary s u e with Some x => x | None => (vzero, 0) end).
    assert (Hk : forall e, In e (iedges m) -> s_interior s u e = Some (k e)).
    { intros e He. unfold k. destruct (Hin e He) as (a & ->). reflexivity. }
    assert (Hkb : forall e, In e (bedges m) -> everything (be_c e) = true -> s_boundary s u e = Some (kb e)).
    { intros e He _. unfold kb. destruct (Hbd e He) as (a & ->). reflexivity. }
    assert (Hf : forall e, In e (iedges m) -> fst (fst (k e)) = npush (PL e) (ie_sn e) (ie_cn e) /\ snd (fst (k e)) = npush (PR e) (ie_sn e) (ie_cn e)).
    { intros e He. unfold k. destruct (Hin e He) as (a & ->). split; reflexivity. }
    assert (Hfb : forall e, In e (bedges m) -> fst (kb e) = npush (PB e) (be_sn e) (be_cn e)).
    { intros e He. unfold kb. destruct (Hbd e He) as (a & ->). reflexivity. }
    unfold flux_divergence.
    assert (V : forall p : vec3 -> R, (forall a b, p (vadd a b) = p a + p b) -> (forall a b, p (vscal a b) = a * p b) ->
      exists f1 f2, interior_loop vadd vscal everything (area m) (s_interior s u) (iedges m) zero_field = Some f1 /\
        boundary_loop vadd vscal everything (area m) (s_boundary s u) (bedges m) f1 = Some f2 /\
        forall c, p (f2 c) = p (zero_field c)
          + rsum (fun e => ecoef everything (area m) e (p (npush (PL e) (ie_sn e) (ie_cn e))) (p (npush (PR e) (ie_sn e) (ie_cn e))) c) (iedges m)
          + rsum (fun e => if Nat.eqb c (be_c e) then - be_len e / area m c * p (npush (PB e) (be_sn e) (be_cn e)) else 0) (bedges m)).
    { intros p Pa Ps.
      destruct (interior_loop_val vadd vscal p Pa Ps everything (area m) _ k (iedges m) Hk Hai zero_field) as (f1 & E1 & V1).
      destruct (boundary_loop_val vadd vscal p Pa Ps everything (area m) _ kb (bedges m) Hkb (fun e H _ => Hab e H) f1) as (f2 & E2 & V2).
      exists f1, f2. split; [exact E1|]. split; [exact E2|]. intros c. rewrite V2, V1. f_equal; [f_equal|].
      - apply rsum_ext. intros e He. destruct (Hf e He) as (-> & ->). reflexivity.
      - apply rsum_ext. intros e He. rewrite (Hfb e He). reflexivity. }
    destruct (V c0 (fun _ _ => eq_refl) (fun _ _ => eq_refl)) as (f1 & f2 & E1 & E2 & V0).
    destruct (V c1 (fun _ _ => eq_refl) (fun _ _ => eq_refl)) as (f1' & f2' & E1' & E2' & V1).
    destruct (V c2 (fun _ _ => eq_refl) (fun _ _ => eq_refl)) as (f1'' & f2'' & E1'' & E2'' & V2).
    rewrite E1 in *. injection E1' as <-. injection E1'' as <-. rewrite E2 in *. injection E2' as <-. injection E2'' as <-.
    cbn [obind]. rewrite E2. exists f2. split; [reflexivity|]. intros c Ac.
    rewrite V0, V1, V2. unfold zero_field, vzero, npush; cbn [c0 c1 c2]. unfold push.
    rewrite !Rmult_plus_distr_l, <- !rsum_scal.
    split; [|split].
    - rewrite !rsum_zero; [ring| |].
      + intros e _. destruct (Nat.eqb c (be_c e)); ring.
      + intros e _. unfold ecoef, everything. destruct (Nat.eqb c (ie_l e)); destruct (Nat.eqb c (ie_r e)); ring.
    - rewrite Rplus_0_l. f_equal; apply rsum_ext; intros e _.
      + unfold ecoef, everything. destruct (Nat.eqb c (ie_l e)); destruct (Nat.eqb c (ie_r e)); field; exact Ac.
      + destruct (Nat.eqb c (be_c e)); field; exact Ac.
    - rewrite Rplus_0_l. f_equal; apply rsum_ext; intros e _.
      + unfold ecoef, everything. destruct (Nat.eqb c (ie_l e)); destruct (Nat.eqb c (ie_r e)); field; exact Ac.
      + destruct (Nat.eqb c (be_c e)); field; exact Ac.
  Qed.
End Push.

(** net outward normal of a cell: zero for a closed polygon *)
Definition outward (m : mesh) (ni : iedge -> R) (nb : bedge -> R) (c : nat) : R :=
  rsum (fun e => (if Nat.eqb c (ie_l e) then ie_len e * ni e else 0) - (if Nat.eqb c (ie_r e) then ie_len e * ni e else 0)) (iedges m)
  + rsum (fun e => if Nat.eqb c (be_c e) then be_len e * nb e else 0) (bedges m).
Definition around (m : mesh) (c : nat) : R :=
  rsum (fun e => (if Nat.eqb c (ie_l e) then ie_len e else 0) + (if Nat.eqb c (ie_r e) then ie_len e else 0)) (iedges m)
  + rsum (fun e => if Nat.eqb c (be_c e) then be_len e else 0) (bedges m).

(* equal pressures round a cell balance *)
Lemma push_balanced m PL PR PB ni nb c P :
  (forall e, In e (iedges m) -> ie_l e = c -> PL e = P) -> (forall e, In e (iedges m) -> ie_r e = c -> PR e = P) ->
  (forall e, In e (bedges m) -> be_c e = c -> PB e = P) ->
  outward m ni nb c = 0 -> push m PL PR PB ni nb c = 0.
Proof.
  intros HL HR HB Hout. transitivity (- P * outward m ni nb c); [|rewrite Hout; ring].
  unfold push, outward. rewrite Rmult_plus_distr_l, <- !rsum_scal. f_equal; apply rsum_ext; intros e He.
  - destruct (Nat.eqb_spec c (ie_l e)) as [El|]; destruct (Nat.eqb_spec c (ie_r e)) as [Er|];
    rewrite ?(HL e He), ?(HR e He) by auto; ring.
  - destruct (Nat.eqb_spec c (be_c e)) as [El|]; rewrite ?(HB e He) by auto; ring.
Qed.

(* pressures within [d] of a common value *)
Lemma push_bounded m PL PR PB ni nb c P d :
  0 <= d ->
  (forall e, In e (iedges m) -> ie_l e = c -> P - d <= PL e <= P) -> (forall e, In e (iedges m) -> ie_r e = c -> P - d <= PR e <= P) ->
  (forall e, In e (bedges m) -> be_c e = c -> P - d <= PB e <= P) ->
  (forall e, In e (iedges m) -> 0 <= ie_len e /\ Rabs (ni e) <= 1) -> (forall e, In e (bedges m) -> 0 <= be_len e /\ Rabs (nb e) <= 1) ->
  outward m ni nb c = 0 -> Rabs (push m PL PR PB ni nb c) <= d * around m c.
Proof.
  intros Hd HL HR HB Hi Hb Hout.
  set (QL := fun e => P - PL e). set (QR := fun e => P - PR e). set (QB := fun e => P - PB e).
  assert (E : push m PL PR PB ni nb c = - push m QL QR QB ni nb c - P * outward m ni nb c).
  { unfold push, outward, QL, QR, QB.
    rewrite Rmult_plus_distr_l, Ropp_plus_distr, <- !rsum_scal, <- !rsum_opp.
    match goal with |- ?A + ?B = ?A1 + ?B1 - (?A2 + ?B2) => transitivity ((A1 + - A2) + (B1 + - B2)); [|ring] end.
    rewrite <- !rsum_opp, <- !rsum_plus. f_equal; apply rsum_ext; intros e _.
    - destruct (Nat.eqb c (ie_l e)); destruct (Nat.eqb c (ie_r e)); ring.
    - destruct (Nat.eqb c (be_c e)); ring. }
  rewrite E, Hout. replace (- push m QL QR QB ni nb c - P * 0) with (- push m QL QR QB ni nb c) by ring. rewrite Rabs_Ropp.
  assert (TL : forall l q n, 0 <= l -> Rabs n <= 1 -> 0 <= q <= d -> - (d * l) <= l * q * n <= d * l).
  { intros l q n Hl Hn Hq. assert (B : - 1 <= n <= 1) by (destruct (Rabs_cases n); lra).
    assert (0 <= l * q) by nra. assert (l * q <= d * l) by nra. split; nra. }
  unfold push, around. rewrite Rmult_plus_distr_l, <- !rsum_scal.
  assert (Bi : forall l, (forall e, In e l -> In e (iedges m)) ->
    Rabs (rsum (fun e => (if Nat.eqb c (ie_l e) then - (ie_len e * QL e * ni e) else 0) + (if Nat.eqb c (ie_r e) then ie_len e * QR e * ni e else 0)) l)
    <= rsum (fun e => d * ((if Nat.eqb c (ie_l e) then ie_len e else 0) + (if Nat.eqb c (ie_r e) then ie_len e else 0))) l).
  { induction l as [|e t IH]; intros Hl; cbn [rsum]; [rewrite Rabs_R0; lra|].
    eapply Rle_trans; [apply Rabs_triang|]. apply Rplus_le_compat; [|apply IH; intros; apply Hl; right; assumption].
    assert (He := Hl e (or_introl eq_refl)). destruct (Hi e He) as (H1 & H2).
    apply Rabs_le.
    destruct (Nat.eqb_spec c (ie_l e)) as [El|]; destruct (Nat.eqb_spec c (ie_r e)) as [Er|];
    try (assert (A1 := TL (ie_len e) (QL e) (ni e) H1 H2 ltac:(unfold QL; assert (X := HL e He (eq_sym El)); lra)));
    try (assert (A2 := TL (ie_len e) (QR e) (ni e) H1 H2 ltac:(unfold QR; assert (X := HR e He (eq_sym Er)); lra))); lra. }
  assert (Bb : forall l, (forall e, In e l -> In e (bedges m)) ->
    Rabs (rsum (fun e => if Nat.eqb c (be_c e) then - (be_len e * QB e * nb e) else 0) l)
    <= rsum (fun e => d * (if Nat.eqb c (be_c e) then be_len e else 0)) l).
  { induction l as [|e t IH]; intros Hl; cbn [rsum]; [rewrite Rabs_R0; lra|].
    eapply Rle_trans; [apply Rabs_triang|]. apply Rplus_le_compat; [|apply IH; intros; apply Hl; right; assumption].
    assert (He := Hl e (or_introl eq_refl)). destruct (Hb e He) as (H1 & H2).
    apply Rabs_le. destruct (Nat.eqb_spec c (be_c e)) as [El|];
    try (assert (A1 := TL (be_len e) (QB e) (nb e) H1 H2 ltac:(unfold QB; assert (X := HB e He (eq_sym El)); lra))); lra. }
  eapply Rle_trans; [apply Rabs_triang|]. apply Rplus_le_compat; [apply Bi|apply Bb]; auto.
Qed.
