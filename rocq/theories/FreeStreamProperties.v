(** C55: a uniform flow over a flat frictionless bed is preserved exactly on any mesh. *)
From Coq Require Import FunctionalExtensionality.
From Verif Require Import Base RoeModel RoeProofs EdgeModel EdgeProofs FluxProperties HRModel HRProofs HRProperties SourceModel SourceProofs AssemblyModel AssemblyProofs ConservationProperties MusclModel MusclProofs MusclProperties.

(** ** Specification *)
(* the same flow everywhere *)
Definition uniform (q : vec3) : nat -> vec3 := fun _ => q.
(* outward length-weighted normals of cell [c] add up to zero (what C23_cell_closes establishes) *)
Definition cell_closes (m : mesh) (bs : list bedge) (c : nat) : Prop :=
  let total (nx : iedge -> R) (bx : bedge -> R) :=
    rsum (fun e => (if Nat.eqb c (ie_l e) then ie_len e * nx e else 0) - (if Nat.eqb c (ie_r e) then ie_len e * nx e else 0)) (iedges m)
    + rsum (fun e => if Nat.eqb c (be_c e) then be_len e * bx e else 0) bs in
  total ie_cn be_cn = 0 /\ total ie_sn be_sn = 0.
(* boundary conditions that carry the same flow: the state prescribed, or a wall parallel to the flow *)
Definition compatible (q : vec3) (e : bedge) : Prop :=
  be_bc e = BCDirichlet q \/ (be_bc e = BCReflecting /\ unit_normal (be_sn e) (be_cn e) /\ along (c1 q) (c2 q) (be_sn e) (be_cn e) = 0).
(* no bed slope and no friction in the cells of [m] *)
Definition smooth (fr : friction) (g : cellgeom) (m : mesh) : Prop :=
  (forall c, In c (cells m) -> dzdx g c = 0 /\ dzdy g c = 0 /\ manning g c = 0) /\
  match fr with XQ2018 thr => 0 < thr | _ => True end.
(* the discretisations, for water deeper than the dry threshold on a flat bed *)
Inductive flat_scheme (m : mesh) (q : vec3) : scheme -> Prop :=
| Flat_petsc : forall tiny ha fr g, 0 < tiny < c0 q -> smooth fr g m -> flat_scheme m q (petsc_scheme tiny ha fr g)
| Flat_ceed : forall tiny ha fr g, 0 < tiny < c0 q -> smooth fr g m -> flat_scheme m q (ceed_scheme tiny ha (fun _ _ => 0) (fun _ _ => 0) fr g)
| Flat_petsc_hr : forall tiny ha z fr g, 0 < tiny < c0 q -> smooth fr g m -> flat_scheme m q (petsc_hr_scheme tiny ha (fun _ => z) fr g)
| Flat_ceed_hr : forall tiny z fr g, 0 < tiny < c0 q -> smooth fr g m -> flat_scheme m q (ceed_hr_scheme tiny 0 (fun _ => z) fr g)
| Flat_petsc_2r : forall lim G es tiny ha fr g, 0 < tiny < c0 q -> smooth fr g m -> flat_scheme m q (petsc_2r_scheme lim G es tiny ha fr g)
| Flat_ceed_2r : forall lim G es tiny ha fr g, 0 < tiny < c0 q -> smooth fr g m -> flat_scheme m q (ceed_2r_scheme lim G es tiny ha (fun _ _ => 0) (fun _ _ => 0) fr g).

(** ** Kernels on a uniform flow *)
Definition linear_flux (A B : vec3) (sn cn : R) : vec3 := vadd (vscal cn A) (vscal sn B).
Definition PP (ha : R) (q : vec3) : prim := Prim (c0 q) (c1 q * c0 q / (c0 q * c0 q + ha * ha)) (c2 q * c0 q / (c0 q * c0 q + ha * ha)).
Definition fx (P : prim) : vec3 := V3 (ph P * pu P) (ph P * pu P * pu P + GRAVITY * ph P * ph P / 2) (ph P * pv P * pu P).
Definition fy (P : prim) : vec3 := V3 (ph P * pv P) (ph P * pu P * pv P) (ph P * pv P * pv P + GRAVITY * ph P * ph P / 2).
Lemma side_linear P sn cn : side_flux GRAVITY P sn cn = linear_flux (fx P) (fy P) sn cn.
Proof. unfold side_flux, linear_flux, fx, fy, vadd, vscal. apply vec3_ext; cbn [c0 c1 c2]; field. Qed.

Lemma pvel_wet tiny ha q : tiny < c0 q -> pvel tiny ha q = PP ha q.
Proof. intros H. unfold pvel, PP. assert (E : Rltb (c0 q) tiny = false) by (apply Rltb_false; lra). rewrite E. reflexivity. Qed.
Lemma cvel_wet tiny ha q : tiny < c0 q -> cvel tiny ha q = PP ha q.
Proof. intros H. unfold cvel, PP. assert (E : Rltb tiny (c0 q) = true) by (apply Rltb_true; lra). rewrite E. reflexivity. Qed.

Lemma petsc_uniform tiny ha q sn cn : 0 < tiny < c0 q ->
  exists a, petsc_interior_edge tiny ha q q sn cn = Some (linear_flux (fx (PP ha q)) (fy (PP ha q)) sn cn, a).
Proof.
  intros (Ht & Hh). rewrite petsc_interior_edge_some by lra. assert (E : Rltb (c0 q) tiny = false) by (apply Rltb_false; lra). rewrite E. cbn [andb].
  rewrite pvel_wet by exact Hh. rewrite pflux_consistent by (try apply GRAVITY_pos; cbn; lra). rewrite side_linear. eauto.
Qed.
Lemma ceed_uniform tiny ha q sn cn : 0 < tiny < c0 q ->
  exists a, ceed_interior_edge GRAVITY tiny ha q q sn cn 0 = Some (linear_flux (fx (PP ha q)) (fy (PP ha q)) sn cn, a).
Proof.
  intros (Ht & Hh). rewrite ceed_interior_edge_some by (try apply GRAVITY_pos; lra). assert (E : Rltb tiny (c0 q) = true) by (apply Rltb_true; lra). rewrite E. cbn [orb].
  rewrite cvel_wet by exact Hh. rewrite cflux_0, pflux_consistent by (try apply GRAVITY_pos; cbn; lra). rewrite side_linear. eauto.
Qed.
Lemma mirror_parallel a b sn cn : unit_normal sn cn -> a * cn + b * sn = 0 -> a * (sn * sn - cn * cn) - b * (2 * sn * cn) = a /\ - a * (2 * sn * cn) - b * (sn * sn - cn * cn) = b.
Proof.
  unfold unit_normal. intros Hu Ha. split.
  - transitivity (a * (cn * cn + sn * sn) - 2 * cn * (a * cn + b * sn)); [ring|rewrite Hu, Ha; ring].
  - transitivity (b * (cn * cn + sn * sn) - 2 * sn * (a * cn + b * sn)); [ring|rewrite Hu, Ha; ring].
Qed.
Lemma petsc_uniform_boundary tiny ha q e : 0 < tiny < c0 q -> compatible q e ->
  exists a, petsc_boundary_edge tiny ha (be_bc e) q (be_sn e) (be_cn e) = Some (linear_flux (fx (PP ha q)) (fy (PP ha q)) (be_sn e) (be_cn e), a).
Proof.
  intros (Ht & Hh) HC.
  assert (K : exists a, petsc_roe_flux (PP ha q) (PP ha q) (be_sn e) (be_cn e) = Some (linear_flux (fx (PP ha q)) (fy (PP ha q)) (be_sn e) (be_cn e), a)).
  { rewrite petsc_roe_flux_some by (unfold wetpair; cbn; lra). rewrite pflux_consistent by (try apply GRAVITY_pos; cbn; lra). rewrite side_linear. eauto. }
  assert (D : prim_dry tiny (PP ha q) = false) by (unfold prim_dry; cbn; apply Rltb_false; lra).
  unfold petsc_boundary_edge, petsc_boundary_states. rewrite petsc_velocities_some by exact Ht. rewrite pvel_wet by exact Hh. cbn [obind].
  destruct HC as [->|(-> & Hu & Ha)].
  - rewrite petsc_velocities_some by exact Ht. rewrite pvel_wet by exact Hh. cbn [obind]. rewrite D. exact K.
  - assert (R : petsc_reflect (PP ha q) (be_sn e) (be_cn e) = PP ha q).
    { unfold petsc_reflect, PP; cbn [ph pu pv]. set (k := c0 q * c0 q + ha * ha). unfold along in Ha.
      destruct (mirror_parallel (c1 q * c0 q / k) (c2 q * c0 q / k) (be_sn e) (be_cn e) Hu) as (-> & ->); [|reflexivity].
      transitivity (c0 q / k * (c1 q * be_cn e + c2 q * be_sn e)); [unfold Rdiv; ring|rewrite Ha; ring]. }
    cbn [obind]. rewrite R, D. exact K.
Qed.
Lemma ceed_uniform_boundary tiny ha q e : 0 < tiny < c0 q -> compatible q e ->
  exists a, ceed_boundary_edge GRAVITY tiny ha (be_bc e) q (be_sn e) (be_cn e) 0 = Some (linear_flux (fx (PP ha q)) (fy (PP ha q)) (be_sn e) (be_cn e), a).
Proof.
  intros (Ht & Hh) [->|(-> & Hu & Ha)].
  - apply ceed_uniform. lra.
  - assert (R : V3 (c0 q) (c1 q * (be_sn e * be_sn e - be_cn e * be_cn e) - c2 q * (2 * be_sn e * be_cn e)) (- c1 q * (2 * be_sn e * be_cn e) - c2 q * (be_sn e * be_sn e - be_cn e * be_cn e)) = q).
    { destruct (mirror_parallel (c1 q) (c2 q) (be_sn e) (be_cn e) Hu Ha) as (-> & ->). destruct q; reflexivity. }
    destruct (ceed_uniform tiny ha q (be_sn e) (be_cn e)) as (a & E); [lra|]. exists a. rewrite <- E.
    unfold ceed_boundary_edge, ceed_interior_edge. rewrite R. destruct (Rltb tiny (c0 q)); reflexivity.
Qed.

Definition uniform_kernels (m : mesh) (s : scheme) (q : vec3) : Prop :=
  exists A B,
    (forall e, exists a, s_interior s (uniform q) e = Some (linear_flux A B (ie_sn e) (ie_cn e), linear_flux A B (ie_sn e) (ie_cn e), a)) /\
    (forall e, compatible q e -> exists a, s_boundary s (uniform q) e = Some (linear_flux A B (be_sn e) (be_cn e), a)) /\
    (forall dt src c, In c (cells m) -> src c = vzero -> s_source s dt (uniform q) src c vzero = Some vzero).

Lemma petsc_source_smooth fr g m bed dt tiny q c : 0 < tiny < c0 q -> smooth fr g m -> In c (cells m) ->
  petsc_rhs fr bed dt tiny (manning g c) (dzdx g c) (dzdy g c) q vzero vzero = Some vzero.
Proof.
  intros (Ht & Hh) (HS & HT) Hc. destruct (HS c Hc) as (-> & -> & ->).
  assert (B : bed_force bed GRAVITY 0 (c0 q) = 0) by (unfold bed_force; destruct bed; ring).
  unfold petsc_rhs, petsc_source. rewrite !B. assert (E : Rleb tiny (c0 q) = true) by (apply Rleb_true; lra). rewrite E.
  destruct fr as [| |thr].
  - cbn [obind]. f_equal. unfold vadd, vzero. apply vec3_ext; cbn [c0 c1 c2]; ring.
  - unfold petsc_semi_implicit. rewrite !rdiv_some by lra. cbn [obind]. rewrite rpowneg_some by lra. cbn [obind].
    rewrite rsqrt_some by (assert (S1 := Rle_0_sqr (c1 q / c0 q)); assert (S2 := Rle_0_sqr (c2 q / c0 q)); unfold Rsqr in *; lra). cbn [obind].
    rewrite rdiv_some by lra. cbn [obind].
    assert (Z : forall x, GRAVITY * (0 * 0) * x * sqrt (c1 q / c0 q * (c1 q / c0 q) + c2 q / c0 q * (c2 q / c0 q)) / c0 q = 0) by (intros; unfold Rdiv; ring).
    rewrite Z. rewrite rdiv_some by lra. cbn [obind]. f_equal. unfold vadd, vzero. apply vec3_ext; cbn [c0 c1 c2]; try ring; field; lra.
  - unfold xq2018_friction. rewrite !rpowneg_some by lra. cbn [obind]. rewrite !rdiv_some by lra. cbn [obind].
    rewrite rsqrt_some by (match goal with |- 0 <= ?x * ?x + ?y * ?y => assert (S1 := Rle_0_sqr x); assert (S2 := Rle_0_sqr y); unfold Rsqr in *; lra end). cbn [obind].
    match goal with |- context [Rltb ?x thr] => assert (G : Rltb x thr = true) by (apply Rltb_true; replace x with 0 by ring; exact HT); rewrite G end. cbn [obind].
    rewrite rsqrt_some by (match goal with |- 0 <= ?x * ?x + ?y * ?y => assert (S1 := Rle_0_sqr x); assert (S2 := Rle_0_sqr y); unfold Rsqr in *; lra end). cbn [obind].
    f_equal. unfold vadd, vzero. apply vec3_ext; cbn [c0 c1 c2]; ring.
Qed.
Lemma ceed_source_smooth fr g m bed dt tiny ha q c : 0 < tiny < c0 q -> smooth fr g m -> In c (cells m) ->
  ceed_rhs fr bed GRAVITY dt tiny ha (manning g c) (dzdx g c) (dzdy g c) q vzero vzero = Some vzero.
Proof.
  intros (Ht & Hh) (HS & HT) Hc. destruct (HS c Hc) as (-> & -> & ->).
  assert (B : bed_force bed GRAVITY 0 (c0 q) = 0) by (unfold bed_force; destruct bed; ring).
  unfold ceed_rhs. rewrite !B. assert (E : Rltb tiny (c0 q) = true) by (apply Rltb_true; lra). rewrite E.
  destruct fr as [| |thr].
  - cbn [obind]. f_equal. unfold vzero. apply vec3_ext; cbn [c0 c1 c2]; ring.
  - unfold ceed_semi_implicit, SafeDiv. rewrite E. rewrite !rdiv_some by (apply denom_nz; lra). cbn [obind]. rewrite rpowneg_some by lra. cbn [obind].
    rewrite rsqrt_some by (match goal with |- 0 <= ?x * ?x + ?y * ?y => assert (S1 := Rle_0_sqr x); assert (S2 := Rle_0_sqr y); unfold Rsqr in *; lra end). cbn [obind].
    rewrite rdiv_some by lra. cbn [obind].
    assert (Z : forall x y, GRAVITY * (0 * 0) * x * y / c0 q = 0) by (intros; unfold Rdiv; ring). rewrite Z. rewrite rdiv_some by lra. cbn [obind].
    f_equal. unfold vzero. apply vec3_ext; cbn [c0 c1 c2]; try ring; field; lra.
  - unfold xq2018_friction. rewrite !rpowneg_some by lra. cbn [obind]. rewrite !rdiv_some by lra. cbn [obind].
    rewrite rsqrt_some by (match goal with |- 0 <= ?x * ?x + ?y * ?y => assert (S1 := Rle_0_sqr x); assert (S2 := Rle_0_sqr y); unfold Rsqr in *; lra end). cbn [obind].
    match goal with |- context [Rltb ?x thr] => assert (G : Rltb x thr = true) by (apply Rltb_true; replace x with 0 by ring; exact HT); rewrite G end. cbn [obind].
    rewrite rsqrt_some by (match goal with |- 0 <= ?x * ?x + ?y * ?y => assert (S1 := Rle_0_sqr x); assert (S2 := Rle_0_sqr y); unfold Rsqr in *; lra end). cbn [obind].
    f_equal. unfold vzero. apply vec3_ext; cbn [c0 c1 c2]; ring.
Qed.

Lemma flat_uniform m q s : flat_scheme m q s -> uniform_kernels m s q.
Proof.
  intros H. destruct H as [tiny ha fr g Hh HS|tiny ha fr g Hh HS|tiny ha z fr g Hh HS|tiny z fr g Hh HS|lim G es tiny ha fr g Hh HS|lim G es tiny ha fr g Hh HS];
    [exists (fx (PP ha q)), (fy (PP ha q))|exists (fx (PP ha q)), (fy (PP ha q))|exists (fx (PP ha q)), (fy (PP ha q))|exists (fx (PP 0 q)), (fy (PP 0 q))|exists (fx (PP ha q)), (fy (PP ha q))|exists (fx (PP ha q)), (fy (PP ha q))];
    (split; [|split]).
  - intros e. cbn [s_interior petsc_scheme]. destruct (petsc_uniform tiny ha q (ie_sn e) (ie_cn e) Hh) as (a & E). unfold uniform. rewrite E. cbn. eauto.
  - intros e HC. cbn [s_boundary petsc_scheme]. exact (petsc_uniform_boundary tiny ha q e Hh HC).
  - intros dt src c Hc Hs. cbn [s_source petsc_scheme]. rewrite Hs. exact (petsc_source_smooth fr g m true dt tiny q c Hh HS Hc).
  - intros e. cbn [s_interior ceed_scheme]. destruct (ceed_uniform tiny ha q (ie_sn e) (ie_cn e) Hh) as (a & E). unfold uniform. rewrite E. cbn. eauto.
  - intros e HC. cbn [s_boundary ceed_scheme]. exact (ceed_uniform_boundary tiny ha q e Hh HC).
  - intros dt src c Hc Hs. cbn [s_source ceed_scheme]. rewrite Hs. exact (ceed_source_smooth fr g m true dt tiny ha q c Hh HS Hc).
  - intros e. cbn [s_interior petsc_hr_scheme]. destruct (petsc_uniform tiny ha q (ie_sn e) (ie_cn e) Hh) as (a & E). unfold uniform.
    destruct (C12_equal_beds_standard_flux tiny ha z q q (ie_sn e) (ie_cn e)) as (-> & _); try lra. rewrite E. cbn. eauto.
  - intros e HC. cbn [s_boundary petsc_hr_scheme]. exact (petsc_uniform_boundary tiny ha q e Hh HC).
  - intros dt src c Hc Hs. cbn [s_source petsc_hr_scheme]. rewrite Hs. exact (petsc_source_smooth fr g m false dt tiny q c Hh HS Hc).
  - intros e. cbn [s_interior ceed_hr_scheme]. destruct (ceed_uniform tiny 0 q (ie_sn e) (ie_cn e) Hh) as (a & E). unfold uniform.
    destruct (C12_equal_beds_standard_flux tiny 0 z q q (ie_sn e) (ie_cn e)) as (_ & ->); try lra. rewrite E. cbn. eauto.
  - intros e HC. cbn [s_boundary ceed_hr_scheme]. exact (ceed_uniform_boundary tiny 0 q e Hh HC).
  - intros dt src c Hc Hs. cbn [s_source ceed_hr_scheme]. rewrite Hs. exact (ceed_source_smooth fr g m false dt tiny 0 q c Hh HS Hc).
  - intros e. cbn [s_interior petsc_2r_scheme]. destruct (petsc_uniform tiny ha q (ie_sn e) (ie_cn e) Hh) as (a & E). unfold uniform.
    rewrite C21_constant_state_exact by lra. cbn [fst snd]. rewrite E. cbn. eauto.
  - intros e HC. cbn [s_boundary petsc_2r_scheme petsc_scheme]. exact (petsc_uniform_boundary tiny ha q e Hh HC).
  - intros dt src c Hc Hs. cbn [s_source petsc_2r_scheme petsc_scheme]. rewrite Hs. exact (petsc_source_smooth fr g m true dt tiny q c Hh HS Hc).
  - intros e. cbn [s_interior ceed_2r_scheme]. destruct (ceed_uniform tiny ha q (ie_sn e) (ie_cn e) Hh) as (a & E). unfold uniform.
    rewrite C21_constant_state_exact by lra. cbn [fst snd]. rewrite E. cbn. eauto.
  - intros e HC. cbn [s_boundary ceed_2r_scheme ceed_scheme]. exact (ceed_uniform_boundary tiny ha q e Hh HC).
  - intros dt src c Hc Hs. cbn [s_source ceed_2r_scheme ceed_scheme]. rewrite Hs. exact (ceed_source_smooth fr g m true dt tiny ha q c Hh HS Hc).
Qed.

(** ** Assembly *)
Lemma uniform_divergence m s q bs : uniform_kernels m s q -> well_formed m -> boundary_in m bs -> (forall c, In c (cells m) -> area m c <> 0) ->
  (forall e, In e bs -> compatible q e) -> (forall c, In c (cells m) -> cell_closes m bs c) ->
  flux_divergence s (with_boundary m bs) (uniform q) = Some zero_field.
Proof.
  intros (A & B & KI & KB & _) (Hnd & Hin) Hbin Ha Hcomp Hclose. unfold flux_divergence, with_boundary; cbn [area iedges bedges].
  set (ki := fun e => match s_interior s (uniform q) e with Some k => k | None => (vzero, vzero, 0) end).
  assert (Eki : forall e, s_interior s (uniform q) e = Some (ki e) /\ fst (fst (ki e)) = linear_flux A B (ie_sn e) (ie_cn e) /\ snd (fst (ki e)) = linear_flux A B (ie_sn e) (ie_cn e)).
  { intros e. unfold ki. destruct (KI e) as (a & ->). repeat split. }
  set (kb := fun e => match s_boundary s (uniform q) e with Some k => k | None => (vzero, 0) end).
  assert (Ekb : forall e, In e bs -> s_boundary s (uniform q) e = Some (kb e) /\ fst (kb e) = linear_flux A B (be_sn e) (be_cn e)).
  { intros e He. unfold kb. destruct (KB e (Hcomp e He)) as (a & ->). repeat split. }
  assert (Hae : forall e, In e (iedges m) -> area m (ie_l e) <> 0 /\ area m (ie_r e) <> 0) by (intros e He; destruct (Hin e He); split; apply Ha; assumption).
  (* value of each component in each cell *)
  assert (K : forall p : vec3 -> R, (forall a b, p (vadd a b) = p a + p b) -> (forall t a, p (vscal t a) = t * p a) -> p vzero = 0 ->
     forall f f', interior_loop vadd vscal everything (area m) (s_interior s (uniform q)) (iedges m) zero_field = Some f ->
       boundary_loop vadd vscal everything (area m) (s_boundary s (uniform q)) bs f = Some f' -> forall c, p (f' c) = 0).
  { intros p pa ps p0 f f' E1 E2 c.
    destruct (interior_loop_val vadd vscal p pa ps everything (area m) (s_interior s (uniform q)) ki (iedges m) (fun e _ => proj1 (Eki e)) Hae zero_field) as (f1 & F1 & V1).
    rewrite E1 in F1. injection F1 as <-.
    destruct (boundary_loop_val vadd vscal p pa ps everything (area m) (s_boundary s (uniform q)) kb bs (fun e He _ => proj1 (Ekb e He)) (fun e He _ => Ha _ (Hbin e He)) f) as (f2 & F2 & V2).
    rewrite E2 in F2. injection F2 as <-. rewrite V2, V1. unfold zero_field. rewrite p0. unfold everything, ecoef.
    rewrite (rsum_ext _ (fun e => (- (p A) / area m c) * ((if Nat.eqb c (ie_l e) then ie_len e * ie_cn e else 0) - (if Nat.eqb c (ie_r e) then ie_len e * ie_cn e else 0))
                                + (- (p B) / area m c) * ((if Nat.eqb c (ie_l e) then ie_len e * ie_sn e else 0) - (if Nat.eqb c (ie_r e) then ie_len e * ie_sn e else 0))) (iedges m)).
    2:{ intros e He. destruct (Eki e) as (_ & -> & ->). unfold linear_flux. rewrite pa, !ps. unfold Rdiv. destruct (Nat.eqb c (ie_l e)), (Nat.eqb c (ie_r e)); ring. }
    rewrite (rsum_ext _ (fun e => (- (p A) / area m c) * (if Nat.eqb c (be_c e) then be_len e * be_cn e else 0) + (- (p B) / area m c) * (if Nat.eqb c (be_c e) then be_len e * be_sn e else 0)) bs).
    2:{ intros e He. destruct (Ekb e He) as (_ & ->). unfold linear_flux. rewrite pa, !ps. unfold Rdiv. destruct (Nat.eqb c (be_c e)); ring. }
    rewrite !rsum_plus, !rsum_scal.
    assert (C : cell_closes m bs c).
    { destruct (in_dec Nat.eq_dec c (cells m)) as [Hc|Hc]; [apply Hclose; exact Hc|]. unfold cell_closes.
      assert (Z1 : forall n, rsum (fun e => (if Nat.eqb c (ie_l e) then ie_len e * n e else 0) - (if Nat.eqb c (ie_r e) then ie_len e * n e else 0)) (iedges m) = 0).
      { intros n. apply rsum_zero. intros e He. destruct (Hin e He). destruct (Nat.eqb_spec c (ie_l e)); [subst; contradiction|]. destruct (Nat.eqb_spec c (ie_r e)); [subst; contradiction|]. ring. }
      assert (Z2 : forall n, rsum (fun e => if Nat.eqb c (be_c e) then be_len e * n e else 0) bs = 0).
      { intros n. apply rsum_zero. intros e He. specialize (Hbin e He). destruct (Nat.eqb_spec c (be_c e)); [subst; contradiction|]. reflexivity. }
      rewrite !Z1, !Z2. split; ring. }
    destruct C as (C1 & C2). set (S1 := rsum _ (iedges m)) in *. set (S2 := rsum (fun e => (if (c =? ie_l e)%nat then ie_len e * ie_sn e else 0) - _) (iedges m)) in *.
    set (T1 := rsum _ bs) in *. set (T2 := rsum (fun e => if (c =? be_c e)%nat then be_len e * be_sn e else 0) bs) in *.
    replace (0 + (- p A / area m c * S1 + - p B / area m c * S2) + (- p A / area m c * T1 + - p B / area m c * T2)) with (- p A / area m c * (S1 + T1) + - p B / area m c * (S2 + T2)) by ring.
    rewrite C1, C2. ring. }
  destruct (interior_loop_val vadd vscal c0 (fun _ _ => eq_refl) (fun _ _ => eq_refl) everything (area m) (s_interior s (uniform q)) ki (iedges m) (fun e _ => proj1 (Eki e)) Hae zero_field) as (f1 & F1 & _).
  destruct (boundary_loop_val vadd vscal c0 (fun _ _ => eq_refl) (fun _ _ => eq_refl) everything (area m) (s_boundary s (uniform q)) kb bs (fun e He _ => proj1 (Ekb e He)) (fun e He _ => Ha _ (Hbin e He)) f1) as (f2 & F2 & _).
  rewrite F1. cbn [obind]. rewrite F2. f_equal. apply functional_extensionality. intros c. unfold zero_field, vzero.
  apply vec3_ext; cbn [c0 c1 c2]; eapply K; try eassumption; reflexivity.
Qed.

Lemma source_zero (rhs : nat -> vec3 -> option vec3) cs : (forall c, In c cs -> rhs c vzero = Some vzero) -> source_loop rhs cs zero_field = Some zero_field.
Proof.
  unfold source_loop. induction cs as [|c t IH]; intros H; [reflexivity|]. cbn [ofold]. unfold cell_update at 1. unfold zero_field at 1. rewrite (H c (or_introl eq_refl)). cbn [obind].
  replace (fun k : nat => if Nat.eqb k c then vzero else zero_field k) with zero_field; [apply IH; intros; apply H; right; assumption|].
  apply functional_extensionality. intros k. destruct (Nat.eqb k c); reflexivity.
Qed.

(** ** The theorem *)
(* Any number of steps of any length with either time integrator, on any mesh whose cells close, with
   any discretisation: a uniform flow over a flat frictionless bed does not change at all. *)
Theorem C55_uniform_flow_preserved :
  forall i s m xs q,
    flat_scheme m q s -> well_formed m -> (forall c, In c (cells m) -> area m c <> 0) ->
    (forall x, In x xs ->
       boundary_in m (st_bedges x) /\ (forall e, In e (st_bedges x) -> compatible q e) /\
       (forall c, In c (cells m) -> st_src x c = vzero /\ cell_closes m (st_bedges x) c)) ->
    run i s m xs (uniform q) = Some (uniform q).
Proof.
  intros i s m xs q HF HW HA. unfold run. induction xs as [|x t IH]; intros HX; [reflexivity|]. cbn [ofold].
  destruct (HX x (or_introl eq_refl)) as (Hb & Hc & Hs).
  assert (E : rhs_domain s (with_boundary m (st_bedges x)) (st_dt x) (st_src x) (uniform q) = Some zero_field).
  { unfold rhs_domain. assert (U := flat_uniform m q s HF). rewrite (uniform_divergence m s q (st_bedges x) U HW Hb HA Hc (fun c H => proj2 (Hs c H))). cbn [obind].
    destruct U as (_ & _ & _ & _ & U). apply source_zero. cbn [cells with_boundary]. intros c Hin. apply U; [exact Hin|]. exact (proj1 (Hs c Hin)). }
  assert (X : forall a, axpy (uniform q) a zero_field = uniform q).
  { intros a. apply functional_extensionality. intros c. unfold axpy, uniform, zero_field, vadd, vscal, vzero. apply vec3_ext; cbn [c0 c1 c2]; ring. }
  assert (S : advance_step i s m (uniform q) x = Some (uniform q)).
  { unfold advance_step. destruct i; cbn [ts_step].
    - unfold euler_step. rewrite E. cbn [obind]. rewrite X. reflexivity.
    - unfold rk4_step. rewrite E. cbn [obind]. rewrite X, E. cbn [obind]. rewrite X, E. cbn [obind]. rewrite !X, E. cbn [obind]. rewrite !X. reflexivity. }
  rewrite S. cbn [obind]. apply IH. intros y Hy. apply HX. right; exact Hy.
Qed.
Print Assumptions C55_uniform_flow_preserved.

(** ** Non-vacuity: two unit squares in a channel, walls above and below, the flow prescribed at both ends *)
Definition fs_mesh : mesh := Mesh [0%nat; 1%nat] (fun _ => 1) [IEdge 0 1 1 0 1] [].
Definition fs_q : vec3 := V3 2 3 0.
Definition fs_boundary : list bedge :=
  [BEdge 0 1 0 (-1) (BCDirichlet fs_q); BEdge 1 1 0 1 (BCDirichlet fs_q);
   BEdge 0 1 1 0 BCReflecting; BEdge 0 1 (-1) 0 BCReflecting; BEdge 1 1 1 0 BCReflecting; BEdge 1 1 (-1) 0 BCReflecting].
Definition fs_geom : cellgeom := CellGeom (fun _ => 0) (fun _ => 0) (fun _ => 0).
Example C55_example :
  run RK4 (petsc_scheme (1/1000) 0 SemiImplicit fs_geom) fs_mesh [StepInput 1 fs_boundary (fun _ => vzero); StepInput 2 fs_boundary (fun _ => vzero)] (uniform fs_q) = Some (uniform fs_q).
Proof.
  assert (X : boundary_in fs_mesh fs_boundary /\ (forall e, In e fs_boundary -> compatible fs_q e) /\ (forall c, In c (cells fs_mesh) -> vzero = vzero /\ cell_closes fs_mesh fs_boundary c)).
  { split; [|split].
    - intros e He. cbn in He. repeat (destruct He as [<-|He]; [cbn; auto|]). destruct He.
    - intros e He. cbn in He. do 2 (destruct He as [<-|He]; [left; reflexivity|]). repeat (destruct He as [<-|He]; [right; unfold unit_normal, along; cbn; repeat split; lra|]). destruct He.
    - intros c Hc. split; [reflexivity|]. unfold cell_closes. cbn in Hc. destruct Hc as [<-|[<-|[]]]; cbn; split; ring. }
  apply C55_uniform_flow_preserved.
  - constructor; [cbn; lra|]. split; [intros; cbn; auto|exact I].
  - split; [cbn; repeat constructor; cbn; intuition congruence|]. intros e He. cbn in He. destruct He as [<-|[]]. cbn. auto.
  - intros; cbn; lra.
  - intros x [<-|[<-|[]]]; exact X.
Qed.
