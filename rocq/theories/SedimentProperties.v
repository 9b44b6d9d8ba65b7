(** C18, C19, C54: sediment exchange with the bed, wet/dry edges, balance of the amount of tracer. *)
From Verif Require Import Base RoeModel RoeProofs EdgeModel EdgeProofs HRModel HRProofs SourceModel SourceProofs AssemblyModel AssemblyProofs ConservationProperties
  TracerModel TracerProofs TracerMeshProofs TracerProperties.

(** ** C18 *)
(* Bed shear stress of the water in a cell: quadratic drag with Manning's coefficient. *)
Definition bed_stress (n : R) (q : tvec) : R :=
  1/2 * 1000 * (GRAVITY * (n * n) * Rpower (depth q) (- (1/3)))
  * (c1 (tflow q) / depth q * (c1 (tflow q) / depth q) + c2 (tflow q) / depth q * (c2 (tflow q) / depth q)).
Definition erosion_rate (n : R) (q : tvec) : R := erosion (bed_stress n q).
Definition deposition_rate (n : R) (j : nat) (q : tvec) : R := deposition (bed_stress n q) (ttr q j / depth q).

Lemma tau_bed_stress n q : tau_bed (GRAVITY * (n * n) * Rpower (depth q) (- (1/3))) (c1 (tflow q) / depth q) (c2 (tflow q) / depth q) = bed_stress n q.
Proof. unfold tau_bed, bed_stress, rhow. reflexivity. Qed.
Lemma petsc_tracer_source bed dt tiny n zx zy q F src v : petsc_tracer_rhs bed dt tiny n zx zy q F src = Some v ->
  forall j, ttr v j = ttr F j + (if tiny <=? depth q then erosion_rate n q - deposition_rate n j q + ttr src j else 0).
Proof.
  unfold petsc_tracer_rhs. intros E j. apply obind_some in E. destruct E as (fl & _ & E). destruct (Rleb _ _).
  - apply obind_some in E. destruct E as (u & Eu & E). apply obind_some in E. destruct E as (w & Ew & E).
    apply obind_some in E. destruct E as (hp & Eh & E). apply obind_some in E. destruct E as (ci & Ec & E). injection E as <-. cbn [ttr].
    apply rdiv_inv in Eu. apply rdiv_inv in Ew. apply rdivs_inv in Ec. destruct Eu as (_ & ->). destruct Ew as (_ & ->). destruct Ec as (_ & Ec). rewrite Ec.
    unfold rpowneg in Eh. destruct (Rlt_dec _ _); [|discriminate]. injection Eh as <-. unfold erosion_rate, deposition_rate. rewrite tau_bed_stress. reflexivity.
  - injection E as <-. cbn. ring.
Qed.
Lemma ceed_tracer_source bed dt tiny n zx zy q F src v : ceed_tracer_rhs bed GRAVITY dt tiny n zx zy q F src = Some v ->
  forall j, ttr v j = ttr F j + ((if tiny <? depth q then erosion_rate n q - deposition_rate n j q else 0) + ttr src j).
Proof.
  unfold ceed_tracer_rhs. intros E j. apply obind_some in E. destruct E as ([[tbx tby] ed] & Er & E). injection E as <-. cbn [ttr].
  destruct (Rltb _ _) eqn:G.
  - apply Rltb_true in G. rewrite !SafeDiv_wet in Er by exact G.
    apply obind_some in Er. destruct Er as (u & Eu & Er). apply obind_some in Er. destruct Er as (w & Ew & Er).
    apply obind_some in Er. destruct Er as (hp & Eh & Er). apply obind_some in Er. destruct Er as (ve & _ & Er).
    apply obind_some in Er. destruct Er as (tb & _ & Er). apply obind_some in Er. destruct Er as (fa & _ & Er).
    apply obind_some in Er. destruct Er as (ci & Ec & Er). injection Er as _ _ <-.
    apply rdiv_inv in Eu. apply rdiv_inv in Ew. apply rdivs_inv in Ec. destruct Eu as (_ & ->). destruct Ew as (_ & ->). destruct Ec as (_ & Ec). rewrite Ec.
    unfold rpowneg in Eh. destruct (Rlt_dec _ _); [|discriminate]. injection Eh as <-. unfold erosion_rate, deposition_rate. rewrite tau_bed_stress. ring.
  - injection Er as _ _ <-. ring.
Qed.

(* What holds: erosion is non-negative exactly above the critical stress, deposition of a non-negative
   concentration is non-negative exactly up to the critical stress for deposition.  Missing: the
   property asks for both at every stress; the code does not cut the rates off. *)
Theorem C18_rates_within_critical_stress_partial :
  forall n j q, 0 < depth q ->
    (0 <= erosion_rate n q <-> 1/10 <= bed_stress n q) /\
    (0 < ttr q j -> (0 <= deposition_rate n j q <-> bed_stress n q <= 1000)) /\
    (ttr q j = 0 -> deposition_rate n j q = 0).
Proof.
  intros n j q Hq. unfold erosion_rate, deposition_rate, erosion, deposition, kp_constant, settling_velocity, tau_critical_erosion, tau_critical_deposition.
  set (t := bed_stress n q). split; [|split].
  - replace (1 / 1000 * (t - 1/10) / (1/10)) with (1/100 * (t - 1/10)) by field. split; lra.
  - intros H. assert (C : 0 < ttr q j / depth q) by (apply Rdiv_lt_0_compat; assumption). set (x := ttr q j / depth q) in *. split; intros K; nra.
  - intros ->. unfold Rdiv. rewrite Rmult_0_l. ring.
Qed.
Print Assumptions C18_rates_within_critical_stress_partial.
Example C18_partial_example : 1/10 <= bed_stress (1/10) (TV (V3 1 1 0) (fun _ => 0)) <= 1000.
Proof. unfold bed_stress, depth, GRAVITY; cbn. assert (P : Rpower 1 (- (1/3)) = 1) by (unfold Rpower; rewrite ln_1, Rmult_0_r; apply exp_0). rewrite P. lra. Qed.

(* Still clean water: at rest, no sediment, no flow into the cell, no source.  The right-hand side of
   every sediment class is negative, on both back ends and for any time step and Manning
   coefficient, so the cell acquires a negative sediment load. *)
Theorem C18_clean_still_water_refuted :
  exists q, depth q = 1 /\ tflow q = V3 1 0 0 /\ (forall j, ttr q j = 0) /\
    forall dt n j, 0 < dt ->
      (exists v, petsc_tracer_rhs true dt (1/1000) n 0 0 q tzero tzero = Some v /\ ttr v j = - (1/1000) /\ ttr (tadd q (tscal dt v)) j < 0) /\
      (exists v, ceed_tracer_rhs true GRAVITY dt (1/1000) n 0 0 q tzero tzero = Some v /\ ttr v j = - (1/1000) /\ ttr (tadd q (tscal dt v)) j < 0).
Proof.
  exists (TV (V3 1 0 0) (fun _ => 0)). split; [reflexivity|]. split; [reflexivity|]. split; [reflexivity|]. intros dt n j Hdt.
  set (q := TV (V3 1 0 0) (fun _ => 0)).
  assert (B : bed_stress n q = 0) by (unfold bed_stress, depth; cbn; field).
  assert (ED : erosion_rate n q - deposition_rate n j q = - (1/1000)).
  { unfold erosion_rate, deposition_rate, erosion, deposition, kp_constant, settling_velocity, tau_critical_erosion, tau_critical_deposition. rewrite B. unfold depth; cbn. field. }
  assert (D : depth q = 1) by reflexivity.
  assert (Pn : forall x y, 0 < x -> rpowneg x y = Some (Rpower x y)) by (intros; apply rpowneg_some; assumption).
  split.
  - destruct (petsc_tracer_rhs true dt (1/1000) n 0 0 q tzero tzero) as [v|] eqn:E.
    + exists v. split; [reflexivity|]. assert (S := petsc_tracer_source _ _ _ _ _ _ _ _ _ _ E j). rewrite D in S.
      assert (G : Rleb (1/1000) 1 = true) by (apply Rleb_true; lra). rewrite G, ED in S. cbn in S. split; [lra|]. cbn. rewrite S. nra.
    + exfalso. unfold petsc_tracer_rhs in E. rewrite D in E.
      destruct (petsc_semi_implicit_step true dt (1/1000) n 0 0 (tflow q) (tflow tzero) (tflow tzero)) as (s0 & r & _ & _ & E' & _); [lra|lra|cbn; lra|].
      rewrite E' in E. cbn [obind] in E. assert (G : Rleb (1/1000) 1 = true) by (apply Rleb_true; lra). rewrite G in E.
      rewrite !rdiv_some, rpowneg_some, rdivs_some in E by lra. cbn in E. discriminate.
  - destruct (ceed_tracer_rhs true GRAVITY dt (1/1000) n 0 0 q tzero tzero) as [v|] eqn:E.
    + exists v. split; [reflexivity|]. assert (S := ceed_tracer_source _ _ _ _ _ _ _ _ _ _ E j). rewrite D in S.
      assert (G : Rltb (1/1000) 1 = true) by (apply Rltb_true; lra). rewrite G, ED in S. cbn in S. split; [lra|]. cbn. rewrite S. nra.
    + exfalso. unfold ceed_tracer_rhs in E. rewrite D in E.
      assert (G : Rltb (1/1000) 1 = true) by (apply Rltb_true; lra). rewrite G in E. rewrite !SafeDiv_wet in E by lra.
      rewrite !rdiv_some in E by lra. cbn [obind] in E. rewrite rpowneg_some in E by lra. cbn [obind q tflow c0 c1 c2] in E.
      assert (Z : 0 / 1 * (0 / 1) + 0 / 1 * (0 / 1) = 0) by field. rewrite Z in E. rewrite rsqrt_some in E by lra. cbn [obind] in E. rewrite sqrt_0 in E.
      rewrite rdiv_some in E by lra. cbn [obind] in E.
      assert (Z2 : 1 + dt * (GRAVITY * (n * n) * Rpower 1 (- (1/3)) * 0 / 1) = 1) by field. rewrite Z2 in E.
      rewrite rdiv_some in E by lra. cbn [obind] in E. rewrite rdivs_some in E by lra. cbn in E. discriminate.
Qed.
Print Assumptions C18_clean_still_water_refuted.

(** ** C19 *)
(* PETSc: every edge (interior, boundary, hydrostatic reconstruction; Roe and upwind) between
   non-negative depths has a finite flux. *)
Theorem C19_petsc_fluxes_finite :
  forall k tiny qL qR sn cn, 0 < tiny -> 0 <= depth qL -> 0 <= depth qR ->
    (exists F, petsc_tracer_edge k tiny qL qR sn cn = Some F) /\
    (exists F, petsc_tracer_bedge k tiny (TDirichlet qR) qL sn cn = Some F) /\
    (exists F, petsc_tracer_bedge k tiny TReflecting qL sn cn = Some F) /\
    (forall ha zL zR, exists F, petsc_tracer_hr_edge k tiny ha zL zR qL qR sn cn = Some F).
Proof.
  intros k tiny qL qR sn cn Ht HL HR. split; [|split; [|split]].
  - destruct (petsc_tracer_edge_some k tiny qL qR sn cn Ht HL HR) as (F & a & E & _). eauto.
  - destruct (petsc_tracer_edge_some k tiny qL qR sn cn Ht HL HR) as (F & a & E & _).
    exists (F, a). rewrite <- E. unfold petsc_tracer_bedge, petsc_tracer_edge.
    destruct (petsc_tracer_prim_some tiny qL Ht) as (PL & EL & E1 & _). destruct (petsc_tracer_prim_some tiny qR Ht) as (PR & ER & E2 & _).
    rewrite EL, ER. cbn [obind]. rewrite E1, E2, !pvel_h. unfold depth. rewrite Bool.andb_comm. reflexivity.
  - unfold petsc_tracer_bedge. destruct (petsc_tracer_prim_some tiny qL Ht) as (PL & EL & E1 & _). rewrite EL. cbn [obind].
    destruct (_ && _)%bool eqn:G; [eauto|].
    destruct (petsc_tracer_flux_some k PL (petsc_tracer_reflect PL sn cn) sn cn) as (T & E & _); [|eauto].
    unfold wetpair. cbn [petsc_tracer_reflect tp petsc_reflect ph]. cbn [petsc_tracer_reflect tp petsc_reflect ph] in G.
    rewrite E1, pvel_h in *. apply Bool.andb_false_iff in G. unfold depth in HL. destruct G as [G|G]; apply Rltb_false in G; lra.
  - intros ha zL zR. unfold petsc_tracer_hr_edge. destruct (_ && _)%bool; [eauto|].
    assert (P : forall q h, exists P, hr_tracer_prim tiny ha h q = Some P).
    { intros q h. unfold hr_tracer_prim, hr_velocity. rewrite ceed_velocities_some by lra. cbn [obind]. destruct (Rltb _ _) eqn:G; [|cbn; eauto].
      apply Rltb_true in G. rewrite rdivs_some by lra. cbn; eauto. }
    destruct (P qL (hr_depth (depth qL) zL zR)) as (PL & EL). destruct (P qR (hr_depth (depth qR) zR zL)) as (PR & ER). rewrite EL, ER. cbn [obind].
    destruct (hr_tracer_prim_inv _ _ _ _ _ EL) as (H1 & _). destruct (hr_tracer_prim_inv _ _ _ _ _ ER) as (H2 & _).
    destruct (_ || _)%bool eqn:G; [|cbn; eauto].
    destruct (petsc_tracer_flux_some k PL PR sn cn) as (T & E & _); [|rewrite E; cbn; eauto].
    eapply hr_wet; [exact Ht| | |exact G|exact H1|exact H2]; apply hr_depth_nonneg.
Qed.
Print Assumptions C19_petsc_fluxes_finite.

(* PETSc: water entering a dry cell from a wet neighbour carries the concentration of the neighbour
   (either side of the edge). *)
Theorem C19_petsc_dry_cell_receives_tracer :
  forall k tiny qL qR sn cn j F a, 0 < tiny ->
    petsc_tracer_edge k tiny qL qR sn cn = Some (F, a) ->
    (depth qR = 0 -> tiny <= depth qL -> 0 <= depth F -> ttr F j = ttr qL j / depth qL * depth F) /\
    (depth qL = 0 -> tiny <= depth qR -> depth F <= 0 -> ttr F j = ttr qR j / depth qR * depth F).
Proof.
  intros k tiny qL qR sn cn j F a Ht E. split; intros H0 Hw Hs.
  - destruct (petsc_tracer_edge_some k tiny qL qR sn cn Ht ltac:(lra) ltac:(lra)) as (F' & a' & E' & _ & HF). rewrite E in E'. injection E' as <- <-.
    assert (D : tdry2 tiny qL qR = false). { unfold tdry2. assert (G : Rltb (depth qL) tiny = false) by (apply Rltb_false; lra). rewrite G. apply Bool.andb_false_r. }
    destruct (HF D) as (F1 & _ & F2). rewrite F2. change (depth F) with (c0 (tflow F)) in *. rewrite F1 in Hs |- *.
    assert (CL : pci tiny qL j = ttr qL j / depth qL). { unfold pci. assert (G : Rltb (depth qL) tiny = false) by (apply Rltb_false; lra). rewrite G. reflexivity. }
    destruct k; cbn [ptr].
    + rewrite proe_dry_right; [rewrite CL; reflexivity|apply wet_of_tdry2; try assumption; lra|rewrite pvel_h; exact H0].
    + unfold pup. assert (G : Rleb 0 (c0 (pflux GRAVITY (pvel tiny 0 (tflow qL)) (pvel tiny 0 (tflow qR)) sn cn)) = true) by (apply Rleb_true; exact Hs). rewrite G, CL. ring.
  - destruct (petsc_tracer_edge_some k tiny qL qR sn cn Ht ltac:(lra) ltac:(lra)) as (F' & a' & E' & _ & HF). rewrite E in E'. injection E' as <- <-.
    assert (D : tdry2 tiny qL qR = false). { unfold tdry2. assert (G : Rltb (depth qR) tiny = false) by (apply Rltb_false; lra). rewrite G. reflexivity. }
    destruct (HF D) as (F1 & _ & F2). rewrite F2. change (depth F) with (c0 (tflow F)) in *. rewrite F1 in Hs |- *.
    assert (CR : pci tiny qR j = ttr qR j / depth qR). { unfold pci. assert (G : Rltb (depth qR) tiny = false) by (apply Rltb_false; lra). rewrite G. reflexivity. }
    destruct k; cbn [ptr].
    + rewrite proe_dry_left; [rewrite CR; reflexivity|apply wet_of_tdry2; try assumption; lra|rewrite pvel_h; exact H0].
    + unfold pup. set (W := c0 (pflux _ _ _ _ _)) in *. destruct (Req_EM_T W 0) as [Z|Z]; [rewrite Z; ring|].
      assert (G : Rleb 0 W = false) by (apply Rleb_false; lra). rewrite G, CR. ring.
Qed.
Print Assumptions C19_petsc_dry_cell_receives_tracer.
(* a dam break onto a dry cell is such a case: water does flow *)
Example C19_example :
  exists F a, petsc_tracer_edge TUpwind (1/1000) (TV (V3 1 0 0) (fun _ => 5)) tzero 0 1 = Some (F, a) /\ 0 < depth F /\ ttr F 0%nat = 5 * depth F.
Proof.
  destruct (petsc_tracer_edge_some TUpwind (1/1000) (TV (V3 1 0 0) (fun _ => 5)) tzero 0 1 ltac:(lra)) as (F & a & E & _ & HF); try (unfold depth; cbn; lra).
  exists F, a. split; [exact E|].
  assert (D : tdry2 (1/1000) (TV (V3 1 0 0) (fun _ => 5)) tzero = false).
  { unfold tdry2, depth; cbn. assert (G : Rltb 1 (1/1000) = false) by (apply Rltb_false; lra). rewrite G. apply Bool.andb_false_r. }
  destruct (HF D) as (F1 & _ & _).
  assert (V1 : pvel (1/1000) 0 (V3 1 0 0) = Prim 1 0 0). { rewrite pvel_wet by (cbn; lra). apply prim_ext; cbn; lra. }
  assert (V2 : pvel (1/1000) 0 vzero = Prim 0 0 0). { rewrite pvel_dry by (cbn; lra). reflexivity. }
  cbn [tflow tzero] in F1. rewrite V1, V2 in F1.
  assert (W : 0 < depth F).
  { unfold depth. rewrite F1. destruct (wetdry GRAVITY 1 GRAVITY_pos ltac:(lra)) as (_ & _ & W). cbv zeta in W. rewrite W.
    assert (0 < sqrt (GRAVITY * 1)) by (apply sqrt_lt_R0; unfold GRAVITY; lra). assert (0 < sqrt 2) by (apply sqrt_lt_R0; lra).
    assert (0 < sqrt (GRAVITY * 1) / sqrt 2) by (apply Rdiv_lt_0_compat; assumption). lra. }
  split; [exact W|]. destruct (C19_petsc_dry_cell_receives_tracer TUpwind (1/1000) _ _ 0 1 0%nat F a ltac:(lra) E) as (K & _).
  rewrite K; [unfold depth; cbn; field|reflexivity|unfold depth; cbn; lra|lra].
Qed.

(* libCEED: a wet cell on the left of an empty one makes the flux a NaN ... *)
Theorem C19_ceed_nan_next_to_dry_cell_refuted :
  exists qL qR, depth qL = 1 /\ qR = tzero /\ forall k, ceed_tracer_edge k GRAVITY (1/1000) qL qR 0 1 = None.
Proof.
  exists (TV (V3 1 0 0) (fun _ => 0)), tzero. split; [reflexivity|]. split; [reflexivity|]. intros k.
  unfold ceed_tracer_edge, depth; cbn [tflow c0 tzero vzero].
  assert (G : Rltb (1/1000) 1 = true) by (apply Rltb_true; lra). rewrite G. cbn [orb].
  unfold ceed_tracer_flux, depth; cbn [tflow c0 tzero vzero]. unfold ceed_tracer_left, depth; cbn [tflow ttr c0 c1 c2].
  rewrite !SafeDiv_wet by lra. rewrite !rdiv_some, G by lra. cbn [obind]. rewrite rdivs_some by lra. cbn [obind].
  unfold ceed_tracer_right, depth; cbn [tflow ttr c0 tzero vzero]. rewrite G, rdivs_none. reflexivity.
Qed.
Print Assumptions C19_ceed_nan_next_to_dry_cell_refuted.

(* ... and with the dry cell on the left, water flows into it without its tracer. *)
Theorem C19_ceed_tracer_left_behind_refuted :
  exists qL qR, qL = tzero /\ depth qR = 1 /\ (forall j, ttr qR j = 5) /\
    forall k, exists F a, ceed_tracer_edge k GRAVITY (1/1000) qL qR 0 1 = Some (F, a) /\ depth F < 0 /\ forall j, ttr F j = 0.
Proof.
  exists tzero, (TV (V3 1 0 0) (fun _ => 5)). split; [reflexivity|]. split; [reflexivity|]. split; [reflexivity|]. intros k.
  unfold ceed_tracer_edge, depth; cbn [tflow c0 tzero vzero].
  assert (G : Rltb (1/1000) 1 = true) by (apply Rltb_true; lra). assert (G0 : Rltb (1/1000) 0 = false) by (apply Rltb_false; lra). rewrite G, G0. cbn [orb].
  unfold ceed_tracer_flux, depth; cbn [tflow c0 tzero vzero]. unfold ceed_tracer_left, ceed_tracer_right, depth; cbn [tflow ttr c0 c1 c2 tzero vzero].
  unfold SafeDiv. rewrite G, G0. rewrite !rdiv_some by lra. cbn [obind tp].
  set (L := Prim 0 0 0). assert (ER : Prim 1 (0 / 1) (0 / 1) = Prim 1 0 0) by (apply prim_ext; cbn; lra). rewrite ER. set (Rt := Prim 1 0 0).
  assert (W : wetpair L Rt) by (unfold wetpair, L, Rt; cbn; lra).
  rewrite ceed_eigenspectrum_some by (try apply GRAVITY_pos; exact W). cbn [obind].
  destruct (tracer_flux_some k GRAVITY (TPrim L (fun _ => 0)) (TPrim Rt (fun _ => 0)) 0 1 W) as (T & E & HT). cbn [tp tci] in *.
  rewrite E. exists (TV (pflux GRAVITY L Rt 0 1) T), (chat GRAVITY L Rt + Rabs (uperp L Rt 0 1)). split; [reflexivity|]. split.
  - unfold depth; cbn [tflow].
    (* mirror image of the dam break *)
    destruct (wetdry GRAVITY 1 GRAVITY_pos ltac:(lra)) as (_ & _ & X). cbv zeta in X. fold L Rt in X.
    assert (0 < sqrt (GRAVITY * 1)) by (apply sqrt_lt_R0; unfold GRAVITY; lra). assert (0 < sqrt 2) by (apply sqrt_lt_R0; lra).
    assert (0 < sqrt (GRAVITY * 1) / sqrt 2) by (apply Rdiv_lt_0_compat; assumption).
    assert (X' : 0 < c0 (pflux GRAVITY Rt L 0 1)) by (rewrite X; lra).
    (* both states are at rest: a half turn only turns the normal *)
    assert (M := pflux_rotate GRAVITY Rt L 0 1 (-1) 0 GRAVITY_pos (wetpair_sym _ _ W) ltac:(unfold unit2; ring)).
    replace (rot_prim (-1) 0 Rt) with Rt in M by (apply prim_ext; cbn; ring). replace (rot_prim (-1) 0 L) with L in M by (apply prim_ext; cbn; ring).
    replace (0 * 1 + -1 * 0) with (- 0) in M by ring. replace (-1 * 1 - 0 * 0) with (- (1)) in M by ring.
    rewrite (pflux_reverse GRAVITY L Rt 0 1 GRAVITY_pos W) in M. apply (f_equal c0) in M. cbn [vscal rot_vec c0] in M. lra.
  - intros j. rewrite HT. destruct k; cbn [ptr].
    + unfold proe. field. assert (S := sqrt_sum_pos _ _ W). lra.
    + unfold pup. destruct (Rleb _ _); ring.
Qed.
Print Assumptions C19_ceed_tracer_left_behind_refuted.

(* With hydrostatic reconstruction this happens even between two wet cells, at a step of the bed. *)
Theorem C19_ceed_hr_nan_at_bed_step_refuted :
  exists zL zR qL qR, depth qL = 1 /\ depth qR = 1/2 /\ tflow qL = V3 1 0 0 /\ tflow qR = V3 (1/2) 0 0 /\
    ceed_tracer_hr_edge GRAVITY (1/1000) 0 zL zR qL qR 0 1 = None.
Proof.
  exists 1, 0, (TV (V3 1 0 0) (fun _ => 0)), (TV (V3 (1/2) 0 0) (fun _ => 0)). repeat (split; [reflexivity|]).
  unfold ceed_tracer_hr_edge, depth; cbn [tflow c0].
  assert (D1 : hr_depth 1 1 0 = 1). { unfold hr_depth. rewrite (Rmax_left 1 0), (Rmax_right 0 _) by lra. lra. }
  assert (D2 : hr_depth (1/2) 0 1 = 0). { unfold hr_depth. rewrite (Rmax_right 0 1), (Rmax_left 0 _) by lra. lra. }
  rewrite D1, D2.
  assert (G : Rltb (1/1000) 1 = true) by (apply Rltb_true; lra). assert (G2 : Rltb (1/1000) (1/2) = true) by (apply Rltb_true; lra).
  unfold hr_tracer_prim, hr_velocity, depth; cbn [tflow ttr c0]. rewrite !ceed_velocities_some by lra. rewrite G, G2. cbn [obind].
  rewrite !rdivs_some by lra. cbn [obind]. cbn [orb tp tci].
  unfold ceed_tracer_flux. unfold ceed_tracer_left, depth; cbn [tflow ttr c0 c1 c2 ph]. unfold SafeDiv. rewrite G, !rdiv_some by lra. cbn [obind].
  rewrite rdivs_some by lra. cbn [obind]. unfold ceed_tracer_right, depth; cbn [tflow ttr c0 c1 c2 ph]. rewrite G, rdivs_none. reflexivity.
Qed.
Print Assumptions C19_ceed_hr_nan_at_bed_step_refuted.

(** ** C54 *)
Definition tracer_mass (m : mesh) (j : nat) (u : nat -> tvec) : R := rsum (fun c => area m c * ttr (u c) j) (cells m).
(* net rate of exchange with the bed, where the back end counts the cell as wet *)
Definition wet_for (K : tracer_kind) (tiny : R) (q : tvec) : bool :=
  match K with KPetsc _ | KPetscHR _ _ _ => tiny <=? depth q | KCeed _ | KCeedHR _ _ => tiny <? depth q end.
Definition bed_exchange (K : tracer_kind) (tiny : R) (g : cellgeom) (m : mesh) (j : nat) (u : nat -> tvec) : R :=
  rsum (fun c => area m c * (if wet_for K tiny (u c) then erosion_rate (manning g c) (u c) - deposition_rate (manning g c) j (u c) else 0)) (cells m).
(* rate at which the external source supplies the tracer *)
Definition supplied (m : mesh) (j : nat) (src : nat -> tvec) : R := rsum (fun c => area m c * ttr (src c) j) (cells m).
(* rate at which the tracer leaves through the boundary *)
Definition tracer_outflow (s : tscheme) (m : mesh) (j : nat) (u : nat -> tvec) : R :=
  rsum (fun e => be_len e * match ts_boundary s u e with Some (f, _) => ttr f j | None => 0 end) (bedges m).

(* gain of one step, by the integrator's quadrature, and of a run *)
Definition tstep_gain (i : integrator) (s : tscheme) (m : mesh) (rate : (nat -> tvec) -> tstep_input -> R) (u : nat -> tvec) (x : tstep_input) : R :=
  match tstages i (trhs s m (tst_dt x) (tst_src x)) (tst_dt x) u with
  | Some l => tst_dt x * rsum (fun w => fst w * rate (snd w) x) l
  | None => 0
  end.
Fixpoint trun_gain (i : integrator) (s : tscheme) (m : mesh) (rate : (nat -> tvec) -> tstep_input -> R) (xs : list tstep_input) (u : nat -> tvec) : R :=
  match xs with
  | [] => 0
  | x :: t => tstep_gain i s m rate u x
              + match tts_step i (trhs s m (tst_dt x) (tst_src x)) (tst_dt x) u with Some u' => trun_gain i s m rate t u' | None => 0 end
  end.

Section Balance.
  Variables (p : tvec -> R) (p_add : forall a b, p (tadd a b) = p a + p b) (p_scal : forall r a, p (tscal r a) = r * p a) (p_zero : p tzero = 0).
  Variables (i : integrator) (s : tscheme) (m : mesh) (rate : (nat -> tvec) -> tstep_input -> R).
  Local Notation total := (fun u => rsum (fun c => area m c * p (u c)) (cells m)).
  Hypothesis HB : forall x v k, trhs s m (tst_dt x) (tst_src x) v = Some k -> total k = rate v x.
  Lemma tstep_balance u x u' : tts_step i (trhs s m (tst_dt x) (tst_src x)) (tst_dt x) u = Some u' -> total u' = total u + tstep_gain i s m rate u x.
  Proof.
    intros E. unfold tstep_gain. destruct i; cbn [tts_step tstages] in *.
    - unfold teuler_step in E. apply obind_some in E. destruct E as (k & Ek & E). injection E as <-.
      rewrite (total_taxpy p p_add p_scal), (HB x u k Ek). cbn [rsum fst snd]. ring.
    - unfold trk4_step in E.
      apply obind_some in E. destruct E as (k1 & E1 & E). apply obind_some in E. destruct E as (k2 & E2 & E).
      apply obind_some in E. destruct E as (k3 & E3 & E). apply obind_some in E. destruct E as (k4 & E4 & E). injection E as <-.
      rewrite E1. cbn [obind]. rewrite E2. cbn [obind]. rewrite E3. cbn [obind].
      rewrite !(total_taxpy p p_add p_scal), (HB _ _ _ E1), (HB _ _ _ E2), (HB _ _ _ E3), (HB _ _ _ E4). cbn [rsum fst snd]. field.
  Qed.
  Lemma trun_balance xs : forall u u', trun i s m xs u = Some u' -> total u' = total u + trun_gain i s m rate xs u.
  Proof.
    unfold trun. induction xs as [|x t IH]; intros u u' E; cbn [ofold trun_gain] in *.
    - injection E as <-. ring.
    - apply obind_some in E. destruct E as (u1 & E1 & E2). rewrite E1. rewrite (IH u1 u' E2). rewrite (tstep_balance u x u1 E1). ring.
  Qed.
End Balance.

Lemma both_sides_tracer K tiny g bcs j u e fl fr a : ts_interior (tracer_scheme K tiny g bcs) u e = Some (fl, fr, a) -> ttr fl j = ttr fr j.
Proof.
  destruct K; cbn [tracer_scheme ts_interior petsc_tracer_scheme ceed_tracer_scheme petsc_tracer_hr_scheme ceed_tracer_hr_scheme]; intros E.
  - unfold tboth in E. apply obind_some in E. destruct E as ([F b] & _ & E). injection E as <- <- _. reflexivity.
  - unfold tboth in E. apply obind_some in E. destruct E as ([F b] & _ & E). injection E as <- <- _. reflexivity.
  - unfold petsc_tracer_hr_edge in E. destruct (_ && _)%bool; [injection E as <- <- _; reflexivity|].
    apply obind_some in E. destruct E as (P & EP & E). apply obind_some in E. destruct E as (Q & EQ & E). apply obind_some in E. destruct E as ([F b] & EF & E).
    injection E as <- <- _. reflexivity.
  - unfold ceed_tracer_hr_edge in E. apply obind_some in E. destruct E as (P & EP & E). apply obind_some in E. destruct E as (Q & EQ & E).
    destruct (_ || _)%bool; [|injection E as <- <- _; reflexivity].
    apply obind_some in E. destruct E as ([F b] & EF & E). injection E as <- <- _. reflexivity.
Qed.

(* The part of the external supply that is added: all of it with libCEED, only what falls on wet cells
   with PETSc. *)
Definition counted (K : tracer_kind) (tiny : R) (m : mesh) (j : nat) (src u : nat -> tvec) : R :=
  match K with
  | KPetsc _ | KPetscHR _ _ _ => rsum (fun c => area m c * (if tiny <=? depth (u c) then ttr (src c) j else 0)) (cells m)
  | KCeed _ | KCeedHR _ _ => supplied m j src
  end.

Lemma tracer_rate K tiny g bcs m j dt src u k : mesh_wf m -> trhs (tracer_scheme K tiny g bcs) m dt src u = Some k ->
  rsum (fun c => area m c * ttr (k c) j) (cells m)
  = bed_exchange K tiny g m j u + counted K tiny m j src u - tracer_outflow (tracer_scheme K tiny g bcs) m j u.
Proof.
  intros Hm E.
  assert (T := trhs_total (fun v => ttr v j) (fun _ _ => eq_refl) (fun _ _ => eq_refl) eq_refl (tracer_scheme K tiny g bcs) m dt src u k
    (fun c => match K with
       | KPetsc _ | KPetscHR _ _ _ => if tiny <=? depth (u c) then erosion_rate (manning g c) (u c) - deposition_rate (manning g c) j (u c) + ttr (src c) j else 0
       | KCeed _ | KCeedHR _ _ => (if tiny <? depth (u c) then erosion_rate (manning g c) (u c) - deposition_rate (manning g c) j (u c) else 0) + ttr (src c) j end)
    (fun e fl fr a => both_sides_tracer K tiny g bcs j u e fl fr a)).
  rewrite T; [|intros c F v Ev|exact Hm|exact E].
  - unfold tracer_outflow, bval. f_equal. unfold bed_exchange, counted, supplied, wet_for.
    destruct K; rewrite <- rsum_plus; apply rsum_ext; intros c _; try (destruct (Rleb _ _); ring); destruct (Rltb _ _); ring.
  - destruct K; cbn [tracer_scheme ts_source petsc_tracer_scheme ceed_tracer_scheme petsc_tracer_hr_scheme ceed_tracer_hr_scheme] in Ev;
      [eapply petsc_tracer_source|eapply ceed_tracer_source|eapply petsc_tracer_source|eapply ceed_tracer_source]; exact Ev.
Qed.

(* Balance of each tracer over any run: change = exchange with the bed + supply - outflow, by the
   integrator's own quadrature.  Edges inside the domain create and destroy nothing. *)
Theorem C54_tracer_balance :
  forall K tiny g bcs i m j xs u u',
    mesh_wf m ->
    let s := tracer_scheme K tiny g bcs in
    trun i s m xs u = Some u' ->
    tracer_mass m j u' = tracer_mass m j u
      + trun_gain i s m (fun v x => bed_exchange K tiny g m j v + counted K tiny m j (tst_src x) v - tracer_outflow s m j v) xs u.
Proof.
  intros K tiny g bcs i m j xs u u' Hm s E.
  exact (trun_balance (fun v => ttr v j) (fun _ _ => eq_refl) (fun _ _ => eq_refl) i s m _ (fun x v k Ek => tracer_rate K tiny g bcs m j _ _ v k Hm Ek) xs u u' E).
Qed.
Print Assumptions C54_tracer_balance.

(* With libCEED the whole supply is counted. *)
Theorem C54_ceed_whole_supply_counted :
  forall K tiny m j src u, match K with KCeed _ | KCeedHR _ _ => True | _ => False end -> counted K tiny m j src u = supplied m j src.
Proof. intros [k|k|k ha z|ha z] tiny m j src u H; try contradiction; reflexivity. Qed.
Print Assumptions C54_ceed_whole_supply_counted.

(* With PETSc the tracer supplied to a dry cell is lost, although the water supplied with it is added:
   one Euler step on one dry cell with rain 1 carrying tracer at rate 1. *)
Theorem C54_petsc_dry_supply_lost_refuted :
  exists m src, mesh_wf m /\ supplied m 0%nat src = 1 /\
    forall k g bcs, exists u', trun Euler (tracer_scheme (KPetsc k) (1/1000) g bcs) m [TStep 1 src] (fun _ => tzero) = Some u' /\
      depth (u' 0%nat) = 1 /\ tracer_mass m 0%nat u' = 0.
Proof.
  exists (Mesh [0%nat] (fun _ => 1) [] []), (fun _ => TV (V3 1 0 0) (fun _ => 1)). split; [|split].
  - split; [repeat constructor; simpl; tauto|]. split; intros e [].
  - unfold supplied. cbn. ring.
  - intros k g bcs. unfold trun. cbn [ofold tts_step tst_dt tst_src]. unfold teuler_step, trhs, tdivergence. cbn [iedges bedges cells].
    unfold interior_loop, boundary_loop, source_loop. cbn [ofold obind]. unfold cell_update. cbn [tracer_scheme ts_source petsc_tracer_scheme]. unfold petsc_tracer_rhs, depth; cbn [tflow tzero vzero c0].
    unfold petsc_rhs. rewrite petsc_source_dry by (cbn; lra). cbn [obind].
    assert (G : Rleb (1/1000) 0 = false) by (apply Rleb_false; lra). rewrite G. cbn [obind]. eexists. split; [reflexivity|].
    unfold tracer_mass, depth, taxpy. cbn. split; ring.
Qed.
Print Assumptions C54_petsc_dry_supply_lost_refuted.

(* Closed basin: no tracer passes a reflecting wall. *)
Lemma wall_no_tracer K tiny g bcs u e j : 0 < tiny -> bcs e = TReflecting -> be_cn e * be_cn e + be_sn e * be_sn e = 1 ->
  match ts_boundary (tracer_scheme K tiny g bcs) u e with Some (f, _) => ttr f j | None => 0 end = 0.
Proof.
  intros Ht HB Hu.
  assert (PW : forall k, match petsc_tracer_bedge k tiny TReflecting (u (be_c e)) (be_sn e) (be_cn e) with Some (f, _) => ttr f j | None => 0 end = 0).
  { intros k. destruct (petsc_tracer_bedge _ _ _ _ _ _) as [[F a]|] eqn:E; [|reflexivity].
    destruct (petsc_tracer_bedge_flow k tiny TReflecting (u (be_c e)) (be_sn e) (be_cn e) _ E) as ([f b] & E' & H1 & _). cbn [fst snd] in H1. unfold flowof in H1.
    assert (Z := petsc_wall_mass tiny 0 _ _ _ _ _ Ht Hu E').
    destruct (Rlt_dec (depth (u (be_c e))) tiny) as [D|D].
    - unfold petsc_tracer_bedge in E. destruct (petsc_tracer_prim_some tiny (u (be_c e)) Ht) as (PL & EL & E1 & _). rewrite EL in E. cbn [obind] in E.
      cbn [petsc_tracer_reflect tp petsc_reflect ph] in E. rewrite E1, pvel_h in E. unfold depth in D.
      assert (G : Rltb (c0 (tflow (u (be_c e)))) tiny = true) by (apply Rltb_true; exact D). rewrite G in E. cbn in E. injection E as <- _. reflexivity.
    - assert (U : uni (ttr (u (be_c e)) j / depth (u (be_c e))) j F).
      { eapply (petsc_bedge_uniform _ j k tiny TReflecting); [exact Ht| | |exact I|exact E].
        - destruct k; cbn; lra. - unfold uni. field. lra. }
      unfold uni, depth in U. rewrite H1, Z in U. rewrite U. ring. }
  assert (CW : forall k, match ceed_tracer_bedge k GRAVITY tiny TReflecting (u (be_c e)) (be_sn e) (be_cn e) with Some (f, _) => ttr f j | None => 0 end = 0).
  { intros k. destruct (ceed_tracer_bedge _ _ _ _ _ _ _) as [[F a]|] eqn:E; [|reflexivity].
    destruct (ceed_tracer_bedge_flow k GRAVITY tiny TReflecting (u (be_c e)) (be_sn e) (be_cn e) _ E) as ([f b] & E' & H1 & _). cbn [fst snd] in H1. unfold flowof in H1.
    assert (Z := ceed_wall_mass tiny 0 _ _ _ _ _ _ Ht Hu E').
    destruct (Rlt_dec tiny (depth (u (be_c e)))) as [D|D].
    - assert (U : uni (ttr (u (be_c e)) j / depth (u (be_c e))) j F).
      { eapply (ceed_bedge_uniform _ j k GRAVITY tiny TReflecting); [apply GRAVITY_pos|apply Rlt_le; exact Ht|exact D| |exact I|exact E]. unfold uni. field. lra. }
      unfold uni, depth in U. rewrite H1, Z in U. rewrite U. ring.
    - cbn [ceed_tracer_bedge] in E. assert (G : Rltb tiny (depth (u (be_c e))) = false) by (apply Rltb_false; lra). rewrite G in E. injection E as <- _. reflexivity. }
  destruct K; cbn [tracer_scheme ts_boundary petsc_tracer_scheme ceed_tracer_scheme petsc_tracer_hr_scheme ceed_tracer_hr_scheme]; rewrite HB; auto.
Qed.
Theorem C54_walls_hold_tracer :
  forall K tiny g bcs i m j xs u u',
    0 < tiny -> mesh_wf m -> (forall e, In e (bedges m) -> bcs e = TReflecting /\ be_cn e * be_cn e + be_sn e * be_sn e = 1) ->
    let s := tracer_scheme K tiny g bcs in
    trun i s m xs u = Some u' ->
    tracer_mass m j u' = tracer_mass m j u + trun_gain i s m (fun v x => bed_exchange K tiny g m j v + counted K tiny m j (tst_src x) v) xs u.
Proof.
  intros K tiny g bcs i m j xs u u' Ht Hm HW s E.
  refine (trun_balance (fun v => ttr v j) (fun _ _ => eq_refl) (fun _ _ => eq_refl) i s m _ _ xs u u' E).
  intros x v k Ek. rewrite (tracer_rate K tiny g bcs m j _ _ v k Hm Ek).
  replace (tracer_outflow (tracer_scheme K tiny g bcs) m j v) with 0; [ring|]. symmetry. apply rsum_zero. intros e He. destruct (HW e He).
  rewrite wall_no_tracer by assumption. ring.
Qed.
Print Assumptions C54_walls_hold_tracer.
(* the step above is a run to which the balance applies *)
Example C54_example : exists u', trun Euler (tracer_scheme (KPetsc TRoe) (1/1000) flat (fun _ => TReflecting)) (Mesh [0%nat] (fun _ => 1) [] []) [TStep 1 (fun _ => TV (V3 1 0 0) (fun _ => 1))] (fun _ => tzero) = Some u'.
Proof.
  unfold trun. cbn [ofold tts_step tst_dt tst_src]. unfold teuler_step, trhs, tdivergence. cbn [iedges bedges cells].
  unfold interior_loop, boundary_loop, source_loop. cbn [ofold obind]. unfold cell_update. cbn [tracer_scheme ts_source petsc_tracer_scheme]. unfold petsc_tracer_rhs, depth; cbn [tflow tzero vzero c0].
  unfold petsc_rhs. rewrite petsc_source_dry by (cbn; lra). cbn [obind].
  assert (G : Rleb (1/1000) 0 = false) by (apply Rleb_false; lra). rewrite G. cbn [obind]. eauto.
Qed.
