(** Lemmas about hydrostatic reconstruction on flat arrays. *)
From Coq Require Import String.
From Verif Require DataProofs.
From Verif Require Import Base RoeModel RoeProofs EdgeModel EdgeProofs HRModel EtaModel SourceModel TracerModel TracerProofs MeshMapsProofs AMRProofs CeedLayoutModel CeedLayoutSpec CeedLayoutProofs CeedMusclProofs CeedHRModel CeedHRSpec.
Local Open Scope R_scope.
Local Notation length := List.length.

Lemma fold_sum {A} (f : A -> R) l : forall x, fold_left (fun s a => s + f a) l x = x + rsum f l.
Proof. induction l as [|a l IH]; intros x; cbn [fold_left rsum]; [ring|]. rewrite IH. ring. Qed.

Lemma bed_some file hm c : cells_ok hm -> (c < cm_cells (hm_mesh hm))%nat -> bed_elevation file hm c = Some (bed file hm c).
Proof.
  intros H Hc. destruct (H c Hc) as (E & N). unfold bed_elevation, bed. destruct file; [reflexivity|].
  rewrite rdiv_some by (apply not_0_INR; exact N). rewrite (fold_sum (fun v => cm_z (hm_mesh hm) (hm_vertices hm v))), Rplus_0_l, <- E. f_equal.
  unfold cell_vertices. rewrite rsum_map. reflexivity.
Qed.

Definition hgeom (file : bool) (hm : hmesh) (e : nat) : list R :=
  let m := hm_mesh hm in
  [cm_sn m e; cm_cn m e; - cm_len m e / cm_area m (left_cell m e); cm_len m e / cm_area m (right_cell m e); bed file hm (left_cell m e); bed file hm (right_cell m e)].
Lemma hgeom_all file hm bs : mesh_ok (hm_mesh hm) bs -> cells_ok hm -> omap (hr_geom file hm) (owned_internal (hm_mesh hm)) = Some (map (hgeom file hm) (owned_internal (hm_mesh hm))).
Proof.
  intros M C. apply omap_map. intros e He. apply owned_internal_in in He. destruct He as (I1 & I2). destruct (mo_internal _ _ M e I1 I2) as ((A & B & _ & _) & D & E).
  unfold hr_geom, hgeom. rewrite !rdiv_some by assumption. rewrite !bed_some by assumption. reflexivity.
Qed.

Definition hr_inputs (cf : cconfig) : list (string * nat) := [("geom", 6%nat); ("q_left", num_comp cf); ("q_right", num_comp cf)]%string.
Definition hr_op (cf : cconfig) (file : bool) (hm : hmesh) (dt : R) : ceed_operator :=
  let m := hm_mesh hm in let nc := num_comp cf in let es := owned_internal m in let n := length es in
  (CeedOp
    (QFunction (hr_inputs cf) (hr_outputs cf)
       (fun ins => let* w := hr_interior_body cf dt ins in settle (hr_outputs cf) w))
    [OpField "geom" (strided n 6) (Some (concat (map (hgeom file hm) es)));
     OpField "q_left" (Restriction (map (fun e => left_cell m e * nc)%nat es) nc) None;
     OpField "q_right" (Restriction (map (fun e => right_cell m e * nc)%nat es) nc) None;
     OpField "cell_left" (Restriction (map (fun e => cm_l2o m (left_cell m e) * nc)%nat es) nc) None;
     OpField "cell_right" (Restriction (map (fun e => cm_l2o m (right_cell m e) * nc)%nat es) nc) None;
     OpField "flux" (strided n nc) (Some (repeat 0 (n * nc)));
     OpField "courant_number" (strided n 2) (Some (repeat 0 (n * 2)))]%string).
Lemma hr_created cf file hm dt bs : mesh_ok (hm_mesh hm) bs -> cells_ok hm -> CreateCeedInteriorFluxHydroReconSuboperator cf file hm dt = Some (hr_op cf file hm dt).
Proof. intros M C. unfold CreateCeedInteriorFluxHydroReconSuboperator. rewrite (hgeom_all file hm bs M C), obind_Some. reflexivity. Qed.

Lemma hr_ins cf file hm dt bs u i e : mesh_ok (hm_mesh hm) bs -> length u = (num_comp cf * cm_cells (hm_mesh hm))%nat ->
  nth_error (owned_internal (hm_mesh hm)) i = Some e ->
  omap (input_at (hr_op cf file hm dt) u i) (hr_inputs cf) =
  Some [hgeom file hm e; block (num_comp cf) u (left_cell (hm_mesh hm) e); block (num_comp cf) u (right_cell (hm_mesh hm) e)].
Proof.
  intros M HU Hi. set (m := hm_mesh hm) in *.
  assert (Hin := nth_error_In _ _ Hi). apply owned_internal_in in Hin. destruct Hin as (I1 & I2).
  destruct (mo_internal m bs M e I1 I2) as ((A & B & V1 & V2) & C & D).
  assert (L : (i < length (owned_internal m))%nat) by (apply nth_error_Some; congruence).
  assert (G0 : input_at (hr_op cf file hm dt) u i ("geom"%string, 6%nat) = Some (hgeom file hm e)).
  { eapply input_passive; [reflexivity|reflexivity|reflexivity|apply offsets_strided; exact L|].
    rewrite <- (app_nil_r (concat _)). apply fetch_rows; [|apply offsets_map; exact Hi]. apply Forall_forall. intros r Hr. apply in_map_iff in Hr. destruct Hr as (z & <- & _). reflexivity. }
  assert (G1 : input_at (hr_op cf file hm dt) u i ("q_left"%string, num_comp cf) = Some (block (num_comp cf) u (left_cell m e))).
  { eapply input_active; [reflexivity|reflexivity|reflexivity|exact (offsets_map (fun e => left_cell m e * num_comp cf)%nat _ _ _ Hi)|]. apply fetch_block. rewrite HU. nia. }
  assert (G2 : input_at (hr_op cf file hm dt) u i ("q_right"%string, num_comp cf) = Some (block (num_comp cf) u (right_cell m e))).
  { eapply input_active; [reflexivity|reflexivity|reflexivity|exact (offsets_map (fun e => right_cell m e * num_comp cf)%nat _ _ _ Hi)|]. apply fetch_block. rewrite HU. nia. }
  unfold hr_inputs. cbn [omap]. rewrite G0, G1, G2, !obind_Some. reflexivity.
Qed.

Lemma hr_flux_length cf zL zR qL qR sn cn fL fR a : hr_flux cf zL zR qL qR sn cn = Some (fL, fR, a) -> length fL = num_comp cf /\ length fR = num_comp cf.
Proof.
  unfold hr_flux, num_comp. destruct (Nat.eqb_spec (num_tracers cf) 0) as [E|E].
  - destruct (ceed_hr_edge _ _ _ _ _ _ _ _ _) as [[[f g] w]|]; [|discriminate]. rewrite obind_Some. intros H. injection H as <- <- <-. rewrite E. split; reflexivity.
  - destruct (ceed_tracer_hr_edge _ _ _ _ _ _ _ _ _) as [[[f g] w]|]; [|discriminate]. rewrite obind_Some. intros H. injection H as <- <- <-. split; apply comps_length.
Qed.

(* only the first two outputs are defined *)
Definition hr_outs (m : cmesh) (FL FR : nat -> list R) (e : nat) : list (option (list R)) :=
  let wL := - cm_len m e / cm_area m (left_cell m e) in
  let wR := cm_len m e / cm_area m (right_cell m e) in
  [Some (map (fun x => x * wL) (FL e)); Some (map (fun x => x * wR) (FR e)); None; None].

Lemma settle_hr cf l r c : length l = num_comp cf -> length r = num_comp cf -> length c = 2%nat -> settle (hr_outputs cf) [l; r; c] = Some [Some l; Some r; None; None].
Proof.
  intros Ll Lr Lc. unfold settle, hr_outputs. cbn [length combine forallb fst snd seq map nth_error]. rewrite Ll, Lr, Lc, Nat.leb_refl, Nat.eqb_refl.
  unfold num_comp. cbn [Nat.add Nat.leb andb Nat.eqb]. reflexivity.
Qed.

Lemma hr_point cf file hm dt bs u i e FL FR a : mesh_ok (hm_mesh hm) bs -> length u = (num_comp cf * cm_cells (hm_mesh hm))%nat ->
  (num_tracers cf <= MAX_NUM_SEDIMENT_CLASSES)%nat -> nth_error (owned_internal (hm_mesh hm)) i = Some e ->
  hr_flux_at cf file hm u e = Some (FL e, FR e, a) ->
  point (hr_op cf file hm dt) u i = Some (hr_outs (hm_mesh hm) FL FR e).
Proof.
  intros M HU HT Hi HF. assert (LF := hr_flux_length _ _ _ _ _ _ _ _ _ _ HF). destruct LF as (LL & LR).
  eapply point_of; [exact (hr_ins cf file hm dt bs u i e M HU Hi)| |].
  2:{ unfold hr_outs, outputs_fit. cbn. rewrite !map_length, LL, LR, Nat.eqb_refl. reflexivity. }
  change (qf_body (co_qf (hr_op cf file hm dt))) with (fun ins => let* w := hr_interior_body cf dt ins in settle (hr_outputs cf) w). cbv beta.
  assert (Hin := nth_error_In _ _ Hi). apply owned_internal_in in Hin. destruct Hin as (I1 & I2).
  destruct (mo_internal _ bs M e I1 I2) as ((A & B & V1 & V2) & C & D).
  assert (BL : forall c, (c < cm_cells (hm_mesh hm))%nat -> length (block (num_comp cf) u c) = num_comp cf).
  { intros c Hc. apply block_length. rewrite HU. nia. }
  unfold hr_flux_at, hr_flux in HF. unfold hr_interior_body.
  destruct (Nat.eqb_spec (num_tracers cf) 0) as [E|E].
  - destruct (ceed_hr_edge _ _ _ _ _ _ _ _ _) as [[[f g] w]|] eqn:EF; [|discriminate]. rewrite obind_Some in HF. cbn [fst snd] in HF. injection HF as H1 H2 H3.
    unfold SWEFlux_HydroRecon, hgeom. cbn [nth_error]. rewrite !obind_Some. rewrite !swe_state_v3 by (rewrite BL by assumption; unfold num_comp; lia). rewrite !obind_Some. cbn [nth_error]. rewrite ?obind_Some. rewrite EF, obind_Some, obind_Some.
    rewrite settle_hr; [|rewrite map_length, H1; exact LL|rewrite map_length, H2; exact LR|reflexivity].
    unfold hr_outs. rewrite <- H1, <- H2. reflexivity.
  - destruct (ceed_tracer_hr_edge _ _ _ _ _ _ _ _ _) as [[[f g] w]|] eqn:EF; [|discriminate]. rewrite obind_Some in HF. cbn [fst snd] in HF. injection HF as H1 H2 H3.
    unfold TracerFlux_HydroRecon, hgeom. cbn [nth_error]. rewrite !obind_Some.
    rewrite !tracer_state_tv by (first [exact HT|rewrite BL by assumption; reflexivity]). rewrite !obind_Some. cbn [nth_error]. rewrite ?obind_Some.
    rewrite EF, obind_Some, obind_Some.
    rewrite settle_hr; [|rewrite map_length, H1; exact LL|rewrite map_length, H2; exact LR|reflexivity].
    unfold hr_outs. rewrite <- H1, <- H2. reflexivity.
Qed.
Lemma hr_same cf file hm dt : same_elems (hr_op cf file hm dt) = true /\ elems (hr_op cf file hm dt) = length (owned_internal (hm_mesh hm)).
Proof.
  assert (E : elems (hr_op cf file hm dt) = length (owned_internal (hm_mesh hm))). { unfold elems, hr_op, strided. cbn. rewrite map_length, seq_length. reflexivity. }
  split; [|exact E]. unfold same_elems. rewrite E. unfold hr_op, strided. cbn [co_fields forallb of_restriction r_offsets]; rewrite !map_length, !seq_length, !Nat.eqb_refl; reflexivity.
Qed.

Lemma hr_apply cf file hm dt bs u FL FR a x : mesh_ok (hm_mesh hm) bs -> length u = (num_comp cf * cm_cells (hm_mesh hm))%nat ->
  (num_tracers cf <= MAX_NUM_SEDIMENT_CLASSES)%nat -> length x = (num_comp cf * cm_cells (hm_mesh hm))%nat ->
  (forall e, In e (owned_internal (hm_mesh hm)) -> hr_flux_at cf file hm u e = Some (FL e, FR e, a e)) ->
  exists x', apply_add (hr_op cf file hm dt) u x = Some x' /\ length x' = length x /\
    forall c k, (c < cm_cells (hm_mesh hm))%nat -> (k < num_comp cf)%nat ->
      nth (cm_l2o (hm_mesh hm) c * num_comp cf + k) x' 0 = nth (cm_l2o (hm_mesh hm) c * num_comp cf + k) x 0 + hr_from_internal (hm_mesh hm) FL FR c k.
Proof.
  intros M HU HT HX HF. set (m := hm_mesh hm) in *.
  assert (HP : points (hr_op cf file hm dt) u = Some (map (hr_outs m FL FR) (owned_internal m))).
  { unfold points. destruct (hr_same cf file hm dt) as (S1 & S2). rewrite S1, S2. apply omap_index. intros i e Hi.
    eapply hr_point; eauto. apply HF. eapply nth_error_In; exact Hi. }
  unfold apply_add. rewrite HP, obind_Some. change (qf_outputs (co_qf (hr_op cf file hm dt))) with (hr_outputs cf). unfold hr_outputs. cbn [length seq combine ofold].
  assert (LF : forall e, In e (owned_internal m) -> length (FL e) = num_comp cf /\ length (FR e) = num_comp cf). { intros e He. eapply hr_flux_length. apply HF. exact He. }
  assert (OK : forall e, In e (owned_internal m) -> (left_cell m e < cm_cells m)%nat /\ (right_cell m e < cm_cells m)%nat).
  { intros e He. apply owned_internal_in in He. destruct He as (I1 & I2). destruct (mo_internal m bs M e I1 I2) as ((A & _) & C & _). auto. }
  pose (wl := fun e => - cm_len m e / cm_area m (left_cell m e)). pose (wr := fun e => cm_len m e / cm_area m (right_cell m e)).
  destruct (scatter_all (num_comp cf) (fun e => cm_l2o m (left_cell m e)) (hr_outs m FL FR) (fun e => map (fun x => x * wl e) (FL e)) 0%nat (owned_internal m) x) as (x1 & E1 & L1 & V1).
  { intros e He. split; [reflexivity|]. split; [rewrite map_length; apply LF; exact He|]. rewrite HX. assert (B := mo_l2o m bs M _ (proj1 (OK e He))). nia. }
  destruct (scatter_all (num_comp cf) (fun e => cm_l2o m (right_cell m e)) (hr_outs m FL FR) (fun e => map (fun x => x * wr e) (FR e)) 1%nat (owned_internal m) x1) as (x2 & E2 & L2 & V2).
  { intros e He. split; [reflexivity|]. split; [rewrite map_length; apply LF; exact He|]. rewrite L1, HX. assert (B := mo_l2o m bs M _ (proj2 (OK e He))). nia. }
  exists x2. split; [|split; [lia|]].
  - assert (S1 : scatter_output (hr_op cf file hm dt) (map (hr_outs m FL FR) (owned_internal m)) x (0%nat, ("cell_left"%string, num_comp cf)) = Some x1) by exact E1.
    assert (S2 : scatter_output (hr_op cf file hm dt) (map (hr_outs m FL FR) (owned_internal m)) x1 (1%nat, ("cell_right"%string, num_comp cf)) = Some x2) by exact E2.
    assert (S3 : scatter_output (hr_op cf file hm dt) (map (hr_outs m FL FR) (owned_internal m)) x2 (2%nat, ("flux"%string, num_comp cf)) = Some x2) by reflexivity.
    assert (S4 : scatter_output (hr_op cf file hm dt) (map (hr_outs m FL FR) (owned_internal m)) x2 (3%nat, ("courant_number"%string, 2%nat)) = Some x2) by reflexivity.
    rewrite S1, obind_Some, S2, obind_Some, S3, obind_Some, S4. reflexivity.
  - intros c k Hc Hk. rewrite V2, V1 by exact Hk. rewrite Rplus_assoc, <- rsum_plus. f_equal. apply rsum_ext. intros e He.
    destruct (OK e He) as (O1 & O2). destruct (LF e He) as (L3 & L4). rewrite !nth_map_scale by (rewrite ?L3, ?L4; assumption).
    f_equal.
    + destruct (Nat.eqb_spec (left_cell m e) c) as [X|X].
      * rewrite X, Nat.eqb_refl. unfold wl. rewrite X. unfold Rdiv. ring.
      * destruct (Nat.eqb_spec (cm_l2o m (left_cell m e)) (cm_l2o m c)) as [Y|Y]; [|reflexivity]. apply (mo_l2o_inj m bs M) in Y; [contradiction|assumption|assumption].
    + destruct (Nat.eqb_spec (right_cell m e) c) as [X|X].
      * rewrite X, Nat.eqb_refl. unfold wr. rewrite X. apply Rmult_comm.
      * destruct (Nat.eqb_spec (cm_l2o m (right_cell m e)) (cm_l2o m c)) as [Y|Y]; [|reflexivity]. apply (mo_l2o_inj m bs M) in Y; [contradiction|assumption|assumption].
Qed.

(** ** Sources *)

Lemma bed_force_flat g h : bed_force true g 0 h = 0.
Proof. unfold bed_force. ring. Qed.
Lemma ceed_rhs_flat fr g dt t a n q F s : ceed_rhs fr true g dt t a n 0 0 q F s = ceed_rhs fr false g dt t a n 0 0 q F s.
Proof. unfold ceed_rhs. rewrite !bed_force_flat. reflexivity. Qed.
Lemma ceed_tracer_rhs_flat g dt t n q F s : ceed_tracer_rhs true g dt t n 0 0 q F s = ceed_tracer_rhs false g dt t n 0 0 q F s.
Proof. unfold ceed_tracer_rhs. rewrite !bed_force_flat. reflexivity. Qed.
Lemma source_terms_flat semi dt t n q F s : exists w, forall nt, 
  (let* r := tracer_source_terms semi dt t n 0 0 q F s in Some (comps nt r)) = (let* r := w in Some (comps nt r)) /\ w = hr_tracer_source_terms semi dt t n q F s.
Proof.
  exists (hr_tracer_source_terms semi dt t n q F s). intros nt. split; [|reflexivity]. unfold tracer_source_terms, hr_tracer_source_terms. destruct semi.
  - rewrite ceed_tracer_rhs_flat. reflexivity.
  - rewrite !bed_force_flat. rewrite !obind_Some. f_equal. unfold comps, comps3. cbn [tflow ttr c0 c1 c2]. repeat f_equal; ring.
Qed.

Lemma hr_source_created cf m ext mat div dt body : hr_source_body cf dt = Some body -> CreateCeedSourceHydroReconSuboperator cf m ext mat div dt = Some (source_op cf m ext mat div body).
Proof. intros H. unfold CreateCeedSourceHydroReconSuboperator. rewrite H. reflexivity. Qed.

Lemma hr_source_point cf m ext mat div dt body u i c S : length ext = (num_comp cf * length (owned_cells m))%nat -> length mat = length (owned_cells m) ->
  length div = (num_comp cf * length (owned_cells m))%nat -> length u = (num_comp cf * cm_cells m)%nat -> nth_error (owned_cells m) i = Some c ->
  (num_tracers cf <= MAX_NUM_SEDIMENT_CLASSES)%nat -> hr_source_body cf dt = Some body -> 0 <= cf_tiny_h cf ->
  source_update cf dt (nth i mat 0) 0 0 (block (num_comp cf) u c) (block (num_comp cf) div i) (block (num_comp cf) ext i) = Some S ->
  point (source_op cf m ext mat div body) u i = Some [Some S; Some (primitives cf (block (num_comp cf) u c)); Some (block (num_comp cf) ext i)].
Proof.
  intros HX HM HD HU Hi HT HB Htiny HS. assert (L : (i < length (owned_cells m))%nat) by (apply nth_error_Some; congruence).
  assert (Hc : (c < cm_cells m)%nat). { assert (Hin := nth_error_In _ _ Hi). apply filter_In in Hin. destruct Hin as (Hin & _). apply in_seq in Hin. lia. }
  assert (LS := source_update_length _ _ _ _ _ _ _ _ _ HS).
  assert (B1 : length (block (num_comp cf) u c) = num_comp cf) by (apply block_length; rewrite HU; nia).
  assert (B2 : length (block (num_comp cf) ext i) = num_comp cf) by (apply block_length; rewrite HX; nia).
  assert (B3 : length (block (num_comp cf) div i) = num_comp cf) by (apply block_length; rewrite HD; nia).
  eapply point_of; [exact (source_ins cf m ext mat div body u i c HX HM HD HU Hi)| |apply outputs_fit_source; [exact LS|apply primitives_length|exact B2]].
  cbn [co_qf qf_body source_op]. clear Hi. set (q := block (num_comp cf) u c) in *. set (s := block (num_comp cf) ext i) in *. set (F := block (num_comp cf) div i) in *. clearbody q s F.
  unfold hr_source_body in HB. unfold source_update in HS. cbv zeta in HB, HS.
  destruct (Nat.eqb_spec (num_tracers cf) 0) as [E|E].
  - assert (N3 : num_comp cf = 3%nat) by (unfold num_comp; rewrite E; reflexivity).
    injection HB as <-. unfold SWESourcesHydroRecon. cbn [nth_error]. rewrite !obind_Some. rewrite !swe_state_v3 by lia. rewrite !obind_Some.
    rewrite ceed_rhs_flat in HS. destruct (ceed_rhs _ false _ _ _ _ _ _ _ _ _ _) as [r|]; [|discriminate]. rewrite obind_Some. rewrite obind_Some in HS. injection HS as <-.
    cbv zeta. rewrite !SafeDiv_vel by exact Htiny. rewrite !obind_Some. rewrite (comps3_v3 s) by lia. unfold primitives. rewrite E. reflexivity.
  - assert (K : forall semi, (let* r := tracer_source_terms semi dt (cf_tiny_h cf) (nth i mat 0) 0 0 (tv q) (tv F) (tv s) in Some (comps (num_tracers cf) r)) = Some S ->
      TracerSourcesHydroRecon semi (num_tracers cf) (cf_tiny_h cf) (cf_h_anuga cf) dt [[cm_dzdx m c; cm_dzdy m c]; s; [nth i mat 0]; F; q] = Some [Some S; Some (primitives cf q); Some s]).
    { intros semi H. destruct (source_terms_flat semi dt (cf_tiny_h cf) (nth i mat 0) (tv q) (tv F) (tv s)) as (w & W). destruct (W (num_tracers cf)) as (W1 & W2). rewrite W1, W2 in H. clear W W1 W2 w.
      unfold TracerSourcesHydroRecon. cbn [nth_error]. rewrite !obind_Some. rewrite !tracer_state_tv by (unfold num_comp in *; lia). rewrite !obind_Some.
      destruct (hr_tracer_source_terms semi _ _ _ _ _ _) as [r|]; [|discriminate]. rewrite obind_Some. rewrite obind_Some in H. injection H as <-.
      cbv zeta. rewrite !SafeDiv_vel by exact Htiny. rewrite !obind_Some.
      rewrite (omap_map _ (fun j => if cf_tiny_h cf <? nth 0 q 0 then nth (3 + j) q 0 / nth 0 q 0 else 0)).
      - rewrite obind_Some. rewrite (comps_tv (num_tracers cf) s) by (unfold num_comp in *; lia). reflexivity.
      - intros j _. rewrite depth_tv. destruct (cf_tiny_h cf <? nth 0 q 0) eqn:W; [|reflexivity]. apply rdiv_some. apply Rltb_true in W. lra. }
    destruct (cf_source cf); try discriminate HB; injection HB as <-; apply K; exact HS.
Qed.

(* the vector assembled from what the points give *)
Lemma source_assembled cf m ext mat div body u S pv src : numbered m ->
  (forall i c, nth_error (owned_cells m) i = Some c -> point (source_op cf m ext mat div body) u i = Some [Some (S i); Some (pv i); Some (src i)]) ->
  (forall i, (i < length (owned_cells m))%nat -> length (S i) = num_comp cf) ->
  exists x, apply [source_op cf m ext mat div body] u (num_comp cf * length (owned_cells m)) = Some x /\ length x = (num_comp cf * length (owned_cells m))%nat /\
    forall i, (i < length (owned_cells m))%nat -> block (num_comp cf) x i = S i.
Proof.
  intros HN PT LS. unfold apply, apply_add_all. cbn [ofold].
  pose (P := fun i : nat => [Some (S i); Some (pv i); Some (src i)]).
  assert (HP : points (source_op cf m ext mat div body) u = Some (map P (seq 0 (length (owned_cells m))))).
  { unfold points. destruct (source_same cf m ext mat div body) as (S1 & S2). rewrite S1, S2. apply omap_map. intros i Hi. apply in_seq in Hi.
    apply (PT i (nth i (owned_cells m) 0%nat)). apply nth_error_nth'. lia. }
  destruct (scatter_all (num_comp cf) (fun i => i) P S 0%nat (seq 0 (length (owned_cells m))) (repeat 0 (num_comp cf * length (owned_cells m)))) as (x1 & E1 & L1 & V1).
  { intros i Hi. apply in_seq in Hi. split; [reflexivity|]. split; [apply LS; lia|]. rewrite repeat_length. nia. }
  rewrite repeat_length in L1. exists x1.
  assert (OF : map (fun c => cm_l2o m c * num_comp cf)%nat (owned_cells m) = map (fun i => i * num_comp cf)%nat (seq 0 (length (owned_cells m)))).
  { apply nth_error_ext. intros i. rewrite !nth_error_map. destruct (nth_error (owned_cells m) i) as [c|] eqn:Hi; cbn [option_map].
    - assert (Li : (i < length (owned_cells m))%nat) by (apply nth_error_Some; congruence). rewrite (nth_error_nth' (seq 0 (length (owned_cells m))) 0%nat) by (rewrite seq_length; exact Li). rewrite seq_nth by exact Li. rewrite (HN i c Hi). reflexivity.
    - apply nth_error_None in Hi. rewrite (proj2 (nth_error_None (seq 0 (length (owned_cells m))) i)) by (rewrite seq_length; exact Hi). reflexivity. }
  split; [|split; [exact L1|]].
  + unfold apply_add. rewrite HP, obind_Some. cbn [co_qf qf_outputs source_op length seq combine ofold].
    assert (S1 : forall y, scatter_output (source_op cf m ext mat div body) (map P (seq 0 (length (owned_cells m)))) y (0%nat, ("cell"%string, num_comp cf)) =
      ofold (fun x p => let* o := nth_error (snd p) 0 in let* z := o in add_into x (fst p) z) (combine (map (fun i => i * num_comp cf)%nat (seq 0 (length (owned_cells m)))) (map P (seq 0 (length (owned_cells m))))) y).
    { intros y. rewrite <- OF. reflexivity. }
    unfold source_op in S1 |- *. cbv zeta in S1 |- *. rewrite S1, E1, obind_Some. reflexivity.
  + intros i Hi. apply (nth_ext _ _ 0 0). { rewrite block_length, LS by (try exact Hi; rewrite L1; nia). reflexivity. }
    rewrite block_length by (rewrite L1; nia). intros k Hk. rewrite nth_block, V1 by exact Hk. rewrite nth_repeat.
    rewrite (rsum_single (fun e => if Nat.eqb e i then nth k (S e) 0 else 0) (length (owned_cells m)) i).
    * rewrite Nat.eqb_refl. ring.
    * exact Hi.
    * intros j _ Hj. destruct (Nat.eqb_spec j i); [contradiction|reflexivity].
Qed.
