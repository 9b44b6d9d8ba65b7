(** C44, C45: sampling of the forcing data in time and space. *)
From Verif Require Import Base MeshMapsModel MeshMapsProofs DataModel DataProofs SetupModel ConfigModel ForcingModel ForcingProofs.
Local Notation length := List.length.
Local Open Scope R_scope.
Local Open Scope nat_scope.

(** ** C44: sampling in time *)
(* A record is a list of (time, value), at increasing times. *)
Definition increasing (l : list (R * R)) : Prop := forall i a b, nth_error l i = Some a -> nth_error l (S i) = Some b -> (fst a < fst b)%R.
(* What a record says at time t: the value of the interval containing t, or the linear interpolation between
   its ends; the last value from the last time on.  Nothing before the first time. *)
Inductive sampled (l : list (R * R)) (interp : bool) (t : R) : R -> Prop :=
| sampled_between i a b : nth_error l i = Some a -> nth_error l (S i) = Some b -> (fst a <= t < fst b)%R ->
    sampled l interp t (if interp then snd a + (t - fst a) * (snd b - snd a) / (fst b - fst a) else snd a)%R
| sampled_after a : nth_error l (length l - 1) = Some a -> (fst a <= t)%R -> sampled l interp t (snd a).

Lemma increasing_lt l : increasing l -> forall j i a b, i < j -> nth_error l i = Some a -> nth_error l j = Some b -> (fst a < fst b)%R.
Proof.
  intros H. induction j as [|j IH]; intros i a b Hij Ha Hb; [lia|]. destruct (nth_error l j) as [c|] eqn:Ec.
  - assert (fst c < fst b)%R by (eapply H; eassumption). destruct (Nat.eq_dec i j) as [->|]; [congruence|]. assert (fst a < fst c)%R by (eapply IH; [|eassumption|reflexivity]; lia). lra.
  - apply nth_error_None in Ec. assert (S j < length l) by (apply nth_error_Some; congruence). lia.
Qed.
(* the specification determines the value *)
Lemma sampled_unique l interp t v w : increasing l -> sampled l interp t v -> sampled l interp t w -> v = w.
Proof.
  intros H. assert (B : forall i a b c, nth_error l i = Some a -> nth_error l (S i) = Some b -> (fst a <= t < fst b)%R -> nth_error l (length l - 1) = Some c -> (fst c <= t)%R -> False).
  { intros i a b c Ha Hb Ht Hc Hct. assert (S i < length l) by (apply nth_error_Some; congruence).
    destruct (Nat.eq_dec (S i) (length l - 1)) as [E|N]; [rewrite E in Hb; assert (b = c) by congruence; subst; lra|].
    assert (fst b < fst c)%R by (eapply (increasing_lt l H _ (S i)); [|eassumption|exact Hc]; lia). lra. }
  intros [i a b Ha Hb Ht|a Ha Ht] [j c d Hc Hd Hu|c Hc Hu].
  - assert (i = j).
    { destruct (lt_eq_lt_dec i j) as [[L|E]|L]; [|exact E|].
      - exfalso. destruct (Nat.eq_dec (S i) j) as [<-|]; [assert (b = c) by congruence; subst; lra|]. assert (fst b < fst c)%R by (eapply (increasing_lt l H j (S i)); eauto; lia). lra.
      - exfalso. destruct (Nat.eq_dec (S j) i) as [<-|]; [assert (d = a) by congruence; subst; lra|]. assert (fst d < fst a)%R by (eapply (increasing_lt l H i (S j)); eauto; lia). lra. }
    subst j. replace c with a by congruence. replace d with b by congruence. reflexivity.
  - exfalso. eauto.
  - exfalso. eauto.
  - congruence.
Qed.
(* no bracket contains t, t is not before the first time: t is not before the last time *)
Lemma past_last (l : list (R * R)) t a0 : nth_error l 0 = Some a0 -> (fst a0 <= t)%R -> (forall j a b, nth_error l j = Some a -> nth_error l (S j) = Some b -> ~ (fst a <= t < fst b)%R) ->
  forall j a, nth_error l j = Some a -> (fst a <= t)%R.
Proof.
  intros H0 Ht Hn. induction j as [|j IH]; intros a Ha; [replace a with a0 by congruence; exact Ht|].
  destruct (nth_error l j) as [c|] eqn:Ec. 2: { apply nth_error_None in Ec. assert (S j < length l) by (apply nth_error_Some; congruence). lia. }
  specialize (IH c eq_refl). specialize (Hn j c a Ec Ha). destruct (Rlt_dec t (fst a)); [exfalso; apply Hn; split; assumption|lra].
Qed.

(* From the first time of the record on, the value used is the one the record gives, and only that one. *)
Theorem C44_sampled_in_time : forall l interp t first, increasing l -> nth_error l 0 = Some first -> (fst first <= t)%R ->
  exists i v, RDyForcingGetCurrentData (interleaved l) (num_samples (interleaved l)) t interp = Some (i, v) /\ sampled l interp t v /\ (forall w, sampled l interp t w -> w = v).
Proof.
  intros l interp t first Hi H0 Ht. rewrite num_samples_interleaved. assert (Hl : l <> []) by (intros ->; discriminate).
  destruct (current_data_spec l t interp Hl) as (i & v & E & H). exists (Z.of_nat i), v. split; [exact E|].
  assert (Hs : sampled l interp t v).
  { destruct H as [(a & b & Ha & Hb & Hab & ->)|(Ei & (a & Ha & ->) & Hn)]; [econstructor; eassumption|]. subst i. apply sampled_after; [exact Ha|]. exact (past_last l t first H0 Ht Hn _ _ Ha). }
  split; [exact Hs|]. intros w Hw. eapply sampled_unique; eassumption.
Qed.
Print Assumptions C44_sampled_in_time.
(* At the times of the record, the value of the record, with and without interpolation. *)
Theorem C44_exact_at_sample_times : forall l interp k a, increasing l -> nth_error l k = Some a ->
  RDyForcingGetCurrentData (interleaved l) (num_samples (interleaved l)) (fst a) interp = Some (Z.of_nat k, snd a).
Proof.
  intros l interp k a Hi Ha. rewrite num_samples_interleaved. assert (Hl : l <> []) by (intros ->; destruct k; discriminate).
  assert (Hk : k < length l) by (apply nth_error_Some; congruence).
  destruct (current_data_spec l (fst a) interp Hl) as (i & v & E & H). rewrite E. destruct H as [(c & d & Hc & Hd & Hcd & ->)|(Ei & (c & Hc & ->) & Hn)].
  - assert (i = k).
    { destruct (lt_eq_lt_dec i k) as [[L|E']|L]; [|exact E'|].
      - exfalso. destruct (Nat.eq_dec (S i) k) as [<-|]; [assert (d = a) by congruence; subst; lra|]. assert (fst d < fst a)%R by (eapply (increasing_lt l Hi k (S i)); eauto; lia). lra.
      - exfalso. assert (fst a < fst c)%R by (eapply (increasing_lt l Hi i k); eauto; lia). lra. }
    subst i. assert (c = a) by congruence. subst c. destruct interp; [|reflexivity]. do 2 f_equal. unfold Rdiv. ring.
  - subst i. destruct (Nat.eq_dec k (length l - 1)) as [->|N]; [congruence|]. exfalso.
    destruct (nth_error l (S k)) as [b|] eqn:Eb; [|apply nth_error_None in Eb; lia]. apply (Hn k a b Ha Eb). split; [lra|eapply Hi; eassumption].
Qed.
Print Assumptions C44_exact_at_sample_times.
(* Between two samples: the earlier value, or a value between the two, linear in time. *)
Theorem C44_between_samples : forall l k a b t, increasing l -> nth_error l k = Some a -> nth_error l (S k) = Some b -> (fst a <= t < fst b)%R ->
  RDyForcingGetCurrentData (interleaved l) (num_samples (interleaved l)) t false = Some (Z.of_nat k, snd a) /\
  exists v, RDyForcingGetCurrentData (interleaved l) (num_samples (interleaved l)) t true = Some (Z.of_nat k, v) /\
    (Rmin (snd a) (snd b) <= v <= Rmax (snd a) (snd b))%R /\ ((v - snd a) * (fst b - fst a) = (t - fst a) * (snd b - snd a))%R.
Proof.
  intros l k a b t Hi Ha Hb Ht. rewrite num_samples_interleaved. assert (Hl : l <> []) by (intros ->; destruct k; discriminate).
  assert (G : forall interp, RDyForcingGetCurrentData (interleaved l) (length l) t interp = Some (Z.of_nat k, if interp then snd a + (t - fst a) * (snd b - snd a) / (fst b - fst a) else snd a)%R).
  { intros interp. destruct (current_data_spec l t interp Hl) as (i & v & E & H). rewrite E. destruct H as [(c & d & Hc & Hd & Hcd & ->)|(Ei & _ & Hn)]; [|exfalso; exact (Hn k a b Ha Hb Ht)].
    assert (i = k).
    { destruct (lt_eq_lt_dec i k) as [[L|E']|L]; [|exact E'|].
      - exfalso. destruct (Nat.eq_dec (S i) k) as [<-|]; [assert (d = a) by congruence; subst; lra|]. assert (fst d < fst a)%R by (eapply (increasing_lt l Hi k (S i)); eauto; lia). lra.
      - exfalso. destruct (Nat.eq_dec (S k) i) as [<-|]; [assert (c = b) by congruence; subst; lra|]. assert (fst b < fst c)%R by (eapply (increasing_lt l Hi i (S k)); eauto; lia). lra. }
    subst i. assert (c = a) by congruence. assert (d = b) by congruence. subst. reflexivity. }
  split; [exact (G false)|]. eexists. split; [exact (G true)|]. set (q := ((t - fst a) / (fst b - fst a))%R).
  assert (Hq : (0 <= q <= 1)%R). { unfold q. split; [apply Rmult_le_pos; [lra|left; apply Rinv_0_lt_compat; lra]|]. apply (Rmult_le_reg_r (fst b - fst a)); [lra|]. unfold Rdiv. rewrite Rmult_assoc, Rinv_l by lra. lra. }
  assert (Ev : (snd a + (t - fst a) * (snd b - snd a) / (fst b - fst a) = snd a + q * (snd b - snd a))%R) by (unfold q; field; lra). rewrite Ev. split.
  - destruct (Rmin_cases (snd a) (snd b)) as [(L & ->)|(L & ->)]; destruct (Rmax_cases (snd a) (snd b)) as [(L' & ->)|(L' & ->)].
    + split; [|replace (snd b) with (snd a + 1 * (snd b - snd a))%R at 2 by ring]; [assert (0 <= q * (snd b - snd a))%R by (apply Rmult_le_pos; lra); lra|]. apply Rplus_le_compat_l. apply Rmult_le_compat_r; lra.
    + assert (snd b = snd a) by lra. rewrite H. split; right; ring.
    + assert (snd b = snd a) by lra. rewrite H. split; right; ring.
    + assert (0 <= q * (snd a - snd b))%R by (apply Rmult_le_pos; lra). assert (0 <= (1 - q) * (snd a - snd b))%R by (apply Rmult_le_pos; lra). split; lra.
  - unfold q. field. lra.
Qed.
Print Assumptions C44_between_samples.
(* At any time at all the value lies within the range of the values of the record (rain that is never negative
   in the file is never negative in the model). *)
Theorem C44_within_record : forall l interp t lo hi i v, (forall s, In s l -> (lo <= snd s <= hi)%R) ->
  l <> [] -> RDyForcingGetCurrentData (interleaved l) (num_samples (interleaved l)) t interp = Some (i, v) -> (lo <= v <= hi)%R.
Proof.
  intros l interp t lo hi i v H Hl E. rewrite num_samples_interleaved in E. destruct (current_data_spec l t interp Hl) as (k & w & E' & Hw). rewrite E in E'. injection E' as -> ->.
  destruct Hw as [(a & b & Ha & Hb & Hab & ->)|(_ & (a & Ha & ->) & _)]; [|exact (H a (nth_error_In _ _ Ha))].
  assert (A := H a (nth_error_In _ _ Ha)). assert (B := H b (nth_error_In _ _ Hb)). destruct interp; [|exact A].
  set (q := ((t - fst a) / (fst b - fst a))%R).
  assert (Hq : (0 <= q <= 1)%R). { unfold q. split; [apply Rmult_le_pos; [lra|left; apply Rinv_0_lt_compat; lra]|]. apply (Rmult_le_reg_r (fst b - fst a)); [lra|]. unfold Rdiv. rewrite Rmult_assoc, Rinv_l by lra. lra. }
  replace (snd a + (t - fst a) * (snd b - snd a) / (fst b - fst a))%R with ((1 - q) * snd a + q * snd b)%R by (unfold q; field; lra).
  assert (0 <= (1 - q) * (snd a - lo))%R by (apply Rmult_le_pos; lra). assert (0 <= (1 - q) * (hi - snd a))%R by (apply Rmult_le_pos; lra).
  assert (0 <= q * (snd b - lo))%R by (apply Rmult_le_pos; lra). assert (0 <= q * (hi - snd b))%R by (apply Rmult_le_pos; lra). split; lra.
Qed.
Print Assumptions C44_within_record.
(* A record of rainfall at 0, 10 and 20 seconds *)
Definition demo_record : list (R * R) := [(0, 1); (10, 3); (20, 7)]%R.
Lemma demo_record_increasing : increasing demo_record.
Proof. intros [|[|[|i]]] a b; cbn; intros [= <-] [= <-] || (intros; discriminate); cbn; lra. Qed.
Example C44_inhabited : sampled demo_record true 15 5 /\ sampled demo_record false 15 3 /\ sampled demo_record true 30 7.
Proof.
  split; [|split].
  - assert (H := sampled_between demo_record true 15 1 (10, 3)%R (20, 7)%R eq_refl eq_refl ltac:(cbn; lra)). cbn [fst snd] in H. replace (3 + (15 - 10) * (7 - 3) / (20 - 10))%R with 5%R in H by field. exact H.
  - exact (sampled_between demo_record false 15 1 (10, 3)%R (20, 7)%R eq_refl eq_refl ltac:(cbn; lra)).
  - change 7%R with (snd (20, 7)%R). apply sampled_after; [reflexivity|cbn; lra].
Qed.
(* Before the first time of the record the LAST value is used. *)
Theorem C44_before_first_refuted : exists l t first last, increasing l /\ nth_error l 0 = Some first /\ nth_error l (length l - 1) = Some last /\ (t < fst first)%R /\
  snd last <> snd first /\ forall interp, exists i, RDyForcingGetCurrentData (interleaved l) (num_samples (interleaved l)) t interp = Some (i, snd last).
Proof.
  exists demo_record, (-1)%R, (0, 1)%R, (20, 7)%R. split; [exact demo_record_increasing|]. split; [reflexivity|]. split; [reflexivity|]. split; [cbn; lra|]. split; [cbn; lra|].
  intros interp. rewrite num_samples_interleaved. destruct (current_data_spec demo_record (-1) interp) as (i & v & E & H); [discriminate|]. exists (Z.of_nat i). rewrite E. do 2 f_equal.
  destruct H as [(a & b & Ha & Hb & Hab & _)|(-> & (a & Ha & ->) & _)]; [exfalso|injection Ha as <-; reflexivity].
  destruct i as [|[|[|i]]]; cbn in Ha, Hb; try discriminate; injection Ha as <-; injection Hb as <-; cbn in Hab; lra.
Qed.
Print Assumptions C44_before_first_refuted.

(** ** C45: mapping in space *)
(* [k] is the first of the points nearest to (x, y) *)
Definition first_nearest (pts : list (R * R)) (x y : R) (k : nat) : Prop :=
  exists p, nth_error pts k = Some p /\ forall j q, nth_error pts j = Some q ->
    (dist_to x y p <= dist_to x y q)%R /\ (j < k -> (dist_to x y p < dist_to x y q)%R).
Theorem C45_unstructured_nearest : forall pts mesh, pts <> [] ->
  exists m, RDyForcingCreateUnstructuredDatasetMap pts mesh = Some m /\ length m = length mesh /\
    forall i c, nth_error mesh i = Some c -> exists k, nth_error m i = Some k /\ first_nearest pts (fst c) (snd c) k.
Proof.
  intros pts mesh Hp. unfold RDyForcingCreateUnstructuredDatasetMap.
  assert (K : forall c : R * R, exists k, nearest_loop (fst c) (snd c) pts 0 None 0 = Some k /\ first_nearest pts (fst c) (snd c) k).
  { intros (x, y). cbn [fst snd]. destruct pts as [|(px, py) t]; [contradiction|]. cbn [nearest_loop Nat.eqb]. rewrite nearest_loop_some by lia. eexists. split; [reflexivity|].
    destruct (raster_loop_spec x y t 1 (distance x y px py) 0) as [(-> & H)|(i & p & -> & Hi & Hlt & H)].
    - exists (px, py). split; [reflexivity|]. intros [|j] q Hq; cbn in Hq; [injection Hq as <-; split; [lra|lia]|]. split; [apply H; eapply nth_error_In; eassumption|lia].
    - exists p. split; [exact Hi|]. intros [|j] q Hq; cbn in Hq; [injection Hq as <-; unfold dist_to at 2 4; cbn; split; lra|]. destruct (H j q Hq) as (H1 & H2). split; [exact H1|]. intros; apply H2; lia. }
  destruct (omap_exists (fun c => nearest_loop (fst c) (snd c) pts 0 None 0) mesh) as (m & Em & Lm); [intros c _; destruct (K c) as (k & E & _); eauto|].
  exists m. split; [exact Em|]. split; [exact Lm|]. intros i c Hc. destruct (K c) as (k & E & Hk). exists k. split; [|exact Hk]. rewrite (omap_nth _ _ _ Em), Hc. exact E.
Qed.
Print Assumptions C45_unstructured_nearest.
(* The raster: the same, if some point of the raster is within (max(ncols, nrows) + 1) cell sizes. *)
Theorem C45_raster_nearest_partial : forall ncols nrows xlc ylc s mesh i c q,
  nth_error mesh i = Some c -> In q (raster_points ncols nrows xlc ylc s) -> (dist_to (fst c) (snd c) q < INR (Nat.max ncols nrows + 1) * s)%R ->
  exists k, nth_error (RDyForcingCreateRasterDatasetMapping ncols nrows xlc ylc s mesh) i = Some k /\ first_nearest (raster_points ncols nrows xlc ylc s) (fst c) (snd c) k.
Proof.
  intros ncols nrows xlc ylc s mesh i c q Hc Hq Hlt. unfold RDyForcingCreateRasterDatasetMapping. rewrite nth_error_map, Hc. cbn [option_map]. eexists. split; [reflexivity|].
  destruct (raster_loop_spec (fst c) (snd c) (raster_points ncols nrows xlc ylc s) 0 (raster_limit ncols nrows s) 0) as [(_ & H)|(k & p & -> & Hk & _ & H)].
  - exfalso. specialize (H q Hq). unfold raster_limit in H. lra.
  - exists p. split; [exact Hk|]. exact H.
Qed.
Print Assumptions C45_raster_nearest_partial.

(* The cell of a raster in column c and row r from the top *)
Definition in_raster_cell (nrows : nat) (xlc ylc s : R) (r c : nat) (x y : R) : Prop :=
  (xlc + INR c * s <= x <= xlc + (INR c + 1) * s /\ ylc + (INR nrows - 1 - INR r) * s <= y <= ylc + (INR nrows - INR r) * s)%R.
Lemma strip n s u : n <> 0 -> (0 < s)%R -> (0 <= u <= INR n * s)%R -> exists c, c < n /\ (INR c * s <= u <= (INR c + 1) * s)%R.
Proof.
  induction n as [|n IH]; intros Hn Hs Hu; [contradiction|]. rewrite S_INR in Hu. destruct (Rle_dec (INR n * s) u) as [L|L].
  - exists n. split; [lia|lra].
  - destruct n as [|n]; [cbn in L; lra|]. destruct IH as (c & Hc & Hb); [lia|lra|lra|]. exists c. split; [lia|exact Hb].
Qed.
Lemma abs_le a b : (Rabs a <= b -> - b <= a <= b)%R.
Proof. destruct (Rabs_cases a) as [(? & ->)|(? & ->)]; lra. Qed.
Lemma sq_le a b : (Rabs a <= Rabs b)%R -> (a * a <= b * b)%R.
Proof. intros H. apply Rsqr_le_abs_1 in H. unfold Rsqr in H. exact H. Qed.
Lemma sq_lt a b : (Rabs a < Rabs b)%R -> (a * a < b * b)%R.
Proof. intros H. apply Rsqr_lt_abs_1 in H. unfold Rsqr in H. exact H. Qed.
(* A cell whose centroid lies on the raster gets the value of a raster cell it lies in. *)
Theorem C45_raster_containing_cell : forall ncols nrows xlc ylc s mesh i x y, ncols <> 0 -> nrows <> 0 -> (0 < s)%R ->
  nth_error mesh i = Some (x, y) -> (xlc <= x <= xlc + INR ncols * s)%R -> (ylc <= y <= ylc + INR nrows * s)%R ->
  exists r c, r < nrows /\ c < ncols /\ nth_error (RDyForcingCreateRasterDatasetMapping ncols nrows xlc ylc s mesh) i = Some (r * ncols + c) /\ in_raster_cell nrows xlc ylc s r c x y.
Proof.
  intros ncols nrows xlc ylc s mesh i x y Hn Hr Hs Hi Hx Hy.
  destruct (strip ncols s (x - xlc) Hn Hs) as (c0 & Hc0 & Bx); [lra|]. destruct (strip nrows s (ylc + INR nrows * s - y) Hr Hs) as (r0 & Hr0 & By); [lra|].
  set (pt := raster_point nrows xlc ylc s).
  assert (Hin : forall r c, r < nrows -> c < ncols -> In (pt r c) (raster_points ncols nrows xlc ylc s)) by (intros r c ? ?; eapply nth_error_In; apply raster_points_nth; assumption).
  assert (D : forall r c, dist_to x y (pt r c) = sqrt ((x - (xlc + INR c * s + s / 2)) * (x - (xlc + INR c * s + s / 2)) + (y - (ylc + (INR nrows - 1 - INR r) * s + s / 2)) * (y - (ylc + (INR nrows - 1 - INR r) * s + s / 2)))%R) by reflexivity.
  assert (Mx : forall c, (Rabs (x - (xlc + INR c * s + s / 2)) <= s / 2 -> xlc + INR c * s <= x <= xlc + (INR c + 1) * s)%R) by (intros c H; apply abs_le in H; lra).
  assert (My : forall r, (Rabs (y - (ylc + (INR nrows - 1 - INR r) * s + s / 2)) <= s / 2 -> ylc + (INR nrows - 1 - INR r) * s <= y <= ylc + (INR nrows - INR r) * s)%R) by (intros r H; apply abs_le in H; lra).
  assert (X0 : (Rabs (x - (xlc + INR c0 * s + s / 2)) <= s / 2)%R) by (apply Rabs_le; lra).
  assert (Y0 : (Rabs (y - (ylc + (INR nrows - 1 - INR r0) * s + s / 2)) <= s / 2)%R) by (apply Rabs_le; lra).
  destruct (C45_raster_nearest_partial ncols nrows xlc ylc s mesh i (x, y) (pt r0 c0) Hi (Hin r0 c0 Hr0 Hc0)) as (k & Ek & p & Hk & Hmin).
  { cbn [fst snd]. rewrite D. assert (L : (s <= INR (Nat.max ncols nrows + 1) * s)%R). { rewrite <- (Rmult_1_l s) at 1. apply Rmult_le_compat_r; [lra|]. change 1%R with (INR 1). apply le_INR. lia. }
    apply Rlt_le_trans with (sqrt (Rsqr s)); [|rewrite sqrt_Rsqr by lra; exact L]. apply sqrt_lt_1; [|apply Rle_0_sqr|].
    - apply Rplus_le_le_0_compat; apply Rle_0_sqr.
    - assert (A := sq_le (x - (xlc + INR c0 * s + s / 2)) (s / 2)). assert (B := sq_le (y - (ylc + (INR nrows - 1 - INR r0) * s + s / 2)) (s / 2)).
      rewrite (Rabs_right (s / 2)) in A, B by lra. specialize (A X0). specialize (B Y0). unfold Rsqr. assert (0 < s * s)%R by (apply Rmult_lt_0_compat; lra). lra. }
  cbn [fst snd] in Hmin. destruct (raster_points_inv _ _ _ _ _ _ _ Hk) as (r & c & Hr' & Hc' & -> & ->). fold pt in Hmin. exists r, c. split; [exact Hr'|]. split; [exact Hc'|]. split; [exact Ek|].
  assert (Nx : (Rabs (x - (xlc + INR c * s + s / 2)) <= s / 2)%R).
  { destruct (Rle_dec (Rabs (x - (xlc + INR c * s + s / 2))) (s / 2)) as [|N]; [assumption|exfalso]. apply Rnot_le_lt in N.
    destruct (Hmin (r * ncols + c0) (pt r c0) (raster_points_nth _ _ _ _ _ _ _ Hr' Hc0)) as (H & _). rewrite !D in H. apply sqrt_le_0 in H; [|apply Rplus_le_le_0_compat; apply Rle_0_sqr|apply Rplus_le_le_0_compat; apply Rle_0_sqr].
    assert (A := sq_lt (x - (xlc + INR c0 * s + s / 2)) (x - (xlc + INR c * s + s / 2)) ltac:(lra)). lra. }
  assert (Ny : (Rabs (y - (ylc + (INR nrows - 1 - INR r) * s + s / 2)) <= s / 2)%R).
  { destruct (Rle_dec (Rabs (y - (ylc + (INR nrows - 1 - INR r) * s + s / 2))) (s / 2)) as [|N]; [assumption|exfalso]. apply Rnot_le_lt in N.
    destruct (Hmin (r0 * ncols + c) (pt r0 c) (raster_points_nth _ _ _ _ _ _ _ Hr0 Hc')) as (H & _). rewrite !D in H. apply sqrt_le_0 in H; [|apply Rplus_le_le_0_compat; apply Rle_0_sqr|apply Rplus_le_le_0_compat; apply Rle_0_sqr].
    assert (A := sq_lt (y - (ylc + (INR nrows - 1 - INR r0) * s + s / 2)) (y - (ylc + (INR nrows - 1 - INR r) * s + s / 2)) ltac:(lra)). lra. }
  split; [apply Mx; exact Nx|apply My; exact Ny].
Qed.
Print Assumptions C45_raster_containing_cell.
(* three points, the second and third equally near; a raster of 2 x 3 cells *)
Example C45_inhabited : first_nearest [(5, 0); (1, 0); (-1, 0)]%R 0 0 1 /\ exists r c, r < 3 /\ c < 2 /\
  nth_error (RDyForcingCreateRasterDatasetMapping 2 3 0 0 10 [(12, 25)]%R) 0 = Some (r * 2 + c) /\ r = 0 /\ c = 1.
Proof.
  split.
  - exists (1, 0)%R. split; [reflexivity|]. assert (D : forall a, dist_to 0 0 (a, 0)%R = Rabs a).
    { intros a. unfold dist_to, distance. cbn [fst snd]. replace ((0 - a) * (0 - a) + (0 - 0) * (0 - 0))%R with (Rsqr a) by (unfold Rsqr; ring). apply sqrt_Rsqr_abs. }
    intros [|[|[|j]]] q; cbn [nth_error]; try (intros; destruct j; discriminate); intros [= <-]; rewrite !D; rewrite (Rabs_right 1) by lra; rewrite ?(Rabs_right 5) by lra; rewrite ?(Rabs_left (-1)) by lra; split; intros; try lra; lia.
  - destruct (C45_raster_containing_cell 2 3 0 0 10 [(12, 25)]%R 0 12 25) as (r & c & Hr & Hc & E & Bx & By); [lia|lia|lra|reflexivity|cbn; lra|cbn; lra|].
    exists r, c. split; [exact Hr|]. split; [exact Hc|]. split; [exact E|]. split.
    + destruct r as [|[|[|r]]]; [reflexivity| | |lia]; cbn in By; lra.
    + destruct c as [|[|c]]; [|reflexivity|lia]; cbn in Bx; lra.
Qed.
(* A cell farther than that from the raster is given the first raster cell, not the nearest one. *)
Theorem C45_raster_far_refuted : exists ncols nrows xlc ylc s x y k, (0 < s)%R /\
  RDyForcingCreateRasterDatasetMapping ncols nrows xlc ylc s [(x, y)] = [k] /\ ~ first_nearest (raster_points ncols nrows xlc ylc s) x y k.
Proof.
  exists 2, 1, 0%R, 0%R, 1%R, 10%R, (1/2)%R, 0. split; [lra|].
  assert (D : forall a b, b = (1/2)%R -> (a <= 10)%R -> distance 10 (1 / 2) a b = (10 - a)%R).
  { intros a b -> Ha. unfold distance. replace ((10 - a) * (10 - a) + (1/2 - 1/2) * (1/2 - 1/2))%R with (Rsqr (10 - a)) by (unfold Rsqr; ring). apply sqrt_Rsqr. lra. }
  split.
  - unfold RDyForcingCreateRasterDatasetMapping. cbn [map fst snd]. f_equal.
    destruct (raster_loop_spec 10 (1/2) (raster_points 2 1 0 0 1) 0 (raster_limit 2 1 1) 0) as [(-> & _)|(k & p & _ & Hk & Hlt & _)]; [reflexivity|exfalso].
    destruct (raster_points_inv _ _ _ _ _ _ _ Hk) as (r & c & Hr & Hc & _ & ->). unfold dist_to, raster_point, raster_limit in Hlt. cbn [fst snd] in Hlt.
    destruct r as [|r]; [|lia]. assert (Hc' : (INR c <= 1)%R) by (change 1%R with (INR 1); apply le_INR; lia). cbn [Nat.max Nat.add] in Hlt. rewrite D in Hlt by (cbn; lra). cbn in Hlt. lra.
  - intros (p & Hp & H). cbn in Hp. injection Hp as <-. destruct (H 1 (raster_point 1 0 0 1 0 1) eq_refl) as (L & _). unfold dist_to, raster_point in L. cbn [fst snd INR] in L. rewrite !D in L by lra. lra.
Qed.
Print Assumptions C45_raster_far_refuted.
(* The number of points of the mesh file is not compared with that of the data file: data are read beyond the end. *)
Lemma int_of_IZR n : (0 <= n < 2 ^ 31)%Z -> int_of (IZR n) = Some n.
Proof.
  intros H. unfold int_of, to_int. destruct (Rle_dec 0 (IZR n)) as [L|L]; [|exfalso; apply L; apply IZR_le; lia].
  assert (E : Int_part (IZR n) = n). { destruct (base_Int_part (IZR n)) as (A & B). apply le_IZR in A. assert (C : (IZR (-1) < IZR (Int_part (IZR n) - n))%R) by (rewrite minus_IZR; lra). apply lt_IZR in C. lia. }
  rewrite E. destruct (Z.ltb_spec (- 2 ^ 31 - 1) n); [|lia]. destruct (Z.ltb_spec n (2 ^ 31)); [|lia]. reflexivity.
Qed.
Theorem C45_unstructured_size_refuted : exists fs mesh_file mesh u, OpenUnstructured fs 1 mesh_file mesh = Ret u /\ RDyForcingSetUnstructuredData fs u 0 (map (fun _ => Some 0%R) mesh) = Undef.
Proof.
  exists (fun _ => Some [1; 1; 7]%R), [2; 2; 0; 0; 5; 0]%R, [(5, 0)]%R, (Unstructured 1 (Hourly [1; 1; 7]%R 1) [1]). split.
  - unfold OpenUnstructured. cbn [nth_error obind]. rewrite (int_of_IZR 1) by lia. cbn [of_option rbind Z.eqb]. cbn [length Z.of_nat Pos.of_succ_nat]. change (Z.eqb (Z.quot _ _) 1) with true. cbn [check].
    unfold ReadUnstructuredDatasetCoordinates. cbn [nth_error obind]. rewrite (int_of_IZR 2) by lia. cbn [of_option rbind check Z.eqb Pos.eqb]. change (Z.to_nat 2) with 2. cbn [seq omap nth_error Nat.mul Nat.add obind of_option rbind].
    destruct (C45_unstructured_nearest [(0, 0); (5, 0)]%R [(5, 0)]%R) as (m & -> & Lm & Hm); [discriminate|]. cbn [of_option rbind]. do 2 f_equal. destruct m as [|k [|]]; try (cbn in Lm; lia). f_equal.
    destruct (Hm 0 (5, 0)%R eq_refl) as (k' & [= <-] & p & Hp & Hmin). destruct k as [|[|k]]; [exfalso|reflexivity|destruct k; discriminate]. injection Hp as <-.
    destruct (Hmin 1 (5, 0)%R eq_refl) as (H & _). unfold dist_to, distance in H. cbn [fst snd] in H. apply sqrt_le_0 in H; lra.
  - unfold RDyForcingSetUnstructuredData, next_file. cbn [un_file f_count]. destruct (Rleb _ _) eqn:E; [exfalso; apply Rleb_true in E; cbn in E; lra|]. reflexivity.
Qed.
Print Assumptions C45_unstructured_size_refuted.
