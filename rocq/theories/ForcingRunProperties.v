(** C46, C47, C62: what successive applications of the forcing put into the model. *)
From Verif Require Import Base MeshMapsModel MeshMapsProofs DataModel DataProofs DataProperties SetupModel ConfigModel ForcingModel ForcingProofs ForcingProperties.
Local Notation length := List.length.
Local Open Scope R_scope.
Local Open Scope nat_scope.

(** ** Specification *)
(* hour [k] after the start contains the time [t] (in seconds) *)
Definition hour_of (t : R) (k : nat) : Prop := (3600 * INR k <= t < 3600 * INR (S k))%R.
(* The times at which the forcing is applied keep step with the files: they start in the first two hours, never
   go back, and never skip an hour. *)
Definition follows (prev : option R) (t : R) : Prop :=
  match prev with
  | None => (0 <= t < 7200)%R
  | Some p => (p <= t)%R /\ forall k j, hour_of p k -> hour_of t j -> j <= S k
  end.
Fixpoint in_step (prev : option R) (times : list R) : Prop :=
  match times with [] => True | t :: ts => follows prev t /\ in_step (Some t) ts end.
(* one region, with ID 1, holds every cell of this process *)
Definition whole_domain (st : rdy) : Prop := exists g, In g (r_regions st) /\ rg_id g = 1%Z /\ rg_owned g = domain_ids (r_owned st).

(* The rain (m/s) a source prescribes for a cell at time t. *)
Definition meant_source (src : source) (t : R) (cell : nat) (v : R) : Prop :=
  match src with
  | SUnset => False
  | SConstant rate _ _ => v = rate
  | SHomogeneous h _ _ => exists l, h_data h = interleaved l /\ sampled l (h_interp h) t v
  | SRaster fs r _ _ => exists k d idx x, hour_of t k /\ fs k = Some d /\ nth_error (ra_map r) cell = Some idx /\ nth_error d (5 + idx) = Some x /\ (v = x / (1000 * 3600))%R
  | SUnstructured fs u _ _ => exists k d idx, hour_of t k /\ fs k = Some d /\ nth_error (un_map u) cell = Some idx /\ nth_error d (2 + idx) = Some v
  | SMultiHomogeneous _ => False
  end.
(* water height and no momentum *)
Definition still_water (h : R) (k : nat) : option R := match k with 0 => Some h | 1 | 2 => Some 0%R | _ => None end.
(* The value a boundary forcing prescribes for component [k] on edge [e] of boundary [b]. *)
Definition meant_boundary (bf : bforcing) (t : R) (b e k : nat) (v : R) : Prop :=
  match bf with
  | BUnset => False
  | BHomogeneous h n idx _ => Z.of_nat b = idx /\ 3 * e < n /\ exists l w, h_data h = interleaved l /\ sampled l (h_interp h) t w /\ still_water w k = Some v
  | BUnstructured fs u n idx _ => Z.of_nat b = idx /\ 3 * e < n /\ k < 3 /\ exists hr d m, hour_of t hr /\ fs hr = Some d /\ nth_error (un_map u) e = Some m /\ nth_error d (2 + (3 * m + k)) = Some v
  | BMultiHomogeneous ds ms => exists m h l w, In m ms /\ mb_idx m = b /\ 3 * e < mb_n m /\ nth_error ds (mb_set m) = Some h /\ h_data h = interleaved l /\ sampled l (h_interp h) t w /\ still_water w k = Some v
  end.
(* the boundaries a boundary forcing is for *)
Definition forced (bf : bforcing) (b : nat) : Prop :=
  match bf with
  | BUnset => False
  | BHomogeneous _ n idx _ | BUnstructured _ _ n idx _ => n <> 0 /\ Z.of_nat b = idx
  | BMultiHomogeneous _ ms => exists m, In m ms /\ mb_idx m = b
  end.

(* What RDyCreateForcing makes (rdyforcing.c:602-676): arrays of the owned cells or of the edges of the Dirichlet
   boundary, records opened, maps made; for hourly files: all files there, with the same header and
   the announced number of data. *)
Inductive created_source (st : rdy) : source -> Prop :=
| created_unset : created_source st SUnset
| created_constant rate : created_source st (SConstant rate (r_owned st) (repeat (Some 0%R) (r_owned st)))
| created_homogeneous l interp : l <> [] -> increasing l -> created_source st (SHomogeneous (RDyForcingOpenHomogeneousDataset (interleaved l) interp) (r_owned st) (repeat (Some 0%R) (r_owned st)))
| created_raster fs r mesh : OpenRaster fs mesh = Ret r -> length mesh = r_owned st -> (0 < ra_nrows r)%Z -> (0 < ra_ncols r)%Z ->
    (forall k, exists d, fs k = Some d /\ same_header r d = Some true /\ length d = Z.to_nat (ra_nrows r) * Z.to_nat (ra_ncols r) + 5) ->
    created_source st (SRaster fs r (r_owned st) (repeat (Some 0%R) (r_owned st)))
| created_unstructured fs u mesh_file mesh pts : OpenUnstructured fs 1 mesh_file mesh = Ret u -> length mesh = r_owned st ->
    ReadUnstructuredDatasetCoordinates mesh_file = Ret pts -> pts <> [] -> (forall k, exists d, fs k = Some d /\ length d = length pts + 2) ->
    created_source st (SUnstructured fs u (r_owned st) (repeat (Some 0%R) (r_owned st))).

(* types, edges and ids of the boundaries, as the getters deliver them; None: NULL pointer *)
Definition boundaries_of (st : rdy) : option (list (ctype * nat * Z)) :=
  omap (fun x : boundary * bcond => let* ty := bc_flow (snd x) in Some (ty, length (bd_edges (fst x)), bd_id (fst x))) (combine (r_boundaries st) (r_conds st)).
(* the index found here is that of all processes, if there is one here *)
Definition same_index (bcs : list (ctype * nat * Z)) (global : Z) : Prop :=
  forall idx n m, FindDirichletBCID (map fst bcs) = (idx, n, m) -> idx = (-1)%Z \/ idx = global.
Inductive created_boundary (st : rdy) : bforcing -> Prop :=
| bcreated_unset : created_boundary st BUnset
| bcreated_homogeneous l interp bcs global n idx values : l <> [] -> increasing l -> boundaries_of st = Some bcs -> same_index bcs global ->
    DoPostprocessForBoundaryDataset (map fst bcs) global = Some (idx, n, values) ->
    created_boundary st (BHomogeneous (RDyForcingOpenHomogeneousDataset (interleaved l) interp) n idx values)
| bcreated_unstructured fs u mesh_file mesh pts bcs global n idx values : boundaries_of st = Some bcs -> same_index bcs global ->
    DoPostprocessForBoundaryDataset (map fst bcs) global = Some (idx, n, values) ->
    OpenUnstructured fs 3 mesh_file mesh = Ret u -> n = length mesh * 3 -> ReadUnstructuredDatasetCoordinates mesh_file = Ret pts -> pts <> [] ->
    (forall k, exists d, fs k = Some d /\ length d = length pts * 3 + 2) ->
    created_boundary st (BUnstructured fs u n idx values)
| bcreated_multi (ls : list (list (R * R) * bool)) ids bcs ms : (forall l, In l ls -> fst l <> [] /\ increasing (fst l)) -> length ids = length ls ->
    boundaries_of st = Some bcs -> NoDup (map snd bcs) -> match_dirichlet ids bcs 0 = Some ms ->
    created_boundary st (BMultiHomogeneous (map (fun l => RDyForcingOpenHomogeneousDataset (interleaved (fst l)) (snd l)) ls) ms).

(** ** Lemmas: cached values *)
Lemma interleaved_inj l m : interleaved l = interleaved m -> l = m.
Proof.
  revert m. induction l as [|(a, b) l IH]; intros [|(c, d) m]; cbn; intros H; try discriminate; [reflexivity|]. injection H as -> -> H. f_equal. apply IH. exact H.
Qed.
Definition cached (l : list (R * R)) (interp : bool) (prev : Z) (arr : R -> list (option R)) (values : list (option R)) : Prop :=
  interp = true \/ prev = (-1)%Z \/ exists k a, prev = Z.of_nat k /\ nth_error l k = Some a /\ values = arr (snd a).
Definition whole (n : nat) (v : R) : list (option R) := map (fun _ => Some v) (seq 0 n).
Definition triples (n : nat) (v : R) : list (option R) := concat (map (fun _ => triple v) (seq 0 n)).
Lemma whole_length n v : length (whole n v) = n. Proof. unfold whole. rewrite map_length, seq_length. reflexivity. Qed.
Lemma triples_length n v : length (triples n v) = n * 3.
Proof. unfold triples. rewrite <- (seq_length n 0) at 2. induction (seq 0 n) as [|a s IH]; [reflexivity|]. cbn [map concat]. rewrite app_length, IH. cbn. lia. Qed.
Lemma current_cached l interp prev arr values t i v : l <> [] -> cached l interp prev arr values -> RDyForcingGetCurrentData (interleaved l) (length l) t interp = Some (i, v) ->
  (interp || negb (Z.eqb i prev) = true /\ cached l interp i arr (arr v)) \/ (interp || negb (Z.eqb i prev) = false /\ values = arr v).
Proof.
  intros Hl C E. destruct interp; cbn [orb]; [left; split; [reflexivity|left; reflexivity]|].
  destruct (step_value l t i v E Hl) as (k & a & -> & Ha & ->). destruct (Z.eqb_spec (Z.of_nat k) prev) as [<-|N]; cbn [negb].
  - right. split; [reflexivity|]. destruct C as [C|[C|(k' & a' & Ek & Ha' & ->)]]; [discriminate|lia|]. assert (k' = k) by lia. subst k'. congruence.
  - left. split; [reflexivity|]. right. right. eauto.
Qed.
Lemma homogeneous_step l interp cur prev n values t : l <> [] -> length values = n -> cached l interp prev (whole n) values ->
  exists i v p, RDyForcingGetCurrentData (interleaved l) (length l) t interp = Some (i, v) /\
    RDyForcingSetHomogeneousData (Homogeneous (interleaved l) (length l) interp cur prev) t n values = Some (Homogeneous (interleaved l) (length l) interp i p, whole n v) /\
    cached l interp p (whole n) (whole n v).
Proof.
  intros Hl L C. destruct (current_data_spec l t interp Hl) as (k & v & E & _). exists (Z.of_nat k), v.
  unfold RDyForcingSetHomogeneousData. cbn [h_data h_ndata h_interp h_prev]. rewrite E. cbn [obind].
  destruct (current_cached l interp prev (whole n) values t _ _ Hl C E) as [(-> & C')|(-> & EV)].
  - rewrite fill_some by exact L. exists (Z.of_nat k). split; [reflexivity|]. split; [reflexivity|exact C'].
  - exists prev. split; [reflexivity|]. rewrite EV in *. split; [reflexivity|exact C].
Qed.
Lemma boundary_step l interp cur prev n values t : l <> [] -> length values = n * 3 -> cached l interp prev (triples n) values ->
  exists i v p, RDyForcingGetCurrentData (interleaved l) (length l) t interp = Some (i, v) /\
    RDyForcingSetHomogeneousBoundary (Homogeneous (interleaved l) (length l) interp cur prev) t n values = Some (Homogeneous (interleaved l) (length l) interp i p, triples n v) /\
    cached l interp p (triples n) (triples n v).
Proof.
  intros Hl L C. destruct (current_data_spec l t interp Hl) as (k & v & E & _). exists (Z.of_nat k), v.
  unfold RDyForcingSetHomogeneousBoundary. cbn [h_data h_ndata h_interp h_prev]. rewrite E. cbn [obind].
  destruct (current_cached l interp prev (triples n) values t _ _ Hl C E) as [(-> & C')|(-> & EV)].
  - rewrite fill_triples_some by exact L. exists (Z.of_nat k). split; [reflexivity|]. split; [reflexivity|exact C'].
  - exists prev. split; [reflexivity|]. rewrite EV in *. split; [reflexivity|exact C].
Qed.
(* the value used is the sampled one *)
Lemma sampled_current l interp t i v w : l <> [] -> increasing l -> RDyForcingGetCurrentData (interleaved l) (length l) t interp = Some (i, v) -> sampled l interp t w -> v = w.
Proof.
  intros Hl Hi E Hw. assert (F : exists first, nth_error l 0 = Some first /\ (fst first <= t)%R).
  { destruct l as [|a l']; [contradiction|]. exists a. split; [reflexivity|]. set (l := a :: l') in *. assert (H0 : nth_error l 0 = Some a) by reflexivity.
    destruct Hw as [j c d Hc _ Ht|c Hc Ht]; [destruct j as [|j]|destruct (length l - 1) as [|j]]; try (replace a with c by congruence; lra); assert (fst a < fst c)%R by (eapply (increasing_lt l Hi (S j) 0); eauto; lia); lra. }
  destruct F as (first & H0 & Hf). destruct (C44_sampled_in_time l interp t first Hi H0 Hf) as (i' & v' & E' & _ & Hu). rewrite num_samples_interleaved in E'. rewrite E in E'. injection E' as -> ->. symmetry. apply Hu. exact Hw.
Qed.

(** ** Lemmas: hourly files *)
Definition in_memory (fs : files) (f : hourly) (prev : option R) : Prop :=
  match prev with
  | None => f_count f = 1 /\ fs 0 = Some (f_data f)
  | Some p => exists k, hour_of p k /\ f_count f = S k /\ fs k = Some (f_data f)
  end.
Lemma hour_exists t : (0 <= t)%R -> exists k, hour_of t k.
Proof.
  intros H. destruct (archimed (t / 3600)) as (A & B). set (z := up (t / 3600)) in *. assert (0 <= t / 3600)%R by (apply Rmult_le_pos; [exact H|lra]).
  assert (Hz : (0 < z)%Z) by (apply lt_IZR; lra). exists (Z.to_nat (z - 1)). unfold hour_of. rewrite S_INR, INR_IZR_INZ, Z2Nat.id, minus_IZR by lia. split; lra.
Qed.
Lemma hour_unique t j k : hour_of t j -> hour_of t k -> j = k.
Proof.
  unfold hour_of. intros (A & B) (C & D). assert (INR j < INR (S k))%R by lra. assert (INR k < INR (S j))%R by lra. apply INR_lt in H, H0. lia.
Qed.
Lemma hour_step f t : (INR f * 1 <=? t / 3600)%R = true <-> (3600 * INR f <= t)%R.
Proof. rewrite Rleb_true. lra. Qed.
Lemma next_file_step fs ok f prev t : in_memory fs f prev -> follows prev t -> (forall k, exists d, fs k = Some d /\ ok d = Some true) ->
  exists f', next_file fs ok f t = Ok f' /\ in_memory fs f' (Some t).
Proof.
  intros M F G. unfold next_file. assert (T : exists k, f_count f = S k /\ fs k = Some (f_data f) /\ exists j, hour_of t j /\ (j = k \/ j = S k)).
  { destruct prev as [p|]; cbn in M, F.
    - destruct M as (k & Hk & Ec & Ef). exists k. split; [exact Ec|]. split; [exact Ef|]. destruct F as (Hp & Hj). assert (Pos : (0 <= t)%R). { unfold hour_of in Hk. assert (0 <= INR k)%R by apply pos_INR. lra. }
      destruct (hour_exists t Pos) as (j & Hjt). exists j. split; [exact Hjt|]. specialize (Hj k j Hk Hjt).
      assert (k < S j). { unfold hour_of in Hk, Hjt. apply INR_lt. lra. } lia.
    - destruct M as (Ec & Ef). exists 0. split; [exact Ec|]. split; [exact Ef|]. destruct (hour_exists t) as (j & Hj); [lra|]. exists j. split; [exact Hj|].
      assert (j < 2). { unfold hour_of in Hj. apply INR_lt. cbn [INR]. lra. } lia. }
  destruct T as (k & Ec & Ef & j & Hj & Cj). destruct (Rleb (INR (f_count f) * 1) (t / 3600)) eqn:E.
  - apply hour_step in E. rewrite Ec in *. assert (j = S k). { destruct Cj as [E0|]; [|assumption]; subst j. unfold hour_of in Hj. lra. } subst j.
    destruct (G (S k)) as (d & Ed & Eok). rewrite Ed, Eok. eexists. split; [reflexivity|]. exists (S k). split; [exact Hj|]. split; [reflexivity|]. exact Ed.
  - exists f. split; [reflexivity|]. assert (E' : (t < 3600 * INR (S k))%R). { rewrite <- Ec. destruct (Rlt_dec t (3600 * INR (f_count f))); [assumption|]. assert ((INR (f_count f) * 1 <=? t / 3600)%R = true) by (apply hour_step; lra). congruence. }
    assert (j = k). { destruct Cj as [|E0]; [assumption|subst j]. unfold hour_of in Hj. lra. } subst j. exists k. auto.
Qed.

(** ** Lemmas: one application to the cells *)
Lemma initialised_some vs : initialised (map Some vs) = Some vs.
Proof. unfold initialised. induction vs as [|v vs IH]; [reflexivity|]. cbn. rewrite IH. reflexivity. Qed.
Lemma water_source_step st vs src : set_up st -> whole_domain st -> length vs = r_owned st -> exists st', water_source st (r_owned st) (map Some vs) src = Ok (st', src) /\
  set_up st' /\ params st' = params st /\ (forall cell, cell < r_owned st -> value st' (Source cell 0) = nth_error vs cell) /\ (forall s, (forall cell, s <> Source cell 0) -> value st' s = value st s).
Proof.
  intros U (g & Hg & Hid & Ho) L. assert (U' := U). destruct U' as (U1 & _ & _ & _ & U5 & _). unfold water_source. rewrite initialised_some. cbn [of_def].
  destruct (exec_spec st (RegionalSource 0 1 (Z.of_nat (r_owned st)) vs) U) as (Y & _); [cbn; lia|cbn; lia|exact I|].
  destruct (domain_ids_spec (r_owned st)) as (_ & _ & Ld & Pd).
  destruct Y as (st' & E & S' & P' & V). { cbn. intros g' Hg' Hid'. assert (F := find_region_unique _ _ g U5 Hg Hid). rewrite (find_region_unique _ _ g' U5 Hg' Hid') in F. injection F as ->. rewrite Ho, Ld. reflexivity. }
  unfold RDySetRegionalWaterSource. rewrite E. cbn [obound]. exists st'. split; [reflexivity|]. split; [exact S'|]. split; [exact P'|]. split.
  - intros cell Hc. rewrite V. unfold updated. cbn [assigns]. rewrite (find_region_unique _ _ g U5 Hg Hid). cbn [Z.eqb Z.of_nat obind]. rewrite Ho, Pd. apply Nat.ltb_lt in Hc. rewrite Hc. cbn [obind]. apply Nat.ltb_lt in Hc.
    destruct (nth_defined vs _ L cell Hc) as (v & ->). reflexivity.
  - intros s Hs. rewrite V. unfold updated. destruct s as [cell comp|cell|b e k]; cbn [assigns]; try reflexivity. destruct (Z.eqb_spec (Z.of_nat comp) 0) as [E0|]; [|reflexivity].
    exfalso. apply (Hs cell). f_equal. lia.
Qed.
Lemma whole_some n v : whole n v = map Some (map (fun _ => v) (seq 0 n)).
Proof. unfold whole. rewrite map_map. reflexivity. Qed.
Lemma nth_const n (v : R) i : i < n -> nth_error (map (fun _ => v) (seq 0 n)) i = Some v.
Proof. intros H. rewrite nth_error_map, nth_error_seq by exact H. reflexivity. Qed.

Inductive src_ok (n : nat) (prev : option R) : source -> Prop :=
| sok_unset : src_ok n prev SUnset
| sok_constant rate values : length values = n -> src_ok n prev (SConstant rate n values)
| sok_homogeneous l interp cur p values : l <> [] -> increasing l -> length values = n -> cached l interp p (whole n) values ->
    src_ok n prev (SHomogeneous (Homogeneous (interleaved l) (length l) interp cur p) n values)
| sok_raster fs r values : length values = n -> length (ra_map r) = n -> (n <> 0 -> in_memory fs (ra_file r) prev) ->
    (forall k, exists d, fs k = Some d /\ same_header r d = Some true /\ forall i, In i (ra_map r) -> i + 5 < length d) -> src_ok n prev (SRaster fs r n values)
| sok_unstructured fs u values : un_stride u = 1 -> length values = n -> length (un_map u) = n -> (n <> 0 -> in_memory fs (un_file u) prev) ->
    (forall k, exists d, fs k = Some d /\ forall i, In i (un_map u) -> i + 2 < length d) -> src_ok n prev (SUnstructured fs u n values).
Definition uses_files (src : source) : Prop := match src with SRaster _ _ _ _ | SUnstructured _ _ _ _ => True | _ => False end.

Lemma source_step st src prev t : set_up st -> (src = SUnset \/ whole_domain st) -> src_ok (r_owned st) prev src -> (uses_files src -> follows prev t) ->
  exists st' src', apply_source st src t = Ok (st', src') /\ set_up st' /\ params st' = params st /\ src_ok (r_owned st) (Some t) src' /\
    (forall t' cell v, meant_source src' t' cell v <-> meant_source src t' cell v) /\ (uses_files src' <-> uses_files src) /\ (src' = SUnset <-> src = SUnset) /\
    (forall cell v, cell < r_owned st -> meant_source src t cell v -> value st' (Source cell 0) = Some v) /\
    (forall s, src = SUnset \/ (forall cell, s <> Source cell 0) -> value st' s = value st s).
Proof.
  intros U W K F. destruct K as [|rate values L|l interp cur p values Hl Hi L C|fs r values L Lm M G|fs u values Hs L Lm M G].
  - exists st, SUnset. cbn [apply_source meant_source]. repeat (split; [solve [auto|constructor|intuition]|]). auto.
  - destruct W as [W|W]; [discriminate|]. destruct (Nat.eq_dec (r_owned st) 0) as [Z0|N0].
    + exists st. eexists. cbn [apply_source]. rewrite Z0. cbn [Nat.eqb]. repeat (split; [solve [reflexivity|auto|constructor; congruence|intuition]|]). split; [intros; lia|]. auto.
    + cbn [apply_source]. destruct (Nat.eqb_spec (r_owned st) 0); [contradiction|]. unfold RDyForcingSetConstantRainfall. rewrite fill_some by exact L. cbn [of_def]. fold (whole (r_owned st) rate). rewrite whole_some.
      edestruct (water_source_step st) as (st' & E & S' & P' & V & V'); [exact U|exact W|rewrite map_length; apply seq_length|]. exists st'. eexists. split; [exact E|]. split; [exact S'|]. split; [exact P'|].
      split; [constructor; rewrite !map_length; apply seq_length|]. split; [reflexivity|]. split; [reflexivity|]. split; [split; discriminate|]. split.
      * intros cell v Hc Hv. cbn in Hv. subst v. rewrite V by exact Hc. apply nth_const. exact Hc.
      * intros s [?|Hs]; [discriminate|]. apply V'. exact Hs.
  - destruct W as [W|W]; [discriminate|]. destruct (Nat.eq_dec (r_owned st) 0) as [Z0|N0].
    + exists st. eexists. cbn [apply_source]. rewrite Z0. cbn [Nat.eqb]. rewrite Z0 in *. split; [reflexivity|]. split; [exact U|]. split; [reflexivity|]. split; [constructor; assumption|]. split; [reflexivity|]. split; [reflexivity|]. split; [split; discriminate|]. split; [intros; lia|]. auto.
    + cbn [apply_source]. destruct (Nat.eqb_spec (r_owned st) 0); [contradiction|]. destruct (homogeneous_step l interp cur p _ values t Hl L C) as (i & v & q & Ev & -> & C'). cbn [of_def]. rewrite whole_some.
      edestruct (water_source_step st) as (st' & E & S' & P' & V & V'); [exact U|exact W|rewrite map_length; apply seq_length|]. exists st'. eexists. split; [exact E|]. split; [exact S'|]. split; [exact P'|].
      split; [rewrite <- whole_some; constructor; auto; apply whole_length|]. split; [reflexivity|]. split; [reflexivity|]. split; [split; discriminate|]. split.
      * intros cell w Hc (l' & El & Hv). cbn [h_data h_interp] in El, Hv. apply interleaved_inj in El. subst l'. rewrite V by exact Hc. rewrite nth_const by exact Hc. f_equal. eapply sampled_current; eassumption.
      * intros s [?|Hs]; [discriminate|]. apply V'. exact Hs.
  - destruct W as [W|W]; [discriminate|]. destruct (Nat.eq_dec (r_owned st) 0) as [Z0|N0].
    + exists st. eexists. cbn [apply_source]. rewrite Z0. cbn [Nat.eqb]. rewrite Z0 in *. split; [reflexivity|]. split; [exact U|]. split; [reflexivity|]. split; [constructor; auto; lia|]. split; [reflexivity|]. split; [reflexivity|]. split; [split; discriminate|]. split; [intros; lia|]. auto.
    + cbn [apply_source]. destruct (Nat.eqb_spec (r_owned st) 0); [contradiction|]. unfold RDyForcingSetRasterData.
      destruct (next_file_step fs (same_header r) (ra_file r) prev t (M N0) (F I)) as (f & -> & M'). { intros k. destruct (G k) as (d & ? & ? & _). eauto. }
      destruct M' as (k & Hk & Ec & Ef). destruct (G k) as (d & Ed & _ & Hd). assert (d = f_data f) by congruence. subst d.
      set (g := fun i => (nth (nth i (ra_map r) 0%nat + 5) (f_data f) 0 * mm_per_hr_2_m_per_sec)%R).
      assert (Hg : forall i, i < r_owned st -> exists idx x, nth_error (ra_map r) i = Some idx /\ nth_error (f_data f) (idx + 5) = Some x /\ g i = (x * mm_per_hr_2_m_per_sec)%R).
      { intros i Hi. destruct (nth_error (ra_map r) i) as [idx|] eqn:Ei; [|apply nth_error_None in Ei; lia]. exists idx. assert (Hx := Hd idx (nth_error_In _ _ Ei)).
        destruct (nth_error (f_data f) (idx + 5)) as [x|] eqn:Ex; [|apply nth_error_None in Ex; lia]. exists x. split; [reflexivity|]. split; [reflexivity|]. unfold g. rewrite (nth_error_nth _ _ 0 Ei), (nth_error_nth _ _ 0%R Ex). reflexivity. }
      rewrite (write_all_some _ _ g); [|intros i Hi; destruct (Hg i Hi) as (idx & x & -> & Ex & ->); cbn [obind]; rewrite Ex; reflexivity|exact L]. cbn [obind defined obound].
      rewrite <- (map_map g Some).
      edestruct (water_source_step st) as (st' & E & S' & P' & V & V'); [exact U|exact W|rewrite map_length; apply seq_length|]. exists st'. eexists. split; [exact E|]. split; [exact S'|]. split; [exact P'|].
      split; [constructor; cbn [ra_map ra_file]; auto; [rewrite !map_length; apply seq_length|intros _; exists k; auto]|]. split; [reflexivity|]. split; [reflexivity|]. split; [split; discriminate|]. split.
      * intros cell w Hc (k' & d' & idx' & x' & Hk' & Ed' & Ei' & Ex' & ->). rewrite V by exact Hc. rewrite nth_error_map, nth_error_seq by exact Hc. cbn [option_map Nat.add]. assert (k' = k) by (eapply hour_unique; eassumption). subst k'.
        assert (d' = f_data f) by congruence. subst d'. destruct (Hg cell Hc) as (idx & x & Ei & Ex & ->). assert (idx' = idx) by congruence. subst idx'. rewrite Nat.add_comm in Ex'. assert (x' = x) by congruence. subst x'. f_equal. unfold mm_per_hr_2_m_per_sec. field.
      * intros s [?|Hs]; [discriminate|]. apply V'. exact Hs.
  - destruct W as [W|W]; [discriminate|]. destruct (Nat.eq_dec (r_owned st) 0) as [Z0|N0].
    + exists st. eexists. cbn [apply_source]. rewrite Z0. cbn [Nat.eqb]. rewrite Z0 in *. split; [reflexivity|]. split; [exact U|]. split; [reflexivity|]. split; [constructor; auto; lia|]. split; [reflexivity|]. split; [reflexivity|]. split; [split; discriminate|]. split; [intros; lia|]. auto.
    + cbn [apply_source]. destruct (Nat.eqb_spec (r_owned st) 0); [contradiction|]. unfold RDyForcingSetUnstructuredData.
      destruct (next_file_step fs (fun _ => Some true) (un_file u) prev t (M N0) (F I)) as (f & -> & M'). { intros k. destruct (G k) as (d & ? & _). eauto. }
      destruct M' as (k & Hk & Ec & Ef). destruct (G k) as (d & Ed & Hd). assert (d = f_data f) by congruence. subst d.
      rewrite copy_rows_some; [|intros m ii Hm Hii; rewrite Hs in *; specialize (Hd m Hm); lia|rewrite Hs; lia]. cbn [obind defined obound]. rewrite Hs, Lm. cbn [seq map].
      set (g := fun i => nth (nth i (un_map u) 0 + 2) (f_data f) 0%R).
      assert (Hg : forall i, i < r_owned st -> exists idx, nth_error (un_map u) i = Some idx /\ nth_error (f_data f) (idx + 2) = Some (g i)).
      { intros i Hi. destruct (nth_error (un_map u) i) as [idx|] eqn:Ei; [|apply nth_error_None in Ei; lia]. exists idx. assert (Hx := Hd idx (nth_error_In _ _ Ei)). split; [reflexivity|].
        unfold g. rewrite (nth_error_nth _ _ 0 Ei). apply nth_error_nth'. lia. }
      replace (concat (map (fun i => [nth_error (f_data f) (nth i (un_map u) 0 * 1 + 0 + 2)]) (seq 0 (r_owned st)))) with (map Some (map g (seq 0 (r_owned st)))).
      2: { rewrite concat_singletons, map_map. apply map_ext_in. intros i Hi. apply in_seq in Hi. destruct (Hg i) as (idx & Ei & Ex); [lia|]. rewrite (nth_error_nth _ _ 0 Ei). replace (idx * 1 + 0 + 2) with (idx + 2) by lia. symmetry. exact Ex. }
      edestruct (water_source_step st) as (st' & E & S' & P' & V & V'); [exact U|exact W|rewrite map_length; apply seq_length|]. exists st'. eexists. split; [exact E|]. split; [exact S'|]. split; [exact P'|].
      split; [constructor; cbn [un_map un_file un_stride]; auto; [rewrite !map_length; apply seq_length|intros _; exists k; auto]|]. split; [reflexivity|]. split; [reflexivity|]. split; [split; discriminate|]. split.
      * intros cell w Hc (k' & d' & idx' & Hk' & Ed' & Ei' & Ex'). rewrite V by exact Hc. rewrite nth_error_map, nth_error_seq by exact Hc. cbn [option_map Nat.add]. assert (k' = k) by (eapply hour_unique; eassumption). subst k'.
        assert (d' = f_data f) by congruence. subst d'. destruct (Hg cell Hc) as (idx & Ei & Ex). assert (idx' = idx) by congruence. subst idx'. rewrite Nat.add_comm in Ex'. congruence.
      * intros s [?|Hs']; [discriminate|]. apply V'. exact Hs'.
Qed.

(** ** Lemmas: one application to the boundaries *)
Definition dirichlet (st : rdy) (b ne : nat) : Prop :=
  exists bd cd, nth_error (r_boundaries st) b = Some bd /\ nth_error (r_conds st) b = Some cd /\ ne = length (bd_edges bd) /\ bc_flow cd = Some CONDITION_DIRICHLET.
Lemma dirichlet_params st st' b ne : params st' = params st -> dirichlet st b ne -> dirichlet st' b ne.
Proof. intros P. unfold params in P. injection P as _ _ _ _ _ _ _ _ Hb Hc. unfold dirichlet. rewrite Hb, Hc. auto. Qed.
Lemma flow_step st b ne vs : set_up st -> dirichlet st b ne -> length vs = ne * 3 -> exists st', exec st (FlowValues (Z.of_nat b) (Z.of_nat ne) 3 vs) = Ok st' /\
  set_up st' /\ params st' = params st /\ (forall e k, e < ne -> k < 3 -> value st' (BoundaryValue b e k) = nth_error vs (3 * e + k)) /\
  (forall s, (forall e k, k < 3 -> s <> BoundaryValue b e k) -> value st' s = value st s).
Proof.
  intros U (bd & cd & Hb & Hc & Hn & Ht) L. destruct (exec_spec st (FlowValues (Z.of_nat b) (Z.of_nat ne) 3 vs) U) as (Y & _); [cbn; lia|exact I|exact I|].
  destruct Y as (st' & E & S' & P' & V). { cbn. split; [|reflexivity]. exists bd, cd. rewrite !zget_nat. subst ne. auto. }
  exists st'. split; [exact E|]. split; [exact S'|]. split; [exact P'|]. split.
  - intros e k He Hk. rewrite V. unfold updated. cbn [assigns]. unfold num_edges. rewrite Z.eqb_refl, Hb, <- Hn. apply Nat.ltb_lt in He, Hk. rewrite He, Hk. cbn [andb]. apply Nat.ltb_lt in He, Hk.
    destruct (nth_defined vs _ L (3 * e + k)) as (v & ->); [lia|]. reflexivity.
  - intros s Hs. rewrite V. unfold updated. destruct s as [cell comp|cell|b' e k]; cbn [assigns]; try reflexivity. destruct (Z.eqb_spec (Z.of_nat b') (Z.of_nat b)) as [Eb|]; [|reflexivity].
    destruct (Nat.ltb_spec k 3) as [Lk|]; [|rewrite Bool.andb_false_r; reflexivity]. exfalso. apply (Hs e k Lk). f_equal. lia.
Qed.
Definition flat_triples (n : nat) (v : R) : list R := flat_map (fun _ => [v; 0; 0]%R) (seq 0 n).
Lemma triples_some n v : triples n v = map Some (flat_triples n v).
Proof. unfold triples, flat_triples. induction (seq 0 n) as [|a s IH]; [reflexivity|]. cbn. f_equal. f_equal. f_equal. exact IH. Qed.
Lemma flat_triples_length n v : length (flat_triples n v) = n * 3.
Proof. rewrite <- (triples_length n v), triples_some, map_length. reflexivity. Qed.
Lemma flat_triples_nth n v e k w : e < n -> still_water v k = Some w -> nth_error (flat_triples n v) (3 * e + k) = Some w.
Proof.
  intros He Hk. unfold flat_triples. replace (3 * e + k) with (e * 3 + k) by lia. assert (k < 3) by (destruct k as [|[|[|k]]]; cbn in Hk; try discriminate; lia).
  rewrite (flat_map_nth _ 3); [|reflexivity|assumption]. rewrite nth_error_seq by exact He. cbn [obind]. destruct k as [|[|[|k]]]; cbn in *; congruence.
Qed.
Lemma still_lt v k w : still_water v k = Some w -> k < 3.
Proof. destruct k as [|[|[|k]]]; cbn; intros; try discriminate; lia. Qed.

Definition mok (st : rdy) (ds : list homogeneous) (m : multi_bc) : Prop :=
  exists ne l interp cur p, mb_n m = ne * 3 /\ length (mb_values m) = ne * 3 /\ nth_error ds (mb_set m) = Some (Homogeneous (interleaved l) (length l) interp cur p) /\
    l <> [] /\ increasing l /\ cached l interp p (triples ne) (mb_values m) /\ dirichlet st (mb_idx m) ne.
Inductive bnd_ok (st : rdy) (prev : option R) : bforcing -> Prop :=
| bok_unset : bnd_ok st prev BUnset
| bok_homogeneous l interp cur p ne idx values : l <> [] -> increasing l -> length values = ne * 3 -> cached l interp p (triples ne) values ->
    (ne <> 0 -> exists b, idx = Z.of_nat b /\ dirichlet st b ne) -> bnd_ok st prev (BHomogeneous (Homogeneous (interleaved l) (length l) interp cur p) (ne * 3) idx values)
| bok_unstructured fs u ne idx values : un_stride u = 3 -> length values = ne * 3 -> length (un_map u) = ne -> (ne <> 0 -> in_memory fs (un_file u) prev) ->
    (forall k, exists d, fs k = Some d /\ forall i ii, In i (un_map u) -> ii < 3 -> i * 3 + ii + 2 < length d) ->
    (ne <> 0 -> exists b, idx = Z.of_nat b /\ dirichlet st b ne) -> bnd_ok st prev (BUnstructured fs u (ne * 3) idx values)
| bok_multi ds ms : NoDup (map mb_set ms) -> NoDup (map mb_idx ms) -> (forall m, In m ms -> mok st ds m) -> bnd_ok st prev (BMultiHomogeneous ds ms).
Definition buses_files (b : bforcing) : Prop := match b with BUnstructured _ _ _ _ _ => True | _ => False end.

Definition key (m : multi_bc) := (mb_idx m, mb_set m, mb_n m).
Definition static (h : homogeneous) := (h_data h, h_interp h).
Lemma meant_multi ds ms ds' ms' t b e k v : map key ms' = map key ms -> map static ds' = map static ds ->
  meant_boundary (BMultiHomogeneous ds ms) t b e k v -> meant_boundary (BMultiHomogeneous ds' ms') t b e k v.
Proof.
  intros Hm Hd (m & h & l & w & Im & Eb & Hn & Eh & El & Hw & Hv). assert (Ik : In (key m) (map key ms')) by (rewrite Hm; apply in_map; exact Im). apply in_map_iff in Ik. destruct Ik as (m' & Ek & Im').
  assert (Es : nth_error (map static ds') (mb_set m) = Some (static h)) by (rewrite Hd, nth_error_map, Eh; reflexivity). rewrite nth_error_map in Es. destruct (nth_error ds' (mb_set m)) as [h'|] eqn:Eh'; [|discriminate].
  cbn in Es. injection Es as Ed Ei. unfold key in Ek. injection Ek as E1 E2 E3. exists m', h', l, w. rewrite E1, E2, E3, Ed, Ei. auto 10.
Qed.
Lemma forced_multi ds ms ds' ms' b : map key ms' = map key ms -> forced (BMultiHomogeneous ds ms) b -> forced (BMultiHomogeneous ds' ms') b.
Proof.
  intros Hm (m & Im & Eb). assert (Ik : In (key m) (map key ms')) by (rewrite Hm; apply in_map; exact Im). apply in_map_iff in Ik. destruct Ik as (m' & Ek & Im'). unfold key in Ek. injection Ek as E1 E2 E3. exists m'. rewrite E1. auto.
Qed.
Lemma map_static_upd ds i h h' ds' : nth_error ds i = Some h -> static h' = static h -> upd ds i h' = Some ds' -> map static ds' = map static ds.
Proof.
  intros Eh Es Eu. apply nth_error_ext. intros j. rewrite !nth_error_map, (upd_get _ _ _ _ j Eu). destruct (Nat.eqb_spec j i) as [->|]; [|reflexivity]. rewrite Eh. cbn. congruence.
Qed.
Lemma multi_step : forall ms st ds t, set_up st -> NoDup (map mb_set ms) -> NoDup (map mb_idx ms) -> (forall m, In m ms -> mok st ds m) ->
  exists st' ds' ms', apply_multi_boundary st ds ms t = Ok (st', (ds', ms')) /\ set_up st' /\ params st' = params st /\ map key ms' = map key ms /\ map static ds' = map static ds /\
    (forall j, ~ In j (map mb_set ms) -> nth_error ds' j = nth_error ds j) /\ (forall m, In m ms' -> mok st ds' m) /\
    (forall b e k v, meant_boundary (BMultiHomogeneous ds ms) t b e k v -> value st' (BoundaryValue b e k) = Some v) /\
    (forall s, (forall b e k, s = BoundaryValue b e k -> k < 3 -> ~ In b (map mb_idx ms)) -> value st' s = value st s).
Proof.
  induction ms as [|m ms IH]; intros st ds t U Ns Ni K.
  - exists st, ds, []. cbn. repeat (split; [solve [auto|intros; contradiction|intuition]|]). split; [|auto]. intros b e k v (m & h & l & w & [] & _).
  - cbn [map] in Ns, Ni. apply NoDup_cons_iff in Ns, Ni. destruct Ns as (Ns1 & Ns2). destruct Ni as (Ni1 & Ni2). cbn [apply_multi_boundary].
    destruct (K m (or_introl eq_refl)) as (ne & l & interp & cur & p & En & Lv & Eh & Hl & Hi & C & D). rewrite En, Nat.div_mul by lia. destruct (Nat.eqb_spec ne 0) as [Z0|N0].
    + destruct (IH st ds t U Ns2 Ni2) as (st' & ds' & ms' & E & U' & P' & Hk & Hs & Hd & K' & V & V'). { intros m' Hm'. apply K. right. exact Hm'. }
      rewrite E. cbn [obound fst snd]. exists st', ds', (m :: ms'). split; [reflexivity|]. split; [exact U'|]. split; [exact P'|]. split; [cbn [map]; rewrite Hk; reflexivity|]. split; [exact Hs|].
      split; [intros j Hj; apply Hd; intros Hin; apply Hj; right; exact Hin|]. split.
      { intros m' [<-|Hm']; [|exact (K' m' Hm')]. exists ne, l, interp, cur, p. rewrite Hd by exact Ns1. auto 10. }
      split.
      * intros b e k v (m' & h & l' & w & [<-|Im] & Eb & Hn & R). { rewrite En in Hn. lia. } apply V. exists m', h, l', w. auto.
      * intros s Hb. apply V'. intros b e k Es Hk' Hin. apply (Hb b e k Es Hk'). right. exact Hin.
    + rewrite Eh. cbn [of_def]. destruct (boundary_step l interp cur p ne (mb_values m) t Hl Lv C) as (i & v & q & Ev & Eb & C'). rewrite Eb. cbn [of_def].
      destruct (upd_some ds (mb_set m) (Homogeneous (interleaved l) (length l) interp i q)) as (ds1 & Eu); [apply nth_error_Some; congruence|]. rewrite Eu. cbn [of_def].
      rewrite triples_some, initialised_some. cbn [of_def].
      destruct (flow_step st (mb_idx m) ne (flat_triples ne v) U D (flat_triples_length ne v)) as (st1 & E1 & U1 & P1 & V1 & V1'). rewrite E1. cbn [obound].
      assert (Hs1 : map static ds1 = map static ds) by (eapply map_static_upd; [exact Eh| |exact Eu]; reflexivity).
      assert (Hd1 : forall j, j <> mb_set m -> nth_error ds1 j = nth_error ds j) by (intros j Hj; rewrite (upd_get _ _ _ _ j Eu); destruct (Nat.eqb_spec j (mb_set m)); [contradiction|reflexivity]).
      destruct (IH st1 ds1 t U1 Ns2 Ni2) as (st' & ds' & ms' & E & U' & P' & Hk & Hs & Hd & K' & V & V').
      { intros m' Hm'. destruct (K m' (or_intror Hm')) as (ne' & l' & interp' & cur' & p' & A1 & A2 & A3 & A4 & A5 & A6 & A7). exists ne', l', interp', cur', p'.
        rewrite Hd1; [|intros X; apply Ns1; rewrite <- X; apply in_map; exact Hm']. repeat (split; [assumption|]). eapply dirichlet_params; eassumption. }
      rewrite E. cbn [obound fst snd]. exists st', ds', (MultiBC (mb_idx m) (mb_set m) (mb_n m) (map Some (flat_triples ne v)) :: ms'). rewrite En. split; [reflexivity|]. split; [exact U'|]. split; [congruence|].
      split; [cbn [map]; rewrite Hk; unfold key at 1; cbn; rewrite <- En; reflexivity|]. split; [congruence|]. split.
      { intros j Hj. rewrite Hd; [apply Hd1; intros X; apply Hj; left; auto|]. intros Hin. apply Hj. right. exact Hin. }
      split.
      { intros m' [<-|Hm'].
        - exists ne, l, interp, i, q. cbn [mb_n mb_values mb_set mb_idx]. rewrite Hd by exact Ns1. rewrite (upd_get _ _ _ _ (mb_set m) Eu), Nat.eqb_refl. rewrite <- triples_some. repeat (split; [solve [auto|apply triples_length]|]). exact D.
        - destruct (K' m' Hm') as (ne' & l' & interp' & cur' & p' & A1 & A2 & A3 & A4 & A5 & A6 & A7). exists ne', l', interp', cur', p'. repeat (split; [assumption|]). eapply dirichlet_params; [symmetry; exact P1|exact A7]. }
      split.
      * intros b e k x Hx. destruct Hx as (m' & h & l' & w & [<-|Im] & Eb' & Hn & Hh & El & Hw & Hv).
        -- subst b. rewrite V'; [|intros b' e' k' [= <- <- <-] _; exact Ni1]. rewrite En in Hn. rewrite V1 by (try lia; eapply still_lt; eassumption).
           rewrite Eh in Hh. injection Hh as <-. cbn [h_data h_interp] in El, Hw. apply interleaved_inj in El. subst l'. assert (v = w) by (eapply sampled_current; eassumption). subst w. apply flat_triples_nth; [lia|exact Hv].
        -- apply V. assert (Hj : mb_set m' <> mb_set m) by (intros X; apply Ns1; rewrite <- X; apply in_map; exact Im). exists m', h, l', w. rewrite Hd1 by exact Hj. auto 10.
      * intros s Hb. rewrite V'; [apply V1'; intros e k Hk' ->; apply (Hb (mb_idx m) e k eq_refl Hk'); left; reflexivity|]. intros b e k Es Hk' Hin. apply (Hb b e k Es Hk'). right. exact Hin.
Qed.

Lemma boundary_apply st b prev t : set_up st -> bnd_ok st prev b -> (buses_files b -> follows prev t) ->
  exists st' b', apply_boundary st b t = Ok (st', b') /\ set_up st' /\ params st' = params st /\ bnd_ok st (Some t) b' /\
    (forall t' i e k v, meant_boundary b' t' i e k v <-> meant_boundary b t' i e k v) /\ (forall i, forced b' i <-> forced b i) /\ (buses_files b' <-> buses_files b) /\
    (forall i e k v, meant_boundary b t i e k v -> value st' (BoundaryValue i e k) = Some v) /\
    (forall s, (forall i e k, s = BoundaryValue i e k -> k < 3 -> ~ forced b i) -> value st' s = value st s).
Proof.
  intros U K F. destruct K as [|l interp cur p ne idx values Hl Hi L C D|fs u ne idx values Hs L Lm M G D|ds ms Ns Ni K].
  - exists st, BUnset. cbn. repeat (split; [solve [auto|constructor|intuition]|]). auto.
  - cbn [apply_boundary]. rewrite Nat.div_mul by lia. destruct (Nat.eqb_spec (ne * 3) 0) as [Z0|N0].
    + exists st. eexists. split; [reflexivity|]. split; [exact U|]. split; [reflexivity|]. split; [constructor; assumption|]. split; [reflexivity|]. split; [reflexivity|]. split; [reflexivity|].
      split; [|auto]. intros i e k v (_ & H & _). lia.
    + destruct (boundary_step l interp cur p ne values t Hl L C) as (i & v & q & Ev & Eb & C'). rewrite Eb. cbn [of_def]. unfold flow_values. rewrite triples_some, initialised_some. cbn [of_def].
      destruct (D ltac:(lia)) as (b & -> & D'). destruct (flow_step st b ne (flat_triples ne v) U D' (flat_triples_length ne v)) as (st' & E & U' & P' & V & V'). rewrite E. cbn [obound].
      exists st'. eexists. split; [reflexivity|]. split; [exact U'|]. split; [exact P'|]. split; [rewrite <- triples_some; constructor; auto; apply triples_length|]. split; [reflexivity|]. split; [reflexivity|]. split; [reflexivity|]. split.
      * intros b' e k x (Eb' & He & l' & w & El & Hw & Hk). assert (b' = b) by lia. subst b'. cbn [h_data h_interp] in El, Hw. apply interleaved_inj in El. subst l'. assert (v = w) by (eapply sampled_current; eassumption). subst w.
        rewrite V by (try lia; eapply still_lt; eassumption). apply flat_triples_nth; [lia|exact Hk].
      * intros s Hs. apply V'. intros e k Hk ->. apply (Hs b e k eq_refl Hk). cbn. lia.
  - cbn [apply_boundary]. rewrite Nat.div_mul by lia. destruct (Nat.eqb_spec (ne * 3) 0) as [Z0|N0].
    + exists st. eexists. split; [reflexivity|]. split; [exact U|]. split; [reflexivity|]. split; [constructor; auto; lia|]. split; [reflexivity|]. split; [reflexivity|]. split; [reflexivity|].
      split; [|auto]. intros i e k v (_ & H & _). lia.
    + unfold RDyForcingSetUnstructuredData. destruct (next_file_step fs (fun _ => Some true) (un_file u) prev t (M ltac:(lia)) (F I)) as (f & -> & M'). { intros k. destruct (G k) as (d & ? & _). eauto. }
      destruct M' as (k & Hk & Ec & Ef). destruct (G k) as (d & Ed & Hd). assert (d = f_data f) by congruence. subst d.
      rewrite copy_rows_some; [|intros m ii Hm Hii; rewrite Hs in *; apply Hd; assumption|rewrite Hs, Lm; exact L]. cbn [obind defined obound]. rewrite Hs, Lm.
      set (g := fun i ii => nth (nth i (un_map u) 0 * 3 + ii + 2) (f_data f) 0%R). set (flat := flat_map (fun i => [g i 0; g i 1; g i 2]) (seq 0 ne)).
      assert (Hg : forall i ii, i < ne -> ii < 3 -> exists m, nth_error (un_map u) i = Some m /\ nth_error (f_data f) (m * 3 + ii + 2) = Some (g i ii)).
      { intros i ii Hi Hii. destruct (nth_error (un_map u) i) as [m|] eqn:Ei; [|apply nth_error_None in Ei; lia]. exists m. split; [reflexivity|]. unfold g. rewrite (nth_error_nth _ _ 0 Ei). apply nth_error_nth'. apply Hd; [apply (nth_error_In _ _ Ei)|exact Hii]. }
      assert (EF : concat (map (fun i => map (fun ii => nth_error (f_data f) (nth i (un_map u) 0 * 3 + ii + 2)) (seq 0 3)) (seq 0 ne)) = map Some flat).
      { unfold flat. rewrite <- flat_map_concat_map, flat_map_concat_map, flat_map_concat_map, concat_map, map_map. f_equal. apply map_ext_in. intros i Hi. apply in_seq in Hi. cbn [seq map].
        destruct (Hg i 0) as (m & Em & E0); [lia|lia|]. destruct (Hg i 1) as (m1 & Em1 & E1); [lia|lia|]. destruct (Hg i 2) as (m2 & Em2 & E2); [lia|lia|]. assert (m1 = m) by congruence. assert (m2 = m) by congruence. subst m1 m2.
        rewrite (nth_error_nth _ _ 0 Em), E0, E1, E2. reflexivity. }
      rewrite EF. clear EF. assert (Lf : length flat = ne * 3). { unfold flat. rewrite flat_map_concat_map. rewrite <- (seq_length ne 0) at 2. generalize (seq 0 ne). intros s. induction s as [|a s IH]; [reflexivity|]. cbn. rewrite IH. reflexivity. }
      assert (Nf : forall e k, e < ne -> k < 3 -> nth_error flat (3 * e + k) = Some (g e k)).
      { intros e c He Hc. unfold flat. replace (3 * e + c) with (e * 3 + c) by lia. rewrite (flat_map_nth _ 3); [|reflexivity|exact Hc]. rewrite nth_error_seq by exact He. cbn [obind]. destruct c as [|[|[|c]]]; try reflexivity. lia. }
      clearbody flat. unfold flow_values. rewrite initialised_some. cbn [of_def]. destruct (D ltac:(lia)) as (b & -> & D'). destruct (flow_step st b ne flat U D' Lf) as (st' & E & U' & P' & V & V'). rewrite E. cbn [obound].
      exists st'. eexists. split; [reflexivity|]. split; [exact U'|]. split; [exact P'|]. split; [constructor; cbn [un_map un_file un_stride]; auto; [rewrite map_length; exact Lf|intros _; exists k; auto]|]. split; [reflexivity|]. split; [reflexivity|]. split; [reflexivity|]. split.
      * intros b' e c x (Eb' & He & Hc & hr & d' & m & Hh & Ed' & Em & Ex). assert (b' = b) by lia. subst b'. rewrite V by lia. rewrite Nf by lia. assert (hr = k) by (eapply hour_unique; eassumption). subst hr.
        assert (d' = f_data f) by congruence. subst d'. destruct (Hg e c) as (m' & Em' & Ex'); [lia|lia|]. assert (m' = m) by congruence. subst m'. replace (2 + (3 * m + c)) with (m * 3 + c + 2) in Ex by lia. congruence.
      * intros s Hs'. apply V'. intros e c Hc ->. apply (Hs' b e c eq_refl Hc). cbn. lia.
  - cbn [apply_boundary]. destruct (multi_step ms st ds t U Ns Ni K) as (st' & ds' & ms' & E & U' & P' & Hk & Hs & Hd & K' & V & V'). rewrite E. cbn [obound fst snd]. exists st', (BMultiHomogeneous ds' ms').
    split; [reflexivity|]. split; [exact U'|]. split; [exact P'|].
    assert (Es : map mb_set ms' = map mb_set ms) by (apply (f_equal (map (fun x => snd (fst x)))) in Hk; rewrite !map_map in Hk; exact Hk).
    assert (Ei : map mb_idx ms' = map mb_idx ms) by (apply (f_equal (map (fun x => fst (fst x)))) in Hk; rewrite !map_map in Hk; exact Hk).
    split; [constructor; [rewrite Es; exact Ns|rewrite Ei; exact Ni|exact K']|]. split; [split; apply meant_multi; congruence|]. split; [split; apply forced_multi; congruence|]. split; [reflexivity|]. split; [exact V|].
    intros s Hb. apply V'. intros b e k Es' Hk' Hin. apply (Hb b e k Es' Hk'). apply in_map_iff in Hin. destruct Hin as (m & Em & Im). exists m. auto.
Qed.

(** ** Lemmas: whole histories *)
Lemma same_params st st' : params st' = params st -> r_owned st' = r_owned st /\ r_regions st' = r_regions st.
Proof. intros P. unfold params in P. injection P. intros. split; assumption. Qed.
Lemma whole_domain_params st st' : params st' = params st -> whole_domain st -> whole_domain st'.
Proof. intros P (g & H1 & H2 & H3). destruct (same_params _ _ P) as (Eo & Er). exists g. rewrite Er, Eo. auto. Qed.
Lemma mok_params st st' ds m : params st' = params st -> mok st ds m -> mok st' ds m.
Proof. intros P (ne & l & i & c & p & H1 & H2 & H3 & H4 & H5 & H6 & H7). exists ne, l, i, c, p. repeat (split; [assumption|]). eapply dirichlet_params; eassumption. Qed.
Lemma bnd_ok_params st st' prev b : params st' = params st -> bnd_ok st prev b -> bnd_ok st' prev b.
Proof.
  intros P K. destruct K as [|l interp cur p ne idx values Hl Hi L C D|fs u ne idx values Hs L Lm M G D|ds ms Ns Ni K]; constructor; auto.
  - intros N. destruct (D N) as (b & E & D'). exists b. split; [exact E|]. eapply dirichlet_params; eassumption.
  - intros N. destruct (D N) as (b & E & D'). exists b. split; [exact E|]. eapply dirichlet_params; eassumption.
  - intros m Hm. eapply mok_params; eauto.
Qed.
Lemma apply_step st src b prev t : set_up st -> (src = SUnset \/ whole_domain st) -> src_ok (r_owned st) prev src -> bnd_ok st prev b -> (uses_files src \/ buses_files b -> follows prev t) ->
  exists st' src' b', RDyApplyForcing st src b t = Ok (st', (src', b')) /\ set_up st' /\ params st' = params st /\ (src' = SUnset \/ whole_domain st') /\ src_ok (r_owned st') (Some t) src' /\ bnd_ok st' (Some t) b' /\
    (uses_files src' \/ buses_files b' <-> uses_files src \/ buses_files b) /\
    (forall t' cell v, meant_source src' t' cell v <-> meant_source src t' cell v) /\ (forall t' i e k v, meant_boundary b' t' i e k v <-> meant_boundary b t' i e k v) /\
    (forall i, forced b' i <-> forced b i) /\ (src' = SUnset <-> src = SUnset) /\
    (forall cell v, cell < r_owned st -> meant_source src t cell v -> value st' (Source cell 0) = Some v) /\
    (forall i e k v, meant_boundary b t i e k v -> value st' (BoundaryValue i e k) = Some v) /\
    (forall s, (src = SUnset \/ forall cell, s <> Source cell 0) -> (forall i e k, s = BoundaryValue i e k -> k < 3 -> ~ forced b i) -> value st' s = value st s).
Proof.
  intros U W K B F. destruct (source_step st src prev t U W K ltac:(tauto)) as (st1 & src' & E1 & U1 & P1 & K1 & M1 & F1 & N1 & V1 & V1').
  destruct (boundary_apply st1 b prev t U1 (bnd_ok_params _ _ _ _ P1 B) ltac:(tauto)) as (st2 & b' & E2 & U2 & P2 & K2 & M2 & Fo & F2 & V2 & V2').
  exists st2, src', b'. unfold RDyApplyForcing. rewrite E1. cbn [obound fst snd]. rewrite E2. cbn [obound fst snd]. split; [reflexivity|]. split; [exact U2|]. split; [congruence|].
  split. { destruct W as [W|W]; [left; apply N1; exact W|right]. apply (whole_domain_params st); [congruence|exact W]. }
  split. { destruct (same_params _ _ P2) as (-> & _). destruct (same_params _ _ P1) as (-> & _). exact K1. }
  split. { eapply bnd_ok_params; eassumption. }
  split; [tauto|]. split; [exact M1|]. split; [exact M2|]. split; [exact Fo|]. split; [exact N1|]. split.
  - intros cell v Hc Hv. rewrite V2'; [apply V1; assumption|]. intros; discriminate.
  - split; [exact V2|]. intros s Hs Hb. rewrite V2' by exact Hb. apply V1'. exact Hs.
Qed.
Lemma run_spec : forall times st src b prev t, set_up st -> (src = SUnset \/ whole_domain st) -> src_ok (r_owned st) prev src -> bnd_ok st prev b ->
  (uses_files src \/ buses_files b -> in_step prev (times ++ [t])) ->
  exists st' src' b', apply_forcing_at st src b (times ++ [t]) = Ok (st', (src', b')) /\ set_up st' /\ params st' = params st /\
    (forall cell v, cell < r_owned st -> meant_source src t cell v -> value st' (Source cell 0) = Some v) /\
    (forall i e k v, meant_boundary b t i e k v -> value st' (BoundaryValue i e k) = Some v) /\
    (forall s, (src = SUnset \/ forall cell, s <> Source cell 0) -> (forall i e k, s = BoundaryValue i e k -> k < 3 -> ~ forced b i) -> value st' s = value st s).
Proof.
  induction times as [|a times IH]; intros st src b prev t U W K B F.
  - cbn [app] in F |- *. cbn [apply_forcing_at]. destruct (apply_step st src b prev t U W K B) as (st' & src' & b' & E & U' & P' & _ & _ & _ & _ & _ & _ & _ & _ & V1 & V2 & V3). { intros X. destruct (F X) as (Y & _). exact Y. }
    rewrite E. cbn [obound fst snd]. exists st', src', b'. auto 10.
  - cbn [app] in F |- *. cbn [apply_forcing_at]. destruct (apply_step st src b prev a U W K B) as (st1 & src1 & b1 & E & U1 & P1 & W1 & K1 & B1 & Fu & Ms & Mb & Fo & Nu & _ & _ & V). { intros X. destruct (F X) as (Y & _). exact Y. }
    rewrite E. cbn [obound fst snd]. destruct (IH st1 src1 b1 (Some a) t U1 W1 K1 B1) as (st' & src' & b' & E' & U' & P' & V1 & V2 & V3). { intros X. apply Fu in X. destruct (F X) as (_ & Y). exact Y. }
    exists st', src', b'. split; [exact E'|]. split; [exact U'|]. split; [congruence|]. destruct (same_params _ _ P1) as (Eo & _). rewrite Eo in V1. split.
    + intros cell v Hc Hv. apply V1; [exact Hc|]. apply Ms. exact Hv.
    + split; [intros i e k v Hv; apply V2; apply Mb; exact Hv|]. intros s Hs Hb. rewrite V3.
      * apply V; assumption.
      * destruct Hs as [->|Hs]; [left; apply Nu; reflexivity|right; exact Hs].
      * intros i e k Es Hk Hf. apply (Hb i e k Es Hk). apply Fo. exact Hf.
Qed.

(** ** Lemmas: what is created *)
Lemma cached_new l interp arr values : cached l interp (-1) arr values.
Proof. right. left. reflexivity. Qed.
Lemma raster_map_range ncols nrows x y s mesh i : ncols <> 0 -> nrows <> 0 -> In i (RDyForcingCreateRasterDatasetMapping ncols nrows x y s mesh) -> i < nrows * ncols.
Proof.
  intros Hc Hr Hi. unfold RDyForcingCreateRasterDatasetMapping in Hi. apply in_map_iff in Hi. destruct Hi as (c & <- & _).
  destruct (raster_loop_spec (fst c) (snd c) (raster_points ncols nrows x y s) 0 (raster_limit ncols nrows s) 0) as [(-> & _)|(k & p & -> & Hk & _)].
  - apply Nat.mul_pos_pos; lia.
  - rewrite <- (raster_points_length ncols nrows x y s). apply nth_error_Some. cbn. congruence.
Qed.
Lemma of_option_ret {A} (o : option A) r : of_option o = Ret r -> o = Some r.
Proof. destruct o; cbn; congruence. Qed.
Lemma open_raster fs mesh r : OpenRaster fs mesh = Ret r -> exists d, fs 0 = Some d /\ ra_file r = Hourly d 1 /\
  ra_map r = RDyForcingCreateRasterDatasetMapping (Z.to_nat (ra_ncols r)) (Z.to_nat (ra_nrows r)) (ra_xlc r) (ra_ylc r) (ra_cellsize r) mesh.
Proof.
  unfold OpenRaster. destruct (fs 0) as [d|]; [|discriminate]. intros H. apply of_option_ret in H. exists d. split; [reflexivity|].
  destruct (nth_error d 0) as [c|]; [|discriminate]. cbn [obind] in H. destruct (int_of c) as [c'|]; [|discriminate]. cbn [obind] in H. destruct (nth_error d 1) as [n|]; [|discriminate]. cbn [obind] in H. destruct (int_of n) as [n'|]; [|discriminate]. cbn [obind] in H.
  destruct (nth_error d 2) as [x|]; [|discriminate]. destruct (nth_error d 3) as [y|]; [|discriminate]. destruct (nth_error d 4) as [s|]; [|discriminate]. cbn [obind] in H. injection H as <-. split; reflexivity.
Qed.
Lemma open_unstructured fs str mesh_file mesh u pts : OpenUnstructured fs str mesh_file mesh = Ret u -> ReadUnstructuredDatasetCoordinates mesh_file = Ret pts -> pts <> [] ->
  exists d, fs 0 = Some d /\ un_file u = Hourly d 1 /\ un_stride u = Z.to_nat str /\ length (un_map u) = length mesh /\ (forall i, In i (un_map u) -> i < length pts) /\ RDyForcingCreateUnstructuredDatasetMap pts mesh = Some (un_map u).
Proof.
  intros H Hp Np. unfold OpenUnstructured in H. destruct (fs 0) as [d|]; [|discriminate]. exists d. split; [reflexivity|].
  destruct (of_option (let* n := nth_error d 0 in int_of n)) as [n| |]; try discriminate. cbn [rbind] in H. destruct (of_option (let* n := nth_error d 1 in int_of n)) as [s| |]; try discriminate. cbn [rbind] in H.
  destruct (Z.eqb s 0); [discriminate|]. unfold check in H. destruct (Z.eqb (Z.quot (Z.of_nat (length d) - 2) s) n); [|discriminate]. destruct (Z.eqb_spec s str) as [Estr|]; [|discriminate]. rewrite Estr, Hp in H. cbn [rbind] in H.
  destruct (C45_unstructured_nearest pts mesh Np) as (m & Em & Lm & Hm). rewrite Em in H. cbn [of_option rbind] in H. injection H as <-. cbn [un_file un_stride un_map]. repeat (split; [solve [reflexivity|exact Lm]|]). split; [|exact Em].
  intros i Hi. apply In_nth_error in Hi. destruct Hi as (j & Hj). assert (Lj : j < length mesh) by (rewrite <- Lm; apply nth_error_Some; congruence).
  destruct (nth_error mesh j) as [c|] eqn:Ec; [|apply nth_error_None in Ec; lia]. destruct (Hm j c Ec) as (k & Ek & p & Hk & _). assert (k = i) by congruence. subst k. apply nth_error_Some. congruence.
Qed.
Lemma created_source_ok st src : created_source st src -> src_ok (r_owned st) None src.
Proof.
  intros K. destruct K as [|rate|l interp Hl Hi|fs r mesh Ho Lm Hn Hc G|fs u mf mesh pts Ho Lm Hp Np G].
  - constructor.
  - constructor. apply repeat_length.
  - unfold RDyForcingOpenHomogeneousDataset. rewrite num_samples_interleaved. constructor; auto; [apply repeat_length|apply cached_new].
  - destruct (open_raster _ _ _ Ho) as (d & Ed & Ef & Em). constructor; [apply repeat_length|rewrite Em; unfold RDyForcingCreateRasterDatasetMapping; rewrite map_length; exact Lm| |].
    + intros _. rewrite Ef. split; [reflexivity|exact Ed].
    + intros k. destruct (G k) as (d' & Ed' & Hh & Ld). exists d'. split; [exact Ed'|]. split; [exact Hh|]. intros i Hi. rewrite Em in Hi. apply raster_map_range in Hi; lia.
  - destruct (open_unstructured _ _ _ _ _ _ Ho Hp Np) as (d & Ed & Ef & Es & Lu & Ru & _). constructor; [exact Es|apply repeat_length|congruence| |].
    + intros _. rewrite Ef. split; [reflexivity|exact Ed].
    + intros k. destruct (G k) as (d' & Ed' & Ld). exists d'. split; [exact Ed'|]. intros i Hi. apply Ru in Hi. lia.
Qed.
Lemma is_dirichlet_iff ty : is_dirichlet ty = true <-> ty = CONDITION_DIRICHLET.
Proof. destruct ty; cbn; intuition discriminate. Qed.
Lemma find_dirichlet_spec : forall bcs ibc idx n mult idx' n', find_dirichlet bcs ibc (idx, n, mult) = (idx', n', false) ->
  mult = false /\
  ((idx' = idx /\ n' = n /\ forall i x, nth_error bcs i = Some x -> fst x <> CONDITION_DIRICHLET) \/
   (idx = (-1)%Z /\ exists i, idx' = Z.of_nat (ibc + i) /\ nth_error bcs i = Some (CONDITION_DIRICHLET, n') /\ forall j x, nth_error bcs j = Some x -> fst x = CONDITION_DIRICHLET -> j = i)).
Proof.
  induction bcs as [|(ty, ne) t IH]; intros ibc idx n mult idx' n' H; cbn [find_dirichlet] in H.
  - injection H as -> -> ->. split; [reflexivity|]. left. split; [reflexivity|]. split; [reflexivity|]. intros [|i] x; discriminate.
  - destruct (is_dirichlet ty) eqn:Ty.
    + apply is_dirichlet_iff in Ty. subst ty. apply IH in H. destruct H as (Hm & H). apply Bool.orb_false_elim in Hm. destruct Hm as (-> & Hi). apply Bool.negb_false_iff, Z.eqb_eq in Hi. split; [reflexivity|]. right. split; [exact Hi|].
      destruct H as [(-> & -> & H)|(H & _)]; [|lia]. exists 0. split; [f_equal; lia|]. split; [reflexivity|]. intros [|j] x Hx E; [reflexivity|]. exfalso. exact (H j x Hx E).
    + apply IH in H. destruct H as (-> & H). split; [reflexivity|]. assert (N : ty <> CONDITION_DIRICHLET) by (intros E; apply is_dirichlet_iff in E; congruence).
      destruct H as [(-> & -> & H)|(-> & i & -> & Hi & H)].
      * left. split; [reflexivity|]. split; [reflexivity|]. intros [|i] x; cbn; [intros [= <-]; exact N|apply H].
      * right. split; [reflexivity|]. exists (S i). split; [f_equal; lia|]. split; [exact Hi|]. intros [|j] x; cbn; [intros [= <-] E; contradiction|]. intros Hx E. f_equal. eauto.
Qed.
(* a single forcing record: the one Dirichlet boundary *)
Theorem C62_single_boundary : forall bcs idx n, FindDirichletBCID bcs = (idx, n, false) ->
  (idx = (-1)%Z /\ n = 0 /\ forall i ty ne, nth_error bcs i = Some (ty, ne) -> ty <> CONDITION_DIRICHLET) \/
  (exists i, idx = Z.of_nat i /\ nth_error bcs i = Some (CONDITION_DIRICHLET, n) /\ forall j ne, nth_error bcs j = Some (CONDITION_DIRICHLET, ne) -> j = i).
Proof.
  intros bcs idx n H. destruct (find_dirichlet_spec _ _ _ _ _ _ _ H) as (_ & [(-> & -> & N)|(_ & i & -> & Hi & N)]).
  - left. split; [reflexivity|]. split; [reflexivity|]. intros i ty ne Hx E. exact (N i _ Hx E).
  - right. exists i. split; [reflexivity|]. split; [exact Hi|]. intros j ne Hj. exact (N j _ Hj eq_refl).
Qed.
Print Assumptions C62_single_boundary.
Lemma find_dirichlet_multiple : forall bcs ibc idx n mult idx' n', find_dirichlet bcs ibc (idx, n, mult) = (idx', n', true) -> (0 <= Z.of_nat ibc)%Z ->
  mult = true \/ (idx <> (-1)%Z /\ exists i ne, nth_error bcs i = Some (CONDITION_DIRICHLET, ne)) \/ (exists i j a b, i <> j /\ nth_error bcs i = Some (CONDITION_DIRICHLET, a) /\ nth_error bcs j = Some (CONDITION_DIRICHLET, b)).
Proof.
  induction bcs as [|(ty, ne) t IH]; intros ibc idx n mult idx' n' H P; cbn [find_dirichlet] in H; [left; congruence|]. destruct (is_dirichlet ty) eqn:Ty.
  - apply is_dirichlet_iff in Ty. subst ty. apply IH in H; [|lia]. destruct H as [H|[(_ & i & a & Hi)|(i & j & a & b & N & Hi & Hj)]].
    + apply Bool.orb_true_iff in H. destruct H as [H|H]; [left; exact H|]. apply Bool.negb_true_iff, Z.eqb_neq in H. right. left. split; [exact H|]. exists 0, ne. reflexivity.
    + right. right. exists 0, (S i), ne, a. auto.
    + right. right. exists (S i), (S j), a, b. auto.
  - apply IH in H; [|lia]. destruct H as [H|[(N & i & a & Hi)|(i & j & a & b & N & Hi & Hj)]]; [left; exact H|right; left|right; right].
    + split; [exact N|]. exists (S i), a. exact Hi.
    + exists (S i), (S j), a, b. auto.
Qed.
(* two Dirichlet boundaries, and only two, are too many for a single record *)
Theorem C62_single_boundary_rejected : forall bcs global, DoPostprocessForBoundaryDataset bcs global = None ->
  (global < 0)%Z \/ exists i j a b, i <> j /\ nth_error bcs i = Some (CONDITION_DIRICHLET, a) /\ nth_error bcs j = Some (CONDITION_DIRICHLET, b).
Proof.
  intros bcs global H. unfold DoPostprocessForBoundaryDataset in H. destruct (FindDirichletBCID bcs) as ((idx, ne), []) eqn:E.
  - right. apply find_dirichlet_multiple in E; [|lia]. destruct E as [E|[(E & _)|E]]; [discriminate|contradiction|exact E].
  - destruct (Z.ltb_spec (-1) global); [discriminate|]. left. lia.
Qed.
Print Assumptions C62_single_boundary_rejected.
Lemma find_id_spec ids id : forall j0 j, find_id ids id j0 = Some j -> exists i, j = j0 + i /\ nth_error ids i = Some id /\ forall k, k < i -> nth_error ids k <> Some id.
Proof.
  induction ids as [|a t IH]; intros j0 j H; cbn [find_id] in H; [discriminate|]. destruct (Z.eqb_spec id a) as [->|N].
  - injection H as <-. exists 0. split; [lia|]. split; [reflexivity|]. intros k Hk. lia.
  - apply IH in H. destruct H as (i & -> & Hi & F). exists (S i). split; [lia|]. split; [exact Hi|]. intros [|k] Hk; cbn; [congruence|]. apply F. lia.
Qed.
(* the entry of a boundary: [i] its index, [ne] its edges, [id] its id; the first record with this id *)
Definition entry_of (ids : list Z) (i ne : nat) (id : Z) (m : multi_bc) : Prop :=
  mb_idx m = i /\ mb_n m = ne * 3 /\ mb_values m = repeat None (ne * 3) /\ nth_error ids (mb_set m) = Some id /\ forall k, k < mb_set m -> nth_error ids k <> Some id.
Lemma match_dirichlet_spec ids : forall bcs i0 ms, match_dirichlet ids bcs i0 = Some ms ->
  NoDup (map mb_idx ms) /\ (forall m, In m ms -> exists i ne id, nth_error bcs i = Some (CONDITION_DIRICHLET, ne, id) /\ entry_of ids (i0 + i) ne id m) /\
  (forall i ne id, nth_error bcs i = Some (CONDITION_DIRICHLET, ne, id) -> exists m, In m ms /\ entry_of ids (i0 + i) ne id m).
Proof.
  induction bcs as [|((ty, ne), id) t IH]; intros i0 ms H; cbn [match_dirichlet] in H.
  - injection H as <-. split; [constructor|]. split; [intros m []|]. intros [|i]; discriminate.
  - destruct (is_dirichlet ty) eqn:Ty.
    + apply is_dirichlet_iff in Ty. subst ty. destruct (find_id ids id 0) as [j|] eqn:Ej; [|discriminate]. cbn [obind] in H. destruct (match_dirichlet ids t (S i0)) as [r|] eqn:Er; [|discriminate]. cbn [obind] in H. injection H as <-.
      destruct (IH _ _ Er) as (N & A & B). apply find_id_spec in Ej. destruct Ej as (j' & -> & Hj & Fj). cbn [Nat.add].
      assert (E0 : entry_of ids i0 ne id (MultiBC i0 j' (ne * 3) (repeat None (ne * 3)))) by (unfold entry_of; cbn; auto).
      split; [cbn [map mb_idx]; constructor; [|exact N]|split].
      * intros X. apply in_map_iff in X. destruct X as (m & Em & Im). destruct (A m Im) as (i & ne' & id' & _ & Ei & _). lia.
      * intros m [<-|Im]; [exists 0, ne, id; rewrite Nat.add_0_r; auto|]. destruct (A m Im) as (i & ne' & id' & Hi & En). exists (S i), ne', id'. rewrite Nat.add_succ_r. auto.
      * intros [|i] ne' id'; cbn [nth_error]; [intros [= <- <-]; rewrite Nat.add_0_r; eexists; split; [left; reflexivity|exact E0]|]. intros Hi. destruct (B i ne' id' Hi) as (m & Im & En). exists m. rewrite Nat.add_succ_r. split; [right; exact Im|exact En].
    + destruct (IH _ _ H) as (N & A & B). split; [exact N|]. split.
      * intros m Im. destruct (A m Im) as (i & ne' & id' & Hi & En). exists (S i), ne', id'. rewrite Nat.add_succ_r. auto.
      * intros [|i] ne' id'; cbn [nth_error]; [intros [= -> _ _]; discriminate|]. intros Hi. destruct (B i ne' id' Hi) as (m & Im & En). exists m. rewrite Nat.add_succ_r. auto.
Qed.
(* several records: each Dirichlet boundary, and nothing else, is given the first record with its id *)
Theorem C62_matched_boundaries : forall ids bcs ms, match_dirichlet ids bcs 0 = Some ms ->
  (forall m, In m ms -> exists i ne id, nth_error bcs i = Some (CONDITION_DIRICHLET, ne, id) /\ entry_of ids i ne id m) /\
  (forall i ne id, nth_error bcs i = Some (CONDITION_DIRICHLET, ne, id) -> exists m, In m ms /\ entry_of ids i ne id m) /\ NoDup (map mb_idx ms).
Proof. intros ids bcs ms H. destruct (match_dirichlet_spec ids bcs 0 ms H) as (N & A & B). auto. Qed.
Print Assumptions C62_matched_boundaries.
Lemma find_id_none ids id : forall j0, find_id ids id j0 = None -> ~ In id ids.
Proof. induction ids as [|a t IH]; intros j0 H; [auto|]. cbn [find_id] in H. destruct (Z.eqb_spec id a) as [|N]; [discriminate|]. intros [E|E]; [congruence|]. exact (IH _ H E). Qed.
(* it is an error if there is none, and only then *)
Theorem C62_unmatched_boundary : forall ids bcs, match_dirichlet ids bcs 0 = None <-> exists i ne id, nth_error bcs i = Some (CONDITION_DIRICHLET, ne, id) /\ ~ In id ids.
Proof.
  intros ids bcs. generalize 0 at 1. induction bcs as [|((ty, ne), id) t IH]; intros i0; cbn [match_dirichlet].
  - split; [discriminate|]. intros ([|i] & ? & ? & ? & _); discriminate.
  - destruct (is_dirichlet ty) eqn:Ty.
    + apply is_dirichlet_iff in Ty. subst ty. destruct (find_id ids id 0) as [j|] eqn:Ej; cbn [obind].
      * apply find_id_spec in Ej. destruct Ej as (j' & _ & Hj & _). destruct (IH (S i0)) as (I1 & I2). destruct (match_dirichlet ids t (S i0)) as [r|]; cbn [obind]; split; try discriminate; try reflexivity.
        -- intros ([|i] & ne' & id' & Hi & Hn); cbn [nth_error] in Hi. { injection Hi as <- <-. exfalso. apply Hn. eapply nth_error_In; eassumption. } discriminate I2. eauto.
        -- intros _. destruct (I1 eq_refl) as (i & ne' & id' & Hi & Hn). exists (S i), ne', id'. auto.
      * split; [|reflexivity]. intros _. exists 0, ne, id. split; [reflexivity|]. eapply find_id_none; eassumption.
    + rewrite IH. split.
      * intros (i & ne' & id' & Hi & Hn). exists (S i), ne', id'. auto.
      * intros ([|i] & ne' & id' & Hi & Hn); [injection Hi as -> _ _; discriminate|]. exists i, ne', id'. auto.
Qed.
Print Assumptions C62_unmatched_boundary.

Lemma nth_combine {A B} : forall (l : list A) (m : list B) i p, nth_error (combine l m) i = Some p -> nth_error l i = Some (fst p) /\ nth_error m i = Some (snd p).
Proof. induction l as [|a l IH]; intros [|b m] [|i] p; cbn; intros H; try discriminate; [injection H as <-; auto|]. apply IH. exact H. Qed.
Lemma boundaries_nth st bcs b ne id : boundaries_of st = Some bcs -> nth_error bcs b = Some (CONDITION_DIRICHLET, ne, id) -> dirichlet st b ne.
Proof.
  intros H Hb. rewrite (omap_nth _ _ _ H) in Hb. destruct (nth_error (combine (r_boundaries st) (r_conds st)) b) as [p|] eqn:Ep; [|discriminate]. cbn [obind] in Hb. destruct (bc_flow (snd p)) as [ty|] eqn:Et; [|discriminate]. cbn [obind] in Hb.
  injection Hb as -> <- _. apply nth_combine in Ep. destruct Ep as (E1 & E2). exists (fst p), (snd p). auto.
Qed.
Lemma postprocess_spec st bcs global idx n values : boundaries_of st = Some bcs -> same_index bcs global -> DoPostprocessForBoundaryDataset (map fst bcs) global = Some (idx, n, values) ->
  exists ne, n = ne * 3 /\ length values = ne * 3 /\ (ne <> 0 -> exists b, idx = Z.of_nat b /\ dirichlet st b ne).
Proof.
  intros Hb S H. unfold DoPostprocessForBoundaryDataset in H. destruct (FindDirichletBCID (map fst bcs)) as ((i, ne), m) eqn:E. destruct m; [discriminate|]. destruct (Z.ltb_spec (-1) global); [|discriminate]. injection H as <- <- <-.
  exists ne. split; [reflexivity|]. split; [apply repeat_length|]. intros N. destruct (C62_single_boundary _ _ _ E) as [(_ & X & _)|(b & Ei & Hi & _)]; [contradiction|]. exists b.
  destruct (S _ _ _ E) as [X|X]; [lia|]. split; [congruence|]. rewrite nth_error_map in Hi. destruct (nth_error bcs b) as [((ty, ne'), id)|] eqn:Eb; [|discriminate]. cbn in Hi. injection Hi as -> ->. eapply boundaries_nth; eassumption.
Qed.
Lemma created_boundary_ok st b : created_boundary st b -> bnd_ok st None b.
Proof.
  intros K. destruct K as [|l interp bcs global n idx values Hl Hi Hb S Hp|fs u mf mesh pts bcs global n idx values Hb S Hp Ho Hn Hc Np G|ls ids bcs ms Hl Hi Hb N Hm].
  - constructor.
  - destruct (postprocess_spec _ _ _ _ _ _ Hb S Hp) as (ne & -> & L & D). unfold RDyForcingOpenHomogeneousDataset. rewrite num_samples_interleaved. constructor; auto. apply cached_new.
  - destruct (postprocess_spec _ _ _ _ _ _ Hb S Hp) as (ne & -> & L & D). destruct (open_unstructured _ _ _ _ _ _ Ho Hc Np) as (d & Ed & Ef & Es & Lu & Ru & _). constructor; auto; [lia| |].
    + intros _. rewrite Ef. split; [reflexivity|exact Ed].
    + intros k. destruct (G k) as (d' & Ed' & Ld). exists d'. split; [exact Ed'|]. intros i ii Hin Hii. apply Ru in Hin. lia.
  - destruct (match_dirichlet_spec ids bcs 0 ms Hm) as (Ni & A & B). constructor; [|exact Ni|].
    + rewrite <- (map_id ms) in Ni. apply NoDup_nth_error. intros i j Hij E. rewrite map_length in Hij. rewrite !nth_error_map in E. destruct (nth_error ms i) as [mi|] eqn:Ei; [|apply nth_error_None in Ei; lia]. destruct (nth_error ms j) as [mj|] eqn:Ej; [|discriminate]. cbn in E. injection E as E.
      destruct (A mi (nth_error_In _ _ Ei)) as (bi & nei & idi & Hbi & X1 & _ & _ & X2 & _). destruct (A mj (nth_error_In _ _ Ej)) as (bj & nej & idj & Hbj & Y1 & _ & _ & Y2 & _). rewrite E in X2. assert (idi = idj) by congruence. subst idj.
      assert (bi = bj). { apply (proj1 (NoDup_nth_error (map snd bcs)) N). { rewrite map_length. apply nth_error_Some. congruence. } rewrite !nth_error_map, Hbi, Hbj. reflexivity. }
      apply (proj1 (NoDup_nth_error (map mb_idx (map (fun x => x) ms))) Ni); [rewrite !map_length; lia|]. rewrite map_id, !nth_error_map, Ei, Ej. cbn. congruence.
    + intros m Im. destruct (A m Im) as (i & ne & id & Hi' & X1 & X2 & X3 & X4 & _). assert (Lm : mb_set m < length ls) by (rewrite <- Hi; apply nth_error_Some; congruence).
      destruct (nth_error ls (mb_set m)) as [l|] eqn:El; [|apply nth_error_None in El; lia]. destruct (Hl l (nth_error_In _ _ El)) as (Nl & Il). exists ne, (fst l), (snd l). eexists. exists (-1)%Z. split; [exact X2|]. split; [rewrite X3; apply repeat_length|].
      split; [rewrite nth_error_map, El; cbn [option_map]; unfold RDyForcingOpenHomogeneousDataset; rewrite num_samples_interleaved; reflexivity|]. split; [exact Nl|]. split; [exact Il|]. split; [apply cached_new|].
      rewrite X1. eapply boundaries_nth; eassumption.
Qed.

(** ** C62: the forcing reaches the cells and edges it is for, and nothing else *)
(* After any history of applications, the last one at time [t]: the water source of every owned cell is
   the one prescribed for [t], the values on every forced boundary are the ones prescribed for [t], nothing
   else has changed.  Missing for the full property: one region with ID 1 must be the whole domain, and rain
   given region by region is left out (see the refutations below); hourly files need [in_step] (C47). *)
Theorem C62_forcing_partial : forall st src b times t, set_up st -> created_source st src -> created_boundary st b -> (src = SUnset \/ whole_domain st) ->
  (uses_files src \/ buses_files b -> in_step None (times ++ [t])) ->
  exists st' r, apply_forcing_at st src b (times ++ [t]) = Ok (st', r) /\
    (forall cell v, cell < r_owned st -> meant_source src t cell v -> value st' (Source cell 0) = Some v) /\
    (forall i e k v, meant_boundary b t i e k v -> value st' (BoundaryValue i e k) = Some v) /\
    (forall s, (src = SUnset \/ forall cell, s <> Source cell 0) -> (forall i e k, s = BoundaryValue i e k -> k < 3 -> ~ forced b i) -> value st' s = value st s).
Proof.
  intros st src b times t U Hs Hb W F. destruct (run_spec times st src b None t U W (created_source_ok _ _ Hs) (created_boundary_ok _ _ Hb) F) as (st' & src' & b' & E & _ & _ & V1 & V2 & V3). exists st', (src', b'). auto.
Qed.
Print Assumptions C62_forcing_partial.

(** ** C46: the values kept between applications are never stale *)
(* Rain from one record: whatever the earlier applications were, every cell has the value of the record at [t]. *)
Theorem C46_homogeneous_rain : forall st l interp times t v, set_up st -> whole_domain st -> l <> [] -> increasing l -> sampled l interp t v ->
  exists st' r, apply_forcing_at st (SHomogeneous (RDyForcingOpenHomogeneousDataset (interleaved l) interp) (r_owned st) (repeat (Some 0%R) (r_owned st))) BUnset (times ++ [t]) = Ok (st', r) /\
    forall cell, cell < r_owned st -> value st' (Source cell 0) = Some v.
Proof.
  intros st l interp times t v U W Hl Hi Hv. edestruct (C62_forcing_partial st) as (st' & r & E & V & _); [exact U|constructor 3; eassumption|constructor|right; exact W|intros [[]|[]]|]. exists st', r. split; [exact E|].
  intros cell Hc. apply V; [exact Hc|]. exists l. auto.
Qed.
Print Assumptions C46_homogeneous_rain.
(* Water height on the one Dirichlet boundary: still water of the height of the record at [t]. *)
Theorem C46_homogeneous_boundary : forall st l interp bcs global n idx values times t h, set_up st -> l <> [] -> increasing l -> boundaries_of st = Some bcs -> same_index bcs global ->
  DoPostprocessForBoundaryDataset (map fst bcs) global = Some (idx, n, values) -> sampled l interp t h ->
  exists st' r, apply_forcing_at st SUnset (BHomogeneous (RDyForcingOpenHomogeneousDataset (interleaved l) interp) n idx values) (times ++ [t]) = Ok (st', r) /\
    (forall b e, nth_error bcs b <> None -> Z.of_nat b = idx -> 3 * e < n -> value st' (BoundaryValue b e 0) = Some h /\ value st' (BoundaryValue b e 1) = Some 0%R /\ value st' (BoundaryValue b e 2) = Some 0%R).
Proof.
  intros st l interp bcs global n idx values times t h U Hl Hi Hb S Hp Hh. edestruct (C62_forcing_partial st) as (st' & r & E & _ & V & _); [exact U|constructor|eapply bcreated_homogeneous; eassumption|left; reflexivity|intros [[]|[]]|]. exists st', r. split; [exact E|].
  intros b e _ Eb He. assert (G : forall k v, still_water h k = Some v -> value st' (BoundaryValue b e k) = Some v). { intros k v Hk. apply V. split; [exact Eb|]. split; [exact He|]. exists l, h. auto. }
  split; [|split]; apply G; reflexivity.
Qed.
Print Assumptions C46_homogeneous_boundary.
(* Several records: on every Dirichlet boundary, still water of the height at [t] of the first record with its id. *)
Theorem C46_multiple_boundaries : forall st (ls : list (list (R * R) * bool)) ids bcs ms times t, set_up st -> (forall l, In l ls -> fst l <> [] /\ increasing (fst l)) -> length ids = length ls ->
  boundaries_of st = Some bcs -> NoDup (map snd bcs) -> match_dirichlet ids bcs 0 = Some ms ->
  exists st' r, apply_forcing_at st SUnset (BMultiHomogeneous (map (fun l => RDyForcingOpenHomogeneousDataset (interleaved (fst l)) (snd l)) ls) ms) (times ++ [t]) = Ok (st', r) /\
    (forall b ne id j l h e, nth_error bcs b = Some (CONDITION_DIRICHLET, ne, id) -> nth_error ids j = Some id -> (forall k, k < j -> nth_error ids k <> Some id) -> nth_error ls j = Some l -> sampled (fst l) (snd l) t h -> e < ne ->
      value st' (BoundaryValue b e 0) = Some h /\ value st' (BoundaryValue b e 1) = Some 0%R /\ value st' (BoundaryValue b e 2) = Some 0%R).
Proof.
  intros st ls ids bcs ms times t U Hl Hi Hb N Hm. edestruct (C62_forcing_partial st) as (st' & r & E & _ & V & _); [exact U|constructor|eapply bcreated_multi; eassumption|left; reflexivity|intros [[]|[]]|]. exists st', r. split; [exact E|].
  intros b ne id j l h e Eb Ej Fj El Hh He. destruct (C62_matched_boundaries _ _ _ Hm) as (_ & B & _). destruct (B b ne id Eb) as (m & Im & X1 & X2 & _ & X4 & X5).
  assert (mb_set m = j). { destruct (Nat.lt_trichotomy (mb_set m) j) as [L|[L|L]]; [exfalso; exact (Fj _ L X4)|exact L|exfalso; exact (X5 _ L Ej)]. }
  assert (G : forall k v, still_water h k = Some v -> value st' (BoundaryValue b e k) = Some v).
  { intros k v Hk. apply V. cbn [meant_boundary]. exists m. eexists. exists (fst l), h. split; [exact Im|]. split; [exact X1|]. split; [lia|]. split; [rewrite H, nth_error_map, El; reflexivity|]. cbn [RDyForcingOpenHomogeneousDataset h_data h_interp]. auto. }
  split; [|split]; apply G; reflexivity.
Qed.
Print Assumptions C46_multiple_boundaries.

(** ** C47: hourly files *)
(* Rain on a raster, in mm/h: if the applications keep step with the hours, every cell has the rain in the file of
   the hour of [t], at the raster cell it is mapped to (C45). *)
Theorem C47_raster_rain_partial : forall st fs r mesh times t k d, set_up st -> whole_domain st -> OpenRaster fs mesh = Ret r -> length mesh = r_owned st -> (0 < ra_nrows r)%Z -> (0 < ra_ncols r)%Z ->
  (forall k, exists d, fs k = Some d /\ same_header r d = Some true /\ length d = Z.to_nat (ra_nrows r) * Z.to_nat (ra_ncols r) + 5) ->
  in_step None (times ++ [t]) -> hour_of t k -> fs k = Some d ->
  exists st' res, apply_forcing_at st (SRaster fs r (r_owned st) (repeat (Some 0%R) (r_owned st))) BUnset (times ++ [t]) = Ok (st', res) /\
    forall cell, cell < r_owned st -> exists idx x, nth_error (RDyForcingCreateRasterDatasetMapping (Z.to_nat (ra_ncols r)) (Z.to_nat (ra_nrows r)) (ra_xlc r) (ra_ylc r) (ra_cellsize r) mesh) cell = Some idx /\
      nth_error d (5 + idx) = Some x /\ value st' (Source cell 0) = Some (x / (1000 * 3600))%R.
Proof.
  intros st fs r mesh times t k d U W Ho Lm Hn Hc G F Hk Hd. edestruct (C62_forcing_partial st) as (st' & res & E & V & _); [exact U|eapply created_raster; eassumption|constructor|right; exact W|intros _; exact F|]. exists st', res. split; [exact E|].
  intros cell Hcell. destruct (open_raster _ _ _ Ho) as (d0 & _ & _ & Em). rewrite <- Em. destruct (nth_error (ra_map r) cell) as [idx|] eqn:Ei.
  - exists idx. assert (Hr : idx < Z.to_nat (ra_nrows r) * Z.to_nat (ra_ncols r)). { apply nth_error_In in Ei. rewrite Em in Ei. apply raster_map_range in Ei; lia. }
    destruct (G k) as (d' & Ed' & _ & Ld). assert (d' = d) by congruence. subst d'. destruct (nth_error d (5 + idx)) as [x|] eqn:Ex; [|apply nth_error_None in Ex; lia]. exists x. split; [reflexivity|]. split; [reflexivity|].
    apply V; [exact Hcell|]. exists k, d, idx, x. auto.
  - exfalso. apply nth_error_None in Ei. rewrite Em in Ei. unfold RDyForcingCreateRasterDatasetMapping in Ei. rewrite map_length in Ei. lia.
Qed.
Print Assumptions C47_raster_rain_partial.
(* Rain at scattered points: the file of the hour of [t], at the nearest point. *)
Theorem C47_unstructured_rain_partial : forall st fs u mesh_file mesh pts times t k d, set_up st -> whole_domain st -> OpenUnstructured fs 1 mesh_file mesh = Ret u -> length mesh = r_owned st ->
  ReadUnstructuredDatasetCoordinates mesh_file = Ret pts -> pts <> [] -> (forall k, exists d, fs k = Some d /\ length d = length pts + 2) ->
  in_step None (times ++ [t]) -> hour_of t k -> fs k = Some d ->
  exists st' res, apply_forcing_at st (SUnstructured fs u (r_owned st) (repeat (Some 0%R) (r_owned st))) BUnset (times ++ [t]) = Ok (st', res) /\
    forall cell c, nth_error mesh cell = Some c -> exists idx x, first_nearest pts (fst c) (snd c) idx /\ nth_error d (2 + idx) = Some x /\ value st' (Source cell 0) = Some x.
Proof.
  intros st fs u mf mesh pts times t k d U W Ho Lm Hp Np G F Hk Hd. edestruct (C62_forcing_partial st) as (st' & res & E & V & _); [exact U|eapply created_unstructured; eassumption|constructor|right; exact W|intros _; exact F|]. exists st', res. split; [exact E|].
  intros cell c Hc. destruct (open_unstructured _ _ _ _ _ _ Ho Hp Np) as (d0 & _ & _ & _ & _ & Ru & Em). destruct (C45_unstructured_nearest pts mesh Np) as (m & Em' & _ & Hm). assert (m = un_map u) by congruence. subst m.
  destruct (Hm cell c Hc) as (idx & Ei & Hf). exists idx. destruct (G k) as (d' & Ed' & Ld). assert (d' = d) by congruence. subst d'. assert (Hr := Ru idx (nth_error_In _ _ Ei)).
  destruct (nth_error d (2 + idx)) as [x|] eqn:Ex; [|apply nth_error_None in Ex; lia]. exists x. split; [exact Hf|]. split; [reflexivity|]. apply V; [rewrite <- Lm; apply nth_error_Some; congruence|]. exists k, d, idx. auto.
Qed.
Print Assumptions C47_unstructured_rain_partial.
(* Height and momentum on the Dirichlet boundary: the same, three values per point. *)
Theorem C47_unstructured_boundary_partial : forall st fs u mesh_file mesh pts bcs global n idx values times t k d, set_up st -> boundaries_of st = Some bcs -> same_index bcs global ->
  DoPostprocessForBoundaryDataset (map fst bcs) global = Some (idx, n, values) -> OpenUnstructured fs 3 mesh_file mesh = Ret u -> n = length mesh * 3 ->
  ReadUnstructuredDatasetCoordinates mesh_file = Ret pts -> pts <> [] -> (forall k, exists d, fs k = Some d /\ length d = length pts * 3 + 2) ->
  in_step None (times ++ [t]) -> hour_of t k -> fs k = Some d ->
  exists st' res, apply_forcing_at st SUnset (BUnstructured fs u n idx values) (times ++ [t]) = Ok (st', res) /\
    forall b e c comp, Z.of_nat b = idx -> nth_error mesh e = Some c -> comp < 3 -> exists p x, first_nearest pts (fst c) (snd c) p /\ nth_error d (2 + (3 * p + comp)) = Some x /\ value st' (BoundaryValue b e comp) = Some x.
Proof.
  intros st fs u mf mesh pts bcs global n idx values times t k d U Hb S Hpp Ho Hn Hp Np G F Hk Hd. edestruct (C62_forcing_partial st) as (st' & res & E & _ & V & _); [exact U|constructor|eapply bcreated_unstructured; eassumption|left; reflexivity|intros _; exact F|]. exists st', res. split; [exact E|].
  intros b e c comp Eb Hc Hcomp. destruct (open_unstructured _ _ _ _ _ _ Ho Hp Np) as (d0 & _ & _ & _ & _ & Ru & Em). destruct (C45_unstructured_nearest pts mesh Np) as (m & Em' & _ & Hm). assert (m = un_map u) by congruence. subst m.
  destruct (Hm e c Hc) as (p & Ei & Hf). exists p. destruct (G k) as (d' & Ed' & Ld). assert (d' = d) by congruence. subst d'. assert (Hr := Ru p (nth_error_In _ _ Ei)).
  destruct (nth_error d (2 + (3 * p + comp))) as [x|] eqn:Ex; [|apply nth_error_None in Ex; lia]. exists x. split; [exact Hf|]. split; [reflexivity|]. apply V. split; [exact Eb|].
  assert (Le : e < length mesh) by (apply nth_error_Some; congruence). split; [lia|]. split; [exact Hcomp|]. exists k, d, p. auto.
Qed.
Print Assumptions C47_unstructured_boundary_partial.
(* Applications at equal intervals of at most one hour, from the start, keep step: k-th application at time k * dt. *)
Theorem C47_regular_intervals : forall dt n, (0 < dt <= 3600)%R -> in_step None (map (fun k => INR k * dt)%R (seq 0 n)).
Proof.
  intros dt n (D0 & D1). assert (G : forall m k, in_step (Some (INR k * dt)%R) (map (fun k => INR k * dt)%R (seq (S k) m))).
  { induction m as [|m IH]; intros k; [exact I|]. cbn [seq map in_step]. split; [|apply IH]. cbn [follows]. rewrite S_INR. split; [nra|]. intros a j (A & B) (C & D). rewrite S_INR in B, D.
    assert (INR j < INR (S (S a)))%R by (rewrite !S_INR; nra). apply INR_lt in H. lia. }
  destruct n as [|n]; [exact I|]. cbn [seq map in_step]. split; [cbn; lra|]. apply G.
Qed.
Print Assumptions C47_regular_intervals.

(** ** Concrete cases *)
(* one region (ID 1) of two cells, one Dirichlet boundary (ID 2) of two edges *)
Definition plain : rdy := demo false 0 false false all_dirichlet.
Lemma plain_set_up : set_up plain. Proof. apply demo_set_up. discriminate. Qed.
Lemma plain_whole : whole_domain plain. Proof. eexists. split; [left; reflexivity|]. split; reflexivity. Qed.
Definition plain_boundaries : list (ctype * nat * Z) := [(CONDITION_DIRICHLET, 2, 2%Z)].
Lemma plain_boundaries_of : boundaries_of plain = Some plain_boundaries. Proof. reflexivity. Qed.
(* rain and water height from records, three applications, the last two within one interval of the record *)
Example C62_inhabited : exists st' r,
  apply_forcing_at plain (SHomogeneous (RDyForcingOpenHomogeneousDataset (interleaved demo_record) false) 2 [Some 0%R; Some 0%R])
    (BMultiHomogeneous [RDyForcingOpenHomogeneousDataset (interleaved demo_record) true] [MultiBC 0 0 6 (repeat None 6)]) [0; 11; 15]%R = Ok (st', r) /\
  value st' (Source 1 0) = Some 3%R /\ value st' (BoundaryValue 0 1 0) = Some 5%R /\ value st' (BoundaryValue 0 1 2) = Some 0%R /\ value st' (Source 1 1) = Some 0%R.
Proof.
  destruct (C62_forcing_partial plain (SHomogeneous (RDyForcingOpenHomogeneousDataset (interleaved demo_record) false) 2 [Some 0%R; Some 0%R])
    (BMultiHomogeneous [RDyForcingOpenHomogeneousDataset (interleaved demo_record) true] [MultiBC 0 0 6 (repeat None 6)]) [0; 11]%R 15%R) as (st' & r & E & V1 & V2 & V3).
  - exact plain_set_up.
  - apply (created_homogeneous plain); [discriminate|exact demo_record_increasing].
  - refine (bcreated_multi plain [(demo_record, true)] [2%Z] plain_boundaries _ _ _ plain_boundaries_of _ _); [|reflexivity| |reflexivity].
    + intros l [<-|[]]. split; [discriminate|exact demo_record_increasing].
    + repeat constructor. intros [].
  - right. exact plain_whole.
  - intros [[]|[]].
  - exists st', r. split; [exact E|]. destruct C44_inhabited as (S1 & S2 & _). split; [|split; [|split]].
    + apply V1; [cbn; lia|]. exists demo_record. auto.
    + apply V2. eexists. eexists. exists demo_record, 5%R. split; [left; reflexivity|]. cbn. split; [reflexivity|]. split; [lia|]. split; [reflexivity|]. auto.
    + apply V2. eexists. eexists. exists demo_record, 5%R. split; [left; reflexivity|]. cbn. split; [reflexivity|]. split; [lia|]. split; [reflexivity|]. auto.
    + rewrite V3; [reflexivity|right; intros; discriminate|intros; discriminate].
Qed.

(* Files whose only value is the hour *)
Definition hour_files : files := fun k => Some [1; 1; INR k]%R.
Definition hour_mesh_file : list R := [1; 2; 0; 0]%R.
Definition hour_mesh : list (R * R) := [(0, 0); (1, 0)]%R.
Local Notation hour_dataset d c := (Unstructured 1 (Hourly d c) [0; 0]).
Definition hour_rain : source := SUnstructured hour_files (hour_dataset [1; 1; 0]%R 1) 2 [Some 0%R; Some 0%R].
Lemma hour_points : ReadUnstructuredDatasetCoordinates hour_mesh_file = Ret [(0, 0)]%R.
Proof.
  unfold ReadUnstructuredDatasetCoordinates, hour_mesh_file. cbn [nth_error obind]. rewrite (int_of_IZR 1), (int_of_IZR 2) by lia. cbn [of_option rbind check Z.eqb Pos.eqb]. change (Z.to_nat 1) with 1. reflexivity.
Qed.
Lemma hour_rain_created : created_source plain hour_rain.
Proof.
  apply (created_unstructured plain hour_files (hour_dataset [1; 1; 0]%R 1) hour_mesh_file hour_mesh [(0, 0)]%R); [|reflexivity|exact hour_points|discriminate|intros k; eexists; split; reflexivity].
  unfold OpenUnstructured, hour_files. cbn [nth_error obind INR]. rewrite (int_of_IZR 1) by lia. cbn [of_option rbind Z.eqb]. cbn [length Z.of_nat Pos.of_succ_nat]. change (Z.eqb (Z.quot _ _) 1) with true. cbn [check]. rewrite hour_points. cbn [rbind].
  unfold RDyForcingCreateUnstructuredDatasetMap, hour_mesh. cbn [omap fst snd nearest_loop Nat.eqb obind of_option rbind]. reflexivity.
Qed.
Lemma hour_apply st x c c' d values t : set_up st -> whole_domain st -> r_owned st = 2 -> length values = 2 -> next_file hour_files (fun _ => Some true) (Hourly d c) t = Ok (Hourly [1; 1; x]%R c') ->
  exists st', RDyApplyForcing st (SUnstructured hour_files (hour_dataset d c) 2 values) BUnset t = Ok (st', (SUnstructured hour_files (hour_dataset [1; 1; x]%R c') 2 [Some x; Some x], BUnset)) /\
    set_up st' /\ whole_domain st' /\ r_owned st' = 2 /\ value st' (Source 0 0) = Some x.
Proof.
  intros U W Ho L Hn. unfold RDyApplyForcing. cbn [apply_source Nat.eqb]. unfold RDyForcingSetUnstructuredData. cbn [un_file]. rewrite Hn. cbn [un_map un_stride f_data length seq].
  destruct values as [|a [|b [|]]]; try (cbn in L; lia). cbn [ofold nth_error obind upd Nat.mul Nat.add defined obound]. destruct (water_source_step st [x; x] (SUnstructured hour_files (hour_dataset [1; 1; x]%R c') 2 [Some x; Some x]) U W) as (st' & E & U' & P' & V & _). { rewrite Ho. reflexivity. }
  rewrite Ho in E. cbn [map] in E. rewrite E. cbn [obound fst snd apply_boundary]. exists st'. split; [reflexivity|]. split; [exact U'|]. split; [eapply whole_domain_params; eassumption|]. split; [destruct (same_params _ _ P') as (-> & _); exact Ho|].
  rewrite V by lia. reflexivity.
Qed.
Lemma hour_keep d c t : (t < 3600 * INR c)%R -> next_file hour_files (fun _ => Some true) (Hourly d c) t = Ok (Hourly d c).
Proof. intros H. unfold next_file. cbn [f_count]. destruct (Rleb (INR c * 1) (t / 3600)) eqn:E; [|reflexivity]. apply (hour_step c t) in E. lra. Qed.
Lemma hour_next d c t : (3600 * INR c <= t)%R -> next_file hour_files (fun _ => Some true) (Hourly d c) t = Ok (Hourly [1; 1; INR c]%R (S c)).
Proof. intros H. unfold next_file. cbn [f_count]. destruct (Rleb (INR c * 1) (t / 3600)) eqn:E; [reflexivity|]. apply (hour_step c t) in H. congruence. Qed.
(* With half-hour intervals the fourth application has the file of hour 1 *)
Example C47_inhabited : exists st' r, apply_forcing_at plain hour_rain BUnset [0; 1800; 3600; 5400]%R = Ok (st', r) /\ value st' (Source 1 0) = Some 1%R.
Proof.
  destruct (C62_forcing_partial plain hour_rain BUnset [0; 1800; 3600]%R 5400%R) as (st' & r & E & V & _); [exact plain_set_up|exact hour_rain_created|constructor|right; exact plain_whole| |].
  - intros _. assert (H := C47_regular_intervals 1800 4 ltac:(lra)). cbn [seq map] in H. cbn [app]. replace (INR 0 * 1800)%R with 0%R in H by (cbn; lra). replace (INR 1 * 1800)%R with 1800%R in H by (cbn; lra). replace (INR 2 * 1800)%R with 3600%R in H by (cbn; lra). replace (INR 3 * 1800)%R with 5400%R in H by (cbn; lra). exact H.
  - exists st', r. split; [exact E|]. apply V; [cbn; lia|]. exists 1. eexists. exists 0. split; [unfold hour_of; cbn; lra|]. split; [reflexivity|]. split; reflexivity.
Qed.
(* With two-hour intervals the files lag behind: at the second application, two hours after the start, the file of the
   first hour after the start is used. *)
Theorem C47_long_interval_refuted : exists st src t x v st' r, set_up st /\ whole_domain st /\ created_source st src /\
  apply_forcing_at st src BUnset [0; t]%R = Ok (st', r) /\ meant_source src t 0 v /\ value st' (Source 0 0) = Some x /\ x <> v.
Proof.
  exists plain, hour_rain, 7200%R, 1%R, 2%R. destruct (hour_apply plain 0%R 1 1 [1; 1; 0]%R [Some 0%R; Some 0%R] 0 plain_set_up plain_whole eq_refl eq_refl) as (st1 & E1 & U1 & W1 & O1 & _). { apply hour_keep. cbn; lra. }
  destruct (hour_apply st1 1%R 1 2 [1; 1; 0]%R [Some 0%R; Some 0%R] 7200 U1 W1 O1 eq_refl) as (st2 & E2 & U2 & W2 & O2 & V2). { rewrite hour_next; [reflexivity|cbn; lra]. }
  exists st2. eexists. split; [exact plain_set_up|]. split; [exact plain_whole|]. split; [exact hour_rain_created|]. split.
  { cbn [apply_forcing_at]. unfold hour_rain. rewrite E1. cbn [obound fst snd]. rewrite E2. cbn [obound fst snd]. reflexivity. }
  split; [|split; [exact V2|lra]]. exists 2. eexists. exists 0. split; [unfold hour_of; cbn; lra|]. split; [reflexivity|]. split; reflexivity.
Qed.
Print Assumptions C47_long_interval_refuted.
(* A run that begins (from a checkpoint, say) later than two hours after the date of the first file: the same. *)
Theorem C47_late_start_refuted : exists st src t x v st' r, set_up st /\ whole_domain st /\ created_source st src /\
  apply_forcing_at st src BUnset [t]%R = Ok (st', r) /\ meant_source src t 0 v /\ value st' (Source 0 0) = Some x /\ x <> v.
Proof.
  exists plain, hour_rain, 36000%R, 1%R, 10%R. destruct (hour_apply plain 1%R 1 2 [1; 1; 0]%R [Some 0%R; Some 0%R] 36000 plain_set_up plain_whole eq_refl eq_refl) as (st1 & E1 & U1 & W1 & O1 & V1). { rewrite hour_next; [reflexivity|cbn; lra]. }
  exists st1. eexists. split; [exact plain_set_up|]. split; [exact plain_whole|]. split; [exact hour_rain_created|]. split.
  { cbn [apply_forcing_at]. unfold hour_rain. rewrite E1. cbn [obound fst snd]. reflexivity. }
  split; [|split; [exact V1|lra]]. exists 10. eexists. exists 0. split; [unfold hour_of; cbn; lra|]. split; [unfold hour_files; do 2 f_equal; cbn; lra|]. split; [reflexivity|]. cbn. f_equal. lra.
Qed.
Print Assumptions C47_late_start_refuted.

(* two regions, with IDs 1 and 2, of one cell each *)
Definition split_domain : rdy := Rdy false false 0 false false 3 2 [Region 0 1%Z None [0] [0]%Z; Region 1 2%Z None [1] [1]%Z] [] [] (repeat 0%R 6) (repeat 0%R 2) [].
Lemma split_set_up : set_up split_domain.
Proof.
  unfold set_up, split_domain. cbn [r_ncomp r_classes r_salinity r_heat r_src r_owned r_mat r_regions r_boundaries r_conds r_bvals]. split; [reflexivity|]. split; [reflexivity|]. split; [reflexivity|]. split; [reflexivity|].
  split; [repeat constructor; cbn; intuition lia|]. split. { intros g [<-|[<-|[]]]; cbn [rg_owned]; (split; [repeat constructor; cbn; intuition lia|]); intros z [<-|[]]; lia. }
  split; [reflexivity|]. split; [reflexivity|]. split; [reflexivity|]. split; [intros [|i] bd d; discriminate|intros c []].
Qed.
(* Rain for the whole domain is refused if region 1 is only a part of it, and silently has no effect
   if no region has the ID 1. *)
Theorem C62_whole_domain_refuted :
  (exists st rate t, set_up st /\ (rate > 0)%R /\ exists r, RDyApplyForcing st (SConstant rate (r_owned st) (repeat (Some 0%R) (r_owned st))) BUnset t = Err r) /\
  (exists st rate t st' r, set_up st /\ (rate > 0)%R /\ r_owned st <> 0 /\ RDyApplyForcing st (SConstant rate (r_owned st) (repeat (Some 0%R) (r_owned st))) BUnset t = Ok (st', r) /\ forall s, value st' s = value st s).
Proof.
  split.
  - exists split_domain, 1%R, 0%R. split; [exact split_set_up|]. split; [lra|]. eexists. reflexivity.
  - exists (Rdy false false 0 false false 3 1 [Region 0 2%Z None [0] [0]%Z] [] [] (repeat 0%R 3) (repeat 0%R 1) []), 1%R, 0%R. eexists. eexists. split.
    { unfold set_up. cbn [r_ncomp r_classes r_salinity r_heat r_src r_owned r_mat r_regions r_boundaries r_conds r_bvals]. repeat (split; [solve [reflexivity|repeat constructor; cbn; intuition lia]|]). split. { intros g [<-|[]]; cbn [rg_owned]; (split; [repeat constructor; cbn; intuition lia|]); intros z [<-|[]]; lia. }
      split; [reflexivity|]. split; [reflexivity|]. split; [reflexivity|]. split; [intros [|i] bd d; discriminate|intros c []]. }
    split; [lra|]. split; [discriminate|]. split; [reflexivity|]. reflexivity.
Qed.
Print Assumptions C62_whole_domain_refuted.

Definition one_record : list (R * R) := [(0, 1); (100, 2)]%R.
Lemma one_record_increasing : increasing one_record.
Proof. intros [|[|i]] a b; cbn; intros [= <-] [= <-] || (intros; discriminate); cbn; lra. Qed.
Lemma one_current t interp : (0 <= t < 100)%R -> exists v, RDyForcingGetCurrentData (interleaved one_record) 2 t interp = Some (0%Z, v) /\ (interp = false -> v = 1%R).
Proof.
  intros Ht. destruct (current_data_spec one_record t interp) as (i & v & E & H); [discriminate|]. exists v. change (length one_record) with 2 in E. rewrite E.
  destruct H as [(a & b & Ha & Hb & Hab & Hv)|(Hi & _ & N)].
  - destruct i as [|[|i]]; cbn in Ha, Hb; try discriminate. injection Ha as <-. split; [reflexivity|]. intros ->. exact Hv.
  - exfalso. apply (N 0 (0, 1)%R (100, 2)%R); [reflexivity|reflexivity|]. cbn. lra.
Qed.
(* Rain given region by region, one record for region 2: it falls on region 1. *)
Theorem C62_regional_rain_refuted : exists st t st' r, set_up st /\
  RDyApplyForcing st (SMultiHomogeneous [(RDyForcingOpenHomogeneousDataset (interleaved one_record) false, 2%Z)]) BUnset t = Ok (st', r) /\
  (exists g, In g (r_regions st) /\ rg_id g = 2%Z /\ rg_owned g = [1%Z]) /\ sampled one_record false t 1 /\
  value st' (Source 1 0) = Some 0%R /\ value st' (Source 0 0) = Some 1%R.
Proof.
  exists split_domain, 50%R. unfold RDyApplyForcing. cbn [apply_source apply_multi]. unfold RDyForcingSetHomogeneousData, RDyForcingOpenHomogeneousDataset. rewrite num_samples_interleaved. cbn [h_data h_ndata h_interp h_prev length one_record].
  destruct (one_current 50 false) as (v & E & Hv); [lra|]. specialize (Hv eq_refl). subst v. fold one_record. rewrite E. cbn [obind orb negb Z.eqb]. cbn.
  eexists. eexists. split; [exact split_set_up|]. split; [reflexivity|]. split; [eexists; split; [right; left; reflexivity|]; split; reflexivity|]. split; [|split; reflexivity].
  exact (sampled_between one_record false 50 0 (0, 1)%R (100, 2)%R eq_refl eq_refl ltac:(cbn; lra)).
Qed.
Print Assumptions C62_regional_rain_refuted.
(* ... and a second application between the same two times of the record hands an uninitialised value to the model. *)
Theorem C46_regional_rain_refuted : exists st t t' st' r, set_up st /\ sampled one_record false t 1 /\ sampled one_record false t' 1 /\
  apply_forcing_at st (SMultiHomogeneous [(RDyForcingOpenHomogeneousDataset (interleaved one_record) false, 2%Z)]) BUnset [t] = Ok (st', r) /\
  apply_forcing_at st (SMultiHomogeneous [(RDyForcingOpenHomogeneousDataset (interleaved one_record) false, 2%Z)]) BUnset [t; t'] = Undef.
Proof.
  exists split_domain, 50%R, 60%R. unfold apply_forcing_at, RDyApplyForcing. cbn [apply_source apply_multi]. unfold RDyForcingSetHomogeneousData, RDyForcingOpenHomogeneousDataset. rewrite num_samples_interleaved. cbn [h_data h_ndata h_interp h_prev length one_record].
  destruct (one_current 50 false) as (v & E & Hv); [lra|]. specialize (Hv eq_refl). subst v. destruct (one_current 60 false) as (v & E' & Hv); [lra|]. specialize (Hv eq_refl). subst v.
  fold one_record. rewrite E. cbn [obind orb negb Z.eqb fill ofold seq upd of_def nth_error obound fst snd].
  eexists. eexists. split; [exact split_set_up|]. split; [exact (sampled_between one_record false 50 0 (0, 1)%R (100, 2)%R eq_refl eq_refl ltac:(cbn; lra))|]. split; [exact (sampled_between one_record false 60 0 (0, 1)%R (100, 2)%R eq_refl eq_refl ltac:(cbn; lra))|].
  split; [reflexivity|]. cbn -[RDyForcingGetCurrentData interleaved one_record]. change (defined (edit_src split_domain [0%Z] 0 1 (fun _ => Some 1%R))) with (Ok (with_src split_domain [1; 0; 0; 0; 0; 0]%R)).
  cbn [obound fst snd apply_source apply_multi]. unfold RDyForcingSetHomogeneousData. cbn -[RDyForcingGetCurrentData interleaved one_record]. rewrite E'. reflexivity.
Qed.
Print Assumptions C46_regional_rain_refuted.
