(** Lemmas about the loops of the forcing code. *)
From Verif Require Import Base MeshMapsModel MeshMapsProofs DataModel DataProofs ForcingModel.
Local Open Scope R_scope.
Local Open Scope nat_scope.

Lemma skipn_skipn'' {A} m n (l : list A) : skipn m (skipn n l) = skipn (n + m) l.
Proof. revert l. induction n as [|n IH]; intros l; [reflexivity|]. destruct l as [|a l]; [destruct m; reflexivity|]. exact (IH l). Qed.

(** ** Writing an array block by block *)
Lemma upd_mid {A} (pre : list A) a t x : upd (pre ++ a :: t) (length pre) x = Some (pre ++ x :: t).
Proof. induction pre as [|b pre IH]; [reflexivity|]. cbn. rewrite IH. reflexivity. Qed.
Lemma ofold_blocks {A} s (step : list A -> nat -> option (list A)) (blk : nat -> list A) n :
  (forall i pre rest, i < n -> length pre = i * s -> s <= length rest -> step (pre ++ rest) i = Some (pre ++ blk i ++ skipn s rest)) ->
  (forall i, i < n -> length (blk i) = s) ->
  forall values, length values = n * s -> ofold step (seq 0 n) values = Some (concat (map blk (seq 0 n))).
Proof.
  intros Hs Hl values L.
  assert (K : forall k, k <= n -> ofold step (seq 0 k) values = Some (concat (map blk (seq 0 k)) ++ skipn (k * s) values) /\ length (concat (map blk (seq 0 k))) = k * s).
  { induction k as [|k IH]; intros Hk; [split; reflexivity|]. destruct IH as (E & Lc); [lia|].
    rewrite seq_S, ofold_app, E, map_app, concat_app, app_length. cbn [obind ofold map concat Nat.add]. rewrite Lc, app_nil_r, Hl by lia. split; [|lia].
    assert (s <= length (skipn (k * s) values)). { rewrite skipn_length, L. assert (S k * s <= n * s) by (apply Nat.mul_le_mono_r; lia). lia. }
    rewrite Hs by (auto; lia). cbn [obind]. rewrite skipn_skipn''. rewrite <- app_assoc. replace (S k * s) with (k * s + s) by lia. reflexivity. }
  destruct (K n (le_n n)) as (E & _). rewrite E. f_equal. rewrite <- L, skipn_all, app_nil_r. reflexivity.
Qed.

Lemma ofold_ext_ {A S} (f g : S -> A -> option S) l : (forall s a, f s a = g s a) -> forall s, ofold f l s = ofold g l s.
Proof. intros H. induction l as [|a l IH]; intros s; [reflexivity|]. cbn. rewrite H. destruct (g s a); cbn; auto. Qed.
(* inner loops *)
Lemma write_block {A} (f : nat -> option A) (g : nat -> A) off s : (forall i, i < s -> f i = Some (g i)) -> forall pre rest, length pre = off -> s <= length rest ->
  ofold (fun vs ii => let* d := f ii in upd vs (off + ii) d) (seq 0 s) (pre ++ rest) = Some (pre ++ map g (seq 0 s) ++ skipn s rest).
Proof.
  intros Hf pre rest Lp Lr.
  assert (K : forall k, k <= s -> ofold (fun vs ii => let* d := f ii in upd vs (off + ii) d) (seq 0 k) (pre ++ rest) = Some (pre ++ map g (seq 0 k) ++ skipn k rest)).
  { induction k as [|k IH]; intros Hk; [reflexivity|]. rewrite seq_S, ofold_app, IH by lia. cbn [obind ofold Nat.add]. rewrite Hf by lia. cbn [obind].
    assert (Hn : k < length rest) by lia. destruct (skipn k rest) as [|a t] eqn:Es. { apply (f_equal (@length A)) in Es. rewrite skipn_length in Es. cbn in Es. lia. }
    assert (Et : skipn (S k) rest = t). { replace (S k) with (k + 1) by lia. rewrite <- (skipn_skipn'' 1 k), Es. reflexivity. }
    rewrite Et, app_assoc. replace (off + k) with (length (pre ++ map g (seq 0 k))) by (rewrite app_length, map_length, seq_length; lia).
    rewrite upd_mid. rewrite map_app. cbn [map obind]. rewrite <- !app_assoc. reflexivity. }
  apply K. lia.
Qed.
Lemma concat_singletons {A} (g : nat -> A) l : concat (map (fun i => [g i]) l) = map g l.
Proof. induction l as [|a l IH]; [reflexivity|]. cbn. rewrite IH. reflexivity. Qed.
Lemma write_all_some n (f : nat -> option R) g values : (forall i, i < n -> f i = Some (g i)) -> length values = n -> write_all n f values = Some (map (fun i => Some (g i)) (seq 0 n)).
Proof.
  intros Hf L. unfold write_all. rewrite (ofold_blocks 1 _ (fun i => [Some (g i)]) n); [|intros i pre rest Hi Lp Lr|reflexivity|lia].
  - rewrite concat_singletons. reflexivity.
  - rewrite Hf by assumption. cbn [obind]. destruct rest as [|a t]; [cbn in Lr; lia|]. replace i with (length pre) at 1 by lia. rewrite upd_mid. reflexivity.
Qed.
Lemma fill_some n v values : length values = n -> fill n v values = Some (map (fun _ => Some v) (seq 0 n)).
Proof.
  intros L. unfold fill. rewrite (ofold_blocks 1 _ (fun i => [Some v]) n); [|intros i pre rest Hi Lp Lr|reflexivity|lia].
  - rewrite (concat_singletons (fun _ => Some v)). reflexivity.
  - destruct rest as [|a t]; [cbn in Lr; lia|]. replace i with (length pre) by lia. rewrite upd_mid. reflexivity.
Qed.
Definition triple (v : R) : list (option R) := [Some v; Some 0%R; Some 0%R].
Lemma fill_triples_some n v values : length values = n * 3 -> fill_triples n v values = Some (concat (map (fun _ => triple v) (seq 0 n))).
Proof.
  intros L. unfold fill_triples. apply (ofold_blocks 3 _ (fun i => triple v) n); [|reflexivity|exact L].
  intros i pre rest Hi Lp Lr. destruct rest as [|a [|b [|c t]]]; cbn in Lr; try lia.
  rewrite <- Lp, upd_mid. cbn [obind].
  replace (length pre + 1) with (length (pre ++ [Some v])) by (rewrite app_length; cbn; lia).
  replace (pre ++ Some v :: b :: c :: t) with ((pre ++ [Some v]) ++ b :: c :: t) by (rewrite <- app_assoc; reflexivity). rewrite upd_mid. cbn [obind].
  replace (length pre + 2) with (length ((pre ++ [Some v]) ++ [Some 0%R])) by (rewrite !app_length; cbn; lia).
  replace ((pre ++ [Some v]) ++ Some 0%R :: c :: t) with (((pre ++ [Some v]) ++ [Some 0%R]) ++ c :: t) by (rewrite <- app_assoc; reflexivity). rewrite upd_mid. rewrite <- !app_assoc. reflexivity.
Qed.
Lemma write_block_ (data : list R) m stride off (map_ : list nat) : (forall m ii, In m map_ -> ii < stride -> m * stride + ii + 2 < length data) -> In m map_ -> forall pre rest, length pre = off -> stride <= length rest ->
  ofold (fun vs ii => let* d := nth_error data (m * stride + ii + 2) in upd vs (off + ii) (Some d)) (seq 0 stride) (pre ++ rest)
  = Some (pre ++ map (fun ii => nth_error data (m * stride + ii + 2)) (seq 0 stride) ++ skipn stride rest : list (option R)).
Proof.
  intros Hd Hm pre rest Lp Lr.
  rewrite <- (write_block (fun ii => let* d := nth_error data (m * stride + ii + 2) in Some (Some d)) (fun ii => nth_error data (m * stride + ii + 2)) off stride); auto.
  - apply ofold_ext_. intros vs ii. destruct (nth_error data (m * stride + ii + 2)); reflexivity.
  - intros i Hi. specialize (Hd m i Hm Hi). apply nth_error_Some in Hd. destruct (nth_error data (m * stride + i + 2)); [reflexivity|contradiction].
Qed.
(* the copy of rdyforcing_dataset.c:361-368 *)
Lemma copy_rows_some (map_ : list nat) stride (data : list R) (values : list (option R)) : (forall m ii, In m map_ -> ii < stride -> m * stride + ii + 2 < length data) -> length values = length map_ * stride ->
  ofold (fun vs icell => let* m := nth_error map_ icell in
           ofold (fun vs ii => let* d := nth_error data (m * stride + ii + 2) in upd vs (icell * stride + ii) (Some d)) (seq 0 stride) vs) (seq 0 (length map_)) values
  = Some (concat (map (fun i => map (fun ii => nth_error data (nth i map_ 0 * stride + ii + 2)) (seq 0 stride)) (seq 0 (length map_)))).
Proof.
  intros Hd L. apply (ofold_blocks stride); [|intros; rewrite map_length, seq_length; reflexivity|exact L].
  intros i pre rest Hi Lp Lr. destruct (nth_error map_ i) as [m|] eqn:Em; [|apply nth_error_None in Em; lia]. cbn [obind].
  rewrite (nth_error_nth _ _ 0 Em). assert (Hm : In m map_) by (eapply nth_error_In; eassumption).
  rewrite (write_block_ data m stride (i * stride) map_ Hd Hm pre rest Lp Lr). reflexivity.
Qed.

(** ** Time series *)
(* the vector of a record: times and values interleaved *)
Definition interleaved (l : list (R * R)) : list R := flat_map (fun s => [fst s; snd s]) l.
Lemma interleaved_length l : length (interleaved l) = length l * 2.
Proof. induction l as [|a l IH]; [reflexivity|]. unfold interleaved in *. cbn. rewrite IH. reflexivity. Qed.
Lemma interleaved_time l : forall i, nth_error (interleaved l) (i * 2) = option_map fst (nth_error l i).
Proof. unfold interleaved. induction l as [|a l IH]; intros [|i]; try reflexivity; cbn; apply IH. Qed.
Lemma interleaved_value l : forall i, nth_error (interleaved l) (i * 2 + 1) = option_map snd (nth_error l i).
Proof. unfold interleaved. induction l as [|a l IH]; intros [|i]; try reflexivity; cbn; apply IH. Qed.
Lemma num_samples_interleaved l : num_samples (interleaved l) = length l.
Proof. unfold num_samples. rewrite interleaved_length. apply Nat.div_mul. lia. Qed.

(* the search finds the first bracket *)
Lemma find_bracket_spec l t : forall n itime, itime + n + 1 <= length l ->
  exists r, find_bracket (interleaved l) t itime n = Some r /\
  match r with
  | None => forall j a b, itime <= j < itime + n -> nth_error l j = Some a -> nth_error l (S j) = Some b -> ~ (fst a <= t < fst b)%R
  | Some (i, (a, b)) => itime <= i < itime + n /\ nth_error l i = Some a /\ nth_error l (S i) = Some b /\ (fst a <= t < fst b)%R
  end.
Proof.
  induction n as [|n IH]; intros itime H; [exists None; split; [reflexivity|intros; lia]|].
  destruct (nth_error l itime) as [[t0 v0]|] eqn:E0; [|apply nth_error_None in E0; lia].
  destruct (nth_error l (S itime)) as [[t1 v1]|] eqn:E1; [|apply nth_error_None in E1; lia].
  cbn [find_bracket]. rewrite interleaved_time, interleaved_value, E0. cbn [option_map obind fst snd].
  replace (itime * 2 + 2) with (S itime * 2) by lia. replace (itime * 2 + 3) with (S itime * 2 + 1) by lia.
  rewrite interleaved_time, interleaved_value, E1. cbn [option_map obind fst snd].
  destruct (Rleb t0 t) eqn:L0; [destruct (Rltb t t1) eqn:L1|]; cbn [andb].
  - apply Rleb_true in L0. apply Rltb_true in L1. eexists. split; [reflexivity|]. cbn. rewrite E0. split; [lia|]. split; [reflexivity|]. split; [exact E1|]. lra.
  - apply Rltb_false in L1. destruct (IH (S itime)) as (r & Er & Hr); [lia|]. exists r. split; [exact Er|]. destruct r as [(i & a & b)|].
    + destruct Hr as (? & ? & ? & ?). repeat split; auto; lia || lra.
    + intros j a b Hj Ha Hb. destruct (Nat.eq_dec j itime) as [->|]; [|apply (Hr j); auto; lia]. rewrite E0 in Ha. rewrite E1 in Hb. injection Ha as <-. injection Hb as <-. cbn. lra.
  - apply Rleb_false in L0. destruct (IH (S itime)) as (r & Er & Hr); [lia|]. exists r. split; [exact Er|]. destruct r as [(i & a & b)|].
    + destruct Hr as (? & ? & ? & ?). repeat split; auto; lia || lra.
    + intros j a b Hj Ha Hb. destruct (Nat.eq_dec j itime) as [->|]; [|apply (Hr j); auto; lia]. rewrite E0 in Ha. rewrite E1 in Hb. injection Ha as <-. injection Hb as <-. cbn. lra.
Qed.

(* index, value and why *)
Lemma current_data_spec l t interp : l <> [] -> exists i v, RDyForcingGetCurrentData (interleaved l) (length l) t interp = Some (Z.of_nat i, v) /\
  ((exists a b, nth_error l i = Some a /\ nth_error l (S i) = Some b /\ (fst a <= t < fst b)%R /\
     v = (if interp then snd a + (t - fst a) * (snd b - snd a) / (fst b - fst a) else snd a)%R) \/
   (i = length l - 1 /\ (exists a, nth_error l i = Some a /\ v = snd a) /\
     forall j a b, nth_error l j = Some a -> nth_error l (S j) = Some b -> ~ (fst a <= t < fst b)%R)).
Proof.
  intros Hl. assert (Hn : 0 < length l) by (destruct l; [contradiction|cbn; lia]).
  destruct (find_bracket_spec l t (length l - 1) 0) as (r & Er & Hr); [lia|]. unfold RDyForcingGetCurrentData. rewrite Er. cbn [obind]. destruct r as [(i & (t0, v0) & (t1, v1))|].
  - destruct Hr as (Hi & Ha & Hb & Ht). cbn in Ht. destruct interp.
    + rewrite rdiv_some by lra. cbn [obind]. exists i. eexists. split; [reflexivity|]. left. exists (t0, v0), (t1, v1). repeat split; auto; cbn; try lra; field; lra.
    + exists i. eexists. split; [reflexivity|]. left. exists (t0, v0), (t1, v1). repeat split; auto; cbn; lra.
  - replace (Z.of_nat (length l) * 2 - 1)%Z with (Z.of_nat ((length l - 1) * 2 + 1)) by lia. rewrite zget_nat, interleaved_value.
    destruct (nth_error l (length l - 1)) as [a|] eqn:Ea; [|apply nth_error_None in Ea; lia]. cbn [option_map obind]. exists (length l - 1), (snd a).
    split; [f_equal; f_equal; lia|]. right. split; [reflexivity|]. split; [eauto|]. intros j a' b' Ha Hb. eapply (Hr j); eauto. split; [lia|].
    assert (S j < length l) by (apply nth_error_Some; congruence). lia.
Qed.
(* without interpolation the value is a function of the index *)
Lemma step_value l t i v : RDyForcingGetCurrentData (interleaved l) (length l) t false = Some (i, v) -> l <> [] -> exists k a, i = Z.of_nat k /\ nth_error l k = Some a /\ v = snd a.
Proof.
  intros E Hl. destruct (current_data_spec l t false Hl) as (k & v' & E' & H). rewrite E in E'. injection E' as -> ->. exists k.
  destruct H as [(a & b & Ha & _ & _ & Hv)|(_ & (a & Ha & Hv) & _)]; eauto.
Qed.

(** ** Nearest points *)
Lemma nearest_loop_some x y : forall pts kk m idx, 0 < kk -> nearest_loop x y pts kk (Some m) idx = Some (raster_loop x y pts kk m idx).
Proof.
  induction pts as [|(px, py) t IH]; intros kk m idx H; [reflexivity|]. cbn [nearest_loop raster_loop]. destruct (Nat.eqb_spec kk 0); [lia|]. cbn [obind].
  destruct (Rltb (distance x y px py) m); apply IH; lia.
Qed.
Definition dist_to (x y : R) (p : R * R) : R := distance x y (fst p) (snd p).
(* the loop returns the first of the points nearest to (x, y) if one of them is closer than the limit, else the index it started with *)
Lemma raster_loop_spec x y : forall pts kk m idx,
  (raster_loop x y pts kk m idx = idx /\ (forall p, In p pts -> (m <= dist_to x y p)%R)) \/
  (exists i p, raster_loop x y pts kk m idx = kk + i /\ nth_error pts i = Some p /\ (dist_to x y p < m)%R /\
     (forall j q, nth_error pts j = Some q -> (dist_to x y p <= dist_to x y q)%R /\ (j < i -> (dist_to x y p < dist_to x y q)%R))).
Proof.
  induction pts as [|(px, py) t IH]; intros kk m idx; [left; split; [reflexivity|intros p []]|]. cbn [raster_loop]. destruct (Rltb (distance x y px py) m) eqn:E.
  - apply Rltb_true in E. destruct (IH (S kk) (distance x y px py) kk) as [(Er & Ha)|(i & p & Er & Hp & Hlt & Ha)].
    + right. exists 0, (px, py). rewrite Er. split; [lia|]. split; [reflexivity|]. split; [exact E|]. intros [|j] q Hq; cbn in Hq.
      * injection Hq as <-. split; [lra|lia].
      * split; [apply Ha; eapply nth_error_In; eassumption|lia].
    + right. exists (S i), p. rewrite Er. split; [lia|]. split; [exact Hp|]. split; [lra|]. intros [|j] q Hq; cbn in Hq.
      * injection Hq as <-. unfold dist_to at 2 4. cbn. split; lra.
      * destruct (Ha j q Hq) as (H1 & H2). split; [exact H1|]. intros; apply H2; lia.
  - apply Rltb_false in E. destruct (IH (S kk) m idx) as [(Er & Ha)|(i & p & Er & Hp & Hlt & Ha)].
    + left. split; [exact Er|]. intros p [<-|Hp]; [exact E|apply Ha; exact Hp].
    + right. exists (S i), p. rewrite Er. split; [lia|]. split; [exact Hp|]. split; [exact Hlt|]. intros [|j] q Hq; cbn in Hq.
      * injection Hq as <-. unfold dist_to at 2 4. cbn. split; lra.
      * destruct (Ha j q Hq) as (H1 & H2). split; [exact H1|]. intros; apply H2; lia.
Qed.

(** ** Points of a raster *)
Lemma flat_map_nth {A B} (f : A -> list B) n : (forall a, length (f a) = n) -> forall l r c, c < n -> nth_error (flat_map f l) (r * n + c) = let* a := nth_error l r in nth_error (f a) c.
Proof.
  intros Hn. induction l as [|a l IH]; intros r c Hc; [cbn; destruct (r * n + c), r; reflexivity|]. cbn [flat_map]. destruct r as [|r].
  - cbn. rewrite nth_error_app1 by (rewrite Hn; lia). reflexivity.
  - rewrite nth_error_app2 by (rewrite Hn; lia). rewrite Hn. replace (S r * n + c - n) with (r * n + c) by lia. cbn [nth_error]. apply IH. exact Hc.
Qed.
Lemma nth_error_seq n : forall s i, i < n -> nth_error (seq s n) i = Some (s + i).
Proof. induction n as [|n IH]; intros s [|i] H; try lia; cbn; [f_equal; lia|]. rewrite IH by lia. f_equal. lia. Qed.
Lemma raster_points_nth ncols nrows x y s r c : r < nrows -> c < ncols -> nth_error (raster_points ncols nrows x y s) (r * ncols + c) = Some (raster_point nrows x y s r c).
Proof.
  intros Hr Hc. unfold raster_points. rewrite (flat_map_nth _ ncols) by (auto; intros; rewrite map_length, seq_length; reflexivity).
  rewrite nth_error_seq by assumption. cbn [obind Nat.add]. rewrite nth_error_map, nth_error_seq by assumption. reflexivity.
Qed.
Lemma raster_points_length ncols nrows x y s : length (raster_points ncols nrows x y s) = nrows * ncols.
Proof.
  unfold raster_points. rewrite <- (seq_length nrows 0) at 2. generalize (seq 0 nrows). intros l. induction l as [|a l IH]; [reflexivity|].
  cbn [flat_map]. rewrite app_length, IH, map_length, seq_length. cbn. lia.
Qed.
Lemma raster_points_inv ncols nrows x y s i p : nth_error (raster_points ncols nrows x y s) i = Some p -> exists r c, r < nrows /\ c < ncols /\ i = r * ncols + c /\ p = raster_point nrows x y s r c.
Proof.
  intros H. assert (Hi : i < nrows * ncols) by (rewrite <- (raster_points_length ncols nrows x y s); apply nth_error_Some; congruence).
  assert (Hc : ncols <> 0) by (intros ->; lia). exists (i / ncols), (i mod ncols).
  assert (Hr : i / ncols < nrows) by (apply Nat.div_lt_upper_bound; lia). assert (Hm : i mod ncols < ncols) by (apply Nat.mod_upper_bound; exact Hc).
  assert (E : i = i / ncols * ncols + i mod ncols) by (rewrite (Nat.div_mod i ncols Hc) at 1; lia).
  repeat split; auto. rewrite E in H. rewrite raster_points_nth in H by assumption. congruence.
Qed.
