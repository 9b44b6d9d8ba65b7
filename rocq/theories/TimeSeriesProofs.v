From Verif Require Import Base RoeModel SetupModel DiagModel TimeSeriesModel TimeSeriesSpec.
From Coq Require Import ZArith Lia Lra Permutation.
Local Open Scope nat_scope.

(** ** Enumerations *)
Lemma enum_from_length {A} (l : list A) : forall i, length (enum_from i l) = length l.
Proof. induction l as [|a t IH]; intros i; cbn; [reflexivity|]. now rewrite IH. Qed.
Lemma enum_from_app {A} (l1 l2 : list A) : forall i, enum_from i (l1 ++ l2) = enum_from i l1 ++ enum_from (i + length l1) l2.
Proof.
  induction l1 as [|a t IH]; intros i; cbn [app enum_from length].
  - now rewrite Nat.add_0_r.
  - now rewrite IH, Nat.add_succ_r, Nat.add_succ_l.
Qed.
Lemma enum_from_snd {A} (l : list A) : forall i, map snd (enum_from i l) = l.
Proof. induction l as [|a t IH]; intros i; cbn; [reflexivity|]. now rewrite IH. Qed.
Lemma enum_from_In {A} (l : list A) : forall i n a, In (n, a) (enum_from i l) -> i <= n /\ nth_error l (n - i) = Some a.
Proof.
  induction l as [|x t IH]; intros i n a; cbn; [tauto|].
  intros [E|H].
  - injection E as <- <-. split; [lia|]. now rewrite Nat.sub_diag.
  - destruct (IH _ _ _ H) as [Hle Hn]. split; [lia|].
    replace (n - i) with (S (n - S i)) by lia. exact Hn.
Qed.
Lemma enum_In {A} (l : list A) n a : In (n, a) (enum l) -> nth_error l n = Some a.
Proof. intros H. destruct (enum_from_In l 0 n a H) as [_ E]. now rewrite Nat.sub_0_r in E. Qed.
Lemma enum_from_nth {A} (l : list A) : forall i n, nth_error (enum_from i l) n = option_map (fun a => (i + n, a)) (nth_error l n).
Proof.
  induction l as [|x t IH]; intros i [|n]; cbn [enum_from nth_error option_map]; try reflexivity.
  - now rewrite Nat.add_0_r.
  - rewrite IH. destruct (nth_error t n); cbn [option_map]; [|reflexivity]. f_equal. f_equal. lia.
Qed.
Lemma enum_nth {A} (l : list A) n : nth_error (enum l) n = option_map (fun a => (n, a)) (nth_error l n).
Proof. apply enum_from_nth. Qed.
Lemma enum_filter_snd {A} (p : A -> bool) (l : list A) : forall i, map snd (filter (fun e => p (snd e)) (enum_from i l)) = filter p l.
Proof.
  induction l as [|x t IH]; intros i; cbn; [reflexivity|].
  destruct (p x); cbn; now rewrite IH.
Qed.

Lemma combine_maps {A B C} (g : A -> B) (h : A -> C) l : combine (map g l) (map h l) = map (fun a => (g a, h a)) l.
Proof. induction l as [|a t IH]; cbn; [reflexivity|]. now rewrite IH. Qed.
Lemma combine_enum {A C} (h : nat * A -> C) (l : list A) : forall i, combine l (map h (enum_from i l)) = map (fun a => (snd a, h a)) (enum_from i l).
Proof. induction l as [|a t IH]; intros i; cbn; [reflexivity|]. now rewrite IH. Qed.

Lemma combine_enum0 {A C} (h : nat * A -> C) (l : list A) : combine l (map h (enum l)) = map (fun a => (snd a, h a)) (enum l).
Proof. apply combine_enum. Qed.
Lemma tabulate_ext ranks f g :
  (forall r rk b bd e ed, nth_error ranks r = Some rk -> nth_error rk b = Some bd -> nth_error (tb_edges bd) e = Some ed -> f r b e = g r b e) ->
  tabulate ranks f = tabulate ranks g.
Proof.
  intros H. unfold tabulate. apply map_ext_in. intros [r rk] Hr. apply map_ext_in. intros [b bd] Hb. apply map_ext_in. intros [e ed] He.
  cbn [fst snd] in *. apply (H r rk b bd e ed); now apply enum_In.
Qed.
Lemma combine_tabulate f ranks A B : combine_data f (tabulate ranks A) (tabulate ranks B) = tabulate ranks (fun r b e => f (A r b e) (B r b e)).
Proof.
  unfold combine_data, tabulate. rewrite combine_maps, map_map. apply map_ext. intros r. cbn [fst snd].
  rewrite combine_maps, map_map. apply map_ext. intros b. cbn [fst snd].
  rewrite combine_maps, map_map. apply map_ext. intros e. reflexivity.
Qed.

(** ** Packing *)
Lemma filter_map_comm {A B} (g : A -> B) (p : B -> bool) l : filter p (map g l) = map g (filter (fun a => p (g a)) l).
Proof. induction l as [|a t IH]; cbn; [reflexivity|]. rewrite IH. now destruct (p (g a)). Qed.
Lemma filter_length {A} (p : A -> bool) l : length (filter p l) <= length l.
Proof. induction l as [|a t IH]; cbn; [lia|]. destruct (p a); cbn; lia. Qed.
Lemma list_as_enum {A B} (w : list B) (z : B) (l : list A) : forall i, length w <= length l ->
  w ++ repeat z (length l - length w) = map (fun e => match nth_error w (fst e - i) with Some x => x | None => z end) (enum_from i l).
Proof.
  revert w. induction l as [|a t IH]; intros w i Hle.
  - destruct w; [reflexivity|cbn in Hle; lia].
  - cbn [enum_from map fst]. rewrite Nat.sub_diag.
    destruct w as [|x w]; cbn [length app nth_error Nat.sub repeat].
    + specialize (IH [] (S i) ltac:(cbn; lia)). cbn [length app] in IH. rewrite Nat.sub_0_r in IH. f_equal. rewrite IH.
      apply map_ext. intros [n a']. cbn [fst]. rewrite !(proj2 (nth_error_None (@nil B) _)); [reflexivity|cbn; lia|cbn; lia].
    + cbn [length] in Hle. f_equal. rewrite (IH w (S i)) by lia. apply map_ext_in. intros [n a'] Hin. cbn [fst].
      destruct (enum_from_In _ _ _ _ Hin) as [H _]. replace (n - i) with (S (n - S i)) by lia. reflexivity.
Qed.
Lemma pack_tabulate ranks f : pack_all ranks (tabulate ranks f) = tabulate ranks (packed ranks f).
Proof.
  unfold pack_all, tabulate. rewrite combine_enum0, map_map. apply map_ext_in. intros [r rk] Hr. cbn [fst snd].
  rewrite combine_enum0, map_map. apply map_ext_in. intros [b bd] Hb. cbn [fst snd].
  apply enum_In in Hr. apply enum_In in Hb.
  unfold pack. rewrite combine_enum0,  filter_map_comm, map_map. cbn [fst snd].
  set (w := map _ _).
  assert (Ew : w = map (fun i => f r b i) (owned_positions (tb_edges bd))).
  { unfold w, owned_positions. rewrite map_map. reflexivity. }
  assert (Hl : length w <= length (tb_edges bd)).
  { unfold w. rewrite map_length. etransitivity; [apply filter_length|]. unfold enum; now rewrite enum_from_length. }
  rewrite (list_as_enum w vzero (tb_edges bd) 0 Hl).
  apply map_ext. intros [e ed]. cbn [fst]. rewrite Nat.sub_0_r. unfold packed. unfold ts_rank in *. rewrite Hr, Hb, Ew, nth_error_map.
  now destruct (nth_error (owned_positions (tb_edges bd)) e).
Qed.

(** ** Recording *)
Lemma upd_app {A} (pre : list A) x y post : upd (pre ++ x :: post) (length pre) y = Some (pre ++ y :: post).
Proof. induction pre as [|p t IH]; cbn; [reflexivity|]. now rewrite IH. Qed.
Lemma record_edges_ok (vals : list vec3) (V : nat -> vec3) es : forall e pre mid post,
  (forall k ed, nth_error es k = Some ed -> nth_error vals (e + k) = Some (V (e + k))) ->
  length mid = length (filter te_cell_owned es) ->
  record_edges es e vals (length pre) (pre ++ mid ++ post) =
  Some (pre ++ map (fun x => vscal (te_len (snd x)) (V (fst x))) (filter (fun x => te_cell_owned (snd x)) (enum_from e es)) ++ post).
Proof.
  induction es as [|ed t IH]; intros e pre mid post HV Hm; cbn [record_edges filter enum_from snd] in *.
  - destruct mid; [reflexivity|discriminate].
  - assert (HV' : forall k ed, nth_error t k = Some ed -> nth_error vals (S e + k) = Some (V (S e + k))).
    { intros k ed' Hk. specialize (HV (S k) ed' Hk). now rewrite Nat.add_succ_r in HV. }
    destruct (te_cell_owned ed).
    + destruct mid as [|m mid]; [discriminate|]. cbn [length] in Hm.
      specialize (HV 0 ed eq_refl) as HV0. rewrite Nat.add_0_r in HV0. rewrite HV0. cbn [obind app].
      rewrite upd_app. cbn [obind].
      replace (pre ++ vscal (te_len ed) (V e) :: mid ++ post) with ((pre ++ [vscal (te_len ed) (V e)]) ++ mid ++ post) by now rewrite <- app_assoc.
      replace (S (length pre)) with (length (pre ++ [vscal (te_len ed) (V e)])) by (rewrite app_length; cbn; lia).
      rewrite IH by (auto; lia). cbn [map fst snd app]. now rewrite <- app_assoc.
    + apply IH; auto.
Qed.

Lemma num_local_from r : forall n, fold_left (fun n b => n + length (counted b)) r n = n + length (flat_map counted r).
Proof.
  induction r as [|b t IH]; intros n; cbn; [lia|]. rewrite IH, app_length. lia.
Qed.
Lemma num_local_spec r : num_local r = length (flat_map counted r).
Proof. unfold num_local. now rewrite num_local_from. Qed.
Lemma offsets_nth r1 : forall n b r2, nth_error (n :: offsets_from n (r1 ++ b :: r2)) (length r1) = Some (n + length (flat_map counted r1)).
Proof.
  induction r1 as [|a t IH]; intros n b r2.
  - cbn. f_equal. lia.
  - cbn [app offsets_from length flat_map]. change (nth_error (n :: ?x) (S ?k)) with (nth_error x k).
    rewrite IH, app_length. f_equal. lia.
Qed.
Lemma entries_counted r i : forall rk, map snd (flat_map (boundary_entries r) (enum_from i rk)) = flat_map counted rk.
Proof.
  intros rk; revert i. induction rk as [|b t IH]; intros i; cbn; [reflexivity|].
  rewrite map_app, IH. f_equal. unfold boundary_entries, counted. cbn [snd fst]. destruct (tb_auto b); [reflexivity|].
  rewrite map_map. cbn [snd]. rewrite <- (enum_filter_snd te_cell_owned (tb_edges b) 0). reflexivity.
Qed.
Definition scaled (A : nat -> nat -> nat -> vec3) (x : entry) : vec3 := let '(r, b, e, _, ed) := x in vscal (te_len ed) (A r b e).
Lemma record_boundary_ok A r rk1 bd rk2 vals pre mid post :
  nth_error vals (length rk1) = Some (map (fun e => A r (length rk1) (fst e)) (enum (tb_edges bd))) ->
  length pre = length (flat_map counted rk1) -> length mid = length (counted bd) ->
  RecordBoundaryFluxes (rk1 ++ bd :: rk2) vals (pre ++ mid ++ post) (length rk1) =
  Some (pre ++ map (scaled A) (boundary_entries r (length rk1, bd)) ++ post).
Proof.
  intros Hv Hpre Hmid. unfold RecordBoundaryFluxes.
  rewrite nth_error_app2, Nat.sub_diag by lia. cbn [nth_error obind]. unfold boundary_entries. unfold counted in Hmid. cbn [fst snd].
  destruct (tb_auto bd).
  - destruct mid; [reflexivity|discriminate].
  - unfold offsets. rewrite offsets_nth. cbn [obind]. rewrite Hv. cbn [obind]. rewrite Nat.add_0_l, <- Hpre.
    rewrite (record_edges_ok _ (fun k => A r (length rk1) k)); [|intros k ed Hk|exact Hmid].
    + rewrite map_map. reflexivity.
    + rewrite Nat.add_0_l. unfold enum. rewrite nth_error_map, enum_from_nth, Hk. reflexivity.
Qed.
Lemma record_rank_from A r rk2 : forall rk1 vals pre mid,
  (forall b bd, nth_error (rk1 ++ rk2) b = Some bd -> nth_error vals b = Some (map (fun e => A r b (fst e)) (enum (tb_edges bd)))) ->
  length pre = length (flat_map counted rk1) -> length mid = length (flat_map counted rk2) ->
  ofold (RecordBoundaryFluxes (rk1 ++ rk2) vals) (seq (length rk1) (length rk2)) (pre ++ mid) =
  Some (pre ++ map (scaled A) (flat_map (boundary_entries r) (enum_from (length rk1) rk2))).
Proof.
  induction rk2 as [|bd t IH]; intros rk1 vals pre mid Hv Hpre Hmid; cbn [length seq ofold enum_from flat_map map].
  - destruct mid; [|discriminate]. reflexivity.
  - cbn [flat_map] in Hmid. rewrite app_length in Hmid.
    rewrite <- (firstn_skipn (length (counted bd)) mid).
    rewrite (record_boundary_ok A r).
    + cbn [obind]. replace (rk1 ++ bd :: t) with ((rk1 ++ [bd]) ++ t) by now rewrite <- app_assoc.
      replace (S (length rk1)) with (length (rk1 ++ [bd])) by (rewrite app_length; cbn; lia).
      rewrite app_assoc, IH.
      * rewrite map_app, !app_assoc. reflexivity.
      * intros b bd' Hb. apply Hv. now rewrite <- app_assoc in Hb.
      * rewrite !app_length, map_length, flat_map_app, app_length. cbn [flat_map]. rewrite app_nil_r, Hpre. f_equal.
        unfold boundary_entries, counted. cbn [fst snd]. destruct (tb_auto bd); [reflexivity|]. rewrite map_length.
        rewrite <- (enum_filter_snd te_cell_owned (tb_edges bd) 0), map_length. reflexivity.
      * rewrite skipn_length. lia.
    + apply Hv. rewrite nth_error_app2, Nat.sub_diag by lia. reflexivity.
    + exact Hpre.
    + rewrite firstn_length. lia.
Qed.
Definition sized (ranks : list ts_rank) (fls : list (list vec3)) : Prop := Forall2 (fun rk fl => length fl = num_local rk) ranks fls.
Lemma record_all_from A ranks : forall i fls, sized ranks fls ->
  omap (fun p => record_rank (fst (fst p)) (snd (fst p)) (snd p))
       (combine (combine ranks (map (fun r => map (fun b => map (fun e => A (fst r) (fst b) (fst e)) (enum (tb_edges (snd b)))) (enum (snd r))) (enum_from i ranks))) fls)
  = Some (map (fun r => map (scaled A) (rank_entries r)) (enum_from i ranks)).
Proof.
  induction ranks as [|rk t IH]; intros i fls H; inversion H as [|? fl ? fls' Hl Ht E1 E2]; subst; cbn [enum_from map combine omap fst snd]; [reflexivity|].
  unfold record_rank.
  pose proof (record_rank_from A i rk [] (map (fun b => map (fun e => A i (fst b) (fst e)) (enum (tb_edges (snd b)))) (enum rk)) [] fl) as R.
  cbn [app length] in R. rewrite R.
  - cbn [obind]. rewrite IH by exact Ht. reflexivity.
  - intros b bd Hb. rewrite nth_error_map, enum_nth, Hb. reflexivity.
  - reflexivity.
  - now rewrite Hl, num_local_spec.
Qed.
Lemma sized_scaled A ranks : forall i, sized ranks (map (fun r => map (scaled A) (rank_entries r)) (enum_from i ranks)).
Proof.
  induction ranks as [|rk t IH]; intros i; cbn [enum_from map]; constructor; [|apply IH].
  rewrite map_length. unfold rank_entries. cbn [fst snd]. unfold enum.
  rewrite num_local_spec, <- (entries_counted i 0 rk), map_length. reflexivity.
Qed.
Lemma sized_init ranks : sized ranks (map (fun r => repeat vzero (num_local r)) ranks).
Proof. induction ranks as [|rk t IH]; cbn; constructor; [apply repeat_length|exact IH]. Qed.

(** ** Writing *)
Definition numbers (A : nat -> nat -> nat -> vec3) (T : R) (x : entry) : list R :=
  let '(r, b, e, _, ed) := x in
  let q := A r b e in
  [(te_len ed * c0 q / T)%R; (te_len ed * c1 q / T)%R; (te_len ed * c2 q / T)%R; te_nx ed; te_ny ed].
Definition metadata (x : entry) : list Z := let '(_, _, _, ty, ed) := x in [truncate (te_xc ed); truncate (te_yc ed); ty].
Lemma rank_data_ok A T (HT : T <> 0%R) xs : forall pre,
  rank_data (map snd xs) (length pre) (pre ++ map (scaled A) xs) T = Some (flat_map (numbers A T) xs).
Proof.
  induction xs as [|x t IH]; intros pre; cbn [map rank_data flat_map]; [reflexivity|].
  rewrite nth_error_app2, Nat.sub_diag by lia. cbn [nth_error obind].
  destruct x as [[[[r b] e] ty] ed]. cbn [snd scaled numbers].
  rewrite !(fun x => rdiv_some x T HT). cbn [obind].
  specialize (IH (pre ++ [vscal (te_len ed) (A r b e)])). rewrite app_length, <- app_assoc in IH. cbn [length app] in IH.
  rewrite Nat.add_1_r in IH. cbn [map scaled]. rewrite IH. reflexivity.
Qed.
Lemma locals_ok A T (HT : T <> 0%R) ranks : forall i,
  omap (fun p => rank_data (flat_map counted (fst p)) 0 (snd p) T) (combine ranks (map (fun r => map (scaled A) (rank_entries r)) (enum_from i ranks)))
  = Some (map (fun r => flat_map (numbers A T) (rank_entries r)) (enum_from i ranks)).
Proof.
  induction ranks as [|rk t IH]; intros i; cbn [enum_from map combine omap fst snd]; [reflexivity|].
  unfold rank_entries at 1. cbn [fst snd]. unfold enum. rewrite <- (entries_counted i 0 rk).
  pose proof (rank_data_ok A T HT (flat_map (boundary_entries i) (enum_from 0 rk)) []) as R. cbn [length app] in R.
  rewrite R. cbn [obind]. rewrite IH. reflexivity.
Qed.
Lemma local_md_ok i rk : local_md rk = flat_map metadata (rank_entries (i, rk)).
Proof.
  unfold rank_entries, local_md, enum. cbn [fst snd]. generalize 0. induction rk as [|b t IH]; intros k; cbn [enum_from flat_map]; [reflexivity|].
  rewrite flat_map_app, <- IH. f_equal. unfold boundary_entries, counted. cbn [fst snd]. destruct (tb_auto b); [reflexivity|].
  unfold enum. generalize 0. induction (tb_edges b) as [|e es IHe]; intros m; cbn [enum_from filter snd]; [reflexivity|].
  destruct (te_cell_owned e); cbn [flat_map map fst snd]; now rewrite <- IHe.
Qed.
Lemma place_ok {A} (buf : list A) : forall pre mid post, length mid = length buf ->
  place buf (length pre) (pre ++ mid ++ post) = Some (pre ++ buf ++ post).
Proof.
  induction buf as [|x t IH]; intros pre mid post Hm; cbn [place].
  - now destruct mid.
  - destruct mid as [|m mid]; [discriminate|]. cbn [app]. rewrite upd_app. cbn [obind].
    specialize (IH (pre ++ [x]) mid post). rewrite app_length, <- !app_assoc in IH. cbn [length app] in IH. rewrite Nat.add_1_r in IH.
    apply IH. cbn in Hm. lia.
Qed.
Lemma gather_ok {A} k (bufs : list (list A)) : forall counts pre mid, Forall2 (fun n b => length b = k * n) counts bufs ->
  length mid = length (concat bufs) ->
  gather k bufs counts (length pre) (pre ++ mid) = Some (pre ++ concat bufs).
Proof.
  induction bufs as [|b t IH]; intros counts pre mid HF Hm; inversion HF as [|n b' ct bt Hb Ht]; subst; cbn [gather concat].
  - now destruct mid.
  - rewrite <- Hb, Nat.eqb_refl. cbn [concat] in Hm. rewrite app_length in Hm.
    rewrite <- (firstn_skipn (length b) mid). rewrite place_ok by (rewrite firstn_length; lia). cbn [obind].
    rewrite app_assoc. rewrite <- app_length. rewrite IH; [now rewrite app_assoc|exact Ht|]. rewrite skipn_length. lia.
Qed.
Lemma fold_add_acc l : forall n, fold_left Nat.add l n = n + fold_left Nat.add l 0.
Proof. induction l as [|a t IH]; intros n; cbn; [lia|]. rewrite IH, (IH a). lia. Qed.
Lemma counts_concat {A} k counts (bufs : list (list A)) : Forall2 (fun n b => length b = k * n) counts bufs ->
  length (concat bufs) = k * fold_left Nat.add counts 0.
Proof.
  induction 1 as [|n b ct bt Hb Ht IH]; cbn [concat fold_left length]; [lia|].
  rewrite app_length, IH, Hb, Nat.add_0_l, (fold_add_acc ct n). lia.
Qed.
Lemma gatherv_ok {A} (z : A) k counts bufs : Forall2 (fun n b => length b = k * n) counts bufs -> gatherv z k counts bufs = Some (concat bufs).
Proof.
  intros H. unfold gatherv. apply (gather_ok k bufs counts [] _ H). rewrite repeat_length. symmetry. now apply counts_concat.
Qed.
Lemma flat_map_k {A B} (g : A -> list B) k xs : (forall x, length (g x) = k) -> length (flat_map g xs) = k * length xs.
Proof. intros H. induction xs as [|x t IH]; cbn; [lia|]. rewrite app_length, IH, H. lia. Qed.
Lemma flat_map_nth {A B} (g : A -> list B) k (Hk : forall x, length (g x) = k) xs : forall n x i, nth_error xs n = Some x -> i < k ->
  nth_error (flat_map g xs) (k * n + i) = nth_error (g x) i.
Proof.
  induction xs as [|y t IH]; intros [|n] x i Hn Hi; cbn [nth_error] in Hn; try discriminate; cbn [flat_map].
  - injection Hn as <-. rewrite Nat.mul_0_r, Nat.add_0_l, nth_error_app1; [reflexivity|]. now rewrite Hk.
  - rewrite nth_error_app2 by (rewrite Hk; nia). rewrite Hk. replace (k * S n + i - k) with (k * n + i) by nia. now apply IH.
Qed.
Lemma numbers_length A T x : length (numbers A T x) = 5.
Proof. now destruct x as [[[[r b] e] ty] ed]. Qed.
Lemma metadata_length x : length (metadata x) = 3.
Proof. now destruct x as [[[[r b] e] ty] ed]. Qed.
Lemma rows_ok time A T xs :
  omap (row_at time (flat_map metadata xs) (flat_map (numbers A T) xs)) (seq 0 (length xs)) = Some (map (row_of time A T) xs).
Proof.
  assert (H : forall n x, nth_error xs n = Some x -> row_at time (flat_map metadata xs) (flat_map (numbers A T) xs) n = Some (row_of time A T x)).
  { intros n x Hn. unfold row_at.
    pose proof (flat_map_nth metadata 3 metadata_length xs n x 0 Hn ltac:(lia)) as M0.
    pose proof (flat_map_nth (numbers A T) 5 (numbers_length A T) xs n x 0 Hn ltac:(lia)) as N0.
    rewrite Nat.add_0_r in M0, N0. rewrite M0, N0.
    rewrite !(flat_map_nth metadata 3 metadata_length xs n x) by (auto; lia).
    rewrite !(flat_map_nth (numbers A T) 5 (numbers_length A T) xs n x) by (auto; lia).
    destruct x as [[[[r b] e] ty] ed]. reflexivity. }
  revert H. generalize (row_at time (flat_map metadata xs) (flat_map (numbers A T) xs)). generalize (row_of time A T). intros ro g H.
  assert (G : forall k, (forall n x, nth_error xs n = Some x -> g (k + n) = Some (ro x)) -> omap g (seq k (length xs)) = Some (map ro xs)).
  { clear H. induction xs as [|x t IH]; intros k H; cbn [length seq omap map]; [reflexivity|].
    pose proof (H 0 x eq_refl) as H0. rewrite Nat.add_0_r in H0. rewrite H0. cbn [obind].
    rewrite IH; [reflexivity|]. intros n y Hn. specialize (H (S n) y Hn). now rewrite Nat.add_succ_r in H. }
  now apply G.
Qed.
Lemma entries_length_from i : forall ranks, length (flat_map rank_entries (enum_from i ranks)) = fold_left Nat.add (map num_local ranks) 0.
Proof.
  intros ranks; revert i. induction ranks as [|rk t IH]; intros i; cbn [enum_from flat_map map fold_left]; [reflexivity|].
  rewrite app_length, IH, Nat.add_0_l, (fold_add_acc _ (num_local rk)). f_equal.
  rewrite num_local_spec. unfold rank_entries. cbn [fst snd]. unfold enum. now rewrite <- (entries_counted i 0 rk), map_length.
Qed.
Lemma rank_entries_length i rk : length (rank_entries (i, rk)) = num_local rk.
Proof. rewrite num_local_spec. unfold rank_entries. cbn [fst snd]. unfold enum. now rewrite <- (entries_counted i 0 rk), map_length. Qed.
Lemma sizes_bufs {B} (g : entry -> list B) k (Hk : forall x, length (g x) = k) ranks : forall i,
  Forall2 (fun n b => length b = k * n) (map num_local ranks) (map (fun r => flat_map g (rank_entries r)) (enum_from i ranks)).
Proof.
  induction ranks as [|rk t IH]; intros i; cbn [map enum_from]; constructor; [|apply IH].
  now rewrite (flat_map_k g k _ Hk), rank_entries_length.
Qed.
Lemma concat_flat {B} (g : entry -> list B) (l : list (nat * ts_rank)) : concat (map (fun r => flat_map g (rank_entries r)) l) = flat_map g (flat_map rank_entries l).
Proof. induction l as [|a t IH]; cbn; [reflexivity|]. now rewrite IH, flat_map_app. Qed.
Lemma mds_ok ranks : forall i, map local_md ranks = map (fun r => flat_map metadata (rank_entries r)) (enum_from i ranks).
Proof. induction ranks as [|rk t IH]; intros i; cbn; [reflexivity|]. now rewrite (local_md_ok i rk), <- IH. Qed.

Lemma write_ok A ranks st step time :
  ts_fluxes st = map (fun r => map (scaled A) (rank_entries r)) (enum ranks) ->
  WriteBoundaryFluxes ranks st step time =
  Some (TsState (ts_flux st) (ts_accum st) (ts_fluxes st) (ts_time st) (ts_last st)
     (Some ((if Nat.eqb step 0 then [] else match ts_file st with Some l => l | None => [] end) ++
            map (row_of time A (if Reqb (ts_time st) 0 then 1 else ts_time st)) (entries ranks)))).
Proof.
  intros Hf. unfold WriteBoundaryFluxes.
  set (T := if Reqb (ts_time st) 0 then 1%R else ts_time st).
  assert (HT : T <> 0%R). { unfold T, Reqb. destruct (Req_EM_T (ts_time st) 0); lra. }
  rewrite Hf. unfold enum. rewrite (locals_ok A T HT). cbn [obind].
  rewrite (mds_ok ranks 0).
  rewrite (gatherv_ok _ 3 _ _ (sizes_bufs metadata 3 metadata_length ranks 0)). cbn [obind].
  rewrite (gatherv_ok _ 5 _ _ (sizes_bufs (numbers A T) 5 (numbers_length A T) ranks 0)). cbn [obind].
  rewrite !concat_flat, <- (entries_length_from 0 ranks). fold (enum ranks). fold (entries ranks).
  rewrite rows_ok. reflexivity.
Qed.

(** ** Whole runs *)
Record matches (bk : backend) (ranks : list ts_rank) (hist since : list event) (last : Z) (file : option (list row)) (st : ts_state) : Prop := Matches {
  m_flux : match bk with Petsc => True | Ceed p => ts_flux st = tabulate ranks (packed ranks (flux_now p (hist ++ since))) end;
  m_accum : ts_accum st = tabulate ranks (amount bk ranks hist since);
  m_fluxes : sized ranks (ts_fluxes st);
  m_time : ts_time st = total since;
  m_last : ts_last st = last;
  m_file : ts_file st = file;
}.
Lemma packed_combine ranks g f1 f2 r b e : g vzero vzero = vzero ->
  g (packed ranks f1 r b e) (packed ranks f2 r b e) = packed ranks (fun r b e => g (f1 r b e) (f2 r b e)) r b e.
Proof.
  intros Hg. unfold packed. destruct (nth_error ranks r) as [rk|]; [|exact Hg]. destruct (nth_error rk b) as [bd|]; [|exact Hg].
  destruct (nth_error (owned_positions (tb_edges bd)) e); [reflexivity|exact Hg].
Qed.
Lemma packed_ext ranks f g : (forall r b e, f r b e = g r b e) -> forall r b e, packed ranks f r b e = packed ranks g r b e.
Proof.
  intros H r b e. unfold packed. destruct (nth_error ranks r) as [rk|]; [|reflexivity]. destruct (nth_error rk b) as [bd|]; [|reflexivity].
  now destruct (nth_error (owned_positions (tb_edges bd)) e).
Qed.
Lemma packed_zero ranks r b e : packed ranks (fun _ _ _ => vzero) r b e = vzero.
Proof.
  unfold packed. destruct (nth_error ranks r) as [rk|]; [|reflexivity]. destruct (nth_error rk b) as [bd|]; [|reflexivity].
  now destruct (nth_error (owned_positions (tb_edges bd)) e).
Qed.
Lemma ceed_amount_app p s1 : forall hist s2 acc r b e,
  ceed_amount p hist (s1 ++ s2) acc r b e = ceed_amount p (hist ++ s1) s2 (ceed_amount p hist s1 acc) r b e.
Proof.
  induction s1 as [|[h f|s tm dt] t IH]; intros hist s2 acc r b e; cbn [app ceed_amount].
  - now rewrite app_nil_r.
  - rewrite IH, <- app_assoc. reflexivity.
  - rewrite IH, <- app_assoc. reflexivity.
Qed.
Lemma total_snoc since e : total (since ++ [e]) = (total since + match e with Monitor _ _ dt => dt | Eval _ _ => 0 end)%R.
Proof. unfold total. rewrite rsum_app. cbn [rsum]. ring. Qed.

Lemma evaluate_matches bk ranks hist since last file st h f : matches bk ranks hist since last file st ->
  matches bk ranks hist (since ++ [Eval h f]) last file (evaluate bk ranks st h f).
Proof.
  intros [Hf Ha Hs Ht Hl Hfi]. destruct bk as [|p]; cbn [evaluate].
  - constructor; cbn [ts_flux ts_accum ts_fluxes ts_time ts_last ts_file]; auto.
    + rewrite Ha, combine_tabulate. apply tabulate_ext. intros r rk b bd e ed _ _ _. cbn [amount].
      unfold petsc_amount. now rewrite fold_left_app.
    + rewrite total_snoc, Ht. ring.
  - constructor; cbn [ts_flux ts_accum ts_fluxes ts_time ts_last ts_file]; auto.
    + rewrite pack_tabulate, app_assoc. destruct p.
      * apply tabulate_ext. intros r rk b bd e ed _ _ _. apply packed_ext. intros r' b' e'. unfold flux_now. now rewrite fold_left_app.
      * rewrite Hf, combine_tabulate. apply tabulate_ext. intros r rk b bd e ed _ _ _.
        rewrite (packed_combine ranks vadd); [|unfold vadd, vzero; cbn; f_equal; ring].
        apply packed_ext. intros r' b' e'. unfold flux_now. now rewrite (fold_left_app _ (hist ++ since) [Eval h f]).
    + rewrite Ha. apply tabulate_ext. intros r rk b bd e ed _ _ _. cbn [amount]. apply packed_ext. intros r' b' e'.
      now rewrite ceed_amount_app.
    + rewrite total_snoc, Ht. ring.
Qed.
Lemma accumulate_matches bk ranks hist since last file st s tm dt : matches bk ranks hist since last file st ->
  matches bk ranks hist (since ++ [Monitor s tm dt]) last file (AccumulateBoundaryFluxes bk st dt).
Proof.
  intros [Hf Ha Hs Ht Hl Hfi]. unfold AccumulateBoundaryFluxes. destruct bk as [|p].
  - constructor; cbn [ts_flux ts_accum ts_fluxes ts_time ts_last ts_file]; auto.
    + rewrite Ha. apply tabulate_ext. intros r rk b bd e ed _ _ _. cbn [amount]. unfold petsc_amount. now rewrite fold_left_app.
    + now rewrite total_snoc, Ht.
  - constructor; cbn [ts_flux ts_accum ts_fluxes ts_time ts_last ts_file]; auto.
    + rewrite Hf, app_assoc. apply tabulate_ext. intros r rk b bd e ed _ _ _. apply packed_ext. intros r' b' e'. unfold flux_now. now rewrite (fold_left_app _ (hist ++ since)).
    + rewrite Ha, Hf, combine_tabulate. apply tabulate_ext. intros r rk b bd e ed _ _ _. cbn [amount].
      rewrite (packed_combine ranks (fun a x => vadd a (vscal dt x))); [|unfold vadd, vscal, vzero; cbn; f_equal; ring].
      apply packed_ext. intros r' b' e'. rewrite ceed_amount_app. reflexivity.
    + now rewrite total_snoc, Ht.
Qed.
Lemma amount_nil bk ranks hist r b e : amount bk ranks hist [] r b e = vzero.
Proof. destruct bk as [|p]; cbn [amount]; [reflexivity|]. apply packed_zero. Qed.
Lemma monitor_matches bk ranks interval hist since last file st s tm dt : interval <> 0 -> matches bk ranks hist since last file st ->
  let since' := since ++ [Monitor s tm dt] in
  exists st', WriteTimeSeries bk ranks interval st s tm dt = Ret st' /\
    (if (Nat.eqb (s mod interval) 0 && (last <? Z.of_nat s)%Z)%bool
     then matches bk ranks (hist ++ since') [] (Z.of_nat s) (written bk ranks file (hist, since', s, tm)) st'
     else matches bk ranks hist since' last file st').
Proof.
  intros Hi M. cbv zeta. pose proof (accumulate_matches bk ranks hist since last file st s tm dt M) as M1. clear M.
  unfold WriteTimeSeries. cbv zeta. set (st1 := AccumulateBoundaryFluxes bk st dt) in *. clearbody st1.
  set (since' := since ++ _) in *. clearbody since'.
  rewrite (proj2 (Nat.eqb_neq interval 0) Hi). rewrite (m_last _ _ _ _ _ _ _ M1).
  destruct (Nat.eqb (s mod interval) 0 && (last <? Z.of_nat s)%Z)%bool; [|now exists st1].
  destruct M1 as [Hf Ha Hs Ht Hl Hfi].
  rewrite Ha. pose proof (record_all_from (amount bk ranks hist since') ranks 0 _ Hs) as R.
  fold (enum ranks) in R. fold (tabulate ranks (amount bk ranks hist since')) in R. rewrite R. clear R. cbn [of_option rbind].
  rewrite (write_ok (amount bk ranks hist since')) by reflexivity.
  cbn [of_option rbind ts_flux ts_accum ts_fluxes ts_time ts_last ts_file ResetAccumulatedBoundaryFluxes].
  eexists. split; [reflexivity|].
  constructor; cbn [ts_flux ts_accum ts_fluxes ts_time ts_last ts_file]; auto.
  - destruct bk as [|p]; [exact I|]. now rewrite app_nil_r.
  - unfold zeros. apply tabulate_ext. intros r rk b bd e ed _ _ _. now rewrite amount_nil.
  - apply sized_scaled.
  - unfold written, rows_of. rewrite Hfi, Ht. reflexivity.
Qed.
Lemma init_matches bk ranks file : exists st, InitBoundaryFluxes 3 ranks file = Ret st /\ matches bk ranks [] [] (-1)%Z file st.
Proof.
  eexists. split; [reflexivity|]. constructor; cbn [ts_flux ts_accum ts_fluxes ts_time ts_last ts_file]; auto.
  - destruct bk as [|p]; [exact I|]. unfold zeros. apply tabulate_ext. intros r rk b bd e ed _ _ _. cbn [app]. symmetry. apply packed_zero.
  - unfold zeros. apply tabulate_ext. intros r rk b bd e ed _ _ _. symmetry. apply amount_nil.
  - apply sized_init.
Qed.
Lemma runs_file bk ranks interval evs : interval <> 0 -> forall hist since last file st, matches bk ranks hist since last file st ->
  exists st', runs bk ranks interval evs (Ret st) = Ret st' /\
              ts_file st' = fold_left (written bk ranks) (outputs interval last hist since evs) file.
Proof.
  intros Hi. induction evs as [|[h f|s tm dt] t IH]; intros hist since last file st M.
  - exists st. split; [reflexivity|]. apply M.
  - unfold runs. cbn [fold_left rbind react]. apply IH. now apply evaluate_matches.
  - unfold runs. cbn [fold_left rbind react outputs].
    destruct (monitor_matches bk ranks interval hist since last file st s tm dt Hi M) as (st' & E & M'). rewrite E.
    destruct (Nat.eqb (s mod interval) 0 && (last <? Z.of_nat s)%Z)%bool; cbn [fold_left]; now apply IH.
Qed.

(** ** Facts about the specification *)
Lemma outputs_steps interval evs : forall last hist since o, In o (outputs interval last hist since evs) ->
  let '(_, _, s, _) := o in (last < Z.of_nat s)%Z /\ s mod interval = 0.
Proof.
  induction evs as [|[h f|s tm dt] t IH]; intros last hist since o; cbn [outputs].
  - intros [].
  - apply IH.
  - destruct (Nat.eqb (s mod interval) 0 && (last <? Z.of_nat s)%Z)%bool eqn:E.
    + apply andb_true_iff in E. destruct E as [E1 E2]. apply Nat.eqb_eq in E1. apply Z.ltb_lt in E2.
      intros [<-|H]; [auto|]. specialize (IH _ _ _ _ H). destruct o as [[[a b] s'] c]. split; [lia|apply IH].
    + apply IH.
Qed.
(* nothing is ever erased once the first output is at step 0 or there was no file *)
Lemma written_all bk ranks os : forall rows, (forall o, In o os -> let '(_, _, s, _) := o in s <> 0) ->
  fold_left (written bk ranks) os (Some rows) = Some (rows ++ flat_map (rows_of bk ranks) os).
Proof.
  induction os as [|o t IH]; intros rows H; cbn [fold_left flat_map]; [now rewrite app_nil_r|].
  destruct o as [[[hist since] s] tm]. pose proof (H _ (or_introl eq_refl)) as Hs. cbn in Hs.
  unfold written at 2. rewrite (proj2 (Nat.eqb_neq s 0) Hs). rewrite IH; [now rewrite app_assoc|].
  intros o Ho. apply H. now right.
Qed.
