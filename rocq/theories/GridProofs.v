(** Lemmas about the mesh of a run and the grid it writes. *)
From Coq Require Import ZArith Sorted.
From Verif Require Import Base MeshMapsModel MeshMapsProofs DataModel SetupModel CheckpointModel CheckpointProperties QueriesModel QueriesProofs GridModel.
Local Open Scope nat_scope.

Lemma omap_ok {A B} (f : A -> option B) (g : A -> B) l : (forall a, In a l -> f a = Some (g a)) -> omap f l = Some (map g l).
Proof.
  induction l as [|a t IH]; intros H; cbn [omap map]; [reflexivity|]. rewrite (H a (or_introl eq_refl)). cbn [obind].
  rewrite IH by (intros; apply H; right; assumption). reflexivity.
Qed.
Lemma upd_skip {A} (l : list A) r i x : upd (l ++ r) (length l + i) x = option_map (app l) (upd r i x).
Proof.
  induction l as [|a t IH]; cbn [app length Nat.add upd]; [destruct (upd r i x); reflexivity|]. rewrite IH. destruct (upd r i x); reflexivity.
Qed.
Lemma repeat_app_S {A} (a : A) n m : repeat a (n + m) = repeat a n ++ repeat a m.
Proof. apply repeat_app. Qed.

(** ** Rows of a table, each in its own part of one array *)
Definition pad (w : nat) (r : list Z) : list Z := r ++ repeat (-1)%Z (w - length r).
Definition flat (w : nat) (rows : list (list Z)) : list Z := List.concat (map (pad w) rows).
Lemma pad_length w r : length r <= w -> length (pad w r) = w.
Proof. intros H. unfold pad. rewrite app_length, repeat_length. lia. Qed.
Lemma flat_length w rows : (forall r, In r rows -> length r <= w) -> length (flat w rows) = length rows * w.
Proof.
  induction rows as [|r t IH]; intros H; [reflexivity|]. unfold flat in *. cbn [map List.concat length]. rewrite app_length, pad_length by (apply H; left; reflexivity).
  rewrite IH by (intros; apply H; right; assumption). cbn. reflexivity.
Qed.
Lemma flat_app w a b : flat w (a ++ b) = flat w a ++ flat w b.
Proof. unfold flat. rewrite map_app, concat_app. reflexivity. Qed.
Lemma flat_nil w n : flat w (repeat [] n) = repeat (-1)%Z (n * w).
Proof.
  induction n as [|n IH]; [reflexivity|]. cbn [repeat]. unfold flat in *. cbn [map List.concat]. rewrite IH. unfold pad. cbn [app length]. rewrite Nat.sub_0_r, <- repeat_app. reflexivity.
Qed.
Lemma upd_flat w done r rest x : (forall r, In r done -> length r <= w) -> length r < w ->
  upd (flat w (done ++ r :: rest)) (length done * w + length r) x = Some (flat w (done ++ (r ++ [x]) :: rest)).
Proof.
  intros Hd Hr. rewrite !flat_app. rewrite <- (flat_length w done Hd), upd_skip.
  change (flat w (r :: rest)) with (pad w r ++ flat w rest). change (flat w ((r ++ [x]) :: rest)) with (pad w (r ++ [x]) ++ flat w rest).
  unfold pad at 1. replace (w - length r) with (S (w - (length r + 1))) by lia. cbn [repeat]. rewrite <- app_assoc. cbn [app].
  rewrite upd_middle. cbn [option_map]. unfold pad. rewrite app_length. cbn [length]. rewrite <- !app_assoc. reflexivity.
Qed.
Lemma nth_flat w rows : (forall r, In r rows -> length r <= w) -> forall i r k, nth_error rows i = Some r -> k < w -> nth_error (flat w rows) (i * w + k) = nth_error (pad w r) k.
Proof.
  induction rows as [|a t IH]; intros H i r k Hi Hk; [destruct i; discriminate|].
  assert (La : length (pad w a) = w) by (apply pad_length, H; left; reflexivity).
  change (flat w (a :: t)) with (pad w a ++ flat w t). destruct i as [|i]; cbn [nth_error] in Hi.
  - injection Hi as ->. cbn [Nat.mul Nat.add]. rewrite nth_error_app1 by lia. reflexivity.
  - rewrite nth_error_app2 by (cbn [Nat.mul]; lia). replace (S i * w + k - length (pad w a)) with (i * w + k) by (cbn [Nat.mul]; lia). apply IH; [intros; apply H; right; assumption|exact Hi|exact Hk].
Qed.
Lemma rows_of_flat w rows : 0 < w -> (forall r, In r rows -> length r <= w) -> rows_of w (flat w rows) = Some (map (pad w) rows).
Proof.
  intros Hw H. unfold rows_of. rewrite (flat_length w rows H), Nat.div_mul by lia.
  rewrite (omap_ok _ (fun c => pad w (nth c rows []))).
  - apply f_equal. apply nth_error_ext. intros i. rewrite !nth_error_map. destruct (nth_error rows i) as [r|] eqn:E.
    + assert (Hi : i < length rows) by (apply nth_error_Some; congruence). rewrite (nth_error_nth' _ 0) by (rewrite seq_length; exact Hi). rewrite seq_nth by exact Hi. cbn [Nat.add option_map]. rewrite (nth_error_nth _ _ [] E). reflexivity.
    + apply nth_error_None in E. replace (nth_error (seq 0 (length rows)) i) with (@None nat); [reflexivity|]. symmetry. apply nth_error_None. rewrite seq_length. exact E.
  - intros c Hc. apply in_seq in Hc. destruct (nth_error rows c) as [r|] eqn:E; [|apply nth_error_None in E; lia]. rewrite (nth_error_nth _ _ [] E).
    assert (Hr : length r <= w) by (apply H; eapply nth_error_In; exact E).
    rewrite (omap_ok _ (fun j => nth j (pad w r) 0%Z)).
    + apply f_equal. apply nth_error_ext. intros j. rewrite nth_error_map. destruct (Nat.lt_ge_cases j w) as [L|L].
      * rewrite (nth_error_nth' (seq 0 w) 0) by (rewrite seq_length; exact L). rewrite seq_nth by exact L. cbn [Nat.add option_map]. symmetry. apply nth_error_nth'. rewrite pad_length; lia.
      * replace (nth_error (seq 0 w) j) with (@None nat) by (symmetry; apply nth_error_None; rewrite seq_length; exact L). cbn [option_map]. symmetry. apply nth_error_None. rewrite pad_length; lia.
    + intros j Hj. apply in_seq in Hj. rewrite (nth_flat w rows H c r j E) by lia. apply nth_error_nth'. rewrite pad_length; lia.
Qed.

(** ** Sizes *)
Definition rowE (edges : nat * nat) (p : list nat) : list Z := map (fun q => Z.of_nat q - Z.of_nat (fst edges))%Z (filter (fun q => IsClosureWithinBounds q edges) (tl p)).
Definition rowO (edges : nat * nat) (first : nat) (p : list nat) : list Z := map (fun q => Z.of_nat q - Z.of_nat first)%Z (filter (fun q => negb (IsClosureWithinBounds q edges)) (tl p)).
Lemma count_points_spec edges p first : count_points edges p = (length (rowE edges p), length (rowO edges first p)).
Proof.
  unfold count_points, rowE, rowO. rewrite !map_length. assert (G : forall l n, fold_left (fun n q => if IsClosureWithinBounds q edges then (S (fst n), snd n) else (fst n, S (snd n))) l n
    = (fst n + length (filter (fun q => IsClosureWithinBounds q edges) l), snd n + length (filter (fun q => negb (IsClosureWithinBounds q edges)) l))).
  { induction l as [|q t IH]; intros [a b]; cbn [fold_left filter fst snd]; [cbn; now rewrite !Nat.add_0_r|]. rewrite IH. destruct (IsClosureWithinBounds q edges); cbn [fst snd negb length]; apply f_equal2; lia. }
  rewrite G. reflexivity.
Qed.
Lemma max_points_ge edges ps p : In p ps -> fst (count_points edges p) <= fst (max_points edges ps) /\ snd (count_points edges p) <= snd (max_points edges ps).
Proof.
  unfold max_points. set (f := fun (m : nat * nat) p => _).
  assert (M : forall m q, fst m <= fst (f m q) /\ snd m <= snd (f m q) /\ fst (count_points edges q) <= fst (f m q) /\ snd (count_points edges q) <= snd (f m q)).
  { intros m q. unfold f. cbv zeta. cbn [fst snd]. destruct (Nat.ltb_spec (fst m) (fst (count_points edges q))); destruct (Nat.ltb_spec (snd m) (snd (count_points edges q))); lia. }
  assert (G : forall l m, fst m <= fst (fold_left f l m) /\ snd m <= snd (fold_left f l m)).
  { induction l as [|q t IH]; intros m; cbn [fold_left]; [lia|]. specialize (IH (f m q)). specialize (M m q). lia. }
  generalize (0, 0). induction ps as [|q t IH]; intros m H; [destruct H|]. cbn [fold_left]. destruct H as [-> |H]; [|exact (IH _ H)]. specialize (G t (f m p)). specialize (M m p). lia.
Qed.
Lemma all_max_ge ms m : In m ms -> fst m <= fst (all_max ms) /\ snd m <= snd (all_max ms).
Proof.
  unfold all_max. set (f := fun (a b : nat * nat) => _).
  assert (G : forall l m, fst m <= fst (fold_left f l m) /\ snd m <= snd (fold_left f l m)).
  { induction l as [|q t IH]; intros a; cbn [fold_left]; [lia|]. specialize (IH (f a q)). unfold f in *. cbn [fst snd] in *. lia. }
  generalize (0, 0). induction ms as [|q t IH]; intros a H; [destruct H|]. cbn [fold_left]. destruct H as [-> |H]; [|exact (IH _ H)]. specialize (G t (f a m)). assert (M : fst m <= fst (f a m) /\ snd m <= snd (f a m)) by (unfold f; cbn [fst snd]; lia). lia.
Qed.

(** ** Filling the tables *)
Section Tables.
Variables (edges : nat * nat) (first we wo : nat).
Definition offs (w n : nat) : list nat := map (fun i => i * w) (seq 0 (S n)).
Lemma offs_nth w n i : i < n -> nth_error (offs w n) i = Some (i * w).
Proof. intros H. unfold offs. rewrite nth_error_map, (nth_error_nth' _ 0) by (rewrite seq_length; lia). rewrite seq_nth by lia. reflexivity. Qed.
Definition St (n : nat) (dE : list (list Z)) (rE : list Z) (dO : list (list Z)) (rO : list Z) (rest : nat) : tables :=
  Tables (flat we (dE ++ rE :: repeat [] rest)) (flat wo (dO ++ rO :: repeat [] rest))
         (map (@length Z) dE ++ length rE :: repeat we rest) (map (@length Z) dO ++ length rO :: repeat wo rest) (offs we n) (offs wo n).
Definition fits (w : nat) (rows : list (list Z)) : Prop := forall r, In r rows -> length r <= w.
Lemma nums_get (d : list (list Z)) k r : nth_error (map (@length Z) d ++ k :: r) (length d) = Some k.
Proof. rewrite nth_error_app2 by (rewrite map_length; lia). rewrite map_length, Nat.sub_diag. reflexivity. Qed.
Lemma nums_upd (d : list (list Z)) k r x : upd (map (@length Z) d ++ k :: r) (length d) x = Some (map (@length Z) d ++ x :: r).
Proof. rewrite <- (map_length (@length Z) d). apply upd_middle. Qed.
Lemma place_spec n dE rE dO rO rest q : fits we dE -> fits wo dO -> length dE = length dO -> length dE < n ->
  (IsClosureWithinBounds q edges = true -> length rE < we) -> (IsClosureWithinBounds q edges = false -> length rO < wo) ->
  place edges first (length dE) (St n dE rE dO rO rest) q
  = Some (if IsClosureWithinBounds q edges then St n dE (rE ++ [Z.of_nat q - Z.of_nat (fst edges)]%Z) dO rO rest
          else St n dE rE dO (rO ++ [Z.of_nat q - Z.of_nat first]%Z) rest).
Proof.
  intros FE FO L Hn HE HO. unfold place, St. cbn [t_eoffs t_ooffs t_nedges t_nothers t_edges t_others]. destruct (IsClosureWithinBounds q edges).
  - rewrite offs_nth by exact Hn. cbn [obind]. rewrite nums_get. cbn [obind]. rewrite (upd_flat we dE rE) by auto. cbn [obind]. rewrite nums_upd. cbn [obind]. rewrite app_length. cbn [length]. rewrite Nat.add_1_r. reflexivity.
  - rewrite L in *. rewrite offs_nth by exact Hn. cbn [obind]. rewrite nums_get. cbn [obind]. rewrite (upd_flat wo dO rO) by auto. cbn [obind]. rewrite nums_upd. cbn [obind]. rewrite app_length. cbn [length]. rewrite Nat.add_1_r. reflexivity.
Qed.
Lemma place_list n dE dO rest : fits we dE -> fits wo dO -> length dE = length dO -> length dE < n -> forall qs rE rO,
  length rE + length (filter (fun q => IsClosureWithinBounds q edges) qs) <= we -> length rO + length (filter (fun q => negb (IsClosureWithinBounds q edges)) qs) <= wo ->
  ofold (place edges first (length dE)) qs (St n dE rE dO rO rest)
  = Some (St n dE (rE ++ map (fun q => Z.of_nat q - Z.of_nat (fst edges))%Z (filter (fun q => IsClosureWithinBounds q edges) qs))
               dO (rO ++ map (fun q => Z.of_nat q - Z.of_nat first)%Z (filter (fun q => negb (IsClosureWithinBounds q edges)) qs)) rest).
Proof.
  intros FE FO L Hn. induction qs as [|q t IH]; intros rE rO HE HO; cbn [ofold filter map]; [now rewrite !app_nil_r|].
  cbn [filter] in HE, HO. rewrite (place_spec n dE rE dO rO rest q FE FO L Hn).
  2:{ intros E. rewrite E in HE. cbn [length] in HE. lia. }
  2:{ intros E. rewrite E in HO. cbn [length negb] in HO. lia. }
  cbn [obind]. destruct (IsClosureWithinBounds q edges) eqn:E; cbn [negb length map] in *.
  - rewrite IH by (rewrite ?app_length; cbn [length]; lia). rewrite <- !app_assoc. reflexivity.
  - rewrite IH by (rewrite ?app_length; cbn [length]; lia). rewrite <- !app_assoc. reflexivity.
Qed.
Definition Bt (n : nat) (dE dO : list (list Z)) (rest : nat) : tables :=
  Tables (flat we (dE ++ repeat [] rest)) (flat wo (dO ++ repeat [] rest)) (map (@length Z) dE ++ repeat we rest) (map (@length Z) dO ++ repeat wo rest) (offs we n) (offs wo n).
Lemma items_list n : forall ps dE dO, fits we dE -> fits wo dO -> length dE = length dO -> length dE + length ps = n ->
  (forall p, In p ps -> length (rowE edges p) <= we /\ length (rowO edges first p) <= wo) ->
  ofold (place_item edges first) (combine (seq (length dE) (length ps)) ps) (Bt n dE dO (length ps))
  = Some (Bt n (dE ++ map (rowE edges) ps) (dO ++ map (rowO edges first) ps) 0).
Proof.
  induction ps as [|p t IH]; intros dE dO FE FO L Hn H; cbn [seq length combine ofold map]; [now rewrite !app_nil_r|].
  cbn [length] in Hn. destruct (H p (or_introl eq_refl)) as [H1 H2]. unfold place_item at 1. unfold Bt at 1 2 3 4 5 6. cbn [fst snd t_eoffs t_ooffs t_nedges t_nothers t_edges t_others repeat].
  rewrite nums_upd. cbn [obind]. rewrite L at 1. rewrite nums_upd. cbn [obind].
  unfold rowE, rowO in H1, H2. rewrite map_length in H1, H2.
  assert (P := place_list n dE dO (length t) FE FO L ltac:(lia) (tl p) [] [] H1 H2). unfold St at 1 in P. cbn [length app] in P. rewrite P. clear P. cbn [obind].
  change (map _ (filter (fun q => IsClosureWithinBounds q edges) (tl p))) with (rowE edges p). change (map _ (filter (fun q => negb (IsClosureWithinBounds q edges)) (tl p))) with (rowO edges first p).
  assert (E : St n dE (rowE edges p) dO (rowO edges first p) (length t) = Bt n (dE ++ [rowE edges p]) (dO ++ [rowO edges first p]) (length t)).
  { unfold St, Bt. rewrite !map_app, <- !app_assoc. reflexivity. }
  rewrite E. replace (S (length dE)) with (length (dE ++ [rowE edges p])) by (rewrite app_length; cbn; lia). unfold rowE, rowO in *.
  rewrite IH.
  - rewrite <- !app_assoc. reflexivity.
  - intros r Hr. apply in_app_or in Hr. destruct Hr as [Hr|[<- |[]]]; [exact (FE r Hr)|rewrite map_length; exact H1].
  - intros r Hr. apply in_app_or in Hr. destruct Hr as [Hr|[<- |[]]]; [exact (FO r Hr)|rewrite map_length; exact H2].
  - rewrite !app_length. cbn. lia.
  - rewrite app_length. cbn. lia.
  - intros q Hq. apply H. right. exact Hq.
Qed.
Lemma build_spec ps : (forall p, In p ps -> length (rowE edges p) <= we /\ length (rowO edges first p) <= wo) ->
  build_tables edges first (we, wo) ps = Some (Tables (flat we (map (rowE edges) ps)) (flat wo (map (rowO edges first) ps))
    (map (fun p => length (rowE edges p)) ps) (map (fun p => length (rowO edges first p)) ps) (offs we (length ps)) (offs wo (length ps))).
Proof.
  intros H. unfold build_tables. cbv zeta. cbn [fst snd]. assert (I := items_list (length ps) ps [] [] ltac:(intros r []) ltac:(intros r []) eq_refl eq_refl H).
  unfold Bt in I. cbn [app length map] in I. rewrite !flat_nil in I. unfold offs in *. rewrite I. cbn [repeat]. rewrite !app_nil_r, !map_map. reflexivity.
Qed.
End Tables.
Lemma entries_spec w rows : (forall r, In r rows -> length r <= w) -> forall i r, nth_error rows i = Some r ->
  entries (offs w (length rows)) (map (@length Z) rows) (flat w rows) i = Some r.
Proof.
  intros H i r E. assert (Hi : i < length rows) by (apply nth_error_Some; congruence). assert (Hr : length r <= w) by (apply H; eapply nth_error_In; exact E).
  unfold entries. rewrite nth_error_map, E. cbn [option_map obind]. rewrite offs_nth by exact Hi. cbn [obind].
  rewrite (omap_ok _ (fun k => nth k r 0%Z)).
  - apply f_equal. apply nth_error_ext. intros k. rewrite nth_error_map. destruct (Nat.lt_ge_cases k (length r)) as [L|L].
    + rewrite (nth_error_nth' (seq 0 (length r)) 0) by (rewrite seq_length; exact L). rewrite seq_nth by exact L. cbn. symmetry. apply nth_error_nth'. exact L.
    + replace (nth_error (seq 0 (length r)) k) with (@None nat) by (symmetry; apply nth_error_None; rewrite seq_length; exact L). cbn. symmetry. apply nth_error_None. exact L.
  - intros k Hk. apply in_seq in Hk. rewrite (nth_flat w rows H i r k E) by lia. unfold pad. rewrite nth_error_app1 by lia. apply nth_error_nth'. lia.
Qed.

(** ** Numbers of the vertices *)
Lemma sorted_complete l : forall a, StronglySorted lt l -> (forall x, In x l -> a <= x < a + length l) -> l = seq a (length l).
Proof.
  induction l as [|x t IH]; intros a SS H; [reflexivity|]. inversion SS as [|? ? St Fx]; subst. rewrite Forall_forall in Fx. cbn [length seq].
  assert (Lt : forall b, (forall y, In y t -> b <= y < b + length t) -> t = seq b (length t)) by (intros b Hb; apply IH; assumption).
  assert (Hx := H x (or_introl eq_refl)). cbn [length] in Hx.
  assert (Sz : forall l b n, StronglySorted lt l -> (forall y, In y l -> b <= y < b + n) -> length l <= n).
  { clear. induction l as [|y t IH]; intros b n SS H; [cbn; lia|]. inversion SS as [|? ? St F]; subst. rewrite Forall_forall in F. assert (Hy := H y (or_introl eq_refl)). cbn [length].
    destruct n as [|n]; [lia|]. assert (length t <= b + S n - S y); [|lia]. apply (IH (S y)); [exact St|]. intros z Hz. specialize (F z Hz). specialize (H z (or_intror Hz)). lia. }
  assert (x = a).
  { assert (length t <= a + S (length t) - S x); [|lia]. apply (Sz t (S x)); [exact St|]. intros y Hy. specialize (Fx y Hy). specialize (H y (or_intror Hy)). cbn [length] in H. lia. }
  subst x. apply f_equal. apply Lt. intros y Hy. specialize (Fx y Hy). specialize (H y (or_intror Hy)). cbn [length] in H. lia.
Qed.
Lemma find_seq n : forall a v, a <= v < a + n -> find_int v (seq a n) = Some (v - a).
Proof.
  induction n as [|n IH]; intros a v H; [lia|]. cbn [seq find_int]. destruct (Nat.eqb_spec a v) as [-> |N]; [now rewrite Nat.sub_diag|].
  rewrite IH by lia. cbn [option_map]. apply f_equal. lia.
Qed.
(* the points of the migration SF are all points of the part, in order *)
Definition all_points (local : option (list nat)) (n : nat) : Prop :=
  match local with None => True | Some l => StronglySorted lt l /\ length l = n /\ forall x, In x l -> x < n end.
Lemma ids_loop_spec local natural v0 vs ve : all_points local (length natural) -> ve <= length natural -> forall vals k done mn,
  v0 + k + length vals = ve -> vs = v0 -> k = length done ->
  (forall j, j < length vals -> nth_error natural (v0 + k + j) = nth_error vals j) ->
  ids_loop (length vals) (v0 + k) vs ve local natural (done ++ repeat (-1)%Z (length vals)) mn
  = Ret (done ++ vals, match k with O => match vals with [] => mn | m :: t => fold_left Z.min t m end | S _ => fold_left Z.min vals mn end).
Proof.
  intros A Hve. induction vals as [|x t IH]; intros k done mn Hk Hv Hd H; cbn [length] in *.
  - cbn [ids_loop]. replace (v0 + k <? ve) with false by (symmetry; apply Nat.ltb_ge; lia). cbn [repeat fold_left]. destruct k; reflexivity.
  - cbn [ids_loop]. replace (v0 + k <? ve) with true by (symmetry; apply Nat.ltb_lt; lia). replace (v0 + k <? vs) with false by (symmetry; apply Nat.ltb_ge; lia). cbv zeta.
    assert (F : match local with None => Ret (v0 + k) | Some l => match find_int (v0 + k) l with Some j => Ret j | None => Error end end = Ret (v0 + k)).
    { destruct local as [l|]; [|reflexivity]. destruct A as (SS & L & B). rewrite (sorted_complete l 0 SS) by (intros y Hy; rewrite L; specialize (B y Hy); lia). rewrite L, find_seq by lia. now rewrite Nat.sub_0_r. }
    rewrite F. cbn [rbind]. assert (E := H 0 ltac:(lia)). rewrite Nat.add_0_r in E. cbn [nth_error] in E. rewrite E. cbn [of_option rbind].
    replace (v0 + k - vs) with (length done) by lia. cbn [repeat]. rewrite upd_middle. cbn [of_option rbind].
    replace (S (v0 + k)) with (v0 + S k) by lia. replace (done ++ x :: repeat (-1)%Z (length t)) with ((done ++ [x]) ++ repeat (-1)%Z (length t)) by (rewrite <- app_assoc; reflexivity).
    rewrite IH.
    + rewrite <- app_assoc. cbn [app]. destruct k as [|k].
      * replace (v0 + 0 =? vs) with true by (symmetry; apply Nat.eqb_eq; lia). reflexivity.
      * replace (v0 + S k =? vs) with false by (symmetry; apply Nat.eqb_neq; lia). reflexivity.
    + lia.
    + exact Hv.
    + rewrite app_length. cbn. lia.
    + intros j Hj. replace (v0 + S k + j) with (v0 + k + S j) by lia. rewrite (H (S j)) by lia. reflexivity.
Qed.
Lemma fold_min_le l : forall m, (fold_left Z.min l m <= m)%Z /\ forall x, In x l -> (fold_left Z.min l m <= x)%Z.
Proof.
  induction l as [|y t IH]; intros m; cbn [fold_left]; [split; [lia|intros x []]|]. destruct (IH (Z.min m y)) as [H1 H2]. split; [lia|].
  intros x [-> |Hx]; [lia|exact (H2 x Hx)].
Qed.
Lemma fold_min_ge l b : forall m, (b <= m)%Z -> (forall x, In x l -> (b <= x)%Z) -> (b <= fold_left Z.min l m)%Z.
Proof.
  induction l as [|y t IH]; intros m Hm H; cbn [fold_left]; [exact Hm|]. apply IH; [|intros; apply H; right; assumption]. specialize (H y (or_introl eq_refl)). lia.
Qed.
Lemma all_min_is ms b : In b ms -> (forall x, In x ms -> (b <= x)%Z) -> all_min ms = b.
Proof.
  intros Hb H. destruct ms as [|m t]; [destruct Hb|]. unfold all_min. apply Z.le_antisymm.
  - destruct (fold_min_le t m) as [H1 H2]. destruct Hb as [-> |Hb]; [exact H1|exact (H2 b Hb)].
  - apply fold_min_ge; [apply H; left; reflexivity|intros; apply H; right; assumption].
Qed.

(** ** Coordinates *)
Lemma set_values_spec (F : nat -> R) n ks : (forall k, In k ks -> k < n) -> forall v, length v = n ->
  exists v', ofold VecSetValues (map (fun k => (Z.of_nat k, F k)) ks) v = Some v' /\ length v' = n /\
    forall j, nth_error v' j = if in_dec Nat.eq_dec j ks then (if Nat.ltb j n then Some (F j) else None) else nth_error v j.
Proof.
  induction ks as [|k t IH]; intros H v Lv; cbn [map ofold]; [exists v; split; [reflexivity|]; split; [exact Lv|]; intros j; reflexivity|].
  unfold VecSetValues at 1. cbn [fst snd]. replace (Z.of_nat k <? 0)%Z with false by (symmetry; apply Z.ltb_ge; lia). rewrite Nat2Z.id.
  assert (Hk := H k (or_introl eq_refl)). destruct (upd_some v k (F k) ltac:(lia)) as [v1 E1]. rewrite E1. cbn [obind].
  destruct (IH ltac:(intros; apply H; right; assumption) v1 ltac:(rewrite (upd_length _ _ _ _ E1); exact Lv)) as (v' & E & L & P). exists v'. split; [exact E|]. split; [exact L|].
  intros j. rewrite P, (upd_get _ _ _ _ j E1). destruct (in_dec Nat.eq_dec j t) as [I|I]; destruct (in_dec Nat.eq_dec j (k :: t)) as [I'|I'].
  - reflexivity.
  - exfalso. apply I'. right. exact I.
  - destruct I' as [-> |I']; [|contradiction]. rewrite Nat.eqb_refl. replace (j <? n) with true by (symmetry; apply Nat.ltb_lt; exact Hk). reflexivity.
  - destruct (Nat.eqb_spec j k) as [-> |N]; [exfalso; apply I'; left; reflexivity|reflexivity].
Qed.
Lemma set_all (F : nat -> R) n ks v : (forall k, In k ks <-> k < n) -> length v = n -> ofold VecSetValues (map (fun k => (Z.of_nat k, F k)) ks) v = Some (map F (seq 0 n)).
Proof.
  intros H Lv. destruct (set_values_spec F n ks ltac:(intros; now apply H) v Lv) as (v' & E & L & P). rewrite E. apply f_equal. apply nth_error_ext. intros j. rewrite P, nth_error_map.
  destruct (in_dec Nat.eq_dec j ks) as [I|I].
  - apply H in I. replace (j <? n) with true by (symmetry; apply Nat.ltb_lt; exact I). rewrite (nth_error_nth' (seq 0 n) 0) by (rewrite seq_length; exact I). rewrite seq_nth by exact I. reflexivity.
  - assert (n <= j) by (destruct (Nat.lt_ge_cases j n) as [X|X]; [apply H in X; contradiction|exact X]).
    replace (nth_error (seq 0 n) j) with (@None nat) by (symmetry; apply nth_error_None; rewrite seq_length; lia). cbn. apply nth_error_None. lia.
Qed.
Lemma interleave_gen (fx fy fz : nat -> R) ks0 : forall ks done doneks, ks0 = doneks ++ ks -> length done = length doneks * 3 ->
  ofold (fun xyz v =>
    let* a := nth_error (map fx ks0) v in let* xyz := upd xyz (v * 3) a in
    let* b := nth_error (map fy ks0) v in let* xyz := upd xyz (v * 3 + 1) b in
    let* c := nth_error (map fz ks0) v in upd xyz (v * 3 + 2) c) (seq (length doneks) (length ks)) (done ++ repeat 0%R (length ks * 3))
  = Some (done ++ List.concat (map (fun k => [fx k; fy k; fz k]) ks)).
Proof.
  induction ks as [|k t IH]; intros done doneks E L; cbn [length seq ofold map List.concat]; [reflexivity|].
  assert (G : forall f : nat -> R, nth_error (map f ks0) (length doneks) = Some (f k)).
  { intros f. rewrite nth_error_map, E, nth_error_app2, Nat.sub_diag by lia. reflexivity. }
  rewrite !G. cbn [obind]. change (S (length t) * 3) with (S (S (S (length t * 3)))). cbn [repeat]. rewrite <- L.
  rewrite upd_middle. cbn [obind]. replace (length done + 1) with (length (done ++ [fx k])) by (rewrite app_length; reflexivity).
  replace (done ++ fx k :: 0%R :: 0%R :: repeat 0%R (length t * 3)) with ((done ++ [fx k]) ++ 0%R :: 0%R :: repeat 0%R (length t * 3)) by (rewrite <- app_assoc; reflexivity).
  rewrite upd_middle. cbn [obind]. replace (length done + 2) with (length (done ++ [fx k; fy k])) by (rewrite app_length; reflexivity).
  replace ((done ++ [fx k]) ++ fy k :: 0%R :: repeat 0%R (length t * 3)) with ((done ++ [fx k; fy k]) ++ 0%R :: repeat 0%R (length t * 3)) by (rewrite <- !app_assoc; reflexivity).
  rewrite upd_middle. cbn [obind].
  replace ((done ++ [fx k; fy k]) ++ fz k :: repeat 0%R (length t * 3)) with ((done ++ [fx k; fy k; fz k]) ++ repeat 0%R (length t * 3)) by (rewrite <- !app_assoc; reflexivity).
  replace (S (length doneks)) with (length (doneks ++ [k])) by (rewrite app_length; cbn; lia).
  rewrite (IH (done ++ [fx k; fy k; fz k]) (doneks ++ [k])).
  - rewrite <- !app_assoc. reflexivity.
  - rewrite E, <- app_assoc. reflexivity.
  - rewrite !app_length. cbn [length]. lia.
Qed.
Lemma interleave_spec (fx fy fz : nat -> R) ks : interleave (map fx ks) (map fy ks) (map fz ks) = Some (List.concat (map (fun k => [fx k; fy k; fz k]) ks)).
Proof. unfold interleave. rewrite map_length. exact (interleave_gen fx fy fz ks ks [] [] eq_refl eq_refl). Qed.
Lemma parts_map {A B} (f : A -> B) sizes : forall l, parts sizes (map f l) = map (map f) (parts sizes l).
Proof. induction sizes as [|s t IH]; intros l; cbn [parts map]; [reflexivity|]. rewrite firstn_map, skipn_map, IH. reflexivity. Qed.
Lemma parts_concat {A} sizes : forall l : list A, list_sum sizes = length l -> List.concat (parts sizes l) = l.
Proof.
  induction sizes as [|s t IH]; intros l H; cbn [parts List.concat list_sum fold_right] in *; [destruct l; [reflexivity|discriminate]|].
  rewrite IH; [apply firstn_skipn|]. rewrite skipn_length. fold (list_sum t) in H. lia.
Qed.
Lemma coordinates_spec (fx fy fz : nat -> R) sizes n : list_sum sizes = n ->
  (let* blocks := omap (fun s => interleave (fst (fst s)) (snd (fst s)) (snd s)) (combine (combine (parts sizes (map fx (seq 0 n))) (parts sizes (map fy (seq 0 n)))) (parts sizes (map fz (seq 0 n)))) in
   Some (List.concat blocks)) = Some (List.concat (map (fun k => [fx k; fy k; fz k]) (seq 0 n))).
Proof.
  intros H. rewrite !parts_map. assert (G : forall P : list (list nat), omap (fun s => interleave (fst (fst s)) (snd (fst s)) (snd s)) (combine (combine (map (map fx) P) (map (map fy) P)) (map (map fz) P))
    = Some (map (fun ks => List.concat (map (fun k => [fx k; fy k; fz k]) ks)) P)).
  { induction P as [|p t IH]; cbn [map combine omap fst snd]; [reflexivity|]. rewrite interleave_spec. cbn [obind]. rewrite IH. reflexivity. }
  rewrite G. cbn [obind]. apply f_equal. rewrite <- (map_map (map (fun k => [fx k; fy k; fz k])) (@List.concat R)).
  assert (C : forall Q : list (list (list R)), List.concat (map (@List.concat R) Q) = List.concat (List.concat Q)).
  { induction Q as [|q t IH]; cbn [map List.concat]; [reflexivity|]. rewrite IH, concat_app. reflexivity. }
  rewrite C, <- concat_map, parts_concat by (rewrite seq_length; exact H). reflexivity.
Qed.

(** ** Vertices of the cells *)
Section Connections.
Variables (wo : nat) (R0 : list (list Z)) (ids : list Z) (te : list Z) (tn tf : list nat).
Hypothesis fit : forall r, In r R0 -> length r <= wo.
Let t := Tables te (flat wo R0) tn (map (@length Z) R0) tf (offs wo (length R0)).
Lemma inner_loop icell r dn rest : nth_error R0 icell = Some r -> forall suf pre acc outs, r = pre ++ suf -> omap (zget ids) suf = Some outs -> length acc = length pre -> length acc + length outs <= 4 ->
  (forall x, In x dn -> length x <= 4) ->
  ofold (fun vec v =>
      let* offset := zget (t_ooffs t) (Z.of_nat icell) in
      let* vertex_id := nth_error (t_others t) (offset + v) in
      let* g := zget ids vertex_id in
      upd vec (length dn * max_num_vertices + v) g) (seq (length pre) (length suf)) (flat 4 (dn ++ acc :: rest)) = Some (flat 4 (dn ++ (acc ++ outs) :: rest)).
Proof.
  intros Er. assert (Hi : icell < length R0) by (apply nth_error_Some; congruence). assert (Hr : length r <= wo) by (apply fit; eapply nth_error_In; exact Er).
  induction suf as [|z s IH]; intros pre acc outs Ep Eo La Hl Fd; cbn [length seq ofold omap] in *.
  - injection Eo as <-. rewrite app_nil_r. reflexivity.
  - destruct (zget ids z) as [g|] eqn:Ez; [|discriminate]. cbn [obind] in Eo. destruct (omap (zget ids) s) as [os|] eqn:Es; [|discriminate]. cbn [obind] in Eo. injection Eo as <-. cbn [length] in Hl.
    unfold t at 1 2. cbn [t_ooffs t_others]. unfold zget at 1. replace (Z.of_nat icell <? 0)%Z with false by (symmetry; apply Z.ltb_ge; lia). rewrite Nat2Z.id, offs_nth by exact Hi. cbn [obind].
    assert (Lp : length pre < length r) by (rewrite Ep, app_length; cbn; lia).
    rewrite (nth_flat wo R0 fit icell r (length pre) Er) by lia. unfold pad. rewrite nth_error_app1 by exact Lp. rewrite Ep at 1. rewrite nth_error_app2, Nat.sub_diag by lia. cbn [nth_error obind]. rewrite Ez. cbn [obind].
    unfold max_num_vertices at 1. rewrite <- La. rewrite upd_flat by (auto || lia). cbn [obind].
    replace (S (length acc)) with (length (pre ++ [z])) by (rewrite app_length; cbn; lia).
    rewrite (IH (pre ++ [z]) (acc ++ [g]) os).
    + rewrite <- app_assoc. reflexivity.
    + rewrite Ep, <- app_assoc. reflexivity.
    + reflexivity.
    + rewrite !app_length. cbn. lia.
    + rewrite app_length. cbn. lia.
    + exact Fd.
Qed.
Lemma connection_spec owned (out : nat -> list Z) : length owned = length R0 ->
  (forall i, In i (filter (is_owned owned) (seq 0 (length owned))) -> exists r, nth_error R0 i = Some r /\ omap (zget ids) r = Some (out i) /\ length (out i) <= 4) ->
  connection_vec t owned ids = Some (flat 4 (map out (filter (is_owned owned) (seq 0 (length owned))))).
Proof.
  intros L H. unfold connection_vec. destruct (number_cells_spec owned) as (l2o & o2l & E & _ & Lo & _). assert (F := o2l_is_filter owned l2o o2l E). rewrite E. cbn [obind snd].
  set (os := filter (is_owned owned) (seq 0 (length owned))) in *. assert (Ln : num_owned owned = length os) by (rewrite <- Lo, F, map_length; reflexivity). rewrite Ln. clear Lo Ln.
  replace (length os * max_num_vertices) with (length os * 4) by reflexivity. rewrite <- (flat_nil 4).
  assert (G : forall todo donei, os = donei ++ todo ->
    ofold (fun vec c =>
      let* icell := zget o2l (Z.of_nat c) in
      let* nv := zget (t_nothers t) icell in
      ofold (fun vec v =>
        let* offset := zget (t_ooffs t) icell in
        let* vertex_id := nth_error (t_others t) (offset + v) in
        let* g := zget ids vertex_id in
        upd vec (c * max_num_vertices + v) g) (seq 0 nv) vec) (seq (length donei) (length todo)) (flat 4 (map out donei ++ repeat [] (length todo))) = Some (flat 4 (map out donei ++ map out todo))).
  { induction todo as [|i td IH]; intros donei Eo; cbn [length seq ofold map repeat]; [reflexivity|].
    assert (Hin : In i os) by (rewrite Eo; apply in_or_app; right; left; reflexivity). destruct (H i Hin) as (r & Er & Eout & Hl).
    replace (zget o2l (Z.of_nat (length donei))) with (Some (Z.of_nat i)).
    2:{ unfold zget. replace (Z.of_nat (length donei) <? 0)%Z with false by (symmetry; apply Z.ltb_ge; lia). rewrite Nat2Z.id, F, nth_error_map, Eo, nth_error_app2, Nat.sub_diag by lia. reflexivity. }
    cbn [obind]. replace (zget (t_nothers t) (Z.of_nat i)) with (Some (length r)).
    2:{ unfold zget, t. cbn [t_nothers]. replace (Z.of_nat i <? 0)%Z with false by (symmetry; apply Z.ltb_ge; lia). rewrite Nat2Z.id, nth_error_map, Er. reflexivity. }
    cbn [obind]. assert (I := inner_loop i r (map out donei) (repeat [] (length td)) Er r [] [] (out i) eq_refl Eout eq_refl Hl).
    rewrite map_length in I. cbn [length] in I. rewrite I; clear I.
    2:{ intros x Hx. apply in_map_iff in Hx. destruct Hx as (k & <- & Hk). destruct (H k) as (_ & _ & _ & Hk'); [rewrite Eo; apply in_or_app; left; exact Hk|exact Hk']. }
    cbn [obind app]. assert (IH' := IH (donei ++ [i])). rewrite app_length, map_app in IH'. cbn [length map] in IH'. rewrite Nat.add_1_r in IH'.
    replace (map out donei ++ out i :: repeat [] (length td)) with ((map out donei ++ [out i]) ++ repeat [] (length td)) by (rewrite <- app_assoc; reflexivity).
    rewrite IH' by (rewrite Eo, <- app_assoc; reflexivity). rewrite <- app_assoc. reflexivity. }
  exact (G os [] eq_refl).
Qed.
End Connections.

(* one row of entries for every cell, the cells being numbered anyhow *)
Lemma natural_spec {A} (f : nat -> list A) num n : Permutation num (seq 0 n) -> CopyGlobalVecToNaturalVec true num (map f num) = Some (map f (seq 0 n)).
Proof.
  intros H. destruct (numbers_NoDup _ _ H) as (Hd & Hl & Hb). unfold CopyGlobalVecToNaturalVec. rewrite map_length, Nat.eqb_refl.
  destruct (scatter_upd num (map f num) (repeat [] (length num)) Hd) as (v & E & L & G & _).
  - now rewrite map_length.
  - intros k Hk. rewrite repeat_length, Hl. now apply Hb.
  - rewrite E. apply f_equal. apply nth_error_ext. intros i. rewrite nth_error_map. destruct (Nat.lt_ge_cases i n) as [Li|Li].
    + destruct (In_nth_error num i) as [g Hg]; [now apply Hb|]. rewrite (G g i Hg), nth_error_map, Hg. rewrite (nth_error_nth' (seq 0 n) 0) by (rewrite seq_length; exact Li). rewrite seq_nth by exact Li. reflexivity.
    + replace (nth_error (seq 0 n) i) with (@None nat) by (symmetry; apply nth_error_None; rewrite seq_length; exact Li). cbn. apply nth_error_None. rewrite L, repeat_length, Hl. exact Li.
Qed.

(* the XDMF number of a shape *)
Definition shape_code (c : list Z) : Z := if Nat.eqb (length c) 3 then 4%Z else 5%Z.
Definition cell_ok (c : list Z) : Prop := (length c = 3 \/ length c = 4) /\ Forall (fun g => (0 <= g)%Z) c.
Lemma filter_valid c : Forall (fun g => (0 <= g)%Z) c -> forall n, filter valid (c ++ repeat (-1)%Z n) = c.
Proof.
  intros H n. rewrite filter_app. replace (filter valid (repeat (-1)%Z n)) with (@nil Z) by (induction n as [|n IH]; [reflexivity|exact IH]). rewrite app_nil_r.
  induction H as [|g t Hg Ht IH]; cbn [filter]; [reflexivity|]. unfold valid at 1. replace (-1 <? g)%Z with true by (symmetry; apply Z.ltb_lt; lia). now rewrite IH.
Qed.
Lemma conns_cell_spec dn c k : cell_ok c -> conns_cell (dn ++ repeat 0%Z (S (length c) + k), length dn) (pad 4 c) = Ret (dn ++ shape_code c :: c ++ repeat 0%Z k, length dn + S (length c)).
Proof.
  intros [Hl Hc]. unfold conns_cell. unfold pad at 1. rewrite (filter_valid c Hc).
  assert (E : match length c with 3 => Ret TRI_ID_EXODUS | 4 => Ret QUAD_ID_EXODUS | _ => Error end = Ret (shape_code c)) by (unfold shape_code; destruct Hl as [-> | ->]; reflexivity).
  rewrite E. cbn [rbind fst snd Nat.add repeat]. rewrite upd_middle. cbn [of_option rbind].
  replace (dn ++ shape_code c :: repeat 0%Z (length c + k)) with ((dn ++ [shape_code c]) ++ repeat 0%Z (length c + k)) by (rewrite <- app_assoc; reflexivity).
  replace (S (length dn)) with (length (dn ++ [shape_code c])) by (rewrite app_length; cbn; lia).
  rewrite fill_gen by (unfold pad; rewrite (filter_valid c Hc), repeat_length; lia). unfold pad. rewrite (filter_valid c Hc), map_id. cbn [of_option].
  rewrite repeat_app, skipn_app, repeat_length, Nat.sub_diag. cbn [skipn]. replace (skipn (length c) (repeat 0%Z (length c))) with (@nil Z) by (symmetry; apply skipn_all2; rewrite repeat_length; lia).
  cbn [app]. rewrite <- app_assoc. cbn [app]. apply f_equal. apply f_equal2; [reflexivity|]. rewrite app_length. cbn. lia.
Qed.
Lemma conns_block_spec cs : Forall cell_ok cs -> conns_block (map (pad 4) cs) = Ret (List.concat (map (fun c => shape_code c :: c) cs)).
Proof.
  intros H. unfold conns_block. assert (Z1 : conns_size (map (pad 4) cs) = list_sum (map (fun c => S (length c)) cs)).
  { unfold conns_size. rewrite map_length. induction H as [|c t [Hl Hc] Ht IH]; [reflexivity|]. cbn [map List.concat list_sum fold_right length] in *. fold (list_sum (map (fun c => S (length c)) t)).
    rewrite filter_app, app_length. unfold pad at 1. rewrite (filter_valid c Hc). lia. }
  rewrite Z1. clear Z1.
  assert (G : forall dn, rfold conns_cell (map (pad 4) cs) (dn ++ repeat 0%Z (list_sum (map (fun c => S (length c)) cs)), length dn)
    = Ret (dn ++ List.concat (map (fun c => shape_code c :: c) cs), length dn + list_sum (map (fun c => S (length c)) cs))).
  { induction H as [|c t Hc Ht IH]; intros dn; cbn [map rfold List.concat list_sum fold_right]; [now rewrite Nat.add_0_r|].
    fold (list_sum (map (fun c => S (length c)) t)). rewrite (conns_cell_spec dn c _ Hc). cbn [rbind].
    replace (dn ++ shape_code c :: c ++ repeat 0%Z (list_sum (map (fun c0 => S (length c0)) t))) with ((dn ++ shape_code c :: c) ++ repeat 0%Z (list_sum (map (fun c0 => S (length c0)) t))) by (rewrite <- app_assoc; reflexivity).
    replace (length dn + S (length c)) with (length (dn ++ shape_code c :: c)) by (rewrite app_length; cbn; lia). rewrite IH. rewrite <- app_assoc. apply f_equal. apply f_equal2; [reflexivity|]. rewrite app_length. cbn. lia. }
  assert (G0 := G []). cbn [app length] in G0. rewrite G0. reflexivity.
Qed.
Lemma blocks_spec (f : nat -> list Z) sizes order : (forall c, In c order -> cell_ok (f c)) -> list_sum sizes = length order ->
  (let! blocks := rmap conns_block (parts sizes (map (fun c => pad 4 (f c)) order)) in Ret (List.concat blocks)) = Ret (List.concat (map (fun c => shape_code (f c) :: f c) order)).
Proof.
  intros H L. rewrite parts_map. set (g := fun c => shape_code (f c) :: f c).
  assert (Sub : forall q, In q (parts sizes order) -> forall c, In c q -> cell_ok (f c)).
  { intros q Hq c Hc. apply H. rewrite <- (parts_concat sizes order L). apply in_concat. exists q. split; assumption. }
  assert (G : forall P, (forall q, In q P -> forall c, In c q -> cell_ok (f c)) -> rmap conns_block (map (map (fun c => pad 4 (f c))) P) = Ret (map (fun q => List.concat (map g q)) P)).
  { induction P as [|q t IH]; intros HP; cbn [map rmap]; [reflexivity|]. rewrite <- (map_map f (pad 4)), conns_block_spec.
    - cbn [rbind]. rewrite IH by (intros; eapply HP; [right; eassumption|assumption]). cbn [rbind]. rewrite map_map. reflexivity.
    - apply Forall_forall. intros x Hx. apply in_map_iff in Hx. destruct Hx as (c & <- & Hc). apply (HP q (or_introl eq_refl) c Hc). }
  rewrite (G _ Sub). cbn [rbind]. apply f_equal. rewrite <- (map_map (map g) (@List.concat Z)).
  assert (C : forall Q : list (list (list Z)), List.concat (map (@List.concat Z) Q) = List.concat (List.concat Q)).
  { induction Q as [|q t IH]; cbn [map List.concat]; [reflexivity|]. rewrite IH, concat_app. reflexivity. }
  rewrite C, <- concat_map, parts_concat by exact L. reflexivity.
Qed.
(* values of the owned cells of one process *)
Lemma owned_values_spec {A} owned (zero : A) (a : nat -> option A) v : (forall i, In i (filter (is_owned owned) (seq 0 (length owned))) -> a i = Some (v i)) ->
  option_map fst (owned_loop (is_owned owned) a (length owned) (repeat zero (num_owned owned))) = Some (map v (filter (is_owned owned) (seq 0 (length owned)))).
Proof.
  intros H. rewrite (owned_loop_fill _ _ v) by (intros i Hi Ho; apply H; apply filter_In; split; [apply in_seq; lia|exact Ho]). unfold MeshMapsModel.fill.
  assert (Ln : num_owned owned = length (filter (is_owned owned) (seq 0 (length owned)))).
  { destruct (number_cells_spec owned) as (l2o & o2l & E & _ & Lo & _). rewrite <- Lo, (o2l_is_filter owned l2o o2l E), map_length. reflexivity. }
  assert (F := fill_gen (is_owned owned) v (seq 0 (length owned)) [] (repeat zero (num_owned owned)) ltac:(rewrite repeat_length, Ln; lia)).
  cbn [app length] in F. rewrite F. cbn [option_map fst]. rewrite skipn_all2 by (rewrite repeat_length, Ln; lia). rewrite app_nil_r. reflexivity.
Qed.
