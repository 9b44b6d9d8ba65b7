From Verif Require Import Base MeshMapsModel.
From Coq Require Import String Sorting.Sorted.
Local Open Scope nat_scope.
Local Notation length := List.length.

Lemma ofold_app {A S} (f : S -> A -> option S) l1 l2 s : ofold f (l1 ++ l2) s = obind (ofold f l1 s) (ofold f l2).
Proof. revert s. induction l1 as [|a t IH]; intros s; cbn; [reflexivity|]. destruct (f s a); cbn; auto. Qed.

Lemma upd_middle {A} (l : list A) d r x : upd (l ++ d :: r) (length l) x = Some (l ++ x :: r).
Proof. induction l as [|a t IH]; cbn; [reflexivity|]. rewrite IH. reflexivity. Qed.

Lemma fill_spec_gen {A B} (p : A -> bool) (f : A -> B) xs done arr :
  length arr = length (filter p xs) ->
  ofold (fill_step p f) xs (done ++ arr, length done) = Some (done ++ map f (filter p xs), length done + length (filter p xs)).
Proof.
  revert done arr. induction xs as [|x t IH]; intros done arr H; cbn [ofold filter map].
  - destruct arr; [|discriminate]. cbn. rewrite Nat.add_0_r. reflexivity.
  - unfold fill_step at 1. cbn [filter] in H. destruct (p x); cbn [fst snd].
    + destruct arr as [|d r]; [discriminate|]. rewrite upd_middle. cbn [obind].
      replace (done ++ f x :: r) with ((done ++ [f x]) ++ r) by (rewrite <- app_assoc; reflexivity).
      replace (S (length done)) with (length (done ++ [f x])) by (rewrite app_length; cbn; lia).
      rewrite IH by (cbn in H; lia). cbn [map]. rewrite <- app_assoc, app_length. cbn. f_equal. f_equal. lia.
    + cbn [obind]. apply IH. exact H.
Qed.
Lemma fill_spec {A B} (p : A -> bool) (f : A -> B) xs arr :
  length arr = length (filter p xs) -> fill p f xs arr = Some (map f (filter p xs), length (filter p xs)).
Proof. intros H. unfold fill. exact (fill_spec_gen p f xs [] arr H). Qed.

(** ** Counting *)
Definition before (p : nat -> bool) (k : nat) : nat := length (filter p (seq 0 k)).
Lemma before_S p k : before p (S k) = before p k + (if p k then 1 else 0).
Proof. unfold before. rewrite seq_S, filter_app, app_length. cbn. destruct (p k); reflexivity. Qed.
Lemma before_mono p i j : i <= j -> before p i <= before p j.
Proof. intros H. induction H; [lia|]. rewrite before_S. lia. Qed.
Lemma before_lt p i j : i < j -> p i = true -> before p i < before p j.
Proof. intros H P. assert (M := before_mono p (S i) j H). rewrite before_S, P in M. lia. Qed.
Lemma before_inj p i j : p i = true -> p j = true -> before p i = before p j -> i = j.
Proof.
  intros Pi Pj E. destruct (Nat.lt_trichotomy i j) as [H|[H|H]]; [|exact H|]; [assert (B := before_lt p i j H Pi)|assert (B := before_lt p j i H Pj)]; lia.
Qed.
Lemma before_split p k : before p k + before (fun i => negb (p i)) k = k.
Proof. induction k as [|k IH]; [reflexivity|]. rewrite !before_S. destruct (p k); cbn; lia. Qed.

Lemma filter_shift (p : nat -> bool) l : length (filter p (map S l)) = length (filter (fun i => p (S i)) l).
Proof. induction l as [|a t IH]; [reflexivity|]. cbn. destruct (p (S a)); cbn; rewrite IH; reflexivity. Qed.
Lemma num_owned_before owned : num_owned owned = before (is_owned owned) (length owned).
Proof.
  induction owned as [|b t IH]; [reflexivity|]. unfold before. cbn [length seq]. rewrite <- seq_shift.
  cbn [filter]. assert (E := filter_shift (is_owned (b :: t)) (seq 0 (length t))).
  change (fun i => is_owned (b :: t) (S i)) with (is_owned t) in E. unfold before in IH. rewrite <- IH in E.
  unfold num_owned in *. cbn [filter]. change (is_owned (b :: t) 0) with b. destruct b; cbn [length]; rewrite E; reflexivity.
Qed.

Lemma upd_total {A} (l : list A) i x : i < length l -> exists l', upd l i x = Some l' /\ length l' = length l /\ (forall j, nth_error l' j = if Nat.eqb j i then Some x else nth_error l j).
Proof.
  intros H. destruct (upd_some l i x H) as (l' & E). exists l'. split; [exact E|]. split; [exact (upd_length _ _ _ _ E)|].
  intros j. exact (upd_get l l' i x j E).
Qed.

Lemma first_pass_spec owned k : k <= length owned ->
  exists l2o o2l, ofold (first_pass owned) (seq 0 k) (repeat (-1)%Z (length owned), repeat (-1)%Z (num_owned owned), 0) = Some (l2o, o2l, before (is_owned owned) k)
    /\ length l2o = length owned /\ length o2l = num_owned owned
    /\ (forall i, i < k -> is_owned owned i = true -> nth_error l2o i = Some (Z.of_nat (before (is_owned owned) i)))
    /\ (forall i, i < k -> is_owned owned i = true -> nth_error o2l (before (is_owned owned) i) = Some (Z.of_nat i)).
Proof.
  induction k as [|k IH]; intros Hk.
  - eexists _, _. split; [reflexivity|]. rewrite !repeat_length. repeat split; intros; lia.
  - destruct IH as (l2o & o2l & E & L1 & L2 & P1 & P2); [lia|]. rewrite seq_S, ofold_app, E. cbn [obind ofold Nat.add]. unfold first_pass at 1.
    rewrite before_S. destruct (is_owned owned k) eqn:O.
    + destruct (upd_total l2o k (Z.of_nat (before (is_owned owned) k))) as (a & -> & La & Ga); [lia|]. cbn [obind].
      destruct (upd_total o2l (before (is_owned owned) k) (Z.of_nat k)) as (b & -> & Lb & Gb).
      { rewrite L2, num_owned_before. apply before_lt; [lia|exact O]. }
      cbn [obind]. exists a, b. split; [f_equal; f_equal; lia|]. split; [lia|]. split; [lia|]. split.
      * intros i Hi Oi. rewrite Ga. destruct (Nat.eqb_spec i k); [subst; reflexivity|]. apply P1; [lia|exact Oi].
      * intros i Hi Oi. rewrite Gb. destruct (Nat.eqb_spec (before (is_owned owned) i) (before (is_owned owned) k)) as [e|n].
        -- rewrite (before_inj _ _ _ Oi O e). reflexivity.
        -- apply P2; [|exact Oi]. assert (i <> k) by congruence. lia.
    + cbn [obind]. exists l2o, o2l. split; [f_equal; f_equal; lia|]. split; [exact L1|]. split; [exact L2|].
      split; intros i Hi Oi; assert (i <> k) by congruence; [apply P1|apply P2]; try exact Oi; lia.
Qed.
Definition ghost owned i := negb (is_owned owned i).
Lemma second_pass_spec owned l2o k : k <= length owned -> length l2o = length owned ->
  exists l2o', ofold (second_pass owned) (seq 0 k) (l2o, num_owned owned) = Some (l2o', num_owned owned + before (ghost owned) k)
    /\ length l2o' = length owned
    /\ (forall i, is_owned owned i = true -> nth_error l2o' i = nth_error l2o i)
    /\ (forall i, i < k -> is_owned owned i = false -> nth_error l2o' i = Some (Z.of_nat (num_owned owned + before (ghost owned) i))).
Proof.
  intros Hk L. induction k as [|k IH].
  - exists l2o. cbn. rewrite Nat.add_0_r. repeat split; auto; intros; lia.
  - destruct IH as (a & E & La & P1 & P2); [lia|]. rewrite seq_S, ofold_app, E. cbn [obind ofold Nat.add]. unfold second_pass at 1.
    rewrite before_S. change (ghost owned k) with (negb (is_owned owned k)). destruct (is_owned owned k) eqn:O; cbn [negb].
    + cbn [obind]. exists a. split; [f_equal; f_equal; lia|]. split; [exact La|]. split; [exact P1|].
      intros i Hi Oi. assert (i <> k) by congruence. apply P2; [lia|exact Oi].
    + destruct (upd_total a k (Z.of_nat (num_owned owned + before (ghost owned) k))) as (b & -> & Lb & Gb); [lia|]. cbn [obind].
      exists b. split; [f_equal; f_equal; lia|]. split; [lia|]. split.
      * intros i Oi. rewrite Gb. destruct (Nat.eqb_spec i k); [subst; congruence|]. apply P1; exact Oi.
      * intros i Hi Oi. rewrite Gb. destruct (Nat.eqb_spec i k); [subst; reflexivity|]. apply P2; [lia|exact Oi].
Qed.
Lemma number_cells_spec owned :
  exists l2o o2l, number_cells owned = Some (l2o, o2l) /\ length l2o = length owned /\ length o2l = num_owned owned
    /\ (forall i, i < length owned -> is_owned owned i = true -> nth_error l2o i = Some (Z.of_nat (before (is_owned owned) i)) /\ nth_error o2l (before (is_owned owned) i) = Some (Z.of_nat i))
    /\ (forall i, i < length owned -> is_owned owned i = false -> nth_error l2o i = Some (Z.of_nat (num_owned owned + before (ghost owned) i))).
Proof.
  destruct (first_pass_spec owned (length owned) (le_n _)) as (a & b & E & La & Lb & P1 & P2). unfold number_cells. rewrite E. cbn [obind].
  rewrite <- num_owned_before.
  destruct (second_pass_spec owned a (length owned) (le_n _) La) as (c & E2 & Lc & P3 & P4). rewrite E2. cbn [obind fst].
  exists c, b. split; [reflexivity|]. split; [exact Lc|]. split; [exact Lb|]. split.
  - intros i Hi Oi. split; [rewrite P3 by exact Oi; apply P1; assumption|apply P2; assumption].
  - exact P4.
Qed.

(* owned_to_local lists the owned cells in local order *)
Lemma filter_nth_before (p : nat -> bool) n i : i < n -> p i = true -> nth_error (filter p (seq 0 n)) (before p i) = Some i.
Proof.
  intros Hi Pi. replace n with (i + (1 + (n - i - 1))) by lia. rewrite seq_app, filter_app. unfold before.
  rewrite nth_error_app2 by lia. rewrite Nat.sub_diag. cbn. rewrite Pi. reflexivity.
Qed.
Lemma is_owned_lt owned i : is_owned owned i = true -> i < length owned.
Proof. unfold is_owned. intros H. destruct (Nat.lt_ge_cases i (length owned)); [assumption|]. rewrite nth_overflow in H by lia. discriminate. Qed.
Lemma o2l_is_filter owned l2o o2l : number_cells owned = Some (l2o, o2l) -> o2l = map Z.of_nat (filter (is_owned owned) (seq 0 (length owned))).
Proof.
  intros H. destruct (number_cells_spec owned) as (a & b & E & La & Lb & P1 & P2). rewrite H in E. injection E as <- <-.
  apply nth_error_ext. intros k. set (F := filter (is_owned owned) (seq 0 (length owned))).
  assert (LF : length F = num_owned owned) by (rewrite num_owned_before; reflexivity).
  destruct (Nat.lt_ge_cases k (length F)) as [Hk|Hk].
  - destruct (nth_error F k) as [i|] eqn:EF; [|apply nth_error_None in EF; lia].
    assert (Hin : In i F) by (eapply nth_error_In; exact EF). apply filter_In in Hin. destruct Hin as (Hin & Oi). apply in_seq in Hin.
    assert (K : before (is_owned owned) i = k).
    { assert (G := filter_nth_before (is_owned owned) (length owned) i ltac:(lia) Oi). fold F in G.
      apply (proj1 (NoDup_nth_error F)); [apply NoDup_filter, seq_NoDup|rewrite LF, num_owned_before; apply before_lt; [lia|exact Oi]|congruence]. }
    rewrite <- K. destruct (P1 i ltac:(lia) Oi) as (_ & ->). symmetry. apply map_nth_error. apply filter_nth_before; [lia|exact Oi].
  - rewrite (proj2 (nth_error_None o2l k)) by lia. symmetry. apply nth_error_None. rewrite map_length. exact Hk.
Qed.

(** ** Edges *)
Definition well_supported (s : list nat) : Prop := length s = 1 \/ length s = 2.
Lemma edge_cells_some supports : (forall s, In s supports -> well_supported s) ->
  exists cs, omap edge_cells supports = Some cs /\ length cs = length supports /\
    (forall e s, nth_error supports e = Some s -> is_internal cs e = Nat.eqb (length s) 2).
Proof.
  induction supports as [|s t IH]; intros H.
  - exists []. repeat split. intros [|e] s; discriminate.
  - destruct IH as (cs & E & L & P); [intros; apply H; right; assumption|]. cbn [omap].
    destruct (H s (or_introl eq_refl)) as [W|W]; destruct s as [|a [|b [|c u]]]; try discriminate; cbn [edge_cells obind]; rewrite E; cbn [obind].
    + eexists. split; [reflexivity|]. split; [cbn; lia|]. intros [|e] s Hs; [injection Hs as <-; reflexivity|]. exact (P e s Hs).
    + eexists. split; [reflexivity|]. split; [cbn; lia|]. intros [|e] s Hs; [|exact (P e s Hs)]. injection Hs as <-. unfold is_internal. cbn [nth fst snd length Nat.eqb].
      rewrite !(proj2 (Z.leb_le _ _)) by lia. reflexivity.
Qed.
Lemma count_edges supports cs n1 n2 : (forall s, In s supports -> well_supported s) -> omap edge_cells supports = Some cs ->
  ofold count_edge cs (n1, n2) = Some (n1 + length (filter (fun s => Nat.eqb (length s) 2) supports), n2 + length (filter (fun s => Nat.eqb (length s) 1) supports)).
Proof.
  revert cs n1 n2. induction supports as [|s t IH]; intros cs n1 n2 H E; cbn [omap] in E.
  - injection E as <-. cbn. rewrite !Nat.add_0_r. reflexivity.
  - assert (Ht : forall s, In s t -> well_supported s) by (intros; apply H; right; assumption).
    destruct (H s (or_introl eq_refl)) as [W|W]; destruct s as [|a [|b [|c u]]]; try discriminate; cbn [edge_cells obind] in E;
      destruct (omap edge_cells t) as [ct|] eqn:Et; try discriminate; cbn [obind] in E; injection E as <-; cbn [ofold]; unfold count_edge at 1; cbn [fst snd].
    + rewrite (proj2 (Z.leb_le 0 (Z.of_nat a))) by lia. cbn [Z.leb Z.compare obind]. rewrite (IH ct n1 (S n2) Ht eq_refl). cbn [filter length Nat.eqb]. f_equal. f_equal. lia.
    + rewrite !(proj2 (Z.leb_le _ _)) by lia. cbn [obind]. rewrite (IH ct (S n1) n2 Ht eq_refl). cbn [filter length Nat.eqb]. f_equal. f_equal. lia.
Qed.
Lemma filter_index {A} (q : A -> bool) (p : nat -> bool) (l : list A) :
  (forall i a, nth_error l i = Some a -> p i = q a) -> length (filter p (seq 0 (length l))) = length (filter q l).
Proof.
  revert p. induction l as [|a t IH]; intros p H; [reflexivity|]. cbn [length seq filter]. rewrite <- seq_shift.
  assert (E0 := H 0 a eq_refl). rewrite E0. assert (X : length (filter p (map S (seq 0 (length t)))) = length (filter q t)).
  { rewrite filter_shift. apply IH. intros i b Hb. exact (H (S i) b Hb). }
  destruct (q a); cbn [length]; rewrite X; reflexivity.
Qed.
Lemma edge_lists_some supports : (forall s, In s supports -> well_supported s) ->
  exists p, edge_lists supports = Some (filter p (seq 0 (length supports)), filter (fun e => negb (p e)) (seq 0 (length supports)))
    /\ (forall e s, nth_error supports e = Some s -> p e = Nat.eqb (length s) 2).
Proof.
  intros H. destruct (edge_cells_some supports H) as (cs & E & L & P). exists (is_internal cs). split; [|exact P].
  unfold edge_lists. rewrite E. cbn [obind]. rewrite (count_edges supports cs 0 0 H E). cbn [obind fst snd Nat.add]. rewrite L.
  rewrite fill_spec by (rewrite repeat_length; symmetry; apply filter_index; exact P). cbn [obind].
  rewrite fill_spec. 2:{ rewrite repeat_length. symmetry. apply filter_index. intros i a Ha. rewrite (P i a Ha).
    destruct (H a (nth_error_In _ _ Ha)) as [-> | ->]; reflexivity. }
  cbn [obind fst]. rewrite !map_id. reflexivity.
Qed.

(** ** Index sets *)
Lemma mem_in e l : mem e l = true <-> In e l.
Proof.
  unfold mem. rewrite existsb_exists. split; [intros (x & Hx & E); apply Nat.eqb_eq in E; subst; exact Hx|intros H; exists e; split; [exact H|apply Nat.eqb_refl]].
Qed.
Lemma difference_in e a b : In e (IsDifference a b) <-> In e a /\ ~ In e b.
Proof.
  unfold IsDifference. rewrite filter_In. split; intros (H1 & H2); split; try exact H1.
  - intros H. apply mem_in in H. rewrite H in H2. discriminate.
  - destruct (mem e b) eqn:M; [apply mem_in in M; contradiction|reflexivity].
Qed.
Lemma intersect_in e a b : In e (IsIntersect a b) <-> In e a /\ In e b.
Proof. unfold IsIntersect. rewrite filter_In, mem_in. reflexivity. Qed.
Lemma difference_nodup a b : NoDup a -> NoDup (IsDifference a b).
Proof. apply NoDup_filter. Qed.

Lemma assign_unassigned bnd sets u id : let r := fold_left (assign_step bnd) sets (u, id) in
  (forall e, In e (fst r) <-> In e u /\ forall s, In s sets -> ~ (In e (snd s) /\ In e bnd)) /\ (NoDup u -> NoDup (fst r)).
Proof.
  revert u id. induction sets as [|s t IH]; intros u id; cbn [fold_left].
  - cbn. split; [|auto]. intros e; split; [intros H; split; [exact H|intros x []]|intros (H & _); exact H].
  - unfold assign_step at 2. cbn [fst snd]. destruct (IH (IsDifference u (IsIntersect (snd s) bnd)) (if Z.eqb id (fst s) then Z.succ id else id)) as (P & N). split.
    + intros e. rewrite P, difference_in, intersect_in. split.
      * intros ((Hu & Hn) & Ht). split; [exact Hu|]. intros x [<-|Hx]; [exact Hn|exact (Ht x Hx)].
      * intros (Hu & Hs). split; [split; [exact Hu|exact (Hs s (or_introl eq_refl))]|]. intros x Hx. exact (Hs x (or_intror Hx)).
    + intros Hu. apply N, difference_nodup, Hu.
Qed.

(* the id given to the unassigned edges *)
Lemma assign_id_avoid bnd sets u id : (forall s, In s sets -> fst s <> id) -> snd (fold_left (assign_step bnd) sets (u, id)) = id.
Proof.
  revert u. induction sets as [|s t IH]; intros u H; [reflexivity|]. cbn [fold_left]. unfold assign_step at 2. cbn [fst snd].
  destruct (Z.eqb_spec id (fst s)) as [e|_]; [exfalso; exact (H s (or_introl eq_refl) (eq_sym e))|]. apply IH. intros x Hx. apply H. right; exact Hx.
Qed.
Lemma assign_id_sorted bnd sets u id : StronglySorted (fun a b => (fst a < fst b)%Z) sets ->
  ~ In (snd (fold_left (assign_step bnd) sets (u, id))) (map fst sets) /\ (id <= snd (fold_left (assign_step bnd) sets (u, id)))%Z.
Proof.
  revert u id. induction sets as [|s t IH]; intros u id H; [split; [intros []|cbn; lia]|]. cbn [fold_left map]. unfold assign_step at 2 4. cbn [fst snd].
  apply StronglySorted_inv in H. destruct H as (H & F). rewrite Forall_forall in F.
  destruct (Z.eqb_spec id (fst s)) as [e|n].
  - destruct (IH (IsDifference u (IsIntersect (snd s) bnd)) (Z.succ id) H) as (N & B). split; [|lia]. intros [Hs|Ht]; [lia|exact (N Ht)].
  - destruct (IH (IsDifference u (IsIntersect (snd s) bnd)) id H) as (N & B). split; [|exact B]. intros [Hs|Ht]; [|exact (N Ht)].
    destruct (Z.lt_trichotomy id (fst s)) as [L|[L|L]]; [|contradiction|lia].
    (* the following ids are larger still, so the id stays *)
    assert (X : snd (fold_left (assign_step bnd) t (IsDifference u (IsIntersect (snd s) bnd), id)) = id).
    { apply assign_id_avoid. intros x Hx E. specialize (F x Hx). lia. }
    rewrite X in Hs. lia.
Qed.

Lemma get_stratum_in label id es : NoDup (map fst label) -> In (id, es) label -> get_stratum label id = Some es.
Proof.
  induction label as [|(i, xs) t IH]; intros N H; [destruct H|]. cbn [map fst] in N. apply NoDup_cons_iff in N. destruct N as (Ni & N). cbn [get_stratum].
  destruct H as [H|H].
  - injection H as -> ->. rewrite Z.eqb_refl. reflexivity.
  - destruct (Z.eqb_spec i id) as [->|_]; [|apply IH; assumption]. exfalso. apply Ni. change id with (fst (id, es)). apply in_map. exact H.
Qed.
Lemma set_stratum_new label id es : ~ In id (map fst label) -> set_stratum label id es = label ++ [(id, es)].
Proof.
  induction label as [|(i, xs) t IH]; intros H; [reflexivity|]. cbn [set_stratum]. destruct (Z.eqb_spec i id) as [->|_]; [exfalso; apply H; left; reflexivity|].
  cbn [app]. rewrite IH; [reflexivity|]. intros X. apply H. right; exact X.
Qed.
Lemma make_boundaries_sub num_edges cfg label b sub :
  NoDup (map fst label) -> (forall s, In s sub -> In s label) -> (forall s e, In s sub -> In e (snd s) -> e < num_edges) ->
  exists bs, make_boundaries num_edges cfg label b (map fst sub) = Some bs /\ map bd_edges bs = map snd sub /\ map bd_id bs = map fst sub /\
    map bd_name bs = map (fun s => config_name cfg (fst s)) sub /\ map bd_index bs = seq b (length sub).
Proof.
  revert b. induction sub as [|s t IH]; intros b N H L.
  - exists []. repeat split.
  - destruct (IH (S b) N) as (bs & E & P1 & P2 & P3 & P4); [intros; apply H; right; assumption|intros x e Hx; apply L; right; exact Hx|].
    cbn [map make_boundaries]. unfold make_boundary. rewrite (get_stratum_in label (fst s) (snd s)); [|exact N|rewrite <- surjective_pairing; apply H; left; reflexivity].
    cbn [obind]. assert (F : forallb (fun e => Nat.ltb e num_edges) (snd s) = true).
    { apply forallb_forall. intros e He. apply Nat.ltb_lt. exact (L s e (or_introl eq_refl) He). }
    rewrite F. cbn [obind]. rewrite E. cbn [obind]. eexists. split; [reflexivity|]. cbn [map bd_edges bd_id bd_name bd_index length seq]. rewrite P1, P2, P3, P4. repeat split.
Qed.
