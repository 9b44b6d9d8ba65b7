(** C24, C25, C31: numbering of cells, classification of edges, regions and boundaries. *)
From Verif Require Import Base MeshMapsModel MeshMapsProofs.
From Coq Require Import String Sorting.Sorted.
Local Open Scope nat_scope.
Local Notation length := List.length.
Local Notation concat := List.concat.

(** ** C24: cell numbering *)
(* "cell [i] is owned by / a ghost on this process" *)
Definition owns (owned : list bool) (i : nat) : Prop := nth_error owned i = Some true.
Definition ghosts (owned : list bool) (i : nat) : Prop := nth_error owned i = Some false.
Lemma owns_is owned i : owns owned i <-> i < length owned /\ is_owned owned i = true.
Proof.
  unfold owns, is_owned. split.
  - intros H. split; [apply nth_error_Some; congruence|]. apply nth_error_nth with (d := false) in H. exact H.
  - intros (H & E). rewrite (nth_error_nth' owned false H), E. reflexivity.
Qed.
Lemma ghosts_is owned i : ghosts owned i <-> i < length owned /\ is_owned owned i = false.
Proof.
  unfold ghosts, is_owned. split.
  - intros H. split; [apply nth_error_Some; congruence|]. apply nth_error_nth with (d := false) in H. exact H.
  - intros (H & E). rewrite (nth_error_nth' owned false H), E. reflexivity.
Qed.

(* For every distribution: no array is overrun; the two maps are mutually inverse between owned cells
   and the numbers 0..n-1; every cell has a different number, in 0..(number of cells)-1. *)
Theorem C24_maps_mutually_inverse :
  forall owned, exists l2o o2l,
    number_cells owned = Some (l2o, o2l) /\ length l2o = length owned /\ length o2l = num_owned owned /\
    (forall i k, owns owned i /\ nth_error l2o i = Some (Z.of_nat k) <-> nth_error o2l k = Some (Z.of_nat i)) /\
    Permutation l2o (map Z.of_nat (seq 0 (length owned))).
Proof.
  intros owned. destruct (number_cells_spec owned) as (l2o & o2l & E & L1 & L2 & P1 & P2). exists l2o, o2l.
  split; [exact E|]. split; [exact L1|]. split; [exact L2|]. split.
  - intros i k. split.
    + intros (Ho & Hk). apply owns_is in Ho. destruct Ho as (Hi & Oi). destruct (P1 i Hi Oi) as (A & B). rewrite A in Hk. injection Hk as Hk. apply Nat2Z.inj in Hk. subst k. exact B.
    + intros Hk. rewrite (o2l_is_filter owned l2o o2l E) in Hk. rewrite nth_error_map in Hk. destruct (nth_error (filter (is_owned owned) (seq 0 (length owned))) k) as [j|] eqn:EF; [|discriminate].
      cbn in Hk. injection Hk as Hk. apply Nat2Z.inj in Hk. subst j. assert (Hin := nth_error_In _ _ EF). apply filter_In in Hin. destruct Hin as (Hin & Oi). apply in_seq in Hin.
      assert (Hi : i < length owned) by lia. split; [apply owns_is; auto|]. destruct (P1 i Hi Oi) as (A & _). rewrite A. do 2 f_equal.
      assert (G := filter_nth_before (is_owned owned) (length owned) i Hi Oi).
      apply (proj1 (NoDup_nth_error (filter (is_owned owned) (seq 0 (length owned))))); [apply NoDup_filter, seq_NoDup|apply nth_error_Some; congruence|congruence].
  - (* every number is used once *)
    apply NoDup_Permutation_bis.
    + apply NoDup_nth_error. intros i j Hi Hij. rewrite L1 in Hi. assert (Hj : j < length owned).
      { rewrite <- L1. apply nth_error_Some. rewrite <- Hij. apply nth_error_Some. lia. }
      assert (B : forall c, c < length owned -> is_owned owned c = true -> before (is_owned owned) c < num_owned owned) by (intros c Hc Oc; rewrite num_owned_before; apply before_lt; assumption).
      destruct (is_owned owned i) eqn:Oi, (is_owned owned j) eqn:Oj.
      * destruct (P1 i Hi Oi) as (A & _). destruct (P1 j Hj Oj) as (A' & _). rewrite A, A' in Hij. injection Hij as Hij. apply Nat2Z.inj in Hij. exact (before_inj _ _ _ Oi Oj Hij).
      * destruct (P1 i Hi Oi) as (A & _). rewrite A, (P2 j Hj Oj) in Hij. injection Hij as Hij. apply Nat2Z.inj in Hij. specialize (B i Hi Oi). lia.
      * destruct (P1 j Hj Oj) as (A & _). rewrite A, (P2 i Hi Oi) in Hij. injection Hij as Hij. apply Nat2Z.inj in Hij. specialize (B j Hj Oj). lia.
      * rewrite (P2 i Hi Oi), (P2 j Hj Oj) in Hij. injection Hij as Hij. apply Nat2Z.inj in Hij. apply (before_inj (ghost owned)); unfold ghost; try (rewrite Oi || rewrite Oj; reflexivity). unfold ghost in *. lia.
    + rewrite map_length, seq_length. lia.
    + intros z Hz. apply In_nth_error in Hz. destruct Hz as (i & Hi). assert (Hl : i < length owned) by (rewrite <- L1; apply nth_error_Some; congruence).
      destruct (is_owned owned i) eqn:Oi.
      * destruct (P1 i Hl Oi) as (A & _). rewrite A in Hi. injection Hi as <-. apply in_map, in_seq. assert (B := before_lt (is_owned owned) i (length owned) Hl Oi).
        assert (S := before_split (is_owned owned) (length owned)). lia.
      * rewrite (P2 i Hl Oi) in Hi. injection Hi as <-. apply in_map, in_seq. assert (B := before_lt (ghost owned) i (length owned) Hl). unfold ghost in B at 1. rewrite Oi in B. specialize (B eq_refl).
        assert (S := before_split (is_owned owned) (length owned)). rewrite num_owned_before. change (fun i => negb (is_owned owned i)) with (ghost owned) in S. lia.
Qed.
Print Assumptions C24_maps_mutually_inverse.

(* The numbers follow the local order, owned cells before ghosts. *)
Theorem C24_owned_first_in_local_order :
  forall owned l2o o2l i j x y,
    number_cells owned = Some (l2o, o2l) -> nth_error l2o i = Some x -> nth_error l2o j = Some y ->
    (owns owned i /\ ghosts owned j \/ i < j /\ (owns owned i <-> owns owned j)) -> (x < y)%Z.
Proof.
  intros owned l2o o2l i j x y E Hx Hy H. destruct (number_cells_spec owned) as (a & b & E' & L1 & L2 & P1 & P2). rewrite E in E'. injection E' as <- <-.
  assert (Hi : i < length owned) by (rewrite <- L1; apply nth_error_Some; congruence). assert (Hj : j < length owned) by (rewrite <- L1; apply nth_error_Some; congruence).
  rewrite !owns_is, ghosts_is in H. destruct (is_owned owned i) eqn:Oi, (is_owned owned j) eqn:Oj.
  - destruct H as [(_ & _ & H)|(H & _)]; [discriminate|]. destruct (P1 i Hi Oi) as (A & _). destruct (P1 j Hj Oj) as (A' & _). assert (B := before_lt (is_owned owned) i j H Oi).
    rewrite A in Hx. rewrite A' in Hy. injection Hx as <-. injection Hy as <-. lia.
  - destruct (P1 i Hi Oi) as (A & _). rewrite A in Hx. rewrite (P2 j Hj Oj) in Hy. injection Hx as <-. injection Hy as <-. assert (B := before_lt (is_owned owned) i (length owned) Hi Oi). rewrite <- num_owned_before in B. lia.
  - destruct H as [((_ & H) & _)|(_ & _ & H)]; [discriminate|]. exfalso. destruct H as (_ & H); [auto|discriminate].
  - destruct H as [((_ & H) & _)|(H & _)]; [discriminate|]. rewrite (P2 i Hi Oi) in Hx. rewrite (P2 j Hj Oj) in Hy. injection Hx as <-. injection Hy as <-.
    assert (B := before_lt (ghost owned) i j H). unfold ghost in B at 1. rewrite Oi in B. specialize (B eq_refl). lia.
Qed.
Print Assumptions C24_owned_first_in_local_order.

(* The per-cell arrays of the API: entry [k] is the attribute of the owned cell numbered [k]; an array
   of any other size is rejected. *)
Theorem C24_arrays_list_owned_cells :
  forall (A : Type) owned (attr : nat -> A) values l2o o2l,
    number_cells owned = Some (l2o, o2l) ->
    (length values = num_owned owned ->
      exists out, owned_values owned attr values = Some out /\ length out = num_owned owned /\
        forall k i, nth_error o2l k = Some (Z.of_nat i) -> nth_error out k = Some (attr i)) /\
    (length values <> num_owned owned -> owned_values owned attr values = None).
Proof.
  intros A owned attr values l2o o2l E. unfold owned_values. split; intros H.
  - rewrite H, Nat.eqb_refl. assert (LF : num_owned owned = length (filter (is_owned owned) (seq 0 (length owned)))) by (rewrite num_owned_before; reflexivity).
    rewrite fill_spec by lia. cbn. eexists. split; [reflexivity|]. split; [rewrite map_length; symmetry; exact LF|].
    intros k i Hk. rewrite (o2l_is_filter owned l2o o2l E), nth_error_map in Hk. rewrite nth_error_map.
    destruct (nth_error _ k) as [j|]; [|discriminate]. cbn in *. injection Hk as Hk. apply Nat2Z.inj in Hk. subst. reflexivity.
  - apply Nat.eqb_neq in H. rewrite H. reflexivity.
Qed.
Print Assumptions C24_arrays_list_owned_cells.

Example C24_example : number_cells [false; true; false; true; true] = Some ([3; 0; 4; 1; 2]%Z, [1; 3; 4]%Z)
  /\ owned_values [false; true; false; true; true] (fun i => 10 * i) [0; 0; 0] = Some [10; 30; 40].
Proof. split; reflexivity. Qed.

(** ** C31: regions *)
(* "the list holds the numbers of the owned cells among [cells]" *)
Definition owned_numbers (owned : list bool) (l2o : list Z) (cells : list nat) (out : list Z) : Prop :=
  NoDup out /\ forall z, In z out <-> exists c, In c cells /\ owns owned c /\ nth_error l2o c = Some z.
Lemma region_owned_spec owned l2o o2l cells : number_cells owned = Some (l2o, o2l) -> NoDup cells -> (forall c, In c cells -> c < length owned) ->
  exists out, region_owned owned l2o cells = Some out /\ owned_numbers owned l2o cells out.
Proof.
  intros E N B. unfold region_owned. rewrite fill_spec by (rewrite repeat_length; reflexivity). cbn. eexists. split; [reflexivity|].
  destruct (C24_maps_mutually_inverse owned) as (a & b & E' & L1 & L2 & IV & PM). rewrite E in E'. injection E' as <- <-.
  assert (ND : NoDup l2o). { eapply Permutation_NoDup; [symmetry; exact PM|]. apply FinFun.Injective_map_NoDup; [intros x y; apply Nat2Z.inj|apply seq_NoDup]. }
  assert (G : forall c, c < length owned -> nth_error l2o c = Some (nth c l2o (-1)%Z)) by (intros; apply nth_error_nth'; lia).
  split.
  - assert (NF : NoDup (filter (is_owned owned) cells)) by (apply NoDup_filter; exact N). assert (BF : forall c, In c (filter (is_owned owned) cells) -> c < length owned) by (intros c Hc; apply filter_In in Hc; apply B, Hc).
    clear - ND NF BF G L1. induction (filter (is_owned owned) cells) as [|c t IH]; [constructor|]. cbn [map]. apply NoDup_cons_iff in NF. destruct NF as (Nc & NF). constructor.
    + intros H. apply in_map_iff in H. destruct H as (d & Hd & Hin). apply Nc. replace c with d; [exact Hin|].
      apply (proj1 (NoDup_nth_error l2o) ND); [rewrite L1; apply BF; right; exact Hin|]. rewrite !G by (apply BF; cbn; auto). f_equal. exact Hd.
    + apply IH; [exact NF|intros; apply BF; right; assumption].
  - intros z. rewrite in_map_iff. split.
    + intros (c & Hc & Hin). apply filter_In in Hin. destruct Hin as (Hin & Oc). exists c. split; [exact Hin|]. split; [apply owns_is; auto|]. rewrite G by auto. f_equal. exact Hc.
    + intros (c & Hin & Oc & Hz). apply owns_is in Oc. destruct Oc as (Hc & Oc). exists c. split; [rewrite G in Hz by exact Hc; injection Hz as <-; reflexivity|]. apply filter_In; auto.
Qed.

Lemma init_regions_from_spec owned l2o o2l cfg r sets : number_cells owned = Some (l2o, o2l) ->
  (forall s, In s sets -> NoDup (snd s) /\ forall c, In c (snd s) -> c < length owned) ->
  exists rs, init_regions_from owned l2o cfg r sets = Some rs /\ map rg_cells rs = map snd sets /\ map rg_id rs = map fst sets /\ map rg_index rs = seq r (length sets) /\
    map rg_name rs = map (fun s => config_name cfg (fst s)) sets /\ (forall g, In g rs -> owned_numbers owned l2o (rg_cells g) (rg_owned g)).
Proof.
  intros E. revert r. induction sets as [|(id, cells) t IH]; intros r H.
  - exists []. do 5 (split; [reflexivity|]). intros g [].
  - destruct (H _ (or_introl eq_refl)) as (N & B). cbn [snd] in *. destruct (region_owned_spec owned l2o o2l cells E N B) as (ow & Eo & W).
    destruct (IH (S r)) as (rs & Er & P1 & P2 & P3 & P4 & P5); [intros; apply H; right; assumption|]. cbn [init_regions_from]. rewrite Eo. cbn [obind]. rewrite Er. cbn [obind].
    eexists. split; [reflexivity|]. cbn [map rg_cells rg_id rg_index rg_name length seq fst snd]. rewrite P1, P2, P3, P4. do 4 (split; [reflexivity|]). intros g [<-|Hg]; [exact W|exact (P5 g Hg)].
Qed.

(* Regions follow the mesh's cell sets: same ids in the same order, the name the configuration gives
   to that id, and in each exactly the numbers of its owned cells. *)
Theorem C31_regions_follow_cell_sets :
  forall owned l2o o2l cfg sets,
    number_cells owned = Some (l2o, o2l) -> length sets <= MAX_NUM_REGIONS ->
    (forall s, In s sets -> NoDup (snd s) /\ forall c, In c (snd s) -> c < length owned) ->
    exists rs, init_regions owned l2o cfg (Some sets) = Some rs /\ map rg_cells rs = map snd sets /\ map rg_id rs = map fst sets /\ map rg_index rs = seq 0 (length sets) /\
      map rg_name rs = map (fun s => config_name cfg (fst s)) sets /\ (forall g, In g rs -> owned_numbers owned l2o (rg_cells g) (rg_owned g)).
Proof.
  intros owned l2o o2l cfg sets E HL H. unfold init_regions. cbn [obind]. apply Nat.leb_le in HL. rewrite HL. exact (init_regions_from_spec owned l2o o2l cfg 0 sets E H).
Qed.
Print Assumptions C31_regions_follow_cell_sets.

(* If every cell is in exactly one cell set, the regions share out the owned cells: each number
   0..n-1 is in the list of exactly one region, once. *)
Theorem C31_regions_partition_owned_cells :
  forall owned l2o o2l cfg sets rs,
    number_cells owned = Some (l2o, o2l) -> Permutation (concat (map snd sets)) (seq 0 (length owned)) ->
    init_regions owned l2o cfg (Some sets) = Some rs ->
    Permutation (concat (map rg_owned rs)) (map Z.of_nat (seq 0 (num_owned owned))).
Proof.
  intros owned l2o o2l cfg sets rs E HP HR. unfold init_regions in HR. cbn [obind] in HR. destruct (Nat.leb (length sets) MAX_NUM_REGIONS); [|discriminate].
  (* the lists are the images of the owned cells *)
  assert (C : forall r sets rs, init_regions_from owned l2o cfg r sets = Some rs -> concat (map rg_owned rs) = map (fun c => nth c l2o (-1)%Z) (filter (is_owned owned) (concat (map snd sets)))).
  { clear. intros r sets. revert r. induction sets as [|(id, cells) t IH]; intros r rs H; cbn [init_regions_from] in H; [injection H as <-; reflexivity|].
    unfold region_owned in H. rewrite fill_spec in H by (rewrite repeat_length; reflexivity). cbn [option_map obind fst] in H.
    destruct (init_regions_from owned l2o cfg (S r) t) as [us|] eqn:Eu; [|discriminate]. cbn [obind] in H. injection H as <-. cbn [map concat rg_owned snd]. rewrite (IH (S r) us Eu), filter_app, map_app. reflexivity. }
  rewrite (C 0 sets rs HR).
  assert (PF : Permutation (filter (is_owned owned) (concat (map snd sets))) (filter (is_owned owned) (seq 0 (length owned)))).
  { clear - HP. induction HP; cbn; [constructor| |..]. destruct (is_owned owned x); [constructor|]; assumption.
    - destruct (is_owned owned x), (is_owned owned y); try apply Permutation_refl. constructor.
    - eapply Permutation_trans; eassumption. }
  eapply Permutation_trans; [apply Permutation_map; exact PF|]. enough (EQ : map (fun c => nth c l2o (-1)%Z) (filter (is_owned owned) (seq 0 (length owned))) = map Z.of_nat (seq 0 (num_owned owned))) by (rewrite EQ; apply Permutation_refl).
  destruct (number_cells_spec owned) as (a & b & E' & L1 & L2 & P1 & P2). rewrite E in E'. injection E' as <- <-.
  apply nth_error_ext. intros k. rewrite !nth_error_map. set (F := filter (is_owned owned) (seq 0 (length owned))). assert (LF : length F = num_owned owned) by (rewrite num_owned_before; reflexivity).
  destruct (Nat.lt_ge_cases k (length F)) as [Hk|Hk].
  - destruct (nth_error F k) as [c|] eqn:EF; [|apply nth_error_None in EF; lia]. cbn [option_map]. rewrite (nth_error_nth' (seq 0 (num_owned owned)) 0) by (rewrite seq_length; lia). rewrite seq_nth by lia. cbn [option_map Nat.add].
    assert (Hin := nth_error_In _ _ EF). apply filter_In in Hin. destruct Hin as (Hin & Oc). apply in_seq in Hin. destruct (P1 c ltac:(lia) Oc) as (A & _).
    rewrite (nth_error_nth _ _ (-1)%Z A). do 2 f_equal. assert (G := filter_nth_before (is_owned owned) (length owned) c ltac:(lia) Oc).
    apply (proj1 (NoDup_nth_error F)); [apply NoDup_filter, seq_NoDup|rewrite LF, num_owned_before; apply before_lt; [lia|exact Oc]|]. unfold F in *. congruence.
  - rewrite (proj2 (nth_error_None F k)) by lia. rewrite (proj2 (nth_error_None (seq 0 (num_owned owned)) k)) by (rewrite seq_length; lia). reflexivity.
Qed.
Print Assumptions C31_regions_partition_owned_cells.

Example C31_regions_example :
  init_regions [false; true; false; true; true] [3; 0; 4; 1; 2]%Z [(7%Z, "downstream"%string); (5%Z, "upstream"%string)] (Some [(5%Z, [0; 3; 4]); (7%Z, [1; 2])])
  = Some [Region 0 5 (Some "upstream"%string) [0; 3; 4] [1; 2]%Z; Region 1 7 (Some "downstream"%string) [1; 2] [0%Z]].
Proof. reflexivity. Qed.

(** ** C25: edges *)
(* Every edge with one or two cells: the two lists together hold every edge exactly once, an edge is
   internal when it separates two cells, and on the boundary when it has one. *)
Theorem C25_edge_lists_partition :
  forall supports,
    (forall s, In s supports -> length s = 1 \/ length s = 2) ->
    exists internal bnd, edge_lists supports = Some (internal, bnd) /\
      Permutation (internal ++ bnd) (seq 0 (length supports)) /\
      (forall e, In e internal <-> exists l r, nth_error supports e = Some [l; r]) /\
      (forall e, In e bnd <-> exists c, nth_error supports e = Some [c]).
Proof.
  intros supports H. destruct (edge_lists_some supports H) as (p & E & P). do 2 eexists. split; [exact E|].
  assert (S : forall e, e < length supports -> exists s, nth_error supports e = Some s /\ (length s = 1 \/ length s = 2) /\ p e = Nat.eqb (length s) 2).
  { intros e He. destruct (nth_error supports e) as [s|] eqn:Es; [|apply nth_error_None in Es; lia]. exists s. split; [reflexivity|]. split; [exact (H s (nth_error_In _ _ Es))|exact (P e s Es)]. }
  split; [|split].
  - clear. generalize (seq 0 (length supports)) as l. induction l as [|x t IH]; [constructor|]. cbn. destruct (p x); cbn.
    + constructor. exact IH.
    + eapply Permutation_trans; [symmetry; apply Permutation_middle|]. constructor. exact IH.
  - intros e. rewrite filter_In, in_seq. split.
    + intros ((_ & He) & Pe). destruct (S e He) as (s & Es & W & Ps). rewrite Pe in Ps. symmetry in Ps. apply Nat.eqb_eq in Ps. destruct s as [|l [|r [|? ?]]]; try discriminate. eauto.
    + intros (l & r & Es). assert (He : e < length supports) by (apply nth_error_Some; congruence). split; [lia|]. rewrite (P e _ Es). reflexivity.
  - intros e. rewrite filter_In, in_seq. split.
    + intros ((_ & He) & Pe). destruct (S e He) as (s & Es & W & Ps). rewrite Ps in Pe. destruct W as [W|W]; destruct s as [|c [|? [|? ?]]]; try discriminate. eauto.
    + intros (c & Es). assert (He : e < length supports) by (apply nth_error_Some; congruence). split; [lia|]. rewrite (P e _ Es). reflexivity.
Qed.
Print Assumptions C25_edge_lists_partition.
Example C25_edges_example : edge_lists [[0]; [0; 1]; [1]; [2; 0]] = Some ([1; 3], [0; 2]).
Proof. reflexivity. Qed.

(** ** C25: boundaries *)
(* the edges of a mesh given by their cells *)
Definition on_boundary (supports : list (list nat)) (e : nat) : Prop := exists c, nth_error supports e = Some [c].
(* an edge of the domain boundary that this process has to treat: its cell is owned *)
Definition treated (owned : list bool) (supports : list (list nat)) (e : nat) : Prop := exists c, nth_error supports e = Some [c] /\ owns owned c.
Definition occurrences (bs : list boundary) (e : nat) : nat := count_occ Nat.eq_dec (concat (map bd_edges bs)) e.

Lemma nodup_app_r {A} (a b : list A) : NoDup (a ++ b) -> NoDup b.
Proof. induction a as [|x t IH]; intros H; [exact H|]. apply IH. cbn in H. apply NoDup_cons_iff in H. exact (proj2 H). Qed.
Lemma nodup_app {A} (a b : list A) : NoDup a -> NoDup b -> (forall x, In x a -> ~ In x b) -> NoDup (a ++ b).
Proof.
  induction a as [|x t IH]; intros Ha Hb H; [exact Hb|]. apply NoDup_cons_iff in Ha. destruct Ha as (Hx & Ha). cbn. constructor.
  - intros Hin. apply in_app_or in Hin. destruct Hin as [Hin|Hin]; [exact (Hx Hin)|exact (H x (or_introl eq_refl) Hin)].
  - apply IH; [exact Ha|exact Hb|]. intros y Hy. apply H. right; exact Hy.
Qed.
Lemma omap_nth {A B} (f : A -> option B) l l' i a : omap f l = Some l' -> nth_error l i = Some a -> exists b, nth_error l' i = Some b /\ f a = Some b.
Proof.
  revert l' i. induction l as [|x t IH]; intros l' i E H; [destruct i; discriminate|]. cbn [omap] in E. destruct (f x) as [y|] eqn:Ex; [|discriminate]. cbn [obind] in E.
  destruct (omap f t) as [u|] eqn:Et; [|discriminate]. cbn [obind] in E. injection E as <-. destruct i as [|j]; [injection H as <-; exists y; split; [reflexivity|exact Ex]|exact (IH u j eq_refl H)].
Qed.
Lemma valid_boundary owned supports cs e c : omap edge_cells supports = Some cs -> nth_error supports e = Some [c] -> edge_valid owned cs e = is_owned owned c.
Proof.
  intros E H. destruct (omap_nth _ _ _ _ _ E H) as (lr & Hn & Hf). cbn in Hf. injection Hf as <-. unfold edge_valid. rewrite (nth_error_nth _ _ (-1, -1)%Z Hn). cbn [fst snd Z.leb Z.compare]. rewrite Nat2Z.id. reflexivity.
Qed.
Lemma count_concat_once (ls : list (list nat)) e : NoDup (concat ls) -> (exists l, In l ls /\ In e l) -> count_occ Nat.eq_dec (concat ls) e = 1.
Proof. intros N (l & Hl & He). apply NoDup_count_occ'; [exact N|]. apply in_concat. eauto. Qed.

(* Whatever face sets the mesh has, as long as each is made of boundary edges and no edge is in two:
   every boundary edge of an owned cell is in exactly one boundary, once; no other edge than a boundary
   edge is in one, and none is in two; a boundary carries the id of its face set, and the name the
   configuration gives to that id.  Requires that ids are increasing or none is 0; see below. *)
Theorem C25_boundaries_cover_once_partial :
  forall supports owned cs internal bnd cfg all_ids sets,
    (forall s, In s supports -> length s = 1 \/ length s = 2) -> omap edge_cells supports = Some cs -> edge_lists supports = Some (internal, bnd) ->
    length sets <= MAX_NUM_BOUNDARIES -> (forall b, In b cfg -> In (fst b) all_ids) ->
    NoDup (map fst sets) -> NoDup (concat (map snd sets)) -> (forall s e, In s sets -> In e (snd s) -> on_boundary supports e) ->
    StronglySorted (fun a b => (fst a < fst b)%Z) sets \/ (forall s, In s sets -> fst s <> 0%Z) ->
    exists bs, init_boundaries (length supports) owned cs cfg all_ids (Some bnd) (Some sets) = Some bs /\
      (forall e, treated owned supports e -> occurrences bs e = 1) /\
      (forall e, occurrences bs e <= 1 /\ (occurrences bs e > 0 -> on_boundary supports e)) /\
      NoDup (map bd_id bs) /\
      (forall b, In b bs -> bd_name b = config_name cfg (bd_id b)) /\
      (forall s, In s sets -> exists b, In b bs /\ bd_id b = fst s /\ bd_edges b = snd s).
Proof.
  intros supports owned cs internal bnd cfg all_ids sets HS HC HE HL HCfg HN HD HB HID.
  destruct (C25_edge_lists_partition supports HS) as (i' & b' & HE' & HP & _ & HBnd). rewrite HE in HE'. injection HE' as <- <-.
  assert (NB : NoDup bnd). { eapply nodup_app_r. eapply Permutation_NoDup; [symmetry; exact HP|apply seq_NoDup]. }
  unfold init_boundaries. apply Nat.leb_le in HL. rewrite HL.
  assert (FC : forallb (fun b : Z * string => existsb (Z.eqb (fst b)) all_ids) cfg = true).
  { apply forallb_forall. intros b Hb. apply existsb_exists. exists (fst b). split; [exact (HCfg b Hb)|apply Z.eqb_refl]. }
  rewrite FC. set (u0 := IsDifference bnd (filter (fun e => negb (edge_valid owned cs e)) (seq 0 (length supports)))).
  assert (IDN : ~ In (snd (fold_left (assign_step bnd) sets (u0, 0%Z))) (map fst sets)).
  { destruct HID as [HI|HI]; [exact (proj1 (assign_id_sorted bnd sets u0 0 HI))|]. rewrite assign_id_avoid by exact HI. intros H. apply in_map_iff in H. destruct H as (s & Hs & Hin). exact (HI s Hin Hs). }
  destruct (assign_unassigned bnd sets u0 0) as (PU & NU). destruct (fold_left (assign_step bnd) sets (u0, 0%Z)) as (un, id). cbn [fst snd] in *.
  assert (U0 : forall e, In e u0 <-> treated owned supports e).
  { intros e. unfold u0. rewrite difference_in, filter_In, in_seq. split.
    - intros (Hb & Hv). apply HBnd in Hb. destruct Hb as (c & Hc). exists c. split; [exact Hc|]. rewrite (valid_boundary owned supports cs e c HC Hc) in Hv.
      assert (He : e < length supports) by (apply nth_error_Some; congruence). destruct (is_owned owned c) eqn:Oc; [apply owns_is; split; [apply is_owned_lt; exact Oc|exact Oc]|]. exfalso. apply Hv. split; [lia|reflexivity].
    - intros (c & Hc & Oc). apply owns_is in Oc. split; [apply HBnd; eauto|]. rewrite (valid_boundary owned supports cs e c HC Hc). intros (_ & X). rewrite (proj2 Oc) in X. discriminate. }
  assert (LT : forall e, on_boundary supports e -> e < length supports) by (intros e (c & Hc); apply nth_error_Some; congruence).
  assert (NUn : NoDup un) by (apply NU; apply difference_nodup; exact NB).
  destruct un as [|e0 ut].
  - destruct (make_boundaries_sub (length supports) cfg sets 0 sets HN (fun s H => H) (fun s e Hs He => LT e (HB s e Hs He))) as (bs & EB & Q1 & Q2 & Q3 & Q4).
    exists bs. split; [exact EB|]. unfold occurrences. rewrite Q1. split; [|split; [|split; [|split]]].
    + intros e He. apply count_concat_once; [exact HD|]. apply U0 in He.
      destruct (in_dec Nat.eq_dec e (concat (map snd sets))) as [Hin|Hout]; [apply in_concat in Hin; exact Hin|].
      exfalso. apply (PU e). split; [exact He|]. intros s Hs (Hes & _). apply Hout. apply in_concat. exists (snd s). split; [apply in_map; exact Hs|exact Hes].
    + intros e. split; [apply (proj1 (NoDup_count_occ Nat.eq_dec _)); exact HD|]. intros Hc. apply count_occ_In in Hc. apply in_concat in Hc. destruct Hc as (l & Hl & He). apply in_map_iff in Hl. destruct Hl as (s & <- & Hs). exact (HB s e Hs He).
    + rewrite Q2. exact HN.
    + intros b Hb. apply In_nth_error in Hb. destruct Hb as (k & Hk). assert (X := f_equal (fun l => nth_error l k) Q3). assert (Y := f_equal (fun l => nth_error l k) Q2). cbn in X, Y. rewrite !nth_error_map, Hk in X, Y.
      destruct (nth_error sets k) as [s|]; [|discriminate]. cbn in X, Y. injection X as ->. injection Y as ->. reflexivity.
    + intros s Hs. apply In_nth_error in Hs. destruct Hs as (k & Hk). assert (X := f_equal (fun l => nth_error l k) Q1). assert (Y := f_equal (fun l => nth_error l k) Q2). cbn in X, Y. rewrite !nth_error_map, Hk in X, Y.
      destruct (nth_error bs k) as [b|] eqn:Eb; [|discriminate]. cbn in X, Y. injection X as X. injection Y as Y. exists b. split; [exact (nth_error_In _ _ Eb)|]. split; assumption.
  - set (un := e0 :: ut) in *. rewrite set_stratum_new by exact IDN. set (label := sets ++ [(id, un)]).
    assert (EM : map fst sets ++ [id] = map fst label) by (unfold label; rewrite map_app; reflexivity). rewrite EM.
    assert (NL : NoDup (map fst label)). { rewrite <- EM. eapply Permutation_NoDup; [apply Permutation_cons_append|]. constructor; assumption. }
    assert (UB : forall e, In e un -> on_boundary supports e) by (intros e He; apply PU in He; destruct He as (He & _); apply U0 in He; destruct He as (c & Hc & _); exists c; exact Hc).
    assert (BL : forall s e, In s label -> In e (snd s) -> on_boundary supports e).
    { intros s e Hs He. unfold label in Hs. apply in_app_or in Hs. destruct Hs as [Hs|[<-|[]]]; [exact (HB s e Hs He)|exact (UB e He)]. }
    destruct (make_boundaries_sub (length supports) cfg label 0 label NL (fun s H => H) (fun s e Hs He => LT e (BL s e Hs He))) as (bs & EB & Q1 & Q2 & Q3 & Q4).
    exists bs. split; [exact EB|]. unfold occurrences. rewrite Q1.
    assert (NC : NoDup (concat (map snd label))).
    { unfold label. rewrite map_app, concat_app. cbn [map concat snd]. rewrite app_nil_r. apply nodup_app; [exact HD|exact NUn|].
      intros e He Hu. apply PU in Hu. destruct Hu as (Hu & Hn). apply in_concat in He. destruct He as (l & Hl & He). apply in_map_iff in Hl. destruct Hl as (s & <- & Hs). apply (Hn s Hs). split; [exact He|]. apply HBnd. exact (HB s e Hs He). }
    split; [|split; [|split; [|split]]].
    + intros e He. apply count_concat_once; [exact NC|]. apply U0 in He. unfold label.
      destruct (in_dec Nat.eq_dec e (concat (map snd sets))) as [Hin|Hout].
      * apply in_concat in Hin. destruct Hin as (l & Hl & Hel). exists l. split; [|exact Hel]. rewrite map_app. apply in_or_app. left; exact Hl.
      * exists un. split; [rewrite map_app; apply in_or_app; right; left; reflexivity|]. apply PU. split; [exact He|]. intros s Hs (Hes & _). apply Hout. apply in_concat. exists (snd s). split; [apply in_map; exact Hs|exact Hes].
    + intros e. split; [apply (proj1 (NoDup_count_occ Nat.eq_dec _)); exact NC|]. intros Hc. apply count_occ_In in Hc. apply in_concat in Hc. destruct Hc as (l & Hl & He). apply in_map_iff in Hl. destruct Hl as (s & <- & Hs). exact (BL s e Hs He).
    + rewrite Q2. exact NL.
    + intros b Hb. apply In_nth_error in Hb. destruct Hb as (k & Hk). assert (X := f_equal (fun l => nth_error l k) Q3). assert (Y := f_equal (fun l => nth_error l k) Q2). cbn in X, Y. rewrite !nth_error_map, Hk in X, Y.
      destruct (nth_error label k) as [s|]; [|discriminate]. cbn in X, Y. injection X as ->. injection Y as ->. reflexivity.
    + intros s Hs. assert (HsL : In s label) by (unfold label; apply in_or_app; left; exact Hs). apply In_nth_error in HsL. destruct HsL as (k & Hk). assert (X := f_equal (fun l => nth_error l k) Q1). assert (Y := f_equal (fun l => nth_error l k) Q2). cbn in X, Y. rewrite !nth_error_map, Hk in X, Y.
      destruct (nth_error bs k) as [b|] eqn:Eb; [|discriminate]. cbn in X, Y. injection X as X. injection Y as Y. exists b. split; [exact (nth_error_In _ _ Eb)|]. split; assumption.
Qed.
Print Assumptions C25_boundaries_cover_once_partial.

(* A mesh without face sets: one boundary, number 0, with all the boundary edges of owned cells. *)
Theorem C25_no_face_sets_single_boundary :
  forall supports owned cs internal bnd all_ids,
    (forall s, In s supports -> length s = 1 \/ length s = 2) -> omap edge_cells supports = Some cs -> edge_lists supports = Some (internal, bnd) ->
    (exists e, treated owned supports e) ->
    exists es, init_boundaries (length supports) owned cs [] all_ids (Some bnd) None = Some [Boundary 0 0 None es] /\
      NoDup es /\ (forall e, In e es <-> treated owned supports e).
Proof.
  intros supports owned cs internal bnd all_ids HS HC HE (e1 & H1).
  destruct (C25_edge_lists_partition supports HS) as (i' & b' & HE' & HP & _ & HBnd). rewrite HE in HE'. injection HE' as <- <-.
  assert (NB : NoDup bnd). { eapply nodup_app_r. eapply Permutation_NoDup; [symmetry; exact HP|apply seq_NoDup]. }
  unfold init_boundaries. cbn [length Nat.leb forallb fold_left map app].
  set (u0 := IsDifference bnd (filter (fun e => negb (edge_valid owned cs e)) (seq 0 (length supports)))).
  assert (U0 : forall e, In e u0 <-> treated owned supports e).
  { intros e. unfold u0. rewrite difference_in, filter_In, in_seq. split.
    - intros (Hb & Hv). apply HBnd in Hb. destruct Hb as (c & Hc). exists c. split; [exact Hc|]. rewrite (valid_boundary owned supports cs e c HC Hc) in Hv.
      assert (He : e < length supports) by (apply nth_error_Some; congruence). destruct (is_owned owned c) eqn:Oc; [apply owns_is; split; [apply is_owned_lt; exact Oc|exact Oc]|]. exfalso. apply Hv. split; [lia|reflexivity].
    - intros (c & Hc & Oc). apply owns_is in Oc. split; [apply HBnd; eauto|]. rewrite (valid_boundary owned supports cs e c HC Hc). intros (_ & X). rewrite (proj2 Oc) in X. discriminate. }
  exists u0. split; [|split; [apply difference_nodup; exact NB|exact U0]].
  assert (F : forallb (fun e => Nat.ltb e (length supports)) u0 = true).
  { apply forallb_forall. intros e He. apply Nat.ltb_lt. apply U0 in He. destruct He as (c & Hc & _). apply nth_error_Some. congruence. }
  destruct u0 as [|x t]; [exfalso; apply (U0 e1); exact H1|]. cbn [set_stratum make_boundaries]. unfold make_boundary. cbn [get_stratum Z.eqb obind]. rewrite F. reflexivity.
Qed.
Print Assumptions C25_no_face_sets_single_boundary.

(* The unrestricted claim fails: the id chosen for the unassigned edges is stepped past a face set's
   id only when that one comes up, so with face sets numbered 1 and 0 in this order it becomes 1.  The
   unassigned edge 2 then replaces face set 1 (edge 0 is in no boundary) and appears twice. *)
Theorem C25_boundaries_cover_once_refuted :
  exists supports owned cs internal bnd sets bs,
    (forall s, In s supports -> length s = 1 \/ length s = 2) /\ omap edge_cells supports = Some cs /\ edge_lists supports = Some (internal, bnd) /\
    NoDup (map fst sets) /\ NoDup (concat (map snd sets)) /\ (forall s e, In s sets -> In e (snd s) -> on_boundary supports e) /\
    init_boundaries (length supports) owned cs [] [] (Some bnd) (Some sets) = Some bs /\
    treated owned supports 0 /\ occurrences bs 0 = 0 /\ treated owned supports 2 /\ occurrences bs 2 = 2.
Proof.
  exists [[0]; [0]; [0]], [true], [(0, -1); (0, -1); (0, -1)]%Z, [], [0; 1; 2], [(1%Z, [0]); (0%Z, [1])].
  eexists. split; [|split; [|split; [|split; [|split; [|split; [|split; [reflexivity|]]]]]]]; try reflexivity.
  - intros s H. cbn in H. destruct H as [<-|[<-|[<-|[]]]]; left; reflexivity.
  - repeat constructor; cbn; intros H; repeat destruct H as [H|H]; try discriminate; contradiction.
  - repeat constructor; cbn; intros H; repeat destruct H as [H|H]; try discriminate; contradiction.
  - intros s e [<-|[<-|[]]] [<-|[]]; exists 0; reflexivity.
  - split; [exists 0; split; reflexivity|]. split; [reflexivity|]. split; [exists 0; split; reflexivity|reflexivity].
Qed.
Print Assumptions C25_boundaries_cover_once_refuted.

(* a strip of two cells, the second a ghost; face set 3 holds edge 0; edges 1 and 2 are collected *)
Example C25_boundaries_example :
  init_boundaries 6 [true; false] [(0, -1); (0, -1); (0, -1); (0, 1); (1, -1); (1, -1)]%Z [(3%Z, "inflow"%string)] [3%Z] (Some [0; 1; 2; 4; 5]) (Some [(3%Z, [0])])
  = Some [Boundary 0 3 (Some "inflow"%string) [0]; Boundary 1 0 None [1; 2]].
Proof. reflexivity. Qed.
