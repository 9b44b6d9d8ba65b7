(** C97: the number of cells of the whole mesh and the statistics of its partition. *)
From Coq Require Import Sorted.
From Verif Require Import Base SetupModel PartitionModel.
Local Open Scope Z_scope.

(** ** Specification *)
(* the number of cells a process owns *)
Definition owned (p : list bool) : Z := Z.of_nat (length (filter (fun o => o) p)).
(* the number of cells all of them own *)
Definition all_owned (procs : list (list bool)) : Z := fold_right (fun p n => owned p + n) 0 procs.
(* how many processes own at most / at least m cells *)
Definition at_most (procs : list (list bool)) (m : Z) : nat := length (filter (fun p => owned p <=? m) procs).
Definition at_least (procs : list (list bool)) (m : Z) : nat := length (filter (fun p => m <=? owned p) procs).

(** ** Lemmas *)
Lemma count_owned_eq p : count_owned p = owned p.
Proof.
  unfold count_owned, owned.
  assert (G : forall p n, fold_left (fun n o => if o : bool then n + 1 else n) p n = n + Z.of_nat (length (filter (fun o => o) p))).
  { clear; induction p as [|o p IH]; intros n; cbn [fold_left filter length]; [lia|].
    rewrite IH; destruct o; cbn [length]; lia. }
  rewrite G; lia.
Qed.
Lemma owned_nonneg p : 0 <= owned p.
Proof. unfold owned; lia. Qed.
Lemma all_owned_bound procs p : In p procs -> owned p <= all_owned procs.
Proof.
  induction procs as [|q procs IH]; cbn [In all_owned fold_right]; [tauto|].
  assert (N : 0 <= all_owned procs).
  { clear; induction procs as [|q procs IH]; cbn [all_owned fold_right]; [lia|]. pose proof (owned_nonneg q); fold (all_owned procs); lia. }
  fold (all_owned procs); pose proof (owned_nonneg q); intros [-> | I]; [lia|]. specialize (IH I); lia.
Qed.
Lemma as_int_fits n : 0 <= n <= INT_MAX -> as_int n = Ret n.
Proof. intros H; unfold as_int. destruct (Z.leb_spec 0 n), (Z.leb_spec n INT_MAX); cbn; try lia; reflexivity. Qed.
Lemma rmap_as_int l : (forall n, In n l -> 0 <= n <= INT_MAX) -> rmap as_int l = Ret l.
Proof.
  induction l as [|n l IH]; intros H; cbn [rmap]; [reflexivity|].
  rewrite as_int_fits by (apply H; left; reflexivity). cbn [rbind].
  rewrite IH by (intros; apply H; right; assumption). reflexivity.
Qed.
Lemma counts_eq procs : map count_owned procs = map owned procs.
Proof. apply map_ext, count_owned_eq. Qed.
Lemma fits procs : all_owned procs <= INT_MAX -> forall n, In n (map owned procs) -> 0 <= n <= INT_MAX.
Proof.
  intros H n I; apply in_map_iff in I; destruct I as (p & <- & I).
  pose proof (owned_nonneg p); pose proof (all_owned_bound procs p I); lia.
Qed.
Lemma sum_eq procs : forall n, fold_left Z.add (map owned procs) n = n + all_owned procs.
Proof. induction procs as [|p procs IH]; intros n; cbn [map fold_left all_owned fold_right]; [lia|]. rewrite IH; fold (all_owned procs); lia. Qed.
Lemma all_owned_nonneg procs : 0 <= all_owned procs.
Proof. induction procs as [|q procs IH]; cbn [all_owned fold_right]; [lia|]. pose proof (owned_nonneg q); fold (all_owned procs); lia. Qed.
Lemma total_ok procs : all_owned procs <= INT_MAX -> num_cells_global procs = Ret (all_owned procs).
Proof.
  intros H; unfold num_cells_global, MPI_Allreduce_sum. rewrite counts_eq, (rmap_as_int _ (fits procs H)).
  cbn [rbind]. rewrite sum_eq, as_int_fits; [f_equal; lia|]. pose proof (all_owned_nonneg procs); lia.
Qed.

Lemma insert_perm a l : Permutation (insert a l) (a :: l).
Proof.
  induction l as [|b l IH]; cbn [insert]; [reflexivity|]. destruct (a <=? b); [reflexivity|].
  rewrite IH; apply perm_swap.
Qed.
Lemma sort_perm l : Permutation (PetscSortMPIInt l) l.
Proof. induction l as [|a l IH]; cbn [PetscSortMPIInt]; [reflexivity|]. rewrite insert_perm, IH; reflexivity. Qed.
Lemma insert_sorted a l : StronglySorted Z.le l -> StronglySorted Z.le (insert a l).
Proof.
  induction l as [|b l IH]; intros H; cbn [insert]; [repeat constructor|].
  apply StronglySorted_inv in H; destruct H as [H F]. destruct (Z.leb_spec a b) as [L|L].
  - constructor; [constructor; assumption|]. constructor; [lia|]. rewrite Forall_forall in *; intros x I; specialize (F x I); lia.
  - constructor; [auto|]. rewrite Forall_forall in *; intros x I. apply (Permutation_in _ (insert_perm a l)) in I.
    destruct I as [<- | I]; [lia|auto].
Qed.
Lemma sort_sorted l : StronglySorted Z.le (PetscSortMPIInt l).
Proof. induction l as [|a l IH]; cbn [PetscSortMPIInt]; [constructor|apply insert_sorted; assumption]. Qed.
Lemma sorted_nth l : StronglySorted Z.le l -> forall i j a b, (i <= j)%nat -> nth_error l i = Some a -> nth_error l j = Some b -> a <= b.
Proof.
  induction 1 as [|x l H IH F]; intros i j a b L A B; [destruct i; discriminate|].
  destruct i, j; cbn [nth_error] in A, B; try lia.
  - inversion A; inversion B; lia.
  - inversion A; subst. rewrite Forall_forall in F. apply F, (nth_error_In _ _ B).
  - apply (IH i j); auto; lia.
Qed.
Lemma sorted_unique l : forall l', StronglySorted Z.le l -> StronglySorted Z.le l' -> Permutation l l' -> l = l'.
Proof.
  induction l as [|a l IH]; intros l' A B P; [apply Permutation_nil in P; congruence|].
  destruct l' as [|b l']; [apply Permutation_sym, Permutation_nil in P; discriminate|].
  apply StronglySorted_inv in A; apply StronglySorted_inv in B; destruct A as [A FA], B as [B FB]. rewrite Forall_forall in FA, FB.
  assert (a = b).
  { assert (I : In a (b :: l')) by (apply (Permutation_in _ P); left; reflexivity).
    assert (J : In b (a :: l)) by (apply (Permutation_in _ (Permutation_sym P)); left; reflexivity).
    destruct I as [I | I]; [auto|]. destruct J as [J | J]; [auto|]. specialize (FA _ J); specialize (FB _ I); lia. }
  subst b. f_equal. apply IH; auto. apply Permutation_cons_inv in P; assumption.
Qed.
Lemma filter_perm {A} (f : A -> bool) l l' : Permutation l l' -> length (filter f l) = length (filter f l').
Proof.
  induction 1; cbn [filter]; auto.
  - destruct (f x); cbn [length]; auto.
  - destruct (f x), (f y); cbn [length]; auto.
  - congruence.
Qed.
Lemma filter_count {A B} (g : A -> B) (f : B -> bool) l : length (filter f (map g l)) = length (filter (fun a => f (g a)) l).
Proof. induction l as [|a l IH]; cbn [map filter]; [reflexivity|]. destruct (f (g a)); cbn [length]; auto. Qed.
(* a prefix of entries that all satisfy f counts *)
Lemma filter_prefix (f : Z -> bool) k : forall l, (k <= length l)%nat -> (forall i a, (i < k)%nat -> nth_error l i = Some a -> f a = true) -> (k <= length (filter f l))%nat.
Proof.
  induction k as [|k IH]; intros l L H; [lia|]. destruct l as [|a l]; cbn [length] in L; [lia|].
  cbn [filter]. rewrite (H 0%nat a) by (cbn; auto; lia). cbn [length]. apply le_n_S, IH; [lia|].
  intros i b Hi N; apply (H (S i) b); [lia|assumption].
Qed.
Lemma filter_suffix (f : Z -> bool) k : forall l, (forall i a, (k <= i)%nat -> nth_error l i = Some a -> f a = true) -> (length l - k <= length (filter f l))%nat.
Proof.
  induction k as [|k IH]; intros l H.
  - rewrite Nat.sub_0_r. apply filter_prefix; [lia|]. intros i a _; apply H; lia.
  - destruct l as [|a l]; cbn [length]; [lia|]. cbn [filter].
    assert (length l - k <= length (filter f l))%nat by (apply IH; intros i b Hi; apply (H (S i) b); lia).
    destruct (f a); cbn [length]; lia.
Qed.
Lemma entry_ok l i : 0 <= i < Z.of_nat (length l) -> exists a, entry l i = Ret a /\ nth_error l (Z.to_nat i) = Some a.
Proof.
  intros H; unfold entry. destruct (Z.ltb_spec i 0); [lia|].
  destruct (nth_error l (Z.to_nat i)) as [a|] eqn:E; [exists a; auto|]. apply nth_error_None in E; lia.
Qed.
Lemma quot_div a : 0 <= a -> Z.quot a 2 = a / 2.
Proof. intros; apply Z.quot_div_nonneg; lia. Qed.
Lemma median_range n : 0 < n -> 0 <= median_index n < n /\ n <= 2 * (median_index n + 1) /\ 2 * median_index n <= n - 1.
Proof.
  intros H; unfold median_index. rewrite quot_div by lia. rewrite Z.rem_mod_nonneg by lia.
  pose proof (Z_div_mod_eq_full n 2); pose proof (Z.mod_pos_bound n 2). destruct (Z.eqb_spec (n mod 2) 0); lia.
Qed.

(** ** C97 *)
Lemma statistics_exist procs : procs <> [] -> all_owned procs <= INT_MAX ->
  exists mn mx md,
    OutputPartitionStatistics procs = Ret (Statistics (all_owned procs) mn mx md (rdiv (IZR mx) (IZR md)))
    /\ let l := PetscSortMPIInt (map owned procs) in
       nth_error l 0 = Some mn /\ nth_error l (length procs - 1) = Some mx
       /\ nth_error l (Z.to_nat (median_index (Z.of_nat (length procs)))) = Some md.
Proof.
  intros Hne H. unfold OutputPartitionStatistics. rewrite total_ok by assumption. cbn [rbind].
  unfold MPI_Gather. rewrite counts_eq, (rmap_as_int _ (fits procs H)). cbn [rbind]. cbv zeta.
  set (l := PetscSortMPIInt (map owned procs)).
  assert (L : length l = length procs) by (unfold l; rewrite (Permutation_length (sort_perm _)); apply map_length).
  assert (P : 0 < Z.of_nat (length procs)) by (destruct procs; [congruence|cbn [length]; lia]).
  destruct (median_range _ P) as (M & _).
  destruct (entry_ok l 0) as (mn & E1 & N1); [lia|].
  destruct (entry_ok l (Z.of_nat (length procs) - 1)) as (mx & E2 & N2); [lia|].
  destruct (entry_ok l (median_index (Z.of_nat (length procs)))) as (md & E3 & N3); [lia|].
  exists mn, mx, md. rewrite E1, E2, E3. split; [reflexivity|]. split; [assumption|]. split; [|assumption].
  rewrite <- N2. f_equal. lia.
Qed.
Lemma sorted_entry procs i a : nth_error (PetscSortMPIInt (map owned procs)) i = Some a -> exists p, In p procs /\ owned p = a.
Proof.
  intros H; apply nth_error_In in H; apply (Permutation_in _ (sort_perm _)) in H; apply in_map_iff in H.
  destruct H as (p & E & I); exists p; auto.
Qed.
Lemma sorted_index procs p : In p procs -> exists i, (i < length procs)%nat /\ nth_error (PetscSortMPIInt (map owned procs)) i = Some (owned p).
Proof.
  intros I; assert (J : In (owned p) (PetscSortMPIInt (map owned procs))).
  { apply (Permutation_in _ (Permutation_sym (sort_perm _))), in_map, I. }
  apply In_nth_error in J; destruct J as (i & J); exists i; split; [|assumption].
  assert (K : (i < length (PetscSortMPIInt (map owned procs)))%nat) by (apply nth_error_Some; congruence).
  rewrite (Permutation_length (sort_perm _)), map_length in K; assumption.
Qed.

(* The total: what every process is told is the number of cells owned by all processes together, and each is told how
   many it owns itself. *)
Theorem C97_total procs : all_owned procs <= INT_MAX ->
  num_cells_global procs = Ret (all_owned procs)
  /\ (forall rank p, nth_error procs rank = Some p -> RDyGetNumOwnedCells procs rank = Ret (owned p)).
Proof.
  intros H; split; [apply total_ok, H|]. intros rank p N; unfold RDyGetNumOwnedCells.
  rewrite counts_eq, (map_nth_error owned _ _ N); reflexivity.
Qed.
Print Assumptions C97_total.

(* The logged statistics, for every partition over any number of processes: they exist; the smallest and largest number
   of cells are bounds that some process attains; at least half of the processes own no more than the median, at least
   half no less, and it is the number of some process. *)
Theorem C97_statistics procs : procs <> [] -> all_owned procs <= INT_MAX ->
  exists s, OutputPartitionStatistics procs = Ret s
  /\ st_total s = all_owned procs
  /\ (forall p, In p procs -> st_min s <= owned p <= st_max s)
  /\ (exists p, In p procs /\ owned p = st_min s)
  /\ (exists p, In p procs /\ owned p = st_max s)
  /\ (exists p, In p procs /\ owned p = st_median s)
  /\ (length procs <= 2 * at_most procs (st_median s))%nat
  /\ (length procs <= 2 * at_least procs (st_median s))%nat.
Proof.
  intros Hne H. destruct (statistics_exist procs Hne H) as (mn & mx & md & E & N1 & N2 & N3).
  eexists; split; [exact E|]. cbn [st_total st_min st_max st_median]. split; [reflexivity|].
  pose proof (sort_sorted (map owned procs)) as So.
  assert (P : 0 < Z.of_nat (length procs)) by (destruct procs; [congruence|cbn [length]; lia]).
  destruct (median_range _ P) as (M & M1 & M2).
  assert (L : length (PetscSortMPIInt (map owned procs)) = length procs) by (rewrite (Permutation_length (sort_perm _)); apply map_length).
  split; [|split; [|split; [|split; [|split]]]]; try (eapply sorted_entry; eassumption).
  - intros p I; destruct (sorted_index procs p I) as (i & Hi & N). split.
    + apply (sorted_nth _ So 0%nat i); auto; lia.
    + apply (sorted_nth _ So i (length procs - 1)%nat); auto; lia.
  - unfold at_most. rewrite <- (filter_count owned (fun n => n <=? md) procs), <- (filter_perm _ _ _ (sort_perm (map owned procs))).
    pose proof (filter_prefix (fun n => n <=? md) (S (Z.to_nat (median_index (Z.of_nat (length procs))))) (PetscSortMPIInt (map owned procs))) as F.
    assert (G : (S (Z.to_nat (median_index (Z.of_nat (length procs)))) <= length (filter (fun n => (n <=? md)%Z) (PetscSortMPIInt (map owned procs))))%nat).
    { apply F; [lia|]. intros i a Hi N. apply Z.leb_le, (sorted_nth _ So i (Z.to_nat (median_index (Z.of_nat (length procs))))); auto; lia. }
    lia.
  - unfold at_least. rewrite <- (filter_count owned (fun n => md <=? n) procs), <- (filter_perm _ _ _ (sort_perm (map owned procs))).
    pose proof (filter_suffix (fun n => md <=? n) (Z.to_nat (median_index (Z.of_nat (length procs)))) (PetscSortMPIInt (map owned procs))) as F.
    assert (G : (length (PetscSortMPIInt (map owned procs)) - Z.to_nat (median_index (Z.of_nat (length procs))) <= length (filter (fun n => (md <=? n)%Z) (PetscSortMPIInt (map owned procs))))%nat).
    { apply F. intros i a Hi N. apply Z.leb_le, (sorted_nth _ So (Z.to_nat (median_index (Z.of_nat (length procs)))) i); auto. }
    lia.
Qed.
Print Assumptions C97_statistics.

(* The ratio of largest to median is at least one, and one only if no process owns more than the median. *)
Theorem C97_ratio procs : procs <> [] -> all_owned procs <= INT_MAX ->
  (forall p, In p procs -> 0 < owned p) ->
  exists s r, OutputPartitionStatistics procs = Ret s /\ st_ratio s = Some r
  /\ (r * IZR (st_median s) = IZR (st_max s))%R /\ (1 <= r)%R
  /\ (r = 1%R <-> forall p, In p procs -> owned p <= st_median s).
Proof.
  intros Hne H Pos. destruct (C97_statistics procs Hne H) as (s & E & _ & B & _ & (q & Iq & Eq) & (m & Im & Em) & _).
  assert (Hm : 0 < st_median s) by (rewrite <- Em; auto).
  assert (Rm : (0 < IZR (st_median s))%R) by (apply IZR_lt; assumption).
  assert (Rr : st_ratio s = rdiv (IZR (st_max s)) (IZR (st_median s))).
  { destruct (statistics_exist procs Hne H) as (? & ? & ? & E' & _). rewrite E in E'; inversion E'; reflexivity. }
  rewrite rdiv_some in Rr by lra.
  exists s, (IZR (st_max s) / IZR (st_median s))%R. split; [assumption|]. split; [assumption|].
  assert (Hle : st_median s <= st_max s) by (rewrite <- Em; apply B; assumption).
  assert (Rle : (IZR (st_median s) <= IZR (st_max s))%R) by (apply IZR_le; assumption).
  split; [field; lra|]. split.
  - apply Rmult_le_reg_r with (IZR (st_median s)); [assumption|]. unfold Rdiv; rewrite Rmult_assoc, Rinv_l by lra; lra.
  - split.
    + intros R1 p I. assert (IZR (st_max s) = IZR (st_median s)) as X.
      { replace (IZR (st_max s)) with (IZR (st_max s) / IZR (st_median s) * IZR (st_median s))%R by (field; lra). rewrite R1; lra. }
      apply eq_IZR in X. specialize (B p I); lia.
    + intros A. assert (st_max s = st_median s) as X by (specialize (A q Iq); lia). rewrite X; field; lra.
Qed.
Print Assumptions C97_ratio.

(* The numbering of the processes does not matter. *)
Theorem C97_rank_order procs procs' : Permutation procs procs' -> procs <> [] -> all_owned procs <= INT_MAX ->
  OutputPartitionStatistics procs' = OutputPartitionStatistics procs.
Proof.
  intros P Hne H. assert (Eo : all_owned procs' = all_owned procs).
  { clear -P; induction P; cbn [all_owned fold_right]; try fold (all_owned l); try fold (all_owned l'); try lia; auto. }
  assert (Hne' : procs' <> []) by (intros ->; apply Permutation_sym, Permutation_nil in P; congruence).
  destruct (statistics_exist procs Hne H) as (a & b & c & E & N1 & N2 & N3).
  destruct (statistics_exist procs' Hne') as (a' & b' & c' & E' & N1' & N2' & N3'); [lia|].
  assert (S' : PetscSortMPIInt (map owned procs') = PetscSortMPIInt (map owned procs)).
  { apply sorted_unique; try apply sort_sorted. rewrite !sort_perm. apply Permutation_map, Permutation_sym, P. }
  rewrite (Permutation_length P) in *. rewrite S' in *. rewrite E, E', Eo. congruence.
Qed.
Print Assumptions C97_rank_order.

(* three processes: 2, 1 and 3 cells of their own, some ghosts *)
Example C97_example : OutputPartitionStatistics [[true; true; false]; [true; false]; [true; true; true]] = Ret (Statistics 6 1 3 2 (rdiv 3 2)).
Proof. reflexivity. Qed.
Example C97_example_even : exists s, OutputPartitionStatistics [[true; true; false]; [true; false]; [true; true; true]; [true; true; true; true; false]] = Ret s /\ st_median s = 2.
Proof. eexists; split; [reflexivity|reflexivity]. Qed.

(* If more than half of the processes own no cell the median is zero and the logged ratio is not a number. *)
Theorem C97_ratio_refuted procs : procs <> [] -> all_owned procs <= INT_MAX ->
  (length procs < 2 * length (filter (fun p => Z.eqb (owned p) 0) procs))%nat ->
  exists s, OutputPartitionStatistics procs = Ret s /\ st_median s = 0 /\ st_ratio s = None.
Proof.
  intros Hne H Z0. destruct (C97_statistics procs Hne H) as (s & E & _ & _ & _ & _ & (m & Im & Em) & _ & G).
  assert (M0 : st_median s = 0).
  { destruct (Z.eq_dec (st_median s) 0) as [e|e]; [exact e|exfalso].
    assert (0 < st_median s) by (pose proof (owned_nonneg m); lia).
    assert (at_least procs (st_median s) + length (filter (fun p => Z.eqb (owned p) 0) procs) <= length procs)%nat; [|lia].
    clear -H0. unfold at_least. induction procs as [|p procs IH]; cbn [filter]; [cbn; lia|].
    destruct (Z.leb_spec (st_median s) (owned p)), (Z.eqb_spec (owned p) 0); cbn [length]; lia. }
  exists s; split; [assumption|]; split; [assumption|].
  destruct (statistics_exist procs Hne H) as (? & ? & ? & E' & _). rewrite E in E'; inversion E'; subst s. cbn [st_median] in M0. cbn [st_ratio].
  subst. apply rdiv_none.
Qed.
Print Assumptions C97_ratio_refuted.
Example C97_ratio_refuted_example : let procs := [[true; true]; [false]; []] in
  procs <> [] /\ all_owned procs <= INT_MAX /\ (length procs < 2 * length (filter (fun p => Z.eqb (owned p) 0) procs))%nat.
Proof. cbv zeta; split; [discriminate|]. split; [vm_compute; discriminate|cbn; lia]. Qed.

(* With more than 2147483647 cells the total is not defined, even when PetscInt has 64 bits and every process owns few. *)
Theorem C97_total_refuted procs : (forall p, In p procs -> owned p <= INT_MAX) -> INT_MAX < all_owned procs -> num_cells_global procs = UB.
Proof.
  intros F H; unfold num_cells_global, MPI_Allreduce_sum. rewrite counts_eq, rmap_as_int.
  - cbn [rbind]. rewrite sum_eq. unfold as_int. destruct (Z.leb_spec (0 + all_owned procs) INT_MAX); [lia|]. rewrite andb_false_r; reflexivity.
  - intros n I; apply in_map_iff in I; destruct I as (p & <- & I). pose proof (owned_nonneg p); auto.
Qed.
Print Assumptions C97_total_refuted.
Lemma all_owned_repeat p n : all_owned (repeat p n) = Z.of_nat n * owned p.
Proof. induction n as [|n IH]; cbn [repeat all_owned fold_right]; [lia|]. fold (all_owned (repeat p n)); lia. Qed.
Example C97_total_refuted_example : exists procs, (forall p, In p procs -> owned p = 1) /\ INT_MAX < all_owned procs.
Proof.
  exists (repeat [true] (Z.to_nat (INT_MAX + 1))). split.
  - intros p I; apply repeat_spec in I; subst; reflexivity.
  - rewrite all_owned_repeat, Z2Nat.id by (unfold INT_MAX; lia). change (owned [true]) with 1. lia.
Qed.
