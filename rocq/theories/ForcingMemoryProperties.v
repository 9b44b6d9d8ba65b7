(* C95: destroying a forcing releases everything it allocated exactly once. *)
From Coq Require Import List Arith ZArith Bool Lia.
From Verif Require Import SetupModel ForcingMemoryModel ForcingMemorySpec ForcingMemoryProofs.
Import ListNotations.
Local Open Scope nat_scope.
Local Notation length := List.length.

Lemma find_id_in id ids : (exists j, find_id id ids = Some j) <-> In id ids.
Proof.
  induction ids as [|z ids IH]; cbn; [split; [intros [j E]; discriminate | tauto]|].
  destruct (Z.eqb_spec id z) as [-> | NE]; [split; [auto | intros _; eauto]|].
  rewrite (or_comm (z = id)). split.
  - intros [j E]. left. apply IH. destruct (find_id id ids); [eauto | discriminate].
  - intros [H | H]; [|congruence]. apply IH in H as [j E]. rewrite E. cbn. eauto.
Qed.
Lemma files_found_spec i : files_found i = true <-> has_files i.
Proof.
  unfold files_found, has_files. destruct (bc i) as [ | | | ids bcs]; try tauto. unfold matched, dirichlet. rewrite forallb_forall. split.
  - intros H id e HI. apply find_id_in. specialize (H (id, e, true)). cbn in H.
    destruct (find_id id ids) as [j|]; [eauto|]. discriminate H. apply filter_In. auto.
  - intros H [[id e] w] HI. apply filter_In in HI as [HI W]. cbn in *. subst w. apply H, find_id_in in HI as [j ->]. reflexivity.
Qed.

(* No block is released twice, used after it was released or through a pointer that was not set, whatever the data,
   the mesh and the number of times the forcing is applied. *)
Theorem C95_released_once : forall i applied, safe (lifetime i applied).
Proof.
  intros i applied. pose proof (lifetime_ok i applied) as H. unfold safe. destruct (files_found i).
  - destruct H as [h [-> _]]. discriminate.
  - rewrite H. discriminate.
Qed.
Print Assumptions C95_released_once.

(* A Dirichlet condition without a file is the only thing here that stops the run. *)
Theorem C95_missing_file : forall i applied, run (lifetime i applied) start = Error <-> ~ has_files i.
Proof.
  intros i applied. pose proof (lifetime_ok i applied) as H. rewrite <- files_found_spec. destruct (files_found i).
  - destruct H as [h [-> _]]. split; [discriminate | congruence].
  - rewrite H. split; [discriminate | reflexivity].
Qed.
Print Assumptions C95_missing_file.

Lemma left_in i applied h : has_files i -> run (lifetime i applied) start = Ret h ->
  forall x, In x (left_over h) -> (exists d k, x = Name d k /\ k < files i d) \/ (x = Raster Map /\ raster_with_map i).
Proof.
  intros HF E x HI. apply files_found_spec in HF. pose proof (lifetime_ok i applied) as H. rewrite HF in H.
  destruct H as [h' [E' [K [_ [_ OW]]]]]. rewrite E in E'. injection E' as <-.
  apply in_map_iff in HI as [[o y] [<- HI]]. cbn [snd]. destruct (OW o y HI) as [P | X].
  - left. specialize (K y). rewrite P in K.
    split_slot y; cbn [gone created knows] in K; try discriminate; try (destruct K as [K | K]; discriminate).
    + exists Source, i0. split; auto. destruct (Nat.ltb_spec i0 (names_s (src i))) as [LT | GE]; [exact LT|]. cbn in K. destruct K; discriminate.
    + exists Boundary, i0. split; auto. destruct (Nat.ltb_spec i0 (names_b (bc i))) as [LT | GE]; [exact LT|]. cbn in K. destruct K; discriminate.
  - right. unfold lost in X. destruct (src i) as [ | | | c [|] | |] eqn:S; try discriminate. split_slot y; try discriminate.
    split; auto. exists c. exact S.
Qed.

(* Everything is released, except the copies of file names and the first map of a raster whose map is read from a file. *)
Theorem C95_released_partial : forall i applied, has_files i -> exists h, run (lifetime i applied) start = Ret h /\
  forall x, In x (left_over h) -> (exists d k, x = Name d k /\ k < files i d) \/ (x = Raster Map /\ raster_with_map i).
Proof.
  intros i applied HF. pose proof HF as HF'. apply files_found_spec in HF'. pose proof (lifetime_ok i applied) as H. rewrite HF' in H.
  destruct H as [h [E _]]. exists h. split; [exact E|]. exact (left_in i applied h HF E).
Qed.
Print Assumptions C95_released_partial.

(* With at most one file or directory of each kind and no map file of a raster, nothing at all is left. *)
Theorem C95_nothing_left : forall i applied, has_files i -> ~ several_files i -> ~ raster_with_map i ->
  exists h, run (lifetime i applied) start = Ret h /\ left_over h = [].
Proof.
  intros i applied HF NS NR. destruct (C95_released_partial i applied HF) as [h [E H]]. exists h. split; [exact E|].
  destruct (left_over h) as [|x l]; [reflexivity|]. exfalso.
  destruct (H x (or_introl eq_refl)) as [[d [k [-> K]]] | [_ R]]; [|exact (NR R)].
  apply NS. unfold several_files. destruct d; [left | right]; lia.
Qed.
Print Assumptions C95_nothing_left.

(* Every copy of a file name is left over: a leak of one block per file. *)
Theorem C95_file_names_refuted : forall i applied, has_files i ->
  exists h, run (lifetime i applied) start = Ret h /\
  forall d k, In (Name d k) (left_over h) <-> k < files i d.
Proof.
  intros i applied HF. pose proof HF as HF'. apply files_found_spec in HF'. pose proof (lifetime_ok i applied) as H. rewrite HF' in H.
  destruct H as [h [E [K _]]]. exists h. split; [exact E|]. intros d k. split.
  - intros HI. destruct (left_in i applied h HF E _ HI) as [[d' [k' [[= <- <-] LT]]] | [? _]]; [exact LT | discriminate].
  - intros LT. specialize (K (Name d k)). cbn [gone] in K.
    assert (EQ : created 0 SUnset BUnset (names_s (src i)) (names_b (bc i)) (Name d k) = L)
      by (destruct d; cbn [created]; rewrite ltb_true; auto).
    rewrite EQ in K. destruct K as [o [_ HI]]. apply in_map_iff. exists (o, Name d k). auto.
Qed.
Print Assumptions C95_file_names_refuted.

(* The map of a raster read from a file: the array made before it is read is lost, on every process with cells.  All
   that is lost is that one array: the one that is read is released. *)
Definition by_raster_map : input := Input 3 (SRaster 4 true) BUnset.
Theorem C95_raster_map_refuted : exists i h, has_files i /\ ~ several_files i /\ raster_with_map i /\
  run (lifetime i [(false, false); (true, false)]) start = Ret h /\ left_over h = [Raster Map].
Proof.
  exists by_raster_map. destruct (C95_released_partial by_raster_map [(false, false); (true, false)] I) as [h [E _]].
  exists h. split; [exact I|]. split; [intros [H | H]; apply H; reflexivity|]. split; [exists 4; reflexivity|]. split; [exact E|].
  assert (R : rbind (run (lifetime by_raster_map [(false, false); (true, false)]) start) (fun h => Ret (left_over h)) = Ret [Raster Map])
    by (vm_compute; reflexivity).
  rewrite E in R. cbn in R. congruence.
Qed.
Print Assumptions C95_raster_map_refuted.

(* The theorems speak about runs that hold memory: an unstructured source and three files for two Dirichlet conditions,
   applied twice, one of them with a condition without edges on this process. *)
Definition mixed : input := Input 5 (SUnstr 7 false) (BMulti [1; 2; 3]%Z [(3%Z, 4, true); (9%Z, 2, false); (1%Z, 0, true)]).
Example C95_example : has_files mixed /\ several_files mixed /\
  rbind (run (RDyCreateForcing mixed) start) (fun h => Ret (length (live h))) = Ret 21 /\
  rbind (run (lifetime mixed [(false, false); (true, true)]) start) (fun h => Ret (left_over h)) =
    Ret [Name Boundary 2; Name Boundary 1; Name Boundary 0].
Proof.
  split; [|split; [|split; vm_compute; reflexivity]].
  - intros id e [H | [H | [H | []]]]; try discriminate; injection H as <- <-; cbn; auto.
  - right. discriminate.
Qed.
Example C95_plain_example : let i := Input 5 (SRaster 6 false) (BUnstr 2 9) in has_files i /\ ~ several_files i /\ ~ raster_with_map i /\
  rbind (run (RDyCreateForcing i) start) (fun h => Ret (length (live h))) = Ret 15.
Proof.
  cbv zeta. split; [exact I|]. split; [intros [H | H]; apply H; reflexivity|]. split; [intros [c H]; discriminate | vm_compute; reflexivity].
Qed.
(* a condition without a file *)
Example C95_missing_file_example : ~ has_files (Input 5 SUnset (BMulti [1%Z] [(2%Z, 4, true)])).
Proof. intros H. specialize (H 2%Z 4 (or_introl eq_refl)). cbn in H. destruct H as [H | []]. discriminate. Qed.
