(** C65, C66: error norms and convergence studies of manufactured solutions. *)
From Coq Require Import String Sorted Permutation.
From Verif Require Import Base SourceModel MeshMapsModel MeshMapsProofs AMRProofs AMRProperties DataModel TimeModel MMSModel MMSProofs MMSSourceProperties MMSDataProperties.
Local Open Scope R_scope.
Local Notation length := List.length.

(** ** Specification of the norms *)
(* A cell: centroid, area and the entries of the numerical solution *)
Record cell := Cell { at_point : R * R; area : R; numerical : list R }.
(* A process: its owned cells, then ghost cells (centroid and area); the regions list cells of this numbering *)
Record part := Part { owned : list cell; ghosts : list ((R * R) * R); areas_of_regions : list (list nat) }.
Definition proc_of (p : part) : proc :=
  Proc (map at_point (owned p) ++ map fst (ghosts p)) (map area (owned p) ++ map snd (ghosts p)) (seq 0 (length (owned p))) (flat_map numerical (owned p)) (areas_of_regions p).
Definition well_formed (ndof : nat) (p : part) : Prop :=
  (forall c, In c (owned p) -> length (numerical c) = ndof /\ 0 <= area c) /\
  (forall ids, In ids (areas_of_regions p) -> StronglySorted lt ids /\ forall i, In i ids -> (i < length (owned p) + length (ghosts p))%nat) /\
  (forall i, (i < length (owned p))%nat -> exists ids, In ids (areas_of_regions p) /\ In i ids).
(* difference between numerical and manufactured solution, component k *)
Definition difference (s : solutions) (classes : nat) (sal heat : bool) (t : R) (k : nat) (c : cell) : R :=
  match nth_error (numerical c) k, quantity s classes sal heat k t (at_point c) with Some u, Some q => u - q | _, _ => 0 end.
Definition all_cells (ps : list part) : list cell := flat_map owned ps.

(** ** Sums *)
Lemma rsum_cons {A} (f : A -> R) a l : rsum f (a :: l) = f a + rsum f l.
Proof. reflexivity. Qed.
Definition maxabs (l : list (R * R)) : R := fold_right (fun x m => Rmax (Rabs (fst x)) m) 0 l.
Lemma maxabs_nonneg l : 0 <= maxabs l.
Proof. induction l as [|x t IH]; cbn; [lra|]. eapply Rle_trans; [exact IH|apply Rmax_r]. Qed.
Lemma maxabs_app a b : maxabs (a ++ b) = Rmax (maxabs a) (maxabs b).
Proof.
  induction a as [|x t IH]; cbn [app maxabs fold_right].
  - symmetry. apply Rmax_right. apply maxabs_nonneg.
  - fold (maxabs (t ++ b)). rewrite IH. fold (maxabs t). rewrite Rmax_assoc. reflexivity.
Qed.
Lemma norms_loop (f : norms -> nat -> option norms) (l : list (R * R)) :
  forall off a b m, 0 <= m ->
  (forall j e ar n, nth_error l j = Some (e, ar) -> f n (off + j)%nat = Some (Norms (n_1 n + Rabs e * ar) (n_2 n + e * e * ar) (Rmax (Rabs e) (n_inf n)))) ->
  ofold f (seq off (length l)) (Norms a b m) = Some (Norms (a + rsum (fun x => Rabs (fst x) * snd x) l) (b + rsum (fun x => fst x * fst x * snd x) l) (Rmax (maxabs l) m)).
Proof.
  induction l as [|(e, ar) t IH]; intros off a b m Hm H; cbn [length seq ofold].
  - f_equal. cbn. rewrite !Rplus_0_r. rewrite Rmax_right by exact Hm. reflexivity.
  - assert (H0 := H 0%nat e ar (Norms a b m) eq_refl). rewrite Nat.add_0_r in H0. rewrite H0, obind_Some. cbn [n_1 n_2 n_inf].
    rewrite IH.
    + rewrite !rsum_cons. cbn [fst snd]. f_equal. cbn [maxabs fold_right fst]. fold (maxabs t).
      replace (Rmax (maxabs t) (Rmax (Rabs e) m)) with (Rmax (Rmax (Rabs e) (maxabs t)) m); [|rewrite Rmax_assoc, (Rmax_comm (maxabs t)); reflexivity].
      replace (a + Rabs e * ar + rsum (fun x => Rabs (fst x) * snd x) t) with (a + (Rabs e * ar + rsum (fun x => Rabs (fst x) * snd x) t)) by ring.
      replace (b + e * e * ar + rsum (fun x => fst x * fst x * snd x) t) with (b + (e * e * ar + rsum (fun x => fst x * fst x * snd x) t)) by ring. reflexivity.
    + eapply Rle_trans; [exact Hm|apply Rmax_r].
    + intros j e' ar' n Hj. replace (S off + j)%nat with (off + S j)%nat by lia. apply H. exact Hj.
Qed.

Section Norms.
  Context (s : solutions) (classes : nat) (sal heat : bool) (t : R) (k : nat).
  Local Notation nd := (3 + classes + (if sal then 1 else 0) + (if heat then 1 else 0))%nat.
  Context (Hk : (k < nd)%nat).
  Local Notation err := (difference s classes sal heat t k).
  Definition pairs (p : part) : list (R * R) := map (fun c => (err c, area c)) (owned p).

  Lemma quantity_defined p : exists q, quantity s classes sal heat k t p = Some q.
  Proof. rewrite quantity_component. destruct (nth_error (components s classes sal heat) k) eqn:E; [eexists; reflexivity|]. apply nth_error_None in E. rewrite components_length in E. lia. Qed.

  Lemma local_ok p : well_formed nd p ->
    (let* e := error_vector s classes sal heat t (proc_of p) in local_norms (length (components s classes sal heat)) k e (proc_of p)) =
    Some (Norms (rsum (fun x => Rabs (fst x) * snd x) (pairs p)) (rsum (fun x => fst x * fst x * snd x) (pairs p)) (maxabs (pairs p))).
  Proof.
    intros (W1 & W2 & W3). unfold error_vector. rewrite components_length. cbn [proc_of p_o2l p_centroids p_regions p_u]. rewrite seq_length.
    destruct (C64_solution_partial s classes sal heat (length (owned p)) (map at_point (owned p) ++ map fst (ghosts p)) (areas_of_regions p) t) as (x & E & L & X).
    { rewrite app_length, map_length. lia. }
    { intros ids Hi. destruct (W2 ids Hi) as (St & B). split; [exact St|]. intros c Hc. rewrite app_length, !map_length. apply B. exact Hc. }
    cbv zeta in *. rewrite E, obind_Some, obind_Some.
    unfold local_norms. cbn [proc_of p_o2l p_areas]. rewrite seq_length. replace (length (owned p)) with (length (pairs p)) by apply map_length.
    rewrite (norms_loop _ (pairs p) 0 0 0 0 (Rle_refl 0)).
    - rewrite !Rplus_0_l. f_equal. f_equal. apply Rmax_left. apply maxabs_nonneg.
    - intros j e ar n Hj. change (0 + j)%nat with j. unfold pairs in Hj. rewrite nth_error_map in Hj. destruct (nth_error (owned p) j) as [c|] eqn:Ec; [|discriminate]. cbn in Hj. injection Hj as <- <-.
      assert (Lj : (j < length (owned p))%nat) by (apply nth_error_Some; congruence).
      rewrite (nth_error_nth' (seq 0 (length (pairs p))) 0%nat) by (rewrite seq_length; unfold pairs; rewrite map_length; exact Lj). rewrite seq_nth by (unfold pairs; rewrite map_length; exact Lj). change (0 + j)%nat with j. rewrite obind_Some.
      rewrite nth_error_app1 by (rewrite map_length; exact Lj). rewrite nth_error_map, Ec. cbn [option_map]. rewrite obind_Some.
      destruct (W1 c (nth_error_In _ _ Ec)) as (Lc & _).
      assert (Hq : nth_error x (nd * j + k) = quantity s classes sal heat k t (at_point c)).
      { apply (proj1 (X j k Lj Hk)); [|apply W3; exact Lj]. rewrite nth_error_app1 by (rewrite map_length; exact Lj). rewrite nth_error_map, Ec. reflexivity. }
      destruct (quantity_defined (at_point c)) as (q & Eq). rewrite Eq in Hq.
      destruct (nth_error (numerical c) k) as [u|] eqn:Eu; [|apply nth_error_None in Eu; lia].
      assert (Hu : nth_error (flat_map numerical (owned p)) (nd * j + k) = Some u).
      { clear - W1 Ec Eu Hk. revert j Ec. assert (H : forall c', In c' (owned p) -> length (numerical c') = nd) by (intros c' Hc'; apply W1; exact Hc'). clear W1. revert H.
        generalize (owned p). induction l as [|a l IH]; intros H j Ec; [destruct j; discriminate|]. cbn [flat_map]. assert (La := H a (or_introl eq_refl)). destruct j as [|j]; cbn in Ec.
        - injection Ec as ->. rewrite Nat.mul_0_r. rewrite nth_error_app1 by lia. exact Eu.
        - rewrite nth_error_app2 by (rewrite La; nia). rewrite La. replace (nd * S j + k - nd)%nat with (nd * j + k)%nat by nia. apply IH; [intros c' Hc'; apply H; right; exact Hc'|exact Ec]. }
      assert (He : nth_error (subtract (flat_map numerical (owned p)) x) (nd * j + k) = Some (err c)).
      { unfold difference. rewrite Eu, Eq. unfold subtract. rewrite nth_error_map. revert Hu Hq. generalize (nd * j + k)%nat. generalize (flat_map numerical (owned p)). clear. intros l. revert x.
        induction l as [|a l IH]; intros x i Hu Hq; [destruct i; discriminate|]. destruct x as [|b x]; [destruct i; discriminate|]. destruct i as [|i]; cbn in *; [congruence|]. apply IH; assumption. }
      rewrite He, obind_Some. reflexivity.
  Qed.
End Norms.

Lemma rsum_pairs s classes sal heat t k (F : R * R -> R) ps :
  rsum (fun p => rsum F (pairs s classes sal heat t k p)) ps = rsum (fun c => F (difference s classes sal heat t k c, area c)) (all_cells ps).
Proof. unfold all_cells. rewrite rsum_flat_map. apply rsum_ext. intros p _. unfold pairs. induction (owned p) as [|c l IH]; cbn [map]; [reflexivity|]. rewrite !rsum_cons, IH. reflexivity. Qed.

(** ** Error norms: whatever the distribution over processes, they are the area-weighted norms over all cells. *)
Theorem C65_error_norms : forall s classes (sal heat : bool) t k ps,
  let ndof := (3 + classes + (if sal then 1 else 0) + (if heat then 1 else 0))%nat in let err := difference s classes sal heat t k in
  (k < ndof)%nat -> (forall p, In p ps -> well_formed ndof p) ->
  exists n, RDyMMSComputeErrorNorms s classes sal heat t (map proc_of ps) k = Some n /\
    n_1 n = rsum (fun c => Rabs (err c) * area c) (all_cells ps) /\
    n_2 n = sqrt (rsum (fun c => err c ^ 2 * area c) (all_cells ps)) /\
    (forall c, In c (all_cells ps) -> Rabs (err c) <= n_inf n) /\ (n_inf n = 0 \/ exists c, In c (all_cells ps) /\ n_inf n = Rabs (err c)).
Proof.
  intros s classes sal heat t k ps. cbv zeta. intros Hk W. unfold RDyMMSComputeErrorNorms.
  set (N := fun p => Norms (rsum (fun x => Rabs (fst x) * snd x) (pairs s classes sal heat t k p)) (rsum (fun x => fst x * fst x * snd x) (pairs s classes sal heat t k p)) (maxabs (pairs s classes sal heat t k p))).
  assert (E : omap (fun p => let* e := error_vector s classes sal heat t p in local_norms (length (components s classes sal heat)) k e p) (map proc_of ps) = Some (map N ps)).
  { revert W. induction ps as [|p ps IH]; intros W; cbn [map omap]; [reflexivity|]. rewrite (local_ok s classes sal heat t k Hk p (W p (or_introl eq_refl))), obind_Some. rewrite IH by (intros p' Hp; apply W; right; exact Hp). reflexivity. }
  rewrite E, obind_Some. unfold global_norms.
  assert (S1 : rsum n_1 (map N ps) = rsum (fun c => Rabs (difference s classes sal heat t k c) * area c) (all_cells ps)).
  { rewrite <- (rsum_pairs s classes sal heat t k (fun x => Rabs (fst x) * snd x)). clear. induction ps as [|p ps IH]; cbn [map]; [reflexivity|]. rewrite !rsum_cons, IH. reflexivity. }
  assert (S2 : rsum n_2 (map N ps) = rsum (fun c => difference s classes sal heat t k c ^ 2 * area c) (all_cells ps)).
  { transitivity (rsum (fun c => difference s classes sal heat t k c * difference s classes sal heat t k c * area c) (all_cells ps)); [|apply rsum_ext; intros; ring].
    rewrite <- (rsum_pairs s classes sal heat t k (fun x => fst x * fst x * snd x)). clear. induction ps as [|p ps IH]; cbn [map]; [reflexivity|]. rewrite !rsum_cons, IH. reflexivity. }
  assert (P2 : 0 <= rsum n_2 (map N ps)).
  { rewrite S2. assert (A : forall c, In c (all_cells ps) -> 0 <= area c). { intros c Hc. unfold all_cells in Hc. apply in_flat_map in Hc. destruct Hc as (p & Hp & Hc). destruct (W p Hp) as (W1 & _). apply W1. exact Hc. }
    revert A. generalize (all_cells ps). induction l as [|c l IH]; intros A; [cbn; lra|]. rewrite rsum_cons. assert (B := pow2_ge_0 (difference s classes sal heat t k c)). assert (C := A c (or_introl eq_refl)).
    specialize (IH (fun c' H => A c' (or_intror H))). nra. }
  rewrite rsqrt_some by exact P2. rewrite obind_Some. eexists. split; [reflexivity|]. cbn [n_1 n_2 n_inf]. split; [exact S1|]. split; [rewrite S2; reflexivity|].
  assert (M : fold_right (fun n m => Rmax (n_inf n) m) 0 (map N ps) = maxabs (map (fun c => (difference s classes sal heat t k c, area c)) (all_cells ps))).
  { clear. unfold all_cells. induction ps as [|p ps IH]; cbn [map fold_right flat_map]; [reflexivity|]. rewrite IH, map_app, maxabs_app. reflexivity. }
  rewrite M. clear. generalize (all_cells ps). induction l as [|c l (IH1 & IH2)]; cbn [map maxabs fold_right].
  - split; [contradiction|left; reflexivity].
  - cbn [fst]. fold (maxabs (map (fun c => (difference s classes sal heat t k c, area c)) l)). split.
    + intros c' [<-|Hc]; [apply Rmax_l|]. eapply Rle_trans; [apply IH1; exact Hc|apply Rmax_r].
    + destruct (Rle_dec (Rabs (difference s classes sal heat t k c)) (maxabs (map (fun c => (difference s classes sal heat t k c, area c)) l))) as [H|H].
      * rewrite (Rmax_right _ _ H). destruct IH2 as [Z|(c' & Hc & Ec)]; [left; exact Z|right; exists c'; split; [right; exact Hc|exact Ec]].
      * right. exists c. split; [left; reflexivity|]. apply Rmax_left. lra.
Qed.
Print Assumptions C65_error_norms.

(** On one process, for any numbering of its cells: entry i of the error vector is weighted with the area of the
    local cell that owned cell i is. *)
Theorem C65_weights : forall ndof k e p (l : list (R * R)),
  length l = length (p_o2l p) ->
  (forall i er ar, nth_error l i = Some (er, ar) ->
     nth_error e (ndof * i + k) = Some er /\ exists c, nth_error (p_o2l p) i = Some c /\ nth_error (p_areas p) c = Some ar) ->
  local_norms ndof k e p =
  Some (Norms (rsum (fun x => Rabs (fst x) * snd x) l) (rsum (fun x => fst x * fst x * snd x) l) (fold_right (fun x m => Rmax (Rabs (fst x)) m) 0 l)).
Proof.
  intros ndof k e p l L H. unfold local_norms. rewrite <- L. rewrite (norms_loop _ l 0 0 0 0 (Rle_refl 0)).
  - rewrite !Rplus_0_l. rewrite Rmax_left by apply maxabs_nonneg. reflexivity.
  - intros j er ar n Hj. change (0 + j)%nat with j. destruct (H j er ar Hj) as (A & c & B & C). rewrite B, obind_Some, C, obind_Some, A, obind_Some. reflexivity.
Qed.
Print Assumptions C65_weights.
Example C65_weights_example : local_norms 1 0 [2; -3] (Proc [] [10; 20; 30] [2; 0]%nat [] []) = Some (Norms (2 * 30 + (3 * 10 + 0)) (2 * 2 * 30 + (-3 * -3 * 10 + 0)) 3).
Proof.
  rewrite (C65_weights 1 0 _ (Proc [] [10; 20; 30] [2; 0]%nat [] []) [(2, 30); (-3, 10)] eq_refl).
  - cbn [rsum fst snd fold_right]. rewrite (Rabs_right 2), (Rabs_left (-3)) by lra. rewrite (Rmax_left (- -3) 0) by lra. rewrite (Rmax_right 2 (- -3)) by lra. replace (- -3) with 3 by ring. reflexivity.
  - intros [|[|[|i]]] er ar Hi; cbn in Hi; try discriminate; injection Hi as <- <-; (split; [reflexivity|]); eexists; (split; [reflexivity|]); reflexivity.
Qed.

(** Two distributions of the same cells give the same norms. *)
Theorem C65_distribution_independent : forall s classes (sal heat : bool) t k ps ps',
  let ndof := (3 + classes + (if sal then 1 else 0) + (if heat then 1 else 0))%nat in
  (k < ndof)%nat -> (forall p, In p ps -> well_formed ndof p) -> (forall p, In p ps' -> well_formed ndof p) -> Permutation (all_cells ps) (all_cells ps') -> all_cells ps <> [] ->
  RDyMMSComputeErrorNorms s classes sal heat t (map proc_of ps) k = RDyMMSComputeErrorNorms s classes sal heat t (map proc_of ps') k.
Proof.
  intros s classes sal heat t k ps ps'. cbv zeta. intros Hk W W' P Ne.
  destruct (C65_error_norms s classes sal heat t k ps Hk W) as (n & E & A & B & C & D). destruct (C65_error_norms s classes sal heat t k ps' Hk W') as (n' & E' & A' & B' & C' & D'). cbv zeta in *.
  rewrite E, E'. f_equal. destruct n as [a b m], n' as [a' b' m']. cbn [n_1 n_2 n_inf] in *. rewrite (rsum_perm _ _ _ P) in A. rewrite (rsum_perm _ _ _ P) in B. subst. f_equal.
  apply Rle_antisym.
  - destruct D as [->|(c & Hc & ->)]; [|apply C'; eapply Permutation_in; eauto]. destruct (all_cells ps') as [|c l]; [apply Permutation_sym, Permutation_nil in P; contradiction|].
    eapply Rle_trans; [apply Rabs_pos|apply (C' c); left; reflexivity].
  - destruct D' as [->|(c & Hc & ->)]; [|apply C; eapply Permutation_in; [apply Permutation_sym; exact P|exact Hc]]. destruct (all_cells ps) as [|c l]; [contradiction|].
    eapply Rle_trans; [apply Rabs_pos|apply (C c); left; reflexivity].
Qed.
Print Assumptions C65_distribution_independent.

(** The norms of a component vanish exactly if it agrees with the manufactured solution in every cell. *)
Theorem C65_zero_error : forall s classes (sal heat : bool) t k ps n,
  let ndof := (3 + classes + (if sal then 1 else 0) + (if heat then 1 else 0))%nat in
  (k < ndof)%nat -> (forall p, In p ps -> well_formed ndof p) -> (forall c, In c (all_cells ps) -> 0 < area c) ->
  RDyMMSComputeErrorNorms s classes sal heat t (map proc_of ps) k = Some n ->
  let exact := forall c, In c (all_cells ps) -> nth_error (numerical c) k = quantity s classes sal heat k t (at_point c) in
  (n_1 n = 0 <-> exact) /\ (n_2 n = 0 <-> exact) /\ (n_inf n = 0 <-> exact).
Proof.
  intros s classes sal heat t k ps n. cbv zeta. intros Hk W Ar E. destruct (C65_error_norms s classes sal heat t k ps Hk W) as (n' & E' & A & B & C & D). cbv zeta in *. rewrite E in E'. injection E' as <-.
  assert (X : forall c, In c (all_cells ps) -> (difference s classes sal heat t k c = 0 <-> nth_error (numerical c) k = quantity s classes sal heat k t (at_point c))).
  { intros c Hc. unfold difference. destruct (quantity_defined s classes sal heat t k Hk (at_point c)) as (q & ->).
    assert (Lc : length (numerical c) = (3 + classes + (if sal then 1 else 0) + (if heat then 1 else 0))%nat). { unfold all_cells in Hc. apply in_flat_map in Hc. destruct Hc as (p & Hp & Hc). destruct (W p Hp) as (W1 & _). apply W1. exact Hc. }
    destruct (nth_error (numerical c) k) as [u|] eqn:Eu; [|apply nth_error_None in Eu; lia]. split; [intros H; f_equal; lra|intros [= ->]; ring]. }
  assert (Sum : forall F : cell -> R, (forall c, In c (all_cells ps) -> 0 <= F c) -> (rsum F (all_cells ps) = 0 <-> forall c, In c (all_cells ps) -> F c = 0)).
  { intros F. generalize (all_cells ps). induction l as [|c l IH]; intros HF; [cbn; split; [contradiction|reflexivity]|]. rewrite rsum_cons.
    assert (Hl : 0 <= rsum F l). { assert (HF' : forall c', In c' l -> 0 <= F c') by (intros; apply HF; right; assumption). clear - HF'. induction l as [|a l IH]; [cbn; lra|]. rewrite rsum_cons. assert (0 <= F a) by (apply HF'; left; reflexivity). assert (0 <= rsum F l) by (apply IH; intros; apply HF'; right; assumption). lra. }
    assert (Hc := HF c (or_introl eq_refl)). specialize (IH (fun c' H => HF c' (or_intror H))). split.
    - intros H c' [<-|Hc']; [lra|]. apply IH; [lra|exact Hc'].
    - intros H. rewrite (H c (or_introl eq_refl)). rewrite (proj2 IH); [ring|]. intros c' Hc'. apply H. right. exact Hc'. }
  split; [|split].
  - rewrite A, Sum by (intros c Hc; specialize (Ar c Hc); assert (Z := Rabs_pos (difference s classes sal heat t k c)); nra). split; intros H c Hc; specialize (H c Hc); specialize (Ar c Hc).
    + apply X; [exact Hc|]. destruct (Rmult_integral _ _ H) as [Z|Z]; [|lra]. destruct (Req_dec (difference s classes sal heat t k c) 0) as [|N]; [assumption|]. exfalso. exact (Rabs_no_R0 _ N Z).
    + apply X in H; [|exact Hc]. rewrite H, Rabs_R0. ring.
  - rewrite B. assert (P : forall c, In c (all_cells ps) -> 0 <= difference s classes sal heat t k c ^ 2 * area c) by (intros c Hc; specialize (Ar c Hc); assert (Z := pow2_ge_0 (difference s classes sal heat t k c)); nra).
    assert (Q := Sum _ P). assert (NN : 0 <= rsum (fun c => difference s classes sal heat t k c ^ 2 * area c) (all_cells ps)).
    { clear - P. revert P. generalize (all_cells ps). induction l as [|c l IH]; intros P; [cbn; lra|]. rewrite rsum_cons. assert (Z := P c (or_introl eq_refl)). specialize (IH (fun c' H => P c' (or_intror H))). lra. }
    split.
    + intros H. apply sqrt_eq_0 in H; [|exact NN]. intros c Hc. apply X; [exact Hc|]. assert (Z := proj1 Q H c Hc). cbn beta in Z. specialize (Ar c Hc). destruct (Rmult_integral _ _ Z) as [Z'|Z']; [|lra]. apply Rsqr_0_uniq. unfold Rsqr. lra.
    + intros H. rewrite (proj2 Q); [apply sqrt_0|]. intros c Hc. rewrite (proj2 (X c Hc) (H c Hc)). ring.
  - split.
    + intros H c Hc. apply X; [exact Hc|]. assert (Z := C c Hc). rewrite H in Z. assert (Z' := Rabs_pos (difference s classes sal heat t k c)). destruct (Req_dec (difference s classes sal heat t k c) 0) as [|N]; [assumption|]. exfalso. apply (Rabs_no_R0 _ N). lra.
    + intros H. destruct D as [Z|(c & Hc & ->)]; [exact Z|]. rewrite (proj2 (X c Hc) (H c Hc)). apply Rabs_R0.
Qed.
Print Assumptions C65_zero_error.

(** Number of cells and area: process 0 gets the totals. *)
Theorem C65_totals_partial : forall ps ndof, (forall p, In p ps -> well_formed ndof p) ->
  reported_cells (map proc_of ps) 0 = Some (length (all_cells ps)) /\ reported_area (map proc_of ps) 0 = Some (rsum area (all_cells ps)).
Proof.
  intros ps ndof W. split.
  - cbn [reported_cells]. f_equal. unfold all_cells. clear. induction ps as [|p ps IH]; [reflexivity|]. cbn [map fold_right flat_map]. rewrite IH, app_length. cbn [proc_of p_o2l]. rewrite seq_length. reflexivity.
  - cbn [reported_area].
    assert (H : forall p, omap (nth_error (p_areas (proc_of p))) (p_o2l (proc_of p)) = Some (map area (owned p))).
    { intros p. cbn [proc_of p_areas p_o2l]. rewrite <- (map_length area (owned p)). generalize (map snd (ghosts p)). generalize (map area (owned p)) as l. intros l.
      assert (G : forall pre suf, omap (nth_error (pre ++ l ++ suf)) (seq (length pre) (length l)) = Some l).
      { induction l as [|a l IH]; intros pre suf; [reflexivity|]. cbn [length seq omap]. rewrite nth_error_app2, Nat.sub_diag by lia. cbn [app nth_error]. rewrite obind_Some.
        assert (X := IH (pre ++ [a]) suf). rewrite app_length, Nat.add_1_r in X. rewrite <- app_assoc in X. cbn [app] in X. rewrite X. reflexivity. }
      intros suf. exact (G [] suf). }
    assert (G : omap (fun p => omap (nth_error (p_areas p)) (p_o2l p)) (map proc_of ps) = Some (map (fun p => map area (owned p)) ps)).
    { clear W. induction ps as [|p ps IH]; cbn [map omap]; [reflexivity|]. rewrite H, obind_Some, IH. reflexivity. }
    rewrite G, obind_Some. f_equal. unfold all_cells. clear. induction ps as [|p ps IH]; [reflexivity|]. cbn [map concat flat_map]. rewrite !rsum_app, IH. f_equal. induction (owned p) as [|c l IHl]; [reflexivity|]. cbn [map]. rewrite !rsum_cons, IHl. reflexivity.
Qed.
Print Assumptions C65_totals_partial.
(* The function is documented to store them; on the other processes the variables keep what they held. *)
Theorem C65_totals_refuted : exists ps rank, (forall p, In p ps -> well_formed 3 p) /\ (rank < length ps)%nat /\
  reported_cells (map proc_of ps) rank = None /\ reported_area (map proc_of ps) rank = None.
Proof.
  set (p := Part [Cell (0, 0) 1 [1; 0; 0]] [] [[0%nat]]).
  exists [p; p], 1%nat. split; [|split; [cbn; lia|split; reflexivity]].
  assert (Wp : well_formed 3 p).
  { split; [|split].
    - intros c [<-|[]]. cbn. split; [reflexivity|lra].
    - intros ids [<-|[]]. split; [repeat constructor|]. intros i [<-|[]]. cbn. lia.
    - intros i Hi. cbn in Hi. assert (i = 0)%nat by lia. subst. exists [0%nat]. split; left; reflexivity. }
  intros q [<-|[<-|[]]]; exact Wp.
Qed.
Print Assumptions C65_totals_refuted.
(* a case with two processes, a ghost cell and two regions *)
Example norms_example : let p := Part [Cell (0, 0) 1 [2; 0; 0]; Cell (1, 0) (1/2) [3; 1; 0]] [((2, 0), 1)] [[0; 2]%nat; [1]%nat] in
  let q := Part [Cell (2, 0) 1 [1; 0; 1]] [] [[0]%nat] in forall r, In r [p; q] -> well_formed 3 r.
Proof.
  cbv zeta. intros r [<-|[<-|[]]]; (split; [|split]).
  - intros c [<-|[<-|[]]]; cbn; (split; [reflexivity|lra]).
  - intros ids [<-|[<-|[]]]; (split; [repeat constructor|cbn; intuition lia]).
  - intros i Hi. cbn in Hi. assert (H : (i = 0 \/ i = 1)%nat) by lia. destruct H; subst; [exists [0; 2]%nat|exists [1]%nat]; cbn; auto.
  - intros c [<-|[]]; cbn; (split; [reflexivity|lra]).
  - intros ids [<-|[]]; (split; [repeat constructor|cbn; intuition lia]).
  - intros i Hi. cbn in Hi. assert (i = 0)%nat by lia. subst. exists [0]%nat. cbn. auto.
Qed.

(** ** C66: convergence rates *)
Definition log10 (x : R) : R := ln x / ln 10.
Lemma ln10_pos : 0 < ln 10.
Proof. rewrite <- ln_1. apply ln_increasing; lra. Qed.
Lemma finite_sum (w : list (R * R)) : fold_right ieee_add (Fin 0) (map (fun wy => ieee_scal (fst wy) (Fin (snd wy))) w) = Fin (rsum (fun wy => fst wy * snd wy) w).
Proof. induction w as [|(a, y) t IH]; [reflexivity|]. cbn [map fold_right]. rewrite IH. reflexivity. Qed.

Lemma rsum_in_pos {A} (f : A -> R) l a : (forall b, 0 <= f b) -> In a l -> 0 < f a -> 0 < rsum f l.
Proof.
  intros P H Pa. induction l as [|b l IH]; [contradiction|]. rewrite rsum_cons. assert (Pl : 0 <= rsum f l) by (apply rsum_nonneg; auto). assert (Pb := P b).
  destruct H as [->|H]; [lra|specialize (IH H); lra].
Qed.

Lemma pow2_gt_0 x : x <> 0 -> 0 < x ^ 2.
Proof. intros H. assert (P := pow2_ge_0 x). assert (Z := pow_nonzero x 2 H). lra. Qed.

Section Regression.
  Context (pts : list (R * R)).    (* (x, y) *)
  Local Notation n := (INR (length pts)).
  Local Notation sx := (rsum fst pts).
  Local Notation sy := (rsum snd pts).
  Local Notation sxx := (rsum (fun p => fst p * fst p) pts).
  Local Notation sxy := (rsum (fun p => fst p * snd p) pts).
  Local Notation D := (n * sxx - sx * sx).
  Definition slope : R := (n * sxy - sx * sy) / D.
  Definition intercept : R := (sy - slope * sx) / n.
  Definition residuals (a b : R) : R := rsum (fun p => (snd p - (a + b * fst p)) ^ 2) pts.

  Lemma rsum_one {A} (l : list A) : rsum (fun _ => 1) l = INR (length l).
  Proof. induction l as [|a l IH]; [reflexivity|]. cbn [length]. rewrite rsum_cons, IH, S_INR. ring. Qed.
  Lemma quadratic a b : rsum (fun p => (a + b * fst p) ^ 2) pts = n * a ^ 2 + 2 * a * b * sx + b ^ 2 * sxx.
  Proof.
    transitivity (rsum (fun p => a ^ 2 * 1 + (2 * a * b * fst p + b ^ 2 * (fst p * fst p))) pts); [apply rsum_ext; intros; ring|].
    rewrite !rsum_plus, !rsum_scal, rsum_one. ring.
  Qed.
  Lemma different_D : (exists p q, In p pts /\ In q pts /\ fst p <> fst q) -> 0 < D.
  Proof.
    intros (p & q & Hp & Hq & Hd). assert (Ne : pts <> []) by (intros E; rewrite E in Hp; contradiction).
    assert (Hn : 0 < n). { apply lt_0_INR. destruct pts; [contradiction|cbn; lia]. }
    set (m := sx / n).
    assert (E := quadratic (- m) 1). assert (P : 0 < rsum (fun p => (- m + 1 * fst p) ^ 2) pts).
    { destruct (Req_dec (fst p) m) as [Ep|Np].
      - apply (rsum_in_pos (fun p => (- m + 1 * fst p) ^ 2) pts q); [intros; apply pow2_ge_0|exact Hq|]. apply pow2_gt_0. lra.
      - apply (rsum_in_pos (fun p => (- m + 1 * fst p) ^ 2) pts p); [intros; apply pow2_ge_0|exact Hp|]. apply pow2_gt_0. lra. }
    rewrite E in P. assert (X : n * (n * (- m) ^ 2 + 2 * - m * 1 * sx + 1 ^ 2 * sxx) = D). { unfold m. field. lra. }
    rewrite <- X. apply Rmult_lt_0_compat; assumption.
  Qed.
  Lemma normal_equations : 0 < D -> 0 < n ->
    rsum (fun p => snd p - (intercept + slope * fst p)) pts = 0 /\ rsum (fun p => (snd p - (intercept + slope * fst p)) * fst p) pts = 0.
  Proof.
    intros HD Hn. split.
    - transitivity (rsum (fun p => snd p + (- intercept * 1 + - slope * fst p)) pts); [apply rsum_ext; intros; ring|].
      rewrite !rsum_plus, !rsum_scal, rsum_one. unfold intercept. field. lra.
    - transitivity (rsum (fun p => fst p * snd p + (- intercept * fst p + - slope * (fst p * fst p))) pts); [apply rsum_ext; intros; ring|].
      rewrite !rsum_plus, !rsum_scal. unfold intercept, slope. field. lra.
  Qed.
  Lemma best_fit a b : 0 < D -> 0 < n -> residuals a b = residuals intercept slope + rsum (fun p => ((intercept - a) + (slope - b) * fst p) ^ 2) pts.
  Proof.
    intros HD Hn. destruct (normal_equations HD Hn) as (N0 & N1). unfold residuals.
    transitivity (rsum (fun p => (snd p - (intercept + slope * fst p)) ^ 2 + (((intercept - a) + (slope - b) * fst p) ^ 2
       + (2 * (intercept - a) * (snd p - (intercept + slope * fst p)) + 2 * (slope - b) * ((snd p - (intercept + slope * fst p)) * fst p)))) pts); [apply rsum_ext; intros; ring|].
    rewrite !rsum_plus, !rsum_scal, N0, N1. ring.
  Qed.
  Lemma slope_computed : 0 < D -> regression_slope (map fst pts) (map (fun p => Fin (snd p)) pts) = Some (Fin slope).
  Proof.
    intros HD. unfold regression_slope. rewrite map_length. rewrite !rsum_map.
    change (rsum (fun a : R * R => fst a) pts) with (rsum fst pts). rewrite rdiv_some by lra. rewrite obind_Some. f_equal.
    set (d := 1 / D).
    transitivity (fold_right ieee_add (Fin 0) (map (fun wy => ieee_scal (fst wy) (Fin (snd wy))) (map (fun p => ((n * fst p - sx) * d, snd p)) pts))).
    - rewrite map_map. cbn [fst snd]. generalize ((n * sxx - sx * sx)). intros _. set (nn := n). set (ss := sx). clearbody nn ss d. clear HD. induction pts as [|p t IH]; [reflexivity|]. cbn [map combine fold_right fst snd]. rewrite IH. reflexivity.
    - rewrite finite_sum. f_equal. rewrite rsum_map. cbn [fst snd].
      transitivity (rsum (fun p => d * n * (fst p * snd p) + - (d * sx) * snd p) pts); [apply rsum_ext; intros; ring|]. rewrite rsum_plus, !rsum_scal. unfold slope, d. field. lra.
  Qed.
End Regression.

(* the fit of log10(error) to log10 of the mesh size h = N^(-1/2), with rate r and constant a: sum of squared deviations *)
Definition deviation (cells : list nat) (errs : list R) (a r : R) : R :=
  rsum (fun ne => (log10 (snd ne) - (a + r * log10 (/ sqrt (INR (fst ne))))) ^ 2) (combine cells errs).
(* A study: as many norms as meshes, at least two meshes with different numbers of cells *)
Definition study (cells : list nat) (errs : list R) : Prop :=
  length errs = length cells /\ (forall n, In n cells -> (0 < n)%nat) /\ exists n m, In n cells /\ In m cells /\ n <> m.

Lemma log10_size n : (0 < n)%nat -> log10 (/ sqrt (INR n)) = - (1/2) * log10 (INR n).
Proof.
  intros H. assert (P : 0 < INR n) by (apply lt_0_INR; exact H). assert (S := sqrt_lt_R0 _ P). unfold log10. rewrite ln_Rinv by exact S.
  assert (E : ln (INR n) = 2 * ln (sqrt (INR n))). { rewrite <- (sqrt_sqrt (INR n)) at 1 by lra. rewrite ln_mult by exact S. ring. }
  rewrite E. assert (L := ln10_pos). field. lra.
Qed.
Lemma log10_inj n m : (0 < n)%nat -> (0 < m)%nat -> log10 (INR n) = log10 (INR m) -> n = m.
Proof.
  intros Hn Hm E. apply INR_eq. apply ln_inv; try (apply lt_0_INR; assumption). unfold log10 in E. assert (L := ln10_pos).
  apply (Rmult_eq_reg_r (/ ln 10)); [exact E|]. apply Rinv_neq_0_compat. lra.
Qed.
Lemma study_points cells errs : study cells errs -> let pts := map (fun ne => (log10 (INR (fst ne)), log10 (snd ne))) (combine cells errs) in
  map fst pts = map (fun n => ln (INR n) / ln 10) cells /\ (exists p q, In p pts /\ In q pts /\ fst p <> fst q) /\ 0 < INR (length pts).
Proof.
  intros (L & Pos & n & m & Hn & Hm & Hd). cbv zeta. split; [|split].
  - rewrite map_map. cbn [fst]. clear - L. revert errs L. induction cells as [|c t IH]; intros [|e es] L; cbn in *; try discriminate; [reflexivity|]. f_equal. apply IH. lia.
  - assert (G : forall c, In c cells -> exists e, In (c, e) (combine cells errs)).
    { clear - L. revert errs L. induction cells as [|c t IH]; intros [|e es] L c' Hc; cbn in *; try discriminate; [contradiction|]. destruct Hc as [<-|Hc]; [exists e; left; reflexivity|]. destruct (IH es ltac:(lia) c' Hc) as (e' & He). exists e'. right. exact He. }
    destruct (G n Hn) as (e1 & H1). destruct (G m Hm) as (e2 & H2).
    exists (log10 (INR n), log10 e1), (log10 (INR m), log10 e2). split; [apply in_map_iff; exists (n, e1); auto|]. split; [apply in_map_iff; exists (m, e2); auto|]. cbn. intros E. apply Hd. apply log10_inj; auto.
  - apply lt_0_INR. rewrite map_length, combine_length, L, Nat.min_id. destruct cells; [contradiction|cbn; lia].
Qed.

Lemma rate_computed cells errs : study cells errs -> (forall e, In e errs -> 0 < e) ->
  let pts := map (fun ne => (log10 (INR (fst ne)), log10 (snd ne))) (combine cells errs) in
  conv_rate cells errs = Some (Fin (-2 * slope pts)).
Proof.
  intros S P. cbv zeta. destruct (study_points cells errs S) as (Ex & Df & Hn). cbv zeta in *. set (pts := map (fun ne : nat * R => (log10 (INR (fst ne)), log10 (snd ne))) (combine cells errs)) in *.
  unfold conv_rate. rewrite <- Ex.
  assert (Ey : map ieee_log10 errs = map (fun p => Fin (snd p)) pts).
  { unfold pts. rewrite map_map. cbn [snd]. destruct S as (L & _). clear - L P. revert errs L P. induction cells as [|c t IH]; intros [|e es] L P; cbn in *; try discriminate; [reflexivity|]. f_equal; [|apply IH; [lia|auto]].
    unfold ieee_log10. destruct (Rlt_dec 0 e) as [|N]; [reflexivity|]. exfalso. apply N. apply P. left. reflexivity. }
  rewrite Ey. rewrite slope_computed by (apply different_D; exact Df). rewrite obind_Some. cbn [ieee_scal]. f_equal. f_equal. ring.
Qed.

(** The rate reported for a component and norm is that of the best fit of error = C h^r to the measured
    norms, in the least-squares sense for the logarithms; no other rate fits as well. *)
Theorem C66_rate_is_best_fit : forall cells errs, study cells errs -> (forall e, In e errs -> 0 < e) ->
  exists r a, conv_rate cells errs = Some (Fin r) /\
    (forall a' r', deviation cells errs a r <= deviation cells errs a' r') /\ (forall a' r', deviation cells errs a' r' = deviation cells errs a r -> r' = r).
Proof.
  intros cells errs S P. assert (C := rate_computed cells errs S P). cbv zeta in C. destruct (study_points cells errs S) as (Ex & Df & Hn). cbv zeta in *. set (pts := map (fun ne : nat * R => (log10 (INR (fst ne)), log10 (snd ne))) (combine cells errs)) in *.
  assert (HD := different_D pts Df).
  assert (Dev : forall a r, deviation cells errs a r = residuals pts a (- (1/2) * r)).
  { intros a r. unfold deviation, residuals, pts. rewrite rsum_map. apply rsum_ext. intros (nn, e) Hin. cbn [fst snd]. rewrite log10_size; [f_equal; ring|]. destruct S as (_ & Pos & _). apply Pos. apply in_combine_l in Hin. exact Hin. }
  exists (-2 * slope pts), (intercept pts). split; [exact C|]. split.
  - intros a' r'. rewrite !Dev. replace (- (1/2) * (-2 * slope pts)) with (slope pts) by field. rewrite (best_fit pts a' (- (1/2) * r') HD Hn).
    assert (N : 0 <= rsum (fun p => ((intercept pts - a') + (slope pts - - (1/2) * r') * fst p) ^ 2) pts) by (apply rsum_nonneg; intros; apply pow2_ge_0). lra.
  - intros a' r' E. rewrite !Dev in E. replace (- (1/2) * (-2 * slope pts)) with (slope pts) in E by field. rewrite (best_fit pts a' (- (1/2) * r') HD Hn) in E.
    assert (Z : rsum (fun p => ((intercept pts - a') + (slope pts - - (1/2) * r') * fst p) ^ 2) pts = 0) by lra.
    destruct Df as (p & q & Hp & Hq & Hd).
    assert (V : forall p0, In p0 pts -> (intercept pts - a') + (slope pts - - (1/2) * r') * fst p0 = 0).
    { intros p0 Hp0. destruct (Req_dec ((intercept pts - a') + (slope pts - - (1/2) * r') * fst p0) 0) as [|Nz]; [assumption|]. exfalso.
      assert (X := rsum_in_pos (fun p => ((intercept pts - a') + (slope pts - - (1/2) * r') * fst p) ^ 2) pts p0 (fun b => pow2_ge_0 _) Hp0 (pow2_gt_0 _ Nz)). lra. }
    assert (Vp := V p Hp). assert (Vq := V q Hq). assert (X : (slope pts - - (1/2) * r') * (fst p - fst q) = 0) by lra.
    destruct (Rmult_integral _ _ X) as [Y|Y]; lra.
Qed.
Print Assumptions C66_rate_is_best_fit.

(** If the errors are exactly C h^p, the rate reported is p. *)
Theorem C66_power_law : forall cells C p, (forall n, In n cells -> (0 < n)%nat) -> (exists n m, In n cells /\ In m cells /\ n <> m) -> 0 < C ->
  conv_rate cells (map (fun n => C * Rpower (/ sqrt (INR n)) p) cells) = Some (Fin p).
Proof.
  intros cells C p Pos Df HC. set (errs := map _ cells). assert (S : study cells errs) by (split; [unfold errs; apply map_length|split; assumption]).
  assert (P : forall e, In e errs -> 0 < e). { intros e He. unfold errs in He. apply in_map_iff in He. destruct He as (n & <- & _). apply Rmult_lt_0_compat; [exact HC|]. unfold Rpower. apply exp_pos. }
  destruct (C66_rate_is_best_fit cells errs S P) as (r & a & E & Best & Uniq). rewrite E. f_equal. f_equal. symmetry. apply (Uniq (log10 C)).
  assert (Z : deviation cells errs (log10 C) p = 0).
  { unfold deviation. apply rsum_zero. intros (n, e) Hin. cbn [fst snd]. assert (Ee : e = C * Rpower (/ sqrt (INR n)) p). { unfold errs in Hin. clear - Hin. induction cells as [|c t IH]; [contradiction|]. cbn in Hin. destruct Hin as [[= <- <-]|Hin]; [reflexivity|apply IH; exact Hin]. }
    apply in_combine_l in Hin. specialize (Pos n Hin). assert (Pn : 0 < / sqrt (INR n)) by (apply Rinv_0_lt_compat, sqrt_lt_R0, lt_0_INR; exact Pos).
    rewrite Ee. unfold log10 at 1. rewrite ln_mult by (first [exact HC|unfold Rpower; apply exp_pos]). rewrite ln_Rpower. unfold log10. assert (L := ln10_pos).
    replace ((ln C + p * ln (/ sqrt (INR n))) / ln 10 - (ln C / ln 10 + p * (ln (/ sqrt (INR n)) / ln 10))) with 0 by (field; lra). ring. }
  assert (N : 0 <= deviation cells errs a r) by (apply rsum_nonneg; intros; apply pow2_ge_0). assert (B := Best (log10 C) p). lra.
Qed.
Print Assumptions C66_power_law.
Example power_law_example : (forall n, In n [100; 400; 1600]%nat -> (0 < n)%nat) /\ exists n m, In n [100; 400; 1600]%nat /\ In m [100; 400; 1600]%nat /\ n <> m.
Proof. split; [intros n [<-|[<-|[<-|[]]]]; lia|]. exists 100%nat, 400%nat. cbn. repeat split; [auto|auto|lia]. Qed.
Example best_fit_example : study [100; 400; 1600]%nat [1; 1/3; 1/8] /\ forall e, In e [1; 1/3; 1/8] -> 0 < e.
Proof. split; [split; [reflexivity|exact power_law_example]|]. intros e [<-|[<-|[<-|[]]]]; lra. Qed.

(** ** Verdict *)
Definition exceeds (rate : ieee) (want : R) : Prop := match rate with Fin r => want < r | PInf => True | MInf | NaN => False end.
Definition good (m : measured) (w : rates) : Prop := exceeds (m_1 m) (q_1 w) /\ exceeds (m_2 m) (q_2 w) /\ exceeds (m_inf m) (q_inf w).
Lemma fails_spec rate w : fails rate w = false <-> exceeds rate w.
Proof. destruct rate as [r| | |]; cbn [fails exceeds]; try (split; [discriminate|contradiction]); [|split; auto]. destruct (Rleb r w) eqn:E; [apply Rleb_true in E|apply Rleb_false in E]; split; intros; try discriminate; try reflexivity; lra. Qed.
Lemma check_component_spec m w k : check_component m (Some w) k = if (fails (m_1 m) (q_1 w) || fails (m_2 m) (q_2 w) || fails (m_inf m) (q_inf w))%bool then FAIL else k.
Proof. reflexivity. Qed.
Lemma check_component_good m w k : (good m w -> check_component m (Some w) k = k) /\ (~ good m w -> check_component m (Some w) k = FAIL).
Proof.
  rewrite check_component_spec. unfold good. rewrite <- !fails_spec. split.
  - intros (-> & -> & ->). reflexivity.
  - intros N. destruct (fails (m_1 m) (q_1 w)), (fails (m_2 m) (q_2 w)), (fails (m_inf m) (q_inf w)); try reflexivity. exfalso. apply N. repeat split.
Qed.
(** Flow and sediment classes: PASS if every rate exceeds its expectation, FAIL otherwise.  Missing: salinity
    and temperature (see below). *)
Theorem C66_verdict_partial : forall mh mhu mhv tracers e, (length tracers <= length (e_c e))%nat ->
  let all := [(mh, e_h e); (mhu, e_hu e); (mhv, e_hv e)] ++ combine tracers (e_c e) in
  (check_rates mh mhu mhv tracers e = PASS <-> forall m w, In (m, w) all -> good m w) /\ (check_rates mh mhu mhv tracers e = PASS \/ check_rates mh mhu mhv tracers e = FAIL).
Proof.
  intros mh mhu mhv tracers e L. cbv zeta.
  assert (One : forall m w k (P : Prop), (k = PASS <-> P) /\ (k = PASS \/ k = FAIL) -> (check_component m (Some w) k = PASS <-> good m w /\ P) /\ (check_component m (Some w) k = PASS \/ check_component m (Some w) k = FAIL)).
  { intros m w k P (H1 & H2). destruct (check_component_good m w k) as (G & B). destruct (Classical_Prop.classic (good m w)) as [Y|N].
    - rewrite (G Y). split; [rewrite H1; tauto|exact H2].
    - rewrite (B N). split; [split; [discriminate|tauto]|right; reflexivity]. }
  assert (Tr : forall off ts, (off + length ts <= length (e_c e))%nat -> (check_tracers ts off e = PASS <-> forall m w, In (m, w) (combine ts (skipn off (e_c e))) -> good m w) /\ (check_tracers ts off e = PASS \/ check_tracers ts off e = FAIL)).
  { intros off ts. revert off. induction ts as [|m ts IH]; intros off Lt; cbn [check_tracers].
    - split; [split; [intros _ m w []|reflexivity]|left; reflexivity].
    - cbn [length] in Lt. destruct (nth_error (e_c e) off) as [w|] eqn:Ew; [|apply nth_error_None in Ew; lia].
      assert (Sk : skipn off (e_c e) = w :: skipn (S off) (e_c e)).
      { clear - Ew. revert off Ew. generalize (e_c e). induction l as [|a l IH]; intros [|off] Ew; cbn in *; try discriminate; [congruence|]. rewrite (IH off Ew). reflexivity. }
      rewrite Sk. cbn [combine]. destruct (One m w _ _ (IH (S off) ltac:(lia))) as (X & Y). split; [|exact Y]. rewrite X. split.
      + intros (Gm & Gt) m' w' [[= <- <-]|Hin]; [exact Gm|apply Gt; exact Hin].
      + intros H. split; [apply H; left; reflexivity|]. intros m' w' Hin. apply H. right. exact Hin. }
  unfold check_rates. destruct (One mh (e_h e) _ _ (One mhu (e_hu e) _ _ (One mhv (e_hv e) _ _ (Tr 0%nat tracers L)))) as (X & Y). split; [|exact Y]. rewrite X. cbn [app skipn]. split.
  - intros (A & B & C & D) m w [[= <- <-]|[[= <- <-]|[[= <- <-]|Hin]]]; auto.
  - intros H. split; [apply H; left; reflexivity|]. split; [apply H; right; left; reflexivity|]. split; [apply H; right; right; left; reflexivity|]. intros m w Hin. apply H. right. right. right. exact Hin.
Qed.
Print Assumptions C66_verdict_partial.

(* A component that is exactly right on every mesh (for example no flow in y-direction) fails the study, whatever rate is expected. *)
Theorem C66_exact_component_refuted : exists cells errs, study cells errs /\ (forall e, In e errs -> e = 0) /\
  conv_rate cells errs = Some NaN /\ forall want, fails NaN want = true.
Proof.
  exists [1; 4]%nat, [0; 0]. split; [split; [reflexivity|split; [intros n [<-|[<-|[]]]; lia|exists 1%nat, 4%nat; cbn; repeat split; auto; lia]]|]. split; [intros e [<-|[<-|[]]]; reflexivity|]. split; [|reflexivity].
  unfold conv_rate, regression_slope. cbn [map length rsum combine fold_right fst snd]. set (L := ln (INR 4) / ln 10).
  assert (HL : 0 < L). { unfold L, Rdiv. apply Rmult_lt_0_compat; [rewrite <- ln_1; apply ln_increasing; [lra|]; cbn; lra|apply Rinv_0_lt_compat, ln10_pos]. }
  replace (ln (INR 1) / ln 10) with 0 by (cbn [INR]; rewrite ln_1; unfold Rdiv; ring). clearbody L.
  replace (INR 2 * (0 * 0 + (L * L + 0)) - (0 + (L + 0)) * (0 + (L + 0))) with (L * L) by (cbn [INR]; ring).
  rewrite rdiv_some by nra. rewrite obind_Some.
  assert (Z : ieee_log10 0 = MInf). { unfold ieee_log10. destruct (Rlt_dec 0 0); [lra|]. destruct (Req_EM_T 0 0); [reflexivity|contradiction]. } rewrite Z.
  assert (D : 0 < 1 / (L * L)) by (apply Rdiv_lt_0_compat; nra). set (d := 1 / (L * L)) in *. clearbody d.
  replace ((INR 2 * 0 - (0 + (L + 0))) * d) with (- (L * d)) by (cbn [INR]; ring). replace ((INR 2 * L - (0 + (L + 0))) * d) with (L * d) by (cbn [INR]; ring).
  assert (X : 0 < L * d) by (apply Rmult_lt_0_compat; assumption). cbn [ieee_scal].
  destruct (Rlt_dec 0 (- (L * d))); [lra|]. destruct (Rlt_dec (- (L * d)) 0); [|lra]. destruct (Rlt_dec 0 (L * d)); [|lra]. reflexivity.
Qed.
Print Assumptions C66_exact_component_refuted.

(* Salinity is compared with the expectation for the first sediment class without one; with five classes the
   comparison reads beyond the array. *)
Theorem C66_salinity_refuted :
  (exists mh mhu mhv mS e, length (e_c e) = 5%nat /\ good mh (e_h e) /\ good mhu (e_hu e) /\ good mhv (e_hv e) /\ good mS (e_S e) /\ check_rates mh mhu mhv [mS] e = FAIL) /\
  (exists mh mhu mhv mS e, length (e_c e) = 5%nat /\ ~ good mS (e_S e) /\ check_rates mh mhu mhv [mS] e = PASS) /\
  (exists mh mhu mhv mc mS e, length (e_c e) = 5%nat /\ length mc = 5%nat /\ check_rates mh mhu mhv (mc ++ [mS]) e = OUT_OF_BOUNDS).
Proof.
  set (one := Measured (Fin 1) (Fin 1) (Fin 1)). set (low := Rates 0 0 0). set (high := Rates 2 2 2).
  assert (G : good one low) by (unfold good, one, low; cbn [exceeds m_1 m_2 m_inf q_1 q_2 q_inf]; repeat split; lra). assert (B : ~ good one high) by (unfold good, one, high; cbn [exceeds m_1 m_2 m_inf q_1 q_2 q_inf]; intros (X & _); lra).
  assert (Hl : forall k, check_component one (Some low) k = k) by (intros k; exact (proj1 (check_component_good one low k) G)).
  assert (Hh : forall k, check_component one (Some high) k = FAIL) by (intros k; exact (proj2 (check_component_good one high k) B)).
  split; [|split].
  - exists one, one, one, one, (Expected low low low [high; high; high; high; high] low low). split; [reflexivity|]. do 4 (split; [exact G|]). unfold check_rates. cbn [e_h e_hu e_hv e_c check_tracers nth_error]. rewrite !Hl, Hh. reflexivity.
  - exists one, one, one, one, (Expected low low low [low; low; low; low; low] high low). split; [reflexivity|]. split; [exact B|]. unfold check_rates. cbn [e_h e_hu e_hv e_c check_tracers nth_error]. rewrite !Hl. reflexivity.
  - exists one, one, one, [one; one; one; one; one], one, (Expected low low low [low; low; low; low; low] low low). split; [reflexivity|]. split; [reflexivity|]. unfold check_rates. cbn [e_h e_hu e_hv e_c check_tracers nth_error app]. rewrite !Hl. reflexivity.
Qed.
Print Assumptions C66_salinity_refuted.

(** ** Times *)
(** With times in seconds and a final time that is a whole number of steps, all meshes are advanced to the time
    at which the exact solution is evaluated. *)
Theorem C66_times_partial : forall tc time_step r, tc_unit tc = SECONDS -> (0 < tc_stop_n tc)%nat -> tc_stop tc = INR (tc_stop_n tc) * time_step ->
  level_end tc time_step r = Some (compared_at tc).
Proof.
  intros tc time_step r U N E. assert (P : 0 < INR (tc_stop_n tc)) by (apply lt_0_INR; exact N). unfold level_end, level_dt, compared_at. destruct r.
  - unfold initial_dt. rewrite U. cbn [ConvertTimeToSeconds]. rewrite rdiv_some by lra. rewrite obind_Some. f_equal. field. lra.
  - rewrite obind_Some. rewrite E. reflexivity.
Qed.
Print Assumptions C66_times_partial.
(* In other units (here minutes, 10 steps of one minute): the coarsest mesh runs for 600 s, the refined ones
   for 10 s, and the exact solution is evaluated at time 10. *)
Theorem C66_unit_refuted : exists tc time_step, tc_stop tc = INR (tc_stop_n tc) * time_step /\
  level_end tc time_step 0 = Some 600 /\ level_end tc time_step 1 = Some 10 /\ compared_at tc = 10 /\ run_compared_at tc 600 = 10.
Proof.
  exists (TimeConfig MINUTES 10 10 10 false 0 0), 1. cbn [tc_stop tc_stop_n]. split; [cbn; lra|]. unfold level_end, level_dt, initial_dt, compared_at, run_compared_at. cbn [tc_stop tc_stop_n tc_unit]. replace (INR 10) with 10 by (cbn; lra).
  rewrite rdiv_some by lra. rewrite !obind_Some. cbn [ConvertTimeToSeconds]; unfold secs_in_min. split; [apply f_equal; lra|]. split; [apply f_equal; lra|]. split; [reflexivity|]. unfold RDyConvertTime. cbn [ConvertTimeToSeconds ConvertTimeFromSeconds]. unfold secs_in_min. lra.
Qed.
Print Assumptions C66_unit_refuted.
(* Final time 10 s and time step 3 s, hence 3 steps: the coarsest mesh is advanced to 10 s, the refined ones to 9 s. *)
Theorem C66_whole_steps_refuted : exists tc time_step, tc_unit tc = SECONDS /\ INR (tc_stop_n tc) <= tc_stop tc / time_step < INR (tc_stop_n tc) + 1 /\
  level_end tc time_step 0 = Some (compared_at tc) /\ level_end tc time_step 1 <> Some (compared_at tc).
Proof.
  exists (TimeConfig SECONDS 10 3 10 false 0 0), 3. cbn [tc_stop tc_stop_n tc_unit]. split; [reflexivity|]. split; [cbn; lra|]. unfold level_end, level_dt, initial_dt, compared_at. cbn [tc_stop tc_stop_n tc_unit]. replace (INR 3) with 3 by (cbn; lra).
  rewrite rdiv_some by lra. rewrite !obind_Some. cbn [ConvertTimeToSeconds]; unfold secs_in_min. split; [apply f_equal; lra|]. intros [= H]. lra.
Qed.
Print Assumptions C66_whole_steps_refuted.
Example times_example : let tc := TimeConfig SECONDS 10 5 10 false 0 0 in tc_unit tc = SECONDS /\ (0 < tc_stop_n tc)%nat /\ tc_stop tc = INR (tc_stop_n tc) * 2.
Proof. cbn [tc_unit tc_stop_n tc_stop]. split; [reflexivity|]. split; [lia|cbn; lra]. Qed.
Example verdict_example : exists e, (length [Measured (Fin 1) (Fin 1) PInf] <= length (e_c e))%nat.
Proof. exists (Expected (Rates 0 0 0) (Rates 0 0 0) (Rates 0 0 0) [Rates 0 0 0] (Rates 0 0 0) (Rates 0 0 0)). cbn. lia. Qed.
