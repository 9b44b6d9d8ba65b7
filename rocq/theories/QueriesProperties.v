(** C77: what programs learn about cells and boundaries, in C and in Fortran. *)
From Coq Require Import ZArith String Ascii.
From Verif Require Import Base MeshMapsModel MeshMapsProofs MeshMapsProperties DataModel SetupModel ConfigModel ForcingModel ForcingProperties CheckpointModel CheckpointProperties CeedRunProofs QueriesModel QueriesProofs.
Local Notation length := List.length.
Local Notation concat := List.concat.
Local Open Scope nat_scope.

(** ** The mesh and its parts *)
(* The mesh as given in the grid file: cells and edges are numbered there, from 0.  [m_edge_cell e]: the cell on a
   boundary edge. *)
Record mesh := Mesh {
  m_cells : nat; m_x : nat -> R; m_y : nat -> R; m_z : nat -> R; m_area : nat -> R;
  m_ex : nat -> R; m_ey : nat -> R; m_ez : nat -> R; m_edge_cell : nat -> nat
}.
(* a process holds the cells [cells] (some as ghosts) and the edges [edges] of the mesh *)
Definition holds (m : mesh) (cells edges : list nat) (g : geo) : Prop :=
  length (g_owned g) = length cells /\ g_natural g = map Z.of_nat cells /\
  g_centroids g = map (fun c => [m_x m c; m_y m c; m_z m c]) cells /\ g_areas g = map (m_area m) cells /\
  g_edge_centroids g = map (fun e => [m_ex m e; m_ey m e; m_ez m e]) edges /\
  (forall b e, In b (g_boundaries g) -> In e (bd_edges b) -> exists E i, nth_error edges e = Some E /\
     nth_error (g_edge_cells g) (2 * e) = Some (Z.of_nat i) /\ nth_error cells i = Some (m_edge_cell m E)).
(* the cells it owns, in its own order *)
Definition mine (cells : list nat) (g : geo) : list nat := map fst (filter snd (combine cells (g_owned g))).

Lemma mine_filter cells g : length (g_owned g) = length cells ->
  mine cells g = map (fun i => nth i cells 0) (filter (is_owned (g_owned g)) (seq 0 (length (g_owned g)))).
Proof.
  intros L. unfold mine, is_owned. revert L. generalize (g_owned g) as o. intros o L.
  enough (G : forall pre o' , map fst (filter snd (combine cells o)) = map (fun i => nth (i - pre) cells 0) (filter (fun i => nth i (o' ++ o) false) (seq pre (length o))) \/ length o' <> pre).
  { destruct (G 0 []) as [E|X]; [|exfalso; apply X; reflexivity]. rewrite E. cbn [app]. apply map_ext. intros i. now rewrite Nat.sub_0_r. }
  revert cells L. induction o as [|b o IH]; intros cells L pre o'; [left; destruct cells; reflexivity|].
  destruct cells as [|c cells]; [discriminate|]. destruct (Nat.eq_dec (length o') pre) as [Hp|Hp]; [left|right; exact Hp].
  cbn [combine filter snd length seq]. rewrite app_nth2 by lia. rewrite Hp, Nat.sub_diag. cbn [nth].
  destruct (IH cells ltac:(cbn in L; lia) (S pre) (o' ++ [b])) as [E|X]; [|exfalso; apply X; rewrite app_length; cbn; lia].
  rewrite <- app_assoc in E. cbn [app] in E.
  assert (R : map (fun i => nth (i - S pre) cells 0) (filter (fun i => nth i (o' ++ b :: o) false) (seq (S pre) (length o))) = map (fun i => nth (i - pre) (c :: cells) 0) (filter (fun i => nth i (o' ++ b :: o) false) (seq (S pre) (length o)))).
  { apply map_ext_in. intros i Hi. apply filter_In in Hi. destruct Hi as (Hi & _). apply in_seq in Hi. replace (i - pre) with (S (i - S pre)) by lia. reflexivity. }
  destruct b; cbn [map fst].
  - rewrite Nat.sub_diag. cbn [nth]. f_equal. rewrite E. exact R.
  - rewrite E. exact R.
Qed.
Lemma mine_length cells g : length (g_owned g) = length cells -> length (mine cells g) = num_owned (g_owned g).
Proof. intros L. rewrite mine_filter by exact L. rewrite map_length, num_owned_before. reflexivity. Qed.

Lemma owned_query_spec {A} (a : nat -> option A) (v : nat -> A) cells g : length (g_owned g) = length cells ->
  (forall i c, nth_error cells i = Some c -> a i = Some (v c)) -> forall debug values,
  (length values = length (mine cells g) -> owned_query debug g a values = Ok (map v (mine cells g))) /\
  (length values <> length (mine cells g) -> owned_query true g a values = Err values) /\
  (length values < length (mine cells g) -> owned_query false g a values = Undef) /\
  (length (mine cells g) < length values -> owned_query false g a values = Ok (map v (mine cells g) ++ skipn (length (mine cells g)) values)).
Proof.
  intros L Ha debug values. unfold owned_query. rewrite <- (mine_length cells g L).
  assert (E : forall vs, owned_loop (is_owned (g_owned g)) a (length (g_owned g)) vs = MeshMapsModel.fill (is_owned (g_owned g)) (fun i => v (nth i cells 0)) (seq 0 (length (g_owned g))) vs).
  { intros vs. apply owned_loop_fill. intros i Hi _. apply Ha. apply nth_error_nth'. lia. }
  assert (LF : length (filter (is_owned (g_owned g)) (seq 0 (length (g_owned g)))) = length (mine cells g)) by (rewrite mine_filter by exact L; now rewrite map_length).
  assert (MF : map (fun i => v (nth i cells 0)) (filter (is_owned (g_owned g)) (seq 0 (length (g_owned g)))) = map v (mine cells g)) by (rewrite mine_filter by exact L; now rewrite map_map).
  unfold MeshMapsModel.fill in E. split; [|split; [|split]]; intros H.
  - rewrite H, Nat.eqb_refl. cbn [negb]. rewrite Bool.andb_false_r, E, (fill_gen _ _ _ [] values) by lia. cbn [app option_map fst defined]. rewrite MF, LF, skipn_all2 by lia. now rewrite app_nil_r.
  - assert (X : Nat.eqb (length (mine cells g)) (length values) = false) by (apply Nat.eqb_neq; lia). rewrite X. reflexivity.
  - cbn [andb]. rewrite E, (fill_short _ _ _ [] values) by lia. reflexivity.
  - cbn [andb]. rewrite E, (fill_gen _ _ _ [] values) by lia. cbn [app option_map fst defined]. rewrite MF, LF. reflexivity.
Qed.

(** ** Numbers of the cells *)
(* On any number of processes, whatever the number of components of the solution, every process gets for each of its
   cells, ghosts included, the number the cell has in the grid file.  [num] lists the cells of the mesh in PETSc's
   global order; [held]: the places there of the cells of this process. *)
Theorem C77_natural_ids :
  forall num n rows num_fields cells held useNatural commsize,
    numbers_cells num n -> list_sum rows = n -> 0 < num_fields -> (Z.of_nat n < 2 ^ 31)%Z ->
    Forall2 (fun c g => nth_error num g = Some c) cells held ->
    (useNatural = false -> commsize = 1 /\ cells = seq 0 n) ->
    SaveNaturalCellIDs useNatural commsize num_fields num rows held = Some (map Z.of_nat cells).
Proof.
  intros num n rows nf cells held useNatural commsize N R F B H C.
  assert (LH : length held = length cells) by (clear - H; induction H; cbn; congruence).
  unfold SaveNaturalCellIDs. destruct useNatural.
  - destruct (numbers_NoDup num n N) as (ND & LN & IN).
    destruct (gather_spec nf num (natural_vec nf 0 0 rows) n) as (global & Eg & Lg & Gg); [rewrite natural_vec_length, R; reflexivity|intros c Hc; apply IN; exact Hc|].
    rewrite Eg. cbn [obind].
    destruct (gather_spec nf held global n) as (entries & Ee & Le & Ge).
    { rewrite Lg, LN. reflexivity. }
    { intros g Hg. clear - H Hg LN. induction H as [|c x cells held Hc _ IH]; [destruct Hg|]. destruct Hg as [<-|Hg]; [|exact (IH Hg)]. rewrite <- LN. apply nth_error_Some. congruence. }
    rewrite Ee. cbn [obind]. assert (X : Nat.eqb nf 0 = false) by (apply Nat.eqb_neq; lia). rewrite X.
    rewrite Le, Nat.mul_comm, Nat.div_mul by lia.
    assert (G : forall i, i < length held -> (let* x := nth_error entries (i * nf) in int_of x) = Some (Z.of_nat (nth i cells 0))).
    { intros i Hi. destruct (nth_error held i) as [g|] eqn:Eh; [|apply nth_error_None in Eh; lia].
      assert (Hc : nth_error cells i = Some (nth i cells 0)) by (apply nth_error_nth'; lia).
      assert (Hg : nth_error num g = Some (nth i cells 0)).
      { clear - H Eh Hc. revert i Eh Hc. induction H as [|c x cells held Hx _ IH]; intros i Eh Hc; [destruct i; discriminate|]. destruct i as [|i]; [cbn in *; congruence|exact (IH i Eh Hc)]. }
      assert (P := Ge i g 0 Eh F). rewrite !Nat.add_0_r in P. rewrite (Nat.mul_comm i nf), P.
      assert (Q := Gg g _ 0 Hg F). rewrite !Nat.add_0_r in Q. rewrite Q.
      assert (Hlt : nth i cells 0 < list_sum rows) by (rewrite R; apply IN; eapply nth_error_In; exact Hg).
      assert (V := natural_vec_nth nf rows F 0 0 (nth i cells 0) Hlt). rewrite Nat.mul_0_r in V. rewrite V. cbn [obind plus]. rewrite INR_IZR_INZ. apply int_of_IZR. lia. }
    rewrite (ofold_ext _ (fun ids i => let* z := (let* x := nth_error entries (i * nf) in int_of x) in upd ids i z)) by (intros; destruct (nth_error entries (a * nf)); reflexivity).
    rewrite (set_seq _ (fun i => Z.of_nat (nth i cells 0)) (length held)) by (rewrite ?repeat_length; auto).
    f_equal. rewrite LH. rewrite <- (map_map (fun i => nth i cells 0) Z.of_nat). f_equal. clear. induction cells as [|c t IH]; [reflexivity|]. cbn [length seq map nth]. f_equal. rewrite <- seq_shift, map_map. exact IH.
  - destruct (C eq_refl) as (-> & Es). cbn [Nat.eqb].
    assert (S0 := set_seq (fun i => Some (Z.of_nat i)) Z.of_nat (length held) (repeat (-1)%Z (length held)) (repeat_length _ _) (fun i _ => eq_refl)). cbn [obind] in S0. rewrite S0. rewrite LH, Es, seq_length. reflexivity.
Qed.
Print Assumptions C77_natural_ids.
(* four cells on two processes: cells 2 and 0 on the first, which also holds cell 3 *)
Example C77_natural_ids_inhabited : numbers_cells [2; 0; 3; 1] 4 /\ list_sum [2; 2] = 4 /\
  Forall2 (fun c g => nth_error [2; 0; 3; 1] g = Some c) [2; 0; 3] [0; 1; 2] /\
  SaveNaturalCellIDs true 2 3 [2; 0; 3; 1] [2; 2] [0; 1; 2] = Some [2; 0; 3]%Z.
Proof.
  assert (N : numbers_cells [2; 0; 3; 1] 4).
  { unfold numbers_cells. cbn [seq]. apply (Permutation_trans (l' := [0; 2; 3; 1])); [apply perm_swap|]. apply perm_skip. apply (Permutation_trans (l' := [2; 1; 3])); [apply perm_skip, perm_swap|]. apply perm_swap. }
  assert (H : Forall2 (fun c g => nth_error [2; 0; 3; 1] g = Some c) [2; 0; 3] [0; 1; 2]) by (repeat constructor).
  split; [exact N|]. split; [reflexivity|]. split; [exact H|].
  apply (C77_natural_ids [2; 0; 3; 1] 4 [2; 2] 3 [2; 0; 3] [0; 1; 2] true 2 N eq_refl); [lia|reflexivity|exact H|discriminate].
Qed.
(* After a refinement on several processes there is no natural order, and every cell of every process has number -1. *)
Theorem C77_refined_mesh_refuted :
  forall commsize num_fields num rows held, commsize <> 1 ->
    SaveNaturalCellIDs false commsize num_fields num rows held = Some (repeat (-1)%Z (length held)).
Proof. intros commsize nf num rows held H. unfold SaveNaturalCellIDs. apply Nat.eqb_neq in H. rewrite H. reflexivity. Qed.
Print Assumptions C77_refined_mesh_refuted.

(** ** Owned cells *)
(* Every query about the owned cells lists the same cells in the same order: those the process owns, each with the data
   the mesh has for it.  Arrays of another size are refused in debugging builds and left alone. *)
Theorem C77_owned_cells :
  forall m cells edges g, holds m cells edges g ->
  forall debug (ids : list Z) (x : list R),
    (length ids = length (mine cells g) -> RDyGetOwnedCellNaturalIDs debug g ids = Ok (map Z.of_nat (mine cells g))) /\
    (length x = length (mine cells g) ->
       RDyGetOwnedCellXCentroids debug g x = Ok (map (m_x m) (mine cells g)) /\
       RDyGetOwnedCellYCentroids debug g x = Ok (map (m_y m) (mine cells g)) /\
       RDyGetOwnedCellZCentroids debug g x = Ok (map (m_z m) (mine cells g)) /\
       RDyGetOwnedCellAreas debug g x = Ok (map (m_area m) (mine cells g))) /\
    (length ids <> length (mine cells g) -> RDyGetOwnedCellNaturalIDs true g ids = Err ids) /\
    (length x <> length (mine cells g) ->
       RDyGetOwnedCellXCentroids true g x = Err x /\ RDyGetOwnedCellYCentroids true g x = Err x /\
       RDyGetOwnedCellZCentroids true g x = Err x /\ RDyGetOwnedCellAreas true g x = Err x).
Proof.
  intros m cells edges g (L & HN & HC & HA & _) debug ids x.
  assert (Q0 := owned_query_spec (nth_error (g_natural g)) Z.of_nat cells g L). 
  assert (QN : forall i c, nth_error cells i = Some c -> nth_error (g_natural g) i = Some (Z.of_nat c)) by (intros i c H; rewrite HN, nth_error_map, H; reflexivity).
  assert (QA : forall i c, nth_error cells i = Some c -> nth_error (g_areas g) i = Some (m_area m c)) by (intros i c H; rewrite HA, nth_error_map, H; reflexivity).
  assert (QX : forall k (v : nat -> R), (forall c, nth_error [m_x m c; m_y m c; m_z m c] k = Some (v c)) ->
    forall i c, nth_error cells i = Some c -> (let* c := nth_error (g_centroids g) i in nth_error c k) = Some (v c)).
  { intros k v Hv i c H. rewrite HC, nth_error_map, H. cbn [option_map obind]. apply Hv. }
  assert (QA' := owned_query_spec _ _ cells g L QA). assert (Qx := owned_query_spec _ _ cells g L (QX 0 (m_x m) (fun _ => eq_refl))).
  assert (Qy := owned_query_spec _ _ cells g L (QX 1 (m_y m) (fun _ => eq_refl))). assert (Qz := owned_query_spec _ _ cells g L (QX 2 (m_z m) (fun _ => eq_refl))).
  split; [exact (proj1 (Q0 QN debug ids))|]. split.
  { intros H. repeat split; [exact (proj1 (Qx debug x) H)|exact (proj1 (Qy debug x) H)|exact (proj1 (Qz debug x) H)|exact (proj1 (QA' debug x) H)]. }
  split; [exact (proj1 (proj2 (Q0 QN debug ids)))|].
  intros H. repeat split; [exact (proj1 (proj2 (Qx debug x)) H)|exact (proj1 (proj2 (Qy debug x)) H)|exact (proj1 (proj2 (Qz debug x)) H)|exact (proj1 (proj2 (QA' debug x)) H)].
Qed.
Print Assumptions C77_owned_cells.
(* In an optimised build a shorter array is written beyond its end. *)
Theorem C77_short_array_refuted :
  forall m cells edges g, holds m cells edges g -> forall ids, length ids < length (mine cells g) -> RDyGetOwnedCellNaturalIDs false g ids = Undef.
Proof.
  intros m cells edges g (L & HN & _) ids H. refine (proj1 (proj2 (proj2 (owned_query_spec (nth_error (g_natural g)) Z.of_nat cells g L _ true ids))) H).
  intros i c Hc. rewrite HN, nth_error_map, Hc. reflexivity.
Qed.
Print Assumptions C77_short_array_refuted.

(* Together the processes report every cell of the mesh exactly once, under its number in the grid file and with its own
   coordinates and area, however the mesh was distributed. *)
Definition reported (debug : bool) (ps : list geo) (p k : nat) (id : Z) (x y z area : R) : Prop :=
  exists g ids xs ys zs as_, nth_error ps p = Some g /\
    RDyGetOwnedCellNaturalIDs debug g (repeat 0%Z (num_owned (g_owned g))) = Ok ids /\ nth_error ids k = Some id /\
    RDyGetOwnedCellXCentroids debug g (repeat 0%R (num_owned (g_owned g))) = Ok xs /\ nth_error xs k = Some x /\
    RDyGetOwnedCellYCentroids debug g (repeat 0%R (num_owned (g_owned g))) = Ok ys /\ nth_error ys k = Some y /\
    RDyGetOwnedCellZCentroids debug g (repeat 0%R (num_owned (g_owned g))) = Ok zs /\ nth_error zs k = Some z /\
    RDyGetOwnedCellAreas debug g (repeat 0%R (num_owned (g_owned g))) = Ok as_ /\ nth_error as_ k = Some area.
Theorem C77_cells_of_all_processes :
  forall m (parts : list (list nat * list nat * geo)) debug,
    (forall q, In q parts -> holds m (fst (fst q)) (snd (fst q)) (snd q)) ->
    Permutation (concat (map (fun q => mine (fst (fst q)) (snd q)) parts)) (seq 0 (m_cells m)) ->
    (forall c, c < m_cells m -> exists p k, reported debug (map snd parts) p k (Z.of_nat c) (m_x m c) (m_y m c) (m_z m c) (m_area m c) /\
       forall p' k' x y z a, reported debug (map snd parts) p' k' (Z.of_nat c) x y z a -> p' = p /\ k' = k) /\
    (forall p k id x y z a, reported debug (map snd parts) p k id x y z a ->
       exists c, c < m_cells m /\ id = Z.of_nat c /\ x = m_x m c /\ y = m_y m c /\ z = m_z m c /\ a = m_area m c).
Proof.
  intros m parts debug HH HP. set (L := map (fun q => mine (fst (fst q)) (snd q)) parts) in *.
  assert (ND : NoDup (concat L)) by (apply (Permutation_NoDup (Permutation_sym HP)); apply seq_NoDup).
  assert (REP : forall p k id x y z a, reported debug (map snd parts) p k id x y z a <->
    exists l c, nth_error L p = Some l /\ nth_error l k = Some c /\ id = Z.of_nat c /\ x = m_x m c /\ y = m_y m c /\ z = m_z m c /\ a = m_area m c).
  { intros p k id x y z a. unfold L. rewrite nth_error_map. unfold reported. setoid_rewrite nth_error_map.
    destruct (nth_error parts p) as [q|] eqn:Eq; cbn [option_map].
    - assert (Hq := HH q (nth_error_In _ _ Eq)). destruct q as ((cells, edges), g). cbn [fst snd] in *.
      assert (Lm : num_owned (g_owned g) = length (mine cells g)) by (symmetry; apply mine_length; exact (proj1 Hq)).
      destruct (C77_owned_cells m cells edges g Hq debug (repeat 0%Z (length (mine cells g))) (repeat 0%R (length (mine cells g)))) as (QI & QX & _).
      specialize (QI (repeat_length _ _)). destruct (QX (repeat_length _ _)) as (QX1 & QY & QZ & QA). clear QX.
      split.
      + intros (g' & ids & xs & ys & zs & as_ & E & E1 & F1 & E2 & F2 & E3 & F3 & E4 & F4 & E5 & F5). injection E as <-. rewrite Lm in *.
        rewrite QI in E1. rewrite QX1 in E2. rewrite QY in E3. rewrite QZ in E4. rewrite QA in E5. injection E1 as <-. injection E2 as <-. injection E3 as <-. injection E4 as <-. injection E5 as <-.
        rewrite nth_error_map in F1, F2, F3, F4, F5. destruct (nth_error (mine cells g) k) as [c|] eqn:Ec; [|discriminate]. cbn in *.
        exists (mine cells g), c. split; [reflexivity|]. split; [exact Ec|]. repeat split; congruence.
      + intros (l & c & E & Ec & -> & -> & -> & -> & ->). injection E as <-.
        exists g. rewrite Lm. do 5 eexists. split; [reflexivity|]. split; [exact QI|]. rewrite nth_error_map, Ec. split; [reflexivity|]. split; [exact QX1|]. rewrite nth_error_map, Ec. split; [reflexivity|].
        split; [exact QY|]. rewrite nth_error_map, Ec. split; [reflexivity|]. split; [exact QZ|]. rewrite nth_error_map, Ec. split; [reflexivity|]. split; [exact QA|]. rewrite nth_error_map, Ec. reflexivity.
    - split; [intros (g' & ids & xs & ys & zs & as_ & E & _); discriminate|intros (l & c & E & _); discriminate]. }
  split.
  - intros c Hc. assert (Hin : In c (concat L)) by (apply (Permutation_in _ (Permutation_sym HP)); apply in_seq; lia).
    apply in_concat in Hin. destruct Hin as (l & Hl & Hin). apply In_nth_error in Hl. destruct Hl as (p & Hp). apply In_nth_error in Hin. destruct Hin as (k & Hk).
    exists p, k. split; [apply REP; exists l, c; repeat split; assumption|].
    intros p' k' x y z a Hr. apply REP in Hr. destruct Hr as (l' & c' & Hp' & Hk' & Ec & _). apply Nat2Z.inj in Ec. subst c'. exact (nodup_positions L ND p' p l' l k' k c Hp' Hk' Hp Hk).
  - intros p k id x y z a Hr. apply REP in Hr. destruct Hr as (l & c & Hp & Hk & Q). exists c. split; [|exact Q].
    assert (Hin : In c (seq 0 (m_cells m))) by (apply (Permutation_in _ HP); apply in_concat; exists l; split; eapply nth_error_In; eassumption). apply in_seq in Hin. lia.
Qed.
Print Assumptions C77_cells_of_all_processes.

(** ** Boundaries *)
Lemma edges_loop_spec {A} bd (a : nat -> option A) (v : nat -> A) edges values : length values = length (bd_edges bd) ->
  (forall e, In e (bd_edges bd) -> exists E, nth_error edges e = Some E /\ a e = Some (v E)) ->
  exists Es, omap (nth_error edges) (bd_edges bd) = Some Es /\ edges_loop bd a values = Some (map v Es).
Proof.
  intros L H. assert (X : exists Es, omap (nth_error edges) (bd_edges bd) = Some Es /\ length Es = length (bd_edges bd) /\
    forall i e, nth_error (bd_edges bd) i = Some e -> a e = Some (v (nth i Es 0))).
  { clear L. induction (bd_edges bd) as [|e t IH]; [exists []; split; [reflexivity|]; split; [reflexivity|]; intros [|i]; discriminate|].
    destruct (H e (or_introl eq_refl)) as (E & H1 & H2). destruct IH as (Es & E1 & L1 & G); [intros; apply H; right; assumption|].
    exists (E :: Es). cbn [omap]. rewrite H1. cbn [obind]. rewrite E1. split; [reflexivity|]. split; [cbn; congruence|]. intros [|i] e' Hi; cbn in *; [injection Hi as <-; exact H2|exact (G i e' Hi)]. }
  destruct X as (Es & E1 & L1 & G). exists Es. split; [exact E1|]. unfold edges_loop.
  rewrite (ofold_ext _ (fun x e => let* v := (let* iedge := nth_error (bd_edges bd) e in a iedge) in upd x e v)) by (intros; destruct (nth_error (bd_edges bd) a0); reflexivity).
  rewrite (set_seq _ (fun i => v (nth i Es 0)) (length (bd_edges bd))); [|exact L|].
  - rewrite <- L1. f_equal. rewrite <- (map_map (fun i => nth i Es 0) v). apply f_equal. clear. induction Es as [|c t IH]; [reflexivity|]. cbn [length seq map nth]. f_equal. rewrite <- seq_shift, map_map. exact IH.
  - intros i Hi. destruct (nth_error (bd_edges bd) i) as [e|] eqn:Ee; [|apply nth_error_None in Ee; lia]. cbn [obind]. exact (G i e Ee).
Qed.
(* a boundary exists under this number (counting from 0), and has these edges of the mesh, in this order *)
Definition boundary_is (g : geo) (edges : list nat) (b : Z) (bd : boundary) (Es : list nat) : Prop :=
  exists i, b = Z.of_nat i /\ nth_error (g_boundaries g) i = Some bd /\ omap (nth_error edges) (bd_edges bd) = Some Es.
(* All queries about a boundary speak of the same edges in the same order; another number or a wrong size is refused and
   the array left alone. *)
Theorem C77_boundaries :
  forall m cells edges g, holds m cells edges g -> forall b bd Es, boundary_is g edges b bd Es ->
    (forall old, RDyGetNumBoundaryEdges g b old = Ok (Z.of_nat (length Es)) /\ RDyGetBoundaryID g b old = Ok (bd_id bd)) /\
    (forall x, length x = length Es ->
       RDyGetBoundaryEdgeXCentroids g b (Z.of_nat (length x)) x = Ok (map (m_ex m) Es) /\
       RDyGetBoundaryEdgeYCentroids g b (Z.of_nat (length x)) x = Ok (map (m_ey m) Es) /\
       RDyGetBoundaryEdgeZCentroids g b (Z.of_nat (length x)) x = Ok (map (m_ez m) Es) /\
       RDyGetBoundaryCellXCentroids g b (Z.of_nat (length x)) x = Ok (map (fun e => m_x m (m_edge_cell m e)) Es) /\
       RDyGetBoundaryCellYCentroids g b (Z.of_nat (length x)) x = Ok (map (fun e => m_y m (m_edge_cell m e)) Es) /\
       RDyGetBoundaryCellZCentroids g b (Z.of_nat (length x)) x = Ok (map (fun e => m_z m (m_edge_cell m e)) Es)) /\
    (forall ids, length ids = length Es -> RDyGetBoundaryCellNaturalIDs g b (Z.of_nat (length ids)) ids = Ok (map (fun e => Z.of_nat (m_edge_cell m e)) Es)) /\
    (forall size x for_edge idim, size <> Z.of_nat (length Es) -> RDyGetIDimCentroidOfBoundaryEdgeOrCell g b size for_edge idim x = Err x) /\
    (forall size ids, size <> Z.of_nat (length Es) -> RDyGetBoundaryCellNaturalIDs g b size ids = Err ids).
Proof.
  intros m cells edges g (L & HN & HC & HA & HE & HB) b bd Es (i & -> & Hi & HEs).
  assert (LE : length Es = length (bd_edges bd)). { clear - HEs. revert Es HEs. induction (bd_edges bd) as [|e t IH]; intros Es H; cbn [omap] in H; [injection H as <-; reflexivity|]. destruct (nth_error edges e); [|discriminate]. cbn [obind] in H. destruct (omap (nth_error edges) t) as [r|] eqn:Er; [|discriminate]. cbn [obind] in H. injection H as <-. cbn. f_equal. apply IH. reflexivity. }
  assert (Li : i < length (g_boundaries g)) by (apply nth_error_Some; congruence). assert (Hb : In bd (g_boundaries g)) by (eapply nth_error_In; exact Hi).
  assert (BQ : forall (A : Type) ne (old : A) k, boundary_query g (Z.of_nat i) ne old k = match ne with Some n => if Z.eqb (Z.of_nat (length (bd_edges bd))) n then k bd else Err old | None => k bd end).
  { intros A ne old k. unfold boundary_query. replace (Z.of_nat i <? Z.of_nat (length (g_boundaries g)))%Z with true by (symmetry; apply Z.ltb_lt; lia). replace (0 <=? Z.of_nat i)%Z with true by (symmetry; apply Z.leb_le; lia).
    cbn [andb]. unfold zget. replace (Z.of_nat i <? 0)%Z with false by (symmetry; apply Z.ltb_ge; lia). rewrite Nat2Z.id, Hi. reflexivity. }
  assert (EL : forall (A : Type) (a : nat -> option A) v values, length values = length Es -> (forall e, In e (bd_edges bd) -> exists E, nth_error edges e = Some E /\ a e = Some (v E)) -> edges_loop bd a values = Some (map v Es)).
  { intros A a v values LV H. destruct (edges_loop_spec bd a v edges values ltac:(congruence) H) as (Es' & E1 & E2). rewrite HEs in E1. injection E1 as <-. exact E2. }
  assert (EDGE : forall k v, (forall E, nth_error [m_ex m E; m_ey m E; m_ez m E] k = Some (v E)) -> forall e, In e (bd_edges bd) -> exists E, nth_error edges e = Some E /\ (let* c := nth_error (g_edge_centroids g) e in nth_error c k) = Some (v E)).
  { intros k v Hv e He. destruct (HB bd e Hb He) as (E & j & H1 & _). exists E. split; [exact H1|]. rewrite HE, nth_error_map, H1. cbn [option_map obind]. apply Hv. }
  assert (ZG : forall (A : Type) (l : list A) j, zget l (Z.of_nat j) = nth_error l j) by (intros A l j; unfold zget; replace (Z.of_nat j <? 0)%Z with false by (symmetry; apply Z.ltb_ge; lia); rewrite Nat2Z.id; reflexivity).
  assert (CELL : forall k v, (forall c, nth_error [m_x m c; m_y m c; m_z m c] k = Some (v c)) -> forall e, In e (bd_edges bd) -> exists E, nth_error edges e = Some E /\ (let* icell := left_cell g e in let* c := zget (g_centroids g) icell in nth_error c k) = Some (v (m_edge_cell m E))).
  { intros k v Hv e He. destruct (HB bd e Hb He) as (E & j & H1 & H2 & H3). exists E. split; [exact H1|]. unfold left_cell. rewrite H2. cbn [obind]. rewrite ZG, HC, nth_error_map, H3. cbn [option_map obind]. apply Hv. }
  split; [|split; [|split; [|split]]].
  - intros old. unfold RDyGetNumBoundaryEdges, RDyGetBoundaryID. rewrite !BQ, LE. split; reflexivity.
  - intros x Lx. unfold RDyGetBoundaryEdgeXCentroids, RDyGetBoundaryEdgeYCentroids, RDyGetBoundaryEdgeZCentroids, RDyGetBoundaryCellXCentroids, RDyGetBoundaryCellYCentroids, RDyGetBoundaryCellZCentroids, RDyGetIDimCentroidOfBoundaryEdgeOrCell.
    rewrite !BQ, Lx, LE, Z.eqb_refl.
    rewrite (EL R _ (m_ex m) x Lx (EDGE 0 (m_ex m) (fun _ => eq_refl))), (EL R _ (m_ey m) x Lx (EDGE 1 (m_ey m) (fun _ => eq_refl))), (EL R _ (m_ez m) x Lx (EDGE 2 (m_ez m) (fun _ => eq_refl))).
    rewrite (EL R _ (fun E => m_x m (m_edge_cell m E)) x Lx (CELL 0 (m_x m) (fun _ => eq_refl))), (EL R _ (fun E => m_y m (m_edge_cell m E)) x Lx (CELL 1 (m_y m) (fun _ => eq_refl))), (EL R _ (fun E => m_z m (m_edge_cell m E)) x Lx (CELL 2 (m_z m) (fun _ => eq_refl))).
    repeat split.
  - intros ids Li'. unfold RDyGetBoundaryCellNaturalIDs. rewrite BQ, Li', LE, Z.eqb_refl.
    rewrite (EL Z _ (fun E => Z.of_nat (m_edge_cell m E)) ids Li'); [reflexivity|].
    intros e He. destruct (HB bd e Hb He) as (E & j & H1 & H2 & H3). exists E. split; [exact H1|]. unfold left_cell. rewrite H2. cbn [obind]. rewrite ZG, HN, nth_error_map, H3. reflexivity.
  - intros size x fe idim Hs. unfold RDyGetIDimCentroidOfBoundaryEdgeOrCell. rewrite BQ. replace (Z.of_nat (length (bd_edges bd)) =? size)%Z with false by (symmetry; apply Z.eqb_neq; congruence). reflexivity.
  - intros size x Hs. unfold RDyGetBoundaryCellNaturalIDs. rewrite BQ. replace (Z.of_nat (length (bd_edges bd)) =? size)%Z with false by (symmetry; apply Z.eqb_neq; congruence). reflexivity.
Qed.
Print Assumptions C77_boundaries.
(* include/finclude/rdycore.h:6-10: the constants a Fortran program compares the type with *)
Definition published (t : ctype) (n : Z) : Prop :=
  (t = CONDITION_DIRICHLET /\ n = 0 \/ t = CONDITION_NEUMANN /\ n = 1 \/ t = CONDITION_REFLECTING /\ n = 2 \/ t = CONDITION_CRITICAL_OUTFLOW /\ n = 3 \/ t = CONDITION_RUNOFF /\ n = 4)%Z.
(* A Fortran program counts the boundaries from 1 to RDyGetNumBoundaryConditions, and reaches with them every boundary;
   the type it gets is the constant of its own include file. *)
Theorem C77_fortran_boundaries :
  forall m cells edges g, holds m cells edges g -> forall i bd Es, nth_error (g_boundaries g) i = Some bd -> omap (nth_error edges) (bd_edges bd) = Some Es ->
    let b := Z.of_nat (S i) in
    (1 <= b <= RDyGetNumBoundaryConditions g)%Z /\
    (forall old, FRDyGetNumBoundaryEdges g b old = Ok (Z.of_nat (length Es))) /\
    (forall old c t, nth_error (g_conds g) i = Some c -> bc_flow c = Some t -> exists n, FRDyGetBoundaryConditionFlowType g b old = Ok n /\ published t n) /\
    (forall x, length x = length Es ->
       FRDyGetBoundaryEdgeXCentroids g b (Z.of_nat (length x)) x = Ok (map (m_ex m) Es) /\
       FRDyGetBoundaryEdgeYCentroids g b (Z.of_nat (length x)) x = Ok (map (m_ey m) Es) /\
       FRDyGetBoundaryEdgeZCentroids g b (Z.of_nat (length x)) x = Ok (map (m_ez m) Es) /\
       FRDyGetBoundaryCellXCentroids g b (Z.of_nat (length x)) x = Ok (map (fun e => m_x m (m_edge_cell m e)) Es) /\
       FRDyGetBoundaryCellYCentroids g b (Z.of_nat (length x)) x = Ok (map (fun e => m_y m (m_edge_cell m e)) Es) /\
       FRDyGetBoundaryCellZCentroids g b (Z.of_nat (length x)) x = Ok (map (fun e => m_z m (m_edge_cell m e)) Es)) /\
    (forall ids, length ids = length Es -> FRDyGetBoundaryCellNaturalIDs g b (Z.of_nat (length ids)) ids = Ok (map (fun e => Z.of_nat (m_edge_cell m e)) Es)).
Proof.
  intros m cells edges g H i bd Es Hi HEs b. assert (Li : i < length (g_boundaries g)) by (apply nth_error_Some; congruence).
  assert (Eb : (b - 1)%Z = Z.of_nat i) by (unfold b; lia).
  destruct (C77_boundaries m cells edges g H (Z.of_nat i) bd Es) as (A1 & A2 & A3 & _); [exists i; auto|].
  unfold FRDyGetNumBoundaryEdges, FRDyGetBoundaryConditionFlowType, FRDyGetBoundaryEdgeXCentroids, FRDyGetBoundaryEdgeYCentroids, FRDyGetBoundaryEdgeZCentroids, FRDyGetBoundaryCellXCentroids, FRDyGetBoundaryCellYCentroids, FRDyGetBoundaryCellZCentroids, FRDyGetBoundaryCellNaturalIDs.
  rewrite Eb. split; [unfold b, RDyGetNumBoundaryConditions; lia|]. split; [intros old; apply A1|]. split; [|split; [exact A2|exact A3]].
  intros old c t Hc Ht. unfold RDyGetBoundaryConditionFlowType, boundary_query, zget.
  replace (Z.of_nat i <? Z.of_nat (length (g_boundaries g)))%Z with true by (symmetry; apply Z.ltb_lt; lia). replace (0 <=? Z.of_nat i)%Z with true by (symmetry; apply Z.leb_le; lia).
  replace (Z.of_nat i <? 0)%Z with false by (symmetry; apply Z.ltb_ge; lia). cbn [andb]. rewrite Nat2Z.id, Hi, Hc. cbn [obind]. rewrite Ht. exists (type_number t). split; [reflexivity|]. unfold published. destruct t; cbn [type_number]; intuition.
Qed.
Print Assumptions C77_fortran_boundaries.
(* With any other number every one of these calls returns an error and leaves the variables of the program alone. *)
Theorem C77_fortran_other_numbers :
  forall g b, (b < 1 \/ RDyGetNumBoundaryConditions g < b)%Z ->
    (forall old, FRDyGetNumBoundaryEdges g b old = Err old /\ FRDyGetBoundaryConditionFlowType g b old = Err old) /\
    (forall size x, FRDyGetBoundaryEdgeXCentroids g b size x = Err x /\ FRDyGetBoundaryEdgeYCentroids g b size x = Err x /\ FRDyGetBoundaryEdgeZCentroids g b size x = Err x /\
       FRDyGetBoundaryCellXCentroids g b size x = Err x /\ FRDyGetBoundaryCellYCentroids g b size x = Err x /\ FRDyGetBoundaryCellZCentroids g b size x = Err x) /\
    (forall size ids, FRDyGetBoundaryCellNaturalIDs g b size ids = Err ids).
Proof.
  intros g b H. assert (BQ : forall (A : Type) ne (old : A) k, boundary_query g (b - 1) ne old k = Err old).
  { intros A ne old k. unfold boundary_query, RDyGetNumBoundaryConditions in *. destruct H as [H|H].
    - replace (0 <=? b - 1)%Z with false by (symmetry; apply Z.leb_gt; lia). rewrite Bool.andb_false_r. reflexivity.
    - replace (b - 1 <? Z.of_nat (length (g_boundaries g)))%Z with false by (symmetry; apply Z.ltb_ge; lia). reflexivity. }
  split; [|split].
  - intros old. unfold FRDyGetNumBoundaryEdges, RDyGetNumBoundaryEdges, FRDyGetBoundaryConditionFlowType, RDyGetBoundaryConditionFlowType. rewrite !BQ. split; reflexivity.
  - intros size x. unfold FRDyGetBoundaryEdgeXCentroids, FRDyGetBoundaryEdgeYCentroids, FRDyGetBoundaryEdgeZCentroids, FRDyGetBoundaryCellXCentroids, FRDyGetBoundaryCellYCentroids, FRDyGetBoundaryCellZCentroids, RDyGetBoundaryEdgeXCentroids, RDyGetBoundaryEdgeYCentroids, RDyGetBoundaryEdgeZCentroids, RDyGetBoundaryCellXCentroids, RDyGetBoundaryCellYCentroids, RDyGetBoundaryCellZCentroids, RDyGetIDimCentroidOfBoundaryEdgeOrCell.
    rewrite !BQ. repeat split.
  - intros size ids. unfold FRDyGetBoundaryCellNaturalIDs, RDyGetBoundaryCellNaturalIDs. apply BQ.
Qed.
Print Assumptions C77_fortran_other_numbers.

(* Two cells side by side, one per process, each holding the other as a ghost.  Edge e of the outer boundary belongs to
   cell e mod 2; the face set of the grid file lists the edges 0 and 1. *)
Definition pair : mesh := Mesh 2 INR (fun _ => 0%R) (fun _ => 0%R) (fun _ => 1%R) INR (fun _ => 1%R) (fun _ => 0%R) (fun e => Nat.modulo e 2).
Definition outlet : boundary := Boundary 0 3 None [0; 1].
Definition first_half : geo :=
  Geo [true; false] [0; 1]%Z [[INR 0; 0; 0]; [INR 1; 0; 0]]%R [1; 1]%R [[INR 0; 1; 0]; [INR 1; 1; 0]]%R [0; -1; 1; -1]%Z [outlet] [BCond (Some CONDITION_NEUMANN) None None None].
Definition second_half : geo :=
  Geo [true; false] [1; 0]%Z [[INR 1; 0; 0]; [INR 0; 0; 0]]%R [1; 1]%R [[INR 1; 1; 0]; [INR 0; 1; 0]]%R [0; -1; 1; -1]%Z [outlet] [BCond (Some CONDITION_NEUMANN) None None None].
Lemma first_half_holds : holds pair [0; 1] [0; 1] first_half.
Proof.
  repeat split. intros b e [<-|[]] He. destruct He as [<-|[<-|[]]]; [exists 0, 0|exists 1, 1]; repeat split.
Qed.
Lemma second_half_holds : holds pair [1; 0] [1; 0] second_half.
Proof.
  repeat split. intros b e [<-|[]] He. destruct He as [<-|[<-|[]]]; [exists 1, 0|exists 0, 1]; repeat split.
Qed.
Example C77_cells_inhabited :
  (forall q, In q [([0; 1], [0; 1], first_half); ([1; 0], [1; 0], second_half)] -> holds pair (fst (fst q)) (snd (fst q)) (snd q)) /\
  Permutation (concat (map (fun q : list nat * list nat * geo => mine (fst (fst q)) (snd q)) [([0; 1], [0; 1], first_half); ([1; 0], [1; 0], second_half)])) (seq 0 (m_cells pair)).
Proof.
  split; [|apply Permutation_refl]. intros q [<-|[<-|[]]]; [exact first_half_holds|exact second_half_holds].
Qed.
Example C77_boundary_inhabited : boundary_is second_half [1; 0] 0 outlet [1; 0].
Proof. exists 0. repeat split. Qed.
(* The edges a process reports for a boundary include those of its ghost cells: here both processes report both edges, and
   the edges of the boundary counted over the processes are four, not two. *)
Theorem C77_boundary_edges_once_refuted :
  exists m (parts : list (list nat * list nat * geo)),
    (forall q, In q parts -> holds m (fst (fst q)) (snd (fst q)) (snd q)) /\
    Permutation (concat (map (fun q => mine (fst (fst q)) (snd q)) parts)) (seq 0 (m_cells m)) /\
    exists p q, nth_error (map snd parts) 0 = Some p /\ nth_error (map snd parts) 1 = Some q /\
      RDyGetBoundaryCellNaturalIDs p 0 2 [0; 0]%Z = Ok [0; 1]%Z /\ RDyGetBoundaryCellNaturalIDs q 0 2 [0; 0]%Z = Ok [1; 0]%Z.
Proof.
  exists pair, [([0; 1], [0; 1], first_half); ([1; 0], [1; 0], second_half)]. destruct C77_cells_inhabited as (A & B).
  split; [exact A|]. split; [exact B|]. exists first_half, second_half. repeat split.
Qed.
Print Assumptions C77_boundary_edges_once_refuted.

(** ** Names given by Fortran programs *)
(* A file name stored in a Fortran variable (1024 characters, padded with blanks) reaches the library as the name without
   the padding, if it leaves room for the final zero. *)
Theorem C77_names_partial :
  forall name last pad,
    length (name ++ [last]) < F_LEN -> pad = F_LEN - length (name ++ [last]) -> last <> blank -> ~ In NUL (name ++ [last]) ->
    name_seen (name ++ [last] ++ repeat blank pad) = Some (name ++ [last]).
Proof.
  intros name last pad HL -> HB HN. unfold name_seen. rewrite app_assoc.
  rewrite (c_name_seen F_LEN).
  - f_equal. rewrite len_trim_blanks, len_trim_app by exact HB. rewrite app_length in *. cbn [length] in *. replace (Nat.min (F_LEN - 1) (S (length name))) with (length (name ++ [last])) by (rewrite app_length; cbn [length]; lia).
    rewrite firstn_app, firstn_all, Nat.sub_diag. cbn [firstn]. apply app_nil_r.
  - unfold F_LEN. lia.
  - rewrite app_length, repeat_length. lia.
  - intros X. apply in_app_or in X. destruct X as [X|X]; [exact (HN X)|]. apply repeat_spec in X. discriminate.
Qed.
Print Assumptions C77_names_partial.
Example C77_names_inhabited : exists name last, length (name ++ [last]) < F_LEN /\ last <> blank /\ ~ In NUL (name ++ [last]) /\ name ++ [last] = list_ascii_of_string "my case.yaml".
Proof.
  exists (list_ascii_of_string "my case.yam"), "l"%char. split; [apply Nat.ltb_lt; vm_compute; reflexivity|]. split; [discriminate|]. split; [|reflexivity].
  intros X. repeat (destruct X as [X|X]; [discriminate|]). destruct X.
Qed.
(* The empty name *)
Theorem C77_empty_name : name_seen (repeat blank F_LEN) = Some [].
Proof.
  unfold name_seen. rewrite (c_name_seen F_LEN).
  - assert (E : len_trim (repeat blank F_LEN) = 0) by (apply (len_trim_blanks [])). rewrite E, Nat.min_0_r. reflexivity.
  - unfold F_LEN. lia.
  - apply repeat_length.
  - intros X. apply repeat_spec in X. discriminate.
Qed.
Print Assumptions C77_empty_name.
(* A name of 1024 characters loses the last one: the library opens another file. *)
Theorem C77_names_refuted :
  forall name last, length (name ++ [last]) = F_LEN -> last <> blank -> ~ In NUL (name ++ [last]) ->
    name_seen (name ++ [last]) = Some name.
Proof.
  intros name last HL HB HN. unfold name_seen. rewrite (c_name_seen F_LEN) by (try assumption; unfold F_LEN; lia).
  rewrite len_trim_app by exact HB. rewrite app_length in HL. cbn [length] in HL. f_equal. replace (Nat.min (F_LEN - 1) (S (length name))) with (length name) by lia.
  rewrite firstn_app, firstn_all, Nat.sub_diag. cbn [firstn]. apply app_nil_r.
Qed.
Print Assumptions C77_names_refuted.
Example C77_names_refuted_inhabited : exists name last, length (name ++ [last]) = F_LEN /\ last <> blank /\ ~ In NUL (name ++ [last]).
Proof.
  exists (repeat "a"%char (F_LEN - 1)), "a"%char. split; [rewrite app_length, repeat_length; reflexivity|]. split; [discriminate|].
  intros X. apply in_app_or in X. destruct X as [X|[X|[]]]; [apply repeat_spec in X; discriminate|discriminate].
Qed.
(* The build information is padded with zeros, not with blanks: trimmed, it still has 1024 characters. *)
Lemma len_trim_zeros s k : len_trim (s ++ repeat NUL (S k)) = length s + S k.
Proof.
  replace (repeat NUL (S k)) with (repeat NUL k ++ [NUL]) by (symmetry; apply (repeat_cons k NUL)). rewrite app_assoc, len_trim_app by discriminate. rewrite app_length, repeat_length. lia.
Qed.
Theorem C77_build_configuration_refuted :
  forall build_str, length build_str < F_LEN -> length (trim (FRDyGetBuildConfiguration build_str)) = F_LEN /\ trim (FRDyGetBuildConfiguration build_str) <> build_str.
Proof.
  intros s H. assert (E : FRDyGetBuildConfiguration s = s ++ repeat NUL (S (F_LEN - length s - 1))).
  { unfold FRDyGetBuildConfiguration, strncpy. rewrite firstn_all2 by lia. f_equal. f_equal. lia. }
  assert (L : length (trim (FRDyGetBuildConfiguration s)) = F_LEN).
  { unfold trim. rewrite E, len_trim_zeros, firstn_length, app_length, repeat_length. lia. }
  split; [exact L|]. intros X. rewrite X in L. lia.
Qed.
Print Assumptions C77_build_configuration_refuted.
(* A Fortran program that asks for the version gets no values. *)
Theorem C77_version_refuted :
  forall major minor patch release vmajor vminor vpatch git_hash, FRDyGetVersion major minor patch release <> RDyGetVersion vmajor vminor vpatch git_hash.
Proof. discriminate. Qed.
Print Assumptions C77_version_refuted.
(* A C program gets the version, and is told that it is a release exactly if the library was built outside a repository. *)
Theorem C77_version : forall major minor patch git_hash, exists release,
  RDyGetVersion major minor patch git_hash = (Some major, Some minor, Some patch, Some release) /\ (release = true <-> git_hash = "unknown"%string).
Proof. intros major minor patch git_hash. eexists. split; [reflexivity|]. rewrite String.eqb_eq. split; congruence. Qed.
Print Assumptions C77_version.
