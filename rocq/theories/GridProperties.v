(** C78: the mesh of a run, and the grid it writes, are those of the grid file on any number of processes. *)
From Coq Require Import ZArith Sorted.
From Verif Require Import Base MeshMapsModel MeshMapsProofs DataModel SetupModel CheckpointModel QueriesModel GridModel GridProofs.
Local Open Scope nat_scope.

(** ** Specification *)
(* A grid: the coordinates of its vertices (two or three), the vertices of its cells, and the centroids and areas PETSc
   computes for them.  Vertices and cells are numbered from 0 in the order of the file. *)
Record gridfile := GridFile { f_vertices : list (list R); f_cells : list (list nat); f_centroids : list (list R); f_areas : list R }.
Definition vertex (f : gridfile) (v : nat) : list R := nth v (f_vertices f) [].
Definition cell (f : gridfile) (c : nat) : list nat := nth c (f_cells f) [].
Definition centroid (f : gridfile) (c k : nat) : R := nth k (nth c (f_centroids f) []) 0%R.
Definition area (f : gridfile) (c : nat) : R := nth c (f_areas f) 0%R.
Definition xyz (c : list R) : list R := firstn 3 (c ++ [0%R; 0%R; 0%R]).
(* triangles and quadrilaterals; in XDMF files they are known as 4 and 5 *)
Definition supported (f : gridfile) : Prop :=
  (forall c, In c (f_cells f) -> length c = 3 \/ length c = 4) /\ length (f_centroids f) = length (f_cells f) /\ length (f_areas f) = length (f_cells f) /\
  (forall x, In x (f_centroids f) -> length x = 3).
Definition xdmf_shape (c : list nat) : Z := match length c with 3 => 4%Z | _ => 5%Z end.
(* The grid in the output when cells and vertices are listed in the given orders; [place v]: the place of vertex v *)
Definition grid_in_order (f : gridfile) (place : nat -> nat) (vertices cells : list nat) : grid :=
  Grid (List.concat (map (fun v => xyz (vertex f v)) vertices))
       (List.concat (map (fun c => xdmf_shape (cell f c) :: map (fun v => Z.of_nat (place v)) (cell f c)) cells))
       (map (fun c => centroid f c 0) cells) (map (fun c => centroid f c 1) cells) (map (fun c => centroid f c 2) cells) (map (area f) cells).
(* the same order as in the file *)
Definition grid_of_file (f : gridfile) : grid :=
  grid_in_order f (fun v => v) (seq 0 (length (f_vertices f))) (seq 0 (length (f_cells f))).

(* Which cells and vertices of the grid a process holds, in its own order *)
Record share := Share { s_cells : list nat; s_vertices : list nat }.
Definition in_stratum (r : nat * nat) (q : nat) : bool := (Nat.leb (fst r) q && Nat.ltb q (snd r))%bool.
(* PETSc tells the process the truth about its share; the vertices in the closure of a cell come in the order they have
   in the grid. *)
Record holds (f : gridfile) (s : share) (d : plex) : Prop := Holds {
  h_range : snd (x_vertices d) = fst (x_vertices d) + length (s_vertices s);
  h_disjoint : snd (x_edges d) <= fst (x_vertices d) \/ snd (x_vertices d) <= fst (x_edges d);
  h_cells : Forall2 (fun c p => c < length (f_cells f) /\ (forall q, In q (tl p) -> in_stratum (x_edges d) q = true \/ in_stratum (x_vertices d) q = true) /\
              map (fun q => nth_error (s_vertices s) (q - fst (x_vertices d))) (filter (in_stratum (x_vertices d)) (tl p)) = map Some (cell f c)) (s_cells s) (x_closure d);
  h_owned : length (x_owned d) = length (s_cells s);
  h_coords : omap (nth_error (f_vertices f)) (s_vertices s) = Some (x_coords d);
  h_centroids : omap (nth_error (f_centroids f)) (s_cells s) = Some (x_centroids d);
  h_areas : omap (nth_error (f_areas f)) (s_cells s) = Some (x_areas d);
}.
Definition owned_cells (sd : share * plex) : list nat := map fst (filter snd (combine (s_cells (fst sd)) (x_owned (snd sd)))).
(* Every cell is owned by one process; [num] lists the cells in PETSc's global order.  Every vertex is held somewhere. *)
Definition distributed (f : gridfile) (ss : list share) (ps : list plex) (num : numbering) : Prop :=
  Forall2 (holds f) ss ps /\ num = List.concat (map owned_cells (combine ss ps)) /\ Permutation num (seq 0 (length (f_cells f))) /\
  (forall v, v < length (f_vertices f) -> exists s, In s ss /\ In v (s_vertices s)).
(* The migration SF of PETSc: for every point held its number in the grid before it was distributed, where the vertices
   begin with number [v0]; the points are in order (a null pointer says the same). *)
Definition in_order (local : option (list nat)) (n : nat) : Prop :=
  match local with None => True | Some l => StronglySorted lt l /\ length l = n /\ forall x, In x l -> x < n end.
Definition migrated (v0 : nat) (s : share) (d : plex) : Prop :=
  points_of d = length (x_natural d) /\ in_order (x_local d) (length (x_natural d)) /\ snd (x_vertices d) <= length (x_natural d) /\
  forall k v, nth_error (s_vertices s) k = Some v -> nth_error (x_natural d) (fst (x_vertices d) + k) = Some (Z.of_nat (v0 + v)).

(** ** Lemmas *)
Lemma same_bounds d q : IsClosureWithinBounds q d = in_stratum d q.
Proof. reflexivity. Qed.
Lemma omap_len {A B} (f : A -> option B) l : forall l', omap f l = Some l' -> length l' = length l.
Proof. induction l as [|a t IH]; intros l' H; cbn [omap] in H; [injection H as <-; reflexivity|]. destruct (f a); [|discriminate]. cbn [obind] in H. destruct (omap f t); [|discriminate]. cbn [obind] in H. injection H as <-. cbn. f_equal. apply IH. reflexivity. Qed.
Lemma omap_at {A B} (f : A -> option B) l : forall l' i a, omap f l = Some l' -> nth_error l i = Some a -> exists b, nth_error l' i = Some b /\ f a = Some b.
Proof.
  induction l as [|x t IH]; intros l' i a H Hi; [destruct i; discriminate|]. cbn [omap] in H. destruct (f x) as [b|] eqn:E; [|discriminate]. cbn [obind] in H. destruct (omap f t) as [r|] eqn:Er; [|discriminate]. cbn [obind] in H. injection H as <-.
  destruct i as [|i]; cbn [nth_error] in *; [injection Hi as <-; eauto|]. eapply IH; [reflexivity|exact Hi].
Qed.
Lemma omap_nth_map {A} (l : list A) (d : A) ks : forall r, omap (nth_error l) ks = Some r -> r = map (fun k => nth k l d) ks /\ forall k, In k ks -> k < length l.
Proof.
  induction ks as [|k t IH]; intros r H; cbn [omap map] in *; [injection H as <-; split; [reflexivity|intros k []]|]. destruct (nth_error l k) as [a|] eqn:E; [|discriminate]. cbn [obind] in H.
  destruct (omap (nth_error l) t) as [q|] eqn:Eq; [|discriminate]. cbn [obind] in H. injection H as <-. destruct (IH q eq_refl) as [-> B]. split; [now rewrite (nth_error_nth _ _ d E)|].
  intros j [<- |Hj]; [apply nth_error_Some; congruence|exact (B j Hj)].
Qed.
Lemma owned_indices (cells : list nat) owned : length owned = length cells -> map (fun i => nth i cells 0) (filter (is_owned owned) (seq 0 (length owned))) = map fst (filter snd (combine cells owned)).
Proof.
  assert (G : forall cs ow k pre preo, length ow = length cs -> length pre = k -> length preo = k ->
    map (fun i => nth i (pre ++ cs) 0) (filter (is_owned (preo ++ ow)) (seq k (length ow))) = map fst (filter snd (combine cs ow))).
  { induction cs as [|c t IH]; intros ow k pre preo L Lp Lo; destruct ow as [|b ow]; try discriminate; [reflexivity|]. cbn [length seq filter combine]. injection L as L.
    assert (E : is_owned (preo ++ b :: ow) k = b) by (unfold is_owned; rewrite app_nth2, Lo, Nat.sub_diag by lia; reflexivity). rewrite E.
    assert (I := IH ow (S k) (pre ++ [c]) (preo ++ [b]) L ltac:(rewrite app_length; cbn; lia) ltac:(rewrite app_length; cbn; lia)). rewrite <- !app_assoc in I. cbn [app] in I.
    destruct b; cbn [snd map fst]; rewrite I; [|reflexivity]. rewrite app_nth2, Lp, Nat.sub_diag by lia. reflexivity. }
  intros L. exact (G cells owned 0 [] [] L eq_refl eq_refl).
Qed.
Lemma xyz_X c : [X c 0; X c 1; X c 2] = xyz c.
Proof. destruct c as [|x [|y [|z t]]]; reflexivity. Qed.
Lemma holds_vertices f s d : holds f s d -> x_coords d = map (vertex f) (s_vertices s) /\ forall v, In v (s_vertices s) -> v < length (f_vertices f).
Proof. intros H. exact (omap_nth_map (f_vertices f) [] (s_vertices s) _ (h_coords _ _ _ H)). Qed.
Lemma rows_fit ps d p first : In d ps -> In p (x_closure d) -> length (rowE (x_edges d) p) <= fst (max_per_cell ps) /\ length (rowO (x_edges d) first p) <= snd (max_per_cell ps).
Proof.
  intros Hd Hp. assert (M := max_points_ge (x_edges d) (x_closure d) p Hp). rewrite (count_points_spec (x_edges d) p first) in M. cbn [fst snd] in M.
  assert (A := all_max_ge (map (fun d => max_points (x_edges d) (x_closure d)) ps) (max_points (x_edges d) (x_closure d)) (in_map _ _ _ Hd)). unfold max_per_cell. lia.
Qed.
Lemma rows_fit_vertex ps d p first : In d ps -> In p (x_star d) -> length (rowE (x_edges d) p) <= fst (max_per_vertex ps) /\ length (rowO (x_edges d) first p) <= snd (max_per_vertex ps).
Proof.
  intros Hd Hp. assert (M := max_points_ge (x_edges d) (x_star d) p Hp). rewrite (count_points_spec (x_edges d) p first) in M. cbn [fst snd] in M.
  assert (A := all_max_ge (map (fun d => max_points (x_edges d) (x_star d)) ps) (max_points (x_edges d) (x_star d)) (in_map _ _ _ Hd)). unfold max_per_vertex. lia.
Qed.
Lemma Forall2_nth {A B} (P : A -> B -> Prop) l l' : Forall2 P l l' -> forall i a, nth_error l i = Some a -> exists b, nth_error l' i = Some b /\ P a b.
Proof. induction 1 as [|a b l l' Hab H IH]; intros i x Hi; [destruct i; discriminate|]. destruct i as [|i]; cbn [nth_error] in *; [injection Hi as <-; eauto|exact (IH i x Hi)]. Qed.
Lemma Forall2_len {A B} (P : A -> B -> Prop) l l' : Forall2 P l l' -> length l = length l'.
Proof. induction 1; cbn; congruence. Qed.

(* the row of a cell in the table of vertices leads to the numbers of its vertices *)
Lemma cell_row f s d (gv : nat -> nat) c p : holds f s d -> (forall q, In q (tl p) -> in_stratum (x_edges d) q = true \/ in_stratum (x_vertices d) q = true) ->
  map (fun q => nth_error (s_vertices s) (q - fst (x_vertices d))) (filter (in_stratum (x_vertices d)) (tl p)) = map Some (cell f c) ->
  omap (zget (map (fun v => Z.of_nat (gv v)) (s_vertices s))) (rowO (x_edges d) (fst (x_vertices d)) p) = Some (map (fun v => Z.of_nat (gv v)) (cell f c)).
Proof.
  intros H Hq Hm. unfold rowO. assert (Disj : forall q, In q (tl p) -> negb (IsClosureWithinBounds q (x_edges d)) = in_stratum (x_vertices d) q).
  { intros q Iq. rewrite same_bounds. assert (D := h_disjoint _ _ _ H). specialize (Hq q Iq). unfold in_stratum in *. destruct (Nat.leb_spec (fst (x_edges d)) q); destruct (Nat.ltb_spec q (snd (x_edges d))); destruct (Nat.leb_spec (fst (x_vertices d)) q); destruct (Nat.ltb_spec q (snd (x_vertices d))); cbn in *; try reflexivity; try lia; destruct Hq; discriminate. }
  rewrite (filter_ext_in _ _ _ Disj). clear Disj Hq. revert Hm. generalize (cell f c). assert (G : forall q, In q (filter (in_stratum (x_vertices d)) (tl p)) -> fst (x_vertices d) <= q).
  { intros q Iq. apply filter_In in Iq. destruct Iq as [_ Iq]. unfold in_stratum in Iq. apply andb_prop in Iq. destruct Iq as [Iq _]. apply Nat.leb_le. exact Iq. }
  revert G. induction (filter (in_stratum (x_vertices d)) (tl p)) as [|q t IH]; intros G l Hm; destruct l as [|v l]; cbn [map omap] in *; try discriminate; [reflexivity|].
  injection Hm as E1 E2. assert (Gq := G q (or_introl eq_refl)). unfold zget at 1. replace (Z.of_nat q - Z.of_nat (fst (x_vertices d)) <? 0)%Z with false by (symmetry; apply Z.ltb_ge; lia).
  replace (Z.to_nat (Z.of_nat q - Z.of_nat (fst (x_vertices d)))) with (q - fst (x_vertices d)) by lia. rewrite nth_error_map, E1. cbn [option_map obind].
  rewrite (IH (fun x Hx => G x (or_intror Hx)) l E2). reflexivity.
Qed.

Section General.
Variables (f : gridfile) (ss : list share) (ps : list plex) (num : numbering) (gv : nat -> nat) (vorder : list nat).
Hypotheses (sup : supported f) (dist : distributed f ss ps num) (vperm : Permutation vorder (seq 0 (length (f_vertices f))))
  (vplace : forall v, v < length (f_vertices f) -> nth_error vorder (gv v) = Some v).
Let ids := map (fun s => map (fun v => Z.of_nat (gv v)) (s_vertices s)) ss.
Lemma gv_bound v : v < length (f_vertices f) -> gv v < length (f_vertices f).
Proof.
  intros H. assert (E := vplace v H). assert (gv v < length vorder) by (apply nth_error_Some; congruence). rewrite (Permutation_length vperm), seq_length in H0. exact H0.
Qed.
Lemma vertices_covered k : In k (List.concat (map (fun s => map gv (s_vertices s)) ss)) <-> k < length (f_vertices f).
Proof.
  destruct dist as (HF & _ & _ & HV). split.
  - intros H. apply in_concat in H. destruct H as (l & Hl & Hk). apply in_map_iff in Hl. destruct Hl as (s & <- & Hs). apply in_map_iff in Hk. destruct Hk as (v & <- & Hv).
    apply gv_bound. destruct (In_nth_error _ _ Hs) as [i Hi]. destruct (Forall2_nth _ _ _ HF i s Hi) as (d & _ & Hd). exact (proj2 (holds_vertices f s d Hd) v Hv).
  - intros Hk. assert (Lv : length vorder = length (f_vertices f)) by (rewrite (Permutation_length vperm), seq_length; reflexivity).
    destruct (nth_error vorder k) as [v|] eqn:E; [|apply nth_error_None in E; lia].
    assert (Hv : v < length (f_vertices f)). { apply nth_error_In in E. apply (Permutation_in _ vperm) in E. apply in_seq in E. lia. }
    destruct (HV v Hv) as (s & Hs & Iv). apply in_concat. exists (map gv (s_vertices s)). split; [apply in_map_iff; eauto|]. apply in_map_iff. exists v. split; [|exact Iv].
    assert (Nd : NoDup vorder) by (apply (Permutation_NoDup (l := seq 0 (length (f_vertices f)))); [now symmetry|apply seq_NoDup]).
    rewrite NoDup_nth_error in Nd. apply Nd; [rewrite Lv; apply gv_bound; exact Hv|]. rewrite E. apply vplace. exact Hv.
Qed.
Lemma coords_general sizes : list_sum sizes = length (f_vertices f) ->
  CreateCoordinatesVectorInNaturalOrder (length (f_vertices f)) sizes ids ps = Ret (List.concat (map (fun v => xyz (vertex f v)) vorder)).
Proof.
  intros Hs. destruct dist as (HF & _ & _ & HV). unfold CreateCoordinatesVectorInNaturalOrder.
  assert (C : forallb (fun i => Z.ltb i (Z.of_nat (length (f_vertices f)))) (List.concat ids) = true).
  { apply forallb_forall. intros i Hi. unfold ids in Hi. apply in_concat in Hi. destruct Hi as (l & Hl & Hi). apply in_map_iff in Hl. destruct Hl as (s & <- & Is). apply in_map_iff in Hi. destruct Hi as (v & <- & Hv).
    apply Z.ltb_lt. apply Nat2Z.inj_lt. apply vertices_covered. apply in_concat. exists (map gv (s_vertices s)). split; [apply in_map_iff; eauto|apply in_map_iff; eauto]. }
  rewrite C. unfold check. set (F := fun idim k => X (vertex f (nth k vorder 0)) idim).
  assert (V : forall idim, coord_vec (length (f_vertices f)) idim ids ps = Some (map (F idim) (seq 0 (length (f_vertices f))))).
  { intros idim. unfold coord_vec. rewrite <- (set_all (F idim) (length (f_vertices f)) (List.concat (map (fun s => map gv (s_vertices s)) ss)) (repeat 0%R (length (f_vertices f))) vertices_covered (repeat_length _ _)).
    apply f_equal2; [|reflexivity]. rewrite concat_map, map_map. apply f_equal. unfold ids. clear C. clear - HF vplace. induction HF as [|s d ts tp Hd Ht IH]; cbn [map combine]; [reflexivity|]. rewrite IH. apply f_equal2; [|reflexivity].
    cbn [fst snd]. destruct (holds_vertices f s d Hd) as [-> B]. rewrite map_map. clear IH Ht. induction (s_vertices s) as [|v t IH]; cbn [map combine]; [reflexivity|]. rewrite IH by (intros; apply B; right; assumption). apply f_equal2; [|reflexivity].
    apply f_equal. unfold F. rewrite (nth_error_nth _ _ 0 (vplace v (B v (or_introl eq_refl)))). reflexivity. }
  rewrite !V. cbn [obind]. rewrite (coordinates_spec (F 0) (F 1) (F 2) sizes (length (f_vertices f)) Hs). cbn [of_option]. apply f_equal. apply f_equal.
  assert (Lv : length vorder = length (f_vertices f)) by (rewrite (Permutation_length vperm), seq_length; reflexivity). rewrite <- Lv.
  apply nth_error_ext. intros k. rewrite !nth_error_map. destruct (nth_error vorder k) as [v|] eqn:E.
  - assert (Hk : k < length vorder) by (apply nth_error_Some; congruence). rewrite (nth_error_nth' (seq 0 (length vorder)) 0) by (rewrite seq_length; exact Hk). rewrite seq_nth by exact Hk. cbn [option_map Nat.add]. unfold F. rewrite (nth_error_nth _ _ 0 E), xyz_X. reflexivity.
  - apply nth_error_None in E. replace (nth_error (seq 0 (length vorder)) k) with (@None nat) by (symmetry; apply nth_error_None; rewrite seq_length; exact E). reflexivity.
Qed.
(* the numbers of the vertices of a cell in the output *)
Let conn (c : nat) : list Z := map (fun v => Z.of_nat (gv v)) (cell f c).
Lemma conn_ok c : c < length (f_cells f) -> cell_ok (conn c).
Proof.
  intros H. unfold conn, cell_ok, cell. rewrite map_length. split; [apply sup, nth_In; exact H|]. apply Forall_forall. intros g Hg. apply in_map_iff in Hg. destruct Hg as (v & <- & _). lia.
Qed.
Lemma order_bound c : In c num -> c < length (f_cells f).
Proof. intros H. destruct dist as (_ & _ & P & _). apply (Permutation_in _ P) in H. apply in_seq in H. lia. Qed.
Let order (u : bool) : list nat := if u then seq 0 (length (f_cells f)) else num.
Lemma copy_general {A} u (g : nat -> list A) : CopyGlobalVecToNaturalVec u num (map g num) = Some (map g (order u)).
Proof. destruct dist as (_ & _ & P & _). destruct u; [apply natural_spec; exact P|reflexivity]. Qed.
Lemma order_length u : length (order u) = length (f_cells f).
Proof. destruct dist as (_ & _ & P & _). destruct u; cbn [order]; [apply seq_length|]. rewrite (Permutation_length P). apply seq_length. Qed.
Lemma order_in u c : In c (order u) -> c < length (f_cells f).
Proof. destruct u; cbn [order]; [intros H; apply in_seq in H; lia|apply order_bound]. Qed.
Lemma conn_part s d : holds f s d -> In d ps ->
  (let* t := cell_tables ps d in connection_vec t (x_owned d) (map (fun v => Z.of_nat (gv v)) (s_vertices s))) = Some (flat 4 (map conn (owned_cells (s, d)))).
Proof.
  intros H Hd. unfold cell_tables. rewrite (surjective_pairing (max_per_cell ps)).
  assert (Fit : forall p, In p (x_closure d) -> length (rowE (x_edges d) p) <= fst (max_per_cell ps) /\ length (rowO (x_edges d) (fst (x_vertices d)) p) <= snd (max_per_cell ps)) by (intros p Hp; apply rows_fit; assumption).
  rewrite build_spec by exact Fit. cbn [obind]. set (R0 := map (rowO (x_edges d) (fst (x_vertices d))) (x_closure d)).
  assert (L1 : length R0 = length (x_closure d)) by (unfold R0; apply map_length). assert (L2 := Forall2_len _ _ _ (h_cells _ _ _ H)). assert (L3 := h_owned _ _ _ H).
  replace (map (fun p => length (rowO (x_edges d) (fst (x_vertices d)) p)) (x_closure d)) with (map (@length Z) R0) by (unfold R0; rewrite map_map; reflexivity).
  rewrite <- L1. rewrite (connection_spec (snd (max_per_cell ps)) R0) with (out := fun i => conn (nth i (s_cells s) 0)).
  - unfold owned_cells. cbn [fst snd]. rewrite <- (owned_indices (s_cells s) (x_owned d) L3), map_map. reflexivity.
  - intros r Hr. unfold R0 in Hr. apply in_map_iff in Hr. destruct Hr as (p & <- & Hp). apply Fit. exact Hp.
  - congruence.
  - intros i Hi. apply filter_In in Hi. destruct Hi as [Hi _]. apply in_seq in Hi. destruct (nth_error (s_cells s) i) as [c|] eqn:Ec; [|apply nth_error_None in Ec; lia].
    destruct (Forall2_nth _ _ _ (h_cells _ _ _ H) i c Ec) as (p & Ep & Hc & Hq & Hm). exists (rowO (x_edges d) (fst (x_vertices d)) p). split; [unfold R0; rewrite nth_error_map, Ep; reflexivity|].
    rewrite (nth_error_nth _ _ 0 Ec). split; [unfold conn; apply (cell_row f s d gv c p H Hq Hm)|]. destruct (conn_ok c Hc) as [[E|E] _]; rewrite E; lia.
Qed.
Lemma conn_parts ts tp : Forall2 (holds f) ts tp -> (forall d, In d tp -> In d ps) ->
  omap (fun p => let* t := cell_tables ps (snd p) in connection_vec t (x_owned (snd p)) (fst p)) (combine (map (fun s => map (fun v => Z.of_nat (gv v)) (s_vertices s)) ts) tp)
  = Some (map (fun sd => flat 4 (map conn (owned_cells sd))) (combine ts tp)).
Proof.
  induction 1 as [|s d ts tp Hd Ht IH]; intros Sub; cbn [map combine omap fst snd]; [reflexivity|]. rewrite (conn_part s d Hd (Sub d (or_introl eq_refl))). cbn [obind].
  rewrite IH by (intros; apply Sub; right; assumption). reflexivity.
Qed.
Lemma owned_bound sd c : In sd (combine ss ps) -> In c (owned_cells sd) -> c < length (f_cells f).
Proof. intros H1 H2. apply order_bound. destruct dist as (_ & -> & _ & _). apply in_concat. exists (owned_cells sd). split; [apply in_map; exact H1|exact H2]. Qed.
Lemma connections_general u sizes : list_sum sizes = length (f_cells f) ->
  CreateCellConnectionVector u num sizes ids ps = Ret (List.concat (map (fun c => shape_code (conn c) :: conn c) (order u))).
Proof.
  intros Hs. assert (OB := owned_bound). destruct dist as (HF & HN & HP & HV). unfold CreateCellConnectionVector.
  unfold ids. rewrite (conn_parts ss ps HF (fun d H => H)). cbn [of_option rbind].
  assert (Rw : omap (rows_of max_num_vertices) (map (fun sd => flat 4 (map conn (owned_cells sd))) (combine ss ps)) = Some (map (fun sd => map (fun c => pad 4 (conn c)) (owned_cells sd)) (combine ss ps))).
  { assert (G : forall l, (forall sd, In sd l -> In sd (combine ss ps)) -> omap (rows_of max_num_vertices) (map (fun sd => flat 4 (map conn (owned_cells sd))) l) = Some (map (fun sd => map (fun c => pad 4 (conn c)) (owned_cells sd)) l)).
    { induction l as [|sd t IH]; intros Sub; cbn [map omap]; [reflexivity|]. change max_num_vertices with 4. rewrite rows_of_flat; [|lia|].
      - cbn [obind]. change 4 with max_num_vertices at 1. rewrite IH by (intros; apply Sub; right; assumption). cbn [obind]. rewrite map_map. reflexivity.
      - intros r Hr. apply in_map_iff in Hr. destruct Hr as (c & <- & Hc). destruct (conn_ok c (OB sd c (Sub sd (or_introl eq_refl)) Hc)) as [[E|E] _]; rewrite E; lia. }
    apply G. auto. }
  rewrite Rw. cbn [of_option rbind]. replace (List.concat (map (fun sd => map (fun c => pad 4 (conn c)) (owned_cells sd)) (combine ss ps))) with (map (fun c => pad 4 (conn c)) num).
  2:{ rewrite HN, concat_map, map_map. reflexivity. }
  rewrite copy_general. cbn [of_option rbind]. apply blocks_spec.
  - intros c Hc. apply conn_ok. exact (order_in u c Hc).
  - rewrite Hs. symmetry. apply order_length.
Qed.
Lemma attributes_general u (attr : plex -> nat -> option R) (v : nat -> R) :
  (forall s d i c, holds f s d -> nth_error (s_cells s) i = Some c -> attr d i = Some (v c)) ->
  attribute_vec u num 0%R attr ps = Some (map v (order u)).
Proof.
  intros H. destruct dist as (HF & HN & HP & HV). unfold attribute_vec.
  assert (G : forall ts tp, Forall2 (holds f) ts tp -> omap (fun d => option_map fst (owned_loop (is_owned (x_owned d)) (attr d) (length (x_owned d)) (repeat 0%R (num_owned (x_owned d))))) tp = Some (map (fun sd => map v (owned_cells sd)) (combine ts tp))).
  { induction 1 as [|s d ts tp Hd Ht IH]; cbn [map combine omap]; [reflexivity|]. rewrite (owned_values_spec (x_owned d) 0%R (attr d) (fun i => v (nth i (s_cells s) 0))).
    - cbn [obind]. rewrite IH. cbn [obind]. unfold owned_cells at 2. cbn [fst snd]. rewrite <- (owned_indices (s_cells s) (x_owned d) (h_owned _ _ _ Hd)), map_map. reflexivity.
    - intros i Hi. apply filter_In in Hi. destruct Hi as [Hi _]. apply in_seq in Hi. rewrite (h_owned _ _ _ Hd) in Hi. destruct (nth_error (s_cells s) i) as [c|] eqn:Ec; [|apply nth_error_None in Ec; lia].
      rewrite (nth_error_nth _ _ 0 Ec). exact (H s d i c Hd Ec). }
  rewrite (G ss ps HF). cbn [obind]. replace (List.concat (map (fun sd => map v (owned_cells sd)) (combine ss ps))) with (map v num) by (rewrite HN, concat_map, map_map; reflexivity).
  rewrite map_map, copy_general. cbn [obind]. apply f_equal. induction (order u) as [|c t IH]; cbn [map List.concat app]; [reflexivity|]. rewrite IH. reflexivity.
Qed.
Lemma centroid_held k s d i c : k < 3 -> holds f s d -> nth_error (s_cells s) i = Some c -> centroid_attr k d i = Some (centroid f c k).
Proof.
  intros Hk H Hi. unfold centroid_attr. destruct (omap_at _ _ _ i c (h_centroids _ _ _ H) Hi) as (x & E1 & E2). rewrite E1. cbn [obind]. unfold centroid. rewrite (nth_error_nth _ _ [] E2). apply nth_error_nth'.
  destruct sup as (_ & _ & _ & HL). rewrite (HL x (nth_error_In _ _ E2)). exact Hk.
Qed.
Lemma area_held s d i c : holds f s d -> nth_error (s_cells s) i = Some c -> area_attr d i = Some (area f c).
Proof. intros H Hi. unfold area_attr. destruct (omap_at _ _ _ i c (h_areas _ _ _ H) Hi) as (x & E1 & E2). rewrite E1. unfold area. rewrite (nth_error_nth _ _ 0%R E2). reflexivity. Qed.
Lemma grid_general refine garbage vsizes csizes : vertex_ids refine garbage ps = Ret ids -> list_sum vsizes = length (f_vertices f) -> list_sum csizes = length (f_cells f) ->
  write_grid refine garbage num (length (f_vertices f)) vsizes csizes ps = Ret (grid_in_order f gv vorder (order (use_natural refine ps))).
Proof.
  intros Hi Hv Hc. unfold write_grid. rewrite Hi. cbn [rbind]. cbv zeta. rewrite (coords_general vsizes Hv). cbn [rbind]. rewrite (connections_general _ csizes Hc). cbn [rbind].
  rewrite (attributes_general _ (centroid_attr 0) (fun c => centroid f c 0)) by (intros; eapply centroid_held; eauto; lia).
  rewrite (attributes_general _ (centroid_attr 1) (fun c => centroid f c 1)) by (intros; eapply centroid_held; eauto; lia).
  rewrite (attributes_general _ (centroid_attr 2) (fun c => centroid f c 2)) by (intros; eapply centroid_held; eauto; lia).
  rewrite (attributes_general _ area_attr (area f)) by (intros; eapply area_held; eauto).
  cbn [of_option rbind]. unfold grid_in_order.
  assert (EC : map (fun c => shape_code (conn c) :: conn c) (order (use_natural refine ps)) = map (fun c => xdmf_shape (cell f c) :: map (fun v => Z.of_nat (gv v)) (cell f c)) (order (use_natural refine ps))).
  { apply map_ext_in. intros c Hc'. apply order_in in Hc'. apply f_equal2; [|reflexivity]. unfold shape_code, xdmf_shape, conn. rewrite map_length. destruct sup as (HS & _). destruct (HS (cell f c)) as [E | E]; [apply nth_In; exact Hc'| |]; rewrite E; reflexivity. }
  rewrite EC. reflexivity.
Qed.
End General.

(** ** Theorems *)
Lemma rmap_ok {A B} (f : A -> result B) (g : A -> B) l : (forall a, In a l -> f a = Ret (g a)) -> rmap f l = Ret (map g l).
Proof.
  induction l as [|a t IH]; intros H; cbn [rmap map]; [reflexivity|]. rewrite (H a (or_introl eq_refl)). cbn [rbind]. rewrite IH by (intros; apply H; right; assumption). reflexivity.
Qed.
Definition least (g : Z) (l : list Z) : Z := match l with [] => g | m :: t => fold_left Z.min t m end.
Lemma migrated_spec f v0 s d g : holds f s d -> migrated v0 s d ->
  migrated_ids g d = Ret (map (fun v => Z.of_nat (v0 + v)) (s_vertices s), least g (map (fun v => Z.of_nat (v0 + v)) (s_vertices s))).
Proof.
  intros H (M1 & M2 & M3 & M4). unfold migrated_ids. rewrite M1, Nat.eqb_refl. unfold check. assert (HR := h_range _ _ _ H).
  set (vals := map (fun v => Z.of_nat (v0 + v)) (s_vertices s)). assert (Lv : length vals = length (s_vertices s)) by (unfold vals; apply map_length).
  assert (St : stratum (x_vertices d) = length vals) by (unfold stratum; lia). rewrite St.
  assert (I := ids_loop_spec (x_local d) (x_natural d) (fst (x_vertices d)) (fst (x_vertices d)) (snd (x_vertices d)) M2 M3 vals 0 [] g). cbn [app length] in I. rewrite Nat.add_0_r in I. rewrite I; [reflexivity|lia|reflexivity|reflexivity|].
  intros j Hj. destruct (nth_error (s_vertices s) j) as [v|] eqn:E; [|apply nth_error_None in E; lia]. unfold vals. rewrite nth_error_map, E. exact (M4 j v E).
Qed.
Lemma least_ge b g l : (forall x, In x l -> (b <= x)%Z) -> (l <> [] \/ (b <= g)%Z) -> (b <= least g l)%Z.
Proof. intros H Hg. destruct l as [|m t]; cbn [least]; [destruct Hg as [N|N]; [congruence|exact N]|]. apply fold_min_ge; [apply H; left; reflexivity|intros; apply H; right; assumption]. Qed.
Lemma migrated_all f v0 : forall ss ps garbage, Forall2 (holds f) ss ps -> Forall2 (migrated v0) ss ps -> length garbage = length ss ->
  rmap (fun gd => migrated_ids (fst gd) (snd gd)) (combine garbage ps)
  = Ret (map (fun gs => (map (fun v => Z.of_nat (v0 + v)) (s_vertices (snd gs)), least (fst gs) (map (fun v => Z.of_nat (v0 + v)) (s_vertices (snd gs))))) (combine garbage ss)).
Proof.
  induction ss as [|s ts IH]; intros ps garbage H M L; inversion H; subst; destruct garbage as [|g gs]; try discriminate; [reflexivity|]. inversion M; subst.
  cbn [combine rmap map fst snd]. rewrite (migrated_spec f v0 s y g) by assumption. cbn [rbind]. rewrite (IH l' gs) by (assumption || (cbn in L; lia)). reflexivity.
Qed.
Lemma numbers_from f v0 w ss ps garbage : Forall2 (holds f) ss ps -> Forall2 (migrated v0) ss ps -> length ps <> 1 ->
  (exists s, In s ss /\ In w (s_vertices s)) -> (forall s v, In s ss -> In v (s_vertices s) -> w <= v) ->
  Forall2 (fun g s => s_vertices s <> [] \/ (Z.of_nat (v0 + w) <= g)%Z) garbage ss ->
  vertex_ids 0 garbage ps = Ret (map (fun s => map (fun v => Z.of_nat v - Z.of_nat w)%Z (s_vertices s)) ss).
Proof.
  intros HF HM H1 (s0 & Hs0 & H00) Low HG. unfold vertex_ids. cbn [Nat.eqb]. replace (length ps =? 1) with false by (symmetry; apply Nat.eqb_neq; exact H1).
  rewrite (migrated_all f v0 ss ps garbage HF HM (Forall2_len _ _ _ HG)). cbn [rbind]. rewrite !map_map. cbn [fst snd].
  assert (Mn : all_min (map (fun gs : Z * share => least (fst gs) (map (fun v => Z.of_nat (v0 + v)) (s_vertices (snd gs)))) (combine garbage ss)) = Z.of_nat (v0 + w)).
  { apply all_min_is.
    - destruct (In_nth_error _ _ Hs0) as [i Hi]. assert (Lg := Forall2_len _ _ _ HG).
      destruct (nth_error garbage i) as [g|] eqn:Eg; [|apply nth_error_None in Eg; assert (i < length ss) by (apply nth_error_Some; congruence); lia].
      apply in_map_iff. exists (g, s0). split.
      + cbn [fst snd]. assert (In (Z.of_nat (v0 + w)) (map (fun v => Z.of_nat (v0 + v)) (s_vertices s0))) by (apply in_map_iff; exists w; split; [reflexivity|exact H00]).
        assert (Hall : forall x, In x (map (fun v => Z.of_nat (v0 + v)) (s_vertices s0)) -> (Z.of_nat (v0 + w) <= x)%Z) by (intros x Hx; apply in_map_iff in Hx; destruct Hx as (v & <- & Hv); specialize (Low s0 v Hs0 Hv); lia).
        destruct (map (fun v => Z.of_nat (v0 + v)) (s_vertices s0)) as [|m t] eqn:E; [destruct H|]. exact (all_min_is (m :: t) (Z.of_nat (v0 + w)) H Hall).
      + apply (nth_error_In _ i). clear - Hi Eg. revert i ss Hi Eg. induction garbage as [|a t IH]; intros i ss Hi Eg; [destruct i; discriminate|]. destruct ss as [|b ts]; [destruct i; discriminate|]. destruct i as [|i]; cbn [nth_error combine] in *; [congruence|exact (IH i ts Hi Eg)].
    - intros x Hx. apply in_map_iff in Hx. destruct Hx as ((g & s) & <- & Hgs). cbn [fst snd]. apply least_ge; [intros y Hy; apply in_map_iff in Hy; destruct Hy as (v & <- & Hv); specialize (Low s v (in_combine_r _ _ _ _ Hgs) Hv); lia|].
      assert (Q : s_vertices s <> [] \/ (Z.of_nat (v0 + w) <= g)%Z). { clear - HG Hgs. induction HG as [|a b l l' Hab H IH]; [destruct Hgs|]. cbn [combine] in Hgs. destruct Hgs as [E|E]; [injection E as -> ->; exact Hab|exact (IH E)]. }
      destruct Q as [Q|Q]; [left|right; exact Q]. destruct (s_vertices s); [congruence|discriminate]. }
  rewrite Mn. apply f_equal. clear - HG. induction HG as [|g s l l' Hgs H IH]; cbn [combine map]; [reflexivity|]. rewrite IH. apply f_equal2; [|reflexivity].
  cbn [fst snd]. rewrite map_map. apply map_ext. intros v. lia.
Qed.
Lemma numbers_unrefined f v0 ss ps num garbage : distributed f ss ps num -> Forall2 (migrated v0) ss ps -> 0 < length (f_vertices f) -> length ps <> 1 ->
  Forall2 (fun g s => s_vertices s <> [] \/ (Z.of_nat v0 <= g)%Z) garbage ss ->
  vertex_ids 0 garbage ps = Ret (map (fun s => map (fun v => Z.of_nat v) (s_vertices s)) ss).
Proof.
  intros (HF & HN & HP & HV) HM H0 H1 HG. rewrite (numbers_from f v0 0 ss ps garbage HF HM H1 (HV 0 H0)).
  - apply f_equal. apply map_ext. intros s. apply map_ext. intros v. lia.
  - intros; lia.
  - rewrite Nat.add_0_r. exact HG.
Qed.

(* The output holds the grid of the file: the coordinates of its vertices, the vertices of its cells with their shape,
   centroids and areas, all in the order of the file, whatever the number of processes and the distribution, and however
   PETSc divides the vectors.  On one process the order of PETSc is that of the file. *)
Theorem C78_grid :
  forall f ss ps num v0 garbage vsizes csizes,
    supported f -> 0 < length (f_vertices f) -> distributed f ss ps num ->
    list_sum vsizes = length (f_vertices f) -> list_sum csizes = length (f_cells f) ->
    (length ps = 1 -> num = seq 0 (length (f_cells f)) /\ map s_vertices ss = [seq 0 (length (f_vertices f))]) ->
    (length ps <> 1 -> Forall2 (migrated v0) ss ps /\ Forall2 (fun g s => s_vertices s <> [] \/ (Z.of_nat v0 <= g)%Z) garbage ss) ->
    exists g, write_grid 0 garbage num (length (f_vertices f)) vsizes csizes ps = Ret g /\ g = grid_of_file f /\
      announced (length (f_vertices f)) ps g = (length (f_cells f), length (g_Cells g), length (f_vertices f)) /\ length (g_Vertices g) = 3 * length (f_vertices f).
Proof.
  intros f ss ps num v0 garbage vsizes csizes Hs H0 Hd Hv Hc One Many.
  assert (W : write_grid 0 garbage num (length (f_vertices f)) vsizes csizes ps = Ret (grid_of_file f)).
  { unfold grid_of_file. destruct (Nat.eq_dec (length ps) 1) as [E1|E1].
    - destruct (One E1) as [En Es]. rewrite (grid_general f ss ps num (fun v => v) (seq 0 (length (f_vertices f))) Hs Hd (Permutation_refl _)).
      + unfold use_natural. rewrite E1. cbn [Nat.eqb negb andb]. rewrite En. reflexivity.
      + intros v Hv'. rewrite (nth_error_nth' _ 0) by (rewrite seq_length; exact Hv'). rewrite seq_nth by exact Hv'. reflexivity.
      + unfold vertex_ids. rewrite E1. cbn [Nat.eqb]. apply f_equal. destruct Hd as (HF & _). destruct ps as [|d [|d2 t]]; try discriminate. inversion HF as [|s ? ts ? Hsd Hnil]; subst. inversion Hnil; subst. cbn [map] in *.
        assert (HR := h_range _ _ _ Hsd). injection Es as Es. rewrite Es in *. rewrite seq_length in HR. unfold stratum. replace (snd (x_vertices d) - fst (x_vertices d)) with (length (f_vertices f)) by lia. reflexivity.
      + exact Hv.
      + exact Hc.
    - destruct (Many E1) as [HM HG]. rewrite (grid_general f ss ps num (fun v => v) (seq 0 (length (f_vertices f))) Hs Hd (Permutation_refl _)).
      + unfold use_natural. cbn [Nat.eqb andb]. replace (length ps =? 1) with false by (symmetry; apply Nat.eqb_neq; exact E1). reflexivity.
      + intros v Hv'. rewrite (nth_error_nth' _ 0) by (rewrite seq_length; exact Hv'). rewrite seq_nth by exact Hv'. reflexivity.
      + apply (numbers_unrefined f v0 ss ps num garbage); assumption.
      + exact Hv.
      + exact Hc. }
  exists (grid_of_file f). split; [exact W|]. split; [reflexivity|]. split.
  - unfold announced. apply f_equal2; [|reflexivity]. apply f_equal2; [|reflexivity]. destruct Hd as (HF & HN & HP & _). rewrite <- (seq_length (length (f_cells f)) 0), <- (Permutation_length HP), HN. clear - HF.
    induction HF as [|s d ts tp Hsd H IH]; cbn [map combine list_sum fold_right List.concat]; [reflexivity|]. fold (list_sum (map (fun d => num_owned (x_owned d)) tp)). rewrite app_length, IH. apply f_equal2; [|reflexivity].
    unfold owned_cells. cbn [fst snd]. rewrite map_length. assert (L := h_owned _ _ _ Hsd). unfold num_owned. revert L. generalize (s_cells s). induction (x_owned d) as [|b t IHb]; intros [|c l] L; cbn in *; try discriminate; [reflexivity|].
    destruct b; cbn [length]; rewrite (IHb l) by lia; reflexivity.
  - unfold grid_of_file, grid_in_order. cbn [g_Vertices]. rewrite <- (seq_length (length (f_vertices f)) 0) at 2. generalize (seq 0 (length (f_vertices f))). induction l as [|v t IH]; cbn [map List.concat length]; [reflexivity|]. rewrite app_length, IH.
    unfold xyz. rewrite firstn_length, app_length. cbn [length]. lia.
Qed.
Print Assumptions C78_grid.

(* After refinement: the same with the vertices in PETSc's global order [vorder] ([place v] is the place of v in it) and
   the cells in theirs.  Vertices of other processes come as -g-1. *)
Theorem C78_refined :
  forall f ss ps num refine garbage vsizes csizes place vorder,
    supported f -> distributed f ss ps num -> 0 < refine ->
    list_sum vsizes = length (f_vertices f) -> list_sum csizes = length (f_cells f) ->
    Permutation vorder (seq 0 (length (f_vertices f))) -> (forall v, v < length (f_vertices f) -> nth_error vorder (place v) = Some v) ->
    Forall2 (fun s d => Forall2 (fun v z => z = Z.of_nat (place v) \/ z = (- Z.of_nat (place v) - 1)%Z) (s_vertices s) (x_numbers d)) ss ps ->
    write_grid refine garbage num (length (f_vertices f)) vsizes csizes ps = Ret (grid_in_order f place vorder num).
Proof.
  intros f ss ps num refine garbage vsizes csizes gv vorder Hs Hd Hr Hv Hc Hp Hpl HN. rewrite (grid_general f ss ps num gv vorder Hs Hd Hp Hpl refine garbage vsizes csizes); [|clear Hv Hc|exact Hv|exact Hc].
  - unfold use_natural. destruct refine; [lia|]. reflexivity.
  - unfold vertex_ids. destruct refine; [lia|]. cbn [Nat.eqb]. destruct Hd as (HF & _). revert HN. induction HF as [|s d ts tp Hsd H IH]; intros HN; inversion HN as [|? ? ? ? Hn HN']; subst; cbn [rmap map]; [reflexivity|].
    assert (E : rmap (fun v => let! i := of_option (nth_error (x_numbers d) v) in Ret (if Z.ltb i 0 then - i - 1 else i)%Z) (seq 0 (stratum (x_vertices d))) = Ret (map (fun v => Z.of_nat (gv v)) (s_vertices s))).
    { assert (HR := h_range _ _ _ Hsd). replace (stratum (x_vertices d)) with (length (s_vertices s)) by (unfold stratum; lia).
      rewrite (rmap_ok _ (fun k => Z.of_nat (gv (nth k (s_vertices s) 0)))).
      - apply f_equal. rewrite <- (map_map (fun k => nth k (s_vertices s) 0) (fun v => Z.of_nat (gv v))). apply f_equal. apply nth_error_ext. intros k. rewrite nth_error_map. destruct (Nat.lt_ge_cases k (length (s_vertices s))) as [L|L].
        + rewrite (nth_error_nth' (seq 0 (length (s_vertices s))) 0) by (rewrite seq_length; exact L). rewrite seq_nth by exact L. cbn [option_map Nat.add]. symmetry. apply nth_error_nth'. exact L.
        + replace (nth_error (seq 0 (length (s_vertices s))) k) with (@None nat) by (symmetry; apply nth_error_None; rewrite seq_length; exact L). cbn [option_map]. symmetry. apply nth_error_None. exact L.
      - intros k Hk. apply in_seq in Hk. assert (E : nth_error (s_vertices s) k = Some (nth k (s_vertices s) 0)) by (apply nth_error_nth'; lia). destruct (Forall2_nth _ _ _ Hn k _ E) as (z & -> & Z0). cbn [of_option rbind].
        destruct Z0 as [-> | ->]; [replace (_ <? 0)%Z with false by (symmetry; apply Z.ltb_ge; lia); reflexivity|]. replace (_ <? 0)%Z with true by (symmetry; apply Z.ltb_lt; lia). apply f_equal. lia. }
    rewrite E. cbn [rbind]. rewrite (IH HN'). reflexivity.
Qed.
Print Assumptions C78_refined.

(* Tables of neighbours, for any number of processes: they are filled without overflow; a cell lists the edges and the
   vertices PETSc finds in it, a vertex the edges and the cells around it, each counted from 0. *)
Definition listed (r : nat * nat) (points : list nat) : list Z := map (fun q => Z.of_nat (q - fst r)) (filter (in_stratum r) (tl points)).
Definition apart (a b : nat * nat) : Prop := snd a <= fst b \/ snd b <= fst a.
Definition kinds (a b : nat * nat) (points : list nat) : Prop := forall q, In q (tl points) -> in_stratum a q = true \/ in_stratum b q = true.
Lemma in_stratum_iff r q : in_stratum r q = true <-> fst r <= q < snd r.
Proof. unfold in_stratum. rewrite andb_true_iff, Nat.leb_le, Nat.ltb_lt. tauto. Qed.
Lemma row_edges r p : rowE r p = listed r p.
Proof. unfold rowE, listed. apply map_ext_in. intros q Hq. apply filter_In in Hq. destruct Hq as [_ Hq]. change (in_stratum r q = true) in Hq. apply in_stratum_iff in Hq. lia. Qed.
Lemma row_others e r p : apart e r -> kinds e r p -> rowO e (fst r) p = listed r p.
Proof.
  intros A K. unfold rowO, listed. rewrite (filter_ext_in _ (in_stratum r)).
  - apply map_ext_in. intros q Hq. apply filter_In in Hq. destruct Hq as [_ Hq]. apply in_stratum_iff in Hq. lia.
  - intros q Hq. rewrite same_bounds. specialize (K q Hq). rewrite !in_stratum_iff in K. unfold apart in A. destruct (in_stratum e q) eqn:E1; destruct (in_stratum r q) eqn:E2; try reflexivity.
    + apply in_stratum_iff in E1, E2. lia.
    + exfalso. destruct K as [K|K]; apply in_stratum_iff in K; congruence.
Qed.
Lemma tables_read e r we wo ps : apart e r -> (forall p, In p ps -> kinds e r p) -> (forall p, In p ps -> length (rowE e p) <= we /\ length (rowO e (fst r) p) <= wo) ->
  exists t, build_tables e (fst r) (we, wo) ps = Some t /\ forall i p, nth_error ps i = Some p -> edges_of t i = Some (listed e p) /\ others_of t i = Some (listed r p).
Proof.
  intros A K H. eexists. split; [apply build_spec; exact H|]. intros i p Hi. unfold edges_of, others_of. cbn [t_edges t_others t_nedges t_nothers t_eoffs t_ooffs]. split.
  - assert (E := entries_spec we (map (rowE e) ps) ltac:(intros x Hx; apply in_map_iff in Hx; destruct Hx as (q & <- & Hq); apply H; exact Hq) i (rowE e p) ltac:(rewrite nth_error_map, Hi; reflexivity)).
    rewrite map_length, map_map in E. rewrite E, row_edges. reflexivity.
  - assert (E := entries_spec wo (map (rowO e (fst r)) ps) ltac:(intros x Hx; apply in_map_iff in Hx; destruct Hx as (q & <- & Hq); apply H; exact Hq) i (rowO e (fst r) p) ltac:(rewrite nth_error_map, Hi; reflexivity)).
    rewrite map_length, map_map in E. rewrite E, row_others; [reflexivity|exact A|]. apply K. eapply nth_error_In. exact Hi.
Qed.
Theorem C78_neighbours :
  forall ps d, In d ps ->
    apart (x_edges d) (x_vertices d) -> apart (x_edges d) (x_cells d) ->
    (forall p, In p (x_closure d) -> kinds (x_edges d) (x_vertices d) p) -> (forall p, In p (x_star d) -> kinds (x_edges d) (x_cells d) p) ->
    exists tc tv, cell_tables ps d = Some tc /\ vertex_tables ps d = Some tv /\
      (forall c p, nth_error (x_closure d) c = Some p -> edges_of tc c = Some (listed (x_edges d) p) /\ others_of tc c = Some (listed (x_vertices d) p)) /\
      (forall v p, nth_error (x_star d) v = Some p -> edges_of tv v = Some (listed (x_edges d) p) /\ others_of tv v = Some (listed (x_cells d) p)) /\
      (* where PETSc agrees with itself, a cell lists a vertex exactly if the vertex lists the cell *)
      ((forall c v p q, nth_error (x_closure d) c = Some p -> nth_error (x_star d) v = Some q -> c < stratum (x_cells d) -> v < stratum (x_vertices d) ->
          (In (fst (x_vertices d) + v) (tl p) <-> In (fst (x_cells d) + c) (tl q))) ->
        forall c v, c < stratum (x_cells d) -> v < stratum (x_vertices d) -> c < length (x_closure d) -> v < length (x_star d) ->
          ((exists l, others_of tc c = Some l /\ In (Z.of_nat v) l) <-> (exists l, others_of tv v = Some l /\ In (Z.of_nat c) l))).
Proof.
  intros ps d Hd A1 A2 K1 K2.
  destruct (tables_read (x_edges d) (x_vertices d) (fst (max_per_cell ps)) (snd (max_per_cell ps)) (x_closure d) A1 K1 ltac:(intros; apply rows_fit; assumption)) as (tc & Ec & Rc).
  destruct (tables_read (x_edges d) (x_cells d) (fst (max_per_vertex ps)) (snd (max_per_vertex ps)) (x_star d) A2 K2 ltac:(intros; apply rows_fit_vertex; assumption)) as (tv & Ev & Rv).
  rewrite <- surjective_pairing in Ec, Ev. exists tc, tv. split; [exact Ec|]. split; [exact Ev|]. split; [exact Rc|]. split; [exact Rv|].
  assert (L : forall r p k, k < stratum r -> (In (Z.of_nat k) (listed r p) <-> In (fst r + k) (tl p))).
  { intros r p k Hk. unfold listed. rewrite in_map_iff. split.
    - intros (q & E & Hq). apply filter_In in Hq. destruct Hq as [Hq Hs]. apply in_stratum_iff in Hs. replace (fst r + k) with q by lia. exact Hq.
    - intros Hq. exists (fst r + k). split; [f_equal; lia|]. apply filter_In. split; [exact Hq|]. apply in_stratum_iff. unfold stratum in Hk. lia. }
  intros Sym c v Hc Hv Lc Lv. destruct (nth_error (x_closure d) c) as [p|] eqn:Ep; [|apply nth_error_None in Ep; lia]. destruct (nth_error (x_star d) v) as [q|] eqn:Eq; [|apply nth_error_None in Eq; lia].
  rewrite (proj2 (Rc c p Ep)), (proj2 (Rv v q Eq)). specialize (Sym c v p q Ep Eq Hc Hv). rewrite <- (L (x_vertices d) p v Hv), <- (L (x_cells d) q c Hc) in Sym.
  split; intros (l & E & I); injection E as <-; eexists; (split; [reflexivity|]); apply Sym; exact I.
Qed.
Print Assumptions C78_neighbours.

(* On several processes PETSc drops the vertices that belong to no cell, and the numbers of the others keep the gap: a run
   ends with an error where the number of a vertex, counted from the first one held, is not below the number of those held. *)
Theorem C78_unused_vertices_rejected :
  forall f ss ps num v0 w v nv garbage vsizes csizes,
    Forall2 (holds f) ss ps -> Forall2 (migrated v0) ss ps -> length ps <> 1 -> length garbage = length ps -> (forall s, In s ss -> s_vertices s <> []) ->
    (exists s, In s ss /\ In w (s_vertices s)) -> (forall s x, In s ss -> In x (s_vertices s) -> w <= x) ->
    (exists s, In s ss /\ In v (s_vertices s)) -> nv <= v - w ->
    write_grid 0 garbage num nv vsizes csizes ps = Error.
Proof.
  intros f ss ps num v0 w v nv garbage vsizes csizes HF HM H1 HG HN Hw Low (s & Hs & Hv) Hnv. unfold write_grid. rewrite (numbers_from f v0 w ss ps garbage HF HM H1 Hw Low).
  - cbn [rbind]. cbv zeta. unfold CreateCoordinatesVectorInNaturalOrder, check. destruct (forallb _ _) eqn:E; [|reflexivity]. exfalso. rewrite forallb_forall in E.
    assert (B := E (Z.of_nat v - Z.of_nat w)%Z). rewrite Z.ltb_lt in B. assert (L := Low s v Hs Hv). apply (Z.lt_irrefl (Z.of_nat v - Z.of_nat w)). eapply Z.lt_le_trans; [apply B|lia].
    apply in_concat. eexists. split; [apply in_map_iff; exists s; split; [reflexivity|exact Hs]|]. apply in_map_iff. exists v. split; [reflexivity|exact Hv].
  - assert (L := Forall2_len _ _ _ HF). rewrite <- L in HG. clear - HG HN. revert ss HG HN. induction garbage as [|g t IH]; intros [|s ss] HG HN; try discriminate; constructor; [left; apply HN; left; reflexivity|]. apply IH; [cbn in HG; lia|]. intros; apply HN; right; assumption.
Qed.
Print Assumptions C78_unused_vertices_rejected.

(** ** Examples *)
(* a square and a triangle beside it, on two processes; the first one also holds the square of the other *)
Definition ex_file : gridfile :=
  GridFile [[0; 0]; [1; 0]; [1; 1]; [0; 1]; [2; 0]]%R [[0; 1; 2; 3]; [1; 4; 2]] [[1 / 2; 1 / 2; 0]; [4 / 3; 1 / 3; 0]]%R [1; 1 / 2]%R.
Definition ex_s0 : share := Share [1; 0] [1; 4; 2; 0; 3].
Definition ex_s1 : share := Share [0] [0; 1; 2; 3].
Definition ex_d0 : plex :=
  Plex (0, 2) (7, 13) (2, 7) [[0; 7; 8; 9; 2; 3; 4]; [1; 10; 9; 11; 12; 5; 2; 4; 6]]
       [[2; 7; 9; 10; 0; 1]; [3; 7; 8; 0]; [4; 8; 9; 11; 0; 1]; [5; 10; 12; 1]; [6; 11; 12; 1]] [true; false]
       [[1; 0]; [2; 0]; [1; 1]; [0; 0]; [0; 1]]%R None [1; 0; 3; 6; 4; 2; 5; 8; 9; 7; 10; 11; 12]%Z [0; 1; 2; -4; -5]%Z
       [[4 / 3; 1 / 3; 0]; [1 / 2; 1 / 2; 0]]%R [1 / 2; 1]%R.
Definition ex_d1 : plex :=
  Plex (0, 1) (5, 9) (1, 5) [[0; 5; 6; 7; 8; 1; 2; 3; 4]] [[1; 5; 8; 0]; [2; 5; 6; 0]; [3; 6; 7; 0]; [4; 7; 8; 0]] [true]
       [[0; 0]; [1; 0]; [1; 1]; [0; 1]]%R (Some [0; 1; 2; 3; 4; 5; 6; 7; 8]) [0; 2; 3; 4; 5; 10; 7; 11; 12]%Z [3; -1; -3; 4]%Z
       [[1 / 2; 1 / 2; 0]]%R [1]%R.
Example ex_supported : supported ex_file.
Proof. repeat split; try reflexivity; cbn; intros c H; repeat (destruct H as [<- |H]; [cbn; auto|]); destruct H. Qed.
Example ex_holds : Forall2 (holds ex_file) [ex_s0; ex_s1] [ex_d0; ex_d1].
Proof.
  constructor; [|constructor; [|constructor]]; constructor; try reflexivity; try (cbn; lia);
    repeat (constructor; [split; [cbn; lia|split; [intros q Hq; cbn in Hq; repeat (destruct Hq as [<- |Hq]; [cbn; auto|]); destruct Hq|reflexivity]]|]); constructor.
Qed.
Example ex_distributed : distributed ex_file [ex_s0; ex_s1] [ex_d0; ex_d1] [1; 0].
Proof.
  split; [apply ex_holds|]. split; [reflexivity|]. split; [apply perm_swap|]. intros v Hv. exists ex_s0. split; [left; reflexivity|]. cbn in *. lia.
Qed.
Example ex_migrated : Forall2 (migrated 2) [ex_s0; ex_s1] [ex_d0; ex_d1].
Proof.
  constructor; [|constructor; [|constructor]]; (split; [reflexivity|]); (split; [|split; [cbn; lia|]]).
  - exact I.
  - intros k v H. do 5 (destruct k as [|k]; [injection H as <-; reflexivity|]). destruct k; discriminate.
  - split; [repeat constructor; lia|]. split; [reflexivity|]. cbn. intros x Hx. lia.
  - intros k v H. do 4 (destruct k as [|k]; [injection H as <-; reflexivity|]). destruct k; discriminate.
Qed.
Example ex_grid : exists g, write_grid 0 [(-5)%Z; 7%Z] [1; 0] 5 [3; 2] [1; 1] [ex_d0; ex_d1] = Ret g /\ g_Cells g = [5; 0; 1; 2; 3; 4; 1; 4; 2]%Z /\ g_Vertices g = [0; 0; 0; 1; 0; 0; 1; 1; 0; 0; 1; 0; 2; 0; 0]%R.
Proof.
  destruct (C78_grid ex_file [ex_s0; ex_s1] [ex_d0; ex_d1] [1; 0] 2 [(-5)%Z; 7%Z] [3; 2] [1; 1] ex_supported ltac:(cbn; lia) ex_distributed eq_refl eq_refl) as (g & E & -> & _).
  - discriminate.
  - intros _. split; [apply ex_migrated|]. constructor; [left; discriminate|]. constructor; [left; discriminate|]. constructor.
  - eexists. split; [exact E|]. split; reflexivity.
Qed.
Example ex_refined : exists g, write_grid 1 [] [1; 0] 5 [3; 2] [1; 1] [ex_d0; ex_d1] = Ret g /\ g_Cells g = [4; 0; 1; 2; 5; 3; 0; 2; 4]%Z.
Proof.
  eexists. split; [apply (C78_refined ex_file [ex_s0; ex_s1] [ex_d0; ex_d1] [1; 0] 1 [] [3; 2] [1; 1] (fun v => nth v [3; 0; 2; 4; 1] 0) [1; 4; 2; 0; 3] ex_supported ex_distributed)|reflexivity]; try reflexivity; try lia.
  - apply NoDup_Permutation; [repeat (constructor; [cbn; lia|]); constructor|apply seq_NoDup|]. intros x. cbn. lia.
  - cbn. intros v Hv. do 5 (destruct v as [|v]; [reflexivity|]). lia.
  - repeat (constructor; try (left; reflexivity); try (right; reflexivity)).
Qed.
Example ex_neighbours : exists tc tv, cell_tables [ex_d0; ex_d1] ex_d0 = Some tc /\ vertex_tables [ex_d0; ex_d1] ex_d0 = Some tv /\
  others_of tc 0 = Some [0; 1; 2]%Z /\ others_of tv 0 = Some [0; 1]%Z /\ edges_of tv 3 = Some [3; 5]%Z.
Proof.
  destruct (C78_neighbours [ex_d0; ex_d1] ex_d0 (or_introl eq_refl)) as (tc & tv & E1 & E2 & R1 & R2 & _).
  - right. cbn. lia.
  - right. cbn. lia.
  - intros p Hp. repeat (destruct Hp as [<- |Hp]; [intros q Hq; cbn in Hq; repeat (destruct Hq as [<- |Hq]; [cbn; auto|]); destruct Hq|]). destruct Hp.
  - intros p Hp. repeat (destruct Hp as [<- |Hp]; [intros q Hq; cbn in Hq; repeat (destruct Hq as [<- |Hq]; [cbn; auto|]); destruct Hq|]). destruct Hp.
  - exists tc, tv. split; [exact E1|]. split; [exact E2|]. split; [exact (proj2 (R1 0 _ eq_refl))|]. split; [exact (proj2 (R2 0 _ eq_refl))|exact (proj1 (R2 3 _ eq_refl))].
Qed.
Print Assumptions ex_grid.

(* A process without vertices takes part in the minimum with a variable nobody has set: with more processes than cells a
   good grid is refused, or not, depending on what was in memory. *)
Definition tri : gridfile := GridFile [[0; 0]; [1; 0]; [0; 1]]%R [[0; 1; 2]] [[1 / 3; 1 / 3; 0]]%R [1 / 2]%R.
Definition tri_d : plex :=
  Plex (0, 1) (4, 7) (1, 4) [[0; 4; 5; 6; 1; 2; 3]] [[1; 4; 6; 0]; [2; 4; 5; 0]; [3; 5; 6; 0]] [true] [[0; 0]; [1; 0]; [0; 1]]%R None [0; 1; 2; 3; 4; 5; 6]%Z [0; 1; 2]%Z [[1 / 3; 1 / 3; 0]]%R [1 / 2]%R.
Definition nothing : plex := Plex (0, 0) (0, 0) (0, 0) [] [] [] [] None [] [] [] [].
Theorem C78_process_without_cells_refuted :
  supported tri /\ distributed tri [Share [0] [0; 1; 2]; Share [] []] [tri_d; nothing] [0] /\ Forall2 (migrated 1) [Share [0] [0; 1; 2]; Share [] []] [tri_d; nothing] /\
  write_grid 0 [0%Z; 0%Z] [0] 3 [2; 1] [1; 0] [tri_d; nothing] = Error /\
  write_grid 0 [0%Z; 9%Z] [0] 3 [2; 1] [1; 0] [tri_d; nothing] = Ret (grid_of_file tri).
Proof.
  assert (Hs : supported tri). { repeat split; try reflexivity; cbn; intros c H; repeat (destruct H as [<- |H]; [cbn; auto|]); destruct H. }
  assert (Hd : distributed tri [Share [0] [0; 1; 2]; Share [] []] [tri_d; nothing] [0]).
  { split; [|split; [reflexivity|split; [apply Permutation_refl|]]].
    - constructor; [|constructor; [|constructor]]; constructor; try reflexivity; try (cbn; lia);
        repeat (constructor; [split; [cbn; lia|split; [intros q Hq; cbn in Hq; repeat (destruct Hq as [<- |Hq]; [cbn; auto|]); destruct Hq|reflexivity]]|]); constructor.
    - intros v Hv. eexists. split; [left; reflexivity|]. cbn in *. lia. }
  assert (Hm : Forall2 (migrated 1) [Share [0] [0; 1; 2]; Share [] []] [tri_d; nothing]).
  { constructor; [|constructor; [|constructor]]; (split; [reflexivity|]); (split; [exact I|split; [cbn; lia|]]); intros k v H.
    - do 3 (destruct k as [|k]; [injection H as <-; reflexivity|]). destruct k; discriminate.
    - destruct k; discriminate. }
  split; [exact Hs|]. split; [exact Hd|]. split; [exact Hm|]. split; [reflexivity|].
  destruct (C78_grid tri _ _ [0] 1 [0%Z; 9%Z] [2; 1] [1; 0] Hs ltac:(cbn; lia) Hd eq_refl eq_refl) as (g & E & -> & _); [discriminate| |exact E].
  intros _. split; [exact Hm|]. constructor; [left; discriminate|]. constructor; [right; lia|]. constructor.
Qed.
Print Assumptions C78_process_without_cells_refuted.
(* the second of four vertices belongs to no cell; on two processes there are three vertices, and the last is number 3 *)
Definition gap : gridfile := GridFile [[0; 0]; [5; 5]; [1; 0]; [0; 1]]%R [[0; 2; 3]] [[1 / 3; 1 / 3; 0]]%R [1 / 2]%R.
Definition gap_d (owned : bool) : plex :=
  Plex (0, 1) (4, 7) (1, 4) [[0; 4; 5; 6; 1; 2; 3]] [[1; 4; 6; 0]; [2; 4; 5; 0]; [3; 5; 6; 0]] [owned] [[0; 0]; [1; 0]; [0; 1]]%R None [0; 1; 3; 4; 5; 6; 7]%Z [0; 1; 2]%Z [[1 / 3; 1 / 3; 0]]%R [1 / 2]%R.
Example ex_unused : write_grid 0 [0%Z; 0%Z] [0] 3 [2; 1] [1; 0] [gap_d true; gap_d false] = Error.
Proof.
  assert (M : forall b, migrated 1 (Share [0] [0; 2; 3]) (gap_d b)).
  { intros b. split; [reflexivity|]. split; [exact I|]. split; [cbn; lia|]. intros k v H. do 3 (destruct k as [|k]; [injection H as <-; reflexivity|]). destruct k; discriminate. }
  assert (H : forall b, holds gap (Share [0] [0; 2; 3]) (gap_d b)).
  { intros b. constructor; try reflexivity; try (cbn; lia). constructor; [|constructor]. split; [cbn; lia|split; [intros q Hq; cbn in Hq; repeat (destruct Hq as [<- |Hq]; [cbn; auto|]); destruct Hq|reflexivity]]. }
  apply (C78_unused_vertices_rejected gap [Share [0] [0; 2; 3]; Share [0] [0; 2; 3]] [gap_d true; gap_d false] [0] 1 0 3); try reflexivity; try lia.
  - constructor; [apply H|]. constructor; [apply H|]. constructor.
  - constructor; [apply M|]. constructor; [apply M|]. constructor.
  - discriminate.
  - intros s [<- |[<- |[]]]; discriminate.
  - eexists. split; [left; reflexivity|]. cbn. lia.
  - eexists. split; [left; reflexivity|]. cbn. lia.
Qed.
