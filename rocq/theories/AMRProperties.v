(** C48: adaptive refinement. *)
From Verif Require Import Base SetupModel ConfigModel MeshMapsProofs AMRModel AMRProofs.
Local Open Scope nat_scope.

(** ** Specification *)
(* [child t c p]: fine cell p is a piece of coarse cell c; [partition t nf]: each of the nf fine cells is a piece of one
   coarse cell, once (AMRProofs).  The pieces of a cell: *)
Definition children (t : tree) (c : nat) : list nat := map fst (pieces (nth c t (0, []))).
(* value [i] of cell [c] in a vector with [bs] values per cell *)
Definition at_cell (bs : nat) (x : list R) (c i : nat) : R := nth (bs * c + i) x 0%R.
(* volume, or other total, of component [i]: values times areas *)
Definition total (bs n : nat) (area : nat -> R) (x : list R) (i : nat) : R := rsum (fun c => (area c * at_cell bs x c i)%R) (seq 0 n).
(* number of a cell among the owned ones, in local order *)
Definition number (owned : nat -> bool) (c : nat) : nat := length (filter owned (seq 0 c)).
(* a region of a process: the owned cells are those of the local cells that are owned, by number *)
Definition region_ok (owned : nat -> bool) (n : nat) (r : region) : Prop :=
  (forall c, In c (rg_local r) -> c < n) /\ rg_owned r = map (fun c => Some (number owned c)) (filter owned (rg_local r)).
(* what the process knows of its mesh: flags and local numbers of the owned cells *)
Definition mesh_ok (owned : nat -> bool) (n : nat) (is_owned : list bool) (owned_to_local : list nat) : Prop :=
  length is_owned = n /\ (forall c, c < n -> nth c is_owned false = owned c) /\ (forall c, c < n -> owned c = true -> nth_error owned_to_local (number owned c) = Some c).
(* A history of refinements: the solution at that time, what the refinement produces, and the mesh before it. *)
Record step := Step { s_solution : list R; s_tree : tree; s_fine : nat; s_is_owned : list bool; s_owned_to_local : list nat }.
Definition perform (bs : nat) (a : amr) (s : step) : option amr :=
  RDyPerformAMR bs (s_fine s) (s_tree s) (s_is_owned s) (s_owned_to_local s)
    (Amr (a_level a) (a_base_to_current a) (a_current_to_base a) (a_base_to_current_1 a) (a_current_to_base_1 a) (s_solution s) (a_regions a)).
Fixpoint history (bs n : nat) (owned : nat -> bool) (steps : list step) : Prop :=
  match steps with
  | [] => True
  | s :: rest =>
    length (s_tree s) = n /\ 0 < n /\ (Z.of_nat n <= 2 ^ 31)%Z /\ partition (s_tree s) (s_fine s) /\ length (s_solution s) = bs * n /\ mesh_ok owned n (s_is_owned s) (s_owned_to_local s) /\
    history bs (s_fine s) (fun p => owned (parent (s_tree s) p)) rest
  end.
Fixpoint cells_after (n : nat) (steps : list step) : nat := match steps with [] => n | s :: rest => cells_after (s_fine s) rest end.
(* the base cell a cell of the current mesh is a piece of: the parent of the parent ... *)
Fixpoint ancestor (steps : list step) (p : nat) : nat := match steps with [] => p | s :: rest => parent (s_tree s) (ancestor rest p) end.

(** ** Transfer of the solution *)
Theorem C48_values_inherited : forall bs t nf x, partition t nf -> length x = bs * length t ->
  exists m y, ConstructRefineTree bs nf t = Some m /\ MatMult (fst m) x = Some y /\ length y = bs * nf /\
    forall c p i, child t c p -> i < bs -> at_cell bs y p i = at_cell bs x c i.
Proof.
  intros bs t nf x P L. destruct (tree_copies bs t nf P) as (m & E & C). destruct (copies_mult bs nf (length t) (parent t) (fst m) x C L) as (y & Ey & Ly & Vy). exists m, y. split; [exact E|]. split; [exact Ey|]. split; [exact Ly|].
  intros c p i H Hi. apply (child_parent t nf c p P) in H. destruct H as (Hp & ->). apply Vy; assumption.
Qed.
Print Assumptions C48_values_inherited.
Lemma rsum_flat_map {A B} (f : B -> R) (g : A -> list B) l : rsum f (flat_map g l) = rsum (fun a => rsum f (g a)) l.
Proof. induction l as [|a l IH]; [reflexivity|]. cbn [flat_map rsum]. rewrite rsum_app, IH. reflexivity. Qed.
Lemma combine_seq_nth {A} (t : list A) (d : A) : combine (seq 0 (length t)) t = map (fun c => (c, nth c t d)) (seq 0 (length t)).
Proof.
  apply (nth_ext _ _ (0, d) (0, nth 0 t d)); [rewrite combine_length, map_length, seq_length, Nat.min_id; reflexivity|]. intros k Hk. rewrite combine_length, seq_length, Nat.min_id in Hk.
  rewrite combine_nth, seq_nth by (rewrite ?seq_length; auto). rewrite (nth_map_seq (fun c => (c, nth c t d))) by exact Hk. reflexivity.
Qed.
(* The total of every component is unchanged, in particular the volume of water, however the cells were split. *)
Theorem C48_volume_preserved : forall bs t nf x area fine_area, partition t nf -> length x = bs * length t ->
  (forall c, c < length t -> area c = rsum fine_area (children t c)) ->
  exists m y, ConstructRefineTree bs nf t = Some m /\ MatMult (fst m) x = Some y /\ forall i, i < bs -> total bs nf fine_area y i = total bs (length t) area x i.
Proof.
  intros bs t nf x area fa P L A. destruct (C48_values_inherited bs t nf x P L) as (m & y & Em & Ey & _ & V). exists m, y. split; [exact Em|]. split; [exact Ey|]. intros i Hi. unfold total.
  rewrite <- (rsum_perm _ _ _ P). unfold fines. rewrite rsum_map. unfold visits. rewrite rsum_flat_map, (combine_seq_nth t (0, [])), rsum_map. apply rsum_ext. intros c Hc. apply in_seq in Hc. cbn [fst snd].
  rewrite A by lia. unfold children. rewrite !rsum_map. rewrite (Rmult_comm (rsum _ _)), <- rsum_scal. apply rsum_ext. intros (p, n) Hp. cbn [fst snd]. rewrite (V c p i); [ring| |exact Hi].
  apply child_visit. exists n. unfold visits. apply in_flat_map. exists (c, nth c t (0, [])). split; [rewrite (combine_seq_nth t (0, [])); apply in_map_iff; exists c; split; [reflexivity|apply in_seq; lia]|]. apply in_map_iff. exists (p, n). auto.
Qed.
Print Assumptions C48_volume_preserved.

(** ** Tables *)
Theorem C48_children_tables : forall bs t nf is_owned m, 0 < bs -> partition t nf -> length is_owned = length t -> 0 < length t -> (Z.of_nat (length t) <= 2 ^ 31)%Z ->
  ConstructRefineTree bs nf t = Some m ->
  exists tb, DetermineCoarseToFineCellMapping bs (fst m) is_owned = Some tb /\
    (forall c p, child t c p -> nth_error (t_parent tb) p = Some c) /\
    forall c, c < length t -> exists l, children_of tb c = Some l /\ NoDup l /\ forall p, In p l <-> child t c p.
Proof.
  intros bs t nf own m Hb P L Pos Sm E. destruct (tree_copies bs t nf P) as (m' & E' & C). assert (m' = m) by congruence. subst m'.
  destruct (tables_built bs nf (length t) (parent t) (fst m) own Hb C L Pos Sm) as (tb & Et & _ & Vp & _ & Vc). exists tb. split; [exact Et|]. split.
  - intros c p H. apply (child_parent t nf c p P) in H. destruct H as (Hp & ->). apply Vp. exact Hp.
  - intros c Hc. exists (kids (parent t) c nf). split; [apply Vc; exact Hc|]. unfold kids. split; [apply NoDup_filter, seq_NoDup|]. intros p. rewrite filter_In, in_seq, Nat.eqb_eq, (child_parent t nf c p P). split; [intros (H & <-)|intros (H & ->)]; split; (lia || reflexivity).
Qed.
Print Assumptions C48_children_tables.

(** ** Regions *)
Lemma number_S owned p : number owned (S p) = number owned p + (if owned p then 1 else 0).
Proof. unfold number. rewrite seq_S, filter_app, app_length. cbn. destruct (owned p); reflexivity. Qed.
Definition nonzero (o : R) : bool := if Req_EM_T o 0 then false else true.
Lemma ids_spec l : forall p o, nth_error l p = Some o -> nth_error (fine_LocaltoGlobalIDs l) p = Some (if nonzero o then Some (length (filter nonzero (firstn p l))) else None).
Proof.
  unfold fine_LocaltoGlobalIDs.
  assert (G : forall l, exists ids, fold_left (fun s (o : R) => let '(ids, count) := s in if Req_EM_T o 0 then (ids ++ [None], count) else (ids ++ [Some count], S count)) l ([], 0) = (ids, length (filter nonzero l)) /\ length ids = length l /\
    forall p o, nth_error l p = Some o -> nth_error ids p = Some (if nonzero o then Some (length (filter nonzero (firstn p l))) else None)).
  { clear l. intros l. induction l as [|x l IH] using rev_ind.
    - exists []. split; [reflexivity|]. split; [reflexivity|]. intros p o H. destruct p; discriminate.
    - destruct IH as (ids & E & Li & V). rewrite fold_left_app, E. cbn [fold_left]. exists (ids ++ [if nonzero x then Some (length (filter nonzero l)) else None]). split; [|split].
      + rewrite filter_app, app_length. cbn [filter]. destruct (nonzero x) eqn:Nx; unfold nonzero in Nx; destruct (Req_EM_T x 0); try discriminate; cbn [length]; f_equal; lia.
      + rewrite !app_length, Li. reflexivity.
      + intros p o H. destruct (Nat.lt_ge_cases p (length l)) as [Hp|Hp].
        * rewrite nth_error_app1 in H by exact Hp. rewrite nth_error_app1 by lia. rewrite (V p o H). rewrite firstn_app. replace (p - length l) with 0 by lia. cbn [firstn]. rewrite app_nil_r. reflexivity.
        * assert (p = length l). { assert (Hx : p < length (l ++ [x])) by (apply nth_error_Some; congruence). rewrite app_length in Hx. cbn in Hx. lia. } subst p. rewrite nth_error_app2, Nat.sub_diag in H by lia. injection H as <-.
          rewrite nth_error_app2 by lia. rewrite Li, Nat.sub_diag, firstn_app, firstn_all, Nat.sub_diag, app_nil_r. reflexivity. }
  destruct (G l) as (ids & E & _ & V). rewrite E. exact V.
Qed.
Lemma omap_all {A B} (f : A -> option B) (g : A -> B) l : (forall a, In a l -> f a = Some (g a)) -> omap f l = Some (map g l).
Proof. induction l as [|a l IH]; intros H; [reflexivity|]. cbn [omap map]. rewrite (H a (or_introl eq_refl)). cbn [obind]. rewrite IH by (intros; apply H; right; assumption). reflexivity. Qed.
Lemma filter_kids par owned nf l : filter (fun p => owned (par p)) (concat (map (fun c => kids par c nf) l)) = concat (map (fun c => kids par c nf) (filter owned l)).
Proof.
  induction l as [|c l IH]; [reflexivity|]. cbn [map concat filter]. rewrite filter_app, IH.
  assert (K : filter (fun p => owned (par p)) (kids par c nf) = if owned c then kids par c nf else []).
  { unfold kids. induction (seq 0 nf) as [|p s IHs]; [destruct (owned c); reflexivity|]. cbn [filter]. destruct (Nat.eqb_spec (par p) c) as [E|]; [|exact IHs]. cbn [filter]. rewrite E, IHs. destruct (owned c); reflexivity. }
  rewrite K. destruct (owned c); reflexivity.
Qed.
Lemma concat_map_map {A B C} (f : B -> C) (g : A -> list B) l : concat (map (fun a => map f (g a)) l) = map f (concat (map g l)).
Proof. rewrite concat_map, map_map. reflexivity. Qed.
(* region [r'] of the fine mesh against region [r] of the coarse one; [whole]: also for the ghost cells *)
Definition refined (owned : nat -> bool) (t : tree) (nf : nat) (r r' : region) : Prop :=
  rg_id r' = rg_id r /\ region_ok (fun p => owned (parent t p)) nf r' /\
  (forall c p, child t c p -> owned c = true -> (In p (rg_local r') <-> In c (rg_local r))) /\
  (rg_owned r <> [] -> forall c p, child t c p -> (In p (rg_local r') <-> In c (rg_local r))) /\
  (NoDup (rg_local r) -> NoDup (rg_local r')).
Lemma kids_In t nf c p : partition t nf -> In p (kids (parent t) c nf) <-> child t c p.
Proof. intros P. unfold kids. rewrite filter_In, in_seq, Nat.eqb_eq, (child_parent t nf c p P). split; [intros (H & <-)|intros (H & ->)]; split; (lia || reflexivity). Qed.
Lemma NoDup_concat_kids par nf l : NoDup l -> NoDup (concat (map (fun c => kids par c nf) l)).
Proof.
  induction l as [|c l IH]; intros N; [constructor|]. inversion_clear N as [|? ? N1 N2]. cbn [map concat].
  assert (G : forall a b : list nat, NoDup a -> NoDup b -> (forall x, In x a -> ~ In x b) -> NoDup (a ++ b)).
  { induction a as [|x a IHa]; intros b Na Nb D; [exact Nb|]. inversion_clear Na as [|? ? X1 X2]. cbn. constructor; [intros X; apply in_app_or in X; destruct X as [X|X]; [exact (X1 X)|exact (D x (or_introl eq_refl) X)]|]. apply IHa; auto. intros y Hy. apply D. right. exact Hy. }
  apply G; [apply NoDup_filter, seq_NoDup|auto|]. intros p Hp Hq. apply in_concat in Hq. destruct Hq as (k & Hk & Hq). apply in_map_iff in Hk. destruct Hk as (c' & <- & Hc'). unfold kids in *. apply filter_In in Hp, Hq.
  destruct Hp as (_ & Hp), Hq as (_ & Hq). apply Nat.eqb_eq in Hp, Hq. subst. apply N1. congruence.
Qed.
Lemma refine_region_ok bs t nf owned is_owned o2l m tb r : 0 < bs -> partition t nf -> 0 < length t -> (Z.of_nat (length t) <= 2 ^ 31)%Z -> mesh_ok owned (length t) is_owned o2l ->
  ConstructRefineTree bs nf t = Some m -> DetermineCoarseToFineCellMapping bs (fst m) is_owned = Some tb -> region_ok owned (length t) r ->
  exists r', refine_region tb (fine_LocaltoGlobalIDs (t_owned tb)) o2l r = Some r' /\ refined owned t nf r r'.
Proof.
  intros Hb P Pos Sm (Lo & Vo & Vl) Em Et (Rl & Ro). destruct (tree_copies bs t nf P) as (m' & E' & C). assert (m' = m) by congruence. subst m'.
  destruct (tables_built bs nf (length t) (parent t) (fst m) is_owned Hb C Lo Pos Sm) as (tb' & Et' & Lt & Vp & Vow & Vc). assert (tb' = tb) by congruence. subst tb'. clear Et'.
  set (fo := fun p => owned (parent t p)).
  assert (Ids : forall p, p < nf -> fo p = true -> nth_error (fine_LocaltoGlobalIDs (t_owned tb)) p = Some (Some (number fo p))).
  { assert (B : forall p, p < nf -> nth_error (t_owned tb) p = Some (if fo p then 1%R else 0%R)).
    { intros p Hp. rewrite Vow. assert (X : p <? nf = true) by (apply Nat.ltb_lt; exact Hp). rewrite X. unfold fo. rewrite Vo; [reflexivity|]. apply C. exact Hp. }
    assert (Nz : forall b : bool, nonzero (if b then 1%R else 0%R) = b) by (intros b; unfold nonzero; destruct b; destruct (Req_EM_T _ 0); auto; exfalso; lra).
    intros p Hp F. rewrite (ids_spec _ p _ (B p Hp)), Nz, F. do 2 f_equal. clear F. induction p as [|p IH]; [reflexivity|].
    assert (Hp' : p < nf) by lia. rewrite number_S, <- IH by exact Hp'. destruct (nth_error_split _ _ (B p Hp')) as (l1 & l2 & El & Ell). rewrite El. subst p.
    replace (firstn (S (length l1)) (l1 ++ (if fo (length l1) then 1%R else 0%R) :: l2)) with (l1 ++ [if fo (length l1) then 1%R else 0%R]).
    - rewrite firstn_app, firstn_all, Nat.sub_diag, app_nil_r, filter_app, app_length. cbn [filter]. rewrite Nz. destruct (fo (length l1)); reflexivity.
    - rewrite firstn_app, firstn_all2 by lia. replace (S (length l1) - length l1) with 1 by lia. reflexivity. }
  unfold refine_region. destruct (Nat.ltb_spec 0 (length (rg_owned r))) as [H0|H0].
  - assert (E1 : omap (fun g => let* g := g in let* c := nth_error o2l g in let* l := children_of tb c in omap (nth_error (fine_LocaltoGlobalIDs (t_owned tb))) l) (rg_owned r) =
      Some (map (fun c => map (fun p => Some (number fo p)) (kids (parent t) c nf)) (filter owned (rg_local r)))).
    { rewrite Ro. assert (G : forall l, (forall c, In c l -> c < length t /\ owned c = true) -> omap (fun g => let* g := g in let* c := nth_error o2l g in let* l := children_of tb c in omap (nth_error (fine_LocaltoGlobalIDs (t_owned tb))) l) (map (fun c => Some (number owned c)) l) =
        Some (map (fun c => map (fun p => Some (number fo p)) (kids (parent t) c nf)) l)).
      { induction l as [|c l IH]; intros H; [reflexivity|]. destruct (H c (or_introl eq_refl)) as (Hc & Oc). cbn [map omap]. rewrite obind_Some, (Vl c Hc Oc), obind_Some, (Vc c Hc), obind_Some.
        rewrite (omap_all _ (fun p => Some (number fo p))); [rewrite obind_Some, IH; [reflexivity|intros; apply H; right; assumption]|].
        intros p Hp. unfold kids in Hp. apply filter_In in Hp. destruct Hp as (Hp & Ep). apply in_seq in Hp. apply Nat.eqb_eq in Ep. apply Ids; [lia|]. unfold fo. rewrite Ep. exact Oc. }
      apply G. intros c Hc. apply filter_In in Hc. destruct Hc. auto. }
    rewrite E1, obind_Some. rewrite (omap_all _ (fun c => kids (parent t) c nf)) by (intros c Hc; apply Vc; apply Rl; exact Hc). rewrite obind_Some. eexists. split; [reflexivity|].
    assert (Mem : forall c p, child t c p -> (In p (concat (map (fun c0 => kids (parent t) c0 nf) (rg_local r))) <-> In c (rg_local r))).
    { intros c p H. split; [intros X; apply in_concat in X; destruct X as (k & Hk & X); apply in_map_iff in Hk; destruct Hk as (c' & <- & Hc'); apply (kids_In t nf c' p P) in X; rewrite (child_unique t nf P c c' p H X); exact Hc'|].
      intros X. apply in_concat. exists (kids (parent t) c nf). split; [apply in_map_iff; exists c; auto|apply (kids_In t nf c p P); exact H]. }
    split; [reflexivity|]. split; [split|].
    + intros p X. cbn [rg_local] in X. apply in_concat in X. destruct X as (k & Hk & X). apply in_map_iff in Hk. destruct Hk as (c' & <- & _). unfold kids in X. apply filter_In in X. destruct X as (X & _). apply in_seq in X. lia.
    + cbn [rg_owned rg_local]. rewrite filter_kids. apply (concat_map_map (fun p => Some (number fo p)) (fun c => kids (parent t) c nf)).
    + cbn [rg_local]. split; [intros c p H _; apply Mem; exact H|]. split; [intros _; exact Mem|]. apply NoDup_concat_kids.
  - assert (rg_owned r = []) by (destruct (rg_owned r); [reflexivity|cbn in H0; lia]). eexists. split; [reflexivity|]. split; [reflexivity|]. split; [split; [intros p []|reflexivity]|]. split; [|split; [intros X; contradiction|constructor]].
    intros c p _ Oc. cbn. split; [intros []|]. intros X. rewrite H in Ro. assert (Y : In c (filter owned (rg_local r))) by (apply filter_In; auto). destruct (filter owned (rg_local r)); [exact Y|discriminate].
Qed.
Lemma omap_Forall2 {A B} (f : A -> option B) (Q : A -> B -> Prop) l : (forall a, In a l -> exists b, f a = Some b /\ Q a b) -> exists l', omap f l = Some l' /\ Forall2 Q l l'.
Proof.
  induction l as [|a l IH]; intros H; [exists []; split; [reflexivity|constructor]|]. destruct (H a (or_introl eq_refl)) as (b & E & HQ). destruct IH as (l' & E' & F); [intros; apply H; right; assumption|].
  exists (b :: l'). cbn [omap]. rewrite E. cbn [obind]. rewrite E'. split; [reflexivity|]. constructor; assumption.
Qed.
(* Every owned fine cell is in exactly the regions of its parent; so are the ghost cells in regions with an owned cell.
   The refined regions are regions of the fine mesh, to be refined again. *)
Theorem C48_regions_inherited : forall bs t nf owned is_owned owned_to_local regions m tb, 0 < bs -> partition t nf -> 0 < length t -> (Z.of_nat (length t) <= 2 ^ 31)%Z ->
  mesh_ok owned (length t) is_owned owned_to_local -> Forall (region_ok owned (length t)) regions ->
  ConstructRefineTree bs nf t = Some m -> DetermineCoarseToFineCellMapping bs (fst m) is_owned = Some tb ->
  exists regions', CreateRefinedRegionsFromCoarseRDy tb owned_to_local regions = Some regions' /\ Forall2 (refined owned t nf) regions regions'.
Proof.
  intros bs t nf owned io o2l rs m tb Hb P Pos Sm Mk Rk Em Et. apply omap_Forall2. intros r Hr. rewrite Forall_forall in Rk. apply (refine_region_ok bs t nf owned io o2l m tb r); auto.
Qed.
Print Assumptions C48_regions_inherited.

(** ** Repeated refinement *)
(* region of the current mesh against that of the base mesh *)
Definition refined_from_base (owned : nat -> bool) (n : nat) (steps : list step) (r r' : region) : Prop :=
  rg_id r' = rg_id r /\ region_ok (fun p => owned (ancestor steps p)) (cells_after n steps) r' /\
  forall p, p < cells_after n steps -> owned (ancestor steps p) = true -> (In p (rg_local r') <-> In (ancestor steps p) (rg_local r)).
Lemma perform_ok bs n owned s a : 0 < bs -> history bs n owned [s] -> Forall (region_ok owned n) (a_regions a) ->
  (a_level a = 0 \/ exists nb anc, copies 1 n nb anc (a_base_to_current_1 a) /\ copies bs n nb anc (a_base_to_current a) /\ m_cols (a_current_to_base a) = bs * n /\ m_cols (a_current_to_base_1 a) = n) ->
  exists a', perform bs a s = Some a' /\ a_level a' = S (a_level a) /\ m_cols (a_current_to_base a') = bs * s_fine s /\ m_cols (a_current_to_base_1 a') = s_fine s /\
    length (a_solution a') = bs * s_fine s /\ (forall p i, p < s_fine s -> i < bs -> at_cell bs (a_solution a') p i = at_cell bs (s_solution s) (parent (s_tree s) p) i) /\
    Forall2 (refined owned (s_tree s) (s_fine s)) (a_regions a) (a_regions a') /\
    match a_level a with
    | 0 => copies 1 (s_fine s) n (parent (s_tree s)) (a_base_to_current_1 a') /\ copies bs (s_fine s) n (parent (s_tree s)) (a_base_to_current a')
    | S _ => forall nb anc, copies 1 n nb anc (a_base_to_current_1 a) -> copies bs n nb anc (a_base_to_current a) ->
        copies 1 (s_fine s) nb (fun p => anc (parent (s_tree s) p)) (a_base_to_current_1 a') /\ copies bs (s_fine s) nb (fun p => anc (parent (s_tree s) p)) (a_base_to_current a')
    end.
Proof.
  intros Hb (Lt & Pos & Sm & P & Ls & Mk & _) Rk Lev. subst n. unfold perform, RDyPerformAMR. cbn [a_level a_base_to_current a_current_to_base a_base_to_current_1 a_current_to_base_1 a_solution a_regions].
  destruct (tree_copies bs _ _ P) as (m & Em & C). destruct (tree_copies 1 _ _ P) as (m1 & Em1 & C1). rewrite Em, obind_Some, Em1, obind_Some.
  assert (Mk' := Mk). destruct Mk' as (Lo & _). destruct (tables_built bs (s_fine s) (length (s_tree s)) (parent (s_tree s)) (fst m) (s_is_owned s) Hb C Lo Pos Sm) as (tb & Et & _). rewrite Et, obind_Some.
  destruct (C48_regions_inherited bs (s_tree s) (s_fine s) owned (s_is_owned s) (s_owned_to_local s) (a_regions a) m tb) as (rs & Er & Fr); auto. rewrite Er, obind_Some.
  destruct (copies_mult bs _ _ _ _ (s_solution s) C Ls) as (u & Eu & Lu & Vu).
  assert (Up : m_cols (snd m) = bs * s_fine s /\ m_rows (snd m) = bs * length (s_tree s)) by (rewrite (tree_built _ _ P) in Em; injection Em as <-; cbn [snd]; split; apply put_all_dims).
  assert (Up1 : m_cols (snd m1) = s_fine s /\ m_rows (snd m1) = length (s_tree s)) by (rewrite (tree_built _ _ P) in Em1; injection Em1 as <-; cbn [snd]; split; [rewrite (proj2 (put_all_dims _ _))|rewrite (proj1 (put_all_dims _ _))]; cbn; lia).
  destruct (a_level a) as [|lv] eqn:Elv.
  - rewrite obind_Some. cbv beta iota. rewrite Eu, obind_Some. eexists. split; [reflexivity|]. cbn [a_level a_current_to_base a_current_to_base_1 a_solution a_regions a_base_to_current_1 a_base_to_current]. split; [reflexivity|]. split; [apply Up|]. split; [apply Up1|]. split; [exact Lu|]. split; [exact Vu|]. split; [exact Fr|]. split; assumption.
  - destruct Lev as [Lev|(nb & anc & B1 & B & D & D1)]; [discriminate|].
    destruct (copies_compose bs _ _ _ _ _ _ _ C B) as (x & Ex & Cx). destruct (copies_compose 1 _ _ _ _ _ _ _ C1 B1) as (x1 & Ex1 & Cx1). rewrite Ex, obind_Some.
    assert (Ey : exists y, MatMatMult (a_current_to_base a) (snd m) = Some y /\ m_cols y = bs * s_fine s) by (unfold MatMatMult; destruct Up as (U1 & U2); rewrite D, U2, Nat.eqb_refl; eexists; split; [reflexivity|exact U1]).
    assert (Ey1 : exists y, MatMatMult (a_current_to_base_1 a) (snd m1) = Some y /\ m_cols y = s_fine s) by (unfold MatMatMult; destruct Up1 as (U1 & U2); rewrite D1, U2, Nat.eqb_refl; eexists; split; [reflexivity|exact U1]).
    destruct Ey as (y & Ey & Cy), Ey1 as (y1 & Ey1 & Cy1). rewrite Ey, obind_Some, Ex1, obind_Some, Ey1, !obind_Some. cbv beta iota. rewrite Eu, obind_Some. eexists. split; [reflexivity|].
    cbn [a_level a_current_to_base a_current_to_base_1 a_solution a_regions a_base_to_current_1 a_base_to_current]. split; [reflexivity|]. split; [exact Cy|]. split; [exact Cy1|]. split; [exact Lu|]. split; [exact Vu|]. split; [exact Fr|].
    intros nb' anc' B1' B'. destruct (copies_compose bs _ _ _ _ _ _ _ C B') as (x' & Ex' & Cx'). destruct (copies_compose 1 _ _ _ _ _ _ _ C1 B1') as (x1' & Ex1' & Cx1'). assert (x' = x) by congruence. assert (x1' = x1) by congruence. subst. auto.
Qed.
Lemma history_app bs : forall steps n owned s, history bs n owned (steps ++ [s]) <-> history bs n owned steps /\ history bs (cells_after n steps) (fun p => owned (ancestor steps p)) [s].
Proof.
  induction steps as [|x steps IH]; intros n owned s; cbn [app history cells_after ancestor]; [tauto|]. rewrite IH. cbn [history]. tauto.
Qed.
Lemma ancestor_app steps s p : ancestor (steps ++ [s]) p = ancestor steps (parent (s_tree s) p).
Proof. induction steps as [|x steps IH]; [reflexivity|]. cbn [app ancestor]. rewrite IH. reflexivity. Qed.
Lemma cells_after_app s : forall steps n, cells_after n (steps ++ [s]) = s_fine s.
Proof. induction steps as [|x steps IH]; intros n; [reflexivity|]. apply IH. Qed.
Lemma copies_ext bs nf nc f g m : (forall p, f p = g p) -> copies bs nf nc f m -> copies bs nf nc g m.
Proof. intros E (A & B & C & D). split; [exact A|]. split; [exact B|]. split; [intros p Hp; rewrite <- E; auto|]. intros. rewrite <- E. auto. Qed.
Lemma Forall2_mono {A B} (P Q : A -> B -> Prop) l l' : (forall a b, P a b -> Q a b) -> Forall2 P l l' -> Forall2 Q l l'. Proof. intros H F. induction F; constructor; auto. Qed.
Lemma Forall2_trans {A B C} (P : A -> B -> Prop) (Q : B -> C -> Prop) (S : A -> C -> Prop) : (forall a b c, P a b -> Q b c -> S a c) -> forall l l' l'', Forall2 P l l' -> Forall2 Q l' l'' -> Forall2 S l l''.
Proof. intros H l l' l'' F. revert l''. induction F; intros l'' G; inversion_clear G; constructor; eauto. Qed.
(* After any number of refinements, values given on the base mesh arrive at the cells that descend from theirs, regions are
   those of the ancestors, and the solution is that of the parents at the last refinement. *)
Theorem C48_repeated_refinement : forall bs n owned steps a, 0 < bs -> a_level a = 0 -> steps <> [] -> history bs n owned steps -> Forall (region_ok owned n) (a_regions a) ->
  exists a', ofold (perform bs) steps a = Some a' /\ a_level a' = length steps /\
    (forall base, length base = n -> exists v, RDyMapAMRScalarGlobalVecLevel0ToCurrentLevel a' base = Some v /\ length v = cells_after n steps /\ forall p, p < cells_after n steps -> nth p v 0%R = nth (ancestor steps p) base 0%R) /\
    Forall2 (refined_from_base owned n steps) (a_regions a) (a_regions a') /\
    forall before s, steps = before ++ [s] -> forall p i, p < s_fine s -> i < bs -> at_cell bs (a_solution a') p i = at_cell bs (s_solution s) (parent (s_tree s) p) i.
Proof.
  intros bs n owned steps a Hb L0 Ne H Rk.
  assert (G : exists a', ofold (perform bs) steps a = Some a' /\ a_level a' = length steps /\
    (steps <> [] -> m_cols (a_current_to_base a') = bs * cells_after n steps /\ m_cols (a_current_to_base_1 a') = cells_after n steps /\ copies 1 (cells_after n steps) n (ancestor steps) (a_base_to_current_1 a') /\ copies bs (cells_after n steps) n (ancestor steps) (a_base_to_current a')) /\
    Forall2 (refined_from_base owned n steps) (a_regions a) (a_regions a') /\
    forall before s, steps = before ++ [s] -> forall p i, p < s_fine s -> i < bs -> at_cell bs (a_solution a') p i = at_cell bs (s_solution s) (parent (s_tree s) p) i).
  { clear Ne. induction steps as [|s steps IH] using rev_ind.
    - exists a. split; [reflexivity|]. split; [exact L0|]. split; [intros X; contradiction|]. split; [|intros before s X; destruct before; discriminate].
      clear H. induction Rk; constructor; auto. split; [reflexivity|]. split; [assumption|]. intros p _ _. reflexivity.
    - apply history_app in H. destruct H as (H1 & H2). destruct (IH H1) as (a1 & E1 & Lv1 & Cp1 & R1 & _). clear IH.
      assert (Rk1 : Forall (region_ok (fun p => owned (ancestor steps p)) (cells_after n steps)) (a_regions a1)) by (clear -R1; induction R1 as [|r r' l l' X F IH]; constructor; [apply X|assumption]).
      destruct (perform_ok bs _ _ s a1 Hb H2 Rk1) as (a2 & E2 & Lv2 & D & D1 & _ & V2 & R2 & Cp2).
      { destruct steps as [|x steps]; [left; rewrite Lv1; reflexivity|right]. destruct Cp1 as (X1 & X2 & X3 & X4); [discriminate|]. exists n, (ancestor (x :: steps)). auto. }
      exists a2. rewrite ofold_app, E1, obind_Some. cbn [ofold]. rewrite E2, obind_Some. split; [reflexivity|]. split; [rewrite Lv2, Lv1, app_length; cbn; lia|]. rewrite cells_after_app. split; [|split].
      + intros _. split; [exact D|]. split; [exact D1|]. rewrite Lv1 in Cp2. destruct steps as [|x steps].
        * cbn [length] in Cp2. exact Cp2.
        * cbn [length] in Cp2. destruct Cp1 as (X1 & X2 & X3 & X4); [discriminate|]. destruct (Cp2 n (ancestor (x :: steps)) X3 X4) as (Y1 & Y2). split; [eapply copies_ext; [|exact Y1]|eapply copies_ext; [|exact Y2]]; intros p; symmetry; apply (ancestor_app (x :: steps)).
      + revert R1 R2. apply Forall2_trans. intros r r1 r2 (I1 & K1 & M1) (I2 & K2 & M2 & _). unfold refined_from_base. rewrite cells_after_app. split; [congruence|]. split.
        * destruct K2 as (K2 & K3). split; [exact K2|]. rewrite K3. assert (Ex : forall p, owned (ancestor (steps ++ [s]) p) = owned (ancestor steps (parent (s_tree s) p))) by (intros p; rewrite ancestor_app; reflexivity).
          assert (Nm : forall p, number (fun q => owned (ancestor (steps ++ [s]) q)) p = number (fun q => owned (ancestor steps (parent (s_tree s) q))) p) by (intros p; unfold number; f_equal; apply filter_ext; intros q; apply Ex).
          rewrite (filter_ext (fun p => owned (ancestor (steps ++ [s]) p)) (fun p => owned (ancestor steps (parent (s_tree s) p))) Ex). apply map_ext. intros p. rewrite Nm. reflexivity.
        * intros p Hp Op. rewrite ancestor_app in *. destruct H2 as (Lt & Pos & Sm & P & _). assert (Ch := parent_child _ _ _ P Hp). rewrite (M2 _ _ Ch Op). apply M1; [|exact Op]. rewrite <- Lt. apply (child_range _ _ P _ _ Ch).
      + intros before s' X p i Hp Hi. apply app_inj_tail in X. destruct X as (_ & <-). apply V2; assumption. }
  destruct G as (a' & E & Lv & Cp & R & V). exists a'. split; [exact E|]. split; [exact Lv|]. split; [|split; assumption]. intros base Lb. destruct (Cp Ne) as (_ & _ & C1 & _).
  destruct (copies_mult 1 _ _ _ _ base C1) as (v & Ev & Lvv & Vv); [lia|]. exists v. split; [exact Ev|]. split; [lia|]. intros p Hp. specialize (Vv p 0 Hp Nat.lt_0_1). rewrite !Nat.add_0_r, !Nat.mul_1_l in Vv. exact Vv.
Qed.
Print Assumptions C48_repeated_refinement.

(** ** Concrete case *)
(* three triangles (dimension 2) of which the middle one is split in four (with three inner edges, of dimension 1) *)
Definition demo_tree : tree := [(2, [(2, [0])]); (2, [(1, [9; 10; 11]); (2, [1; 3; 4; 2])]); (2, [(2, [5])])].
Example C48_inhabited : partition demo_tree 6 /\ (forall p, child demo_tree 1 p <-> In p [1; 3; 4; 2]) /\
  history 2 3 (fun c => c <? 2) [Step [10; 1; 20; 2; 30; 3]%R demo_tree 6 [true; true; false] [0; 1]] /\
  Forall (region_ok (fun c => c <? 2) 3) [Region 1 [0] [Some 0]; Region 2 [1; 2] [Some 1]].
Proof.
  assert (P : partition demo_tree 6). { unfold partition. cbn. repeat (apply Permutation_cons; [reflexivity|]). apply Permutation_trans with [3; 2; 4; 5]; [apply perm_skip, perm_swap|]. apply perm_swap. }
  split; [exact P|]. split.
  - intros p. rewrite <- (kids_In demo_tree 6 1 p P). cbn. tauto.
  - split; [|constructor; [split; [cbn; intros c [<-|[]]; lia|reflexivity]|]; constructor; [split; [cbn; intros c [<-|[<-|[]]]; lia|reflexivity]|constructor]].
    split; [reflexivity|]. split; [lia|]. split; [lia|]. split; [exact P|]. split; [reflexivity|]. split; [|exact I]. split; [reflexivity|]. split; intros c Hc; do 3 (destruct c as [|c]; [try reflexivity; discriminate|]); lia.
Qed.

(** ** What does not hold *)
(* A process without cells reads and writes outside of its empty arrays. *)
Theorem C48_no_cells_refuted : forall bs, 0 < bs -> exists m, partition [] 0 /\ ConstructRefineTree bs 0 [] = Some m /\ DetermineCoarseToFineCellMapping bs (fst m) [] = None.
Proof. intros bs Hb. eexists. split; [apply perm_nil|]. split; [reflexivity|]. unfold DetermineCoarseToFineCellMapping. cbn -[Nat.div]. rewrite !Nat.mul_0_r. cbn -[Nat.div]. rewrite Nat.div_0_l by lia. reflexivity. Qed.
Print Assumptions C48_no_cells_refuted.
(* The ghost cells of a region in which the process owns no cell are no longer in the region after refinement. *)
Theorem C48_ghost_cells_refuted : exists tb r, region_ok (fun c => c <? 1) 2 r /\ In 1 (rg_local r) /\ 
  (let* m := ConstructRefineTree 1 2 [(2, [(2, [0])]); (2, [(2, [1])])] in DetermineCoarseToFineCellMapping 1 (fst m) [true; false]) = Some tb /\
  CreateRefinedRegionsFromCoarseRDy tb [0] [r] = Some [Region (rg_id r) [] []].
Proof.
  assert (P : partition [(2, [(2, [0])]); (2, [(2, [1])])] 2) by (unfold partition; cbn; apply Permutation_refl).
  destruct (tree_copies 1 _ _ P) as (m & Em & C). destruct (tables_built 1 2 2 _ _ [true; false] Nat.lt_0_1 C eq_refl) as (tb & Et & _); [lia|cbn; lia|].
  exists tb, (Region 7 [1] []). split; [split; [cbn; intros c [<-|[]]; lia|reflexivity]|]. split; [left; reflexivity|]. split; [rewrite Em, obind_Some; exact Et|]. reflexivity.
Qed.
Print Assumptions C48_ghost_cells_refuted.
