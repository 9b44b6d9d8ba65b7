(** C85: refining the mesh during a run. *)
From Coq Require Import ZArith String Ascii.
From Verif Require Import Base MeshMapsProofs SetupModel ConfigModel OutputModel OutputProofs CalendarModel CalendarProperties AMRModel AMRProofs AMRProperties ForcingOptionsModel RefineModel.
Local Notation length := List.length.
Local Notation concat := List.concat.
Local Open Scope nat_scope.

(** ** Specification *)
(* a mesh: one centroid and flag per local cell, and the local numbers of the owned cells *)
Definition good_mesh (m : mesh) : Prop :=
  length (centroids m) = length (is_owned m) /\ NoDup (owned_to_local m) /\ forall l, In l (owned_to_local m) <-> nth_error (is_owned m) l = Some true.
(* the cells refined are the owned cells that satisfy [P] (number among the owned cells, centroid), once each *)
Definition refined_where (m : mesh) (P : nat -> R * R -> Prop) (label : list nat) : Prop :=
  NoDup label /\
  forall p, In p label <-> exists c l xy, nth_error (owned_to_local m) c = Some l /\ nth_error (centroids m) l = Some xy /\ P c xy /\ p = first_cell m + l.
(* What is refined, from the meshes and marks of a history; [last]: the marks since the last refinement. *)
Inductive follows : mesh -> option (list bool) -> list event -> list (list nat) -> Prop :=
| follows_end m last : follows m last [] []
| follows_mark m last a l out : follows m (Some a) l out -> follows m last (Mark (length a) a :: l) out
| follows_marked m a finer l label out : refined_where m (fun c _ => nth_error a c = Some true) label -> follows finer None l out ->
    follows m (Some a) (Refine finer :: l) (label :: out)
| follows_default m finer l label out : refined_where m (fun _ xy => (0 <= fst xy < 1 /\ 3 <= snd xy <= 4)%R) label -> follows finer None l out ->
    follows m None (Refine finer :: l) (label :: out).
(* marks are given for the owned cells of the mesh of the time *)
Fixpoint sized (m : mesh) (l : list event) : Prop :=
  good_mesh m /\
  match l with
  | [] => True
  | Mark size a :: l => size = length (owned_to_local m) /\ length a = size /\ sized m l
  | Refine finer :: l => sized finer l
  end.
(* marks that were replaced before a refinement used them *)
Fixpoint replaced (pending : bool) (l : list event) : nat :=
  match l with
  | [] => 0
  | Mark _ _ :: l => (if pending then 1 else 0) + replaced true l
  | Refine _ :: l => replaced false l
  end.

(** ** Lemmas *)
Lemma rmap_seq {A} (l : list A) : rmap (fun i => of_option (nth_error l i)) (seq 0 (length l)) = Ret l.
Proof.
  destruct l as [|d l]; [reflexivity|]. set (x := d :: l). rewrite (rmap_ret _ (fun i => nth i x d)).
  - f_equal. apply nth_error_ext. intros i. destruct (nth_error (seq 0 (length x)) i) as [j|] eqn:E.
    + assert (i < length x) by (rewrite <- (seq_length (length x) 0); apply nth_error_Some; congruence).
      rewrite nth_error_map, E. cbn [option_map]. rewrite (nth_error_nth' _ 0) in E by (rewrite seq_length; lia). rewrite seq_nth in E by lia. injection E as <-. symmetry. apply nth_error_nth'. lia.
    + rewrite nth_error_map, E. cbn. apply nth_error_None in E. rewrite seq_length in E. symmetry. apply nth_error_None. lia.
  - intros i Hi. apply in_seq in Hi. rewrite (nth_error_nth' x d) by lia. reflexivity.
Qed.
Lemma concat_singletons {A} (f : nat -> bool) (g : nat -> A) l : concat (map (fun c => if f c then [g c] else []) l) = map g (filter f l).
Proof. induction l as [|x l IH]; [reflexivity|]. cbn [map concat filter]. destruct (f x); cbn [app map]; rewrite IH; reflexivity. Qed.
Lemma NoDup_map_on {A B} (f : A -> B) l : NoDup l -> (forall x y, In x l -> In y l -> f x = f y -> x = y) -> NoDup (map f l).
Proof.
  induction 1 as [|x l N ND IH]; intros I; [constructor|]. cbn. constructor; [|apply IH; intros; apply I; cbn; auto]. rewrite in_map_iff. intros (y & E & Hy). apply N. rewrite (I x y); cbn; auto.
Qed.
Lemma marked_label m k a : good_mesh m -> mk_array k = Some a -> length a = length (owned_to_local m) ->
  exists label, CreateAdaptLabelFromMarkedCells m k = Ret label /\ refined_where m (fun c _ => nth_error a c = Some true) label.
Proof.
  intros (Lc & ND & Own) Ea La. unfold CreateAdaptLabelFromMarkedCells. rewrite Ea. 
  rewrite (rmap_ret _ (fun c => if nth c a false then [nth c (owned_to_local m) 0 + first_cell m] else [])).
  - cbn [rbind]. eexists. split; [reflexivity|]. rewrite (concat_singletons (fun c => nth c a false) (fun c => nth c (owned_to_local m) 0 + first_cell m)). split.
    + apply NoDup_map_on; [apply NoDup_filter, seq_NoDup|]. intros x y Hx Hy E. apply filter_In in Hx. apply filter_In in Hy. destruct Hx as (Hx & _), Hy as (Hy & _). apply in_seq in Hx. apply in_seq in Hy.
      apply (NoDup_nth (owned_to_local m) 0); [exact ND|lia|lia|lia].
    + intros p. rewrite in_map_iff. split.
      * intros (c & <- & Hc). apply filter_In in Hc. destruct Hc as (Hc & T). apply in_seq in Hc. assert (El : nth_error (owned_to_local m) c = Some (nth c (owned_to_local m) 0)) by (apply nth_error_nth'; lia).
        assert (In (nth c (owned_to_local m) 0) (owned_to_local m)) as I by (eapply nth_error_In; exact El). apply Own in I.
        destruct (nth_error (centroids m) (nth c (owned_to_local m) 0)) as [xy|] eqn:Exy.
        -- exists c, (nth c (owned_to_local m) 0), xy. split; [exact El|]. split; [exact Exy|]. split; [|lia]. rewrite <- T. apply nth_error_nth'. lia.
        -- apply nth_error_None in Exy. assert (nth c (owned_to_local m) 0 < length (is_owned m)) by (apply nth_error_Some; congruence). lia.
      * intros (c & l & xy & El & _ & T & ->). exists c. rewrite (nth_error_nth _ _ 0 El). split; [lia|]. apply filter_In. split; [|rewrite (nth_error_nth _ _ false T); reflexivity]. apply in_seq. split; [lia|]. cbn. apply nth_error_Some. congruence.
  - intros c Hc. apply in_seq in Hc. cbn. rewrite (nth_error_nth' a false) by lia. cbn. destruct (nth c a false); [|reflexivity]. rewrite (nth_error_nth' _ 0) by lia. reflexivity.
Qed.
Lemma in_box xy : in_default_box xy = true <-> (0 <= fst xy < 1 /\ 3 <= snd xy <= 4)%R.
Proof. unfold in_default_box. rewrite !andb_true_iff, !Rleb_true, !Rltb_true. tauto. Qed.
Lemma default_label m : good_mesh m -> exists label, CreateAdaptLabelInternal m = Ret label /\ refined_where m (fun _ xy => (0 <= fst xy < 1 /\ 3 <= snd xy <= 4)%R) label.
Proof.
  intros (Lc & ND & Own). unfold CreateAdaptLabelInternal.
  rewrite (rmap_ret _ (fun i => if (nth i (is_owned m) false && in_default_box (nth i (centroids m) (0, 0)%R))%bool then [first_cell m + i] else [])).
  - cbn [rbind]. eexists. split; [reflexivity|]. rewrite (concat_singletons (fun i => (nth i (is_owned m) false && in_default_box (nth i (centroids m) (0, 0)%R))%bool) (fun i => first_cell m + i)). split.
    + apply NoDup_map_on; [apply NoDup_filter, seq_NoDup|]. intros; lia.
    + intros p. rewrite in_map_iff. split.
      * intros (l & <- & Hl). apply filter_In in Hl. destruct Hl as (Hl & T). apply in_seq in Hl. apply andb_true_iff in T. destruct T as (To & Tb).
        assert (I : In l (owned_to_local m)) by (apply Own; rewrite <- To; apply nth_error_nth'; lia). apply In_nth_error in I. destruct I as (c & Ec). exists c, l, (nth l (centroids m) (0, 0)%R). split; [exact Ec|]. split; [apply nth_error_nth'; lia|]. split; [apply in_box; exact Tb|reflexivity].
      * intros (c & l & xy & El & Exy & T & ->). exists l. split; [reflexivity|]. assert (I : In l (owned_to_local m)) by (eapply nth_error_In; exact El). apply Own in I. apply filter_In. split.
        -- apply in_seq. split; [lia|]. cbn. apply nth_error_Some. congruence.
        -- rewrite (nth_error_nth _ _ false I), (nth_error_nth _ _ (0, 0)%R Exy). cbn. apply in_box. exact T.
  - intros i Hi. apply in_seq in Hi. rewrite (nth_error_nth' _ false) by lia. cbn. destruct (nth i (is_owned m) false); [|reflexivity]. rewrite (nth_error_nth' _ (0, 0)%R) by lia. cbn. reflexivity.
Qed.

(** ** Marks *)
(* In every history of marks and refinements, in every build, a refinement refines exactly the owned cells of the last
   marks, and marks are used once; a refinement without marks refines the owned cells of a fixed box. *)
Theorem C85_history : forall debug m l, sized m l ->
  exists m' k out, events debug (m, no_marks, []) l = Ret (m', k, out) /\ follows m None l out /\ mk_lost k = replaced false l.
Proof.
  intros debug m l H.
  assert (G : forall l m k out, sized m l -> (mk_flag k = true -> exists a, mk_array k = Some a /\ length a = length (owned_to_local m)) -> (mk_flag k = false -> mk_array k = None) ->
    exists m' k' out', events debug (m, k, out) l = Ret (m', k', out ++ out') /\ follows m (mk_array k) l out' /\ mk_lost k' = mk_lost k + replaced (mk_flag k) l).
  { clear m l H. induction l as [|e l IH]; intros m k out H T F.
    - exists m, k, []. rewrite app_nil_r. split; [reflexivity|]. split; [constructor|cbn; lia].
    - destruct H as (Gm & H). destruct e as [size a|finer]; cbn [events event_step].
      + destruct H as (-> & La & H). unfold RDyMarkOwnedCellsForAMR. rewrite Nat.eqb_refl, Bool.orb_true_r. cbn [check]. rewrite <- La, rmap_seq. cbn [rbind].
        match goal with |- context [events debug (m, ?k1, out) l] => set (k' := k1) end.
        destruct (IH m k' out H) as (m' & k'' & out' & E & Fo & Lo); [intros _; exists a; auto|discriminate|]. rewrite E. exists m', k'', out'. split; [reflexivity|]. split; [constructor; exact Fo|].
        rewrite Lo. cbn [mk_lost mk_flag k' replaced]. destruct (mk_flag k) eqn:Ek; [destruct (T eq_refl) as (b & Eb & _); rewrite Eb; lia|rewrite (F eq_refl); lia].
      + unfold adapt_label. destruct (mk_flag k) eqn:Ek.
        * destruct (T eq_refl) as (a & Ea & La). destruct (marked_label m k a Gm Ea La) as (label & -> & R). cbn [rbind]. cbn [fst snd].
          destruct (IH finer (Marks false None (mk_lost k)) (out ++ [label]) H) as (m' & k' & out' & E & Fo & Lo); [discriminate|reflexivity|]. rewrite E. exists m', k', (label :: out'). rewrite <- app_assoc. split; [reflexivity|]. split; [rewrite Ea; constructor; assumption|exact Lo].
        * destruct (default_label m Gm) as (label & -> & R). cbn [rbind]. cbn [fst snd]. assert (Ea := F eq_refl).
          destruct (IH finer k (out ++ [label]) H) as (m' & k' & out' & E & Fo & Lo); [congruence|auto|]. rewrite E. exists m', k', (label :: out'). rewrite <- app_assoc. split; [reflexivity|]. rewrite Ea in *. split; [constructor; assumption|]. cbn [replaced]. rewrite Ek in Lo. exact Lo. }
  destruct (G l m no_marks [] H) as (m' & k & out & E & Fo & Lo); [discriminate|reflexivity|]. exists m', k, out. auto.
Qed.
Print Assumptions C85_history.
(* Marking right before refining: nothing else of the past matters *)
Theorem C85_marked : forall debug m a k, good_mesh m -> length a = length (owned_to_local m) ->
  exists k' label k'', RDyMarkOwnedCellsForAMR debug m (length a) a k = Ret k' /\ adapt_label m k' = Ret (label, k'') /\
    refined_where m (fun c _ => nth_error a c = Some true) label /\ mk_flag k'' = false.
Proof.
  intros debug m a k Gm La. unfold RDyMarkOwnedCellsForAMR. rewrite <- La, Nat.eqb_refl, Bool.orb_true_r. cbn [check]. rewrite rmap_seq. cbn [rbind]. eexists.
  match goal with |- context [Ret ?k1 = Ret _] => destruct (marked_label m k1 a Gm eq_refl La) as (label & E & R) end.
  exists label. eexists. split; [reflexivity|]. unfold adapt_label. cbn [mk_flag]. rewrite E. cbn [rbind]. split; [reflexivity|]. split; [exact R|reflexivity].
Qed.
Print Assumptions C85_marked.
(* a process with three cells, the second a ghost *)
Definition demo_mesh : mesh := Mesh 0 [true; false; true] [(1 / 2, 7 / 2); (3 / 2, 7 / 2); (1 / 2, 9 / 2)]%R [0; 2].
Lemma demo_good : good_mesh demo_mesh.
Proof.
  split; [reflexivity|]. split; [repeat constructor; cbn; intuition lia|]. intros l. split; [intros [<-|[<-|[]]]; reflexivity|]. do 3 (destruct l as [|l]; [intros E; cbn in *; (discriminate || auto)|]). cbn. destruct l; discriminate.
Qed.
Example C85_demo : sized demo_mesh [Mark 2 [true; false]; Mark 2 [false; true]; Refine demo_mesh; Refine demo_mesh] /\
  exists k, events true (demo_mesh, no_marks, []) [Mark 2 [true; false]; Mark 2 [false; true]; Refine demo_mesh; Refine demo_mesh] = Ret (demo_mesh, k, [[2]; [0]]) /\ mk_lost k = 1.
Proof.
  split; [cbn [sized]; do 8 (split; [first [exact demo_good | reflexivity]|]); split; [exact demo_good|exact I]|]. exists (Marks false None 1). split; [|reflexivity]. cbn. unfold adapt_label, CreateAdaptLabelInternal. cbn. unfold in_default_box. cbn.
  replace (Rleb 0 (1 / 2)) with true by (symmetry; apply Rleb_true; lra). replace (Rltb (1 / 2) 1) with true by (symmetry; apply Rltb_true; lra).
  replace (Rleb 3 (7 / 2)) with true by (symmetry; apply Rleb_true; lra). replace (Rleb (7 / 2) 4) with true by (symmetry; apply Rleb_true; lra).
  replace (Rleb (9 / 2) 4) with false by (unfold Rleb; destruct (Rle_dec (9 / 2) 4); [lra|reflexivity]). rewrite !Bool.andb_false_r. reflexivity.
Qed.
(* Asking for a refinement without having marked any cell does not leave the mesh as it is: cells of a fixed place are
   refined.  The same happens when marks were given for an earlier refinement only. *)
Theorem C85_unmarked_refuted : exists label k, good_mesh demo_mesh /\ adapt_label demo_mesh no_marks = Ret (label, k) /\ label <> [] /\
  exists m' k' out, events true (demo_mesh, no_marks, []) [Mark 2 [false; false]; Refine demo_mesh; Refine demo_mesh] = Ret (m', k', [[]; out]) /\ out = [0].
Proof.
  assert (E : CreateAdaptLabelInternal demo_mesh = Ret [0]).
  { unfold CreateAdaptLabelInternal. cbn. unfold in_default_box. cbn.
    replace (Rleb 0 (1 / 2)) with true by (symmetry; apply Rleb_true; lra). replace (Rltb (1 / 2) 1) with true by (symmetry; apply Rltb_true; lra).
    replace (Rleb 3 (7 / 2)) with true by (symmetry; apply Rleb_true; lra). replace (Rleb (7 / 2) 4) with true by (symmetry; apply Rleb_true; lra).
    replace (Rleb (9 / 2) 4) with false by (unfold Rleb; destruct (Rle_dec (9 / 2) 4); [lra|reflexivity]). rewrite !Bool.andb_false_r. reflexivity. }
  exists [0], no_marks. split; [exact demo_good|]. split; [unfold adapt_label; cbn [mk_flag no_marks]; rewrite E; reflexivity|]. split; [discriminate|].
  exists demo_mesh, (Marks false None 0), [0]. split; [|reflexivity]. cbn [events event_step].
  assert (E1 : RDyMarkOwnedCellsForAMR true demo_mesh 2 [false; false] no_marks = Ret (Marks true (Some [false; false]) 0)) by reflexivity.
  assert (E2 : CreateAdaptLabelFromMarkedCells demo_mesh (Marks true (Some [false; false]) 0) = Ret []) by reflexivity.
  rewrite E1. cbn [rbind event_step]. unfold adapt_label. cbn [mk_flag]. rewrite E2. cbn [rbind fst snd mk_flag event_step]. unfold adapt_label. cbn [mk_flag]. rewrite E. reflexivity.
Qed.
Print Assumptions C85_unmarked_refuted.
(* Marks for fewer cells than the process owns: refused in debugging builds; in optimised builds taken, and the refinement
   reads behind the end of the array.  (The flag is set even when the marks are refused.) *)
Theorem C85_few_marks_refuted : forall m a k, length a < length (owned_to_local m) ->
  RDyMarkOwnedCellsForAMR true m (length a) a k = Error /\
  (good_mesh m -> exists k', RDyMarkOwnedCellsForAMR false m (length a) a k = Ret k' /\ adapt_label m k' = UB).
Proof.
  intros m a k La. unfold RDyMarkOwnedCellsForAMR. split.
  - cbn [negb orb]. destruct (Nat.eqb_spec (length (owned_to_local m)) (length a)); [lia|reflexivity].
  - intros (_ & _ & _). cbn [negb orb check]. rewrite rmap_seq. cbn [rbind]. eexists. split; [reflexivity|]. unfold adapt_label. cbn [mk_flag]. unfold CreateAdaptLabelFromMarkedCells. cbn [mk_array of_option].
    assert (G : forall n s, s <= length a -> length a < s + n -> s + n <= length (owned_to_local m) ->
      rmap (fun c => let! r := of_option (nth_error a c) in if r then let! l := of_option (nth_error (owned_to_local m) c) in Ret [l + first_cell m] else Ret []) (seq s n) = UB).
    { induction n as [|n IH]; intros s H1 H2 H3; [lia|]. cbn [seq rmap]. destruct (nth_error a s) as [r|] eqn:E; cbn [of_option]; [|reflexivity].
      assert (s < length a) by (apply nth_error_Some; congruence). destruct r.
      - rewrite (nth_error_nth' _ 0) by lia. cbn [of_option]. rewrite IH by lia. reflexivity.
      - rewrite IH by lia. reflexivity. }
    cbn [rbind]. rewrite (G (length (owned_to_local m)) 0) by lia. reflexivity.
Qed.
Print Assumptions C85_few_marks_refuted.
Example C85_few_marks : length [true] < length (owned_to_local demo_mesh) /\ good_mesh demo_mesh. Proof. split; [cbn; lia|exact demo_good]. Qed.

(** ** The driver *)
Local Open Scope string_scope.
(* Both options: the data set of the given directory, from the given minute on.  A date without directory is refused; a
   directory without date is not noticed. *)
Theorem C85_options : forall a,
  match a_ints a "-refine_data_start_date", a_str a "-refine_data_dir" with
  | Some (y :: mo :: d :: h :: mi :: _), Some dir => (Z.of_nat (String.length dir) < PETSC_MAX_PATH_LEN)%Z -> ParseRefinementDataOptions a = Ret (RefinementData dir true (forcing_date y mo d h mi))
  | Some _, None => ParseRefinementDataOptions a = Error
  | None, _ => exists r, ParseRefinementDataOptions a = Ret r /\ rf_defined r = false
  | Some _, Some _ => ParseRefinementDataOptions a = UB
  end.
Proof.
  intros a. unfold ParseRefinementDataOptions, GetIntArray, GetString. destruct (a_ints a "-refine_data_start_date") as [l|]; cbn [option_map].
  - destruct (a_str a "-refine_data_dir") as [dir|]; cbn [option_map is_some check].
    + destruct l as [|y [|mo [|d [|h [|mi l]]]]]; try reflexivity. intros L. cbn [firstn date_of of_option or_else]. rewrite snprintf_fits by exact L. reflexivity.
    + destruct l as [|y [|mo [|d [|h [|mi l]]]]]; reflexivity.
  - eexists. split; reflexivity.
Qed.
Print Assumptions C85_options.
(* A start date of fewer than five numbers is not refused: values that were never set become part of the date. *)
Theorem C85_short_date_refuted : exists a, a_ints a "-refine_data_start_date" = Some [2026; 11; 16]%Z /\ a_str a "-refine_data_dir" = Some "data" /\ ParseRefinementDataOptions a = UB.
Proof. exists (Args (fun n => if String.eqb n "-refine_data_dir" then Some "data" else None) (fun _ => None) (fun _ => None) (fun _ => Some [2026; 11; 16]%Z) (fun _ => None)). repeat split. Qed.
Print Assumptions C85_short_date_refuted.

Lemma mktime_minute t : mktime (Tm (tm_year t) (tm_mon t) (tm_mday t) (tm_hour t) (tm_min t + 1) (tm_sec t)) = (mktime t + 60)%Z.
Proof. unfold mktime, day_number. cbn [tm_year tm_mon tm_mday tm_hour tm_min tm_sec]. lia. Qed.
Lemma next_minute_later d e : valid_date d -> later 60 d e -> next_minute (tm_of d) = tm_of e.
Proof.
  intros V L. destruct (later_spec 60 d e V L) as (Ve & Se). unfold next_minute. rewrite <- (localtime_mktime e Ve). f_equal. rewrite Se. apply mktime_minute.
Qed.

(* the marks from a data set on level 0: [anc]: the cell of level 0 that a cell is a piece of *)
Definition wanted (v : list R) (anc : nat -> nat) (areas : list R) (r : list bool) : Prop :=
  length r = length areas /\ forall p, p < length areas -> (nth p r false = true <-> (0 < nth (anc p) v 0 /\ 1 / 8 < nth p areas 0)%R).
Lemma dataset_marks_ok areas v u anc : length u = length areas -> (forall p, p < length areas -> nth p u 0%R = nth (anc p) v 0%R) -> exists r, dataset_marks areas u = Ret r /\ wanted v anc areas r.
Proof.
  intros L E. unfold dataset_marks. rewrite (rmap_ret _ (fun i => (Rltb 0%R (nth (anc i) v 0%R) && Rltb (1 / 4 / 2)%R (nth i areas 0%R))%bool)).
  - eexists. split; [reflexivity|]. split; [rewrite map_length, seq_length; reflexivity|]. intros p Hp.
    rewrite (nth_indep _ false (Rltb 0%R (nth (anc 0) v 0%R) && Rltb (1 / 4 / 2)%R (nth 0 areas 0%R))%bool) by (rewrite map_length, seq_length; exact Hp).
    rewrite (map_nth (fun i => (Rltb 0%R (nth (anc i) v 0%R) && Rltb (1 / 4 / 2)%R (nth i areas 0%R))%bool)), seq_nth by exact Hp. cbn [plus]. rewrite andb_true_iff, !Rltb_true. replace (1 / 4 / 2)%R with (1 / 8)%R by field. tauto.
  - intros i Hi. apply in_seq in Hi. rewrite (nth_error_nth' u 0%R), (nth_error_nth' areas 0%R) by lia. cbn [of_option rbind]. rewrite E by lia. reflexivity.
Qed.
(* The levels of a run: each mesh is what refinement made of the one before; areas of all cells.  [n]: cells of level 0 *)
Definition good_levels (bs n : nat) (levels : list level) : Prop :=
  history bs n (fun _ => true) (map lv_step levels) /\
  forall before lv after, levels = (before ++ lv :: after)%list -> length (lv_areas lv) = cells_after n (map lv_step before) /\ length (lv_x lv) = cells_after n (map lv_step before) /\ length (lv_y lv) = cells_after n (map lv_step before).
Lemma history_prefix bs : forall l1 l2 n owned, history bs n owned (l1 ++ l2) -> history bs n owned l1.
Proof. induction l1 as [|s l1 IH]; intros l2 n owned H; [exact I|]. cbn [app history] in *. destruct H as (H1 & H2 & H3 & H4 & H5 & H6 & H7). repeat (split; [assumption|]). apply (IH l2), H7. Qed.
Lemma next_amr bs n (a0 a : amr) l1 s l2 : 0 < bs -> a_level a0 = 0 -> Forall (region_ok (fun _ => true) n) (a_regions a0) -> history bs n (fun _ => true) (l1 ++ s :: l2) ->
  ofold (perform bs) l1 a0 = Some a -> exists a', perform bs a s = Some a' /\ ofold (perform bs) (l1 ++ [s]) a0 = Some a'.
Proof.
  intros Hb L0 Rk H E. destruct (C48_repeated_refinement bs n (fun _ => true) (l1 ++ [s]) a0) as (a' & E' & _); auto.
  - destruct l1; discriminate.
  - apply (history_prefix bs _ l2). rewrite <- app_assoc. exact H.
  - exists a'. split; [|exact E']. rewrite ofold_app, E, obind_Some in E'. cbn [ofold] in E'. destruct (perform bs a s); [rewrite obind_Some in E'; exact E'|discriminate].
Qed.
(* The k-th refinement of a run with a data set uses the file of the k-th minute after the start, and refines exactly the
   cells larger than 1/8 that lie in a cell of the first mesh where the file has a positive value, at every level. *)
Theorem C85_driver : forall w bs n opts y mo d h mi more dir a levels,
  a_ints opts "-refine_data_start_date" = Some (y :: mo :: d :: h :: mi :: more) -> a_str opts "-refine_data_dir" = Some dir -> (Z.of_nat (String.length dir) < PETSC_MAX_PATH_LEN)%Z ->
  valid_date (Date y mo d h mi 0) -> 0 < bs -> a_level a = 0 -> Forall (region_ok (fun _ => true) n) (a_regions a) -> good_levels bs n levels ->
  (forall k e, k < length levels -> later (60 * k) (Date y mo d h mi 0) e ->
     (Z.of_nat (String.length (hourly_name dir (w_id_type w) e)) < PETSC_MAX_PATH_LEN - 1)%Z /\ exists v, w_file w (hourly_name dir (w_id_type w) e) = Some v /\ length v = n) ->
  exists log, driver w bs opts a levels = Ret log /\ length log = length levels /\
    forall before lv after, levels = (before ++ lv :: after)%list ->
      exists e v r, later (60 * length before) (Date y mo d h mi 0) e /\ w_file w (hourly_name dir (w_id_type w) e) = Some v /\
        nth_error log (length before) = Some (Some (hourly_name dir (w_id_type w) e), r) /\ wanted v (ancestor (map lv_step before)) (lv_areas lv) r.
Proof.
  intros w bs n opts y mo d h mi more dir a levels Ed Er Lr Vd Hb L0 Rk (Hist & Sizes) Files. set (d0 := Date y mo d h mi 0) in *.
  assert (Eo := C85_options opts). rewrite Ed, Er in Eo. specialize (Eo Lr). unfold driver. rewrite Eo. cbn [rbind rf_defined]. clear Eo.
  set (rd := RefinementData dir true (forcing_date y mo d h mi)).
  assert (G : forall todo past date ak, levels = (past ++ todo)%list -> past <> [] -> (exists e, later (60 * (length past - 1)) d0 e /\ date = tm_of e) -> ofold (perform bs) (map lv_step past) a = Some ak ->
    exists log, loop w bs rd date ak todo = Ret log /\ length log = length todo /\
      forall before lv after, todo = (before ++ lv :: after)%list -> exists e v r, later (60 * (length past + length before)) d0 e /\ w_file w (hourly_name dir (w_id_type w) e) = Some v /\
        nth_error log (length before) = Some (Some (hourly_name dir (w_id_type w) e), r) /\ wanted v (ancestor (map lv_step (past ++ before))) (lv_areas lv) r).
  { induction todo as [|lv todo IH]; intros past date ak El Ne (e & Le & ->) Ea.
    - exists []. split; [reflexivity|]. split; [reflexivity|]. intros before x after X. destruct before; discriminate.
    - destruct (later_spec _ _ _ Vd Le) as (Ve & _). destruct (later_exists 60 e Ve) as (f & Lf).
      assert (Lf' : later (60 * length past) d0 f) by (assert (X := later_trans _ _ _ _ _ Le Lf); replace (60 + 60 * (length past - 1)) with (60 * length past) in X by (destruct past; [contradiction|cbn [length]; lia]); exact X).
      destruct (later_spec _ _ _ Vd Lf') as (Vf & _). assert (Lt : length past < length levels) by (rewrite El, app_length; cbn; lia). destruct (Files (length past) f Lt Lf') as (Fit & v & Ev & Lv).
      cbn [loop]. unfold loop_refinement. cbn [rf_defined rd rf_dir]. unfold DetermineDatasetFilename.
      assert (En : RDyForcingDetermineDatasetFilename (next_minute (tm_of e)) dir (w_id_type w) = (tm_of f, hourly_name dir (w_id_type w) f)).
      { rewrite (next_minute_later e f Ve Lf). assert (X := forcing_files f dir (w_id_type w) 0 f Vf (later_0 f)). cbn [forcing_file] in X. rewrite X. f_equal. apply snprintf_fits. exact Fit. }
      rewrite En, Ev. cbn [rbind].
      destruct (C48_repeated_refinement bs n (fun _ => true) (map lv_step past) a) as (a1 & E1 & _ & Map & _); auto.
      { destruct past; [contradiction|discriminate]. } { apply (history_prefix bs _ (map lv_step (lv :: todo))). rewrite <- map_app, <- El. exact Hist. }
      assert (a1 = ak) by congruence. subst a1. destruct (Map v Lv) as (u & Eu & Lu & Vu). rewrite Eu. cbn [of_option rbind].
      destruct (Sizes past lv todo El) as (Sa & _). destruct (dataset_marks_ok (lv_areas lv) v u (ancestor (map lv_step past))) as (r & Em & Wr); [congruence|intros p Hp; apply Vu; lia|]. rewrite Em. cbn [rbind].
      destruct (next_amr bs n a ak (map lv_step past) (lv_step lv) (map lv_step todo)) as (a2 & Ep & E2); auto.
      { rewrite El in Hist. rewrite map_app in Hist. exact Hist. }
      rewrite Ep. cbn [of_option rbind fst snd].
      destruct (IH (past ++ [lv])%list (tm_of f) a2) as (log & Elog & Llog & Spec).
      { rewrite <- app_assoc. exact El. } { destruct past; discriminate. } { exists f. split; [|reflexivity]. rewrite app_length. cbn [length]. replace (length past + 1 - 1) with (length past) by lia. exact Lf'. } { rewrite map_app. exact E2. }
      rewrite Elog. cbn [rbind]. exists ((Some (hourly_name dir (w_id_type w) f), r) :: log). split; [reflexivity|]. split; [cbn; lia|].
      intros before x after X. destruct before as [|b before].
      + injection X as <- <-. exists f, v, r. cbn [length]. rewrite Nat.add_0_r, app_nil_r. split; [exact Lf'|]. split; [exact Ev|]. split; [reflexivity|exact Wr].
      + injection X as <- X. destruct (Spec before x after X) as (e' & v' & r' & A & B & C & D). exists e', v', r'. rewrite <- app_assoc in D. rewrite app_length in A. cbn [length] in *. replace (length past + S (length before)) with (length past + 1 + length before) by lia. auto. }
  destruct levels as [|lv levels].
  - exists []. split; [reflexivity|]. split; [reflexivity|]. intros before x after X. destruct before; discriminate.
  - unfold first_refinement, DetermineDatasetFilename. cbn [rf_date rf_dir rd]. destruct (Files 0 d0) as (Fit & v & Ev & Lv); [cbn; lia|constructor|].
    assert (X := forcing_files d0 dir (w_id_type w) 0 d0 Vd (later_0 d0)). cbn [forcing_file] in X. change (tm_of d0) with (forcing_date y mo d h mi) in X at 1. rewrite X, snprintf_fits by exact Fit. clear X. rewrite Ev. cbn [rbind].
    destruct (Sizes [] lv levels eq_refl) as (Sa & _). cbn [map cells_after] in Sa. destruct (dataset_marks_ok (lv_areas lv) v v (fun p => p)) as (r & Em & Wr); [congruence|reflexivity|]. rewrite Em. cbn [rbind].
    destruct (next_amr bs n a a [] (lv_step lv) (map lv_step levels)) as (a2 & Ep & E2); auto. rewrite Ep. cbn [of_option rbind fst snd].
    destruct (G levels [lv] (tm_of d0) a2) as (log & Elog & Llog & Spec); auto; [discriminate|exists d0; split; [constructor|reflexivity]|].
    rewrite Elog. cbn [rbind]. exists ((Some (hourly_name dir (w_id_type w) d0), r) :: log). split; [reflexivity|]. split; [cbn; lia|]. intros before x after X. destruct before as [|b before].
    + injection X as <- <-. exists d0, v, r. split; [constructor|]. split; [exact Ev|]. split; [reflexivity|exact Wr].
    + injection X as <- X. destruct (Spec before x after X) as (e' & v' & r' & A & B & C & D). exists e', v', r'. auto.
Qed.
Print Assumptions C85_driver.
(* Without a start date nothing is refined before the first interval, and after each interval exactly the cells with
   centroids inside a fixed box are; also when a directory was given. *)
Theorem C85_driver_box : forall w bs n opts a levels, a_ints opts "-refine_data_start_date" = None -> 0 < bs -> a_level a = 0 -> Forall (region_ok (fun _ => true) n) (a_regions a) -> good_levels bs n levels ->
  exists log, driver w bs opts a levels = Ret log /\ length log = length levels /\
    forall k lv, nth_error levels k = Some lv -> exists r, nth_error log k = Some (None, r) /\ length r = length (lv_x lv) /\
      forall p, p < length (lv_x lv) -> (nth p r false = true <-> (0 < nth p (lv_x lv) 0 < 1 /\ 3 < nth p (lv_y lv) 0 < 4)%R).
Proof.
  intros w bs n opts a levels Eo Hb L0 Rk (Hist & Sizes). assert (Eo' := C85_options opts). rewrite Eo in Eo'. destruct Eo' as (rd & Ep & Ed). unfold driver. rewrite Ep. cbn [rbind]. rewrite Ed. generalize (rf_date rd). intros date.
  assert (G : forall todo past ak, levels = (past ++ todo)%list -> ofold (perform bs) (map lv_step past) a = Some ak ->
    exists log, loop w bs rd date ak todo = Ret log /\ length log = length todo /\
      forall k lv, nth_error todo k = Some lv -> exists r, nth_error log k = Some (None, r) /\ length r = length (lv_x lv) /\
        forall p, p < length (lv_x lv) -> (nth p r false = true <-> (0 < nth p (lv_x lv) 0 < 1 /\ 3 < nth p (lv_y lv) 0 < 4)%R)).
  { induction todo as [|lv todo IH]; intros past ak El Ea.
    - exists []. split; [reflexivity|]. split; [reflexivity|]. intros [|k] lv X; discriminate.
    - cbn [loop]. unfold loop_refinement. rewrite Ed. destruct (Sizes past lv todo El) as (_ & Sx & Sy).
      assert (Em : exists r, box_marks (lv_x lv) (lv_y lv) = Ret r /\ length r = length (lv_x lv) /\ forall p, p < length (lv_x lv) -> (nth p r false = true <-> (0 < nth p (lv_x lv) 0 < 1 /\ 3 < nth p (lv_y lv) 0 < 4)%R)).
      { unfold box_marks. set (g := fun i => (Rltb 0%R (nth i (lv_x lv) 0%R) && Rltb (nth i (lv_x lv) 0%R) 1%R && Rltb 3%R (nth i (lv_y lv) 0%R) && Rltb (nth i (lv_y lv) 0%R) 4%R)%bool). rewrite (rmap_ret _ g).
        - eexists. split; [reflexivity|]. split; [rewrite map_length, seq_length; reflexivity|]. intros p Hp. rewrite (nth_indep _ false (g 0)) by (rewrite map_length, seq_length; exact Hp). rewrite (map_nth g), seq_nth by exact Hp. cbn [plus]. unfold g. rewrite !andb_true_iff, !Rltb_true. tauto.
        - intros i Hi. apply in_seq in Hi. rewrite (nth_error_nth' (lv_x lv) 0%R), (nth_error_nth' (lv_y lv) 0%R) by lia. reflexivity. }
      destruct Em as (r & Em & Wr). rewrite Em. cbn [rbind].
      destruct (next_amr bs n a ak (map lv_step past) (lv_step lv) (map lv_step todo)) as (a2 & Ep2 & E2); auto. { rewrite El in Hist. rewrite map_app in Hist. exact Hist. }
      rewrite Ep2. cbn [of_option rbind fst snd]. destruct (IH (past ++ [lv])%list a2) as (log & Elog & Llog & Spec). { rewrite <- app_assoc. exact El. } { rewrite map_app. exact E2. }
      rewrite Elog. cbn [rbind]. exists ((None, r) :: log). split; [reflexivity|]. split; [cbn; lia|]. intros [|k] x X; [injection X as <-; exists r; auto|apply Spec; exact X]. }
  apply (G levels [] a); reflexivity.
Qed.
Print Assumptions C85_driver_box.
(* A run that refines twice: the middle one of three cells, then nothing *)
Definition demo_levels : list level :=
  [Level [1 / 16; 1; 1]%R [1 / 2; 3 / 2; 5 / 2]%R [7 / 2; 7 / 2; 7 / 2]%R (Step [10; 20; 30]%R demo_tree 6 [true; true; true] [0; 1; 2]);
   Level [1 / 16; 1 / 4; 1 / 4; 1 / 4; 1 / 4; 1]%R (repeat 0%R 6) (repeat 0%R 6) (Step (repeat 1%R 6) (map (fun c => (2, [(2, [c])])) (seq 0 6)) 6 (repeat true 6) (seq 0 6))].
Definition demo_args : args :=
  Args (fun n => if String.eqb n "-refine_data_dir" then Some "data" else None) (fun _ => None) (fun _ => None) (fun n => if String.eqb n "-refine_data_start_date" then Some [2026; 12; 31; 23; 59]%Z else None) (fun _ => None).
Definition no_mat : mat := MatCreate 0 0.
Lemma number_all c : number (fun _ => true) c = c.
Proof. unfold number. replace (filter (fun _ => true) (seq 0 c)) with (seq 0 c) by (induction (seq 0 c) as [|x l IH]; [reflexivity|cbn; f_equal; exact IH]). apply seq_length. Qed.
Example C85_driver_demo : good_levels 1 3 demo_levels /\ valid_date (Date 2026 12 31 23 59 0) /\ Forall (region_ok (fun _ => true) 3) (a_regions (Amr 0 no_mat no_mat no_mat no_mat [] [Region 1 [1] [Some 1]])) /\
  (forall k e, k < length demo_levels -> later (60 * k) (Date 2026 12 31 23 59 0) e ->
     (Z.of_nat (String.length (hourly_name "data" "int32" e)) < PETSC_MAX_PATH_LEN - 1)%Z /\ exists v, w_file (World (fun _ => Some [0; 2; 0]%R) "int32") (hourly_name "data" "int32" e) = Some v /\ length v = 3).
Proof.
  assert (V : valid_date (Date 2026 12 31 23 59 0)) by (split; [cbn; lia|]; split; [exists 31%Z; split; [apply dec|cbn; lia]|cbn; lia]).
  split; [|split; [exact V|split]].
  - split.
    + assert (P : partition demo_tree 6) by apply C48_inhabited. cbn [demo_levels map lv_step history s_tree s_solution s_fine s_is_owned s_owned_to_local].
      split; [reflexivity|]. split; [lia|]. split; [lia|]. split; [exact P|]. split; [reflexivity|]. split; [split; [reflexivity|]; split; intros c Hc; [do 3 (destruct c as [|c]; [reflexivity|]); lia|intros _; rewrite number_all; do 3 (destruct c as [|c]; [reflexivity|]); lia]|].
      split; [reflexivity|]. split; [lia|]. split; [lia|]. split; [unfold partition; cbn; apply Permutation_refl|]. split; [reflexivity|]. split; [|exact I].
      split; [reflexivity|]; split; intros c Hc; [do 6 (destruct c as [|c]; [reflexivity|]); lia|intros _; rewrite number_all; do 6 (destruct c as [|c]; [reflexivity|]); lia].
    + intros before lv after E. destruct before as [|b [|b' before]]; unfold demo_levels in E.
      * injection E as <- <-. repeat split.
      * injection E as <- <- <-. repeat split.
      * injection E as _ _ E. destruct before; discriminate.
  - constructor; [|constructor]. split; [cbn; intros c [<-|[]]; lia|]. reflexivity.
  - assert (L0 : forall e, later 0 (Date 2026 12 31 23 59 0) e -> e = Date 2026 12 31 23 59 0) by (intros e L; inversion L; reflexivity).
    assert (K : exists e, later 60 (Date 2026 12 31 23 59 0) e /\ e = Date 2027 1 1 0 0 0).
    { destruct (later_exists 60 _ V) as (e & L). exists e. split; [exact L|]. destruct (later_spec _ _ _ V L) as (Ve & _). assert (X := next_minute_later _ _ V L). replace (next_minute _) with (Tm 127 0 1 0 0 0) in X by (vm_compute; reflexivity). destruct e as [y m d h mi s]. unfold tm_of in X. cbn [year month day hour minute second] in X. injection X as X1 X2 <- <- <- <-. f_equal; lia. }
    destruct K as (e1 & K1 & K2). intros k e Hk L. split; [|eexists; split; reflexivity].
    assert (e = Date 2026 12 31 23 59 0 \/ e = Date 2027 1 1 0 0 0) as [-> | ->].
    { destruct k as [|[|k]]; [left; apply L0; exact L|right; rewrite (later_unique _ _ _ _ V L K1); exact K2|cbn in Hk; lia]. }
    all: vm_compute; reflexivity.
Qed.
(* A directory without a start date: the data are not used and the fixed box is refined *)
Theorem C85_dir_only_refuted : exists opts, a_str opts "-refine_data_dir" = Some "data" /\
  forall w bs n a levels, 0 < bs -> a_level a = 0 -> Forall (region_ok (fun _ => true) n) (a_regions a) -> good_levels bs n levels ->
  exists log, driver w bs opts a levels = Ret log /\ Forall (fun r => fst r = None) log.
Proof.
  exists (Args (fun n => if String.eqb n "-refine_data_dir" then Some "data" else None) (fun _ => None) (fun _ => None) (fun _ => None) (fun _ => None)). split; [reflexivity|]. intros w bs n a levels Hb L0 Rk Gl.
  match goal with |- context [driver w bs ?o a levels] => destruct (C85_driver_box w bs n o a levels eq_refl Hb L0 Rk Gl) as (log & E & Ll & Spec) end. exists log. split; [exact E|]. apply Forall_forall. intros r Hr. apply In_nth_error in Hr. destruct Hr as (k & Ek).
  destruct (nth_error levels k) as [lv|] eqn:El.
  - destruct (Spec k lv El) as (r' & E' & _). assert (X : Some r = Some (None, r')) by (etransitivity; [symmetry; exact Ek|exact E']). injection X as ->. reflexivity.
  - apply nth_error_None in El. assert (H : k < length log) by (apply nth_error_Some; intros X; assert (Y := eq_trans (eq_sym Ek) X); discriminate). rewrite Ll in H. lia.
Qed.
Print Assumptions C85_dir_only_refuted.
(* The date of the data advances a minute per interval, whatever the length of the intervals of the run: after an interval of
   an hour the file is not that of the date of the run. *)
Theorem C85_interval_refuted : exists d e, valid_date d /\ later 3600 d e /\ forall dir id_type,
  snd (DetermineDatasetFilename (next_minute (tm_of d)) dir id_type) = snprintf (PETSC_MAX_PATH_LEN - 1) (hourly_name dir id_type (Date 2026 11 16 0 1 0)) /\ hourly_name dir id_type e = hourly_name dir id_type (Date 2026 11 16 1 0 0).
Proof.
  assert (V : valid_date (Date 2026 11 16 0 0 0)) by (split; [cbn; lia|]; split; [exists 30%Z; split; [apply nov|cbn; lia]|cbn; lia]).
  destruct (later_exists 3600 _ V) as (e & L). exists (Date 2026 11 16 0 0 0), e. split; [exact V|]. split; [exact L|]. intros dir id_type. split.
  - unfold DetermineDatasetFilename, RDyForcingDetermineDatasetFilename. cbn [snd]. apply f_equal. reflexivity.
  - assert (X := next_hour_later _ _ V L). assert (E : e = Date 2026 11 16 1 0 0). { replace (next_hour _) with (Tm 126 10 16 1 0 0) in X by (vm_compute; reflexivity). destruct e as [y m d h mi s]. unfold tm_of in X. cbn [year month day hour minute second] in X. injection X as X1 X2 <- <- <- <-. f_equal; lia. }
    rewrite E. reflexivity.
Qed.
Print Assumptions C85_interval_refuted.
