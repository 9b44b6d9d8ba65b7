(** C96: the grids of a convergence study. *)
From Coq Require Import ZArith NArith String Ascii Decimal DecimalString DecimalN.
From Verif Require Import Base SetupModel OutputModel OutputProofs CheckpointModel OptionsModel MMSModel MMSStudyProperties MMSLevelsModel.
Local Notation length := List.length.
Local Open Scope nat_scope.
Local Open Scope string_scope.

(** ** Numbers as text *)
Lemma parse_dec n : StringToInt (dec n) = Some n.
Proof. unfold StringToInt, dec. rewrite NilEmpty.usu. cbn [option_map]. rewrite DecimalN.Unsigned.of_to. f_equal. lia. Qed.
Lemma get_dec d name n : d name = Some (dec n) -> GetInt d name = Ret (Some n).
Proof. intros E. unfold GetInt. rewrite E. destruct (String.eqb_spec (dec n) "") as [H|_]; [destruct (dec_nonempty n H)|]. rewrite parse_dec. reflexivity. Qed.
Lemma short_all : forallb (fun n => Nat.leb (String.length (dec n)) 3) (seq 0 1000) = true.
Proof. vm_compute. reflexivity. Qed.
Lemma short n : n < 1000 -> snprintf 4 (dec n) = dec n.
Proof.
  intros H. apply snprintf_fits. assert (S := proj1 (forallb_forall _ _) short_all n). cbv beta in S. rewrite in_seq in S. specialize (S ltac:(lia)). apply Nat.leb_le in S. lia.
Qed.
Lemma set_same d name v : SetValue d name v name = Some v.
Proof. unfold SetValue. rewrite String.eqb_refl. reflexivity. Qed.

(** ** Setting up one grid *)
(* no level asked for: the base level *)
Lemma setup_base base d : GetInt d "-dm_refine" = Ret None \/ GetInt d "-dm_refine" = Ret (Some 0) \/ GetInt d "-dm_refine" = Error -> base < 1000 ->
  exists d', RDyMMSSetup base d = Ret (d', base) /\ d' "-dm_refine" = Some (dec base).
Proof.
  intros H B. unfold RDyMMSSetup. replace (match GetInt d "-dm_refine" with Ret (Some n) => n | _ => 0 end) with 0 by (destruct H as [-> |[-> | ->]]; reflexivity).
  cbv zeta. cbn [Nat.eqb]. rewrite (short base B). set (d' := SetValue _ "-dm_plex_transform_label_match_strata" _).
  assert (E : d' "-dm_refine" = Some (dec base)) by reflexivity. exists d'. split; [|exact E]. unfold DMSetFromOptions. rewrite (get_dec _ _ _ E). reflexivity.
Qed.
(* a positive level asked for *)
Lemma setup_given base d k : d "-dm_refine" = Some (dec k) -> 0 < k -> RDyMMSSetup base d = Ret (d, k).
Proof.
  intros E K. unfold RDyMMSSetup. rewrite (get_dec _ _ _ E). cbv zeta. destruct k as [|k]; [lia|]. cbn [Nat.eqb]. unfold DMSetFromOptions. rewrite (get_dec _ _ _ E). reflexivity.
Qed.

(** ** The finer grids *)
Lemma finer base n : forall d r0, 0 < r0 -> r0 + n + base <= 1000 ->
  exists d', finer_grids base (seq r0 n) d = Ret (d', map (fun r => r + base) (seq r0 n)) /\ (0 < n -> d' "-dm_refine" = Some (dec (r0 + n - 1 + base))) /\ (n = 0 -> d' = d).
Proof.
  induction n as [|n IH]; intros d r0 H B; [exists d; cbn; repeat split; lia|]. cbn [seq finer_grids map].
  rewrite (short (r0 + base)) by lia. rewrite (setup_given base _ (r0 + base)) by (try apply set_same; lia). cbn [rbind fst snd].
  destruct (IH (SetValue d "-dm_refine" (dec (r0 + base))) (S r0)) as (d' & E & L & Z); [lia|lia|]. rewrite E. cbn [rbind fst snd]. exists d'. split; [reflexivity|]. split; [|lia].
  intros _. destruct n as [|n].
  - rewrite (Z eq_refl), set_same. do 2 f_equal. lia.
  - rewrite (L ltac:(lia)). do 2 f_equal. lia.
Qed.
Lemma combine_same (f : nat -> nat) l : combine (map f l) (map f l) = map (fun r => (f r, f r)) l.
Proof. induction l as [|x l IH]; [reflexivity|]. cbn. rewrite IH. reflexivity. Qed.
Lemma run_study base n level d : 0 < n <= 8 -> base + n < 1000 ->
  exists d', RDyMMSRun base n level d = Ret (d', Study ((base, level) :: map (fun r => (r + base, r + base)) (seq 1 n))) /\ d' "-dm_refine" = Some (dec (base + n)).
Proof.
  intros N B. unfold RDyMMSRun. destruct n as [|n]; [lia|]. cbn [Nat.eqb]. replace (Nat.leb (S n) MAX_NUM_REFINEMENTS) with true by (symmetry; apply Nat.leb_le; unfold MAX_NUM_REFINEMENTS; lia). cbn [check].
  destruct (finer base (S n) d 1) as (d' & E & L & _); [lia|lia|]. rewrite E. cbn [rbind fst snd]. exists d'. split.
  - apply f_equal. apply f_equal. apply f_equal. change (seq 0 (S (S n))) with (0 :: seq 1 (S n)). rewrite map_cons. cbn [combine]. rewrite combine_same. reflexivity.
  - rewrite (L ltac:(lia)). do 2 f_equal. lia.
Qed.

(** ** Specification *)
(* every grid of the report is refined as often as the report says *)
Definition truthful (grids : list (nat * nat)) : Prop := forall label level, In (label, level) grids -> label = level.

(* Without the option -dm_refine: the study runs the levels base, base + 1, ..., base + n, in this order, under these
   numbers; without a study the grid has the base level. *)
Theorem C96_levels : forall base n d, d "-dm_refine" = None -> n <= 8 -> base + n < 1000 ->
  exists d' rep, driver base n d = Ret (d', rep) /\
    (n = 0 -> rep = Single base) /\
    (0 < n -> exists grids, rep = Study grids /\ truthful grids /\ length grids = S n /\ forall r, r <= n -> nth_error (map snd grids) r = Some (base + r)).
Proof.
  intros base n d E N B. destruct (setup_base base d) as (d1 & S1 & _); [left; unfold GetInt; rewrite E; reflexivity|lia|]. unfold driver. rewrite S1. cbn [rbind fst snd].
  destruct (Nat.eq_dec n 0) as [-> |Hn]; [exists d1, (Single base); split; [reflexivity|split; [auto|lia]]|].
  destruct (run_study base n base d1) as (d2 & R & _); [lia|exact B|]. rewrite R. eexists. eexists. split; [reflexivity|]. split; [lia|]. intros _. eexists. split; [reflexivity|].
  split; [|split; [cbn [length]; rewrite map_length, seq_length; reflexivity|]].
  - intros label level [[= <- <-]|H]; [reflexivity|]. apply in_map_iff in H. destruct H as (r & [= <- <-] & _). reflexivity.
  - intros r Hr. cbn [map snd]. rewrite map_map. cbn [snd]. destruct r as [|r]; [cbn; f_equal; lia|]. cbn [nth_error]. rewrite nth_error_map, (nth_error_nth' _ 0) by (rewrite seq_length; lia). rewrite seq_nth by lia. cbn. f_equal. lia.
Qed.
Print Assumptions C96_levels.

(* With -dm_refine k, k > 0: a single run uses level k; in a study only the first grid does, the others keep their levels. *)
Theorem C96_option : forall base n k d, d "-dm_refine" = Some (dec k) -> 0 < k -> n <= 8 -> base + n < 1000 ->
  exists d' rep, driver base n d = Ret (d', rep) /\
    (n = 0 -> rep = Single k) /\
    (0 < n -> exists finer, rep = Study ((base, k) :: finer) /\ truthful finer /\ length finer = n /\ forall r, 1 <= r <= n -> nth_error (map snd finer) (r - 1) = Some (base + r)).
Proof.
  intros base n k d E K N B. unfold driver. rewrite (setup_given base d k E K). cbn [rbind fst snd].
  destruct (Nat.eq_dec n 0) as [-> |Hn]; [exists d, (Single k); split; [reflexivity|split; [auto|lia]]|].
  destruct (run_study base n k d) as (d2 & R & _); [lia|exact B|]. rewrite R. eexists. eexists. split; [reflexivity|]. split; [lia|]. intros _. eexists. split; [reflexivity|].
  split; [|split; [rewrite map_length, seq_length; reflexivity|]].
  - intros label level H. apply in_map_iff in H. destruct H as (r & [= <- <-] & _). reflexivity.
  - intros r Hr. rewrite map_map. cbn [snd]. rewrite nth_error_map, (nth_error_nth' _ 0) by (rewrite seq_length; lia). rewrite seq_nth by lia. cbn [option_map]. f_equal. lia.
Qed.
Print Assumptions C96_option.

(* More finer grids than there is room for are refused. *)
Theorem C96_too_many : forall base n d, base < 1000 -> 8 < n -> d "-dm_refine" = None -> driver base n d = Error.
Proof.
  intros base n d B N E. destruct (setup_base base d) as (d1 & S1 & _); [left; unfold GetInt; rewrite E; reflexivity|exact B|]. unfold driver. rewrite S1. cbn [rbind fst snd]. unfold RDyMMSRun. destruct n as [|n]; [lia|]. cbn [Nat.eqb].
  replace (Nat.leb (S n) MAX_NUM_REFINEMENTS) with false by (symmetry; apply Nat.leb_gt; unfold MAX_NUM_REFINEMENTS; lia). reflexivity.
Qed.
Print Assumptions C96_too_many.

(* The study has grids of different sizes, so that for positive errors every rate is a number (compare C66). *)
Theorem C96_rates_exist : forall base n d coarse errs, d "-dm_refine" = None -> 0 < n <= 8 -> base + n < 1000 -> 0 < coarse -> length errs = S n -> (forall e, In e errs -> (0 < e)%R) ->
  exists d' grids r, driver base n d = Ret (d', Study grids) /\ conv_rate (map (fun g => num_cells coarse (snd g)) grids) errs = Some (Fin r).
Proof.
  intros base n d coarse errs E N B C L P. destruct (C96_levels base n d E) as (d' & rep & D & _ & St); [lia|exact B|]. destruct (St ltac:(lia)) as (grids & -> & _ & Lg & Nth).
  assert (Sd : study (map (fun g => num_cells coarse (snd g)) grids) errs).
  { split; [rewrite map_length; lia|]. split.
    - intros m Hm. apply in_map_iff in Hm. destruct Hm as (g & <- & _). unfold num_cells. assert (4 ^ snd g <> 0) by (apply Nat.pow_nonzero; lia). nia.
    - assert (G : forall r, r <= n -> In (num_cells coarse (base + r)) (map (fun g => num_cells coarse (snd g)) grids)).
      { intros r Hr. specialize (Nth r Hr). apply nth_error_In in Nth. apply in_map_iff in Nth. destruct Nth as (g & Eg & Ig). apply in_map_iff. exists g. rewrite Eg. split; [reflexivity|exact Ig]. }
      exists (num_cells coarse (base + 0)), (num_cells coarse (base + 1)). split; [apply G; lia|]. split; [apply G; lia|]. unfold num_cells. rewrite Nat.add_0_r, Nat.add_1_r, Nat.pow_succ_r'. assert (4 ^ base <> 0) by (apply Nat.pow_nonzero; lia). nia. }
  destruct (C66_rate_is_best_fit _ errs Sd P) as (r & a & R & _). exists d', grids, r. split; [exact D|exact R].
Qed.
Print Assumptions C96_rates_exist.
Example C96_study_example : exists d', driver 1 2 (fun _ => None) = Ret (d', Study [(1, 1); (2, 2); (3, 3)]) /\ d' "-dm_refine" = Some "3".
Proof. eexists. split; vm_compute; reflexivity. Qed.
Example C96_single_example : exists d', driver 1 0 (SetValue (fun _ => None) "-dm_refine" "4") = Ret (d', Single 4).
Proof. eexists. vm_compute. reflexivity. Qed.

(* A level given on the command line is used for the first grid of a study, under the number of the base level ... *)
Theorem C96_option_refuted : forall base n k d, d "-dm_refine" = Some (dec k) -> 0 < k -> k <> base -> 0 < n <= 8 -> base + n < 1000 ->
  exists d' grids, driver base n d = Ret (d', Study grids) /\ ~ truthful grids.
Proof.
  intros base n k d E K Ne N B. destruct (C96_option base n k d E K) as (d' & rep & D & _ & St); [lia|exact B|]. destruct (St ltac:(lia)) as (f & -> & _). exists d'. eexists. split; [exact D|].
  intros T. apply Ne. symmetry. apply T. left. reflexivity.
Qed.
Print Assumptions C96_option_refuted.
(* ... and if it is the level of the only finer grid, both grids are the same and no rate can be computed from any errors. *)
Theorem C96_same_grid_refuted : forall base coarse e1 e2 d, d "-dm_refine" = Some (dec (base + 1)) -> base < 999 ->
  exists d' grids, driver base 1 d = Ret (d', Study grids) /\ map snd grids = [base + 1; base + 1] /\ conv_rate (map (fun g => num_cells coarse (snd g)) grids) [e1; e2] = None.
Proof.
  intros base coarse e1 e2 d E B. unfold driver. rewrite (setup_given base d _ E) by lia. cbn [rbind fst snd]. destruct (run_study base 1 (base + 1) d) as (d2 & Rn & _); [lia|lia|]. rewrite Rn. eexists. eexists. split; [reflexivity|].
  cbn [seq map snd]. rewrite (Nat.add_comm 1 base). split; [reflexivity|]. unfold conv_rate, regression_slope. cbn [map length rsum fold_right]. set (x := (_ / _)%R).
  replace (rdiv 1 _) with (@None R); [reflexivity|]. symmetry. unfold rdiv. destruct (Req_EM_T _ 0) as [_|H]; [reflexivity|]. exfalso. apply H. unfold rsum. cbn [map fold_right INR]. ring.
Qed.
Print Assumptions C96_same_grid_refuted.
(* Asking for the grid as it is in the file, with -dm_refine 0, has no effect. *)
Theorem C96_zero_refuted : forall base d, d "-dm_refine" = Some "0" -> 0 < base < 1000 -> exists d', driver base 0 d = Ret (d', Single base).
Proof.
  intros base d E B. destruct (setup_base base d) as (d1 & S1 & _); [right; left; apply (get_dec d "-dm_refine" 0); exact E|lia|]. unfold driver. rewrite S1. exists d1. reflexivity.
Qed.
Print Assumptions C96_zero_refuted.
(* The option stays set: a second study of the same process begins with the finest grid of the first. *)
Theorem C96_second_study_refuted : forall base n base' n' d, d "-dm_refine" = None -> 0 < n <= 8 -> base + n < 1000 -> 0 < n' <= 8 -> base' + n' < 1000 -> base' <> base + n ->
  exists d' grids d'' grids', driver base n d = Ret (d', Study grids) /\ truthful grids /\ driver base' n' d' = Ret (d'', Study grids') /\ nth_error grids' 0 = Some (base', base + n) /\ ~ truthful grids'.
Proof.
  intros base n base' n' d E N B N' B' Ne. destruct (C96_levels base n d E) as (d0 & rep & D & _ & St); [lia|exact B|]. destruct (St ltac:(lia)) as (grids & -> & T & _).
  assert (O : d0 "-dm_refine" = Some (dec (base + n))).
  { revert D. destruct (setup_base base d) as (d1 & S1 & _); [left; unfold GetInt; rewrite E; reflexivity|lia|]. unfold driver. rewrite S1. cbn [rbind fst snd]. destruct (run_study base n base d1) as (d2 & R & O2); [lia|exact B|]. rewrite R. intros [= <- _]. exact O2. }
  destruct (C96_option base' n' (base + n) d0 O) as (d'' & rep' & D' & _ & St'); [lia|lia|exact B'|]. destruct (St' ltac:(lia)) as (f & -> & _).
  exists d0, grids, d''. eexists. split; [exact D|]. split; [exact T|]. split; [exact D'|]. split; [reflexivity|]. intros T'. apply Ne. apply T'. left. reflexivity.
Qed.
Print Assumptions C96_second_study_refuted.

(** ** Names *)
(* One name for every component, in the order of the solution, no name twice. *)
Lemma c_name_inj i j : ("c" ++ dec i ++ " ")%string = ("c" ++ dec j ++ " ")%string -> i = j.
Proof.
  intros H. cbn in H. injection H as H. apply dec_inj. revert H. generalize (dec i) (dec j). clear.
  assert (G : forall s t u : string, (s ++ u)%string = (t ++ u)%string -> String.length s = String.length t).
  { intros s t u H. apply (f_equal String.length) in H. revert H. assert (A : forall a b, String.length (a ++ b) = String.length a + String.length b) by (induction a; intros b; cbn; [reflexivity|rewrite IHa; reflexivity]). rewrite !A. lia. }
  intros s t H. assert (L := G _ _ _ H). revert t H L. induction s as [|c s IH]; intros [|c' t] H L; try discriminate; [reflexivity|]. cbn in H. injection H as -> H. f_equal. apply IH; [exact H|cbn in L; lia].
Qed.
Theorem C96_names : forall classes (salinity heat : bool), let names := mms_comp_names classes salinity heat in
  length names = 3 + classes + (if salinity then 1 else 0) + (if heat then 1 else 0) /\ NoDup names /\
  (forall i, i < classes -> nth_error names (3 + i) = Some ("c" ++ dec i ++ " ")) /\
  (salinity = true -> nth_error names (3 + classes) = Some "salinity") /\
  (heat = true -> nth_error names (3 + classes + (if salinity then 1 else 0)) = Some "temperature").
Proof.
  intros classes sal heat. cbv zeta. unfold mms_comp_names. set (cs := map _ (seq 0 classes)). assert (Lc : length cs = classes) by (unfold cs; rewrite map_length, seq_length; reflexivity).
  split; [rewrite !app_length, Lc; destruct sal, heat; cbn; lia|].
  assert (Ic : forall x, In x cs -> exists i, x = String "c" (dec i ++ " ")) by (intros x H; apply in_map_iff in H; destruct H as (i & <- & _); exists i; reflexivity).
  split; [|split; [|split]].
  - cbn [app]. assert (Nc : NoDup cs). { unfold cs. generalize (seq_NoDup classes 0). generalize (seq 0 classes). clear. induction l as [|i l IH]; intros H; cbn [map]; constructor; inversion H; subst; [|apply IH; assumption]. intros Hin. apply in_map_iff in Hin. destruct Hin as (j & Ej & Hj). apply c_name_inj in Ej. subst. contradiction. }
    assert (Nt : NoDup ((if sal then ["salinity"] else []) ++ (if heat then ["temperature"] else []))%list) by (destruct sal, heat; repeat constructor; cbn; intuition discriminate).
    assert (Dj : forall x, In x cs -> In x ((if sal then ["salinity"] else []) ++ (if heat then ["temperature"] else []))%list -> False) by (intros x Hx; destruct (Ic x Hx) as (i & ->); destruct sal, heat; cbn; intuition discriminate).
    assert (Na : NoDup (cs ++ (if sal then ["salinity"] else []) ++ (if heat then ["temperature"] else []))%list).
    { revert Nc Dj. clear - Nt. induction cs as [|x l IH]; intros Nc Dj; [exact Nt|]. cbn [app]. inversion Nc; subst. constructor; [|apply IH; [assumption|intros y Hy; apply Dj; right; exact Hy]]. rewrite in_app_iff. intros [H|H]; [contradiction|]. exact (Dj x (or_introl eq_refl) H). }
    assert (Out : forall x, In x (cs ++ (if sal then ["salinity"] else []) ++ (if heat then ["temperature"] else []))%list -> (exists i, x = String "c" (dec i ++ " ")) \/ x = "salinity" \/ x = "temperature").
    { intros x H. rewrite !in_app_iff in H. destruct H as [H|[H|H]]; [left; apply Ic; exact H|right; left|right; right]; [destruct sal|destruct heat]; cbn in H; intuition. }
    repeat constructor; try exact Na; cbn [In]; intros H; repeat (destruct H as [H|H]; [discriminate|]); destruct (Out _ H) as [(i & X)|[X|X]]; discriminate.
  - intros i Hi. cbn [app Nat.add nth_error]. rewrite nth_error_app1 by (rewrite Lc; exact Hi). unfold cs. rewrite nth_error_map, (nth_error_nth' _ 0) by (rewrite seq_length; exact Hi). rewrite seq_nth by exact Hi. reflexivity.
  - intros ->. cbn [app Nat.add nth_error]. rewrite nth_error_app2 by lia. rewrite Lc, Nat.sub_diag. reflexivity.
  - intros ->. cbn [app Nat.add nth_error]. rewrite nth_error_app2 by lia. rewrite Lc. replace (classes + (if sal then 1 else 0) - classes) with (if sal then 1 else 0) by lia. destruct sal; reflexivity.
Qed.
Print Assumptions C96_names.
Example C96_names_example : mms_comp_names 2 true true = [" h "; "hu "; "hv "; "c0 "; "c1 "; "salinity"; "temperature"].
Proof. reflexivity. Qed.
(* In output files of the driver, salinity and temperature have the names of sediment classes that do not exist. *)
Theorem C96_output_name_refuted : forall classes heat, nth_error (mms_comp_names classes true heat) (3 + classes) = Some "salinity" /\
  nth_error (soln_component_names classes true heat) (3 + classes) = Some ("SedimentMassPerUnitArea" ++ dec classes).
Proof.
  intros classes heat. split; [destruct (C96_names classes true heat) as (_ & _ & _ & H & _); apply H; reflexivity|]. unfold soln_component_names. cbn [app Nat.add nth_error].
  rewrite nth_error_map, (nth_error_nth' _ 0) by (rewrite seq_length; destruct heat; lia). rewrite seq_nth by (destruct heat; lia). reflexivity.
Qed.
Print Assumptions C96_output_name_refuted.
