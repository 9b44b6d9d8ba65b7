(** Proofs about options. *)
From Coq Require Import ZArith NArith String Ascii Decimal DecimalString DecimalFacts DecimalN.
From Verif Require Import Base SetupModel OutputModel OutputProofs CheckpointModel OptionsModel OptionsSpec.
Local Open Scope nat_scope.
Local Open Scope string_scope.
Local Notation length := List.length.

(** ** Text *)
Lemma substring_app a t b : substring (String.length a) (String.length t) (a ++ t ++ b) = t.
Proof.
  induction a as [|x a IH]; simpl; [|exact IH]. induction t as [|x t IH]; simpl; [destruct b; reflexivity|]. now rewrite IH.
Qed.
Lemma substring_split (s : string) : forall n m, exists a b, s = a ++ substring n m s ++ b.
Proof.
  induction s as [|x s IH]; intros n m.
  - exists "", "". destruct n, m; reflexivity.
  - destruct n as [|n].
    + destruct m as [|m]; simpl; [exists "", (String x s); reflexivity|].
      exists "". simpl. assert (E : exists b, s = substring 0 m s ++ b).
      { clear. revert m. induction s as [|y s IH]; intros [|m]; simpl; [exists ""; reflexivity|exists ""; reflexivity|exists (String y s); reflexivity|].
        destruct (IH m) as [b E]. exists b. now rewrite <- E. }
      destruct E as [b E]. exists b. now rewrite <- E.
    + simpl. destruct (IH n m) as (a & b & E). exists (String x a), b. simpl. now rewrite <- E.
Qed.
Lemma strstr_contains s t : t <> "" -> (strstr s t = true <-> contains s t).
Proof.
  intros Ht. unfold strstr. split.
  - destruct (index 0 t s) as [n|] eqn:E; [|discriminate]. intros _. apply index_correct1 in E.
    destruct (substring_split s n (String.length t)) as (a & b & H). rewrite E in H. exists a, b. exact H.
  - intros (a & b & E). destruct (index 0 t s) eqn:Ei; [reflexivity|]. exfalso.
    apply (index_correct3 0 (String.length a) _ _ Ei Ht (Nat.le_0_l _)). rewrite E. apply substring_app.
Qed.
Lemma strstr_false s t : t <> "" -> ~ contains s t -> strstr s t = false.
Proof. intros Ht H. destruct (strstr s t) eqn:E; [|reflexivity]. apply strstr_contains in E; auto. contradiction. Qed.
Lemma app_assoc_s a b c : (a ++ b) ++ c = a ++ b ++ c.
Proof. induction a as [|x a IH]; simpl; [reflexivity|now rewrite IH]. Qed.
Lemma snprintf_head n s : exists b, s = snprintf n s ++ b.
Proof.
  unfold snprintf. generalize (Z.to_nat (n - 1)). induction s as [|y s IH]; intros [|m]; simpl; [exists ""; reflexivity|exists ""; reflexivity|exists (String y s); reflexivity|].
  destruct (IH m) as [b E]. exists b. now rewrite <- E.
Qed.
Lemma contains_snprintf n s t : contains (snprintf n s) t -> contains s t.
Proof.
  intros (a & b & E). destruct (snprintf_head n s) as [r H]. rewrite E in H. exists a, (b ++ r). rewrite H. rewrite !app_assoc_s. reflexivity.
Qed.
Lemma snprintf_starts n t r : (Z.of_nat (String.length t) < n)%Z -> exists r', snprintf n (t ++ r) = t ++ r'.
Proof.
  intros H. unfold snprintf. assert (K : String.length t <= Z.to_nat (n - 1)) by lia. revert K. generalize (Z.to_nat (n - 1)). clear H.
  induction t as [|x t IH]; intros k K; simpl in *; [eauto|]. destruct k as [|k]; [lia|]. simpl. destruct (IH k) as [r' E]; [lia|]. rewrite E. eauto.
Qed.
Lemma before_starts s : exists r, s = before_colon s ++ r.
Proof. induction s as [|x s [r IH]]; simpl; [exists ""; reflexivity|]. destruct (Ascii.eqb x ":"); [exists (String x s); reflexivity|]. exists r. simpl. now rewrite <- IH. Qed.
Definition no_colon (s : string) : Prop := all_chars (fun c => negb (Ascii.eqb c ":")) s = true.
Lemma before_plain s : no_colon s -> before_colon s = s.
Proof.
  unfold no_colon. induction s as [|x s IH]; simpl; intros H; [reflexivity|]. apply andb_prop in H as [H1 H2]. destruct (Ascii.eqb x ":"); [discriminate|]. now rewrite IH.
Qed.

(** ** Numbers *)
Lemma uint_length d : String.length (NilEmpty.string_of_uint d) = nb_digits d.
Proof. induction d; simpl; auto. Qed.
Lemma acc_large l : forall a, (Npos a * 10 ^ N.of_nat (nb_digits l) <= Npos (Pos.of_uint_acc l a))%N.
Proof.
  induction l; intros a; cbn [nb_digits Pos.of_uint_acc]; [lia|..];
    rewrite Nat2N.inj_succ, N.pow_succ_r' by lia;
    (match goal with |- context[Pos.of_uint_acc l ?b] => specialize (IHl b) end);
    (eapply N.le_trans; [|exact IHl]); rewrite N.mul_assoc; apply N.mul_le_mono_r; lia.
Qed.
Lemma dec_length n k : (N.of_nat n < 10 ^ N.of_nat k)%N -> k <> 0 -> String.length (dec n) <= k.
Proof.
  intros H Hk. unfold dec. rewrite uint_length. pose proof (DecimalN.Unsigned.of_to (N.of_nat n)) as E.
  pose proof (DecimalN.Unsigned.to_of (N.to_uint (N.of_nat n))) as U. rewrite E in U.
  remember (N.to_uint (N.of_nat n)) as d eqn:Ed. clear Ed.
  assert (B : forall l a, N.of_nat n = Npos (Pos.of_uint_acc l a) -> S (nb_digits l) <= k).
  { intros l a Hl. pose proof (acc_large l a) as A. rewrite <- Hl in A.
    destruct (Nat.le_gt_cases (S (nb_digits l)) k) as [|G]; [assumption|]. exfalso.
    assert (10 ^ N.of_nat k <= 10 ^ N.of_nat (nb_digits l))%N by (apply N.pow_le_mono_r; lia). nia. }
  destruct d; cbn [nb_digits] in *.
  - lia.
  - (* D0 d is normal only if it is zero *)
    unfold unorm in U. cbn [nzhead] in U. destruct (nzhead d) eqn:En; try discriminate U.
    + injection U as ->. simpl. lia.
    + exfalso. clear - En. revert u En. induction d; cbn [nzhead]; intros u' En; try discriminate. eapply IHd. exact En.
  - apply (B d 1%positive). symmetry. exact E.
  - apply (B d 2%positive). symmetry. exact E.
  - apply (B d 3%positive). symmetry. exact E.
  - apply (B d 4%positive). symmetry. exact E.
  - apply (B d 5%positive). symmetry. exact E.
  - apply (B d 6%positive). symmetry. exact E.
  - apply (B d 7%positive). symmetry. exact E.
  - apply (B d 8%positive). symmetry. exact E.
  - apply (B d 9%positive). symmetry. exact E.
Qed.
Lemma number_dec n : number (dec n) = Some (N.of_nat n).
Proof. unfold number, dec. rewrite NilEmpty.usu. simpl. now rewrite DecimalN.Unsigned.of_to. Qed.
Lemma int_fits n : petsc_int n -> snprintf VALUE_LEN (dec n) = dec n.
Proof.
  intros H. apply snprintf_fits. assert (String.length (dec n) <= 19); [|unfold VALUE_LEN; lia].
  apply dec_length; [|discriminate]. unfold petsc_int in H. assert (10 ^ N.of_nat 19 = 10000000000000000000)%N as -> by reflexivity.
  change (2 ^ 63)%Z with 9223372036854775808%Z in H. lia.
Qed.
Lemma no_colon_contains s : ~ contains s ":" -> no_colon s.
Proof.
  unfold no_colon. induction s as [|x s IH]; simpl; intros H; [reflexivity|]. destruct (Ascii.eqb_spec x ":") as [->|]; simpl.
  - exfalso. apply H. exists "", s. reflexivity.
  - apply IH. intros (a & b & E). apply H. exists (String x a), b. simpl. now rewrite E.
Qed.

(** ** The database *)
Lemma set_same d n v : SetValue d n v n = Some v.
Proof. unfold SetValue. now rewrite String.eqb_refl. Qed.
Lemma set_other d n v m : m <> n -> SetValue d n v m = d m.
Proof. intros H. unfold SetValue. now rewrite (proj2 (String.eqb_neq _ _) H). Qed.

Lemma run_inv dir d c d' c' : SetAdditionalOptions dir d c = Ret (d', c') ->
  exists d1 c1 d3 c3, grid_options d c = (d1, c1) /\ monitor_option dir (interval_option d1 c1) c1 = Ret (d3, c3) /\
    checkpoint_option d3 c3 = Ret c' /\ d' = batch_option (interval_option d3 c') c'.
Proof.
  unfold SetAdditionalOptions. destruct (grid_options d c) as [d1 c1]. intros H.
  destruct (monitor_option dir (interval_option d1 c1) c1) as [[d3 c3]| |] eqn:E; simpl in H; try discriminate.
  destruct (checkpoint_option d3 c3) as [c4| |] eqn:E2; simpl in H; try discriminate. injection H as <- <-.
  exists d1, c1, d3, c3. auto.
Qed.
Lemma run_ret dir d c d1 c1 d3 c3 c' : grid_options d c = (d1, c1) -> monitor_option dir (interval_option d1 c1) c1 = Ret (d3, c3) ->
  checkpoint_option d3 c3 = Ret c' -> SetAdditionalOptions dir d c = Ret (batch_option (interval_option d3 c') c', c').
Proof. unfold SetAdditionalOptions. intros -> H1 H2. rewrite H1. simpl. rewrite H2. reflexivity. Qed.

Lemma grid_other d c n : ~ of_the_program n -> fst (grid_options d c) n = d n.
Proof.
  unfold of_the_program. simpl. intros H. destruct (String.eqb (st_grid c) ""), (HasName d "-dm_refine"), (HasName d "-ref_dm_refine");
    rewrite ?set_other; auto; intros ->; apply H; auto 6.
Qed.
Lemma interval_other d c n : n <> "-ts_monitor_solution_interval" -> interval_option d c n = d n.
Proof. intros H. unfold interval_option. destruct (_ && _)%bool; [|reflexivity]. destruct (HasName d _); [reflexivity|]. now apply set_other. Qed.
Lemma interval_kept d c n v : d n = Some v -> interval_option d c n = Some v.
Proof.
  intros H. destruct (String.eqb_spec n "-ts_monitor_solution_interval") as [->|N]; [|now rewrite interval_other].
  unfold interval_option, HasName. rewrite H. now destruct (_ && _)%bool.
Qed.
Lemma batch_other d c n : n <> "-viewer_cgns_batch_size" -> batch_option d c n = d n.
Proof. intros H. unfold batch_option. destruct (is_format OUTPUT_CGNS c); [|reflexivity]. destruct (HasName d _); [reflexivity|]. now apply set_other. Qed.
Lemma batch_kept d c n v : d n = Some v -> batch_option d c n = Some v.
Proof.
  intros H. destruct (String.eqb_spec n "-viewer_cgns_batch_size") as [->|N]; [|now rewrite batch_other].
  unfold batch_option, HasName. rewrite H. now destruct (is_format OUTPUT_CGNS c).
Qed.
Lemma monitor_other dir d c d' c' n : monitor_option dir d c = Ret (d', c') -> n <> "-ts_monitor_solution" -> d' n = d n.
Proof.
  unfold monitor_option. destruct (GetString d _ _) as [v|]; [intros H _; injection H as <- _; reflexivity|].
  destruct (is_format OUTPUT_CGNS c); [|intros H _; injection H as <- _; reflexivity].
  destruct (DetermineOutputFile _ _ _ _ _); simpl; intros H N; try discriminate. injection H as <- _. now apply set_other.
Qed.
Lemma monitor_kept dir d c d' c' n v : monitor_option dir d c = Ret (d', c') -> d n = Some v -> d' n = Some v.
Proof.
  intros H E. destruct (String.eqb_spec n "-ts_monitor_solution") as [->|N]; [|now rewrite (monitor_other _ _ _ _ _ _ H N)].
  unfold monitor_option, GetString in H. rewrite E in H. simpl in H. injection H as <- _. exact E.
Qed.

(** ** Settings *)
Definition format (c : settings) : out_format := oc_format (st_out c).
Lemma is_format_spec f c : is_format f c = true <-> format c = f.
Proof. unfold is_format, format. destruct f, (oc_format (st_out c)); split; intros H; congruence || discriminate. Qed.
Lemma grid_settings d c d1 c1 : grid_options d c = (d1, c1) -> st_grid c1 = st_grid c /\ st_out c1 = st_out c /\ st_interval c1 = st_interval c /\ st_checkpoint c1 = st_checkpoint c /\ st_refine c1 = HasName d "-ref_dm_refine".
Proof. unfold grid_options. intros H. injection H as _ <-. auto. Qed.
(* the settings of the output but for the format *)
Definition rest (c : settings) : settings := with_format OUTPUT_NONE c.
Lemma monitor_settings dir d c d' c' : monitor_option dir d c = Ret (d', c') -> rest c' = rest c.
Proof.
  unfold monitor_option. destruct (GetString d _ _) as [v|].
  - intros H. injection H as _ <-. now destruct (strstr v "cgns"), (strstr v "xdmf"), (strstr v "binary").
  - destruct (is_format OUTPUT_CGNS c); [|intros H; injection H as _ <-; reflexivity].
    destruct (DetermineOutputFile _ _ _ _ _); simpl; intros H; try discriminate. injection H as _ <-. reflexivity.
Qed.
Lemma checkpoint_settings d c c' : checkpoint_option d c = Ret c' -> st_out c' = st_out c /\ st_grid c' = st_grid c /\ st_interval c' = st_interval c /\ st_refine c' = st_refine c.
Proof.
  unfold checkpoint_option. destruct (Nat.eqb (st_interval c) 0); [intros H; injection H as <-; auto|].
  destruct (GetString d _ _) as [f|]; [|intros H; injection H as <-; auto]. unfold check. destruct (_ || _)%bool; [|discriminate].
  intros H. injection H as <-. auto.
Qed.
Lemma rest_out a b : rest a = rest b -> oc_interval (st_out a) = oc_interval (st_out b) /\ oc_batch (st_out a) = oc_batch (st_out b) /\ st_grid a = st_grid b /\
  st_interval a = st_interval b /\ st_checkpoint a = st_checkpoint b /\ st_refine a = st_refine b.
Proof. unfold rest, with_format. intros H. injection H. intros. repeat (split; [congruence|]). congruence. Qed.

(** ** The database afterwards, option by option *)
Definition shows (c : settings) : bool := (Nat.ltb 0 (oc_interval (st_out c)) && negb (is_format OUTPUT_XDMF c))%bool.
Definition or_else (a b : option string) : option string := match a with Some v => Some v | None => b end.
Lemma interval_value d c : interval_option d c "-ts_monitor_solution_interval" =
  or_else (d "-ts_monitor_solution_interval") (if shows c then Some (snprintf VALUE_LEN (dec (oc_interval (st_out c)))) else None).
Proof.
  unfold interval_option, HasName, or_else. fold (shows c). destruct (shows c); destruct (d "-ts_monitor_solution_interval") eqn:E; rewrite ?set_same; auto.
Qed.
Lemma batch_value d c : batch_option d c "-viewer_cgns_batch_size" =
  or_else (d "-viewer_cgns_batch_size") (if is_format OUTPUT_CGNS c then Some (snprintf VALUE_LEN (dec (oc_batch (st_out c)))) else None).
Proof.
  unfold batch_option, HasName, or_else. destruct (is_format OUTPUT_CGNS c); destruct (d "-viewer_cgns_batch_size") eqn:E; rewrite ?set_same; auto.
Qed.
Ltac unlisted := unfold of_the_program, of_the_output; simpl; intuition discriminate.
(* what a run leaves, given the settings before and after reading the monitor option *)
Lemma run_values dir d c d' c' : SetAdditionalOptions dir d c = Ret (d', c') ->
  exists d1 k1 d3 k3, grid_options d c = (d1, k1) /\ monitor_option dir (interval_option d1 k1) k1 = Ret (d3, k3) /\ checkpoint_option d3 k3 = Ret c' /\
    d3 "-checkpoint_format" = d "-checkpoint_format" /\
    (forall n, of_the_program n -> d' n = d1 n) /\ d' "-ts_monitor_solution" = d3 "-ts_monitor_solution" /\
    d' "-ts_monitor_solution_interval" = or_else (d "-ts_monitor_solution_interval")
       (if shows k1 then Some (snprintf VALUE_LEN (dec (oc_interval (st_out c)))) else if shows c' then Some (snprintf VALUE_LEN (dec (oc_interval (st_out c)))) else None) /\
    d' "-viewer_cgns_batch_size" = or_else (d "-viewer_cgns_batch_size") (if is_format OUTPUT_CGNS c' then Some (snprintf VALUE_LEN (dec (oc_batch (st_out c)))) else None) /\
    (forall n, ~ of_the_program n -> ~ of_the_output n -> d' n = d n).
Proof.
  intros H. apply run_inv in H as (d1 & k1 & d3 & k3 & G & M & C & ->). exists d1, k1, d3, k3. do 3 (split; [assumption|]).
  assert (G1 : forall n, ~ of_the_program n -> d1 n = d n) by (intros n N; change d1 with (fst (d1, k1)); rewrite <- G; now apply grid_other).
  destruct (grid_settings _ _ _ _ G) as (_ & So & _). destruct (rest_out _ _ (monitor_settings _ _ _ _ _ M)) as (Ri & Rb & _).
  destruct (checkpoint_settings _ _ _ C) as (Co & _).
  split; [rewrite (monitor_other _ _ _ _ _ _ M), interval_other by discriminate; apply G1; unlisted|].
  split; [|split; [rewrite batch_other, interval_other by discriminate; reflexivity|split; [|split]]].
  - intros n I. assert (N : n <> "-viewer_cgns_batch_size" /\ n <> "-ts_monitor_solution_interval" /\ n <> "-ts_monitor_solution").
    { destruct I as [<-|[<-|[<-|[<-|[]]]]]; repeat split; discriminate. }
    destruct N as (N1 & N2 & N3). rewrite batch_other, interval_other by assumption. rewrite (monitor_other _ _ _ _ _ _ M) by assumption. now apply interval_other.
  - rewrite batch_other by discriminate. rewrite interval_value, (monitor_other _ _ _ _ _ _ M), interval_value by discriminate.
    rewrite (G1 "-ts_monitor_solution_interval") by unlisted. rewrite Co, Ri, So. destruct (d "-ts_monitor_solution_interval"); [reflexivity|]. simpl. destruct (shows k1); reflexivity.
  - rewrite batch_value, interval_other, (monitor_other _ _ _ _ _ _ M), interval_other by discriminate. rewrite (G1 "-viewer_cgns_batch_size") by unlisted. rewrite Co, Rb, So. reflexivity.
  - intros n N O. unfold of_the_output in O. simpl in O.
    rewrite batch_other by (intros ->; auto 6). rewrite interval_other by (intros ->; auto 6).
    rewrite (monitor_other _ _ _ _ _ _ M) by (intros ->; auto 6). rewrite interval_other by (intros ->; auto 6). now apply G1.
Qed.
(* reading the monitor option again *)
Lemma monitor_again dir d c d' c' e : monitor_option dir d c = Ret (d', c') -> e "-ts_monitor_solution" = d' "-ts_monitor_solution" ->
  exists e', monitor_option dir e c = Ret (e', c') /\ e' "-ts_monitor_solution" = d' "-ts_monitor_solution".
Proof.
  unfold monitor_option at 1, GetString. destruct (d "-ts_monitor_solution") as [v|] eqn:Ev; cbn [option_map].
  - intros H E. injection H as <- <-. exists e. unfold monitor_option, GetString. rewrite E, Ev. cbn [option_map]. auto.
  - destruct (is_format OUTPUT_CGNS c) eqn:F.
    + destruct (DetermineOutputFile (st_out c) dir 0 0%R "cgns") as [pat| |]; cbn [rbind]; try (intros H; discriminate H).
      remember (snprintf VALUE_LEN ("cgns:" ++ pat)) as val eqn:Eval. intros H. injection H as <- <-. rewrite set_same. intros E.
      exists e. split; [|exact E]. unfold monitor_option, GetString. rewrite E. cbn [option_map].
      destruct (snprintf_starts VALUE_LEN "cgns:" pat) as [r Er1]; [unfold VALUE_LEN; simpl; lia|]. rewrite Eval, Er1.
      destruct (snprintf_starts 128 "cgns:" r) as [r2 Er2]; [simpl; lia|]. rewrite Er2.
      assert (Y : strstr ("cgns:" ++ r2) "cgns" = true) by (apply strstr_contains; [discriminate|]; exists "", (":" ++ r2); reflexivity).
      rewrite Y. apply is_format_spec in F. unfold format in F. unfold with_format. destruct c as [g o i f rf]. simpl in *. rewrite <- F. destruct o. reflexivity.
    + intros H. injection H as <- <-. rewrite Ev. intros E. exists e. split; [|exact E]. unfold monitor_option, GetString. rewrite E. cbn [option_map]. rewrite F. reflexivity.
Qed.
