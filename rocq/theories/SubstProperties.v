(** C43: placeholders in the configuration file. C61: prefix of the output files. *)
From Verif Require Import Base SetupModel SubstModel.
From Coq Require Import String Ascii.
Local Open Scope nat_scope.
Local Open Scope list_scope.
Local Notation length := List.length.

(** ** Specification *)
(* [pat] occurs in [s] after [a] *)
Definition occurs (pat s : list ascii) (a : list ascii) : Prop := exists b, s = a ++ pat ++ b.
(* the text with the occurrences replaced, from the left, not overlapping *)
Inductive replaced (pat rep : list ascii) : list ascii -> list ascii -> Prop :=
| replaced_none s : (forall a, ~ occurs pat s a) -> replaced pat rep s s
| replaced_first a b out : (forall a', occurs pat (a ++ pat ++ b) a' -> length a <= length a') ->
    replaced pat rep b out -> replaced pat rep (a ++ pat ++ b) (a ++ rep ++ out).

(** ** strstr *)
Lemma starts_with_spec pat s : starts_with pat s = true <-> exists b, s = pat ++ b.
Proof.
  revert s. induction pat as [|a pat IH]; intros s; cbn; [split; [eauto|auto]|]. destruct s as [|b s]; [split; [discriminate|intros (x & E); discriminate]|].
  rewrite Bool.andb_true_iff, Ascii.eqb_eq, IH. split.
  - intros (-> & x & ->). eauto.
  - intros (x & E). injection E as -> ->. eauto.
Qed.
Lemma occurs_cons pat c s a : occurs pat (c :: s) a -> (a = [] /\ starts_with pat (c :: s) = true) \/ exists a', a = c :: a' /\ occurs pat s a'.
Proof.
  intros (b & E). destruct a as [|d a]; [left; split; [reflexivity|apply starts_with_spec; exists b; exact E]|].
  right. injection E as <- E. exists a. split; [reflexivity|]. exists b. exact E.
Qed.
Lemma strstr_some pat s k : strstr pat s = Some k -> k + length pat <= length s /\ s = firstn k s ++ pat ++ skipn (k + length pat) s /\ forall a, occurs pat s a -> k <= length a.
Proof.
  revert k. induction s as [|c s IH]; intros k; cbn [strstr]; destruct (starts_with pat _) eqn:E.
  - intros [= <-]. apply starts_with_spec in E. destruct E as (b & E). destruct pat; [|discriminate]. cbn. split; [lia|]. split; [reflexivity|lia].
  - discriminate.
  - intros [= <-]. apply starts_with_spec in E. destruct E as (b & ->). cbn [firstn Nat.add app]. rewrite skipn_app, skipn_all, Nat.sub_diag, app_length. cbn. split; [lia|]. split; [reflexivity|lia].
  - destruct (Ascii.eqb c NUL); [discriminate|]. destruct (strstr pat s) as [j|]; [|discriminate]. intros [= <-]. destruct (IH j eq_refl) as (L & H & F). cbn [length]. split; [lia|]. split.
    + cbn [firstn Nat.add skipn app]. f_equal. exact H.
    + intros a O. apply occurs_cons in O. destruct O as [(-> & O)|(a' & -> & O)]; [congruence|]. cbn. apply F in O. lia.
Qed.
Lemma strstr_none pat s : ~ In NUL s -> strstr pat s = None -> forall a, ~ occurs pat s a.
Proof.
  induction s as [|c s IH]; cbn [strstr]; intros N; destruct (starts_with pat _) eqn:E; try discriminate; intros H a O.
  - destruct O as (b & O). destruct a; [|discriminate]. cbn in O. destruct pat; [discriminate|discriminate].
  - apply occurs_cons in O. destruct O as [(-> & O)|(a' & -> & O)]; [congruence|].
    destruct (Ascii.eqb_spec c NUL) as [->|Nc]; [apply N; left; reflexivity|]. destruct (strstr pat s); [discriminate|].
    apply (IH (fun I => N (or_intror I)) eq_refl a' O).
Qed.
Lemma In_skipn {A} (x : A) n l : In x (skipn n l) -> In x l.
Proof. intros H. rewrite <- (firstn_skipn n l). apply in_or_app. now right. Qed.

Lemma skipn_skipn' {A} m n (l : list A) : skipn m (skipn n l) = skipn (n + m) l.
Proof. revert l. induction n as [|n IH]; intros l; [reflexivity|]. destruct l as [|a l]; [destruct m; reflexivity|]. apply IH. Qed.

(** ** The two loops agree *)
(* the text produced and the number of occurrences, as a plain recursion *)
Lemma loops fuel pat rep p : pat <> [] -> length p < fuel -> ~ In NUL p ->
  exists n out, count_occurrences fuel pat p = Some n /\ replaced pat rep p out /\ (length out + n * length pat = length p + n * length rep) /\ (n = 0 -> out = p) /\
    forall q buffer, q + length out <= length buffer ->
      copy_replacing fuel pat rep p q buffer = Some (q + length out, firstn q buffer ++ out ++ skipn (q + length out) buffer).
Proof.
  intros Np. revert p. induction fuel as [|fuel IH]; intros p L N; [lia|]. cbn [count_occurrences copy_replacing]. destruct (strstr pat p) as [k|] eqn:E.
  - destruct (strstr_some _ _ _ E) as (B & Sp & F). assert (Pp : 0 < length pat) by (destruct pat; [contradiction|cbn; lia]).
    set (r := skipn (k + length pat) p) in *. assert (Lr : length r = length p - (k + length pat)) by (unfold r; apply skipn_length).
    destruct (IH r) as (n & out & C & Rp & Len & Z0 & Cp); [lia|intros I; apply N, (In_skipn _ _ _ I)|].
    exists (S n), (firstn k p ++ rep ++ out). rewrite C. split; [reflexivity|].
    assert (Lk : length (firstn k p) = k) by (apply firstn_length_le; lia).
    split. { rewrite Sp at 1. apply replaced_first; [|exact Rp]. rewrite <- Sp, Lk. exact F. }
    split. { rewrite !app_length, Lk. cbn. lia. } split; [discriminate|].
    intros q buffer Q. rewrite !app_length, Lk in Q. unfold memcpy. rewrite Lk. rewrite (proj2 (Nat.leb_le (q + k) (length buffer))) by lia. cbn [obind].
    set (b1 := firstn q buffer ++ firstn k p ++ skipn (q + k) buffer).
    assert (L1 : length b1 = length buffer) by (unfold b1; rewrite !app_length, Lk, firstn_length_le, skipn_length by lia; lia).
    rewrite L1, (proj2 (Nat.leb_le (q + k + length rep) (length buffer))) by lia. cbn [obind].
    assert (F1 : firstn (q + k) b1 = firstn q buffer ++ firstn k p).
    { unfold b1. rewrite app_assoc, firstn_app, app_length, Lk, firstn_length_le by lia. rewrite Nat.sub_diag, app_nil_r. apply firstn_all2. rewrite app_length, Lk, firstn_length_le; lia. }
    assert (S1 : forall m, skipn (q + k + m) b1 = skipn (q + k + m) buffer).
    { intros m. unfold b1. rewrite app_assoc, skipn_app, skipn_all2 by (rewrite app_length, Lk, firstn_length_le; lia). rewrite app_length, Lk, firstn_length_le by lia. cbn.
      replace (q + k + m - (q + k)) with m by lia. rewrite <- (skipn_skipn' m (q + k)). f_equal. }
    rewrite F1, S1. set (b2 := (firstn q buffer ++ firstn k p) ++ rep ++ skipn (q + k + length rep) buffer).
    assert (L2 : length b2 = length buffer) by (unfold b2; rewrite !app_length, Lk, firstn_length_le, skipn_length by lia; lia).
    rewrite Cp by lia. rewrite !app_length, Lk. f_equal. f_equal; [lia|].
    assert (F2 : firstn (q + k + length rep) b2 = firstn q buffer ++ firstn k p ++ rep).
    { unfold b2. rewrite app_assoc, firstn_app. rewrite !app_length, Lk, firstn_length_le by lia. rewrite Nat.sub_diag. cbn [firstn]. rewrite app_nil_r, <- app_assoc. apply firstn_all2. rewrite !app_length, Lk, firstn_length_le; lia. }
    rewrite F2. rewrite <- !app_assoc. do 4 f_equal.
    unfold b2. rewrite app_assoc, skipn_app, skipn_all2 by (rewrite !app_length, Lk, firstn_length_le; lia). rewrite !app_length, Lk, firstn_length_le by lia. cbn [app].
    replace (q + k + length rep + length out - (q + k + length rep)) with (length out) by lia. rewrite skipn_skipn'. f_equal. lia.
  - exists 0, p. split; [reflexivity|]. split; [apply replaced_none, strstr_none; assumption|]. split; [lia|]. split; [reflexivity|]. intros q buffer Q. unfold memcpy. rewrite (proj2 (Nat.leb_le _ _)) by exact Q. reflexivity.
Qed.

(** ** C43 *)
(* Every text, placeholder and replacement: the buffer holds the text with the placeholders replaced and a terminating
   NUL, and the size is that of the text; no write leaves the allocation. *)
Theorem C43_substitution_exact pat rep raw : pat <> [] -> ~ In NUL raw ->
  exists out, replaced pat rep raw out /\ ReadAndSubstitute [(pat, rep)] raw = Ret (out ++ [NUL], Z.of_nat (length out)).
Proof.
  intros Np N. destruct (loops (S (length raw)) pat rep raw Np) as (n & out & C & Rp & Len & Z0 & Cp); [lia|exact N|]. exists out. split; [exact Rp|].
  unfold ReadAndSubstitute. cbn [omap fst snd]. rewrite C. cbn [obind of_option rbind list_sum fold_right combine fold_left fst snd]. rewrite Nat.add_0_r.
  assert (Sz : (Z.of_nat (length raw) + Z.of_nat n * (Z.of_nat (length rep) - Z.of_nat (length pat)))%Z = Z.of_nat (length out)) by nia. rewrite Sz.
  assert (Fin : forall buffer, length buffer = S (length out) -> firstn (length out) buffer = out -> memcpy buffer (length out) [NUL] = Some (out ++ [NUL])).
  { intros buffer Lb Fb. unfold memcpy. cbn [length]. rewrite (proj2 (Nat.leb_le _ _)) by lia. rewrite Fb, skipn_all2 by lia. now rewrite app_nil_r. }
  assert (Lt : (Z.of_nat (length out) <? 0)%Z = false) by (apply Z.ltb_ge; lia). rewrite Lt, Nat2Z.id.
  destruct (Nat.ltb_spec 0 n) as [P|P].
  - set (buf := repeat NUL (Z.to_nat (Z.of_nat (length out) + 1))). assert (Lb : length buf = S (length out)) by (unfold buf; rewrite repeat_length; lia).
    rewrite Cp by lia. cbn [of_option rbind fst snd Nat.add firstn app]. rewrite Z.eqb_refl. cbn [check rbind]. rewrite Fin; [reflexivity| |].
    + rewrite app_length, skipn_length. lia.
    + rewrite firstn_app, firstn_all, Nat.sub_diag. apply app_nil_r.
  - rewrite (Z0 ltac:(lia)). cbn [rbind]. rewrite Z0 in Fin by lia. rewrite Fin; [reflexivity|rewrite app_length; cbn; lia|]. rewrite firstn_app, firstn_all, Nat.sub_diag. apply app_nil_r.
Qed.
Print Assumptions C43_substitution_exact.
(* ... and there is only one such text *)
Lemma split_at {A} (a a' x x' : list A) : a ++ x = a' ++ x' -> length a = length a' -> a = a' /\ x = x'.
Proof. revert a'. induction a as [|c a IH]; intros [|c' a'] E L; try discriminate; [auto|]. injection E as -> E. injection L as L. destruct (IH a' E L) as (-> & ->). auto. Qed.
Theorem C43_substitution_unique pat rep raw o1 o2 : replaced pat rep raw o1 -> replaced pat rep raw o2 -> o1 = o2.
Proof.
  intros H. revert o2. induction H as [s No|a b out F H IH]; intros o2 G.
  - inversion G as [s' _ E1 E2|a b out _ _ E1 E2]; [congruence|]. exfalso. apply (No a). exists b. now symmetry.
  - inversion G as [s' No E1 E2|a' b' out' F' G' E1 E2].
    + exfalso. apply (No a). exists b. reflexivity.
    + assert (length a' = length a). { assert (length a <= length a') by (apply F; exists b'; now symmetry). assert (length a' <= length a) by (apply F'; exists b; exact E1). lia. }
      destruct (split_at _ _ _ _ E1 H0) as (-> & E3). apply app_inv_head in E3. subst b'. now rewrite (IH out' G').
Qed.
Print Assumptions C43_substitution_unique.
Lemma replaced_keeps pat rep s out : replaced pat rep s out -> forall x, In x out -> In x s \/ In x rep.
Proof.
  induction 1 as [s No|a b out F H IH]; intros x I; [auto|]. rewrite !in_app_iff in *. destruct I as [I|[I|I]]; [auto|auto|]. destruct (IH x I); auto.
Qed.
(* Every process gets the same text, with the configured type of indices in place of the placeholder *)
Theorem C43_every_process id_type raw : ~ In NUL raw -> exists out, replaced ID_TYPE_PATTERN id_type raw out /\
  forall rank, ReadAndBroadcastConfigFile id_type raw rank = Ret (out ++ [NUL]).
Proof.
  intros N. destruct (C43_substitution_exact ID_TYPE_PATTERN id_type raw ltac:(discriminate) N) as (out & Rp & E). exists out. split; [exact Rp|].
  intros rank. unfold ReadAndBroadcastConfigFile, substitutions. rewrite E. cbn [rbind fst snd]. destruct rank; [reflexivity|]. rewrite Nat2Z.id, firstn_app, firstn_all, Nat.sub_diag. cbn. now rewrite app_nil_r.
Qed.
Print Assumptions C43_every_process.
Definition text := list_ascii_of_string.
Example substitution_example : ReadAndSubstitute (substitutions (text "int32")) (text "a: x.${PETSC_ID_TYPE}.bin, y${PETSC_ID_TYPE}${PETSC_ID_TYPE}")
  = Ret (text "a: x.int32.bin, yint32int32" ++ [NUL], 27%Z) /\ ~ In NUL (text "a: x.${PETSC_ID_TYPE}.bin, y${PETSC_ID_TYPE}${PETSC_ID_TYPE}").
Proof. split; [vm_compute; reflexivity|]. cbn. intuition discriminate. Qed.
(* The function takes a table of placeholders, but with two it fails: each pass starts again from the raw text, and the
   sizes do not match.  The table in the code has one entry. *)
Theorem C43_several_placeholders_refuted : exists subs raw, length subs = 2 /\ ~ In NUL raw /\ ReadAndSubstitute subs raw = Error.
Proof. exists [(text "$A", text "one"); (text "$B", text "two")], (text "$A and $B"). split; [reflexivity|]. split; [cbn; intuition discriminate|]. vm_compute. reflexivity. Qed.
Print Assumptions C43_several_placeholders_refuted.

(** ** C61: prefix of the output files *)
Lemma occurs_nth pat s a i : occurs pat s a -> i < length pat -> nth_error s (length a + i) = nth_error pat i.
Proof. intros (b & ->) L. rewrite nth_error_app2 by lia. replace (length a + i - length a) with i by lia. now rewrite nth_error_app1. Qed.
(* an ending that starts with a dot and has no other: its first occurrence in base ++ ending is the end, unless the base has one *)
Lemma ending_first base ext rest : ext = "."%char :: rest -> ~ In "."%char rest -> (forall a, ~ occurs ext base a) -> forall a, occurs ext (base ++ ext) a -> length base <= length a.
Proof.
  intros E N No a O. destruct (Nat.le_gt_cases (length base) (length a)) as [|L]; [assumption|exfalso].
  destruct (Nat.le_gt_cases (length a + length ext) (length base)) as [L2|L2].
  - destruct O as (b & O). apply (No a). exists (firstn (length base - (length a + length ext)) b).
    assert (K : firstn (length base) (base ++ ext) = firstn (length base) (a ++ ext ++ b)) by now rewrite O. rewrite firstn_app, firstn_all, Nat.sub_diag, app_nil_r in K. rewrite K at 1.
    rewrite !firstn_app. rewrite firstn_all2 by lia. f_equal. rewrite firstn_all2 by lia. f_equal. f_equal. lia.
  - assert (Q := occurs_nth _ _ _ (length base - length a) O ltac:(lia)). replace (length a + (length base - length a)) with (length base + 0) in Q by lia.
    rewrite nth_error_app2, (Nat.add_comm (length base)), Nat.add_sub in Q by lia. rewrite E in Q at 1. cbn in Q. destruct (length base - length a) as [|j] eqn:J; [lia|]. rewrite E in Q. cbn in Q.
    symmetry in Q. apply nth_error_In in Q. contradiction.
Qed.
Lemma strstr_first pat s a : ~ In NUL s -> occurs pat s a -> (forall a', occurs pat s a' -> length a <= length a') -> strstr pat s = Some (length a).
Proof.
  intros N O F. destruct (strstr pat s) as [k|] eqn:E; [|exfalso; apply (strstr_none _ _ N E a O)]. destruct (strstr_some _ _ _ E) as (B & Sp & G). f_equal.
  assert (k <= length a) by (apply G, O). assert (length a <= k). { rewrite <- (firstn_length_le s (n := k)) by lia. apply F. exists (skipn (k + length pat) s). exact Sp. } lia.
Qed.
Definition has (pat s : list ascii) : Prop := exists a, occurs pat s a.
(* A configuration file base.yaml or base.yml gives the prefix base, if ".yaml" (and ".yml") is nowhere else in its path *)
Theorem C61_prefix_is_base_name_partial base : ~ In NUL base -> ~ has (text ".yaml") base ->
  DetermineConfigPrefix (base ++ text ".yaml") = base /\ (~ has (text ".yml") base -> DetermineConfigPrefix (base ++ text ".yml") = base).
Proof.
  intros N H. split.
  - unfold DetermineConfigPrefix. fold text. rewrite (strstr_first _ _ base).
    + rewrite firstn_app, firstn_all, Nat.sub_diag. cbn. apply app_nil_r.
    + rewrite in_app_iff. intros [I|I]; [contradiction|]. cbn in I. intuition discriminate.
    + exists []. now rewrite app_nil_r.
    + intros a'. apply (ending_first _ _ (text "yaml")); [reflexivity|cbn; intuition discriminate|intros a O; apply H; now exists a].
  - intros H2. unfold DetermineConfigPrefix. fold text. assert (N2 : ~ In NUL (base ++ text ".yml")) by (rewrite in_app_iff; intros [I|I]; [contradiction|]; cbn in I; intuition discriminate).
    destruct (strstr (text ".yaml") (base ++ text ".yml")) as [k|] eqn:E.
    + exfalso. destruct (strstr_some _ _ _ E) as (B & Sp & _). assert (O : occurs (text ".yaml") (base ++ text ".yml") (firstn k (base ++ text ".yml"))) by (eexists; exact Sp).
      set (s := base ++ text ".yml") in *. assert (Lk : length (firstn k s) = k) by (apply firstn_length_le; lia). assert (Ls : length s = length base + 4) by (unfold s; rewrite app_length; reflexivity). cbn [length text list_ascii_of_string] in B.
      destruct (Nat.le_gt_cases (k + 5) (length base)) as [L|L].
      * apply H. exists (firstn k s). destruct O as (b & O). exists (firstn (length base - (k + 5)) b).
        assert (K : firstn (length base) s = firstn (length base) (firstn k s ++ text ".yaml" ++ b)) by (f_equal; exact O). unfold s in K at 1. rewrite firstn_app, firstn_all, Nat.sub_diag, app_nil_r in K. rewrite K at 1.
        rewrite !firstn_app, Lk. rewrite (firstn_all2 (firstn k s)) by lia. f_equal. rewrite firstn_all2 by (cbn; lia). f_equal. f_equal. cbn. lia.
      * assert (Q := occurs_nth _ _ _ (length base - k) O ltac:(cbn; lia)). rewrite Lk in Q. replace (k + (length base - k)) with (length base) in Q by lia. unfold s in Q. rewrite nth_error_app2, Nat.sub_diag in Q by lia.
        assert (J : length base - k = 1 \/ length base - k = 2 \/ length base - k = 3 \/ length base - k = 4) by lia. destruct J as [J|[J|[J|J]]]; rewrite J in Q; discriminate.
    + rewrite (strstr_first _ _ base).
      * rewrite firstn_app, firstn_all, Nat.sub_diag. cbn. apply app_nil_r.
      * exact N2.
      * exists []. now rewrite app_nil_r.
      * intros a'. apply (ending_first _ _ (text "yml")); [reflexivity|cbn; intuition discriminate|intros a O; apply H2; now exists a].
Qed.
Print Assumptions C61_prefix_is_base_name_partial.
Example prefix_example : DetermineConfigPrefix (text "ex.2b.yaml") = text "ex.2b" /\ ~ has (text ".yaml") (text "ex.2b").
Proof. split; [reflexivity|]. intros (a & O). apply (strstr_none (text ".yaml") (text "ex.2b") ltac:(cbn; intuition discriminate) eq_refl a O). Qed.
(* In general: different configuration files can share the prefix, so that their outputs replace each other; and the prefix
   keeps the directory of the file, so that output goes to <output directory>/<directory of the file>/..., which nothing creates. *)
Theorem C61_prefix_refuted :
  (exists f1 f2, f1 <> f2 /\ DetermineConfigPrefix f1 = DetermineConfigPrefix f2) /\
  (exists f directory name, f = directory ++ "/"%char :: name ++ text ".yaml" /\ DetermineConfigPrefix f = directory ++ "/"%char :: name).
Proof.
  split.
  - exists (text "set.yaml.d/a.yaml"), (text "set.yaml.d/b.yaml"). split; [discriminate|reflexivity].
  - exists (text "cases/dam.yaml"), (text "cases"), (text "dam"). split; reflexivity.
Qed.
Print Assumptions C61_prefix_refuted.
