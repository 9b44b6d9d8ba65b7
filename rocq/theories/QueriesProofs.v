From Coq Require Import ZArith String Ascii.
From Verif Require Import Base MeshMapsModel MeshMapsProofs DataModel SetupModel ConfigModel ForcingModel ForcingProperties CheckpointModel CheckpointProperties QueriesModel.
Local Notation length := List.length.
Local Notation concat := List.concat.
Local Open Scope nat_scope.

(** ** Loops *)
Lemma set_seq_gen {A} (f : nat -> option A) (v : nat -> A) n : forall done arr, length arr = n ->
  (forall i, i < n -> f (length done + i) = Some (v (length done + i))) ->
  ofold (fun a i => let* x := f i in upd a i x) (seq (length done) n) (done ++ arr) = Some (done ++ map v (seq (length done) n)).
Proof.
  induction n as [|n IH]; intros done arr L H; cbn [seq ofold map].
  - destruct arr; [reflexivity|discriminate].
  - destruct arr as [|d r]; [discriminate|]. assert (E := H 0 ltac:(lia)). rewrite Nat.add_0_r in E. rewrite E. cbn [obind]. rewrite upd_middle. cbn [obind].
    replace (done ++ v (length done) :: r) with ((done ++ [v (length done)]) ++ r) by (rewrite <- app_assoc; reflexivity).
    replace (S (length done)) with (length (done ++ [v (length done)])) by (rewrite app_length; cbn; lia).
    rewrite IH; [rewrite <- app_assoc; reflexivity|cbn in L; lia|].
    intros i Hi. rewrite app_length. cbn [length]. replace (length done + 1 + i) with (length done + S i) by lia. apply H. lia.
Qed.
Lemma set_seq {A} (f : nat -> option A) (v : nat -> A) n arr : length arr = n -> (forall i, i < n -> f i = Some (v i)) ->
  ofold (fun a i => let* x := f i in upd a i x) (seq 0 n) arr = Some (map v (seq 0 n)).
Proof. intros L H. exact (set_seq_gen f v n [] arr L H). Qed.

Lemma ofold_ext {A S} (f h : S -> A -> option S) l : (forall s a, In a l -> f s a = h s a) -> forall s, ofold f l s = ofold h l s.
Proof.
  induction l as [|a t IH]; intros H s; cbn [ofold]; [reflexivity|]. rewrite (H s a (or_introl eq_refl)). destruct (h s a); cbn [obind]; [|reflexivity].
  apply IH. intros. apply H. right. assumption.
Qed.

(* the loop over the owned cells, with room for all of them *)
Lemma fill_gen {A B} (p : A -> bool) (f : A -> B) xs : forall done arr, length (filter p xs) <= length arr ->
  ofold (fill_step p f) xs (done ++ arr, length done) = Some (done ++ map f (filter p xs) ++ skipn (length (filter p xs)) arr, length done + length (filter p xs)).
Proof.
  induction xs as [|x t IH]; intros done arr H; cbn [ofold filter map].
  - cbn. rewrite Nat.add_0_r. reflexivity.
  - unfold fill_step at 1. cbn [filter] in H. destruct (p x); cbn [fst snd].
    + destruct arr as [|d r]; [cbn in H; lia|]. rewrite upd_middle. cbn [obind].
      replace (done ++ f x :: r) with ((done ++ [f x]) ++ r) by (rewrite <- app_assoc; reflexivity).
      replace (S (length done)) with (length (done ++ [f x])) by (rewrite app_length; cbn; lia).
      rewrite IH by (cbn in H; lia). cbn [map length skipn]. rewrite <- app_assoc, app_length. cbn. f_equal. f_equal. lia.
    + cbn [obind]. apply IH. exact H.
Qed.
Lemma fill_short {A B} (p : A -> bool) (f : A -> B) xs : forall done arr, length arr < length (filter p xs) ->
  ofold (fill_step p f) xs (done ++ arr, length done) = None.
Proof.
  induction xs as [|x t IH]; intros done arr H; cbn [ofold filter] in *; [cbn in H; lia|].
  unfold fill_step at 1. destruct (p x); cbn [fst snd].
  - destruct arr as [|d r].
    + rewrite app_nil_r. destruct (upd done (length done) (f x)) eqn:E; [|reflexivity]. apply upd_bound in E. lia.
    + rewrite upd_middle. cbn [obind].
      replace (done ++ f x :: r) with ((done ++ [f x]) ++ r) by (rewrite <- app_assoc; reflexivity).
      replace (S (length done)) with (length (done ++ [f x])) by (rewrite app_length; cbn; lia).
      apply IH. cbn in H. lia.
  - cbn [obind]. apply IH. exact H.
Qed.

Lemma owned_loop_fill {A} (p : nat -> bool) (a : nat -> option A) (v : nat -> A) n values : (forall i, i < n -> p i = true -> a i = Some (v i)) ->
  owned_loop p a n values = MeshMapsModel.fill p v (seq 0 n) values.
Proof.
  intros H. unfold owned_loop, MeshMapsModel.fill. apply ofold_ext. intros s i Hi. apply in_seq in Hi. unfold fill_step. destruct (p i) eqn:E; [|reflexivity]. rewrite (H i ltac:(lia) E). reflexivity.
Qed.

(** ** Names *)
Lemma len_trim_blanks s k : len_trim (s ++ repeat blank k) = len_trim s.
Proof.
  induction s as [|c t IH]; cbn [app len_trim]; [|now rewrite IH]. induction k as [|k IHk]; [reflexivity|]. cbn [repeat len_trim]. rewrite IHk. reflexivity.
Qed.
Lemma len_trim_app s c : c <> blank -> len_trim (s ++ [c]) = S (length s).
Proof.
  intros H. induction s as [|d t IH]; cbn [app len_trim length].
  - apply Ascii.eqb_neq in H. now rewrite H.
  - now rewrite IH.
Qed.
Lemma copy_chars (filename : list ascii) len n : n <= length filename -> n <= len ->
  ofold (fun b i => let* c := nth_error filename i in upd b i (Some c)) (seq 0 n) (repeat None len) = Some (map Some (firstn n filename) ++ repeat None (len - n)).
Proof.
  intros H1 H2. replace (repeat None len) with (repeat (@None ascii) n ++ repeat None (len - n)) by (rewrite <- repeat_app; f_equal; lia).
  assert (G : forall m, m <= n -> ofold (fun b i => let* c := nth_error filename i in upd b i (Some c)) (seq 0 m) (repeat None n ++ repeat None (len - n))
    = Some (map Some (firstn m filename) ++ repeat None (n - m) ++ repeat None (len - n))).
  { induction m as [|m IH]; intros Hm; [cbn; now rewrite Nat.sub_0_r|].
    rewrite seq_S, ofold_app, IH by lia. cbn [ofold obind plus].
    destruct (nth_error filename m) as [c|] eqn:Ec; [|apply nth_error_None in Ec; lia]. cbn [obind].
    replace (repeat (@None ascii) (n - m)) with (None :: repeat (@None ascii) (n - S m)) by (replace (n - m) with (S (n - S m)) by lia; reflexivity).
    assert (Lm : length (map Some (firstn m filename)) = m) by (rewrite map_length, firstn_length; lia).
    assert (U := upd_middle (map Some (firstn m filename)) None (repeat None (n - S m) ++ repeat None (len - n)) (Some c)). rewrite Lm in U. cbn [app]. rewrite U. cbn [obind].
    f_equal. replace (firstn (S m) filename) with (firstn m filename ++ [c]); [rewrite map_app, <- app_assoc; reflexivity|].
    clear - Ec. revert m Ec. induction filename as [|d t IH]; intros m Ec; [destruct m; discriminate|]. destruct m as [|m]; [injection Ec as ->; reflexivity|]. cbn [firstn app]. f_equal. apply IH. exact Ec. }
  rewrite (G n (le_n n)), Nat.sub_diag. reflexivity.
Qed.
Lemma c_string_of s t : ~ In NUL s -> c_string (map Some s ++ Some NUL :: t) = Some s.
Proof.
  induction s as [|c s IH]; intros H; cbn [map app c_string]; [reflexivity|].
  destruct (Ascii.eqb c NUL) eqn:E; [apply Ascii.eqb_eq in E; subst; exfalso; apply H; left; reflexivity|].
  rewrite IH by (intros X; apply H; right; exact X). reflexivity.
Qed.
Lemma c_name_seen len filename : 0 < len -> length filename = len -> ~ In NUL filename ->
  (let* b := c_name len filename in c_string b) = Some (firstn (Nat.min (len - 1) (len_trim filename)) filename).
Proof.
  intros H0 HL HN. unfold c_name. set (n := Nat.min (len - 1) (len_trim filename)). cbv zeta. assert (Hn : n < len) by (unfold n; lia).
  rewrite copy_chars by lia. cbn [obind]. replace (len - n) with (S (len - n - 1)) by lia. cbn [repeat].
  assert (Lm : length (map Some (firstn n filename)) = n) by (rewrite map_length, firstn_length; lia).
  assert (U := upd_middle (map Some (firstn n filename)) None (repeat None (len - n - 1)) (Some NUL)). rewrite Lm in U. rewrite U. cbn [obind].
  apply c_string_of. intros X. apply HN. rewrite <- (firstn_skipn n filename). apply in_or_app. left. exact X.
Qed.

(** ** Natural numbers of cells *)
Lemma natural_vec_nth nf rows : 0 < nf -> forall start rank c, c < list_sum rows -> nth_error (natural_vec nf (nf * start) rank rows) (nf * c) = Some (INR (start + c)).
Proof.
  intros Hf. induction rows as [|r t IH]; intros start rank c Hc; [cbn in Hc; lia|]. cbn [natural_vec]. cbn [list_sum fold_right] in Hc. fold (list_sum t) in Hc.
  assert (Le : length (natural_entries nf (nf * start) (nf * r) rank) = nf * r) by (unfold natural_entries; rewrite map_length, seq_length; reflexivity).
  destruct (Nat.lt_ge_cases c r) as [H|H].
  - rewrite nth_error_app1 by (rewrite Le; nia). unfold natural_entries. rewrite nth_error_map.
    assert (E : nth_error (seq 0 (nf * r)) (nf * c) = Some (nf * c)). { rewrite (nth_error_nth' _ 0) by (rewrite seq_length; nia). rewrite seq_nth by nia. reflexivity. }
    rewrite E. cbn [option_map]. rewrite (Nat.mul_comm nf c), Nat.mod_mul by lia. cbn [Nat.eqb]. f_equal. replace (nf * start + c * nf) with (nf * (start + c)) by lia. rewrite mult_INR.
    assert (INR nf <> 0%R) by (apply not_0_INR; lia). field. assumption.
  - rewrite nth_error_app2 by (rewrite Le; nia). rewrite Le. replace (nf * start + nf * r) with (nf * (start + r)) by lia. replace (nf * c - nf * r) with (nf * (c - r)) by nia.
    rewrite IH by lia. replace (start + r + (c - r)) with (start + c) by lia. reflexivity.
Qed.
Lemma natural_vec_length nf rows : forall start rank, length (natural_vec nf start rank rows) = nf * list_sum rows.
Proof.
  induction rows as [|r t IH]; intros start rank; cbn [natural_vec]; [cbn; lia|]. rewrite app_length, IH. unfold natural_entries. rewrite map_length, seq_length. cbn [list_sum fold_right]. fold (list_sum t). lia.
Qed.
Lemma gather_spec bs from v n : length v = bs * n -> (forall c, In c from -> c < n) ->
  exists w, gather_blocks bs from v = Some w /\ length w = bs * length from /\
    forall i c j, nth_error from i = Some c -> j < bs -> nth_error w (bs * i + j) = nth_error v (bs * c + j).
Proof.
  intros Lv. unfold gather_blocks. induction from as [|c t IH]; intros H.
  - exists []. cbn. split; [reflexivity|]. split; [lia|]. intros i; destruct i; discriminate.
  - destruct IH as (w & E & Lw & G); [intros; apply H; right; assumption|].
    destruct (omap (fun c => omap (fun j => nth_error v (bs * c + j)) (seq 0 bs)) t) as [rows|] eqn:Er; [|discriminate]. cbn [option_map] in E. injection E as <-.
    assert (Hc : c < n) by (apply H; left; reflexivity).
    assert (B : exists row, omap (fun j => nth_error v (bs * c + j)) (seq 0 bs) = Some row /\ length row = bs /\ forall j, j < bs -> nth_error row j = nth_error v (bs * c + j)).
    { assert (G' : forall m s, s + m <= bs -> exists row, omap (fun j => nth_error v (bs * c + j)) (seq s m) = Some row /\ length row = m /\ forall j, j < m -> nth_error row j = nth_error v (bs * c + (s + j))).
      { induction m as [|m IHm]; intros s Hs; [exists []; cbn; split; [reflexivity|]; split; [reflexivity|]; intros; lia|].
        cbn [seq omap]. destruct (nth_error v (bs * c + s)) as [x|] eqn:Ex; [|apply nth_error_None in Ex; nia]. cbn [obind].
        destruct (IHm (S s) ltac:(lia)) as (row & E1 & L1 & G1). rewrite E1. cbn [obind]. exists (x :: row). split; [reflexivity|]. split; [cbn; lia|].
        intros [|j] Hj; [cbn; rewrite Nat.add_0_r, Ex; reflexivity|]. cbn [nth_error]. rewrite G1 by lia. f_equal. lia. }
      destruct (G' bs 0 (le_n _)) as (row & E1 & L1 & G1). exists row. split; [exact E1|]. split; [exact L1|]. intros j Hj. rewrite G1 by exact Hj. reflexivity. }
    destruct B as (row & E1 & L1 & G1). cbn [omap]. rewrite E1. cbn [obind]. rewrite Er. cbn [obind option_map concat]. exists (row ++ concat rows).
    split; [reflexivity|]. split; [rewrite app_length, Lw, L1; cbn [length]; lia|].
    intros [|i] c' j Hi Hj.
    + cbn in Hi. injection Hi as <-. rewrite Nat.mul_0_r, nth_error_app1 by lia. cbn. apply G1. exact Hj.
    + cbn in Hi. rewrite nth_error_app2 by lia. replace (bs * S i + j - length row) with (bs * i + j) by lia. apply G; assumption.
Qed.
