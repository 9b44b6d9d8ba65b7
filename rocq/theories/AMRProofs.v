(** Lemmas on AMRModel. *)
From Verif Require Import Base SetupModel ConfigModel MeshMapsProofs AMRModel.
Local Open Scope nat_scope.

(** ** Inserted entries *)
Definition put (m : mat) (e : nat * nat * R) : mat :=
  Mat (m_rows m) (m_cols m) (fun i' j' => if (i' =? fst (fst e)) && (j' =? snd (fst e)) then snd e else m_entry m i' j').
Definition put_all (m : mat) (l : list (nat * nat * R)) : mat := fold_left put l m.
Lemma MatSetValue_put m i j v : i < m_rows m -> j < m_cols m -> MatSetValue m i j v = Some (put m (i, j, v)).
Proof. intros H1 H2. unfold MatSetValue. apply Nat.ltb_lt in H1, H2. rewrite H1, H2. reflexivity. Qed.
Lemma put_all_dims l : forall m, m_rows (put_all m l) = m_rows m /\ m_cols (put_all m l) = m_cols m.
Proof. induction l as [|e l IH]; intros m; [split; reflexivity|]. exact (IH (put m e)). Qed.
Lemma put_all_none l : forall m i j, (forall v, ~ In (i, j, v) l) -> m_entry (put_all m l) i j = m_entry m i j.
Proof.
  induction l as [|((a, b), v) l IH]; intros m i j H; [reflexivity|]. change (put_all m ((a, b, v) :: l)) with (put_all (put m (a, b, v)) l). rewrite IH by (intros w X; apply (H w); right; exact X).
  cbn. destruct (Nat.eqb_spec i a) as [E|]; [|reflexivity]. destruct (Nat.eqb_spec j b) as [E'|]; [|reflexivity]. subst. exfalso. apply (H v). left. reflexivity.
Qed.
Lemma put_all_some l : forall m i j v, In (i, j, v) l -> (forall w, In (i, j, w) l -> w = v) -> m_entry (put_all m l) i j = v.
Proof.
  induction l as [|((a, b), u) l IH]; intros m i j v H U; [destruct H|]. change (put_all m ((a, b, u) :: l)) with (put_all (put m (a, b, u)) l).
  destruct (in_dec (fun x y : nat * nat => ltac:(decide equality; apply Nat.eq_dec)) (i, j) (map fst l)) as [K|K].
  - apply in_map_iff in K. destruct K as (((i', j'), w) & E & K). cbn in E. injection E as -> ->. assert (w = v) by (apply U; right; exact K). subst w. apply IH; [exact K|]. intros w W. apply U. right. exact W.
  - rewrite put_all_none by (intros w W; apply K; apply in_map_iff; exists (i, j, w); auto). destruct H as [H|H]; [|exfalso; apply K; apply in_map_iff; exists (i, j, v); auto]. injection H as -> -> ->. cbn. rewrite !Nat.eqb_refl. reflexivity.
Qed.

(** ** The loops of ConstructRefineTree *)
Definition down (bs : nat) (v : nat * nat * nat) : list (nat * nat * R) := let '(c, p, n) := v in map (fun i => (bs * p + i, bs * c + i, 1%R)) (seq 0 bs).
Definition up (bs : nat) (v : nat * nat * nat) : list (nat * nat * R) := let '(c, p, n) := v in map (fun i => (bs * c + i, bs * p + i, (1 / INR n)%R)) (seq 0 bs).
Lemma index_bound bs p i n : p < n -> i < bs -> bs * p + i < bs * n. Proof. nia. Qed.
Lemma index_eq bs p i q k : i < bs -> k < bs -> bs * p + i = bs * q + k -> p = q /\ i = k.
Proof. intros Hi Hk E. assert (p = q) by nia. split; [assumption|]. subst. lia. Qed.
Lemma obind_Some {A B} (x : A) (f : A -> option B) : obind (Some x) f = f x. Proof. reflexivity. Qed.
Lemma insert_visit_put bs nf nc c p n a b : c < nc -> p < nf -> 0 < n -> m_rows a = bs * nf -> m_cols a = bs * nc -> m_rows b = bs * nc -> m_cols b = bs * nf ->
  insert_visit bs (a, b) (c, p, n) = Some (put_all a (down bs (c, p, n)), put_all b (up bs (c, p, n))).
Proof.
  intros Hc Hp Hn. unfold insert_visit, down, up.
  assert (G : forall l, (forall i, In i l -> i < bs) -> forall a b, m_rows a = bs * nf -> m_cols a = bs * nc -> m_rows b = bs * nc -> m_cols b = bs * nf ->
    ofold (fun ms i => let* c2f := MatSetValue (fst ms) (bs * p + i) (bs * c + i) 1 in let* w := rdiv 1 (INR n) in let* f2c := MatSetValue (snd ms) (bs * c + i) (bs * p + i) w in Some (c2f, f2c)) l (a, b) =
    Some (put_all a (map (fun i => (bs * p + i, bs * c + i, 1%R)) l), put_all b (map (fun i => (bs * c + i, bs * p + i, (1 / INR n)%R)) l))).
  { clear a b. intros l. induction l as [|i l IH]; intros Hl a b A1 A2 B1 B2; [reflexivity|]. assert (Hi : i < bs) by (apply Hl; left; reflexivity).
    cbn [ofold]. match goal with |- obind ?e _ = _ => replace e with (Some (put a (bs * p + i, bs * c + i, 1%R), put b (bs * c + i, bs * p + i, (1 / INR n)%R))) end.
    { rewrite obind_Some. rewrite IH; [reflexivity|intros; apply Hl; right; assumption|assumption..]. }
    cbn [fst snd]. rewrite MatSetValue_put by (rewrite ?A1, ?A2; apply index_bound; assumption). rewrite obind_Some.
    rewrite rdiv_some by (apply not_0_INR; lia). rewrite obind_Some. rewrite MatSetValue_put by (rewrite ?B1, ?B2; apply index_bound; assumption). reflexivity. }
  apply G. intros i Hi. apply in_seq in Hi. lia.
Qed.
Lemma put_all_app m l l' : put_all m (l ++ l') = put_all (put_all m l) l'. Proof. apply fold_left_app. Qed.
Lemma insert_visits_put bs nf nc : forall vs a b, (forall c p n, In (c, p, n) vs -> c < nc /\ p < nf /\ 0 < n) -> m_rows a = bs * nf -> m_cols a = bs * nc -> m_rows b = bs * nc -> m_cols b = bs * nf ->
  ofold (insert_visit bs) vs (a, b) = Some (put_all a (flat_map (down bs) vs), put_all b (flat_map (up bs) vs)).
Proof.
  induction vs as [|((c, p), n) vs IH]; intros a b H A1 A2 B1 B2; [reflexivity|]. cbn [ofold flat_map]. destruct (H c p n (or_introl eq_refl)) as (Hc & Hp & Hn).
  rewrite (insert_visit_put bs nf nc) by assumption. cbn [obind]. rewrite !put_all_app. destruct (put_all_dims (down bs (c, p, n)) a) as (D1 & D2). destruct (put_all_dims (up bs (c, p, n)) b) as (U1 & U2).
  apply IH; [|congruence..]. intros c' p' n' X. apply H. right. exact X.
Qed.

(** ** Children *)
(* fine cell [p] is a piece of coarse cell [c] *)
Definition child (t : tree) (c p : nat) : Prop := exists cell, nth_error t c = Some cell /\ exists g, In g (snd cell) /\ fst g = fst cell /\ In p (snd g).
Definition fines (t : tree) : list nat := map (fun v => snd (fst v)) (visits t).
Lemma visits_spec t c p n : In (c, p, n) (visits t) <-> exists cell, nth_error t c = Some cell /\ exists g, In g (snd cell) /\ fst g = fst cell /\ In p (snd g) /\ n = length (snd g).
Proof.
  unfold visits. rewrite in_flat_map. split.
  - intros ((c', cell) & Hc & H). apply in_map_iff in H. destruct H as ((p', n') & E & H). cbn in E. injection E as -> -> ->. exists cell.
    split; [|unfold pieces in H; apply in_flat_map in H; destruct H as (g & Hg & H); exists g; split; [exact Hg|]; cbn [snd] in H; destruct (Nat.eqb_spec (fst g) (fst cell)) as [E|]; [|destruct H]; split; [exact E|]; apply in_map_iff in H; destruct H as (q & Eq & Hq); injection Eq as -> <-; auto].
    apply In_nth_error in Hc. destruct Hc as (k & Hk). assert (Hl : k < length (combine (seq 0 (length t)) t)) by (apply nth_error_Some; congruence). rewrite combine_length, seq_length, Nat.min_id in Hl.
    assert (X := combine_nth (seq 0 (length t)) t k 0 cell (seq_length _ _)). rewrite (nth_error_nth _ _ _ Hk) in X. injection X as X1 X2. rewrite seq_nth in X1 by exact Hl. cbn in X1. subst. rewrite (nth_error_nth' t cell Hl), <- X2. reflexivity.
  - intros (cell & Hc & g & Hg & E & Hp & ->). exists (c, cell). split.
    + assert (Hl : c < length t) by (apply nth_error_Some; congruence). assert (X := combine_nth (seq 0 (length t)) t c 0 cell (seq_length _ _)). rewrite seq_nth, (nth_error_nth t c cell Hc) in X by exact Hl. cbn in X. rewrite <- X. apply nth_In. rewrite combine_length, seq_length, Nat.min_id. exact Hl.
    + apply in_map_iff. exists (p, length (snd g)). split; [reflexivity|]. cbn [snd]. unfold pieces. apply in_flat_map. exists g. split; [exact Hg|]. rewrite E, Nat.eqb_refl. apply in_map_iff. exists p. auto.
Qed.
Lemma child_visit t c p : child t c p <-> exists n, In (c, p, n) (visits t).
Proof.
  split.
  - intros (cell & Hc & g & Hg & E & Hp). exists (length (snd g)). apply visits_spec. exists cell. split; [exact Hc|]. exists g. auto.
  - intros (n & H). apply visits_spec in H. destruct H as (cell & Hc & g & Hg & E & Hp & _). exists cell. split; [exact Hc|]. exists g. auto.
Qed.
(* Every fine cell is a piece of one coarse cell, once (what refinement by PETSc provides). *)
Definition partition (t : tree) (nf : nat) : Prop := Permutation (fines t) (seq 0 nf).
Section With_tree.
  Context (t : tree) (nf : nat) (P : partition t nf).
  Lemma child_range c p : child t c p -> c < length t /\ p < nf.
  Proof.
    intros H. split; [destruct H as (cell & H & _); apply nth_error_Some; congruence|]. apply child_visit in H. destruct H as (n & H).
    assert (X : In p (fines t)) by (apply in_map_iff; exists (c, p, n); auto). apply (Permutation_in _ P) in X. apply in_seq in X. lia.
  Qed.
  Lemma child_exists p : p < nf -> exists c, child t c p.
  Proof. intros H. assert (X : In p (fines t)) by (apply (Permutation_in _ (Permutation_sym P)); apply in_seq; lia). apply in_map_iff in X. destruct X as (((c, p'), n) & E & X). cbn in E. subst. exists c. apply child_visit. exists n. exact X. Qed.
  Lemma fines_NoDup : NoDup (fines t). Proof. apply (Permutation_NoDup (Permutation_sym P)). apply seq_NoDup. Qed.
  Lemma visit_unique c p n c' n' : In (c, p, n) (visits t) -> In (c', p, n') (visits t) -> c = c' /\ n = n'.
  Proof.
    assert (N := fines_NoDup). unfold fines in N. revert N. generalize (visits t). intros l N H H'.
    assert ((c, p, n) = (c', p, n')) as E; [|injection E; auto]. induction l as [|x l IH]; [destruct H|]. cbn in N. inversion_clear N as [|? ? Na Nb].
    destruct H as [H|H], H' as [H'|H']; [congruence|exfalso; apply Na; rewrite H; apply in_map_iff; exists (c', p, n'); auto|exfalso; apply Na; rewrite H'; apply in_map_iff; exists (c, p, n); auto|auto].
  Qed.
  Lemma child_unique c c' p : child t c p -> child t c' p -> c = c'.
  Proof. intros H H'. apply child_visit in H, H'. destruct H as (n & H), H' as (n' & H'). apply (visit_unique c p n c' n'); assumption. Qed.
  Lemma tree_built bs : ConstructRefineTree bs nf t = Some (put_all (MatCreate (bs * nf) (bs * length t)) (flat_map (down bs) (visits t)), put_all (MatCreate (bs * length t) (bs * nf)) (flat_map (up bs) (visits t))).
  Proof.
    apply (insert_visits_put bs nf (length t)); try reflexivity. intros c p n H. assert (C : child t c p) by (apply child_visit; exists n; exact H). destruct (child_range c p C). split; [assumption|]. split; [assumption|].
    apply visits_spec in H. destruct H as (cell & _ & g & _ & _ & Hp & ->). destruct (snd g); [destruct Hp|cbn; lia].
  Qed.
  Lemma down_entry bs p i c k : p < nf -> c < length t -> i < bs -> k < bs ->
    (child t c p -> i = k -> m_entry (put_all (MatCreate (bs * nf) (bs * length t)) (flat_map (down bs) (visits t))) (bs * p + i) (bs * c + k) = 1%R) /\
    (~ (child t c p /\ i = k) -> m_entry (put_all (MatCreate (bs * nf) (bs * length t)) (flat_map (down bs) (visits t))) (bs * p + i) (bs * c + k) = 0%R).
  Proof.
    intros Hp Hc Hi Hk.
    assert (D : forall v, In (bs * p + i, bs * c + k, v) (flat_map (down bs) (visits t)) <-> v = 1%R /\ child t c p /\ i = k).
    { intros v. rewrite in_flat_map. split.
      - intros (((c', p'), n') & H & X). cbn in X. apply in_map_iff in X. destruct X as (i' & E & X). apply in_seq in X. injection E as E1 E2 E3.
        destruct (index_eq bs p' i' p i) as (-> & ->); [lia|lia|lia|]. destruct (index_eq bs c' i c k) as (-> & ->); [lia|lia|lia|]. split; [congruence|]. split; [apply child_visit; exists n'; exact H|reflexivity].
      - intros (-> & C & ->). apply child_visit in C. destruct C as (n & C). exists (c, p, n). split; [exact C|]. apply in_map_iff. exists k. split; [reflexivity|]. apply in_seq. lia. }
    split.
    - intros C ->. apply put_all_some; [apply D; auto|]. intros w W. apply D in W. tauto.
    - intros N. rewrite put_all_none; [reflexivity|]. intros v X. apply D in X. tauto.
  Qed.
End With_tree.
Lemma rsum_single (g : nat -> R) n k : k < n -> (forall j, j < n -> j <> k -> g j = 0%R) -> rsum g (seq 0 n) = g k.
Proof.
  intros Hk Z. replace n with (k + (1 + (n - k - 1))) by lia. rewrite seq_app, rsum_app. cbn [seq rsum Nat.add]. 
  rewrite rsum_zero by (intros j Hj; apply in_seq in Hj; apply Z; lia). rewrite rsum_zero by (intros j Hj; apply in_seq in Hj; apply Z; lia). lra.
Qed.
(* a matrix that copies, for each of [nf] cells p, the [bs] values of cell [par p] *)
Definition copies (bs nf nc : nat) (par : nat -> nat) (m : mat) : Prop :=
  m_rows m = bs * nf /\ m_cols m = bs * nc /\ (forall p, p < nf -> par p < nc) /\
  forall p i c k, p < nf -> c < nc -> i < bs -> k < bs -> m_entry m (bs * p + i) (bs * c + k) = if (c =? par p) && (i =? k) then 1%R else 0%R.
Lemma divide bs j n : j < bs * n -> exists c k, j = bs * c + k /\ c < n /\ k < bs.
Proof. intros H. assert (bs <> 0) by lia. exists (j / bs), (j mod bs). split; [apply Nat.div_mod; assumption|]. split; [apply Nat.div_lt_upper_bound; [assumption|]; lia|apply Nat.mod_upper_bound; assumption]. Qed.
Lemma copies_row bs nf nc par m g p i : copies bs nf nc par m -> p < nf -> i < bs -> rsum (fun j => (m_entry m (bs * p + i) j * g j)%R) (seq 0 (m_cols m)) = g (bs * par p + i).
Proof.
  intros (_ & C & B & E) Hp Hi. rewrite C. assert (Hpar := B p Hp). rewrite (rsum_single _ _ (bs * par p + i)).
  - rewrite E by assumption. rewrite !Nat.eqb_refl. cbn. ring.
  - apply index_bound; assumption.
  - intros j Hj N. destruct (divide bs j nc Hj) as (c & k & -> & Hc & Hk). rewrite E by assumption. destruct (Nat.eqb_spec c (par p)) as [->|]; cbn; [|ring]. destruct (Nat.eqb_spec i k) as [->|]; [exfalso; apply N; reflexivity|ring].
Qed.
Lemma nth_map_seq {A} (f : nat -> A) n k d : k < n -> nth k (map f (seq 0 n)) d = f k.
Proof. intros H. rewrite nth_indep with (d' := f 0) by (rewrite map_length, seq_length; exact H). rewrite map_nth, seq_nth by exact H. reflexivity. Qed.
Lemma copies_mult bs nf nc par m x : copies bs nf nc par m -> length x = bs * nc ->
  exists y, MatMult m x = Some y /\ length y = bs * nf /\ forall p i, p < nf -> i < bs -> nth (bs * p + i) y 0%R = nth (bs * par p + i) x 0%R.
Proof.
  intros M L. unfold MatMult. assert (M' := M). destruct M as (R & C & _). rewrite L, C, Nat.eqb_refl. eexists. split; [reflexivity|]. split; [rewrite map_length, seq_length; exact R|].
  intros p i Hp Hi. rewrite nth_map_seq by (rewrite R; apply index_bound; assumption). rewrite <- C. apply (copies_row bs nf nc par m (fun j => nth j x 0%R)); assumption.
Qed.
Lemma copies_compose bs nf nc nb par anc a b : copies bs nf nc par a -> copies bs nc nb anc b -> exists m, MatMatMult a b = Some m /\ copies bs nf nb (fun p => anc (par p)) m.
Proof.
  intros A B. assert (A' := A). destruct A as (A1 & A2 & A3 & A4), B as (B1 & B2 & B3 & B4). unfold MatMatMult. rewrite A2, B1, Nat.eqb_refl. eexists. split; [reflexivity|]. split; [exact A1|]. split; [exact B2|]. split; [auto|].
  intros p i c k Hp Hc Hi Hk. cbn [m_entry]. rewrite <- A2. rewrite (copies_row bs nf nc par a (fun j => m_entry b j (bs * c + k)) p i A' Hp Hi). apply B4; auto.
Qed.
(* the parent of a fine cell, from the table of visits *)
Definition parent (t : tree) (p : nat) : nat := match find (fun v => snd (fst v) =? p) (visits t) with Some v => fst (fst v) | None => 0 end.
Lemma parent_child t nf p : partition t nf -> p < nf -> child t (parent t p) p.
Proof.
  intros P H. destruct (child_exists t nf P p H) as (c & C). apply child_visit in C. destruct C as (n & C). unfold parent. destruct (find _ (visits t)) as [((c', p'), n')|] eqn:F.
  - apply find_some in F. destruct F as (F & E). cbn in E. apply Nat.eqb_eq in E. subst. apply child_visit. exists n'. exact F.
  - apply (find_none _ _ F) in C. cbn in C. rewrite Nat.eqb_refl in C. discriminate.
Qed.
Lemma child_parent t nf c p : partition t nf -> child t c p <-> p < nf /\ c = parent t p.
Proof.
  intros P. split.
  - intros C. destruct (child_range t nf P c p C). split; [assumption|]. apply (child_unique t nf P c (parent t p) p C). apply (parent_child t nf); assumption.
  - intros (H & ->). apply (parent_child t nf); assumption.
Qed.
Lemma tree_copies bs t nf : partition t nf -> exists m, ConstructRefineTree bs nf t = Some m /\ copies bs nf (length t) (parent t) (fst m).
Proof.
  intros P. rewrite (tree_built t nf P). eexists. split; [reflexivity|]. cbn [fst]. destruct (put_all_dims (flat_map (down bs) (visits t)) (MatCreate (bs * nf) (bs * length t))) as (D1 & D2). split; [exact D1|]. split; [exact D2|].
  split; [intros p Hp; apply (child_range t nf P _ p); apply (parent_child t nf); assumption|].
  intros p i c k Hp Hc Hi Hk. destruct (down_entry t nf bs p i c k Hp Hc Hi Hk) as (H1 & H0). destruct (Nat.eqb_spec c (parent t p)) as [E|E]; [destruct (Nat.eqb_spec i k) as [E'|E']|]; cbn.
  - apply H1; [|exact E']. apply (child_parent t nf); auto.
  - apply H0. tauto.
  - apply H0. intros (X & _). apply (child_parent t nf _ _ P) in X. tauto.
Qed.

(** ** Tables of children *)
Lemma nth_mapped {A B} (f : A -> B) l k d d' : k < length l -> nth k (map f l) d' = f (nth k l d).
Proof. intros H. rewrite nth_indep with (d' := f d) by (rewrite map_length; exact H). apply map_nth. Qed.
Lemma marked_length ndof firsts : 0 < ndof -> length (marked ndof firsts) = ndof * length firsts.
Proof. intros H. unfold marked. induction firsts as [|x l IH]; [cbn; lia|]. cbn [flat_map]. rewrite app_length, IH. cbn [length]. rewrite repeat_length. lia. Qed.
Lemma marked_first ndof firsts : 0 < ndof -> forall c, c < length firsts -> nth (ndof * c) (marked ndof firsts) 0%R = nth c firsts 0%R.
Proof.
  intros H. unfold marked. induction firsts as [|x l IH]; intros c Hc; [cbn in Hc; lia|]. cbn [flat_map]. destruct c as [|c]; [rewrite Nat.mul_0_r; reflexivity|].
  rewrite app_nth2; cbn [length]; rewrite repeat_length; [|nia]. replace (ndof * S c - S (ndof - 1)) with (ndof * c) by nia. cbn [nth]. apply IH. cbn in Hc. lia.
Qed.
Lemma index_of_INR n : (Z.of_nat n < 2 ^ 31)%Z -> index_of (INR n) = Some n.
Proof.
  intros H. unfold index_of, to_int. destruct (Rle_dec 0 (INR n)) as [_|N]; [|exfalso; apply N; apply pos_INR]. rewrite Int_part_INR.
  assert (A : Z.ltb (- 2 ^ 31 - 1) (Z.of_nat n) = true) by (apply Z.ltb_lt; lia). assert (B : Z.ltb (Z.of_nat n) (2 ^ 31) = true) by (apply Z.ltb_lt; exact H). rewrite A, B. cbn [andb].
  assert (C : Z.leb 0 (Z.of_nat n) = true) by (apply Z.leb_le; lia). rewrite C, Nat2Z.id. reflexivity.
Qed.
Lemma upd_total {A} (l : list A) i x : i < length l -> exists l', upd l i x = Some l' /\ length l' = length l /\ forall j, nth_error l' j = if j =? i then Some x else nth_error l j.
Proof.
  intros H. destruct (upd_some l i x H) as (l' & E). exists l'. split; [exact E|]. split; [apply (upd_length _ _ _ _ E)|]. intros j. rewrite (upd_get _ _ _ _ j E). destruct (Nat.eqb_spec j i); reflexivity.
Qed.
(* cells below [k] whose parent is [c], in order *)
Definition kids (par : nat -> nat) (c k : nat) : list nat := filter (fun p => par p =? c) (seq 0 k).
Lemma kids_S par c k : kids par c (S k) = kids par c k ++ (if par k =? c then [k] else []).
Proof. unfold kids. rewrite seq_S, filter_app. cbn. destruct (par k =? c); reflexivity. Qed.
Definition before (par : nat -> nat) (nf c : nat) : nat := fold_right (fun c n => length (kids par c nf) + n) 0 (seq 0 c).
Lemma before_S par nf c : before par nf (S c) = before par nf c + length (kids par c nf).
Proof.
  unfold before. rewrite seq_S, fold_right_app. cbn [fold_right Nat.add]. generalize (seq 0 c). induction l as [|a l IH]; cbn [fold_right]; [lia|]. rewrite IH. lia.
Qed.
Lemma before_mono par nf c c' : c < c' -> before par nf c + length (kids par c nf) <= before par nf c'.
Proof. intros H. induction H as [|m H IH]; [rewrite before_S; lia|]. rewrite before_S. lia. Qed.
Lemma before_total par nf nc : (forall p, p < nf -> par p < nc) -> before par nf nc = nf.
Proof.
  induction nf as [|k IH]; intros H.
  - clear. unfold before. induction (seq 0 nc) as [|a l IH]; [reflexivity|]. cbn [fold_right]. rewrite IH. reflexivity.
  - assert (G : forall n, before par (S k) n = before par k n + (if par k <? n then 1 else 0)).
    { induction n as [|n IHn]; [reflexivity|]. rewrite !before_S, IHn, kids_S, app_length. destruct (Nat.ltb_spec (par k) n), (Nat.ltb_spec (par k) (S n)), (Nat.eqb_spec (par k) n); cbn [length]; lia. }
    rewrite G, IH by (intros; apply H; lia). assert (X : par k < nc) by (apply H; lia). apply Nat.ltb_lt in X. rewrite X. lia.
Qed.
Lemma kids_length_le par c k nf : k <= nf -> length (kids par c k) <= length (kids par c nf).
Proof. intros H. induction H as [|m H IH]; [lia|]. rewrite kids_S, app_length. lia. Qed.
Lemma kids_prefix par c k nf j x : k <= nf -> nth_error (kids par c k) j = Some x -> nth_error (kids par c nf) j = Some x.
Proof. intros H E. induction H as [|m H IH]; [exact E|]. rewrite kids_S. rewrite nth_error_app1; [exact IH|]. apply nth_error_Some. congruence. Qed.
Lemma omap_app {A B} (f : A -> option B) l1 l2 : omap f (l1 ++ l2) = (let* a := omap f l1 in let* b := omap f l2 in Some (a ++ b)).
Proof. induction l1 as [|x l IH]; cbn [app omap]; [destruct (omap f l2); reflexivity|]. destruct (f x); [|reflexivity]. cbn [obind]. rewrite IH. destruct (omap f l); [|reflexivity]. cbn [obind]. destruct (omap f l2); reflexivity. Qed.
Section Tables.
  Context (ndof nf nc : nat) (par : nat -> nat) (c2f : mat) (is_owned : list bool).
  Context (Hn : 0 < ndof) (M : copies ndof nf nc par c2f) (L : length is_owned = nc) (Pos : 0 < nc) (Small : (Z.of_nat nc <= 2 ^ 31)%Z).
  Lemma table_rows : m_rows c2f / ndof = nf.
  Proof. destruct M as (R & _). rewrite R, Nat.mul_comm. apply Nat.div_mul. lia. Qed.
  Lemma marked_fine firsts : length firsts = nc -> exists y, MatMult c2f (marked ndof firsts) = Some y /\ forall p, p < nf -> nth_error y (p * ndof) = Some (nth (par p) firsts 0%R).
  Proof.
    intros E. destruct (copies_mult ndof nf nc par c2f (marked ndof firsts) M) as (y & Ey & Ly & Vy); [rewrite marked_length by exact Hn; rewrite E; reflexivity|]. exists y. split; [exact Ey|]. intros p Hp.
    rewrite (nth_error_nth' y 0%R) by (rewrite Ly; nia). f_equal. specialize (Vy p 0 Hp Hn). rewrite !Nat.add_0_r in Vy. rewrite Nat.mul_comm, Vy. apply marked_first; [exact Hn|]. rewrite E. apply M. exact Hp.
  Qed.
  Lemma tables_built : exists tb, DetermineCoarseToFineCellMapping ndof c2f is_owned = Some tb /\
    length (t_owned tb) = ndof * nf /\
    (forall p, p < nf -> nth_error (t_parent tb) p = Some (par p)) /\
    (forall p, nth_error (t_owned tb) p = if p <? nf then Some (if nth (par p) is_owned false then 1%R else 0%R) else if p <? ndof * nf then Some 0%R else None) /\
    forall c, c < nc -> children_of tb c = Some (kids par c nf).
  Proof.
    assert (Mr : m_rows c2f = ndof * nf) by apply M. assert (Mc : m_cols c2f = ndof * nc) by apply M. assert (Mp : forall p, p < nf -> par p < nc) by apply M.
    unfold DetermineCoarseToFineCellMapping. rewrite L.
    destruct (marked_fine (map INR (seq 0 nc))) as (x & Ex & Vx); [rewrite map_length, seq_length; reflexivity|]. rewrite Ex, obind_Some.
    destruct (marked_fine (map (fun b : bool => if b then 1%R else 0%R) is_owned)) as (xo & Exo & Vxo); [rewrite map_length; exact L|]. rewrite Exo, obind_Some, table_rows, Mr, Mc.
    assert (Vx' : forall p, p < nf -> nth_error x (p * ndof) = Some (INR (par p))).
    { intros p Hp. rewrite (Vx p Hp). f_equal. apply (nth_map_seq INR nc (par p)). apply Mp. exact Hp. }
    assert (Vxo' : forall p, p < nf -> nth_error xo (p * ndof) = Some (if nth (par p) is_owned false then 1%R else 0%R)).
    { intros p Hp. rewrite (Vxo p Hp). f_equal. apply (nth_mapped (fun b : bool => if b then 1%R else 0%R)). rewrite L. apply Mp. exact Hp. }
    clear Vx Vxo Ex Exo.
    assert (Id : forall p, p < nf -> index_of (INR (par p)) = Some (par p)) by (intros p Hp; apply index_of_INR; specialize (Mp p Hp); lia).
    assert (Wide : nf <= ndof * nf) by nia. assert (Wide' : nc <= ndof * nc) by nia.
    (* first loop *)
    match goal with |- exists tb, obind (ofold ?f _ ?s0) _ = _ /\ _ => set (F1 := f); set (S0 := s0) end.
    assert (L1 : forall k, k <= nf -> exists owned parent num, ofold F1 (seq 0 k) S0 = Some (owned, parent, num) /\ length owned = ndof * nf /\ length parent = ndof * nf /\ length num = ndof * nc /\
        (forall p, p < k -> nth_error parent p = Some (par p)) /\ (forall p, nth_error owned p = if p <? k then Some (if nth (par p) is_owned false then 1%R else 0%R) else if p <? ndof * nf then Some 0%R else None) /\ (forall c, c < nc -> nth_error num c = Some (length (kids par c k)))).
    { induction k as [|k IH]; intros Hk.
      - exists (repeat 0%R (ndof * nf)), (repeat 0 (ndof * nf)), (repeat 0 (ndof * nc)). split; [reflexivity|]. rewrite !repeat_length. repeat (split; [reflexivity|]). split; [lia|]. split.
        + intros p. change (p <? 0) with false. cbv iota. destruct (Nat.ltb_spec p (ndof * nf)); [apply nth_error_repeat; assumption|apply nth_error_None; rewrite repeat_length; lia].
        + intros c Hc. apply nth_error_repeat. lia.
      - destruct IH as (owned & parent & num & E & Lo & Lp & Ln & Vp & Vo & Vn); [lia|]. rewrite seq_S, ofold_app, E, obind_Some. cbn [Nat.add ofold]. unfold F1 at 1. cbv beta iota.
        assert (Hk' : k < nf) by lia. rewrite (Vx' k Hk'), obind_Some, (Id k Hk'), obind_Some.
        destruct (upd_total parent k (par k)) as (parent' & E1 & Lp' & Vp'); [lia|]. rewrite E1, obind_Some, (Vxo' k Hk'), obind_Some.
        destruct (upd_total owned k (if nth (par k) is_owned false then 1%R else 0%R)) as (owned' & E2 & Lo' & Vo'); [lia|]. rewrite E2, obind_Some. unfold bump. rewrite (Vn _ (Mp k Hk')), obind_Some.
        destruct (upd_total num (par k) (S (length (kids par (par k) k)))) as (num' & E3 & Ln' & Vn'); [specialize (Mp k Hk'); lia|]. rewrite E3, !obind_Some.
        exists owned', parent', num'. split; [reflexivity|]. split; [congruence|]. split; [congruence|]. split; [congruence|]. split; [|split].
        + intros p Hp. rewrite Vp'. destruct (Nat.eqb_spec p k) as [->|]; [reflexivity|]. apply Vp. lia.
        + intros p. rewrite Vo', Vo. destruct (Nat.eqb_spec p k) as [E'|], (Nat.ltb_spec p (S k)), (Nat.ltb_spec p k); try lia; subst; reflexivity.
        + intros c Hc. rewrite Vn', kids_S, app_length. rewrite (Nat.eqb_sym c). destruct (Nat.eqb_spec (par k) c) as [E'|]; [subst c; f_equal; cbn; lia|]. rewrite Vn by exact Hc. f_equal. cbn. lia. }
    destruct (L1 nf (Nat.le_refl _)) as (owned & parent & num & E1 & Lo & Lp & Ln & Vp & Vo & Vn). rewrite E1, obind_Some. cbv beta iota. clear L1 E1.
    destruct (upd_total (repeat 0 (ndof * nc)) 0 0) as (off0 & E0 & Lo0 & Vo0); [rewrite repeat_length; lia|]. rewrite E0, obind_Some. rewrite repeat_length in Lo0.
    (* offsets *)
    match goal with |- exists tb, obind (ofold ?f _ ?s0) _ = _ /\ _ => set (F2 := f); set (S1 := s0) end.
    assert (L2 : forall k, k < nc -> exists off num', ofold F2 (seq 1 k) S1 = Some (off, num') /\ length off = ndof * nc /\ length num' = ndof * nc /\
        (forall c, c <= k -> nth_error off c = Some (before par nf c)) /\ (forall c, c < nc -> nth_error num' c = Some (if c <? k then 0 else length (kids par c nf)))).
    { induction k as [|k IH]; intros Hk.
      - exists off0, num. split; [reflexivity|]. split; [exact Lo0|]. split; [exact Ln|]. split; [intros c Hc; assert (c = 0) by lia; subst; rewrite Vo0; reflexivity|]. intros c Hc. apply Vn. exact Hc.
      - destruct IH as (off & num' & E & Lf & Ln' & Vf & Vn'); [lia|]. rewrite seq_S, ofold_app, E, obind_Some. cbn [ofold]. replace (1 + k) with (S k) by reflexivity. unfold F2 at 1. cbv beta iota. replace (S k - 1) with k by lia.
        rewrite (Vf k (Nat.le_refl _)), obind_Some, (Vn' k) by lia. rewrite Nat.ltb_irrefl, obind_Some. destruct (upd_total off (S k) (before par nf k + length (kids par k nf))) as (off' & E1 & Lf' & Vf'); [lia|]. rewrite E1, obind_Some.
        destruct (upd_total num' k 0) as (num'' & E2 & Ln'' & Vn''); [lia|]. rewrite E2, !obind_Some. exists off', num''. split; [reflexivity|]. split; [congruence|]. split; [congruence|]. split.
        + intros c Hc. rewrite Vf'. destruct (Nat.eqb_spec c (S k)) as [->|]; [rewrite before_S; reflexivity|]. apply Vf. lia.
        + intros c Hc. rewrite Vn''. destruct (Nat.eqb_spec c k) as [->|]; [assert (X : k <? S k = true) by (apply Nat.ltb_lt; lia); rewrite X; reflexivity|]. rewrite Vn' by exact Hc. destruct (Nat.ltb_spec c k), (Nat.ltb_spec c (S k)); try lia; reflexivity. }
    destruct (L2 (nc - 1)) as (off & num' & E2 & Lf & Ln' & Vf & Vn'); [lia|]. rewrite E2, obind_Some. cbv beta iota. clear L2 E2.
    destruct nc as [|nc1] eqn:Enc; [lia|]. rewrite <- Enc in *. replace (nc - 1) with nc1 in * by lia.
    destruct (upd_total num' nc1 0) as (num0 & E3 & Ln0 & Vn0); [lia|]. rewrite E3, obind_Some.
    assert (Vz : forall c, c < nc -> nth_error num0 c = Some 0). { intros c Hc. rewrite Vn0. destruct (Nat.eqb_spec c nc1); [reflexivity|]. rewrite Vn' by exact Hc. assert (X : c <? nc1 = true) by (apply Nat.ltb_lt; lia). rewrite X. reflexivity. }
    (* children *)
    match goal with |- exists tb, obind (ofold ?f _ ?s0) _ = _ /\ _ => set (F3 := f); set (S2 := s0) end.
    assert (L3 : forall k, k <= nf -> exists children num3, ofold F3 (seq 0 k) S2 = Some (children, num3) /\ length children = ndof * nf /\ length num3 = ndof * nc /\
        (forall c, c < nc -> nth_error num3 c = Some (length (kids par c k))) /\ (forall c j x, c < nc -> nth_error (kids par c k) j = Some x -> nth_error children (before par nf c + j) = Some x)).
    { induction k as [|k IH]; intros Hk.
      - exists (repeat 0 (ndof * nf)), num0. split; [reflexivity|]. rewrite repeat_length. split; [reflexivity|]. split; [congruence|]. split; [exact Vz|]. intros c j y _ X. destruct j; discriminate X.
      - destruct IH as (children & num3 & E & Lc & Ln3 & Vn3 & Vc); [lia|]. rewrite seq_S, ofold_app, E, obind_Some. cbn [Nat.add ofold]. unfold F3 at 1. cbv beta iota.
        assert (Hk' : k < nf) by lia. assert (Hq := Mp k Hk'). rewrite (Vx' k Hk'), obind_Some, (Id k Hk'), obind_Some, (Vf (par k)) by lia. rewrite obind_Some, (Vn3 _ Hq), obind_Some.
        assert (Len : S (length (kids par (par k) k)) <= length (kids par (par k) nf)). { apply Nat.le_trans with (length (kids par (par k) (S k))); [rewrite kids_S, Nat.eqb_refl, app_length; cbn; lia|apply kids_length_le; lia]. }
        assert (Tot : before par nf (par k) + length (kids par (par k) nf) <= nf). { rewrite <- before_S. assert (T := before_total par nf nc Mp). destruct (Nat.eq_dec (S (par k)) nc) as [->|]; [lia|]. assert (B := before_mono par nf (S (par k)) nc). lia. }
        destruct (upd_total children (before par nf (par k) + length (kids par (par k) k)) k) as (children' & E4 & Lc' & Vc'); [lia|]. rewrite E4, obind_Some. unfold bump. rewrite (Vn3 _ Hq), obind_Some.
        destruct (upd_total num3 (par k) (S (length (kids par (par k) k)))) as (num4 & E5 & Ln4 & Vn4); [lia|]. rewrite E5, !obind_Some. exists children', num4. split; [reflexivity|]. split; [congruence|]. split; [congruence|]. split.
        + intros c Hc. rewrite Vn4, kids_S, app_length. rewrite (Nat.eqb_sym c). destruct (Nat.eqb_spec (par k) c) as [E'|]; [subst c; f_equal; cbn; lia|]. rewrite Vn3 by exact Hc. f_equal. cbn. lia.
        + intros c j y Hc X. rewrite Vc'. rewrite kids_S in X. destruct (Nat.lt_ge_cases j (length (kids par c k))) as [Hj|Hj].
          * rewrite nth_error_app1 in X by exact Hj. assert (Y := Vc c j y Hc X). destruct (Nat.eqb_spec (before par nf c + j) (before par nf (par k) + length (kids par (par k) k))) as [Eq|]; [|exact Y].
            exfalso. assert (K := kids_length_le par c k nf). destruct (Nat.lt_trichotomy c (par k)) as [Lt|[Eq'|Lt]]; [assert (B := before_mono par nf c (par k) Lt); lia|subst c; lia|assert (B := before_mono par nf (par k) c Lt); lia].
          * rewrite nth_error_app2 in X by exact Hj. destruct (Nat.eqb_spec (par k) c) as [E'|]; [|destruct (j - length (kids par c k)); discriminate X]. assert (j - length (kids par c k) = 0) by (destruct (j - length (kids par c k)) as [|[|]]; [reflexivity|discriminate X..]).
            rewrite H in X. injection X as <-. subst c. assert (Y : before par nf (par k) + j =? before par nf (par k) + length (kids par (par k) k) = true) by (apply Nat.eqb_eq; lia). rewrite Y. reflexivity. }
    destruct (L3 nf (Nat.le_refl _)) as (children & num3 & E4 & Lc & Ln3 & Vn3 & Vc). rewrite E4, obind_Some. cbv beta iota.
    eexists. split; [reflexivity|]. cbn [t_parent t_owned]. split; [exact Lo|]. split; [exact Vp|]. split; [exact Vo|]. intros c Hc. unfold children_of. cbn [t_offset t_num t_children]. rewrite (Vf c) by lia. rewrite obind_Some, (Vn3 c Hc), obind_Some.
    assert (G : forall l : list nat, (forall j y, nth_error l j = Some y -> nth_error children (before par nf c + j) = Some y) -> omap (fun j => nth_error children (before par nf c + j)) (seq 0 (length l)) = Some l).
    { intros l. induction l as [|y l IH] using rev_ind; intros H; [reflexivity|]. rewrite app_length, Nat.add_1_r, seq_S, omap_app. rewrite IH; [|intros j z Hj; apply H; rewrite nth_error_app1; [exact Hj|apply nth_error_Some; congruence]]. cbn [Nat.add omap].
      rewrite (H (length l) y) by (rewrite nth_error_app2, Nat.sub_diag by lia; reflexivity). reflexivity. }
    apply G. intros j y. apply Vc. exact Hc.
  Qed.
End Tables.
