(** Ownership of the objects of [ResourcesModel], and an interpreter of its programs that tracks it. *)
From Verif Require Import Base SetupModel GridModel ResourcesModel.
Local Open Scope nat_scope.

Lemma single_beq_spec x y : single_beq x y = true <-> x = y.
Proof. split; [apply internal_single_dec_bl | apply internal_single_dec_lb]. Qed.
Lemma family_beq_spec f g : family_beq f g = true <-> f = g.
Proof. split; [apply internal_family_dec_bl | apply internal_family_dec_lb]. Qed.
Lemma slot_eqb_spec s t : slot_eqb s t = true <-> s = t.
Proof.
  destruct s as [x|f i], t as [y|g j]; cbn; try (split; discriminate).
  - rewrite single_beq_spec. split; congruence.
  - rewrite Bool.andb_true_iff, family_beq_spec, Nat.eqb_eq. split; [intros [-> ->]; reflexivity | intros E; injection E; auto].
Qed.
Lemma slot_eqb_refl s : slot_eqb s s = true. Proof. apply slot_eqb_spec; reflexivity. Qed.
Lemma slot_eqb_neq s t : s <> t -> slot_eqb s t = false.
Proof. intros H. destruct (slot_eqb s t) eqn:E; [apply slot_eqb_spec in E; contradiction | reflexivity]. Qed.
Lemma slot_dec (s t : slot) : s = t \/ s <> t.
Proof. destruct (slot_eqb s t) eqn:E; [left; apply slot_eqb_spec; exact E | right; intros ->; rewrite slot_eqb_refl in E; discriminate]. Qed.

(** ** Who is responsible for which object *)
Definition with_slot (own : slot -> bool) (s : slot) (b : bool) (t : slot) : bool := if slot_eqb t s then b else own t.
Record core (m : mem) (own : slot -> bool) (lost : list nat) : Prop := Core {
  c_own : forall s, own s = true -> exists o h, m_ptr m s = Some o /\ nth_error (m_objs m) o = Some (1, h);
  c_inj : forall s t, own s = true -> own t = true -> m_ptr m s = m_ptr m t -> s = t;
  c_sep : forall s o, own s = true -> m_ptr m s = Some o -> ~ In o lost;
  c_nodup : NoDup lost;
  c_lost : forall o, In o lost -> exists h, nth_error (m_objs m) o = Some (1, h);
  c_all : forall o r h, nth_error (m_objs m) o = Some (r, h) -> r = 0 \/ (In o lost \/ exists s, own s = true /\ m_ptr m s = Some o)
}.

Lemma core_ext m own own' L : core m own L -> (forall s, own' s = own s) -> core m own' L.
Proof.
  intros [A B C D E F] H. split; try assumption.
  - intros s S1. rewrite H in S1. auto.
  - intros s t S1 S2. rewrite H in S1, S2. auto.
  - intros s o S1. rewrite H in S1. eauto.
  - intros o r h N. destruct (F o r h N) as [G|[G|(s & G1 & G2)]]; [auto| auto | right; right; exists s; rewrite H; auto].
Qed.
Lemma core_set m own L s v : core m own L -> own s = false -> core (set_ptr m s v) own L.
Proof.
  intros [A B C D E F] H.
  assert (P : forall t, own t = true -> m_ptr (set_ptr m s v) t = m_ptr m t).
  { intros t T. cbn. rewrite slot_eqb_neq; [reflexivity|]. intros ->. congruence. }
  split; try assumption.
  - intros t T. rewrite (P t T). exact (A t T).
  - intros t u T U. rewrite (P t T), (P u U). auto.
  - intros t o T. rewrite (P t T). eauto.
  - intros o r h N. destruct (F o r h N) as [G|[G|(t & G1 & G2)]]; [auto| auto | right; right; exists t; rewrite (P t G1); auto].
Qed.
Lemma core_lose m own L s o : core m own L -> own s = true -> m_ptr m s = Some o -> core m (with_slot own s false) (o :: L).
Proof.
  intros [A B C D E F] H P. unfold with_slot. split.
  - intros t. destruct (slot_eqb t s); [discriminate | apply A].
  - intros t u. destruct (slot_eqb t s); [discriminate|]. destruct (slot_eqb u s); [discriminate | apply B].
  - intros t q. destruct (slot_eqb t s) eqn:T; [discriminate|]. intros T1 T2 [<- | I].
    + assert (t = s) by (apply B; congruence). subst t. rewrite slot_eqb_refl in T. discriminate.
    + exact (C t q T1 T2 I).
  - constructor; [exact (C s o H P) | exact D].
  - intros q [<- | I]; [|auto]. destruct (A s H) as (o' & h & P' & N). exists h. congruence.
  - intros q r h N. destruct (F q r h N) as [G|[G|(t & G1 & G2)]]; [auto | right; left; right; exact G |].
    right. destruct (slot_dec t s) as [-> | T]; [left; left; congruence|]. right. exists t. rewrite slot_eqb_neq by exact T. auto.
Qed.
Lemma core_new m own L s ids : core m own L -> own s = false -> core (create m s ids) (with_slot own s true) L.
Proof.
  intros K H. pose proof (core_set m own L s (Some (length (m_objs m))) K H) as [_ _ _ _ _ _].
  destruct K as [A B C D E F]. unfold create.
  assert (lt : forall t o, own t = true -> m_ptr m t = Some o -> o < length (m_objs m)).
  { intros t o T P. destruct (A t T) as (o' & h & P' & N). apply nth_error_Some. congruence. }
  unfold with_slot. split; cbn.
  - intros t. destruct (slot_eqb t s).
    + intros _. exists (length (m_objs m)), ids. split; [reflexivity|]. rewrite nth_error_app2, Nat.sub_diag by lia. reflexivity.
    + intros T. destruct (A t T) as (o & h & P & N). exists o, h. split; [exact P|]. rewrite nth_error_app1; [exact N | eauto].
  - intros t u. destruct (slot_eqb t s) eqn:T1, (slot_eqb u s) eqn:U1; intros T U P.
    + apply slot_eqb_spec in T1, U1. congruence.
    + symmetry in P. pose proof (lt u _ U P). lia.
    + pose proof (lt t _ T P). lia.
    + apply B; assumption.
  - intros t o. destruct (slot_eqb t s).
    + intros _ P I. injection P as <-. destruct (E _ I) as [h N]. assert (length (m_objs m) < length (m_objs m)) by (apply nth_error_Some; congruence). lia.
    + intros T P. exact (C t o T P).
  - exact D.
  - intros o I. destruct (E o I) as [h N]. exists h. rewrite nth_error_app1; [exact N | apply nth_error_Some; congruence].
  - intros o r h N. destruct (Nat.lt_ge_cases o (length (m_objs m))) as [l|l].
    + rewrite nth_error_app1 in N by exact l. destruct (F o r h N) as [G|[G|(t & G1 & G2)]]; [auto | auto|].
      right; right. exists t. rewrite slot_eqb_neq; [auto | intros ->; congruence].
    + right; right. exists s. rewrite slot_eqb_refl. split; [reflexivity|].
      assert (o < length (m_objs m ++ [(1, ids)])) by (apply nth_error_Some; congruence). rewrite app_length in H0. cbn in H0. f_equal. lia.
Qed.
Lemma core_move m own L s t : core m own L -> own s = false -> own t = true -> core (assign m s t) (with_slot (with_slot own t false) s true) L.
Proof.
  intros [A B C D E F] H T. unfold assign, with_slot.
  assert (st : s <> t) by (intros ->; congruence).
  split; cbn.
  - intros u. destruct (slot_eqb u s); [intros _; exact (A t T)|]. destruct (slot_eqb u t); [discriminate | apply A].
  - intros u v. destruct (slot_eqb u s) eqn:U1, (slot_eqb v s) eqn:V1; intros U V P.
    + apply slot_eqb_spec in U1, V1. congruence.
    + destruct (slot_eqb v t) eqn:V2; [discriminate|]. assert (t = v) by (apply B; assumption). subst v. rewrite slot_eqb_refl in V2. discriminate.
    + destruct (slot_eqb u t) eqn:U2; [discriminate|]. assert (u = t) by (apply B; assumption). subst u. rewrite slot_eqb_refl in U2. discriminate.
    + destruct (slot_eqb u t); [discriminate|]. destruct (slot_eqb v t); [discriminate|]. apply B; assumption.
  - intros u o. destruct (slot_eqb u s); [intros _; exact (C t o T)|]. destruct (slot_eqb u t); [discriminate | apply C].
  - exact D.
  - exact E.
  - intros o r h N. destruct (F o r h N) as [G|[G|(u & G1 & G2)]]; [auto | auto|]. right; right.
    destruct (slot_dec u t) as [-> | ut].
    + exists s. rewrite slot_eqb_refl. auto.
    + exists u. rewrite !slot_eqb_neq; [auto | exact ut | intros ->; congruence].
Qed.
(* changing what an object holds *)
Lemma core_held m own L o r h h' objs' : core m own L -> nth_error (m_objs m) o = Some (r, h) -> upd (m_objs m) o (r, h') = Some objs' -> core (Mem objs' (m_ptr m)) own L.
Proof.
  intros [A B C D E F] N U.
  assert (G : forall q r0 h0, nth_error (m_objs m) q = Some (r0, h0) -> exists h1, nth_error objs' q = Some (r0, h1)).
  { intros q r0 h0 Q. rewrite (upd_get _ _ _ _ q U). destruct (Nat.eqb_spec q o) as [->|]; [exists h'; congruence | exists h0; exact Q]. }
  split; try assumption.
  - intros s S1. destruct (A s S1) as (q & h0 & P & Q). destruct (G _ _ _ Q) as [h1 Q1]. exists q, h1. split; assumption.
  - intros q I. destruct (E q I) as [h0 Q]. exact (G _ _ _ Q).
  - intros q r0 h0 Q. cbn in Q. rewrite (upd_get _ _ _ _ q U) in Q. destruct (Nat.eqb_spec q o) as [->|].
    + apply (F o r0 h). congruence.
    + apply (F q r0 h0 Q).
Qed.
Lemma core_release m own L s : core m own L -> own s = true ->
  exists o r h objs', m_ptr m s = Some o /\ nth_error (m_objs m) o = Some (S r, h) /\ upd (m_objs m) o (r, h) = Some objs' /\
                      release m s = Ret (Mem objs' (m_ptr m)) /\ core (Mem objs' (m_ptr m)) (with_slot own s false) L.
Proof.
  intros [A B C D E F] H. destruct (A s H) as (o & h & P & N).
  assert (l : o < length (m_objs m)) by (apply nth_error_Some; congruence).
  destruct (upd_some (m_objs m) o (0, h) l) as [objs' U].
  exists o, 0, h, objs'. repeat (split; [assumption|]). split; [unfold release; rewrite P, N, U; reflexivity|].
  assert (G : forall q, q <> o -> nth_error objs' q = nth_error (m_objs m) q).
  { intros q Q. rewrite (upd_get _ _ _ _ q U). destruct (Nat.eqb_spec q o); [contradiction | reflexivity]. }
  unfold with_slot. split; cbn.
  - intros t. destruct (slot_eqb t s) eqn:T1; [discriminate|]. intros T. destruct (A t T) as (q & h0 & P0 & N0).
    exists q, h0. split; [exact P0|]. rewrite G; [exact N0|]. intros ->. assert (t = s) by (apply B; congruence). subst t. rewrite slot_eqb_refl in T1. discriminate.
  - intros t u. destruct (slot_eqb t s); [discriminate|]. destruct (slot_eqb u s); [discriminate|]. apply B.
  - intros t q. destruct (slot_eqb t s); [discriminate|]. apply C.
  - exact D.
  - intros q I. destruct (E q I) as [h0 N0]. exists h0. rewrite G; [exact N0|]. intros ->. exact (C s o H P I).
  - intros q r h0 N0. destruct (Nat.eq_dec q o) as [->|Q].
    + left. rewrite (upd_get _ _ _ _ o U), Nat.eqb_refl in N0. injection N0 as <- _. reflexivity.
    + rewrite G in N0 by exact Q. destruct (F q r h0 N0) as [K|[K|(t & K1 & K2)]]; [auto | auto|].
      right; right. exists t. rewrite slot_eqb_neq; [auto|]. intros ->. congruence.
Qed.
(* at the end: nobody is responsible for anything, so the handles left are the lost ones *)
Lemma count_lost (objs : list (nat * list nat)) : forall base L, NoDup L -> (forall o, In o L -> base <= o /\ exists h, nth_error objs (o - base) = Some (1, h)) ->
  (forall o r h, nth_error objs o = Some (r, h) -> r = 0 \/ In (base + o) L) -> fold_right (fun o n => fst o + n) 0 objs = length L.
Proof.
  induction objs as [|[r h] objs IH]; intros base L ND HL HA.
  - destruct L as [|o L]; [reflexivity|]. destruct (HL o (or_introl eq_refl)) as (_ & h & N). destruct (o - base); discriminate.
  - cbn [fold_right fst].
    destruct (in_dec Nat.eq_dec base L) as [I|I].
    + destruct (HL base I) as (_ & h0 & N). rewrite Nat.sub_diag in N. cbn in N. injection N as -> _.
      apply in_split in I. destruct I as (L1 & L2 & ->). pose proof (NoDup_remove_1 _ _ _ ND) as ND1. pose proof (NoDup_remove_2 _ _ _ ND) as NI.
      rewrite (IH (S base) (L1 ++ L2) ND1).
      * rewrite !app_length. cbn. lia.
      * intros o O. assert (O' : In o (L1 ++ base :: L2)) by (apply in_app_iff in O; apply in_app_iff; cbn; tauto).
        destruct (HL o O') as (l & h1 & N). assert (o <> base) by (intros ->; contradiction).
        split; [lia|]. exists h1. replace (o - base) with (S (o - S base)) in N by lia. exact N.
      * intros o r h1 N. destruct (HA (S o) r h1 N) as [Z|J]; [left; exact Z|]. right.
        replace (base + S o) with (S base + o) in J by lia. apply in_app_iff in J. cbn [In] in J. apply in_app_iff. destruct J as [J|[J|J]]; [auto | lia | auto].
    + rewrite (IH (S base) L ND).
      * destruct (HA 0 r h eq_refl) as [-> | J]; [lia|]. rewrite Nat.add_0_r in J. contradiction.
      * intros o O. destruct (HL o O) as (l & h1 & N). assert (o <> base) by (intros ->; contradiction).
        split; [lia|]. exists h1. replace (o - base) with (S (o - S base)) in N by lia. exact N.
      * intros o r1 h1 N. destruct (HA (S o) r1 h1 N) as [Z|J]; [left; exact Z|]. right. replace (base + S o) with (S base + o) in J by lia. exact J.
Qed.
Lemma core_end m own L : core m own L -> (forall s, own s = false) -> outstanding m = length L.
Proof.
  intros [A B C D E F] H. unfold outstanding. apply (count_lost (m_objs m) 0 L D).
  - intros o I. split; [lia|]. rewrite Nat.sub_0_r. exact (E o I).
  - intros o r h N. destruct (F o r h N) as [Z|[I|(s & S1 & _)]]; [auto | auto | rewrite H in S1; discriminate].
Qed.

(** ** The tracking interpreter *)
Inductive cell := Null | Own | Other.
Inductive loss := LN (c : cell) | LS (n : size).
Record ast := Ast { st : single -> cell; fam : family -> option size; same : list (single * single); kept : list (single * single); lost : list loss }.
Definition own1 (c : cell) : nat := match c with Own => 1 | _ => 0 end.
Definition weight (sz : size -> nat) (l : list loss) : nat := fold_right (fun a n => match a with LN c => own1 c | LS k => sz k end + n) 0 l.
Definition is_own (c : cell) : bool := match c with Own => true | _ => false end.
Definition owns (sz : size -> nat) (A : ast) (s : slot) : bool :=
  match s with One x => is_own (st A x) | Elem f i => match fam A f with Some n => i <? sz n | None => false end end.
Definition set_st (g : single -> cell) (x : single) (c : cell) (y : single) : cell := if single_beq y x then c else g y.
Definition set_fam (g : family -> option size) (f : family) (c : option size) (y : family) : option size := if family_beq y f then c else g y.
Definition forget (x : single) (l : list (single * single)) : list (single * single) := filter (fun p => negb (single_beq (fst p) x || single_beq (snd p) x)) l.
Definition live (A : ast) (h : single) : bool :=
  (is_own (st A h) || existsb (fun p => single_beq (fst p) h && is_own (st A (snd p))) (same A) ||
   existsb (fun p => single_beq (snd p) h && is_own (st A (fst p))) (kept A))%bool.
Definition size_eqb (a b : size) : bool := match a, b with NumRegions, NumRegions | NumBoundaries, NumBoundaries | NewBoundaries, NewBoundaries => true | _, _ => false end.
Definition adestroy (A : ast) (x : single) : option ast :=
  match st A x with
  | Null => Some A
  | Own => Some (Ast (set_st (st A) x Null) (fam A) (forget x (same A)) (forget x (kept A)) (lost A))
  | Other => None
  end.
Definition aexec (mv : single -> single -> bool) (A : ast) (i : instr) : option ast :=
  match i with
  | New x hs =>
      if (forallb (live A) hs && negb (existsb (single_beq x) hs))%bool
      then Some (Ast (set_st (st A) x Own) (fam A) (forget x (same A)) (map (fun h => (x, h)) hs ++ forget x (kept A)) (LN (st A x) :: lost A)) else None
  | NewEach f n => match fam A f with None => Some (Ast (st A) (set_fam (fam A) f (Some n)) (same A) (kept A) (lost A)) | _ => None end
  | Destroy x => adestroy A x
  | DestroyEach f n =>
      match fam A f with
      | Some k => if size_eqb k n then Some (Ast (st A) (set_fam (fam A) f None) (same A) (kept A) (lost A)) else None
      | None => None
      end
  | Free x => match st A x with Null => Some A | Own => Some (Ast (set_st (st A) x Other) (fam A) (same A) (kept A) (lost A)) | Other => None end
  | Assign x y =>
      if single_beq x y then None
      else if mv x y
      then match st A y with
           | Own => Some (Ast (set_st (set_st (st A) y Other) x Own) (fam A) ((y, x) :: forget x (same A)) (forget x (kept A)) (LN (st A x) :: lost A))
           | _ => None
           end
      else Some (Ast (set_st (st A) x (match st A y with Null => Null | _ => Other end)) (fam A) ((x, y) :: forget x (same A)) (forget x (kept A)) (LN (st A x) :: lost A))
  | AssignEach f g n =>
      match fam A f, fam A g with
      | None, Some k => if (size_eqb k n && negb (family_beq f g))%bool then Some (Ast (st A) (set_fam (set_fam (fam A) g None) f (Some n)) (same A) (kept A) (lost A)) else None
      | _, _ => None
      end
  | Clear x => Some (Ast (set_st (st A) x Null) (fam A) (forget x (same A)) (forget x (kept A)) (LN (st A x) :: lost A))
  | ClearEach f n =>
      match fam A f with
      | Some k => if size_eqb k n then Some (Ast (st A) (set_fam (fam A) f None) (same A) (kept A) (LS n :: lost A)) else None
      | None => Some A
      end
  | Hold x y => if (is_own (st A x) && live A y)%bool then Some (Ast (st A) (fam A) (same A) ((x, y) :: kept A) (lost A)) else None
  | Use x => if live A x then Some A else None
  | IfSet x p => match st A x with Null => Some A | Own => ofold adestroy p A | Other => None end
  end.
Definition aexecs (mv : single -> single -> bool) (p : list instr) (A : ast) : option ast := ofold (aexec mv) p A.

(** ** It is right *)
Record facts (st : single -> cell) (same kept : list (single * single)) (m : mem) : Prop := Facts {
  f_null : forall x, st x = Null -> m_ptr m (One x) = None;
  f_same : forall a x, In (a, x) same -> m_ptr m (One a) = m_ptr m (One x);
  f_kept : forall x a, In (x, a) kept -> exists o r h q,
      m_ptr m (One x) = Some o /\ nth_error (m_objs m) o = Some (r, h) /\ m_ptr m (One a) = Some q /\ In q h /\ q < length (m_objs m)
}.
Definition rep (sz : size -> nat) (n : nat) (A : ast) (m : mem) : Prop :=
  facts (st A) (same A) (kept A) m /\ exists L, core m (owns sz A) L /\ length L = n + weight sz (lost A).

Definition grows (m m' : mem) : Prop :=
  length (m_objs m) <= length (m_objs m') /\
  forall o r h, nth_error (m_objs m) o = Some (r, h) -> exists r' h', nth_error (m_objs m') o = Some (r', h') /\ incl h h'.
Lemma grows_same m m' : m_objs m' = m_objs m -> grows m m'.
Proof. intros E. split; rewrite E; [lia|]. intros o r h N. exists r, h. split; [exact N | apply incl_refl]. Qed.
Lemma grows_trans m1 m2 m3 : grows m1 m2 -> grows m2 m3 -> grows m1 m3.
Proof.
  intros [l1 H1] [l2 H2]. split; [lia|]. intros o r h N. destruct (H1 o r h N) as (r' & h' & N' & I). destruct (H2 o r' h' N') as (r2 & h2 & N2 & I2).
  exists r2, h2. split; [exact N2 | exact (incl_tran I I2)].
Qed.
Lemma grows_upd m o r h r' h' objs' p : nth_error (m_objs m) o = Some (r, h) -> incl h h' -> upd (m_objs m) o (r', h') = Some objs' -> grows m (Mem objs' p).
Proof.
  intros N I U. split; [cbn; rewrite (upd_length _ _ _ _ U); lia|]. intros q r0 h0 Q. cbn. rewrite (upd_get _ _ _ _ q U).
  destruct (Nat.eqb_spec q o) as [->|]; [exists r', h'; split; [reflexivity | assert (h0 = h) by congruence; subst h0; exact I] | exists r0, h0; split; [exact Q | apply incl_refl]].
Qed.
Lemma grows_create m s ids : grows m (create m s ids).
Proof.
  split; cbn; [rewrite app_length; lia|]. intros o r h N. exists r, h. split; [|apply incl_refl]. rewrite nth_error_app1; [exact N | apply nth_error_Some; congruence].
Qed.
Lemma in_forget x l p : In p (forget x l) -> In p l /\ fst p <> x /\ snd p <> x.
Proof.
  intros I. apply filter_In in I. destruct I as [I N]. apply Bool.negb_true_iff, Bool.orb_false_iff in N. destruct N as [N1 N2].
  split; [exact I|]. split; intros E; apply single_beq_spec in E; congruence.
Qed.
Lemma set_st_same g x c : set_st g x c x = c.
Proof. unfold set_st. rewrite (proj2 (single_beq_spec x x) eq_refl). reflexivity. Qed.
Lemma set_st_other g x c y : y <> x -> set_st g x c y = g y.
Proof. intros H. unfold set_st. destruct (single_beq y x) eqn:E; [apply single_beq_spec in E; contradiction | reflexivity]. Qed.
(* one slot changes; objects only gain *)
Lemma facts_frame g sm kp m m' x c : facts g sm kp m -> grows m m' -> (forall y, y <> x -> m_ptr m' (One y) = m_ptr m (One y)) ->
  (c = Null -> m_ptr m' (One x) = None) -> facts (set_st g x c) (forget x sm) (forget x kp) m'.
Proof.
  intros [A B C] [gl G] P N. split.
  - intros y Y. destruct (single_beq y x) eqn:E; unfold set_st in Y; rewrite E in Y.
    + apply single_beq_spec in E. subst y. auto.
    + rewrite P; [auto|]. intros ->. rewrite (proj2 (single_beq_spec x x) eq_refl) in E. discriminate.
  - intros a y I. apply in_forget in I. destruct I as (I & I1 & I2). cbn in I1, I2. rewrite !P by assumption. auto.
  - intros y a I. apply in_forget in I. destruct I as (I & I1 & I2). cbn in I1, I2. rewrite !P by assumption.
    destruct (C y a I) as (o & r & h & q & P1 & N1 & P2 & I3 & l). destruct (G o r h N1) as (r' & h' & N' & Q).
    exists o, r', h', q. repeat (split; [auto|]). lia.
Qed.
Lemma facts_grow g sm kp m m' : facts g sm kp m -> grows m m' -> (forall y, m_ptr m' (One y) = m_ptr m (One y)) -> facts g sm kp m'.
Proof.
  intros [A B C] [gl G] P. split.
  - intros y Y. rewrite P. auto.
  - intros a y I. rewrite !P. auto.
  - intros y a I. rewrite !P. destruct (C y a I) as (o & r & h & q & P1 & N1 & P2 & I3 & l). destruct (G o r h N1) as (r' & h' & N' & Q).
    exists o, r', h', q. repeat (split; [auto|]). lia.
Qed.
Lemma facts_st g g' sm kp m : facts g sm kp m -> (forall x, g' x = Null -> m_ptr m (One x) = None) -> facts g' sm kp m.
Proof. intros [A B C] H. split; auto. Qed.

Lemma alive_handles m o r h : nth_error (m_objs m) o = Some (S r, h) -> alive m o = true.
Proof. intros N. unfold alive. destruct (length (m_objs m)); cbn; rewrite N; reflexivity. Qed.
Lemma alive_held m o r h q : nth_error (m_objs m) o = Some (S r, h) -> In q h -> q < length (m_objs m) -> alive m q = true.
Proof.
  intros N I l. unfold alive. destruct (length (m_objs m)) as [|k] eqn:K; [lia|]. cbn [alive_in].
  destruct (nth_error (m_objs m) q) as [[[|r'] h']|] eqn:Q; [|reflexivity | apply nth_error_None in Q; lia].
  rewrite K. apply existsb_exists. exists o. split.
  - apply in_seq. assert (o < length (m_objs m)) by (apply nth_error_Some; congruence). lia.
  - rewrite N. assert (E : existsb (Nat.eqb q) h = true) by (apply existsb_exists; exists q; rewrite Nat.eqb_refl; auto).
    rewrite E. destruct k; cbn; rewrite N; reflexivity.
Qed.
Lemma is_own_spec c : is_own c = true -> c = Own. Proof. destruct c; [discriminate | reflexivity | discriminate]. Qed.
Lemma rep_live sz n A m h : rep sz n A m -> live A h = true -> exists o, m_ptr m (One h) = Some o /\ deref m (One h) = Ret o /\ o < length (m_objs m).
Proof.
  intros [F (L & K & _)] H. unfold live in H. apply Bool.orb_true_iff in H. destruct H as [H|H]; [apply Bool.orb_true_iff in H; destruct H as [H|H]|].
  - destruct (c_own _ _ _ K (One h) H) as (o & h' & P & N). exists o. split; [exact P|]. unfold deref. rewrite P, (alive_handles _ _ _ _ N).
    split; [reflexivity | apply nth_error_Some; congruence].
  - apply existsb_exists in H. destruct H as ([a x] & I & E). apply andb_prop in E. destruct E as [E1 E2]. cbn in E1, E2. apply single_beq_spec in E1. subst a.
    destruct (c_own _ _ _ K (One x) E2) as (o & h' & P & N). exists o. unfold deref. rewrite (f_same _ _ _ _ F _ _ I), P, (alive_handles _ _ _ _ N).
    split; [reflexivity|]. split; [reflexivity | apply nth_error_Some; congruence].
  - apply existsb_exists in H. destruct H as ([x a] & I & E). apply andb_prop in E. destruct E as [E1 E2]. cbn in E1, E2. apply single_beq_spec in E1. subst a.
    destruct (f_kept _ _ _ _ F _ _ I) as (o & r & hh & q & P1 & N & P2 & I3 & l). destruct (c_own _ _ _ K (One x) E2) as (o' & h' & P & N').
    assert (o' = o) by congruence. subst o'. assert (r = 1) by congruence. subst r. exists q. split; [exact P2|]. unfold deref. rewrite P2, (alive_held _ _ _ _ _ N I3 l). auto.
Qed.
Lemma rep_lives sz n A m hs : rep sz n A m -> forallb (live A) hs = true ->
  exists ids, rmap (fun h => deref m (One h)) hs = Ret ids /\ forall h, In h hs -> exists q, m_ptr m (One h) = Some q /\ In q ids /\ q < length (m_objs m).
Proof.
  intros R. induction hs as [|h hs IH]; intros H.
  - exists []. split; [reflexivity | intros h []].
  - cbn in H. apply andb_prop in H. destruct H as [H1 H2]. destruct (IH H2) as (ids & E & IN). destruct (rep_live _ _ _ _ _ R H1) as (q & P & D & l).
    exists (q :: ids). split.
    + cbn. rewrite D. cbn. rewrite E. reflexivity.
    + intros h' [<- | I]; [exists q; cbn; auto|]. destruct (IN h' I) as (q' & P' & I' & l'). exists q'. cbn. auto.
Qed.
Lemma owns_set sz A x c sm kp ls s : owns sz (Ast (set_st (st A) x c) (fam A) sm kp ls) s = with_slot (owns sz A) (One x) (is_own c) s.
Proof.
  destruct s as [y|f i]; unfold with_slot; cbn; [|reflexivity]. unfold set_st. destruct (single_beq y x); reflexivity.
Qed.
Lemma with_slot_same (own : slot -> bool) s t : with_slot own s (own s) t = own t.
Proof. unfold with_slot. destruct (slot_eqb t s) eqn:E; [apply slot_eqb_spec in E; congruence | reflexivity]. Qed.
(* make sure that a slot about to be overwritten is not responsible for anything *)
Lemma core_drop sz n A m x : rep sz n A m -> exists L, core m (with_slot (owns sz A) (One x) false) L /\ length L = n + (own1 (st A x) + weight sz (lost A)).
Proof.
  intros [F (L & K & W)]. destruct (is_own (st A x)) eqn:E.
  - destruct (c_own _ _ _ K (One x) E) as (o & h & P & N). exists (o :: L). split; [exact (core_lose m (owns sz A) L (One x) o K E P)|].
    apply is_own_spec in E. rewrite E. cbn. lia.
  - exists L. split.
    + apply (core_ext _ _ _ _ K). intros s. transitivity (with_slot (owns sz A) (One x) (owns sz A (One x)) s); [cbn [owns]; rewrite E; reflexivity | apply with_slot_same].
    + replace (own1 (st A x)) with 0 by (destruct (st A x); [reflexivity | discriminate | reflexivity]). exact W.
Qed.
Lemma with_slot_twice own s a b t : with_slot (with_slot own s a) s b t = with_slot own s b t.
Proof. unfold with_slot. destruct (slot_eqb t s); reflexivity. Qed.
Lemma with_slot_at own s b : with_slot own s b s = b.
Proof. unfold with_slot. rewrite slot_eqb_refl. reflexivity. Qed.
Lemma neq_one y x : y <> x -> One y <> One x. Proof. congruence. Qed.

Lemma destroy_sound sz n A m x A' : rep sz n A m -> adestroy A x = Some A' -> exists m', destroy m (One x) = Ret m' /\ rep sz n A' m'.
Proof.
  intros R H. unfold adestroy in H. destruct (st A x) eqn:E; [| |discriminate].
  - injection H as <-. destruct R as [F (L & K & W)]. unfold destroy, release. rewrite (f_null _ _ _ _ F x E). cbn. eexists; split; [reflexivity|]. split.
    + apply (facts_grow _ _ _ _ _ F); [apply grows_same; reflexivity|]. intros y. cbn. destruct (single_beq y x) eqn:Y; [|reflexivity].
      apply single_beq_spec in Y. subst y. symmetry. exact (f_null _ _ _ _ F x E).
    + exists L. split; [|exact W]. apply core_set; [exact K|]. cbn. rewrite E. reflexivity.
  - injection H as <-. destruct R as [F (L & K & W)]. assert (O : owns sz A (One x) = true) by (cbn; rewrite E; reflexivity).
    destruct (core_release _ _ _ _ K O) as (o & r & h & objs' & P & N & U & RL & K'). unfold destroy. rewrite RL. cbn [rbind]. eexists; split; [reflexivity|]. split.
    + apply (facts_frame _ _ _ _ _ x Null F).
      * apply (grows_trans _ (Mem objs' (m_ptr m))); [exact (grows_upd _ _ _ _ _ _ _ _ N (incl_refl h) U) | apply grows_same; reflexivity].
      * intros y Y. cbn. destruct (single_beq y x) eqn:Z; [apply single_beq_spec in Z; contradiction | reflexivity].
      * intros _. cbn. rewrite (proj2 (single_beq_spec x x) eq_refl). reflexivity.
    + exists L. split; [|exact W]. apply (core_ext _ (with_slot (owns sz A) (One x) false)).
      * apply core_set; [exact K' | apply with_slot_at].
      * intros s. rewrite owns_set. reflexivity.
Qed.

(** families: one element after another *)
Local Arguments Nat.ltb : simpl never.
Local Arguments Nat.leb : simpl never.
Definition fam_own (own : slot -> bool) (f : family) (lo hi : nat) (s : slot) : bool :=
  match s with Elem g i => if family_beq g f then (lo <=? i) && (i <? hi) else own s | One _ => own s end%bool.
Lemma owns_fam sz A f k n : fam A f = Some k -> size_eqb k n = true -> forall s, owns sz A s = fam_own (owns sz A) f 0 (sz n) s.
Proof.
  intros F E. assert (k = n) by (destruct k, n; try discriminate; reflexivity). subst k.
  intros [x|g i]; cbn; [reflexivity|]. destruct (family_beq g f) eqn:G; [|reflexivity]. apply family_beq_spec in G. subst g. rewrite F. reflexivity.
Qed.
Lemma owns_fam_none sz A f k : fam A f = None -> forall s, owns sz A s = fam_own (owns sz A) f k k s.
Proof.
  intros F [x|g i]; cbn; [reflexivity|]. destruct (family_beq g f) eqn:G; [|reflexivity]. apply family_beq_spec in G. subst g. rewrite F.
  destruct (Nat.leb_spec k i), (Nat.ltb_spec i k); try reflexivity; lia.
Qed.
Lemma owns_set_fam sz A f c lo hi sm kp ls : (match c with Some n => lo = 0 /\ hi = sz n | None => hi <= lo end) ->
  forall s, owns sz (Ast (st A) (set_fam (fam A) f c) sm kp ls) s = fam_own (owns sz A) f lo hi s.
Proof.
  intros H [x|g i]; cbn; [reflexivity|]. unfold set_fam. destruct (family_beq g f); [|reflexivity]. destruct c as [n|].
  - destruct H as [-> ->]. reflexivity.
  - destruct (Nat.leb_spec lo i), (Nat.ltb_spec i hi); try reflexivity; lia.
Qed.
Lemma fam_own_low own f lo hi : lo < hi -> forall s, fam_own own f (S lo) hi s = with_slot (fam_own own f lo hi) (Elem f lo) false s.
Proof.
  intros l [x|g i]; unfold with_slot; cbn; [reflexivity|]. destruct (family_beq g f) eqn:G; cbn; [|reflexivity].
  destruct (Nat.eqb_spec i lo) as [->|]; [destruct (Nat.leb_spec (S lo) lo); [lia | reflexivity]|].
  destruct (Nat.leb_spec (S lo) i), (Nat.leb_spec lo i); try reflexivity; lia.
Qed.
Lemma fam_own_high own f hi : forall s, fam_own own f 0 (S hi) s = with_slot (fam_own own f 0 hi) (Elem f hi) true s.
Proof.
  intros [x|g i]; unfold with_slot; cbn; [reflexivity|]. destruct (family_beq g f) eqn:G; cbn; [|reflexivity].
  destruct (Nat.eqb_spec i hi) as [->|]; [destruct (Nat.ltb_spec hi (S hi)); [reflexivity | lia]|].
  destruct (Nat.ltb_spec i (S hi)), (Nat.ltb_spec i hi); try reflexivity; lia.
Qed.
Lemma fam_own_at own f lo hi : fam_own own f lo hi (Elem f lo) = (lo <? hi).
Proof. cbn. rewrite (proj2 (family_beq_spec f f) eq_refl), Nat.leb_refl. reflexivity. Qed.
Lemma fam_own_off own f hi : fam_own own f 0 hi (Elem f hi) = false.
Proof. cbn. rewrite (proj2 (family_beq_spec f f) eq_refl), Nat.ltb_irrefl. reflexivity. Qed.
Definition singles_same (m m' : mem) : Prop := forall y, m_ptr m' (One y) = m_ptr m (One y).

Lemma each_new own L f k : forall lo m, core m (fam_own own f 0 lo) L ->
  exists m', rfold (fun m i => Ret (create m (Elem f i) [])) (seq lo k) m = Ret m' /\ core m' (fam_own own f 0 (lo + k)) L /\ grows m m' /\ singles_same m m'.
Proof.
  induction k as [|k IH]; intros lo m K.
  - exists m. rewrite Nat.add_0_r. split; [reflexivity|]. split; [exact K|]. split; [apply grows_same; reflexivity | intros y; reflexivity].
  - cbn [seq rfold rbind]. destruct (IH (S lo) (create m (Elem f lo) [])) as (m' & E & K' & G & Y).
    + apply (core_ext _ (with_slot (fam_own own f 0 lo) (Elem f lo) true)); [apply core_new; [exact K | apply fam_own_off] | apply fam_own_high].
    + exists m'. split; [exact E|]. replace (lo + S k) with (S lo + k) by lia. split; [exact K'|]. split; [exact (grows_trans _ _ _ (grows_create _ _ _) G)|].
      intros y. rewrite Y. reflexivity.
Qed.
Lemma each_destroy own L f hi : forall k lo m, lo + k = hi -> core m (fam_own own f lo hi) L ->
  exists m', rfold (fun m i => destroy m (Elem f i)) (seq lo k) m = Ret m' /\ core m' (fam_own own f hi hi) L /\ grows m m' /\ singles_same m m'.
Proof.
  induction k as [|k IH]; intros lo m l K.
  - exists m. rewrite Nat.add_0_r in l. subst lo. split; [reflexivity|]. split; [exact K|]. split; [apply grows_same; reflexivity | intros y; reflexivity].
  - assert (O : fam_own own f lo hi (Elem f lo) = true) by (rewrite fam_own_at; apply Nat.ltb_lt; lia).
    destruct (core_release _ _ _ _ K O) as (o & r & h & objs' & P & N & U & RL & K').
    cbn [seq rfold]. unfold destroy at 1. rewrite RL. cbn [rbind].
    destruct (IH (S lo) (set_ptr (Mem objs' (m_ptr m)) (Elem f lo) None)) as (m' & E & K2 & G & Y); [lia| |].
    + apply (core_ext _ (with_slot (fam_own own f lo hi) (Elem f lo) false)); [apply core_set; [exact K' | apply with_slot_at] | apply fam_own_low; lia].
    + exists m'. split; [exact E|]. split; [exact K2|]. split.
      * refine (grows_trans _ _ _ (grows_trans _ _ _ (grows_upd _ _ _ _ _ _ _ (m_ptr m) N (incl_refl h) U) _) G). apply grows_same. reflexivity.
      * intros y. rewrite Y. reflexivity.
Qed.
Lemma each_clear own f hi : forall k lo m L, lo + k = hi -> core m (fam_own own f lo hi) L ->
  exists m' L', rfold (fun m i => Ret (set_ptr m (Elem f i) None)) (seq lo k) m = Ret m' /\ core m' (fam_own own f hi hi) L' /\ length L' = k + length L /\ grows m m' /\ singles_same m m'.
Proof.
  induction k as [|k IH]; intros lo m L l K.
  - exists m, L. rewrite Nat.add_0_r in l. subst lo. split; [reflexivity|]. split; [exact K|]. split; [reflexivity|]. split; [apply grows_same; reflexivity | intros y; reflexivity].
  - assert (O : fam_own own f lo hi (Elem f lo) = true) by (rewrite fam_own_at; apply Nat.ltb_lt; lia).
    destruct (c_own _ _ _ K _ O) as (o & h & P & N). pose proof (core_lose _ _ _ _ _ K O P) as K'.
    cbn [seq rfold rbind]. destruct (IH (S lo) (set_ptr m (Elem f lo) None) (o :: L)) as (m' & L' & E & K2 & W & G & Y); [lia| |].
    + apply (core_ext _ (with_slot (fam_own own f lo hi) (Elem f lo) false)); [apply core_set; [exact K' | apply with_slot_at] | apply fam_own_low; lia].
    + exists m', L'. split; [exact E|]. split; [exact K2|]. split; [rewrite W; cbn; lia|]. split.
      * refine (grows_trans _ _ _ _ G). apply grows_same. reflexivity.
      * intros y. rewrite Y. reflexivity.
Qed.
(* elements below [lo] are in f already, those from there on still in g *)
Definition fam_split (own : slot -> bool) (f g : family) (lo hi : nat) : slot -> bool := fam_own (fam_own own g lo hi) f 0 lo.
Lemma each_move own L f g hi : f <> g -> forall k lo m, lo + k = hi -> core m (fam_split own f g lo hi) L ->
  exists m', rfold (fun m i => Ret (assign m (Elem f i) (Elem g i))) (seq lo k) m = Ret m' /\ core m' (fam_split own f g hi hi) L /\ grows m m' /\ singles_same m m'.
Proof.
  intros fg. induction k as [|k IH]; intros lo m l K.
  - exists m. rewrite Nat.add_0_r in l. subst lo. split; [reflexivity|]. split; [exact K|]. split; [apply grows_same; reflexivity | intros y; reflexivity].
  - assert (O : fam_split own f g lo hi (Elem g lo) = true).
    { unfold fam_split. cbn. destruct (family_beq g f) eqn:E; [apply family_beq_spec in E; congruence|]. rewrite (proj2 (family_beq_spec g g) eq_refl), Nat.leb_refl. apply Nat.ltb_lt. lia. }
    assert (Z : fam_split own f g lo hi (Elem f lo) = false) by apply fam_own_off.
    cbn [seq rfold rbind]. destruct (IH (S lo) (assign m (Elem f lo) (Elem g lo))) as (m' & E & K2 & G & Y); [lia| |].
    + refine (core_ext _ _ _ _ (core_move _ _ _ _ _ K Z O) _). intros s. unfold fam_split. rewrite fam_own_high. unfold with_slot.
      destruct (slot_eqb s (Elem f lo)) eqn:E1; [reflexivity|]. destruct s as [y|f' i]; [reflexivity|]. cbn -[Nat.leb Nat.ltb slot_eqb] in *.
      destruct (family_beq f' f) eqn:E2.
      * apply family_beq_spec in E2. subst f'. assert (slot_eqb (Elem f i) (Elem g lo) = false) by (apply slot_eqb_neq; congruence). rewrite H. reflexivity.
      * pose proof (fam_own_low own g lo hi ltac:(lia) (Elem f' i)) as Q. unfold with_slot in Q. cbn -[Nat.leb Nat.ltb slot_eqb] in Q. exact Q.
    + exists m'. split; [exact E|]. split; [exact K2|]. split; [refine (grows_trans _ _ _ _ G); apply grows_same; reflexivity|].
      intros y. rewrite Y. reflexivity.
Qed.
Lemma size_eqb_spec a b : size_eqb a b = true -> a = b. Proof. destruct a, b; intros; try discriminate; reflexivity. Qed.

Theorem aexec_sound mv sz n A m i A' : rep sz n A m -> aexec mv A i = Some A' -> exists m', exec sz m i = Ret m' /\ rep sz n A' m'.
Proof.
  intros R H. destruct i as [x hs|f k|x|f k|x|x y|f g k|x|f k|x y|x|x p]; cbn [aexec exec] in *.
  - (* New *)
    destruct (forallb (live A) hs && negb (existsb (single_beq x) hs))%bool eqn:E; [|discriminate]. injection H as <-. apply andb_prop in E. destruct E as [E1 E2].
    destruct (rep_lives _ _ _ _ _ R E1) as (ids & EI & IN). rewrite EI. cbn [rbind]. eexists; split; [reflexivity|].
    destruct (core_drop _ _ _ _ x R) as (L & K & W). destruct R as [F _].
    assert (NX : forall h, In h hs -> h <> x).
    { intros h I ->. apply Bool.negb_true_iff in E2. rewrite <- Bool.not_true_iff_false in E2. apply E2. apply existsb_exists. exists x. split; [exact I | apply single_beq_spec; reflexivity]. }
    assert (FR : facts (set_st (st A) x Own) (forget x (same A)) (forget x (kept A)) (create m (One x) ids)).
    { apply (facts_frame _ _ _ _ _ x Own F); [apply grows_create| |discriminate]. intros y Y. cbn. destruct (single_beq y x) eqn:Z; [apply single_beq_spec in Z; contradiction | reflexivity]. }
    split.
    + destruct FR as [F1 F2 F3]. split; [exact F1 | exact F2|]. cbn [kept]. intros y a I. apply in_app_iff in I. destruct I as [I|I]; [|exact (F3 y a I)].
      apply in_map_iff in I. destruct I as (h & EQ & I). injection EQ as <- <-. destruct (IN h I) as (q & P & IQ & l).
      exists (length (m_objs m)), 1, ids, q. cbn. rewrite (proj2 (single_beq_spec x x) eq_refl). split; [reflexivity|].
      split; [rewrite nth_error_app2, Nat.sub_diag by lia; reflexivity|]. destruct (single_beq h x) eqn:Z; [apply single_beq_spec in Z; exfalso; exact (NX h I Z)|].
      split; [exact P|]. split; [exact IQ|]. rewrite app_length. lia.
    + exists L. split; [|exact W]. apply (core_ext _ (with_slot (with_slot (owns sz A) (One x) false) (One x) true)).
      * apply core_new; [exact K | apply with_slot_at].
      * intros s. rewrite owns_set, with_slot_twice. reflexivity.
  - (* NewEach *)
    destruct (fam A f) as [k'|] eqn:E; [discriminate|]. injection H as <-. destruct R as [F (L & K & W)].
    destruct (each_new (owns sz A) L f (sz k) 0 m) as (m' & EQ & K' & G & Y).
    + apply (core_ext _ _ _ _ K). intros s. symmetry. apply (owns_fam_none sz A f 0 E).
    + exists m'. split; [exact EQ|]. split; [exact (facts_grow _ _ _ _ _ F G Y)|]. exists L. split; [|exact W].
      apply (core_ext _ _ _ _ K'). apply owns_set_fam. split; [reflexivity | reflexivity].
  - exact (destroy_sound _ _ _ _ _ _ R H).
  - (* DestroyEach *)
    destruct (fam A f) as [k'|] eqn:E; [|discriminate]. destruct (size_eqb k' k) eqn:E2; [|discriminate]. injection H as <-. destruct R as [F (L & K & W)].
    destruct (each_destroy (owns sz A) L f (sz k) (sz k) 0 m eq_refl) as (m' & EQ & K' & G & Y).
    + apply (core_ext _ _ _ _ K). intros s. symmetry. apply (owns_fam sz A f k' k E E2).
    + exists m'. split; [exact EQ|]. split; [exact (facts_grow _ _ _ _ _ F G Y)|]. exists L. split; [|exact W].
      apply (core_ext _ _ _ _ K'). apply owns_set_fam. lia.
  - (* Free *)
    destruct (st A x) eqn:E; [| |discriminate]; injection H as <-.
    + destruct R as [F K]. exists m. split; [unfold release; rewrite (f_null _ _ _ _ F x E); reflexivity | split; assumption].
    + destruct R as [F (L & K & W)]. assert (O : owns sz A (One x) = true) by (cbn; rewrite E; reflexivity).
      destruct (core_release _ _ _ _ K O) as (o & r & h & objs' & P & N & U & RL & K'). rewrite RL. eexists; split; [reflexivity|]. split.
      * apply (facts_st (st A)).
        -- apply (facts_grow _ _ _ _ _ F); [exact (grows_upd _ _ _ _ _ _ _ _ N (incl_refl h) U) | reflexivity].
        -- intros y Y. cbn. cbn [st] in Y. unfold set_st in Y. destruct (single_beq y x); [discriminate | exact (f_null _ _ _ _ F y Y)].
      * exists L. split; [|exact W]. apply (core_ext _ _ _ _ K'). intros s. rewrite owns_set. reflexivity.
  - (* Assign *)
    destruct (single_beq x y) eqn:XY; [discriminate|]. assert (NE : x <> y) by (intros ->; rewrite (proj2 (single_beq_spec y y) eq_refl) in XY; discriminate).
    eexists; split; [reflexivity|]. destruct (core_drop _ _ _ _ x R) as (L & K & W).
    assert (PO : forall z, z <> x -> m_ptr (assign m (One x) (One y)) (One z) = m_ptr m (One z)).
    { intros z Z. cbn. destruct (single_beq z x) eqn:Q; [apply single_beq_spec in Q; contradiction | reflexivity]. }
    assert (PX : m_ptr (assign m (One x) (One y)) (One x) = m_ptr m (One y)) by (cbn; rewrite (proj2 (single_beq_spec x x) eq_refl); reflexivity).
    destruct (mv x y).
    + destruct (st A y) eqn:E; try discriminate. injection H as <-. destruct R as [F _].
      assert (FR : facts (set_st (st A) x Own) (forget x (same A)) (forget x (kept A)) (assign m (One x) (One y))).
      { apply (facts_frame _ _ _ _ _ x Own F); [apply grows_same; reflexivity | exact PO | discriminate]. }
      split.
      * destruct FR as [F1 F2 F3]. split; cbn [st same kept]; [| |exact F3].
        -- intros z Z. unfold set_st in Z. destruct (single_beq z x) eqn:Q1; [discriminate|]. destruct (single_beq z y) eqn:Q2; [discriminate|].
           apply F1. unfold set_st. rewrite Q1. exact Z.
        -- intros a z [I|I]; [|exact (F2 a z I)]. injection I as <- <-. rewrite PX. apply PO. congruence.
      * exists L. split; [|exact W].
        assert (OY : with_slot (owns sz A) (One x) false (One y) = true).
        { unfold with_slot. rewrite slot_eqb_neq by congruence. cbn. rewrite E. reflexivity. }
        refine (core_ext _ _ _ _ (core_move _ _ _ (One x) (One y) K (with_slot_at _ _ _) OY) _).
        intros [z|g i]; unfold with_slot; cbn; [|reflexivity]. unfold set_st. destruct (single_beq z x); [reflexivity|]. destruct (single_beq z y); reflexivity.
    + injection H as <-. destruct R as [F _]. split.
      * destruct (facts_frame _ _ _ _ _ x (match st A y with Null => Null | _ => Other end) F (grows_same m (assign m (One x) (One y)) eq_refl) PO) as [F1 F2 F3].
        -- intros Q. rewrite PX. apply (f_null _ _ _ _ F). destruct (st A y); [reflexivity | discriminate | discriminate].
        -- split; cbn [st same kept]; [exact F1| |exact F3]. intros a z [I|I]; [|exact (F2 a z I)]. injection I as <- <-. rewrite PX. symmetry. apply PO. congruence.
      * exists L. split; [|exact W]. apply (core_ext _ (with_slot (owns sz A) (One x) false)); [apply core_set; [exact K | apply with_slot_at]|].
        intros s. rewrite owns_set. destruct (st A y); reflexivity.
  - (* AssignEach *)
    destruct (fam A f) as [k0|] eqn:E0; [discriminate|]. destruct (fam A g) as [k'|] eqn:E; [|discriminate].
    destruct (size_eqb k' k && negb (family_beq f g))%bool eqn:E2; [|discriminate]. injection H as <-. apply andb_prop in E2. destruct E2 as [E2 E3].
    assert (fg : f <> g) by (intros ->; rewrite (proj2 (family_beq_spec g g) eq_refl) in E3; discriminate).
    destruct R as [F (L & K & W)].
    destruct (each_move (owns sz A) L f g (sz k) fg (sz k) 0 m eq_refl) as (m' & EQ & K' & G & Y).
    + apply (core_ext _ _ _ _ K). intros [z|h i]; [reflexivity|]. unfold fam_split. cbn. apply size_eqb_spec in E2. subst k'.
      destruct (family_beq h f) eqn:HF; [apply family_beq_spec in HF; subst h; rewrite E0; destruct (Nat.ltb_spec i 0); [lia | reflexivity]|].
      destruct (family_beq h g) eqn:HG; [apply family_beq_spec in HG; subst h; rewrite E; reflexivity | reflexivity].
    + exists m'. split; [exact EQ|]. split; [exact (facts_grow _ _ _ _ _ F G Y)|]. exists L. split; [|exact W].
      apply (core_ext _ _ _ _ K'). intros [z|h i]; [reflexivity|]. unfold fam_split, set_fam. cbn. destruct (family_beq h f); [reflexivity|].
      destruct (family_beq h g); [|reflexivity]. destruct (Nat.leb_spec (sz k) i), (Nat.ltb_spec i (sz k)); try reflexivity; lia.
  - (* Clear *)
    injection H as <-. eexists; split; [reflexivity|]. destruct (core_drop _ _ _ _ x R) as (L & K & W). destruct R as [F _]. split.
    + apply (facts_frame _ _ _ _ _ x Null F); [apply grows_same; reflexivity| |].
      * intros y Y. cbn. destruct (single_beq y x) eqn:Z; [apply single_beq_spec in Z; contradiction | reflexivity].
      * intros _. cbn. rewrite (proj2 (single_beq_spec x x) eq_refl). reflexivity.
    + exists L. split; [|exact W]. apply (core_ext _ (with_slot (owns sz A) (One x) false)); [apply core_set; [exact K | apply with_slot_at]|].
      intros s. rewrite owns_set. reflexivity.
  - (* ClearEach *)
    destruct (fam A f) as [k'|] eqn:E.
    + destruct (size_eqb k' k) eqn:E2; [|discriminate]. injection H as <-. destruct R as [F (L & K & W)].
      destruct (each_clear (owns sz A) f (sz k) (sz k) 0 m L eq_refl) as (m' & L' & EQ & K' & W' & G & Y).
      * apply (core_ext _ _ _ _ K). intros s. symmetry. apply (owns_fam sz A f k' k E E2).
      * exists m'. split; [exact EQ|]. split; [exact (facts_grow _ _ _ _ _ F G Y)|]. exists L'. split; [|change (length L' = n + (sz k + weight sz (lost A))); lia].
        apply (core_ext _ _ _ _ K'). apply owns_set_fam. lia.
    + injection H as <-. destruct R as [F (L & K & W)].
      assert (G : forall l m0, core m0 (owns sz A) L -> exists m', rfold (fun m i => Ret (set_ptr m (Elem f i) None)) l m0 = Ret m' /\ core m' (owns sz A) L /\ grows m0 m' /\ singles_same m0 m').
      { induction l as [|i l IH]; intros m0 K0; [exists m0; split; [reflexivity|]; split; [exact K0|]; split; [apply grows_same; reflexivity | intros y; reflexivity]|].
        cbn [rfold rbind]. destruct (IH (set_ptr m0 (Elem f i) None)) as (m' & E1 & K1 & G1 & Y1); [apply core_set; [exact K0 | cbn; rewrite E; reflexivity]|].
        exists m'. split; [exact E1|]. split; [exact K1|]. split; [exact (grows_trans _ _ _ (grows_same m0 (set_ptr m0 (Elem f i) None) eq_refl) G1) | intros y; rewrite Y1; reflexivity]. }
      destruct (G (seq 0 (sz k)) m K) as (m' & E1 & K1 & G1 & Y1). exists m'. split; [exact E1|]. split; [exact (facts_grow _ _ _ _ _ F G1 Y1) | exists L; split; assumption].
  - (* Hold *)
    destruct (is_own (st A x) && live A y)%bool eqn:E; [|discriminate]. injection H as <-. apply andb_prop in E. destruct E as [E1 E2].
    assert (LX : live A x = true) by (unfold live; rewrite E1; reflexivity).
    destruct (rep_live _ _ _ _ _ R LX) as (o & PX & DX & lx). destruct (rep_live _ _ _ _ _ R E2) as (q & PY & DY & ly).
    rewrite DX, DY. cbn [rbind]. destruct R as [F (L & K & W)]. destruct (c_own _ _ _ K (One x) E1) as (o' & h & P & N). assert (o' = o) by congruence. subst o'.
    rewrite N. cbn [of_option rbind fst snd]. destruct (upd_some (m_objs m) o (1, q :: h) lx) as [objs' U]. rewrite U. cbn [option_map of_option]. eexists; split; [reflexivity|].
    assert (G : grows m (Mem objs' (m_ptr m))) by (apply (grows_upd _ _ _ _ _ _ _ _ N (incl_tl q (incl_refl h)) U)).
    split.
    + destruct (facts_grow _ _ _ _ _ F G (fun y => eq_refl)) as [F1 F2 F3]. split; [exact F1 | exact F2|]. cbn [kept]. intros z a [I|I]; [|exact (F3 z a I)]. injection I as <- <-.
      exists o, 1, (q :: h), q. split; [exact PX|]. split; [cbn; rewrite (upd_get _ _ _ _ o U), Nat.eqb_refl; reflexivity|]. split; [exact PY|]. split; [left; reflexivity|].
      cbn. rewrite (upd_length _ _ _ _ U). exact ly.
    + exists L. split; [|exact W]. exact (core_held _ _ _ _ _ _ _ _ K N U).
  - (* Use *)
    destruct (live A x) eqn:E; [|discriminate]. injection H as <-. destruct (rep_live _ _ _ _ _ R E) as (o & _ & D & _). rewrite D. cbn. exists m. split; [reflexivity | exact R].
  - (* IfSet *)
    destruct (st A x) eqn:E; [| |discriminate].
    + injection H as <-. exists m. destruct R as [F K]. rewrite (f_null _ _ _ _ F x E). split; [reflexivity | split; assumption].
    + assert (P : exists o, m_ptr m (One x) = Some o).
      { destruct R as [F (L & K & W)]. destruct (c_own _ _ _ K (One x)) as (o & h & P & _); [cbn; rewrite E; reflexivity | exists o; exact P]. }
      destruct P as [o P]. rewrite P. clear E P o. revert A m R H. induction p as [|z p IH]; intros A m R H.
      * injection H as <-. exists m. split; [reflexivity | exact R].
      * cbn [ofold] in H. destruct (adestroy A z) as [A1|] eqn:E1; [|discriminate]. destruct (destroy_sound _ _ _ _ _ _ R E1) as (m1 & D & R1).
        cbn [rfold]. rewrite D. cbn [rbind]. exact (IH A1 m1 R1 H).
Qed.
Theorem aexecs_sound mv sz n p : forall A m A', rep sz n A m -> aexecs mv p A = Some A' -> exists m', execs sz p m = Ret m' /\ rep sz n A' m'.
Proof.
  induction p as [|i p IH]; intros A m A' R H.
  - injection H as <-. exists m. split; [reflexivity | exact R].
  - unfold aexecs in H. cbn [ofold] in H. destruct (aexec mv A i) as [A1|] eqn:E; [|discriminate]. destruct (aexec_sound _ _ _ _ _ _ _ R E) as (m1 & D & R1).
    unfold execs. cbn [rfold]. rewrite D. cbn [rbind]. exact (IH A1 m1 A' R1 H).
Qed.
