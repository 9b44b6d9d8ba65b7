(** C50: fields of operators behave like maps, composite operators like sequences. *)
From Coq Require Import String.
From Verif Require Import Base FieldsModel.
Local Notation length := List.length.
Local Open Scope nat_scope.

(** ** Specification *)
(* the operations on a composite operator *)
Inductive call := SetField (name : string) (vec : nat) | AddSub (sub : op).
Definition exec1 (o : op) (c : call) : option op :=
  match c with SetField name vec => PetscOperatorSetField o name vec | AddSub sub => PetscOperatorCompositeAddSub o sub end.
(* names are compared on their first 128 characters *)
Definition same (a b : string) : Prop := substring 0 128 a = substring 0 128 b.
(* the last value set under a name, [before] if there is none *)
Definition last_set (calls : list call) (name : string) (before : option nat) : option nat :=
  fold_left (fun r c => match c with SetField n v => if String.eqb (substring 0 128 n) (substring 0 128 name) then Some v else r | AddSub _ => r end) calls before.
(* the sub-operators added, each with the calls that came after *)
Fixpoint added (calls : list call) : list (op * list call) :=
  match calls with [] => [] | SetField _ _ :: t => added t | AddSub s :: t => (s, t) :: added t end.

(* operators that can be made with the interface *)
Inductive built : op -> Prop :=
| built_leaf id : built (PetscOperatorCreate id)
| built_composite : built PetscOperatorCreateComposite
| built_set o name vec o' : built o -> PetscOperatorSetField o name vec = Some o' -> built o'
| built_add o s o' : built o -> built s -> PetscOperatorCompositeAddSub o s = Some o' -> built o'.
Definition is_composite (o : op) : Prop := match o with Composite _ _ _ => True | Leaf _ _ => False end.
(* the sub-operators of an operator *)
Definition members (o : op) : option (list op) := match o with Leaf _ _ => Some [] | Composite _ n subs => entries (Array n subs) end.
(* an operator, its sub-operators, their sub-operators ... *)
Inductive within : op -> op -> Prop :=
| within_self o : within o o
| within_member s m o ms : members o = Some ms -> In m ms -> within s m -> within s o.

(** ** Lemmas: arrays *)
Definition holds {A} (a : array A) (l : list A) : Prop := exists rest, a_cells a = map Some l ++ rest /\ a_num a = length l.
Lemma holds_nil {A} : holds (Array 0 (@nil (option A))) []. Proof. exists []. split; reflexivity. Qed.
Lemma upd_append {A} (l : list A) x y r : upd (l ++ y :: r) (length l) x = Some (l ++ x :: r).
Proof. induction l as [|a l IH]; [reflexivity|]. cbn [app length upd]. rewrite IH. reflexivity. Qed.
Lemma holds_append {A} (a : array A) l x : holds a l -> exists a', append a x = Some a' /\ holds a' (l ++ [x]).
Proof.
  intros (rest & E & N). assert (G : exists y r, a_cells (grow a) = map Some l ++ y :: r /\ a_num (grow a) = length l).
  { unfold grow. destruct (Nat.ltb_spec (length (a_cells a)) (a_num a + 1)) as [L|L].
    - cbn [a_cells a_num]. rewrite E in *. rewrite app_length, map_length in *. assert (length rest = 0) by lia. destruct rest; [|discriminate]. rewrite app_nil_r.
      set (cap := length l + 0) in *. cbn [length]. fold cap. destruct (Nat.ltb_spec 0 cap) as [C|C].
      + destruct (2 * cap - cap) as [|m] eqn:Em; [lia|]. exists None, (repeat None m). split; [reflexivity|exact N].
      + destruct (8 - cap) as [|m] eqn:Em; [lia|]. exists None, (repeat None m). split; [reflexivity|exact N].
    - rewrite E in L. rewrite app_length, map_length, N in L. destruct rest as [|y r]; [cbn in L; lia|]. exists y, r. auto. }
  destruct G as (y & r & G & Gn). unfold append. rewrite Gn, G. assert (Eu := upd_append (map Some l) (Some x) y r). rewrite map_length in Eu. rewrite Eu. cbn [obind]. eexists. split; [reflexivity|].
  exists r. cbn [a_cells a_num]. rewrite map_app, <- app_assoc, app_length, N. split; [reflexivity|cbn; lia].
Qed.
Lemma holds_entries {A} (a : array A) l : holds a l -> entries a = Some l.
Proof.
  intros (rest & E & N). unfold entries. rewrite E, N. clear. assert (G : forall pre : list A, omap (fun i => let* x := nth_error (map Some (pre ++ l) ++ rest) i in x) (seq (length pre) (length l)) = Some l).
  { induction l as [|a l IH]; intros pre; [reflexivity|]. cbn [length seq omap]. rewrite nth_error_app1 by (rewrite map_length, app_length; cbn; lia). rewrite nth_error_map, nth_error_app2, Nat.sub_diag by lia. cbn [nth_error option_map obind].
    specialize (IH (pre ++ [a])). rewrite <- app_assoc, app_length, Nat.add_1_r in IH. cbn [app] in IH. rewrite IH. reflexivity. }
  apply (G []).
Qed.
Lemma holds_upd {A} (a : array A) l i x l' : holds a l -> upd l i x = Some l' -> exists cells, upd (a_cells a) i (Some x) = Some cells /\ holds (Array (a_num a) cells) l'.
Proof.
  intros (rest & E & N) U. rewrite E. assert (G : upd (map Some l ++ rest) i (Some x) = Some (map Some l' ++ rest)).
  { clear E N. revert i l' U. induction l as [|b l IH]; intros [|i] l' U; cbn in U |- *; try discriminate; [injection U as <-; reflexivity|].
    destruct (upd l i x) as [m|] eqn:Em; [|discriminate]. cbn in U. injection U as <-. rewrite (IH _ _ Em). reflexivity. }
  eexists. split; [exact G|]. exists rest. cbn [a_cells a_num]. split; [reflexivity|]. rewrite N. symmetry. eapply upd_length; eassumption.
Qed.

(** ** Lemmas: fields *)
Definition get (fs : list field) (name : string) : option nat := option_map f_vec (find (fun f => same_name name (f_name f)) fs).
Definition distinct (fs : list field) : Prop := NoDup (map (fun f => short (f_name f)) fs).
Lemma same_name_iff a b : same_name a b = true <-> short a = short b.
Proof. unfold same_name. apply String.eqb_eq. Qed.
Lemma substring_all : forall s n m, n <= m -> substring 0 m (substring 0 n s) = substring 0 n s.
Proof. induction s as [|c s IH]; intros [|n] [|m] H; cbn; try reflexivity; try lia. f_equal. apply IH. lia. Qed.
Lemma short_short s : short (short s) = short s. Proof. unfold short. apply substring_all. lia. Qed.
Lemma find_last_spec name : forall l f index r, distinct l -> find_last name l f index = r ->
  (r = index /\ forall x, In x l -> short name <> short (f_name x)) \/ (exists i x, r = Some (f + i) /\ nth_error l i = Some x /\ short name = short (f_name x)).
Proof.
  induction l as [|x l IH]; intros f index r D H; cbn [find_last] in H; [left; split; [congruence|intros x []]|].
  cbn in D. apply NoDup_cons_iff in D. destruct D as (D1 & D2). destruct (same_name name (f_name x)) eqn:E.
  - apply same_name_iff in E. destruct (IH _ _ _ D2 H) as [(-> & N)|(i & y & -> & Hi & Ey)].
    + right. exists 0, x. rewrite Nat.add_0_r. auto.
    + exfalso. apply D1. rewrite <- E, Ey. apply in_map_iff. exists y. split; [reflexivity|]. eapply nth_error_In; eassumption.
  - assert (N0 : short name <> short (f_name x)) by (intros X; apply same_name_iff in X; congruence). destruct (IH _ _ _ D2 H) as [(-> & N)|(i & y & -> & Hi & Ey)].
    + left. split; [reflexivity|]. intros y [<-|Hy]; auto.
    + right. exists (S i), y. rewrite Nat.add_succ_r. auto.
Qed.
Lemma get_in fs name x : distinct fs -> In x fs -> short name = short (f_name x) -> get fs name = Some (f_vec x).
Proof.
  intros D Hx E. unfold get. induction fs as [|y fs IH]; [destruct Hx|]. cbn [find]. apply NoDup_cons_iff in D. destruct D as (D1 & D2). destruct (same_name name (f_name y)) eqn:Ey.
  - destruct Hx as [->|Hx]; [reflexivity|]. exfalso. apply same_name_iff in Ey. apply D1. rewrite <- Ey, E. apply in_map_iff. exists x. auto.
  - destruct Hx as [->|Hx]; [apply same_name_iff in E; congruence|]. apply IH; assumption.
Qed.
Lemma get_none fs name : (forall x, In x fs -> short name <> short (f_name x)) -> get fs name = None.
Proof.
  intros H. unfold get. destruct (find _ fs) as [x|] eqn:E; [|reflexivity]. apply find_some in E. destruct E as (Hx & E). apply same_name_iff in E. exfalso. exact (H x Hx E).
Qed.
Lemma get_spec fs name : (exists x, In x fs /\ short name = short (f_name x) /\ get fs name = Some (f_vec x)) \/ ((forall x, In x fs -> short name <> short (f_name x)) /\ get fs name = None).
Proof.
  unfold get. destruct (find _ fs) as [x|] eqn:E.
  - left. exists x. apply find_some in E. destruct E as (Hx & E). apply same_name_iff in E. auto.
  - right. split; [|reflexivity]. intros x Hx E'. apply same_name_iff in E'. rewrite (find_none _ _ E x Hx) in E'. discriminate.
Qed.
Lemma set_field_spec a fs name vec : holds a fs -> distinct fs -> exists a' fs', set_field a name vec = Some a' /\ holds a' fs' /\ distinct fs' /\
  forall n, get fs' n = if String.eqb (short name) (short n) then Some vec else get fs n.
Proof.
  intros H D. unfold set_field. rewrite (holds_entries _ _ H). cbn [obind].
  assert (G : forall fs', distinct fs' -> (exists x, In x fs' /\ f_name x = short name /\ f_vec x = vec) -> (forall x, In x fs' -> short (f_name x) = short name \/ In x fs) -> (forall x, In x fs -> short (f_name x) = short name \/ In x fs') ->
     forall n, get fs' n = if String.eqb (short name) (short n) then Some vec else get fs n).
  { intros fs' D' (x & Hx & Ex & Vx) A B n. destruct (String.eqb_spec (short name) (short n)) as [E|E].
    - rewrite <- Vx. apply get_in; [exact D'|exact Hx|]. rewrite Ex, short_short. congruence.
    - destruct (get_spec fs n) as [(y & Hy & Ey & ->)|(N & ->)].
      + apply get_in; [exact D'| |exact Ey]. destruct (B y Hy) as [X|X]; [congruence|exact X].
      + apply get_none. intros y Hy Ey. destruct (A y Hy) as [X|X]; [congruence|exact (N y X Ey)]. }
  destruct (find_last_spec name fs 0 None _ D eq_refl) as [(-> & N)|(i & x & -> & Hi & Ex)].
  - destruct (holds_append a fs (Field (short name) vec) H) as (a' & E & H'). rewrite E. exists a', (fs ++ [Field (short name) vec]). split; [reflexivity|]. split; [exact H'|].
    assert (D' : distinct (fs ++ [Field (short name) vec])).
    { unfold distinct. rewrite map_app. apply (Permutation_NoDup (Permutation_cons_append _ _)). cbn. constructor; [|exact D]. rewrite short_short. intros X. apply in_map_iff in X. destruct X as (y & Ey & Hy). exact (N y Hy (eq_sym Ey)). }
    split; [exact D'|]. apply G; [exact D'| | |].
    + eexists. split; [apply in_or_app; right; left; reflexivity|]. split; reflexivity.
    + intros y Hy. apply in_app_or in Hy. destruct Hy as [Hy|[<-|[]]]; [right; exact Hy|left; apply short_short].
    + intros y Hy. right. apply in_or_app. left. exact Hy.
  - cbn [Nat.add]. assert (Li : i < length fs) by (apply nth_error_Some; congruence). destruct (upd_some fs i (Field (short name) vec) Li) as (fs' & U). destruct (holds_upd a fs i _ fs' H U) as (cells & Uc & H'). rewrite Uc. cbn [obind].
    exists (Array (a_num a) cells), fs'. split; [reflexivity|]. split; [exact H'|].
    assert (Em : map (fun f => short (f_name f)) fs' = map (fun f => short (f_name f)) fs).
    { apply nth_error_ext. intros j. rewrite !nth_error_map, (upd_get _ _ _ _ j U). destruct (Nat.eqb_spec j i) as [->|]; [|reflexivity]. rewrite Hi. cbn. rewrite short_short, Ex. reflexivity. }
    assert (D' : distinct fs') by (unfold distinct; rewrite Em; exact D). split; [exact D'|]. apply G; [exact D'| | |].
    + eexists. split; [apply (nth_error_In _ i); rewrite (upd_get _ _ _ _ i U), Nat.eqb_refl; reflexivity|]. split; reflexivity.
    + intros y Hy. apply In_nth_error in Hy. destruct Hy as (j & Hj). rewrite (upd_get _ _ _ _ j U) in Hj. destruct (Nat.eqb_spec j i) as [Ej|]; [subst j; injection Hj as <-; left; apply short_short|right; eapply nth_error_In; eassumption].
    + intros y Hy. apply In_nth_error in Hy. destruct Hy as (j & Hj). destruct (Nat.eq_dec j i) as [Ej|Nj]; [left; subst j; congruence|]. right. apply (nth_error_In _ j). rewrite (upd_get _ _ _ _ j U). destruct (Nat.eqb_spec j i); [contradiction|exact Hj].
Qed.

(** ** Lemmas: operators *)
Inductive wf : op -> Prop :=
| wf_leaf f fs id : holds f fs -> distinct fs -> wf (Leaf f id)
| wf_composite f fs n subs ms : holds f fs -> distinct fs -> holds (Array n subs) ms -> (forall m, In m ms -> wf m) -> wf (Composite f n subs).
Definition looked_up (o o' : op) (name : string) (vec : nat) : Prop :=
  forall n, PetscOperatorFieldsGet (op_fields o') n = if String.eqb (short name) (short n) then Some (Some vec) else PetscOperatorFieldsGet (op_fields o) n.
Lemma fields_get a fs name : holds a fs -> PetscOperatorFieldsGet a name = Some (get fs name).
Proof. intros H. unfold PetscOperatorFieldsGet. rewrite (holds_entries _ _ H). reflexivity. Qed.
Lemma each_set name vec : forall ms rest ms', omap (fun m => PetscOperatorSetField m name vec) ms = Some ms' ->
  (fix each (n : nat) (l : list (option op)) {struct l} : option (list (option op)) :=
      match n, l with
      | 0, _ => Some l
      | S n', Some s :: t => let* s' := PetscOperatorSetField s name vec in let* t' := each n' t in Some (Some s' :: t')
      | S _, _ => None
      end) (length ms) (map Some ms ++ rest) = Some (map Some ms' ++ rest).
Proof.
  induction ms as [|m ms IH]; intros rest ms' H; cbn [omap] in H.
  - injection H as <-. destruct rest; reflexivity.
  - destruct (PetscOperatorSetField m name vec) as [m'|] eqn:E; [|discriminate]. cbn [obind] in H. destruct (omap _ ms) as [ms1|] eqn:E1; [|discriminate]. cbn [obind] in H. injection H as <-.
    cbn [length map app]. rewrite E. cbn [obind]. rewrite (IH rest ms1 eq_refl). reflexivity.
Qed.
Lemma set_wf name vec : forall o, wf o -> exists o', PetscOperatorSetField o name vec = Some o' /\ wf o' /\ looked_up o o' name vec /\
  exists ms ms', members o = Some ms /\ members o' = Some ms' /\ omap (fun m => PetscOperatorSetField m name vec) ms = Some ms'.
Proof.
  intros o W. induction W as [f fs id Hf D|f fs n subs ms Hf D Hs Wm IH].
  - destruct (set_field_spec f fs name vec Hf D) as (f' & fs' & E & Hf' & D' & G). exists (Leaf f' id). cbn [PetscOperatorSetField]. rewrite E. split; [reflexivity|]. split; [econstructor; eassumption|]. split.
    + intros x. cbn [op_fields]. rewrite (fields_get _ _ _ Hf'), (fields_get _ _ _ Hf), G. destruct (String.eqb (short name) (short x)); reflexivity.
    + exists [], []. repeat split.
  - destruct (set_field_spec f fs name vec Hf D) as (f' & fs' & E & Hf' & D' & G).
    assert (M : exists ms', omap (fun m => PetscOperatorSetField m name vec) ms = Some ms' /\ length ms' = length ms /\ forall m', In m' ms' -> wf m').
    { clear Hs Wm. induction ms as [|m ms IHm]; [exists []; repeat split; intros m' []|]. destruct (IH m (or_introl eq_refl)) as (m' & Em & Wm' & _). destruct IHm as (ms' & Es & L & Ws); [intros x Hx; apply IH; right; exact Hx|].
      exists (m' :: ms'). cbn [omap]. rewrite Em. cbn [obind]. rewrite Es. cbn [obind length]. split; [reflexivity|]. split; [congruence|]. intros x [<-|Hx]; auto. }
    destruct M as (ms' & Em & Lm & Wm'). destruct Hs as (rest & Es & Ns). cbn [a_cells a_num] in Es, Ns. assert (Hs' : holds (Array n (map Some ms' ++ rest)) ms') by (exists rest; cbn; split; [reflexivity|congruence]).
    exists (Composite f' n (map Some ms' ++ rest)). cbn [PetscOperatorSetField]. rewrite E. cbn [obind]. rewrite Es, Ns, (each_set name vec ms rest ms' Em). cbn [obind]. rewrite <- Ns. split; [reflexivity|]. split; [econstructor; eassumption|]. split.
    + intros x. cbn [op_fields]. rewrite (fields_get _ _ _ Hf'), (fields_get _ _ _ Hf), G. destruct (String.eqb (short name) (short x)); reflexivity.
    + exists ms, ms'. cbn [members]. split; [apply holds_entries; exists rest; auto|]. split; [apply holds_entries; exact Hs'|exact Em].
Qed.
Lemma add_wf o s : wf o -> is_composite o -> wf s -> exists o', PetscOperatorCompositeAddSub o s = Some o' /\ wf o' /\ op_fields o' = op_fields o /\ exists ms, members o = Some ms /\ members o' = Some (ms ++ [s]).
Proof.
  intros W C Ws. destruct W as [f fs id Hf D|f fs n subs ms Hf D Hs Wm]; [destruct C|]. destruct (holds_append (Array n subs) ms s Hs) as (a & E & Ha). cbn [PetscOperatorCompositeAddSub]. rewrite E. cbn [obind]. destruct a as [n' subs']. cbn [a_num a_cells].
  eexists. split; [reflexivity|]. split. { econstructor; [exact Hf|exact D|exact Ha|]. intros m Hm. apply in_app_or in Hm. destruct Hm as [Hm|[<-|[]]]; auto. }
  split; [reflexivity|]. exists ms. cbn [members]. split; apply holds_entries; assumption.
Qed.
Lemma built_wf o : built o -> wf o.
Proof.
  induction 1 as [id| |o name vec o' _ W E|o s o' _ W _ Ws E].
  - apply (wf_leaf _ []); [apply holds_nil|constructor].
  - apply (wf_composite _ [] _ _ []); [apply holds_nil|constructor|apply holds_nil|intros m []].
  - destruct (set_wf name vec o W) as (o1 & E1 & W1 & _). congruence.
  - destruct o as [f id|f n subs]; [discriminate|]. destruct (add_wf _ s W I Ws) as (o1 & E1 & W1 & _). congruence.
Qed.
Lemma composite_kept o name vec o' : PetscOperatorSetField o name vec = Some o' -> is_composite o -> is_composite o'.
Proof.
  destruct o as [f id|f n subs]; intros H C; [destruct C|]. cbn [PetscOperatorSetField] in H. destruct (set_field f name vec) as [f'|]; [|discriminate]. cbn [obind] in H. destruct (_ n subs) as [subs'|] in H; [|discriminate]. injection H as <-. exact I.
Qed.

(** ** C50 *)
(* A field is found under its name with the value just set; other names keep theirs. *)
Theorem C50_set_then_get : forall o name vec, built o -> exists o', PetscOperatorSetField o name vec = Some o' /\
  (forall n, same name n -> PetscOperatorFieldsGet (op_fields o') n = Some (Some vec)) /\
  (forall n, ~ same name n -> PetscOperatorFieldsGet (op_fields o') n = PetscOperatorFieldsGet (op_fields o) n).
Proof.
  intros o name vec B. destruct (set_wf name vec o (built_wf o B)) as (o' & E & _ & G & _). exists o'. split; [exact E|]. split; intros n Hn; rewrite G.
  - unfold same in Hn. unfold short, MAX_NAME_LEN. rewrite Hn, String.eqb_refl. reflexivity.
  - destruct (String.eqb_spec (short name) (short n)) as [X|]; [contradiction|reflexivity].
Qed.
Print Assumptions C50_set_then_get.
(* A new operator has no fields. *)
Theorem C50_no_fields : forall id n, PetscOperatorFieldsGet (op_fields (PetscOperatorCreate id)) n = Some None /\ PetscOperatorFieldsGet (op_fields PetscOperatorCreateComposite) n = Some None.
Proof. split; reflexivity. Qed.
Print Assumptions C50_no_fields.
(* Setting a field on an operator sets it on everything below. *)
Theorem C50_set_reaches_members : forall o name vec o' s n, built o -> PetscOperatorSetField o name vec = Some o' -> within s o' -> same name n -> PetscOperatorFieldsGet (op_fields s) n = Some (Some vec).
Proof.
  intros o name vec o' s n B E H Hn. apply built_wf in B. revert o B E. induction H as [o'|s m o' ms Hm Im _ IH]; intros o W E; destruct (set_wf name vec o W) as (o1 & E1 & W1 & G & ms0 & ms1 & M0 & M1 & Es); assert (o1 = o') by congruence; subst o1.
  - rewrite G. unfold same in Hn. unfold short, MAX_NAME_LEN. rewrite Hn, String.eqb_refl. reflexivity.
  - assert (ms1 = ms) by congruence. subst ms1. apply In_nth_error in Im. destruct Im as (i & Hi).
    assert (K : exists m0, In m0 ms0 /\ PetscOperatorSetField m0 name vec = Some m).
    { clear - Es Hi. revert ms i Es Hi. induction ms0 as [|a l IHl]; intros ms i Es Hi; cbn [omap] in Es; [injection Es as <-; destruct i; discriminate|].
      destruct (PetscOperatorSetField a name vec) as [a'|] eqn:Ea; [|discriminate]. cbn [obind] in Es. destruct (omap _ l) as [l'|] eqn:El; [|discriminate]. injection Es as <-. destruct i as [|i]; [injection Hi as ->; exists a; split; [left; reflexivity|exact Ea]|].
      destruct (IHl _ _ eq_refl Hi) as (m0 & I0 & E0). exists m0. split; [right; exact I0|exact E0]. }
    destruct K as (m0 & I0 & E0). apply (IH m0); [|exact E0]. destruct W as [f fs id Hf D|f fs k subs mm Hf D Hs Wm]; cbn [members] in M0; [injection M0 as <-; destruct I0|]. rewrite (holds_entries _ _ Hs) in M0. injection M0 as <-. apply Wm. exact I0.
Qed.
Print Assumptions C50_set_reaches_members.
(* A sub-operator is added behind those already there, for any number of them. *)
Theorem C50_add_appends : forall o s, built o -> is_composite o -> built s -> exists o' ms, PetscOperatorCompositeAddSub o s = Some o' /\ members o = Some ms /\ members o' = Some (ms ++ [s]) /\
  forall n, PetscOperatorFieldsGet (op_fields o') n = PetscOperatorFieldsGet (op_fields o) n.
Proof.
  intros o s B C Bs. destruct (add_wf o s (built_wf o B) C (built_wf s Bs)) as (o' & E & _ & F & ms & M & M'). exists o', ms. rewrite F. auto.
Qed.
Print Assumptions C50_add_appends.
(* Applying a composite operator applies its sub-operators one after the other, each to what the previous one left. *)
Theorem C50_apply_in_order : forall F (leaf : nat -> (string -> option (option nat)) -> F -> option F) o f, built o -> is_composite o ->
  exists ms, members o = Some ms /\ PetscOperatorApply leaf o f = ofold (fun f m => PetscOperatorApply leaf m f) ms f.
Proof.
  intros F leaf o f B C. apply built_wf in B. destruct B as [a fs id Hf D|a fs n subs ms Hf D Hs Wm]; [destruct C|]. exists ms. split; [apply holds_entries; exact Hs|].
  destruct Hs as (rest & Es & Ns). cbn [a_cells a_num] in Es, Ns. cbn [PetscOperatorApply]. rewrite Es, Ns. clear. revert f. induction ms as [|m ms IH]; intros f; [destruct rest; reflexivity|].
  cbn [length map app ofold]. destruct (PetscOperatorApply leaf m f) as [f'|]; [|reflexivity]. cbn [obind]. apply IH.
Qed.
Print Assumptions C50_apply_in_order.
(* Whole histories, from a new composite operator: nothing fails; every name has its last value; the
   sub-operators are those added, in order, each with the fields it came with and those set since. *)
Theorem C50_history : forall calls, (forall s, In (AddSub s) calls -> built s) -> exists o ms, ofold exec1 calls PetscOperatorCreateComposite = Some o /\ members o = Some ms /\
  (forall name, PetscOperatorFieldsGet (op_fields o) name = Some (last_set calls name None)) /\
  Forall2 (fun m a => forall name r, PetscOperatorFieldsGet (op_fields (fst a)) name = Some r -> PetscOperatorFieldsGet (op_fields m) name = Some (last_set (snd a) name r)) ms (added calls).
Proof.
  intros calls Hb.
  assert (G : forall calls o, (forall s, In (AddSub s) calls -> built s) -> wf o -> is_composite o -> exists o' ms ms1 ms2, ofold exec1 calls o = Some o' /\ members o = Some ms /\ members o' = Some (ms1 ++ ms2) /\
    (forall name r, PetscOperatorFieldsGet (op_fields o) name = Some r -> PetscOperatorFieldsGet (op_fields o') name = Some (last_set calls name r)) /\
    Forall2 (fun m' m => forall name r, PetscOperatorFieldsGet (op_fields m) name = Some r -> PetscOperatorFieldsGet (op_fields m') name = Some (last_set calls name r)) ms1 ms /\
    Forall2 (fun m a => forall name r, PetscOperatorFieldsGet (op_fields (fst a)) name = Some r -> PetscOperatorFieldsGet (op_fields m) name = Some (last_set (snd a) name r)) ms2 (added calls)).
  { clear. induction calls as [|c calls IH]; intros o Hb W C.
    - assert (Hm : exists ms, members o = Some ms) by (destruct W as [f fs id Hf D|f fs n subs ms Hf D Hs Wm]; eexists; [reflexivity|apply holds_entries; exact Hs]). destruct Hm as (ms & Hm).
      exists o, ms, ms, []. cbn [ofold]. rewrite app_nil_r. split; [reflexivity|]. split; [exact Hm|]. split; [exact Hm|]. split; [intros name r E; exact E|]. split; [|constructor]. clear. induction ms; constructor; auto.
    - destruct c as [name vec|s].
      + destruct (set_wf name vec o W) as (o1 & E1 & W1 & G & ms & ms1 & M & M1 & Es). destruct (IH o1) as (o' & mm & a & b & E & Mo1 & Mo' & Gf & Fa & Fb); [intros s Hs; apply Hb; right; exact Hs|exact W1|exact (composite_kept _ _ _ _ E1 C)|].
        assert (mm = ms1) by congruence. subst mm. exists o', ms, a, b. cbn [ofold exec1]. rewrite E1. cbn [obind]. split; [exact E|]. split; [exact M|]. split; [exact Mo'|]. split; [|split].
        * intros n r Hr. cbn [last_set fold_left]. fold (last_set calls n (if String.eqb (substring 0 128 name) (substring 0 128 n) then Some vec else r)). apply Gf. rewrite G. unfold short, MAX_NAME_LEN. destruct (String.eqb _ _); [reflexivity|exact Hr].
        * assert (Wm : forall m, In m ms -> wf m) by (destruct W as [f fs id Hf D|f fs k subs mm Hf D Hs Wm]; cbn [members] in M; [injection M as <-; intros m []|rewrite (holds_entries _ _ Hs) in M; injection M as <-; exact Wm]).
          clear - Es Fa Wm. revert ms1 a Es Fa. induction ms as [|m ms IHm]; intros ms1 a Es Fa; cbn [omap] in Es; [injection Es as <-; inversion Fa; constructor|].
          destruct (set_wf name vec m (Wm m (or_introl eq_refl))) as (m' & Em & _ & G & _). rewrite Em in Es. cbn [obind] in Es. destruct (omap _ ms) as [ms'|] eqn:El; [|discriminate]. injection Es as <-. inversion Fa as [|x y l l' Hx Hl]; subst. constructor.
          -- intros n r Hr. cbn [last_set fold_left]. fold (last_set calls n (if String.eqb (substring 0 128 name) (substring 0 128 n) then Some vec else r)). apply Hx. rewrite G. unfold short, MAX_NAME_LEN. destruct (String.eqb _ _); [reflexivity|exact Hr].
          -- apply (IHm (fun m0 H => Wm m0 (or_intror H)) ms'); [reflexivity|exact Hl].
        * exact Fb.
      + destruct (add_wf o s W C (built_wf _ (Hb s (or_introl eq_refl)))) as (o1 & E1 & W1 & F & ms & M & M1). destruct (IH o1) as (o' & mm & a & b & E & Mo1 & Mo' & Gf & Fa & Fb); [intros x Hx; apply Hb; right; exact Hx|exact W1| |].
        { destruct o; [destruct C|]. cbn [PetscOperatorCompositeAddSub] in E1. destruct (append _ s); [|discriminate]. injection E1 as <-. exact I. }
        assert (mm = ms ++ [s]) by congruence. subst mm. apply Forall2_app_inv_r in Fa. destruct Fa as (a1 & a2 & Fa1 & Fa2 & ->). inversion Fa2 as [|x y l l' Hx Hl]; subst. inversion Hl; subst.
        exists o', ms, a1, (x :: b). cbn [ofold exec1 added]. rewrite E1. cbn [obind]. split; [exact E|]. split; [exact M|]. split; [rewrite Mo', <- app_assoc; reflexivity|]. split; [|split].
        * intros n r Hr. cbn [last_set fold_left]. apply Gf. rewrite F. exact Hr.
        * exact Fa1.
        * constructor; [exact Hx|exact Fb]. }
  destruct (G calls PetscOperatorCreateComposite Hb (built_wf _ built_composite) I) as (o & ms & a & b & E & M & M' & Gf & Fa & Fb). cbn in M. injection M as <-. inversion Fa; subst. exists o, b. split; [exact E|]. split; [exact M'|]. split; [|exact Fb].
  intros name. apply Gf. apply C50_no_fields. exact 0.
Qed.
Print Assumptions C50_history.
(* nine sub-operators (the allocated memory grows), a field set before and after the last is added *)
Example C50_inhabited : exists o ms, ofold exec1 (map (fun i => AddSub (PetscOperatorCreate i)) (seq 0 8) ++ [SetField "riemannf" 5; AddSub (PetscOperatorCreate 8); SetField "riemannf" 7])%list PetscOperatorCreateComposite = Some o /\
  members o = Some ms /\ length ms = 9 /\ (exists m, nth_error ms 8 = Some m /\ PetscOperatorFieldsGet (op_fields m) "riemannf" = Some (Some 7)) /\
  PetscOperatorApply (fun id _ f => Some (f ++ [id])) o [] = Some (seq 0 9).
Proof. eexists. eexists. split; [reflexivity|]. split; [reflexivity|]. split; [reflexivity|]. split; [eexists; split; reflexivity|]. reflexivity. Qed.
(* A sub-operator added later does not have the fields set on the composite before. *)
Theorem C50_late_member_refuted : exists o s o' m name vec, built o /\ built s /\ PetscOperatorFieldsGet (op_fields o) name = Some (Some vec) /\
  PetscOperatorCompositeAddSub o s = Some o' /\ members o' = Some [m] /\ PetscOperatorFieldsGet (op_fields m) name = Some None.
Proof.
  destruct (PetscOperatorSetField PetscOperatorCreateComposite "riemannf" 5) as [o|] eqn:E; [|discriminate]. exists o, (PetscOperatorCreate 0). injection E as <-. eexists. exists (PetscOperatorCreate 0), "riemannf"%string, 5.
  split; [eapply built_set; [apply built_composite|reflexivity]|]. split; [constructor|]. split; [reflexivity|]. split; [reflexivity|]. split; reflexivity.
Qed.
Print Assumptions C50_late_member_refuted.
