(* Proofs about the memory of a forcing: what every variable holds at each point of its life. *)
From Coq Require Import List Arith ZArith Bool Lia.
From Verif Require Import SetupModel ForcingMemoryModel.
Import ListNotations.
Local Open Scope nat_scope.
Local Notation length := List.length.

(* what is known of a variable: NULL, a live block made for it, not set, or anything but a block *)
Inductive status := N | L | J | D.
Definition knows (c : cell) (x : slot) (h : heap) (t : status) : Prop :=
  match t with
  | N => c = Null | J => c = Junk | D => c = Null \/ c = Junk
  | L => exists o, c = Ptr o /\ In (o, x) (live h)
  end.
(* [ex]: the variables whose block may be lost *)
Definition inv (ex : slot -> bool) (a : slot -> status) (h : heap) : Prop :=
  (forall x, knows (ptr h x) x h (a x)) /\ NoDup (map fst (live h)) /\
  (forall o x, In (o, x) (live h) -> o < next h) /\
  (forall o x, In (o, x) (live h) -> ptr h x = Ptr o \/ ex x = true).

Definition execs ex (p : list instr) (a : slot -> status) (r : result (slot -> status)) : Prop :=
  forall h, inv ex a h ->
  match r with Ret a' => exists h', run p h = Ret h' /\ inv ex a' h' | Error => run p h = Error | UB => True end.

Lemma run_app p q h : run (p ++ q) h = let! h := run p h in run q h.
Proof. revert h. induction p; intros h; cbn; [reflexivity|]. destruct (step h a); cbn; auto. Qed.
Lemma execs_app ex p q a b r : execs ex p a (Ret b) -> execs ex q b r -> execs ex (p ++ q) a r.
Proof.
  intros P Q h I. destruct (P h I) as [h' [E I']]. specialize (Q h' I'). rewrite run_app, E. cbn.
  destruct r; exact Q.
Qed.
Lemma execs_error ex p q a : execs ex p a Error -> execs ex (p ++ q) a Error.
Proof. intros P h I. rewrite run_app, (P h I). reflexivity. Qed.
Lemma execs_nil ex a : execs ex [] a (Ret a).
Proof. intros h I. exists h. split; auto. Qed.
Lemma execs_cons ex i q a b r : execs ex [i] a (Ret b) -> execs ex q b r -> execs ex (i :: q) a r.
Proof. intros P Q. apply (execs_app ex [i] q a b r P Q). Qed.

Definition weaker (a b : slot -> status) : Prop := forall x, a x = b x \/ (a x <> L /\ b x = D).
Lemma inv_weaken ex a b h : weaker a b -> inv ex a h -> inv ex b h.
Proof.
  intros W [K I]. split; [|exact I]. intros x. specialize (K x). destruct (W x) as [<- | [NL ->]]; auto.
  destruct (a x); cbn in *; try tauto.
Qed.
Lemma execs_weaken ex p a b c : execs ex p a (Ret b) -> weaker b c -> execs ex p a (Ret c).
Proof. intros P W h I. destruct (P h I) as [h' [E I']]. exists h'. split; auto. eapply inv_weaken; eauto. Qed.
Lemma execs_strengthen ex p a b r : execs ex p b r -> weaker a b -> execs ex p a r.
Proof. intros P W h I. apply P. eapply inv_weaken; eauto. Qed.

(* ---- steps on what is known ---- *)
Definition aset (a : slot -> status) (x : slot) (t : status) : slot -> status := fun y => if slot_dec y x then t else a y.
Definition is_L (t : status) : bool := match t with L => true | _ => false end.
Definition st (n : nat) : status := match n with 0 => N | _ => L end.
Definition ax (ex : slot -> bool) (a : slot -> status) (i : instr) : result (slot -> status) :=
  match i with
  | Alloc x n => if forallb (fun y => is_L (a y)) (homes x) && (negb (is_L (a x)) || ex x) then Ret (aset a x (st n)) else UB
  | AllocStruct _ _ _ => UB
  | Free x =>
    if forallb (fun y => is_L (a y)) (homes x) then match a x with J | D => UB | _ => Ret (aset a x N) end else UB
  | Use x => if forallb (fun y => is_L (a y)) (homes x) && is_L (a x) then Ret a else UB
  | Check b => if b then Ret a else Error
  end.
Fixpoint axs ex (p : list instr) (a : slot -> status) : result (slot -> status) :=
  match p with [] => Ret a | i :: t => let! a := ax ex a i in axs ex t a end.

Lemma L_there ex a h x : inv ex a h -> is_L (a x) = true -> there h x = true.
Proof.
  intros [K _] E. specialize (K x). destruct (a x); cbn in *; try discriminate. destruct K as [o [P I]].
  unfold there. rewrite P. unfold holds. apply existsb_exists. exists (o, x). split; auto. cbn. apply Nat.eqb_refl.
Qed.
Lemma homes_there ex a h x : inv ex a h -> forallb (fun y => is_L (a y)) (homes x) = true -> forallb (there h) (homes x) = true.
Proof. intros I F. apply forallb_forall. intros y Hy. eapply L_there; eauto. rewrite forallb_forall in F. auto. Qed.

Lemma alloc_inv ex a h x n f : inv ex a h -> (is_L (a x) = false \/ ex x = true) -> n <> 0 ->
  forall b, (forall y, y <> x -> knows (f y) y h (b y)) -> b x = L ->
  (forall y, y <> x -> a y = L -> f y = ptr h y) ->
  inv ex b (Heap ((next h, x) :: live h) (S (next h)) (put f x (Ptr (next h)))).
Proof.
  intros [K [ND [LT OW]]] NX Hn b KB BX KEEP. repeat split; cbn.
  - intros y. unfold put. destruct (slot_dec y x) as [-> | NE].
    + rewrite BX. cbn. eexists. split; [reflexivity|]. left. reflexivity.
    + specialize (KB y NE). destruct (b y); cbn in *; auto. destruct KB as [o [E I]]. eauto.
  - constructor; auto. intros H. apply in_map_iff in H. destruct H as [[o y] [E I]]. cbn in E. subst. specialize (LT _ _ I). lia.
  - intros o y [E | I]; [injection E as <- <-; lia|]. specialize (LT _ _ I). lia.
  - intros o y [E | I].
    + injection E as <- <-. left. unfold put. destruct (slot_dec x x); congruence.
    + unfold put. destruct (slot_dec y x) as [-> | NE].
      * destruct (OW _ _ I) as [P | X]; [|right; exact X]. right.
        destruct NX as [NX | NX]; [|exact NX]. specialize (K x). rewrite P in K. destruct (a x); cbn in *; try discriminate; destruct K as [K | K]; discriminate.
      * destruct (OW _ _ I) as [P | X]; [|right; exact X]. left. rewrite (KEEP y NE); auto.
        specialize (K y). rewrite P in K. destruct (a y); cbn in *; auto; try discriminate; destruct K as [K | K]; discriminate.
Qed.

Lemma null_inv ex a h x : inv ex a h -> (is_L (a x) = false \/ ex x = true) ->
  inv ex (aset a x N) (Heap (live h) (next h) (put (ptr h) x Null)).
Proof.
  intros [K [ND [LT OW]]] NX. repeat split; cbn; auto.
  - intros y. unfold put, aset. destruct (slot_dec y x); [reflexivity|]. specialize (K y). destruct (a y); cbn in *; auto.
  - intros o y I. unfold put. destruct (slot_dec y x) as [-> | NE]; [|apply OW; exact I].
    destruct (OW _ _ I) as [P | X]; [|right; exact X]. right. destruct NX as [NX | NX]; [|exact NX].
    specialize (K x). rewrite P in K. destruct (a x); cbn in *; try discriminate; destruct K as [K | K]; discriminate.
Qed.

Lemma NoDup_fst_eq (l : list (nat * slot)) o x y : NoDup (map fst l) -> In (o, x) l -> In (o, y) l -> x = y.
Proof.
  induction l as [|[o' z] l IH]; cbn; [contradiction|].
  intros ND A B. inversion ND as [|? ? NI ND']; subst. destruct A as [E | I], B as [E' | I']; auto.
  - congruence.
  - injection E as -> ->. exfalso. apply NI. apply in_map_iff. exists (o, y). auto.
  - injection E' as -> ->. exfalso. apply NI. apply in_map_iff. exists (o, x). auto.
Qed.
Lemma NoDup_filter_fst f (l : list (nat * slot)) : NoDup (map fst l) -> NoDup (map fst (filter f l)).
Proof.
  induction l as [|b l IH]; cbn; intros ND; auto. inversion ND as [|? ? NI ND']; subst. destruct (f b); cbn; auto.
  constructor; auto. intros H. apply NI. apply in_map_iff in H. destruct H as [c [E I]]. apply filter_In in I. apply in_map_iff. exists c. tauto.
Qed.

Lemma free_inv ex a h x o : inv ex a h -> ptr h x = Ptr o -> In (o, x) (live h) ->
  inv ex (aset a x N) (Heap (filter (fun b => negb (Nat.eqb (fst b) o)) (live h)) (next h) (put (ptr h) x Null)).
Proof.
  intros [K [ND [LT OW]]] P I. repeat split; cbn.
  - intros y. unfold put, aset. destruct (slot_dec y x) as [-> | NE]; [reflexivity|]. specialize (K y). destruct (a y); cbn in *; auto.
    destruct K as [o' [E I']]. exists o'. split; auto. apply filter_In. split; auto. cbn. apply negb_true_iff, Nat.eqb_neq.
    intros ->. apply NE. eapply NoDup_fst_eq; eauto.
  - apply NoDup_filter_fst; auto.
  - intros o' y H. apply filter_In in H. eapply LT. apply H.
  - intros o' y H. apply filter_In in H. destruct H as [H NE]. cbn in NE. apply negb_true_iff, Nat.eqb_neq in NE.
    destruct (OW _ _ H) as [E | X]; [|right; exact X]. left. unfold put. destruct (slot_dec y x) as [-> | _]; auto. congruence.
Qed.

Lemma ax_sound ex i a : execs ex [i] a (ax ex a i).
Proof.
  intros h I. destruct i as [x n | x n z | x | x | b]; cbn [ax].
  - destruct (forallb _ (homes x)) eqn:HM; cbn [andb]; [|exact Logic.I].
    destruct (negb (is_L (a x)) || ex x) eqn:NX; [|exact Logic.I].
    assert (NX' : is_L (a x) = false \/ ex x = true) by (apply orb_true_iff in NX; rewrite negb_true_iff in NX; exact NX).
    cbn [run step]. rewrite (homes_there ex a h x I HM). cbn [rbind].
    destruct n as [|n]; cbn [Nat.eqb st].
    + eexists. split; [reflexivity|]. apply null_inv; auto.
    + eexists. split; [reflexivity|]. destruct I as [K R]. apply (alloc_inv ex a h x (S n) (ptr h)); auto; try (split; auto; fail).
      * intros y NE. unfold aset. destruct (slot_dec y x); [congruence|]. apply K.
      * unfold aset. destruct (slot_dec x x); congruence.
  - exact Logic.I.
  - destruct (forallb _ (homes x)) eqn:HM; [|exact Logic.I].
    assert (H := homes_there ex a h x I HM). assert (K := proj1 I x).
    destruct (a x) eqn:E; cbn in K; try exact Logic.I.
    + exists h. cbn [run step]. rewrite H, K. cbn. split; auto. destruct I as [KK R]. split; auto.
      intros y. unfold aset. destruct (slot_dec y x) as [-> | _]; [exact K | apply KK].
    + destruct K as [o [P LV]]. cbn [run step]. rewrite H, P.
      assert (T : holds h o = true) by (unfold holds; apply existsb_exists; exists (o, x); cbn; split; [exact LV | apply Nat.eqb_refl]).
      rewrite T. cbn [rbind]. eexists. split; [reflexivity|]. apply free_inv; auto.
  - destruct (forallb _ (homes x)) eqn:HM; cbn [andb]; [|exact Logic.I].
    destruct (is_L (a x)) eqn:E; [|exact Logic.I]. exists h. cbn [run step].
    rewrite (homes_there ex a h x I HM), (L_there ex a h x I E). cbn. auto.
  - destruct b; cbn; [|reflexivity]. exists h. auto.
Qed.
Lemma axs_sound ex p a : execs ex p a (axs ex p a).
Proof.
  revert a. induction p as [|i p IH]; intros a; cbn [axs]; [apply execs_nil|].
  pose proof (ax_sound ex i a) as S. destruct (ax ex a i) as [b | |] eqn:E; cbn [rbind].
  - eapply execs_cons; eauto.
  - apply (execs_error ex [i] p). exact S.
  - intros h I. exact Logic.I.
Qed.
Lemma axs_ok ex p a b : axs ex p a = Ret b -> execs ex p a (Ret b).
Proof. intros <-. apply axs_sound. Qed.
Lemma axs_end ex p a b c : axs ex p a = Ret b -> weaker b c -> execs ex p a (Ret c).
Proof. intros E W. eapply execs_weaken; [apply axs_ok, E | exact W]. Qed.

(* an array of variables: nothing in it may be held when it is made *)
Lemma struct_ok ex a x n z : forallb (fun y => is_L (a y)) (homes x) = true -> is_L (a x) = false ->
  (forall y, inside x y = true -> is_L (a y) = false) ->
  execs ex [AllocStruct x n z] a
    (Ret (aset (fun y => if (match n with 0 => false | _ => inside x y end) then (if z then N else J) else a y) x (st n))).
Proof.
  intros HM NX IN h I. cbn [run step]. rewrite (homes_there ex a h x I HM). cbn [rbind]. destruct n as [|n]; cbn [Nat.eqb st].
  - eexists. split; [reflexivity|]. apply null_inv; auto.
  - eexists. split; [reflexivity|]. destruct I as [K R].
    apply (alloc_inv ex a h x (S n) (fun y => if inside x y then (if z then Null else Junk) else ptr h y)); auto; try (split; auto; fail).
    + intros y NE. unfold aset. destruct (slot_dec y x); [congruence|]. destruct (inside x y) eqn:E; [|apply K]. destruct z; reflexivity.
    + unfold aset. destruct (slot_dec x x); congruence.
    + intros y NE Ly. destruct (inside x y) eqn:E; auto. specialize (IN y E). rewrite Ly in IN. discriminate.
Qed.

(* ---- one instruction at a time ---- *)
Definition all_L (a : slot -> status) (l : list slot) : Prop := forallb (fun y => is_L (a y)) l = true.
Lemma do_alloc ex x n q a r : all_L a (homes x) -> (negb (is_L (a x)) || ex x = true) -> execs ex q (aset a x (st n)) r -> execs ex (Alloc x n :: q) a r.
Proof. intros H E Q. eapply execs_cons; [|exact Q]. apply axs_ok. cbn [axs ax]. rewrite H, E. reflexivity. Qed.
Lemma do_free ex x q a r : all_L a (homes x) -> (a x = N \/ a x = L) -> execs ex q (aset a x N) r -> execs ex (Free x :: q) a r.
Proof. intros H E Q. eapply execs_cons; [|exact Q]. apply axs_ok. cbn [axs ax]. rewrite H. destruct E as [-> | ->]; reflexivity. Qed.
Lemma do_use ex x q a r : all_L a (homes x) -> is_L (a x) = true -> execs ex q a r -> execs ex (Use x :: q) a r.
Proof. intros H E Q. eapply execs_cons; [|exact Q]. apply axs_ok. cbn [axs ax]. rewrite H, E. reflexivity. Qed.
Lemma do_end ex a b : weaker a b -> execs ex [] a (Ret b).
Proof. intros W. eapply execs_weaken; [apply execs_nil | exact W]. Qed.
Lemma loop_rule ex body n F : (forall j, j < n -> execs ex (body j) (F j) (Ret (F (S j)))) -> execs ex (loop n body) (F 0) (Ret (F n)).
Proof.
  intros H. unfold loop. assert (G : forall k, k <= n -> execs ex (flat_map body (seq 0 k)) (F 0) (Ret (F k))).
  { induction k as [|k IH]; intros Hk; [apply execs_nil|]. rewrite seq_S, flat_map_app. eapply execs_app; [apply IH; lia|].
    cbn. rewrite app_nil_r. apply H. lia. }
  apply G. lia.
Qed.
Lemma uses_ok ex n xs q a r : (n <> 0 -> forall x, In x xs -> all_L a (x :: homes x)) -> execs ex q a r -> execs ex (uses n xs ++ q) a r.
Proof.
  intros H Q. unfold uses. destruct n as [|n]; [exact Q|]. cbn [Nat.eqb]. specialize (H ltac:(lia)). clear n.
  induction xs as [|x xs IH]; cbn; [exact Q|]. specialize (H x (or_introl eq_refl)) as Hx. unfold all_L in Hx. cbn in Hx.
  apply andb_true_iff in Hx. apply do_use; [apply Hx | apply Hx |]. apply IH. intros y Hy. apply H. right. exact Hy.
Qed.

(* ---- the variables of a forcing that has been created ---- *)
Definition arr (bcs : conditions) (i : nat) : status := match nth_error (dirichlet bcs) i with Some (_, e, _) => st (3 * e) | None => D end.
(* [ns], [nb]: the copies of file names *)
Definition created (n : nat) (s : source) (b : boundary) (ns nb : nat) (x : slot) : status :=
  match x with
  | Object => L
  | Values Source => match s with SConstant | SHomog | SRaster _ _ | SUnstr _ _ => st n | _ => N end
  | Values Boundary => match b with BHomog e | BUnstr e _ => st (3 * e) | _ => N end
  | Homog Source => match s with SHomog => L | _ => N end
  | Homog Boundary => match b with BHomog _ => L | _ => N end
  | Raster f => match s with SRaster c _ => match f with DataVec => L | DataX | DataY => st c | _ => st n end | _ => N end
  | Unstr Source f => match s with SUnstr c _ => match f with DataVec => L | DataX | DataY => st c | _ => st n end | _ => N end
  | Unstr Boundary f =>
    match b with BUnstr e c => match f with DataVec => L | DataX | DataY => match e with 0 => N | _ => st c end | _ => st e end | _ => N end
  | Sets Source | Ids Source => match s with SMulti k => st k | _ => N end
  | Sets Boundary | Ids Boundary => match b with BMulti ids _ => st (length ids) | _ => N end
  | SetVec Source i => match s with SMulti k => if i <? k then L else D | _ => D end
  | SetVec Boundary i => match b with BMulti ids _ => if i <? length ids then L else D | _ => D end
  | BcIndex | BcToData | BcSizes | BcArrays => match b with BMulti _ bcs => st (length (dirichlet bcs)) | _ => N end
  | BcArray i => match b with BMulti _ bcs => arr bcs i | _ => D end
  | Name Source i => if i <? ns then L else D
  | Name Boundary i => if i <? nb then L else D
  | Local _ => D
  end.

Ltac peel := repeat match goal with |- context[slot_dec ?x ?y] => destruct (slot_dec x y); try discriminate; try congruence end.
Ltac look := unfold all_L, aset; cbn [homes forallb]; peel; cbn; auto; try reflexivity.
Ltac st_cases := unfold st; repeat match goal with |- context[match ?n with 0 => _ | S _ => _ end] => is_var n; destruct n end.
Ltac one := first
  [ apply do_alloc; [solve [look] | first [solve [look] | solve [apply orb_true_iff; right; assumption]] |]
  | apply do_free; [solve [look] | solve [look; st_cases; auto] |]
  | apply do_use; [solve [look] | solve [look; st_cases; auto] |] ].

Lemma open_data_ok ex x q a r : all_L a (homes x) -> is_L (a x) = false -> a (Local 0) = D -> (forall i, x <> Local i) ->
  ~ In x (homes x) -> ~ In (Local 0) (homes x) ->
  execs ex q (aset a x L) r -> execs ex (open_data x ++ q) a r.
Proof.
  intros H X Z NX NI NZ Q. unfold open_data. cbn [app].
  assert (H' : all_L (aset a x L) (homes x)).
  { unfold all_L in *. rewrite forallb_forall in *. intros y Hy. unfold aset. destruct (slot_dec y x); auto. }
  assert (H'' : all_L (aset (aset a x L) (Local 0) L) (homes x)).
  { unfold all_L in *. rewrite forallb_forall in *. intros y Hy. unfold aset at 1. destruct (slot_dec y (Local 0)); auto. }
  apply do_alloc; [exact H | rewrite X; reflexivity |].
  apply do_alloc; [reflexivity | unfold aset; destruct (slot_dec (Local 0) x); [exfalso; eapply NX; eauto | rewrite Z; reflexivity] |].
  apply do_use; [exact H'' | unfold aset; cbn; destruct (slot_dec x (Local 0)); [reflexivity|]; destruct (slot_dec x x); [reflexivity | congruence] |].
  apply do_free; [reflexivity | right; unfold aset; destruct (slot_dec (Local 0) (Local 0)); [reflexivity | congruence] |].
  eapply execs_strengthen; [exact Q|]. intros y. unfold aset.
  destruct (slot_dec y (Local 0)) as [-> | NE].
  - right. split; [discriminate|]. destruct (slot_dec (Local 0) x); [exfalso; eapply NX; eauto | exact Z].
  - left. reflexivity.
Qed.

Definition names_s (s : source) : nat := match s with SMulti k => k | _ => 0 end.
Definition names_b (b : boundary) : nat := match b with BMulti ids _ => length ids | _ => 0 end.

Lemma st_L n : n <> 0 -> st n = L. Proof. destruct n; [lia | reflexivity]. Qed.
Ltac used := intros NZ ?x HIn; cbn [In] in HIn;
  repeat (destruct HIn as [<- | HIn]; [solve [unfold all_L, aset; cbn [homes forallb]; peel; cbn; rewrite ?(st_L _ NZ); reflexivity]|]); contradiction.
Ltac data := apply open_data_ok; [solve [look] | solve [look] | solve [look] | discriminate | solve [cbn; intuition discriminate] | solve [cbn; intuition discriminate] |].
Ltac flat := cbn [app]; rewrite <- ?app_assoc; cbn [app].
Ltac fin := apply do_end; intros x; unfold aset; destruct x as [| [] | [] | [] | [] [] | [] | [] | [] ? | | | | | ? | [] ? | ?]; peel; cbn; auto;
  try (right; split; [discriminate | reflexivity]); st_cases; auto; try (right; split; [discriminate | reflexivity]).
Ltac tail_uses := match goal with |- execs _ (uses _ _) _ _ => rewrite <- (app_nil_r (uses _ _)) | _ => idtac end.
Ltac more := repeat first [progress flat | one | data | tail_uses; apply uses_ok; [solve [used]|]].

Lemma create_simple ex n s b nb : match s with SMulti _ => False | SRaster _ true => ex (Raster Map) = true | _ => True end ->
  execs ex (create_source n s) (created n SUnset b 0 nb) (Ret (created n s b 0 nb)).
Proof.
  intros EX. destruct s as [ | | | c [|] | c [|] | k]; try contradiction; unfold create_source, post_raster, post_source_unstr, centroids, read_map, create_raster_map, create_unstr_map, read_coordinates.
  - apply do_end. intros x. left. reflexivity.
  - more. fin.
  - more. fin.
  - more. fin.
  - more. destruct n; cbn [Nat.eqb]; more; fin.
  - more. fin.
  - more. destruct n; cbn [Nat.eqb]; more; fin.
Qed.

Lemma apply_source_ok ex n s b ns nb nf : match s with SMulti _ => False | _ => True end ->
  execs ex (apply_source n s nf) (created n s b ns nb) (Ret (created n s b ns nb)).
Proof.
  intros EX. destruct s as [ | | | c rd | c rd | k]; try contradiction; unfold apply_source, open_next.
  - apply do_end. intros x. left. reflexivity.
  - more. fin.
  - more. fin.
  - destruct n; cbn [Nat.eqb]; [fin|]. destruct nf; more; fin.
  - destruct n; cbn [Nat.eqb]; [fin|]. destruct nf; more; fin.
Qed.
Lemma destroy_source_ok ex n s b ns nb : match s with SMulti _ => False | _ => True end ->
  execs ex (destroy_source n s) (created n s b ns nb) (Ret (created n SUnset b ns nb)).
Proof.
  intros EX. destruct s as [ | | | c rd | c rd | k]; try contradiction; unfold destroy_source, destroy_raster, destroy_unstr.
  - fin.
  - more. fin.
  - more. fin.
  - more. fin.
  - destruct n; cbn [Nat.eqb]; more; fin.
Qed.
Lemma create_boundary_ok ex n s b ns : match b with BMulti _ _ => False | _ => True end ->
  execs ex (create_boundary b) (created n s BUnset ns 0) (Ret (created n s b ns 0)).
Proof.
  intros EX. destruct b as [ | e | e c | ids bcs]; try contradiction;
    unfold create_boundary, post_boundary_homog, post_boundary_unstr, centroids, read_coordinates, create_unstr_map.
  - fin.
  - more. fin.
  - destruct e; cbn [Nat.eqb]; more; fin.
Qed.
Lemma apply_boundary_ok ex n s b ns nb nf : match b with BMulti _ _ => False | _ => True end ->
  execs ex (apply_boundary b nf) (created n s b ns nb) (Ret (created n s b ns nb)).
Proof.
  intros EX. destruct b as [ | e | e c | ids bcs]; try contradiction; unfold apply_boundary, open_next.
  - fin.
  - destruct e; cbn [uses Nat.eqb map]; more; fin.
  - destruct e; cbn [Nat.eqb]; [fin|]. destruct nf; cbn [uses Nat.eqb map]; more; fin.
Qed.
Lemma destroy_boundary_ok ex n s b ns nb : match b with BMulti _ _ => False | _ => True end ->
  execs ex (destroy_boundary b) (created n s b ns nb) (Ret (created n s BUnset ns nb)).
Proof.
  intros EX. destruct b as [ | e | e c | ids bcs]; try contradiction; unfold destroy_boundary, destroy_unstr, boundary_ndata.
  - fin.
  - destruct e; cbn [Nat.eqb Nat.mul Nat.add]; more; fin.
  - destruct e; cbn [Nat.eqb Nat.mul Nat.add]; more; fin.
Qed.

(* ---- several files ---- *)
(* the vectors of the first j datasets are there *)
Definition vecs (d : side) (j : nat) (a : slot -> status) (x : slot) : status :=
  match x with
  | SetVec d' i => match d, d' with Source, Source | Boundary, Boundary => if i <? j then L else D | _, _ => a x end
  | _ => a x
  end.
Lemma ltb_S i j : i <> j -> (i <? S j) = (i <? j).
Proof. intros H. destruct (Nat.ltb_spec i (S j)), (Nat.ltb_spec i j); auto; lia. Qed.
Lemma ltb_self j : (j <? S j) = true. Proof. apply Nat.ltb_lt. lia. Qed.
Ltac split_slot x := destruct x as [| [] | [] | [] | [] [] | [] | [] | [] ? | | | | | ? | [] ? | ?].
Ltac close_slot := first [left; reflexivity | right; split; [discriminate | reflexivity]].

Lemma ltb_true i j : i < j -> (i <? j) = true. Proof. apply Nat.ltb_lt. Qed.
Lemma inside_sets d x : inside (Sets d) x = true -> exists i, x = SetVec d i.
Proof. unfold inside. destruct (in_dec slot_dec (Sets d) (homes x)) as [H|]; [|discriminate]. intros _. destruct x; cbn in H; intuition try discriminate. eexists. f_equal. congruence. Qed.
Lemma inside_arrays x : inside BcArrays x = true -> exists i, x = BcArray i.
Proof. unfold inside. destruct (in_dec slot_dec BcArrays (homes x)) as [H|]; [|discriminate]. intros _. destruct x; cbn in H; intuition try discriminate. eexists. f_equal. Qed.

Lemma parse_source_ok ex n k b nb :
  execs ex (parse_files Source k) (created n SUnset b 0 nb) (Ret (vecs Source 0 (created n (SMulti k) b k nb))).
Proof.
  unfold parse_files. eapply execs_app.
  { apply (loop_rule ex _ k (fun j => created n SUnset b j nb)). intros j Hj. apply do_alloc; [reflexivity | cbn [created vecs]; rewrite Nat.ltb_irrefl; reflexivity |].
    apply do_end. intros x. left. unfold aset. split_slot x; peel; cbn [created vecs]; auto.
    - injection e as ->. symmetry. now rewrite ltb_self.
    - rewrite ltb_S by congruence. reflexivity. }
  cbn [app]. eapply execs_cons.
  { apply struct_ok; [reflexivity | reflexivity |]. intros y Hy. apply inside_sets in Hy as [i ->]. reflexivity. }
  apply do_alloc; [unfold all_L, aset; destruct k; reflexivity | unfold aset; destruct k; reflexivity |].
  eapply execs_strengthen with (b := vecs Source 0 (created n (SMulti k) b k nb)).
  { apply (loop_rule ex _ k (fun _ => vecs Source 0 (created n (SMulti k) b k nb))). intros j Hj.
    assert (K : k <> 0) by lia. apply st_L in K.
    apply do_use; [reflexivity | cbn; rewrite K; reflexivity |].
    apply do_use; [reflexivity | cbn [created vecs]; rewrite (ltb_true _ _ Hj); reflexivity |].
    apply do_use; [reflexivity | cbn; rewrite K; reflexivity |]. apply execs_nil. }
  intros x. unfold aset. split_slot x; destruct k; cbn; peel; cbn; close_slot.
Qed.
Lemma open_source_ok ex n k b ns nb :
  execs ex (open_sets Source k) (vecs Source 0 (created n (SMulti k) b ns nb)) (Ret (created n (SMulti k) b ns nb)).
Proof.
  unfold open_sets. eapply execs_weaken.
  { apply (loop_rule ex _ k (fun j => vecs Source j (created n (SMulti k) b ns nb))). intros j Hj.
    assert (K : k <> 0) by lia. apply st_L in K.
    rewrite <- (app_nil_r (open_data _)). apply open_data_ok; [unfold all_L; cbn; rewrite K; reflexivity | cbn [created vecs]; now rewrite Nat.ltb_irrefl | reflexivity | discriminate | cbn; intuition discriminate | cbn; intuition discriminate |].
    apply do_end. intros x. left. unfold aset. split_slot x; peel; cbn [created vecs]; auto.
    - injection e as ->. symmetry. now rewrite ltb_self.
    - rewrite ltb_S by congruence. reflexivity. }
  intros x. left. split_slot x; reflexivity.
Qed.

(* the vectors of the datasets from j on are there *)
Definition vecs_from (d : side) (j k : nat) (a : slot -> status) (x : slot) : status :=
  match x with
  | SetVec d' i => match d, d' with Source, Source | Boundary, Boundary => if (j <=? i) && (i <? k) then L else D | _, _ => a x end
  | _ => a x
  end.
Lemma leb_S i j : i <> j -> (S j <=? i) = (j <=? i).
Proof. intros H. destruct (Nat.leb_spec (S j) i), (Nat.leb_spec j i); auto; lia. Qed.
Lemma leb_self j : (S j <=? j) = false. Proof. apply Nat.leb_gt. lia. Qed.
Lemma ltb_leb j i : (j <=? i) && (i <? j) = false.
Proof. destruct (Nat.leb_spec j i), (Nat.ltb_spec i j); auto; lia. Qed.
Lemma apply_multi_ok ex n k b ns nb nf :
  execs ex (apply_source n (SMulti k) nf) (created n (SMulti k) b ns nb) (Ret (created n (SMulti k) b ns nb)).
Proof.
  cbn [apply_source]. apply (loop_rule ex _ k (fun _ => created n (SMulti k) b ns nb)). intros j Hj.
  assert (K : k <> 0) by lia. apply st_L in K.
  apply do_use; [unfold all_L; cbn; rewrite K; reflexivity | cbn [created]; rewrite (ltb_true _ _ Hj); reflexivity |].
  apply do_use; [reflexivity | cbn; rewrite K; reflexivity |]. apply execs_nil.
Qed.
Lemma destroy_multi_ok ex n k b ns nb :
  execs ex (destroy_source n (SMulti k)) (created n (SMulti k) b ns nb) (Ret (created n SUnset b ns nb)).
Proof.
  cbn [destroy_source]. unfold destroy_sets.
  eapply execs_strengthen with (b := vecs_from Source 0 k (created n (SMulti k) b ns nb)).
  2: { intros x. left. split_slot x; reflexivity. }
  eapply execs_app.
  { apply (loop_rule ex _ k (fun j => vecs_from Source j k (created n (SMulti k) b ns nb))). intros j Hj.
    assert (K : k <> 0) by lia. apply st_L in K.
    apply do_free; [unfold all_L; cbn; rewrite K; reflexivity | right; cbn [vecs_from]; rewrite Nat.leb_refl, (ltb_true _ _ Hj); reflexivity |].
    apply do_end. intros x. unfold aset. split_slot x; peel; cbn [created vecs_from]; auto.
    - injection e as ->. right. rewrite leb_self. split; [discriminate | reflexivity].
    - left. rewrite leb_S by congruence. reflexivity. }
  apply do_free; [reflexivity | cbn; destruct k; auto |]. apply do_free; [reflexivity | unfold aset; cbn; destruct k; auto |].
  apply do_end. intros x. unfold aset. split_slot x; peel; cbn [created vecs_from]; rewrite ?ltb_leb; auto.
Qed.

Lemma parse_boundary_ok ex n s ids ns : let k := length ids in
  execs ex (parse_files Boundary k) (created n s BUnset ns 0) (Ret (vecs Boundary 0 (created n s (BMulti ids []) ns k))).
Proof.
  intros k. unfold parse_files. eapply execs_app.
  { apply (loop_rule ex _ k (fun j => created n s BUnset ns j)). intros j Hj. apply do_alloc; [reflexivity | cbn [created]; rewrite Nat.ltb_irrefl; reflexivity |].
    apply do_end. intros x. left. unfold aset. split_slot x; peel; cbn [created]; auto.
    - injection e as ->. symmetry. now rewrite ltb_self.
    - rewrite ltb_S by congruence. reflexivity. }
  cbn [app]. eapply execs_cons.
  { apply struct_ok; [reflexivity | reflexivity |]. intros y Hy. apply inside_sets in Hy as [i ->]. reflexivity. }
  apply do_alloc; [unfold all_L, aset; destruct k; reflexivity | unfold aset; destruct k; reflexivity |].
  eapply execs_strengthen with (b := vecs Boundary 0 (created n s (BMulti ids []) ns k)).
  { apply (loop_rule ex _ k (fun _ => vecs Boundary 0 (created n s (BMulti ids []) ns k))). intros j Hj.
    assert (K : k <> 0) by lia. apply st_L in K.
    apply do_use; [reflexivity | cbn; fold k; rewrite K; reflexivity |].
    apply do_use; [reflexivity | cbn [created vecs]; rewrite (ltb_true _ _ Hj); reflexivity |].
    apply do_use; [reflexivity | cbn; fold k; rewrite K; reflexivity |]. apply execs_nil. }
  intros x. unfold aset. split_slot x; cbn; unfold arr; cbn; fold k; destruct k; cbn; peel; cbn; unfold arr; cbn; try close_slot.
  all: match goal with |- context[nth_error [] ?i] => destruct i; close_slot end.
Qed.
Lemma open_boundary_ok ex n s ids ns nb : let k := length ids in
  execs ex (open_sets Boundary k) (vecs Boundary 0 (created n s (BMulti ids []) ns nb)) (Ret (created n s (BMulti ids []) ns nb)).
Proof.
  intros k. unfold open_sets. eapply execs_weaken.
  { apply (loop_rule ex _ k (fun j => vecs Boundary j (created n s (BMulti ids []) ns nb))). intros j Hj.
    assert (K : k <> 0) by lia. apply st_L in K.
    rewrite <- (app_nil_r (open_data _)). apply open_data_ok; [unfold all_L; cbn; fold k; rewrite K; reflexivity | cbn [created vecs]; now rewrite Nat.ltb_irrefl | reflexivity | discriminate | cbn; intuition discriminate | cbn; intuition discriminate |].
    apply do_end. intros x. left. unfold aset. split_slot x; peel; cbn [created vecs]; auto.
    - injection e as ->. symmetry. now rewrite ltb_self.
    - rewrite ltb_S by congruence. reflexivity. }
  intros x. left. split_slot x; reflexivity.
Qed.

(* ---- the arrays of the Dirichlet conditions ---- *)
Definition arrs (l : conditions) (a : slot -> status) (x : slot) : status :=
  match x with BcArray i => match nth_error l i with Some (_, e, _) => st (3 * e) | None => D end | _ => a x end.
Definition matched (ids : list Z) (bcs : conditions) : bool :=
  forallb (fun c => match find_id (fst (fst c)) ids with Some _ => true | None => false end) (dirichlet bcs).
Lemma bc_loop_ok ex ids a : a Object = L -> a BcIndex = L -> a BcToData = L -> a BcSizes = L -> a BcArrays = L -> a (Ids Boundary) = st (length ids) ->
  forall bcs l q r, execs ex q (arrs (l ++ dirichlet bcs) a) r ->
  execs ex (bc_loop ids bcs (length l) ++ q) (arrs l a) (if matched ids bcs then r else Error).
Proof.
  intros HO HI HT HS HA HD. induction bcs as [|[[id e] [|]] bcs IH]; intros l q r Q.
  - cbn in *. rewrite app_nil_r in Q. exact Q.
  - cbn [bc_loop]. rewrite <- !app_assoc. cbn [app].
    apply do_use; [unfold all_L; cbn; rewrite HO; reflexivity | cbn; rewrite HI; reflexivity |].
    apply do_use; [unfold all_L; cbn; rewrite HO; reflexivity | cbn; rewrite HT; reflexivity |].
    apply uses_ok. { intros NZ x [<- | []]. unfold all_L; cbn. rewrite HO, HD, (st_L _ NZ). reflexivity. }
    unfold matched. cbn [dirichlet filter snd forallb fst]. destruct (find_id id ids) eqn:F; cbn [andb app].
    + apply do_use; [unfold all_L; cbn; rewrite HO; reflexivity | cbn; rewrite HI; reflexivity |].
      apply do_use; [unfold all_L; cbn; rewrite HO; reflexivity | cbn; rewrite HT; reflexivity |].
      apply do_use; [unfold all_L; cbn; rewrite HO; reflexivity | cbn; rewrite HS; reflexivity |].
      assert (E : nth_error l (length l) = None) by (apply nth_error_None; lia).
      apply do_alloc; [unfold all_L; cbn; rewrite HO, HA; reflexivity | cbn [arrs]; rewrite E; reflexivity |].
      specialize (IH (l ++ [(id, e, true)]) q r). rewrite app_length in IH. cbn [length] in IH. rewrite Nat.add_1_r in IH.
      rewrite <- app_assoc in IH. cbn [app] in IH. specialize (IH Q). eapply execs_strengthen; [exact IH|].
      intros x. left. unfold aset. destruct (slot_dec x (BcArray (length l))) as [-> | NE].
      * cbn [arrs]. rewrite nth_error_app2, Nat.sub_diag by lia. reflexivity.
      * destruct x; try reflexivity. cbn [arrs]. assert (i <> length l) by congruence.
        destruct (Nat.lt_ge_cases i (length l)) as [LT | GE].
        -- rewrite nth_error_app1 by lia. reflexivity.
        -- rewrite (proj2 (nth_error_None l i)) by lia. rewrite (proj2 (nth_error_None (l ++ _) i)); [reflexivity|]. rewrite app_length. cbn. lia.
    + apply (execs_error ex [Check false]). apply (axs_sound ex [Check false]).
  - cbn [bc_loop]. apply IH. exact Q.
Qed.

Lemma nth_nil {A} i : nth_error (@nil A) i = None. Proof. destruct i; reflexivity. Qed.
Lemma post_multi_ok ex n s ids bcs ns nb :
  execs ex (post_multi ids bcs) (created n s (BMulti ids []) ns nb)
    (if matched ids bcs then Ret (created n s (BMulti ids bcs) ns nb) else Error).
Proof.
  unfold post_multi. cbv zeta. destruct (Nat.eqb_spec (length bcs) 0) as [Z | NZ].
  { destruct bcs; [|discriminate]. cbn. apply execs_nil. }
  cbn [app].
  apply do_alloc; [reflexivity | reflexivity |].
  apply do_alloc; [reflexivity | unfold aset; peel; reflexivity |].
  apply do_alloc; [reflexivity | unfold aset; peel; reflexivity |].
  apply uses_ok. { intros _ x HIn. cbn in HIn. unfold all_L, aset. repeat (destruct HIn as [<- | HIn]; [cbn; rewrite (st_L _ NZ); reflexivity|]). contradiction. }
  rewrite (st_L _ NZ).
  set (loc := fun a : slot -> status => aset (aset (aset a (Local 0) L) (Local 1) L) (Local 2) L).
  change (execs ex ((if length (dirichlet bcs) =? 0 then [] else Alloc BcIndex (length (dirichlet bcs)) :: Alloc BcToData (length (dirichlet bcs)) :: Alloc BcSizes (length (dirichlet bcs)) :: AllocStruct BcArrays (length (dirichlet bcs)) false :: bc_loop ids bcs 0) ++ [Free (Local 0); Free (Local 1); Free (Local 2)])
    (loc (created n s (BMulti ids []) ns nb)) (if matched ids bcs then Ret (created n s (BMulti ids bcs) ns nb) else Error)).
  assert (TAIL : execs ex [Free (Local 0); Free (Local 1); Free (Local 2)] (loc (created n s (BMulti ids bcs) ns nb)) (Ret (created n s (BMulti ids bcs) ns nb))).
  { unfold loc. apply do_free; [reflexivity | unfold aset; peel; auto |]. apply do_free; [reflexivity | unfold aset; peel; auto |].
    apply do_free; [reflexivity | unfold aset; peel; auto |].
    apply do_end. intros x. unfold aset. peel; auto; right; split; try discriminate; subst; reflexivity. }
  destruct (Nat.eqb_spec (length (dirichlet bcs)) 0) as [KZ | KN].
  { assert (E : dirichlet bcs = []) by (destruct (dirichlet bcs); [reflexivity | discriminate]).
    unfold matched. rewrite E. cbn [forallb app]. eapply execs_strengthen; [exact TAIL|].
    intros x. left. unfold loc, aset. peel; auto. split_slot x; cbn [created]; unfold arr; rewrite ?E; reflexivity. }
  cbn [app].
  apply do_alloc; [reflexivity | reflexivity |].
  apply do_alloc; [reflexivity | unfold aset, loc; peel; reflexivity |].
  apply do_alloc; [reflexivity | unfold aset, loc; peel; reflexivity |].
  eapply execs_cons.
  { apply struct_ok; [reflexivity | unfold aset; peel; reflexivity |]. intros y Hy. apply inside_arrays in Hy as [i ->]. unfold loc, aset. peel. cbn [created]. unfold arr. cbn [dirichlet filter]. rewrite nth_nil. reflexivity. }
  rewrite (st_L _ KN).
  eapply execs_strengthen.
  { apply (bc_loop_ok ex ids (loc (created n s (BMulti ids bcs) ns nb))) with (l := []) (r := Ret (created n s (BMulti ids bcs) ns nb)).
    1-5: cbn; rewrite ?(st_L _ KN); reflexivity. 1: reflexivity.
    eapply execs_strengthen; [exact TAIL|]. intros x. left. unfold loc, aset. split_slot x; reflexivity. }
  intros x. unfold loc, aset. destruct (length (dirichlet bcs)) as [|m] eqn:KK; [lia|].
  split_slot x; cbn [arrs]; peel; cbn [inside in_dec created homes]; rewrite ?KK; cbn; auto; try (rewrite nth_nil; right; split; [discriminate | reflexivity]).
Qed.

Lemma find_id_lt id ids j : find_id id ids = Some j -> j < length ids.
Proof.
  revert j. induction ids as [|z ids IH]; intros j; cbn; [discriminate|]. destruct (Z.eqb id z); [intros [= <-]; lia|].
  destruct (find_id id ids); cbn; [|discriminate]. intros [= <-]. specialize (IH _ eq_refl). lia.
Qed.
Lemma apply_bcs_ok ex n s ids bcs ns nb : forall ds l, dirichlet bcs = l ++ ds ->
  execs ex (apply_bcs ids ds (length l)) (created n s (BMulti ids bcs) ns nb) (Ret (created n s (BMulti ids bcs) ns nb)).
Proof.
  induction ds as [|[[id e] w] ds IH]; intros l E; cbn [apply_bcs]; [apply execs_nil|].
  assert (KN : length (dirichlet bcs) <> 0) by (rewrite E, app_length; cbn; lia). apply st_L in KN.
  cbn [app]. do 3 (apply do_use; [reflexivity | cbn; rewrite KN; reflexivity |]).
  assert (T : execs ex (apply_bcs ids ds (S (length l))) (created n s (BMulti ids bcs) ns nb) (Ret (created n s (BMulti ids bcs) ns nb))).
  { specialize (IH (l ++ [(id, e, w)])). rewrite app_length in IH. cbn [length] in IH. rewrite Nat.add_1_r in IH. apply IH. rewrite E, <- app_assoc. reflexivity. }
  destruct (Nat.eqb_spec e 0) as [-> | NE]; [exact T|].
  destruct (find_id id ids) as [j|] eqn:F; cbn [app]; [|exact T]. apply find_id_lt in F.
  apply do_use; [unfold all_L; cbn; rewrite (st_L (length ids)) by lia; reflexivity | cbn [created]; rewrite (ltb_true _ _ F); reflexivity |].
  apply do_use; [unfold all_L; cbn; rewrite KN; reflexivity | cbn [created]; unfold arr |exact T].
  rewrite E, nth_error_app2, Nat.sub_diag by lia. cbn [nth_error]. rewrite st_L by lia. reflexivity.
Qed.

Definition arrs_from (j : nat) (bcs : conditions) (a : slot -> status) (x : slot) : status :=
  match x with BcArray i => if j <=? i then arr bcs i else D | _ => a x end.
Lemma destroy_multi_boundary_ok ex n s ids bcs ns nb :
  execs ex (destroy_boundary (BMulti ids bcs)) (created n s (BMulti ids bcs) ns nb) (Ret (created n s BUnset ns nb)).
Proof.
  unfold destroy_boundary, destroy_sets. cbv zeta. cbn [boundary_ndata Nat.eqb app]. set (k := length ids).
  eapply execs_strengthen with (b := vecs_from Boundary 0 k (created n s (BMulti ids bcs) ns nb)).
  2: { intros x. left. split_slot x; reflexivity. }
  rewrite <- app_assoc. eapply execs_app.
  { apply (loop_rule ex _ k (fun j => vecs_from Boundary j k (created n s (BMulti ids bcs) ns nb))). intros j Hj.
    assert (K : k <> 0) by lia. apply st_L in K.
    apply do_free; [unfold all_L; cbn; fold k; rewrite K; reflexivity | right; cbn [vecs_from]; rewrite Nat.leb_refl, (ltb_true _ _ Hj); reflexivity |].
    apply do_end. intros x. unfold aset. split_slot x; peel; cbn [created vecs_from]; auto.
    - injection e as ->. right. rewrite leb_self. split; [discriminate | reflexivity].
    - left. rewrite leb_S by congruence. reflexivity. }
  cbn [app].
  apply do_free; [reflexivity | cbn; fold k; destruct k; auto |]. apply do_free; [reflexivity | unfold aset; cbn; fold k; destruct k; auto |].
  set (a := aset _ (Ids Boundary) N).
  assert (A : forall x, a x = match x with Sets Boundary | Ids Boundary => N | SetVec Boundary _ => D | _ => created n s (BMulti ids bcs) ns nb x end).
  { intros x. unfold a, aset. split_slot x; peel; cbn [created vecs_from]; fold k; rewrite ?ltb_leb; reflexivity. }
  clearbody a. destruct (Nat.eqb_spec (length (dirichlet bcs)) 0) as [KZ | KN].
  { assert (E : dirichlet bcs = []) by (destruct (dirichlet bcs); [reflexivity | discriminate]).
    apply do_end. intros x. left. rewrite A. split_slot x; cbn [created]; unfold arr; rewrite ?E, ?nth_nil; reflexivity. }
  pose proof (st_L _ KN) as KL. cbn [app].
  apply do_free; [unfold all_L; cbn; rewrite A; reflexivity | right; rewrite A; exact KL |].
  apply do_free; [unfold all_L, aset; cbn; rewrite A; reflexivity | right; unfold aset; peel; rewrite A; exact KL |].
  apply do_free; [unfold all_L, aset; cbn; rewrite A; reflexivity | right; unfold aset; peel; rewrite A; exact KL |].
  set (a' := aset _ BcSizes N).
  assert (A' : forall x, a' x = match x with BcIndex | BcToData | BcSizes => N | _ => a x end).
  { intros x. unfold a', aset. split_slot x; peel; reflexivity. }
  clearbody a'.
  eapply execs_strengthen with (b := arrs_from 0 bcs a').
  2: { intros x. left. destruct x; try reflexivity. cbn. rewrite A', A. reflexivity. }
  eapply execs_app.
  { apply (loop_rule ex _ (length (dirichlet bcs)) (fun j => arrs_from j bcs a')). intros j Hj.
    apply do_free.
    - unfold all_L; cbn. rewrite !A', !A. cbn [created]. rewrite KL. reflexivity.
    - cbn [arrs_from]. rewrite Nat.leb_refl. unfold arr. destruct (nth_error (dirichlet bcs) j) as [[[? e] ?]|] eqn:E.
      + destruct (3 * e); cbn; auto.
      + apply nth_error_None in E. lia.
    - apply do_end. intros x. unfold aset. destruct x; peel; cbn [arrs_from]; auto.
      + injection e as ->. right. rewrite leb_self. split; [discriminate | reflexivity].
      + left. rewrite leb_S by congruence. reflexivity. }
  apply do_free; [unfold all_L; cbn; rewrite A', A; reflexivity | right; cbn; rewrite A', A; exact KL |].
  apply do_end. intros x. unfold aset. left. split_slot x; peel; cbn [arrs_from]; rewrite ?A', ?A; try reflexivity.
  destruct (Nat.leb_spec (length (dirichlet bcs)) i) as [LE | LT]; [|reflexivity].
  unfold arr. rewrite (proj2 (nth_error_None _ _) LE). reflexivity.
Qed.

(* ---- the whole life ---- *)
(* the one array that may be lost: the map of a raster that is read from a file *)
Definition lost (i : input) (x : slot) : bool := match src i, x with SRaster _ true, Raster Map => true | _, _ => false end.
Definition files_found (i : input) : bool := match bc i with BMulti ids bcs => matched ids bcs | _ => true end.
Definition gone (ns nb : nat) (x : slot) : status := match x with Object => N | _ => created 0 SUnset BUnset ns nb x end.
Lemma create_ok i : execs (lost i) (RDyCreateForcing i) (fun _ => J)
  (if files_found i then Ret (created (owned i) (src i) (bc i) (names_s (src i)) (names_b (bc i))) else Error).
Proof.
  unfold RDyCreateForcing. eapply execs_cons.
  { eapply execs_weaken with (c := created (owned i) SUnset BUnset 0 0); [apply struct_ok; reflexivity|].
    intros x. unfold aset. destruct (slot_dec x Object) as [-> | NE]; [left; reflexivity|].
    split_slot x; try congruence; unfold inside; cbn [homes]; destruct (in_dec slot_dec _ _) as [I | NI]; cbn in *; auto; try (exfalso; tauto); try (right; split; [discriminate | reflexivity]). }
  eapply execs_app with (b := created (owned i) (src i) BUnset (names_s (src i)) 0).
  { destruct (src i) eqn:S; try (apply create_simple; unfold lost; rewrite ?S; auto; fail).
    - apply create_simple. unfold lost. rewrite S. destruct read; auto.
    - cbn [create_source names_s]. eapply execs_app; [apply parse_source_ok | apply open_source_ok]. }
  unfold files_found. destruct (bc i) as [ | e | e c | ids bcs]; try (apply create_boundary_ok; exact I).
  cbn [create_boundary names_b]. eapply execs_app; [apply parse_boundary_ok|]. eapply execs_app; [apply open_boundary_ok|]. apply post_multi_ok.
Qed.
Lemma apply_ok i applied ns nb : let a := created (owned i) (src i) (bc i) ns nb in
  execs (lost i) (flat_map (RDyApplyForcing i) applied) a (Ret a).
Proof.
  intros a. induction applied as [|f l IH]; cbn [flat_map]; [apply execs_nil|]. eapply execs_app; [|exact IH].
  unfold RDyApplyForcing. apply execs_app with (b := a).
  - unfold a. destruct (src i) eqn:S; try (apply apply_source_ok; exact I). apply apply_multi_ok.
  - unfold a. destruct (bc i) as [ | e | e c | ids bcs]; try (apply apply_boundary_ok; exact I). cbn [apply_boundary].
    apply (apply_bcs_ok _ _ _ ids bcs ns nb (dirichlet bcs) []). reflexivity.
Qed.
Lemma destroy_ok i ns nb : execs (lost i) (RDyDestroyForcing i) (created (owned i) (src i) (bc i) ns nb) (Ret (gone ns nb)).
Proof.
  unfold RDyDestroyForcing. eapply execs_app with (b := created (owned i) SUnset (bc i) ns nb).
  { destruct (src i) eqn:S; try (apply destroy_source_ok; exact I). apply destroy_multi_ok. }
  eapply execs_app with (b := created (owned i) SUnset BUnset ns nb).
  { destruct (bc i) as [ | e | e c | ids bcs]; try (apply destroy_boundary_ok; exact I). apply destroy_multi_boundary_ok. }
  apply do_free; [reflexivity | right; reflexivity |]. apply do_end. intros x. left. unfold aset, gone. split_slot x; reflexivity.
Qed.
Lemma start_inv ex : inv ex (fun _ => J) start.
Proof. repeat split; cbn; try contradiction; constructor. Qed.
Lemma lifetime_ok i applied :
  if files_found i then exists h, run (lifetime i applied) start = Ret h /\ inv (lost i) (gone (names_s (src i)) (names_b (bc i))) h
  else run (lifetime i applied) start = Error.
Proof.
  pose proof (create_ok i) as C. unfold lifetime. destruct (files_found i).
  - assert (E : execs (lost i) (RDyCreateForcing i ++ flat_map (RDyApplyForcing i) applied ++ RDyDestroyForcing i) (fun _ => J) (Ret (gone (names_s (src i)) (names_b (bc i))))).
    { eapply execs_app; [exact C|]. eapply execs_app; [apply apply_ok | apply destroy_ok]. }
    apply E. apply start_inv.
  - apply (execs_error _ _ _ _ C). apply start_inv.
Qed.
