(** Base: checked real arithmetic and small list utilities shared by all model files.

    Floating point numbers of the C code ([PetscReal], [CeedScalar]) are modelled by exact reals.
    Operations whose C result is NaN or infinite are a distinct outcome ([None]). *)
From Coq Require Export Reals Lra Psatz List ZArith Lia Bool Permutation.
Export ListNotations.
Open Scope R_scope.

(** ** Option monad *)
Definition obind {A B} (x : option A) (f : A -> option B) : option B :=
  match x with Some a => f a | None => None end.
Notation "'let*' x ':=' e 'in' k" := (obind e (fun x => k))
  (at level 200, x pattern, e at level 100, k at level 200, right associativity).

Fixpoint omap {A B} (f : A -> option B) (l : list A) : option (list B) :=
  match l with
  | [] => Some []
  | a :: t => let* b := f a in let* bs := omap f t in Some (b :: bs)
  end.

Fixpoint ofold {A S} (f : S -> A -> option S) (l : list A) (s : S) : option S :=
  match l with
  | [] => Some s
  | a :: t => let* s' := f s a in ofold f t s'
  end.

(** ** Checked arithmetic *)
(* C's [/] on doubles: a zero denominator yields Inf or NaN. *)
Definition rdiv (x y : R) : option R := if Req_EM_T y 0 then None else Some (x / y).
(* C's [sqrt], and [pow(x, 0.5)]: NaN for negative arguments. *)
Definition rsqrt (x : R) : option R := if Rlt_dec x 0 then None else Some (sqrt x).
(* Real cube root of a non-negative number, [pow(x, 1.0/3.0)]; NaN for negative arguments;
   pow(0, 1/3) = 0. *)
Definition cbrt (x : R) : R := if Req_EM_T x 0 then 0 else Rpower x (1/3).
Definition rcbrt (x : R) : option R := if Rlt_dec x 0 then None else Some (cbrt x).
(* [pow(x, y)] for a base that the code divides by: infinite at 0 and NaN below
   (used with negative exponents only). *)
Definition rpowneg (x y : R) : option R := if Rlt_dec 0 x then Some (Rpower x y) else None.

(** Boolean comparisons of C. *)
Definition Rltb (x y : R) : bool := if Rlt_dec x y then true else false.
Definition Rleb (x y : R) : bool := if Rle_dec x y then true else false.
Definition Reqb (x y : R) : bool := if Req_EM_T x y then true else false.
Notation "x <? y" := (Rltb x y) (at level 70) : R_scope.
Notation "x <=? y" := (Rleb x y) (at level 70) : R_scope.

Lemma Rltb_true x y : Rltb x y = true <-> x < y.
Proof. unfold Rltb; destruct (Rlt_dec x y); split; intros; auto; discriminate. Qed.
Lemma Rltb_false x y : Rltb x y = false <-> y <= x.
Proof. unfold Rltb; destruct (Rlt_dec x y); split; intros; auto; try discriminate; lra. Qed.
Lemma Rleb_true x y : Rleb x y = true <-> x <= y.
Proof. unfold Rleb; destruct (Rle_dec x y); split; intros; auto; discriminate. Qed.
Lemma Rleb_false x y : Rleb x y = false <-> y < x.
Proof. unfold Rleb; destruct (Rle_dec x y); split; intros; auto; try discriminate; lra. Qed.

Lemma rdiv_some x y : y <> 0 -> rdiv x y = Some (x / y).
Proof. intros H; unfold rdiv; destruct (Req_EM_T y 0); [contradiction|reflexivity]. Qed.
Lemma rdiv_none x : rdiv x 0 = None.
Proof. unfold rdiv; destruct (Req_EM_T 0 0); [reflexivity|contradiction]. Qed.
Lemma rdiv_inv x y z : rdiv x y = Some z -> y <> 0 /\ z = x / y.
Proof. unfold rdiv; destruct (Req_EM_T y 0); intros H; inversion H; auto. Qed.
Lemma rsqrt_some x : 0 <= x -> rsqrt x = Some (sqrt x).
Proof. intros H; unfold rsqrt; destruct (Rlt_dec x 0); [lra|reflexivity]. Qed.
Lemma rsqrt_none x : x < 0 -> rsqrt x = None.
Proof. intros H; unfold rsqrt; destruct (Rlt_dec x 0); [reflexivity|lra]. Qed.
Lemma rcbrt_some x : 0 <= x -> rcbrt x = Some (cbrt x).
Proof. intros H; unfold rcbrt; destruct (Rlt_dec x 0); [lra|reflexivity]. Qed.
Lemma rpowneg_some x y : 0 < x -> rpowneg x y = Some (Rpower x y).
Proof. intros H; unfold rpowneg; destruct (Rlt_dec 0 x); [reflexivity|lra]. Qed.

Lemma Rpower_third_cube x : 0 < x -> Rpower x (1/3) * Rpower x (1/3) * Rpower x (1/3) = x.
Proof.
  intros H. rewrite <- !Rpower_plus. replace (1/3 + 1/3 + 1/3) with 1 by lra.
  apply Rpower_1; exact H.
Qed.
Lemma Rpower_pos x y : 0 < Rpower x y.
Proof. unfold Rpower; apply exp_pos. Qed.
Lemma cbrt_nonneg x : 0 <= cbrt x.
Proof. unfold cbrt; destruct (Req_EM_T x 0); [lra|left; apply Rpower_pos]. Qed.
Lemma cbrt_pos x : 0 < x -> 0 < cbrt x.
Proof. intros H; unfold cbrt; destruct (Req_EM_T x 0); [lra|apply Rpower_pos]. Qed.
Lemma cbrt_cube x : 0 <= x -> cbrt x * cbrt x * cbrt x = x.
Proof.
  intros H; unfold cbrt; destruct (Req_EM_T x 0) as [e|n]; [rewrite e; ring|].
  apply Rpower_third_cube; lra.
Qed.

(** C's [fmax]/[fmin]/[PetscMax]/[PetscMin] on finite numbers are [Rmax]/[Rmin]; [fabs] is [Rabs]. *)
Lemma Rmax_cases x y : (x <= y /\ Rmax x y = y) \/ (y <= x /\ Rmax x y = x).
Proof. unfold Rmax; destruct (Rle_dec x y); [left|right]; split; auto; lra. Qed.
Lemma Rmin_cases x y : (x <= y /\ Rmin x y = x) \/ (y <= x /\ Rmin x y = y).
Proof. unfold Rmin; destruct (Rle_dec x y); [left|right]; split; auto; lra. Qed.
Lemma Rabs_cases x : (0 <= x /\ Rabs x = x) \/ (x <= 0 /\ Rabs x = - x).
Proof.
  destruct (Rle_dec 0 x) as [H|H]; [left|right]; split; try lra.
  - apply Rabs_right; lra.
  - apply Rabs_left; lra.
Qed.

(** ** Finite sums *)
Fixpoint rsum {A} (f : A -> R) (l : list A) : R :=
  match l with [] => 0 | a :: t => f a + rsum f t end.

Lemma rsum_app {A} (f : A -> R) l1 l2 : rsum f (l1 ++ l2) = rsum f l1 + rsum f l2.
Proof. induction l1 as [|a t IH]; simpl; [ring|rewrite IH; ring]. Qed.
Lemma rsum_ext {A} (f g : A -> R) l : (forall a, In a l -> f a = g a) -> rsum f l = rsum g l.
Proof.
  induction l as [|a t IH]; simpl; intros H; [reflexivity|].
  rewrite (H a (or_introl eq_refl)), IH; auto.
Qed.
Lemma rsum_plus {A} (f g : A -> R) l : rsum (fun a => f a + g a) l = rsum f l + rsum g l.
Proof. induction l as [|a t IH]; simpl; [ring|rewrite IH; ring]. Qed.
Lemma rsum_scal {A} (c : R) (f : A -> R) l : rsum (fun a => c * f a) l = c * rsum f l.
Proof. induction l as [|a t IH]; simpl; [ring|rewrite IH; ring]. Qed.
Lemma rsum_opp {A} (f : A -> R) l : rsum (fun a => - f a) l = - rsum f l.
Proof. induction l as [|a t IH]; simpl; [ring|rewrite IH; ring]. Qed.
Lemma rsum_zero {A} (f : A -> R) l : (forall a, In a l -> f a = 0) -> rsum f l = 0.
Proof.
  induction l as [|a t IH]; simpl; intros H; [reflexivity|].
  rewrite (H a (or_introl eq_refl)), IH; auto; ring.
Qed.
Lemma rsum_nonneg {A} (f : A -> R) l : (forall a, In a l -> 0 <= f a) -> 0 <= rsum f l.
Proof.
  induction l as [|a t IH]; simpl; intros H; [lra|].
  assert (0 <= f a) by (apply H; auto). assert (0 <= rsum f t) by (apply IH; auto). lra.
Qed.
Lemma rsum_le {A} (f g : A -> R) l : (forall a, In a l -> f a <= g a) -> rsum f l <= rsum g l.
Proof.
  induction l as [|a t IH]; simpl; intros H; [lra|].
  assert (f a <= g a) by (apply H; auto). assert (rsum f t <= rsum g t) by (apply IH; auto). lra.
Qed.
Lemma rsum_perm {A} (f : A -> R) l1 l2 : Permutation l1 l2 -> rsum f l1 = rsum f l2.
Proof. induction 1; simpl; try lra. Qed.
Lemma rsum_swap {A B} (f : A -> B -> R) la lb :
  rsum (fun a => rsum (f a) lb) la = rsum (fun b => rsum (fun a => f a b) la) lb.
Proof.
  induction la as [|a t IH]; simpl.
  - symmetry; apply rsum_zero; auto.
  - rewrite IH, <- rsum_plus; reflexivity.
Qed.
Lemma rsum_map {A B} (g : A -> B) (f : B -> R) l : rsum f (map g l) = rsum (fun a => f (g a)) l.
Proof. induction l as [|a t IH]; simpl; [reflexivity|rewrite IH; reflexivity]. Qed.
Lemma rsum_filter {A} (p : A -> bool) (f : A -> R) l :
  rsum f (filter p l) = rsum (fun a => if p a then f a else 0) l.
Proof. induction l as [|a t IH]; simpl; [reflexivity|]. destruct (p a); simpl; rewrite IH; ring. Qed.

(* Sum of an indicator over a duplicate-free list picks out one term. *)
Lemma rsum_pick (c : nat) (x : R) (l : list nat) :
  NoDup l -> In c l -> rsum (fun k => if Nat.eqb k c then x else 0) l = x.
Proof.
  induction l as [|a t IH]; intros Hnd Hin; [destruct Hin|].
  inversion Hnd as [|a' t' Hna Hndt E]; subst; simpl.
  destruct Hin as [->|Hin].
  - rewrite Nat.eqb_refl. rewrite rsum_zero; [ring|].
    intros k Hk. destruct (Nat.eqb_spec k c) as [->|]; [contradiction|reflexivity].
  - destruct (Nat.eqb_spec a c) as [->|]; [contradiction|].
    rewrite IH; auto; ring.
Qed.
Lemma rsum_pick_none (c : nat) (x : R) (l : list nat) :
  ~ In c l -> rsum (fun k => if Nat.eqb k c then x else 0) l = 0.
Proof.
  intros H; apply rsum_zero; intros k Hk.
  destruct (Nat.eqb_spec k c) as [->|]; [contradiction|reflexivity].
Qed.

(** ** Checked list access: [nth_error] is the read; [upd] the write (None = out of bounds). *)
Fixpoint upd {A} (l : list A) (i : nat) (x : A) : option (list A) :=
  match l, i with
  | [], _ => None
  | _ :: t, O => Some (x :: t)
  | a :: t, S j => let* t' := upd t j x in Some (a :: t')
  end.

Lemma upd_some {A} (l : list A) i x : (i < length l)%nat -> exists l', upd l i x = Some l'.
Proof.
  revert i; induction l as [|a t IH]; simpl; intros i H; [lia|].
  destruct i as [|j]; [eauto|]. destruct (IH j) as [t' E]; [lia|].
  rewrite E; simpl; eauto.
Qed.
Lemma upd_length {A} (l l' : list A) i x : upd l i x = Some l' -> length l' = length l.
Proof.
  revert i l'; induction l as [|a t IH]; simpl; intros i l' H; [discriminate|].
  destruct i as [|j]; [inversion H; reflexivity|].
  destruct (upd t j x) as [t'|] eqn:E; simpl in H; [|discriminate].
  inversion H; simpl; f_equal; eapply IH; eauto.
Qed.
Lemma upd_bound {A} (l l' : list A) i x : upd l i x = Some l' -> (i < length l)%nat.
Proof.
  revert i l'; induction l as [|a t IH]; simpl; intros i l' H; [discriminate|].
  destruct i as [|j]; [lia|].
  destruct (upd t j x) as [t'|] eqn:E; simpl in H; [|discriminate].
  apply IH in E; lia.
Qed.
Lemma upd_get {A} (l l' : list A) i x j :
  upd l i x = Some l' -> nth_error l' j = if Nat.eqb j i then Some x else nth_error l j.
Proof.
  revert i l' j; induction l as [|a t IH]; simpl; intros i l' j H; [discriminate|].
  destruct i as [|i].
  - inversion H; subst. destruct j; reflexivity.
  - destruct (upd t i x) as [t'|] eqn:E; simpl in H; [|discriminate].
    inversion H; subst. destruct j as [|j]; [reflexivity|]. simpl. apply IH; exact E.
Qed.
Lemma nth_error_ext {A} (l1 l2 : list A) : (forall i, nth_error l1 i = nth_error l2 i) -> l1 = l2.
Proof.
  revert l2; induction l1 as [|a t IH]; intros [|b t2] H; auto.
  - specialize (H O); discriminate.
  - specialize (H O); discriminate.
  - f_equal; [specialize (H O); simpl in H; inversion H; auto|].
    apply IH; intros i; apply (H (S i)).
Qed.

Lemma obind_some {A B} (x : option A) (f : A -> option B) b :
  obind x f = Some b -> exists a, x = Some a /\ f a = Some b.
Proof. destruct x; simpl; intros H; [eauto|discriminate]. Qed.
