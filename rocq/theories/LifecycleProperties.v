(** C49, C51: shutdown handlers, and the CEED context. *)
From Coq Require Import String.
From Verif Require Import Base LifecycleModel.
Local Notation length := List.length.
Local Open Scope nat_scope.

(** ** Specification *)
(* Handlers registered by a sequence of calls, in order: those the program registers; that of the diagnostics with the
   first initialisation; that of CEED with the first resource. *)
Fixpoint registered (initialised ceed_used : bool) (actions : list action) : list handler :=
  match actions with
  | [] => []
  | Init :: t => (if initialised then [] else [DestroyCourantNumberDiagnostics]) ++ registered true ceed_used t
  | OnFinalize n :: t => User n :: registered initialised ceed_used t
  | SelectCeed None :: t | SelectCeed (Some EmptyString) :: t => registered initialised ceed_used t
  | SelectCeed (Some _) :: t => (if ceed_used then [] else [ClearCeedResource]) ++ registered initialised true t
  end.
(* resources fit into the buffers of the code *)
Definition short_resources (actions : list action) : Prop := forall r, In (SelectCeed (Some r)) actions -> (Z.of_nat (String.length r) < 4096)%Z.
(* the last resource selected, None if CEED is to be off *)
Definition selected (actions : list action) : option string :=
  fold_left (fun s a => match a with SelectCeed None | SelectCeed (Some EmptyString) => None | SelectCeed (Some r) => Some r | _ => s end) actions None.
(* contexts made and not destroyed *)
Definition alive (l : lib) (c : nat) : Prop := c < length (l_created l) /\ ~ In c (l_destroyed l).

(** ** Lemmas *)
Definition ctx_ok (l : lib) : Prop :=
  match l_context l with
  | Some c => S c = length (l_created l) /\ nth_error (l_created l) c = Some (l_resource l) /\ l_destroyed l = seq 0 c /\ l_resource l <> EmptyString
  | None => l_destroyed l = seq 0 (length (l_created l))
  end.
Definition funcs_ok (l : lib) (hs : list handler) : Prop :=
  l_num l = length hs /\ match l_funcs l with None => hs = [] | Some cells => hs <> [] /\ exists rest, cells = map Some hs ++ rest end.
Definition occurs (h : handler) (hs : list handler) (b : bool) : Prop := if b then exists a c, hs = a ++ h :: c /\ ~ In h a /\ ~ In h c else ~ In h hs.
Record inv (l : lib) (hs : list handler) (ini used : bool) : Prop := Inv {
  i_funcs : funcs_ok l hs; i_ctx : ctx_ok l; i_diag : l_diag_init l = ini; i_alive : l_diag_alive l = ini; i_first : l_first_time l = negb used;
  i_unused : used = false -> l_context l = None; i_called : l_called l = []; i_init : l_initialized l = true -> ini = true; i_ini : l_initialized l = false -> ini = false;
  i_once : occurs DestroyCourantNumberDiagnostics hs ini; i_clear : used = true -> In ClearCeedResource hs }.
Lemma upd_end {A} (a : list A) y r x : upd (a ++ y :: r) (length a) x = Some (a ++ x :: r).
Proof. induction a as [|b a IH]; [reflexivity|]. cbn [app length upd]. rewrite IH. reflexivity. Qed.
Lemma register l hs h : funcs_ok l hs -> exists cells, RDyOnFinalize l h = Some (Lib (l_initialized l) (Some cells) (S (l_num l)) (l_diag_init l) (l_diag_alive l) (l_first_time l) (l_resource l) (l_context l) (l_created l) (l_destroyed l) (l_called l)) /\
  exists rest, cells = map Some (hs ++ [h]) ++ rest.
Proof.
  intros (N & F). unfold RDyOnFinalize.
  assert (G : exists y r, match l_funcs l with None => repeat None 32 | Some cells => if Nat.eqb (l_num l) (length cells) then cells ++ repeat None (2 * length cells - length cells) else cells end = map Some hs ++ y :: r).
  { destruct (l_funcs l) as [cells|].
    - destruct F as (Ne & rest & ->). destruct (Nat.eqb_spec (l_num l) (length (map Some hs ++ rest))) as [E|E]; rewrite app_length, map_length, N in E.
      + assert (length rest = 0) by lia. destruct rest; [|discriminate]. rewrite app_nil_r, map_length. assert (0 < length hs) by (destruct hs; [contradiction|cbn; lia]).
        destruct (2 * length hs - length hs) as [|m] eqn:Em; [lia|]. exists None, (repeat None m). reflexivity.
      + destruct rest as [|y r]; [cbn in E; lia|]. exists y, r. reflexivity.
    - subst hs. exists None, (repeat None 31). reflexivity. }
  destruct G as (y & r & ->). assert (U := upd_end (map Some hs) y r (Some h)). rewrite map_length, <- N in U. rewrite U. cbn [obind]. eexists. split; [reflexivity|].
  exists r. rewrite map_app, <- app_assoc. reflexivity.
Qed.
Lemma app_one_ne {A} (a : list A) x : a ++ [x] <> []. Proof. destruct a; discriminate. Qed.
Lemma occurs_more h hs h' b : h <> h' -> occurs h hs b -> occurs h (hs ++ [h']) b.
Proof.
  intros N. destruct b; cbn; [intros (a & c & -> & Na & Nc); exists a, (c ++ [h']); rewrite <- app_assoc; cbn; split; [reflexivity|]; split; [exact Na|]|intros H]; intros X; apply in_app_or in X; destruct X as [X|[X|[]]]; auto.
Qed.
Lemma act_inv l hs ini used a : inv l hs ini used -> (forall r, a = SelectCeed (Some r) -> (Z.of_nat (String.length r) < 4096)%Z) ->
  exists l' hs' ini' used', act l a = Some l' /\ inv l' (hs ++ hs') ini' used' /\ (forall t, registered ini used (a :: t) = hs' ++ registered ini' used' t) /\
    l_context l' = match a with SelectCeed None | SelectCeed (Some EmptyString) => None | SelectCeed (Some r) => if (match l_context l with Some _ => String.eqb r (l_resource l) | None => false end) then l_context l else Some (length (l_created l)) | _ => l_context l end /\
    (match a with SelectCeed (Some (String _ _ as r)) => l_resource l' = r | _ => l_resource l' = l_resource l end).
Proof.
  intros [If Ic Id Ia Ifi Iu Ica Ii Ini Io Icl] Hr. destruct a as [|n|r]; cbn [act].
  - unfold RDyInit. destruct (l_initialized l) eqn:E.
    + exists l, [], ini, used. specialize (Ii eq_refl). subst ini. rewrite app_nil_r. split; [reflexivity|]. split; [constructor; auto; rewrite E; auto|]. split; [intros t; cbn [registered]; rewrite Ii; reflexivity|]. split; reflexivity.
    + specialize (Ini eq_refl). subst ini. unfold InitCourantNumberDiagnostics. rewrite Ini in *.
      destruct (register (Lib false (l_funcs l) (l_num l) false true (l_first_time l) (l_resource l) (l_context l) (l_created l) (l_destroyed l) (l_called l)) hs DestroyCourantNumberDiagnostics If) as (cells & Er & rest & Ec).
      rewrite E. rewrite Er. cbn [obind l_initialized l_funcs l_num l_diag_init l_diag_alive l_first_time l_resource l_context l_created l_destroyed l_called].
      eexists. exists [DestroyCourantNumberDiagnostics], true, used. split; [reflexivity|]. split.
      * constructor; cbn [l_initialized l_funcs l_num l_diag_init l_diag_alive l_first_time l_resource l_context l_created l_destroyed l_called]; auto; try discriminate.
        -- destruct If as (N & _). split; [cbn; rewrite app_length, N; cbn; lia|]. cbn. split; [apply app_one_ne|]. exists rest. exact Ec.
        -- exists hs, []. split; [reflexivity|]. split; [exact Io|intros []].
        -- intros U. apply in_or_app. left. auto.
      * split; [reflexivity|]. split; reflexivity.
  - destruct (register l hs (User n) If) as (cells & Er & rest & Ec). rewrite Er. eexists. exists [User n], ini, used. split; [reflexivity|]. split.
    + constructor; cbn [l_initialized l_funcs l_num l_diag_init l_diag_alive l_first_time l_resource l_context l_created l_destroyed l_called]; auto.
      * destruct If as (N & _). split; [cbn; rewrite app_length, N; cbn; lia|]. cbn. split; [apply app_one_ne|]. exists rest. exact Ec.
      * apply occurs_more; [discriminate|exact Io].
      * intros U. apply in_or_app. left. auto.
    + split; [reflexivity|]. split; reflexivity.
  - unfold SetCeedResource. destruct (match l_context l, r with Some _, Some r0 => String.eqb r0 (l_resource l) | _, _ => false end) eqn:Sa.
    + destruct (l_context l) as [c|] eqn:Ec; [|discriminate]. destruct r as [r|]; [|discriminate]. assert (Used : used = true) by (destruct used; [reflexivity|specialize (Iu eq_refl); discriminate]). subst used. apply String.eqb_eq in Sa. subst r.
      assert (Ne : l_resource l <> EmptyString) by (unfold ctx_ok in Ic; rewrite Ec in Ic; tauto).
      exists l, [], ini, true. rewrite app_nil_r. split; [reflexivity|]. split; [constructor; auto; rewrite ?Ec; auto|].
      rewrite String.eqb_refl. destruct (l_resource l) as [|ch s] eqn:Er; [contradiction|]. split; [reflexivity|]. split; [exact Ec|reflexivity].
    + assert (D : match l_context l with Some c => l_destroyed l ++ [c] | None => l_destroyed l end = seq 0 (length (l_created l))).
      { unfold ctx_ok in Ic. destruct (l_context l) as [c|]; [|exact Ic]. destruct Ic as (<- & _ & -> & _). symmetry. apply (seq_S c 0). }
      rewrite D. assert (Off : r = None \/ r = Some EmptyString \/ exists ch s, r = Some (String ch s)) by (destruct r as [[|ch s]|]; eauto).
      assert (Quiet : inv (Lib (l_initialized l) (l_funcs l) (l_num l) (l_diag_init l) (l_diag_alive l) (l_first_time l) (l_resource l) None (l_created l) (seq 0 (length (l_created l))) (l_called l)) (hs ++ []) ini used).
      { rewrite app_nil_r. constructor; cbn [l_initialized l_funcs l_num l_diag_init l_diag_alive l_first_time l_resource l_context l_created l_destroyed l_called]; auto. reflexivity. }
      destruct Off as [-> | [-> | (ch & s & ->)]].
      1, 2: eexists; exists [], ini, used; (split; [reflexivity|]); (split; [exact Quiet|]); split; [reflexivity|split; reflexivity].
      assert (Sh : Z.leb MAX_PATH_LEN (Z.of_nat (String.length (String ch s))) = false) by (apply Z.leb_gt; unfold MAX_PATH_LEN; exact (Hr _ eq_refl)).
      rewrite Sh. cbn [l_first_time]. rewrite Ifi. set (r := String ch s) in *. assert (Nr : r <> EmptyString) by discriminate.
      assert (Ctx : forall f n d e fi, ctx_ok (Lib (l_initialized l) f n d e fi r (Some (length (l_created l))) (l_created l ++ [r]) (seq 0 (length (l_created l))) (l_called l))).
      { intros. cbn. split; [rewrite app_length; cbn; lia|]. split; [rewrite nth_error_app2, Nat.sub_diag by lia; reflexivity|]. split; [reflexivity|exact Nr]. }
      assert (Kept : (if match l_context l with Some _ => String.eqb r (l_resource l) | None => false end then l_context l else Some (length (l_created l))) = Some (length (l_created l))) by (rewrite Sa; reflexivity).
      destruct used; cbn [negb].
      * eexists. exists [], ini, true. split; [reflexivity|]. rewrite app_nil_r. split.
        -- constructor; cbn [l_initialized l_funcs l_num l_diag_init l_diag_alive l_first_time l_resource l_context l_created l_destroyed l_called]; auto. discriminate.
        -- split; [reflexivity|]. split; [rewrite Kept; reflexivity|reflexivity].
      * match goal with |- context[RDyOnFinalize ?x _] => destruct (register x hs ClearCeedResource If) as (cells & Er & rest & Ec) end. rewrite Er. cbn [obind l_initialized l_funcs l_num l_diag_init l_diag_alive l_first_time l_resource l_context l_created l_destroyed l_called].
        eexists. exists [ClearCeedResource], ini, true. split; [reflexivity|]. split.
        -- constructor; cbn [l_initialized l_funcs l_num l_diag_init l_diag_alive l_first_time l_resource l_context l_created l_destroyed l_called]; auto; try discriminate.
           ++ destruct If as (N & _). split; [cbn; rewrite app_length, N; cbn; lia|]. cbn. split; [apply app_one_ne|]. exists rest. exact Ec.
           ++ apply occurs_more; [discriminate|exact Io].
           ++ intros _. apply in_or_app. right. left. reflexivity.
        -- split; [reflexivity|]. split; [rewrite Kept; reflexivity|reflexivity].
Qed.
Definition active (l : lib) : option string := match l_context l with Some _ => Some (l_resource l) | None => None end.
Definition step (s : option string) (a : action) : option string := match a with SelectCeed None | SelectCeed (Some EmptyString) => None | SelectCeed (Some r) => Some r | _ => s end.
Lemma run_inv actions : forall l hs ini used, inv l hs ini used -> short_resources actions ->
  exists l' ini' used', ofold act actions l = Some l' /\ inv l' (hs ++ registered ini used actions) ini' used' /\ active l' = fold_left step actions (active l).
Proof.
  induction actions as [|a t IH]; intros l hs ini used I Sh.
  - exists l, ini, used. cbn. rewrite app_nil_r. auto.
  - destruct (act_inv l hs ini used a I) as (l1 & hs1 & ini1 & used1 & E1 & I1 & R1 & C1 & D1); [intros r ->; apply Sh; left; reflexivity|].
    destruct (IH l1 (hs ++ hs1) ini1 used1 I1) as (l2 & ini2 & used2 & E2 & I2 & A2); [intros r Hr; apply Sh; right; exact Hr|].
    exists l2, ini2, used2. cbn [ofold]. rewrite E1. cbn [obind]. split; [exact E2|]. rewrite R1, app_assoc. split; [exact I2|]. rewrite A2. cbn [fold_left]. f_equal.
    unfold active. rewrite C1. destruct a as [|n|[[|ch s]|]]; cbn [step]; try rewrite D1; try reflexivity.
    destruct (l_context l); [destruct (String.eqb _ _)|]; reflexivity.
Qed.
Lemma fresh_inv : inv fresh [] false false.
Proof. constructor; try reflexivity; try discriminate; auto; [split; reflexivity|intros []]. Qed.
Lemma call_down_spec hs : forall rest l, ctx_ok l -> (exists b, occurs DestroyCourantNumberDiagnostics hs b /\ (b = true -> l_diag_alive l = true)) ->
  exists l', call_down (length hs) (map Some hs ++ rest) l = Some l' /\ ctx_ok l' /\ l_called l' = l_called l ++ rev hs /\ l_created l' = l_created l /\
    (In DestroyCourantNumberDiagnostics hs -> l_diag_alive l' = false) /\ (l_diag_alive l = false -> l_diag_alive l' = false) /\ (In ClearCeedResource hs -> l_context l' = None) /\ (l_context l = None -> l_context l' = None).
Proof.
  induction hs as [|h hs IH] using rev_ind; intros rest l C (b & O & A).
  - exists l. cbn. rewrite app_nil_r. repeat split; auto; intros [].
  - rewrite app_length, Nat.add_1_r, map_app, <- app_assoc. cbn [call_down map app]. rewrite nth_error_app2 by (rewrite map_length; lia). rewrite map_length, Nat.sub_diag. cbn [nth_error obind].
    assert (G : exists l1, call_handler l h = Some l1 /\ ctx_ok l1 /\ l_called l1 = l_called l ++ [h] /\ l_created l1 = l_created l /\ (h = DestroyCourantNumberDiagnostics -> l_diag_alive l1 = false) /\
      (h <> DestroyCourantNumberDiagnostics -> l_diag_alive l1 = l_diag_alive l) /\ (l_diag_alive l = false -> l_diag_alive l1 = false) /\ (h = ClearCeedResource -> l_context l1 = None) /\ (l_context l = None -> l_context l1 = None)).
    { destruct h as [| |n].
      - assert (Al : l_diag_alive l = true). { apply A. destruct b; [reflexivity|]. exfalso. apply O. apply in_or_app. right. left. reflexivity. }
        unfold call_handler. rewrite Al. cbn [obind]. eexists. split; [reflexivity|]. repeat split; auto; try discriminate; intros X; contradiction.
      - unfold call_handler, SetCeedResource. unfold ctx_ok in C. destruct (l_context l) as [c|] eqn:Ec; cbn [obind]; eexists; (split; [reflexivity|]); repeat split; auto; try discriminate; try (intros X; contradiction).
        unfold ctx_ok; cbn. destruct C as (<- & _ & -> & _). symmetry. apply (seq_S c 0).
      - cbn. eexists. split; [reflexivity|]. repeat split; auto; try discriminate. }
    destruct G as (l1 & E1 & C1 & L1 & Cr1 & D1 & Dn1 & Df1 & X1 & Xn1). rewrite E1. cbn [obind].
    assert (O1 : exists b1, occurs DestroyCourantNumberDiagnostics hs b1 /\ (b1 = true -> l_diag_alive l1 = true)).
    { destruct h as [| |n]; [exists false; split; [|discriminate]; destruct b; cbn in O|exists b|exists b].
      - destruct O as (a & c & E & Na & Nc). destruct c as [|x c] using rev_ind; [apply app_inj_tail in E; destruct E as (-> & _); exact Na|].
        exfalso. rewrite app_comm_cons, app_assoc in E. apply app_inj_tail in E. destruct E as (_ & <-). apply Nc. apply in_or_app. right. left. reflexivity.
      - intros X. apply O. apply in_or_app. left. exact X.
      - rewrite Dn1 by discriminate. split; [|exact A]. destruct b; cbn in *.
        + destruct O as (a & c & E & Na & Nc). destruct c as [|x c _] using rev_ind; [apply app_inj_tail in E; destruct E; discriminate|].
          rewrite app_comm_cons, app_assoc in E. apply app_inj_tail in E. destruct E as (-> & _). exists a, c. repeat split; auto. intros X. apply Nc. apply in_or_app. left. exact X.
        + intros X. apply O. apply in_or_app. left. exact X.
      - rewrite Dn1 by discriminate. split; [|exact A]. destruct b; cbn in *.
        + destruct O as (a & c & E & Na & Nc). destruct c as [|x c _] using rev_ind; [apply app_inj_tail in E; destruct E; discriminate|].
          rewrite app_comm_cons, app_assoc in E. apply app_inj_tail in E. destruct E as (-> & _). exists a, c. repeat split; auto. intros X. apply Nc. apply in_or_app. left. exact X.
        + intros X. apply O. apply in_or_app. left. exact X. }
    destruct (IH (Some h :: rest) l1 C1 O1) as (l2 & E2 & C2 & L2 & Cr2 & D2 & Df2 & X2 & Xn2). exists l2. split; [exact E2|]. split; [exact C2|].
    split; [rewrite L2, L1, rev_app_distr, <- app_assoc; reflexivity|]. split; [congruence|].
    split; [intros X; apply in_app_or in X; destruct X as [X|[X|[]]]; auto|]. split; [auto|]. split; [|auto].
    intros X; apply in_app_or in X; destruct X as [X|[X|[]]]; auto.
Qed.

(** ** Theorems *)
(* C49: whatever is registered, in whatever number and whenever, between initialisation and shutdown, is called at shutdown
   exactly once, the last registered first; then nothing the library made for itself is left. *)
Theorem C49_reverse_order : forall actions, short_resources actions ->
  exists l l', ofold act actions fresh = Some l /\ RDyFinalize l = Some l' /\
    l_called l = [] /\ l_called l' = rev (registered false false actions) /\
    l_initialized l' = false /\ l_diag_alive l' = false /\ CeedEnabled l' = false /\ l_destroyed l' = seq 0 (length (l_created l')) /\ l_created l' = l_created l.
Proof.
  intros actions Sh. destruct (run_inv actions fresh [] false false fresh_inv Sh) as (l & ini & used & E & [If Ic Id Ia Ifi Iu Ica Ii Ini Io Icl] & _). cbn [app] in *. set (hs := registered false false actions) in *.
  destruct If as (N & F). unfold RDyFinalize. exists l. destruct (l_funcs l) as [cells|].
  - destruct F as (Ne & rest & ->). destruct (call_down_spec hs rest l Ic) as (l1 & E1 & C1 & L1 & Cr1 & D1 & Df1 & X1 & Xn1); [exists ini; split; [exact Io|congruence]|].
    rewrite N, E1. cbn [obind]. eexists. split; [exact E|]. split; [reflexivity|]. split; [exact Ica|]. cbn [l_called l_initialized l_diag_alive l_destroyed l_created]. split; [rewrite L1, Ica; reflexivity|].
    split; [reflexivity|]. assert (Off : l_context l1 = None) by (destruct used; auto).
    split; [destruct ini; [|auto]; apply D1; cbn in Io; destruct Io as (a & c & -> & _); apply in_or_app; right; left; reflexivity|].
    unfold CeedEnabled, ctx_ok in *. cbn [l_context]. rewrite Off in *. split; [reflexivity|]. split; [exact C1|exact Cr1].
  - cbn [obind]. eexists. split; [exact E|]. split; [reflexivity|]. split; [exact Ica|]. cbn. rewrite F. split; [rewrite Ica; reflexivity|]. split; [reflexivity|]. 
    split; [destruct ini; [|exact Ia]; cbn in Io; destruct Io as (a & c & X & _); rewrite F in X; destruct a; discriminate|].
    assert (Off : l_context l = None) by (destruct used; [rewrite F in Icl; destruct (Icl eq_refl)|auto]). unfold CeedEnabled, ctx_ok in *. cbn. rewrite Off in *. auto.
Qed.
Print Assumptions C49_reverse_order.
(* the handlers a program registers are among those called, in its own order reversed *)
Definition own (hs : list handler) : list nat := flat_map (fun h => match h with User n => [n] | _ => [] end) hs.
Definition asked (actions : list action) : list nat := flat_map (fun a => match a with OnFinalize n => [n] | _ => [] end) actions.
Lemma own_registered actions : forall i u, own (registered i u actions) = asked actions.
Proof.
  unfold own, asked in *. induction actions as [|a t IH]; intros i u; [reflexivity|]. destruct a as [|n|[[|ch s]|]]; cbn [registered flat_map].
  - rewrite flat_map_app, IH. destruct i; reflexivity.
  - cbn. f_equal. apply IH.
  - apply IH.
  - rewrite flat_map_app, IH. destruct u; reflexivity.
  - apply IH.
Qed.
Lemma own_rev hs : own (rev hs) = rev (own hs).
Proof. unfold own. induction hs as [|h t IH]; [reflexivity|]. cbn [rev flat_map]. rewrite flat_map_app, IH. cbn [flat_map]. destruct h; cbn; rewrite ?app_nil_r; reflexivity. Qed.
Theorem C49_program_handlers : forall actions, short_resources actions ->
  exists l l', ofold act actions fresh = Some l /\ RDyFinalize l = Some l' /\ own (l_called l') = rev (asked actions).
Proof. intros actions Sh. destruct (C49_reverse_order actions Sh) as (l & l' & E & F & _ & C & _). exists l, l'. split; [exact E|]. split; [exact F|]. rewrite C, own_rev, own_registered. reflexivity. Qed.
Print Assumptions C49_program_handlers.
(* forty handlers, more than the array first holds, and CEED in between *)
Example C49_inhabited : let actions := Init :: map OnFinalize (seq 0 20) ++ [SelectCeed (Some "/cpu/self"%string); Init] ++ map OnFinalize (seq 20 20) in
  short_resources actions /\ (let* l := ofold act actions fresh in let* l := RDyFinalize l in Some (l_called l)) =
    Some (map User (rev (seq 20 20)) ++ [ClearCeedResource] ++ map User (rev (seq 0 20)) ++ [DestroyCourantNumberDiagnostics]).
Proof. cbn zeta. split; [|reflexivity]. intros r H. cbn in H. repeat (destruct H as [H|H]; [try discriminate; injection H as <-; reflexivity|]). destruct H. Qed.

(* C49 beyond one cycle is not met.  Initialised again after a shutdown, the library has no MPI type and operation for its
   diagnostics, and a handler registered then makes the next shutdown call a null pointer; after 32 or more handlers,
   registering one writes outside the array. *)
Theorem C49_second_cycle_refuted :
  (exists l, (let* l := RDyInit fresh in let* l := RDyFinalize l in RDyInit l) = Some l /\ l_initialized l = true /\ l_diag_alive l = false) /\
  (exists l, (let* l := RDyInit fresh in let* l := RDyFinalize l in let* l := RDyInit l in RDyOnFinalize l (User 0)) = Some l /\ RDyFinalize l = None) /\
  (exists l, (let* l := ofold act (Init :: map OnFinalize (seq 0 31)) fresh in let* l := RDyFinalize l in RDyInit l) = Some l /\ RDyOnFinalize l (User 0) = None).
Proof.
  split; [|split]; match goal with |- exists l, ?e = Some l /\ _ => let v := eval vm_compute in e in match v with Some ?w => exists w end end; (split; [vm_compute; reflexivity|]); vm_compute; try split; reflexivity.
Qed.
Print Assumptions C49_second_cycle_refuted.

(* C51: after any sequence of calls CEED is on just when the last resource selected is not empty; the only context alive
   is then one of that resource, and none is alive otherwise; no context is destroyed twice. *)
Theorem C51_active_resource : forall actions, short_resources actions ->
  exists l, ofold act actions fresh = Some l /\ NoDup (l_destroyed l) /\ (forall c, In c (l_destroyed l) -> c < length (l_created l)) /\
    match selected actions with
    | None => CeedEnabled l = false /\ forall c, ~ alive l c
    | Some r => CeedEnabled l = true /\ exists c, nth_error (l_created l) c = Some r /\ l_context l = Some c /\ forall c', alive l c' <-> c' = c
    end.
Proof.
  intros actions Sh. destruct (run_inv actions fresh [] false false fresh_inv Sh) as (l & ini & used & E & I & A). exists l. split; [exact E|]. change (selected actions) with (fold_left step actions (active fresh)). rewrite <- A.
  assert (C := i_ctx _ _ _ _ I). unfold ctx_ok, active, CeedEnabled, alive in *. destruct (l_context l) as [c|].
  - destruct C as (<- & Nt & -> & _). split; [apply seq_NoDup|]. split; [intros x X; apply in_seq in X; lia|]. split; [reflexivity|]. exists c. split; [exact Nt|]. split; [reflexivity|]. intros c'. rewrite in_seq. lia.
  - rewrite C. split; [apply seq_NoDup|]. split; [intros x X; apply in_seq in X; lia|]. split; [reflexivity|]. intros c'. rewrite in_seq. lia.
Qed.
Print Assumptions C51_active_resource.
(* selecting the resource in use keeps the context; another one replaces it *)
Theorem C51_reselect : forall actions l r, short_resources actions -> ofold act actions fresh = Some l -> selected actions = Some r ->
  SetCeedResource l (Some r) = Some l /\
  forall r' l', r' <> r -> r' <> EmptyString -> SetCeedResource l (Some r') = Some l' ->
    l_created l' = l_created l ++ [r'] /\ exists c, l_context l = Some c /\ l_destroyed l' = l_destroyed l ++ [c] /\ l_context l' = Some (length (l_created l)).
Proof.
  intros actions l r Sh E Sel. destruct (run_inv actions fresh [] false false fresh_inv Sh) as (l0 & ini & used & E0 & I & A). assert (l0 = l) by congruence. subst l0.
  change (fold_left step actions (active fresh)) with (selected actions) in A. rewrite Sel in A. unfold active in A. unfold SetCeedResource. destruct (l_context l) as [c|] eqn:Ec; [|discriminate]. injection A as A. split; [rewrite A, String.eqb_refl; reflexivity|].
  intros r' l' N Ne H. assert (Eq : String.eqb r' (l_resource l) = false) by (apply String.eqb_neq; congruence). rewrite Eq in H. destruct r' as [|ch s]; [contradiction|]. destruct (Z.leb _ _); [discriminate|]. cbn [l_first_time] in H.
  destruct (l_first_time l).
  - unfold RDyOnFinalize in H. cbn [l_funcs l_num] in H. destruct (upd _ _ _) in H; [|discriminate]. injection H as <-. cbn. eauto 6.
  - injection H as <-. cbn. eauto 6.
Qed.
Print Assumptions C51_reselect.
Example C51_inhabited : let actions := [Init; SelectCeed (Some "/cpu/self"%string); SelectCeed (Some "/gpu/cuda"%string); SelectCeed (Some "/gpu/cuda"%string); SelectCeed (Some ""%string); SelectCeed (Some "/cpu/self"%string)] in
  short_resources actions /\ selected actions = Some "/cpu/self"%string /\ (let* l := ofold act actions fresh in Some (l_created l, l_destroyed l)) = Some (["/cpu/self"; "/gpu/cuda"; "/cpu/self"]%string, [0; 1]).
Proof. cbn zeta. split; [|split; reflexivity]. intros r H. cbn in H. repeat (destruct H as [H|H]; [try discriminate; injection H as <-; reflexivity|]). destruct H. Qed.
(* No context survives shutdown (C49_reverse_order), but one selected after a second initialisation does. *)
Theorem C51_second_cycle_refuted : exists l, (let* l := ofold act [Init; SelectCeed (Some "/cpu/self"%string)] fresh in let* l := RDyFinalize l in
    let* l := ofold act [Init; SelectCeed (Some "/cpu/self"%string)] l in RDyFinalize l) = Some l /\ l_initialized l = false /\ CeedEnabled l = true /\ alive l 1.
Proof.
  match goal with |- exists l, ?e = Some l /\ _ => let v := eval vm_compute in e in match v with Some ?w => exists w end end. split; [vm_compute; reflexivity|]. split; [reflexivity|]. split; [reflexivity|].
  unfold alive. cbn. lia.
Qed.
Print Assumptions C51_second_cycle_refuted.
