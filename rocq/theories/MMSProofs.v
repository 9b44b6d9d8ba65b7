(** Lemmas about the manufactured-solution driver: sequences of accepted calls, the solution vector. *)
From Coq Require Import String Sorted.
From Verif Require Import Base MeshMapsModel MeshMapsProofs AMRProofs AMRProperties DataModel DataProofs DataProperties MMSModel.
Local Open Scope nat_scope.
Local Notation length := List.length.

(** ** Sequences of calls *)
Lemma valid_params st st' c : params st' = params st -> valid st c -> valid st' c.
Proof.
  intros H. unfold params in H. injection H as Hce Hse Hcl Hsa Hhe Hnc How Hre Hbo Hco. destruct c; cbn [valid]; rewrite ?Hcl, ?Hsa, ?Hhe, ?How, ?Hre, ?Hbo, ?Hco; auto.
Qed.
Lemma last_assigned_params st st' cs s x : params st' = params st -> last_assigned st' cs s x = last_assigned st cs s x.
Proof. intros P. revert x. induction cs as [|c t IH]; intros x; cbn [last_assigned]; [reflexivity|]. rewrite (assigns_params _ _ _ _ P). apply IH. Qed.
Lemma run_valid cs st : set_up st -> (forall c, In c cs -> admissible st c /\ valid st c) ->
  exists st', run st cs = Ok st' /\ set_up st' /\ params st' = params st /\ forall s, value st' s = last_assigned st cs s (value st s).
Proof.
  revert st. induction cs as [|c t IH]; intros st U A; cbn [run last_assigned].
  - exists st. auto.
  - destruct (A c (or_introl eq_refl)) as ((An & Co & Pr) & V). destruct (exec_spec st c U An Co Pr) as (Y & _). destruct (Y V) as (s1 & E1 & U1 & P1 & W1). rewrite E1.
    destruct (IH s1 U1) as (st' & E & U' & P' & W').
    { intros c' Hc. destruct (A c' (or_intror Hc)) as ((An' & Co' & Pr') & V'). destruct (pre_params _ _ _ P1 Co' Pr') as (Co2 & Pr2). split; [split; [exact An'|split; assumption]|eapply valid_params; eassumption]. }
    exists st'. split; [exact E|]. split; [exact U'|]. split; [congruence|]. intros s. rewrite W', W1. apply last_assigned_params. exact P1.
Qed.

(** ** The solution vector *)
Lemma entry_unique n c k c' k' : k < n -> k' < n -> n * c + k = n * c' + k' -> c = c' /\ k = k'.
Proof. intros H H' E. assert (c = c') by (destruct (Nat.lt_trichotomy c c') as [L|[L|L]]; [nia|exact L|nia]). subst. lia. Qed.
Definition is_owned (ndof n_local c : nat) : bool := Nat.ltb (ndof * c) n_local.
Lemma put_component_spec ndof n_local k (g : nat -> R) values : k < ndof -> forall ids l x, length x = n_local -> Nat.divide ndof n_local ->
  (forall p c, nth_error (filter (is_owned ndof n_local) ids) p = Some c -> nth_error values (l + p) = Some (g c)) ->
  exists x', put_component ndof n_local k l values ids x = Some x' /\ length x' = n_local /\
    (forall c, In c ids -> is_owned ndof n_local c = true -> nth_error x' (ndof * c + k) = Some (g c)) /\
    (forall j, (forall c, In c ids -> j <> ndof * c + k) -> nth_error x' j = nth_error x j).
Proof.
  intros Hk. induction ids as [|c t IH]; intros l x L D V; cbn [put_component].
  - exists x. split; [reflexivity|]. split; [exact L|]. split; [contradiction|reflexivity].
  - change (Nat.ltb (ndof * c) n_local) with (is_owned ndof n_local c). destruct (is_owned ndof n_local c) eqn:Eo.
    + cbn [filter] in V. rewrite Eo in V. assert (V0 := V 0 c eq_refl). rewrite Nat.add_0_r in V0. rewrite V0. cbn [obind].
      assert (Hj : ndof * c + k < n_local).
      { unfold is_owned in Eo. apply Nat.ltb_lt in Eo. destruct D as (m & ->). assert (c < m) by nia. nia. }
      destruct (upd_some x (ndof * c + k) (g c)) as (x1 & E1); [lia|]. rewrite E1. cbn [obind].
      assert (L1 := upd_length _ _ _ _ E1). assert (G1 := fun j => upd_get _ _ _ _ j E1).
      destruct (IH (S l) x1) as (x' & E & L' & W & K); [lia|exact D| |].
      { intros p c' Hp. replace (S l + p) with (l + S p) by lia. apply V. exact Hp. }
      exists x'. split; [exact E|]. split; [exact L'|]. split.
      * intros c' [<-|Hc'] Ho; [|apply W; assumption]. destruct (in_dec Nat.eq_dec c t) as [Hin|Hn]; [apply W; assumption|].
        rewrite K. { rewrite G1. rewrite Nat.eqb_refl. reflexivity. } intros c' Hc' Ej. apply Hn. replace c with c' by nia. exact Hc'.
      * intros j Hj'. rewrite K by (intros c' Hc'; apply Hj'; right; exact Hc'). rewrite G1. destruct (Nat.eqb_spec j (ndof * c + k)) as [Ej|]; [|reflexivity]. exfalso. exact (Hj' c (or_introl eq_refl) Ej).
    + cbn [filter] in V. rewrite Eo in V. destruct (IH l x L D V) as (x' & E & L' & W & K). exists x'. split; [exact E|]. split; [exact L'|]. split.
      * intros c' [<-|Hc'] Ho; [congruence|apply W; assumption].
      * intros j Hj'. apply K. intros c' Hc'. apply Hj'. right. exact Hc'.
Qed.

(* in an ascending list the cells below a bound come first *)
Lemma filter_sorted_prefix ndof s n_local : s <= ndof -> forall ids, StronglySorted lt ids ->
  exists rest, filter (is_owned s n_local) ids = (filter (is_owned ndof n_local) ids ++ rest)%list.
Proof.
  intros Hs. induction 1 as [|a t St IH Fa]; cbn [filter]; [exists []; reflexivity|]. destruct IH as (rest & E).
  destruct (is_owned ndof n_local a) eqn:Ea.
  - assert (Eb : is_owned s n_local a = true). { unfold is_owned in *. apply Nat.ltb_lt in Ea. apply Nat.ltb_lt. nia. } rewrite Eb, E. exists rest. reflexivity.
  - assert (N : filter (is_owned ndof n_local) t = []).
    { clear E. clear rest. induction t as [|b t IH]; cbn [filter]; [reflexivity|]. inversion Fa as [|? ? Hb Fa']; subst. inversion St; subst.
      assert (Eb : is_owned ndof n_local b = false). { unfold is_owned in *. apply Nat.ltb_ge in Ea. apply Nat.ltb_ge. nia. } rewrite Eb. apply IH; assumption. }
    rewrite N. eexists. reflexivity.
Qed.

Lemma omap_nth_map {A B} (f : A -> option B) l r : omap f l = Some r -> forall i a, nth_error l i = Some a -> exists b, f a = Some b /\ nth_error r i = Some b.
Proof.
  revert r. induction l as [|x t IH]; intros r E i a H; [destruct i; discriminate|]. cbn [omap] in E. destruct (f x) as [b|] eqn:Ef; [|discriminate]. cbn [obind] in E.
  destruct (omap f t) as [bs|] eqn:Et; [|discriminate]. injection E as <-. destruct i as [|i]; cbn in *; [injection H as <-; eauto|]. eapply IH; eauto.
Qed.
Lemma omap_len {A B} (f : A -> option B) l r : omap f l = Some r -> length r = length l.
Proof. revert r. induction l as [|x t IH]; intros r E; cbn [omap] in E; [injection E as <-; reflexivity|]. destruct (f x); [|discriminate]. cbn [obind] in E. destruct (omap f t); [|discriminate]. injection E as <-. cbn. rewrite (IH _ eq_refl). reflexivity. Qed.
Lemma omap_total {A B} (f : A -> option B) l : (forall a, In a l -> exists b, f a = Some b) -> exists r, omap f l = Some r.
Proof.
  induction l as [|x t IH]; intros H; cbn [omap]; [eauto|]. destruct (H x (or_introl eq_refl)) as (b & ->). cbn [obind]. destruct IH as (r & ->); [intros; apply H; right; assumption|]. cbn [obind]. eauto.
Qed.

Section Solution.
  Context (comps : list (R * R -> R)) (n_owned : nat) (centroids : list (R * R)).
  Local Notation ndof := (length comps).
  Local Notation n_local := (length comps * n_owned).
  Context (flow : 3 <= ndof).
  Lemma owned_iff c : is_owned ndof n_local c = true <-> c < n_owned.
  Proof. unfold is_owned. rewrite Nat.ltb_lt. nia. Qed.

  Lemma region_solution_spec ids x : StronglySorted lt ids -> Forall (fun c => c < length centroids) ids -> length x = n_local ->
    exists x', region_solution comps n_local centroids x ids = Some x' /\ length x' = n_local /\
      (forall c k f p, In c ids -> c < n_owned -> nth_error comps k = Some f -> nth_error centroids c = Some p -> nth_error x' (ndof * c + k) = Some (f p)) /\
      (forall c k, ~ In c ids -> k < ndof -> nth_error x' (ndof * c + k) = nth_error x (ndof * c + k)).
  Proof.
    intros St Fa L. unfold region_solution, bulk_points.
    change (filter (fun c => Nat.ltb (3 * c) n_local) ids) with (filter (is_owned 3 n_local) ids).
    destruct (omap_total (nth_error centroids) (filter (is_owned 3 n_local) ids)) as (pts & Ep).
    { intros c Hc. apply filter_In in Hc. destruct Hc as (Hc & _). rewrite Forall_forall in Fa. destruct (nth_error centroids c) eqn:E; [eauto|]. apply nth_error_None in E. specialize (Fa c Hc). lia. }
    rewrite Ep. cbn [obind]. destruct (filter_sorted_prefix ndof 3 n_local flow ids St) as (rest & Er).
    assert (V : forall f p c, nth_error (filter (is_owned ndof n_local) ids) p = Some c ->
      nth_error (map f pts ++ repeat 0%R (length ids - length pts))%list p = Some (match nth_error centroids c with Some q => f q | None => 0%R end)).
    { intros f p c Hp. assert (Hp3 : nth_error (filter (is_owned 3 n_local) ids) p = Some c). { rewrite Er. rewrite nth_error_app1; [exact Hp|apply nth_error_Some; congruence]. }
      destruct (omap_nth_map _ _ _ Ep _ _ Hp3) as (q & Eq & Hq). rewrite Eq. rewrite nth_error_app1; [|rewrite map_length; apply nth_error_Some; congruence]. rewrite nth_error_map, Hq. reflexivity. }
    clear Ep Er rest.
    (* fold over the components *)
    assert (Gen : forall m off x, off + length m <= ndof -> (forall k f, nth_error m k = Some f -> nth_error comps (off + k) = Some f) -> length x = n_local ->
      exists x', ofold (fun x kf => put_component ndof n_local (fst kf) 0 (map (snd kf) pts ++ repeat 0%R (length ids - length pts)) ids x) (combine (seq off (length m)) m) x = Some x' /\ length x' = n_local /\
        (forall c k f p, In c ids -> c < n_owned -> nth_error m k = Some f -> nth_error centroids c = Some p -> nth_error x' (ndof * c + (off + k)) = Some (f p)) /\
        (forall c k, k < ndof -> ~ In c ids \/ k < off -> nth_error x' (ndof * c + k) = nth_error x (ndof * c + k))).
    { induction m as [|f m IH]; intros off y Hoff Hm Ly.
      - exists y. split; [reflexivity|]. split; [exact Ly|]. split; [intros c k f p _ _ H; destruct k; discriminate|reflexivity].
      - cbn [length seq combine ofold fst snd]. cbn [length] in Hoff.
        destruct (put_component_spec ndof n_local off (fun c => match nth_error centroids c with Some q => f q | None => 0%R end) (map f pts ++ repeat 0%R (length ids - length pts))%list ltac:(lia) ids 0 y Ly ltac:(exists n_owned; lia) (V f)) as (y1 & E1 & L1 & W1 & K1).
        rewrite E1. cbn [obind]. destruct (IH (S off) y1 ltac:(lia)) as (x' & E & L' & W & K).
        { intros k g Hk. replace (S off + k) with (off + S k) by lia. apply Hm. exact Hk. } { exact L1. }
        exists x'. split; [exact E|]. split; [exact L'|]. split.
        + intros c k g p Hc Ho Hk Hp. destruct k as [|k].
          * cbn in Hk. injection Hk as <-. rewrite Nat.add_0_r. rewrite K by (first [lia|right; lia]). rewrite W1 by (first [exact Hc|apply owned_iff; exact Ho]). rewrite Hp. reflexivity.
          * replace (off + S k) with (S off + k) by lia. eapply W; eauto.
        + intros c k Hk Hor. rewrite K by (first [exact Hk|destruct Hor; [left; assumption|right; lia]]). apply K1. intros c' Hc' Ej.
          assert (Ho' : off < ndof) by lia. destruct (entry_unique _ _ _ _ _ Hk Ho' Ej) as (-> & ->). destruct Hor as [Hn|Hlt]; [contradiction|lia]. }
    destruct (Gen comps 0 x ltac:(lia) (fun k f H => H) L) as (x' & E & L' & W & K). exists x'. split; [exact E|]. split; [exact L'|]. split.
    - intros c k f p Hc Ho Hk Hp. exact (W c k f p Hc Ho Hk Hp).
    - intros c k Hn Hk. apply K; [exact Hk|left; exact Hn].
  Qed.

  Lemma solution_spec regions : (forall ids, In ids regions -> StronglySorted lt ids /\ Forall (fun c => c < length centroids) ids) ->
    exists x, ofold (region_solution comps n_local centroids) regions (repeat 0%R n_local) = Some x /\ length x = n_local /\
      (forall c k f p, c < n_owned -> nth_error comps k = Some f -> nth_error centroids c = Some p -> (exists ids, In ids regions /\ In c ids) -> nth_error x (ndof * c + k) = Some (f p)) /\
      (forall c k, c < n_owned -> k < ndof -> (forall ids, In ids regions -> ~ In c ids) -> nth_error x (ndof * c + k) = Some 0%R).
  Proof.
    intros H.
    assert (Gen : forall rs y, length y = n_local -> (forall ids, In ids rs -> StronglySorted lt ids /\ Forall (fun c => c < length centroids) ids) ->
      exists x, ofold (region_solution comps n_local centroids) rs y = Some x /\ length x = n_local /\
      (forall c k f p, c < n_owned -> nth_error comps k = Some f -> nth_error centroids c = Some p -> (exists ids, In ids rs /\ In c ids) -> nth_error x (ndof * c + k) = Some (f p)) /\
      (forall c k, k < ndof -> (forall ids, In ids rs -> ~ In c ids) -> nth_error x (ndof * c + k) = nth_error y (ndof * c + k))).
    { induction rs as [|ids rs IH]; intros y Ly Hr; cbn [ofold].
      - exists y. split; [reflexivity|]. split; [exact Ly|]. split; [intros c k f p _ _ _ (i & [] & _)|reflexivity].
      - destruct (Hr ids (or_introl eq_refl)) as (St & Fa). destruct (region_solution_spec ids y St Fa Ly) as (y1 & E1 & L1 & W1 & K1). rewrite E1. cbn [obind].
        destruct (IH y1 L1 (fun i Hi => Hr i (or_intror Hi))) as (x & E & L & W & K). exists x. split; [exact E|]. split; [exact L|].
        assert (D : forall c, (exists i, In i rs /\ In c i) \/ (forall i, In i rs -> ~ In c i)).
        { intros c. clear. induction rs as [|a t IH]; [right; intros i []|]. destruct IH as [(i & Hi & Hc)|N]; [left; exists i; split; [right; exact Hi|exact Hc]|].
          destruct (in_dec Nat.eq_dec c a) as [Ha|Ha]; [left; exists a; split; [left; reflexivity|exact Ha]|]. right. intros i [<-|Hi]; [exact Ha|apply N; exact Hi]. }
        split.
        + intros c k f p Ho Hk Hp (i & [<-|Hi] & Hc).
          * destruct (D c) as [Hx|Hn]; [eapply W; eauto|]. rewrite K; [|apply nth_error_Some; congruence|exact Hn]. eapply W1; eauto.
          * eapply W; eauto.
        + intros c k Hk Hn. rewrite K by (first [exact Hk|intros i Hi; apply Hn; right; exact Hi]). apply K1; [apply Hn; left; reflexivity|exact Hk]. }
    destruct (Gen regions (repeat 0%R n_local) (repeat_length _ _) H) as (x & E & L & W & K). exists x. split; [exact E|]. split; [exact L|]. split; [exact W|].
    intros c k Ho Hk Hn. rewrite K by assumption. apply nth_error_repeat. nia.
  Qed.
End Solution.
