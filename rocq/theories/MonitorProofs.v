(** Proofs about the monitors of a simulation. *)
From Verif Require Import Base SetupModel GridModel OutputModel MonitorModel MonitorSpec.
Local Open Scope nat_scope.

Lemma same_vf_eq a b : same_vf a b = true <-> a = b.
Proof.
  destruct a, b; simpl; split; intros H; try discriminate; try reflexivity.
  - apply Nat.eqb_eq in H. subst. reflexivity.
  - injection H as ->. apply Nat.eqb_refl.
Qed.
Lemma same_mon_eq a b : same_mon a b = true <-> a = b.
Proof.
  destruct a, b; simpl; split; intros H; try discriminate; try reflexivity.
  - apply same_vf_eq in H. subst. reflexivity.
  - injection H as ->. apply same_vf_eq. reflexivity.
Qed.
Lemma in_same m l : existsb (same_mon m) l = true <-> In m l.
Proof.
  rewrite existsb_exists. split.
  - intros (x & Hi & E). apply same_mon_eq in E. subst. exact Hi.
  - intros Hi. exists m. split; [exact Hi|]. apply same_mon_eq. reflexivity.
Qed.
Lemma rbind_ret {A B} (x : result A) (f : A -> result B) b : rbind x f = Ret b -> exists a, x = Ret a /\ f a = Ret b.
Proof. destruct x; simpl; intros H; try discriminate. eauto. Qed.

(* ** Registration *)
Lemma set_ret m s s' : TSMonitorSet m s = Ret s' ->
  s' = with_monitors s (s_monitors s') /\
  (forall x, In x (s_monitors s') <-> In x (s_monitors s) \/ x = m) /\
  (NoDup (s_monitors s) -> NoDup (s_monitors s')).
Proof.
  unfold TSMonitorSet. destruct (existsb _ _) eqn:E.
  - intros H. injection H as <-. split; [destruct s; reflexivity|]. split; [|auto].
    intros x. split; [auto|]. intros [H| ->]; [exact H|]. apply in_same. exact E.
  - unfold check. destruct (Nat.ltb _ _); [|discriminate]. intros H. injection H as <-. cbn [s_monitors with_monitors].
    split; [reflexivity|]. split.
    + intros x. rewrite in_app_iff. simpl. intuition congruence.
    + intros H. rewrite <- (rev_involutive (s_monitors s ++ [m])). apply NoDup_rev. rewrite rev_app_distr. simpl. constructor.
      * intros Hi. apply in_rev in Hi. apply in_same in Hi. congruence.
      * apply NoDup_rev. exact H.
Qed.

(* Everything between the beginning of an advance and the solve keeps the step number and the calls, and only adds
   monitors; and [vf_inv]: a solution monitor refers to the present object or to one that is destroyed. *)
Definition vf_inv (s : sim) : Prop :=
  forall o, In (TSMonitorSolution o) (s_monitors s) -> exists v, o = Some v /\ (s_vf s = Some v \/ In v (s_freed s)).
Definition ok (s : sim) : Prop := NoDup (s_monitors s) /\ vf_inv s.
Record prep (s s' : sim) : Prop := Prep {
  pr_calls : s_calls s' = s_calls s;
  pr_step : s_step s' = s_step s;
  pr_mon : incl (s_monitors s) (s_monitors s');
  pr_run : s_restart_run s' = s_restart_run s;
  pr_rstep : s_restart_step s' = s_restart_step s;
  pr_ok : ok s -> ok s' }.
Lemma prep_refl s : prep s s.
Proof. constructor; auto. apply incl_refl. Qed.
Lemma prep_trans a b c : prep a b -> prep b c -> prep a c.
Proof. intros [? ? ? ? ? ?] [? ? ? ? ? ?]. constructor; try congruence; auto. eapply incl_tran; eauto. Qed.

Lemma set_prep m s s' : TSMonitorSet m s = Ret s' ->
  match m with TSMonitorSolution o => o = s_vf s /\ s_vf s <> None | _ => True end -> prep s s' /\ In m (s_monitors s').
Proof.
  intros H Hm. destruct (set_ret _ _ _ H) as (E & Hin & Hnd).
  split; [|apply Hin; auto].
  constructor; try (rewrite E; reflexivity).
  - intros x Hx. apply Hin. auto.
  - intros [Hn Hv]. split; [auto|]. intros o Ho. apply Hin in Ho. rewrite E. cbn [s_vf s_freed with_monitors].
    destruct Ho as [Ho|Ho]; [apply Hv; exact Ho|]. subst m. destruct Hm as [-> Hne].
    destruct (s_vf s) as [v|]; [|congruence]. exists v. auto.
Qed.
Lemma renew_prep s : prep s (renew_vf s).
Proof.
  constructor; try reflexivity; [apply incl_refl|]. intros [Hn Hv]. split; [exact Hn|].
  intros o Ho. destruct (Hv o Ho) as (v & -> & Hc). exists v. split; [reflexivity|]. right. cbn.
  destruct (s_vf s) as [w|]; [|destruct Hc; [discriminate|assumption]].
  destruct Hc as [Hc|Hc]; [injection Hc as ->; left; reflexivity|right; exact Hc].
Qed.

(* what visualization output needs in the list of monitors *)
Definition field_mon (c : mconfig) (s : sim) : mon :=
  match mc_format c with OUTPUT_XDMF => WriteXDMFOutput | OUTPUT_CGNS => OptionMonitor | _ => TSMonitorSolution (s_vf s) end.
Definition has_writer (c : mconfig) (k : record) (s : sim) : Prop := exists m, In m (s_monitors s) /\ writes c k m = true.

Lemma viewer_prep c s s' : accepted c -> CreateOutputViewer c s = Ret s' ->
  prep s s' /\ s_refined s' = s_refined s /\
  (mc_enable c = true -> (mc_format c = OUTPUT_CGNS -> In OptionMonitor (s_monitors s)) -> has_writer c Fields s').
Proof.
  intros Ha. unfold CreateOutputViewer. destruct (mc_enable c) eqn:En.
  2: { intros H. injection H as <-. split; [apply prep_refl|]. split; [reflexivity|discriminate]. }
  destruct (Ha En) as [Hf Hc]. cbv zeta.
  destruct (mc_format c) eqn:Ef; [congruence| | |].
  - intros H. apply rbind_ret in H as (s1 & H1 & H2).
    assert (P1 : prep (renew_vf s) s1 /\ s_vf s1 = Some (s_next s) /\ s_refined s1 = s_refined s).
    { destruct (mc_detail c).
      - destruct (set_prep _ _ _ H1 I) as [P _]. split; [exact P|]. destruct (set_ret _ _ _ H1) as (E & _). rewrite E. split; reflexivity.
      - injection H1 as <-. split; [apply prep_refl|]. split; reflexivity. }
    destruct P1 as (P1 & V1 & R1).
    destruct (set_prep _ _ _ H2) as [P2 I2]; [split; [reflexivity|rewrite V1; discriminate]|].
    destruct (set_ret _ _ _ H2) as (E2 & _).
    split; [exact (prep_trans _ _ _ (renew_prep s) (prep_trans _ _ _ P1 P2))|].
    split; [rewrite E2; exact R1|].
    intros _ _. exists (TSMonitorSolution (s_vf s1)). split; [exact I2|]. simpl. rewrite Ef. reflexivity.
  - intros H. destruct (set_prep _ _ _ H I) as [P Hi]. destruct (set_ret _ _ _ H) as (E & _).
    split; [exact (prep_trans _ _ _ (renew_prep s) P)|]. split; [rewrite E; reflexivity|].
    intros _ _. exists WriteXDMFOutput. split; [exact Hi|]. simpl. rewrite Ef. reflexivity.
  - intros H. apply rbind_ret in H as (s1 & H1 & H2). injection H2 as <-.
    assert (P1 : prep s s1 /\ s_refined s1 = s_refined s).
    { destruct (mc_detail c).
      - destruct (set_prep _ _ _ H1 I) as [P _]. split; [exact P|]. destruct (set_ret _ _ _ H1) as (E & _). rewrite E. reflexivity.
      - injection H1 as <-. split; [apply prep_refl|]. reflexivity. }
    destruct P1 as (P1 & R1). split; [exact P1|]. split; [exact R1|].
    intros _ Ho. exists OptionMonitor. split; [apply (pr_mon _ _ P1); auto|]. simpl. rewrite Ef. reflexivity.
Qed.
Lemma series_prep c s s' : InitTimeSeries c s = Ret s' ->
  prep s s' /\ s_refined s' = s_refined s /\ (wanted c Series -> In WriteTimeSeries (s_monitors s')).
Proof.
  unfold InitTimeSeries. destruct (_ || _)%bool eqn:E; intros H.
  - destruct (set_prep _ _ _ H I) as [P Hi]. destruct (set_ret _ _ _ H) as (E2 & _).
    split; [exact P|]. split; [rewrite E2; reflexivity|auto].
  - injection H as <-. split; [apply prep_refl|]. split; [reflexivity|]. intros W. exfalso.
    apply Bool.orb_false_iff in E as [E1 E2]. apply Nat.ltb_ge in E1. apply Nat.ltb_ge in E2. simpl in W. lia.
Qed.

(** ** The calls *)
Definition add_calls (s : sim) (l : list (mon * nat)) : sim :=
  Sim (s_monitors s) (s_step s) (s_vf s) (s_next s) (s_freed s) (s_refined s) (s_restart_run s) (s_restart_step s) (s_calls s ++ l).
Lemma add_calls_app s a b : add_calls (add_calls s a) b = add_calls s (a ++ b).
Proof. unfold add_calls. simpl. rewrite app_assoc. reflexivity. Qed.
Lemma add_calls_nil s : add_calls s [] = s.
Proof. unfold add_calls. rewrite app_nil_r. destruct s; reflexivity. Qed.

(* what a call needs *)
Definition callable (c : mconfig) (freed : list nat) (m : mon) : Prop :=
  match m with
  | WriteOutputLogMessage => mc_interval c <> 0
  | TSMonitorSolution o => exists v, o = Some v /\ ~ In v freed
  | WriteTimeSeries => mc_boundary c <> 0
  | _ => True
  end.
Lemma freed_in v l : existsb (Nat.eqb v) l = true <-> In v l.
Proof.
  rewrite existsb_exists. split.
  - intros (x & Hi & E). apply Nat.eqb_eq in E. subst. exact Hi.
  - intros Hi. exists v. split; [exact Hi|]. apply Nat.eqb_refl.
Qed.
Lemma call_iff c st s m s' : call c st s m = Ret s' <-> s' = add_calls s [(m, st)] /\ callable c (s_freed s) m.
Proof.
  unfold call. cbv zeta. split.
  - intros H. destruct m as [| |[v|]| | |]; cbn [callable].
    + injection H as <-. auto.
    + destruct (Nat.eqb_spec (mc_interval c) 0); [discriminate|]. injection H as <-. auto.
    + destruct (existsb _ _) eqn:E; [discriminate|]. injection H as <-. split; [reflexivity|]. exists v. split; [reflexivity|].
      intros Hi. apply freed_in in Hi. congruence.
    + discriminate.
    + injection H as <-. auto.
    + destruct (Nat.eqb_spec (mc_boundary c) 0); [discriminate|]. injection H as <-. auto.
    + injection H as <-. auto.
  - intros [-> Hc]. destruct m as [| |[v|]| | |]; cbn [callable] in Hc; try reflexivity.
    + destruct (Nat.eqb_spec (mc_interval c) 0); [congruence|reflexivity].
    + destruct Hc as (w & E & Hw). injection E as <-. destruct (existsb _ _) eqn:E2; [apply freed_in in E2; contradiction|reflexivity].
    + destruct Hc as (w & E & _). discriminate.
    + destruct (Nat.eqb_spec (mc_boundary c) 0); [congruence|reflexivity].
Qed.
Lemma calls_iff c st ms : forall s s', rfold (call c st) ms s = Ret s' <->
  s' = add_calls s (map (fun m => (m, st)) ms) /\ Forall (callable c (s_freed s)) ms.
Proof.
  induction ms as [|m t IH]; intros s s'; simpl.
  - rewrite add_calls_nil. split; [intros H; injection H as <-; auto|intros [-> _]; reflexivity].
  - split.
    + intros H. apply rbind_ret in H as (s1 & H1 & H2). apply call_iff in H1 as [-> Hc]. apply IH in H2 as [-> Hf].
      rewrite add_calls_app. split; [reflexivity|]. constructor; [exact Hc|exact Hf].
    + intros [-> Hf]. inversion Hf; subst.
      assert (E : call c st s m = Ret (add_calls s [(m, st)])) by (apply call_iff; auto). rewrite E. simpl.
      apply IH. rewrite add_calls_app. split; [reflexivity|assumption].
Qed.
Definition solve_calls (ms : list mon) (steps : list nat) : list (mon * nat) := flat_map (fun st => map (fun m => (m, st)) ms) steps.
Lemma monitor_iff c steps : forall s s', rfold (TSMonitor c) steps s = Ret s' <->
  s' = add_calls s (solve_calls (s_monitors s) steps) /\ (steps <> [] -> Forall (callable c (s_freed s)) (s_monitors s)).
Proof.
  induction steps as [|st t IH]; intros s s'; simpl.
  - rewrite add_calls_nil. split; [intros H; injection H as <-; split; [reflexivity|congruence]|intros [-> _]; reflexivity].
  - split.
    + intros H. apply rbind_ret in H as (s1 & H1 & H2). apply calls_iff in H1 as [-> Hf]. apply IH in H2 as [-> _].
      rewrite add_calls_app. cbn [s_monitors add_calls]. split; [reflexivity|auto].
    + intros [-> Hf].
      assert (E : TSMonitor c s st = Ret (add_calls s (map (fun m => (m, st)) (s_monitors s)))) by (apply calls_iff; split; [reflexivity|apply Hf; discriminate]).
      rewrite E. simpl. apply IH. rewrite add_calls_app. cbn [s_monitors s_freed add_calls]. split; [reflexivity|]. intros _. apply Hf. discriminate.
Qed.
Lemma solve_iff c n s s' : TSSolve c n s = Ret s' <->
  s' = Sim (s_monitors s) (s_step s + n) (s_vf s) (s_next s) (s_freed s) (s_refined s) (s_restart_run s) (s_restart_step s)
           (s_calls s ++ solve_calls (s_monitors s) (seq (s_step s) (S n))) /\
  Forall (callable c (s_freed s)) (s_monitors s).
Proof.
  unfold TSSolve. split.
  - intros H. apply rbind_ret in H as (s1 & H1 & H2). apply monitor_iff in H1 as [-> Hf]. injection H2 as <-.
    split; [reflexivity|]. apply Hf. discriminate.
  - intros [-> Hf].
    assert (E : rfold (TSMonitor c) (seq (s_step s) (S n)) s = Ret (add_calls s (solve_calls (s_monitors s) (seq (s_step s) (S n))))) by (apply monitor_iff; auto).
    rewrite E. reflexivity.
Qed.

(* with one writer among the monitors, a solve asks once for each step *)
Lemma filter_pairs (w : mon -> bool) st ms :
  filter (fun p : mon * nat => w (fst p)) (map (fun m => (m, st)) ms) = map (fun m => (m, st)) (filter w ms).
Proof. induction ms as [|m t IH]; simpl; [reflexivity|]. destruct (w m); simpl; rewrite IH; reflexivity. Qed.
Lemma asked_solve (w : mon -> bool) ms steps : length (filter w ms) = 1 ->
  map snd (filter (fun p : mon * nat => w (fst p)) (solve_calls ms steps)) = steps.
Proof.
  intros H. induction steps as [|st t IH]; simpl; [reflexivity|].
  rewrite filter_app, filter_pairs, map_app, IH, map_map. simpl.
  destruct (filter w ms) as [|a [|b l]]; try discriminate. reflexivity.
Qed.
Lemma single_writer (w : mon -> bool) a ms : NoDup ms -> In a ms -> w a = true -> (forall m, In m ms -> w m = true -> m = a) -> length (filter w ms) = 1.
Proof.
  induction ms as [|m t IH]; intros Hn Hi Hw Hu; [contradiction|]. inversion Hn; subst. simpl.
  destruct Hi as [->|Hi].
  - rewrite Hw. simpl. f_equal. enough (filter w t = []) as -> by reflexivity.
    destruct (filter w t) as [|b l] eqn:E; [reflexivity|]. exfalso.
    assert (Hb : In b (filter w t)) by (rewrite E; left; reflexivity). apply filter_In in Hb as [Hb1 Hb2].
    rewrite (Hu b (or_intror Hb1) Hb2) in Hb1. contradiction.
  - destruct (w m) eqn:E.
    + rewrite (Hu m (or_introl eq_refl) E) in *. contradiction.
    + apply IH; auto. intros x Hx. apply Hu. right. exact Hx.
Qed.
(* of the callable monitors at most one writes records of a kind *)
Lemma writer_once c k s : ok s -> has_writer c k s -> Forall (callable c (s_freed s)) (s_monitors s) ->
  length (filter (writes c k) (s_monitors s)) = 1.
Proof.
  intros [Hn Hv] (a & Hi & Hw) Hf. apply single_writer with (a := a); auto.
  intros m Hm Hwm. rewrite Forall_forall in Hf.
  destruct k; destruct a; simpl in Hw; try discriminate; destruct m; simpl in Hwm; try discriminate; try reflexivity;
    destruct (mc_format c); try discriminate.
  destruct (Hv _ Hi) as (v & -> & Cv). destruct (Hv _ Hm) as (v' & -> & Cv').
  destruct (Hf _ Hi) as (x & E & Hx). injection E as <-. destruct (Hf _ Hm) as (x & E & Hx'). injection E as <-.
  destruct Cv as [Cv|?]; [|contradiction]. destruct Cv' as [Cv'|?]; [|contradiction]. congruence.
Qed.

(** ** One advance *)
Lemma advance_cases c n final s s' : accepted c -> RDyAdvance c n final s = Ret s' ->
  exists s1, prep s s1 /\
    (mc_enable c = true -> (mc_format c = OUTPUT_CGNS -> In OptionMonitor (s_monitors s)) ->
     (has_writer c Fields s \/ s_step s = 0 \/ (s_restart_run s = true /\ s_restart_step s = Some (s_step s)) \/ s_refined s = true) -> has_writer c Fields s1) /\
    (wanted c Series -> s_step s = 0 -> In WriteTimeSeries (s_monitors s1)) /\
    exists s2, TSSolve c n s1 = Ret s2 /\ s' = if final then DestroyOutputViewer s2 else s2.
Proof.
  intros Ha H. unfold RDyAdvance in H. cbv zeta in H.
  apply rbind_ret in H as (a & H1 & H). apply rbind_ret in H as (b & H2 & H). apply rbind_ret in H as (d & H3 & H).
  apply rbind_ret in H as (s2 & H4 & H). injection H as <-.
  assert (P1 : prep s a /\ s_refined a = s_refined s /\
               (s_step s = 0 -> mc_enable c = true -> (mc_format c = OUTPUT_CGNS -> In OptionMonitor (s_monitors s)) -> has_writer c Fields a) /\
               (wanted c Series -> s_step s = 0 -> In WriteTimeSeries (s_monitors a))).
  { destruct (Nat.eqb_spec (s_step s) 0) as [E|E].
    - apply rbind_ret in H1 as (a' & H1 & H1'). destruct (viewer_prep _ _ _ Ha H1) as (Pa & Ra & Wa).
      destruct (series_prep _ _ _ H1') as (Pb & Rb & Wb). split; [exact (prep_trans _ _ _ Pa Pb)|]. split; [congruence|]. split; [|auto].
      intros _ En Ho. destruct (Wa En Ho) as (m & Hm & Hw). exists m. split; [apply (pr_mon _ _ Pb); exact Hm|exact Hw].
    - injection H1 as <-. split; [apply prep_refl|]. split; [reflexivity|]. split; intros; congruence. }
  destruct P1 as (P1 & R1 & W1 & T1).
  assert (P2 : prep a b /\ s_refined b = s_refined a /\
               (s_restart_run s = true -> s_restart_step s = Some (s_step s) -> mc_enable c = true -> (mc_format c = OUTPUT_CGNS -> In OptionMonitor (s_monitors s)) -> has_writer c Fields b)).
  { destruct (s_restart_run a && same_vf (s_restart_step a) (Some (s_step s)))%bool eqn:E.
    - destruct (viewer_prep _ _ _ Ha H2) as (Pa & Ra & Wa). split; [exact Pa|]. split; [exact Ra|].
      intros _ _ En Ho. apply Wa; [exact En|]. intros Ef. apply (pr_mon _ _ P1). auto.
    - injection H2 as <-. split; [apply prep_refl|]. split; [reflexivity|]. intros Hr Hs. exfalso.
      rewrite (pr_run _ _ P1), (pr_rstep _ _ P1), Hr, Hs in E. simpl in E. rewrite Nat.eqb_refl in E. discriminate. }
  destruct P2 as (P2 & R2 & W2).
  assert (P3 : prep b d /\ (s_refined s = true -> mc_enable c = true -> (mc_format c = OUTPUT_CGNS -> In OptionMonitor (s_monitors s)) -> has_writer c Fields d)).
  { destruct (s_refined b) eqn:E.
    - apply rbind_ret in H3 as (d' & H3 & H3'). injection H3' as <-. destruct (viewer_prep _ _ _ Ha H3) as (Pa & Ra & Wa). split.
      + destruct Pa. constructor; auto.
      + intros _ En Ho. apply (Wa En). intros Ef. apply (pr_mon _ _ P2), (pr_mon _ _ P1). auto.
    - injection H3 as <-. split; [apply prep_refl|]. intros. congruence. }
  destruct P3 as (P3 & W3).
  exists d. split; [exact (prep_trans _ _ _ P1 (prep_trans _ _ _ P2 P3))|].
  assert (K : forall x y, prep x y -> has_writer c Fields x -> has_writer c Fields y).
  { intros x y P (m & Hm & Hw). exists m. split; [apply (pr_mon _ _ P); exact Hm|exact Hw]. }
  split; [|split].
  - intros En Ho [Hw|[Hz|[[Hr Hs]|Hr]]].
    + exact (K _ _ (prep_trans _ _ _ P1 (prep_trans _ _ _ P2 P3)) Hw).
    + exact (K _ _ (prep_trans _ _ _ P2 P3) (W1 Hz En Ho)).
    + exact (K _ _ P3 (W2 Hr Hs En Ho)).
    + exact (W3 Hr En Ho).
  - intros Wt Hz. apply (pr_mon _ _ P3), (pr_mon _ _ P2). auto.
  - exists s2. auto.
Qed.

(* after an advance: the steps asked for, and the monitors that are kept *)
Lemma advance_asks c k n (final : bool) s s1 s2 s' : prep s s1 -> ok s -> has_writer c k s1 -> TSSolve c n s1 = Ret s2 ->
  s' = (if final then DestroyOutputViewer s2 else s2) ->
  asked c k s' = asked c k s ++ seq (s_step s) (S n) /\ s_step s' = s_step s + n /\ ok s' /\ s_monitors s' = s_monitors s1 /\
  s_restart_run s' = s_restart_run s /\ s_restart_step s' = s_restart_step s.
Proof.
  intros P Ho Hw Hs E. destruct (proj1 (solve_iff _ _ _ _) Hs) as (E2 & Hf). pose proof (pr_ok _ _ P Ho) as Ho1.
  assert (A : asked c k s2 = asked c k s ++ seq (s_step s) (S n)).
  { subst s2. unfold asked. cbn [s_calls]. rewrite filter_app, map_app, asked_solve by (apply writer_once; auto).
    rewrite (pr_calls _ _ P), (pr_step _ _ P). reflexivity. }
  assert (Ok2 : ok s2) by (subst s2; exact Ho1).
  destruct final; subst s'.
  - split; [exact A|]. split; [subst s2; cbn; rewrite (pr_step _ _ P); reflexivity|]. split; [|split; [subst s2; reflexivity|subst s2; split; [exact (pr_run _ _ P)|exact (pr_rstep _ _ P)]]].
    destruct Ok2 as [Hn Hv]. split; [exact Hn|]. intros o Hi. destruct (Hv o Hi) as (v & -> & Hc). exists v. split; [reflexivity|]. right. cbn.
    destruct (s_vf s2) as [w|]; [|destruct Hc; [discriminate|assumption]].
    destruct Hc as [Hc|Hc]; [injection Hc as ->; left; reflexivity|right; exact Hc].
  - split; [exact A|]. split; [subst s2; cbn; rewrite (pr_step _ _ P); reflexivity|]. split; [exact Ok2|]. split; [subst s2; reflexivity|subst s2; split; [exact (pr_run _ _ P)|exact (pr_rstep _ _ P)]].
Qed.

(** ** The beginning *)
Lemma solver_ok c s : ok (InitSolver c s).
Proof.
  unfold InitSolver. split; cbn [s_monitors with_monitors].
  - destruct (mc_option c); repeat constructor; simpl; auto.
  - intros o Hi. cbn [s_monitors with_monitors] in Hi. destruct (mc_option c); simpl in Hi; [destruct Hi as [Hi|[]]; discriminate|contradiction].
Qed.
Lemma setup_facts c s : RDySetup c = Ret s ->
  ok s /\ s_step s = first_step c /\ s_calls s = [] /\ (wanted c Checkpoints -> In WriteCheckpoint (s_monitors s)) /\
  (mc_option c = true -> In OptionMonitor (s_monitors s)) /\
  (s_step s = 0 \/ (s_restart_run s = true /\ s_restart_step s = Some (s_step s))).
Proof.
  unfold RDySetup. cbv zeta. intros H. apply rbind_ret in H as (a & H1 & H2). injection H2 as <-.
  set (s0 := InitSolver c (Sim [] 0 None 0 [] false false None [])) in *.
  assert (P : prep s0 a /\ s_step a = 0 /\ s_calls a = [] /\ (wanted c Checkpoints -> In WriteCheckpoint (s_monitors a))).
  { unfold InitCheckpoints in H1. destruct (Nat.eqb_spec (mc_checkpoint c) 0) as [E|E].
    - injection H1 as <-. split; [apply prep_refl|]. split; [reflexivity|]. split; [reflexivity|]. intros W. simpl in W. contradiction.
    - destruct (set_prep _ _ _ H1 I) as [P Hi]. split; [exact P|]. split; [rewrite (pr_step _ _ P); reflexivity|]. split; [rewrite (pr_calls _ _ P); reflexivity|auto]. }
  destruct P as (P & St & Ca & Cp).
  assert (Oa : ok a) by (apply (pr_ok _ _ P), solver_ok).
  assert (Op : mc_option c = true -> In OptionMonitor (s_monitors a)).
  { intros E. apply (pr_mon _ _ P). unfold s0, InitSolver. cbn. rewrite E. left. reflexivity. }
  unfold first_step. destruct (mc_restart c) as [n|].
  - unfold ReadCheckpointFile. destruct (mc_reinitialize c); cbn; (split; [exact Oa|]); (split; [auto|]); (split; [exact Ca|]); (split; [exact Cp|]); (split; [exact Op|]); auto.
  - split; [exact Oa|]. split; [exact St|]. split; [exact Ca|]. split; [exact Cp|]. split; [exact Op|]. auto.
Qed.

(** ** Visualization output *)
Definition field_inv (c : mconfig) (s : sim) : Prop :=
  ok s /\ (mc_option c = true -> In OptionMonitor (s_monitors s)) /\
  (has_writer c Fields s \/ s_step s = 0 \/ (s_restart_run s = true /\ s_restart_step s = Some (s_step s)) \/ s_refined s = true).
Lemma fields_run c es : accepted c -> mc_enable c = true -> own_restarts es -> forall s s', field_inv c s -> rfold (react c) es s = Ret s' ->
  asked c Fields s' = asked c Fields s ++ visited c (s_step s) es.
Proof.
  intros Ha En. destruct (Ha En) as [_ Hcg]. induction es as [|e t IH]; intros Ho s s' Hi H.
  - injection H as <-. rewrite app_nil_r. reflexivity.
  - simpl in H. apply rbind_ret in H as (s1 & H1 & H2).
    assert (Ht : own_restarts t) by (intros x Hx; apply Ho; right; exact Hx).
    destruct Hi as (Hok & Hop & Hr).
    destruct e as [n final| |n]; simpl in H1.
    + destruct (advance_cases _ _ _ _ _ Ha H1) as (d & P & Wf & _ & s2 & Hs & Es).
      assert (Hw : has_writer c Fields d) by (apply Wf; auto).
      destruct (advance_asks c Fields n final s d s2 s1 P Hok Hw Hs Es) as (A & St & Ok & Mo & Rr & Rs).
      rewrite (IH Ht s1 s'); [|split; [exact Ok|]; split; [intros E; rewrite Mo; apply (pr_mon _ _ P); auto|]|exact H2].
      * rewrite A, St, <- app_assoc. reflexivity.
      * left. destruct Hw as (m & Hm & Hw). exists m. rewrite Mo. auto.
    + injection H1 as <-. rewrite (IH Ht (RDyPerformAMR c s) s'); [reflexivity| |exact H2].
      split; [apply solver_ok|]. split; [|right; right; right; reflexivity].
      intros E. unfold RDyPerformAMR, InitSolver. cbn. rewrite E. left. reflexivity.
    + exfalso. specialize (Ho _ (or_introl eq_refl)). discriminate.
Qed.

(** ** Checkpoints and time series *)
Lemma checkpoints_run c es : accepted c -> no_refinement es -> forall s s', ok s -> In WriteCheckpoint (s_monitors s) -> rfold (react c) es s = Ret s' ->
  asked c Checkpoints s' = asked c Checkpoints s ++ visited c (s_step s) es.
Proof.
  intros Ha. induction es as [|e t IH]; intros Hr s s' Hok Hi H.
  - injection H as <-. rewrite app_nil_r. reflexivity.
  - simpl in H. apply rbind_ret in H as (s1 & H1 & H2).
    assert (Ht : no_refinement t) by (intros x Hx; apply Hr; right; exact Hx).
    destruct e as [n final| |n]; simpl in H1.
    + destruct (advance_cases _ _ _ _ _ Ha H1) as (d & P & _ & _ & s2 & Hs & Es).
      assert (Hd : In WriteCheckpoint (s_monitors d)) by (apply (pr_mon _ _ P); exact Hi).
      destruct (advance_asks c Checkpoints n final s d s2 s1 P Hok (ex_intro _ _ (conj Hd eq_refl)) Hs Es) as (A & St & Ok & Mo & _ & _).
      rewrite (IH Ht s1 s' Ok); [|rewrite Mo; exact Hd|exact H2]. rewrite A, St, <- app_assoc. reflexivity.
    + specialize (Hr _ (or_introl eq_refl)). discriminate.
    + injection H1 as <-. rewrite (IH Ht (ReadCheckpointFile c n s) s').
      * unfold ReadCheckpointFile. simpl. destruct (mc_reinitialize c); reflexivity.
      * unfold ReadCheckpointFile. destruct (mc_reinitialize c); exact Hok.
      * unfold ReadCheckpointFile. destruct (mc_reinitialize c); exact Hi.
      * exact H2.
Qed.
Lemma series_run c es : accepted c -> wanted c Series -> no_refinement es -> own_restarts es -> forall s s', ok s ->
  (s_step s = 0 \/ In WriteTimeSeries (s_monitors s)) -> rfold (react c) es s = Ret s' ->
  asked c Series s' = asked c Series s ++ visited c (s_step s) es.
Proof.
  intros Ha Hw. induction es as [|e t IH]; intros Hr Ho s s' Hok Hi H.
  - injection H as <-. rewrite app_nil_r. reflexivity.
  - simpl in H. apply rbind_ret in H as (s1 & H1 & H2).
    assert (Ht : no_refinement t) by (intros x Hx; apply Hr; right; exact Hx).
    assert (Ht2 : own_restarts t) by (intros x Hx; apply Ho; right; exact Hx).
    destruct e as [n final| |n]; simpl in H1.
    + destruct (advance_cases _ _ _ _ _ Ha H1) as (d & P & _ & Ws & s2 & Hs & Es).
      assert (Hd : In WriteTimeSeries (s_monitors d)) by (destruct Hi as [Hz|Hi]; [auto|apply (pr_mon _ _ P); exact Hi]).
      destruct (advance_asks c Series n final s d s2 s1 P Hok (ex_intro _ _ (conj Hd eq_refl)) Hs Es) as (A & St & Ok & Mo & _ & _).
      rewrite (IH Ht Ht2 s1 s' Ok); [|right; rewrite Mo; exact Hd|exact H2]. rewrite A, St, <- app_assoc. reflexivity.
    + specialize (Hr _ (or_introl eq_refl)). discriminate.
    + specialize (Ho _ (or_introl eq_refl)). discriminate.
Qed.

(** ** When nothing goes wrong *)
Definition static (c : mconfig) (m : mon) : Prop :=
  match m with WriteOutputLogMessage => mc_interval c <> 0 | WriteTimeSeries => mc_boundary c <> 0 | _ => True end.
Definition no_solution (s : sim) : Prop := forall o, ~ In (TSMonitorSolution o) (s_monitors s).
Record good (c : mconfig) (s : sim) : Prop := Good {
  g_nodup : NoDup (s_monitors s);
  g_sol : forall o, In (TSMonitorSolution o) (s_monitors s) -> mc_format c = OUTPUT_BINARY /\ o = s_vf s /\ s_vf s <> None;
  g_freed : forall v, In v (s_freed s) -> v < s_next s;
  g_vf : forall v, s_vf s = Some v -> v < s_next s /\ ~ In v (s_freed s);
  g_static : forall m, In m (s_monitors s) -> static c m }.
Lemma good_length c s : good c s -> length (s_monitors s) <= 6.
Proof.
  intros G. apply (NoDup_incl_length (l' := [WriteXDMFOutput; WriteOutputLogMessage; TSMonitorSolution (s_vf s); OptionMonitor; WriteTimeSeries; WriteCheckpoint]) (g_nodup _ _ G)).
  intros m Hm. destruct m; simpl; auto 8. destruct (g_sol _ _ G _ Hm) as (_ & -> & _). auto.
Qed.
Definition same_rest (s s' : sim) : Prop :=
  s_step s' = s_step s /\ s_refined s' = s_refined s /\ s_restart_run s' = s_restart_run s /\ s_restart_step s' = s_restart_step s.
Lemma same_rest_refl s : same_rest s s.
Proof. repeat split. Qed.
Lemma same_rest_trans a b c : same_rest a b -> same_rest b c -> same_rest a c.
Proof. intros (? & ? & ? & ?) (? & ? & ? & ?). repeat split; congruence. Qed.

Lemma set_good c m s : good c s -> static c m ->
  match m with TSMonitorSolution o => mc_format c = OUTPUT_BINARY /\ o = s_vf s /\ s_vf s <> None | _ => True end ->
  exists s', TSMonitorSet m s = Ret s' /\ good c s' /\ same_rest s s' /\ s_vf s' = s_vf s /\
    ((forall o, m <> TSMonitorSolution o) -> no_solution s -> no_solution s').
Proof.
  intros G Hs Hm.
  assert (E : exists s', TSMonitorSet m s = Ret s').
  { unfold TSMonitorSet. destruct (existsb _ _); [eauto|]. unfold check.
    pose proof (good_length _ _ G). destruct (Nat.ltb_spec (length (s_monitors s)) 10); [eauto|lia]. }
  destruct E as (s' & E). exists s'. split; [exact E|]. destruct (set_ret _ _ _ E) as (E2 & Hin & Hnd).
  assert (F : s_vf s' = s_vf s /\ s_freed s' = s_freed s /\ s_next s' = s_next s) by (rewrite E2; auto). destruct F as (F1 & F2 & F3).
  split; [|split; [rewrite E2; repeat split|split; [exact F1|]]].
  - constructor.
    + apply Hnd, (g_nodup _ _ G).
    + intros o Ho. apply Hin in Ho as [Ho|Ho]; rewrite F1; [exact (g_sol _ _ G o Ho)|]. subst m. exact Hm.
    + rewrite F2, F3. exact (g_freed _ _ G).
    + rewrite F1, F2, F3. exact (g_vf _ _ G).
    + intros x Hx. apply Hin in Hx as [Hx| ->]; [exact (g_static _ _ G x Hx)|exact Hs].
  - intros Hne Hno o Ho. apply Hin in Ho as [Ho|Ho]; [exact (Hno o Ho)|exact (Hne o (eq_sym Ho))].
Qed.
Lemma renew_good c s : good c s -> no_solution s -> good c (renew_vf s) /\ same_rest s (renew_vf s) /\ no_solution (renew_vf s).
Proof.
  intros G N. split; [|split; [repeat split|exact N]]. constructor; cbn.
  - exact (g_nodup _ _ G).
  - intros o Ho. destruct (N o Ho).
  - intros v Hv. destruct (s_vf s) as [w|] eqn:E.
    + destruct Hv as [<-|Hv]; [destruct (g_vf _ _ G w E)|pose proof (g_freed _ _ G v Hv)]; lia.
    + pose proof (g_freed _ _ G v Hv). lia.
  - intros v Hv. injection Hv as <-. split; [lia|]. intros Hi. destruct (s_vf s) as [w|] eqn:E.
    + destruct Hi as [Hi|Hi]; [destruct (g_vf _ _ G w E)|pose proof (g_freed _ _ G _ Hi)]; lia.
    + pose proof (g_freed _ _ G _ Hi). lia.
  - exact (g_static _ _ G).
Qed.
Lemma viewer_good c s : accepted c -> intervals_given c -> good c s -> no_solution s ->
  exists s', CreateOutputViewer c s = Ret s' /\ good c s' /\ same_rest s s' /\ (mc_format c <> OUTPUT_BINARY -> no_solution s').
Proof.
  intros Ha [_ Hd] G N. unfold CreateOutputViewer. destruct (mc_enable c) eqn:En.
  2: { exists s. split; [reflexivity|]. split; [exact G|]. split; [apply same_rest_refl|auto]. }
  destruct (Ha En) as [Hf _]. cbv zeta. destruct (mc_format c) eqn:Ef; [congruence| | |].
  - destruct (renew_good c s G N) as (G1 & R1 & N1).
    assert (L : exists a, (if mc_detail c then TSMonitorSet WriteOutputLogMessage (renew_vf s) else Ret (renew_vf s)) = Ret a /\ good c a /\ same_rest s a /\ s_vf a = Some (s_next s)).
    { destruct (mc_detail c) eqn:Ed.
      - destruct (set_good c WriteOutputLogMessage (renew_vf s) G1) as (a & E & Ga & Ra & Va & _); [simpl; apply Hd; [auto|congruence|auto]|exact I|].
        exists a. split; [exact E|]. split; [exact Ga|]. split; [exact (same_rest_trans _ _ _ R1 Ra)|rewrite Va; reflexivity].
      - exists (renew_vf s). auto. }
    destruct L as (a & Ea & Ga & Ra & Va). rewrite Ea. simpl.
    destruct (set_good c (TSMonitorSolution (s_vf a)) a Ga I) as (b & Eb & Gb & Rb & _); [split; [exact Ef|]; split; [reflexivity|rewrite Va; discriminate]|].
    exists b. split; [exact Eb|]. split; [exact Gb|]. split; [exact (same_rest_trans _ _ _ Ra Rb)|congruence].
  - destruct (renew_good c s G N) as (G1 & R1 & N1).
    destruct (set_good c WriteXDMFOutput (renew_vf s) G1 I I) as (a & E & Ga & Ra & _ & Na).
    exists a. split; [exact E|]. split; [exact Ga|]. split; [exact (same_rest_trans _ _ _ R1 Ra)|]. intros _. apply Na; [discriminate|exact N1].
  - destruct (mc_detail c) eqn:Ed.
    + destruct (set_good c WriteOutputLogMessage s G) as (a & E & Ga & Ra & _ & Na); [simpl; apply Hd; [auto|congruence|auto]|exact I|].
      rewrite E. simpl. exists a. split; [reflexivity|]. split; [exact Ga|]. split; [exact Ra|]. intros _. apply Na; [discriminate|exact N].
    + simpl. exists s. split; [reflexivity|]. split; [exact G|]. split; [apply same_rest_refl|auto].
Qed.
Lemma series_good c s : intervals_given c -> good c s ->
  exists s', InitTimeSeries c s = Ret s' /\ good c s' /\ same_rest s s' /\ (no_solution s -> no_solution s').
Proof.
  intros [Hs _] G. unfold InitTimeSeries. destruct (_ || _)%bool eqn:E.
  - destruct (set_good c WriteTimeSeries s G) as (a & Ea & Ga & Ra & _ & Na); [|exact I|].
    + simpl. apply Hs. apply Bool.orb_true_iff in E as [E|E]; apply Nat.ltb_lt in E; simpl; lia.
    + exists a. split; [exact Ea|]. split; [exact Ga|]. split; [exact Ra|]. intros N. apply Na; [discriminate|exact N].
  - exists s. split; [reflexivity|]. split; [exact G|]. split; [apply same_rest_refl|auto].
Qed.
Lemma good_callable c s : good c s -> Forall (callable c (s_freed s)) (s_monitors s).
Proof.
  intros G. apply Forall_forall. intros m Hm. pose proof (g_static _ _ G m Hm) as Hs.
  destruct m as [| |o| | |]; simpl; auto. destruct (g_sol _ _ G _ Hm) as (_ & -> & Hn).
  destruct (s_vf s) as [v|] eqn:E; [|congruence]. exists v. split; [reflexivity|]. exact (proj2 (g_vf _ _ G v E)).
Qed.
Lemma solve_good c n s : good c s -> exists s', TSSolve c n s = Ret s' /\ good c s' /\ s_step s' = s_step s + n /\
  s_refined s' = s_refined s /\ s_restart_run s' = s_restart_run s /\ s_restart_step s' = s_restart_step s /\ (no_solution s -> no_solution s').
Proof.
  intros G. eexists. split; [apply solve_iff; split; [reflexivity|apply good_callable; exact G]|].
  split; [destruct G; constructor; assumption|]. cbn. repeat split. auto.
Qed.
Lemma destroy_good c s : good c s -> no_solution s -> good c (DestroyOutputViewer s).
Proof.
  intros G N. constructor; cbn.
  - exact (g_nodup _ _ G).
  - intros o Ho. destruct (N o Ho).
  - intros v Hv. destruct (s_vf s) as [w|] eqn:E.
    + destruct Hv as [<-|Hv]; [apply (g_vf _ _ G w E)|apply (g_freed _ _ G v Hv)].
    + apply (g_freed _ _ G v Hv).
  - intros v Hv. discriminate.
  - exact (g_static _ _ G).
Qed.

(* the occasions on which an advance sets up output *)
Definition t_start (s : sim) : bool := Nat.eqb (s_step s) 0.
Definition t_restart (s : sim) : bool := (s_restart_run s && same_vf (s_restart_step s) (Some (s_step s)))%bool.
Definition fresh_viewer (c : mconfig) (s : sim) : Prop :=
  mc_format c = OUTPUT_BINARY ->
  match t_start s, t_restart s, s_refined s with
  | false, false, false => True
  | true, false, false | false, true, false | false, false, true => no_solution s
  | _, _, _ => False
  end.
Lemma advance_good c n final s : accepted c -> intervals_given c -> good c s -> fresh_viewer c s -> (mc_format c <> OUTPUT_BINARY -> no_solution s) ->
  exists s', RDyAdvance c n final s = Ret s' /\ s_step s' = s_step s + n /\ s_refined s' = false /\ s_restart_run s' = s_restart_run s /\ s_restart_step s' = s_restart_step s /\
    ((mc_format c <> OUTPUT_BINARY \/ final = false) -> good c s') /\ (mc_format c <> OUTPUT_BINARY -> no_solution s').
Proof.
  intros Ha Hg G Fv Nb. unfold RDyAdvance. cbv zeta. fold (t_start s).
  assert (F0 : no_solution s \/ (t_start s = false /\ t_restart s = false /\ s_refined s = false)).
  { destruct (mc_format c) eqn:Ef; try (left; apply Nb; discriminate).
    unfold fresh_viewer in Fv. specialize (Fv Ef). destruct (t_start s), (t_restart s), (s_refined s); try contradiction; auto. }
  assert (F1 : t_start s = true -> mc_format c = OUTPUT_BINARY -> t_restart s = false /\ s_refined s = false).
  { intros E Ef. specialize (Fv Ef). rewrite E in Fv. destruct (t_restart s), (s_refined s); try contradiction; auto. }
  assert (F2 : t_restart s = true -> mc_format c = OUTPUT_BINARY -> s_refined s = false).
  { intros E Ef. specialize (Fv Ef). rewrite E in Fv. destruct (t_start s), (s_refined s); try contradiction; auto. }
  assert (A1 : exists a, (if t_start s then let! s0 := CreateOutputViewer c s in InitTimeSeries c s0 else Ret s) = Ret a /\ good c a /\ same_rest s a /\
               ((t_start s = false \/ mc_format c <> OUTPUT_BINARY) -> no_solution s -> no_solution a)).
  { destruct (t_start s) eqn:E.
    - destruct F0 as [N|[? _]]; [|discriminate]. destruct (viewer_good c s Ha Hg G N) as (a & Ea & Ga & Ra & Na). rewrite Ea. simpl.
      destruct (series_good c a Hg Ga) as (b & Eb & Gb & Rb & Nb'). exists b. split; [exact Eb|]. split; [exact Gb|]. split; [exact (same_rest_trans _ _ _ Ra Rb)|].
      intros [?|Hf] _; [discriminate|]. auto.
    - exists s. split; [reflexivity|]. split; [exact G|]. split; [apply same_rest_refl|auto]. }
  destruct A1 as (a & Ea & Ga & (Sa & Fa & Ra & Qa) & Na). rewrite Ea. simpl.
  assert (Ta : (s_restart_run a && same_vf (s_restart_step a) (Some (s_step s)))%bool = t_restart s) by (unfold t_restart; rewrite Ra, Qa; reflexivity).
  rewrite Ta.
  assert (A2 : exists b, (if t_restart s then CreateOutputViewer c a else Ret a) = Ret b /\ good c b /\ same_rest a b /\
               ((t_restart s = false \/ mc_format c <> OUTPUT_BINARY) -> no_solution a -> no_solution b)).
  { destruct (t_restart s) eqn:E.
    - assert (N : no_solution a).
      { destruct F0 as [N|(_ & ? & _)]; [|discriminate]. apply Na; [|exact N].
        destruct (t_start s) eqn:E1; [right; intros Ef; destruct (F1 eq_refl Ef); discriminate|left; reflexivity]. }
      destruct (viewer_good c a Ha Hg Ga N) as (b & Eb & Gb & Rb & Nb'). exists b. split; [exact Eb|]. split; [exact Gb|]. split; [exact Rb|].
      intros [?|Hf] _; [discriminate|]. auto.
    - exists a. split; [reflexivity|]. split; [exact Ga|]. split; [apply same_rest_refl|auto]. }
  destruct A2 as (b & Eb & Gb & (Sb & Fb & Rb & Qb) & Nb'). rewrite Eb. simpl. rewrite Fb, Fa.
  assert (A3 : exists d, (if s_refined s then let! s0 := CreateOutputViewer c b in
                Ret (Sim (s_monitors s0) (s_step s0) (s_vf s0) (s_next s0) (s_freed s0) false (s_restart_run s0) (s_restart_step s0) (s_calls s0)) else Ret b) = Ret d /\
               good c d /\ s_step d = s_step b /\ s_refined d = false /\ s_restart_run d = s_restart_run b /\ s_restart_step d = s_restart_step b /\
               (mc_format c <> OUTPUT_BINARY -> no_solution d)).
  { assert (Nn : mc_format c <> OUTPUT_BINARY -> no_solution b) by auto.
    destruct (s_refined s) eqn:E.
    - assert (N : no_solution b).
      { destruct F0 as [N|(_ & _ & ?)]; [|discriminate]. apply Nb'.
        - destruct (t_restart s) eqn:E2; [right; intros Ef; specialize (F2 eq_refl Ef); discriminate|left; reflexivity].
        - apply Na; [|exact N]. destruct (t_start s) eqn:E1; [right; intros Ef; destruct (F1 eq_refl Ef); discriminate|left; reflexivity]. }
      destruct (viewer_good c b Ha Hg Gb N) as (d & Ed & Gd & (Sd & Fd & Rd & Qd) & Nd). rewrite Ed. simpl. eexists. split; [reflexivity|]. cbn.
      split; [destruct Gd; constructor; assumption|]. split; [exact Sd|]. split; [reflexivity|]. split; [exact Rd|]. split; [exact Qd|]. exact Nd.
    - exists b. split; [reflexivity|]. split; [exact Gb|]. split; [reflexivity|]. split; [congruence|]. auto. }
  destruct A3 as (d & Ed & Gd & Sd & Fd & Rd & Qd & Nd). rewrite Ed. simpl.
  destruct (solve_good c n d Gd) as (e & Ee & Ge & Se & Fe & Re & Qe & Ne). rewrite Ee. simpl. eexists. split; [reflexivity|].
  assert (X : s_step e = s_step s + n /\ s_refined e = false /\ s_restart_run e = s_restart_run s /\ s_restart_step e = s_restart_step s) by (repeat split; congruence).
  destruct X as (X1 & X2 & X3 & X4).
  destruct final; cbn; (split; [exact X1|]); (split; [exact X2|]); (split; [exact X3|]); (split; [exact X4|]); (split; [|intros Hf; apply Ne, Nd, Hf]).
  - intros [Hf|Hf]; [|discriminate]. apply destroy_good; auto.
  - intros _. exact Ge.
Qed.
Lemma solver_good c s : (forall v, In v (s_freed s) -> v < s_next s) -> (forall v, s_vf s = Some v -> v < s_next s /\ ~ In v (s_freed s)) ->
  good c (InitSolver c s) /\ no_solution (InitSolver c s).
Proof.
  intros H1 H2. unfold InitSolver. assert (N : no_solution (with_monitors s (if mc_option c then [OptionMonitor] else []))).
  { intros o Ho. cbn in Ho. destruct (mc_option c); simpl in Ho; [destruct Ho as [Ho|[]]; discriminate|contradiction]. }
  split; [|exact N]. constructor; cbn [s_monitors s_freed s_next s_vf with_monitors]; auto.
  - destruct (mc_option c); repeat constructor; simpl; auto.
  - intros o Ho. destruct (N o Ho).
  - intros m Hm. destruct (mc_option c); simpl in Hm; [destruct Hm as [<-|[]]; exact I|contradiction].
Qed.
Lemma setup_good c : exists s, RDySetup c = Ret s /\ good c s /\ no_solution s /\ s_step s = first_step c /\ s_refined s = false /\
  s_restart_run s = (match mc_restart c with Some _ => true | None => false end) /\
  s_restart_step s = (match mc_restart c with Some _ => Some (first_step c) | None => None end).
Proof.
  unfold RDySetup. cbv zeta. set (s0 := InitSolver c (Sim [] 0 None 0 [] false false None [])).
  assert (G : good c s0 /\ no_solution s0) by (apply solver_good; cbn; [contradiction|discriminate]). destruct G as [G N].
  assert (A : exists a, InitCheckpoints c s0 = Ret a /\ good c a /\ no_solution a /\ same_rest s0 a).
  { unfold InitCheckpoints. destruct (Nat.eqb (mc_checkpoint c) 0).
    - exists s0. split; [reflexivity|]. split; [exact G|]. split; [exact N|apply same_rest_refl].
    - destruct (set_good c WriteCheckpoint s0 G I I) as (a & Ea & Ga & Ra & _ & Na). exists a. split; [exact Ea|]. split; [exact Ga|]. split; [apply Na; [discriminate|exact N]|exact Ra]. }
  destruct A as (a & Ea & Ga & Na & (Sa & Fa & Ra & Qa)). rewrite Ea. simpl. eexists. split; [reflexivity|].
  unfold first_step, ReadCheckpointFile. destruct (mc_restart c) as [n|].
  - destruct (mc_reinitialize c); cbn; (split; [destruct Ga; constructor; assumption|]); (split; [exact Na|]); repeat split; auto.
  - split; [exact Ga|]. split; [exact Na|]. repeat split; auto.
Qed.
Lemma run_defined c es : accepted c -> intervals_given c -> mc_format c <> OUTPUT_BINARY -> forall s, good c s -> no_solution s ->
  exists s', rfold (react c) es s = Ret s'.
Proof.
  intros Ha Hg Hb. induction es as [|e t IH]; intros s G N; simpl; [eauto|].
  destruct e as [n final| |n]; simpl.
  - destruct (advance_good c n final s Ha Hg G) as (s1 & E & _ & _ & _ & _ & G1 & N1); [intros Ef; congruence|auto|].
    rewrite E. simpl. apply IH; auto.
  - destruct (solver_good c (Sim (s_monitors s) (s_step s) (s_vf s) (s_next s) (s_freed s) true (s_restart_run s) (s_restart_step s) (s_calls s)) (g_freed _ _ G) (g_vf _ _ G)) as [G1 N1].
    apply IH; assumption.
  - unfold ReadCheckpointFile. destruct (mc_reinitialize c); apply IH; try exact N; destruct G; constructor; assumption.
Qed.
(* between the intervals of a simulation with binary output *)
Definition running (c : mconfig) (s : sim) : Prop :=
  good c s /\ s_step s <> 0 /\ (forall r, s_restart_run s = true -> s_restart_step s = Some r -> r < s_step s) /\ (s_refined s = true -> no_solution s).
Lemma running_fresh c s : running c s -> fresh_viewer c s.
Proof.
  intros (_ & Hz & Hr & Hn) _. unfold t_start. destruct (Nat.eqb_spec (s_step s) 0); [contradiction|].
  assert (E : t_restart s = false).
  { unfold t_restart. destruct (s_restart_run s) eqn:E; [|reflexivity]. destruct (s_restart_step s) as [r|]; [|reflexivity]. simpl.
    specialize (Hr r eq_refl eq_refl). apply Nat.eqb_neq. lia. }
  rewrite E. destruct (s_refined s); auto.
Qed.
Lemma run_defined_binary c es : accepted c -> intervals_given c -> mc_format c = OUTPUT_BINARY -> proceeds es -> own_restarts es -> ends_last es ->
  forall s, running c s -> exists s', rfold (react c) es s = Ret s'.
Proof.
  intros Ha Hg Hb. induction es as [|e t IH]; intros Hp Ho He s R; simpl; [eauto|].
  assert (Hp' : proceeds t) by (intros n b Hi; apply (Hp n b); right; exact Hi).
  assert (Ho' : own_restarts t) by (intros x Hx; apply Ho; right; exact Hx).
  destruct He as [He1 He]. pose proof (running_fresh c s R) as Fv. destruct R as (G & Hz & Hr & Hn).
  destruct e as [n final| |n]; simpl.
  - destruct (advance_good c n final s Ha Hg G Fv) as (s1 & E & S1 & F1 & R1 & Q1 & G1 & _); [congruence|].
    rewrite E. simpl. destruct final.
    + rewrite (He1 eq_refl). simpl. eauto.
    + pose proof (Hp n false (or_introl eq_refl)). apply IH; auto. split; [auto|]. split; [lia|]. split; [|congruence].
      intros r Er Es. rewrite R1 in Er. rewrite Q1 in Es. specialize (Hr r Er Es). lia.
  - apply IH; auto.
    destruct (solver_good c (Sim (s_monitors s) (s_step s) (s_vf s) (s_next s) (s_freed s) true (s_restart_run s) (s_restart_step s) (s_calls s)) (g_freed _ _ G) (g_vf _ _ G)) as [G1 N1].
    split; [exact G1|]. split; [exact Hz|]. split; [exact Hr|]. intros _. exact N1.
  - specialize (Ho _ (or_introl eq_refl)). discriminate.
Qed.
