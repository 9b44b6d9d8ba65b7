(** C40: reading a checkpoint restores the simulation. *)
From Verif Require Import Base SetupModel DiagModel TimeModel OutputModel OutputProofs CheckpointModel.
From Coq Require Import ZArith Lia Lra Permutation String.
Local Open Scope nat_scope.
Local Notation length := List.length.

(** ** Specification *)
(* every cell of the grid has exactly one global number *)
Definition numbers_cells (num : numbering) (cells : nat) : Prop := Permutation num (seq 0 cells).
(* the values of the cell with natural id i *)
Definition cell_values (num : numbering) (u : solution) (i : nat) (x : list R) : Prop := exists g, nth_error num g = Some i /\ nth_error u g = Some x.
(* the two simulations hold the same values for every cell of the grid *)
Definition same_solution (s1 s2 : sim) : Prop := forall i x, cell_values (sm_num s1) (sm_u s1) i x <-> cell_values (sm_num s2) (sm_u s2) i x.
Definition well_formed (s : sim) (cells : nat) : Prop := numbers_cells (sm_num s) cells /\ length (sm_u s) = cells.

(** ** Natural order *)
Lemma scatter_upd {A} (keys : list nat) : forall (xs : list A) (l : list A), NoDup keys -> length keys = length xs -> (forall k, In k keys -> k < length l) ->
  exists l', ofold (fun n p => upd n (fst p) (snd p)) (combine keys xs) l = Some l' /\ length l' = length l /\
    (forall g k, nth_error keys g = Some k -> nth_error l' k = nth_error xs g) /\ (forall k, ~ In k keys -> nth_error l' k = nth_error l k).
Proof.
  induction keys as [|k t IH]; intros xs l Hd Hl Hb.
  - exists l. cbn. repeat split; auto. intros [|g] k; discriminate.
  - destruct xs as [|x xs]; [discriminate|]. cbn [combine ofold fst snd].
    destruct (upd_some l k x (Hb k (or_introl eq_refl))) as [l1 E1]. rewrite E1. cbn [obind].
    pose proof (upd_length _ _ _ _ E1) as L1.
    inversion Hd as [|? ? Hni Hd']; subst. cbn in Hl.
    destruct (IH xs l1 Hd' ltac:(lia)) as (l' & E & L & G1 & G2); [intros; rewrite L1; apply Hb; now right|].
    exists l'. split; [exact E|]. split; [lia|]. split.
    + intros [|g] j; cbn [nth_error].
      * intros H. injection H as <-. rewrite (G2 k Hni). rewrite (upd_get _ _ _ _ k E1), Nat.eqb_refl. reflexivity.
      * apply G1.
    + intros j Hj. rewrite (G2 j) by (intros H; apply Hj; now right). rewrite (upd_get _ _ _ _ j E1).
      destruct (Nat.eqb j k) eqn:Ek; [|reflexivity]. apply Nat.eqb_eq in Ek. subst. exfalso. apply Hj. now left.
Qed.
Lemma numbers_NoDup num cells : numbers_cells num cells -> NoDup num /\ length num = cells /\ forall k, In k num <-> k < cells.
Proof.
  intros H. split; [|split].
  - apply (Permutation_NoDup (l := seq 0 cells)); [now symmetry|apply seq_NoDup].
  - rewrite (Permutation_length H). apply seq_length.
  - intros k. split.
    + intros Hk. apply (Permutation_in _ H) in Hk. apply in_seq in Hk. lia.
    + intros Hk. apply (Permutation_in k (Permutation_sym H)). apply in_seq. lia.
Qed.
Lemma to_natural num cells x : numbers_cells num cells -> length x = cells ->
  exists v, GlobalToNatural num x = Some v /\ length v = cells /\ forall g i, nth_error num g = Some i -> nth_error v i = nth_error x g.
Proof.
  intros Hn Hx. destruct (numbers_NoDup _ _ Hn) as (Hd & Hl & Hb). unfold GlobalToNatural. rewrite Hl, Hx, Nat.eqb_refl.
  destruct (scatter_upd num x (repeat [] cells) Hd ltac:(congruence)) as (v & E & L & G & _).
  { intros k Hk. rewrite repeat_length. now apply Hb. }
  exists v. split; [exact E|]. split; [now rewrite L, repeat_length|exact G].
Qed.
Lemma to_global num cells v : numbers_cells num cells -> length v = cells ->
  exists u, NaturalToGlobal num v = Some u /\ length u = cells /\ forall g i, nth_error num g = Some i -> nth_error u g = nth_error v i.
Proof.
  intros Hn Hv. destruct (numbers_NoDup _ _ Hn) as (Hd & Hl & Hb). unfold NaturalToGlobal. rewrite Hl, Hv, Nat.eqb_refl.
  assert (G : forall l, (forall k, In k l -> k < length v) -> exists u, omap (nth_error v) l = Some u /\ length u = length l /\ forall g i, nth_error l g = Some i -> nth_error u g = nth_error v i).
  { induction l as [|k t IH]; intros H.
    - exists []. repeat split; auto. intros [|g] i; discriminate.
    - destruct IH as (u & E & L & G); [intros; apply H; now right|].
      cbn [omap]. destruct (nth_error v k) as [a|] eqn:Ek.
      2:{ apply nth_error_None in Ek. specialize (H k (or_introl eq_refl)). lia. }
      rewrite E. cbn [obind]. exists (a :: u). split; [reflexivity|]. split; [cbn; lia|].
      intros [|g] i; cbn [nth_error]; [intros Hi; injection Hi as <-; now rewrite Ek|apply G]. }
  destruct (G num) as (u & E & L & K); [intros k Hk; rewrite Hv; now apply Hb|]. exists u. split; [exact E|]. split; [lia|exact K].
Qed.
Lemma global_position num cells i : numbers_cells num cells -> i < cells -> exists g, g < cells /\ nth_error num g = Some i.
Proof.
  intros Hn Hi. destruct (numbers_NoDup _ _ Hn) as (_ & Hl & Hb). destruct (In_nth_error num i) as [g Hg]; [now apply Hb|].
  exists g. split; [|exact Hg]. rewrite <- Hl. apply nth_error_Some. congruence.
Qed.
Lemma natural_global num cells v : numbers_cells num cells -> length v = cells ->
  exists u, NaturalToGlobal num v = Some u /\ length u = cells /\ GlobalToNatural num u = Some v.
Proof.
  intros Hn Hv. destruct (to_global num cells v Hn Hv) as (u & E & L & G). exists u. split; [exact E|]. split; [exact L|].
  destruct (to_natural num cells u Hn L) as (w & E' & L' & G'). rewrite E'. f_equal. apply nth_error_ext. intros i.
  destruct (le_lt_dec cells i) as [Hi|Hi].
  - rewrite !(proj2 (nth_error_None _ _)); auto; lia.
  - destruct (global_position num cells i Hn Hi) as (g & _ & Hg). now rewrite (G' g i Hg), (G g i Hg).
Qed.
(* natural order is what the cells hold *)
Lemma natural_values num cells u v : numbers_cells num cells -> length u = cells -> GlobalToNatural num u = Some v ->
  forall i x, cell_values num u i x <-> nth_error v i = Some x.
Proof.
  intros Hn Hu Hv i x. destruct (to_natural num cells u Hn Hu) as (w & E & L & G). rewrite Hv in E. injection E as <-. split.
  - intros (g & Hg & Hx). now rewrite (G g i Hg).
  - intros Hx. assert (Hi : i < cells) by (rewrite <- L; apply nth_error_Some; congruence).
    destruct (global_position num cells i Hn Hi) as (g & _ & Hg). exists g. split; [exact Hg|]. now rewrite <- (G g i Hg).
Qed.
Lemma same_natural s1 s2 cells v : well_formed s1 cells -> well_formed s2 cells -> GlobalToNatural (sm_num s1) (sm_u s1) = Some v -> GlobalToNatural (sm_num s2) (sm_u s2) = Some v -> same_solution s1 s2.
Proof.
  intros [N1 L1] [N2 L2] E1 E2 i x. rewrite (natural_values _ cells _ v N1 L1 E1), (natural_values _ cells _ v N2 L2 E2). reflexivity.
Qed.

(** ** Reading what was written *)
(* a name that reads back in its own format *)
Definition readable_name (fmt : ckpt_format) (filename : string) : Prop :=
  match fmt with NATIVE => strstr filename ".bin" = true /\ strstr filename ".h5" = false | HDF5 => strstr filename ".bin" = false /\ strstr filename ".h5" = true end.

Lemma read_ckpt filename fresh c cells : well_formed fresh cells -> sm_refinements fresh = 0 -> readable_name (ck_format c) filename -> length (ck_solution c) = cells ->
  exists u, ReadCheckpointFile filename false fresh c =
    Ret (Sim (ck_nproc c) (sm_num fresh) u (ck_t c) (ck_step c) (ck_dt c) (sm_courant fresh) (sm_updated fresh) (Z.of_nat (ck_step c)) 0) /\
    length u = cells /\ GlobalToNatural (sm_num fresh) u = Some (ck_solution c).
Proof.
  intros [Hn Hu] Hr Hname Hl. destruct (natural_global (sm_num fresh) cells (ck_solution c) Hn Hl) as (u & E & L & G).
  exists u. split; [|auto]. unfold ReadCheckpointFile, readable_name in *. destruct (ck_format c); destruct Hname as [-> ->];
    cbn [rbind ConsumeMetadata ReadHDF5Metadata sm_u sm_refinements sm_num sm_nproc sm_time sm_step sm_dt sm_courant sm_updated sm_restart_step];
    rewrite Hu, Hl, Nat.eqb_refl, Hr; cbn [Nat.eqb rbind]; rewrite E; reflexivity.
Qed.

(* For every state, both formats, any numbers of processes and any numberings of the cells before and after: reading restores the values of
   every cell, the time, the step number and the step size. *)
Theorem C40_restores : forall fmt filename s fresh cells,
  well_formed s cells -> well_formed fresh cells -> sm_refinements s = 0 -> sm_refinements fresh = 0 -> readable_name fmt filename ->
  exists c s', WriteCheckpointFile fmt s = Some c /\ ReadCheckpointFile filename false fresh c = Ret s' /\
    sm_num s' = sm_num fresh /\ same_solution s' s /\ sm_time s' = sm_time s /\ sm_step s' = sm_step s /\ sm_dt s' = sm_dt s /\ sm_restart_step s' = Z.of_nat (sm_step s).
Proof.
  intros fmt filename s fresh cells W Wf Hr Hf Hname.
  destruct (to_natural (sm_num s) cells (sm_u s) (proj1 W) (proj2 W)) as (v & Ev & Lv & _).
  unfold WriteCheckpointFile. rewrite Hr. cbn [Nat.eqb]. rewrite Ev. cbn [obind].
  set (c := Ckpt fmt (sm_nproc s) (sm_time s) (sm_dt s) (sm_step s) v).
  destruct (read_ckpt filename fresh c cells Wf Hf Hname Lv) as (u & E & L & G).
  exists c. eexists. split; [reflexivity|]. split; [exact E|].
  cbn [sm_num sm_time sm_step sm_dt sm_restart_step c ck_t ck_step ck_dt]. split; [reflexivity|]. split; [|auto].
  apply (same_natural _ s cells v); auto. split; [exact (proj1 Wf)|exact L].
Qed.
Print Assumptions C40_restores.
(* restart.reinitialize keeps the solution and the step size, and starts at time 0 *)
Theorem C40_reinitialize : forall fmt filename s fresh cells,
  well_formed s cells -> well_formed fresh cells -> sm_refinements s = 0 -> sm_refinements fresh = 0 -> sm_step fresh = 0 -> readable_name fmt filename ->
  exists c s', WriteCheckpointFile fmt s = Some c /\ ReadCheckpointFile filename true fresh c = Ret s' /\
    same_solution s' s /\ sm_time s' = 0%R /\ sm_step s' = 0 /\ sm_dt s' = sm_dt s.
Proof.
  intros fmt filename s fresh cells W Wf Hr Hf H0 Hname.
  destruct (to_natural (sm_num s) cells (sm_u s) (proj1 W) (proj2 W)) as (v & Ev & Lv & _).
  destruct (natural_global (sm_num fresh) cells v (proj1 Wf) Lv) as (u & E & L & G).
  unfold WriteCheckpointFile. rewrite Hr. cbn [Nat.eqb]. rewrite Ev. cbn [obind].
  eexists. eexists. split; [reflexivity|]. unfold ReadCheckpointFile, readable_name in *. cbn [ck_format ck_solution].
  assert (S : forall a b c d e f g, same_solution (Sim a (sm_num fresh) u b c d e f g 0) s).
  { intros. apply (same_natural _ s cells v); auto. split; [exact (proj1 Wf)|exact L]. }
  destruct fmt; destruct Hname as [-> ->];
    cbn [rbind ConsumeMetadata ReadHDF5Metadata sm_u sm_refinements sm_num sm_nproc sm_time sm_step sm_dt sm_courant sm_updated sm_restart_step];
    rewrite (proj2 Wf), Lv, Nat.eqb_refl, Hf; cbn [Nat.eqb rbind]; rewrite E; cbn [of_option rbind]; (split; [reflexivity|]); auto.
Qed.
Print Assumptions C40_reinitialize.

(** ** Names *)
Lemma strstr_end a b : b <> ""%string -> strstr (a ++ b) b = true.
Proof.
  intros Hb. unfold strstr. destruct (String.index 0 b (a ++ b)) eqn:E; [reflexivity|].
  exfalso. apply (index_correct3 0 (String.length a) b (a ++ b) E Hb); [lia|].
  clear. induction a as [|x a IH]; cbn; [|exact IH]. induction b as [|x b IH]; cbn; [reflexivity|]. now rewrite IH.
Qed.
(* checkpoints of different steps have different names *)
Theorem C40_names_distinct : forall dir prefix max fmt s s', (0 < max)%Z ->
  (Z.of_nat (String.length dir + String.length prefix + String.length (dec (Z.to_nat max)) + String.length (dec s) + String.length (dec s')) < 4000)%Z ->
  exists n n', ckpt_name dir prefix max fmt s = Ret n /\ ckpt_name dir prefix max fmt s' = Ret n' /\ (n = n' -> s = s').
Proof.
  intros dir prefix max fmt s s' Hm Hlen.
  assert (N : forall k, (Z.of_nat (String.length dir + String.length prefix + String.length (dec (Z.to_nat max)) + String.length (dec k)) < 4000)%Z ->
    ckpt_name dir prefix max fmt k = Ret (dir ++ "/" ++ prefix ++ ".rdycore.r" ++ "." ++ padded (String.length (dec (Z.to_nat max))) k ++ suffix_of fmt)%string).
  { intros k Hk. unfold ckpt_name, GenerateE3SMCheckpointFilenameBase. destruct (Z.leb_spec max 0); [lia|]. cbn [rbind]. cbv zeta.
    rewrite (snprintf_fits _ ("." ++ _)%string).
    2:{ unfold PETSC_MAX_PATH_LEN. rewrite !append_length, padded_length. cbn [String.length]. lia. }
    rewrite (snprintf_fits _ (dir ++ _)%string).
    2:{ unfold PETSC_MAX_PATH_LEN. rewrite !append_length, padded_length. cbn [String.length]. lia. }
    rewrite snprintf_fits.
    2:{ unfold PETSC_MAX_PATH_LEN. rewrite !append_length, padded_length. cbn [String.length]. assert (String.length (suffix_of fmt) <= 4) by (destruct fmt; cbn; lia). lia. }
    now rewrite !append_assoc. }
  eexists. eexists. split; [apply N; lia|]. split; [apply N; lia|]. intros H.
  apply append_inj_l in H. apply append_inj_l in H. apply append_inj_l in H. apply append_inj_l in H. apply append_inj_l in H.
  apply append_inj_r in H. now apply padded_inj in H.
Qed.
Print Assumptions C40_names_distinct.

(** ** Crashes *)
(* the last of the calls for a step *)
Definition last_call (step : nat) (calls : list (nat * ckpt)) : option ckpt :=
  fold_left (fun acc c => if Nat.eqb (fst c) step then Some (snd c) else acc) calls None.
(* However often the monitor was called and wherever the run crashes, every checkpoint except the one being written can be read and
   holds what the last call for its step saved. *)
Theorem C40_crash_keeps_other_checkpoints : forall name interval st calls crash s,
  (forall i j, name i = name j -> i = j) -> interval <> 0 -> (forall k, st (name k) = None) ->
  s mod interval = 0 -> s <> fst crash ->
  let files := write_crash name interval (fold_left (write_due name interval) calls st) crash in
  files (name s) = option_map Complete (last_call s calls).
Proof.
  intros name interval st calls crash s Hinj Hi Hst Hs Hne. cbv zeta.
  assert (W : fold_left (write_due name interval) calls st (name s) = option_map Complete (last_call s calls)).
  { unfold last_call. assert (G : forall st acc, st (name s) = option_map Complete acc ->
      fold_left (write_due name interval) calls st (name s) = option_map Complete (fold_left (fun acc c => if Nat.eqb (fst c) s then Some (snd c) else acc) calls acc)).
    { clear st Hst. induction calls as [|[k c] t IH]; intros st acc H; cbn [fold_left]; [exact H|]. apply IH.
      unfold write_due. cbn [fst snd]. destruct (Nat.eqb k s) eqn:E.
      - apply Nat.eqb_eq in E. subst k. rewrite (proj2 (Nat.eqb_eq _ 0) Hs). unfold put. now rewrite String.eqb_refl.
      - destruct (Nat.eqb (k mod interval) 0); [|exact H]. unfold put.
        destruct (String.eqb (name s) (name k)) eqn:En; [|exact H]. apply String.eqb_eq, Hinj in En. apply Nat.eqb_neq in E. congruence. }
    apply G. now rewrite Hst. }
  destruct crash as [k c]. cbn [fst] in Hne. unfold write_crash. destruct (Nat.eqb (k mod interval) 0); [|exact W].
  unfold put. destruct (String.eqb (name s) (name k)) eqn:En; [|exact W]. apply String.eqb_eq, Hinj in En. congruence.
Qed.
Print Assumptions C40_crash_keeps_other_checkpoints.
(* The monitor is called again for the same step when the next coupling interval begins: a crash at that moment destroys the finished
   checkpoint of that step, here the only one. *)
Theorem C40_crash_while_rewriting_refuted : forall name c,
  write_crash name 2 (fold_left (write_due name 2) [(2, c)] (fun _ => None)) (2, c) (name 2) = Some Incomplete.
Proof. intros name c. unfold write_crash, write_due, put. cbn. now rewrite String.eqb_refl. Qed.
Print Assumptions C40_crash_while_rewriting_refuted.

(** ** Continuing *)
Section Continue.
Context (F : R -> R -> solution -> solution) (pick : R -> R -> R) (tc : time_config).
Context (F_cells : forall t h v, length (F t h v) = length v).
(* [restored c s2]: a new process, with any numbering, read the checkpoint *)
Definition restored (cells : nat) (c : ckpt) (s2 : sim) : Prop :=
  exists filename fresh, well_formed fresh cells /\ sm_refinements fresh = 0 /\ sm_updated fresh = false /\ readable_name (ck_format c) filename /\
                         ReadCheckpointFile filename false fresh c = Ret s2.
(* same solution, time, step number, step size and diagnostics *)
Definition agree (cells : nat) (s1 s2 : sim) : Prop :=
  exists v, length v = cells /\ well_formed s1 cells /\ well_formed s2 cells /\
    GlobalToNatural (sm_num s1) (sm_u s1) = Some v /\ GlobalToNatural (sm_num s2) (sm_u s2) = Some v /\
    sm_time s1 = sm_time s2 /\ sm_step s1 = sm_step s2 /\ chosen_dt tc s1 = chosen_dt tc s2.
Lemma solve_length dt T N x calls r : solve F pick dt T N x calls r -> length (snd r) = length (snd x).
Proof. induction 1; cbn in *; auto. now rewrite IHsolve, F_cells. Qed.
Lemma agree_adv cells measured s1 s2 calls s1' : agree cells s1 s2 -> adv F pick tc measured s1 calls s1' ->
  exists s2', adv F pick tc measured s2 calls s2' /\ agree cells s1' s2' /\ sm_dt s1' = sm_dt s2' /\ sm_updated s1' = sm_updated s2' /\ sm_courant s1' = sm_courant s2'.
Proof.
  intros (v & Lv & W1 & W2 & E1 & E2 & Ht & Hn & Hd) H. destruct H as [v0 calls t' n' v' u' Ev Hsolve Eu].
  rewrite E1 in Ev. injection Ev as <-.
  pose proof (solve_length _ _ _ _ _ _ Hsolve) as Lv'. cbn [snd] in Lv'. rewrite Lv in Lv'.
  destruct (natural_global (sm_num s1) cells v' (proj1 W1) Lv') as (u1 & En1 & Lu1 & Eg1). rewrite Eu in En1. injection En1 as <-.
  destruct (natural_global (sm_num s2) cells v' (proj1 W2) Lv') as (u2 & En2 & Lu2 & Eg2).
  eexists. split; [|split; [|split; [|split]]].
  - econstructor; [exact E2| |exact En2]. rewrite <- Ht, <- Hn, <- Hd. exact Hsolve.
  - exists v'. repeat split; cbn [sm_num sm_u sm_time sm_step]; auto; try apply W1; try apply W2.
    rewrite Hd. reflexivity.
  - exact Hd.
  - reflexivity.
  - reflexivity.
Qed.
Lemma agree_advs cells cs : forall s1 s2 s1', agree cells s1 s2 -> advs F pick tc cs s1 s1' -> exists s2', advs F pick tc cs s2 s2' /\ agree cells s1' s2'.
Proof.
  induction cs as [|c cs IH]; intros s1 s2 s1' A H; inversion H as [|? ? ? calls s1m ? Hadv Hrest]; subst.
  - exists s2. split; [constructor|exact A].
  - destruct (agree_adv cells c s1 s2 calls s1m A Hadv) as (s2m & Hadv2 & Am & _).
    destruct (IH s1m s2m s1' Am Hrest) as (s2' & Hr2 & A'). exists s2'. split; [econstructor; eauto|exact A'].
Qed.
Lemma solve_head dt T N x calls r : solve F pick dt T N x calls r -> exists rest, calls = x :: rest.
Proof. destruct 1; eauto. Qed.
Lemma solve_last dt T N x calls r : solve F pick dt T N x calls r -> exists front, calls = front ++ [r].
Proof. induction 1; [now exists []|now exists []|]. destruct IHsolve as [front ->]. now exists ((t, n, v) :: front). Qed.
Lemma restored_state cells c s2 : length (ck_solution c) = cells -> restored cells c s2 ->
  well_formed s2 cells /\ GlobalToNatural (sm_num s2) (sm_u s2) = Some (ck_solution c) /\ sm_time s2 = ck_t c /\ sm_step s2 = ck_step c /\ sm_dt s2 = ck_dt c /\ sm_updated s2 = false.
Proof.
  intros Lc (filename & fresh & Wf & Hr & Hu & Hname & E).
  destruct (read_ckpt filename fresh c cells Wf Hr Hname Lc) as (u & E' & Lu & G). rewrite E in E'. injection E' as ->.
  cbn [sm_num sm_u sm_time sm_step sm_dt sm_updated]. repeat split; auto. exact (proj1 Wf).
Qed.
Lemma agree_same cells s1 s2 : agree cells s1 s2 -> same_solution s1 s2 /\ sm_time s1 = sm_time s2 /\ sm_step s1 = sm_step s2.
Proof. intros (v & Lv & W1 & W2 & E1 & E2 & Ht & Hn & _). split; [now apply (same_natural s1 s2 cells v)|auto]. Qed.
End Continue.

(* A checkpoint saved by the first call of the monitor in a coupling interval: the restarted simulation goes through the same times, steps
   and solutions in that interval and all later ones, with any numbering of the cells, and with adaptive steps too. *)
Theorem C40_continues_from_start_of_interval_partial : forall F pick tc cells fmt measured s calls s1 cs s',
  (forall t h v, length (F t h v) = length v) -> well_formed s cells ->
  adv F pick tc measured s calls s1 -> advs F pick tc cs s1 s' ->
  exists x rest, calls = x :: rest /\ forall s2, restored cells (ckpt_at fmt tc s x) s2 ->
    exists s2', advs F pick tc (measured :: cs) s2 s2' /\ same_solution s' s2' /\ sm_time s' = sm_time s2' /\ sm_step s' = sm_step s2'.
Proof.
  intros F pick tc cells fmt measured s calls s1 cs s' HF W Hadv Hrest.
  assert (Hc : exists v rest, GlobalToNatural (sm_num s) (sm_u s) = Some v /\ calls = (sm_time s, sm_step s, v) :: rest).
  { destruct Hadv as [v calls t' n' v' u' Ev Hs Eu]. destruct (solve_head _ _ _ _ _ _ _ _ Hs) as [rest ->]. eauto. }
  destruct Hc as (v & rest & Ev & ->). eexists. eexists. split; [reflexivity|]. intros s2 Hr.
  destruct (to_natural (sm_num s) cells (sm_u s) (proj1 W) (proj2 W)) as (v0 & Ev0 & Lv & _). rewrite Ev in Ev0. injection Ev0 as <-.
  destruct (restored_state cells (ckpt_at fmt tc s (sm_time s, sm_step s, v)) s2 Lv Hr) as (W2 & E2 & Ht & Hn & Hd & Hu). cbn [ckpt_at ck_solution ck_t ck_step ck_dt] in *.
  assert (A : agree tc cells s s2).
  { exists v. repeat split; auto; try apply W; try apply W2. unfold chosen_dt at 2. rewrite Hu, andb_false_r. now rewrite Hd. }
  destruct (agree_advs F pick tc HF cells (measured :: cs) s s2 s' A) as (s2' & H2 & A').
  - econstructor; eauto.
  - exists s2'. split; [exact H2|]. now apply (agree_same tc cells).
Qed.
Print Assumptions C40_continues_from_start_of_interval_partial.
(* Without adaptive steps the same holds for a checkpoint saved by the last call of an interval. *)
Theorem C40_continues_from_end_of_interval_partial : forall F pick tc cells fmt measured s calls s1 cs s',
  (forall t h v, length (F t h v) = length v) -> well_formed s cells -> tc_adaptive tc = false ->
  adv F pick tc measured s calls s1 -> advs F pick tc cs s1 s' ->
  exists front x, calls = front ++ [x] /\ forall s2, restored cells (ckpt_at fmt tc s x) s2 ->
    exists s2', advs F pick tc cs s2 s2' /\ same_solution s' s2' /\ sm_time s' = sm_time s2' /\ sm_step s' = sm_step s2'.
Proof.
  intros F pick tc cells fmt measured s calls s1 cs s' HF W Had Hadv Hrest.
  destruct Hadv as [v calls t' n' v' u' Ev Hs Eu].
  assert (Hl : exists front, calls = front ++ [(t', n', v')]).
  { exact (solve_last _ _ _ _ _ _ _ _ Hs). }
  destruct Hl as [front ->]. exists front, (t', n', v'). split; [reflexivity|]. intros s2 Hr.
  destruct (to_natural (sm_num s) cells (sm_u s) (proj1 W) (proj2 W)) as (v0 & Ev0 & Lv & _). rewrite Ev in Ev0. injection Ev0 as <-.
  pose proof (solve_length F pick HF _ _ _ _ _ _ Hs) as Lv'. cbn [snd] in Lv'. rewrite Lv in Lv'.
  destruct (restored_state cells (ckpt_at fmt tc s (t', n', v')) s2 Lv' Hr) as (W2 & E2 & Ht & Hn & Hd & Hu). cbn [ckpt_at ck_solution ck_t ck_step ck_dt] in *.
  destruct (natural_global (sm_num s) cells v' (proj1 W) Lv') as (u1 & En1 & Lu1 & Eg1). rewrite Eu in En1. injection En1 as <-.
  match type of Hrest with advs _ _ _ _ ?x _ => set (s1 := x) in * end.
  assert (A : agree tc cells s1 s2).
  { exists v'. repeat split; auto; try apply W; try apply W2. unfold chosen_dt. rewrite Had. cbn [andb]. rewrite Hd. reflexivity. }
  destruct (agree_advs F pick tc HF cells cs s1 s2 s' A Hrest) as (s2' & H2 & A').
  exists s2'. split; [exact H2|]. now apply (agree_same tc cells).
Qed.
Print Assumptions C40_continues_from_end_of_interval_partial.

(** ** Where it fails *)
Definition one (t : R) (n : nat) (dt courant : R) (updated : bool) : sim := Sim 1 [0] [[1%R]] t n dt courant updated (-1)%Z 0.
Lemma one_wf t n dt c u : well_formed (one t n dt c u) 1.
Proof. split; [apply Permutation_refl|reflexivity]. Qed.
Definition still : R -> R -> solution -> solution := fun _ _ v => v.
Definition tc10 (adaptive : bool) : time_config := TimeConfig SECONDS 20 4 10 adaptive 1 2.
(* A checkpoint in the middle of a coupling interval (10 s, steps of 5 s): the uninterrupted run exchanges data at 10 s, the restarted one at 15 s. *)
Theorem C40_middle_of_interval_refuted : exists s x rest1 calls s1 s2 calls2 s2',
  well_formed s 1 /\ adv still petsc_pick (tc10 false) 0 s (x :: calls) s1 /\ calls = (5%R, 1, [[1%R]]) :: rest1 /\ sm_time s1 = 10%R /\
  restored 1 (ckpt_at NATIVE (tc10 false) s (5%R, 1, [[1%R]])) s2 /\ adv still petsc_pick (tc10 false) 0 s2 calls2 s2' /\ sm_time s2' = 15%R.
Proof.
  assert (P5 : forall r, (r = 5 \/ r = 10)%R -> petsc_pick 5 r = 5%R).
  { intros r Hr. unfold petsc_pick, Rleb, Rltb. destruct (Rle_dec r (5 * (101 / 100))) as [H|H]; [lra|]. destruct (Rlt_dec r (2 * 5)) as [H1|H1]; lra. }
  assert (S : forall t n, n < 3 -> solve still petsc_pick 5 (t + 10) (Some 4) (t, n, [[1%R]]) [(t, n, [[1%R]]); ((t + 5)%R, S n, [[1%R]]); ((t + 10)%R, S (S n), [[1%R]])] ((t + 10)%R, S (S n), [[1%R]])).
  { intros t n Hn. apply Visit_step; [lra|intros k E; injection E as <-; lia|].
    replace (t + 10 - t)%R with 10%R by ring. rewrite P5 by (now right). repeat match goal with |- context [still ?a ?b ?c] => change (still a b c) with c end.
    apply Visit_step; [lra|intros k E; injection E as <-; lia|].
    replace (t + 10 - (t + 5))%R with 5%R by ring. rewrite P5 by (now left). repeat match goal with |- context [still ?a ?b ?c] => change (still a b c) with c end.
    replace (t + 5 + 5)%R with (t + 10)%R by ring. apply Visit_time. lra. }
  exists (one 0 0 5 0 false). do 3 eexists. exists (one 10 2 5 0 false). exists (Sim 1 [0] [[1%R]] 5 1 5 0 false 1%Z 0). do 2 eexists.
  split; [apply one_wf|]. split; [|split; [|split; [|split; [|split]]]].
  - pose proof (S 0%R 0 ltac:(lia)) as S0. replace (0 + 5)%R with 5%R in S0 by ring. replace (0 + 10)%R with 10%R in S0 by ring.
    refine (Adv still petsc_pick (tc10 false) 0 (one 0 0 5 0 false) [[1%R]] _ 10%R 2 [[1%R]] [[1%R]] eq_refl _ eq_refl).
    cbn [one sm_time sm_step chosen_dt tc10 tc_adaptive tc_coupling tc_unit andb sm_dt ConvertTimeToSeconds step_limit tc_stop_n].
    replace (0 + 10)%R with 10%R by ring. exact S0.
  - reflexivity.
  - reflexivity.
  - exists "a.bin"%string, (one 0 0 5 0 false). repeat split; try reflexivity. apply one_wf.
  - refine (Adv still petsc_pick (tc10 false) 0 (Sim 1 [0] [[1%R]] 5 1 5 0 false 1%Z 0) [[1%R]] _ (5 + 10)%R 3 [[1%R]] [[1%R]] eq_refl _ eq_refl).
    cbn [sm_time sm_step chosen_dt tc10 tc_adaptive tc_coupling tc_unit andb sm_dt ConvertTimeToSeconds step_limit tc_stop_n sm_updated].
    exact (S 5%R 1 ltac:(lia)).
  - cbn. ring.
Qed.
Print Assumptions C40_middle_of_interval_refuted.
(* Adaptive steps, checkpoint saved by the last call of an interval: the diagnostics are not saved, so the restarted run goes on with 1 s where
   the uninterrupted one doubles the step. *)
Theorem C40_adaptive_refuted : exists s1 s2 c, well_formed s1 1 /\ c = Ckpt NATIVE 1 (sm_time s1) (sm_dt s1) (sm_step s1) [[1%R]] /\ WriteCheckpointFile NATIVE s1 = Some c /\
  restored 1 c s2 /\ chosen_dt (tc10 true) s1 = 2%R /\ chosen_dt (tc10 true) s2 = 1%R.
Proof.
  exists (one 10 2 1 (1 / 2) true). exists (Sim 1 [0] [[1%R]] 10 2 1 0 false 2%Z 0). eexists. split; [apply one_wf|]. split; [reflexivity|]. split; [reflexivity|]. split.
  - exists "a.bin"%string, (one 0 0 1 0 false). repeat split; try reflexivity. apply one_wf.
  - split; [|reflexivity]. unfold chosen_dt. cbn [tc10 tc_adaptive sm_updated one andb tc_target tc_max_factor sm_dt sm_courant tc_coupling tc_unit ConvertTimeToSeconds].
    unfold adapt_dt, increase_factor. unfold Rltb. destruct (Rlt_dec (1 / 2) 1) as [_|H]; [|lra]. destruct (Req_EM_T (1 / 2) 0) as [H|_]; [lra|].
    rewrite Rmin_left by lra. destruct (Rlt_dec 10 (1 * (1 / (1 / 2)))) as [H|_]; [lra|]. field.
Qed.
Print Assumptions C40_adaptive_refuted.
(* the number of processes is overwritten by that of the run that saved the checkpoint (it sizes the arrays of MPI_Gatherv, time_series.c:38, 343) *)
Theorem C40_nproc_refuted : exists s fresh c s', well_formed s 2 /\ well_formed fresh 2 /\ WriteCheckpointFile HDF5 s = Some c /\
  sm_nproc fresh = 2 /\ ReadCheckpointFile "a.h5" false fresh c = Ret s' /\ sm_nproc s' = 1.
Proof.
  exists (Sim 1 [0; 1] [[10%R]; [11%R]] 5 1 5 0 false (-1)%Z 0), (Sim 2 [1; 0] [[0%R]; [0%R]] 0 0 5 0 false (-1)%Z 0). do 2 eexists.
  repeat split; try reflexivity; cbn; [apply Permutation_refl|]. apply perm_swap.
Qed.
Print Assumptions C40_nproc_refuted.
(* after refinement the solution is stored in global order, and a new process reads it as natural order: the cells exchange their values *)
Theorem C40_refined_refuted : exists s fresh c s', well_formed s 2 /\ well_formed fresh 2 /\ sm_refinements s = 1 /\ sm_refinements fresh = 0 /\
  WriteCheckpointFile HDF5 s = Some c /\ ReadCheckpointFile "a.h5" false fresh c = Ret s' /\ cell_values (sm_num s) (sm_u s) 0 [10%R] /\ cell_values (sm_num s') (sm_u s') 0 [11%R].
Proof.
  exists (Sim 2 [1; 0] [[11%R]; [10%R]] 5 1 5 0 false (-1)%Z 1), (Sim 2 [1; 0] [[0%R]; [0%R]] 0 0 5 0 false (-1)%Z 0). do 2 eexists.
  split; [split; [apply perm_swap|reflexivity]|]. split; [split; [apply perm_swap|reflexivity]|]. split; [reflexivity|]. split; [reflexivity|]. split; [reflexivity|].
  split; [reflexivity|]. split; exists 1; split; reflexivity.
Qed.
Print Assumptions C40_refined_refuted.
(* the format is guessed from any part of the name: an HDF5 checkpoint of a case called "river.bins" and a binary one of "run.h5new" cannot be read *)
Theorem C40_name_refuted : exists n1 n2, ckpt_name "checkpoints" "river.bins" 100 HDF5 5 = Ret n1 /\ ckpt_name "checkpoints" "run.h5new" 100 NATIVE 5 = Ret n2 /\
  (forall r s c, ck_format c = HDF5 -> ReadCheckpointFile n1 r s c = Error) /\ (forall r s c, ck_format c = NATIVE -> ReadCheckpointFile n2 r s c = Error).
Proof.
  exists "checkpoints/river.bins.rdycore.r.005.h5"%string, "checkpoints/run.h5new.rdycore.r.005.bin"%string.
  split; [vm_compute; reflexivity|]. split; [vm_compute; reflexivity|]. split; intros r s c E; unfold ReadCheckpointFile.
  - replace (strstr "checkpoints/river.bins.rdycore.r.005.h5" ".bin") with true by reflexivity. cbn [rbind]. now rewrite E.
  - replace (strstr "checkpoints/run.h5new.rdycore.r.005.bin" ".bin") with true by reflexivity. cbn [rbind]. rewrite E. cbn [rbind].
    replace (strstr "checkpoints/run.h5new.rdycore.r.005.bin" ".h5") with true by reflexivity. reflexivity.
Qed.
Print Assumptions C40_name_refuted.
(* a run continued at a later step writes no time series; one restarted with reinitialize sets up its output twice *)
Theorem C40_monitors_refuted :
  (forall step, step <> 0 -> monitors_set step true (Z.of_nat step) false = [OutputViewer]) /\
  monitors_set 0 false (-1) false = [OutputViewer; TimeSeries] /\ monitors_set 0 true 0 false = [OutputViewer; TimeSeries; OutputViewer].
Proof.
  split; [|split; reflexivity]. intros step H. unfold monitors_set. rewrite (proj2 (Nat.eqb_neq step 0) H), Z.eqb_refl. reflexivity.
Qed.
Print Assumptions C40_monitors_refuted.
(* an advance sets up the output at the first step, at the step a restarted run begins with and after a refinement, and
   only then; it sets up the time series at the first step only *)
Theorem C40_monitors_set : forall step is_restart restart_step refined,
  (In OutputViewer (monitors_set step is_restart restart_step refined) <-> step = 0 \/ (is_restart = true /\ restart_step = Z.of_nat step) \/ refined = true) /\
  (In TimeSeries (monitors_set step is_restart restart_step refined) <-> step = 0).
Proof.
  intros step is_restart restart_step refined. unfold monitors_set. rewrite !in_app_iff. split.
  - assert (A : In OutputViewer (if Nat.eqb step 0 then [OutputViewer; TimeSeries] else []) <-> step = 0).
    { destruct (Nat.eqb_spec step 0) as [E|N]; cbn; [tauto|]. split; [tauto|congruence]. }
    assert (B : In OutputViewer (if (is_restart && Z.eqb restart_step (Z.of_nat step))%bool then [OutputViewer] else []) <-> is_restart = true /\ restart_step = Z.of_nat step).
    { rewrite <- (Z.eqb_eq restart_step), <- Bool.andb_true_iff. destruct (_ && _)%bool; cbn; [tauto|]. split; [tauto|discriminate]. }
    assert (C : In OutputViewer (if refined then [OutputViewer] else []) <-> refined = true) by (destruct refined; cbn; [tauto|split; [tauto|discriminate]]).
    now rewrite A, B, C.
  - assert (A : In TimeSeries (if Nat.eqb step 0 then [OutputViewer; TimeSeries] else []) <-> step = 0).
    { destruct (Nat.eqb_spec step 0) as [E|N]; cbn; [tauto|]. split; [tauto|congruence]. }
    rewrite A. destruct (_ && _)%bool, refined; cbn; intuition discriminate.
Qed.
Print Assumptions C40_monitors_set.
(* members of an ensemble write their checkpoints to different directories, and to others than a single run *)
Theorem C40_member_directories : forall m m', ckpt_dir (Some m) <> ckpt_dir None /\ (ckpt_dir (Some m) = ckpt_dir (Some m') -> m = m').
Proof. intros m m'. split; [discriminate|]. intros E. cbn in E. now injection E as <-. Qed.
Print Assumptions C40_member_directories.

Example C40_example_restores : let s := Sim 2 [2; 0; 1] [[12%R]; [10%R]; [11%R]] 5 1 5 0 false (-1)%Z 0 in let fresh := Sim 1 [0; 1; 2] [[]; []; []] 0 0 5 0 false (-1)%Z 0 in
  well_formed s 3 /\ well_formed fresh 3 /\ readable_name HDF5 "checkpoints/dam.rdycore.r.005.h5" /\ readable_name NATIVE "checkpoints/dam.rdycore.r.005.bin" /\
  option_map ck_solution (WriteCheckpointFile HDF5 s) = Some [[10%R]; [11%R]; [12%R]].
Proof.
  cbv zeta. repeat split; try reflexivity; cbn [sm_num seq]; unfold numbers_cells; cbn [seq].
  - apply (Permutation_app_comm [2] [0; 1]).
  - apply Permutation_refl.
Qed.
Example C40_example_names : (Z.of_nat (String.length "checkpoints" + String.length "dam" + String.length (dec (Z.to_nat 100)) + String.length (dec 5) + String.length (dec 10)) < 4000)%Z.
Proof. vm_compute. reflexivity. Qed.
Example C40_example_crash : let c k := Ckpt HDF5 1 (INR k) 1 k [] in last_call 2 [(0, c 0); (1, c 1); (2, c 2); (2, c 2); (3, c 3); (4, c 4)] = Some (c 2).
Proof. reflexivity. Qed.
