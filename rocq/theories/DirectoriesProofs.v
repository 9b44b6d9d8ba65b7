(* Invariant of the creation of directories, over all schedules *)
From Coq Require Import List Arith ZArith Bool String Lia.
From Verif Require Import DirectoriesModel DirectoriesSpec.
Import ListNotations.
Local Open Scope nat_scope.
Local Notation length := List.length.

(* ---- lists ---- *)
Lemma nth_app_some {A} (l l' : list A) i x : nth_error l i = Some x -> nth_error (l ++ l') i = Some x.
Proof. intros H. rewrite nth_error_app1; [exact H|]. apply nth_error_Some. congruence. Qed.
Lemma nth_snoc {A} (l : list A) y i x : nth_error (l ++ [y]) i = Some x -> nth_error l i = Some x \/ (i = length l /\ x = y).
Proof.
  intros H. destruct (Nat.lt_ge_cases i (length l)) as [L|L]; [left; rewrite nth_error_app1 in H by exact L; exact H|].
  rewrite nth_error_app2 in H by exact L. right. destruct (i - length l) as [|k] eqn:E.
  - cbn in H. injection H as <-. split; [lia|reflexivity].
  - cbn in H. destruct k; discriminate.
Qed.
Lemma skipn_cons {A} (l : list A) i x : nth_error l i = Some x -> skipn i l = x :: skipn (S i) l.
Proof. revert i. induction l as [|a l IH]; intros [|i] H; try discriminate; cbn in *; [congruence|apply IH; exact H]. Qed.
Lemma skipn_step {A} (l : list A) j x t : skipn j l = x :: t -> t = skipn (S j) l /\ nth_error l j = Some x.
Proof.
  revert j. induction l as [|a l IH]; intros [|j] H; try discriminate; cbn in H |- *; [injection H as <- <-; split; reflexivity|].
  apply IH. exact H.
Qed.

(* ---- files ---- *)
Definition grows (f f' : files) : Prop := forall q, f q <> None -> f' q <> None.
Lemma grows_refl f : grows f f.
Proof. intros q H. exact H. Qed.
Lemma put_grows f p k : grows f (put f p k).
Proof. intros q H. unfold put. destruct (path_dec q p); [discriminate|exact H]. Qed.
Lemma mkdir_grows denied f p : grows f (fst (mkdir denied f p)).
Proof.
  unfold mkdir. destruct (walk f [] p); try apply grows_refl. destruct (f p); [apply grows_refl|].
  destruct (denied p); [apply grows_refl|apply put_grows].
Qed.
Lemma open_grows denied f p : grows f (fst (open_file denied f p)).
Proof.
  unfold open_file. destruct (walk f [] p); try apply grows_refl. destruct (f p) as [[]|]; try apply grows_refl;
    destruct (denied p); try apply grows_refl; apply put_grows.
Qed.
Lemma walk_never f p : forall q, walk f q p <> EEXIST.
Proof. induction p as [|x p IH]; intros q; cbn; [discriminate|]. destruct (f q) as [[]|]; [apply IH|discriminate|discriminate]. Qed.
Lemma mkdir_accepted denied f p : accepted (snd (mkdir denied f p)) = true -> fst (mkdir denied f p) p <> None.
Proof.
  unfold mkdir. pose proof (walk_never f p []) as W. destruct (walk f [] p); try discriminate; [|congruence].
  destruct (f p) as [k|] eqn:E; [cbn; congruence|].
  destruct (denied p); [discriminate|]. intros _. cbn. unfold put. destruct (path_dec p p); [discriminate|congruence].
Qed.

(* ---- communicators ---- *)
Lemma first_in cfg c : members cfg c <> [] -> In (first cfg c) (members cfg c).
Proof. unfold first. destruct (members cfg c); [congruence|]. intros _. left. reflexivity. Qed.
Lemma in_global cfg p : p < nproc cfg -> In p (members cfg Global).
Proof. intros H. apply in_seq. lia. Qed.
Lemma in_own cfg p : p < nproc cfg -> In p (members cfg (Own (member_of cfg p))).
Proof. intros H. apply filter_In. split; [apply in_seq; lia|apply Nat.eqb_refl]. Qed.
Lemma first_global cfg p : p < nproc cfg -> first cfg Global < nproc cfg.
Proof.
  intros H. pose proof (first_in cfg Global) as F. assert (N : members cfg Global <> []) by (intros E; pose proof (in_global cfg p H) as I; rewrite E in I; exact I).
  specialize (F N). apply in_seq in F. lia.
Qed.
Lemma first_own cfg p : p < nproc cfg -> first cfg (Own (member_of cfg p)) < nproc cfg /\ member_of cfg (first cfg (Own (member_of cfg p))) = member_of cfg p.
Proof.
  intros H. pose proof (first_in cfg (Own (member_of cfg p))) as F.
  assert (N : members cfg (Own (member_of cfg p)) <> []) by (intros E; pose proof (in_own cfg p H) as I; rewrite E in I; exact I).
  specialize (F N). apply filter_In in F. destruct F as [F1 F2]. apply in_seq in F1. apply Nat.eqb_eq in F2. split; [lia|exact F2].
Qed.
Lemma own_dir_same cfg p q d : member_of cfg p = member_of cfg q -> own_dir cfg p d = own_dir cfg q d.
Proof. unfold own_dir. intros ->. reflexivity. Qed.

(* ---- positions ---- *)
Definition ops8 cfg p d : list op :=
  CreateDirectory Global d ++ CreateDirectory (Own (member_of cfg p)) (own_dir cfg p d) ++ [EnterBarrier Global; LeaveBarrier Global].
Definition st cfg := if ensemble cfg then 0 else 3.
Definition g cfg := if ensemble cfg then 1 else 0.
Lemma create_ops cfg p d : CreateOutputDirectory cfg p d = skipn (st cfg) (ops8 cfg p d).
Proof. unfold CreateOutputDirectory, st, ops8. destruct (ensemble cfg); reflexivity. Qed.

Definition later cfg p i : list op := flat_map (CreateOutputDirectory cfg p) (skipn (S i) (dirs cfg)) ++ map Open (opens cfg p).
(* the process is at operation [k] of directory [i], or past all of them *)
Inductive at_pos (cfg : setup) (p : nat) (t : list op) : nat -> nat -> Prop :=
  | at_dir i k d : nth_error (dirs cfg) i = Some d -> st cfg <= k < 8 -> t = skipn k (ops8 cfg p d) ++ later cfg p i -> at_pos cfg p t i k
  | at_open j : t = map Open (skipn j (opens cfg p)) -> at_pos cfg p t (length (dirs cfg)) (st cfg).
Lemma at_next cfg p i d : nth_error (dirs cfg) i = Some d -> at_pos cfg p (later cfg p i) (S i) (st cfg).
Proof.
  intros E. unfold later. destruct (nth_error (dirs cfg) (S i)) as [d'|] eqn:E'.
  - apply at_dir with (d := d'); [exact E'|unfold st; destruct (ensemble cfg); lia|].
    rewrite (skipn_cons _ _ _ E'). cbn [flat_map]. rewrite create_ops. unfold later. rewrite <- app_assoc. reflexivity.
  - apply nth_error_None in E'. assert (i < length (dirs cfg)) by (apply nth_error_Some; congruence).
    replace (S i) with (length (dirs cfg)) at 2 by lia. rewrite skipn_all2 by lia. apply at_open with (j := 0). reflexivity.
Qed.
Lemma at_start cfg p : at_pos cfg p (program cfg p) 0 (st cfg).
Proof.
  unfold program. destruct (dirs cfg) as [|d l] eqn:E.
  - replace 0 with (length (dirs cfg)) by (rewrite E; reflexivity). apply at_open with (j := 0). reflexivity.
  - apply at_dir with (d := d); [rewrite E; reflexivity|unfold st; destruct (ensemble cfg); lia|].
    unfold later. rewrite E. cbn [flat_map skipn]. rewrite create_ops, <- app_assoc. reflexivity.
Qed.

Definition calls_global cfg i k := i * (g cfg + 1) + (if k <? 2 then 0 else if k <? 7 then g cfg else g cfg + 1).
Definition calls_own i k := i + (if k <? 5 then 0 else 1).

Definition got (sent : comm -> list (option answer)) c n a := nth_error (sent c) n = Some (Some a).
Definition backed (f : files) (d : path) (a : answer) := accepted a = true -> f d <> None.

Record at_work (cfg : setup) (f : files) (sn : comm -> list (option answer)) (p : nat) (x : proc) (i k : nat) : Prop := AtWork {
  w_pos : at_pos cfg p (todo x) i k;
  w_global : calls x Global = calls_global cfg i k;
  w_own : calls x (Own (member_of cfg p)) = calls_own i k;
  w_1 : k = 1 -> p = first cfg Global -> forall d, nth_error (dirs cfg) i = Some d -> backed f d (buf x);
  w_2 : k = 2 -> got sn Global (i * (g cfg + 1)) (buf x);
  w_4 : k = 4 -> p = first cfg (Own (member_of cfg p)) -> forall d, nth_error (dirs cfg) i = Some d -> backed f (own_dir cfg p d) (buf x);
  w_5 : k = 5 -> got sn (Own (member_of cfg p)) i (buf x);
  w_pg : forall j, j < i \/ (j = i /\ 3 <= k /\ i < length (dirs cfg)) -> ensemble cfg = true -> exists a, got sn Global (j * (g cfg + 1)) a /\ accepted a = true;
  w_po : forall j, j < i \/ (j = i /\ 6 <= k) -> exists a, got sn (Own (member_of cfg p)) j a /\ accepted a = true;
  w_all : forall j d q, j < i -> nth_error (dirs cfg) j = Some d -> q < nproc cfg -> f (own_dir cfg q d) <> None;
  w_stat : match stat x with
           | Running => True
           | NoDirectory d' => accepted (buf x) = false /\
               exists d, nth_error (dirs cfg) i = Some d /\ ((k = 2 /\ d' = d) \/ (k = 5 /\ d' = own_dir cfg p d))
           | NoFile _ => i = length (dirs cfg)
           | Mismatch => False
           end;
}.

Record good (cfg : setup) (s : state) : Prop := Good {
  g_proc : forall p, p < nproc cfg -> exists i k, at_work cfg (fs s) (sent s) p (procs s p) i k;
  g_lenG : length (sent s Global) = calls (procs s (first cfg Global)) Global;
  g_lenO : forall p, p < nproc cfg -> length (sent s (Own (member_of cfg p))) = calls (procs s (first cfg (Own (member_of cfg p)))) (Own (member_of cfg p));
  g_G : ensemble cfg = true -> forall j m, nth_error (sent s Global) (j * (g cfg + 1)) = Some m ->
        exists a d, m = Some a /\ nth_error (dirs cfg) j = Some d /\ backed (fs s) d a;
  g_O : forall p, p < nproc cfg -> forall j m, nth_error (sent s (Own (member_of cfg p))) j = Some m ->
        exists a d, m = Some a /\ nth_error (dirs cfg) j = Some d /\ backed (fs s) (own_dir cfg p d) a;
}.

(* what other processes do leaves the facts about a process *)
Lemma at_work_mono cfg f sn f' sn' p x i k : grows f f' -> (forall c n m, nth_error (sn c) n = Some m -> nth_error (sn' c) n = Some m) ->
  at_work cfg f sn p x i k -> at_work cfg f' sn' p x i k.
Proof.
  intros F N [P G O W1 W2 W4 W5 PG PO A S]. split; try assumption.
  - intros K E d D B. apply F. apply (W1 K E d D B).
  - intros K. apply N. apply W2. exact K.
  - intros K E d D B. apply F. apply (W4 K E d D B).
  - intros K. apply N. apply W5. exact K.
  - intros j J E. destruct (PG j J E) as (a & A1 & A2). exists a. split; [apply N; exact A1|exact A2].
  - intros j J. destruct (PO j J) as (a & A1 & A2). exists a. split; [apply N; exact A1|exact A2].
  - intros j d q J D Q. apply F. apply (A j d q J D Q).
Qed.

Lemma good_start cfg f : good cfg (start cfg f).
Proof.
  split; cbn [start fs procs sent].
  - intros p Hp. exists 0, (st cfg). split; cbn [todo buf calls stat].
    + apply at_start.
    + unfold calls_global, st, g. destruct (ensemble cfg); reflexivity.
    + unfold calls_own, st. destruct (ensemble cfg); reflexivity.
    + unfold st. destruct (ensemble cfg); lia.
    + unfold st. destruct (ensemble cfg); lia.
    + unfold st. destruct (ensemble cfg); lia.
    + unfold st. destruct (ensemble cfg); lia.
    + intros j [J|(J & K & _)] E; [lia|]. unfold st in K. rewrite E in K. lia.
    + intros j [J|(J & K)]; [lia|]. unfold st in K. destruct (ensemble cfg); lia.
    + intros j d q J. lia.
    + exact I.
  - reflexivity.
  - reflexivity.
  - intros _ j m H. destruct (j * (g cfg + 1)); discriminate.
  - intros p _ j m H. destruct j; discriminate.
Qed.

(* ---- updates of one process ---- *)
Definition extends (sn sn' : comm -> list (option answer)) := forall c n m, nth_error (sn c) n = Some m -> nth_error (sn' c) n = Some m.
Lemma extends_refl sn : extends sn sn.
Proof. intros c n m H. exact H. Qed.
Lemma extends_post sn c m : extends sn (post sn c m).
Proof. intros d n a H. unfold post. destruct (comm_dec d c); [apply nth_app_some|]; exact H. Qed.

Lemma upd_same s p x : upd_proc s p x p = x.
Proof. unfold upd_proc. rewrite Nat.eqb_refl. reflexivity. Qed.
Lemma upd_other s p x q : q <> p -> upd_proc s p x q = procs s q.
Proof. intros H. unfold upd_proc. destruct (Nat.eqb_spec q p); [congruence|reflexivity]. Qed.

Lemma procs_upd cfg s f' sn' p x' : good cfg s -> p < nproc cfg -> grows (fs s) f' -> extends (sent s) sn' ->
  (exists i k, at_work cfg f' sn' p x' i k) ->
  forall q, q < nproc cfg -> exists i k, at_work cfg f' sn' q (upd_proc s p x' q) i k.
Proof.
  intros H Hp F N W q Hq. destruct (Nat.eq_dec q p) as [->|E]; [rewrite upd_same; exact W|].
  rewrite (upd_other _ _ _ _ E). destruct (g_proc _ _ H q Hq) as (i & k & V). exists i, k. apply (at_work_mono _ _ _ _ _ _ _ _ _ F N V).
Qed.

(* nothing is sent, and no call is counted at the first process of a communicator *)
Lemma good_quiet cfg s f' p x' : good cfg s -> p < nproc cfg -> grows (fs s) f' ->
  (forall c, p = first cfg c -> calls x' c = calls (procs s p) c) ->
  (exists i k, at_work cfg f' (sent s) p x' i k) -> good cfg (State f' (upd_proc s p x') (sent s)).
Proof.
  intros H Hp F C W. pose proof (procs_upd cfg s f' (sent s) p x' H Hp F (extends_refl _) W) as PU.
  assert (L : forall c, calls (upd_proc s p x' (first cfg c)) c = calls (procs s (first cfg c)) c).
  { intros c. destruct (Nat.eq_dec (first cfg c) p) as [E|E]; [rewrite E, upd_same; apply C; congruence|rewrite (upd_other _ _ _ _ E); reflexivity]. }
  split; cbn [fs procs sent]; [exact PU|rewrite L; apply (g_lenG _ _ H)|intros q Hq; rewrite L; apply (g_lenO _ _ H q Hq)| |].
  - intros E j m M. destruct (g_G _ _ H E j m M) as (a & d & A & D & B). exists a, d. repeat split; try assumption. intros Ac. apply F. apply B. exact Ac.
  - intros q Hq j m M. destruct (g_O _ _ H q Hq j m M) as (a & d & A & D & B). exists a, d. repeat split; try assumption. intros Ac. apply F. apply B. exact Ac.
Qed.

(* the first process of a communicator contributes to a call *)
Lemma good_post cfg s p x' c m : good cfg s -> p < nproc cfg -> p = first cfg c -> c = Global \/ c = Own (member_of cfg p) ->
  calls x' = count_call (calls (procs s p)) c ->
  (exists i k, at_work cfg (fs s) (post (sent s) c m) p x' i k) ->
  (c = Global -> ensemble cfg = true -> forall j, length (sent s Global) = j * (g cfg + 1) ->
     exists a d, m = Some a /\ nth_error (dirs cfg) j = Some d /\ backed (fs s) d a) ->
  (c = Own (member_of cfg p) -> exists a d, m = Some a /\ nth_error (dirs cfg) (length (sent s c)) = Some d /\ backed (fs s) (own_dir cfg p d) a) ->
  good cfg (State (fs s) (upd_proc s p x') (post (sent s) c m)).
Proof.
  intros H Hp P C X W HG HO. pose proof (procs_upd cfg s (fs s) _ p x' H Hp (grows_refl _) (extends_post _ c m) W) as PU.
  assert (L : forall d, length (sent s d) = calls (procs s (first cfg d)) d -> length (post (sent s) c m d) = calls (upd_proc s p x' (first cfg d)) d).
  { intros d E. unfold post. destruct (comm_dec d c) as [->|N].
    - rewrite <- P, upd_same, X. unfold count_call. destruct (comm_dec c c); [|congruence]. rewrite app_length, E, <- P. cbn. lia.
    - destruct (Nat.eq_dec (first cfg d) p) as [F|F]; [|rewrite (upd_other _ _ _ _ F); exact E].
      rewrite F, upd_same, X. unfold count_call. destruct (comm_dec d c); [congruence|]. rewrite <- F. exact E. }
  split; cbn [fs procs sent]; [exact PU|apply L; apply (g_lenG _ _ H)|intros q Hq; apply L; apply (g_lenO _ _ H q Hq)| |].
  - intros E j mm M. unfold post in M. destruct (comm_dec Global c) as [<-|N].
    + apply nth_snoc in M. destruct M as [M|(J & ->)]; [apply (g_G _ _ H E j mm M)|]. apply (HG eq_refl E). symmetry. exact J.
    + apply (g_G _ _ H E j mm M).
  - intros q Hq j mm M. unfold post in M. destruct (comm_dec (Own (member_of cfg q)) c) as [<-|N].
    + apply nth_snoc in M. destruct M as [M|(J & ->)]; [apply (g_O _ _ H q Hq j mm M)|].
      destruct C as [C|C]; [discriminate|]. injection C as C. rewrite C in HO. rewrite C in J.
      destruct (HO eq_refl) as (a & d & A & D & B). exists a, d. rewrite J. split; [exact A|]. split; [exact D|].
      rewrite (own_dir_same cfg q p d C). exact B.
    + apply (g_O _ _ H q Hq j mm M).
Qed.

Lemma at_in cfg p i k d : nth_error (dirs cfg) i = Some d -> st cfg <= k < 7 -> at_pos cfg p (skipn (S k) (ops8 cfg p d) ++ later cfg p i) i (S k).
Proof. intros D K. apply at_dir with (d := d); [exact D|lia|reflexivity]. Qed.

Lemma good_step cfg denied p s s' : good cfg s -> step cfg denied p s = Some s' -> good cfg s'.
Proof.
  intros H E. unfold step in E. destruct (Nat.ltb_spec p (nproc cfg)) as [Hp|]; [|discriminate]. cbn [negb] in E.
  destruct (g_proc _ _ H p Hp) as (i & k & W). destruct (stat (procs s p)) eqn:Es; try discriminate.
  pose proof W as [P CG CO W1 W2 W4 W5 PG PO A _].
  destruct P as [i k d D K T|j T].
  2:{ rewrite T in E. destruct (skipn j (opens cfg p)) as [|f t] eqn:Ej; [discriminate|]. cbn [map] in E.
      destruct (skipn_step _ _ _ _ Ej) as [Et Ef].
      assert (N0 : st cfg <> 1 /\ st cfg <> 2 /\ st cfg <> 4 /\ st cfg <> 5) by (unfold st; destruct (ensemble cfg); lia).
      assert (Q : forall y f', grows (fs s) f' -> at_pos cfg p (todo y) (length (dirs cfg)) (st cfg) -> calls y = calls (procs s p) ->
                stat y = Running \/ (exists f, stat y = NoFile f) -> good cfg (State f' (upd_proc s p y) (sent s))).
      { intros y f' F Y C S. apply good_quiet; try assumption; [rewrite C; reflexivity|]. exists (length (dirs cfg)), (st cfg).
        apply (at_work_mono _ _ _ _ _ _ _ _ _ F (extends_refl (sent s))). split; try assumption; rewrite ?C; try assumption; try (intros; lia).
        destruct S as [S|(ff & S)]; rewrite S; [exact I|reflexivity]. }
      destruct (snd (open_file denied (fs s) f)) eqn:Eo; injection E as <-; unfold local; apply Q; cbn [todo calls stat];
        try apply open_grows; try apply grows_refl; try reflexivity; try (left; reflexivity); try (right; eexists; reflexivity);
        try (apply at_open with (j := j); rewrite Ej; reflexivity).
      rewrite Et. apply at_open with (j := S j). reflexivity. }
  assert (Hi : i < length (dirs cfg)) by (apply nth_error_Some; congruence).
  assert (N : k < 7 -> at_pos cfg p (skipn (S k) (ops8 cfg p d) ++ later cfg p i) i (S k)) by (intros ?; apply at_in; [exact D|lia]).
  rewrite T in E.
  assert (KK : k = 0 \/ k = 1 \/ k = 2 \/ k = 3 \/ k = 4 \/ k = 5 \/ k = 6 \/ k = 7) by lia.
  destruct KK as [-> | [-> | [-> | [-> | [-> | [-> | [-> | ->]]]]]]]; cbn [ops8 CreateDirectory app skipn] in E, N;
    try specialize (N ltac:(lia)).
  - (* mkdir of the shared directory *)
    destruct (Nat.eqb_spec p (first cfg Global)) as [F|F]; injection E as <-; unfold local.
    + apply good_quiet; [exact H|exact Hp|apply mkdir_grows|reflexivity|]. exists i, 1.
      apply (at_work_mono _ _ _ _ _ _ _ _ _ (mkdir_grows denied (fs s) d) (extends_refl (sent s))) in W.
      destruct W as [_ _ _ _ _ _ _ PG' PO' A' _].
      split; cbn [todo buf calls stat]; try exact N; try assumption; try (intros; lia); try exact I.
      * intros _ _ d' D'. rewrite D in D'. injection D' as <-. unfold backed. apply mkdir_accepted.
      * intros jj [J|J] En; [apply PG'; [left; exact J|exact En]|lia].
      * intros jj [J|J]; [apply PO'; left; exact J|lia].
    + apply good_quiet; [exact H|exact Hp|apply grows_refl|reflexivity|]. exists i, 1.
      split; cbn [todo buf calls stat]; try exact N; try assumption; try (intros; lia); try exact I; try (intros; congruence).
      * intros jj [J|J] En; [apply PG; [left; exact J|exact En]|lia].
      * intros jj [J|J]; [apply PO; left; exact J|lia].
  - (* broadcast to all *)
    assert (En : ensemble cfg = true) by (destruct (ensemble cfg) eqn:En; [reflexivity|unfold st in K; rewrite En in K; lia]).
    assert (G1 : g cfg = 1) by (unfold g; rewrite En; reflexivity).
    assert (CG' : calls (procs s p) Global = i * (g cfg + 1)) by (rewrite CG; unfold calls_global; cbn; lia).
    assert (NC : forall sn b, extends (sent s) sn -> got sn Global (i * (g cfg + 1)) b ->
       at_work cfg (fs s) sn p (Proc (Check d :: MkdirOnFirst (Own (member_of cfg p)) (own_dir cfg p d) :: Bcast (Own (member_of cfg p)) :: Check (own_dir cfg p d) :: EnterBarrier Global :: LeaveBarrier Global :: later cfg p i) b (count_call (calls (procs s p)) Global) Running) i 2).
    { intros sn b X Gt. apply (at_work_mono _ _ _ _ _ _ _ _ _ (grows_refl (fs s)) X) in W. destruct W as [_ _ _ _ _ _ _ PG' PO' A' _].
      split; cbn [todo buf calls stat]; try exact N; try assumption; try (intros; lia); try exact I.
      * unfold count_call. destruct (comm_dec Global Global); [|congruence]. rewrite CG'. unfold calls_global. cbn. lia.
      * intros _. exact Gt.
      * intros jj [J|J] _; [apply PG'; [left; exact J|exact En]|lia].
      * intros jj [J|J]; [apply PO'; left; exact J|lia]. }
    destruct (Nat.eqb_spec p (first cfg Global)) as [F|F].
    + injection E as <-. assert (LG : length (sent s Global) = i * (g cfg + 1)) by (rewrite (g_lenG _ _ H), <- F; exact CG').
      apply good_post; [exact H|exact Hp|exact F|left; reflexivity|reflexivity| | |discriminate].
      * exists i, 2. apply NC; [apply extends_post|]. unfold got, post. destruct (comm_dec Global Global); [|congruence].
        rewrite nth_error_app2 by lia. rewrite LG, Nat.sub_diag. reflexivity.
      * intros _ _ j' J'. exists (buf (procs s p)), d. split; [reflexivity|]. assert (j' = i) as -> by (rewrite G1 in *; lia). split; [exact D|]. apply W1; [reflexivity|exact F|exact D].
    + destruct (nth_error (sent s Global) (calls (procs s p) Global)) as [m|] eqn:Em; [|discriminate]. rewrite CG' in Em.
      destruct (g_G _ _ H En i m Em) as (a & d' & -> & D' & B). injection E as <-. unfold local.
      apply good_quiet; [exact H|exact Hp|apply grows_refl| |].
      * intros c ->. cbn [calls]. unfold count_call. destruct (comm_dec c Global) as [->|]; [congruence|reflexivity].
      * exists i, 2. apply NC; [apply extends_refl|exact Em].
  - (* check of the shared directory *)
    assert (En : ensemble cfg = true) by (destruct (ensemble cfg) eqn:En; [reflexivity|unfold st in K; rewrite En in K; lia]).
    destruct (accepted (buf (procs s p))) eqn:Ea; injection E as <-; unfold local; (apply good_quiet; [exact H|exact Hp|apply grows_refl|reflexivity|]).
    + exists i, 3. split; cbn [todo buf calls stat]; try exact N; try assumption; try (intros; lia); try exact I.
      * intros jj [J|(-> & _)] _; [apply PG; [left; exact J|exact En]|]. exists (buf (procs s p)). split; [apply W2; reflexivity|exact Ea].
      * intros jj [J|J]; [apply PO; left; exact J|lia].
    + exists i, 2. split; cbn [todo buf calls stat]; try assumption; [apply at_dir with (d := d); [exact D|exact K|reflexivity]|].
      split; [exact Ea|]. exists d. split; [exact D|]. left. split; reflexivity.
  - (* mkdir of the member's directory *)
    destruct (Nat.eqb_spec p (first cfg (Own (member_of cfg p)))) as [F|F]; injection E as <-; unfold local.
    + apply good_quiet; [exact H|exact Hp|apply mkdir_grows|reflexivity|]. exists i, 4.
      apply (at_work_mono _ _ _ _ _ _ _ _ _ (mkdir_grows denied (fs s) (own_dir cfg p d)) (extends_refl (sent s))) in W.
      destruct W as [_ _ _ _ _ _ _ PG' PO' A' _].
      split; cbn [todo buf calls stat]; try exact N; try assumption; try (intros; lia); try exact I.
      * intros _ _ d' D'. rewrite D in D'. injection D' as <-. unfold backed. apply mkdir_accepted.
      * intros jj J En. apply PG'; [|exact En]. destruct J as [J|J]; [left; exact J|right; lia].
      * intros jj [J|J]; [apply PO'; left; exact J|lia].
    + apply good_quiet; [exact H|exact Hp|apply grows_refl|reflexivity|]. exists i, 4.
      split; cbn [todo buf calls stat]; try exact N; try assumption; try (intros; lia); try exact I; try (intros; congruence).
      * intros jj J En. apply PG; [|exact En]. destruct J as [J|J]; [left; exact J|right; lia].
      * intros jj [J|J]; [apply PO; left; exact J|lia].
  - (* broadcast within the member *)
    assert (CO' : calls (procs s p) (Own (member_of cfg p)) = i) by (rewrite CO; unfold calls_own; cbn; lia).
    assert (NC : forall sn b, extends (sent s) sn -> got sn (Own (member_of cfg p)) i b ->
       at_work cfg (fs s) sn p (Proc (Check (own_dir cfg p d) :: EnterBarrier Global :: LeaveBarrier Global :: later cfg p i) b (count_call (calls (procs s p)) (Own (member_of cfg p))) Running) i 5).
    { intros sn b X Gt. apply (at_work_mono _ _ _ _ _ _ _ _ _ (grows_refl (fs s)) X) in W. destruct W as [_ _ _ _ _ _ _ PG' PO' A' _].
      split; cbn [todo buf calls stat]; try exact N; try assumption; try (intros; lia); try exact I.
      * unfold count_call. destruct (comm_dec (Own (member_of cfg p)) (Own (member_of cfg p))); [|congruence]. rewrite CO'. unfold calls_own. cbn. lia.
      * intros _. exact Gt.
      * intros jj J En. apply PG'; [|exact En]. destruct J as [J|J]; [left; exact J|right; lia].
      * intros jj [J|J]; [apply PO'; left; exact J|lia]. }
    destruct (Nat.eqb_spec p (first cfg (Own (member_of cfg p)))) as [F|F].
    + injection E as <-. assert (LO : length (sent s (Own (member_of cfg p))) = i) by (rewrite (g_lenO _ _ H p Hp), <- F; exact CO').
      apply good_post; [exact H|exact Hp|exact F|right; reflexivity|reflexivity| |discriminate|].
      * exists i, 5. apply NC; [apply extends_post|]. unfold got, post. destruct (comm_dec (Own (member_of cfg p)) (Own (member_of cfg p))); [|congruence].
        rewrite nth_error_app2 by lia. rewrite LO, Nat.sub_diag. reflexivity.
      * intros _. exists (buf (procs s p)), d. split; [reflexivity|]. rewrite LO. split; [exact D|]. apply W4; [reflexivity|exact F|exact D].
    + destruct (nth_error (sent s (Own (member_of cfg p))) (calls (procs s p) (Own (member_of cfg p)))) as [m|] eqn:Em; [|discriminate]. rewrite CO' in Em.
      destruct (g_O _ _ H p Hp i m Em) as (a & d' & -> & D' & B). injection E as <-. unfold local.
      apply good_quiet; [exact H|exact Hp|apply grows_refl| |].
      * intros c Fc. cbn [calls]. unfold count_call. destruct (comm_dec c (Own (member_of cfg p))) as [->|]; [congruence|reflexivity].
      * exists i, 5. apply NC; [apply extends_refl|exact Em].
  - (* check of the member's directory *)
    destruct (accepted (buf (procs s p))) eqn:Ea; injection E as <-; unfold local; (apply good_quiet; [exact H|exact Hp|apply grows_refl|reflexivity|]).
    + exists i, 6. split; cbn [todo buf calls stat]; try exact N; try assumption; try (intros; lia); try exact I.
      * intros jj J En. apply PG; [|exact En]. destruct J as [J|J]; [left; exact J|right; lia].
      * intros jj [J|(-> & _)]; [apply PO; left; exact J|]. exists (buf (procs s p)). split; [apply W5; reflexivity|exact Ea].
    + exists i, 5. split; cbn [todo buf calls stat]; try assumption; [apply at_dir with (d := d); [exact D|exact K|reflexivity]|].
      split; [exact Ea|]. exists d. split; [exact D|]. right. split; reflexivity.
  - (* a barrier is entered *)
    assert (NC : forall sn, extends (sent s) sn ->
       at_work cfg (fs s) sn p (Proc (LeaveBarrier Global :: later cfg p i) (buf (procs s p)) (count_call (calls (procs s p)) Global) Running) i 7).
    { intros sn X. apply (at_work_mono _ _ _ _ _ _ _ _ _ (grows_refl (fs s)) X) in W. destruct W as [_ _ _ _ _ _ _ PG' PO' A' _].
      split; cbn [todo buf calls stat]; try exact N; try assumption; try (intros; lia); try exact I.
      * unfold count_call. destruct (comm_dec Global Global); [|congruence]. rewrite CG. unfold calls_global. cbn. lia.
      * intros jj J En. apply PG'; [|exact En]. destruct J as [J|J]; [left; exact J|right; lia].
      * intros jj J. apply PO'. destruct J as [J|J]; [left; exact J|right; lia]. }
    injection E as <-. destruct (Nat.eqb_spec p (first cfg Global)) as [F|F].
    + apply good_post; [exact H|exact Hp|exact F|left; reflexivity|reflexivity| | |discriminate].
      * exists i, 7. apply NC. apply extends_post.
      * intros _ En j' J'. exfalso. rewrite (g_lenG _ _ H), <- F, CG in J'. unfold calls_global, g in J'. rewrite En in J'. cbn in J'. lia.
    + apply good_quiet; [exact H|exact Hp|apply grows_refl| |].
      * intros c ->. cbn [calls]. unfold count_call. destruct (comm_dec c Global) as [->|]; [congruence|reflexivity].
      * exists i, 7. apply NC. apply extends_refl.
  - (* the barrier is left *)
    destruct (forallb (fun q => calls (procs s p) Global <=? calls (procs s q) Global) (members cfg Global)) eqn:Eb; [|discriminate].
    injection E as <-. unfold local. apply good_quiet; [exact H|exact Hp|apply grows_refl|reflexivity|]. exists (S i), (st cfg).
    rewrite forallb_forall in Eb.
    assert (N0 : st cfg <> 1 /\ st cfg <> 2 /\ st cfg <> 4 /\ st cfg <> 5 /\ st cfg < 6) by (unfold st; destruct (ensemble cfg); lia).
    split; cbn [todo buf calls stat]; try (intros; lia); try exact I.
    + apply at_next with (d := d). exact D.
    + rewrite CG. unfold calls_global, st, g. destruct (ensemble cfg); cbn; lia.
    + rewrite CO. unfold calls_own, st. destruct (ensemble cfg); cbn; lia.
    + intros jj [J|(-> & K3 & _)] En; [apply PG; [|exact En]; lia|]. unfold st in K3. rewrite En in K3. lia.
    + intros jj [J|J]; [apply PO; lia|lia].
    + intros jj d' q J D' Hq. destruct (Nat.eq_dec jj i) as [->|Nj]; [|apply (A jj d' q); [lia|exact D'|exact Hq]].
      rewrite D in D'. injection D' as <-.
      specialize (Eb q (in_global cfg q Hq)). apply Nat.leb_le in Eb. rewrite CG in Eb.
      destruct (g_proc _ _ H q Hq) as (i' & k' & [P' CG' _ _ _ _ _ _ PO' A' _]). rewrite CG' in Eb.
      assert (R : i < i' \/ (i = i' /\ 6 <= k')).
      { unfold calls_global in Eb. destruct (Nat.ltb_spec 7 2); [lia|]. destruct (Nat.ltb_spec 7 7); [lia|].
        destruct (Nat.ltb_spec k' 2); destruct (Nat.ltb_spec k' 7); unfold g in Eb; destruct (ensemble cfg); lia. }
      destruct (PO' i R) as (a & Gt & Ac).
      destruct (g_O _ _ H q Hq i (Some a) Gt) as (a' & d'' & Ea & D'' & B). injection Ea as <-. rewrite D in D''. injection D'' as <-. apply B. exact Ac.
Qed.

Lemma run_snoc cfg denied l p s : run cfg denied (l ++ [p]) s = turn cfg denied (run cfg denied l s) p.
Proof. unfold run. rewrite fold_left_app. reflexivity. Qed.
Lemma run_ind (P : state -> Prop) cfg denied s : P s -> (forall p s1 s2, P s1 -> step cfg denied p s1 = Some s2 -> P s2) -> forall l, P (run cfg denied l s).
Proof.
  intros H0 H l. induction l as [|p l IH] using rev_ind; [exact H0|]. rewrite run_snoc. unfold turn.
  destruct (step cfg denied p (run cfg denied l s)) eqn:E; [apply (H p _ _ IH E)|exact IH].
Qed.
Lemma good_after cfg denied f l : good cfg (after cfg denied f l).
Proof. unfold after. apply (run_ind (good cfg)); [apply good_start|]. intros p s1 s2 H E. apply (good_step cfg denied p s1 s2 H E). Qed.

(* ---- nothing in the way ---- *)
Lemma walk_ok f : forall p q, (forall a b, p = a ++ b -> b <> [] -> f (q ++ a) = Some Directory) -> walk f q p = NOERR.
Proof.
  induction p as [|x p IH]; intros q H; [reflexivity|]. cbn. pose proof (H [] (x :: p) eq_refl ltac:(discriminate)) as E. rewrite app_nil_r in E. rewrite E.
  apply IH. intros a b -> B. rewrite <- app_assoc. apply (H (x :: a) b eq_refl B).
Qed.
Lemma mkdir_ok denied f d : walk f [] d = NOERR -> f d <> Some File -> denied d = false ->
  accepted (snd (mkdir denied f d)) = true /\ forall q, fst (mkdir denied f d) q = if path_dec q d then Some Directory else f q.
Proof.
  intros W F D. unfold mkdir. rewrite W, D. destruct (f d) as [[]|] eqn:E.
  - split; [reflexivity|]. intros q. cbn. destruct (path_dec q d) as [->|]; [exact E|reflexivity].
  - congruence.
  - split; reflexivity.
Qed.
Lemma open_ok denied f x : walk f [] x = NOERR -> f x <> Some Directory -> denied x = false -> open_file denied f x = (put f x File, NOERR).
Proof. intros W F D. unfold open_file. rewrite W, D. destruct (f x) as [[]|]; [congruence|reflexivity|reflexivity]. Qed.
Lemma snoc_split {A} (D : list A) x a b : D ++ [x] = a ++ b -> b <> [] -> a = D \/ exists b', b' <> [] /\ D = a ++ b'.
Proof.
  intros E B. destruct (exists_last B) as (b' & y & ->). rewrite app_assoc in E. apply app_inj_tail in E. destruct E as [E _].
  destruct b' as [|z b']; [left; rewrite app_nil_r in E; congruence|right]. exists (z :: b'). split; [discriminate|exact E].
Qed.

Record safe (cfg : setup) (s : state) : Prop := Safe {
  s_above : forall D a b, In D (dirs cfg) -> D = a ++ b -> b <> [] -> fs s a = Some Directory;
  s_dir : forall d, needed cfg d -> fs s d <> Some File;
  s_file : forall p x, p < nproc cfg -> In x (opens cfg p) -> fs s x <> Some Directory;
  s_buf : forall p, p < nproc cfg -> accepted (buf (procs s p)) = true;
  s_sent : forall c n a, nth_error (sent s c) n = Some (Some a) -> accepted a = true;
  s_stat : forall p, p < nproc cfg -> stat (procs s p) = Running;
  s_done : forall p x, p < nproc cfg -> In x (opens cfg p) -> fs s x = Some File \/ In (Open x) (todo (procs s p));
}.

Lemma in_program cfg p x : In x (opens cfg p) -> In (Open x) (program cfg p).
Proof. intros H. unfold program. apply in_or_app. right. apply in_map. exact H. Qed.
Lemma safe_start cfg denied f : usable cfg denied f -> safe cfg (start cfg f).
Proof.
  intros U. split; cbn [start fs procs sent todo buf stat]; try reflexivity.
  - apply (u_above _ _ _ U).
  - intros d N. apply (u_dir _ _ _ U d N).
  - intros p x P X. apply (u_file _ _ _ U p x P X).
  - intros c n a H. destruct n; discriminate.
  - intros p x _ X. right. apply in_program. exact X.
Qed.

(* a process moves on; the files change as allowed *)
Lemma safe_move cfg s f' sn' p x' : safe cfg s -> p < nproc cfg ->
  (forall q, f' q = fs s q \/ (f' q = Some Directory /\ needed cfg q) \/ (f' q = Some File /\ ~ needed cfg q /\ fs s q <> Some Directory)) ->
  (forall q x, q < nproc cfg -> In x (opens cfg q) -> ~ needed cfg x) ->
  accepted (buf x') = true -> stat x' = Running ->
  (forall c n a, nth_error (sn' c) n = Some (Some a) -> accepted a = true) ->
  (forall x, In x (opens cfg p) -> In (Open x) (todo (procs s p)) -> f' x = Some File \/ In (Open x) (todo x')) ->
  safe cfg (State f' (upd_proc s p x') sn').
Proof.
  intros H Hp F O B S N T. split; cbn [fs procs sent].
  - intros D a b I E Nb. pose proof (s_above _ _ H D a b I E Nb) as X. destruct (F a) as [->|[(-> & _)|(_ & _ & Y)]]; [exact X|reflexivity|congruence].
  - intros d I. destruct (F d) as [->|[(-> & _)|(_ & Y & _)]]; [apply (s_dir _ _ H d I)|discriminate|contradiction].
  - intros q x Q X. destruct (F x) as [->|[(_ & Y)|(-> & _)]]; [apply (s_file _ _ H q x Q X)|exfalso; apply (O q x Q X Y)|discriminate].
  - intros q Q. destruct (Nat.eq_dec q p) as [->|E]; [rewrite upd_same; exact B|rewrite (upd_other _ _ _ _ E); apply (s_buf _ _ H q Q)].
  - exact N.
  - intros q Q. destruct (Nat.eq_dec q p) as [->|E]; [rewrite upd_same; exact S|rewrite (upd_other _ _ _ _ E); apply (s_stat _ _ H q Q)].
  - intros q x Q X. assert (K : fs s x = Some File -> f' x = Some File).
    { intros Y. destruct (F x) as [->|[(_ & Z)|(Z & _)]]; [exact Y|exfalso; apply (O q x Q X Z)|exact Z]. }
    destruct (s_done _ _ H q x Q X) as [Y|Y]; [left; apply K; exact Y|].
    destruct (Nat.eq_dec q p) as [->|E]; [rewrite upd_same; apply (T x X Y)|rewrite (upd_other _ _ _ _ E); right; exact Y].
Qed.

Lemma safe_step cfg denied f0 p s s' : usable cfg denied f0 -> good cfg s -> safe cfg s -> step cfg denied p s = Some s' -> safe cfg s'.
Proof.
  intros U G H E. pose proof (good_step cfg denied p s s' G E) as G'. unfold step in E. destruct (Nat.ltb_spec p (nproc cfg)) as [Hp|]; [|discriminate]. cbn [negb] in E.
  destruct (g_proc _ _ G p Hp) as (i & k & [P _ _ _ _ _ _ PG _ A _]). rewrite (s_stat _ _ H p Hp) in E.
  assert (O : forall q x, q < nproc cfg -> In x (opens cfg q) -> ~ needed cfg x) by (intros q x Q X; apply (u_file _ _ _ U q x Q X)).
  assert (Same : forall q, fs s q = fs s q \/ (fs s q = Some Directory /\ needed cfg q) \/ (fs s q = Some File /\ ~ needed cfg q /\ fs s q <> Some Directory)) by (intros q; left; reflexivity).
  assert (Up : forall D, In D (dirs cfg) -> walk (fs s) [] D = NOERR).
  { intros D I. apply walk_ok. intros a b E1 E2. apply (s_above _ _ H D a b I E1 E2). }
  assert (There : forall d, needed cfg d -> fs s d <> None -> fs s d = Some Directory).
  { intros d N X. pose proof (s_dir _ _ H d N). destruct (fs s d) as [[]|]; congruence. }
  assert (Shared : forall j d, nth_error (dirs cfg) j = Some d -> ensemble cfg = true -> j < i \/ (j = i /\ 3 <= k /\ i < length (dirs cfg)) -> fs s d = Some Directory).
  { intros j d D En J. destruct (PG j J En) as (a & Gt & Ac). destruct (g_G _ _ G En j (Some a) Gt) as (a' & d' & Ea & D' & B). injection Ea as <-.
    rewrite D in D'. injection D' as <-. apply There; [|apply B; exact Ac]. exists d. split; [apply (nth_error_In _ _ D)|left; reflexivity]. }
  destruct P as [i k d D K T|j T].
  2:{ rewrite T in E. destruct (skipn j (opens cfg p)) as [|x t] eqn:Ej; [discriminate|]. cbn [map] in E.
      assert (X : In x (opens cfg p)) by (destruct (skipn_step _ _ _ _ Ej) as [_ Ex]; apply (nth_error_In _ _ Ex)).
      destruct (u_file _ _ _ U p x Hp X) as ((D & b & I & Ex) & Nx & _ & Dx).
      assert (W : walk (fs s) [] x = NOERR).
      { destruct (In_nth_error _ _ I) as (jd & Jd). assert (Ld : jd < length (dirs cfg)) by (apply nth_error_Some; congruence).
        apply walk_ok. intros a c E1 E2. cbn [app]. rewrite Ex in E1. destruct (snoc_split _ _ _ _ E1 E2) as [->|(b' & B' & E3)].
        - apply There; [exists D; split; [exact I|right; exists p; split; [exact Hp|reflexivity]]|]. apply (A jd D p Ld Jd Hp).
        - unfold own_dir in E3. destruct (ensemble cfg) eqn:En; [|apply (s_above _ _ H D a b' I E3 B')].
          destruct (u_name _ _ _ U En p Hp) as (nm & Enm). rewrite Enm in E3.
          destruct (snoc_split _ _ _ _ E3 B') as [->|(b2 & B2 & E4)]; [|apply (s_above _ _ H D a b2 I E4 B2)].
          apply (Shared jd D Jd eq_refl). left. exact Ld. }
      rewrite (open_ok denied (fs s) x W (s_file _ _ H p x Hp X) Dx) in E. cbn [fst snd] in E. injection E as <-.
      apply safe_move; cbn [buf stat todo]; try assumption; try reflexivity; [|apply (s_buf _ _ H p Hp)|apply (s_sent _ _ H)|].
      - intros q. unfold put. destruct (path_dec q x) as [->|]; [right; right|left; reflexivity]. split; [reflexivity|]. split; [exact Nx|apply (s_file _ _ H p x Hp X)].
      - intros y Y Ty. rewrite T in Ty. destruct Ty as [Ty|Ty]; [injection Ty as <-; left; unfold put; destruct (path_dec x x); [reflexivity|congruence]|right; exact Ty]. }
  assert (ID : In d (dirs cfg)) by (apply (nth_error_In _ _ D)).
  assert (Hi : i < length (dirs cfg)) by (apply nth_error_Some; congruence).
  assert (NO : needed cfg (own_dir cfg p d)) by (exists d; split; [exact ID|right; exists p; split; [exact Hp|reflexivity]]).
  assert (ND : needed cfg d) by (exists d; split; [exact ID|left; reflexivity]).
  assert (TT : forall o t f', todo (procs s p) = o :: t -> (forall x, o <> Open x) -> forall x, In x (opens cfg p) -> In (Open x) (todo (procs s p)) -> f' x = Some File \/ In (Open x) t).
  { intros o t f' Eo No x _ I. rewrite Eo in I. destruct I as [I|I]; [destruct (No x I)|right; exact I]. }
  assert (Quiet : forall o t b c, todo (procs s p) = o :: t -> (forall x, o <> Open x) -> accepted b = true -> safe cfg (local s p (Proc t b c Running))).
  { intros o t b c Eo No B. apply safe_move; cbn [buf stat todo]; try assumption; try reflexivity; [apply (s_sent _ _ H)|apply (TT o t (fs s) Eo No)]. }
  assert (Made : forall e t c, needed cfg e -> walk (fs s) [] e = NOERR -> todo (procs s p) = MkdirOnFirst c e :: t ->
     safe cfg (State (fst (mkdir denied (fs s) e)) (upd_proc s p (Proc t (snd (mkdir denied (fs s) e)) (calls (procs s p)) Running)) (sent s))).
  { intros e t c N W Eo. destruct (mkdir_ok denied (fs s) e W (s_dir _ _ H e N) (proj2 (u_dir _ _ _ U e N))) as [M1 M2].
    apply safe_move; cbn [buf stat todo]; try assumption; try reflexivity; [|apply (s_sent _ _ H)|apply (TT _ t _ Eo); intros x; discriminate].
    intros q. rewrite M2. destruct (path_dec q e) as [->|]; [right; left; split; [reflexivity|exact N]|left; reflexivity]. }
  assert (Posted : forall o t b n c m, todo (procs s p) = o :: t -> (forall x, o <> Open x) -> accepted b = true -> (m = None \/ m = Some b) ->
     safe cfg (State (fs s) (upd_proc s p (Proc t b n Running)) (post (sent s) c m))).
  { intros o t b n c m Eo No B M. apply safe_move; cbn [buf stat todo]; try assumption; try reflexivity; [|apply (TT o t (fs s) Eo No)].
    intros c' n' a Ha. unfold post in Ha. destruct (comm_dec c' c) as [->|]; [|apply (s_sent _ _ H _ _ _ Ha)].
    apply nth_snoc in Ha. destruct Ha as [Ha|(_ & Ha)]; [apply (s_sent _ _ H _ _ _ Ha)|]. destruct M as [-> | ->]; [discriminate|]. injection Ha as ->. exact B. }
  pose proof (s_buf _ _ H p Hp) as BB. rewrite T in E.
  assert (KK : k = 0 \/ k = 1 \/ k = 2 \/ k = 3 \/ k = 4 \/ k = 5 \/ k = 6 \/ k = 7) by lia.
  destruct KK as [-> | [-> | [-> | [-> | [-> | [-> | [-> | ->]]]]]]]; cbn [ops8 CreateDirectory app skipn] in E, T.
  - destruct (p =? first cfg Global); injection E as <-; [apply (Made _ _ _ ND (Up d ID) T)|apply (Quiet _ _ _ _ T); [discriminate|exact BB]].
  - destruct (p =? first cfg Global); [injection E as <-; apply (Posted _ _ _ _ _ _ T); [discriminate|exact BB|right; reflexivity]|].
    destruct (nth_error (sent s Global) (calls (procs s p) Global)) as [[a|]|] eqn:Em; [| |discriminate].
    + injection E as <-. apply (Quiet _ _ _ _ T); [discriminate|apply (s_sent _ _ H _ _ _ Em)].
    + exfalso. injection E as <-. destruct (g_proc _ _ G' p Hp) as (i' & k' & W'). pose proof (w_stat _ _ _ _ _ _ _ W') as V.
      cbn [local procs] in V. rewrite upd_same in V. exact V.
  - rewrite BB in E. injection E as <-. apply (Quiet _ _ _ _ T); [discriminate|exact BB].
  - destruct (p =? first cfg (Own (member_of cfg p))); injection E as <-; [|apply (Quiet _ _ _ _ T); [discriminate|exact BB]].
    refine (Made _ _ _ NO _ T). apply walk_ok. intros a b E1 E2. cbn [app]. unfold own_dir in E1. destruct (ensemble cfg) eqn:En; [|apply (s_above _ _ H d a b ID E1 E2)].
    destruct (u_name _ _ _ U En p Hp) as (nm & Enm). rewrite Enm in E1.
    destruct (snoc_split _ _ _ _ E1 E2) as [->|(b2 & B2 & E4)]; [|apply (s_above _ _ H d a b2 ID E4 B2)].
    apply (Shared i d D eq_refl). right. split; [reflexivity|]. split; [lia|exact Hi].
  - destruct (p =? first cfg (Own (member_of cfg p))); [injection E as <-; apply (Posted _ _ _ _ _ _ T); [discriminate|exact BB|right; reflexivity]|].
    destruct (nth_error (sent s (Own (member_of cfg p))) (calls (procs s p) (Own (member_of cfg p)))) as [[a|]|] eqn:Em; [| |discriminate].
    + injection E as <-. apply (Quiet _ _ _ _ T); [discriminate|apply (s_sent _ _ H _ _ _ Em)].
    + exfalso. injection E as <-. destruct (g_proc _ _ G' p Hp) as (i' & k' & W'). pose proof (w_stat _ _ _ _ _ _ _ W') as V.
      cbn [local procs] in V. rewrite upd_same in V. exact V.
  - rewrite BB in E. injection E as <-. apply (Quiet _ _ _ _ T); [discriminate|exact BB].
  - injection E as <-. destruct (p =? first cfg Global); [apply (Posted _ _ _ _ _ _ T); [discriminate|exact BB|left; reflexivity]|apply (Quiet _ _ _ _ T); [discriminate|exact BB]].
  - destruct (forallb (fun q => calls (procs s p) Global <=? calls (procs s q) Global) (members cfg Global)); [|discriminate].
    injection E as <-. apply (Quiet _ _ _ _ T); [discriminate|exact BB].
Qed.
