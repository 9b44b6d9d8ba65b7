(* C94: the directories of a run under every schedule of its processes *)
From Coq Require Import List Arith ZArith Bool String Lia.
From Verif Require Import DirectoriesModel DirectoriesSpec DirectoriesProofs DirectoriesProgress.
Import ListNotations.
Local Open Scope nat_scope.
Local Notation length := List.length.

Lemma after_app cfg denied f l m : after cfg denied f (l ++ m) = run cfg denied m (after cfg denied f l).
Proof. unfold after, run. apply fold_left_app. Qed.
Lemma safe_after cfg denied f l : usable cfg denied f -> safe cfg (after cfg denied f l).
Proof.
  intros U. assert (X : good cfg (after cfg denied f l) /\ safe cfg (after cfg denied f l)); [|apply X]. unfold after.
  apply (run_ind (fun s => good cfg s /\ safe cfg s)); [split; [apply good_start|apply (safe_start _ _ _ U)]|].
  intros p s1 s2 [G S] E. split; [apply (good_step _ _ _ _ _ G E)|apply (safe_step _ _ _ _ _ _ U G S E)].
Qed.
Lemma work_after cfg denied f l : work cfg (after cfg denied f l) <= work cfg (start cfg f).
Proof.
  unfold after. apply (run_ind (fun s => work cfg s <= work cfg (start cfg f))); [lia|]. intros p s1 s2 H E. pose proof (step_work _ _ _ _ _ E). lia.
Qed.
Lemma past_pos cfg s p i k : at_work cfg (fs s) (sent s) p (procs s p) i k -> past_creation cfg s p <-> i = length (dirs cfg).
Proof.
  intros W. pose proof (w_pos _ _ _ _ _ _ _ W) as P. unfold past_creation. destruct P as [i' k' d D K T|j T].
  - assert (i' < length (dirs cfg)) by (apply nth_error_Some; congruence). split; [|lia]. intros (j & J). exfalso. rewrite T in J.
    assert (KK : k' = 0 \/ k' = 1 \/ k' = 2 \/ k' = 3 \/ k' = 4 \/ k' = 5 \/ k' = 6 \/ k' = 7) by lia.
    destruct (skipn j (opens cfg p)); destruct KK as [-> | [-> | [-> | [-> | [-> | [-> | [-> | ->]]]]]]]; discriminate.
  - split; [reflexivity|]. intros _. exists j. exact T.
Qed.
Lemma finished_past cfg s p : finished s p -> past_creation cfg s p.
Proof. intros [_ T]. exists (length (opens cfg p)). rewrite T, skipn_all. reflexivity. Qed.
Lemma idle_returned cfg s p : good cfg s -> p < nproc cfg -> active s p = false -> returned s p.
Proof.
  intros G Hp A. unfold active in A. unfold returned, finished. destruct (g_proc _ _ G p Hp) as (i & k & W). pose proof (w_stat _ _ _ _ _ _ _ W) as S.
  destruct (stat (procs s p)) as [|d|f|]; [|right; left; eexists; reflexivity|right; right; eexists; reflexivity|destruct S].
  destruct (todo (procs s p)); [left; split; reflexivity|discriminate].
Qed.

(* Whatever the file system and the order of the steps: a process that gets to its files has all directories of all
   processes made before. *)
Theorem C94_made_before_use : forall cfg denied f schedule p q D,
  let s := after cfg denied f schedule in
  p < nproc cfg -> past_creation cfg s p -> q < nproc cfg -> In D (dirs cfg) -> fs s (own_dir cfg q D) <> None.
Proof.
  intros cfg denied f schedule p q D s Hp P Hq I. destruct (In_nth_error _ _ I) as (j & J).
  destruct (g_proc _ _ (good_after cfg denied f schedule) p Hp) as (i & k & W). fold s in W.
  apply (past_pos _ _ _ _ _ W) in P. subst i. apply (w_all _ _ _ _ _ _ _ W j D q); [apply nth_error_Some; congruence|exact J|exact Hq].
Qed.
Print Assumptions C94_made_before_use.

(* If nothing stands in the way then, in every schedule, no process meets an error, the directories are there when a
   process is done and so are its files, and however far the run has come it can be completed: no process ever waits in
   vain. *)
Theorem C94_every_schedule : forall cfg denied f schedule, usable cfg denied f ->
  let s := after cfg denied f schedule in
  (forall p, p < nproc cfg -> stat (procs s p) = Running) /\
  (forall p, p < nproc cfg -> finished s p ->
     (forall q D, q < nproc cfg -> In D (dirs cfg) -> fs s (own_dir cfg q D) = Some Directory) /\
     (forall x, In x (opens cfg p) -> fs s x = Some File)) /\
  exists more, length more <= list_sum (map (fun p => S (length (program cfg p))) (seq 0 (nproc cfg))) /\
    forall p, p < nproc cfg -> finished (after cfg denied f (schedule ++ more)) p.
Proof.
  intros cfg denied f schedule U s. pose proof (safe_after cfg denied f schedule U) as S. fold s in S.
  split; [apply (s_stat _ _ S)|]. split.
  - intros p Hp F. split.
    + intros q D Hq I. pose proof (C94_made_before_use cfg denied f schedule p q D Hp (finished_past _ _ _ F) Hq I) as E. fold s in E.
      pose proof (s_dir _ _ S (own_dir cfg q D)) as N. assert (ND : needed cfg (own_dir cfg q D)) by (exists D; split; [exact I|right; exists q; split; [exact Hq|reflexivity]]).
      specialize (N ND). destruct (fs s (own_dir cfg q D)) as [[]|]; congruence.
    + intros x X. destruct F as [_ F]. destruct (s_done _ _ S p x Hp X) as [E|E]; [exact E|]. rewrite F in E. destruct E.
  - destruct (run_ends cfg denied (fun s => good cfg s /\ safe cfg s)) with (s := s) as (more & M1 & M2).
    + intros p s1 s2 [G1 S1] E. split; [apply (good_step _ _ _ _ _ G1 E)|apply (safe_step _ _ _ _ _ _ U G1 S1 E)].
    + intros s1 [G1 S1] A. apply progress; [exact G1|right|exact A]. intros p Hp d. rewrite (s_stat _ _ S1 p Hp). discriminate.
    + split; [apply good_after|exact S].
    + exists more. split.
      * etransitivity; [exact M1|]. apply (work_after cfg denied f schedule).
      * intros p Hp. specialize (M2 p Hp). unfold s in M2. rewrite <- after_app in M2.
        pose proof (s_stat _ _ (safe_after cfg denied f (schedule ++ more) U) p Hp) as R. unfold active in M2. rewrite R in M2.
        split; [exact R|]. destruct (todo (procs (after cfg denied f (schedule ++ more)) p)); [reflexivity|discriminate].
Qed.
Print Assumptions C94_every_schedule.

(* A run that is killed after any number of steps leaves a file system on which the same run works again. *)
Theorem C94_after_a_crash : forall cfg denied f killed, usable cfg denied f -> usable cfg denied (fs (after cfg denied f killed)).
Proof.
  intros cfg denied f killed U. pose proof (safe_after cfg denied f killed U) as S. split.
  - apply (s_above _ _ S).
  - apply (u_name _ _ _ U).
  - intros d N. split; [apply (s_dir _ _ S d N)|apply (u_dir _ _ _ U d N)].
  - intros p x Hp X. destruct (u_file _ _ _ U p x Hp X) as (A & B & _ & C). split; [exact A|]. split; [exact B|]. split; [apply (s_file _ _ S p x Hp X)|exact C].
Qed.
Print Assumptions C94_after_a_crash.

(* Whatever stands in the way, the processes of a member of the ensemble agree: if one reports that a directory cannot be
   made, none gets past it, and those that report an error name the same directory. *)
Theorem C94_same_answer : forall cfg denied f schedule p q d,
  let s := after cfg denied f schedule in
  p < nproc cfg -> q < nproc cfg -> member_of cfg p = member_of cfg q -> stat (procs s p) = NoDirectory d ->
  ~ past_creation cfg s q /\ (forall d', stat (procs s q) = NoDirectory d' -> d' = d).
Proof.
  intros cfg denied f schedule p q d s Hp Hq M Ep.
  pose proof (good_after cfg denied f schedule) as G. fold s in G.
  destruct (g_proc _ _ G p Hp) as (i & k & W). destruct (g_proc _ _ G q Hq) as (i' & k' & W').
  pose proof (w_stat _ _ _ _ _ _ _ W) as S. rewrite Ep in S. destruct S as (Ac & d0 & D & K).
  assert (Hi : i < length (dirs cfg)) by (apply nth_error_Some; congruence).
  assert (Ens : forall n x r a b, at_work cfg (fs s) (sent s) r x a b -> n = 2 -> b = n -> ensemble cfg = true).
  { intros n x r a b V -> ->. destruct (pos_bound _ _ _ _ _ (w_pos _ _ _ _ _ _ _ V)) as (_ & B & _). unfold st in B. destruct (ensemble cfg); [reflexivity|lia]. }
  assert (Clash : forall n x y, accepted x = false -> got (sent s) n y x -> (exists a, got (sent s) n y a /\ accepted a = true) -> False).
  { intros n x y X Gx (a & Ga & Aa). unfold got in *. rewrite Gx in Ga. injection Ga as ->. congruence. }
  split.
  - intros P. apply (past_pos _ _ _ _ _ W') in P. destruct K as [(K & _)|(K & _)].
    + apply (Clash Global (buf (procs s p)) (i * (g cfg + 1)) Ac (w_2 _ _ _ _ _ _ _ W K)). apply (w_pg _ _ _ _ _ _ _ W'); [left; lia|]. apply (Ens 2 _ _ _ _ W eq_refl K).
    + apply (Clash (Own (member_of cfg p)) (buf (procs s p)) i Ac (w_5 _ _ _ _ _ _ _ W K)). rewrite M. apply (w_po _ _ _ _ _ _ _ W'). left. lia.
  - intros d' Eq. pose proof (w_stat _ _ _ _ _ _ _ W') as S'. rewrite Eq in S'. destruct S' as (Ac' & d1 & D' & K').
    assert (Hi' : i' < length (dirs cfg)) by (apply nth_error_Some; congruence).
    destruct K as [(K & ->)|(K & ->)]; destruct K' as [(K' & ->)|(K' & ->)].
    + destruct (Nat.lt_trichotomy i i') as [L|[->|L]]; [exfalso|congruence|exfalso].
      * apply (Clash Global (buf (procs s p)) (i * (g cfg + 1)) Ac (w_2 _ _ _ _ _ _ _ W K)). apply (w_pg _ _ _ _ _ _ _ W'); [left; exact L|]. apply (Ens 2 _ _ _ _ W eq_refl K).
      * apply (Clash Global (buf (procs s q)) (i' * (g cfg + 1)) Ac' (w_2 _ _ _ _ _ _ _ W' K')). apply (w_pg _ _ _ _ _ _ _ W); [left; exact L|]. apply (Ens 2 _ _ _ _ W eq_refl K).
    + exfalso. destruct (Nat.lt_ge_cases i' i) as [L|L].
      * apply (Clash (Own (member_of cfg q)) (buf (procs s q)) i' Ac' (w_5 _ _ _ _ _ _ _ W' K')). rewrite <- M. apply (w_po _ _ _ _ _ _ _ W). left. exact L.
      * apply (Clash Global (buf (procs s p)) (i * (g cfg + 1)) Ac (w_2 _ _ _ _ _ _ _ W K)). apply (w_pg _ _ _ _ _ _ _ W'); [lia|]. apply (Ens 2 _ _ _ _ W eq_refl K).
    + exfalso. destruct (Nat.lt_ge_cases i i') as [L|L].
      * apply (Clash (Own (member_of cfg p)) (buf (procs s p)) i Ac (w_5 _ _ _ _ _ _ _ W K)). rewrite M. apply (w_po _ _ _ _ _ _ _ W'). left. exact L.
      * apply (Clash Global (buf (procs s q)) (i' * (g cfg + 1)) Ac' (w_2 _ _ _ _ _ _ _ W' K')). apply (w_pg _ _ _ _ _ _ _ W); [lia|]. apply (Ens 2 _ _ _ _ W' eq_refl K').
    + destruct (Nat.lt_trichotomy i i') as [L|[->|L]]; [exfalso| |exfalso].
      * apply (Clash (Own (member_of cfg p)) (buf (procs s p)) i Ac (w_5 _ _ _ _ _ _ _ W K)). rewrite M. apply (w_po _ _ _ _ _ _ _ W'). left. exact L.
      * rewrite D in D'. injection D' as ->. apply own_dir_same. symmetry. exact M.
      * apply (Clash (Own (member_of cfg q)) (buf (procs s q)) i' Ac' (w_5 _ _ _ _ _ _ _ W' K')). rewrite <- M. apply (w_po _ _ _ _ _ _ _ W). left. exact L.
Qed.
Print Assumptions C94_same_answer.

(* Without an ensemble a run never hangs here, whatever stands in the way: however far it has come, it can go on until
   every process has returned; then either all have their directories, or all report the same one. *)
Theorem C94_single_run : forall cfg denied f schedule, ensemble cfg = false ->
  exists more, let s := after cfg denied f (schedule ++ more) in
    (forall p, p < nproc cfg -> returned s p) /\
    ((forall p, p < nproc cfg -> past_creation cfg s p) \/ (exists d, forall p, p < nproc cfg -> stat (procs s p) = NoDirectory d)).
Proof.
  intros cfg denied f schedule En.
  destruct (run_ends cfg denied (good cfg)) with (s := after cfg denied f schedule) as (more & _ & M2).
  - intros p s1 s2 G E. apply (good_step _ _ _ _ _ G E).
  - intros s1 G A. apply progress; [exact G|left; exact En|exact A].
  - apply good_after.
  - exists more. cbv zeta. rewrite <- after_app in M2. set (s := after cfg denied f (schedule ++ more)) in *.
    pose proof (good_after cfg denied f (schedule ++ more)) as G. fold s in G.
    assert (R : forall p, p < nproc cfg -> returned s p) by (intros p Hp; apply (idle_returned cfg s p G Hp (M2 p Hp))).
    split; [exact R|].
    assert (Q : forall p, p < nproc cfg -> past_creation cfg s p \/ exists d, stat (procs s p) = NoDirectory d).
    { intros p Hp. destruct (R p Hp) as [F|[F|(x & F)]]; [left; apply finished_past; exact F|right; exact F|left].
      destruct (g_proc _ _ G p Hp) as (i & k & W). apply (past_pos _ _ _ _ _ W). pose proof (w_stat _ _ _ _ _ _ _ W) as S. rewrite F in S. exact S. }
    assert (MM : forall p q, member_of cfg p = member_of cfg q) by (intros p q; unfold member_of; rewrite En; reflexivity).
    destruct (Nat.eq_dec (nproc cfg) 0) as [Z|Z]; [left; intros p Hp; lia|]. destruct (Q 0 ltac:(lia)) as [P0|(d & E0)].
    + left. intros p Hp. destruct (Q p Hp) as [P|(d & E)]; [exact P|].
      destruct (C94_same_answer cfg denied f (schedule ++ more) p 0 d Hp ltac:(lia) (MM p 0) E) as [N _]. destruct (N P0).
    + right. exists d. intros p Hp. destruct (C94_same_answer cfg denied f (schedule ++ more) 0 p d ltac:(lia) Hp (MM 0 p) E0) as [N1 N2].
      destruct (Q p Hp) as [P|(d' & E)]; [destruct (N1 P)|]. rewrite E. apply f_equal. apply N2. exact E.
Qed.
Print Assumptions C94_single_run.

(* Each member of an ensemble has its own directory within the shared one: members with different names never share. *)
Theorem C94_member_directories : forall (cfg : setup) (p q : nat) (D : path), ensemble cfg = true ->
  own_dir cfg p D = D ++ name cfg (member_of cfg p) /\
  (name cfg (member_of cfg p) <> name cfg (member_of cfg q) -> own_dir cfg p D <> own_dir cfg q D).
Proof. intros cfg p q D E. unfold own_dir. rewrite E. split; [reflexivity|]. intros N H. apply N. apply (app_inv_head D). exact H. Qed.
Print Assumptions C94_member_directories.

(* ---- what fails ---- *)
Definition nobody (p : path) : bool := false.
Definition empty_place : files := fun p => match p with [] => Some Directory | _ => None end.

Lemma stuck_run cfg denied s : (forall p, p < nproc cfg -> step cfg denied p s = None) -> forall l, run cfg denied l s = s.
Proof.
  intros H l. induction l as [|p l IH]; [reflexivity|]. unfold run in *. cbn [fold_left]. unfold turn at 2.
  destruct (Nat.lt_ge_cases p (nproc cfg)) as [L|L]; [rewrite (H p L); exact IH|].
  assert (E : step cfg denied p s = None) by (unfold step; destruct (Nat.ltb_spec p (nproc cfg)); [lia|reflexivity]). rewrite E. exact IH.
Qed.

(* In an ensemble the members that could make their directory wait for ever for one that could not: here the name of
   member 0 has a slash. *)
Definition slash : setup :=
  Setup 2 2 [["output"%string]] (fun m => if m =? 0 then ["storm"%string; "a"%string] else ["calm"%string]) (fun _ => []).
Definition slash_schedule := [0; 0; 0; 0; 0; 0; 1; 1; 1; 1; 1; 1; 1].
Theorem C94_waiting_members_refuted :
  ~ (forall cfg denied f schedule, exists more, forall p, p < nproc cfg -> returned (after cfg denied f (schedule ++ more)) p).
Proof.
  intros H. destruct (H slash nobody empty_place slash_schedule) as (more & M). specialize (M 1 ltac:(cbn; lia)). rewrite after_app in M.
  rewrite stuck_run in M.
  - destruct M as [(_ & M)|[(d & M)|(x & M)]]; revert M; vm_compute; discriminate.
  - intros p Hp. cbn in Hp. destruct p as [|[|p]]; [| |lia]; vm_compute; reflexivity.
Qed.
Print Assumptions C94_waiting_members_refuted.
Example C94_waiting_members_example :
  stat (procs (after slash nobody empty_place slash_schedule) 0) = NoDirectory ["output"; "storm"; "a"]%string /\
  todo (procs (after slash nobody empty_place slash_schedule) 1) = [LeaveBarrier Global].
Proof. split; vm_compute; reflexivity. Qed.

(* A file with the name of the directory is taken for the directory. *)
Definition plain (d : path) : setup := Setup 1 0 [d] (fun _ => []) (fun _ => []).
Definition with_file : files := fun p => match p with [] => Some Directory | ["output"%string] => Some File | _ => None end.
Theorem C94_file_in_the_way_refuted :
  ~ (forall cfg denied f schedule p D, p < nproc cfg -> past_creation cfg (after cfg denied f schedule) p -> In D (dirs cfg) ->
     fs (after cfg denied f schedule) (own_dir cfg p D) = Some Directory).
Proof.
  intros H. specialize (H (plain ["output"%string]) nobody with_file [0; 0; 0; 0; 0] 0 ["output"%string] ltac:(cbn; lia)).
  assert (E : fs (after (plain ["output"%string]) nobody with_file [0; 0; 0; 0; 0]) (own_dir (plain ["output"%string]) 0 ["output"%string]) = Some File) by (vm_compute; reflexivity).
  rewrite E in H. enough (Some File = Some Directory) by discriminate. apply H; [|left; reflexivity]. exists 0. vm_compute. reflexivity.
Qed.
Print Assumptions C94_file_in_the_way_refuted.

(* A directory within one that does not exist is not made, though nothing forbids it. *)
Lemma one_process cfg denied f k : nproc cfg = 1 -> let it n := Nat.iter n (fun s => turn cfg denied s 0) (start cfg f) in
  step cfg denied 0 (it k) = None -> forall l, exists n, n <= k /\ after cfg denied f l = it n.
Proof.
  intros N1 it E l. induction l as [|p l IH] using rev_ind; [exists 0; split; [lia|reflexivity]|]. destruct IH as (n & Hn & IH).
  rewrite after_app, IH. unfold run. cbn [fold_left]. destruct p as [|p].
  - destruct (Nat.eq_dec n k) as [->|Nk]; [exists k; split; [lia|]; unfold turn; rewrite E; reflexivity|]. exists (S n). split; [lia|reflexivity].
  - exists n. split; [exact Hn|]. unfold turn, step. rewrite N1. reflexivity.
Qed.
Theorem C94_nested_directory_refuted :
  ~ (forall cfg denied f D, dirs cfg = [D] -> ensemble cfg = false -> 0 < nproc cfg -> f [] = Some Directory -> (forall d, denied d = false) ->
     (forall a, a <> [] -> f a = None) -> exists schedule, finished (after cfg denied f schedule) 0).
Proof.
  intros H. destruct (H (plain ["runs"; "first"]%string) nobody empty_place ["runs"; "first"]%string) as (l & (F1 & F2)); try reflexivity; [cbn; lia|intros [|a b]; [congruence|reflexivity]|].
  destruct (one_process (plain ["runs"; "first"]%string) nobody empty_place 3 eq_refl ltac:(vm_compute; reflexivity) l) as (n & Hn & E).
  rewrite E in F1, F2. destruct n as [|[|[|[|n]]]]; [| | | |lia]; [clear F1|clear F1|clear F1|clear F2]; [revert F2|revert F2|revert F2|revert F1]; vm_compute; discriminate.
Qed.
Print Assumptions C94_nested_directory_refuted.

(* ---- an example for the theorems: four processes, two members; output/ is left from an earlier run ---- *)
Definition pair : setup :=
  Setup 4 2 [["checkpoints"%string]; ["output"%string]]
        (fun m => if m =? 0 then ["wet"%string] else ["dry"%string])
        (fun p => [["output"%string; if p <? 2 then "wet"%string else "dry"%string; "run.h5"%string]]).
Definition used_place : files := fun p => match p with [] => Some Directory | ["output"%string] => Some Directory | _ => None end.
Example C94_example : usable pair nobody used_place /\ ensemble pair = true /\ name pair (member_of pair 1) <> name pair (member_of pair 2).
Proof.
  split; [|split; [reflexivity|discriminate]]. split.
  - intros D a b I E N. destruct I as [<-|[<-|[]]]; (destruct a as [|x a]; [reflexivity|]; destruct a; [|destruct a; discriminate]; cbn in E; injection E as _ E; subst b; congruence).
  - intros _ p Hp. cbn in Hp. destruct p as [|[|[|[|p]]]]; [| | | |lia]; eexists; reflexivity.
  - intros d (D & I & [->|(p & Hp & ->)]); split; try reflexivity.
    + destruct I as [<-|[<-|[]]]; discriminate.
    + cbn in Hp. destruct I as [<-|[<-|[]]]; (destruct p as [|[|[|[|p]]]]; [| | | |lia]; discriminate).
  - intros p x Hp X. cbn in Hp, X. destruct X as [<-|[]]. split; [|split; [|split; [destruct (p <? 2); discriminate|reflexivity]]].
    + exists ["output"%string], "run.h5"%string. split; [right; left; reflexivity|]. destruct p as [|[|[|[|p]]]]; [| | | |lia]; reflexivity.
    + intros (D & I & [E|(q & Hq & E)]); [destruct I as [<-|[<-|[]]]; discriminate|]. cbn in Hq.
      destruct I as [<-|[<-|[]]]; (destruct q as [|[|[|[|q]]]]; [| | | |lia]; destruct (p <? 2); discriminate).
Qed.
