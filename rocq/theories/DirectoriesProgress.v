(* No process waits for ever while directories are created *)
From Coq Require Import List Arith ZArith Bool String Lia.
From Verif Require Import DirectoriesModel DirectoriesSpec DirectoriesProofs.
Import ListNotations.
Local Open Scope nat_scope.
Local Notation length := List.length.

Lemma choose {A} (Q : nat -> A -> Prop) (a0 : A) n : (forall p, p < n -> exists v, Q p v) -> exists f, forall p, p < n -> Q p (f p).
Proof.
  induction n as [|n IH]; intros H; [exists (fun _ => a0); intros p Hp; lia|].
  destruct IH as (f & F); [intros p Hp; apply H; lia|]. destruct (H n ltac:(lia)) as (v & V).
  exists (fun p => if p =? n then v else f p). intros p Hp. destruct (Nat.eqb_spec p n) as [->|E]; [exact V|apply F; lia].
Qed.
Lemma least (b : nat -> bool) (v : nat -> nat) n : (exists p, p < n /\ b p = true) ->
  exists p, p < n /\ b p = true /\ forall q, q < n -> b q = true -> v p <= v q.
Proof.
  induction n as [|n IH]; intros (p & Hp & B); [lia|].
  destruct (existsb b (seq 0 n)) eqn:E.
  - apply existsb_exists in E. destruct E as (q & Q & Bq). apply in_seq in Q. destruct IH as (m & M1 & M2 & M3); [exists q; split; [lia|exact Bq]|].
    destruct (b n) eqn:Bn; [destruct (Nat.le_gt_cases (v m) (v n)) as [L|L]|].
    + exists m. split; [lia|]. split; [exact M2|]. intros r R Br. destruct (Nat.eq_dec r n) as [->|]; [exact L|apply M3; [lia|exact Br]].
    + exists n. split; [lia|]. split; [exact Bn|]. intros r R Br. destruct (Nat.eq_dec r n) as [->|]; [lia|]. specialize (M3 r ltac:(lia) Br). lia.
    + exists m. split; [lia|]. split; [exact M2|]. intros r R Br. destruct (Nat.eq_dec r n) as [->|]; [congruence|apply M3; [lia|exact Br]].
  - assert (N : forall q, q < n -> b q = false).
    { intros q Q. destruct (b q) eqn:Bq; [|reflexivity]. assert (existsb b (seq 0 n) = true) by (apply existsb_exists; exists q; split; [apply in_seq; lia|exact Bq]). congruence. }
    destruct (Nat.eq_dec p n) as [->|]; [|rewrite (N p ltac:(lia)) in B; discriminate].
    exists n. split; [lia|]. split; [exact B|]. intros r R Br. destruct (Nat.eq_dec r n) as [->|]; [lia|rewrite (N r ltac:(lia)) in Br; discriminate].
Qed.

Definition active (s : state) (p : nat) : bool :=
  match stat (procs s p) with Running => match todo (procs s p) with [] => false | _ => true end | _ => false end.

Lemma pos_bound cfg p t i k : at_pos cfg p t i k -> k < 8 /\ st cfg <= k /\ i <= length (dirs cfg).
Proof.
  intros [i' k' d D K T|j T]; [split; [lia|]; split; [lia|]; assert (i' < length (dirs cfg)) by (apply nth_error_Some; congruence); lia|].
  unfold st. destruct (ensemble cfg); lia.
Qed.
Lemma pos_empty cfg p i k : at_pos cfg p [] i k -> i = length (dirs cfg).
Proof.
  intros P. remember [] as t eqn:Et. destruct P as [i' k' d D K T|j T]; [|reflexivity]. rewrite Et in T.
  assert (KK : k' = 0 \/ k' = 1 \/ k' = 2 \/ k' = 3 \/ k' = 4 \/ k' = 5 \/ k' = 6 \/ k' = 7) by lia.
  destruct KK as [-> | [-> | [-> | [-> | [-> | [-> | [-> | ->]]]]]]]; discriminate.
Qed.

Lemma progress cfg denied s : good cfg s ->
  (ensemble cfg = false \/ forall p, p < nproc cfg -> forall d, stat (procs s p) <> NoDirectory d) ->
  (exists p, p < nproc cfg /\ active s p = true) -> exists p s', step cfg denied p s = Some s'.
Proof.
  intros G NF Ex.
  destruct (choose (fun p v => at_work cfg (fs s) (sent s) p (procs s p) (fst v) (snd v)) (0, 0) (nproc cfg)) as (pos & Pos).
  { intros p Hp. destruct (g_proc _ _ G p Hp) as (i & k & W). exists (i, k). exact W. }
  destruct (least (active s) (fun p => 8 * fst (pos p) + snd (pos p)) (nproc cfg) Ex) as (p & Hp & Ap & Min).
  (* who is not active is past all directories or failed *)
  assert (Idle : forall q, q < nproc cfg -> active s q = false -> fst (pos q) = length (dirs cfg) \/
            (accepted (buf (procs s q)) = false /\ (snd (pos q) = 2 \/ snd (pos q) = 5) /\ ensemble cfg = false)).
  { intros q Hq Aq. pose proof (Pos q Hq) as W. pose proof (w_stat _ _ _ _ _ _ _ W) as S. pose proof (w_pos _ _ _ _ _ _ _ W) as P. unfold active in Aq.
    destruct (stat (procs s q)) as [|d|f|] eqn:Es.
    - destruct (todo (procs s q)) as [|o t]; [|discriminate]. left. apply (pos_empty _ _ _ _ P).
    - right. destruct S as (Ac & d' & D & K). split; [exact Ac|]. split; [destruct K as [(-> & _)|(-> & _)]; [left|right]; reflexivity|].
      destruct NF as [NF|NF]; [exact NF|]. exfalso. apply (NF q Hq d Es).
    - left. exact S.
    - destruct S. }
  pose proof (Pos p Hp) as W. pose proof W as [P CG CO _ _ _ _ _ PO _ _]. unfold active in Ap. destruct (stat (procs s p)) eqn:Es; try discriminate.
  assert (Lp : (p <? nproc cfg) = true) by (apply Nat.ltb_lt; exact Hp).
  destruct (pos p) as [i k] eqn:Ep. cbn [fst snd] in P, CG, CO, PO, Min. 
  destruct P as [i k d D K T|j T].
  2:{ exists p. unfold step. rewrite Lp, Es, T. cbn [negb]. rewrite T in Ap. destruct (skipn j (opens cfg p)) as [|f t]; [discriminate|]. cbn [map].
      destruct (snd (open_file denied (fs s) f)); eexists; reflexivity. }
  assert (Hi : i < length (dirs cfg)) by (apply nth_error_Some; congruence).
  assert (KK : k = 0 \/ k = 1 \/ k = 2 \/ k = 3 \/ k = 4 \/ k = 5 \/ k = 6 \/ k = 7) by lia.
  destruct KK as [-> | [-> | [-> | [-> | [-> | [-> | [-> | ->]]]]]]]; cbn [ops8 CreateDirectory app skipn] in T.
  - exists p. unfold step. rewrite Lp, Es, T. cbn [negb]. destruct (p =? first cfg Global); eexists; reflexivity.
  - assert (En : ensemble cfg = true) by (destruct (ensemble cfg) eqn:En; [reflexivity|unfold st in K; rewrite En in K; lia]).
    assert (CG' : calls (procs s p) Global = i * (g cfg + 1)) by (rewrite CG; unfold calls_global; cbn; lia).
    destruct (nth_error (sent s Global) (i * (g cfg + 1))) as [m|] eqn:Em.
    + exists p. unfold step. rewrite Lp, Es, T. cbn [negb]. destruct (p =? first cfg Global); [eexists; reflexivity|]. rewrite CG', Em. destruct m; eexists; reflexivity.
    + apply nth_error_None in Em. rewrite (g_lenG _ _ G) in Em. pose proof (first_global cfg p Hp) as Hr. remember (first cfg Global) as r eqn:Er.
      pose proof (Pos r Hr) as Wr. pose proof Wr as [Pr CGr _ _ _ _ _ _ _ _ _]. rewrite CGr in Em. destruct (pos_bound _ _ _ _ _ Pr) as (B1 & B2 & B3).
      assert (R : fst (pos r) < i \/ (fst (pos r) = i /\ snd (pos r) < 2)).
      { unfold calls_global, g in Em. rewrite En in Em. destruct (Nat.ltb_spec (snd (pos r)) 2); destruct (Nat.ltb_spec (snd (pos r)) 7); lia. }
      destruct (active s r) eqn:Ar.
      * specialize (Min r Hr Ar). assert (Ei : fst (pos r) = i) by lia. assert (Ek : snd (pos r) = 1) by lia.
        exists r. unfold step. assert (Lr : (r <? nproc cfg) = true) by (apply Nat.ltb_lt; exact Hr). unfold active in Ar.
        destruct (stat (procs s r)) eqn:Esr; try discriminate. rewrite Lr. cbn [negb].
        rewrite Ei, Ek in Pr. remember 1 as one. destruct Pr as [i' k' d' D' K' T'|j' T']; [|lia]. subst k'. rewrite T'. cbn [ops8 CreateDirectory app skipn].
        rewrite <- Er, Nat.eqb_refl. eexists. reflexivity.
      * destruct (Idle r Hr Ar) as [X|(_ & _ & X)]; [lia|congruence].
  - exists p. unfold step. rewrite Lp, Es, T. cbn [negb]. destruct (accepted (buf (procs s p))); eexists; reflexivity.
  - exists p. unfold step. rewrite Lp, Es, T. cbn [negb]. destruct (p =? first cfg (Own (member_of cfg p))); eexists; reflexivity.
  - assert (CO' : calls (procs s p) (Own (member_of cfg p)) = i) by (rewrite CO; unfold calls_own; cbn; lia).
    destruct (nth_error (sent s (Own (member_of cfg p))) i) as [m|] eqn:Em.
    + exists p. unfold step. rewrite Lp, Es, T. cbn [negb]. destruct (p =? first cfg (Own (member_of cfg p))); [eexists; reflexivity|]. rewrite CO', Em. destruct m; eexists; reflexivity.
    + apply nth_error_None in Em. rewrite (g_lenO _ _ G p Hp) in Em. destruct (first_own cfg p Hp) as [Hr Mr]. remember (first cfg (Own (member_of cfg p))) as r eqn:Er.
      pose proof (Pos r Hr) as Wr. pose proof Wr as [Pr _ COr _ _ _ W5r _ _ _ _]. rewrite <- Mr, COr in Em. destruct (pos_bound _ _ _ _ _ Pr) as (B1 & B2 & B3).
      assert (R : fst (pos r) < i \/ (fst (pos r) = i /\ snd (pos r) < 5)).
      { unfold calls_own in Em. destruct (Nat.ltb_spec (snd (pos r)) 5); lia. }
      destruct (active s r) eqn:Ar.
      * specialize (Min r Hr Ar). assert (Ei : fst (pos r) = i) by lia. assert (Ek : snd (pos r) = 4) by lia.
        exists r. unfold step. assert (Lr : (r <? nproc cfg) = true) by (apply Nat.ltb_lt; exact Hr). unfold active in Ar.
        destruct (stat (procs s r)) eqn:Esr; try discriminate. rewrite Lr. cbn [negb].
        rewrite Ei, Ek in Pr. remember 4 as four. destruct Pr as [i' k' d' D' K' T'|j' T']; [|lia]. subst k'. rewrite T'. cbn [ops8 CreateDirectory app skipn].
        rewrite Mr, <- Er, Nat.eqb_refl. eexists. reflexivity.
      * destruct (Idle r Hr Ar) as [X|(Ac & [X|X] & En)]; [lia|unfold st in B2; rewrite En in B2; lia|].
        destruct (PO (fst (pos r)) ltac:(lia)) as (a & Gt & Aa). specialize (W5r X). rewrite Mr in W5r. unfold got in *. rewrite Gt in W5r. injection W5r as ->. congruence.
  - exists p. unfold step. rewrite Lp, Es, T. cbn [negb]. destruct (accepted (buf (procs s p))); eexists; reflexivity.
  - exists p. unfold step. rewrite Lp, Es, T. cbn [negb]. eexists. reflexivity.
  - exists p. unfold step. rewrite Lp, Es, T. cbn [negb].
    assert (B : forallb (fun q => calls (procs s p) Global <=? calls (procs s q) Global) (members cfg Global) = true); [|rewrite B; eexists; reflexivity].
    apply forallb_forall. intros q Iq. apply in_seq in Iq. assert (Hq : q < nproc cfg) by lia. apply Nat.leb_le. rewrite CG.
    pose proof (Pos q Hq) as [Pq CGq _ _ _ _ W5q _ _ _ _]. rewrite CGq. destruct (pos_bound _ _ _ _ _ Pq) as (B1 & B2 & B3).
    assert (R : i < fst (pos q) \/ (i = fst (pos q) /\ 7 <= snd (pos q))).
    { destruct (active s q) eqn:Aq; [specialize (Min q Hq Aq); lia|]. destruct (Idle q Hq Aq) as [X|(Ac & [X|X] & En)]; [lia|unfold st in B2; rewrite En in B2; lia|].
      destruct (Nat.lt_ge_cases i (fst (pos q))) as [L|L]; [left; exact L|exfalso].
      assert (M : member_of cfg q = member_of cfg p) by (unfold member_of; rewrite En; reflexivity).
      destruct (PO (fst (pos q)) ltac:(lia)) as (a & Gt & Aa). specialize (W5q X). rewrite M in W5q. unfold got in *. rewrite Gt in W5q. injection W5q as ->. congruence. }
    unfold calls_global. destruct (Nat.ltb_spec 7 2); [lia|]. destruct (Nat.ltb_spec 7 7); [lia|]. 
    destruct (Nat.ltb_spec (snd (pos q)) 2); destruct (Nat.ltb_spec (snd (pos q)) 7); unfold g; destruct (ensemble cfg); lia.
Qed.

(* ---- every step brings the end nearer ---- *)
Definition left_of (x : proc) : nat := match stat x with Running => S (length (todo x)) | _ => 0 end.
Definition work (cfg : setup) (s : state) : nat := list_sum (map (fun p => left_of (procs s p)) (seq 0 (nproc cfg))).
Lemma sum_less (a b : nat -> nat) p l : In p l -> (forall q, a q <= b q) -> a p < b p -> list_sum (map a l) < list_sum (map b l).
Proof.
  intros I L P. induction l as [|q l IH]; [destruct I|]. cbn [map list_sum fold_right]. 
  assert (LL : list_sum (map a l) <= list_sum (map b l)) by (clear - L; induction l as [|r l IH]; cbn; [lia|]; specialize (L r); unfold list_sum in IH; lia).
  unfold list_sum in *. destruct I as [->|I]; [lia|]. specialize (IH I). specialize (L q). lia.
Qed.
Lemma step_work cfg denied p s s' : step cfg denied p s = Some s' -> work cfg s' < work cfg s.
Proof.
  intros E. unfold step in E. destruct (Nat.ltb_spec p (nproc cfg)) as [Hp|]; [|discriminate]. cbn [negb] in E.
  destruct (stat (procs s p)) eqn:Es; try discriminate.
  assert (Q : forall f' x' sn', left_of x' <= length (todo (procs s p)) -> work cfg (State f' (upd_proc s p x') sn') < work cfg s).
  { intros f' x' sn' L. unfold work. cbn [procs]. apply sum_less with (p := p).
    - apply in_seq. lia.
    - intros q. destruct (Nat.eq_dec q p) as [->|N]; [rewrite upd_same; unfold left_of at 2; rewrite Es; lia|rewrite (upd_other _ _ _ _ N); lia].
    - rewrite upd_same. unfold left_of at 2. rewrite Es. lia. }
  destruct (todo (procs s p)) as [|[c d|c|d|c|c|f] t] eqn:Et; try discriminate.
  - destruct (p =? first cfg c); injection E as <-; unfold local; apply Q; reflexivity.
  - destruct (p =? first cfg c); [injection E as <-; apply Q; reflexivity|]. destruct (nth_error (sent s c) (calls (procs s p) c)) as [[a|]|]; [| |discriminate];
      injection E as <-; unfold local; apply Q; unfold left_of; cbn; lia.
  - destruct (accepted (buf (procs s p))); injection E as <-; unfold local; apply Q; unfold left_of; cbn; lia.
  - injection E as <-. apply Q. reflexivity.
  - destruct (forallb _ _); [|discriminate]. injection E as <-. unfold local. apply Q. reflexivity.
  - destruct (snd (open_file denied (fs s) f)); injection E as <-; unfold local; apply Q; unfold left_of; cbn; lia.
Qed.

(* from a state from which a process can always move on, some schedule ends the run *)
Lemma run_ends cfg denied (P : state -> Prop) : (forall p s s', P s -> step cfg denied p s = Some s' -> P s') ->
  (forall s, P s -> (exists p, p < nproc cfg /\ active s p = true) -> exists p s', step cfg denied p s = Some s') ->
  forall s, P s -> exists more, length more <= work cfg s /\ forall p, p < nproc cfg -> active (run cfg denied more s) p = false.
Proof.
  intros H1 H2 s. remember (work cfg s) as w eqn:Ew. revert s Ew. induction w as [w IH] using lt_wf_ind. intros s -> Hs.
  destruct (existsb (active s) (seq 0 (nproc cfg))) eqn:E.
  - apply existsb_exists in E. destruct E as (q & Q & A). apply in_seq in Q. destruct (H2 s Hs) as (p & s' & E'); [exists q; split; [lia|exact A]|].
    pose proof (step_work cfg denied p s s' E') as L. destruct (IH _ L s' eq_refl (H1 p s s' Hs E')) as (more & M1 & M2).
    exists (p :: more). split; [cbn; lia|]. unfold run. cbn [fold_left]. unfold turn at 2. rewrite E'. exact M2.
  - exists []. split; [cbn; lia|]. intros p Hp. unfold run. cbn [fold_left]. destruct (active s p) eqn:A; [|reflexivity].
    assert (existsb (active s) (seq 0 (nproc cfg)) = true) by (apply existsb_exists; exists p; split; [apply in_seq; lia|exact A]). congruence.
Qed.
