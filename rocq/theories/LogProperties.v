(** C98: the log. *)
From Coq Require Import String.
From Verif Require Import Base SetupModel OutputModel MeshMapsProofs LogModel.
Local Notation length := List.length.
Local Open Scope nat_scope.
Local Open Scope string_scope.

(** ** Specification *)
(* the label of a level in the log *)
Definition label (l : nat) : string :=
  match l with 1 => "WARNING: " | 2 => "INFO: " | 3 => "DETAIL: " | 4 => "DEBUG: " | _ => "" end.
(* what a log at the given level holds: the messages at most as detailed as the level, in order, each with its label *)
Definition expected (level : nat) (messages : list (nat * string)) : list string :=
  if Nat.eqb level LOG_NONE then []
  else map (fun x => (label (fst x) ++ snd x ++ newline)%string) (filter (fun x => Nat.leb (fst x) level) messages).
(* the levels the code has *)
Definition valid_messages (messages : list (nat * string)) : Prop := Forall (fun x => 1 <= fst x <= 4) messages.

(** ** One process *)
Definition valid_action (a : action) : Prop := match a with Open _ => True | Log l _ => 1 <= l <= 4 end.
Lemma line_ok l t : 1 <= l <= 4 -> line l t = Ret (label l ++ t ++ newline)%string.
Proof. intros H. destruct l as [|[|[|[|[|l]]]]]; try lia; reflexivity. Qed.
Lemma expected_snoc level done l t : expected level (done ++ [(l, t)]) =
  if Nat.ltb LOG_NONE level && Nat.leb l level then (expected level done ++ [(label l ++ t ++ newline)%string])%list else expected level done.
Proof.
  unfold expected. destruct (Nat.eqb_spec level LOG_NONE) as [-> | N]; [reflexivity|].
  destruct (Nat.ltb_spec LOG_NONE level) as [L | L]; [|unfold LOG_NONE in *; lia]. cbn [andb].
  rewrite filter_app, map_app. cbn [filter fst]. destruct (Nat.leb l level); cbn [map fst snd]; [reflexivity|apply app_nil_r].
Qed.
Lemma write_at_end c t : write_at c (length c) t = (c ++ [Some t])%list.
Proof. induction c as [|x c IH]; cbn [length write_at app]; [reflexivity|]. rewrite IH; reflexivity. Qed.
Lemma set_file_same m f c : files (set_file m f c) f = Some c.
Proof. cbn. rewrite String.eqb_refl; reflexivity. Qed.
Lemma set_file_other m f c g : g <> f -> files (set_file m f c) g = files m g.
Proof. intros N; cbn. destruct (String.eqb_spec g f); congruence. Qed.

(* a process that is not the first of all, and will not open a file: it changes nothing *)
Definition quiet (p : process) : Prop :=
  global_rank p <> 0 /\ Forall valid_action (todo p) /\ (rank p <> 0 \/ Forall (fun a => match a with Open f => f = "" \/ f = "stdout" | _ => True end) (todo p)).
Lemma quiet_step p m : quiet p -> exists p', step p m = Ret (p', m) /\ quiet p'.
Proof.
  intros (G & V & Q). unfold step. destruct (todo p) as [|a rest] eqn:T.
  { exists p; split; [reflexivity|]. unfold quiet; rewrite T; auto. }
  inversion V as [|? ? Va Vr]; subst.
  assert (A : exists s, act p a m = Ret (m, s)).
  { destruct a as [file|l t]; cbn [act].
    - destruct (String.eqb_spec file "") as [e|e]; [eauto|]. unfold PetscFOpen. destruct (Nat.eqb_spec (rank p) 0) as [r|r]; [|eauto].
      destruct Q as [Q|Q]; [congruence|]. inversion Q as [|? ? Q1 Q2]; subst. destruct Q1 as [Q1 | ->]; [congruence|]. cbn. eauto.
    - unfold RDyLog. destruct (_ && _); [|eauto]. rewrite line_ok by assumption. cbn [rbind]. unfold PetscFPrintf.
      destruct (Nat.eqb_spec (global_rank p) 0); [congruence|eauto]. }
  destruct A as (s & ->). cbn [rbind fst snd]. eexists; split; [reflexivity|]. split; [|split]; cbn; auto.
  destruct Q as [Q|Q]; [auto|]. right. inversion Q; assumption.
Qed.

(* the first process of all after it opened a file and logged the messages [done], or before it opened it *)
Definition logging (level : nat) (file : string) (done rest : list (nat * string)) (p : process) (m : machine) : Prop :=
  global_rank p = 0 /\ rank p = 0 /\ LogModel.level p = level /\ todo p = map (fun x => Log (fst x) (snd x)) rest
  /\ log p = Opened file (length (expected level done)) /\ files m file = Some (map Some (expected level done)).
Lemma logging_step level file done l t rest p m : 1 <= l <= 4 -> logging level file done ((l, t) :: rest) p m ->
  exists p' m', step p m = Ret (p', m') /\ logging level file (done ++ [(l, t)])%list rest p' m'
  /\ standard_output m' = standard_output m /\ (forall g, g <> file -> files m' g = files m g).
Proof.
  intros V (G & Rk & Lv & T & Lg & F). unfold step. rewrite T. cbn [map fst snd act]. unfold RDyLog. rewrite Lv.
  unfold logging. rewrite expected_snoc. destruct (_ && _).
  - rewrite line_ok by assumption. cbn [rbind]. unfold PetscFPrintf. rewrite G, Nat.eqb_refl, Lg, F. cbn [of_option rbind fst snd].
    do 2 eexists; split; [reflexivity|]. cbn [global_rank rank LogModel.level todo log]. rewrite set_file_same.
    assert (W : write_at (map Some (expected level done)) (length (expected level done)) (label l ++ t ++ newline)
                = map Some (expected level done ++ [(label l ++ t ++ newline)%string])%list).
    { rewrite map_app. cbn [map]. rewrite <- write_at_end, map_length. reflexivity. }
    rewrite W, app_length. cbn [length]. rewrite Nat.add_1_r.
    split; [repeat split; auto|]. split; [reflexivity|]. intros g Hg; apply set_file_other, Hg.
  - do 2 eexists; split; [reflexivity|]. cbn [fst snd global_rank rank LogModel.level todo log].
    split; [repeat split; auto|]. split; auto.
Qed.
Lemma logging_done level file done p m : logging level file done [] p m -> step p m = Ret (p, m).
Proof. intros (_ & _ & _ & T & _); unfold step; rewrite T; reflexivity. Qed.
(* what the others leave alone *)
Lemma logging_machine level file done rest p m m' : files m' file = files m file -> logging level file done rest p m -> logging level file done rest p m'.
Proof. unfold logging; intros ->; auto. Qed.

(** ** All processes *)
Lemma run_logging level file : forall schedule procs m done rest p0,
  valid_messages rest -> nth_error procs 0 = Some p0 -> logging level file done rest p0 m ->
  (forall i p, 0 < i -> nth_error procs i = Some p -> quiet p) ->
  Forall (fun i => i < length procs) schedule -> length rest <= count_occ Nat.eq_dec schedule 0 ->
  exists procs' m', run schedule procs m = Ret (procs', m')
  /\ files m' file = Some (map Some (expected level (done ++ rest)))
  /\ standard_output m' = standard_output m /\ (forall g, g <> file -> files m' g = files m g).
Proof.
  induction schedule as [|i schedule IH]; intros procs m done rest p0 V N0 L Q B C.
  - cbn [count_occ] in C. destruct rest; cbn [length] in C; [|lia]. exists procs, m. rewrite app_nil_r.
    split; [reflexivity|]. split; [apply L|]. split; auto.
  - inversion B as [|? ? Bi Bs]; subst. cbn [run].
    destruct (nth_error procs i) as [p|] eqn:N; [|apply nth_error_None in N; lia]. cbn [of_option rbind].
    destruct i as [|i].
    + assert (p = p0) by congruence; subst p. destruct rest as [|(l, t) rest].
      * rewrite (logging_done _ _ _ _ _ L). cbn [rbind fst snd].
        destruct (upd_total procs 0 p0 Bi) as (procs1 & U & Len & Get). rewrite U. cbn [of_option rbind].
        apply (IH procs1 m done [] p0); auto.
        -- rewrite Get; reflexivity.
        -- intros j q Hj Nj. rewrite Get in Nj. destruct j; [lia|]. apply (Q (S j)); auto; lia.
        -- rewrite Len; assumption.
        -- cbn; lia.
      * inversion V as [|? ? Vx Vr]; subst. destruct (logging_step level file done l t rest p0 m Vx L) as (p1 & m1 & E & L1 & So & Fo).
        rewrite E. cbn [rbind fst snd]. destruct (upd_total procs 0 p1 Bi) as (procs1 & U & Len & Get). rewrite U. cbn [of_option rbind].
        destruct (IH procs1 m1 (done ++ [(l, t)])%list rest p1) as (procs' & m' & Er & Ff & Sf & Gf); auto.
        -- rewrite Get; reflexivity.
        -- intros j q Hj Nj. rewrite Get in Nj. destruct j; [lia|]. apply (Q (S j)); auto; lia.
        -- rewrite Len; assumption.
        -- cbn [count_occ length] in C. destruct (Nat.eq_dec 0 0); [lia|congruence].
        -- exists procs', m'. rewrite <- app_assoc in Ff. split; [assumption|]. split; [exact Ff|]. split; [congruence|].
           intros g Hg; rewrite Gf, Fo by assumption; reflexivity.
    + destruct (quiet_step p m) as (p1 & E & Q1); [apply (Q (S i)); auto; lia|]. rewrite E. cbn [rbind fst snd].
      destruct (upd_total procs (S i) p1 Bi) as (procs1 & U & Len & Get). rewrite U. cbn [of_option rbind].
      apply (IH procs1 m done rest p0); auto.
      * rewrite Get; assumption.
      * intros j q Hj Nj. rewrite Get in Nj. destruct (Nat.eqb_spec j (S i)); [congruence|]. apply (Q j); auto.
      * rewrite Len; assumption.
Qed.

Lemma start_quiet g r level file messages : g <> 0 -> r <> 0 -> valid_messages messages -> quiet (start g r level file messages).
Proof.
  intros G Rk V; split; [exact G|]. split; [|left; exact Rk]. cbn [start todo]. constructor; [exact I|].
  apply Forall_map. exact V.
Qed.
Lemma start_step level file messages m : file <> "" -> file <> "stdout" ->
  exists p', step (start 0 0 level file messages) m = Ret (p', set_file m file []) /\ logging level file [] messages p' (set_file m file []).
Proof.
  intros N1 N2. unfold step, start. cbn [todo act rank]. destruct (String.eqb_spec file ""); [congruence|].
  unfold PetscFOpen. destruct (String.eqb_spec file "stdout"); [congruence|]. cbn [Nat.eqb rbind fst snd].
  eexists; split; [reflexivity|]. unfold logging. rewrite set_file_same. unfold expected; cbn [filter map]. destruct (Nat.eqb level LOG_NONE); repeat split; auto.
Qed.

(* One simulation on any number of processes: for every schedule in which the first process finishes, the log file holds
   exactly the expected messages of the first process, whatever it held before and whatever the other processes log, and
   nothing else is written. *)
Theorem C98_log level file messages procs schedule m :
  file <> "" -> file <> "stdout" -> valid_messages messages ->
  nth_error procs 0 = Some (start 0 0 level file messages) ->
  (forall i p, 0 < i -> nth_error procs i = Some p -> exists level' ms, valid_messages ms /\ p = start i i level' file ms) ->
  Forall (fun i => i < length procs) schedule -> 1 + length messages <= count_occ Nat.eq_dec schedule 0 ->
  exists procs' m', run schedule procs m = Ret (procs', m')
  /\ files m' file = Some (map Some (expected level messages))
  /\ standard_output m' = standard_output m /\ (forall g, g <> file -> files m' g = files m g).
Proof.
  intros N1 N2 V N0 Others.
  assert (Q : forall i p, 0 < i -> nth_error procs i = Some p -> quiet p).
  { intros i p Hi Np. destruct (Others i p Hi Np) as (l' & ms & Vm & ->). apply start_quiet; auto; lia. }
  clear Others. revert procs m N0 Q. induction schedule as [|i schedule IH]; intros procs m N0 Q B C; [cbn [count_occ] in C; lia|].
  inversion B as [|? ? Bi Bs]; subst. cbn [run]. destruct i as [|i].
  - rewrite N0. cbn [of_option rbind]. destruct (start_step level file messages m N1 N2) as (p' & E & L). rewrite E. cbn [rbind fst snd].
    destruct (upd_total procs 0 p' Bi) as (procs1 & U & Len & Get). rewrite U. cbn [of_option rbind].
    destruct (run_logging level file schedule procs1 (set_file m file []) [] messages p') as (procs' & m' & Er & Ff & Sf & Gf); auto.
    + rewrite Get; reflexivity.
    + intros j q Hj Nj. rewrite Get in Nj. destruct j; [lia|]. apply (Q (S j)); auto; lia.
    + rewrite Len; assumption.
    + cbn [count_occ] in C. destruct (Nat.eq_dec 0 0); [lia|congruence].
    + exists procs', m'. split; [assumption|]. split; [assumption|]. split; [assumption|].
      intros g Hg; rewrite Gf by assumption; apply set_file_other, Hg.
  - destruct (nth_error procs (S i)) as [p|] eqn:N; [|apply nth_error_None in N; lia]. cbn [of_option rbind].
    destruct (quiet_step p m) as (p1 & E & Q1); [apply (Q (S i)); auto; lia|]. rewrite E. cbn [rbind fst snd].
    destruct (upd_total procs (S i) p1 Bi) as (procs1 & U & Len & Get). rewrite U. cbn [of_option rbind].
    apply IH; auto.
    + rewrite Get; assumption.
    + intros j q Hj Nj. rewrite Get in Nj. destruct (Nat.eqb_spec j (S i)); [congruence|]. apply (Q j); auto.
    + rewrite Len; assumption.
Qed.
Print Assumptions C98_log.
Example C98_log_example :
  let procs := [start 0 0 2 "run.log" [(1, "w"); (3, "d"); (2, "i")]; start 1 1 2 "run.log" [(1, "x")]] in
  match run [1; 0; 0; 1; 0; 0] procs (Machine (fun _ => None) []) with
  | Ret (_, m) => files m "run.log" = Some [Some ("WARNING: w" ++ newline); Some ("INFO: i" ++ newline)] | _ => False end.
Proof. reflexivity. Qed.

(* With no file given the messages of the first process go to the output instead, and no file changes. *)
Definition printing (level : nat) (before : list string) (done rest : list (nat * string)) (p : process) (m : machine) : Prop :=
  global_rank p = 0 /\ LogModel.level p = level /\ todo p = map (fun x => Log (fst x) (snd x)) rest
  /\ log p = Stdout /\ standard_output m = (before ++ expected level done)%list.
Lemma printing_step level before done l t rest p m : 1 <= l <= 4 -> printing level before done ((l, t) :: rest) p m ->
  exists p' m', step p m = Ret (p', m') /\ printing level before (done ++ [(l, t)])%list rest p' m' /\ files m' = files m.
Proof.
  intros V (G & Lv & T & Lg & F). unfold step. rewrite T. cbn [map fst snd act]. unfold RDyLog. rewrite Lv.
  unfold printing. rewrite expected_snoc. destruct (_ && _).
  - rewrite line_ok by assumption. cbn [rbind]. unfold PetscFPrintf. rewrite G, Nat.eqb_refl, Lg. cbn [rbind fst snd].
    do 2 eexists; split; [reflexivity|]. cbn [global_rank LogModel.level todo log standard_output files]. rewrite F, app_assoc.
    repeat split; auto.
  - do 2 eexists; split; [reflexivity|]. repeat split; auto.
Qed.
Lemma run_printing level before : forall schedule procs m done rest p0,
  valid_messages rest -> nth_error procs 0 = Some p0 -> printing level before done rest p0 m ->
  (forall i p, 0 < i -> nth_error procs i = Some p -> quiet p) ->
  Forall (fun i => i < length procs) schedule -> length rest <= count_occ Nat.eq_dec schedule 0 ->
  exists procs' m', run schedule procs m = Ret (procs', m')
  /\ standard_output m' = (before ++ expected level (done ++ rest))%list /\ files m' = files m.
Proof.
  induction schedule as [|i schedule IH]; intros procs m done rest p0 V N0 L Q B C.
  - cbn [count_occ] in C. destruct rest; cbn [length] in C; [|lia]. exists procs, m. rewrite app_nil_r.
    split; [reflexivity|]. split; [apply L|reflexivity].
  - inversion B as [|? ? Bi Bs]; subst. cbn [run].
    destruct (nth_error procs i) as [p|] eqn:N; [|apply nth_error_None in N; lia]. cbn [of_option rbind].
    destruct i as [|i].
    + assert (p = p0) by congruence; subst p. destruct rest as [|(l, t) rest].
      * assert (E : step p0 m = Ret (p0, m)) by (destruct L as (_ & _ & T & _); unfold step; rewrite T; reflexivity).
        rewrite E. cbn [rbind fst snd].
        destruct (upd_total procs 0 p0 Bi) as (procs1 & U & Len & Get). rewrite U. cbn [of_option rbind].
        apply (IH procs1 m done [] p0); auto.
        -- rewrite Get; reflexivity.
        -- intros j q Hj Nj. rewrite Get in Nj. destruct j; [lia|]. apply (Q (S j)); auto; lia.
        -- rewrite Len; assumption.
        -- cbn; lia.
      * inversion V as [|? ? Vx Vr]; subst. destruct (printing_step level before done l t rest p0 m Vx L) as (p1 & m1 & E & L1 & Fo).
        rewrite E. cbn [rbind fst snd]. destruct (upd_total procs 0 p1 Bi) as (procs1 & U & Len & Get). rewrite U. cbn [of_option rbind].
        destruct (IH procs1 m1 (done ++ [(l, t)])%list rest p1) as (procs' & m' & Er & Sf & Gf); auto.
        -- rewrite Get; reflexivity.
        -- intros j q Hj Nj. rewrite Get in Nj. destruct j; [lia|]. apply (Q (S j)); auto; lia.
        -- rewrite Len; assumption.
        -- cbn [count_occ length] in C. destruct (Nat.eq_dec 0 0); [lia|congruence].
        -- exists procs', m'. rewrite <- app_assoc in Sf. split; [assumption|]. split; [exact Sf|congruence].
    + destruct (quiet_step p m) as (p1 & E & Q1); [apply (Q (S i)); auto; lia|]. rewrite E. cbn [rbind fst snd].
      destruct (upd_total procs (S i) p1 Bi) as (procs1 & U & Len & Get). rewrite U. cbn [of_option rbind].
      apply (IH procs1 m done rest p0); auto.
      * rewrite Get; assumption.
      * intros j q Hj Nj. rewrite Get in Nj. destruct (Nat.eqb_spec j (S i)); [congruence|]. apply (Q j); auto.
      * rewrite Len; assumption.
Qed.
(* This also holds for ensembles: the members share the output. *)
Theorem C98_output level messages procs schedule m :
  valid_messages messages ->
  nth_error procs 0 = Some (start 0 0 level "" messages) ->
  (forall i p, 0 < i -> nth_error procs i = Some p -> exists rank level' ms, valid_messages ms /\ p = start i rank level' "" ms) ->
  Forall (fun i => i < length procs) schedule -> 1 + length messages <= count_occ Nat.eq_dec schedule 0 ->
  exists procs' m', run schedule procs m = Ret (procs', m')
  /\ standard_output m' = (standard_output m ++ expected level messages)%list /\ files m' = files m.
Proof.
  intros V N0 Others.
  assert (Q : forall i p, 0 < i -> nth_error procs i = Some p -> quiet p).
  { intros i p Hi Np. destruct (Others i p Hi Np) as (r & l' & ms & Vm & ->). split; [cbn; lia|]. split.
    - cbn [start todo]. constructor; [exact I|]. apply Forall_map. exact Vm.
    - right. cbn [start todo]. constructor; [left; reflexivity|]. apply Forall_map, Forall_forall. intros; exact I. }
  clear Others. revert procs m N0 Q. induction schedule as [|i schedule IH]; intros procs m N0 Q B C; [cbn [count_occ] in C; lia|].
  inversion B as [|? ? Bi Bs]; subst. cbn [run]. destruct i as [|i].
  - rewrite N0. cbn [of_option rbind]. unfold step at 1. cbn [start todo act String.eqb rbind fst snd].
    match goal with |- context [upd procs 0 ?q] => set (p' := q) end.
    destruct (upd_total procs 0 p' Bi) as (procs1 & U & Len & Get). rewrite U. cbn [of_option rbind].
    apply (run_printing level (standard_output m) schedule procs1 m [] messages p'); auto.
    + rewrite Get; reflexivity.
    + unfold p', printing. cbn. unfold expected; cbn [filter map]. destruct (Nat.eqb level LOG_NONE); rewrite app_nil_r; repeat split; auto.
    + intros j q Hj Nj. rewrite Get in Nj. destruct j; [lia|]. apply (Q (S j)); auto; lia.
    + rewrite Len; assumption.
    + cbn [count_occ] in C. destruct (Nat.eq_dec 0 0); [lia|congruence].
  - destruct (nth_error procs (S i)) as [p|] eqn:N; [|apply nth_error_None in N; lia]. cbn [of_option rbind].
    destruct (quiet_step p m) as (p1 & E & Q1); [apply (Q (S i)); auto; lia|]. rewrite E. cbn [rbind fst snd].
    destruct (upd_total procs (S i) p1 Bi) as (procs1 & U & Len & Get). rewrite U. cbn [of_option rbind].
    apply IH; auto.
    + rewrite Get; assumption.
    + intros j q Hj Nj. rewrite Get in Nj. destruct (Nat.eqb_spec j (S i)); [congruence|]. apply (Q j); auto.
    + rewrite Len; assumption.
Qed.
Print Assumptions C98_output.
Example C98_output_example :
  match run [1; 0; 0; 1] [start 0 0 4 "" [(3, "d")]; start 1 0 4 "" [(1, "x")]] (Machine (fun _ => None) ["before"]) with
  | Ret (_, m) => standard_output m = ["before"; ("DETAIL: d" ++ newline)%string] | _ => False end.
Proof. reflexivity. Qed.

(* More detail adds messages and changes none: a log at a lower level is the log at a higher one without the messages
   above the level, and no level at all means no messages. *)
Theorem C98_levels lower higher messages : lower <= higher -> lower <> LOG_NONE ->
  expected lower messages = expected higher (filter (fun x => Nat.leb (fst x) lower) messages) /\ expected LOG_NONE messages = [].
Proof.
  intros H N; split; [|reflexivity]. unfold expected. destruct (Nat.eqb_spec lower LOG_NONE); [congruence|].
  destruct (Nat.eqb_spec higher LOG_NONE) as [e|_]; [unfold LOG_NONE in *; lia|]. apply f_equal.
  induction messages as [|(l, t) ms IH]; cbn [filter fst]; [reflexivity|].
  destruct (Nat.leb_spec l lower); cbn [filter fst]; [|exact IH].
  destruct (Nat.leb_spec l higher); [|lia]. f_equal; exact IH.
Qed.
Print Assumptions C98_levels.
Example C98_levels_example : 1 <= 4 /\ 1 <> LOG_NONE /\ expected 1 [(2, "a"); (1, "b")] = [("WARNING: b" ++ newline)%string].
Proof. split; [lia|]. split; [discriminate|reflexivity]. Qed.

(** ** Ensembles *)
(* Whatever the members, the file names and the schedule: nothing that is logged by another process than the first of all
   ever reaches a file or the output.  The messages of the other members are lost. *)
Definition only (level : nat) (messages : list (nat * string)) (m0 m : machine) : Prop :=
  (forall f c t, files m f = Some c -> In (Some t) c -> (exists c0, files m0 f = Some c0 /\ In (Some t) c0) \/ In t (expected level messages))
  /\ (forall t, In t (standard_output m) -> In t (standard_output m0) \/ In t (expected level messages)).
Lemma write_at_in c k t x : In (Some x) (write_at c k t) -> x = t \/ In (Some x) c.
Proof.
  revert c; induction k as [|k IH]; intros [|y c]; cbn [write_at In]; intros H.
  - destruct H as [H|[]]; left; congruence.
  - destruct H as [H|H]; [left; congruence|right; right; exact H].
  - destruct H as [H|H]; [discriminate|]. destruct (IH _ H) as [e|[]]; auto.
  - destruct H as [H|H]; [right; left; exact H|]. destruct (IH _ H) as [e|e]; auto.
Qed.
Lemma only_write level messages m0 m f k t c : In t (expected level messages) -> files m f = Some c -> only level messages m0 m -> only level messages m0 (set_file m f (write_at c k t)).
Proof.
  intros I F (A & B); split; [|exact B]. intros g d x Fg In'. cbn in Fg. destruct (String.eqb_spec g f) as [-> | Ng].
  - inversion Fg; subst d. apply write_at_in in In'. destruct In' as [-> | In']; [right; exact I|]. apply (A f c); assumption.
  - apply (A g d); assumption.
Qed.
Lemma only_open level messages m0 m f : only level messages m0 m -> only level messages m0 (set_file m f []).
Proof.
  intros (A & B); split; [|exact B]. intros g d x Fg In'. cbn in Fg. destruct (String.eqb_spec g f) as [-> | Ng]; [inversion Fg; subst d; destruct In'|].
  apply (A g d); assumption.
Qed.
Definition sound (level : nat) (messages : list (nat * string)) (p : process) : Prop :=
  global_rank p = 0 -> LogModel.level p = level /\ forall l t, In (Log l t) (todo p) -> In (l, t) messages.
Lemma expected_in level messages l t : 1 <= l <= 4 -> In (l, t) messages -> Nat.ltb LOG_NONE level && Nat.leb l level = true ->
  In (label l ++ t ++ newline)%string (expected level messages).
Proof.
  intros V I E. apply andb_true_iff in E; destruct E as (E1 & E2). apply Nat.ltb_lt in E1. unfold expected.
  destruct (Nat.eqb_spec level LOG_NONE); [unfold LOG_NONE in *; lia|]. apply in_map_iff. exists (l, t). split; [reflexivity|].
  apply filter_In. split; assumption.
Qed.
Lemma only_step level messages m0 m p p' m' : valid_messages messages -> sound level messages p -> only level messages m0 m ->
  step p m = Ret (p', m') -> sound level messages p' /\ only level messages m0 m' /\ global_rank p' = global_rank p.
Proof.
  intros V So O E. unfold step in E. destruct (todo p) as [|a rest] eqn:T; [inversion E; subst; auto|].
  destruct (act p a m) as [[m1 s]| |] eqn:A; try discriminate. cbn [rbind fst snd] in E. inversion E; subst p' m'.
  split; [|split; [|reflexivity]].
  - intros G; destruct (So G) as (Lv & Im). split; [exact Lv|]. cbn [todo]. intros l t I; apply Im. rewrite T; right; exact I.
  - destruct a as [file|l t]; cbn [act] in A.
    + destruct (String.eqb file ""); [inversion A; subst; exact O|]. unfold PetscFOpen in A.
      destruct (Nat.eqb (rank p) 0); [|inversion A; subst; exact O]. destruct (String.eqb file "stdout"); inversion A; subst; [exact O|].
      apply only_open, O.
    + unfold RDyLog in A. destruct (_ && _) eqn:C; [|inversion A; subst; exact O].
      destruct (line l t) as [tx| |] eqn:Ln; try discriminate. cbn [rbind] in A. unfold PetscFPrintf in A.
      destruct (Nat.eqb_spec (global_rank p) 0) as [G|G]; [|inversion A; subst; exact O].
      destruct (So G) as (Lv & Im). assert (I : In (l, t) messages) by (apply Im; rewrite T; left; reflexivity).
      assert (Vl : 1 <= l <= 4) by (unfold valid_messages in V; rewrite Forall_forall in V; apply (V _ I)).
      rewrite line_ok in Ln by exact Vl. inversion Ln; subst tx. rewrite Lv in C. pose proof (expected_in level messages l t Vl I C) as Ie.
      destruct (log p) as [|f k| |]; try discriminate.
      * inversion A; subst. destruct O as (O1 & O2). split; [exact O1|]. cbn [standard_output]. intros x Ix. apply in_app_iff in Ix.
        destruct Ix as [Ix|[<- | []]]; auto.
      * destruct (files m f) as [c|] eqn:F; [|discriminate]. cbn [of_option rbind] in A. inversion A; subst. apply only_write; assumption.
Qed.
Theorem C98_members_refuted level messages schedule procs m procs' m' :
  valid_messages messages ->
  (forall i p, nth_error procs i = Some p -> exists rank level' file ms, p = start i rank level' file ms /\ (i = 0 -> level' = level /\ ms = messages)) ->
  run schedule procs m = Ret (procs', m') ->
  (forall f c t, files m' f = Some c -> In (Some t) c -> (exists c0, files m f = Some c0 /\ In (Some t) c0) \/ In t (expected level messages))
  /\ (forall t, In t (standard_output m') -> In t (standard_output m) \/ In t (expected level messages)).
Proof.
  intros V P. assert (S0 : forall i p, nth_error procs i = Some p -> sound level messages p).
  { intros i p N. destruct (P i p N) as (r & l' & f & ms & -> & H0). intros G. cbn in G. destruct (H0 G) as (-> & ->). split; [reflexivity|].
    cbn [start todo]. intros l t [I|I]; [discriminate|]. apply in_map_iff in I. destruct I as ((l0, t0) & E & I). cbn in E. inversion E; subst; exact I. }
  clear P. assert (O : only level messages m m) by (split; eauto).
  change (run schedule procs m = Ret (procs', m') -> only level messages m m').
  enough (Gn : forall mm procs, (forall i p, nth_error procs i = Some p -> sound level messages p) -> only level messages m mm ->
    run schedule procs mm = Ret (procs', m') -> only level messages m m') by (apply (Gn m procs S0 O)).
  clear S0 O procs. induction schedule as [|i schedule IH]; intros mm procs S0 O E; cbn [run] in E.
  - inversion E; subst; exact O.
  - destruct (nth_error procs i) as [p|] eqn:N; [|discriminate]. cbn [of_option rbind] in E.
    destruct (step p mm) as [[p1 m1]| |] eqn:St; try discriminate. cbn [rbind fst snd] in E.
    destruct (only_step level messages m mm p p1 m1 V (S0 _ _ N) O St) as (S1 & O1 & _).
    destruct (upd procs i p1) as [procs1|] eqn:U; [|discriminate]. cbn [of_option rbind] in E.
    apply (IH m1 procs1); auto. intros j q Nj. rewrite (upd_get _ _ _ _ j U) in Nj. destruct (Nat.eqb_spec j i); [inversion Nj; subst; exact S1|].
    apply (S0 j q Nj).
Qed.
Print Assumptions C98_members_refuted.
Example C98_members_refuted_example :
  let procs := [start 0 0 2 "run.log" [(1, "first")]; start 1 0 2 "run.log" [(1, "second")]] in
  match run [0; 1; 1; 0] procs (Machine (fun _ => None) []) with
  | Ret (_, m) => files m "run.log" = Some [Some ("WARNING: first" ++ newline)%string] | _ => False end.
Proof. reflexivity. Qed.

(* The members open the same file, each emptying it: what the first has logged by then is lost. *)
Theorem C98_emptied_refuted : exists procs schedule,
  procs = [start 0 0 1 "run.log" [(1, "a"); (1, "b")]; start 1 0 1 "run.log" []]
  /\ match run schedule procs (Machine (fun _ => None) []) with
     | Ret (procs', m) => Forall (fun p => todo p = []) procs' /\ files m "run.log" = Some [None; Some ("WARNING: b" ++ newline)%string]
     | _ => False end.
Proof. eexists _, [0; 0; 1; 0]. split; [reflexivity|]. cbn. split; [repeat constructor|reflexivity]. Qed.
Print Assumptions C98_emptied_refuted.

(* What is left of C98_log in an ensemble: if every process has opened the file before the first one logs anything, the
   log file holds all messages of the first process.  Nothing in the code makes the processes wait for each other. *)
Definition waiting (file : string) (i : nat) (p : process) : Prop :=
  exists r l ms, valid_messages ms /\ p = start i r l file ms.
Lemma waiting_step file i p m : 0 < i -> file <> "" -> file <> "stdout" -> waiting file i p ->
  exists p' m', step p m = Ret (p', m') /\ quiet p' /\ (m' = m \/ m' = set_file m file []).
Proof.
  intros Hi N1 N2 (r & l & ms & V & ->). unfold step, start. cbn [todo act rank]. destruct (String.eqb_spec file ""); [congruence|].
  unfold PetscFOpen. destruct (String.eqb_spec file "stdout"); [congruence|]. destruct (Nat.eqb r 0); cbn [rbind fst snd];
    (do 2 eexists; split; [reflexivity|]; split; [|auto]; split; [cbn; lia|]; split;
     [apply Forall_map; exact V|right; apply Forall_map, Forall_forall; intros; exact I]).
Qed.
Lemma open_phase level file messages : file <> "" -> file <> "stdout" -> valid_messages messages -> forall s procs m p0,
  nth_error procs 0 = Some p0 ->
  (p0 = start 0 0 level file messages /\ count_occ Nat.eq_dec s 0 = 1 \/ logging level file [] messages p0 m /\ count_occ Nat.eq_dec s 0 = 0) ->
  (forall i p, 0 < i -> nth_error procs i = Some p -> quiet p \/ (waiting file i p /\ In i s)) ->
  Forall (fun i => i < length procs) s ->
  exists procs' m' p', run s procs m = Ret (procs', m') /\ length procs' = length procs /\ nth_error procs' 0 = Some p' /\ logging level file [] messages p' m'
  /\ (forall i p, 0 < i -> nth_error procs' i = Some p -> quiet p)
  /\ standard_output m' = standard_output m /\ (forall g, g <> file -> files m' g = files m g).
Proof.
  intros N1 N2 V. induction s as [|i s IH]; intros procs m p0 N0 P0 Pi B.
  - destruct P0 as [(_ & C)|(L & _)]; [discriminate|]. exists procs, m, p0. split; [reflexivity|]. split; [reflexivity|]. split; [assumption|]. split; [assumption|].
    split; [|auto]. intros i p Hi N. destruct (Pi i p Hi N) as [Q|(_ & [])]; exact Q.
  - inversion B as [|? ? Bi Bs]; subst. cbn [run].
    destruct (nth_error procs i) as [p|] eqn:N; [|apply nth_error_None in N; lia]. cbn [of_option rbind].
    destruct i as [|i].
    + assert (p = p0) by congruence; subst p. destruct P0 as [(E0 & C)|(_ & C)];
        cbn [count_occ] in C; destruct (Nat.eq_dec 0 0) as [_|]; try congruence; try lia.
      subst p0. destruct (start_step level file messages m N1 N2) as (p' & E & L). rewrite E. cbn [rbind fst snd].
      destruct (upd_total procs 0 p' Bi) as (procs1 & U & Len & Get). rewrite U. cbn [of_option rbind].
      destruct (IH procs1 (set_file m file []) p') as (procs' & m' & p'' & Er & Ln & Np & Lp & Qp & Sp & Fp).
      * rewrite Get; reflexivity.
      * right; split; [exact L|lia].
      * intros j q Hj Nj. rewrite Get in Nj. destruct j; [lia|]. destruct (Pi (S j) q) as [Q|(W & [I|I])]; auto; lia.
      * rewrite Len; assumption.
      * exists procs', m', p''. split; [assumption|]. split; [congruence|]. split; [assumption|]. split; [assumption|]. split; [assumption|].
        split; [exact Sp|]. intros g Hg; rewrite Fp by assumption; apply set_file_other, Hg.
    + assert (X : exists p1 m1, step p m = Ret (p1, m1) /\ quiet p1 /\ (m1 = m \/ m1 = set_file m file [])).
      { destruct (Pi (S i) p) as [Q|(W & _)]; [lia|assumption| |apply (waiting_step file (S i)); auto; lia].
        destruct (quiet_step p m Q) as (p1 & E & Q1). exists p1, m; auto. }
      destruct X as (p1 & m1 & E & Q1 & Em). rewrite E. cbn [rbind fst snd].
      destruct (upd_total procs (S i) p1 Bi) as (procs1 & U & Len & Get). rewrite U. cbn [of_option rbind].
      destruct (IH procs1 m1 p0) as (procs' & m' & p'' & Er & Ln & Np & Lp & Qp & Sp & Fp).
      * rewrite Get; assumption.
      * cbn [count_occ] in P0. destruct (Nat.eq_dec (S i) 0); [lia|]. destruct P0 as [P0|(L & C)]; [left; exact P0|right; split; [|exact C]].
        destruct Em as [-> | ->]; [exact L|]. destruct L as (L1 & L2 & L3 & L4 & L5 & L6). unfold logging. rewrite set_file_same.
        repeat split; auto. unfold expected; cbn [filter map]; destruct (Nat.eqb level LOG_NONE); reflexivity.
      * intros j q Hj Nj. rewrite Get in Nj. destruct (Nat.eqb_spec j (S i)); [left; congruence|].
        destruct (Pi j q Hj Nj) as [Q|(W & [I|I])]; auto. congruence.
      * rewrite Len; assumption.
      * exists procs', m', p''. split; [assumption|]. split; [congruence|]. split; [assumption|]. split; [assumption|]. split; [assumption|].
        split; [rewrite Sp; destruct Em as [-> | ->]; reflexivity|].
        intros g Hg; rewrite Fp by assumption. destruct Em as [-> | ->]; [reflexivity|apply set_file_other, Hg].
Qed.
Lemma run_app s1 : forall s2 procs m, run (s1 ++ s2) procs m = let! x := run s1 procs m in run s2 (fst x) (snd x).
Proof.
  induction s1 as [|i s1 IH]; intros s2 procs m; [reflexivity|]. cbn [app run]. destruct (of_option (nth_error procs i)); cbn [rbind]; auto.
  destruct (step _ _) as [x| |]; cbn [rbind]; auto. destruct (of_option _); cbn [rbind]; auto.
Qed.
Theorem C98_ensemble_partial level file messages procs opening later m :
  file <> "" -> file <> "stdout" -> valid_messages messages ->
  nth_error procs 0 = Some (start 0 0 level file messages) ->
  (forall i p, 0 < i -> nth_error procs i = Some p -> exists rank level' ms, valid_messages ms /\ p = start i rank level' file ms) ->
  Forall (fun i => i < length procs) (opening ++ later) ->
  (forall i, i < length procs -> In i opening) -> count_occ Nat.eq_dec opening 0 = 1 ->
  length messages <= count_occ Nat.eq_dec later 0 ->
  exists procs' m', run (opening ++ later) procs m = Ret (procs', m')
  /\ files m' file = Some (map Some (expected level messages))
  /\ standard_output m' = standard_output m /\ (forall g, g <> file -> files m' g = files m g).
Proof.
  intros N1 N2 V N0 Others B All C1 C2. apply Forall_app in B; destruct B as (B1 & B2).
  destruct (open_phase level file messages N1 N2 V opening procs m _ N0) as (procs1 & m1 & p1 & E & Ln & Np & L & Q & So & Fo); auto.
  { intros i p Hi N. right. split; [exact (Others i p Hi N)|]. apply All, nth_error_Some; congruence. }
  rewrite run_app, E. cbn [rbind fst snd].
  destruct (run_logging level file later procs1 m1 [] messages p1) as (procs' & m' & Er & Ff & Sf & Gf); auto.
  { rewrite Ln; exact B2. }
  exists procs', m'. split; [assumption|]. split; [assumption|]. split; [congruence|]. intros g Hg; rewrite Gf, Fo by assumption; reflexivity.
Qed.
Print Assumptions C98_ensemble_partial.
Example C98_ensemble_example :
  match run ([1; 0; 2] ++ [2; 0; 1; 0]) [start 0 0 1 "run.log" [(1, "a"); (1, "b")]; start 1 0 1 "run.log" [(1, "x")]; start 2 0 1 "run.log" []] (Machine (fun _ => None) []) with
  | Ret (_, m) => files m "run.log" = Some [Some ("WARNING: a" ++ newline); Some ("WARNING: b" ++ newline)]%string | _ => False end.
Proof. reflexivity. Qed.

(** ** The name of the file *)
Lemma calls_config cs : (forall c, In c cs -> match c with SetLog _ _ => False | Setup _ _ => True end) ->
  forall rdy f, In (rdy, f) (calls cs "") <-> In (Setup rdy f) cs.
Proof.
  induction cs as [|c cs IH]; intros H rdy f; [reflexivity|]. destruct c as [r g|r g]; [destruct (H (SetLog r g)); left; reflexivity|].
  cbn [calls In]. rewrite (IH (fun c I => H c (or_intror I))). unfold log_file; cbn [String.eqb].
  split; intros [E|E]; auto; left; congruence.
Qed.
Lemma snprintf_short n f : (Z.of_nat (String.length f) < n)%Z -> snprintf n f = f.
Proof.
  intros H; unfold snprintf. assert (G : forall f k, String.length f <= k -> substring 0 k f = f).
  { clear; induction f as [|a f IH]; intros [|k] L; cbn in *; try reflexivity; try lia. rewrite IH; [reflexivity|lia]. }
  apply G; lia.
Qed.
(* Without RDySetLogFile the log goes to the configured file; after it, to the file given, as long as the name fits and
   only one simulator is used. *)
Theorem C98_file : 
  (forall cs, (forall c, In c cs -> match c with SetLog _ _ => False | Setup _ _ => True end) ->
     forall rdy f, In (rdy, f) (calls cs "") <-> In (Setup rdy f) cs)
  /\ (forall rdy names f config before, (Z.of_nat (String.length f) < PETSC_MAX_PATH_LEN)%Z -> f <> "" ->
       calls (map (SetLog rdy) names ++ [SetLog rdy f; Setup rdy config]) before = [(rdy, f)]).
Proof.
  split; [exact calls_config|]. intros rdy names f config before L N. revert before.
  induction names as [|g names IH]; intros before; cbn [map app calls]; [|apply IH].
  unfold RDySetLogFile, log_file. rewrite snprintf_short by exact L. destruct (String.eqb_spec f ""); [congruence|reflexivity].
Qed.
Print Assumptions C98_file.
Example C98_file_example : calls [SetLog 0 "a.log"; SetLog 0 "b.log"; Setup 0 "c.log"] "" = [(0, "b.log")].
Proof. reflexivity. Qed.
(* With two simulators in a process the name given for one is used for the other, whose file of its own is not written. *)
Theorem C98_two_simulators_refuted config0 config1 : calls [SetLog 0 "a.log"; SetLog 1 "b.log"; Setup 0 config0; Setup 1 config1] "" = [(0, "b.log"); (1, "b.log")]
  /\ calls [SetLog 0 "a.log"; Setup 0 config0; Setup 1 config1] "" = [(0, "a.log"); (1, "a.log")].
Proof. split; reflexivity. Qed.
Print Assumptions C98_two_simulators_refuted.
