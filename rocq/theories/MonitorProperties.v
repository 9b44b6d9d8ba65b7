(** * C82: requested records are kept up for the whole simulation *)
From Verif Require Import Base SetupModel GridModel OutputModel MonitorModel MonitorSpec MonitorProofs.
Local Open Scope nat_scope.

(* Visualization output is asked for exactly once at the beginning, between and at the end of the steps of every
   coupling interval, in order, whatever the history of intervals and refinements, from a fresh start and from a
   configured restart, in every format. *)
Theorem C82_fields : forall c es s,
  accepted c -> mc_enable c = true -> own_restarts es -> simulate c es = Ret s ->
  asked c Fields s = visited c (first_step c) es.
Proof.
  intros c es s Ha En Ho H. unfold simulate in H. apply rbind_ret in H as (s0 & H0 & H).
  destruct (setup_facts c s0 H0) as (Ok & St & Ca & _ & Op & Hs).
  rewrite (fields_run c es Ha En Ho s0 s); [unfold asked at 1; rewrite Ca, St; reflexivity| |exact H].
  split; [exact Ok|]. split; [exact Op|]. destruct Hs as [Hs|Hs]; auto.
Qed.
Print Assumptions C82_fields.

(* Checkpoints, as long as the mesh is not refined.  Missing: see C82_checkpoints_refuted. *)
Theorem C82_checkpoints_partial : forall c es s,
  accepted c -> wanted c Checkpoints -> no_refinement es -> simulate c es = Ret s ->
  asked c Checkpoints s = visited c (first_step c) es.
Proof.
  intros c es s Ha W Hr H. unfold simulate in H. apply rbind_ret in H as (s0 & H0 & H).
  destruct (setup_facts c s0 H0) as (Ok & St & Ca & Cp & _).
  rewrite (checkpoints_run c es Ha Hr s0 s Ok (Cp W) H). unfold asked at 1. rewrite Ca, St. reflexivity.
Qed.
Print Assumptions C82_checkpoints_partial.

(* Time series, as long as the mesh is not refined and the simulation starts from step 0 (which includes restarts with
   reinitialize).  Missing: see C82_series_refuted. *)
Theorem C82_series_partial : forall c es s,
  accepted c -> wanted c Series -> first_step c = 0 -> no_refinement es -> own_restarts es -> simulate c es = Ret s ->
  asked c Series s = visited c 0 es.
Proof.
  intros c es s Ha W F0 Hr Ho H. unfold simulate in H. apply rbind_ret in H as (s0 & H0 & H).
  destruct (setup_facts c s0 H0) as (Ok & St & Ca & _ & _ & _).
  rewrite (series_run c es Ha W Hr Ho s0 s Ok (or_introl (eq_trans St F0)) H). unfold asked at 1. rewrite Ca, St, F0. reflexivity.
Qed.
Print Assumptions C82_series_partial.

(* No error and no undefined behaviour: with XDMF or CGNS output, or none, for every history, *)
Theorem C82_defined : forall c es,
  accepted c -> intervals_given c -> mc_format c <> OUTPUT_BINARY -> exists s, simulate c es = Ret s.
Proof.
  intros c es Ha Hg Hb. unfold simulate. destruct (setup_good c) as (s0 & E & G & N & _). rewrite E. simpl.
  exact (run_defined c es Ha Hg Hb s0 G N).
Qed.
Print Assumptions C82_defined.

(* and with binary output for histories that begin with an interval, always take a step and end with the simulation,
   unless they restart at step 0.  Missing: see C82_binary_refuted. *)
Theorem C82_defined_binary_partial : forall c es,
  accepted c -> intervals_given c -> mc_format c = OUTPUT_BINARY ->
  (mc_restart c <> None -> first_step c <> 0) -> starts_with_advance es -> proceeds es -> own_restarts es -> ends_last es ->
  exists s, simulate c es = Ret s.
Proof.
  intros c es Ha Hg Hb Hr Hs Hp Ho He. unfold simulate. destruct (setup_good c) as (s0 & E & G & N & St & Rf & Rr & Rs). rewrite E. simpl.
  destruct es as [|[n final| |n] t]; simpl; [eauto| |contradiction|specialize (Ho _ (or_introl eq_refl)); discriminate].
  destruct He as [He1 He]. pose proof (Hp n final (or_introl eq_refl)) as Hn.
  destruct (advance_good c n final s0 Ha Hg G) as (s1 & E1 & S1 & F1 & R1 & Q1 & G1 & _); [|auto|].
  - intros _. unfold t_start, t_restart. rewrite Rf, Rr, Rs, St. destruct (mc_restart c) as [r|] eqn:Er.
    + assert (first_step c <> 0) by (apply Hr; discriminate). destruct (Nat.eqb_spec (first_step c) 0); [contradiction|]. simpl.
      rewrite Nat.eqb_refl. exact N.
    + simpl. destruct (Nat.eqb (first_step c) 0); [exact N|exact I].
  - rewrite E1. simpl. destruct final; [rewrite (He1 eq_refl); simpl; eauto|].
    apply (run_defined_binary c t Ha Hg Hb).
    + intros m b Hi. apply (Hp m b). right. exact Hi.
    + intros x Hx. apply Ho. right. exact Hx.
    + exact He.
    + split; [auto|]. split; [lia|]. split; [|congruence]. intros r Er Es. rewrite R1 in Er. rewrite Q1, Rs in Es.
      destruct (mc_restart c); [|discriminate]. injection Es as <-. lia.
Qed.
Print Assumptions C82_defined_binary_partial.

(* Refinement makes a new time integrator, on which neither the checkpoints nor the time series are registered
   again: no checkpoint is written after the first refinement, *)
Theorem C82_checkpoints_refuted : exists c es s,
  accepted c /\ intervals_given c /\ wanted c Checkpoints /\ simulate c es = Ret s /\
  visited c (first_step c) es = [0; 1; 2; 2; 3; 4] /\ asked c Checkpoints s = [0; 1; 2].
Proof.
  exists (MConfig true OUTPUT_XDMF 1 false 0 0 1 false None false), [Advance 2 false; PerformAMR; Advance 2 true].
  eexists. split; [intros _; split; discriminate|]. split; [split; [intros [H|H]; exact H|discriminate]|].
  split; [discriminate|]. split; [lazy; reflexivity|]. split; lazy; reflexivity.
Qed.
Print Assumptions C82_checkpoints_refuted.

(* and the time series stop there too; they are also missing altogether after a restart from a later step. *)
Theorem C82_series_refuted :
  (exists c es s, accepted c /\ intervals_given c /\ wanted c Series /\ simulate c es = Ret s /\
     visited c (first_step c) es = [0; 1; 2; 2; 3; 4] /\ asked c Series s = [0; 1; 2]) /\
  (exists c es s, accepted c /\ intervals_given c /\ wanted c Series /\ mc_restart c = Some 5 /\ own_restarts es /\ simulate c es = Ret s /\
     visited c (first_step c) es = [5; 6; 7] /\ asked c Series s = []).
Proof.
  split.
  - exists (MConfig true OUTPUT_XDMF 1 false 1 0 0 false None false), [Advance 2 false; PerformAMR; Advance 2 true].
    eexists. split; [intros _; split; discriminate|]. split; [split; discriminate|].
    split; [left; discriminate|]. split; [lazy; reflexivity|]. split; lazy; reflexivity.
  - exists (MConfig true OUTPUT_XDMF 1 false 1 0 0 false (Some 5) false), [Advance 2 true].
    eexists. split; [intros _; split; discriminate|]. split; [split; discriminate|].
    split; [left; discriminate|]. split; [lazy; reflexivity|]. split; [intros e [<-|[]]; reflexivity|]. split; [lazy; reflexivity|]. split; lazy; reflexivity.
Qed.
Print Assumptions C82_series_refuted.

(* A program that reads a checkpoint itself (RDyReadHDF5CheckpointFile) before the first interval gets no output at all. *)
Theorem C82_read_checkpoint_refuted : exists c es s,
  accepted c /\ intervals_given c /\ mc_enable c = true /\ wanted c Series /\ simulate c es = Ret s /\
  visited c (first_step c) es = [3; 4; 5] /\ asked c Fields s = [] /\ asked c Series s = [].
Proof.
  exists (MConfig true OUTPUT_XDMF 1 false 1 0 0 false None false), [ReadCheckpoint 3; Advance 2 true].
  eexists. split; [intros _; split; discriminate|]. split; [split; discriminate|].
  split; [lazy; reflexivity|]. split; [left; discriminate|]. split; [lazy; reflexivity|]. split; [lazy; reflexivity|]. split; lazy; reflexivity.
Qed.
Print Assumptions C82_read_checkpoint_refuted.

(* With binary output the viewer is set up twice in one interval, and the first monitor is left with a destroyed
   object, if the mesh is refined before the first interval (as driver/amr.c does) or the simulation restarts with
   reinitialize. *)
Theorem C82_binary_refuted :
  let c restart := MConfig true OUTPUT_BINARY 1 false 0 0 0 false restart true in
  accepted (c None) /\ simulate (c None) [PerformAMR; Advance 1 false] = UB /\
  accepted (c (Some 4)) /\ simulate (c (Some 4)) [Advance 1 false] = UB.
Proof. cbv zeta. split; [intros _; split; discriminate|]. split; [lazy; reflexivity|]. split; [intros _; split; discriminate|reflexivity]. Qed.
Print Assumptions C82_binary_refuted.

(* Output requested by output.time_interval alone in another format than XDMF: with detailed logging the first call
   divides by the missing step interval. *)
Theorem C82_log_refuted :
  let c := MConfig true OUTPUT_CGNS 0 true 0 0 0 true None false in
  accepted c /\ simulate c [Advance 1 false] = UB.
Proof. cbv zeta. split; [intros _; split; [discriminate|reflexivity]|reflexivity]. Qed.
Print Assumptions C82_log_refuted.

(* The hypotheses at work: a simulation restarted at step 6 with XDMF output, time series and checkpoints, refined
   between its intervals; and one with binary output. *)
Example C82_example :
  let c := MConfig true OUTPUT_XDMF 2 true 3 0 4 false (Some 6) false in
  let es := [Advance 2 false; PerformAMR; PerformAMR; Advance 1 false; Advance 1 true] in
  accepted c /\ intervals_given c /\ own_restarts es /\
  exists s, simulate c es = Ret s /\ asked c Fields s = [6; 7; 8; 8; 9; 9; 10].
Proof.
  cbv zeta. split; [intros _; split; discriminate|]. split; [split; [intros _; discriminate|intros _ H; exfalso; apply H; reflexivity]|].
  split; [intros e [<-|[<-|[<-|[<-|[<-|[]]]]]]; reflexivity|]. eexists. split; lazy; reflexivity.
Qed.
Example C82_example_series :
  let c := MConfig true OUTPUT_BINARY 2 true 3 7 4 true None false in
  let es := [Advance 2 false; Advance 1 true] in
  accepted c /\ intervals_given c /\ no_refinement es /\ own_restarts es /\ proceeds es /\ ends_last es /\
  exists s, simulate c es = Ret s /\ asked c Series s = [0; 1; 2; 2; 3] /\ asked c Checkpoints s = [0; 1; 2; 2; 3] /\ asked c Fields s = [0; 1; 2; 2; 3].
Proof.
  cbv zeta. split; [intros _; split; [discriminate|reflexivity]|]. split; [split; [intros _; discriminate|intros; discriminate]|].
  split; [intros e [<-|[<-|[]]]; reflexivity|]. split; [intros e [<-|[<-|[]]]; reflexivity|].
  split; [intros n b [H|[H|[]]]; injection H as <- _; discriminate|].
  split; [split; [discriminate|split; [intros _; reflexivity|exact I]]|].
  eexists. split; [lazy; reflexivity|]. split; [lazy; reflexivity|]. split; lazy; reflexivity.
Qed.
