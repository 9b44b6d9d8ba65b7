(** The standalone driver: advancing a simulation to completion, with the checks made after each advance. *)
From Verif Require Import Base DiagModel TimeModel.

(** ** What the driver reports *)
(* driver/main.c:67, 68, 71, 80: the four checks, in the order in which they are made *)
Inductive verdict :=
| Completed (s : run_state)
| Non_increasing_time
| Non_positive_time_step
| Advanced_improperly
| Non_positive_step_index.

(* driver/main.c:71 *)
Definition advance_tolerance : R := / (10 ^ 12).

(** ** One iteration of the loop after RDyAdvance (driver/main.c:65-80) *)
(* [u]: the unit of the configuration (:48), [coupling]: the interval in this unit, [prev]: prev_time; the
   result is the new prev_time or the error.  RDyGetTime and RDyGetTimeStep convert from seconds
   (rdyadvance.c:410-423). *)
Definition after_advance (u : time_unit) (coupling : R) (restarted : bool) (prev : R) (s : run_state) : R + verdict :=
  let time := ConvertTimeFromSeconds (rs_time s) u in
  let time_step := ConvertTimeFromSeconds (rs_dt s) u in
  if negb (prev <? time) then inr Non_increasing_time
  else if negb (0 <? time_step) then inr Non_positive_time_step
  else if (negb restarted && negb (Rabs (time - prev - coupling) <? advance_tolerance))%bool then inr Advanced_improperly
  else if negb (Nat.ltb 0 (rs_step s)) then inr Non_positive_step_index
  else inl (if restarted then time else prev + coupling).

(** ** The loop (driver/main.c:55-85) *)
(* [meas n]: the Courant number the n-th advance leaves in the diagnostics.  The arrays of heights and momenta
   (:82-84) only receive copies.  A run on which the loop does not end has no verdict. *)
Inductive drive (pick : R -> R -> R) (tc : time_config) (u : time_unit) (coupling : R) (restarted : bool) (meas : nat -> R)
  : nat -> run_state -> R -> verdict -> Prop :=
| Drive_done : forall n s prev, RDyFinished tc s = true -> drive pick tc u coupling restarted meas n s prev (Completed s)
| Drive_fail : forall n s prev s' e, RDyFinished tc s = false -> advance pick tc (meas n) s s' ->
    after_advance u coupling restarted prev s' = inr e -> drive pick tc u coupling restarted meas n s prev e
| Drive_next : forall n s prev s' prev' v, RDyFinished tc s = false -> advance pick tc (meas n) s s' ->
    after_advance u coupling restarted prev s' = inl prev' ->
    drive pick tc u coupling restarted meas (S n) s' prev' v -> drive pick tc u coupling restarted meas n s prev v.

(* driver/main.c:47-53: the interval of the configuration, or the one given by the option
   -coupling_interval, in the unit of the configuration *)
Definition chosen_interval (tc : time_config) (opt : option R) : R :=
  match opt with Some x => x | None => RDyGetCouplingInterval tc (tc_unit tc) end.
(* driver/main.c:47-85; [s]: the state after RDySetup, [restarted]: RDyRestarted (rdycore.c:186) *)
Definition run_driver (pick : R -> R -> R) (tc : time_config) (opt : option R) (restarted : bool) (meas : nat -> R) (s : run_state) (v : verdict) : Prop :=
  let u := tc_unit tc in
  let coupling := chosen_interval tc opt in
  drive pick (RDySetCouplingInterval tc u coupling) u coupling restarted meas 0 s (ConvertTimeFromSeconds (rs_time s) u) v.
