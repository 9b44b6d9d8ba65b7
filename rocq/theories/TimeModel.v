(** Time units, choice of the time step, advancing to the next coupling time, termination. *)
From Verif Require Import Base DiagModel.
From Coq Require Import ZArith.

(** ** Time units (include/rdycore.h:58, rdysetup.c:17-103) *)
Inductive time_unit := UNSET | SECONDS | MINUTES | HOURS | DAYS | MONTHS | YEARS.

Definition secs_in_min : R := 60.
Definition mins_in_hr : R := 60.
Definition hrs_in_day : R := 24.
Definition days_in_mon : R := 30.
Definition days_in_yr : R := 365.

(* The default branch is SETERRQ in a function returning PetscReal: it prints a message and returns the
   error code PETSC_ERR_USER, converted to a real, as if it were the time. *)
Definition PETSC_ERR_USER : R := 83.

(* rdysetup.c:38-69 *)
Definition ConvertTimeToSeconds (time : R) (u : time_unit) : R :=
  match u with
  | UNSET => PETSC_ERR_USER
  | SECONDS => time
  | MINUTES => time * secs_in_min
  | HOURS => time * mins_in_hr * secs_in_min
  | DAYS => time * hrs_in_day * mins_in_hr * secs_in_min
  | MONTHS => time * days_in_mon * hrs_in_day * mins_in_hr * secs_in_min
  | YEARS => time * days_in_yr * hrs_in_day * mins_in_hr * secs_in_min
  end.
(* rdysetup.c:74-102; the divisors are nonzero constants *)
Definition ConvertTimeFromSeconds (time : R) (u : time_unit) : R :=
  match u with
  | UNSET => PETSC_ERR_USER
  | SECONDS => time
  | MINUTES => time / secs_in_min
  | HOURS => time / mins_in_hr / secs_in_min
  | DAYS => time / hrs_in_day / mins_in_hr / secs_in_min
  | MONTHS => time / days_in_mon / hrs_in_day / mins_in_hr / secs_in_min
  | YEARS => time / days_in_yr / hrs_in_day / mins_in_hr / secs_in_min
  end.
(* rdyadvance.c:427-432: always returns success *)
Definition RDyConvertTime (from : time_unit) (t : R) (to : time_unit) : R :=
  ConvertTimeFromSeconds (ConvertTimeToSeconds t from) to.

(** ** Time section of the configuration, after validation (yaml_input.c:954-997) *)
Record time_config := TimeConfig {
  tc_unit : time_unit;
  tc_stop : R;               (* final_time, in [tc_unit] *)
  tc_stop_n : nat;           (* max_step *)
  tc_coupling : R;           (* coupling_interval, in [tc_unit] *)
  tc_adaptive : bool;
  tc_target : R;             (* adaptive.target_courant_number *)
  tc_max_factor : R;         (* adaptive.max_increase_factor *)
}.
(* rdyadvance.c:442-447, 450-456 *)
Definition RDyGetCouplingInterval (tc : time_config) (u : time_unit) : R := RDyConvertTime (tc_unit tc) (tc_coupling tc) u.
Definition RDySetCouplingInterval (tc : time_config) (u : time_unit) (x : R) : time_config :=
  TimeConfig (tc_unit tc) (tc_stop tc) (tc_stop_n tc) (ConvertTimeFromSeconds (ConvertTimeToSeconds x u) (tc_unit tc))
             (tc_adaptive tc) (tc_target tc) (tc_max_factor tc).

(* yaml_input.c:969-985: final_time, max_step, time_step; the one missing is computed from the others
   (the cast to an integer truncates).  The check of the number of settings (:975) accepts any number but
   zero, and max_step counts as given even if it is not (it is compared with the sentinel of reals); with
   two settings missing the code computes with sentinels or divides by zero: None here.  With all three
   given, time_step is overwritten. *)
Definition complete_times (stop : option R) (stop_n : option nat) (time_step : option R) : option (R * nat * R) :=
  match stop, stop_n, time_step with
  | None, Some n, Some d => Some (INR n * d, n, d)
  | Some s, None, Some d => obind (rdiv s d) (fun q => Some (s, Z.to_nat (Int_part q), d))
  | Some s, Some n, _ => obind (rdiv s (INR n)) (fun d => Some (s, n, d))
  | _, _, _ => None
  end.

(* rdysetup.c:109-115 (dt is never set before, so the first branch is taken) and the option -dt (:120):
   initial time step, in seconds *)
Definition initial_dt (tc : time_config) (dt_option : option R) : option R :=
  match dt_option with
  | Some d => Some d
  | None => rdiv (ConvertTimeToSeconds (tc_stop tc) (tc_unit tc)) (INR (tc_stop_n tc))
  end.

(** ** Choice of the time step (rdyadvance.c:304-343) *)
(* factor by which dt may grow: target/courant, +infinity when courant is 0, limited by the configured
   factor *)
Definition increase_factor (target courant maxf : R) : R :=
  if Req_EM_T courant 0 then maxf else Rmin (target / courant) maxf.
Definition adapt_dt (target maxf interval dt courant : R) : R :=
  if courant <? target then
    let d := dt * increase_factor target courant maxf in if interval <? d then interval else d
  else dt * (target / courant).

(** ** PETSc's TSSolve with TS_EXACTFINALTIME_MATCHSTEP *)
(* Size of the next step when [rem] is left and the nominal step is [dt] (TSAdaptChoose with the default
   -ts_adapt... match factors 0.01 and 2): take what is left if it is at most 1.01 dt, halve it if it is
   less than 2 dt.  The theorems below hold for any rule satisfying [step_rule]. *)
Definition petsc_pick (dt rem : R) : R :=
  if rem <=? dt * (101/100) then rem else if rem <? 2 * dt then rem / 2 else dt.
Definition step_rule (pick : R -> R -> R) : Prop :=
  forall dt rem, 0 < dt -> 0 < rem ->
    pick dt rem <= rem /\ (pick dt rem = rem \/ dt / 2 <= pick dt rem) /\
    (rem <= dt -> pick dt rem = rem) /\ (2 * dt <= rem -> pick dt rem = dt).

(* TSSolve: steps until the time is reached or the number of steps taken so far is [N] (TSSetMaxSteps,
   None: no limit) *)
Inductive ts_solve (pick : R -> R -> R) (dt T : R) (N : option nat) : R * nat -> R * nat -> Prop :=
| Solve_time : forall t n, T <= t -> ts_solve pick dt T N (t, n) (t, n)
| Solve_limit : forall t n k, t < T -> N = Some k -> (k <= n)%nat -> ts_solve pick dt T N (t, n) (t, n)
| Solve_step : forall t n r, t < T -> (forall k, N = Some k -> (n < k)%nat) ->
    ts_solve pick dt T N (t + pick dt (T - t), S n) r -> ts_solve pick dt T N (t, n) r.

(* rdysetup.c:1203-1205: the limit is set only without adaptive stepping *)
Definition step_limit (tc : time_config) : option nat := if tc_adaptive tc then None else Some (tc_stop_n tc).

(** ** RDyAdvance (rdyadvance.c:261-383): state = time (s), number of steps, dt (s), diagnostics *)
Record run_state := RunState { rs_time : R; rs_step : nat; rs_dt : R; rs_courant : R; rs_updated : bool }.

(* [measured]: the Courant number the operator diagnostics hold after the solve *)
Inductive advance (pick : R -> R -> R) (tc : time_config) (measured : R) : run_state -> run_state -> Prop :=
| Advance : forall s t' n',
    let interval := ConvertTimeToSeconds (tc_coupling tc) (tc_unit tc) in
    let dt := if (tc_adaptive tc && rs_updated s)%bool
              then adapt_dt (tc_target tc) (tc_max_factor tc) interval (rs_dt s) (rs_courant s) else rs_dt s in
    ts_solve pick dt (rs_time s + interval) (step_limit tc) (rs_time s, rs_step s) (t', n') ->
    advance pick tc measured s (RunState t' n' dt measured (tc_adaptive tc)).

(* successive calls, with the Courant number measured at the end of each *)
Inductive advances (pick : R -> R -> R) (tc : time_config) : list R -> run_state -> run_state -> Prop :=
| Advances_nil : forall s, advances pick tc [] s s
| Advances_cons : forall c cs s s1 s2, advance pick tc c s s1 -> advances pick tc cs s1 s2 -> advances pick tc (c :: cs) s s2.

(* rdyadvance.c:388-400 *)
Definition tolerance : R := / (10 ^ 13).
Definition RDyFinished (tc : time_config) (s : run_state) : bool :=
  tc_stop tc - ConvertTimeFromSeconds (rs_time s) (tc_unit tc) <? tolerance.
