(** The monitors of the time integrator through the life of a simulation: which records (fields, time series,
    checkpoints) are asked for at which steps, across coupling intervals, mesh refinement and restarts
    (src/rdyadvance.c, src/time_series.c, src/checkpoint.c, src/rdysetup.c, src/rdyamr.c). *)
From Verif Require Import Base SetupModel GridModel OutputModel.
Local Open Scope nat_scope.

(* A function registered with TSMonitorSet and its context.  [TSMonitorSolution] has the viewer-and-format object
   rdy->output_vf as context: objects are numbered in the order of their creation, and [None] is NULL.
   [OptionMonitor] is the monitor PETSc itself installs for the option -ts_monitor_solution. *)
Inductive mon := WriteXDMFOutput | WriteOutputLogMessage | TSMonitorSolution (vf : option nat) | OptionMonitor | WriteTimeSeries | WriteCheckpoint.
Definition same_vf (a b : option nat) : bool :=
  match a, b with Some i, Some j => Nat.eqb i j | None, None => true | _, _ => false end.
Definition same_mon (a b : mon) : bool :=
  match a, b with
  | WriteXDMFOutput, WriteXDMFOutput | WriteOutputLogMessage, WriteOutputLogMessage | OptionMonitor, OptionMonitor
  | WriteTimeSeries, WriteTimeSeries | WriteCheckpoint, WriteCheckpoint => true
  | TSMonitorSolution v, TSMonitorSolution w => same_vf v w
  | _, _ => false
  end.

(* rdyconfigimpl.h: the settings that decide *)
Record mconfig := MConfig {
  mc_enable : bool;            (* output.enable *)
  mc_format : out_format;      (* output.format, after SetAdditionalOptions *)
  mc_interval : nat;           (* output.output_interval *)
  mc_detail : bool;            (* logging.level >= LOG_DETAIL *)
  mc_boundary : nat;           (* output.time_series.boundary_fluxes *)
  mc_observations : nat;       (* output.time_series.observations.interval *)
  mc_checkpoint : nat;         (* checkpoint.interval *)
  mc_option : bool;            (* -ts_monitor_solution is in the options database after SetAdditionalOptions *)
  mc_restart : option nat;     (* restart.file: the step stored in it *)
  mc_reinitialize : bool;      (* restart.reinitialize *)
}.

(* rdycoreimpl.h and the state of the TS; [s_calls]: every call of a monitor with its step, in order *)
Record sim := Sim {
  s_monitors : list mon;
  s_step : nat;                (* TSGetStepNumber *)
  s_vf : option nat;           (* output_vf *)
  s_next : nat;                (* number of the next viewer-and-format object *)
  s_freed : list nat;          (* those destroyed *)
  s_refined : bool;            (* amr.mesh_was_refined *)
  s_restart_run : bool;        (* is_a_restart_run *)
  s_restart_step : option nat; (* restart_step; None: -1 *)
  s_calls : list (mon * nat);
}.
Definition with_monitors (s : sim) (l : list mon) : sim :=
  Sim l (s_step s) (s_vf s) (s_next s) (s_freed s) (s_refined s) (s_restart_run s) (s_restart_step s) (s_calls s).

(* PETSc's TSMonitorSet: a monitor that is already registered with the same context is not added again; at most
   MAXTSMONITORS = 10 *)
Definition TSMonitorSet (m : mon) (s : sim) : result sim :=
  if existsb (same_mon m) (s_monitors s) then Ret s
  else check (Nat.ltb (length (s_monitors s)) 10) (Ret (with_monitors s (s_monitors s ++ [m]))).

(* rdysetup.c:1174-1216 InitSolver: a new TS; TSSetFromOptions installs the monitor of the option *)
Definition InitSolver (c : mconfig) (s : sim) : sim := with_monitors s (if mc_option c then [OptionMonitor] else []).

(* checkpoint.c:244-255 *)
Definition InitCheckpoints (c : mconfig) (s : sim) : result sim :=
  if Nat.eqb (mc_checkpoint c) 0 then Ret s else TSMonitorSet WriteCheckpoint s.
(* time_series.c:253-266 *)
Definition InitTimeSeries (c : mconfig) (s : sim) : result sim :=
  if (Nat.ltb 0 (mc_boundary c) || Nat.ltb 0 (mc_observations c))%bool then TSMonitorSet WriteTimeSeries s else Ret s.

(* checkpoint.c:78-98, 120-136: what a checkpoint of step [n] does to the step number *)
Definition ReadCheckpointFile (c : mconfig) (n : nat) (s : sim) : sim :=
  if mc_reinitialize c
  then Sim (s_monitors s) (s_step s) (s_vf s) (s_next s) (s_freed s) (s_refined s) (s_restart_run s) (Some 0) (s_calls s)
  else Sim (s_monitors s) n (s_vf s) (s_next s) (s_freed s) (s_refined s) (s_restart_run s) (Some n) (s_calls s).

(* rdysetup.c:1393, 1545-1568: the end of RDySetup *)
Definition RDySetup (c : mconfig) : result sim :=
  let s := InitSolver c (Sim [] 0 None 0 [] false false None []) in
  let! s := InitCheckpoints c s in
  Ret (match mc_restart c with
       | Some n =>
         ReadCheckpointFile c n (Sim (s_monitors s) (s_step s) (s_vf s) (s_next s) (s_freed s) (s_refined s) true (s_restart_step s) (s_calls s))
       | None => s
       end).

(* rdyadvance.c:206-212: rdy->output_vf is destroyed, if there is one, and made anew *)
Definition renew_vf (s : sim) : sim :=
  Sim (s_monitors s) (s_step s) (Some (s_next s)) (S (s_next s))
      (match s_vf s with Some v => v :: s_freed s | None => s_freed s end)
      (s_refined s) (s_restart_run s) (s_restart_step s) (s_calls s).
(* rdyadvance.c:177-236 CreateOutputViewer *)
Definition CreateOutputViewer (c : mconfig) (s : sim) : result sim :=
  if mc_enable c then
    let s := match mc_format c with OUTPUT_XDMF | OUTPUT_BINARY => renew_vf s | _ => s end in
    match mc_format c with
    | OUTPUT_XDMF => TSMonitorSet WriteXDMFOutput s
    | f =>
      let! s := if mc_detail c then TSMonitorSet WriteOutputLogMessage s else Ret s in
      match f with OUTPUT_CGNS => Ret s | _ => TSMonitorSet (TSMonitorSolution (s_vf s)) s end
    end
  else Ret s.
(* rdyadvance.c:153-158 *)
Definition DestroyOutputViewer (s : sim) : sim :=
  Sim (s_monitors s) (s_step s) None (s_next s) (match s_vf s with Some v => v :: s_freed s | None => s_freed s end)
      (s_refined s) (s_restart_run s) (s_restart_step s) (s_calls s).

(* One monitor is called: the undefined behaviour it can meet (a division by an interval of 0 in
   rdyadvance.c:164 and time_series.c:548; a viewer-and-format object that is NULL or destroyed), and otherwise that
   it was called. *)
Definition call (c : mconfig) (step : nat) (s : sim) (m : mon) : result sim :=
  let done := Ret (Sim (s_monitors s) (s_step s) (s_vf s) (s_next s) (s_freed s) (s_refined s) (s_restart_run s) (s_restart_step s) (s_calls s ++ [(m, step)])) in
  match m with
  | WriteOutputLogMessage => if Nat.eqb (mc_interval c) 0 then UB else done
  | TSMonitorSolution None => UB
  | TSMonitorSolution (Some v) => if existsb (Nat.eqb v) (s_freed s) then UB else done
  | WriteTimeSeries => if Nat.eqb (mc_boundary c) 0 then UB else done
  | _ => done
  end.
(* PETSc's TSMonitor, and TSSolve with [n] steps: the monitors are called before every step and after the last *)
Definition TSMonitor (c : mconfig) (s : sim) (step : nat) : result sim := rfold (call c step) (s_monitors s) s.
Definition TSSolve (c : mconfig) (n : nat) (s : sim) : result sim :=
  let! s' := rfold (TSMonitor c) (seq (s_step s) (S n)) s in
  Ret (Sim (s_monitors s') (s_step s + n) (s_vf s') (s_next s') (s_freed s') (s_refined s') (s_restart_run s') (s_restart_step s') (s_calls s')).

(* rdyadvance.c:261-396 RDyAdvance, taking [n] steps; [final]: the final time is reached (390-394) *)
Definition RDyAdvance (c : mconfig) (n : nat) (final : bool) (s : sim) : result sim :=
  let step := s_step s in
  let! s := if Nat.eqb step 0 then let! s := CreateOutputViewer c s in InitTimeSeries c s else Ret s in
  let! s := if (s_restart_run s && same_vf (s_restart_step s) (Some step))%bool then CreateOutputViewer c s else Ret s in
  let! s := if s_refined s
            then let! s := CreateOutputViewer c s in
                 Ret (Sim (s_monitors s) (s_step s) (s_vf s) (s_next s) (s_freed s) false (s_restart_run s) (s_restart_step s) (s_calls s))
            else Ret s in
  let! s := TSSolve c n s in
  Ret (if final then DestroyOutputViewer s else s).

(* rdyamr.c:640-716 RDyPerformAMR: the TS is destroyed and made anew with the same time and step number *)
Definition RDyPerformAMR (c : mconfig) (s : sim) : sim :=
  InitSolver c (Sim (s_monitors s) (s_step s) (s_vf s) (s_next s) (s_freed s) true (s_restart_run s) (s_restart_step s) (s_calls s)).

(* What a program using the library does after RDySetup. [ReadCheckpoint n]: RDyReadHDF5CheckpointFile
   (checkpoint.c:319-323) with a file written at step [n]. *)
Inductive event := Advance (n : nat) (final : bool) | PerformAMR | ReadCheckpoint (n : nat).
Definition react (c : mconfig) (s : sim) (e : event) : result sim :=
  match e with
  | Advance n final => RDyAdvance c n final s
  | PerformAMR => Ret (RDyPerformAMR c s)
  | ReadCheckpoint n => Ret (ReadCheckpointFile c n s)
  end.
Definition simulate (c : mconfig) (es : list event) : result sim :=
  let! s := RDySetup c in rfold (react c) es s.
