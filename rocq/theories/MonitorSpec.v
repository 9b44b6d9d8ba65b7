(** What "every requested record is kept up for the whole simulation" means. *)
From Verif Require Import Base SetupModel OutputModel MonitorModel.
Local Open Scope nat_scope.

(* The kinds of records a user can request *)
Inductive record := Fields | Series | Checkpoints.
Definition wanted (c : mconfig) (k : record) : Prop :=
  match k with
  | Fields => mc_enable c = true
  | Series => mc_boundary c <> 0 \/ mc_observations c <> 0
  | Checkpoints => mc_checkpoint c <> 0
  end.
(* the calls that write records of this kind; visualization output comes from one of three places *)
Definition writes (c : mconfig) (k : record) (m : mon) : bool :=
  match k, m with
  | Fields, WriteXDMFOutput => match mc_format c with OUTPUT_XDMF => true | _ => false end
  | Fields, TSMonitorSolution _ => match mc_format c with OUTPUT_BINARY => true | _ => false end
  | Fields, OptionMonitor => match mc_format c with OUTPUT_CGNS => true | _ => false end
  | Series, WriteTimeSeries | Checkpoints, WriteCheckpoint => true
  | _, _ => false
  end.
(* the steps for which records of a kind were asked for, in order *)
Definition asked (c : mconfig) (k : record) (s : sim) : list nat :=
  map snd (filter (fun p => writes c k (fst p)) (s_calls s)).

(* The steps at which the simulation is at the beginning, between and at the end of the steps of each interval:
   what should be asked for *)
Fixpoint visited (c : mconfig) (at_step : nat) (es : list event) : list nat :=
  match es with
  | [] => []
  | Advance n _ :: t => seq at_step (S n) ++ visited c (at_step + n) t
  | PerformAMR :: t => visited c at_step t
  | ReadCheckpoint n :: t => visited c (if mc_reinitialize c then at_step else n) t
  end.
(* the step a simulation starts from *)
Definition first_step (c : mconfig) : nat :=
  match mc_restart c with Some n => if mc_reinitialize c then 0 else n | None => 0 end.

(* What validation and SetAdditionalOptions establish (yaml_input.c:1089-1101, 1421-1430): output that is enabled has
   a format, and CGNS output has its option *)
Definition accepted (c : mconfig) : Prop :=
  mc_enable c = true -> mc_format c <> OUTPUT_NONE /\ (mc_format c = OUTPUT_CGNS -> mc_option c = true).

Definition reads_checkpoint (e : event) : bool := match e with ReadCheckpoint _ => true | _ => false end.
Definition refines (e : event) : bool := match e with PerformAMR => true | _ => false end.
Definition ends (e : event) : bool := match e with Advance _ b => b | _ => false end.
(* a history in which checkpoints are read only as configured *)
Definition own_restarts (es : list event) : Prop := forall e, In e es -> reads_checkpoint e = false.
Definition no_refinement (es : list event) : Prop := forall e, In e es -> refines e = false.

(* the simulation ends with the history *)
Fixpoint ends_last (es : list event) : Prop :=
  match es with [] => True | e :: t => (ends e = true -> t = []) /\ ends_last t end.
(* every interval takes at least one step *)
Definition proceeds (es : list event) : Prop := forall n b, In (Advance n b) es -> n <> 0.
Definition starts_with_advance (es : list event) : Prop := match es with PerformAMR :: _ => False | _ => True end.
(* Settings whose intervals are not 0 where the code divides by them *)
Definition intervals_given (c : mconfig) : Prop :=
  (wanted c Series -> mc_boundary c <> 0) /\
  (mc_enable c = true -> mc_format c <> OUTPUT_XDMF -> mc_detail c = true -> mc_interval c <> 0).
