(** Checkpoints: what is written, under which name, and what reading one restores (src/checkpoint.c), with the calls of
    the monitor during RDyAdvance (src/rdyadvance.c). *)
From Verif Require Import Base SetupModel DiagModel TimeModel OutputModel.
From Coq Require Import ZArith String.
Local Open Scope nat_scope.
Local Notation length := List.length.

(** ** Numbering of the cells *)
(* Entry g of a numbering is the natural id (position in the grid file) of the cell with global number g: the cells of
   process 0, then those of process 1, and so on.  A solution has one row of components per cell. *)
Definition numbering := list nat.
Definition solution := list (list R).
(* DMPlexGlobalToNatural, DMPlexNaturalToGlobal *)
Definition GlobalToNatural (num : numbering) (x : solution) : option solution :=
  if Nat.eqb (length num) (length x) then ofold (fun n p => upd n (fst p) (snd p)) (combine num x) (repeat [] (length x)) else None.
Definition NaturalToGlobal (num : numbering) (n : solution) : option solution :=
  if Nat.eqb (length num) (length n) then omap (nth_error n) num else None.

(** ** State of a simulation, as far as checkpoints are concerned *)
Record sim := Sim {
  sm_nproc : nat;            (* rdy->nproc *)
  sm_num : numbering;
  sm_u : solution;           (* u_global *)
  sm_time : R;               (* TSGetTime *)
  sm_step : nat;             (* TSGetStepNumber *)
  sm_dt : R;                 (* rdy->dt; RDyAdvance hands it to the solver (rdyadvance.c:347) *)
  sm_courant : R;            (* operator diagnostics *)
  sm_updated : bool;
  sm_restart_step : Z;
  sm_refinements : nat;      (* amr.num_refinements *)
}.
Inductive ckpt_format := NATIVE | HDF5.
Record ckpt := Ckpt { ck_format : ckpt_format; ck_nproc : nat; ck_t : R; ck_dt : R; ck_step : nat; ck_solution : solution }.

(** ** Writing (checkpoint.c:59-75, 100-116, 153-212) *)
Definition WriteCheckpointFile (fmt : ckpt_format) (s : sim) : option ckpt :=
  let* v := if Nat.eqb (sm_refinements s) 0 then GlobalToNatural (sm_num s) (sm_u s) else Some (sm_u s) in
  Some (Ckpt fmt (sm_nproc s) (sm_time s) (sm_dt s) (sm_step s) v).

(** ** Reading *)
(* 77-96: metadata of a binary file *)
Definition ConsumeMetadata (reinitialize : bool) (s : sim) (c : ckpt) : sim :=
  let nproc := ck_nproc c in
  let dt := ck_dt c in
  if reinitialize then Sim nproc (sm_num s) (sm_u s) 0%R (sm_step s) dt (sm_courant s) (sm_updated s) 0%Z (sm_refinements s)
  else Sim nproc (sm_num s) (sm_u s) (ck_t c) (ck_step c) dt (sm_courant s) (sm_updated s) (Z.of_nat (ck_step c)) (sm_refinements s).
(* 118-137: metadata of an HDF5 file; unlike above the step is not handed to the solver, which RDyAdvance does anyway *)
Definition ReadHDF5Metadata (reinitialize : bool) (s : sim) (c : ckpt) : sim :=
  let s := Sim (ck_nproc c) (sm_num s) (sm_u s) (sm_time s) (sm_step s) (sm_dt s) (sm_courant s) (sm_updated s) (sm_restart_step s) (sm_refinements s) in
  let s := if reinitialize then Sim (sm_nproc s) (sm_num s) (sm_u s) 0%R (sm_step s) (sm_dt s) (sm_courant s) (sm_updated s) 0%Z (sm_refinements s)
           else Sim (sm_nproc s) (sm_num s) (sm_u s) (ck_t c) (ck_step c) (sm_dt s) (sm_courant s) (sm_updated s) (Z.of_nat (ck_step c)) (sm_refinements s) in
  Sim (sm_nproc s) (sm_num s) (sm_u s) (sm_time s) (sm_step s) (ck_dt c) (sm_courant s) (sm_updated s) (sm_restart_step s) (sm_refinements s).
(* strstr finds the text *)
Definition strstr (s text : string) : bool := match String.index 0 text s with Some _ => true | None => false end.
(* 259-317: the format is taken from the name; a viewer of the other format, or a vector of another size, is an error *)
Definition ReadCheckpointFile (filename : string) (reinitialize : bool) (s : sim) (c : ckpt) : result sim :=
  let! opened := (if strstr filename ".bin" then Ret NATIVE else if strstr filename ".h5" then Ret HDF5 else Error) in
  let! _ := (match opened, ck_format c with NATIVE, NATIVE => Ret tt | HDF5, HDF5 => Ret tt | _, _ => Error end) in
  let! s := (if strstr filename ".h5" then match opened with HDF5 => Ret (ReadHDF5Metadata reinitialize s c) | NATIVE => Error end
             else match opened with NATIVE => Ret (ConsumeMetadata reinitialize s c) | HDF5 => Error end) in
  let! u := (if Nat.eqb (length (sm_u s)) (length (ck_solution c))
             then if Nat.eqb (sm_refinements s) 0 then of_option (NaturalToGlobal (sm_num s) (ck_solution c)) else Ret (ck_solution c)
             else Error) in
  Ret (Sim (sm_nproc s) (sm_num s) u (sm_time s) (sm_step s) (sm_dt s) (sm_courant s) (sm_updated s) (sm_restart_step s) (sm_refinements s)).

(** ** Names (checkpoint.c:13-26, 141-151, 153-166, 214-236) *)
Local Open Scope string_scope.
Definition ckpt_dir (member : option string) : string := match member with Some m => "checkpoints/" ++ m | None => "checkpoints" end.
(* log10 of a stop_n of 0 is not finite and converting it is undefined *)
Definition GenerateE3SMCheckpointFilenameBase (dir prefix : string) (index : nat) (max_index : Z) : result string :=
  if (max_index <=? 0)%Z then UB else
  let num_digits := String.length (dec (Z.to_nat max_index)) in
  Ret (snprintf (PETSC_MAX_PATH_LEN - 1) (dir ++ "/" ++ prefix ++ ".rdycore.r" ++ snprintf (PETSC_MAX_PATH_LEN - 1) ("." ++ padded num_digits index))).
Definition suffix_of (fmt : ckpt_format) : string := match fmt with NATIVE => ".bin" | HDF5 => ".h5" end.
Definition ckpt_name (dir prefix : string) (max_index : Z) (fmt : ckpt_format) (step : nat) : result string :=
  let! base := GenerateE3SMCheckpointFilenameBase dir prefix step max_index in
  Ret (snprintf (PETSC_MAX_PATH_LEN - 1) (base ++ suffix_of fmt)).
Local Close Scope string_scope.

(** ** Files and crashes *)
(* FILE_MODE_WRITE truncates the file; it is complete when the viewer is destroyed *)
Inductive file := Incomplete | Complete (c : ckpt).
Definition store := string -> option file.
Definition put (st : store) (name : string) (f : file) : store := fun n => if String.eqb n name then Some f else st n.
(* the calls of the monitor with what they would write; a crash during the last one leaves its file incomplete *)
Definition write_due (name : nat -> string) (interval : nat) (st : store) (call : nat * ckpt) : store :=
  let '(step, c) := call in if Nat.eqb (step mod interval) 0 then put st (name step) (Complete c) else st.
Definition write_crash (name : nat -> string) (interval : nat) (st : store) (call : nat * ckpt) : store :=
  let '(step, c) := call in if Nat.eqb (step mod interval) 0 then put st (name step) Incomplete else st.

(** ** Advancing (rdyadvance.c:261-383), with the solution *)
(* [F t h v]: the solution in natural order after a step of size h from v at time t (independence of the numbering: C10) *)
Definition visit := (R * nat * solution)%type.
Inductive solve (F : R -> R -> solution -> solution) (pick : R -> R -> R) (dt T : R) (N : option nat) : visit -> list visit -> visit -> Prop :=
| Visit_time : forall t n v, (T <= t)%R -> solve F pick dt T N (t, n, v) [(t, n, v)] (t, n, v)
| Visit_limit : forall t n v k, (t < T)%R -> N = Some k -> k <= n -> solve F pick dt T N (t, n, v) [(t, n, v)] (t, n, v)
| Visit_step : forall t n v calls r, (t < T)%R -> (forall k, N = Some k -> n < k) ->
    let h := pick dt (T - t)%R in
    solve F pick dt T N ((t + h)%R, S n, F t h v) calls r -> solve F pick dt T N (t, n, v) ((t, n, v) :: calls) r.
(* dt chosen at the start (304-343) *)
Definition chosen_dt (tc : time_config) (s : sim) : R :=
  let interval := ConvertTimeToSeconds (tc_coupling tc) (tc_unit tc) in
  if (tc_adaptive tc && sm_updated s)%bool then adapt_dt (tc_target tc) (tc_max_factor tc) interval (sm_dt s) (sm_courant s) else sm_dt s.
(* one call: the monitor is called at every visited state *)
Inductive adv (F : R -> R -> solution -> solution) (pick : R -> R -> R) (tc : time_config) (measured : R) (s : sim) : list visit -> sim -> Prop :=
| Adv : forall v calls t' n' v' u',
    GlobalToNatural (sm_num s) (sm_u s) = Some v ->
    solve F pick (chosen_dt tc s) (sm_time s + ConvertTimeToSeconds (tc_coupling tc) (tc_unit tc))%R (step_limit tc) (sm_time s, sm_step s, v) calls (t', n', v') ->
    NaturalToGlobal (sm_num s) v' = Some u' ->
    adv F pick tc measured s calls (Sim (sm_nproc s) (sm_num s) u' t' n' (chosen_dt tc s) measured (tc_adaptive tc) (sm_restart_step s) (sm_refinements s)).
Inductive advs (F : R -> R -> solution -> solution) (pick : R -> R -> R) (tc : time_config) : list R -> sim -> sim -> Prop :=
| Advs_nil : forall s, advs F pick tc [] s s
| Advs_cons : forall c cs s calls s1 s2, adv F pick tc c s calls s1 -> advs F pick tc cs s1 s2 -> advs F pick tc (c :: cs) s s2.
(* what a checkpoint written at a visited state of an advance contains *)
Definition ckpt_at (fmt : ckpt_format) (tc : time_config) (s : sim) (x : visit) : ckpt :=
  let '(t, n, v) := x in Ckpt fmt (sm_nproc s) t (chosen_dt tc s) n v.

(** ** Monitors set up by RDyAdvance (rdyadvance.c:264-292) *)
Inductive monitor := OutputViewer | TimeSeries.
Definition monitors_set (step : nat) (is_restart : bool) (restart_step : Z) (mesh_was_refined : bool) : list monitor :=
  (if Nat.eqb step 0 then [OutputViewer; TimeSeries] else []) ++
  (if (is_restart && Z.eqb restart_step (Z.of_nat step))%bool then [OutputViewer] else []) ++
  (if mesh_was_refined then [OutputViewer] else []).
