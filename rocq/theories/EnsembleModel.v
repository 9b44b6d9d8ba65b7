(** Ensembles: which process runs which member, and with which configuration (src/ensemble.c; the ensemble checks of
    src/yaml_input.c; directories of src/rdyadvance.c and src/checkpoint.c). *)
From Verif Require Import Base MeshMapsModel DataModel SetupModel OutputModel.
From Coq Require Import ZArith String.
Local Open Scope nat_scope.
Local Notation length := List.length.

Definition MAX_NAME_LEN : Z := 128.   (* CMakeLists.txt:11 *)
(* RDyEnsembleMember (rdyconfigimpl.h:399-412): "" is a name or a grid file that was not given. The schema
   (yaml_input.c:626-637) offers no temperature conditions. *)
Record member := Member {
  mb_name : string; mb_grid : string; mb_materials : list material; mb_flow : list flow_condition;
  mb_sediment : list sediment_condition; mb_salinity : list scalar_condition }.
(* The part of the configuration an ensemble is about: the grid file, the sections of [config], and the ensemble. *)
Record ens_config := EnsConfig { ec_grid : string; ec_base : config; ec_size : Z; ec_members : list member }.

(* yaml_input.c:897-907; [nproc] is the size of the communicator *)
Definition ValidateEnsemble (nproc : nat) (ec : ens_config) : result unit :=
  check (Z.eqb (ec_size ec) 0 || Z.ltb 1 (ec_size ec))
    (check (Z.eqb (ec_size ec) (Z.of_nat (length (ec_members ec))))
       (if Z.eqb (ec_size ec) 0 then Ret tt else check (Z.eqb (Z.rem (Z.of_nat nproc) (ec_size ec)) 0) (Ret tt))).

(* C's [/] on int *)
Definition cdiv (a b : nat) : result nat := if Nat.eqb b 0 then UB else Ret (a / b).
(* ensemble.c:9-10 *)
Definition color_of (nproc size rank : nat) : result nat :=
  let! procs_per_ensemble := cdiv nproc size in
  cdiv rank procs_per_ensemble.
(* MPI_Comm_split (12-15) with all keys 0: the processes that gave the same color form a communicator, in which they are
   numbered in the order of their old ranks. [color] gives the color of every rank; result: size, rank. *)
Definition MPI_Comm_split (nproc : nat) (color : nat -> nat) (rank : nat) : nat * nat :=
  (length (filter (fun r => Nat.eqb (color r) (color rank)) (seq 0 nproc)),
   length (filter (fun r => Nat.eqb (color r) (color rank)) (seq 0 rank))).

(* 19-26: the number of digits as in GenerateIndexedFilename (log10 taken to be exact) *)
Definition default_name (size color : nat) : string :=
  let suffix := snprintf 15 (padded (String.length (dec size)) color) in
  snprintf MAX_NAME_LEN (String.append "ensemble_" suffix).
Definition name_of_member (size color : nat) (m : member) : string :=
  if String.eqb (mb_name m) "" then default_name size color else mb_name m.

(* 39-47 and the three loops like it: every entry given by the member replaces the first entry of its name *)
Fixpoint replace_first {A} (nm : A -> string) (l : list A) (o : A) : list A :=
  match l with [] => [] | a :: t => if String.eqb (nm a) (nm o) then o :: t else a :: replace_first nm t o end.
Definition override {A} (nm : A -> string) (base overrides : list A) : list A := fold_left (replace_first nm) overrides base.

(* What a process works with afterwards *)
Record process := Process { ps_nproc : nat; ps_rank : nat; ps_member : nat; ps_name : string; ps_grid : string; ps_config : config }.
(* ensemble.c:5-84 on the process of the given rank *)
Definition ConfigureEnsembleMember (nproc rank : nat) (ec : ens_config) : result process :=
  let size := Z.to_nat (ec_size ec) in
  let! color := color_of nproc size rank in
  let split := MPI_Comm_split nproc (fun r => match color_of nproc size r with Ret c => c | _ => 0 end) rank in
  let! m := of_option (nth_error (ec_members ec) color) in
  let name := name_of_member size color m in
  let grid := if String.eqb (mb_grid m) "" then ec_grid ec else mb_grid m in
  let b := ec_base ec in
  Ret (Process (fst split) (snd split) color name grid
         (Config (override fc_name (cf_flow b) (mb_flow m)) (override sc_name (cf_sediment b) (mb_sediment m))
            (override kc_name (cf_salinity b) (mb_salinity m)) (cf_temperature b)
            (cf_classes b) (cf_has_salinity b) (cf_has_heat b)
            (override mt_name (cf_materials b) (mb_materials m)) (cf_surface b)
            (cf_initial b) (cf_sources b) (cf_boundary b))).

(* rdyadvance.c:15-28 and checkpoint.c:12-25 with an empty cache *)
Definition output_directory (dir : string) (p : process) : string := snprintf (PETSC_MAX_PATH_LEN - 1) (String.append dir (String.append "/" (ps_name p))).
Definition checkpoint_directory (p : process) : string := snprintf PETSC_MAX_PATH_LEN (String.append "checkpoints/" (ps_name p)).
