(** What it means that settings and options reach their destination. *)
From Coq Require Import ZArith NArith String Ascii Decimal DecimalString.
From Verif Require Import Base SetupModel OutputModel CheckpointModel OptionsModel.
Local Open Scope nat_scope.
Local Open Scope string_scope.

(* The options that say how the mesh is read and distributed: these are the program's *)
Definition of_the_program (name : string) : Prop :=
  In name ["-dm_plex_filename"; "-dist_dm_distribute_save_sf"; "-dm_plex_transform_label_match_strata"; "-ref_dm_plex_transform_label_match_strata"].
(* the options that say how PETSc writes output, which a user may give *)
Definition of_the_output (name : string) : Prop :=
  In name ["-ts_monitor_solution"; "-ts_monitor_solution_interval"; "-viewer_cgns_batch_size"].

(* PETSc reads the value of -ts_monitor_solution as type:file:... *)
Fixpoint before_colon (s : string) : string :=
  match s with "" => "" | String c t => if Ascii.eqb c ":" then "" else String c (before_colon t) end.
Fixpoint after_colon (s : string) : string :=
  match s with "" => "" | String c t => if Ascii.eqb c ":" then t else after_colon t end.
Definition viewer_type (v : string) : string := before_colon v.
Definition viewer_file (v : string) : string := before_colon (after_colon v).

Definition contains (s text : string) : Prop := exists a b, s = a ++ text ++ b.
(* the names of the formats as a user of the option writes them *)
Definition format_name (f : out_format) : string :=
  match f with OUTPUT_BINARY => "binary" | OUTPUT_XDMF => "xdmf" | OUTPUT_CGNS => "cgns" | OUTPUT_NONE => "" end.
Definition checkpoint_name (f : ckpt_format) : string := match f with NATIVE => "binary" | HDF5 => "hdf5" end.

(* the number a decimal text stands for (PetscOptionsGetInt) *)
Definition number (s : string) : option N := option_map N.of_uint (NilEmpty.uint_of_string s).
(* a PetscInt of 64 bits *)
Definition petsc_int (n : nat) : Prop := (Z.of_nat n < 2 ^ 63)%Z.
