(** Options passed to PETSc and options that override the configuration (src/yaml_input.c). *)
From Coq Require Import ZArith String Ascii.
From Verif Require Import Base SetupModel OutputModel CheckpointModel.
Local Open Scope nat_scope.
Local Open Scope string_scope.

(** ** PETSc's options database *)
(* The value of each option that is set; an option given without a value has the value "".  One database serves the
   whole process.  Upper and lower case in names are taken to be different. *)
Definition db := string -> option string.
Definition HasName (d : db) (name : string) : bool := match d name with Some _ => true | None => false end.
(* PetscOptionsGetString(..., len, &set): at most len - 1 characters are copied *)
Definition GetString (d : db) (name : string) (len : Z) : option string := option_map (snprintf len) (d name).
Definition SetValue (d : db) (name value : string) : db := fun n => if String.eqb n name then Some value else d n.

(** ** Settings *)
(* the parts of rdy->config (and rdy->refine) that are used *)
Record settings := Settings {
  st_grid : string;              (* grid.file *)
  st_out : out_config;           (* output *)
  st_interval : nat;             (* checkpoint.interval *)
  st_checkpoint : ckpt_format;   (* checkpoint.format *)
  st_refine : bool;              (* rdy->refine *)
}.
Definition with_format (f : out_format) (c : settings) : settings :=
  let o := st_out c in
  Settings (st_grid c)
    (OutConfig (oc_directory o) (oc_member o) (oc_prefix o) (oc_date o) (oc_unit o) (oc_stop_n o) f (oc_interval o) (oc_time_interval o) (oc_time_unit o) (oc_batch o) (oc_fields o))
    (st_interval c) (st_checkpoint c) (st_refine c).
Definition is_format (f : out_format) (c : settings) : bool :=
  match f, oc_format (st_out c) with
  | OUTPUT_NONE, OUTPUT_NONE | OUTPUT_BINARY, OUTPUT_BINARY | OUTPUT_XDMF, OUTPUT_XDMF | OUTPUT_CGNS, OUTPUT_CGNS => true
  | _, _ => false
  end.

(** ** SetAdditionalOptions (yaml_input.c:1381-1467) *)
Definition VALUE_LEN : Z := 128.
(* 1387-1392 *)
Definition grid_options (d : db) (c : settings) : db * settings :=
  let loc_refine := HasName d "-dm_refine" in
  let refine := HasName d "-ref_dm_refine" in
  let d := if String.eqb (st_grid c) "" then d else SetValue d "-dm_plex_filename" (st_grid c) in
  let d := SetValue d "-dist_dm_distribute_save_sf" "true" in
  let d := if loc_refine then SetValue d "-dm_plex_transform_label_match_strata" "true" else d in
  let d := if refine then SetValue d "-ref_dm_plex_transform_label_match_strata" "true" else d in
  (d, Settings (st_grid c) (st_out c) (st_interval c) (st_checkpoint c) refine).
(* 1399-1405 and, after the format is known, again 1448-1454 *)
Definition interval_option (d : db) (c : settings) : db :=
  if (Nat.ltb 0 (oc_interval (st_out c)) && negb (is_format OUTPUT_XDMF c))%bool then
    if HasName d "-ts_monitor_solution_interval" then d
    else SetValue d "-ts_monitor_solution_interval" (snprintf VALUE_LEN (dec (oc_interval (st_out c))))
  else d.
(* 1408-1430; [dir] is the output directory.  PetscOptionsSetValue copies the value. *)
Definition monitor_option (dir : string) (d : db) (c : settings) : result (db * settings) :=
  match GetString d "-ts_monitor_solution" 128 with
  | Some v =>
      Ret (d, if strstr v "cgns" then with_format OUTPUT_CGNS c
              else if strstr v "xdmf" then with_format OUTPUT_XDMF c
              else if strstr v "binary" then with_format OUTPUT_BINARY c
              else c)
  | None =>
      if is_format OUTPUT_CGNS c then
        let! pattern := DetermineOutputFile (st_out c) dir 0 0%R "cgns" in
        Ret (SetValue d "-ts_monitor_solution" (snprintf VALUE_LEN ("cgns:" ++ pattern)), c)
      else Ret (d, c)
  end.
(* 1433-1445 *)
Definition checkpoint_option (d : db) (c : settings) : result settings :=
  if Nat.eqb (st_interval c) 0 then Ret c else
  match GetString d "-checkpoint_format" 16 with
  | None => Ret c
  | Some f =>
      check (String.eqb f "binary" || String.eqb f "hdf5")%bool
        (Ret (Settings (st_grid c) (st_out c) (st_interval c) (if String.eqb f "binary" then NATIVE else HDF5) (st_refine c)))
  end.
(* 1457-1463 *)
Definition batch_option (d : db) (c : settings) : db :=
  if is_format OUTPUT_CGNS c then
    if HasName d "-viewer_cgns_batch_size" then d else SetValue d "-viewer_cgns_batch_size" (snprintf VALUE_LEN (dec (oc_batch (st_out c))))
  else d.
Definition SetAdditionalOptions (dir : string) (d : db) (c : settings) : result (db * settings) :=
  let (d, c) := grid_options d c in
  let d := interval_option d c in
  let! p := monitor_option dir d c in
  let (d, c) := p : db * settings in
  let! c := checkpoint_option d c in
  let d := interval_option d c in
  Ret (batch_option d c, c).
