(** What a command line asks for. *)
From Coq Require Import ZArith String Ascii.
From Verif Require Import Base OutputModel CalendarModel ForcingOptionsModel.
Local Notation length := List.length.
Local Open Scope nat_scope.
Local Open Scope string_scope.

(* Where rain or boundary values come from: a constant; a record in a file, with or without interpolation between its times;
   hourly files of a raster, or of points given in another file, in a directory and from a date (year, month, day, hour,
   minute) on; one record for each of several regions. *)
Inductive forcing :=
| Nothing
| Constant (rate : R)
| Series (file : string) (interpolate : bool)
| Raster (dir : string) (year month day hour minute : Z)
| Points (dir mesh_file : string) (year month day hour minute : Z)
| Regions (data : list (string * Z)).

(* [flag]: the option for interpolation; the other names: the options for the rest *)
Inductive asks_series (a : args) (flag file : string) : forcing -> Prop :=
| series_given f : a_str a file = Some f -> asks_series a flag file (Series f (match a_bool a flag with Some b => b | None => false end)).
Inductive asks_points (a : args) (date_name dir_name mesh_name : string) : forcing -> Prop :=
| points_given dir mesh y mo d h mi : a_ints a date_name = Some [y; mo; d; h; mi] -> a_str a dir_name = Some dir -> a_str a mesh_name = Some mesh ->
    asks_points a date_name dir_name mesh_name (Points dir mesh y mo d h mi).
Inductive asks_regions (a : args) (files regions : string) : forcing -> Prop :=
| regions_given fs ids : a_strs a files = Some fs -> a_ints a regions = Some ids -> length fs = length ids -> asks_regions a files regions (Regions (combine fs ids)).
Inductive asks_rain (a : args) : forcing -> Prop :=
| rain_constant r : a_real a "-constant_rain_rate" = Some r -> asks_rain a (Constant r)
| rain_series x : asks_series a "-temporally_interpolate_spatially_homogeneous_rain" "-homogeneous_rain_file" x -> asks_rain a x
| rain_raster dir y mo d h mi : a_ints a "-raster_rain_start_date" = Some [y; mo; d; h; mi] -> a_str a "-raster_rain_dir" = Some dir -> asks_rain a (Raster dir y mo d h mi)
| rain_points x : asks_points a "-unstructured_rain_start_date" "-unstructured_rain_dir" "-unstructured_rain_mesh_file" x -> asks_rain a x
| rain_regions x : asks_regions a "-homogeneous_rain_files" "-homogeneous_rain_region_ids" x -> asks_rain a x.
Inductive asks_boundary (a : args) : forcing -> Prop :=
| boundary_series x : asks_series a "-temporally_interpolate_bc" "-homogeneous_bc_file" x -> asks_boundary a x
| boundary_points x : asks_points a "-unstructured_bc_start_date" "-unstructured_bc_dir" "-unstructured_bc_mesh_file" x -> asks_boundary a x
| boundary_regions x : asks_regions a "-homogeneous_bc_files" "-homogeneous_bc_region_ids" x -> asks_boundary a x.

(* A date that is not five numbers, or without what belongs to it; files without regions, regions without files, or not as many *)
Definition bad_date (a : args) (date : string) : Prop := exists l, a_ints a date = Some l /\ length l <> 5.
Definition lone_date (a : args) (date other : string) : Prop := a_ints a date <> None /\ a_str a other = None.
Definition unpaired (a : args) (files regions : string) : Prop :=
  match a_strs a files, a_ints a regions with
  | Some fs, Some ids => length fs <> length ids
  | None, None => False
  | _, _ => True
  end.
Definition incomplete_points (a : args) (date dir mesh : string) : Prop := bad_date a date \/ lone_date a date dir \/ lone_date a date mesh.
Definition incomplete_rain (a : args) : Prop :=
  bad_date a "-raster_rain_start_date" \/ lone_date a "-raster_rain_start_date" "-raster_rain_dir" \/ incomplete_points a "-unstructured_rain_start_date" "-unstructured_rain_dir" "-unstructured_rain_mesh_file" \/ unpaired a "-homogeneous_rain_files" "-homogeneous_rain_region_ids".
Definition incomplete_boundary (a : args) : Prop := incomplete_points a "-unstructured_bc_start_date" "-unstructured_bc_dir" "-unstructured_bc_mesh_file" \/ unpaired a "-homogeneous_bc_files" "-homogeneous_bc_region_ids".

(* The limits within which the program reads all that is given: names of fewer than 4096 characters, dates of at most five
   numbers, at most twenty regions *)
Definition short (s : string) : Prop := String.length s < Z.to_nat PETSC_MAX_PATH_LEN.
Definition within_limits (a : args) : Prop :=
  (forall n s, a_str a n = Some s -> short s) /\
  (forall n l, a_strs a n = Some l -> length l <= 20 /\ forall s, In s l -> short s) /\
  (forall n l, a_ints a n = Some l -> length l <= 20) /\
  (forall n l, In n ["-raster_rain_start_date"; "-unstructured_rain_start_date"; "-unstructured_bc_start_date"] -> a_ints a n = Some l -> length l <= 5).

(* What the program has understood *)
Definition numbers (t : tm) (k : Z -> Z -> Z -> Z -> Z -> forcing) : forcing := k (tm_year t + 1900)%Z (tm_mon t + 1)%Z (tm_mday t) (tm_hour t) (tm_min t).
Definition understood (d : dataset) : forcing :=
  match ds_type d with
  | UNSET => Nothing
  | CONSTANT => Constant (ds_rate d)
  | HOMOGENEOUS => Series (ds_file d) (ds_interp d)
  | RASTER => numbers (sp_date (ds_raster d)) (Raster (sp_dir (ds_raster d)))
  | UNSTRUCTURED => numbers (sp_date (ds_unstructured d)) (Points (sp_dir (ds_unstructured d)) (sp_mesh_file (ds_unstructured d)))
  | MULTI_HOMOGENEOUS => Regions (ds_multi d)
  end.
(* A command line asks for one thing or for nothing, and that is what is understood *)
Definition one_or_none (asks : forcing -> Prop) (x : forcing) : Prop := match x with Nothing => forall y, ~ asks y | _ => asks x /\ forall y, asks y -> y = x end.
Definition two_things (asks : forcing -> Prop) : Prop := exists x y, asks x /\ asks y /\ x <> y.
