(** The options that choose the forcing of the C driver, and the data sets opened for them (src/forcing/rdyforcing.c). *)
From Coq Require Import ZArith String Ascii.
From Verif Require Import Base MeshMapsModel DataModel SetupModel ConfigModel OutputModel CalendarModel ForcingModel CheckpointModel FortranDriverModel.
Local Notation length := List.length.
Local Open Scope nat_scope.
Local Open Scope string_scope.

(** ** PETSc's options *)
(* The value of each option that is given, in the type in which it is asked for; arrays are comma-separated.  Text that
   PETSc cannot read in the type asked for stops the program and is left out. *)
Record args := Args {
  a_str : string -> option string;
  a_bool : string -> option bool;
  a_real : string -> option R;
  a_ints : string -> option (list Z);
  a_strs : string -> option (list string);
}.
(* PetscOptionsGetString into a buffer of PETSC_MAX_PATH_LEN characters *)
Definition GetString (a : args) (name : string) : option string := option_map (snprintf PETSC_MAX_PATH_LEN) (a_str a name).
(* PetscOptionsGetIntArray, PetscOptionsGetStringArray: at most nmax values are read *)
Definition GetIntArray (a : args) (name : string) (nmax : nat) : option (list Z) := option_map (firstn nmax) (a_ints a name).
Definition GetStringArray (a : args) (name : string) (nmax : nat) : option (list string) := option_map (firstn nmax) (a_strs a name).
Definition is_some {A} (x : option A) : bool := match x with Some _ => true | None => false end.
Definition or_else {A} (x : option A) (d : A) : A := match x with Some v => v | None => d end.

(** ** Data sets (include/private/rdyforcingimpl.h:20-125) *)
Inductive dataset_type := UNSET | CONSTANT | HOMOGENEOUS | RASTER | UNSTRUCTURED | MULTI_HOMOGENEOUS.
(* the settings of RDyRasterDataset and RDyUnstructuredDataset that come from options *)
Record spatial := Spatial {
  sp_dir : string;
  sp_mesh_file : string;   (* unstructured only *)
  sp_map_file : string;
  sp_debug : bool;         (* write_map_for_debugging *)
  sp_write : bool;         (* write_map *)
  sp_read : bool;          (* read_map *)
  sp_date : tm;            (* start_date, current_date *)
}.
Definition no_date : tm := Tm 0 0 0 0 0 0.
(* PetscNew clears the memory *)
Definition no_spatial : spatial := Spatial "" "" "" false false false no_date.
(* RDyForcingSourceSink and RDyForcingBoundaryCondition; [multi]: file name and region of each data set *)
Record dataset := Dataset {
  ds_type : dataset_type;
  ds_rate : R;
  ds_file : string;        (* homogeneous.filename *)
  ds_interp : bool;        (* homogeneous.temporally_interpolate *)
  ds_raster : spatial;
  ds_unstructured : spatial;
  ds_multi : list (string * Z);
}.
(* a data set and dataset_type_count *)
Definition state := (dataset * nat)%type.
Definition with_type (t : dataset_type) (d : dataset) : dataset := Dataset t (ds_rate d) (ds_file d) (ds_interp d) (ds_raster d) (ds_unstructured d) (ds_multi d).
(* dataset_type_count++ and the assignment of the type *)
Definition chosen (t : dataset_type) (s : state) : state := (with_type t (fst s), S (snd s)).

(** ** Reading the options (rdyforcing.c:296-592) *)
(* the date of five numbers; the numbers are small enough for the subtractions *)
Definition date_of (l : list Z) : option tm :=
  match l with [y; mo; d; h; mi] => Some (forcing_date y mo d h mi) | _ => None end.
(* 299-309 and 481-492 *)
Definition initial (interp : option bool) : state := (Dataset UNSET 0%R "" (or_else interp false) no_spatial no_spatial [], 0).
(* 314-319 *)
Definition constant_option (a : args) (s : state) : state :=
  match a_real a "-constant_rain_rate" with
  | None => s
  | Some r => chosen CONSTANT (let d := fst s in Dataset (ds_type d) r (ds_file d) (ds_interp d) (ds_raster d) (ds_unstructured d) (ds_multi d), snd s)
  end.
(* 322-328, 495-501 *)
Definition homogeneous_option (a : args) (name : string) (s : state) : state :=
  match GetString a name with
  | None => s
  | Some f => chosen HOMOGENEOUS (let d := fst s in Dataset (ds_type d) (ds_rate d) f (ds_interp d) (ds_raster d) (ds_unstructured d) (ds_multi d), snd s)
  end.
(* 334-341, 382-390, 505-512: both names of a map file go to the same buffer, the one to be read last *)
Definition map_options (a : args) (dir debug write read : string) : spatial :=
  let w := GetString a write in
  let r := GetString a read in
  Spatial (or_else (GetString a dir) "") "" (or_else r (or_else w "")) (or_else (a_bool a debug) false) (is_some w) (is_some r) no_date.
(* 331-376 *)
Definition raster_option (a : args) (s : state) : result state :=
  let sp := map_options a "-raster_rain_dir" "-raster_rain_write_map_for_debugging" "-raster_rain_write_map_file" "-raster_rain_read_map_file" in
  let put sp := (let d := fst s in Dataset (ds_type d) (ds_rate d) (ds_file d) (ds_interp d) sp (ds_unstructured d) (ds_multi d), snd s) in
  match GetIntArray a "-raster_rain_start_date" 5 with
  | None => Ret (put sp)
  | Some l =>
      check (Nat.eqb (length l) 5) (check (is_some (GetString a "-raster_rain_dir"))
        (let! date := of_option (date_of l) in
         Ret (chosen RASTER (put (Spatial (sp_dir sp) (sp_mesh_file sp) (sp_map_file sp) (sp_debug sp) (sp_write sp) (sp_read sp) date)))))
  end.
(* 379-427, 504-549; [names]: of the directory, the map options, the start date and the mesh file *)
Record unstructured_names := Names { n_dir : string; n_debug : string; n_write : string; n_read : string; n_date : string; n_mesh : string }.
Definition rain_names : unstructured_names :=
  Names "-unstructured_rain_dir" "-unstructured_rain_write_map_for_debugging" "-unstructured_rain_write_map_file" "-unstructured_rain_read_map_file" "-unstructured_rain_start_date" "-unstructured_rain_mesh_file".
Definition bc_names : unstructured_names :=
  Names "-unstructured_bc_dir" "-unstructured_bc_write_map_for_debugging" "-unstructured_bc_write_map_file" "-unstructured_bc_read_map_file" "-unstructured_bc_start_date" "-unstructured_bc_mesh_file".
Definition unstructured_option (a : args) (n : unstructured_names) (s : state) : result state :=
  let sp := map_options a (n_dir n) (n_debug n) (n_write n) (n_read n) in
  let put sp := (let d := fst s in Dataset (ds_type d) (ds_rate d) (ds_file d) (ds_interp d) (ds_raster d) sp (ds_multi d), snd s) in
  match GetIntArray a (n_date n) 5 with
  | None => Ret (put sp)
  | Some l =>
      check (Nat.eqb (length l) 5) (check (is_some (GetString a (n_dir n))) (check (is_some (GetString a (n_mesh n)))
        (let! date := of_option (date_of l) in
         Ret (chosen UNSTRUCTURED (put (Spatial (sp_dir sp) (or_else (GetString a (n_mesh n)) "") (sp_map_file sp) (sp_debug sp) (sp_write sp) (sp_read sp) date))))))
  end.
Definition MAX_DATASETS : nat := 20.
(* PetscStrcpy into a buffer of PETSC_MAX_PATH_LEN characters does not look at the length *)
Definition strcpy (s : string) : result string := if Nat.ltb (String.length s) (Z.to_nat PETSC_MAX_PATH_LEN) then Ret s else UB.
(* 431-464, 552-585 *)
Definition multi_option (a : args) (files_name regions : string) (s : state) : result state :=
  let fs := GetStringArray a files_name MAX_DATASETS in
  let ids := GetIntArray a regions MAX_DATASETS in
  check (Bool.eqb (is_some fs) (is_some ids))
    match fs, ids with
    | Some fs, Some ids =>
        check (Nat.eqb (length fs) (length ids))
          (let! names := rmap strcpy fs in
           Ret (chosen MULTI_HOMOGENEOUS (let d := fst s in Dataset (ds_type d) (ds_rate d) (ds_file d) (ds_interp d) (ds_raster d) (ds_unstructured d) (combine names ids), snd s)))
    | _, _ => Ret s
    end.
(* 296-472 *)
Definition RDyForcingParseRainfallDataOptions (a : args) : result dataset :=
  let s := initial (a_bool a "-temporally_interpolate_spatially_homogeneous_rain") in
  let s := constant_option a s in
  let s := homogeneous_option a "-homogeneous_rain_file" s in
  let! s := raster_option a s in
  let! s := unstructured_option a rain_names s in
  let! s := multi_option a "-homogeneous_rain_files" "-homogeneous_rain_region_ids" s in
  check (Nat.leb (snd s) 1) (Ret (fst s)).
(* 478-592 *)
Definition RDyForcingParseBoundaryDataOptions (a : args) : result dataset :=
  let s := initial (a_bool a "-temporally_interpolate_bc") in
  let s := homogeneous_option a "-homogeneous_bc_file" s in
  let! s := unstructured_option a bc_names s in
  let! s := multi_option a "-homogeneous_bc_files" "-homogeneous_bc_region_ids" s in
  check (Nat.leb (snd s) 1) (Ret (fst s)).

(** ** Map files (rdyforcing_map.c:143-187) *)
(* 143-166 on the process owning the [ncells] cells from [first] on.  An index below 0 is taken for an access out of
   bounds here; in the code that access is made when the index is used. *)
Definition RDyForcingReadSpatialMap (num : numbering) (file : list R) (first ncells : nat) : result (list nat) :=
  let! global := RDyReadOneDOFGlobalVecFromBinaryFile num file in
  let local := firstn ncells (skipn first global) in
  of_option (omap (fun ii => let* x := nth_error local ii in let* z := int_of x in if (z <? 0)%Z then None else Some (Z.to_nat z)) (seq 0 ncells)).
(* 173-187: the maps of all processes *)
Definition RDyForcingWriteMap (num : numbering) (d2m : list (list nat)) : option (list R) :=
  RDyWriteOneDOFGlobalVecToBinaryFile num (map INR (List.concat d2m)).

(** ** Opening the data sets (rdyforcing.c:602-676) *)
(* what a process sees of the mesh: its cells, their numbering, its boundaries *)
Record domain := Domain {
  dm_cells : list (R * R);                     (* centroids of the owned cells *)
  dm_num : numbering;
  dm_first : nat;
  dm_bcs : list (ctype * nat * Z);
  dm_global_bc : Z;                            (* index of the Dirichlet boundary, the maximum over the processes *)
  dm_edges : Z -> list (R * R);                (* edge centroids of a boundary *)
}.
Definition contents := string -> option (list R).
Definition dated_files (fs : contents) (id_type : string) (sp : spatial) : files := fun k => fs (snd (forcing_file (sp_date sp) (sp_dir sp) id_type k)).
Definition load (fs : contents) (file : string) : result (list R) := match fs file with Some d => Ret d | None => Error end.
(* the files the process has a part in writing: name and the indices of its cells *)
Definition written := list (string * list nat).
(* 95-110, 268-282; what is written for debugging is left out *)
Definition spatial_map (fs : contents) (dm : domain) (sp : spatial) (made : list nat) : result (list nat * written) :=
  let! m := if sp_read sp then let! f := load fs (sp_map_file sp) in RDyForcingReadSpatialMap (dm_num dm) f (dm_first dm) (length (dm_cells dm)) else Ret made in
  Ret (m, if sp_write sp then [(sp_map_file sp, m)] else []).
Definition set_raster_map (m : list nat) (r : raster) : raster := Raster (ra_ncols r) (ra_nrows r) (ra_xlc r) (ra_ylc r) (ra_cellsize r) (ra_file r) m.
Definition set_unstructured_map (m : list nat) (u : unstructured) : unstructured := Unstructured (un_stride u) (un_file u) m.
(* a file with the coordinates of no points: OpenUnstructured with it stands for RDyForcingOpenUnstructuredDataset alone *)
Definition no_points : list R := [0; 2]%R.
(* 607-646.  [junk i]: what the memory holds where the flag of data set i is; it is allocated without being cleared and
   not written (452-458, rdyforcing_dataset.c:72-101). *)
Definition open_source (fs : contents) (id_type : string) (junk : nat -> bool) (dm : domain) (d : dataset) : result (source * written) :=
  let n := length (dm_cells dm) in
  let zero := repeat (Some 0%R) n in
  match ds_type d with
  | UNSET => Ret (SUnset, [])
  | CONSTANT => Ret (SConstant (ds_rate d) n zero, [])
  | HOMOGENEOUS => let! data := load fs (ds_file d) in Ret (SHomogeneous (RDyForcingOpenHomogeneousDataset data (ds_interp d)) n zero, [])
  | RASTER =>
      let! r := OpenRaster (dated_files fs id_type (ds_raster d)) (dm_cells dm) in
      let! p := spatial_map fs dm (ds_raster d) (ra_map r) in
      Ret (SRaster (dated_files fs id_type (ds_raster d)) (set_raster_map (fst p) r) n zero, snd p)
  | UNSTRUCTURED =>
      let! _ := OpenUnstructured (dated_files fs id_type (ds_unstructured d)) 1 no_points [] in
      let! mesh := load fs (sp_mesh_file (ds_unstructured d)) in
      let! u := OpenUnstructured (dated_files fs id_type (ds_unstructured d)) 1 mesh (dm_cells dm) in
      let! p := spatial_map fs dm (ds_unstructured d) (un_map u) in
      Ret (SUnstructured (dated_files fs id_type (ds_unstructured d)) (set_unstructured_map (fst p) u) n zero, snd p)
  | MULTI_HOMOGENEOUS =>
      let! ds := rmap (fun p : nat * (string * Z) => let! data := load fs (fst (snd p)) in
                       Ret (RDyForcingOpenHomogeneousDataset data (junk (fst p)), snd (snd p))) (combine (seq 0 (length (ds_multi d))) (ds_multi d)) in
      Ret (SMultiHomogeneous ds, [])
  end.
(* 651-673, 55-76, 116-161, 169-234.  The file with the coordinates of the data is read where there are edges only. *)
Definition open_boundary (fs : contents) (id_type : string) (junk : nat -> bool) (dm : domain) (d : dataset) : result bforcing :=
  let post := match DoPostprocessForBoundaryDataset (map fst (dm_bcs dm)) (dm_global_bc dm) with Some x => Ret x | None => Error end in
  match ds_type d with
  | UNSET => Ret BUnset
  | CONSTANT | RASTER => Error
  | HOMOGENEOUS =>
      let! data := load fs (ds_file d) in
      let! x := post in let '(idx, n, values) := x in
      Ret (BHomogeneous (RDyForcingOpenHomogeneousDataset data (ds_interp d)) n idx values)
  | UNSTRUCTURED =>
      let! _ := OpenUnstructured (dated_files fs id_type (ds_unstructured d)) 3 no_points [] in
      let! x := post in let '(idx, n, values) := x in
      let! mesh := if Nat.eqb n 0 then Ret no_points else load fs (sp_mesh_file (ds_unstructured d)) in
      let! u := OpenUnstructured (dated_files fs id_type (ds_unstructured d)) 3 mesh (if Nat.eqb n 0 then [] else dm_edges dm idx) in
      Ret (BUnstructured (dated_files fs id_type (ds_unstructured d)) u n idx values)
  | MULTI_HOMOGENEOUS =>
      let! ds := rmap (fun p : nat * (string * Z) => let! data := load fs (fst (snd p)) in Ret (RDyForcingOpenHomogeneousDataset data (junk (fst p)))) (combine (seq 0 (length (ds_multi d))) (ds_multi d)) in
      let! ms := match match_dirichlet (map snd (ds_multi d)) (dm_bcs dm) 0 with Some ms => Ret ms | None => Error end in
      Ret (BMultiHomogeneous ds ms)
  end.
(* 602-676 *)
Definition RDyCreateForcing (a : args) (fs : contents) (id_type : string) (junk bjunk : nat -> bool) (dm : domain) : result (source * written * bforcing) :=
  let! d := RDyForcingParseRainfallDataOptions a in
  let! s := open_source fs id_type junk dm d in
  let! d := RDyForcingParseBoundaryDataOptions a in
  let! b := open_boundary fs id_type bjunk dm d in
  Ret (s, b).
