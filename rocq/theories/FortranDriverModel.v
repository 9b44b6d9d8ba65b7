(** Forcing in the Fortran driver: rainfall and boundary values read from files while the program rdycore_f90 runs
    (driver/main.F90).  The driver has its own code for this; the library's is modelled in ForcingModel.v.

    Fortran arrays start at 1.  [Error]: the program stops (SETERRA, PetscCallA); [UB]: an access out of bounds, the
    use of a variable that was never given a value, an integer division by zero. *)
From Coq Require Import ZArith String Ascii.
From Verif Require Import Base MeshMapsModel DataModel SetupModel ConfigModel TimeModel OutputModel CalendarModel ForcingModel CheckpointModel.
Local Notation length := List.length.
Local Notation concat := List.concat.
Local Open Scope R_scope.
Local Open Scope nat_scope.

(* a(i) *)
Definition fget {A} (l : list A) (i : Z) : option A := if (i <? 1)%Z then None else nth_error l (Z.to_nat (i - 1)).
Definition fset {A} (l : list A) (i : Z) (x : A) : option (list A) := if (i <? 1)%Z then None else upd l (Z.to_nat (i - 1)) x.
(* do i = 1, n *)
Definition fseq (n : nat) : list Z := map Z.of_nat (seq 1 n).

(** ** Time series (main.F90:147-191) *)
(* 164-178; [n] iterations left *)
Fixpoint fortran_bracket (data_ptr : list R) (cur_time : R) (itime : Z) (n : nat) : option (option (Z * ((R * R) * (R * R)))) :=
  match n with
  | O => Some None
  | S n' =>
    let* time_dn := fget data_ptr ((itime - 1) * 2 + 1) in
    let* data_dn := fget data_ptr ((itime - 1) * 2 + 2) in
    let* time_up := fget data_ptr ((itime - 1) * 2 + 3) in
    let* data_up := fget data_ptr ((itime - 1) * 2 + 4) in
    if (time_dn <=? cur_time)%R && (cur_time <? time_up)%R then Some (Some (itime, ((time_dn, data_dn), (time_up, data_up))))
    else fortran_bracket data_ptr cur_time (itime + 1) n'
  end.
(* 147-191; cur_data_idx and cur_data *)
Definition getcurrentdata (data_ptr : list R) (ndata : nat) (cur_time : R) (temporally_interpolate : bool) : option (Z * R) :=
  let* found := fortran_bracket data_ptr cur_time 1 (ndata - 1) in
  match found with
  | None => let* cur_data := fget data_ptr ((Z.of_nat ndata - 1) * 2 + 2) in Some (Z.of_nat ndata, cur_data)
  | Some (itime, ((time_dn, data_dn), (time_up, data_up))) =>
    if temporally_interpolate then
      let* q := rdiv (cur_time - time_dn) (time_up - time_dn) in Some (itime, (q * (data_up - data_dn) + data_dn)%R)
    else Some (itime, data_dn)
  end.

(** ** Dates (main.F90:505-522, 565-614) *)
Record time_struct := Time { t_year : Z; t_month : Z; t_day : Z; t_hour : Z; t_minute : Z }.
(* 566-583; None: no case of the SELECT applies and ndays is never given a value.  The operator / of integers. *)
Definition day_of_month (year month : Z) : option Z :=
  if existsb (Z.eqb month) [1; 3; 5; 7; 8; 10; 12]%Z then Some 31%Z
  else if existsb (Z.eqb month) [4; 6; 9; 11]%Z then Some 30%Z
  else if (month =? 2)%Z then
    if (((Z.quot year 400 =? 0) || (Z.quot year 4 =? 0) && negb (Z.quot year 100 =? 0)))%Z then Some 29%Z else Some 28%Z
  else None.
(* 586-614 *)
Definition IncrementDateByOneHour (d : time_struct) : option time_struct :=
  let hour := (t_hour d + 1)%Z in
  if (hour =? 24)%Z then
    let day := (t_day d + 1)%Z in
    let* ndays := day_of_month (t_year d) (t_month d) in
    if (ndays <? day)%Z then
      let month := (t_month d + 1)%Z in
      if (12 <? month)%Z then Some (Time (t_year d + 1) 1 1 0 (t_minute d)) else Some (Time (t_year d) month 1 0 (t_minute d))
    else Some (Time (t_year d) (t_month d) day 0 (t_minute d))
  else Some (Time (t_year d) (t_month d) (t_day d) hour (t_minute d)).
Fixpoint blanks (k : nat) : string := match k with 0 => "" | S k => String " " (blanks k) end.
Fixpoint stars (k : nat) : string := match k with 0 => "" | S k => String "*" (stars k) end.
(* the edit descriptors Iw and Iw.w of a number that is not negative; w stars if it does not fit *)
Definition edit_I (w : nat) (z : Z) : string :=
  let s := dec (Z.to_nat z) in if Nat.leb (String.length s) w then (blanks (w - String.length s) ++ s)%string else stars w.
Definition edit_Iw (w : nat) (z : Z) : string :=
  let s := num w z in if Nat.leb (String.length s) w then s else stars w.
(* 520; the name must fit into 1024 characters (error of the WRITE statement otherwise).  PETSC_ID_TYPE is int32 or int64;
   trailing blanks of [dir] and of the result are dropped. *)
Definition DetermineDatasetFilename (dir : string) (d : time_struct) (id_type : string) : result string :=
  let file := (dir ++ "/" ++ edit_I 4 (t_year d) ++ "-" ++ edit_Iw 2 (t_month d) ++ "-" ++ edit_Iw 2 (t_day d) ++ ":"
     ++ edit_Iw 2 (t_hour d) ++ "-" ++ edit_Iw 2 (t_minute d) ++ "." ++ id_type ++ ".bin")%string in
  if Nat.leb (String.length file) 1024 then Ret file else Error.

(** ** Opening files (main.F90:127-144, 532-563, 616-700) *)
(* The files there are, by name; None: no such file, PetscViewerBinaryOpen fails *)
Definition archive := string -> option (list R).
Definition opendata (fs : archive) (filename : string) : result (list R) := match fs filename with Some d => Ret d | None => Error end.

(* RasterDataset.  An entry None of data2mesh_idx was never given a value (ALLOCATE). *)
Record fraster := FRaster {
  fr_dir : string; fr_date : time_struct; fr_count : nat (* ndata_file *);
  fr_ncols : Z; fr_nrows : Z; fr_xlc : R; fr_ylc : R; fr_cellsize : R;
  fr_data : list R; fr_map : list (option Z) }.
(* 532-563 *)
Definition OpenRasterDataset (fs : archive) (id_type : string) (dir : string) (date : time_struct) (map_ : list (option Z)) : result fraster :=
  let! file := DetermineDatasetFilename dir date id_type in
  let! d := opendata fs file in
  of_option (
    let* c := fget d 1 in let* ncols := int_of c in
    let* r := fget d 2 in let* nrows := int_of r in
    let* xlc := fget d 3 in let* ylc := fget d 4 in let* cellsize := fget d 5 in
    Some (FRaster dir date 1 ncols nrows xlc ylc cellsize d map_)).
(* 617-637 *)
Definition OpenNextRasterDataset (fs : archive) (id_type : string) (r : fraster) : result fraster :=
  let! date := of_option (IncrementDateByOneHour (fr_date r)) in OpenRasterDataset fs id_type (fr_dir r) date (fr_map r).

(* UnstructuredDataset; the number of elements of the mesh is the length of the map *)
Record funstructured := FUnstructured {
  fu_dir : string; fu_date : time_struct; fu_count : nat; fu_stride : Z; fu_data : list R; fu_map : list (option Z) }.
(* 640-677.  [expected] is evaluated when it is compared: it may be an alias of data%stride. *)
Definition OpenUnstructuredDataset (fs : archive) (id_type : string) (dir : string) (date : time_struct) (map_ : list (option Z)) (expected : Z -> Z) : result funstructured :=
  let! file := DetermineDatasetFilename dir date id_type in
  let! d := opendata fs file in
  let! ndata := of_option (let* x := fget d 1 in int_of x) in
  let! stride := of_option (let* x := fget d 2 in int_of x) in
  if (stride =? 0)%Z then UB else
  check (Z.quot (Z.of_nat (length d) - 2) stride =? ndata)%Z (
  check (stride =? expected stride)%Z (
  Ret (FUnstructured dir date 1 stride d map_))).
(* 680-700: the actual argument for expected_data_stride is data%stride itself, which the subroutine changes (653-673) *)
Definition OpenNextUnstructuredDataset (fs : archive) (id_type : string) (u : funstructured) : result funstructured :=
  let! date := of_option (IncrementDateByOneHour (fu_date u)) in
  OpenUnstructuredDataset fs id_type (fu_dir u) date (fu_map u) (fun stride => stride).

(** ** Spatial maps (main.F90:818-1062) *)
(* 818-858 *)
Definition FReadUnstructuredDatasetCoordinates (d : list R) : result (list (R * R)) :=
  let! n := of_option (let* x := fget d 1 in int_of x) in
  let! stride := of_option (let* x := fget d 2 in int_of x) in
  check (stride =? 2)%Z (of_option (omap (fun i => let* x := fget d (2 + (i - 1) * stride + 1) in let* y := fget d (2 + (i - 1) * stride + 2) in Some (x, y)) (fseq (Z.to_nat n)))).
(* 881-895: [i] is the next point; min_dist and data2mesh_idx(icell) as they are *)
Fixpoint unstructured_nearest (xc yc : R) (pts : list (R * R)) (i : Z) (min_dist : option R) (idx : option Z) : option (option Z) :=
  match pts with
  | [] => Some idx
  | (px, py) :: t =>
    let dist := distance xc yc px py in
    if (i =? 1)%Z then unstructured_nearest xc yc t (i + 1) (Some dist) (Some i)
    else let* m := min_dist in
      if (dist <? m)%R then unstructured_nearest xc yc t (i + 1) (Some dist) (Some i) else unstructured_nearest xc yc t (i + 1) (Some m) idx
  end.
(* 862-898 *)
Definition CreateUnstructuredDatasetMap (pts : list (R * R)) (mesh : list (R * R)) : option (list (option Z)) :=
  omap (fun c => unstructured_nearest (fst c) (snd c) pts 1 None None) mesh.
(* 999-1006 *)
Definition fortran_raster_point (nrows : nat) (xlc ylc cellsize : R) (irow icol : nat) : R * R :=
  ((xlc + (INR icol - 1) * cellsize + cellsize / 2)%R, (ylc + (INR nrows - INR irow) * cellsize + cellsize / 2)%R).
Definition fortran_raster_points (ncols nrows : nat) (xlc ylc cellsize : R) : list (R * R) :=
  flat_map (fun irow => map (fun icol => fortran_raster_point nrows xlc ylc cellsize irow icol) (seq 1 ncols)) (seq 1 nrows).
(* 958-970; [count] before the next point *)
Fixpoint raster_nearest (xc yc : R) (pts : list (R * R)) (count : Z) (min_dist : R) (idx : option Z) : option Z :=
  match pts with
  | [] => idx
  | (px, py) :: t =>
    let count := (count + 1)%Z in
    let dist := distance xc yc px py in
    if (dist <? min_dist)%R then raster_nearest xc yc t count dist (Some count) else raster_nearest xc yc t count min_dist idx
  end.
(* 938-973 *)
Definition CreateRasterDatasetMapping (ncols nrows : Z) (xlc ylc cellsize : R) (mesh : list (R * R)) : list (option Z) :=
  map (fun c => raster_nearest (fst c) (snd c) (fortran_raster_points (Z.to_nat ncols) (Z.to_nat nrows) xlc ylc cellsize) 0 ((IZR (Z.max ncols nrows) + 1) * cellsize) None) mesh.
(* 1088-1092, 981-1025, with the map created, not read *)
Definition CreateRaster (fs : archive) (id_type dir : string) (date : time_struct) (mesh : list (R * R)) : result fraster :=
  let! r := OpenRasterDataset fs id_type dir date [] in
  Ret (FRaster dir date (fr_count r) (fr_ncols r) (fr_nrows r) (fr_xlc r) (fr_ylc r) (fr_cellsize r) (fr_data r)
         (CreateRasterDatasetMapping (fr_ncols r) (fr_nrows r) (fr_xlc r) (fr_ylc r) (fr_cellsize r) mesh)).
(* 1093-1098, 1032-1062 *)
Definition CreateUnstructured (fs : archive) (id_type dir : string) (date : time_struct) (stride : Z) (mesh_file : string) (mesh : list (R * R)) : result funstructured :=
  let! u := OpenUnstructuredDataset fs id_type dir date [] (fun _ => stride) in
  let! d := opendata fs mesh_file in
  let! pts := FReadUnstructuredDatasetCoordinates d in
  let! m := of_option (CreateUnstructuredDatasetMap pts mesh) in
  Ret (FUnstructured dir date (fu_count u) (fu_stride u) (fu_data u) m).

(** ** Map files (main.F90:703-730, 901-934; rdydata.c:553-606) *)
(* A vector with one number per cell: the entries in the global order, process after process.  Numbers that were never
   given a value are left out of the model here. *)
Definition RDyWriteOneDOFGlobalVecToBinaryFile (num : numbering) (global : list R) : option (list R) :=
  if Nat.eqb (length num) (length global) then ofold (fun n p => upd n (fst p) (snd p)) (combine num global) (repeat 0%R (length global)) else None.
(* VecLoad refuses a file of another length *)
Definition RDyReadOneDOFGlobalVecFromBinaryFile (num : numbering) (file : list R) : result (list R) :=
  if Nat.eqb (length num) (length file) then of_option (omap (nth_error file) num) else Error.
(* 703-730: the parts of all processes *)
Definition WriteMap (num : numbering) (d2m : list (list Z)) : option (list R) := RDyWriteOneDOFGlobalVecToBinaryFile num (map IZR (concat d2m)).
(* 901-934 on the process owning the [ncells] cells from [first] on; the size of the vector is that of all processes *)
Definition ReadRainfallDatasetMap (num : numbering) (file : list R) (first ncells : nat) : result (list Z) :=
  let! global := RDyReadOneDOFGlobalVecFromBinaryFile num file in
  check (Nat.eqb (length global) ncells) (of_option (omap (fun i => let* x := fget (skipn first global) i in int_of x) (fseq ncells))).

(** ** Values for the model (main.F90:1106-1186, 1353-1416) *)
(* 1127-1155 *)
Definition FSetHomogeneousData (data : list R) (interp : bool) (cur_time : R) (num_values : nat) (values : list (option R)) : option (list (option R)) :=
  let* r := getcurrentdata data (num_samples data) cur_time interp in
  ofold (fun vs i => fset vs i (Some (snd r))) (fseq num_values) values.
(* 1353-1383 *)
Definition FSetHomogeneousBoundary (data : list R) (interp : bool) (cur_time : R) (num_values : nat) (values : list (option R)) : option (list (option R)) :=
  let* r := getcurrentdata data (num_samples data) cur_time interp in
  ofold (fun vs i => let* vs := fset vs ((i - 1) * 3 + 1) (Some (snd r)) in let* vs := fset vs ((i - 1) * 3 + 2) (Some 0%R) in fset vs ((i - 1) * 3 + 3) (Some 0%R)) (fseq num_values) values.
(* 1174, 1400 *)
Definition new_file (cur_time : R) (ndata_file : nat) : bool := (INR ndata_file * 1 <=? cur_time / 3600)%R.
(* 1158-1186 *)
Definition SetRasterData (fs : archive) (id_type : string) (r : fraster) (cur_time : R) (num_values : nat) (values : list (option R)) : result (fraster * list (option R)) :=
  let! r := if new_file cur_time (fr_count r) then
      let! r' := OpenNextRasterDataset fs id_type r in
      Ret (FRaster (fr_dir r') (fr_date r') (S (fr_count r)) (fr_ncols r') (fr_nrows r') (fr_xlc r') (fr_ylc r') (fr_cellsize r') (fr_data r') (fr_map r'))
    else Ret r in
  let! vs := of_option (ofold (fun vs icell => let* m := fget (fr_map r) icell in let* idx := m in let* d := fget (fr_data r) (idx + 5) in fset vs icell (Some (d * mm_per_hr_2_m_per_sec)%R)) (fseq num_values) values) in
  Ret (r, vs).
(* 1386-1416 *)
Definition SetUnstructuredData (fs : archive) (id_type : string) (u : funstructured) (cur_time : R) (num_values : nat) (values : list (option R)) : result (funstructured * list (option R)) :=
  let! u := if new_file cur_time (fu_count u) then
      let! u' := OpenNextUnstructuredDataset fs id_type u in
      Ret (FUnstructured (fu_dir u') (fu_date u') (S (fu_count u)) (fu_stride u') (fu_data u') (fu_map u'))
    else Ret u in
  let! vs := of_option (ofold (fun vs icell => let* m := fget (fu_map u) icell in let* i := m in
      let idx := ((i - 1) * fu_stride u)%Z in
      ofold (fun vs ii => let* d := fget (fu_data u) (idx + ii + 2) in fset vs ((icell - 1) * fu_stride u + ii) (Some d)) (fseq (Z.to_nat (fu_stride u))) vs)
    (fseq num_values) values) in
  Ret (u, vs).

(** ** Applying the forcing (main.F90:1189-1232, 1419-1452) *)
Inductive frain :=
| FUnset
| FConstant (rate : R)
| FHomogeneous (data : list R) (interp : bool)
| FRasterRain (r : fraster)
| FUnstructuredRain (u : funstructured).
(* SourceSink: the data set, ndata and data_for_rdycore *)
Record source_sink := SourceSink { ss_data : frain; ss_n : nat; ss_values : list (option R) }.
(* a subroutine called without PetscCallA: the error code is dropped *)
Definition unchecked (x : outcome rdy) : result rdy := match x with Ok s => Ret s | Err s => Ret s | Undef => UB end.
Definition PetscCallA (x : outcome rdy) : result rdy := match x with Ok s => Ret s | Err _ => Error | Undef => UB end.
(* 1202, 1211: region_idx = 1 is the ID of the region for the library (rdydata.c:225-230) *)
Definition rain_source (st : rdy) (n : nat) (values : list (option R)) : result rdy :=
  let! vs := of_option (initialised values) in unchecked (RDySetRegionalWaterSource st 1 (Z.of_nat n) vs).
Definition ApplyRainfallDataset (fs : archive) (id_type : string) (st : rdy) (s : source_sink) (cur_time : R) : result (rdy * source_sink) :=
  let n := ss_n s in
  match ss_data s with
  | FUnset => Ret (st, s)
  | FConstant rate =>
    if Nat.ltb 0 n then
      let! vs := of_option (ofold (fun vs i => fset vs i (Some rate)) (fseq n) (ss_values s)) in
      let! st := rain_source st n vs in Ret (st, SourceSink (ss_data s) n vs)
    else Ret (st, s)
  | FHomogeneous data interp =>
    if Nat.ltb 0 n then
      let! vs := of_option (FSetHomogeneousData data interp cur_time n (ss_values s)) in
      let! st := rain_source st n vs in Ret (st, SourceSink (ss_data s) n vs)
    else Ret (st, s)
  | FRasterRain r =>
    if Nat.ltb 0 n then
      let! rv := SetRasterData fs id_type r cur_time n (ss_values s) in
      let! st := rain_source st n (snd rv) in Ret (st, SourceSink (FRasterRain (fst rv)) n (snd rv))
    else Ret (st, s)
  | FUnstructuredRain u =>
    if Nat.ltb 0 n then
      let! uv := SetUnstructuredData fs id_type u cur_time n (ss_values s) in
      let! st := rain_source st n (snd uv) in Ret (st, SourceSink (FUnstructuredRain (fst uv)) n (snd uv))
    else Ret (st, s)
  end.
Inductive fboundary := FBUnset | FBHomogeneous (data : list R) (interp : bool) | FBUnstructured (u : funstructured).
(* BoundaryCondition: the data set, dirichlet_bc_idx, ndata, data_for_rdycore *)
Record boundary_condition := BoundaryCondition { bo_data : fboundary; bo_idx : Z; bo_n : nat; bo_values : list (option R) }.
(* rdycore.F90:633-641: the number of the boundary less 1 *)
Definition FRDySetFlowDirichletBoundaryValues (st : rdy) (b ne ndof : Z) (values : list R) : outcome rdy := exec st (FlowValues (b - 1) ne ndof values).
Definition boundary_values_ (st : rdy) (b : boundary_condition) (values : list (option R)) : result rdy :=
  let! vs := of_option (initialised values) in PetscCallA (FRDySetFlowDirichletBoundaryValues st (bo_idx b) (Z.of_nat (bo_n b / 3)) 3 vs).
Definition ApplyBoundaryCondition (fs : archive) (id_type : string) (st : rdy) (b : boundary_condition) (cur_time : R) : result (rdy * boundary_condition) :=
  match bo_data b with
  | FBUnset => Ret (st, b)
  | FBHomogeneous data interp =>
    if Nat.ltb 0 (bo_n b) then
      let! vs := of_option (FSetHomogeneousBoundary data interp cur_time (bo_n b / 3) (bo_values b)) in
      let! st := boundary_values_ st b vs in Ret (st, BoundaryCondition (bo_data b) (bo_idx b) (bo_n b) vs)
    else Ret (st, b)
  | FBUnstructured u =>
    if Nat.ltb 0 (bo_n b) then
      let! uv := SetUnstructuredData fs id_type u cur_time (bo_n b / 3) (bo_values b) in
      let! st := boundary_values_ st b (snd uv) in Ret (st, BoundaryCondition (FBUnstructured (fst uv)) (bo_idx b) (bo_n b) (snd uv))
    else Ret (st, b)
  end.
(* 1545-1546: one turn of the loop of the program, without RDyAdvance (which leaves sources and boundary values alone) *)
Definition driver_step (fs : archive) (id_type : string) (x : rdy * source_sink * boundary_condition) (cur_time : R) : result (rdy * source_sink * boundary_condition) :=
  let '(st, s, b) := x in
  let! r := ApplyRainfallDataset fs id_type st s cur_time in
  let! q := ApplyBoundaryCondition fs id_type (fst r) b cur_time in
  Ret (fst q, snd r, snd q).
Fixpoint driver_run (fs : archive) (id_type : string) (x : rdy * source_sink * boundary_condition) (times : list R) : result (rdy * source_sink * boundary_condition) :=
  match times with [] => Ret x | t :: ts => let! y := driver_step fs id_type x t in driver_run fs id_type y ts end.
(* 1533, 1543: the time handed on is RDyGetTime in the time unit of the configuration; [seconds] is the model's *)
Definition driver_time (u : time_unit) (seconds : R) : R := ConvertTimeFromSeconds seconds u.

(** ** Dirichlet boundaries (main.F90:433-503, 735-779) *)
(* 456-467; (type, number of edges) of each boundary; boundaries are numbered from 1 (rdycore.F90:625-649) *)
Fixpoint fortran_find (bcs : list (ctype * nat)) (ibcond : Z) (acc : Z * nat * bool) : Z * nat * bool :=
  match bcs with
  | [] => acc
  | (ty, ne) :: t =>
    let '(idx, n, multiple) := acc in
    fortran_find t (ibcond + 1) (if is_dirichlet ty then (ibcond, ne, if (-1 <? idx)%Z then true else multiple) else acc)
  end.
Definition FortranFindDirichletBCID (bcs : list (ctype * nat)) : Z * nat * bool := fortran_find bcs 1 ((-1)%Z, 0, false).
(* 474-503, 735-762: index, ndata; [global] is the maximum over the processes (469) *)
Definition DoPostprocessForBoundary (bcs : list (ctype * nat)) (global : Z) : result (Z * nat) :=
  let '(idx, ne, multiple) := FortranFindDirichletBCID bcs in
  check (negb multiple) (check (negb (global =? -1)%Z) (Ret (global, ne * 3))).

(** ** The data sets the options ask for (main.F90:200-388, 1065-1103, 1301-1327) *)
(* Options of several kinds at once make the program stop (300-306, 380-386) and are left out, and so are map files. *)
Inductive rain_options :=
| RainUnset
| RainConstant (rate : R)
| RainHomogeneous (filename : string) (interp : bool)
| RainRaster (dir : string) (date : time_struct)
| RainUnstructured (dir : string) (date : time_struct) (mesh_file : string).
(* 1065-1103; [mesh]: centroids of the owned cells *)
Definition CreateRainfallConditionDataset (fs : archive) (id_type : string) (o : rain_options) (mesh : list (R * R)) : result source_sink :=
  let n := length mesh in
  match o with
  | RainUnset => Ret (SourceSink FUnset 0 [])
  | RainConstant rate => Ret (SourceSink (FConstant rate) n (repeat None n))
  | RainHomogeneous filename interp => let! d := opendata fs filename in Ret (SourceSink (FHomogeneous d interp) n (repeat None n))
  | RainRaster dir date => let! r := CreateRaster fs id_type dir date mesh in Ret (SourceSink (FRasterRain r) n (repeat None n))
  | RainUnstructured dir date mesh_file => let! u := CreateUnstructured fs id_type dir date 1 mesh_file mesh in Ret (SourceSink (FUnstructuredRain u) n (repeat None n))
  end.
Inductive bc_options :=
| BCUnset
| BCHomogeneous (filename : string) (interp : bool)
| BCUnstructured (dir : string) (date : time_struct) (mesh_file : string).
(* 1301-1327; [edges]: centroids of the edges of the boundary found (766).  A process without such edges does not read the
   mesh file. *)
Definition CreateBoundaryConditionDataset (fs : archive) (id_type : string) (o : bc_options) (bcs : list (ctype * nat)) (global : Z) (edges : list (R * R)) : result boundary_condition :=
  match o with
  | BCUnset => Ret (BoundaryCondition FBUnset 0 0 [])
  | BCHomogeneous filename interp =>
    let! d := opendata fs filename in
    let! p := DoPostprocessForBoundary bcs global in
    Ret (BoundaryCondition (FBHomogeneous d interp) (fst p) (snd p) (repeat None (snd p)))
  | BCUnstructured dir date mesh_file =>
    let! u := OpenUnstructuredDataset fs id_type dir date [] (fun _ => 3%Z) in
    let! p := DoPostprocessForBoundary bcs global in
    let! u := if Nat.ltb 0 (snd p) then
        let! d := opendata fs mesh_file in
        let! pts := FReadUnstructuredDatasetCoordinates d in
        let! m := of_option (CreateUnstructuredDatasetMap pts edges) in
        Ret (FUnstructured dir date (fu_count u) (fu_stride u) (fu_data u) m)
      else Ret u in
    Ret (BoundaryCondition (FBUnstructured u) (fst p) (snd p) (repeat None (snd p)))
  end.
(* 1456-1580: the program up to the end of the loop; [times]: the times of the model, in seconds *)
Definition fortran_driver (fs : archive) (id_type : string) (ro : rain_options) (bo : bc_options) (u : time_unit) (mesh : list (R * R)) (bcs : list (ctype * nat)) (global : Z) (edges : list (R * R))
    (st : rdy) (times : list R) : result rdy :=
  let! s := CreateRainfallConditionDataset fs id_type ro mesh in
  let! b := CreateBoundaryConditionDataset fs id_type bo bcs global edges in
  let! x := driver_run fs id_type (st, s, b) (map (driver_time u) times) in
  Ret (fst (fst x)).
