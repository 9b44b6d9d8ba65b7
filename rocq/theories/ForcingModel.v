(** Forcing: rainfall and boundary values read from files while the model runs
    (src/forcing/rdyforcing_dataset.c, rdyforcing_map.c, rdyforcing.c).

    Arrays handed over to the operator are lists of [option R]; None is an entry never written (PetscMalloc1
    or an uninitialised local variable).  Files are given by their contents. *)
From Verif Require Import Base MeshMapsModel DataModel SetupModel ConfigModel.
Local Notation length := List.length.
Local Open Scope R_scope.
Local Open Scope nat_scope.

(** ** Time series (rdyforcing_dataset.c:9-67) *)
(* rdyforcing_dataset.c:19-21: ndata = size / 2 *)
Definition num_samples (data : list R) : nat := length data / 2.
(* rdyforcing_dataset.c:41-52: the loop over itime; [n] iterations left.  Some None: not found. *)
Fixpoint find_bracket (data : list R) (cur_time : R) (itime n : nat) : option (option (nat * ((R * R) * (R * R)))) :=
  match n with
  | O => Some None
  | S n' =>
    let* time_dn := nth_error data (itime * 2) in
    let* data_dn := nth_error data (itime * 2 + 1) in
    let* time_up := nth_error data (itime * 2 + 2) in
    let* data_up := nth_error data (itime * 2 + 3) in
    if (time_dn <=? cur_time)%R && (cur_time <? time_up)%R then Some (Some (itime, ((time_dn, data_dn), (time_up, data_up))))
    else find_bracket data cur_time (S itime) n'
  end.
(* rdyforcing_dataset.c:32-67; the index found and the value.  None: out-of-bounds read or division by zero. *)
Definition RDyForcingGetCurrentData (data : list R) (ndata : nat) (cur_time : R) (interpolate : bool) : option (Z * R) :=
  let* found := find_bracket data cur_time 0 (ndata - 1) in
  match found with
  | None => let* v := zget data (Z.of_nat ndata * 2 - 1) in Some ((Z.of_nat ndata - 1)%Z, v)
  | Some (itime, ((time_dn, data_dn), (time_up, data_up))) =>
    if interpolate then
      let* q := rdiv (cur_time - time_dn) (time_up - time_dn) in Some (Z.of_nat itime, (q * (data_up - data_dn) + data_dn)%R)
    else Some (Z.of_nat itime, data_dn)
  end.

(* RDyHomogeneousDataset *)
Record homogeneous := Homogeneous { h_data : list R; h_ndata : nat; h_interp : bool; h_cur : Z; h_prev : Z }.
(* rdyforcing_dataset.c:71-81 *)
Definition RDyForcingOpenHomogeneousDataset (data : list R) (interp : bool) : homogeneous := Homogeneous data (num_samples data) interp (-1) (-1).

(* values[i] = v for i < n *)
Definition fill (n : nat) (v : R) (values : list (option R)) : option (list (option R)) :=
  ofold (fun vs i => upd vs i (Some v)) (seq 0 n) values.
(* rdyforcing_dataset.c:321-344 *)
Definition RDyForcingSetHomogeneousData (h : homogeneous) (cur_time : R) (ncells : nat) (values : list (option R)) : option (homogeneous * list (option R)) :=
  let* r := RDyForcingGetCurrentData (h_data h) (h_ndata h) cur_time (h_interp h) in
  let (idx, v) := r in
  if h_interp h || negb (Z.eqb idx (h_prev h)) then
    let* vs := fill ncells v values in Some (Homogeneous (h_data h) (h_ndata h) (h_interp h) idx idx, vs)
  else Some (Homogeneous (h_data h) (h_ndata h) (h_interp h) idx (h_prev h), values).
(* rdyforcing_dataset.c:397-401: triples [v, 0, 0] *)
Definition fill_triples (n : nat) (v : R) (values : list (option R)) : option (list (option R)) :=
  ofold (fun vs i => let* vs := upd vs (i * 3) (Some v) in let* vs := upd vs (i * 3 + 1) (Some 0%R) in upd vs (i * 3 + 2) (Some 0%R)) (seq 0 n) values.
(* rdyforcing_dataset.c:380-406 *)
Definition RDyForcingSetHomogeneousBoundary (h : homogeneous) (cur_time : R) (num_values : nat) (values : list (option R)) : option (homogeneous * list (option R)) :=
  let* r := RDyForcingGetCurrentData (h_data h) (h_ndata h) cur_time (h_interp h) in
  let (idx, v) := r in
  if h_interp h || negb (Z.eqb idx (h_prev h)) then
    let* vs := fill_triples num_values v values in Some (Homogeneous (h_data h) (h_ndata h) (h_interp h) idx idx, vs)
  else Some (Homogeneous (h_data h) (h_ndata h) (h_interp h) idx (h_prev h), values).
(* rdyforcing_dataset.c:280-286 *)
Definition RDyForcingSetConstantRainfall (rate : R) (ncells : nat) (values : list (option R)) : option (list (option R)) := fill ncells rate values.

(** ** Hourly files (rdyforcing_dataset.c:119-372) *)
(* Contents of the file dated k hours after the start date; None: no such file (an error).  Names are
   modelled in CalendarModel.v ([forcing_file]). *)
Definition files := nat -> option (list R).
(* The file in memory: contents and ndata_file, the number of files opened so far. *)
Record hourly := Hourly { f_data : list R; f_count : nat }.
(* rdyforcing_dataset.c:295-298, 353-355: one more file if the time has left the last one opened; dtime_in_hour = 1.
   The file opened has tm_hour one more than the previous one.  [ok] is the check of the new contents. *)
Definition next_file (fs : files) (ok : list R -> option bool) (f : hourly) (cur_time : R) : outcome hourly :=
  if (INR (f_count f) * 1 <=? cur_time / 3600)%R then
    match fs (f_count f) with
    | Some d => match ok d with Some true => Ok (Hourly d (S (f_count f))) | Some false => Err f | None => Undef end
    | None => Err f
    end
  else Ok f.

(* (PetscInt)x, None outside the range of the type *)
Definition int_of (x : R) : option Z := match to_int x with Ret z => Some z | _ => None end.
(* RDyRasterDataset: header and map *)
Record raster := Raster { ra_ncols : Z; ra_nrows : Z; ra_xlc : R; ra_ylc : R; ra_cellsize : R; ra_file : hourly; ra_map : list nat }.
(* rdyforcing_dataset.c:172-181; None: out-of-bounds read or conversion out of range *)
Definition same_header (r : raster) (d : list R) : option bool :=
  let* c := nth_error d 0 in let* c := int_of c in
  let* n := nth_error d 1 in let* n := int_of n in
  let* x := nth_error d 2 in let* y := nth_error d 3 in let* s := nth_error d 4 in
  Some (Z.eqb c (ra_ncols r) && Z.eqb n (ra_nrows r) && Reqb x (ra_xlc r) && Reqb y (ra_ylc r) && Reqb s (ra_cellsize r)).
(* out[i] for i < n, written in order *)
Definition write_all (n : nat) (f : nat -> option R) (values : list (option R)) : option (list (option R)) :=
  ofold (fun vs i => let* v := f i in upd vs i (Some v)) (seq 0 n) values.
(* rdyforcing_dataset.c:295-314 *)
Definition mm_per_hr_2_m_per_sec : R := 1 / (1000 * 3600).
Definition RDyForcingSetRasterData (fs : files) (r : raster) (cur_time : R) (ncells : nat) (values : list (option R)) : outcome (raster * list (option R)) :=
  match next_file fs (same_header r) (ra_file r) cur_time with
  | Ok f =>
    defined (let* vs := write_all ncells (fun i => let* idx := nth_error (ra_map r) i in let* d := nth_error (f_data f) (idx + 5) in Some (d * mm_per_hr_2_m_per_sec)%R) values in
             Some (Raster (ra_ncols r) (ra_nrows r) (ra_xlc r) (ra_ylc r) (ra_cellsize r) f (ra_map r), vs))
  | Err f => Err (r, values)
  | Undef => Undef
  end.
(* RDyUnstructuredDataset *)
Record unstructured := Unstructured { un_stride : nat; un_file : hourly; un_map : list nat }.
(* rdyforcing_dataset.c:350-372; mesh_nelements is the length of the map *)
Definition RDyForcingSetUnstructuredData (fs : files) (u : unstructured) (cur_time : R) (values : list (option R)) : outcome (unstructured * list (option R)) :=
  match next_file fs (fun _ => Some true) (un_file u) cur_time with
  | Ok f =>
    defined (let* vs := ofold (fun vs icell => let* m := nth_error (un_map u) icell in
                          ofold (fun vs ii => let* d := nth_error (f_data f) (m * un_stride u + ii + 2) in upd vs (icell * un_stride u + ii) (Some d)) (seq 0 (un_stride u)) vs)
                        (seq 0 (length (un_map u))) values in
             Some (Unstructured (un_stride u) f (un_map u), vs))
  | Err f => Err (u, values)
  | Undef => Undef
  end.

(** ** Spatial maps (rdyforcing_map.c:78-136) *)
Definition distance (x y x' y' : R) : R := sqrt ((x - x') * (x - x') + (y - y') * (y - y')).
(* rdyforcing_map.c:83-103: inner loop over kk; min_dist starts uninitialised (None), data2mesh_idx at 0 (calloc) *)
Fixpoint nearest_loop (x y : R) (pts : list (R * R)) (kk : nat) (min_dist : option R) (idx : nat) : option nat :=
  match pts with
  | [] => Some idx
  | (px, py) :: t =>
    let dist := distance x y px py in
    if Nat.eqb kk 0 then nearest_loop x y t (S kk) (Some dist) kk
    else let* m := min_dist in
      if (dist <? m)%R then nearest_loop x y t (S kk) (Some dist) kk else nearest_loop x y t (S kk) (Some m) idx
  end.
Definition RDyForcingCreateUnstructuredDatasetMap (pts : list (R * R)) (mesh : list (R * R)) : option (list nat) :=
  omap (fun c => nearest_loop (fst c) (snd c) pts 0 None 0) mesh.
(* rdyforcing.c:254-261 *)
Definition raster_point (nrows : nat) (xlc ylc cellsize : R) (irow icol : nat) : R * R :=
  ((xlc + INR icol * cellsize + cellsize / 2)%R, (ylc + (INR nrows - 1 - INR irow) * cellsize + cellsize / 2)%R).
Definition raster_points (ncols nrows : nat) (xlc ylc cellsize : R) : list (R * R) :=
  flat_map (fun irow => map (fun icol => raster_point nrows xlc ylc cellsize irow icol) (seq 0 ncols)) (seq 0 nrows).
(* rdyforcing_map.c:114-131: the two nested loops visit the points in the order of idx *)
Fixpoint raster_loop (x y : R) (pts : list (R * R)) (kk : nat) (min_dist : R) (idx : nat) : nat :=
  match pts with
  | [] => idx
  | (px, py) :: t =>
    let dist := distance x y px py in
    if (dist <? min_dist)%R then raster_loop x y t (S kk) dist kk else raster_loop x y t (S kk) min_dist idx
  end.
Definition raster_limit (ncols nrows : nat) (cellsize : R) : R := (INR (Nat.max ncols nrows + 1) * cellsize)%R.
Definition RDyForcingCreateRasterDatasetMapping (ncols nrows : nat) (xlc ylc cellsize : R) (mesh : list (R * R)) : list nat :=
  map (fun c => raster_loop (fst c) (snd c) (raster_points ncols nrows xlc ylc cellsize) 0 (raster_limit ncols nrows cellsize) 0) mesh.

(** ** Opening (rdyforcing_dataset.c:119-146, 195-226, rdyforcing_map.c:43-73, rdyforcing.c:84-110, 243-285) *)
(* The map is created, not read from a file.  [mesh]: centroids of the owned cells. *)
Definition OpenRaster (fs : files) (mesh : list (R * R)) : result raster :=
  match fs 0 with
  | None => Error
  | Some d => of_option (
      let* c := nth_error d 0 in let* c := int_of c in
      let* n := nth_error d 1 in let* n := int_of n in
      let* x := nth_error d 2 in let* y := nth_error d 3 in let* s := nth_error d 4 in
      Some (Raster c n x y s (Hourly d 1) (RDyForcingCreateRasterDatasetMapping (Z.to_nat c) (Z.to_nat n) x y s mesh)))
  end.
(* rdyforcing_map.c:55-68: number of points, stride (must be 2), coordinates *)
Definition ReadUnstructuredDatasetCoordinates (d : list R) : result (list (R * R)) :=
  let! n := of_option (let* n := nth_error d 0 in int_of n) in
  let! s := of_option (let* s := nth_error d 1 in int_of s) in
  check (Z.eqb s 2) (of_option (omap (fun i => let* x := nth_error d (i * 2 + 2) in let* y := nth_error d (i * 2 + 1 + 2) in Some (x, y)) (seq 0 (Z.to_nat n)))).
Definition OpenUnstructured (fs : files) (expected_data_stride : Z) (mesh_file : list R) (mesh : list (R * R)) : result unstructured :=
  match fs 0 with
  | None => Error
  | Some d =>
    let! n := of_option (let* n := nth_error d 0 in int_of n) in
    let! s := of_option (let* s := nth_error d 1 in int_of s) in
    if Z.eqb s 0 then UB else   (* integer division by zero, rdyforcing_dataset.c:216 *)
    check (Z.eqb (Z.quot (Z.of_nat (length d) - 2) s) n) (check (Z.eqb s expected_data_stride) (
    let! pts := ReadUnstructuredDatasetCoordinates mesh_file in
    let! m := of_option (RDyForcingCreateUnstructuredDatasetMap pts mesh) in
    Ret (Unstructured (Z.to_nat s) (Hourly d 1) m)))
  end.

(** ** Dirichlet boundaries (rdyforcing.c:18-235) *)
(* rdyforcing.c:33-43; (type, number of edges) of each boundary *)
Fixpoint find_dirichlet (bcs : list (ctype * nat)) (ibc : nat) (acc : Z * nat * bool) : Z * nat * bool :=
  match bcs with
  | [] => acc
  | (ty, ne) :: t =>
    let '(idx, n, multiple) := acc in
    find_dirichlet t (S ibc) (if is_dirichlet ty then (Z.of_nat ibc, ne, (multiple || negb (Z.eqb idx (-1)))%bool) else acc)
  end.
Definition FindDirichletBCID (bcs : list (ctype * nat)) : Z * nat * bool := find_dirichlet bcs 0 ((-1)%Z, 0, false).
(* rdyforcing.c:54-77: checks, then ndata = 3 * edges, dirichlet_bc_idx; [global] is the maximum over the processes (rdyforcing.c:45) *)
Definition DoPostprocessForBoundaryDataset (bcs : list (ctype * nat)) (global : Z) : option (Z * nat * list (option R)) :=
  let '(idx, ne, multiple) := FindDirichletBCID bcs in
  if multiple then None else if Z.ltb (-1) global then Some (global, ne * 3, repeat (Some 0%R) (ne * 3)) else None.
(* rdyforcing.c:208-219: the first data set for this boundary *)
Fixpoint find_id (ids : list Z) (id : Z) (j : nat) : option nat :=
  match ids with [] => None | a :: t => if Z.eqb id a then Some j else find_id t id (S j) end.
(* one entry per Dirichlet boundary: index, data set, values (not initialised) *)
Record multi_bc := MultiBC { mb_idx : nat; mb_set : nat; mb_n : nat; mb_values : list (option R) }.
(* rdyforcing.c:202-225; (type, edges, id) of each boundary; None: error, a Dirichlet boundary without data set *)
Fixpoint match_dirichlet (ids : list Z) (bcs : list (ctype * nat * Z)) (i : nat) : option (list multi_bc) :=
  match bcs with
  | [] => Some []
  | (ty, ne, id) :: t =>
    if is_dirichlet ty then
      let* j := find_id ids id 0 in
      let* r := match_dirichlet ids t (S i) in Some (MultiBC i j (ne * 3) (repeat None (ne * 3)) :: r)
    else match_dirichlet ids t (S i)
  end.

(** ** Applying the forcing (rdyforcing.c:688-770) *)
Inductive source :=
| SUnset
| SConstant (rate : R) (ndata : nat) (values : list (option R))
| SHomogeneous (h : homogeneous) (ndata : nat) (values : list (option R))
| SRaster (fs : files) (r : raster) (ndata : nat) (values : list (option R))
| SUnstructured (fs : files) (u : unstructured) (ndata : nat) (values : list (option R))
| SMultiHomogeneous (ds : list (homogeneous * Z)).
Inductive bforcing :=
| BUnset
| BHomogeneous (h : homogeneous) (ndata : nat) (bc_idx : Z) (values : list (option R))
| BUnstructured (fs : files) (u : unstructured) (ndata : nat) (bc_idx : Z) (values : list (option R))
| BMultiHomogeneous (ds : list homogeneous) (bcs : list multi_bc).

(* Passing an array on to a setter reads every entry; an entry never written is an undefined value. *)
Definition initialised (values : list (option R)) : option (list R) := omap (fun x => x) values.
Definition obound {A B} (x : outcome A) (err : A -> B) (k : A -> outcome B) : outcome B :=
  match x with Ok a => k a | Err a => Err (err a) | Undef => Undef end.
Definition of_def {A B} (x : option A) (k : A -> outcome B) : outcome B := match x with Some a => k a | None => Undef end.

(* rdydata.c:253-255, 305-307: component 0 *)
Definition RDySetRegionalWaterSource (st : rdy) (region_id size : Z) (values : list R) : outcome rdy := exec st (RegionalSource 0 region_id size values).
Definition RDySetHomogeneousRegionalWaterSource (st : rdy) (region_id : Z) (value : R) : outcome rdy := exec st (HomogeneousSource 0 region_id value).

(* rdyforcing.c:697-720: the array of all owned cells goes to the region with ID 1 *)
Definition water_source (st : rdy) (ndata : nat) (values : list (option R)) (src : source) : outcome (rdy * source) :=
  of_def (initialised values) (fun vs =>
    obound (RDySetRegionalWaterSource st 1 (Z.of_nat ndata) vs) (fun st => (st, src)) (fun st => Ok (st, src))).
(* rdyforcing.c:722-729: the local variable [data] is not initialised *)
Fixpoint apply_multi (st : rdy) (ds : list (homogeneous * Z)) (time : R) : outcome (rdy * list (homogeneous * Z)) :=
  match ds with
  | [] => Ok (st, [])
  | (h, id) :: t =>
    of_def (RDyForcingSetHomogeneousData h time 1 [None]) (fun '(h', data) =>
    of_def (let* x := nth_error data 0 in x) (fun v =>
    obound (RDySetHomogeneousRegionalWaterSource st (id - 1) v) (fun st => (st, (h', id) :: t)) (fun st =>
    obound (apply_multi st t time) (fun r => (fst r, (h', id) :: snd r)) (fun r => Ok (fst r, (h', id) :: snd r)))))
  end.
(* rdyforcing.c:691-730 *)
Definition apply_source (st : rdy) (src : source) (time : R) : outcome (rdy * source) :=
  match src with
  | SUnset => Ok (st, SUnset)
  | SConstant rate n values =>
    if Nat.eqb n 0 then Ok (st, src) else
    of_def (RDyForcingSetConstantRainfall rate n values) (fun vs => water_source st n vs (SConstant rate n vs))
  | SHomogeneous h n values =>
    if Nat.eqb n 0 then Ok (st, src) else
    of_def (RDyForcingSetHomogeneousData h time n values) (fun '(h', vs) => water_source st n vs (SHomogeneous h' n vs))
  | SRaster fs r n values =>
    if Nat.eqb n 0 then Ok (st, src) else
    obound (RDyForcingSetRasterData fs r time n values) (fun _ => (st, src)) (fun '(r', vs) => water_source st n vs (SRaster fs r' n vs))
  | SUnstructured fs u n values =>
    if Nat.eqb n 0 then Ok (st, src) else
    obound (RDyForcingSetUnstructuredData fs u time values) (fun _ => (st, src)) (fun '(u', vs) => water_source st n vs (SUnstructured fs u' n vs))
  | SMultiHomogeneous ds => obound (apply_multi st ds time) (fun r => (fst r, SMultiHomogeneous (snd r))) (fun r => Ok (fst r, SMultiHomogeneous (snd r)))
  end.
(* rdyforcing.c:738-741, 749-751: values of the Dirichlet boundary found *)
Definition flow_values (st : rdy) (bc_idx : Z) (nedges : nat) (values : list (option R)) (b : bforcing) : outcome (rdy * bforcing) :=
  of_def (initialised values) (fun vs =>
    obound (exec st (FlowValues bc_idx (Z.of_nat nedges) 3 vs)) (fun st => (st, b)) (fun st => Ok (st, b))).
(* rdyforcing.c:754-766; data sets are updated in place *)
Fixpoint apply_multi_boundary (st : rdy) (ds : list homogeneous) (bcs : list multi_bc) (time : R) : outcome (rdy * (list homogeneous * list multi_bc)) :=
  match bcs with
  | [] => Ok (st, (ds, []))
  | m :: t =>
    if Nat.eqb (mb_n m / 3) 0 then
      obound (apply_multi_boundary st ds t time) (fun r => (fst r, (fst (snd r), m :: snd (snd r)))) (fun r => Ok (fst r, (fst (snd r), m :: snd (snd r))))
    else
    of_def (nth_error ds (mb_set m)) (fun h =>
    of_def (RDyForcingSetHomogeneousBoundary h time (mb_n m / 3) (mb_values m)) (fun '(h', vals) =>
    of_def (upd ds (mb_set m) h') (fun ds' =>
    of_def (initialised vals) (fun vs =>
    let m' := MultiBC (mb_idx m) (mb_set m) (mb_n m) vals in
    obound (exec st (FlowValues (Z.of_nat (mb_idx m)) (Z.of_nat (mb_n m / 3)) 3 vs)) (fun st => (st, (ds', m' :: t))) (fun st =>
    obound (apply_multi_boundary st ds' t time) (fun r => (fst r, (fst (snd r), m' :: snd (snd r)))) (fun r => Ok (fst r, (fst (snd r), m' :: snd (snd r)))))))))
  end.
(* rdyforcing.c:732-767 *)
Definition apply_boundary (st : rdy) (b : bforcing) (time : R) : outcome (rdy * bforcing) :=
  match b with
  | BUnset => Ok (st, BUnset)
  | BHomogeneous h n idx values =>
    if Nat.eqb n 0 then Ok (st, b) else
    of_def (RDyForcingSetHomogeneousBoundary h time (n / 3) values) (fun '(h', vs) => flow_values st idx (n / 3) vs (BHomogeneous h' n idx vs))
  | BUnstructured fs u n idx values =>
    if Nat.eqb n 0 then Ok (st, b) else
    obound (RDyForcingSetUnstructuredData fs u time values) (fun _ => (st, b)) (fun '(u', vs) => flow_values st idx (n / 3) vs (BUnstructured fs u' n idx vs))
  | BMultiHomogeneous ds bcs =>
    obound (apply_multi_boundary st ds bcs time) (fun r => (fst r, BMultiHomogeneous (fst (snd r)) (snd (snd r)))) (fun r => Ok (fst r, BMultiHomogeneous (fst (snd r)) (snd (snd r))))
  end.
(* rdyforcing.c:688-770 *)
Definition RDyApplyForcing (st : rdy) (src : source) (b : bforcing) (time : R) : outcome (rdy * (source * bforcing)) :=
  obound (apply_source st src time) (fun r => (fst r, (snd r, b))) (fun r =>
  obound (apply_boundary (fst r) b time) (fun q => (fst q, (snd r, snd q))) (fun q => Ok (fst q, (snd r, snd q)))).
(* successive applications, one per coupling interval (rdyadvance.c:351) *)
Fixpoint apply_forcing_at (st : rdy) (src : source) (b : bforcing) (times : list R) : outcome (rdy * (source * bforcing)) :=
  match times with
  | [] => Ok (st, (src, b))
  | t :: ts => obound (RDyApplyForcing st src b t) (fun r => r) (fun r => apply_forcing_at (fst r) (fst (snd r)) (snd (snd r)) ts)
  end.
