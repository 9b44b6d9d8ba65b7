(** What the forcing files of the Fortran driver mean. *)
From Coq Require Import ZArith String.
From Verif Require Import Base MeshMapsModel DataModel DataProperties SetupModel TimeModel CalendarModel CalendarProperties ForcingModel ForcingProofs ForcingProperties ForcingRunProperties FortranDriverModel.
Local Notation length := List.length.
Local Notation concat := List.concat.
Local Open Scope R_scope.
Local Open Scope nat_scope.

(* a date without its seconds *)
Definition time_of (d : date) : time_struct := Time (year d) (month d) (day d) (hour d) (minute d).
(* [d] is in the file dated [k] hours after [start] in the directory *)
Definition file_at (fs : archive) (id_type dir : string) (start : date) (k : nat) (d : list R) : Prop := exists e, later (3600 * k) start e /\ fs (hourly_name dir id_type e) = Some d.
(* The hourly files up to hour [K] can be found: years of four digits, no 29 February entered, names of at most 1024
   characters. *)
Definition findable (id_type dir : string) (start : date) (K : nat) : Prop :=
  valid_date start /\ second start = 0%Z /\ String.length dir + String.length id_type + 22 <= 1024 /\
  forall k e, k <= K -> later (3600 * k) start e -> (1000 <= year e <= 9999)%Z /\ (0 < k -> ~ (month e = 2 /\ day e = 29 /\ hour e = 0)%Z).
(* a raster file *)
Record raster_shape := Shape { sh_ncols : nat; sh_nrows : nat; sh_xlc : R; sh_ylc : R; sh_size : R }.
Definition raster_file (h : raster_shape) (d : list R) : Prop :=
  exists body, d = INR (sh_ncols h) :: INR (sh_nrows h) :: sh_xlc h :: sh_ylc h :: sh_size h :: body /\ length body = sh_nrows h * sh_ncols h.
Definition shape_points (h : raster_shape) : list (R * R) := raster_points (sh_ncols h) (sh_nrows h) (sh_xlc h) (sh_ylc h) (sh_size h).
(* a file with [stride] data for each of [n] points, and the file with the coordinates of points *)
Definition point_file (stride n : nat) (d : list R) : Prop := exists body, d = INR n :: INR stride :: body /\ length body = n * stride.
Definition coordinates_file (pts : list (R * R)) : list R := INR (length pts) :: 2%R :: flat_map (fun p => [fst p; snd p]) pts.
Definition fits (n : nat) : Prop := (Z.of_nat n < 2 ^ 31)%Z.

(* The options, with the contents of the files they name *)
Inductive rain_data (fs : archive) (id_type : string) (K : nat) (mesh : list (R * R)) : rain_options -> Prop :=
| rd_unset : rain_data fs id_type K mesh RainUnset
| rd_constant rate : rain_data fs id_type K mesh (RainConstant rate)
| rd_record filename interp l : fs filename = Some (interleaved l) -> l <> [] -> increasing l -> rain_data fs id_type K mesh (RainHomogeneous filename interp)
| rd_raster dir start h : findable id_type dir start K -> fits (sh_ncols h) -> fits (sh_nrows h) ->
    (forall k, k <= K -> exists d, file_at fs id_type dir start k d /\ raster_file h d) ->
    (* some point of the raster is within (max(ncols, nrows) + 1) cell sizes *)
    (forall c, In c mesh -> exists q, In q (shape_points h) /\ (dist_to (fst c) (snd c) q < INR (Nat.max (sh_ncols h) (sh_nrows h) + 1) * sh_size h)%R) ->
    rain_data fs id_type K mesh (RainRaster dir (time_of start))
| rd_points dir start mesh_file pts : findable id_type dir start K -> pts <> [] -> fits (length pts) -> fs mesh_file = Some (coordinates_file pts) ->
    (forall k, k <= K -> exists d, file_at fs id_type dir start k d /\ point_file 1 (length pts) d) ->
    rain_data fs id_type K mesh (RainUnstructured dir (time_of start) mesh_file).
(* The rain (m/s) the options prescribe at the time [t] (seconds) for a cell with centroid [c]; records are in the time
   unit of the configuration. *)
Inductive meant_rain (fs : archive) (id_type : string) (u : time_unit) (t : R) (c : R * R) : rain_options -> R -> Prop :=
| mr_constant rate : meant_rain fs id_type u t c (RainConstant rate) rate
| mr_record filename interp l v : fs filename = Some (interleaved l) -> sampled l interp (ConvertTimeFromSeconds t u) v -> meant_rain fs id_type u t c (RainHomogeneous filename interp) v
| mr_raster dir start h k d i x : second start = 0%Z -> hour_of t k -> file_at fs id_type dir start k d -> raster_file h d -> first_nearest (shape_points h) (fst c) (snd c) i -> nth_error d (5 + i) = Some x ->
    meant_rain fs id_type u t c (RainRaster dir (time_of start)) (x / (1000 * 3600))
| mr_points dir start mesh_file pts k d i x : second start = 0%Z -> fs mesh_file = Some (coordinates_file pts) -> hour_of t k -> file_at fs id_type dir start k d -> first_nearest pts (fst c) (snd c) i -> nth_error d (2 + i) = Some x ->
    meant_rain fs id_type u t c (RainUnstructured dir (time_of start) mesh_file) x.
Definition hourly_rain (o : rain_options) : Prop := match o with RainRaster _ _ | RainUnstructured _ _ _ => True | _ => False end.

Inductive bc_data (fs : archive) (id_type : string) (K : nat) : bc_options -> Prop :=
| bd_unset : bc_data fs id_type K BCUnset
| bd_record filename interp l : fs filename = Some (interleaved l) -> l <> [] -> increasing l -> bc_data fs id_type K (BCHomogeneous filename interp)
| bd_points dir start mesh_file pts : findable id_type dir start K -> pts <> [] -> fits (length pts) -> fs mesh_file = Some (coordinates_file pts) ->
    (forall k, k <= K -> exists d, file_at fs id_type dir start k d /\ point_file 3 (length pts) d) ->
    bc_data fs id_type K (BCUnstructured dir (time_of start) mesh_file).
(* the value prescribed for component [k] on an edge with centroid [c] *)
Inductive meant_bc (fs : archive) (id_type : string) (u : time_unit) (t : R) (c : R * R) (comp : nat) : bc_options -> R -> Prop :=
| mb_record filename interp l w v : fs filename = Some (interleaved l) -> sampled l interp (ConvertTimeFromSeconds t u) w -> still_water w comp = Some v -> meant_bc fs id_type u t c comp (BCHomogeneous filename interp) v
| mb_points dir start mesh_file pts k d i x : second start = 0%Z -> comp < 3 -> fs mesh_file = Some (coordinates_file pts) -> hour_of t k -> file_at fs id_type dir start k d -> first_nearest pts (fst c) (snd c) i -> nth_error d (2 + (3 * i + comp)) = Some x ->
    meant_bc fs id_type u t c comp (BCUnstructured dir (time_of start) mesh_file) x.
Definition hourly_bc (o : bc_options) : Prop := match o with BCUnstructured _ _ _ => True | _ => False end.
(* Boundary number [b] (from 0) is the only Dirichlet boundary, [edges] are the centroids of its edges here.  A process may have
   none of it. *)
Definition only_dirichlet (st : rdy) (b : nat) (edges : list (R * R)) : Prop :=
  (forall j ne, dirichlet st j ne -> j = b /\ ne = length edges) /\ (edges <> [] -> dirichlet st b (length edges)).
