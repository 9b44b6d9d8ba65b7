(* The memory and vectors a forcing owns, from its creation (src/forcing/rdyforcing.c, 54-292, 430-462, 555-585, 602-676;
   called from src/rdysetup.c, 1572) through its use (682-770) to its destruction (775-850; called from src/rdycore.c, 270),
   with the datasets of src/forcing/rdyforcing_dataset.c and the maps of src/forcing/rdyforcing_map.c.  Only the blocks and
   the variables that point at them are kept; the values in them are in ForcingModel and ForcingOptionsModel.
   SetupModel gives the results Ret, Error (a failed PetscCheck) and UB. *)
From Coq Require Import List Arith ZArith Bool.
From Verif Require Import SetupModel.
Import ListNotations.
Local Open Scope nat_scope.
Local Notation length := List.length.

(* ---- the variables that hold pointers (include/private/rdyforcingimpl.h, 21-134) ---- *)
Inductive side := Source | Boundary.
(* the pointers of a raster dataset (33-60) or of an unstructured one (62-87) *)
Inductive field := DataVec | DataX | DataY | MeshX | MeshY | Map.
Inductive slot :=
| Object                        (* the forcing itself *)
| Values (d : side)             (* data_for_rdycore of the source (113) and the boundary (124) *)
| Homog (d : side)              (* homogeneous.data_vec *)
| Raster (f : field)            (* source.raster *)
| Unstr (d : side) (f : field)  (* unstructured *)
| Sets (d : side)               (* multihomogeneous.data *)
| Ids (d : side)                (* multihomogeneous.region_ids *)
| SetVec (d : side) (i : nat)   (* multihomogeneous.data[i].data_vec *)
| BcIndex | BcToData | BcSizes  (* multihomogeneous.dirichlet_bc_idx, dirichlet_bc_to_data_idx, ndata_for_rdycore *)
| BcArrays                      (* multihomogeneous.data_for_rdycore *)
| BcArray (i : nat)             (* multihomogeneous.data_for_rdycore[i] *)
| Name (d : side) (i : nat)     (* filenames[i], a local array of the parsers (rdyforcing.c, 434 and 556) *)
| Local (i : nat).              (* a local variable of one of the functions *)
Definition slot_dec (x y : slot) : {x = y} + {x <> y}.
Proof. decide equality; try apply Nat.eq_dec; decide equality. Defined.
(* the blocks a variable is stored in, outermost first: reading or writing it goes through all of them *)
Definition homes (x : slot) : list slot :=
  match x with
  | Object | Name _ _ | Local _ => []
  | SetVec d _ => [Object; Sets d]
  | BcArray _ => [Object; BcArrays]
  | _ => [Object]
  end.
Definition inside (b x : slot) : bool := if in_dec slot_dec b (homes x) then true else false.

(* ---- the heap (trusted base: PetscNew, PetscCalloc1, PetscMalloc1, PetscFree, VecCreate and VecDestroy) ---- *)
(* A variable has not been set, is NULL, or points at the block with a number. *)
Inductive cell := Junk | Null | Ptr (o : nat).
(* [live]: the blocks not yet released, with the variable each was made for *)
Record heap := Heap { live : list (nat * slot); next : nat; ptr : slot -> cell }.
Definition start : heap := Heap [] 0 (fun _ => Junk).
Definition put (p : slot -> cell) (x : slot) (c : cell) : slot -> cell := fun y => if slot_dec y x then c else p y.
Definition holds (h : heap) (o : nat) : bool := existsb (fun b => Nat.eqb (fst b) o) (live h).
Definition there (h : heap) (x : slot) : bool := match ptr h x with Ptr o => holds h o | _ => false end.
Inductive instr :=
| Alloc (x : slot) (n : nat)                  (* PetscCalloc1 or PetscMalloc1 of an array of numbers, VecCreate with n = 1 *)
| AllocStruct (x : slot) (n : nat) (zero : bool) (* an array whose elements hold variables; zero: PetscNew, PetscCalloc1 *)
| Free (x : slot)                             (* PetscFree, VecDestroy *)
| Use (x : slot)                              (* an access to the block x points at *)
| Check (b : bool).                           (* PetscCheck *)
(* Nothing is allocated for a size of zero and the pointer becomes NULL; releasing NULL does nothing; a released pointer
   becomes NULL; any use of a variable that is not set or of a block already released is undefined. *)
Definition step (h : heap) (i : instr) : result heap :=
  match i with
  | Alloc x n =>
    if forallb (there h) (homes x) then
      Ret (if Nat.eqb n 0 then Heap (live h) (next h) (put (ptr h) x Null)
           else Heap ((next h, x) :: live h) (S (next h)) (put (ptr h) x (Ptr (next h))))
    else UB
  | AllocStruct x n zero =>
    if forallb (there h) (homes x) then
      Ret (if Nat.eqb n 0 then Heap (live h) (next h) (put (ptr h) x Null)
           else Heap ((next h, x) :: live h) (S (next h))
                     (put (fun y => if inside x y then (if zero then Null else Junk) else ptr h y) x (Ptr (next h))))
    else UB
  | Free x =>
    if forallb (there h) (homes x) then
      match ptr h x with
      | Junk => UB
      | Null => Ret h
      | Ptr o => if holds h o then Ret (Heap (filter (fun b => negb (Nat.eqb (fst b) o)) (live h)) (next h) (put (ptr h) x Null)) else UB
      end
    else UB
  | Use x => if forallb (there h) (homes x) && there h x then Ret h else UB
  | Check b => check b (Ret h)
  end.
Fixpoint run (p : list instr) (h : heap) : result heap :=
  match p with [] => Ret h | i :: t => let! h := step h i in run t h end.
(* the accesses of a loop that runs n times *)
Definition uses (n : nat) (xs : list slot) : list instr := if Nat.eqb n 0 then [] else map Use xs.
(* a loop over 0 .. n-1 *)
Definition loop (n : nat) (body : nat -> list instr) : list instr := flat_map body (seq 0 n).

(* ---- what the command line, the files and the mesh say ---- *)
Inductive source :=
| SUnset | SConstant | SHomog
| SRaster (cells : nat) (read : bool)   (* ncols * nrows; a map file is read *)
| SUnstr (points : nat) (read : bool)   (* data->ndata; a map file is read *)
| SMulti (n : nat).                     (* the number of files *)
(* Conditions of the mesh in order: identifier of the boundary, edges on this process, is it Dirichlet *)
Definition conditions := list (Z * nat * bool).
Inductive boundary :=
| BUnset
| BHomog (edges : nat)                  (* the edges of the Dirichlet condition on this process (FindDirichletBCID) *)
| BUnstr (edges points : nat)
| BMulti (ids : list Z) (bcs : conditions).
Record input := Input { owned : nat; src : source; bc : boundary }.

(* ---- datasets (rdyforcing_dataset.c) ---- *)
(* RDyForcingOpenData (9-23): one vector; the viewer is opened and destroyed there *)
Definition open_data (x : slot) : list instr := [Alloc x 1; Alloc (Local 0) 1; Use x; Free (Local 0)].
(* RDyForcingOpenHomogeneousDataset, RDyForcingDestroyHomogeneousDataset (71-90), and the loop over datasets (94-102) *)
Definition open_sets (d : side) (n : nat) : list instr := loop n (fun i => open_data (SetVec d i)).
(* RDyForcingDestroyRasterDataset (150-162) *)
Definition destroy_raster : list instr :=
  [Free (Raster DataVec); Free (Raster MeshX); Free (Raster MeshY); Free (Raster DataX); Free (Raster DataY); Free (Raster Map)].
(* RDyForcingDestroyUnstructuredDataset (236-250); elements: mesh_nelements *)
Definition destroy_unstr (d : side) (elements : nat) : list instr :=
  [Free (Unstr d DataVec); Free (Unstr d DataX); Free (Unstr d DataY)] ++
  (if Nat.eqb elements 0 then [] else [Free (Unstr d MeshX); Free (Unstr d MeshY); Free (Unstr d Map)]).
(* RDyForcingOpenNextRasterDataset (166-199), RDyForcingOpenNextUnstructuredDataset (255-276) *)
Definition open_next (x : slot) : list instr := Free x :: open_data x ++ [Use x].

(* ---- maps (rdyforcing_map.c) ---- *)
(* RDyForcingGetCellCentroidsFromMesh (10-20), RDyForcingGetBoundaryEdgeCentroidsFromMesh (28-38) *)
Definition centroids (n : nat) (x y : slot) : list instr := [Alloc x n; Alloc y n] ++ uses n [x; y].
(* RDyForcingReadUnstructuredDatasetCoordinates (42-74) *)
Definition read_coordinates (d : side) (points : nat) : list instr :=
  [Alloc (Local 0) 1; Alloc (Local 1) 1; Free (Local 1); Use (Local 0); Alloc (Unstr d DataX) points; Alloc (Unstr d DataY) points] ++
  uses points [Unstr d DataX; Unstr d DataY] ++ [Free (Local 0)].
(* RDyForcingReadSpatialMap (143-166) *)
Definition read_map (n : nat) (m : slot) : list instr :=
  Alloc m n :: [Alloc (Local 0) 1] ++ uses n [m] ++ [Free (Local 0)].
(* RDyForcingCreateUnstructuredDatasetMap (78-104); in a loop over the elements, one over the points *)
Definition create_unstr_map (d : side) (n points : nat) : list instr :=
  Alloc (Unstr d Map) n :: uses n [Unstr d MeshX; Unstr d MeshY] ++
  (if Nat.eqb n 0 then [] else uses points [Unstr d DataX; Unstr d DataY; Unstr d Map]).
(* RDyForcingCreateRasterDatasetMapping (109-136) *)
Definition create_raster_map (n cells : nat) : list instr :=
  uses n [Raster MeshX; Raster MeshY] ++ (if Nat.eqb n 0 then [] else uses cells [Raster DataX; Raster DataY; Raster Map]).

(* ---- creation (rdyforcing.c) ---- *)
(* RDyForcingParseRainfallDataOptions (434-462), RDyForcingParseBoundaryDataOptions (556-585), the part for several files.
   PetscOptionsGetStringArray makes a copy of each name it returns; the other options allocate nothing. *)
Definition parse_files (d : side) (n : nat) : list instr :=
  loop n (fun i => [Alloc (Name d i) 1]) ++ [AllocStruct (Sets d) n false; Alloc (Ids d) n] ++
  loop n (fun i => [Use (Sets d); Use (Name d i); Use (Ids d)]).
(* DoPostprocessForSourceRasterDataset (245-286); writing the map (the options for debugging) makes one vector and
   destroys it, and is left out *)
Definition post_raster (n cells : nat) (read : bool) : list instr :=
  [Alloc (Raster DataX) cells; Alloc (Raster DataY) cells] ++ uses cells [Raster DataX; Raster DataY] ++
  [Alloc (Raster Map) n] ++ centroids n (Raster MeshX) (Raster MeshY) ++
  (if read then read_map n (Raster Map) else create_raster_map n cells).
(* DoPostprocessForSourceUnstructuredDataset (82-111) *)
Definition post_source_unstr (n points : nat) (read : bool) : list instr :=
  centroids n (Unstr Source MeshX) (Unstr Source MeshY) ++ read_coordinates Source points ++
  (if read then read_map n (Unstr Source Map) else create_unstr_map Source n points).
(* DoPostprocessForBoundaryHomogeneousDataset (54-74) *)
Definition post_boundary_homog (edges : nat) : list instr := [Alloc (Values Boundary) (3 * edges)].
(* DoPostprocessForBoundaryUnstructuredDataset (119-161) *)
Definition post_boundary_unstr (edges points : nat) : list instr :=
  Alloc (Values Boundary) (3 * edges) ::
  (if Nat.eqb edges 0 then [] else
     centroids edges (Unstr Boundary MeshX) (Unstr Boundary MeshY) ++ read_coordinates Boundary points ++
     create_unstr_map Boundary edges points).
(* the Dirichlet conditions, and the first file with the identifier of a boundary (204-214) *)
Definition dirichlet (bcs : conditions) : conditions := filter (fun c => snd c) bcs.
Fixpoint find_id (id : Z) (ids : list Z) : option nat :=
  match ids with [] => None | j :: t => if Z.eqb id j then Some 0 else option_map S (find_id id t) end.
(* the loop over the conditions (198-220) *)
Fixpoint bc_loop (ids : list Z) (bcs : conditions) (count : nat) : list instr :=
  match bcs with
  | [] => []
  | (id, edges, true) :: t =>
    [Use BcIndex; Use BcToData] ++ uses (length ids) [Ids Boundary] ++
    match find_id id ids with
    | Some _ => [Use BcIndex; Use BcToData; Use BcSizes; Alloc (BcArray count) (3 * edges)]
    | None => [Check false]
    end ++ bc_loop ids t (S count)
  | (_, _, false) :: t => bc_loop ids t count
  end.
(* DoPostprocessForBoundaryMultiHomogeneousDataset (169-231) *)
Definition post_multi (ids : list Z) (bcs : conditions) : list instr :=
  let n := length bcs in let k := length (dirichlet bcs) in
  if Nat.eqb n 0 then [] else
  [Alloc (Local 0) n; Alloc (Local 1) n; Alloc (Local 2) n] ++ uses n [Local 0; Local 1; Local 2] ++
  (if Nat.eqb k 0 then [] else
     [Alloc BcIndex k; Alloc BcToData k; Alloc BcSizes k; AllocStruct BcArrays k false] ++ bc_loop ids bcs 0) ++
  [Free (Local 0); Free (Local 1); Free (Local 2)].
(* RDyCreateForcing (602-676) *)
Definition create_source (n : nat) (s : source) : list instr :=
  match s with
  | SUnset => []
  | SConstant => [Alloc (Values Source) n]
  | SHomog => Alloc (Values Source) n :: open_data (Homog Source)
  | SRaster cells read => Alloc (Values Source) n :: open_data (Raster DataVec) ++ [Use (Raster DataVec)] ++ post_raster n cells read
  | SUnstr points read =>
    Alloc (Values Source) n :: open_data (Unstr Source DataVec) ++ [Use (Unstr Source DataVec)] ++ post_source_unstr n points read
  | SMulti k => parse_files Source k ++ open_sets Source k
  end.
Definition create_boundary (b : boundary) : list instr :=
  match b with
  | BUnset => []
  | BHomog edges => open_data (Homog Boundary) ++ post_boundary_homog edges
  | BUnstr edges points => open_data (Unstr Boundary DataVec) ++ [Use (Unstr Boundary DataVec)] ++ post_boundary_unstr edges points
  | BMulti ids bcs => parse_files Boundary (length ids) ++ open_sets Boundary (length ids) ++ post_multi ids bcs
  end.
Definition RDyCreateForcing (i : input) : list instr :=
  AllocStruct Object 1 true :: create_source (owned i) (src i) ++ create_boundary (bc i).

(* ---- use: RDyApplyForcing (682-770), with the functions of rdyforcing_dataset.c (282-400) ---- *)
(* [next_file]: the time has come for the next file of the dataset (298, 353) *)
Definition apply_source (n : nat) (s : source) (next_file : bool) : list instr :=
  match s with
  | SUnset => []
  | SConstant => uses n [Values Source]
  | SHomog => uses n [Homog Source; Values Source]
  | SRaster _ _ =>
    if Nat.eqb n 0 then [] else (if next_file then open_next (Raster DataVec) else []) ++ uses n [Raster DataVec; Raster Map; Values Source]
  | SUnstr _ _ =>
    if Nat.eqb n 0 then [] else (if next_file then open_next (Unstr Source DataVec) else []) ++ uses n [Unstr Source DataVec; Unstr Source Map; Values Source]
  | SMulti k => loop k (fun i => [Use (SetVec Source i); Use (Ids Source)])
  end.
Fixpoint apply_bcs (ids : list Z) (bcs : conditions) (count : nat) : list instr :=
  match bcs with
  | [] => []
  | (id, edges, _) :: t =>
    [Use BcToData; Use BcIndex; Use BcSizes] ++
    (if Nat.eqb edges 0 then [] else
       match find_id id ids with Some j => [Use (SetVec Boundary j); Use (BcArray count)] | None => [] end) ++ apply_bcs ids t (S count)
  end.
Definition apply_boundary (b : boundary) (next_file : bool) : list instr :=
  match b with
  | BUnset => []
  | BHomog edges => uses edges [Homog Boundary; Values Boundary]
  | BUnstr edges _ =>
    if Nat.eqb edges 0 then [] else
    (if next_file then open_next (Unstr Boundary DataVec) else []) ++ uses edges [Unstr Boundary DataVec; Unstr Boundary Map; Values Boundary]
  | BMulti ids bcs => apply_bcs ids (dirichlet bcs) 0
  end.
Definition RDyApplyForcing (i : input) (next_files : bool * bool) : list instr :=
  apply_source (owned i) (src i) (fst next_files) ++ apply_boundary (bc i) (snd next_files).

(* ---- destruction: RDyDestroyForcing (775-850) ---- *)
Definition destroy_sets (d : side) (n : nat) : list instr := loop n (fun i => [Free (SetVec d i)]) ++ [Free (Sets d); Free (Ids d)].
Definition destroy_source (n : nat) (s : source) : list instr :=
  match s with
  | SUnset => []
  | SConstant => [Free (Values Source)]
  | SHomog => [Free (Values Source); Free (Homog Source)]
  | SRaster _ _ => Free (Values Source) :: destroy_raster
  | SUnstr _ _ => Free (Values Source) :: destroy_unstr Source n
  | SMulti k => destroy_sets Source k
  end.
(* boundary.ndata, 0 as PetscNew left it for several files *)
Definition boundary_ndata (b : boundary) : nat := match b with BHomog edges | BUnstr edges _ => 3 * edges | _ => 0 end.
Definition destroy_boundary (b : boundary) : list instr :=
  (if Nat.eqb (boundary_ndata b) 0 then [] else [Free (Values Boundary)]) ++
  match b with
  | BUnset => []
  | BHomog _ => [Free (Homog Boundary)]
  | BUnstr edges _ => destroy_unstr Boundary edges
  | BMulti ids bcs =>
    let k := length (dirichlet bcs) in
    destroy_sets Boundary (length ids) ++
    (if Nat.eqb k 0 then [] else
       [Free BcIndex; Free BcToData; Free BcSizes] ++ loop k (fun i => [Free (BcArray i)]) ++ [Free BcArrays])
  end.
Definition RDyDestroyForcing (i : input) : list instr := destroy_source (owned i) (src i) ++ destroy_boundary (bc i) ++ [Free Object].

(* a forcing from its creation to its destruction, applied any number of times in between *)
Definition lifetime (i : input) (applied : list (bool * bool)) : list instr :=
  RDyCreateForcing i ++ flat_map (RDyApplyForcing i) applied ++ RDyDestroyForcing i.
