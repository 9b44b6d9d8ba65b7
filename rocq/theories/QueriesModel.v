(** Queries about cells and boundaries (src/rdydata.c, src/rdymesh.c), and the module through which Fortran programs
    reach the library (src/f90-mod/rdycore.F90).

    The result of a query is the array (or variable) of the caller afterwards: filled in ([Ok]), or as it was if the call
    returns an error ([Err]).  [Undef]: an access out of bounds or through a null pointer. *)
From Coq Require Import ZArith String Ascii.
From Verif Require Import Base MeshMapsModel DataModel SetupModel ConfigModel ForcingModel CheckpointModel.
Local Notation length := List.length.
Local Notation concat := List.concat.
Local Open Scope nat_scope.

(** ** Numbers of the cells in the grid file (rdymesh.c:864-944) *)
(* 894-902: the part of the natural vector of process [rank], of [size] entries beginning with entry [start] *)
Definition natural_entries (num_fields start size rank : nat) : list R :=
  map (fun i => if Nat.eqb (Nat.modulo i num_fields) 0 then (1 * INR (start + i) / INR num_fields)%R else (- (INR rank + 1))%R) (seq 0 size).
(* the vector of all processes; [rows]: the number of cells each of them owns (DMPlexCreateNaturalVector lays the vector
   out like a global one) *)
Fixpoint natural_vec (num_fields start rank : nat) (rows : list nat) : list R :=
  match rows with
  | [] => []
  | r :: t => natural_entries num_fields start (num_fields * r) rank ++ natural_vec num_fields (start + num_fields * r) (S rank) t
  end.
(* blocks of [bs] entries taken from [v]: DMPlexNaturalToGlobal with the numbering of the cells, DMGlobalToLocal with
   the global numbers of the cells a process holds *)
Definition gather_blocks (bs : nat) (from : list nat) (v : list R) : option (list R) :=
  option_map (@concat R) (omap (fun c => omap (fun j => nth_error v (bs * c + j)) (seq 0 bs)) from).
(* 864-944 on a process holding the cells with global numbers [held] (ghosts included).  natural_ids is filled with -1
   by rdymesh.c:39; the conversion to an integer is that of a 32-bit PetscInt. *)
Definition SaveNaturalCellIDs (useNatural : bool) (commsize num_fields : nat) (num : numbering) (rows held : list nat) : option (list Z) :=
  let natural_ids := repeat (-1)%Z (length held) in
  if useNatural then
    let natural := natural_vec num_fields 0 0 rows in
    let* global := gather_blocks num_fields num natural in
    let* entries := gather_blocks num_fields held global in
    if Nat.eqb num_fields 0 then None
    else ofold (fun ids i => let* x := nth_error entries (i * num_fields) in let* z := int_of x in upd ids i z)
               (seq 0 (Nat.div (length entries) num_fields)) natural_ids
  else if Nat.eqb commsize 1 then ofold (fun ids i => upd ids i (Z.of_nat i)) (seq 0 (length held)) natural_ids
  else Some natural_ids.

(** ** What a process knows of its part of the mesh *)
Record geo := Geo {
  g_owned : list bool;                (* cells->is_owned *)
  g_natural : list Z;                 (* cells->natural_ids *)
  g_centroids : list (list R);        (* cells->centroids[i].X *)
  g_areas : list R;
  g_edge_centroids : list (list R);   (* edges->centroids[e].X *)
  g_edge_cells : list Z;              (* edges->cell_ids: two entries per edge *)
  g_boundaries : list boundary;       (* rdy->boundaries *)
  g_conds : list bcond;               (* rdy->boundary_conditions *)
}.

(** ** Owned cells (rdymesh.c:1178-1234, rdydata.c:368-406) *)
(* The loop of all these functions; [a i]: the entry read for cell i.  The size of the array is compared by PetscAssert,
   which does nothing in optimised builds ([debug] false). *)
Definition owned_loop {A} (p : nat -> bool) (a : nat -> option A) (num_cells : nat) (values : list A) : option (list A * nat) :=
  ofold (fun st i => if p i then let* x := a i in let* vs := upd (fst st) (snd st) x in Some (vs, S (snd st)) else Some st) (seq 0 num_cells) (values, 0).
Definition owned_query {A} (debug : bool) (g : geo) (a : nat -> option A) (values : list A) : outcome (list A) :=
  if (debug && negb (Nat.eqb (num_owned (g_owned g)) (length values)))%bool then Err values
  else defined (option_map fst (owned_loop (is_owned (g_owned g)) a (length (g_owned g)) values)).
(* rdymesh.c:1185-1201, and 1203-1222 and rdydata.c:368-387 for idim = 0, 1, 2 *)
Definition RDyMeshGetIDimCentroidOfOwnedCell (debug : bool) (g : geo) (idim : nat) (x : list R) : outcome (list R) :=
  owned_query debug g (fun i => let* c := nth_error (g_centroids g) i in nth_error c idim) x.
Definition RDyGetOwnedCellXCentroids debug g x := RDyMeshGetIDimCentroidOfOwnedCell debug g 0 x.
Definition RDyGetOwnedCellYCentroids debug g x := RDyMeshGetIDimCentroidOfOwnedCell debug g 1 x.
Definition RDyGetOwnedCellZCentroids debug g x := RDyMeshGetIDimCentroidOfOwnedCell debug g 2 x.
(* rdymesh.c:1224-1239 *)
Definition RDyGetOwnedCellAreas (debug : bool) (g : geo) (values : list R) : outcome (list R) := owned_query debug g (nth_error (g_areas g)) values.
(* rdydata.c:392-406 *)
Definition RDyGetOwnedCellNaturalIDs (debug : bool) (g : geo) (values : list Z) : outcome (list Z) := owned_query debug g (nth_error (g_natural g)) values.

(** ** Boundaries (rdydata.c:18-75, 408-504) *)
(* 24-33, 35-46: the checks of index and number of edges.  [ne] None: the function has no such argument. *)
Definition boundary_query {A} (g : geo) (b : Z) (ne : option Z) (old : A) (k : boundary -> outcome A) : outcome A :=
  if (Z.ltb b (Z.of_nat (length (g_boundaries g))) && Z.leb 0 b)%bool then
    match zget (g_boundaries g) b with
    | None => Undef
    | Some bd =>
      match ne with
      | Some n => if Z.eqb (Z.of_nat (length (bd_edges bd))) n then k bd else Err old
      | None => k bd
      end
    end
  else Err old.
(* 18-22 *)
Definition RDyGetNumBoundaryConditions (g : geo) : Z := Z.of_nat (length (g_boundaries g)).
(* 59-65 *)
Definition RDyGetNumBoundaryEdges (g : geo) (b : Z) (num_edges : Z) : outcome Z := boundary_query g b None num_edges (fun bd => Ok (Z.of_nat (length (bd_edges bd)))).
(* include/rdycore.h:133-139 *)
Definition type_number (t : ctype) : Z :=
  match t with CONDITION_DIRICHLET => 0 | CONDITION_NEUMANN => 1 | CONDITION_REFLECTING => 2 | CONDITION_CRITICAL_OUTFLOW => 3 | CONDITION_RUNOFF => 4 end.
(* 68-75 *)
Definition RDyGetBoundaryConditionFlowType (g : geo) (b : Z) (bc_type : Z) : outcome Z :=
  boundary_query g b None bc_type (fun _ => defined (let* c := zget (g_conds g) b in let* t := bc_flow c in Some (type_number t))).
(* 436-441 *)
Definition RDyGetBoundaryID (g : geo) (b : Z) (id : Z) : outcome Z := boundary_query g b None id (fun bd => Ok (bd_id bd)).
(* the loops over the edges of a boundary, 418-432 and 498-503 *)
Definition edges_loop {A} (bd : boundary) (a : nat -> option A) (x : list A) : option (list A) :=
  ofold (fun x e => let* iedge := nth_error (bd_edges bd) e in let* v := a iedge in upd x e v) (seq 0 (length (bd_edges bd))) x.
Definition left_cell (g : geo) (iedge : nat) : option Z := nth_error (g_edge_cells g) (2 * iedge).
(* 408-434; [x] has [num_edges] entries *)
Definition RDyGetIDimCentroidOfBoundaryEdgeOrCell (g : geo) (b num_edges : Z) (data_for_edge : bool) (idim : nat) (x : list R) : outcome (list R) :=
  boundary_query g b (Some num_edges) x (fun bd =>
    defined (edges_loop bd (fun iedge =>
      if data_for_edge then let* c := nth_error (g_edge_centroids g) iedge in nth_error c idim
      else let* icell := left_cell g iedge in let* c := zget (g_centroids g) icell in nth_error c idim) x)).
(* 443-487 *)
Definition RDyGetBoundaryEdgeXCentroids g b size x := RDyGetIDimCentroidOfBoundaryEdgeOrCell g b size true 0 x.
Definition RDyGetBoundaryEdgeYCentroids g b size x := RDyGetIDimCentroidOfBoundaryEdgeOrCell g b size true 1 x.
Definition RDyGetBoundaryEdgeZCentroids g b size x := RDyGetIDimCentroidOfBoundaryEdgeOrCell g b size true 2 x.
Definition RDyGetBoundaryCellXCentroids g b size x := RDyGetIDimCentroidOfBoundaryEdgeOrCell g b size false 0 x.
Definition RDyGetBoundaryCellYCentroids g b size x := RDyGetIDimCentroidOfBoundaryEdgeOrCell g b size false 1 x.
Definition RDyGetBoundaryCellZCentroids g b size x := RDyGetIDimCentroidOfBoundaryEdgeOrCell g b size false 2 x.
(* 489-504 *)
Definition RDyGetBoundaryCellNaturalIDs (g : geo) (b size : Z) (values : list Z) : outcome (list Z) :=
  boundary_query g b (Some size) values (fun bd =>
    defined (edges_loop bd (fun iedge => let* icell := left_cell g iedge in zget (g_natural g) icell) values)).

(** ** The Fortran module (rdycore.F90) *)
(* The queries with a boundary: rdycore.F90:625-631, 643-649, 770-831 *)
Definition FRDyGetNumBoundaryEdges (g : geo) (boundary_id num_edges : Z) := RDyGetNumBoundaryEdges g (boundary_id - 1) num_edges.
Definition FRDyGetBoundaryConditionFlowType (g : geo) (boundary_id t : Z) := RDyGetBoundaryConditionFlowType g (boundary_id - 1) t.
Definition FRDyGetBoundaryEdgeXCentroids g (b size : Z) x := RDyGetBoundaryEdgeXCentroids g (b - 1) size x.
Definition FRDyGetBoundaryEdgeYCentroids g (b size : Z) x := RDyGetBoundaryEdgeYCentroids g (b - 1) size x.
Definition FRDyGetBoundaryEdgeZCentroids g (b size : Z) x := RDyGetBoundaryEdgeZCentroids g (b - 1) size x.
Definition FRDyGetBoundaryCellXCentroids g (b size : Z) x := RDyGetBoundaryCellXCentroids g (b - 1) size x.
Definition FRDyGetBoundaryCellYCentroids g (b size : Z) x := RDyGetBoundaryCellYCentroids g (b - 1) size x.
Definition FRDyGetBoundaryCellZCentroids g (b size : Z) x := RDyGetBoundaryCellZCentroids g (b - 1) size x.
Definition FRDyGetBoundaryCellNaturalIDs g (b size : Z) ids := RDyGetBoundaryCellNaturalIDs g (b - 1) size ids.

(** *** Names *)
(* character(len=1024) *)
Definition F_LEN : nat := 1024.
Definition NUL : ascii := zero.
Definition blank : ascii := " "%char.
(* the intrinsic function len_trim *)
Fixpoint len_trim (s : list ascii) : nat :=
  match s with [] => 0 | c :: t => match len_trim t with O => if Ascii.eqb c blank then 0 else 1 | S n => S (S n) end end.
(* RDyCreate 507-512, and alike RDySetLogFile 524-529, the functions reading and writing files (889-985): the buffer
   handed to C; None: a character that was never set.  [len] is the length of both strings. *)
Definition c_name (len : nat) (filename : list ascii) : option (list (option ascii)) :=
  let n := Nat.min (len - 1) (len_trim filename) in
  let* buffer := ofold (fun b i => let* c := nth_error filename i in upd b i (Some c)) (seq 0 n) (repeat None len) in
  upd buffer n (Some NUL).
(* how C reads it: up to the first zero *)
Fixpoint c_string (b : list (option ascii)) : option (list ascii) :=
  match b with
  | Some c :: t => if Ascii.eqb c NUL then Some [] else let* s := c_string t in Some (c :: s)
  | _ => None
  end.
(* what the library sees of a name given by a Fortran program *)
Definition name_seen (filename : list ascii) : option (list ascii) := let* b := c_name F_LEN filename in c_string b.

(* strncpy: at most [n] characters, the rest filled with zeros; [s] is the string without its final zero *)
Definition strncpy (n : nat) (s : list ascii) : list ascii := firstn n s ++ repeat NUL (n - length s).
(* RDyGetBuildConfiguration 474-481 with rdycore.c:56-62: the variable of the program afterwards *)
Definition FRDyGetBuildConfiguration (build_str : list ascii) : list ascii := strncpy F_LEN build_str.
(* the intrinsic function trim *)
Definition trim (s : list ascii) : list ascii := firstn (len_trim s) s.
(* RDyGetVersion 467-472: the arguments are intent(out) and the body is empty; None: no value *)
Definition FRDyGetVersion (major minor patch : option Z) (release : option bool) : option Z * option Z * option Z * option bool := (None, None, None, None).
(* rdycore.c:11-18, with the version and hash fixed when the library is built *)
Definition RDyGetVersion (major minor patch : Z) (git_hash : string) : option Z * option Z * option Z * option bool :=
  (Some major, Some minor, Some patch, Some (String.eqb "unknown" git_hash)).
