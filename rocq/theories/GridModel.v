(** The mesh a run builds from the distributed grid of PETSc (src/rdymesh.c:30-530, 944-1420), and the grid it writes to
    its output (src/xdmf_output.c:159-175, 373-410).

    Integers stored in vectors of reals (numbers of vertices) are kept as integers here. *)
From Coq Require Import ZArith.
From Verif Require Import Base MeshMapsModel DataModel SetupModel CheckpointModel QueriesModel.
Local Open Scope nat_scope.

(** ** What PETSc says about the part of the grid a process holds *)
Record plex := Plex {
  x_cells : nat * nat;           (* DMPlexGetHeightStratum(0): first point, and the one after the last *)
  x_edges : nat * nat;           (* DMPlexGetDepthStratum(1) *)
  x_vertices : nat * nat;        (* DMPlexGetDepthStratum(0) *)
  x_closure : list (list nat);   (* per cell, DMPlexGetTransitiveClosure: its points, the cell itself first.  The array of
                                    the code holds an orientation after each point, which it does not read *)
  x_star : list (list nat);      (* per vertex, DMPlexGetTransitiveClosure with useCone false *)
  x_owned : list bool;           (* per cell, DMPlexGetPointGlobal gives a number >= 0 *)
  x_coords : list (list R);      (* per vertex, as many as the dimension of the coordinates *)
  x_local : option (list nat);   (* migration SF: the points, None for a null pointer *)
  x_natural : list Z;            (*   and their numbers in the grid before it was distributed *)
  x_numbers : list Z;            (* DMPlexGetVertexNumbering: -g-1 for a vertex of another process *)
  x_centroids : list (list R);   (* DMPlexComputeCellGeometryFVM *)
  x_areas : list R;
}.
Definition stratum (r : nat * nat) : nat := snd r - fst r.
(* rdymesh.c:11-12 *)
Definition IsClosureWithinBounds (closure : nat) (r : nat * nat) : bool := (Nat.leb (fst r) closure && Nat.ltb closure (snd r))%bool.

(** ** Sizes (rdymesh.c:1330-1391) *)
(* 1348-1357, 1366-1375: edges, and the other points *)
Definition count_points (edges : nat * nat) (p : list nat) : nat * nat :=
  fold_left (fun n q => if IsClosureWithinBounds q edges then (S (fst n), snd n) else (fst n, S (snd n))) (tl p) (0, 0).
(* 1358-1359, 1377-1378 *)
Definition max_points (edges : nat * nat) (ps : list (list nat)) : nat * nat :=
  fold_left (fun m p => let n := count_points edges p in
                        (if Nat.ltb (fst m) (fst n) then fst n else fst m, if Nat.ltb (snd m) (snd n) then snd n else snd m)) ps (0, 0).
(* 1385-1388: MPI_MAX *)
Definition all_max (ms : list (nat * nat)) : nat * nat := fold_left (fun a b => (Nat.max (fst a) (fst b), Nat.max (snd a) (snd b))) ms (0, 0).
(* edges and vertices of a cell, edges and cells of a vertex *)
Definition max_per_cell (ps : list plex) : nat * nat := all_max (map (fun d => max_points (x_edges d) (x_closure d)) ps).
Definition max_per_vertex (ps : list plex) : nat * nat := all_max (map (fun d => max_points (x_edges d) (x_star d)) ps).

(** ** Tables of neighbours *)
(* edges of the items and other points of the items, with their numbers and (rdymesh.c:78-82, 246-249) the place where the
   entries of an item begin *)
Record tables := Tables { t_edges : list Z; t_others : list Z; t_nedges : list nat; t_nothers : list nat; t_eoffs : list nat; t_ooffs : list nat }.
(* rdymesh.c:148-160, 311-323; [first]: first point of the other kind (vertices for cells, cells for vertices) *)
Definition place (edges : nat * nat) (first i : nat) (t : tables) (q : nat) : option tables :=
  if IsClosureWithinBounds q edges then
    let* offset := nth_error (t_eoffs t) i in
    let* n := nth_error (t_nedges t) i in
    let* ids := upd (t_edges t) (offset + n) (Z.of_nat q - Z.of_nat (fst edges))%Z in
    let* ns := upd (t_nedges t) i (S n) in
    Some (Tables ids (t_others t) ns (t_nothers t) (t_eoffs t) (t_ooffs t))
  else
    let* offset := nth_error (t_ooffs t) i in
    let* n := nth_error (t_nothers t) i in
    let* ids := upd (t_others t) (offset + n) (Z.of_nat q - Z.of_nat first)%Z in
    let* ns := upd (t_nothers t) i (S n) in
    Some (Tables (t_edges t) ids (t_nedges t) ns (t_eoffs t) (t_ooffs t)).
(* 134-135, 308-309 before the loop over the closure *)
Definition place_item (edges : nat * nat) (first : nat) (t : tables) (ip : nat * list nat) : option tables :=
  let* ne := upd (t_nedges t) (fst ip) 0 in
  let* no := upd (t_nothers t) (fst ip) 0 in
  ofold (place edges first (fst ip)) (tl (snd ip)) (Tables (t_edges t) (t_others t) ne no (t_eoffs t) (t_ooffs t)).
(* 30-86, 110-163 for cells; 224-252, 270-327 for vertices.  [w]: the sizes above *)
Definition build_tables (edges : nat * nat) (first : nat) (w : nat * nat) (ps : list (list nat)) : option tables :=
  let n := length ps in
  ofold (place_item edges first) (combine (seq 0 n) ps)
        (Tables (repeat (-1)%Z (n * fst w)) (repeat (-1)%Z (n * snd w)) (repeat (fst w) n) (repeat (snd w) n)
                (map (fun i => i * fst w) (seq 0 (S n))) (map (fun i => i * snd w) (seq 0 (S n)))).
(* how the rest of the code reads a table *)
Definition entries (offs nums : list nat) (ids : list Z) (i : nat) : option (list Z) :=
  let* n := nth_error nums i in let* offset := nth_error offs i in omap (fun k => nth_error ids (offset + k)) (seq 0 n).
Definition edges_of (t : tables) (i : nat) : option (list Z) := entries (t_eoffs t) (t_nedges t) (t_edges t) i.
Definition others_of (t : tables) (i : nat) : option (list Z) := entries (t_ooffs t) (t_nothers t) (t_others t) i.
Definition cell_tables (ps : list plex) (d : plex) : option tables := build_tables (x_edges d) (fst (x_vertices d)) (max_per_cell ps) (x_closure d).
Definition vertex_tables (ps : list plex) (d : plex) : option tables := build_tables (x_edges d) (fst (x_cells d)) (max_per_vertex ps) (x_star d).

(** ** Numbers of the vertices (rdymesh.c:328-386) *)
(* PetscFindInt in a sorted array *)
Fixpoint find_int (key : nat) (l : list nat) : option nat :=
  match l with [] => None | a :: t => if Nat.eqb a key then Some 0 else option_map S (find_int key t) end.
(* 356-368: the search replaces the variable of the loop itself.  [mn]: min_vertex_idx, at first not initialised.
   [fuel]: the number of turns after which the loop is given up here *)
Fixpoint ids_loop (fuel v v_start v_end : nat) (local : option (list nat)) (natural ids : list Z) (mn : Z) : result (list Z * Z) :=
  if Nat.ltb v v_end then
    match fuel with
    | O => UB
    | S fuel =>
      if Nat.ltb v v_start then UB else
      let ivertex := v - v_start in
      let! v := match local with None => Ret v | Some l => match find_int v l with Some k => Ret k | None => Error end end in
      let! index := of_option (nth_error natural v) in
      let! ids := of_option (upd ids ivertex index) in
      ids_loop fuel (S v) v_start v_end local natural ids (if Nat.eqb v v_start then index else Z.min mn index)
    end
  else Ret (ids, mn).
(* 351-352: the size of the SF is that of the chart *)
Definition points_of (d : plex) : nat := stratum (x_cells d) + stratum (x_edges d) + stratum (x_vertices d).
Definition migrated_ids (garbage : Z) (d : plex) : result (list Z * Z) :=
  check (Nat.eqb (points_of d) (length (x_natural d)))
    (ids_loop (stratum (x_vertices d)) (fst (x_vertices d)) (fst (x_vertices d)) (snd (x_vertices d)) (x_local d) (x_natural d)
              (repeat (-1)%Z (stratum (x_vertices d))) garbage).
(* 370: MPI_MIN *)
Definition all_min (ms : list Z) : Z := match ms with [] => 0%Z | m :: t => fold_left Z.min t m end.
(* [garbage]: what min_vertex_idx holds on each process to begin with *)
Definition vertex_ids (refine_level : nat) (garbage : list Z) (ps : list plex) : result (list (list Z)) :=
  if Nat.eqb refine_level 0 then
    if Nat.eqb (length ps) 1 then Ret (map (fun d => map Z.of_nat (seq 0 (stratum (x_vertices d)))) ps)
    else
      let! st := rmap (fun gd => migrated_ids (fst gd) (snd gd)) (combine garbage ps) in
      let min_vertex_idx := all_min (map snd st) in
      Ret (map (fun s => map (fun i => i - min_vertex_idx)%Z (fst s)) st)
  else
    rmap (fun d => rmap (fun v => let! i := of_option (nth_error (x_numbers d) v) in Ret (if Z.ltb i 0 then - i - 1 else i)%Z)
                        (seq 0 (stratum (x_vertices d)))) ps.

(** ** Coordinates of the vertices (rdymesh.c:951-1033) *)
(* 300-305: the points are zero to begin with *)
Definition X (c : list R) (idim : nat) : R := nth idim c 0%R.
(* VecSetValues: negative positions are ignored.  The values of all processes, in some order *)
Definition VecSetValues (v : list R) (iv : Z * R) : option (list R) := if Z.ltb (fst iv) 0 then Some v else upd v (Z.to_nat (fst iv)) (snd iv).
Definition coord_vec (n idim : nat) (ids : list (list Z)) (ps : list plex) : option (list R) :=
  ofold VecSetValues (List.concat (map (fun p => combine (fst p) (map (fun c => X c idim) (x_coords (snd p)))) (combine ids ps))) (repeat 0%R n).
(* the parts of a vector on the processes *)
Fixpoint parts {A} (sizes : list nat) (v : list A) : list (list A) :=
  match sizes with [] => [] | s :: t => firstn s v :: parts t (skipn s v) end.
(* 1010-1014 *)
Definition interleave (x y z : list R) : option (list R) :=
  ofold (fun xyz v =>
    let* a := nth_error x v in let* xyz := upd xyz (v * 3) a in
    let* b := nth_error y v in let* xyz := upd xyz (v * 3 + 1) b in
    let* c := nth_error z v in upd xyz (v * 3 + 2) c) (seq 0 (length x)) (repeat 0%R (length x * 3)).
(* [n]: number of vertices of the grid; [sizes]: how PETSc divides them among the processes *)
Definition CreateCoordinatesVectorInNaturalOrder (n : nat) (sizes : list nat) (ids : list (list Z)) (ps : list plex) : result (list R) :=
  check (forallb (fun i => Z.ltb i (Z.of_nat n)) (List.concat ids))
    (of_option (
      let* x := coord_vec n 0 ids ps in
      let* y := coord_vec n 1 ids ps in
      let* z := coord_vec n 2 ids ps in
      let* blocks := omap (fun s => interleave (fst (fst s)) (snd (fst s)) (snd s)) (combine (combine (parts sizes x) (parts sizes y)) (parts sizes z)) in
      Some (List.concat blocks))).

(** ** Vertices of the cells (rdymesh.c:1053-1172) *)
Definition max_num_vertices : nat := 4.
(* rdymesh.c:14-15 *)
Definition TRI_ID_EXODUS : Z := 4.
Definition QUAD_ID_EXODUS : Z := 5.
(* 1082-1095: the part of the global vector of one process *)
Definition connection_vec (t : tables) (owned : list bool) (ids : list Z) : option (list Z) :=
  let* lo := number_cells owned in
  ofold (fun vec c =>
    let* icell := zget (snd lo) (Z.of_nat c) in
    let* nv := zget (t_nothers t) icell in
    ofold (fun vec v =>
      let* offset := zget (t_ooffs t) icell in
      let* vertex_id := nth_error (t_others t) (offset + v) in
      let* g := zget ids vertex_id in
      upd vec (c * max_num_vertices + v) g) (seq 0 nv) vec) (seq 0 (num_owned owned)) (repeat (-1)%Z (num_owned owned * max_num_vertices)).
(* the blocks of [bs] entries of a vector *)
Definition rows_of {A} (bs : nat) (v : list A) : option (list (list A)) :=
  omap (fun c => omap (fun j => nth_error v (c * bs + j)) (seq 0 bs)) (seq 0 (Nat.div (length v) bs)).
(* 1035-1044: [num] as in CheckpointModel; one row per cell *)
Definition CopyGlobalVecToNaturalVec {A} (useNatural : bool) (num : numbering) (x : list (list A)) : option (list (list A)) :=
  if useNatural then
    if Nat.eqb (length num) (length x) then ofold (fun n p => upd n (fst p) (snd p)) (combine num x) (repeat [] (length x)) else None
  else Some x.
Definition valid (g : Z) : bool := Z.ltb (-1) g.
(* 1111-1119 *)
Definition conns_size (rows : list (list Z)) : nat := length (filter valid (List.concat rows)) + length rows.
(* 1140-1164: one cell *)
Definition conns_cell (st : list Z * nat) (row : list Z) : result (list Z * nat) :=
  let! code := match length (filter valid row) with 3 => Ret TRI_ID_EXODUS | 4 => Ret QUAD_ID_EXODUS | _ => Error end in
  let! a := of_option (upd (fst st) (snd st) code) in
  of_option (ofold (fill_step valid (fun g => g)) row (a, S (snd st))).
Fixpoint rfold {A S} (f : S -> A -> result S) (l : list A) (s : S) : result S :=
  match l with [] => Ret s | a :: t => let! s := f s a in rfold f t s end.
Definition conns_block (rows : list (list Z)) : result (list Z) :=
  let! st := rfold conns_cell rows (repeat 0%Z (conns_size rows), 0) in Ret (fst st).
(* [sizes]: the number of cells in the part of the natural vector of each process *)
Definition CreateCellConnectionVector (useNatural : bool) (num : numbering) (sizes : list nat) (ids : list (list Z)) (ps : list plex) : result (list Z) :=
  let! vecs := of_option (omap (fun p => let* t := cell_tables ps (snd p) in connection_vec t (x_owned (snd p)) (fst p)) (combine ids ps)) in
  let! rows := of_option (omap (rows_of max_num_vertices) vecs) in
  let! natural := of_option (CopyGlobalVecToNaturalVec useNatural num (List.concat rows)) in
  let! blocks := rmap conns_block (parts sizes natural) in
  Ret (List.concat blocks).

(** ** Centroids and areas (rdymesh.c:1236-1325) *)
Definition attribute_vec {A} (useNatural : bool) (num : numbering) (zero : A) (attr : plex -> nat -> option A) (ps : list plex) : option (list A) :=
  let* vecs := omap (fun d => option_map fst (owned_loop (is_owned (x_owned d)) (attr d) (length (x_owned d)) (repeat zero (num_owned (x_owned d))))) ps in
  let* rows := CopyGlobalVecToNaturalVec useNatural num (map (fun a => [a]) (List.concat vecs)) in
  Some (List.concat rows).
Definition centroid_attr (idim : nat) (d : plex) (i : nat) : option R := let* c := nth_error (x_centroids d) i in nth_error c idim.
Definition area_attr (d : plex) (i : nat) : option R := nth_error (x_areas d) i.

(** ** The whole (rdymesh.c:1396-1436), and the grid file (xdmf_output.c:159-175) *)
Record grid := Grid { g_Vertices : list R; g_Cells : list Z; g_XC : list R; g_YC : list R; g_ZC : list R; g_Area : list R }.
(* rdydm.c:176-184 and 66-69: natural numbers are used on several processes unless the grid was refined.
   [num]: as in CheckpointModel; [nv]: number of vertices of the grid; [vsizes], [csizes]: division of vertices and cells. *)
Definition use_natural (refine_level : nat) (ps : list plex) : bool := (Nat.eqb refine_level 0 && negb (Nat.eqb (length ps) 1))%bool.
Definition write_grid (refine_level : nat) (garbage : list Z) (num : numbering) (nv : nat) (vsizes csizes : list nat) (ps : list plex) : result grid :=
  let! ids := vertex_ids refine_level garbage ps in
  let u := use_natural refine_level ps in
  let! v := CreateCoordinatesVectorInNaturalOrder nv vsizes ids ps in
  let! c := CreateCellConnectionVector u num csizes ids ps in
  let! xc := of_option (attribute_vec u num 0%R (centroid_attr 0) ps) in
  let! yc := of_option (attribute_vec u num 0%R (centroid_attr 1) ps) in
  let! zc := of_option (attribute_vec u num 0%R (centroid_attr 2) ps) in
  let! area := of_option (attribute_vec u num 0%R area_attr ps) in
  Ret (Grid v c xc yc zc area).
(* xdmf_output.c:373-410 with rdymesh.c:1417-1425: the numbers of cells, of entries of "Cells" and of vertices announced *)
Definition announced (nv : nat) (ps : list plex) (g : grid) : nat * nat * nat :=
  (list_sum (map (fun d => num_owned (x_owned d)) ps), length (g_Cells g), nv).
