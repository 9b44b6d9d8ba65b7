(** Adaptive refinement (src/rdyamr.c): transfer matrices, tables of children, refined regions, repeated refinement.
    One process is modelled: the matrices are sequential and act on the local cells of the process (owned and ghost),
    numbered from 0.  What DMAdaptLabel produced is an input: for every local coarse cell, for every type of point it
    produced, the dimension and the points of that type, in order (DMPlexTransformCellTransform and
    DMPlexTransformGetTargetPoint). *)
From Verif Require Import Base SetupModel ConfigModel.
Local Open Scope nat_scope.

(* sequential matrices; MAT of zeros when created *)
Record mat := Mat { m_rows : nat; m_cols : nat; m_entry : nat -> nat -> R }.
Definition MatCreate (rows cols : nat) : mat := Mat rows cols (fun _ _ => 0%R).
(* MatSetValue with INSERT_VALUES; None: outside of the matrix, an error in PETSc *)
Definition MatSetValue (m : mat) (i j : nat) (v : R) : option mat :=
  if (i <? m_rows m) && (j <? m_cols m) then Some (Mat (m_rows m) (m_cols m) (fun i' j' => if (i' =? i) && (j' =? j) then v else m_entry m i' j')) else None.
Definition MatMult (m : mat) (x : list R) : option (list R) :=
  if length x =? m_cols m then Some (map (fun i => rsum (fun j => (m_entry m i j * nth j x 0)%R) (seq 0 (m_cols m))) (seq 0 (m_rows m))) else None.
Definition MatMatMult (a b : mat) : option mat :=
  if m_cols a =? m_rows b then Some (Mat (m_rows a) (m_cols b) (fun i j => rsum (fun k => (m_entry a i k * m_entry b k j)%R) (seq 0 (m_cols a)))) else None.

(* one entry per coarse cell: its dimension and the groups (dimension, points) *)
Definition tree := list (nat * list (nat * list nat)).
Definition pieces (cell : nat * list (nat * list nat)) : list (nat * nat) :=
  flat_map (fun g => if fst g =? fst cell then map (fun p => (p, length (snd g))) (snd g) else []) (snd cell).
(* the (c, pNew, rsize[n]) visited by the loops of 114-135, in order; groups of other dimensions are skipped (124) *)
Definition visits (t : tree) : list (nat * nat * nat) :=
  flat_map (fun ci => map (fun pr => (fst ci, fst pr, snd pr)) (pieces (snd ci))) (combine (seq 0 (length t)) t).
(* 115-158: the two matrices with [bs] components (1 for the 1-dof ones); Istart and Jstart are 0 *)
Definition insert_visit (bs : nat) (ms : mat * mat) (v : nat * nat * nat) : option (mat * mat) :=
  let '(c, p, rsize) := v in
  ofold (fun ms i =>
    let* c2f := MatSetValue (fst ms) (bs * p + i) (bs * c + i) 1 in
    let* w := rdiv 1 (INR rsize) in
    let* f2c := MatSetValue (snd ms) (bs * c + i) (bs * p + i) w in
    Some (c2f, f2c)) (seq 0 bs) ms.
(* 95-160 with the sizes of 203-211; [num_fine]: the number of cells of the adapted mesh *)
Definition ConstructRefineTree (bs num_fine : nat) (t : tree) : option (mat * mat) :=
  ofold (insert_visit bs) (visits t) (MatCreate (bs * num_fine) (bs * length t), MatCreate (bs * length t) (bs * num_fine)).

(* (PetscInt)x used as an index *)
Definition index_of (x : R) : option nat := match to_int x with Ret z => if Z.leb 0 z then Some (Z.to_nat z) else None | _ => None end.
(* 243-259: the id in the first component, -1 in the others; the same with the flag *)
Definition marked (ndof : nat) (firsts : list R) : list R := flat_map (fun x => x :: repeat (-1)%R (ndof - 1)) firsts.
Record tables := Tables { t_owned : list R; t_parent : list nat; t_children : list nat; t_num : list nat; t_offset : list nat }.
Definition bump (l : list nat) (i : nat) : option (list nat) := let* x := nth_error l i in upd l i (S x).
(* 225-321.  The arrays have as many entries as the vectors (531-544): ndof per cell.  is_owned: true for owned cells. *)
Definition DetermineCoarseToFineCellMapping (ndof : nat) (c2f : mat) (is_owned : list bool) : option tables :=
  let num_coarse := length is_owned in
  let* x_fine := MatMult c2f (marked ndof (map INR (seq 0 num_coarse))) in
  let* x_fine_owned := MatMult c2f (marked ndof (map (fun b : bool => if b then 1%R else 0%R) is_owned)) in
  let num_fine := m_rows c2f / ndof in
  let* s := ofold (fun s c =>
      let '(owned, parent, num) := s in
      let* x := nth_error x_fine (c * ndof) in
      let* id := index_of x in
      let* parent := upd parent c id in
      let* o := nth_error x_fine_owned (c * ndof) in
      let* owned := upd owned c o in
      let* num := bump num id in
      Some (owned, parent, num)) (seq 0 num_fine) (repeat 0%R (m_rows c2f), repeat 0 (m_rows c2f), repeat 0 (m_cols c2f)) in
  let '(owned, parent, num) := s in
  let* offset := upd (repeat 0 (m_cols c2f)) 0 0 in
  let* s := ofold (fun s c =>
      let '(offset, num) := s in
      let* o := nth_error offset (c - 1) in
      let* n := nth_error num (c - 1) in
      let* offset := upd offset c (o + n) in
      let* num := upd num (c - 1) 0 in
      Some (offset, num)) (seq 1 (num_coarse - 1)) (offset, num) in
  let '(offset, num) := s in
  let* num := match num_coarse with 0 => None | S k => upd num k 0 end in
  let* s := ofold (fun s c =>
      let '(children, num) := s in
      let* x := nth_error x_fine (c * ndof) in
      let* id := index_of x in
      let* o := nth_error offset id in
      let* n := nth_error num id in
      let* children := upd children (o + n) c in
      let* num := bump num id in
      Some (children, num)) (seq 0 num_fine) (repeat 0 (m_rows c2f), num) in
  let '(children, num) := s in
  Some (Tables owned parent children num offset).

(* the parts of RDyRegion (id, cell_local_ids, owned_cell_global_ids); an id of -1 is None *)
Record region := Region { rg_id : Z; rg_local : list nat; rg_owned : list (option nat) }.
(* 347-356; the loop runs over all entries of the vector, the entries beyond the cells are 0 *)
Definition fine_LocaltoGlobalIDs (owned : list R) : list (option nat) :=
  fst (fold_left (fun s (o : R) => let '(ids, count) := s in if Req_EM_T o 0 then (ids ++ [None], count) else (ids ++ [Some count], S count)) owned ([], 0)).
(* the fine cells of one coarse cell, 390-394 and 424-427 *)
Definition children_of (tb : tables) (c : nat) : option (list nat) :=
  let* o := nth_error (t_offset tb) c in
  let* n := nth_error (t_num tb) c in
  omap (fun j => nth_error (t_children tb) (o + j)) (seq 0 n).
(* 333-439.  The counts of 372-377 and 407-411 are the lengths of the lists filled, so the arrays hold exactly what is
   written.  owned_to_local: of the coarse mesh.  An owned_cell_global_ids entry of -1 would be used as an index. *)
Definition refine_region (tb : tables) (ids : list (option nat)) (owned_to_local : list nat) (r : region) : option region :=
  if 0 <? length (rg_owned r) then
    let* owned := omap (fun g => let* g := g in let* c := nth_error owned_to_local g in let* l := children_of tb c in omap (nth_error ids) l) (rg_owned r) in
    let* local := omap (children_of tb) (rg_local r) in
    Some (Region (rg_id r) (concat local) (concat owned))
  else Some (Region (rg_id r) [] []).
Definition CreateRefinedRegionsFromCoarseRDy (tb : tables) (owned_to_local : list nat) (regions : list region) : option (list region) :=
  let ids := fine_LocaltoGlobalIDs (t_owned tb) in
  omap (refine_region tb ids owned_to_local) regions.

(* What RDyPerformAMR keeps (482-716): the level, the transfer between the base mesh and the current one (570-590), the
   local solution (the owned part of which becomes the global one, 622-623). [bs]: block size of the solution. *)
Record amr := Amr { a_level : nat; a_base_to_current : mat; a_current_to_base : mat; a_base_to_current_1 : mat; a_current_to_base_1 : mat; a_solution : list R; a_regions : list region }.
Definition RDyPerformAMR (bs num_fine : nat) (t : tree) (is_owned : list bool) (owned_to_local : list nat) (a : amr) : option amr :=
  let* m := ConstructRefineTree bs num_fine t in
  let* m1 := ConstructRefineTree 1 num_fine t in
  let* tb := DetermineCoarseToFineCellMapping bs (fst m) is_owned in
  let* regions := CreateRefinedRegionsFromCoarseRDy tb owned_to_local (a_regions a) in
  let* ms := match a_level a with
    | 0 => Some (fst m, snd m, fst m1, snd m1)
    | S _ =>
      let* x := MatMatMult (fst m) (a_base_to_current a) in
      let* y := MatMatMult (a_current_to_base a) (snd m) in
      let* x1 := MatMatMult (fst m1) (a_base_to_current_1 a) in
      let* y1 := MatMatMult (a_current_to_base_1 a) (snd m1) in
      Some (x, y, x1, y1)
    end in
  let '(x, y, x1, y1) := ms in
  let* u := MatMult (fst m) (a_solution a) in
  Some (Amr (S (a_level a)) x y x1 y1 u regions).
(* rdydata.c:654-676, on one process: values on the base mesh brought to the current one *)
Definition RDyMapAMRScalarGlobalVecLevel0ToCurrentLevel (a : amr) (base : list R) : option (list R) := MatMult (a_base_to_current_1 a) base.
