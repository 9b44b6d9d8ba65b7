(** Numbering of cells, classification of edges, and construction of regions and boundaries. *)
From Verif Require Import Base.
From Coq Require Import String.

(** ** Arrays filled with a running counter: [if (p x) array[count++] = f(x);] *)
Definition fill_step {A B} (p : A -> bool) (f : A -> B) (st : list B * nat) (x : A) : option (list B * nat) :=
  if p x then let* a := upd (fst st) (snd st) (f x) in Some (a, S (snd st)) else Some st.
Definition fill {A B} (p : A -> bool) (f : A -> B) (xs : list A) (array : list B) : option (list B * nat) :=
  ofold (fill_step p f) xs (array, 0%nat).

(** ** Cells *)
(* cells->is_owned as filled at rdymesh.c:139-145; cell [i] of a process holding [length owned] cells *)
Definition is_owned (owned : list bool) (i : nat) : bool := nth i owned false.
Definition num_owned (owned : list bool) : nat := List.length (filter (fun b => b) owned).

(* rdymesh.c:159-170: first pass, owned cells; local_to_owned was filled with -1 (rdymesh.c:43),
   owned_to_local likewise.  A write outside an array is [None]. *)
Definition first_pass (owned : list bool) (st : list Z * list Z * nat) (icell : nat) : option (list Z * list Z * nat) :=
  let '(l2o, o2l, count) := st in
  if is_owned owned icell then
    let* l2o := upd l2o icell (Z.of_nat count) in
    let* o2l := upd o2l count (Z.of_nat icell) in
    Some (l2o, o2l, S count)
  else Some st.
(* rdymesh.c:172-177: second pass, ghost cells *)
Definition second_pass (owned : list bool) (st : list Z * nat) (icell : nat) : option (list Z * nat) :=
  let '(l2o, count) := st in
  if is_owned owned icell then Some st
  else let* l2o := upd l2o icell (Z.of_nat count) in Some (l2o, S count).
(* rdymesh.c:155-177: (local_to_owned, owned_to_local) *)
Definition number_cells (owned : list bool) : option (list Z * list Z) :=
  let n := List.length owned in
  let* st := ofold (first_pass owned) (seq 0 n) (repeat (-1)%Z n, repeat (-1)%Z (num_owned owned), 0%nat) in
  let '(l2o, o2l, count) := st in
  let* st' := ofold (second_pass owned) (seq 0 n) (l2o, count) in
  Some (fst st', o2l).

(* rdymesh.c:1185-1234 (RDyMeshGetIDimCentroidOfOwnedCell, RDyMeshGetOwnedCellAreas): a per-cell
   attribute copied into the caller's array *)
Definition owned_values {A} (owned : list bool) (attr : nat -> A) (values : list A) : option (list A) :=
  if Nat.eqb (List.length values) (num_owned owned) then
    option_map fst (fill (is_owned owned) attr (seq 0 (List.length owned)) values)
  else None.

(** ** Regions (rdysetup.c:201-279) *)
Record region := Region { rg_index : nat; rg_id : Z; rg_name : option string; rg_cells : list nat; rg_owned : list Z }.
(* rdysetup.c:233-239, 443-449: the first configured entry with this id gives the name *)
Fixpoint config_name (cfg : list (Z * string)) (id : Z) : option string :=
  match cfg with
  | [] => None
  | (i, s) :: t => if Z.eqb i id then Some s else config_name t id
  end.
(* rdysetup.c:255-269: owned_cell_global_ids[k++] = local_to_owned[cell] for the owned cells *)
Definition region_owned (owned : list bool) (l2o : list Z) (cells : list nat) : option (list Z) :=
  option_map fst (fill (is_owned owned) (fun c => nth c l2o (-1)%Z) cells
                       (repeat 0%Z (List.length (filter (is_owned owned) cells)))).
(* [sets]: the strata of the "Cell Sets" label in label order, points already shifted by c_start
   (rdysetup.c:251).  All strata are non-NULL index sets. *)
Fixpoint init_regions_from (owned : list bool) (l2o : list Z) (cfg : list (Z * string)) (r : nat) (sets : list (Z * list nat))
  : option (list region) :=
  match sets with
  | [] => Some []
  | (id, cells) :: t =>
    let* ow := region_owned owned l2o cells in
    let* rs := init_regions_from owned l2o cfg (S r) t in
    Some (Region r id (config_name cfg id) cells ow :: rs)
  end.
Definition MAX_NUM_REGIONS : nat := 32.
Definition init_regions (owned : list bool) (l2o : list Z) (cfg : list (Z * string)) (label : option (list (Z * list nat))) : option (list region) :=
  let* sets := label in
  if Nat.leb (List.length sets) MAX_NUM_REGIONS then init_regions_from owned l2o cfg 0 sets else None.

(** ** Edges *)
(* rdymesh.c:505-516: the cells in the support of an edge go to the first free of its two slots; a
   support that is not one or two cells fails the assertion at 507 *)
Definition edge_cells (support : list nat) : option (Z * Z) :=
  match support with
  | [c] => Some (Z.of_nat c, -1)%Z
  | [c; d] => Some (Z.of_nat c, Z.of_nat d)
  | _ => None
  end.
(* rdymesh.c:593-605: counts of the first loop; l >= 0 is checked *)
Definition count_edge (st : nat * nat) (lr : Z * Z) : option (nat * nat) :=
  if Z.leb 0 (fst lr) then
    if Z.leb 0 (snd lr) then Some (S (fst st), snd st) else Some (fst st, S (snd st))
  else None.
(* rdymesh.c:700-710: second loop *)
Definition is_internal (cs : list (Z * Z)) (e : nat) : bool :=
  let lr := nth e cs (-1, -1)%Z in (Z.leb 0 (snd lr) && Z.leb 0 (fst lr))%bool.
Definition edge_lists (supports : list (list nat)) : option (list nat * list nat) :=
  let* cs := omap edge_cells supports in
  let* n := ofold count_edge cs (0%nat, 0%nat) in
  let ids := seq 0 (List.length cs) in
  let* i := fill (is_internal cs) (fun e => e) ids (repeat 0%nat (fst n)) in
  let* b := fill (fun e => negb (is_internal cs e)) (fun e => e) ids (repeat 0%nat (snd n)) in
  Some (fst i, fst b).

(** ** Boundaries (rdysetup.c:283-503) *)
(* Index sets are duplicate-free lists of edges; edge points are already shifted by e_start. *)
Definition mem (e : nat) (l : list nat) : bool := existsb (Nat.eqb e) l.
Definition IsDifference (a b : list nat) : list nat := filter (fun e => negb (mem e b)) a.
Definition IsIntersect (a b : list nat) : list nat := filter (fun e => mem e b) a.
(* rdysetup.c:316-333: edges touching no owned cell *)
Definition edge_valid (owned : list bool) (cs : list (Z * Z)) (e : nat) : bool :=
  let lr := nth e cs (-1, -1)%Z in
  if Z.leb 0 (snd lr) then (is_owned owned (Z.to_nat (fst lr)) || is_owned owned (Z.to_nat (snd lr)))%bool
  else is_owned owned (Z.to_nat (fst lr)).
(* rdysetup.c:391-414: go through the face sets, removing their boundary edges from the unassigned
   ones and stepping the id for unassigned edges past an equal id *)
Definition assign_step (bnd : list nat) (st : list nat * Z) (s : Z * list nat) : list nat * Z :=
  (IsDifference (fst st) (IsIntersect (snd s) bnd), if Z.eqb (snd st) (fst s) then Z.succ (snd st) else snd st).
(* DMLabelSetStratumIS: replaces the points of an existing stratum or adds a new one at the end *)
Fixpoint set_stratum (label : list (Z * list nat)) (id : Z) (es : list nat) : list (Z * list nat) :=
  match label with
  | [] => [(id, es)]
  | (i, xs) :: t => if Z.eqb i id then (i, es) :: t else (i, xs) :: set_stratum t id es
  end.
Fixpoint get_stratum (label : list (Z * list nat)) (id : Z) : option (list nat) :=
  match label with
  | [] => None
  | (i, xs) :: t => if Z.eqb i id then Some xs else get_stratum t id
  end.
Record boundary := Boundary { bd_index : nat; bd_id : Z; bd_name : option string; bd_edges : list nat }.
Definition MAX_NUM_BOUNDARIES : nat := 32.
(* rdysetup.c:452-478: all points must be edges *)
Definition make_boundary (num_edges : nat) (cfg : list (Z * string)) (label : list (Z * list nat)) (b : nat) (id : Z) : option boundary :=
  let* es := get_stratum label id in
  if forallb (fun e => Nat.ltb e num_edges) es then Some (Boundary b id (config_name cfg id) es) else None.
Fixpoint make_boundaries (num_edges : nat) (cfg : list (Z * string)) (label : list (Z * list nat)) (b : nat) (ids : list Z) : option (list boundary) :=
  match ids with
  | [] => Some []
  | id :: t =>
    let* x := make_boundary num_edges cfg label b id in
    let* xs := make_boundaries num_edges cfg label (S b) t in
    Some (x :: xs)
  end.
(* [all_ids]: ids of the face sets present on some process (the MPI_MAX reduction, 365-383).
   [bnd]: the stratum of the "boundary_edges" label marked at rdydm.c:161-164, [None] when absent.
   The check that some process has a boundary (499-502) is left out. *)
Definition init_boundaries (num_edges : nat) (owned : list bool) (cs : list (Z * Z)) (cfg : list (Z * string)) (all_ids : list Z)
           (bnd : option (list nat)) (face_sets : option (list (Z * list nat))) : option (list boundary) :=
  let sets := match face_sets with Some s => s | None => [] end in
  if Nat.leb (List.length sets) MAX_NUM_BOUNDARIES then
    if forallb (fun b => match face_sets with Some _ => existsb (Z.eqb (fst b)) all_ids | None => false end) cfg then
      match bnd with
      | None => Some []
      | Some bnd =>
        let unassigned := IsDifference bnd (filter (fun e => negb (edge_valid owned cs e)) (seq 0 num_edges)) in
        let '(unassigned, id) := fold_left (assign_step bnd) sets (unassigned, 0%Z) in
        match unassigned with
        | [] => make_boundaries num_edges cfg sets 0 (map fst sets)
        | _ => make_boundaries num_edges cfg (set_stratum sets id unassigned) 0 (map fst sets ++ [id])
        end
      end
    else None
  else None.
