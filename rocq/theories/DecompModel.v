(** Domain decomposition: what each MPI process computes, and how the results are put together. *)
From Verif Require Import Base RoeModel EdgeModel HRModel SourceModel AssemblyModel.

(* One process's part of the mesh (rdymesh.c).  Cells are the local points [0..num_cells) of its
   DMPlex, owned cells and ghosts in whatever order the DM numbers them. *)
Record rank := Rank {
  rk_cells : list nat;            (* local cell ids *)
  rk_gid : nat -> nat;            (* local cell -> cell of the whole mesh (cells->global_ids) *)
  rk_owned : nat -> bool;         (* cells->is_owned *)
  rk_iedges : list iedge;         (* internal edges, with local cell ids *)
  rk_iowned : iedge -> bool;      (* edges->is_owned for internal edges *)
  rk_bedges : list bedge;         (* boundary edges, with local cell ids *)
  rk_bowned : bedge -> bool;      (* edges->is_owned for boundary edges *)
}.

(* DMGlobalToLocal (rdysetup.c:1137-1138): every local copy, owned or ghost, of a cell holds that
   cell's value. *)
Definition to_local {A} (r : rank) (u : nat -> A) : nat -> A := fun l => u (rk_gid r l).

(** ** PETSc back end: each process visits all its edges and updates the cells it owns
    (swe_petsc.c:215-316 and 506-630) *)
Definition rank_rhs (sl : scheme) (r : rank) (area : nat -> R) (dt : R) (src u : nat -> vec3) : option (nat -> vec3) :=
  let ul := to_local r u in
  let* f := interior_loop vadd vscal (rk_owned r) (to_local r area) (s_interior sl ul) (rk_iedges r) zero_field in
  let* f := boundary_loop vadd vscal (rk_owned r) (to_local r area) (s_boundary sl ul) (rk_bedges r) f in
  source_loop (s_source sl dt ul (to_local r src)) (filter (rk_owned r) (rk_cells r)) f.

(* The global vector: the entry of a cell is the one computed by the process owning it. *)
Fixpoint gather (fs : list (rank * (nat -> vec3))) (c : nat) : vec3 :=
  match fs with
  | [] => vzero
  | (r, f) :: t =>
    match find (fun l => rk_owned r l && Nat.eqb (rk_gid r l) c)%bool (rk_cells r) with
    | Some l => f l
    | None => gather t c
    end
  end.

Definition par_rhs (rs : list (rank * scheme)) (area : nat -> R) (dt : R) (src u : nat -> vec3) : option (nat -> vec3) :=
  let* fs := omap (fun p => rank_rhs (snd p) (fst p) area dt src u) rs in
  Some (gather (combine (map fst rs) fs)).

(** ** libCEED back end (operator.c:560-618, operator_fluxes_ceed.c:195-235, 495-535), and the
    second-order PETSc flux (swe_petsc.c:98-213, [wi] the identity): each process visits the edges it
    owns, adds both contributions into a local vector at index [wi local_cell], and
    DMLocalToGlobal(ADD_VALUES) sums the local copies of each cell. *)
Definition edge_update_at (wi : nat -> nat) (area : nat -> R) (kern : iedge -> option (vec3 * vec3 * R))
           (f : nat -> vec3) (e : iedge) : option (nat -> vec3) :=
  let* p := kern e in
  let '(fl, fr, _) := p in
  let* sl := rdiv (- ie_len e) (area (ie_l e)) in
  let* sr := rdiv (ie_len e) (area (ie_r e)) in
  Some (add_at vadd (add_at vadd f (wi (ie_l e)) (vscal sl fl)) (wi (ie_r e)) (vscal sr fr)).
Definition bedge_update_at (wi : nat -> nat) (area : nat -> R) (kern : bedge -> option (vec3 * R))
           (f : nat -> vec3) (e : bedge) : option (nat -> vec3) :=
  let* p := kern e in
  let* s := rdiv (- be_len e) (area (be_c e)) in
  Some (add_at vadd f (wi (be_c e)) (vscal s (fst p))).

Definition rank_divergence (wi : nat -> nat) (sl : scheme) (r : rank) (area : nat -> R) (u : nat -> vec3) : option (nat -> vec3) :=
  let ul := to_local r u in
  let* f := ofold (edge_update_at wi (to_local r area) (s_interior sl ul)) (filter (rk_iowned r) (rk_iedges r)) zero_field in
  ofold (bedge_update_at wi (to_local r area) (s_boundary sl ul)) (filter (rk_bowned r) (rk_bedges r)) f.

Fixpoint vsum {A} (f : A -> vec3) (l : list A) : vec3 :=
  match l with [] => vzero | a :: t => vadd (f a) (vsum f t) end.

(* DMLocalToGlobal(..., ADD_VALUES) into a zeroed global vector *)
Definition scatter_add (fs : list (rank * (nat -> vec3))) (c : nat) : vec3 :=
  vsum (fun p => vsum (fun l => if Nat.eqb (rk_gid (fst p) l) c then snd p l else vzero) (rk_cells (fst p))) fs.

(* the source operator works on the global vector, cell by cell (operator.c:620-640) *)
Definition rank_sources (sl : scheme) (r : rank) (dt : R) (src u : nat -> vec3) (div : nat -> vec3) : option (nat -> vec3) :=
  source_loop (s_source sl dt (to_local r u) (to_local r src)) (filter (rk_owned r) (rk_cells r)) (to_local r div).

Definition par_rhs_owned_edges (wi : rank -> nat -> nat) (rs : list (rank * scheme)) (area : nat -> R) (dt : R)
           (src u : nat -> vec3) : option (nat -> vec3) :=
  let* ds := omap (fun p => rank_divergence (wi (fst p)) (snd p) (fst p) area u) rs in
  let div := scatter_add (combine (map fst rs) ds) in
  let* fs := omap (fun p => rank_sources (snd p) (fst p) dt src u div) rs in
  Some (gather (combine (map fst rs) fs)).

(* rdymesh.c:159-177: local_to_owned numbers the owned cells first, in local order, then the ghosts. *)
Fixpoint position (p : nat -> bool) (cs : list nat) (c : nat) : nat :=
  match cs with
  | [] => 0
  | a :: t => if Nat.eqb a c then 0 else if p a then S (position p t c) else position p t c
  end.
Definition local_to_owned (r : rank) (c : nat) : nat :=
  if rk_owned r c then position (rk_owned r) (rk_cells r) c
  else length (filter (rk_owned r) (rk_cells r)) + position (fun l => negb (rk_owned r l)) (rk_cells r) c.

(* operator_fluxes_ceed.c:218-219, 513: c_offset = local_to_owned[l] * num_comp *)
Definition par_rhs_ceed := par_rhs_owned_edges local_to_owned.
