(** The libCEED operator for surface elevations at the vertices (Bradford-Sanders well-balancing), at the
    level of flat arrays. *)
From Coq Require Import String.
From Verif Require Import Base RoeModel EdgeModel EtaModel SourceModel TracerModel CeedLayoutModel.
Local Open Scope string_scope.
Local Open Scope list_scope.
Local Open Scope R_scope.
Local Notation length := List.length.

(* rdymeshimpl.h: connectivity between vertices and cells *)
Record vmesh := VMesh {
  vm_mesh : cmesh;
  vm_ncells : nat -> nat;            (* vertices.num_cells *)
  vm_cell_offsets : nat -> nat;      (* vertices.cell_offsets *)
  vm_cell_ids : nat -> nat;          (* vertices.cell_ids *)
  vm_vertex_offsets : nat -> nat;    (* cells.vertex_offsets *)
  vm_vertex_ids : nat -> nat;        (* cells.vertex_ids *)
}.

(* operator_fluxes_ceed.c:794-800: the pairs (vertex, cell) in the order of the double loop *)
Definition cells_around (vm : vmesh) (v : nat) : list nat :=
  map (fun i => vm_cell_ids vm (vm_cell_offsets vm v + i)) (seq 0 (vm_ncells vm v)).
Definition connections (vm : vmesh) : list (nat * nat) :=
  flat_map (fun v => map (pair v) (cells_around vm v)) (seq 0 (cm_vertices (vm_mesh vm))).

(* operator_fluxes_ceed.c:802-817: the first three vertices of the cell, sorted, and the weight of the cell *)
Definition corner (vm : vmesh) (c k : nat) : R := cm_z (vm_mesh vm) (vm_vertex_ids vm (vm_vertex_offsets vm c + k)).
Definition eta_geom (vm : vmesh) (vc : nat * nat) : option (list R) :=
  let '(z1, z2, z3) := sort3 (corner vm (snd vc) 0) (corner vm (snd vc) 1) (corner vm (snd vc) 2) in
  let* w := rdiv 1 (INR (vm_ncells vm (fst vc))) in
  Some [z1; z2; z3; w].

(* swe_well_balancing.h:31-79 SWEEtaVertex, one point *)
Definition SWEEtaVertex (tiny_h : R) (ins : list (list R)) : option (list (option (list R))) :=
  let* geom := nth_error ins 0 in
  let* q := nth_error ins 1 in
  let* state := swe_state q in
  let* z1 := nth_error geom 0 in
  let* z2 := nth_error geom 1 in
  let* z3 := nth_error geom 2 in
  let* wt := nth_error geom 3 in
  let* eta := eta_cell tiny_h z1 z2 z3 (c0 state) in
  Some [Some [eta * wt]].

(* operator_fluxes_ceed.c:743-861 CreateCeedEtaVerticesOperator: num_comp counts the sediment classes but not
   salinity and temperature.  (The composite operator created first is overwritten.)
   libCEED only asks that the vector is at least as long as the restriction needs. *)
Definition eta_num_comp (cf : cconfig) : nat := 3 + cf_classes cf.
Definition CreateCeedEtaVerticesOperator (cf : cconfig) (vm : vmesh) : option ceed_operator :=
  let nc := eta_num_comp cf in
  let l := connections vm in
  let n := length l in
  let* g := omap (eta_geom vm) l in
  Some (CeedOp
    (QFunction [("geom", 4%nat); ("q", nc)] [("eta", 1%nat)] (SWEEtaVertex (cf_tiny_h cf)))
    [OpField "geom" (strided n 4) (Some (concat g));
     OpField "q" (Restriction (map (fun vc => snd vc * nc)%nat l) nc) None;
     OpField "eta" (Restriction (map (fun vc => fst vc * 1)%nat l) 1) None]).

(* operator.c:518-535: the vector is zeroed and the operator applied to the current local solution *)
Definition update_eta (cf : cconfig) (vm : vmesh) (u : list R) : option (list R) :=
  let* op := CreateCeedEtaVerticesOperator cf vm in
  apply [op] u (cm_vertices (vm_mesh vm)).

Inductive well_balancing := WELL_BALANCING_NONE | WELL_BALANCING_BS2002.
(* operator.c:153-188, 518-604: one evaluation of the flux divergence with first-order reconstruction; for
   BS2002 without sediment the elevations are recomputed first, otherwise they stay those of the bed *)
Definition ceed_flux_step (wb : well_balancing) (cf : cconfig) (vm : vmesh) (dt : R) (bs : list cboundary) (u : list R) : option (list R) :=
  let* eta := match wb with
              | WELL_BALANCING_BS2002 => if Nat.eqb (cf_classes cf) 0 then update_eta cf vm u else Some (initial_eta (vm_mesh vm))
              | WELL_BALANCING_NONE => Some (initial_eta (vm_mesh vm))
              end in
  flux_rhs cf (vm_mesh vm) eta dt bs u.
