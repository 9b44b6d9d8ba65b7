(** Courant number diagnostics: what every process records while it applies the operator, and how the
    records are combined. *)
From Verif Require Import Base RoeModel EdgeModel HRModel SourceModel AssemblyModel DecompModel.
From Coq Require Import ZArith.

(* include/private/rdyoperatorimpl.h CourantNumberDiagnostics *)
Record diag := Diag { d_max : R; d_edge : Z; d_cell : Z }.

(* operator.c:757-769 ResetOperatorDiagnostics *)
Definition reset : diag := Diag 0 (-1) (-1).

(** ** PETSc back end: the record is updated while the edges are visited *)

(* what one edge offers: its Courant number, the edge id and the cell id to record *)
Record visit := Visit { v_num : R; v_edge : Z; v_cell : Z }.

(* swe_petsc.c:290-297, 595-599: if (cnum > max) { max = cnum; ids = ... } *)
Definition note (d : diag) (v : visit) : diag :=
  if d_max d <? v_num v then Diag (v_num v) (v_edge v) (v_cell v) else d.

(* swe_petsc.c:283-297 (also 184-195, 1110-1122), one internal edge with the id to record.  An edge between
   two dry cells is skipped: its wave speed is 0 in [s_interior], so its number is 0 and never
   exceeds the record. *)
Definition interior_visit (s : scheme) (dt : R) (area : nat -> R) (cgid : nat -> nat) (u : nat -> vec3)
           (ie : Z * iedge) : option visit :=
  let e := snd ie in
  let* k := s_interior s u e in
  let* q := rdiv (snd k * ie_len e) (Rmin (area (ie_l e)) (area (ie_r e))) in
  Some (Visit (q * dt) (fst ie)
              (Z.of_nat (cgid (if area (ie_l e) <? area (ie_r e) then ie_l e else ie_r e)))).
(* swe_petsc.c:590-600, one boundary edge *)
Definition boundary_visit (s : scheme) (dt : R) (area : nat -> R) (cgid : nat -> nat) (u : nat -> vec3)
           (be : Z * bedge) : option visit :=
  let e := snd be in
  let* k := s_boundary s u e in
  let* q := rdiv (snd k * be_len e) (area (be_c e)) in
  Some (Visit (q * dt) (fst be) (Z.of_nat (cgid (be_c e)))).

(* rdymesh.c:433 and 518-524: edges->global_ids starts as -1 and is set, to the local edge id, only
   when there is one process. *)
Definition edge_global_id (nproc lid : nat) : Z := if Nat.eqb nproc 1 then Z.of_nat lid else (-1)%Z.

(* local ids of a process's internal and boundary edges (edges->internal_edge_ids, boundary.edge_ids) *)
Record edge_ids := EdgeIds { ei_int : list nat; ei_bnd : list nat }.

(* One process: internal edges (all of them, owned or not), then boundary edges whose cell is owned
   (swe_petsc.c:586). [iids], [bids] are the ids the loops record. *)
Definition rank_visits (sl : scheme) (r : rank) (iids bids : list Z) (area : nat -> R) (dt : R) (u : nat -> vec3)
  : option (list visit) :=
  let ul := to_local r u in
  let* vi := omap (interior_visit sl dt (to_local r area) (rk_gid r) ul) (combine iids (rk_iedges r)) in
  let* vb := omap (boundary_visit sl dt (to_local r area) (rk_gid r) ul)
                  (filter (fun p => rk_owned r (be_c (snd p))) (combine bids (rk_bedges r))) in
  Some (vi ++ vb).
(* swe_petsc.c: global_ids[edge_id] *)
Definition petsc_ids (nproc : nat) (lids : list nat) : list Z := map (edge_global_id nproc) lids.
(* tracer_petsc.c:245, 508: global_ids[e], [e] the position in the list *)
Definition tracer_ids (nproc : nat) (lids : list nat) : list Z := map (edge_global_id nproc) (seq 0 (length lids)).

(* rdysetup.c:1136 resets before every evaluation of the right-hand side *)
Definition rank_diag (sl : scheme) (r : rank) (iids bids : list Z) (area : nat -> R) (dt : R) (u : nat -> vec3) : option diag :=
  let* vs := rank_visits sl r iids bids area dt u in Some (fold_left note vs reset).

(** ** Reduction over processes *)

(* operator.c:705-715 FindCourantNumberDiagnostics *)
Definition reduce_op (inn res : diag) : diag := if d_max res <? d_max inn then inn else res.
(* MPI_Allreduce with an operator declared commutative (operator.c:745): any bracketing and any order
   of the processes *)
Inductive rtree := Leaf (d : diag) | Node (a b : rtree).
Fixpoint leaves (t : rtree) : list diag := match t with Leaf d => [d] | Node a b => leaves a ++ leaves b end.
Fixpoint reduce (t : rtree) : diag := match t with Leaf d => d | Node a b => reduce_op (reduce a) (reduce b) end.

(** ** libCEED back end: the numbers are written to vectors, searched afterwards *)

(* swe_fluxes_ceed.h:84-85 (interior) with geom[2] = -len/areal, geom[3] = len/arear
   (operator_fluxes_ceed.c:185-186): cnum[0] = -amax * geom[2] * dt, cnum[1] = amax * geom[3] * dt;
   0 on dry edges (:92-93) *)
Definition ceed_interior_numbers (s : scheme) (dt : R) (area : nat -> R) (u : nat -> vec3) (e : iedge) : option (R * R) :=
  let* k := s_interior s u e in
  let* gl := rdiv (- ie_len e) (area (ie_l e)) in
  let* gr := rdiv (ie_len e) (area (ie_r e)) in
  Some (- snd k * gl * dt, snd k * gr * dt).
(* swe_fluxes_ceed.h:141, 197, 256 (boundary): cnum[0] = -amax * geom[2] * dt *)
Definition ceed_boundary_number (s : scheme) (dt : R) (area : nat -> R) (u : nat -> vec3) (e : bedge) : option R :=
  let* k := s_boundary s u e in
  let* gl := rdiv (- be_len e) (area (be_c e)) in
  Some (- snd k * gl * dt).

(* What one application writes into the vectors of a process: two values per owned internal edge, then
   one per owned boundary edge.  [dti] is the time step in the context of the interior operator. *)
Definition ceed_written (sl : scheme) (r : rank) (area : nat -> R) (dti dt : R) (u : nat -> vec3) : option (list R) :=
  let ul := to_local r u in
  let* ni := omap (ceed_interior_numbers sl dti (to_local r area) ul) (filter (rk_iowned r) (rk_iedges r)) in
  let* nb := omap (ceed_boundary_number sl dt (to_local r area) ul) (filter (rk_bowned r) (rk_bedges r)) in
  Some (concat (map (fun p => [fst p; snd p]) ni) ++ nb).

(* The vectors are passive outputs of an operator applied with CeedOperatorApplyAdd (operator.c:584-587)
   and are zeroed only when created (operator_fluxes_ceed.c:203-207, 506-510).  Whether libCEED overwrites passive
   outputs or adds into them is not visible in this repository. *)
Inductive passive := Overwrite | AddInto.
Definition store (p : passive) (old new : list R) : list R :=
  match p with Overwrite => new | AddInto => map (fun q => fst q + snd q) (combine old new) end.
Definition stored (p : passive) (n : nat) (writes : list (list R)) : list R := fold_left (store p) writes (repeat 0 n).

(* operator.c:775-840: fmax over all stored values, starting from the reset record; the ids stay as
   they are *)
Definition ceed_rank_diag (stored_numbers : list R) : diag :=
  Diag (fold_left Rmax stored_numbers (d_max reset)) (d_edge reset) (d_cell reset).

(** ** Time step in the libCEED contexts *)
(* operator.c:505-513; op->ceed.dt and the contexts start at 0 (swe_ceed.c:31).  [cx_muscl] is the context
   of the standalone second-order interior operator (operator_fluxes_ceed.c:1225-1375, applied at operator.c:584). *)
Record contexts := Contexts { cx_op : R; cx_flux : R; cx_source : R; cx_muscl : R }.
Definition contexts_created : contexts := Contexts 0 0 0 0.
Definition push_dt (c : contexts) (dt : R) : contexts :=
  if Req_EM_T (cx_op c) dt then c else Contexts dt dt dt (cx_muscl c).
