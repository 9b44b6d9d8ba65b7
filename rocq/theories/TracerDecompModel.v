(** Tracer transport on several processes, PETSc back end: each process visits all its edges and updates the cells it
    owns. *)
From Verif Require Import Base RoeModel EdgeModel HRModel SourceModel AssemblyModel TracerModel.

(* One process's part of the mesh, as in DecompModel.v; boundary edges come with the condition of their boundary,
   tracers included (tracer_petsc.c:434-473). *)
Record trank := TRank {
  tr_cells : list nat;                      (* local cell ids *)
  tr_gid : nat -> nat;                      (* cells->global_ids *)
  tr_owned : nat -> bool;                   (* cells->is_owned *)
  tr_iedges : list iedge;
  tr_bedges : list (bedge * tbcond);
}.
(* DMGlobalToLocal (rdysetup.c:1137-1138) *)
Definition tr_local {A} (r : trank) (u : nat -> A) : nat -> A := fun l => u (tr_gid r l).

(* tracer_petsc.c:150-262 (or 807-990), 434-521 for each boundary, 600-735 (or 1060-1155).  [sl]: the discretisation
   with the data of the process; given the conditions on boundary edges. *)
Definition trank_rhs (sl : (bedge -> tbcond) -> tscheme) (r : trank) (area : nat -> R) (dt : R) (src u : nat -> tvec) : option (nat -> tvec) :=
  let ul := tr_local r u in
  let s := sl (fun _ => TReflecting) in
  let* f := interior_loop tadd tscal (tr_owned r) (tr_local r area) (ts_interior s ul) (tr_iedges r) (fun _ => tzero) in
  let* f := ofold (fun f eb => bedge_update tadd tscal (tr_owned r) (tr_local r area) (ts_boundary (sl (fun _ => snd eb)) ul) f (fst eb)) (tr_bedges r) f in
  source_loop (ts_source s dt ul (tr_local r src)) (filter (tr_owned r) (tr_cells r)) f.

(* The global vector: the entry of a cell is the one computed by the process owning it. *)
Fixpoint tgather (fs : list (trank * (nat -> tvec))) (c : nat) : tvec :=
  match fs with
  | [] => tzero
  | (r, f) :: t =>
    match find (fun l => tr_owned r l && Nat.eqb (tr_gid r l) c)%bool (tr_cells r) with
    | Some l => f l
    | None => tgather t c
    end
  end.
Definition tpar_rhs (rs : list (trank * ((bedge -> tbcond) -> tscheme))) (area : nat -> R) (dt : R) (src u : nat -> tvec) : option (nat -> tvec) :=
  let* fs := omap (fun p => trank_rhs (snd p) (fst p) area dt src u) rs in
  Some (tgather (combine (map fst rs) fs)).

(* a run: for each step its length, the sources, and how the domain is distributed *)
Record tpar_input := TParInput { tpi_dt : R; tpi_src : nat -> tvec; tpi_ranks : list (trank * ((bedge -> tbcond) -> tscheme)) }.
Definition tpar_run (i : integrator) (m : mesh) (xs : list tpar_input) (u : nat -> tvec) : option (nat -> tvec) :=
  ofold (fun u x => tts_step i (tpar_rhs (tpi_ranks x) (area m) (tpi_dt x) (tpi_src x)) (tpi_dt x) u) xs u.
