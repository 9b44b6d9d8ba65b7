(** Specification for second-order runs of the PETSc back end (C80). *)
From Verif Require Import Base RoeModel EdgeModel SourceModel AssemblyModel DecompModel DecompSpec CeedLayoutModel CeedLayoutSpec CeedHRModel CeedRunModel CeedRunSpec
  MusclModel CeedMusclModel CeedMusclSpec MusclRunModel MusclRunSpec PetscRunModel PetscRunSpec.
Local Open Scope R_scope.

(* the second-order discretisation of the whole mesh [m] with geometry [G] *)
Definition petsc_scheme2_of (lim : limiter) (cf : cconfig) (G : geometry) (m : mesh) (g : cellgeom) : scheme :=
  petsc_2r_scheme lim G (iedges m) (cf_tiny_h cf) (cf_h_anuga cf) (friction_of cf) g.

(* the processes have what the gradients and their exchange need (C79) and what the boundary operators and the
   sources of this back end need (C73) *)
Record petsc_distributed2 (cf : cconfig) (G : geometry) (m : mesh) (g : cellgeom) (src : nat -> vec3) (ps : list sprocess) : Prop := {
  p2_geometry : distributed2 cf G m g src ps;
  p2_base : petsc_distributed Standard cf m (fun _ => 0) g src (map sp_base ps);
}.
