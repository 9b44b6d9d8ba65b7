(** Specification for second-order runs (C79): the geometry of a distributed mesh. *)
From Verif Require Import Base RoeModel EdgeModel SourceModel AssemblyModel DecompModel DecompSpec CeedLayoutModel CeedLayoutSpec CeedHRModel CeedRunModel CeedRunSpec
  MusclModel CeedMusclModel CeedMusclSpec MusclRunModel.
Local Open Scope R_scope.
Local Notation length := List.length.

(* the second-order discretisation of the whole mesh [m] with geometry [G] *)
Definition scheme2_of (lim : limiter) (cf : cconfig) (G : geometry) (m : mesh) (g : cellgeom) : scheme :=
  ceed_2r_scheme lim G (iedges m) (cf_tiny_h cf) (cf_h_anuga cf) (fun _ _ => 0) (fun _ _ => 0) (friction_of cf) g.

(* an edge traversed the other way, and an edge of a process as an edge of the whole mesh *)
Definition reverse (e : iedge) : iedge := IEdge (ie_r e) (ie_l e) (ie_len e) (- ie_sn e) (- ie_cn e).
Definition image (gid : nat -> nat) (e : iedge) : iedge := IEdge (gid (ie_l e)) (gid (ie_r e)) (ie_len e) (ie_sn e) (ie_cn e).

(* the geometry a process knows is that of the whole mesh: centroids of its cells, midpoints of its edges; it has
   all edges of the cells it owns *)
Record geometry_ok (G : geometry) (m : mesh) (p : sprocess) : Prop := {
  ge_centroid : forall c, (c < cm_cells (cp_mesh (sp_base p)))%nat -> sp_centroid p c = centroid G (cp_gid (sp_base p) c);
  ge_midpoint : forall e, In e (owned_internal (cp_mesh (sp_base p))) ->
    midpoint_of (sp_rmesh p) e = midpoint G (image (cp_gid (sp_base p)) (iedge_of (cp_mesh (sp_base p)) e));
  ge_inside : edges_inside (sp_rmesh p);
  ge_overlap : exists ges, Forall2 (fun e e' => exists flip, eview (cp_gid (sp_base p)) flip e e') (map (iedge_of (cp_mesh (sp_base p))) (cm_internal (cp_mesh (sp_base p)))) ges /\
    Permutation (filter (touches (rank_of (sp_base p))) ges) (filter (touches (rank_of (sp_base p))) (iedges m));
}.
Record distributed2 (cf : cconfig) (G : geometry) (m : mesh) (g : cellgeom) (src : nat -> vec3) (ps : list sprocess) : Prop := {
  d2_distributed : CeedRunSpec.distributed Standard cf m (fun _ => 0) g src (map sp_base ps);
  d2_geometry : forall p, In p ps -> geometry_ok G m p;
}.
(* a midpoint does not depend on the direction of the edge *)
Definition unoriented (G : geometry) : Prop := forall e, midpoint G (reverse e) = midpoint G e.
