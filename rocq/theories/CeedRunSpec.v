(** Specification for runs on flat arrays (C72): a mesh distributed over processes, and global vectors holding a
    field over its cells. *)
From Verif Require Import Base RoeModel EdgeModel HRModel EtaModel SourceModel TracerModel AssemblyModel DecompModel DecompSpec
  CeedLayoutModel CeedLayoutSpec CeedLayoutProperties CeedHRModel CeedHRSpec CeedRunModel.
Local Open Scope R_scope.
Local Notation length := List.length.

(* the cells of the whole mesh in each process's part of a global vector *)
Definition layout (ps : list cprocess) : list (list nat) := map (fun p => map (cp_gid p) (owned_cells (cp_mesh p))) ps.
(* a global vector holds the field [u] *)
Definition part_holds (u : nat -> vec3) (gs : list nat) (x : list R) : Prop :=
  length x = (3 * length gs)%nat /\ forall i c, nth_error gs i = Some c -> block 3 x i = comps3 (u c).
Definition holds (L : list (list nat)) (U : list (list R)) (u : nat -> vec3) : Prop := Forall2 (part_holds u) L U.

(* the edges of a local mesh, and the conditions on boundary edges *)
Definition iedge_of (m : cmesh) (e : nat) : iedge := IEdge (left_cell m e) (right_cell m e) (cm_len m e) (cm_sn m e) (cm_cn m e).
Definition bedge_of (m : cmesh) (b : cboundary) (pe : nat * nat) : bedge :=
  BEdge (left_cell m (snd pe)) (cm_len m (snd pe)) (cm_sn m (snd pe)) (cm_cn m (snd pe)) (flow_condition (cb_type b) (block 3 (cb_values b) (fst pe))).
(* a process as a part of the mesh, with the edges it owns *)
Definition rank_of (p : cprocess) : rank :=
  let m := cp_mesh p in
  Rank (seq 0 (cm_cells m)) (cp_gid p) (cm_owned m) (map (iedge_of m) (owned_internal m)) (fun _ => true)
       (flat_map (fun b => map (bedge_of m b) (owned_boundary m b)) (cp_bounds p)) (fun _ => true).

(* the discretisation chosen by the configuration, on the whole mesh with bed elevations [z] *)
Definition friction_of (cf : cconfig) : friction :=
  match cf_source cf with SOURCE_SEMI_IMPLICIT => SemiImplicit | SOURCE_IMPLICIT_XQ2018 => XQ2018 (cf_xq_threshold cf) | SOURCE_ARK_IMEX => NoFriction end.
Definition scheme_of (w : balancing) (cf : cconfig) (z : nat -> R) (g : cellgeom) : scheme :=
  match w with
  | Standard => ceed_scheme (cf_tiny_h cf) (cf_h_anuga cf) (fun _ _ => 0) (fun _ _ => 0) (friction_of cf) g
  | Hydrostatic _ => ceed_hr_scheme (cf_tiny_h cf) (cf_h_anuga cf) z (friction_of cf) g
  end.

(* the flow alone, with the only Riemann solver there is for it *)
Definition flow_config (cf : cconfig) : Prop := num_tracers cf = 0%nat /\ cf_riemann cf = RIEMANN_ROE /\ 0 < cf_tiny_h cf.

(* The arrays of a process describe its part of the mesh [m]: areas, slopes, bed, roughness and sources are those
   of the cells of the whole mesh; owned cells are numbered before ghosts. *)
Record process_ok (w : balancing) (cf : cconfig) (m : mesh) (z : nat -> R) (g : cellgeom) (src : nat -> vec3) (p : cprocess) : Prop := {
  po_mesh : mesh_ok (cp_mesh p) (cp_bounds p);
  po_values : values_ok cf (cp_bounds p);
  po_numbering : numbering_ok m (rank_of p);
  po_order : exists k, forall c, (c < cm_cells (cp_mesh p))%nat -> cm_owned (cp_mesh p) c = Nat.ltb c k;
  po_l2o : forall c, (c < cm_cells (cp_mesh p))%nat -> cm_l2o (cp_mesh p) c = local_to_owned (rank_of p) c;
  po_area : forall c, (c < cm_cells (cp_mesh p))%nat -> cm_area (cp_mesh p) c = area m (cp_gid p c);
  po_slope : w = Standard -> forall c, (c < cm_cells (cp_mesh p))%nat -> cm_dzdx (cp_mesh p) c = dzdx g (cp_gid p c) /\ cm_dzdy (cp_mesh p) c = dzdy g (cp_gid p c);
  po_bed : forall file, w = Hydrostatic file -> cells_ok (cp_hmesh p) /\ forall c, (c < cm_cells (cp_mesh p))%nat -> bed file (cp_hmesh p) c = z (cp_gid p c);
  po_ext_length : length (cp_ext p) = (3 * length (owned_cells (cp_mesh p)))%nat;
  po_mat_length : length (cp_mat p) = length (owned_cells (cp_mesh p));
  po_ext : forall i c, nth_error (owned_cells (cp_mesh p)) i = Some c -> block 3 (cp_ext p) i = comps3 (src (cp_gid p c));
  po_mat : forall i c, nth_error (owned_cells (cp_mesh p)) i = Some c -> nth i (cp_mat p) 0 = manning g (cp_gid p c);
}.

(* The mesh is distributed: every cell is owned once, every edge is owned once (perhaps seen the other way
   round), and the processes know where the values of their cells come from. *)
Record distributed (w : balancing) (cf : cconfig) (m : mesh) (z : nat -> R) (g : cellgeom) (src : nat -> vec3) (ps : list cprocess) : Prop := {
  di_processes : forall p, In p ps -> process_ok w cf m z g src p;
  di_cells : Permutation (concat (layout ps)) (cells m);
  di_iedges : exists ges, Forall2 (fun p es => Forall2 (fun e e' => exists flip, eview (cp_gid p) flip e e') (map (iedge_of (cp_mesh p)) (owned_internal (cp_mesh p))) es) ps ges /\
                Permutation (concat ges) (iedges m);
  di_bedges : exists gbs, Forall2 (fun p es => Forall2 (bview (cp_gid p)) (flat_map (fun b => map (bedge_of (cp_mesh p) b) (owned_boundary (cp_mesh p) b)) (cp_bounds p)) es) ps gbs /\
                Permutation (concat gbs) (bedges m);
  di_sf : forall p c, In p ps -> (c < cm_cells (cp_mesh p))%nat ->
    exists gs, nth_error (layout ps) (fst (cp_sf p c)) = Some gs /\ nth_error gs (snd (cp_sf p c)) = Some (cp_gid p c);
}.
