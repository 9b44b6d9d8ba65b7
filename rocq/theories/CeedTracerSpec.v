(** Specification for sediment on the libCEED back end, whole runs on flat arrays (C81). *)
From Verif Require Import Base RoeModel EdgeModel HRModel SourceModel TracerModel AssemblyModel DecompModel DecompSpec TracerDecompModel TracerDecompSpec
  CeedLayoutModel CeedLayoutSpec CeedLayoutProperties CeedHRModel CeedHRSpec CeedRunModel CeedRunSpec PetscRunModel PetscTracerSpec.
Local Open Scope R_scope.
Local Notation length := List.length.

(** ** The discretisation on the whole mesh *)

(* The kernels of the code, left undefined in two cases.  A Dirichlet edge that is dry on both sides makes the code
   write outside the array of Courant numbers (C67_dry_dirichlet_refuted).  And the concentration on the right of an
   edge is guarded by the depth on the left, so that an edge wet on exactly one side does not have the same flux in
   both directions (C74_ceed_direction_refuted): if edges may be traversed [either] way, such edges are excluded. *)
Definition one_sided (tiny_h a b : R) : bool := xorb (tiny_h <? a) (tiny_h <? b).
Definition dev_interior (either : bool) (w : balancing) (cf : cconfig) (zL zR : R) (qL qR : tvec) (sn cn : R) : option (tvec * tvec * R) :=
  match w with
  | Standard => if (either && one_sided (cf_tiny_h cf) (depth qL) (depth qR))%bool then None
                else tboth (ceed_tracer_edge (tkind (cf_riemann cf)) GRAVITY (cf_tiny_h cf) qL qR sn cn)
  | Hydrostatic _ => if (either && one_sided (cf_tiny_h cf) (hr_depth (depth qL) zL zR) (hr_depth (depth qR) zR zL))%bool then None
                     else ceed_tracer_hr_edge GRAVITY (cf_tiny_h cf) (cf_h_anuga cf) zL zR qL qR sn cn
  end.
Definition dev_boundary (cf : cconfig) (bc : tbcond) (qL : tvec) (sn cn : R) : option (tvec * R) :=
  let dry := match bc with TDirichlet qR => negb ((cf_tiny_h cf <? depth qL) || (cf_tiny_h cf <? depth qR)) | TReflecting => false end in
  if dry then None else ceed_tracer_bedge (tkind (cf_riemann cf)) GRAVITY (cf_tiny_h cf) bc qL sn cn.
Definition dev_scheme (either : bool) (w : balancing) (cf : cconfig) (z : nat -> R) (g : cellgeom) (bcs : bedge -> tbcond) : tscheme :=
  TScheme (fun u e => dev_interior either w cf (z (ie_l e)) (z (ie_r e)) (u (ie_l e)) (u (ie_r e)) (ie_sn e) (ie_cn e))
          (fun u e => dev_boundary cf (bcs e) (u (be_c e)) (be_sn e) (be_cn e))
          (fun dt u src c F => ceed_tracer_rhs (includes_slope w) GRAVITY dt (cf_tiny_h cf) (manning g c) (dzdx g c) (dzdy g c) (u c) F (src c)).

(* a run of the whole domain; conditions, sources and the step may be different in each step *)
Definition dev_run (i : integrator) (either : bool) (w : balancing) (cf : cconfig) (z : nat -> R) (g : cellgeom) (m : mesh) (xs : list tserial_input) (u : nat -> tvec) : option (nat -> tvec) :=
  ofold (fun u st => tts_step i (trhs (dev_scheme either w cf z g (tsi_bcs st)) m (tsi_dt st) (tsi_src st)) (tsi_dt st) u) xs u.

(** ** Distribution over processes *)

(* any number of sediment classes that fits the arrays of the device code *)
Definition device_config (cf : cconfig) : Prop := sediment_config cf /\ (cf_classes cf <= MAX_NUM_SEDIMENT_CLASSES)%nat.

Definition owned_tbedges (nt : nat) (p : cprocess) : list (bedge * tbcond) :=
  flat_map (fun b => map (tbedge_of nt (cp_mesh p) b) (owned_boundary (cp_mesh p) b)) (cp_bounds p).

(* The arrays of a process describe its part of the mesh [m]; owned cells are numbered before ghosts. *)
Record dprocess_ok (w : balancing) (cf : cconfig) (m : mesh) (z : nat -> R) (g : cellgeom) (src : nat -> tvec) (p : cprocess) : Prop := {
  dp_mesh : mesh_ok (cp_mesh p) (cp_bounds p);
  dp_conditions : forall b, In b (cp_bounds p) -> cb_type b <> CRITICAL_OUTFLOW;
  dp_values : values_ok cf (cp_bounds p);
  dp_cells : forall c, (c < cm_cells (cp_mesh p))%nat -> In (cp_gid p c) (cells m);
  dp_order : exists k, forall c, (c < cm_cells (cp_mesh p))%nat -> cm_owned (cp_mesh p) c = Nat.ltb c k;
  dp_l2o : forall c, (c < cm_cells (cp_mesh p))%nat -> cm_l2o (cp_mesh p) c = local_to_owned (rank_of p) c;
  dp_area : forall c, (c < cm_cells (cp_mesh p))%nat -> cm_area (cp_mesh p) c = area m (cp_gid p c);
  dp_slope : w = Standard -> forall c, (c < cm_cells (cp_mesh p))%nat -> cm_dzdx (cp_mesh p) c = dzdx g (cp_gid p c) /\ cm_dzdy (cp_mesh p) c = dzdy g (cp_gid p c);
  dp_bed : forall file, w = Hydrostatic file -> cells_ok (cp_hmesh p) /\ forall c, (c < cm_cells (cp_mesh p))%nat -> bed file (cp_hmesh p) c = z (cp_gid p c);
  dp_ext_length : length (cp_ext p) = ((3 + cf_classes cf) * length (owned_cells (cp_mesh p)))%nat;
  dp_mat_length : length (cp_mat p) = length (owned_cells (cp_mesh p));
  dp_ext : forall i c, nth_error (owned_cells (cp_mesh p)) i = Some c -> block (3 + cf_classes cf) (cp_ext p) i = comps (cf_classes cf) (src (cp_gid p c));
  dp_mat : forall i c, nth_error (owned_cells (cp_mesh p)) i = Some c -> nth i (cp_mat p) 0 = manning g (cp_gid p c);
}.

(* The mesh is distributed: every cell and every edge is owned once, and the processes know where the values of
   their cells come from.  An edge may be traversed the other way only if [either]. *)
Definition seen (either : bool) (gid : nat -> nat) (e e' : iedge) : Prop := exists flip, (flip = true -> either = true) /\ eview gid flip e e'.
Record dev_distributed (either : bool) (w : balancing) (cf : cconfig) (m : mesh) (bcs : bedge -> tbcond) (z : nat -> R) (g : cellgeom) (src : nat -> tvec) (ps : list cprocess) : Prop := {
  dd_processes : forall p, In p ps -> dprocess_ok w cf m z g src p;
  dd_cells : Permutation (concat (layout ps)) (cells m);
  dd_iedges : exists ges, Forall2 (fun p es => Forall2 (seen either (cp_gid p)) (map (iedge_of (cp_mesh p)) (owned_internal (cp_mesh p))) es) ps ges /\
                Permutation (concat ges) (iedges m);
  dd_bedges : exists gbs, Forall2 (fun p es => Forall2 (tbview (cp_gid p) bcs) (owned_tbedges (cf_classes cf) p) es) ps gbs /\
                Permutation (concat gbs) (bedges m);
  dd_sf : forall p c, In p ps -> (c < cm_cells (cp_mesh p))%nat ->
    exists gs, nth_error (layout ps) (fst (cp_sf p c)) = Some gs /\ nth_error gs (snd (cp_sf p c)) = Some (cp_gid p c);
}.
(* ... in every step of a run; the layout [L] of the global vectors does not change *)
Definition dev_run_distributed (either : bool) (w : balancing) (cf : cconfig) (m : mesh) (z : nat -> R) (g : cellgeom) (L : list (list nat)) (x : tserial_input) (st : R * list cprocess) : Prop :=
  fst st = tsi_dt x /\ layout (snd st) = L /\ dev_distributed either w cf m (tsi_bcs x) z g (tsi_src x) (snd st).
