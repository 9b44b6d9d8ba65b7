(** The libCEED operators at the level of flat arrays: restrictions, Q-functions, composite operators
    and the vectors they read and write. *)
From Coq Require Import String.
From Verif Require Import Base RoeModel EdgeModel EtaModel SourceModel TracerModel.
Local Open Scope string_scope.
Local Open Scope list_scope.
Local Open Scope R_scope.
Local Notation length := List.length.

(** ** libCEED

    CeedElemRestrictionCreate(ceed, num_elem, 1, num_comp, 1, size, ..., offsets): one node per element,
    component stride 1; element e covers the entries offsets[e] ... offsets[e]+num_comp-1.
    CeedElemRestrictionCreateStrided with strides {num_comp, 1, num_comp}: offsets num_comp*e. *)
Record restriction := Restriction { r_offsets : list nat; r_comps : nat }.
Definition strided (elems comps : nat) : restriction := Restriction (map (fun e => comps * e)%nat (seq 0 elems)) comps.

(* the entries of one element; [None]: outside the vector *)
Definition fetch (x : list R) (off n : nat) : option (list R) := omap (fun k => nth_error x (off + k)) (seq 0 n).
(* transposed restriction of one element: x[off + k] += v[k] *)
Definition add_entry (off : nat) (x : list R) (kv : nat * R) : option (list R) :=
  let* a := nth_error x (off + fst kv) in upd x (off + fst kv) (a + snd kv).
Definition add_into (x : list R) (off : nat) (v : list R) : option (list R) :=
  ofold (add_entry off) (combine (seq 0 (length v)) v) x.

(* CeedOperatorSetField: name, restriction, and the passive vector ([None]: CEED_VECTOR_ACTIVE) *)
Record op_field := OpField { of_name : string; of_restriction : restriction; of_vector : option (list R) }.

(* A Q-function: inputs and outputs in the order of CeedQFunctionAddInput/AddOutput, with their numbers
   of components, and its body at one point: in[i] and out[j] as lists of components.  An output that
   the body does not write is [None].  A body that reads outside an input gives [None]. *)
Record qfunction := QFunction {
  qf_inputs : list (string * nat);
  qf_outputs : list (string * nat);
  qf_body : list (list R) -> option (list (option (list R)));
}.
Record ceed_operator := CeedOp { co_qf : qfunction; co_fields : list op_field }.

Definition field (op : ceed_operator) (name : string) : option op_field :=
  find (fun f => String.eqb (of_name f) name) (co_fields op).
(* libCEED refuses an operator whose restrictions differ in their number of elements *)
Definition elems (op : ceed_operator) : nat :=
  match co_fields op with [] => 0%nat | f :: _ => length (r_offsets (of_restriction f)) end.
Definition same_elems (op : ceed_operator) : bool :=
  forallb (fun f => Nat.eqb (length (r_offsets (of_restriction f))) (elems op)) (co_fields op).

(* what the Q-function receives for one input of element [e]; the number of components of the
   restriction must be the one announced by the Q-function *)
Definition input_at (op : ceed_operator) (u : list R) (e : nat) (i : string * nat) : option (list R) :=
  let* f := field op (fst i) in
  if Nat.eqb (r_comps (of_restriction f)) (snd i) then
    let* off := nth_error (r_offsets (of_restriction f)) e in
    fetch (match of_vector f with Some v => v | None => u end) off (snd i)
  else None.
(* every output that is written has exactly the announced components: more is a write outside the
   output, fewer leaves components undefined *)
Definition fits (o : option (list R)) (d : string * nat) : bool :=
  match o with Some v => Nat.eqb (length v) (snd d) | None => true end.
Definition outputs_fit (os : list (option (list R))) (ds : list (string * nat)) : bool :=
  (Nat.eqb (length os) (length ds) && forallb (fun p => fits (fst p) (snd p)) (combine os ds))%bool.

Definition point (op : ceed_operator) (u : list R) (e : nat) : option (list (option (list R))) :=
  let* ins := omap (input_at op u e) (qf_inputs (co_qf op)) in
  let* outs := qf_body (co_qf op) ins in
  if outputs_fit outs (qf_outputs (co_qf op)) then Some outs else None.
Definition points (op : ceed_operator) (u : list R) : option (list (list (option (list R)))) :=
  if same_elems op then omap (point op u) (seq 0 (elems op)) else None.

(* output [j] of all elements added into the active output vector *)
Definition scatter_output (op : ceed_operator) (pts : list (list (option (list R)))) (x : list R) (jd : nat * (string * nat)) : option (list R) :=
  let* f := field op (fst (snd jd)) in
  match of_vector f with
  | Some _ => Some x       (* passive output: stored elsewhere, see [passive_output] *)
  | None =>
    ofold (fun x p =>
             let* o := nth_error (snd p) (fst jd) in
             let* v := o in
             add_into x (fst p) v) (combine (r_offsets (of_restriction f)) pts) x
  end.

(* CeedOperatorApplyAdd of one operator and of a composite operator *)
Definition apply_add (op : ceed_operator) (u x : list R) : option (list R) :=
  let* pts := points op u in
  ofold (scatter_output op pts) (combine (seq 0 (length (qf_outputs (co_qf op)))) (qf_outputs (co_qf op))) x.
Definition apply_add_all (ops : list ceed_operator) (u x : list R) : option (list R) :=
  ofold (fun x op => apply_add op u x) ops x.
(* CeedOperatorApply: the active output is overwritten *)
Definition apply (ops : list ceed_operator) (u : list R) (size : nat) : option (list R) :=
  apply_add_all ops u (repeat 0 size).
(* what a strided passive output vector holds for element [e] afterwards; [Some None]: left undefined *)
Definition passive_output (op : ceed_operator) (u : list R) (name : string) (e : nat) : option (option (list R)) :=
  let* outs := point op u e in
  let* jo := find (fun p => String.eqb (fst (fst p)) name) (combine (qf_outputs (co_qf op)) outs) in
  Some (snd jo).

(** ** Mesh and configuration *)

(* rdymeshimpl.h: the arrays of a (local) mesh *)
Record cmesh := CMesh {
  cm_cells : nat;                 (* num_cells *)
  cm_vertices : nat;              (* num_vertices *)
  cm_internal : list nat;         (* edges.internal_edge_ids *)
  cm_cell_ids : nat -> nat;       (* edges.cell_ids, two per edge *)
  cm_vertex_ids : nat -> nat;     (* edges.vertex_ids, two per edge *)
  cm_eowned : nat -> bool;        (* edges.is_owned *)
  cm_sn : nat -> R;               (* edges.sn *)
  cm_cn : nat -> R;               (* edges.cn *)
  cm_len : nat -> R;              (* edges.lengths *)
  cm_area : nat -> R;             (* cells.areas *)
  cm_owned : nat -> bool;         (* cells.is_owned *)
  cm_l2o : nat -> nat;            (* cells.local_to_owned *)
  cm_dzdx : nat -> R;             (* cells.dz_dx *)
  cm_dzdy : nat -> R;             (* cells.dz_dy *)
  cm_z : nat -> R;                (* vertices.points[].X[2] *)
}.

Inductive riemann := RIEMANN_ROE | RIEMANN_UPWIND_ROE.
Inductive source_method := SOURCE_SEMI_IMPLICIT | SOURCE_IMPLICIT_XQ2018 | SOURCE_ARK_IMEX.
Inductive condition_type := DIRICHLET | REFLECTING | CRITICAL_OUTFLOW.
Record cconfig := CConfig {
  cf_classes : nat;               (* physics.sediment.num_classes *)
  cf_salinity : bool;
  cf_heat : bool;
  cf_riemann : riemann;
  cf_source : source_method;
  cf_tiny_h : R;
  cf_h_anuga : R;
  cf_xq_threshold : R;
}.
Record cboundary := CBoundary {
  cb_edges : list nat;            (* boundary.edge_ids *)
  cb_type : condition_type;
  cb_values : list R;             (* the q_dirichlet vector, num_comp entries for each edge *)
}.

(* operator_fluxes_ceed.c:44-46 NumTracers *)
Definition num_tracers (cf : cconfig) : nat := cf_classes cf + (if cf_salinity cf then 1 else 0) + (if cf_heat cf then 1 else 0).
(* operator_fluxes_ceed.c:134-136 *)
Definition num_comp (cf : cconfig) : nat := 3 + num_tracers cf.
(* CMakeLists.txt:12 *)
Definition MAX_NUM_SEDIMENT_CLASSES : nat := 5.

(** ** Q-functions *)

(* {q[0][i], q[1][i], q[2][i]} *)
Definition swe_state (q : list R) : option vec3 :=
  let* a := nth_error q 0 in let* b := nth_error q 1 in let* c := nth_error q 2 in Some (V3 a b c).
(* tracer_types_ceed.h:24-26: hci has MAX_NUM_SEDIMENT_CLASSES entries;
   tracer_fluxes_ceed.h:46-51: hci[j] = q[flow_ndof + j][i] for every tracer j *)
Definition tracer_state (nt : nat) (q : list R) : option tvec :=
  let* f := swe_state q in
  if Nat.leb nt MAX_NUM_SEDIMENT_CLASSES then
    let* cs := omap (fun j => nth_error q (3 + j)) (seq 0 nt) in
    Some (TV f (fun j => nth j cs 0))
  else None.
Definition comps3 (v : vec3) : list R := [c0 v; c1 v; c2 v].
Definition comps (nt : nat) (v : tvec) : list R := comps3 (tflow v) ++ map (ttr v) (seq 0 nt).

(* swe_fluxes_ceed.h:38-96 SWEFlux (with RIEMANN_FLUX_ROE), one point *)
Definition SWEFlux (tiny_h h_anuga dt : R) (ins : list (list R)) : option (list (option (list R))) :=
  let* geom := nth_error ins 0 in
  let* q_L := nth_error ins 1 in
  let* q_R := nth_error ins 2 in
  let* eta_vert_beg := nth_error ins 3 in
  let* eta_vert_end := nth_error ins 4 in
  let* qL := swe_state q_L in
  let* qR := swe_state q_R in
  let* z_beg := nth_error geom 4 in
  let* z_end := nth_error geom 5 in
  let* eta_beg := nth_error eta_vert_beg 0 in
  let* eta_end := nth_error eta_vert_end 0 in
  let* sn := nth_error geom 0 in
  let* cn := nth_error geom 1 in
  let* wL := nth_error geom 2 in
  let* wR := nth_error geom 3 in
  let* p := ceed_interior_edge GRAVITY tiny_h h_anuga qL qR sn cn (ComputeDhv z_beg z_end eta_beg eta_end) in
  let '(f, amax) := p in
  Some [Some (map (fun x => x * wL) (comps3 f)); Some (map (fun x => x * wR) (comps3 f)); Some (comps3 f);
        Some [- amax * wL * dt; amax * wR * dt]].

(* tracer_fluxes_ceed.h:24-80 TracerFlux, one point *)
Definition TracerFlux (k : triemann) (nt : nat) (tiny_h dt : R) (ins : list (list R)) : option (list (option (list R))) :=
  let* geom := nth_error ins 0 in
  let* q_L := nth_error ins 1 in
  let* q_R := nth_error ins 2 in
  let* qL := tracer_state nt q_L in
  let* qR := tracer_state nt q_R in
  let* sn := nth_error geom 0 in
  let* cn := nth_error geom 1 in
  let* wL := nth_error geom 2 in
  let* wR := nth_error geom 3 in
  let* p := ceed_tracer_edge k GRAVITY tiny_h qL qR sn cn in
  let '(f, amax) := p in
  Some [Some (map (fun x => x * wL) (comps nt f)); Some (map (fun x => x * wR) (comps nt f)); Some (comps nt f);
        Some [- amax * wL * dt; amax * wR * dt]].

(* swe_fluxes_ceed.h:98-152, 159-211, 218-275: SWEBoundaryFlux_Dirichlet, _Reflecting, _Outflow, one point.
   Only the Dirichlet one reads in[4]. *)
Definition SWEBoundaryFlux (ty : condition_type) (tiny_h h_anuga dt : R) (ins : list (list R)) : option (list (option (list R))) :=
  let* geom := nth_error ins 0 in
  let* q_L := nth_error ins 1 in
  let* eta_vert_beg := nth_error ins 2 in
  let* eta_vert_end := nth_error ins 3 in
  let* qL := swe_state q_L in
  let* bc := match ty with
             | DIRICHLET => let* q_R := nth_error ins 4 in let* qR := swe_state q_R in Some (BCDirichlet qR)
             | REFLECTING => Some BCReflecting
             | CRITICAL_OUTFLOW => Some BCCriticalOutflow
             end in
  let* z_beg := nth_error geom 3 in
  let* z_end := nth_error geom 4 in
  let* eta_beg := nth_error eta_vert_beg 0 in
  let* eta_end := nth_error eta_vert_end 0 in
  let* sn := nth_error geom 0 in
  let* cn := nth_error geom 1 in
  let* wL := nth_error geom 2 in
  let* p := ceed_boundary_edge GRAVITY tiny_h h_anuga bc qL sn cn (ComputeDhv z_beg z_end eta_beg eta_end) in
  let '(f, amax) := p in
  Some [Some (map (fun x => x * wL) (comps3 f)); Some (comps3 f); Some [- amax * wL * dt]].

(* tracer_fluxes_ceed.h:88-143 TracerBoundaryFlux_Dirichlet, one point: the boundary values are in[2],
   and the dry branch also writes courant_num[1] *)
Definition TracerBoundaryFlux_Dirichlet (k : triemann) (nt : nat) (tiny_h dt : R) (ins : list (list R)) : option (list (option (list R))) :=
  let* geom := nth_error ins 0 in
  let* q_L := nth_error ins 1 in
  let* q_R := nth_error ins 2 in
  let* qL := tracer_state nt q_L in
  let* qR := tracer_state nt q_R in
  let* sn := nth_error geom 0 in
  let* cn := nth_error geom 1 in
  let* wL := nth_error geom 2 in
  if ((tiny_h <? depth qL) || (tiny_h <? depth qR))%bool then
    let* p := ceed_tracer_bedge k GRAVITY tiny_h (TDirichlet qR) qL sn cn in
    let '(f, amax) := p in
    Some [Some (map (fun x => x * wL) (comps nt f)); Some (comps nt f); Some [- amax * wL * dt]]
  else Some [Some (repeat 0 (3 + nt)); Some (repeat 0 (3 + nt)); Some [0; 0]].

(* tracer_fluxes_ceed.h:155-213 TracerBoundaryFlux_Reflecting, one point: out[1] (the recorded flux) is
   never written *)
Definition TracerBoundaryFlux_Reflecting (k : triemann) (nt : nat) (tiny_h dt : R) (ins : list (list R)) : option (list (option (list R))) :=
  let* geom := nth_error ins 0 in
  let* q_L := nth_error ins 1 in
  let* sn := nth_error geom 0 in
  let* cn := nth_error geom 1 in
  let* wL := nth_error geom 2 in
  let* qL := tracer_state nt q_L in
  let* p := ceed_tracer_bedge k GRAVITY tiny_h TReflecting qL sn cn in
  let '(f, amax) := p in
  Some [Some (map (fun x => x * wL) (comps nt f)); None; Some [- amax * wL * dt]].

(* swe_sources_ceed.h:106-165 SWESources, one point *)
Definition SWESources (fr : friction) (tiny_h h_anuga dt : R) (ins : list (list R)) : option (list (option (list R))) :=
  let* geom := nth_error ins 0 in
  let* ext_src := nth_error ins 1 in
  let* mat_props := nth_error ins 2 in
  let* riemannf := nth_error ins 3 in
  let* q := nth_error ins 4 in
  let* state := swe_state q in
  let* dz_dx := nth_error geom 0 in
  let* dz_dy := nth_error geom 1 in
  let* F := swe_state riemannf in
  let* mannings_n := nth_error mat_props 0 in
  let* src := swe_state ext_src in
  let* s := ceed_rhs fr true GRAVITY dt tiny_h h_anuga mannings_n dz_dx dz_dy state F src in
  let h := c0 state in
  let denom := h * h + h_anuga * h_anuga in
  let* u := SafeDiv (c1 state * h) denom h tiny_h in
  let* v := SafeDiv (c2 state * h) denom h tiny_h in
  Some [Some (comps3 s); Some [h; u; v]; Some (comps3 src)].

(* tracer_sources_ceed.h:79-160 TracerSources, one point; e and d have MAX_NUM_SEDIMENT_CLASSES entries
   and are indexed by every tracer.  [semi]: with semi-implicit bed friction, erosion and deposition *)
Definition tracer_source_terms (semi : bool) (dt tiny_h n dzdx dzdy : R) (q F src : tvec) : option tvec :=
  if semi then ceed_tracer_rhs true GRAVITY dt tiny_h n dzdx dzdy q F src
  else Some (TV (V3 (c0 (tflow F) + c0 (tflow src)) (c1 (tflow F) - bed_force true GRAVITY dzdx (depth q) - 0 + c1 (tflow src))
                    (c2 (tflow F) - bed_force true GRAVITY dzdy (depth q) - 0 + c2 (tflow src)))
                (fun j => ttr F j + (0 - 0) + ttr src j)).
Definition TracerSources (semi : bool) (nt : nat) (tiny_h h_anuga dt : R) (ins : list (list R)) : option (list (option (list R))) :=
  let* geom := nth_error ins 0 in
  let* ext_src := nth_error ins 1 in
  let* mat_props := nth_error ins 2 in
  let* riemannf := nth_error ins 3 in
  let* q := nth_error ins 4 in
  let* state := tracer_state nt q in
  let* dz_dx := nth_error geom 0 in
  let* dz_dy := nth_error geom 1 in
  let* F := tracer_state nt riemannf in
  let* mannings_n := nth_error mat_props 0 in
  let* src := tracer_state nt ext_src in
  let* s := tracer_source_terms semi dt tiny_h mannings_n dz_dx dz_dy state F src in
  let h := depth state in
  let denom := h * h + h_anuga * h_anuga in
  let* u := SafeDiv (c1 (tflow state) * h) denom h tiny_h in
  let* v := SafeDiv (c2 (tflow state) * h) denom h tiny_h in
  let* ci := omap (fun j => if tiny_h <? h then rdiv (ttr state j) h else Some 0) (seq 0 nt) in
  Some [Some (comps nt s); Some ([h; u; v] ++ ci); Some (comps nt src)].

(** ** Flux operators *)

Definition tkind (r : riemann) : triemann := match r with RIEMANN_ROE => TRoe | RIEMANN_UPWIND_ROE => TUpwind end.

(* operator_fluxes_ceed.c:48-85 CreateInteriorFluxQFunction; [None]: refused *)
Definition interior_body (cf : cconfig) (dt : R) : option (list (list R) -> option (list (option (list R)))) :=
  if Nat.eqb (num_tracers cf) 0 then
    match cf_riemann cf with
    | RIEMANN_ROE => Some (SWEFlux (cf_tiny_h cf) (cf_h_anuga cf) dt)
    | RIEMANN_UPWIND_ROE => None
    end
  else Some (TracerFlux (tkind (cf_riemann cf)) (num_tracers cf) (cf_tiny_h cf) dt).

(* operator_fluxes_ceed.c:174-186, 195-235: the owned internal edges, in order *)
Definition owned_internal (m : cmesh) : list nat := filter (cm_eowned m) (cm_internal m).
Definition left_cell (m : cmesh) (e : nat) : nat := cm_cell_ids m (2 * e).
Definition right_cell (m : cmesh) (e : nat) : nat := cm_cell_ids m (2 * e + 1).
Definition vertex_beg (m : cmesh) (e : nat) : nat := cm_vertex_ids m (2 * e).
Definition vertex_end (m : cmesh) (e : nat) : nat := cm_vertex_ids m (2 * e + 1).
Definition interior_geom (m : cmesh) (e : nat) : option (list R) :=
  let* gl := rdiv (- cm_len m e) (cm_area m (left_cell m e)) in
  let* gr := rdiv (cm_len m e) (cm_area m (right_cell m e)) in
  Some [cm_sn m e; cm_cn m e; gl; gr; cm_z m (vertex_beg m e); cm_z m (vertex_end m e)].

(* present when there is no sediment class (operator_fluxes_ceed.c:156-159, 228-233, 252-255) *)
Definition with_eta (cf : cconfig) {A} (l : list A) : list A := if Nat.eqb (cf_classes cf) 0 then l else [].

(* operator_fluxes_ceed.c:129-287 CreateCeedInteriorFluxSuboperator; [eta] is the eta_vertices vector *)
Definition CreateCeedInteriorFluxSuboperator (cf : cconfig) (m : cmesh) (eta : list R) (dt : R) : option ceed_operator :=
  let* body := interior_body cf dt in
  let nc := num_comp cf in
  let es := owned_internal m in
  let n := length es in
  let* g := omap (interior_geom m) es in
  Some (CeedOp
    (QFunction
       ([("geom", 6%nat); ("q_left", nc); ("q_right", nc)] ++ with_eta cf [("eta_vert_beg", 1%nat); ("eta_vert_end", 1%nat)])
       [("cell_left", nc); ("cell_right", nc); ("flux", nc); ("courant_number", 2%nat)]
       body)
    ([OpField "geom" (strided n 6) (Some (concat g));
      OpField "q_left" (Restriction (map (fun e => left_cell m e * nc)%nat es) nc) None;
      OpField "q_right" (Restriction (map (fun e => right_cell m e * nc)%nat es) nc) None]
     ++ with_eta cf [OpField "eta_vert_beg" (Restriction (map (fun e => vertex_beg m e * 1)%nat es) 1) (Some eta);
                     OpField "eta_vert_end" (Restriction (map (fun e => vertex_end m e * 1)%nat es) 1) (Some eta)]
     ++ [OpField "cell_left" (Restriction (map (fun e => cm_l2o m (left_cell m e) * nc)%nat es) nc) None;
         OpField "cell_right" (Restriction (map (fun e => cm_l2o m (right_cell m e) * nc)%nat es) nc) None;
         OpField "flux" (strided n nc) (Some (repeat 0 (n * nc)));
         OpField "courant_number" (strided n 2) (Some (repeat 0 (n * 2)))])).

(* operator_fluxes_ceed.c:289-378 CreateBoundaryFluxQFunction; [None]: refused *)
Definition boundary_body (cf : cconfig) (ty : condition_type) (dt : R) : option (list (list R) -> option (list (option (list R)))) :=
  let nt := num_tracers cf in
  if Nat.eqb nt 0 then
    match cf_riemann cf with
    | RIEMANN_ROE => Some (SWEBoundaryFlux ty (cf_tiny_h cf) (cf_h_anuga cf) dt)
    | RIEMANN_UPWIND_ROE => None
    end
  else
    match ty with
    | DIRICHLET => Some (TracerBoundaryFlux_Dirichlet (tkind (cf_riemann cf)) nt (cf_tiny_h cf) dt)
    | REFLECTING => Some (TracerBoundaryFlux_Reflecting (tkind (cf_riemann cf)) nt (cf_tiny_h cf) dt)
    | CRITICAL_OUTFLOW => None
    end.

(* operator_fluxes_ceed.c:452-477, 495-517: the owned edges of a boundary with their positions among all
   its edges *)
Definition owned_boundary (m : cmesh) (b : cboundary) : list (nat * nat) :=
  filter (fun p => cm_eowned m (snd p)) (combine (seq 0 (length (cb_edges b))) (cb_edges b)).
Definition boundary_geom (m : cmesh) (e : nat) : option (list R) :=
  let* gl := rdiv (- cm_len m e) (cm_area m (left_cell m e)) in
  Some [cm_sn m e; cm_cn m e; gl; cm_z m (vertex_beg m e); cm_z m (vertex_end m e)].
Definition if_dirichlet (ty : condition_type) {A} (l : list A) : list A := match ty with DIRICHLET => l | _ => [] end.

(* operator_fluxes_ceed.c:418-594 CreateCeedBoundaryFluxSuboperator; the strided vectors have room for all
   edges of the boundary and hold the owned ones first *)
Definition CreateCeedBoundaryFluxSuboperator (cf : cconfig) (m : cmesh) (eta : list R) (dt : R) (b : cboundary) : option ceed_operator :=
  let* body := boundary_body cf (cb_type b) dt in
  let nc := num_comp cf in
  let es := map snd (owned_boundary m b) in
  let n := length es in
  let spare := (length (cb_edges b) - n)%nat in
  let* g := omap (boundary_geom m) es in
  Some (CeedOp
    (QFunction
       ([("geom", 5%nat); ("q_left", nc)] ++ with_eta cf [("eta_vert_beg", 1%nat); ("eta_vert_end", 1%nat)]
        ++ if_dirichlet (cb_type b) [("q_dirichlet", nc)])
       [("cell_left", nc); ("flux", nc); ("courant_number", 1%nat)]
       body)
    ([OpField "geom" (strided n 5) (Some (concat g ++ repeat 0 (spare * 5)));
      OpField "q_left" (Restriction (map (fun e => left_cell m e * nc)%nat es) nc) None]
     ++ with_eta cf [OpField "eta_vert_beg" (Restriction (map (fun e => vertex_beg m e * 1)%nat es) 1) (Some eta);
                     OpField "eta_vert_end" (Restriction (map (fun e => vertex_end m e * 1)%nat es) 1) (Some eta)]
     ++ if_dirichlet (cb_type b)
          [OpField "q_dirichlet" (Restriction (map (fun p => fst p * nc)%nat (owned_boundary m b)) nc) (Some (cb_values b))]
     ++ [OpField "cell_left" (Restriction (map (fun e => cm_l2o m (left_cell m e) * nc)%nat es) nc) None;
         OpField "flux" (strided n nc) (Some (repeat 0 (length (cb_edges b) * nc)));
         OpField "courant_number" (strided n 1) (Some (repeat 0 (length (cb_edges b) * 1)))])).

(* operator_fluxes_ceed.c:604-633 CreateCeedFluxOperator *)
Definition CreateCeedFluxOperator (cf : cconfig) (m : cmesh) (eta : list R) (dt : R) (bs : list cboundary) : option (list ceed_operator) :=
  let* i := CreateCeedInteriorFluxSuboperator cf m eta dt in
  let* l := omap (CreateCeedBoundaryFluxSuboperator cf m eta dt) bs in
  Some (i :: l).

(* operator_fluxes_ceed.c:660-704 CreateCeedEtaVerticesVector: elevations of the vertices *)
Definition initial_eta (m : cmesh) : list R := map (cm_z m) (seq 0 (cm_vertices m)).

(* operator.c:567-588: the local right-hand side after the flux operators *)
Definition flux_rhs (cf : cconfig) (m : cmesh) (eta : list R) (dt : R) (bs : list cboundary) (u : list R) : option (list R) :=
  let* ops := CreateCeedFluxOperator cf m eta dt bs in
  apply_add_all ops u (repeat 0 (num_comp cf * cm_cells m)).

(** ** Boundary fluxes *)

(* operator.c:926-944 ExtractCeedOperatorBoundaryFluxes: entry (e, c) of the strided accumulation
   vector for every edge e of the boundary.  [x] is that vector. *)
Definition extracted_flux (nc : nat) (x : list R) (e c : nat) : option R := nth_error x (e * nc + c).
(* the vector of recorded fluxes after an application: the elements of the operator in order; room for all
   edges of the boundary, the rest keeps its initial zeros *)
Definition flux_vector (op : ceed_operator) (u : list R) (size : nat) : option (list R) :=
  let* l := omap (fun i => let* o := passive_output op u "flux" i in o) (seq 0 (elems op)) in
  Some (concat l ++ repeat 0 (size - length (concat l))).

(* operator.c:974-1007 SetCeedOperatorBoundaryData: components comp_offset .. comp_offset + n - 1 of every
   edge of the q_dirichlet vector, from values[n * e + c] *)
Definition SetCeedOperatorBoundaryData (total comp_offset n num_edges : nat) (values dirichlet : list R) : option (list R) :=
  ofold (fun x c => ofold (fun x e => let* v := nth_error values (n * e + c) in upd x (e * total + (comp_offset + c)) v) (seq 0 num_edges) x)
        (seq 0 n) dirichlet.

(** ** Source operator *)

(* operator_sources_ceed.c:18-66 CreateSourceQFunction; [None]: refused *)
Definition source_body (cf : cconfig) (dt : R) : option (list (list R) -> option (list (option (list R)))) :=
  let nt := num_tracers cf in
  match cf_source cf with
  | SOURCE_SEMI_IMPLICIT =>
    Some (if Nat.eqb nt 0 then SWESources SemiImplicit (cf_tiny_h cf) (cf_h_anuga cf) dt
          else TracerSources true nt (cf_tiny_h cf) (cf_h_anuga cf) dt)
  | SOURCE_IMPLICIT_XQ2018 =>
    if Nat.eqb nt 0 then Some (SWESources (XQ2018 (cf_xq_threshold cf)) (cf_tiny_h cf) (cf_h_anuga cf) dt) else None
  | SOURCE_ARK_IMEX =>
    Some (if Nat.eqb nt 0 then SWESources NoFriction (cf_tiny_h cf) (cf_h_anuga cf) dt
          else TracerSources false nt (cf_tiny_h cf) (cf_h_anuga cf) dt)
  end.

(* CMakeLists.txt:18 *)
Definition NUM_MATERIAL_PROPERTIES : nat := 1.
Definition owned_cells (m : cmesh) : list nat := filter (cm_owned m) (seq 0 (cm_cells m)).

(* operator_sources_ceed.c:106-204 CreateCeedSourceSuboperator, with the fields riemannf,
   primitive_variables and sources of operator.c:224-335; [ext], [mat] and [div] are the vectors of
   external sources, material properties and flux divergences of the owned cells *)
Definition CreateCeedSourceSuboperator (cf : cconfig) (m : cmesh) (ext mat div : list R) (dt : R) : option ceed_operator :=
  let* body := source_body cf dt in
  let nc := num_comp cf in
  let cs := owned_cells m in
  let n := length cs in
  Some (CeedOp
    (QFunction
       [("geom", 2%nat); ("ext_src", nc); ("mat_props", NUM_MATERIAL_PROPERTIES); ("riemannf", nc); ("q", nc)]
       [("cell", nc); ("primitive_variables", nc); ("sources", nc)]
       body)
    [OpField "geom" (strided n 2) (Some (concat (map (fun c => [cm_dzdx m c; cm_dzdy m c]) cs)));
     OpField "ext_src" (strided n nc) (Some ext);
     OpField "mat_props" (strided n NUM_MATERIAL_PROPERTIES) (Some mat);
     OpField "q" (Restriction (map (fun c => c * nc)%nat cs) nc) None;
     OpField "cell" (Restriction (map (fun c => cm_l2o m c * nc)%nat cs) nc) None;
     OpField "riemannf" (strided n nc) (Some div);
     OpField "primitive_variables" (strided n nc) (Some (repeat 0 (n * nc)));
     OpField "sources" (strided n nc) (Some (repeat 0 (n * nc)))]).

(* operator.c:608-637: the global right-hand side (the owned cells of this process) after the source
   operator *)
Definition source_rhs (cf : cconfig) (m : cmesh) (ext mat div : list R) (dt : R) (u : list R) : option (list R) :=
  let* op := CreateCeedSourceSuboperator cf m ext mat div dt in
  apply [op] u (num_comp cf * length (owned_cells m)).
