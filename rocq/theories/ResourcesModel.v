(** Who creates, shares and releases the objects of a simulation: RDyCreate, RDySetup, RDyAdvance,
    RDyMarkOwnedCellsForAMR, RDyPerformAMR, RDyDestroy (src/rdycore.c, src/rdysetup.c, src/rdyadvance.c, src/rdyamr.c,
    src/rdydm.c, src/operator.c, src/time_series.c).  Every function is the list of what it does to handles; what the
    objects contain is modelled elsewhere. *)
From Verif Require Import Base SetupModel GridModel.
Local Open Scope nat_scope.

(** ** Where handles are kept *)
(* Fields of RDy (rdycoreimpl.h), of its operator (rdyoperatorimpl.h) and of its time series, then local variables.
   Simplifications: the arrays of RDyCells, RDyEdges and RDyVertices are one object each, as are the six vectors of
   mesh.output; so are a PetscOperator or CeedOperator with its suboperators and contexts, the forcing with its data
   sets, and the arrays that DestroyOperator and RDyPerformAMR allocate and free together (gradients, cell maps). *)
Inductive single :=
  | Rdy | Comm
  | Dm | Dm1 | FlowDm | TracerDm | DmBase | Dm1Base
  | BaseToCurrentN | CurrentToBaseN | BaseToCurrent1 | CurrentToBase1 | RefineCell
  | UGlobal | Rhs | ULocal | Vec1 | SolnAccum | FlowG | FlowL | TracerG | TracerL
  | MeshCells | MeshEdges | MeshVertices | MeshOutput
  | Regions | InitialConditions | Sources | BoundaryConditions | Boundaries
  | Ts | Oper | Forcing | Viewer | ViewerFormat
  (* soln_output, prim_vars_output, src_output: references to vectors of others *)
  | SolnInst | PrimOut | PrimAccumOut | SrcOut | SrcAccumOut | CPrimOut | CPrimAccumOut | CSrcOut | CSrcAccumOut
  (* time_series_data *)
  | NumLocalEdges | FluxMd | Offsets | Fluxes | ObsAccum | SitesXYZ | SitesU | ScatterU
  (* the operator *)
  | OpDm | FluxDiv | Prim | PrimAccum | SrcInst | SrcAccum
  | PValues | PFluxes | PFluxesAccum | ExternalSources | MaterialProperties | PFlux | PSource
  | CULocal | CRhs | CSources | CEta | CEtaOp | CFlux | CSource | CMuscl | CReconstructed | CGradients | CFluxDiv
  | CPrim | CPrimAccum | CSrcInst | CSrcAccum
  (* local variables *)
  | DmOverlap | LocalDm | EtaLocal | DmFine | C2FN | F2CN | C2F1 | F2C1 | UCoarse | UFine | CellMaps | RefinedRegions
  | AdaptLabel | Product.
Scheme Equality for single.
(* arrays of handles: of each region, of each boundary, of each boundary of the operator *)
Inductive family := RegionCells | RegionOwned | RefinedCells | RefinedOwned | BoundaryEdges | FluxAccumulated | Values | BFluxes | BFluxesAccum.
Scheme Equality for family.
Inductive slot := One (x : single) | Elem (f : family) (i : nat).
Definition slot_eqb (s t : slot) : bool :=
  match s, t with
  | One x, One y => single_beq x y
  | Elem f i, Elem g j => (family_beq f g && Nat.eqb i j)%bool
  | _, _ => false
  end.
(* the number of regions; the numbers of boundaries before and after the call *)
Inductive size := NumRegions | NumBoundaries | NewBoundaries.

(** ** Objects *)
(* An object has the references its creator and DMSetCoarseDM etc. left: [fst]: handles not yet given back (1 at its
   creation); [snd]: the objects it holds a reference to (a vector to the DM it was made from, TS to DM and vectors). *)
Record mem := Mem { m_objs : list (nat * list nat); m_ptr : slot -> option nat }.
Definition empty_mem : mem := Mem [] (fun _ => None).
(* PETSc and CEED count references: an object exists as long as a handle is left or an existing object holds it. *)
Fixpoint alive_in (fuel : nat) (objs : list (nat * list nat)) (o : nat) : bool :=
  match nth_error objs o with
  | None => false
  | Some (S _, _) => true
  | Some (0, _) =>
      match fuel with
      | 0 => false
      | S k => existsb (fun p => match nth_error objs p with
                                 | Some (_, held) => if existsb (Nat.eqb o) held then alive_in k objs p else false
                                 | None => false end) (seq 0 (length objs))
      end
  end.
Definition alive (m : mem) (o : nat) : bool := alive_in (length (m_objs m)) (m_objs m) o.
Definition set_ptr (m : mem) (s : slot) (v : option nat) : mem := Mem (m_objs m) (fun t => if slot_eqb t s then v else m_ptr m t).
(* using a handle that is NULL or whose object is gone is undefined *)
Definition deref (m : mem) (s : slot) : result nat :=
  match m_ptr m s with Some o => if alive m o then Ret o else UB | None => UB end.

Inductive instr :=
  | New (x : single) (holds : list single)     (* create; the new object keeps references to those *)
  | NewEach (f : family) (n : size)
  | Destroy (x : single)                       (* XxxDestroy(&x), PetscFree(x): nothing if NULL; sets x to NULL *)
  | DestroyEach (f : family) (n : size)
  | Free (x : single)                          (* the same on a copy of the handle: x keeps its value *)
  | Assign (x y : single)                      (* x = y *)
  | AssignEach (f g : family) (n : size)
  | Clear (x : single)                         (* x = NULL, or x ceases to exist *)
  | ClearEach (f : family) (n : size)
  | Hold (x y : single)                        (* x takes a reference to y *)
  | Use (x : single)
  | IfSet (x : single) (p : list single).      (* if (x) { destroy each of p } *)

Definition create (m : mem) (s : slot) (holds : list nat) : mem :=
  set_ptr (Mem (m_objs m ++ [(1, holds)]) (m_ptr m)) s (Some (length (m_objs m))).
(* giving back a handle that was already given back is undefined *)
Definition release (m : mem) (s : slot) : result mem :=
  match m_ptr m s with
  | None => Ret m
  | Some o => match nth_error (m_objs m) o with
              | Some (S r, held) => of_option (option_map (fun objs => Mem objs (m_ptr m)) (upd (m_objs m) o (r, held)))
              | _ => UB
              end
  end.
Definition destroy (m : mem) (s : slot) : result mem := let! m := release m s in Ret (set_ptr m s None).
Definition assign (m : mem) (s t : slot) : mem := set_ptr m s (m_ptr m t).
Definition exec (sz : size -> nat) (m : mem) (i : instr) : result mem :=
  match i with
  | New x holds => let! ids := rmap (fun h => deref m (One h)) holds in Ret (create m (One x) ids)
  | NewEach f n => rfold (fun m i => Ret (create m (Elem f i) [])) (seq 0 (sz n)) m
  | Destroy x => destroy m (One x)
  | DestroyEach f n => rfold (fun m i => destroy m (Elem f i)) (seq 0 (sz n)) m
  | Free x => release m (One x)
  | Assign x y => Ret (assign m (One x) (One y))
  | AssignEach f g n => rfold (fun m i => Ret (assign m (Elem f i) (Elem g i))) (seq 0 (sz n)) m
  | Clear x => Ret (set_ptr m (One x) None)
  | ClearEach f n => rfold (fun m i => Ret (set_ptr m (Elem f i) None)) (seq 0 (sz n)) m
  | Hold x y =>
      let! o := deref m (One x) in
      let! q := deref m (One y) in
      let! a := of_option (nth_error (m_objs m) o) in
      of_option (option_map (fun objs => Mem objs (m_ptr m)) (upd (m_objs m) o (fst a, q :: snd a)))
  | Use x => let! _ := deref m (One x) in Ret m
  | IfSet x p => match m_ptr m (One x) with Some _ => rfold (fun m y => destroy m (One y)) p m | None => Ret m end
  end.
Definition execs (sz : size -> nat) (p : list instr) (m : mem) : result mem := rfold (exec sz) p m.

(** ** Configuration *)
Inductive balancing := NoBalancing | BS2002 | HR.
Record cfg := Cfg {
  cf_ceed : bool; cf_second_order : bool; cf_balancing : balancing;
  cf_sediment : bool;               (* num_classes > 0; salinity and heat are not modelled here *)
  cf_sources : bool;                (* config.num_sources > 0 *)
  cf_fluxes : bool; cf_observations : bool;
  cf_viewer : bool;                 (* output is enabled with a format other than none and CGNS *)
  cf_restart : bool;                (* from a checkpoint taken after the first step *)
  cf_parallel : bool; cf_root : bool;   (* more than one process; this one is process 0 *)
  cf_edges : bool;                  (* this process has edges on a boundary with a configured condition *)
  cf_some_edges : bool              (* some process has *)
}.
(* operator.c:355-359, 391-393 *)
Definition accepted (c : cfg) : bool :=
  negb (cf_second_order c && (cf_sediment c || match cf_balancing c with HR => true | _ => false end)).

(** ** The functions *)
(* rdycore.c:158-173; the configuration, its parsers and the log file (yaml_input.c, read by RDySetup) are left out *)
Definition RDyCreate : list instr := [New Rdy []; New Comm []].
(* rdydm.c:82-188: the DM with overlap replaces the first one *)
Definition CreateDM (c : cfg) : list instr :=
  New Dm [] :: if cf_parallel c then [Use Dm; New DmOverlap []; Destroy Dm; Assign Dm DmOverlap; Clear DmOverlap] else [].
(* rdydm.c:54-77: DMClone does not keep the original *)
Definition CreateCellCenteredDMFromDM (x : single) : list instr := [Use Dm; New x []].
(* rdydm.c:191-197 *)
Definition CreateAuxiliaryDMs : list instr := CreateCellCenteredDMFromDM Dm1.
(* rdydm.c:254-292: a vector keeps the DM it was made from, and so does its duplicate *)
Definition CreateVectors (c : cfg) : list instr :=
  [New UGlobal [Dm]; New Rhs [Dm]; New ULocal [Dm]; New Vec1 [Dm1]; New SolnAccum [Dm]; Assign SolnInst UGlobal] ++
  if cf_sediment c then [New FlowG [FlowDm]; New FlowL [FlowDm]; New TracerG [TracerDm]; New TracerL [TracerDm]]
  else [Assign FlowG UGlobal; Assign FlowL ULocal].
(* rdycore.c:191-203 *)
Definition RDyDestroyVectors : list instr := [Destroy Rhs; Destroy UGlobal; Destroy ULocal; Destroy Vec1; Destroy SolnAccum].
(* rdymesh.c:1391-1440; the DM made for the output vectors (1294-1326) is destroyed at the end *)
Definition RDyMeshCreateFromDM : list instr :=
  [Clear MeshCells; Clear MeshEdges; Clear MeshVertices; Clear MeshOutput] ++
  [Use Dm; New MeshCells []; New MeshEdges []; New MeshVertices []] ++ CreateCellCenteredDMFromDM LocalDm ++ [New MeshOutput [LocalDm]; Destroy LocalDm].
(* rdymesh.c:1446-1472: the mesh is passed by value *)
Definition RDyMeshDestroy : list instr := [Free MeshCells; Free MeshEdges; Free MeshVertices; Free MeshOutput].
(* rdysetup.c:180-280: an array without elements is counted like any other *)
Definition InitRegions : list instr := [New Regions []; NewEach RegionCells NumRegions; NewEach RegionOwned NumRegions].
(* rdycore.c:206-217 for every region, and the array *)
Definition DestroyRegions : list instr := [DestroyEach RegionOwned NumRegions; DestroyEach RegionCells NumRegions; Destroy Regions].
(* rdysetup.c:283-501, 448, 478 *)
Definition InitBoundaries : list instr := [New Boundaries []; NewEach BoundaryEdges NewBoundaries].
(* rdycore.c:222-234: with the array go the handles in it, among them flux_accumulated (rdyboundaryimpl.h:15) *)
Definition RDyDestroyBoundaries (n : size) : list instr := [DestroyEach BoundaryEdges n; ClearEach FluxAccumulated n; Destroy Boundaries].
(* operator.c:24-44, 79-99, 102-133, 140-216, 220-332, 345-415 with rdysetup.c:1102-1112.  flux_accumulated:
   operator_fluxes_ceed.c:502; the vertex values of the HR operator: operator_fluxes_hydro_recon_ceed.c:246-255 *)
Definition CreateOperator (c : cfg) : list instr :=
  [Use UGlobal; Use Dm; New Oper []; Assign OpDm Dm] ++
  (if cf_ceed c then [New CULocal []; New CRhs []; New CSources []] else []) ++
  (if cf_ceed c then [] else [Use OpDm; New PValues []; New PFluxes []; New PFluxesAccum []; NewEach Values NewBoundaries; NewEach BFluxes NewBoundaries; NewEach BFluxesAccum NewBoundaries]) ++
  (if cf_ceed c then [] else [Use OpDm; New ExternalSources []; New MaterialProperties []]) ++
  [Use OpDm] ++
  (if cf_ceed c then
     match cf_balancing c with
     | HR => [New EtaLocal []; NewEach FluxAccumulated NewBoundaries; New CFlux [EtaLocal]; Destroy EtaLocal]
     | b =>
         [New CEta []] ++ (match b with BS2002 => [New CEtaOp [CEta]] | _ => [] end) ++
         (if cf_second_order c then [New CReconstructed []; New CMuscl [CEta; CReconstructed]] else []) ++
         [NewEach FluxAccumulated NewBoundaries; New CFlux [CEta]] ++
         (if cf_second_order c then [New CGradients []] else [])
     end ++ [New CSource []]
   else [New PFlux []; New PSource []]) ++
  [New FluxDiv [OpDm]] ++ (if cf_ceed c then [New CFluxDiv []] else []) ++
  [New Prim [OpDm]; New PrimAccum [OpDm]] ++ (if cf_ceed c then [New CPrim []; New CPrimAccum []] else []) ++
  [New SrcInst [OpDm]; New SrcAccum [OpDm]] ++ (if cf_ceed c then [New CSrcInst []; New CSrcAccum []] else []).
(* operator.c:421-493; then the fields of the operator are gone *)
Definition operator_fields : list single :=
  [OpDm; FluxDiv; Prim; PrimAccum; SrcInst; SrcAccum; PValues; PFluxes; PFluxesAccum; ExternalSources; MaterialProperties; PFlux; PSource;
   CULocal; CRhs; CSources; CEta; CEtaOp; CFlux; CSource; CMuscl; CReconstructed; CGradients; CFluxDiv; CPrim; CPrimAccum; CSrcInst; CSrcAccum].
Definition DestroyOperator (c : cfg) (n : size) : list instr :=
  [Use OpDm] ++
  (if cf_ceed c then
     [Destroy CFlux; Destroy CSource; Destroy CULocal; Destroy CRhs; Destroy CSources; Destroy CEta; Destroy CFluxDiv] ++
     (if cf_second_order c then [Destroy CMuscl; Destroy CReconstructed; Destroy CGradients] else []) ++
     [Destroy CPrim; Destroy CPrimAccum; Destroy CSrcInst; Destroy CSrcAccum]
   else
     [DestroyEach Values n; DestroyEach BFluxes n; DestroyEach BFluxesAccum n; Destroy PValues; Destroy PFluxes; Destroy PFluxesAccum;
      Destroy ExternalSources; Destroy MaterialProperties; Destroy PFlux; Destroy PSource]) ++
  [Destroy FluxDiv; Destroy Prim; Destroy PrimAccum; Destroy SrcInst; Destroy SrcAccum; Destroy Oper] ++ map Clear operator_fields.
(* rdysetup.c:1531-1542, rdyamr.c:677-688 *)
Definition WireOutput : list instr :=
  [Assign PrimOut Prim; Assign PrimAccumOut PrimAccum; Assign CPrimOut CPrim; Assign CPrimAccumOut CPrimAccum;
   Assign SrcOut SrcInst; Assign SrcAccumOut SrcAccum; Assign CSrcOut CSrcInst; Assign CSrcAccumOut CSrcAccum].
(* rdysetup.c:1174-1216: the TS keeps the DM, the right-hand side and the solution *)
Definition InitSolver : list instr := [Use UGlobal; New Ts [Dm; Rhs; UGlobal]].
(* rdysetup.c:1372-1575 *)
Definition RDySetup (c : cfg) : list instr :=
  CreateDM c ++ CreateAuxiliaryDMs ++ [Assign DmBase Dm; Assign Dm1Base Dm1] ++
  (if cf_sediment c then CreateCellCenteredDMFromDM FlowDm ++ CreateCellCenteredDMFromDM TracerDm else [Assign FlowDm Dm]) ++
  CreateVectors c ++ RDyMeshCreateFromDM ++ InitRegions ++ [New InitialConditions []] ++ (if cf_sources c then [New Sources []] else []) ++
  InitBoundaries ++ [New BoundaryConditions []] ++ [Use FlowG] ++ (if cf_sediment c then [Use TracerG] else []) ++
  CreateOperator c ++ WireOutput ++ InitSolver ++ [New Forcing []].
(* rdyadvance.c:178-235, 153-158 *)
Definition CreateOutputViewer (c : cfg) : list instr :=
  if cf_viewer c then [Destroy Viewer; New Viewer []; Destroy ViewerFormat; New ViewerFormat [Viewer]] else [].
Definition DestroyOutputViewer : list instr := [Destroy ViewerFormat; Destroy Viewer].
(* time_series.c:65-117, 165-250, 253-266: PetscCalloc1 of nothing leaves NULL; the coordinates exist on process 0 only *)
Definition InitTimeSeries (c : cfg) : list instr :=
  map Clear [NumLocalEdges; FluxMd; Offsets; Fluxes; ObsAccum; SitesXYZ; SitesU; ScatterU] ++
  (if cf_fluxes c then [New Offsets []; New NumLocalEdges []] ++ (if (cf_root c && cf_some_edges c)%bool then [New FluxMd []] else []) ++ (if cf_edges c then [New Fluxes []] else []) else []) ++
  (if cf_observations c then [Use UGlobal; New ObsAccum [UGlobal]; New SitesU []; New ScatterU []] ++ (if cf_root c then [New SitesXYZ []] else []) else []).
(* time_series.c:567-584 *)
Definition DestroyTimeSeries : list instr := [IfSet Fluxes [NumLocalEdges; FluxMd; Offsets; Fluxes]; IfSet SitesXYZ [SitesU; ScatterU; SitesXYZ]].
(* the solver and the output read these (rdyadvance.c, xdmf_output.c) *)
Definition UseFields (c : cfg) : list instr :=
  [Use Ts; Use UGlobal; Use OpDm; Use SolnInst; Use SolnAccum; Use PrimOut; Use PrimAccumOut; Use SrcOut; Use SrcAccumOut] ++
  if cf_ceed c then [Use CPrimOut; Use CPrimAccumOut; Use CSrcOut; Use CSrcAccumOut] else [].
(* rdyamr.c:449-467: [keep] is multiplied from one side and replaced by the product *)
Definition MatMultResuse (a b keep : single) : list instr := [Use a; Use b; New Product []; Destroy keep; New keep []; Destroy Product].
Definition amr_locals : list single := [DmFine; C2FN; F2CN; C2F1; F2C1; UCoarse; UFine; CellMaps; RefinedRegions; AdaptLabel; Product].
(* rdyamr.c:165-222, 482-716; [marked]: cells_marked_for_refinement; [refined]: num_refinements > 0 *)
Definition RDyPerformAMR (c : cfg) (marked refined : bool) : list instr :=
  [Use UGlobal; Use Dm; New AdaptLabel []] ++ (if marked then [Destroy RefineCell] else []) ++
  [New DmFine []; Destroy AdaptLabel; New C2FN []; New F2CN []; New C2F1 []; New F2C1 []] ++
  [Hold DmFine Dm; Use ULocal; New UCoarse [Dm]; New UFine [DmFine]; New CellMaps []] ++
  [New RefinedRegions []; NewEach RefinedCells NumRegions; NewEach RefinedOwned NumRegions; Destroy CellMaps] ++
  [Use Dm; Use UGlobal; Use UCoarse] ++ RDyDestroyVectors ++
  (if refined then
     [Destroy Dm; Destroy Dm1] ++
     MatMultResuse C2FN BaseToCurrentN BaseToCurrentN ++ MatMultResuse CurrentToBaseN F2CN CurrentToBaseN ++
     MatMultResuse C2F1 BaseToCurrent1 BaseToCurrent1 ++ MatMultResuse CurrentToBase1 F2C1 CurrentToBase1
   else [Assign DmBase Dm; Assign Dm1Base Dm1; New BaseToCurrentN []; New CurrentToBaseN []; New BaseToCurrent1 []; New CurrentToBase1 []]) ++
  [Assign Dm DmFine; Assign FlowDm Dm] ++ CreateAuxiliaryDMs ++ CreateVectors c ++ DestroyRegions ++
  [Assign Regions RefinedRegions; AssignEach RegionCells RefinedCells NumRegions; AssignEach RegionOwned RefinedOwned NumRegions] ++
  RDyMeshDestroy ++ RDyMeshCreateFromDM ++
  [Use C2FN; Use UCoarse; Use ULocal; Use Dm; Use UGlobal; Destroy C2FN; Destroy F2CN; Destroy C2F1; Destroy F2C1; Destroy UCoarse; Destroy UFine] ++
  DestroyOperator c NumBoundaries ++ RDyDestroyBoundaries NumBoundaries ++ InitBoundaries ++ CreateOperator c ++ WireOutput ++
  [Use Ts; Destroy Ts] ++ InitSolver ++ map Clear amr_locals.
(* rdycore.c:238-301; with the RDy go its fields.  The process is assumed to have cells: without any, its mesh is kept (242). *)
Definition fields : list single :=
  [Comm; Dm; Dm1; FlowDm; TracerDm; DmBase; Dm1Base; BaseToCurrentN; CurrentToBaseN; BaseToCurrent1; CurrentToBase1; RefineCell;
   UGlobal; Rhs; ULocal; Vec1; SolnAccum; FlowG; FlowL; TracerG; TracerL; MeshCells; MeshEdges; MeshVertices; MeshOutput;
   Regions; InitialConditions; Sources; BoundaryConditions; Boundaries; Ts; Oper; Forcing; Viewer; ViewerFormat;
   SolnInst; PrimOut; PrimAccumOut; SrcOut; SrcAccumOut; CPrimOut; CPrimAccumOut; CSrcOut; CSrcAccumOut;
   NumLocalEdges; FluxMd; Offsets; Fluxes; ObsAccum; SitesXYZ; SitesU; ScatterU].
Definition RDyDestroy (c : cfg) (refined : bool) : list instr :=
  RDyMeshDestroy ++ [Destroy InitialConditions; Destroy Sources; Destroy BoundaryConditions] ++ DestroyRegions ++ RDyDestroyBoundaries NumBoundaries ++
  [Destroy Ts] ++ RDyDestroyVectors ++ DestroyOperator c NumBoundaries ++ [Destroy Forcing] ++ DestroyTimeSeries ++
  [Destroy Dm1; Destroy Dm] ++
  (if refined then [Destroy DmBase; Destroy Dm1Base; Destroy BaseToCurrentN; Destroy CurrentToBaseN; Destroy BaseToCurrent1; Destroy CurrentToBase1] else []) ++
  [Destroy Comm] ++ map Clear fields ++ [Destroy Rdy].

(** ** Histories *)
Inductive event :=
  | Mark                        (* RDyMarkOwnedCellsForAMR, rdyamr.c:46-61 *)
  | Refine (boundaries : nat)   (* RDyPerformAMR; the number of boundaries found on the new mesh *)
  | Advance (last : bool).      (* RDyAdvance, rdyadvance.c:261-375; whether the final time is reached *)
Record phase := Phase { ph_started : bool; ph_marked : bool; ph_refined : bool; ph_pending : bool; ph_boundaries : nat }.
Definition event_prog (c : cfg) (ph : phase) (e : event) : list instr :=
  match e with
  | Mark => [New RefineCell []]
  | Refine _ => RDyPerformAMR c (ph_marked ph) (ph_refined ph)
  | Advance last =>
      (if ph_started ph then [] else CreateOutputViewer c ++ if cf_restart c then [] else InitTimeSeries c) ++
      (if ph_pending ph then CreateOutputViewer c else []) ++ UseFields c ++ (if last then DestroyOutputViewer else [])
  end.
Definition next_phase (ph : phase) (e : event) : phase :=
  match e with
  | Mark => Phase (ph_started ph) true (ph_refined ph) (ph_pending ph) (ph_boundaries ph)
  | Refine b => Phase (ph_started ph) false true true b
  | Advance _ => Phase true (ph_marked ph) (ph_refined ph) false (ph_boundaries ph)
  end.
Definition sizes (regions before after : nat) (n : size) : nat := match n with NumRegions => regions | NumBoundaries => before | NewBoundaries => after end.
Definition event_sizes (regions : nat) (ph : phase) (e : event) : size -> nat :=
  sizes regions (ph_boundaries ph) (match e with Refine b => b | _ => ph_boundaries ph end).
Definition history (c : cfg) (regions : nat) (s : mem * phase) (evs : list event) : result (mem * phase) :=
  rfold (fun s e => let! m := execs (event_sizes regions (snd s) e) (event_prog c (snd s) e) (fst s) in Ret (m, next_phase (snd s) e)) evs s.
(* a simulation from RDyCreate to RDyDestroy *)
Definition simulation (c : cfg) (regions boundaries : nat) (evs : list event) : result mem :=
  let! m := execs (sizes regions 0 boundaries) RDyCreate empty_mem in
  check (accepted c)
  (let! m := execs (sizes regions 0 boundaries) (RDySetup c) m in
   let! s := history c regions (m, Phase false false false false boundaries) evs in
   execs (sizes regions (ph_boundaries (snd s)) 0) (RDyDestroy c (ph_refined (snd s))) (fst s)).
(* handles that were never given back *)
Definition outstanding (m : mem) : nat := fold_right (fun o n => fst o + n) 0 (m_objs m).
