(** What a refinement of the mesh does to the data of a simulation: regions, external sources, Manning coefficients,
    boundary values, solution, time (src/rdyamr.c:482-716, src/rdysetup.c).  One process is modelled, as in AMRModel. *)
From Coq Require Import String.
From Verif Require Import Base TimeModel MeshMapsModel DataModel SetupModel.
From Verif Require AMRModel.
Local Open Scope nat_scope.
Local Notation length := List.length.

(* What is configured: rdy->config, rdy->sources (rdysetup.c InitSources) and rdy->boundary_conditions
   (InitBoundaryConditions); none of them is touched by a refinement. *)
Record settings := Settings { se_config : config; se_sources : list (option flow_condition); se_conditions : list boundary_conditions }.
Definition result_of {A} (x : outcome A) : result A := match x with Ok a => Ret a | Err _ => Error | Undef => UB end.

(* InitOperator (rdysetup.c:1102-1112): a new operator; its vectors of sources, material properties and boundary values
   are zero (operator.c:46-75, 92-96, 121-128: VecSetUp of a sequential vector; CeedVectorSetValue 0 with CEED). *)
Definition new_operator (st : rdy) (owned : nat) (regions : list region) (boundaries : list boundary) : rdy :=
  Rdy (r_ceed st) (r_second_order st) (r_classes st) (r_salinity st) (r_heat st) (r_ncomp st) owned regions boundaries (r_conds st)
      (repeat 0%R (r_ncomp st * owned)) (repeat 0%R owned) (map (fun b => repeat 0%R (r_ncomp st * length (bd_edges b))) boundaries).
(* The calls that follow InitOperator, in RDySetup (rdysetup.c:1529-1555) and in RDyPerformAMR (rdyamr.c:675-714):
   InitMaterialProperties, InitDirichletBoundaryConditions, InitSourceConditions.  The conditions were allocated for the
   boundaries there were at set-up: reading beyond them is undefined. *)
Definition configure (se : settings) (is_owned : list bool) (l2o : list Z) (st : rdy) : result rdy :=
  let! mat := InitMaterialProperties (se_config se) is_owned l2o (r_regions st) (r_mat st) in
  if length (se_conditions se) <? length (r_boundaries st) then UB else
  let! st := result_of (InitDirichlet (combine (r_boundaries st) (se_conditions se)) (with_mat st mat)) in
  result_of (InitSourceConditions (se_sources se) st).

Record sim := Sim {
  sm_data : rdy;                                      (* operator, regions, boundaries *)
  sm_solution : list R;                               (* local solution vector *)
  sm_run : run_state;                                 (* TS and the operator's diagnostics *)
  sm_is_owned : list bool; sm_l2o : list Z; sm_o2l : list nat   (* mesh.cells *)
}.
(* rdyamr.c:366-437: what is used of a coarse region; an id of -1 would be used as an index *)
Definition seen_region (g : region) : AMRModel.region :=
  AMRModel.Region (rg_id g) (rg_cells g) (map (fun z => if (z <? 0)%Z then None else Some (Z.to_nat z)) (rg_owned g)).
(* rdyamr.c:343, 359-364: id and name are copied; the index is not, and stays the 0 that PetscCalloc1 left *)
Definition fine_region (coarse : region) (fine : AMRModel.region) : region :=
  Region 0 (AMRModel.rg_id fine) (rg_name coarse) (AMRModel.rg_local fine)
         (map (fun o => match o with Some n => Z.of_nat n | None => (-1)%Z end) (AMRModel.rg_owned fine)).
(* What the adapted DM gives: the pieces of every cell, the number of cells, which of them are owned (rdymesh.c), and the
   boundaries InitBoundaries finds (rdysetup.c:283-501). *)
Record adapted := Adapted { ad_tree : AMRModel.tree; ad_fine : nat; ad_is_owned : list bool; ad_boundaries : list boundary }.
(* rdyamr.c:482-716 *)
Definition refine (se : settings) (s : sim) (a : adapted) : result sim :=
  let st := sm_data s in
  (* 519-588 *)
  let! m := of_option (AMRModel.ConstructRefineTree (r_ncomp st) (ad_fine a) (ad_tree a)) in
  let! tb := of_option (AMRModel.DetermineCoarseToFineCellMapping (r_ncomp st) (fst m) (sm_is_owned s)) in
  let! fine := of_option (AMRModel.CreateRefinedRegionsFromCoarseRDy tb (sm_o2l s) (map seen_region (r_regions st))) in
  let regions := map (fun cf => fine_region (fst cf) (snd cf)) (combine (r_regions st) fine) in
  (* 648-649: the new mesh *)
  let! num := of_option (number_cells (ad_is_owned a)) in
  (* 658 *)
  let! u := of_option (AMRModel.MatMult (fst m) (sm_solution s)) in
  (* 668-691, 710-713 *)
  let! st := configure se (ad_is_owned a) (fst num) (new_operator st (num_owned (ad_is_owned a)) regions (ad_boundaries a)) in
  (* 693-707: time, step number and time step of the TS are restored; the diagnostics of the new operator are empty *)
  Ret (Sim st u (RunState (rs_time (sm_run s)) (rs_step (sm_run s)) (rs_dt (sm_run s)) 0 false)
           (ad_is_owned a) (fst num) (map Z.to_nat (snd num))).
