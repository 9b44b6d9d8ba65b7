(** The vectors for flow, tracers and solution that setup creates for each combination of tracers, and how the initial
    solution gets from one to the other (src/rdydm.c:201-293, src/rdysetup.c:781-877, 913-937, 1058-1064, 1405-1408,
    1491-1503). *)
From Coq Require Import String.
From Verif Require Import Base MeshMapsModel DataModel SetupModel.
Local Notation length := List.length.
Local Open Scope nat_scope.

(** ** DMs *)
(* A DM is represented by its number of degrees of freedom per cell, the sum over its fields, which is also the block
   size of its vectors. *)
Definition dof (fields : list nat) : nat := fold_right Nat.add 0 fields.
Record dms := DMs { dm : nat; flow_dm : nat; tracer_dm : option nat }.   (* None: NULL *)
(* rdydm.c:201-233 *)
Definition tracer_fields (cf : config) : list nat :=
  ((if Nat.ltb 0 (cf_classes cf) then [cf_classes cf] else []) ++ (if cf_has_salinity cf then [1] else []) ++ (if cf_has_heat cf then [1] else []))%list.
Definition CreateTracerDM (cf : config) : option nat :=
  if Nat.ltb 0 (cf_classes cf + (if cf_has_salinity cf then 1 else 0) + (if cf_has_heat cf then 1 else 0)) then Some (dof (tracer_fields cf)) else None.
(* rdydm.c:235-251 *)
Definition CreateFlowDM : nat := dof [3].
(* rdysetup.c:1405-1408, 1494-1500 *)
Definition setup_dms (cf : config) : dms :=
  let dm := dof [3 + num_tracers cf] in
  if negb (Nat.eqb (cf_classes cf) 0) then DMs dm CreateFlowDM (CreateTracerDM cf) else DMs dm dm None.

(** ** Vectors *)
(* block size and entries owned by the process *)
Record vec := Vec { bs : nat; entries : list R }.
(* [flow_global] is None when it is the vector u_global itself; [tracer_global] is None when it is NULL *)
Record vectors := Vectors { u_global : vec; flow_global : option vec; tracer_global : option vec }.
(* rdydm.c:254-293 on a process owning [cells] cells; new vectors hold zeros *)
Definition CreateVectors (cf : config) (d : dms) (cells : nat) : result vectors :=
  let new b := Vec b (repeat 0%R (b * cells)) in
  if negb (Nat.eqb (cf_classes cf) 0) then
    match tracer_dm d with
    | Some t => Ret (Vectors (new (dm d)) (Some (new (flow_dm d))) (Some (new t)))
    | None => Error
    end
  else Ret (Vectors (new (dm d)) None None).

(** ** Initial solution *)
Definition flow_block (v : vectors) : nat := match flow_global v with Some w => bs w | None => bs (u_global v) end.
(* rdysetup.c:781-870: as InitFlowVec of SetupModel, with the block size of the vector at hand *)
Definition fill_flow (nc : nat) (cf : config) (owned : list bool) (l2o : list Z) (rcs : list (region * conditions)) : option (list R) :=
  ofold (fun u f =>
    fill_regions owned l2o nc 0 0 3 (fc_file f) [fc_height f; fc_xmom f; fc_ymom f] (fun rc => Some (String.eqb (fc_name (cd_flow (snd rc))) (fc_name f))) rcs u)
    (cf_flow cf) (repeat 0%R (nc * num_owned owned)).
(* rdysetup.c:781-877; copying within one vector (872-876) starts from what was just filled in *)
Definition InitFlowSolution (cf : config) (owned : list bool) (l2o : list Z) (rcs : list (region * conditions)) (v : vectors) : result (list R) :=
  let ndof := flow_block v in
  let! f := of_option (fill_flow ndof cf owned l2o rcs) in
  let target := match flow_global v with Some _ => entries (u_global v) | None => f end in
  of_option (interleave (bs (u_global v)) 0 ndof (num_owned owned) f target).
(* rdysetup.c:913-1066; VecGetBlockSize of NULL is an error *)
Definition InitTracerSolution (cf : config) (owned : list bool) (l2o : list Z) (rcs : list (region * conditions)) (v : vectors) (u : list R) : result (list R) :=
  if Nat.eqb (cf_classes cf) 0 && negb (cf_has_salinity cf) && negb (cf_has_heat cf) then Ret u else
  match tracer_global v with
  | None => Error
  | Some w =>
    check (Nat.eqb (bs (u_global v)) (flow_block v + bs w))
      (let! t := of_option (InitTracerVec cf owned l2o rcs) in
       of_option (interleave (bs (u_global v)) (flow_block v) (bs w) (num_owned owned) t u))
  end.
(* the part of RDySetup (rdysetup.c:1405-1534) concerned *)
Definition SetupSolution (cf : config) (owned : list bool) (l2o : list Z) (rcs : list (region * conditions)) : result (list R) :=
  let! v := CreateVectors cf (setup_dms cf) (num_owned owned) in
  let! u := InitFlowSolution cf owned l2o rcs v in
  InitTracerSolution cf owned l2o rcs v u.
