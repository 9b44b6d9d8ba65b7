(** Data of the operator reached through the API: external sources, material properties, Dirichlet
    boundary values (src/rdydata.c, src/operator.c). *)
From Verif Require Import Base MeshMapsModel.
From Coq Require Import String.
Local Open Scope nat_scope.
Local Notation length := List.length.

(* Array access with a signed index; None = out of bounds (undefined behaviour in C). *)
Definition zget {A} (l : list A) (i : Z) : option A := if (i <? 0)%Z then None else nth_error l (Z.to_nat i).
Definition zset {A} (l : list A) (i : Z) (x : A) : option (list A) := if (i <? 0)%Z then None else upd l (Z.to_nat i) x.

(* An API call succeeds, returns an error (with the state it leaves behind), or has undefined behaviour. *)
Inductive outcome (S : Type) := Ok (s : S) | Err (s : S) | Undef.
Arguments Ok {S}. Arguments Err {S}. Arguments Undef {S}.
Definition defined {S} (x : option S) : outcome S := match x with Some s => Ok s | None => Undef end.

Inductive ctype := CONDITION_DIRICHLET | CONDITION_NEUMANN | CONDITION_REFLECTING | CONDITION_CRITICAL_OUTFLOW | CONDITION_RUNOFF.
Definition is_dirichlet (t : ctype) : bool := match t with CONDITION_DIRICHLET => true | _ => false end.
(* RDyCondition: pointers to conditions, None = NULL (only the types matter here) *)
Record bcond := BCond { bc_flow : option ctype; bc_sediment : option ctype; bc_salinity : option ctype; bc_temperature : option ctype }.

(* The parts of RDy and Operator the data API uses.  [r_ncomp] is op->num_components; r_src, r_mat and
   r_bvals are the PETSc vectors external_sources, material_properties and boundary_values, or the vectors
   behind the CEED fields "ext_src", "mat_props" and "q_dirichlet" (same layouts: values[i][c] of an array
   of rows of num_comp entries is entry num_comp*i + c). *)
Record rdy := Rdy {
  r_ceed : bool; r_second_order : bool;
  r_classes : nat; r_salinity : bool; r_heat : bool;
  r_ncomp : nat; r_owned : nat;
  r_regions : list region; r_boundaries : list boundary; r_conds : list bcond;
  r_src : list R; r_mat : list R; r_bvals : list (list R)
}.
Definition with_src (st : rdy) (d : list R) : rdy :=
  Rdy (r_ceed st) (r_second_order st) (r_classes st) (r_salinity st) (r_heat st) (r_ncomp st) (r_owned st) (r_regions st) (r_boundaries st) (r_conds st) d (r_mat st) (r_bvals st).
Definition with_mat (st : rdy) (d : list R) : rdy :=
  Rdy (r_ceed st) (r_second_order st) (r_classes st) (r_salinity st) (r_heat st) (r_ncomp st) (r_owned st) (r_regions st) (r_boundaries st) (r_conds st) (r_src st) d (r_bvals st).
Definition with_bvals (st : rdy) (d : list (list R)) : rdy :=
  Rdy (r_ceed st) (r_second_order st) (r_classes st) (r_salinity st) (r_heat st) (r_ncomp st) (r_owned st) (r_regions st) (r_boundaries st) (r_conds st) (r_src st) (r_mat st) d.

(** ** Regional and domain data (operator.c:1110-1196, 1296-1400) *)
Definition at_ (nc : nat) (cell : Z) (c : nat) : Z := (Z.of_nat nc * cell + Z.of_nat c)%Z.
(* operator.c:1128-1135, 1170-1177: region_data->values[c][i] = data[num_comp * ids[i] + c] *)
Definition get_rows (nc : nat) (ids : list Z) (data : list R) : option (list (list R)) :=
  omap (fun c => omap (fun id => zget data (at_ nc id c)) ids) (seq 0 nc).
(* operator.c:1149-1154, 1188-1193: data[num_comp * ids[i] + c] = region_data->values[c][i] *)
Definition put_rows (nc : nat) (ids : list Z) (values : list (list R)) (data : list R) : option (list R) :=
  ofold (fun d c =>
    ofold (fun d i => let* id := nth_error ids i in let* row := nth_error values c in let* v := nth_error row i in zset d (at_ nc id c) v)
          (seq 0 (length ids)) d) (seq 0 nc) data.
(* the loops over the domain use the index i itself (operator.c:1310-1314, 1330-1334, 1352-1356, 1370-1374) *)
Definition domain_ids (n : nat) : list Z := map Z.of_nat (seq 0 n).

(* rdydata.c:240-242 and alike: values[component][c] = f(c) for c < n *)
Definition fill_component (component : Z) (n : nat) (f : nat -> option R) (values : list (list R)) : option (list (list R)) :=
  ofold (fun vs i => let* v := f i in let* row := zget vs component in let* row' := upd row i v in zset vs component row') (seq 0 n) values.

(* Get..., modify, Restore... on the external sources *)
Definition edit_src (st : rdy) (ids : list Z) (component : Z) (n : nat) (f : nat -> option R) : option rdy :=
  let* vs := get_rows (r_ncomp st) ids (r_src st) in
  let* vs' := fill_component component n f vs in
  let* d := put_rows (r_ncomp st) ids vs' (r_src st) in Some (with_src st d).
Definition NUM_MATERIAL_PROPERTIES : nat := 1.
Definition MATERIAL_PROPERTY_MANNINGS : Z := 0.
Definition edit_mat (st : rdy) (ids : list Z) (n : nat) (f : nat -> option R) : option rdy :=
  let* vs := get_rows NUM_MATERIAL_PROPERTIES ids (r_mat st) in
  let* vs' := fill_component MATERIAL_PROPERTY_MANNINGS n f vs in
  let* d := put_rows NUM_MATERIAL_PROPERTIES ids vs' (r_mat st) in Some (with_mat st d).

(* operator.c:1099-1105 *)
Definition region_index_ok (st : rdy) (g : region) : bool := Nat.ltb (rg_index g) (length (r_regions st)).

(* rdydata.c:208-223: first region with this id *)
Fixpoint find_region (rs : list region) (id : Z) : option region :=
  match rs with [] => None | g :: t => if Z.eqb (rg_id g) id then Some g else find_region t id end.

(* rdydata.c:225-248 *)
Definition SetRegionalSourceComponent (st : rdy) (region_id component size : Z) (values : list R) : outcome rdy :=
  match find_region (r_regions st) region_id with
  | None => Ok st
  | Some g =>
    let n := length (rg_owned g) in
    if Z.eqb size (Z.of_nat n) then
      if Nat.eqb n 0 then Ok st
      else if region_index_ok st g then defined (edit_src st (rg_owned g) component n (nth_error values))
      else Err st
    else Err st
  end.
(* rdydata.c:283-301 *)
Definition SetHomogeneousRegionalSourceComponent (st : rdy) (region_id component : Z) (value : R) : outcome rdy :=
  match find_region (r_regions st) region_id with
  | None => Ok st
  | Some g =>
    let n := length (rg_owned g) in
    if Nat.eqb n 0 then Ok st
    else if region_index_ok st g then defined (edit_src st (rg_owned g) component n (fun _ => Some value))
    else Err st
  end.
(* rdydata.c:327-339 *)
Definition SetDomainSourceComponent (st : rdy) (component size : Z) (values : list R) : outcome rdy :=
  if Z.eqb size (Z.of_nat (r_owned st)) then
    defined (edit_src st (domain_ids (r_owned st)) component (r_owned st) (nth_error values))
  else Err st.
(* rdydata.c:506-523 (by region index) *)
Definition RDySetRegionalManningsN (st : rdy) (region_index size : Z) (values : list R) : outcome rdy :=
  if (Z.ltb region_index (Z.of_nat (length (r_regions st))) && Z.leb 0 region_index)%bool then
    match zget (r_regions st) region_index with
    | None => Undef
    | Some g =>
      if Z.eqb size (Z.of_nat (length (rg_owned g))) then
        if region_index_ok st g then defined (edit_mat st (rg_owned g) (length (rg_owned g)) (nth_error values))
        else Err st
      else Err st
    end
  else Err st.
(* rdydata.c:525-539 *)
Definition RDySetDomainManningsN (st : rdy) (size : Z) (values : list R) : outcome rdy :=
  if Z.eqb size (Z.of_nat (r_owned st)) then
    defined (edit_mat st (domain_ids (r_owned st)) (r_owned st) (nth_error values))
  else Err st.

(** ** Boundary values *)
(* operator.c:964-999, 1012-1027: arr[e][comp_offset + c] = values[num_comp * e + c] *)
Definition put_boundary (total off nc ne : nat) (values data : list R) : option (list R) :=
  ofold (fun d c =>
    ofold (fun d e => let* v := nth_error values (nc * e + c) in upd d (total * e + off + c) v) (seq 0 ne) d) (seq 0 nc) data.
(* operator.c:970-977: position of the boundary's sub-operator in the composite flux operator; in the
   composite of the second-order scheme there is no interior sub-operator (None below) *)
Definition ceed_sub_ops (second : bool) (nb : nat) : list (option nat) :=
  (if second then [] else [None]) ++ map Some (seq 0 nb).
Definition ceed_boundary_sub_op (second : bool) (nb b : nat) : option nat :=
  let* sub := nth_error (ceed_sub_ops second nb) ((if second then 0 else 1) + b) in sub.
(* operator.c:1039-1056.  With CEED the field "q_dirichlet" exists only if the flow condition of the
   boundary is of Dirichlet type (operator_fluxes_ceed.c:448, 568); otherwise a NULL field is dereferenced. *)
Definition SetOperatorBoundaryValues (st : rdy) (b : boundary) (off nc : nat) (ne : Z) (values : list R) : outcome rdy :=
  if Z.eqb ne (Z.of_nat (length (bd_edges b))) then
    defined (
      let* i := (if r_ceed st then
                   let* i := ceed_boundary_sub_op (r_second_order st) (length (r_boundaries st)) (bd_index b) in
                   let* c := nth_error (r_conds st) i in
                   let* t := bc_flow c in if is_dirichlet t then Some i else None
                 else Some (bd_index b)) in
      let* d := nth_error (r_bvals st) i in
      let* d' := put_boundary (r_ncomp st) off nc (length (bd_edges b)) values d in
      let* bv := upd (r_bvals st) i d' in Some (with_bvals st bv))
  else Err st.

(* rdydata.c:24-32, 76-85; the boundary and its condition at the given index *)
Definition boundary_at (st : rdy) (b : Z) : option (boundary * bcond) :=
  if (Z.ltb b (Z.of_nat (length (r_boundaries st))) && Z.leb 0 b)%bool then
    let* bd := zget (r_boundaries st) b in let* c := zget (r_conds st) b in Some (bd, c)
  else None.
Definition checked (st : rdy) (b : Z) (ne : Z) (k : boundary -> bcond -> outcome rdy) : outcome rdy :=
  if (Z.ltb b (Z.of_nat (length (r_boundaries st))) && Z.leb 0 b)%bool then
    match boundary_at st b with
    | None => Undef
    | Some (bd, c) => if Z.eqb (Z.of_nat (length (bd_edges bd))) ne then k bd c else Err st
    end
  else Err st.
(* the condition must be of Dirichlet type; a missing one is a NULL pointer *)
Definition dirichlet_only (st : rdy) (t : option ctype) (k : outcome rdy) : outcome rdy :=
  match t with None => Undef | Some t => if is_dirichlet t then k else Err st end.

(* rdydata.c:88-109 *)
Definition RDySetFlowDirichletBoundaryValues (st : rdy) (b ne ndof : Z) (values : list R) : outcome rdy :=
  checked st b ne (fun bd c =>
    if Z.eqb ndof 3 then dirichlet_only st (bc_flow c) (SetOperatorBoundaryValues st bd 0 3 ne values) else Err st).
(* rdydata.c:111-132 *)
Definition RDySetSedimentDirichletBoundaryValues (st : rdy) (b ne num_classes : Z) (values : list R) : outcome rdy :=
  if Z.eqb num_classes (Z.of_nat (r_classes st)) then
    checked st b ne (fun bd c => dirichlet_only st (bc_sediment c) (SetOperatorBoundaryValues st bd 3 (r_classes st) ne values))
  else Err st.
(* rdydata.c:134-151 *)
Definition RDySetSalinityDirichletBoundaryValues (st : rdy) (b ne : Z) (values : list R) : outcome rdy :=
  if r_salinity st then
    checked st b ne (fun bd c => dirichlet_only st (bc_salinity c) (SetOperatorBoundaryValues st bd (3 + r_classes st) 1 ne values))
  else Err st.
(* rdydata.c:153-170 *)
Definition RDySetTemperatureDirichletBoundaryValues (st : rdy) (b ne : Z) (values : list R) : outcome rdy :=
  if r_heat st then
    checked st b ne (fun bd c => dirichlet_only st (bc_temperature c)
      (SetOperatorBoundaryValues st bd (3 + r_classes st + (if r_salinity st then 1 else 0)) 1 ne values))
  else Err st.

(** ** The calls *)
Inductive call :=
| FlowValues (b ne ndof : Z) (values : list R)
| SedimentValues (b ne num_classes : Z) (values : list R)
| SalinityValues (b ne : Z) (values : list R)
| TemperatureValues (b ne : Z) (values : list R)
| RegionalSource (component : Z) (id size : Z) (values : list R)   (* water 0, x 1, y 2, sediment class k: 3+k (rdydata.c:253-281) *)
| HomogeneousSource (component : Z) (id : Z) (value : R)           (* rdydata.c:305-325 *)
| DomainSource (component : Z) (size : Z) (values : list R)        (* rdydata.c:343-365 *)
| RegionalManning (index size : Z) (values : list R)
| DomainManning (size : Z) (values : list R).

Definition exec (st : rdy) (c : call) : outcome rdy :=
  match c with
  | FlowValues b ne ndof values => RDySetFlowDirichletBoundaryValues st b ne ndof values
  | SedimentValues b ne ncl values => RDySetSedimentDirichletBoundaryValues st b ne ncl values
  | SalinityValues b ne values => RDySetSalinityDirichletBoundaryValues st b ne values
  | TemperatureValues b ne values => RDySetTemperatureDirichletBoundaryValues st b ne values
  | RegionalSource k id size values => SetRegionalSourceComponent st id k size values
  | HomogeneousSource k id value => SetHomogeneousRegionalSourceComponent st id k value
  | DomainSource k size values => SetDomainSourceComponent st k size values
  | RegionalManning i size values => RDySetRegionalManningsN st i size values
  | DomainManning size values => RDySetDomainManningsN st size values
  end.
Fixpoint run (st : rdy) (cs : list call) : outcome rdy :=
  match cs with
  | [] => Ok st
  | c :: t => match exec st c with Ok s => run s t | Err s => Err s | Undef => Undef end
  end.

(** ** Reading the solution (rdydata.c:171-206) *)
(* The size is checked by PetscAssert (rdydata.c:53-57), which does nothing in optimised builds.  [values]
   is the caller's array of [size] entries. *)
Definition RDyGetPrognosticVariableOfOwnedCell (num_owned idof : nat) (u values : list R) : option (list R) :=
  ofold (fun vs i => let* x := nth_error u (3 * i + idof) in upd vs i x) (seq 0 num_owned) values.
Definition get_owned (debug : bool) (num_owned idof : nat) (u values : list R) : outcome (list R) :=
  if (debug && negb (Nat.eqb num_owned (length values)))%bool then Err values
  else defined (RDyGetPrognosticVariableOfOwnedCell num_owned idof u values).
