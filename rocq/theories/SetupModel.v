(** Assignment of conditions and materials to regions and boundaries, and initial data (src/rdysetup.c). *)
From Verif Require Import Base MeshMapsModel DataModel.
From Coq Require Import String.
Local Open Scope nat_scope.
Local Notation length := List.length.

(* A setup routine returns a value, fails with an error message, or has undefined behaviour. *)
Inductive result (A : Type) := Ret (a : A) | Error | UB.
Arguments Ret {A}. Arguments Error {A}. Arguments UB {A}.
Definition rbind {A B} (x : result A) (f : A -> result B) : result B := match x with Ret a => f a | Error => Error | UB => UB end.
Notation "'let!' x := e 'in' k" := (rbind e (fun x => k)) (at level 200, x pattern, e at level 200, k at level 200).
Definition of_option {A} (x : option A) : result A := match x with Some a => Ret a | None => UB end.
Definition check {A} (b : bool) (k : result A) : result A := if b then k else Error.   (* PetscCheck *)
Fixpoint rmap {A B} (f : A -> result B) (l : list A) : result (list B) :=
  match l with [] => Ret [] | a :: t => let! b := f a in let! bs := rmap f t in Ret (b :: bs) end.

(** ** Configuration (include/private/rdyconfigimpl.h) *)
(* A math expression that was given evaluates to a number (mupEval); [None]: no expression was given. *)
Definition expression := option R.
(* A file, when given, with the data it delivers on this process in local cell order (DMPlexNaturalToGlobal
   and DMGlobalToLocal are not modelled). *)
Definition datafile := option (list R).
Record flow_condition := FlowCondition { fc_name : string; fc_type : ctype; fc_file : datafile; fc_height : expression; fc_xmom : expression; fc_ymom : expression; fc_value : expression }.
Record scalar_condition := ScalarCondition { kc_name : string; kc_type : ctype; kc_file : datafile; kc_value : expression }.
Record sediment_condition := SedimentCondition { sc_name : string; sc_type : ctype; sc_classes : list (datafile * expression) }.
(* RDyRegionConditionSpec, RDyBoundaryConditionSpec: names of conditions, "" if not given *)
Record region_spec := RegionSpec { rs_region : string; rs_flow : string; rs_sediment : string; rs_salinity : string; rs_temperature : string }.
Record boundary_spec := BoundarySpec { bs_boundaries : list string; bs_flow : string; bs_sediment : string; bs_salinity : string }.
Record material := Material { mt_name : string; mt_file : datafile; mt_manning : expression }.
Record config := Config {
  cf_flow : list flow_condition; cf_sediment : list sediment_condition; cf_salinity : list scalar_condition; cf_temperature : list scalar_condition;
  cf_classes : nat; cf_has_salinity : bool; cf_has_heat : bool;
  cf_materials : list material; cf_surface : list (string * string);   (* surface_composition: region, material *)
  cf_initial : list region_spec; cf_sources : list region_spec; cf_boundary : list boundary_spec
}.
Definition empty_name (s : string) : bool := String.eqb s "".
(* the name field of a region or boundary not named in the configuration is all zeros *)
Definition name_of (o : option string) : string := match o with Some s => s | None => ""%string end.

(* rdysetup.c:134-197 (FindFlowCondition and the others): first entry with the name *)
Fixpoint find_named {A} (name_of_ : A -> string) (l : list A) (name : string) : option A :=
  match l with [] => None | a :: t => if String.eqb (name_of_ a) name then Some a else find_named name_of_ t name end.

(** ** Initial conditions by region (rdysetup.c:594-652) *)
Record conditions := Conditions { cd_flow : flow_condition; cd_sediment : option sediment_condition; cd_salinity : option scalar_condition; cd_temperature : option scalar_condition }.
(* 623-649.  The index -1 of a condition that was not found is not checked for sediment, salinity and
   temperature: the element before the array is used (undefined behaviour). *)
Definition find_unchecked {A} (nm : A -> string) (type_ok : A -> bool) (l : list A) (name : string) : result (option A) :=
  check (negb (empty_name name)) (let! c := of_option (find_named nm l name) in check (type_ok c) (Ret (Some c))).
Definition region_initial (cf : config) (g : region) : result conditions :=
  match find_named rs_region (cf_initial cf) (name_of (rg_name g)) with
  | None => Error
  | Some s =>
    check (negb (empty_name (rs_flow s)))
      match find_named fc_name (cf_flow cf) (rs_flow s) with
      | None => Error
      | Some fc =>
        check (is_dirichlet (fc_type fc))
          (let! sed := (if Nat.ltb 0 (cf_classes cf) then find_unchecked sc_name (fun c => is_dirichlet (sc_type c)) (cf_sediment cf) (rs_sediment s) else Ret None) in
           let! sal := (if cf_has_salinity cf then find_unchecked kc_name (fun c => is_dirichlet (kc_type c)) (cf_salinity cf) (rs_salinity s) else Ret None) in
           let! tmp := (if cf_has_heat cf then find_unchecked kc_name (fun _ => true) (cf_temperature cf) (rs_temperature s) else Ret None) in
           Ret (Conditions fc sed sal tmp))
      end
  end.
Definition InitInitialConditions (cf : config) (rs : list region) : result (list conditions) := rmap (region_initial cf) rs.

(** ** Initial solution *)
(* rdysetup.c:845-855, 954-964 and alike: copy from the file's local vector to the owned cells of the region.
   [n] components are copied from rows of [n] entries to rows of [nc] entries at offset [off]. *)
Definition copy_cells (owned : list bool) (l2o : list Z) (nc off n : nat) (data : list R) (cells : list nat) (u : list R) : option (list R) :=
  ofold (fun u c =>
    let* o := nth_error l2o c in
    if is_owned owned c then
      ofold (fun u k => let* v := nth_error data (n * c + k) in zset u (at_ nc o (off + k)) v) (seq 0 n) u
    else Some u) cells u.
(* rdysetup.c:858-864: values in the owned cells of the region *)
Definition set_cells (nc off : nat) (vals : list expression) (ids : list Z) (u : list R) : option (list R) :=
  ofold (fun u id => ofold (fun u ke => let* v := snd ke in zset u (at_ nc id (off + fst ke)) v) (combine (seq 0 (length vals)) vals) u) ids u.
(* The loop over regions for one condition (842-868 and alike); the file's vector is destroyed after the first
   region using it (855), after which the expressions are evaluated. [off_values] is the component used with
   expressions. *)
Definition fill_region (owned : list bool) (l2o : list Z) (nc off off_values n : nat) (vals : list expression) (st : list R * datafile) (g : region) : option (list R * datafile) :=
  match snd st with
  | Some data => let* u := copy_cells owned l2o nc off n data (rg_cells g) (fst st) in Some (u, None)
  | None => let* u := set_cells nc off_values vals (rg_owned g) (fst st) in Some (u, None)
  end.
Definition fill_regions (owned : list bool) (l2o : list Z) (nc off off_values n : nat) (file : datafile) (vals : list expression)
    (uses : region * conditions -> option bool) (rcs : list (region * conditions)) (u : list R) : option (list R) :=
  let* st := ofold (fun st rc => let* b := uses rc in if b then fill_region owned l2o nc off off_values n vals st (fst rc) else Some st) rcs (u, file) in
  Some (fst st).
(* rdysetup.c:781-870: the flow vector, rows of 3 *)
Definition InitFlowVec (cf : config) (owned : list bool) (l2o : list Z) (rcs : list (region * conditions)) : option (list R) :=
  ofold (fun u f =>
    fill_regions owned l2o 3 0 0 3 (fc_file f) [fc_height f; fc_xmom f; fc_ymom f] (fun rc => Some (String.eqb (fc_name (cd_flow (snd rc))) (fc_name f))) rcs u)
    (cf_flow cf) (repeat 0%R (3 * num_owned owned)).
(* strcmp(ic.sediment->name, ...) through a pointer that may be NULL *)
Definition named {A} (nm : A -> string) (c : option A) (name : string) : option bool := option_map (fun a => String.eqb (nm a) name) c.
Definition num_tracers (cf : config) : nat := cf_classes cf + (if cf_has_salinity cf then 1 else 0) + (if cf_has_heat cf then 1 else 0).
(* rdysetup.c:945-978.  The file vector of a class not destroyed by a region stays for the next class; it is then
   not used, because the same regions use the condition. *)
Definition init_sediment (cf : config) (owned : list bool) (l2o : list Z) (rcs : list (region * conditions)) (u : list R) : option (list R) :=
  if Nat.ltb 0 (cf_classes cf) then
    ofold (fun u f =>
      ofold (fun u k => let* cl := nth_error (sc_classes f) k in
               fill_regions owned l2o (num_tracers cf) k k 1 (fst cl) [snd cl] (fun rc => named sc_name (cd_sediment (snd rc)) (sc_name f)) rcs u)
            (seq 0 (cf_classes cf)) u) (cf_sediment cf) u
  else Some u.
(* rdysetup.c:981-1012: with an expression, component 0 is written *)
Definition init_salinity (cf : config) (owned : list bool) (l2o : list Z) (rcs : list (region * conditions)) (u : list R) : option (list R) :=
  ofold (fun u f => fill_regions owned l2o (num_tracers cf) (cf_classes cf) 0 1 (kc_file f) [kc_value f] (fun rc => named kc_name (cd_salinity (snd rc)) (kc_name f)) rcs u) (cf_salinity cf) u.
(* rdysetup.c:1015-1046 *)
Definition init_temperature (cf : config) (owned : list bool) (l2o : list Z) (rcs : list (region * conditions)) (u : list R) : option (list R) :=
  ofold (fun u f => fill_regions owned l2o (num_tracers cf) (cf_classes cf + (if cf_has_salinity cf then 1 else 0)) 0 1 (kc_file f) [kc_value f] (fun rc => named kc_name (cd_temperature (snd rc)) (kc_name f)) rcs u) (cf_temperature cf) u.
Definition InitTracerVec (cf : config) (owned : list bool) (l2o : list Z) (rcs : list (region * conditions)) : option (list R) :=
  if Nat.eqb (num_tracers cf) 0 then Some [] else
  let* u := init_sediment cf owned l2o rcs (repeat 0%R (num_tracers cf * num_owned owned)) in
  let* u := init_salinity cf owned l2o rcs u in
  init_temperature cf owned l2o rcs u.
(* rdysetup.c:872-876, 1048-1052: VecStrideGather/VecStrideScatter component by component: entry [k] of each row of
   [n] entries of [v] goes to entry [off + k] of each row of [nc] entries of [u] *)
Definition interleave (nc off n cells : nat) (v u : list R) : option (list R) :=
  ofold (fun u k => ofold (fun u i => let* x := nth_error v (n * i + k) in upd u (nc * i + off + k) x) (seq 0 cells) u) (seq 0 n) u.
(* rdysetup.c:1054-1062 *)
Definition InitSolution (cf : config) (owned : list bool) (l2o : list Z) (rcs : list (region * conditions)) (u : list R) : option (list R) :=
  let nc := 3 + num_tracers cf in
  let* f := InitFlowVec cf owned l2o rcs in
  let* u := interleave nc 0 3 (num_owned owned) f u in
  let* t := InitTracerVec cf owned l2o rcs in
  interleave nc 3 (num_tracers cf) (num_owned owned) t u.

(** ** Sources (rdysetup.c:656-702, 1257-1272) *)
Definition region_source (cf : config) (g : region) : result (option flow_condition) :=
  match find_named rs_region (cf_sources cf) (name_of (rg_name g)) with
  | None => Ret None
  | Some s =>
    let! src := (if empty_name (rs_flow s) then Ret None else
                 match find_named fc_name (cf_flow cf) (rs_flow s) with
                 | None => Error
                 | Some fc => match fc_type fc with CONDITION_RUNOFF => Ret (Some fc) | _ => Error end
                 end) in
    check (negb ((Nat.ltb 0 (cf_classes cf) && negb (empty_name (rs_sediment s))) || (cf_has_salinity cf && negb (empty_name (rs_salinity s)))
                 || (cf_has_heat cf && negb (empty_name (rs_temperature s))))%bool) (Ret src)
  end.
Definition InitSources (cf : config) (rs : list region) : result (list (option flow_condition)) := rmap (region_source cf) rs.
(* 1257-1272: the loop index r is passed where the setter expects the region's id *)
Fixpoint apply_sources (r : nat) (srcs : list (option flow_condition)) (st : rdy) : outcome rdy :=
  match srcs with
  | [] => Ok st
  | None :: t => apply_sources (S r) t st
  | Some fc :: t =>
    match fc_value fc with
    | None => Undef
    | Some v => match SetHomogeneousRegionalSourceComponent st (Z.of_nat r) 0 v with Ok st' => apply_sources (S r) t st' | Err s => Err s | Undef => Undef end
    end
  end.
Definition InitSourceConditions (srcs : list (option flow_condition)) (st : rdy) : outcome rdy := apply_sources 0 srcs st.

(** ** Materials (rdysetup.c:505-590) *)
(* 546-562: each region must have a surface composition entry whose material exists *)
Definition region_has_material (cf : config) (g : region) : bool :=
  existsb (fun sm => (String.eqb (fst sm) (name_of (rg_name g)) && existsb (fun m => String.eqb (mt_name m) (snd sm)) (cf_materials cf))%bool) (cf_surface cf).
(* 505-537: for one material; the surface composition's material is not compared with it *)
Definition read_material (cf : config) (rs : list region) (values : list R) (m : material) : option (list R) :=
  ofold (fun values g =>
    ofold (fun values sm =>
      if String.eqb (fst sm) (name_of (rg_name g)) then
        ofold (fun values ic => let* v := (match mt_file m with Some data => nth_error data (fst ic) | None => mt_manning m end) in upd values (snd ic) v)
              (combine (seq 0 (length (rg_cells g))) (rg_cells g)) values
      else Some values) (cf_surface cf) values) rs values.
(* 564-590: the values by local cell, then those of the owned cells in the operator's order *)
Definition InitMaterialProperties (cf : config) (owned : list bool) (l2o : list Z) (rs : list region) (mat : list R) : result (list R) :=
  check (forallb (region_has_material cf) rs)
    (of_option (let* values := ofold (read_material cf rs) (cf_materials cf) (repeat 0%R (length owned)) in
                ofold (fun mat i => if is_owned owned i then let* o := nth_error l2o i in let* v := nth_error values i in zset mat o v else Some mat) (seq 0 (length owned)) mat)).

(** ** Boundary conditions (rdysetup.c:706-777) *)
Definition MAX_NUM_CONDITIONS : nat := 32.
(* 709-718: the first unnamed entry of the array of MAX_NUM_CONDITIONS flow conditions *)
Definition reflecting_flow (cf : config) : option flow_condition :=
  if (existsb (fun f => empty_name (fc_name f)) (cf_flow cf) || Nat.ltb (length (cf_flow cf)) MAX_NUM_CONDITIONS)%bool
  then Some (FlowCondition "reflecting" CONDITION_REFLECTING None None None None None) else None.
(* 730-741: index of the specification naming the boundary; more than one is an error *)
Fixpoint bc_index (specs : list boundary_spec) (name : string) (found : option boundary_spec) : result (option boundary_spec) :=
  match specs with
  | [] => Ret found
  | s :: t => if existsb (fun n => String.eqb n name) (bs_boundaries s)
              then match found with Some _ => Error | None => bc_index t name (Some s) end
              else bc_index t name found
  end.
Record boundary_conditions := BoundaryConditions { bc_flow_ : flow_condition; bc_sed_ : option sediment_condition; bc_sal_ : option scalar_condition; bc_auto : bool }.
Definition boundary_condition (cf : config) (reflecting : flow_condition) (b : boundary) : result boundary_conditions :=
  let! spec := bc_index (cf_boundary cf) (name_of (bd_name b)) None in
  match spec with
  | None => Ret (BoundaryConditions reflecting None None true)
  | Some s =>
    let! fl := (if empty_name (bs_flow s) then Ret reflecting else match find_named fc_name (cf_flow cf) (bs_flow s) with Some fc => Ret fc | None => Error end) in
    let! sed := (if Nat.ltb 0 (cf_classes cf) then find_unchecked sc_name (fun _ => true) (cf_sediment cf) (bs_sediment s) else Ret None) in
    let! sal := (if cf_has_salinity cf then find_unchecked kc_name (fun _ => true) (cf_salinity cf) (bs_salinity s) else Ret None) in
    Ret (BoundaryConditions fl sed sal false)
  end.
Definition InitBoundaryConditions (cf : config) (bs : list boundary) : result (list boundary_conditions) :=
  match reflecting_flow cf with None => Error | Some r => rmap (boundary_condition cf r) bs end.

(* rdysetup.c:1219-1252: prescribed values on the Dirichlet boundaries.  Types other than Dirichlet, reflecting and
   critical outflow are refused. *)
Fixpoint InitDirichlet (bcs : list (boundary * boundary_conditions)) (st : rdy) : outcome rdy :=
  match bcs with
  | [] => Ok st
  | (b, c) :: t =>
    let f := bc_flow_ c in
    match fc_type f with
    | CONDITION_DIRICHLET =>
      match (if Nat.eqb (length (bd_edges b)) 0 then Some [] else
             let* h := fc_height f in let* hu := fc_xmom f in let* hv := fc_ymom f in Some (List.concat (repeat [h; hu; hv] (length (bd_edges b))))) with
      | None => Undef
      | Some vals =>
        match RDySetFlowDirichletBoundaryValues st (Z.of_nat (bd_index b)) (Z.of_nat (length (bd_edges b))) 3 vals with
        | Ok st' => InitDirichlet t st' | Err s => Err s | Undef => Undef
        end
      end
    | CONDITION_REFLECTING | CONDITION_CRITICAL_OUTFLOW => InitDirichlet t st
    | _ => Err st
    end
  end.
