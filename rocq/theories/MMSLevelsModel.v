(** The grids of the driver for manufactured solutions: how often each is refined, and what the report calls its levels
    and components (src/rdymms.c:157-224, 286, 915-1060, driver/mms.c). *)
From Coq Require Import ZArith NArith String Ascii Decimal DecimalString.
From Verif Require Import Base SetupModel OutputModel CheckpointModel OptionsModel.
Local Notation length := List.length.
Local Open Scope nat_scope.
Local Open Scope string_scope.

(** ** PETSc *)
(* PetscOptionsStringToInt.  Words such as "default" and negative numbers are left out: they are errors here. *)
Definition StringToInt (v : string) : option nat := option_map (fun u => N.to_nat (N.of_uint u)) (NilEmpty.uint_of_string v).
(* PetscOptionsGetInt: an option without a value counts as not given *)
Definition GetInt (d : db) (name : string) : result (option nat) :=
  match d name with
  | None => Ret None
  | Some v => if String.eqb v "" then Ret None else match StringToInt v with Some n => Ret (Some n) | None => Error end
  end.
(* DMSetFromOptions without a prefix (rdydm.c:106): the number of uniform refinements of the grid.  The refinements
   under the prefixes "dist_" and "ref_" (rdydm.c:116-131) are left out. *)
Definition DMSetFromOptions (d : db) : result nat := let! r := GetInt d "-dm_refine" in Ret (match r with Some n => n | None => 0 end).
(* uniform refinement makes four cells of a triangle or quadrilateral *)
Definition num_cells (coarse level : nat) : nat := coarse * 4 ^ level.

(** ** rdymms.c *)
(* 163-348, of which 198-208 and 286 matter here; returns the options and the level of the grid.  The error code of
   PetscOptionsGetInt (200) is not looked at: refine_level keeps its 0.  The buffer has room for three characters. *)
Definition RDyMMSSetup (base_refinement : nat) (d : db) : result (db * nat) :=
  let refine_level := match GetInt d "-dm_refine" with Ret (Some n) => n | _ => 0 end in
  let d := if Nat.eqb refine_level 0
           then SetValue (SetValue d "-dm_refine" (snprintf 4 (dec base_refinement))) "-dm_plex_transform_label_match_strata" "1"
           else d in
  let! level := DMSetFromOptions d in Ret (d, level).
(* 941-949: the finer grids, r = 1 .. num_refinements *)
Fixpoint finer_grids (base_refinement : nat) (rs : list nat) (d : db) : result (db * list nat) :=
  match rs with
  | [] => Ret (d, [])
  | r :: rs =>
    let! x := RDyMMSSetup base_refinement (SetValue d "-dm_refine" (snprintf 4 (dec (r + base_refinement)))) in
    let! y := finer_grids base_refinement rs (fst x) in
    Ret (fst y, snd x :: snd y)
  end.
Definition MAX_NUM_REFINEMENTS : nat := 8.
(* What is run: a single grid, or one grid after the other (958-967) with the number printed as its refinement level (959);
   [fst]: the number printed, [snd]: the level of the grid *)
Inductive report := Single (level : nat) | Study (grids : list (nat * nat)).
(* 1010-1017, 1042 with 920-967; [level]: of the grid made by RDyMMSSetup *)
Definition RDyMMSRun (base_refinement num_refinements level : nat) (d : db) : result (db * report) :=
  if Nat.eqb num_refinements 0 then Ret (d, Single level) else
  check (Nat.leb num_refinements MAX_NUM_REFINEMENTS)
    (let! x := finer_grids base_refinement (seq 1 num_refinements) d in
     Ret (fst x, Study (combine (map (fun r => r + base_refinement) (seq 0 (S num_refinements))) (level :: snd x)))).
(* mms.c:33-37 *)
Definition driver (base_refinement num_refinements : nat) (d : db) : result (db * report) :=
  let! x := RDyMMSSetup base_refinement d in RDyMMSRun base_refinement num_refinements (snd x) (fst x).

(* 180-195: mms_comp_names, the names in the reports *)
Definition mms_comp_names (classes : nat) (salinity heat : bool) : list string :=
  ([" h "; "hu "; "hv "] ++ map (fun i => ("c" ++ dec i ++ " ")%string) (seq 0 classes) ++ (if salinity then ["salinity"] else []) ++ (if heat then ["temperature"] else []))%list.
(* 212-224: the names of the components of the solution, used in output files; num_tracers: yaml_input.c:1660 *)
Definition soln_component_names (classes : nat) (salinity heat : bool) : list string :=
  let num_tracers := classes + (if salinity then 1 else 0) + (if heat then 1 else 0) in
  (["Height"; "MomentumX"; "MomentumY"] ++ map (fun i => ("SedimentMassPerUnitArea" ++ dec i)%string) (seq 0 num_tracers))%list.
