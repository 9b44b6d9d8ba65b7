(* What a user relies on: a forcing gives back what it took, once. *)
From Coq Require Import List Arith ZArith Bool.
From Verif Require Import SetupModel ForcingMemoryModel.
Import ListNotations.

(* Every Dirichlet condition of the mesh has a file when several are given; otherwise the run ends with an error message. *)
Definition has_files (i : input) : Prop :=
  match bc i with BMulti ids bcs => forall id edges, In (id, edges, true) bcs -> In id ids | _ => True end.
(* the number of files given together with the identifiers of regions or boundaries *)
Definition files (i : input) (d : side) : nat :=
  match d with
  | Source => match src i with SMulti k => k | _ => 0 end
  | Boundary => match bc i with BMulti ids _ => List.length ids | _ => 0 end
  end.
Definition several_files (i : input) : Prop := files i Source <> 0 \/ files i Boundary <> 0.
Definition raster_with_map (i : input) : Prop := exists cells, src i = SRaster cells true.
(* the blocks that were never released *)
Definition left_over (h : heap) : list slot := map snd (live h).
(* a program releases nothing twice and uses nothing it does not have *)
Definition safe (p : list instr) : Prop := run p start <> UB.
