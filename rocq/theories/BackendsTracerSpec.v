(** Specification for C93 with sediment: states at which the two back ends must agree. *)
From Verif Require Import Base RoeModel EdgeModel HRModel SourceModel AssemblyModel TracerModel TracerProperties DecompModel TracerDecompModel TracerDecompSpec CeedLayoutModel CeedHRModel CeedLayoutSpec CeedRunModel BackendsSpec.
Local Open Scope R_scope.

(* [P] holds of every state at which a run of the whole domain with the kernels [s] evaluates the right-hand side, and
   every evaluation is defined *)
Fixpoint every_tstate (P : tserial_input -> (nat -> tvec) -> Prop) (i : integrator) (s : (bedge -> tbcond) -> tscheme) (m : mesh) (xs : list tserial_input) (u : nat -> tvec) : Prop :=
  match xs with
  | [] => True
  | x :: t =>
    match tstages i (trhs (s (tsi_bcs x)) m (tsi_dt x) (tsi_src x)) (tsi_dt x) u with Some l => Forall (fun w => P x (snd w)) l | None => False end /\
    match tts_step i (trhs (s (tsi_bcs x)) m (tsi_dt x) (tsi_src x)) (tsi_dt x) u with Some u1 => every_tstate P i s m t u1 | None => False end
  end.

(* both sides of an edge wet, or both dry *)
Definition alike (tiny_h a b : R) : Prop := (tiny_h < a /\ tiny_h < b) \/ (a < tiny_h /\ b < tiny_h).
(* an edge between water and dry ground: the right side holds no sediment, and some water if the left is wet *)
Definition clean_right (tiny_h : R) (qL qR : tvec) : Prop := (tiny_h < depth qL -> 0 < depth qR) /\ forall j, ttr qR j = 0.
Definition clear_tedge (either : bool) (w : balancing) (tiny_h zL zR : R) (qL qR : tvec) : Prop :=
  match w with
  | Standard => alike tiny_h (depth qL) (depth qR) \/ (either = false /\ clean_right tiny_h qL qR)
  | Hydrostatic _ => alike tiny_h (hr_depth (depth qL) zL zR) (hr_depth (depth qR) zR zL)
  end.
(* a boundary edge: given values of which one side at least is wet *)
Definition clear_tboundary (tiny_h : R) (q : tvec) (bc : tbcond) : Prop :=
  match bc with
  | TReflecting => True
  | TDirichlet qR => clear_depth tiny_h (depth qR) /\ (tiny_h < depth q \/ tiny_h < depth qR) /\ (alike tiny_h (depth q) (depth qR) \/ clean_right tiny_h q qR)
  end.
Record clear_tstate (either : bool) (w : balancing) (cf : cconfig) (z : nat -> R) (m : mesh) (x : tserial_input) (u : nat -> tvec) : Prop := {
  ct_dt : 0 <= tsi_dt x;
  ct_cells : forall c, In c (cells m) -> clear_depth (cf_tiny_h cf) (depth (u c));
  (* no sediment is supplied to dry cells *)
  ct_supply : forall c, In c (cells m) -> depth (u c) < cf_tiny_h cf -> forall j, ttr (tsi_src x c) j = 0;
  ct_edges : forall e, In e (iedges m) -> clear_tedge either w (cf_tiny_h cf) (z (ie_l e)) (z (ie_r e)) (u (ie_l e)) (u (ie_r e));
  ct_boundary : forall e, In e (bedges m) -> clear_tboundary (cf_tiny_h cf) (u (be_c e)) (tsi_bcs x e);
}.
(* the values of each cell, [n] of them, in two global vectors of different layouts *)
Definition same_blocks (n : nat) (L : list (list nat)) (U : list (list R)) (L' : list (list nat)) (U' : list (list R)) : Prop :=
  forall r j c r' j' gs gs' x x', nth_error L r = Some gs -> nth_error gs j = Some c -> nth_error U r = Some x ->
    nth_error L' r' = Some gs' -> nth_error gs' j' = Some c -> nth_error U' r' = Some x' -> block n x j = block n x' j'.
