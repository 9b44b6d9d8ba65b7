(** Specification for the second-order reconstruction in flat arrays (C70). *)
From Verif Require Import Base RoeModel EdgeModel CeedLayoutModel CeedLayoutSpec MusclModel CeedMusclModel.
Local Open Scope R_scope.
Local Notation length := List.length.

(* the cells on the other side of the internal edges of a cell *)
Definition neighbours (rm : rmesh) (c : nat) : list nat :=
  flat_map (fun e => (if Nat.eqb (left_cell (rm_mesh rm) e) c then [right_cell (rm_mesh rm) e] else []) ++
                     (if Nat.eqb (right_cell (rm_mesh rm) e) c then [left_cell (rm_mesh rm) e] else [])) (cm_internal (rm_mesh rm)).

(* distance of two points, its inverse (zero for coinciding points) *)
Definition dist (a b : pt) : R := sqrt ((px b - px a) * (px b - px a) + (py b - py a) * (py b - py a)).
Definition inverse_distance (a b : pt) : R := if Req_EM_T (dist a b) 0 then 0 else / dist a b.

(* how far the linear function with value q c and slope g at c is from the values of the neighbours: the weighted
   sum of squares *)
Definition misfit (x : nat -> pt) (q : nat -> R) (c : nat) (nb : list nat) (g : pt) : R :=
  rsum (fun j => inverse_distance (x c) (x j) *
                 (q j - q c - (px g * (px (x j) - px (x c)) + py g * (py (x j) - py (x c)))) ^ 2) nb.
(* determinant of the normal equations *)
Definition spread (x : nat -> pt) (c : nat) (nb : list nat) : R :=
  let s f := rsum (fun j => inverse_distance (x c) (x j) * f (px (x j) - px (x c)) (py (x j) - py (x c))) nb in
  s (fun a b => a * a) * s (fun a b => b * b) - s (fun a b => a * b) ^ 2.

(* entry of an interleaved solution array with three components *)
Definition entry (u : list R) (k c : nat) : R := nth (c * 3 + k) u 0.
(* the slope of field k in cell c as stored in the gradient arrays *)
Definition slope (grads : list (list R)) (k c : nat) : pt := Pt (nth (c * 2) (nth k grads []) 0) (nth (c * 2 + 1) (nth k grads []) 0).

(* three gradient arrays, two entries for each cell *)
Definition shaped (rm : rmesh) (grads : list (list R)) : Prop := length grads = 3%nat /\ forall g, In g grads -> length g = (cm_cells (rm_mesh rm) * 2)%nat.
(* a mesh whose internal edges lie between cells and vertices of the mesh *)
Definition edges_inside (rm : rmesh) : Prop := forall e, In e (cm_internal (rm_mesh rm)) ->
  (left_cell (rm_mesh rm) e < cm_cells (rm_mesh rm))%nat /\ (right_cell (rm_mesh rm) e < cm_cells (rm_mesh rm))%nat.

(* the value of field k at the midpoint of an edge seen from its cell c: the value in c plus the limited increment;
   the increment is that of the linear function with the slope of the cell, the limiter compares it with half of the
   jump towards the cell c' across the edge *)
Definition midpoint_of (rm : rmesh) (e : nat) : pt :=
  let a := rm_point rm (vertex_beg (rm_mesh rm) e) in let b := rm_point rm (vertex_end (rm_mesh rm) e) in
  Pt ((px a + px b) / 2) ((py a + py b) / 2).
Definition increment (g x0 x : pt) : R := px g * (px x - px x0) + py g * (py x - py x0).
Definition side (lim : limiter) (rm : rmesh) (u : list R) (grads : list (list R)) (e c c' k : nat) : R :=
  entry u k c + LimitSlope lim (increment (slope grads k c) (rm_centroid rm c) (midpoint_of rm e)) ((entry u k c' - entry u k c) / 2).
(* state of the flow at the midpoint, depth at least zero *)
Definition state_at (lim : limiter) (rm : rmesh) (u : list R) (grads : list (list R)) (e c c' : nat) : list R :=
  [Rmax 0 (side lim rm u grads e c c' 0); side lim rm u grads e c c' 1; side lim rm u grads e c c' 2].
Definition left_state lim rm u grads e := state_at lim rm u grads e (left_cell (rm_mesh rm) e) (right_cell (rm_mesh rm) e).
Definition right_state lim rm u grads e := state_at lim rm u grads e (right_cell (rm_mesh rm) e) (left_cell (rm_mesh rm) e).

(** ** Processes *)
(* the cell c of process p is cell c' of process r, which owns it *)
Definition owner_is (ps : list process) (p : process) (c r c' : nat) : Prop :=
  exists p', nth_error ps r = Some p' /\ (c' < cm_cells (rm_mesh (pr_mesh p')))%nat /\ cm_owned (rm_mesh (pr_mesh p')) c' = true /\ pr_owner p c = (r, cm_l2o (rm_mesh (pr_mesh p')) c').
Definition partitioned (ps : list process) : Prop :=
  (forall p, In p ps -> numbered (rm_mesh (pr_mesh p))) /\
  forall p c, In p ps -> (c < cm_cells (rm_mesh (pr_mesh p)))%nat -> exists r c', owner_is ps p c r c'.

(* A mesh [G] with solution [U] distributed over processes: local cell c of process r is cell [gid r c] of G.  All
   neighbours of an owned cell are present on its process. *)
Record distributed (G : rmesh) (U : list R) (ps : list process) (us : list (list R)) (gid : nat -> nat -> nat) : Prop := {
  di_inside : forall p, In p ps -> edges_inside (pr_mesh p);
  di_length : Forall2 (fun p u => length u = (cm_cells (rm_mesh (pr_mesh p)) * 3)%nat) ps us;
  di_cells : forall r p u c, nth_error ps r = Some p -> nth_error us r = Some u -> (c < cm_cells (rm_mesh (pr_mesh p)))%nat ->
    rm_centroid (pr_mesh p) c = rm_centroid G (gid r c) /\ forall k, (k < 3)%nat -> entry u k c = entry U k (gid r c);
  di_owner : forall r p c r' c', nth_error ps r = Some p -> owner_is ps p c r' c' -> gid r c = gid r' c';
  di_complete : forall r p c, nth_error ps r = Some p -> (c < cm_cells (rm_mesh (pr_mesh p)))%nat -> cm_owned (rm_mesh (pr_mesh p)) c = true ->
    Permutation (map (gid r) (neighbours (pr_mesh p) c)) (neighbours G (gid r c));
}.
(* edge e of process r is edge e' of the whole mesh *)
Definition same_edge (G : rmesh) (rm : rmesh) (gid : nat -> nat) (e e' : nat) : Prop :=
  gid (left_cell (rm_mesh rm) e) = left_cell (rm_mesh G) e' /\ gid (right_cell (rm_mesh rm) e) = right_cell (rm_mesh G) e' /\
  rm_point rm (vertex_beg (rm_mesh rm) e) = rm_point G (vertex_beg (rm_mesh G) e') /\
  rm_point rm (vertex_end (rm_mesh rm) e) = rm_point G (vertex_end (rm_mesh G) e').
