(** What the time series of boundary fluxes must contain, independently of the arrays used to build it. *)
From Verif Require Import Base RoeModel SetupModel DiagModel TimeSeriesModel.
From Coq Require Import ZArith.
Local Open Scope nat_scope.

(* the edges reported: process, boundary, position on the boundary, type of condition, edge *)
Definition entry := (nat * nat * nat * Z * ts_edge)%type.
Definition boundary_entries (r : nat) (b : nat * ts_boundary) : list entry :=
  if tb_auto (snd b) then []
  else map (fun e => (r, fst b, fst e, tb_type (snd b), snd e)) (filter (fun e => te_cell_owned (snd e)) (enum (tb_edges (snd b)))).
Definition rank_entries (r : nat * ts_rank) : list entry := flat_map (boundary_entries (fst r)) (enum (snd r)).
Definition entries (ranks : list ts_rank) : list entry := flat_map rank_entries (enum ranks).
(* the row of an edge through which [amount] (per unit length) went in [total] seconds *)
Definition row_of (time : R) (amount : nat -> nat -> nat -> vec3) (total : R) (x : entry) : row :=
  let '(r, b, e, ty, ed) := x in
  let q := amount r b e in
  Row time (truncate (te_xc ed)) (truncate (te_yc ed)) ty
      (te_len ed * c0 q / total)%R (te_len ed * c1 q / total)%R (te_len ed * c2 q / total)%R (te_nx ed) (te_ny ed).

(* the outputs of a run: events before those counted, events counted (the last is the call that writes), step, time *)
Fixpoint outputs (interval : nat) (last : Z) (hist since : list event) (evs : list event) : list (list event * list event * nat * R) :=
  match evs with
  | [] => []
  | Eval h f :: t => outputs interval last hist (since ++ [Eval h f]) t
  | Monitor s time dt :: t =>
      let since := since ++ [Monitor s time dt] in
      if (Nat.eqb (s mod interval) 0 && (last <? Z.of_nat s)%Z)%bool
      then (hist, since, s, time) :: outputs interval (Z.of_nat s) (hist ++ since) [] t
      else outputs interval last hist since t
  end.

(* seconds counted: rdy->dt once per call *)
Definition total (since : list event) : R := rsum (fun e => match e with Monitor _ _ dt => dt | Eval _ _ => 0%R end) since.
(* PETSc: every evaluation of the right-hand side counts with the step being taken *)
Definition petsc_amount (since : list event) (r b e : nat) : vec3 :=
  fold_left (fun acc ev => match ev with Eval h f => vadd acc (vscal h (f r b e)) | Monitor _ _ _ => acc end) since vzero.
(* CEED: every call of the monitor counts the values then in the vector with rdy->dt *)
Definition flux_now (p : passive) (evs : list event) (r b e : nat) : vec3 :=
  fold_left (fun v ev => match ev with Eval _ f => match p with Overwrite => f r b e | AddInto => vadd v (f r b e) end | Monitor _ _ _ => v end) evs vzero.
Fixpoint ceed_amount (p : passive) (hist since : list event) (acc : nat -> nat -> nat -> vec3) (r b e : nat) : vec3 :=
  match since with
  | [] => acc r b e
  | Eval h f :: t => ceed_amount p (hist ++ [Eval h f]) t acc r b e
  | Monitor s tm dt :: t =>
      ceed_amount p (hist ++ [Monitor s tm dt]) t (fun r b e => vadd (acc r b e) (vscal dt (flux_now p hist r b e))) r b e
  end.
(* the edge whose flux is in entry e of the CEED vector of a boundary, if any *)
Definition owned_positions (es : list ts_edge) : list nat := map fst (filter (fun e => te_owned (snd e)) (enum es)).
Definition packed (ranks : list ts_rank) (f : nat -> nat -> nat -> vec3) (r b e : nat) : vec3 :=
  match nth_error ranks r with
  | Some rk => match nth_error rk b with
               | Some bd => match nth_error (owned_positions (tb_edges bd)) e with Some i => f r b i | None => vzero end
               | None => vzero
               end
  | None => vzero
  end.
Definition amount (bk : backend) (ranks : list ts_rank) (hist since : list event) (r b e : nat) : vec3 :=
  match bk with
  | Petsc => petsc_amount since r b e
  | Ceed p => packed ranks (ceed_amount p hist since (fun _ _ _ => vzero)) r b e
  end.
Definition rows_of (bk : backend) (ranks : list ts_rank) (o : list event * list event * nat * R) : list row :=
  let '(hist, since, step, time) := o in
  map (row_of time (amount bk ranks hist since) (if Reqb (total since) 0 then 1 else total since)) (entries ranks).
Definition written (bk : backend) (ranks : list ts_rank) (file : option (list row)) (o : list event * list event * nat * R) : option (list row) :=
  let '(_, _, step, _) := o in
  Some ((if Nat.eqb step 0 then [] else match file with Some l => l | None => [] end) ++ rows_of bk ranks o).

(* CEED: entry e of a boundary's vector is edge e when the owned edges come first and are those of owned cells *)
Definition packed_in_order (ranks : list ts_rank) : Prop :=
  forall rk bd, In rk ranks -> In bd rk -> exists a b, tb_edges bd = a ++ b /\
    (forall e, In e a -> te_owned e = true) /\ (forall e, In e b -> te_owned e = false /\ te_cell_owned e = false).
