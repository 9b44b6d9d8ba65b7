(** Time series of boundary fluxes and observations (src/time_series.c). *)
From Verif Require Import Base RoeModel SetupModel DiagModel.
From Coq Require Import ZArith.
Local Open Scope nat_scope.

(** ** What every process knows about its boundaries *)
(* A boundary edge: midpoint, length, normal; whether its (left) cell is owned and whether the edge is. *)
Record ts_edge := TsEdge { te_xc : R; te_yc : R; te_len : R; te_nx : R; te_ny : R; te_cell_owned : bool; te_owned : bool }.
(* A boundary: whether its condition was generated, the type of its flow condition, its edges. *)
Record ts_boundary := TsBoundary { tb_auto : bool; tb_type : Z; tb_edges : list ts_edge }.
Definition ts_rank := list ts_boundary.
(* a value for every edge of every boundary of every process *)
Definition edge_data := list (list (list vec3)).
Fixpoint enum_from {A} (i : nat) (l : list A) : list (nat * A) := match l with [] => [] | a :: t => (i, a) :: enum_from (S i) t end.
Definition enum {A} (l : list A) : list (nat * A) := enum_from 0 l.
Definition tabulate (ranks : list ts_rank) (f : nat -> nat -> nat -> vec3) : edge_data :=
  map (fun r => map (fun b => map (fun e => f (fst r) (fst b) (fst e)) (enum (tb_edges (snd b)))) (enum (snd r))) (enum ranks).
Definition combine_data (f : vec3 -> vec3 -> vec3) (x y : edge_data) : edge_data :=
  map (fun p => map (fun q => map (fun c => f (fst c) (snd c)) (combine (fst q) (snd q))) (combine (fst p) (snd p))) (combine x y).

(** ** Setting up (time_series.c:5-117) *)
(* 82-93: edges counted on a boundary *)
Definition counted (b : ts_boundary) : list ts_edge := if tb_auto b then [] else filter te_cell_owned (tb_edges b).
Definition num_local (r : ts_rank) : nat := fold_left (fun n b => n + length (counted b)) r 0.
(* offsets[b + 1] is the count after boundary b; offsets[0] is 0 *)
Fixpoint offsets_from (n : nat) (r : ts_rank) : list nat :=
  match r with [] => [] | b :: t => let n' := n + length (counted b) in n' :: offsets_from n' t end.
Definition offsets (r : ts_rank) : list nat := 0 :: offsets_from 0 r.
(* 15-31: assigning a real number to a PetscInt truncates it towards 0 *)
Definition truncate (x : R) : Z := if (x <? 0)%R then (- Int_part (- x))%Z else Int_part x.
Definition local_md (r : ts_rank) : list Z :=
  flat_map (fun b => flat_map (fun e => [truncate (te_xc e); truncate (te_yc e); tb_type b]) (counted b)) r.
(* MPI_Gatherv: what process p sends is put at displacement displs[p]; the counts agree (33-55, 339-353) *)
Fixpoint place {A} (buf : list A) (off : nat) (arr : list A) : option (list A) :=
  match buf with [] => Some arr | x :: t => let* arr := upd arr off x in place t (S off) arr end.
Fixpoint gather {A} (k : nat) (bufs : list (list A)) (counts : list nat) (displ : nat) (arr : list A) : option (list A) :=
  match bufs, counts with
  | [], [] => Some arr
  | b :: bt, n :: ct => if Nat.eqb (length b) (k * n) then let* arr := place b displ arr in gather k bt ct (displ + k * n) arr else None
  | _, _ => None
  end.
Definition gatherv {A} (zero : A) (k : nat) (counts : list nat) (bufs : list (list A)) : option (list A) :=
  gather k bufs counts 0 (repeat zero (k * fold_left Nat.add counts 0)).

(** ** State *)
Inductive backend := Petsc | Ceed (p : passive).
(* a line of the file *)
Record row := Row { rw_time : R; rw_xc : Z; rw_yc : Z; rw_type : Z; rw_mass : R; rw_xmom : R; rw_ymom : R; rw_nx : R; rw_ny : R }.
Record ts_state := TsState {
  ts_flux : edge_data;                (* the vectors the operator writes the boundary fluxes to *)
  ts_accum : edge_data;               (* boundary_fluxes_accum (PETSc), flux_accumulated (CEED) *)
  ts_fluxes : list (list vec3);       (* per process: fluxes[] *)
  ts_time : R;                        (* accumulated_time *)
  ts_last : Z;                        (* last_step *)
  ts_file : option (list row);        (* <prefix>-boundary_fluxes.dat *)
}.
Definition zeros (ranks : list ts_rank) : edge_data := tabulate ranks (fun _ _ _ => vzero).
(* 65-117, 246: the check that there are three components returns an error that InitTimeSeries ignores; what
   follows then uses arrays that were not allocated *)
Definition InitBoundaryFluxes (ndof : nat) (ranks : list ts_rank) (file : option (list row)) : result ts_state :=
  if Nat.eqb ndof 3 then Ret (TsState (zeros ranks) (zeros ranks) (map (fun r => repeat vzero (num_local r)) ranks) 0%R (-1)%Z file)
  else UB.

(** ** Evaluation of the right-hand side *)
(* CEED packs the fluxes of the owned edges at the front of the vector (operator_fluxes_ceed.c:497-504: strided
   restriction with one element per owned edge), with zeros behind *)
Definition pack (b : ts_boundary) (v : list vec3) : list vec3 :=
  let w := map snd (filter (fun p => te_owned (fst p)) (combine (tb_edges b) v)) in
  w ++ repeat vzero (length (tb_edges b) - length w).
Definition pack_all (ranks : list ts_rank) (d : edge_data) : edge_data :=
  map (fun p => map (fun q => pack (fst q) (snd q)) (combine (fst p) (snd p))) (combine ranks d).
(* [h]: the step the solver is taking (TSGetTimeStep, rdysetup.c:1128); [f]: the flux through each edge.
   swe_petsc.c:623 accumulates in the operator; CEED writes its vector (with or without adding, see DiagModel). *)
Definition evaluate (bk : backend) (ranks : list ts_rank) (st : ts_state) (h : R) (f : nat -> nat -> nat -> vec3) : ts_state :=
  let d := tabulate ranks f in
  match bk with
  | Petsc => TsState d (combine_data (fun a x => vadd a (vscal h x)) (ts_accum st) d) (ts_fluxes st) (ts_time st) (ts_last st) (ts_file st)
  | Ceed p =>
      let d := pack_all ranks d in
      TsState (match p with Overwrite => d | AddInto => combine_data vadd (ts_flux st) d end) (ts_accum st) (ts_fluxes st) (ts_time st) (ts_last st) (ts_file st)
  end.

(** ** The monitor *)
(* 464-504 *)
Definition AccumulateBoundaryFluxes (bk : backend) (st : ts_state) (dt : R) : ts_state :=
  TsState (ts_flux st)
          (match bk with Petsc => ts_accum st | Ceed _ => combine_data (fun a x => vadd a (vscal dt x)) (ts_accum st) (ts_flux st) end)
          (ts_fluxes st) (ts_time st + dt)%R (ts_last st) (ts_file st).
(* 270-296 with ExtractOperatorBoundaryFluxes (operator.c:926-960, 1069-1086): entry e of the vector is taken for edge e *)
Fixpoint record_edges (es : list ts_edge) (e : nat) (vals : list vec3) (n : nat) (fluxes : list vec3) : option (list vec3) :=
  match es with
  | [] => Some fluxes
  | ed :: t =>
      if te_cell_owned ed then
        let* v := nth_error vals e in
        let* fluxes := upd fluxes n (vscal (te_len ed) v) in
        record_edges t (S e) vals (S n) fluxes
      else record_edges t (S e) vals n fluxes
  end.
Definition RecordBoundaryFluxes (r : ts_rank) (vals : list (list vec3)) (fluxes : list vec3) (b : nat) : option (list vec3) :=
  let* bd := nth_error r b in
  if tb_auto bd then Some fluxes
  else let* n := nth_error (offsets r) b in
       let* v := nth_error vals b in
       record_edges (tb_edges bd) 0 v n fluxes.
Definition record_rank (r : ts_rank) (vals : list (list vec3)) (fluxes : list vec3) : option (list vec3) :=
  ofold (RecordBoundaryFluxes r vals) (seq 0 (length r)) fluxes.
(* 313-334: five numbers per edge; [n] runs over all boundaries *)
Fixpoint rank_data (es : list ts_edge) (n : nat) (fluxes : list vec3) (time : R) : option (list R) :=
  match es with
  | [] => Some []
  | ed :: t =>
      let* v := nth_error fluxes n in
      let* a := rdiv (c0 v) time in
      let* b := rdiv (c1 v) time in
      let* c := rdiv (c2 v) time in
      let* rest := rank_data t (S n) fluxes time in
      Some (a :: b :: c :: te_nx ed :: te_ny ed :: rest)
  end.
(* 371-383 *)
Definition row_at (time : R) (md : list Z) (data : list R) (e : nat) : option row :=
  let* x := nth_error md (3 * e) in
  let* y := nth_error md (3 * e + 1) in
  let* ty := nth_error md (3 * e + 2) in
  let* m := nth_error data (5 * e) in
  let* px := nth_error data (5 * e + 1) in
  let* py := nth_error data (5 * e + 2) in
  let* nx := nth_error data (5 * e + 3) in
  let* ny := nth_error data (5 * e + 4) in
  Some (Row time x y ty m px py nx ny).
(* 298-393 *)
Definition WriteBoundaryFluxes (ranks : list ts_rank) (st : ts_state) (step : nat) (time : R) : option ts_state :=
  let acc := if Reqb (ts_time st) 0 then 1%R else ts_time st in
  let counts := map num_local ranks in
  let* locals := omap (fun p => rank_data (flat_map counted (fst p)) 0 (snd p) acc) (combine ranks (ts_fluxes st)) in
  let* md := gatherv 0%Z 3 counts (map local_md ranks) in
  let* data := gatherv 0%R 5 counts locals in
  let* rows := omap (row_at time md data) (seq 0 (fold_left Nat.add counts 0)) in
  let old := if Nat.eqb step 0 then [] else match ts_file st with Some l => l | None => [] end in
  Some (TsState (ts_flux st) (ts_accum st) (ts_fluxes st) (ts_time st) (ts_last st) (Some (old ++ rows))).
(* 508-527 *)
Definition ResetAccumulatedBoundaryFluxes (ranks : list ts_rank) (st : ts_state) : ts_state :=
  TsState (ts_flux st) (zeros ranks) (ts_fluxes st) 0%R (ts_last st) (ts_file st).
(* 530-564, the part for the boundary fluxes; [dt] is rdy->dt *)
Definition WriteTimeSeries (bk : backend) (ranks : list ts_rank) (interval : nat) (st : ts_state) (step : nat) (time dt : R) : result ts_state :=
  let st := AccumulateBoundaryFluxes bk st dt in
  if Nat.eqb interval 0 then UB else
  if (Nat.eqb (step mod interval) 0 && (ts_last st <? Z.of_nat step)%Z)%bool then
    let! fl := of_option (omap (fun p => record_rank (fst (fst p)) (snd (fst p)) (snd p)) (combine (combine ranks (ts_accum st)) (ts_fluxes st))) in
    let st := TsState (ts_flux st) (ts_accum st) fl (ts_time st) (ts_last st) (ts_file st) in
    let! st := of_option (WriteBoundaryFluxes ranks st step time) in
    let st := ResetAccumulatedBoundaryFluxes ranks st in
    Ret (TsState (ts_flux st) (ts_accum st) (ts_fluxes st) (ts_time st) (Z.of_nat step) (ts_file st))
  else Ret st.

(** ** Runs *)
(* The solver evaluates the right-hand side (with the size of the step being taken) and calls its monitors (with the
   step number, the time and rdy->dt). *)
Inductive event := Eval (h : R) (f : nat -> nat -> nat -> vec3) | Monitor (step : nat) (time dt : R).
Definition react (bk : backend) (ranks : list ts_rank) (interval : nat) (st : ts_state) (e : event) : result ts_state :=
  match e with
  | Eval h f => Ret (evaluate bk ranks st h f)
  | Monitor step time dt => WriteTimeSeries bk ranks interval st step time dt
  end.
Definition runs (bk : backend) (ranks : list ts_rank) (interval : nat) (evs : list event) (st : result ts_state) : result ts_state :=
  fold_left (fun st e => let! st := st in react bk ranks interval st e) evs st.

(** ** Observations (time_series.c:119-239, 395-448) *)
(* A process owns some cells; the global vector lists the cells of process 0, then those of process 1, and so on
   (PETSc's global numbering).  A cell: natural id, centroid. *)
Record obs_cell := ObsCell { ob_natural : nat; ob_x : R; ob_y : R; ob_z : R }.
Definition global_cells (ranks : list (list obs_cell)) : list obs_cell := concat ranks.
(* 119-163: site s is taken from entry s of the global vector; an entry that does not exist is an error of PETSc *)
Definition scatter {A} (sites : list nat) (v : list A) : result (list A) :=
  rmap (fun s => match nth_error v s with Some a => Ret a | None => Error end) sites.
Record obs_row := ObsRow { or_time : R; or_x : R; or_y : R; or_z : R; or_comp : nat; or_value : R }.
Record obs_state := ObsState { os_last_step : Z; os_rows : option (list obs_row) }.
Definition obs_init (file : option (list obs_row)) : obs_state := ObsState (-1)%Z file.
(* 395-448: [u] is the solution per cell, in the global order *)
Definition WriteObservations (ranks : list (list obs_cell)) (sites : list nat) (u : list (list R)) (step : nat) (time : R) (st : obs_state) : result obs_state :=
  let cells := global_cells ranks in
  let! xs := scatter sites (map ob_x cells) in
  let! ys := scatter sites (map ob_y cells) in
  let! zs := scatter sites (map ob_z cells) in
  let! us := scatter sites u in
  let rows := flat_map (fun p => let '(x, y, z, v) := p in map (fun cv => ObsRow time x y z (fst cv) (snd cv)) (combine (seq 0 (length v)) v))
                       (combine (combine (combine xs ys) zs) us) in
  let old := if Nat.eqb step 0 then [] else match os_rows st with Some l => l | None => [] end in
  Ret (ObsState (os_last_step st) (Some (old ++ rows))).
(* 530-543: last_step is compared but not updated *)
Definition observe (ranks : list (list obs_cell)) (sites : list nat) (interval : nat) (st : obs_state) (c : nat * R * list (list R)) : result obs_state :=
  let '(step, time, u) := c in
  if (negb (Nat.eqb interval 0) && Nat.eqb (step mod interval) 0 && (os_last_step st <? Z.of_nat step)%Z)%bool
  then WriteObservations ranks sites u step time st else Ret st.
Definition observations (ranks : list (list obs_cell)) (sites : list nat) (interval : nat) (cs : list (nat * R * list (list R))) (st : result obs_state) : result obs_state :=
  fold_left (fun st c => let! st := st in observe ranks sites interval st c) cs st.
