(** Marking cells for refinement (src/rdyamr.c:11-88, 161-181) and the driver that refines during a run (driver/amr.c). *)
From Coq Require Import ZArith String Ascii.
From Verif Require Import Base SetupModel ConfigModel OutputModel CalendarModel AMRModel AMRProperties ForcingOptionsModel.
Local Notation length := List.length.
Local Open Scope nat_scope.

(** ** Marks (rdyamr.c) *)
(* the mesh of a process: the first cell point (DMPlexGetHeightStratum), one flag and centroid per local cell, the local
   number of each owned cell *)
Record mesh := Mesh { first_cell : nat; is_owned : list bool; centroids : list (R * R); owned_to_local : list nat }.
(* rdy->amr: cells_marked_for_refinement, refine_cell (None: nothing allocated), and the number of arrays that were
   allocated and can no longer be freed *)
Record marks := Marks { mk_flag : bool; mk_array : option (list bool); mk_lost : nat }.
Definition no_marks : marks := Marks false None 0.
(* 46-62.  [debug]: PetscAssert does nothing in optimised builds.  PetscCalloc1 overwrites the pointer.  Reading behind the
   end of the array of the caller is undefined.  The flag is set before the check. *)
Definition RDyMarkOwnedCellsForAMR (debug : bool) (m : mesh) (size : nat) (refine_cell : list bool) (k : marks) : result marks :=
  check (negb debug || Nat.eqb (length (owned_to_local m)) size)
    (let! a := rmap (fun i => of_option (nth_error refine_cell i)) (seq 0 size) in
     Ret (Marks true (Some a) (mk_lost k + match mk_array k with Some _ => 1 | None => 0 end))).
(* the condition of 33 *)
Definition in_default_box (p : R * R) : bool := (Rleb 0 (fst p) && Rltb (fst p) 1 && (Rleb 3 (snd p) && Rleb (snd p) 4))%bool.
(* 11-39: the points that get the value DM_ADAPT_REFINE, in the order of the loop *)
Definition CreateAdaptLabelInternal (m : mesh) : result (list nat) :=
  let! l := rmap (fun i =>
    let! o := of_option (nth_error (is_owned m) i) in
    if o then let! p := of_option (nth_error (centroids m) i) in Ret (if in_default_box p then [first_cell m + i] else []) else Ret [])
    (seq 0 (length (is_owned m))) in
  Ret (concat l).
(* 69-88 *)
Definition CreateAdaptLabelFromMarkedCells (m : mesh) (k : marks) : result (list nat) :=
  let! l := rmap (fun c =>
    let! a := of_option (mk_array k) in
    let! r := of_option (nth_error a c) in
    if r then let! l := of_option (nth_error (owned_to_local m) c) in Ret [l + first_cell m] else Ret [])
    (seq 0 (length (owned_to_local m))) in
  Ret (concat l).
(* 173-179, the label given to DMAdaptLabel; PetscFree sets the pointer to NULL *)
Definition adapt_label (m : mesh) (k : marks) : result (list nat * marks) :=
  if mk_flag k then let! l := CreateAdaptLabelFromMarkedCells m k in Ret (l, Marks false None (mk_lost k))
  else let! l := CreateAdaptLabelInternal m in Ret (l, k).

(* What an application does: it marks cells, or has the mesh refined, which gives the process another mesh. *)
Inductive event := Mark (size : nat) (refine_cell : list bool) | Refine (finer : mesh).
(* the labels of the refinements, and what is left at the end *)
Definition event_step (debug : bool) (s : mesh * marks * list (list nat)) (e : event) : result (mesh * marks * list (list nat)) :=
  let '(m, k, out) := s in
  match e with
  | Mark size a => let! k := RDyMarkOwnedCellsForAMR debug m size a k in Ret (m, k, out)
  | Refine finer => let! r := adapt_label m k in Ret (finer, snd r, out ++ [fst r])
  end.
Fixpoint events (debug : bool) (s : mesh * marks * list (list nat)) (l : list event) : result (mesh * marks * list (list nat)) :=
  match l with [] => Ret s | e :: l => let! s := event_step debug s e in events debug s l end.

(** ** The driver (driver/amr.c) *)
Local Open Scope string_scope.
(* RefinementDataset, 14-20; the buffer of the file name is filled before it is used *)
Record refinement_data := RefinementData { rf_dir : string; rf_defined : bool; rf_date : tm }.
(* 33-74.  The structure is a local variable of main: without the option its directory and date are left undefined, and not
   used.  The number of values of the date is not looked at: the others are values of an uninitialised array, and using them
   is undefined. *)
Definition ParseRefinementDataOptions (a : args) : result refinement_data :=
  let date := GetIntArray a "-refine_data_start_date" 5 in
  let dir := GetString a "-refine_data_dir" in
  match date with
  | None => Ret (RefinementData (or_else dir "") false no_date)
  | Some l => check (is_some dir) (let! d := of_option (date_of l) in Ret (RefinementData (or_else dir "") true d))
  end.
(* 22-30: the same text as for forcing data *)
Definition DetermineDatasetFilename (date : tm) (dir id_type : string) : tm * string := RDyForcingDetermineDatasetFilename date dir id_type.
(* 209-210 *)
Definition next_minute (date : tm) : tm := localtime (mktime (Tm (tm_year date) (tm_mon date) (tm_mday date) (tm_hour date) (tm_min date + 1) (tm_sec date))).
(* 76-112: the marks; [global]: one value per owned cell *)
Definition dataset_marks (areas global : list R) : result (list bool) :=
  rmap (fun i => let! g := of_option (nth_error global i) in
    let! a := of_option (nth_error areas i) in
    Ret (Rltb 0 g && Rltb (1 / 4 / 2) a)%bool) (seq 0 (length areas)).
(* 114-152; [xc], [yc]: centroids of the owned cells *)
Definition box_marks (xc yc : list R) : result (list bool) :=
  rmap (fun i => let! x := of_option (nth_error xc i) in
    let! y := of_option (nth_error yc i) in
    Ret (Rltb 0 x && Rltb x 1 && Rltb 3 y && Rltb y 4)%bool) (seq 0 (length xc)).
(* A level of the mesh, on one process that owns all its cells: areas and centroids, and what refinement makes of it
   ([lv_step]; AMRProperties.step). *)
Record level := Level { lv_areas : list R; lv_x : list R; lv_y : list R; lv_step : step }.
(* The environment: the files of level-0 values (already in the order of the cells: DMPlexNaturalToGlobal), the type of
   indices in their names *)
Record world := World { w_file : string -> option (list R); w_id_type : string }.
(* a refinement: the file read, if any, and the marks handed to RDyMarkOwnedCellsForAMR *)
Definition refinement := (option string * list bool)%type.
(* 194-198: before the first interval the level-0 values are those of the cells *)
Definition first_refinement (w : world) (bs : nat) (d : refinement_data) (a : amr) (lv : level) : result (tm * amr * refinement) :=
  let '(date, file) := DetermineDatasetFilename (rf_date d) (rf_dir d) (w_id_type w) in
  let! global := match w_file w file with Some v => Ret v | None => Error end in
  let! r := dataset_marks (lv_areas lv) global in
  let! a := of_option (perform bs a (lv_step lv)) in
  Ret (date, a, (Some file, r)).
(* 206-225 *)
Definition loop_refinement (w : world) (bs : nat) (d : refinement_data) (date : tm) (a : amr) (lv : level) : result (tm * amr * refinement) :=
  let! x := (if rf_defined d then
      let '(date, file) := DetermineDatasetFilename (next_minute date) (rf_dir d) (w_id_type w) in
      let! base := match w_file w file with Some v => Ret v | None => Error end in
      let! current := of_option (RDyMapAMRScalarGlobalVecLevel0ToCurrentLevel a base) in
      let! r := dataset_marks (lv_areas lv) current in
      Ret (date, (Some file, r))
    else let! r := box_marks (lv_x lv) (lv_y lv) in Ret (date, (None, r))) in
  let! a := of_option (perform bs a (lv_step lv)) in
  Ret (fst x, a, snd x).
Fixpoint loop (w : world) (bs : nat) (d : refinement_data) (date : tm) (a : amr) (levels : list level) : result (list refinement) :=
  match levels with
  | [] => Ret []
  | lv :: levels => let! x := loop_refinement w bs d date a lv in let! l := loop w bs d (fst (fst x)) (snd (fst x)) levels in Ret (snd x :: l)
  end.
(* 181-227: [levels]: the meshes that are refined, in order; their number is decided by RDyFinished *)
Definition driver (w : world) (bs : nat) (opts : args) (a : amr) (levels : list level) : result (list refinement) :=
  let! d := ParseRefinementDataOptions opts in
  if rf_defined d then
    match levels with
    | [] => Ret []
    | lv :: levels => let! x := first_refinement w bs d a lv in let! l := loop w bs d (fst (fst x)) (snd (fst x)) levels in Ret (snd x :: l)
    end
  else loop w bs d (rf_date d) a levels.
