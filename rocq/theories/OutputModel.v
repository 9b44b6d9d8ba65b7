(** Visualization output: file names, averaged variables, the XDMF monitor (src/xdmf_output.c, src/rdyadvance.c,
    field names from src/rdysetup.c). *)
From Verif Require Import Base SetupModel TimeModel.
From Coq Require Import ZArith NArith String Ascii Decimal DecimalString.
Local Open Scope nat_scope.
Local Open Scope string_scope.
Local Notation length := List.length.
Local Notation concat := List.concat.

(** ** Text *)
(* printf "%d" of a number that is not negative *)
Definition dec (n : nat) : string := NilEmpty.string_of_uint (N.to_uint (N.of_nat n)).
Fixpoint zeros (k : nat) : string := match k with 0 => "" | S k => String "0" (zeros k) end.
(* printf "%0<width>d" *)
Definition padded (width n : nat) : string := zeros (width - String.length (dec n)) ++ dec n.
(* snprintf(buffer, size, ...): at most size - 1 characters are kept *)
Definition PETSC_MAX_PATH_LEN : Z := 4096.
Definition snprintf (size : Z) (s : string) : string := substring 0 (Z.to_nat (size - 1)) s.

(** ** File names (rdyadvance.c) *)
(* 69-79: (int)log10(max) + 1 is the number of digits of max >= 1 (log10 taken to be exact); log10 of 0 or less is not
   finite, and converting it to int is undefined behaviour. *)
Definition GenerateIndexedFilename (directory prefix : string) (index : nat) (max_index : Z) (suffix : string) : result string :=
  if (max_index <=? 0)%Z then UB else
  let num_digits := String.length (dec (Z.to_nat max_index)) in
  let ending := snprintf (PETSC_MAX_PATH_LEN - 1) ("-" ++ padded num_digits index ++ "." ++ suffix) in
  Ret (snprintf (PETSC_MAX_PATH_LEN - 1) (directory ++ "/" ++ prefix ++ ending)).
(* 82-89 with 102-104: [date] gives the text YYYY-MM-DD.hh.mm.ss for the configured date plus a number of seconds *)
Definition GenerateTimestampedFilename (directory prefix : string) (date : Z -> string) (seconds : Z) (suffix : string) : string :=
  snprintf (PETSC_MAX_PATH_LEN - 1) (directory ++ "/" ++ prefix ++ "." ++ date seconds ++ "." ++ suffix).

Inductive out_format := OUTPUT_NONE | OUTPUT_BINARY | OUTPUT_XDMF | OUTPUT_CGNS.
Record out_config := OutConfig {
  oc_directory : string;               (* output.directory *)
  oc_member : option string;           (* name of the ensemble member, if ensemble.size > 1 *)
  oc_prefix : string;                  (* DetermineConfigPrefix *)
  oc_date : option (Z -> string);      (* time.date, if a date is configured *)
  oc_unit : time_unit;                 (* time.unit *)
  oc_stop_n : Z;                       (* time.stop_n *)
  oc_format : out_format;
  oc_interval : nat;                   (* output.output_interval *)
  oc_time_interval : nat;              (* output.time_interval *)
  oc_time_unit : time_unit;            (* output.time_unit *)
  oc_batch : nat;                      (* output.batch_size, 1 or more after validation *)
  oc_fields : list string;             (* output.fields *)
}.
(* 15-28: [cache] is the static buffer, "" until the first call of the process *)
Definition GetOutputDirectory (cache : string) (oc : out_config) : string * string :=
  let d := if String.eqb cache "" then
             match oc_member oc with
             | Some m => snprintf (PETSC_MAX_PATH_LEN - 1) (oc_directory oc ++ "/" ++ m)
             | None => snprintf (PETSC_MAX_PATH_LEN - 1) (oc_directory oc)
             end
           else cache in
  (d, d).

(* 95-151.  [time] is in the configured unit; (time_t)time truncates (times are not negative). The directory is
   passed. A division by an interval or batch size of 0 is undefined behaviour. *)
Definition quot (a b : nat) : result nat := if Nat.eqb b 0 then UB else Ret (a / b).
Definition stamped_or_indexed (oc : out_config) (dir : string) (step : nat) (time : R) (suffix : string) : result string :=
  match oc_date oc with
  | Some date => Ret (GenerateTimestampedFilename dir (oc_prefix oc) date (Int_part time) suffix)
  | None => GenerateIndexedFilename dir (oc_prefix oc) step (oc_stop_n oc) suffix
  end.
Definition zquot (a : Z) (b : nat) : result Z := if Nat.eqb b 0 then UB else Ret (Z.quot a (Z.of_nat b)).
Definition DetermineOutputFile (oc : out_config) (dir : string) (step : nat) (time : R) (suffix : string) : result string :=
  match oc_format oc with
  | OUTPUT_BINARY => stamped_or_indexed oc dir step time suffix
  | OUTPUT_XDMF =>
      if String.eqb suffix "h5" then
        if Nat.eqb (oc_batch oc) 1 then stamped_or_indexed oc dir step time suffix
        else
          let! d := quot step (oc_interval oc) in
          let! batch := quot d (oc_batch oc) in
          let! m := zquot (oc_stop_n oc) (oc_interval oc) in
          let! max_batch := zquot m (oc_batch oc) in
          GenerateIndexedFilename dir (oc_prefix oc) batch (if (max_batch <? 1)%Z then 1%Z else max_batch) suffix
      else if String.eqb suffix "xmf" then stamped_or_indexed oc dir step time suffix
      else Error
  | OUTPUT_CGNS => Ret (snprintf (PETSC_MAX_PATH_LEN - 1) (dir ++ "/" ++ oc_prefix oc ++ "-%d." ++ suffix))
  | OUTPUT_NONE => Error
  end.
(* xdmf_output.c:142-156 *)
Record amr_state := Amr { amr_on : bool; amr_refinements : nat; amr_last_output : Z }.
Definition DetermineGridFile (oc : out_config) (dir : string) (amr : amr_state) : string :=
  snprintf PETSC_MAX_PATH_LEN
    (if amr_on amr then dir ++ "/" ++ oc_prefix oc ++ "-grid.r" ++ dec (amr_refinements amr) ++ ".h5"
     else dir ++ "/" ++ oc_prefix oc ++ "-grid.h5").

(** ** Fields *)
(* SectionFieldSpec: names of the components of each field *)
Definition field_spec := list (list string).
Definition requested (fields : list string) (name : string) : bool := existsb (fun f => String.eqb f name) fields.
(* the loop over fields and components with the running index c_global *)
Definition components (spec : field_spec) : list (nat * string) := combine (seq 0 (length (concat spec))) (concat spec).
Definition offset_of (skip_first : bool) : nat := if skip_first then 1 else 0.
(* the components visited and requested: xdmf_output.c:85-99, 116-137 *)
Definition selected (fields : list string) (skip_first : bool) (spec : field_spec) : list (nat * string) :=
  filter (fun cn => (negb (Nat.ltb (fst cn) (offset_of skip_first)) && requested fields (snd cn))%bool) (components spec).
(* 11-23 *)
Definition AnyFieldRequested (fields : list string) (spec : field_spec) (skip_first : bool) : bool :=
  existsb (fun cn => if (skip_first && Nat.eqb (fst cn) 0)%bool then false else requested fields (snd cn)) (components spec).
(* VecStrideGatherAll: component [c] of every row of [bs] entries *)
Definition stride (bs c : nat) (v : list R) : list R :=
  map (fun i => nth (bs * i + c) v 0%R) (seq 0 (length v / bs)).
(* 28-103: the datasets written; the vector is taken in output order (DMPlexGlobalToNatural is not modelled). An index
   outside the component vectors is undefined behaviour. *)
Definition WriteRequestedFields (bs : nat) (v : list R) (skip_first : bool) (spec : field_spec) (fields : list string) : result (list (string * list R)) :=
  match fields with
  | [] => Ret []
  | _ =>
      check (Nat.ltb 0 bs)
        (check (Nat.eqb (length v mod bs) 0)
           (check (Z.leb (Z.of_nat (length (concat spec)) - Z.of_nat (offset_of skip_first)) (Z.of_nat bs))
              (rmap (fun cn => if Nat.ltb (fst cn) bs then Ret (snd cn, stride bs (fst cn) v) else UB) (selected fields skip_first spec))))
  end.
(* 108-139: names of the datasets referenced *)
Definition WriteFieldMetadata (fields : list string) (spec : field_spec) (skip_first : bool) : list string :=
  match fields with [] => [] | _ => map snd (selected fields skip_first spec) end.

(** ** Output variables (include/private/rdyoutputimpl.h) *)
Record output_var := OutputVar {
  ov_inst_fields : field_spec;
  ov_avg_fields : field_spec;
  ov_time : R;                             (* accumulated_time *)
  ov_skip : bool;
  ov_bs : nat;                             (* block size of the vectors *)
  ov_inst : list R;                        (* petsc_inst *)
  ov_accum : list R;                       (* petsc_accum *)
  ov_ceed : option (list R * list R);      (* ceed_inst and ceed_accum, if not NULL *)
}.
Definition axpy (a : R) (y x : list R) : list R := map (fun p => (fst p + a * snd p)%R) (combine y x).
(* the operator writes the current values where the output variable points (the vectors are shared) *)
Definition load (v : list R) (o : output_var) : output_var :=
  match ov_ceed o with
  | Some (_, a) => OutputVar (ov_inst_fields o) (ov_avg_fields o) (ov_time o) (ov_skip o) (ov_bs o) (ov_inst o) (ov_accum o) (Some (v, a))
  | None => OutputVar (ov_inst_fields o) (ov_avg_fields o) (ov_time o) (ov_skip o) (ov_bs o) v (ov_accum o) None
  end.
(* xdmf_output.c:178-194 *)
Definition StageInstantaneous (o : output_var) : output_var :=
  match ov_ceed o with
  | Some (i, a) => OutputVar (ov_inst_fields o) (ov_avg_fields o) (ov_time o) (ov_skip o) (ov_bs o) i (ov_accum o) (Some (i, a))
  | None => o
  end.
(* 197-206 *)
Definition AccumulateOutputVar (o : output_var) (dt : R) : output_var :=
  match ov_ceed o with
  | Some (i, a) => OutputVar (ov_inst_fields o) (ov_avg_fields o) (ov_time o + dt)%R (ov_skip o) (ov_bs o) (ov_inst o) (ov_accum o) (Some (i, axpy dt a i))
  | None => OutputVar (ov_inst_fields o) (ov_avg_fields o) (ov_time o + dt)%R (ov_skip o) (ov_bs o) (ov_inst o) (axpy dt (ov_accum o) (ov_inst o)) None
  end.
(* 211-230 *)
Definition ComputeMean (o : output_var) : result output_var :=
  check (0 <? ov_time o)%R
    (let scale := (1 / ov_time o)%R in
     Ret match ov_ceed o with
         | Some (i, a) => OutputVar (ov_inst_fields o) (ov_avg_fields o) (ov_time o) (ov_skip o) (ov_bs o) (ov_inst o) (map (fun x => x * scale)%R a) (Some (i, a))
         | None => OutputVar (ov_inst_fields o) (ov_avg_fields o) (ov_time o) (ov_skip o) (ov_bs o) (ov_inst o) (map (fun x => x * scale)%R (ov_accum o)) None
         end).
(* 233-241 *)
Definition ResetOutputVar (o : output_var) : output_var :=
  OutputVar (ov_inst_fields o) (ov_avg_fields o) 0%R (ov_skip o) (ov_bs o) (ov_inst o) (map (fun _ => 0%R) (ov_accum o))
            (option_map (fun ia => (fst ia, map (fun _ => 0%R) (snd ia))) (ov_ceed o)).

(** ** Files *)
(* The group "<step> <time> <unit>": the step and the time (the text of the time is not modelled). *)
Definition group_name := (nat * R)%type.
Definition group_eqb (a b : group_name) : bool := (Nat.eqb (fst a) (fst b) && Reqb (snd a) (snd b))%bool.
Definition datasets := list (string * list R).
(* light data: the grid file and the datasets it points to, by the name of a file in the same directory *)
Record xmf := Xmf { xm_grid : string; xm_data : list (string * group_name * string) }.
Inductive file := Heavy (groups : list (group_name * datasets)) | Grid | Light (x : xmf).
Definition files := string -> option file.
Definition put (fs : files) (name : string) (f : file) : files := fun n => if String.eqb n name then Some f else fs n.
(* datasets of a group: those of an existing group of that name are replaced or kept *)
Definition merge (old new : datasets) : datasets :=
  (filter (fun d => negb (existsb (fun e => String.eqb (fst e) (fst d)) new)) old ++ new)%list.
Fixpoint add_group (gs : list (group_name * datasets)) (g : group_name) (d : datasets) : list (group_name * datasets) :=
  match gs with
  | [] => [(g, d)]
  | (h, e) :: t => if group_eqb h g then (h, merge e d) :: t else (h, e) :: add_group t g d
  end.
(* PetscViewerHDF5Open: FILE_MODE_WRITE creates or truncates, FILE_MODE_APPEND opens (or creates); appending to
   something that is not an HDF5 data file fails here *)
Definition open_h5 (fs : files) (name : string) (append : bool) : result (list (group_name * datasets)) :=
  if append then match fs name with Some (Heavy gs) => Ret gs | None => Ret [] | Some _ => Error end else Ret [].

(** ** The monitor *)
(* the three variables: solution, primitive variables, sources *)
Record out_state := OutState {
  os_soln : output_var; os_prim : output_var; os_src : output_var;
  os_soln_fields : field_spec;             (* rdy->soln_fields *)
  os_last : Z;                             (* last_accumulated_step *)
  os_prev : R;                             (* prev_output_time *)
  os_files : files;
  os_amr : amr_state;
}.
Definition write_var (fields : list string) (o : output_var) : result datasets :=
  let! a := WriteRequestedFields (ov_bs o) (ov_accum o) (ov_skip o) (ov_avg_fields o) fields in
  match ov_inst_fields o with
  | [] => Ret a
  | _ => let! i := WriteRequestedFields (ov_bs o) (ov_inst o) (ov_skip o) (ov_inst_fields o) fields in Ret (a ++ i)%list
  end.
(* 282-294; [u] is u_global, with the block size of the solution variable *)
Definition heavy_datasets (oc : out_config) (st : out_state) (u : list R) : result datasets :=
  let! s := WriteRequestedFields (ov_bs (os_soln st)) u false (os_soln_fields st) (oc_fields oc) in
  let! a := write_var (oc_fields oc) (os_soln st) in
  let! b := write_var (oc_fields oc) (os_prim st) in
  let! c := write_var (oc_fields oc) (os_src st) in
  Ret (s ++ a ++ b ++ c)%list.
(* 254-325 *)
Definition WriteXDMFHDF5Data (oc : out_config) (dir : string) (st : out_state) (u : list R) (step : nat) (time : R) (gridname : string) : result out_state :=
  let! name := DetermineOutputFile oc dir step time "h5" in
  let! dataset := quot step (oc_interval oc) in
  let! _ := quot dataset (oc_batch oc) in
  let append := negb (Nat.eqb (dataset mod oc_batch oc) 0) in
  let! gs := open_h5 (os_files st) name append in
  let! d := heavy_datasets oc st u in
  let fs := put (os_files st) name (Heavy (add_group gs (step, time) d)) in
  let amr := os_amr st in
  let write_grid := if amr_on amr then (amr_last_output amr <? Z.of_nat (amr_refinements amr))%Z else Nat.eqb step 0 in
  let amr' := if (amr_on amr && write_grid)%bool then Amr true (amr_refinements amr) (Z.of_nat (amr_refinements amr)) else amr in
  let fs := if write_grid then put fs gridname Grid else fs in
  Ret (OutState (os_soln st) (os_prim st) (os_src st) (os_soln_fields st) (os_last st) (os_prev st) fs amr').
(* strrchr(name, '/') *)
Fixpoint split_path (s : string) : string * string :=
  match s with
  | EmptyString => ("", "")
  | String c t => let (d, b) := split_path t in
                  if (String.eqb d "" && negb (Ascii.eqb c "/"))%bool then ("", String c b) else (String c d, b)
  end.
Definition basename (s : string) : string := snd (split_path s).
Definition dirname (s : string) : string := fst (split_path s).
Definition var_metadata (fields : list string) (o : output_var) : list string :=
  (WriteFieldMetadata fields (ov_avg_fields o) (ov_skip o) ++
   match ov_inst_fields o with [] => [] | _ => WriteFieldMetadata fields (ov_inst_fields o) (ov_skip o) end)%list.
Definition metadata (oc : out_config) (st : out_state) : list string :=
  (WriteFieldMetadata (oc_fields oc) (os_soln_fields st) false ++
   var_metadata (oc_fields oc) (os_soln st) ++ var_metadata (oc_fields oc) (os_prim st) ++ var_metadata (oc_fields oc) (os_src st))%list.
(* 329-434 *)
Definition WriteXDMFXMFData (oc : out_config) (dir : string) (st : out_state) (step : nat) (time : R) (gridname : string) : result out_state :=
  let! h5_name := DetermineOutputFile oc dir step time "h5" in
  let! xmf_name := DetermineOutputFile oc dir step time "xmf" in
  let x := Xmf (basename gridname) (map (fun n => (basename h5_name, (step, time), n)) (metadata oc st)) in
  let fs := put (os_files st) xmf_name (Light x) in
  match fs h5_name with
  | Some (Heavy _) => Ret (OutState (os_soln st) (os_prim st) (os_src st) (os_soln_fields st) (os_last st) (os_prev st) fs (os_amr st))
  | _ => Error
  end.

(* 465-471: fmod for times that are not negative, DBL_EPSILON = 2^-52 *)
Definition fmod (t d : R) : R := (t - d * IZR (Int_part (t / d)))%R.
Definition DBL_EPSILON : R := (/ 2 ^ 52)%R.
Definition time_due (oc : out_config) (time : R) : bool :=
  if Nat.ltb 0 (oc_time_interval oc) then
    let dt := ConvertTimeToSeconds (INR (oc_time_interval oc)) (oc_time_unit oc) in
    let tmp := fmod time dt in
    ((Rabs tmp <? 10 * DBL_EPSILON)%R || (Rabs (tmp - dt) <? 10 * DBL_EPSILON)%R)%bool
  else false.
(* 474-476 *)
Definition step_due (oc : out_config) (step : nat) : bool :=
  (Nat.ltb 0 (oc_interval oc) && Nat.eqb (step mod oc_interval oc) 0)%bool.
Definition due (oc : out_config) (step : nat) (time : R) : bool := (time_due oc time || step_due oc step)%bool.

(* A call of the monitor: step and time (s) of the solver, rdy->dt (s), and the current values of the solution, the
   primitive variables and the sources. *)
Record mon_call := MonCall { mc_step : nat; mc_time : R; mc_dt : R; mc_u : list R; mc_prim : list R; mc_src : list R }.
Definition needs (oc : out_config) (o : output_var) : bool := AnyFieldRequested (oc_fields oc) (ov_avg_fields o) (ov_skip o).
Definition needs_inst (oc : out_config) (o : output_var) : bool := AnyFieldRequested (oc_fields oc) (ov_inst_fields o) (ov_skip o).
Definition with_vars (st : out_state) (a b c : output_var) : out_state :=
  OutState a b c (os_soln_fields st) (os_last st) (os_prev st) (os_files st) (os_amr st).
Definition on_vars (oc : out_config) (f : output_var -> output_var) (st : out_state) : out_state :=
  let g o := if needs oc o then f o else o in with_vars st (g (os_soln st)) (g (os_prim st)) (g (os_src st)).
Definition mean_of (oc : out_config) (o : output_var) : result output_var := if needs oc o then ComputeMean o else Ret o.
(* 436-504 *)
Definition WriteXDMFOutput (oc : out_config) (dir : string) (st : out_state) (c : mon_call) : result out_state :=
  let st := with_vars st (load (mc_u c) (os_soln st)) (load (mc_prim c) (os_prim st)) (load (mc_src c) (os_src st)) in
  if Reqb (mc_time c) (os_prev st) then Ret st else
  let st := if Z.eqb (os_last st) (Z.of_nat (mc_step c)) then st
            else let st := on_vars oc (fun o => AccumulateOutputVar o (mc_dt c)) st in
                 OutState (os_soln st) (os_prim st) (os_src st) (os_soln_fields st) (Z.of_nat (mc_step c)) (os_prev st) (os_files st) (os_amr st) in
  if due oc (mc_step c) (mc_time c) then
    let! a := mean_of oc (os_soln st) in
    let! b := mean_of oc (os_prim st) in
    let! s := mean_of oc (os_src st) in
    let stage o := if needs_inst oc o then StageInstantaneous o else o in
    let st := OutState a (stage b) (stage s) (os_soln_fields st) (os_last st) (mc_time c) (os_files st) (os_amr st) in
    let t := ConvertTimeFromSeconds (mc_time c) (oc_unit oc) in
    let! st := (match oc_format oc with
                | OUTPUT_XDMF =>
                    let grid := DetermineGridFile oc dir (os_amr st) in
                    let! st := WriteXDMFHDF5Data oc dir st (mc_u c) (mc_step c) t grid in
                    WriteXDMFXMFData oc dir st (mc_step c) t grid
                | _ => Ret st
                end) in
    Ret (on_vars oc ResetOutputVar st)
  else Ret st.
Definition monitors (oc : out_config) (dir : string) (cs : list mon_call) (st : result out_state) : result out_state :=
  fold_left (fun st c => let! st := st in WriteXDMFOutput oc dir st c) cs st.

(** ** Field specifications and initial state (rdysetup.c:1404-1479, rdydm.c:266-274, yaml_input.c:1091) *)
Definition indexed (a : string) (n : nat) (b : string) : list string := map (fun i => a ++ dec i ++ b) (seq 0 n).
(* components without a name (salinity, temperature) have an empty one *)
Definition unnamed (k : nat) : list string := repeat "" k.
Definition soln_fields (classes others : nat) : field_spec :=
  [["Height"; "MomentumX"; "MomentumY"] ++ indexed "SedimentMassPerUnitArea" classes "" ++ unnamed others]%list.
Definition soln_avg_fields (classes others : nat) : field_spec :=
  [["Height_Mean"; "MomentumX_Mean"; "MomentumY_Mean"] ++ indexed "SedimentMassPerUnitArea" classes "_Mean" ++ unnamed others]%list.
Definition prim_avg_fields (classes others : nat) : field_spec :=
  [["Height_Mean"; "VelocityX_Mean"; "VelocityY_Mean"] ++ indexed "SedimentConcentration" classes "_Mean" ++ unnamed others]%list.
Definition prim_inst_fields (classes others : nat) : field_spec :=
  [["Height"; "VelocityX"; "VelocityY"] ++ indexed "SedimentConcentration" classes "" ++ unnamed others]%list.
Definition src_inst_fields (classes : nat) : field_spec :=
  [["WaterSource"; "MomentumXSource"; "MomentumYSource"] ++ indexed "SedimentMassPerUnitArea" classes "Source"]%list.
Definition src_avg_fields (classes : nat) : field_spec :=
  [["WaterSource_Mean"; "MomentumXSource_Mean"; "MomentumYSource_Mean"] ++ indexed "SedimentMassPerUnitArea" classes "Source_Mean"]%list.

(* [cells] owned cells; [ceed]: primitive variables and sources are kept by CEED *)
Definition fresh_vec (bs cells : nat) : list R := repeat 0%R (bs * cells).
Definition fresh_var (inst avg : field_spec) (skip : bool) (bs cells : nat) (ceed : bool) : output_var :=
  OutputVar inst avg 0%R skip bs (fresh_vec bs cells) (fresh_vec bs cells)
            (if ceed then Some (fresh_vec bs cells, fresh_vec bs cells) else None).
Definition init_output (classes others cells : nat) (ceed : bool) (fs : files) (amr : amr_state) : out_state :=
  let bs := 3 + classes + others in
  OutState (fresh_var [] (soln_avg_fields classes others) false bs cells false)
           (fresh_var (prim_inst_fields classes others) (prim_avg_fields classes others) true bs cells ceed)
           (fresh_var (src_inst_fields classes) (src_avg_fields classes) false bs cells ceed)
           (soln_fields classes others) (-1)%Z (-1)%R fs amr.

(* yaml_input.c:1119-1192: names accepted in output.fields *)
Definition exact_output_fields : list string :=
  ["Height"; "MomentumX"; "MomentumY"; "WaterSource"; "MomentumXSource"; "MomentumYSource";
   "Height_Mean"; "MomentumX_Mean"; "MomentumY_Mean"; "VelocityX_Mean"; "VelocityY_Mean"; "VelocityX"; "VelocityY";
   "WaterSource_Mean"; "MomentumXSource_Mean"; "MomentumYSource_Mean"].
Definition indexed_output_fields : list (string * string) :=
  [("SedimentMassPerUnitArea", ""); ("SedimentMassPerUnitArea", "Source"); ("SedimentMassPerUnitArea", "_Mean");
   ("SedimentMassPerUnitArea", "Source_Mean"); ("SedimentConcentration", "_Mean"); ("SedimentConcentration", "")].
Definition valid_field (classes : nat) (f : string) : bool :=
  (existsb (fun e => String.eqb e f) exact_output_fields ||
   existsb (fun ab => existsb (fun i => String.eqb (fst ab ++ dec i ++ snd ab) f) (seq 0 classes)) indexed_output_fields)%bool.
