(** Defaults and validation of the configuration (src/yaml_input.c:849-1201). *)
From Verif Require Import Base SetupModel TimeModel OutputModel.
From Coq Require Import ZArith String.
Local Open Scope R_scope.
Local Notation length := List.length.

(** ** The configuration as parsed (include/private/rdyconfigimpl.h): what was not given is 0 or "" *)
Inductive source_method := SOURCE_SEMI_IMPLICIT | SOURCE_IMPLICIT_XQ2018 | SOURCE_ARK_IMEX.      (* 52-56; the first is 0 *)
Inductive balancing := WELL_BALANCING_NONE | WELL_BALANCING_BS2002 | WELL_BALANCING_HR.          (* 58-62 *)
Inductive spatial_method := SPATIAL_FV | SPATIAL_FE.
Inductive temporal_method := TEMPORAL_EULER | TEMPORAL_RK4 | TEMPORAL_ARK_IMEX | TEMPORAL_BEULER.
Inductive riemann_method := RIEMANN_ROE | RIEMANN_UPWIND_ROE | RIEMANN_HLLC.
Record physics := Physics { ph_tiny_h : R; ph_h_anuga : R; ph_method : source_method; ph_threshold : R; ph_balancing : balancing; ph_classes : Z }.
Record numerics := Numerics { nu_spatial : spatial_method; nu_temporal : temporal_method; nu_riemann : riemann_method }.
Record adaptive := Adaptive { ad_enable : bool; ad_target : R; ad_factor : R; ad_initial : R }.
(* [tm_date]: number of items sscanf converts from the date, if there is one *)
Record times := Times { tm_date : option nat; tm_unit : time_unit; tm_stop : R; tm_stop_n : Z; tm_step : R; tm_coupling : R; tm_adaptive : adaptive }.
(* which texts were given: value and file of a material with the format of the file; a flow condition; a component *)
Record mat_spec := MatSpec { ms_value : bool; ms_file : bool; ms_format : bool }.
(* the type of a condition is -1 if not set *)
Record flow_spec := FlowSpec { fs_type : Z; fs_height : bool; fs_xmom : bool; fs_ymom : bool; fs_value : bool; fs_file : bool }.
Definition CONDITION_DIRICHLET' : Z := 0. Definition CONDITION_REFLECTING' : Z := 2. Definition CONDITION_CRITICAL_OUTFLOW' : Z := 3.   (* rdycore.h; the values themselves do not matter *)
Record sed_spec := SedSpec { ss_type : Z; ss_classes : nat -> bool }.         (* class -> expression or file given *)
Record sal_spec := SalSpec { ls_type : Z; ls_value : bool }.
Record inputs := Inputs { in_regions : nat; in_initial : list bool;   (* initial conditions: names a sediment condition *)
  in_assignments : nat; in_materials : list mat_spec; in_flow : list flow_spec; in_sediment : list sed_spec; in_salinity : list sal_spec }.
Record output := Output { ou_enable : bool; ou_format : out_format; ou_interval : Z; ou_time_interval : Z; ou_time_unit : time_unit; ou_batch : Z; ou_directory : string; ou_fields : list string }.
Record full_config := FullConfig { fu_physics : physics; fu_numerics : numerics; fu_grid : string; fu_times : times; fu_inputs : inputs; fu_output : output }.

(** ** Defaults (849-889) *)
(* rdyconfigimpl.h:21-22: -DBL_MAX and -INT_MAX *)
Definition INVALID_REAL : R := IZR (- (2 ^ 1024 - 2 ^ 971)).
Definition INVALID_INT : Z := (- (2 ^ 31 - 1))%Z.
(* if (!param) param = value *)
Definition missing_real (x v : R) : R := if Req_EM_T x 0 then v else x.
Definition missing_int (x v : Z) : Z := if Z.eqb x 0 then v else x.
Definition missing_method (m v : source_method) : source_method := match m with SOURCE_SEMI_IMPLICIT => v | _ => m end.
Definition SetMissingValues (c : full_config) : full_config :=
  let p := fu_physics c in let t := fu_times c in let o := fu_output c in
  let method := missing_method (ph_method p) (match nu_temporal (fu_numerics c) with TEMPORAL_ARK_IMEX => SOURCE_ARK_IMEX | _ => SOURCE_SEMI_IMPLICIT end) in
  FullConfig
    (Physics (missing_real (ph_tiny_h p) (/ 10 ^ 7)) (missing_real (ph_h_anuga p) 0) method
       (match method with SOURCE_IMPLICIT_XQ2018 => missing_real (ph_threshold p) (/ 10 ^ 10) | _ => ph_threshold p end)
       (ph_balancing p) (missing_int (ph_classes p) 0))
    (fu_numerics c) (fu_grid c)
    (Times (tm_date t) (tm_unit t) (missing_real (tm_stop t) INVALID_REAL) (missing_int (tm_stop_n t) INVALID_INT)
       (missing_real (tm_step t) INVALID_REAL) (missing_real (tm_coupling t) INVALID_REAL) (tm_adaptive t))
    (fu_inputs c)
    (Output (ou_enable o) (ou_format o) (ou_interval o) (ou_time_interval o) (ou_time_unit o) (ou_batch o)
       (if String.eqb (ou_directory o) "" then "output"%string else ou_directory o)
       (match ou_fields o with [] => ["Height"; "MomentumX"; "MomentumY"]%string | l => l end)).

(** ** Validation; [ceed] is CeedEnabled() at that moment *)
(* 910-931 *)
Definition validate_physics (ceed : bool) (p : physics) (n : numerics) : result unit :=
  check (negb (Rltb 0 (ph_threshold p) && negb (match ph_method p with SOURCE_IMPLICIT_XQ2018 => true | _ => false end)))
 (check (negb (negb (match ph_method p with SOURCE_ARK_IMEX => true | _ => false end) && match nu_temporal n with TEMPORAL_ARK_IMEX => true | _ => false end))
 (check (match ph_balancing p with WELL_BALANCING_BS2002 => negb (Z.ltb 0 (ph_classes p)) && negb ceed | _ => true end)
 (check (Z.leb (ph_classes p) 5) (Ret tt)))).
(* 933-945 *)
Definition validate_numerics (n : numerics) (grid : string) : result unit :=
  check (match nu_spatial n with SPATIAL_FV => true | _ => false end)
 (check (match nu_temporal n with TEMPORAL_BEULER => false | _ => true end)
 (check (match nu_riemann n with RIEMANN_HLLC => false | _ => true end)
 (check (negb (String.eqb grid "")) (Ret tt)))).
(* 948-966 *)
Definition validate_adaptive (t : times) : result times :=
  let a := tm_adaptive t in
  check (match tm_date t with Some k => Nat.eqb k 3 || Nat.eqb k 6 | None => true end)
 (if ad_enable a then
    check (Rltb 0 (ad_target a)) (check (Rltb (ad_target a) 1) (check (Rltb 1 (ad_factor a)) (check (Rltb 0 (ad_initial a))
   (check (Z.eqb (tm_stop_n t) INVALID_INT) (check (Reqb (tm_step t) INVALID_REAL)
   (Ret (Times (tm_date t) (tm_unit t) (tm_stop t) (tm_stop_n t) (ad_initial a) (tm_coupling t) a)))))))
  else Ret t).
(* (PetscInt)x: truncation; undefined outside the range of the type (32 bits) *)
Definition to_int (x : R) : result Z :=
  let z := if Rle_dec 0 x then Int_part x else (- Int_part (- x))%Z in
  if (Z.ltb (- 2 ^ 31 - 1) z && Z.ltb z (2 ^ 31))%bool then Ret z else UB.
(* 971-985. The number of settings counts a missing max_step as given, because it is compared with INVALID_REAL. *)
Definition num_time_settings (t : times) : Z :=
  ((if Reqb (tm_stop t) INVALID_REAL then 0 else 1) + (if Reqb (IZR (tm_stop_n t)) INVALID_REAL then 0 else 1) + (if Reqb (tm_step t) INVALID_REAL then 0 else 1))%Z.
Definition complete (t : times) : result times :=
  check (negb (Z.eqb (num_time_settings t) 0))
 (if Reqb (tm_stop t) INVALID_REAL then Ret (Times (tm_date t) (tm_unit t) (IZR (tm_stop_n t) * tm_step t) (tm_stop_n t) (tm_step t) (tm_coupling t) (tm_adaptive t))
  else if Z.eqb (tm_stop_n t) INVALID_INT then
    let! q := of_option (rdiv (tm_stop t) (tm_step t)) in
    let! n := to_int q in
    Ret (Times (tm_date t) (tm_unit t) (tm_stop t) n (tm_step t) (tm_coupling t) (tm_adaptive t))
  else
    let! d := of_option (rdiv (tm_stop t) (IZR (tm_stop_n t))) in
    Ret (Times (tm_date t) (tm_unit t) (tm_stop t) (tm_stop_n t) d (tm_coupling t) (tm_adaptive t))).
(* 989-997: with the flag coupling_interval_was_specified *)
Definition set_coupling (t : times) (c : R) : times := Times (tm_date t) (tm_unit t) (tm_stop t) (tm_stop_n t) (tm_step t) c (tm_adaptive t).
Definition coupling (t : times) : result (times * bool) :=
  if Reqb (tm_coupling t) INVALID_REAL then Ret (set_coupling t (tm_stop t), false)
  else check (Rltb 0 (tm_coupling t)) (check (Rleb (tm_coupling t) (tm_stop t)) (Ret (t, true))).
(* 1001-1033 (not for manufactured solutions) and 1060-1086. The loop over regions reads the array of initial
   conditions, which has as many entries. *)
Definition validate_inputs (classes : Z) (i : inputs) : result unit :=
  check (Nat.ltb 0 (length (in_initial i)))
 (check (Nat.eqb (length (in_initial i)) (in_regions i))
 (check (forallb (fun sediment => negb (Z.ltb 0 classes) || sediment) (in_initial i))
 (check (Nat.eqb (in_assignments i) (in_regions i))
 (check (Nat.ltb 0 (length (in_materials i)))
 (check (forallb (fun m => (ms_value m || ms_file m) && xorb (negb (ms_value m)) (negb (ms_file m)) && (negb (ms_file m) || ms_format m)) (in_materials i))
 (check (forallb (fun f => Z.leb 0 (fs_type f) &&
           (if negb (Z.eqb (fs_type f) CONDITION_REFLECTING') && negb (Z.eqb (fs_type f) CONDITION_CRITICAL_OUTFLOW')
            then (fs_height f || fs_file f || fs_value f) && (fs_file f || (fs_xmom f && fs_ymom f) || fs_value f) else true)) (in_flow i))
 (check (forallb (fun s => Z.leb 0 (ss_type s) && forallb (ss_classes s) (seq 0 (Z.to_nat classes))) (in_sediment i))
 (check (forallb (fun s => Z.leb 0 (ls_type s) && ls_value s) (in_salinity i)) (Ret tt)))))))))%bool.
(* 1089-1192. PetscEqualReal(floor(t2/t1)*t1 - t2, 0): equality up to PETSC_SMALL. *)
Definition PETSC_SMALL : R := / 10 ^ 10.
Definition format_none (f : out_format) : bool := match f with OUTPUT_NONE => true | _ => false end.
Definition format_binary (f : out_format) : bool := match f with OUTPUT_BINARY => true | _ => false end.
Definition unit_unset (u : time_unit) : bool := match u with UNSET => true | _ => false end.
Definition validate_output (classes : Z) (t : times) (specified : bool) (o : output) : result (times * output) :=
  let enable := (negb (format_none (ou_format o)) || Z.ltb 0 (ou_interval o) || Z.ltb 0 (ou_time_interval o))%bool in
  let result batch := Output enable (ou_format o) (ou_interval o) (ou_time_interval o) (ou_time_unit o) batch (ou_directory o) (ou_fields o) in
  if negb enable then Ret (t, result (ou_batch o)) else
  check (negb (format_none (ou_format o)))
 (check (negb (Z.eqb (ou_interval o) 0 && Z.eqb (ou_time_interval o) 0))
 (check (Z.leb 0 (ou_interval o)) (check (Z.leb 0 (ou_time_interval o))
 (check (Z.eqb (ou_batch o) 0 || negb (format_binary (ou_format o)))
 (let batch := if (Z.eqb (ou_batch o) 0 && negb (format_binary (ou_format o)))%bool then 1%Z else ou_batch o in
  let! t := (if Z.eqb (ou_time_interval o) 0 then Ret t else
      let t := if specified then t else set_coupling t (IZR (ou_time_interval o)) in
      check (negb (unit_unset (ou_time_unit o)))
     (let t1 := ConvertTimeToSeconds (tm_coupling t) (tm_unit t) in
      let t2 := ConvertTimeToSeconds (IZR (ou_time_interval o)) (ou_time_unit o) in
      check (Rleb t1 t2)
     (let! q := of_option (rdiv t2 t1) in
      check (Rleb (Rabs (IZR (Int_part q) * t1 - t2)) PETSC_SMALL) (Ret t)))) in
  check (forallb (valid_field (Z.to_nat classes)) (ou_fields o)) (Ret (t, result batch))))))).

(* ValidateConfig, ensemble part in EnsembleModel *)
Definition ValidateConfig (ceed : bool) (c : full_config) : result full_config :=
  let classes := ph_classes (fu_physics c) in
  let! _ := validate_physics ceed (fu_physics c) (fu_numerics c) in
  let! _ := validate_numerics (fu_numerics c) (fu_grid c) in
  let! t := validate_adaptive (fu_times c) in
  let! t := complete t in
  let! ts := coupling t in
  let! _ := validate_inputs classes (fu_inputs c) in
  let! to := validate_output classes (fst ts) (snd ts) (fu_output c) in
  Ret (FullConfig (fu_physics c) (fu_numerics c) (fu_grid c) (fst to) (fu_inputs c) (snd to)).
(* 1595-1606 *)
Definition ReadConfig (ceed : bool) (c : full_config) : result full_config := ValidateConfig ceed (SetMissingValues c).

(* The time section as the rest of the code sees it (TimeModel), for a number of steps that is not negative *)
Definition time_config_of (t : times) : time_config :=
  TimeConfig (tm_unit t) (tm_stop t) (Z.to_nat (tm_stop_n t)) (tm_coupling t) (ad_enable (tm_adaptive t)) (ad_target (tm_adaptive t)) (ad_factor (tm_adaptive t)).
