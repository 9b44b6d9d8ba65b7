(** Formulas of the input file: how they are stored, evaluated and released
    (src/yaml_input.c:653-682, 1203-1377, 1594-1669, 1803-1896; src/rdymms.c:71-131). *)
From Coq Require Import String.
From Verif Require Import Base MeshMapsModel DataModel SetupModel GridModel.
Local Open Scope nat_scope.
Local Notation length := List.length.

(** ** The formula library (muParser's C interface)
    A formula is a text.  [parse] turns a text into a term, or fails; which texts it accepts, and what they mean,
    is left open: everything below is for any [parse].  Numbers are reals: a division by zero inside a formula is
    not modelled. *)
Inductive term :=
| Num (r : R) | Name (s : string)
| Fun1 (f : R -> R) (a : term) | Fun2 (f : R -> R -> R) (a b : term) | Fun3 (f : R -> R -> R -> R) (a b c : term).
Fixpoint names (t : term) : list string :=
  match t with
  | Num _ => [] | Name s => [s]
  | Fun1 _ a => names a | Fun2 _ a b => names a ++ names b | Fun3 _ a b c => names a ++ names b ++ names c
  end.
Fixpoint compute (env : string -> result R) (t : term) : result R :=
  match t with
  | Num r => Ret r
  | Name s => env s
  | Fun1 f a => let! x := compute env a in Ret (f x)
  | Fun2 f a b => let! x := compute env a in let! y := compute env b in Ret (f x y)
  | Fun3 f a b c => let! x := compute env a in let! y := compute env b in let! z := compute env c in Ret (f x y z)
  end.

(* One parser object: its text, the constants defined for it, and the addresses of its variables.  A variable
   whose memory has been freed is [None]; reading it is undefined behaviour. *)
Record parser := Parser { p_expr : string; p_consts : list (string * R); p_vars : list (string * option (list R)) }.
Fixpoint assoc {A} (s : string) (l : list (string * A)) : option A :=
  match l with [] => None | (k, v) :: t => if String.eqb k s then Some v else assoc s t end.
(* the value of a name for the [i]th of the points evaluated together; [None]: the name is not known *)
Definition lookup (p : parser) (i : nat) (s : string) : option (result R) :=
  match assoc s (p_consts p) with
  | Some v => Some (Ret v)
  | None => match assoc s (p_vars p) with
            | None => None
            | Some None => Some UB
            | Some (Some a) => Some (of_option (nth_error a i))
            end
  end.
Definition is_known (p : parser) (s : string) : bool := match lookup p 0 s with Some _ => true | None => false end.
Definition env_of (p : parser) (i : nat) (s : string) : result R := match lookup p i s with Some r => r | None => Error end.

(* The places in the configuration that hold a parser (include/private/rdyconfigimpl.h). *)
Inductive swe_function := F_h | F_dhdx | F_dhdy | F_dhdt | F_u | F_dudx | F_dudy | F_dudt | F_v | F_dvdx | F_dvdy | F_dvdt | F_z | F_dzdx | F_dzdy | F_n.
Inductive tracer_function := T_value | T_dx | T_dy | T_dt.
Inductive place :=
| PSwe (f : swe_function) | PSediment (i : nat) (k : tracer_function) | PSalinity (k : tracer_function) | PHeat (k : tracer_function)
| PManning (m : nat)
| PHeight (c : nat) | PXMomentum (c : nat) | PYMomentum (c : nat) | PValue (c : nat)
| PClass (c i : nat) | PConcentration (c : nat) | PTemperature (c : nat).
Definition place_eq_dec : forall a b : place, {a = b} + {a <> b}.
Proof. decide equality; try apply Nat.eq_dec; decide equality. Defined.

(* The parsers created so far ([None]: released), and the pointer in each place (NULL at first: the configuration
   is allocated zeroed). *)
Record state := State { parsers : list (option parser); pointer : place -> option nat }.
Definition initial : state := State [] (fun _ => None).

(* muParser: mupCreate, with the assignment of its result to a place *)
Definition mupCreate (w : place) (s : state) : state :=
  State (parsers s ++ [Some (Parser "" [] [])]) (fun v => if place_eq_dec v w then Some (length (parsers s)) else pointer s v).
(* muParser: the parser a place points to *)
Definition deref (w : place) (s : state) : result parser :=
  match pointer s w with
  | None => UB
  | Some k => match nth_error (parsers s) k with Some (Some p) => Ret p | _ => UB end
  end.
Definition edit (w : place) (f : parser -> parser) (s : state) : result state :=
  match pointer s w with
  | None => UB
  | Some k => match nth_error (parsers s) k with
              | Some (Some p) => match upd (parsers s) k (Some (f p)) with Some l => Ret (State l (pointer s)) | None => UB end
              | _ => UB
              end
  end.
(* muParser: mupSetExpr, mupDefineConst, mupDefineVar and mupDefineBulkVar.  A variable with the name of a
   constant is refused by an exception, which the C interface keeps to itself. *)
Definition mupSetExpr (w : place) (e : string) : state -> result state := edit w (fun p => Parser e (p_consts p) (p_vars p)).
Definition mupDefineConst (w : place) (name : string) (v : R) : state -> result state :=
  edit w (fun p => Parser (p_expr p) ((name, v) :: p_consts p) (p_vars p)).
Definition mupDefineVar (w : place) (name : string) (a : option (list R)) : state -> result state :=
  edit w (fun p => match assoc name (p_consts p) with
                   | Some _ => p
                   | None => Parser (p_expr p) (p_consts p) ((name, a) :: filter (fun kv => negb (String.eqb (fst kv) name)) (p_vars p))
                   end).
(* muParser: mupRelease; releasing NULL does nothing, releasing a parser twice is undefined behaviour *)
Definition mupRelease (w : place) (s : state) : result state :=
  match pointer s w with
  | None => Ret s
  | Some k => match nth_error (parsers s) k with
              | Some (Some _) => match upd (parsers s) k None with Some l => Ret (State l (pointer s)) | None => UB end
              | _ => UB
              end
  end.

Section Formulas.
Variable parse : string -> option term.

(* muParser: Eval.  A text that cannot be parsed, and a name that is not known, raise an exception ([Error]). *)
Definition eval_at (p : parser) (i : nat) : result R :=
  match parse (p_expr p) with
  | None => Error
  | Some t => if forallb (is_known p) (names t) then compute (env_of p i) t else Error
  end.
(* mupEval: an exception is passed to the error handler, if one is set (RDycore sets none), and 0 is returned *)
Definition mupEval (w : place) (s : state) : result R :=
  let! p := deref w s in match eval_at p 0 with Error => Ret 0%R | r => r end.
(* mupEvalBulk: [n] points; on an exception the results are left as they are *)
Definition mupEvalBulk (w : place) (n : nat) (values : list R) (s : state) : result (list R) :=
  let! p := deref w s in
  if Nat.ltb (length values) n then UB
  else match rmap (eval_at p) (seq 0 n) with
       | Ret vs => Ret (vs ++ skipn n values)
       | Error => Ret values
       | UB => UB
       end.

(** ** Reading the formulas (yaml_input.c) *)
Record flow_formulas := FlowFormulas { ff_height : string; ff_xmom : string; ff_ymom : string; ff_value : string }.
(* What the configuration holds after cyaml has filled it; a text that is not given is empty.
   [fm_constants]: the entries of mms.constants. *)
Record formulas := Formulas {
  fm_swe : swe_function -> string; fm_sediment : nat -> tracer_function -> string;
  fm_salinity : tracer_function -> string; fm_heat : tracer_function -> string;
  fm_constants : string -> option R;
  fm_classes : nat; fm_has_salinity : bool; fm_has_heat : bool;
  fm_materials : list string; fm_flow : list flow_formulas; fm_sediment_conditions : list (list string); fm_salinity_conditions : list string }.

(* 655-682: the key of each constant in the file and the member of RDyMMSConstants it is stored in *)
Definition constants_schema : list (string * string) :=
  [("A","A"); ("B","B"); ("C","C"); ("D","D"); ("E","E"); ("F","F"); ("G","G"); ("H","H"); ("I","I_"); ("J","J"); ("K","K"); ("L","L"); ("M","M");
   ("N","N"); ("O","O"); ("P","P"); ("Q","Q"); ("R","R"); ("S","S"); ("T","T"); ("U","U"); ("V","V"); ("W","W"); ("X","X"); ("Y","Y"); ("Z","Z")]%string.
(* the members of RDyMMSConstants: those not given are zero *)
Definition constants_of (fm : formulas) (member : string) : R :=
  match find (fun km => String.eqb (snd km) member) constants_schema with
  | Some (k, _) => match fm_constants fm k with Some v => v | None => 0%R end
  | None => 0%R
  end.
(* 1203-1233: DEFINE_CONSTANTS_FOR_FUNCTION: the name of each constant in a formula and the member it is taken from *)
Definition constant_names : list (string * string) :=
  [("A","A"); ("B","B"); ("C","C"); ("D","D"); ("E","E"); ("F","F"); ("G","G"); ("H","H"); ("I","I_"); ("J","J"); ("K","K"); ("L","L"); ("M","M");
   ("N","N"); ("O","O"); ("P","P"); ("Q","Q"); ("R","R"); ("S","S"); ("T","T"); ("U","U"); ("V","V"); ("W","W"); ("X","X"); ("Y","Y"); ("Z","Z")]%string.
(* 1235-1241: DEFINE_FUNCTION *)
Definition define_function (fm : formulas) (w : place) (e : string) (s : state) : result state :=
  let! s := mupSetExpr w e (mupCreate w s) in
  rfold (fun s nm => mupDefineConst w (fst nm) (constants_of fm (snd nm)) s) constant_names s.
(* 1249-1268 *)
Definition swe_functions : list swe_function :=
  [F_h; F_dhdx; F_dhdy; F_dhdt; F_u; F_dudx; F_dudy; F_dudt; F_v; F_dvdx; F_dvdy; F_dvdt; F_z; F_dzdx; F_dzdy; F_n].
Definition ParseSWEManufacturedSolutions (fm : formulas) (s : state) : result state :=
  rfold (fun s f => define_function fm (PSwe f) (fm_swe fm f) s) swe_functions s.
(* 1280-1285 *)
Definition tracer_functions : list tracer_function := [T_value; T_dx; T_dy; T_dt].
Definition ParseSedimentManufacturedSolutions (fm : formulas) (s : state) : result state :=
  rfold (fun s i => rfold (fun s k => define_function fm (PSediment i k) (fm_sediment fm i k) s) tracer_functions s) (seq 0 (fm_classes fm)) s.
(* 1295-1298 *)
Definition ParseSalinityManufacturedSolutions (fm : formulas) (s : state) : result state :=
  rfold (fun s k => define_function fm (PSalinity k) (fm_salinity fm k) s) tracer_functions s.
(* 1309-1312 *)
Definition ParseTemperatureManufacturedSolutions (fm : formulas) (s : state) : result state :=
  rfold (fun s k => define_function fm (PHeat k) (fm_heat fm k) s) tracer_functions s.
Definition given (e : string) : bool := negb (String.eqb e "").
Definition when {A} (b : bool) (f : A -> result A) (a : A) : result A := if b then f a else Ret a.
Definition enum {A} (l : list A) : list (nat * A) := combine (seq 0 (length l)) l.
(* 1339-1345 *)
Definition parse_material (s : state) (me : nat * string) : result state :=
  when (given (snd me)) (fun s => mupSetExpr (PManning (fst me)) (snd me) (mupCreate (PManning (fst me)) s)) s.
(* 1348-1358 *)
Definition parse_flow (s : state) (cf : nat * flow_formulas) : result state :=
  let c := fst cf in
  let! s := mupSetExpr (PHeight c) (ff_height (snd cf)) (mupCreate (PHeight c) s) in
  let s := mupCreate (PValue c) (mupCreate (PYMomentum c) (mupCreate (PXMomentum c) s)) in
  let! s := mupSetExpr (PXMomentum c) (ff_xmom (snd cf)) s in
  let! s := mupSetExpr (PYMomentum c) (ff_ymom (snd cf)) s in
  mupSetExpr (PValue c) (ff_value (snd cf)) s.
(* 1361-1367; a class without an entry has an empty text *)
Definition parse_sediment (fm : formulas) (s : state) (cl : nat * list string) : result state :=
  rfold (fun s i => mupSetExpr (PClass (fst cl) i) (nth i (snd cl) ""%string) (mupCreate (PClass (fst cl) i) s)) (seq 0 (fm_classes fm)) s.
(* 1370-1374 *)
Definition parse_salinity (s : state) (ce : nat * string) : result state :=
  mupSetExpr (PConcentration (fst ce)) (snd ce) (mupCreate (PConcentration (fst ce)) s).
(* 1319-1377; also the last step of reading a configuration (1621 after the parameters of an ensemble member have
   been put in place, 1646 for the MMS driver, whose files have no ensemble section, 782-797) *)
Definition ParseMathExpressions (fm : formulas) (s : state) : result state :=
  let! s := when (given (fm_swe fm F_h)) (ParseSWEManufacturedSolutions fm) s in
  let! s := when (Nat.ltb 0 (fm_classes fm)) (ParseSedimentManufacturedSolutions fm) s in
  let! s := when (fm_has_salinity fm) (ParseSalinityManufacturedSolutions fm) s in
  let! s := when (fm_has_heat fm) (ParseTemperatureManufacturedSolutions fm) s in
  let! s := rfold parse_material (enum (fm_materials fm)) s in
  let! s := rfold parse_flow (enum (fm_flow fm)) s in
  let! s := rfold (parse_sediment fm) (enum (fm_sediment_conditions fm)) s in
  rfold parse_salinity (enum (fm_salinity_conditions fm)) s.

(** ** Releasing them (yaml_input.c:1803-1896) *)
(* 1804-1820: z, dzdx and dzdy are not in the list *)
Definition released_swe : list swe_function := [F_h; F_dhdx; F_dhdy; F_dhdt; F_u; F_dudx; F_dudy; F_dudt; F_v; F_dvdx; F_dvdy; F_dvdt; F_n].
(* 1844-1861, with 1822-1842.  [max_classes]: MAX_NUM_SEDIMENT_CLASSES *)
Definition DestroyManufacturedSolutions (max_classes : nat) (fm : formulas) (s : state) : result state :=
  let! s := when (given (fm_swe fm F_h)) (rfold (fun s f => mupRelease (PSwe f) s) released_swe) s in
  let! s := when (given (fm_sediment fm 0 T_value))
                 (rfold (fun s i => when (given (fm_sediment fm i T_value)) (mupRelease (PSediment i T_value)) s) (seq 0 max_classes)) s in
  let! s := when (given (fm_salinity fm T_value)) (mupRelease (PSalinity T_value)) s in
  when (given (fm_heat fm T_value)) (mupRelease (PHeat T_value)) s.
(* 1864-1897 *)
Definition DestroyConfig (max_classes : nat) (fm : formulas) (s : state) : result state :=
  let! s := DestroyManufacturedSolutions max_classes fm s in
  let! s := rfold (fun s me => when (given (snd me)) (mupRelease (PManning (fst me))) s) (enum (fm_materials fm)) s in
  let! s := rfold (fun s cf => let c := fst cf in
                     let! s := mupRelease (PHeight c) s in let! s := mupRelease (PXMomentum c) s in
                     let! s := mupRelease (PYMomentum c) s in mupRelease (PValue c) s) (enum (fm_flow fm)) s in
  let! s := rfold (fun s cl => rfold (fun s i => mupRelease (PClass (fst cl) i) s) (seq 0 (fm_classes fm)) s) (enum (fm_sediment_conditions fm)) s in
  rfold (fun s ce => mupRelease (PConcentration (fst ce)) s) (enum (fm_salinity_conditions fm)) s.

(** ** Evaluating them (rdymms.c) *)
(* rdymms.c:71-82: EvaluateSpatialSolution.  The arrays of coordinates are freed by the caller before the function
   is evaluated again (480-481, 701-702, 791-792, 838-839). *)
Definition EvaluateSpatialSolution (w : place) (n : nat) (x y : list R) (values : list R) (s : state) : result (state * list R) :=
  let! s := mupDefineVar w "x" (Some x) s in
  let! s := mupDefineVar w "y" (Some y) s in
  let! values := mupEvalBulk w n values s in
  let! s := mupDefineVar w "x" None s in
  let! s := mupDefineVar w "y" None s in
  Ret (s, values).
(* rdymms.c:85-101: EvaluateTemporalSolution; the array of times is freed at the end (98) *)
Definition EvaluateTemporalSolution (w : place) (n : nat) (x y : list R) (time : R) (values : list R) (s : state) : result (state * list R) :=
  let! s := mupDefineVar w "x" (Some x) s in
  let! s := mupDefineVar w "y" (Some y) s in
  let! s := mupDefineVar w "t" (Some (repeat time n)) s in
  let! values := mupEvalBulk w n values s in
  let! s := mupDefineVar w "t" None s in
  let! s := mupDefineVar w "x" None s in
  let! s := mupDefineVar w "y" None s in
  Ret (s, values).
(* rdymms.c:108-134: SnapVerticesToBathymetry.  [dim]: components stored for each vertex (the coordinate section),
   [nv]: vertices of this process.  The variables are on the stack. *)
Definition snap_vertex (dim : nat) (sc : state * list R) (v : nat) : result (state * list R) :=
  let offset := dim * v in
  let! x := of_option (nth_error (snd sc) offset) in
  let! y := of_option (nth_error (snd sc) (offset + 1)) in
  let! s := mupDefineVar (PSwe F_z) "x" (Some [x]) (fst sc) in
  let! s := mupDefineVar (PSwe F_z) "y" (Some [y]) s in
  let! z := mupEval (PSwe F_z) s in
  let! coords := of_option (upd (snd sc) (offset + 2) z) in
  Ret (s, coords).
Definition SnapVerticesToBathymetry (dim nv : nat) (coords : list R) (s : state) : result (state * list R) :=
  let! sc := rfold (snap_vertex dim) (seq 0 nv) (s, coords) in
  let! s := mupDefineVar (PSwe F_z) "x" None (fst sc) in
  let! s := mupDefineVar (PSwe F_z) "y" None s in
  Ret (s, snd sc).
End Formulas.
