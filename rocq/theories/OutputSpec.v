(** What the output files must contain, independently of how the monitor computes it. *)
From Verif Require Import Base SetupModel TimeModel OutputModel.
From Coq Require Import ZArith String Ascii Sorted.
Local Open Scope nat_scope.
Local Open Scope string_scope.
Local Notation length := List.length.
Local Notation concat := List.concat.

(** ** Runs *)
(* A step of the solver as the monitor sees it: a first call, and further calls for the same step (the solver calls its
   monitors again when the next coupling interval starts, when rdy->dt may already have been changed). *)
Record seen := Seen { sn_call : mon_call; sn_again : list R }.
Definition repeat_call (c : mon_call) (dt : R) : mon_call := MonCall (mc_step c) (mc_time c) dt (mc_u c) (mc_prim c) (mc_src c).
Definition calls (s : seen) : list mon_call := sn_call s :: map (repeat_call (sn_call s)) (sn_again s).
Definition history (run : list seen) : list mon_call := flat_map calls run.
Definition steps_of (run : list seen) : list mon_call := map sn_call run.

Definition earlier (a b : mon_call) : Prop := mc_step a < mc_step b /\ (mc_time a < mc_time b)%R.
Record run_ok (bs cells : nat) (run : list mon_call) : Prop := {
  ro_order : StronglySorted earlier run;
  ro_time : forall c, In c run -> (0 <= mc_time c)%R;
  ro_dt : forall c, In c run -> (0 < mc_dt c)%R;
  ro_sizes : forall c, In c run -> length (mc_u c) = bs * cells /\ length (mc_prim c) = bs * cells /\ length (mc_src c) = bs * cells
}.

(** ** Values *)
Definition weighted (f : mon_call -> R) (l : list mon_call) : R := (rsum (fun c => mc_dt c * f c) l / rsum mc_dt l)%R.
Inductive quantity := Solution | Primitive | Sources.
Definition values (q : quantity) (c : mon_call) : list R := match q with Solution => mc_u c | Primitive => mc_prim c | Sources => mc_src c end.
Inductive kind := Now | Mean.
(* the fields a user may ask for, with the quantity and the component shown *)
Definition field_table (classes : nat) : list (string * (kind * quantity * nat)) :=
  ([("Height", (Now, Solution, 0)); ("MomentumX", (Now, Solution, 1)); ("MomentumY", (Now, Solution, 2));
   ("Height_Mean", (Mean, Solution, 0)); ("MomentumX_Mean", (Mean, Solution, 1)); ("MomentumY_Mean", (Mean, Solution, 2));
   ("VelocityX", (Now, Primitive, 1)); ("VelocityY", (Now, Primitive, 2));
   ("VelocityX_Mean", (Mean, Primitive, 1)); ("VelocityY_Mean", (Mean, Primitive, 2));
   ("WaterSource", (Now, Sources, 0)); ("MomentumXSource", (Now, Sources, 1)); ("MomentumYSource", (Now, Sources, 2));
   ("WaterSource_Mean", (Mean, Sources, 0)); ("MomentumXSource_Mean", (Mean, Sources, 1)); ("MomentumYSource_Mean", (Mean, Sources, 2))] ++
  flat_map (fun i =>
    [(("SedimentMassPerUnitArea" ++ dec i)%string, (Now, Solution, 3 + i)); (("SedimentMassPerUnitArea" ++ dec i ++ "_Mean")%string, (Mean, Solution, 3 + i));
     (("SedimentConcentration" ++ dec i)%string, (Now, Primitive, 3 + i)); (("SedimentConcentration" ++ dec i ++ "_Mean")%string, (Mean, Primitive, 3 + i));
     (("SedimentMassPerUnitArea" ++ dec i ++ "Source")%string, (Now, Sources, 3 + i)); (("SedimentMassPerUnitArea" ++ dec i ++ "Source_Mean")%string, (Mean, Sources, 3 + i))])
    (seq 0 classes))%list.
(* values of a field over the cells, at an output at the last of the steps [since] taken since the previous output *)
Definition shown (bs cells : nat) (kqc : kind * quantity * nat) (since : list mon_call) (now : mon_call) : list R :=
  let '(k, q, comp) := kqc in
  map (fun cell => match k with
                   | Now => nth (bs * cell + comp) (values q now) 0%R
                   | Mean => weighted (fun c => nth (bs * cell + comp) (values q c) 0%R) (since ++ [now])%list
                   end) (seq 0 cells).

(** ** Reading the files *)
Definition groups (fs : files) (name : string) : option (list group_name) :=
  match fs name with Some (Heavy gs) => Some (map fst gs) | _ => None end.
Definition read (fs : files) (name : string) (g : group_name) (field : string) : option (list R) :=
  match fs name with
  | Some (Heavy gs) =>
      match find (fun e => group_eqb (fst e) g) gs with
      | Some e => option_map snd (find (fun nd => String.eqb (fst nd) field) (snd e))
      | None => None
      end
  | _ => None
  end.

(** ** Configurations *)
Fixpoint no_sep (s : string) : bool := match s with EmptyString => true | String c t => (negb (Ascii.eqb c "/") && no_sep t)%bool end.
Definition MAX_NUM_SEDIMENT_CLASSES : nat := 5.
(* no number up to [s] has more than twenty digits (enough for any 64-bit integer) *)
Definition short_number (s : nat) : Prop := forall m, m <= s -> String.length (dec m) <= 20.
(* a validated configuration of XDMF output by step interval; the directory and the names of the files fit in a path *)
Record xdmf_ok (oc : out_config) (dir : string) (classes : nat) : Prop := {
  xo_format : oc_format oc = OUTPUT_XDMF;
  xo_interval : 0 < oc_interval oc;
  xo_batch : 0 < oc_batch oc;
  xo_stop : (0 < oc_stop_n oc)%Z;
  xo_stop_digits : short_number (Z.to_nat (oc_stop_n oc));
  xo_path : (Z.of_nat (String.length dir + String.length (oc_prefix oc)) <= 4000)%Z;
  xo_date : forall date s, oc_date oc = Some date -> String.length (date s) <= 40 /\ no_sep (date s) = true;
  xo_fields : forall f, In f (oc_fields oc) -> valid_field classes f = true;
  xo_classes : classes <= MAX_NUM_SEDIMENT_CLASSES
}.
