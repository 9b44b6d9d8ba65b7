(** Lemmas about output: text, accumulators, files. *)
From Verif Require Import Base SetupModel TimeModel OutputModel OutputSpec.
From Coq Require Import ZArith NArith String Ascii Decimal DecimalString DecimalN DecimalFacts Lia Lra Sorted.
Local Open Scope nat_scope.
Local Open Scope string_scope.
Local Notation length := List.length.
Local Notation concat := List.concat.

(** ** Text *)
Lemma append_assoc (a b c : string) : (a ++ b) ++ c = a ++ (b ++ c).
Proof. induction a; simpl; [reflexivity | now rewrite IHa]. Qed.
Lemma append_nil (a : string) : a ++ "" = a.
Proof. induction a; simpl; [reflexivity | now rewrite IHa]. Qed.
Lemma append_length (a b : string) : String.length (a ++ b) = String.length a + String.length b.
Proof. induction a; simpl; lia. Qed.
Lemma append_inj_l (a b c : string) : a ++ b = a ++ c -> b = c.
Proof. induction a; simpl; [auto | intros [= H]; auto]. Qed.
Lemma append_inj_r (a b c : string) : a ++ c = b ++ c -> a = b.
Proof.
  revert b. induction a as [|x a IH]; destruct b as [|y b]; simpl; intros H; auto.
  - exfalso. apply (f_equal String.length) in H. simpl in H. rewrite append_length in H. lia.
  - exfalso. apply (f_equal String.length) in H. simpl in H. rewrite append_length in H. lia.
  - injection H as -> H. f_equal. now apply IH.
Qed.
Lemma substring_all (s : string) n : String.length s <= n -> substring 0 n s = s.
Proof. revert n. induction s; intros [|n]; simpl; intros H; try reflexivity; try lia. f_equal. apply IHs. lia. Qed.
Lemma snprintf_fits size s : (Z.of_nat (String.length s) < size)%Z -> snprintf size s = s.
Proof. intros H. unfold snprintf. apply substring_all. lia. Qed.

Lemma dec_inj m n : dec m = dec n -> m = n.
Proof.
  unfold dec. intros H. apply (f_equal NilEmpty.uint_of_string) in H. rewrite !NilEmpty.usu in H.
  injection H as H. apply (f_equal N.of_uint) in H. rewrite !DecimalN.Unsigned.of_to in H. lia.
Qed.
Lemma zeros_uint k d : zeros k ++ NilEmpty.string_of_uint d = NilEmpty.string_of_uint (Nat.iter k D0 d).
Proof. induction k; simpl; [reflexivity | now rewrite IHk]. Qed.
Lemma iter_D0_of_uint k d : N.of_uint (Nat.iter k D0 d) = N.of_uint d.
Proof. induction k; simpl; auto. Qed.
Lemma padded_inj w v m n : padded w m = padded v n -> m = n.
Proof.
  unfold padded, dec. rewrite !zeros_uint. intros H.
  apply (f_equal NilEmpty.uint_of_string) in H. rewrite !NilEmpty.usu in H.
  injection H as H. apply (f_equal N.of_uint) in H. rewrite !iter_D0_of_uint, !DecimalN.Unsigned.of_to in H. lia.
Qed.
(* the first character of a padded number is a digit *)
Definition is_digit (c : ascii) : bool := existsb (Ascii.eqb c) ["0";"1";"2";"3";"4";"5";"6";"7";"8";"9"]%char.
Fixpoint all_chars (p : ascii -> bool) (s : string) : bool := match s with "" => true | String c t => (p c && all_chars p t)%bool end.
Lemma uint_digits d : all_chars is_digit (NilEmpty.string_of_uint d) = true.
Proof. induction d; simpl; auto. Qed.
Lemma padded_digits w n : all_chars is_digit (padded w n) = true.
Proof. unfold padded, dec. rewrite zeros_uint. apply uint_digits. Qed.
Lemma dec_digits n : all_chars is_digit (dec n) = true.
Proof. apply uint_digits. Qed.
Lemma dec_nonempty n : dec n <> "".
Proof.
  intros H. unfold dec in H.
  destruct (N.to_uint (N.of_nat n)) eqn:E; simpl in H; try discriminate.
  pose proof (DecimalN.Unsigned.of_to (N.of_nat n)) as Z. rewrite E in Z. simpl in Z. rewrite <- Z in E. discriminate.
Qed.
Lemma padded_nonempty w n : padded w n <> "".
Proof.
  unfold padded. intros H. apply (f_equal String.length) in H. rewrite append_length in H. simpl in H.
  destruct (dec n) eqn:E; [exact (dec_nonempty _ E) | simpl in H; lia].
Qed.

(** ** Paths *)
Definition no_slash (s : string) : bool := all_chars (fun c => negb (Ascii.eqb c "/")) s.
Lemma no_slash_app a b : no_slash (a ++ b) = (no_slash a && no_slash b)%bool.
Proof. unfold no_slash. induction a; simpl; [reflexivity|]. now rewrite IHa, andb_assoc. Qed.
Lemma digits_no_slash s : all_chars is_digit s = true -> no_slash s = true.
Proof.
  unfold no_slash. induction s as [|c s IH]; simpl; [auto|]. rewrite !andb_true_iff. intros [H1 H2]. split; [|auto].
  destruct (Ascii.eqb_spec c "/"); [subst; discriminate | reflexivity].
Qed.
Lemma split_no_slash s : no_slash s = true -> split_path s = ("", s).
Proof.
  unfold no_slash. induction s as [|c s IH]; simpl; [auto|]. rewrite andb_true_iff. intros [H1 H2]. rewrite (IH H2). simpl.
  now rewrite H1.
Qed.
Lemma split_app p e : no_slash e = true -> split_path (p ++ e) = (dirname p, basename p ++ e).
Proof.
  intros He. unfold dirname, basename. induction p as [|c p IH]; simpl.
  - now rewrite split_no_slash.
  - rewrite IH. destruct (split_path p) as [d b]. simpl.
    destruct (String.eqb d "" && negb (Ascii.eqb c "/"))%bool; reflexivity.
Qed.
Lemma dir_base p : dirname p ++ basename p = p.
Proof.
  unfold dirname, basename. induction p as [|c p IH]; simpl; [reflexivity|].
  destruct (split_path p) as [d b]; simpl in *.
  destruct (String.eqb_spec d "").
  - subst d. simpl in *. subst b. destruct (Ascii.eqb c "/"); reflexivity.
  - simpl. now rewrite IH.
Qed.
(* a reference from a file to another in the same directory *)
Lemma resolve_sibling p e f : no_slash e = true -> no_slash f = true -> dirname (p ++ e) ++ basename (p ++ f) = p ++ f.
Proof.
  intros He Hf. unfold dirname at 1, basename at 1. rewrite !split_app by auto. simpl.
  rewrite <- append_assoc. now rewrite dir_base.
Qed.

(** ** Vectors *)
Definition tab (n : nat) (f : nat -> R) : list R := map f (seq 0 n).
Lemma tab_length n f : length (tab n f) = n.
Proof. unfold tab. now rewrite map_length, seq_length. Qed.
Lemma tab_ext n f g : (forall i, i < n -> f i = g i) -> tab n f = tab n g.
Proof. intros H. apply map_ext_in. intros i Hi. apply in_seq in Hi. apply H. lia. Qed.
Lemma tab_nth n f i d : i < n -> nth i (tab n f) d = f i.
Proof.
  intros H. unfold tab. rewrite (nth_indep _ d (f 0)) by (rewrite map_length, seq_length; lia).
  rewrite map_nth, seq_nth by lia. reflexivity.
Qed.
Lemma tab_self (l : list R) : tab (length l) (fun i => nth i l 0%R) = l.
Proof.
  apply nth_ext with (d := 0%R) (d' := 0%R); rewrite ?tab_length; [reflexivity|].
  intros i H. now rewrite tab_nth.
Qed.
Lemma map_tab n f h : map h (tab n f) = tab n (fun i => h (f i)).
Proof. unfold tab. now rewrite map_map. Qed.
Lemma combine_tab n f g : combine (tab n f) (tab n g) = map (fun i => (f i, g i)) (seq 0 n).
Proof. unfold tab. induction (seq 0 n); simpl; congruence. Qed.
Lemma axpy_tab n a f v : length v = n -> axpy a (tab n f) v = tab n (fun i => f i + a * nth i v 0)%R.
Proof.
  intros H. unfold axpy. rewrite <- (tab_self v) at 1. rewrite H, combine_tab. unfold tab. now rewrite map_map.
Qed.
Lemma axpy_length a y x : length y = length x -> length (axpy a y x) = length x.
Proof. intros H. unfold axpy. rewrite map_length, combine_length. lia. Qed.
Lemma repeat_tab n x : repeat x n = tab n (fun _ => x).
Proof. unfold tab. generalize 0. induction n; intros k; simpl; [reflexivity|]. now rewrite (IHn (S k)). Qed.
Lemma stride_tab bs cells c f : 0 < bs -> c < bs -> stride bs c (tab (bs * cells) f) = map (fun i => f (bs * i + c)) (seq 0 cells).
Proof.
  intros Hb Hc. unfold stride. rewrite tab_length, Nat.mul_comm, Nat.div_mul by lia.
  apply map_ext_in. intros i Hi. apply in_seq in Hi. rewrite tab_nth; [reflexivity|].
  assert (i + 1 <= cells) by lia. nia.
Qed.
Lemma stride_self bs cells c v : 0 < bs -> length v = bs * cells ->
  stride bs c v = map (fun i => nth (bs * i + c) v 0%R) (seq 0 cells).
Proof. intros Hb Hl. unfold stride. now rewrite Hl, Nat.mul_comm, Nat.div_mul by lia. Qed.

(** ** Output variables *)
Definition acc (o : output_var) : list R := match ov_ceed o with Some (_, a) => a | None => ov_accum o end.
Definition cur (o : output_var) : list R := match ov_ceed o with Some (i, _) => i | None => ov_inst o end.
Record shaped (inst avg : field_spec) (skip : bool) (bs n : nat) (o : output_var) : Prop := {
  sh_inst : ov_inst_fields o = inst;
  sh_avg : ov_avg_fields o = avg;
  sh_skip : ov_skip o = skip;
  sh_bs : ov_bs o = bs;
  sh_li : length (ov_inst o) = n;
  sh_la : length (ov_accum o) = n;
  sh_lc : length (cur o) = n;
  sh_lacc : length (acc o) = n
}.
Section Var.
Context (inst avg : field_spec) (skip : bool) (bs n : nat).
Local Notation shaped := (shaped inst avg skip bs n).
Lemma load_shaped v o : shaped o -> length v = n -> shaped (load v o) /\ acc (load v o) = acc o /\ ov_time (load v o) = ov_time o /\ cur (load v o) = v.
Proof.
  intros [] Hv. unfold load, acc, cur in *. destruct (ov_ceed o) as [[i a]|] eqn:E; simpl in *; (split; [constructor; simpl; auto | auto]); unfold cur, acc; simpl; auto.
Qed.
Lemma accumulate_shaped o dt f : shaped o -> acc o = tab n f ->
  shaped (AccumulateOutputVar o dt) /\ acc (AccumulateOutputVar o dt) = tab n (fun i => f i + dt * nth i (cur o) 0)%R /\
  ov_time (AccumulateOutputVar o dt) = (ov_time o + dt)%R /\ cur (AccumulateOutputVar o dt) = cur o.
Proof.
  intros [] Ha. unfold AccumulateOutputVar, acc, cur in *. destruct (ov_ceed o) as [[i a]|] eqn:E; simpl in *.
  - subst a. split; [constructor; simpl; auto; unfold cur, acc; simpl; auto | split; [now apply axpy_tab | auto]].
    rewrite axpy_length; [auto | now rewrite tab_length].
  - rewrite Ha. split; [constructor; simpl; auto; unfold cur, acc; simpl; auto | split; [now apply axpy_tab | auto]];
    rewrite axpy_length; auto; now rewrite tab_length.
Qed.
Lemma mean_shaped o f : shaped o -> acc o = tab n f -> (0 < ov_time o)%R ->
  exists o', ComputeMean o = Ret o' /\ shaped o' /\ ov_accum o' = tab n (fun i => f i / ov_time o)%R /\ cur o' = cur o /\
             ov_ceed o' = ov_ceed o.
Proof.
  intros [] Ha Ht. unfold ComputeMean, check. apply Rltb_true in Ht. rewrite Ht.
  unfold acc, cur in *. destruct (ov_ceed o) as [[i a]|] eqn:E; simpl in *; eexists; (split; [reflexivity|]); simpl.
  - subst a. split; [constructor; simpl; auto; unfold cur, acc; simpl; auto; rewrite map_length; auto|].
    split; [|unfold cur; simpl; auto]. rewrite map_tab. apply tab_ext. intros j _. unfold Rdiv. ring.
  - split; [constructor; simpl; auto; unfold cur, acc; simpl; auto; rewrite map_length; auto|].
    split; [|unfold cur; simpl; auto]. rewrite Ha, map_tab. apply tab_ext. intros j _. unfold Rdiv. ring.
Qed.
Lemma stage_shaped o : shaped o -> shaped (StageInstantaneous o) /\ ov_inst (StageInstantaneous o) = cur o /\
  ov_accum (StageInstantaneous o) = ov_accum o /\ cur (StageInstantaneous o) = cur o.
Proof.
  intros []. unfold StageInstantaneous, acc, cur in *. destruct (ov_ceed o) as [[i a]|] eqn:E; simpl in *.
  - split; [constructor; simpl; auto; unfold cur, acc; simpl; auto | auto].
  - split; [constructor; auto; unfold cur, acc; rewrite E; auto | rewrite E; auto].
Qed.
Lemma map_const_tab (l : list R) x : map (fun _ => x) l = tab (length l) (fun _ => x).
Proof. rewrite <- repeat_tab. induction l; simpl; congruence. Qed.
Lemma reset_shaped o : shaped o -> shaped (ResetOutputVar o) /\ acc (ResetOutputVar o) = tab n (fun _ => 0%R) /\ ov_time (ResetOutputVar o) = 0%R.
Proof.
  intros []. unfold ResetOutputVar, acc, cur in *. destruct (ov_ceed o) as [[i a]|] eqn:E; simpl in *.
  - split; [constructor; simpl; auto; unfold cur, acc; simpl; auto; rewrite map_length; auto | split; [|reflexivity]].
    rewrite map_const_tab. congruence.
  - split; [constructor; simpl; auto; unfold cur, acc; simpl; auto; rewrite map_length; auto | split; [|reflexivity]].
    rewrite map_const_tab. congruence.
Qed.
End Var.

(** ** Datasets *)
Definition chosen (fields : list string) (skip : bool) (spec : field_spec) (val : nat -> list R) : datasets :=
  map (fun cn => (snd cn, val (fst cn))) (selected fields skip spec).
Lemma rmap_ret {A B} (f : A -> result B) (g : A -> B) l : (forall a, In a l -> f a = Ret (g a)) -> rmap f l = Ret (map g l).
Proof. induction l as [|a l IH]; intros H; simpl; [reflexivity|]. rewrite H by (now left). simpl. rewrite IH; [reflexivity|]. intros b Hb. apply H. now right. Qed.
Lemma components_bound spec cn : In cn (components spec) -> fst cn < length (concat spec).
Proof. unfold components. destruct cn as [c s]. intros H. apply in_combine_l in H. apply in_seq in H. simpl. lia. Qed.
Lemma WriteRequestedFields_some bs cells v skip spec fields :
  0 < bs -> length v = bs * cells -> length (concat spec) <= bs ->
  WriteRequestedFields bs v skip spec fields = Ret (chosen fields skip spec (fun c => stride bs c v)).
Proof.
  intros Hb Hl Hs. unfold WriteRequestedFields, chosen. destruct fields as [|f fields].
  - unfold selected. assert (filter (fun cn : nat * string => (negb (Nat.ltb (fst cn) (offset_of skip)) && requested [] (snd cn))%bool) (components spec) = []) as ->; [|reflexivity].
    induction (components spec); simpl; [reflexivity|]. now rewrite andb_false_r.
  - unfold check. rewrite (proj2 (Nat.ltb_lt _ _) Hb), Hl, Nat.mul_comm, Nat.mod_mul by lia. simpl Nat.eqb.
    destruct (Z.leb_spec (Z.of_nat (length (concat spec)) - Z.of_nat (offset_of skip)) (Z.of_nat bs)); [|lia].
    apply rmap_ret. intros cn Hc. unfold selected in Hc. apply filter_In in Hc. destruct Hc as [Hc _].
    apply components_bound in Hc. rewrite (proj2 (Nat.ltb_lt _ _)) by lia. reflexivity.
Qed.
(* AnyFieldRequested says whether something is selected *)
Lemma any_selected fields skip spec : AnyFieldRequested fields spec skip = false -> selected fields skip spec = [].
Proof.
  unfold AnyFieldRequested, selected. induction (components spec) as [|[c s] l IH]; simpl; [reflexivity|].
  rewrite orb_false_iff. intros [H1 H2]. rewrite (IH H2).
  destruct skip; simpl in *.
  - destruct c; simpl in *; [reflexivity|]. now rewrite H1.
  - destruct c; simpl in *; now rewrite H1.
Qed.
Lemma metadata_selected fields skip spec : WriteFieldMetadata fields spec skip = map snd (selected fields skip spec).
Proof.
  unfold WriteFieldMetadata. destruct fields; [|reflexivity]. unfold selected.
  induction (components spec); simpl; [reflexivity|]. now rewrite andb_false_r.
Qed.

(** ** Writing one output *)
Definition heavy (oc : out_config) (dir : string) (fs : files) (amr : amr_state) (step : nat) (time : R) (gridname : string) (d : datasets) : result (files * amr_state) :=
  let! name := DetermineOutputFile oc dir step time "h5" in
  let! dataset := quot step (oc_interval oc) in
  let! _ := quot dataset (oc_batch oc) in
  let! gs := open_h5 fs name (negb (Nat.eqb (dataset mod oc_batch oc) 0)) in
  let fs := put fs name (Heavy (add_group gs (step, time) d)) in
  let write_grid := if amr_on amr then (amr_last_output amr <? Z.of_nat (amr_refinements amr))%Z else Nat.eqb step 0 in
  let amr' := if (amr_on amr && write_grid)%bool then Amr true (amr_refinements amr) (Z.of_nat (amr_refinements amr)) else amr in
  Ret (if write_grid then put fs gridname Grid else fs, amr').
Definition light (oc : out_config) (dir : string) (fs : files) (step : nat) (time : R) (gridname : string) (names : list string) : result files :=
  let! h5_name := DetermineOutputFile oc dir step time "h5" in
  let! xmf_name := DetermineOutputFile oc dir step time "xmf" in
  let fs := put fs xmf_name (Light (Xmf (basename gridname) (map (fun n => (basename h5_name, (step, time), n)) names))) in
  match fs h5_name with Some (Heavy _) => Ret fs | _ => Error end.
Definition emit (oc : out_config) (dir : string) (fa : files * amr_state) (step : nat) (time : R) (d : datasets) : result (files * amr_state) :=
  let grid := DetermineGridFile oc dir (snd fa) in
  let! fa' := heavy oc dir (fst fa) (snd fa) step time grid d in
  let! fs := light oc dir (fst fa') step time grid (map fst d) in
  Ret (fs, snd fa').
Definition with_files (st : out_state) (fs : files) (amr : amr_state) : out_state :=
  OutState (os_soln st) (os_prim st) (os_src st) (os_soln_fields st) (os_last st) (os_prev st) fs amr.
Lemma heavy_eq oc dir st u step time grid d : heavy_datasets oc st u = Ret d ->
  WriteXDMFHDF5Data oc dir st u step time grid = let! fa := heavy oc dir (os_files st) (os_amr st) step time grid d in Ret (with_files st (fst fa) (snd fa)).
Proof.
  intros H. unfold WriteXDMFHDF5Data, heavy.
  destruct (DetermineOutputFile oc dir step time "h5") as [name| |]; simpl; auto.
  destruct (quot step (oc_interval oc)) as [ds| |]; simpl; auto.
  destruct (quot ds (oc_batch oc)) as [b| |]; simpl; auto.
  destruct (open_h5 (os_files st) name _) as [gs| |]; simpl; auto.
  rewrite H. simpl. reflexivity.
Qed.
Lemma light_eq oc dir st step time grid names : metadata oc st = names ->
  WriteXDMFXMFData oc dir st step time grid = let! fs := light oc dir (os_files st) step time grid names in Ret (with_files st fs (os_amr st)).
Proof.
  intros <-. unfold WriteXDMFXMFData, light.
  destruct (DetermineOutputFile oc dir step time "h5") as [h5| |]; simpl; auto.
  destruct (DetermineOutputFile oc dir step time "xmf") as [xm| |]; simpl; auto.
  destruct (put _ _ _ h5) as [[]|]; reflexivity.
Qed.

(** ** One run *)
Section Run.
Context (oc : out_config) (dir : string) (classes others cells : nat).
Context (Hformat : oc_format oc = OUTPUT_XDMF).
Local Notation bs := (3 + classes + others).
Local Notation n := (bs * cells).
Local Notation F := (oc_fields oc).
Definition var (q : quantity) (st : out_state) : output_var := match q with Solution => os_soln st | Primitive => os_prim st | Sources => os_src st end.
Definition inst_of (q : quantity) : field_spec := match q with Solution => [] | Primitive => prim_inst_fields classes others | Sources => src_inst_fields classes end.
Definition avg_of (q : quantity) : field_spec := match q with Solution => soln_avg_fields classes others | Primitive => prim_avg_fields classes others | Sources => src_avg_fields classes end.
Definition skip_of (q : quantity) : bool := match q with Primitive => true | _ => false end.
Lemma inst_length q : length (concat (inst_of q)) <= bs.
Proof. destruct q; unfold inst_of, avg_of, soln_fields, soln_avg_fields, prim_avg_fields, prim_inst_fields, src_inst_fields, src_avg_fields, indexed, unnamed; cbn [List.concat]; rewrite ?List.app_nil_r, ?app_length, ?map_length, ?seq_length, ?repeat_length; cbn [List.length]; lia. Qed.
Lemma avg_length q : length (concat (avg_of q)) <= bs.
Proof. destruct q; unfold inst_of, avg_of, soln_fields, soln_avg_fields, prim_avg_fields, prim_inst_fields, src_inst_fields, src_avg_fields, indexed, unnamed; cbn [List.concat]; rewrite ?List.app_nil_r, ?app_length, ?map_length, ?seq_length, ?repeat_length; cbn [List.length]; lia. Qed.
Lemma soln_length : length (concat (soln_fields classes others)) <= bs.
Proof. unfold inst_of, avg_of, soln_fields, soln_avg_fields, prim_avg_fields, prim_inst_fields, src_inst_fields, src_avg_fields, indexed, unnamed; cbn [List.concat]; rewrite ?List.app_nil_r, ?app_length, ?map_length, ?seq_length, ?repeat_length; cbn [List.length]; lia. Qed.

Definition asked (q : quantity) : bool := AnyFieldRequested F (avg_of q) (skip_of q).
Record inv (pending : list mon_call) (st : out_state) : Prop := {
  in_shape : forall q, shaped (inst_of q) (avg_of q) (skip_of q) bs n (var q st);
  in_spec : os_soln_fields st = soln_fields classes others;
  in_acc : forall q, asked q = true ->
    acc (var q st) = tab n (fun i => rsum (fun c => mc_dt c * nth i (values q c) 0)%R pending) /\ ov_time (var q st) = rsum mc_dt pending
}.
Lemma needs_asked q st pending : inv pending st -> needs oc (var q st) = asked q.
Proof. intros H. destruct (in_shape _ _ H q). unfold needs, asked. congruence. Qed.

Definition mean_vec (q : quantity) (since : list mon_call) : list R := tab n (fun i => weighted (fun c => nth i (values q c) 0%R) since).
Definition var_written (q : quantity) (since : list mon_call) (c : mon_call) : datasets :=
  (chosen F (skip_of q) (avg_of q) (fun k => stride bs k (mean_vec q since)) ++ chosen F (skip_of q) (inst_of q) (fun k => stride bs k (values q c)))%list.
(* the datasets of an output at [c], after the steps [pending] since the previous one *)
Definition written (pending : list mon_call) (c : mon_call) : datasets :=
  (chosen F false (soln_fields classes others) (fun k => stride bs k (mc_u c)) ++
   var_written Solution (pending ++ [c]) c ++ var_written Primitive (pending ++ [c]) c ++ var_written Sources (pending ++ [c]) c)%list.

Lemma chosen_none skip spec v w : AnyFieldRequested F spec skip = false -> chosen F skip spec v = chosen F skip spec w.
Proof. intros H. unfold chosen. now rewrite (any_selected _ _ _ H). Qed.
Lemma chosen_nil skip v : chosen F skip [] v = [].
Proof. reflexivity. Qed.

(* writing a variable whose vectors hold the means and the current values *)
Lemma write_var_some q o since c :
  shaped (inst_of q) (avg_of q) (skip_of q) bs n o ->
  (asked q = true -> ov_accum o = mean_vec q since) ->
  (AnyFieldRequested F (inst_of q) (skip_of q) = true -> ov_inst o = values q c) ->
  write_var F o = Ret (var_written q since c).
Proof.
  intros H Ha Hi. destruct H as [h1 h2 h3 h4 h5 h6 h7 h8].
  unfold write_var, var_written. rewrite h1, h2, h3, h4.
  rewrite (WriteRequestedFields_some bs cells) by (auto using avg_length; lia). cbn [rbind].
  assert (Ea : chosen F (skip_of q) (avg_of q) (fun k => stride bs k (ov_accum o)) = chosen F (skip_of q) (avg_of q) (fun k => stride bs k (mean_vec q since))).
  { unfold asked in Ha. destruct (AnyFieldRequested F (avg_of q) (skip_of q)) eqn:E; [now rewrite Ha | now apply chosen_none]. }
  rewrite Ea. clear Ea.
  assert (Ei : chosen F (skip_of q) (inst_of q) (fun k => stride bs k (ov_inst o)) = chosen F (skip_of q) (inst_of q) (fun k => stride bs k (values q c))).
  { destruct (AnyFieldRequested F (inst_of q) (skip_of q)) eqn:E; [now rewrite Hi | now apply chosen_none]. }
  rewrite <- Ei.
  pose proof (inst_length q) as L.
  destruct (inst_of q) as [|f fs] eqn:E.
  - rewrite chosen_nil, List.app_nil_r. reflexivity.
  - rewrite <- E in *. rewrite (WriteRequestedFields_some bs cells) by (auto; lia). reflexivity.
Qed.
Lemma map_fst_chosen skip spec v : map fst (chosen F skip spec v) = map snd (selected F skip spec).
Proof. unfold chosen. rewrite map_map. apply map_ext. auto. Qed.
Lemma var_metadata_some q o since c : shaped (inst_of q) (avg_of q) (skip_of q) bs n o ->
  var_metadata F o = map fst (var_written q since c).
Proof.
  intros []. unfold var_metadata, var_written. rewrite map_app, !map_fst_chosen, sh_inst0, sh_avg0, sh_skip0, !metadata_selected.
  f_equal. destruct (inst_of q); [reflexivity|]. reflexivity.
Qed.

(* the state after an accumulation *)
Definition loaded (st : out_state) (c : mon_call) : out_state :=
  with_vars st (load (mc_u c) (os_soln st)) (load (mc_prim c) (os_prim st)) (load (mc_src c) (os_src st)).
Definition sized (c : mon_call) : Prop := length (mc_u c) = n /\ length (mc_prim c) = n /\ length (mc_src c) = n.
Lemma sized_values c q : sized c -> length (values q c) = n.
Proof. intros (a & b & d). destruct q; auto. Qed.
Lemma loaded_var st c q : var q (loaded st c) = load (values q c) (var q st).
Proof. destruct q; reflexivity. Qed.
Lemma loaded_inv pending st c : inv pending st -> sized c -> inv pending (loaded st c) /\ forall q, cur (var q (loaded st c)) = values q c.
Proof.
  intros H Hc. split; [constructor|].
  - intros q. rewrite loaded_var. destruct (load_shaped _ _ _ _ _ (values q c) _ (in_shape _ _ H q) (sized_values _ _ Hc)) as [a _]. exact a.
  - apply (in_spec _ _ H).
  - intros q Hq. rewrite loaded_var. destruct (load_shaped _ _ _ _ _ (values q c) _ (in_shape _ _ H q) (sized_values _ _ Hc)) as (_ & b & d & _).
    rewrite b, d. now apply (in_acc _ _ H).
  - intros q. rewrite loaded_var. now destruct (load_shaped _ _ _ _ _ (values q c) _ (in_shape _ _ H q) (sized_values _ _ Hc)) as (_ & _ & _ & ?).
Qed.
Definition stepped (st : out_state) (c : mon_call) : out_state :=
  let st := on_vars oc (fun o => AccumulateOutputVar o (mc_dt c)) st in
  OutState (os_soln st) (os_prim st) (os_src st) (os_soln_fields st) (Z.of_nat (mc_step c)) (os_prev st) (os_files st) (os_amr st).
Lemma stepped_var st c q : var q (stepped st c) = if needs oc (var q st) then AccumulateOutputVar (var q st) (mc_dt c) else var q st.
Proof. destruct q; reflexivity. Qed.
Lemma rsum_snoc {A} (f : A -> R) l a : rsum f (l ++ [a])%list = (rsum f l + f a)%R.
Proof. rewrite rsum_app. simpl. ring. Qed.
Lemma stepped_inv pending st c : inv pending st -> (forall q, cur (var q st) = values q c) ->
  inv (pending ++ [c]) (stepped st c) /\ forall q, cur (var q (stepped st c)) = values q c.
Proof.
  intros H Hc.
  assert (A : forall q, asked q = true ->
     shaped (inst_of q) (avg_of q) (skip_of q) bs n (AccumulateOutputVar (var q st) (mc_dt c)) /\
     acc (AccumulateOutputVar (var q st) (mc_dt c)) = tab n (fun i => rsum (fun c => mc_dt c * nth i (values q c) 0)%R (pending ++ [c])) /\
     ov_time (AccumulateOutputVar (var q st) (mc_dt c)) = rsum mc_dt (pending ++ [c]) /\
     cur (AccumulateOutputVar (var q st) (mc_dt c)) = cur (var q st)).
  { intros q Hq. destruct (in_acc _ _ H q Hq) as [a t].
    destruct (accumulate_shaped _ _ _ _ _ _ (mc_dt c) _ (in_shape _ _ H q) a) as (b & d & e & f).
    split; [exact b|]. split; [|split; [|exact f]].
    - rewrite d. apply tab_ext. intros i _. now rewrite rsum_snoc, Hc.
    - now rewrite e, t, rsum_snoc. }
  split; [constructor|].
  - intros q. rewrite stepped_var, (needs_asked q st pending H). destruct (asked q) eqn:E; [now apply A | apply (in_shape _ _ H)].
  - apply (in_spec _ _ H).
  - intros q Hq. rewrite stepped_var, (needs_asked q st pending H), Hq. destruct (A q Hq) as (_ & ? & ? & _). auto.
  - intros q. rewrite stepped_var, (needs_asked q st pending H). destruct (asked q) eqn:E; [|apply Hc]. destruct (A q E) as (_ & _ & _ & ->). apply Hc.
Qed.

(* a call that neither accumulates nor writes *)
Lemma call_again pending st c : inv pending st -> sized c ->
  (mc_time c = os_prev st \/ os_last st = Z.of_nat (mc_step c) /\ due oc (mc_step c) (mc_time c) = false) ->
  WriteXDMFOutput oc dir st c = Ret (loaded st c).
Proof.
  intros H Hs Hc. unfold WriteXDMFOutput. fold (loaded st c). change (os_prev (loaded st c)) with (os_prev st). change (os_last (loaded st c)) with (os_last st).
  destruct (Reqb (mc_time c) (os_prev st)) eqn:E; [reflexivity|].
  destruct Hc as [Hc | [Hc Hd]].
  - unfold Reqb in E. destruct (Req_EM_T (mc_time c) (os_prev st)); [discriminate | contradiction].
  - rewrite Hc, Z.eqb_refl. now rewrite Hd.
Qed.
(* a first call for a step at which nothing is written *)
Lemma call_first pending st c : inv pending st -> sized c ->
  mc_time c <> os_prev st -> os_last st <> Z.of_nat (mc_step c) -> due oc (mc_step c) (mc_time c) = false ->
  WriteXDMFOutput oc dir st c = Ret (stepped (loaded st c) c).
Proof.
  intros H Hs Ht Hl Hd. unfold WriteXDMFOutput. fold (loaded st c). change (os_prev (loaded st c)) with (os_prev st). change (os_last (loaded st c)) with (os_last st).
  unfold Reqb. destruct (Req_EM_T (mc_time c) (os_prev st)) as [e|_]; [contradiction|].
  destruct (Z.eqb_spec (os_last st) (Z.of_nat (mc_step c))) as [e|_]; [contradiction|].
  fold (stepped (loaded st c) c). now rewrite Hd.
Qed.
(* a first call for a step at which output is due *)
Definition out_time (c : mon_call) : R := ConvertTimeFromSeconds (mc_time c) (oc_unit oc).
Lemma call_due pending st c fs amr : inv pending st -> sized c -> (0 < rsum mc_dt (pending ++ [c]))%R ->
  mc_time c <> os_prev st -> os_last st <> Z.of_nat (mc_step c) -> due oc (mc_step c) (mc_time c) = true ->
  emit oc dir (os_files st, os_amr st) (mc_step c) (out_time c) (written pending c) = Ret (fs, amr) ->
  exists st', WriteXDMFOutput oc dir st c = Ret st' /\ inv [] st' /\ os_last st' = Z.of_nat (mc_step c) /\ os_prev st' = mc_time c /\
              os_files st' = fs /\ os_amr st' = amr.
Proof.
  intros H Hs Hp Ht Hl Hd He. unfold WriteXDMFOutput. fold (loaded st c). change (os_prev (loaded st c)) with (os_prev st). change (os_last (loaded st c)) with (os_last st).
  unfold Reqb. destruct (Req_EM_T (mc_time c) (os_prev st)) as [e|_]; [contradiction|].
  destruct (Z.eqb_spec (os_last st) (Z.of_nat (mc_step c))) as [e|_]; [contradiction|].
  fold (stepped (loaded st c) c). rewrite Hd.
  destruct (loaded_inv _ _ _ H Hs) as [H1 C1]. destruct (stepped_inv _ _ _ H1 C1) as [H2 C2].
  set (s2 := stepped (loaded st c) c) in *.
  assert (F2 : os_files s2 = os_files st) by reflexivity. assert (A2 : os_amr s2 = os_amr st) by reflexivity.
  assert (L2 : os_last s2 = Z.of_nat (mc_step c)) by reflexivity.
  clearbody s2.
  assert (M : forall q, exists o, mean_of oc (var q s2) = Ret o /\ shaped (inst_of q) (avg_of q) (skip_of q) bs n o /\
                (asked q = true -> ov_accum o = mean_vec q (pending ++ [c])) /\ cur o = values q c).
  { intros q. unfold mean_of. rewrite (needs_asked q s2 _ H2). destruct (asked q) eqn:E.
    - destruct (in_acc _ _ H2 q E) as [a t].
      destruct (mean_shaped _ _ _ _ _ _ _ (in_shape _ _ H2 q) a) as (o & e1 & e2 & e3 & e4 & _); [rewrite t; exact Hp|].
      exists o. split; [exact e1|]. split; [exact e2|]. split; [|now rewrite e4, C2].
      intros _. rewrite e3, t. reflexivity.
    - exists (var q s2). split; [reflexivity|]. split; [apply (in_shape _ _ H2)|]. split; [discriminate | apply C2]. }
  destruct (M Solution) as (a & Ea & Sa & Va & _). destruct (M Primitive) as (b & Eb & Sb & Vb & Cb). destruct (M Sources) as (s & Es & Ss & Vs & Cs).
  simpl in Ea, Eb, Es. rewrite Ea. cbn [rbind]. rewrite Eb. cbn [rbind]. rewrite Es. cbn [rbind].
  assert (T : forall q o, shaped (inst_of q) (avg_of q) (skip_of q) bs n o -> (asked q = true -> ov_accum o = mean_vec q (pending ++ [c])) -> cur o = values q c ->
     let o' := if needs_inst oc o then StageInstantaneous o else o in
     shaped (inst_of q) (avg_of q) (skip_of q) bs n o' /\ (asked q = true -> ov_accum o' = mean_vec q (pending ++ [c])) /\
     (AnyFieldRequested F (inst_of q) (skip_of q) = true -> ov_inst o' = values q c)).
  { intros q o So Vo Co o'. subst o'. unfold needs_inst.
    rewrite (sh_inst _ _ _ _ _ _ So), (sh_skip _ _ _ _ _ _ So).
    destruct (stage_shaped _ _ _ _ _ _ So) as (s1 & s2' & s3 & _).
    destruct (AnyFieldRequested F (inst_of q) (skip_of q)); [|split; [auto | split; [auto | discriminate]]].
    split; [exact s1|]. rewrite s2', s3. split; [exact Vo | intros _; exact Co]. }
  pose proof (T Primitive b Sb Vb Cb) as TB. pose proof (T Sources s Ss Vs Cs) as TS. cbv zeta in TB, TS.
  set (b' := if needs_inst oc b then StageInstantaneous b else b) in *.
  set (s' := if needs_inst oc s then StageInstantaneous s else s) in *.
  clearbody b' s'. destruct TB as (Sb' & Vb' & Ib'). destruct TS as (Ss' & Vs' & Is').
  rewrite Hformat. fold (out_time c).
  set (s3 := OutState a b' s' (os_soln_fields s2) (os_last s2) (mc_time c) (os_files s2) (os_amr s2)).
  assert (D : heavy_datasets oc s3 (mc_u c) = Ret (written pending c)).
  { unfold heavy_datasets. subst s3. cbn [os_soln os_prim os_src os_soln_fields]. rewrite (in_spec _ _ H2), (sh_bs _ _ _ _ _ _ Sa).
    rewrite (WriteRequestedFields_some bs cells) by (try exact soln_length; try exact (proj1 Hs); lia). cbn [rbind].
    rewrite (write_var_some Solution a (pending ++ [c]) c Sa Va) by discriminate. cbn [rbind].
    rewrite (write_var_some Primitive b' (pending ++ [c]) c Sb' Vb' Ib'). cbn [rbind].
    rewrite (write_var_some Sources s' (pending ++ [c]) c Ss' Vs' Is'). reflexivity. }
  assert (N : metadata oc s3 = map fst (written pending c)).
  { unfold metadata, written. subst s3. cbn [os_soln os_prim os_src os_soln_fields]. rewrite (in_spec _ _ H2), !map_app, metadata_selected, map_fst_chosen.
    rewrite (var_metadata_some Solution a (pending ++ [c]) c Sa), (var_metadata_some Primitive b' (pending ++ [c]) c Sb'), (var_metadata_some Sources s' (pending ++ [c]) c Ss'). reflexivity. }
  rewrite (heavy_eq _ _ _ _ _ _ _ _ D).
  unfold emit in He. simpl fst in He. simpl snd in He. rewrite <- F2, <- A2 in He.
  change (os_files s3) with (os_files s2). change (os_amr s3) with (os_amr s2).
  destruct (heavy oc dir (os_files s2) (os_amr s2) (mc_step c) (out_time c) (DetermineGridFile oc dir (os_amr s2)) (written pending c)) as [[f1 a1]| |]; simpl in He; try discriminate.
  cbn [rbind].
  rewrite (light_eq _ _ (with_files s3 f1 a1) _ _ _ (map fst (written pending c))) by exact N.
  change (os_files (with_files s3 f1 a1)) with f1. change (os_amr (with_files s3 f1 a1)) with a1.
  destruct (light oc dir f1 (mc_step c) (out_time c) (DetermineGridFile oc dir (os_amr s2)) (map fst (written pending c))) as [f2| |]; simpl in He; try discriminate.
  injection He as -> ->. cbn [rbind].
  eexists. split; [reflexivity|].
  assert (R : forall q o, shaped (inst_of q) (avg_of q) (skip_of q) bs n o ->
     let o' := if needs oc o then ResetOutputVar o else o in
     shaped (inst_of q) (avg_of q) (skip_of q) bs n o' /\ (asked q = true -> acc o' = tab n (fun _ => 0%R) /\ ov_time o' = 0%R)).
  { intros q o So o'. subst o'. unfold needs. rewrite (sh_avg _ _ _ _ _ _ So), (sh_skip _ _ _ _ _ _ So).
    destruct (reset_shaped _ _ _ _ _ _ So) as (r1 & r2 & r3). unfold asked.
    destruct (AnyFieldRequested F (avg_of q) (skip_of q)); [auto | split; [exact So | discriminate]]. }
  split; [constructor|].
  - intros [| |]; simpl; [now apply (R Solution) | now apply (R Primitive) | now apply (R Sources)].
  - apply (in_spec _ _ H2).
  - intros [| |] Hq; simpl; [now apply (R Solution) | now apply (R Primitive) | now apply (R Sources)].
  - simpl. repeat split; auto.
Qed.

(* the outputs of a run: the steps since the previous output, and the step written *)
Fixpoint outputs (pending run : list mon_call) : list (list mon_call * mon_call) :=
  match run with
  | [] => []
  | c :: t => if due oc (mc_step c) (mc_time c) then (pending, c) :: outputs [] t else outputs (pending ++ [c]) t
  end.
Fixpoint leftover (pending run : list mon_call) : list mon_call :=
  match run with
  | [] => pending
  | c :: t => if due oc (mc_step c) (mc_time c) then leftover [] t else leftover (pending ++ [c]) t
  end.
Definition emit_one (fa : result (files * amr_state)) (o : list mon_call * mon_call) : result (files * amr_state) :=
  let! fa := fa in emit oc dir fa (mc_step (snd o)) (out_time (snd o)) (written (fst o) (snd o)).
Definition emits (fa : result (files * amr_state)) (l : list (list mon_call * mon_call)) : result (files * amr_state) := fold_left emit_one l fa.
Lemma emits_fail l : emits Error l = Error /\ emits UB l = UB.
Proof. induction l; simpl; auto. Qed.

Lemma again_all pending s dts : forall st, inv pending st -> sized s ->
  (mc_time s = os_prev st \/ os_last st = Z.of_nat (mc_step s) /\ due oc (mc_step s) (mc_time s) = false) ->
  exists st', monitors oc dir (map (repeat_call s) dts) (Ret st) = Ret st' /\ inv pending st' /\ os_last st' = os_last st /\ os_prev st' = os_prev st /\
              os_files st' = os_files st /\ os_amr st' = os_amr st.
Proof.
  induction dts as [|dt dts IH]; intros st H Hs Hc; simpl.
  - exists st. auto 10.
  - assert (sized (repeat_call s dt)) as Hs' by exact Hs.
    rewrite (call_again _ _ _ H Hs' Hc).
    destruct (loaded_inv _ _ _ H Hs') as [H' _].
    destruct (IH (loaded st (repeat_call s dt)) H' Hs Hc) as (st' & a & b & d & e & f & g).
    exists st'. auto 10.
Qed.
Lemma monitors_app a b st : monitors oc dir (a ++ b) st = monitors oc dir b (monitors oc dir a st).
Proof. unfold monitors. apply fold_left_app. Qed.

Lemma run_monitors (run : list seen) : forall pending st fs amr,
  inv pending st -> run_ok bs cells (steps_of run) ->
  (forall c, In c (steps_of run) -> mc_time c <> os_prev st /\ os_last st <> Z.of_nat (mc_step c)) ->
  (forall c, In c pending -> (0 < mc_dt c)%R) ->
  emits (Ret (os_files st, os_amr st)) (outputs pending (steps_of run)) = Ret (fs, amr) ->
  exists st', monitors oc dir (history run) (Ret st) = Ret st' /\ inv (leftover pending (steps_of run)) st' /\ os_files st' = fs /\ os_amr st' = amr.
Proof.
  induction run as [|[c dts] run IH]; intros pending st fs amr H Hr Hn Hp He.
  - simpl in He. injection He as <- <-. exists st. auto.
  - destruct Hr as [Ho Ht Hd Hz]. simpl in Ho, Ht, Hd, Hz, Hn.
    apply StronglySorted_inv in Ho. destruct Ho as [Ho Hf]. rewrite Forall_forall in Hf.
    assert (Hs : sized c) by (apply Hz; now left).
    destruct (Hn c (or_introl eq_refl)) as [Hn1 Hn2].
    assert (Hr' : run_ok bs cells (steps_of run)) by (constructor; auto).
    assert (Hd' : forall x, In x (pending ++ [c]) -> (0 < mc_dt x)%R).
    { intros x Hx. apply in_app_or in Hx. destruct Hx as [Hx|[<-|[]]]; auto. }
    change (history (Seen c dts :: run)) with (([c] ++ map (repeat_call c) dts) ++ history run)%list. rewrite !monitors_app.
    change (monitors oc dir [c] (Ret st)) with (WriteXDMFOutput oc dir st c).
    change (steps_of (Seen c dts :: run)) with (c :: steps_of run) in He |- *.
    cbn [outputs] in He. cbn [leftover]. destruct (due oc (mc_step c) (mc_time c)) eqn:D.
    + unfold emits in He. cbn [fold_left] in He. fold (emits (emit_one (Ret (os_files st, os_amr st)) (pending, c)) (outputs [] (steps_of run))) in He.
      destruct (emit_one (Ret (os_files st, os_amr st)) (pending, c)) as [[f1 a1]| |] eqn:E1; [|rewrite (proj1 (emits_fail _)) in He; discriminate | rewrite (proj2 (emits_fail _)) in He; discriminate].
      unfold emit_one in E1. cbn [rbind fst snd] in E1.
      assert (0 < rsum mc_dt (pending ++ [c]))%R as Hpos.
      { rewrite rsum_snoc. pose proof (rsum_nonneg mc_dt pending) as G.
        assert (0 <= rsum mc_dt pending)%R by (apply G; intros x Hx; left; now apply Hp).
        pose proof (Hd c (or_introl eq_refl)). lra. }
      destruct (call_due pending st c f1 a1 H Hs Hpos Hn1 Hn2 D E1) as (s1 & e1 & i1 & l1 & p1 & ff1 & aa1).
      rewrite e1.
      destruct (again_all [] c dts s1 i1 Hs (or_introl (eq_sym p1))) as (s2 & e2 & i2 & l2 & p2 & ff2 & aa2).
      rewrite e2. apply (IH [] s2 fs amr i2 Hr').
      * intros x Hx. destruct (Hf x Hx) as [q1 q2]. rewrite p2, l2, p1, l1. split; [lra | lia].
      * intros x [].
      * rewrite ff2, aa2, ff1, aa1. exact He.
    + rewrite (call_first pending st c H Hs Hn1 Hn2 D).
      destruct (loaded_inv _ _ _ H Hs) as [j1 j2]. destruct (stepped_inv _ _ _ j1 j2) as [i1 _].
      set (s1 := stepped (loaded st c) c) in *.
      assert (l1 : os_last s1 = Z.of_nat (mc_step c)) by reflexivity. assert (p1 : os_prev s1 = os_prev st) by reflexivity.
      assert (ff1 : os_files s1 = os_files st) by reflexivity. assert (aa1 : os_amr s1 = os_amr st) by reflexivity.
      clearbody s1.
      destruct (again_all _ c dts s1 i1 Hs (or_intror (conj l1 D))) as (s2 & e2 & i2 & l2 & p2 & ff2 & aa2).
      rewrite e2. apply (IH _ s2 fs amr i2 Hr').
      * intros x Hx. destruct (Hf x Hx) as [q1 q2]. rewrite p2, l2, p1, l1. split; [apply Hn; now right | lia].
      * exact Hd'.
      * rewrite ff2, aa2, ff1, aa1. exact He.
Qed.
Lemma init_inv ceed fs amr : inv [] (init_output classes others cells ceed fs amr).
Proof.
  assert (L : forall k, length (fresh_vec bs k) = bs * k) by (intros k; apply repeat_length).
  constructor.
  - intros q. destruct q; simpl; constructor; unfold cur, acc; simpl; try apply L; try reflexivity; destruct ceed; simpl; apply L.
  - reflexivity.
  - intros q _. destruct q; simpl; (split; [|reflexivity]); unfold acc; simpl; try (destruct ceed; simpl); unfold fresh_vec; rewrite repeat_tab; reflexivity.
Qed.

(** ** Names of the fields *)
Definition spec_of (k : kind) (q : quantity) : field_spec :=
  match k, q with Now, Solution => soln_fields classes others | Now, _ => inst_of q | Mean, _ => avg_of q end.
Lemma spec_length k q : length (concat (spec_of k q)) <= bs.
Proof. destruct k, q; simpl spec_of; first [apply soln_length | apply (inst_length Primitive) | apply (inst_length Sources) | apply (avg_length Solution) | apply (avg_length Primitive) | apply (avg_length Sources)]. Qed.
Lemma indexed_nth a b i : i < classes -> nth_error (indexed a classes b) i = Some (a ++ dec i ++ b)%string.
Proof. intros H. unfold indexed. rewrite nth_error_map, (nth_error_nth' _ 0) by (now rewrite seq_length). rewrite seq_nth by lia. reflexivity. Qed.
Lemma indexed_len a b : length (indexed a classes b) = classes.
Proof. unfold indexed. now rewrite map_length, seq_length. Qed.
Lemma table_component f k q comp : In (f, (k, q, comp)) (field_table classes) ->
  nth_error (concat (spec_of k q)) comp = Some f /\ offset_of (skip_of q) <= comp.
Proof.
  intros H. unfold field_table in H. apply in_app_or in H. destruct H as [H | H].
  - repeat (destruct H as [H|H]; [injection H as <- <- <- <-; split; [reflexivity | simpl; lia] | ]). destruct H.
  - apply in_flat_map in H. destruct H as (i & Hi & H). apply in_seq in Hi. assert (i < classes) by lia.
    repeat (destruct H as [H|H]; [injection H as <- <- <- <-; split; [|simpl; lia];
       change (3 + i) with (S (S (S i))); cbn [spec_of inst_of avg_of soln_fields soln_avg_fields prim_avg_fields prim_inst_fields src_inst_fields src_avg_fields List.concat List.app nth_error];
       rewrite ?List.app_nil_r; rewrite ?nth_error_app1 by (rewrite indexed_len; lia); rewrite indexed_nth by lia; rewrite ?append_nil; reflexivity | ]).
    destruct H.
Qed.
Lemma components_nth spec c f : nth_error (concat spec) c = Some f -> In (c, f) (components spec).
Proof.
  intros H. unfold components.
  assert (G : forall (l : list string) k c f, nth_error l c = Some f -> nth_error (combine (seq k (length l)) l) c = Some (k + c, f)).
  { clear. induction l as [|x l IH]; intros k [|c] f H; simpl in *; try discriminate.
    - injection H as ->. f_equal. f_equal. lia.
    - rewrite (IH (S k) c f H). f_equal. f_equal. lia. }
  apply (nth_error_In _ c). now rewrite (G _ 0 c f H).
Qed.
Lemma selected_in skip spec c f : nth_error (concat spec) c = Some f -> offset_of skip <= c -> requested F f = true -> In (c, f) (selected F skip spec).
Proof.
  intros H1 H2 H3. unfold selected. apply filter_In. split; [now apply components_nth|]. simpl.
  rewrite H3, andb_true_r. apply negb_true_iff, Nat.ltb_ge. exact H2.
Qed.
(* every requested field is among the datasets with the values to be shown *)
Lemma written_in pending c f kqc : sized c -> In (f, kqc) (field_table classes) -> requested F f = true ->
  In (f, shown bs cells kqc pending c) (written pending c).
Proof.
  intros Hs Hf Hr. destruct kqc as [[k q] comp]. destruct (table_component _ _ _ _ Hf) as [H1 H2].
  assert (B : comp < bs).
  { assert (comp < length (concat (spec_of k q))) by (apply nth_error_Some; congruence). pose proof (spec_length k q). lia. }
  pose proof (selected_in _ _ _ _ H1 H2 Hr) as HS.
  assert (V : forall q', stride bs comp (values q' c) = map (fun cell => nth (bs * cell + comp) (values q' c) 0%R) (seq 0 cells)).
  { intros q'. apply stride_self; [lia | now apply sized_values]. }
  assert (M : forall q' l, stride bs comp (mean_vec q' l) = map (fun cell => weighted (fun c => nth (bs * cell + comp) (values q' c) 0%R) l) (seq 0 cells)).
  { intros q' l. unfold mean_vec. rewrite stride_tab by lia. reflexivity. }
  assert (A : forall skip spec v, In (comp, f) (selected F skip spec) -> In (f, v comp) (chosen F skip spec v)).
  { intros skip spec v HS'. unfold chosen. apply in_map_iff. exists (comp, f). auto. }
  unfold written, var_written, shown. rewrite !in_app_iff.
  destruct k, q; simpl spec_of in HS; simpl skip_of in *.
  - left. rewrite <- (V Solution). now apply (A _ _ (fun k => stride bs k (mc_u c))).
  - right; right; left; right. rewrite <- (V Primitive). now apply (A _ _ (fun k => stride bs k (values Primitive c))).
  - right; right; right; right. rewrite <- (V Sources). now apply (A _ _ (fun k => stride bs k (values Sources c))).
  - right; left; left. rewrite <- (M Solution). now apply (A _ _ (fun k => stride bs k (mean_vec Solution (pending ++ [c])))).
  - right; right; left; left. rewrite <- (M Primitive). now apply (A _ _ (fun k => stride bs k (mean_vec Primitive (pending ++ [c])))).
  - right; right; right; left. rewrite <- (M Sources). now apply (A _ _ (fun k => stride bs k (mean_vec Sources (pending ++ [c])))).
Qed.
(* no name is used twice *)
Definition seen_names (skip : bool) (spec : field_spec) : list string := if skip then tl (concat spec) else concat spec.
Lemma selected_names skip spec : map snd (selected F skip spec) = filter (requested F) (seen_names skip spec).
Proof.
  assert (G : forall l k, map snd (filter (fun cn : nat * string => (negb (Nat.ltb (fst cn) 1) && requested F (snd cn))%bool) (combine (seq (S k) (length l)) l)) = filter (requested F) l).
  { induction l as [|x l IH]; intros k; simpl; [reflexivity|]. destruct (requested F x); simpl; rewrite IH; reflexivity. }
  assert (G0 : forall l k, map snd (filter (fun cn : nat * string => (negb (Nat.ltb (fst cn) 0) && requested F (snd cn))%bool) (combine (seq k (length l)) l)) = filter (requested F) l).
  { induction l as [|x l IH]; intros k; simpl; [reflexivity|]. destruct (requested F x); simpl; rewrite IH; reflexivity. }
  unfold selected, components, seen_names. destruct skip; simpl offset_of.
  - destruct (concat spec) as [|x l]; [reflexivity|]. simpl List.length. cbn [seq combine filter fst snd Nat.ltb Nat.leb negb andb tl]. apply G.
  - apply G0.
Qed.
Definition core_names : list string :=
  (["Height"; "MomentumX"; "MomentumY"] ++ indexed "SedimentMassPerUnitArea" classes "" ++
   ["Height_Mean"; "MomentumX_Mean"; "MomentumY_Mean"] ++ indexed "SedimentMassPerUnitArea" classes "_Mean" ++
   ["VelocityX_Mean"; "VelocityY_Mean"] ++ indexed "SedimentConcentration" classes "_Mean" ++
   ["VelocityX"; "VelocityY"] ++ indexed "SedimentConcentration" classes "" ++
   ["WaterSource_Mean"; "MomentumXSource_Mean"; "MomentumYSource_Mean"] ++ indexed "SedimentMassPerUnitArea" classes "Source_Mean" ++
   ["WaterSource"; "MomentumXSource"; "MomentumYSource"] ++ indexed "SedimentMassPerUnitArea" classes "Source")%list.
Lemma filter_unnamed k : requested F "" = false -> filter (requested F) (unnamed k) = [].
Proof. intros H. unfold unnamed. induction k; simpl; [reflexivity|]. now rewrite H. Qed.
Lemma filter_app' {A} (p : A -> bool) l m : filter p (l ++ m)%list = (filter p l ++ filter p m)%list.
Proof. apply filter_app. Qed.
Lemma written_names pending c : requested F "" = false -> map fst (written pending c) = filter (requested F) core_names.
Proof.
  intros H. unfold written, var_written, core_names. rewrite !map_app, !map_fst_chosen, !selected_names.
  unfold seen_names, skip_of, avg_of, inst_of, soln_fields, soln_avg_fields, prim_avg_fields, prim_inst_fields, src_inst_fields, src_avg_fields.
  cbn [List.concat]. rewrite !List.app_nil_r.
  change (tl (["Height_Mean"; "VelocityX_Mean"; "VelocityY_Mean"] ++ indexed "SedimentConcentration" classes "_Mean" ++ unnamed others))%list
    with (["VelocityX_Mean"; "VelocityY_Mean"] ++ indexed "SedimentConcentration" classes "_Mean" ++ unnamed others)%list.
  change (tl (["Height"; "VelocityX"; "VelocityY"] ++ indexed "SedimentConcentration" classes "" ++ unnamed others))%list
    with (["VelocityX"; "VelocityY"] ++ indexed "SedimentConcentration" classes "" ++ unnamed others)%list.
  rewrite !filter_app, (filter_unnamed _ H). simpl (filter (requested F) []). rewrite ?List.app_nil_r, <- ?app_assoc. reflexivity.
Qed.
End Run.

(** ** Names of the files *)
Lemma zeros_length k : String.length (zeros k) = k.
Proof. induction k; simpl; auto. Qed.
Lemma padded_length w n : String.length (padded w n) = Nat.max w (String.length (dec n)).
Proof. unfold padded. rewrite append_length, zeros_length. lia. Qed.
Fixpoint last_char (s : string) : option ascii := match s with "" => None | String c "" => Some c | String _ t => last_char t end.
Lemma last_char_app a c s : last_char (a ++ String c s) = last_char (String c s).
Proof.
  induction a as [|x a IH]; [reflexivity|].
  change (last_char (String x (a ++ String c s)) = last_char (String c s)).
  destruct (a ++ String c s) eqn:E; [|exact IH].
  exfalso. apply (f_equal String.length) in E. rewrite append_length in E. simpl in E. lia.
Qed.
Lemma no_sep_slash s : no_sep s = no_slash s.
Proof. induction s; simpl; [reflexivity|]. unfold no_slash in *. simpl. now rewrite IHs. Qed.

Section Files.
Context (oc : out_config) (dir : string) (classes : nat) (OK : xdmf_ok oc dir classes).
Definition base : string := dir ++ "/" ++ oc_prefix oc.
Definition numbered (max : Z) (k : nat) (suffix : string) : string := "-" ++ padded (String.length (dec (Z.to_nat max))) k ++ "." ++ suffix.
Definition tail_of (step : nat) (time : R) (suffix : string) : string :=
  match oc_date oc with
  | Some date => "." ++ date (Int_part time) ++ "." ++ suffix
  | None => numbered (oc_stop_n oc) step suffix
  end.
Definition max_batch : Z := let m := Z.quot (Z.quot (oc_stop_n oc) (Z.of_nat (oc_interval oc))) (Z.of_nat (oc_batch oc)) in if (m <? 1)%Z then 1%Z else m.
Definition batch_of (step : nat) : nat := step / oc_interval oc / oc_batch oc.
Definition h5_tail (step : nat) (time : R) : string :=
  if Nat.eqb (oc_batch oc) 1 then tail_of step time "h5" else numbered max_batch (batch_of step) "h5".
Definition h5_of (step : nat) (time : R) : string := base ++ h5_tail step time.
Definition xmf_of (step : nat) (time : R) : string := base ++ tail_of step time "xmf".
Definition grid_tail (amr : amr_state) : string := if amr_on amr then "-grid.r" ++ dec (amr_refinements amr) ++ ".h5" else "-grid.h5".
Definition grid_of (amr : amr_state) : string := base ++ grid_tail amr.

Lemma indexed_name k max suffix : (0 < max)%Z -> short_number (Z.to_nat max) -> short_number k -> String.length suffix <= 3 ->
  GenerateIndexedFilename dir (oc_prefix oc) k max suffix = Ret (base ++ numbered max k suffix).
Proof.
  intros Hm Hs Hk Hx. unfold GenerateIndexedFilename. destruct (Z.leb_spec max 0); [lia|].
  pose proof (Hs _ (le_n _)). pose proof (Hk _ (le_n _)). pose proof (xo_path _ _ _ OK).
  rewrite (snprintf_fits _ ("-" ++ _)).
  2:{ unfold PETSC_MAX_PATH_LEN. rewrite !append_length, padded_length. simpl String.length. lia. }
  rewrite snprintf_fits.
  2:{ unfold PETSC_MAX_PATH_LEN. rewrite !append_length, padded_length. simpl String.length. lia. }
  unfold base, numbered. now rewrite !append_assoc.
Qed.
Lemma tail_name step time suffix : short_number step -> String.length suffix <= 3 ->
  stamped_or_indexed oc dir step time suffix = Ret (base ++ tail_of step time suffix).
Proof.
  intros Hs Hx. unfold stamped_or_indexed, tail_of. destruct (oc_date oc) as [date|] eqn:E.
  - destruct (xo_date _ _ _ OK date (Int_part time) E) as [L _]. pose proof (xo_path _ _ _ OK).
    unfold GenerateTimestampedFilename. rewrite snprintf_fits.
    2:{ unfold PETSC_MAX_PATH_LEN. rewrite !append_length. simpl String.length. lia. }
    unfold base. now rewrite !append_assoc.
  - apply indexed_name; auto using (xo_stop _ _ _ OK), (xo_stop_digits _ _ _ OK).
Qed.
Lemma short_le a b : a <= b -> short_number b -> short_number a.
Proof. intros H Hb m Hm. apply Hb. lia. Qed.
Lemma batch_le step : batch_of step <= step.
Proof.
  unfold batch_of. pose proof (xo_interval _ _ _ OK). pose proof (xo_batch _ _ _ OK).
  transitivity (step / oc_interval oc); apply Nat.div_le_upper_bound; nia.
Qed.
Lemma short_one : short_number 1.
Proof. intros m Hm. destruct m as [|[|m]]; [cbv; lia | cbv; lia | lia]. Qed.
Lemma max_batch_short : (0 < max_batch)%Z /\ short_number (Z.to_nat max_batch).
Proof.
  unfold max_batch. pose proof (xo_interval _ _ _ OK). pose proof (xo_batch _ _ _ OK). pose proof (xo_stop _ _ _ OK).
  set (m := Z.quot _ _). destruct (Z.ltb_spec m 1); [split; [lia | exact short_one]|]. split; [lia|].
  apply (short_le _ (Z.to_nat (oc_stop_n oc))); [|apply (xo_stop_digits _ _ _ OK)].
  apply Z2Nat.inj_le; try lia. subst m.
  assert (0 <= Z.quot (oc_stop_n oc) (Z.of_nat (oc_interval oc)))%Z by (apply Z.quot_pos; lia).
  transitivity (Z.quot (oc_stop_n oc) (Z.of_nat (oc_interval oc))).
  - rewrite Z.quot_div_nonneg by lia. apply Z.div_le_upper_bound; nia.
  - rewrite Z.quot_div_nonneg by lia. apply Z.div_le_upper_bound; nia.
Qed.
Lemma h5_name step time : short_number step -> DetermineOutputFile oc dir step time "h5" = Ret (h5_of step time).
Proof.
  intros Hs. unfold DetermineOutputFile, h5_of, h5_tail. rewrite (xo_format _ _ _ OK). simpl (String.eqb "h5" "h5").
  pose proof (xo_interval _ _ _ OK). pose proof (xo_batch _ _ _ OK).
  destruct (Nat.eqb (oc_batch oc) 1).
  - apply tail_name; simpl; auto; lia.
  - unfold quot, zquot. destruct (Nat.eqb_spec (oc_interval oc) 0); [lia|]. destruct (Nat.eqb_spec (oc_batch oc) 0); [lia|].
    cbn [rbind]. fold (batch_of step). fold max_batch. destruct max_batch_short.
    apply indexed_name; auto. apply (short_le _ step); [apply batch_le | auto].
Qed.
Lemma xmf_name step time : short_number step -> DetermineOutputFile oc dir step time "xmf" = Ret (xmf_of step time).
Proof.
  intros Hs. unfold DetermineOutputFile, xmf_of. rewrite (xo_format _ _ _ OK). simpl (String.eqb "xmf" "h5"). simpl (String.eqb "xmf" "xmf").
  apply tail_name; simpl; auto; lia.
Qed.
Lemma grid_name amr : short_number (amr_refinements amr) -> DetermineGridFile oc dir amr = grid_of amr.
Proof.
  intros Hs. unfold DetermineGridFile, grid_of, grid_tail, base. pose proof (xo_path _ _ _ OK). pose proof (Hs _ (le_n _)).
  rewrite snprintf_fits.
  - destruct (amr_on amr); now rewrite !append_assoc.
  - unfold PETSC_MAX_PATH_LEN. destruct (amr_on amr); rewrite !append_length; simpl String.length; lia.
Qed.
(* the three kinds of files have different names *)
Lemma numbered_last m k s c : last_char (numbered m k (String c s)) = last_char (String c s).
Proof. unfold numbered. rewrite <- !append_assoc. now rewrite last_char_app. Qed.
Lemma tail_last step time s c : last_char (tail_of step time (String c s)) = last_char (String c s).
Proof. unfold tail_of. destruct (oc_date oc); [rewrite <- !append_assoc; now rewrite last_char_app | apply numbered_last]. Qed.
Lemma h5_tail_last step time : last_char (h5_tail step time) = Some "5"%char.
Proof. unfold h5_tail. destruct (Nat.eqb (oc_batch oc) 1); [apply tail_last | apply numbered_last]. Qed.
Lemma grid_tail_last amr : last_char (grid_tail amr) = Some "5"%char.
Proof. unfold grid_tail. destruct (amr_on amr); [|reflexivity]. change ".h5" with (String "." "h5"). rewrite <- append_assoc. now rewrite last_char_app. Qed.
Lemma h5_not_xmf s t s' t' : h5_of s t <> xmf_of s' t'.
Proof. unfold h5_of, xmf_of. intros H. apply append_inj_l in H. apply (f_equal last_char) in H. rewrite h5_tail_last, tail_last in H. discriminate. Qed.
Lemma grid_not_xmf amr s' t' : grid_of amr <> xmf_of s' t'.
Proof. unfold grid_of, xmf_of. intros H. apply append_inj_l in H. apply (f_equal last_char) in H. rewrite grid_tail_last, tail_last in H. discriminate. Qed.
Lemma numbered_not_grid m k suffix amr : numbered m k suffix <> grid_tail amr.
Proof.
  unfold numbered, grid_tail. intros H. pose proof (padded_digits (String.length (dec (Z.to_nat m))) k) as D. pose proof (padded_nonempty (String.length (dec (Z.to_nat m))) k) as N.
  destruct (padded _ k) as [|c p]; [contradiction|]. simpl in D. apply andb_true_iff in D. destruct D as [D _].
  destruct (amr_on amr); simpl in H; injection H as H _; subst c; discriminate.
Qed.
Lemma tail_not_grid s t suffix amr : tail_of s t suffix <> grid_tail amr.
Proof.
  unfold tail_of. destruct (oc_date oc); [|apply numbered_not_grid].
  unfold grid_tail. intros H. destruct (amr_on amr); simpl in H; discriminate.
Qed.
Lemma h5_not_grid s t amr : h5_of s t <> grid_of amr.
Proof.
  unfold h5_of, grid_of, h5_tail. intros H. apply append_inj_l in H.
  destruct (Nat.eqb (oc_batch oc) 1); [now apply tail_not_grid in H | now apply numbered_not_grid in H].
Qed.
Lemma numbered_inj m k k' suffix : numbered m k suffix = numbered m k' suffix -> k = k'.
Proof. unfold numbered. intros H. apply append_inj_l in H. apply append_inj_r in H. now apply padded_inj in H. Qed.
(* names without separators *)
Lemma tail_no_slash s t suffix : no_slash suffix = true -> no_slash (tail_of s t suffix) = true.
Proof.
  intros H. unfold tail_of, numbered. destruct (oc_date oc) as [date|] eqn:E; rewrite !no_slash_app; rewrite H.
  - destruct (xo_date _ _ _ OK date (Int_part t) E) as [_ N]. rewrite no_sep_slash in N. now rewrite N.
  - now rewrite (digits_no_slash _ (padded_digits _ s)).
Qed.
Lemma h5_tail_no_slash s t : no_slash (h5_tail s t) = true.
Proof.
  unfold h5_tail. destruct (Nat.eqb (oc_batch oc) 1); [now apply tail_no_slash|].
  unfold numbered. rewrite !no_slash_app. now rewrite (digits_no_slash _ (padded_digits _ _)).
Qed.
Lemma grid_tail_no_slash amr : no_slash (grid_tail amr) = true.
Proof. unfold grid_tail. destruct (amr_on amr); [|reflexivity]. rewrite !no_slash_app. now rewrite (digits_no_slash _ (dec_digits _)). Qed.

(** ** Effect of one output *)
Definition appends (step : nat) : bool := negb (Nat.eqb (step / oc_interval oc mod oc_batch oc) 0).
Definition writes_grid (amr : amr_state) (step : nat) : bool :=
  if amr_on amr then (amr_last_output amr <? Z.of_nat (amr_refinements amr))%Z else Nat.eqb step 0.
Definition data_slot (fs : files) (name : string) : Prop := fs name = None \/ exists gs, fs name = Some (Heavy gs).
Definition prior (fs : files) (step : nat) (time : R) : list (group_name * datasets) :=
  if appends step then match fs (h5_of step time) with Some (Heavy gs) => gs | _ => [] end else [].
Definition light_file (amr : amr_state) (step : nat) (time : R) (d : datasets) : file :=
  Light (Xmf (basename (grid_of amr)) (map (fun n => (basename (h5_of step time), (step, time), n)) (map fst d))).
Definition next_amr (amr : amr_state) (step : nat) : amr_state :=
  if (amr_on amr && writes_grid amr step)%bool then Amr true (amr_refinements amr) (Z.of_nat (amr_refinements amr)) else amr.
Lemma put_same fs a f : put fs a f a = Some f.
Proof. unfold put. now rewrite String.eqb_refl. Qed.
Lemma put_other fs a f b : b <> a -> put fs a f b = fs b.
Proof. intros H. unfold put. destruct (String.eqb_spec b a); [contradiction | reflexivity]. Qed.
Lemma emit_effect fs amr step time d :
  short_number step -> short_number (amr_refinements amr) -> data_slot fs (h5_of step time) ->
  exists fs', emit oc dir (fs, amr) step time d = Ret (fs', next_amr amr step) /\
    fs' (h5_of step time) = Some (Heavy (add_group (prior fs step time) (step, time) d)) /\
    fs' (xmf_of step time) = Some (light_file amr step time d) /\
    (writes_grid amr step = true -> fs' (grid_of amr) = Some Grid) /\
    (forall name, name <> h5_of step time -> name <> xmf_of step time -> (writes_grid amr step = false \/ name <> grid_of amr) -> fs' name = fs name).
Proof.
  intros Hs Hr Hd. unfold emit. cbn [fst snd]. rewrite (grid_name _ Hr). unfold heavy. rewrite (h5_name _ _ Hs). cbn [rbind].
  pose proof (xo_interval _ _ _ OK). pose proof (xo_batch _ _ _ OK).
  unfold quot. destruct (Nat.eqb_spec (oc_interval oc) 0); [lia|]. destruct (Nat.eqb_spec (oc_batch oc) 0); [lia|]. cbn [rbind].
  fold (appends step).
  assert (Ho : open_h5 fs (h5_of step time) (appends step) = Ret (prior fs step time)).
  { unfold open_h5, prior. destruct (appends step); [|reflexivity]. destruct Hd as [-> | [gs ->]]; reflexivity. }
  rewrite Ho. cbn [rbind]. fold (writes_grid amr step). fold (next_amr amr step). cbn [fst snd].
  set (f1 := put fs (h5_of step time) (Heavy (add_group (prior fs step time) (step, time) d))).
  unfold light. rewrite (h5_name _ _ Hs), (xmf_name _ _ Hs). cbn [rbind]. fold (light_file amr step time d).
  set (f2 := if writes_grid amr step then put f1 (grid_of amr) Grid else f1).
  assert (E2 : f2 (h5_of step time) = Some (Heavy (add_group (prior fs step time) (step, time) d))).
  { subst f2. destruct (writes_grid amr step); [rewrite put_other by apply h5_not_grid|]; apply put_same. }
  rewrite put_other by apply h5_not_xmf. rewrite E2. cbn [rbind].
  eexists. split; [reflexivity|]. split; [rewrite put_other by apply h5_not_xmf; exact E2|].
  split; [apply put_same|]. split.
  - intros Hw. rewrite put_other by apply grid_not_xmf. subst f2. rewrite Hw. apply put_same.
  - intros name N1 N2 N3. rewrite put_other by exact N2. subst f2. destruct (writes_grid amr step).
    + destruct N3 as [N3|N3]; [discriminate|]. rewrite put_other by exact N3. now apply put_other.
    + now apply put_other.
Qed.
End Files.

(** ** Reading back *)
Lemma group_eqb_refl g : group_eqb g g = true.
Proof. unfold group_eqb, Reqb. rewrite Nat.eqb_refl. destruct (Req_EM_T (snd g) (snd g)); [reflexivity | contradiction]. Qed.
Lemma group_eqb_true a b : group_eqb a b = true -> a = b.
Proof.
  unfold group_eqb, Reqb. rewrite andb_true_iff. intros [H1 H2]. apply Nat.eqb_eq in H1.
  destruct (Req_EM_T (snd a) (snd b)); [|discriminate]. destruct a, b; simpl in *; congruence.
Qed.
Lemma find_unique {B} (l : list (string * B)) f v : NoDup (map fst l) -> In (f, v) l -> find (fun nd => String.eqb (fst nd) f) l = Some (f, v).
Proof.
  induction l as [|[g w] l IH]; simpl; [tauto|]. intros N [H | H].
  - injection H as -> ->. now rewrite String.eqb_refl.
  - inversion N as [|? ? N1 N2]; subst. destruct (String.eqb_spec g f).
    + subst g. exfalso. apply N1. apply in_map_iff. exists (f, v). auto.
    + now apply IH.
Qed.
Lemma find_merge old new f v : find (fun nd : string * list R => String.eqb (fst nd) f) new = Some (f, v) ->
  find (fun nd => String.eqb (fst nd) f) (merge old new) = Some (f, v).
Proof.
  intros H. unfold merge.
  assert (forall p : string * list R -> bool, (forall e, In e old -> String.eqb (fst e) f = true -> p e = false) ->
     find (fun nd => String.eqb (fst nd) f) (filter p old ++ new) = Some (f, v)) as G.
  { induction old as [|e old IH]; intros p Hp; simpl; [exact H|].
    destruct (p e) eqn:E; [|apply IH; intros; apply Hp; simpl; auto].
    simpl. destruct (String.eqb (fst e) f) eqn:E2; [rewrite (Hp e (or_introl eq_refl) E2) in E; discriminate|].
    apply IH. intros; apply Hp; simpl; auto. }
  apply G. intros e _ He. apply String.eqb_eq in He. apply negb_false_iff, existsb_exists. exists (f, v).
  apply find_some in H. destruct H as [H _]. split; [exact H|]. simpl. rewrite He. apply String.eqb_refl.
Qed.
Lemma find_add gs g d f v : find (fun nd => String.eqb (fst nd) f) d = Some (f, v) ->
  exists e, find (fun e => group_eqb (fst e) g) (add_group gs g d) = Some e /\ find (fun nd => String.eqb (fst nd) f) (snd e) = Some (f, v).
Proof.
  intros H. induction gs as [|[h e] gs IH]; simpl.
  - rewrite group_eqb_refl. exists (g, d). auto.
  - destruct (group_eqb h g) eqn:E; simpl; rewrite E.
    + exists (h, merge e d). split; [reflexivity|]. simpl. now apply find_merge.
    + exact IH.
Qed.
Lemma read_add fs name gs g d f v : fs name = Some (Heavy (add_group gs g d)) -> NoDup (map fst d) -> In (f, v) d -> read fs name g f = Some v.
Proof.
  intros H N I. unfold read. rewrite H. destruct (find_add gs g d f v (find_unique _ _ _ N I)) as (e & -> & E2). now rewrite E2.
Qed.
Lemma NoDup_filter' {A} (p : A -> bool) l : NoDup l -> NoDup (filter p l).
Proof. apply NoDup_filter. Qed.

Fixpoint nodupb (l : list string) : bool := match l with [] => true | x :: t => (negb (existsb (String.eqb x) t) && nodupb t)%bool end.
Lemma nodupb_sound l : nodupb l = true -> NoDup l.
Proof.
  induction l as [|x l IH]; simpl; [constructor|]. rewrite andb_true_iff, negb_true_iff. intros [H1 H2]. constructor; [|auto].
  intros HI. assert (existsb (String.eqb x) l = true); [|congruence]. apply existsb_exists. exists x. split; [exact HI | apply String.eqb_refl].
Qed.
Lemma core_names_nodup classes : classes <= MAX_NUM_SEDIMENT_CLASSES -> NoDup (core_names classes).
Proof. unfold MAX_NUM_SEDIMENT_CLASSES. intros H. apply nodupb_sound. do 6 (destruct classes as [|classes]; [vm_compute; reflexivity|]). lia. Qed.
Lemma empty_invalid classes : valid_field classes "" = false.
Proof.
  unfold valid_field. simpl. rewrite !orb_false_iff. repeat split; auto; induction (seq 0 classes); simpl; auto.
Qed.
Lemma requested_empty (oc : out_config) classes : (forall f, In f (oc_fields oc) -> valid_field classes f = true) -> requested (oc_fields oc) "" = false.
Proof.
  intros H. unfold requested. destruct (existsb _ (oc_fields oc)) eqn:E; [|reflexivity].
  apply existsb_exists in E. destruct E as (f & Hf & E). apply String.eqb_eq in E. subst f. specialize (H _ Hf). now rewrite empty_invalid in H.
Qed.
