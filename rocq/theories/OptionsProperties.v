(** * C83: settings and options reach their destination *)
From Coq Require Import ZArith NArith String Ascii Decimal DecimalString.
From Verif Require Import Base SetupModel OutputModel OutputProofs CheckpointModel OptionsModel OptionsSpec OptionsProofs MonitorModel MonitorSpec.
Local Open Scope nat_scope.
Local Open Scope string_scope.

(* Every option a user gives keeps its value, but for those that say how the mesh is read and distributed. *)
Theorem C83_options_kept : forall dir d c d' c' name v,
  SetAdditionalOptions dir d c = Ret (d', c') -> d name = Some v -> ~ of_the_program name -> d' name = Some v.
Proof.
  intros dir d c d' c' name v H E N. apply run_inv in H as (d1 & c1 & d3 & c3 & G & M & _ & ->).
  apply batch_kept, interval_kept, (monitor_kept _ _ _ _ _ _ _ M), interval_kept.
  rewrite <- E. change d1 with (fst (d1, c1)). rewrite <- G. now apply grid_other.
Qed.
Print Assumptions C83_options_kept.

(* No options other than those are touched. *)
Theorem C83_others_untouched : forall dir d c d' c' name,
  SetAdditionalOptions dir d c = Ret (d', c') -> ~ of_the_program name -> ~ of_the_output name -> d' name = d name.
Proof.
  intros dir d c d' c' name H N O. apply run_inv in H as (d1 & c1 & d3 & c3 & G & M & _ & ->).
  unfold of_the_output in O. simpl in O.
  rewrite batch_other by (intros ->; auto 6). rewrite interval_other by (intros ->; auto 6).
  rewrite (monitor_other _ _ _ _ _ _ M) by (intros ->; auto 6). rewrite interval_other by (intros ->; auto 6).
  change d1 with (fst (d1, c1)). rewrite <- G. now apply grid_other.
Qed.
Print Assumptions C83_others_untouched.

(* The mesh is read from the configured file, keeps the maps between its parts, and labels survive a refinement
   requested for the mesh or for its distributed copy. *)
Theorem C83_mesh_options : forall dir d c d' c', SetAdditionalOptions dir d c = Ret (d', c') ->
  (st_grid c <> "" -> d' "-dm_plex_filename" = Some (st_grid c)) /\
  (st_grid c = "" -> d' "-dm_plex_filename" = d "-dm_plex_filename") /\
  d' "-dist_dm_distribute_save_sf" = Some "true" /\
  (d "-dm_refine" <> None -> d' "-dm_plex_transform_label_match_strata" = Some "true") /\
  (d "-ref_dm_refine" <> None -> d' "-ref_dm_plex_transform_label_match_strata" = Some "true") /\
  (st_refine c' = true <-> d "-ref_dm_refine" <> None).
Proof.
  intros dir d c d' c' H. apply run_inv in H as (d1 & c1 & d3 & c3 & G & M & C & ->).
  assert (E : forall n, n <> "-viewer_cgns_batch_size" -> n <> "-ts_monitor_solution_interval" -> n <> "-ts_monitor_solution" ->
                batch_option (interval_option d3 c') c' n = d1 n).
  { intros n N1 N2 N3. rewrite batch_other, interval_other by assumption. rewrite (monitor_other _ _ _ _ _ _ M) by assumption. now apply interval_other. }
  rewrite !E by discriminate.
  assert (R : st_refine c' = HasName d "-ref_dm_refine").
  { destruct (checkpoint_settings _ _ _ C) as (_ & _ & _ & ->). destruct (rest_out _ _ (monitor_settings _ _ _ _ _ M)) as (_ & _ & _ & _ & _ & ->).
    apply (grid_settings _ _ _ _ G). }
  rewrite R. unfold grid_options in G. injection G as <- _. clear. unfold HasName, SetValue.
  destruct (String.eqb_spec (st_grid c) "") as [->|Ng]; destruct (d "-dm_refine"), (d "-ref_dm_refine"); simpl;
    repeat split; intros; try reflexivity; try congruence; try discriminate.
Qed.
Print Assumptions C83_mesh_options.

(* The configured step interval reaches the monitors of PETSc as that number, unless the user gives another; so does the
   number of steps in a CGNS file. *)
Theorem C83_intervals : forall dir d c d' c', SetAdditionalOptions dir d c = Ret (d', c') ->
  (forall v, d "-ts_monitor_solution_interval" = Some v -> d' "-ts_monitor_solution_interval" = Some v) /\
  (d "-ts_monitor_solution_interval" = None -> oc_format (st_out c') <> OUTPUT_XDMF -> 0 < oc_interval (st_out c) -> petsc_int (oc_interval (st_out c)) ->
   exists v, d' "-ts_monitor_solution_interval" = Some v /\ number v = Some (N.of_nat (oc_interval (st_out c)))) /\
  (oc_format (st_out c') = OUTPUT_CGNS -> d "-viewer_cgns_batch_size" = None -> petsc_int (oc_batch (st_out c)) ->
   exists v, d' "-viewer_cgns_batch_size" = Some v /\ number v = Some (N.of_nat (oc_batch (st_out c)))).
Proof.
  intros dir d c d' c' H.
  split; [intros v E; apply (C83_options_kept _ _ _ _ _ _ _ H E); unfold of_the_program; simpl; intuition discriminate|].
  apply run_inv in H as (d1 & c1 & d3 & c3 & G & M & C & ->).
  assert (G1 : forall n, ~ of_the_program n -> d1 n = d n) by (intros n N; change d1 with (fst (d1, c1)); rewrite <- G; now apply grid_other).
  destruct (grid_settings _ _ _ _ G) as (_ & So & _). destruct (rest_out _ _ (monitor_settings _ _ _ _ _ M)) as (Ri & Rb & _).
  destruct (checkpoint_settings _ _ _ C) as (Co & _). split.
  - intros E F P I. assert (V : snprintf VALUE_LEN (dec (oc_interval (st_out c))) = dec (oc_interval (st_out c))) by now apply int_fits.
    exists (dec (oc_interval (st_out c))). split; [|apply number_dec].
    apply batch_kept. unfold interval_option at 1.
    assert (Oi : oc_interval (st_out c') = oc_interval (st_out c)) by congruence. rewrite Oi.
    assert (Fx : is_format OUTPUT_XDMF c' = false).
    { destruct (is_format OUTPUT_XDMF c') eqn:Ef; [|reflexivity]. apply is_format_spec in Ef. contradiction. }
    rewrite Fx. apply Nat.ltb_lt in P. rewrite P. simpl.
    assert (E3 : d3 "-ts_monitor_solution_interval" = None \/ d3 "-ts_monitor_solution_interval" = Some (dec (oc_interval (st_out c)))).
    { rewrite (monitor_other _ _ _ _ _ _ M) by discriminate. unfold interval_option, HasName.
      rewrite So, P, V. rewrite (G1 "-ts_monitor_solution_interval") by (unfold of_the_program; simpl; intuition discriminate). rewrite E.
      destruct (negb (is_format OUTPUT_XDMF c1)); simpl; [right; apply set_same|left].
      rewrite (G1 "-ts_monitor_solution_interval") by (unfold of_the_program; simpl; intuition discriminate). exact E. }
    unfold HasName. destruct E3 as [E3|E3]; rewrite E3; [|exact E3]. rewrite V. apply set_same.
  - intros F E I. assert (V : snprintf VALUE_LEN (dec (oc_batch (st_out c))) = dec (oc_batch (st_out c))) by now apply int_fits.
    exists (dec (oc_batch (st_out c))). split; [|apply number_dec]. unfold batch_option. apply is_format_spec in F. rewrite F.
    unfold HasName. rewrite interval_other by discriminate. rewrite (monitor_other _ _ _ _ _ _ M) by discriminate. rewrite interval_other by discriminate.
    rewrite (G1 "-viewer_cgns_batch_size") by (unfold of_the_program; simpl; intuition discriminate). rewrite E, Co, Rb, So, V. apply set_same.
Qed.
Print Assumptions C83_intervals.

(* CGNS output goes to the files <directory>/<name>-<number>.cgns if the text is short enough and has no colon.
   Missing: longer names and names with a colon, see C83_cgns_refuted. *)
Theorem C83_cgns_partial : forall dir d c d' c', SetAdditionalOptions dir d c = Ret (d', c') ->
  oc_format (st_out c) = OUTPUT_CGNS -> d "-ts_monitor_solution" = None ->
  let file := dir ++ "/" ++ oc_prefix (st_out c) ++ "-%d.cgns" in
  String.length file <= 122 -> ~ contains file ":" ->
  oc_format (st_out c') = OUTPUT_CGNS /\ exists v, d' "-ts_monitor_solution" = Some v /\ viewer_type v = "cgns" /\ viewer_file v = file.
Proof.
  intros dir d c d' c' H F E file L N. apply run_inv in H as (d1 & c1 & d3 & c3 & G & M & C & ->).
  destruct (grid_settings _ _ _ _ G) as (_ & So & _). destruct (checkpoint_settings _ _ _ C) as (Co & _).
  unfold monitor_option, GetString in M. rewrite interval_other in M by discriminate.
  replace (d1 "-ts_monitor_solution") with (@None string) in M
    by (change d1 with (fst (d1, c1)); rewrite <- G, grid_other by (unfold of_the_program; simpl; intuition discriminate); now rewrite E).
  cbn [option_map] in M. rewrite (proj2 (is_format_spec OUTPUT_CGNS c1)) in M by (unfold format; congruence).
  rewrite So in M. unfold DetermineOutputFile in M. rewrite F in M. change ("-%d." ++ "cgns") with "-%d.cgns" in M. fold file in M.
  assert (V1 : snprintf (PETSC_MAX_PATH_LEN - 1) file = file) by (apply snprintf_fits; unfold PETSC_MAX_PATH_LEN; lia).
  rewrite V1 in M. cbn [rbind] in M.
  assert (V2 : snprintf VALUE_LEN ("cgns:" ++ file) = "cgns:" ++ file).
  { apply snprintf_fits. rewrite append_length. change (String.length "cgns:") with 5. unfold VALUE_LEN. lia. }
  rewrite V2 in M. injection M as M1 M2. split; [congruence|]. exists ("cgns:" ++ file).
  split; [apply batch_kept, interval_kept; rewrite <- M1; apply set_same|]. split; [reflexivity|].
  unfold viewer_file. simpl after_colon. apply before_plain, no_colon_contains, N.
Qed.
Print Assumptions C83_cgns_partial.

(* The format of the output follows the type of the monitor a user requests, if the rest of the text does not name
   another format; otherwise it is the configured one.  Missing: see C83_format_refuted. *)
Theorem C83_format_partial : forall dir d c d' c', SetAdditionalOptions dir d c = Ret (d', c') ->
  (d "-ts_monitor_solution" = None -> oc_format (st_out c') = oc_format (st_out c)) /\
  (forall v, d "-ts_monitor_solution" = Some v -> (forall f, f <> OUTPUT_NONE -> ~ contains v (format_name f)) -> oc_format (st_out c') = oc_format (st_out c)) /\
  (forall v f, d "-ts_monitor_solution" = Some v -> f <> OUTPUT_NONE -> viewer_type v = format_name f ->
     (forall g, g <> OUTPUT_NONE -> g <> f -> ~ contains v (format_name g)) -> oc_format (st_out c') = f).
Proof.
  intros dir d c d' c' H. apply run_inv in H as (d1 & c1 & d3 & c3 & G & M & C & ->).
  destruct (grid_settings _ _ _ _ G) as (_ & So & _). destruct (checkpoint_settings _ _ _ C) as (Co & _).
  unfold monitor_option, GetString in M. rewrite interval_other in M by discriminate.
  replace (d1 "-ts_monitor_solution") with (d "-ts_monitor_solution") in M
    by (change d1 with (fst (d1, c1)); rewrite <- G, grid_other by (unfold of_the_program; simpl; intuition discriminate); reflexivity).
  split; [|split].
  - intros E. rewrite E in M. cbn [option_map] in M. destruct (is_format OUTPUT_CGNS c1); [|injection M as _ <-; congruence].
    destruct (DetermineOutputFile _ _ _ _ _); simpl in M; try discriminate. injection M as _ <-. congruence.
  - intros v E Hn. rewrite E in M. cbn [option_map] in M. injection M as _ <-.
    assert (A : forall f, f <> OUTPUT_NONE -> strstr (snprintf 128 v) (format_name f) = false).
    { intros f Hf. apply strstr_false; [destruct f; discriminate || congruence|]. intros K. apply contains_snprintf in K. now apply (Hn f). }
    pose proof (A OUTPUT_CGNS) as A1. pose proof (A OUTPUT_XDMF) as A2. pose proof (A OUTPUT_BINARY) as A3. simpl in A1, A2, A3.
    rewrite A1, A2, A3 in Co by discriminate. congruence.
  - intros v f E Hf T Hn. rewrite E in M. cbn [option_map] in M. injection M as _ <-.
    assert (Y : strstr (snprintf 128 v) (format_name f) = true).
    { apply strstr_contains; [destruct f; discriminate || congruence|]. destruct (before_starts v) as [r Er]. fold (viewer_type v) in Er. rewrite T in Er.
      rewrite Er. destruct (snprintf_starts 128 (format_name f) r) as [r' ->]; [destruct f; simpl; lia|]. exists "", r'. reflexivity. }
    assert (A : forall g, g <> OUTPUT_NONE -> g <> f -> strstr (snprintf 128 v) (format_name g) = false).
    { intros g Hg Hgf. apply strstr_false; [destruct g; discriminate || congruence|]. intros K. apply contains_snprintf in K. now apply (Hn g). }
    rewrite Co. destruct f; simpl format_name in *; [congruence| | |].
    + pose proof (A OUTPUT_CGNS) as A1. pose proof (A OUTPUT_XDMF) as A2. simpl in A1, A2. rewrite A1, A2, Y by discriminate. reflexivity.
    + pose proof (A OUTPUT_CGNS) as A1. simpl in A1. rewrite A1, Y by discriminate. reflexivity.
    + rewrite Y. reflexivity.
Qed.
Print Assumptions C83_format_partial.

(* The format of checkpoints follows the option; any other text is refused, and nothing else is. *)
Theorem C83_checkpoint_format : forall dir d c,
  (forall d' c', SetAdditionalOptions dir d c = Ret (d', c') -> st_interval c <> 0 ->
     forall f, d "-checkpoint_format" = Some (checkpoint_name f) -> st_checkpoint c' = f) /\
  (forall d' c', SetAdditionalOptions dir d c = Ret (d', c') -> st_interval c = 0 \/ d "-checkpoint_format" = None -> st_checkpoint c' = st_checkpoint c) /\
  ((exists p, SetAdditionalOptions dir d c = Ret p) <->
   (st_interval c = 0 \/ d "-checkpoint_format" = None \/ exists f, d "-checkpoint_format" = Some (checkpoint_name f))).
Proof.
  intros dir d c. destruct (grid_options d c) as [d1 c1] eqn:G.
  assert (G1 : d1 "-checkpoint_format" = d "-checkpoint_format").
  { change d1 with (fst (d1, c1)). rewrite <- G. apply grid_other. unfold of_the_program. simpl. intuition discriminate. }
  destruct (grid_settings _ _ _ _ G) as (_ & So & Si & Sc & _).
  assert (M : exists d3 c3, monitor_option dir (interval_option d1 c1) c1 = Ret (d3, c3)).
  { unfold monitor_option. destruct (GetString _ _ _); [eauto|]. destruct (is_format OUTPUT_CGNS c1) eqn:F; [|eauto].
    apply is_format_spec in F. unfold format in F. unfold DetermineOutputFile. rewrite F. simpl. eauto. }
  destruct M as (d3 & c3 & M). destruct (rest_out _ _ (monitor_settings _ _ _ _ _ M)) as (_ & _ & _ & Ri & Rc & _).
  assert (E : d3 "-checkpoint_format" = d "-checkpoint_format").
  { rewrite (monitor_other _ _ _ _ _ _ M) by discriminate. rewrite interval_other by discriminate. exact G1. }
  assert (S : forall d' c', SetAdditionalOptions dir d c = Ret (d', c') -> checkpoint_option d3 c3 = Ret c').
  { intros d' c' H. apply run_inv in H as (e1 & k1 & e3 & k3 & G' & M' & C & _). rewrite G in G'. injection G' as <- <-. rewrite M in M'. injection M' as <- <-. exact C. }
  unfold checkpoint_option, GetString in S. rewrite E in S. rewrite Ri, Si in S. split; [|split].
  - intros d' c' H Ni f Ef. apply S in H. rewrite Ef in H. rewrite (proj2 (Nat.eqb_neq _ _) Ni) in H.
    destruct f; cbn in H; injection H as <-; reflexivity.
  - intros d' c' H K. apply S in H. destruct (Nat.eqb_spec (st_interval c) 0) as [Z|Z]; [injection H as <-; congruence|].
    destruct K as [K|K]; [contradiction|]. rewrite K in H. simpl in H. injection H as <-. congruence.
  - split.
    + intros ((d' & c') & H). apply S in H. destruct (Nat.eqb_spec (st_interval c) 0) as [Z|Z]; [auto|]. right.
      destruct (d "-checkpoint_format") as [v|]; [right|auto]. simpl in H.
      assert (Lv : String.length (snprintf 16 v) <= 6 -> snprintf 16 v = v).
      { unfold snprintf. change (Z.to_nat (16 - 1)) with 15. intros L. destruct (Nat.le_gt_cases (String.length v) 15) as [L2|L2]; [now apply substring_all|].
        exfalso. revert L L2. clear. assert (K : forall k s, k <= String.length s -> String.length (substring 0 k s) = k).
        { induction k; intros [|x s]; simpl; intros; try reflexivity; try lia. rewrite IHk; lia. } intros L L2. rewrite K in L; lia. }
      unfold check in H. destruct (String.eqb_spec (snprintf 16 v) "binary") as [B|B].
      * exists NATIVE. rewrite <- (Lv ltac:(rewrite B; simpl; lia)), B. reflexivity.
      * destruct (String.eqb_spec (snprintf 16 v) "hdf5") as [B2|B2]; [|discriminate H].
        exists HDF5. rewrite <- (Lv ltac:(rewrite B2; simpl; lia)), B2. reflexivity.
    + intros K. assert (C : exists c', checkpoint_option d3 c3 = Ret c').
      { unfold checkpoint_option, GetString. rewrite E, Ri, Si. destruct (Nat.eqb_spec (st_interval c) 0) as [Z|Z]; [eauto|].
        destruct K as [K|[K|[f K]]]; [contradiction|rewrite K; simpl; eauto|rewrite K; destruct f; eexists; reflexivity]. }
      destruct C as [c' C]. eexists. exact (run_ret _ _ _ _ _ _ _ _ G M C).
Qed.
Print Assumptions C83_checkpoint_format.

(* Reading the same configuration again in the same process, as a convergence study does, changes nothing. *)
Theorem C83_again : forall dir d c d' c', SetAdditionalOptions dir d c = Ret (d', c') ->
  exists d'', SetAdditionalOptions dir d' c = Ret (d'', c') /\ forall name, d'' name = d' name.
Proof.
  intros dir d c d' c' H. apply run_values in H as (d1 & k1 & d3 & k3 & G & M & C & Ck & Pg & Pm & Pi & Pb & Po).
  assert (R1 : HasName d' "-dm_refine" = HasName d "-dm_refine") by (unfold HasName; rewrite Po by unlisted; reflexivity).
  assert (R2 : HasName d' "-ref_dm_refine" = HasName d "-ref_dm_refine") by (unfold HasName; rewrite Po by unlisted; reflexivity).
  destruct (grid_options d' c) as [e1 l1] eqn:G2.
  assert (l1 = k1) as ->. { unfold grid_options in G, G2. rewrite R2 in G2. injection G as _ <-. injection G2 as _ <-. reflexivity. }
  assert (Eg : forall n, of_the_program n -> e1 n = d' n).
  { intros n I. rewrite (Pg n I). unfold grid_options in G, G2. injection G as G _. injection G2 as G2 _. rewrite R1, R2 in G2. subst e1 d1. revert I. clear - Pg. intros I.
    unfold SetValue. destruct I as [<-|[<-|[<-|[<-|[]]]]]; destruct (String.eqb (st_grid c) "") eqn:Z, (HasName d "-dm_refine") eqn:Y1, (HasName d "-ref_dm_refine") eqn:Y2; simpl; try reflexivity;
      rewrite Pg by (unfold of_the_program; simpl; auto 6); unfold SetValue; simpl; reflexivity. }
  assert (En : forall n, ~ of_the_program n -> e1 n = d' n) by (intros n N; change e1 with (fst (e1, k1)); rewrite <- G2; now apply grid_other).
  destruct (monitor_again _ _ _ _ _ (interval_option e1 k1) M) as (e3 & M2 & Em).
  { rewrite interval_other by discriminate. rewrite En by unlisted. exact Pm. }
  assert (C2 : checkpoint_option e3 k3 = Ret c').
  { rewrite <- C. unfold checkpoint_option, GetString. rewrite Ck. rewrite (monitor_other _ _ _ _ _ _ M2) by discriminate. rewrite interval_other by discriminate.
    rewrite En by unlisted. rewrite Po by unlisted. reflexivity. }
  eexists. split; [exact (run_ret _ _ _ _ _ _ _ _ G2 M2 C2)|].
  pose proof (run_ret _ _ _ _ _ _ _ _ G2 M2 C2) as H2. apply run_values in H2 as (e1' & l1' & e3' & l3' & G2' & M2' & C2' & _ & Qg & Qm & Qi & Qb & Qo).
  rewrite G2 in G2'. injection G2' as <- <-. rewrite M2 in M2'. injection M2' as <- <-.
  intros name. destruct (in_dec string_dec name ["-dm_plex_filename"; "-dist_dm_distribute_save_sf"; "-dm_plex_transform_label_match_strata"; "-ref_dm_plex_transform_label_match_strata"]) as [I|I].
  - rewrite (Qg name I). now apply Eg.
  - destruct (in_dec string_dec name ["-ts_monitor_solution"; "-ts_monitor_solution_interval"; "-viewer_cgns_batch_size"]) as [O|O]; [|now apply Qo].
    destruct O as [<-|[<-|[<-|[]]]].
    + rewrite Qm, Em. now symmetry.
    + rewrite Qi, Pi. destruct (d "-ts_monitor_solution_interval"); [reflexivity|]. cbn [or_else]. destruct (shows k1); [reflexivity|]. destruct (shows c'); reflexivity.
    + rewrite Qb, Pb. destruct (d "-viewer_cgns_batch_size"); [reflexivity|]. cbn [or_else]. destruct (is_format OUTPUT_CGNS c'); reflexivity.
Qed.
Print Assumptions C83_again.

(* What the theorems about the monitors (C82) take for granted about CGNS output holds: its option is set, and a
   configuration that passed validation (yaml_input.c:1097) still has a format. *)
Theorem C83_monitor_registered : forall dir d c d' c' enable detail boundary observations restart reinitialize,
  SetAdditionalOptions dir d c = Ret (d', c') -> (enable = true -> oc_format (st_out c) <> OUTPUT_NONE) ->
  accepted (MConfig enable (oc_format (st_out c')) (oc_interval (st_out c')) detail boundary observations (st_interval c') (HasName d' "-ts_monitor_solution") restart reinitialize).
Proof.
  intros dir d c d' c' enable detail b o r ri H N E. simpl in *. specialize (N E).
  apply run_values in H as (d1 & k1 & d3 & k3 & G & M & C & _ & _ & Pm & _).
  destruct (grid_settings _ _ _ _ G) as (_ & So & _). destruct (checkpoint_settings _ _ _ C) as (Co & _). rewrite Co. unfold HasName. rewrite Pm.
  unfold monitor_option, GetString in M. destruct (interval_option d1 k1 "-ts_monitor_solution") as [v|] eqn:Ev; cbn [option_map] in M.
  - injection M as <- <-. rewrite Ev. split; [|reflexivity].
    destruct (strstr (snprintf 128 v) "cgns"); [discriminate|]. destruct (strstr (snprintf 128 v) "xdmf"); [discriminate|].
    destruct (strstr (snprintf 128 v) "binary"); [discriminate|congruence].
  - destruct (is_format OUTPUT_CGNS k1) eqn:F.
    + destruct (DetermineOutputFile _ _ _ _ _); cbn [rbind] in M; try discriminate. injection M as <- <-. rewrite set_same. split; [congruence|reflexivity].
    + injection M as <- <-. split; [congruence|]. intros X. apply (is_format_spec OUTPUT_CGNS k1) in X. congruence.
Qed.
Print Assumptions C83_monitor_registered.

(** ** What goes wrong *)
Definition given (os : list (string * string)) : db := fun n => option_map snd (find (fun p => String.eqb (fst p) n) os).
Definition setup (dir prefix : string) (f : out_format) (interval time_interval batch : nat) : settings :=
  Settings "mesh.exo" (OutConfig dir None prefix None TimeModel.SECONDS 100 f interval time_interval TimeModel.SECONDS batch []) 0 NATIVE false.

(* A long directory: the text is cut off, and the files are not numbered and have no ending.  A colon: PETSc takes what
   follows for the name of a format. *)
Theorem C83_cgns_refuted :
  (let dir := "/scratch/project/simulations/houston/hurricane-harvey/2017-08-25/rainfall-mrms/mesh-30m/manning-nlcd/coupled/output-cgns" in
   exists d' c' v, SetAdditionalOptions dir (given []) (setup dir "harvey" OUTPUT_CGNS 10 0 1) = Ret (d', c') /\ d' "-ts_monitor_solution" = Some v /\
     viewer_file v = dir ++ "/h" /\ viewer_file v <> dir ++ "/harvey-%d.cgns") /\
  (exists d' c' v, SetAdditionalOptions "out:1" (given []) (setup "out:1" "a" OUTPUT_CGNS 10 0 1) = Ret (d', c') /\ d' "-ts_monitor_solution" = Some v /\
     viewer_file v = "out").
Proof.
  split; [cbv zeta|]; eexists; eexists; eexists; (split; [reflexivity|]; split; [reflexivity|]); [split; [vm_compute; reflexivity|vm_compute; discriminate]|vm_compute; reflexivity].
Qed.
Print Assumptions C83_cgns_refuted.

(* The format is searched for in the name of the file too: a request for binary output to a file with "cgns" in its
   name selects CGNS, and a picture written by another viewer turns XDMF output into CGNS. *)
Theorem C83_format_refuted :
  (exists d' c', SetAdditionalOptions "out" (given [("-ts_monitor_solution", "binary:no_cgns.bin")]) (setup "out" "a" OUTPUT_BINARY 10 0 0) = Ret (d', c') /\
     viewer_type "binary:no_cgns.bin" = format_name OUTPUT_BINARY /\ oc_format (st_out c') = OUTPUT_CGNS) /\
  (exists d' c', SetAdditionalOptions "out" (given [("-ts_monitor_solution", "draw:cgns.png")]) (setup "out" "a" OUTPUT_XDMF 10 0 1) = Ret (d', c') /\
     oc_format (st_out c') = OUTPUT_CGNS).
Proof. split; eexists; eexists; (split; [reflexivity|]); [split; reflexivity|reflexivity]. Qed.
Print Assumptions C83_format_refuted.

(* A request for XDMF output that overrides binary output keeps the batch size 0 of binary output (yaml_input.c:1103),
   and the name of the first file divides by it. *)
Theorem C83_override_refuted : exists d' c',
  SetAdditionalOptions "out" (given [("-ts_monitor_solution", "xdmf")]) (setup "out" "a" OUTPUT_BINARY 10 0 0) = Ret (d', c') /\
  oc_format (st_out c') = OUTPUT_XDMF /\ DetermineOutputFile (st_out c') "out" 0 0%R "h5" = UB.
Proof. eexists; eexists. split; [reflexivity|]. split; [reflexivity|]. vm_compute. reflexivity. Qed.
Print Assumptions C83_override_refuted.

(* Output requested by time_interval alone: only XDMF knows of it.  With CGNS no interval is passed on, whatever the
   time interval, so the monitors of PETSc use their default. *)
Theorem C83_time_interval_refuted : forall t, exists d' c',
  SetAdditionalOptions "out" (given []) (setup "out" "a" OUTPUT_CGNS 0 (S t) 1) = Ret (d', c') /\ d' "-ts_monitor_solution_interval" = None /\
  oc_format (st_out c') = OUTPUT_CGNS.
Proof. intros t. eexists; eexists. split; [reflexivity|]. split; reflexivity. Qed.
Print Assumptions C83_time_interval_refuted.

(* Two simulations in one process: the options set for the first are taken for a user's by the second, whose XDMF output
   becomes CGNS output into the files of the first, at the interval of the first. *)
Theorem C83_next_simulation_refuted : exists d1 c1 d2 c2,
  SetAdditionalOptions "out" (given []) (setup "out" "first" OUTPUT_CGNS 10 0 1) = Ret (d1, c1) /\
  SetAdditionalOptions "out" d1 (setup "out" "second" OUTPUT_XDMF 25 0 1) = Ret (d2, c2) /\
  oc_format (st_out c2) = OUTPUT_CGNS /\ option_map viewer_file (d2 "-ts_monitor_solution") = Some "out/first-%d.cgns" /\
  d2 "-ts_monitor_solution_interval" = Some "10".
Proof.
  do 4 eexists. split; [reflexivity|]. split; [reflexivity|]. split; [reflexivity|]. split; vm_compute; reflexivity.
Qed.
Print Assumptions C83_next_simulation_refuted.

(* The hypotheses at work *)
Example C83_example :
  let c := setup "out" "run" OUTPUT_CGNS 10 0 4 in
  exists d' c', SetAdditionalOptions "out" (given [("-dm_refine", "1"); ("-viewer_cgns_batch_size", "7"); ("-dm_plex_filename", "other.exo")]) c = Ret (d', c') /\
    d' "-ts_monitor_solution" = Some "cgns:out/run-%d.cgns" /\ d' "-ts_monitor_solution_interval" = Some "10" /\ d' "-viewer_cgns_batch_size" = Some "7" /\
    d' "-dm_plex_filename" = Some "mesh.exo" /\ d' "-dm_refine" = Some "1" /\ d' "-dm_plex_transform_label_match_strata" = Some "true" /\
    ~ contains ("out" ++ "/" ++ "run" ++ "-%d.cgns") ":".
Proof.
  cbv zeta. eexists; eexists. split; [reflexivity|]. do 6 (split; [vm_compute; reflexivity|]).
  intros K. apply (strstr_contains _ ":") in K; [|discriminate]. vm_compute in K. discriminate.
Qed.
Example C83_example_override :
  exists d' c', SetAdditionalOptions "out" (given [("-ts_monitor_solution", "cgns:here-%d.cgns"); ("-checkpoint_format", "hdf5")])
      (Settings "mesh.exo" (OutConfig "out" None "a" None TimeModel.SECONDS 100 OUTPUT_XDMF 5 0 TimeModel.SECONDS 3 []) 2 NATIVE false) = Ret (d', c') /\
    oc_format (st_out c') = OUTPUT_CGNS /\ st_checkpoint c' = HDF5 /\ d' "-ts_monitor_solution" = Some "cgns:here-%d.cgns" /\
    d' "-ts_monitor_solution_interval" = Some "5" /\ d' "-viewer_cgns_batch_size" = Some "3".
Proof. eexists; eexists. split; [reflexivity|]. do 4 (split; [vm_compute; reflexivity|]). vm_compute; reflexivity. Qed.
