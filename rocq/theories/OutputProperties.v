(** C37 (averages count every step once), C38 (output files never collide), C58 (requested fields are written). *)
From Verif Require Import Base SetupModel TimeModel OutputModel OutputSpec OutputProofs.
From Coq Require FinFun.
From Coq Require Import ZArith String Ascii Lia Lra Sorted.
Local Open Scope nat_scope.
Local Open Scope string_scope.
Local Notation length := List.length.
Local Notation concat := List.concat.

(** ** Runs of the monitor *)
(* nothing but data files under the names of data files when the run starts *)
Definition usable (oc : out_config) (dir : string) (fs : files) : Prop :=
  forall step time name, DetermineOutputFile oc dir step time "h5" = Ret name -> fs name = None \/ exists gs, fs name = Some (Heavy gs).
Definition is_due (oc : out_config) (s : seen) : bool := due oc (mc_step (sn_call s)) (mc_time (sn_call s)).
(* an output is written at [last], and the steps since the previous output (or the start) are [since] and [last] *)
Record output_at (oc : out_config) (before since : list seen) (last : seen) : Prop := {
  oa_before : before = [] \/ exists b l, before = (b ++ [l])%list /\ is_due oc l = true;
  oa_since : forall s, In s since -> is_due oc s = false;
  oa_last : is_due oc last = true
}.
Record run_fits (amr : amr_state) (bs cells : nat) (run : list seen) : Prop := {
  rf_ok : run_ok bs cells (steps_of run);
  rf_short : forall s, In s run -> short_number (mc_step (sn_call s));
  rf_amr : short_number (amr_refinements amr)
}.

Lemma outputs_app oc a : forall p b, outputs oc p (a ++ b) = (outputs oc p a ++ outputs oc (leftover oc p a) b)%list.
Proof. induction a as [|c a IH]; intros p b; simpl; [reflexivity|]. destruct (due oc (mc_step c) (mc_time c)); rewrite IH; reflexivity. Qed.
Lemma leftover_app oc a : forall p b, leftover oc p (a ++ b) = leftover oc (leftover oc p a) b.
Proof. induction a as [|c a IH]; intros p b; simpl; [reflexivity|]. destruct (due oc (mc_step c) (mc_time c)); apply IH. Qed.
Lemma not_due_outputs oc l : forall p, (forall s, In s l -> is_due oc s = false) -> outputs oc p (steps_of l) = [] /\ leftover oc p (steps_of l) = (p ++ steps_of l)%list.
Proof.
  induction l as [|s l IH]; intros p H; simpl; [now rewrite app_nil_r|].
  pose proof (H s (or_introl eq_refl)) as D. unfold is_due in D. rewrite D.
  destruct (IH (p ++ [sn_call s])%list) as [E1 E2]; [intros x Hx; apply H; now right|]. rewrite E1, E2, <- app_assoc. auto.
Qed.
Lemma output_last oc before since last after : output_at oc before since last ->
  outputs oc [] (steps_of (before ++ since ++ [last] ++ after)) =
  (outputs oc [] (steps_of before) ++ [(steps_of since, sn_call last)] ++ outputs oc [] (steps_of after))%list.
Proof.
  intros [H1 H2 H3]. unfold steps_of. rewrite !map_app. fold (steps_of before) (steps_of since) (steps_of [last]) (steps_of after).
  rewrite outputs_app.
  assert (L : leftover oc [] (steps_of before) = []).
  { destruct H1 as [->|(b & l & -> & D)]; [reflexivity|]. unfold steps_of. rewrite map_app. rewrite leftover_app. simpl. unfold is_due in D. now rewrite D. }
  rewrite L, outputs_app. destruct (not_due_outputs oc since [] H2) as [E1 E2]. rewrite E1, E2. simpl app at 2. simpl. unfold is_due in H3. rewrite H3. reflexivity.
Qed.
Lemma outputs_in oc c q run : forall p, In (q, c) (outputs oc p run) -> In c run /\ due oc (mc_step c) (mc_time c) = true.
Proof.
  induction run as [|x run IH]; intros p; simpl; [tauto|]. destruct (due oc (mc_step x) (mc_time x)) eqn:E.
  - intros [H|H]; [injection H as <- <-; auto|]. apply IH in H. tauto.
  - intros H. apply IH in H. tauto.
Qed.

Section Emission.
Context (oc : out_config) (dir : string) (classes others cells : nat) (OK : xdmf_ok oc dir classes).
Definition slots (fs : files) : Prop := forall s t, short_number s -> data_slot fs (h5_of oc dir s t).
Lemma usable_slots fs : usable oc dir fs -> slots fs.
Proof. intros H s t Hs. apply (H s t). now apply (h5_name oc dir classes OK). Qed.
Lemma string_dec (a b : string) : a = b \/ a <> b.
Proof. destruct (String.eqb_spec a b); auto. Qed.
Lemma emit_slots fs amr step time d fs' amr' : short_number step -> short_number (amr_refinements amr) -> slots fs ->
  emit oc dir (fs, amr) step time d = Ret (fs', amr') -> slots fs' /\ amr_refinements amr' = amr_refinements amr /\ amr_on amr' = amr_on amr.
Proof.
  intros Hs Hr Hf He. destruct (emit_effect oc dir classes OK fs amr step time d Hs Hr (Hf _ _ Hs)) as (f2 & E & E1 & E2 & E3 & E4).
  rewrite E in He. injection He as <- <-. split; [|unfold next_amr; destruct (amr_on amr) eqn:Ea; simpl; [destruct (writes_grid amr step); simpl; auto | auto]].
  intros s t Hs'. unfold data_slot. destruct (string_dec (h5_of oc dir s t) (h5_of oc dir step time)) as [->|N].
  - right. eauto.
  - rewrite E4; [now apply Hf | exact N | apply h5_not_xmf | right; apply h5_not_grid].
Qed.
Definition all_short (l : list (list mon_call * mon_call)) : Prop := forall o, In o l -> short_number (mc_step (snd o)).
Lemma emits_ok l : forall fs amr, all_short l -> short_number (amr_refinements amr) -> slots fs ->
  exists fs' amr', emits oc dir classes others cells (Ret (fs, amr)) l = Ret (fs', amr') /\ slots fs' /\ amr_refinements amr' = amr_refinements amr /\ amr_on amr' = amr_on amr.
Proof.
  induction l as [|o l IH]; intros fs amr Hl Hr Hf; simpl; [exists fs, amr; auto|].
  assert (Hs : short_number (mc_step (snd o))) by (apply Hl; now left).
  destruct (emit_effect oc dir classes OK fs amr (mc_step (snd o)) (out_time oc (snd o)) (written oc classes others cells (fst o) (snd o)) Hs Hr (Hf _ _ Hs)) as (f2 & E & _).
  destruct (emit_slots _ _ _ _ _ _ _ Hs Hr Hf E) as (S1 & S2 & S3).
  unfold emits. cbn [fold_left emit_one rbind]. rewrite E. rewrite <- S2 in Hr.
  destruct (IH f2 (next_amr amr (mc_step (snd o)))) as (f3 & a3 & G1 & G2 & G3 & G4); auto; [intros x Hx; apply Hl; now right|].
  exists f3, a3. rewrite G3, G4. auto.
Qed.
Lemma emits_app a b fa : emits oc dir classes others cells fa (a ++ b) = emits oc dir classes others cells (emits oc dir classes others cells fa a) b.
Proof. unfold emits. apply fold_left_app. Qed.
Lemma written_nodup p c : NoDup (map fst (written oc classes others cells p c)).
Proof.
  rewrite written_names by (apply (requested_empty _ classes), (xo_fields _ _ _ OK)).
  apply NoDup_filter, core_names_nodup, (xo_classes _ _ _ OK).
Qed.
Lemma monitors_run run ceed fs amr fs' amr' :
  run_ok (3 + classes + others) cells (steps_of run) ->
  emits oc dir classes others cells (Ret (fs, amr)) (outputs oc [] (steps_of run)) = Ret (fs', amr') ->
  exists st, monitors oc dir (history run) (Ret (init_output classes others cells ceed fs amr)) = Ret st /\ os_files st = fs' /\ os_amr st = amr'.
Proof.
  intros Hr He.
  destruct (run_monitors oc dir classes others cells (xo_format _ _ _ OK) run [] (init_output classes others cells ceed fs amr) fs' amr') as (st & A & _ & B & C); auto.
  - apply init_inv.
  - intros c Hc. simpl. split; [pose proof (ro_time _ _ _ Hr c Hc); lra | lia].
  - intros c [].
  - exists st. auto.
Qed.
End Emission.
Lemma run_short amr bs cells run oc p : run_fits amr bs cells run -> all_short (outputs oc p (steps_of run)).
Proof.
  intros H [q c] Hc. simpl. apply outputs_in in Hc. destruct Hc as [Hc _]. unfold steps_of in Hc. apply in_map_iff in Hc.
  destruct Hc as (s & <- & Hs). now apply (rf_short _ _ _ _ H).
Qed.

(* what an output contains right after it was written *)
Lemma output_contents oc dir classes others cells ceed fs amr before since last :
  xdmf_ok oc dir classes -> usable oc dir fs -> run_fits amr (3 + classes + others) cells (before ++ since ++ [last]) -> output_at oc before since last ->
  exists st name, monitors oc dir (history (before ++ since ++ [last])) (Ret (init_output classes others cells ceed fs amr)) = Ret st /\
    DetermineOutputFile oc dir (mc_step (sn_call last)) (ConvertTimeFromSeconds (mc_time (sn_call last)) (oc_unit oc)) "h5" = Ret name /\
    forall f kqc, In (f, kqc) (field_table classes) -> In f (oc_fields oc) ->
      read (os_files st) name (mc_step (sn_call last), ConvertTimeFromSeconds (mc_time (sn_call last)) (oc_unit oc)) f =
      Some (shown (3 + classes + others) cells kqc (steps_of since) (sn_call last)).
Proof.
  intros OK U R O. pose proof (run_short _ _ _ _ oc [] R) as HS. pose proof (rf_amr _ _ _ _ R) as HA.
  pose proof (output_last oc before since last [] O) as EO. rewrite app_nil_r in EO. simpl (outputs oc [] (steps_of [])) in EO. rewrite app_nil_r in EO.
  rewrite EO in HS.
  destruct (emits_ok oc dir classes others cells OK (outputs oc [] (steps_of before)) fs amr) as (f1 & a1 & E1 & S1 & R1 & _); auto.
  { intros o Ho. apply HS, in_or_app. now left. } { now apply (usable_slots oc dir classes). }
  set (l := sn_call last) in *.
  assert (Hl : short_number (mc_step l)) by (apply (HS (steps_of since, l)), in_or_app; right; now left).
  assert (HA1 : short_number (amr_refinements a1)) by (rewrite R1; exact HA).
  destruct (emit_effect oc dir classes OK f1 a1 (mc_step l) (out_time oc l) (written oc classes others cells (steps_of since) l) Hl HA1 (S1 _ _ Hl)) as (f2 & E2 & D & _).
  destruct (monitors_run oc dir classes others cells OK (before ++ since ++ [last]) ceed fs amr f2 (next_amr a1 (mc_step l))) as (st & M & F & _).
  { apply (rf_ok _ _ _ _ R). }
  { rewrite EO, emits_app, E1. unfold emits. cbn [fold_left emit_one rbind fst snd]. exact E2. }
  exists st, (h5_of oc dir (mc_step l) (out_time oc l)). split; [exact M|].
  split; [apply (h5_name oc dir classes OK _ _ Hl)|].
  intros f kqc Hf Hr. rewrite F.
  apply (read_add _ _ _ _ _ _ _ D); [apply (written_nodup oc dir classes others cells OK)|].
  apply written_in; auto.
  - pose proof (ro_sizes _ _ _ (rf_ok _ _ _ _ R) l) as Z. apply Z. unfold steps_of. rewrite !map_app, !in_app_iff. simpl. auto.
  - unfold requested. apply existsb_exists. exists f. split; [exact Hr | apply String.eqb_refl].
Qed.

(** * C37 *)
Theorem C37_each_step_counted_once :
  forall oc dir classes others cells ceed fs amr before since last,
  xdmf_ok oc dir classes -> usable oc dir fs -> run_fits amr (3 + classes + others) cells (before ++ since ++ [last]) -> output_at oc before since last ->
  exists st name,
    monitors oc dir (history (before ++ since ++ [last])) (Ret (init_output classes others cells ceed fs amr)) = Ret st /\
    DetermineOutputFile oc dir (mc_step (sn_call last)) (ConvertTimeFromSeconds (mc_time (sn_call last)) (oc_unit oc)) "h5" = Ret name /\
    forall f q comp, In (f, (Mean, q, comp)) (field_table classes) -> In f (oc_fields oc) ->
      read (os_files st) name (mc_step (sn_call last), ConvertTimeFromSeconds (mc_time (sn_call last)) (oc_unit oc)) f =
      Some (map (fun cell => weighted (fun c => nth ((3 + classes + others) * cell + comp) (values q c) 0%R) (steps_of (since ++ [last]))) (seq 0 cells)).
Proof.
  intros * OK U R O. destruct (output_contents oc dir classes others cells ceed fs amr before since last OK U R O) as (st & name & A & B & C).
  exists st, name. split; [exact A|]. split; [exact B|]. intros f q comp Hf Hr. rewrite (C f _ Hf Hr). unfold shown, steps_of. rewrite map_app. reflexivity.
Qed.
Print Assumptions C37_each_step_counted_once.

(* the averages lie between the least and the greatest value, and with a fixed step they are the arithmetic mean *)
Theorem C37_mean_bounds :
  forall (f : mon_call -> R) l, l <> [] -> (forall c, In c l -> (0 < mc_dt c)%R) ->
  (forall lo hi, (forall c, In c l -> (lo <= f c <= hi)%R) -> (lo <= weighted f l <= hi)%R) /\
  (forall dt, (forall c, In c l -> mc_dt c = dt) -> weighted f l = (rsum f l / INR (length l))%R).
Proof.
  intros f l Hl Hd.
  assert (P : (0 < rsum mc_dt l)%R).
  { destruct l as [|c l]; [contradiction|]. simpl. pose proof (Hd c (or_introl eq_refl)).
    assert (0 <= rsum mc_dt l)%R by (apply rsum_nonneg; intros x Hx; left; apply Hd; now right). lra. }
  split.
  - intros lo hi H. unfold weighted.
    assert (L : (lo * rsum mc_dt l <= rsum (fun c => mc_dt c * f c) l)%R).
    { rewrite <- rsum_scal. apply rsum_le. intros c Hc. pose proof (Hd c Hc). pose proof (H c Hc). nra. }
    assert (G : (rsum (fun c => mc_dt c * f c) l <= hi * rsum mc_dt l)%R).
    { rewrite <- rsum_scal. apply rsum_le. intros c Hc. pose proof (Hd c Hc). pose proof (H c Hc). nra. }
    split; [apply Rmult_le_reg_r with (rsum mc_dt l) | apply Rmult_le_reg_r with (rsum mc_dt l)]; auto;
      unfold Rdiv; rewrite Rmult_assoc, Rinv_l by lra; lra.
  - intros dt H. unfold weighted.
    assert (E1 : rsum (fun c => mc_dt c * f c)%R l = (dt * rsum f l)%R).
    { rewrite <- rsum_scal. apply rsum_ext. intros c Hc. now rewrite H. }
    assert (E2 : rsum mc_dt l = (dt * INR (length l))%R).
    { rewrite (rsum_ext _ (fun _ => dt * 1)%R) by (intros c Hc; rewrite H; auto; ring). rewrite rsum_scal. f_equal.
      clear. induction l; [reflexivity|]. rewrite S_INR || idtac. simpl length. rewrite S_INR. simpl. rewrite IHl. ring. }
    rewrite E1, E2 in *. assert (dt <> 0)%R by (intros ->; lra). assert (INR (length l) <> 0)%R by (intros E; rewrite E in P; lra). field. auto.
Qed.
Print Assumptions C37_mean_bounds.

(** * C58 *)
(* the names accepted by the configuration are those of the table *)
Theorem C58_valid_fields :
  forall classes f, valid_field classes f = true <-> In f (map fst (field_table classes)).
Proof.
  intros classes f. unfold valid_field. rewrite orb_true_iff, !existsb_exists. split.
  - intros [(e & He & E) | (ab & Hab & E)].
    + apply String.eqb_eq in E. subst e. unfold field_table. rewrite map_app. apply in_or_app. left. unfold exact_output_fields in He. simpl in *. tauto.
    + apply existsb_exists in E. destruct E as (i & Hi & E). apply String.eqb_eq in E. subst f.
      unfold field_table. rewrite map_app. apply in_or_app. right. apply in_map_iff.
      assert (G : exists e, fst e = fst ab ++ dec i ++ snd ab /\ In e (flat_map (fun i =>
    [(("SedimentMassPerUnitArea" ++ dec i)%string, (Now, Solution, 3 + i)); (("SedimentMassPerUnitArea" ++ dec i ++ "_Mean")%string, (Mean, Solution, 3 + i));
     (("SedimentConcentration" ++ dec i)%string, (Now, Primitive, 3 + i)); (("SedimentConcentration" ++ dec i ++ "_Mean")%string, (Mean, Primitive, 3 + i));
     (("SedimentMassPerUnitArea" ++ dec i ++ "Source")%string, (Now, Sources, 3 + i)); (("SedimentMassPerUnitArea" ++ dec i ++ "Source_Mean")%string, (Mean, Sources, 3 + i))]) (seq 0 classes))); [|exact G].
      setoid_rewrite in_flat_map.
      unfold indexed_output_fields in Hab. simpl in Hab.
      destruct Hab as [<-|[<-|[<-|[<-|[<-|[<-|[]]]]]]]; simpl fst; simpl snd.
      * eexists. split; [|exists i; split; [exact Hi | left; reflexivity]]. simpl. now rewrite append_nil.
      * eexists. split; [|exists i; split; [exact Hi | do 4 right; left; reflexivity]]. reflexivity.
      * eexists. split; [|exists i; split; [exact Hi | right; left; reflexivity]]. reflexivity.
      * eexists. split; [|exists i; split; [exact Hi | do 5 right; left; reflexivity]]. reflexivity.
      * eexists. split; [|exists i; split; [exact Hi | do 3 right; left; reflexivity]]. reflexivity.
      * eexists. split; [|exists i; split; [exact Hi | do 2 right; left; reflexivity]]. simpl. now rewrite append_nil.
  - unfold field_table. rewrite map_app, in_app_iff. intros [H|H].
    + left. exists f. split; [|apply String.eqb_refl]. unfold exact_output_fields. simpl in *. tauto.
    + right. apply in_map_iff in H. destruct H as (e & <- & H). apply in_flat_map in H. destruct H as (i & Hi & H).
      assert (G : exists ab, In ab indexed_output_fields /\ fst ab ++ dec i ++ snd ab = fst e).
      { simpl in H. destruct H as [<-|[<-|[<-|[<-|[<-|[<-|[]]]]]]]; simpl fst.
        - exists ("SedimentMassPerUnitArea", ""). simpl. rewrite append_nil. auto.
        - exists ("SedimentMassPerUnitArea", "_Mean"). simpl. auto.
        - exists ("SedimentConcentration", ""). simpl. rewrite append_nil. auto 10.
        - exists ("SedimentConcentration", "_Mean"). simpl. auto 10.
        - exists ("SedimentMassPerUnitArea", "Source"). simpl. auto.
        - exists ("SedimentMassPerUnitArea", "Source_Mean"). simpl. auto 10. }
      destruct G as (ab & G1 & G2). exists ab. split; [exact G1|]. apply existsb_exists. exists i. split; [exact Hi|]. rewrite G2. apply String.eqb_refl.
Qed.
Print Assumptions C58_valid_fields.

(* Whatever fields are asked for and however the vectors are shaped, writing the fields of a vector from its first component
   on never reads outside the vector: more names than components, or a vector that is no whole number of rows, is an error. *)
Theorem C58_no_access_outside : forall bs v spec fields, WriteRequestedFields bs v false spec fields <> UB.
Proof.
  intros bs v spec fields. unfold WriteRequestedFields. destruct fields as [|f fs]; [discriminate|]. unfold check.
  destruct (Nat.ltb 0 bs); [|discriminate]. destruct (Nat.eqb (length v mod bs) 0); [|discriminate].
  destruct (Z.leb _ _) eqn:E; [|discriminate]. apply Z.leb_le in E. cbn [offset_of] in E.
  assert (B : forall cn, In cn (selected (f :: fs) false spec) -> fst cn < bs).
  { intros [c n] H. unfold selected in H. apply filter_In in H. destruct H as (H & _). unfold components in H. apply in_combine_l in H. apply in_seq in H. cbn [fst]. lia. }
  revert B. generalize (selected (f :: fs) false spec) as l. induction l as [|cn l IH]; intros B; cbn [rmap]; [discriminate|].
  rewrite (proj2 (Nat.ltb_lt _ _) (B cn (or_introl eq_refl))). cbn [rbind].
  specialize (IH (fun x H => B x (or_intror H))). destruct (rmap _ l); cbn [rbind]; congruence.
Qed.
Print Assumptions C58_no_access_outside.
(* a vector of two rows of three components; four names for three components *)
Example C58_no_access_example :
  WriteRequestedFields 3 [1; 2; 3; 4; 5; 6]%R false [["Height"; "MomentumX"; "MomentumY"]%string] ["MomentumX"%string] = Ret [("MomentumX"%string, [2; 5]%R)] /\
  WriteRequestedFields 3 [1; 2; 3; 4; 5; 6]%R false [["Height"; "MomentumX"; "MomentumY"; "Salinity"]%string] ["Salinity"%string] = Error.
Proof. split; reflexivity. Qed.

(* each accepted name that was asked for is in the file written, with the values it names *)
Theorem C58_requested_fields_written :
  forall oc dir classes others cells ceed fs amr before since last,
  xdmf_ok oc dir classes -> usable oc dir fs -> run_fits amr (3 + classes + others) cells (before ++ since ++ [last]) -> output_at oc before since last ->
  exists st name,
    monitors oc dir (history (before ++ since ++ [last])) (Ret (init_output classes others cells ceed fs amr)) = Ret st /\
    DetermineOutputFile oc dir (mc_step (sn_call last)) (ConvertTimeFromSeconds (mc_time (sn_call last)) (oc_unit oc)) "h5" = Ret name /\
    forall f, In f (oc_fields oc) -> exists kqc, In (f, kqc) (field_table classes) /\
      read (os_files st) name (mc_step (sn_call last), ConvertTimeFromSeconds (mc_time (sn_call last)) (oc_unit oc)) f =
      Some (shown (3 + classes + others) cells kqc (steps_of since) (sn_call last)).
Proof.
  intros * OK U R O. destruct (output_contents oc dir classes others cells ceed fs amr before since last OK U R O) as (st & name & A & B & C).
  exists st, name. split; [exact A|]. split; [exact B|]. intros f Hf.
  pose proof (proj1 (C58_valid_fields classes f) (xo_fields _ _ _ OK f Hf)) as V. apply in_map_iff in V. destruct V as ((f' & kqc) & <- & V).
  exists kqc. split; [exact V | now apply C].
Qed.
Print Assumptions C58_requested_fields_written.

(** * C38 *)
(* names: visualization files of different steps differ, data files are shared by the steps of a batch only *)
Theorem C38_names_distinct :
  forall oc dir classes s t s' t', xdmf_ok oc dir classes -> oc_date oc = None -> short_number s -> short_number s' ->
  exists x x' h h', DetermineOutputFile oc dir s t "xmf" = Ret x /\ DetermineOutputFile oc dir s' t' "xmf" = Ret x' /\
    DetermineOutputFile oc dir s t "h5" = Ret h /\ DetermineOutputFile oc dir s' t' "h5" = Ret h' /\
    (x = x' -> s = s') /\
    (h = h' <-> (if Nat.eqb (oc_batch oc) 1 then s = s' else s / oc_interval oc / oc_batch oc = s' / oc_interval oc / oc_batch oc)) /\
    x <> h /\ x <> h'.
Proof.
  intros oc dir classes s t s' t' OK D Hs Hs'. exists (xmf_of oc dir s t), (xmf_of oc dir s' t'), (h5_of oc dir s t), (h5_of oc dir s' t').
  split; [now apply (xmf_name oc dir classes)|]. split; [now apply (xmf_name oc dir classes)|].
  split; [now apply (h5_name oc dir classes)|]. split; [now apply (h5_name oc dir classes)|].
  split.
  { unfold xmf_of, tail_of. rewrite D. intros H. apply append_inj_l in H. now apply numbered_inj in H. }
  split.
  { unfold h5_of, h5_tail, tail_of. rewrite D. destruct (Nat.eqb (oc_batch oc) 1).
    - split; [intros H; apply append_inj_l in H; now apply numbered_inj in H | now intros ->].
    - split; [intros H; apply append_inj_l in H; now apply numbered_inj in H | unfold batch_of; now intros ->]. }
  split; intros H; symmetry in H; now apply h5_not_xmf in H.
Qed.
Print Assumptions C38_names_distinct.

Lemma add_group_new gs g d : (forall e, In e gs -> fst e <> g) -> add_group gs g d = (gs ++ [(g, d)])%list.
Proof.
  induction gs as [|[h e] gs IH]; intros H; simpl; [reflexivity|].
  destruct (group_eqb h g) eqn:E; [apply group_eqb_true in E; exfalso; apply (H (h, e)); [now left | exact E]|].
  rewrite IH; [reflexivity|]. intros x Hx. apply H. now right.
Qed.
Section Kept.
Context (oc : out_config) (dir : string) (classes others cells : nat) (OK : xdmf_ok oc dir classes) (ND : oc_date oc = None).
Context (amr0 : amr_state) (HA : short_number (amr_refinements amr0)).
Local Notation I := (oc_interval oc).
Local Notation B := (oc_batch oc).
Definition step_of (o : list mon_call * mon_call) : nat := mc_step (snd o).
Definition entry (o : list mon_call * mon_call) : group_name * datasets := ((step_of o, out_time oc (snd o)), written oc classes others cells (fst o) (snd o)).
Definition same (o o' : list mon_call * mon_call) : bool := Nat.eqb (batch_of oc (step_of o')) (batch_of oc (step_of o)).
Record kept (E : list (list mon_call * mon_call)) (fs : files) : Prop := {
  k_h5 : forall o, In o E -> fs (h5_of oc dir (step_of o) (out_time oc (snd o))) = Some (Heavy (map entry (filter (same o) E)));
  k_xmf : forall o, In o E -> fs (xmf_of oc dir (step_of o) (out_time oc (snd o))) = Some (light_file oc dir amr0 (step_of o) (out_time oc (snd o)) (written oc classes others cells (fst o) (snd o)));
  k_grid : E <> [] -> fs (grid_of oc dir amr0) = Some Grid;
  k_slots : slots oc dir fs
}.
Lemma batch_multiple k : batch_of oc (k * I) = k / B.
Proof. unfold batch_of. rewrite Nat.div_mul; [reflexivity|]. pose proof (xo_interval _ _ _ OK). lia. Qed.
Lemma h5_multiples i j t t' : (h5_of oc dir (i * I) t = h5_of oc dir (j * I) t' <-> i / B = j / B).
Proof.
  pose proof (xo_interval _ _ _ OK). pose proof (xo_batch _ _ _ OK).
  unfold h5_of, h5_tail, tail_of. rewrite ND, !batch_multiple. destruct (Nat.eqb_spec B 1) as [e|n].
  - rewrite e, !Nat.div_1_r. split; [intros H'; apply append_inj_l in H'; apply numbered_inj in H'; nia | now intros ->].
  - split; [intros H'; apply append_inj_l in H'; now apply numbered_inj in H' | now intros ->].
Qed.
Lemma kept_emit E fs amr o : kept E fs -> amr_on amr = amr_on amr0 -> amr_refinements amr = amr_refinements amr0 ->
  map step_of (E ++ [o]) = map (fun i => i * I) (seq 0 (S (length E))) -> short_number (step_of o) ->
  (E = [] -> writes_grid amr (step_of o) = true) ->
  exists fs' amr', emit oc dir (fs, amr) (step_of o) (out_time oc (snd o)) (written oc classes others cells (fst o) (snd o)) = Ret (fs', amr') /\
    kept (E ++ [o]) fs' /\ amr_on amr' = amr_on amr0 /\ amr_refinements amr' = amr_refinements amr0.
Proof.
  intros K Hon Href Hm Hs Hg. pose proof (xo_interval _ _ _ OK) as HI. pose proof (xo_batch _ _ _ OK) as HB.
  assert (Hr : short_number (amr_refinements amr)) by (rewrite Href; exact HA).
  rewrite seq_S, !map_app in Hm. simpl in Hm. apply app_inj_tail in Hm. destruct Hm as [Hm Ho].
  set (k := length E) in *.
  assert (Hi : forall o', In o' E -> exists i, i < k /\ step_of o' = i * I).
  { intros o' Ho'. assert (In (step_of o') (map step_of E)) as H by (now apply in_map). rewrite Hm in H. apply in_map_iff in H.
    destruct H as (i & <- & H). apply in_seq in H. exists i. split; [lia | reflexivity]. }
  destruct (emit_effect oc dir classes OK fs amr (step_of o) (out_time oc (snd o)) (written oc classes others cells (fst o) (snd o)) Hs Hr (k_slots _ _ K _ _ Hs)) as (fs' & E1 & E2 & E3 & E4 & E5).
  exists fs', (next_amr amr (step_of o)). split; [exact E1|].
  destruct (emit_slots oc dir classes OK _ _ _ _ _ _ _ Hs Hr (k_slots _ _ K) E1) as (S1 & S2 & S3).
  split; [|split; congruence].
  assert (Gr : grid_of oc dir amr = grid_of oc dir amr0) by (unfold grid_of, grid_tail; now rewrite Hon, Href).
  (* what the data file held before *)
  assert (P : prior oc dir fs (step_of o) (out_time oc (snd o)) = map entry (filter (same o) E)).
  { unfold prior, appends. rewrite Ho, Nat.div_mul by lia. destruct (Nat.eqb_spec (k mod B) 0) as [e|n]; simpl negb; cbv iota.
    - assert (filter (same o) E = []) as ->; [|reflexivity].
      destruct (filter (same o) E) as [|o' l] eqn:Ef; [reflexivity|]. exfalso.
      assert (In o' (filter (same o) E)) as Hin by (rewrite Ef; now left). apply filter_In in Hin. destruct Hin as [Hin Hsame].
      destruct (Hi o' Hin) as (i & Hik & Ei). unfold same in Hsame. apply Nat.eqb_eq in Hsame. rewrite Ei, Ho, !batch_multiple in Hsame.
      apply Nat.div_exact in e; [|lia]. assert (i < B * (k / B)) by lia. assert (i / B < k / B) by (apply Nat.div_lt_upper_bound; lia). lia.
    - assert (Hk : 0 < k) by (destruct k; [rewrite Nat.mod_0_l in n by lia; lia | lia]).
      assert (exists o', In o' E /\ step_of o' = (k - 1) * I) as (o' & Hin & Eo).
      { assert (In ((k - 1) * I) (map step_of E)) as H. { rewrite Hm. apply in_map_iff. exists (k - 1). split; [reflexivity | apply in_seq; lia]. }
        apply in_map_iff in H. destruct H as (o' & A1 & A2). exists o'. auto. }
      assert (Eb : (k - 1) / B = k / B).
      { pose proof (Nat.div_mod k B ltac:(lia)). assert (k - 1 = B * (k / B) + (k mod B - 1)) as -> by lia.
        pose proof (Nat.mod_upper_bound k B ltac:(lia)). symmetry. apply (Nat.div_unique _ B _ (k mod B - 1)); lia. }
      rewrite (proj2 (h5_multiples k (k - 1) (out_time oc (snd o)) (out_time oc (snd o'))) (eq_sym Eb)), <- Eo, (k_h5 _ _ K o' Hin).
      f_equal. apply filter_ext. intros x. unfold same. rewrite Eo, Ho, !batch_multiple, Eb. reflexivity. }
  assert (AG : add_group (prior oc dir fs (step_of o) (out_time oc (snd o))) (step_of o, out_time oc (snd o)) (written oc classes others cells (fst o) (snd o)) = map entry (filter (same o) (E ++ [o]))).
  { rewrite P, add_group_new.
    - rewrite filter_app, map_app. simpl. unfold same at 3. rewrite Nat.eqb_refl. reflexivity.
    - intros e He. apply in_map_iff in He. destruct He as (o' & <- & He). apply filter_In in He. destruct (Hi o' (proj1 He)) as (i & Hik & Ei).
      simpl. rewrite Ei, Ho. intros H. injection H as H _. nia. }
  assert (Sb : forall o', In o' E -> same o' o = same o o').
  { intros o' _. unfold same. apply Nat.eqb_sym. }
  constructor.
  - intros o' Ho'. apply in_app_or in Ho'. destruct Ho' as [Ho' | [<-|[]]]; [|now rewrite E2, AG].
    destruct (Hi o' Ho') as (i & Hik & Ei).
    destruct (Nat.eq_dec (i / B) (k / B)) as [e|n].
    + rewrite Ei, (proj2 (h5_multiples i k (out_time oc (snd o')) (out_time oc (snd o))) e), <- Ho, E2, AG. do 2 f_equal. f_equal.
      apply filter_ext. intros x. unfold same. rewrite Ei, Ho, !batch_multiple, e. reflexivity.
    + rewrite E5.
      * rewrite (k_h5 _ _ K o' Ho'). do 2 f_equal. f_equal. rewrite filter_app. simpl. unfold same at 3. rewrite Ei, Ho, !batch_multiple.
        destruct (Nat.eqb_spec (k / B) (i / B)); [lia|]. now rewrite app_nil_r.
      * rewrite Ei, Ho. intros H. apply h5_multiples in H. contradiction.
      * apply h5_not_xmf.
      * right. apply h5_not_grid.
  - intros o' Ho'. apply in_app_or in Ho'. destruct Ho' as [Ho' | [<-|[]]].
    + destruct (Hi o' Ho') as (i & Hik & Ei). rewrite E5.
      * apply (k_xmf _ _ K o' Ho').
      * intros H. symmetry in H. now apply h5_not_xmf in H.
      * unfold xmf_of, tail_of. rewrite ND. intros H. apply append_inj_l in H. apply numbered_inj in H. rewrite Ei, Ho in H. nia.
      * right. intros H. symmetry in H. now apply grid_not_xmf in H.
    + rewrite E3. unfold light_file. now rewrite Gr.
  - intros _. destruct (writes_grid amr (step_of o)) eqn:W; [rewrite <- Gr; now apply E4|].
    assert (E <> []) as HE by (intros e; specialize (Hg e); congruence).
    rewrite E5; [now apply (k_grid _ _ K) | | | now left].
    + intros H. symmetry in H. now apply h5_not_grid in H.
    + apply grid_not_xmf.
  - exact S1.
Qed.
Lemma kept_emits E2 : forall E1 fs amr, kept E1 fs -> amr_on amr = amr_on amr0 -> amr_refinements amr = amr_refinements amr0 ->
  map step_of (E1 ++ E2) = map (fun i => i * I) (seq 0 (length (E1 ++ E2))) -> all_short (E1 ++ E2) ->
  (E1 = [] -> writes_grid amr 0 = true) ->
  exists fs' amr', emits oc dir classes others cells (Ret (fs, amr)) E2 = Ret (fs', amr') /\ kept (E1 ++ E2) fs'.
Proof.
  induction E2 as [|o E2 IH]; intros E1 fs amr K Hon Href Hm Hs Hg.
  - rewrite app_nil_r. exists fs, amr. auto.
  - assert (Hm1 : map step_of (E1 ++ [o]) = map (fun i => i * I) (seq 0 (S (length E1)))).
    { apply (f_equal (firstn (S (length E1)))) in Hm. rewrite firstn_map, firstn_map in Hm.
      replace (firstn (S (length E1)) (E1 ++ o :: E2)) with (E1 ++ [o])%list in Hm.
      - rewrite Hm. f_equal. rewrite app_length. cbn [List.length]. replace (length E1 + S (length E2)) with (S (length E1) + length E2) by lia.
        rewrite seq_app. rewrite firstn_app, firstn_all2 by (rewrite seq_length; lia). rewrite seq_length, Nat.sub_diag. cbn [firstn]. now rewrite app_nil_r.
      - change (E1 ++ o :: E2)%list with (E1 ++ [o] ++ E2)%list. rewrite app_assoc. rewrite firstn_app. rewrite firstn_all2 by (rewrite app_length; simpl; lia).
        rewrite app_length. cbn [List.length]. replace (S (length E1) - (length E1 + 1)) with 0 by lia. cbn [firstn]. now rewrite app_nil_r. }
    assert (Hso : short_number (step_of o)) by (apply (Hs o), in_or_app; right; now left).
    destruct (kept_emit E1 fs amr o K Hon Href Hm1 Hso) as (f1 & a1 & G1 & G2 & G3 & G4).
    { intros ->. specialize (Hg eq_refl). simpl in Hm1. injection Hm1 as ->. exact Hg. }
    unfold emits. cbn [fold_left emit_one rbind]. unfold step_of in G1. rewrite G1.
    destruct (IH (E1 ++ [o])%list f1 a1 G2 G3 G4) as (f2 & a2 & F1 & F2).
    + rewrite <- app_assoc. exact Hm.
    + rewrite <- app_assoc. exact Hs.
    + intros e. exfalso. symmetry in e. now apply app_cons_not_nil in e.
    + exists f2, a2. rewrite <- app_assoc in F2. auto.
Qed.
End Kept.

(* due steps of a run that visits every step and has no time interval *)
Lemma multiples n I : 0 < I -> filter (fun s => Nat.eqb (s mod I) 0) (seq 0 n) = map (fun i => i * I) (seq 0 ((n + I - 1) / I)).
Proof.
  intros HI. induction n as [|n IH].
  - simpl. rewrite Nat.div_small by lia. reflexivity.
  - rewrite seq_S, filter_app, IH. change (0 + n) with n. cbn [filter]. pose proof (Nat.div_mod n I ltac:(lia)) as D. pose proof (Nat.mod_upper_bound n I ltac:(lia)) as U.
    set (q := n / I) in *. set (r := n mod I) in *. clearbody q r. destruct (Nat.eqb_spec r 0) as [e|e].
    + assert ((n + I - 1) / I = q) as -> by (symmetry; apply (Nat.div_unique _ I _ (I - 1)); nia).
      assert ((S n + I - 1) / I = S q) as -> by (symmetry; apply (Nat.div_unique _ I _ 0); nia).
      rewrite seq_S, map_app. cbn [map Nat.add]. f_equal. f_equal. nia.
    + assert ((n + I - 1) / I = S q) as -> by (symmetry; apply (Nat.div_unique _ I _ (r - 1)); nia).
      assert ((S n + I - 1) / I = S q) as -> by (symmetry; apply (Nat.div_unique _ I _ r); nia).
      now rewrite app_nil_r.
Qed.
Lemma outputs_due oc run : forall p, map snd (outputs oc p run) = filter (fun c => due oc (mc_step c) (mc_time c)) run.
Proof. induction run as [|c run IH]; intros p; simpl; [reflexivity|]. destruct (due oc (mc_step c) (mc_time c)); simpl; now rewrite IH. Qed.
Lemma filter_map_step (run : list mon_call) (p : nat -> bool) : map mc_step (filter (fun c => p (mc_step c)) run) = filter p (map mc_step run).
Proof. induction run as [|c run IH]; simpl; [reflexivity|]. destruct (p (mc_step c)); simpl; now rewrite IH. Qed.

Definition same_batch (oc : out_config) (s s' : seen) : bool :=
  Nat.eqb (mc_step (sn_call s) / oc_interval oc / oc_batch oc) (mc_step (sn_call s') / oc_interval oc / oc_batch oc).
(* A run by step interval, without dates, from step 0 in any directory whose files are usable. *)
Theorem C38_outputs_kept_partial :
  forall oc dir classes others cells ceed fs amr run,
  xdmf_ok oc dir classes -> oc_date oc = None -> oc_time_interval oc = 0 ->
  usable oc dir fs -> run_fits amr (3 + classes + others) cells run ->
  map (fun s => mc_step (sn_call s)) run = seq 0 (length run) ->
  (amr_on amr = true -> (amr_last_output amr < Z.of_nat (amr_refinements amr))%Z) ->
  exists st, monitors oc dir (history run) (Ret (init_output classes others cells ceed fs amr)) = Ret st /\
  forall before since last after, run = (before ++ since ++ [last] ++ after)%list -> output_at oc before since last ->
  let step := mc_step (sn_call last) in
  let now s := (mc_step (sn_call s), ConvertTimeFromSeconds (mc_time (sn_call s)) (oc_unit oc)) in
  exists h5 xm x, DetermineOutputFile oc dir step (snd (now last)) "h5" = Ret h5 /\ DetermineOutputFile oc dir step (snd (now last)) "xmf" = Ret xm /\
    (* the data file holds the outputs of its batch, once each and in order *)
    groups (os_files st) h5 = Some (map now (filter (fun s => (is_due oc s && same_batch oc s last)%bool) run)) /\
    (* the data of this output are still there *)
    (forall f kqc, In (f, kqc) (field_table classes) -> In f (oc_fields oc) ->
       read (os_files st) h5 (now last) f = Some (shown (3 + classes + others) cells kqc (steps_of since) (sn_call last))) /\
    (* everything its visualization file points to exists *)
    os_files st xm = Some (Light x) /\ os_files st (dirname xm ++ xm_grid x) = Some Grid /\
    (forall f, In f (oc_fields oc) -> exists file g, In (file, g, f) (xm_data x)) /\
    (forall file g f, In (file, g, f) (xm_data x) -> g = now last /\ dirname xm ++ file = h5 /\ exists v, read (os_files st) (dirname xm ++ file) g f = Some v).
Proof.
  intros oc dir classes others cells ceed fs amr run OK ND NT U R Hc Ha.
  pose proof (xo_interval _ _ _ OK) as HI. pose proof (xo_batch _ _ _ OK) as HB.
  set (E := outputs oc [] (steps_of run)).
  assert (Dm : forall c, due oc (mc_step c) (mc_time c) = Nat.eqb (mc_step c mod oc_interval oc) 0).
  { intros c. unfold due, time_due, step_due. rewrite NT. simpl. rewrite (proj2 (Nat.ltb_lt _ _) HI). reflexivity. }
  assert (Steps : map mc_step (steps_of run) = seq 0 (length run)) by (unfold steps_of; rewrite map_map; exact Hc).
  assert (ES : map step_of E = map (fun i => i * oc_interval oc) (seq 0 (length E))).
  { assert (A : map step_of E = map (fun i => i * oc_interval oc) (seq 0 ((length run + oc_interval oc - 1) / oc_interval oc))).
    { replace (map step_of E) with (map mc_step (map snd E)) by (rewrite map_map; reflexivity).
      unfold E. rewrite outputs_due. rewrite (filter_ext _ (fun c => Nat.eqb (mc_step c mod oc_interval oc) 0)) by (intros c; apply Dm).
      rewrite (filter_map_step (steps_of run) (fun s => Nat.eqb (s mod oc_interval oc) 0)), Steps. apply multiples; lia. }
    assert (length E = (length run + oc_interval oc - 1) / oc_interval oc) as ->; [|exact A].
    apply (f_equal (@List.length nat)) in A. now rewrite !map_length, seq_length in A. }
  pose proof (run_short _ _ _ _ oc [] R) as HS. fold E in HS.
  destruct (kept_emits oc dir classes others cells OK ND amr (rf_amr _ _ _ _ R) E [] fs amr) as (fs' & amr' & G1 & G2); auto.
  { constructor; [intros o [] | intros o [] | congruence | now apply (usable_slots oc dir classes)]. }
  { intros _. unfold writes_grid. destruct (amr_on amr) eqn:e; [|reflexivity]. apply Z.ltb_lt. auto. }
  simpl app in G2.
  destruct (monitors_run oc dir classes others cells OK run ceed fs amr fs' amr') as (st & M & F & _); [apply (rf_ok _ _ _ _ R) | exact G1|].
  exists st. split; [exact M|]. rewrite F. clear M F st.
  intros before since last after Hrun O step now.
  assert (Hin : In (steps_of since, sn_call last) E).
  { unfold E. rewrite Hrun, (output_last oc before since last after O). apply in_or_app. right. left. reflexivity. }
  assert (Hs : short_number step) by (apply (HS _ Hin)).
  pose proof (k_h5 _ _ _ _ _ _ _ _ G2 _ Hin) as K1. pose proof (k_xmf _ _ _ _ _ _ _ _ G2 _ Hin) as K2.
  assert (K3 : fs' (grid_of oc dir amr) = Some Grid) by (apply (k_grid _ _ _ _ _ _ _ _ G2); intros e; rewrite e in Hin; destruct Hin).
  unfold step_of in K1, K2. simpl fst in K1, K2. simpl snd in K1, K2. fold step in K1, K2. unfold out_time in K1, K2.
  change (ConvertTimeFromSeconds (mc_time (sn_call last)) (oc_unit oc)) with (snd (now last)) in K1, K2.
  set (h5 := h5_of oc dir step (snd (now last))) in *. set (xm := xmf_of oc dir step (snd (now last))) in *.
  assert (Sz : sized classes others cells (sn_call last)).
  { apply (ro_sizes _ _ _ (rf_ok _ _ _ _ R)). rewrite Hrun. unfold steps_of. rewrite !map_app, !in_app_iff. simpl. auto. }
  (* reading a dataset of this output *)
  assert (RD : forall f v, In (f, v) (written oc classes others cells (steps_of since) (sn_call last)) -> read fs' h5 (now last) f = Some v).
  { intros f v Hv. unfold read. rewrite K1.
    assert (FG : forall l, NoDup (map step_of l) -> In (steps_of since, sn_call last) l ->
       find (fun e : group_name * datasets => group_eqb (fst e) (now last)) (map (entry oc classes others cells) l) = Some (entry oc classes others cells (steps_of since, sn_call last))).
    { induction l as [|o l IH]; intros N Hl; [destruct Hl|]. destruct Hl as [->|Hl].
      - simpl. unfold out_time. fold (now last). now rewrite group_eqb_refl.
      - inversion N as [|? ? N1 N2]; subst. simpl map. simpl find. destruct (group_eqb _ (now last)) eqn:e.
        + apply group_eqb_true in e. exfalso. apply N1. injection e as e _. rewrite e. apply (in_map step_of _ _ Hl).
        + now apply IH. }
    rewrite FG.
    - unfold entry. cbn [snd fst]. now rewrite (find_unique _ _ _ (written_nodup oc dir classes others cells OK _ _) Hv).
    - assert (ND' : NoDup (map step_of E)).
      { rewrite ES. apply FinFun.Injective_map_NoDup; [intros i j e; nia | apply seq_NoDup]. }
      clear - ND'. revert ND'. generalize (same oc (steps_of since, sn_call last)). intros p. induction E as [|o l IH]; simpl; [auto|].
      intros H. inversion H as [|? ? N1 N2]; subst. destruct (p o); simpl; [|auto]. constructor; [|auto].
      intros Hx. apply N1. apply in_map_iff in Hx. destruct Hx as (y & e & Hy). apply filter_In in Hy. rewrite <- e. apply in_map. tauto.
    - apply filter_In. split; [exact Hin|]. unfold same. apply Nat.eqb_refl. }
  assert (WI : forall f kqc, In (f, kqc) (field_table classes) -> In f (oc_fields oc) ->
     In (f, shown (3 + classes + others) cells kqc (steps_of since) (sn_call last)) (written oc classes others cells (steps_of since) (sn_call last))).
  { intros f kqc Hf Hr. apply written_in; auto. unfold requested. apply existsb_exists. exists f. split; [exact Hr | apply String.eqb_refl]. }
  exists h5, xm, (Xmf (basename (grid_of oc dir amr)) (map (fun n => (basename h5, (step, snd (now last)), n)) (map fst (written oc classes others cells (steps_of since) (sn_call last))))).
  split; [now apply (h5_name oc dir classes)|]. split; [now apply (xmf_name oc dir classes)|].
  assert (Rh : dirname xm ++ basename h5 = h5).
  { unfold xm, h5, xmf_of, h5_of. apply resolve_sibling; [now apply (tail_no_slash oc dir classes) | now apply (h5_tail_no_slash oc dir classes)]. }
  split.
  { unfold groups. rewrite K1. f_equal. rewrite map_map.
    assert (A : forall l p (q : mon_call -> bool), map (fun o => fst (entry oc classes others cells o)) (filter (fun o => q (snd o)) (outputs oc p (steps_of l))) =
              map now (filter (fun s => (is_due oc s && q (sn_call s))%bool) l)).
    { induction l as [|s l IH]; intros p q; [reflexivity|]. simpl. fold (is_due oc s). destruct (is_due oc s); simpl.
      - destruct (q (sn_call s)); simpl; rewrite IH; reflexivity.
      - apply IH. }
    symmetry. etransitivity; [symmetry; exact (A run [] (fun c => Nat.eqb (mc_step c / oc_interval oc / oc_batch oc) (step / oc_interval oc / oc_batch oc)))|].
    reflexivity. }
  split; [intros f kqc Hf Hr; apply RD; now apply WI|].
  split; [exact K2|]. split.
  { cbn [xm_grid]. unfold xm, xmf_of, grid_of. rewrite resolve_sibling; [exact K3 | now apply (tail_no_slash oc dir classes) | apply grid_tail_no_slash]. }
  cbn [xm_data]. split.
  - intros f Hf. pose proof (proj1 (C58_valid_fields classes f) (xo_fields _ _ _ OK f Hf)) as V. apply in_map_iff in V. destruct V as ((f' & kqc) & e & V). simpl in e. subst f'.
    exists (basename h5), (step, snd (now last)). apply in_map_iff. exists f. split; [reflexivity|].
    apply (in_map fst _ _ (WI f kqc V Hf)).
  - intros file g f Hf. apply in_map_iff in Hf. destruct Hf as (n & e & Hf). injection e as <- <- <-.
    split; [reflexivity|]. split; [exact Rh|]. rewrite Rh. apply in_map_iff in Hf. destruct Hf as ((n' & v) & <- & Hv). exists v. now apply RD.
Qed.
Print Assumptions C38_outputs_kept_partial.

(* output by time interval: at every multiple of the interval, to within rounding, and at no other time *)
Theorem C38_time_interval_outputs :
  forall oc t, 0 < oc_time_interval oc -> (0 <= t)%R ->
  let interval := ConvertTimeToSeconds (INR (oc_time_interval oc)) (oc_time_unit oc) in
  (10 * DBL_EPSILON < interval)%R ->
  (time_due oc t = true <-> exists k : nat, (Rabs (t - INR k * interval) < 10 * DBL_EPSILON)%R).
Proof.
  intros oc t Hp Ht interval Hi. unfold time_due. rewrite (proj2 (Nat.ltb_lt _ _) Hp). fold interval.
  assert (HE : (0 < DBL_EPSILON)%R) by (unfold DBL_EPSILON; apply Rinv_0_lt_compat, pow_lt; lra).
  set (e := (10 * DBL_EPSILON)%R) in *. assert (He : (0 < e)%R) by (unfold e; lra). clearbody e.
  assert (H0 : (0 < interval)%R) by lra.
  set (q := Int_part (t / interval)).
  assert (Q : (IZR q <= t / interval < IZR q + 1)%R).
  { destruct (base_Int_part (t / interval)) as [A B]. fold q in A, B. lra. }
  assert (Q1 : (IZR q * interval <= t < (IZR q + 1) * interval)%R).
  { destruct Q as [A B]. assert (t = t / interval * interval)%R as E by (field; lra). rewrite E at 1 2. split; [apply Rmult_le_compat_r; lra | apply Rmult_lt_compat_r; lra]. }
  assert (Q0 : (0 <= q)%Z).
  { apply Z.lt_succ_r. apply lt_IZR. rewrite succ_IZR. assert (0 <= t / interval)%R by (apply Rmult_le_pos; [lra | left; apply Rinv_0_lt_compat; lra]). lra. }
  assert (F : fmod t interval = (t - IZR q * interval)%R) by (unfold fmod; fold q; ring).
  rewrite F, orb_true_iff. assert (QN : IZR q = INR (Z.to_nat q)) by (rewrite INR_IZR_INZ, Z2Nat.id; auto).
  rewrite !Rltb_true. split.
  - intros [H|H]; [exists (Z.to_nat q); now rewrite <- QN|].
    exists (S (Z.to_nat q)). rewrite S_INR, <- QN. replace (t - (IZR q + 1) * interval)%R with (t - IZR q * interval - interval)%R by ring. exact H.
  - intros [k Hk]. set (r := (t - IZR q * interval)%R). assert (Hr : (0 <= r < interval)%R) by (unfold r; lra).
    assert (Hkr : (t - INR k * interval = r + (IZR q - INR k) * interval)%R) by (unfold r; ring). rewrite Hkr in Hk.
    rewrite (INR_IZR_INZ k), <- minus_IZR in Hk. set (d := (q - Z.of_nat k)%Z) in *. apply Rabs_def2 in Hk.
    destruct (Z_lt_le_dec 0 d).
    + assert (1 <= IZR d)%R by (apply (IZR_le 1); lia). exfalso. nra.
    + destruct (Z_lt_le_dec d (-1)).
      * assert (IZR d <= -2)%R by (apply (IZR_le _ (-2)); lia). exfalso. nra.
      * assert (d = 0 \/ d = -1)%Z as [E|E] by lia; rewrite E in Hk; [left | right]; apply Rabs_def1; lra.
Qed.
Print Assumptions C38_time_interval_outputs.

Lemma Int_part_zero x : (0 <= x < 1)%R -> Int_part x = 0%Z.
Proof.
  intros H. destruct (base_Int_part x) as [A B]. assert (-1 < IZR (Int_part x) < 1)%R as [C D] by lra.
  apply (lt_IZR (-1)) in C. apply (lt_IZR _ 1) in D. lia.
Qed.

(** ** Concrete cases *)
Definition demo_config (date : option (Z -> string)) (unit : time_unit) (interval time_interval batch : nat) : out_config :=
  OutConfig "output" None "dam" date unit 9 OUTPUT_XDMF interval time_interval SECONDS batch ["Height"; "Height_Mean"].
Definition demo_step (n : nat) (t dt h : R) (again : list R) : seen := Seen (MonCall n t dt [h; 0; 0]%R [h; 0; 0]%R [0; 0; 0]%R) again.
Definition no_files : files := fun _ => None.
Definition plain_mesh : amr_state := Amr false 0 0.
Lemma short_small s : s <= 9 -> short_number s.
Proof.
  intros Hs m Hm. assert (m <= 9) as H by lia. clear Hs Hm.
  do 10 (destruct m as [|m]; [vm_compute; lia|]). lia.
Qed.
Lemma demo_ok date unit interval time_interval batch : 0 < interval -> 0 < batch ->
  (forall d s, date = Some d -> String.length (d s) <= 40 /\ no_sep (d s) = true) ->
  xdmf_ok (demo_config date unit interval time_interval batch) "output" 0.
Proof.
  intros Hi Hb Hd. constructor; simpl; auto.
  - lia.
  - apply short_small. vm_compute. lia.
  - vm_compute. discriminate.
  - intros f [<-|[<-|[]]]; reflexivity.
  - lia.
Qed.
Lemma no_files_usable oc dir : usable oc dir no_files.
Proof. intros s t n _. now left. Qed.
Lemma demo_fits run : StronglySorted earlier (steps_of run) ->
  (forall s, In s run -> exists n t dt h again, s = demo_step n t dt h again /\ n <= 9 /\ (0 <= t)%R /\ (0 < dt)%R) ->
  run_fits plain_mesh 3 1 run.
Proof.
  intros S H.
  assert (H' : forall c, In c (steps_of run) -> exists s, In s run /\ c = sn_call s).
  { intros c Hc. apply in_map_iff in Hc. destruct Hc as (s & <- & Hs). eauto. }
  constructor.
  - constructor; [exact S | | |]; intros c Hc; destruct (H' c Hc) as (s & Hs & ->); destruct (H s Hs) as (n & t & dt & h & a & -> & ? & ? & ?); simpl; auto.
  - intros s Hs. destruct (H s Hs) as (n & t & dt & h & a & -> & ? & ? & ?). now apply short_small.
  - apply short_small. simpl. lia.
Qed.
(* output every two steps, two outputs to a file; the solver's monitors run again after step 2 *)
Definition demo_run : list seen :=
  [demo_step 0 0 1 1 []; demo_step 1 1 1 2 []; demo_step 2 4 3 4 [1/2]%R; demo_step 3 5 1 3 []; demo_step 4 6 1 6 []].
Lemma demo_run_fits : run_fits plain_mesh 3 1 demo_run.
Proof.
  apply demo_fits.
  - repeat constructor; simpl; try lia; lra.
  - intros s [<-|[<-|[<-|[<-|[<-|[]]]]]]; do 5 eexists; (split; [reflexivity|]); (split; [lia|]); lra.
Qed.
Example C37_each_step_counted_once_applies :
  let oc := demo_config None SECONDS 2 0 2 in
  exists st, monitors oc "output" (history (firstn 3 demo_run)) (Ret (init_output 0 0 1 true no_files plain_mesh)) = Ret st /\
    read (os_files st) "output/dam-0.h5" (2, 4%R) "Height_Mean" = Some [(7 / 2)%R] /\
    read (os_files st) "output/dam-0.h5" (2, 4%R) "Height" = Some [4%R].
Proof.
  intros oc. pose proof (demo_ok None SECONDS 2 0 2 ltac:(lia) ltac:(lia) ltac:(discriminate)) as OK. fold oc in OK.
  assert (O : output_at oc [demo_step 0 0 1 1 []] [demo_step 1 1 1 2 []] (demo_step 2 4 3 4 [1/2]%R)).
  { constructor; [right; exists [], (demo_step 0 0 1 1 []); split; reflexivity | intros s [<-|[]]; reflexivity | reflexivity]. }
  assert (R : run_fits plain_mesh 3 1 (firstn 3 demo_run)).
  { apply demo_fits.
    - repeat constructor; simpl; try lia; lra.
    - intros s [<-|[<-|[<-|[]]]]; do 5 eexists; (split; [reflexivity|]); (split; [lia|]); lra. }
  destruct (C37_each_step_counted_once oc "output" 0 0 1 true no_files plain_mesh [demo_step 0 0 1 1 []] [demo_step 1 1 1 2 []] (demo_step 2 4 3 4 [1/2]%R) OK (no_files_usable _ _) R O) as (st & name & A & B & C).
  destruct (output_contents oc "output" 0 0 1 true no_files plain_mesh [demo_step 0 0 1 1 []] [demo_step 1 1 1 2 []] (demo_step 2 4 3 4 [1/2]%R) OK (no_files_usable _ _) R O) as (st' & name' & A' & B' & C').
  exists st. split; [exact A|]. rewrite A in A'. injection A' as <-.
  assert (name = "output/dam-0.h5") as -> by (vm_compute in B; now injection B). assert (name' = "output/dam-0.h5") as -> by (vm_compute in B'; now injection B').
  split.
  - etransitivity; [apply (C "Height_Mean" Solution 0); simpl; auto|]. simpl. unfold weighted. simpl. do 2 f_equal. field.
  - etransitivity; [apply (C' "Height" (Now, Solution, 0)); simpl; auto|]. reflexivity.
Qed.
Example C58_requested_fields_written_applies : forall classes i, i < classes -> classes <= 5 ->
  valid_field classes ("SedimentConcentration" ++ dec i) = true /\ valid_field 2 "SedimentConcentration2" = false.
Proof.
  intros classes i Hi Hc. split; [|reflexivity]. apply C58_valid_fields. unfold field_table. rewrite map_app. apply in_or_app. right.
  apply in_map_iff. exists (("SedimentConcentration" ++ dec i)%string, (Now, Primitive, 3 + i)). split; [reflexivity|].
  apply in_flat_map. exists i. split; [apply in_seq; lia | simpl; auto].
Qed.
Example C38_outputs_kept_applies :
  let oc := demo_config None SECONDS 2 0 2 in
  exists st, monitors oc "output" (history demo_run) (Ret (init_output 0 0 1 true no_files plain_mesh)) = Ret st /\
    groups (os_files st) "output/dam-0.h5" = Some [(0, 0%R); (2, 4%R)] /\
    groups (os_files st) "output/dam-1.h5" = Some [(4, 6%R)] /\
    read (os_files st) "output/dam-1.h5" (4, 6%R) "Height_Mean" = Some [(9 / 2)%R].
Proof.
  intros oc. pose proof (demo_ok None SECONDS 2 0 2 ltac:(lia) ltac:(lia) ltac:(discriminate)) as OK. fold oc in OK.
  destruct (C38_outputs_kept_partial oc "output" 0 0 1 true no_files plain_mesh demo_run OK eq_refl eq_refl (no_files_usable _ _) demo_run_fits eq_refl ltac:(discriminate)) as (st & A & B).
  exists st. split; [exact A|].
  destruct (B [demo_step 0 0 1 1 []] [demo_step 1 1 1 2 []] (demo_step 2 4 3 4 [1/2]%R) _ eq_refl) as (h & x & xm & N & _ & G & _).
  { constructor; [right; exists [], (demo_step 0 0 1 1 []); split; reflexivity | intros s [<-|[]]; reflexivity | reflexivity]. }
  destruct (B (firstn 3 demo_run) [demo_step 3 5 1 3 []] (demo_step 4 6 1 6 []) [] eq_refl) as (h' & x' & xm' & N' & _ & G' & V & _).
  { constructor; [right; exists (firstn 2 demo_run), (demo_step 2 4 3 4 [1/2]%R); split; reflexivity | intros s [<-|[]]; reflexivity | reflexivity]. }
  assert (h = "output/dam-0.h5") as -> by (vm_compute in N; now injection N). assert (h' = "output/dam-1.h5") as -> by (vm_compute in N'; now injection N').
  split; [exact G|]. split; [exact G'|].
  etransitivity; [apply (V "Height_Mean" (Mean, Solution, 0)); simpl; auto|]. unfold shown. simpl. unfold weighted. simpl. do 2 f_equal. field.
Qed.
Example C38_time_interval_outputs_applies :
  time_due (demo_config None SECONDS 1 2 1) 6 = true /\ time_due (demo_config None SECONDS 1 2 1) 5 = false.
Proof.
  assert (HE : (0 < DBL_EPSILON < 1/1000)%R).
  { unfold DBL_EPSILON. split; [apply Rinv_0_lt_compat, pow_lt; lra|].
    assert (2 ^ 10 <= 2 ^ 52)%R by (apply Rle_pow; [lra | lia]). assert (1000 < 2 ^ 52)%R by lra. apply Rmult_lt_reg_r with (2 ^ 52)%R; [lra|]. rewrite Rinv_l by lra. lra. }
  assert (Hi : (10 * DBL_EPSILON < ConvertTimeToSeconds (INR 2) SECONDS)%R) by (simpl; lra).
  split.
  - apply C38_time_interval_outputs; [simpl; lia | lra | exact Hi |]. exists 3. simpl. replace (6 - _)%R with 0%R by ring. rewrite Rabs_R0. lra.
  - destruct (time_due _ 5) eqn:E; [|reflexivity]. apply C38_time_interval_outputs in E; [|simpl; lia | lra | exact Hi]. exfalso.
    destruct E as [k E]. simpl in E. apply Rabs_def2 in E. destruct (Nat.le_gt_cases k 2) as [L|L].
    + apply le_INR in L. simpl in L. lra.
    + apply (le_INR 3) in L. simpl in L. lra.
Qed.

(** ** What fails *)
(* With a final time that the step does not divide, the solver shortens the last steps (4, 3 and 3 s here) but the
   averages weigh them all with the configured 4 s: they are not averages over time. *)
Theorem C37_time_average_refuted :
  exists oc dir before since last times,
    xdmf_ok oc dir 0 /\ run_fits plain_mesh 3 1 (before ++ since ++ [last]) /\ output_at oc before since last /\
    (* the times are those of a run to 10 s with steps of 4 s *)
    times = map (fun s => mc_time (sn_call s)) (before ++ since ++ [last]) /\
    (forall i t t', nth_error times i = Some t -> nth_error times (S i) = Some t' -> t' = t + petsc_pick 4 (10 - t))%R /\
    (forall s, In s (before ++ since ++ [last]) -> mc_dt (sn_call s) = 4%R) /\
    forall ceed, exists st name v, monitors oc dir (history (before ++ since ++ [last])) (Ret (init_output 0 0 1 ceed no_files plain_mesh)) = Ret st /\
      read (os_files st) name (mc_step (sn_call last), mc_time (sn_call last)) "Height_Mean" = Some [v] /\
      (* the depth is 1 m over the first step and 0 over the two others, the average is 0.4 m *)
      map (fun s => mc_u (sn_call s)) (since ++ [last]) = [[1; 0; 0]; [0; 0; 0]; [0; 0; 0]]%R /\
      v <> ((4 * 1 + 3 * 0 + 3 * 0) / 10)%R.
Proof.
  set (oc := demo_config None SECONDS 3 0 1).
  exists oc, "output", [demo_step 0 0 4 0 []], [demo_step 1 4 4 1 []; demo_step 2 7 4 0 []], (demo_step 3 10 4 0 []), [0; 4; 7; 10]%R.
  pose proof (demo_ok None SECONDS 3 0 1 ltac:(lia) ltac:(lia) ltac:(discriminate)) as OK. fold oc in OK.
  split; [exact OK|].
  match goal with |- ?A /\ _ => assert (R : A) end.
  { apply demo_fits.
    - repeat constructor; simpl; try lia; lra.
    - intros s [<-|[<-|[<-|[<-|[]]]]]; do 5 eexists; (split; [reflexivity|]); (split; [lia|]); lra. }
  split; [exact R|].
  match goal with |- ?A /\ _ => assert (O : A) end.
  { constructor; [right; exists [], (demo_step 0 0 4 0 []); split; reflexivity | intros s [<-|[<-|[]]]; reflexivity | reflexivity]. }
  split; [exact O|]. split; [reflexivity|]. split.
  { intros i t t' H1 H2. unfold petsc_pick.
    destruct i as [|[|[|[|i]]]]; simpl in H1, H2; try discriminate; injection H1 as <-; injection H2 as <-.
    - unfold Rleb, Rltb. destruct (Rle_dec (10 - 0) (4 * (101/100))); [lra|]. destruct (Rlt_dec (10 - 0) (2 * 4)); lra.
    - unfold Rleb, Rltb. destruct (Rle_dec (10 - 4) (4 * (101/100))); [lra|]. destruct (Rlt_dec (10 - 4) (2 * 4)); lra.
    - unfold Rleb, Rltb. destruct (Rle_dec (10 - 7) (4 * (101/100))); lra. }
  split; [intros s [<-|[<-|[<-|[<-|[]]]]]; reflexivity|].
  intros ceed. destruct (C37_each_step_counted_once oc "output" 0 0 1 ceed no_files plain_mesh [demo_step 0 0 4 0 []] [demo_step 1 4 4 1 []; demo_step 2 7 4 0 []] (demo_step 3 10 4 0 []) OK (no_files_usable _ _) R O) as (st & name & A & B & C).
  exists st, name, (1/3)%R. split; [exact A|]. split.
  { etransitivity; [apply (C "Height_Mean" Solution 0); simpl; auto|]. simpl. unfold weighted. simpl. do 2 f_equal. field. }
  split; [reflexivity | lra].
Qed.
Print Assumptions C37_time_average_refuted.

(* two outputs to the same data file, the second of which does not append: the first is gone *)
Lemma overwritten oc dir a b ceed : xdmf_ok oc dir 0 -> run_fits plain_mesh 3 1 [a; b] -> is_due oc a = true -> is_due oc b = true ->
  h5_of oc dir (mc_step (sn_call a)) (out_time oc (sn_call a)) = h5_of oc dir (mc_step (sn_call b)) (out_time oc (sn_call b)) ->
  appends oc (mc_step (sn_call b)) = false ->
  exists st name, monitors oc dir (history [a; b]) (Ret (init_output 0 0 1 ceed no_files plain_mesh)) = Ret st /\
    DetermineOutputFile oc dir (mc_step (sn_call a)) (out_time oc (sn_call a)) "h5" = Ret name /\
    groups (os_files st) name = Some [(mc_step (sn_call b), out_time oc (sn_call b))].
Proof.
  intros OK R Da Db H App.
  assert (Ha : short_number (mc_step (sn_call a))) by (apply (rf_short _ _ _ _ R); simpl; auto).
  assert (Hb : short_number (mc_step (sn_call b))) by (apply (rf_short _ _ _ _ R); simpl; auto).
  assert (Ho : outputs oc [] (steps_of [a; b]) = [([], sn_call a); ([], sn_call b)]).
  { simpl. unfold is_due in Da, Db. rewrite Da, Db. reflexivity. }
  destruct (emit_effect oc dir 0 OK no_files plain_mesh (mc_step (sn_call a)) (out_time oc (sn_call a)) (written oc 0 0 1 [] (sn_call a)) Ha (rf_amr _ _ _ _ R)) as (f1 & E1 & _).
  { now left. }
  pose proof (emit_slots oc dir 0 OK _ _ _ _ _ _ _ Ha (rf_amr _ _ _ _ R) (usable_slots oc dir 0 OK _ (no_files_usable _ _)) E1) as (S1 & S2 & S3).
  assert (Hr : short_number (amr_refinements (next_amr plain_mesh (mc_step (sn_call a))))) by (rewrite S2 || rewrite S3; apply (rf_amr _ _ _ _ R)).
  destruct (emit_effect oc dir 0 OK f1 (next_amr plain_mesh (mc_step (sn_call a))) (mc_step (sn_call b)) (out_time oc (sn_call b)) (written oc 0 0 1 [] (sn_call b)) Hb Hr (S1 _ _ Hb)) as (f2 & E2 & F2 & _).
  edestruct (monitors_run oc dir 0 0 1 OK [a; b] ceed no_files plain_mesh f2) as (st & M & F & _); [apply (rf_ok _ _ _ _ R) | |].
  { rewrite Ho. unfold emits. cbn [fold_left emit_one rbind fst snd]. rewrite E1. unfold emit_one. cbn [rbind fst snd]. rewrite E2. reflexivity. }
  exists st, (h5_of oc dir (mc_step (sn_call a)) (out_time oc (sn_call a))).
  split; [exact M|]. split; [now apply (h5_name oc dir 0)|]. rewrite F, H. unfold groups. rewrite F2. unfold prior. rewrite App. reflexivity.
Qed.
(* An output due by time inside a batch counted by steps recreates the data file. *)
Theorem C38_time_interval_refuted :
  exists oc dir a b, xdmf_ok oc dir 0 /\ run_fits plain_mesh 3 1 [a; b] /\ is_due oc a = true /\ is_due oc b = true /\
    forall ceed, exists st name, monitors oc dir (history [a; b]) (Ret (init_output 0 0 1 ceed no_files plain_mesh)) = Ret st /\
      DetermineOutputFile oc dir (mc_step (sn_call a)) (ConvertTimeFromSeconds (mc_time (sn_call a)) (oc_unit oc)) "h5" = Ret name /\
      groups (os_files st) name = Some [(mc_step (sn_call b), ConvertTimeFromSeconds (mc_time (sn_call b)) (oc_unit oc))] /\
      mc_step (sn_call a) <> mc_step (sn_call b).
Proof.
  set (oc := demo_config None SECONDS 10 2 2).
  exists oc, "output", (demo_step 0 0 2 1 []), (demo_step 1 2 2 3 []).
  assert (OK : xdmf_ok oc "output" 0) by (apply demo_ok; try lia; discriminate). split; [exact OK|].
  match goal with |- ?A /\ _ => assert (R : A) end.
  { apply demo_fits.
    - repeat constructor; simpl; try lia; lra.
    - intros s [<-|[<-|[]]]; do 5 eexists; (split; [reflexivity|]); (split; [lia|]); lra. }
  split; [exact R|].
  assert (D : is_due oc (demo_step 1 2 2 3 []) = true).
  { unfold is_due, due. apply orb_true_iff. left. simpl sn_call. cbn [mc_time].
    assert (HE : (0 < DBL_EPSILON < 1/1000)%R).
    { unfold DBL_EPSILON. split; [apply Rinv_0_lt_compat, pow_lt; lra|].
      assert (2 ^ 10 <= 2 ^ 52)%R by (apply Rle_pow; [lra | lia]). assert (1000 < 2 ^ 52)%R by lra. apply Rmult_lt_reg_r with (2 ^ 52)%R; [lra|]. rewrite Rinv_l by lra. lra. }
    apply C38_time_interval_outputs; [simpl; lia | lra | simpl; lra |]. exists 1. simpl. replace (2 - _)%R with 0%R by ring. rewrite Rabs_R0. lra. }
  assert (D0 : is_due oc (demo_step 0 0 2 1 []) = true) by (unfold is_due, due; apply orb_true_iff; right; reflexivity).
  split; [exact D0|]. split; [exact D|]. intros ceed.
  destruct (overwritten oc "output" _ _ ceed OK R D0 D eq_refl eq_refl) as (st & name & A & B & C).
  exists st, name. split; [exact A|]. split; [exact B|]. split; [exact C | simpl; lia].
Qed.
Print Assumptions C38_time_interval_refuted.
(* With a date, outputs are named by the whole number of time units: with hours, two outputs half an hour apart share
   their files, whatever the date. *)
Theorem C38_dates_refuted :
  forall date, (forall s, String.length (date s) <= 40 /\ no_sep (date s) = true) ->
  exists oc dir a b, oc_date oc = Some date /\ oc_unit oc = HOURS /\ xdmf_ok oc dir 0 /\ run_fits plain_mesh 3 1 [a; b] /\ is_due oc a = true /\ is_due oc b = true /\
    forall ceed, exists st name, monitors oc dir (history [a; b]) (Ret (init_output 0 0 1 ceed no_files plain_mesh)) = Ret st /\
      DetermineOutputFile oc dir (mc_step (sn_call a)) (ConvertTimeFromSeconds (mc_time (sn_call a)) (oc_unit oc)) "h5" = Ret name /\
      groups (os_files st) name = Some [(mc_step (sn_call b), ConvertTimeFromSeconds (mc_time (sn_call b)) (oc_unit oc))] /\
      mc_step (sn_call a) <> mc_step (sn_call b).
Proof.
  intros date Hd. set (oc := demo_config (Some date) HOURS 1 0 1).
  exists oc, "output", (demo_step 0 0 1800 1 []), (demo_step 1 1800 1800 3 []). split; [reflexivity|]. split; [reflexivity|].
  assert (OK : xdmf_ok oc "output" 0) by (apply demo_ok; try lia; intros d s [= <-]; apply Hd). split; [exact OK|].
  match goal with |- ?A /\ _ => assert (R : A) end.
  { apply demo_fits.
    - repeat constructor; simpl; try lia; lra.
    - intros s [<-|[<-|[]]]; do 5 eexists; (split; [reflexivity|]); (split; [lia|]); lra. }
  split; [exact R|]. split; [reflexivity|]. split; [reflexivity|]. intros ceed.
  destruct (overwritten oc "output" _ _ ceed OK R eq_refl eq_refl) as (st & name & A & B & C); [|reflexivity|].
  { unfold h5_of, h5_tail, tail_of. cbn [oc_batch oc oc_date demo_config Nat.eqb].
    assert (I0 : Int_part (out_time oc (sn_call (demo_step 0 0 1800 1 []))) = 0%Z) by (apply Int_part_zero; unfold out_time; simpl; unfold mins_in_hr, secs_in_min; lra).
    assert (I1 : Int_part (out_time oc (sn_call (demo_step 1 1800 1800 3 []))) = 0%Z) by (apply Int_part_zero; unfold out_time; simpl; unfold mins_in_hr, secs_in_min; lra).
    unfold tail_of. rewrite I0, I1. reflexivity. }
  exists st, name. split; [exact A|]. split; [exact B|]. split; [exact C | simpl; lia].
Qed.
Print Assumptions C38_dates_refuted.
(* A configuration with a time interval and no step interval is accepted but divides by the step interval. *)
Theorem C38_no_step_interval_refuted :
  exists oc, oc_format oc = OUTPUT_XDMF /\ oc_interval oc = 0 /\ 0 < oc_time_interval oc /\
    forall dir fs ceed, monitors oc dir [MonCall 0 0 1 [1; 0; 0] [1; 0; 0] [0; 0; 0]]%R (Ret (init_output 0 0 1 ceed fs plain_mesh)) = UB.
Proof.
  exists (OutConfig "output" None "dam" None SECONDS 9 OUTPUT_XDMF 0 1 SECONDS 1 []).
  split; [reflexivity|]. split; [reflexivity|]. split; [simpl; lia|].
  intros dir fs ceed. unfold monitors. cbn [fold_left rbind]. unfold WriteXDMFOutput. cbn [mc_time].
  assert (D : forall oc, 0 < oc_time_interval oc -> due oc 0 0 = true).
  { intros oc Hi. unfold due, time_due. rewrite (proj2 (Nat.ltb_lt _ _) Hi). unfold fmod.
    replace (Int_part (0 / _)) with 0%Z by (symmetry; apply Int_part_zero; unfold Rdiv; rewrite Rmult_0_l; simpl; lra).
    replace (0 - _ * 0)%R with 0%R by ring. rewrite Rabs_R0.
    assert (HE : (0 < 10 * DBL_EPSILON)%R) by (unfold DBL_EPSILON; apply Rmult_lt_0_compat; [lra | apply Rinv_0_lt_compat, pow_lt; lra]).
    rewrite (proj2 (Rltb_true _ _) HE). reflexivity. }
  assert (N : Reqb 0 (-1) = false) by (unfold Reqb; destruct (Req_EM_T 0 (-1)); [lra | reflexivity]).
  cbn [os_prev with_vars init_output]. rewrite N. cbn [mc_step os_last with_vars init_output]. rewrite D by (simpl; lia). destruct ceed; reflexivity.
Qed.
Print Assumptions C38_no_step_interval_refuted.
(* The number of digits of the file names comes from the number of steps: with none, it is undefined. *)
Theorem C38_no_steps_refuted :
  exists oc, oc_format oc = OUTPUT_XDMF /\ 0 < oc_interval oc /\ 0 < oc_batch oc /\ oc_date oc = None /\ oc_stop_n oc = 0%Z /\
    forall dir step t, DetermineOutputFile oc dir step t "xmf" = UB.
Proof.
  exists (OutConfig "output" None "dam" None SECONDS 0 OUTPUT_XDMF 1 0 SECONDS 1 []). simpl.
  repeat split; lia || (intros; reflexivity).
Qed.
Print Assumptions C38_no_steps_refuted.
(* The directory is kept for the life of the process: a second simulation writes into the directory of the first, and
   with the same prefix and steps over its files. *)
Theorem C38_second_simulation_refuted :
  exists first second, oc_directory first <> oc_directory second /\
    let (dir1, cache) := GetOutputDirectory "" first in
    let (dir2, _) := GetOutputDirectory cache second in
    dir1 = oc_directory first /\ dir2 = oc_directory first /\
    (forall step t suffix, DetermineOutputFile first dir1 step t suffix = DetermineOutputFile second dir2 step t suffix).
Proof.
  exists (OutConfig "run1" None "dam" None SECONDS 9 OUTPUT_XDMF 1 0 SECONDS 1 []), (OutConfig "run2" None "dam" None SECONDS 9 OUTPUT_XDMF 1 0 SECONDS 1 []).
  split; [discriminate|]. vm_compute GetOutputDirectory. split; [reflexivity|]. split; reflexivity.
Qed.
Print Assumptions C38_second_simulation_refuted.
(* The grid is written at step 0 only: the visualization files of a run restarted in a new directory refer to a grid
   file that does not exist. *)
Theorem C38_restart_grid_refuted :
  exists oc dir s, xdmf_ok oc dir 0 /\ run_fits plain_mesh 3 1 [s] /\ is_due oc s = true /\
    forall ceed, exists st name x, monitors oc dir (history [s]) (Ret (init_output 0 0 1 ceed no_files plain_mesh)) = Ret st /\
      DetermineOutputFile oc dir (mc_step (sn_call s)) (ConvertTimeFromSeconds (mc_time (sn_call s)) (oc_unit oc)) "xmf" = Ret name /\
      os_files st name = Some (Light x) /\ os_files st (dirname name ++ xm_grid x) = None.
Proof.
  set (oc := demo_config None SECONDS 2 0 1). exists oc, "output", (demo_step 2 8 4 1 []).
  assert (OK : xdmf_ok oc "output" 0) by (apply demo_ok; try lia; discriminate). split; [exact OK|].
  match goal with |- ?A /\ _ => assert (R : A) end.
  { apply demo_fits.
    - repeat constructor; simpl; try lia; lra.
    - intros s [<-|[]]; do 5 eexists; (split; [reflexivity|]); (split; [lia|]); lra. }
  split; [exact R|]. split; [reflexivity|]. intros ceed.
  assert (Hs : short_number 2) by (apply short_small; lia).
  set (s := demo_step 2 8 4 1 []) in *. set (t := out_time oc (sn_call s)).
  destruct (emit_effect oc "output" 0 OK no_files plain_mesh 2 t (written oc 0 0 1 [] (sn_call s)) Hs (rf_amr _ _ _ _ R) (or_introl eq_refl)) as (f1 & E1 & E2 & E3 & _ & E5).
  destruct (monitors_run oc "output" 0 0 1 OK [s] ceed no_files plain_mesh f1 (next_amr plain_mesh 2)) as (st & M & F & _); [apply (rf_ok _ _ _ _ R) | |].
  { unfold emits. change (outputs oc [] (steps_of [s])) with [(@nil mon_call, sn_call s)]. cbn [fold_left emit_one rbind fst snd]. exact E1. }
  exists st, (xmf_of oc "output" 2 t), (Xmf (basename (grid_of oc "output" plain_mesh)) (map (fun n => (basename (h5_of oc "output" 2 t), (2, t), n)) (map fst (written oc 0 0 1 [] (sn_call s))))).
  split; [exact M|]. split; [now apply (xmf_name oc "output" 0)|]. rewrite F. split; [exact E3|]. cbn [xm_grid].
  unfold xmf_of at 1, grid_of at 1. rewrite resolve_sibling; [| now apply (tail_no_slash oc "output" 0) | apply grid_tail_no_slash].
  fold (grid_of oc "output" plain_mesh). rewrite E5; [reflexivity | | apply grid_not_xmf | now left].
  intros H. symmetry in H. now apply h5_not_grid in H.
Qed.
Print Assumptions C38_restart_grid_refuted.
