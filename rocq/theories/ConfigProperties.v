(** C42: what an accepted configuration guarantees. *)
From Verif Require Import Base RoeModel EdgeModel SetupModel TimeModel TimeProperties OutputModel ConfigModel.
From Coq Require Import ZArith String.
Local Open Scope R_scope.
Local Notation length := List.length.

(** ** Inversion *)
Lemma check_Ret {A} b (k : result A) a : check b k = Ret a -> b = true /\ k = Ret a.
Proof. unfold check. destruct b; [auto|discriminate]. Qed.
Lemma rbind_Ret {A B} (x : result A) (f : A -> result B) b : rbind x f = Ret b -> exists a, x = Ret a /\ f a = Ret b.
Proof. destruct x; cbn; [eauto|discriminate|discriminate]. Qed.
Ltac checks := repeat match goal with
  | H : check _ _ = Ret _ |- _ => apply check_Ret in H; destruct H as (? & H)
  | H : rbind _ _ = Ret _ |- _ => apply rbind_Ret in H; destruct H as (? & ? & H)
  end.
Lemma invalid_neg : INVALID_REAL < -1.
Proof. unfold INVALID_REAL. apply IZR_lt. reflexivity. Qed.
Lemma Reqb_false x y : x <> y -> Reqb x y = false.
Proof. unfold Reqb. destruct (Req_EM_T x y); [contradiction|reflexivity]. Qed.
Lemma Reqb_true x y : Reqb x y = true -> x = y.
Proof. unfold Reqb. destruct (Req_EM_T x y); [auto|discriminate]. Qed.
Lemma Reqb_false_inv x y : Reqb x y = false -> x <> y.
Proof. unfold Reqb. destruct (Req_EM_T x y); [discriminate|auto]. Qed.
Lemma Reqb_refl x : Reqb x x = true.
Proof. unfold Reqb. destruct (Req_EM_T x x); [reflexivity|contradiction]. Qed.
Lemma missing_real_given x v : x <> 0 -> missing_real x v = x.
Proof. unfold missing_real. destruct (Req_EM_T x 0); [contradiction|reflexivity]. Qed.
Lemma missing_real_0 v : missing_real 0 v = v.
Proof. unfold missing_real. destruct (Req_EM_T 0 0); [reflexivity|contradiction]. Qed.
Lemma missing_int_given x v : x <> 0%Z -> missing_int x v = x.
Proof. unfold missing_int. destruct (Z.eqb_spec x 0); [contradiction|reflexivity]. Qed.

(* the stages of an accepted configuration *)
Lemma accepted_stages ceed c c' : ReadConfig ceed c = Ret c' ->
  let d := SetMissingValues c in
  exists t1 t2 t3 spec, validate_physics ceed (fu_physics d) (fu_numerics d) = Ret tt /\ validate_numerics (fu_numerics d) (fu_grid d) = Ret tt /\
    validate_adaptive (fu_times d) = Ret t1 /\ complete t1 = Ret t2 /\ coupling t2 = Ret (t3, spec) /\
    validate_inputs (ph_classes (fu_physics d)) (fu_inputs d) = Ret tt /\
    validate_output (ph_classes (fu_physics d)) t3 spec (fu_output d) = Ret (fu_times c', fu_output c') /\
    fu_physics c' = fu_physics d /\ fu_numerics c' = fu_numerics d /\ fu_grid c' = fu_grid d /\ fu_inputs c' = fu_inputs d.
Proof.
  intros H. cbv zeta. unfold ReadConfig, ValidateConfig in H. cbv zeta in H.
  apply rbind_Ret in H. destruct H as ([] & E1 & H). apply rbind_Ret in H. destruct H as ([] & E2 & H).
  apply rbind_Ret in H. destruct H as (t1 & E3 & H). apply rbind_Ret in H. destruct H as (t2 & E4 & H).
  apply rbind_Ret in H. destruct H as ((t3, spec) & E5 & H). apply rbind_Ret in H. destruct H as ([] & E6 & H).
  apply rbind_Ret in H. destruct H as ((t', o') & E7 & H). injection H as <-. cbn [fst snd] in *. 
  exists t1, t2, t3, spec. cbn [fu_times fu_output fu_physics fu_numerics fu_grid fu_inputs]. repeat (split; [assumption|]). repeat split; reflexivity.
Qed.
(* the output section only changes the coupling interval *)
Lemma output_times classes t spec o t' o' : validate_output classes t spec o = Ret (t', o') ->
  (t' = t \/ (t' = set_coupling t (IZR (ou_time_interval o)) /\ spec = false /\ ou_time_interval o <> 0%Z)).
Proof.
  unfold validate_output. cbv zeta. destruct (negb (negb (format_none (ou_format o)) || (0 <? ou_interval o)%Z || (0 <? ou_time_interval o)%Z)) eqn:En.
  - intros [= <- _]. auto.
  - intros H. checks. injection H as -> <-.
    match goal with H : (if Z.eqb ?a 0 then Ret t else _) = Ret t' |- _ => rename H into Ht end.
    destruct (Z.eqb_spec (ou_time_interval o) 0) as [Z0|Z0]; [injection Ht as <-; auto|]. checks. injection Ht as <-. destruct spec; auto.
Qed.

(** ** C42: times *)
(* [n] whole steps of size [d] fit in [s] *)
Definition steps_in (s d : R) (n : Z) : Prop := (0 <= n)%Z /\ IZR n * d <= s < IZR (n + 1) * d.
Lemma trunc_steps s d n : 0 < s -> 0 < d -> to_int (s / d) = Ret n -> steps_in s d n.
Proof.
  intros Hs Hd. unfold to_int. assert (P : 0 < s / d) by (apply Rdiv_lt_0_compat; assumption).
  destruct (Rle_dec 0 (s / d)) as [_|N]; [|lra]. cbv zeta. destruct (_ && _)%bool; [|discriminate]. intros [= <-].
  destruct (base_Int_part (s / d)) as (L & U). unfold steps_in.
  split; [apply le_IZR; assert (IZR (-1) < IZR (Int_part (s / d))) by lra; apply IZR_le; apply lt_IZR in H; lia|].
  rewrite plus_IZR. assert (E : s / d * d = s) by (field; lra). rewrite <- E at 2 3. split; [apply Rmult_le_compat_r; lra|].
  apply Rmult_lt_compat_r; [lra|lra].
Qed.

Record times_given := Given { g_stop : bool; g_steps : bool; g_size : bool }.
Definition given (t : times) (g : times_given) : Prop :=
  (if g_stop g then 0 < tm_stop t else tm_stop t = 0) /\ (if g_steps g then (0 < tm_stop_n t)%Z else tm_stop_n t = 0%Z) /\ (if g_size g then 0 < tm_step t else tm_step t = 0).

Lemma accepted_times ceed c c' : ReadConfig ceed c = Ret c' ->
  exists t1 t2, validate_adaptive (fu_times (SetMissingValues c)) = Ret t1 /\ complete t1 = Ret t2 /\
    tm_stop (fu_times c') = tm_stop t2 /\ tm_stop_n (fu_times c') = tm_stop_n t2 /\ tm_step (fu_times c') = tm_step t2 /\ tm_unit (fu_times c') = tm_unit t2 /\ tm_adaptive (fu_times c') = tm_adaptive t2.
Proof.
  intros H. destruct (accepted_stages ceed c c' H) as (t1 & t2 & t3 & spec & _ & _ & E3 & E4 & E5 & _ & E7 & _). exists t1, t2. split; [exact E3|]. split; [exact E4|].
  assert (K : tm_stop t3 = tm_stop t2 /\ tm_stop_n t3 = tm_stop_n t2 /\ tm_step t3 = tm_step t2 /\ tm_unit t3 = tm_unit t2 /\ tm_adaptive t3 = tm_adaptive t2).
  { unfold coupling in E5. destruct (Reqb _ _); [injection E5 as <- _; repeat split; reflexivity|]. checks. match goal with H : Ret (_, _) = Ret (_, _) |- _ => injection H as -> _ end. repeat split. }
  destruct (output_times _ _ _ _ _ _ E7) as [->|(-> & _)]; exact K.
Qed.

(* With two of the three settings given, and positive, an accepted configuration has all three, they fit together, and
   what was given is unchanged.  With adaptive stepping, the other two cannot be given, and the step size is the
   initial one.  Partial: the checks do not ensure that two are given, nor that they are positive (see below). *)
Theorem C42_times_consistent_partial ceed c c' : ReadConfig ceed c = Ret c' ->
  let t := fu_times c in let t' := fu_times c' in
  (ad_enable (tm_adaptive t) = false ->
     (given t (Given true false true) -> tm_stop t' = tm_stop t /\ tm_step t' = tm_step t /\ steps_in (tm_stop t) (tm_step t) (tm_stop_n t')) /\
     (given t (Given false true true) -> tm_stop t' = IZR (tm_stop_n t) * tm_step t /\ tm_step t' = tm_step t /\ tm_stop_n t' = tm_stop_n t) /\
     (given t (Given true true false) -> tm_stop t' = tm_stop t /\ tm_stop_n t' = tm_stop_n t /\ IZR (tm_stop_n t) * tm_step t' = tm_stop t)) /\
  (ad_enable (tm_adaptive t) = true ->
     ~ (0 < tm_stop_n t)%Z /\ ~ 0 < tm_step t /\ tm_step t' = ad_initial (tm_adaptive t) /\ 0 < tm_step t' /\ 0 < ad_target (tm_adaptive t) < 1 /\ 1 < ad_factor (tm_adaptive t) /\
     (0 < tm_stop t -> tm_stop t' = tm_stop t /\ steps_in (tm_stop t) (tm_step t') (tm_stop_n t'))) /\
  tm_unit t' = tm_unit t /\ tm_adaptive t' = tm_adaptive t.
Proof.
  intros H. cbv zeta. destruct (accepted_times ceed c c' H) as (t1 & t2 & E1 & E2 & -> & -> & -> & -> & ->). clear H.
  set (t := fu_times c) in *. assert (I := invalid_neg).
  unfold SetMissingValues in E1. cbv zeta in E1. cbn [fu_times] in E1. fold t in E1. unfold validate_adaptive in E1. cbn [tm_adaptive tm_stop_n tm_step tm_date tm_unit tm_stop tm_coupling] in E1.
  apply check_Ret in E1. destruct E1 as (_ & E1).
  destruct (ad_enable (tm_adaptive t)) eqn:Ad.
  - (* adaptive *)
    checks. match goal with H : Reqb _ _ = true |- _ => apply Reqb_true in H; rename H into Hstep end. match goal with H : Z.eqb _ _ = true |- _ => apply Z.eqb_eq in H; rename H into Hn end.
    repeat match goal with H : Rltb _ _ = true |- _ => apply Rltb_true in H end.
    injection E1 as <-. unfold complete in E2. cbn [tm_stop tm_stop_n tm_step tm_date tm_unit tm_coupling tm_adaptive] in E2. apply check_Ret in E2. destruct E2 as (_ & E2).
    split; [discriminate|].
    assert (N1 : ~ (0 < tm_stop_n t)%Z) by (intros P; rewrite missing_int_given in Hn by lia; rewrite Hn in P; discriminate P).
    assert (N2 : ~ 0 < tm_step t) by (intros P; rewrite missing_real_given in Hstep by lra; lra).
    assert (K : tm_step t2 = ad_initial (tm_adaptive t) /\ tm_unit t2 = tm_unit t /\ tm_adaptive t2 = tm_adaptive t /\ (0 < tm_stop t -> tm_stop t2 = tm_stop t /\ steps_in (tm_stop t) (ad_initial (tm_adaptive t)) (tm_stop_n t2))).
    { destruct (Reqb (missing_real (tm_stop t) INVALID_REAL) INVALID_REAL) eqn:Es.
      - apply Reqb_true in Es. injection E2 as <-. cbn. repeat (split; [reflexivity|]). intros P. rewrite missing_real_given in Es by lra. lra.
      - rewrite Hn, Z.eqb_refl in E2. rewrite rdiv_some in E2 by lra. cbn [of_option rbind] in E2. checks. injection E2 as <-. cbn [tm_stop tm_stop_n tm_step tm_unit tm_adaptive]. repeat (split; [reflexivity|]).
        intros P. rewrite missing_real_given in * by lra. split; [reflexivity|]. apply trunc_steps; assumption. }
    destruct K as (-> & -> & -> & K). split; [|split; reflexivity]. intros _. repeat (split; [assumption|]). split; [reflexivity|]. split; [assumption|]. split; [split; assumption|]. split; [assumption|exact K].
  - (* fixed steps *)
    injection E1 as <-. unfold complete in E2. cbn [tm_stop tm_stop_n tm_step tm_date tm_unit tm_coupling tm_adaptive] in E2. apply check_Ret in E2. destruct E2 as (_ & E2).
    split; [|split; [discriminate|]].
    2:{ destruct (Reqb (missing_real (tm_stop t) INVALID_REAL) INVALID_REAL); [injection E2 as <-; split; reflexivity|]. destruct (Z.eqb _ _); checks; injection E2 as <-; split; reflexivity. }
    intros _. unfold given. cbn [g_stop g_steps g_size]. split; [|split].
    + intros (Hs & Hn & Hd). rewrite missing_real_given in E2 by lra. rewrite Reqb_false in E2 by lra. rewrite Hn in E2. change (missing_int 0 INVALID_INT) with INVALID_INT in E2. rewrite Z.eqb_refl in E2.
      rewrite missing_real_given in E2 by lra. rewrite rdiv_some in E2 by lra. cbn [of_option rbind] in E2. checks. injection E2 as <-. cbn [tm_stop tm_stop_n tm_step]. split; [reflexivity|]. split; [reflexivity|]. apply trunc_steps; assumption.
    + intros (Hs & Hn & Hd). rewrite Hs, missing_real_0, Reqb_refl in E2. injection E2 as <-. cbn [tm_stop tm_stop_n tm_step]. rewrite missing_int_given by lia. rewrite missing_real_given by lra. repeat split.
    + intros (Hs & Hn & Hd). rewrite missing_real_given in E2 by lra. rewrite Reqb_false in E2 by lra. rewrite missing_int_given in E2 by lia.
      destruct (Z.eqb_spec (tm_stop_n t) INVALID_INT) as [Q|_]; [rewrite Q in Hn; discriminate Hn|].
      assert (Hn' : 0 < IZR (tm_stop_n t)) by (apply IZR_lt; assumption). rewrite rdiv_some in E2 by lra. cbn [of_option rbind] in E2. injection E2 as <-. cbn [tm_stop tm_stop_n tm_step]. split; [reflexivity|]. split; [reflexivity|]. field. lra.
Qed.
Print Assumptions C42_times_consistent_partial.

(** ** C42: coupling interval *)
Lemma accepted_coupling ceed c c' : ReadConfig ceed c = Ret c' ->
  let t := fu_times c in let t' := fu_times c' in let k := missing_real (tm_coupling t) INVALID_REAL in
  (k <> INVALID_REAL -> tm_coupling t' = k /\ 0 < k <= tm_stop t') /\
  (k = INVALID_REAL -> tm_coupling t' = tm_stop t' \/ (ou_time_interval (fu_output c) <> 0%Z /\ tm_coupling t' = IZR (ou_time_interval (fu_output c)))).
Proof.
  intros H. cbv zeta. destruct (accepted_stages ceed c c' H) as (t1 & t2 & t3 & spec & _ & _ & E3 & E4 & E5 & _ & E7 & _).
  assert (K2 : tm_coupling t2 = missing_real (tm_coupling (fu_times c)) INVALID_REAL).
  { assert (K1 : tm_coupling t1 = missing_real (tm_coupling (fu_times c)) INVALID_REAL).
    { unfold validate_adaptive, SetMissingValues in E3. cbv zeta in E3. cbn [fu_times tm_adaptive] in E3. apply check_Ret in E3. destruct E3 as (_ & E3). destruct (ad_enable _); [checks|]; injection E3 as <-; reflexivity. }
    rewrite <- K1. unfold complete in E4. apply check_Ret in E4. destruct E4 as (_ & E4). destruct (Reqb _ _); [injection E4 as <-; reflexivity|]. destruct (Z.eqb _ _); checks; injection E4 as <-; reflexivity. }
  unfold coupling in E5. rewrite <- K2. destruct (Reqb (tm_coupling t2) INVALID_REAL) eqn:Ek.
  - apply Reqb_true in Ek. injection E5 as <- <-. split; [contradiction|]. intros _.
    destruct (output_times _ _ _ _ _ _ E7) as [->|(-> & _ & N)]; [left; reflexivity|right; split; [exact N|reflexivity]].
  - apply Reqb_false_inv in Ek. split; [|intros Q; contradiction]. intros _. checks. injection E5 as <- <-.
    destruct (output_times _ _ _ _ _ _ E7) as [->|(_ & F & _)]; [|discriminate F]. rewrite Rltb_true, Rleb_true in *. auto.
Qed.
(* The coupling interval of an accepted configuration: the one given (positive and not longer than the run), else the
   whole run; when output is requested by time and no coupling interval is given, the number of output.time_interval. *)
Theorem C42_coupling_interval ceed c c' : ReadConfig ceed c = Ret c' -> let t := fu_times c in let t' := fu_times c' in
  (0 < tm_coupling t -> tm_coupling t' = tm_coupling t /\ tm_coupling t' <= tm_stop t') /\
  (tm_coupling t = 0 -> ou_time_interval (fu_output c) = 0%Z -> tm_coupling t' = tm_stop t') /\
  (tm_coupling t = 0 -> ou_time_interval (fu_output c) <> 0%Z -> tm_coupling t' = tm_stop t' \/ tm_coupling t' = IZR (ou_time_interval (fu_output c))).
Proof.
  intros H. cbv zeta. destruct (accepted_coupling ceed c c' H) as (A & B). assert (I := invalid_neg). split; [|split].
  - intros P. rewrite missing_real_given in A by lra. destruct A as (A1 & A2); [lra|]. split; [exact A1|]. rewrite A1. lra.
  - intros Z0 N. rewrite Z0, missing_real_0 in B. destruct (B eq_refl) as [E|(E & _)]; [exact E|contradiction].
  - intros Z0 N. rewrite Z0, missing_real_0 in B. destruct (B eq_refl) as [E|(_ & E)]; auto.
Qed.
Print Assumptions C42_coupling_interval.

(** ** C42: output *)
Theorem C42_output_consistent ceed c c' : ReadConfig ceed c = Ret c' -> let o := fu_output c in let o' := fu_output c' in let t' := fu_times c' in
  (* output is on exactly if a format or an interval was given *)
  (ou_enable o' = true <-> ou_format o <> OUTPUT_NONE \/ (0 < ou_interval o)%Z \/ (0 < ou_time_interval o)%Z) /\
  ou_format o' = ou_format o /\ ou_interval o' = ou_interval o /\ ou_time_interval o' = ou_time_interval o /\ ou_time_unit o' = ou_time_unit o /\
  (ou_enable o' = true ->
     ou_format o' <> OUTPUT_NONE /\ (0 <= ou_interval o')%Z /\ (0 <= ou_time_interval o')%Z /\ (0 < ou_interval o' \/ 0 < ou_time_interval o')%Z /\
     (ou_format o' = OUTPUT_BINARY -> ou_batch o' = 0%Z) /\ (ou_format o' <> OUTPUT_BINARY -> ou_batch o' <> 0%Z) /\ (ou_batch o <> 0%Z -> ou_batch o' = ou_batch o) /\
     (* every requested field exists; without a request, the three flow variables *)
     (forall f, In f (ou_fields o') -> valid_field (Z.to_nat (ph_classes (fu_physics c'))) f = true) /\
     (ou_fields o <> [] -> ou_fields o' = ou_fields o) /\ (ou_fields o = [] -> ou_fields o' = ["Height"; "MomentumX"; "MomentumY"]%string) /\
     (* output by time: a whole number of coupling intervals, up to 1e-10 s *)
     ((0 < ou_time_interval o')%Z -> ou_time_unit o' <> UNSET /\
        (0 < ConvertTimeToSeconds (tm_coupling t') (tm_unit t') ->
         exists k : Z, (1 <= k)%Z /\ Rabs (IZR k * ConvertTimeToSeconds (tm_coupling t') (tm_unit t') - ConvertTimeToSeconds (IZR (ou_time_interval o')) (ou_time_unit o')) <= / 10 ^ 10))).
Proof.
  intros H. cbv zeta. destruct (accepted_stages ceed c c' H) as (t1 & t2 & t3 & spec & _ & _ & E3 & E4 & E5 & _ & E7 & Ep & _). rewrite Ep. clear H E3 E4 E5.
  set (cl := ph_classes (fu_physics (SetMissingValues c))) in *. clearbody cl.
  unfold SetMissingValues in E7. cbv zeta in E7. cbn [fu_output] in E7. set (o := fu_output c) in *. set (fl := match ou_fields o with [] => _ | _ => _ end) in *.
  assert (Fl : (ou_fields o <> [] -> fl = ou_fields o) /\ (ou_fields o = [] -> fl = ["Height"; "MomentumX"; "MomentumY"]%string)).
  { unfold fl. destruct (ou_fields o); split; intros; congruence. }
  clearbody fl. set (t' := fu_times c') in *. set (o' := fu_output c') in *. clearbody t' o' o.
  unfold validate_output in E7. cbv zeta in E7. cbn [ou_format ou_interval ou_time_interval ou_time_unit ou_batch ou_directory ou_fields] in E7.
  set (en := (negb (format_none (ou_format o)) || (0 <? ou_interval o)%Z || (0 <? ou_time_interval o)%Z)%bool) in *.
  assert (En : en = true <-> ou_format o <> OUTPUT_NONE \/ (0 < ou_interval o)%Z \/ (0 < ou_time_interval o)%Z).
  { unfold en. rewrite !Bool.orb_true_iff, !Z.ltb_lt, Bool.negb_true_iff. destruct (ou_format o); cbn; intuition congruence. }
  clearbody en. destruct en.
  2:{ cbn [negb] in E7. injection E7 as <- <-. cbn [ou_format ou_interval ou_time_interval ou_time_unit ou_batch ou_directory ou_fields ou_enable]. split; [exact En|]. repeat (split; [reflexivity|]). discriminate. }
  cbn [negb] in E7. checks. injection E7 as -> <-. cbn [ou_format ou_interval ou_time_interval ou_time_unit ou_batch ou_directory ou_fields ou_enable]. split; [exact En|]. repeat (split; [reflexivity|]). intros _.
  repeat match goal with H : Z.leb 0 _ = true |- _ => apply Z.leb_le in H end.
  match goal with H : negb (format_none _) = true |- _ => rename H into Hf end. match goal with H : negb (_ && _) = true |- _ => rename H into Hz end.
  match goal with H : (_ || negb (format_binary _))%bool = true |- _ => rename H into Hb end. match goal with H : forallb _ fl = true |- _ => rename H into Hv end.
  match goal with H : (if Z.eqb _ 0 then Ret _ else _) = Ret _ |- _ => rename H into Ht end.
  split; [destruct (ou_format o); discriminate|]. split; [assumption|]. split; [assumption|].
  split. { apply Bool.negb_true_iff, Bool.andb_false_iff in Hz. rewrite !Z.eqb_neq in Hz. lia. }
  split. { intros F. rewrite F in *. cbn in Hb. rewrite Bool.orb_false_r in Hb. apply Z.eqb_eq in Hb. rewrite Hb. reflexivity. }
  split. { intros F. destruct (Z.eqb_spec (ou_batch o) 0) as [Z0|Z0]; [|cbn; exact Z0]. destruct (ou_format o); cbn; congruence. }
  split. { intros N. destruct (Z.eqb_spec (ou_batch o) 0); [contradiction|reflexivity]. }
  split. { apply forallb_forall. exact Hv. }
  split; [apply Fl|]. split; [apply Fl|]. intros P. destruct (Z.eqb_spec (ou_time_interval o) 0); [lia|].
  set (tt' := if spec then t3 else set_coupling t3 (IZR (ou_time_interval o))) in *. checks. injection Ht as <-. split; [destruct (ou_time_unit o); discriminate|]. intros Pc.
  match goal with H : of_option (rdiv _ _) = Ret ?q |- _ => rename H into Hq; rename q into qq end. rewrite rdiv_some in Hq by lra. cbn in Hq. injection Hq as <-.
  repeat match goal with H : Rleb _ _ = true |- _ => apply Rleb_true in H end.
  match goal with H : _ <= PETSC_SMALL |- _ => rename H into Hs end. match goal with H : ConvertTimeToSeconds (tm_coupling tt') _ <= _ |- _ => rename H into Hle end.
  eexists. split; [|exact Hs]. set (a := ConvertTimeToSeconds (tm_coupling tt') (tm_unit tt')) in *. set (b := ConvertTimeToSeconds (IZR (ou_time_interval o)) (ou_time_unit o)) in *.
  assert (1 <= b / a). { apply (Rmult_le_reg_r a); [exact Pc|]. unfold Rdiv. rewrite Rmult_assoc, Rinv_l by lra. lra. }
  destruct (base_Int_part (b / a)) as (_ & U). assert (L0 : IZR 0 < IZR (Int_part (b / a))) by lra. apply lt_IZR in L0. lia.
Qed.
Print Assumptions C42_output_consistent.

(** ** C42: methods and inputs *)
Theorem C42_methods_supported ceed c c' : ReadConfig ceed c = Ret c' -> let p' := fu_physics c' in let n' := fu_numerics c' in
  nu_spatial n' = SPATIAL_FV /\ nu_temporal n' <> TEMPORAL_BEULER /\ nu_riemann n' <> RIEMANN_HLLC /\ fu_grid c' <> ""%string /\ n' = fu_numerics c /\ fu_grid c' = fu_grid c /\
  (ph_classes p' <= 5)%Z /\ (nu_temporal n' = TEMPORAL_ARK_IMEX -> ph_method p' = SOURCE_ARK_IMEX) /\
  (0 < ph_threshold p' -> ph_method p' = SOURCE_IMPLICIT_XQ2018) /\ (ph_method p' = SOURCE_IMPLICIT_XQ2018 -> ph_threshold p' <> 0) /\ ph_tiny_h p' <> 0 /\
  (ph_balancing p' = WELL_BALANCING_BS2002 -> (ph_classes p' <= 0)%Z) /\
  (* what was given is kept *)
  (ph_tiny_h (fu_physics c) <> 0 -> ph_tiny_h p' = ph_tiny_h (fu_physics c)) /\ (ph_tiny_h (fu_physics c) = 0 -> ph_tiny_h p' = / 10 ^ 7) /\ ph_h_anuga p' = ph_h_anuga (fu_physics c) /\
  (ph_method (fu_physics c) <> SOURCE_SEMI_IMPLICIT -> ph_method p' = ph_method (fu_physics c)) /\ ph_balancing p' = ph_balancing (fu_physics c) /\ ph_classes p' = ph_classes (fu_physics c).
Proof.
  intros H. cbv zeta. destruct (accepted_stages ceed c c' H) as (t1 & t2 & t3 & spec & E1 & E2 & _ & _ & _ & _ & _ & -> & -> & -> & _). clear H.
  unfold SetMissingValues in *. cbv zeta in *. cbn [fu_physics fu_numerics fu_grid] in *. set (p := fu_physics c) in *. set (n := fu_numerics c) in *. clearbody p n.
  unfold validate_physics in E1. unfold validate_numerics in E2. cbn [ph_threshold ph_method ph_balancing ph_classes] in E1. checks. clear E1 E2.
  cbn [ph_threshold ph_method ph_balancing ph_classes ph_tiny_h ph_h_anuga].
  assert (T7 : / 10 ^ 7 <> 0) by (apply Rinv_neq_0_compat, pow_nonzero; lra). assert (T10 : / 10 ^ 10 <> 0) by (apply Rinv_neq_0_compat, pow_nonzero; lra).
  split; [destruct (nu_spatial n); [reflexivity|discriminate]|]. split; [destruct (nu_temporal n); discriminate|]. split; [destruct (nu_riemann n); discriminate|].
  split; [intros Q; rewrite Q in *; discriminate|]. split; [reflexivity|]. split; [reflexivity|]. split; [now apply Z.leb_le|].
  split. { intros Q. rewrite Q in *. destruct (ph_method p); cbn in *; try discriminate; reflexivity. }
  split. { intros Q. match goal with H : negb (Rltb 0 _ && _) = true |- _ => apply Rltb_true in Q; rewrite Q in H; cbn in H end. destruct (ph_method p), (nu_temporal n); cbn in *; try discriminate; reflexivity. }
  split. { destruct (ph_method p), (nu_temporal n); cbn; try discriminate; intros _; unfold missing_real; destruct (Req_EM_T (ph_threshold p) 0); assumption. }
  split. { unfold missing_real. destruct (Req_EM_T (ph_tiny_h p) 0); assumption. }
  split. { intros Q. rewrite Q in *. match goal with H : (negb (Z.ltb 0 _) && _)%bool = true |- _ => apply Bool.andb_true_iff in H; destruct H as (H & _); apply Bool.negb_true_iff, Z.ltb_ge in H; exact H end. }
  split. { intros Q. now apply missing_real_given. } split. { intros ->. apply missing_real_0. }
  split. { unfold missing_real. destruct (Req_EM_T (ph_h_anuga p) 0); congruence. }
  split. { destruct (ph_method p); [contradiction|reflexivity|reflexivity]. } split; [reflexivity|]. unfold missing_int. destruct (Z.eqb_spec (ph_classes p) 0); congruence.
Qed.
Print Assumptions C42_methods_supported.

Theorem C42_inputs_complete ceed c c' : ReadConfig ceed c = Ret c' -> let i := fu_inputs c' in
  i = fu_inputs c /\ (0 < length (in_initial i))%nat /\ length (in_initial i) = in_regions i /\ in_assignments i = in_regions i /\ in_materials i <> [] /\
  ((0 < ph_classes (fu_physics c'))%Z -> forall s, In s (in_initial i) -> s = true) /\
  (* every material has a value or a file but not both, and a file has a format *)
  (forall m, In m (in_materials i) -> (ms_value m = true <-> ms_file m = false) /\ (ms_file m = true -> ms_format m = true)) /\
  (* a condition that needs values has them *)
  (forall f, In f (in_flow i) -> (0 <= fs_type f)%Z /\ (fs_type f <> CONDITION_REFLECTING' -> fs_type f <> CONDITION_CRITICAL_OUTFLOW' ->
     fs_file f = true \/ fs_value f = true \/ (fs_height f = true /\ fs_xmom f = true /\ fs_ymom f = true))) /\
  (forall s k, In s (in_sediment i) -> (Z.of_nat k < ph_classes (fu_physics c'))%Z -> ss_classes s k = true) /\
  (forall s, In s (in_salinity i) -> ls_value s = true).
Proof.
  intros H. cbv zeta. destruct (accepted_stages ceed c c' H) as (t1 & t2 & t3 & spec & _ & _ & _ & _ & _ & E6 & _ & -> & _ & _ & ->). clear H.
  split; [reflexivity|]. set (cl := ph_classes _) in *. clearbody cl. set (i := fu_inputs (SetMissingValues c)) in *. clearbody i.
  unfold validate_inputs in E6. checks. clear E6. repeat match goal with H : forallb _ _ = true |- _ => rewrite forallb_forall in H end. rewrite ?Nat.ltb_lt, ?Nat.eqb_eq in *.
  split; [assumption|]. split; [assumption|]. split; [assumption|]. split; [intros Q; rewrite Q in *; cbn in *; lia|].
  match goal with H : forall x, In x (in_initial i) -> _ |- _ => rename H into Hi end. match goal with H : forall x, In x (in_materials i) -> _ |- _ => rename H into Hm end.
  match goal with H : forall x, In x (in_flow i) -> _ |- _ => rename H into Hf end. match goal with H : forall x, In x (in_sediment i) -> _ |- _ => rename H into Hs end. match goal with H : forall x, In x (in_salinity i) -> _ |- _ => rename H into Hl end.
  split. { intros P s Q. specialize (Hi s Q). apply Z.ltb_lt in P. rewrite P in Hi. exact Hi. }
  split. { intros m Q. specialize (Hm m Q). destruct (ms_value m), (ms_file m), (ms_format m); cbn in Hm; try discriminate; repeat split; congruence. }
  split. { intros f Q. specialize (Hf f Q). apply Bool.andb_true_iff in Hf. destruct Hf as (T & Hf). split; [now apply Z.leb_le|]. intros N1 N2. apply Z.eqb_neq in N1, N2. rewrite N1, N2 in Hf. cbn in Hf.
    destruct (fs_height f), (fs_file f), (fs_value f), (fs_xmom f), (fs_ymom f); cbn in Hf; try discriminate; auto. }
  split. { intros s k Q P. specialize (Hs s Q). apply Bool.andb_true_iff in Hs. destruct Hs as (_ & Hs). rewrite forallb_forall in Hs. apply Hs, in_seq. lia. }
  intros s Q. specialize (Hl s Q). apply Bool.andb_true_iff in Hl. apply Hl.
Qed.
Print Assumptions C42_inputs_complete.

(** ** C42: what the run starts with *)
Lemma convert_pos x u : is_unit u -> 0 < x -> 0 < ConvertTimeToSeconds x u.
Proof. intros U P. rewrite to_seconds by exact U. apply Rmult_lt_0_compat; [exact P|apply unit_seconds_pos]. Qed.
(* An accepted configuration with adaptive steps, a positive final time, a real unit, and an initial step that fits in the
   run satisfies everything C29 and C30 need; the first step is at least the initial one, less than twice as long. *)
Theorem C42_adaptive_run_starts_partial ceed c c' : ReadConfig ceed c = Ret c' -> let t := fu_times c in let t' := fu_times c' in let tc := time_config_of t' in
  ad_enable (tm_adaptive t) = true -> 0 < tm_stop t -> is_unit (tm_unit t) -> ad_initial (tm_adaptive t) <= tm_stop t -> 0 <= tm_coupling t -> ou_time_interval (fu_output c) = 0%Z ->
  exists dt, initial_dt tc None = Some dt /\
    ConvertTimeToSeconds (ad_initial (tm_adaptive t)) (tm_unit t) <= dt < 2 * ConvertTimeToSeconds (ad_initial (tm_adaptive t)) (tm_unit t) /\
    forall s, rs_dt s = dt -> rs_updated s = false -> adaptive_run tc s.
Proof.
  intros H. cbv zeta. intros Ad Ps U Fit Pc No. destruct (C42_times_consistent_partial ceed c c' H) as (_ & A & Un & Aq). cbv zeta in *.
  destruct (A Ad) as (_ & _ & St & Pst & Tg & Mf & K). destruct (K Ps) as (Es & (N0 & N1 & N2)). clear A K.
  destruct (C42_coupling_interval ceed c c' H) as (C1 & C2 & _). cbv zeta in *.
  set (t := fu_times c) in *. set (t' := fu_times c') in *. rewrite St in *. set (i := ad_initial (tm_adaptive t)) in *. set (n := tm_stop_n t') in *.
  assert (Pn : (1 <= n)%Z). { destruct (Z.eq_dec n 0) as [Z0|]; [|lia]. rewrite Z0 in N2. cbn in N2. lra. }
  assert (Rn : 1 <= IZR n) by (apply (IZR_le 1 n); exact Pn). assert (En : INR (Z.to_nat n) = IZR n) by (rewrite INR_IZR_INZ, Z2Nat.id by lia; reflexivity).
  exists (ConvertTimeToSeconds (tm_stop t) (tm_unit t) / IZR n). unfold initial_dt, time_config_of. cbn [tc_stop tc_unit tc_stop_n]. fold n. rewrite En, Es, Un.
  split; [apply rdiv_some; lra|]. assert (Us := unit_seconds_pos (tm_unit t)). rewrite !to_seconds by exact U. set (u := unit_seconds (tm_unit t)) in *. clearbody u.
  assert (Q : i <= tm_stop t / IZR n < 2 * i).
  { split; [apply (Rmult_le_reg_r (IZR n)); [lra|]; unfold Rdiv; rewrite Rmult_assoc, Rinv_l by lra; lra|].
    apply (Rmult_lt_reg_r (IZR n)); [lra|]; unfold Rdiv; rewrite Rmult_assoc, Rinv_l by lra. rewrite plus_IZR in N2. assert (i <= i * IZR n) by (rewrite <- (Rmult_1_r i) at 1; apply Rmult_le_compat_l; lra). lra. }
  assert (R1 : tm_stop t * u / IZR n = tm_stop t / IZR n * u) by (field; lra). rewrite R1.
  assert (Q2 : i * u <= tm_stop t / IZR n * u < 2 * (i * u)).
  { split; [apply Rmult_le_compat_r; lra|]. rewrite <- Rmult_assoc. apply Rmult_lt_compat_r; lra. }
  split; [exact Q2|]. intros s Ds Us'. unfold adaptive_run. cbn [tc_adaptive tc_target tc_max_factor tc_coupling tc_unit]. rewrite Aq.
  split; [exact Ad|]. split; [|split; [rewrite Ds; assert (0 < i * u) by (apply Rmult_lt_0_compat; lra); lra|intros F; congruence]].
  split; [exact Tg|]. split; [exact Mf|]. unfold interval_of. cbn [tc_coupling tc_unit]. rewrite ?Un. apply convert_pos; [exact U|].
  destruct Pc as [Pc|Pc]; [rewrite (proj1 (C1 Pc)); exact Pc|rewrite (C2 (eq_sym Pc) No), Es; exact Ps].
Qed.
Print Assumptions C42_adaptive_run_starts_partial.

(** ** A small configuration, with the time and output sections left open *)
Definition demo_inputs : inputs := Inputs 1 [false] 1 [MatSpec true false false] [FlowSpec CONDITION_DIRICHLET' true true true false false] [] [].
Definition demo (ph : physics) (t : times) (o : output) : full_config := FullConfig ph (Numerics SPATIAL_FV TEMPORAL_EULER RIEMANN_ROE) "mesh.exo" t demo_inputs o.
Definition plain : physics := Physics 0 0 SOURCE_SEMI_IMPLICIT 0 WELL_BALANCING_NONE 0.
Definition quiet : output := Output false OUTPUT_NONE 0 0 UNSET 0 "" [].
Definition fixed : adaptive := Adaptive false 0 0 0.
Lemma demo_reads ceed ph t o t1 t2 t3 spec to : let d := SetMissingValues (demo ph t o) in
  validate_physics ceed (fu_physics d) (fu_numerics d) = Ret tt -> (ph_classes ph <= 0)%Z ->
  validate_adaptive (fu_times d) = Ret t1 -> complete t1 = Ret t2 -> coupling t2 = Ret (t3, spec) -> validate_output (ph_classes (fu_physics d)) t3 spec (fu_output d) = Ret to ->
  ReadConfig ceed (demo ph t o) = Ret (FullConfig (fu_physics d) (fu_numerics d) (fu_grid d) (fst to) (fu_inputs d) (snd to)).
Proof.
  cbv zeta. intros Hp Hc Ha Hm Hk Ho. unfold ReadConfig, ValidateConfig. cbv zeta. rewrite Hp. cbn [rbind]. 
  replace (validate_numerics _ _) with (Ret tt) by reflexivity. cbn [rbind]. rewrite Ha. cbn [rbind]. rewrite Hm. cbn [rbind]. rewrite Hk. cbn [rbind fst snd].
  replace (validate_inputs _ _) with (Ret tt); [cbn [rbind]; rewrite Ho; reflexivity|].
  unfold validate_inputs. cbn [fu_inputs SetMissingValues demo demo_inputs fu_physics ph_classes in_initial in_regions in_assignments in_materials in_flow in_sediment in_salinity].
  assert (E : (0 <? missing_int (ph_classes ph) 0)%Z = false) by (apply Z.ltb_ge; unfold missing_int; destruct (Z.eqb_spec (ph_classes ph) 0); lia).
  cbn [forallb]. rewrite E. reflexivity.
Qed.
Lemma plain_ok ceed t o : validate_physics ceed (fu_physics (SetMissingValues (demo plain t o))) (fu_numerics (SetMissingValues (demo plain t o))) = Ret tt.
Proof. unfold validate_physics. cbn. replace (Rltb 0 0) with false; [reflexivity|]. symmetry. apply Rltb_false. lra. Qed.
Lemma fixed_ok u s n d k : validate_adaptive (Times None u s n d k fixed) = Ret (Times None u s n d k fixed).
Proof. reflexivity. Qed.
Lemma to_int_val x n : 0 <= x -> IZR n <= x < IZR n + 1 -> (- 2 ^ 31 - 1 < n < 2 ^ 31)%Z -> to_int x = Ret n.
Proof.
  intros P B Rg. unfold to_int. destruct (Rle_dec 0 x); [|contradiction]. assert (E : Int_part x = n).
  { destruct (base_Int_part x) as (L & U). assert (IZR (Int_part x) < IZR (n + 1)) by (rewrite plus_IZR; lra). assert (IZR n < IZR (Int_part x + 1)) by (rewrite plus_IZR; lra). apply lt_IZR in H, H0. lia. }
  cbv zeta. rewrite E. replace (_ && _)%bool with true; [reflexivity|]. symmetry. apply Bool.andb_true_iff. rewrite !Z.ltb_lt. lia.
Qed.
Lemma not_none t : IZR (tm_stop_n t) <> INVALID_REAL -> negb (Z.eqb (num_time_settings t) 0) = true.
Proof. intros N. unfold num_time_settings. rewrite (Reqb_false (IZR (tm_stop_n t))) by exact N. destruct (Reqb _ _), (Reqb _ _); reflexivity. Qed.
Lemma invalid_int_not_real : IZR INVALID_INT <> INVALID_REAL.
Proof. unfold INVALID_REAL. intros E. apply eq_IZR in E. discriminate E. Qed.
Lemma small_not_invalid x : -1 <= x -> x <> INVALID_REAL.
Proof. assert (I := invalid_neg). lra. Qed.
(* settings given as final time and step size *)
Lemma complete_steps u s d k n : 0 < s -> -1 <= d -> d <> 0 -> to_int (s / d) = Ret n -> complete (Times None u s INVALID_INT d k fixed) = Ret (Times None u s n d k fixed).
Proof.
  intros Ps Pd Nd E. unfold complete. rewrite not_none by apply invalid_int_not_real. cbn [check]. cbn [tm_stop tm_stop_n tm_step].
  rewrite Reqb_false by (apply small_not_invalid; lra). rewrite Z.eqb_refl, rdiv_some by exact Nd. cbn [of_option rbind]. rewrite E. reflexivity.
Qed.
Lemma coupling_none u s n d : coupling (Times None u s n d INVALID_REAL fixed) = Ret (Times None u s n d s fixed, false).
Proof. unfold coupling. cbn [tm_coupling]. rewrite Reqb_refl. reflexivity. Qed.
Lemma coupling_given u s n d k : 0 < k <= s -> coupling (Times None u s n d k fixed) = Ret (Times None u s n d k fixed, true).
Proof. intros B. unfold coupling. cbn [tm_coupling tm_stop]. rewrite Reqb_false by (apply small_not_invalid; lra). rewrite (proj2 (Rltb_true 0 k)), (proj2 (Rleb_true k s)) by lra. reflexivity. Qed.
Lemma quiet_ok c t spec : exists o', validate_output c t spec (fu_output (SetMissingValues (demo plain t quiet))) = Ret (t, o') /\ ou_enable o' = false.
Proof. eexists. split; reflexivity. Qed.
Lemma missing_times t ph o : fu_times (SetMissingValues (demo ph t o)) = Times (tm_date t) (tm_unit t) (missing_real (tm_stop t) INVALID_REAL) (missing_int (tm_stop_n t) INVALID_INT)
       (missing_real (tm_step t) INVALID_REAL) (missing_real (tm_coupling t) INVALID_REAL) (tm_adaptive t).
Proof. reflexivity. Qed.
Ltac demo_time := repeat first [rewrite missing_real_0 | rewrite missing_real_given by lra | rewrite missing_int_given by lia].

(* Ten seconds in steps of one second, coupled every five: accepted, with ten steps *)
Example config_example : exists c', ReadConfig false (demo plain (Times None SECONDS 10 0 1 5 fixed) quiet) = Ret c' /\
  given (fu_times (demo plain (Times None SECONDS 10 0 1 5 fixed) quiet)) (Given true false true) /\ tm_stop_n (fu_times c') = 10%Z /\ tm_coupling (fu_times c') = 5.
Proof.
  eexists. split.
  - eapply demo_reads; [apply plain_ok|cbn; lia| | | |].
    + rewrite missing_times. cbn [tm_date tm_unit tm_stop tm_stop_n tm_step tm_coupling tm_adaptive]. demo_time. apply fixed_ok.
    + apply complete_steps; try lra. apply (to_int_val _ 10); [lra|lra|lia].
    + apply coupling_given. lra.
    + reflexivity.
  - cbn. unfold given. cbn. repeat split; lra.
Qed.
(* One setting is enough to pass the checks, because a missing number of steps counts as given (it is compared with the
   marker for reals).  With the step size alone, the final time is negative; with the final time alone, there are no
   steps and the step size used by the run is a division by zero.  Three settings pass even if they contradict each
   other, and negative ones pass as well. *)
Theorem C42_times_given_refuted :
  (exists c c', ReadConfig false c = Ret c' /\ given (fu_times c) (Given false false true) /\ tm_stop (fu_times c') < 0) /\
  (exists c c', ReadConfig false c = Ret c' /\ given (fu_times c) (Given true false false) /\ tm_step (fu_times c') < 0 /\ initial_dt (time_config_of (fu_times c')) None = None) /\
  (exists c c', ReadConfig false c = Ret c' /\ given (fu_times c) (Given true true true) /\ tm_step (fu_times c') <> tm_step (fu_times c)) /\
  (exists c c', ReadConfig false c = Ret c' /\ tm_step (fu_times c) < 0 /\ tm_step (fu_times c') < 0 /\ (tm_stop_n (fu_times c') < 0)%Z).
Proof.
  assert (I := invalid_neg). split; [|split; [|split]].
  - exists (demo plain (Times None SECONDS 0 0 1 0 fixed) quiet). eexists. split.
    + eapply demo_reads; [apply plain_ok|cbn; lia| | | |].
      * rewrite missing_times. cbn [tm_date tm_unit tm_stop tm_stop_n tm_step tm_coupling tm_adaptive]. demo_time. cbn [missing_int Z.eqb]. apply fixed_ok.
      * unfold complete. rewrite not_none by apply invalid_int_not_real. cbn [check tm_stop]. rewrite Reqb_refl. reflexivity.
      * apply coupling_none.
      * reflexivity.
    + split; [unfold given; cbn; repeat split; lra|]. cbn. assert (IZR INVALID_INT < 0) by (apply IZR_lt; reflexivity). cbn in H. lra.
  - exists (demo plain (Times None SECONDS 10 0 0 0 fixed) quiet). eexists. split.
    + eapply demo_reads; [apply plain_ok|cbn; lia| | | |].
      * rewrite missing_times. cbn [tm_date tm_unit tm_stop tm_stop_n tm_step tm_coupling tm_adaptive]. demo_time. cbn [missing_int Z.eqb]. apply fixed_ok.
      * unfold complete. rewrite not_none by apply invalid_int_not_real. cbn [check tm_stop tm_step tm_stop_n]. rewrite Reqb_false by lra. rewrite Z.eqb_refl, rdiv_some by lra. cbn [of_option rbind].
        replace (to_int (10 / INVALID_REAL)) with (Ret 0%Z); [reflexivity|]. symmetry. unfold to_int.
        assert (L : -1 < 10 / INVALID_REAL < 0).
        { assert (B : INVALID_REAL < -10) by (unfold INVALID_REAL; apply IZR_lt; reflexivity). assert (E : 10 / INVALID_REAL * INVALID_REAL = 10) by (field; lra). set (q := 10 / INVALID_REAL) in *. set (v := INVALID_REAL) in *. clearbody v q. split; nra. }
        destruct (Rle_dec 0 (10 / INVALID_REAL)); [lra|]. assert (E : Int_part (- (10 / INVALID_REAL)) = 0%Z).
        { destruct (base_Int_part (- (10 / INVALID_REAL))) as (A & B). assert (A1 : IZR (Int_part (- (10 / INVALID_REAL))) < IZR 1) by lra. assert (B1 : IZR (-1) < IZR (Int_part (- (10 / INVALID_REAL)))) by lra. apply lt_IZR in A1, B1. lia. }
        rewrite E. reflexivity.
      * apply coupling_none.
      * reflexivity.
    + split; [unfold given; cbn; repeat split; lra|]. split; [cbn [fu_times fst tm_step]; lra|]. cbn. unfold rdiv. destruct (Req_EM_T 0 0); [reflexivity|contradiction].
  - exists (demo plain (Times None SECONDS 10 5 1 0 fixed) quiet). eexists. split.
    + eapply demo_reads; [apply plain_ok|cbn; lia| | | |].
      * rewrite missing_times. cbn [tm_date tm_unit tm_stop tm_stop_n tm_step tm_coupling tm_adaptive]. demo_time. apply fixed_ok.
      * unfold complete. rewrite not_none by (cbn; apply small_not_invalid; lra). cbn [check tm_stop tm_step tm_stop_n]. rewrite Reqb_false by lra. replace (5 =? INVALID_INT)%Z with false by reflexivity. rewrite rdiv_some by lra. reflexivity.
      * apply coupling_none.
      * reflexivity.
    + split; [unfold given; cbn; repeat split; try lra; lia|]. cbn. lra.
  - exists (demo plain (Times None SECONDS 10 0 (-1) 0 fixed) quiet). eexists. split.
    + eapply demo_reads; [apply plain_ok|cbn; lia| | | |].
      * rewrite missing_times. cbn [tm_date tm_unit tm_stop tm_stop_n tm_step tm_coupling tm_adaptive]. demo_time. cbn [missing_int Z.eqb]. apply fixed_ok.
      * apply (complete_steps _ _ _ _ (-10)); try lra. unfold to_int. destruct (Rle_dec 0 (10 / -1)); [lra|]. assert (E : Int_part (- (10 / -1)) = 10%Z).
        { destruct (base_Int_part (- (10 / -1))) as (A & B). assert (A1 : IZR (Int_part (- (10 / -1))) < IZR 11) by lra. assert (B1 : IZR 9 < IZR (Int_part (- (10 / -1)))) by lra. apply lt_IZR in A1, B1. lia. }
        rewrite E. reflexivity.
      * apply coupling_none.
      * reflexivity.
    + cbn. split; [lra|]. split; [lra|lia].
Qed.
Print Assumptions C42_times_given_refuted.

(* An accepted configuration can make the run divide by zero: a step longer than the whole run gives zero steps, and
   output by time with a batch size computes the batch of a step by dividing by the (zero) step interval. *)
Definition out_config_of (c : full_config) : out_config :=
  OutConfig (ou_directory (fu_output c)) None "run" None (tm_unit (fu_times c)) (tm_stop_n (fu_times c)) (ou_format (fu_output c)) (Z.to_nat (ou_interval (fu_output c)))
    (Z.to_nat (ou_time_interval (fu_output c))) (ou_time_unit (fu_output c)) (Z.to_nat (ou_batch (fu_output c))) (ou_fields (fu_output c)).
Theorem C42_no_division_by_zero_refuted :
  (exists c c', ReadConfig false c = Ret c' /\ given (fu_times c) (Given true false true) /\ tm_stop_n (fu_times c') = 0%Z /\ initial_dt (time_config_of (fu_times c')) None = None) /\
  (exists c c', ReadConfig false c = Ret c' /\ ou_enable (fu_output c') = true /\ (0 < ou_time_interval (fu_output c'))%Z /\ forall dir step time, DetermineOutputFile (out_config_of c') dir step time "h5" = UB).
Proof.
  split.
  - exists (demo plain (Times None SECONDS 1 0 2 0 fixed) quiet). eexists. split.
    + eapply demo_reads; [apply plain_ok|cbn; lia| | | |].
      * rewrite missing_times. cbn [tm_date tm_unit tm_stop tm_stop_n tm_step tm_coupling tm_adaptive]. demo_time. cbn [missing_int Z.eqb]. apply fixed_ok.
      * apply (complete_steps _ _ _ _ 0); try lra. apply to_int_val; [lra|lra|lia].
      * apply coupling_none.
      * reflexivity.
    + split; [unfold given; cbn; repeat split; lra|]. split; [reflexivity|]. cbn. unfold rdiv. destruct (Req_EM_T 0 0); [reflexivity|contradiction].
  - exists (demo plain (Times None SECONDS 10 0 1 5 fixed) (Output false OUTPUT_XDMF 0 5 SECONDS 2 "" [])). eexists. split.
    + eapply demo_reads; [apply plain_ok|cbn; lia| | | |].
      * rewrite missing_times. cbn [tm_date tm_unit tm_stop tm_stop_n tm_step tm_coupling tm_adaptive]. demo_time. cbn [missing_int Z.eqb]. apply fixed_ok.
      * apply (complete_steps _ _ _ _ 10); try lra. apply to_int_val; [lra|lra|lia].
      * apply coupling_given. lra.
      * unfold validate_output. cbn -[rdiv Rleb Int_part Rabs valid_field]. rewrite (proj2 (Rleb_true 5 5)) by lra. cbn [check]. rewrite rdiv_some by lra. cbn [of_option rbind].
        assert (E : Int_part (5 / 5) = 1%Z). { destruct (base_Int_part (5 / 5)) as (A & B). assert (A1 : IZR (Int_part (5 / 5)) < IZR 2) by lra. assert (B1 : IZR 0 < IZR (Int_part (5 / 5))) by lra. apply lt_IZR in A1, B1. lia. }
        rewrite E. rewrite (proj2 (Rleb_true _ PETSC_SMALL)). 2:{ replace (1 * 5 - 5) with 0 by ring. rewrite Rabs_R0. unfold PETSC_SMALL. left. apply Rinv_0_lt_compat, pow_lt. lra. }
        cbn [check rbind]. reflexivity.
    + split; [reflexivity|]. split; [reflexivity|]. reflexivity.
Qed.
Print Assumptions C42_no_division_by_zero_refuted.

(* Without a coupling interval, the number of output.time_interval is taken as the coupling interval in the unit of the
   run, although it is in its own unit: hourly output of a run in days is rejected.  Nor is it compared with the length
   of the run: output every 20 s of a run of 10 s is accepted with a coupling interval of 20 s. *)
Theorem C42_output_interval_unit_refuted :
  ReadConfig false (demo plain (Times None DAYS 10 10 0 0 fixed) (Output false OUTPUT_XDMF 0 1 HOURS 1 "" [])) = Error /\
  (exists c c', ReadConfig false c = Ret c' /\ tm_coupling (fu_times c) = 0 /\ tm_stop (fu_times c') < tm_coupling (fu_times c')).
Proof.
  split.
  - unfold ReadConfig, ValidateConfig. cbv zeta. rewrite plain_ok. cbn [rbind]. replace (validate_numerics _ _) with (Ret tt) by reflexivity. cbn [rbind].
    rewrite missing_times. cbn [tm_date tm_unit tm_stop tm_stop_n tm_step tm_coupling tm_adaptive]. demo_time. cbn [missing_int Z.eqb]. rewrite fixed_ok. cbn [rbind].
    unfold complete at 1. rewrite not_none by (cbn; apply small_not_invalid; lra). cbn [check tm_stop tm_step tm_stop_n tm_date tm_unit tm_coupling tm_adaptive]. rewrite Reqb_false by (apply small_not_invalid; lra). replace (10 =? INVALID_INT)%Z with false by reflexivity. rewrite rdiv_some by lra. cbn [of_option rbind].
    rewrite coupling_none. cbn [rbind]. replace (validate_inputs _ _) with (Ret tt) by reflexivity. cbn [rbind fst snd].
    unfold validate_output. cbn -[rdiv Rleb Int_part Rabs valid_field ConvertTimeToSeconds]. cbn [ConvertTimeToSeconds]. unfold secs_in_min, mins_in_hr, hrs_in_day.
    replace (Rleb _ _) with false; [reflexivity|]. symmetry. apply Rleb_false. cbn. lra.
  - exists (demo plain (Times None SECONDS 10 10 0 0 fixed) (Output false OUTPUT_XDMF 0 20 SECONDS 1 "" [])). eexists. split.
    + eapply demo_reads; [apply plain_ok|cbn; lia| | | |].
      * rewrite missing_times. cbn [tm_date tm_unit tm_stop tm_stop_n tm_step tm_coupling tm_adaptive]. demo_time. cbn [missing_int Z.eqb]. apply fixed_ok.
      * unfold complete. rewrite not_none by (cbn; apply small_not_invalid; lra). cbn [check tm_stop tm_step tm_stop_n tm_date tm_unit tm_coupling tm_adaptive]. rewrite Reqb_false by (apply small_not_invalid; lra). replace (10 =? INVALID_INT)%Z with false by reflexivity. rewrite rdiv_some by lra. reflexivity.
      * apply coupling_none.
      * unfold validate_output. cbn -[rdiv Rleb Int_part Rabs valid_field]. rewrite (proj2 (Rleb_true 20 20)) by lra. cbn [check]. rewrite rdiv_some by lra. cbn [of_option rbind].
        assert (E : Int_part (20 / 20) = 1%Z). { destruct (base_Int_part (20 / 20)) as (A & B). assert (A1 : IZR (Int_part (20 / 20)) < IZR 2) by lra. assert (B1 : IZR 0 < IZR (Int_part (20 / 20))) by lra. apply lt_IZR in A1, B1. lia. }
        rewrite E. rewrite (proj2 (Rleb_true _ PETSC_SMALL)). 2:{ replace (1 * 20 - 20) with 0 by ring. rewrite Rabs_R0. unfold PETSC_SMALL. left. apply Rinv_0_lt_compat, pow_lt. lra. }
        cbn [check rbind]. reflexivity.
    + split; [reflexivity|]. cbn. lra.
Qed.
Print Assumptions C42_output_interval_unit_refuted.

(* Physics: a negative dry depth is accepted and makes the flux between two dry cells undefined; the check of the
   bed-slope balancing method is the wrong way round (refused when libCEED is on, accepted without it, where the method
   does not exist); a negative number of sediment classes is accepted; and a method asked for in the file is replaced
   when it is the first of the enumeration. *)
Definition physics_demo (ph : physics) : full_config := demo ph (Times None SECONDS 10 0 1 5 fixed) quiet.
Lemma physics_reads ceed ph : let d := SetMissingValues (physics_demo ph) in
  validate_physics ceed (fu_physics d) (fu_numerics d) = Ret tt -> (ph_classes ph <= 0)%Z -> exists c', ReadConfig ceed (physics_demo ph) = Ret c' /\ fu_physics c' = fu_physics d.
Proof.
  cbv zeta. intros Hp Hc. eexists. split.
  - eapply demo_reads; [exact Hp|exact Hc| | | |].
    + rewrite missing_times. cbn [tm_date tm_unit tm_stop tm_stop_n tm_step tm_coupling tm_adaptive]. demo_time. apply fixed_ok.
    + apply complete_steps; try lra. apply (to_int_val _ 10); [lra|lra|lia].
    + apply coupling_given. lra.
    + reflexivity.
  - reflexivity.
Qed.
Theorem C42_physics_refuted :
  (exists c c', ReadConfig false c = Ret c' /\ (forall sn cn, petsc_interior_edge (ph_tiny_h (fu_physics c')) (ph_h_anuga (fu_physics c')) (V3 0 0 0) (V3 0 0 0) sn cn = None)) /\
  (exists c c', ReadConfig false c = Ret c' /\ ph_balancing (fu_physics c') = WELL_BALANCING_BS2002 /\ ReadConfig true c = Error) /\
  (exists c c', ReadConfig false c = Ret c' /\ (ph_classes (fu_physics c') < 0)%Z) /\
  (exists c c', ReadConfig false c = Ret c' /\ ph_method (fu_physics c) = SOURCE_SEMI_IMPLICIT /\ ph_method (fu_physics c') = SOURCE_ARK_IMEX).
Proof.
  assert (F : Rltb 0 0 = false) by (apply Rltb_false; lra).
  split; [|split; [|split]].
  - destruct (physics_reads false (Physics (-1) 0 SOURCE_SEMI_IMPLICIT 0 WELL_BALANCING_NONE 0)) as (c' & E & P); [unfold validate_physics; cbn; rewrite F; reflexivity|cbn; lia|].
    eexists. exists c'. split; [exact E|]. rewrite P. cbn. demo_time. intros sn cn. unfold petsc_interior_edge, petsc_velocities. cbn [c0 c1 c2]. rewrite (proj2 (Rltb_false 0 (-1))) by lra.
    unfold rdiv. destruct (Req_EM_T (0 * 0 + 0 * 0) 0) as [_|N]; [reflexivity|contradiction N; ring].
  - destruct (physics_reads false (Physics 0 0 SOURCE_SEMI_IMPLICIT 0 WELL_BALANCING_BS2002 0)) as (c' & E & P); [unfold validate_physics; cbn; rewrite F; reflexivity|cbn; lia|].
    eexists. exists c'. split; [exact E|]. rewrite P. split; [reflexivity|]. unfold ReadConfig, ValidateConfig, validate_physics. cbn. rewrite F. reflexivity.
  - destruct (physics_reads false (Physics 0 0 SOURCE_SEMI_IMPLICIT 0 WELL_BALANCING_NONE (-1))) as (c' & E & P); [unfold validate_physics; cbn; rewrite F; reflexivity|cbn; lia|].
    eexists. exists c'. split; [exact E|]. rewrite P. reflexivity.
  - set (c := FullConfig plain (Numerics SPATIAL_FV TEMPORAL_ARK_IMEX RIEMANN_ROE) "mesh.exo" (Times None SECONDS 10 10 0 5 fixed) demo_inputs quiet).
    exists c. eexists. split.
    { unfold ReadConfig, ValidateConfig. unfold c at 1 2. unfold validate_physics at 1. cbn [SetMissingValues fu_physics fu_numerics plain ph_method ph_threshold missing_method nu_temporal ph_classes ph_balancing missing_int Z.eqb]. 
    rewrite F. cbn [negb andb check Z.leb Z.compare rbind]. replace (validate_numerics _ _) with (Ret tt) by reflexivity. cbn [rbind].
    change (fu_times (SetMissingValues c)) with (Times None SECONDS (missing_real 10 INVALID_REAL) 10 (missing_real 0 INVALID_REAL) (missing_real 5 INVALID_REAL) fixed). demo_time. rewrite fixed_ok. cbn [rbind].
    unfold complete at 1. rewrite not_none by (cbn; apply small_not_invalid; lra). cbn [check tm_stop tm_step tm_stop_n tm_date tm_unit tm_coupling tm_adaptive]. rewrite Reqb_false by (apply small_not_invalid; lra). replace (10 =? INVALID_INT)%Z with false by reflexivity. rewrite rdiv_some by lra. cbn [of_option rbind].
    rewrite coupling_given by lra. cbn [rbind]. replace (validate_inputs _ _) with (Ret tt) by reflexivity. cbn [rbind fst snd]. reflexivity. }
    split; reflexivity.
Qed.
Print Assumptions C42_physics_refuted.

(* A Dirichlet flow condition with only [value] passes, but only the water sources use [value]: initial and boundary
   states (SetupModel) take height and momenta, which have no expression. *)
Theorem C42_condition_values_refuted : exists c c', ReadConfig false c = Ret c' /\
  exists f, In f (in_flow (fu_inputs c')) /\ fs_type f = CONDITION_DIRICHLET' /\ fs_file f = false /\ fs_height f = false /\ fs_xmom f = false /\ fs_ymom f = false.
Proof.
  set (i := Inputs 1 [false] 1 [MatSpec true false false] [FlowSpec CONDITION_DIRICHLET' false false false true false] [] []).
  set (c := FullConfig plain (Numerics SPATIAL_FV TEMPORAL_EULER RIEMANN_ROE) "mesh.exo" (Times None SECONDS 10 10 0 5 fixed) i quiet).
  exists c. eexists. split.
  { unfold ReadConfig, ValidateConfig. change (validate_physics false (fu_physics (SetMissingValues c)) (fu_numerics (SetMissingValues c))) with (validate_physics false (fu_physics (SetMissingValues (physics_demo plain))) (fu_numerics (SetMissingValues (physics_demo plain)))). unfold physics_demo. rewrite plain_ok. cbn [rbind]. replace (validate_numerics _ _) with (Ret tt) by reflexivity. cbn [rbind].
  change (fu_times (SetMissingValues c)) with (Times None SECONDS (missing_real 10 INVALID_REAL) 10 (missing_real 0 INVALID_REAL) (missing_real 5 INVALID_REAL) fixed). demo_time. rewrite fixed_ok. cbn [rbind].
  unfold complete at 1. rewrite not_none by (cbn; apply small_not_invalid; lra). cbn [check tm_stop tm_step tm_stop_n tm_date tm_unit tm_coupling tm_adaptive]. rewrite Reqb_false by (apply small_not_invalid; lra). replace (10 =? INVALID_INT)%Z with false by reflexivity. rewrite rdiv_some by lra. cbn [of_option rbind].
  rewrite coupling_given by lra. cbn [rbind]. replace (validate_inputs _ _) with (Ret tt) by reflexivity. cbn [rbind fst snd]. reflexivity. }
  eexists. split; [left; reflexivity|repeat split; reflexivity].
Qed.
Print Assumptions C42_condition_values_refuted.
