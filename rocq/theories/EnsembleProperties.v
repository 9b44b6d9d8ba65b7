(** C41: ensembles. *)
From Verif Require Import Base MeshMapsModel DataModel SetupModel SetupProofs OutputModel OutputProofs EnsembleModel.
From Coq Require Import ZArith String.
Local Open Scope nat_scope.
Local Notation length := List.length.

(** ** Arithmetic of the split *)
Lemma count_block p c n : 0 < p -> length (filter (fun r => Nat.eqb (r / p) c) (seq 0 n)) = Nat.min p (n - c * p).
Proof.
  intros Hp. induction n as [|n IH]; [simpl; lia|].
  rewrite seq_S, filter_app, app_length, IH. cbn [plus filter].
  destruct (Nat.eqb_spec (n / p) c) as [E|N].
  - assert (c * p <= n) by (subst c; rewrite Nat.mul_comm; apply Nat.mul_div_le; lia).
    assert (n < c * p + p). { subst c. pose proof (Nat.mod_upper_bound n p ltac:(lia)). pose proof (Nat.div_mod n p ltac:(lia)). nia. }
    cbn [List.length]. lia.
  - cbn [List.length]. assert (n < c * p \/ c * p + p <= n); [|lia].
    pose proof (Nat.mod_upper_bound n p ltac:(lia)). pose proof (Nat.div_mod n p ltac:(lia)).
    destruct (Nat.lt_ge_cases (n / p) c); [left|right]; nia.
Qed.

Lemma filter_ext_in' {A} (f g : A -> bool) l : (forall a, In a l -> f a = g a) -> filter f l = filter g l.
Proof. intros H. induction l as [|a t IH]; [reflexivity|]. cbn. rewrite (H a (or_introl eq_refl)), IH; [reflexivity|]. intros; apply H; right; assumption. Qed.

(* what validation says *)
Definition accepted_ensemble (nproc : nat) (ec : ens_config) : Prop := ValidateEnsemble nproc ec = Ret tt /\ (ec_size ec > 1)%Z.
Lemma accepted_facts nproc ec : 0 < nproc -> accepted_ensemble nproc ec ->
  exists size per, ec_size ec = Z.of_nat size /\ 1 < size /\ length (ec_members ec) = size /\ nproc = size * per /\ 0 < per.
Proof.
  intros Hn (V & S). unfold ValidateEnsemble, check in V.
  destruct (Z.eqb (ec_size ec) 0 || Z.ltb 1 (ec_size ec))%bool; [|discriminate].
  destruct (Z.eqb_spec (ec_size ec) (Z.of_nat (length (ec_members ec)))) as [E|]; [|discriminate].
  destruct (Z.eqb_spec (ec_size ec) 0) as [Z0|_]; [lia|].
  destruct (Z.eqb_spec (Z.rem (Z.of_nat nproc) (ec_size ec)) 0) as [D|]; [|discriminate].
  set (size := length (ec_members ec)) in *. exists size, (nproc / size). split; [exact E|]. split; [lia|]. split; [reflexivity|].
  rewrite E in D. rewrite Z.rem_mod_nonneg in D by lia. rewrite <- Nat2Z.inj_mod in D. assert (D' : nproc mod size = 0) by lia.
  assert (Q := Nat.div_mod nproc size ltac:(lia)). rewrite D', Nat.add_0_r in Q. split; [exact Q|].
  destruct (nproc / size); lia.
Qed.

Lemma color_value size per r : 1 < size -> 0 < per -> color_of (size * per) size r = Ret (r / per).
Proof.
  intros Hs Hp. unfold color_of, cdiv. destruct (Nat.eqb_spec size 0); [lia|]. cbn [rbind].
  rewrite (Nat.mul_comm size), Nat.div_mul by lia. destruct (Nat.eqb_spec per 0); [lia|reflexivity].
Qed.

(* the process in closed form *)
Definition member_config (b : config) (m : member) : config :=
  Config (override fc_name (cf_flow b) (mb_flow m)) (override sc_name (cf_sediment b) (mb_sediment m))
            (override kc_name (cf_salinity b) (mb_salinity m)) (cf_temperature b)
            (cf_classes b) (cf_has_salinity b) (cf_has_heat b)
            (override mt_name (cf_materials b) (mb_materials m)) (cf_surface b)
            (cf_initial b) (cf_sources b) (cf_boundary b).
Lemma configured size per ec rank : ec_size ec = Z.of_nat size -> 1 < size -> 0 < per -> length (ec_members ec) = size -> rank < size * per ->
  exists m, nth_error (ec_members ec) (rank / per) = Some m /\ rank / per < size /\
    ConfigureEnsembleMember (size * per) rank ec =
      Ret (Process per (rank mod per) (rank / per) (name_of_member size (rank / per) m) (if String.eqb (mb_grid m) "" then ec_grid ec else mb_grid m) (member_config (ec_base ec) m)).
Proof.
  intros Es Hs Hp Lm Hr.
  assert (Hc : rank / per < size) by (apply Nat.div_lt_upper_bound; lia).
  destruct (nth_error (ec_members ec) (rank / per)) as [m|] eqn:Em; [|apply nth_error_None in Em; lia].
  exists m. split; [reflexivity|]. split; [exact Hc|]. unfold ConfigureEnsembleMember. rewrite Es, Nat2Z.id. cbv zeta.
  rewrite color_value by assumption. cbn [rbind]. rewrite Em. cbn [of_option rbind]. f_equal.
  assert (F : forall n, length (filter (fun r => Nat.eqb (match color_of (size * per) size r with Ret c => c | _ => 0 end) (match color_of (size * per) size rank with Ret c => c | _ => 0 end)) (seq 0 n)) = Nat.min per (n - (rank / per) * per)).
  { intros n. rewrite <- (count_block per (rank / per) n Hp). f_equal. apply filter_ext_in'. intros r _. now rewrite !color_value. }
  unfold MPI_Comm_split. cbn [fst snd]. rewrite !F.
  assert (M1 := Nat.div_mod rank per ltac:(lia)). assert (M2 := Nat.mod_upper_bound rank per ltac:(lia)).
  set (q := rank / per) in *. set (t := rank mod per) in *.
  replace (Nat.min per (size * per - q * per)) with per by nia.
  replace (Nat.min per (rank - q * per)) with t by nia. reflexivity.
Qed.

(** ** C41: every process belongs to one member, members get the same number of consecutive processes *)
(* For an accepted ensemble on [nproc] processes, there is a number [per] > 0 of processes per member such that the
   members together use all processes; process [rank] runs the member and has the rank within it that counting the
   processes off in blocks of [per] gives; and for every member and every rank within it there is exactly one process. *)
Theorem C41_even_split nproc ec : 0 < nproc -> accepted_ensemble nproc ec ->
  exists per, 0 < per /\ nproc = length (ec_members ec) * per /\
    (forall rank, rank < nproc -> exists p, ConfigureEnsembleMember nproc rank ec = Ret p /\
       ps_nproc p = per /\ ps_member p < length (ec_members ec) /\ ps_rank p < per /\ rank = ps_member p * per + ps_rank p) /\
    (forall m r, m < length (ec_members ec) -> r < per ->
       exists! rank, rank < nproc /\ exists p, ConfigureEnsembleMember nproc rank ec = Ret p /\ ps_member p = m /\ ps_rank p = r).
Proof.
  intros Hn A. destruct (accepted_facts nproc ec Hn A) as (size & per & Es & Hs & Lm & -> & Hp). exists per.
  rewrite Lm. split; [exact Hp|]. split; [reflexivity|].
  assert (K : forall rank, rank < size * per -> exists p, ConfigureEnsembleMember (size * per) rank ec = Ret p /\
       ps_nproc p = per /\ ps_member p < size /\ ps_rank p < per /\ rank = ps_member p * per + ps_rank p).
  { intros rank Hr. destruct (configured size per ec rank Es Hs Hp Lm Hr) as (m & _ & Hc & E). eexists. split; [exact E|]. cbn [ps_nproc ps_member ps_rank].
    split; [reflexivity|]. split; [exact Hc|]. split; [apply Nat.mod_upper_bound; lia|]. rewrite (Nat.mul_comm _ per). apply Nat.div_mod. lia. }
  split; [exact K|].
  intros m r Hm Hr. assert (Hb : m * per + r < size * per) by nia. exists (m * per + r). split.
  - split; [exact Hb|]. destruct (K _ Hb) as (p & E & _ & _ & Hr' & Q). exists p. split; [exact E|].
    assert (m = ps_member p); [|split; [auto|subst m; lia]].
    destruct (Nat.lt_trichotomy m (ps_member p)) as [L|[L|L]]; [nia|exact L|nia].
  - intros rank (Hrk & p & E & <- & <-). destruct (K rank Hrk) as (p' & E' & _ & _ & _ & Q). rewrite E in E'. injection E' as <-. symmetry. exact Q.
Qed.
Print Assumptions C41_even_split.

(** ** C41: the configuration a member sees *)
(* [e] is the first entry of [l] with the name [n] (the one the setup code finds) *)
Definition first_named {A} (nm : A -> string) (l : list A) (n : string) (e : A) : Prop :=
  exists pre post, l = (pre ++ e :: post)%list /\ nm e = n /\ forall a, In a pre -> nm a <> n.
Definition last_named {A} (nm : A -> string) (l : list A) (n : string) (e : A) : Prop :=
  exists pre post, l = (pre ++ e :: post)%list /\ nm e = n /\ forall a, In a post -> nm a <> n.
Definition not_named {A} (nm : A -> string) (l : list A) (n : string) : Prop := forall a, In a l -> nm a <> n.
(* A section after overriding: the same names in the same order; what is found under a name is the member's (last) entry
   of that name if it has one, otherwise the common entry. *)
Definition overridden {A} (nm : A -> string) (base own result : list A) : Prop :=
  map nm result = map nm base /\
  forall n e, first_named nm result n e <->
    (last_named nm own n e /\ exists b, first_named nm base n b) \/ (not_named nm own n /\ first_named nm base n e).

Lemma first_named_find {A} (nm : A -> string) l n e : first_named nm l n e <-> find_named nm l n = Some e.
Proof.
  split.
  - intros (pre & post & -> & E & N). induction pre as [|a t IH]; cbn.
    + rewrite E, String.eqb_refl. reflexivity.
    + destruct (String.eqb_spec (nm a) n) as [F|_]; [exfalso; exact (N a (or_introl eq_refl) F)|]. apply IH. intros; apply N; right; assumption.
  - revert e. induction l as [|a t IH]; cbn; [discriminate|]. intros e. destruct (String.eqb_spec (nm a) n) as [F|F].
    + intros [= <-]. exists [], t. split; [reflexivity|]. split; [exact F|]. intros x [].
    + intros H. destruct (IH e H) as (pre & post & -> & E & N). exists (a :: pre), post. split; [reflexivity|]. split; [exact E|]. intros x [<-|Hx]; [exact F|auto].
Qed.
Lemma replace_first_names {A} (nm : A -> string) l o : map nm (replace_first nm l o) = map nm l.
Proof. induction l as [|a t IH]; cbn; [reflexivity|]. destruct (String.eqb_spec (nm a) (nm o)) as [E|_]; cbn; [now rewrite E|now rewrite IH]. Qed.
Lemma replace_first_find {A} (nm : A -> string) l o n :
  find_named nm (replace_first nm l o) n = match find_named nm l n with Some b => Some (if String.eqb (nm o) n then o else b) | None => None end.
Proof.
  induction l as [|a t IH]; cbn; [reflexivity|].
  destruct (String.eqb_spec (nm a) (nm o)) as [E|E]; cbn.
  - rewrite E. destruct (String.eqb_spec (nm o) n) as [F|F]; [reflexivity|]. destruct (find_named nm t n); reflexivity.
  - destruct (String.eqb_spec (nm a) n) as [F|F]; [|exact IH]. destruct (String.eqb_spec (nm o) n) as [G|G]; [congruence|reflexivity].
Qed.
Lemma override_names {A} (nm : A -> string) own : forall base, map nm (override nm base own) = map nm base.
Proof. unfold override. induction own as [|o t IH]; intros base; cbn; [reflexivity|]. rewrite IH. apply replace_first_names. Qed.
Fixpoint last_of {A} (nm : A -> string) (l : list A) (n : string) (d : A) : A :=
  match l with [] => d | o :: t => last_of nm t n (if String.eqb (nm o) n then o else d) end.
Lemma override_find {A} (nm : A -> string) own : forall base n,
  find_named nm (override nm base own) n = match find_named nm base n with Some b => Some (last_of nm own n b) | None => None end.
Proof.
  unfold override. induction own as [|o t IH]; intros base n; cbn; [now destruct (find_named nm base n)|].
  rewrite IH, replace_first_find. destruct (find_named nm base n); reflexivity.
Qed.
Lemma last_of_spec {A} (nm : A -> string) own n : forall d e, last_of nm own n d = e -> last_named nm own n e \/ (not_named nm own n /\ e = d).
Proof.
  induction own as [|o t IH]; intros d e H; cbn in H; [right; split; [intros a []|auto]|].
  destruct (IH _ _ H) as [(pre & post & -> & E & N)|(N & ->)].
  - left. exists (o :: pre), post. auto.
  - destruct (String.eqb_spec (nm o) n) as [E|E].
    + left. exists [], t. auto.
    + right. split; [intros a [<-|Ha]; auto|reflexivity].
Qed.
Lemma last_named_unique {A} (nm : A -> string) own n e e' : last_named nm own n e -> last_named nm own n e' -> e = e'.
Proof.
  intros (p & q & -> & E & N) (p' & q' & E2 & E' & N').
  revert p' E2. induction p as [|a p IH]; destruct p' as [|a' p']; cbn; intros [= -> H].
  - reflexivity.
  - exfalso. apply (N e'); [|exact E']. rewrite H. apply in_or_app. right. left. reflexivity.
  - exfalso. apply (N' e); [|exact E]. rewrite <- H. apply in_or_app. right. left. reflexivity.
  - apply (IH p' H).
Qed.
Lemma last_not_none {A} (nm : A -> string) own n e : last_named nm own n e -> not_named nm own n -> False.
Proof. intros (p & q & -> & E & _) N. apply (N e); [apply in_or_app; right; left; reflexivity|exact E]. Qed.
Lemma override_overridden {A} (nm : A -> string) base own : overridden nm base own (override nm base own).
Proof.
  split; [apply override_names|]. intros n e. rewrite first_named_find, override_find. split.
  - destruct (find_named nm base n) as [b|] eqn:Eb; [|discriminate]. intros [= H]. destruct (last_of_spec nm own n b e H) as [L|(N & ->)].
    + left. split; [exact L|]. exists b. now apply first_named_find.
    + right. split; [exact N|]. now apply first_named_find.
  - intros [(L & b & Hb)|(N & Hb)]; apply first_named_find in Hb; rewrite Hb; f_equal.
    + destruct (last_of_spec nm own n b _ eq_refl) as [L'|(N & _)]; [exact (last_named_unique _ _ _ _ _ L' L)|destruct (last_not_none _ _ _ _ L N)].
    + destruct (last_of_spec nm own n e _ eq_refl) as [L'|(_ & ->)]; [destruct (last_not_none _ _ _ _ L' N)|reflexivity].
Qed.

(* A process of an accepted ensemble works with the common configuration with the sections of its own member replaced,
   on the grid of its member if that has one, and under the name of its member if that has one; everything else is
   the common configuration. *)
Theorem C41_member_configuration nproc ec rank : 0 < nproc -> accepted_ensemble nproc ec -> rank < nproc ->
  exists p m, ConfigureEnsembleMember nproc rank ec = Ret p /\ nth_error (ec_members ec) (ps_member p) = Some m /\
    let b := ec_base ec in let c := ps_config p in
    overridden fc_name (cf_flow b) (mb_flow m) (cf_flow c) /\
    overridden sc_name (cf_sediment b) (mb_sediment m) (cf_sediment c) /\
    overridden kc_name (cf_salinity b) (mb_salinity m) (cf_salinity c) /\
    overridden mt_name (cf_materials b) (mb_materials m) (cf_materials c) /\
    cf_temperature c = cf_temperature b /\ cf_classes c = cf_classes b /\ cf_has_salinity c = cf_has_salinity b /\ cf_has_heat c = cf_has_heat b /\
    cf_surface c = cf_surface b /\ cf_initial c = cf_initial b /\ cf_sources c = cf_sources b /\ cf_boundary c = cf_boundary b /\
    (mb_grid m = ""%string -> ps_grid p = ec_grid ec) /\ (mb_grid m <> ""%string -> ps_grid p = mb_grid m) /\
    (mb_name m <> ""%string -> ps_name p = mb_name m).
Proof.
  intros Hn A Hr. destruct (accepted_facts nproc ec Hn A) as (size & per & Es & Hs & Lm & -> & Hp).
  destruct (configured size per ec rank Es Hs Hp Lm Hr) as (m & Em & _ & E). eexists. exists m. split; [exact E|].
  cbn [ps_member ps_config ps_grid ps_name]. split; [exact Em|]. cbv zeta. unfold member_config, name_of_member. cbn [cf_flow cf_sediment cf_salinity cf_materials cf_temperature cf_classes cf_has_salinity cf_has_heat cf_surface cf_initial cf_sources cf_boundary].
  repeat (split; [apply override_overridden|]). repeat (split; [reflexivity|]).
  destruct (String.eqb_spec (mb_grid m) "") as [G|G], (String.eqb_spec (mb_name m) "") as [F|F]; repeat split; intros; congruence.
Qed.
Print Assumptions C41_member_configuration.

(* What a member sees does not depend on the overrides of the other members. *)
Theorem C41_isolated nproc ec ec' rank p : 0 < nproc -> accepted_ensemble nproc ec -> accepted_ensemble nproc ec' -> rank < nproc ->
  ec_grid ec' = ec_grid ec -> ec_base ec' = ec_base ec -> ec_size ec' = ec_size ec ->
  ConfigureEnsembleMember nproc rank ec = Ret p ->
  nth_error (ec_members ec') (ps_member p) = nth_error (ec_members ec) (ps_member p) ->
  ConfigureEnsembleMember nproc rank ec' = Ret p.
Proof.
  intros Hn A A' Hr Eg Eb Ez E Em. destruct (accepted_facts nproc ec Hn A) as (size & per & Es & Hs & Lm & -> & Hp).
  assert (Lm' : length (ec_members ec') = size). { destruct (accepted_facts _ ec' Hn A') as (s' & _ & Es' & _ & L' & _). lia. }
  destruct (configured size per ec rank Es Hs Hp Lm Hr) as (m & Hm & _ & E1). rewrite E in E1. injection E1 as ->. cbn [ps_member] in Em.
  destruct (configured size per ec' rank ltac:(lia) Hs Hp Lm' Hr) as (m' & Hm' & _ & E2). rewrite E2. assert (m' = m) by congruence. subst m'. now rewrite Eg, Eb.
Qed.
Print Assumptions C41_isolated.

(* A concrete ensemble: two members on four processes; the second changes a condition and the grid. *)
Definition tide (h : R) : flow_condition := FlowCondition "tide" CONDITION_DIRICHLET None (Some h) (Some 0%R) (Some 0%R) None.
Definition wall : flow_condition := FlowCondition "wall" CONDITION_REFLECTING None None None None None.
Definition demo_base : config := Config [wall; tide 1] [] [] [] 0 false false [] [] [] [] [].
Definition demo_ensemble : ens_config := EnsConfig "a.exo" demo_base 2 [Member "" "" [] [] [] []; Member "" "b.exo" [] [tide 5] [] []].
Example ensemble_example : accepted_ensemble 4 demo_ensemble /\
  (exists p, ConfigureEnsembleMember 4 1 demo_ensemble = Ret p /\ ps_member p = 0 /\ ps_rank p = 1 /\ ps_grid p = "a.exo"%string /\ cf_flow (ps_config p) = [wall; tide 1]) /\
  (exists p, ConfigureEnsembleMember 4 2 demo_ensemble = Ret p /\ ps_member p = 1 /\ ps_rank p = 0 /\ ps_grid p = "b.exo"%string /\ ps_name p = "ensemble_1"%string /\ cf_flow (ps_config p) = [wall; tide 5]).
Proof.
  split; [split; [reflexivity|simpl; lia]|]. split; eexists; (split; [reflexivity|]); cbn [ps_member ps_rank ps_grid ps_config cf_flow ps_name]; repeat split.
Qed.

(** ** C41: members do not write to the same place *)
(* Members are told apart by their names: given ones must be distinct and must not look like default ones, must fit, and
   the numbers of members must have at most 14 digits. *)
Definition distinct_names (ec : ens_config) : Prop :=
  (forall i j m m', nth_error (ec_members ec) i = Some m -> nth_error (ec_members ec) j = Some m' -> mb_name m <> ""%string -> mb_name m = mb_name m' -> i = j) /\
  (forall m, In m (ec_members ec) -> String.prefix "ensemble_" (mb_name m) = false).
Lemma prefix_app a b : String.prefix a (String.append a b) = true.
Proof. induction a as [|c a IH]; [destruct b; reflexivity|]. cbn. destruct (Ascii.ascii_dec c c); [exact IH|contradiction]. Qed.
Lemma default_value size c : String.length (dec size) <= 14 -> String.length (dec c) <= 14 -> default_name size c = String.append "ensemble_" (padded (String.length (dec size)) c).
Proof.
  intros H H'. unfold default_name. rewrite (snprintf_fits 15) by (rewrite padded_length; lia).
  apply snprintf_fits. unfold MAX_NAME_LEN. rewrite append_length, padded_length. cbn [String.length]. lia.
Qed.
Theorem C41_own_directories_partial nproc ec dir r r' p p' : 0 < nproc -> accepted_ensemble nproc ec ->
  distinct_names ec -> (forall c, c <= length (ec_members ec) -> String.length (dec c) <= 14) ->
  (forall m, In m (ec_members ec) -> String.length (mb_name m) <= 128) -> String.length dir <= 3000 ->
  r < nproc -> r' < nproc -> ConfigureEnsembleMember nproc r ec = Ret p -> ConfigureEnsembleMember nproc r' ec = Ret p' ->
  (output_directory dir p = output_directory dir p' <-> ps_member p = ps_member p') /\
  (checkpoint_directory p = checkpoint_directory p' <-> ps_member p = ps_member p').
Proof.
  intros Hn A (Du & Dp) Dg Hl Hd Hr Hr' E E'. destruct (accepted_facts nproc ec Hn A) as (size & per & Es & Hs & Lm & -> & Hp).
  destruct (configured size per ec r Es Hs Hp Lm Hr) as (m & Hm & Hc & E1). rewrite E in E1. injection E1 as ->.
  destruct (configured size per ec r' Es Hs Hp Lm Hr') as (m' & Hm' & Hc' & E1). rewrite E' in E1. injection E1 as ->.
  unfold output_directory, checkpoint_directory. cbn [ps_name ps_member].
  set (c := r / per) in *. set (c' := r' / per) in *. clearbody c c'.
  assert (Ln : forall k q, nth_error (ec_members ec) k = Some q -> k < size -> String.length (name_of_member size k q) <= 128).
  { intros k q Hq Hk. unfold name_of_member. destruct (String.eqb (mb_name q) ""); [|apply Hl; eapply nth_error_In; exact Hq].
    rewrite default_value by (apply Dg; lia). rewrite append_length, padded_length. pose proof (Dg size ltac:(lia)). pose proof (Dg k ltac:(lia)). cbn [String.length]. lia. }
  assert (Same : name_of_member size c m = name_of_member size c' m' -> c = c').
  { unfold name_of_member. destruct (String.eqb_spec (mb_name m) "") as [F|F], (String.eqb_spec (mb_name m') "") as [G|G].
    - rewrite !default_value by (apply Dg; lia). intros H. apply append_inj_l in H. now apply padded_inj in H.
    - rewrite default_value by (apply Dg; lia). intros H. pose proof (Dp m' (nth_error_In _ _ Hm')) as P. rewrite <- H, prefix_app in P. discriminate.
    - rewrite default_value by (apply Dg; lia). intros H. pose proof (Dp m (nth_error_In _ _ Hm)) as P. rewrite H, prefix_app in P. discriminate.
    - intros H. exact (Du _ _ _ _ Hm Hm' F H). }
  assert (Same' : c = c' -> name_of_member size c m = name_of_member size c' m').
  { intros <-. congruence. }
  pose proof (Ln c m Hm Hc) as L1. pose proof (Ln c' m' Hm' Hc') as L2.
  rewrite !snprintf_fits by (unfold PETSC_MAX_PATH_LEN; rewrite !append_length; cbn [String.length]; lia).
  split; (split; [intros H; apply Same|intros H; now rewrite (Same' H)]).
  - apply append_inj_l in H. now apply append_inj_l in H.
  - now apply append_inj_l in H.
Qed.
Print Assumptions C41_own_directories_partial.
Example own_directories_example : distinct_names demo_ensemble /\
  exists p p', ConfigureEnsembleMember 4 0 demo_ensemble = Ret p /\ ConfigureEnsembleMember 4 3 demo_ensemble = Ret p' /\ output_directory "out" p = "out/ensemble_0"%string /\ output_directory "out" p' = "out/ensemble_1"%string.
Proof.
  split.
  - split; [|intros m [<-|[<-|[]]]; reflexivity]. intros [|[|i]] j m m' H _ N; cbn in H; try (injection H as <-; contradiction). destruct i; discriminate.
  - do 2 eexists. split; [reflexivity|]. split; [reflexivity|]. split; reflexivity.
Qed.
(* Names are not checked: an accepted ensemble in which two members write to the same directories; a given name may also
   be a default name of another member. *)
Theorem C41_own_directories_refuted :
  (exists ec p p', accepted_ensemble 2 ec /\ ConfigureEnsembleMember 2 0 ec = Ret p /\ ConfigureEnsembleMember 2 1 ec = Ret p' /\
     ps_member p <> ps_member p' /\ (forall dir, output_directory dir p = output_directory dir p') /\ checkpoint_directory p = checkpoint_directory p' /\ (forall m, In m (ec_members ec) -> mb_name m = "base"%string)) /\
  (exists ec p p', accepted_ensemble 2 ec /\ ConfigureEnsembleMember 2 0 ec = Ret p /\ ConfigureEnsembleMember 2 1 ec = Ret p' /\
     ps_member p <> ps_member p' /\ (forall dir, output_directory dir p = output_directory dir p') /\ (exists m, nth_error (ec_members ec) 1 = Some m /\ mb_name m = ""%string)).
Proof.
  split.
  - exists (EnsConfig "a.exo" demo_base 2 [Member "base" "" [] [] [] []; Member "base" "" [] [tide 5] [] []]). do 2 eexists.
    split; [split; [reflexivity|simpl; lia]|]. split; [reflexivity|]. split; [reflexivity|]. cbn [ps_member]. split; [discriminate|]. split; [reflexivity|]. split; [reflexivity|]. intros m [<-|[<-|[]]]; reflexivity.
  - exists (EnsConfig "a.exo" demo_base 2 [Member "ensemble_1" "" [] [] [] []; Member "" "" [] [tide 5] [] []]). do 2 eexists.
    split; [split; [reflexivity|simpl; lia]|]. split; [reflexivity|]. split; [reflexivity|]. cbn [ps_member]. split; [discriminate|]. split; [reflexivity|]. eexists. split; reflexivity.
Qed.
Print Assumptions C41_own_directories_refuted.

(* An override under a name the common configuration does not have is dropped without an error (a member with a
   misspelt name runs with the common values). *)
Theorem C41_override_dropped_refuted : exists ec p m o, accepted_ensemble 2 ec /\ ConfigureEnsembleMember 2 1 ec = Ret p /\
  nth_error (ec_members ec) (ps_member p) = Some m /\ In o (mb_flow m) /\ ps_config p = ec_base ec /\ ~ In o (cf_flow (ps_config p)).
Proof.
  set (o := FlowCondition "tides" CONDITION_DIRICHLET None (Some 5%R) (Some 0%R) (Some 0%R) None).
  exists (EnsConfig "a.exo" demo_base 2 [Member "" "" [] [] [] []; Member "" "" [] [o] [] []]). do 2 eexists. exists o.
  split; [split; [reflexivity|simpl; lia]|]. split; [reflexivity|]. cbn [ps_member ps_config]. split; [reflexivity|]. split; [left; reflexivity|]. split; [reflexivity|].
  intros [H|[H|[]]]; discriminate H.
Qed.
Print Assumptions C41_override_dropped_refuted.

(* Overrides are not validated: a member's material without a value or file is accepted, and initialising the
   material properties with it is undefined, although the common configuration is fine. *)
Theorem C41_override_unvalidated_refuted : exists ec p owned l2o rs mat, accepted_ensemble 2 ec /\ ConfigureEnsembleMember 2 1 ec = Ret p /\
  (exists mat', InitMaterialProperties (ec_base ec) owned l2o rs mat = Ret mat') /\ InitMaterialProperties (ps_config p) owned l2o rs mat = UB.
Proof.
  set (b := Config [] [] [] [] 0 false false [Material "grass" None (Some (3/100)%R)] [("all", "grass")]%string [] [] []).
  exists (EnsConfig "a.exo" b 2 [Member "" "" [] [] [] []; Member "" "" [Material "grass" None None] [] [] []]). eexists.
  exists [true], [0%Z], [Region 0 1%Z (Some "all"%string) [0] [0%Z]], [0%R].
  split; [split; [reflexivity|simpl; lia]|]. split; [reflexivity|]. cbn [ps_config]. split; [eexists; reflexivity|reflexivity].
Qed.
Print Assumptions C41_override_unvalidated_refuted.
