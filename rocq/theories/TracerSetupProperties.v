(** C99: which combinations of tracers are set up, and that the initial solution is then the one C57 is about. *)
From Coq Require Import String.
From Verif Require Import Base MeshMapsModel DataModel SetupModel SetupProofs TracerSetupModel.
Local Notation length := List.length.
Local Open Scope nat_scope.

Lemma dof_tracer_fields cf : dof (tracer_fields cf) = num_tracers cf.
Proof. unfold tracer_fields, num_tracers, dof. destruct (Nat.ltb_spec 0 (cf_classes cf)), (cf_has_salinity cf), (cf_has_heat cf); cbn; lia. Qed.
Lemma create_tracer_dm cf : 0 < cf_classes cf -> CreateTracerDM cf = Some (num_tracers cf).
Proof.
  intros H; unfold CreateTracerDM. rewrite dof_tracer_fields.
  destruct (Nat.ltb_spec 0 (cf_classes cf + (if cf_has_salinity cf then 1 else 0) + (if cf_has_heat cf then 1 else 0))); [reflexivity|lia].
Qed.

(** ** Copying all components of a vector over itself *)
Lemma interleave_self n cells v : length v = n * cells -> forall u, length u = n * cells -> interleave n 0 n cells v u = Some v.
Proof.
  intros Lv u Lu. unfold interleave.
  pose (W := fun k i (p : nat * R) => fst p = n * i + k /\ nth_error v (n * i + k) = Some (snd p)).
  assert (Wr : writing (fun u => ofold (fun u k => ofold (fun u i => let* x := nth_error v (n * i + k) in upd u (n * i + 0 + k) x) (seq 0 cells) u) (seq 0 n) u)
    (fun p => exists k, In k (seq 0 n) /\ exists i, In i (seq 0 cells) /\ W k i p)).
  { apply writing_loop with (W := fun k p => exists i, In i (seq 0 cells) /\ W k i p); [|reflexivity].
    intros k Hk. apply writing_loop with (W := W k); [|reflexivity].
    intros i Hi. apply in_seq in Hk, Hi. assert (B : n * i + k < length v) by (rewrite Lv; nia).
    destruct (nth_error v (n * i + k)) as [x|] eqn:E; [|apply nth_error_None in E; lia].
    eapply writing_ext; [exact (writing_one (n * i + 0 + k) x)|intros w; reflexivity|].
    intros (j, y). unfold W. cbn [fst snd]. rewrite E. replace (n * i + 0 + k) with (n * i + k) by lia.
    split; [intros H; inversion H; auto|intros (-> & H); inversion H; auto]. }
  destruct (writing_effect _ _ u Wr) as (u' & E & L & Ok' & _).
  - intros j a b (k & _ & i & _ & H1 & H2) (k' & _ & i' & _ & H3 & H4). cbn [fst snd] in *. congruence.
  - intros j a (k & Hk & i & Hi & H1 & H2). cbn [fst snd] in *. apply in_seq in Hk, Hi. rewrite Lu. nia.
  - rewrite E. f_equal. apply nth_error_ext. intros j. destruct (lt_dec j (n * cells)) as [Hj|Hj].
    + assert (Hn : 0 < n) by (destruct n; [lia|lia]). destruct (nth_error v j) as [x|] eqn:Ex; [|apply nth_error_None in Ex; lia].
      apply Ok'. exists (j mod n). split; [apply in_seq; pose proof (Nat.mod_upper_bound j n); lia|].
      exists (j / n). split; [apply in_seq; split; [lia|]; apply Nat.div_lt_upper_bound; lia|].
      unfold W. cbn [fst snd]. rewrite <- Nat.div_mod by lia. auto.
    + assert (A : nth_error u' j = None) by (apply nth_error_None; lia). assert (B : nth_error v j = None) by (apply nth_error_None; lia). congruence.
Qed.
(* filling in keeps the number of entries *)
Definition keeps (F : list R -> option (list R)) : Prop := forall u u', F u = Some u' -> length u' = length u.
Lemma keeps_fold {A} (F : list R -> A -> option (list R)) l : (forall a, keeps (fun u => F u a)) -> keeps (ofold F l).
Proof.
  intros H; induction l as [|a l IH]; intros u u' E; cbn [ofold] in E; [congruence|].
  destruct (F u a) as [u1|] eqn:E1; [|discriminate]. cbn [obind] in E. rewrite (IH _ _ E). apply (H a u u1 E1).
Qed.
Lemma keeps_zset i x : keeps (fun u => zset u i x).
Proof. intros u u' E; unfold zset in E. destruct (i <? 0)%Z; [discriminate|]. eapply upd_length; exact E. Qed.
Lemma keeps_copy owned l2o nc off n data cells : keeps (copy_cells owned l2o nc off n data cells).
Proof.
  apply keeps_fold. intros c u u' E. destruct (nth_error l2o c) as [o|]; [|discriminate]. cbn [obind] in E.
  destruct (is_owned owned c); [|congruence]. revert E. apply keeps_fold. intros k w w' E.
  destruct (nth_error data (n * c + k)) as [v|]; [|discriminate]. cbn [obind] in E. eapply keeps_zset; exact E.
Qed.
Lemma keeps_set nc off vals ids : keeps (set_cells nc off vals ids).
Proof.
  apply keeps_fold. intros id. apply keeps_fold. intros ke w w' E. destruct (snd ke) as [v|]; [|discriminate]. cbn [obind] in E.
  eapply keeps_zset; exact E.
Qed.
Lemma keeps_fill owned l2o nc off offv n file vals uses rcs : keeps (fill_regions owned l2o nc off offv n file vals uses rcs).
Proof.
  intros u u' E. unfold fill_regions in E.
  assert (G : forall st st', ofold (fun st rc => let* b := uses rc in if b then fill_region owned l2o nc off offv n vals st (fst rc) else Some st) rcs st = Some st' -> length (fst st') = length (fst st)).
  { clear. induction rcs as [|rc rcs IH]; intros st st' E; cbn [ofold] in E; [congruence|].
    destruct (uses rc) as [b|]; [|discriminate]. cbn [obind] in E. destruct b; cbn [obind] in E; [|apply IH, E].
    destruct (fill_region owned l2o nc off offv n vals st (fst rc)) as [st1|] eqn:F; [|discriminate]. cbn [obind] in E.
    rewrite (IH _ _ E). clear E. unfold fill_region in F. destruct (snd st) as [data|].
    - destruct (copy_cells _ _ _ _ _ _ _ _) as [w|] eqn:C; [|discriminate]. inversion F; subst. cbn [fst]. eapply keeps_copy; exact C.
    - destruct (set_cells _ _ _ _ _) as [w|] eqn:C; [|discriminate]. inversion F; subst. cbn [fst]. eapply keeps_set; exact C. }
  destruct (ofold _ _ _) as [st|] eqn:F; [|discriminate]. cbn [obind] in E. inversion E; subst. apply (G _ _ F).
Qed.
Lemma fill_flow_length nc cf owned l2o rcs f : fill_flow nc cf owned l2o rcs = Some f -> length f = nc * num_owned owned.
Proof.
  intros E. unfold fill_flow in E. rewrite <- (repeat_length 0%R (nc * num_owned owned)). revert E. generalize (repeat 0%R (nc * num_owned owned)). intros u.
  apply (keeps_fold (fun u f => fill_regions owned l2o nc 0 0 3 (fc_file f) [fc_height f; fc_xmom f; fc_ymom f] (fun rc => Some (String.eqb (fc_name (cd_flow (snd rc))) (fc_name f))) rcs u)).
  intros a. apply keeps_fill.
Qed.

(** ** C99 *)
(* Without tracers, or with at least one class of sediment, salinity and heat on or off: the vectors fit together, and
   setup gives every process the initial solution C57 is about (SetupModel.InitSolution), or the error it gives. *)
Theorem C99_setup_partial cf owned l2o rcs : 0 < cf_classes cf \/ num_tracers cf = 0 ->
  SetupSolution cf owned l2o rcs = of_option (InitSolution cf owned l2o rcs (repeat 0%R ((3 + num_tracers cf) * num_owned owned))).
Proof.
  intros H. unfold SetupSolution, CreateVectors, setup_dms. destruct (Nat.eqb_spec (cf_classes cf) 0) as [C|C]; cbn [negb].
  - assert (T : num_tracers cf = 0) by (destruct H; [lia|assumption]).
    assert (Tr : cf_has_salinity cf = false /\ cf_has_heat cf = false).
    { unfold num_tracers in T. destruct (cf_has_salinity cf), (cf_has_heat cf); auto; lia. }
    destruct Tr as (Ts & Th). cbn [rbind dm]. unfold InitFlowSolution, flow_block. cbn [flow_global u_global bs entries]. rewrite T. cbn [dof fold_right Nat.add].
    unfold InitSolution. rewrite T. cbn [Nat.add]. change (InitFlowVec cf owned l2o rcs) with (fill_flow 3 cf owned l2o rcs).
    destruct (fill_flow 3 cf owned l2o rcs) as [f|] eqn:F; [|reflexivity]. cbn [of_option rbind obind].
    pose proof (fill_flow_length _ _ _ _ _ _ F) as Lf.
    rewrite (interleave_self 3 _ f Lf f Lf), (interleave_self 3 _ f Lf) by apply repeat_length. cbn [of_option rbind obind].
    unfold InitTracerSolution. rewrite C, Ts, Th. cbn [Nat.eqb negb andb]. unfold InitTracerVec. rewrite T. reflexivity.
  - assert (C' : 0 < cf_classes cf) by lia. cbn [tracer_dm]. rewrite (create_tracer_dm cf C'). cbn [rbind dm flow_dm].
    unfold InitFlowSolution, flow_block. cbn [flow_global u_global bs entries]. unfold InitSolution.
    change (InitFlowVec cf owned l2o rcs) with (fill_flow 3 cf owned l2o rcs).
    replace (dof [3 + num_tracers cf]) with (3 + num_tracers cf) by (cbn; lia). change CreateFlowDM with 3.
    destruct (fill_flow 3 cf owned l2o rcs) as [f|] eqn:F; [|reflexivity]. cbn [of_option rbind obind].
    destruct (interleave (3 + num_tracers cf) 0 3 (num_owned owned) f _) as [u|]; [|reflexivity]. cbn [of_option rbind obind].
    unfold InitTracerSolution, flow_block. destruct (Nat.eqb_spec (cf_classes cf) 0); [lia|]. cbn [andb tracer_global flow_global u_global bs].
    rewrite Nat.eqb_refl. cbn [check]. destruct (InitTracerVec cf owned l2o rcs) as [t|]; reflexivity.
Qed.
Print Assumptions C99_setup_partial.

(* With salinity or heat but no sediment no configuration can be set up, whatever the mesh and the conditions. *)
Theorem C99_without_sediment_refuted cf owned l2o rcs : cf_classes cf = 0 -> cf_has_salinity cf || cf_has_heat cf = true ->
  forall u, SetupSolution cf owned l2o rcs <> Ret u.
Proof.
  intros C H u. unfold SetupSolution, CreateVectors, setup_dms. rewrite C. cbn [Nat.eqb negb rbind].
  destruct (InitFlowSolution _ _ _ _ _) as [w| |]; cbn [rbind]; try discriminate. unfold InitTracerSolution. rewrite C. cbn [Nat.eqb andb].
  destruct (cf_has_salinity cf); cbn [negb andb]; [discriminate|]. destruct (cf_has_heat cf); cbn [negb]; [discriminate|discriminate H].
Qed.
Print Assumptions C99_without_sediment_refuted.

(* In the cases that are set up the block sizes agree: each cell has three components of flow followed by one per class,
   one for salinity and one for heat. *)
Theorem C99_blocks cf cells : 0 < cf_classes cf ->
  exists v w t, CreateVectors cf (setup_dms cf) cells = Ret v /\ flow_global v = Some w /\ tracer_global v = Some t
  /\ bs w = 3 /\ bs t = cf_classes cf + (if cf_has_salinity cf then 1 else 0) + (if cf_has_heat cf then 1 else 0) /\ bs (u_global v) = bs w + bs t.
Proof.
  intros C. unfold CreateVectors, setup_dms. destruct (Nat.eqb_spec (cf_classes cf) 0); [lia|]. cbn [negb tracer_dm]. rewrite (create_tracer_dm cf C).
  do 3 eexists; split; [reflexivity|]. split; [reflexivity|]. split; [reflexivity|]. cbn [u_global bs dm flow_dm].
  split; [reflexivity|]. split; [reflexivity|]. cbn; lia.
Qed.
Print Assumptions C99_blocks.

(* one region of two cells, one class of sediment and salinity; and salinity alone *)
Definition shallow : flow_condition := FlowCondition "shallow" CONDITION_DIRICHLET None (Some 1%R) (Some 2%R) (Some 3%R) None.
Definition muddy : sediment_condition := SedimentCondition "muddy" CONDITION_DIRICHLET [(None, Some 4%R)].
Definition two (classes : nat) : config := Config [shallow] [muddy] [] [] classes true false [] [] [] [] [].
Definition pond : region := Region 0 7 (Some "pond"%string) [0; 1] [0; 1]%Z.
Example C99_setup_example : 0 < cf_classes (two 1) /\ SetupSolution (two 1) [true; true] [0; 1]%Z [(pond, Conditions shallow (Some muddy) None None)] = Ret [1; 2; 3; 4; 0; 1; 2; 3; 4; 0]%R.
Proof. split; [cbn; lia|reflexivity]. Qed.
Example C99_no_tracers_example : let cf := Config [shallow] [] [] [] 0 false false [] [] [] [] [] in
  num_tracers cf = 0 /\ SetupSolution cf [true; true] [0; 1]%Z [(pond, Conditions shallow None None None)] = Ret [1; 2; 3; 1; 2; 3]%R.
Proof. split; reflexivity. Qed.
Example C99_without_sediment_example : cf_classes (two 0) = 0 /\ cf_has_salinity (two 0) || cf_has_heat (two 0) = true
  /\ SetupSolution (two 0) [true; true] [0; 1]%Z [(pond, Conditions shallow None None None)] = Error.
Proof. repeat split. Qed.
