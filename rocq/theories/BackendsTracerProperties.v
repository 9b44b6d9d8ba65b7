(** C93 with sediment: a simulation on the host and the same simulation on the device give the same solution. *)
From Coq Require Import String FunctionalExtensionality.
From Verif Require Import Base RoeModel RoeProofs EdgeModel EdgeProofs HRModel HRProofs SourceModel SourceProofs AssemblyModel AssemblyProofs TracerModel TracerProofs TracerMeshProofs TracerProperties SedimentProperties DecompModel DecompSpec DecompProofs DecompProperties
  TracerDecompModel TracerDecompSpec TracerDecompProofs TracerDecompProperties FluxProperties SourceProperties
  MeshMapsProofs AMRProofs CeedLayoutModel CeedLayoutSpec CeedLayoutProofs CeedLayoutProperties CeedMusclProofs CeedHRModel CeedHRSpec CeedHRProofs CeedHRProperties
  CeedRunModel CeedRunSpec CeedRunProofs CeedRunProperties PetscRunModel PetscTracerModel PetscTracerSpec PetscTracerProofs PetscTracerProperties CeedTracerSpec CeedTracerProofs CeedTracerProperties
  BackendsSpec BackendsProperties BackendsTracerSpec.
Local Open Scope R_scope.
Local Notation length := List.length.

(** ** Edges *)
Lemma alike_clear t a b : alike t a b -> a <> t /\ b <> t.
Proof. intros [(A & B)|(A & B)]; lra. Qed.
Lemma left_agree tiny q : 0 < tiny -> depth q <> tiny -> ceed_tracer_left tiny q = petsc_tracer_prim tiny q.
Proof.
  intros T N. unfold ceed_tracer_left, petsc_tracer_prim, SafeDiv. cbv zeta. destruct (tiny <? depth q) eqn:E.
  - apply Rltb_true in E. assert (E2 : (depth q <? tiny) = false) by (apply Rltb_false; lra). rewrite E2. reflexivity.
  - apply Rltb_false in E. assert (E2 : (depth q <? tiny) = true) by (apply Rltb_true; lra). rewrite E2. reflexivity.
Qed.
Lemma right_agree tiny qL qR : 0 < tiny -> depth qR <> tiny -> alike tiny (depth qL) (depth qR) \/ clean_right tiny qL qR ->
  ceed_tracer_right tiny (depth qL) qR = petsc_tracer_prim tiny qR.
Proof.
  intros T N H. rewrite <- left_agree by assumption. unfold ceed_tracer_right, ceed_tracer_left. cbv zeta.
  assert (E : (if tiny <? depth qL then rdivs (ttr qR) (depth qR) else Some (fun _ => 0)) = if tiny <? depth qR then rdivs (ttr qR) (depth qR) else Some (fun _ => 0)).
  { destruct H as [[(A & B)|(A & B)]|(P & Z)].
    - assert (E1 : (tiny <? depth qL) = true) by (apply Rltb_true; lra). assert (E2 : (tiny <? depth qR) = true) by (apply Rltb_true; lra). rewrite E1, E2. reflexivity.
    - assert (E1 : (tiny <? depth qL) = false) by (apply Rltb_false; lra). assert (E2 : (tiny <? depth qR) = false) by (apply Rltb_false; lra). rewrite E1, E2. reflexivity.
    - assert (ZR : depth qR <> 0 -> rdivs (ttr qR) (depth qR) = Some (fun _ => 0)) by (intros D; rewrite rdivs_some by exact D; apply f_equal; apply functional_extensionality; intros j; rewrite Z; field; exact D).
      destruct (tiny <? depth qL) eqn:E1; destruct (tiny <? depth qR) eqn:E2; try reflexivity.
      + apply Rltb_true in E1. specialize (P E1). apply ZR. lra.
      + apply Rltb_true in E2. symmetry. apply ZR. lra. }
  rewrite E. unfold SafeDiv. destruct (tiny <? depth qR) eqn:G; [|reflexivity]. apply Rltb_true in G. rewrite !rdiv_some, rdivs_some by lra. reflexivity.
Qed.
Lemma petsc_prim_depth tiny q P : 0 < tiny -> petsc_tracer_prim tiny q = Some P -> ph (tp P) = depth q.
Proof. intros T E. destruct (petsc_tracer_prim_some tiny q T) as (P' & E' & H & _). assert (P' = P) by congruence. subst P'. rewrite H. apply pvel_h. Qed.
Lemma flux_agree k tiny qL qR sn cn L Rt : 0 < tiny -> 0 <= depth qL -> 0 <= depth qR -> depth qL <> tiny -> depth qR <> tiny -> tiny < depth qL \/ tiny < depth qR ->
  alike tiny (depth qL) (depth qR) \/ clean_right tiny qL qR -> petsc_tracer_prim tiny qL = Some L -> petsc_tracer_prim tiny qR = Some Rt ->
  ceed_tracer_flux k GRAVITY tiny qL qR sn cn = petsc_tracer_flux k L Rt sn cn.
Proof.
  intros T PL PR NL NR W C EL ER. unfold ceed_tracer_flux, petsc_tracer_flux. rewrite left_agree, EL, obind_Some, right_agree, ER, obind_Some by assumption.
  assert (Hw : wetpair (tp L) (tp Rt)) by (unfold wetpair; rewrite (petsc_prim_depth tiny qL L T EL), (petsc_prim_depth tiny qR Rt T ER); lra).
  rewrite ceed_eigenspectrum_some, petsc_eigenspectrum_some by (exact GRAVITY_pos || exact Hw). reflexivity.
Qed.
Lemma edge_agree k tiny qL qR sn cn : 0 < tiny -> 0 <= depth qL -> 0 <= depth qR -> depth qL <> tiny -> depth qR <> tiny ->
  alike tiny (depth qL) (depth qR) \/ clean_right tiny qL qR -> ceed_tracer_edge k GRAVITY tiny qL qR sn cn = petsc_tracer_edge k tiny qL qR sn cn.
Proof.
  intros T PL PR NL NR C. unfold ceed_tracer_edge, petsc_tracer_edge. destruct (petsc_tracer_prim_some tiny qL T) as (L & EL & _). destruct (petsc_tracer_prim_some tiny qR T) as (Rt & ER & _).
  rewrite EL, ER, !obind_Some. destruct (tiny <? depth qL) eqn:A; destruct (tiny <? depth qR) eqn:B; cbn [orb];
    (apply Rltb_true in A || apply Rltb_false in A); (apply Rltb_true in B || apply Rltb_false in B).
  - assert (X : (depth qR <? tiny) = false) by (apply Rltb_false; lra). rewrite X. cbn [andb]. apply flux_agree; try assumption. left. lra.
  - assert (X : (depth qL <? tiny) = false) by (apply Rltb_false; lra). rewrite X, Bool.andb_false_r. apply flux_agree; try assumption. left. lra.
  - assert (X : (depth qR <? tiny) = false) by (apply Rltb_false; lra). rewrite X. cbn [andb]. apply flux_agree; try assumption. right. lra.
  - assert (X : (depth qR <? tiny) = true) by (apply Rltb_true; lra). assert (Y : (depth qL <? tiny) = true) by (apply Rltb_true; lra). rewrite X, Y. reflexivity.
Qed.
Lemma rec_left tiny h P : 0 < tiny -> tiny < h -> ph (tp P) = h ->
  let q := TV (V3 (ph (tp P)) (ph (tp P) * pu (tp P)) (ph (tp P) * pv (tp P))) (fun j => ph (tp P) * tci P j) in
  ceed_tracer_left tiny q = Some P /\ forall hl, tiny < hl -> ceed_tracer_right tiny hl q = Some P.
Proof.
  intros T H E q. assert (X : (tiny <? ph (tp P)) = true) by (apply Rltb_true; lra).
  assert (D : ph (tp P) <> 0) by lra.
  assert (F : TPrim (Prim (ph (tp P)) (ph (tp P) * pu (tp P) / ph (tp P)) (ph (tp P) * pv (tp P) / ph (tp P))) (fun j => ph (tp P) * tci P j / ph (tp P)) = P).
  { destruct P as [[a b c] d]. cbn [tp ph pu pv tci] in *. apply f_equal2; [apply f_equal2; field; exact D|]. apply functional_extensionality. intros j. field. exact D. }
  split; [|intros hl Hl; assert (Y : (tiny <? hl) = true) by (apply Rltb_true; lra)]; unfold ceed_tracer_left, ceed_tracer_right, q, depth, SafeDiv; cbn [tflow ttr c0 c1 c2]; rewrite ?X, ?Y, !rdiv_some, rdivs_some by exact D; cbn [obind]; apply f_equal; exact F.
Qed.
Lemma hr_edge_agree tiny ha zL zR qL qR sn cn : 0 < tiny -> depth qL <> tiny -> depth qR <> tiny -> alike tiny (hr_depth (depth qL) zL zR) (hr_depth (depth qR) zR zL) ->
  ceed_tracer_hr_edge GRAVITY tiny ha zL zR qL qR sn cn = petsc_tracer_hr_edge TRoe tiny ha zL zR qL qR sn cn.
Proof.
  intros T NL NR C. unfold ceed_tracer_hr_edge, petsc_tracer_hr_edge. set (rl := hr_depth (depth qL) zL zR) in *. set (rr := hr_depth (depth qR) zR zL) in *.
  destruct (hr_tracer_prim_some tiny ha rl qL T) as (PL & -> & EL & _). destruct (hr_tracer_prim_some tiny ha rr qR T) as (PR & -> & ER & _). rewrite !obind_Some. cbv zeta. apply (f_equal ph) in EL. apply (f_equal ph) in ER. cbn [ph] in EL, ER.
  assert (G : ((tiny <? depth qL) || (tiny <? depth qR))%bool = negb ((depth qR <? tiny) && (depth qL <? tiny))%bool).
  { destruct (tiny <? depth qL) eqn:A; destruct (tiny <? depth qR) eqn:B; cbn [orb]; (apply Rltb_true in A || apply Rltb_false in A); (apply Rltb_true in B || apply Rltb_false in B).
    - assert (X : (depth qR <? tiny) = false) by (apply Rltb_false; lra). rewrite X. reflexivity.
    - assert (X : (depth qL <? tiny) = false) by (apply Rltb_false; lra). rewrite X, Bool.andb_false_r. reflexivity.
    - assert (X : (depth qR <? tiny) = false) by (apply Rltb_false; lra). rewrite X. reflexivity.
    - assert (X : (depth qR <? tiny) = true) by (apply Rltb_true; lra). assert (Y : (depth qL <? tiny) = true) by (apply Rltb_true; lra). rewrite X, Y. reflexivity. }
  rewrite G. destruct ((depth qR <? tiny) && (depth qL <? tiny))%bool; cbn [negb]; [reflexivity|].
  destruct C as [(A & B)|(A & B)].
  - assert (X : (tiny <? rl) = true) by (apply Rltb_true; lra). rewrite X. cbn [orb].
    unfold ceed_tracer_flux, petsc_tracer_flux. destruct (rec_left tiny rl PL T A EL) as (-> & _). destruct (rec_left tiny rr PR T B ER) as (_ & RR). rewrite obind_Some. unfold depth at 1. cbn [tflow c0]. rewrite RR by (rewrite EL; exact A). rewrite obind_Some.
    assert (Hw : wetpair (tp PL) (tp PR)) by (unfold wetpair; lra).
    rewrite ceed_eigenspectrum_some, petsc_eigenspectrum_some by (exact GRAVITY_pos || exact Hw). reflexivity.
  - assert (X : (tiny <? rl) = false) by (apply Rltb_false; lra). assert (Y : (tiny <? rr) = false) by (apply Rltb_false; lra). rewrite X, Y. reflexivity.
Qed.
Lemma reflect_agree k tiny q sn cn : 0 < tiny -> 0 <= depth q -> depth q <> tiny -> ceed_tracer_bedge k GRAVITY tiny TReflecting q sn cn = petsc_tracer_bedge k tiny TReflecting q sn cn.
Proof.
  intros T P N. unfold petsc_tracer_bedge, ceed_tracer_bedge. destruct (petsc_tracer_prim_some tiny q T) as (L & EL & EV & EC). rewrite EL, !obind_Some. rewrite (petsc_prim_depth tiny q L T EL).
  assert (DR : ph (tp (petsc_tracer_reflect L sn cn)) = depth q) by (cbn [petsc_tracer_reflect tp petsc_reflect ph]; exact (petsc_prim_depth tiny q L T EL)).
  rewrite DR, Bool.andb_diag. cbv zeta. destruct (tiny <? depth q) eqn:E.
  - apply Rltb_true in E. assert (X : (depth q <? tiny) = false) by (apply Rltb_false; lra). rewrite X. fold (mirror (tflow q) sn cn). set (qR := TV (mirror (tflow q) sn cn) (ttr q)).
    assert (DQ : depth qR = depth q) by reflexivity.
    rewrite (flux_agree k tiny q qR sn cn L (petsc_tracer_reflect L sn cn)); try assumption; try (rewrite DQ; assumption).
    + reflexivity.
    + left. exact E.
    + left. left. rewrite DQ. auto.
    + unfold petsc_tracer_prim in EL |- *. rewrite DQ. rewrite X in *. cbn [qR tflow ttr mirror c1 c2]. rewrite !rdiv_some, rdivs_some in EL by lra. cbn [obind] in EL. injection EL as <-. rewrite !rdiv_some, rdivs_some by lra. cbn [obind].
      apply f_equal. unfold petsc_tracer_reflect. cbn [tp tci]. apply f_equal2; [|reflexivity]. unfold petsc_reflect. cbn [ph pu pv]. apply f_equal2; field; lra.
  - apply Rltb_false in E. assert (X : (depth q <? tiny) = true) by (apply Rltb_true; lra). rewrite X. reflexivity.
Qed.
Lemma bedge_agree cf bc q sn cn : 0 < cf_tiny_h cf -> clear_depth (cf_tiny_h cf) (depth q) -> clear_tboundary (cf_tiny_h cf) q bc ->
  dev_boundary cf bc q sn cn = petsc_tracer_bedge (tkind (cf_riemann cf)) (cf_tiny_h cf) bc q sn cn.
Proof.
  intros T (P & N) B. unfold dev_boundary. destruct bc as [qR|]; [|apply reflect_agree; assumption]. destruct B as ((PR & NR) & W & C).
  assert (X : ((cf_tiny_h cf <? depth q) || (cf_tiny_h cf <? depth qR))%bool = true) by (apply Bool.orb_true_iff; destruct W as [W|W]; [left|right]; apply Rltb_true; exact W).
  rewrite X. cbn [negb]. cbn [ceed_tracer_bedge]. rewrite edge_agree by assumption. unfold petsc_tracer_edge, petsc_tracer_bedge.
  destruct (petsc_tracer_prim_some (cf_tiny_h cf) q T) as (L & EL & _). destruct (petsc_tracer_prim_some (cf_tiny_h cf) qR T) as (Rt & ER & _). rewrite EL, ER, !obind_Some, (petsc_prim_depth _ q L T EL), (petsc_prim_depth _ qR Rt T ER), Bool.andb_comm. reflexivity.
Qed.
(** ** Cells *)
Lemma source_agree bed dt tiny n zx zy q F src : 0 <= dt -> 0 < tiny -> depth q <> tiny -> (depth q < tiny -> forall j, ttr src j = 0) ->
  ceed_tracer_rhs bed GRAVITY dt tiny n zx zy q F src = petsc_tracer_rhs bed dt tiny n zx zy q F src.
Proof.
  intros D T N Z. destruct (ceed_tracer_rhs_defined bed dt tiny n zx zy q F src T D) as (r & E). rewrite E.
  destruct (ceed_tracer_rhs_flow bed GRAVITY dt tiny n zx zy q F src r E) as (fl & EF & HF). rewrite C08_sources_agree_partial in EF by (try assumption; reflexivity).
  assert (EP : exists p, petsc_tracer_rhs bed dt tiny n zx zy q F src = Some p).
  { unfold petsc_tracer_rhs. rewrite EF, obind_Some. destruct (tiny <=? depth q) eqn:G; [|eauto]. apply Rleb_true in G. rewrite !rdiv_some, rdivs_some by lra. cbn [obind]. unfold rpowneg. destruct (Rlt_dec 0 (depth q)) as [_|X]; [|lra]. cbn [obind]. eauto. }
  destruct EP as (p & EP). rewrite EP. destruct (petsc_tracer_rhs_flow bed dt tiny n zx zy q F src p EP) as (fl' & EF' & HF'). apply f_equal.
  assert (HT : ttr r = ttr p).
  { apply functional_extensionality. intros j. rewrite (ceed_tracer_source _ _ _ _ _ _ _ _ _ _ E j), (petsc_tracer_source _ _ _ _ _ _ _ _ _ _ EP j). destruct (tiny <? depth q) eqn:A.
    - apply Rltb_true in A. assert (B : (tiny <=? depth q) = true) by (apply Rleb_true; lra). rewrite B. ring.
    - apply Rltb_false in A. assert (B : (tiny <=? depth q) = false) by (apply Rleb_false; lra). rewrite B, Z by lra. ring. }
  unfold flowof in HF, HF'. destruct r as [a b], p as [a' b']. cbn [tflow ttr] in *. subst b. apply f_equal2; [congruence|reflexivity].
Qed.

(** ** Runs *)
Definition tagree (s s' : tscheme) (m : mesh) (dt : R) (src u : nat -> tvec) : Prop :=
  (forall e, In e (iedges m) -> ts_interior s u e = ts_interior s' u e) /\ (forall e, In e (bedges m) -> ts_boundary s u e = ts_boundary s' u e) /\
  (forall c F, In c (cells m) -> ts_source s dt u src c F = ts_source s' dt u src c F).
Lemma tagree_rhs s s' m dt src u : tagree s s' m dt src u -> trhs s m dt src u = trhs s' m dt src u.
Proof.
  intros (H1 & H2 & H3). unfold trhs, tdivergence, interior_loop, boundary_loop, source_loop.
  rewrite (ofold_ext_in _ (edge_update tadd tscal everything (area m) (ts_interior s' u)) (iedges m)) by (intros f e He; unfold edge_update; rewrite (H1 e He); reflexivity).
  destruct (ofold _ (iedges m) _) as [f1|]; [|reflexivity]. rewrite !obind_Some.
  rewrite (ofold_ext_in _ (bedge_update tadd tscal everything (area m) (ts_boundary s' u)) (bedges m)) by (intros f e He; unfold bedge_update; rewrite (H2 e He); reflexivity).
  destruct (ofold _ (bedges m) f1) as [f2|]; [|reflexivity]. rewrite !obind_Some.
  apply ofold_ext_in. intros f c Hc. unfold cell_update. rewrite (H3 c (f c) Hc). reflexivity.
Qed.
Lemma tagree_step i F G dt u l : tstages i F dt u = Some l -> (forall w, In w l -> F (snd w) = G (snd w)) -> tts_step i F dt u = tts_step i G dt u.
Proof.
  destruct i; cbn [tstages tts_step]; unfold teuler_step, trk4_step; intros E H.
  - injection E as <-. specialize (H (1, u) (or_introl eq_refl)). cbn [snd] in H. rewrite H. reflexivity.
  - apply obind_some in E. destruct E as (k1 & E1 & E). apply obind_some in E. destruct E as (k2 & E2 & E). apply obind_some in E. destruct E as (k3 & E3 & E). injection E as <-.
    assert (H1 := H (1/6, u) ltac:(cbn; tauto)). assert (H2 := H (1/3, taxpy u (dt/2) k1) ltac:(cbn; tauto)). assert (H3 := H (1/3, taxpy u (dt/2) k2) ltac:(cbn; tauto)). assert (H4 := H (1/6, taxpy u dt k3) ltac:(cbn; tauto)).
    cbn [snd] in H1, H2, H3, H4. rewrite <- H1, E1, !obind_Some, <- H2, E2, !obind_Some, <- H3, E3, !obind_Some, <- H4. reflexivity.
Qed.
Lemma clear_tagree either w cf z g m x u : sediment_config cf -> one_flux w cf -> mesh_wf m -> clear_tstate either w cf z m x u ->
  tagree (tscheme_of (tchoice_of w cf z g) (tsi_bcs x)) (dev_scheme either w cf z g (tsi_bcs x)) m (tsi_dt x) (tsi_src x) u.
Proof.
  intros (_ & _ & _ & _ & T) K (_ & WI & WB) [Hdt HC HS HE HB]. split; [|split].
  - intros e He. destruct (WI e He) as (Hl & Hr). destruct (HC _ Hl) as (L1 & L2). destruct (HC _ Hr) as (R1 & R2). specialize (HE e He). destruct w as [|file]; cbn [clear_tedge one_flux] in HE, K.
    + cbn [dev_scheme ts_interior dev_interior]. cbn [tscheme_of tchoice_of includes_slope negb tc_hr petsc_tracer_scheme ts_interior tc_kind tc_tiny].
      assert (OS : (either && one_sided (cf_tiny_h cf) (depth (u (ie_l e))) (depth (u (ie_r e))))%bool = false).
      { destruct HE as [[(A & B)|(A & B)]|(-> & _)]; [| |reflexivity]; unfold one_sided.
        - assert (E1 : (cf_tiny_h cf <? depth (u (ie_l e))) = true) by (apply Rltb_true; lra). assert (E2 : (cf_tiny_h cf <? depth (u (ie_r e))) = true) by (apply Rltb_true; lra). rewrite E1, E2. apply Bool.andb_false_r.
        - assert (E1 : (cf_tiny_h cf <? depth (u (ie_l e))) = false) by (apply Rltb_false; lra). assert (E2 : (cf_tiny_h cf <? depth (u (ie_r e))) = false) by (apply Rltb_false; lra). rewrite E1, E2. apply Bool.andb_false_r. }
      rewrite OS. rewrite edge_agree; try assumption; [reflexivity|]. destruct HE as [HE|(_ & HE)]; auto.
    + cbn [dev_scheme ts_interior dev_interior]. cbn [tscheme_of tchoice_of includes_slope negb tc_hr petsc_tracer_hr_scheme ts_interior tc_kind tc_tiny tc_anuga tc_bed].
      assert (OS : (either && one_sided (cf_tiny_h cf) (hr_depth (depth (u (ie_l e))) (z (ie_l e)) (z (ie_r e))) (hr_depth (depth (u (ie_r e))) (z (ie_r e)) (z (ie_l e))))%bool = false).
      { destruct HE as [(A & B)|(A & B)]; unfold one_sided.
        - apply Rltb_true in A, B. rewrite A, B. apply Bool.andb_false_r.
        - assert (E1 : forall a, a < cf_tiny_h cf -> (cf_tiny_h cf <? a) = false) by (intros; apply Rltb_false; lra). rewrite !E1 by assumption. apply Bool.andb_false_r. }
      rewrite OS, K. symmetry. apply hr_edge_agree; assumption.
  - intros e He. specialize (HC _ (WB e He)). specialize (HB e He). cbn [dev_scheme ts_boundary]. rewrite bedge_agree by assumption. destruct w; reflexivity.
  - intros c F Hc. destruct (HC c Hc) as (P & N). specialize (HS c Hc). cbn [dev_scheme ts_source]. rewrite source_agree by assumption. destruct w; reflexivity.
Qed.
Lemma tagree_run (P : tserial_input -> (nat -> tvec) -> Prop) s s' i m : (forall x u, P x u -> tagree (s (tsi_bcs x)) (s' (tsi_bcs x)) m (tsi_dt x) (tsi_src x) u) ->
  forall xs u, every_tstate P i s m xs u -> let r s := ofold (fun u x => tts_step i (trhs (s (tsi_bcs x)) m (tsi_dt x) (tsi_src x)) (tsi_dt x) u) xs u in exists u', r s = Some u' /\ r s' = Some u'.
Proof.
  intros HP. induction xs as [|x xs IH]; intros u H; cbn [every_tstate ofold] in *; [eauto|]. destruct H as (H1 & H2).
  destruct (tstages _ _ _ _) as [l|] eqn:E; [|contradiction]. destruct (tts_step i (trhs (s (tsi_bcs x)) m (tsi_dt x) (tsi_src x)) (tsi_dt x) u) as [u1|] eqn:E1; [|contradiction].
  assert (E2 : tts_step i (trhs (s' (tsi_bcs x)) m (tsi_dt x) (tsi_src x)) (tsi_dt x) u = Some u1).
  { rewrite <- E1. symmetry. apply (tagree_step i _ _ _ _ l E). intros w Hw. apply tagree_rhs, HP. rewrite Forall_forall in H1. exact (H1 w Hw). }
  cbv zeta. rewrite E2, !obind_Some. apply IH. exact H2.
Qed.
Lemma tholds_same nt L U L' U' u : tholds nt L U u -> tholds nt L' U' u -> same_blocks (3 + nt) L U L' U'.
Proof.
  intros H H' r j c r' j' gs gs' x x' A B Hx A' B' Hx'. destruct (Forall2_get _ _ _ _ _ H A) as (y & Hy & _ & Py). destruct (Forall2_get _ _ _ _ _ H' A') as (y' & Hy' & _ & Py').
  assert (y = x) by congruence. assert (y' = x') by congruence. subst. rewrite (Py _ _ B), (Py' _ _ B'). reflexivity.
Qed.

(* With any number of classes of sediment.  On the states of the run, edges join cells that are both wet or both dry, or
   (if the device traverses edges as the mesh does) the right side of an edge holds no sediment; nothing is supplied to
   dry cells.  Missing: other states; C74_ceed_direction_refuted and C19 show that the device drops sediment there. *)
Theorem C93_sediment_partial : forall i either w cf m z g Lh Eh Ld xs steps_h steps_d Uh S Ud u,
  device_config cf -> one_flux w cf -> mesh_wf m ->
  Forall2 (tracer_run_distributed w cf m z g Lh Eh) xs steps_h -> tholds (cf_classes cf) Lh Uh u -> all_kept (cf_classes cf) Lh Eh S ->
  Forall2 (dev_run_distributed either w cf m z g Ld) xs steps_d -> tholds (cf_classes cf) Ld Ud u ->
  every_tstate (clear_tstate either w cf z m) i (tscheme_of (tchoice_of w cf z g)) m xs u ->
  exists Uh' S' Ud', petsc_tracer_run i w cf steps_h (Uh, S) = Some (Uh', S') /\ ceed_run i w cf steps_d Ud = Some Ud' /\ same_blocks (3 + cf_classes cf) Lh Uh' Ld Ud'.
Proof.
  intros i either w cf m z g Lh Eh Ld xs steps_h steps_d Uh S Ud u C K WF FH HH HS FD HD EV.
  destruct (tagree_run _ (tscheme_of (tchoice_of w cf z g)) (dev_scheme either w cf z g) i m (fun x v Hv => clear_tagree either w cf z g m x v (proj1 C) K WF Hv) xs u EV) as (u' & E1 & E2).
  destruct (C75_run i w cf m z g Lh Eh xs steps_h Uh S u u' (proj1 C) WF FH HH HS E1) as (Uh' & S' & R1 & H1 & _).
  destruct (C81_run i either w cf m z g Ld xs steps_d Ud u u' C WF FD HD E2) as (Ud' & R2 & H2).
  exists Uh', S', Ud'. split; [exact R1|]. split; [exact R2|]. exact (tholds_same _ _ _ _ _ _ H1 H2).
Qed.
Print Assumptions C93_sediment_partial.

(** Example: water with sediment over both squares of C75 and C81 on a slope, with an inflow, without and with
    hydrostatic reconstruction *)
Example C93_sediment_example : forall hr, let w := if (hr : bool) then Hydrostatic false else Standard in
  exists Uh S Ud, petsc_tracer_run Euler w (one_config 1 false) [(1/100, slope_ps)] ([[2; 1/4; 0; 1/5]; [1;0;0;1/10]], slope_kept) = Some (Uh, S) /\
    ceed_run Euler w (one_config 1 false) [(1/100, slope_ps)] [[2; 1/4; 0; 1/5]; [1;0;0;1/10]] = Some Ud /\ same_blocks 4 [[0];[1]]%nat Uh [[0];[1]]%nat Ud.
Proof.
  intros hr w. assert (H : tholds 1 [[0];[1]]%nat [[2; 1/4; 0; 1/5]; [1;0;0;1/10]] slope_wet) by (repeat constructor; (intros i c Hi; destruct i as [|i]; [injection Hi as <-; reflexivity|destruct i; discriminate])).
  assert (ZW : slope_z w = slope_bed) by (unfold w; destruct hr; reflexivity).
  assert (D := slopes_on_device true w false (fun _ => eq_refl)). rewrite ZW in D.
  apply (C93_sediment_partial Euler true w (one_config 1 false) squares slope_bed slope_geom [[0];[1]]%nat slope_edges [[0];[1]]%nat [TSerialInput (1/100) (fun _ => tzero) slope_bcs] [(1/100, slope_ps)] [(1/100, slope_ps)] [[2; 1/4; 0; 1/5]; [1;0;0;1/10]] slope_kept [[2; 1/4; 0; 1/5]; [1;0;0;1/10]] slope_wet).
  - exact one_device.
  - unfold w. destruct hr; [reflexivity|exact I].
  - exact squares_wf.
  - constructor; [|constructor]. split; [reflexivity|]. split; [reflexivity|]. split; [reflexivity|]. apply slopes_distributed.
  - exact H.
  - repeat constructor.
  - constructor; [|constructor]. split; [reflexivity|]. split; [reflexivity|exact D].
  - exact H.
  - cbn [every_tstate tsi_bcs tsi_dt tsi_src]. split.
    + cbn [tstages]. constructor; [|constructor]. cbn [snd]. assert (DW : forall c, 1 <= depth (slope_wet c)) by (intros c; unfold slope_wet, depth; destruct (Nat.eqb c 0); cbn; lra). constructor.
      * cbn. lra.
      * intros c _. unfold clear_depth. cbn [cf_tiny_h one_config]. specialize (DW c). lra.
      * intros c _ _ j. reflexivity.
      * intros e [<-|[]]. cbn [ie_l ie_r cf_tiny_h one_config]. unfold w. destruct hr; cbn [clear_tedge].
        { left. unfold slope_wet, slope_bed, depth, hr_depth. cbn. unfold Rmax. repeat destruct (Rle_dec _ _); lra. }
        { left. left. assert (A := DW 0%nat). assert (B := DW 1%nat). lra. }
      * intros e _. cbn [tsi_bcs cf_tiny_h one_config]. specialize (DW (be_c e)). unfold slope_bcs. destruct (be_cn e <? 0); cbn [clear_tboundary]; [|exact I]. unfold clear_depth, alike. set (d := depth (slope_wet (be_c e))) in *. unfold depth. cbn. split; [lra|]. split; [left; lra|]. left. left. lra.
    + cbn [tts_step]. unfold teuler_step. destruct squares_wf as (W1 & W2 & W3).
      destruct (C74_defined_for_nonnegative_depths (tchoice_of w (one_config 1 false) slope_bed slope_geom) squares slope_bcs (1/100) (fun _ => tzero) slope_wet) as (f & Ef).
      * cbn. lra. * lra. * split; assumption. * exact W3. * intros; cbn; lra.
      * intros c _. unfold slope_wet, depth. destruct (Nat.eqb c 0); cbn; lra.
      * intros e _. unfold slope_bcs. destruct (be_cn e <? 0); cbn; [unfold depth; cbn; lra|exact I].
      * rewrite Ef, obind_Some. exact I.
Qed.

(* Sediment supplied to a dry cell: the device puts it there, the host drops it. *)
Theorem C93_supply_to_dry_cells_refuted : exists cf m g x uh ud,
  device_config cf /\ mesh_wf m /\ 0 < tsi_dt x /\
  tserial_run Euler (tchoice_of Standard cf (fun _ => 0) g) m [x] (fun _ => tzero) = Some uh /\
  dev_run Euler true Standard cf (fun _ => 0) g m [x] (fun _ => tzero) = Some ud /\
  exists c j, In c (cells m) /\ (j < cf_classes cf)%nat /\ 0 < ttr (tsi_src x c) j /\ ttr (uh c) j = 0 /\ ttr (ud c) j = tsi_dt x * ttr (tsi_src x c) j.
Proof.
  exists (one_config 1 false), (Mesh [0]%nat (fun _ => 1) [] []), (CellGeom (fun _ => 0) (fun _ => 0) (fun _ => 0)), (TSerialInput (1/10) (fun _ => TV vzero (fun _ => 1)) (fun _ => TReflecting)).
  unfold tserial_run, dev_run. cbn [ofold tts_step tsi_dt tsi_src tsi_bcs]. unfold teuler_step, trhs, tdivergence, interior_loop, boundary_loop, source_loop.
  cbn [iedges bedges cells ofold obind]. unfold cell_update. cbn [tscheme_of tchoice_of includes_slope negb tc_hr petsc_tracer_scheme dev_scheme ts_source tc_kind tc_tiny tc_geom manning dzdx dzdy cf_tiny_h one_config].
  unfold petsc_tracer_rhs, petsc_rhs. rewrite petsc_source_dry by (cbn; lra). cbn [obind].
  assert (D : depth tzero = 0) by reflexivity. assert (G1 : (1/1000 <=? depth tzero) = false) by (apply Rleb_false; rewrite D; lra). rewrite G1. cbn [obind].
  unfold ceed_tracer_rhs. assert (G2 : (1/1000 <? depth tzero) = false) by (apply Rltb_false; rewrite D; lra). rewrite G2. cbn [obind].
  do 2 eexists. split; [exact one_device|]. split; [split; [cbn; repeat constructor; cbn; tauto|split; intros e []]|]. split; [lra|]. split; [reflexivity|]. split; [reflexivity|].
  exists 0%nat, 0%nat. split; [left; reflexivity|]. split; [cbn; lia|]. cbn. lra.
Qed.
Print Assumptions C93_supply_to_dry_cells_refuted.
