(** C16-C19, C54: tracer transport. *)
From Verif Require Import Base RoeModel RoeProofs EdgeModel EdgeProofs HRModel HRProofs SourceModel SourceProofs AssemblyModel AssemblyProofs
  TracerModel TracerProofs TracerMeshProofs.

(** ** Specification *)
(* concentration [C] of tracer [j]: its amount is C times the amount of water *)
Definition has_concentration (C : R) (j : nat) (q : tvec) : Prop := ttr q j = C * depth q.

(* The discretisations with tracers, with the wet/dry states in which each resolves the concentration
   of a cell: a depth below the dry threshold is not resolved; the upwind scheme and libCEED do not
   resolve dry cells either. *)
Inductive transport : tscheme -> (bedge -> tbcond) -> (tvec -> Prop) -> Prop :=
| T_petsc_roe : forall tiny bcs g, 0 < tiny ->
    transport (petsc_tracer_scheme TRoe tiny bcs g) bcs (fun q => depth q = 0 \/ tiny <= depth q)
| T_petsc_upwind : forall tiny bcs g, 0 < tiny -> transport (petsc_tracer_scheme TUpwind tiny bcs g) bcs (fun q => tiny <= depth q)
| T_petsc_hr_roe : forall tiny ha z bcs g, 0 < tiny ->
    transport (petsc_tracer_hr_scheme TRoe tiny ha z bcs g) bcs (fun q => depth q = 0 \/ tiny < depth q)
| T_petsc_hr_upwind : forall tiny ha z bcs g, 0 < tiny -> transport (petsc_tracer_hr_scheme TUpwind tiny ha z bcs g) bcs (fun q => tiny < depth q)
| T_ceed : forall k tiny bcs g, 0 <= tiny -> transport (ceed_tracer_scheme k tiny bcs g) bcs (fun q => tiny < depth q).

(* states at which an integrator evaluates the right-hand side [F], with weights *)
Definition tstages (i : integrator) (F : (nat -> tvec) -> option (nat -> tvec)) (dt : R) (u : nat -> tvec) : option (list (R * (nat -> tvec))) :=
  match i with
  | Euler => Some [(1, u)]
  | RK4 =>
    let* k1 := F u in
    let u2 := taxpy u (dt / 2) k1 in
    let* k2 := F u2 in
    let u3 := taxpy u (dt / 2) k2 in
    let* k3 := F u3 in
    Some [(1/6, u); (1/3, u2); (1/3, u3); (1/6, taxpy u dt k3)]
  end.

(* advection alone: a sequence of steps with the given step sizes *)
Definition advect (i : integrator) (s : tscheme) (m : mesh) (dts : list R) (u : nat -> tvec) : option (nat -> tvec) :=
  ofold (fun u dt => tts_step i (tdivergence s m) dt u) dts u.
(* every state met on the way has all cells in [P] *)
Fixpoint stays (P : tvec -> Prop) (i : integrator) (s : tscheme) (m : mesh) (dts : list R) (u : nat -> tvec) : Prop :=
  match dts with
  | [] => True
  | dt :: t =>
    (forall l w, tstages i (tdivergence s m) dt u = Some l -> In w l -> forall c, In c (cells m) -> P (snd w c)) /\
    (forall u', tts_step i (tdivergence s m) dt u = Some u' -> stays P i s m t u')
  end.

(** ** C16 *)
(* One edge, PETSc, any number of tracers: flux = concentration times water flux. *)
Theorem C16_uniform_flux_petsc :
  forall k tiny qL qR sn cn C j F a,
    0 < tiny -> tiny <= depth qL -> tiny <= depth qR -> has_concentration C j qL -> has_concentration C j qR ->
    petsc_tracer_edge k tiny qL qR sn cn = Some (F, a) -> ttr F j = C * c0 (tflow F).
Proof.
  intros k tiny qL qR sn cn C j F a Ht HL HR UL UR E.
  apply (petsc_edge_uniform C j k tiny qL qR sn cn F a); try assumption; destruct k; cbn; tauto.
Qed.
Print Assumptions C16_uniform_flux_petsc.
Theorem C16_uniform_flux_ceed :
  forall k tiny qL qR sn cn C j F a,
    0 <= tiny -> tiny < depth qL -> tiny < depth qR -> has_concentration C j qL -> has_concentration C j qR ->
    ceed_tracer_edge k GRAVITY tiny qL qR sn cn = Some (F, a) -> ttr F j = C * c0 (tflow F).
Proof.
  intros k tiny qL qR sn cn C j F a Ht HL HR UL UR E. unfold ceed_tracer_edge in E.
  assert (G : Rltb tiny (depth qL) = true) by (apply Rltb_true; exact HL). rewrite G in E. cbn in E.
  exact (ceed_edge_uniform C j k GRAVITY tiny qL qR sn cn F a GRAVITY_pos Ht HL HR UL UR E).
Qed.
Print Assumptions C16_uniform_flux_ceed.

Lemma transport_interior s bcs P C j u e fl fr a : transport s bcs P -> P (u (ie_l e)) -> P (u (ie_r e)) ->
  uni C j (u (ie_l e)) -> uni C j (u (ie_r e)) -> ts_interior s u e = Some (fl, fr, a) -> uni C j fl /\ uni C j fr.
Proof.
  intros HT PL PR UL UR E. destruct HT; cbn [ts_interior petsc_tracer_scheme petsc_tracer_hr_scheme ceed_tracer_scheme] in E.
  - unfold tboth in E. apply obind_some in E. destruct E as ([F b] & E & E'). injection E' as <- <- _. cbn [fst].
    assert (U : uni C j F) by (exact (petsc_edge_uniform C j TRoe _ _ _ _ _ F b H PL PR UL UR E)). auto.
  - unfold tboth in E. apply obind_some in E. destruct E as ([F b] & E & E'). injection E' as <- <- _. cbn [fst].
    assert (U : uni C j F) by (exact (petsc_edge_uniform C j TUpwind _ _ _ _ _ F b H PL PR UL UR E)). auto.
  - exact (petsc_hr_edge_uniform C j TRoe _ _ _ _ _ _ _ _ _ _ _ H PL PR UL UR E).
  - exact (petsc_hr_edge_uniform C j TUpwind _ _ _ _ _ _ _ _ _ _ _ H PL PR UL UR E).
  - unfold tboth in E. apply obind_some in E. destruct E as ([F b] & E & E'). injection E' as <- <- _. cbn [fst].
    unfold ceed_tracer_edge in E. assert (G : Rltb tiny (depth (u (ie_l e))) = true) by (apply Rltb_true; exact PL). rewrite G in E. cbn in E.
    assert (U : uni C j F) by (exact (ceed_edge_uniform C j k GRAVITY _ _ _ _ _ F b GRAVITY_pos H PL PR UL UR E)). auto.
Qed.
Lemma transport_boundary s bcs P C j u e F a : transport s bcs P -> P (u (be_c e)) -> uni C j (u (be_c e)) -> bc_uniform C j P (bcs e) ->
  ts_boundary s u e = Some (F, a) -> uni C j F.
Proof.
  intros HT PL UL HB E. destruct HT; cbn [ts_boundary petsc_tracer_scheme petsc_tracer_hr_scheme ceed_tracer_scheme] in E.
  - eapply (petsc_bedge_uniform C j TRoe); eassumption.
  - eapply (petsc_bedge_uniform C j TUpwind); eassumption.
  - eapply (petsc_bedge_uniform C j TRoe); try eassumption; [cbn; lra|]. destruct (bcs e); [|exact I]. destruct HB. split; [cbn; lra|assumption].
  - eapply (petsc_bedge_uniform C j TUpwind); try eassumption; [cbn; lra|]. destruct (bcs e); [|exact I]. destruct HB. split; [cbn; lra|assumption].
  - eapply ceed_bedge_uniform; try eassumption. apply GRAVITY_pos.
Qed.
Lemma divergence_uniform s bcs P m C j u f : transport s bcs P -> mesh_wf m -> (forall e, In e (bedges m) -> bc_uniform C j P (bcs e)) ->
  (forall c, In c (cells m) -> P (u c) /\ uni C j (u c)) -> tdivergence s m u = Some f -> forall c, In c (cells m) -> uni C j (f c).
Proof.
  intros HT (Hnd & Hi & Hb) HB HU E. unfold tdivergence in E. apply obind_some in E. destruct E as (f1 & E1 & E2).
  destruct (interior_loop_rel tadd tscal tadd tscal (fun a _ => uni C j a) (fun a b _ _ => uni_add C j a b) (fun s a _ => uni_scal C j s a) (cells m)
              everything (area m) (ts_interior s u) (ts_interior s u) (iedges m)) with (f := fun _ : nat => tzero) (g := fun _ : nat => tzero) (a := f1) as (f1' & _ & K1).
  { intros e He [[fl fr] a] Ek. exists (fl, fr, a). split; [exact Ek|]. destruct (Hi e He) as (I1 & I2).
    destruct (HU _ I1). destruct (HU _ I2). destruct (transport_interior s bcs P C j u e fl fr a) as (U1 & U2); try assumption. split; [exact U1|]. split; [exact U2|reflexivity]. }
  { intros c _. apply uni_zero. } { exact E1. }
  destruct (boundary_loop_rel tadd tscal tadd tscal (fun a _ => uni C j a) (fun a b _ _ => uni_add C j a b) (fun s a _ => uni_scal C j s a) (cells m)
              everything (area m) (ts_boundary s u) (ts_boundary s u) (bedges m)) with (f := f1) (g := f1) (a := f) as (f' & _ & K2).
  { intros e He [F a] Ek. exists (F, a). split; [exact Ek|]. destruct (HU _ (Hb e He)). split; [|reflexivity].
    eapply transport_boundary; eauto. }
  { exact K1. } { exact E2. } exact K2.
Qed.
Lemma axpy_uni C j u a k c : uni C j (u c) -> uni C j (k c) -> uni C j (taxpy u a k c).
Proof. intros. unfold taxpy. apply uni_add; [assumption|apply uni_scal; assumption]. Qed.

(* Whole mesh, any integrator, any sequence of steps, walls and inflow of the same concentration: the
   concentration of every cell stays what it was, as long as the cells stay in the states that the
   scheme resolves. *)
Theorem C16_uniform_concentration_preserved :
  forall i s bcs P m C j dts u u',
    transport s bcs P -> mesh_wf m ->
    (forall e q, In e (bedges m) -> bcs e = TDirichlet q -> P q /\ has_concentration C j q) ->
    stays P i s m dts u ->
    (forall c, In c (cells m) -> has_concentration C j (u c)) ->
    advect i s m dts u = Some u' ->
    forall c, In c (cells m) -> has_concentration C j (u' c).
Proof.
  intros i s bcs P m C j dts u u' HT Hm HB. unfold advect. revert u.
  assert (HB' : forall e, In e (bedges m) -> bc_uniform C j P (bcs e)).
  { intros e He. destruct (bcs e) as [q|] eqn:Eb; [exact (HB e q He Eb)|exact I]. }
  induction dts as [|dt t IH]; intros u HS HU E; cbn [ofold stays] in *.
  - injection E as <-. exact HU.
  - apply obind_some in E. destruct E as (u1 & E1 & E2). destruct HS as (S1 & S2). apply (IH u1); [exact (S2 u1 E1)| |exact E2].
    assert (D : forall v k, (forall c, In c (cells m) -> P (v c) /\ uni C j (v c)) -> tdivergence s m v = Some k -> forall c, In c (cells m) -> uni C j (k c)).
    { intros v k Hv Ek. eapply divergence_uniform; eassumption. }
    destruct i; cbn [tts_step tstages] in *.
    + unfold teuler_step in E1. apply obind_some in E1. destruct E1 as (k & Ek & E1). injection E1 as <-.
      intros c Hc. apply axpy_uni; [apply HU; exact Hc|]. apply (D u k); [|exact Ek|exact Hc].
      intros c' Hc'. split; [apply (S1 [(1, u)] (1, u) eq_refl (or_introl eq_refl) c' Hc')|apply HU; exact Hc'].
    + unfold trk4_step in E1.
      apply obind_some in E1. destruct E1 as (k1 & K1 & E1). apply obind_some in E1. destruct E1 as (k2 & K2 & E1).
      apply obind_some in E1. destruct E1 as (k3 & K3 & E1). apply obind_some in E1. destruct E1 as (k4 & K4 & E1). injection E1 as <-.
      rewrite K1 in S1. cbn [obind] in S1. rewrite K2 in S1. cbn [obind] in S1. rewrite K3 in S1. cbn [obind] in S1.
      specialize (fun w => S1 _ w eq_refl).
      assert (U1 := D u k1 (fun c Hc => conj (S1 _ (or_introl eq_refl) c Hc) (HU c Hc)) K1).
      assert (V2 : forall c, In c (cells m) -> uni C j (taxpy u (dt / 2) k1 c)) by (intros; apply axpy_uni; auto; apply HU; assumption).
      assert (U2 := D _ k2 (fun c Hc => conj (S1 _ (or_intror (or_introl eq_refl)) c Hc) (V2 c Hc)) K2).
      assert (V3 : forall c, In c (cells m) -> uni C j (taxpy u (dt / 2) k2 c)) by (intros; apply axpy_uni; auto; apply HU; assumption).
      assert (U3 := D _ k3 (fun c Hc => conj (S1 _ (or_intror (or_intror (or_introl eq_refl))) c Hc) (V3 c Hc)) K3).
      assert (V4 : forall c, In c (cells m) -> uni C j (taxpy u dt k3 c)) by (intros; apply axpy_uni; auto; apply HU; assumption).
      assert (U4 := D _ k4 (fun c Hc => conj (S1 _ (or_intror (or_intror (or_intror (or_introl eq_refl)))) c Hc) (V4 c Hc)) K4).
      intros c Hc. repeat apply axpy_uni; auto. apply HU; exact Hc.
Qed.
Print Assumptions C16_uniform_concentration_preserved.

(* the four discretisations, with their boundary data *)
Inductive tracer_kind := KPetsc (k : triemann) | KCeed (k : triemann) | KPetscHR (k : triemann) (ha : R) (z : nat -> R) | KCeedHR (ha : R) (z : nat -> R).
Definition tracer_scheme (K : tracer_kind) (tiny : R) (g : cellgeom) (bcs : bedge -> tbcond) : tscheme :=
  match K with
  | KPetsc k => petsc_tracer_scheme k tiny bcs g
  | KCeed k => ceed_tracer_scheme k tiny bcs g
  | KPetscHR k ha z => petsc_tracer_hr_scheme k tiny ha z bcs g
  | KCeedHR ha z => ceed_tracer_hr_scheme tiny ha z bcs g
  end.

(* equal in the flow and in tracer [j] *)
Definition agree_on (j : nat) (a b : tvec) : Prop := tflow a = tflow b /\ ttr a j = ttr b j.

Lemma schemes_same K tiny g j m bcs bcs' : (forall e, In e (bedges m) -> same_bc j (bcs e) (bcs' e)) ->
  scheme_same j m (tracer_scheme K tiny g bcs) (tracer_scheme K tiny g bcs').
Proof.
  intros HB. destruct K; (split; [|split]); cbn [tracer_scheme ts_interior ts_boundary ts_source petsc_tracer_scheme ceed_tracer_scheme petsc_tracer_hr_scheme ceed_tracer_hr_scheme]; intros.
  - apply tboth_same, petsc_tracer_edge_same; assumption.
  - apply petsc_tracer_bedge_same; auto.
  - apply petsc_tracer_rhs_same; assumption.
  - apply tboth_same, ceed_tracer_edge_same; assumption.
  - apply ceed_tracer_bedge_same; auto.
  - apply ceed_tracer_rhs_same; assumption.
  - apply petsc_tracer_hr_edge_same; assumption.
  - apply petsc_tracer_bedge_same; auto.
  - apply petsc_tracer_rhs_same; assumption.
  - apply ceed_tracer_hr_edge_same; assumption.
  - apply ceed_tracer_bedge_same; auto.
  - apply ceed_tracer_rhs_same; assumption.
Qed.

(* Two simulations that agree on the flow and on tracer [j], and differ arbitrarily in the other
   tracers (initial state, sources, inflow), agree on the flow and on tracer [j] forever. *)
Theorem C16_tracers_independent :
  forall K tiny g i m j bcs bcs' xs xs' u u' w,
    mesh_wf m ->
    (forall e, In e (bedges m) -> match bcs e, bcs' e with TDirichlet q, TDirichlet q' => agree_on j q q' | TReflecting, TReflecting => True | _, _ => False end) ->
    Forall2 (fun x x' => tst_dt x = tst_dt x' /\ forall c, In c (cells m) -> agree_on j (tst_src x c) (tst_src x' c)) xs xs' ->
    (forall c, In c (cells m) -> agree_on j (u c) (u' c)) ->
    trun i (tracer_scheme K tiny g bcs) m xs u = Some w ->
    exists w', trun i (tracer_scheme K tiny g bcs') m xs' u' = Some w' /\ forall c, In c (cells m) -> agree_on j (w c) (w' c).
Proof.
  intros K tiny g i m j bcs bcs' xs xs' u u' w Hm HB HX HU E.
  exact (trun_same j i m _ _ xs xs' (schemes_same K tiny g j m bcs bcs' HB) Hm HX u u' HU w E).
Qed.
Print Assumptions C16_tracers_independent.

(* the discretisation of the flow alone that corresponds to each; tracers are transported without
   the regularisation of velocities (h_anuga = 0) *)
Definition flow_scheme (K : tracer_kind) (tiny : R) (g : cellgeom) : scheme :=
  match K with
  | KPetsc _ => petsc_scheme tiny 0 SemiImplicit g
  | KCeed _ => ceed_scheme tiny 0 (fun _ _ => 0) (fun _ _ => 0) SemiImplicit g
  | KPetscHR _ _ z => petsc_hr_scheme tiny 0 z SemiImplicit g
  | KCeedHR _ z => ceed_hr_scheme tiny 0 z SemiImplicit g
  end.
Definition no_anuga (K : tracer_kind) : Prop := match K with KPetscHR _ ha _ => ha = 0 | KCeedHR ha _ => ha = 0 | _ => True end.

Lemma tboth_flow x y : oimp (krel2 flowof) x y -> oimp (krel3 flowof) (tboth x) (both y).
Proof. intros H. unfold tboth, both. eapply oimp_bind; [exact H|]. intros a b (H1 & H2). apply oimp_some. split; [exact H1|]. split; assumption. Qed.
Lemma flowof_add a b x y : flowof a x -> flowof b y -> flowof (tadd a b) (vadd x y). Proof. unfold flowof. intros <- <-. reflexivity. Qed.
Lemma flowof_scal s a x : flowof a x -> flowof (tscal s a) (vscal s x). Proof. unfold flowof. intros <-. reflexivity. Qed.

Lemma trhs_flow K tiny g m dt bcs src src' u u' : no_anuga K -> mesh_wf m -> (forall e, In e (bedges m) -> be_bc e = flow_bc (bcs e)) ->
  frel flowof (cells m) u u' -> frel flowof (cells m) src src' ->
  oimp (frel flowof (cells m)) (trhs (tracer_scheme K tiny g bcs) m dt src u) (rhs_domain (flow_scheme K tiny g) m dt src' u').
Proof.
  intros HK (Hnd & Hi & Hb) HB Hu Hs. unfold trhs, rhs_domain, tdivergence, flux_divergence.
  apply (oimp_bind (frel flowof (cells m))).
  - apply (oimp_bind (frel flowof (cells m))).
    + apply interior_loop_rel; [apply flowof_add|apply flowof_scal| |intros c _; reflexivity].
      intros e He. destruct (Hi e He) as (I1 & I2). assert (A1 := Hu _ I1). assert (A2 := Hu _ I2). unfold flowof in A1, A2.
      destruct K; cbn [no_anuga] in HK; subst; cbn [tracer_scheme flow_scheme ts_interior s_interior petsc_tracer_scheme ceed_tracer_scheme petsc_tracer_hr_scheme ceed_tracer_hr_scheme petsc_scheme ceed_scheme petsc_hr_scheme ceed_hr_scheme];
        rewrite <- A1, <- A2.
      * apply tboth_flow, petsc_tracer_edge_flow. * apply tboth_flow, ceed_tracer_edge_flow.
      * apply petsc_tracer_hr_edge_flow. * apply ceed_tracer_hr_edge_flow; reflexivity.
    + intros f f' Hf. apply boundary_loop_rel; [apply flowof_add|apply flowof_scal| |exact Hf].
      intros e He. assert (A1 := Hu _ (Hb e He)). unfold flowof in A1.
      destruct K; cbn [tracer_scheme flow_scheme ts_boundary s_boundary petsc_tracer_scheme ceed_tracer_scheme petsc_tracer_hr_scheme ceed_tracer_hr_scheme petsc_scheme ceed_scheme petsc_hr_scheme ceed_hr_scheme];
        rewrite <- A1, (HB e He).
      * apply petsc_tracer_bedge_flow. * apply ceed_tracer_bedge_flow. * apply petsc_tracer_bedge_flow. * apply ceed_tracer_bedge_flow.
  - intros f f' Hf. apply source_loop_rel; [auto| |exact Hf]. intros c F G Hc HFG. assert (A1 := Hu _ Hc). assert (A2 := Hs _ Hc). unfold flowof in A1, A2, HFG.
    destruct K; cbn [tracer_scheme flow_scheme ts_source s_source petsc_tracer_scheme ceed_tracer_scheme petsc_tracer_hr_scheme ceed_tracer_hr_scheme petsc_scheme ceed_scheme petsc_hr_scheme ceed_hr_scheme];
      rewrite <- A1, <- A2, <- HFG.
    + apply petsc_tracer_rhs_flow. + apply ceed_tracer_rhs_flow. + apply petsc_tracer_rhs_flow. + apply ceed_tracer_rhs_flow.
Qed.
Lemma taxpy_flow cs u u' a k k' : frel flowof cs u u' -> frel flowof cs k k' -> frel flowof cs (taxpy u a k) (axpy u' a k').
Proof. intros Hu Hk c Hc. unfold taxpy, axpy. apply flowof_add; [auto|apply flowof_scal; auto]. Qed.

(* Tracers are passive: a simulation with tracers moves the water exactly as the simulation without
   them (same steps, sources and boundary data for the flow). *)
Theorem C16_tracers_passive :
  forall K tiny g i m bcs xs u w,
    no_anuga K -> mesh_wf m -> (forall e, In e (bedges m) -> be_bc e = flow_bc (bcs e)) ->
    trun i (tracer_scheme K tiny g bcs) m xs u = Some w ->
    exists w', run i (flow_scheme K tiny g) m (map (fun x => StepInput (tst_dt x) (bedges m) (fun c => tflow (tst_src x c))) xs) (fun c => tflow (u c)) = Some w' /\
               forall c, In c (cells m) -> w' c = tflow (w c).
Proof.
  intros K tiny g i m bcs xs u w HK Hm HB E.
  enough (G : forall xs u u', frel flowof (cells m) u u' ->
     oimp (frel flowof (cells m)) (trun i (tracer_scheme K tiny g bcs) m xs u)
          (run i (flow_scheme K tiny g) m (map (fun x => StepInput (tst_dt x) (bedges m) (fun c => tflow (tst_src x c))) xs) u')).
  { destruct (G xs u (fun c => tflow (u c)) (fun c _ => eq_refl) w E) as (w' & E' & H). exists w'. split; [exact E'|]. intros c Hc. symmetry. apply H; exact Hc. }
  clear xs u w E. unfold trun, run. induction xs as [|x t IH]; intros u u' Hu; cbn [map ofold]; [apply oimp_some; exact Hu|].
  apply (oimp_bind (frel flowof (cells m))); [|intros v v' Hv; apply IH; exact Hv].
  unfold advance_step; cbn [st_dt st_bedges st_src].
  assert (Em : with_boundary m (bedges m) = m) by (destruct m; reflexivity). rewrite Em.
  set (src' := fun c => tflow (tst_src x c)).
  assert (F : forall v v', frel flowof (cells m) v v' -> oimp (frel flowof (cells m)) (trhs (tracer_scheme K tiny g bcs) m (tst_dt x) (tst_src x) v)
                 (rhs_domain (flow_scheme K tiny g) m (tst_dt x) src' v')).
  { intros v v' Hv. apply trhs_flow; try assumption. intros c _. reflexivity. }
  destruct i; cbn [tts_step ts_step].
  - unfold teuler_step, euler_step. eapply oimp_bind; [apply F; exact Hu|]. intros k k' Hk. apply oimp_some, taxpy_flow; assumption.
  - unfold trk4_step, rk4_step. eapply oimp_bind; [apply F; exact Hu|]. intros k1 k1' H1.
    eapply oimp_bind; [apply F; apply taxpy_flow; eassumption|]. intros k2 k2' H2.
    eapply oimp_bind; [apply F; apply taxpy_flow; eassumption|]. intros k3 k3' H3.
    eapply oimp_bind; [apply F; apply taxpy_flow; eassumption|]. intros k4 k4' H4.
    apply oimp_some. repeat apply taxpy_flow; assumption.
Qed.
Print Assumptions C16_tracers_passive.

(** ** C17 *)
(* flux of water through an interior / boundary edge (outward for the left / inner cell) *)
Definition water_flux (s : tscheme) (u : nat -> tvec) (e : iedge) : R := match ts_interior s u e with Some (fl, _, _) => depth fl | None => 0 end.
Definition water_bflux (s : tscheme) (u : nat -> tvec) (e : bedge) : R := match ts_boundary s u e with Some (f, _) => depth f | None => 0 end.
(* rate at which water leaves cell [c], per unit area *)
Definition leaving (s : tscheme) (m : mesh) (u : nat -> tvec) (c : nat) : R :=
  rsum (fun e => (if Nat.eqb c (ie_l e) then ie_len e / area m c * Rmax 0 (water_flux s u e) else 0)
               + (if Nat.eqb c (ie_r e) then ie_len e / area m c * Rmax 0 (- water_flux s u e) else 0)) (iedges m)
  + rsum (fun e => if Nat.eqb c (be_c e) then be_len e / area m c * Rmax 0 (water_bflux s u e) else 0) (bedges m).
(* the concentration of tracer [j] lies between [lo] and [hi] *)
Definition conc_between (lo hi : R) (j : nat) (q : tvec) : Prop := lo * depth q <= ttr q j <= hi * depth q.
(* [c'] is [c] or shares an edge with it *)
Definition near (m : mesh) (c c' : nat) : Prop :=
  c' = c \/ exists e, In e (iedges m) /\ ((ie_l e = c /\ ie_r e = c') \/ (ie_r e = c /\ ie_l e = c')).
Definition good_mesh (m : mesh) : Prop :=
  mesh_wf m /\ (forall c, In c (cells m) -> 0 < area m c) /\ (forall e, In e (iedges m) -> 0 < ie_len e /\ ie_l e <> ie_r e) /\
  (forall e, In e (bedges m) -> 0 < be_len e).
Inductive upwind_transport : tscheme -> (bedge -> tbcond) -> (tvec -> Prop) -> Prop :=
| Up_petsc : forall tiny bcs g, 0 < tiny -> upwind_transport (petsc_tracer_scheme TUpwind tiny bcs g) bcs (fun q => depth q = 0 \/ tiny <= depth q)
| Up_petsc_hr : forall tiny ha z bcs g, 0 < tiny -> upwind_transport (petsc_tracer_hr_scheme TUpwind tiny ha z bcs g) bcs (fun q => depth q = 0 \/ tiny < depth q)
| Up_ceed : forall tiny bcs g, 0 <= tiny -> upwind_transport (ceed_tracer_scheme TUpwind tiny bcs g) bcs (fun q => tiny < depth q).

(* concentration as seen by the scheme in a resolved cell *)
Definition conc (j : nat) (q : tvec) : R := if Req_EM_T (depth q) 0 then 0 else ttr q j / depth q.
Lemma conc_pci tiny j q : 0 < tiny -> depth q = 0 \/ tiny <= depth q -> pci tiny q j = conc j q.
Proof.
  intros Ht H. unfold pci, conc. destruct (Req_EM_T (depth q) 0) as [E|E].
  - assert (G : Rltb (depth q) tiny = true) by (apply Rltb_true; lra). rewrite G. reflexivity.
  - assert (G : Rltb (depth q) tiny = false) by (apply Rltb_false; lra). rewrite G. reflexivity.
Qed.
Lemma conc_cci tiny j q : 0 < tiny -> depth q = 0 \/ tiny < depth q -> cci tiny q j = conc j q.
Proof.
  intros Ht H. unfold cci, conc. destruct (Req_EM_T (depth q) 0) as [E|E].
  - assert (G : Rltb tiny (depth q) = false) by (apply Rltb_false; lra). rewrite G. reflexivity.
  - assert (G : Rltb tiny (depth q) = true) by (apply Rltb_true; lra). rewrite G. reflexivity.
Qed.
Lemma conc_wet j q : depth q <> 0 -> conc j q = ttr q j / depth q.
Proof. intros H. unfold conc. destruct (Req_EM_T _ 0); [contradiction|reflexivity]. Qed.

Lemma upwind_interior s bcs P j u e fl fr a : upwind_transport s bcs P -> P (u (ie_l e)) -> P (u (ie_r e)) -> ts_interior s u e = Some (fl, fr, a) ->
  depth fl = depth fr /\ ttr fl j = ttr fr j /\ ttr fl j = depth fl * (if 0 <=? depth fl then conc j (u (ie_l e)) else conc j (u (ie_r e))).
Proof.
  intros HT PL PR E. destruct HT; cbn [ts_interior petsc_tracer_scheme petsc_tracer_hr_scheme ceed_tracer_scheme] in E.
  - unfold tboth in E. apply obind_some in E. destruct E as ([F b] & E & E'). injection E' as <- <- _. cbn [fst].
    rewrite <- !(conc_pci tiny) by assumption. split; [reflexivity|]. split; [reflexivity|]. eapply petsc_edge_donor; eassumption.
  - rewrite <- !(conc_cci tiny) by assumption. eapply petsc_hr_edge_donor; eassumption.
  - unfold tboth in E. apply obind_some in E. destruct E as ([F b] & E & E'). injection E' as <- <- _. cbn [fst].
    unfold ceed_tracer_edge in E. assert (G : Rltb tiny (depth (u (ie_l e))) = true) by (apply Rltb_true; exact PL). rewrite G in E. cbn in E.
    split; [reflexivity|]. split; [reflexivity|]. rewrite !conc_wet by lra. exact (ceed_flux_donor _ _ _ _ _ _ F b j GRAVITY_pos H PL PR E).
Qed.
Lemma upwind_boundary s bcs P j u e F a : upwind_transport s bcs P -> P (u (be_c e)) -> (forall q, bcs e = TDirichlet q -> P q) -> ts_boundary s u e = Some (F, a) ->
  ttr F j = depth F * (if 0 <=? depth F then conc j (u (be_c e)) else bconc (conc j) (bcs e) (u (be_c e))).
Proof.
  intros HT PL HB E. destruct HT; cbn [ts_boundary petsc_tracer_scheme petsc_tracer_hr_scheme ceed_tracer_scheme] in E.
  - rewrite (petsc_bedge_donor _ _ _ _ _ _ _ j H E). rewrite conc_pci by assumption. destruct (bcs e) as [q|] eqn:Eb; cbn [bconc].
    + rewrite conc_pci by auto. reflexivity. + rewrite conc_pci by auto. reflexivity.
  - rewrite (petsc_bedge_donor _ _ _ _ _ _ _ j H E). rewrite conc_pci by (auto; lra). destruct (bcs e) as [q|] eqn:Eb; cbn [bconc].
    + rewrite conc_pci; [reflexivity|exact H|]. assert (K := HB q eq_refl). cbn in K. lra. + rewrite conc_pci by (auto; lra). reflexivity.
  - assert (G : Rltb tiny (depth (u (be_c e))) = true) by (apply Rltb_true; exact PL). destruct (bcs e) as [q|] eqn:Eb; cbn [bconc ceed_tracer_bedge] in *.
    + assert (K := HB q eq_refl). cbn in K. unfold ceed_tracer_edge in E. rewrite G in E. cbn in E. rewrite !conc_wet by lra. exact (ceed_flux_donor _ _ _ _ _ _ F a j GRAVITY_pos H PL K E).
    + rewrite G in E. rewrite !conc_wet by lra. match type of E with ceed_tracer_flux _ _ _ _ ?q _ _ = _ => exact (ceed_flux_donor _ _ _ q _ _ F a j GRAVITY_pos H PL PL E) end.
Qed.

Section MaxPrinciple.
  Variables (s : tscheme) (bcs : bedge -> tbcond) (P : tvec -> Prop) (m : mesh) (dt : R) (j : nat) (u f : nat -> tvec) (c : nat) (ca cb : R).
  Hypothesis HT : upwind_transport s bcs P.
  Hypothesis Hm : good_mesh m.
  Hypothesis Hdt : 0 < dt.
  Hypothesis Hc : In c (cells m).
  Hypothesis HP : forall c', In c' (cells m) -> P (u c').
  Hypothesis Hne : forall c', In c' (cells m) -> dt * leaving s m u c' <= depth (u c').
  Hypothesis HB : forall e q, In e (bedges m) -> bcs e = TDirichlet q -> P q.
  (* the affine combination ca*h + cb*hc is non-negative in [c], its neighbours and the inflow *)
  Hypothesis Hn : forall c', near m c c' -> 0 <= ca * depth (u c') + cb * ttr (u c') j.
  Hypothesis HnB : forall e q, In e (bedges m) -> be_c e = c -> bcs e = TDirichlet q -> 0 < depth q /\ 0 <= ca * depth q + cb * ttr q j.
  Hypothesis E : tdivergence s m u = Some f.

  Local Notation p := (fun v : tvec => ca * depth v + cb * ttr v j).
  Let w (q : tvec) : R := ca + cb * conc j q.

  Lemma P_nonneg q : P q -> 0 <= depth q.
  Proof. destruct HT; cbn; lra. Qed.
  Lemma leaving_term c' e : In c' (cells m) -> In e (iedges m) ->
    0 <= (if Nat.eqb c' (ie_l e) then ie_len e / area m c' * Rmax 0 (water_flux s u e) else 0)
         + (if Nat.eqb c' (ie_r e) then ie_len e / area m c' * Rmax 0 (- water_flux s u e) else 0).
  Proof.
    intros H1 H2. destruct Hm as (_ & Ha & He & _). assert (A := Ha c' H1). destruct (He e H2) as (L & _).
    assert (0 <= ie_len e / area m c') by (apply Rlt_le, Rdiv_lt_0_compat; assumption).
    assert (M1 := Rmax_l 0 (water_flux s u e)). assert (M2 := Rmax_l 0 (- water_flux s u e)).
    assert (0 <= ie_len e / area m c' * Rmax 0 (water_flux s u e)) by (apply Rmult_le_pos; assumption).
    assert (0 <= ie_len e / area m c' * Rmax 0 (- water_flux s u e)) by (apply Rmult_le_pos; assumption).
    destruct (Nat.eqb _ _); destruct (Nat.eqb _ _); lra.
  Qed.
  Lemma leaving_bterm c' e : In c' (cells m) -> In e (bedges m) ->
    0 <= (if Nat.eqb c' (be_c e) then be_len e / area m c' * Rmax 0 (water_bflux s u e) else 0).
  Proof.
    intros H1 H2. destruct Hm as (_ & Ha & _ & He). assert (A := Ha c' H1). assert (L := He e H2).
    assert (0 <= be_len e / area m c') by (apply Rlt_le, Rdiv_lt_0_compat; assumption).
    assert (M1 := Rmax_l 0 (water_bflux s u e)). assert (0 <= be_len e / area m c' * Rmax 0 (water_bflux s u e)) by (apply Rmult_le_pos; assumption).
    destruct (Nat.eqb _ _); lra.
  Qed.
  Lemma rsum_term_le {A} (g : A -> R) l x : (forall y, In y l -> 0 <= g y) -> In x l -> g x <= rsum g l.
  Proof.
    induction l as [|y t IH]; intros H Hx; [destruct Hx|]. cbn [rsum]. assert (0 <= rsum g t) by (apply rsum_nonneg; intros; apply H; right; assumption).
    destruct Hx as [<-|Hx]; [lra|]. assert (0 <= g y) by (apply H; left; reflexivity). assert (g x <= rsum g t) by (apply IH; [intros; apply H; right; assumption|exact Hx]). lra.
  Qed.
  Lemma leaving_nonneg c' : In c' (cells m) -> 0 <= leaving s m u c'.
  Proof.
    intros H. unfold leaving. apply Rplus_le_le_0_compat; apply rsum_nonneg; intros e He; [apply leaving_term|apply leaving_bterm]; assumption.
  Qed.
  (* a dry cell gives no water to an edge *)
  Lemma dry_gives_none c' e : In c' (cells m) -> depth (u c') = 0 -> In e (iedges m) ->
    (ie_l e = c' -> water_flux s u e <= 0) /\ (ie_r e = c' -> 0 <= water_flux s u e).
  Proof.
    intros H1 H0 H2. assert (L := Hne c' H1). rewrite H0 in L. assert (Z : leaving s m u c' <= 0) by nra.
    unfold leaving in Z.
    assert (B : 0 <= rsum (fun e => if Nat.eqb c' (be_c e) then be_len e / area m c' * Rmax 0 (water_bflux s u e) else 0) (bedges m)).
    { apply rsum_nonneg. intros; apply leaving_bterm; assumption. }
    assert (T := rsum_term_le _ (iedges m) e (fun y Hy => leaving_term c' y H1 Hy) H2).
    destruct Hm as (_ & Ha & He & _). assert (A := Ha c' H1). destruct (He e H2) as (Le & Nlr).
    assert (K : 0 < ie_len e / area m c') by (apply Rdiv_lt_0_compat; assumption). split; intros <-.
    - rewrite Nat.eqb_refl in T. destruct (Nat.eqb_spec (ie_l e) (ie_r e)); [contradiction|].
      destruct (Rmax_cases 0 (water_flux s u e)) as [(R1 & R2)|(R1 & R2)]; [|lra]. rewrite R2 in T. nra.
    - rewrite Nat.eqb_refl in T. destruct (Nat.eqb_spec (ie_r e) (ie_l e)); [congruence|].
      destruct (Rmax_cases 0 (- water_flux s u e)) as [(R1 & R2)|(R1 & R2)]; [|lra]. rewrite R2 in T. nra.
  Qed.
  Lemma w_wet q : depth q <> 0 -> ca * depth q + cb * ttr q j = depth q * w q.
  Proof. intros H. unfold w. rewrite conc_wet by exact H. field. exact H. Qed.
  Lemma w_nonneg c' : near m c c' -> In c' (cells m) -> depth (u c') <> 0 -> 0 <= w (u c').
  Proof.
    intros H1 H2 H3. assert (H4 := Hn c' H1). rewrite w_wet in H4 by exact H3. assert (H5 := P_nonneg _ (HP c' H2)).
    apply Rmult_le_reg_l with (depth (u c')); [lra|]. lra.
  Qed.

  Lemma max_principle : 0 <= p (taxpy u dt f c).
  Proof.
    assert (Padd : forall a b, p (tadd a b) = p a + p b) by (intros; unfold depth; cbn; ring).
    assert (Pscal : forall r a, p (tscal r a) = r * p a) by (intros; unfold depth; cbn; ring).
    destruct (tdivergence_val p Padd Pscal ltac:(unfold depth; cbn; ring) s m u f E) as (k & kb & K1 & K2 & V).
    unfold taxpy. rewrite Padd, Pscal, V.
    assert (Hm' := Hm). destruct Hm' as ((Hnd & Hi & Hb) & Ha & He & Hbl). assert (Ac := Ha c Hc).
    (* each edge takes at most its outgoing water times w *)
    assert (B1 : rsum (fun e => - w (u c) * ((if Nat.eqb c (ie_l e) then ie_len e / area m c * Rmax 0 (water_flux s u e) else 0)
               + (if Nat.eqb c (ie_r e) then ie_len e / area m c * Rmax 0 (- water_flux s u e) else 0))) (iedges m)
             <= rsum (fun e => ecoef everything (area m) e (p (fst (fst (k e)))) (p (snd (fst (k e)))) c) (iedges m)).
    { apply rsum_le. intros e Hin. destruct (k e) as [[fl fr] a] eqn:Ek. assert (Ek' := K1 e Hin). rewrite Ek in Ek'. cbn [fst snd].
      destruct (Hi e Hin) as (I1 & I2). destruct (He e Hin) as (Le & Nlr).
      destruct (upwind_interior s bcs P j u e fl fr a HT (HP _ I1) (HP _ I2) Ek') as (D1 & D2 & D3).
      assert (W : water_flux s u e = depth fl) by (unfold water_flux; rewrite Ek'; reflexivity). rewrite W.
      unfold ecoef, everything. assert (Q : 0 < ie_len e / area m c) by (apply Rdiv_lt_0_compat; assumption).
      replace (- ie_len e / area m c) with (- (ie_len e / area m c)) by (field; lra). set (r := ie_len e / area m c) in *.
      rewrite <- D1, <- D2.
      destruct (Nat.eqb_spec c (ie_l e)) as [Cl|Cl]; destruct (Nat.eqb_spec c (ie_r e)) as [Cr|Cr]; [congruence| | |lra].
      - (* c on the left *)
        assert (NR : near m c (ie_r e)) by (right; exists e; split; [exact Hin|left; auto]).
        destruct (Rle_dec 0 (depth fl)) as [Hs|Hs].
        + assert (G : Rleb 0 (depth fl) = true) by (apply Rleb_true; exact Hs). rewrite G in D3.
          rewrite D3, <- Cl. destruct (Rmax_cases 0 (depth fl)) as [(R1 & ->)|(R1 & ->)]; unfold w; [lra|]. replace (depth fl) with 0 by lra. lra.
        + assert (G : Rleb 0 (depth fl) = false) by (apply Rleb_false; lra). rewrite G in D3. rewrite D3.
          rewrite (Rmax_left 0 (depth fl)) by lra.
          assert (NZ : depth (u (ie_r e)) <> 0).
          { intros Z. destruct (dry_gives_none _ e I2 Z Hin) as (_ & Y). rewrite W in Y. specialize (Y eq_refl). lra. }
          assert (Wr := w_nonneg _ NR I2 NZ). unfold w in Wr.
          replace (- r * (ca * depth fl + cb * (depth fl * conc j (u (ie_r e)))) + 0) with (r * (- depth fl) * (ca + cb * conc j (u (ie_r e)))) by ring.
          assert (0 <= r * - depth fl) by (apply Rmult_le_pos; lra). assert (0 <= r * - depth fl * (ca + cb * conc j (u (ie_r e)))) by (apply Rmult_le_pos; assumption). lra.
      - (* c on the right *)
        assert (NL : near m c (ie_l e)) by (right; exists e; split; [exact Hin|right; auto]).
        destruct (Rle_dec 0 (depth fl)) as [Hs|Hs].
        + assert (G : Rleb 0 (depth fl) = true) by (apply Rleb_true; exact Hs). rewrite G in D3. rewrite D3.
          rewrite (Rmax_left 0 (- depth fl)) by lra.
          destruct (Req_EM_T (depth fl) 0) as [Z0|Z0]; [rewrite Z0; lra|].
          assert (NZ : depth (u (ie_l e)) <> 0).
          { intros Z. destruct (dry_gives_none _ e I1 Z Hin) as (Y & _). rewrite W in Y. specialize (Y eq_refl). lra. }
          assert (Wr := w_nonneg _ NL I1 NZ). unfold w in Wr.
          replace (0 + r * (ca * depth fl + cb * (depth fl * conc j (u (ie_l e))))) with (r * depth fl * (ca + cb * conc j (u (ie_l e)))) by ring.
          assert (0 <= r * depth fl) by (apply Rmult_le_pos; lra). assert (0 <= r * depth fl * (ca + cb * conc j (u (ie_l e)))) by (apply Rmult_le_pos; assumption). lra.
        + assert (G : Rleb 0 (depth fl) = false) by (apply Rleb_false; lra). rewrite G in D3. rewrite D3, <- Cr.
          rewrite (Rmax_right 0 (- depth fl)) by lra. unfold w. lra. }
    assert (B2 : rsum (fun e => - w (u c) * (if Nat.eqb c (be_c e) then be_len e / area m c * Rmax 0 (water_bflux s u e) else 0)) (bedges m)
             <= rsum (fun e => if Nat.eqb c (be_c e) then - be_len e / area m c * p (fst (kb e)) else 0) (bedges m)).
    { apply rsum_le. intros e Hin. destruct (kb e) as [F a] eqn:Ek. assert (Ek' := K2 e Hin). rewrite Ek in Ek'. cbn [fst].
      destruct (Nat.eqb_spec c (be_c e)) as [Ce|Ce]; [|lra].
      assert (D3 := upwind_boundary s bcs P j u e F a HT (HP _ (Hb e Hin)) (fun q => HB e q Hin) Ek').
      assert (W : water_bflux s u e = depth F) by (unfold water_bflux; rewrite Ek'; reflexivity). rewrite W.
      assert (Q : 0 < be_len e / area m c) by (apply Rdiv_lt_0_compat; [apply Hbl; exact Hin|exact Ac]).
      replace (- be_len e / area m c) with (- (be_len e / area m c)) by (field; lra). set (r := be_len e / area m c) in *.
      destruct (Rle_dec 0 (depth F)) as [Hs|Hs].
      - assert (G : Rleb 0 (depth F) = true) by (apply Rleb_true; exact Hs). rewrite G in D3. rewrite D3, <- Ce.
        destruct (Rmax_cases 0 (depth F)) as [(R1 & ->)|(R1 & ->)]; unfold w; [lra|]. replace (depth F) with 0 by lra. lra.
      - assert (G : Rleb 0 (depth F) = false) by (apply Rleb_false; lra). rewrite G in D3. rewrite D3.
        rewrite (Rmax_left 0 (depth F)) by lra.
        assert (Wb : 0 <= ca + cb * bconc (conc j) (bcs e) (u (be_c e)) \/ (bcs e = TReflecting)).
        { destruct (bcs e) as [q|] eqn:Eb; [left|right; reflexivity]. cbn [bconc].
          destruct (HnB e q Hin (eq_sym Ce) Eb) as (Hq & Hq2). rewrite w_wet in Hq2 by lra. unfold w in Hq2.
          apply Rmult_le_reg_l with (depth q); lra. }
        assert (Wb' : 0 <= ca + cb * bconc (conc j) (bcs e) (u (be_c e)) \/ (bcs e = TReflecting /\ depth (u c) = 0)).
        { destruct Wb as [Wb|Wb]; [left; exact Wb|]. rewrite Wb. cbn [bconc]. rewrite <- Ce.
          destruct (Req_EM_T (depth (u c)) 0) as [Z|Z]; [right; auto|left]. apply (w_nonneg c (or_introl eq_refl) Hc Z). }
        destruct Wb' as [Wb'|(Wb1 & Wb2)].
        + replace (- r * (ca * depth F + cb * (depth F * bconc (conc j) (bcs e) (u (be_c e))))) with (r * - depth F * (ca + cb * bconc (conc j) (bcs e) (u (be_c e)))) by ring.
          assert (0 <= r * - depth F) by (apply Rmult_le_pos; lra).
          assert (0 <= r * - depth F * (ca + cb * bconc (conc j) (bcs e) (u (be_c e)))) by (apply Rmult_le_pos; assumption). lra.
        + (* a wall of a dry cell carries nothing *)
          exfalso. assert (F = tzero).
          { clear - Ek' HT Wb1 Wb2 Ce HP Hc. destruct HT; cbn [ts_boundary petsc_tracer_scheme petsc_tracer_hr_scheme ceed_tracer_scheme] in Ek'; rewrite Wb1, <- Ce in Ek'.
            - unfold petsc_tracer_bedge, petsc_tracer_prim in Ek'. assert (G : Rltb (depth (u c)) tiny = true) by (apply Rltb_true; lra).
              rewrite G in Ek'. cbn [obind tp petsc_tracer_reflect petsc_reflect ph] in Ek'. rewrite G in Ek'. cbn in Ek'. congruence.
            - unfold petsc_tracer_bedge, petsc_tracer_prim in Ek'. assert (G : Rltb (depth (u c)) tiny = true) by (apply Rltb_true; lra).
              rewrite G in Ek'. cbn [obind tp petsc_tracer_reflect petsc_reflect ph] in Ek'. rewrite G in Ek'. cbn in Ek'. congruence.
            - assert (K := HP c Hc). cbn in K. lra. }
          subst F. unfold depth in Hs; cbn in Hs. lra. }
    assert (LV : rsum (fun e => - w (u c) * ((if Nat.eqb c (ie_l e) then ie_len e / area m c * Rmax 0 (water_flux s u e) else 0)
               + (if Nat.eqb c (ie_r e) then ie_len e / area m c * Rmax 0 (- water_flux s u e) else 0))) (iedges m)
               + rsum (fun e => - w (u c) * (if Nat.eqb c (be_c e) then be_len e / area m c * Rmax 0 (water_bflux s u e) else 0)) (bedges m)
             = - w (u c) * leaving s m u c).
    { unfold leaving. rewrite !rsum_scal. ring. }
    assert (Hl := leaving_nonneg c Hc). assert (Hd := Hne c Hc).
    set (S1 := rsum (fun e => ecoef _ _ _ _ _ _) _) in *. set (S2 := rsum (fun e => if Nat.eqb c (be_c e) then - be_len e / area m c * _ else 0) _) in *.
    assert (SS : - w (u c) * leaving s m u c <= S1 + S2) by lra.
    destruct (Req_EM_T (depth (u c)) 0) as [Z|Z].
    - assert (L0 : leaving s m u c = 0) by nra. rewrite L0 in SS. assert (0 <= p (u c)) by (apply Hn; left; reflexivity). cbv beta in *. nra.
    - assert (Wc := w_nonneg c (or_introl eq_refl) Hc Z). rewrite (w_wet (u c) Z). nra.
  Qed.
End MaxPrinciple.

Theorem C17_upwind_maximum_principle :
  forall s bcs P m dt j lo hi c u u',
    upwind_transport s bcs P -> good_mesh m -> 0 < dt -> In c (cells m) ->
    (forall c', In c' (cells m) -> P (u c')) ->
    (forall e q, In e (bedges m) -> bcs e = TDirichlet q -> P q) ->
    (* no cell is emptied in one step *)
    (forall c', In c' (cells m) -> dt * leaving s m u c' <= depth (u c')) ->
    (* old concentrations of the cell, its neighbours and the inflow *)
    (forall c', near m c c' -> conc_between lo hi j (u c')) ->
    (forall e q, In e (bedges m) -> be_c e = c -> bcs e = TDirichlet q -> 0 < depth q /\ conc_between lo hi j q) ->
    teuler_step (tdivergence s m) dt u = Some u' ->
    conc_between lo hi j (u' c) /\ 0 <= depth (u' c) /\ (0 < depth (u' c) -> lo <= ttr (u' c) j / depth (u' c) <= hi).
Proof.
  intros s bcs P m dt j lo hi c u u' HT Hm Hdt Hc HP HB Hne Hn HnB E.
  unfold teuler_step in E. apply obind_some in E. destruct E as (f & E & E'). injection E' as <-.
  assert (M1 : 0 <= - lo * depth (taxpy u dt f c) + 1 * ttr (taxpy u dt f c) j).
  { apply (max_principle s bcs P m dt j u f c (- lo) 1); try assumption.
    - intros c' H. destruct (Hn c' H). lra.
    - intros e q H1 H2 H3. destruct (HnB e q H1 H2 H3) as (K1 & K2). destruct K2. split; lra. }
  assert (M2 : 0 <= hi * depth (taxpy u dt f c) + (-1) * ttr (taxpy u dt f c) j).
  { apply (max_principle s bcs P m dt j u f c hi (-1)); try assumption.
    - intros c' H. destruct (Hn c' H). lra.
    - intros e q H1 H2 H3. destruct (HnB e q H1 H2 H3) as (K1 & K2). destruct K2. split; lra. }
  assert (M3 : 0 <= 1 * depth (taxpy u dt f c) + 0 * ttr (taxpy u dt f c) j).
  { apply (max_principle s bcs P m dt j u f c 1 0); try assumption.
    - intros c' H. assert (Hin : In c' (cells m)).
      { destruct H as [->|(e & He & [(_ & <-)|(_ & <-)])]; [exact Hc|apply Hm; exact He|apply Hm; exact He]. }
      assert (K := HP c' Hin). clear - K HT. destruct HT; cbn in K; lra.
    - intros e q H1 H2 H3. destruct (HnB e q H1 H2 H3) as (K1 & _). split; lra. }
  set (h := depth (taxpy u dt f c)) in *. set (x := ttr (taxpy u dt f c) j) in *.
  split; [split; fold h x; lra|]. split; [lra|]. intros Hh. split.
  - apply Rmult_le_reg_r with h; [exact Hh|]. unfold Rdiv. rewrite Rmult_assoc, Rinv_l by lra. lra.
  - apply Rmult_le_reg_r with h; [exact Hh|]. unfold Rdiv. rewrite Rmult_assoc, Rinv_l by lra. lra.
Qed.
Print Assumptions C17_upwind_maximum_principle.

(** ** Concrete cases *)
(* A channel of two unit cells, depth 1, velocity 1, open at both ends; clean water flows in, the first
   cell carries concentration 2, the second 1. *)
Definition channel_state (C : R) : tvec := TV (V3 1 1 0) (fun _ => C).
Definition channel : mesh :=
  Mesh [0%nat; 1%nat] (fun _ => 1) [IEdge 0 1 1 0 1]
       [BEdge 0 1 0 (-1) (BCDirichlet (V3 1 1 0)); BEdge 1 1 0 1 (BCDirichlet (V3 1 1 0))].
Definition channel_bc (C : R) : bedge -> tbcond := fun _ => TDirichlet (channel_state C).
Definition flat : cellgeom := CellGeom (fun _ => 1/50) (fun _ => 0) (fun _ => 0).

Lemma channel_edge k tiny C1 C2 cn : 0 < tiny -> tiny < 1 ->
  exists T a, petsc_tracer_edge k tiny (channel_state C1) (channel_state C2) 0 cn = Some (TV (side_flux GRAVITY (Prim 1 1 0) 0 cn) T, a).
Proof.
  intros Ht H1. destruct (petsc_tracer_edge_some k tiny (channel_state C1) (channel_state C2) 0 cn Ht) as (F & a & E & _ & HF); try (unfold depth; cbn; lra).
  destruct HF as (HF & _). { unfold tdry2, depth; cbn. assert (G : Rltb 1 tiny = false) by (apply Rltb_false; lra). rewrite G. reflexivity. }
  assert (V : pvel tiny 0 (V3 1 1 0) = Prim 1 1 0). { rewrite pvel_wet by (cbn; lra). cbn [c0 c1 c2]. apply prim_ext; cbn; lra. }
  cbn [channel_state tflow] in HF. rewrite V in HF. rewrite pflux_consistent in HF by (try apply GRAVITY_pos; cbn; lra).
  exists (ttr F), a. rewrite E, <- HF. destruct F; reflexivity.
Qed.
Lemma channel_step k tiny C u : 0 < tiny -> tiny < 1 -> (forall c, exists Ci, u c = channel_state Ci) ->
  exists u', teuler_step (tdivergence (petsc_tracer_scheme k tiny (channel_bc C) flat) channel) (1/2) u = Some u' /\ forall c, In c (cells channel) -> depth (u' c) = 1.
Proof.
  intros Ht H1 Hu. set (s := petsc_tracer_scheme k tiny (channel_bc C) flat).
  assert (KI : forall e, In e (iedges channel) -> exists T a, ts_interior s u e = Some (TV (side_flux GRAVITY (Prim 1 1 0) 0 1) T, TV (side_flux GRAVITY (Prim 1 1 0) 0 1) T, a)).
  { intros e [<-|[]]. cbn [s ts_interior petsc_tracer_scheme ie_l ie_r ie_sn ie_cn]. destruct (Hu 0%nat) as (C1 & ->). destruct (Hu 1%nat) as (C2 & ->).
    destruct (channel_edge k tiny C1 C2 1 Ht H1) as (T & a & ->). cbn. eauto. }
  assert (KB : forall e, In e (bedges channel) -> exists T a, ts_boundary s u e = Some (TV (side_flux GRAVITY (Prim 1 1 0) 0 (be_cn e)) T, a)).
  { assert (G : forall c cn, exists T a, petsc_tracer_bedge k tiny (TDirichlet (channel_state C)) (u c) 0 cn = Some (TV (side_flux GRAVITY (Prim 1 1 0) 0 cn) T, a)).
    { intros c cn. destruct (Hu c) as (C1 & ->). destruct (channel_edge k tiny C1 C cn Ht H1) as (T & a & E). exists T, a. rewrite <- E.
      unfold petsc_tracer_bedge, petsc_tracer_edge. destruct (petsc_tracer_prim_some tiny (channel_state C1) Ht) as (PL & EL & HL & _).
      destruct (petsc_tracer_prim_some tiny (channel_state C) Ht) as (PR & ER & HR & _). rewrite EL, ER. cbn [obind].
      rewrite HL, HR, !pvel_h. unfold depth. rewrite Bool.andb_comm. reflexivity. }
    intros e [<-|[<-|[]]]; cbn [s ts_boundary petsc_tracer_scheme channel_bc be_c be_sn be_cn]; apply G. }
  set (kI := fun e => match ts_interior s u e with Some x => x | None => (tzero, tzero, 0) end).
  set (kB := fun e => match ts_boundary s u e with Some x => x | None => (tzero, 0) end).
  destruct (interior_loop_val tadd tscal depth (fun _ _ => eq_refl) (fun _ _ => eq_refl) everything (area channel) (ts_interior s u) kI (iedges channel)) with (f := fun _ : nat => tzero) as (f1 & E1 & V1).
  { intros e He. unfold kI. destruct (KI e He) as (T & a & ->). reflexivity. }
  { intros e He. cbn. lra. }
  destruct (boundary_loop_val tadd tscal depth (fun _ _ => eq_refl) (fun _ _ => eq_refl) everything (area channel) (ts_boundary s u) kB (bedges channel)) with (f := f1) as (f2 & E2 & V2).
  { intros e He _. unfold kB. destruct (KB e He) as (T & a & ->). reflexivity. }
  { intros e He. cbn. lra. }
  exists (taxpy u (1/2) f2). split.
  { unfold teuler_step, tdivergence. rewrite E1. cbn [obind]. rewrite E2. reflexivity. }
  intros c Hc. unfold taxpy. change (depth (u c) + 1/2 * depth (f2 c) = 1). rewrite V2, V1. destruct (Hu c) as (C1 & ->).
  cbn [channel iedges bedges rsum everything]. unfold kI, kB.
  destruct (KI (IEdge 0 1 1 0 1) (or_introl eq_refl)) as (TI & aI & ->).
  destruct (KB _ (or_introl eq_refl)) as (TB & aB & ->). destruct (KB _ (or_intror (or_introl eq_refl))) as (TB' & aB' & ->).
  destruct Hc as [<-|[<-|[]]]; unfold ecoef, everything, depth; cbn; field.
Qed.

Example C17_example :
  exists u', teuler_step (tdivergence (petsc_tracer_scheme TUpwind (1/1000) (channel_bc 0) flat) channel) (1/2) (fun c => channel_state (2 - INR c)) = Some u' /\
    conc_between 0 2 0%nat (u' 0%nat) /\ conc_between 0 2 0%nat (u' 1%nat).
Proof.
  destruct (channel_step TUpwind (1/1000) 0 (fun c => channel_state (2 - INR c)) ltac:(lra) ltac:(lra) (fun c => ex_intro _ _ eq_refl)) as (u' & E & _).
  exists u'. split; [exact E|].
  assert (KI : water_flux (petsc_tracer_scheme TUpwind (1/1000) (channel_bc 0) flat) (fun c => channel_state (2 - INR c)) (IEdge 0 1 1 0 1) = 1).
  { unfold water_flux. cbn [ts_interior petsc_tracer_scheme ie_l ie_r ie_sn ie_cn].
    destruct (channel_edge TUpwind (1/1000) (2 - INR 0) (2 - INR 1) 1 ltac:(lra) ltac:(lra)) as (T & a & ->). unfold depth; cbn. ring. }
  assert (KB : forall e, In e (bedges channel) -> water_bflux (petsc_tracer_scheme TUpwind (1/1000) (channel_bc 0) flat) (fun c => channel_state (2 - INR c)) e = be_cn e).
  { assert (G : forall c cn, match petsc_tracer_bedge TUpwind (1/1000) (TDirichlet (channel_state 0)) (channel_state (2 - INR c)) 0 cn with Some (f, _) => depth f | None => 0 end = cn).
    { intros c cn. destruct (channel_edge TUpwind (1/1000) (2 - INR c) 0 cn ltac:(lra) ltac:(lra)) as (T & a & E').
      replace (petsc_tracer_bedge TUpwind (1/1000) (TDirichlet (channel_state 0)) (channel_state (2 - INR c)) 0 cn)
        with (petsc_tracer_edge TUpwind (1/1000) (channel_state (2 - INR c)) (channel_state 0) 0 cn); [rewrite E'; unfold depth; cbn; ring|].
      unfold petsc_tracer_bedge, petsc_tracer_edge. destruct (petsc_tracer_prim_some (1/1000) (channel_state (2 - INR c)) ltac:(lra)) as (PL & EL & HL & _).
      destruct (petsc_tracer_prim_some (1/1000) (channel_state 0) ltac:(lra)) as (PR & ER & HR & _). rewrite EL, ER. cbn [obind].
      rewrite HL, HR, !pvel_h. unfold depth. rewrite Bool.andb_comm. reflexivity. }
    intros e [<-|[<-|[]]]; unfold water_bflux; cbn [ts_boundary petsc_tracer_scheme channel_bc be_c be_sn be_cn]; apply G. }
  assert (LV : forall c, In c (cells channel) -> 1/2 * leaving (petsc_tracer_scheme TUpwind (1/1000) (channel_bc 0) flat) channel (fun c => channel_state (2 - INR c)) c <= 1).
  { intros c Hc. unfold leaving. cbn [channel iedges bedges rsum]. rewrite KI. rewrite (KB _ (or_introl eq_refl)), (KB _ (or_intror (or_introl eq_refl))).
    cbn [be_cn ie_l ie_r be_c ie_len be_len area]. rewrite (Rmax_right 0 1), (Rmax_left 0 (-1)), (Rmax_left 0 (-(1))) by lra.
    destruct Hc as [<-|[<-|[]]]; cbn; lra. }
  assert (GM : good_mesh channel).
  { split; [|split; [|split]].
    - split; [repeat constructor; simpl; intuition discriminate|]. split; [intros e [<-|[]]; cbn; auto|intros e [<-|[<-|[]]]; cbn; auto].
    - intros; cbn; lra. - intros e [<-|[]]; cbn; split; [lra|discriminate]. - intros e [<-|[<-|[]]]; cbn; lra. }
  assert (M : forall c, In c (cells channel) -> conc_between 0 2 0%nat (u' c)).
  { intros c Hc. apply (C17_upwind_maximum_principle (petsc_tracer_scheme TUpwind (1/1000) (channel_bc 0) flat) (channel_bc 0) (fun q => depth q = 0 \/ 1/1000 <= depth q) channel (1/2) 0%nat 0 2 c
             (fun c => channel_state (2 - INR c)) u'); try assumption.
    - constructor; lra. - lra. - intros c' _. unfold depth; cbn; lra.
    - intros e q _ Eq. injection Eq as <-. unfold depth; cbn; lra.
    - intros c' Hn. assert (Hin : In c' (cells channel)).
      { destruct Hn as [->|(e & [<-|[]] & [(_ & <-)|(_ & <-)])]; [exact Hc|cbn; auto|cbn; auto]. }
      unfold conc_between, depth; cbn. destruct Hin as [<-|[<-|[]]]; cbn; lra.
    - intros e q _ _ Eq. injection Eq as <-. unfold conc_between, depth; cbn. lra. }
  split; apply M; cbn; auto.
Qed.
(* the hypotheses of the uniform-concentration theorem hold in the same channel *)
Example C16_example :
  exists u', advect Euler (petsc_tracer_scheme TRoe (1/1000) (channel_bc 3) flat) channel [1/2] (fun _ => channel_state 3) = Some u' /\
    stays (fun q => depth q = 0 \/ 1/1000 <= depth q) Euler (petsc_tracer_scheme TRoe (1/1000) (channel_bc 3) flat) channel [1/2] (fun _ => channel_state 3) /\
    (forall c, In c (cells channel) -> has_concentration 3 0%nat (u' c) /\ depth (u' c) = 1).
Proof.
  destruct (channel_step TRoe (1/1000) 3 (fun c => channel_state 3) ltac:(lra) ltac:(lra) (fun c => ex_intro _ _ eq_refl)) as (u' & E & D).
  exists u'. assert (A : advect Euler (petsc_tracer_scheme TRoe (1/1000) (channel_bc 3) flat) channel [1/2] (fun _ => channel_state 3) = Some u').
  { unfold advect. cbn [ofold tts_step]. rewrite E. reflexivity. }
  assert (S : stays (fun q => depth q = 0 \/ 1/1000 <= depth q) Euler (petsc_tracer_scheme TRoe (1/1000) (channel_bc 3) flat) channel [1/2] (fun _ => channel_state 3)).
  { cbn [stays tstages]. split; [|intros; exact I]. intros l w El Hw c _. injection El as <-. destruct Hw as [<-|[]]. unfold depth; cbn. lra. }
  split; [exact A|]. split; [exact S|]. intros c Hc. split; [|exact (D c Hc)].
  eapply (C16_uniform_concentration_preserved Euler _ (channel_bc 3) _ channel 3 0%nat [1/2]); [apply (T_petsc_roe (1/1000) (channel_bc 3) flat); lra| | |exact S| |exact A|exact Hc].
  - split; [repeat constructor; simpl; intuition discriminate|]. split; [intros e [<-|[]]; cbn; auto|intros e [<-|[<-|[]]]; cbn; auto].
  - intros e q _ Eq. injection Eq as <-. unfold has_concentration, depth; cbn. lra.
  - intros; unfold has_concentration, depth; cbn; lra.
Qed.
