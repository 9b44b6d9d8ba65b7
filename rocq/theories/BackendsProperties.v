(** C93: a simulation on the host and the same simulation on the device give the same solution. *)
From Coq Require Import String.
From Verif Require Import Base RoeModel RoeProofs EdgeModel EdgeProofs HRModel HRProofs EtaModel SourceModel SourceProofs TracerModel AssemblyModel AssemblyProofs DecompModel DecompSpec DecompProofs DecompProperties
  MeshMapsProofs AMRProofs ConservationProperties FluxProperties HRProperties SourceProperties CeedLayoutModel CeedLayoutSpec CeedLayoutProofs CeedLayoutProperties CeedMusclProofs CeedHRModel CeedHRSpec CeedHRProofs CeedHRProperties
  CeedRunModel CeedRunSpec CeedRunProofs CeedRunProperties PetscRunModel PetscRunSpec PetscRunProofs PetscRunProperties
  MusclModel MusclProofs MusclProperties CeedMusclModel CeedMusclSpec CeedMusclProperties MusclRunModel MusclRunSpec MusclRunProofs MusclRunProperties PetscMusclModel PetscMusclSpec PetscMusclProperties BackendsSpec.
Local Open Scope R_scope.
Local Notation length := List.length.

Lemma ofold_ext_in {A S} (f g : S -> A -> option S) l : (forall s a, In a l -> f s a = g s a) -> forall s, ofold f l s = ofold g l s.
Proof. induction l as [|a l IH]; intros H s; cbn [ofold]; [reflexivity|]. rewrite (H s a (or_introl eq_refl)). destruct (g s a); [|reflexivity]. apply IH. intros s1 b Hb. apply H. right. exact Hb. Qed.
(* two discretisations that agree on the edges and cells of a mesh *)
Definition agree (s s' : scheme) (m : mesh) (dt : R) (src u : nat -> vec3) : Prop :=
  (forall e, In e (iedges m) -> s_interior s u e = s_interior s' u e) /\ (forall e, In e (bedges m) -> s_boundary s u e = s_boundary s' u e) /\
  (forall c F, In c (cells m) -> s_source s dt u src c F = s_source s' dt u src c F).
Lemma agree_rhs s s' m dt src u : agree s s' m dt src u -> rhs_domain s m dt src u = rhs_domain s' m dt src u.
Proof.
  intros (H1 & H2 & H3). unfold rhs_domain, flux_divergence, interior_loop, boundary_loop, source_loop.
  rewrite (ofold_ext_in _ (edge_update vadd vscal everything (area m) (s_interior s' u)) (iedges m)) by (intros f e He; unfold edge_update; rewrite (H1 e He); reflexivity).
  destruct (ofold _ (iedges m) zero_field) as [f1|]; [|reflexivity]. rewrite !obind_Some.
  rewrite (ofold_ext_in _ (bedge_update vadd vscal everything (area m) (s_boundary s' u)) (bedges m)) by (intros f e He; unfold bedge_update; rewrite (H2 e He); reflexivity).
  destruct (ofold _ (bedges m) f1) as [f2|]; [|reflexivity]. rewrite !obind_Some.
  apply ofold_ext_in. intros f c Hc. unfold cell_update. rewrite (H3 c (f c) Hc). reflexivity.
Qed.
Lemma agree_step i F G dt u l : stages i F dt u = Some l -> (forall w, In w l -> F (snd w) = G (snd w)) -> ts_step i F dt u = ts_step i G dt u.
Proof.
  destruct i; cbn [stages ts_step]; unfold euler_step, rk4_step; intros E H.
  - injection E as <-. specialize (H (1, u) (or_introl eq_refl)). cbn [snd] in H. rewrite H. reflexivity.
  - apply obind_some in E. destruct E as (k1 & E1 & E). apply obind_some in E. destruct E as (k2 & E2 & E). apply obind_some in E. destruct E as (k3 & E3 & E). injection E as <-.
    assert (H1 := H (1/6, u) ltac:(cbn; tauto)). assert (H2 := H (1/3, axpy u (dt/2) k1) ltac:(cbn; tauto)). assert (H3 := H (1/3, axpy u (dt/2) k2) ltac:(cbn; tauto)). assert (H4 := H (1/6, axpy u dt k3) ltac:(cbn; tauto)).
    cbn [snd] in H1, H2, H3, H4. rewrite <- H1, E1, !obind_Some, <- H2, E2, !obind_Some, <- H3, E3, !obind_Some, <- H4. reflexivity.
Qed.
Lemma agree_run (P : step_input -> (nat -> vec3) -> Prop) s s' i m : (forall x u, P x u -> agree s s' (with_boundary m (st_bedges x)) (st_dt x) (st_src x) u) ->
  forall xs u, every_state P i s m xs u -> exists u', run i s m xs u = Some u' /\ run i s' m xs u = Some u'.
Proof.
  intros HP. unfold run. induction xs as [|x xs IH]; intros u H; cbn [every_state ofold] in *; [eauto|]. destruct H as (H1 & H2).
  destruct (stages _ _ _ _) as [l|] eqn:E; [|contradiction]. destruct (advance_step i s m u x) as [u1|] eqn:E1; [|contradiction].
  assert (E2 : advance_step i s' m u x = Some u1).
  { rewrite <- E1. symmetry. unfold advance_step. apply (agree_step i _ _ _ _ l E). intros w Hw. apply agree_rhs, HP. rewrite Forall_forall in H1. exact (H1 w Hw). }
  rewrite E2, !obind_Some. apply IH. exact H2.
Qed.

(** ** The two back ends *)
Lemma boundary_agree tiny ha u e : 0 < tiny -> clear_boundary tiny ha u e ->
  petsc_boundary_edge tiny ha (be_bc e) (u (be_c e)) (be_sn e) (be_cn e) = ceed_boundary_edge GRAVITY tiny ha (be_bc e) (u (be_c e)) (be_sn e) (be_cn e) 0.
Proof.
  intros T ((D1 & D2) & B). destruct (be_bc e) as [q| |] eqn:Q.
  - destruct B as (B1 & B2). destruct (C08_backends_agree_partial tiny ha (u (be_c e)) q (be_sn e) (be_cn e) T D1 B1 D2 B2) as (_ & E & _). symmetry. exact E.
  - destruct (C08_backends_agree_partial tiny ha (u (be_c e)) (u (be_c e)) (be_sn e) (be_cn e) T D1 D1 D2 D2) as (_ & _ & E & _). symmetry. exact E.
  - cbv zeta in B. destruct B as (HA & B1 & B2). rewrite HA in *. destruct (C08_backends_agree_partial tiny 0 (u (be_c e)) (u (be_c e)) (be_sn e) (be_cn e) T D1 D1 D2 D2) as (_ & _ & _ & E). symmetry. exact (E B1 B2).
Qed.
Lemma clear_agree w cf z g m x u : flow_config cf -> well_formed m -> boundary_in m (st_bedges x) -> clear_state w cf z m x u ->
  agree (petsc_scheme_of w cf z g) (scheme_of w cf z g) (with_boundary m (st_bedges x)) (st_dt x) (st_src x) u.
Proof.
  intros (_ & _ & T) WF HB [Hdt FR HC HE HBD]. destruct WF as (_ & WI). split; [|split].
  - intros e He. cbn [with_boundary iedges] in He. destruct (WI e He) as (Hl & Hr). destruct (HC _ Hl) as (L1 & L2). destruct (HC _ Hr) as (R1 & R2). specialize (HE e He). destruct w as [|file]; cbn [petsc_scheme_of scheme_of petsc_scheme ceed_scheme petsc_hr_scheme ceed_hr_scheme s_interior].
    + destruct (C08_backends_agree_partial (cf_tiny_h cf) (cf_h_anuga cf) (u (ie_l e)) (u (ie_r e)) (ie_sn e) (ie_cn e) T L1 R1 L2 R2) as (E & _). rewrite E. reflexivity.
    + cbn [clear_edge] in HE. destruct HE as (HA & S1 & S2). rewrite HA. symmetry. apply C08_hydrostatic_reconstruction_agree_partial; try assumption.
      * destruct S1 as [S1|(S1 & _)]; [right; exact S1|left; exact S1].
      * destruct S2 as [S2|(S2 & _)]; [right; exact S2|left; exact S2].
      * intros E0. destruct S1 as [S1|(_ & S1)]; [lra|exact S1].
      * intros E0. destruct S2 as [S2|(_ & S2)]; [lra|exact S2].
  - intros e He. cbn [with_boundary bedges] in He. destruct w as [|file]; cbn [petsc_scheme_of scheme_of petsc_scheme ceed_scheme petsc_hr_scheme ceed_hr_scheme s_boundary]; apply boundary_agree; auto.
  - intros c F Hc. cbn [with_boundary cells] in Hc. destruct (HC c Hc) as (_ & N). destruct w as [|file]; cbn [petsc_scheme_of scheme_of petsc_scheme ceed_scheme petsc_hr_scheme ceed_hr_scheme s_source]; symmetry; apply C08_sources_agree_partial; assumption.
Qed.
Lemma clear_agree2 lim G cf g m x u : flow_config cf -> well_formed m -> boundary_in m (st_bedges x) -> clear_state2 lim G cf m x u ->
  agree (petsc_scheme2_of lim cf G m g) (scheme2_of lim cf G m g) (with_boundary m (st_bedges x)) (st_dt x) (st_src x) u.
Proof.
  intros C WF HB [HS HF]. destruct (clear_agree Standard cf (fun _ => 0) g m x u C WF HB HS) as (_ & A2 & A3). split; [|split; [exact A2|exact A3]].
  intros e He. cbn [with_boundary iedges] in He. destruct (HF e He) as (F1 & F2). symmetry. apply C08_second_order_agree_partial; [exact (proj2 (proj2 C))|exact F1|exact F2].
Qed.
Lemma holds_same L U L' U' u : holds L U u -> holds L' U' u -> same_values L U L' U'.
Proof.
  intros H H' r j c r' j' gs gs' x x' A B Hx A' B' Hx'. destruct (Forall2_get _ _ _ _ _ H A) as (y & Hy & _ & Py). destruct (Forall2_get _ _ _ _ _ H' A') as (y' & Hy' & _ & Py').
  assert (y = x) by congruence. assert (y' = x') by congruence. subst. rewrite (Py _ _ B), (Py' _ _ B'). reflexivity.
Qed.
(* [every_state] for states of runs whose boundary edges belong to the mesh *)
Lemma every_state_in (P Q : step_input -> (nat -> vec3) -> Prop) i s m xs : (forall x u, In x xs -> P x u -> Q x u) -> forall u, every_state P i s m xs u -> every_state Q i s m xs u.
Proof.
  induction xs as [|x xs IH]; intros H u E; cbn [every_state] in *; [exact I|]. destruct E as (E1 & E2). split.
  - destruct (stages _ _ _ _); [|contradiction]. eapply Forall_impl; [|exact E1]. intros w. apply H. left. reflexivity.
  - destruct (advance_step _ _ _ _ _); [|contradiction]. apply IH; [|exact E2]. intros y v0 Hy. apply H. right. exact Hy.
Qed.

(* First order, with or without hydrostatic reconstruction: the host on any processes and the device on any processes
   (perhaps other ones) give every cell the same values after any number of steps, if at the states the run goes through
   depths stay off the dry threshold and outflow edges are ones on which both agree.  Missing: the other states, for which
   C93_backends_differ_refuted shows a difference. *)
Theorem C93_first_order_partial : forall i w cf m z g Lh Eh Ld xs steps_h steps_d Uh S Ud u,
  petsc_config cf -> well_formed m ->
  Forall2 (petsc_run_distributed w cf m z g Lh Eh) xs steps_h -> holds Lh Uh u -> bops_sized Eh S ->
  Forall2 (run_distributed w cf m z g Ld) xs steps_d -> holds Ld Ud u ->
  every_state (clear_state w cf z m) i (petsc_scheme_of w cf z g) m xs u ->
  exists Uh' S' Ud', petsc_run i w cf steps_h (Uh, S) = Some (Uh', S') /\ ceed_run i w cf steps_d Ud = Some Ud' /\ same_values Lh Uh' Ld Ud'.
Proof.
  intros i w cf m z g Lh Eh Ld xs steps_h steps_d Uh S Ud u C WF FH HH HS FD HD EV.
  assert (BI : forall x, In x xs -> boundary_in m (st_bedges x)).
  { intros x Hx. destruct (In_nth_error _ _ Hx) as (k & Hk). destruct (Forall2_get _ _ _ _ _ FD Hk) as (st & _ & _ & B & _). exact B. }
  assert (EV' : every_state (fun x u => boundary_in m (st_bedges x) /\ clear_state w cf z m x u) i (petsc_scheme_of w cf z g) m xs u) by (eapply every_state_in; [|exact EV]; intros x v0 Hx Hv; split; [apply BI; exact Hx|exact Hv]).
  destruct (agree_run _ (petsc_scheme_of w cf z g) (scheme_of w cf z g) i m (fun x v Hv => clear_agree w cf z g m x v (proj1 C) WF (proj1 Hv) (proj2 Hv)) xs u EV') as (u' & E1 & E2).
  destruct (C73_run i w cf m z g Lh Eh xs steps_h Uh S u u' C WF FH HH HS E1) as (Uh' & S' & R1 & H1 & _).
  destruct (C72_run i w cf m z g Ld xs steps_d Ud u u' (proj1 C) WF FD HD E2) as (Ud' & R2 & H2).
  exists Uh', S', Ud'. split; [exact R1|]. split; [exact R2|]. exact (holds_same _ _ _ _ _ H1 H2).
Qed.
Print Assumptions C93_first_order_partial.

(* second order, any limiter; the face values must be off the threshold as well *)
Theorem C93_second_order_partial : forall i lim cf G m g dtm Lh Eh Ld xs steps_h steps_d Uh S Ud u,
  petsc_config cf -> unoriented G -> well_formed m ->
  Forall2 (petsc_run_distributed2 cf G m g Lh Eh) xs steps_h -> holds Lh Uh u -> bops_sized Eh S ->
  Forall2 (run_distributed2 cf G m g Ld) xs steps_d -> holds Ld Ud u ->
  every_state (clear_state2 lim G cf m) i (petsc_scheme2_of lim cf G m g) m xs u ->
  exists Uh' S' Ud', petsc_muscl_run i lim cf steps_h (Uh, S) = Some (Uh', S') /\ muscl_run i lim cf dtm steps_d Ud = Some Ud' /\ same_values Lh Uh' Ld Ud'.
Proof.
  intros i lim cf G m g dtm Lh Eh Ld xs steps_h steps_d Uh S Ud u C UG WF FH HH HS FD HD EV.
  assert (BI : forall x, In x xs -> boundary_in m (st_bedges x)).
  { intros x Hx. destruct (In_nth_error _ _ Hx) as (k & Hk). destruct (Forall2_get _ _ _ _ _ FD Hk) as (st & _ & _ & B & _). exact B. }
  assert (EV' : every_state (fun x u => boundary_in m (st_bedges x) /\ clear_state2 lim G cf m x u) i (petsc_scheme2_of lim cf G m g) m xs u) by (eapply every_state_in; [|exact EV]; intros x v0 Hx Hv; split; [apply BI; exact Hx|exact Hv]).
  destruct (agree_run _ (petsc_scheme2_of lim cf G m g) (scheme2_of lim cf G m g) i m (fun x v Hv => clear_agree2 lim G cf g m x v (proj1 C) WF (proj1 Hv) (proj2 Hv)) xs u EV') as (u' & E1 & E2).
  destruct (C80_run i lim cf G m g Lh Eh xs steps_h Uh S u u' C UG WF FH HH HS E1) as (Uh' & S' & R1 & H1 & _).
  destruct (C79_run i lim cf G m g dtm Ld xs steps_d Ud u u' (proj1 C) UG WF FD HD E2) as (Ud' & R2 & H2).
  exists Uh', S', Ud'. split; [exact R1|]. split; [exact R2|]. exact (holds_same _ _ _ _ _ H1 H2).
Qed.
Print Assumptions C93_second_order_partial.

(** ** States for which the back ends differ *)
(* A closed basin of two cells, one of them with a depth of exactly the threshold, the other dry: one step on the host
   moves water, on the device it does not. *)
Definition pair_mesh : mesh := Mesh [0; 1]%nat (fun _ => 1) [IEdge 0 1 1 0 1] [].
Definition pair_geom : cellgeom := CellGeom (fun _ => 0) (fun _ => 0) (fun _ => 0).
Definition pair_state (c : nat) : vec3 := if Nat.eqb c 0 then V3 (1/1000) 0 0 else V3 0 0 0.
Theorem C93_backends_differ_refuted : exists cf m g x u uh ud,
  petsc_config cf /\ well_formed m /\ st_bedges x = [] /\ 0 < st_dt x /\ (forall c, In c (cells m) -> 0 <= c0 (u c)) /\
  run Euler (petsc_scheme_of Standard cf (fun _ => 0) g) m [x] u = Some uh /\
  run Euler (scheme_of Standard cf (fun _ => 0) g) m [x] u = Some ud /\
  exists c, In c (cells m) /\ c0 (uh c) < c0 (ud c).
Proof.
  exists (one_config 0 false), pair_mesh, pair_geom, (StepInput (1/10) [] (fun _ => vzero)), pair_state.
  destruct (backends_differ_at_threshold (1/1000) 0 ltac:(lra)) as (f & a & E1 & P & E2).
  unfold run, advance_step. cbn [ofold ts_step st_bedges st_dt st_src]. unfold euler_step, rhs_domain, flux_divergence, interior_loop, boundary_loop, source_loop.
  cbn [with_boundary pair_mesh cells area iedges bedges ofold petsc_scheme_of scheme_of petsc_scheme ceed_scheme s_interior s_boundary s_source].
  unfold edge_update. cbn [ie_l ie_r ie_sn ie_cn ie_len everything cf_tiny_h cf_h_anuga one_config].
  change (pair_state 0) with (V3 (1/1000) 0 0). change (pair_state 1) with (V3 0 0 0). rewrite E1, E2. cbn [both obind fst snd]. rewrite !rdiv_some by lra. cbn [obind].
  unfold cell_update. set (F := add_at vadd (add_at vadd zero_field 0 (vscal (- (1) / 1) f)) 1 (vscal (1 / 1) f)). set (G := add_at vadd (add_at vadd zero_field 0 (vscal (- (1) / 1) vzero)) 1 (vscal (1 / 1) vzero)).
  change (friction_of (one_config 0 false)) with SemiImplicit. cbn [pair_geom manning dzdx dzdy].
  destruct (petsc_semi_implicit_step true (1/10) (1/1000) 0 0 0 (V3 (1/1000) 0 0) (F 0%nat) vzero) as (s0 & r & _ & _ & ER & R0 & _); [lra|lra|cbn; lra|].
  change (pair_state 0) with (V3 (1/1000) 0 0). change (pair_state 1) with (V3 0 0 0).
  rewrite ER. cbn [obind Nat.eqb]. unfold petsc_rhs at 1. rewrite petsc_source_dry by (cbn; lra). cbn [obind].
  rewrite ceed_rhs_dry by (cbn; lra). cbn [obind Nat.eqb]. rewrite ceed_rhs_dry by (cbn; lra). cbn [obind].
  do 2 eexists. split; [repeat split; cbn; (lra || discriminate)|]. split; [split; [cbn; repeat constructor; cbn; lia|intros e [<-|[]]; cbn; auto]|]. split; [reflexivity|]. split; [lra|].
  split; [intros c [<-|[<-|[]]]; cbn; lra|]. split; [reflexivity|]. split; [reflexivity|].
  exists 0%nat. split; [left; reflexivity|]. unfold axpy. cbn [Nat.eqb pair_state]. unfold euler in R0. cbn [vadd vscal c0] in R0 |- *.
  assert (EF : c0 (F 0%nat) = - c0 f) by (unfold F, add_at; cbn [Nat.eqb zero_field vzero vadd vscal c0]; field).
  assert (EG : c0 (G 0%nat) = 0) by (unfold G, add_at; cbn [Nat.eqb zero_field vzero vadd vscal c0]; field).
  rewrite EF in R0. rewrite EG. cbn [vzero c0] in R0 |- *. lra.
Qed.
Print Assumptions C93_backends_differ_refuted.

(** ** Example: water flowing from the first to the second square, over beds of 0 and 1 metres *)
Definition flowing (c : nat) : vec3 := if Nat.eqb c 0 then V3 3 1 0 else V3 1 0 0.
Lemma flowing_clear : every_state (clear_state (Hydrostatic true) (one_config 0 false) INR squares) Euler (petsc_scheme_of (Hydrostatic true) (one_config 0 false) INR square_geom) squares [square_step] flowing.
Proof.
  assert (W : well_formed squares) by (split; [cbn; repeat constructor; cbn; lia|intros e [<-|[]]; cbn; auto]).
  cbn [every_state]. split.
  - cbn [stages]. constructor; [|constructor]. cbn [snd]. constructor.
    + cbn. lra.
    + reflexivity.
    + intros c [<-|[<-|[]]]; unfold clear_depth; cbn; lra.
    + intros e [<-|[]]. cbn [clear_edge ie_l ie_r]. split; [reflexivity|]. unfold clear_side. cbn [INR flowing Nat.eqb c0]. change (cf_tiny_h (one_config 0 false)) with (1/1000). unfold hr_depth.
      rewrite (Rmax_right 0 1), (Rmax_left 1 0) by lra. rewrite !Rmax_right by lra. split; left; lra.
    + intros e He. unfold clear_boundary, clear_depth. cbn in He. repeat (destruct He as [<-|He]; [cbn; split; [lra|exact I]|]). contradiction.
  - unfold advance_step. cbn [ts_step]. unfold euler_step.
    destruct (rhs_defined (petsc_scheme_of (Hydrostatic true) (one_config 0 false) INR square_geom) (with_boundary squares (st_bedges square_step)) (st_dt square_step) (st_src square_step) flowing) as (f & E).
    + destruct W as (W1 & W2). split; [exact W1|]. split; [exact W2|]. intros e He. cbn in He |- *. repeat (destruct He as [<-|He]; [cbn; tauto|]). contradiction.
    + intros c Hc. cbn. lra.
    + intros e [<-|[]]. cbn [petsc_scheme_of petsc_hr_scheme s_interior ie_l ie_r ie_sn ie_cn]. change (cf_tiny_h (one_config 0 false)) with (1/1000). change (cf_h_anuga (one_config 0 false)) with 0. unfold petsc_hr_edge, hr_velocity.
      destruct (_ && _)%bool; [eauto|]. rewrite !ceed_velocities_some by lra. cbn [obind]. unfold hr_depth. cbn [INR flowing Nat.eqb c0]. rewrite (Rmax_right 0 1), (Rmax_left 1 0) by lra. rewrite !Rmax_right by lra.
      destruct (_ || _)%bool; [|cbn; eauto]. rewrite petsc_roe_flux_some by (unfold wetpair; cbn [ph]; lra). cbn; eauto.
    + intros e He. cbn [petsc_scheme_of petsc_hr_scheme s_boundary]. destruct (petsc_boundary_edge_some (cf_tiny_h (one_config 0 false)) (cf_h_anuga (one_config 0 false)) (be_bc e) (flowing (be_c e)) (be_sn e) (be_cn e)) as (x & a & X); [cbn; lra| | |eauto];
        cbn in He; repeat (destruct He as [<-|He]; [cbn; (lra || exact I)|]); contradiction.
    + intros c F Hc. cbn [petsc_scheme_of petsc_hr_scheme s_source]. destruct (petsc_semi_implicit_step false (st_dt square_step) (cf_tiny_h (one_config 0 false)) (manning square_geom c) (dzdx square_geom c) (dzdy square_geom c) (flowing c) F (st_src square_step c)) as (s0 & r & _ & _ & X & _); [cbn; lra|cbn; lra|cbn in Hc; destruct Hc as [<-|[<-|[]]]; cbn; lra|]. exists r. exact X.
    + rewrite E, obind_Some. exact I.
Qed.
Lemma square_one_step : Forall2 (run_distributed (Hydrostatic true) (one_config 0 false) squares INR square_geom [[0];[1]]%nat) [square_step] [(1/10, square_ps)] /\
  Forall2 (petsc_run_distributed (Hydrostatic true) (one_config 0 false) squares INR square_geom [[0];[1]]%nat square_edges) [square_step] [(1/10, square_ps)].
Proof. assert (A := square_run). assert (B := square_petsc_run). inversion A; inversion B; subst. split; constructor; assumption || constructor. Qed.
Example C93_example : exists Uh S Ud, petsc_run Euler (Hydrostatic true) (one_config 0 false) [(1/10, square_ps)] ([[3;1;0]; [1;0;0]], square_states) = Some (Uh, S) /\
  ceed_run Euler (Hydrostatic true) (one_config 0 false) [(1/10, square_ps)] [[3;1;0]; [1;0;0]] = Some Ud /\ same_values [[0];[1]]%nat Uh [[0];[1]]%nat Ud.
Proof.
  assert (H : holds [[0];[1]]%nat [[3;1;0]; [1;0;0]] flowing) by (repeat constructor; (intros i c Hi; destruct i as [|i]; [injection Hi as <-; reflexivity|destruct i; discriminate])).
  apply (C93_first_order_partial Euler (Hydrostatic true) (one_config 0 false) squares INR square_geom [[0];[1]]%nat square_edges [[0];[1]]%nat [square_step] [(1/10, square_ps)] [(1/10, square_ps)] [[3;1;0]; [1;0;0]] square_states [[3;1;0]; [1;0;0]] flowing).
  - repeat split; cbn; (lra || discriminate).
  - split; [cbn; repeat constructor; cbn; lia|intros e [<-|[]]; cbn; auto].
  - exact (proj2 square_one_step).
  - exact H.
  - exact square_states_sized.
  - exact (proj1 square_one_step).
  - exact H.
  - exact flowing_clear.
Qed.
