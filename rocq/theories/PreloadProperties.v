(** C89: a warm-up before the timed solve does not change the solution; on the PETSc back end it is counted in the
    boundary fluxes. *)
From Coq Require Import String.
From Verif Require Import Base RoeModel RoeProofs EdgeModel EdgeProofs HRModel EtaModel SourceModel AssemblyModel AssemblyProofs DecompModel DecompSpec DecompProofs DecompProperties
  MeshMapsProofs AMRProofs ConservationProperties HRProperties CeedLayoutModel CeedLayoutSpec CeedLayoutProofs CeedLayoutProperties CeedMusclProofs CeedHRModel CeedHRSpec CeedHRProofs CeedHRProperties
  CeedRunModel CeedRunSpec CeedRunProofs CeedRunProperties PetscRunModel PetscRunSpec PetscRunProofs PetscRunProperties PreloadModel.
Local Open Scope R_scope.
Local Notation length := List.length.

Lemma part_holds_unique u gs x y : part_holds u gs x -> part_holds u gs y -> x = y.
Proof.
  intros (Lx & Hx) (Ly & Hy). apply (nth_ext x y 0 0); [congruence|]. intros n Hn. rewrite Lx in Hn.
  assert (D : n = (n / 3 * 3 + n mod 3)%nat) by (pose proof (Nat.div_mod n 3); lia). assert (M : (n mod 3 < 3)%nat) by (apply Nat.mod_upper_bound; lia).
  assert (I : (n / 3 < length gs)%nat) by (apply Nat.div_lt_upper_bound; lia).
  destruct (nth_error gs (n / 3)) as [c|] eqn:E; [|apply nth_error_None in E; lia].
  rewrite D, <- !(nth_block 3 _ (n / 3) (n mod 3) M), (Hx _ _ E), (Hy _ _ E). reflexivity.
Qed.
Lemma holds_unique L U V u : holds L U u -> holds L V u -> U = V.
Proof.
  intros H. revert V. induction H as [|gs x L U Hx H IH]; intros V HV; inversion HV; subst; [reflexivity|]. f_equal; [eapply part_holds_unique; eassumption | apply IH; assumption].
Qed.
Lemma warm_up i w cf m z g L E x0 warm U S u u0 : petsc_config cf -> well_formed m -> petsc_run_distributed w cf m z g L E x0 warm -> holds L U u -> bops_sized E S ->
  advance_step i (petsc_scheme_of w cf z g) m u x0 = Some u0 -> exists S1, CalibrateSolverTimers i w cf warm (U, S) = Some (U, S1) /\ bops_sized E S1.
Proof.
  intros C WF D HU HS H. destruct (C73_run i w cf m z g L E [x0] [warm] U S u u0 C WF) as (U1 & S1 & E1 & _ & HS1); [constructor; [exact D|constructor] | exact HU | exact HS | |].
  - unfold run. cbn [ofold]. rewrite H. reflexivity.
  - exists S1. split; [|exact HS1]. unfold petsc_run in E1. cbn [ofold] in E1. unfold CalibrateSolverTimers. destruct (state_step _ _ _ _) as [[a b]|]; [|discriminate].
    cbn in E1. injection E1 as -> ->. reflexivity.
Qed.

(* The same solution on every process, to the last number, whatever step the warm-up took.  Missing: that PETSc takes the
   same steps after a warm-up. *)
Theorem C89_solution_partial : forall i w cf m z g L E x0 warm xs steps U S u u0 u',
  petsc_config cf -> well_formed m -> petsc_run_distributed w cf m z g L E x0 warm -> Forall2 (petsc_run_distributed w cf m z g L E) xs steps ->
  holds L U u -> bops_sized E S ->
  advance_step i (petsc_scheme_of w cf z g) m u x0 = Some u0 -> run i (petsc_scheme_of w cf z g) m xs u = Some u' ->
  exists U' S1 S2, advance_solve false i w cf warm steps (U, S) = Some (U', S1) /\ advance_solve true i w cf warm steps (U, S) = Some (U', S2) /\ holds L U' u'.
Proof.
  intros i w cf m z g L E x0 warm xs steps U S u u0 u' C WF D F HU HS H0 H.
  destruct (warm_up i w cf m z g L E x0 warm U S u u0 C WF D HU HS H0) as (S0 & E0 & HS0).
  destruct (C73_run i w cf m z g L E xs steps U S u u' C WF F HU HS H) as (U1 & S1 & E1 & H1 & _).
  destruct (C73_run i w cf m z g L E xs steps U S0 u u' C WF F HU HS0 H) as (U2 & S2 & E2 & H2 & _).
  rewrite (holds_unique L U2 U1 u' H2 H1) in E2. exists U1, S1, S2. unfold advance_solve. rewrite E0, !obind_Some. auto.
Qed.
Print Assumptions C89_solution_partial.

(* The accumulated flux of an edge, which the boundary time series report, contains the step of the warm-up. *)
Theorem C89_accumulated_flux : forall w cf m z g L E x0 warm xs steps U S u u0 u' q j i k a I0 I,
  petsc_config cf -> well_formed m -> petsc_run_distributed w cf m z g L E x0 warm -> Forall2 (petsc_run_distributed w cf m z g L E) xs steps ->
  holds L U u -> bops_sized E S -> advance_step Euler (petsc_scheme_of w cf z g) m u x0 = Some u0 -> run Euler (petsc_scheme_of w cf z g) m xs u = Some u' ->
  (k < 3)%nat -> accumulated S q j i k = Some a ->
  flux_integral cf (petsc_scheme_of w cf z g) m [x0] [warm] u q j i k = Some I0 -> flux_integral cf (petsc_scheme_of w cf z g) m xs steps u q j i k = Some I ->
  exists U' S1 S2, advance_solve false Euler w cf warm steps (U, S) = Some (U', S1) /\ accumulated S1 q j i k = Some (a + I) /\
                   advance_solve true Euler w cf warm steps (U, S) = Some (U', S2) /\ accumulated S2 q j i k = Some (a + I0 + I).
Proof.
  intros w cf m z g L E x0 warm xs steps U S u u0 u' q j i k a I0 I C WF D F HU HS H0 H Hk A E0 EI.
  destruct (C73_accumulated_flux w cf m z g L E xs steps U S u u' q j i k a I C WF F HU HS H Hk A EI) as (U1 & S1 & E1 & H1 & A1).
  assert (F0 : Forall2 (petsc_run_distributed w cf m z g L E) [x0] [warm]) by (constructor; [exact D|constructor]).
  assert (R0 : run Euler (petsc_scheme_of w cf z g) m [x0] u = Some u0) by (unfold run; cbn [ofold]; rewrite H0; reflexivity).
  destruct (C73_accumulated_flux w cf m z g L E [x0] [warm] U S u u0 q j i k a I0 C WF F0 HU HS R0 Hk A E0) as (V & SV & EV & _ & AV).
  destruct (C73_run Euler w cf m z g L E [x0] [warm] U S u u0 C WF F0 HU HS R0) as (V' & SV' & EV' & _ & HSV). rewrite EV in EV'. injection EV' as <- <-.
  destruct (C73_accumulated_flux w cf m z g L E xs steps U SV u u' q j i k (a + I0) I C WF F HU HSV H Hk AV EI) as (U2 & S2 & E2 & H2 & A2).
  rewrite (holds_unique L U2 U1 u' H2 H1) in E2. exists U1, S1, S2. unfold advance_solve. rewrite obind_Some. split; [exact E1|]. split; [exact A1|]. split; [|exact A2].
  unfold CalibrateSolverTimers. unfold petsc_run in EV. cbn [ofold] in EV. destruct (state_step _ _ _ _) as [[a' b]|]; [|discriminate].
  cbn in EV. injection EV as -> ->. cbn [obind fst snd]. exact E2.
Qed.
Print Assumptions C89_accumulated_flux.

(* So "a warm-up changes no result" is false: after one step of the lake at rest the wall has received the pressure of the
   water for a tenth of a second; with a warm-up, for two tenths. *)
Theorem C89_boundary_flux_refuted : exists w cf warm steps U S U' S1 S2,
  advance_solve false Euler w cf warm steps (U, S) = Some (U', S1) /\ advance_solve true Euler w cf warm steps (U, S) = Some (U', S2) /\
  accumulated S1 0 0 0 1 = Some (- (1/10) * (1/2 * GRAVITY * (2 * 2))) /\ accumulated S2 0 0 0 1 = Some (- (2/10) * (1/2 * GRAVITY * (2 * 2))).
Proof.
  destruct square_depths as (D0 & D1). assert (T := proj2 (proj2 (proj1 square_config))).
  assert (HS : hr_scheme (cf_tiny_h (one_config 0 false)) INR (petsc_scheme_of (Hydrostatic true) (one_config 0 false) INR square_geom)) by (cbn [petsc_scheme_of]; constructor; exact I).
  destruct (C11_lake_stays_at_rest_partial (cf_tiny_h (one_config 0 false)) 2 INR _ squares Euler [square_step] (lake_field INR 2) T HS squares_resolved) as (u' & E & _).
  { intros x [<-|[]]. exact squares_quiet. }
  { intros c _. reflexivity. }
  destruct (petsc_reflecting_edge (cf_tiny_h (one_config 0 false)) (cf_h_anuga (one_config 0 false)) (V3 2 0 0) 0 (-1) T) as (f & a & EE & F0 & _ & F2); [cbn; lra|unfold unit2; ring|].
  destruct F2 as (F1 & F2); [rewrite HRProofs.pvel_rest; unfold unorm; cbn; ring|].
  assert (EF : edge_flux (one_config 0 false) square_ps (lake_field INR 2) 0 0 0 = Some f).
  { change (petsc_boundary_recorded (cf_tiny_h (one_config 0 false)) (cf_h_anuga (one_config 0 false)) BCReflecting (lake_field INR 2 0) 0 (-1) = Some f). unfold lake_field. rewrite D0.
    eapply recorded_used; [exact EE|unfold petsc_boundary_states; rewrite petsc_velocities_some, obind_Some by exact T; reflexivity|].
    unfold prim_dry. rewrite pvel_h. cbn [c0]. replace (2 <? _) with false; [reflexivity|]. symmetry. apply Rltb_false. cbn. lra. }
  assert (X : petsc_run_distributed (Hydrostatic true) (one_config 0 false) squares INR square_geom [[0];[1]]%nat square_edges square_step (1/10, square_ps)).
  { assert (H := square_petsc_run). inversion H; subst. assumption. }
  assert (WF : well_formed squares) by (split; [cbn; repeat constructor; cbn; lia|intros e [<-|[]]; cbn; auto]).
  assert (E1 : advance_step Euler (petsc_scheme_of (Hydrostatic true) (one_config 0 false) INR square_geom) squares (lake_field INR 2) square_step = Some u').
  { unfold run in E. cbn [ofold] in E. apply obind_some in E. destruct E as (u1 & E & E'). injection E' as <-. exact E. }
  assert (FI : flux_integral (one_config 0 false) (petsc_scheme_of (Hydrostatic true) (one_config 0 false) INR square_geom) squares [square_step] [(1/10, square_ps)] (lake_field INR 2) 0 0 0 1 = Some (st_dt square_step * nth 1 (comps3 f) 0 + 0)).
  { cbn [flux_integral snd]. rewrite EF, obind_Some, E1, !obind_Some. reflexivity. }
  destruct (C89_accumulated_flux (Hydrostatic true) (one_config 0 false) squares INR square_geom _ _ square_step (1/10, square_ps) [square_step] [(1/10, square_ps)] _ square_states _ u' u' 0 0 0 1 0 _ _
              square_config WF X (Forall2_cons _ _ X (Forall2_nil _)) squares_hold square_states_sized E1 E ltac:(lia) eq_refl FI FI) as (U' & S1 & S2 & Q1 & A1 & Q2 & A2).
  exists (Hydrostatic true), (one_config 0 false), (1/10, square_ps), [(1/10, square_ps)], [[2;0;0]; [1;0;0]], square_states, U', S1, S2.
  split; [exact Q1|]. split; [exact Q2|]. rewrite A1, A2. split; apply f_equal; cbn [comps3 nth square_step st_dt]; rewrite F1; cbn [c0]; field.
Qed.
Print Assumptions C89_boundary_flux_refuted.
