(** C53: depths under a Courant-limited time step. *)
From Verif Require Import Base RoeModel RoeProofs EdgeModel EdgeProofs HRModel SourceModel SourceProofs AssemblyModel AssemblyProofs ConservationProperties.

(** ** Specification *)
(* the Courant number RDycore reports for an interior edge: wave speed * length / smaller area * dt
   (swe_petsc.c:284-286) *)
Definition edge_courant (s : scheme) (m : mesh) (dt : R) (u : nat -> vec3) (e : iedge) : option R :=
  let* k := s_interior s u e in
  let '(_, _, a) := k in Some (a * ie_len e / Rmin (area m (ie_l e)) (area m (ie_r e)) * dt).
Definition courant_at_most (C : R) (s : scheme) (m : mesh) (dt : R) (u : nat -> vec3) : Prop :=
  forall e, In e (iedges m) -> exists x, edge_courant s m dt u e = Some x /\ x <= C.
Definition depths_nonneg (m : mesh) (u : nat -> vec3) : Prop := forall c, In c (cells m) -> 0 <= c0 (u c).

(** ** Value of the mass component of the right-hand side *)
Lemma rhs_mass_value s m dt src u f :
  conservative s -> NoDup (cells m) -> rhs_domain s m dt src u = Some f ->
  (forall e, In e (iedges m) -> area m (ie_l e) <> 0 /\ area m (ie_r e) <> 0) ->
  (forall e, In e (bedges m) -> area m (be_c e) <> 0) ->
  (forall e, In e (iedges m) -> exists x, s_interior s u e = Some x) ->
  (forall e, In e (bedges m) -> exists x, s_boundary s u e = Some x) ->
  forall c, In c (cells m) ->
  c0 (f c) = rsum (fun e => let x := match s_interior s u e with Some x => x | None => (vzero, vzero, 0) end in
                            ecoef everything (area m) e (c0 (fst (fst x))) (c0 (snd (fst x))) c) (iedges m)
             + rsum (fun e => let x := match s_boundary s u e with Some x => x | None => (vzero, 0) end in
                              if Nat.eqb c (be_c e) then - be_len e / area m c * c0 (fst x) else 0) (bedges m)
             + c0 (src c).
Proof.
  intros (_ & Hsrc) Hnd E Ai Ab Ki Kb c Hc. unfold rhs_domain, flux_divergence in E.
  set (k := fun e => match s_interior s u e with Some x => x | None => (vzero, vzero, 0) end).
  set (kb := fun e => match s_boundary s u e with Some x => x | None => (vzero, 0) end).
  destruct (interior_loop_val vadd vscal c0 (fun _ _ => eq_refl) (fun _ _ => eq_refl) everything (area m) (s_interior s u) k (iedges m)) with (f := zero_field) as (f1 & E1 & V1).
  { intros e He. unfold k. destruct (Ki e He) as (x & ->). reflexivity. }
  { exact Ai. }
  rewrite E1 in E. cbn [obind] in E.
  destruct (boundary_loop_val vadd vscal c0 (fun _ _ => eq_refl) (fun _ _ => eq_refl) everything (area m) (s_boundary s u) kb (bedges m)) with (f := f1) as (f2 & E2 & V2).
  { intros e He _. unfold kb. destruct (Kb e He) as (x & ->). reflexivity. }
  { intros e He _. apply Ab; exact He. }
  rewrite E2 in E. cbn [obind] in E.
  assert (V := source_loop_val _ _ Hnd _ _ E c Hc). apply Hsrc in V. rewrite V, V2, V1.
  unfold zero_field at 1, vzero; cbn [c0]. unfold k, kb. rewrite Rplus_0_l. reflexivity.
Qed.

(** ** A dam of one wet square among four dry squares *)
Definition plus_mesh : mesh :=
  Mesh [0; 1; 2; 3; 4]%nat (fun _ => 1) [IEdge 0 1 1 0 1; IEdge 0 2 1 0 (-1); IEdge 0 3 1 1 0; IEdge 0 4 1 (-1) 0] [].
Definition plus_walls : list bedge :=
  [BEdge 1 1 0 1 BCReflecting; BEdge 1 1 1 0 BCReflecting; BEdge 1 1 (-1) 0 BCReflecting;
   BEdge 2 1 0 (-1) BCReflecting; BEdge 2 1 1 0 BCReflecting; BEdge 2 1 (-1) 0 BCReflecting;
   BEdge 3 1 0 1 BCReflecting; BEdge 3 1 1 0 BCReflecting; BEdge 3 1 0 (-1) BCReflecting;
   BEdge 4 1 0 1 BCReflecting; BEdge 4 1 (-1) 0 BCReflecting; BEdge 4 1 0 (-1) BCReflecting].
Definition dam : nat -> vec3 := fun c => if Nat.eqb c 0 then V3 1 0 0 else vzero.
Definition flat : cellgeom := CellGeom (fun _ => 0) (fun _ => 0) (fun _ => 0).

Lemma dam_edge sn cn :
  cn * cn + sn * sn = 1 ->
  exists f, petsc_interior_edge (1/1000) 0 (V3 1 0 0) vzero sn cn = Some (f, sqrt GRAVITY / sqrt 2) /\
            c0 f = 1/4 * (9/8 * sqrt GRAVITY + sqrt GRAVITY / sqrt 2).
Proof.
  intros Hu. assert (Hg := GRAVITY_pos).
  assert (R := petsc_interior_rotate (1/1000) 0 (V3 1 0 0) vzero 0 1 cn sn ltac:(lra) ltac:(cbn; lra) ltac:(cbn; lra) ltac:(unfold unit2; lra)).
  replace (sn * 1 + cn * 0) with sn in R by ring. replace (cn * 1 - sn * 0) with cn in R by ring.
  replace (rot_vec cn sn (V3 1 0 0)) with (V3 1 0 0) in R by (unfold rot_vec; apply vec3_ext; cbn [c0 c1 c2]; ring).
  rewrite rot_vzero in R. rewrite R.
  rewrite petsc_interior_edge_some by (cbn; lra). cbn [c0 vzero].
  assert (E1 : Rltb 0 (1/1000) = true) by (apply Rltb_true; lra). assert (E2 : Rltb 1 (1/1000) = false) by (apply Rltb_false; lra).
  rewrite E1, E2. cbn [andb orot option_map fst snd].
  assert (P1 : pvel (1/1000) 0 (V3 1 0 0) = Prim 1 0 0) by (unfold pvel; cbn [c0 c1 c2]; rewrite E2; apply prim_ext; cbn [ph pu pv]; field).
  assert (P2 : pvel (1/1000) 0 vzero = Prim 0 0 0) by (unfold pvel, vzero; cbn [c0 c1 c2]; rewrite E1; reflexivity).
  rewrite P1, P2. destruct (wetdry GRAVITY 1 Hg Rlt_0_1) as (_ & Ea & Ef). rewrite Rmult_1_r in Ea, Ef.
  rewrite Ea. eexists; split; [reflexivity|]. unfold rot_vec; cbn [c0]. rewrite Ef, Rmult_1_r. reflexivity.
Qed.

Lemma dam_wall e : In e plus_walls -> s_boundary (petsc_scheme (1/1000) 0 SemiImplicit flat) dam e = Some (vzero, 0).
Proof.
  intros He. cbn [s_boundary petsc_scheme]. cbn in He.
  repeat (destruct He as [<-|He]; [cbn [be_bc be_c be_sn be_cn]; apply petsc_reflecting_dry; [lra|cbn; lra]|]). destruct He.
Qed.

Theorem C53_depth_stays_nonnegative_refuted :
  exists s m x u u1,
    rdycore_scheme_pos s /\ well_formed m /\ closed m x /\ depths_nonneg m u /\
    courant_at_most (1/2) s m (st_dt x) u /\
    (* the step is accepted, its result is not a water depth, and the next step is NaN *)
    advance_step Euler s m u x = Some u1 /\ (exists c, In c (cells m) /\ c0 (u1 c) < 0) /\
    advance_step Euler s m u1 x = None.
Proof.
  assert (Hg := GRAVITY_pos). set (c := sqrt GRAVITY). assert (Hc : 0 < c) by (apply sqrt_lt_R0; exact Hg).
  assert (H2 : 0 < sqrt 2) by (apply sqrt_lt_R0; lra). assert (H22 : sqrt 2 * sqrt 2 = 2) by (apply sqrt_sqrt; lra).
  set (dt := 1/2 * (sqrt 2 / c)).
  assert (Hdt : 0 < dt) by (unfold dt; apply Rmult_lt_0_compat; [lra|apply Rmult_lt_0_compat; [lra|apply Rinv_0_lt_compat; exact Hc]]).
  set (s := petsc_scheme (1/1000) 0 SemiImplicit flat). set (x := StepInput dt plus_walls (fun _ => vzero)).
  assert (KI : forall e, In e (iedges plus_mesh) -> exists f, s_interior s dam e = Some (f, f, c / sqrt 2) /\ c0 f = 1/4 * (9/8 * c + c / sqrt 2)).
  { intros e He. unfold s; cbn [s_interior petsc_scheme]. cbn in He.
    repeat (destruct He as [<-|He]; [cbn [ie_l ie_r ie_sn ie_cn dam Nat.eqb];
      match goal with |- context [petsc_interior_edge _ _ _ _ ?sn ?cn] =>
        destruct (dam_edge sn cn ltac:(ring)) as (f & -> & Ef); exists f; split; [reflexivity|exact Ef] end|]). destruct He. }
  assert (Hwf : well_formed plus_mesh).
  { split; [repeat constructor; cbn; intuition discriminate|]. intros e He; cbn in He.
    repeat (destruct He as [<-|He]; [cbn; tauto|]). destruct He. }
  assert (Hcl : closed plus_mesh x).
  { split; [|intros; reflexivity]. intros e He. unfold wall. cbn in He.
    repeat (destruct He as [<-|He]; [cbn; split; [tauto|split; [reflexivity|ring]]|]). destruct He. }
  assert (Hmw : mesh_wf (with_boundary plus_mesh plus_walls)).
  { destruct Hwf as (A & B). destruct Hcl as (C & _). repeat split; auto; try (apply B; assumption). intros e He. apply C; exact He. }
  assert (Hnn : depths_nonneg plus_mesh dam).
  { intros k _. unfold dam. destruct (Nat.eqb k 0); cbn; lra. }
  destruct (petsc_rhs_exists (1/1000) 0 flat (with_boundary plus_mesh plus_walls) dt (fun _ => vzero) dam) as (f & Ef).
  { lra. } { lra. } { exact Hmw. } { intros; cbn; lra. } { exact Hnn. }
  { intros e He. cbn in He. repeat (destruct He as [<-|He]; [exact I|]). destruct He. }
  fold s in Ef.
  assert (VF : forall k, In k (cells plus_mesh) -> c0 (f k) =
     rsum (fun e => ecoef everything (fun _ => 1) e (1/4 * (9/8 * c + c / sqrt 2)) (1/4 * (9/8 * c + c / sqrt 2)) k) (iedges plus_mesh)).
  { intros k Hk.
    rewrite (rhs_mass_value s (with_boundary plus_mesh plus_walls) dt (fun _ => vzero) dam f); try assumption.
    - cbn [with_boundary iedges bedges area]. rewrite (rsum_zero _ plus_walls).
      + unfold vzero; cbn [c0]. rewrite !Rplus_0_r. apply rsum_ext. intros e He. destruct (KI e He) as (g & -> & Eg). cbn [fst snd]. rewrite Eg. reflexivity.
      + intros e He. fold s. unfold s. rewrite (dam_wall e He). cbn. destruct (Nat.eqb k (be_c e)); field.
    - apply petsc_conservative.
    - apply Hwf.
    - intros; cbn; lra.
    - intros; cbn; lra.
    - intros e He. destruct (KI e He) as (g & -> & _). eauto.
    - intros e He. unfold s. rewrite (dam_wall e He). eauto. }
  set (F := 1/4 * (9/8 * c + c / sqrt 2)) in *.
  assert (HF : 0 < F).
  { unfold F. assert (0 < c / sqrt 2) by (apply Rmult_lt_0_compat; [exact Hc|apply Rinv_0_lt_compat; exact H2]). lra. }
  assert (EF : dt * F = 1/8 * (9/8 * sqrt 2 + 1)).
  { unfold dt, F. field. split; lra. }
  assert (S2 : 7/5 < sqrt 2) by nra.
  set (u1 := axpy dam dt f).
  assert (U0 : c0 (u1 0%nat) < 0).
  { unfold u1, axpy. cbn [vadd vscal c0]. rewrite (VF 0%nat) by (cbn; auto).
    cbn [plus_mesh iedges rsum]. unfold ecoef, everything; cbn [ie_l ie_r ie_len Nat.eqb dam c0].
    match goal with |- ?a < 0 => replace a with (1 - 4 * (dt * F)) by field end. rewrite EF. lra. }
  assert (U1 : c0 (u1 1%nat) = dt * F).
  { unfold u1, axpy. cbn [vadd vscal c0]. rewrite (VF 1%nat) by (cbn; auto).
    cbn [plus_mesh iedges rsum]. unfold ecoef, everything; cbn [ie_l ie_r ie_len Nat.eqb dam vzero c0]. field. }
  exists s, plus_mesh, x, dam, u1.
  split; [apply Pos_petsc; lra|]. split; [exact Hwf|]. split; [exact Hcl|]. split; [exact Hnn|].
  split.
  { intros e He. unfold edge_courant. destruct (KI e He) as (g & -> & _). cbn [obind]. eexists; split; [reflexivity|].
    cbn in He. assert (El : ie_len e = 1) by (repeat (destruct He as [<-|He]; [reflexivity|]); destruct He). rewrite El.
    cbn [plus_mesh area]. rewrite Rmin_left by lra. cbn [x st_dt]. unfold dt. right. field. split; lra. }
  split.
  { unfold advance_step; cbn [ts_step]. unfold euler_step. unfold x; cbn [st_dt st_bedges st_src]. rewrite Ef. reflexivity. }
  split; [exists 0%nat; split; [cbn; auto|exact U0]|].
  unfold advance_step; cbn [ts_step]. unfold euler_step, rhs_domain, flux_divergence.
  cbn [with_boundary iedges plus_mesh]. unfold interior_loop; cbn [ofold]. unfold edge_update at 1.
  unfold s at 1; cbn [s_interior petsc_scheme ie_l ie_r ie_sn ie_cn].
  unfold petsc_interior_edge. rewrite !petsc_velocities_some by lra. cbn [obind].
  unfold prim_dry. rewrite !pvel_h.
  assert (G : Rltb (c0 (u1 1%nat)) (1/1000) = false) by (apply Rltb_false; rewrite U1, EF; lra). rewrite G. cbn [andb].
  rewrite petsc_roe_flux_negative by (rewrite pvel_h; exact U0). reflexivity.
Qed.
Print Assumptions C53_depth_stays_nonnegative_refuted.
