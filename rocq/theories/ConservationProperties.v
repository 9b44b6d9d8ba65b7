(** C09: water volume is conserved. *)
From Verif Require Import Base RoeModel RoeProofs EdgeModel EdgeProofs HRModel SourceModel SourceProofs AssemblyModel AssemblyProofs MusclModel.

(** ** Specification *)
Definition volume (m : mesh) (u : nat -> vec3) : R := rsum (fun c => area m c * c0 (u c)) (cells m).
(* volume per unit time supplied by the external water sources *)
Definition rain (m : mesh) (src : nat -> vec3) : R := rsum (fun c => area m c * c0 (src c)) (cells m).
(* volume per unit time leaving through the domain boundary: edge length times mass flux, summed
   over the boundary edges (a finite run evaluates no edge to [None]) *)
Definition outflow (s : scheme) (bs : list bedge) (u : nat -> vec3) : R :=
  rsum (fun e => be_len e * match s_boundary s u e with Some (f, _) => c0 f | None => 0 end) bs.

(* The spatial discretisations of RDycore. *)
Inductive rdycore_scheme : scheme -> Prop :=
| Is_petsc : forall tiny ha fr g, rdycore_scheme (petsc_scheme tiny ha fr g)
| Is_ceed : forall tiny ha dhv dhvb fr g, rdycore_scheme (ceed_scheme tiny ha dhv dhvb fr g)
| Is_petsc_hr : forall tiny ha z fr g, rdycore_scheme (petsc_hr_scheme tiny ha z fr g)
| Is_ceed_hr : forall tiny ha z fr g, rdycore_scheme (ceed_hr_scheme tiny ha z fr g)
| Is_petsc_2r : forall lim G es tiny ha fr g, rdycore_scheme (petsc_2r_scheme lim G es tiny ha fr g)
| Is_ceed_2r : forall lim G es tiny ha dhv dhvb fr g, rdycore_scheme (ceed_2r_scheme lim G es tiny ha dhv dhvb fr g).

(* Cells are listed once and every edge joins cells of the mesh. *)
Definition well_formed (m : mesh) : Prop :=
  NoDup (cells m) /\ forall e, In e (iedges m) -> In (ie_l e) (cells m) /\ In (ie_r e) (cells m).
Definition boundary_in (m : mesh) (bs : list bedge) : Prop := forall e, In e bs -> In (be_c e) (cells m).

(* States at which the time integrator evaluates the right-hand side, with their weights. *)
Definition stages (i : integrator) (F : (nat -> vec3) -> option (nat -> vec3)) (dt : R) (u : nat -> vec3)
  : option (list (R * (nat -> vec3))) :=
  match i with
  | Euler => Some [(1, u)]
  | RK4 =>
    let* k1 := F u in
    let u2 := axpy u (dt / 2) k1 in
    let* k2 := F u2 in
    let u3 := axpy u (dt / 2) k2 in
    let* k3 := F u3 in
    Some [(1/6, u); (1/3, u2); (1/3, u3); (1/6, axpy u dt k3)]
  end.

(* Volume gained during one step: the integral of (rain - outflow) by the integrator's quadrature. *)
Definition step_gain (i : integrator) (s : scheme) (m : mesh) (u : nat -> vec3) (x : step_input) : R :=
  match stages i (rhs_domain s (with_boundary m (st_bedges x)) (st_dt x) (st_src x)) (st_dt x) u with
  | Some l => st_dt x * rsum (fun w => fst w * (rain m (st_src x) - outflow s (st_bedges x) (snd w))) l
  | None => 0
  end.
Fixpoint run_gain (i : integrator) (s : scheme) (m : mesh) (xs : list step_input) (u : nat -> vec3) : R :=
  match xs with
  | [] => 0
  | x :: t => step_gain i s m u x
              + match advance_step i s m u x with Some u' => run_gain i s m t u' | None => 0 end
  end.

Lemma petsc_2r_conservative lim G es tiny ha fr g : conservative (petsc_2r_scheme lim G es tiny ha fr g).
Proof.
  split; cbn [s_interior s_source petsc_2r_scheme petsc_scheme].
  - intros u e fl f2 a H. apply both_same in H. congruence.
  - intros. eapply petsc_rhs_mass; eassumption.
Qed.
Lemma ceed_2r_conservative lim G es tiny ha dhv dhvb fr g : conservative (ceed_2r_scheme lim G es tiny ha dhv dhvb fr g).
Proof.
  split; cbn [s_interior s_source ceed_2r_scheme ceed_scheme].
  - intros u e fl f2 a H. apply both_same in H. congruence.
  - intros. eapply ceed_rhs_mass; eassumption.
Qed.
Lemma rdycore_conservative s : rdycore_scheme s -> conservative s.
Proof.
  destruct 1; [apply petsc_conservative|apply ceed_conservative|apply petsc_hr_conservative|apply ceed_hr_conservative|apply petsc_2r_conservative|apply ceed_2r_conservative].
Qed.

Lemma step_balance i s m u x u' :
  conservative s -> well_formed m -> boundary_in m (st_bedges x) ->
  advance_step i s m u x = Some u' -> volume m u' = volume m u + step_gain i s m u x.
Proof.
  intros Hc (Hnd & Hi) Hb E.
  set (m' := with_boundary m (st_bedges x)).
  assert (Hw : mesh_wf m') by (repeat split; auto; apply Hi; assumption).
  assert (HB : forall v k, rhs_domain s m' (st_dt x) (st_src x) v = Some k ->
             rsum (fun c => area m c * c0 (k c)) (cells m) = rain m (st_src x) - outflow s (st_bedges x) v).
  { intros v k Ek. exact (rhs_total s m' (st_dt x) (st_src x) v k Hc Hw Ek). }
  unfold advance_step in E. fold m' in E. unfold step_gain. fold m'.
  destruct i; cbn [ts_step stages] in *.
  - unfold euler_step in E. apply obind_some in E. destruct E as (k & Ek & E). injection E as <-.
    unfold volume. rewrite total_axpy, (HB u k Ek). cbn [rsum fst snd]. ring.
  - unfold rk4_step in E.
    apply obind_some in E. destruct E as (k1 & E1 & E). apply obind_some in E. destruct E as (k2 & E2 & E).
    apply obind_some in E. destruct E as (k3 & E3 & E). apply obind_some in E. destruct E as (k4 & E4 & E). injection E as <-.
    rewrite E1. cbn [obind]. rewrite E2. cbn [obind]. rewrite E3. cbn [obind].
    unfold volume. rewrite !total_axpy, (HB _ _ E1), (HB _ _ E2), (HB _ _ E3), (HB _ _ E4). cbn [rsum fst snd]. field.
Qed.

(** ** C09 *)
(* Any discretisation, integrator, mesh, state, and any sequence of steps with any step sizes,
   boundary conditions and sources. *)
Theorem C09_volume_balance :
  forall i s m xs u u',
    rdycore_scheme s -> well_formed m -> (forall x, In x xs -> boundary_in m (st_bedges x)) ->
    run i s m xs u = Some u' ->
    volume m u' = volume m u + run_gain i s m xs u.
Proof.
  intros i s m xs u u' Hs Hm Hb. revert u. unfold run. induction xs as [|x t IH]; intros u E; cbn [ofold run_gain] in *.
  - injection E as <-. ring.
  - apply obind_some in E. destruct E as (u1 & E1 & E2). rewrite E1.
    rewrite (IH (fun y H => Hb y (or_intror H)) u1 E2).
    rewrite (step_balance i s m u x u1 (rdycore_conservative s Hs) Hm (Hb x (or_introl eq_refl)) E1). ring.
Qed.
Print Assumptions C09_volume_balance.

(* Closed basin: reflecting walls (with unit normals) everywhere and no rain. *)
Definition wall (e : bedge) : Prop := be_bc e = BCReflecting /\ be_cn e * be_cn e + be_sn e * be_sn e = 1.
Definition closed (m : mesh) (x : step_input) : Prop :=
  (forall e, In e (st_bedges x) -> In (be_c e) (cells m) /\ wall e) /\ (forall c, In c (cells m) -> c0 (st_src x c) = 0).
(* the six discretisations with a positive dry threshold *)
Inductive rdycore_scheme_pos : scheme -> Prop :=
| Pos_petsc : forall tiny ha fr g, 0 < tiny -> rdycore_scheme_pos (petsc_scheme tiny ha fr g)
| Pos_ceed : forall tiny ha dhv dhvb fr g, 0 < tiny -> rdycore_scheme_pos (ceed_scheme tiny ha dhv dhvb fr g)
| Pos_petsc_hr : forall tiny ha z fr g, 0 < tiny -> rdycore_scheme_pos (petsc_hr_scheme tiny ha z fr g)
| Pos_ceed_hr : forall tiny ha z fr g, 0 < tiny -> rdycore_scheme_pos (ceed_hr_scheme tiny ha z fr g)
| Pos_petsc_2r : forall lim G es tiny ha fr g, 0 < tiny -> rdycore_scheme_pos (petsc_2r_scheme lim G es tiny ha fr g)
| Pos_ceed_2r : forall lim G es tiny ha dhv dhvb fr g, 0 < tiny -> rdycore_scheme_pos (ceed_2r_scheme lim G es tiny ha dhv dhvb fr g).

Lemma petsc_wall_mass tiny ha q sn cn f a :
  0 < tiny -> cn * cn + sn * sn = 1 -> petsc_boundary_edge tiny ha BCReflecting q sn cn = Some (f, a) -> c0 f = 0.
Proof.
  intros Ht Hu E. destruct (Rlt_dec (c0 q) tiny) as [H|H].
  - rewrite petsc_reflecting_dry in E by assumption. injection E as <- _. reflexivity.
  - destruct (petsc_reflecting_edge tiny ha q sn cn Ht ltac:(lra) Hu) as (f' & a' & E' & F0 & _).
    rewrite E' in E. injection E as <- _. exact F0.
Qed.
Lemma ceed_wall_mass tiny ha q sn cn dhv f a :
  0 < tiny -> cn * cn + sn * sn = 1 -> ceed_boundary_edge GRAVITY tiny ha BCReflecting q sn cn dhv = Some (f, a) -> c0 f = 0.
Proof.
  intros Ht Hu E. destruct (Rlt_dec tiny (c0 q)) as [H|H].
  - destruct (ceed_reflecting_no_mass GRAVITY tiny ha q sn cn dhv GRAVITY_pos ltac:(lra) ltac:(lra) Hu) as (f' & a' & E' & F0 & _).
    rewrite E' in E. injection E as <- _. exact F0.
  - unfold ceed_boundary_edge in E. assert (G : Rltb tiny (c0 q) = false) by (apply Rltb_false; lra). rewrite G in E.
    injection E as <- _. reflexivity.
Qed.
Lemma scheme_wall_mass s u e : rdycore_scheme_pos s -> wall e ->
  match s_boundary s u e with Some (f, _) => c0 f | None => 0 end = 0.
Proof.
  intros Hs (Hb & Hu). destruct Hs; cbn [s_boundary petsc_scheme ceed_scheme petsc_hr_scheme ceed_hr_scheme petsc_2r_scheme ceed_2r_scheme]; rewrite Hb.
  - destruct (petsc_boundary_edge _ _ _ _ _ _) as [[f a]|] eqn:E; [|reflexivity]. eapply petsc_wall_mass; eassumption.
  - destruct (ceed_boundary_edge _ _ _ _ _ _ _ _) as [[f a]|] eqn:E; [|reflexivity]. eapply ceed_wall_mass; eassumption.
  - destruct (petsc_boundary_edge _ _ _ _ _ _) as [[f a]|] eqn:E; [|reflexivity]. eapply petsc_wall_mass; eassumption.
  - destruct (ceed_boundary_edge _ _ _ _ _ _ _ _) as [[f a]|] eqn:E; [|reflexivity]. eapply ceed_wall_mass; eassumption.
  - destruct (petsc_boundary_edge _ _ _ _ _ _) as [[f a]|] eqn:E; [|reflexivity]. eapply petsc_wall_mass; eassumption.
  - destruct (ceed_boundary_edge _ _ _ _ _ _ _ _) as [[f a]|] eqn:E; [|reflexivity]. eapply ceed_wall_mass; eassumption.
Qed.

Theorem C09_closed_basin_keeps_volume :
  forall i s m xs u u',
    rdycore_scheme_pos s -> well_formed m -> (forall x, In x xs -> closed m x) ->
    run i s m xs u = Some u' -> volume m u' = volume m u.
Proof.
  intros i s m xs u u' Hs Hm Hx E.
  assert (Hs' : rdycore_scheme s) by (destruct Hs; constructor).
  rewrite (C09_volume_balance i s m xs u u' Hs' Hm (fun x H e He => proj1 (proj1 (Hx x H) e He)) E).
  enough (G : forall xs, (forall x, In x xs -> closed m x) -> forall u, run_gain i s m xs u = 0) by (rewrite G by exact Hx; ring).
  clear xs u u' Hx E. induction xs as [|x t IH]; intros Hx u; cbn [run_gain]; [reflexivity|].
  assert (Z : step_gain i s m u x = 0).
  { unfold step_gain. destruct (stages _ _ _ _) as [l|]; [|reflexivity].
    rewrite rsum_zero; [ring|]. intros w _. destruct (Hx x (or_introl eq_refl)) as (Hb & Hr).
    assert (R0 : rain m (st_src x) = 0) by (apply rsum_zero; intros c Hc; rewrite Hr by exact Hc; ring).
    assert (O0 : outflow s (st_bedges x) (snd w) = 0).
    { apply rsum_zero. intros e He. rewrite (scheme_wall_mass s (snd w) e Hs (proj2 (Hb e He))). ring. }
    rewrite R0, O0. ring. }
  rewrite Z. destruct (advance_step i s m u x) as [u1|]; [rewrite IH by (intros; apply Hx; right; assumption)|]; ring.
Qed.
Print Assumptions C09_closed_basin_keeps_volume.

(* Non-vacuity: two unit squares side by side, walls all round, wet on the left and dry on the right;
   a step of the PETSc scheme completes. *)
Definition ex_mesh : mesh := Mesh [0%nat; 1%nat] (fun _ => 1) [IEdge 0 1 1 0 1] [].
Definition ex_walls : list bedge :=
  [BEdge 0 1 0 (-1) BCReflecting; BEdge 0 1 1 0 BCReflecting; BEdge 0 1 (-1) 0 BCReflecting;
   BEdge 1 1 0 1 BCReflecting; BEdge 1 1 1 0 BCReflecting; BEdge 1 1 (-1) 0 BCReflecting].
Definition ex_input : step_input := StepInput (1/100) ex_walls (fun _ => vzero).

Example C09_example_mesh : well_formed ex_mesh /\ closed ex_mesh ex_input.
Proof.
  split.
  - split; [repeat constructor; simpl; intuition discriminate|]. intros e [<-|[]]; simpl; auto.
  - split; [|intros; reflexivity]. intros e He. unfold wall.
    cbn in He. repeat (destruct He as [<-|He]; [cbn; split; [tauto|split; [reflexivity|ring]]|]). destruct He.
Qed.

(* A run exists: first-order finite volumes never fail on non-negative depths. *)
Lemma petsc_rhs_exists tiny ha g m dt src u :
  0 < tiny -> 0 <= dt -> mesh_wf m -> (forall c, In c (cells m) -> 0 < area m c) ->
  (forall c, In c (cells m) -> 0 <= c0 (u c)) -> (forall e, In e (bedges m) -> bc_ok (be_bc e)) ->
  exists f, rhs_domain (petsc_scheme tiny ha SemiImplicit g) m dt src u = Some f.
Proof.
  intros Ht Hd (Hnd & Hi & Hb) Ha Hu Hbc. unfold rhs_domain, flux_divergence.
  set (s := petsc_scheme tiny ha SemiImplicit g).
  assert (HK : forall e, In e (iedges m) -> exists x, s_interior s u e = Some x).
  { intros e He. cbn [s s_interior petsc_scheme]. destruct (Hi e He) as (H1 & H2).
    rewrite petsc_interior_edge_some by auto. destruct (_ && _)%bool; cbn; eauto. }
  assert (HKB : forall e, In e (bedges m) -> exists x, s_boundary s u e = Some x).
  { intros e He. cbn [s s_boundary petsc_scheme].
    destruct (petsc_boundary_edge_some tiny ha (be_bc e) (u (be_c e)) (be_sn e) (be_cn e) Ht (Hu _ (Hb e He)) (Hbc e He)) as (f & a & E).
    eauto. }
  set (k := fun e => match s_interior s u e with Some x => x | None => (vzero, vzero, 0) end).
  destruct (interior_loop_val vadd vscal c0 (fun _ _ => eq_refl) (fun _ _ => eq_refl) everything (area m) (s_interior s u) k (iedges m)) with (f := zero_field) as (f1 & E1 & _).
  { intros e He. unfold k. destruct (HK e He) as (x & ->). reflexivity. }
  { intros e He. destruct (Hi e He) as (H1 & H2). assert (A1 := Ha _ H1). assert (A2 := Ha _ H2). split; lra. }
  rewrite E1. cbn [obind].
  set (kb := fun e => match s_boundary s u e with Some x => x | None => (vzero, 0) end).
  destruct (boundary_loop_val vadd vscal c0 (fun _ _ => eq_refl) (fun _ _ => eq_refl) everything (area m) (s_boundary s u) kb (bedges m)) with (f := f1) as (f2 & E2 & _).
  { intros e He _. unfold kb. destruct (HKB e He) as (x & ->). reflexivity. }
  { intros e He _. assert (A1 := Ha _ (Hb e He)). lra. }
  rewrite E2. cbn [obind].
  apply source_loop_some; [exact Hnd|]. intros c Hc. cbn [s s_source petsc_scheme].
  destruct (Rle_or_lt tiny (c0 (u c))) as [Hw|Hdry].
  - destruct (petsc_semi_implicit_step true dt tiny (manning g c) (dzdx g c) (dzdy g c) (u c) (f2 c) (src c) Hd Ht Hw) as (s0 & r & _ & _ & E & _).
    eauto.
  - unfold petsc_rhs. rewrite petsc_source_dry by exact Hdry. cbn; eauto.
Qed.

Example C09_example_run :
  exists u', run Euler (petsc_scheme (1/1000) 0 SemiImplicit (CellGeom (fun _ => 1/50) (fun _ => 0) (fun _ => 0)))
                 ex_mesh [ex_input] (fun c => if Nat.eqb c 0 then V3 1 0 0 else vzero) = Some u'.
Proof.
  unfold run; cbn [ofold]. unfold advance_step; cbn [ts_step]. unfold euler_step.
  destruct (petsc_rhs_exists (1/1000) 0 (CellGeom (fun _ => 1/50) (fun _ => 0) (fun _ => 0)) (with_boundary ex_mesh ex_walls) (1/100) (fun _ => vzero)
    (fun c => if Nat.eqb c 0 then V3 1 0 0 else vzero)) as (f & E).
  - lra. - lra.
  - destruct C09_example_mesh as ((H1 & H2) & (H3 & _)). repeat split; auto; try (apply H2; assumption). intros e He. apply H3; exact He.
  - intros; cbn; lra.
  - intros c _. destruct (Nat.eqb c 0); cbn; lra.
  - intros e He. cbn in He. repeat (destruct He as [<-|He]; [exact I|]). destruct He.
  - change (st_bedges ex_input) with ex_walls. change (st_dt ex_input) with (1/100). change (st_src ex_input) with (fun _ : nat => vzero).
    rewrite E. cbn. eauto.
Qed.
