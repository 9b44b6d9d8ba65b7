(** C11, C12 and the hydrostatic-reconstruction part of C08. *)
From Verif Require Import Base RoeModel RoeProofs EdgeModel EdgeProofs HRModel HRProofs SourceModel SourceProofs AssemblyModel AssemblyProofs.

(** ** Specification *)
(* still water: level [eta] above bed [z] *)
Definition depth_at (z : nat -> R) (eta : R) (c : nat) : R := Rmax 0 (eta - z c).
Definition still (m : mesh) (z : nat -> R) (eta : R) (u : nat -> vec3) : Prop :=
  forall c, In c (cells m) -> u c = V3 (depth_at z eta c) 0 0.

(* the discretisations with hydrostatic reconstruction (a positive XQ2018 threshold, as in the default) *)
Definition friction_ok (fr : friction) : Prop := match fr with XQ2018 t => 0 < t | _ => True end.
Inductive hr_scheme (tiny_h : R) (z : nat -> R) : scheme -> Prop :=
| Hr_petsc : forall ha fr g, friction_ok fr -> hr_scheme tiny_h z (petsc_hr_scheme tiny_h ha z fr g)
| Hr_ceed : forall ha fr g, friction_ok fr -> hr_scheme tiny_h z (ceed_hr_scheme tiny_h ha z fr g).

Definition unit_n (sn cn : R) : Prop := cn * cn + sn * sn = 1.
(* a mesh of closed polygons, with walls all round: edge normals point from left to right (outwards on
   the boundary), and the outward normals of each cell, weighted by edge length, add up to zero *)
Record basin (m : mesh) (walls : list bedge) : Prop := Basin {
  bas_nodup : NoDup (cells m);
  bas_edges : forall e, In e (iedges m) -> In (ie_l e) (cells m) /\ In (ie_r e) (cells m);
  bas_walls : forall e, In e walls -> In (be_c e) (cells m) /\ be_bc e = BCReflecting /\ unit_n (be_sn e) (be_cn e);
  bas_area : forall c, In c (cells m) -> 0 < area m c;
  bas_closed_x : forall c, In c (cells m) ->
    rsum (fun e => (if Nat.eqb c (ie_l e) then ie_len e * ie_cn e else 0) - (if Nat.eqb c (ie_r e) then ie_len e * ie_cn e else 0)) (iedges m)
    + rsum (fun e => if Nat.eqb c (be_c e) then be_len e * be_cn e else 0) walls = 0;
  bas_closed_y : forall c, In c (cells m) ->
    rsum (fun e => (if Nat.eqb c (ie_l e) then ie_len e * ie_sn e else 0) - (if Nat.eqb c (ie_r e) then ie_len e * ie_sn e else 0)) (iedges m)
    + rsum (fun e => if Nat.eqb c (be_c e) then be_len e * be_sn e else 0) walls = 0
}.
(* no rain, positive step, walls *)
Definition quiet_step (m : mesh) (x : step_input) : Prop :=
  0 < st_dt x /\ basin m (st_bedges x) /\ forall c, In c (cells m) -> st_src x c = vzero.

(* every depth, and every depth above the higher bed of an edge, is zero or exceeds the dry threshold *)
Definition resolved (tiny_h : R) (m : mesh) (z : nat -> R) (eta : R) : Prop :=
  (forall c, In c (cells m) -> depth_at z eta c = 0 \/ tiny_h < depth_at z eta c) /\
  (forall e, In e (iedges m) -> let r := eta - Rmax (z (ie_l e)) (z (ie_r e)) in r <= 0 \/ tiny_h < r).

(** ** Proofs *)
Lemma friction_ok_xq fr : friction_ok fr -> forall t, fr = XQ2018 t -> 0 < t.
Proof. intros H t ->. exact H. Qed.

Section Still.
  Variables (tiny eta : R) (z : nat -> R) (s : scheme) (m : mesh) (walls : list bedge) (u : nat -> vec3).
  Hypothesis Ht : 0 < tiny.
  Hypothesis Hs : hr_scheme tiny z s.
  Hypothesis Hb : basin m walls.
  Hypothesis Hu : still m z eta u.
  Let m' := with_boundary m walls.

  Lemma depth_nonneg c : 0 <= depth_at z eta c. Proof. apply Rmax_l. Qed.

  Lemma still_interior : forall e, In e (iedges m) -> exists PL PR a,
    s_interior s u e = Some (npush PL (ie_sn e) (ie_cn e), npush PR (ie_sn e) (ie_cn e), a) /\
    rest_pressure tiny GRAVITY (depth_at z eta (ie_l e)) (Rmax 0 (eta - Rmax (z (ie_l e)) (z (ie_r e)))) PL /\
    rest_pressure tiny GRAVITY (depth_at z eta (ie_r e)) (Rmax 0 (eta - Rmax (z (ie_l e)) (z (ie_r e)))) PR.
  Proof.
    intros e He. destruct (bas_edges m walls Hb e He) as (Hl & Hr).
    destruct Hs; cbn [s_interior petsc_hr_scheme ceed_hr_scheme]; rewrite (Hu _ Hl), (Hu _ Hr); unfold depth_at.
    - apply petsc_hr_rest; exact Ht.
    - apply ceed_hr_rest; exact Ht.
  Qed.
  Lemma still_wall : forall e, In e walls -> exists P a,
    s_boundary s u e = Some (npush P (be_sn e) (be_cn e), a) /\
    rest_pressure tiny GRAVITY (depth_at z eta (be_c e)) (depth_at z eta (be_c e)) P.
  Proof.
    intros e He. destruct (bas_walls m walls Hb e He) as (Hc & Hr & Hn).
    destruct Hs; cbn [s_boundary petsc_hr_scheme ceed_hr_scheme]; rewrite (Hu _ Hc), Hr.
    - apply petsc_wall_rest; auto. apply depth_nonneg.
    - apply ceed_wall_rest; auto. apply depth_nonneg.
  Qed.

  Definition pl (e : iedge) := match s_interior s u e with Some (fl, _, _) => c1 fl * ie_cn e + c2 fl * ie_sn e | None => 0 end.

  Lemma still_divergence : exists f PL PR PB,
    flux_divergence s m' u = Some f /\
    (forall e, In e (iedges m) ->
       rest_pressure tiny GRAVITY (depth_at z eta (ie_l e)) (Rmax 0 (eta - Rmax (z (ie_l e)) (z (ie_r e)))) (PL e) /\
       rest_pressure tiny GRAVITY (depth_at z eta (ie_r e)) (Rmax 0 (eta - Rmax (z (ie_l e)) (z (ie_r e)))) (PR e)) /\
    (forall e, In e walls -> rest_pressure tiny GRAVITY (depth_at z eta (be_c e)) (depth_at z eta (be_c e)) (PB e)) /\
    (forall c, In c (cells m) -> c0 (f c) = 0 /\ c1 (f c) = / area m c * push m' PL PR PB ie_cn be_cn c /\
                                 c2 (f c) = / area m c * push m' PL PR PB ie_sn be_sn c).
  Proof.
    (* choose pressures edge by edge: a finite choice over the edge lists *)
    assert (CI : forall l, (forall e, In e l -> In e (iedges m)) -> exists PL PR : iedge -> R, forall e, In e l ->
      (exists a, s_interior s u e = Some (npush (PL e) (ie_sn e) (ie_cn e), npush (PR e) (ie_sn e) (ie_cn e), a)) /\
      rest_pressure tiny GRAVITY (depth_at z eta (ie_l e)) (Rmax 0 (eta - Rmax (z (ie_l e)) (z (ie_r e)))) (PL e) /\
      rest_pressure tiny GRAVITY (depth_at z eta (ie_r e)) (Rmax 0 (eta - Rmax (z (ie_l e)) (z (ie_r e)))) (PR e)).
    { assert (iedec : forall a b : iedge, {a = b} + {a <> b}).
      { intros [a1 a2 a3 a4 a5] [b1 b2 b3 b4 b5].
        destruct (Nat.eq_dec a1 b1); [|right; congruence]. destruct (Nat.eq_dec a2 b2); [|right; congruence].
        destruct (Req_EM_T a3 b3); [|right; congruence]. destruct (Req_EM_T a4 b4); [|right; congruence].
        destruct (Req_EM_T a5 b5); [|right; congruence]. left; congruence. }
      induction l as [|e t IH]; intros Hl; [exists (fun _ => 0), (fun _ => 0); intros e []|].
      destruct IH as (PL & PR & H); [intros; apply Hl; right; assumption|].
      destruct (still_interior e (Hl e (or_introl eq_refl))) as (x & y & a & E & R1 & R2).
      exists (fun k => if iedec k e then x else PL k), (fun k => if iedec k e then y else PR k). intros k Hk.
      destruct (iedec k e) as [->|Hne]; [eauto|]. apply H. destruct Hk as [->|Hk]; [contradiction|exact Hk]. }
    assert (CB : forall l, (forall e, In e l -> In e walls) -> exists PB : bedge -> R, forall e, In e l ->
      (exists a, s_boundary s u e = Some (npush (PB e) (be_sn e) (be_cn e), a)) /\
      rest_pressure tiny GRAVITY (depth_at z eta (be_c e)) (depth_at z eta (be_c e)) (PB e)).
    { induction l as [|e t IH]; intros Hl; [exists (fun _ => 0); intros e []|].
      destruct IH as (PB & H); [intros; apply Hl; right; assumption|].
      destruct (still_wall e (Hl e (or_introl eq_refl))) as (x & a & E & R1).
      assert (D : forall k, In k (e :: t) -> k = e \/ In k t) by (intros k [->|K]; auto).
      exists (fun k => match s_boundary s u k with Some (f, _) => c1 f * be_cn k + c2 f * be_sn k | None => 0 end).
      assert (V : forall k P b, In k walls -> s_boundary s u k = Some (npush P (be_sn k) (be_cn k), b) ->
          match s_boundary s u k with Some (f, _) => c1 f * be_cn k + c2 f * be_sn k | None => 0 end = P).
      { intros k P b Hk Ek. rewrite Ek. unfold npush; cbn [c1 c2]. destruct (bas_walls m walls Hb k Hk) as (_ & _ & Hn). unfold unit_n in Hn.
        transitivity (P * (be_cn k * be_cn k + be_sn k * be_sn k)); [ring|rewrite Hn; ring]. }
      intros k Hk. assert (Hkw := Hl k Hk). destruct (D k Hk) as [->|Hkt].
      - rewrite (V e x a Hkw E). eauto.
      - destruct (H k Hkt) as ((b & Eb) & Rb). rewrite (V k (PB k) b Hkw Eb). eauto. }
    destruct (CI (iedges m) (fun _ H => H)) as (PL & PR & HI). destruct (CB walls (fun _ H => H)) as (PB & HB).
    destruct (push_divergence s m' u PL PR PB) as (f & Ef & Hf).
    - intros e He. apply (HI e He).
    - intros e He. apply (HB e He).
    - intros e He. destruct (bas_edges m walls Hb e He) as (H1 & H2). cbn [m' with_boundary area].
      assert (A := bas_area m walls Hb _ H1). assert (B := bas_area m walls Hb _ H2). split; lra.
    - intros e He. destruct (bas_walls m walls Hb e He) as (H1 & _). cbn [m' with_boundary area].
      assert (A := bas_area m walls Hb _ H1). lra.
    - exists f, PL, PR, PB. split; [exact Ef|]. split; [intros e He; apply (HI e He)|]. split; [intros e He; apply (HB e He)|].
      intros c Hc. apply Hf. assert (A := bas_area m walls Hb _ Hc). cbn [m' with_boundary area]. lra.
  Qed.

  Lemma outward_x c : In c (cells m) -> outward m' ie_cn be_cn c = 0.
  Proof. intros Hc. exact (bas_closed_x m walls Hb c Hc). Qed.
  Lemma outward_y c : In c (cells m) -> outward m' ie_sn be_sn c = 0.
  Proof. intros Hc. exact (bas_closed_y m walls Hb c Hc). Qed.

  Lemma resolved_divergence : resolved tiny m z eta ->
    exists f, flux_divergence s m' u = Some f /\ forall c, In c (cells m) -> f c = vzero.
  Proof.
    intros (Hd & He). destruct still_divergence as (f & PL & PR & PB & Ef & HI & HB & Hf).
    exists f. split; [exact Ef|]. intros c Hc. destruct (Hf c Hc) as (F0 & F1 & F2).
    assert (Hres : forall r P, rest_pressure tiny GRAVITY (depth_at z eta c) r P -> (r = 0 \/ tiny < r) ->
                   P = 1/2 * GRAVITY * (depth_at z eta c * depth_at z eta c)).
    { intros r P (_ & R2 & R3 & _) Hr. destruct (Hd c Hc) as [E0|E0].
      - rewrite R2 by exact E0. rewrite E0. ring.
      - apply R3; assumption. }
    assert (Hre : forall e, In e (iedges m) -> Rmax 0 (eta - Rmax (z (ie_l e)) (z (ie_r e))) = 0 \/
                            tiny < Rmax 0 (eta - Rmax (z (ie_l e)) (z (ie_r e)))).
    { intros e Hin. destruct (He e Hin) as [H|H]; [left; apply Rmax_left; exact H|right].
      rewrite Rmax_right by lra. exact H. }
    assert (PB' : forall ni nb, outward m' ni nb c = 0 -> push m' PL PR PB ni nb c = 0).
    { intros ni nb Ho. apply push_balanced with (P := 1/2 * GRAVITY * (depth_at z eta c * depth_at z eta c)); try exact Ho.
      - intros e Hin Hl. destruct (HI e Hin) as (A & _). rewrite Hl in A. eapply Hres; [exact A|]. rewrite <- Hl. apply Hre; exact Hin.
      - intros e Hin Hl. destruct (HI e Hin) as (_ & A). rewrite Hl in A. eapply Hres; [exact A|]. rewrite <- Hl. apply Hre; exact Hin.
      - intros e Hin Hl. assert (A := HB e Hin). rewrite Hl in A. eapply Hres; [exact A|]. apply Hd; exact Hc. }
    apply vec3_ext; cbn [vzero c0 c1 c2]; [exact F0| |].
    - rewrite F1, PB' by (apply outward_x; exact Hc). ring.
    - rewrite F2, PB' by (apply outward_y; exact Hc). ring.
  Qed.

  Lemma still_source dt src c : 0 < dt -> In c (cells m) -> src c = vzero -> s_source s dt u src c vzero = Some vzero.
  Proof.
    intros Hd Hc Hsrc. destruct Hs; cbn [s_source petsc_hr_scheme ceed_hr_scheme]; rewrite (Hu _ Hc), Hsrc.
    - apply petsc_rhs_rest; auto. apply friction_ok_xq; assumption.
    - apply ceed_rhs_rest; auto. apply friction_ok_xq; assumption.
  Qed.

  Lemma resolved_rhs dt src : resolved tiny m z eta -> 0 < dt -> (forall c, In c (cells m) -> src c = vzero) ->
    exists f, rhs_domain s m' dt src u = Some f /\ forall c, In c (cells m) -> f c = vzero.
  Proof.
    intros Hr Hd Hsrc. destruct (resolved_divergence Hr) as (f & Ef & Hf). unfold rhs_domain. rewrite Ef. cbn [obind].
    assert (Hnd := bas_nodup m walls Hb). cbn [m' with_boundary cells].
    destruct (source_loop_some (s_source s dt u src) (cells m) Hnd f) as (f' & E').
    { intros c Hc. rewrite (Hf c Hc). rewrite still_source by auto. eauto. }
    exists f'. split; [exact E'|]. intros c Hc.
    assert (V := source_loop_val (s_source s dt u src) (cells m) Hnd f f' E' c Hc).
    rewrite (Hf c Hc), still_source in V by auto. injection V as <-. reflexivity.
  Qed.
End Still.

Lemma axpy_still m z eta u a k : still m z eta u -> (forall c, In c (cells m) -> k c = vzero) -> still m z eta (axpy u a k).
Proof.
  intros Hu Hk c Hc. unfold axpy. rewrite (Hk c Hc), (Hu c Hc). unfold vadd, vscal, vzero; apply vec3_ext; cbn [c0 c1 c2]; ring.
Qed.

Lemma quiet_step_still tiny eta z s m i u x :
  0 < tiny -> hr_scheme tiny z s -> resolved tiny m z eta -> quiet_step m x -> still m z eta u ->
  exists u', advance_step i s m u x = Some u' /\ still m z eta u'.
Proof.
  intros Ht Hs Hr (Hd & Hb & Hsrc) Hu. unfold advance_step.
  assert (F : forall v, still m z eta v -> exists f, rhs_domain s (with_boundary m (st_bedges x)) (st_dt x) (st_src x) v = Some f /\
                        forall c, In c (cells m) -> f c = vzero).
  { intros v Hv. exact (resolved_rhs tiny eta z s m (st_bedges x) v Ht Hs Hb Hv (st_dt x) (st_src x) Hr Hd Hsrc). }
  destruct i; cbn [ts_step].
  - unfold euler_step. destruct (F u Hu) as (k & -> & Hk). cbn [obind]. eexists; split; [reflexivity|]. apply axpy_still; assumption.
  - unfold rk4_step. destruct (F u Hu) as (k1 & -> & Hk1). cbn [obind].
    destruct (F _ (axpy_still m z eta u (st_dt x / 2) k1 Hu Hk1)) as (k2 & -> & Hk2). cbn [obind].
    destruct (F _ (axpy_still m z eta u (st_dt x / 2) k2 Hu Hk2)) as (k3 & -> & Hk3). cbn [obind].
    destruct (F _ (axpy_still m z eta u (st_dt x) k3 Hu Hk3)) as (k4 & -> & Hk4). cbn [obind].
    eexists; split; [reflexivity|]. repeat apply axpy_still; assumption.
Qed.

(** ** C11 *)
(* Missing from the full property: lakes with depths (or depths above the higher bed of an edge)
   between zero and the dry threshold; see the refutation below for those. *)
Theorem C11_lake_stays_at_rest_partial :
  forall tiny_h eta z s m i xs u,
    0 < tiny_h -> hr_scheme tiny_h z s -> resolved tiny_h m z eta ->
    (forall x, In x xs -> quiet_step m x) -> still m z eta u ->
    exists u', run i s m xs u = Some u' /\ still m z eta u'.
Proof.
  intros tiny eta z s m i xs u Ht Hs Hr. revert u. unfold run. induction xs as [|x t IH]; intros u Hx Hu; cbn [ofold]; [eauto|].
  destruct (quiet_step_still tiny eta z s m i u x Ht Hs Hr (Hx x (or_introl eq_refl)) Hu) as (u1 & E & Hu1).
  rewrite E. cbn [obind]. apply IH; auto. intros y Hy. apply Hx. right; exact Hy.
Qed.
Print Assumptions C11_lake_stays_at_rest_partial.

(* Every lake: water levels do not change, and the spurious acceleration of a cell is at most
   g tiny_h^2 / 2 times perimeter over area. *)
Definition perimeter (m : mesh) (walls : list bedge) (c : nat) : R :=
  rsum (fun e => (if Nat.eqb c (ie_l e) then ie_len e else 0) + (if Nat.eqb c (ie_r e) then ie_len e else 0)) (iedges m)
  + rsum (fun e => if Nat.eqb c (be_c e) then be_len e else 0) walls.

Lemma unit_le sn cn : unit_n sn cn -> Rabs sn <= 1 /\ Rabs cn <= 1.
Proof. unfold unit_n. intros H. split; apply Rabs_le; split; nra. Qed.

Theorem C11_imbalance_bounded :
  forall tiny_h eta z s m walls u,
    0 < tiny_h -> hr_scheme tiny_h z s -> basin m walls ->
    (forall e, In e (iedges m) -> 0 <= ie_len e /\ unit_n (ie_sn e) (ie_cn e)) -> (forall e, In e walls -> 0 <= be_len e) ->
    still m z eta u ->
    exists f, flux_divergence s (with_boundary m walls) u = Some f /\
      forall c, In c (cells m) ->
        c0 (f c) = 0 /\
        Rabs (c1 (f c)) <= GRAVITY * (tiny_h * tiny_h) / 2 * perimeter m walls c / area m c /\
        Rabs (c2 (f c)) <= GRAVITY * (tiny_h * tiny_h) / 2 * perimeter m walls c / area m c.
Proof.
  intros tiny eta z s m walls u Ht Hs Hb Hi Hw Hu.
  destruct (still_divergence tiny eta z s m walls u Ht Hs Hb Hu) as (f & PL & PR & PB & Ef & HI & HB & Hf).
  exists f. split; [exact Ef|]. intros c Hc. destruct (Hf c Hc) as (F0 & F1 & F2). split; [exact F0|].
  assert (Ac := bas_area m walls Hb c Hc). assert (Hg := GRAVITY_pos).
  assert (B : forall ni nb, (forall e, In e (iedges m) -> Rabs (ni e) <= 1) -> (forall e, In e walls -> Rabs (nb e) <= 1) ->
     outward (with_boundary m walls) ni nb c = 0 ->
     Rabs (/ area m c * push (with_boundary m walls) PL PR PB ni nb c) <= GRAVITY * (tiny * tiny) / 2 * perimeter m walls c / area m c).
  { intros ni nb Hni Hnb Ho.
    rewrite Rabs_mult, (Rabs_right (/ area m c)) by (left; apply Rinv_0_lt_compat; exact Ac).
    apply Rmult_le_reg_l with (area m c); [exact Ac|].
    replace (area m c * (/ area m c * Rabs (push (with_boundary m walls) PL PR PB ni nb c)))
      with (Rabs (push (with_boundary m walls) PL PR PB ni nb c)) by (field; lra).
    replace (area m c * (GRAVITY * (tiny * tiny) / 2 * perimeter m walls c / area m c))
      with (1/2 * GRAVITY * (tiny * tiny) * perimeter m walls c) by (field; lra).
    apply push_bounded with (P := 1/2 * GRAVITY * (depth_at z eta c * depth_at z eta c)).
    - assert (A := half_sq GRAVITY 0 tiny Hg ltac:(lra)). lra.
    - intros e He El. destruct (HI e He) as ((A & _) & _). rewrite El in A. exact A.
    - intros e He El. destruct (HI e He) as (_ & (A & _)). rewrite El in A. exact A.
    - intros e He El. destruct (HB e He) as (A & _). rewrite El in A. exact A.
    - intros e He. split; [apply (Hi e He)|apply Hni; exact He].
    - intros e He. split; [apply (Hw e He)|apply Hnb; exact He].
    - exact Ho. }
  rewrite F1, F2. split; apply B.
  - intros e He. apply (unit_le _ _ (proj2 (Hi e He))).
  - intros e He. destruct (bas_walls m walls Hb e He) as (_ & _ & Hn). apply (unit_le _ _ Hn).
  - exact (bas_closed_x m walls Hb c Hc).
  - intros e He. apply (unit_le _ _ (proj2 (Hi e He))).
  - intros e He. destruct (bas_walls m walls Hb e He) as (_ & _ & Hn). apply (unit_le _ _ Hn).
  - exact (bas_closed_y m walls Hb c Hc).
Qed.
Print Assumptions C11_imbalance_bounded.

(* two unit squares side by side; bed 0 on the left and [z1] on the right *)
Definition two_cells : mesh := Mesh [0%nat; 1%nat] (fun _ => 1) [IEdge 0 1 1 0 1] [].
Definition two_walls : list bedge :=
  [BEdge 0 1 0 (-1) BCReflecting; BEdge 0 1 1 0 BCReflecting; BEdge 0 1 (-1) 0 BCReflecting;
   BEdge 1 1 0 1 BCReflecting; BEdge 1 1 1 0 BCReflecting; BEdge 1 1 (-1) 0 BCReflecting].
Definition step_bed (z1 : R) : nat -> R := fun c => if Nat.eqb c 0 then 0 else z1.

Lemma two_cells_basin : basin two_cells two_walls.
Proof.
  constructor.
  - repeat constructor; cbn; intuition discriminate.
  - intros e [<-|[]]; cbn; auto.
  - intros e He. cbn in He. unfold unit_n.
    repeat (destruct He as [<-|He]; [cbn; split; [tauto|split; [reflexivity|ring]]|]). destruct He.
  - intros; cbn; lra.
  - intros c [<-|[<-|[]]]; cbn; ring.
  - intros c [<-|[<-|[]]]; cbn; ring.
Qed.

(* Non-vacuity: level 2 over a step of height 1 (resolved) in both back ends. *)
Example C11_example : resolved (1/1000) two_cells (step_bed 1) 2 /\ quiet_step two_cells (StepInput 1 two_walls (fun _ => vzero)).
Proof.
  split.
  - split.
    + intros c [<-|[<-|[]]]; unfold depth_at, step_bed; cbn; right; rewrite Rmax_right; lra.
    + intros e [<-|[]]. unfold step_bed; cbn. right. rewrite Rmax_right; lra.
  - split; [cbn; lra|]. split; [exact two_cells_basin|]. reflexivity.
Qed.

(* The full property fails: a film of water 5e-4 deep over the step (threshold 1e-3). *)
Theorem C11_any_lake_at_rest_refuted :
  exists tiny_h eta z s m walls u f,
    0 < tiny_h /\ hr_scheme tiny_h z s /\ basin m walls /\ still m z eta u /\
    flux_divergence s (with_boundary m walls) u = Some f /\ c1 (f 0%nat) > 0.
Proof.
  set (g := CellGeom (fun _ => 0) (fun _ => 0) (fun _ => 0)).
  set (z := step_bed (1 - 1/2000)). set (tiny := 1/1000). assert (Ht : 0 < tiny) by (unfold tiny; lra).
  set (s := petsc_hr_scheme tiny 0 z SemiImplicit g).
  set (u := fun c => V3 (depth_at z 1 c) 0 0).
  assert (Hs : hr_scheme tiny z s) by (apply Hr_petsc; exact I).
  assert (Hu : still two_cells z 1 u) by (intros c _; reflexivity).
  destruct (still_divergence tiny 1 z s two_cells two_walls u Ht Hs two_cells_basin Hu) as (f & PL & PR & PB & Ef & HI & HB & Hf).
  exists tiny, 1, z, s, two_cells, two_walls, u, f.
  repeat (split; [first [exact Ht|exact Hs|exact two_cells_basin|exact Hu|exact Ef]|]).
  destruct (Hf 0%nat ltac:(cbn; auto)) as (_ & F1 & _). rewrite F1.
  assert (D0 : depth_at z 1 0 = 1) by (unfold depth_at, z, step_bed; cbn; rewrite Rmax_right; lra).
  destruct (HI (IEdge 0 1 1 0 1) (or_introl eq_refl)) as ((_ & _ & _ & A) & _). cbn [ie_l ie_r] in A.
  assert (Er : Rmax 0 (1 - Rmax (z 0%nat) (z 1%nat)) = 1/2000).
  { unfold z, step_bed; cbn. rewrite (Rmax_right 0 (1 - 1/2000)) by lra. rewrite Rmax_right; lra. }
  rewrite Er, D0 in A. specialize (A ltac:(unfold tiny; lra) ltac:(unfold tiny; lra)).
  assert (B : forall e, In e two_walls -> be_c e = 0%nat -> PB e = 1/2 * GRAVITY * (1 * 1)).
  { intros e He Ec. destruct (HB e He) as (_ & _ & X & _). rewrite Ec, D0 in X. apply X; unfold tiny; [lra|right; lra]. }
  unfold push. cbn [with_boundary iedges bedges area two_cells two_walls rsum be_c Nat.eqb be_len be_cn ie_l ie_r ie_len ie_cn].
  rewrite A, !B by (cbn; tauto). assert (Hg := GRAVITY_pos). nra.
Qed.
Print Assumptions C11_any_lake_at_rest_refuted.

(** ** C12 *)
(* depth above the higher of the two beds, spelled out *)
Theorem C12_reconstructed_depths :
  forall hL zL hR zR, 0 <= hL -> 0 <= hR ->
    let rL := hr_depth hL zL zR in let rR := hr_depth hR zR zL in
    0 <= rL <= hL /\ 0 <= rR <= hR /\ (rL = hL \/ rR = hR) /\
    (* it is the part of the water column above the higher bed *)
    (zL + hL <= Rmax zL zR -> rL = 0) /\ (zR + hR <= Rmax zL zR -> rR = 0) /\
    (Rmax zL zR <= zL + hL -> rL = zL + hL - Rmax zL zR) /\ (Rmax zL zR <= zR + hR -> rR = zR + hR - Rmax zL zR).
Proof.
  intros hL zL hR zR Hl Hr rL rR. assert (A := hr_depth_range hL zL zR Hl). assert (B := hr_depth_range hR zR zL Hr).
  fold rL in A. fold rR in B. repeat split; try lra.
  - destruct (Rle_dec zR zL); [left; apply hr_depth_own; assumption|right; apply hr_depth_own; lra].
  - intros H. unfold rL, hr_depth. apply Rmax_left. lra.
  - intros H. unfold rR, hr_depth. rewrite (Rmax_comm zR zL). apply Rmax_left. lra.
  - intros H. unfold rL, hr_depth. rewrite Rmax_right; lra.
  - intros H. unfold rR, hr_depth. rewrite (Rmax_comm zR zL). rewrite Rmax_right; lra.
Qed.
Print Assumptions C12_reconstructed_depths.
Example C12_example : hr_depth 2 0 1 = 1 /\ hr_depth 3 1 0 = 3.
Proof. unfold hr_depth. rewrite (Rmax_right 0 1), (Rmax_left 1 0), !Rmax_right by lra. lra. Qed.

(* No water crosses an edge whose higher bed is above both water surfaces (up to the threshold). *)
Theorem C12_no_flow_over_emerged_bed :
  forall tiny_h ha zL zR qL qR sn cn,
    0 < tiny_h -> 0 <= c0 qL -> 0 <= c0 qR ->
    zL + c0 qL <= Rmax zL zR + tiny_h -> zR + c0 qR <= Rmax zL zR + tiny_h ->
    (exists fl fr a, petsc_hr_edge tiny_h ha zL zR qL qR sn cn = Some (fl, fr, a) /\ c0 fl = 0 /\ c0 fr = 0 /\ a = 0) /\
    (exists fl fr a, ceed_hr_edge GRAVITY tiny_h ha zL zR qL qR sn cn = Some (fl, fr, a) /\ c0 fl = 0 /\ c0 fr = 0 /\ a = 0).
Proof.
  intros tiny ha zL zR qL qR sn cn Ht Hl Hr H1 H2.
  assert (E1 : Rltb tiny (hr_depth (c0 qL) zL zR) = false).
  { apply Rltb_false. unfold hr_depth. apply Rmax_lub; lra. }
  assert (E2 : Rltb tiny (hr_depth (c0 qR) zR zL) = false).
  { apply Rltb_false. unfold hr_depth. rewrite (Rmax_comm zR zL). apply Rmax_lub; lra. }
  split.
  - unfold petsc_hr_edge, hr_velocity. destruct (_ && _)%bool; [do 3 eexists; split; [reflexivity|cbn; auto]|].
    rewrite !ceed_velocities_some by lra. cbn [obind]. rewrite E1, E2. cbn [orb obind].
    do 3 eexists; split; [reflexivity|]. unfold vadd, hr_correction, vzero; cbn [c0]. repeat split; ring.
  - unfold ceed_hr_edge. rewrite !ceed_velocities_some by lra. cbn [obind].
    destruct ((tiny <? c0 qL) || (tiny <? c0 qR))%bool; [|do 3 eexists; split; [reflexivity|cbn; auto]]. rewrite E1, E2. cbn [orb obind].
    do 3 eexists; split; [reflexivity|]. unfold vadd, hr_correction, vzero; cbn [c0]. repeat split; ring.
Qed.
Print Assumptions C12_no_flow_over_emerged_bed.

Lemma hr_correction_same g h sn cn f : vadd f (hr_correction g h h sn cn) = f.
Proof. unfold vadd, hr_correction; apply vec3_ext; cbn [c0 c1 c2]; ring. Qed.

(* Equal beds: both sides get the flux of the standard scheme (PETSc away from depth = threshold;
   libCEED without velocity regularisation). *)
Theorem C12_equal_beds_standard_flux :
  forall tiny_h ha z qL qR sn cn,
    0 < tiny_h -> 0 <= c0 qL -> 0 <= c0 qR ->
    (c0 qL <> tiny_h -> c0 qR <> tiny_h ->
     petsc_hr_edge tiny_h ha z z qL qR sn cn = both (petsc_interior_edge tiny_h ha qL qR sn cn)) /\
    ceed_hr_edge GRAVITY tiny_h 0 z z qL qR sn cn = both (ceed_interior_edge GRAVITY tiny_h 0 qL qR sn cn 0).
Proof.
  intros tiny ha z qL qR sn cn Ht Hl Hr. assert (Hg := GRAVITY_pos). split.
  - intros Nl Nr. unfold petsc_hr_edge, hr_velocity. rewrite petsc_interior_edge_some by assumption.
    rewrite !hr_depth_own by lra.
    destruct ((c0 qR <? tiny) && (c0 qL <? tiny))%bool eqn:E; [reflexivity|].
    rewrite !ceed_velocities_some by lra. cbn [obind]. rewrite !cvel_pvel by assumption.
    assert (G : ((tiny <? c0 qL) || (tiny <? c0 qR))%bool = true).
    { apply Bool.andb_false_iff in E. apply Bool.orb_true_iff. rewrite !Rltb_true.
      destruct E as [E|E]; apply Rltb_false in E; lra. }
    rewrite G.
    assert (P1 : Prim (c0 qL) (pu (pvel tiny ha qL)) (pv (pvel tiny ha qL)) = pvel tiny ha qL) by (apply prim_ext; cbn [ph pu pv]; rewrite ?pvel_h; reflexivity).
    assert (P2 : Prim (c0 qR) (pu (pvel tiny ha qR)) (pv (pvel tiny ha qR)) = pvel tiny ha qR) by (apply prim_ext; cbn [ph pu pv]; rewrite ?pvel_h; reflexivity).
    rewrite P1, P2. rewrite petsc_roe_flux_some.
    2:{ unfold wetpair. rewrite !pvel_h. apply Bool.orb_true_iff in G. rewrite !Rltb_true in G. lra. }
    cbn [obind both fst snd]. rewrite !hr_correction_same. reflexivity.
  - unfold ceed_hr_edge. rewrite ceed_interior_edge_some by lra. rewrite !hr_depth_own by lra.
    rewrite !ceed_velocities_some by lra. cbn [obind].
    destruct ((tiny <? c0 qL) || (tiny <? c0 qR))%bool eqn:E; [|reflexivity].
    assert (V : forall q, 0 <= c0 q -> cvel tiny 0 (V3 (c0 q) (c0 q * pu (cvel tiny 0 q)) (c0 q * pv (cvel tiny 0 q))) = cvel tiny 0 q).
    { intros q Hq. unfold cvel; cbn [c0 c1 c2]. destruct (Rltb tiny (c0 q)) eqn:Eq; [|reflexivity].
      apply Rltb_true in Eq. cbn [pu pv]. apply prim_ext; cbn [ph pu pv]; [reflexivity| |]; field; nra. }
    rewrite ceed_roe_flux_some; cbn [c0]; try lra.
    2:{ apply Bool.orb_true_iff in E. rewrite !Rltb_true in E. lra. }
    cbn [obind both fst snd]. rewrite !V by assumption. rewrite !hr_correction_same. reflexivity.
Qed.
Print Assumptions C12_equal_beds_standard_flux.

(* With velocity regularisation the libCEED reconstruction regularises twice, so equal beds do not
   give the standard flux, and the two back ends disagree. *)
Lemma ceed_double_regularisation :
  exists fl fr a, ceed_hr_edge GRAVITY (1/1000) 1 0 0 (V3 1 1 0) (V3 1 1 0) 0 1 = Some (fl, fr, a) /\ c0 fl = 1/4.
Proof.
  assert (Hg := GRAVITY_pos). unfold ceed_hr_edge. cbn [c0]. rewrite !hr_depth_own by lra.
  rewrite !ceed_velocities_some by lra. cbn [obind].
  assert (E : Rltb (1/1000) 1 = true) by (apply Rltb_true; lra). rewrite E. cbn [orb].
  assert (V : cvel (1/1000) 1 (V3 1 1 0) = Prim 1 (1/2) 0).
  { unfold cvel; cbn [c0 c1 c2]. rewrite E. apply prim_ext; cbn [ph pu pv]; [reflexivity| |]; field. }
  rewrite V. cbn [pu pv]. rewrite ceed_roe_flux_some by (cbn [c0]; lra). cbn [obind].
  assert (V2 : cvel (1/1000) 1 (V3 1 (1 * (1/2)) (1 * 0)) = Prim 1 (1/4) 0).
  { unfold cvel; cbn [c0 c1 c2]. rewrite E. apply prim_ext; cbn [ph pu pv]; [reflexivity| |]; field. }
  rewrite V2, cflux_0, pflux_consistent by (cbn; lra). rewrite !hr_correction_same.
  do 3 eexists; split; [reflexivity|]. unfold side_flux; cbn [c0 ph pu pv]. field.
Qed.
Lemma ceed_standard_regularisation :
  exists f a, ceed_interior_edge GRAVITY (1/1000) 1 (V3 1 1 0) (V3 1 1 0) 0 1 0 = Some (f, a) /\ c0 f = 1/2.
Proof.
  assert (Hg := GRAVITY_pos). rewrite ceed_interior_edge_some by (cbn; lra). cbn [c0].
  assert (E : Rltb (1/1000) 1 = true) by (apply Rltb_true; lra). rewrite E. cbn [orb].
  assert (V : cvel (1/1000) 1 (V3 1 1 0) = Prim 1 (1/2) 0).
  { unfold cvel; cbn [c0 c1 c2]. rewrite E. apply prim_ext; cbn [ph pu pv]; [reflexivity| |]; field. }
  rewrite V, cflux_0, pflux_consistent by (cbn; lra). do 2 eexists; split; [reflexivity|]. unfold side_flux; cbn [c0 ph pu pv]. field.
Qed.
Theorem C12_equal_beds_regularised_refuted :
  exists tiny_h ha z qL qR sn cn,
    0 < tiny_h /\ 0 < c0 qL /\ 0 < c0 qR /\
    ceed_hr_edge GRAVITY tiny_h ha z z qL qR sn cn <> both (ceed_interior_edge GRAVITY tiny_h ha qL qR sn cn 0).
Proof.
  exists (1/1000), 1, 0, (V3 1 1 0), (V3 1 1 0), 0, 1. cbn [c0]. repeat split; try lra.
  destruct ceed_double_regularisation as (fl & fr & a & -> & H1). destruct ceed_standard_regularisation as (f & b & -> & H2).
  cbn. intros E. injection E as E1 _ _. rewrite E1 in H1. lra.
Qed.
Print Assumptions C12_equal_beds_regularised_refuted.

(** ** C08 for hydrostatic reconstruction *)
(* Missing: regularised velocities, reconstructed depths in (0, tiny_h], depth = tiny_h. *)
Theorem C08_hydrostatic_reconstruction_agree_partial :
  forall tiny_h zL zR qL qR sn cn,
    0 < tiny_h -> 0 <= c0 qL -> 0 <= c0 qR -> c0 qL <> tiny_h -> c0 qR <> tiny_h ->
    (hr_depth (c0 qL) zL zR = 0 \/ tiny_h < hr_depth (c0 qL) zL zR) ->
    (hr_depth (c0 qR) zR zL = 0 \/ tiny_h < hr_depth (c0 qR) zR zL) ->
    (hr_depth (c0 qL) zL zR = 0 -> hr_velocity tiny_h 0 qL = Some (Prim (c0 qL) 0 0)) ->
    (hr_depth (c0 qR) zR zL = 0 -> hr_velocity tiny_h 0 qR = Some (Prim (c0 qR) 0 0)) ->
    ceed_hr_edge GRAVITY tiny_h 0 zL zR qL qR sn cn = petsc_hr_edge tiny_h 0 zL zR qL qR sn cn.
Proof.
  intros tiny zL zR qL qR sn cn Ht Hl Hr Nl Nr Dl Dr Zl Zr. assert (Hg := GRAVITY_pos).
  assert (Rl := hr_depth_range (c0 qL) zL zR Hl). assert (Rr := hr_depth_range (c0 qR) zR zL Hr).
  unfold ceed_hr_edge, petsc_hr_edge. unfold hr_velocity in *. rewrite !ceed_velocities_some in * by lra.
  set (rl := hr_depth (c0 qL) zL zR) in *. set (rr := hr_depth (c0 qR) zR zL) in *. cbn [obind].
  assert (G : ((c0 qR <? tiny) && (c0 qL <? tiny))%bool = negb ((tiny <? c0 qL) || (tiny <? c0 qR))%bool).
  { assert (Hneg : forall x, x <> tiny -> Rltb x tiny = negb (Rltb tiny x)).
    { intros x Hx. destruct (Rltb x tiny) eqn:E1; destruct (Rltb tiny x) eqn:E2; try reflexivity;
      [apply Rltb_true in E1; apply Rltb_true in E2|apply Rltb_false in E1; apply Rltb_false in E2]; lra. }
    rewrite !Hneg by assumption. destruct (Rltb tiny (c0 qL)); destruct (Rltb tiny (c0 qR)); reflexivity. }
  rewrite G. destruct ((tiny <? c0 qL) || (tiny <? c0 qR))%bool; cbn [negb]; [|reflexivity].
  destruct ((tiny <? rl) || (tiny <? rr))%bool eqn:E; [|reflexivity].
  assert (V : forall q r, 0 <= r <= c0 q -> (r = 0 \/ tiny < r) -> (r = 0 -> Some (cvel tiny 0 q) = Some (Prim (c0 q) 0 0)) ->
     cvel tiny 0 (V3 r (r * pu (cvel tiny 0 q)) (r * pv (cvel tiny 0 q))) = Prim r (pu (cvel tiny 0 q)) (pv (cvel tiny 0 q))).
  { intros q r Hr0 Hd Hz. unfold cvel at 1; cbn [c0 c1 c2]. destruct Hd as [->|Hd].
    - assert (E0 : Rltb tiny 0 = false) by (apply Rltb_false; lra). rewrite E0. specialize (Hz eq_refl). injection Hz as ->. reflexivity.
    - assert (E0 : Rltb tiny r = true) by (apply Rltb_true; lra). rewrite E0. apply prim_ext; cbn [ph pu pv]; [reflexivity| |]; field; nra. }
  rewrite ceed_roe_flux_some; cbn [c0]; try lra.
  2:{ apply Bool.orb_true_iff in E. rewrite !Rltb_true in E. lra. }
  rewrite !V by assumption. rewrite petsc_roe_flux_some.
  2:{ unfold wetpair; cbn [ph]. apply Bool.orb_true_iff in E. rewrite !Rltb_true in E. lra. }
  cbn [obind]. rewrite cflux_0. reflexivity.
Qed.
Print Assumptions C08_hydrostatic_reconstruction_agree_partial.
Example C08_hr_example : (hr_depth 2 0 1 = 0 \/ 1/1000 < hr_depth 2 0 1) /\ (hr_depth 3 1 0 = 0 \/ 1/1000 < hr_depth 3 1 0).
Proof. destruct C12_example as (-> & ->). lra. Qed.

Theorem C08_hydrostatic_reconstruction_refuted :
  exists tiny_h ha zL zR qL qR sn cn,
    0 < tiny_h /\ tiny_h < c0 qL /\ tiny_h < c0 qR /\
    ceed_hr_edge GRAVITY tiny_h ha zL zR qL qR sn cn <> petsc_hr_edge tiny_h ha zL zR qL qR sn cn.
Proof.
  exists (1/1000), 1, 0, 0, (V3 1 1 0), (V3 1 1 0), 0, 1. cbn [c0]. repeat split; try lra.
  destruct ceed_double_regularisation as (fl & fr & a & -> & H1).
  destruct (C12_equal_beds_standard_flux (1/1000) 1 0 (V3 1 1 0) (V3 1 1 0) 0 1) as (E & _); cbn [c0]; try lra.
  rewrite E by (cbn; lra). clear E. rewrite <- interior_backends_agree by (cbn; lra).
  destruct ceed_standard_regularisation as (f & b & -> & H2). cbn. intros E. injection E as E1 _ _. rewrite E1 in H1. lra.
Qed.
Print Assumptions C08_hydrostatic_reconstruction_refuted.
