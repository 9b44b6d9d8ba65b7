(** Lemmas for second-order runs of the PETSc back end (C80). *)
From Verif Require Import Base RoeModel RoeProofs EdgeModel EdgeProofs EtaModel SourceModel TracerModel AssemblyModel AssemblyProofs DecompModel DecompSpec DecompProofs DecompProperties
  MeshMapsProofs AMRProofs CeedLayoutModel CeedLayoutSpec CeedLayoutProofs CeedLayoutProperties CeedHRModel CeedHRSpec CeedHRProofs CeedRunModel CeedRunSpec CeedRunProofs CeedRunProperties
  MusclModel MusclProofs CeedMusclModel CeedMusclSpec CeedMusclProofs CeedMusclProperties MusclRunModel MusclRunSpec MusclRunProofs
  PetscRunModel PetscRunSpec PetscRunProofs PetscMusclModel PetscMusclSpec.
Local Open Scope R_scope.
Local Notation length := List.length.

(** ** Boundaries and sources on one process, from the fluxes of the whole domain through interior edges *)
Section Rest.
  Context (s sl : scheme) (m : mesh) (r : rank) (dt : R) (src u f1 f2 f : nat -> vec3)
          (Hview : scheme_view (rk_gid r) s sl) (Hnum : numbering_ok m r) (Hwf : mesh_wf m) (Hov : overlap_ok m r).
  Hypothesis E2 : boundary_loop vadd vscal everything (area m) (s_boundary s u) (bedges m) f1 = Some f2.
  Hypothesis E3 : source_loop (s_source s dt u src) (cells m) f2 = Some f.
  Local Notation gid := (rk_gid r).
  Local Notation vl := (to_local r u).
  Lemma rank_rest_ok :
    exists g2 fl, boundary_loop vadd vscal (rk_owned r) (to_local r (area m)) (s_boundary sl vl) (rk_bedges r) (to_local r f1) = Some g2 /\
      source_loop (s_source sl dt vl (to_local r src)) (filter (rk_owned r) (rk_cells r)) g2 = Some fl /\
      forall l, In l (rk_cells r) -> rk_owned r l = true -> fl l = f (gid l).
  Proof.
    destruct Hov as [_ (gbs & F2b & Ib & Pb)].
    assert (VB := fun e e' => view_bkernel s sl m r u u Hview Hnum (fun _ _ => eq_refl) e e' f1 f2 E2).
    assert (Kb : forall e, In e (rk_bedges r) -> s_boundary sl vl e = Some (kbl sl r u e) /\ to_local r (area m) (be_c e) <> 0).
    { intros e He. destruct (Forall2_in_l _ _ _ e F2b He) as (e' & He' & Hv). destruct (VB e e' He (Ib e' He') Hv) as (A & B & _). auto. }
    assert (W : forall p : vec3 -> R, (forall a b, p (vadd a b) = p a + p b) -> (forall a b, p (vscal a b) = a * p b) ->
      exists g2, boundary_loop vadd vscal (rk_owned r) (to_local r (area m)) (s_boundary sl vl) (rk_bedges r) (to_local r f1) = Some g2 /\
        forall l, In l (rk_cells r) -> rk_owned r l = true -> p (g2 l) = p (f2 (gid l))).
    { intros p Pa Ps.
      destruct (boundary_loop_val vadd vscal p Pa Ps (rk_owned r) (to_local r (area m)) (s_boundary sl vl) (kbl sl r u) (rk_bedges r)) with (f := to_local r f1) as (g2 & G2 & W2).
      { intros e He _. apply Kb; exact He. } { intros e He _. apply Kb; exact He. }
      destruct (boundary_loop_val vadd vscal p Pa Ps everything (area m) (s_boundary s u) (kbg s u) (bedges m)) with (f := f1) as (f2' & E2' & V2).
      { intros e He _. unfold kbg. destruct (boundary_loop_inv _ _ _ _ _ E2 e He) as ((k & ->) & _). reflexivity. }
      { intros e He _. apply (boundary_loop_inv _ _ _ _ _ E2 e He). }
      rewrite E2 in E2'. injection E2' as <-.
      exists g2. split; [exact G2|]. intros l Hl Ho. rewrite W2, V2. unfold everything.
      assert (Og : ownsb r (gid l) = true) by (apply ownsb_spec; exists l; auto).
      apply f_equal2; [reflexivity|]. rewrite Ho.
      rewrite <- (rsum_filter_zero (btouches r) (fun e => if Nat.eqb (gid l) (be_c e) then - be_len e / area m (gid l) * p (fst (kbg s u e)) else 0) (bedges m)).
      2:{ intros e _ Et. unfold btouches in Et. destruct (Nat.eqb_spec (gid l) (be_c e)) as [X|]; [rewrite <- X in Et; congruence|]. reflexivity. }
      rewrite <- (rsum_perm _ _ _ Pb). rewrite rsum_filter_zero.
      2:{ intros e _ Et. unfold btouches in Et. destruct (Nat.eqb_spec (gid l) (be_c e)) as [X|]; [rewrite <- X in Et; congruence|]. reflexivity. }
      eapply rsum_Forall2; [exact F2b|]. intros e e' Hv He He'.
      destruct (VB e e' He (Ib e' He') Hv) as (_ & _ & ->).
      assert (Hel := nu_bedges m r Hnum e He). destruct Hv as (Hg & Hlen & _). rewrite Hlen.
      assert (T1 : Nat.eqb l (be_c e) = Nat.eqb (gid l) (gid (be_c e))).
      { destruct (Nat.eqb_spec l (be_c e)) as [->|N]; [rewrite Nat.eqb_refl; reflexivity|].
        destruct (Nat.eqb_spec (gid l) (gid (be_c e))) as [X|]; [exfalso; apply N; apply (nu_inj m r Hnum); assumption|reflexivity]. }
      rewrite T1. rewrite Hg. reflexivity. }
    destruct (W c0 (fun _ _ => eq_refl) (fun _ _ => eq_refl)) as (g2 & G2 & W0).
    destruct (W c1 (fun _ _ => eq_refl) (fun _ _ => eq_refl)) as (g2' & G2' & W1).
    destruct (W c2 (fun _ _ => eq_refl) (fun _ _ => eq_refl)) as (g2'' & G2'' & W2).
    rewrite G2 in G2', G2''. injection G2' as <-. injection G2'' as <-.
    assert (Hsum : forall l, In l (rk_cells r) -> rk_owned r l = true -> g2 l = f2 (gid l)) by (intros; apply vec3_ext; auto).
    assert (Hsrc : forall l, In l (filter (rk_owned r) (rk_cells r)) -> s_source sl dt vl (to_local r src) l (g2 l) = Some (f (gid l))).
    { intros l Hl. apply filter_In in Hl. destruct Hl as (Hl & Ho). rewrite Hsum by assumption.
      destruct (Hview u vl) as (_ & _ & Sv). rewrite (Sv dt src (to_local r src) l (f2 (gid l)) eq_refl eq_refl).
      apply (source_loop_val _ _ (proj1 Hwf) _ _ E3). apply (nu_cells m r Hnum); exact Hl. }
    assert (Hnd : NoDup (filter (rk_owned r) (rk_cells r))) by (apply NoDup_filter; apply (nu_nodup m r Hnum)).
    destruct (source_loop_some (s_source sl dt vl (to_local r src)) _ Hnd g2) as (fl & Efl); [intros l Hl; rewrite (Hsrc l Hl); eauto|].
    exists g2, fl. split; [exact G2|]. split; [exact Efl|]. intros l Hl Ho.
    assert (Hf : In l (filter (rk_owned r) (rk_cells r))) by (apply filter_In; auto).
    assert (X := source_loop_val _ _ Hnd g2 fl Efl l Hf). rewrite (Hsrc l Hf) in X. injection X as <-. reflexivity.
  Qed.
End Rest.

(** ** The local vector of fluxes: every local cell has a place in it *)
Definition everyone (M : cmesh) : cmesh :=
  CMesh (cm_cells M) (cm_vertices M) (cm_internal M) (cm_cell_ids M) (cm_vertex_ids M) (cm_eowned M) (cm_sn M) (cm_cn M) (cm_len M) (cm_area M)
        (fun _ => true) (fun c => c) (cm_dzdx M) (cm_dzdy M) (cm_z M).
Lemma everyone_owned M : owned_cells (everyone M) = seq 0 (cm_cells M).
Proof. unfold owned_cells. cbn [everyone cm_cells cm_owned]. induction (seq 0 (cm_cells M)) as [|a l IH]; cbn; [reflexivity|congruence]. Qed.
Lemma everyone_numbered M : numbered (everyone M).
Proof.
  intros i c H. rewrite everyone_owned in H. cbn [everyone cm_l2o].
  assert (i < cm_cells M)%nat by (rewrite <- (seq_length (cm_cells M) 0); apply nth_error_Some; congruence). rewrite nth_error_seq0 in H by assumption. congruence.
Qed.
Lemma everyone_edge tiny M dl dr fl f ei : accumulate_edge2 tiny M dl dr fl f ei = accumulate_edge tiny (everyone M) dl dr fl f ei.
Proof. destruct ei. reflexivity. Qed.

Lemma fold_rel2 {X Y} M (step : list R -> X -> option (list R)) (astep : (nat -> vec3) -> Y -> option (nat -> vec3)) (h : X -> Y) : forall l x f f',
  (forall a x f f', In a l -> rel M x f -> astep f (h a) = Some f' -> exists x', step x a = Some x' /\ rel M x' f') ->
  rel M x f -> ofold astep (map h l) f = Some f' -> exists x', ofold step l x = Some x' /\ rel M x' f'.
Proof.
  induction l as [|a l IH]; intros x f f' H HR E; cbn [map ofold] in *; [injection E as <-; eauto|].
  apply obind_some in E. destruct E as (f1 & E1 & E). destruct (H a x f f1 (or_introl eq_refl) HR E1) as (x1 & Ex & HR1). rewrite Ex, obind_Some.
  apply (IH x1 f1 f' (fun a x f f' Ha => H a x f f' (or_intror Ha)) HR1 E).
Qed.
Lemma omap_positions {A B} (g : nat -> option B) (h : A -> B) : forall (es : list A) off,
  (forall i e, nth_error es i = Some e -> g (off + i)%nat = Some (h e)) -> omap g (seq off (length es)) = Some (map h es).
Proof.
  induction es as [|a es IH]; intros off H; [reflexivity|]. cbn [length seq omap map].
  assert (H0 := H 0%nat a eq_refl). rewrite Nat.add_0_r in H0. rewrite H0, obind_Some.
  rewrite (IH (S off)); [reflexivity|]. intros i e Hi. specialize (H (S i) e Hi). rewrite Nat.add_succ_r in H. exact H.
Qed.

(* one edge *)
Lemma local_edge_ok (M : cmesh) tiny ha (ql qr : nat -> vec3) (kern : iedge -> option (vec3 * vec3 * R)) fl es x f f' i e : 0 < tiny ->
  (left_cell M e < cm_cells M)%nat -> (right_cell M e < cm_cells M)%nat ->
  (forall i e, nth_error es i = Some e -> forall k, (k < 3)%nat ->
     nth_error fl (3 * i + k) = nth_error (flux3 (roe_between (riemann_velocity tiny ha (rstate_of (ql e))) (riemann_velocity tiny ha (rstate_of (qr e))) (cm_sn M e) (cm_cn M e))) k) ->
  kern (iedge_of M e) = both (petsc_interior_edge tiny ha (ql e) (qr e) (cm_sn M e) (cm_cn M e)) ->
  nth_error es i = Some e -> rel (everyone M) x f -> edge_update vadd vscal everything (cm_area M) kern f (iedge_of M e) = Some f' ->
  exists x', accumulate_edge2 tiny M (map (fun e => riemann_velocity tiny ha (rstate_of (ql e))) es) (map (fun e => riemann_velocity tiny ha (rstate_of (qr e))) es) fl x (i, e) = Some x' /\ rel (everyone M) x' f'.
Proof.
  intros Ht Hl Hr HF K Hi HR E. assert (NBE := everyone_numbered M).
  assert (OW : forall c, (c < cm_cells M)%nat -> In c (owned_cells (everyone M))) by (intros c Hc; rewrite everyone_owned; apply in_seq; lia).
  unfold accumulate_edge2. rewrite !nth_error_map, Hi. cbn [option_map]. rewrite !obind_Some, !velocity_h, !obind_Some.
  unfold petsc_interior_edge in K. rewrite !petsc_velocities_some, !obind_Some in K by exact Ht. unfold prim_dry in K. rewrite !pvel_h in K.
  destruct ((c0 (qr e) <? tiny) && (c0 (ql e) <? tiny))%bool.
  - exists x. split; [reflexivity|]. eapply (edge_rel (everyone M) (cm_area M) _ x f f' _ _ _ _ HR E K); [exact (proj1 HR)|]. intros a b _ _ c k Hc Hk.
    cbn [fst snd]. rewrite component_zero, !Rmult_0_r. destruct (_ && _)%bool, (_ && _)%bool; ring.
  - destruct (petsc_roe_flux (pvel tiny ha (ql e)) (pvel tiny ha (qr e)) (cm_sn M e) (cm_cn M e)) as [[fv am]|] eqn:EF.
    2:{ unfold edge_update in E. rewrite K in E. discriminate E. }
    cbn [both obind fst snd] in K.
    assert (E' := E). unfold edge_update in E'. rewrite K, obind_Some in E'. apply obind_some in E'. destruct E' as (a & Ea & E'). apply obind_some in E'. destruct E' as (b & Eb & _).
    cbn [iedge_of ie_l ie_r ie_len] in Ea, Eb.
    assert (HFe : forall k, (k < 3)%nat -> nth_error fl (3 * i + k) = nth_error (flux3 (Some (fv, am))) k).
    { intros k Hk. rewrite (HF i e Hi k Hk). unfold roe_between. rewrite !velocity_prim, !petsc_velocities_some, !obind_Some by exact Ht. rewrite EF. reflexivity. }
    destruct (bump_flux (everyone M) NBE true (left_cell M e) true (right_cell M e) x
      (fun k => scaled fl (3 * i + k) (rdiv (- cm_len M e) (cm_area M (left_cell M e)))) (fun k => scaled fl (3 * i + k) (rdiv (cm_len M e) (cm_area M (right_cell M e))))
      (vscal a fv) (vscal b fv) (proj1 HR)) as (x' & Ex & Sx & Vx).
    + intros _. apply OW; exact Hl.
    + intros _. apply OW; exact Hr.
    + intros k Hk _. apply (scaled_some fl i k (fv, am) _ a (HFe k Hk) Hk Ea).
    + intros k Hk _. apply (scaled_some fl i k (fv, am) _ b (HFe k Hk) Hk Eb).
    + exists x'. split; [exact Ex|]. eapply (edge_rel (everyone M) (cm_area M) _ x f f' _ _ _ _ HR E K); [exact Sx|]. intros a' b' Ea' Eb' c k Hc Hk.
      cbn [iedge_of ie_l ie_r ie_len] in Ea', Eb' |- *. assert (a' = a) by congruence. assert (b' = b) by congruence. subst a' b'. rewrite (Vx c k Hc Hk), !component_scal. reflexivity.
Qed.

(** ** One process *)
Definition petsc_kernel (cf : cconfig) (a b : vec3) (sn cn : R) : option (vec3 * R) := petsc_interior_edge (cf_tiny_h cf) (cf_h_anuga cf) a b sn cn.
Definition frozen_petsc lim cf G gr g : scheme := frozen (petsc_kernel cf) lim G gr (petsc_scheme_of Standard cf (fun _ => 0) g).
Lemma rhs_frozen_petsc lim cf G m g dt src u : rhs_domain (petsc_scheme2_of lim cf G m g) m dt src u = rhs_domain (frozen_petsc lim cf G (slopes G m u) g) m dt src u.
Proof. reflexivity. Qed.

(* a process and a mesh without boundaries *)
Definition inland (p : cprocess) : cprocess := CProcess (cp_hmesh p) [] (cp_ext p) (cp_mat p) (cp_gid p) (cp_sf p).
Definition inland_mesh (m : mesh) : mesh := Mesh (cells m) (area m) (iedges m) [].

Section Process2.
  Context (lim : limiter) (cf : cconfig) (G : geometry) (m : mesh) (g : cellgeom) (src : nat -> vec3) (p : sprocess) (C : flow_config cf)
          (PO : process_ok Standard cf m (fun _ => 0) g src (sp_base p)) (GO : geometry_ok G m p) (UG : unoriented G).
  Local Notation b := (sp_base p).
  Local Notation M := (cp_mesh (sp_base p)).
  Context (u f1 : nat -> vec3) (ges : list iedge) (x : list R) (gr : list (list R)).
  Local Notation S2 := (frozen_petsc lim cf G (slopes G m u) g).
  Definition local2p : scheme := frozen (petsc_kernel cf) lim (local_geometry (cp_gid b) G) (fun k l => slopes G m u k (cp_gid b l)) (petsc_scheme_of Standard cf (fun _ => 0) (geom_at (cp_gid b) g)).
  Hypothesis E1 : interior_loop vadd vscal everything (area m) (s_interior S2 u) (iedges m) zero_field = Some f1.
  Hypothesis Hes : owned_edges_are (rank_of b) ges.
  Hypothesis Hgi : incl ges (iedges m).
  Hypothesis LO : local_ok u b x.
  Hypothesis HS : has_slopes G m u p gr.

  Lemma local2p_view : scheme_view (cp_gid b) S2 local2p.
  Proof.
    unfold local2p, frozen_petsc. apply frozen_view; [exact UG|exact (petsc_scheme_view Standard cf (fun _ => 0) g (cp_gid b) (proj2 (proj2 C)))|].
    intros a c sn cn. apply petsc_interior_flip. exact (proj2 (proj2 C)).
  Qed.
  Local Notation vl := (to_local (rank_of b) u).
  Local Notation K := (kl local2p (rank_of b) u).
  Let st (e : nat) : vec3 * vec3 := frozen_states lim (local_geometry (cp_gid b) G) (fun k l => slopes G m u k (cp_gid b l)) vl (iedge_of M e).

  Lemma clamped_states e : Rmax 0 (c0 (fst (st e))) = c0 (fst (st e)) /\ Rmax 0 (c0 (snd (st e))) = c0 (snd (st e)).
  Proof. unfold st, frozen_states. cbn [fst snd c0]. split; apply Rmax_right, Rmax_l. Qed.

  Lemma petsc_flux_total : exists y, local_interior_flux2 lim cf (sp_rmesh p) gr x = Some y /\ length y = (3 * cm_cells M)%nat /\
    forall k c, (k < 3)%nat -> rsum (fun l => if Nat.eqb (cp_gid b l) c then nth (l * 3 + k) y 0 else 0) (seq 0 (cm_cells M)) = rsum (gcontrib S2 m u (component k) c) ges.
  Proof.
    assert (Ht := proj2 (proj2 C)). destruct LO as (Lx & Vx).
    assert (NUM := po_numbering _ _ _ _ _ _ _ PO).
    assert (IN : forall e, In e (owned_internal M) -> (left_cell M e < cm_cells M)%nat /\ (right_cell M e < cm_cells M)%nat).
    { intros e He. destruct (edge_inside _ _ _ _ _ _ _ PO e He) as (A & B & _). auto. }
    unfold local_interior_flux2. cbn [sp_rmesh rm_mesh]. fold (sp_rmesh p).
    rewrite (faces_spec lim (sp_rmesh p) x gr (proj1 HS)); [|cbn [sp_rmesh rm_mesh]; lia|exact (ge_inside _ _ _ GO)].
    rewrite obind_Some. cbn [sp_rmesh rm_mesh]. fold (sp_rmesh p).
    set (rows := map (face_row lim (sp_rmesh p) x gr) (owned_internal M)).
    assert (R6 : forall r, In r rows -> length r = 6%nat) by (intros r Hr; apply in_map_iff in Hr; destruct Hr as (e & <- & _); reflexivity).
    assert (RW : forall i e, nth_error (owned_internal M) i = Some e -> nth_error rows i = Some (comps3 (fst (st e)) ++ comps3 (snd (st e)))%list).
    { intros i e Hi. unfold rows. rewrite nth_error_map, Hi. cbn [option_map]. apply f_equal. unfold face_row.
      destruct (face_states_read lim G m u p x gr e LO HS GO (nth_error_In _ _ Hi)) as (-> & ->). reflexivity. }
    rewrite (omap_positions (face_state (concat rows) 0) (fun e => rstate_of (fst (st e)))).
    2:{ intros i e Hi. cbn [Nat.add]. unfold face_state. assert (RE := RW i e Hi). rewrite !Nat.add_0_r.
        assert (X := fun j Hj => concat_get 6 rows R6 i _ j RE Hj). rewrite (Nat.mul_comm i 6).
        assert (X0 := X 0%nat ltac:(lia)). rewrite Nat.add_0_r in X0. rewrite X0, (X 1%nat), (X 2%nat) by lia. cbn [comps3 app nth_error]. rewrite !obind_Some.
        unfold rstate_of. rewrite (proj1 (clamped_states e)). reflexivity. }
    rewrite (omap_positions (face_state (concat rows) 3) (fun e => rstate_of (snd (st e)))).
    2:{ intros i e Hi. cbn [Nat.add]. unfold face_state. assert (RE := RW i e Hi). 
        assert (X := fun j Hj => concat_get 6 rows R6 i _ j RE Hj). rewrite (Nat.mul_comm i 6), <- !Nat.add_assoc. cbn [Nat.add].
        rewrite (X 3%nat), (X 4%nat), (X 5%nat) by lia. cbn [comps3 app nth_error]. rewrite !obind_Some.
        unfold rstate_of. rewrite (proj2 (clamped_states e)). reflexivity. }
    rewrite !obind_Some, (proj1 (proj2 C)). unfold ComputeRiemannVelocities. rewrite !map_map.
    match goal with |- context [ComputeSWERoeFlux ?dl ?dr ?sn ?cn] => destruct (roe_batch dl dr sn cn) as (fl & am & EF & _ & VF); [rewrite !map_length; reflexivity..|] end.
    rewrite EF, obind_Some. cbn [fst].
    (* the local field *)
    assert (KE : forall e, In e (map (iedge_of M) (owned_internal M)) -> s_interior local2p vl e = Some (K e)).
    { intros e' He'. apply in_map_iff in He'. destruct He' as (e & <- & He). apply (view_edge_kernel S2 local2p m b local2p_view NUM u f1 ges E1 Hes Hgi e He). }
    assert (AE : forall e, In e (map (iedge_of M) (owned_internal M)) -> cm_area M (ie_l e) <> 0 /\ cm_area M (ie_r e) <> 0).
    { intros e' He'. assert (He := He'). apply in_map_iff in He. destruct He as (e & <- & He). destruct (IN e He) as (Hl & Hr).
      assert (Hes' := Hes). unfold owned_edges_are in Hes'. rewrite rank_owned_edges in Hes'. destruct (Forall2_in_l _ _ _ _ Hes' He') as (eg & Heg & flip & Hv).
      destruct (view_kernel S2 local2p m (rank_of b) u u local2p_view NUM (fun _ _ => eq_refl) flip _ eg f1 E1 He' (Hgi eg Heg) Hv) as (_ & A1 & A2 & _).
      unfold to_local in A1, A2. cbn [rank_of rk_gid iedge_of ie_l ie_r] in A1, A2 |- *. rewrite !(po_area _ _ _ _ _ _ _ PO) by assumption. auto. }
    assert (FW : forall q : vec3 -> R, (forall a c, q (vadd a c) = q a + q c) -> (forall a c, q (vscal a c) = a * q c) ->
      exists f', interior_loop vadd vscal everything (cm_area M) (s_interior local2p vl) (map (iedge_of M) (owned_internal M)) zero_field = Some f' /\
        forall c, q (f' c) = q vzero + rsum (fun e => ecoef everything (cm_area M) e (q (fst (fst (K e)))) (q (snd (fst (K e)))) c) (map (iedge_of M) (owned_internal M))).
    { intros q Qa Qs. destruct (interior_loop_val vadd vscal q Qa Qs everything (cm_area M) (s_interior local2p vl) K (map (iedge_of M) (owned_internal M)) KE AE zero_field) as (f' & Ef' & Vf'). eauto. }
    destruct (FW c0 (fun _ _ => eq_refl) (fun _ _ => eq_refl)) as (f' & Ef' & _).
    assert (VFK : forall k c, component k (f' c) = rsum (fun e => ecoef everything (cm_area M) e (component k (fst (fst (K e)))) (component k (snd (fst (K e)))) c) (map (iedge_of M) (owned_internal M))).
    { intros k c. destruct (FW (component k) (component_add k) (component_scal k)) as (f'' & Ef'' & Vf''). rewrite Ef' in Ef''. injection Ef'' as <-. rewrite Vf'', component_zero. ring. }
    assert (RZ : rel (everyone M) (repeat 0 (3 * cm_cells M)) zero_field).
    { assert (Z := rel_zero (everyone M)). rewrite everyone_owned, seq_length in Z. exact Z. }
    rewrite <- (combine_seq_snd (owned_internal M) 0), map_map in Ef'. unfold interior_loop in Ef'.
    destruct (fold_rel2 (everyone M) (accumulate_edge2 (cf_tiny_h cf) M
        (map (fun e => riemann_velocity (cf_tiny_h cf) (cf_h_anuga cf) (rstate_of (fst (st e)))) (owned_internal M))
        (map (fun e => riemann_velocity (cf_tiny_h cf) (cf_h_anuga cf) (rstate_of (snd (st e)))) (owned_internal M)) fl) (edge_update vadd vscal everything (cm_area M) (s_interior local2p vl)) (fun ie => iedge_of M (snd ie))
        (combine (seq 0 (length (owned_internal M))) (owned_internal M)) (repeat 0 (3 * cm_cells M)) zero_field f') as (y & Ey & Sy & Vy); [|exact RZ|exact Ef'|].
    1:{ intros [i e] x0 f0 f0' Hin HR0 E0. apply combine_seq_In in Hin. cbn [snd] in E0. destruct (IN e (nth_error_In _ _ Hin)) as (Hl & Hr).
        refine (local_edge_ok M (cf_tiny_h cf) (cf_h_anuga cf) (fun e => fst (st e)) (fun e => snd (st e)) (s_interior local2p vl) fl (owned_internal M) x0 f0 f0' i e Ht Hl Hr _ eq_refl Hin HR0 E0).
        intros i' e' Hi' k Hk. exact (VF i' _ _ _ _ (map_nth_error _ _ _ Hi') (map_nth_error _ _ _ Hi') (map_nth_error (cm_sn M) _ _ Hi') (map_nth_error (cm_cn M) _ _ Hi') k Hk). }
    exists y. split; [exact Ey|]. unfold sized in Sy. rewrite everyone_owned, seq_length in Sy. split; [exact Sy|].
    intros k c Hk.
    assert (NUM0 : numbering_ok (inland_mesh m) (rank_of (inland b))).
    { destruct NUM. constructor; try assumption. intros e []. }
    rewrite <- (Rplus_0_r (rsum (gcontrib S2 m u (component k) c) ges)).
    change (rsum (fun l => if Nat.eqb (cp_gid (inland b) l) c then nth (l * 3 + k) y 0 else 0) (seq 0 (cm_cells (cp_mesh (inland b)))) = rsum (gcontrib S2 (inland_mesh m) u (component k) c) ges + rsum (gbcontrib S2 (inland_mesh m) u (component k) c) []).
    refine (flux_total S2 local2p (inland_mesh m) (inland b) local2p_view NUM0 (po_area _ _ _ _ _ _ _ PO) u f1 f1 ges [] E1 eq_refl Hes _ Hgi (fun e (H : In e []) => match H with end) y _ k c Hk).
    - constructor.
    - intros l j Hl Hj. cbn [inland cp_bounds rsum]. rewrite Rplus_0_r. specialize (Vy l j). rewrite everyone_owned in Vy. specialize (Vy (proj2 (in_seq _ _ _) (conj (Nat.le_0_l l) Hl)) Hj).
      unfold value in Vy. cbn [everyone cm_l2o] in Vy. rewrite (Nat.mul_comm l 3), Vy, VFK. unfold hr_from_internal. rewrite rsum_map. apply rsum_ext. intros e _.
      unfold ecoef, everything, component. cbn [iedge_of ie_l ie_r ie_len]. change (cp_mesh (inland b)) with M. rewrite (Nat.eqb_sym (left_cell M e) l), (Nat.eqb_sym (right_cell M e) l).
      change (kl local2p (rank_of (inland b)) u) with K.
      destruct (Nat.eqb l (left_cell M e)), (Nat.eqb l (right_cell M e)); unfold Rdiv; ring.
  Qed.
End Process2.
