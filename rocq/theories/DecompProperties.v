(** C10: the answer does not depend on how the mesh is distributed over processes. *)
From Verif Require Import Base RoeModel RoeProofs EdgeModel EdgeProofs HRModel SourceModel SourceProofs AssemblyModel AssemblyProofs
  ConservationProperties DecompModel DecompSpec DecompProofs.

Lemma local_scheme_view gid s sl : local_scheme gid s sl -> scheme_view gid s sl.
Proof. destruct 1; [apply petsc_view|apply ceed_view|apply petsc_hr_view|apply ceed_hr_view]; assumption. Qed.

Lemma agree_axpy m u v a f k : agree m u v -> agree m f k -> agree m (axpy u a f) (axpy v a k).
Proof. intros H1 H2 c Hc. unfold axpy. rewrite (H1 c Hc), (H2 c Hc). reflexivity. Qed.

Lemma ts_step_agree m i F G dt u v u' :
  (forall u v f, agree m u v -> F u = Some f -> exists k, G v = Some k /\ agree m f k) ->
  agree m u v -> ts_step i F dt u = Some u' -> exists v', ts_step i G dt v = Some v' /\ agree m u' v'.
Proof.
  intros H Huv. destruct i; cbn [ts_step].
  - unfold euler_step. intros E. apply obind_some in E. destruct E as (f & Ef & E). injection E as <-.
    destruct (H u v f Huv Ef) as (k & -> & Hk). cbn [obind]. eexists; split; [reflexivity|]. apply agree_axpy; assumption.
  - unfold rk4_step. intros E.
    apply obind_some in E. destruct E as (f1 & E1 & E). destruct (H u v f1 Huv E1) as (k1 & -> & A1). cbn [obind].
    apply obind_some in E. destruct E as (f2 & E2 & E). destruct (H _ (axpy v (dt / 2) k1) f2 (agree_axpy _ _ _ _ _ _ Huv A1) E2) as (k2 & -> & A2). cbn [obind].
    apply obind_some in E. destruct E as (f3 & E3 & E). destruct (H _ (axpy v (dt / 2) k2) f3 (agree_axpy _ _ _ _ _ _ Huv A2) E3) as (k3 & -> & A3). cbn [obind].
    apply obind_some in E. destruct E as (f4 & E4 & E). destruct (H _ (axpy v dt k3) f4 (agree_axpy _ _ _ _ _ _ Huv A3) E4) as (k4 & -> & A4). cbn [obind].
    injection E as <-. eexists; split; [reflexivity|]. repeat apply agree_axpy; assumption.
Qed.

(** Each process visits all its edges and updates the cells it owns (PETSc back end, first order).
    For every distribution, and a different one at every step if you like, a parallel run gives the
    serial result in every cell. *)
Theorem C10_decomposition_independent :
  forall i s m xs u v u',
    well_formed m ->
    (forall x, In x xs -> boundary_in m (st_bedges (pi_step x)) /\ decomposes s (with_boundary m (st_bedges (pi_step x))) (pi_ranks x)) ->
    agree m u v ->
    run i s m (map pi_step xs) u = Some u' ->
    exists v', par_run par_rhs i m xs v = Some v' /\ agree m u' v'.
Proof.
  intros i s m xs u v u' (Hnd & Hi) Hx. revert u v. unfold run, par_run. induction xs as [|x t IH]; intros u v Huv E; cbn [ofold map] in *.
  - injection E as <-. eauto.
  - apply obind_some in E. destruct E as (u1 & E1 & E2). destruct (Hx x (or_introl eq_refl)) as (Hb & Hr & Hcov).
    unfold advance_step in E1. unfold par_advance at 1.
    destruct (ts_step_agree m i _ (par_rhs (pi_ranks x) (area m) (st_dt (pi_step x)) (st_src (pi_step x))) _ u v u1
       (fun a b f Hab Ef => par_rhs_ok s (with_boundary m (st_bedges (pi_step x))) (pi_ranks x) _ _ a b f
           (conj Hnd (conj Hi Hb)) Hab Ef
           (fun r sl H => match Hr r sl H with conj H1 (conj H2 H3) => conj (local_scheme_view _ _ _ H1) (conj H2 H3) end) Hcov) Huv E1) as (v1 & -> & Hv1).
    cbn [obind]. apply (IH (fun y H => Hx y (or_intror H)) u1 v1 Hv1 E2).
Qed.
Print Assumptions C10_decomposition_independent.

(** Each process visits the edges it owns and the contributions are summed over processes: the
    scheme of the libCEED back end, when the owned cells are numbered first. *)
Lemma position_seq p a n c : (forall l, (a <= l < c)%nat -> p l = true) -> (a <= c < a + n)%nat -> position p (seq a n) c = (c - a)%nat.
Proof.
  revert a. induction n as [|n IH]; intros a Hp Hc; [lia|]. cbn [seq position].
  destruct (Nat.eqb_spec a c) as [->|N]; [lia|]. rewrite Hp by lia. rewrite IH; [lia| |lia]. intros l Hl. apply Hp. lia.
Qed.
Lemma position_seq_skip p a n c k : (forall l, (a <= l < c)%nat -> p l = Nat.leb k l) -> (a <= k)%nat -> (k <= c < a + n)%nat -> position p (seq a n) c = (c - k)%nat.
Proof.
  revert a. induction n as [|n IH]; intros a Hp Hk Hc; [lia|]. cbn [seq position].
  destruct (Nat.eqb_spec a c) as [->|N]; [lia|]. rewrite Hp by lia.
  destruct (Nat.leb_spec k a).
  - rewrite position_seq by (try lia; intros l Hl; rewrite Hp by lia; apply Nat.leb_le; lia). lia.
  - apply IH; [intros; apply Hp; lia|lia|lia].
Qed.
Lemma filter_seq_ltb a n k p : (forall l, (a <= l < a + n)%nat -> p l = Nat.ltb l k) -> length (filter p (seq a n)) = Nat.min n (k - a).
Proof.
  revert a. induction n as [|n IH]; intros a Hp; cbn [seq filter]; [reflexivity|]. rewrite Hp by lia.
  destruct (Nat.ltb_spec a k); cbn [length]; rewrite IH by (intros; apply Hp; lia); lia.
Qed.
Lemma ghosts_last_identity r l : ghosts_last r -> In l (rk_cells r) -> local_to_owned r l = l.
Proof.
  intros (n & k & Ec & Ho) Hl. rewrite Ec in Hl. apply in_seq in Hl. unfold local_to_owned. rewrite Ec, Ho by lia.
  destruct (Nat.ltb_spec l k).
  - rewrite position_seq; [lia| |lia]. intros j Hj. rewrite Ho by lia. apply Nat.ltb_lt. lia.
  - rewrite (filter_seq_ltb 0 n k) by (intros; apply Ho; lia).
    rewrite (position_seq_skip _ 0 n l k); [lia| |lia|lia]. intros j Hj. rewrite Ho by lia.
    destruct (Nat.ltb_spec j k); destruct (Nat.leb_spec k j); lia || reflexivity.
Qed.

Lemma owned_edges_step s m rs dt src u v f :
  mesh_wf m -> decomposes s m rs -> edges_owned_once m rs -> (forall r sl, In (r, sl) rs -> ghosts_last r) ->
  agree m u v -> rhs_domain s m dt src u = Some f -> exists k, par_rhs_ceed rs (area m) dt src v = Some k /\ agree m f k.
Proof.
  intros Hwf (Hr & Hcov) ((gess & FI & PI) & (gbss & FB & PB)) Hg Huv Ef.
  eapply (par_rhs_owned_ok s m dt src u v f local_to_owned Hwf Huv Ef rs gess gbss); try assumption.
  - intros [r sl] Hq. destruct (Hr r sl Hq) as (H1 & H2 & _). repeat split.
    + apply local_scheme_view in H1. apply (H1 u0 ul).
    + apply local_scheme_view in H1. apply (H1 u0 ul).
    + apply local_scheme_view in H1. apply (H1 u0 ul).
    + apply H2. + apply H2. + apply H2. + apply (nu_iedges m r H2); assumption. + apply (nu_iedges m r H2); assumption. + apply H2.
    + cbn [fst]. intros l Hl. apply ghosts_last_identity; [eapply Hg; exact Hq|exact Hl].
  - intros c Hc. destruct (Hcov c Hc) as (r & sl & Hin & Ho). exists (r, sl). auto.
Qed.

Theorem C10_owned_edges_decomposition_partial :
  forall i s m xs u v u',
    well_formed m ->
    (forall x, In x xs -> let m' := with_boundary m (st_bedges (pi_step x)) in
       boundary_in m (st_bedges (pi_step x)) /\ decomposes s m' (pi_ranks x) /\ edges_owned_once m' (pi_ranks x) /\
       (forall r sl, In (r, sl) (pi_ranks x) -> ghosts_last r)) ->
    agree m u v ->
    run i s m (map pi_step xs) u = Some u' ->
    exists v', par_run par_rhs_ceed i m xs v = Some v' /\ agree m u' v'.
Proof.
  intros i s m xs u v u' (Hnd & Hi) Hx. revert u v. unfold run, par_run. induction xs as [|x t IH]; intros u v Huv E; cbn [ofold map] in *.
  - injection E as <-. eauto.
  - apply obind_some in E. destruct E as (u1 & E1 & E2). destruct (Hx x (or_introl eq_refl)) as (Hb & Hd & Ho & Hg).
    unfold advance_step in E1. unfold par_advance at 1.
    destruct (ts_step_agree m i _ (par_rhs_ceed (pi_ranks x) (area m) (st_dt (pi_step x)) (st_src (pi_step x))) _ u v u1
       (fun a b f Hab Ef => owned_edges_step s (with_boundary m (st_bedges (pi_step x))) (pi_ranks x) _ _ a b f
           (conj Hnd (conj Hi Hb)) Hd Ho Hg Hab Ef) Huv E1) as (v1 & -> & Hv1).
    cbn [obind]. apply (IH (fun y H => Hx y (or_intror H)) u1 v1 Hv1 E2).
Qed.
Print Assumptions C10_owned_edges_decomposition_partial.

(** *** Two cells on two processes *)
Definition two_cells : mesh := Mesh [0%nat; 1%nat] (fun _ => 1) [IEdge 0 1 1 0 1] [].
Definition row (s : scheme) : list (rank * scheme) :=
  (* process 0 owns cell 0; process 1 owns cell 1 and sees the edge the other way round *)
  [(Rank [0%nat; 1%nat] (fun l => l) (fun l => Nat.ltb l 1) [IEdge 0 1 1 0 1] (fun _ => true) [] (fun _ => true), s);
   (Rank [0%nat; 1%nat] (fun l => 1 - l)%nat (fun l => Nat.ltb l 1) [IEdge 0 1 1 (- 0) (-1)] (fun _ => false) [] (fun _ => false), s)].
Definition flat : cellgeom := CellGeom (fun _ => 1/50) (fun _ => 0) (fun _ => 0).
Definition flat_petsc : scheme := petsc_scheme (1/1000) 0 SemiImplicit flat.
Definition dam_break : nat -> vec3 := fun c => if Nat.eqb c 0 then V3 2 0 0 else V3 1 0 0.

Lemma row_decomposes s : local_scheme (fun l => l) s s -> local_scheme (fun l => 1 - l)%nat s s -> decomposes s two_cells (row s) /\ edges_owned_once two_cells (row s) /\
  forall r sl, In (r, sl) (row s) -> ghosts_last r.
Proof.
  intros L0 L1. split; [split|split; [split|]].
  - intros r sl [E|[E|[]]]; injection E as <- <-.
    + split; [exact L0|]. split; [constructor; cbn|constructor].
      * repeat constructor; simpl; intuition discriminate.
      * auto.
      * tauto.
      * intros e [<-|[]]. cbn. tauto.
      * tauto.
      * exists [IEdge 0 1 1 0 1]. split; [repeat constructor; exists false; repeat split|]. split; [intros e He; exact He|]. apply Permutation_refl.
      * exists []. split; [constructor|]. split; [intros e []|]. apply Permutation_refl.
    + split; [exact L1|]. split; [constructor; cbn|constructor].
      * repeat constructor; simpl; intuition discriminate.
      * intros a b [<-|[<-|[]]] [<-|[<-|[]]] E; cbn in E; congruence.
      * intros l [<-|[<-|[]]]; cbn; auto.
      * intros e [<-|[]]. cbn. tauto.
      * tauto.
      * exists [IEdge 0 1 1 0 1]. split; [constructor; [exists true; repeat split|constructor]|]. split; [intros e He; exact He|]. apply Permutation_refl.
      * exists []. split; [constructor|]. split; [intros e []|]. apply Permutation_refl.
  - intros c [<-|[<-|[]]].
    + do 2 eexists. split; [left; reflexivity|]. exists 0%nat. cbn. auto.
    + do 2 eexists. split; [right; left; reflexivity|]. exists 0%nat. cbn. auto.
  - exists [[IEdge 0 1 1 0 1]; []]. split; [|apply Permutation_refl].
    constructor; [constructor; [exists false; repeat split|constructor]|]. constructor; [constructor|constructor].
  - exists [[]; []]. split; [|apply Permutation_refl]. repeat constructor.
  - intros r sl [E|[E|[]]]; injection E as <- <-; exists 2%nat, 1%nat; split; reflexivity.
Qed.

Example C10_example :
  exists u', run RK4 flat_petsc two_cells [] dam_break = Some u' /\
  exists f, rhs_domain flat_petsc two_cells (1/100) (fun _ => vzero) dam_break = Some f /\
  well_formed two_cells /\ decomposes flat_petsc two_cells (row flat_petsc) /\ edges_owned_once two_cells (row flat_petsc).
Proof.
  eexists; split; [reflexivity|].
  assert (W : well_formed two_cells).
  { split; [repeat constructor; simpl; intuition discriminate|]. intros e [<-|[]]; cbn; auto. }
  destruct (petsc_rhs_exists (1/1000) 0 flat two_cells (1/100) (fun _ => vzero) dam_break) as (f & E).
  - lra. - lra.
  - destruct W as (W1 & W2). split; [exact W1|]. split; [exact W2|]. intros e [].
  - intros; cbn; lra.
  - intros c _. unfold dam_break. destruct (Nat.eqb c 0); cbn; lra.
  - intros e [].
  - exists f. split; [exact E|]. split; [exact W|].
    assert (L : forall gid, local_scheme gid flat_petsc flat_petsc) by (intros gid; apply (Local_petsc gid (1/1000) 0 SemiImplicit flat); lra).
    destruct (row_decomposes flat_petsc (L _) (L _)) as (D & O & _). auto.
Qed.

(** *** The libCEED back end writes through [local_to_owned], a numbering of the owned cells first,
    into a vector that is numbered like the local mesh.  If the local mesh does not number its
    ghosts last, contributions reach the wrong cell. *)
Definition swapped (s : scheme) : list (rank * scheme) :=
  (* process 0 owns cell 0, numbered after its ghost, and the edge *)
  [(Rank [0%nat; 1%nat] (fun l => 1 - l)%nat (fun l => Nat.eqb l 1) [IEdge 1 0 1 0 1] (fun _ => true) [] (fun _ => true), s);
   (Rank [0%nat; 1%nat] (fun l => 1 - l)%nat (fun l => Nat.eqb l 0) [IEdge 1 0 1 0 1] (fun _ => false) [] (fun _ => false), s)].
Definition flat_ceed : scheme := ceed_scheme (1/1000) 0 (fun _ _ => 0) (fun _ _ => 0) NoFriction flat.

Lemma swapped_decomposes s : local_scheme (fun l => 1 - l)%nat s s -> decomposes s two_cells (swapped s) /\ edges_owned_once two_cells (swapped s).
Proof.
  intros L1. split; [split|split].
  - intros r sl Hin.
    assert (N : numbering_ok two_cells r).
    { destruct Hin as [E|[E|[]]]; injection E as <- <-; constructor; cbn.
      all: try (repeat constructor; simpl; intuition discriminate).
      all: try (intros a b [<-|[<-|[]]] [<-|[<-|[]]] E; cbn in E; congruence).
      all: try (intros l [<-|[<-|[]]]; cbn; auto; fail).
      all: try tauto.
      all: intros e [<-|[]]; cbn; tauto. }
    assert (O : overlap_ok two_cells r).
    { destruct Hin as [E|[E|[]]]; injection E as <- <-; constructor.
      all: try (exists []; split; [constructor|split; [intros e []|apply Permutation_refl]]; fail).
      all: exists [IEdge 0 1 1 0 1]; split; [constructor; [exists false; repeat split|constructor]|split; [intros e He; exact He|apply Permutation_refl]]. }
    destruct Hin as [E|[E|[]]]; injection E as <- <-; auto.
  - intros c [<-|[<-|[]]].
    + do 2 eexists. split; [left; reflexivity|]. exists 1%nat. cbn. auto.
    + do 2 eexists. split; [right; left; reflexivity|]. exists 0%nat. cbn. auto.
  - exists [[IEdge 0 1 1 0 1]; []]. split; [|apply Permutation_refl].
    constructor; [constructor; [exists false; repeat split|constructor]|]. constructor; [constructor|constructor].
  - exists [[]; []]. split; [|apply Permutation_refl]. repeat constructor.
Qed.

Theorem C10_any_local_order_refuted :
  exists s m rs dt src u f k c,
    well_formed m /\ decomposes s m rs /\ edges_owned_once m rs /\
    rhs_domain s m dt src u = Some f /\ par_rhs_ceed rs (area m) dt src u = Some k /\ In c (cells m) /\ k c <> f c.
Proof.
  set (u := fun _ : nat => V3 1 1 0).
  destruct (ceed_interior_consistent GRAVITY (1/1000) (V3 1 1 0) 0 1 GRAVITY_pos ltac:(lra) ltac:(cbn; lra)) as (a & Ea).
  set (F := side_flux _ _ _ _) in Ea.
  assert (HF : c0 F = 1) by (unfold F, side_flux; cbn; unfold unorm; cbn; field). clearbody F.
  assert (Es : forall gid : nat -> nat, forall e, ie_sn e = 0 -> ie_cn e = 1 -> s_interior flat_ceed (fun l => u (gid l)) e = Some (F, F, a)).
  { intros gid e H1 H2. cbn [s_interior flat_ceed ceed_scheme]. rewrite H1, H2. unfold u. rewrite Ea. reflexivity. }
  assert (exists f, rhs_domain flat_ceed two_cells 1 (fun _ => vzero) u = Some f /\ c0 (f 0%nat) = -1) as (f1 & E1 & V1).
  { unfold rhs_domain, flux_divergence, interior_loop. cbn [two_cells iedges bedges ofold cells]. unfold edge_update at 1.
    rewrite (Es (fun l => l)) by reflexivity. cbn [obind ie_len ie_l ie_r area two_cells]. rewrite !rdiv_some by lra. cbn [obind].
    unfold boundary_loop, source_loop. cbn [ofold obind]. unfold cell_update. cbn [obind s_source flat_ceed ceed_scheme].
    unfold ceed_rhs, u. cbn [c0]. assert (G : Rltb (1/1000) 1 = true) by (apply Rltb_true; lra). rewrite G. cbn [obind].
    eexists; split; [reflexivity|]. cbn [upd Nat.eqb c0]. unfold upd. cbn. rewrite HF. lra. }
  assert (exists k, par_rhs_ceed (swapped flat_ceed) (area two_cells) 1 (fun _ => vzero) u = Some k /\ c0 (k 0%nat) = 1) as (k1 & E2 & V2).
  { unfold par_rhs_ceed, par_rhs_owned_edges. unfold swapped at 1. cbn [omap fst snd]. unfold rank_divergence. cbn [rk_iowned rk_iedges rk_bedges rk_bowned filter ofold].
    unfold edge_update_at. change (to_local _ u) with (fun l => u (1 - l)%nat). rewrite (Es (fun l => 1 - l)%nat) by reflexivity. cbn [obind].
    unfold to_local at 1 2. cbn [ie_len ie_l ie_r area two_cells]. rewrite !rdiv_some by lra. cbn [obind].
    unfold rank_sources, source_loop. cbn [swapped map fst combine omap snd rk_owned rk_cells filter Nat.eqb ofold].
    unfold cell_update, flat_ceed. cbn [s_source ceed_scheme]. unfold ceed_rhs, to_local, u. cbn [c0].
    assert (G : Rltb (1/1000) 1 = true) by (apply Rltb_true; lra). rewrite !G. cbn [obind].
    eexists; split; [reflexivity|]. cbn. rewrite HF. lra. }
  exists flat_ceed, two_cells, (swapped flat_ceed), 1, (fun _ => vzero), u, f1, k1, 0%nat.
  split; [split; [repeat constructor; simpl; intuition discriminate|intros e [<-|[]]; cbn; auto]|].
  assert (L : local_scheme (fun l => 1 - l)%nat flat_ceed flat_ceed) by (apply (Local_ceed _ (1/1000) 0 NoFriction flat); lra).
  destruct (swapped_decomposes flat_ceed L) as (D & O). split; [exact D|]. split; [exact O|].
  split; [exact E1|]. split; [exact E2|]. split; [cbn; auto|]. intros E. rewrite E in V2. lra.
Qed.
Print Assumptions C10_any_local_order_refuted.
