(** C26, C27: the maximum Courant number and where it is attained. *)
From Verif Require Import Base RoeModel RoeProofs EdgeModel EdgeProofs HRModel HRProofs SourceModel AssemblyModel AssemblyProofs
  ConservationProperties DecompModel DecompSpec DecompProofs DecompProperties MusclModel DiagModel.
From Coq Require Import ZArith.

(** ** Specification *)
(* the Courant number of an edge of the whole mesh: wave speed x length x dt / area of the smaller cell *)
Inductive edge_number (s : scheme) (m : mesh) (dt : R) (u : nat -> vec3) : R -> Prop :=
| Number_interior : forall e fl fr a, In e (iedges m) -> s_interior s u e = Some (fl, fr, a) ->
    edge_number s m dt u (a * ie_len e / Rmin (area m (ie_l e)) (area m (ie_r e)) * dt)
| Number_boundary : forall e f a, In e (bedges m) -> s_boundary s u e = Some (f, a) ->
    edge_number s m dt u (a * be_len e / area m (be_c e) * dt).

(* [x] is the greatest of the numbers in [P], or 0 if none is positive *)
Definition greatest (P : R -> Prop) (x : R) : Prop := 0 <= x /\ (forall c, P c -> c <= x) /\ (x = 0 \/ P x).
Lemma greatest_unique P x y : greatest P x -> greatest P y -> x = y.
Proof.
  intros (X0 & XM & XI) (Y0 & YM & YI). apply Rle_antisym.
  - destruct XI as [->|XI]; [exact Y0|apply YM; exact XI].
  - destruct YI as [->|YI]; [exact X0|apply XM; exact YI].
Qed.

Definition positive_areas (m : mesh) : Prop := forall c, In c (cells m) -> 0 < area m c.

(** ** One process *)
Lemma note_spec vs : forall d, 
  d_max d <= d_max (fold_left note vs d) /\ (forall v, In v vs -> v_num v <= d_max (fold_left note vs d)) /\
  (fold_left note vs d = d \/ exists v, In v vs /\ fold_left note vs d = Diag (v_num v) (v_edge v) (v_cell v)).
Proof.
  induction vs as [|v t IH]; intros d; cbn [fold_left].
  - split; [lra|]. split; [intros v []|auto].
  - destruct (IH (note d v)) as (A & B & C).
    assert (N : d_max d <= d_max (note d v) /\ v_num v <= d_max (note d v)).
    { unfold note. destruct (d_max d <? v_num v) eqn:E; [apply Rltb_true in E; cbn; lra|apply Rltb_false in E; lra]. }
    split; [lra|]. split; [intros w [<-|Hw]; [lra|apply B; exact Hw]|].
    destruct C as [C|(w & Hw & Ew)]; [|right; exists w; split; [right; exact Hw|exact Ew]].
    rewrite C. unfold note. destruct (d_max d <? v_num v); [right; exists v; split; [left; reflexivity|reflexivity]|left; reflexivity].
Qed.
Lemma reduce_spec t : In (reduce t) (leaves t) /\ forall d, In d (leaves t) -> d_max d <= d_max (reduce t).
Proof.
  induction t as [d|a (A1 & A2) b (B1 & B2)]; cbn [reduce leaves].
  - split; [left; reflexivity|]. intros x [<-|[]]. lra.
  - unfold reduce_op. split.
    + destruct (_ <? _); apply in_or_app; auto.
    + intros d Hd. destruct (d_max (reduce b) <? d_max (reduce a)) eqn:E; [apply Rltb_true in E|apply Rltb_false in E];
      apply in_app_or in Hd; destruct Hd as [Hd|Hd]; [apply A2 in Hd|apply B2 in Hd|apply A2 in Hd|apply B2 in Hd]; lra.
Qed.

Lemma omap_in {A B} (g : A -> option B) l : forall bs, omap g l = Some bs -> 
  (forall b, In b bs -> exists a, In a l /\ g a = Some b) /\ (forall a, In a l -> exists b, In b bs /\ g a = Some b).
Proof.
  induction l as [|a t IH]; intros bs E; cbn [omap] in E.
  - injection E as <-. split; [intros b []|intros a []].
  - apply obind_some in E. destruct E as (b & Eb & E). apply obind_some in E. destruct E as (bs' & Ebs & E). injection E as <-.
    destruct (IH bs' Ebs) as (I1 & I2). split.
    + intros x [<-|Hx]; [exists a; split; [left; reflexivity|exact Eb]|]. destruct (I1 x Hx) as (y & Hy & Ey). exists y. split; [right; exact Hy|exact Ey].
    + intros x [<-|Hx]; [exists b; split; [left; reflexivity|exact Eb]|]. destruct (I2 x Hx) as (y & Hy & Ey). exists y. split; [right; exact Hy|exact Ey].
Qed.
Lemma in_combine_ex {A B} (l : list A) (l' : list B) b : length l = length l' -> In b l' -> exists a, In (a, b) (combine l l').
Proof.
  revert l'. induction l as [|a t IH]; intros [|y l'] Hl Hb; cbn in *; try discriminate; [destruct Hb|].
  destruct Hb as [->|Hb]; [exists a; auto|]. destruct (IH l' ltac:(congruence) Hb) as (x & Hx). exists x. auto.
Qed.

(* the two back ends compute the same number for a pair of cells *)
Lemma min_positive a b : 0 < a -> 0 < b -> 0 < Rmin a b. Proof. intros; apply Rmin_glb_lt; assumption. Qed.

Section OneEdge.
  Variables (s sl : scheme) (r : rank) (m : mesh) (dt : R) (u : nat -> vec3).
  Hypothesis V : scheme_view (rk_gid r) s sl.

  Lemma kernel_seen e e' : (exists flip, eview (rk_gid r) flip e e') ->
    ie_len e = ie_len e' /\
    (s_interior sl (to_local r u) e = None <-> s_interior s u e' = None) /\
    (forall k, s_interior sl (to_local r u) e = Some k -> exists k', s_interior s u e' = Some k' /\ snd k' = snd k) /\
    ((rk_gid r (ie_l e) = ie_l e' /\ rk_gid r (ie_r e) = ie_r e') \/ (rk_gid r (ie_l e) = ie_r e' /\ rk_gid r (ie_r e) = ie_l e')).
  Proof.
    intros (flip & Hv). destruct (V u (to_local r u)) as (Vi & _ & _).
    specialize (Vi flip e e' Hv eq_refl eq_refl). destruct Hv as (Hlen & Hv).
    split; [exact Hlen|]. rewrite Vi. destruct flip; destruct Hv as (A & B & _ & _).
    - destruct (s_interior s u e') as [[[fl fr] a]|]; cbn [oflip].
      + split; [split; discriminate|]. split; [|auto]. intros k E. injection E as <-. eexists; split; reflexivity.
      + split; [split; reflexivity|]. split; [discriminate|auto].
    - split; [reflexivity|]. split; [|auto]. intros k E. exists k. auto.
  Qed.
  Lemma bkernel_seen e e' : bview (rk_gid r) e e' -> s_boundary sl (to_local r u) e = s_boundary s u e' /\ be_len e = be_len e' /\ rk_gid r (be_c e) = be_c e'.
  Proof.
    intros Hv. destruct (V u (to_local r u)) as (_ & Vb & _). split; [apply Vb; [exact Hv|reflexivity]|].
    destruct Hv as (A & B & _). auto.
  Qed.

  (* the smaller of the two cells of an edge *)
  Definition smaller_cell (e : iedge) (c : nat) : Prop :=
    (c = ie_l e /\ area m (ie_l e) <= area m (ie_r e)) \/ (c = ie_r e /\ area m (ie_r e) <= area m (ie_l e)).

  Lemma interior_visit_seen e e' id v : (exists flip, eview (rk_gid r) flip e e') ->
    interior_visit sl dt (to_local r (area m)) (rk_gid r) (to_local r u) (id, e) = Some v ->
    v_edge v = id /\
    exists fl fr a c, s_interior s u e' = Some (fl, fr, a) /\
      v_num v = a * ie_len e' / Rmin (area m (ie_l e')) (area m (ie_r e')) * dt /\ v_cell v = Z.of_nat c /\ smaller_cell e' c.
  Proof.
    intros Hv E. destruct (kernel_seen e e' Hv) as (Hlen & _ & Hk & Hc). unfold interior_visit in E. cbn [fst snd] in E.
    apply obind_some in E. destruct E as (k & Ek & E). apply obind_some in E. destruct E as (q & Eq & E). injection E as <-. cbn [v_edge v_num v_cell].
    split; [reflexivity|]. destruct (Hk k Ek) as ([[fl fr] a] & Ek' & Ea). cbn [snd] in Ea. exists fl, fr, a. 
    apply rdiv_inv in Eq. destruct Eq as (_ & ->). rewrite <- Ea, Hlen. unfold to_local in *.
    destruct Hc as [(H1 & H2)|(H1 & H2)]; rewrite H1, H2.
    - eexists. split; [exact Ek'|]. split; [reflexivity|]. split; [reflexivity|].
      unfold smaller_cell. destruct (_ <? _) eqn:L; [apply Rltb_true in L|apply Rltb_false in L]; rewrite ?H1, ?H2; [left|right]; split; auto; lra.
    - eexists. split; [exact Ek'|]. split; [rewrite (Rmin_comm (area m (ie_l e'))); reflexivity|]. split; [reflexivity|].
      unfold smaller_cell. destruct (_ <? _) eqn:L; [apply Rltb_true in L|apply Rltb_false in L]; rewrite ?H1, ?H2; [right|left]; split; auto; lra.
  Qed.
  Lemma boundary_visit_seen e e' id v : bview (rk_gid r) e e' ->
    boundary_visit sl dt (to_local r (area m)) (rk_gid r) (to_local r u) (id, e) = Some v ->
    v_edge v = id /\
    exists f a, s_boundary s u e' = Some (f, a) /\ v_num v = a * be_len e' / area m (be_c e') * dt /\ v_cell v = Z.of_nat (be_c e').
  Proof.
    intros Hv E. destruct (bkernel_seen e e' Hv) as (Hk & Hlen & Hc). unfold boundary_visit in E. cbn [fst snd] in E. rewrite Hk in E.
    apply obind_some in E. destruct E as ([f a] & Ek & E). apply obind_some in E. destruct E as (q & Eq & E). injection E as <-. cbn [v_edge v_num v_cell].
    split; [reflexivity|]. exists f, a. apply rdiv_inv in Eq. destruct Eq as (_ & ->). cbn [snd]. unfold to_local. rewrite Hlen, Hc. auto.
  Qed.
End OneEdge.

(* what a process visits are edges of the whole mesh, and it visits all the edges of its cells *)
Lemma rank_visits_sound s sl m r iids bids dt u vs :
  scheme_view (rk_gid r) s sl -> overlap_ok m r ->
  rank_visits sl r iids bids (area m) dt u = Some vs ->
  forall v, In v vs -> edge_number s m dt u (v_num v).
Proof.
  intros V O E v Hv. unfold rank_visits in E. apply obind_some in E. destruct E as (vi & Ei & E).
  apply obind_some in E. destruct E as (vb & Eb & E). injection E as <-. apply in_app_or in Hv. destruct Hv as [Hv|Hv].
  - apply omap_in in Ei. destruct (proj1 Ei v Hv) as ([id e] & Hin & Ee). apply in_combine_r in Hin.
    destruct (ov_iedges m r O) as (ges & F & I & _). destruct (Forall2_in_l _ _ _ _ F Hin) as (e' & He' & Hview).
    destruct (interior_visit_seen s sl r m dt u V e e' id v Hview Ee) as (_ & fl & fr & a & c & Ek & En & _). rewrite En. econstructor; [apply I; exact He'|exact Ek].
  - apply omap_in in Eb. destruct (proj1 Eb v Hv) as ([id e] & Hin & Ee). apply filter_In in Hin. destruct Hin as (Hin & _). apply in_combine_r in Hin.
    destruct (ov_bedges m r O) as (gbs & F & I & _). destruct (Forall2_in_l _ _ _ _ F Hin) as (e' & He' & Hview).
    destruct (boundary_visit_seen s sl r m dt u V e e' id v Hview Ee) as (_ & f & a & Ek & En & _). rewrite En. econstructor; [apply I; exact He'|exact Ek].
Qed.

Lemma Forall2_in_r {A B} (P : A -> B -> Prop) l1 l2 b : Forall2 P l1 l2 -> In b l2 -> exists a, In a l1 /\ P a b.
Proof.
  induction 1 as [|x y t1 t2 H Ht IH]; intros Hin; [destruct Hin|].
  destruct Hin as [<-|Hin]; [exists x; split; [left; reflexivity|exact H]|].
  destruct (IH Hin) as (a & Ha & Pa). exists a. split; [right; exact Ha|exact Pa].
Qed.

Definition ids_fit (r : rank) (iids bids : list Z) : Prop := length iids = length (rk_iedges r) /\ length bids = length (rk_bedges r).

Lemma rank_visits_interior s sl m r iids bids dt u vs e' :
  scheme_view (rk_gid r) s sl -> overlap_ok m r -> ids_fit r iids bids ->
  rank_visits sl r iids bids (area m) dt u = Some vs ->
  In e' (iedges m) -> owns r (ie_l e') ->
  exists v fl fr a, In v vs /\ s_interior s u e' = Some (fl, fr, a) /\ v_num v = a * ie_len e' / Rmin (area m (ie_l e')) (area m (ie_r e')) * dt.
Proof.
  intros V O (Li & _) E He Ho. unfold rank_visits in E. apply obind_some in E. destruct E as (vi & Ei & E).
  apply obind_some in E. destruct E as (vb & Eb & E). injection E as <-.
  destruct (ov_iedges m r O) as (ges & F & _ & P).
  assert (Hg : In e' (filter (touches r) ges)).
  { eapply Permutation_in; [apply Permutation_sym; exact P|]. apply filter_In. split; [exact He|]. unfold touches. apply ownsb_spec in Ho. rewrite Ho. reflexivity. }
  apply filter_In in Hg. destruct Hg as (Hg & _). destruct (Forall2_in_r _ _ _ _ F Hg) as (e & Hin & Hview).
  destruct (in_combine_ex iids (rk_iedges r) e Li Hin) as (id & Hc).
  apply omap_in in Ei. destruct (proj2 Ei _ Hc) as (v & Hv & Ev).
  destruct (interior_visit_seen s sl r m dt u V e e' id v Hview Ev) as (_ & fl & fr & a & c & Ek & En & _).
  exists v, fl, fr, a. split; [apply in_or_app; left; exact Hv|]. auto.
Qed.
Lemma rank_visits_boundary s sl m r iids bids dt u vs e' :
  scheme_view (rk_gid r) s sl -> numbering_ok m r -> overlap_ok m r -> ids_fit r iids bids ->
  rank_visits sl r iids bids (area m) dt u = Some vs ->
  In e' (bedges m) -> owns r (be_c e') ->
  exists v f a, In v vs /\ s_boundary s u e' = Some (f, a) /\ v_num v = a * be_len e' / area m (be_c e') * dt.
Proof.
  intros V N O (_ & Lb) E He Ho. unfold rank_visits in E. apply obind_some in E. destruct E as (vi & Ei & E).
  apply obind_some in E. destruct E as (vb & Eb & E). injection E as <-.
  destruct (ov_bedges m r O) as (gbs & F & _ & P).
  assert (Hg : In e' (filter (btouches r) gbs)).
  { eapply Permutation_in; [apply Permutation_sym; exact P|]. apply filter_In. split; [exact He|]. unfold btouches. apply ownsb_spec. exact Ho. }
  apply filter_In in Hg. destruct Hg as (Hg & _). destruct (Forall2_in_r _ _ _ _ F Hg) as (e & Hin & Hview).
  destruct (in_combine_ex bids (rk_bedges r) e Lb Hin) as (id & Hc).
  assert (Hown : rk_owned r (be_c e) = true).
  { destruct Ho as (l & Hl & Hlo & Hlg). destruct Hview as (Hgc & _). rewrite <- Hgc in Hlg.
    apply (nu_inj m r N) in Hlg; [|exact Hl|apply (nu_bedges m r N); exact Hin]. subst l. exact Hlo. }
  apply omap_in in Eb. destruct (proj2 Eb (id, e)) as (v & Hv & Ev); [apply filter_In; split; [exact Hc|exact Hown]|].
  destruct (boundary_visit_seen s sl r m dt u V e e' id v Hview Ev) as (_ & f & a & Ek & En & _).
  exists v, f, a. split; [apply in_or_app; right; exact Hv|]. auto.
Qed.

(** ** C26, PETSc back end *)
(* the processes with the ids their loops record *)
Definition with_ids : Type := ((rank * scheme) * (list Z * list Z))%type.
Definition diags_of (rs : list with_ids) (m : mesh) (dt : R) (u : nat -> vec3) : option (list diag) :=
  omap (fun q => rank_diag (snd (fst q)) (fst (fst q)) (fst (snd q)) (snd (snd q)) (area m) dt u) rs.
Definition all_ids_fit (rs : list with_ids) : Prop := forall r sl i b, In ((r, sl), (i, b)) rs -> ids_fit r i b.

(* For every distribution of the mesh over processes, every order in which a process visits its edges,
   and every order and bracketing of the reduction: the reported maximum is the greatest Courant
   number of the edges of the whole mesh. *)
Theorem C26_maximum_is_exact :
  forall s m rs dt u ds t,
    well_formed m -> boundary_in m (bedges m) ->
    decomposes s m (map fst rs) -> all_ids_fit rs ->
    diags_of rs m dt u = Some ds -> Permutation (leaves t) ds ->
    greatest (edge_number s m dt u) (d_max (reduce t)).
Proof.
  intros s m rs dt u ds t (_ & Hi) Hb (Hr & Hcov) Hids E P. destruct (reduce_spec t) as (Rin & Rmx).
  assert (Hmem : forall d, In d (leaves t) <-> In d ds) by (intros d; split; apply Permutation_in; [|apply Permutation_sym]; exact P).
  unfold diags_of in E. apply omap_in in E. destruct E as (I1 & I2).
  (* any process whose visits contain the number bounds it *)
  assert (Hbound : forall r sl ii bb vs v, In ((r, sl), (ii, bb)) rs -> rank_visits sl r ii bb (area m) dt u = Some vs -> In v vs -> v_num v <= d_max (reduce t)).
  { intros r sl ii bb vs v Hq Ev Hv. destruct (I2 _ Hq) as (d & Hd & Ed). cbn [fst snd] in Ed. unfold rank_diag in Ed. rewrite Ev in Ed. cbn [obind] in Ed. injection Ed as <-.
    apply Rle_trans with (d_max (fold_left note vs reset)); [apply note_spec; exact Hv|]. apply Rmx, Hmem, Hd. }
  assert (Hvis : forall r sl, In (r, sl) (map fst rs) -> exists ii bb vs, In ((r, sl), (ii, bb)) rs /\ rank_visits sl r ii bb (area m) dt u = Some vs).
  { intros r sl Hin. apply in_map_iff in Hin. destruct Hin as ([[r' sl'] [ii bb]] & Eq & Hq). cbn [fst] in Eq. injection Eq as -> ->.
    destruct (I2 _ Hq) as (d & _ & Ed). cbn [fst snd] in Ed. unfold rank_diag in Ed. apply obind_some in Ed. destruct Ed as (vs & Ev & _). eauto. }
  split; [|split].
  - apply Hmem in Rin. destruct (I1 _ Rin) as (q & _ & Eq). unfold rank_diag in Eq. apply obind_some in Eq. destruct Eq as (vs & _ & Eq). injection Eq as Eq. rewrite <- Eq.
    destruct (note_spec vs reset) as (A & _). exact A.
  - intros c Hc. destruct Hc as [e' fl fr a He Ek|e' f a He Ek].
    + destruct (Hcov (ie_l e')) as (r & sl & Hin & Ho); [apply Hi; exact He|].
      destruct (Hvis r sl Hin) as (ii & bb & vs & Hq & Ev). destruct (Hr r sl Hin) as (L & N & O).
      destruct (rank_visits_interior s sl m r ii bb dt u vs e' (local_scheme_view _ _ _ L) O (Hids _ _ _ _ Hq) Ev He Ho) as (v & fl' & fr' & a' & Hv & Ek' & En).
      rewrite Ek in Ek'. injection Ek' as <- <- <-. rewrite <- En. eapply Hbound; eassumption.
    + destruct (Hcov (be_c e')) as (r & sl & Hin & Ho); [apply Hb; exact He|].
      destruct (Hvis r sl Hin) as (ii & bb & vs & Hq & Ev). destruct (Hr r sl Hin) as (L & N & O).
      destruct (rank_visits_boundary s sl m r ii bb dt u vs e' (local_scheme_view _ _ _ L) N O (Hids _ _ _ _ Hq) Ev He Ho) as (v & f' & a' & Hv & Ek' & En).
      rewrite Ek in Ek'. injection Ek' as <- <-. rewrite <- En. eapply Hbound; eassumption.
  - apply Hmem in Rin. destruct (I1 _ Rin) as ([[r sl] [ii bb]] & Hq & Eq). cbn [fst snd] in Eq. unfold rank_diag in Eq. apply obind_some in Eq. destruct Eq as (vs & Ev & Eq). injection Eq as Eq.
    destruct (note_spec vs reset) as (_ & _ & [C|(v & Hv & C)]); rewrite <- Eq, C; cbn [d_max reset]; [left; reflexivity|right].
    destruct (Hr r sl) as (L & N & O); [apply in_map_iff; exists ((r, sl), (ii, bb)); auto|].
    eapply rank_visits_sound; [apply local_scheme_view; exact L|exact O|exact Ev|exact Hv].
Qed.
Print Assumptions C26_maximum_is_exact.

(* ... hence it does not depend on the distribution, the edge order or the reduction *)
Theorem C26_distribution_independent :
  forall s m rs1 rs2 dt u ds1 ds2 t1 t2,
    well_formed m -> boundary_in m (bedges m) ->
    decomposes s m (map fst rs1) -> all_ids_fit rs1 -> diags_of rs1 m dt u = Some ds1 -> Permutation (leaves t1) ds1 ->
    decomposes s m (map fst rs2) -> all_ids_fit rs2 -> diags_of rs2 m dt u = Some ds2 -> Permutation (leaves t2) ds2 ->
    d_max (reduce t1) = d_max (reduce t2).
Proof.
  intros s m rs1 rs2 dt u ds1 ds2 t1 t2 W B D1 I1 E1 P1 D2 I2 E2 P2. apply (greatest_unique (edge_number s m dt u)).
  - apply (C26_maximum_is_exact s m rs1 dt u ds1 t1); assumption.
  - apply (C26_maximum_is_exact s m rs2 dt u ds2 t2); assumption.
Qed.
Print Assumptions C26_distribution_independent.

(* If the fluxes of the whole domain are defined, every process completes its record. *)
Theorem C26_recorded_whenever_fluxes_defined :
  forall s m rs dt u f,
    positive_areas m -> well_formed m -> boundary_in m (bedges m) -> decomposes s m (map fst rs) -> 
    flux_divergence s m u = Some f -> exists ds, diags_of rs m dt u = Some ds.
Proof.
  intros s m rs dt u f Ha (_ & Hi) Hb (Hr & _) Ef. unfold flux_divergence in Ef. apply obind_some in Ef. destruct Ef as (f1 & E1 & E2).
  assert (K1 := interior_loop_inv _ _ _ _ _ _ E1). assert (K2 := boundary_loop_inv _ _ _ _ _ E2).
  unfold diags_of. edestruct (omap_all (fun q : with_ids => rank_diag (snd (fst q)) (fst (fst q)) (fst (snd q)) (snd (snd q)) (area m) dt u) rs) as (ds & Eds & _); [|eexists; exact Eds].
  intros [[r sl] [ii bb]] Hq. cbn [fst snd]. destruct (Hr r sl) as (L & N & O); [apply in_map_iff; exists ((r, sl), (ii, bb)); auto|].
  apply local_scheme_view in L. unfold rank_diag, rank_visits.
  edestruct (omap_all (interior_visit sl dt (to_local r (area m)) (rk_gid r) (to_local r u)) (combine ii (rk_iedges r))) as (vi & -> & _).
  { intros [id e] Hin. apply in_combine_r in Hin. destruct (ov_iedges m r O) as (ges & F & I & _). destruct (Forall2_in_l _ _ _ _ F Hin) as (e' & He' & Hview).
    destruct (kernel_seen s sl r u L e e' Hview) as (Hlen & Hn & _ & Hc). unfold interior_visit. cbn [fst snd].
    destruct (s_interior sl (to_local r u) e) as [k|] eqn:Ek.
    2:{ destruct (K1 e' (I _ He')) as ((k & Ek') & _). destruct Hn as (Hn & _). rewrite Hn in Ek' by reflexivity. discriminate. }
    cbn [obind]. rewrite rdiv_some; [eexists; reflexivity|]. unfold to_local. destruct (Hi e' (I _ He')) as (C1 & C2).
    apply Rgt_not_eq. destruct Hc as [(-> & ->)|(-> & ->)]; apply min_positive; apply Ha; assumption. }
  cbn [obind].
  edestruct (omap_all (boundary_visit sl dt (to_local r (area m)) (rk_gid r) (to_local r u)) (filter (fun p => rk_owned r (be_c (snd p))) (combine bb (rk_bedges r)))) as (vb & -> & _).
  { intros [id e] Hin. apply filter_In in Hin. destruct Hin as (Hin & _). apply in_combine_r in Hin. destruct (ov_bedges m r O) as (gbs & F & I & _). destruct (Forall2_in_l _ _ _ _ F Hin) as (e' & He' & Hview).
    destruct (bkernel_seen s sl r u L e e' Hview) as (Hk & Hlen & Hc). unfold boundary_visit. cbn [fst snd]. rewrite Hk. 
    destruct (K2 e' (I _ He')) as ((k & ->) & _). cbn [obind]. rewrite rdiv_some; [eexists; reflexivity|]. unfold to_local. rewrite Hc. apply Rgt_not_eq, Ha, Hb, I, He'. }
  cbn [obind]. eexists; reflexivity.
Qed.
Print Assumptions C26_recorded_whenever_fluxes_defined.

(* after a reset the maximum is zero, with no location *)
Theorem C26_reset_is_zero : d_max reset = 0 /\ d_edge reset = (-1)%Z /\ d_cell reset = (-1)%Z.
Proof. repeat split. Qed.
Print Assumptions C26_reset_is_zero.

(** ** C26, libCEED back end *)

Lemma obind_nonneg {A B} (x : option A) (f : A -> option B) (g : B -> R) :
  (forall a b, x = Some a -> f a = Some b -> 0 <= g b) -> forall b, obind x f = Some b -> 0 <= g b.
Proof. intros H b E. destruct x as [a|]; [eapply H; [reflexivity|exact E]|discriminate]. Qed.
Lemma ceed_roe_speed g tiny ha qL qR sn cn dhv p : ceed_roe_flux g tiny ha qL qR sn cn dhv = Some p -> 0 <= snd p.
Proof.
  unfold ceed_roe_flux. intros E. apply obind_some in E. destruct E as (L & _ & E). apply obind_some in E. destruct E as (Rt & _ & E).
  apply obind_some in E. destruct E as (s & Es & E). injection E as <-. cbn [snd].
  unfold ceed_eigenspectrum in Es. revert s Es. repeat (apply obind_nonneg; intros ? ? ?). cbv zeta.
  repeat match goal with |- obind _ _ = Some _ -> _ => intros Eo; apply obind_some in Eo; destruct Eo as (? & ? & Eo); revert Eo end.
  intros Eo. injection Eo as <-. cbn [amax].
  match goal with H : rsqrt (1/2 * _ * _) = Some ?c |- 0 <= ?c + _ => unfold rsqrt in H; destruct (Rlt_dec _ _); [discriminate|]; injection H as <- end.
  apply Rplus_le_le_0_compat; [apply sqrt_pos|apply Rabs_pos].
Qed.
Lemma ceed_interior_speed g tiny ha qL qR sn cn dhv p : ceed_interior_edge g tiny ha qL qR sn cn dhv = Some p -> 0 <= snd p.
Proof. unfold ceed_interior_edge. destruct (_ || _)%bool; [apply ceed_roe_speed|]. intros E. injection E as <-. cbn. lra. Qed.
Lemma ceed_boundary_speed g tiny ha bc qL sn cn dhv p : ceed_boundary_edge g tiny ha bc qL sn cn dhv = Some p -> 0 <= snd p.
Proof.
  destruct bc as [q| |]; cbn [ceed_boundary_edge].
  - apply ceed_interior_speed.
  - destruct (_ <? _); [apply ceed_roe_speed|]. intros E; injection E as <-; cbn; lra.
  - cbv zeta. intros E. apply obind_some in E. destruct E as (x & _ & E). apply obind_some in E. destruct E as (hR & _ & E). apply obind_some in E. destruct E as (sp & _ & E).
    destruct (_ && _)%bool in E; [eapply ceed_roe_speed; exact E|]. injection E as <-; cbn; lra.
Qed.
(* the first-order scheme of this back end; with hydrostatic reconstruction the numbers of the internal edges
   are not recorded (C71_courant_hydrostatic_refuted) *)
Inductive ceed_back_end : scheme -> Prop :=
| Ceed_standard : forall tiny ha dhv dhvb fr g, ceed_back_end (ceed_scheme tiny ha dhv dhvb fr g).
Lemma ceed_speeds s u : ceed_back_end s ->
  (forall e fl fr a, s_interior s u e = Some (fl, fr, a) -> 0 <= a) /\ (forall e f a, s_boundary s u e = Some (f, a) -> 0 <= a).
Proof.
  destruct 1 as [tiny ha dhv dhvb frc g]; cbn [s_interior s_boundary ceed_scheme]; split.
  - intros e fl fr a E. unfold both in E. apply obind_some in E. destruct E as (p & Ep & E). injection E as _ _ <-. eapply ceed_interior_speed; exact Ep.
  - intros e f a E. apply ceed_boundary_speed in E. exact E.
Qed.

(* lengths of edges are not negative *)
Definition lengths_ok (m : mesh) : Prop := (forall e, In e (iedges m) -> 0 <= ie_len e) /\ (forall e, In e (bedges m) -> 0 <= be_len e).

Lemma larger_number a len al ar dt : 0 <= a -> 0 <= len -> 0 <= dt -> 0 < al -> 0 < ar ->
  Rmax (- a * (- len / al) * dt) (a * (len / ar) * dt) = a * len / Rmin al ar * dt /\ 0 <= a * len / Rmin al ar * dt.
Proof.
  intros Ha Hl Hd Pl Pr. replace (- a * (- len / al) * dt) with (a * len * dt * / al) by (field; lra).
  replace (a * (len / ar) * dt) with (a * len * dt * / ar) by (field; lra).
  assert (Hx : 0 <= a * len * dt) by (apply Rmult_le_pos; [apply Rmult_le_pos|]; assumption). 
  replace (a * len / Rmin al ar * dt) with (a * len * dt * / Rmin al ar) by (unfold Rdiv; ring).
  assert (Hm := min_positive al ar Pl Pr). split.
  - destruct (Rmin_cases al ar) as [(H & E)|(H & E)]; rewrite E.
    + rewrite Rmax_left; [reflexivity|]. apply Rmult_le_compat_l; [exact Hx|]. apply Rinv_le_contravar; assumption.
    + rewrite Rmax_right; [reflexivity|]. apply Rmult_le_compat_l; [exact Hx|]. apply Rinv_le_contravar; assumption.
  - apply Rmult_le_pos; [exact Hx|]. left. apply Rinv_0_lt_compat. exact Hm.
Qed.

Lemma fold_Rmax l : forall x, x <= fold_left Rmax l x /\ (forall y, In y l -> y <= fold_left Rmax l x) /\ (fold_left Rmax l x = x \/ In (fold_left Rmax l x) l).
Proof.
  induction l as [|a t IH]; intros x; cbn [fold_left].
  - split; [lra|]. split; [intros y []|auto].
  - destruct (IH (Rmax x a)) as (A & B & C). assert (H1 := Rmax_l x a). assert (H2 := Rmax_r x a). split; [lra|].
    split; [intros y [<-|Hy]; [lra|apply B; exact Hy]|]. destruct C as [C|C]; [|right; right; exact C].
    rewrite C. destruct (Rmax_cases x a) as [(_ & E)|(_ & E)]; rewrite E; [right; left; reflexivity|left; reflexivity].
Qed.

(* the values written by the processes *)
Definition written_by (rs : list (rank * scheme)) (m : mesh) (dti dt : R) (u : nat -> vec3) : option (list (list R)) :=
  omap (fun q => ceed_written (snd q) (fst q) (area m) dti dt u) rs.

Lemma written_sound s m rs dt u ws :
  positive_areas m -> well_formed m -> boundary_in m (bedges m) -> lengths_ok m -> 0 <= dt -> ceed_back_end s ->
  (forall r sl, In (r, sl) rs -> local_scheme (rk_gid r) s sl) -> edges_owned_once m rs ->
  written_by rs m dt dt u = Some ws ->
  (forall w x, In w ws -> In x w -> x = 0 \/ edge_number s m dt u x \/ exists y, x <= y /\ edge_number s m dt u y) /\
  (forall c, edge_number s m dt u c -> exists w, In w ws /\ In c w).
Proof.
  intros Ha (_ & Hi) Hb (Hli & Hlb) Hd Hs Hr ((gess & FI & PI) & (gbss & FB & PB)) E.
  destruct (ceed_speeds s u Hs) as (Si & Sb). unfold written_by in E. apply omap_in in E. destruct E as (I1 & I2). 
  assert (MI : forall e, In e (concat gess) <-> In e (iedges m)) by (intros e; split; apply Permutation_in; [|apply Permutation_sym]; exact PI).
  assert (MB : forall e, In e (concat gbss) <-> In e (bedges m)) by (intros e; split; apply Permutation_in; [|apply Permutation_sym]; exact PB).
  assert (One : forall r sl e e', In (r, sl) rs -> (exists flip, eview (rk_gid r) flip e e') -> In e' (iedges m) -> forall x y,
     ceed_interior_numbers sl dt (to_local r (area m)) (to_local r u) e = Some (x, y) ->
     exists fl fr a, s_interior s u e' = Some (fl, fr, a) /\ Rmax x y = a * ie_len e' / Rmin (area m (ie_l e')) (area m (ie_r e')) * dt).
  { intros r sl e e' Hq Hv He x y Ex. specialize (Hr r sl Hq). apply local_scheme_view in Hr.
    destruct (kernel_seen s sl r u Hr e e' Hv) as (Hlen & _ & Hk & Hc). unfold ceed_interior_numbers in Ex.
    apply obind_some in Ex. destruct Ex as (k & Ek & Ex). apply obind_some in Ex. destruct Ex as (gl & Egl & Ex). apply obind_some in Ex. destruct Ex as (gr & Egr & Ex). injection Ex as <- <-.
    destruct (Hk k Ek) as ([[fl fr] a] & Ek' & Eka). cbn [snd] in Eka. exists fl, fr, a. split; [exact Ek'|].
    apply rdiv_inv in Egl. destruct Egl as (_ & ->). apply rdiv_inv in Egr. destruct Egr as (_ & ->). rewrite <- Eka, Hlen. unfold to_local.
    destruct (Hi e' He) as (C1 & C2). apply Ha in C1. apply Ha in C2. assert (A0 := Si _ _ _ _ Ek').
    destruct Hc as [(-> & ->)|(-> & ->)].
    - apply larger_number; try assumption. apply Hli; exact He.
    - rewrite (Rmin_comm (area m (ie_l e'))). apply larger_number; try assumption. apply Hli; exact He. }
  assert (OneB : forall r sl e e', In (r, sl) rs -> bview (rk_gid r) e e' -> In e' (bedges m) -> forall x,
     ceed_boundary_number sl dt (to_local r (area m)) (to_local r u) e = Some x ->
     exists f a, s_boundary s u e' = Some (f, a) /\ x = a * be_len e' / area m (be_c e') * dt).
  { intros r sl e e' Hq Hv He x Ex. specialize (Hr r sl Hq). apply local_scheme_view in Hr.
    destruct (bkernel_seen s sl r u Hr e e' Hv) as (Hk & Hlen & Hc). unfold ceed_boundary_number in Ex. rewrite Hk in Ex.
    apply obind_some in Ex. destruct Ex as ([f a] & Ek & Ex). apply obind_some in Ex. destruct Ex as (gl & Egl & Ex). injection Ex as <-.
    exists f, a. split; [exact Ek|]. apply rdiv_inv in Egl. destruct Egl as (_ & ->). cbn [snd]. unfold to_local. rewrite Hlen, Hc.
    assert (0 < area m (be_c e')) by (apply Ha, Hb, He). field. lra. }
  split.
  - intros w x Hw Hx. destruct (I1 w Hw) as ([r sl] & Hq & Ew). cbn [fst snd] in Ew. unfold ceed_written in Ew.
    apply obind_some in Ew. destruct Ew as (ni & Eni & Ew). apply obind_some in Ew. destruct Ew as (nb & Enb & Ew). injection Ew as <-.
    apply in_app_or in Hx. destruct Hx as [Hx|Hx].
    + apply in_concat in Hx. destruct Hx as (l & Hl & Hx). apply in_map_iff in Hl. destruct Hl as ([x1 x2] & <- & Hp).
      apply omap_in in Eni. destruct (proj1 Eni _ Hp) as (e & He & Ee).
      destruct (Forall2_in_l _ _ _ _ FI Hq) as (ges & Hges & Hown). cbn [fst] in Hown.
      destruct (Forall2_in_l _ _ _ _ Hown He) as (e' & He' & Hv). 
      assert (Hm : In e' (iedges m)) by (apply MI, in_concat; eauto).
      destruct (One r sl e e' Hq Hv Hm x1 x2 Ee) as (fl & fr & a & Ek & Emax). right. right. eexists. split; [|econstructor; [exact Hm|exact Ek]].
      rewrite <- Emax. cbn [fst snd] in Hx. destruct Hx as [<-|[<-|[]]]; [apply Rmax_l|apply Rmax_r].
    + apply omap_in in Enb. destruct (proj1 Enb _ Hx) as (e & He & Ee).
      destruct (Forall2_in_l _ _ _ _ FB Hq) as (gbs & Hgbs & Hown). cbn [fst] in Hown.
      destruct (Forall2_in_l _ _ _ _ Hown He) as (e' & He' & Hv). 
      assert (Hm : In e' (bedges m)) by (apply MB, in_concat; eauto).
      destruct (OneB r sl e e' Hq Hv Hm x Ee) as (f & a & Ek & ->). right. left. econstructor; [exact Hm|exact Ek].
  - intros c Hc. destruct Hc as [e' fl fr a He Ek|e' f a He Ek].
    + apply MI, in_concat in He. destruct He as (ges & Hges & Hin).
      destruct (Forall2_in_r _ _ _ _ FI Hges) as ([r sl] & Hq & Hown). cbn [fst] in Hown.
      destruct (Forall2_in_r _ _ _ _ Hown Hin) as (e & He & Hv). destruct (I2 _ Hq) as (w & Hw & Ew). exists w. split; [exact Hw|].
      cbn [fst snd] in Ew. unfold ceed_written in Ew. apply obind_some in Ew. destruct Ew as (ni & Eni & Ew). apply obind_some in Ew. destruct Ew as (nb & Enb & Ew). injection Ew as <-.
      apply omap_in in Eni. destruct (proj2 Eni _ He) as ([x1 x2] & Hp & Ee).
      assert (Hm : In e' (iedges m)) by (apply MI, in_concat; eauto).
      destruct (One r sl e e' Hq Hv Hm x1 x2 Ee) as (fl' & fr' & a' & Ek' & Emax). rewrite Ek in Ek'. injection Ek' as <- <- <-. rewrite <- Emax.
      apply in_or_app. left. apply in_concat. exists [x1; x2]. split; [apply in_map_iff; exists (x1, x2); auto|].
      destruct (Rmax_cases x1 x2) as [(_ & ->)|(_ & ->)]; cbn; auto.
    + apply MB, in_concat in He. destruct He as (gbs & Hgbs & Hin).
      destruct (Forall2_in_r _ _ _ _ FB Hgbs) as ([r sl] & Hq & Hown). cbn [fst] in Hown.
      destruct (Forall2_in_r _ _ _ _ Hown Hin) as (e & He & Hv). destruct (I2 _ Hq) as (w & Hw & Ew). exists w. split; [exact Hw|].
      cbn [fst snd] in Ew. unfold ceed_written in Ew. apply obind_some in Ew. destruct Ew as (ni & Eni & Ew). apply obind_some in Ew. destruct Ew as (nb & Enb & Ew). injection Ew as <-.
      apply omap_in in Enb. destruct (proj2 Enb _ He) as (x & Hp & Ee).
      assert (Hm : In e' (bedges m)) by (apply MB, in_concat; eauto).
      destruct (OneB r sl e e' Hq Hv Hm x Ee) as (f' & a' & Ek' & Ex). rewrite Ek in Ek'. injection Ek' as <- <-. rewrite <- Ex. apply in_or_app. right. exact Hp.
Qed.

Lemma stored_overwrite n hist w : stored Overwrite n (hist ++ [w]) = w.
Proof. unfold stored. rewrite fold_left_app. reflexivity. Qed.

(* First order, if libCEED overwrites its passive outputs: after any earlier applications [hist], the
   reported maximum is the greatest Courant number of the latest state, for every distribution and
   every reduction order.  Missing for the full property: second order and the other libCEED behaviour
   (both refuted below), and hydrostatic reconstruction (refuted in C71). *)
Theorem C26_ceed_first_order_partial :
  forall s m rs dt u ws hists n t,
    positive_areas m -> well_formed m -> boundary_in m (bedges m) -> lengths_ok m -> 0 <= dt -> ceed_back_end s ->
    decomposes s m rs -> edges_owned_once m rs ->
    written_by rs m dt dt u = Some ws ->
    length hists = length ws ->
    Permutation (leaves t) (map (fun hw => ceed_rank_diag (stored Overwrite n (fst hw ++ [snd hw]))) (combine hists ws)) ->
    greatest (edge_number s m dt u) (d_max (reduce t)).
Proof.
  intros s m rs dt u ws hists n t Ha Hw Hb Hl Hd Hs (Hr & _) Ho E Hlen P.
  destruct (written_sound s m rs dt u ws Ha Hw Hb Hl Hd Hs (fun r sl H => proj1 (Hr r sl H)) Ho E) as (S1 & S2).
  destruct (reduce_spec t) as (Rin & Rmx).
  assert (Hmem : forall d, In d (leaves t) <-> In d (map (fun hw => ceed_rank_diag (stored Overwrite n (fst hw ++ [snd hw]))) (combine hists ws)))
    by (intros d; split; apply Permutation_in; [|apply Permutation_sym]; exact P).
  assert (Hleaf : forall w, In w ws -> In (ceed_rank_diag w) (leaves t)).
  { intros w Hin. apply Hmem. destruct (in_combine_ex hists ws w Hlen Hin) as (h & Hh). apply in_map_iff. exists (h, w). split; [|exact Hh]. cbn [fst snd]. rewrite stored_overwrite. reflexivity. }
  apply Hmem in Rin. apply in_map_iff in Rin. destruct Rin as ([h w] & Er & Hin). cbn [fst snd] in Er. rewrite stored_overwrite in Er. apply in_combine_r in Hin.
  assert (Hbound : forall c, edge_number s m dt u c -> c <= d_max (reduce t)).
  { intros c Hc. destruct (S2 c Hc) as (w' & Hw' & Hc'). eapply Rle_trans; [|apply Rmx, Hleaf; exact Hw']. cbn [ceed_rank_diag d_max]. apply fold_Rmax. exact Hc'. }
  destruct (fold_Rmax w 0) as (F0 & F1 & F2).
  split; [rewrite <- Er; exact F0|]. split; [exact Hbound|].
  assert (Ed : d_max (reduce t) = fold_left Rmax w 0) by (rewrite <- Er; reflexivity).
  destruct F2 as [F2|F2]; [left; rewrite Ed; exact F2|].
  destruct (S1 w _ Hin F2) as [Z|[Z|(y & Hy & Ny)]].
  - left. rewrite Ed. exact Z.
  - right. rewrite Ed. exact Z.
  - right. rewrite Ed. replace (fold_left Rmax w 0) with y; [exact Ny|]. apply Rle_antisym; [|exact Hy]. rewrite <- Ed. apply Hbound, Ny.
Qed.
Print Assumptions C26_ceed_first_order_partial.

(* After any sequence of applications, the latest time step is in the contexts of the composite flux and
   of the source operator, and the context of the second-order interior operator still holds 0. *)
Theorem C26_latest_time_step_in_contexts :
  forall dts dt,
    let c := fold_left push_dt (dts ++ [dt]) contexts_created in
    cx_flux c = dt /\ cx_source c = dt /\ cx_muscl c = 0.
Proof.
  intros dts dt. cbv zeta. rewrite fold_left_app. cbn [fold_left].
  assert (Inv : forall l c, cx_flux c = cx_op c -> cx_source c = cx_op c -> cx_muscl c = 0 ->
     let c' := fold_left push_dt l c in cx_flux c' = cx_op c' /\ cx_source c' = cx_op c' /\ cx_muscl c' = 0).
  { induction l as [|x l IH]; intros c A B C; cbn [fold_left]; [auto|]. apply IH; unfold push_dt; destruct (Req_EM_T (cx_op c) x); auto. }
  destruct (Inv dts contexts_created eq_refl eq_refl eq_refl) as (A & B & C).
  set (c := fold_left push_dt dts contexts_created) in *. clearbody c.
  unfold push_dt. destruct (Req_EM_T (cx_op c) dt) as [e|]; [|auto]. split; [congruence|split; [congruence|exact C]].
Qed.
Print Assumptions C26_latest_time_step_in_contexts.

(** *** Where the libCEED back end misses the maximum *)
(* a stretch of a channel: two cells and the edge between them, the rest of the boundary closed off *)
Lemma uniform_ceed_number : exists a, 0 < a /\
  forall e, ie_sn e = 0 -> ie_cn e = 1 -> s_interior flat_ceed (fun _ => V3 1 1 0) e = Some (side_flux GRAVITY (Prim 1 1 0) 0 1, side_flux GRAVITY (Prim 1 1 0) 0 1, a).
Proof.
  exists (chat GRAVITY (Prim 1 1 0) (Prim 1 1 0) + Rabs (uperp (Prim 1 1 0) (Prim 1 1 0) 0 1)). split.
  - assert (0 < chat GRAVITY (Prim 1 1 0) (Prim 1 1 0)) by (apply chat_pos; [apply GRAVITY_pos|unfold wetpair; cbn; lra]).
    assert (H' := Rabs_pos (uperp (Prim 1 1 0) (Prim 1 1 0) 0 1)). lra.
  - intros e E1 E2. cbn [s_interior flat_ceed ceed_scheme]. rewrite E1, E2.
    rewrite ceed_interior_edge_some by (try apply GRAVITY_pos; cbn; lra). cbn [c0].
    assert (G : Rltb (1/1000) 1 = true) by (apply Rltb_true; lra). rewrite G. cbn [orb both obind fst snd].
    assert (C : cvel (1/1000) 0 (V3 1 1 0) = Prim 1 1 0).
    { unfold cvel; cbn [c0 c1 c2]. rewrite ?G. f_equal; field. }
    rewrite C, cflux_0, pflux_consistent; [reflexivity|apply GRAVITY_pos|cbn; lra].
Qed.
Lemma num_one a : a * 1 / Rmin 1 1 * 1 = a.
Proof. rewrite (Rmin_left 1 1) by lra. field. Qed.
(* one process with the whole mesh *)
Definition whole (m : mesh) : rank := Rank (cells m) (fun l => l) everything (iedges m) (fun _ => true) (bedges m) (fun _ => true).

Definition two_cells_geometry : geometry := Geometry (fun c => Pt (INR c) 0) (fun _ => Pt (1/2) 0).
Definition second_order : scheme :=
  ceed_2r_scheme LimMinmod two_cells_geometry (iedges two_cells) (1/1000) 0 (fun _ _ => 0) (fun _ _ => 0) NoFriction flat.
Lemma minmod_0 x y : y = 0 -> Minmod x y = 0.
Proof. intros ->. unfold Minmod. rewrite Rmult_0_r. destruct (0 <=? 0) eqn:E; [reflexivity|]. apply Rleb_false in E. lra. Qed.
Lemma second_order_uniform e : s_interior second_order (fun _ => V3 1 1 0) e = s_interior flat_ceed (fun _ => V3 1 1 0) e.
Proof.
  cbn [s_interior second_order ceed_2r_scheme flat_ceed ceed_scheme]. unfold face_states, face_left, face_right, LimitSlope. cbn [fst snd comp c0 c1 c2].
  rewrite !minmod_0 by ring. rewrite !Rplus_0_r, !(Rmax_right 0 1) by lra. reflexivity.
Qed.

Theorem C26_ceed_second_order_refuted :
  exists s m u dts dt ws t,
    positive_areas m /\ well_formed m /\ 0 < dt /\
    (let c := fold_left push_dt (dts ++ [dt]) contexts_created in
     written_by [(whole m, s)] m (cx_muscl c) (cx_flux c) u = Some ws) /\
    leaves t = map (fun w => ceed_rank_diag (stored Overwrite (length w) [w])) ws /\
    (exists x, 0 < x /\ edge_number s m dt u x) /\
    d_max (reduce t) = 0.
Proof.
  destruct uniform_ceed_number as (a & Ha & Hk).
  exists second_order, two_cells, (fun _ => V3 1 1 0), [], 1, [[- a * (- (1) / 1) * 0; a * (1 / 1) * 0]],
    (Leaf (ceed_rank_diag [- a * (- (1) / 1) * 0; a * (1 / 1) * 0])).
  split; [intros c _; cbn; lra|]. split; [split; [repeat constructor; simpl; intuition discriminate|intros e [<-|[]]; cbn; auto]|].
  split; [lra|]. split.
  - cbv zeta. destruct (C26_latest_time_step_in_contexts [] 1) as (-> & _ & ->).
    unfold written_by. cbn [omap fst snd]. unfold ceed_written. cbn [whole rk_iowned rk_iedges two_cells iedges filter rk_bedges bedges omap].
    unfold ceed_interior_numbers at 1. change (to_local _ (fun _ : nat => V3 1 1 0)) with (fun _ : nat => V3 1 1 0). rewrite second_order_uniform, Hk by reflexivity. cbn [obind snd ie_len].
    unfold to_local. cbn [area two_cells]. rewrite !rdiv_some by lra. reflexivity.
  - split; [reflexivity|]. split.
    + exists (a * 1 / Rmin 1 1 * 1). split; [rewrite num_one; lra|].
      apply (Number_interior second_order two_cells 1 (fun _ => V3 1 1 0) (IEdge 0 1 1 0 1) (side_flux GRAVITY (Prim 1 1 0) 0 1) (side_flux GRAVITY (Prim 1 1 0) 0 1) a).
      * left; reflexivity.
      * rewrite second_order_uniform. apply Hk; reflexivity.
    + cbn [reduce ceed_rank_diag d_max fold_left reset]. rewrite !Rmult_0_r, !(Rmax_left 0 0) by lra. reflexivity.
Qed.
Print Assumptions C26_ceed_second_order_refuted.

(* If libCEED adds into passive outputs, the numbers of all earlier applications pile up: after two
   applications to the same state the report is twice the true maximum. *)
Theorem C26_accumulating_outputs_refuted :
  exists s m u dt ws t x,
    positive_areas m /\ well_formed m /\ 0 < dt /\ ceed_back_end s /\
    written_by [(whole m, s)] m dt dt u = Some ws /\
    leaves t = map (fun w => ceed_rank_diag (stored AddInto (length w) [w; w])) ws /\
    greatest (edge_number s m dt u) x /\ 0 < x /\ d_max (reduce t) = 2 * x.
Proof.
  destruct uniform_ceed_number as (a & Ha & Hk).
  set (w := [- a * (- (1) / 1) * 1; a * (1 / 1) * 1]).
  exists flat_ceed, two_cells, (fun _ => V3 1 1 0), 1, [w], (Leaf (ceed_rank_diag (stored AddInto (length w) [w; w]))), (a * 1 / Rmin 1 1 * 1).
  assert (Hg : a * 1 / Rmin 1 1 * 1 = a) by (rewrite num_one; lra).
  split; [intros c _; cbn; lra|]. split; [split; [repeat constructor; simpl; intuition discriminate|intros e [<-|[]]; cbn; auto]|].
  split; [lra|]. split; [constructor|]. split.
  - unfold written_by. cbn [omap fst snd]. unfold ceed_written. cbn [whole rk_iowned rk_iedges two_cells iedges filter rk_bedges bedges omap].
    unfold ceed_interior_numbers at 1. change (to_local _ (fun _ : nat => V3 1 1 0)) with (fun _ : nat => V3 1 1 0). rewrite Hk by reflexivity. cbn [obind snd ie_len].
    unfold to_local. cbn [area two_cells]. rewrite !rdiv_some by lra. reflexivity.
  - split; [reflexivity|]. split; [|split; [lra|]].
    + split; [lra|]. split.
      * intros c Hc. destruct Hc as [e fl fr a' He Ek|e f a' He Ek]; [|destruct He].
        destruct He as [<-|[]]. rewrite Hk in Ek by reflexivity. injection Ek as _ _ <-. cbn [ie_len area two_cells]. apply Rle_refl.
      * right. apply (Number_interior flat_ceed two_cells 1 (fun _ => V3 1 1 0) (IEdge 0 1 1 0 1) (side_flux GRAVITY (Prim 1 1 0) 0 1) (side_flux GRAVITY (Prim 1 1 0) 0 1) a);
        [left; reflexivity|apply Hk; reflexivity].
    + rewrite Hg. cbn [reduce ceed_rank_diag d_max stored store fold_left repeat length w combine map fst snd reset].
      replace (0 + - a * (- (1) / 1) * 1 + - a * (- (1) / 1) * 1) with (2 * a) by field. replace (0 + a * (1 / 1) * 1 + a * (1 / 1) * 1) with (2 * a) by field.
      rewrite (Rmax_right 0 (2 * a)) by lra. apply Rmax_left. lra.
Qed.
Print Assumptions C26_accumulating_outputs_refuted.

(** *** A case that meets the hypotheses: two cells on two processes (DecompProperties.row) *)
Example C26_example : exists ds, 
  well_formed two_cells /\ boundary_in two_cells (bedges two_cells) /\ positive_areas two_cells /\
  decomposes flat_petsc two_cells (row flat_petsc) /\
  diags_of (map (fun q => (q, ([-1]%Z, []))) (row flat_petsc)) two_cells 1 dam_break = Some ds.
Proof.
  assert (W : well_formed two_cells) by (split; [repeat constructor; simpl; intuition discriminate|intros e [<-|[]]; cbn; auto]).
  assert (B : boundary_in two_cells (bedges two_cells)) by (intros e []).
  assert (Pa : positive_areas two_cells) by (intros c _; cbn; lra).
  assert (L : forall gid, local_scheme gid flat_petsc flat_petsc) by (intros gid; apply (Local_petsc gid (1/1000) 0 SemiImplicit flat); lra).
  destruct (row_decomposes flat_petsc (L _) (L _)) as (D & _ & _).
  destruct (petsc_rhs_exists (1/1000) 0 flat two_cells (1/100) (fun _ => vzero) dam_break) as (f & E).
  - lra. - lra.
  - destruct W as (W1 & W2). split; [exact W1|]. split; [exact W2|]. intros e [].
  - intros; cbn; lra.
  - intros c _. unfold dam_break. destruct (Nat.eqb c 0); cbn; lra.
  - intros e [].
  - unfold rhs_domain in E. apply obind_some in E. destruct E as (f1 & E1 & _).
    destruct (C26_recorded_whenever_fluxes_defined flat_petsc two_cells (map (fun q => (q, ([-1]%Z, []))) (row flat_petsc)) 1 dam_break f1 Pa W B) as (ds & Eds).
    + rewrite map_map. cbn [fst]. rewrite map_id. exact D.
    + exact E1.
    + exists ds. auto.
Qed.

(** ** C27 Where the maximum is attained *)

(* PETSc back end: for every distribution and reduction order, if the maximum is positive, the reported
   cell is the smaller cell of an edge of the whole mesh attaining the maximum (or the cell of such a
   boundary edge); and the reported edge id is the one a process recorded for that edge. *)
Definition located (s : scheme) (m : mesh) (dt : R) (u : nat -> vec3) (d : diag) (edge_of : iedge -> Prop) (bedge_of : bedge -> Prop) : Prop :=
  (exists e fl fr a c, edge_of e /\ In e (iedges m) /\ s_interior s u e = Some (fl, fr, a) /\
     d_max d = a * ie_len e / Rmin (area m (ie_l e)) (area m (ie_r e)) * dt /\ d_cell d = Z.of_nat c /\ smaller_cell m e c) \/
  (exists e f a, bedge_of e /\ In e (bedges m) /\ s_boundary s u e = Some (f, a) /\
     d_max d = a * be_len e / area m (be_c e) * dt /\ d_cell d = Z.of_nat (be_c e)).

Theorem C27_cell_of_the_maximum :
  forall s m rs dt u ds t,
    decomposes s m (map fst rs) -> diags_of rs m dt u = Some ds -> Permutation (leaves t) ds ->
    0 < d_max (reduce t) ->
    located s m dt u (reduce t) (fun _ => True) (fun _ => True).
Proof.
  intros s m rs dt u ds t (Hr & _) E P Hpos. destruct (reduce_spec t) as (Rin & _).
  apply (Permutation_in _ P) in Rin. unfold diags_of in E. apply omap_in in E. destruct (proj1 E _ Rin) as ([[r sl] [ii bb]] & Hq & Eq).
  cbn [fst snd] in Eq. unfold rank_diag in Eq. apply obind_some in Eq. destruct Eq as (vs & Ev & Eq). injection Eq as Eq.
  destruct (note_spec vs reset) as (_ & _ & [C|(v & Hv & C)]); rewrite <- Eq, C in *; [cbn in Hpos; lra|]. 
  destruct (Hr r sl) as (L & N & O); [apply in_map_iff; exists ((r, sl), (ii, bb)); auto|]. apply local_scheme_view in L.
  unfold rank_visits in Ev. apply obind_some in Ev. destruct Ev as (vi & Ei & Ev). apply obind_some in Ev. destruct Ev as (vb & Eb & Ev). injection Ev as <-.
  apply in_app_or in Hv. destruct Hv as [Hv|Hv].
  - apply omap_in in Ei. destruct (proj1 Ei v Hv) as ([id e] & Hin & Ee). apply in_combine_r in Hin.
    destruct (ov_iedges m r O) as (ges & F & I & _). destruct (Forall2_in_l _ _ _ _ F Hin) as (e' & He' & Hview).
    destruct (interior_visit_seen s sl r m dt u L e e' id v Hview Ee) as (_ & fl & fr & a & c & Ek & En & Ec & Es).
    left. exists e', fl, fr, a, c. repeat split; auto.
  - apply omap_in in Eb. destruct (proj1 Eb v Hv) as ([id e] & Hin & Ee). apply filter_In in Hin. destruct Hin as (Hin & _). apply in_combine_r in Hin.
    destruct (ov_bedges m r O) as (gbs & F & I & _). destruct (Forall2_in_l _ _ _ _ F Hin) as (e' & He' & Hview).
    destruct (boundary_visit_seen s sl r m dt u L e e' id v Hview Ee) as (_ & f & a & Ek & En & Ec).
    right. exists e', f, a. repeat split; auto.
Qed.
Print Assumptions C27_cell_of_the_maximum.

(* One process.  [lids], [blids] are the local ids of the internal and of the boundary edges, in the order
   of the lists; the flow operator's record names an edge by its id. *)
Theorem C27_single_process :
  forall s m lids blids dt u d,
    length lids = length (iedges m) -> length blids = length (bedges m) ->
    rank_diag s (whole m) (petsc_ids 1 lids) (petsc_ids 1 blids) (area m) dt u = Some d ->
    0 < d_max d ->
    located s m dt u d
      (fun e => exists k, nth_error (iedges m) k = Some e /\ nth_error (map Z.of_nat lids) k = Some (d_edge d))
      (fun e => exists k, nth_error (bedges m) k = Some e /\ nth_error (map Z.of_nat blids) k = Some (d_edge d)).
Proof.
  intros s m lids blids dt u d L1 L2 E Hpos. unfold rank_diag in E. apply obind_some in E. destruct E as (vs & Ev & E). injection E as <-.
  destruct (note_spec vs reset) as (_ & _ & [C|(v & Hv & C)]); rewrite C in *; [cbn in Hpos; lra|]. cbn [d_max d_edge d_cell] in *.
  assert (Comb : forall {A} (l : list A) ids x, In x (combine (petsc_ids 1 ids) l) -> exists k, nth_error l k = Some (snd x) /\ nth_error (map Z.of_nat ids) k = Some (fst x)).
  { intros A l ids x Hx. apply In_nth_error in Hx. destruct Hx as (k & Hk). exists k. revert l ids Hk. induction k as [|k IH]; intros [|a l] [|i ids]; cbn; try discriminate.
    - intros H. injection H as <-. auto.
    - apply IH. }
  unfold rank_visits in Ev. apply obind_some in Ev. destruct Ev as (vi & Ei & Ev). apply obind_some in Ev. destruct Ev as (vb & Eb & Ev). injection Ev as <-.
  apply in_app_or in Hv. destruct Hv as [Hv|Hv].
  - apply omap_in in Ei. destruct (proj1 Ei v Hv) as ([id e] & Hin & Ee). cbn [whole rk_iedges] in Hin.
    assert (K := Comb _ _ _ _ Hin). cbn [fst snd] in K. apply in_combine_r in Hin.
    unfold interior_visit in Ee. cbn [fst snd] in Ee. apply obind_some in Ee. destruct Ee as ([[fl fr] a] & Ek & Ee). apply obind_some in Ee. destruct Ee as (q & Eq & Ee). injection Ee as <-.
    cbn [v_num v_edge v_cell snd] in *. apply rdiv_inv in Eq. destruct Eq as (_ & ->). 
    left. exists e, fl, fr, a. eexists. split; [exact K|]. split; [exact Hin|]. split; [exact Ek|]. split; [reflexivity|]. split; [reflexivity|].
    unfold smaller_cell, to_local. cbn [whole rk_gid]. destruct (_ <? _) eqn:Lt; [apply Rltb_true in Lt; left|apply Rltb_false in Lt; right]; (split; [reflexivity|unfold to_local in Lt; cbn [whole rk_gid] in Lt; lra]).
  - apply omap_in in Eb. destruct (proj1 Eb v Hv) as ([id e] & Hin & Ee). apply filter_In in Hin. destruct Hin as (Hin & _). cbn [whole rk_bedges] in Hin.
    assert (K := Comb _ _ _ _ Hin). cbn [fst snd] in K. apply in_combine_r in Hin.
    unfold boundary_visit in Ee. cbn [fst snd] in Ee. apply obind_some in Ee. destruct Ee as ([f a] & Ek & Ee). apply obind_some in Ee. destruct Ee as (q & Eq & Ee). injection Ee as <-.
    cbn [v_num v_edge v_cell snd] in *. apply rdiv_inv in Eq. destruct Eq as (_ & ->). 
    right. exists e, f, a. split; [exact K|]. split; [exact Hin|]. split; [exact Ek|]. split; reflexivity.
Qed.
Print Assumptions C27_single_process.

(* In parallel the edge is never named: whatever the local ids, the recorded edge id is -1. *)
Theorem C27_parallel_edge_id_lost :
  forall nproc sl r lids blids area dt u d, (2 <= nproc)%nat ->
    rank_diag sl r (petsc_ids nproc lids) (petsc_ids nproc blids) area dt u = Some d -> d_edge d = (-1)%Z.
Proof.
  intros nproc sl r lids blids ar dt u d Hn E. unfold rank_diag in E. apply obind_some in E. destruct E as (vs & Ev & E). injection E as <-.
  destruct (note_spec vs reset) as (_ & _ & [C|(v & Hv & C)]); rewrite C; [reflexivity|]. cbn [d_edge].
  assert (Id : forall {A} (l : list A) ids x, In x (combine (petsc_ids nproc ids) l) -> fst x = (-1)%Z).
  { intros A l ids [z x] Hx. apply in_combine_l in Hx. unfold petsc_ids in Hx. apply in_map_iff in Hx. destruct Hx as (i & <- & _).
    unfold edge_global_id. destruct (Nat.eqb_spec nproc 1); [lia|reflexivity]. }
  unfold rank_visits in Ev. apply obind_some in Ev. destruct Ev as (vi & Ei & Ev). apply obind_some in Ev. destruct Ev as (vb & Eb & Ev). injection Ev as <-.
  apply in_app_or in Hv. destruct Hv as [Hv|Hv].
  - apply omap_in in Ei. destruct (proj1 Ei v Hv) as (x & Hin & Ee). apply Id in Hin. unfold interior_visit in Ee. apply obind_some in Ee. destruct Ee as (k & _ & Ee). apply obind_some in Ee. destruct Ee as (q & _ & Ee). injection Ee as <-. exact Hin.
  - apply omap_in in Eb. destruct (proj1 Eb v Hv) as (x & Hin & Ee). apply filter_In in Hin. destruct Hin as (Hin & _). apply Id in Hin. unfold boundary_visit in Ee. apply obind_some in Ee. destruct Ee as (k & _ & Ee). apply obind_some in Ee. destruct Ee as (q & _ & Ee). injection Ee as <-. exact Hin.
Qed.
Print Assumptions C27_parallel_edge_id_lost.

(* The libCEED back end names neither the edge nor the cell, whatever the numbers are. *)
Theorem C27_ceed_location_lost :
  forall t, (forall d, In d (leaves t) -> exists l, d = ceed_rank_diag l) -> d_edge (reduce t) = (-1)%Z /\ d_cell (reduce t) = (-1)%Z.
Proof.
  intros t H. destruct (reduce_spec t) as (Rin & _). destruct (H _ Rin) as (l & ->). split; reflexivity.
Qed.
Print Assumptions C27_ceed_location_lost.

(* The tracer operators record global_ids[e] with [e] the position in the list of internal edges, not
   the edge id: with boundary edge 0 and internal edge 1 they name the boundary edge. *)
Definition channel_end : mesh := Mesh [0%nat; 1%nat] (fun _ => 1) [IEdge 0 1 1 0 1] [BEdge 0 1 0 (-1) BCReflecting].
Lemma petsc_uniform_number : exists a, 0 < a /\
  forall e, ie_sn e = 0 -> ie_cn e = 1 -> s_interior flat_petsc (fun _ => V3 1 1 0) e = Some (side_flux GRAVITY (Prim 1 1 0) 0 1, side_flux GRAVITY (Prim 1 1 0) 0 1, a).
Proof.
  exists (chat GRAVITY (Prim 1 1 0) (Prim 1 1 0) + Rabs (uperp (Prim 1 1 0) (Prim 1 1 0) 0 1)). split.
  - assert (0 < chat GRAVITY (Prim 1 1 0) (Prim 1 1 0)) by (apply chat_pos; [apply GRAVITY_pos|unfold wetpair; cbn; lra]).
    assert (H' := Rabs_pos (uperp (Prim 1 1 0) (Prim 1 1 0) 0 1)). lra.
  - intros e E1 E2. cbn [s_interior flat_petsc petsc_scheme]. rewrite E1, E2.
    rewrite petsc_interior_edge_some by (cbn; lra). cbn [c0].
    assert (G : Rltb 1 (1/1000) = false) by (apply Rltb_false; lra). rewrite G. cbn [andb both obind fst snd].
    assert (C : pvel (1/1000) 0 (V3 1 1 0) = Prim 1 1 0).
    { unfold pvel; cbn [c0 c1 c2]. rewrite ?G. f_equal; field. }
    rewrite C, pflux_consistent; [reflexivity|apply GRAVITY_pos|cbn; lra].
Qed.
Theorem C27_tracer_edge_id_refuted :
  exists m lids dt u d,
    lids = [1%nat] /\ length lids = length (iedges m) /\
    rank_diag flat_petsc (whole m) (tracer_ids 1 lids) [] (area m) dt u = Some d /\
    0 < d_max d /\ d_edge d = 0%Z /\ ~ In (d_edge d) (map Z.of_nat lids).
Proof.
  destruct petsc_uniform_number as (a & Ha & Hk).
  exists channel_end, [1%nat], 1, (fun _ => V3 1 1 0), (Diag (a * 1 / Rmin 1 1 * 1) 0 1).
  split; [reflexivity|]. split; [reflexivity|]. split.
  - unfold rank_diag, rank_visits. cbn [whole rk_iedges channel_end iedges bedges rk_bedges tracer_ids length seq map combine omap].
    unfold interior_visit at 1. cbn [fst snd]. change (to_local _ (fun _ : nat => V3 1 1 0)) with (fun _ : nat => V3 1 1 0). rewrite Hk by reflexivity. cbn [obind snd ie_len ie_l ie_r].
    unfold to_local. cbn [area channel_end]. rewrite rdiv_some by (rewrite (Rmin_left 1 1) by lra; lra). cbn [obind filter omap app fold_left]. unfold note. cbn [d_max v_num reset v_edge v_cell].
    assert (P : Rltb 0 (a * 1 / Rmin 1 1 * 1) = true) by (apply Rltb_true; rewrite num_one; lra). rewrite P.
    assert (N : Rltb 1 1 = false) by (apply Rltb_false; lra). rewrite N. reflexivity.
  - cbn [d_max d_edge]. split; [rewrite num_one; lra|]. split; [reflexivity|]. intros [H|[]]. discriminate.
Qed.
Print Assumptions C27_tracer_edge_id_refuted.

Example C27_example : exists d, rank_diag flat_petsc (whole channel_end) (petsc_ids 1 [1%nat]) [] (area channel_end) 1 (fun _ => V3 1 1 0) = Some d /\ 0 < d_max d.
Proof.
  destruct petsc_uniform_number as (a & Ha & Hk). exists (Diag (a * 1 / Rmin 1 1 * 1) 1 1). split; [|cbn; rewrite num_one; lra].
  unfold rank_diag, rank_visits. cbn [whole rk_iedges channel_end iedges bedges rk_bedges petsc_ids length seq map combine omap].
  unfold interior_visit at 1. cbn [fst snd]. change (to_local _ (fun _ : nat => V3 1 1 0)) with (fun _ : nat => V3 1 1 0). rewrite Hk by reflexivity. cbn [obind snd ie_len ie_l ie_r].
  unfold to_local. cbn [area channel_end]. rewrite rdiv_some by (rewrite (Rmin_left 1 1) by lra; lra). cbn [obind filter omap app fold_left]. unfold note. cbn [d_max v_num reset v_edge v_cell].
  assert (P : Rltb 0 (a * 1 / Rmin 1 1 * 1) = true) by (apply Rltb_true; rewrite num_one; lra). rewrite P.
  assert (N : Rltb 1 1 = false) by (apply Rltb_false; lra). rewrite N. reflexivity.
Qed.

(* with two processes the maximum is positive and the edge is not named *)
Theorem C27_parallel_edge_id_refuted :
  exists m lids dt u d,
    rank_diag flat_petsc (whole m) (petsc_ids 2 lids) [] (area m) dt u = Some d /\ length lids = length (iedges m) /\
    0 < d_max d /\ ~ In (d_edge d) (map Z.of_nat lids).
Proof.
  destruct petsc_uniform_number as (a & Ha & Hk).
  exists channel_end, [1%nat], 1, (fun _ => V3 1 1 0), (Diag (a * 1 / Rmin 1 1 * 1) (-1) 1).
  split; [|split; [reflexivity|split; [cbn; rewrite num_one; lra|intros [H|[]]; discriminate]]].
  unfold rank_diag, rank_visits. cbn [whole rk_iedges channel_end iedges bedges rk_bedges petsc_ids length seq map combine omap].
  unfold interior_visit at 1. cbn [fst snd]. change (to_local _ (fun _ : nat => V3 1 1 0)) with (fun _ : nat => V3 1 1 0). rewrite Hk by reflexivity. cbn [obind snd ie_len ie_l ie_r].
  unfold to_local. cbn [area channel_end]. rewrite rdiv_some by (rewrite (Rmin_left 1 1) by lra; lra). cbn [obind filter omap app fold_left]. unfold note. cbn [d_max v_num reset v_edge v_cell].
  assert (P : Rltb 0 (a * 1 / Rmin 1 1 * 1) = true) by (apply Rltb_true; rewrite num_one; lra). rewrite P.
  assert (N : Rltb 1 1 = false) by (apply Rltb_false; lra). rewrite N. reflexivity.
Qed.
Print Assumptions C27_parallel_edge_id_refuted.
