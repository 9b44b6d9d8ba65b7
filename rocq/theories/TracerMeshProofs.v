(** Lemmas about tracer transport on a mesh. *)
From Verif Require Import Base RoeModel RoeProofs EdgeModel EdgeProofs HRModel HRProofs SourceModel SourceProofs AssemblyModel AssemblyProofs TracerModel TracerProofs.

(** ** Uniform concentration *)
Definition uni (C : R) (j : nat) (q : tvec) : Prop := ttr q j = C * depth q.
Lemma uni_add C j a b : uni C j a -> uni C j b -> uni C j (tadd a b).
Proof. unfold uni, tadd, depth; cbn. intros -> ->. ring. Qed.
Lemma uni_scal C j s a : uni C j a -> uni C j (tscal s a).
Proof. unfold uni, tscal, depth; cbn. intros ->. ring. Qed.
Lemma uni_zero C j : uni C j tzero. Proof. unfold uni, depth; cbn. ring. Qed.
Lemma uni_corr C j F g h hr sn cn : uni C j F -> uni C j (tadd F (tcorrection g h hr sn cn)).
Proof. unfold uni, depth; cbn. intros ->. ring. Qed.

Definition side (C : R) (k : triemann) (P : prim) (c : R) : Prop := c = C \/ (k = TRoe /\ ph P = 0).
Lemma ptr_side C k g L Rt sn cn cl cr : wetpair L Rt -> side C k L cl -> side C k Rt cr ->
  ptr k g L Rt sn cn cl cr = C * c0 (pflux g L Rt sn cn).
Proof.
  intros Hw [->|(-> & H1)] [->|(E2 & H2)].
  - apply ptr_uniform; exact Hw.
  - subst k. apply proe_dry_right; assumption.
  - apply proe_dry_left; assumption.
  - destruct Hw as (_ & _ & Hw). lra.
Qed.

Definition wet_or_dry (k : triemann) (tiny : R) (q : tvec) : Prop :=
  match k with TRoe => depth q = 0 \/ tiny <= depth q | TUpwind => tiny <= depth q end.
Lemma wod_nonneg k tiny q : 0 < tiny -> wet_or_dry k tiny q -> 0 <= depth q.
Proof. intros Ht H. destruct k; cbn in H; lra. Qed.
Lemma wod_side C j k tiny q ha : 0 < tiny -> wet_or_dry k tiny q -> uni C j q -> side C k (pvel tiny ha (tflow q)) (pci tiny q j).
Proof.
  intros Ht Hq Hu. unfold side, pci. rewrite pvel_h. unfold uni in Hu.
  destruct (Rlt_dec (depth q) tiny) as [H|H].
  - right. destruct k; cbn in Hq; [|lra]. split; [reflexivity|]. unfold depth in *; lra.
  - left. assert (E : Rltb (depth q) tiny = false) by (apply Rltb_false; lra). rewrite E, Hu. field. lra.
Qed.

Lemma petsc_edge_uniform C j k tiny qL qR sn cn F a :
  0 < tiny -> wet_or_dry k tiny qL -> wet_or_dry k tiny qR -> uni C j qL -> uni C j qR ->
  petsc_tracer_edge k tiny qL qR sn cn = Some (F, a) -> uni C j F.
Proof.
  intros Ht WL WR UL UR E.
  destruct (petsc_tracer_edge_some k tiny qL qR sn cn Ht (wod_nonneg _ _ _ Ht WL) (wod_nonneg _ _ _ Ht WR)) as (F' & a' & E' & Hd & Hw).
  rewrite E' in E. injection E as <- <-. destruct (tdry2 tiny qL qR) eqn:D.
  - destruct (Hd eq_refl) as (-> & _). apply uni_zero.
  - destruct (Hw eq_refl) as (HF & _ & HT). unfold uni, depth. rewrite HT, HF. apply ptr_side.
    + apply wet_of_tdry2; try assumption; eapply wod_nonneg; eassumption.
    + apply wod_side; assumption. + apply wod_side; assumption.
Qed.

Definition bc_uniform (C : R) (j : nat) (P : tvec -> Prop) (b : tbcond) : Prop :=
  match b with TDirichlet q => P q /\ uni C j q | TReflecting => True end.

Lemma petsc_bedge_uniform C j k tiny b qL sn cn F a :
  0 < tiny -> wet_or_dry k tiny qL -> uni C j qL -> bc_uniform C j (wet_or_dry k tiny) b ->
  petsc_tracer_bedge k tiny b qL sn cn = Some (F, a) -> uni C j F.
Proof.
  intros Ht WL UL HB E. destruct b as [qR|].
  - apply (petsc_edge_uniform C j k tiny qL qR sn cn F a Ht WL (proj1 HB) UL (proj2 HB)).
    unfold petsc_tracer_bedge in E. unfold petsc_tracer_edge.
    apply obind_some in E. destruct E as (P & EP & E). apply obind_some in E. destruct E as (Q & EQ & E). rewrite EP, EQ. cbn [obind].
    destruct (petsc_tracer_prim_some tiny qL Ht) as (P' & EP' & HP & _). rewrite EP' in EP. injection EP as <-.
    destruct (petsc_tracer_prim_some tiny qR Ht) as (Q' & EQ' & HQ & _). rewrite EQ' in EQ. injection EQ as <-.
    rewrite HP, HQ in E. rewrite !pvel_h in E. unfold depth. rewrite Bool.andb_comm. exact E.
  - unfold petsc_tracer_bedge in E. destruct (petsc_tracer_prim_some tiny qL Ht) as (P & EP & HP & CP). rewrite EP in E. cbn [obind] in E.
    unfold petsc_tracer_reflect in E. cbn [tp] in E. unfold petsc_reflect in E at 1. cbn [ph] in E. rewrite Bool.andb_diag in E.
    destruct (Rltb (ph (tp P)) tiny) eqn:D; [injection E as <- _; apply uni_zero|]. apply Rltb_false in D.
    assert (W : wetpair (tp P) (petsc_reflect (tp P) sn cn)) by (unfold wetpair, petsc_reflect; cbn [ph]; lra).
    destruct (petsc_tracer_flux_some k P (TPrim (petsc_reflect (tp P) sn cn) (tci P)) sn cn W) as (T & EF & HT).
    rewrite EF in E. injection E as <- _. unfold uni, depth; cbn [tflow ttr]. rewrite HT. cbn [tp tci].
    assert (S : side C k (tp P) (tci P j)) by (rewrite HP, CP; apply wod_side; assumption).
    apply ptr_side; [exact W|exact S|]. destruct S as [S|S]; [left; exact S|right; exact S].
Qed.

(* hydrostatic reconstruction; there the concentration test is strict *)
Definition wet_or_dry_strict (k : triemann) (tiny : R) (q : tvec) : Prop :=
  match k with TRoe => depth q = 0 \/ tiny < depth q | TUpwind => tiny < depth q end.
Lemma wods_wod k tiny q : wet_or_dry_strict k tiny q -> wet_or_dry k tiny q.
Proof. destruct k; cbn; lra. Qed.

Lemma hr_tracer_prim_inv tiny ha hrec q P : hr_tracer_prim tiny ha hrec q = Some P -> ph (tp P) = hrec /\ forall j, tci P j = cci tiny q j.
Proof.
  unfold hr_tracer_prim, cci. intros E. apply obind_some in E. destruct E as (p & _ & E). apply obind_some in E. destruct E as (ci & Ec & E).
  injection E as <-. split; [reflexivity|]. intros j. cbn [tci]. destruct (Rltb _ _).
  - apply rdivs_inv in Ec. apply Ec. - injection Ec as <-. reflexivity.
Qed.
Lemma hr_depth_nonneg h z zo : 0 <= hr_depth h z zo. Proof. unfold hr_depth. apply Rmax_l. Qed.
Lemma hr_depth_dry z zo : hr_depth 0 z zo = 0.
Proof.
  unfold hr_depth. destruct (Rmax_cases z zo) as [(H & ->)|(H & ->)]; destruct (Rmax_cases 0 (0 + z - zo)) as [(H1 & E1)|(H1 & E1)];
  destruct (Rmax_cases 0 (0 + z - z)) as [(H2 & E2)|(H2 & E2)]; try rewrite E1; try rewrite E2; lra.
Qed.
Lemma hr_wet tiny hL hR L Rt : 0 < tiny -> 0 <= hL -> 0 <= hR -> ((tiny <? hL) || (tiny <? hR))%bool = true -> ph L = hL -> ph Rt = hR -> wetpair L Rt.
Proof.
  intros Ht H1 H2 E E1 E2. unfold wetpair. rewrite E1, E2. apply Bool.orb_true_iff in E. destruct E as [E|E]; apply Rltb_true in E; lra.
Qed.
Lemma wods_side C j k tiny q P hrec z zo : 0 < tiny -> wet_or_dry_strict k tiny q -> uni C j q ->
  hrec = hr_depth (depth q) z zo -> ph P = hrec -> side C k P (cci tiny q j).
Proof.
  intros Ht Hq Hu Hr HP. unfold side, cci. unfold uni in Hu.
  destruct (Rlt_dec tiny (depth q)) as [H|H].
  - left. assert (E : Rltb tiny (depth q) = true) by (apply Rltb_true; lra). rewrite E, Hu. field. lra.
  - right. destruct k; cbn in Hq; [|lra]. split; [reflexivity|]. rewrite HP, Hr. replace (depth q) with 0 by lra. apply hr_depth_dry.
Qed.
Lemma petsc_hr_edge_uniform C j k tiny ha zL zR qL qR sn cn fl fr a :
  0 < tiny -> wet_or_dry_strict k tiny qL -> wet_or_dry_strict k tiny qR -> uni C j qL -> uni C j qR ->
  petsc_tracer_hr_edge k tiny ha zL zR qL qR sn cn = Some (fl, fr, a) -> uni C j fl /\ uni C j fr.
Proof.
  intros Ht WL WR UL UR E. unfold petsc_tracer_hr_edge in E. destruct (_ && _)%bool; [injection E as <- <- _; split; apply uni_zero|].
  apply obind_some in E. destruct E as (P & EP & E). apply obind_some in E. destruct E as (Q & EQ & E). apply obind_some in E. destruct E as ([F b] & EF & E).
  injection E as <- <- _. enough (U : uni C j F) by (split; apply uni_corr; exact U).
  destruct (_ || _)%bool eqn:G; [|injection EF as <- _; apply uni_zero].
  destruct (hr_tracer_prim_inv _ _ _ _ _ EP) as (HP & CP). destruct (hr_tracer_prim_inv _ _ _ _ _ EQ) as (HQ & CQ).
  assert (W : wetpair (tp P) (tp Q)) by (eapply hr_wet; [exact Ht| | |exact G| |]; try apply hr_depth_nonneg; assumption).
  destruct (petsc_tracer_flux_some k P Q sn cn W) as (T & EF' & HT). rewrite EF' in EF. injection EF as <- _.
  unfold uni, depth; cbn [tflow ttr]. rewrite HT, CP, CQ. apply ptr_side; [exact W| |].
  - eapply wods_side; [exact Ht|exact WL|exact UL|reflexivity|exact HP].
  - eapply wods_side; [exact Ht|exact WR|exact UR|reflexivity|exact HQ].
Qed.

(* libCEED, both sides wet *)
Lemma SafeDiv_wet a b c t : t < c -> SafeDiv a b c t = rdiv a b.
Proof. intros H. unfold SafeDiv. assert (E : Rltb t c = true) by (apply Rltb_true; exact H). rewrite E. reflexivity. Qed.
Lemma ceed_tracer_flux_wet k g tiny qL qR sn cn : 0 < g -> 0 <= tiny -> tiny < depth qL -> tiny < depth qR ->
  let L := cvel tiny 0 (tflow qL) in let Rt := cvel tiny 0 (tflow qR) in
  exists T, ceed_tracer_flux k g tiny qL qR sn cn = Some (TV (pflux g L Rt sn cn) T, chat g L Rt + Rabs (uperp L Rt sn cn)) /\
    wetpair L Rt /\
    forall j, T j = ptr k g L Rt sn cn (ttr qL j / depth qL) (ttr qR j / depth qR).
Proof.
  intros Hg Ht HL HR L Rt.
  assert (W : wetpair L Rt) by (unfold wetpair, L, Rt; rewrite !cvel_h; unfold depth in *; lra).
  assert (EL : ceed_tracer_left tiny qL = Some (TPrim L (fun j => ttr qL j / depth qL))).
  { unfold ceed_tracer_left. rewrite !SafeDiv_wet by exact HL. rewrite !rdiv_some, rdivs_some by lra.
    assert (E : Rltb tiny (depth qL) = true) by (apply Rltb_true; exact HL). rewrite E. cbn [obind]. unfold L. rewrite cvel_wet by exact HL.
    rewrite !vel_plain by (unfold depth in *; lra). reflexivity. }
  assert (ER : ceed_tracer_right tiny (depth qL) qR = Some (TPrim Rt (fun j => ttr qR j / depth qR))).
  { unfold ceed_tracer_right. rewrite !SafeDiv_wet by exact HR. rewrite !rdiv_some, rdivs_some by lra.
    assert (E : Rltb tiny (depth qL) = true) by (apply Rltb_true; exact HL). rewrite E. cbn [obind]. unfold Rt. rewrite cvel_wet by exact HR.
    rewrite !vel_plain by (unfold depth in *; lra). reflexivity. }
  unfold ceed_tracer_flux. rewrite EL, ER. cbn [obind tp]. rewrite ceed_eigenspectrum_some by assumption. cbn [obind].
  destruct (tracer_flux_some k g (TPrim L (fun j => ttr qL j / depth qL)) (TPrim Rt (fun j => ttr qR j / depth qR)) sn cn W) as (T & E & HT).
  exists T. split; [exact E|]. split; [exact W|exact HT].
Qed.
Lemma ceed_edge_uniform C j k g tiny qL qR sn cn F a : 0 < g -> 0 <= tiny -> tiny < depth qL -> tiny < depth qR -> uni C j qL -> uni C j qR ->
  ceed_tracer_flux k g tiny qL qR sn cn = Some (F, a) -> uni C j F.
Proof.
  intros Hg Ht HL HR UL UR E. destruct (ceed_tracer_flux_wet k g tiny qL qR sn cn Hg Ht HL HR) as (T & E' & W & HT).
  rewrite E' in E. injection E as <- _. unfold uni, depth; cbn [tflow ttr]. rewrite HT. unfold uni in *. rewrite UL, UR.
  replace (C * depth qL / depth qL) with C by (field; lra). replace (C * depth qR / depth qR) with C by (field; lra). apply ptr_uniform; exact W.
Qed.
Lemma ceed_bedge_uniform C j k g tiny b qL sn cn F a : 0 < g -> 0 <= tiny -> tiny < depth qL -> uni C j qL ->
  bc_uniform C j (fun q => tiny < depth q) b -> ceed_tracer_bedge k g tiny b qL sn cn = Some (F, a) -> uni C j F.
Proof.
  intros Hg Ht HL UL HB E. assert (G : Rltb tiny (depth qL) = true) by (apply Rltb_true; exact HL). destruct b as [qR|]; cbn [ceed_tracer_bedge] in E.
  - unfold ceed_tracer_edge in E. rewrite G in E. cbn in E. destruct HB as (WR & UR). eapply ceed_edge_uniform; [exact Hg|exact Ht|exact HL|exact WR|exact UL|exact UR|exact E].
  - rewrite G in E. eapply ceed_edge_uniform; [exact Hg|exact Ht|exact HL| |exact UL| |exact E]; [exact HL|exact UL].
Qed.

(** ** Upwind transport: donor-cell form *)
Lemma petsc_flux_upwind L Rt sn cn F a j : petsc_tracer_flux TUpwind L Rt sn cn = Some (F, a) ->
  ttr F j = depth F * (if 0 <=? depth F then tci L j else tci Rt j).
Proof.
  unfold petsc_tracer_flux. intros E. apply obind_some in E. destruct E as (s & _ & E). cbn [tracer_flux] in E. unfold tracer_upwind in E.
  injection E as <- _. reflexivity.
Qed.
Lemma donor_zero (x y : R) j : ttr tzero j = depth tzero * (if 0 <=? depth tzero then x else y).
Proof. unfold depth; cbn. ring. Qed.
Lemma petsc_edge_donor tiny qL qR sn cn F a j : 0 < tiny -> petsc_tracer_edge TUpwind tiny qL qR sn cn = Some (F, a) ->
  ttr F j = depth F * (if 0 <=? depth F then pci tiny qL j else pci tiny qR j).
Proof.
  intros Ht E. unfold petsc_tracer_edge in E.
  destruct (petsc_tracer_prim_some tiny qL Ht) as (PL & EL & _ & CL). destruct (petsc_tracer_prim_some tiny qR Ht) as (PR & ER & _ & CR).
  rewrite EL, ER in E. cbn [obind] in E. destruct (_ && _)%bool; [injection E as <- _; apply donor_zero|].
  apply petsc_flux_upwind with (j := j) in E. rewrite CL, CR in E. exact E.
Qed.
Definition bconc (conc : tvec -> R) (b : tbcond) (qL : tvec) : R := match b with TDirichlet q => conc q | TReflecting => conc qL end.
Lemma petsc_bedge_donor tiny b qL sn cn F a j : 0 < tiny -> petsc_tracer_bedge TUpwind tiny b qL sn cn = Some (F, a) ->
  ttr F j = depth F * (if 0 <=? depth F then pci tiny qL j else bconc (fun q => pci tiny q j) b qL).
Proof.
  intros Ht E. unfold petsc_tracer_bedge in E.
  destruct (petsc_tracer_prim_some tiny qL Ht) as (PL & EL & _ & CL). rewrite EL in E. cbn [obind] in E.
  apply obind_some in E. destruct E as (PR & ER & E).
  assert (CR : tci PR j = bconc (fun q => pci tiny q j) b qL).
  { destruct b as [qR|]; cbn [bconc].
    - destruct (petsc_tracer_prim_some tiny qR Ht) as (PR' & ER' & _ & CR). rewrite ER' in ER. injection ER as <-. apply CR.
    - injection ER as <-. cbn [petsc_tracer_reflect tci]. apply CL. }
  destruct (_ && _)%bool; [injection E as <- _; apply donor_zero|].
  apply petsc_flux_upwind with (j := j) in E. rewrite CL, CR in E. exact E.
Qed.
Lemma petsc_hr_edge_donor tiny ha zL zR qL qR sn cn fl fr a j : petsc_tracer_hr_edge TUpwind tiny ha zL zR qL qR sn cn = Some (fl, fr, a) ->
  depth fl = depth fr /\ ttr fl j = ttr fr j /\ ttr fl j = depth fl * (if 0 <=? depth fl then cci tiny qL j else cci tiny qR j).
Proof.
  intros E. unfold petsc_tracer_hr_edge in E. destruct (_ && _)%bool; [injection E as <- <- _; repeat split; apply donor_zero|].
  apply obind_some in E. destruct E as (P & EP & E). apply obind_some in E. destruct E as (Q & EQ & E). apply obind_some in E. destruct E as ([F b] & EF & E).
  injection E as <- <- _.
  assert (D : ttr F j = depth F * (if 0 <=? depth F then cci tiny qL j else cci tiny qR j)).
  { destruct (_ || _)%bool; [|injection EF as <- _; apply donor_zero].
    apply petsc_flux_upwind with (j := j) in EF.
    rewrite (proj2 (hr_tracer_prim_inv _ _ _ _ _ EP)), (proj2 (hr_tracer_prim_inv _ _ _ _ _ EQ)) in EF. exact EF. }
  assert (Z : forall h hr, depth (tadd F (tcorrection GRAVITY h hr sn cn)) = depth F) by (intros; unfold depth; cbn; ring).
  rewrite !Z. cbn [tadd tcorrection ttr]. rewrite D. split; [reflexivity|]. split; [reflexivity|]. ring.
Qed.
Lemma ceed_flux_donor g tiny qL qR sn cn F a j : 0 < g -> 0 <= tiny -> tiny < depth qL -> tiny < depth qR -> ceed_tracer_flux TUpwind g tiny qL qR sn cn = Some (F, a) ->
  ttr F j = depth F * (if 0 <=? depth F then ttr qL j / depth qL else ttr qR j / depth qR).
Proof.
  intros Hg Ht HL HR E. destruct (ceed_tracer_flux_wet TUpwind g tiny qL qR sn cn Hg Ht HL HR) as (T & E' & _ & HT).
  rewrite E' in E. injection E as <- _. unfold depth at 1 2; cbn [tflow ttr]. rewrite HT. reflexivity.
Qed.

(** ** Totals *)
Section TTotals.
  Context (p : tvec -> R).
  Hypothesis p_add : forall a b, p (tadd a b) = p a + p b.
  Hypothesis p_scal : forall s a, p (tscal s a) = s * p a.
  Hypothesis p_zero : p tzero = 0.

  (* exact value of the flux divergence in a cell *)
  Lemma tdivergence_val s m u f : tdivergence s m u = Some f ->
    exists (k : iedge -> tvec * tvec * R) (kb : bedge -> tvec * R),
      (forall e, In e (iedges m) -> ts_interior s u e = Some (k e)) /\ (forall e, In e (bedges m) -> ts_boundary s u e = Some (kb e)) /\
      forall c, p (f c) = rsum (fun e => ecoef everything (area m) e (p (fst (fst (k e)))) (p (snd (fst (k e)))) c) (iedges m)
                        + rsum (fun e => if Nat.eqb c (be_c e) then - be_len e / area m c * p (fst (kb e)) else 0) (bedges m).
  Proof.
    intros E. unfold tdivergence in E. apply obind_some in E. destruct E as (f1 & E1 & E2).
    exists (fun e => match ts_interior s u e with Some x => x | None => (tzero, tzero, 0) end).
    exists (fun e => match ts_boundary s u e with Some x => x | None => (tzero, 0) end).
    assert (H1 := iloop_inv tadd tscal everything (area m) _ (iedges m) _ _ E1). assert (H2 := bloop_inv tadd tscal (area m) _ (bedges m) _ _ E2).
    assert (K1 : forall e, In e (iedges m) -> ts_interior s u e = Some (match ts_interior s u e with Some x => x | None => (tzero, tzero, 0) end)).
    { intros e He. destruct (proj1 (H1 e He)) as (x & ->). reflexivity. }
    assert (K2 : forall e, In e (bedges m) -> ts_boundary s u e = Some (match ts_boundary s u e with Some x => x | None => (tzero, 0) end)).
    { intros e He. destruct (proj1 (H2 e He)) as (x & ->). reflexivity. }
    split; [exact K1|]. split; [exact K2|]. intros c.
    destruct (interior_loop_val tadd tscal p p_add p_scal everything (area m) (ts_interior s u) _ (iedges m) K1 (fun e He => proj2 (H1 e He)) (fun _ => tzero)) as (g1 & G1 & V1).
    rewrite E1 in G1. injection G1 as <-.
    destruct (boundary_loop_val tadd tscal p p_add p_scal everything (area m) (ts_boundary s u) _ (bedges m) (fun e He _ => K2 e He) (fun e He _ => proj2 (H2 e He)) f1) as (g2 & G2 & V2).
    rewrite E2 in G2. injection G2 as <-. rewrite V2, V1, p_zero. unfold everything. ring.
  Qed.

  Lemma trhs_total s m dt src u f (S : nat -> R) :
    (forall e fl fr a, ts_interior s u e = Some (fl, fr, a) -> p fl = p fr) ->
    (forall c F v, ts_source s dt u src c F = Some v -> p v = p F + S c) ->
    mesh_wf m -> trhs s m dt src u = Some f ->
    rsum (fun c => area m c * p (f c)) (cells m)
    = rsum (fun c => area m c * S c) (cells m) - rsum (fun e => be_len e * bval p (ts_boundary s u) e) (bedges m).
  Proof.
    intros Hc Hs (Hnd & Hi & Hb) E. unfold trhs, tdivergence in E.
    apply obind_some in E. destruct E as (f2 & E & E3). apply obind_some in E. destruct E as (f1 & E1 & E2).
    rewrite (source_loop_total p (area m) _ (cells m) S Hnd Hs f2 f E3).
    rewrite (boundary_loop_total tadd tscal p p_add p_scal (area m) _ (cells m) (bedges m) Hnd Hb f1 f2 E2).
    rewrite (interior_loop_total tadd tscal p p_add p_scal (area m) _ (cells m) (iedges m) Hnd Hi
               (fun e fl fr a _ H => Hc e fl fr a H) _ f1 E1).
    rewrite (rsum_zero (fun k => area m k * p tzero)) by (intros; rewrite p_zero; ring). ring.
  Qed.
  Lemma total_taxpy (ar : nat -> R) cs u a k :
    rsum (fun c => ar c * p (taxpy u a k c)) cs = rsum (fun c => ar c * p (u c)) cs + a * rsum (fun c => ar c * p (k c)) cs.
  Proof. rewrite <- rsum_scal, <- rsum_plus. apply rsum_ext. intros c _. unfold taxpy. rewrite p_add, p_scal. ring. Qed.
End TTotals.
