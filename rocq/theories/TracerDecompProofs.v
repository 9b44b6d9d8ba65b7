(** Lemmas for tracers on several processes (C74). *)
From Coq Require Import FunctionalExtensionality.
From Verif Require Import Base RoeModel RoeProofs EdgeModel EdgeProofs HRModel HRProofs SourceModel SourceProofs AssemblyModel AssemblyProofs
  TracerModel TracerProofs DecompModel DecompSpec DecompProofs TracerDecompModel TracerDecompSpec.

(** ** Components *)
Definition tcomp (k : nat) (v : tvec) : R :=
  match k with 0%nat => c0 (tflow v) | 1%nat => c1 (tflow v) | 2%nat => c2 (tflow v) | S (S (S j)) => ttr v j end.
Lemma tcomp_add k a b : tcomp k (tadd a b) = tcomp k a + tcomp k b.
Proof. destruct k as [|[|[|k]]]; reflexivity. Qed.
Lemma tcomp_scal k s a : tcomp k (tscal s a) = s * tcomp k a.
Proof. destruct k as [|[|[|k]]]; reflexivity. Qed.
Lemma tcomp_zero k : tcomp k tzero = 0.
Proof. destruct k as [|[|[|k]]]; reflexivity. Qed.
Lemma tvec_ext a b : (forall k, tcomp k a = tcomp k b) -> a = b.
Proof.
  intros H. destruct a as [f t], b as [f' t']. assert (f = f') as -> by (apply vec3_ext; [exact (H 0%nat)|exact (H 1%nat)|exact (H 2%nat)]).
  apply f_equal. apply functional_extensionality. intros j. exact (H (S (S (S j)))).
Qed.
Definition tneg (v : tvec) : tvec := tscal (-1) v.
Lemma tneg_zero : tneg tzero = tzero.
Proof. apply tvec_ext. intros k. unfold tneg. rewrite tcomp_scal, tcomp_zero. ring. Qed.

(** ** Edges traversed the other way *)
Definition toneg (r : option (tvec * R)) : option (tvec * R) := match r with Some (f, a) => Some (tneg f, a) | None => None end.
Definition toflip (r : option (tvec * tvec * R)) : option (tvec * tvec * R) :=
  match r with Some (fl, fr, a) => Some (tneg fr, tneg fl, a) | None => None end.

Lemma ptr_reverse k g L Rt sn cn cl cr : 0 < g -> wetpair L Rt -> ptr k g Rt L (- sn) (- cn) cr cl = - ptr k g L Rt sn cn cl cr.
Proof.
  intros Hg Hw. assert (Hc := chat_pos _ _ _ Hg Hw). assert (Hs := sqrt_sum_pos _ _ Hw). destruct k; cbn [ptr].
  - unfold proe, pspec; cbn [lam dW c0 c1 c2]. rewrite chat_sym, hhat_sym.
    assert (Eu : uperp Rt L (- sn) (- cn) = - uperp L Rt sn cn) by (unfold uperp; rewrite uhat_sym, vhat_sym; ring). rewrite Eu.
    assert (E1 : pfix (Rabs (- uperp L Rt sn cn - chat g L Rt)) (unorm Rt (- sn) (- cn) - sqrt (g * ph Rt)) (unorm L (- sn) (- cn) - sqrt (g * ph L))
               = pfix (Rabs (uperp L Rt sn cn + chat g L Rt)) (unorm L sn cn + sqrt (g * ph L)) (unorm Rt sn cn + sqrt (g * ph Rt))).
    { apply pfix_ext; [|unfold unorm; ring]. rewrite <- Rabs_Ropp. f_equal; ring. }
    assert (E3 : pfix (Rabs (- uperp L Rt sn cn + chat g L Rt)) (unorm Rt (- sn) (- cn) + sqrt (g * ph Rt)) (unorm L (- sn) (- cn) + sqrt (g * ph L))
               = pfix (Rabs (uperp L Rt sn cn - chat g L Rt)) (unorm L sn cn - sqrt (g * ph L)) (unorm Rt sn cn - sqrt (g * ph Rt))).
    { apply pfix_ext; [|unfold unorm; ring]. rewrite <- Rabs_Ropp. f_equal; ring. }
    rewrite E1, E3, Rabs_Ropp. unfold unorm. field. lra.
  - unfold pup. rewrite (pflux_reverse g L Rt sn cn Hg Hw). cbn [vscal c0]. set (F := c0 (pflux g L Rt sn cn)).
    destruct (0 <=? -1 * F) eqn:E1; destruct (0 <=? F) eqn:E2; rewrite ?Rleb_true, ?Rleb_false in E1; rewrite ?Rleb_true, ?Rleb_false in E2; try ring.
    + assert (F = 0) as -> by lra. ring.
    + lra.
Qed.

Lemma petsc_tracer_flux_any_neg k L Rt sn cn : ph (tp L) < 0 \/ ph (tp Rt) < 0 -> petsc_tracer_flux k L Rt sn cn = None.
Proof.
  intros H. assert (N := petsc_roe_flux_any_neg (tp L) (tp Rt) sn cn H). unfold petsc_roe_flux in N. unfold petsc_tracer_flux.
  destruct (petsc_eigenspectrum (tp L) (tp Rt) sn cn); [discriminate N|reflexivity].
Qed.
Lemma petsc_tracer_flux_reverse k L Rt sn cn : wetpair (tp L) (tp Rt) -> petsc_tracer_flux k Rt L (- sn) (- cn) = toneg (petsc_tracer_flux k L Rt sn cn).
Proof.
  intros Hw. destruct (petsc_tracer_flux_some k L Rt sn cn Hw) as (T & E & HT). destruct (petsc_tracer_flux_some k Rt L (- sn) (- cn) (wetpair_sym _ _ Hw)) as (T' & E' & HT').
  rewrite E, E'. cbn [toneg]. rewrite amax_reverse. apply f_equal. apply f_equal2; [|reflexivity]. unfold tneg, tscal. cbn [tflow ttr].
  rewrite (pflux_reverse GRAVITY (tp L) (tp Rt) sn cn GRAVITY_pos Hw). apply f_equal. apply functional_extensionality. intros j. rewrite HT, HT', (ptr_reverse k _ _ _ _ _ _ _ GRAVITY_pos Hw). ring.
Qed.

Lemma petsc_tracer_edge_flip k tiny qL qR sn cn : 0 < tiny -> petsc_tracer_edge k tiny qR qL (- sn) (- cn) = toneg (petsc_tracer_edge k tiny qL qR sn cn).
Proof.
  intros Ht. unfold petsc_tracer_edge.
  destruct (petsc_tracer_prim_some tiny qL Ht) as (PL & -> & EL & _). destruct (petsc_tracer_prim_some tiny qR Ht) as (PR & -> & ER & _). cbn [obind].
  rewrite (Bool.andb_comm (depth qL <? tiny)). destruct ((depth qR <? tiny) && (depth qL <? tiny))%bool eqn:E; [cbn [toneg]; rewrite tneg_zero; reflexivity|].
  assert (HL : ph (tp PL) = depth qL) by (rewrite EL, pvel_h; reflexivity). assert (HR : ph (tp PR) = depth qR) by (rewrite ER, pvel_h; reflexivity).
  destruct (Rlt_dec (depth qL) 0) as [N|N]; [rewrite !petsc_tracer_flux_any_neg by (rewrite HL, HR; auto); reflexivity|].
  destruct (Rlt_dec (depth qR) 0) as [N'|N']; [rewrite !petsc_tracer_flux_any_neg by (rewrite HL, HR; auto); reflexivity|].
  apply petsc_tracer_flux_reverse. unfold wetpair. rewrite HL, HR. apply Bool.andb_false_iff in E. rewrite !Rltb_false in E. lra.
Qed.

Lemma hr_tracer_prim_some tiny ha hrec q : 0 < tiny ->
  exists P, hr_tracer_prim tiny ha hrec q = Some P /\ tp P = Prim hrec (pu (cvel tiny ha (tflow q))) (pv (cvel tiny ha (tflow q))) /\ forall j, tci P j = cci tiny q j.
Proof.
  intros Ht. unfold hr_tracer_prim, hr_velocity, cci. rewrite ceed_velocities_some by lra. cbn [obind].
  destruct (tiny <? depth q) eqn:E; [apply Rltb_true in E; rewrite rdivs_some by lra|]; cbn [obind]; eexists; split; try reflexivity; split; reflexivity.
Qed.
Lemma tneg_corr f f' h r sn cn : f' = tneg f -> tadd f' (tcorrection GRAVITY h r (- sn) (- cn)) = tneg (tadd f (tcorrection GRAVITY h r sn cn)).
Proof. intros ->. apply tvec_ext. intros k. unfold tneg, tcorrection, hr_correction. destruct k as [|[|[|k]]]; cbn; ring. Qed.
Lemma petsc_tracer_hr_flip k tiny ha zL zR qL qR sn cn : 0 < tiny ->
  petsc_tracer_hr_edge k tiny ha zR zL qR qL (- sn) (- cn) = toflip (petsc_tracer_hr_edge k tiny ha zL zR qL qR sn cn).
Proof.
  intros Ht. unfold petsc_tracer_hr_edge. rewrite (Bool.andb_comm (depth qL <? tiny)).
  destruct (_ && _)%bool; [cbn [toflip]; rewrite tneg_zero; reflexivity|].
  set (rl := hr_depth (depth qL) zL zR). set (rr := hr_depth (depth qR) zR zL).
  assert (Hl : 0 <= rl) by apply hr_depth_nonneg. assert (Hr : 0 <= rr) by apply hr_depth_nonneg.
  destruct (hr_tracer_prim_some tiny ha rl qL Ht) as (PL & -> & EL & _). destruct (hr_tracer_prim_some tiny ha rr qR Ht) as (PR & -> & ER & _). cbn [obind].
  rewrite (Bool.orb_comm (tiny <? rr)). destruct ((tiny <? rl) || (tiny <? rr))%bool eqn:E.
  - assert (Hw : wetpair (tp PL) (tp PR)) by (rewrite EL, ER; unfold wetpair; cbn [ph]; apply Bool.orb_true_iff in E; rewrite !Rltb_true in E; lra).
    rewrite (petsc_tracer_flux_reverse k PL PR sn cn Hw). destruct (petsc_tracer_flux k PL PR sn cn) as [[F a]|]; cbn [toneg obind toflip]; [|reflexivity].
    apply f_equal. apply f_equal2; [|reflexivity]. apply f_equal2; apply tneg_corr; reflexivity.
  - cbn [obind toflip]. apply f_equal. apply f_equal2; [|reflexivity]. apply f_equal2; apply tneg_corr; symmetry; apply tneg_zero.
Qed.

(** ** Views *)
Definition tview (gid : nat -> nat) (s sl : (bedge -> tbcond) -> tscheme) : Prop :=
  forall bcs bcl u ul,
  (forall flip e e', eview gid flip e e' -> ul (ie_l e) = u (gid (ie_l e)) -> ul (ie_r e) = u (gid (ie_r e)) ->
     ts_interior (sl bcl) ul e = if flip then toflip (ts_interior (s bcs) u e') else ts_interior (s bcs) u e') /\
  (forall eb e', tbview gid bcs eb e' -> ul (be_c (fst eb)) = u (gid (be_c (fst eb))) -> ts_boundary (sl (fun _ => snd eb)) ul (fst eb) = ts_boundary (s bcs) u e') /\
  (forall dt src srcl l F, ul l = u (gid l) -> srcl l = src (gid l) -> ts_source (sl bcl) dt ul srcl l F = ts_source (s bcs) dt u src (gid l) F).
Lemma toflip_both r : tboth (toneg r) = toflip (tboth r).
Proof. destruct r as [[f a]|]; reflexivity. Qed.
Lemma tscheme_of_view gid x : 0 < tc_tiny x -> tview gid (tscheme_of x) (tscheme_of (tchoice_at gid x)).
Proof.
  intros Ht bcs bcl u ul. destruct x as [hr k tiny ha z g]. unfold tscheme_of, tchoice_at. cbn [tc_hr tc_kind tc_tiny tc_anuga tc_bed tc_geom] in *.
  destruct hr; cbn [petsc_tracer_hr_scheme petsc_tracer_scheme ts_interior ts_boundary ts_source]; (split; [|split]).
  - intros [|] e e' (Hlen & A & B & C & D) -> ->; rewrite A, B, C, D; [|reflexivity]. apply petsc_tracer_hr_flip; exact Ht.
  - intros eb e' (A & B & C & D & F) ->. rewrite A, C, D, F. reflexivity.
  - intros dt src srcl l F -> ->. reflexivity.
  - intros [|] e e' (Hlen & A & B & C & D) -> ->; rewrite A, B, C, D; [|reflexivity]. rewrite petsc_tracer_edge_flip by exact Ht. apply toflip_both.
  - intros eb e' (A & B & C & D & F) ->. rewrite A, C, D, F. reflexivity.
  - intros dt src srcl l F -> ->. reflexivity.
Qed.

(** ** Loops *)
Section PairLoop.
  Context (owned : nat -> bool) (ar : nat -> R) (kern : bedge * tbcond -> option (tvec * R)).
  Lemma pair_loop_val (k : bedge * tbcond -> tvec * R) l :
    (forall eb, In eb l -> owned (be_c (fst eb)) = true -> kern eb = Some (k eb)) ->
    (forall eb, In eb l -> owned (be_c (fst eb)) = true -> ar (be_c (fst eb)) <> 0) ->
    forall f, exists f', ofold (fun f eb => bedge_update tadd tscal owned ar (fun _ => kern eb) f (fst eb)) l f = Some f' /\
      forall i c, tcomp i (f' c) = tcomp i (f c) + rsum (fun eb => if owned c then if Nat.eqb c (be_c (fst eb)) then - be_len (fst eb) / ar c * tcomp i (fst (k eb)) else 0 else 0) l.
  Proof.
    induction l as [|e t IH]; intros Hk Ha f; cbn [ofold rsum].
    - exists f. split; [reflexivity|]. intros; ring.
    - unfold bedge_update at 1. destruct (owned (be_c (fst e))) eqn:Eo.
      + rewrite (Hk e (or_introl eq_refl) Eo). cbn [obind]. rewrite rdiv_some by (apply (Ha e (or_introl eq_refl) Eo)). cbn [obind].
        destruct (IH (fun x H => Hk x (or_intror H)) (fun x H => Ha x (or_intror H)) (add_at tadd f (be_c (fst e)) (tscal (- be_len (fst e) / ar (be_c (fst e))) (fst (k e))))) as (f' & E & Hv).
        exists f'. split; [exact E|]. intros i c. rewrite Hv. unfold add_at.
        destruct (Nat.eqb_spec c (be_c (fst e))) as [->|Hne]; [rewrite Eo, tcomp_add, tcomp_scal; ring|]. destruct (owned c); ring.
      + cbn [obind]. destruct (IH (fun x H => Hk x (or_intror H)) (fun x H => Ha x (or_intror H)) f) as (f' & E & Hv).
        exists f'. split; [exact E|]. intros i c. rewrite Hv.
        destruct (Nat.eqb_spec c (be_c (fst e))) as [->|Hne]; [rewrite Eo; ring|]. destruct (owned c); ring.
  Qed.
End PairLoop.
Lemma bedge_update_kern owned ar k1 k2 f e : k1 e = k2 e -> bedge_update tadd tscal owned ar k1 f e = bedge_update tadd tscal owned ar k2 f e.
Proof. intros H. unfold bedge_update. rewrite H. reflexivity. Qed.
Lemma ofold_ext {S T} (g h : S -> T -> option S) l s : (forall s t, g s t = h s t) -> ofold g l s = ofold h l s.
Proof. intros E. revert s. induction l as [|t l IH]; intros s; [reflexivity|]. cbn [ofold]. rewrite E. destruct (h s t); [apply IH|reflexivity]. Qed.

(** ** One process *)
Lemma townsb_spec r c : townsb r c = true <-> towns r c.
Proof.
  unfold townsb, towns. rewrite existsb_exists. split.
  - intros (l & Hl & E). apply andb_prop in E. destruct E as (E1 & E2). apply Nat.eqb_eq in E2. eauto.
  - intros (l & Hl & E1 & E2). exists l. split; [exact Hl|]. rewrite E1, E2, Nat.eqb_refl. reflexivity.
Qed.
Section OneRank.
  Variables (s sl : (bedge -> tbcond) -> tscheme) (m : mesh) (bcs : bedge -> tbcond) (r : trank) (dt : R) (src u v f : nat -> tvec).
  Hypothesis Hview : tview (tr_gid r) s sl.
  Hypothesis Hpart : tpart_ok m bcs r.
  Hypothesis Hwf : mesh_wf m.
  Hypothesis Huv : tagree m u v.
  Hypothesis Hrhs : trhs (s bcs) m dt src u = Some f.
  Local Notation gid := (tr_gid r).
  Let vl := tr_local r v.
  Local Notation sl0 := (sl (fun _ => TReflecting)).
  Local Notation bkern := (fun eb : bedge * tbcond => ts_boundary (sl (fun _ => snd eb)) vl (fst eb)).

  Definition tkg (e : iedge) := match ts_interior (s bcs) u e with Some x => x | None => (tzero, tzero, 0) end.
  Definition tkbg (e : bedge) := match ts_boundary (s bcs) u e with Some x => x | None => (tzero, 0) end.
  Lemma tserial_steps : exists f1 f2,
    interior_loop tadd tscal everything (area m) (ts_interior (s bcs) u) (iedges m) (fun _ => tzero) = Some f1 /\
    boundary_loop tadd tscal everything (area m) (ts_boundary (s bcs) u) (bedges m) f1 = Some f2 /\
    source_loop (ts_source (s bcs) dt u src) (cells m) f2 = Some f /\
    (forall k c, tcomp k (f2 c) = tcomp k tzero + rsum (fun e => ecoef everything (area m) e (tcomp k (fst (fst (tkg e)))) (tcomp k (snd (fst (tkg e)))) c) (iedges m)
                 + rsum (fun e => if Nat.eqb c (be_c e) then - be_len e / area m c * tcomp k (fst (tkbg e)) else 0) (bedges m)).
  Proof.
    unfold trhs, tdivergence in Hrhs. assert (E := Hrhs).
    apply obind_some in E. destruct E as (f2 & E & E3). apply obind_some in E. destruct E as (f1 & E1 & E2).
    exists f1, f2. split; [exact E1|]. split; [exact E2|]. split; [exact E3|]. intros k c.
    destruct (interior_loop_val tadd tscal (tcomp k) (tcomp_add k) (tcomp_scal k) everything (area m) (ts_interior (s bcs) u) tkg (iedges m)) with (f := fun _ : nat => tzero) as (f1' & E1' & V1).
    { intros e He. unfold tkg. destruct (iloop_inv tadd tscal _ _ _ _ _ _ E1 e He) as ((x & ->) & _). reflexivity. }
    { intros e He. apply (iloop_inv tadd tscal _ _ _ _ _ _ E1 e He). }
    rewrite E1 in E1'. injection E1' as <-.
    destruct (boundary_loop_val tadd tscal (tcomp k) (tcomp_add k) (tcomp_scal k) everything (area m) (ts_boundary (s bcs) u) tkbg (bedges m)) with (f := f1) as (f2' & E2' & V2).
    { intros e He _. unfold tkbg. destruct (bloop_inv tadd tscal _ _ _ _ _ E2 e He) as ((x & ->) & _). reflexivity. }
    { intros e He _. apply (bloop_inv tadd tscal _ _ _ _ _ E2 e He). }
    rewrite E2 in E2'. injection E2' as <-. rewrite V2, V1. reflexivity.
  Qed.
  Lemma tlocal_state l : In l (tr_cells r) -> vl l = u (gid l).
  Proof. intros Hl. unfold vl, tr_local. symmetry. apply Huv. apply (tn_cells m bcs r Hpart); exact Hl. Qed.
  Definition tkl (e : iedge) := match ts_interior sl0 vl e with Some x => x | None => (tzero, tzero, 0) end.
  Definition tkbl (eb : bedge * tbcond) := match bkern eb with Some x => x | None => (tzero, 0) end.

  Lemma tview_kernel flip e e' f1 :
    interior_loop tadd tscal everything (area m) (ts_interior (s bcs) u) (iedges m) (fun _ => tzero) = Some f1 ->
    In e (tr_iedges r) -> In e' (iedges m) -> eview gid flip e e' ->
    ts_interior sl0 vl e = Some (tkl e) /\ tr_local r (area m) (ie_l e) <> 0 /\ tr_local r (area m) (ie_r e) <> 0 /\
    forall k, (tcomp k (fst (fst (tkl e))), tcomp k (snd (fst (tkl e)))) =
      if flip then (- tcomp k (snd (fst (tkg e'))), - tcomp k (fst (fst (tkg e')))) else (tcomp k (fst (fst (tkg e'))), tcomp k (snd (fst (tkg e')))).
  Proof.
    intros E1 He He' Hv. destruct (tn_iedges m bcs r Hpart e He) as (Hl & Hr).
    destruct (iloop_inv tadd tscal _ _ _ _ _ _ E1 e' He') as (([[fl fr] a] & Ek) & A1 & A2).
    destruct (Hview bcs (fun _ => TReflecting) u vl) as (V & _). specialize (V flip e e' Hv (tlocal_state _ Hl) (tlocal_state _ Hr)).
    assert (Eg : tkg e' = (fl, fr, a)) by (unfold tkg; rewrite Ek; reflexivity). rewrite Ek in V.
    unfold tkl. rewrite V. split; [destruct flip; reflexivity|].
    destruct Hv as (_ & Hg). unfold tr_local. split; [|split].
    - destruct flip; destruct Hg as (G & _ & _); rewrite G; assumption.
    - destruct flip; destruct Hg as (_ & G & _); rewrite G; assumption.
    - intros k. rewrite Eg. destruct flip; cbn [toflip fst snd]; [|reflexivity]. unfold tneg. rewrite !tcomp_scal. apply f_equal2; ring.
  Qed.
  Lemma tview_bkernel eb e' f1 f2 :
    boundary_loop tadd tscal everything (area m) (ts_boundary (s bcs) u) (bedges m) f1 = Some f2 ->
    In eb (tr_bedges r) -> In e' (bedges m) -> tbview gid bcs eb e' ->
    bkern eb = Some (tkbl eb) /\ tr_local r (area m) (be_c (fst eb)) <> 0 /\ tkbl eb = tkbg e'.
  Proof.
    intros E2 He He' Hv. assert (Hc := tn_bedges m bcs r Hpart eb He).
    destruct (bloop_inv tadd tscal _ _ _ _ _ E2 e' He') as ((k & Ek) & A1).
    destruct (Hview bcs (fun _ => TReflecting) u vl) as (_ & V & _). specialize (V eb e' Hv (tlocal_state _ Hc)).
    unfold tkbl, tkbg. rewrite V, Ek. split; [reflexivity|]. split; [|reflexivity].
    unfold tr_local. destruct Hv as (Hg & _). rewrite Hg. exact A1.
  Qed.

  Lemma trank_rhs_ok : exists fl, trank_rhs sl r (area m) dt src v = Some fl /\
      forall l, In l (tr_cells r) -> tr_owned r l = true -> fl l = f (gid l).
  Proof.
    destruct (to_iedges m bcs r Hpart) as (ges & F2i & Ii & Pi). destruct (to_bedges m bcs r Hpart) as (gbs & F2b & Ib & Pb). cbv zeta in Pi, Pb.
    destruct tserial_steps as (f1 & f2 & E1 & E2 & E3 & V).
    assert (Kl : forall e, In e (tr_iedges r) -> ts_interior sl0 vl e = Some (tkl e) /\ tr_local r (area m) (ie_l e) <> 0 /\ tr_local r (area m) (ie_r e) <> 0).
    { intros e He. destruct (Forall2_in_l _ _ _ e F2i He) as (e' & He' & flip & Hv).
      destruct (tview_kernel flip e e' f1 E1 He (Ii e' He') Hv) as (A & B & C & _). auto. }
    assert (Kb : forall e, In e (tr_bedges r) -> bkern e = Some (tkbl e) /\ tr_local r (area m) (be_c (fst e)) <> 0).
    { intros e He. destruct (Forall2_in_l _ _ _ e F2b He) as (e' & He' & Hv).
      destruct (tview_bkernel e e' f1 f2 E2 He (Ib e' He') Hv) as (A & B & _). auto. }
    unfold trank_rhs. fold vl.
    assert (W : forall k, exists g1 g2, interior_loop tadd tscal (tr_owned r) (tr_local r (area m)) (ts_interior sl0 vl) (tr_iedges r) (fun _ => tzero) = Some g1 /\
        ofold (fun f eb => bedge_update tadd tscal (tr_owned r) (tr_local r (area m)) (ts_boundary (sl (fun _ => snd eb)) vl) f (fst eb)) (tr_bedges r) g1 = Some g2 /\
        forall l, In l (tr_cells r) -> tr_owned r l = true -> tcomp k (g2 l) = tcomp k (f2 (gid l))).
    { intros k.
      destruct (interior_loop_val tadd tscal (tcomp k) (tcomp_add k) (tcomp_scal k) (tr_owned r) (tr_local r (area m)) (ts_interior sl0 vl) tkl (tr_iedges r)) with (f := fun _ : nat => tzero) as (g1 & G1 & W1).
      { intros e He. apply Kl; exact He. } { intros e He. apply Kl; exact He. }
      destruct (pair_loop_val (tr_owned r) (tr_local r (area m)) bkern tkbl (tr_bedges r)) with (f := g1) as (g2 & G2 & W2).
      { intros e He _. apply Kb; exact He. } { intros e He _. apply Kb; exact He. }
      exists g1, g2. split; [exact G1|]. split; [rewrite <- G2; apply ofold_ext; intros; apply bedge_update_kern; reflexivity|].
      intros l Hl Ho. rewrite W2, W1, (V k (gid l)).
      assert (Og : townsb r (gid l) = true) by (apply townsb_spec; exists l; auto).
      apply f_equal2; [apply f_equal2; [reflexivity|]|].
      - set (touches := fun e => (townsb r (ie_l e) || townsb r (ie_r e))%bool) in Pi.
        assert (Z : forall e, touches e = false -> ecoef everything (area m) e (tcomp k (fst (fst (tkg e)))) (tcomp k (snd (fst (tkg e)))) (gid l) = 0).
        { intros e Et. unfold touches in Et. apply Bool.orb_false_iff in Et. destruct Et as (T1 & T2). unfold ecoef, everything.
          destruct (Nat.eqb_spec (gid l) (ie_l e)) as [X|]; [rewrite <- X in T1; congruence|].
          destruct (Nat.eqb_spec (gid l) (ie_r e)) as [X|]; [rewrite <- X in T2; congruence|]. ring. }
        rewrite <- (rsum_filter_zero touches (fun e => ecoef everything (area m) e (tcomp k (fst (fst (tkg e)))) (tcomp k (snd (fst (tkg e)))) (gid l)) (iedges m) (fun e _ => Z e)).
        rewrite <- (rsum_perm _ _ _ Pi). rewrite (rsum_filter_zero _ _ _ (fun e _ => Z e)).
        eapply rsum_Forall2; [exact F2i|]. intros e e' (flip & Hv) He He'.
        destruct (tview_kernel flip e e' f1 E1 He (Ii e' He') Hv) as (_ & _ & _ & Hp). specialize (Hp k).
        destruct (tn_iedges m bcs r Hpart e He) as (Hel & Her). unfold ecoef, everything. rewrite Ho. unfold tr_local.
        destruct Hv as (Hlen & Hg). rewrite Hlen.
        assert (T : forall l', In l' (tr_cells r) -> Nat.eqb l l' = Nat.eqb (gid l) (gid l')).
        { intros l' Hl'. destruct (Nat.eqb_spec l l') as [->|N]; [rewrite Nat.eqb_refl; reflexivity|].
          destruct (Nat.eqb_spec (gid l) (gid l')) as [X|]; [exfalso; apply N; apply (tn_inj m bcs r Hpart); assumption|reflexivity]. }
        rewrite !T by assumption. destruct flip; destruct Hg as (-> & -> & _); injection Hp as -> ->.
        + destruct (Nat.eqb (gid l) (ie_l e')); destruct (Nat.eqb (gid l) (ie_r e')); unfold Rdiv; ring.
        + reflexivity.
      - rewrite Ho. set (touches := fun e => townsb r (be_c e)) in Pb.
        assert (Z : forall e, touches e = false -> (if Nat.eqb (gid l) (be_c e) then - be_len e / area m (gid l) * tcomp k (fst (tkbg e)) else 0) = 0).
        { intros e Et. unfold touches in Et. destruct (Nat.eqb_spec (gid l) (be_c e)) as [X|]; [rewrite <- X in Et; congruence|]. reflexivity. }
        rewrite <- (rsum_filter_zero touches (fun e => if Nat.eqb (gid l) (be_c e) then - be_len e / area m (gid l) * tcomp k (fst (tkbg e)) else 0) (bedges m) (fun e _ => Z e)).
        rewrite <- (rsum_perm _ _ _ Pb). rewrite (rsum_filter_zero _ _ _ (fun e _ => Z e)).
        eapply rsum_Forall2; [exact F2b|]. intros e e' Hv He He'.
        destruct (tview_bkernel e e' f1 f2 E2 He (Ib e' He') Hv) as (_ & _ & ->).
        assert (Hel := tn_bedges m bcs r Hpart e He). destruct Hv as (Hg & Hlen & _). rewrite Hlen.
        assert (T1 : Nat.eqb l (be_c (fst e)) = Nat.eqb (gid l) (gid (be_c (fst e)))).
        { destruct (Nat.eqb_spec l (be_c (fst e))) as [->|N]; [rewrite Nat.eqb_refl; reflexivity|].
          destruct (Nat.eqb_spec (gid l) (gid (be_c (fst e)))) as [X|]; [exfalso; apply N; apply (tn_inj m bcs r Hpart); assumption|reflexivity]. }
        rewrite T1, Hg. reflexivity. }
    destruct (W 0%nat) as (g1 & g2 & G1 & G2 & _).
    assert (Hsum : forall l, In l (tr_cells r) -> tr_owned r l = true -> g2 l = f2 (gid l)).
    { intros l Hl Ho. apply tvec_ext. intros k. destruct (W k) as (g1' & g2' & G1' & G2' & Wk). rewrite G1 in G1'. injection G1' as <-. rewrite G2 in G2'. injection G2' as <-. apply Wk; assumption. }
    rewrite G1. cbn [obind]. rewrite G2. cbn [obind]. clear W.
    set (rhs := ts_source sl0 dt vl (tr_local r src)).
    assert (Hsrc : forall l, In l (filter (tr_owned r) (tr_cells r)) -> rhs l (g2 l) = Some (f (gid l))).
    { intros l Hl. apply filter_In in Hl. destruct Hl as (Hl & Ho). rewrite Hsum by assumption.
      destruct (Hview bcs (fun _ => TReflecting) u vl) as (_ & _ & S). unfold rhs. rewrite (S dt src (tr_local r src) l (f2 (gid l)) (tlocal_state l Hl) eq_refl).
      apply (source_loop_val _ _ (proj1 Hwf) _ _ E3). apply (tn_cells m bcs r Hpart); exact Hl. }
    assert (Hnd : NoDup (filter (tr_owned r) (tr_cells r))) by (apply NoDup_filter; apply (tn_nodup m bcs r Hpart)).
    destruct (source_loop_some rhs _ Hnd g2) as (fl & Efl); [intros l Hl; rewrite (Hsrc l Hl); eauto|].
    exists fl. split; [exact Efl|]. intros l Hl Ho.
    assert (Hf : In l (filter (tr_owned r) (tr_cells r))) by (apply filter_In; auto).
    assert (X := source_loop_val rhs _ Hnd g2 fl Efl l Hf). rewrite (Hsrc l Hf) in X. injection X as <-. reflexivity.
  Qed.
End OneRank.

(** ** All processes *)
Lemma tgather_ok (fs : list (trank * (nat -> tvec))) f c :
  (forall r fl l, In (r, fl) fs -> In l (tr_cells r) -> tr_owned r l = true -> fl l = f (tr_gid r l)) ->
  (exists r fl, In (r, fl) fs /\ towns r c) -> tgather fs c = f c.
Proof.
  induction fs as [|[r fl] t IH]; intros H (r0 & fl0 & Hin & Ho); [destruct Hin|]. cbn [tgather].
  destruct (find _ (tr_cells r)) as [l|] eqn:E.
  - apply find_some in E. destruct E as (Hl & E). apply andb_prop in E. destruct E as (E1 & E2). apply Nat.eqb_eq in E2.
    rewrite (H r fl l (or_introl eq_refl) Hl E1), E2. reflexivity.
  - apply IH; [intros; eapply H; try right; eassumption|].
    destruct Hin as [X|Hin]; [|eauto]. injection X as -> ->. destruct Ho as (l & Hl & O1 & O2).
    assert (B := find_none _ _ E l Hl). cbv beta in B. rewrite O1, O2, Nat.eqb_refl in B. discriminate.
Qed.
Lemma tpar_rhs_ok x m bcs rs dt src u v f :
  0 < tc_tiny x -> mesh_wf m -> tdecomposes x m bcs rs -> tagree m u v -> trhs (tscheme_of x bcs) m dt src u = Some f ->
  exists k, tpar_rhs rs (area m) dt src v = Some k /\ tagree m f k.
Proof.
  intros Ht Hwf (Hr & Hcov) Huv Hf. unfold tpar_rhs.
  assert (HR : forall p, In p rs -> exists fl, trank_rhs (snd p) (fst p) (area m) dt src v = Some fl /\
    forall l, In l (tr_cells (fst p)) -> tr_owned (fst p) l = true -> fl l = f (tr_gid (fst p) l)).
  { intros [r sl] Hin. destruct (Hr r sl Hin) as (-> & Hp). cbn [fst snd]. apply (trank_rhs_ok (tscheme_of x) _ m bcs r dt src u v f); try assumption. apply tscheme_of_view; exact Ht. }
  destruct (omap_all (fun p => trank_rhs (snd p) (fst p) (area m) dt src v) rs) as (fs & -> & Hlen & Hc).
  { intros p Hp. destruct (HR p Hp) as (fl & E & _). eauto. }
  cbn [obind]. eexists; split; [reflexivity|]. intros c Hcell. symmetry. apply tgather_ok.
  - intros r fl l Hin Hl Ho. destruct (combine_fst rs fs Hlen r fl Hin) as (sl & Hin').
    destruct (Hc _ _ Hin') as (Hp & E). destruct (HR (r, sl) Hp) as (fl' & E' & H). cbn [fst snd] in *. rewrite E in E'. injection E' as <-. auto.
  - destruct (Hcov c Hcell) as (r & sl & Hin & Ho). destruct (combine_fst_in rs fs Hlen (r, sl) Hin) as (fl & H1 & _). exists r, fl. auto.
Qed.

Lemma tagree_axpy m u v a f k : tagree m u v -> tagree m f k -> tagree m (taxpy u a f) (taxpy v a k).
Proof. intros H1 H2 c Hc. unfold taxpy. rewrite (H1 c Hc), (H2 c Hc). reflexivity. Qed.
Lemma tts_step_agree m i F G dt u v u' :
  (forall u v f, tagree m u v -> F u = Some f -> exists k, G v = Some k /\ tagree m f k) ->
  tagree m u v -> tts_step i F dt u = Some u' -> exists v', tts_step i G dt v = Some v' /\ tagree m u' v'.
Proof.
  intros H Huv. destruct i; cbn [tts_step].
  - unfold teuler_step. intros E. apply obind_some in E. destruct E as (f & Ef & E). injection E as <-.
    destruct (H u v f Huv Ef) as (k & -> & Hk). cbn [obind]. eexists; split; [reflexivity|]. apply tagree_axpy; assumption.
  - unfold trk4_step. intros E.
    apply obind_some in E. destruct E as (f1 & E1 & E). destruct (H u v f1 Huv E1) as (k1 & -> & A1). cbn [obind].
    apply obind_some in E. destruct E as (f2 & E2 & E). destruct (H _ (taxpy v (dt / 2) k1) f2 (tagree_axpy _ _ _ _ _ _ Huv A1) E2) as (k2 & -> & A2). cbn [obind].
    apply obind_some in E. destruct E as (f3 & E3 & E). destruct (H _ (taxpy v (dt / 2) k2) f3 (tagree_axpy _ _ _ _ _ _ Huv A2) E3) as (k3 & -> & A3). cbn [obind].
    apply obind_some in E. destruct E as (f4 & E4 & E). destruct (H _ (taxpy v dt k3) f4 (tagree_axpy _ _ _ _ _ _ Huv A3) E4) as (k4 & -> & A4). cbn [obind].
    injection E as <-. eexists; split; [reflexivity|]. repeat apply tagree_axpy; assumption.
Qed.
