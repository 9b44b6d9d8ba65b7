(** Lemmas about domain decomposition. *)
From Verif Require Import Base RoeModel RoeProofs EdgeModel EdgeProofs HRModel HRProofs SourceModel SourceProofs AssemblyModel AssemblyProofs DecompModel DecompSpec.

(** ** Edge reversal, for every input *)
Definition vneg (v : vec3) : vec3 := vscal (-1) v.
Definition oflip (r : option (vec3 * vec3 * R)) : option (vec3 * vec3 * R) :=
  match r with Some (fl, fr, a) => Some (vneg fr, vneg fl, a) | None => None end.
Lemma oflip_both r : both (oneg r) = oflip (both r).
Proof. destruct r as [[f a]|]; reflexivity. Qed.

Lemma petsc_roe_flux_neg_r L Rt sn cn : 0 <= ph L -> ph Rt < 0 -> petsc_roe_flux L Rt sn cn = None.
Proof.
  intros Hl Hr. unfold petsc_roe_flux, petsc_eigenspectrum. rewrite rsqrt_some by exact Hl. cbn [obind].
  rewrite rsqrt_none by exact Hr. reflexivity.
Qed.
Lemma petsc_roe_flux_any_neg L Rt sn cn : ph L < 0 \/ ph Rt < 0 -> petsc_roe_flux L Rt sn cn = None.
Proof.
  intros H. destruct (Rlt_dec (ph L) 0); [apply petsc_roe_flux_negative; assumption|].
  apply petsc_roe_flux_neg_r; lra.
Qed.
Lemma ceed_roe_flux_any_neg g tiny ha qL qR sn cn dhv : 0 <= tiny -> c0 qL < 0 \/ c0 qR < 0 -> ceed_roe_flux g tiny ha qL qR sn cn dhv = None.
Proof.
  intros Ht H. unfold ceed_roe_flux. rewrite !ceed_velocities_some by exact Ht. cbn [obind].
  unfold ceed_eigenspectrum. rewrite !cvel_h. destruct (rsqrt g); [|reflexivity]. cbn [obind].
  destruct (Rlt_dec (c0 qL) 0).
  - rewrite (rsqrt_none (c0 qL)) by assumption. reflexivity.
  - rewrite (rsqrt_some (c0 qL)) by lra. cbn [obind]. rewrite (rsqrt_none (c0 qR)) by lra. reflexivity.
Qed.

Lemma petsc_interior_flip tiny ha qL qR sn cn :
  0 < tiny -> petsc_interior_edge tiny ha qR qL (- sn) (- cn) = oneg (petsc_interior_edge tiny ha qL qR sn cn).
Proof.
  intros Ht. destruct (Rlt_dec (c0 qL) 0) as [Hl|Hl]; [|destruct (Rlt_dec (c0 qR) 0) as [Hr|Hr]; [|apply petsc_interior_reverse; lra]].
  - unfold petsc_interior_edge. rewrite !petsc_velocities_some by exact Ht. cbn [obind]. unfold prim_dry. rewrite !pvel_h.
    rewrite (Bool.andb_comm (c0 qL <? tiny)). destruct (_ && _)%bool.
    + cbn. unfold vscal, vzero; cbn. rewrite !Rmult_0_r. reflexivity.
    + rewrite !petsc_roe_flux_any_neg by (rewrite !pvel_h; auto). reflexivity.
  - unfold petsc_interior_edge. rewrite !petsc_velocities_some by exact Ht. cbn [obind]. unfold prim_dry. rewrite !pvel_h.
    rewrite (Bool.andb_comm (c0 qL <? tiny)). destruct (_ && _)%bool.
    + cbn. unfold vscal, vzero; cbn. rewrite !Rmult_0_r. reflexivity.
    + rewrite !petsc_roe_flux_any_neg by (rewrite !pvel_h; auto). reflexivity.
Qed.
Lemma ceed_interior_flip tiny ha qL qR sn cn :
  0 < tiny -> ceed_interior_edge GRAVITY tiny ha qR qL (- sn) (- cn) 0 = oneg (ceed_interior_edge GRAVITY tiny ha qL qR sn cn 0).
Proof.
  intros Ht. destruct (Rlt_dec (c0 qL) 0) as [Hl|Hl]; [|destruct (Rlt_dec (c0 qR) 0) as [Hr|Hr]].
  3:{ rewrite <- (ceed_interior_reverse GRAVITY tiny ha qL qR sn cn 0) by (try apply GRAVITY_pos; lra). rewrite Ropp_0. reflexivity. }
  - unfold ceed_interior_edge. rewrite (Bool.orb_comm (tiny <? c0 qR)). destruct (_ || _)%bool.
    + rewrite !ceed_roe_flux_any_neg by (auto; lra). reflexivity.
    + cbn. unfold vscal, vzero; cbn. rewrite !Rmult_0_r. reflexivity.
  - unfold ceed_interior_edge. rewrite (Bool.orb_comm (tiny <? c0 qR)). destruct (_ || _)%bool.
    + rewrite !ceed_roe_flux_any_neg by (auto; lra). reflexivity.
    + cbn. unfold vscal, vzero; cbn. rewrite !Rmult_0_r. reflexivity.
Qed.

Lemma hr_depth_nonneg h z zo : 0 <= hr_depth h z zo. Proof. apply Rmax_l. Qed.
Lemma vneg_corr g f f' h r sn cn : f' = vneg f -> vadd f' (hr_correction g h r (- sn) (- cn)) = vneg (vadd f (hr_correction g h r sn cn)).
Proof. intros ->. unfold vneg, vadd, vscal, hr_correction; apply vec3_ext; cbn [c0 c1 c2]; ring. Qed.
Lemma vneg_0 : vzero = vneg vzero.
Proof. unfold vneg, vscal, vzero. apply vec3_ext; cbn [c0 c1 c2]; ring. Qed.

Lemma petsc_hr_flip tiny ha zL zR qL qR sn cn :
  0 < tiny -> petsc_hr_edge tiny ha zR zL qR qL (- sn) (- cn) = oflip (petsc_hr_edge tiny ha zL zR qL qR sn cn).
Proof.
  intros Ht. unfold petsc_hr_edge, hr_velocity. rewrite (Bool.andb_comm (c0 qL <? tiny)).
  destruct (_ && _)%bool; [cbn; unfold vneg, vscal, vzero; cbn; rewrite !Rmult_0_r; reflexivity|].
  rewrite !ceed_velocities_some by lra. cbn [obind].
  set (rl := hr_depth (c0 qL) zL zR). set (rr := hr_depth (c0 qR) zR zL).
  assert (Hl : 0 <= rl) by apply hr_depth_nonneg. assert (Hr : 0 <= rr) by apply hr_depth_nonneg.
  rewrite (Bool.orb_comm (tiny <? rr)). destruct ((tiny <? rl) || (tiny <? rr))%bool eqn:E.
  - assert (Hw : 0 < rl + rr) by (apply Bool.orb_true_iff in E; rewrite !Rltb_true in E; lra).
    rewrite !petsc_roe_flux_some by (unfold wetpair; cbn [ph]; lra). cbn [obind oflip].
    rewrite amax_reverse. f_equal. f_equal. f_equal; apply vneg_corr;
    rewrite (pflux_reverse GRAVITY (Prim rl (pu (cvel tiny ha qL)) (pv (cvel tiny ha qL)))) by (try apply GRAVITY_pos; unfold wetpair; cbn [ph]; lra); reflexivity.
  - cbn [obind oflip]. f_equal. f_equal. f_equal; apply vneg_corr; apply vneg_0.
Qed.
Lemma ceed_hr_flip tiny ha zL zR qL qR sn cn :
  0 < tiny -> ceed_hr_edge GRAVITY tiny ha zR zL qR qL (- sn) (- cn) = oflip (ceed_hr_edge GRAVITY tiny ha zL zR qL qR sn cn).
Proof.
  intros Ht. unfold ceed_hr_edge. rewrite !ceed_velocities_some by lra. cbn [obind]. rewrite (Bool.orb_comm (tiny <? c0 qR)).
  destruct (_ || _)%bool; [|cbn; unfold vneg, vscal, vzero; cbn; rewrite !Rmult_0_r; reflexivity].
  set (rl := hr_depth (c0 qL) zL zR). set (rr := hr_depth (c0 qR) zR zL).
  assert (Hl : 0 <= rl) by apply hr_depth_nonneg. assert (Hr : 0 <= rr) by apply hr_depth_nonneg.
  rewrite (Bool.orb_comm (tiny <? rr)). destruct ((tiny <? rl) || (tiny <? rr))%bool eqn:E.
  - assert (Hw : 0 < rl + rr) by (apply Bool.orb_true_iff in E; rewrite !Rltb_true in E; lra).
    rewrite !ceed_roe_flux_some by (try apply GRAVITY_pos; cbn [c0]; lra). cbn [obind oflip].
    rewrite amax_reverse, !cflux_0.
    set (Q1 := V3 rl _ _). set (Q2 := V3 rr _ _).
    assert (W : wetpair (cvel tiny ha Q1) (cvel tiny ha Q2)) by (unfold wetpair; rewrite !cvel_h; unfold Q1, Q2; cbn [c0]; lra).
    f_equal. f_equal. f_equal; apply vneg_corr; rewrite (pflux_reverse GRAVITY (cvel tiny ha Q1)) by (try apply GRAVITY_pos; exact W); reflexivity.
  - cbn [obind oflip]. f_equal. f_equal. f_equal; apply vneg_corr; apply vneg_0.
Qed.

(** ** Views *)
(* a process's edge [e] is the edge [e'] of the whole mesh, possibly traversed the other way *)
Definition scheme_view (gid : nat -> nat) (s sl : scheme) : Prop :=
  forall u ul,
  (forall flip e e', eview gid flip e e' -> ul (ie_l e) = u (gid (ie_l e)) -> ul (ie_r e) = u (gid (ie_r e)) ->
     s_interior sl ul e = if flip then oflip (s_interior s u e') else s_interior s u e') /\
  (forall e e', bview gid e e' -> ul (be_c e) = u (gid (be_c e)) -> s_boundary sl ul e = s_boundary s u e') /\
  (forall dt src srcl l F, ul l = u (gid l) -> srcl l = src (gid l) -> s_source sl dt ul srcl l F = s_source s dt u src (gid l) F).

Lemma petsc_view gid tiny ha fr g : 0 < tiny -> scheme_view gid (petsc_scheme tiny ha fr g) (petsc_scheme tiny ha fr (geom_at gid g)).
Proof.
  intros Ht u ul. cbn [s_interior s_boundary s_source petsc_scheme]. split; [|split].
  - intros [|] e e' (Hlen & A & B & C & D) -> ->; rewrite A, B, C, D; [|reflexivity].
    rewrite petsc_interior_flip by exact Ht. apply oflip_both.
  - intros e e' (A & B & C & D & F) ->. rewrite A, C, D, F. reflexivity.
  - intros dt src srcl l F -> ->. reflexivity.
Qed.
Lemma ceed_view gid tiny ha fr g : 0 < tiny ->
  scheme_view gid (ceed_scheme tiny ha (fun _ _ => 0) (fun _ _ => 0) fr g) (ceed_scheme tiny ha (fun _ _ => 0) (fun _ _ => 0) fr (geom_at gid g)).
Proof.
  intros Ht u ul. cbn [s_interior s_boundary s_source ceed_scheme]. split; [|split].
  - intros [|] e e' (Hlen & A & B & C & D) -> ->; rewrite A, B, C, D; [|reflexivity].
    rewrite ceed_interior_flip by exact Ht. apply oflip_both.
  - intros e e' (A & B & C & D & F) ->. rewrite A, C, D, F. reflexivity.
  - intros dt src srcl l F -> ->. reflexivity.
Qed.
Lemma petsc_hr_view gid tiny ha z fr g : 0 < tiny ->
  scheme_view gid (petsc_hr_scheme tiny ha z fr g) (petsc_hr_scheme tiny ha (fun l => z (gid l)) fr (geom_at gid g)).
Proof.
  intros Ht u ul. cbn [s_interior s_boundary s_source petsc_hr_scheme]. split; [|split].
  - intros [|] e e' (Hlen & A & B & C & D) -> ->; rewrite A, B, C, D; [|reflexivity].
    rewrite petsc_hr_flip by exact Ht. reflexivity.
  - intros e e' (A & B & C & D & F) ->. rewrite A, C, D, F. reflexivity.
  - intros dt src srcl l F -> ->. reflexivity.
Qed.
Lemma ceed_hr_view gid tiny ha z fr g : 0 < tiny ->
  scheme_view gid (ceed_hr_scheme tiny ha z fr g) (ceed_hr_scheme tiny ha (fun l => z (gid l)) fr (geom_at gid g)).
Proof.
  intros Ht u ul. cbn [s_interior s_boundary s_source ceed_hr_scheme]. split; [|split].
  - intros [|] e e' (Hlen & A & B & C & D) -> ->; rewrite A, B, C, D; [|reflexivity].
    rewrite ceed_hr_flip by exact Ht. reflexivity.
  - intros e e' (A & B & C & D & F) ->. rewrite A, C, D, F. reflexivity.
  - intros dt src srcl l F -> ->. reflexivity.
Qed.

(** ** Sums over related lists *)
Lemma rsum_Forall2 {A B} (P : A -> B -> Prop) (f : A -> R) (g : B -> R) l1 l2 :
  Forall2 P l1 l2 -> (forall a b, P a b -> In a l1 -> In b l2 -> f a = g b) -> rsum f l1 = rsum g l2.
Proof.
  induction 1 as [|a b t1 t2 H Ht IH]; intros Hf; cbn [rsum]; [reflexivity|].
  rewrite (Hf a b H) by (left; reflexivity). rewrite IH; [reflexivity|]. intros; apply Hf; auto; right; assumption.
Qed.
Lemma Forall2_in_l {A B} (P : A -> B -> Prop) l1 l2 a : Forall2 P l1 l2 -> In a l1 -> exists b, In b l2 /\ P a b.
Proof.
  induction 1 as [|x y t1 t2 H Ht IH]; intros Hin; [destruct Hin|].
  destruct Hin as [<-|Hin]; [exists y; split; [left; reflexivity|exact H]|].
  destruct (IH Hin) as (b & Hb & Pb). exists b. split; [right; exact Hb|exact Pb].
Qed.
Lemma rsum_filter_zero {A} (p : A -> bool) (f : A -> R) l : (forall a, In a l -> p a = false -> f a = 0) -> rsum f (filter p l) = rsum f l.
Proof.
  intros H. rewrite rsum_filter. apply rsum_ext. intros a Ha. destruct (p a) eqn:E; [reflexivity|]. symmetry. apply H; assumption.
Qed.
Lemma rsum_concat {A} (f : A -> R) ls : rsum f (concat ls) = rsum (fun l => rsum f l) ls.
Proof. induction ls as [|l t IH]; cbn [concat rsum]; [reflexivity|]. rewrite rsum_app, IH. reflexivity. Qed.

(** ** What success of a loop says about its edges *)
Lemma interior_loop_inv owned area kern edges : forall f f',
  interior_loop vadd vscal owned area kern edges f = Some f' ->
  forall e, In e edges -> (exists k, kern e = Some k) /\ area (ie_l e) <> 0 /\ area (ie_r e) <> 0.
Proof.
  unfold interior_loop. induction edges as [|a t IH]; intros f f' E e He; [destruct He|]. cbn [ofold] in E.
  apply obind_some in E. destruct E as (f1 & E1 & E2). destruct He as [<-|He]; [|eapply IH; eassumption].
  unfold edge_update in E1. destruct (kern a) as [[[fl fr] b]|]; cbn [obind] in E1; [|discriminate].
  destruct (rdiv _ (area (ie_l a))) eqn:D1; cbn [obind] in E1; [|discriminate].
  destruct (rdiv _ (area (ie_r a))) eqn:D2; cbn [obind] in E1; [|discriminate].
  apply rdiv_inv in D1. apply rdiv_inv in D2. split; [eauto|]. tauto.
Qed.
Lemma boundary_loop_inv area kern edges : forall f f',
  boundary_loop vadd vscal everything area kern edges f = Some f' ->
  forall e, In e edges -> (exists k, kern e = Some k) /\ area (be_c e) <> 0.
Proof.
  unfold boundary_loop. induction edges as [|a t IH]; intros f f' E e He; [destruct He|]. cbn [ofold] in E.
  apply obind_some in E. destruct E as (f1 & E1 & E2). destruct He as [<-|He]; [|eapply IH; eassumption].
  unfold bedge_update, everything in E1. destruct (kern a) as [[fl b]|]; cbn [obind] in E1; [|discriminate].
  destruct (rdiv _ _) eqn:D1; cbn [obind] in E1; [|discriminate]. apply rdiv_inv in D1. split; [eauto|tauto].
Qed.

(** ** One process *)
Lemma ownsb_spec r c : ownsb r c = true <-> owns r c.
Proof.
  unfold ownsb, owns, owner_test. rewrite existsb_exists. split.
  - intros (l & Hl & E). apply andb_prop in E. destruct E as (E1 & E2). apply Nat.eqb_eq in E2. eauto.
  - intros (l & Hl & E1 & E2). exists l. split; [exact Hl|]. rewrite E1, E2, Nat.eqb_refl. reflexivity.
Qed.
Section OneRank.
  Variables (s sl : scheme) (m : mesh) (r : rank) (dt : R) (src u v f : nat -> vec3).
  Hypothesis Hview : scheme_view (rk_gid r) s sl.
  Hypothesis Hnum : numbering_ok m r.
  Hypothesis Hwf : mesh_wf m.
  Hypothesis Huv : agree m u v.
  Hypothesis Hrhs : rhs_domain s m dt src u = Some f.
  Local Notation gid := (rk_gid r).
  Let vl := to_local r v.

  Definition kg (e : iedge) := match s_interior s u e with Some x => x | None => (vzero, vzero, 0) end.
  Definition kbg (e : bedge) := match s_boundary s u e with Some x => x | None => (vzero, 0) end.

  (* the serial computation, unfolded *)
  Lemma serial_steps : exists f1 f2,
    interior_loop vadd vscal everything (area m) (s_interior s u) (iedges m) zero_field = Some f1 /\
    boundary_loop vadd vscal everything (area m) (s_boundary s u) (bedges m) f1 = Some f2 /\
    source_loop (s_source s dt u src) (cells m) f2 = Some f /\
    (forall p : vec3 -> R, (forall a b, p (vadd a b) = p a + p b) -> (forall a b, p (vscal a b) = a * p b) ->
      forall c, p (f2 c) = p vzero + rsum (fun e => ecoef everything (area m) e (p (fst (fst (kg e)))) (p (snd (fst (kg e)))) c) (iedges m)
                 + rsum (fun e => if Nat.eqb c (be_c e) then - be_len e / area m c * p (fst (kbg e)) else 0) (bedges m)).
  Proof.
    unfold rhs_domain, flux_divergence in Hrhs. assert (E := Hrhs).
    apply obind_some in E. destruct E as (f2 & E & E3). apply obind_some in E. destruct E as (f1 & E1 & E2).
    exists f1, f2. split; [exact E1|]. split; [exact E2|]. split; [exact E3|]. intros p Pa Ps c.
    destruct (interior_loop_val vadd vscal p Pa Ps everything (area m) (s_interior s u) kg (iedges m)) with (f := zero_field) as (f1' & E1' & V1).
    { intros e He. unfold kg. destruct (interior_loop_inv _ _ _ _ _ _ E1 e He) as ((k & ->) & _). reflexivity. }
    { intros e He. apply (interior_loop_inv _ _ _ _ _ _ E1 e He). }
    rewrite E1 in E1'. injection E1' as <-.
    destruct (boundary_loop_val vadd vscal p Pa Ps everything (area m) (s_boundary s u) kbg (bedges m)) with (f := f1) as (f2' & E2' & V2).
    { intros e He _. unfold kbg. destruct (boundary_loop_inv _ _ _ _ _ E2 e He) as ((k & ->) & _). reflexivity. }
    { intros e He _. apply (boundary_loop_inv _ _ _ _ _ E2 e He). }
    rewrite E2 in E2'. injection E2' as <-. rewrite V2, V1. reflexivity.
  Qed.

  Lemma local_state l : In l (rk_cells r) -> vl l = u (gid l).
  Proof. intros Hl. unfold vl, to_local. symmetry. apply Huv. apply (nu_cells m r Hnum); exact Hl. Qed.

  Definition kl (e : iedge) := match s_interior sl vl e with Some x => x | None => (vzero, vzero, 0) end.
  Definition kbl (e : bedge) := match s_boundary sl vl e with Some x => x | None => (vzero, 0) end.

  Lemma view_kernel flip e e' f1 :
    interior_loop vadd vscal everything (area m) (s_interior s u) (iedges m) zero_field = Some f1 ->
    In e (rk_iedges r) -> In e' (iedges m) -> eview gid flip e e' ->
    s_interior sl vl e = Some (kl e) /\ to_local r (area m) (ie_l e) <> 0 /\ to_local r (area m) (ie_r e) <> 0 /\
    forall p : vec3 -> R, (forall a b, p (vscal a b) = a * p b) ->
      (p (fst (fst (kl e))), p (snd (fst (kl e)))) =
      if flip then (- p (snd (fst (kg e'))), - p (fst (fst (kg e')))) else (p (fst (fst (kg e'))), p (snd (fst (kg e')))).
  Proof.
    intros E1 He He' Hv. destruct (nu_iedges m r Hnum e He) as (Hl & Hr).
    destruct (interior_loop_inv _ _ _ _ _ _ E1 e' He') as (([[fl fr] a] & Ek) & A1 & A2).
    destruct (Hview u vl) as (V & _). specialize (V flip e e' Hv (local_state _ Hl) (local_state _ Hr)).
    assert (Eg : kg e' = (fl, fr, a)) by (unfold kg; rewrite Ek; reflexivity). rewrite Ek in V.
    unfold kl. rewrite V. split; [destruct flip; reflexivity|].
    destruct Hv as (_ & Hg). unfold to_local. split; [|split].
    - destruct flip; destruct Hg as (G & _ & _); rewrite G; assumption.
    - destruct flip; destruct Hg as (_ & G & _); rewrite G; assumption.
    - intros p Ps. rewrite Eg. destruct flip; cbn [oflip fst snd]; [|reflexivity]. unfold vneg. rewrite !Ps. f_equal; ring.
  Qed.

  Lemma view_bkernel e e' f1 f2 :
    boundary_loop vadd vscal everything (area m) (s_boundary s u) (bedges m) f1 = Some f2 ->
    In e (rk_bedges r) -> In e' (bedges m) -> bview gid e e' ->
    s_boundary sl vl e = Some (kbl e) /\ to_local r (area m) (be_c e) <> 0 /\ kbl e = kbg e'.
  Proof.
    intros E2 He He' Hv. assert (Hc := nu_bedges m r Hnum e He).
    destruct (boundary_loop_inv _ _ _ _ _ E2 e' He') as ((k & Ek) & A1).
    destruct (Hview u vl) as (_ & V & _). specialize (V e e' Hv (local_state _ Hc)).
    unfold kbl, kbg. rewrite V, Ek. split; [reflexivity|]. split; [|reflexivity].
    unfold to_local. destruct Hv as (Hg & _).  rewrite Hg. exact A1.
  Qed.

  (** all local edges, owned cells *)
  Lemma rank_rhs_ok : overlap_ok m r ->
    exists fl, rank_rhs sl r (area m) dt src v = Some fl /\
      forall l, In l (rk_cells r) -> rk_owned r l = true -> fl l = f (gid l).
  Proof.
    intros [(ges & F2i & Ii & Pi) (gbs & F2b & Ib & Pb)].
    destruct serial_steps as (f1 & f2 & E1 & E2 & E3 & V).
    assert (Kl : forall e, In e (rk_iedges r) -> s_interior sl vl e = Some (kl e) /\ to_local r (area m) (ie_l e) <> 0 /\ to_local r (area m) (ie_r e) <> 0).
    { intros e He. destruct (Forall2_in_l _ _ _ e F2i He) as (e' & He' & flip & Hv).
      destruct (view_kernel flip e e' f1 E1 He (Ii e' He') Hv) as (A & B & C & _). auto. }
    assert (Kb : forall e, In e (rk_bedges r) -> s_boundary sl vl e = Some (kbl e) /\ to_local r (area m) (be_c e) <> 0).
    { intros e He. destruct (Forall2_in_l _ _ _ e F2b He) as (e' & He' & Hv).
      destruct (view_bkernel e e' f1 f2 E2 He (Ib e' He') Hv) as (A & B & _). auto. }
    unfold rank_rhs. fold vl.
    assert (W : forall p : vec3 -> R, (forall a b, p (vadd a b) = p a + p b) -> (forall a b, p (vscal a b) = a * p b) ->
      exists g1 g2, interior_loop vadd vscal (rk_owned r) (to_local r (area m)) (s_interior sl vl) (rk_iedges r) zero_field = Some g1 /\
        boundary_loop vadd vscal (rk_owned r) (to_local r (area m)) (s_boundary sl vl) (rk_bedges r) g1 = Some g2 /\
        forall l, In l (rk_cells r) -> rk_owned r l = true -> p (g2 l) = p (f2 (gid l))).
    { intros p Pa Ps.
      destruct (interior_loop_val vadd vscal p Pa Ps (rk_owned r) (to_local r (area m)) (s_interior sl vl) kl (rk_iedges r)) with (f := zero_field) as (g1 & G1 & W1).
      { intros e He. apply Kl; exact He. } { intros e He. apply Kl; exact He. }
      destruct (boundary_loop_val vadd vscal p Pa Ps (rk_owned r) (to_local r (area m)) (s_boundary sl vl) kbl (rk_bedges r)) with (f := g1) as (g2 & G2 & W2).
      { intros e He _. apply Kb; exact He. } { intros e He _. apply Kb; exact He. }
      exists g1, g2. split; [exact G1|]. split; [exact G2|]. intros l Hl Ho. rewrite W2, W1, (V p Pa Ps (gid l)). unfold zero_field.
      assert (Og : ownsb r (gid l) = true) by (apply ownsb_spec; exists l; auto).
      f_equal; [f_equal|].
      - rewrite <- (rsum_filter_zero (touches r) (fun e => ecoef everything (area m) e (p (fst (fst (kg e)))) (p (snd (fst (kg e)))) (gid l)) (iedges m)).
        2:{ intros e _ Et. unfold touches in Et. apply Bool.orb_false_iff in Et. destruct Et as (T1 & T2). unfold ecoef, everything.
            destruct (Nat.eqb_spec (gid l) (ie_l e)) as [X|]; [rewrite <- X in T1; congruence|].
            destruct (Nat.eqb_spec (gid l) (ie_r e)) as [X|]; [rewrite <- X in T2; congruence|]. ring. }
        rewrite <- (rsum_perm _ _ _ Pi). rewrite rsum_filter_zero.
        2:{ intros e _ Et. unfold touches in Et. apply Bool.orb_false_iff in Et. destruct Et as (T1 & T2). unfold ecoef, everything.
            destruct (Nat.eqb_spec (gid l) (ie_l e)) as [X|]; [rewrite <- X in T1; congruence|].
            destruct (Nat.eqb_spec (gid l) (ie_r e)) as [X|]; [rewrite <- X in T2; congruence|]. ring. }
        eapply rsum_Forall2; [exact F2i|]. intros e e' (flip & Hv) He He'.
        destruct (view_kernel flip e e' f1 E1 He (Ii e' He') Hv) as (_ & _ & _ & Hp). specialize (Hp p Ps).
        destruct (nu_iedges m r Hnum e He) as (Hel & Her). unfold ecoef, everything. rewrite Ho. unfold to_local. 
        destruct Hv as (Hlen & Hg). rewrite Hlen.
        assert (T1 : Nat.eqb l (ie_l e) = Nat.eqb (gid l) (gid (ie_l e))).
        { destruct (Nat.eqb_spec l (ie_l e)) as [->|N]; [rewrite Nat.eqb_refl; reflexivity|].
          destruct (Nat.eqb_spec (gid l) (gid (ie_l e))) as [X|]; [exfalso; apply N; apply (nu_inj m r Hnum); assumption|reflexivity]. }
        assert (T2 : Nat.eqb l (ie_r e) = Nat.eqb (gid l) (gid (ie_r e))).
        { destruct (Nat.eqb_spec l (ie_r e)) as [->|N]; [rewrite Nat.eqb_refl; reflexivity|].
          destruct (Nat.eqb_spec (gid l) (gid (ie_r e))) as [X|]; [exfalso; apply N; apply (nu_inj m r Hnum); assumption|reflexivity]. }
        rewrite T1, T2. destruct flip; destruct Hg as (-> & -> & _); injection Hp as -> ->.
        + destruct (Nat.eqb (gid l) (ie_l e')); destruct (Nat.eqb (gid l) (ie_r e')); unfold Rdiv; ring.
        + reflexivity.
      - rewrite Ho.
        rewrite <- (rsum_filter_zero (btouches r) (fun e => if Nat.eqb (gid l) (be_c e) then - be_len e / area m (gid l) * p (fst (kbg e)) else 0) (bedges m)).
        2:{ intros e _ Et. unfold btouches in Et. destruct (Nat.eqb_spec (gid l) (be_c e)) as [X|]; [rewrite <- X in Et; congruence|]. reflexivity. }
        rewrite <- (rsum_perm _ _ _ Pb). rewrite rsum_filter_zero.
        2:{ intros e _ Et. unfold btouches in Et. destruct (Nat.eqb_spec (gid l) (be_c e)) as [X|]; [rewrite <- X in Et; congruence|]. reflexivity. }
        eapply rsum_Forall2; [exact F2b|]. intros e e' Hv He He'.
        destruct (view_bkernel e e' f1 f2 E2 He (Ib e' He') Hv) as (_ & _ & ->).
        assert (Hel := nu_bedges m r Hnum e He). destruct Hv as (Hg & Hlen & _). rewrite Hlen.
        assert (T1 : Nat.eqb l (be_c e) = Nat.eqb (gid l) (gid (be_c e))).
        { destruct (Nat.eqb_spec l (be_c e)) as [->|N]; [rewrite Nat.eqb_refl; reflexivity|].
          destruct (Nat.eqb_spec (gid l) (gid (be_c e))) as [X|]; [exfalso; apply N; apply (nu_inj m r Hnum); assumption|reflexivity]. }
        rewrite T1.  rewrite Hg. reflexivity. }
    destruct (W c0 (fun _ _ => eq_refl) (fun _ _ => eq_refl)) as (g1 & g2 & G1 & G2 & W0).
    destruct (W c1 (fun _ _ => eq_refl) (fun _ _ => eq_refl)) as (g1' & g2' & G1' & G2' & W1).
    destruct (W c2 (fun _ _ => eq_refl) (fun _ _ => eq_refl)) as (g1'' & g2'' & G1'' & G2'' & W2).
    rewrite G1 in *. injection G1' as <-. injection G1'' as <-. rewrite G2 in *. injection G2' as <-. injection G2'' as <-.
    cbn [obind]. rewrite G2. cbn [obind].
    assert (Hsum : forall l, In l (rk_cells r) -> rk_owned r l = true -> g2 l = f2 (gid l)) by (intros; apply vec3_ext; auto).
    clear W W0 W1 W2.
    set (rhs := s_source sl dt vl (to_local r src)).
    assert (Hsrc : forall l, In l (filter (rk_owned r) (rk_cells r)) -> rhs l (g2 l) = Some (f (gid l))).
    { intros l Hl. apply filter_In in Hl. destruct Hl as (Hl & Ho). rewrite Hsum by assumption.
      destruct (Hview u vl) as (_ & _ & S). unfold rhs. rewrite (S dt src (to_local r src) l (f2 (gid l)) (local_state l Hl) eq_refl).
      apply (source_loop_val _ _ (proj1 Hwf) _ _ E3). apply (nu_cells m r Hnum); exact Hl. }
    assert (Hnd : NoDup (filter (rk_owned r) (rk_cells r))) by (apply NoDup_filter; apply (nu_nodup m r Hnum)).
    destruct (source_loop_some rhs _ Hnd g2) as (fl & Efl); [intros l Hl; rewrite (Hsrc l Hl); eauto|].
    exists fl. split; [exact Efl|]. intros l Hl Ho.
    assert (Hf : In l (filter (rk_owned r) (rk_cells r))) by (apply filter_In; auto).
    assert (X := source_loop_val rhs _ Hnd g2 fl Efl l Hf). rewrite (Hsrc l Hf) in X. injection X as <-. reflexivity.
  Qed.
End OneRank.

(** ** Putting the processes together *)
Lemma gather_ok (fs : list (rank * (nat -> vec3))) f c :
  (forall r fl l, In (r, fl) fs -> In l (rk_cells r) -> rk_owned r l = true -> fl l = f (rk_gid r l)) ->
  (exists r fl, In (r, fl) fs /\ owns r c) -> gather fs c = f c.
Proof.
  induction fs as [|[r fl] t IH]; intros H (r0 & fl0 & Hin & Ho); [destruct Hin|]. cbn [gather].
  destruct (find _ (rk_cells r)) as [l|] eqn:E.
  - apply find_some in E. destruct E as (Hl & E). apply andb_prop in E. destruct E as (E1 & E2). apply Nat.eqb_eq in E2.
    rewrite (H r fl l (or_introl eq_refl) Hl E1), E2. reflexivity.
  - apply IH; [intros; eapply H; try right; eassumption|].
    destruct Hin as [X|Hin]; [|eauto]. injection X as -> ->. destruct Ho as (l & Hl & O1 & O2).
    assert (B := find_none _ _ E l Hl). cbv beta in B. rewrite O1, O2, Nat.eqb_refl in B. discriminate.
Qed.
Lemma omap_all {A B} (g : A -> option B) l : (forall a, In a l -> exists b, g a = Some b) -> exists bs, omap g l = Some bs /\
  length bs = length l /\ forall a b, In (a, b) (combine l bs) -> In a l /\ g a = Some b.
Proof.
  induction l as [|a t IH]; intros H; cbn [omap].
  - exists []. split; [reflexivity|]. split; [reflexivity|]. intros a b [].
  - destruct (H a (or_introl eq_refl)) as (b & Eb). rewrite Eb. cbn [obind].
    destruct IH as (bs & -> & Hlen & Hc); [intros; apply H; right; assumption|]. cbn [obind].
    exists (b :: bs). split; [reflexivity|]. split; [cbn; congruence|]. intros x y [E|Hin]; [injection E as <- <-; split; [left; reflexivity|exact Eb]|].
    destruct (Hc x y Hin) as (? & ?). split; [right|]; assumption.
Qed.
Lemma combine_fst {A B C} (l : list (A * B)) (bs : list C) : length bs = length l ->
  forall a c, In (a, c) (combine (map fst l) bs) -> exists b, In ((a, b), c) (combine l bs).
Proof.
  revert bs. induction l as [|[x y] t IH]; intros [|b bs] Hl a c Hin; cbn in *; try contradiction; try discriminate.
  destruct Hin as [E|Hin]; [injection E as <- <-; eauto|]. destruct (IH bs ltac:(congruence) a c Hin) as (b' & Hb). eauto.
Qed.
Lemma combine_fst_in {A B C} (l : list (A * B)) (bs : list C) : length bs = length l ->
  forall p, In p l -> exists c, In (fst p, c) (combine (map fst l) bs) /\ In (p, c) (combine l bs).
Proof.
  revert bs. induction l as [|q t IH]; intros [|b bs] Hl p Hin; cbn in *; try contradiction; try discriminate.
  destruct Hin as [<-|Hin]; [eauto|]. destruct (IH bs ltac:(congruence) p Hin) as (c & H1 & H2). eauto.
Qed.

Lemma par_rhs_ok s m rs dt src u v f :
  mesh_wf m -> agree m u v -> rhs_domain s m dt src u = Some f ->
  (forall r sl, In (r, sl) rs -> scheme_view (rk_gid r) s sl /\ numbering_ok m r /\ overlap_ok m r) ->
  (forall c, In c (cells m) -> exists r sl, In (r, sl) rs /\ owns r c) ->
  exists k, par_rhs rs (area m) dt src v = Some k /\ agree m f k.
Proof.
  intros Hwf Huv Hf Hr Hcov. unfold par_rhs.
  assert (HR : forall p, In p rs -> exists fl, rank_rhs (snd p) (fst p) (area m) dt src v = Some fl /\
    forall l, In l (rk_cells (fst p)) -> rk_owned (fst p) l = true -> fl l = f (rk_gid (fst p) l)).
  { intros [r sl] Hin. destruct (Hr r sl Hin) as (Hv & Hn & Ho). eapply rank_rhs_ok; eassumption. }
  destruct (omap_all (fun p => rank_rhs (snd p) (fst p) (area m) dt src v) rs) as (fs & -> & Hlen & Hc).
  { intros p Hp. destruct (HR p Hp) as (fl & E & _). eauto. }
  cbn [obind]. eexists; split; [reflexivity|]. intros c Hcell. symmetry. apply gather_ok.
  - intros r fl l Hin Hl Ho. destruct (combine_fst rs fs Hlen r fl Hin) as (sl & Hin').
    destruct (Hc _ _ Hin') as (Hp & E). destruct (HR (r, sl) Hp) as (fl' & E' & H). cbn [fst snd] in *. rewrite E in E'. injection E' as <-. auto.
  - destruct (Hcov c Hcell) as (r & sl & Hin & Ho). destruct (combine_fst_in rs fs Hlen (r, sl) Hin) as (fl & H1 & _). exists r, fl. auto.
Qed.

(** ** Processes visiting the edges they own *)
Section OwnedVal.
  Context (p : vec3 -> R) (Pa : forall a b, p (vadd a b) = p a + p b) (Ps : forall a b, p (vscal a b) = a * p b) (P0 : p vzero = 0).
  Definition wcoef (wi : nat -> nat) (area : nat -> R) (e : iedge) (a b : R) (k : nat) : R :=
    (if Nat.eqb k (wi (ie_l e)) then - ie_len e / area (ie_l e) * a else 0) +
    (if Nat.eqb k (wi (ie_r e)) then ie_len e / area (ie_r e) * b else 0).
  Definition wbcoef (wi : nat -> nat) (area : nat -> R) (e : bedge) (a : R) (k : nat) : R :=
    if Nat.eqb k (wi (be_c e)) then - be_len e / area (be_c e) * a else 0.
  Lemma add_at_p (f : nat -> vec3) c v k : p (add_at vadd f c v k) = p (f k) + (if Nat.eqb k c then p v else 0).
  Proof. unfold add_at. destruct (Nat.eqb k c); [apply Pa|ring]. Qed.
  Lemma edges_at_val wi area kern (k : iedge -> vec3 * vec3 * R) edges : forall f,
    (forall e, In e edges -> kern e = Some (k e)) -> (forall e, In e edges -> area (ie_l e) <> 0 /\ area (ie_r e) <> 0) ->
    exists f', ofold (edge_update_at wi area kern) edges f = Some f' /\
      forall c, p (f' c) = p (f c) + rsum (fun e => wcoef wi area e (p (fst (fst (k e)))) (p (snd (fst (k e)))) c) edges.
  Proof.
    induction edges as [|e t IH]; intros f Hk Ha; cbn [ofold rsum].
    - exists f. split; [reflexivity|]. intros; ring.
    - unfold edge_update_at at 1. rewrite (Hk e (or_introl eq_refl)). cbn [obind]. destruct (k e) as [[fl fr] a] eqn:Ek.
      destruct (Ha e (or_introl eq_refl)) as (A1 & A2). rewrite !rdiv_some by assumption. cbn [obind].
      edestruct IH as (f' & E' & V'); [intros; apply Hk; right; assumption|intros; apply Ha; right; assumption|].
      exists f'. split; [exact E'|]. intros c. rewrite V', !add_at_p. unfold wcoef at 2. cbn [fst snd]. rewrite !Ps. ring.
  Qed.
  Lemma bedges_at_val wi area kern (k : bedge -> vec3 * R) edges : forall f,
    (forall e, In e edges -> kern e = Some (k e)) -> (forall e, In e edges -> area (be_c e) <> 0) ->
    exists f', ofold (bedge_update_at wi area kern) edges f = Some f' /\
      forall c, p (f' c) = p (f c) + rsum (fun e => wbcoef wi area e (p (fst (k e))) c) edges.
  Proof.
    induction edges as [|e t IH]; intros f Hk Ha; cbn [ofold rsum].
    - exists f. split; [reflexivity|]. intros; ring.
    - unfold bedge_update_at at 1. rewrite (Hk e (or_introl eq_refl)). cbn [obind].
      rewrite !rdiv_some by (apply Ha; left; reflexivity). cbn [obind].
      edestruct IH as (f' & E' & V'); [intros; apply Hk; right; assumption|intros; apply Ha; right; assumption|].
      exists f'. split; [exact E'|]. intros c. rewrite V', !add_at_p. unfold wbcoef at 2. rewrite !Ps. ring.
  Qed.
  Lemma vsum_p {A} (f : A -> vec3) l : p (vsum f l) = rsum (fun a => p (f a)) l.
  Proof. induction l as [|a t IH]; cbn [vsum rsum]; [exact P0|]. rewrite Pa, IH. reflexivity. Qed.
End OwnedVal.

Lemma pick_gid (gid : nat -> nat) cs i c (x : R) : NoDup cs -> In i cs ->
  rsum (fun l => if Nat.eqb (gid l) c then (if Nat.eqb l i then x else 0) else 0) cs = if Nat.eqb (gid i) c then x else 0.
Proof.
  induction cs as [|a t IH]; intros Hnd Hin; [destruct Hin|]. inversion Hnd; subst. cbn [rsum].
  destruct Hin as [->|Hin].
  - rewrite Nat.eqb_refl. rewrite rsum_zero.
    + destruct (Nat.eqb (gid i) c); ring.
    + intros b Hb. destruct (Nat.eqb_spec b i) as [->|]; [contradiction|]. destruct (Nat.eqb (gid b) c); reflexivity.
  - rewrite IH by assumption. destruct (Nat.eqb_spec a i) as [->|]; [contradiction|]. destruct (Nat.eqb (gid a) c); ring.
Qed.

Lemma omap_Forall2 {A B} (g : A -> option B) l bs : omap g l = Some bs -> Forall2 (fun a b => g a = Some b) l bs.
Proof.
  revert bs. induction l as [|a t IH]; intros bs E; cbn [omap] in E; [injection E as <-; constructor|].
  destruct (g a) as [b|] eqn:Eb; cbn [obind] in E; [|discriminate]. destruct (omap g t) as [r|] eqn:Er; cbn [obind] in E; [|discriminate].
  injection E as <-. constructor; auto.
Qed.

Section OwnedRank.
  Variables (s sl : scheme) (m : mesh) (r : rank) (dt : R) (src u v f : nat -> vec3).
  Hypothesis Hview : scheme_view (rk_gid r) s sl.
  Hypothesis Hnum : numbering_ok m r.
  Hypothesis Huv : agree m u v.
  Hypothesis Hrhs : rhs_domain s m dt src u = Some f.
  Variables (wi : nat -> nat) (ges : list iedge) (gbs : list bedge).
  Hypothesis Hwi : forall l, In l (rk_cells r) -> wi l = l.
  Hypothesis Hes : owned_edges_are r ges.
  Hypothesis Hbs : owned_bedges_are r gbs.
  Hypothesis Hgi : incl ges (iedges m).
  Hypothesis Hgb : incl gbs (bedges m).

  Definition gcontrib (p : vec3 -> R) (c : nat) (e : iedge) : R :=
    ecoef everything (area m) e (p (fst (fst (kg s u e)))) (p (snd (fst (kg s u e)))) c.
  Definition gbcontrib (p : vec3 -> R) (c : nat) (e : bedge) : R :=
    if Nat.eqb c (be_c e) then - be_len e / area m c * p (fst (kbg s u e)) else 0.

  Lemma rank_divergence_ok : exists d, rank_divergence wi sl r (area m) v = Some d /\
    forall p : vec3 -> R, (forall a b, p (vadd a b) = p a + p b) -> (forall a b, p (vscal a b) = a * p b) -> p vzero = 0 -> forall c,
      rsum (fun l => if Nat.eqb (rk_gid r l) c then p (d l) else 0) (rk_cells r) = rsum (gcontrib p c) ges + rsum (gbcontrib p c) gbs.
  Proof.
    destruct (serial_steps s m dt src u f Hrhs) as (f1 & f2 & E1 & E2 & _ & _).
    set (vl := to_local r v).
    assert (Kl : forall e, In e (filter (rk_iowned r) (rk_iedges r)) -> s_interior sl vl e = Some (kl sl r v e) /\
       to_local r (area m) (ie_l e) <> 0 /\ to_local r (area m) (ie_r e) <> 0).
    { intros e He. destruct (Forall2_in_l _ _ _ e Hes He) as (e' & He' & flip & Hv). apply filter_In in He.
      destruct (view_kernel s sl m r u v Hview Hnum Huv flip e e' f1 E1 (proj1 He) (Hgi e' He') Hv) as (A & B & C & _). auto. }
    assert (Kb : forall e, In e (filter (rk_bowned r) (rk_bedges r)) -> s_boundary sl vl e = Some (kbl sl r v e) /\ to_local r (area m) (be_c e) <> 0).
    { intros e He. destruct (Forall2_in_l _ _ _ e Hbs He) as (e' & He' & Hv). apply filter_In in He.
      destruct (view_bkernel s sl m r u v Hview Hnum Huv e e' f1 f2 E2 (proj1 He) (Hgb e' He') Hv) as (A & B & _). auto. }
    unfold rank_divergence. fold vl.
    assert (W : forall p : vec3 -> R, (forall a b, p (vadd a b) = p a + p b) -> (forall a b, p (vscal a b) = a * p b) -> p vzero = 0 ->
      exists g1 g2, ofold (edge_update_at wi (to_local r (area m)) (s_interior sl vl)) (filter (rk_iowned r) (rk_iedges r)) zero_field = Some g1 /\
        ofold (bedge_update_at wi (to_local r (area m)) (s_boundary sl vl)) (filter (rk_bowned r) (rk_bedges r)) g1 = Some g2 /\
        forall c, rsum (fun l => if Nat.eqb (rk_gid r l) c then p (g2 l) else 0) (rk_cells r) = rsum (gcontrib p c) ges + rsum (gbcontrib p c) gbs).
    { intros p Pa Ps P0.
      destruct (edges_at_val p Pa Ps wi (to_local r (area m)) (s_interior sl vl) (kl sl r v) (filter (rk_iowned r) (rk_iedges r)) zero_field) as (g1 & G1 & W1).
      { intros e He. apply Kl; exact He. } { intros e He. apply Kl; exact He. }
      destruct (bedges_at_val p Pa Ps wi (to_local r (area m)) (s_boundary sl vl) (kbl sl r v) (filter (rk_bowned r) (rk_bedges r)) g1) as (g2 & G2 & W2).
      { intros e He. apply Kb; exact He. } { intros e He. apply Kb; exact He. }
      exists g1, g2. split; [exact G1|]. split; [exact G2|]. intros c.
      rewrite (rsum_ext _ (fun l =>
         rsum (fun e => if Nat.eqb (rk_gid r l) c then wcoef wi (to_local r (area m)) e (p (fst (fst (kl sl r v e)))) (p (snd (fst (kl sl r v e)))) l else 0) (filter (rk_iowned r) (rk_iedges r))
         + rsum (fun e => if Nat.eqb (rk_gid r l) c then wbcoef wi (to_local r (area m)) e (p (fst (kbl sl r v e))) l else 0) (filter (rk_bowned r) (rk_bedges r)))).
      2:{ intros l _. destruct (Nat.eqb (rk_gid r l) c).
          - rewrite W2, W1. unfold zero_field. rewrite P0. ring.
          - rewrite !rsum_zero by (intros; reflexivity). ring. }
      rewrite rsum_plus. f_equal.
      - rewrite rsum_swap. eapply rsum_Forall2; [exact Hes|]. intros e e' (flip & Hv) He He'.
        apply filter_In in He. destruct He as (He & _).
        destruct (view_kernel s sl m r u v Hview Hnum Huv flip e e' f1 E1 He (Hgi e' He') Hv) as (_ & _ & _ & Hp). specialize (Hp p Ps).
        destruct (nu_iedges m r Hnum e He) as (Hel & Her). unfold wcoef. rewrite !Hwi by assumption.
        rewrite (rsum_ext _ (fun l =>
          (if Nat.eqb (rk_gid r l) c then if Nat.eqb l (ie_l e) then - ie_len e / to_local r (area m) (ie_l e) * p (fst (fst (kl sl r v e))) else 0 else 0) +
          (if Nat.eqb (rk_gid r l) c then if Nat.eqb l (ie_r e) then ie_len e / to_local r (area m) (ie_r e) * p (snd (fst (kl sl r v e))) else 0 else 0))).
        2:{ intros l _. destruct (Nat.eqb (rk_gid r l) c); ring. }
        rewrite rsum_plus, !pick_gid by (assumption || apply (nu_nodup m r Hnum)).
        unfold gcontrib, ecoef, everything, to_local. destruct Hv as (-> & Hg).
        destruct flip; destruct Hg as (-> & -> & _); injection Hp as -> ->;
          rewrite (Nat.eqb_sym (ie_l e') c), (Nat.eqb_sym (ie_r e') c);
          destruct (Nat.eqb_spec c (ie_l e')) as [<-|]; destruct (Nat.eqb_spec c (ie_r e')) as [<-|]; unfold Rdiv; ring.
      - rewrite rsum_swap. eapply rsum_Forall2; [exact Hbs|]. intros e e' Hv He He'.
        apply filter_In in He. destruct He as (He & _).
        destruct (view_bkernel s sl m r u v Hview Hnum Huv e e' f1 f2 E2 He (Hgb e' He') Hv) as (_ & _ & ->).
        assert (Hc := nu_bedges m r Hnum e He). unfold wbcoef. rewrite Hwi by exact Hc.
        rewrite pick_gid by (assumption || apply (nu_nodup m r Hnum)). unfold gbcontrib, to_local.
        destruct Hv as (-> & -> & _). rewrite (Nat.eqb_sym (be_c e') c). destruct (Nat.eqb_spec c (be_c e')) as [<-|]; reflexivity. }
    destruct (W c0 (fun _ _ => eq_refl) (fun _ _ => eq_refl) eq_refl) as (g1 & g2 & G1 & G2 & _).
    exists g2. rewrite G1. cbn [obind]. split; [exact G2|]. intros p Pa Ps P0.
    destruct (W p Pa Ps P0) as (h1 & h2 & G1' & G2' & W0). rewrite G1 in G1'. injection G1' as <-. rewrite G2 in G2'. injection G2' as <-. exact W0.
  Qed.
End OwnedRank.

Lemma Forall2_incl {A B} (P : A -> list B -> Prop) rs xss l : Forall2 P rs xss -> incl (concat xss) l ->
  Forall2 (fun q xs => P q xs /\ incl xs l) rs xss.
Proof.
  induction 1 as [|q xs rs xss H F2 IH]; intros Hs; constructor.
  - split; [exact H|]. intros z Hz. apply Hs. cbn [concat]. apply in_or_app. left; exact Hz.
  - apply IH. intros z Hz. apply Hs. cbn [concat]. apply in_or_app. right; exact Hz.
Qed.

Section Together.
  Variables (s : scheme) (m : mesh) (dt : R) (src u v f : nat -> vec3) (wi : rank -> nat -> nat).
  Hypothesis Hwf : mesh_wf m.
  Hypothesis Huv : agree m u v.
  Hypothesis Hrhs : rhs_domain s m dt src u = Some f.

  Definition rank_ok (q : rank * scheme) : Prop :=
    scheme_view (rk_gid (fst q)) s (snd q) /\ numbering_ok m (fst q) /\ forall l, In l (rk_cells (fst q)) -> wi (fst q) l = l.

  Lemma divergences_ok rs gess gbss :
    (forall q, In q rs -> rank_ok q) ->
    Forall2 (fun q ges => owned_edges_are (fst q) ges /\ incl ges (iedges m)) rs gess ->
    Forall2 (fun q gbs => owned_bedges_are (fst q) gbs /\ incl gbs (bedges m)) rs gbss ->
    exists ds, omap (fun q => rank_divergence (wi (fst q)) (snd q) (fst q) (area m) v) rs = Some ds /\
      forall p : vec3 -> R, (forall a b, p (vadd a b) = p a + p b) -> (forall a b, p (vscal a b) = a * p b) -> p vzero = 0 -> forall c,
        p (scatter_add (combine (map fst rs) ds) c) = rsum (gcontrib s m u p c) (concat gess) + rsum (gbcontrib s m u p c) (concat gbss).
  Proof.
    intros Hok FI. revert gbss. induction FI as [|q ges rs gess (Hq & Hi) FI IH]; intros gbss FB; inversion FB as [|q' gbs rs' gbss' (Hqb & Hib) FB']; subst.
    - exists []. split; [reflexivity|]. intros p Pa Ps P0 c. cbn. rewrite P0. ring.
    - destruct (Hok q (or_introl eq_refl)) as (Hv & Hn & Hw).
      destruct (rank_divergence_ok s (snd q) m (fst q) dt src u v f Hv Hn Huv Hrhs (wi (fst q)) ges gbs Hw Hq Hqb Hi Hib) as (d & Ed & Vd).
      destruct (IH (fun q H => Hok q (or_intror H)) gbss' FB') as (ds & Eds & Vds).
      exists (d :: ds). cbn [omap]. rewrite Ed. cbn [obind]. rewrite Eds. split; [reflexivity|]. intros p Pa Ps P0 c.
      unfold scatter_add. cbn [map combine vsum fst snd concat]. rewrite Pa, (vsum_p p Pa P0), !rsum_app.
      fold (scatter_add (combine (map fst rs) ds) c). rewrite (Vds p Pa Ps P0 c).
      rewrite (rsum_ext _ (fun l => if Nat.eqb (rk_gid (fst q) l) c then p (d l) else 0)) by (intros l _; destruct (Nat.eqb _ c); [reflexivity|exact P0]).
      rewrite (Vd p Pa Ps P0 c). ring.
  Qed.

  Lemma par_rhs_owned_ok rs gess gbss :
    (forall q, In q rs -> rank_ok q) ->
    Forall2 (fun q ges => owned_edges_are (fst q) ges) rs gess -> Permutation (concat gess) (iedges m) ->
    Forall2 (fun q gbs => owned_bedges_are (fst q) gbs) rs gbss -> Permutation (concat gbss) (bedges m) ->
    (forall c, In c (cells m) -> exists q, In q rs /\ owns (fst q) c) ->
    exists k, par_rhs_owned_edges wi rs (area m) dt src v = Some k /\ agree m f k.
  Proof.
    intros Hok FI PI FB PB Hcov.
    assert (FI' := Forall2_incl _ _ _ _ FI (fun x Hx => Permutation_in x PI Hx)).
    assert (FB' := Forall2_incl _ _ _ _ FB (fun x Hx => Permutation_in x PB Hx)).
    destruct (divergences_ok rs gess gbss Hok FI' FB') as (ds & Eds & Vds).
    unfold par_rhs_owned_edges. rewrite Eds. cbn [obind].
    destruct (serial_steps s m dt src u f Hrhs) as (f1 & f2 & _ & _ & E3 & V).
    assert (Hdiv : forall c, scatter_add (combine (map fst rs) ds) c = f2 c).
    { assert (G : forall p : vec3 -> R, (forall a b, p (vadd a b) = p a + p b) -> (forall a b, p (vscal a b) = a * p b) -> p vzero = 0 -> forall c,
        p (scatter_add (combine (map fst rs) ds) c) = p (f2 c)).
      { intros p Pa Ps P0 c. rewrite (Vds p Pa Ps P0 c), (V p Pa Ps c), P0. rewrite (rsum_perm _ _ _ PI), (rsum_perm _ _ _ PB).
        rewrite Rplus_0_l. reflexivity. }
      intros c. apply vec3_ext; apply G; intros; reflexivity. }
    assert (HS : forall q, In q rs -> exists fl, rank_sources (snd q) (fst q) dt src v (scatter_add (combine (map fst rs) ds)) = Some fl /\
      forall l, In l (rk_cells (fst q)) -> rk_owned (fst q) l = true -> fl l = f (rk_gid (fst q) l)).
    { intros [r sl] Hq. destruct (Hok _ Hq) as (Hv & Hn & _). cbn [fst snd] in *. unfold rank_sources.
      set (rhs := s_source sl dt (to_local r v) (to_local r src)).
      assert (Hsrc : forall l, In l (filter (rk_owned r) (rk_cells r)) -> rhs l (to_local r (scatter_add (combine (map fst rs) ds)) l) = Some (f (rk_gid r l))).
      { intros l Hl. apply filter_In in Hl. destruct Hl as (Hl & Ho). unfold to_local at 1. rewrite Hdiv.
        destruct (Hv u (to_local r v)) as (_ & _ & S). unfold rhs.
        rewrite (S dt src (to_local r src) l _ (local_state m r u v Hn Huv l Hl) eq_refl).
        apply (source_loop_val _ _ (proj1 Hwf) _ _ E3). apply (nu_cells m r Hn); exact Hl. }
      assert (Hnd : NoDup (filter (rk_owned r) (rk_cells r))) by (apply NoDup_filter; apply (nu_nodup m r Hn)).
      destruct (source_loop_some rhs _ Hnd (to_local r (scatter_add (combine (map fst rs) ds)))) as (fl & Efl); [intros l Hl; rewrite (Hsrc l Hl); eauto|].
      exists fl. split; [exact Efl|]. intros l Hl Ho.
      assert (Hf : In l (filter (rk_owned r) (rk_cells r))) by (apply filter_In; auto).
      assert (X := source_loop_val rhs _ Hnd _ fl Efl l Hf). rewrite (Hsrc l Hf) in X. injection X as <-. reflexivity. }
    set (div := scatter_add _) in *. clearbody div.
    destruct (omap_all (fun q => rank_sources (snd q) (fst q) dt src v div) rs) as (fs & -> & Hlen & Hc).
    { intros q Hq. destruct (HS q Hq) as (fl & E & _). eauto. }
    cbn [obind]. eexists; split; [reflexivity|]. intros c Hcell. symmetry. apply gather_ok.
    - intros r fl l Hin Hl Ho. destruct (combine_fst rs fs Hlen r fl Hin) as (sl & Hin').
      destruct (Hc _ _ Hin') as (Hp & E). destruct (HS (r, sl) Hp) as (fl' & E' & H). cbn [fst snd] in *. rewrite E in E'. injection E' as <-. auto.
    - destruct (Hcov c Hcell) as ([r sl] & Hin & Ho). destruct (combine_fst_in rs fs Hlen (r, sl) Hin) as (fl & H1 & _). exists r, fl. auto.
  Qed.
End Together.
