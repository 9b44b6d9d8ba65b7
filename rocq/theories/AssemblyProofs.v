(** Lemmas about assembly over a mesh: totals, locality, order independence. *)
From Verif Require Import Base RoeModel RoeProofs EdgeModel EdgeProofs HRModel SourceModel SourceProofs AssemblyModel.

Section Totals.
  Context {V : Type} (add : V -> V -> V) (scal : R -> V -> V) (p : V -> R).
  Hypothesis p_add : forall a b, p (add a b) = p a + p b.
  Hypothesis p_scal : forall s a, p (scal s a) = s * p a.

  Lemma add_at_val f c v k : p (add_at add f c v k) = p (f k) + (if Nat.eqb k c then p v else 0).
  Proof. unfold add_at. destruct (Nat.eqb k c); [apply p_add|ring]. Qed.

  Lemma total_add_at (area : nat -> R) cs f c v :
    NoDup cs -> In c cs ->
    rsum (fun k => area k * p (add_at add f c v k)) cs = rsum (fun k => area k * p (f k)) cs + area c * p v.
  Proof.
    intros Hnd Hin.
    rewrite (rsum_ext _ (fun k => area k * p (f k) + (if Nat.eqb k c then area c * p v else 0))).
    - rewrite rsum_plus. rewrite rsum_pick by assumption. reflexivity.
    - intros k _. rewrite add_at_val. destruct (Nat.eqb_spec k c) as [->|]; ring.
  Qed.

  (* One edge changes the area-weighted total by len * (right - left). *)
  Lemma edge_update_total area kern cs f e f' :
    NoDup cs -> In (ie_l e) cs -> In (ie_r e) cs ->
    edge_update add scal everything area kern f e = Some f' ->
    exists fl fr a, kern e = Some (fl, fr, a) /\
      rsum (fun k => area k * p (f' k)) cs = rsum (fun k => area k * p (f k)) cs + ie_len e * (p fr - p fl).
  Proof.
    intros Hnd Hl Hr E. unfold edge_update in E.
    destruct (kern e) as [[[fl fr] a]|]; cbn [obind] in E; [|discriminate].
    destruct (rdiv _ (area (ie_l e))) as [sl|] eqn:E1; cbn [obind] in E; [|discriminate].
    destruct (rdiv _ (area (ie_r e))) as [sr|] eqn:E2; cbn [obind] in E; [|discriminate].
    apply rdiv_inv in E1. apply rdiv_inv in E2. destruct E1 as (N1 & ->). destruct E2 as (N2 & ->).
    unfold everything in E. injection E as <-. exists fl, fr, a. split; [reflexivity|].
    rewrite !total_add_at by assumption. rewrite !p_scal. field. auto.
  Qed.

  Lemma interior_loop_total area kern cs edges :
    NoDup cs -> (forall e, In e edges -> In (ie_l e) cs /\ In (ie_r e) cs) ->
    (forall e fl fr a, In e edges -> kern e = Some (fl, fr, a) -> p fl = p fr) ->
    forall f f', interior_loop add scal everything area kern edges f = Some f' ->
    rsum (fun k => area k * p (f' k)) cs = rsum (fun k => area k * p (f k)) cs.
  Proof.
    intros Hnd. unfold interior_loop. induction edges as [|e t IH]; intros Hin Hc f f' E; cbn [ofold] in E.
    - injection E as <-. reflexivity.
    - apply obind_some in E. destruct E as (f1 & E1 & E2).
      destruct (edge_update_total area kern cs f e f1 Hnd (proj1 (Hin e (or_introl eq_refl))) (proj2 (Hin e (or_introl eq_refl))) E1)
        as (fl & fr & a & Ek & Et).
      rewrite (IH (fun x H => Hin x (or_intror H)) (fun x fl fr a H => Hc x fl fr a (or_intror H)) f1 f' E2).
      rewrite Et, (Hc e fl fr a (or_introl eq_refl) Ek). ring.
  Qed.

  Definition bval (kern : bedge -> option (V * R)) (e : bedge) : R :=
    match kern e with Some (f, _) => p f | None => 0 end.

  Lemma boundary_loop_total area kern cs edges :
    NoDup cs -> (forall e, In e edges -> In (be_c e) cs) ->
    forall f f', boundary_loop add scal everything area kern edges f = Some f' ->
    rsum (fun k => area k * p (f' k)) cs
    = rsum (fun k => area k * p (f k)) cs - rsum (fun e => be_len e * bval kern e) edges.
  Proof.
    intros Hnd. unfold boundary_loop. induction edges as [|e t IH]; intros Hin f f' E; cbn [ofold rsum] in *.
    - injection E as <-. ring.
    - apply obind_some in E. destruct E as (f1 & E1 & E2).
      rewrite (IH (fun x H => Hin x (or_intror H)) f1 f' E2).
      unfold bedge_update, everything in E1.
      destruct (kern e) as [[fe a]|] eqn:Ek; cbn [obind] in E1; [|discriminate].
      destruct (rdiv _ _) as [s|] eqn:Ed; cbn [obind] in E1; [|discriminate].
      apply rdiv_inv in Ed. destruct Ed as (Nz & ->). injection E1 as <-.
      rewrite total_add_at by (auto; apply Hin; left; reflexivity).
      unfold bval at 2. rewrite Ek. rewrite p_scal. cbn [fst]. field. exact Nz.
  Qed.

  Lemma source_loop_off (rhs : nat -> V -> option V) cs : forall f f' k, source_loop rhs cs f = Some f' -> ~ In k cs -> f' k = f k.
  Proof.
    unfold source_loop. induction cs as [|c t IH]; intros f f' k E Hk; cbn [ofold] in E.
    - injection E as <-. reflexivity.
    - apply obind_some in E. destruct E as (f1 & E1 & E2). rewrite (IH f1 f' k E2 (fun H => Hk (or_intror H))).
      unfold cell_update in E1. apply obind_some in E1. destruct E1 as (v & _ & E1). injection E1 as <-.
      destruct (Nat.eqb_spec k c) as [->|]; [exfalso; apply Hk; left; reflexivity|reflexivity].
  Qed.

  Lemma source_loop_val (rhs : nat -> V -> option V) cs : NoDup cs -> forall f f', source_loop rhs cs f = Some f' ->
    forall c, In c cs -> rhs c (f c) = Some (f' c).
  Proof.
    intros Hnd. unfold source_loop. induction Hnd as [|c t Hc Hnd IH]; intros f f' E k Hk; cbn [ofold] in E; [destruct Hk|].
    apply obind_some in E. destruct E as (f1 & E1 & E2).
    assert (Hoff := source_loop_off rhs t f1 f' c E2 Hc).
    unfold cell_update in E1. apply obind_some in E1. destruct E1 as (v & Ev & E1). injection E1 as <-.
    destruct Hk as [<-|Hk].
    - rewrite Hoff, Nat.eqb_refl. exact Ev.
    - assert (Hne : k <> c) by (intros ->; contradiction).
      specialize (IH _ _ E2 k Hk). cbv beta in IH. destruct (Nat.eqb_spec k c); [contradiction|]. exact IH.
  Qed.

  Lemma source_loop_total (area : nat -> R) (rhs : nat -> V -> option V) cs (s : nat -> R) :
    NoDup cs -> (forall c F v, rhs c F = Some v -> p v = p F + s c) ->
    forall f f', source_loop rhs cs f = Some f' ->
    rsum (fun k => area k * p (f' k)) cs = rsum (fun k => area k * p (f k)) cs + rsum (fun k => area k * s k) cs.
  Proof.
    intros Hnd Hs f f' E. rewrite <- rsum_plus. apply rsum_ext. intros c Hc.
    rewrite (Hs c (f c) (f' c) (source_loop_val rhs cs Hnd f f' E c Hc)). ring.
  Qed.

  (** Exact value of the assembled vector in each cell. *)
  Definition ecoef (owned : nat -> bool) (area : nat -> R) (e : iedge) (x y : R) (c : nat) : R :=
    (if owned c then (if Nat.eqb c (ie_l e) then - ie_len e / area c * x else 0)
                     + (if Nat.eqb c (ie_r e) then ie_len e / area c * y else 0) else 0).

  Lemma interior_loop_val owned area kern (k : iedge -> V * V * R) edges :
    (forall e, In e edges -> kern e = Some (k e)) ->
    (forall e, In e edges -> area (ie_l e) <> 0 /\ area (ie_r e) <> 0) ->
    forall f, exists f', interior_loop add scal owned area kern edges f = Some f' /\
      forall c, p (f' c) = p (f c) + rsum (fun e => ecoef owned area e (p (fst (fst (k e)))) (p (snd (fst (k e)))) c) edges.
  Proof.
    unfold interior_loop. induction edges as [|e t IH]; intros Hk Ha f; cbn [ofold rsum].
    - exists f. split; [reflexivity|]. intros; ring.
    - unfold edge_update at 1. rewrite (Hk e (or_introl eq_refl)). cbn [obind].
      destruct (Ha e (or_introl eq_refl)) as (A1 & A2). destruct (k e) as [[fl fr] a] eqn:Ek.
      rewrite !rdiv_some by assumption. cbn [obind].
      set (f1 := if owned (ie_l e) then add_at add f (ie_l e) (scal (- ie_len e / area (ie_l e)) fl) else f).
      set (f2 := if owned (ie_r e) then add_at add f1 (ie_r e) (scal (ie_len e / area (ie_r e)) fr) else f1).
      destruct (IH (fun x H => Hk x (or_intror H)) (fun x H => Ha x (or_intror H)) f2) as (f' & E & Hv).
      exists f'. split; [exact E|]. intros c. rewrite Hv. cbn [fst snd].
      assert (H1 : p (f1 c) = p (f c) + (if owned c then (if Nat.eqb c (ie_l e) then - ie_len e / area c * p fl else 0) else 0)).
      { unfold f1. destruct (Nat.eqb_spec c (ie_l e)) as [->|Hne].
        - destruct (owned (ie_l e)); [|ring]. rewrite add_at_val, Nat.eqb_refl, p_scal. reflexivity.
        - destruct (owned (ie_l e)); [rewrite add_at_val; destruct (Nat.eqb_spec c (ie_l e)); [contradiction|]|]; destruct (owned c); ring. }
      assert (H2 : p (f2 c) = p (f1 c) + (if owned c then (if Nat.eqb c (ie_r e) then ie_len e / area c * p fr else 0) else 0)).
      { unfold f2. destruct (Nat.eqb_spec c (ie_r e)) as [->|Hne].
        - destruct (owned (ie_r e)); [|ring]. rewrite add_at_val, Nat.eqb_refl, p_scal. reflexivity.
        - destruct (owned (ie_r e)); [rewrite add_at_val; destruct (Nat.eqb_spec c (ie_r e)); [contradiction|]|]; destruct (owned c); ring. }
      rewrite H2, H1. unfold ecoef. destruct (owned c); ring.
  Qed.

  Lemma boundary_loop_val owned area kern (k : bedge -> V * R) edges :
    (forall e, In e edges -> owned (be_c e) = true -> kern e = Some (k e)) ->
    (forall e, In e edges -> owned (be_c e) = true -> area (be_c e) <> 0) ->
    forall f, exists f', boundary_loop add scal owned area kern edges f = Some f' /\
      forall c, p (f' c) = p (f c) + rsum (fun e => if owned c then if Nat.eqb c (be_c e) then - be_len e / area c * p (fst (k e)) else 0 else 0) edges.
  Proof.
    unfold boundary_loop. induction edges as [|e t IH]; intros Hk Ha f; cbn [ofold rsum].
    - exists f. split; [reflexivity|]. intros; ring.
    - unfold bedge_update at 1. destruct (owned (be_c e)) eqn:Eo.
      + rewrite (Hk e (or_introl eq_refl) Eo). cbn [obind]. rewrite rdiv_some by (apply (Ha e (or_introl eq_refl) Eo)). cbn [obind].
        destruct (IH (fun x H => Hk x (or_intror H)) (fun x H => Ha x (or_intror H))
                     (add_at add f (be_c e) (scal (- be_len e / area (be_c e)) (fst (k e))))) as (f' & E & Hv).
        exists f'. split; [exact E|]. intros c. rewrite Hv, add_at_val, p_scal.
        destruct (Nat.eqb_spec c (be_c e)) as [->|Hne]; [rewrite Eo; ring|]. destruct (owned c); ring.
      + cbn [obind]. destruct (IH (fun x H => Hk x (or_intror H)) (fun x H => Ha x (or_intror H)) f) as (f' & E & Hv).
        exists f'. split; [exact E|]. intros c. rewrite Hv.
        destruct (Nat.eqb_spec c (be_c e)) as [->|Hne]; [rewrite Eo; ring|]. destruct (owned c); ring.
  Qed.

  Lemma source_loop_some (rhs : nat -> V -> option V) cs : NoDup cs -> forall f,
    (forall c, In c cs -> exists v, rhs c (f c) = Some v) ->
    exists f', source_loop rhs cs f = Some f'.
  Proof.
    intros Hnd. unfold source_loop. induction Hnd as [|c t Hc Hnd IH]; intros f H; cbn [ofold]; [eauto|].
    destruct (H c (or_introl eq_refl)) as (v & Ev). unfold cell_update at 1. rewrite Ev. cbn [obind].
    apply IH. intros k Hk. destruct (Nat.eqb_spec k c) as [->|]; [contradiction|]. apply H. right; exact Hk.
  Qed.
End Totals.

(** ** Conservation *)
Definition conservative (s : scheme) : Prop :=
  (forall u e fl fr a, s_interior s u e = Some (fl, fr, a) -> c0 fl = c0 fr) /\
  (forall dt u src c F v, s_source s dt u src c F = Some v -> c0 v = c0 F + c0 (src c)).

Lemma both_same r fl fr a : both r = Some (fl, fr, a) -> fl = fr.
Proof. unfold both. destruct r as [[f b]|]; cbn; [|discriminate]. intros H; injection H as <- <- _. reflexivity. Qed.

Lemma petsc_rhs_mass fr bed dt tiny n dzx dzy q F src v :
  petsc_rhs fr bed dt tiny n dzx dzy q F src = Some v -> c0 v = c0 F + c0 src.
Proof.
  unfold petsc_rhs. destruct (petsc_source _ _ _ _ _ _ _ _ _ _) as [s|] eqn:E; cbn [obind]; [|discriminate].
  intros H; injection H as <-. apply petsc_source_mass in E. unfold vadd; cbn [c0]. rewrite E. reflexivity.
Qed.

Lemma petsc_conservative tiny ha fr g : conservative (petsc_scheme tiny ha fr g).
Proof.
  split; cbn [s_interior s_source petsc_scheme].
  - intros u e fl f2 a H. apply both_same in H. congruence.
  - intros. eapply petsc_rhs_mass; eassumption.
Qed.
Lemma ceed_conservative tiny ha dhv dhvb fr g : conservative (ceed_scheme tiny ha dhv dhvb fr g).
Proof.
  split; cbn [s_interior s_source ceed_scheme].
  - intros u e fl f2 a H. apply both_same in H. congruence.
  - intros. eapply ceed_rhs_mass; eassumption.
Qed.
Lemma hr_correction_mass g h hr sn cn : c0 (hr_correction g h hr sn cn) = 0.
Proof. reflexivity. Qed.
Lemma petsc_hr_conservative tiny ha z fr g : conservative (petsc_hr_scheme tiny ha z fr g).
Proof.
  split; cbn [s_interior s_source petsc_hr_scheme].
  - intros u e fl f2 a H. unfold petsc_hr_edge in H.
    destruct (_ && _)%bool; [injection H as <- <- _; reflexivity|].
    apply obind_some in H. destruct H as (L & _ & H). apply obind_some in H. destruct H as (Rt & _ & H).
    apply obind_some in H. destruct H as ([f b] & _ & H). injection H as <- <- _.
    unfold vadd; cbn [c0]. rewrite !hr_correction_mass. reflexivity.
  - intros. eapply petsc_rhs_mass; eassumption.
Qed.
Lemma ceed_hr_conservative tiny ha z fr g : conservative (ceed_hr_scheme tiny ha z fr g).
Proof.
  split; cbn [s_interior s_source ceed_hr_scheme].
  - intros u e fl f2 a H. unfold ceed_hr_edge in H.
    apply obind_some in H. destruct H as (L & _ & H). apply obind_some in H. destruct H as (Rt & _ & H).
    destruct (_ || _)%bool; [|injection H as <- <- _; reflexivity].
    apply obind_some in H. destruct H as ([f b] & _ & H). injection H as <- <- _.
    unfold vadd; cbn [c0]. rewrite !hr_correction_mass. reflexivity.
  - intros. eapply ceed_rhs_mass; eassumption.
Qed.

Definition mesh_wf (m : mesh) : Prop :=
  NoDup (cells m) /\ (forall e, In e (iedges m) -> In (ie_l e) (cells m) /\ In (ie_r e) (cells m)) /\
  (forall e, In e (bedges m) -> In (be_c e) (cells m)).

Lemma rhs_total s m dt src u f :
  conservative s -> mesh_wf m -> rhs_domain s m dt src u = Some f ->
  rsum (fun c => area m c * c0 (f c)) (cells m)
  = rsum (fun c => area m c * c0 (src c)) (cells m) - rsum (fun e => be_len e * bval c0 (s_boundary s u) e) (bedges m).
Proof.
  intros (Hc & Hs) (Hnd & Hi & Hb) E. unfold rhs_domain, flux_divergence in E.
  apply obind_some in E. destruct E as (f2 & E & E3). apply obind_some in E. destruct E as (f1 & E1 & E2).
  rewrite (source_loop_total c0 (area m) _ (cells m) (fun c => c0 (src c)) Hnd (Hs dt u src) f2 f E3).
  rewrite (boundary_loop_total vadd vscal c0 (fun a b => eq_refl) (fun a b => eq_refl) (area m) _ (cells m) (bedges m) Hnd Hb f1 f2 E2).
  rewrite (interior_loop_total vadd vscal c0 (fun a b => eq_refl) (fun a b => eq_refl) (area m) _ (cells m) (iedges m) Hnd Hi
             (fun e fl fr a _ H => Hc u e fl fr a H) zero_field f1 E1).
  rewrite (rsum_zero (fun k => area m k * c0 (zero_field k))) by (intros; unfold zero_field, vzero; cbn [c0]; ring). ring.
Qed.

Lemma total_axpy (ar : nat -> R) cs u a k :
  rsum (fun c => ar c * c0 (axpy u a k c)) cs = rsum (fun c => ar c * c0 (u c)) cs + a * rsum (fun c => ar c * c0 (k c)) cs.
Proof.
  rewrite <- rsum_scal, <- rsum_plus. apply rsum_ext. intros c _. unfold axpy, vadd, vscal; cbn [c0]. ring.
Qed.
