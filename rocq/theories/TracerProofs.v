(** Lemmas about tracer transport. *)
From Verif Require Import Base RoeModel RoeProofs EdgeModel EdgeProofs HRModel SourceModel SourceProofs AssemblyModel AssemblyProofs TracerModel.

(** ** Relating two computations: [oimp P x y] says that when [x] finishes so does [y], related by [P] *)
Definition oimp {A B} (P : A -> B -> Prop) (x : option A) (y : option B) : Prop :=
  forall a, x = Some a -> exists b, y = Some b /\ P a b.

Lemma oimp_bind {A B C D} (P : A -> B -> Prop) (Q : C -> D -> Prop) x y f g :
  oimp P x y -> (forall a b, P a b -> oimp Q (f a) (g b)) -> oimp Q (obind x f) (obind y g).
Proof.
  intros H K c E. apply obind_some in E. destruct E as (a & Ea & Ec). destruct (H a Ea) as (b & -> & Hab). cbn [obind].
  exact (K a b Hab c Ec).
Qed.
Lemma oimp_same {A C D} (Q : C -> D -> Prop) (x : option A) f g :
  (forall a, x = Some a -> oimp Q (f a) (g a)) -> oimp Q (obind x f) (obind x g).
Proof. intros K c E. apply obind_some in E. destruct E as (a & Ea & Ec). rewrite Ea. cbn [obind]. exact (K a Ea c Ec). Qed.
Lemma oimp_some {A B} (P : A -> B -> Prop) a b : P a b -> oimp P (Some a) (Some b).
Proof. intros H x E. injection E as <-. eauto. Qed.
Lemma oimp_none {A B} (P : A -> B -> Prop) y : oimp P (@None A) y.
Proof. intros a E. discriminate. Qed.

Section LoopRel.
  Context {V W : Type} (addV : V -> V -> V) (scalV : R -> V -> V) (addW : W -> W -> W) (scalW : R -> W -> W) (Rel : V -> W -> Prop).
  Hypothesis Radd : forall a b x y, Rel a x -> Rel b y -> Rel (addV a b) (addW x y).
  Hypothesis Rscal : forall s a x, Rel a x -> Rel (scalV s a) (scalW s x).
  Variable cs : list nat.
  Definition frel (f : nat -> V) (g : nat -> W) : Prop := forall c, In c cs -> Rel (f c) (g c).
  Definition krel3 (a : V * V * R) (b : W * W * R) : Prop := Rel (fst (fst a)) (fst (fst b)) /\ Rel (snd (fst a)) (snd (fst b)) /\ snd a = snd b.
  Definition krel2 (a : V * R) (b : W * R) : Prop := Rel (fst a) (fst b) /\ snd a = snd b.

  Lemma add_at_rel f g c v w : frel f g -> Rel v w -> frel (add_at addV f c v) (add_at addW g c w).
  Proof. intros Hf Hv k Hk. unfold add_at. destruct (Nat.eqb k c); [apply Radd|]; auto. Qed.

  Lemma interior_loop_rel owned area k1 k2 edges :
    (forall e, In e edges -> oimp krel3 (k1 e) (k2 e)) ->
    forall f g, frel f g -> oimp frel (interior_loop addV scalV owned area k1 edges f) (interior_loop addW scalW owned area k2 edges g).
  Proof.
    unfold interior_loop. induction edges as [|e t IH]; intros Hk f g Hf; cbn [ofold]; [apply oimp_some; exact Hf|].
    apply (oimp_bind frel).
    - unfold edge_update. apply (oimp_bind krel3); [apply Hk; left; reflexivity|].
      intros [[fl fr] a] [[gl gr] b] (H1 & H2 & _); cbn [fst snd] in *.
      apply oimp_same. intros sl _. apply oimp_same. intros sr _. apply oimp_some.
      assert (G : frel (if owned (ie_l e) then add_at addV f (ie_l e) (scalV sl fl) else f) (if owned (ie_l e) then add_at addW g (ie_l e) (scalW sl gl) else g)).
      { destruct (owned (ie_l e)); [apply add_at_rel; auto|exact Hf]. }
      destruct (owned (ie_r e)); [apply add_at_rel; auto|exact G].
    - intros f1 g1 H1. apply IH; [intros; apply Hk; right; assumption|exact H1].
  Qed.
  Lemma boundary_loop_rel owned area k1 k2 edges :
    (forall e, In e edges -> oimp krel2 (k1 e) (k2 e)) ->
    forall f g, frel f g -> oimp frel (boundary_loop addV scalV owned area k1 edges f) (boundary_loop addW scalW owned area k2 edges g).
  Proof.
    unfold boundary_loop. induction edges as [|e t IH]; intros Hk f g Hf; cbn [ofold]; [apply oimp_some; exact Hf|].
    apply (oimp_bind frel).
    - unfold bedge_update. destruct (owned (be_c e)); [|apply oimp_some; exact Hf].
      apply (oimp_bind krel2); [apply Hk; left; reflexivity|]. intros [fl a] [gl b] (H1 & _); cbn [fst snd] in *.
      apply oimp_same. intros sl _. apply oimp_some. apply add_at_rel; auto.
    - intros f1 g1 H1. apply IH; [intros; apply Hk; right; assumption|exact H1].
  Qed.
  Lemma source_loop_rel r1 r2 l :
    (forall c, In c l -> In c cs) ->
    (forall c F G, In c l -> Rel F G -> oimp Rel (r1 c F) (r2 c G)) ->
    forall f g, frel f g -> oimp frel (source_loop r1 l f) (source_loop r2 l g).
  Proof.
    unfold source_loop. induction l as [|e t IH]; intros Hin Hk f g Hf; cbn [ofold]; [apply oimp_some; exact Hf|].
    apply (oimp_bind frel).
    - unfold cell_update. apply (oimp_bind Rel); [apply Hk; [left; reflexivity|apply Hf; apply Hin; left; reflexivity]|].
      intros v w Hv. apply oimp_some. intros k Hk'. destruct (Nat.eqb k e); auto.
    - intros f1 g1 H1. apply IH; [intros; apply Hin; right; assumption|intros; apply Hk; [right; assumption|assumption]|exact H1].
  Qed.
End LoopRel.

Section LoopInv.
  Context {V : Type} (add : V -> V -> V) (scal : R -> V -> V).
  Lemma iloop_inv owned area kern edges : forall f f',
    interior_loop add scal owned area kern edges f = Some f' ->
    forall e, In e edges -> (exists k, kern e = Some k) /\ area (ie_l e) <> 0 /\ area (ie_r e) <> 0.
  Proof.
    unfold interior_loop. induction edges as [|a t IH]; intros f f' E e He; [destruct He|]. cbn [ofold] in E.
    apply obind_some in E. destruct E as (f1 & E1 & E2). destruct He as [<-|He]; [|eapply IH; eassumption].
    unfold edge_update in E1. destruct (kern a) as [[[fl fr] b]|]; cbn [obind] in E1; [|discriminate].
    destruct (rdiv _ (area (ie_l a))) eqn:D1; cbn [obind] in E1; [|discriminate].
    destruct (rdiv _ (area (ie_r a))) eqn:D2; cbn [obind] in E1; [|discriminate].
    apply rdiv_inv in D1. apply rdiv_inv in D2. split; [eauto|]. tauto.
  Qed.
  Lemma bloop_inv area kern edges : forall f f',
    boundary_loop add scal everything area kern edges f = Some f' ->
    forall e, In e edges -> (exists k, kern e = Some k) /\ area (be_c e) <> 0.
  Proof.
    unfold boundary_loop. induction edges as [|a t IH]; intros f f' E e He; [destruct He|]. cbn [ofold] in E.
    apply obind_some in E. destruct E as (f1 & E1 & E2). destruct He as [<-|He]; [|eapply IH; eassumption].
    unfold bedge_update, everything in E1. destruct (kern a) as [[fl b]|]; cbn [obind] in E1; [|discriminate].
    destruct (rdiv _ _) eqn:D1; cbn [obind] in E1; [|discriminate]. apply rdiv_inv in D1. split; [eauto|tauto].
  Qed.
End LoopInv.

(** ** Closed forms *)
Lemma rdivs_some x y : y <> 0 -> rdivs x y = Some (fun j => x j / y).
Proof. intros H. unfold rdivs. destruct (Req_EM_T y 0); [contradiction|reflexivity]. Qed.
Lemma rdivs_none x : rdivs x 0 = None.
Proof. unfold rdivs. destruct (Req_EM_T 0 0); [reflexivity|contradiction]. Qed.
Lemma rdivs_inv x y z : rdivs x y = Some z -> y <> 0 /\ forall j, z j = x j / y.
Proof. unfold rdivs. destruct (Req_EM_T y 0); [discriminate|]. intros H; injection H as <-. auto. Qed.

(* concentration as the two back ends see it *)
Definition pci (tiny : R) (q : tvec) (j : nat) : R := if depth q <? tiny then 0 else ttr q j / depth q.
Definition cci (tiny : R) (q : tvec) (j : nat) : R := if tiny <? depth q then ttr q j / depth q else 0.

Lemma petsc_tracer_prim_some tiny q : 0 < tiny ->
  exists P, petsc_tracer_prim tiny q = Some P /\ tp P = pvel tiny 0 (tflow q) /\ forall j, tci P j = pci tiny q j.
Proof.
  intros Ht. unfold petsc_tracer_prim, pci, pvel, depth. destruct (Rltb (c0 (tflow q)) tiny) eqn:E.
  - eexists; split; [reflexivity|]. split; reflexivity.
  - apply Rltb_false in E. rewrite !rdiv_some, rdivs_some by lra. cbn [obind]. eexists; split; [reflexivity|].
    split; [|reflexivity]. cbn [tp]. rewrite !vel_plain by lra. reflexivity.
Qed.

(* tracer component of the numerical flux, given the concentrations of the two sides *)
Definition proe (g : R) (L Rt : prim) (sn cn cl cr : R) : R :=
  let s := pspec g L Rt sn cn in
  let ch := (sqrt (ph L) * cl + sqrt (ph Rt) * cr) / (sqrt (ph L) + sqrt (ph Rt)) in
  1/2 * (ph L * unorm L sn cn * cl + ph Rt * unorm Rt sn cn * cr)
  - 1/2 * ch * (c0 (lam s) * c0 (dW s) + c2 (lam s) * c2 (dW s))
  - 1/2 * c1 (lam s) * (cr * ph Rt - cl * ph L - ch * (ph Rt - ph L)).
Definition pup (g : R) (L Rt : prim) (sn cn cl cr : R) : R :=
  c0 (pflux g L Rt sn cn) * (if 0 <=? c0 (pflux g L Rt sn cn) then cl else cr).
Definition ptr (k : triemann) := match k with TRoe => proe | TUpwind => pup end.

Lemma tracer_flux_some k g L Rt sn cn : wetpair (tp L) (tp Rt) ->
  exists T, tracer_flux k g L Rt sn cn (pspec g (tp L) (tp Rt) sn cn)
            = Some (TV (pflux g (tp L) (tp Rt) sn cn) T, chat g (tp L) (tp Rt) + Rabs (uperp (tp L) (tp Rt) sn cn))
            /\ forall j, T j = ptr k g (tp L) (tp Rt) sn cn (tci L j) (tci Rt j).
Proof.
  intros Hw. assert (Hs := sqrt_sum_pos _ _ Hw). destruct Hw as (Hl & Hr & _). destruct k; cbn [tracer_flux].
  - unfold tracer_roe. rewrite !rsqrt_some by assumption. cbn [obind]. rewrite rdivs_some by lra. cbn [obind].
    eexists; split; [reflexivity|]. intros j. cbn [ptr]. unfold proe, unorm. field. lra.
  - unfold tracer_upwind. eexists; split; [reflexivity|]. intros j. reflexivity.
Qed.

Lemma petsc_tracer_flux_some k L Rt sn cn : wetpair (tp L) (tp Rt) ->
  exists T, petsc_tracer_flux k L Rt sn cn
            = Some (TV (pflux GRAVITY (tp L) (tp Rt) sn cn) T, chat GRAVITY (tp L) (tp Rt) + Rabs (uperp (tp L) (tp Rt) sn cn))
            /\ forall j, T j = ptr k GRAVITY (tp L) (tp Rt) sn cn (tci L j) (tci Rt j).
Proof.
  intros Hw. unfold petsc_tracer_flux. rewrite petsc_eigenspectrum_some by exact Hw. cbn [obind]. apply tracer_flux_some; exact Hw.
Qed.

Definition tdry2 (tiny : R) (qL qR : tvec) : bool := ((depth qR <? tiny) && (depth qL <? tiny))%bool.

Lemma wet_of_tdry2 tiny qL qR ha : 0 < tiny -> 0 <= depth qL -> 0 <= depth qR -> tdry2 tiny qL qR = false ->
  wetpair (pvel tiny ha (tflow qL)) (pvel tiny ha (tflow qR)).
Proof.
  intros Ht Hl Hr E. unfold wetpair. rewrite !pvel_h. unfold tdry2, depth in *.
  apply Bool.andb_false_iff in E. destruct E as [E|E]; apply Rltb_false in E; lra.
Qed.

Lemma petsc_tracer_edge_some k tiny qL qR sn cn :
  0 < tiny -> 0 <= depth qL -> 0 <= depth qR ->
  let L := pvel tiny 0 (tflow qL) in let Rt := pvel tiny 0 (tflow qR) in
  exists F a, petsc_tracer_edge k tiny qL qR sn cn = Some (F, a) /\
    (tdry2 tiny qL qR = true -> F = tzero /\ a = 0) /\
    (tdry2 tiny qL qR = false -> tflow F = pflux GRAVITY L Rt sn cn /\ a = chat GRAVITY L Rt + Rabs (uperp L Rt sn cn) /\
       forall j, ttr F j = ptr k GRAVITY L Rt sn cn (pci tiny qL j) (pci tiny qR j)).
Proof.
  intros Ht Hl Hr L Rt. unfold petsc_tracer_edge.
  destruct (petsc_tracer_prim_some tiny qL Ht) as (PL & -> & EL & CL). destruct (petsc_tracer_prim_some tiny qR Ht) as (PR & -> & ER & CR).
  cbn [obind]. change ((depth qR <? tiny) && (depth qL <? tiny))%bool with (tdry2 tiny qL qR).
  destruct (tdry2 tiny qL qR) eqn:E.
  - do 2 eexists. split; [reflexivity|]. split; [tauto|discriminate].
  - destruct (petsc_tracer_flux_some k PL PR sn cn) as (T & EF & HT).
    { rewrite EL, ER. eapply wet_of_tdry2; eassumption. }
    rewrite EF. do 2 eexists. split; [reflexivity|]. split; [discriminate|]. intros _. cbn [tflow ttr]. rewrite EL, ER in *.
    repeat split. intros j. rewrite HT, CL, CR. reflexivity.
Qed.

(** ** Equal concentrations *)
Lemma ptr_uniform k g L Rt sn cn c : wetpair L Rt -> ptr k g L Rt sn cn c c = c * c0 (pflux g L Rt sn cn).
Proof.
  intros Hw. assert (Hs := sqrt_sum_pos _ _ Hw). destruct k; cbn [ptr].
  - unfold proe, pflux, assemble_flux, flux_row, side_flux, unorm; cbn [c0 c1 c2].
    set (s := pspec g L Rt sn cn). change (row0 s) with (V3 1 0 1); cbn [c0 c1 c2].
    replace ((sqrt (ph L) * c + sqrt (ph Rt) * c) / (sqrt (ph L) + sqrt (ph Rt))) with c by (field; lra). field.
  - unfold pup. destruct (Rleb _ _); ring.
Qed.
(* exactly dry on the right: the concentration of the wet side is what counts *)
Lemma proe_dry_right g L Rt sn cn cl cr : wetpair L Rt -> ph Rt = 0 -> proe g L Rt sn cn cl cr = cl * c0 (pflux g L Rt sn cn).
Proof.
  intros Hw H0. assert (Hs := sqrt_sum_pos _ _ Hw).
  unfold proe, pflux, assemble_flux, flux_row, side_flux, unorm; cbn [c0 c1 c2].
  set (s := pspec g L Rt sn cn). change (row0 s) with (V3 1 0 1); cbn [c0 c1 c2].
  rewrite H0 in *. rewrite sqrt_0 in *.
  replace ((sqrt (ph L) * cl + 0 * cr) / (sqrt (ph L) + 0)) with cl by (field; lra). field.
Qed.
Lemma proe_dry_left g L Rt sn cn cl cr : wetpair L Rt -> ph L = 0 -> proe g L Rt sn cn cl cr = cr * c0 (pflux g L Rt sn cn).
Proof.
  intros Hw H0. assert (Hs := sqrt_sum_pos _ _ Hw).
  unfold proe, pflux, assemble_flux, flux_row, side_flux, unorm; cbn [c0 c1 c2].
  set (s := pspec g L Rt sn cn). change (row0 s) with (V3 1 0 1); cbn [c0 c1 c2].
  rewrite H0 in *. rewrite sqrt_0 in *.
  replace ((0 * cl + sqrt (ph Rt) * cr) / (0 + sqrt (ph Rt))) with cr by (field; lra). field.
Qed.

(** ** Tracers do not influence each other *)
Definition same (j : nat) (a b : tvec) : Prop := tflow a = tflow b /\ ttr a j = ttr b j.
Definition samep (j : nat) (P Q : tprim) : Prop := tp P = tp Q /\ tci P j = tci Q j.
Lemma same_add j a b x y : same j a x -> same j b y -> same j (tadd a b) (tadd x y).
Proof. intros (H1 & H2) (H3 & H4). unfold same, tadd; cbn. rewrite H1, H2, H3, H4. auto. Qed.
Lemma same_scal j s a x : same j a x -> same j (tscal s a) (tscal s x).
Proof. intros (H1 & H2). unfold same, tscal; cbn. rewrite H1, H2. auto. Qed.
Lemma same_refl j a : same j a a. Proof. split; reflexivity. Qed.

Lemma rdivs_rel j x x' y : x j = x' j -> oimp (fun a b : nat -> R => a j = b j) (rdivs x y) (rdivs x' y).
Proof. intros H. unfold rdivs. destruct (Req_EM_T y 0); [apply oimp_none|]. apply oimp_some. rewrite H. reflexivity. Qed.

Lemma petsc_tracer_prim_same j tiny q q' : same j q q' -> oimp (samep j) (petsc_tracer_prim tiny q) (petsc_tracer_prim tiny q').
Proof.
  intros (H1 & H2). unfold petsc_tracer_prim, depth. rewrite <- H1. destruct (Rltb _ _); [apply oimp_some; split; reflexivity|].
  apply oimp_same. intros u _. apply oimp_same. intros v _.
  eapply oimp_bind; [apply rdivs_rel; exact H2|]. intros a b Hab. apply oimp_some. split; [reflexivity|exact Hab].
Qed.
Lemma tracer_flux_same j k g L L' Rt Rt' sn cn s : samep j L L' -> samep j Rt Rt' ->
  oimp (krel2 (same j)) (tracer_flux k g L Rt sn cn s) (tracer_flux k g L' Rt' sn cn s).
Proof.
  intros (H1 & H2) (H3 & H4). destruct k; cbn [tracer_flux].
  - unfold tracer_roe. rewrite <- H1, <- H3. apply oimp_same. intros a _. apply oimp_same. intros b _.
    eapply oimp_bind; [apply rdivs_rel; cbv beta; rewrite H2, H4; reflexivity|]. intros x y Hxy. apply oimp_some.
    split; [|reflexivity]. split; [reflexivity|]. cbn [fst ttr]. rewrite H2, H4, Hxy. reflexivity.
  - unfold tracer_upwind. rewrite <- H1, <- H3. apply oimp_some. split; [|reflexivity]. split; [reflexivity|]. cbn [fst ttr].
    destruct (Rleb _ _); congruence.
Qed.
Lemma petsc_tracer_flux_same j k L L' Rt Rt' sn cn : samep j L L' -> samep j Rt Rt' ->
  oimp (krel2 (same j)) (petsc_tracer_flux k L Rt sn cn) (petsc_tracer_flux k L' Rt' sn cn).
Proof.
  intros HL HR. unfold petsc_tracer_flux. rewrite <- (proj1 HL), <- (proj1 HR). apply oimp_same. intros s _. apply tracer_flux_same; assumption.
Qed.
Lemma krel2_zero j : krel2 (same j) (tzero, 0) (tzero, 0).
Proof. split; [apply same_refl|reflexivity]. Qed.
Lemma petsc_tracer_edge_same j k tiny qL qL' qR qR' sn cn : same j qL qL' -> same j qR qR' ->
  oimp (krel2 (same j)) (petsc_tracer_edge k tiny qL qR sn cn) (petsc_tracer_edge k tiny qL' qR' sn cn).
Proof.
  intros HL HR. unfold petsc_tracer_edge. eapply oimp_bind; [apply petsc_tracer_prim_same; exact HL|]. intros P P' HP.
  eapply oimp_bind; [apply petsc_tracer_prim_same; exact HR|]. intros Q Q' HQ. unfold depth. rewrite <- (proj1 HL), <- (proj1 HR).
  destruct (_ && _)%bool; [apply oimp_some; apply krel2_zero|]. apply petsc_tracer_flux_same; assumption.
Qed.
Definition same_bc (j : nat) (a b : tbcond) : Prop :=
  match a, b with TDirichlet q, TDirichlet q' => same j q q' | TReflecting, TReflecting => True | _, _ => False end.
Lemma petsc_tracer_bedge_same j k tiny b b' qL qL' sn cn : same_bc j b b' -> same j qL qL' ->
  oimp (krel2 (same j)) (petsc_tracer_bedge k tiny b qL sn cn) (petsc_tracer_bedge k tiny b' qL' sn cn).
Proof.
  intros Hb HL. unfold petsc_tracer_bedge. eapply oimp_bind; [apply petsc_tracer_prim_same; exact HL|]. intros P P' HP.
  apply (oimp_bind (samep j)).
  - destruct b, b'; cbn in Hb; try contradiction; [apply petsc_tracer_prim_same; exact Hb|]. apply oimp_some.
    unfold petsc_tracer_reflect. split; cbn [tp tci]; [rewrite (proj1 HP); reflexivity|apply HP].
  - intros Q Q' HQ. rewrite <- (proj1 HP), <- (proj1 HQ). destruct (_ && _)%bool; [apply oimp_some; apply krel2_zero|].
    apply petsc_tracer_flux_same; assumption.
Qed.
Lemma conc_same j (b : bool) x x' y : x j = x' j ->
  oimp (fun a b : nat -> R => a j = b j) (if b then rdivs x y else Some (fun _ => 0)) (if b then rdivs x' y else Some (fun _ => 0)).
Proof. intros H. destruct b; [apply rdivs_rel; exact H|apply oimp_some; reflexivity]. Qed.
Lemma ceed_tracer_flux_same j k g tiny qL qL' qR qR' sn cn : same j qL qL' -> same j qR qR' ->
  oimp (krel2 (same j)) (ceed_tracer_flux k g tiny qL qR sn cn) (ceed_tracer_flux k g tiny qL' qR' sn cn).
Proof.
  intros HL HR. unfold ceed_tracer_flux. apply (oimp_bind (samep j)).
  - unfold ceed_tracer_left, depth. rewrite <- (proj1 HL). apply oimp_same. intros u _. apply oimp_same. intros v _.
    eapply oimp_bind; [apply conc_same; apply HL|]. intros a b Hab. apply oimp_some. split; [reflexivity|exact Hab].
  - intros P P' HP. apply (oimp_bind (samep j)).
    + unfold ceed_tracer_right, depth. rewrite <- (proj1 HL), <- (proj1 HR).
      eapply oimp_bind; [apply conc_same; apply HR|]. intros a b Hab. apply oimp_same. intros u _. apply oimp_same. intros v _.
      apply oimp_some. split; [reflexivity|exact Hab].
    + intros Q Q' HQ. rewrite <- (proj1 HP), <- (proj1 HQ). apply oimp_same. intros s _. apply tracer_flux_same; assumption.
Qed.
Lemma ceed_tracer_edge_same j k g tiny qL qL' qR qR' sn cn : same j qL qL' -> same j qR qR' ->
  oimp (krel2 (same j)) (ceed_tracer_edge k g tiny qL qR sn cn) (ceed_tracer_edge k g tiny qL' qR' sn cn).
Proof.
  intros HL HR. unfold ceed_tracer_edge, depth. rewrite <- (proj1 HL), <- (proj1 HR).
  destruct (_ || _)%bool; [|apply oimp_some; apply krel2_zero]. apply ceed_tracer_flux_same; assumption.
Qed.
Lemma ceed_tracer_bedge_same j k g tiny b b' qL qL' sn cn : same_bc j b b' -> same j qL qL' ->
  oimp (krel2 (same j)) (ceed_tracer_bedge k g tiny b qL sn cn) (ceed_tracer_bedge k g tiny b' qL' sn cn).
Proof.
  intros Hb HL. destruct b, b'; cbn in Hb; try contradiction; cbn [ceed_tracer_bedge].
  - apply ceed_tracer_edge_same; assumption.
  - unfold depth. rewrite <- (proj1 HL). destruct (Rltb _ _); [|apply oimp_some; apply krel2_zero].
    apply ceed_tracer_flux_same; [exact HL|]. split; cbn [tflow ttr]; [reflexivity|apply HL].
Qed.
Lemma hr_tracer_prim_same j tiny ha hrec q q' : same j q q' -> oimp (samep j) (hr_tracer_prim tiny ha hrec q) (hr_tracer_prim tiny ha hrec q').
Proof.
  intros HL. unfold hr_tracer_prim, depth. rewrite <- (proj1 HL). apply oimp_same. intros P _.
  eapply oimp_bind; [apply conc_same; apply HL|]. intros a b Hab. apply oimp_some. split; [reflexivity|exact Hab].
Qed.
Lemma tcorr_same j F F' a b : same j F F' -> krel3 (same j) (tadd F a, tadd F b, 0) (tadd F' a, tadd F' b, 0).
Proof. intros H. repeat split; cbn; try rewrite (proj1 H); try rewrite (proj2 H); reflexivity. Qed.
Lemma petsc_tracer_hr_edge_same j k tiny ha zL zR qL qL' qR qR' sn cn : same j qL qL' -> same j qR qR' ->
  oimp (krel3 (same j)) (petsc_tracer_hr_edge k tiny ha zL zR qL qR sn cn) (petsc_tracer_hr_edge k tiny ha zL zR qL' qR' sn cn).
Proof.
  intros HL HR. unfold petsc_tracer_hr_edge. replace (depth qL') with (depth qL) by (unfold depth; rewrite (proj1 HL); reflexivity).
  replace (depth qR') with (depth qR) by (unfold depth; rewrite (proj1 HR); reflexivity).
  destruct (_ && _)%bool; [apply oimp_some; repeat split|].
  eapply oimp_bind; [apply hr_tracer_prim_same; exact HL|]. intros P P' HP.
  eapply oimp_bind; [apply hr_tracer_prim_same; exact HR|]. intros Q Q' HQ.
  apply (oimp_bind (krel2 (same j))).
  - destruct (_ || _)%bool; [apply petsc_tracer_flux_same; assumption|apply oimp_some; apply krel2_zero].
  - intros [F a] [F' a'] (H1 & H2); cbn [fst snd] in *. apply oimp_some. destruct (tcorr_same j F F' (tcorrection GRAVITY (depth qL) (hr_depth (depth qL) zL zR) sn cn) (tcorrection GRAVITY (depth qR) (hr_depth (depth qR) zR zL) sn cn) H1) as (K1 & K2 & _).
    split; [exact K1|]. split; [exact K2|exact H2].
Qed.
Lemma ceed_tracer_hr_edge_same j g tiny ha zL zR qL qL' qR qR' sn cn : same j qL qL' -> same j qR qR' ->
  oimp (krel3 (same j)) (ceed_tracer_hr_edge g tiny ha zL zR qL qR sn cn) (ceed_tracer_hr_edge g tiny ha zL zR qL' qR' sn cn).
Proof.
  intros HL HR. unfold ceed_tracer_hr_edge. replace (depth qL') with (depth qL) by (unfold depth; rewrite (proj1 HL); reflexivity).
  replace (depth qR') with (depth qR) by (unfold depth; rewrite (proj1 HR); reflexivity).
  eapply oimp_bind; [apply hr_tracer_prim_same; exact HL|]. intros P P' HP.
  eapply oimp_bind; [apply hr_tracer_prim_same; exact HR|]. intros Q Q' HQ.
  destruct ((tiny <? depth qL) || (tiny <? depth qR))%bool; [|apply oimp_some; repeat split].
  apply (oimp_bind (krel2 (same j))).
  - destruct (_ || _)%bool; [|apply oimp_some; apply krel2_zero]. apply ceed_tracer_flux_same; split; cbn [tflow ttr].
    + rewrite (proj1 HP); reflexivity. + rewrite (proj1 HP), (proj2 HP); reflexivity.
    + rewrite (proj1 HQ); reflexivity. + rewrite (proj1 HQ), (proj2 HQ); reflexivity.
  - intros [F a] [F' a'] (H1 & H2); cbn [fst snd] in *. apply oimp_some. destruct (tcorr_same j F F' (tcorrection g (depth qL) (hr_depth (depth qL) zL zR) sn cn) (tcorrection g (depth qR) (hr_depth (depth qR) zR zL) sn cn) H1) as (K1 & K2 & _).
    split; [exact K1|]. split; [exact K2|exact H2].
Qed.
Lemma petsc_tracer_rhs_same j bed dt tiny n zx zy q q' F F' s s' : same j q q' -> same j F F' -> same j s s' ->
  oimp (same j) (petsc_tracer_rhs bed dt tiny n zx zy q F s) (petsc_tracer_rhs bed dt tiny n zx zy q' F' s').
Proof.
  intros Hq HF Hs. unfold petsc_tracer_rhs, depth. rewrite <- (proj1 Hq), <- (proj1 HF), <- (proj1 Hs).
  apply oimp_same. intros fl _. destruct (Rleb _ _); [|apply oimp_some; split; cbn; [reflexivity|apply HF]].
  apply oimp_same. intros u _. apply oimp_same. intros v _. apply oimp_same. intros hp _.
  eapply oimp_bind; [apply rdivs_rel; apply Hq|]. intros a b Hab. apply oimp_some. split; cbn [tflow ttr]; [reflexivity|].
  rewrite Hab, (proj2 HF), (proj2 Hs). reflexivity.
Qed.
Lemma ceed_tracer_rhs_same j bed g dt tiny n zx zy q q' F F' s s' : same j q q' -> same j F F' -> same j s s' ->
  oimp (same j) (ceed_tracer_rhs bed g dt tiny n zx zy q F s) (ceed_tracer_rhs bed g dt tiny n zx zy q' F' s').
Proof.
  intros Hq HF Hs. unfold ceed_tracer_rhs, depth. rewrite <- (proj1 Hq), <- (proj1 HF), <- (proj1 Hs).
  apply (oimp_bind (fun a b : R * R * (nat -> R) => fst a = fst b /\ snd a j = snd b j)).
  - destruct (Rltb _ _); [|apply oimp_some; split; reflexivity].
    repeat (apply oimp_same; intros ? _). eapply oimp_bind; [apply rdivs_rel; apply Hq|]. intros ca cb Hab. apply oimp_some.
    split; cbn [fst snd]; [reflexivity|]. rewrite Hab. reflexivity.
  - intros [[x y] e] [[x' y'] e'] (H1 & H2); cbn [fst snd] in *. injection H1 as <- <-. apply oimp_some. split; cbn [tflow ttr]; [reflexivity|].
    rewrite H2, (proj2 HF), (proj2 Hs). reflexivity.
Qed.

(* two schemes that differ only in the boundary data of tracers other than [j] *)
Definition scheme_same (j : nat) (m : mesh) (s s' : tscheme) : Prop :=
  (forall u u' e, In e (iedges m) -> same j (u (ie_l e)) (u' (ie_l e)) -> same j (u (ie_r e)) (u' (ie_r e)) ->
     oimp (krel3 (same j)) (ts_interior s u e) (ts_interior s' u' e)) /\
  (forall u u' e, In e (bedges m) -> same j (u (be_c e)) (u' (be_c e)) -> oimp (krel2 (same j)) (ts_boundary s u e) (ts_boundary s' u' e)) /\
  (forall dt u u' src src' c F F', same j (u c) (u' c) -> same j (src c) (src' c) -> same j F F' ->
     oimp (same j) (ts_source s dt u src c F) (ts_source s' dt u' src' c F')).

Lemma tboth_same j x y : oimp (krel2 (same j)) x y -> oimp (krel3 (same j)) (tboth x) (tboth y).
Proof. intros H. unfold tboth. eapply oimp_bind; [exact H|]. intros a b (H1 & H2). apply oimp_some. split; [exact H1|]. split; assumption. Qed.

Lemma trhs_same j m s s' dt src src' u u' :
  scheme_same j m s s' -> mesh_wf m ->
  (forall c, In c (cells m) -> same j (u c) (u' c)) -> (forall c, In c (cells m) -> same j (src c) (src' c)) ->
  oimp (frel (same j) (cells m)) (trhs s m dt src u) (trhs s' m dt src' u').
Proof.
  intros (S1 & S2 & S3) (Hnd & Hi & Hb) Hu Hs. unfold trhs, tdivergence.
  apply (oimp_bind (frel (same j) (cells m))).
  - apply (oimp_bind (frel (same j) (cells m))).
    + apply interior_loop_rel; [apply same_add|apply same_scal| |intros c _; apply same_refl].
      intros e He. destruct (Hi e He). apply S1; auto.
    + intros f f' Hf. apply boundary_loop_rel; [apply same_add|apply same_scal| |exact Hf]. intros e He. apply S2; auto.
  - intros f f' Hf. apply source_loop_rel; [auto| |exact Hf]. intros c F G Hc HFG. apply S3; auto.
Qed.

(** time integrators *)
Section StepRel.
  Context (Rel : tvec -> tvec -> Prop) (cs : list nat).
  Hypothesis Radd : forall a b x y, Rel a x -> Rel b y -> Rel (tadd a b) (tadd x y).
  Hypothesis Rscal : forall s a x, Rel a x -> Rel (tscal s a) (tscal s x).
  Lemma taxpy_rel u u' a k k' : frel Rel cs u u' -> frel Rel cs k k' -> frel Rel cs (taxpy u a k) (taxpy u' a k').
  Proof. intros Hu Hk c Hc. unfold taxpy. apply Radd; [auto|apply Rscal; auto]. Qed.
  Lemma tts_step_rel i F F' dt u u' :
    (forall v v', frel Rel cs v v' -> oimp (frel Rel cs) (F v) (F' v')) -> frel Rel cs u u' ->
    oimp (frel Rel cs) (tts_step i F dt u) (tts_step i F' dt u').
  Proof.
    intros HF Hu. destruct i; cbn [tts_step].
    - unfold teuler_step. eapply oimp_bind; [apply HF; exact Hu|]. intros k k' Hk. apply oimp_some. apply taxpy_rel; assumption.
    - unfold trk4_step. eapply oimp_bind; [apply HF; exact Hu|]. intros k1 k1' H1.
      eapply oimp_bind; [apply HF; apply taxpy_rel; eassumption|]. intros k2 k2' H2.
      eapply oimp_bind; [apply HF; apply taxpy_rel; eassumption|]. intros k3 k3' H3.
      eapply oimp_bind; [apply HF; apply taxpy_rel; eassumption|]. intros k4 k4' H4.
      apply oimp_some. repeat apply taxpy_rel; assumption.
  Qed.
End StepRel.
Definition same_input (j : nat) (m : mesh) (x x' : tstep_input) : Prop :=
  tst_dt x = tst_dt x' /\ forall c, In c (cells m) -> same j (tst_src x c) (tst_src x' c).
Lemma trun_same j i m s s' xs xs' : scheme_same j m s s' -> mesh_wf m -> Forall2 (same_input j m) xs xs' ->
  forall u u', frel (same j) (cells m) u u' -> oimp (frel (same j) (cells m)) (trun i s m xs u) (trun i s' m xs' u').
Proof.
  intros Hs Hm Hx. unfold trun. induction Hx as [|x x' t t' (Hd & Hsrc) _ IH]; intros u u' Hu; cbn [ofold]; [apply oimp_some; exact Hu|].
  apply (oimp_bind (frel (same j) (cells m))).
  - rewrite <- Hd. apply tts_step_rel; [apply same_add|apply same_scal| |exact Hu]. intros v v' Hv. apply trhs_same; assumption.
  - intros v v' Hv. apply IH; exact Hv.
Qed.

(** ** Tracers are passive: the flow part is the computation without tracers *)
Definition flowof (a : tvec) (b : vec3) : Prop := tflow a = b.
Definition flow_bc (b : tbcond) : bcond := match b with TDirichlet q => BCDirichlet (tflow q) | TReflecting => BCReflecting end.

Lemma rdiv_plain m h : rdiv (m * h) (h * h + 0 * 0) = rdiv m h.
Proof.
  unfold rdiv. destruct (Req_EM_T h 0) as [->|Hn].
  - destruct (Req_EM_T _ 0) as [_|N]; [reflexivity|]. exfalso; apply N; ring.
  - assert (Hq : h * h + 0 * 0 <> 0) by (assert (h * h <> 0) by (apply Rmult_integral_contrapositive; auto); lra).
    destruct (Req_EM_T _ 0); [contradiction|]. f_equal. field. exact Hn.
Qed.
Lemma SafeDiv_plain m h t : SafeDiv (m * h) (h * h + 0 * 0) h t = SafeDiv m h h t.
Proof. unfold SafeDiv. rewrite rdiv_plain. reflexivity. Qed.

Lemma petsc_tracer_prim_flow tiny q : oimp (fun P p => tp P = p) (petsc_tracer_prim tiny q) (petsc_velocities tiny 0 (tflow q)).
Proof.
  unfold petsc_tracer_prim, petsc_velocities, depth. destruct (Rltb _ _); [apply oimp_some; reflexivity|].
  rewrite !rdiv_plain. apply oimp_same. intros u _. apply oimp_same. intros v _.
  intros P E. apply obind_some in E. destruct E as (ci & _ & E). injection E as <-. eauto.
Qed.
Lemma tracer_flux_flow k g L Rt sn cn s :
  oimp (krel2 flowof) (tracer_flux k g L Rt sn cn s) (Some (assemble_flux g (tp L) (tp Rt) sn cn s, amax s)).
Proof.
  destruct k; cbn [tracer_flux].
  - unfold tracer_roe. intros [F a] E. repeat (apply obind_some in E; destruct E as (? & _ & E)). injection E as <- <-.
    eexists; split; [reflexivity|]. split; reflexivity.
  - apply oimp_some. split; reflexivity.
Qed.
Lemma petsc_tracer_flux_flow k L Rt sn cn : oimp (krel2 flowof) (petsc_tracer_flux k L Rt sn cn) (petsc_roe_flux (tp L) (tp Rt) sn cn).
Proof. unfold petsc_tracer_flux, petsc_roe_flux. apply oimp_same. intros s _. apply tracer_flux_flow. Qed.
Lemma petsc_velocities_h tiny ha q p : petsc_velocities tiny ha q = Some p -> ph p = c0 q.
Proof.
  unfold petsc_velocities. destruct (Rltb _ _); [intros E; injection E as <-; reflexivity|].
  intros E. repeat (apply obind_some in E; destruct E as (? & _ & E)). injection E as <-. reflexivity.
Qed.
Lemma petsc_tracer_edge_flow k tiny qL qR sn cn :
  oimp (krel2 flowof) (petsc_tracer_edge k tiny qL qR sn cn) (petsc_interior_edge tiny 0 (tflow qL) (tflow qR) sn cn).
Proof.
  unfold petsc_tracer_edge, petsc_interior_edge. intros Fa E.
  apply obind_some in E. destruct E as (P & EP & E). apply obind_some in E. destruct E as (Q & EQ & E).
  destruct (petsc_tracer_prim_flow tiny qL P EP) as (p & Ep & HP). destruct (petsc_tracer_prim_flow tiny qR Q EQ) as (q & Eq & HQ).
  rewrite Ep, Eq. cbn [obind]. unfold prim_dry. rewrite (petsc_velocities_h _ _ _ _ Ep), (petsc_velocities_h _ _ _ _ Eq).
  unfold depth in E. destruct (_ && _)%bool.
  - injection E as <-. eexists; split; [reflexivity|]. split; reflexivity.
  - rewrite <- HP, <- HQ. exact (petsc_tracer_flux_flow k P Q sn cn Fa E).
Qed.
Lemma petsc_tracer_bedge_flow k tiny b qL sn cn :
  oimp (krel2 flowof) (petsc_tracer_bedge k tiny b qL sn cn) (petsc_boundary_edge tiny 0 (flow_bc b) (tflow qL) sn cn).
Proof.
  unfold petsc_tracer_bedge, petsc_boundary_edge, petsc_boundary_states. intros Fa E.
  apply obind_some in E. destruct E as (P & EP & E). apply obind_some in E. destruct E as (Q & EQ & E).
  destruct (petsc_tracer_prim_flow tiny qL P EP) as (p & Ep & HP). rewrite Ep. cbn [obind]. subst p.
  assert (HQ : match flow_bc b with BCDirichlet qR => let* Rt := petsc_velocities tiny 0 qR in Some (tp P, Rt)
                | BCReflecting => Some (tp P, petsc_reflect (tp P) sn cn) | BCCriticalOutflow => petsc_outflow (tp P) sn cn end = Some (tp P, tp Q)).
  { destruct b as [qR|]; cbn [flow_bc].
    - destruct (petsc_tracer_prim_flow tiny qR Q EQ) as (q & Eq & <-). rewrite Eq. reflexivity.
    - injection EQ as <-. reflexivity. }
  rewrite HQ. cbn [obind]. unfold prim_dry. destruct (_ && _)%bool.
  - injection E as <-. eexists; split; [reflexivity|]. split; reflexivity.
  - exact (petsc_tracer_flux_flow k P Q sn cn Fa E).
Qed.
Lemma ceed_left_flow tiny q : oimp (fun P p => tp P = p) (ceed_tracer_left tiny q) (ceed_velocities tiny 0 (tflow q)).
Proof.
  unfold ceed_tracer_left, ceed_velocities, depth. rewrite !SafeDiv_plain. apply oimp_same. intros u _. apply oimp_same. intros v _.
  intros P E. apply obind_some in E. destruct E as (ci & _ & E). injection E as <-. eauto.
Qed.
Lemma ceed_right_flow tiny hl q : oimp (fun P p => tp P = p) (ceed_tracer_right tiny hl q) (ceed_velocities tiny 0 (tflow q)).
Proof.
  unfold ceed_tracer_right, ceed_velocities, depth. rewrite !SafeDiv_plain. intros P E.
  apply obind_some in E. destruct E as (ci & _ & E). apply obind_some in E. destruct E as (u & Eu & E). apply obind_some in E. destruct E as (v & Ev & E).
  rewrite Eu, Ev. cbn [obind]. injection E as <-. eauto.
Qed.
Lemma ceed_tracer_flux_flow k g tiny qL qR sn cn :
  oimp (krel2 flowof) (ceed_tracer_flux k g tiny qL qR sn cn) (ceed_roe_flux g tiny 0 (tflow qL) (tflow qR) sn cn 0).
Proof.
  unfold ceed_tracer_flux, ceed_roe_flux. eapply oimp_bind; [apply ceed_left_flow|]. intros P p <-.
  eapply oimp_bind; [apply ceed_right_flow|]. intros Q q <-. apply oimp_same. intros s _. intros [F a] E.
  destruct (tracer_flux_flow k g P Q sn cn s (F, a) E) as (b & Eb & (H1 & H2)). injection Eb as <-. cbn [fst snd] in *. unfold flowof in H1.
  eexists; split; [reflexivity|]. split; cbn [fst snd]; [|exact H2]. unfold flowof. rewrite H1. apply vec3_ext; cbn [c0 c1 c2]; field.
Qed.
Lemma ceed_tracer_edge_flow k g tiny qL qR sn cn :
  oimp (krel2 flowof) (ceed_tracer_edge k g tiny qL qR sn cn) (ceed_interior_edge g tiny 0 (tflow qL) (tflow qR) sn cn 0).
Proof.
  unfold ceed_tracer_edge, ceed_interior_edge, depth. destruct (_ || _)%bool; [apply ceed_tracer_flux_flow|]. apply oimp_some. split; reflexivity.
Qed.
Lemma ceed_tracer_bedge_flow k g tiny b qL sn cn :
  oimp (krel2 flowof) (ceed_tracer_bedge k g tiny b qL sn cn) (ceed_boundary_edge g tiny 0 (flow_bc b) (tflow qL) sn cn 0).
Proof.
  destruct b as [qR|]; cbn [ceed_tracer_bedge flow_bc ceed_boundary_edge]; [apply ceed_tracer_edge_flow|].
  unfold depth. destruct (Rltb _ _); [|apply oimp_some; split; reflexivity]. apply (ceed_tracer_flux_flow k g tiny qL (TV _ (ttr qL))).
Qed.
Lemma hr_tracer_prim_flow tiny ha hrec q :
  oimp (fun P p => tp P = Prim hrec (pu p) (pv p)) (hr_tracer_prim tiny ha hrec q) (hr_velocity tiny ha (tflow q)).
Proof.
  unfold hr_tracer_prim. intros P E. apply obind_some in E. destruct E as (p & -> & E). apply obind_some in E. destruct E as (ci & _ & E).
  injection E as <-. eexists; split; reflexivity.
Qed.
Lemma flow_corr F f a b : flowof F f -> flowof (tadd F (TV a b)) (vadd f a).
Proof. unfold flowof. intros <-. reflexivity. Qed.
Lemma petsc_tracer_hr_edge_flow k tiny ha zL zR qL qR sn cn :
  oimp (krel3 flowof) (petsc_tracer_hr_edge k tiny ha zL zR qL qR sn cn) (petsc_hr_edge tiny ha zL zR (tflow qL) (tflow qR) sn cn).
Proof.
  unfold petsc_tracer_hr_edge, petsc_hr_edge, depth. destruct (_ && _)%bool; [apply oimp_some; repeat split|].
  eapply oimp_bind; [apply hr_tracer_prim_flow|]. intros P p HP. eapply oimp_bind; [apply hr_tracer_prim_flow|]. intros Q q HQ.
  apply (oimp_bind (krel2 flowof)).
  - destruct (_ || _)%bool; [|apply oimp_some; split; reflexivity]. rewrite <- HP, <- HQ. apply petsc_tracer_flux_flow.
  - intros [F a] [f b] (H1 & H2); cbn [fst snd] in *. apply oimp_some. split; [apply flow_corr; exact H1|]. split; [apply flow_corr; exact H1|exact H2].
Qed.
Lemma ceed_tracer_hr_edge_flow g tiny ha zL zR qL qR sn cn : ha = 0 ->
  oimp (krel3 flowof) (ceed_tracer_hr_edge g tiny ha zL zR qL qR sn cn) (ceed_hr_edge g tiny ha zL zR (tflow qL) (tflow qR) sn cn).
Proof.
  intros ->. unfold ceed_tracer_hr_edge, ceed_hr_edge, depth.
  eapply oimp_bind; [apply hr_tracer_prim_flow|]. intros P p HP. eapply oimp_bind; [apply hr_tracer_prim_flow|]. intros Q q HQ.
  destruct ((tiny <? c0 (tflow qL)) || (tiny <? c0 (tflow qR)))%bool; [|apply oimp_some; repeat split].
  apply (oimp_bind (krel2 flowof)).
  - destruct (_ || _)%bool; [|apply oimp_some; split; reflexivity]. rewrite HP, HQ. cbn [ph pu pv].
    match goal with |- oimp _ (ceed_tracer_flux TRoe g tiny ?a ?b _ _) _ => apply (ceed_tracer_flux_flow TRoe g tiny a b) end.
  - intros [F a] [f b] (H1 & H2); cbn [fst snd] in *. apply oimp_some. split; [apply flow_corr; exact H1|]. split; [apply flow_corr; exact H1|exact H2].
Qed.
Lemma petsc_tracer_rhs_flow bed dt tiny n zx zy q F s :
  oimp flowof (petsc_tracer_rhs bed dt tiny n zx zy q F s) (petsc_rhs SemiImplicit bed dt tiny n zx zy (tflow q) (tflow F) (tflow s)).
Proof.
  unfold petsc_tracer_rhs. intros v E. apply obind_some in E. destruct E as (fl & -> & E). exists fl. split; [reflexivity|].
  destruct (Rleb _ _); [|injection E as <-; reflexivity]. repeat (apply obind_some in E; destruct E as (? & _ & E)). injection E as <-. reflexivity.
Qed.
Lemma ceed_tracer_rhs_flow bed g dt tiny n zx zy q F s :
  oimp flowof (ceed_tracer_rhs bed g dt tiny n zx zy q F s) (ceed_rhs SemiImplicit bed g dt tiny 0 n zx zy (tflow q) (tflow F) (tflow s)).
Proof.
  unfold ceed_tracer_rhs, ceed_rhs, ceed_semi_implicit, depth. rewrite !SafeDiv_plain. intros v E.
  apply obind_some in E. destruct E as ([[x y] e] & E1 & E). injection E as <-.
  destruct (Rltb tiny (c0 (tflow q))).
  - repeat (apply obind_some in E1; let H := fresh "K" in destruct E1 as (? & H & E1); try rewrite H; cbn [obind]).
    injection E1 as <- <- <-. eexists; split; [reflexivity|]. reflexivity.
  - injection E1 as <- <- <-. cbn [obind]. eexists; split; [reflexivity|]. reflexivity.
Qed.
