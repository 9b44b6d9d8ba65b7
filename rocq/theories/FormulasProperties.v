(** C90: formulas of the input file are evaluated as written.  C91: the mesh of a convergence study follows the prescribed bed. *)
From Coq Require Import String.
From Verif Require Import Base MeshMapsModel DataModel SetupModel GridModel FormulasModel FormulasProofs FormulasSpec.
Local Open Scope nat_scope.
Local Notation length := List.length.

(** ** Conditions and materials *)
(* Every text given for a condition or a material is what the evaluations of its place return, for any formula
   language; a text that cannot be understood counts as 0. *)
Theorem C90_conditions parse fm : exists s, ParseMathExpressions fm initial = Ret s /\
  forall v e, text_of fm v = Some e -> manufactured v = false ->
    mupEval parse v s = Ret (match meaning parse e no_names with Some r => r | None => 0%R end).
Proof.
  destruct (parse_ok fm) as (s & E & G & V). exists s. split; [exact E|]. intros v e T M. unfold mupEval.
  specialize (V v). rewrite T in V. cbn [option_map] in V. unfold consts in V. rewrite M in V.
  rewrite (deref_spec _ _ _ G V). cbn [rbind]. rewrite (eval_plain parse (Parser e [] [])) by reflexivity. reflexivity.
Qed.
Print Assumptions C90_conditions.

(* A formula that is not understood is not reported: it is accepted, and counts as 0 ("no handler is set").  In
   particular a formula in x and y, for a condition or a material, is accepted and counts as 0 everywhere. *)
Theorem C90_not_reported_refuted parse : 
  (forall fm v e, text_of fm v = Some e -> manufactured v = false -> meaning parse e no_names = None ->
     exists s, ParseMathExpressions fm initial = Ret s /\ mupEval parse v s = Ret 0%R) /\
  (forall e t s, parse e = Some t -> In s (names t) -> meaning parse e no_names = None).
Proof.
  split.
  - intros fm v e T M N. destruct (C90_conditions parse fm) as (s & E & H). exists s. split; [exact E|]. rewrite (H v e T M), N. reflexivity.
  - intros e t s Et Hs. unfold meaning. rewrite Et. cbn [obind]. apply (value_unknown _ t s Hs). reflexivity.
Qed.
Print Assumptions C90_not_reported_refuted.

(** ** Functions of a manufactured solution *)
(* what a convergence study does with the functions: evaluations at points and times, in any order *)
Inductive event :=
| Temporal (v : place) (n : nat) (x y : list R) (time : R) (values : list R)
| Spatial (v : place) (n : nat) (x y : list R) (values : list R).
Definition perform (parse : string -> option term) (s : state) (ev : event) : result state :=
  match ev with
  | Temporal v n x y time values => let! r := EvaluateTemporalSolution parse v n x y time values s in Ret (fst r)
  | Spatial v n x y values => let! r := EvaluateSpatialSolution parse v n x y values s in Ret (fst r)
  end.
Definition sensible (parse : string -> option term) (fm : formulas) (ev : event) : Prop :=
  match ev with
  | Temporal v n x y _ values => manufactured v = true /\ text_of fm v <> None /\ n <= length x /\ n <= length y /\ n <= length values
  | Spatial v n x y values => manufactured v = true /\ (exists e, text_of fm v = Some e /\ ~ uses_time parse e) /\ n <= length x /\ n <= length y /\ n <= length values
  end.
Lemma perform_holds parse fm s ev : holds fm s -> sensible parse fm ev -> exists s', perform parse s ev = Ret s' /\ holds fm s'.
Proof.
  intros H S. destruct ev as [v n x y time values|v n x y values]; cbn [sensible] in S.
  - destruct S as (M & T & Lx & Ly & Lv). destruct (text_of fm v) as [e|] eqn:Te; [|congruence].
    destruct (temporal_ok parse fm v e n x y time values s H M Te Lx Ly Lv) as (s' & out & E & H' & _). exists s'. cbn [perform]. rewrite E. auto.
  - destruct S as (M & (e & Te & Nt) & Lx & Ly & Lv).
    destruct (spatial_ok parse fm v e n x y values s H M Te (or_introl Nt) Lx Ly Lv) as (s' & out & E & H' & _). exists s'. cbn [perform]. rewrite E. auto.
Qed.
Lemma performs_hold parse fm es : forall s, holds fm s -> Forall (sensible parse fm) es -> exists s', rfold (perform parse) es s = Ret s' /\ holds fm s'.
Proof.
  induction es as [|ev es IH]; intros s H F; [exists s; auto|]. inversion F; subst. destruct (perform_holds parse fm s ev H H2) as (s1 & E1 & H1).
  destruct (IH s1 H1 H3) as (s2 & E2 & H4). exists s2. cbn [rfold]. rewrite E1. auto.
Qed.

(* After any history of evaluations, a function evaluated at points and a time returns, at each point, the value of
   the user's text there, with the constants of the file (0 for those not given).  Nothing freed is ever read.  If
   the text is not understood the results are left as they were. *)
Theorem C90_manufactured parse fm es : Forall (sensible parse fm) es ->
  exists s0 s, ParseMathExpressions fm initial = Ret s0 /\ rfold (perform parse) es s0 = Ret s /\
  (forall v e n x y time values, manufactured v = true -> text_of fm v = Some e -> n <= length x -> n <= length y -> n <= length values ->
     exists s' out, EvaluateTemporalSolution parse v n x y time values s = Ret (s', out) /\
       evaluated parse e ["x"; "y"; "t"]%string (fun i => at_point fm (coord x i) (coord y i) time) n values out) /\
  (forall v e n x y values, manufactured v = true -> text_of fm v = Some e -> ~ uses_time parse e -> n <= length x -> n <= length y -> n <= length values ->
     exists s' out, EvaluateSpatialSolution parse v n x y values s = Ret (s', out) /\
       evaluated parse e ["x"; "y"]%string (fun i => at_place fm (coord x i) (coord y i)) n values out).
Proof.
  intros F. destruct (parse_ok fm) as (s0 & E0 & _). exists s0. pose proof (parse_holds fm s0 E0) as H0.
  destruct (performs_hold parse fm es s0 H0 F) as (s & E & H). exists s. split; [exact E0|]. split; [exact E|]. split.
  - intros v e n x y time values M T Lx Ly Lv. destruct (temporal_ok parse fm v e n x y time values s H M T Lx Ly Lv) as (s' & out & Eo & _ & Ev). eauto.
  - intros v e n x y values M T Nt Lx Ly Lv. destruct (spatial_ok parse fm v e n x y values s H M T (or_introl Nt) Lx Ly Lv) as (s' & out & Eo & _ & Ev). eauto.
Qed.
Print Assumptions C90_manufactured.

(* A bed roughness that depends on time: the roughness of the cells, set once without a time, is left as it was
   (0 in a new simulation); setting it again after a step reads freed memory. *)
Theorem C90_time_dependent_roughness_refuted parse fm e n x y values :
  given (fm_swe fm F_h) = true -> fm_swe fm F_n = e -> uses_time parse e -> 0 < n -> n <= length x -> n <= length y -> n <= length values ->
  exists s0, ParseMathExpressions fm initial = Ret s0 /\
  (exists s1, EvaluateSpatialSolution parse (PSwe F_n) n x y values s0 = Ret (s1, values)) /\
  (understood parse e ["x"; "y"; "t"]%string -> forall time, exists s1 out, EvaluateTemporalSolution parse (PSwe F_n) n x y time values s0 = Ret (s1, out) /\
     EvaluateSpatialSolution parse (PSwe F_n) n x y values s1 = UB).
Proof.
  intros Hg He Ut Hn Lx Ly Lv. destruct (parse_ok fm) as (s0 & E0 & G0 & V0). exists s0. split; [exact E0|]. pose proof (parse_holds fm s0 E0) as H0.
  assert (T : text_of fm (PSwe F_n) = Some e) by (cbn; rewrite Hg, He; reflexivity).
  assert (Nu : ~ understood parse e ["x"; "y"]%string).
  { intros (t & Et & It). destruct Ut as (t' & Et' & Ht). assert (t' = t) by congruence. subst t'. specialize (It _ Ht). apply in_app_or in It. destruct It as [It|It].
    - revert It. apply no_letter. cbn; tauto.
    - cbn in It. destruct It as [It|[It|[]]]; discriminate. }
  split.
  - destruct (spatial_ok parse fm (PSwe F_n) e n x y values s0 H0 eq_refl T) as (s1 & out & E & _ & Ev); try assumption.
    + right. exists []. split; [|intros z []]. rewrite V0, T. reflexivity.
    + exists s1. rewrite E. destruct Ev as (_ & _ & _ & Ev). destruct (Ev Nu) as (-> & _). reflexivity.
  - intros U time. 
    destruct (set_xyt parse fm (PSwe F_n) e (Some x) (Some y) (Some (repeat time n)) s0 H0 T) as (s1 & s2 & s3 & E1 & E2 & E3 & H3 & V3).
    destruct (temporal_ok parse fm (PSwe F_n) e n x y time values s0 H0 eq_refl T Lx Ly Lv) as (sf & out & Et & Hf & _).
    exists sf, out. split; [exact Et|].
    unfold EvaluateTemporalSolution in Et. rewrite E1 in Et. cbn [rbind] in Et. rewrite E2 in Et. cbn [rbind] in Et. rewrite E3 in Et. cbn [rbind] in Et.
    destruct (mupEvalBulk parse (PSwe F_n) n values s3) as [vs| |]; cbn [rbind] in Et; [|discriminate|discriminate].
    destruct (define_var fm (PSwe F_n) e _ "t" None s3 (proj1 H3) V3) as (s4 & E4 & G4 & V4); [cbn; tauto|].
    pose proof (V4 (PSwe F_n)) as W4. destruct (place_eq_dec (PSwe F_n) (PSwe F_n)) as [_|X] in W4; [|congruence].
    destruct (define_var fm (PSwe F_n) e _ "x" None s4 G4 W4) as (s5 & E5 & G5 & V5); [cbn; tauto|].
    pose proof (V5 (PSwe F_n)) as W5. destruct (place_eq_dec (PSwe F_n) (PSwe F_n)) as [_|X] in W5; [|congruence].
    destruct (define_var fm (PSwe F_n) e _ "y" None s5 G5 W5) as (s6 & E6 & G6 & V6); [cbn; tauto|].
    pose proof (V6 (PSwe F_n)) as W6. destruct (place_eq_dec (PSwe F_n) (PSwe F_n)) as [_|X] in W6; [|congruence].
    rewrite E4 in Et. cbn [rbind] in Et. rewrite E5 in Et. cbn [rbind] in Et. rewrite E6 in Et. cbn [rbind] in Et. injection Et as <- <-.
    destruct (define_var fm (PSwe F_n) e _ "x" (Some x) s6 G6 W6) as (s7 & E7 & G7 & V7); [cbn; tauto|].
    pose proof (V7 (PSwe F_n)) as W7. destruct (place_eq_dec (PSwe F_n) (PSwe F_n)) as [_|X] in W7; [|congruence].
    destruct (define_var fm (PSwe F_n) e _ "y" (Some y) s7 G7 W7) as (s8 & E8 & G8 & V8); [cbn; tauto|].
    pose proof (V8 (PSwe F_n)) as W8. destruct (place_eq_dec (PSwe F_n) (PSwe F_n)) as [_|X] in W8; [|congruence].
    unfold EvaluateSpatialSolution. rewrite E7. cbn [rbind]. rewrite E8. cbn [rbind]. unfold mupEvalBulk. rewrite (deref_spec _ _ _ G8 W8). cbn [rbind].
    destruct (Nat.ltb_spec (length values) n); [lia|]. destruct n as [|n]; [lia|]. cbn [seq rmap].
    cbn [filter fst negb String.eqb Ascii.eqb Bool.eqb]. unfold consts. cbn [manufactured].
    set (p := Parser e _ _).
    destruct U as (t & Ep & It). destruct Ut as (t' & Ep' & Ht). assert (t' = t) by congruence. subst t'.
    assert (Kn : forall s0, In s0 (names t) -> lookup p 0 s0 <> None).
    { intros s9 Hs. specialize (It s9 Hs). destruct (in_dec string_dec s9 letters) as [Il|Nl].
      - unfold p. rewrite lookup_letter by exact Il. unfold constant. destruct (in_dec string_dec s9 letters); [discriminate|contradiction].
      - apply in_app_or in It. destruct It as [It|It]; [contradiction|]. unfold p. rewrite lookup_other by exact Nl. cbn [In] in It.
        destruct It as [<- | [<- | [<- | []]]]; cbn; discriminate. }
    assert (Lt : lookup p 0 "t" = Some UB).
    { unfold p. rewrite lookup_other by (apply no_letter; cbn; tauto). reflexivity. }
    unfold eval_at. change (p_expr p) with e. rewrite Ep. replace (forallb (is_known p) (names t)) with true.
    2: { symmetry. apply forallb_forall. intros s9 Hs. unfold is_known. destruct (lookup p 0 s9) eqn:El; [reflexivity|]. exfalso. exact (Kn s9 Hs El). }
    assert (C : compute (env_of p 0) t = UB).
    { assert (A : forall t0, (forall s0, In s0 (names t0) -> lookup p 0 s0 <> None) ->
        (exists r, compute (env_of p 0) t0 = Ret r) \/ compute (env_of p 0) t0 = UB) .
      { assert (Ly0 : forall s0, lookup p 0 s0 <> None -> (exists r, env_of p 0 s0 = Ret r) \/ env_of p 0 s0 = UB).
        { intros s9 Hl. unfold env_of. unfold lookup in *. destruct (assoc s9 (p_consts p)); [left; eauto|]. destruct (assoc s9 (p_vars p)) as [[a|]|]; [|right; reflexivity|congruence]. destruct (nth_error a 0); cbn; [left; eauto|right; reflexivity]. }
        induction t0 as [r|s9|f a IHa|f a IHa b IHb|f a IHa b IHb c IHc]; cbn [names compute]; intros Hk.
        - left; eauto.
        - apply Ly0. apply Hk. left; reflexivity.
        - destruct (IHa Hk) as [(r & ->) | ->]; cbn; eauto.
        - destruct IHa as [(r & ->) | ->]; [intros; apply Hk, in_or_app; auto| |cbn; eauto]. cbn [rbind]. destruct IHb as [(r' & ->) | ->]; [intros; apply Hk, in_or_app; auto| |]; cbn; eauto.
        - destruct IHa as [(r & ->) | ->]; [intros; apply Hk, in_or_app; auto| |cbn; eauto]. cbn [rbind]. destruct IHb as [(r' & ->) | ->]; [intros; apply Hk, in_or_app; right; apply in_or_app; auto| |cbn; eauto]. cbn [rbind].
          destruct IHc as [(r'' & ->) | ->]; [intros; apply Hk, in_or_app; right; apply in_or_app; auto| |]; cbn; eauto. }
      assert (B : forall t0, (forall s0, In s0 (names t0) -> lookup p 0 s0 <> None) -> In "t"%string (names t0) -> compute (env_of p 0) t0 = UB).
      { induction t0 as [r|s9|f a IHa|f a IHa b IHb|f a IHa b IHb c IHc]; cbn [names compute]; intros Hk Ht0.
        - destruct Ht0.
        - destruct Ht0 as [-> | []]. unfold env_of. rewrite Lt. reflexivity.
        - rewrite (IHa Hk Ht0). reflexivity.
        - apply in_app_or in Ht0. destruct Ht0 as [Ht0|Ht0].
          + rewrite IHa; [reflexivity|intros; apply Hk, in_or_app; auto|exact Ht0].
          + destruct (A a) as [(r & ->) | ->]; [intros; apply Hk, in_or_app; auto| |reflexivity]. cbn [rbind]. rewrite IHb; [reflexivity|intros; apply Hk, in_or_app; auto|exact Ht0].
        - apply in_app_or in Ht0. destruct Ht0 as [Ht0|Ht0].
          + rewrite IHa; [reflexivity|intros; apply Hk, in_or_app; auto|exact Ht0].
          + destruct (A a) as [(r & ->) | ->]; [intros; apply Hk, in_or_app; auto| |reflexivity]. cbn [rbind]. apply in_app_or in Ht0. destruct Ht0 as [Ht0|Ht0].
            * rewrite IHb; [reflexivity|intros; apply Hk, in_or_app; right; apply in_or_app; auto|exact Ht0].
            * destruct (A b) as [(r' & ->) | ->]; [intros; apply Hk, in_or_app; right; apply in_or_app; auto| |reflexivity]. cbn [rbind].
              rewrite IHc; [reflexivity|intros; apply Hk, in_or_app; right; apply in_or_app; auto|exact Ht0]. }
      apply B; assumption. }
    rewrite C. reflexivity.
Qed.
Print Assumptions C90_time_dependent_roughness_refuted.

(** ** Release *)
Definition releases (F : state -> result state) (ws : list place) : Prop :=
  forall s, good s -> (forall w, In w ws -> view s w <> Some None) ->
    exists s', F s = Ret s' /\ good s' /\ forall v, view s' v = if in_dec place_eq_dec v ws then option_map (fun _ => None) (view s v) else view s v.
Lemma releases_ret : releases Ret [].
Proof. intros s G _. exists s. split; [reflexivity|]. split; [exact G|]. intros v. destruct (in_dec place_eq_dec v []) as [[]|]; reflexivity. Qed.
Lemma releases_one w : releases (mupRelease w) [w].
Proof.
  intros s G N. destruct (view s w) as [[p|]|] eqn:Ew.
  - destruct (release_spec w s p G Ew) as (s' & E & G' & V). exists s'. split; [exact E|]. split; [exact G'|]. intros v. rewrite V.
    destruct (place_eq_dec v w) as [-> | Nv].
    + destruct (in_dec place_eq_dec w [w]) as [_|X]; [rewrite Ew; reflexivity|exfalso; apply X; left; reflexivity].
    + destruct (in_dec place_eq_dec v [w]) as [[X|[]]|_]; [congruence|reflexivity].
  - exfalso. apply (N w); [left; reflexivity|exact Ew].
  - exists s. split; [apply release_null; exact Ew|]. split; [exact G|]. intros v. destruct (in_dec place_eq_dec v [w]) as [[<- | []]|_]; [rewrite Ew; reflexivity|reflexivity].
Qed.
Lemma releases_seq F G a b : NoDup (a ++ b) -> releases F a -> releases G b -> releases (fun s => let! s := F s in G s) (a ++ b).
Proof.
  intros D HF HG s g fr. destruct (NoDup_app_inv _ _ D) as (Da & Db & Dab).
  destruct (HF s g) as (s1 & E1 & g1 & V1); [intros w Hw; apply fr; apply in_or_app; auto|].
  destruct (HG s1 g1) as (s2 & E2 & g2 & V2).
  { intros w Hw. rewrite V1. destruct (in_dec place_eq_dec w a) as [X|_]; [exfalso; exact (Dab w X Hw)|]. apply fr. apply in_or_app. auto. }
  exists s2. rewrite E1. cbn [rbind]. split; [exact E2|]. split; [exact g2|]. intros v. rewrite V2, V1.
  destruct (in_dec place_eq_dec v b) as [Ib|Nb], (in_dec place_eq_dec v a) as [Ia|Na], (in_dec place_eq_dec v (a ++ b)) as [I|N]; try reflexivity; exfalso.
  - exact (Dab v Ia Ib).
  - exact (Dab v Ia Ib).
  - apply N, in_or_app; auto.
  - apply N, in_or_app; auto.
  - apply in_app_or in I. tauto.
Qed.
Lemma releases_rfold {A} (f : state -> A -> result state) (ws : A -> list place) l :
  NoDup (flat_map ws l) -> (forall a, In a l -> releases (fun s => f s a) (ws a)) -> releases (rfold f l) (flat_map ws l).
Proof.
  induction l as [|a l IH]; intros D H; [exact releases_ret|]. cbn [flat_map] in *.
  intros s g fr. change (rfold f (a :: l) s) with ((fun s => let! s := f s a in rfold f l s) s). revert s g fr.
  apply (releases_seq (fun s => f s a) (rfold f l)); [exact D|apply H; left; reflexivity|].
  apply IH; [apply NoDup_app_inv in D; apply D|intros b Hb; apply H; right; exact Hb].
Qed.
Lemma releases_when (b : bool) F ws : releases F ws -> releases (when b F) (if b then ws else []).
Proof. destruct b; intros H; [exact H|exact releases_ret]. Qed.

Section Release.
  Variable fm : formulas.
  Variable max_classes : nat.
  Definition w_swe := flat_map (fun f => [PSwe f]) released_swe.
  Definition w_sed := flat_map (fun i => if given (fm_sediment fm i T_value) then [PSediment i T_value] else []) (seq 0 max_classes).
  Definition w_mat := flat_map (fun me => if given (snd me) then [PManning (fst me)] else []) (enum (fm_materials fm)).
  Definition w_flow := flat_map (fun cf : nat * flow_formulas => [PHeight (fst cf); PXMomentum (fst cf); PYMomentum (fst cf); PValue (fst cf)]) (enum (fm_flow fm)).
  Definition w_class := flat_map (fun cl : nat * list string => flat_map (fun i => [PClass (fst cl) i]) (seq 0 (fm_classes fm))) (enum (fm_sediment_conditions fm)).
  Definition w_conc := flat_map (fun ce : nat * string => [PConcentration (fst ce)]) (enum (fm_salinity_conditions fm)).
  Definition w_mms := (if given (fm_swe fm F_h) then w_swe else []) ++ (if given (fm_sediment fm 0 T_value) then w_sed else []) ++
    (if given (fm_salinity fm T_value) then [PSalinity T_value] else []) ++ (if given (fm_heat fm T_value) then [PHeat T_value] else []).
  Definition w_all := w_mms ++ w_mat ++ w_flow ++ w_class ++ w_conc.

  Lemma k_swe v : In v w_swe -> kind v = 0.
  Proof. intros H. apply in_flat_map in H. destruct H as (a & _ & H). cbn in H. intuition (subst; reflexivity). Qed.
  Lemma k_sed v : In v w_sed -> kind v = 1.
  Proof. intros H. apply in_flat_map in H. destruct H as (a & _ & H). destruct (given _); cbn in H; intuition (subst; reflexivity). Qed.
  Lemma k_mat v : In v w_mat -> kind v = 4.
  Proof. intros H. apply in_flat_map in H. destruct H as (a & _ & H). destruct (given _); cbn in H; intuition (subst; reflexivity). Qed.
  Lemma k_flow v : In v w_flow -> kind v = 5.
  Proof. intros H. apply in_flat_map in H. destruct H as (a & _ & H). cbn in H; intuition (subst; reflexivity). Qed.
  Lemma k_class v : In v w_class -> kind v = 6.
  Proof. intros H. apply in_flat_map in H. destruct H as (a & _ & H). apply in_flat_map in H. destruct H as (i & _ & H). cbn in H; intuition (subst; reflexivity). Qed.
  Lemma k_conc v : In v w_conc -> kind v = 7.
  Proof. intros H. apply in_flat_map in H. destruct H as (a & _ & H). cbn in H; intuition (subst; reflexivity). Qed.
  Lemma k_if (b : bool) (ws : list place) n v : (In v ws -> kind v = n) -> In v (if b then ws else []) -> kind v = n.
  Proof. destruct b; cbn; tauto. Qed.
  Lemma k_one w v : In v [w] -> kind v = kind w.
  Proof. intros [<- | []]. reflexivity. Qed.
  Lemma n_if (b : bool) (ws : list place) : NoDup ws -> NoDup (if b then ws else []).
  Proof. destruct b; [tauto|]. intros _. constructor. Qed.
  Lemma k_mms v : In v w_mms -> kind v <= 3.
  Proof.
    unfold w_mms. rewrite !in_app_iff. intros [H|[H|[H|H]]].
    - apply (k_if _ _ 0) in H; [lia|apply k_swe].
    - apply (k_if _ _ 1) in H; [lia|apply k_sed].
    - apply (k_if _ _ 2) in H; [lia|intros X; apply k_one in X; exact X].
    - apply (k_if _ _ 3) in H; [lia|intros X; apply k_one in X; exact X].
  Qed.
  Lemma n_swe : NoDup w_swe. Proof. cbn. repeat (constructor; [cbn; intuition discriminate|]). constructor. Qed.
  Lemma n_sed : NoDup w_sed.
  Proof.
    apply (NoDup_flat_map_key _ (fun i => i) index).
    - intros i x Hx. destruct (given _); cbn in Hx; intuition (subst; reflexivity).
    - rewrite map_id. apply seq_NoDup.
    - intros i. destruct (given _); repeat (constructor; [cbn; tauto|]); constructor.
  Qed.
  Lemma n_mat : NoDup w_mat.
  Proof.
    apply (NoDup_flat_map_key _ fst index).
    - intros i x Hx. destruct (given _); cbn in Hx; intuition (subst; reflexivity).
    - rewrite enum_fst. apply seq_NoDup.
    - intros i. destruct (given _); repeat (constructor; [cbn; tauto|]); constructor.
  Qed.
  Lemma n_flow : NoDup w_flow.
  Proof.
    apply (NoDup_flat_map_key _ fst index).
    - intros i x Hx. cbn in Hx; intuition (subst; reflexivity).
    - rewrite enum_fst. apply seq_NoDup.
    - intros i. repeat (constructor; [cbn; intuition discriminate|]); constructor.
  Qed.
  Lemma n_class_row (c : nat) : NoDup (flat_map (fun i => [PClass c i]) (seq 0 (fm_classes fm))).
  Proof.
    apply (NoDup_flat_map_key _ (fun i => i) index2).
    - intros i x Hx. cbn in Hx; intuition (subst; reflexivity).
    - rewrite map_id. apply seq_NoDup.
    - intros i. constructor; [cbn; tauto|constructor].
  Qed.
  Lemma n_class : NoDup w_class.
  Proof.
    apply (NoDup_flat_map_key _ fst index).
    - intros i x Hx. apply in_flat_map in Hx. destruct Hx as (j & _ & Hx). cbn in Hx; intuition (subst; reflexivity).
    - rewrite enum_fst. apply seq_NoDup.
    - intros i. apply n_class_row.
  Qed.
  Lemma n_conc : NoDup w_conc.
  Proof.
    apply (NoDup_flat_map_key _ fst index).
    - intros i x Hx. cbn in Hx; intuition (subst; reflexivity).
    - rewrite enum_fst. apply seq_NoDup.
    - intros i. constructor; [cbn; tauto|constructor].
  Qed.
  Lemma n_m3 : NoDup ((if given (fm_salinity fm T_value) then [PSalinity T_value] else []) ++ (if given (fm_heat fm T_value) then [PHeat T_value] else [])).
  Proof. destruct (given _), (given _); cbn; repeat (constructor; [cbn; intuition discriminate|]); constructor. Qed.
  Lemma k_m3 v : In v ((if given (fm_salinity fm T_value) then [PSalinity T_value] else []) ++ (if given (fm_heat fm T_value) then [PHeat T_value] else [])) -> 2 <= kind v.
  Proof. destruct (given _), (given _); cbn; intuition (subst; cbn; lia). Qed.
  Lemma n_m2 : NoDup ((if given (fm_sediment fm 0 T_value) then w_sed else []) ++ (if given (fm_salinity fm T_value) then [PSalinity T_value] else []) ++ (if given (fm_heat fm T_value) then [PHeat T_value] else [])).
  Proof. apply NoDup_app_intro; [apply n_if, n_sed|apply n_m3|]. intros v A B. apply (k_if _ _ 1) in A; [|apply k_sed]. apply k_m3 in B. lia. Qed.
  Lemma n_mms : NoDup w_mms.
  Proof.
    apply NoDup_app_intro; [apply n_if, n_swe|apply n_m2|]. intros v A B. apply (k_if _ _ 0) in A; [|apply k_swe]. apply in_app_or in B. destruct B as [B|B].
    - apply (k_if _ _ 1) in B; [|apply k_sed]. lia.
    - apply k_m3 in B. lia.
  Qed.
  Lemma n_6 : NoDup (w_class ++ w_conc).
  Proof. apply NoDup_app_intro; [apply n_class|apply n_conc|]. intros v A B. apply k_class in A. apply k_conc in B. lia. Qed.
  Lemma n_5 : NoDup (w_flow ++ w_class ++ w_conc).
  Proof. apply NoDup_app_intro; [apply n_flow|apply n_6|]. intros v A B. apply k_flow in A. apply in_app_or in B. destruct B as [B|B]; [apply k_class in B|apply k_conc in B]; lia. Qed.
  Lemma n_4 : NoDup (w_mat ++ w_flow ++ w_class ++ w_conc).
  Proof. apply NoDup_app_intro; [apply n_mat|apply n_5|]. intros v A B. apply k_mat in A. rewrite !in_app_iff in B. destruct B as [B|[B|B]]; [apply k_flow in B|apply k_class in B|apply k_conc in B]; lia. Qed.
  Lemma n_all : NoDup w_all.
  Proof. apply NoDup_app_intro; [apply n_mms|apply n_4|]. intros v A B. apply k_mms in A. rewrite !in_app_iff in B. destruct B as [B|[B|[B|B]]]; [apply k_mat in B|apply k_flow in B|apply k_class in B|apply k_conc in B]; lia. Qed.

  Lemma destroy_releases : releases (DestroyConfig max_classes fm) w_all.
  Proof.
    unfold DestroyConfig, w_all.
    assert (Rm : releases (DestroyManufacturedSolutions max_classes fm) w_mms).
    { unfold DestroyManufacturedSolutions, w_mms. apply releases_seq; [apply n_mms| |].
      - apply releases_when. apply releases_rfold; [apply n_swe|]. intros f _. apply releases_one.
      - apply releases_seq; [apply n_m2| |].
        + apply releases_when. apply releases_rfold; [apply n_sed|]. intros i _. apply releases_when. apply releases_one.
        + apply releases_seq; [apply n_m3| |]; apply releases_when; apply releases_one. }
    apply releases_seq; [apply n_all|exact Rm|]. apply releases_seq; [apply n_4| |].
    - apply releases_rfold; [apply n_mat|]. intros me _. apply releases_when. apply releases_one.
    - apply releases_seq; [apply n_5| |].
      + apply releases_rfold; [apply n_flow|]. intros [c ff] _. cbn [fst].
        assert (N4 : NoDup ([PHeight c] ++ [PXMomentum c] ++ [PYMomentum c] ++ [PValue c])) by (cbn; repeat (constructor; [cbn; intuition discriminate|]); constructor).
        assert (N3 : NoDup ([PXMomentum c] ++ [PYMomentum c] ++ [PValue c])) by (cbn; repeat (constructor; [cbn; intuition discriminate|]); constructor).
        assert (N2 : NoDup ([PYMomentum c] ++ [PValue c])) by (cbn; repeat (constructor; [cbn; intuition discriminate|]); constructor).
        apply (releases_seq (mupRelease (PHeight c)) _ [PHeight c] ([PXMomentum c] ++ [PYMomentum c] ++ [PValue c]) N4); [apply releases_one|].
        apply (releases_seq (mupRelease (PXMomentum c)) _ [PXMomentum c] ([PYMomentum c] ++ [PValue c]) N3); [apply releases_one|].
        apply (releases_seq (mupRelease (PYMomentum c)) _ [PYMomentum c] [PValue c] N2); apply releases_one.
      + apply releases_seq; [apply n_6| |].
        * apply releases_rfold; [apply n_class|]. intros [c l] _. apply releases_rfold; [apply n_class_row|]. intros i _. apply releases_one.
        * apply releases_rfold; [apply n_conc|]. intros ce _. apply releases_one.
  Qed.
End Release.

(* the parser of a place is still allocated *)
Definition allocated (s : state) (v : place) : Prop := exists k p, pointer s v = Some k /\ nth_error (parsers s) k = Some (Some p).
(* the places whose parser outlives the simulation *)
Definition kept (fm : formulas) (v : place) : Prop :=
  match v with
  | PSwe F_z | PSwe F_dzdx | PSwe F_dzdy => given (fm_swe fm F_h) = true
  | PSediment i T_value => i < fm_classes fm /\ (given (fm_sediment fm i T_value) = false \/ given (fm_sediment fm 0 T_value) = false)
  | PSediment i _ => i < fm_classes fm
  | PSalinity T_value => fm_has_salinity fm = true /\ given (fm_salinity fm T_value) = false
  | PSalinity _ => fm_has_salinity fm = true
  | PHeat T_value => fm_has_heat fm = true /\ given (fm_heat fm T_value) = false
  | PHeat _ => fm_has_heat fm = true
  | _ => False
  end.
Lemma in_w_all fm mx v e : fm_classes fm <= mx -> text_of fm v = Some e -> (~ In v (w_all fm mx) <-> kept fm v).
Proof.
  intros Hm T. unfold w_all, w_mms. rewrite !in_app_iff. split.
  - intros N. destruct v as [f|i k|k|k|m|c|c|c|c|c i|c|c]; cbn [text_of] in T; cbn [kept].
    + destruct (given (fm_swe fm F_h)) eqn:Eg; [|discriminate]. destruct f; try exact eq_refl; apply N; left; left; cbn; tauto.
    + destruct (Nat.ltb_spec i (fm_classes fm)); [|discriminate]. destruct k; try assumption. split; [assumption|].
      destruct (given (fm_sediment fm i T_value)) eqn:Ei; [|left; reflexivity]. right. destruct (given (fm_sediment fm 0 T_value)) eqn:E0; [|reflexivity]. exfalso. apply N. left. right. left.
      apply in_flat_map. exists i. split; [apply in_seq; lia|]. rewrite Ei. left; reflexivity.
    + destruct (fm_has_salinity fm) eqn:Es; [|discriminate]. destruct k; try reflexivity. split; [reflexivity|]. destruct (given (fm_salinity fm T_value)) eqn:E; [|reflexivity]. exfalso. apply N. left. right. right. left. left. reflexivity.
    + destruct (fm_has_heat fm) eqn:Es; [|discriminate]. destruct k; try reflexivity. split; [reflexivity|]. destruct (given (fm_heat fm T_value)) eqn:E; [|reflexivity]. exfalso. apply N. left. right. right. right. left. reflexivity.
    + destruct (nth_error (fm_materials fm) m) as [x|] eqn:E; [|discriminate]. cbn in T. destruct (given x) eqn:Eg; [|discriminate]. apply N. right. left. apply in_flat_map. exists (m, x). split; [apply enum_in; exact E|]. cbn [fst snd]. rewrite Eg. left; reflexivity.
    + destruct (nth_error (fm_flow fm) c) as [x|] eqn:E; [|discriminate]. apply N. do 2 right. left. apply in_flat_map. exists (c, x). split; [apply enum_in; exact E|]. cbn; tauto.
    + destruct (nth_error (fm_flow fm) c) as [x|] eqn:E; [|discriminate]. apply N. do 2 right. left. apply in_flat_map. exists (c, x). split; [apply enum_in; exact E|]. cbn; tauto.
    + destruct (nth_error (fm_flow fm) c) as [x|] eqn:E; [|discriminate]. apply N. do 2 right. left. apply in_flat_map. exists (c, x). split; [apply enum_in; exact E|]. cbn; tauto.
    + destruct (nth_error (fm_flow fm) c) as [x|] eqn:E; [|discriminate]. apply N. do 2 right. left. apply in_flat_map. exists (c, x). split; [apply enum_in; exact E|]. cbn; tauto.
    + destruct (nth_error (fm_sediment_conditions fm) c) as [x|] eqn:E; [|discriminate]. cbn [obind] in T. destruct (Nat.ltb_spec i (fm_classes fm)); [|discriminate]. apply N. do 3 right. left.
      apply in_flat_map. exists (c, x). split; [apply enum_in; exact E|]. apply in_flat_map. exists i. split; [apply in_seq; lia|left; reflexivity].
    + apply N. do 4 right. apply in_flat_map. exists (c, e). split; [apply enum_in; exact T|left; reflexivity].
    + discriminate.
  - intros K I. assert (Kd : kind v <= 3) by (destruct v as [f|i k|k|k|m|c|c|c|c|c i|c|c]; cbn [kept] in K; cbn; try lia; destruct K).
    destruct I as [[I|[I|[I|I]]]|[I|[I|[I|I]]]].
    + destruct (given (fm_swe fm F_h)); [|destruct I]. apply in_flat_map in I. destruct I as (f & If & [<- | []]). cbn [released_swe In] in If. repeat (destruct If as [<- | If]; [exact K|]). exact If.
    + destruct (given (fm_sediment fm 0 T_value)) eqn:E0; [|destruct I]. apply in_flat_map in I. destruct I as (i & _ & I). destruct (given (fm_sediment fm i T_value)) eqn:Ei; [|destruct I]. destruct I as [<- | []]. cbn [kept] in K. destruct K as (_ & [K|K]); congruence.
    + destruct (given (fm_salinity fm T_value)) eqn:E0; [|destruct I]. destruct I as [<- | []]. cbn [kept] in K. destruct K. congruence.
    + destruct (given (fm_heat fm T_value)) eqn:E0; [|destruct I]. destruct I as [<- | []]. cbn [kept] in K. destruct K. congruence.
    + apply k_mat in I. lia.
    + apply k_flow in I. lia.
    + apply k_class in I. lia.
    + apply k_conc in I. lia.
Qed.

(* At the end every parser is released at most once and none is used after its release, after any history; those of
   conditions and materials are all released.  Missing for the full statement: the parsers [kept] stay allocated. *)
Theorem C90_released_partial parse fm max_classes es : fm_classes fm <= max_classes -> Forall (sensible parse fm) es ->
  exists s0 s s', ParseMathExpressions fm initial = Ret s0 /\ rfold (perform parse) es s0 = Ret s /\ DestroyConfig max_classes fm s = Ret s' /\
  (forall v, allocated s' v <-> text_of fm v <> None /\ kept fm v) /\
  (forall k p, nth_error (parsers s') k = Some (Some p) -> exists v, pointer s' v = Some k).
Proof.
  intros Hm F. destruct (parse_ok fm) as (s0 & E0 & _). pose proof (parse_holds fm s0 E0) as H0.
  destruct (performs_hold parse fm es s0 H0 F) as (s & E & H). pose proof H as [G W].
  destruct (destroy_releases fm max_classes s G) as (s' & E' & G' & V').
  { intros w _ X. specialize (W w). destruct (text_of fm w); [destruct W as (vars & V & _)|]; congruence. }
  exists s0, s, s'. split; [exact E0|]. split; [exact E|]. split; [exact E'|]. split.
  - intros v. specialize (V' v). specialize (W v).
    assert (A : allocated s' v <-> exists p, view s' v = Some (Some p)).
    { unfold allocated. split; [intros (k & p & P & N); exists p; unfold view; rewrite P, N; reflexivity|]. intros (p & P). destruct (view_pointer s' v p G' P) as (k & Q1 & Q2). eauto. }
    rewrite A. destruct (text_of fm v) as [e|] eqn:T.
    + destruct W as (vars & V & _). pose proof (in_w_all fm max_classes v e Hm T) as I. rewrite V in V'. destruct (in_dec place_eq_dec v (w_all fm max_classes)) as [J|J].
      * cbn [option_map] in V'. split; [intros (p & P); congruence|]. intros (_ & K). apply I in K. contradiction.
      * split; [intros _; split; [discriminate|apply I; exact J]|intros _; eauto].
    + rewrite W in V'. split; [intros (p & P)|intros (X & _); congruence]. destruct (in_dec place_eq_dec v (w_all fm max_classes)); cbn in V'; congruence.
  - intros k p N. apply (g_onto s' G'). apply nth_error_Some. congruence.
Qed.
Print Assumptions C90_released_partial.

(* With sediment and no manufactured solution, four parsers for each class are made from empty texts and never
   released; with a manufactured solution those of the bed and of all derivatives of tracers are not released. *)
Theorem C90_formula_leak_refuted fm max_classes : fm_classes fm <= max_classes ->
  exists s s', ParseMathExpressions fm initial = Ret s /\ DestroyConfig max_classes fm s = Ret s' /\
  (given (fm_sediment fm 0 T_value) = false -> forall i k, i < fm_classes fm -> allocated s' (PSediment i k)) /\
  (given (fm_swe fm F_h) = true -> allocated s' (PSwe F_z) /\ allocated s' (PSwe F_dzdx) /\ allocated s' (PSwe F_dzdy)).
Proof.
  intros Hm. destruct (C90_released_partial (fun _ => None) fm max_classes [] Hm (Forall_nil _)) as (s0 & s & s' & E0 & E & E' & A & _).
  cbn [rfold] in E. injection E as <-. exists s0, s'. split; [exact E0|]. split; [exact E'|]. split.
  - intros Hg i k Hi. apply A. split; [cbn [text_of]; destruct (Nat.ltb_spec i (fm_classes fm)); [discriminate|lia]|]. destruct k; cbn; auto.
  - intros Hg. repeat split; apply A; (split; [cbn [text_of]; rewrite Hg; discriminate|cbn; exact Hg]).
Qed.
Print Assumptions C90_formula_leak_refuted.

(** ** The mesh of a convergence study *)
Section Snap.
  Variable parse : string -> option term.
  Variable fm : formulas.
  Variable e : string.
  Hypothesis Te : text_of fm (PSwe F_z) = Some e.
  Hypothesis Nt : ~ uses_time parse e.
  (* the elevation the user's text gives at a point; 0 where the text is not understood *)
  Definition bed (x y : R) : R := match meaning parse e (at_place fm x y) with Some r => r | None => 0%R end.
  Lemma snap_step dim s coords v x y : holds fm s -> nth_error coords (dim * v) = Some x -> nth_error coords (dim * v + 1) = Some y ->
    exists s', holds fm s' /\ snap_vertex parse dim (s, coords) v = let! c := of_option (upd coords (dim * v + 2) (bed x y)) in Ret (s', c).
  Proof.
    intros H Hx Hy. destruct (set_xy parse fm (PSwe F_z) e (Some [x]) (Some [y]) s H Te) as (s1 & s2 & rest & E1 & E2 & H2 & V2 & Ir & _).
    exists s2. split; [exact H2|]. unfold snap_vertex. cbv zeta. cbn [fst snd]. rewrite Hx, Hy. cbn [of_option rbind]. rewrite E1. cbn [rbind]. rewrite E2. cbn [rbind].
    unfold mupEval. rewrite (deref_spec _ _ _ (proj1 H2) V2). cbn [rbind]. unfold consts. cbn [manufactured]. unfold consts in V2. cbn [manufactured] in V2.
    assert (B : match eval_at parse (Parser e (constants_list fm) (("y", Some [y]) :: ("x", Some [x]) :: rest)%string) 0 with Error => Ret 0%R | r => r end = Ret (bed x y)).
    { destruct (understood_dec parse e ["x"; "y"]%string) as [U|U].
      - destruct (spatial_known parse fm (PSwe F_z) e 1 [x] [y] s2 rest Te (le_n _) (le_n _) H2 V2 U 0 (le_n _)) as (r & Er & Mr). rewrite Er. unfold bed. cbn [coord nth] in Mr. rewrite Mr. reflexivity.
      - rewrite spatial_unknown; [|exact Ir|intros X; contradiction|exact U]. unfold bed, meaning. destruct (parse e) as [t|] eqn:Et; [|reflexivity]. cbn [obind]. rewrite (at_place_none parse fm e t x y U Et). reflexivity. }
    rewrite B. reflexivity.
  Qed.
  Lemma snap_loop n : forall k s coords, holds fm s -> 3 * (k + n) <= length coords ->
    exists s' out, rfold (snap_vertex parse 3) (seq k n) (s, coords) = Ret (s', out) /\ holds fm s' /\ length out = length coords /\
      (forall v, k <= v < k + n -> nth_error out (3 * v + 2) = Some (bed (coord coords (3 * v)) (coord coords (3 * v + 1)))) /\
      (forall i, (forall v, k <= v < k + n -> i <> 3 * v + 2) -> nth_error out i = nth_error coords i).
  Proof.
    induction n as [|n IH]; intros k s coords H L.
    - exists s, coords. split; [reflexivity|]. split; [exact H|]. split; [reflexivity|]. split; [intros v Hv; lia|reflexivity].
    - destruct (snap_step 3 s coords k (coord coords (3 * k)) (coord coords (3 * k + 1)) H) as (s1 & H1 & E1); [apply nth_error_nth'; lia|apply nth_error_nth'; lia|].
      destruct (upd_some coords (3 * k + 2) (bed (coord coords (3 * k)) (coord coords (3 * k + 1)))) as (c1 & U1); [lia|].
      pose proof (upd_length _ _ _ _ U1) as L1.
      destruct (IH (S k) s1 c1 H1) as (s2 & out & E2 & H2 & L2 & Z2 & K2); [lia|].
      exists s2, out. cbn [seq rfold]. rewrite E1, U1. cbn [of_option rbind]. split; [exact E2|]. split; [exact H2|]. split; [congruence|]. split.
      + intros v Hv. destruct (Nat.eq_dec v k) as [-> | Nv].
        * rewrite K2 by (intros v Hv'; lia). rewrite (upd_get _ _ _ _ (3 * k + 2) U1). rewrite Nat.eqb_refl. reflexivity.
        * rewrite Z2 by lia. unfold coord.
          assert (A : forall i, i <> 3 * k + 2 -> nth i c1 0%R = nth i coords 0%R).
          { intros i Hi. pose proof (upd_get _ _ _ _ i U1) as G. destruct (Nat.eqb_spec i (3 * k + 2)); [contradiction|]. rewrite <- !nth_default_eq. unfold nth_default. rewrite G. reflexivity. }
          rewrite !A by lia. reflexivity.
      + intros i Hi. rewrite K2 by (intros v Hv; apply Hi; lia). pose proof (upd_get _ _ _ _ i U1) as G. destruct (Nat.eqb_spec i (3 * k + 2)) as [X|_]; [exfalso; exact (Hi k ltac:(lia) X)|]. exact G.
  Qed.
  Lemma snap_loop2 n : forall k s coords, holds fm s -> 2 * (k + S n) = length coords -> rfold (snap_vertex parse 2) (seq k (S n)) (s, coords) = UB.
  Proof.
    induction n as [|n IH]; intros k s coords H L;
      (destruct (snap_step 2 s coords k (coord coords (2 * k)) (coord coords (2 * k + 1)) H) as (s1 & H1 & E1); [apply nth_error_nth'; lia|apply nth_error_nth'; lia|]).
    - cbn [seq rfold]. rewrite E1. destruct (upd coords (2 * k + 2) _) as [c|] eqn:U; [apply upd_bound in U; lia|]. reflexivity.
    - destruct (upd_some coords (2 * k + 2) (bed (coord coords (2 * k)) (coord coords (2 * k + 1)))) as (c1 & U1); [lia|].
      change (seq k (S (S n))) with (k :: seq (S k) (S n)). cbn [rfold]. rewrite E1, U1. cbn [of_option rbind]. apply IH; [exact H1|]. rewrite (upd_length _ _ _ _ U1). lia.
  Qed.
End Snap.

(* After any history, the vertices of a mesh with three coordinates keep their place and take the elevation of the
   user's text there. *)
Theorem C91_snap parse fm es e nv coords : Forall (sensible parse fm) es ->
  given (fm_swe fm F_h) = true -> fm_swe fm F_z = e -> ~ uses_time parse e -> length coords = 3 * nv ->
  exists s0 s s' out, ParseMathExpressions fm initial = Ret s0 /\ rfold (perform parse) es s0 = Ret s /\
    SnapVerticesToBathymetry parse 3 nv coords s = Ret (s', out) /\ length out = length coords /\
    forall v, v < nv ->
      nth_error out (3 * v) = nth_error coords (3 * v) /\ nth_error out (3 * v + 1) = nth_error coords (3 * v + 1) /\
      exists x y, nth_error coords (3 * v) = Some x /\ nth_error coords (3 * v + 1) = Some y /\
        nth_error out (3 * v + 2) = Some (match meaning parse e (at_place fm x y) with Some r => r | None => 0%R end).
Proof.
  intros F Hg He Nt L. destruct (parse_ok fm) as (s0 & E0 & _). pose proof (parse_holds fm s0 E0) as H0.
  destruct (performs_hold parse fm es s0 H0 F) as (s & E & H).
  assert (T : text_of fm (PSwe F_z) = Some e) by (cbn [text_of]; rewrite Hg, He; reflexivity).
  destruct (snap_loop parse fm e T Nt nv 0 s coords H) as (s1 & out & E1 & H1 & L1 & Z & K); [lia|].
  destruct (define_holds fm (PSwe F_z) e "x" None s1 H1 T) as (s2 & E2 & H2); [cbn; tauto|].
  destruct (define_holds fm (PSwe F_z) e "y" None s2 H2 T) as (s3 & E3 & H3); [cbn; tauto|].
  exists s0, s, s3, out. split; [exact E0|]. split; [exact E|]. unfold SnapVerticesToBathymetry. rewrite E1. cbn [rbind fst snd]. rewrite E2. cbn [rbind]. rewrite E3. cbn [rbind].
  split; [reflexivity|]. split; [exact L1|]. intros v Hv. split; [apply K; intros; lia|]. split; [apply K; intros; lia|].
  exists (coord coords (3 * v)), (coord coords (3 * v + 1)). split; [apply nth_error_nth'; lia|]. split; [apply nth_error_nth'; lia|]. apply Z. lia.
Qed.
Print Assumptions C91_snap.

(* On a mesh whose vertices have two coordinates the elevations are written over the coordinates of the next vertex
   and, for the last one, past the end of the array. *)
Theorem C91_two_coordinates_refuted parse fm e nv coords :
  given (fm_swe fm F_h) = true -> fm_swe fm F_z = e -> ~ uses_time parse e -> 1 <= nv -> length coords = 2 * nv ->
  exists s, ParseMathExpressions fm initial = Ret s /\ SnapVerticesToBathymetry parse 2 nv coords s = UB.
Proof.
  intros Hg He Nt Hn L. destruct (parse_ok fm) as (s0 & E0 & _). pose proof (parse_holds fm s0 E0) as H0. exists s0. split; [exact E0|].
  assert (T : text_of fm (PSwe F_z) = Some e) by (cbn [text_of]; rewrite Hg, He; reflexivity).
  destruct nv as [|n]; [lia|]. unfold SnapVerticesToBathymetry. rewrite (snap_loop2 parse fm e T Nt n 0 s0 coords H0) by lia. reflexivity.
Qed.
Print Assumptions C91_two_coordinates_refuted.

(** ** Concrete cases *)
(* A small formula language: numbers, names and one sum, written with single characters. *)
Definition toy_parse (e : string) : option term :=
  match e with
  | "1"%string => Some (Num 1) | "2"%string => Some (Num 2) | "x"%string => Some (Name "x") | "t"%string => Some (Name "t") | "K"%string => Some (Name "K")
  | "K*x+y"%string => Some (Fun2 Rplus (Fun2 Rmult (Name "K") (Name "x")) (Name "y"))
  | "x+t"%string => Some (Fun2 Rplus (Name "x") (Name "t"))
  | _ => None
  end.
Definition toy : formulas :=
  Formulas (fun f => match f with F_h => "x+t" | F_z => "K*x+y" | F_n => "t" | _ => "1" end)%string
           (fun i k => ""%string) (fun _ => ""%string) (fun _ => ""%string)
           (fun s => if String.eqb s "K" then Some 2%R else None) 2 false false
           ["1"; ""]%string [FlowFormulas "2" "x" "1" ""]%string [["1"]]%string [].
Definition toy_history : list event :=
  [Temporal (PSwe F_h) 2 [1; 2]%R [3; 4]%R 5 [0; 0]%R; Spatial (PSwe F_z) 1 [1]%R [1]%R [0]%R; Temporal (PSwe F_n) 1 [1]%R [3]%R 5 [0]%R].
Lemma toy_time : ~ uses_time toy_parse "K*x+y"%string.
Proof. intros (t & E & I). injection E as <-. cbn in I. intuition discriminate. Qed.
Lemma toy_sensible : Forall (sensible toy_parse toy) toy_history.
Proof.
  unfold toy_history. constructor; [|constructor; [|constructor; [|constructor]]]; cbn [sensible].
  - split; [reflexivity|]. split; [discriminate|]. cbn. lia.
  - split; [reflexivity|]. split; [exists "K*x+y"%string; split; [reflexivity|exact toy_time]|]. cbn. lia.
  - split; [reflexivity|]. split; [discriminate|]. cbn. lia.
Qed.
(* a depth of 2 is understood; a momentum of x is not, and counts as 0; a missing second class counts as 0 *)
Example C90_example_conditions : exists s, ParseMathExpressions toy initial = Ret s /\
  mupEval toy_parse (PHeight 0) s = Ret 2%R /\ mupEval toy_parse (PXMomentum 0) s = Ret 0%R /\ mupEval toy_parse (PYMomentum 0) s = Ret 1%R /\
  mupEval toy_parse (PClass 0 0) s = Ret 1%R /\ mupEval toy_parse (PClass 0 1) s = Ret 0%R /\ mupEval toy_parse (PManning 0) s = Ret 1%R.
Proof.
  destruct (C90_conditions toy_parse toy) as (s & E & H). exists s. split; [exact E|].
  repeat split; [rewrite (H _ "2"%string)|rewrite (H _ "x"%string)|rewrite (H _ "1"%string)|rewrite (H _ "1"%string)|rewrite (H _ ""%string)|rewrite (H _ "1"%string)]; reflexivity.
Qed.
Example C90_example_depth : exists s0 s, ParseMathExpressions toy initial = Ret s0 /\ rfold (perform toy_parse) toy_history s0 = Ret s /\
  exists s' out, EvaluateTemporalSolution toy_parse (PSwe F_h) 2 [1; 2]%R [0; 0]%R 10 [0; 0]%R s = Ret (s', out) /\
    nth_error out 0 = Some (1 + 10)%R /\ nth_error out 1 = Some (2 + 10)%R.
Proof.
  destruct (C90_manufactured toy_parse toy toy_history toy_sensible) as (s0 & s & E0 & E & H & _). exists s0, s. split; [exact E0|]. split; [exact E|].
  destruct (H (PSwe F_h) "x+t"%string 2 [1; 2]%R [0; 0]%R 10%R [0; 0]%R eq_refl eq_refl) as (s' & out & Eo & Ev); [cbn; lia|cbn; lia|cbn; lia|].
  exists s', out. split; [exact Eo|]. destruct Ev as (_ & _ & Ev & _).
  assert (U : understood toy_parse "x+t" ["x"; "y"; "t"]%string).
  { eexists. split; [reflexivity|]. cbn [names app]. intros z [<- | [<- | []]]; apply in_or_app; cbn; tauto. }
  destruct (Ev U 0 ltac:(lia)) as (r & M & ->). destruct (Ev U 1 ltac:(lia)) as (r1 & M1 & ->). cbn in M, M1. split; congruence.
Qed.
Example C90_example_roughness : exists s0, ParseMathExpressions toy initial = Ret s0 /\
  (exists s1, EvaluateSpatialSolution toy_parse (PSwe F_n) 1 [1]%R [1]%R [0]%R s0 = Ret (s1, [0]%R)).
Proof.
  assert (Ut : uses_time toy_parse "t") by (exists (Name "t"); split; [reflexivity|left; reflexivity]).
  destruct (C90_time_dependent_roughness_refuted toy_parse toy "t" 1 [1]%R [1]%R [0]%R eq_refl eq_refl Ut (le_n _) (le_n _) (le_n _) (le_n _)) as (s0 & E & A & _).
  exists s0. split; [exact E|exact A].
Qed.
Example C90_example_released : exists s0 s s', ParseMathExpressions toy initial = Ret s0 /\ rfold (perform toy_parse) toy_history s0 = Ret s /\
  DestroyConfig 10 toy s = Ret s' /\ ~ allocated s' (PHeight 0) /\ ~ allocated s' (PSwe F_h) /\ allocated s' (PSwe F_z) /\ allocated s' (PSediment 1 T_dx).
Proof.
  destruct (C90_released_partial toy_parse toy 10 toy_history ltac:(cbn; lia) toy_sensible) as (s0 & s & s' & E0 & E & E' & A & _). exists s0, s, s'.
  split; [exact E0|]. split; [exact E|]. split; [exact E'|]. rewrite !A. clear. cbn [text_of kept]. change (given (fm_swe toy F_h)) with true. change (fm_classes toy) with 2. repeat split; try discriminate; try lia; intros (_ & X); exact X.
Qed.
Example C91_example : exists s0 s s' out, ParseMathExpressions toy initial = Ret s0 /\ rfold (perform toy_parse) toy_history s0 = Ret s /\
  SnapVerticesToBathymetry toy_parse 3 2 [1; 2; 0; 3; 4; 0]%R s = Ret (s', out) /\ nth_error out 5 = Some (2 * 3 + 4)%R /\ nth_error out 3 = Some 3%R.
Proof.
  destruct (C91_snap toy_parse toy toy_history "K*x+y" 2 [1; 2; 0; 3; 4; 0]%R toy_sensible eq_refl eq_refl toy_time eq_refl) as (s0 & s & s' & out & E0 & E & Eo & _ & H).
  exists s0, s, s', out. split; [exact E0|]. split; [exact E|]. split; [exact Eo|]. destruct (H 1 ltac:(lia)) as (H3 & _ & x & y & Hx & Hy & Hz). cbn in Hx, Hy. injection Hx as <-. injection Hy as <-.
  split; [exact Hz|exact H3].
Qed.
