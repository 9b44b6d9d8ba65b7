(** C64: what the manufactured-solution driver puts into the model reaches the right cells and edges. *)
From Coq Require Import String Sorted.
From Verif Require Import Base RoeModel RoeProofs SourceModel TracerModel MeshMapsModel MeshMapsProofs AMRProofs AMRProperties DataModel DataProofs DataProperties MMSModel MMSProofs MMSSourceProperties.
Local Open Scope nat_scope.
Local Notation length := List.length.

(** ** Specification *)
(* conserved quantity number k of the manufactured solution at time t and point p *)
Definition quantity (s : solutions) (classes : nat) (sal heat : bool) (k : nat) (t : R) (p : R * R) : option R :=
  let h := f_val (s_h s) (fst p) (snd p) t in
  let times f := Some (h * f_val f (fst p) (snd p) t)%R in
  let nsal := if sal then 1 else 0 in
  if Nat.eqb k 0 then Some h
  else if Nat.eqb k 1 then times (s_u s)
  else if Nat.eqb k 2 then times (s_v s)
  else if Nat.ltb k (3 + classes) then times (s_c s (k - 3))
  else if (sal && Nat.eqb k (3 + classes))%bool then times (s_S s)
  else if (heat && Nat.eqb k (3 + classes + nsal))%bool then times (s_T s)
  else None.
(* A process numbers its owned cells first: local cells 0..n-1 are owned, the others are not. *)
Definition owned_first (cells : list (bool * (R * R))) (n : nat) : Prop :=
  forall c b p, nth_error cells c = Some (b, p) -> (b = true <-> c < n).

Lemma quantity_component s classes sal heat k t p : quantity s classes sal heat k t p = option_map (fun f => f t p) (nth_error (components s classes sal heat) k).
Proof.
  unfold quantity, components. do 3 (destruct k as [|k]; [reflexivity|]). cbn [Nat.eqb app nth_error].
  change (Nat.ltb (S (S (S k))) (3 + classes)) with (Nat.ltb k classes). replace (S (S (S k)) - 3) with k by lia.
  destruct (Nat.ltb_spec k classes) as [H|H].
  - rewrite nth_error_app1 by (rewrite map_length, seq_length; exact H). rewrite nth_error_map.
    rewrite (nth_error_nth' (seq 0 classes) 0) by (rewrite seq_length; exact H). rewrite seq_nth by exact H. reflexivity.
  - rewrite nth_error_app2 by (rewrite map_length, seq_length; exact H). rewrite map_length, seq_length.
    remember (k - classes) as j eqn:Ej. assert (k = classes + j) by lia. subst k. clear.
    assert (T0 : Nat.eqb (classes + j) classes = Nat.eqb j 0) by (destruct (Nat.eqb_spec (classes + j) classes), (Nat.eqb_spec j 0); lia || reflexivity).
    assert (T1 : forall m, Nat.eqb (classes + j) (classes + m) = Nat.eqb j m) by (intros m; destruct (Nat.eqb_spec (classes + j) (classes + m)), (Nat.eqb_spec j m); lia || reflexivity).
    change (3 + classes) with (S (S (S classes))). change (S (S (S classes)) + (if sal then 1 else 0)) with (S (S (S (classes + (if sal then 1 else 0))))). cbv iota. rewrite T0, T1. destruct sal, heat, j as [|[|j]]; cbn; try reflexivity; destruct j; reflexivity.
Qed.
Lemma components_length s classes sal heat : length (components s classes sal heat) = 3 + classes + (if sal then 1 else 0) + (if heat then 1 else 0).
Proof. unfold components. rewrite !app_length, map_length, seq_length. destruct sal, heat; cbn; lia. Qed.

(** ** The solution vector (initial conditions and exact solution) *)
(** For a process that numbers its owned cells first and whose regions list their cells in ascending order:
    every entry of an owned cell in some region is the manufactured quantity at the cell's centroid, and
    cells of no region hold zero.  Missing: numberings in which ghost cells come between owned cells. *)
Theorem C64_solution_partial : forall s classes (sal heat : bool) n_owned centroids regions t,
  let ndof := 3 + classes + (if sal then 1 else 0) + (if heat then 1 else 0) in
  n_owned <= length centroids -> (forall ids, In ids regions -> StronglySorted lt ids /\ forall c, In c ids -> c < length centroids) ->
  exists x, RDyMMSComputeSolution s classes sal heat (ndof * n_owned) centroids regions t = Some x /\ length x = ndof * n_owned /\
    forall c k, c < n_owned -> k < ndof ->
      (forall p, nth_error centroids c = Some p -> (exists ids, In ids regions /\ In c ids) -> nth_error x (ndof * c + k) = quantity s classes sal heat k t p) /\
      ((forall ids, In ids regions -> ~ In c ids) -> nth_error x (ndof * c + k) = Some 0%R).
Proof.
  intros s classes sal heat n_owned centroids regions t. cbv zeta. intros Hn Hr. unfold RDyMMSComputeSolution.
  assert (Lc := components_length s classes sal heat). rewrite <- Lc. set (cs := components s classes sal heat) in *.
  set (comps := map (fun f : R -> R * R -> R => f t) cs).
  assert (Ln : length comps = length cs) by apply map_length. rewrite <- Ln.
  destruct (solution_spec comps n_owned centroids ltac:(rewrite Ln, Lc; lia) regions) as (x & E & L & W & K).
  { intros ids Hi. destruct (Hr ids Hi) as (St & Hc). split; [exact St|]. apply Forall_forall. exact Hc. }
  exists x. split; [exact E|]. split; [exact L|]. intros c k Hc Hk. split.
  - intros p Hp Hin. rewrite quantity_component. fold cs. destruct (nth_error cs k) as [f|] eqn:Ef; [|apply nth_error_None in Ef; lia]. cbn [option_map].
    apply (W c k (f t) p Hc); [|exact Hp|exact Hin]. unfold comps. rewrite nth_error_map, Ef. reflexivity.
  - apply K; assumption.
Qed.
Print Assumptions C64_solution_partial.

(** ** Sources *)
Lemma firstn_nth {A} (l : list A) n c : c < n -> nth_error (firstn n l) c = nth_error l c.
Proof. revert n c. induction l as [|a t IH]; intros [|n] [|c] H; cbn; try reflexivity; try lia. apply IH. lia. Qed.
(* the points of the owned cells, when those come first, are the first centroids *)
Lemma owned_points_first cells n : n <= length cells -> owned_first cells n -> owned_points cells = firstn n (map snd cells).
Proof.
  unfold owned_points. revert n. induction cells as [|(b, p) t IH]; intros n L H; cbn [filter map firstn fst].
  - destruct n; reflexivity.
  - cbn [length] in L. assert (H0 := H 0 b p eq_refl). destruct n as [|n].
    + assert (b = false) by (destruct b; [destruct H0 as (H0 & _); specialize (H0 eq_refl); lia|reflexivity]). subst b. cbn [firstn].
      assert (G : owned_first t 0). { intros c b' p' Hc. assert (X := H (S c) b' p' Hc). split; [intros Hb; apply X in Hb; lia|lia]. }
      rewrite (IH 0); [destruct t; reflexivity|lia|exact G].
    + assert (b = true) by (apply H0; lia). subst b. cbn [map firstn snd]. f_equal. apply IH; [lia|]. intros c b' p' Hc. assert (X := H (S c) b' p' Hc). rewrite X. lia.
Qed.
Lemma domain_position n j : j < n -> position (domain_ids n) (Z.of_nat j) = Some j.
Proof.
  intros H. apply position_some.
  - unfold domain_ids. apply FinFun.Injective_map_NoDup; [intros a b; lia|apply seq_NoDup].
  - unfold domain_ids. rewrite nth_error_map. rewrite (nth_error_nth' (seq 0 n) 0) by (rewrite seq_length; exact H). rewrite seq_nth by exact H. reflexivity.
Qed.

Lemma source_calls_spec s classes pts t : Forall (fun p => 0 < f_val (s_h s) (fst p) (snd p) t)%R pts ->
  exists q cs, omap (flow_source_at s t) pts = Some q /\
    source_calls s classes pts t = Some (RegionalSource 0 1 (Z.of_nat (length pts)) (map c0 q) :: RegionalSource 1 1 (Z.of_nat (length pts)) (map c1 q) :: RegionalSource 2 1 (Z.of_nat (length pts)) (map c2 q) :: cs) /\
    length cs = classes /\ (forall i c, nth_error cs i = Some c -> exists v, omap (sediment_source_at s t i) pts = Some v /\ c = RegionalSource (3 + Z.of_nat i) 1 (Z.of_nat (length pts)) v).
Proof.
  intros H. unfold source_calls. destruct (omap_total (flow_source_at s t) pts) as (q & Eq).
  { intros (x, y) Hp. rewrite Forall_forall in H. specialize (H _ Hp). cbn [fst snd] in H. unfold flow_source_at, flow_source. rewrite rpowneg_some by exact H. cbn [obind].
    rewrite rsqrt_some by apply squares_nonneg. eexists. reflexivity. }
  rewrite Eq. cbn [obind].
  destruct (omap_total (fun i => let* v := omap (sediment_source_at s t i) pts in Some (RegionalSource (3 + Z.of_nat i) 1 (Z.of_nat (length pts)) v)) (seq 0 classes)) as (cs & Ec).
  { intros i _. destruct (omap_total (sediment_source_at s t i) pts) as (v & ->); [|cbn [obind]; eauto].
    intros (x, y) Hp. rewrite Forall_forall in H. specialize (H _ Hp). cbn [fst snd] in H. unfold sediment_source_at, sediment_source. rewrite rpowneg_some by exact H. eexists. reflexivity. }
  rewrite Ec. cbn [obind]. exists q, cs. split; [reflexivity|]. split; [reflexivity|]. assert (Lc := omap_len _ _ _ Ec). rewrite seq_length in Lc. split; [exact Lc|].
  intros i c Hi. assert (Li : i < classes) by (rewrite <- Lc; apply nth_error_Some; congruence).
  assert (Si : nth_error (seq 0 classes) i = Some i) by (rewrite (nth_error_nth' (seq 0 classes) 0) by (rewrite seq_length; exact Li); rewrite seq_nth by exact Li; reflexivity).
  destruct (omap_nth_map _ _ _ Ec _ _ Si) as (c' & E & Hc'). destruct (omap (sediment_source_at s t i) pts) as [v|]; [|discriminate]. rewrite obind_Some in E. assert (X := eq_trans (eq_sym Hi) Hc'). assert (c = c') by (injection X; auto). subst c'. exists v. split; [reflexivity|]. injection E. auto.
Qed.

(* Which slots the calls of one region concern *)
Lemma sources_assigned st N (vals : list (list R)) : (exists g, find_region (r_regions st) 1 = Some g /\ rg_owned g = domain_ids (r_owned st)) ->
  (forall v, In v vals -> length v = r_owned st) ->
  forall off cell comp x, off <= comp -> cell < r_owned st ->
  last_assigned st (map (fun kv => RegionalSource (Z.of_nat (fst kv)) 1 N (snd kv)) (combine (seq off (length vals)) vals)) (Source cell comp) x =
    match nth_error vals (comp - off) with Some v => nth_error v cell | None => x end.
Proof.
  intros (g & Fg & Og). induction vals as [|v t IH]; intros L off cell comp x Hoff Hc.
  - cbn. destruct (comp - off); reflexivity.
  - cbn [length seq combine map last_assigned fst snd]. cbn [assigns]. destruct (Z.eqb_spec (Z.of_nat comp) (Z.of_nat off)) as [E|N'].
    + assert (comp = off) by lia. subst comp. rewrite Nat.sub_diag. cbn [nth_error]. rewrite Fg. cbn [obind]. rewrite Og, domain_position by exact Hc. cbn [obind].
      destruct (nth_defined v _ (L v (or_introl eq_refl)) cell Hc) as (r & ->).
      apply last_assigned_none. intros c Hcin. apply in_map_iff in Hcin. destruct Hcin as ((j, w) & <- & Hin). cbn [fst snd assigns]. apply in_combine_l in Hin. apply in_seq in Hin.
      destruct (Z.eqb_spec (Z.of_nat off) (Z.of_nat j)); [lia|reflexivity].
    + rewrite IH by (first [lia|intros; apply L; right; assumption]). replace (comp - off) with (S (comp - S off)) by lia. reflexivity.
Qed.

Theorem C64_sources : forall s cells t st g, set_up st -> given s ->
  (* one region, with id 1, listing all owned cells in order; the cells of the mesh, owned ones first *)
  In g (r_regions st) -> rg_id g = 1%Z -> rg_owned g = domain_ids (r_owned st) -> r_owned st <= length cells -> owned_first cells (r_owned st) ->
  (forall c p, nth_error cells c = Some (true, p) -> (0 < f_val (s_h s) (fst p) (snd p) t)%R) ->
  exists st', RDyMMSComputeSourceTerms s cells t st = Ok st' /\ set_up st' /\ params st' = params st /\
    (forall c x y, c < r_owned st -> nth_error cells c = Some (true, (x, y)) ->
      (exists a b d, value st' (Source c 0) = Some a /\ value st' (Source c 1) = Some b /\ value st' (Source c 2) = Some d /\
        shallow_water (f_val (s_h s)) (f_val (s_u s)) (f_val (s_v s)) (s_z s) (s_n s) a b d x y t) /\
      (forall i, i < r_classes st -> exists a, value st' (Source c (3 + i)) = Some a /\
        sediment_transport (f_val (s_h s)) (f_val (s_u s)) (f_val (s_v s)) (f_val (s_c s i)) (s_n s) a x y t)) /\
    (forall c k, 3 + r_classes st <= k -> value st' (Source c k) = value st (Source c k)) /\
    (forall c, value st' (Manning c) = value st (Manning c)) /\ (forall b e k, value st' (BoundaryValue b e k) = value st (BoundaryValue b e k)).
Proof.
  intros s cells t st g U G Hg Hid Ho Ln Of Pos. unfold RDyMMSComputeSourceTerms. assert (U0 := U). destruct U0 as (Nc & _ & _ & _ & ND & _).
  assert (Fg : find_region (r_regions st) 1 = Some g) by (apply find_region_unique; assumption).
  assert (Ep := owned_points_first cells (r_owned st) Ln Of).
  assert (Lp : length (owned_points cells) = r_owned st) by (rewrite Ep, firstn_length, map_length; lia).
  assert (Np : forall c p, c < r_owned st -> nth_error cells c = Some (true, p) -> nth_error (owned_points cells) c = Some p).
  { intros c p Hc Hp. rewrite Ep. rewrite firstn_nth by exact Hc. rewrite nth_error_map, Hp. reflexivity. }
  destruct (source_calls_spec s (r_classes st) (owned_points cells) t) as (q & cs & Eq & Ecs & Lcs & Hcs).
  { apply Forall_forall. intros p Hp. unfold owned_points in Hp. apply in_map_iff in Hp. destruct Hp as ((b, p') & <- & Hf). apply filter_In in Hf. destruct Hf as (Hin & Hb). cbn [fst snd] in *. subst b.
    apply In_nth_error in Hin. destruct Hin as (c & Hc). eapply Pos. exact Hc. }
  rewrite Ecs. rewrite Lp in *. assert (Lq := omap_len _ _ _ Eq). rewrite Lp in Lq.
  (* the calls, as a numbered list of values *)
  assert (V : exists vs, length vs = r_classes st /\ (forall i v, nth_error vs i = Some v -> omap (sediment_source_at s t i) (owned_points cells) = Some v) /\
    cs = map (fun kv => RegionalSource (Z.of_nat (fst kv)) 1 (Z.of_nat (r_owned st)) (snd kv)) (combine (seq 3 (length vs)) vs)).
  { clear Ecs. rewrite <- Lcs. clear Lcs. assert (Gen : forall cs off, (forall i c, nth_error cs i = Some c -> exists v, omap (sediment_source_at s t (off + i)) (owned_points cells) = Some v /\ c = RegionalSource (3 + Z.of_nat (off + i)) 1 (Z.of_nat (r_owned st)) v) ->
      exists vs, length vs = length cs /\ (forall i v, nth_error vs i = Some v -> omap (sediment_source_at s t (off + i)) (owned_points cells) = Some v) /\
      cs = map (fun kv => RegionalSource (Z.of_nat (fst kv)) 1 (Z.of_nat (r_owned st)) (snd kv)) (combine (seq (3 + off) (length vs)) vs)).
    { clear. induction cs as [|c t' IH]; intros off H.
      - exists []. split; [reflexivity|]. split; [intros i v Hi; destruct i; discriminate|reflexivity].
      - destruct (H 0 c eq_refl) as (v & Ev & ->). destruct (IH (S off)) as (vs & L & Hv & Et).
        { intros i c' Hi. replace (S off + i) with (off + S i) by lia. apply H. exact Hi. }
        exists (v :: vs). split; [cbn; rewrite L; reflexivity|]. split.
        + intros i w Hi. destruct i as [|i]; cbn in Hi; [injection Hi as <-; exact Ev|]. replace (off + S i) with (S off + i) by lia. apply Hv. exact Hi.
        + cbn [length seq combine map fst snd]. replace (Z.of_nat (3 + off)) with (3 + Z.of_nat (off + 0))%Z by lia. replace (S (3 + off)) with (3 + S off) by lia. rewrite <- Et. reflexivity. }
    destruct (Gen cs 0 Hcs) as (vs & L & Hv & E). exists vs. split; [exact L|]. split; [exact Hv|exact E]. }
  destruct V as (vs & Lvs & Hvs & Evs). clear Hcs.
  set (vals := map c0 q :: map c1 q :: map c2 q :: vs).
  assert (Eall : RegionalSource 0 1 (Z.of_nat (r_owned st)) (map c0 q) :: RegionalSource 1 1 (Z.of_nat (r_owned st)) (map c1 q) :: RegionalSource 2 1 (Z.of_nat (r_owned st)) (map c2 q) :: cs =
    map (fun kv => RegionalSource (Z.of_nat (fst kv)) 1 (Z.of_nat (r_owned st)) (snd kv)) (combine (seq 0 (length vals)) vals)) by (rewrite Evs; reflexivity).
  rewrite Eall. assert (Lv : forall v, In v vals -> length v = r_owned st).
  { intros v [<-|[<-|[<-|Hin]]]; try (rewrite map_length; exact Lq). apply In_nth_error in Hin. destruct Hin as (i & Hi). apply Hvs in Hi. apply omap_len in Hi. lia. }
  destruct (run_valid (map (fun kv => RegionalSource (Z.of_nat (fst kv)) 1 (Z.of_nat (r_owned st)) (snd kv)) (combine (seq 0 (length vals)) vals)) st U) as (st' & E & U' & P' & W).
  { intros c Hc. apply in_map_iff in Hc. destruct Hc as ((k, v) & <- & Hin). cbn [fst snd]. assert (Hk := in_combine_l _ _ _ _ Hin). assert (Hv := in_combine_r _ _ _ _ Hin). apply in_seq in Hk.
    assert (Lvals : length vals = 3 + r_classes st) by (unfold vals; cbn [length]; lia).
    split; [split; [|split; [|exact I]]|].
    - cbn [announced]. rewrite (Lv v Hv). reflexivity.
    - cbn [component_exists]. rewrite Nc. destruct (r_salinity st), (r_heat st); lia.
    - cbn [valid]. intros g' Hg' Hid'. rewrite (find_region_unique _ _ g' ND Hg' Hid') in Fg. injection Fg as ->. rewrite Ho. unfold domain_ids. rewrite map_length, seq_length. reflexivity. }
  exists st'. split; [exact E|]. split; [exact U'|]. split; [exact P'|].
  assert (A := sources_assigned st (Z.of_nat (r_owned st)) vals (ex_intro _ g (conj Fg Ho)) Lv 0).
  split; [|split; [|split]].
  - intros c x y Hc Hp. assert (Np' := Np c (x, y) Hc Hp). destruct (omap_nth_map _ _ _ Eq _ _ Np') as (src & Esrc & Hsrc).
    assert (Ph := Pos c (x, y) Hp). cbn [fst snd] in Ph. split.
    + destruct (C63_flow_sources s x y t G Ph) as (src' & E' & B). rewrite E' in Esrc. injection Esrc as ->.
      exists (c0 src), (c1 src), (c2 src). rewrite !W, !A by (first [lia|exact Hc]). cbn [vals Nat.sub nth_error]. rewrite !nth_error_map, Hsrc. repeat split; try reflexivity; apply B.
    + intros i Hi. destruct (C63_sediment_sources s x y t i G Ph) as (a & Ea & B). exists a. split; [|exact B].
      rewrite W, A by (first [lia|exact Hc]). cbn [vals Nat.sub nth_error Nat.add]. destruct (nth_error vs i) as [v|] eqn:Ev; [|apply nth_error_None in Ev; lia].
      apply Hvs in Ev. destruct (omap_nth_map _ _ _ Ev _ _ Np') as (a' & Ea' & Ha'). congruence.
  - intros c k Hk. rewrite W. apply last_assigned_none. intros c' Hc'. apply in_map_iff in Hc'. destruct Hc' as ((j, v) & <- & Hin). apply in_combine_l in Hin. apply in_seq in Hin. unfold vals in Hin. cbn [length] in Hin. cbn [fst snd assigns].
    destruct (Z.eqb_spec (Z.of_nat k) (Z.of_nat j)); [lia|reflexivity].
  - intros c. rewrite W. apply last_assigned_none. intros c' Hc'. apply in_map_iff in Hc'. destruct Hc' as ((j, v) & <- & _). reflexivity.
  - intros b e k. rewrite W. apply last_assigned_none. intros c' Hc'. apply in_map_iff in Hc'. destruct Hc' as ((j, v) & <- & _). reflexivity.
Qed.
Print Assumptions C64_sources.

(** ** Boundary values *)
Lemma flat_map_len {A B} (g : A -> list B) k xs : (forall x, length (g x) = k) -> length (flat_map g xs) = length xs * k.
Proof. intros H. induction xs as [|x t IH]; cbn; [reflexivity|]. rewrite app_length, H, IH. reflexivity. Qed.
Lemma flat_map_get {A B} (g : A -> list B) k (Hk : forall x, length (g x) = k) xs : forall n x i, nth_error xs n = Some x -> i < k -> nth_error (flat_map g xs) (k * n + i) = nth_error (g x) i.
Proof.
  induction xs as [|a t IH]; intros n x i Hn Hi; [destruct n; discriminate|]. cbn [flat_map]. destruct n as [|n]; cbn in Hn.
  - injection Hn as ->. rewrite Nat.mul_0_r. rewrite nth_error_app1 by (rewrite Hk; lia). reflexivity.
  - rewrite nth_error_app2 by (rewrite Hk; nia). rewrite Hk. replace (k * S n + i - k) with (k * n + i) by nia. apply IH; assumption.
Qed.

Lemma boundary_calls_assign s st pts t b e k p x : num_edges st b = length pts -> nth_error pts e = Some p -> k < 3 + r_classes st + (if r_salinity st then 1 else 0) + (if r_heat st then 1 else 0) ->
  last_assigned st (boundary_calls s st pts t b) (BoundaryValue b e k) x = quantity s (r_classes st) (r_salinity st) (r_heat st) k t p.
Proof.
  intros Ne Hp Hk. unfold boundary_calls. assert (He : e < length pts) by (apply nth_error_Some; congruence).
  rewrite !last_assigned_app. unfold quantity.
  assert (Eb : Z.eqb (Z.of_nat b) (Z.of_nat b) = true) by apply Z.eqb_refl. assert (Ee : Nat.ltb e (length pts) = true) by (apply Nat.ltb_lt; exact He).
  cbn [last_assigned assigns]. rewrite Ne, Eb, Ee. cbn [andb].
  set (sed := flat_map (fun p => map _ _) pts). set (flow := flat_map _ pts).
  assert (Hf : forall j, j < 3 -> nth_error flow (3 * e + j) = nth_error [f_val (s_h s) (fst p) (snd p) t; f_val (s_h s) (fst p) (snd p) t * f_val (s_u s) (fst p) (snd p) t; f_val (s_h s) (fst p) (snd p) t * f_val (s_v s) (fst p) (snd p) t]%R j).
  { intros j Hj. unfold flow. erewrite flat_map_get; [reflexivity|intros; reflexivity|exact Hp|exact Hj]. }
  assert (Hs : forall j, j < r_classes st -> nth_error sed (r_classes st * e + j) = Some (f_val (s_h s) (fst p) (snd p) t * f_val (s_c s j) (fst p) (snd p) t)%R).
  { intros j Hj. unfold sed. erewrite flat_map_get; [|intros; rewrite map_length; apply seq_length|exact Hp|exact Hj]. rewrite nth_error_map.
    rewrite (nth_error_nth' (seq 0 (r_classes st)) 0) by (rewrite seq_length; exact Hj). rewrite seq_nth by exact Hj. reflexivity. }
  clearbody flow sed.
  destruct (Nat.ltb_spec k 3) as [H3|H3].
  - (* flow *)
    rewrite Hf by exact H3.
    assert (N1 : Nat.leb 3 k = false) by (apply Nat.leb_gt; exact H3). assert (N2 : Nat.eqb k (3 + r_classes st) = false) by (apply Nat.eqb_neq; lia).
    assert (N3 : Nat.eqb k (3 + r_classes st + (if r_salinity st then 1 else 0)) = false) by (apply Nat.eqb_neq; lia).
    destruct (Nat.ltb 0 (r_classes st)), (r_salinity st) eqn:Es, (r_heat st); cbn [last_assigned assigns]; rewrite ?Es, ?Ne, ?Eb, ?Ee, ?N1, ?N2, ?N3; cbn [andb]; (destruct k as [|[|[|k]]]; [reflexivity|reflexivity|reflexivity|lia]).
  - assert (K0 : Nat.eqb k 0 = false) by (apply Nat.eqb_neq; lia). assert (K1 : Nat.eqb k 1 = false) by (apply Nat.eqb_neq; lia). assert (K2 : Nat.eqb k 2 = false) by (apply Nat.eqb_neq; lia). rewrite K0, K1, K2.
    assert (N1 : Nat.leb 3 k = true) by (apply Nat.leb_le; exact H3).
    destruct (Nat.ltb_spec k (3 + r_classes st)) as [Hc|Hc].
    + assert (N2 : Nat.eqb k (3 + r_classes st) = false) by (apply Nat.eqb_neq; lia).
      assert (N3 : Nat.eqb k (3 + r_classes st + (if r_salinity st then 1 else 0)) = false) by (apply Nat.eqb_neq; lia).
      assert (Z0 : Nat.ltb 0 (r_classes st) = true) by (apply Nat.ltb_lt; lia). rewrite Z0. assert (Hc' := Hc). apply Nat.ltb_lt in Hc'.
      destruct (r_salinity st) eqn:Es, (r_heat st); cbn [last_assigned assigns]; rewrite ?Es, ?Ne, ?Eb, ?Ee, ?N1, ?N2, ?N3, ?Hc'; cbn [andb]; rewrite Hs by lia; reflexivity.
    + assert (N0 : Nat.ltb k (3 + r_classes st) = false) by (apply Nat.ltb_ge; exact Hc).
      assert (Drop : last_assigned st (if Nat.ltb 0 (r_classes st) then [SedimentValues (Z.of_nat b) (Z.of_nat (length pts)) (Z.of_nat (r_classes st)) sed] else []) (BoundaryValue b e k) x = x).
      { destruct (Nat.ltb 0 (r_classes st)); cbn [last_assigned assigns]; [|reflexivity]. rewrite Ne, Eb, Ee, N1, N0. reflexivity. }
      rewrite Drop. destruct (r_salinity st) eqn:Es, (r_heat st); cbn [last_assigned assigns andb]; rewrite ?Es, ?Ne, ?Eb, ?Ee; cbn [andb].
      * destruct (Nat.eqb_spec k (3 + r_classes st)) as [E|N].
        -- assert (N3 : Nat.eqb k (3 + r_classes st + 1) = false) by (apply Nat.eqb_neq; lia). rewrite N3. rewrite nth_error_map, Hp. reflexivity.
        -- destruct (Nat.eqb_spec k (3 + r_classes st + 1)) as [E|N']; [|lia]. rewrite nth_error_map, Hp. reflexivity.
      * destruct (Nat.eqb_spec k (3 + r_classes st)) as [E|N]; [|lia]. rewrite nth_error_map, Hp. reflexivity.
      * rewrite Nat.add_0_r in *. destruct (Nat.eqb_spec k (3 + r_classes st)) as [E|N]; [|lia]. rewrite nth_error_map, Hp. reflexivity.
      * lia.
Qed.
Lemma boundary_calls_other s st pts t b sl : (forall e k, sl <> BoundaryValue b e k) -> forall c, In c (boundary_calls s st pts t b) -> assigns st c sl = None.
Proof.
  intros H c Hc. unfold boundary_calls in Hc. destruct sl as [cell comp|cell|b' e k].
  1,2: apply in_app_iff in Hc; destruct Hc as [[<-|[]]|Hc]; [reflexivity|]; apply in_app_iff in Hc; destruct Hc as [Hc|Hc]; [destruct (Nat.ltb 0 (r_classes st)); [destruct Hc as [<-|[]]; reflexivity|contradiction]|];
    apply in_app_iff in Hc; destruct Hc as [Hc|Hc]; [destruct (r_salinity st)|destruct (r_heat st)]; try contradiction; destruct Hc as [<-|[]]; reflexivity.
  assert (N : Z.eqb (Z.of_nat b') (Z.of_nat b) = false) by (apply Z.eqb_neq; intros E; apply (H e k); f_equal; lia).
  apply in_app_iff in Hc; destruct Hc as [[<-|[]]|Hc]; [cbn [assigns]; rewrite N; reflexivity|]; apply in_app_iff in Hc; destruct Hc as [Hc|Hc]; [destruct (Nat.ltb 0 (r_classes st)); [destruct Hc as [<-|[]]; cbn [assigns]; rewrite N; reflexivity|contradiction]|];
    apply in_app_iff in Hc; destruct Hc as [Hc|Hc]; [destruct (r_salinity st)|destruct (r_heat st)]; try contradiction; destruct Hc as [<-|[]]; cbn [assigns]; rewrite N; reflexivity.
Qed.

Theorem C64_boundary_values : forall s edges t st, set_up st ->
  (* the analytic condition on every boundary; the edges exist *)
  (forall c, In c (r_conds st) -> c = analytic_condition (r_salinity st) (r_heat st)) -> (forall bd id, In bd (r_boundaries st) -> In id (bd_edges bd) -> id < length edges) ->
  exists st', RDyMMSEnforceBoundaryConditions s edges t st = Ok st' /\ set_up st' /\ params st' = params st /\
    (forall b bd e id p k, nth_error (r_boundaries st) b = Some bd -> nth_error (bd_edges bd) e = Some id -> nth_error edges id = Some p -> k < r_ncomp st ->
      value st' (BoundaryValue b e k) = quantity s (r_classes st) (r_salinity st) (r_heat st) k t p) /\
    (forall c k, value st' (Source c k) = value st (Source c k)) /\ (forall c, value st' (Manning c) = value st (Manning c)).
Proof.
  intros s edges t st U Hcd He. unfold RDyMMSEnforceBoundaryConditions. assert (U0 := U). destruct U0 as (Nc & _ & _ & _ & _ & _ & _ & Lcd & _).
  set (F := fun bi : nat * boundary => let* pts := omap (nth_error edges) (bd_edges (snd bi)) in Some (boundary_calls s st pts t (fst bi))).
  assert (Gen : forall bs off, (forall i bd, nth_error bs i = Some bd -> nth_error (r_boundaries st) (off + i) = Some bd) ->
    exists css, omap F (combine (seq off (length bs)) bs) = Some css /\
      (forall c, In c (concat css) -> admissible st c /\ valid st c) /\
      (forall i bd e id p k x, nth_error bs i = Some bd -> nth_error (bd_edges bd) e = Some id -> nth_error edges id = Some p -> k < r_ncomp st ->
         last_assigned st (concat css) (BoundaryValue (off + i) e k) x = quantity s (r_classes st) (r_salinity st) (r_heat st) k t p) /\
      (forall sl, (forall b e k, sl = BoundaryValue b e k -> b < off) -> forall c, In c (concat css) -> assigns st c sl = None)).
  { induction bs as [|bd bs IH]; intros off Hbs.
    - exists []. split; [reflexivity|]. split; [contradiction|]. split; [intros i bd e id p k x H; destruct i; discriminate|contradiction].
    - destruct (IH (S off)) as (css & Ec & Va & La & Ot). { intros i b Hi. replace (S off + i) with (off + S i) by lia. apply Hbs. exact Hi. }
      assert (Hb := Hbs 0 bd eq_refl). rewrite Nat.add_0_r in Hb.
      destruct (omap_total (nth_error edges) (bd_edges bd)) as (pts & Ep).
      { intros id Hid. destruct (nth_error edges id) eqn:E; [eauto|]. apply nth_error_None in E. assert (X := He bd id (nth_error_In _ _ Hb) Hid). lia. }
      assert (Lp := omap_len _ _ _ Ep).
      exists (boundary_calls s st pts t off :: css). cbn [length seq combine omap]. unfold F at 1. cbn [fst snd]. rewrite Ep, obind_Some. fold F. rewrite Ec, obind_Some. split; [reflexivity|].
      assert (Ne : num_edges st off = length pts) by (unfold num_edges; rewrite Hb; lia).
      cbn [concat]. split; [|split].
      + intros c Hc. apply in_app_iff in Hc. destruct Hc as [Hc|Hc]; [|apply Va; exact Hc].
        assert (Hoff : off < length (r_boundaries st)) by (apply nth_error_Some; congruence).
        assert (Cd : zget (r_conds st) (Z.of_nat off) = Some (analytic_condition (r_salinity st) (r_heat st))).
        { rewrite zget_nat. destruct (nth_error (r_conds st) off) as [cd|] eqn:E; [|apply nth_error_None in E; lia]. f_equal. apply Hcd. eapply nth_error_In. exact E. }
        assert (Bd : zget (r_boundaries st) (Z.of_nat off) = Some bd) by (rewrite zget_nat; exact Hb).
        unfold boundary_calls in Hc. apply in_app_iff in Hc. destruct Hc as [[<-|[]]|Hc].
        { split; [split; [|split; exact I]|].
          - cbn [announced]. rewrite (flat_map_len _ 3) by (intros; reflexivity). lia.
          - cbn [valid]. split; [|reflexivity]. exists bd, (analytic_condition (r_salinity st) (r_heat st)). split; [exact Bd|]. split; [exact Cd|]. split; [f_equal; exact Lp|reflexivity]. }
        apply in_app_iff in Hc. destruct Hc as [Hc|Hc].
        { destruct (Nat.ltb_spec 0 (r_classes st)) as [H0|]; [|contradiction]. destruct Hc as [<-|[]]. split; [split; [|split; [exact I|]]|].
          - cbn [announced]. erewrite flat_map_len; [|intros; rewrite map_length; apply seq_length]. lia.
          - cbn [condition_present]. intros cd Ecd. rewrite Cd in Ecd. injection Ecd as <-. cbn. split; [discriminate|reflexivity].
          - cbn [valid]. split; [|reflexivity]. exists bd, (analytic_condition (r_salinity st) (r_heat st)). split; [exact Bd|]. split; [exact Cd|]. split; [f_equal; exact Lp|reflexivity]. }
        apply in_app_iff in Hc. destruct Hc as [Hc|Hc].
        { destruct (r_salinity st) eqn:Es; [|contradiction]. destruct Hc as [<-|[]]. split; [split; [|split; [exact I|]]|].
          - cbn [announced]. rewrite map_length. reflexivity.
          - cbn [condition_present]. intros cd Ecd. rewrite Cd in Ecd. injection Ecd as <-. cbn. split; [discriminate|reflexivity].
          - cbn [valid]. split; [|exact Es]. exists bd, (analytic_condition true (r_heat st)). split; [exact Bd|]. split; [exact Cd|]. split; [f_equal; exact Lp|reflexivity]. }
        { destruct (r_heat st) eqn:Es; [|contradiction]. destruct Hc as [<-|[]]. split; [split; [|split; [exact I|]]|].
          - cbn [announced]. rewrite map_length. reflexivity.
          - cbn [condition_present]. intros cd Ecd. rewrite Cd in Ecd. injection Ecd as <-. cbn. split; [discriminate|reflexivity].
          - cbn [valid]. split; [|exact Es]. exists bd, (analytic_condition (r_salinity st) true). split; [exact Bd|]. split; [exact Cd|]. split; [f_equal; exact Lp|reflexivity]. }
      + intros i bd' e id p k x Hi Hid Hp Hk. rewrite last_assigned_app. destruct i as [|i]; cbn in Hi.
        * injection Hi as <-. rewrite Nat.add_0_r. rewrite last_assigned_none.
          -- apply boundary_calls_assign; [exact Ne| |rewrite <- Nc; exact Hk]. destruct (omap_nth_map _ _ _ Ep _ _ Hid) as (p' & Ep' & Hp'). congruence.
          -- apply Ot. intros b e' k' [= -> _ _]. lia.
        * replace (off + S i) with (S off + i) by lia. eapply La; eauto.
      + intros sl Hsl c Hc. apply in_app_iff in Hc. destruct Hc as [Hc|Hc].
        * eapply boundary_calls_other; [|exact Hc]. intros e k E. specialize (Hsl _ _ _ E). lia.
        * apply Ot; [|exact Hc]. intros b e k E. specialize (Hsl _ _ _ E). lia. }
  destruct (Gen (r_boundaries st) 0 (fun i bd H => H)) as (css & Ec & Va & La & Ot). rewrite Ec.
  destruct (run_valid (concat css) st U Va) as (st' & E & U' & P' & W). exists st'. split; [exact E|]. split; [exact U'|]. split; [exact P'|]. split; [|split].
  - intros b bd e id p k Hb Hid Hp Hk. rewrite W. exact (La b bd e id p k _ Hb Hid Hp Hk).
  - intros c k. rewrite W. apply last_assigned_none. apply Ot. discriminate.
  - intros c. rewrite W. apply last_assigned_none. apply Ot. discriminate.
Qed.
Print Assumptions C64_boundary_values.

(** ** What is done before each step: everything at the middle of the step *)
Theorem C64_step_data : forall s cells edges t dt st g, set_up st -> given s ->
  In g (r_regions st) -> rg_id g = 1%Z -> rg_owned g = domain_ids (r_owned st) -> r_owned st <= length cells -> owned_first cells (r_owned st) ->
  (forall c p, nth_error cells c = Some (true, p) -> (0 < f_val (s_h s) (fst p) (snd p) (t + dt / 2))%R) ->
  (forall c, In c (r_conds st) -> c = analytic_condition (r_salinity st) (r_heat st)) -> (forall bd id, In bd (r_boundaries st) -> In id (bd_edges bd) -> id < length edges) ->
  exists st', MMSPreStep s cells edges t dt st = Ok st' /\ set_up st' /\ params st' = params st /\
    (forall c x y, c < r_owned st -> nth_error cells c = Some (true, (x, y)) ->
      (exists a b d, value st' (Source c 0) = Some a /\ value st' (Source c 1) = Some b /\ value st' (Source c 2) = Some d /\
        shallow_water (f_val (s_h s)) (f_val (s_u s)) (f_val (s_v s)) (s_z s) (s_n s) a b d x y (t + dt / 2)) /\
      (forall i, i < r_classes st -> exists a, value st' (Source c (3 + i)) = Some a /\
        sediment_transport (f_val (s_h s)) (f_val (s_u s)) (f_val (s_v s)) (f_val (s_c s i)) (s_n s) a x y (t + dt / 2))) /\
    (forall b bd e id p k, nth_error (r_boundaries st) b = Some bd -> nth_error (bd_edges bd) e = Some id -> nth_error edges id = Some p -> k < r_ncomp st ->
      value st' (BoundaryValue b e k) = quantity s (r_classes st) (r_salinity st) (r_heat st) k (t + dt / 2) p) /\
    (forall c, value st' (Manning c) = value st (Manning c)).
Proof.
  intros s cells edges t dt st g U G Hg Hid Ho Ln Of Pos Cd He. unfold MMSPreStep. replace (t + 1 / 2 * dt)%R with (t + dt / 2)%R by field.
  destruct (C64_boundary_values s edges (t + dt / 2)%R st U Cd He) as (s1 & E1 & U1 & P1 & B1 & _ & M1). rewrite E1.
  assert (P1' := P1). unfold params in P1'. injection P1' as Hce Hse Hcl Hsa Hhe Hnc How Hre Hbo Hco.
  destruct (C64_sources s cells (t + dt / 2)%R s1 g U1 G) as (s2 & E2 & U2 & P2 & S2 & _ & M2 & B2).
  { rewrite Hre. exact Hg. } { exact Hid. } { rewrite How. exact Ho. } { rewrite How. exact Ln. } { rewrite How. exact Of. } { exact Pos. }
  exists s2. split; [exact E2|]. split; [exact U2|]. split; [congruence|]. split; [|split].
  - intros c x y Hc Hp. rewrite <- How in Hc. destruct (S2 c x y Hc Hp) as (A & B). split; [exact A|]. intros i Hi. apply B. rewrite Hcl. exact Hi.
  - intros b bd e id p k Hb Hi Hp Hk. rewrite B2. eapply B1; eauto.
  - intros c. rewrite M2. apply M1.
Qed.
Print Assumptions C64_step_data.

(** ** Roughness *)
Theorem C64_roughness : forall s centroids st, set_up st ->
  (* owned cells first: the owned cells of a region are those of its local cells below the number of owned cells *)
  (forall g, In g (r_regions st) -> rg_owned g = map Z.of_nat (filter (fun c => Nat.ltb c (r_owned st)) (rg_cells g)) /\ forall c, In c (rg_cells g) -> c < r_owned st -> c < length centroids) ->
  exists st', RDyMMSUpdateMaterialProperties s (r_ncomp st * r_owned st) centroids st = Some st' /\ set_up st' /\ params st' = params st /\
    (forall g c p, In g (r_regions st) -> In c (rg_cells g) -> c < r_owned st -> nth_error centroids c = Some p -> value st' (Manning c) = Some (s_n s (fst p) (snd p))) /\
    (forall c, (forall g, In g (r_regions st) -> ~ In c (rg_cells g)) -> value st' (Manning c) = value st (Manning c)) /\
    (forall c k, value st' (Source c k) = value st (Source c k)) /\ (forall b e k, value st' (BoundaryValue b e k) = value st (BoundaryValue b e k)).
Proof.
  intros s centroids st U Hr. unfold RDyMMSUpdateMaterialProperties.
  assert (Gen : forall gs st0, (forall g, In g gs -> In g (r_regions st)) -> set_up st0 -> params st0 = params st ->
    exists st', ofold (region_roughness s (r_ncomp st * r_owned st) centroids) gs st0 = Some st' /\ set_up st' /\ params st' = params st /\
    (forall g c p, In g gs -> In c (rg_cells g) -> c < r_owned st -> nth_error centroids c = Some p -> value st' (Manning c) = Some (s_n s (fst p) (snd p))) /\
    (forall c, (forall g, In g gs -> ~ (In c (rg_cells g) /\ c < r_owned st)) -> value st' (Manning c) = value st0 (Manning c)) /\
    (forall c k, value st' (Source c k) = value st0 (Source c k)) /\ (forall b e k, value st' (BoundaryValue b e k) = value st0 (BoundaryValue b e k))).
  { induction gs as [|g gs IH]; intros st0 Hin U0 P0; cbn [ofold].
    - exists st0. split; [reflexivity|]. split; [exact U0|]. split; [exact P0|]. split; [contradiction|]. auto.
    - assert (Hg := Hin g (or_introl eq_refl)). destruct (Hr g Hg) as (Ho & Hc). assert (P0' := P0). unfold params in P0'. injection P0' as Hce Hse Hcl Hsa Hhe Hnc How Hre Hbo Hco.
      unfold region_roughness at 1. unfold bulk_points. rewrite Hnc.
      assert (Nz : 0 < r_ncomp st) by (destruct U as (-> & _); lia).
      assert (Fe : filter (fun c => Nat.ltb (r_ncomp st * c) (r_ncomp st * r_owned st)) (rg_cells g) = filter (fun c => Nat.ltb c (r_owned st)) (rg_cells g)).
      { apply filter_ext. intros c. destruct (Nat.ltb_spec (r_ncomp st * c) (r_ncomp st * r_owned st)), (Nat.ltb_spec c (r_owned st)); try reflexivity; nia. }
      rewrite Fe. set (own := filter (fun c => Nat.ltb c (r_owned st)) (rg_cells g)) in *.
      destruct (omap_total (nth_error centroids) own) as (pts & Ep).
      { intros c Hcin. apply filter_In in Hcin. destruct Hcin as (H1 & H2). apply Nat.ltb_lt in H2. destruct (nth_error centroids c) eqn:E; [eauto|]. apply nth_error_None in E. specialize (Hc c H1 H2). lia. }
      rewrite Ep, obind_Some. assert (Lp := omap_len _ _ _ Ep).
      rewrite (region_index_lt st0 g U0) by (rewrite Hre; exact Hg). assert (Lo : length pts = length (rg_owned g)) by (rewrite Ho, map_length; exact Lp). rewrite Lo.
      assert (U0' := U0). destruct U0' as (_ & _ & _ & _ & _ & Ur & _). destruct (Ur g) as (ND & Rg); [rewrite Hre; exact Hg|].
      destruct (edit_mat_ok st0 (rg_owned g) (fun i => let* p := nth_error pts i in Some (s_n s (fst p) (snd p))) U0 ND Rg) as (s1 & E1 & U1 & P1 & W1).
      { intros i Hi. destruct (nth_error pts i) eqn:E; [cbn [obind]; eauto|]. apply nth_error_None in E. lia. }
      rewrite E1, obind_Some. destruct (IH s1 (fun g' H' => Hin g' (or_intror H')) U1 (eq_trans P1 P0)) as (st' & E & U' & P' & A & B & C & D).
      assert (Pos : forall c p, In c (rg_cells g) -> c < r_owned st -> nth_error centroids c = Some p -> value s1 (Manning c) = Some (s_n s (fst p) (snd p))).
      { intros c p Hcin Hlt Hp. rewrite W1. assert (Ho' : In c own) by (apply filter_In; split; [exact Hcin|apply Nat.ltb_lt; exact Hlt]).
        apply In_nth_error in Ho'. destruct Ho' as (i & Hi). assert (Zi : nth_error (rg_owned g) i = Some (Z.of_nat c)) by (rewrite Ho, nth_error_map, Hi; reflexivity).
        apply (position_some _ _ _ ND) in Zi. rewrite Zi, obind_Some. destruct (omap_nth_map _ _ _ Ep _ _ Hi) as (p' & Ep' & Hp'). rewrite Hp', obind_Some. rewrite Hp in Ep'. injection Ep' as <-. reflexivity. }
      assert (Neg : forall c, ~ (In c (rg_cells g) /\ c < r_owned st) -> value s1 (Manning c) = value st0 (Manning c)).
      { intros c Hn. rewrite W1. destruct (position (rg_owned g) (Z.of_nat c)) as [i|] eqn:Ei; [|reflexivity]. exfalso. apply Hn. apply (position_some _ _ _ ND) in Ei. rewrite Ho in Ei. rewrite nth_error_map in Ei.
        destruct (nth_error own i) as [c'|] eqn:Ec; [|discriminate]. cbn in Ei. injection Ei as Ei. assert (c' = c) by lia. subst c'. apply nth_error_In in Ec. apply filter_In in Ec. destruct Ec as (H1 & H2). apply Nat.ltb_lt in H2. auto. }
      exists st'. split; [exact E|]. split; [exact U'|]. split; [exact P'|]. split; [|split; [|split]].
      + intros g' c p [<-|Hg'] Hcin Hlt Hp; [|eapply A; eauto].
        assert (Dec : (exists g', In g' gs /\ In c (rg_cells g')) \/ (forall g', In g' gs -> ~ In c (rg_cells g'))).
        { clear. induction gs as [|a t IH]; [right; intros g' []|]. destruct IH as [(g' & H1 & H2)|N]; [left; exists g'; split; [right; exact H1|exact H2]|].
          destruct (in_dec Nat.eq_dec c (rg_cells a)) as [Ha|Ha]; [left; exists a; split; [left; reflexivity|exact Ha]|]. right. intros g' [<-|H']; [exact Ha|apply N; exact H']. }
        destruct Dec as [(g' & H1 & H2)|N]; [eapply A; eauto|]. rewrite B; [eapply Pos; eauto|]. intros g' Hg' (X & _). exact (N g' Hg' X).
      + intros c Hn. rewrite B by (intros g' Hg'; apply Hn; right; exact Hg'). apply Neg. apply Hn. left. reflexivity.
      + intros c k. rewrite C. rewrite W1. reflexivity.
      + intros b e k. rewrite D. rewrite W1. reflexivity. }
  destruct (Gen (r_regions st) st (fun g H => H) U eq_refl) as (st' & E & U' & P' & A & B & C & D). exists st'. split; [exact E|]. split; [exact U'|]. split; [exact P'|]. split; [exact A|]. split; [|split; [exact C|exact D]].
  intros c Hn. apply B. intros g Hg (X & _). exact (Hn g Hg X).
Qed.
Print Assumptions C64_roughness.

(** ** Where it fails *)
Local Open Scope R_scope.
Definition constant (a : R) : field := Field (fun _ _ _ => a) (fun _ _ _ => 0) (fun _ _ _ => 0) (fun _ _ _ => 0).
(* 1 + t *)
Definition rising : field := Field (fun _ _ t => 1 + t) (fun _ _ _ => 0) (fun _ _ _ => 0) (fun _ _ _ => 1).
Lemma constant_derives a : derives (constant a).
Proof. intros x y t. unfold partial_x, partial_y, partial_t. cbn. repeat split; apply derivable_pt_lim_const. Qed.
Lemma rising_derives : derives rising.
Proof.
  intros x y t. unfold partial_x, partial_y, partial_t. cbn. split; [apply derivable_pt_lim_const|]. split; [apply derivable_pt_lim_const|].
  eapply (d_add (fun _ => 1) (fun s => s)); [apply derivable_pt_lim_const|apply derivable_pt_lim_id|ring].
Qed.
Definition still (h S : field) : solutions := Solutions h (constant 0) (constant 0) (fun _ _ => 0) (fun _ _ => 0) (fun _ _ => 0) (fun _ _ => 0) (fun _ => constant 0) S (constant 0).
Lemma still_given h S : derives h -> given (still h S).
Proof.
  intros H. split; [exact H|]. split; [apply constant_derives|]. split; [apply constant_derives|]. split; [|intros i; apply constant_derives].
  intros x y. cbn. split; apply derivable_pt_lim_const.
Qed.
(* two owned cells, at (0,0) and (1,0) *)
Definition two_cells : list (bool * (R * R)) := [(true, (0, 0)); (true, (1, 0))].
Lemma two_owned : owned_first two_cells 2.
Proof. intros [|[|c]] b p; cbn; try (intros [= <- <-]; split; [lia|reflexivity]). destruct c; discriminate. Qed.
Definition with_regions (st : rdy) (gs : list region) : rdy :=
  Rdy (r_ceed st) (r_second_order st) (r_classes st) (r_salinity st) (r_heat st) (r_ncomp st) (r_owned st) gs (r_boundaries st) (r_conds st) (r_src st) (r_mat st) (r_bvals st).

(* The sources are set on the region with id 1.  If the only region has another id, nothing is set and no
   error is reported; the water level 1 + t then is no solution. *)
Theorem C64_region_id_refuted : exists s cells t st g, set_up st /\ given s /\
  r_regions st = [g] /\ rg_owned g = domain_ids (r_owned st) /\ owned_first cells (r_owned st) /\ (r_owned st <= length cells)%nat /\
  (forall c p, nth_error cells c = Some (true, p) -> 0 < f_val (s_h s) (fst p) (snd p) t) /\
  exists st', RDyMMSComputeSourceTerms s cells t st = Ok st' /\
    exists c x y a b d, nth_error cells c = Some (true, (x, y)) /\ value st' (Source c 0) = Some a /\ value st' (Source c 1) = Some b /\ value st' (Source c 2) = Some d /\
      ~ shallow_water (f_val (s_h s)) (f_val (s_u s)) (f_val (s_v s)) (s_z s) (s_n s) a b d x y t.
Proof.
  set (g := Region 0 2%Z None [0; 1]%nat [0; 1]%Z). set (st := with_regions (demo false 0 false false all_dirichlet) [g]).
  exists (still rising (constant 0)), two_cells, 0, st, g.
  assert (D := demo_set_up false 0 false false all_dirichlet ltac:(discriminate)).
  split. { destruct D as (A & B & C & _ & _ & E & F). unfold st, set_up. cbn [with_regions r_ncomp r_classes r_salinity r_heat r_src r_owned r_mat r_regions r_boundaries r_conds r_bvals].
    split; [exact A|]. split; [exact B|]. split; [exact C|]. split; [reflexivity|]. split; [repeat constructor; auto|]. split; [|exact F]. intros g' [<-|[]]. exact (E _ (or_introl eq_refl)). }
  split; [apply still_given; apply rising_derives|]. split; [reflexivity|]. split; [reflexivity|]. split; [exact two_owned|]. split; [cbn; lia|].
  split. { intros c p _. cbn. lra. }
  exists st. split.
  { unfold RDyMMSComputeSourceTerms. destruct (source_calls_spec (still rising (constant 0)) (r_classes st) (owned_points two_cells) 0) as (q & cs & _ & E & L & _); [repeat constructor; cbn; lra|].
    rewrite E. destruct cs; [|discriminate]. reflexivity. }
  exists 0%nat, 0, 0, 0, 0, 0. split; [reflexivity|]. split; [reflexivity|]. split; [reflexivity|]. split; [reflexivity|].
  intros ((qt & fx & gy & Ht & Hx & Hy & E) & _). cbn in *.
  destruct (rising_derives 0 0 0) as (_ & _ & Dt). assert (E1 := uniqueness_limite _ _ _ _ Ht Dt). cbn in E1.
  assert (X0 : partial_x (fun x y t => (1 + t) * 0) 0 0 0 0) by (apply derivable_pt_lim_const). assert (Y0 : partial_y (fun x y t => (1 + t) * 0) 0 0 0 0) by (apply derivable_pt_lim_const).
  assert (E2 := uniqueness_limite _ _ _ _ Hx X0). assert (E3 := uniqueness_limite _ _ _ _ Hy Y0). subst. lra.
Qed.
Print Assumptions C64_region_id_refuted.

(* With several regions the driver stops with an error: it passes values for all owned cells to region 1. *)
Theorem C64_several_regions_refuted : exists s cells t st, set_up st /\ given s /\ owned_first cells (r_owned st) /\ r_owned st = length cells /\
  (forall c p, nth_error cells c = Some (true, p) -> 0 < f_val (s_h s) (fst p) (snd p) t) /\
  (forall c, (c < r_owned st)%nat -> exists g, In g (r_regions st) /\ In (Z.of_nat c) (rg_owned g)) /\
  exists st', RDyMMSComputeSourceTerms s cells t st = Err st'.
Proof.
  set (st := with_regions (demo false 0 false false all_dirichlet) [Region 0 1%Z None [0]%nat [0]%Z; Region 1 2%Z None [1]%nat [1]%Z]).
  exists (still rising (constant 0)), two_cells, 0, st.
  assert (D := demo_set_up false 0 false false all_dirichlet ltac:(discriminate)).
  split. { destruct D as (A & B & C & _ & _ & E & F). unfold st, set_up. cbn [with_regions r_ncomp r_classes r_salinity r_heat r_src r_owned r_mat r_regions r_boundaries r_conds r_bvals].
    split; [exact A|]. split; [exact B|]. split; [exact C|]. split; [reflexivity|]. split; [repeat constructor; cbn; intuition lia|]. split; [|exact F].
    intros g' [<-|[<-|[]]]; cbn; (split; [repeat constructor; auto|intros z [<-|[]]; lia]). }
  split; [apply still_given; apply rising_derives|]. split; [exact two_owned|]. split; [reflexivity|].
  split. { intros c p _. cbn. lra. }
  split. { intros [|[|c]] H; cbn in H; [eexists; split; [left; reflexivity|left; reflexivity]|eexists; split; [right; left; reflexivity|left; reflexivity]|lia]. }
  exists st. unfold RDyMMSComputeSourceTerms. destruct (source_calls_spec (still rising (constant 0)) (r_classes st) (owned_points two_cells) 0) as (q & cs & _ & E & L & _); [repeat constructor; cbn; lra|].
  rewrite E. destruct cs; [|discriminate]. reflexivity.
Qed.
Print Assumptions C64_several_regions_refuted.

(* Salinity: its source is never set, so the salinity given in the configuration is no solution. *)
Definition salinity_transport (h u v S : R -> R -> R -> R) (source x y t : R) : Prop :=
  balance (fun x y t => h x y t * S x y t) (fun x y t => h x y t * u x y t * S x y t) (fun x y t => h x y t * v x y t * S x y t) source x y t.
Theorem C63_salinity_refuted : exists s cells t st g, set_up st /\ given s /\ derives (s_S s) /\ r_salinity st = true /\
  r_regions st = [g] /\ rg_id g = 1%Z /\ rg_owned g = domain_ids (r_owned st) /\ owned_first cells (r_owned st) /\ (r_owned st <= length cells)%nat /\
  (forall c p, nth_error cells c = Some (true, p) -> 0 < f_val (s_h s) (fst p) (snd p) t) /\
  exists st', RDyMMSComputeSourceTerms s cells t st = Ok st' /\
    exists c x y a, nth_error cells c = Some (true, (x, y)) /\ value st' (Source c (3 + r_classes st)) = Some a /\
      ~ salinity_transport (f_val (s_h s)) (f_val (s_u s)) (f_val (s_v s)) (f_val (s_S s)) a x y t.
Proof.
  set (st := demo false 0 true false all_dirichlet). set (g := Region 0 1%Z None [0; 1]%nat [0; 1]%Z).
  exists (still (constant 1) rising), two_cells, 0, st, g.
  assert (D : set_up st) by (apply demo_set_up; discriminate). assert (G : given (still (constant 1) rising)) by (apply still_given; apply constant_derives).
  assert (Pos : forall c p, nth_error two_cells c = Some (true, p) -> 0 < f_val (s_h (still (constant 1) rising)) (fst p) (snd p) 0) by (intros c p _; cbn; lra).
  split; [exact D|]. split; [exact G|]. split; [apply rising_derives|]. split; [reflexivity|]. split; [reflexivity|]. split; [reflexivity|]. split; [reflexivity|]. split; [exact two_owned|]. split; [cbn; lia|]. split; [exact Pos|].
  destruct (C64_sources (still (constant 1) rising) two_cells 0 st g D G (or_introl eq_refl) eq_refl eq_refl ltac:(cbn; lia) two_owned Pos) as (st' & E & _ & _ & _ & K & _).
  exists st'. split; [exact E|]. exists 0%nat, 0, 0, 0. split; [reflexivity|]. split; [rewrite K by (cbn; lia); reflexivity|].
  intros (qt & fx & gy & Ht & Hx & Hy & E'). cbn in *.
  assert (T0 : partial_t (fun _ _ t => 1 * (1 + t)) 0 0 0 1). { destruct (rising_derives 0 0 0) as (_ & _ & Dt). eapply d_scal; [exact Dt|cbn; ring]. }
  assert (X0 : partial_x (fun x y t => 1 * 0 * (1 + t)) 0 0 0 0) by (apply derivable_pt_lim_const). assert (Y0 : partial_y (fun x y t => 1 * 0 * (1 + t)) 0 0 0 0) by (apply derivable_pt_lim_const).
  assert (E1 := uniqueness_limite _ _ _ _ Ht T0). assert (E2 := uniqueness_limite _ _ _ _ Hx X0). assert (E3 := uniqueness_limite _ _ _ _ Hy Y0). subst. lra.
Qed.
Print Assumptions C63_salinity_refuted.

(** ** Cases that meet the hypotheses *)
(* h = 2 + x^2 + t^2, u = x t, v = y, z = x y, roughness 0.03, one sediment class of concentration y *)
Definition example_solution : solutions :=
  Solutions (Field (fun x y t => 2 + (x ^ 2 + t ^ 2)) (fun x y t => 2 * x * 1) (fun _ _ _ => 0) (fun x y t => 2 * t * 1))
            (Field (fun x y t => x * t) (fun x y t => t) (fun _ _ _ => 0) (fun x y t => x))
            (Field (fun x y t => y) (fun _ _ _ => 0) (fun _ _ _ => 1) (fun _ _ _ => 0))
            (fun x y => x * y) (fun x y => y) (fun x y => x) (fun _ _ => 3/100)
            (fun _ => Field (fun x y t => y) (fun _ _ _ => 0) (fun _ _ _ => 1) (fun _ _ _ => 0)) (constant 0) (constant 0).
Example example_given : given example_solution.
Proof.
  assert (Dy : derives (Field (fun x y t => y) (fun _ _ _ => 0) (fun _ _ _ => 1) (fun _ _ _ => 0))).
  { intros x y t. unfold partial_x, partial_y, partial_t. cbn. split; [apply derivable_pt_lim_const|]. split; [apply derivable_pt_lim_id|apply derivable_pt_lim_const]. }
  split; [|split; [|split; [exact Dy|split; [|intros ?; exact Dy]]]].
  - intros x y t. unfold partial_x, partial_y, partial_t. cbn [f_val f_dx f_dy f_dt example_solution s_h]. split; [|split].
    + eapply (d_add (fun _ => 2) (fun s => s ^ 2 + t ^ 2)); [apply derivable_pt_lim_const| |rewrite Rplus_0_l; reflexivity].
      eapply (d_add (fun s => s ^ 2) (fun _ => t ^ 2)); [eapply (d_sq (fun s => s)); [apply derivable_pt_lim_id|reflexivity]|apply derivable_pt_lim_const|cbn; ring].
    + apply derivable_pt_lim_const.
    + eapply (d_add (fun _ => 2) (fun s => x ^ 2 + s ^ 2)); [apply derivable_pt_lim_const| |rewrite Rplus_0_l; reflexivity].
      eapply (d_add (fun _ => x ^ 2) (fun s => s ^ 2)); [apply derivable_pt_lim_const|eapply (d_sq (fun s => s)); [apply derivable_pt_lim_id|reflexivity]|cbn; ring].
  - intros x y t. unfold partial_x, partial_y, partial_t. cbn. split; [|split; [apply derivable_pt_lim_const|]].
    + eapply (d_mul (fun s => s) (fun _ => t)); [apply derivable_pt_lim_id|apply derivable_pt_lim_const|ring].
    + eapply (d_mul (fun _ => x) (fun s => s)); [apply derivable_pt_lim_const|apply derivable_pt_lim_id|ring].
  - intros x y. cbn. split.
    + eapply (d_mul (fun s => s) (fun _ => y)); [apply derivable_pt_lim_id|apply derivable_pt_lim_const|ring].
    + eapply (d_mul (fun _ => x) (fun s => s)); [apply derivable_pt_lim_const|apply derivable_pt_lim_id|ring].
Qed.
Example step_data_example : let st := with_regions (demo true 1 false false (analytic_condition false false)) [Region 0 1%Z None [0; 1]%nat [0; 1]%Z] in
  set_up st /\ rg_owned (Region 0 1%Z None [0; 1]%nat [0; 1]%Z) = domain_ids (r_owned st) /\
  (forall c p, nth_error two_cells c = Some (true, p) -> 0 < f_val (s_h example_solution) (fst p) (snd p) (3 + 1/10 / 2)) /\
  (forall c, In c (r_conds st) -> c = analytic_condition (r_salinity st) (r_heat st)) /\
  (forall bd id, In bd (r_boundaries st) -> In id (bd_edges bd) -> (id < length (repeat (0, 0) 6))%nat).
Proof.
  cbv zeta. split; [apply (demo_set_up true 1 false false (analytic_condition false false)); discriminate|]. split; [reflexivity|]. split; [|split].
  - intros c p _. cbn [f_val example_solution s_h]. assert (A := pow2_ge_0 (fst p)). assert (B := pow2_ge_0 (3 + 1/10/2)). lra.
  - intros c [<-|[]]. reflexivity.
  - intros bd id [<-|[]] [<-|[<-|[]]]; cbn; lia.
Qed.
(* two regions, a ghost cell (number 2) *)
Example solution_example : forall ids, In ids [[0; 2]; [1]]%nat -> StronglySorted lt ids /\ forall c, In c ids -> (c < length [(0, 0); (1, 0); (2, 0)])%nat.
Proof. intros ids [<-|[<-|[]]]; (split; [repeat constructor|cbn; intuition lia]). Qed.
Example roughness_example : let st := with_regions (demo true 1 false false all_dirichlet) [Region 0 7%Z None [0; 2]%nat [0]%Z; Region 1 9%Z None [1]%nat [1]%Z] in
  forall g, In g (r_regions st) -> rg_owned g = map Z.of_nat (filter (fun c => Nat.ltb c (r_owned st)) (rg_cells g)) /\ forall c, In c (rg_cells g) -> (c < r_owned st)%nat -> (c < length [(0, 0); (1, 0); (2, 0)])%nat.
Proof. cbv zeta. intros g [<-|[<-|[]]]; (split; [reflexivity|cbn; intuition lia]). Qed.
