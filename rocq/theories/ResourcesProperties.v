(** C88: from its creation to its destruction a simulation uses no object that is gone and releases none twice, however
    often its mesh is refined; and which objects it never releases. *)
From Verif Require Import Base SetupModel GridModel ResourcesModel ResourcesProofs ResourcesChecks.
Local Open Scope nat_scope.

(** ** Specification: what is never given back *)
Fixpoint refinements (evs : list event) : nat := match evs with [] => 0 | Refine _ :: t => S (refinements t) | _ :: t => refinements t end.
(* boundaries of all meshes together *)
Fixpoint boundaries_seen (b : nat) (evs : list event) : nat := match evs with [] => b | Refine b' :: t => b + boundaries_seen b' t | _ :: t => boundaries_seen b t end.
Definition advanced (evs : list event) : bool := existsb (fun e => match e with Advance _ => true | _ => false end) evs.
(* marks that no refinement used: another came first, or none followed *)
Fixpoint unused_marks (pending : bool) (evs : list event) : nat :=
  match evs with
  | [] => Nat.b2n pending
  | Mark :: t => Nat.b2n pending + unused_marks true t
  | Refine _ :: t => unused_marks false t
  | Advance _ :: t => unused_marks pending t
  end.
(* fresh: no output file was opened for the present mesh yet *)
Fixpoint left_open (fresh open : bool) (evs : list event) : bool :=
  match evs with
  | [] => open
  | Mark :: t => left_open fresh open t
  | Refine _ :: t => left_open true open t
  | Advance last :: t => left_open false (negb last && (fresh || open)) t
  end.
Definition never_released (c : cfg) (boundaries : nat) (evs : list event) : nat :=
  (if cf_ceed c then boundaries_seen boundaries evs else 0) +
  (if cf_ceed c then match cf_balancing c with BS2002 => S (refinements evs) | _ => 0 end else 0) +
  (if cf_sediment c then 4 * S (refinements evs) + 2 else 0) +
  unused_marks false evs +
  (if cf_viewer c && left_open true false evs then 2 else 0) +
  (if advanced evs && negb (cf_restart c)
   then (if cf_observations c then (if cf_root c then 1 else 3) else 0) +
        (if cf_fluxes c then (if cf_edges c then 0 else if cf_root c && cf_some_edges c then 3 else 2) else 0)
   else 0).

(** ** Proof *)
Lemma execs_app sz p q m : execs sz (p ++ q) m = let! m := execs sz p m in execs sz q m.
Proof.
  unfold execs. revert m. induction p as [|i p IH]; intros m; [reflexivity|]. cbn [app rfold]. destruct (exec sz m i); cbn [rbind]; [apply IH | reflexivity | reflexivity].
Qed.
(* a checked program followed by another *)
Lemma becomes_seq mv sz n p q A B t m : rep sz n A m -> becomes (aexecs mv p A) B t -> lost A = [] -> lost B = [] ->
  exists m', execs sz (p ++ q) m = execs sz q m' /\ rep sz (n + (fst t + fold_right (fun k n => sz k + n) 0 (snd t))) B m'.
Proof.
  intros R H LA LB. destruct (becomes_sound mv sz sz n p A B t m R H LA LB (fun f => eq_refl)) as (m' & E & R'). exists m'. split; [|exact R'].
  rewrite execs_app, E. reflexivity.
Qed.
Lemma empty_rep sz : rep sz 0 start empty_mem.
Proof.
  split; [split; [reflexivity | intros a x [] | intros x a []]|]. exists []. split; [|reflexivity]. split; try discriminate.
  - intros [x|f i]; discriminate.
  - intros [x|f i]; discriminate.
  - constructor.
  - intros o [].
  - intros o r h N. destruct o; discriminate.
Qed.
Definition at_phase (c : cfg) (regions : nat) (m : mem) (ph : phase) (v : bool) (n : nat) : Prop :=
  forall after, rep (sizes regions (ph_boundaries ph) after) n (inv c (ph_marked ph) (ph_refined ph) (cf_viewer c && v) (ph_started ph && negb (cf_restart c)) NumBoundaries) m.
Lemma at_any c regions m ph v n before after : rep (sizes regions before after) n (inv c (ph_marked ph) (ph_refined ph) (cf_viewer c && v) (ph_started ph && negb (cf_restart c)) NewBoundaries) m ->
  ph_boundaries ph = after -> at_phase c regions m ph v n.
Proof.
  intros R E k. rewrite <- (Nat.add_0_r n). subst after. apply (rep_recast _ _ _ _ _ _ R); try reflexivity; auto.
  intros f. destruct f; cbn; try reflexivity; destruct (cf_ceed c); reflexivity.
Qed.
Lemma at_rep c regions m ph v n k : rep (sizes regions (ph_boundaries ph) k) n (inv c (ph_marked ph) (ph_refined ph) (cf_viewer c && v) (ph_started ph && negb (cf_restart c)) NumBoundaries) m ->
  at_phase c regions m ph v n.
Proof.
  intros R k'. rewrite <- (Nat.add_0_r n). apply (rep_recast _ _ _ _ _ _ R); try reflexivity; auto.
  intros f. destruct f; cbn; try reflexivity; destruct (cf_ceed c); reflexivity.
Qed.
Definition lost_by (c : cfg) (ph : phase) (e : event) : nat :=
  match e with
  | Mark => Nat.b2n (ph_marked ph)
  | Refine _ => fst (lost_refining c (ph_refined ph)) + (if cf_ceed c then ph_boundaries ph else 0)
  | Advance _ => 0
  end.
Definition open_after (ph : phase) (v : bool) (e : event) : bool :=
  match e with Advance last => negb last && (negb (ph_started ph) || ph_pending ph || v) | _ => v end%bool.
Lemma event_step c regions m ph v n e : accepted c = true -> at_phase c regions m ph v n ->
  exists m', execs (event_sizes regions ph e) (event_prog c ph e) m = Ret m' /\ at_phase c regions m' (next_phase ph e) (open_after ph v e) (n + lost_by c ph e).
Proof.
  intros OK R. destruct e as [|b|last]; cbn [event_prog event_sizes].
  - destruct (becomes_sound mv_none _ (sizes regions (ph_boundaries ph) (ph_boundaries ph)) n _ _ _ _ m (R (ph_boundaries ph)) (check_mark c _ _ _ _) eq_refl eq_refl) as (m' & E & R'); [reflexivity|].
    exists m'. split; [exact E|]. apply (at_rep _ _ _ _ _ _ (ph_boundaries ph)). cbn. cbn in R'. rewrite Nat.add_0_r in R'. exact R'.
  - destruct (becomes_sound mv_refine _ (sizes regions (ph_boundaries ph) b) n _ _ _ _ m (R b) (check_refine c _ _ _ _ OK) eq_refl eq_refl) as (m' & E & R'); [reflexivity|].
    exists m'. split; [exact E|]. apply (at_any c regions m' (next_phase ph (Refine b)) v _ (ph_boundaries ph) b); [|reflexivity].
    cbn [next_phase ph_marked ph_refined ph_started open_after lost_by] in *. destruct (cf_ceed c) eqn:CE.
    + unfold lost_refining in R' |- *. rewrite CE in *. cbn [fst snd fold_right sizes] in R' |- *. rewrite Nat.add_0_r in R'. exact R'.
    + unfold lost_refining in R' |- *. rewrite CE in *. cbn [fst snd fold_right sizes] in R' |- *. exact R'.
  - unfold event_sizes. set (sz := sizes regions (ph_boundaries ph) (ph_boundaries ph)). specialize (R (ph_boundaries ph)). fold sz in R.
    cbn [lost_by next_phase open_after]. rewrite <- !app_assoc || idtac.
    set (rest := (if ph_pending ph then CreateOutputViewer c else []) ++ UseFields c ++ (if last then DestroyOutputViewer else [])).
    (* first part *)
    assert (P1 : exists m1, execs sz ((if ph_started ph then [] else CreateOutputViewer c ++ (if cf_restart c then [] else InitTimeSeries c)) ++ rest) m = execs sz rest m1 /\
                 rep sz n (inv c (ph_marked ph) (ph_refined ph) (cf_viewer c && (negb (ph_started ph) || v)) (negb (cf_restart c)) NumBoundaries) m1).
    { destruct (ph_started ph).
      - exists m. split; [reflexivity|]. exact R.
      - rewrite <- app_assoc. cbn [andb] in R.
        destruct (becomes_seq mv_none sz n (CreateOutputViewer c) ((if cf_restart c then [] else InitTimeSeries c) ++ rest) _ _ _ m R (check_viewer c _ _ v _) eq_refl eq_refl) as (m1 & E1 & R1).
        cbn [fst snd fold_right] in R1. rewrite !Nat.add_0_r in R1. rewrite E1. cbn [negb orb]. rewrite Bool.andb_true_r. destruct (cf_restart c).
        + exists m1. split; [reflexivity | exact R1].
        + destruct (becomes_seq mv_none sz n (InitTimeSeries c) rest _ _ _ m1 R1 (check_series c _ _ _) eq_refl eq_refl) as (m2 & E2 & R2).
          cbn [fst snd fold_right] in R2. rewrite !Nat.add_0_r in R2. exists m2. split; [exact E2 | exact R2]. }
    destruct P1 as (m1 & E1 & R1). rewrite E1. unfold rest. clear rest E1.
    assert (P2 : exists m2, execs sz ((if ph_pending ph then CreateOutputViewer c else []) ++ UseFields c ++ (if last then DestroyOutputViewer else [])) m1 =
                            execs sz (UseFields c ++ (if last then DestroyOutputViewer else [])) m2 /\
                 rep sz n (inv c (ph_marked ph) (ph_refined ph) (cf_viewer c && (negb (ph_started ph) || ph_pending ph || v)) (negb (cf_restart c)) NumBoundaries) m2).
    { destruct (ph_pending ph).
      - destruct (becomes_seq mv_none sz n (CreateOutputViewer c) (UseFields c ++ (if last then DestroyOutputViewer else [])) _ _ _ m1 R1 (check_viewer c _ _ _ _) eq_refl eq_refl) as (m2 & E2 & R2).
        cbn [fst snd fold_right] in R2. rewrite !Nat.add_0_r in R2. exists m2. split; [exact E2|]. rewrite Bool.orb_true_r. cbn [orb]. rewrite Bool.andb_true_r. exact R2.
      - exists m1. split; [reflexivity|]. rewrite Bool.orb_false_r. exact R1. }
    destruct P2 as (m2 & E2 & R2). rewrite E2.
    destruct (becomes_seq mv_none sz n (UseFields c) (if last then DestroyOutputViewer else []) _ _ _ m2 R2 (check_use c _ _ _ _) eq_refl eq_refl) as (m3 & E3 & R3).
    cbn [fst snd fold_right] in R3. rewrite !Nat.add_0_r in R3. rewrite E3. destruct last.
    + destruct (becomes_sound mv_none sz sz n DestroyOutputViewer _ _ _ m3 R3 (check_last c _ _ _ _) eq_refl eq_refl) as (m4 & E4 & R4); [reflexivity|].
      cbn [fst snd fold_right] in R4. rewrite !Nat.add_0_r in R4. exists m4. split; [exact E4|]. apply (at_rep _ _ _ _ _ _ (ph_boundaries ph)).
      cbn [negb andb ph_marked ph_refined ph_started ph_boundaries]. rewrite Bool.andb_false_r, Nat.add_0_r. exact R4.
    + exists m3. split; [reflexivity|]. apply (at_rep _ _ _ _ _ _ (ph_boundaries ph)). cbn [negb andb ph_marked ph_refined ph_started ph_boundaries]. rewrite Nat.add_0_r. exact R3.
Qed.
(* what is lost along a history, starting anywhere *)
Fixpoint lost_along (c : cfg) (ph : phase) (evs : list event) : nat := match evs with [] => 0 | e :: t => lost_by c ph e + lost_along c (next_phase ph e) t end.
Fixpoint phase_along (ph : phase) (evs : list event) : phase := match evs with [] => ph | e :: t => phase_along (next_phase ph e) t end.
Fixpoint open_along (ph : phase) (v : bool) (evs : list event) : bool := match evs with [] => v | e :: t => open_along (next_phase ph e) (open_after ph v e) t end.
Lemma history_runs c regions evs : accepted c = true -> forall m ph v n, at_phase c regions m ph v n ->
  exists m', history c regions (m, ph) evs = Ret (m', phase_along ph evs) /\ at_phase c regions m' (phase_along ph evs) (open_along ph v evs) (n + lost_along c ph evs).
Proof.
  intros OK. induction evs as [|e evs IH]; intros m ph v n R.
  - exists m. split; [reflexivity|]. cbn. rewrite Nat.add_0_r. exact R.
  - destruct (event_step c regions m ph v n e OK R) as (m1 & E & R1). destruct (IH m1 _ _ _ R1) as (m' & E' & R').
    exists m'. unfold history in *. cbn [rfold fst snd]. rewrite E. cbn [rbind]. split; [exact E'|]. cbn [phase_along open_along lost_along]. rewrite Nat.add_assoc. exact R'.
Qed.
Lemma destroy_runs c regions m ph v n : accepted c = true -> at_phase c regions m ph v n ->
  exists m', execs (sizes regions (ph_boundaries ph) 0) (RDyDestroy c (ph_refined ph)) m = Ret m' /\
    outstanding m' = n + ((if cf_ceed c then match cf_balancing c with BS2002 => 1 | _ => 0 end else 0) + (if cf_ceed c then ph_boundaries ph else 0) +
                          lost_ending c (ph_marked ph) (ph_refined ph) (cf_viewer c && v) (ph_started ph && negb (cf_restart c))).
Proof.
  intros OK R. specialize (R 0). set (sz := sizes regions (ph_boundaries ph) 0) in *. rewrite destroy_parts.
  destruct (becomes_seq mv_none sz n _ (DestroyTimeSeries ++ destroy_c (ph_refined ph) ++ (map Clear fields ++ [Destroy Rdy])) _ _ _ m R (check_a c _ _ _ _ OK) eq_refl eq_refl) as (m1 & E1 & R1).
  rewrite E1. clear E1. cbn [fst snd] in R1.
  destruct (becomes_seq mv_none sz _ _ (destroy_c (ph_refined ph) ++ (map Clear fields ++ [Destroy Rdy])) _ _ _ m1 R1 (check_b c _ _ _ _) eq_refl eq_refl) as (m2 & E2 & R2).
  rewrite E2. clear E2.
  destruct (becomes_seq mv_none sz _ _ (map Clear fields ++ [Destroy Rdy]) _ _ _ m2 R2 (check_c c _ _ _ _) eq_refl eq_refl) as (m3 & E3 & R3).
  rewrite E3. clear E3.
  destruct (becomes_sound mv_none sz sz _ _ _ _ _ m3 R3 (check_d c _ _ _ _) eq_refl eq_refl) as (m4 & E4 & R4); [reflexivity|].
  exists m4. split; [exact E4|]. destruct R4 as [_ (L & K & W)]. rewrite (core_end _ _ _ K).
  - rewrite W. cbn [fst snd fold_right weight lost nothing]. rewrite !Nat.add_0_r. destruct (cf_ceed c); cbn [fold_right]; change (sz NumBoundaries) with (ph_boundaries ph) in *; lia.
  - intros [x|f i]; reflexivity.
Qed.

Lemma advanced_along ph evs : ph_started (phase_along ph evs) = (ph_started ph || advanced evs)%bool.
Proof.
  revert ph. induction evs as [|e evs IH]; intros ph; cbn; [rewrite Bool.orb_false_r; reflexivity|]. rewrite IH. destruct e; cbn; try reflexivity. rewrite Bool.orb_true_r. reflexivity.
Qed.
Lemma open_along_spec ph v evs : open_along ph v evs = left_open (negb (ph_started ph) || ph_pending ph) v evs.
Proof.
  revert ph v. induction evs as [|e evs IH]; intros ph v; [reflexivity|]. cbn [open_along left_open]. rewrite IH. destruct e; cbn [open_after next_phase ph_started ph_pending left_open].
  - reflexivity.
  - rewrite Bool.orb_true_r. reflexivity.
  - reflexivity.
Qed.
Definition ending (c : cfg) (ph : phase) : nat :=
  (if cf_ceed c then match cf_balancing c with BS2002 => 1 | _ => 0 end else 0) + (if cf_ceed c then ph_boundaries ph else 0) +
  (if cf_sediment c then (if ph_refined ph then 5 else 6) else 0) + Nat.b2n (ph_marked ph).
Lemma lost_total c evs : forall ph, lost_along c ph evs + ending c (phase_along ph evs) =
  (if cf_ceed c then boundaries_seen (ph_boundaries ph) evs else 0) +
  (if cf_ceed c then match cf_balancing c with BS2002 => S (refinements evs) | _ => 0 end else 0) +
  (if cf_sediment c then 4 * S (refinements evs) + (if ph_refined ph then 1 else 2) else 0) + unused_marks (ph_marked ph) evs.
Proof.
  induction evs as [|e evs IH]; intros ph.
  - cbn [lost_along phase_along boundaries_seen refinements unused_marks]. unfold ending. destruct (cf_ceed c), (cf_balancing c), (cf_sediment c), (ph_refined ph); lia.
  - cbn [lost_along phase_along]. rewrite <- Nat.add_assoc, IH. destruct e; cbn [next_phase ph_boundaries ph_refined ph_marked boundaries_seen refinements unused_marks lost_by].
    + lia.
    + unfold lost_refining. cbn [fst]. destruct (cf_ceed c), (cf_balancing c), (cf_sediment c), (ph_refined ph); lia.
    + reflexivity.
Qed.

(* For every configuration the code accepts, every number of regions and boundaries, and every sequence of markings,
   refinements and advances: no object is used after it is gone, none is released twice, and exactly so many handles
   are never given back. *)
Theorem C88_resources c regions boundaries evs : accepted c = true ->
  exists m, simulation c regions boundaries evs = Ret m /\ outstanding m = never_released c boundaries evs.
Proof.
  intros OK.
  destruct (becomes_sound mv_setup (sizes regions 0 boundaries) (sizes regions 0 boundaries) 0 (RDyCreate ++ RDySetup c) start _ _ empty_mem (empty_rep _) (check_setup c OK) eq_refl eq_refl) as (m0 & E0 & R0); [reflexivity|].
  cbn [fst snd fold_right] in R0. rewrite Nat.add_0_r in R0. rewrite execs_app in E0.
  set (ph0 := Phase false false false false boundaries).
  assert (A0 : at_phase c regions m0 ph0 false 0).
  { apply (at_any _ _ _ _ _ _ 0 boundaries); [|reflexivity]. cbn [ph0 ph_marked ph_refined ph_started andb]. rewrite Bool.andb_false_r. exact R0. }
  destruct (history_runs c regions evs OK _ _ _ _ A0) as (m1 & E1 & A1).
  destruct (destroy_runs c regions m1 _ _ _ OK A1) as (m2 & E2 & O2).
  exists m2. split.
  - unfold simulation. destruct (execs (sizes regions 0 boundaries) RDyCreate empty_mem) as [m| |]; [|discriminate|discriminate]. cbn [rbind] in *. rewrite OK. cbn [check].
    rewrite E0. cbn [rbind]. fold ph0. rewrite E1. cbn [rbind fst snd]. exact E2.
  - rewrite O2. pose proof (lost_total c evs ph0) as T. cbn [ph0 ph_boundaries ph_refined ph_marked] in T. fold ph0 in T.
    unfold never_released, lost_ending. rewrite (open_along_spec ph0 false evs), (advanced_along ph0 evs). cbn [ph0 ph_started ph_pending negb orb]. fold ph0.
    unfold ending in T. rewrite !Nat.add_0_l. lia.
Qed.
Print Assumptions C88_resources.

(* Otherwise nothing is set up: the configuration is refused. *)
Theorem C88_refused c regions boundaries evs : accepted c = false -> simulation c regions boundaries evs = Error.
Proof. intros H. unfold simulation. cbn. rewrite H. reflexivity. Qed.
Print Assumptions C88_refused.

Lemma none_alive m : outstanding m = 0 -> forall o, alive m o = false.
Proof.
  intros H. assert (Z : forall o r h, nth_error (m_objs m) o = Some (r, h) -> r = 0).
  { unfold outstanding in H. induction (m_objs m) as [|[r h] l IH]; intros o r' h' N; [destruct o; discriminate|]. cbn [fold_right fst] in H.
    destruct o; [injection N as -> ->; lia | apply (IH ltac:(lia) o r' h' N)]. }
  assert (A : forall k o, alive_in k (m_objs m) o = false).
  { induction k as [|k IH]; intros o; cbn; destruct (nth_error (m_objs m) o) as [[r h]|] eqn:N; try reflexivity; rewrite (Z _ _ _ N).
    - reflexivity.
    - rewrite <- Bool.not_true_iff_false. intros X. apply existsb_exists in X. destruct X as (p & _ & X). destruct (nth_error (m_objs m) p) as [[r' h']|]; [|discriminate].
      rewrite IH in X. destruct (existsb (Nat.eqb o) h'); discriminate. }
  intros o. apply A.
Qed.
Lemma some_alive m : 0 < outstanding m -> exists o, alive m o = true.
Proof.
  intros H. assert (Z : exists o r h, nth_error (m_objs m) o = Some (S r, h)).
  { unfold outstanding in H. induction (m_objs m) as [|[r h] l IH]; [cbn in H; lia|]. destruct r as [|r]; [|exists 0, r, h; reflexivity].
    destruct (IH H) as (o & r' & h' & N). exists (S o), r', h'. exact N. }
  destruct Z as (o & r & h & N). exists o. exact (alive_handles _ _ _ _ N).
Qed.

(* Without CEED, sediment and observations, on processes with edges where boundary fluxes are recorded, when every mark
   was used by a refinement and the final time was reached: nothing is left, after any number of refinements. *)
Theorem C88_nothing_left_partial c regions boundaries evs :
  accepted c = true -> cf_ceed c = false -> cf_sediment c = false -> cf_observations c = false -> (cf_fluxes c = true -> cf_edges c = true) ->
  unused_marks false evs = 0 -> (cf_viewer c = true -> left_open true false evs = false) ->
  exists m, simulation c regions boundaries evs = Ret m /\ forall o, alive m o = false.
Proof.
  intros OK H1 H2 H3 H4 H5 H6. destruct (C88_resources c regions boundaries evs OK) as (m & E & O). exists m. split; [exact E|]. apply none_alive. rewrite O.
  unfold never_released. rewrite H1, H2, H3, H5. destruct (cf_viewer c); [rewrite H6 by reflexivity|]; destruct (cf_fluxes c); try rewrite H4 by reflexivity;
  cbn; destruct (advanced evs && negb (cf_restart c))%bool; reflexivity.
Qed.
Print Assumptions C88_nothing_left_partial.
Definition plain : cfg := Cfg false false NoBalancing false true true false true false true true true true.
Example C88_nothing_left_example :
  accepted plain = true /\ unused_marks false [Advance false; Mark; Refine 4; Advance false; Refine 5; Advance true] = 0 /\
  left_open true false [Advance false; Mark; Refine 4; Advance false; Refine 5; Advance true] = false /\
  match simulation plain 2 3 [Advance false; Mark; Refine 4; Advance false; Refine 5; Advance true] with
  | Ret m => (length (m_objs m), outstanding m) = (190, 0)
  | _ => False
  end.
Proof. vm_compute. repeat split; reflexivity. Qed.

(* "Everything is released when the simulation is destroyed" is false: *)
(* on CEED, every mesh leaves the accumulated fluxes of each of its boundaries behind, and with the well balancing of
   Bradford and Sanders also the operator that computes the water surface at the vertices; *)
Theorem C88_ceed_leak_refuted c regions boundaries evs : accepted c = true -> cf_ceed c = true -> 0 < boundaries ->
  exists m, simulation c regions boundaries evs = Ret m /\ boundaries_seen boundaries evs <= outstanding m /\ exists o, alive m o = true.
Proof.
  intros OK H1 H2. destruct (C88_resources c regions boundaries evs OK) as (m & E & O). exists m. split; [exact E|].
  assert (G : boundaries_seen boundaries evs <= outstanding m) by (rewrite O; unfold never_released; rewrite H1; lia). split; [exact G|].
  apply some_alive. assert (P : boundaries <= boundaries_seen boundaries evs).
  { clear. revert boundaries. induction evs as [|[|b|l] evs IH]; intros boundaries; cbn; [lia | apply IH | lia | apply IH]. }
  lia.
Qed.
Print Assumptions C88_ceed_leak_refuted.
(* with sediment, each refinement leaves four more vectors behind; *)
Theorem C88_sediment_leak_refuted c regions boundaries evs : accepted c = true -> cf_sediment c = true ->
  exists m, simulation c regions boundaries evs = Ret m /\ 4 * refinements evs + 6 <= outstanding m /\ exists o, alive m o = true.
Proof.
  intros OK H1. destruct (C88_resources c regions boundaries evs OK) as (m & E & O). exists m. split; [exact E|].
  assert (G : 4 * refinements evs + 6 <= outstanding m) by (rewrite O; unfold never_released; rewrite H1; lia). split; [exact G | apply some_alive; lia].
Qed.
Print Assumptions C88_sediment_leak_refuted.
(* and observation sites leave vectors behind on every process, more on all but the first. *)
Theorem C88_observations_leak_refuted c regions boundaries evs : accepted c = true -> cf_observations c = true -> cf_restart c = false -> advanced evs = true ->
  exists m, simulation c regions boundaries evs = Ret m /\ (if cf_root c then 1 else 3) <= outstanding m /\ exists o, alive m o = true.
Proof.
  intros OK H1 H2 H3. destruct (C88_resources c regions boundaries evs OK) as (m & E & O). exists m. split; [exact E|].
  assert (G : (if cf_root c then 1 else 3) <= outstanding m) by (rewrite O; unfold never_released; rewrite H1, H2, H3; cbn [negb andb]; lia). split; [exact G | apply some_alive; destruct (cf_root c); lia].
Qed.
Print Assumptions C88_observations_leak_refuted.
Definition full : cfg := Cfg true true BS2002 false true true true true false true false false true.
Definition muddy : cfg := Cfg true false BS2002 true true true true true true true true true true.
Example C88_leak_example :
  accepted full = true /\ accepted muddy = true /\
  (match simulation full 2 3 [Advance false; Mark; Refine 4; Advance false; Mark; Mark; Refine 5; Refine 6; Advance true] with Ret m => outstanding m = 18 + 4 + 1 + 3 + 2 | _ => False end) /\
  (match simulation muddy 2 3 [Advance false; Refine 4; Advance false] with Ret m => outstanding m = 7 + 2 + 10 + 2 | _ => False end) /\
  advanced [Advance false; Mark] = true.
Proof. vm_compute. repeat split; reflexivity. Qed.
