(** C39 and C59: the rows of the time series files. *)
From Verif Require Import Base RoeModel SetupModel DiagModel TimeSeriesModel TimeSeriesSpec TimeSeriesProofs.
From Coq Require Import ZArith Lia Lra.
Local Open Scope nat_scope.

(** ** C39: rows of the boundary fluxes *)
(* the steps of the calls of the monitor *)
Definition monitored (evs : list event) : list nat := flat_map (fun e => match e with Monitor s _ _ => [s] | Eval _ _ => [] end) evs.
Fixpoint nondecreasing (l : list nat) : Prop := match l with [] => True | a :: t => (forall b, In b t -> a <= b) /\ nondecreasing t end.
Definition step_of (o : list event * list event * nat * R) : nat := let '(_, _, s, _) := o in s.
Definition since_of (o : list event * list event * nat * R) : list event := let '(_, x, _, _) := o in x.
Definition hist_of (o : list event * list event * nat * R) : list event := let '(x, _, _, _) := o in x.

Lemma outputs_due interval (Hi : interval <> 0) evs : forall last hist since s, nondecreasing (monitored evs) ->
  (In s (map step_of (outputs interval last hist since evs)) <-> In s (monitored evs) /\ s mod interval = 0 /\ (last < Z.of_nat s)%Z).
Proof.
  induction evs as [|[h f|s0 tm dt] t IH]; intros last hist since s Hm; cbn [outputs monitored flat_map app In map].
  - tauto.
  - apply IH. exact Hm.
  - cbn in Hm. destruct Hm as [Hle Hm]. fold (monitored t) in *.
    destruct (Nat.eqb (s0 mod interval) 0 && (last <? Z.of_nat s0)%Z)%bool eqn:E.
    + apply andb_true_iff in E. destruct E as [E1 E2]. apply Nat.eqb_eq in E1. apply Z.ltb_lt in E2.
      cbn [map In]. rewrite IH by exact Hm. cbn [step_of]. split.
      * intros [<-|(H1 & H2 & H3)]; [auto|]. repeat split; auto. lia.
      * intros ([<-|H1] & H2 & H3); [auto|]. specialize (Hle s H1). destruct (Nat.eq_dec s s0) as [->|Hn]; [auto|right]. repeat split; auto. lia.
    + rewrite IH by exact Hm. split; [tauto|]. intros ([<-|H1] & H2 & H3); [|tauto]. exfalso.
      apply andb_false_iff in E. destruct E as [E|E]; [apply Nat.eqb_neq in E; contradiction|apply Z.ltb_ge in E; lia].
Qed.
Lemma outputs_NoDup interval evs : forall last hist since, NoDup (map step_of (outputs interval last hist since evs)).
Proof.
  induction evs as [|[h f|s0 tm dt] t IH]; intros last hist since; cbn [outputs]; [constructor|apply IH|].
  destruct (Nat.eqb (s0 mod interval) 0 && (last <? Z.of_nat s0)%Z)%bool; [|apply IH]. cbn [map]. constructor; [|apply IH].
  rewrite in_map_iff. intros (o & E & H). pose proof (outputs_steps _ _ _ _ _ _ H) as K. destruct o as [[[a b] s'] c]. cbn in E. lia.
Qed.
(* every event before an output is counted in exactly one output up to it *)
Lemma outputs_partition interval evs : forall last hist since pre o post, outputs interval last hist since evs = pre ++ o :: post ->
  hist_of o = hist ++ flat_map since_of pre /\ exists rest, since ++ evs = flat_map since_of (pre ++ [o]) ++ rest.
Proof.
  induction evs as [|[h f|s0 tm dt] t IH]; intros last hist since pre o post H; cbn [outputs] in H.
  - now destruct pre.
  - destruct (IH _ _ _ _ _ _ H) as (H1 & rest & H2). split; [exact H1|]. exists rest. now rewrite <- app_assoc in H2.
  - destruct (Nat.eqb (s0 mod interval) 0 && (last <? Z.of_nat s0)%Z)%bool.
    + destruct pre as [|p pre].
      * cbn [app] in *. injection H as <- _. cbn [hist_of flat_map since_of]. split; [now rewrite app_nil_r|]. exists t. rewrite app_nil_r, <- app_assoc. reflexivity.
      * cbn [app] in H. injection H as <- H. destruct (IH _ _ _ _ _ _ H) as (H1 & rest & H2). split.
        -- rewrite H1. cbn [flat_map since_of]. now rewrite <- app_assoc.
        -- exists rest. cbn [app flat_map since_of]. cbn [app] in H2. rewrite <- app_assoc, <- H2, <- app_assoc. reflexivity.
    + destruct (IH _ _ _ _ _ _ H) as (H1 & rest & H2). split; [exact H1|]. exists rest. now rewrite <- app_assoc in H2.
Qed.

(* The file of a run that starts at step 0 consists of the rows of its outputs in order, whatever was in the file before.  There is one
   output for every step that is a multiple of the interval; it has one row for every edge with an owned cell on a boundary with a configured
   condition, in the order of the processes, boundaries and edges, with the (truncated) midpoint, the type and the normal of that edge;
   the numbers come from the events since the previous output, each of which is counted once. *)
Theorem C39_rows_and_outputs : forall bk ranks interval file evs0 time dt evs,
  interval <> 0 -> (forall e, In e evs0 -> exists h f, e = Eval h f) ->
  let run := evs0 ++ Monitor 0 time dt :: evs in
  nondecreasing (monitored run) ->
  exists st os,
    runs bk ranks interval run (InitBoundaryFluxes 3 ranks file) = Ret st /\
    ts_file st = Some (flat_map (rows_of bk ranks) os) /\
    NoDup (map step_of os) /\
    (forall s, In s (map step_of os) <-> In s (monitored run) /\ s mod interval = 0) /\
    (forall pre o post, os = pre ++ o :: post -> hist_of o = flat_map since_of pre /\ exists rest, run = flat_map since_of (pre ++ [o]) ++ rest).
Proof.
  intros bk ranks interval file evs0 time dt evs Hi He0 run Hm.
  destruct (init_matches bk ranks file) as (st0 & E0 & M0).
  destruct (runs_file bk ranks interval run Hi _ _ _ _ _ M0) as (st & E & Hf).
  exists st, (outputs interval (-1) [] [] run). split; [now rewrite E0|]. split; [|split; [apply outputs_NoDup|split]].
  - rewrite Hf. clear - He0 Hi. unfold run. clear run.
    assert (H : forall since, fold_left (written bk ranks) (outputs interval (-1) [] since (evs0 ++ Monitor 0 time dt :: evs)) file =
                              Some (flat_map (rows_of bk ranks) (outputs interval (-1) [] since (evs0 ++ Monitor 0 time dt :: evs)))).
    2: apply H.
    induction evs0 as [|e t IH]; intros since.
    + cbn [app outputs]. rewrite Nat.mod_0_l by exact Hi. cbn [Nat.eqb andb Z.of_nat Z.ltb Z.compare].
      cbn [fold_left flat_map]. unfold written at 2. cbn [Nat.eqb app].
      apply written_all. intros o Ho. pose proof (outputs_steps _ _ _ _ _ _ Ho) as K. destruct o as [[[a b] s] c]. lia.
    + destruct (He0 e (or_introl eq_refl)) as (h & f & ->). cbn [app outputs]. apply IH. intros e He. apply He0. now right.
  - intros s. rewrite outputs_due by assumption. split; [tauto|]. intros [H1 H2]. repeat split; auto. lia.
  - intros pre o post H. apply (outputs_partition interval run (-1)%Z [] [] pre o post H).
Qed.
Print Assumptions C39_rows_and_outputs.

(* One step of a run: step number reached, time reached, size, flux through each edge. *)
Record tstep := TStep { sp_number : nat; sp_time : R; sp_size : R; sp_flux : nat -> nat -> nat -> vec3 }.
Definition evs_of (steps : list tstep) : list event := flat_map (fun s => [Eval (sp_size s) (sp_flux s); Monitor (sp_number s) (sp_time s) (sp_size s)]) steps.
(* what went through the edge (per unit length), and how long it took *)
Definition passed (steps : list tstep) (r b e : nat) : vec3 :=
  let sum (c : vec3 -> R) := rsum (fun s => sp_size s * c (sp_flux s r b e))%R steps in V3 (sum c0) (sum c1) (sum c2).
Definition duration (steps : list tstep) : R := rsum sp_size steps.
Definition end_time (steps : list tstep) : R := List.last (map sp_time steps) 0%R.
Definition block (interval k : nat) (steps : list tstep) : list tstep := firstn interval (skipn (k * interval) steps).

Lemma outputs_quiet interval l : forall last hist since rest, (forall s, In s l -> sp_number s mod interval <> 0) ->
  outputs interval last hist since (evs_of l ++ rest) = outputs interval last hist (since ++ evs_of l) rest.
Proof.
  induction l as [|s t IH]; intros last hist since rest H; cbn [evs_of flat_map app outputs]; [now rewrite app_nil_r|].
  fold (evs_of t). rewrite (proj2 (Nat.eqb_neq _ 0) (H s (or_introl eq_refl))). cbn [andb].
  rewrite IH by (intros; apply H; now right). f_equal. rewrite <- !app_assoc. reflexivity.
Qed.
Lemma last_snoc {A} (l : list A) a d : List.last (l ++ [a]) d = a.
Proof. apply last_last. Qed.
Lemma mod_between interval m n : m * interval < n < S m * interval -> n mod interval <> 0.
Proof.
  intros H E. assert (Hi : interval <> 0) by (intros ->; lia).
  apply Nat.mod_divides in E; [|exact Hi]. destruct E as [q ->]. rewrite (Nat.mul_comm interval q) in H.
  destruct H as [H1 H2]. apply Nat.mul_lt_mono_pos_r in H1; [|lia]. apply Nat.mul_lt_mono_pos_r in H2; lia.
Qed.
Lemma seq_split_map (l : list tstep) a n : map sp_number l = seq a n -> length l = n /\ forall s, In s l -> a <= sp_number s < a + n.
Proof.
  intros H. split; [now rewrite <- (map_length sp_number l), H, seq_length|].
  intros s Hs. apply (in_map sp_number) in Hs. rewrite H in Hs. now apply in_seq in Hs.
Qed.
Lemma outputs_block interval m l hist rest : interval <> 0 -> map sp_number l = seq (S (m * interval)) interval ->
  outputs interval (Z.of_nat (m * interval)) hist [] (evs_of l ++ rest) =
  (hist, evs_of l, S m * interval, end_time l) :: outputs interval (Z.of_nat (S m * interval)) (hist ++ evs_of l) [] rest.
Proof.
  intros Hi Hn. destruct (seq_split_map _ _ _ Hn) as [Hlen _].
  destruct (exists_last (l := l)) as (l' & z & ->); [intros ->; cbn in Hlen; lia|].
  rewrite map_app in Hn. cbn [map] in Hn. destruct interval as [|j]; [contradiction|].
  replace (S j) with (j + 1) in Hn at 2 by lia. rewrite seq_app in Hn. cbn [seq] in Hn.
  apply app_inj_tail in Hn. destruct Hn as [Hn1 Hn2].
  unfold evs_of. rewrite flat_map_app. fold (evs_of l'). cbn [flat_map app]. rewrite <- app_assoc. cbn [app].
  rewrite outputs_quiet.
  - cbn [outputs app]. rewrite Hn2. replace (S (m * S j) + j) with (S m * S j) by lia.
    rewrite Nat.mod_mul by lia. cbn [Nat.eqb andb]. rewrite (proj2 (Z.ltb_lt _ _)) by (apply Nat2Z.inj_lt; nia).
    unfold end_time. rewrite map_app. cbn [map]. rewrite last_snoc. rewrite <- !app_assoc. reflexivity.
  - intros s Hs. destruct (seq_split_map _ _ _ Hn1) as [_ K]. specialize (K s Hs). apply (mod_between (S j) m). lia.
Qed.
Lemma skipn_add {A} (n m : nat) (l : list A) : skipn n (skipn m l) = skipn (m + n) l.
Proof. revert l. induction m as [|m IH]; intros l; [reflexivity|]. destruct l as [|a t]; cbn [skipn Nat.add]; [now rewrite skipn_nil|apply IH]. Qed.
Lemma outputs_blocks interval (Hi : interval <> 0) n : forall m steps hist, map sp_number steps = seq (S (m * interval)) (length steps) -> length steps / interval = n ->
  forall f : list event * list event * nat * R -> list row,
  (forall hist l k, f (hist, evs_of l, k, end_time l) = f ([], evs_of l, 1, end_time l)) ->
  flat_map f (outputs interval (Z.of_nat (m * interval)) hist [] (evs_of steps)) =
  flat_map (fun k => f ([], evs_of (block interval k steps), 1, end_time (block interval k steps))) (seq 0 n).
Proof.
  induction n as [|n IH]; intros m steps hist Hn Hd f Hf.
  - apply Nat.div_small_iff in Hd; [|exact Hi]. cbn [seq flat_map].
    rewrite <- (app_nil_r (evs_of steps)), outputs_quiet; [reflexivity|].
    intros s Hs. destruct (seq_split_map _ _ _ Hn) as [_ K]. specialize (K s Hs). apply (mod_between interval m). lia.
  - assert (Hge : interval <= length steps).
    { destruct (le_lt_dec interval (length steps)) as [H|H]; [exact H|]. rewrite Nat.div_small in Hd by exact H. discriminate. }
    set (l := firstn interval steps). set (r := skipn interval steps).
    assert (Es : steps = l ++ r) by (symmetry; apply firstn_skipn).
    assert (Hl : length l = interval) by (unfold l; rewrite firstn_length; lia).
    assert (Hr : length steps = interval + length r) by (rewrite Es, app_length; lia).
    assert (Hnl : map sp_number l = seq (S (m * interval)) interval /\ map sp_number r = seq (S (S m * interval)) (length r)).
    { rewrite Es, map_app, app_length, Hl, seq_app in Hn.
      pose proof (f_equal (firstn interval) Hn) as A. pose proof (f_equal (skipn interval) Hn) as B.
      rewrite !firstn_app, map_length, Hl, seq_length, Nat.sub_diag, !firstn_O, !app_nil_r in A.
      rewrite !firstn_all2 in A by (rewrite ?map_length, ?seq_length; lia).
      rewrite !skipn_app, map_length, Hl, seq_length, Nat.sub_diag, !skipn_O in B.
      rewrite !skipn_all2 in B by (rewrite ?map_length, ?seq_length; lia). cbn [app] in B.
      split; [exact A|]. rewrite B. f_equal. lia. }
    destruct Hnl as [Hnl Hnr].
    assert (Ee : evs_of steps = evs_of l ++ evs_of r) by (rewrite Es at 1; apply flat_map_app).
    rewrite Ee, (outputs_block interval m l hist _ Hi Hnl). cbn [flat_map seq].
    assert (Ed : length r / interval = n).
    { rewrite Hr in Hd. replace (interval + length r) with (length r + 1 * interval) in Hd by lia. rewrite Nat.div_add in Hd by exact Hi. lia. }
    rewrite (IH (S m) r (hist ++ evs_of l) Hnr Ed f Hf).
    replace (block interval 0 steps) with l by (unfold block; cbn [Nat.mul skipn]; reflexivity).
    rewrite Hf. f_equal. rewrite <- (seq_shift n 0), flat_map_concat_map, (flat_map_concat_map _ (map S _)), map_map. f_equal.
    apply map_ext. intros k. unfold block. unfold r. rewrite skipn_add. cbn [Nat.mul]. reflexivity.
Qed.

Lemma petsc_amount_from t : forall l r b e v,
  fold_left (fun acc ev => match ev with Eval h f => vadd acc (vscal h (f r b e)) | Monitor _ _ _ => acc end) (evs_of l ++ t) v =
  fold_left (fun acc ev => match ev with Eval h f => vadd acc (vscal h (f r b e)) | Monitor _ _ _ => acc end) t (vadd v (passed l r b e)).
Proof.
  induction l as [|s l IH]; intros r b e v; cbn [evs_of flat_map app fold_left].
  - f_equal. unfold passed. destruct v as [x y z]. unfold vadd. cbn. f_equal; ring.
  - fold (evs_of l). rewrite IH. f_equal. unfold passed. destruct v as [x y z]. unfold vadd, vscal. cbn. f_equal; ring.
Qed.
Lemma petsc_amount_steps l r b e : petsc_amount (evs_of l) r b e = passed l r b e.
Proof.
  unfold petsc_amount. rewrite <- (app_nil_r (evs_of l)), petsc_amount_from. cbn [fold_left].
  unfold passed, vadd, vzero. cbn. f_equal; ring.
Qed.
Lemma ceed_amount_steps l : forall hist acc r b e, ceed_amount Overwrite hist (evs_of l) acc r b e = vadd (acc r b e) (passed l r b e).
Proof.
  induction l as [|s l IH]; intros hist acc r b e; cbn [evs_of flat_map app ceed_amount].
  - unfold passed. destruct (acc r b e) as [x y z]. unfold vadd. cbn. f_equal; ring.
  - fold (evs_of l). rewrite IH. unfold flux_now. rewrite fold_left_app. cbn [fold_left].
    unfold passed. destruct (acc r b e) as [x y z]. unfold vadd, vscal. cbn. f_equal; ring.
Qed.
Lemma total_steps l : total (evs_of l) = duration l.
Proof. unfold total, duration. induction l as [|s l IH]; cbn; [reflexivity|]. fold (evs_of l). rewrite IH. ring. Qed.
Lemma duration_pos l : (forall s, In s l -> 0 < sp_size s)%R -> l <> [] -> (0 < duration l)%R.
Proof.
  intros H Hl. destruct l as [|s t]; [contradiction|]. unfold duration. cbn [rsum].
  pose proof (H s (or_introl eq_refl)). assert (0 <= rsum sp_size t)%R; [|lra].
  apply rsum_nonneg. intros a Ha. left. apply H. now right.
Qed.
Lemma owned_positions_front a b : (forall e, In e a -> te_owned e = true) -> (forall e, In e b -> te_owned e = false) ->
  forall i, map fst (filter (fun e => te_owned (snd e)) (enum_from i (a ++ b))) = seq i (length a).
Proof.
  intros Ha Hb. induction a as [|x t IH]; intros i; cbn [app enum_from filter length seq].
  - revert i. induction b as [|y t IH]; intros i; cbn [enum_from filter snd map]; [reflexivity|].
    rewrite (Hb y (or_introl eq_refl)). apply IH. intros e He. apply Hb. now right.
  - cbn [snd]. rewrite (Ha x (or_introl eq_refl)). cbn [map fst]. f_equal. apply IH. intros e He. apply Ha. now right.
Qed.
Lemma entries_In ranks r b e ty ed : In (r, b, e, ty, ed) (entries ranks) ->
  exists rk bd, nth_error ranks r = Some rk /\ nth_error rk b = Some bd /\ nth_error (tb_edges bd) e = Some ed /\ te_cell_owned ed = true /\ tb_type bd = ty /\ tb_auto bd = false.
Proof.
  unfold entries. rewrite in_flat_map. intros ([r' rk] & Hr & H). unfold rank_entries in H. cbn [fst snd] in H.
  rewrite in_flat_map in H. destruct H as ([b' bd] & Hb & H). unfold boundary_entries in H. cbn [fst snd] in H.
  destruct (tb_auto bd) eqn:Ea; [destruct H|]. rewrite in_map_iff in H. destruct H as ([e' ed'] & E & H). cbn [fst snd] in E.
  injection E as <- <- <- <- <-. rewrite filter_In in H. destruct H as [He Ho]. cbn [snd] in Ho.
  exists rk, bd. repeat split; auto using enum_In.
Qed.
Lemma packed_front ranks f r b e ty ed : packed_in_order ranks -> In (r, b, e, ty, ed) (entries ranks) -> packed ranks f r b e = f r b e.
Proof.
  intros Hp Hin. destruct (entries_In _ _ _ _ _ _ Hin) as (rk & bd & Hr & Hb & He & Ho & _).
  unfold packed. unfold ts_rank in *. rewrite Hr, Hb.
  destruct (Hp rk bd) as (x & y & E & Hx & Hy); [now apply nth_error_In in Hr|now apply nth_error_In in Hb|].
  unfold owned_positions. rewrite E. unfold enum. rewrite owned_positions_front; [|exact Hx|intros; now apply Hy].
  assert (Hlt : e < length x).
  { destruct (le_lt_dec (length x) e) as [Hle|Hlt]; [|exact Hlt]. exfalso. rewrite E, nth_error_app2 in He by exact Hle.
    apply nth_error_In in He. destruct (Hy _ He) as [_ K]. congruence. }
  rewrite (nth_error_nth' _ 0) by (now rewrite seq_length). now rewrite seq_nth.
Qed.

(* If every step is one evaluation followed by one call of the monitor with the size of the step just taken, every row after the first output
   contains the integral of the flux over the [interval] steps since the previous row divided by the time they took.  Missing (and refuted
   below): further calls at the end of coupling intervals, steps shorter than rdy->dt, methods with several evaluations per step. *)
Theorem C39_time_average_partial : forall bk ranks interval file time0 dt0 steps,
  interval <> 0 -> (bk = Petsc \/ bk = Ceed Overwrite /\ packed_in_order ranks) ->
  map sp_number steps = seq 1 (length steps) -> (forall s, In s steps -> 0 < sp_size s)%R ->
  exists st,
    runs bk ranks interval (Monitor 0 time0 dt0 :: evs_of steps) (InitBoundaryFluxes 3 ranks file) = Ret st /\
    ts_file st = Some (map (row_of time0 (fun _ _ _ => vzero) 1) (entries ranks) ++
                       flat_map (fun k => let l := block interval k steps in map (row_of (end_time l) (passed l) (duration l)) (entries ranks))
                                (seq 0 (length steps / interval))).
Proof.
  intros bk ranks interval file time0 dt0 steps Hi Hbk Hn Hpos.
  destruct (init_matches bk ranks file) as (st0 & E0 & M0).
  destruct (runs_file bk ranks interval (Monitor 0 time0 dt0 :: evs_of steps) Hi _ _ _ _ _ M0) as (st & E & Hf).
  exists st. split; [now rewrite E0|]. rewrite Hf. clear - Hi Hbk Hn Hpos.
  cbn [outputs]. rewrite Nat.mod_0_l by exact Hi. cbn [Nat.eqb andb Z.of_nat Z.ltb Z.compare app].
  cbn [fold_left]. unfold written at 2. cbn [Nat.eqb app].
  rewrite written_all.
  2: { intros o Ho. pose proof (outputs_steps _ _ _ _ _ _ Ho) as K. destruct o as [[[a b] s] c]. lia. }
  f_equal. f_equal.
  - unfold rows_of. apply map_ext_in. intros [[[[r b] e] ty] ed] Hin. unfold row_of.
    assert (A : amount bk ranks [] [Monitor 0 time0 dt0] r b e = vzero).
    { destruct Hbk as [->|[-> Hp]]; cbn [amount]; [reflexivity|]. rewrite (packed_front ranks _ r b e ty ed Hp Hin). cbn. unfold vadd, vscal, vzero. cbn. f_equal; ring. }
    rewrite A. cbn [c0 c1 c2 vzero]. unfold Rdiv. rewrite !Rmult_0_r, !Rmult_0_l. reflexivity.
  - change 0%Z with (Z.of_nat (0 * interval)).
    rewrite (outputs_blocks interval Hi _ 0 steps _ Hn eq_refl).
    + rewrite !flat_map_concat_map. f_equal. apply map_ext_in. intros k Hk. apply in_seq in Hk. cbv zeta. unfold rows_of.
      set (l := block interval k steps).
      assert (Hl : (forall s, In s l -> 0 < sp_size s)%R /\ l <> []).
      { split.
        - intros s Hs. apply Hpos. unfold l, block in Hs. rewrite <- (firstn_skipn (k * interval) steps). apply in_or_app. right.
          rewrite <- (firstn_skipn interval (skipn (k * interval) steps)). apply in_or_app. now left.
        - intros El. apply (f_equal (@length _)) in El. unfold l, block in El. rewrite firstn_length, skipn_length in El. cbn in El.
          assert (interval * (length steps / interval) <= length steps) by now apply Nat.mul_div_le. nia. }
      destruct Hl as [Hl1 Hl2]. pose proof (duration_pos l Hl1 Hl2) as Hd.
      apply map_ext_in. intros [[[[r b] e] ty] ed] Hin. rewrite total_steps.
      unfold Reqb. destruct (Req_EM_T (duration l) 0) as [e0|_]; [lra|]. unfold row_of.
      assert (A : amount bk ranks [] (evs_of l) r b e = passed l r b e).
      { destruct Hbk as [->|[-> Hp]]; cbn [amount]; [apply petsc_amount_steps|]. rewrite (packed_front ranks _ r b e ty ed Hp Hin), ceed_amount_steps.
        unfold passed, vadd, vzero. cbn. f_equal; ring. }
      now rewrite A.
    + intros hist l k. unfold rows_of. apply map_ext_in. intros [[[[r b] e] ty] ed] Hin. unfold row_of.
      assert (A : amount bk ranks hist (evs_of l) r b e = amount bk ranks [] (evs_of l) r b e).
      { destruct Hbk as [->|[-> Hp]]; cbn [amount]; [reflexivity|]. now rewrite !(packed_front ranks _ r b e ty ed Hp Hin), !ceed_amount_steps. }
      now rewrite A.
Qed.
Print Assumptions C39_time_average_partial.

(* With CEED (overwriting its outputs), if the flux through the edges does not change, every row reports exactly that flux, however often
   the monitor is called, with whatever dt and however many evaluations a step takes. *)
Theorem C39_ceed_steady : forall ranks F hist since step time,
  packed_in_order ranks -> (forall h f, In (Eval h f) (hist ++ since) -> f = F) -> (exists h f, In (Eval h f) hist) -> total since <> 0%R ->
  rows_of (Ceed Overwrite) ranks (hist, since, step, time) = map (row_of time F 1) (entries ranks).
Proof.
  intros ranks F hist since step time Hp HF Hex Ht. unfold rows_of. apply map_ext_in. intros [[[[r b] e] ty] ed] Hin.
  unfold Reqb. destruct (Req_EM_T (total since) 0) as [e0|_]; [contradiction|].
  assert (N : forall evs, (forall h f, In (Eval h f) evs -> f = F) -> (exists h f, In (Eval h f) evs) -> flux_now Overwrite evs r b e = F r b e).
  { intros evs. unfold flux_now. generalize vzero. induction evs as [|ev t IH]; intros v H1 (h & f & H2); [destruct H2|]. cbn [fold_left].
    destruct ev as [h' f'|s tm dt].
    - rewrite (H1 h' f' (or_introl eq_refl)). clear - H1. assert (H : forall h f, In (Eval h f) t -> f = F) by (intros; eapply H1; right; eassumption). clear H1.
      induction t as [|[h1 f1|s tm dt] t IH]; cbn [fold_left]; [reflexivity| |].
      + rewrite (H h1 f1 (or_introl eq_refl)). apply IH. intros; eapply H; right; eassumption.
      + apply IH. intros; eapply H; right; eassumption.
    - destruct H2 as [H2|H2]; [discriminate|]. apply IH; [intros; eapply H1; right; eassumption|eauto]. }
  assert (A : forall since hist acc, (forall h f, In (Eval h f) (hist ++ since) -> f = F) -> (exists h f, In (Eval h f) hist) ->
              ceed_amount Overwrite hist since acc r b e = vadd (acc r b e) (vscal (total since) (F r b e))).
  { clear since hist HF Hex Ht. induction since as [|ev t IH]; intros hist acc HF Hex.
    - cbn. destruct (acc r b e) as [x y z]. unfold vadd, vscal. cbn. f_equal; ring.
    - assert (HF' : forall h f, In (Eval h f) ((hist ++ [ev]) ++ t) -> f = F) by (rewrite <- app_assoc; exact HF).
      assert (Hex' : exists h f, In (Eval h f) (hist ++ [ev])) by (destruct Hex as (h & f & H); exists h, f; apply in_or_app; now left).
      destruct ev as [h f|s tm dt]; cbn [ceed_amount]; rewrite IH by assumption.
      + f_equal. f_equal. unfold total. cbn [rsum]. ring.
      + cbv beta. rewrite (N hist); [|intros; eapply HF; apply in_or_app; left; eassumption|exact Hex].
        unfold total. cbn [rsum]. destruct (acc r b e) as [x y z]. unfold vadd, vscal. cbn. f_equal; ring. }
  unfold row_of. cbn [amount]. rewrite (packed_front ranks _ r b e ty ed Hp Hin), A by assumption.
  unfold vadd, vscal, vzero. cbn [c0 c1 c2]. f_equal; field; assumption.
Qed.
Print Assumptions C39_ceed_steady.

(* one process with one boundary with one edge of length 1, through which one unit of water flows per second *)
Definition unit_edge : ts_edge := TsEdge 0%R 0%R 1%R 1%R 0%R true true.
Definition unit_ranks : list ts_rank := [[TsBoundary false 0%Z [unit_edge]]].
Definition unit_flux : nat -> nat -> nat -> vec3 := fun _ _ _ => V3 1%R 0%R 0%R.
Lemma unit_packed : packed_in_order unit_ranks.
Proof.
  intros rk bd [<-|[]] [<-|[]]. exists [unit_edge], []. cbn. split; [reflexivity|]. split; [intros e [<-|[]]; reflexivity|intros e []].
Qed.
Lemma truncate_0 : truncate 0 = 0%Z.
Proof.
  unfold truncate. unfold Rltb. destruct (Rlt_dec 0 0) as [H|_]; [lra|]. unfold Int_part.
  assert (E : up 0 = 1%Z). { symmetry. apply tech_up; simpl; lra. } rewrite E. reflexivity.
Qed.
Ltac run_file evs := match goal with |- exists st, runs ?bk ?ranks ?i _ (InitBoundaryFluxes 3 _ ?file) = _ /\ _ =>
  destruct (init_matches bk ranks file) as (st0 & E0 & M0);
  destruct (runs_file bk ranks i evs ltac:(discriminate) _ _ _ _ _ M0) as (st & E & Hf); exists st; split; [now rewrite E0|]; rewrite Hf; clear
  end.
Ltac decide_Reqb := unfold Reqb; repeat match goal with |- context [Req_EM_T ?a ?b] => destruct (Req_EM_T a b) as [?e|_]; [exfalso; lra|] end.

(* PETSc: the monitor is called again at the start of the next coupling interval and counts rdy->dt again; the steady flux 1 is reported as 1/2 *)
Theorem C39_coupling_refuted : exists st,
  runs Petsc unit_ranks 1 [Monitor 0 0 1; Eval 1 unit_flux; Monitor 1 1 1; Monitor 1 1 1; Eval 1 unit_flux; Monitor 2 2 1] (InitBoundaryFluxes 3 unit_ranks None) = Ret st /\
  ts_file st = Some [Row 0 0 0 0 0 0 0 1 0; Row 1 0 0 0 1 0 0 1 0; Row 2 0 0 0 (1 / 2) 0 0 1 0]%R.
Proof.
  run_file [Monitor 0 0 1; Eval 1 unit_flux; Monitor 1 1 1; Monitor 1 1 1; Eval 1 unit_flux; Monitor 2 2 1]%R.
  cbn [outputs Nat.modulo Nat.divmod fst snd Nat.sub Nat.eqb andb Z.of_nat Pos.of_succ_nat Pos.succ Z.ltb Z.compare Pos.compare Pos.compare_cont app fold_left].
  unfold written, rows_of. cbn [Nat.eqb entries enum enum_from unit_ranks flat_map rank_entries fst snd boundary_entries tb_auto tb_edges tb_type filter te_cell_owned unit_edge map app].
  unfold total, row_of. cbn [rsum amount petsc_amount fold_left te_len te_xc te_yc te_nx te_ny unit_edge unit_flux vadd vscal vzero c0 c1 c2].
  rewrite truncate_0. decide_Reqb. repeat f_equal; field.
Qed.
Print Assumptions C39_coupling_refuted.
(* PETSc: the steps 4, 3, 3 taken to reach the end of an interval of 10 seconds are counted as 4 seconds each *)
Theorem C39_short_steps_refuted : exists st,
  runs Petsc unit_ranks 3 [Monitor 0 0 4; Eval 4 unit_flux; Monitor 1 4 4; Eval 3 unit_flux; Monitor 2 7 4; Eval 3 unit_flux; Monitor 3 10 4] (InitBoundaryFluxes 3 unit_ranks None) = Ret st /\
  ts_file st = Some [Row 0 0 0 0 0 0 0 1 0; Row 10 0 0 0 (10 / 12) 0 0 1 0]%R.
Proof.
  run_file [Monitor 0 0 4; Eval 4 unit_flux; Monitor 1 4 4; Eval 3 unit_flux; Monitor 2 7 4; Eval 3 unit_flux; Monitor 3 10 4]%R.
  cbn [outputs Nat.modulo Nat.divmod fst snd Nat.sub Nat.eqb andb Z.of_nat Pos.of_succ_nat Pos.succ Z.ltb Z.compare Pos.compare Pos.compare_cont app fold_left].
  unfold written, rows_of. cbn [Nat.eqb entries enum enum_from unit_ranks flat_map rank_entries fst snd boundary_entries tb_auto tb_edges tb_type filter te_cell_owned unit_edge map app].
  unfold total, row_of. cbn [rsum amount petsc_amount fold_left te_len te_xc te_yc te_nx te_ny unit_edge unit_flux vadd vscal vzero c0 c1 c2].
  rewrite truncate_0. decide_Reqb. repeat f_equal; field.
Qed.
Print Assumptions C39_short_steps_refuted.
(* PETSc: a method with two evaluations per step reports twice the flux *)
Theorem C39_stages_refuted : exists st,
  runs Petsc unit_ranks 1 [Monitor 0 0 1; Eval 1 unit_flux; Eval 1 unit_flux; Monitor 1 1 1] (InitBoundaryFluxes 3 unit_ranks None) = Ret st /\
  ts_file st = Some [Row 0 0 0 0 0 0 0 1 0; Row 1 0 0 0 2 0 0 1 0]%R.
Proof.
  run_file [Monitor 0 0 1; Eval 1 unit_flux; Eval 1 unit_flux; Monitor 1 1 1]%R.
  cbn [outputs Nat.modulo Nat.divmod fst snd Nat.sub Nat.eqb andb Z.of_nat Pos.of_succ_nat Pos.succ Z.ltb Z.compare Pos.compare Pos.compare_cont app fold_left].
  unfold written, rows_of. cbn [Nat.eqb entries enum enum_from unit_ranks flat_map rank_entries fst snd boundary_entries tb_auto tb_edges tb_type filter te_cell_owned unit_edge map app].
  unfold total, row_of. cbn [rsum amount petsc_amount fold_left te_len te_xc te_yc te_nx te_ny unit_edge unit_flux vadd vscal vzero c0 c1 c2].
  rewrite truncate_0. decide_Reqb. repeat f_equal; field.
Qed.
Print Assumptions C39_stages_refuted.
(* CEED: on a process whose boundary lists an edge of a ghost cell before an edge of its own, the row of the latter reports no flux.  Face sets
   are not restricted to owned cells (rdysetup.c:371-408); whether the order occurs depends on PETSc's numbering of the edges. *)
Definition ghost_edge : ts_edge := TsEdge 1%R 0%R 1%R 1%R 0%R false false.
Definition ghost_first : list ts_rank := [[TsBoundary false 0%Z [ghost_edge; unit_edge]]].
Theorem C39_ceed_ghost_edge_refuted : exists st,
  runs (Ceed Overwrite) ghost_first 1 [Monitor 0 0 1; Eval 1 unit_flux; Monitor 1 1 1] (InitBoundaryFluxes 3 ghost_first None) = Ret st /\
  ts_file st = Some [Row 0 0 0 0 0 0 0 1 0; Row 1 0 0 0 0 0 0 1 0]%R.
Proof.
  run_file [Monitor 0 0 1; Eval 1 unit_flux; Monitor 1 1 1]%R.
  cbn [outputs Nat.modulo Nat.divmod fst snd Nat.sub Nat.eqb andb Z.of_nat Pos.of_succ_nat Pos.succ Z.ltb Z.compare Pos.compare Pos.compare_cont app fold_left].
  unfold written, rows_of. cbn [Nat.eqb entries enum enum_from ghost_first flat_map rank_entries fst snd boundary_entries tb_auto tb_edges tb_type filter te_cell_owned unit_edge ghost_edge map app].
  unfold total, row_of, amount, packed. cbn [nth_error ghost_first tb_edges owned_positions enum enum_from filter snd te_owned ghost_edge unit_edge map fst].
  cbn [rsum te_len te_xc te_yc te_nx te_ny unit_edge vzero c0 c1 c2].
  rewrite truncate_0. decide_Reqb. repeat f_equal; field.
Qed.
Print Assumptions C39_ceed_ghost_edge_refuted.
(* A coordinate in the file is the coordinate of the edge rounded towards 0 *)
Theorem C39_coordinates : forall x, (Rabs (IZR (truncate x)) <= Rabs x < Rabs (IZR (truncate x)) + 1)%R /\ (0 <= x * IZR (truncate x))%R.
Proof.
  intros x. unfold truncate, Rltb. destruct (Rlt_dec x 0) as [H|H].
  - destruct (base_Int_part (- x)) as [A B]. set (z := Int_part (- x)) in *.
    assert (0 <= z)%Z. { apply le_IZR. assert (-1 < IZR z)%R by lra. apply (lt_IZR (-1) z) in H0. apply IZR_le. lia. }
    apply IZR_le in H0. rewrite opp_IZR. rewrite Rabs_Ropp, (Rabs_left x H), (Rabs_pos_eq (IZR z) H0). split; [lra|]. nra.
  - destruct (base_Int_part x) as [A B]. set (z := Int_part x) in *.
    assert (0 <= z)%Z. { apply le_IZR. assert (-1 < IZR z)%R by lra. apply (lt_IZR (-1) z) in H0. apply IZR_le. lia. }
    apply IZR_le in H0. rewrite (Rabs_pos_eq x), (Rabs_pos_eq (IZR z) H0) by lra. split; [lra|]. nra.
Qed.
Print Assumptions C39_coordinates.
(* the coordinates are cut to integers: two edges less than a metre apart cannot be told apart *)
Theorem C39_coordinates_refuted : exists x y, x <> y /\ truncate x = truncate y.
Proof.
  exists 0%R, (1 / 2)%R. split; [lra|]. rewrite truncate_0. unfold truncate, Rltb. destruct (Rlt_dec (1 / 2) 0) as [H|_]; [lra|].
  unfold Int_part. assert (E : up (1 / 2) = 1%Z). { symmetry. apply tech_up; simpl; lra. } rewrite E. reflexivity.
Qed.
Print Assumptions C39_coordinates_refuted.
(* with observations but no boundary fluxes requested, the first call takes the remainder by 0; with tracers, the arrays do not exist *)
Theorem C39_undefined_refuted :
  (forall bk ranks st step time dt, WriteTimeSeries bk ranks 0 st step time dt = UB) /\
  (forall ranks file ndof, ndof <> 3 -> InitBoundaryFluxes ndof ranks file = UB).
Proof.
  split; [reflexivity|]. intros ranks file ndof H. unfold InitBoundaryFluxes. now rewrite (proj2 (Nat.eqb_neq ndof 3) H).
Qed.
Print Assumptions C39_undefined_refuted.

Example C39_example_run : nondecreasing (monitored ([Eval 1 unit_flux] ++ Monitor 0 0 1 :: [Eval 1 unit_flux; Monitor 1 1 1; Monitor 1 1 1; Eval 1 unit_flux; Monitor 2 2 1])).
Proof. cbn. repeat split; intros b H; repeat (destruct H as [<-|H]; [lia|]); destruct H. Qed.
Example C39_example_steps : let steps := [TStep 1 2 2 unit_flux; TStep 2 3 1 (fun _ _ _ => V3 4 0 0)]%R in
  map sp_number steps = seq 1 (length steps) /\ (forall s, In s steps -> 0 < sp_size s)%R /\
  c0 (passed (block 2 0 steps) 0 0 0) = 6%R /\ duration (block 2 0 steps) = 3%R /\ length (entries unit_ranks) = 1.
Proof.
  cbv zeta. split; [reflexivity|]. split; [intros s [<-|[<-|[]]]; cbn; lra|]. cbn. repeat split; ring.
Qed.
Example C39_example_steady : let hist := [Eval 1 unit_flux] in let since := [Monitor 0 0 1; Eval 2 unit_flux; Monitor 1 1 1]%R in
  packed_in_order unit_ranks /\ (forall h f, In (Eval h f) (hist ++ since) -> f = unit_flux) /\ (exists h f, In (Eval h f) hist) /\ total since <> 0%R.
Proof.
  cbv zeta. split; [apply unit_packed|]. split; [|split].
  - intros h f H. cbn in H. repeat (destruct H as [H|H]; [congruence|]). destruct H.
  - exists 1%R, unit_flux. now left.
  - unfold total. cbn. lra.
Qed.

(** ** C59: observations *)
(* the rows for one call: time, the centroid and the values of the cell at each site *)
Definition site_rows (cells : list obs_cell) (u : list (list R)) (time : R) (s : nat) : list obs_row :=
  match nth_error cells s, nth_error u s with
  | Some c, Some v => map (fun cv => ObsRow time (ob_x c) (ob_y c) (ob_z c) (fst cv) (snd cv)) (combine (seq 0 (length v)) v)
  | _, _ => []
  end.
Definition call_due (interval : nat) (c : nat * R * list (list R)) : bool := let '(s, _, _) := c in Nat.eqb (s mod interval) 0.
Definition call_rows (cells : list obs_cell) (sites : list nat) (c : nat * R * list (list R)) : list obs_row :=
  let '(_, time, u) := c in flat_map (site_rows cells u time) sites.

Lemma scatter_ok {A} (v : list A) (d : A) sites : (forall s, In s sites -> s < length v) -> scatter sites v = Ret (map (fun s => nth s v d) sites).
Proof.
  induction sites as [|s t IH]; intros H; cbn; [reflexivity|].
  rewrite (nth_error_nth' v d (H s (or_introl eq_refl))). cbn [rbind]. unfold scatter in IH. rewrite IH by (intros; apply H; now right). reflexivity.
Qed.
Lemma write_observations_ok ranks sites u step time st : let cells := global_cells ranks in length u = length cells -> (forall s, In s sites -> s < length cells) ->
  WriteObservations ranks sites u step time st =
  Ret (ObsState (os_last_step st) (Some ((if Nat.eqb step 0 then [] else match os_rows st with Some l => l | None => [] end) ++ flat_map (site_rows cells u time) sites))).
Proof.
  cbv zeta. intros Hu Hs. unfold WriteObservations. set (cells := global_cells ranks) in *. clearbody cells.
  pose (d := ObsCell 0 0 0 0).
  rewrite (scatter_ok (map ob_x cells) 0%R), (scatter_ok (map ob_y cells) 0%R), (scatter_ok (map ob_z cells) 0%R), (scatter_ok u []) by (rewrite ?map_length, ?Hu; exact Hs).
  cbn [rbind]. do 4 f_equal. clear - Hu Hs.
  induction sites as [|s t IH]; [reflexivity|]. cbn [map combine flat_map]. rewrite IH by (intros; apply Hs; now right). f_equal.
  unfold site_rows. pose proof (Hs s (or_introl eq_refl)) as H.
  assert (H' : s < length u) by (rewrite Hu; exact H).
  rewrite (nth_error_nth' cells (ObsCell 0 0 0 0) H), (nth_error_nth' u [] H').
  rewrite <- (map_nth ob_x), <- (map_nth ob_y), <- (map_nth ob_z). reflexivity.
Qed.
(* The file of a run starting at step 0 has, for every due call in order, one line per requested site and component; a line's coordinates
   and value belong to the same cell, the one with that position in the global numbering. *)
Theorem C59_coordinates_match_values : forall ranks sites interval file time u calls,
  let cells := global_cells ranks in let run := (0, time, u) :: calls in
  interval <> 0 -> (forall s, In s sites -> s < length cells) ->
  (forall s t v, In (s, t, v) run -> length v = length cells) -> (forall s t v, In (s, t, v) calls -> s <> 0) ->
  exists st, observations ranks sites interval run (Ret (obs_init file)) = Ret st /\
             os_rows st = Some (flat_map (call_rows cells sites) (filter (call_due interval) run)).
Proof.
  intros ranks sites interval file time u calls cells run Hi Hs Hu Hc.
  assert (G : forall calls st rows, os_rows st = Some rows -> os_last_step st = (-1)%Z ->
    (forall s t v, In (s, t, v) calls -> length v = length cells /\ s <> 0) ->
    exists st', observations ranks sites interval calls (Ret st) = Ret st' /\ os_rows st' = Some (rows ++ flat_map (call_rows cells sites) (filter (call_due interval) calls))).
  { clear calls run Hu Hc. induction calls as [|[[s t] v] calls IH]; intros st rows Hr Hl H.
    - exists st. split; [reflexivity|]. cbn. now rewrite app_nil_r.
    - destruct (H s t v (or_introl eq_refl)) as [Hv H0]. unfold observations. cbn [fold_left rbind observe filter call_due].
      rewrite (proj2 (Nat.eqb_neq interval 0) Hi), Hl, (proj2 (Z.ltb_lt (-1) (Z.of_nat s))) by lia. cbn [negb andb].
      destruct (Nat.eqb (s mod interval) 0) eqn:E; cbn [andb].
      + rewrite write_observations_ok by assumption. rewrite (proj2 (Nat.eqb_neq s 0) H0), Hr.
        fold (observations ranks sites interval calls). 
        destruct (IH (ObsState (os_last_step st) (Some (rows ++ flat_map (site_rows cells v t) sites))) (rows ++ flat_map (site_rows cells v t) sites) eq_refl Hl) as (st' & E' & R').
        * intros; eapply H; right; eassumption.
        * exists st'. split; [exact E'|]. rewrite R'. cbn [flat_map call_rows]. now rewrite app_assoc.
      + apply IH; auto. intros; eapply H; right; eassumption. }
  unfold run, observations. cbn [fold_left rbind observe filter call_due obs_init os_last_step].
  rewrite (proj2 (Nat.eqb_neq interval 0) Hi), Nat.mod_0_l by exact Hi. cbn [negb andb Nat.eqb Z.of_nat Z.ltb Z.compare].
  rewrite write_observations_ok; [|exact (Hu 0 time u (or_introl eq_refl))|exact Hs]. cbn [Nat.eqb app os_last_step].
  eapply (G calls (ObsState (-1) (Some (flat_map (site_rows cells u time) sites)))); [reflexivity|reflexivity|].
  intros s t v H. split; [eapply Hu; right; exact H|eapply Hc; exact H].
Qed.
Print Assumptions C59_coordinates_match_values.
(* A site that is not the number of a cell ends the run with an error, whatever the other sites and the later calls are. *)
Lemma scatter_missing {A} (v : list A) sites s : In s sites -> length v <= s -> scatter sites v = Error.
Proof.
  induction sites as [|x t IH]; intros Hin Hs; [destruct Hin|]. unfold scatter in *. cbn [rmap].
  destruct Hin as [->|Hin].
  - rewrite (proj2 (nth_error_None v s) Hs). reflexivity.
  - destruct (nth_error v x); cbn [rbind]; [|reflexivity]. rewrite IH by assumption. reflexivity.
Qed.
Theorem C59_unknown_site_rejected : forall ranks sites interval file time u calls s, interval <> 0 -> In s sites -> length (global_cells ranks) <= s ->
  observations ranks sites interval ((0, time, u) :: calls) (Ret (obs_init file)) = Error.
Proof.
  intros ranks sites interval file time u calls s Hi Hin Hs. unfold observations. cbn [fold_left rbind observe obs_init os_last_step].
  rewrite (proj2 (Nat.eqb_neq interval 0) Hi), Nat.mod_0_l by exact Hi. cbn [negb andb Nat.eqb Z.of_nat Z.ltb Z.compare].
  unfold WriteObservations. rewrite (scatter_missing _ _ s Hin) by (now rewrite map_length). cbn [rbind].
  induction calls as [|c calls IH]; [reflexivity|exact IH].
Qed.
Print Assumptions C59_unknown_site_rejected.
Example C59_unknown_site_example : In 3 [1; 3] /\ length (global_cells [[ObsCell 0 0 0 0]; [ObsCell 1 1 0 0]]%R) <= 3.
Proof. split; [cbn; tauto|cbn; lia]. Qed.
(* When the cells are numbered like in the file (one process, no reordering), the site's line is that of the cell asked for. *)
Theorem C59_cell_asked_for_partial : forall ranks s c, let cells := global_cells ranks in
  map ob_natural cells = seq 0 (length cells) -> In c cells -> ob_natural c = s -> nth_error cells s = Some c.
Proof.
  intros ranks s c cells Hn Hin Hs. apply In_nth_error in Hin. destruct Hin as [k Hk].
  assert (E : nth_error (map ob_natural cells) k = Some s) by (now rewrite nth_error_map, Hk, <- Hs).
  rewrite Hn in E. assert (Hlt : k < length cells) by (apply nth_error_Some; congruence).
  rewrite (nth_error_nth' _ 0) in E by (now rewrite seq_length). rewrite seq_nth in E by exact Hlt. injection E as <-. exact Hk.
Qed.
Print Assumptions C59_cell_asked_for_partial.
(* It is the cell asked for, for every site, exactly when the cells are numbered like in the file. *)
Theorem C59_cell_asked_for_exactly : forall ranks, let cells := global_cells ranks in
  (forall s, s < length cells -> exists c, nth_error cells s = Some c /\ ob_natural c = s) <-> map ob_natural cells = seq 0 (length cells).
Proof.
  intros ranks cells. split.
  - intros H. apply nth_ext with (d := 0) (d' := 0); rewrite map_length; [now rewrite seq_length|]. intros n Hn. rewrite seq_nth by exact Hn.
    destruct (H n Hn) as (c & E & Hc). apply nth_error_nth. rewrite nth_error_map, E. cbn. now rewrite Hc.
  - intros H s Hs. destruct (nth_error cells s) as [c|] eqn:E; [|apply nth_error_None in E; lia]. exists c. split; [reflexivity|].
    assert (K : nth_error (map ob_natural cells) s = Some (ob_natural c)) by now rewrite nth_error_map, E.
    rewrite H in K. rewrite (nth_error_nth' _ 0) in K by now rewrite seq_length. rewrite seq_nth in K by exact Hs. now injection K as <-.
Qed.
Print Assumptions C59_cell_asked_for_exactly.
(* Two processes, cells 0 and 2 on the first, cell 1 on the second: asking for cell 1 reports cell 2. *)
Definition two_ranks : list (list obs_cell) := [[ObsCell 0 0 0 0; ObsCell 2 2 0 0]; [ObsCell 1 1 0 0]]%R.
Theorem C59_cell_asked_for_refuted : exists st,
  observations two_ranks [1] 1 [(0, 0%R, [[10]; [12]; [11]]%R)] (Ret (obs_init None)) = Ret st /\
  os_rows st = Some [ObsRow 0 2 0 0 0 12]%R.
Proof. eexists. split; reflexivity. Qed.
Print Assumptions C59_cell_asked_for_refuted.
(* last_step is never updated: the call at the start of the next coupling interval writes the lines of the step again *)
Theorem C59_repeated_rows_refuted : exists st,
  observations [[ObsCell 0 0 0 0]]%R [0] 1 [(0, 0%R, [[10%R]]); (1, 1%R, [[11%R]]); (1, 1%R, [[11%R]]); (2, 2%R, [[12%R]])] (Ret (obs_init None)) = Ret st /\
  os_rows st = Some [ObsRow 0 0 0 0 0 10; ObsRow 1 0 0 0 0 11; ObsRow 1 0 0 0 0 11; ObsRow 2 0 0 0 0 12]%R.
Proof. eexists. split; reflexivity. Qed.
Print Assumptions C59_repeated_rows_refuted.
Example C59_example : let cells := global_cells two_ranks in let run := [(0, 0%R, [[10]; [12]; [11]]%R); (1, 1%R, [[20]; [22]; [21]]%R)] in
  (forall s, In s [2; 0] -> s < length cells) /\ (forall s t v, In (s, t, v) run -> length v = length cells) /\
  flat_map (call_rows cells [2; 0]) (filter (call_due 1) run) =
  [ObsRow 0 1 0 0 0 11; ObsRow 0 0 0 0 0 10; ObsRow 1 1 0 0 0 21; ObsRow 1 0 0 0 0 20]%R.
Proof.
  cbv zeta. split; [intros s [<-|[<-|[]]]; cbn; lia|]. split; [intros s t v [E|[E|[]]]; injection E as <- <- <-; reflexivity|reflexivity].
Qed.
