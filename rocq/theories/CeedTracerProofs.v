(** Lemmas for sediment on the libCEED back end (C81). *)
From Coq Require Import String FunctionalExtensionality.
From Verif Require Import Base RoeModel RoeProofs EdgeModel EdgeProofs HRModel HRProofs SourceModel AssemblyModel AssemblyProofs TracerModel TracerProofs TracerMeshProofs DecompModel DecompSpec DecompProofs DecompProperties
  TracerDecompModel TracerDecompSpec TracerDecompProofs
  MeshMapsProofs AMRProofs CeedLayoutModel CeedLayoutSpec CeedLayoutProofs CeedLayoutProperties CeedMusclProofs CeedHRModel CeedHRSpec CeedHRProofs CeedHRProperties
  CeedRunModel CeedRunSpec CeedRunProofs CeedRunProperties PetscRunModel PetscTracerModel PetscTracerSpec PetscTracerProofs PetscTracerProperties CeedTracerSpec.
Local Open Scope R_scope.
Local Notation length := List.length.

(** ** Edges traversed the other way *)
Lemma ceed_tracer_flux_reverse k tiny qL qR sn cn : 0 <= tiny -> tiny < depth qL -> tiny < depth qR ->
  ceed_tracer_flux k GRAVITY tiny qR qL (- sn) (- cn) = toneg (ceed_tracer_flux k GRAVITY tiny qL qR sn cn).
Proof.
  intros Ht HL HR. destruct (ceed_tracer_flux_wet k GRAVITY tiny qL qR sn cn GRAVITY_pos Ht HL HR) as (T & E & Hw & HT).
  destruct (ceed_tracer_flux_wet k GRAVITY tiny qR qL (- sn) (- cn) GRAVITY_pos Ht HR HL) as (T' & E' & Hw' & HT').
  rewrite E, E'. cbn [toneg]. rewrite amax_reverse. apply f_equal. apply f_equal2; [|reflexivity]. unfold tneg, tscal. cbn [tflow ttr].
  rewrite (pflux_reverse GRAVITY _ _ sn cn GRAVITY_pos Hw). apply f_equal. apply functional_extensionality. intros j. rewrite HT, HT', (ptr_reverse k _ _ _ _ _ _ _ GRAVITY_pos Hw). ring.
Qed.
Lemma one_sided_sym t a b : one_sided t a b = one_sided t b a.
Proof. unfold one_sided. apply Bool.xorb_comm. Qed.
Lemma not_one_sided t a b : one_sided t a b = false -> (t < a /\ t < b) \/ ((t <? a) = false /\ (t <? b) = false).
Proof.
  unfold one_sided. destruct (t <? a) eqn:A; destruct (t <? b) eqn:B; intros H; try discriminate H; [left|right; auto].
  apply Rltb_true in A, B. auto.
Qed.
Lemma ceed_tracer_edge_flip k tiny qL qR sn cn : 0 <= tiny -> one_sided tiny (depth qL) (depth qR) = false ->
  ceed_tracer_edge k GRAVITY tiny qR qL (- sn) (- cn) = toneg (ceed_tracer_edge k GRAVITY tiny qL qR sn cn).
Proof.
  intros Ht H. unfold ceed_tracer_edge. rewrite (Bool.orb_comm (tiny <? depth qR)). destruct (not_one_sided _ _ _ H) as [(A & B)|(A & B)].
  - assert (E : (tiny <? depth qL) = true) by (apply Rltb_true; exact A). rewrite E. cbn [orb]. apply ceed_tracer_flux_reverse; assumption.
  - rewrite A, B. cbn [orb toneg]. rewrite tneg_zero. reflexivity.
Qed.
Lemma ceed_tracer_hr_flip tiny ha zL zR qL qR sn cn : 0 < tiny -> one_sided tiny (hr_depth (depth qL) zL zR) (hr_depth (depth qR) zR zL) = false ->
  ceed_tracer_hr_edge GRAVITY tiny ha zR zL qR qL (- sn) (- cn) = toflip (ceed_tracer_hr_edge GRAVITY tiny ha zL zR qL qR sn cn).
Proof.
  intros Ht H. unfold ceed_tracer_hr_edge. rewrite (Bool.orb_comm (tiny <? depth qR)).
  set (rl := hr_depth (depth qL) zL zR) in *. set (rr := hr_depth (depth qR) zR zL) in *.
  destruct (hr_tracer_prim_some tiny ha rl qL Ht) as (PL & -> & EL & _). destruct (hr_tracer_prim_some tiny ha rr qR Ht) as (PR & -> & ER & _). cbn [obind]. cbv zeta.
  destruct ((tiny <? depth qL) || (tiny <? depth qR))%bool; [|cbn [toflip]; rewrite tneg_zero; reflexivity].
  rewrite (Bool.orb_comm (tiny <? rr)). destruct (not_one_sided _ _ _ H) as [(A & B)|(A & B)].
  - assert (E : (tiny <? rl) = true) by (apply Rltb_true; exact A). rewrite E. cbn [orb].
    rewrite (ceed_tracer_flux_reverse TRoe tiny (TV (V3 (ph (tp PL)) (ph (tp PL) * pu (tp PL)) (ph (tp PL) * pv (tp PL))) (fun j => ph (tp PL) * tci PL j))
      (TV (V3 (ph (tp PR)) (ph (tp PR) * pu (tp PR)) (ph (tp PR) * pv (tp PR))) (fun j => ph (tp PR) * tci PR j)) sn cn); [|lra|unfold depth; cbn [tflow c0]; rewrite EL; exact A|unfold depth; cbn [tflow c0]; rewrite ER; exact B].
    destruct (ceed_tracer_flux _ _ _ _ _ _ _) as [[F a]|]; cbn [toneg obind toflip]; [|reflexivity].
    apply f_equal. apply f_equal2; [|reflexivity]. apply f_equal2; apply tneg_corr; reflexivity.
  - rewrite A, B. cbn [orb obind toflip]. apply f_equal. apply f_equal2; [|reflexivity]. apply f_equal2; apply tneg_corr; symmetry; apply tneg_zero.
Qed.
Lemma dev_interior_flip w cf zL zR qL qR sn cn : 0 < cf_tiny_h cf ->
  dev_interior true w cf zR zL qR qL (- sn) (- cn) = toflip (dev_interior true w cf zL zR qL qR sn cn).
Proof.
  intros Ht. unfold dev_interior. destruct w as [|file]; cbn [andb].
  - rewrite (one_sided_sym _ (depth qR)). destruct (one_sided _ _ _) eqn:E; [reflexivity|]. rewrite ceed_tracer_edge_flip by (lra || exact E). apply toflip_both.
  - rewrite (one_sided_sym _ (hr_depth (depth qR) zR zL)). destruct (one_sided _ _ _) eqn:E; [reflexivity|]. apply ceed_tracer_hr_flip; assumption.
Qed.

(** ** States with finitely many tracers *)
Lemma tv_same nt q j : (j < nt)%nat -> same j q (tv (comps nt q)).
Proof.
  intros Hj. split; [destruct q as [[a b c] t]; reflexivity|]. cbn [tv ttr]. rewrite comps_nth by lia. reflexivity.
Qed.
Lemma comps_same nt a b : (0 < nt)%nat -> (forall j, (j < nt)%nat -> same j a b) -> comps nt a = comps nt b.
Proof.
  intros Hn H. unfold comps. rewrite (proj1 (H 0%nat Hn)). apply f_equal. apply map_ext_in. intros j Hj. apply in_seq in Hj. apply H. lia.
Qed.
Lemma all_same {A B} nt (P : nat -> A -> B -> Prop) x y a : (0 < nt)%nat -> x = Some a -> (forall j, (j < nt)%nat -> oimp (P j) x y) -> exists b, y = Some b /\ forall j, (j < nt)%nat -> P j a b.
Proof.
  intros Hn E H. destruct (H 0%nat Hn a E) as (b & Eb & _). exists b. split; [exact Eb|]. intros j Hj. destruct (H j Hj a E) as (b' & Eb' & Hb). congruence.
Qed.
Lemma edge_flux_comps nt k tiny qL qR sn cn f a : (0 < nt)%nat -> ceed_tracer_edge k GRAVITY tiny qL qR sn cn = Some (f, a) ->
  (let* p := ceed_tracer_edge k GRAVITY tiny (tv (comps nt qL)) (tv (comps nt qR)) sn cn in Some (comps nt (fst p), snd p)) = Some (comps nt f, a).
Proof.
  intros Hn E. destruct (all_same nt (fun j => krel2 (same j)) _ (ceed_tracer_edge k GRAVITY tiny (tv (comps nt qL)) (tv (comps nt qR)) sn cn) _ Hn E) as ([f' a'] & E' & H).
  { intros j Hj. apply ceed_tracer_edge_same; apply tv_same; exact Hj. }
  rewrite E', obind_Some. cbn [fst snd]. rewrite (comps_same nt f f' Hn) by (intros j Hj; apply (H j Hj)). destruct (H 0%nat Hn) as (_ & X). cbn in X. rewrite X. reflexivity.
Qed.
Lemma bedge_flux_comps nt k tiny b b' qL sn cn f a : (0 < nt)%nat -> (forall j, (j < nt)%nat -> same_bc j b b') -> ceed_tracer_bedge k GRAVITY tiny b qL sn cn = Some (f, a) ->
  (let* p := ceed_tracer_bedge k GRAVITY tiny b' (tv (comps nt qL)) sn cn in Some (comps nt (fst p), snd p)) = Some (comps nt f, a).
Proof.
  intros Hn Hb E. destruct (all_same nt (fun j => krel2 (same j)) _ (ceed_tracer_bedge k GRAVITY tiny b' (tv (comps nt qL)) sn cn) _ Hn E) as ([f' a'] & E' & H).
  { intros j Hj. apply ceed_tracer_bedge_same; [apply Hb; exact Hj|apply tv_same; exact Hj]. }
  rewrite E', obind_Some. cbn [fst snd]. rewrite (comps_same nt f f' Hn) by (intros j Hj; apply (H j Hj)). destruct (H 0%nat Hn) as (_ & X). cbn in X. rewrite X. reflexivity.
Qed.
Lemma hr_flux_comps nt tiny ha zL zR qL qR sn cn fl fr a : (0 < nt)%nat -> ceed_tracer_hr_edge GRAVITY tiny ha zL zR qL qR sn cn = Some (fl, fr, a) ->
  (let* p := ceed_tracer_hr_edge GRAVITY tiny ha zL zR (tv (comps nt qL)) (tv (comps nt qR)) sn cn in Some (comps nt (fst (fst p)), comps nt (snd (fst p)), snd p)) = Some (comps nt fl, comps nt fr, a).
Proof.
  intros Hn E. destruct (all_same nt (fun j => krel3 (same j)) _ (ceed_tracer_hr_edge GRAVITY tiny ha zL zR (tv (comps nt qL)) (tv (comps nt qR)) sn cn) _ Hn E) as ([[fl' fr'] a'] & E' & H).
  { intros j Hj. apply ceed_tracer_hr_edge_same; apply tv_same; exact Hj. }
  rewrite E', obind_Some. cbn [fst snd]. rewrite (comps_same nt fl fl' Hn) by (intros j Hj; apply (H j Hj)). rewrite (comps_same nt fr fr' Hn) by (intros j Hj; apply (H j Hj)).
  destruct (H 0%nat Hn) as (_ & _ & X). cbn in X. rewrite X. reflexivity.
Qed.
Lemma rhs_comps nt bed dt tiny n zx zy q F s f : (0 < nt)%nat -> ceed_tracer_rhs bed GRAVITY dt tiny n zx zy q F s = Some f ->
  (let* r := ceed_tracer_rhs bed GRAVITY dt tiny n zx zy (tv (comps nt q)) (tv (comps nt F)) (tv (comps nt s)) in Some (comps nt r)) = Some (comps nt f).
Proof.
  intros Hn E. destruct (all_same nt same _ (ceed_tracer_rhs bed GRAVITY dt tiny n zx zy (tv (comps nt q)) (tv (comps nt F)) (tv (comps nt s))) _ Hn E) as (f' & E' & H).
  { intros j Hj. apply ceed_tracer_rhs_same; apply tv_same; exact Hj. }
  rewrite E', obind_Some. rewrite (comps_same nt f f' Hn) by exact H. reflexivity.
Qed.

(** ** One process *)
Lemma device_comps cf : device_config cf -> num_comp cf = (3 + cf_classes cf)%nat /\ num_tracers cf = cf_classes cf /\ (0 < cf_classes cf)%nat /\ 0 < cf_tiny_h cf.
Proof. intros ((A & B & C & D & E) & _). unfold num_comp, num_tracers. rewrite B, C. repeat split; (lia || lra). Qed.

Section Process.
  Context (either : bool) (w : balancing) (cf : cconfig) (m : mesh) (bcs : bedge -> tbcond) (z : nat -> R) (g : cellgeom) (src : nat -> tvec) (p : cprocess) (C : device_config cf) (PO : dprocess_ok w cf m z g src p).
  Local Notation M := (cp_mesh p).
  Local Notation gid := (cp_gid p).
  Local Notation nt := (cf_classes cf).
  Lemma downed_is_prefix : exists k, owned_cells M = seq 0 k /\ (k <= cm_cells M)%nat.
  Proof.
    destruct (dp_order _ _ _ _ _ _ _ PO) as (k & H). exists (Nat.min (cm_cells M) k). split; [|lia].
    unfold owned_cells. rewrite (owned_prefix _ k) by (intros; apply H; lia). rewrite Nat.sub_0_r. reflexivity.
  Qed.
  Lemma downed_nth i c : nth_error (owned_cells M) i = Some c -> c = i /\ (c < cm_cells M)%nat.
  Proof.
    destruct downed_is_prefix as (k & E & L). rewrite E. intros H.
    assert (i < k)%nat. { rewrite <- (seq_length k 0). apply nth_error_Some. congruence. }
    rewrite nth_error_seq0 in H by lia. injection H as <-. lia.
  Qed.
  Lemma dl2o_id c : (c < cm_cells M)%nat -> cm_l2o M c = c.
  Proof.
    intros Hc. rewrite (dp_l2o _ _ _ _ _ _ _ PO) by exact Hc. apply ghosts_last_identity; [|cbn; apply in_seq; lia].
    destruct (dp_order _ _ _ _ _ _ _ PO) as (k & H). exists (cm_cells M), k. split; [reflexivity|exact H].
  Qed.
  Lemma dnumbered : numbered M.
  Proof. intros i c H. destruct (downed_nth i c H) as (-> & Hc). apply dl2o_id. exact Hc. Qed.

  Context (dt : R) (u : nat -> tvec) (f1 f2 : nat -> tvec) (ges : list iedge) (gbs : list bedge) (ul : list R).
  Local Notation s := (dev_scheme either w cf z g bcs).
  Hypothesis E1 : interior_loop tadd tscal everything (area m) (ts_interior s u) (iedges m) (fun _ => tzero) = Some f1.
  Hypothesis E2 : boundary_loop tadd tscal everything (area m) (ts_boundary s u) (bedges m) f1 = Some f2.
  Hypothesis Hes : Forall2 (seen either gid) (map (iedge_of M) (owned_internal M)) ges.
  Hypothesis Hbs : Forall2 (tbview gid bcs) (owned_tbedges nt p) gbs.
  Hypothesis Hgi : incl ges (iedges m).
  Hypothesis Hgb : incl gbs (bedges m).
  Hypothesis Lu : length ul = ((3 + nt) * cm_cells M)%nat.
  Hypothesis Vu : forall c, (c < cm_cells M)%nat -> block (3 + nt) ul c = comps nt (u (gid c)).

  Local Notation KG := (tkg (dev_scheme either w cf z g) bcs u).
  Local Notation KBG := (tkbg (dev_scheme either w cf z g) bcs u).
  (* the kernels on the edges of the process *)
  Definition dk (e : iedge) : option (tvec * tvec * R) :=
    dev_interior either w cf (z (gid (ie_l e))) (z (gid (ie_r e))) (u (gid (ie_l e))) (u (gid (ie_r e))) (ie_sn e) (ie_cn e).
  Definition dkb (eb : bedge * tbcond) : option (tvec * R) := dev_boundary cf (snd eb) (u (gid (be_c (fst eb)))) (be_sn (fst eb)) (be_cn (fst eb)).
  Definition dK (e : iedge) := match dk e with Some x => x | None => (tzero, tzero, 0) end.
  Definition dKB (eb : bedge * tbcond) := match dkb eb with Some x => x | None => (tzero, 0) end.

  Lemma dview_kernel flip e e' : (flip = true -> either = true) -> In e' (iedges m) -> eview gid flip e e' ->
    dk e = Some (dK e) /\
    forall k, (tcomp k (fst (fst (dK e))), tcomp k (snd (fst (dK e)))) =
      if flip then (- tcomp k (snd (fst (KG e'))), - tcomp k (fst (fst (KG e')))) else (tcomp k (fst (fst (KG e'))), tcomp k (snd (fst (KG e')))).
  Proof.
    intros Hf He' (Hlen & Hv). destruct (iloop_inv tadd tscal _ _ _ _ _ _ E1 e' He') as (([[fl fr] a] & Ek) & _).
    assert (Eg : KG e' = (fl, fr, a)) by (unfold tkg; rewrite Ek; reflexivity). cbn [dev_scheme ts_interior] in Ek.
    assert (T : 0 < cf_tiny_h cf) by apply (device_comps cf C).
    assert (Ed : dk e = if flip then Some (tneg fr, tneg fl, a) else Some (fl, fr, a)).
    { unfold dk. destruct flip; destruct Hv as (-> & -> & -> & ->); [|exact Ek]. rewrite (Hf eq_refl) in *. rewrite dev_interior_flip by exact T. rewrite Ek. reflexivity. }
    unfold dK. rewrite Ed. split; [destruct flip; reflexivity|]. intros k. rewrite Eg. destruct flip; cbn [fst snd]; [|reflexivity]. unfold tneg. rewrite !tcomp_scal. apply f_equal2; ring.
  Qed.
  Lemma dview_bkernel eb e' : In e' (bedges m) -> tbview gid bcs eb e' -> dkb eb = Some (dKB eb) /\ dKB eb = KBG e'.
  Proof.
    intros He' (A & B & D & E & F). destruct (bloop_inv tadd tscal _ _ _ _ _ E2 e' He') as ((k & Ek) & _).
    assert (Eg : KBG e' = k) by (unfold tkbg; rewrite Ek; reflexivity). cbn [dev_scheme ts_boundary] in Ek.
    unfold dKB, dkb. rewrite A, D, E, F, Ek. split; [reflexivity|]. symmetry. exact Eg.
  Qed.
  Lemma dedge_kernel e : In e (owned_internal M) -> dk (iedge_of M e) = Some (dK (iedge_of M e)).
  Proof.
    intros He. assert (Hin : In (iedge_of M e) (map (iedge_of M) (owned_internal M))) by (apply in_map; exact He).
    destruct (Forall2_in_l _ _ _ _ Hes Hin) as (e' & He' & flip & Hf & Hv). apply (dview_kernel flip _ e' Hf (Hgi e' He') Hv).
  Qed.
  Lemma dbedge_in b pe : In b (cp_bounds p) -> In pe (owned_boundary M b) -> In (tbedge_of nt M b pe) (owned_tbedges nt p).
  Proof. intros Hb Hpe. unfold owned_tbedges. apply in_flat_map. exists b. split; [exact Hb|]. apply in_map. exact Hpe. Qed.
  Lemma dbedge_kernel b pe : In b (cp_bounds p) -> In pe (owned_boundary M b) -> dkb (tbedge_of nt M b pe) = Some (dKB (tbedge_of nt M b pe)).
  Proof.
    intros Hb Hpe. destruct (Forall2_in_l _ _ _ _ Hbs (dbedge_in b pe Hb Hpe)) as (e' & He' & Hv). apply (dview_bkernel _ e' (Hgb e' He') Hv).
  Qed.

  Lemma dsupported : supported cf (cp_bounds p).
  Proof.
    destruct (device_comps cf C) as (_ & B & D & _). constructor; [intros X; lia|rewrite B; apply C|intros _; apply (dp_conditions _ _ _ _ _ _ _ PO)|intros _ b _ _; lia].
  Qed.
  Lemma dedge_inside e : In e (owned_internal M) -> (left_cell M e < cm_cells M)%nat /\ (right_cell M e < cm_cells M)%nat.
  Proof. intros He. apply owned_internal_in in He. destruct He as (A & B). destruct (mo_internal _ _ (dp_mesh _ _ _ _ _ _ _ PO) e A B) as ((X & _) & W & _). auto. Qed.
  Lemma dbedge_inside b pe : In b (cp_bounds p) -> owned_edge M b pe -> (left_cell M (snd pe) < cm_cells M)%nat.
  Proof. intros Hb (A & B). apply nth_error_In in A. destruct (mo_boundary _ _ (dp_mesh _ _ _ _ _ _ _ PO) b (snd pe) Hb A B) as (X & _). exact X. Qed.

  Lemma tcondition_same ty v j : (length v = 3 + nt)%nat -> (j < nt)%nat -> same_bc j (tcondition ty v) (tcondition ty v).
  Proof. intros _ _. destruct ty; cbn; auto. apply same_refl. Qed.

  Lemma dboundary_value b pe : In b (cp_bounds p) -> owned_edge M b pe ->
    bflux_at cf M (initial_eta M) ul b pe = Some (comps nt (fst (dKB (tbedge_of nt M b pe))), snd (dKB (tbedge_of nt M b pe))) /\
    (cb_type b = DIRICHLET -> edge_wet cf M ul b pe).
  Proof.
    intros Hb Ho. assert (Hc := dbedge_inside b pe Hb Ho). assert (A := dbedge_kernel b pe Hb (proj2 (owned_boundary_spec M b pe) Ho)).
    destruct (device_comps cf C) as (N & NT & Hn & T).
    unfold bflux_at, boundary_flux, edge_wet. rewrite NT, N. destruct (Nat.eqb_spec nt 0) as [X|_]; [lia|]. rewrite (Vu _ Hc). destruct (dKB (tbedge_of nt M b pe)) as [f a]. unfold dkb in A. cbn [tbedge_of fst snd be_c be_sn be_cn] in A.
    assert (NC := dp_conditions _ _ _ _ _ _ _ PO b Hb). unfold dev_boundary in A.
    cbn [fst snd]. rewrite (comps_nth nt _ 0) by lia. change (tcomp 0 ?q) with (depth q).
    destruct (cb_type b); cbn [tcondition] in A; [| |contradiction NC; reflexivity].
    - destruct (negb _) eqn:W; [discriminate A|]. split; [apply (bedge_flux_comps nt _ _ _ _ _ _ _ f a Hn) with (2 := A); intros j Hj; apply same_refl|].
      intros _. apply Bool.negb_false_iff in W. apply Bool.orb_true_iff in W. rewrite !Rltb_true, depth_tv in W. exact W.
    - split; [apply (bedge_flux_comps nt _ _ _ _ _ _ _ f a Hn) with (2 := A); intros j Hj; exact I|discriminate].
  Qed.

  Lemma dlocal_flux_value : exists x, local_flux w cf dt p ul = Some x /\ length x = ((3 + nt) * cm_cells M)%nat /\
    forall c k, (c < cm_cells M)%nat -> (k < 3 + nt)%nat -> nth (c * (3 + nt) + k) x 0 =
      hr_from_internal M (fun e => comps nt (fst (fst (dK (iedge_of M e))))) (fun e => comps nt (snd (fst (dK (iedge_of M e))))) c k
      + rsum (fun b => from_boundary M b (fun pe => comps nt (fst (dKB (tbedge_of nt M b pe)))) c k) (cp_bounds p).
  Proof.
    destruct (device_comps cf C) as (N & NT & Hn & T).
    assert (LE : length ul = (num_comp cf * cm_cells M)%nat) by (rewrite N; exact Lu).
    assert (HW : w = Standard \/ exists file, w = Hydrostatic file) by (destruct w; eauto).
    destruct HW as [W|(file & W)]; unfold local_flux; rewrite W.
    - assert (KE : forall e, In e (owned_internal M) -> exists f a, dK (iedge_of M e) = (f, f, a) /\
        ceed_tracer_edge (tkind (cf_riemann cf)) GRAVITY (cf_tiny_h cf) (u (gid (left_cell M e))) (u (gid (right_cell M e))) (cm_sn M e) (cm_cn M e) = Some (f, a)).
      { intros e He. assert (Ke := dedge_kernel e He). unfold dk, dev_interior in Ke. rewrite W in Ke. cbn [iedge_of ie_l ie_r ie_sn ie_cn] in Ke.
        destruct (_ && _)%bool; [discriminate Ke|]. unfold tboth in Ke. destruct (ceed_tracer_edge _ _ _ _ _ _ _) as [[f a]|]; [|discriminate Ke]. cbn in Ke. injection Ke as Ke. exists f, a. split; [symmetry; exact Ke|reflexivity]. }
      destruct (C67_flux cf M (initial_eta M) dt (cp_bounds p) ul (fun e => comps nt (fst (fst (dK (iedge_of M e))))) (fun e => snd (dK (iedge_of M e)))
        (fun b pe => comps nt (fst (dKB (tbedge_of nt M b pe)))) (fun b pe => snd (dKB (tbedge_of nt M b pe))) dsupported (dp_mesh _ _ _ _ _ _ _ PO) (dp_values _ _ _ _ _ _ _ PO)) as (x & E & L & V).
      + unfold initial_eta. rewrite map_length, seq_length. reflexivity.
      + exact LE.
      + intros e A B. assert (He : In e (owned_internal M)) by (unfold owned_internal; apply filter_In; split; assumption). destruct (dedge_inside e He) as (H1 & H2).
        destruct (KE e He) as (f & a & EK & EF). rewrite EK. unfold flux_at, interior_flux. rewrite NT, N, (Vu _ H1), (Vu _ H2). destruct (Nat.eqb_spec nt 0) as [X|_]; [lia|].
        apply edge_flux_comps; assumption.
      + intros b pe Hb Ho. apply dboundary_value; assumption.
      + intros b pe Hb Ho Hd _. apply dboundary_value; assumption.
      + exists x. rewrite N in L. split; [exact E|]. split; [exact L|]. intros c k Hc Hk. rewrite N in V. specialize (V c k Hc Hk). rewrite dl2o_id in V by exact Hc. rewrite V. f_equal.
        unfold from_internal, hr_from_internal. apply rsum_ext. intros e He. destruct (KE e He) as (f & a & -> & _). reflexivity.
    - destruct (dp_bed _ _ _ _ _ _ _ PO file W) as (CO & HB).
      destruct (C71_flux cf file (cp_hmesh p) dt (cp_bounds p) ul (fun e => comps nt (fst (fst (dK (iedge_of M e))))) (fun e => comps nt (snd (fst (dK (iedge_of M e))))) (fun e => snd (dK (iedge_of M e)))
        (fun b pe => comps nt (fst (dKB (tbedge_of nt M b pe)))) (fun b pe => snd (dKB (tbedge_of nt M b pe))) dsupported (dp_mesh _ _ _ _ _ _ _ PO) CO (dp_values _ _ _ _ _ _ _ PO)) as (x & E & L & V).
      + exact LE.
      + intros e A B. assert (He : In e (owned_internal M)) by (unfold owned_internal; apply filter_In; split; assumption). destruct (dedge_inside e He) as (H1 & H2).
        assert (Ke := dedge_kernel e He). unfold dk, dev_interior in Ke. rewrite W in Ke. cbn [iedge_of ie_l ie_r ie_sn ie_cn] in Ke. destruct (_ && _)%bool; [discriminate Ke|].
        destruct (dK (iedge_of M e)) as [[fl fr] a]. unfold hr_flux_at, hr_flux. fold M. rewrite NT, N, !HB, (Vu _ H1), (Vu _ H2) by assumption. destruct (Nat.eqb_spec nt 0) as [X|_]; [lia|].
        apply hr_flux_comps; assumption.
      + intros b pe Hb Ho. apply dboundary_value; assumption.
      + intros b pe Hb Ho Hd _. apply dboundary_value; assumption.
      + exists x. rewrite N in L. split; [exact E|]. split; [exact L|]. intros c k Hc Hk. fold M in V. rewrite N in V. specialize (V c k Hc Hk). rewrite dl2o_id in V by exact Hc. exact V.
  Qed.

  Definition tgc (k c : nat) (e : iedge) : R := ecoef everything (area m) e (tcomp k (fst (fst (KG e)))) (tcomp k (snd (fst (KG e)))) c.
  Definition tgbc (k c : nat) (e : bedge) : R := if Nat.eqb c (be_c e) then - be_len e / area m c * tcomp k (fst (KBG e)) else 0.

  (* everything a process adds for one cell of the whole mesh, in one component *)
  Lemma dflux_total x : (forall c k, (c < cm_cells M)%nat -> (k < 3 + nt)%nat -> nth (c * (3 + nt) + k) x 0 =
      hr_from_internal M (fun e => comps nt (fst (fst (dK (iedge_of M e))))) (fun e => comps nt (snd (fst (dK (iedge_of M e))))) c k
      + rsum (fun b => from_boundary M b (fun pe => comps nt (fst (dKB (tbedge_of nt M b pe)))) c k) (cp_bounds p)) ->
    forall k c, (k < 3 + nt)%nat ->
      rsum (fun l => if Nat.eqb (gid l) c then nth (l * (3 + nt) + k) x 0 else 0) (seq 0 (cm_cells M)) = rsum (tgc k c) ges + rsum (tgbc k c) gbs.
  Proof.
    intros V k c Hk. assert (HA := dp_area _ _ _ _ _ _ _ PO).
    rewrite (rsum_ext _ (fun l =>
      rsum (fun e => if Nat.eqb (gid l) c then (if Nat.eqb l (ie_l e) then - ie_len e / cm_area M (ie_l e) * tcomp k (fst (fst (dK e))) else 0)
                                                  + (if Nat.eqb l (ie_r e) then ie_len e / cm_area M (ie_r e) * tcomp k (snd (fst (dK e))) else 0) else 0) (map (iedge_of M) (owned_internal M))
      + rsum (fun eb => if Nat.eqb (gid l) c then if Nat.eqb l (be_c (fst eb)) then - be_len (fst eb) / cm_area M (be_c (fst eb)) * tcomp k (fst (dKB eb)) else 0 else 0) (owned_tbedges nt p))).
    2:{ intros l Hl. apply in_seq in Hl. destruct (Nat.eqb (gid l) c).
        - rewrite V by lia. f_equal.
          + unfold hr_from_internal. rewrite rsum_map. apply rsum_ext. intros e _. cbn [iedge_of ie_l ie_r ie_len]. rewrite !comps_nth by exact Hk.
            rewrite (Nat.eqb_sym (left_cell M e) l), (Nat.eqb_sym (right_cell M e) l).
            destruct (Nat.eqb_spec l (left_cell M e)) as [<-|]; destruct (Nat.eqb_spec l (right_cell M e)) as [<-|]; unfold Rdiv; ring.
          + unfold owned_tbedges. rewrite rsum_flat_map. apply rsum_ext. intros b _. unfold from_boundary. rewrite rsum_map. apply rsum_ext. intros pe _.
            cbn [tbedge_of fst be_c be_len]. rewrite comps_nth by exact Hk. rewrite (Nat.eqb_sym (left_cell M (snd pe)) l). destruct (Nat.eqb_spec l (left_cell M (snd pe))) as [<-|]; unfold Rdiv; ring.
        - rewrite !rsum_zero by (intros; reflexivity). ring. }
    rewrite rsum_plus. f_equal.
    - rewrite rsum_swap. eapply rsum_Forall2; [exact Hes|]. intros e e' (flip & Hf & Hv) He He'.
      destruct (dview_kernel flip e e' Hf (Hgi e' He') Hv) as (_ & Hp). specialize (Hp k).
      assert (Hin : (ie_l e < cm_cells M)%nat /\ (ie_r e < cm_cells M)%nat). { apply in_map_iff in He. destruct He as (x0 & <- & He). apply dedge_inside. exact He. }
      destruct Hin as (Hel & Her).
      rewrite (rsum_ext _ (fun l =>
          (if Nat.eqb (gid l) c then if Nat.eqb l (ie_l e) then - ie_len e / cm_area M (ie_l e) * tcomp k (fst (fst (dK e))) else 0 else 0) +
          (if Nat.eqb (gid l) c then if Nat.eqb l (ie_r e) then ie_len e / cm_area M (ie_r e) * tcomp k (snd (fst (dK e))) else 0 else 0))).
      2:{ intros l _. destruct (Nat.eqb (gid l) c); ring. }
      rewrite rsum_plus, !pick_gid by (apply seq_NoDup || (apply in_seq; lia)).
      rewrite !HA by lia.
      unfold tgc, ecoef, everything. destruct Hv as (-> & Hg).
      destruct flip; destruct Hg as (-> & -> & _); injection Hp as -> ->;
          rewrite (Nat.eqb_sym (ie_l e') c), (Nat.eqb_sym (ie_r e') c);
          destruct (Nat.eqb_spec c (ie_l e')) as [<-|]; destruct (Nat.eqb_spec c (ie_r e')) as [<-|]; unfold Rdiv; ring.
    - rewrite rsum_swap. eapply rsum_Forall2; [exact Hbs|]. intros eb e' Hv He He'.
      destruct (dview_bkernel eb e' (Hgb e' He') Hv) as (_ & ->).
      assert (Hc : (be_c (fst eb) < cm_cells M)%nat).
      { unfold owned_tbedges in He. apply in_flat_map in He. destruct He as (b & Hb & He). apply in_map_iff in He. destruct He as (pe & <- & He). cbn [tbedge_of fst be_c].
        apply (dbedge_inside b pe Hb). apply owned_boundary_spec. exact He. }
      rewrite pick_gid by (apply seq_NoDup || (apply in_seq; lia)).
      rewrite HA by lia. unfold tgbc. destruct Hv as (-> & -> & _). rewrite (Nat.eqb_sym (be_c e') c). destruct (Nat.eqb_spec c (be_c e')) as [<-|]; reflexivity.
  Qed.
End Process.

(** ** From local to global right-hand sides, any number of components *)
Section Assembly.
  Context (n : nat).
  Definition tentry (G : list (list R)) (q i k : nat) : R := nth (i * n + k) (nth q G []) 0.
  Definition tshape (L : list (list nat)) (G : list (list R)) : Prop := Forall2 (fun gs x => length x = (n * length gs)%nat) L G.
  Lemma tshape_upd L G q gs x : tshape L G -> nth_error L q = Some gs -> length x = (n * length gs)%nat -> forall G', upd G q x = Some G' -> tshape L G'.
  Proof.
    intros H. revert q. induction H as [|a b L G Hab H IH]; intros q Hq Hx G' HG; [destruct q; discriminate|].
    destruct q as [|q]; cbn in Hq, HG.
    - injection Hq as ->. injection HG as <-. constructor; assumption.
    - destruct (upd G q x) as [t|] eqn:E; cbn in HG; [|discriminate]. injection HG as <-. constructor; [exact Hab|]. eapply IH; eassumption.
  Qed.
  Lemma tadd_cell_ok L p f G c : tshape L G -> ((c + 1) * n <= length f)%nat ->
    (exists gs, nth_error L (fst (cp_sf p c)) = Some gs /\ (snd (cp_sf p c) < length gs)%nat) ->
    exists G', add_cell n p f G c = Some G' /\ tshape L G' /\
      forall q i k, (k < n)%nat -> tentry G' q i k = tentry G q i k + (if at_place (cp_sf p c) q i then nth (c * n + k) f 0 else 0).
  Proof.
    intros S Hf (gs & Hgs & Hi). unfold add_cell. rewrite fetch_block by lia. rewrite obind_Some.
    destruct (Forall2_get _ _ _ _ _ S Hgs) as (x & Ex & Lx). rewrite Ex, obind_Some.
    destruct (add_block n (block n f c) x (snd (cp_sf p c))) as (x' & E & L' & V); [apply block_length; lia|nia|]. rewrite E, obind_Some.
    assert (Hq : (fst (cp_sf p c) < length G)%nat) by (apply nth_error_Some; congruence).
    destruct (upd_some G (fst (cp_sf p c)) x' Hq) as (G' & EG). exists G'. split; [exact EG|]. split; [eapply tshape_upd; [exact S|exact Hgs|rewrite L'; exact Lx|exact EG]|].
    intros q i k Hk. unfold tentry, at_place. assert (U := upd_get _ _ _ _ q EG).
    destruct (Nat.eqb_spec (fst (cp_sf p c)) q) as [<-|Hne].
    - rewrite Nat.eqb_refl in U. rewrite (nth_error_nth _ _ _ U), (nth_error_nth _ _ _ Ex), V by exact Hk. cbn [andb]. f_equal.
      destruct (Nat.eqb _ _); [|reflexivity]. apply nth_block; exact Hk.
    - cbn [andb]. rewrite Rplus_0_r. destruct (Nat.eqb_spec q (fst (cp_sf p c))) as [->|_]; [contradiction|].
      f_equal. destruct (nth_error G q) as [y|] eqn:Y.
      + rewrite (nth_error_nth _ _ _ U), (nth_error_nth _ _ _ Y). reflexivity.
      + apply nth_error_None in U, Y. rewrite !nth_overflow by assumption. reflexivity.
  Qed.
  Lemma tadd_cells_ok L p f : forall cs G, tshape L G ->
    (forall c, In c cs -> ((c + 1) * n <= length f)%nat /\ exists gs, nth_error L (fst (cp_sf p c)) = Some gs /\ (snd (cp_sf p c) < length gs)%nat) ->
    exists G', ofold (add_cell n p f) cs G = Some G' /\ tshape L G' /\
      forall q i k, (k < n)%nat -> tentry G' q i k = tentry G q i k + rsum (fun c => if at_place (cp_sf p c) q i then nth (c * n + k) f 0 else 0) cs.
  Proof.
    induction cs as [|c cs IH]; intros G S H; cbn [ofold].
    - exists G. split; [reflexivity|]. split; [exact S|]. intros. cbn [rsum]. ring.
    - destruct (H c (or_introl eq_refl)) as (H1 & H2). destruct (tadd_cell_ok L p f G c S H1 H2) as (G1 & E & S1 & V1). rewrite E, obind_Some.
      destruct (IH G1 S1 (fun c Hc => H c (or_intror Hc))) as (G' & E' & S' & V'). exists G'. split; [exact E'|]. split; [exact S'|].
      intros q i k Hk. rewrite V', V1 by exact Hk. cbn [rsum]. ring.
  Qed.
  Lemma tlocal_to_global_ok L ps fs : 
    (forall p f, In (p, f) (combine ps fs) -> reaches L p /\ length f = (n * cm_cells (cp_mesh p))%nat) -> forall G, tshape L G ->
    exists G', dm_local_to_global_add n ps fs G = Some G' /\ tshape L G' /\
      forall q i k, (k < n)%nat -> tentry G' q i k = tentry G q i k +
        rsum (fun pf => rsum (fun c => if at_place (cp_sf (fst pf) c) q i then nth (c * n + k) (snd pf) 0 else 0) (seq 0 (cm_cells (cp_mesh (fst pf))))) (combine ps fs).
  Proof.
    intros H. unfold dm_local_to_global_add. induction (combine ps fs) as [|[p f] l IH]; intros G S; cbn [ofold].
    - exists G. split; [reflexivity|]. split; [exact S|]. intros. cbn [rsum]. ring.
    - destruct (H p f (or_introl eq_refl)) as (Hp & Hf). unfold add_process at 1. cbn [fst snd].
      destruct (tadd_cells_ok L p f (seq 0 (cm_cells (cp_mesh p))) G S) as (G1 & E & S1 & V1).
      { intros c Hc. apply in_seq in Hc. split; [nia|]. apply Hp. lia. }
      rewrite E, obind_Some. destruct (IH (fun p f Hpf => H p f (or_intror Hpf)) G1 S1) as (G' & E' & S' & V'). exists G'. split; [exact E'|]. split; [exact S'|].
      intros q i k Hk. rewrite V', V1 by exact Hk. cbn [rsum fst snd]. ring.
  Qed.
End Assembly.

Section RHS.
  Context (either : bool) (w : balancing) (cf : cconfig) (m : mesh) (bcs : bedge -> tbcond) (z : nat -> R) (g : cellgeom) (src : nat -> tvec) (C : device_config cf).
  Local Notation nt := (cf_classes cf).
  Local Notation s := (dev_scheme either w cf z g bcs).
  Local Notation mine k c p f := (rsum (fun l => if Nat.eqb (cp_gid p l) c then nth (l * (3 + nt) + k) f 0 else 0) (seq 0 (cm_cells (cp_mesh p)))).
  Local Notation GC := (tgc either w cf m bcs z g).
  Local Notation GB := (tgbc either w cf m bcs z g).

  Lemma dfluxes_ok dt u f1 f2 :
    interior_loop tadd tscal everything (area m) (ts_interior s u) (iedges m) (fun _ => tzero) = Some f1 ->
    boundary_loop tadd tscal everything (area m) (ts_boundary s u) (bedges m) f1 = Some f2 -> forall ps us ges gbs,
    (forall p, In p ps -> dprocess_ok w cf m z g src p) -> Forall2 (tlocal_ok nt u) ps us ->
    Forall2 (fun p es => Forall2 (seen either (cp_gid p)) (map (iedge_of (cp_mesh p)) (owned_internal (cp_mesh p))) es) ps ges -> incl (concat ges) (iedges m) ->
    Forall2 (fun p es => Forall2 (tbview (cp_gid p) bcs) (owned_tbedges nt p) es) ps gbs -> incl (concat gbs) (bedges m) ->
    exists fs, omap (fun pu => local_flux w cf dt (fst pu) (snd pu)) (combine ps us) = Some fs /\
      Forall2 (fun p f => length f = ((3 + nt) * cm_cells (cp_mesh p))%nat) ps fs /\
      forall k c, (k < 3 + nt)%nat -> rsum (fun pf => mine k c (fst pf) (snd pf)) (combine ps fs) = rsum (GC u k c) (concat ges) + rsum (GB u k c) (concat gbs).
  Proof.
    intros E1 E2. induction ps as [|p ps IH]; intros us ges gbs HP HU HG IG HB IB; inversion HU; inversion HG; inversion HB; subst.
    - exists []. split; [reflexivity|]. split; [constructor|]. intros. cbn [combine rsum concat]. ring.
    - rename y into x. rename y0 into es. rename y1 into bes. cbn [concat] in IG, IB. cbn [combine omap fst snd].
      match goal with H : tlocal_ok _ u p x |- _ => destruct H as (Lx & Vx) end.
      assert (PO := HP p (or_introl eq_refl)).
      assert (I1 : incl es (iedges m)) by (intros e He; apply IG; apply in_or_app; left; exact He).
      assert (I2 : incl bes (bedges m)) by (intros e He; apply IB; apply in_or_app; left; exact He).
      match goal with X : Forall2 (seen _ _) _ es, Y : Forall2 (tbview _ _) _ bes |- _ => rename X into O1; rename Y into O2 end.
      destruct (dlocal_flux_value either w cf m bcs z g src p C PO dt u f1 f2 es bes x E1 E2 O1 O2 I1 I2 Lx Vx) as (y & Ey & Ly & Vy).
      rewrite Ey, obind_Some.
      edestruct IH as (fs & Efs & Lfs & Vfs); [intros q Hq; apply HP; right; exact Hq|eassumption|eassumption|intros e He; apply IG; apply in_or_app; right; exact He|eassumption|intros e He; apply IB; apply in_or_app; right; exact He|].
      rewrite Efs, obind_Some. exists (y :: fs). split; [reflexivity|]. split; [constructor; assumption|]. intros k c Hk. cbn [combine rsum fst snd concat]. rewrite !rsum_app.
      rewrite (Vfs k c Hk). rewrite (dflux_total either w cf m bcs z g src p C PO u f1 f2 es bes x E1 E2 O1 O2 I1 I2 Lx y Vy k c Hk). ring.
  Qed.

  (* all fluxes added to the global vector *)
  Lemma ddivergence_holds ps fs f2 : dev_distributed either w cf m bcs z g src ps -> NoDup (cells m) -> Forall2 (fun p f => length f = ((3 + nt) * cm_cells (cp_mesh p))%nat) ps fs ->
    (forall k c, (k < 3 + nt)%nat -> rsum (fun pf => mine k c (fst pf) (snd pf)) (combine ps fs) = tcomp k (f2 c)) ->
    exists divs, dm_local_to_global_add (3 + nt) ps fs (map (fun p => repeat 0 ((3 + nt) * length (owned_cells (cp_mesh p)))) ps) = Some divs /\ tholds nt (layout ps) divs f2.
  Proof.
    intros D WF Lfs Vfs.
    set (G0 := map (fun p => repeat 0 ((3 + nt) * length (owned_cells (cp_mesh p)))) ps).
    assert (S0 : tshape (3 + nt) (layout ps) G0).
    { unfold tshape, layout, G0. clear. induction ps as [|p ps IH]; cbn [map]; constructor; [rewrite repeat_length, map_length; reflexivity|exact IH]. }
    assert (Z0 : forall q i k, tentry (3 + nt) G0 q i k = 0).
    { intros q i k. unfold tentry. destruct (nth_error G0 q) as [y|] eqn:Y.
      - rewrite (nth_error_nth _ _ _ Y). unfold G0 in Y. rewrite nth_error_map in Y. destruct (nth_error ps q); [|discriminate]. injection Y as <-. apply nth_repeat.
      - apply nth_error_None in Y. rewrite nth_overflow with (l := G0) by exact Y. destruct (i * (3 + nt) + k)%nat; reflexivity. }
    destruct (tlocal_to_global_ok (3 + nt) (layout ps) ps fs) with (G := G0) as (divs & Ed & Sd & Vd); [|exact S0|].
    { intros p y Hin. destruct (combine_In _ _ _ _ _ Lfs Hin) as (Ly & Hp). split; [|exact Ly].
      intros c Hc. destruct (dd_sf _ _ _ _ _ _ _ _ _ D p c Hp Hc) as (gs & A & B). exists gs. split; [exact A|]. apply nth_error_Some. congruence. }
    assert (ND : NoDup (concat (layout ps))) by (eapply Permutation_NoDup; [symmetry; exact (dd_cells _ _ _ _ _ _ _ _ _ D)|exact WF]).
    exists divs. split; [exact Ed|]. apply Forall2_nth; [exact (Forall2_len _ _ _ Sd)|]. intros q gs x Hq Hx. apply tpart_holds_entry.
    - destruct (Forall2_get _ _ _ _ _ Sd Hq) as (x' & Ex & Lx). assert (x' = x) by congruence. subst x'. exact Lx.
    - intros i c k Hi Hk. assert (X := Vd q i k Hk). rewrite Z0, Rplus_0_l in X. unfold tentry in X. rewrite (nth_error_nth _ _ _ Hx) in X. rewrite X.
      rewrite (rsum_ext _ (fun pf => mine k c (fst pf) (snd pf))).
      + exact (Vfs k c Hk).
      + intros [p y] Hin. destruct (combine_In _ _ _ _ _ Lfs Hin) as (_ & Hp). cbn [fst snd]. apply rsum_ext. intros l Hl. apply in_seq in Hl.
        destruct (dd_sf _ _ _ _ _ _ _ _ _ D p l Hp ltac:(lia)) as (gs' & A & B).
        assert (Eq : at_place (cp_sf p l) q i = Nat.eqb (cp_gid p l) c); [|rewrite Eq; reflexivity].
        unfold at_place. destruct (Nat.eqb_spec (cp_gid p l) c) as [Hc|Hc].
        * rewrite Hc in B. destruct (nodup_positions _ ND _ _ _ _ _ _ _ A B Hq Hi) as (-> & ->). rewrite !Nat.eqb_refl. reflexivity.
        * destruct (Nat.eqb_spec (fst (cp_sf p l)) q) as [Eq1|]; [|reflexivity]. destruct (Nat.eqb_spec (snd (cp_sf p l)) i) as [Eq2|]; [|reflexivity].
          exfalso. apply Hc. rewrite Eq1 in A. rewrite Eq2 in B. congruence.
  Qed.

  (* the sources of every process *)
  Lemma dsources_hold dt ps us divs u f2 f : NoDup (cells m) -> dev_distributed either w cf m bcs z g src ps -> Forall2 (tlocal_ok nt u) ps us -> tholds nt (layout ps) divs f2 ->
    source_loop (ts_source s dt u src) (cells m) f2 = Some f ->
    exists U', omap (fun x => local_source w cf dt (fst (fst x)) (snd (fst x)) (snd x)) (combine (combine ps us) divs) = Some U' /\ tholds nt (layout ps) U' f.
  Proof.
    intros WF D Fus HD E3. destruct (device_comps cf C) as (N & NT & Hn & T).
    assert (SO : forall p x d, In p ps -> tlocal_ok nt u p x -> tpart_holds nt f2 (map (cp_gid p) (owned_cells (cp_mesh p))) d ->
      exists y, local_source w cf dt p x d = Some y /\ tpart_holds nt f (map (cp_gid p) (owned_cells (cp_mesh p))) y).
    { intros p x d Hp (Lx & Vx) (Ld & Vd'). assert (PO := dd_processes _ _ _ _ _ _ _ _ _ D p Hp). rewrite map_length in Ld.
      assert (Hsrc : forall i c, nth_error (owned_cells (cp_mesh p)) i = Some c ->
        ts_source s dt u src (cp_gid p c) (f2 (cp_gid p c)) = Some (f (cp_gid p c))).
      { intros i c Hi. apply (source_loop_val _ _ WF _ _ E3). apply (dp_cells _ _ _ _ _ _ _ PO).
        destruct (downed_nth w cf m z g src p PO i c Hi). lia. }
      assert (Hup : forall i c, nth_error (owned_cells (cp_mesh p)) i = Some c -> forall zx zy,
        ceed_tracer_rhs true GRAVITY dt (cf_tiny_h cf) (manning g (cp_gid p c)) zx zy (u (cp_gid p c)) (f2 (cp_gid p c)) (src (cp_gid p c)) = Some (f (cp_gid p c)) ->
        source_update cf dt (nth i (cp_mat p) 0) zx zy (block (num_comp cf) x c) (block (num_comp cf) d i) (block (num_comp cf) (cp_ext p) i)
        = Some (comps nt (f (cp_gid p (nth i (owned_cells (cp_mesh p)) 0%nat))))).
      { intros i c Hi zx zy Hc. destruct (downed_nth w cf m z g src p PO i c Hi) as (_ & Hc').
        unfold source_update. rewrite NT, N. destruct (Nat.eqb_spec nt 0) as [X|_]; [lia|]. rewrite (nth_error_nth _ _ _ Hi), (Vx c Hc'), (dp_ext _ _ _ _ _ _ _ PO i c Hi), (dp_mat _ _ _ _ _ _ _ PO i c Hi).
        rewrite (Vd' i (cp_gid p c)) by (rewrite nth_error_map, Hi; reflexivity).
        destruct C as ((_ & _ & _ & SI & _) & _). rewrite SI. apply rhs_comps; assumption. }
      assert (HX : length (cp_ext p) = (num_comp cf * length (owned_cells (cp_mesh p)))%nat) by (rewrite N; exact (dp_ext_length _ _ _ _ _ _ _ PO)).
      assert (HU' : length x = (num_comp cf * cm_cells (cp_mesh p))%nat) by (rewrite N; exact Lx).
      assert (HD' : length d = (num_comp cf * length (owned_cells (cp_mesh p)))%nat) by (rewrite N; exact Ld).
      assert (HT : (num_tracers cf <= MAX_NUM_SEDIMENT_CLASSES)%nat) by (rewrite NT; apply C).
      assert (HQ : num_tracers cf <> 0%nat -> cf_source cf <> SOURCE_IMPLICIT_XQ2018) by (intros _; destruct C as ((_ & _ & _ & SI & _) & _); rewrite SI; discriminate).
      assert (Ht : 0 <= cf_tiny_h cf) by lra.
      assert (NB := dnumbered w cf m z g src p PO).
      set (S := fun i => comps nt (f (cp_gid p (nth i (owned_cells (cp_mesh p)) 0%nat)))).
      assert (R0 : exists y, local_source w cf dt p x d = Some y /\ length y = (num_comp cf * length (owned_cells (cp_mesh p)))%nat /\
         forall i, (i < length (owned_cells (cp_mesh p)))%nat -> block (num_comp cf) y i = S i).
      { assert (HW : w = Standard \/ exists file, w = Hydrostatic file) by (destruct w; eauto).
        destruct HW as [W|(file & W)]; unfold local_source; rewrite W.
        - apply (C68_sources cf (cp_mesh p) (cp_ext p) (cp_mat p) d dt x S HT HQ Ht HX (dp_mat_length _ _ _ _ _ _ _ PO) HD' HU' NB).
          intros i c Hi. apply Hup; [exact Hi|]. destruct (downed_nth w cf m z g src p PO i c Hi) as (_ & Hc'). destruct (dp_slope _ _ _ _ _ _ _ PO W c Hc') as (-> & ->).
          rewrite <- (Hsrc i c Hi). cbn [dev_scheme ts_source]. rewrite W. reflexivity.
        - apply (C71_sources cf (cp_mesh p) (cp_ext p) (cp_mat p) d dt x S HT HQ Ht HX (dp_mat_length _ _ _ _ _ _ _ PO) HD' HU' NB).
          intros i c Hi. apply Hup; [exact Hi|]. rewrite <- (Hsrc i c Hi). cbn [dev_scheme ts_source]. rewrite W. cbn [includes_slope].
          rewrite ceed_tracer_rhs_flat. reflexivity. }
      destruct R0 as (y & Ey & Ly & Vy). exists y. split; [exact Ey|]. rewrite N in Ly, Vy. split; [rewrite map_length; exact Ly|].
      intros i c Hi. rewrite nth_error_map in Hi. destruct (nth_error (owned_cells (cp_mesh p)) i) as [l|] eqn:El; [|discriminate]. injection Hi as <-.
      rewrite Vy by (apply nth_error_Some; congruence). unfold S. rewrite (nth_error_nth _ _ _ El). reflexivity. }
    clear - SO HD Fus. unfold tholds, layout in *. revert us divs HD Fus SO. induction ps as [|p ps IH]; intros us divs HD Fus SO; cbn [map] in HD; inversion HD; inversion Fus; subst.
    - exists []. split; [reflexivity|constructor].
    - cbn [combine omap fst snd].
      match goal with X : tpart_holds _ f2 _ ?d, Y : tlocal_ok _ u p ?x |- _ => destruct (SO p x d (or_introl eq_refl) Y X) as (y1 & Ey & Hy) end.
      rewrite Ey, obind_Some. edestruct IH as (ys & Eys & Hys); [eassumption|eassumption|intros q x0 d0 Hq; apply SO; right; exact Hq|].
      rewrite Eys, obind_Some. exists (y1 :: ys). split; [reflexivity|]. cbn [map]. constructor; assumption.
  Qed.
End RHS.

(** ** Steps *)
Lemma tvec_step_ok i nt L F G dt U u u' :
  (forall U u f, tholds nt L U u -> G u = Some f -> exists U', F U = Some U' /\ tholds nt L U' f) ->
  tholds nt L U u -> tts_step i G dt u = Some u' -> exists U', vec_step i F dt U = Some U' /\ tholds nt L U' u'.
Proof.
  intros HF HU H. destruct i; cbn [tts_step vec_step] in *; unfold teuler_step, trk4_step, vec_euler, vec_rk4 in *.
  - apply obind_some in H. destruct H as (k & Ek & H). injection H as <-. destruct (HF U u k HU Ek) as (K & EK & HK). rewrite EK, obind_Some.
    eexists. split; [reflexivity|]. apply waxpy_tholds; assumption.
  - apply obind_some in H. destruct H as (k1 & Ek1 & H). apply obind_some in H. destruct H as (k2 & Ek2 & H).
    apply obind_some in H. destruct H as (k3 & Ek3 & H). apply obind_some in H. destruct H as (k4 & Ek4 & H). injection H as <-.
    destruct (HF _ _ _ HU Ek1) as (K1 & EK1 & HK1). rewrite EK1, obind_Some.
    destruct (HF _ _ _ (waxpy_tholds _ _ _ _ _ _ (dt / 2) HU HK1) Ek2) as (K2 & EK2 & HK2). rewrite EK2, obind_Some.
    destruct (HF _ _ _ (waxpy_tholds _ _ _ _ _ _ (dt / 2) HU HK2) Ek3) as (K3 & EK3 & HK3). rewrite EK3, obind_Some.
    destruct (HF _ _ _ (waxpy_tholds _ _ _ _ _ _ dt HU HK3) Ek4) as (K4 & EK4 & HK4). rewrite EK4, obind_Some.
    eexists. split; [reflexivity|]. repeat (first [assumption|apply waxpy_tholds]).
Qed.

(** ** The kernels of the code *)
Lemma iloop_mono owned ar k1 k2 : forall l f f', (forall e x, In e l -> k1 e = Some x -> k2 e = Some x) ->
  interior_loop tadd tscal owned ar k1 l f = Some f' -> interior_loop tadd tscal owned ar k2 l f = Some f'.
Proof.
  unfold interior_loop. induction l as [|e l IH]; intros f f' H E; cbn [ofold] in *; [exact E|]. apply obind_some in E. destruct E as (f1 & E1 & E).
  assert (E2 : edge_update tadd tscal owned ar k2 f e = Some f1).
  { unfold edge_update in *. apply obind_some in E1. destruct E1 as (x & Ex & E1). rewrite (H e x (or_introl eq_refl) Ex). exact E1. }
  rewrite E2, obind_Some. apply IH; [intros; apply H; [right|]; assumption|exact E].
Qed.
Lemma bloop_mono owned ar k1 k2 : forall l f f', (forall e x, In e l -> k1 e = Some x -> k2 e = Some x) ->
  boundary_loop tadd tscal owned ar k1 l f = Some f' -> boundary_loop tadd tscal owned ar k2 l f = Some f'.
Proof.
  unfold boundary_loop. induction l as [|e l IH]; intros f f' H E; cbn [ofold] in *; [exact E|]. apply obind_some in E. destruct E as (f1 & E1 & E).
  assert (E2 : bedge_update tadd tscal owned ar k2 f e = Some f1).
  { unfold bedge_update in *. destruct (owned (be_c e)); [|exact E1]. apply obind_some in E1. destruct E1 as (x & Ex & E1). rewrite (H e x (or_introl eq_refl) Ex). exact E1. }
  rewrite E2, obind_Some. apply IH; [intros; apply H; [right|]; assumption|exact E].
Qed.
Lemma trhs_mono s1 s2 m dt src u f :
  (forall e x, In e (iedges m) -> ts_interior s1 u e = Some x -> ts_interior s2 u e = Some x) ->
  (forall e x, In e (bedges m) -> ts_boundary s1 u e = Some x -> ts_boundary s2 u e = Some x) ->
  (forall c F, ts_source s1 dt u src c F = ts_source s2 dt u src c F) ->
  trhs s1 m dt src u = Some f -> trhs s2 m dt src u = Some f.
Proof.
  intros HI HB HS E. unfold trhs, tdivergence in *. apply obind_some in E. destruct E as (f2 & E & E3). apply obind_some in E. destruct E as (f1 & E1 & E2).
  rewrite (iloop_mono _ _ _ _ _ _ _ HI E1), obind_Some, (bloop_mono _ _ _ _ _ _ _ HB E2), obind_Some. rewrite <- E3. unfold source_loop. apply ofold_ext. intros f0 c. unfold cell_update. rewrite HS. reflexivity.
Qed.
Lemma tts_mono i F G dt u u' : (forall v f, F v = Some f -> G v = Some f) -> tts_step i F dt u = Some u' -> tts_step i G dt u = Some u'.
Proof.
  intros H E. destruct i; cbn [tts_step] in *; unfold teuler_step, trk4_step in *.
  - apply obind_some in E. destruct E as (k & Ek & E). rewrite (H _ _ Ek). exact E.
  - apply obind_some in E. destruct E as (k1 & E1 & E). apply obind_some in E. destruct E as (k2 & E2 & E). apply obind_some in E. destruct E as (k3 & E3 & E). apply obind_some in E. destruct E as (k4 & E4 & E).
    rewrite (H _ _ E1). cbn [obind]. rewrite (H _ _ E2). cbn [obind]. rewrite (H _ _ E3). cbn [obind]. rewrite (H _ _ E4). cbn [obind]. exact E.
Qed.

(** ** When the fluxes are defined *)
Lemma ceed_tracer_flux_defined k tiny qL qR sn cn : 0 < tiny -> 0 <= depth qL -> 0 <= depth qR -> tiny < depth qL \/ tiny < depth qR -> (tiny < depth qL -> 0 < depth qR) ->
  exists F a, ceed_tracer_flux k GRAVITY tiny qL qR sn cn = Some (F, a).
Proof.
  intros Ht H1 H2 HW HP. unfold ceed_tracer_flux.
  assert (SD : forall x h, exists y, SafeDiv x h h tiny = Some y).
  { intros x h. unfold SafeDiv. destruct (tiny <? h) eqn:E; [|eauto]. apply Rltb_true in E. rewrite rdiv_some by lra. eauto. }
  assert (EL : exists P, ceed_tracer_left tiny qL = Some P /\ ph (tp P) = depth qL).
  { unfold ceed_tracer_left. destruct (SD (c1 (tflow qL)) (depth qL)) as (a & ->). destruct (SD (c2 (tflow qL)) (depth qL)) as (b & ->). cbn [obind].
    destruct (tiny <? depth qL) eqn:E; [apply Rltb_true in E; rewrite rdivs_some by lra|]; cbn [obind]; eexists; split; reflexivity. }
  assert (ER : exists P, ceed_tracer_right tiny (depth qL) qR = Some P /\ ph (tp P) = depth qR).
  { unfold ceed_tracer_right. destruct (SD (c1 (tflow qR)) (depth qR)) as (a & ->). destruct (SD (c2 (tflow qR)) (depth qR)) as (b & ->).
    destruct (tiny <? depth qL) eqn:E; [apply Rltb_true in E; specialize (HP E); rewrite rdivs_some by lra|]; cbn [obind]; eexists; split; reflexivity. }
  destruct EL as (P & -> & EP). destruct ER as (Q & -> & EQ). cbn [obind].
  assert (Hw : wetpair (tp P) (tp Q)) by (unfold wetpair; rewrite EP, EQ; lra).
  rewrite ceed_eigenspectrum_some by (apply GRAVITY_pos || exact Hw). cbn [obind]. destruct (tracer_flux_some k GRAVITY P Q sn cn Hw) as (T & -> & _). eauto.
Qed.
Lemma ceed_tracer_rhs_defined b dt tiny n zx zy q F s : 0 < tiny -> 0 <= dt -> exists r, ceed_tracer_rhs b GRAVITY dt tiny n zx zy q F s = Some r.
Proof.
  intros Ht Hd. unfold ceed_tracer_rhs. destruct (tiny <? depth q) eqn:E; [|cbn [obind]; eauto]. apply Rltb_true in E.
  unfold SafeDiv. assert (E' : (tiny <? depth q) = true) by (apply Rltb_true; exact E). rewrite E', !rdiv_some by lra. cbn [obind].
  unfold rpowneg. destruct (Rlt_dec 0 (depth q)) as [_|X]; [|lra]. cbn [obind]. rewrite rsqrt_some by (match goal with |- 0 <= ?a * ?a + ?b * ?b => nra end). cbn [obind]. rewrite rdiv_some by lra. cbn [obind].
  match goal with |- context [rdiv (?c / ?h) (1 + dt * (?c / ?h))] => set (tb := c / h) end.
  assert (0 <= tb). { unfold tb. apply Rmult_le_pos; [|left; apply Rinv_0_lt_compat; lra]. apply Rmult_le_pos; [|apply sqrt_pos]. apply Rmult_le_pos; [apply Rmult_le_pos; [apply Rlt_le, GRAVITY_pos|nra]|]. apply Rlt_le. apply exp_pos. }
  rewrite rdiv_some by nra. cbn [obind]. rewrite rdivs_some by lra. cbn [obind]. eauto.
Qed.
