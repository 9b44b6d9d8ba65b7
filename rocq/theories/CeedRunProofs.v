(** Lemmas for runs on flat arrays (C72). *)
From Coq Require Import String.
From Verif Require Import Base RoeModel RoeProofs EdgeModel EdgeProofs HRModel EtaModel SourceModel TracerModel AssemblyModel AssemblyProofs DecompModel DecompSpec DecompProofs DecompProperties
  MeshMapsProofs AMRProofs CeedLayoutModel CeedLayoutSpec CeedLayoutProofs CeedLayoutProperties CeedMusclProofs CeedHRModel CeedHRSpec CeedHRProofs CeedHRProperties CeedRunModel CeedRunSpec.
Local Open Scope R_scope.
Local Notation length := List.length.

Lemma num_comp_flow cf : flow_config cf -> num_comp cf = 3%nat.
Proof. intros (H & _). unfold num_comp. rewrite H. reflexivity. Qed.
Lemma v3_comps3 v : v3 (comps3 v) = v.
Proof. destruct v; reflexivity. Qed.
Lemma comps3_of l : length l = 3%nat -> comps3 (v3 l) = l.
Proof. destruct l as [|a [|b [|c [|d l]]]]; try discriminate. reflexivity. Qed.

(* one component of a state *)
Definition component (k : nat) (v : vec3) : R := nth k (comps3 v) 0.
Lemma component_add k a b : component k (vadd a b) = component k a + component k b.
Proof. unfold component. do 3 (destruct k as [|k]; [reflexivity|]). cbn. destruct k; ring. Qed.
Lemma component_scal k a b : component k (vscal a b) = a * component k b.
Proof. unfold component. do 3 (destruct k as [|k]; [reflexivity|]). cbn. destruct k; ring. Qed.
Lemma component_zero k : component k vzero = 0.
Proof. unfold component. do 3 (destruct k as [|k]; [reflexivity|]). cbn. destruct k; reflexivity. Qed.
Lemma rsum_flat_map {A B} (h : B -> R) (F : A -> list B) l : rsum h (flat_map F l) = rsum (fun a => rsum h (F a)) l.
Proof. induction l as [|a l IH]; cbn [flat_map rsum]; [reflexivity|]. rewrite rsum_app, IH. reflexivity. Qed.

(** ** From the global to the local solution *)
Lemma concat_length_const {A} n (rows : list (list A)) : (forall r, In r rows -> length r = n) -> length (concat rows) = (n * length rows)%nat.
Proof. induction rows as [|r rows IH]; intros H; cbn [concat length]; [lia|]. rewrite app_length, (H r (or_introl eq_refl)), IH by (intros; apply H; right; assumption). lia. Qed.

Lemma global_to_local_ok w cf m z g src ps U u p : distributed w cf m z g src ps -> holds (layout ps) U u -> In p ps ->
  exists x, dm_global_to_local 3 U p = Some x /\ length x = (3 * cm_cells (cp_mesh p))%nat /\
    forall c, (c < cm_cells (cp_mesh p))%nat -> block 3 x c = comps3 (u (cp_gid p c)).
Proof.
  intros D H Hp. unfold dm_global_to_local.
  rewrite (omap_map _ (fun c => comps3 (u (cp_gid p c)))).
  - rewrite obind_Some. eexists. split; [reflexivity|]. split.
    + rewrite (concat_length_const 3); [rewrite map_length, seq_length; reflexivity|]. intros r Hr. apply in_map_iff in Hr. destruct Hr as (c & <- & _). reflexivity.
    + intros c Hc.
      assert (F := fetch_concat 3 (fun c => comps3 (u (cp_gid p c))) (seq 0 (cm_cells (cp_mesh p))) c c (fun _ => eq_refl) (nth_error_seq0 _ _ Hc)).
      rewrite fetch_block in F; [injection F as F; exact F|].
      rewrite (concat_length_const 3); [rewrite map_length, seq_length; lia|]. intros r Hr. apply in_map_iff in Hr. destruct Hr as (c' & <- & _). reflexivity.
  - intros c Hc. apply in_seq in Hc. destruct (di_sf _ _ _ _ _ _ _ D p c Hp ltac:(lia)) as (gs & E1 & E2).
    destruct (Forall2_get _ _ _ _ _ H E1) as (x & Ex & Lx & Vx). rewrite Ex, obind_Some.
    assert ((snd (cp_sf p c) < length gs)%nat) by (apply nth_error_Some; congruence).
    rewrite fetch_block by lia. rewrite (Vx _ _ E2). reflexivity.
Qed.

(** ** Local numbering *)
Lemma owned_prefix (o : nat -> bool) k : forall n a, (forall c, (a <= c < a + n)%nat -> o c = Nat.ltb c k) ->
  filter o (seq a n) = seq a (Nat.min n (k - a)).
Proof.
  induction n as [|n IH]; intros a H; [reflexivity|]. cbn [seq filter]. rewrite H by lia. rewrite IH by (intros; apply H; lia).
  destruct (Nat.ltb_spec a k); [replace (Nat.min (S n) (k - a)) with (S (Nat.min n (k - S a))) by lia; reflexivity|].
  replace (Nat.min (S n) (k - a)) with 0%nat by lia. replace (Nat.min n (k - S a)) with 0%nat by lia. reflexivity.
Qed.
(* any scheme on the whole mesh and its view from a process *)
Section Total.
  Context (s sl : scheme) (m : mesh) (p : cprocess) (HV : scheme_view (rk_gid (rank_of p)) s sl) (Num : numbering_ok m (rank_of p))
          (HA : forall c, (c < cm_cells (cp_mesh p))%nat -> cm_area (cp_mesh p) c = area m (cp_gid p c)).
  Local Notation M := (cp_mesh p).
  Context (u : nat -> vec3) (f1 f2 : nat -> vec3) (ges : list iedge) (gbs : list bedge).
  Hypothesis E1 : interior_loop vadd vscal everything (area m) (s_interior s u) (iedges m) zero_field = Some f1.
  Hypothesis E2 : boundary_loop vadd vscal everything (area m) (s_boundary s u) (bedges m) f1 = Some f2.
  Hypothesis Hes : owned_edges_are (rank_of p) ges.
  Hypothesis Hbs : owned_bedges_are (rank_of p) gbs.
  Hypothesis Hgi : incl ges (iedges m).
  Hypothesis Hgb : incl gbs (bedges m).
  Local Notation vl := (to_local (rank_of p) u).
  Local Notation K := (kl sl (rank_of p) u).
  Local Notation KB := (kbl sl (rank_of p) u).

  Lemma rank_owned_edges : filter (rk_iowned (rank_of p)) (rk_iedges (rank_of p)) = map (iedge_of M) (owned_internal M).
  Proof. cbn [rank_of rk_iowned rk_iedges]. induction (map (iedge_of M) (owned_internal M)) as [|a l IH]; cbn; [reflexivity|congruence]. Qed.
  Lemma rank_owned_bedges : filter (rk_bowned (rank_of p)) (rk_bedges (rank_of p)) = rk_bedges (rank_of p).
  Proof. cbn [rank_of rk_bowned rk_bedges]. induction (flat_map _ _) as [|a l IH]; cbn; [reflexivity|congruence]. Qed.

  Lemma view_edge_kernel e : In e (owned_internal M) -> s_interior sl vl (iedge_of M e) = Some (K (iedge_of M e)).
  Proof.
    intros He. assert (Hin : In (iedge_of M e) (map (iedge_of M) (owned_internal M))) by (apply in_map; exact He).
    unfold owned_edges_are in Hes. rewrite rank_owned_edges in Hes. destruct (Forall2_in_l _ _ _ _ Hes Hin) as (e' & He' & flip & Hv).
    destruct (view_kernel s sl m (rank_of p) u u HV Num (fun _ _ => eq_refl) flip _ e' f1 E1 Hin (Hgi e' He') Hv) as (A & _). exact A.
  Qed.
  Lemma view_bedge_kernel b pe : In b (cp_bounds p) -> In pe (owned_boundary M b) -> s_boundary sl vl (bedge_of M b pe) = Some (KB (bedge_of M b pe)).
  Proof.
    intros Hb Hpe. assert (Hin : In (bedge_of M b pe) (rk_bedges (rank_of p))). { cbn [rank_of rk_bedges]. apply in_flat_map. exists b. split; [exact Hb|]. apply in_map. exact Hpe. }
    unfold owned_bedges_are in Hbs. rewrite rank_owned_bedges in Hbs. destruct (Forall2_in_l _ _ _ _ Hbs Hin) as (e' & He' & Hv).
    destruct (view_bkernel s sl m (rank_of p) u u HV Num (fun _ _ => eq_refl) _ e' f1 f2 E2 Hin (Hgb e' He') Hv) as (A & _). exact A.
  Qed.

  Local Notation GC := (gcontrib s m u).
  Local Notation GB := (gbcontrib s m u).
  (* everything a process adds for one cell of the whole mesh, in one component *)
  Lemma flux_total x : (forall c k, (c < cm_cells M)%nat -> (k < 3)%nat -> nth (c * 3 + k) x 0 =
      hr_from_internal M (fun e => comps3 (fst (fst (K (iedge_of M e))))) (fun e => comps3 (snd (fst (K (iedge_of M e))))) c k
      + rsum (fun b => from_boundary M b (fun pe => comps3 (fst (KB (bedge_of M b pe)))) c k) (cp_bounds p)) ->
    forall k c, (k < 3)%nat ->
      rsum (fun l => if Nat.eqb (cp_gid p l) c then nth (l * 3 + k) x 0 else 0) (seq 0 (cm_cells M)) = rsum (GC (component k) c) ges + rsum (GB (component k) c) gbs.
  Proof.
    intros V k c Hk. set (q := component k). assert (Qs := component_scal k).
    rewrite (rsum_ext _ (fun l =>
      rsum (fun e => if Nat.eqb (cp_gid p l) c then (if Nat.eqb l (ie_l e) then - ie_len e / cm_area M (ie_l e) * q (fst (fst (K e))) else 0)
                                                  + (if Nat.eqb l (ie_r e) then ie_len e / cm_area M (ie_r e) * q (snd (fst (K e))) else 0) else 0) (map (iedge_of M) (owned_internal M))
      + rsum (fun e => if Nat.eqb (cp_gid p l) c then if Nat.eqb l (be_c e) then - be_len e / cm_area M (be_c e) * q (fst (KB e)) else 0 else 0) (rk_bedges (rank_of p)))).
    2:{ intros l Hl. apply in_seq in Hl. destruct (Nat.eqb (cp_gid p l) c).
        - rewrite V by lia. f_equal.
          + unfold hr_from_internal. rewrite rsum_map. apply rsum_ext. intros e _. cbn [iedge_of ie_l ie_r ie_len]. unfold q, component.
            rewrite (Nat.eqb_sym (left_cell M e) l), (Nat.eqb_sym (right_cell M e) l).
            destruct (Nat.eqb_spec l (left_cell M e)) as [<-|]; destruct (Nat.eqb_spec l (right_cell M e)) as [<-|]; unfold Rdiv; ring.
          + cbn [rank_of rk_bedges]. rewrite rsum_flat_map. apply rsum_ext. intros b _. unfold from_boundary. rewrite rsum_map. apply rsum_ext. intros pe _.
            cbn [bedge_of be_c be_len]. unfold q, component. rewrite (Nat.eqb_sym (left_cell M (snd pe)) l). destruct (Nat.eqb_spec l (left_cell M (snd pe))) as [<-|]; unfold Rdiv; ring.
        - rewrite !rsum_zero by (intros; reflexivity). ring. }
    assert (Hes' := Hes). assert (Hbs' := Hbs). unfold owned_edges_are in Hes'. unfold owned_bedges_are in Hbs'. rewrite rank_owned_edges in Hes'. rewrite rank_owned_bedges in Hbs'.
    rewrite rsum_plus. f_equal.
    - rewrite rsum_swap. eapply rsum_Forall2; [exact Hes'|]. intros e e' (flip & Hv) He He'.
      destruct (view_kernel s sl m (rank_of p) u u HV Num (fun _ _ => eq_refl) flip e e' f1 E1 He (Hgi e' He') Hv) as (_ & _ & _ & Hp). specialize (Hp q Qs).
      destruct (nu_iedges m _ Num e He) as (Hel & Her).
      rewrite (rsum_ext _ (fun l =>
          (if Nat.eqb (cp_gid p l) c then if Nat.eqb l (ie_l e) then - ie_len e / cm_area M (ie_l e) * q (fst (fst (K e))) else 0 else 0) +
          (if Nat.eqb (cp_gid p l) c then if Nat.eqb l (ie_r e) then ie_len e / cm_area M (ie_r e) * q (snd (fst (K e))) else 0 else 0))).
      2:{ intros l _. destruct (Nat.eqb (cp_gid p l) c); ring. }
      rewrite rsum_plus, !pick_gid by (assumption || apply seq_NoDup).
      cbn [rank_of rk_cells] in Hel, Her. apply in_seq in Hel, Her.
      rewrite !HA by lia.
      unfold gcontrib, ecoef, everything. destruct Hv as (-> & Hg). cbn [rank_of rk_gid] in Hg.
      destruct flip; destruct Hg as (-> & -> & _); injection Hp as -> ->;
          rewrite (Nat.eqb_sym (ie_l e') c), (Nat.eqb_sym (ie_r e') c);
          destruct (Nat.eqb_spec c (ie_l e')) as [<-|]; destruct (Nat.eqb_spec c (ie_r e')) as [<-|]; unfold Rdiv; ring.
    - rewrite rsum_swap. eapply rsum_Forall2; [exact Hbs'|]. intros e e' Hv He He'.
      destruct (view_bkernel s sl m (rank_of p) u u HV Num (fun _ _ => eq_refl) e e' f1 f2 E2 He (Hgb e' He') Hv) as (_ & _ & ->).
      assert (Hc := nu_bedges m _ Num e He). rewrite pick_gid by (assumption || apply seq_NoDup).
      cbn [rank_of rk_cells] in Hc. apply in_seq in Hc. rewrite HA by lia. unfold gbcontrib.
      unfold bview in Hv. cbn [rank_of rk_gid] in Hv. destruct Hv as (-> & -> & _). rewrite (Nat.eqb_sym (be_c e') c). destruct (Nat.eqb_spec c (be_c e')) as [<-|]; reflexivity.
  Qed.
End Total.

Section Process.
  Context (w : balancing) (cf : cconfig) (m : mesh) (z : nat -> R) (g : cellgeom) (src : nat -> vec3) (p : cprocess) (C : flow_config cf) (PO : process_ok w cf m z g src p).
  Local Notation M := (cp_mesh p).
  Lemma owned_is_prefix : exists k, owned_cells M = seq 0 k /\ (k <= cm_cells M)%nat.
  Proof.
    destruct (po_order _ _ _ _ _ _ _ PO) as (k & H). exists (Nat.min (cm_cells M) k). split; [|lia].
    unfold owned_cells. rewrite (owned_prefix _ k) by (intros; apply H; lia). rewrite Nat.sub_0_r. reflexivity.
  Qed.
  Lemma owned_nth i c : nth_error (owned_cells M) i = Some c -> c = i /\ (c < cm_cells M)%nat.
  Proof.
    destruct owned_is_prefix as (k & E & L). rewrite E. intros H.
    assert (i < k)%nat. { rewrite <- (seq_length k 0). apply nth_error_Some. congruence. }
    rewrite nth_error_seq0 in H by lia. injection H as <-. lia.
  Qed.
  Lemma l2o_id c : (c < cm_cells M)%nat -> cm_l2o M c = c.
  Proof.
    intros Hc. rewrite (po_l2o _ _ _ _ _ _ _ PO) by exact Hc. apply ghosts_last_identity; [|cbn; apply in_seq; lia].
    destruct (po_order _ _ _ _ _ _ _ PO) as (k & H). exists (cm_cells M), k. split; [reflexivity|exact H].
  Qed.
  Lemma arrays_numbered : numbered M.
  Proof. intros i c H. destruct (owned_nth i c H) as (-> & Hc). apply l2o_id. exact Hc. Qed.

  (* the local scheme *)
  Definition scheme_at : scheme := scheme_of w cf (fun l => z (cp_gid p l)) (geom_at (cp_gid p) g).
  Lemma scheme_at_view : scheme_view (rk_gid (rank_of p)) (scheme_of w cf z g) scheme_at.
  Proof. destruct C as (_ & _ & T). unfold scheme_at. destruct w; cbn [scheme_of]; [apply ceed_view|apply ceed_hr_view]; exact T. Qed.

  Context (dt : R) (u : nat -> vec3) (f1 f2 : nat -> vec3) (ges : list iedge) (gbs : list bedge) (ul : list R).
  Hypothesis E1 : interior_loop vadd vscal everything (area m) (s_interior (scheme_of w cf z g) u) (iedges m) zero_field = Some f1.
  Hypothesis E2 : boundary_loop vadd vscal everything (area m) (s_boundary (scheme_of w cf z g) u) (bedges m) f1 = Some f2.
  Hypothesis Hes : owned_edges_are (rank_of p) ges.
  Hypothesis Hbs : owned_bedges_are (rank_of p) gbs.
  Hypothesis Hgi : incl ges (iedges m).
  Hypothesis Hgb : incl gbs (bedges m).
  Hypothesis Lu : length ul = (3 * cm_cells M)%nat.
  Hypothesis Vu : forall c, (c < cm_cells M)%nat -> block 3 ul c = comps3 (u (cp_gid p c)).

  Local Notation vl := (to_local (rank_of p) u).
  Local Notation K := (kl scheme_at (rank_of p) u).
  Local Notation KB := (kbl scheme_at (rank_of p) u).

  Lemma edge_kernel e : In e (owned_internal M) -> s_interior scheme_at vl (iedge_of M e) = Some (K (iedge_of M e)).
  Proof. apply (view_edge_kernel (scheme_of w cf z g) scheme_at m p scheme_at_view (po_numbering _ _ _ _ _ _ _ PO) u f1 ges E1 Hes Hgi). Qed.
  Lemma bedge_kernel b pe : In b (cp_bounds p) -> In pe (owned_boundary M b) -> s_boundary scheme_at vl (bedge_of M b pe) = Some (KB (bedge_of M b pe)).
  Proof. apply (view_bedge_kernel (scheme_of w cf z g) scheme_at m p scheme_at_view (po_numbering _ _ _ _ _ _ _ PO) u f1 f2 gbs E2 Hbs Hgb). Qed.

  Lemma state_at c : (c < cm_cells M)%nat -> v3 (block (num_comp cf) ul c) = u (cp_gid p c).
  Proof. intros Hc. rewrite (num_comp_flow cf C), Vu by exact Hc. apply v3_comps3. Qed.

  Lemma supported_flow : supported cf (cp_bounds p).
  Proof. destruct C as (A & B & _). constructor; [intros _; exact B|rewrite A; cbn; lia|intros X; contradiction|intros X; contradiction]. Qed.
  Lemma edge_inside e : In e (owned_internal M) -> (left_cell M e < cm_cells M)%nat /\ (right_cell M e < cm_cells M)%nat /\ (vertex_beg M e < cm_vertices M)%nat /\ (vertex_end M e < cm_vertices M)%nat.
  Proof. intros He. apply owned_internal_in in He. destruct He as (A & B). destruct (mo_internal _ _ (po_mesh _ _ _ _ _ _ _ PO) e A B) as ((X & _ & Y & Z) & W & _). auto. Qed.
  Lemma bedge_inside b pe : In b (cp_bounds p) -> owned_edge M b pe -> (left_cell M (snd pe) < cm_cells M)%nat /\ (vertex_beg M (snd pe) < cm_vertices M)%nat /\ (vertex_end M (snd pe) < cm_vertices M)%nat.
  Proof. intros Hb (A & B). apply nth_error_In in A. destruct (mo_boundary _ _ (po_mesh _ _ _ _ _ _ _ PO) b (snd pe) Hb A B) as (X & _ & Y & Z). auto. Qed.

  Lemma boundary_flux_value b pe : In b (cp_bounds p) -> owned_edge M b pe ->
    bflux_at cf M (initial_eta M) ul b pe = Some (comps3 (fst (KB (bedge_of M b pe))), snd (KB (bedge_of M b pe))).
  Proof.
    intros Hb Ho. destruct (bedge_inside b pe Hb Ho) as (Hc & V1 & V2). assert (A := bedge_kernel b pe Hb (proj2 (owned_boundary_spec M b pe) Ho)).
    unfold bflux_at, boundary_flux. rewrite (proj1 C), Nat.eqb_refl, C67_eta_initial, (state_at _ Hc), (num_comp_flow cf C) by assumption.
    assert (B : s_boundary scheme_at vl (bedge_of M b pe) =
      ceed_boundary_edge GRAVITY (cf_tiny_h cf) (cf_h_anuga cf) (flow_condition (cb_type b) (block 3 (cb_values b) (fst pe))) (u (cp_gid p (left_cell M (snd pe)))) (cm_sn M (snd pe)) (cm_cn M (snd pe)) 0).
    { unfold scheme_at. destruct w; reflexivity. }
    rewrite B in A. rewrite A, obind_Some. reflexivity.
  Qed.

  Lemma local_flux_value : exists x, local_flux w cf dt p ul = Some x /\ length x = (3 * cm_cells M)%nat /\
    forall c k, (c < cm_cells M)%nat -> (k < 3)%nat -> nth (c * 3 + k) x 0 =
      hr_from_internal M (fun e => comps3 (fst (fst (K (iedge_of M e))))) (fun e => comps3 (snd (fst (K (iedge_of M e))))) c k
      + rsum (fun b => from_boundary M b (fun pe => comps3 (fst (KB (bedge_of M b pe)))) c k) (cp_bounds p).
  Proof.
    assert (N := num_comp_flow cf C). assert (NT := proj1 C).
    assert (LE : length ul = (num_comp cf * cm_cells M)%nat) by (rewrite N; exact Lu).
    assert (HW : w = Standard \/ exists file, w = Hydrostatic file) by (destruct w; eauto).
    destruct HW as [W|(file & W)]; unfold local_flux; rewrite W.
    - destruct (C67_flux cf M (initial_eta M) dt (cp_bounds p) ul (fun e => comps3 (fst (fst (K (iedge_of M e))))) (fun e => snd (K (iedge_of M e)))
        (fun b pe => comps3 (fst (KB (bedge_of M b pe)))) (fun b pe => snd (KB (bedge_of M b pe))) supported_flow (po_mesh _ _ _ _ _ _ _ PO) (po_values _ _ _ _ _ _ _ PO)) as (x & E & L & V).
      + unfold initial_eta. rewrite map_length, seq_length. reflexivity.
      + exact LE.
      + intros e A B. assert (He : In e (owned_internal M)) by (unfold owned_internal; apply filter_In; split; assumption). destruct (edge_inside e He) as (H1 & H2 & H3 & H4).
        assert (Ke := edge_kernel e He). unfold flux_at, interior_flux. rewrite NT, Nat.eqb_refl, C67_eta_initial, (state_at _ H1), (state_at _ H2) by assumption.
        unfold scheme_at in Ke at 1. rewrite W in Ke; cbn [scheme_of ceed_scheme s_interior iedge_of ie_l ie_r ie_sn ie_cn] in Ke. unfold both, to_local in Ke. cbn [rank_of rk_gid] in Ke.
        destruct (ceed_interior_edge _ _ _ _ _ _ _ _) as [[fl a]|]; [|discriminate Ke]. rewrite obind_Some. cbn in Ke. injection Ke as Ke. rewrite <- Ke. reflexivity.
      + intros b pe Hb Ho. apply boundary_flux_value; assumption.
      + intros b pe _ _ _ X. contradiction.
      + exists x. rewrite N in L. split; [exact E|]. split; [exact L|]. intros c k Hc Hk. rewrite N in V. specialize (V c k Hc Hk). rewrite l2o_id in V by exact Hc. rewrite V. f_equal.
        unfold from_internal, hr_from_internal. apply rsum_ext. intros e He. f_equal. destruct (Nat.eqb _ _); [|reflexivity].
        assert (Ke := edge_kernel e He). unfold scheme_at in Ke at 1. rewrite W in Ke; cbn [scheme_of ceed_scheme s_interior] in Ke. unfold both in Ke.
        destruct (ceed_interior_edge _ _ _ _ _ _ _ _) as [[fl a]|]; [|discriminate Ke]. cbn in Ke. injection Ke as Ke. rewrite <- Ke. reflexivity.
    - destruct (po_bed _ _ _ _ _ _ _ PO file W) as (CO & HB).
      destruct (C71_flux cf file (cp_hmesh p) dt (cp_bounds p) ul (fun e => comps3 (fst (fst (K (iedge_of M e))))) (fun e => comps3 (snd (fst (K (iedge_of M e))))) (fun e => snd (K (iedge_of M e)))
        (fun b pe => comps3 (fst (KB (bedge_of M b pe)))) (fun b pe => snd (KB (bedge_of M b pe))) supported_flow (po_mesh _ _ _ _ _ _ _ PO) CO (po_values _ _ _ _ _ _ _ PO)) as (x & E & L & V).
      + exact LE.
      + intros e A B. assert (He : In e (owned_internal M)) by (unfold owned_internal; apply filter_In; split; assumption). destruct (edge_inside e He) as (H1 & H2 & _).
        assert (Ke := edge_kernel e He). unfold hr_flux_at, hr_flux. fold M. rewrite NT, Nat.eqb_refl, (state_at _ H1), (state_at _ H2), !HB by assumption.
        unfold scheme_at in Ke at 1. rewrite W in Ke; cbn [scheme_of ceed_hr_scheme s_interior iedge_of ie_l ie_r ie_sn ie_cn] in Ke. unfold to_local in Ke. cbn [rank_of rk_gid] in Ke.
        rewrite Ke, obind_Some. reflexivity.
      + intros b pe Hb Ho. apply boundary_flux_value; assumption.
      + intros b pe _ _ _ X. contradiction.
      + exists x. rewrite N in L. split; [exact E|]. split; [exact L|]. intros c k Hc Hk. fold M in V. rewrite N in V. specialize (V c k Hc Hk). rewrite l2o_id in V by exact Hc. exact V.
  Qed.

  Local Notation GC := (gcontrib (scheme_of w cf z g) m u).
  Local Notation GB := (gbcontrib (scheme_of w cf z g) m u).
  (* everything a process adds for one cell of the whole mesh, in one component *)
  Lemma local_flux_total x : (forall c k, (c < cm_cells M)%nat -> (k < 3)%nat -> nth (c * 3 + k) x 0 =
      hr_from_internal M (fun e => comps3 (fst (fst (K (iedge_of M e))))) (fun e => comps3 (snd (fst (K (iedge_of M e))))) c k
      + rsum (fun b => from_boundary M b (fun pe => comps3 (fst (KB (bedge_of M b pe)))) c k) (cp_bounds p)) ->
    forall k c, (k < 3)%nat ->
      rsum (fun l => if Nat.eqb (cp_gid p l) c then nth (l * 3 + k) x 0 else 0) (seq 0 (cm_cells M)) = rsum (GC (component k) c) ges + rsum (GB (component k) c) gbs.
  Proof. apply (flux_total (scheme_of w cf z g) scheme_at m p scheme_at_view (po_numbering _ _ _ _ _ _ _ PO) (po_area _ _ _ _ _ _ _ PO) u f1 f2 ges gbs E1 E2 Hes Hbs Hgi Hgb). Qed.
End Process.

(** ** From local to global right-hand sides *)
Definition entry (G : list (list R)) (q i k : nat) : R := nth (i * 3 + k) (nth q G []) 0.
Definition shape (L : list (list nat)) (G : list (list R)) : Prop := Forall2 (fun gs x => length x = (3 * length gs)%nat) L G.
Definition at_place (a : nat * nat) (q i : nat) : bool := Nat.eqb (fst a) q && Nat.eqb (snd a) i.

Lemma shape_upd L G q gs x : shape L G -> nth_error L q = Some gs -> length x = (3 * length gs)%nat -> forall G', upd G q x = Some G' -> shape L G'.
Proof.
  intros H. revert q. induction H as [|a b L G Hab H IH]; intros q Hq Hx G' HG; [destruct q; discriminate|].
  destruct q as [|q]; cbn in Hq, HG.
  - injection Hq as ->. injection HG as <-. constructor; assumption.
  - destruct (upd G q x) as [t|] eqn:E; cbn in HG; [|discriminate]. injection HG as <-. constructor; [exact Hab|]. eapply IH; eassumption.
Qed.
Lemma add_cell_ok L p f G c : shape L G -> ((c + 1) * 3 <= length f)%nat ->
  (exists gs, nth_error L (fst (cp_sf p c)) = Some gs /\ (snd (cp_sf p c) < length gs)%nat) ->
  exists G', add_cell 3 p f G c = Some G' /\ shape L G' /\
    forall q i k, (k < 3)%nat -> entry G' q i k = entry G q i k + (if at_place (cp_sf p c) q i then nth (c * 3 + k) f 0 else 0).
Proof.
  intros S Hf (gs & Hgs & Hi). unfold add_cell. rewrite fetch_block by lia. rewrite obind_Some.
  destruct (Forall2_get _ _ _ _ _ S Hgs) as (x & Ex & Lx). rewrite Ex, obind_Some.
  destruct (add_block 3 (block 3 f c) x (snd (cp_sf p c))) as (x' & E & L' & V); [apply block_length; lia|lia|]. rewrite E, obind_Some.
  assert (Hq : (fst (cp_sf p c) < length G)%nat) by (apply nth_error_Some; congruence).
  destruct (upd_some G (fst (cp_sf p c)) x' Hq) as (G' & EG). exists G'. split; [exact EG|]. split; [eapply shape_upd; [exact S|exact Hgs|rewrite L'; exact Lx|exact EG]|].
  intros q i k Hk. unfold entry, at_place. assert (U := upd_get _ _ _ _ q EG).
  destruct (Nat.eqb_spec (fst (cp_sf p c)) q) as [<-|Hne].
  - rewrite Nat.eqb_refl in U. rewrite (nth_error_nth _ _ _ U), (nth_error_nth _ _ _ Ex), V by exact Hk. cbn [andb]. f_equal.
    destruct (Nat.eqb _ _); [|reflexivity]. apply nth_block; exact Hk.
  - cbn [andb]. rewrite Rplus_0_r. destruct (Nat.eqb_spec q (fst (cp_sf p c))) as [->|_]; [contradiction|].
    f_equal. destruct (nth_error G q) as [y|] eqn:Y.
    + rewrite (nth_error_nth _ _ _ U), (nth_error_nth _ _ _ Y). reflexivity.
    + apply nth_error_None in U, Y. rewrite !nth_overflow by assumption. reflexivity.
Qed.
Lemma add_cells_ok L p f : forall cs G, shape L G -> 
  (forall c, In c cs -> ((c + 1) * 3 <= length f)%nat /\ exists gs, nth_error L (fst (cp_sf p c)) = Some gs /\ (snd (cp_sf p c) < length gs)%nat) ->
  exists G', ofold (add_cell 3 p f) cs G = Some G' /\ shape L G' /\
    forall q i k, (k < 3)%nat -> entry G' q i k = entry G q i k + rsum (fun c => if at_place (cp_sf p c) q i then nth (c * 3 + k) f 0 else 0) cs.
Proof.
  induction cs as [|c cs IH]; intros G S H; cbn [ofold].
  - exists G. split; [reflexivity|]. split; [exact S|]. intros. cbn [rsum]. ring.
  - destruct (H c (or_introl eq_refl)) as (H1 & H2). destruct (add_cell_ok L p f G c S H1 H2) as (G1 & E & S1 & V1). rewrite E, obind_Some.
    destruct (IH G1 S1 (fun c Hc => H c (or_intror Hc))) as (G' & E' & S' & V'). exists G'. split; [exact E'|]. split; [exact S'|].
    intros q i k Hk. rewrite V', V1 by exact Hk. cbn [rsum]. ring.
Qed.
Definition reaches (L : list (list nat)) (p : cprocess) : Prop :=
  forall c, (c < cm_cells (cp_mesh p))%nat -> exists gs, nth_error L (fst (cp_sf p c)) = Some gs /\ (snd (cp_sf p c) < length gs)%nat.
Lemma local_to_global_ok L ps fs : length ps = length fs ->
  (forall p f, In (p, f) (combine ps fs) -> reaches L p /\ length f = (3 * cm_cells (cp_mesh p))%nat) -> forall G, shape L G ->
  exists G', dm_local_to_global_add 3 ps fs G = Some G' /\ shape L G' /\
    forall q i k, (k < 3)%nat -> entry G' q i k = entry G q i k +
      rsum (fun pf => rsum (fun c => if at_place (cp_sf (fst pf) c) q i then nth (c * 3 + k) (snd pf) 0 else 0) (seq 0 (cm_cells (cp_mesh (fst pf))))) (combine ps fs).
Proof.
  intros _ H. unfold dm_local_to_global_add. induction (combine ps fs) as [|[p f] l IH]; intros G S; cbn [ofold].
  - exists G. split; [reflexivity|]. split; [exact S|]. intros. cbn [rsum]. ring.
  - destruct (H p f (or_introl eq_refl)) as (Hp & Hf). unfold add_process at 1. cbn [fst snd].
    destruct (add_cells_ok L p f (seq 0 (cm_cells (cp_mesh p))) G S) as (G1 & E & S1 & V1).
    { intros c Hc. apply in_seq in Hc. split; [lia|]. apply Hp. lia. }
    rewrite E, obind_Some. destruct (IH (fun p f Hpf => H p f (or_intror Hpf)) G1 S1) as (G' & E' & S' & V'). exists G'. split; [exact E'|]. split; [exact S'|].
    intros q i k Hk. rewrite V', V1 by exact Hk. cbn [rsum fst snd]. ring.
Qed.

(* positions in lists of lists without repetition *)
Lemma nodup_positions {A} (L : list (list A)) : NoDup (concat L) -> forall q q' gs gs' i i' x,
  nth_error L q = Some gs -> nth_error gs i = Some x -> nth_error L q' = Some gs' -> nth_error gs' i' = Some x -> q = q' /\ i = i'.
Proof.
  induction L as [|a L IH]; intros N q q' gs gs' i i' x H1 H2 H3 H4; [destruct q; discriminate|].
  cbn [concat] in N.
  assert (Na : NoDup a /\ NoDup (concat L) /\ forall x, In x a -> In x (concat L) -> False).
  { clear - N. induction a as [|y a IH]; cbn [app] in N; [split; [constructor|]; split; [exact N|intros ? []]|].
    inversion N as [|? ? N1 N2]; subst. destruct (IH N2) as (A1 & A2 & A3). split; [constructor; [intros X; apply N1; apply in_or_app; left; exact X|exact A1]|].
    split; [exact A2|]. intros x [<-|X] Y; [apply N1; apply in_or_app; right; exact Y|exact (A3 x X Y)]. }
  destruct Na as (N1 & N2 & N3).
  assert (In' : forall q gs i, nth_error L q = Some gs -> nth_error gs i = Some x -> In x (concat L)).
  { intros q0 gs0 i0 X Y. apply in_concat. exists gs0. split; [eapply nth_error_In; exact X|eapply nth_error_In; exact Y]. }
  destruct q as [|q]; destruct q' as [|q']; cbn in H1, H3.
  - injection H1 as <-. injection H3 as <-. split; [reflexivity|]. apply (proj1 (NoDup_nth_error a) N1); [apply nth_error_Some; congruence|congruence].
  - injection H1 as <-. exfalso. apply (N3 x); [eapply nth_error_In; exact H2|eapply In'; eassumption].
  - injection H3 as <-. exfalso. apply (N3 x); [eapply nth_error_In; exact H4|eapply In'; eassumption].
  - destruct (IH N2 q q' gs gs' i i' x H1 H2 H3 H4). subst. auto.
Qed.
