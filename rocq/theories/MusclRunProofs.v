(** Lemmas for second-order runs (C79). *)
From Coq Require Import String.
From Verif Require Import Base RoeModel RoeProofs EdgeModel EdgeProofs EtaModel SourceModel TracerModel AssemblyModel AssemblyProofs DecompModel DecompSpec DecompProofs DecompProperties
  MeshMapsProofs AMRProofs CeedLayoutModel CeedLayoutSpec CeedLayoutProofs CeedLayoutProperties CeedHRModel CeedHRSpec CeedRunModel CeedRunSpec CeedRunProofs CeedRunProperties
  MusclModel MusclProofs CeedMusclModel CeedMusclSpec CeedMusclProofs CeedMusclProperties MusclRunModel MusclRunSpec.
Local Open Scope R_scope.
Local Notation length := List.length.

(** ** Gradients of the whole mesh *)
Definition ends_of (c : nat) (e : iedge) : list nat := (if Nat.eqb (ie_l e) c then [ie_r e] else []) ++ (if Nat.eqb (ie_r e) c then [ie_l e] else []).
Definition mesh_neighbours (es : list iedge) (c : nat) : list nat := flat_map (ends_of c) es.

Lemma ls_weight_wt G e : ls_weight G e = wt (centroid G (ie_l e)) (centroid G (ie_r e)).
Proof.
  unfold ls_weight, wt, inverse_distance, dist, disp. cbn [px py]. set (d := sqrt _). assert (P : 0 <= d) by apply sqrt_pos.
  destruct (Req_EM_T d 0) as [E|E].
  - assert (F : Rltb 0 d = false) by (apply Rltb_false; lra). rewrite F. reflexivity.
  - assert (F : Rltb 0 d = true) by (apply Rltb_true; lra). rewrite F. unfold Rdiv. ring.
Qed.
Lemma rsum_mesh_neighbours es c (f : nat -> R) : rsum f (mesh_neighbours es c) =
  rsum (fun e => (if Nat.eqb (ie_l e) c then f (ie_r e) else 0) + (if Nat.eqb (ie_r e) c then f (ie_l e) else 0)) es.
Proof.
  unfold mesh_neighbours. rewrite CeedMusclProofs.rsum_flat_map. apply rsum_ext. intros e _. unfold ends_of. rewrite rsum_app.
  destruct (Nat.eqb _ _), (Nat.eqb _ _); cbn [rsum]; ring.
Qed.
Lemma sum_both es c (f : nat -> R) (h : iedge -> R) :
  (forall e, In e es -> ie_l e = c -> f (ie_r e) = h e) -> (forall e, In e es -> ie_r e = c -> f (ie_l e) = h e) ->
  rsum f (mesh_neighbours es c) = rsum (fun e => ends c e * h e) es.
Proof.
  intros H1 H2. rewrite rsum_mesh_neighbours. apply rsum_ext. intros e He. unfold ends. rewrite (Nat.eqb_sym c (ie_l e)), (Nat.eqb_sym c (ie_r e)).
  destruct (Nat.eqb_spec (ie_l e) c) as [E1|]; destruct (Nat.eqb_spec (ie_r e) c) as [E2|]; rewrite ?(H1 e He) by assumption; rewrite ?(H2 e He) by assumption; ring.
Qed.
Lemma ls_matrix_nmat G es c : ls_matrix G es c = nmat (centroid G) c (mesh_neighbours es c).
Proof.
  destruct (ls_matrix_val G es c) as (A & B & C). destruct (ls_matrix G es c) as [a b d]. cbn [m00 m01 m11] in *. unfold nmat.
  rewrite A, B, C. clear.
  assert (X : forall h : pt -> pt -> R, (forall a b, h a b = h b a) ->
    rsum (fun e => ends c e * (ls_weight G e * h (centroid G (ie_l e)) (centroid G (ie_r e)))) es = rsum (fun j => wt (centroid G c) (centroid G j) * h (centroid G c) (centroid G j)) (mesh_neighbours es c)).
  { intros h Hh. symmetry. apply sum_both.
    - intros e _ <-. rewrite ls_weight_wt. reflexivity.
    - intros e _ <-. rewrite ls_weight_wt, wt_sym, Hh. reflexivity. }
  assert (Y : forall (h : pt -> pt -> R) t t', (forall a b, h a b = h b a) ->
     (forall e, t e = ends c e * (ls_weight G e * h (centroid G (ie_l e)) (centroid G (ie_r e)))) -> (forall j, t' j = wt (centroid G c) (centroid G j) * h (centroid G c) (centroid G j)) ->
     rsum t es = rsum t' (mesh_neighbours es c)).
  { intros h t t' Hh Ht Ht'. rewrite (rsum_ext t _ es (fun e _ => Ht e)), (rsum_ext t' _ _ (fun e _ => Ht' e)). apply X, Hh. }
  assert (E : forall a b c a' b' c', a = a' -> b = b' -> c = c' -> Sym2 a b c = Sym2 a' b' c') by (intros; subst; reflexivity). apply E.
  - apply (Y (fun a b => (px b - px a) * (px b - px a))); intros; unfold disp; cbn [px py]; ring.
  - apply (Y (fun a b => (px b - px a) * (py b - py a))); intros; unfold disp; cbn [px py]; ring.
  - apply (Y (fun a b => (py b - py a) * (py b - py a))); intros; unfold disp; cbn [px py]; ring.
Qed.
Lemma ls_gradients_lsq G es q c : ls_gradients G es q c = lsq (centroid G) q c (mesh_neighbours es c).
Proof.
  destruct (ls_gradients_val G es q c) as (A & B). rewrite ls_matrix_nmat in A, B.
  assert (SX : rsum (fun e => ends c e * ls_weight G e * px (disp G e) * (q (ie_r e) - q (ie_l e))) es = px (nrhs (centroid G) q c (mesh_neighbours es c))).
  { cbn [nrhs px]. symmetry. rewrite (sum_both es c _ (fun e => ls_weight G e * px (disp G e) * (q (ie_r e) - q (ie_l e)))); [apply rsum_ext; intros; ring| |].
    - intros e _ <-. rewrite ls_weight_wt. unfold disp. cbn [px]. ring.
    - intros e _ <-. rewrite ls_weight_wt, wt_sym. unfold disp. cbn [px]. ring. }
  assert (SY : rsum (fun e => ends c e * ls_weight G e * py (disp G e) * (q (ie_r e) - q (ie_l e))) es = py (nrhs (centroid G) q c (mesh_neighbours es c))).
  { cbn [nrhs py]. symmetry. rewrite (sum_both es c _ (fun e => ls_weight G e * py (disp G e) * (q (ie_r e) - q (ie_l e)))); [apply rsum_ext; intros; ring| |].
    - intros e _ <-. rewrite ls_weight_wt. unfold disp. cbn [py]. ring.
    - intros e _ <-. rewrite ls_weight_wt, wt_sym. unfold disp. cbn [py]. ring. }
  rewrite SX, SY in A, B. destruct (ls_gradients G es q c) as [gx gy]. cbn [px py] in A, B. unfold lsq. rewrite A, B. reflexivity.
Qed.

(** ** Neighbours seen from a process *)
Lemma neighbours_mesh rm c : neighbours rm c = mesh_neighbours (map (iedge_of (rm_mesh rm)) (cm_internal (rm_mesh rm))) c.
Proof. unfold neighbours, mesh_neighbours. induction (cm_internal (rm_mesh rm)) as [|e l IH]; cbn [flat_map map]; [reflexivity|]. rewrite IH. reflexivity. Qed.

Lemma view_neighbours gid (P : nat -> Prop) c es ges : (forall a b, P a -> P b -> gid a = gid b -> a = b) -> P c -> (forall e, In e es -> P (ie_l e) /\ P (ie_r e)) ->
  Forall2 (fun e e' => exists flip, eview gid flip e e') es ges -> Permutation (map gid (mesh_neighbours es c)) (mesh_neighbours ges (gid c)).
Proof.
  intros Inj Pc Hin F. revert Hin. unfold mesh_neighbours. induction F as [|e e' es ges (flip & _ & Hv) F IH]; intros Hin; cbn [flat_map]; [constructor|].
  rewrite map_app. apply Permutation_app; [|apply IH; intros x Hx; apply Hin; right; exact Hx].
  destruct (Hin e (or_introl eq_refl)) as (Pl & Pr).
  assert (T : forall a, P a -> Nat.eqb (gid a) (gid c) = Nat.eqb a c).
  { intros a Pa. destruct (Nat.eqb_spec a c) as [->|N]; [apply Nat.eqb_refl|]. apply Nat.eqb_neq. intros E. apply N. apply Inj; assumption. }
  unfold ends_of. destruct flip; destruct Hv as (A & B & _); rewrite <- A, <- B, !T by assumption;
    destruct (Nat.eqb (ie_l e) c), (Nat.eqb (ie_r e) c); cbn; try apply Permutation_refl. apply perm_swap.
Qed.
Lemma touching_neighbours r c es : ownsb r c = true -> mesh_neighbours (filter (touches r) es) c = mesh_neighbours es c.
Proof.
  intros H. unfold mesh_neighbours. induction es as [|e es IH]; cbn [filter flat_map]; [reflexivity|].
  destruct (touches r e) eqn:T; cbn [flat_map]; rewrite IH; [reflexivity|]. unfold touches in T. apply Bool.orb_false_iff in T. destruct T as (T1 & T2).
  unfold ends_of. destruct (Nat.eqb_spec (ie_l e) c) as [E|]; [rewrite E in T1; congruence|]. destruct (Nat.eqb_spec (ie_r e) c) as [E|]; [rewrite E in T2; congruence|]. reflexivity.
Qed.

Lemma local_edges_inside p e : edges_inside (sp_rmesh p) -> In e (map (iedge_of (cp_mesh (sp_base p))) (cm_internal (cp_mesh (sp_base p)))) ->
  (ie_l e < cm_cells (cp_mesh (sp_base p)))%nat /\ (ie_r e < cm_cells (cp_mesh (sp_base p)))%nat.
Proof. intros H He. apply in_map_iff in He. destruct He as (i & <- & Hi). exact (H i Hi). Qed.

Lemma complete_neighbours cf G m g src p c : process_ok Standard cf m (fun _ => 0) g src (sp_base p) -> geometry_ok G m p ->
  (c < cm_cells (cp_mesh (sp_base p)))%nat -> cm_owned (cp_mesh (sp_base p)) c = true ->
  Permutation (map (cp_gid (sp_base p)) (neighbours (sp_rmesh p) c)) (mesh_neighbours (iedges m) (cp_gid (sp_base p) c)).
Proof.
  intros PO GO Hc Ho. destruct (ge_overlap _ _ _ GO) as (ges & F & P). rewrite neighbours_mesh. set (r := rank_of (sp_base p)) in *.
  assert (OW : ownsb r (cp_gid (sp_base p) c) = true).
  { apply ownsb_spec. exists c. split; [cbn; apply in_seq; lia|]. split; [exact Ho|reflexivity]. }
  etransitivity; [apply (view_neighbours (cp_gid (sp_base p)) (fun x => (x < cm_cells (cp_mesh (sp_base p)))%nat) c _ ges)|].
  - intros a b Ha Hb E. apply (nu_inj _ _ (po_numbering _ _ _ _ _ _ _ PO)); [cbn; apply in_seq; lia|cbn; apply in_seq; lia|exact E].
  - exact Hc.
  - intros e He. apply (local_edges_inside p e (ge_inside _ _ _ GO) He).
  - exact F.
  - rewrite <- (touching_neighbours r _ ges OW), <- (touching_neighbours r _ (iedges m) OW). apply Permutation_flat_map. exact P.
Qed.

(** ** Slopes on all processes *)
Lemma comp_component k v : (k < 3)%nat -> comp k v = component k v.
Proof. intros H. do 3 (destruct k as [|k]; [reflexivity|]). lia. Qed.
Lemma entry_comp u p x k c : local_ok u p x -> (k < 3)%nat -> (c < cm_cells (cp_mesh p))%nat -> CeedMusclSpec.entry x k c = comp k (u (cp_gid p c)).
Proof. intros (L & V) Hk Hc. unfold CeedMusclSpec.entry. rewrite <- (nth_block 3) by exact Hk. rewrite (V c Hc), comp_component by exact Hk. reflexivity. Qed.

Lemma owner_exists cf G m g src ps p c : distributed2 cf G m g src ps -> In p ps -> (c < cm_cells (cp_mesh (sp_base p)))%nat ->
  exists r c' p', nth_error ps r = Some p' /\ owner_is (map sp_process ps) (sp_process p) c r c' /\ (c' < cm_cells (cp_mesh (sp_base p')))%nat /\ cm_owned (cp_mesh (sp_base p')) c' = true /\
    cp_gid (sp_base p) c = cp_gid (sp_base p') c'.
Proof.
  intros D Hp Hc. destruct (CeedRunSpec.di_sf _ _ _ _ _ _ _ (d2_distributed _ _ _ _ _ _ D) (sp_base p) c (in_map _ _ _ Hp) Hc) as (gs & A & B).
  destruct (layout_get _ _ _ A) as (b' & Eb & ->). rewrite nth_error_map in Eb. destruct (nth_error ps (fst (cp_sf (sp_base p) c))) as [p'|] eqn:Ep; [|discriminate]. injection Eb as <-.
  rewrite nth_error_map in B. destruct (nth_error (owned_cells (cp_mesh (sp_base p'))) (snd (cp_sf (sp_base p) c))) as [c'|] eqn:Ec; [|discriminate]. injection B as B.
  assert (Hp' := nth_error_In _ _ Ep). assert (PO := CeedRunSpec.di_processes _ _ _ _ _ _ _ (d2_distributed _ _ _ _ _ _ D) (sp_base p') (in_map _ _ _ Hp')).
  destruct (owned_nth _ _ _ _ _ _ _ PO _ _ Ec) as (E & Hc'). assert (Ho : cm_owned (cp_mesh (sp_base p')) c' = true).
  { apply nth_error_In in Ec. unfold owned_cells in Ec. apply filter_In in Ec. exact (proj2 Ec). }
  exists (fst (cp_sf (sp_base p) c)), c', p'. split; [exact Ep|]. split; [|split; [exact Hc'|split; [exact Ho|symmetry; exact B]]].
  exists (sp_process p'). split; [rewrite nth_error_map, Ep; reflexivity|]. split; [exact Hc'|]. split; [exact Ho|].
  cbn [sp_process sp_rmesh pr_mesh rm_mesh pr_owner]. rewrite (l2o_id _ _ _ _ _ _ _ PO c' Hc'). rewrite E at 1. destruct (cp_sf (sp_base p) c); reflexivity.
Qed.
Lemma distributed2_partitioned cf G m g src ps : distributed2 cf G m g src ps -> partitioned (map sp_process ps).
Proof.
  intros D. split.
  - intros q Hq. apply in_map_iff in Hq. destruct Hq as (p & <- & Hp). cbn [sp_process pr_mesh sp_rmesh rm_mesh].
    apply (arrays_numbered _ _ _ _ _ _ _ (CeedRunSpec.di_processes _ _ _ _ _ _ _ (d2_distributed _ _ _ _ _ _ D) (sp_base p) (in_map _ _ _ Hp))).
  - intros q c Hq Hc. apply in_map_iff in Hq. destruct Hq as (p & <- & Hp). destruct (owner_exists _ _ _ _ _ _ p c D Hp Hc) as (r & c' & _ & _ & H & _). exists r, c'. exact H.
Qed.

Definition slopes (G : geometry) (m : mesh) (u : nat -> vec3) (k : nat) : nat -> pt := ls_gradients G (iedges m) (fun c => comp k (u c)).
Definition has_slopes (G : geometry) (m : mesh) (u : nat -> vec3) (p : sprocess) (gr : list (list R)) : Prop :=
  shaped (sp_rmesh p) gr /\ forall k c, (k < 3)%nat -> (c < cm_cells (cp_mesh (sp_base p)))%nat -> slope gr k c = slopes G m u k (cp_gid (sp_base p) c).

Lemma slopes_ok cf G m g src ps us u : distributed2 cf G m g src ps -> Forall2 (fun p x => local_ok u (sp_base p) x) ps us ->
  exists grads, all_gradients (map sp_process ps) us = Some grads /\ Forall2 (has_slopes G m u) ps grads.
Proof.
  intros D F.
  assert (Lus : Forall2 (fun p x => length x = (cm_cells (rm_mesh (pr_mesh p)) * 3)%nat) (map sp_process ps) us).
  { apply Forall2_map_l. clear - F. induction F as [|p x ps us (L & _) F IH]; constructor; [cbn [sp_process pr_mesh sp_rmesh rm_mesh]; lia|exact IH]. }
  unfold all_gradients.
  destruct (omap_rel (fun pu => let* coeffs := PrecomputeLSGradCoeffs (pr_mesh (fst pu)) in ComputeLeastSquaresGradients (pr_mesh (fst pu)) coeffs (snd pu))
    (fun pu g => shaped (pr_mesh (fst pu)) g /\ forall k c, (k < 3)%nat -> slope g k c = lsq (rm_centroid (pr_mesh (fst pu))) (CeedMusclSpec.entry (snd pu) k) c (neighbours (pr_mesh (fst pu)) c))
    (combine (map sp_process ps) us)) as (a0 & E0 & F0).
  { intros (q, x) Hin. destruct (combine_In _ _ _ _ _ Lus Hin) as (Lu & Hq). apply in_map_iff in Hq. destruct Hq as (p & <- & Hp). cbn [fst snd].
    destruct (gradients_spec (pr_mesh (sp_process p)) x (ge_inside _ _ _ (d2_geometry _ _ _ _ _ _ D p Hp)) Lu) as (cs & gr & A1 & A2 & S & V). exists gr. rewrite A1, obind_Some. auto. }
  rewrite E0, obind_Some.
  assert (S0 : Forall2 (fun p g => shaped (pr_mesh p) g) (map sp_process ps) a0). { eapply combine_Forall2; [exact Lus|exact F0|]. intros p x gr (H & _). exact H. }
  destruct (exchange_spec _ a0 (distributed2_partitioned _ _ _ _ _ _ D) S0) as (a1 & E1 & S1 & V1). rewrite E1. exists a1. split; [reflexivity|].
  apply Forall2_nth; [apply Forall2_len in S1; rewrite map_length in S1; exact S1|]. intros r p gr Hp Hg.
  assert (Hp0 : nth_error (map sp_process ps) r = Some (sp_process p)) by (rewrite nth_error_map, Hp; reflexivity).
  destruct (Forall2_get _ _ _ _ _ S1 Hp0) as (gr' & Hg' & Sg). assert (gr' = gr) by congruence. subst gr'. split; [exact Sg|].
  intros k c Hk Hc. destruct (owner_exists _ _ _ _ _ _ p c D (nth_error_In _ _ Hp) Hc) as (r' & c' & p' & Hp' & HO & Hc' & Ho & Hgid).
  assert (Hp1 : nth_error (map sp_process ps) r' = Some (sp_process p')) by (rewrite nth_error_map, Hp'; reflexivity).
  destruct (Forall2_get _ _ _ r' _ S0 Hp1) as (g' & Hg1 & _). destruct (Forall2_get _ _ _ r' p' F Hp') as (x' & Hx' & LO).
  rewrite (V1 r (sp_process p) gr c r' c' g' k Hp0 Hg Hc HO Hg1 Hk).
  destruct (Forall2_get _ _ _ r' (sp_process p', x') F0 (combine_get _ _ _ _ _ Hp1 Hx')) as (g2 & Hg2 & _ & V2). cbn [fst snd sp_process pr_mesh] in V2. assert (g2 = g') by congruence. subst g2.
  rewrite (V2 k c' Hk). unfold slopes. rewrite ls_gradients_lsq, Hgid.
  assert (PO := CeedRunSpec.di_processes _ _ _ _ _ _ _ (d2_distributed _ _ _ _ _ _ D) (sp_base p') (in_map _ _ _ (nth_error_In _ _ Hp'))).
  assert (GO := d2_geometry _ _ _ _ _ _ D p' (nth_error_In _ _ Hp')).
  rewrite <- (lsq_perm _ _ _ _ _ (complete_neighbours cf G m g src p' c' PO GO Hc' Ho)).
  apply (lsq_map (cp_gid (sp_base p'))).
  - apply (ge_centroid _ _ _ GO). exact Hc'.
  - apply (entry_comp u _ _ _ _ LO Hk Hc').
  - intros j Hj. assert (Hj' := neighbours_inside _ _ _ (ge_inside _ _ _ GO) Hj). split; [apply (ge_centroid _ _ _ GO); exact Hj'|apply (entry_comp u _ _ _ _ LO Hk Hj')].
Qed.

(** ** The scheme with given slopes *)
Definition frozen_states (lim : limiter) (G : geometry) (gr : nat -> nat -> pt) (u : nat -> vec3) (e : iedge) : vec3 * vec3 :=
  let fl k := face_left lim G (gr k) (fun c => comp k (u c)) e in
  let fr k := face_right lim G (gr k) (fun c => comp k (u c)) e in
  (V3 (Rmax 0 (Rmax 0 (fl 0%nat))) (fl 1%nat) (fl 2%nat), V3 (Rmax 0 (Rmax 0 (fr 0%nat))) (fr 1%nat) (fr 2%nat)).
(* any kernel on the states at the edges, with the boundary and source terms of another scheme *)
Definition frozen (kern : vec3 -> vec3 -> R -> R -> option (vec3 * R)) (lim : limiter) (G : geometry) (gr : nat -> nat -> pt) (s : scheme) : scheme :=
  Scheme (fun u e => let q := frozen_states lim G gr u e in both (kern (fst q) (snd q) (ie_sn e) (ie_cn e))) (s_boundary s) (s_source s).
(* the geometry seen from a process *)
Definition local_geometry (gid : nat -> nat) (G : geometry) : geometry := Geometry (fun l => centroid G (gid l)) (fun e => midpoint G (image gid e)).

Lemma image_same gid e e' : eview gid false e e' -> image gid e = e'.
Proof. destruct e, e'. intros (A & B & C & D & E). cbn in *. unfold image. cbn. subst. reflexivity. Qed.
Lemma image_flip gid e e' : eview gid true e e' -> image gid e = reverse e'.
Proof. destruct e, e'. intros (A & B & C & D & E). cbn in *. unfold image, reverse. cbn. subst. reflexivity. Qed.

Lemma frozen_view kern lim G gr s sl gid : unoriented G -> scheme_view gid s sl ->
  (forall a b sn cn, kern b a (- sn) (- cn) = oneg (kern a b sn cn)) ->
  scheme_view gid (frozen kern lim G gr s) (frozen kern lim (local_geometry gid G) (fun k l => gr k (gid l)) sl).
Proof.
  intros UG HV HK u ul. destruct (HV u ul) as (_ & HB & HS). split; [|split; [exact HB|exact HS]].
  intros flip e e' Hv Hl Hr. cbn [frozen s_interior].
  assert (ST : frozen_states lim (local_geometry gid G) (fun k l => gr k (gid l)) ul e =
    if flip then (snd (frozen_states lim G gr u e'), fst (frozen_states lim G gr u e')) else frozen_states lim G gr u e').
  { unfold frozen_states. cbn [fst snd].
    assert (X : forall k, face_left lim (local_geometry gid G) (fun l => gr k (gid l)) (fun c => comp k (ul c)) e =
        (if flip then face_right lim G (gr k) (fun c => comp k (u c)) e' else face_left lim G (gr k) (fun c => comp k (u c)) e') /\
        face_right lim (local_geometry gid G) (fun l => gr k (gid l)) (fun c => comp k (ul c)) e =
        (if flip then face_left lim G (gr k) (fun c => comp k (u c)) e' else face_right lim G (gr k) (fun c => comp k (u c)) e')).
    { intros k. unfold face_left, face_right, extrapolate. cbn [local_geometry centroid midpoint]. rewrite Hl, Hr. destruct flip.
      - rewrite (image_flip gid e e' Hv), (UG e'). destruct Hv as (_ & A & B & _). rewrite A, B.
        split; apply f_equal; apply f_equal; ring.
      - rewrite (image_same gid e e' Hv). destruct Hv as (_ & A & B & _). rewrite A, B. auto. }
    destruct flip; rewrite !(proj1 (X _)), !(proj2 (X _)); reflexivity. }
  rewrite ST. destruct flip; cbn [fst snd].
  - destruct Hv as (_ & _ & _ & -> & ->). rewrite HK. apply oflip_both.
  - destruct Hv as (_ & _ & _ & -> & ->). reflexivity.
Qed.

(** ** One process *)
Definition ceed_kernel (cf : cconfig) (a b : vec3) (sn cn : R) : option (vec3 * R) := ceed_interior_edge GRAVITY (cf_tiny_h cf) (cf_h_anuga cf) a b sn cn 0.
Definition frozen_ceed lim cf G gr g : scheme := frozen (ceed_kernel cf) lim G gr (scheme_of Standard cf (fun _ => 0) g).

Lemma rhs_frozen lim cf G m g dt src u : rhs_domain (scheme2_of lim cf G m g) m dt src u = rhs_domain (frozen_ceed lim cf G (slopes G m u) g) m dt src u.
Proof. reflexivity. Qed.

(* the states at an edge, read from the arrays of a process *)
Lemma face_states_read lim G m u p x gr e : local_ok u (sp_base p) x -> has_slopes G m u p gr -> geometry_ok G m p -> In e (owned_internal (cp_mesh (sp_base p))) ->
  let q := frozen_states lim (local_geometry (cp_gid (sp_base p)) G) (fun k l => slopes G m u k (cp_gid (sp_base p) l)) (to_local (rank_of (sp_base p)) u) (iedge_of (cp_mesh (sp_base p)) e) in
  left_state lim (sp_rmesh p) x gr e = comps3 (fst q) /\ right_state lim (sp_rmesh p) x gr e = comps3 (snd q).
Proof.
  intros LO (SH & HS) GO He q. assert (Hin : In e (cm_internal (cp_mesh (sp_base p)))) by (unfold owned_internal in He; apply filter_In in He; exact (proj1 He)).
  destruct (ge_inside _ _ _ GO e Hin) as (Hl & Hr). cbn [sp_rmesh rm_mesh] in Hl, Hr.
  assert (SL : forall k, (k < 3)%nat -> side lim (sp_rmesh p) x gr e (left_cell (cp_mesh (sp_base p)) e) (right_cell (cp_mesh (sp_base p)) e) k =
     face_left lim (local_geometry (cp_gid (sp_base p)) G) (fun l => slopes G m u k (cp_gid (sp_base p) l)) (fun c => comp k (to_local (rank_of (sp_base p)) u c)) (iedge_of (cp_mesh (sp_base p)) e)).
  { intros k Hk. unfold side, face_left, extrapolate, increment. cbn [sp_rmesh rm_centroid iedge_of ie_l ie_r local_geometry centroid midpoint].
    rewrite !(entry_comp u _ _ _ _ LO Hk) by assumption. rewrite (HS k _ Hk Hl), (ge_centroid _ _ _ GO _ Hl).
    assert (X := ge_midpoint _ _ _ GO e He). cbn [sp_rmesh] in X. rewrite X. unfold to_local. cbn [rank_of rk_gid iedge_of]. apply f_equal. apply f_equal. field. }
  assert (SR : forall k, (k < 3)%nat -> side lim (sp_rmesh p) x gr e (right_cell (cp_mesh (sp_base p)) e) (left_cell (cp_mesh (sp_base p)) e) k =
     face_right lim (local_geometry (cp_gid (sp_base p)) G) (fun l => slopes G m u k (cp_gid (sp_base p) l)) (fun c => comp k (to_local (rank_of (sp_base p)) u c)) (iedge_of (cp_mesh (sp_base p)) e)).
  { intros k Hk. unfold side, face_right, extrapolate, increment. cbn [sp_rmesh rm_centroid iedge_of ie_l ie_r local_geometry centroid midpoint].
    rewrite !(entry_comp u _ _ _ _ LO Hk) by assumption. rewrite (HS k _ Hk Hr), (ge_centroid _ _ _ GO _ Hr).
    assert (X := ge_midpoint _ _ _ GO e He). cbn [sp_rmesh] in X. rewrite X. unfold to_local. cbn [rank_of rk_gid iedge_of]. apply f_equal. apply f_equal. field. }
  unfold left_state, right_state, state_at. cbn [sp_rmesh rm_mesh]. fold (sp_rmesh p). unfold q, frozen_states. cbn [fst snd comps3 c0 c1 c2].
  rewrite !SL, !SR by lia.
  assert (MM : forall y, Rmax 0 (Rmax 0 y) = Rmax 0 y) by (intros; apply Rmax_right, Rmax_l). rewrite !MM. split; reflexivity.
Qed.

Section Process2.
  Context (lim : limiter) (cf : cconfig) (G : geometry) (m : mesh) (g : cellgeom) (src : nat -> vec3) (p : sprocess) (C : flow_config cf)
          (PO : process_ok Standard cf m (fun _ => 0) g src (sp_base p)) (GO : geometry_ok G m p) (UG : unoriented G).
  Local Notation b := (sp_base p).
  Local Notation M := (cp_mesh (sp_base p)).
  Context (dtm dt : R) (u f1 f2 : nat -> vec3) (ges : list iedge) (gbs : list bedge) (x : list R) (gr : list (list R)).
  Local Notation S2 := (frozen_ceed lim cf G (slopes G m u) g).
  Definition local2 : scheme := frozen (ceed_kernel cf) lim (local_geometry (cp_gid b) G) (fun k l => slopes G m u k (cp_gid b l)) (scheme_at Standard cf (fun _ => 0) g b).
  Hypothesis E1 : interior_loop vadd vscal everything (area m) (s_interior S2 u) (iedges m) zero_field = Some f1.
  Hypothesis E2 : boundary_loop vadd vscal everything (area m) (s_boundary S2 u) (bedges m) f1 = Some f2.
  Hypothesis Hes : owned_edges_are (rank_of b) ges.
  Hypothesis Hbs : owned_bedges_are (rank_of b) gbs.
  Hypothesis Hgi : incl ges (iedges m).
  Hypothesis Hgb : incl gbs (bedges m).
  Hypothesis LO : local_ok u b x.
  Hypothesis HS : has_slopes G m u p gr.

  Lemma ceed_kernel_flip a c sn cn : ceed_kernel cf c a (- sn) (- cn) = oneg (ceed_kernel cf a c sn cn).
  Proof. apply ceed_interior_flip. exact (proj2 (proj2 C)). Qed.
  Lemma local2_view : scheme_view (rk_gid (rank_of b)) S2 local2.
  Proof. unfold local2, frozen_ceed. apply frozen_view; [exact UG|exact (scheme_at_view Standard cf m (fun _ => 0) g src b C PO)|exact ceed_kernel_flip]. Qed.
  Local Notation K := (kl local2 (rank_of b) u).
  Local Notation KB := (kbl local2 (rank_of b) u).

  Lemma muscl_flux_total : exists y, muscl_flux_rhs lim cf (sp_rmesh p) (initial_eta M) gr dtm dt (cp_bounds b) x = Some y /\ length y = (3 * cm_cells M)%nat /\
    forall k c, (k < 3)%nat -> rsum (fun l => if Nat.eqb (cp_gid b l) c then nth (l * 3 + k) y 0 else 0) (seq 0 (cm_cells M)) =
      rsum (gcontrib S2 m u (component k) c) ges + rsum (gbcontrib S2 m u (component k) c) gbs.
  Proof.
    assert (Ht : 0 <= cf_tiny_h cf) by (destruct C as (_ & _ & T); lra). destruct LO as (Lx & Vx).
    destruct (C70_flux lim cf (sp_rmesh p) (initial_eta M) gr dtm dt (cp_bounds b) x (fun bd pe => comps3 (fst (KB (bedge_of M bd pe)))) (fun bd pe => snd (KB (bedge_of M bd pe)))) as (y & F & a & Ey & Ly & HF & V).
    - exact (supported_flow cf b C x Lx).
    - exact (proj1 C).
    - exact Ht.
    - exact (po_mesh _ _ _ _ _ _ _ PO).
    - exact (ge_inside _ _ _ GO).
    - exact (po_values _ _ _ _ _ _ _ PO).
    - unfold initial_eta. rewrite map_length, seq_length. reflexivity.
    - exact (proj1 HS).
    - cbn [sp_rmesh rm_mesh]. lia.
    - cbn [sp_rmesh rm_mesh]. intros bd pe Hb Ho. destruct (bedge_inside _ _ _ _ _ _ _ PO bd pe Hb Ho) as (Hc & V1 & V2).
      assert (A := view_bedge_kernel S2 local2 m b local2_view (po_numbering _ _ _ _ _ _ _ PO) u f1 f2 gbs E2 Hbs Hgb bd pe Hb (proj2 (owned_boundary_spec M bd pe) Ho)).
      unfold bflux_at, boundary_flux. rewrite (proj1 C), Nat.eqb_refl, C67_eta_initial by assumption. rewrite (num_comp_flow cf C), (Vx _ Hc), v3_comps3.
      change (s_boundary local2 (to_local (rank_of b) u) (bedge_of M bd pe)) with
        (ceed_boundary_edge GRAVITY (cf_tiny_h cf) (cf_h_anuga cf) (flow_condition (cb_type bd) (block 3 (cb_values bd) (fst pe))) (u (cp_gid b (left_cell M (snd pe)))) (cm_sn M (snd pe)) (cm_cn M (snd pe)) 0) in A.
      rewrite A, obind_Some. reflexivity.
    - cbn [sp_rmesh rm_mesh] in Ey, Ly, HF, V. exists y. split; [exact Ey|]. split; [lia|].
      apply (flux_total S2 local2 m b local2_view (po_numbering _ _ _ _ _ _ _ PO) (po_area _ _ _ _ _ _ _ PO) u f1 f2 ges gbs E1 E2 Hes Hbs Hgi Hgb y).
      intros c k Hc Hk. specialize (V c k Hc Hk). rewrite (l2o_id _ _ _ _ _ _ _ PO c Hc) in V. rewrite V. apply f_equal2; [|reflexivity].
      unfold from_internal, hr_from_internal. apply rsum_ext. intros e He.
      assert (KE : fst (fst (K (iedge_of M e))) = snd (fst (K (iedge_of M e))) /\ F e = comps3 (fst (fst (K (iedge_of M e))))).
      { assert (A := view_edge_kernel S2 local2 m b local2_view (po_numbering _ _ _ _ _ _ _ PO) u f1 ges E1 Hes Hgi e He). specialize (HF e He).
        destruct (edge_inside _ _ _ _ _ _ _ PO e He) as (_ & _ & V1 & V2).
        destruct (face_states_read lim G m u p x gr e LO HS GO He) as (SL & SR). fold (sp_rmesh p) in HF. rewrite SL, SR in HF.
        unfold interior_flux in HF. rewrite (proj1 C), Nat.eqb_refl, C67_eta_initial, !v3_comps3 in HF by assumption.
        unfold local2 in A at 1. cbn [frozen s_interior iedge_of ie_sn ie_cn] in A. unfold ceed_kernel in A. fold (iedge_of M e) in A.
        destruct (ceed_interior_edge _ _ _ _ _ _ _ _) as [[fl w]|]; [|discriminate HF]. rewrite obind_Some in HF. injection HF as HF _. cbn in A. injection A as A. rewrite <- A. cbn [fst snd]. auto. }
      destruct KE as (KE & FE). rewrite <- KE, <- FE. reflexivity.
  Qed.
End Process2.
