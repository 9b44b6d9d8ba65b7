(** C67, C68: the arrays read and written by the libCEED back end. *)
From Coq Require Import String.
From Verif Require DataProofs HRProofs MMSModel.
From Verif Require Import Base RoeModel RoeProofs EdgeModel EdgeProofs EtaModel SourceModel TracerModel TracerProofs TracerMeshProofs MeshMapsProofs AMRProofs CeedLayoutModel CeedLayoutSpec CeedLayoutProofs.
Local Open Scope R_scope.
Local Notation length := List.length.

(** ** C67: the flux operator *)

(* configurations and boundaries whose Q-functions read what the operator supplies *)
Record supported (cf : cconfig) (bs : list cboundary) : Prop := {
  su_riemann : num_tracers cf = 0%nat -> cf_riemann cf = RIEMANN_ROE;
  su_tracers : (num_tracers cf <= MAX_NUM_SEDIMENT_CLASSES)%nat;
  su_outflow : num_tracers cf <> 0%nat -> forall b, In b bs -> cb_type b <> CRITICAL_OUTFLOW;
  su_dirichlet : num_tracers cf <> 0%nat -> forall b, In b bs -> cb_type b = DIRICHLET -> cf_classes cf <> 0%nat;
}.
(* one block of values for each edge of a Dirichlet boundary *)
Definition values_ok (cf : cconfig) (bs : list cboundary) : Prop :=
  forall b, In b bs -> cb_type b = DIRICHLET -> length (cb_values b) = (num_comp cf * length (cb_edges b))%nat.

(* the flux through an internal edge, and through the edge at position p of a boundary *)
Definition flux_at cf m eta u e : option (list R * R) :=
  interior_flux cf (block (num_comp cf) u (left_cell m e)) (block (num_comp cf) u (right_cell m e)) (cm_sn m e) (cm_cn m e) (edge_dhv m eta e).
Definition bflux_at cf m eta u b (pe : nat * nat) : option (list R * R) :=
  boundary_flux cf (cb_type b) (block (num_comp cf) (cb_values b) (fst pe)) (block (num_comp cf) u (left_cell m (snd pe))) (cm_sn m (snd pe)) (cm_cn m (snd pe)) (edge_dhv m eta (snd pe)).
Definition edge_wet cf m u b (pe : nat * nat) : Prop :=
  cf_tiny_h cf < nth 0 (block (num_comp cf) u (left_cell m (snd pe))) 0 \/ cf_tiny_h cf < nth 0 (block (num_comp cf) (cb_values b) (fst pe)) 0.

(* what the edges of a mesh give to component k of cell c, per unit of area *)
Definition from_internal m (F : nat -> list R) c k : R :=
  rsum (fun e => (if Nat.eqb (left_cell m e) c then - (cm_len m e / cm_area m c * nth k (F e) 0) else 0) +
                 (if Nat.eqb (right_cell m e) c then cm_len m e / cm_area m c * nth k (F e) 0 else 0)) (owned_internal m).
Definition from_boundary m b (G : nat * nat -> list R) c k : R :=
  rsum (fun pe => if Nat.eqb (left_cell m (snd pe)) c then - (cm_len m (snd pe) / cm_area m c * nth k (G pe) 0) else 0) (owned_boundary m b).

Lemma gain_internal m F c k : rsum (gain m F c k) (owned_internal m) = from_internal m F c k.
Proof. unfold from_internal. apply rsum_ext. intros e _. unfold gain. f_equal. destruct (Nat.eqb _ _); [|reflexivity]. unfold Rdiv. ring. Qed.
Lemma gain_boundary m b G c k : rsum (bgain m G c k) (owned_boundary m b) = from_boundary m b G c k.
Proof. unfold from_boundary. apply rsum_ext. intros pe _. unfold bgain. destruct (Nat.eqb _ _); [|reflexivity]. unfold Rdiv. ring. Qed.

Lemma boundary_body_some cf bs b dt : supported cf bs -> In b bs -> exists body, boundary_body cf (cb_type b) dt = Some body.
Proof.
  intros S Hb. unfold boundary_body. destruct (Nat.eqb_spec (num_tracers cf) 0) as [E|E].
  - rewrite (su_riemann cf bs S E). eexists; reflexivity.
  - assert (N := su_outflow cf bs S E b Hb). destruct (cb_type b); try (eexists; reflexivity). contradiction N; reflexivity.
Qed.
Lemma interior_body_some cf bs dt : supported cf bs -> exists body, interior_body cf dt = Some body.
Proof. intros S. unfold interior_body. destruct (Nat.eqb_spec (num_tracers cf) 0) as [E|E]; [rewrite (su_riemann cf bs S E)|]; eexists; reflexivity. Qed.

(* The local right-hand side: block l2o(c) of the vector gains, in every component, the fluxes through the
   owned edges of cell c and nothing else; Dirichlet edges read their own block of the boundary values. *)
Theorem C67_flux : forall cf m eta dt bs u F a G ga,
  supported cf bs -> mesh_ok m bs -> values_ok cf bs -> length eta = cm_vertices m -> length u = (num_comp cf * cm_cells m)%nat ->
  (forall e, In e (cm_internal m) -> cm_eowned m e = true -> flux_at cf m eta u e = Some (F e, a e)) ->
  (forall b pe, In b bs -> owned_edge m b pe -> bflux_at cf m eta u b pe = Some (G b pe, ga b pe)) ->
  (forall b pe, In b bs -> owned_edge m b pe -> cb_type b = DIRICHLET -> num_tracers cf <> 0%nat -> edge_wet cf m u b pe) ->
  exists x, flux_rhs cf m eta dt bs u = Some x /\ length x = (num_comp cf * cm_cells m)%nat /\
    forall c k, (c < cm_cells m)%nat -> (k < num_comp cf)%nat ->
      nth (cm_l2o m c * num_comp cf + k) x 0 = from_internal m F c k + rsum (fun b => from_boundary m b (G b) c k) bs.
Proof.
  intros cf m eta dt bs u F a G ga S M V HE HU HF HG HW.
  destruct (interior_body_some cf bs dt S) as (ib & Hib).
  unfold flux_rhs, CreateCeedFluxOperator. rewrite (interior_created cf m eta dt bs ib M Hib), obind_Some.
  assert (K : forall l, (forall b, In b l -> In b bs) -> forall x0, length x0 = (num_comp cf * cm_cells m)%nat ->
    exists ops x, omap (CreateCeedBoundaryFluxSuboperator cf m eta dt) l = Some ops /\ apply_add_all ops u x0 = Some x /\ length x = (num_comp cf * cm_cells m)%nat /\
      forall c k, (c < cm_cells m)%nat -> (k < num_comp cf)%nat ->
        nth (cm_l2o m c * num_comp cf + k) x 0 = nth (cm_l2o m c * num_comp cf + k) x0 0 + rsum (fun b => from_boundary m b (G b) c k) l).
  { induction l as [|b l IH]; intros Hl x0 Hx0.
    - exists [], x0. split; [reflexivity|]. split; [reflexivity|]. split; [exact Hx0|]. intros; cbn [rsum]. ring.
    - assert (Hb := Hl b (or_introl eq_refl)). destruct (boundary_body_some cf bs b dt S Hb) as (body & HB).
      destruct (boundary_apply cf m eta dt body bs b u (G b) (ga b) x0 M Hb HE HU (V b Hb) (su_tracers cf bs S) HB Hx0) as (x1 & E1 & L1 & V1).
      + intros ED EN. exact (su_dirichlet cf bs S EN b Hb ED).
      + intros p e Hin ED EN. exact (HW b (p, e) Hb (proj1 (owned_boundary_spec m b (p, e)) Hin) ED EN).
      + intros p e Hin. exact (HG b (p, e) Hb (proj1 (owned_boundary_spec m b (p, e)) Hin)).
      + destruct (IH (fun b' Hb' => Hl b' (or_intror Hb')) x1 ltac:(lia)) as (ops & x & E2 & E3 & L3 & V3').
        exists (boundary_op cf m eta b body :: ops), x. cbn [omap]. rewrite (boundary_created cf m eta dt bs b body M Hb HB), obind_Some, E2, obind_Some. split; [reflexivity|].
        split; [unfold apply_add_all in *; cbn [ofold]; rewrite E1, obind_Some; exact E3|]. split; [exact L3|].
        intros c k Hc Hk. rewrite V3', V1 by assumption. rewrite gain_boundary. cbn [rsum]. ring. }
  destruct (interior_apply cf m eta dt ib bs u F a (repeat 0 (num_comp cf * cm_cells m)) M HE HU (su_tracers cf bs S) Hib) as (x1 & E1 & L1 & V1).
  - apply repeat_length.
  - intros e He. apply owned_internal_in in He. destruct He. apply HF; assumption.
  - rewrite repeat_length in L1. destruct (K bs (fun b H => H) x1 L1) as (ops & x & E2 & E3 & L3 & V3').
    rewrite E2, obind_Some, obind_Some. exists x. split; [|split; [exact L3|]].
    + unfold apply_add_all. cbn [ofold]. rewrite E1, obind_Some. exact E3.
    + intros c k Hc Hk. rewrite V3', V1 by assumption. rewrite gain_internal. rewrite nth_repeat. ring.
Qed.
Print Assumptions C67_flux.

(* the components of a cell in these arrays are those of the solution: depth and momenta, the sediment classes,
   salinity and temperature *)
Theorem C67_components : forall cf s, num_comp cf = length (MMSModel.components s (cf_classes cf) (cf_salinity cf) (cf_heat cf)).
Proof.
  intros cf s. unfold num_comp, num_tracers, MMSModel.components. cbn [app length]. rewrite !app_length, map_length, seq_length. destruct (cf_salinity cf), (cf_heat cf); cbn [length]; lia.
Qed.
Print Assumptions C67_components.

(* before the vertex elevations of the surface are computed, nothing is added to the Roe flux *)
Theorem C67_eta_initial : forall m e, (vertex_beg m e < cm_vertices m)%nat -> (vertex_end m e < cm_vertices m)%nat -> edge_dhv m (initial_eta m) e = 0.
Proof.
  intros m e H1 H2. unfold edge_dhv, initial_eta, ComputeDhv.
  assert (N : forall v, (v < cm_vertices m)%nat -> nth v (map (cm_z m) (seq 0 (cm_vertices m))) 0 = cm_z m v).
  { intros v Hv. rewrite (nth_indep _ 0 (cm_z m 0%nat)) by (rewrite map_length, seq_length; exact Hv). rewrite (map_nth (cm_z m)), seq_nth by exact Hv. reflexivity. }
  rewrite !N by assumption. replace (cm_z m (vertex_end m e) - cm_z m (vertex_end m e)) with 0 by ring. replace (cm_z m (vertex_beg m e) - cm_z m (vertex_beg m e)) with 0 by ring. ring.
Qed.
Print Assumptions C67_eta_initial.

(* The i-th owned edge of a boundary has its flux recorded at block i of the flux vector (on reflecting
   edges, only without tracers). *)
Theorem C67_recorded : forall cf m eta dt bs u b i p e G ga,
  supported cf bs -> mesh_ok m bs -> values_ok cf bs -> length eta = cm_vertices m -> length u = (num_comp cf * cm_cells m)%nat -> In b bs ->
  nth_error (owned_boundary m b) i = Some (p, e) -> bflux_at cf m eta u b (p, e) = Some (G, ga) ->
  (cb_type b = DIRICHLET -> num_tracers cf <> 0%nat -> edge_wet cf m u b (p, e)) ->
  (cb_type b = REFLECTING -> num_tracers cf = 0%nat) ->
  exists op, CreateCeedBoundaryFluxSuboperator cf m eta dt b = Some op /\ passive_output op u "flux" i = Some (Some G) /\
    passive_output op u "courant_number" i = Some (Some [ga * (cm_len m e / cm_area m (left_cell m e)) * dt]).
Proof.
  intros cf m eta dt bs u b i p e G ga S M V HE HU Hb Hi HG HW HR.
  destruct (boundary_body_some cf bs b dt S Hb) as (body & HB). exists (boundary_op cf m eta b body). split; [exact (boundary_created cf m eta dt bs b body M Hb HB)|].
  assert (P := boundary_point cf m eta dt body bs b u i p e (fun _ => G) (fun _ => ga) M Hb HE HU (V b Hb) (su_tracers cf bs S) HB
    (fun ED EN => su_dirichlet cf bs S EN b Hb ED) HW Hi HG).
  unfold passive_output. rewrite P, obind_Some. split.
  - unfold boundary_outputs, recorded. cbn. destruct (cb_type b) eqn:ED; [reflexivity| |reflexivity]. rewrite (HR eq_refl). reflexivity.
  - unfold boundary_outputs. cbn. do 3 f_equal. unfold Rdiv. ring.
Qed.
Print Assumptions C67_recorded.

(* Prescribed values: exactly the chosen components of every edge change, to the caller's values. *)
Theorem C67_boundary_values : forall total off n edges values x,
  (off + n <= total)%nat -> length values = (n * edges)%nat -> length x = (total * edges)%nat ->
  exists x', SetCeedOperatorBoundaryData total off n edges values x = Some x' /\ length x' = length x /\
    forall e k, (e < edges)%nat -> (k < total)%nat ->
      nth k (block total x' e) 0 = if (Nat.leb off k && Nat.ltb k (off + n))%bool then nth (n * e + (k - off)) values 0 else nth k (block total x e) 0.
Proof.
  intros total off n edges values x Hoff HV HX.
  assert (IN : forall c, (c < n)%nat -> forall l x0, length x0 = (total * edges)%nat -> (forall e, In e l -> (e < edges)%nat) ->
    exists x1, ofold (fun x e => let* v := nth_error values (n * e + c) in upd x (e * total + (off + c)) v) l x0 = Some x1 /\ length x1 = length x0 /\
      forall e k, (k < total)%nat -> nth (e * total + k) x1 0 = if (Nat.eqb k (off + c) && existsb (Nat.eqb e) l)%bool then nth (n * e + c) values 0 else nth (e * total + k) x0 0).
  { intros c Hc l. induction l as [|a l IH]; intros x0 L0 Hl; cbn [ofold existsb].
    - exists x0. split; [reflexivity|]. split; [reflexivity|]. intros. rewrite Bool.andb_false_r. reflexivity.
    - assert (Ha := Hl a (or_introl eq_refl)). rewrite (nth_error_in_range values (n * a + c)) by nia. rewrite obind_Some.
      destruct (upd_some x0 (a * total + (off + c)) (nth (n * a + c) values 0)) as (x1 & E1); [nia|]. rewrite E1, obind_Some.
      assert (L1 := upd_length _ _ _ _ E1). destruct (IH x1 ltac:(lia) (fun e He => Hl e (or_intror He))) as (x2 & E2 & L2 & V2).
      exists x2. split; [exact E2|]. split; [lia|]. intros e k Hk. rewrite V2, (upd_nth _ _ _ _ (e * total + k) E1) by exact Hk.
      destruct (Nat.eqb_spec k (off + c)) as [X|X]; cbn [andb].
      + destruct (Nat.eqb_spec e a) as [Y|Y]; cbn [orb].
        * rewrite X, Y, Nat.eqb_refl. destruct (existsb _ l); reflexivity.
        * destruct (existsb _ l); [reflexivity|]. destruct (Nat.eqb_spec (e * total + k) (a * total + (off + c))) as [Z|Z]; [|reflexivity]. exfalso. nia.
      + destruct (Nat.eqb_spec (e * total + k) (a * total + (off + c))) as [Z|Z]; [|reflexivity]. exfalso. assert (e = a) by nia. subst. lia. }
  assert (OUT : forall l x0, length x0 = (total * edges)%nat -> (forall c, In c l -> (c < n)%nat) ->
    exists x1, ofold (fun x c => ofold (fun x e => let* v := nth_error values (n * e + c) in upd x (e * total + (off + c)) v) (seq 0 edges) x) l x0 = Some x1 /\ length x1 = length x0 /\
      forall e k, (e < edges)%nat -> (k < total)%nat -> nth (e * total + k) x1 0 = if existsb (fun c => Nat.eqb k (off + c)) l then nth (n * e + (k - off)) values 0 else nth (e * total + k) x0 0).
  { induction l as [|c l IH]; intros x0 L0 Hl; cbn [ofold existsb].
    - exists x0. repeat split; auto.
    - destruct (IN c (Hl c (or_introl eq_refl)) (seq 0 edges) x0 L0) as (x1 & E1 & L1 & V1). { intros e He. apply in_seq in He. lia. }
      rewrite E1, obind_Some. destruct (IH x1 ltac:(lia) (fun c He => Hl c (or_intror He))) as (x2 & E2 & L2 & V2). exists x2. split; [exact E2|]. split; [lia|].
      intros e k He Hk. rewrite V2, V1 by assumption.
      assert (IE : existsb (Nat.eqb e) (seq 0 edges) = true). { apply existsb_exists. exists e. split; [apply in_seq; lia|apply Nat.eqb_refl]. }
      rewrite IE, Bool.andb_true_r. destruct (Nat.eqb_spec k (off + c)) as [X|X]; cbn [orb]; [|reflexivity].
      subst k. replace (off + c - off)%nat with c by lia. destruct (existsb _ l); reflexivity. }
  destruct (OUT (seq 0 n) x HX) as (x' & E & L & V). { intros c Hc. apply in_seq in Hc. lia. }
  exists x'. split; [exact E|]. split; [exact L|]. intros e k He Hk. rewrite !nth_block by exact Hk. rewrite V by assumption.
  assert (X : existsb (fun c => Nat.eqb k (off + c)) (seq 0 n) = (Nat.leb off k && Nat.ltb k (off + n))%bool).
  { apply Bool.eq_iff_eq_true. rewrite existsb_exists, Bool.andb_true_iff, Nat.leb_le, Nat.ltb_lt. split.
    - intros (c & Hc & Y). apply in_seq in Hc. apply Nat.eqb_eq in Y. lia.
    - intros (Y1 & Y2). exists (k - off)%nat. split; [apply in_seq; lia|]. apply Nat.eqb_eq. lia. }
  rewrite X. reflexivity.
Qed.
Print Assumptions C67_boundary_values.

(** ** C68: the source operator *)
Theorem C68_sources : forall cf m ext mat div dt u S,
  (num_tracers cf <= MAX_NUM_SEDIMENT_CLASSES)%nat -> (num_tracers cf <> 0%nat -> cf_source cf <> SOURCE_IMPLICIT_XQ2018) -> 0 <= cf_tiny_h cf ->
  length ext = (num_comp cf * length (owned_cells m))%nat -> length mat = length (owned_cells m) -> length div = (num_comp cf * length (owned_cells m))%nat ->
  length u = (num_comp cf * cm_cells m)%nat -> numbered m ->
  (forall i c, nth_error (owned_cells m) i = Some c ->
     source_update cf dt (nth i mat 0) (cm_dzdx m c) (cm_dzdy m c) (block (num_comp cf) u c) (block (num_comp cf) div i) (block (num_comp cf) ext i) = Some (S i)) ->
  (exists x, source_rhs cf m ext mat div dt u = Some x /\ length x = (num_comp cf * length (owned_cells m))%nat /\
     forall i, (i < length (owned_cells m))%nat -> block (num_comp cf) x i = S i) /\
  (exists op, CreateCeedSourceSuboperator cf m ext mat div dt = Some op /\
     forall i c, nth_error (owned_cells m) i = Some c ->
       passive_output op u "primitive_variables" i = Some (Some (primitives cf (block (num_comp cf) u c))) /\
       passive_output op u "sources" i = Some (Some (block (num_comp cf) ext i))).
Proof.
  intros cf m ext mat div dt u S HT HQ Htiny HX HM HD HU HN HS.
  assert (HB : exists body, source_body cf dt = Some body).
  { unfold source_body. cbv zeta. destruct (cf_source cf); [eexists; reflexivity| |eexists; reflexivity]. destruct (Nat.eqb_spec (num_tracers cf) 0) as [E|E]; [eexists; reflexivity|]. contradiction (HQ E). reflexivity. }
  destruct HB as (body & HB). assert (HC := source_created cf m ext mat div dt body HB).
  pose (P := fun i : nat => [Some (S i); Some (primitives cf (block (num_comp cf) u (nth i (owned_cells m) 0%nat))); Some (block (num_comp cf) ext i)]).
  assert (PT : forall i c, nth_error (owned_cells m) i = Some c -> point (source_op cf m ext mat div body) u i = Some (P i)).
  { intros i c Hi. unfold P. rewrite (nth_error_nth _ _ _ Hi). exact (source_point cf m ext mat div dt body u i c (S i) HX HM HD HU Hi HT HB Htiny (HS i c Hi)). }
  split.
  - unfold source_rhs. rewrite HC, obind_Some. unfold apply, apply_add_all. cbn [ofold].
    assert (HP : points (source_op cf m ext mat div body) u = Some (map P (seq 0 (length (owned_cells m))))).
    { unfold points. destruct (source_same cf m ext mat div body) as (S1 & S2). rewrite S1, S2. apply omap_map. intros i Hi. apply in_seq in Hi.
      apply (PT i (nth i (owned_cells m) 0%nat)). apply nth_error_nth'. lia. }
    assert (LS : forall i, (i < length (owned_cells m))%nat -> length (S i) = num_comp cf).
    { intros i Hi. eapply source_update_length. apply (HS i (nth i (owned_cells m) 0%nat)). apply nth_error_nth'. exact Hi. }
    destruct (scatter_all (num_comp cf) (fun i => i) P S 0%nat (seq 0 (length (owned_cells m))) (repeat 0 (num_comp cf * length (owned_cells m)))) as (x1 & E1 & L1 & V1).
    { intros i Hi. apply in_seq in Hi. split; [reflexivity|]. split; [apply LS; lia|]. rewrite repeat_length. nia. }
    rewrite repeat_length in L1. exists x1.
    assert (OF : map (fun c => cm_l2o m c * num_comp cf)%nat (owned_cells m) = map (fun i => i * num_comp cf)%nat (seq 0 (length (owned_cells m)))).
    { apply nth_error_ext. intros i. rewrite !nth_error_map. destruct (nth_error (owned_cells m) i) as [c|] eqn:Hi; cbn [option_map].
      - assert (Li : (i < length (owned_cells m))%nat) by (apply nth_error_Some; congruence). rewrite (nth_error_nth' (seq 0 (length (owned_cells m))) 0%nat) by (rewrite seq_length; exact Li). rewrite seq_nth by exact Li. rewrite (HN i c Hi). reflexivity.
      - apply nth_error_None in Hi. rewrite (proj2 (nth_error_None (seq 0 (length (owned_cells m))) i)) by (rewrite seq_length; exact Hi). reflexivity. }
    split; [|split; [exact L1|]].
    + unfold apply_add. rewrite HP, obind_Some. cbn [co_qf qf_outputs source_op length seq combine ofold].
      assert (S1 : forall y, scatter_output (source_op cf m ext mat div body) (map P (seq 0 (length (owned_cells m)))) y (0%nat, ("cell"%string, num_comp cf)) =
        ofold (fun x p => let* o := nth_error (snd p) 0 in let* z := o in add_into x (fst p) z) (combine (map (fun i => i * num_comp cf)%nat (seq 0 (length (owned_cells m)))) (map P (seq 0 (length (owned_cells m))))) y).
      { intros y. rewrite <- OF. reflexivity. }
      unfold source_op in S1 |- *. cbv zeta in S1 |- *. rewrite S1, E1, obind_Some. reflexivity.
    + intros i Hi. apply (nth_ext _ _ 0 0). { rewrite block_length, LS by (try exact Hi; rewrite L1; nia). reflexivity. }
      rewrite block_length by (rewrite L1; nia). intros k Hk. rewrite nth_block, V1 by exact Hk. rewrite nth_repeat.
      rewrite (rsum_single (fun e => if Nat.eqb e i then nth k (S e) 0 else 0) (length (owned_cells m)) i).
      * rewrite Nat.eqb_refl. ring.
      * exact Hi.
      * intros j _ Hj. destruct (Nat.eqb_spec j i); [contradiction|reflexivity].
  - exists (source_op cf m ext mat div body). split; [exact HC|]. intros i c Hi. unfold passive_output. rewrite (PT i c Hi), obind_Some. unfold P. rewrite (nth_error_nth _ _ _ Hi). split; reflexivity.
Qed.
Print Assumptions C68_sources.

Lemma filter_keep {A} (f : A -> bool) l : (forall a, In a l -> f a = true) -> filter f l = l.
Proof. induction l as [|a l IH]; intros H; cbn; [reflexivity|]. rewrite (H a (or_introl eq_refl)), IH; [reflexivity|]. intros b Hb. apply H. right. exact Hb. Qed.

(** ** Recorded fluxes as the caller gets them *)

(* When all edges of a boundary are owned, the flux of the edge at position p is the one handed out for p. *)
Theorem C67_extracted : forall cf m eta dt bs u b G ga,
  supported cf bs -> mesh_ok m bs -> values_ok cf bs -> length eta = cm_vertices m -> length u = (num_comp cf * cm_cells m)%nat -> In b bs ->
  (forall e, In e (cb_edges b) -> cm_eowned m e = true) ->
  (forall p e, nth_error (cb_edges b) p = Some e -> bflux_at cf m eta u b (p, e) = Some (G p, ga p)) ->
  (forall p e, nth_error (cb_edges b) p = Some e -> cb_type b = DIRICHLET -> num_tracers cf <> 0%nat -> edge_wet cf m u b (p, e)) ->
  (cb_type b = REFLECTING -> num_tracers cf = 0%nat) ->
  exists op x, CreateCeedBoundaryFluxSuboperator cf m eta dt b = Some op /\ flux_vector op u (length (cb_edges b) * num_comp cf) = Some x /\
    forall p k, (p < length (cb_edges b))%nat -> (k < num_comp cf)%nat -> extracted_flux (num_comp cf) x p k = nth_error (G p) k.
Proof.
  intros cf m eta dt bs u b G ga S M V HE HU Hb HO HG HW HR.
  destruct (boundary_body_some cf bs b dt S Hb) as (body & HB). exists (boundary_op cf m eta b body).
  assert (OB : owned_boundary m b = combine (seq 0 (length (cb_edges b))) (cb_edges b)).
  { unfold owned_boundary. apply filter_keep. intros (p, e) H. apply HO. exact (in_combine_r _ _ _ _ H). }
  assert (NB : forall p e, nth_error (cb_edges b) p = Some e -> nth_error (owned_boundary m b) p = Some (p, e)).
  { intros p e H. rewrite OB. assert (L : (p < length (cb_edges b))%nat) by (apply nth_error_Some; congruence).
    rewrite (nth_error_nth' _ (0%nat, e)) by (rewrite combine_length, seq_length; lia). rewrite combine_nth by apply seq_length. rewrite seq_nth by exact L. rewrite (nth_error_nth _ _ _ H). reflexivity. }
  assert (EL : elems (boundary_op cf m eta b body) = length (cb_edges b)).
  { rewrite (proj2 (boundary_same cf m eta b body)), OB, combine_length, seq_length. lia. }
  assert (CR := boundary_created cf m eta dt bs b body M Hb HB).
  assert (FV : omap (fun i => let* o := passive_output (boundary_op cf m eta b body) u "flux" i in o) (seq 0 (length (cb_edges b))) = Some (map G (seq 0 (length (cb_edges b))))).
  { apply omap_map. intros p Hp. apply in_seq in Hp. assert (Hn : nth_error (cb_edges b) p = Some (nth p (cb_edges b) 0%nat)) by (apply nth_error_nth'; lia).
    destruct (C67_recorded cf m eta dt bs u b p p _ (G p) (ga p) S M V HE HU Hb (NB _ _ Hn) (HG _ _ Hn) (HW _ _ Hn) HR) as (op & C & R1 & _). rewrite CR in C. injection C as <-. rewrite R1. reflexivity. }
  assert (LG : Forall (fun r => length r = num_comp cf) (map G (seq 0 (length (cb_edges b))))).
  { apply Forall_forall. intros r Hr. apply in_map_iff in Hr. destruct Hr as (p & <- & Hp). apply in_seq in Hp. eapply boundary_flux_length. apply (HG p (nth p (cb_edges b) 0%nat)). apply nth_error_nth'. lia. }
  assert (FR := fun tail p r H => fetch_rows (num_comp cf) (map G (seq 0 (length (cb_edges b)))) tail p r LG H).
  exists (concat (map G (seq 0 (length (cb_edges b)))) ++ repeat 0 (length (cb_edges b) * num_comp cf - length (concat (map G (seq 0 (length (cb_edges b)))))))%list.
  split; [exact CR|]. split. { unfold flux_vector. rewrite EL, FV, obind_Some. reflexivity. }
  intros p k Hp Hk.
  assert (Hn : nth_error (map G (seq 0 (length (cb_edges b)))) p = Some (G p)).
  { rewrite nth_error_map, (nth_error_nth' (seq 0 (length (cb_edges b))) 0%nat) by (rewrite seq_length; exact Hp). rewrite seq_nth by exact Hp. reflexivity. }
  unfold extracted_flux. rewrite (Nat.mul_comm p (num_comp cf)). assert (X := FR (repeat 0 (length (cb_edges b) * num_comp cf - length (concat (map G (seq 0 (length (cb_edges b))))))) p (G p) Hn).
  unfold fetch in X. assert (Y := DataProofs.omap_nth _ _ _ X k). rewrite (nth_error_nth' (seq 0 (num_comp cf)) 0%nat) in Y by (rewrite seq_length; exact Hk). rewrite seq_nth in Y by exact Hk. rewrite obind_Some in Y. change (0 + k)%nat with k in Y. symmetry. exact Y.
Qed.
Print Assumptions C67_extracted.

(** ** What the theorems exclude *)

Lemma omap_none {A B} (f : A -> option B) a l : In a l -> f a = None -> omap f l = None.
Proof. induction l as [|b l IH]; intros H E; [destruct H|]. cbn [omap]. destruct H as [->|H]; [rewrite E; reflexivity|]. destruct (f b); [|reflexivity]. cbn [obind]. rewrite (IH H E). reflexivity. Qed.
Lemma ofold_none {A B} (f : A -> B -> option A) b l : In b l -> (forall x, f x b = None) -> forall x, ofold f l x = None.
Proof. induction l as [|c l IH]; intros H E x; [destruct H|]. cbn [ofold]. destruct H as [->|H]; [rewrite E; reflexivity|]. destruct (f x c) as [y|]; [|reflexivity]. cbn [obind]. apply IH; assumption. Qed.
Lemma apply_none op u i x : same_elems op = true -> (i < elems op)%nat -> point op u i = None -> apply_add op u x = None.
Proof. intros S H P. unfold apply_add, points. rewrite S, (omap_none (point op u) i); [reflexivity|apply in_seq; lia|exact P]. Qed.

(* a boundary one of whose edges has no result takes the whole right-hand side with it *)
Lemma rhs_none cf m eta dt bs u b body i p e : mesh_ok m bs -> In b bs -> boundary_body cf (cb_type b) dt = Some body ->
  nth_error (owned_boundary m b) i = Some (p, e) -> point (boundary_op cf m eta b body) u i = None -> flux_rhs cf m eta dt bs u = None.
Proof.
  intros M Hb HB Hi HP. unfold flux_rhs, CreateCeedFluxOperator. destruct (CreateCeedInteriorFluxSuboperator cf m eta dt) as [iop|]; [|reflexivity]. rewrite obind_Some.
  destruct (omap (CreateCeedBoundaryFluxSuboperator cf m eta dt) bs) as [l|] eqn:EL; [|reflexivity]. rewrite obind_Some, obind_Some.
  unfold apply_add_all. apply (ofold_none (fun x op => apply_add op u x) (boundary_op cf m eta b body)).
  - right. apply In_nth_error in Hb. destruct Hb as (n & Hn). assert (X := DataProofs.omap_nth _ _ _ EL n). rewrite Hn, obind_Some in X. rewrite (boundary_created cf m eta dt bs b body M (nth_error_In _ _ Hn) HB) in X. exact (nth_error_In _ _ X).
  - intros x. destruct (boundary_same cf m eta b body) as (S1 & S2). apply (apply_none _ u i); [exact S1|rewrite S2; apply nth_error_Some; congruence|exact HP].
Qed.
Lemma point_bad op u i ins : omap (input_at op u i) (qf_inputs (co_qf op)) = Some ins ->
  (forall outs, qf_body (co_qf op) ins = Some outs -> outputs_fit outs (qf_outputs (co_qf op)) = false) -> point op u i = None.
Proof. intros H K. unfold point. rewrite H, obind_Some. destruct (qf_body (co_qf op) ins) as [o|]; [|reflexivity]. rewrite obind_Some, (K o eq_refl). reflexivity. Qed.

(* Salinity or heat without sediment: the boundary values are the fifth input, the Q-function reads the third
   (a surface elevation). *)
Lemma salinity_dirichlet cf m eta dt bs u b i p e : mesh_ok m bs -> In b bs -> values_ok cf bs -> length eta = cm_vertices m -> length u = (num_comp cf * cm_cells m)%nat ->
  cf_classes cf = 0%nat -> num_tracers cf <> 0%nat -> cb_type b = DIRICHLET -> nth_error (owned_boundary m b) i = Some (p, e) -> flux_rhs cf m eta dt bs u = None.
Proof.
  intros M Hb V HE HU HC HN HD Hi.
  assert (HB : boundary_body cf (cb_type b) dt = Some (TracerBoundaryFlux_Dirichlet (tkind (cf_riemann cf)) (num_tracers cf) (cf_tiny_h cf) dt)).
  { unfold boundary_body. cbv zeta. destruct (Nat.eqb_spec (num_tracers cf) 0); [contradiction|]. rewrite HD. reflexivity. }
  apply (rhs_none cf m eta dt bs u b _ i p e M Hb HB Hi). eapply point_bad; [exact (boundary_ins cf m eta _ bs b u i p e M Hb HE HU (V b Hb) Hi)|].
  intros outs H. exfalso. revert H. cbn [co_qf qf_body boundary_op]. unfold with_eta. rewrite HC. cbn [Nat.eqb]. unfold TracerBoundaryFlux_Dirichlet. cbn [app nth_error]. rewrite !obind_Some.
  destruct (tracer_state _ _); [|discriminate]. rewrite obind_Some. unfold tracer_state, swe_state. cbn. discriminate.
Qed.
(* A Dirichlet edge dry on both sides, with tracers: a second Courant number is written where there is room
   for one. *)
Lemma dry_dirichlet cf m eta dt bs u b i p e : mesh_ok m bs -> In b bs -> values_ok cf bs -> length eta = cm_vertices m -> length u = (num_comp cf * cm_cells m)%nat ->
  num_tracers cf <> 0%nat -> cb_type b = DIRICHLET -> cf_classes cf <> 0%nat -> nth_error (owned_boundary m b) i = Some (p, e) -> ~ edge_wet cf m u b (p, e) -> flux_rhs cf m eta dt bs u = None.
Proof.
  intros M Hb V HE HU HN HD HC Hi HW.
  assert (HB : boundary_body cf (cb_type b) dt = Some (TracerBoundaryFlux_Dirichlet (tkind (cf_riemann cf)) (num_tracers cf) (cf_tiny_h cf) dt)).
  { unfold boundary_body. cbv zeta. destruct (Nat.eqb_spec (num_tracers cf) 0); [contradiction|]. rewrite HD. reflexivity. }
  apply (rhs_none cf m eta dt bs u b _ i p e M Hb HB Hi). eapply point_bad; [exact (boundary_ins cf m eta _ bs b u i p e M Hb HE HU (V b Hb) Hi)|].
  intros outs. cbn [co_qf qf_body qf_outputs boundary_op]. unfold with_eta, if_dirichlet. destruct (Nat.eqb_spec (cf_classes cf) 0); [contradiction|]. rewrite HD. unfold TracerBoundaryFlux_Dirichlet, bgeom. cbn [app nth_error]. rewrite !obind_Some.
  assert (T : forall q t, tracer_state (num_tracers cf) q = Some t -> depth t = nth 0 q 0).
  { intros q t. unfold tracer_state, swe_state. destruct q as [|q0 [|q1 [|q2 q]]]; cbn [nth_error obind]; try discriminate. destruct (Nat.leb _ _); [|discriminate]. destruct (omap _ _); [|discriminate]. cbn [obind]. intros E. injection E as <-. reflexivity. }
  destruct (tracer_state _ (block (num_comp cf) u (left_cell m e))) as [t1|] eqn:E1; [|discriminate]. destruct (tracer_state _ (block (num_comp cf) (cb_values b) p)) as [t2|] eqn:E2; [|discriminate]. rewrite !obind_Some.
  rewrite (T _ _ E1), (T _ _ E2).
  assert (W : ((cf_tiny_h cf <? nth 0 (block (num_comp cf) u (left_cell m e)) 0) || (cf_tiny_h cf <? nth 0 (block (num_comp cf) (cb_values b) p) 0))%bool = false).
  { apply Bool.orb_false_iff. split; apply Rltb_false; apply Rnot_lt_le; intros X; apply HW; [left|right]; exact X. }
  rewrite W. intros H. injection H as <-. unfold outputs_fit. cbn [length combine forallb fits fst snd]. change (Nat.eqb 2 1 && true)%bool with false. rewrite !Bool.andb_false_r. reflexivity.
Qed.
(* More tracers than there is room for in the Q-functions. *)
Lemma many_tracers cf m eta dt bs u i e : mesh_ok m bs -> length eta = cm_vertices m -> length u = (num_comp cf * cm_cells m)%nat ->
  (MAX_NUM_SEDIMENT_CLASSES < num_tracers cf)%nat -> nth_error (owned_internal m) i = Some e -> flux_rhs cf m eta dt bs u = None.
Proof.
  intros M HE HU HN Hi. unfold flux_rhs, CreateCeedFluxOperator.
  assert (HB : interior_body cf dt = Some (TracerFlux (tkind (cf_riemann cf)) (num_tracers cf) (cf_tiny_h cf) dt)).
  { unfold interior_body. destruct (Nat.eqb_spec (num_tracers cf) 0); [lia|reflexivity]. }
  rewrite (interior_created cf m eta dt bs _ M HB), obind_Some. destruct (omap _ bs) as [l|]; [|reflexivity]. rewrite !obind_Some. unfold apply_add_all. cbn [ofold].
  rewrite (apply_none _ u i); [reflexivity|apply interior_same|rewrite (proj2 (interior_same _ _ _ _)); apply nth_error_Some; congruence|].
  eapply point_bad; [exact (interior_ins cf m eta _ bs u i e M HE HU Hi)|]. intros outs H. exfalso. revert H. cbn [co_qf qf_body interior_op].
  unfold TracerFlux. cbn [app nth_error]. rewrite !obind_Some.
  assert (T : forall q, tracer_state (num_tracers cf) q = None). { intros q. unfold tracer_state. destruct (swe_state q); [|reflexivity]. cbn [obind]. destruct (Nat.leb_spec (num_tracers cf) MAX_NUM_SEDIMENT_CLASSES); [lia|reflexivity]. }
  rewrite T. discriminate.
Qed.

(** ** Concrete cases *)

(* two cells, one edge between them (0) and one boundary edge on each (1 and 2) *)
Definition strip (owned : nat -> bool) : cmesh :=
  CMesh 2 4 [0%nat] (fun k => nth k [0;1;0;0;1;1]%nat 0%nat) (fun k => nth k [0;1;0;2;1;3]%nat 0%nat) owned (fun _ => 0) (fun _ => 1) (fun _ => 2) (fun _ => 4)
        (fun _ => true) (fun c => c) (fun _ => 0) (fun _ => 0) (fun _ => 0).
Definition one_config (classes : nat) (salinity : bool) : cconfig := CConfig classes salinity false RIEMANN_ROE SOURCE_SEMI_IMPLICIT (1/1000) 0 0.
Lemma strip_ok owned bs : (forall b e, In b bs -> In e (cb_edges b) -> e = 1%nat \/ e = 2%nat) -> mesh_ok (strip owned) bs.
Proof.
  intros H. constructor.
  - intros e [<-|[]] _. unfold edge_ok. cbn. repeat split; try lia; lra.
  - intros b e Hb He _. unfold edge_ok. destruct (H b e Hb He); subst e; cbn; repeat split; try lia; lra.
  - intros c Hc. exact Hc.
  - intros c c' _ _ E. exact E.
Qed.

Lemma tracer_flux_defined cf qL qR sn cn dhv : num_tracers cf <> 0%nat -> 0 <= cf_tiny_h cf -> cf_tiny_h cf < nth 0 qL 0 -> cf_tiny_h cf < nth 0 qR 0 ->
  exists f a, interior_flux cf qL qR sn cn dhv = Some (f, a).
Proof.
  intros HN Ht HL HR. unfold interior_flux. destruct (Nat.eqb_spec (num_tracers cf) 0); [contradiction|]. unfold ceed_tracer_edge. rewrite !depth_tv.
  assert (E : (cf_tiny_h cf <? nth 0 qL 0) = true) by (apply Rltb_true; exact HL). rewrite E. cbn [orb].
  destruct (ceed_tracer_flux_wet (tkind (cf_riemann cf)) GRAVITY (cf_tiny_h cf) (tv qL) (tv qR) sn cn GRAVITY_pos Ht HL HR) as (T & K & _). rewrite K. do 2 eexists. reflexivity.
Qed.
Lemma tracer_bflux_defined cf ty v qL sn cn dhv : num_tracers cf <> 0%nat -> 0 <= cf_tiny_h cf -> cf_tiny_h cf < nth 0 qL 0 ->
  ty = REFLECTING \/ (ty = DIRICHLET /\ cf_tiny_h cf < nth 0 v 0) -> exists f a, boundary_flux cf ty v qL sn cn dhv = Some (f, a).
Proof.
  intros HN Ht HL HT. unfold boundary_flux. destruct (Nat.eqb_spec (num_tracers cf) 0); [contradiction|].
  assert (E : (cf_tiny_h cf <? nth 0 qL 0) = true) by (apply Rltb_true; exact HL). destruct HT as [->|(-> & HV)]; unfold ceed_tracer_bedge.
  - rewrite depth_tv, E. match goal with |- context [ceed_tracer_flux ?k ?g ?t ?a ?b ?s ?c] => destruct (ceed_tracer_flux_wet k g t a b s c GRAVITY_pos Ht HL HL) as (T & K & _) end. rewrite K. do 2 eexists. reflexivity.
  - unfold ceed_tracer_edge. rewrite !depth_tv, E. cbn [orb].
    destruct (ceed_tracer_flux_wet (tkind (cf_riemann cf)) GRAVITY (cf_tiny_h cf) (tv qL) (tv v) sn cn GRAVITY_pos Ht HL HV) as (T & K & _). rewrite K. do 2 eexists. reflexivity.
Qed.

(* every hypothesis of C67_flux except the last ones holds: all fluxes are defined *)
Definition fluxes_defined cf m eta bs u : Prop :=
  (forall e, In e (cm_internal m) -> cm_eowned m e = true -> exists F a, flux_at cf m eta u e = Some (F, a)) /\
  (forall b pe, In b bs -> owned_edge m b pe -> exists G ga, bflux_at cf m eta u b pe = Some (G, ga)).
Definition sound cf m eta bs u : Prop :=
  mesh_ok m bs /\ values_ok cf bs /\ length eta = cm_vertices m /\ length u = (num_comp cf * cm_cells m)%nat /\ fluxes_defined cf m eta bs u.

Definition two_boundaries (values : list R) : list cboundary := [CBoundary [1%nat] DIRICHLET values; CBoundary [2%nat] REFLECTING []].
Lemma two_boundaries_ok owned values : mesh_ok (strip owned) (two_boundaries values).
Proof. apply strip_ok. intros b e [<-|[<-|[]]] [<-|[]]; auto. Qed.
Lemma two_boundaries_edges owned values b pe : In b (two_boundaries values) -> owned_edge (strip owned) b pe ->
  (b = CBoundary [1%nat] DIRICHLET values /\ pe = (0%nat, 1%nat)) \/ (b = CBoundary [2%nat] REFLECTING [] /\ pe = (0%nat, 2%nat)).
Proof.
  destruct pe as (p, e). intros [<-|[<-|[]]] (H & _); cbn [cb_edges fst snd] in H; destruct p as [|p]; cbn in H; [|destruct p; discriminate| |destruct p; discriminate]; injection H as <-; auto.
Qed.
Lemma strip_sound classes (salinity : bool) values u : (1 <= classes + (if salinity then 1 else 0))%nat -> length values = num_comp (one_config classes salinity) -> length u = (num_comp (one_config classes salinity) * 2)%nat ->
  1/1000 < nth 0 values 0 -> 1/1000 < nth 0 u 0 -> 1/1000 < nth (num_comp (one_config classes salinity)) u 0 ->
  sound (one_config classes salinity) (strip (fun _ => true)) [0;0;0;0] (two_boundaries values) u.
Proof.
  intros HC HV HU W1 W2 W3. set (cf := one_config classes salinity) in *.
  assert (N : num_tracers cf <> 0%nat) by (unfold num_tracers, cf, one_config; cbn [cf_classes cf_salinity cf_heat]; lia).
  assert (NC : (0 < num_comp cf)%nat) by (unfold num_comp; lia).
  assert (T : cf_tiny_h cf = 1/1000) by reflexivity.
  assert (B : forall c, nth 0 (block (num_comp cf) u c) 0 = nth (c * num_comp cf) u 0) by (intros c; rewrite nth_block by exact NC; rewrite Nat.add_0_r; reflexivity).
  assert (BV : nth 0 (block (num_comp cf) values 0) 0 = nth 0 values 0) by (rewrite nth_block by exact NC; reflexivity).
  assert (C0 : cf_tiny_h cf < nth 0 (block (num_comp cf) u 0) 0) by (rewrite B, T; exact W2).
  assert (C1 : cf_tiny_h cf < nth 0 (block (num_comp cf) u 1) 0) by (rewrite B, T, Nat.mul_1_l; exact W3).
  split; [apply two_boundaries_ok|]. split; [|split; [reflexivity|split; [exact HU|split]]].
  - intros b [<-|[<-|[]]] HD; [|discriminate]. cbn [cb_values cb_edges length]. lia.
  - intros e [<-|[]] _. apply tracer_flux_defined; [exact N|rewrite T; lra|exact C0|exact C1].
  - intros b pe Hb Hpe. destruct (two_boundaries_edges _ _ b pe Hb Hpe) as [(-> & ->)|(-> & ->)]; unfold bflux_at; cbn [cb_type cb_values fst snd].
    + apply tracer_bflux_defined; [exact N|rewrite T; lra|exact C0|right; split; [reflexivity|rewrite BV, T; exact W1]].
    + apply tracer_bflux_defined; [exact N|rewrite T; lra|exact C1|left; reflexivity].
Qed.
(* one class of sediment, all cells wet: all hypotheses of C67_flux *)
Example C67_flux_example : exists x, flux_rhs (one_config 1 true) (strip (fun _ => true)) [0;0;0;0] (1/10) (two_boundaries [1;0;0;1/2;3]) [1;0;0;1/2;3; 2;1;0;1;4] = Some x.
Proof.
  destruct (strip_sound 1 true [1;0;0;1/2;3] [1;0;0;1/2;3; 2;1;0;1;4]) as (M & V & HE & HU & HF & HG); try reflexivity; cbn; try lia; try lra.
  pose (F := fun e => match flux_at (one_config 1 true) (strip (fun _ => true)) [0;0;0;0] [1;0;0;1/2;3; 2;1;0;1;4] e with Some p => p | None => ([], 0) end).
  pose (G := fun b pe => match bflux_at (one_config 1 true) (strip (fun _ => true)) [0;0;0;0] [1;0;0;1/2;3; 2;1;0;1;4] b pe with Some p => p | None => ([], 0) end).
  destruct (C67_flux (one_config 1 true) (strip (fun _ => true)) [0;0;0;0] (1/10) (two_boundaries [1;0;0;1/2;3]) [1;0;0;1/2;3; 2;1;0;1;4]
    (fun e => fst (F e)) (fun e => snd (F e)) (fun b pe => fst (G b pe)) (fun b pe => snd (G b pe))) as (x & E & _).
  - constructor.
    + intros X. discriminate X.
    + cbn. unfold MAX_NUM_SEDIMENT_CLASSES. lia.
    + intros _ b [<-|[<-|[]]]; discriminate.
    + intros _ b _ _. discriminate.
  - exact M.
  - exact V.
  - exact HE.
  - exact HU.
  - intros e He Ho. destruct (HF e He Ho) as (f & w & K). unfold F. rewrite K. reflexivity.
  - intros b pe Hb Hpe. destruct (HG b pe Hb Hpe) as (f & w & K). unfold G. rewrite K. reflexivity.
  - intros b pe Hb Hpe HD _. destruct (two_boundaries_edges _ _ b pe Hb Hpe) as [(-> & ->)|(-> & ->)]; [|discriminate]. left. cbn. lra.
  - exists x. exact E.
Qed.

(* Salinity alone with a Dirichlet boundary: all fluxes are defined, the right-hand side is not. *)
Theorem C67_salinity_dirichlet_refuted : exists cf m eta bs u,
  cf_classes cf = 0%nat /\ cf_salinity cf = true /\ sound cf m eta bs u /\ forall dt, flux_rhs cf m eta dt bs u = None.
Proof.
  exists (one_config 0 true), (strip (fun _ => true)), [0;0;0;0], (two_boundaries [1;0;0;3]), [1;0;0;3; 1;0;0;4].
  split; [reflexivity|]. split; [reflexivity|].
  assert (S : sound (one_config 0 true) (strip (fun _ => true)) [0;0;0;0] (two_boundaries [1;0;0;3]) [1;0;0;3; 1;0;0;4]) by (apply strip_sound; try reflexivity; cbn; try lia; lra).
  split; [exact S|]. destruct S as (M & V & HE & HU & _). intros dt.
  apply (salinity_dirichlet _ _ _ dt _ _ (CBoundary [1%nat] DIRICHLET [1;0;0;3]) 0 0 1 M (or_introl eq_refl) V HE HU); try reflexivity. discriminate.
Qed.
Print Assumptions C67_salinity_dirichlet_refuted.

(* Sediment and a dry Dirichlet edge. *)
Theorem C67_dry_dirichlet_refuted : exists cf m eta bs u,
  cf_classes cf = 1%nat /\ sound cf m eta bs u /\ supported cf bs /\ forall dt, flux_rhs cf m eta dt bs u = None.
Proof.
  exists (one_config 1 false), (strip (fun _ => true)), [0;0;0;0], (two_boundaries [0;0;0;0]), [0;0;0;0; 0;0;0;0]. split; [reflexivity|].
  assert (D : Rltb (1/1000) 0 = false) by (apply Rltb_false; lra).
  assert (S : sound (one_config 1 false) (strip (fun _ => true)) [0;0;0;0] (two_boundaries [0;0;0;0]) [0;0;0;0; 0;0;0;0]).
  { split; [apply two_boundaries_ok|]. split; [|split; [reflexivity|split; [reflexivity|split]]].
    - intros b [<-|[<-|[]]] HD; [reflexivity|discriminate].
    - intros e [<-|[]] _. unfold flux_at, interior_flux. cbn [num_tracers one_config cf_classes cf_salinity cf_heat Nat.add Nat.eqb]. unfold ceed_tracer_edge. rewrite !depth_tv.
      change (nth 0 (block _ _ _) 0) with 0. change (cf_tiny_h _) with (1/1000). rewrite D. do 2 eexists. reflexivity.
    - intros b pe Hb Hpe. destruct (two_boundaries_edges _ _ b pe Hb Hpe) as [(-> & ->)|(-> & ->)]; unfold bflux_at, boundary_flux; cbn [cb_type num_tracers one_config cf_classes cf_salinity cf_heat Nat.add Nat.eqb]; unfold ceed_tracer_bedge.
      + unfold ceed_tracer_edge. rewrite !depth_tv. change (nth 0 (block _ _ _) 0) with 0. change (cf_tiny_h _) with (1/1000). rewrite D. do 2 eexists. reflexivity.
      + rewrite !depth_tv. change (nth 0 (block _ _ _) 0) with 0. change (cf_tiny_h _) with (1/1000). rewrite D. do 2 eexists. reflexivity. }
  split; [exact S|]. destruct S as (M & V & HE & HU & _). split.
  - constructor; [intros X; discriminate X|cbn; unfold MAX_NUM_SEDIMENT_CLASSES; lia|intros _ b [<-|[<-|[]]]; discriminate|intros _ b _ _; discriminate].
  - intros dt. apply (dry_dirichlet _ _ _ dt _ _ (CBoundary [1%nat] DIRICHLET [0;0;0;0]) 0 0 1 M (or_introl eq_refl) V HE HU); try reflexivity; try discriminate.
    unfold edge_wet. cbn. lra.
Qed.
Print Assumptions C67_dry_dirichlet_refuted.

(* Five classes of sediment are accepted; together with salinity there is no room for the sixth tracer. *)
Theorem C67_room_refuted : exists cf m eta bs u,
  cf_classes cf = MAX_NUM_SEDIMENT_CLASSES /\ cf_salinity cf = true /\ sound cf m eta bs u /\ forall dt, flux_rhs cf m eta dt bs u = None.
Proof.
  exists (one_config 5 true), (strip (fun _ => true)), [0;0;0;0], (two_boundaries [1;0;0;1;1;1;1;1;30]), [1;0;0;1;1;1;1;1;30; 1;0;0;1;1;1;1;1;30].
  split; [reflexivity|]. split; [reflexivity|].
  assert (S : sound (one_config 5 true) (strip (fun _ => true)) [0;0;0;0] (two_boundaries [1;0;0;1;1;1;1;1;30]) [1;0;0;1;1;1;1;1;30; 1;0;0;1;1;1;1;1;30]) by (apply strip_sound; try reflexivity; cbn; try lia; lra).
  split; [exact S|]. destruct S as (M & V & HE & HU & _). intros dt.
  apply (many_tracers _ _ _ dt _ _ 0 0 M HE HU); [|reflexivity]. cbn. unfold MAX_NUM_SEDIMENT_CLASSES. lia.
Qed.
Print Assumptions C67_room_refuted.

(* With tracers, the flux through a reflecting edge is applied to the cell but never recorded. *)
Theorem C67_reflecting_refuted : exists cf m eta bs u b i pe,
  sound cf m eta bs u /\ supported cf bs /\ In b bs /\ nth_error (owned_boundary m b) i = Some pe /\ cb_type b = REFLECTING /\
  forall dt, exists op, CreateCeedBoundaryFluxSuboperator cf m eta dt b = Some op /\ passive_output op u "flux" i = Some None.
Proof.
  exists (one_config 1 false), (strip (fun _ => true)), [0;0;0;0], (two_boundaries [1;0;0;3]), [1;0;0;3; 1;0;0;4], (CBoundary [2%nat] REFLECTING []), 0%nat, (0%nat, 2%nat).
  assert (S : sound (one_config 1 false) (strip (fun _ => true)) [0;0;0;0] (two_boundaries [1;0;0;3]) [1;0;0;3; 1;0;0;4]) by (apply strip_sound; try reflexivity; cbn; try lia; lra).
  assert (SU : supported (one_config 1 false) (two_boundaries [1;0;0;3])).
  { constructor; [intros X; discriminate X|cbn; unfold MAX_NUM_SEDIMENT_CLASSES; lia|intros _ b [<-|[<-|[]]]; discriminate|intros _ b _ _; discriminate]. }
  split; [exact S|]. split; [exact SU|]. split; [right; left; reflexivity|]. split; [reflexivity|]. split; [reflexivity|].
  destruct S as (M & V & HE & HU & _ & HG). intros dt. assert (Hb : In (CBoundary [2%nat] REFLECTING []) (two_boundaries [1;0;0;3])) by (right; left; reflexivity).
  destruct (boundary_body_some _ _ _ dt SU Hb) as (body & HB). exists (boundary_op (one_config 1 false) (strip (fun _ => true)) [0;0;0;0] (CBoundary [2%nat] REFLECTING []) body).
  split; [exact (boundary_created _ _ _ _ _ _ _ M Hb HB)|].
  destruct (HG _ (0%nat, 2%nat) Hb) as (G & ga & K). { split; reflexivity. }
  unfold passive_output. rewrite (boundary_point (one_config 1 false) _ _ dt body _ (CBoundary [2%nat] REFLECTING []) _ 0 0 2 (fun _ => G) (fun _ => ga) M Hb HE HU); try assumption; try discriminate; try reflexivity.
  exact (su_tracers _ _ SU).
Qed.
Print Assumptions C67_reflecting_refuted.

(* Boundary edges of another process: the fluxes of the owned edges are stored without gaps, but handed out
   by position among all edges.  The owned edge at position 1 reports zero, the edge of the other process
   reports its flux. *)
Theorem C67_extracted_refuted : exists cf m eta bs b u G ga,
  supported cf bs /\ mesh_ok m bs /\ values_ok cf bs /\ length eta = cm_vertices m /\ length u = (num_comp cf * cm_cells m)%nat /\ In b bs /\
  owned_edge m b (1%nat, 2%nat) /\ bflux_at cf m eta u b (1%nat, 2%nat) = Some (G, ga) /\ nth 1 G 0 <> 0 /\
  forall dt, exists op x, CreateCeedBoundaryFluxSuboperator cf m eta dt b = Some op /\ flux_vector op u (length (cb_edges b) * num_comp cf) = Some x /\
    (forall k, (k < num_comp cf)%nat -> extracted_flux (num_comp cf) x 1 k = Some 0) /\ (forall k, (k < num_comp cf)%nat -> extracted_flux (num_comp cf) x 0 k = nth_error G k).
Proof.
  pose (m := strip (fun e => negb (Nat.eqb e 1))). pose (b := CBoundary [1;2]%nat REFLECTING []). pose (u := [1;0;0;2;0;0]).
  assert (M : mesh_ok m [b]). { apply strip_ok. intros b' e [<-|[]] [<-|[<-|[]]]; auto. }
  assert (SU : supported (one_config 0 false) [b]).
  { constructor; [reflexivity|cbn; lia|intros X; contradiction X; reflexivity|intros X; contradiction X; reflexivity]. }
  destruct (HRProofs.ceed_wall_rest (1/1000) 0 2 0 1 ltac:(lra) ltac:(lra) ltac:(lra)) as (P & ga & E & _ & _ & RP & _).
  assert (EP : P = 1/2 * GRAVITY * (2 * 2)) by (apply RP; [|right]; lra).
  assert (EG : bflux_at (one_config 0 false) m [0;0;0;0] u b (1%nat, 2%nat) = Some (comps3 (HRProofs.npush P 0 1), ga)).
  { unfold bflux_at, boundary_flux. cbn [num_tracers one_config cf_classes cf_salinity cf_heat Nat.add Nat.eqb cb_type b flow_condition snd].
    change (v3 (block (num_comp (one_config 0 false)) u (left_cell m 2))) with (V3 2 0 0). change (cm_sn m 2) with 0. change (cm_cn m 2) with 1. change (cf_tiny_h _) with (1/1000). change (cf_h_anuga _) with 0.
    assert (Z : edge_dhv m [0;0;0;0] 2 = 0) by (apply (C67_eta_initial m 2); cbn; lia). rewrite Z, E. reflexivity. }
  exists (one_config 0 false), m, [0;0;0;0], [b], b, u, (comps3 (HRProofs.npush P 0 1)), ga.
  assert (V : values_ok (one_config 0 false) [b]) by (intros b' [<-|[]] X; discriminate X).
  assert (Hb : In b [b]) by (left; reflexivity).
  split; [exact SU|]. split; [exact M|]. split; [exact V|]. split; [reflexivity|]. split; [reflexivity|]. split; [exact Hb|].
  split; [split; reflexivity|]. split; [exact EG|]. split. { cbn [comps3 HRProofs.npush c0 c1 c2 nth]. rewrite EP. assert (X := GRAVITY_pos). lra. }
  intros dt. destruct (C67_recorded (one_config 0 false) m [0;0;0;0] dt [b] u b 0 1 2 _ ga SU M V eq_refl eq_refl Hb eq_refl EG) as (op & C & R1 & _); [discriminate|reflexivity|].
  exists op. assert (EL : elems op = 1%nat).
  { destruct (boundary_body_some _ _ _ dt SU Hb) as (body & HB). rewrite (boundary_created _ _ _ _ _ _ body M Hb HB) in C. injection C as <-. rewrite (proj2 (boundary_same _ _ _ _ _)). reflexivity. }
  eexists. split; [exact C|]. split. { unfold flux_vector. rewrite EL. cbn [seq omap]. rewrite R1, !obind_Some. reflexivity. }
  split; intros k Hk; do 3 (destruct k as [|k]; [reflexivity|]); cbn in Hk; lia.
Qed.
Print Assumptions C67_extracted_refuted.

(* the hypotheses of C68_sources *)
Example C68_sources_example : exists x, source_rhs (one_config 0 false) (strip (fun _ => true)) [1;0;0; 0;0;0] [1/10;1/20] [1;2;3;4;5;6] (1/10) [0;0;0; 0;0;0] = Some x /\ block 3 x 0 = [2;2;3] /\ block 3 x 1 = [4;5;6].
Proof.
  destruct (C68_sources (one_config 0 false) (strip (fun _ => true)) [1;0;0; 0;0;0] [1/10;1/20] [1;2;3;4;5;6] (1/10) [0;0;0; 0;0;0] (fun i => if Nat.eqb i 0 then [1+1;2 - 0 * GRAVITY * 0 - 0 + 0;3 - 0 * GRAVITY * 0 - 0 + 0] else [4 + 0;5 - 0 * GRAVITY * 0 - 0 + 0;6 - 0 * GRAVITY * 0 - 0 + 0])) as ((x & E & L & V) & _).
  - cbn. lia.
  - intros X. contradiction X. reflexivity.
  - cbn. lra.
  - reflexivity.
  - reflexivity.
  - reflexivity.
  - reflexivity.
  - intros i c H. cbn in H. do 2 (destruct i as [|i]; [injection H as <-; reflexivity|cbn in H]). destruct i; discriminate.
  - assert (D : Rltb (1/1000) 0 = false) by (apply Rltb_false; lra).
    intros i c H. cbn in H. destruct i as [|[|i]]; [| |destruct i; discriminate]; injection H as <-; unfold source_update; cbn [num_tracers one_config cf_classes cf_salinity cf_heat Nat.add Nat.eqb cf_source]; unfold ceed_rhs;
      change (c0 (v3 (block _ [0;0;0; 0;0;0] _))) with 0; change (cf_tiny_h _) with (1/1000); rewrite D; reflexivity.
  - exists x. split; [exact E|]. change 3%nat with (num_comp (one_config 0 false)). rewrite !V by (cbn; lia). cbn [Nat.eqb]. split; repeat f_equal; ring.
Qed.
