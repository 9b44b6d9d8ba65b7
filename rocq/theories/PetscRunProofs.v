(** Lemmas for runs of the PETSc back end on flat arrays (C73). *)
From Verif Require Import Base RoeModel RoeProofs EdgeModel EdgeProofs HRModel HRProofs SourceModel AssemblyModel AssemblyProofs DecompModel DecompSpec DecompProofs
  MeshMapsProofs AMRProofs CeedLayoutModel CeedLayoutSpec CeedLayoutProofs CeedLayoutProperties CeedMusclProofs CeedHRModel CeedHRSpec CeedHRProofs CeedRunModel CeedRunSpec CeedRunProofs PetscRunModel PetscRunSpec.
Local Open Scope R_scope.
Local Notation length := List.length.

(** ** Lists *)
Lemma combine_seq_In {A} (es : list A) i e : In (i, e) (combine (seq 0 (length es)) es) -> nth_error es i = Some e.
Proof.
  assert (G : forall off, In (i, e) (combine (seq off (length es)) es) -> (off <= i)%nat /\ nth_error es (i - off) = Some e).
  { induction es as [|a es IH]; intros off H; cbn [length seq combine] in H; [contradiction|]. destruct H as [H|H].
    - injection H as <- <-. split; [lia|]. rewrite Nat.sub_diag. reflexivity.
    - destruct (IH (S off) H) as (L & E). split; [lia|]. replace (i - off)%nat with (S (i - S off)) by lia. exact E. }
  intros H. destruct (G 0%nat H) as (_ & E). rewrite Nat.sub_0_r in E. exact E.
Qed.
Lemma combine_seq_snd {A} (es : list A) off : map snd (combine (seq off (length es)) es) = es.
Proof. revert off. induction es as [|a es IH]; intros off; cbn; [reflexivity|]. rewrite IH. reflexivity. Qed.
Lemma concat_get {A} n (rows : list (list A)) : (forall r, In r rows -> length r = n) -> forall e row i, nth_error rows e = Some row -> (i < n)%nat ->
  nth_error (concat rows) (n * e + i) = nth_error row i.
Proof.
  induction rows as [|r rows IH]; intros H e row i He Hi; [destruct e; discriminate|]. cbn [concat]. assert (Lr := H r (or_introl eq_refl)).
  destruct e as [|e]; cbn in He.
  - injection He as ->. rewrite Nat.mul_0_r. rewrite nth_error_app1 by lia. reflexivity.
  - rewrite nth_error_app2 by lia. replace (n * S e + i - length r)%nat with (n * e + i)%nat by lia. apply IH; [intros; apply H; right; assumption|exact He|exact Hi].
Qed.
Lemma nth_of_nth_error {A} (l : list A) i x d : nth_error l i = Some x -> nth i l d = x.
Proof. apply nth_error_nth. Qed.

(** ** Adding to the entries of owned cells *)
Section Entries.
  Context (M : cmesh) (NB : numbered M).
  Local Notation owns c := (In c (owned_cells M)).
  Definition value (x : list R) (c k : nat) : R := nth (3 * cm_l2o M c + k) x 0.
  Definition sized (x : list R) : Prop := length x = (3 * length (owned_cells M))%nat.
  Lemma owned_in c : (c < cm_cells M)%nat -> cm_owned M c = true -> owns c.
  Proof. intros H O. unfold owned_cells. apply filter_In. split; [apply in_seq; lia|exact O]. Qed.
  Lemma owned_range c : owns c -> (c < cm_cells M)%nat /\ cm_owned M c = true.
  Proof. unfold owned_cells. rewrite filter_In, in_seq. intros (H & O). split; [lia|exact O]. Qed.
  Lemma owned_slot c : owns c -> nth_error (owned_cells M) (cm_l2o M c) = Some c.
  Proof. intros H. apply In_nth_error in H. destruct H as (i & H). rewrite (NB i c H). exact H. Qed.
  Lemma slot_bound c : owns c -> (cm_l2o M c < length (owned_cells M))%nat.
  Proof. intros H. apply nth_error_Some. rewrite owned_slot by exact H. discriminate. Qed.
  Lemma slot_inj c c' : owns c -> owns c' -> cm_l2o M c = cm_l2o M c' -> c = c'.
  Proof. intros H H' E. assert (X := owned_slot c H). assert (X' := owned_slot c' H'). rewrite E in X. congruence. Qed.

  Lemma bump_ok own f c i (v : option R) (a : R) : sized f -> (own = true -> owns c) -> (own = true -> v = Some a) -> (i < 3)%nat ->
    exists f', bump own f (3 * cm_l2o M c + i) v = Some f' /\ sized f' /\
      forall c' k, owns c' -> (k < 3)%nat -> value f' c' k = value f c' k + (if (own && Nat.eqb c' c && Nat.eqb k i)%bool then a else 0).
  Proof.
    intros S Hc Hv Hi. unfold bump. destruct own; cbn [andb].
    - rewrite (Hv eq_refl), obind_Some. specialize (Hc eq_refl). assert (B := slot_bound c Hc).
      assert (Hk : (3 * cm_l2o M c + i < length f)%nat) by (rewrite S; lia).
      rewrite (nth_error_nth' f 0 Hk), obind_Some. destruct (upd_some f _ (nth (3 * cm_l2o M c + i) f 0 + a) Hk) as (f' & E). exists f'. split; [exact E|].
      split; [unfold sized; rewrite (upd_length _ _ _ _ E); exact S|]. intros c' k Hc' Hk'. assert (B' := slot_bound c' Hc'). unfold value.
      assert (U := upd_get _ _ _ _ (3 * cm_l2o M c' + k) E).
      destruct (Nat.eqb_spec (3 * cm_l2o M c' + k) (3 * cm_l2o M c + i)) as [Q|Q].
      + assert (k = i /\ cm_l2o M c' = cm_l2o M c) as (-> & Q') by lia. assert (c' = c) by (apply slot_inj; assumption). subst c'. rewrite !Nat.eqb_refl. cbn [andb].
        rewrite (nth_error_nth _ _ _ U). reflexivity.
      + rewrite (nth_error_nth' f 0) in U by (rewrite S; lia). rewrite (nth_error_nth _ _ _ U).
        destruct (Nat.eqb_spec c' c) as [->|]; cbn [andb]; [|ring]. destruct (Nat.eqb_spec k i) as [->|]; [contradiction|ring].
    - exists f. split; [reflexivity|]. split; [exact S|]. intros. ring.
  Qed.

  (* one component to two cells *)
  Lemma bump_pair ol lc orr rc f i (vl vr : option R) (a b : R) : sized f -> (ol = true -> owns lc) -> (orr = true -> owns rc) ->
    (ol = true -> vl = Some a) -> (orr = true -> vr = Some b) -> (i < 3)%nat ->
    exists f', (let* f := bump ol f (3 * cm_l2o M lc + i) vl in bump orr f (3 * cm_l2o M rc + i) vr) = Some f' /\ sized f' /\
      forall c' k, owns c' -> (k < 3)%nat -> value f' c' k = value f c' k + (if (ol && Nat.eqb c' lc && Nat.eqb k i)%bool then a else 0) + (if (orr && Nat.eqb c' rc && Nat.eqb k i)%bool then b else 0).
  Proof.
    intros S H1 H2 V1 V2 Hi. destruct (bump_ok ol f lc i vl a S H1 V1 Hi) as (f1 & E1 & S1 & W1). rewrite E1, obind_Some.
    destruct (bump_ok orr f1 rc i vr b S1 H2 V2 Hi) as (f2 & E2 & S2 & W2). exists f2. split; [exact E2|]. split; [exact S2|].
    intros c' k Hc Hk. rewrite W2, W1 by assumption. reflexivity.
  Qed.
  (* three components to two cells *)
  Lemma bump_flux ol lc orr rc f (vl vr : nat -> option R) (a b : vec3) : sized f -> (ol = true -> owns lc) -> (orr = true -> owns rc) ->
    (forall i, (i < 3)%nat -> ol = true -> vl i = Some (component i a)) -> (forall i, (i < 3)%nat -> orr = true -> vr i = Some (component i b)) ->
    exists f', ofold (fun f i => let* f := bump ol f (3 * cm_l2o M lc + i) (vl i) in bump orr f (3 * cm_l2o M rc + i) (vr i)) (seq 0 3) f = Some f' /\ sized f' /\
      forall c' k, owns c' -> (k < 3)%nat -> value f' c' k = value f c' k + (if (ol && Nat.eqb c' lc)%bool then component k a else 0) + (if (orr && Nat.eqb c' rc)%bool then component k b else 0).
  Proof.
    intros S H1 H2 V1 V2. cbn [seq ofold].
    destruct (bump_pair ol lc orr rc f 0 (vl 0%nat) (vr 0%nat) (component 0 a) (component 0 b) S H1 H2 (V1 0%nat ltac:(lia)) (V2 0%nat ltac:(lia)) ltac:(lia)) as (f1 & E1 & S1 & W1). rewrite E1, obind_Some.
    destruct (bump_pair ol lc orr rc f1 1 (vl 1%nat) (vr 1%nat) (component 1 a) (component 1 b) S1 H1 H2 (V1 1%nat ltac:(lia)) (V2 1%nat ltac:(lia)) ltac:(lia)) as (f2 & E2 & S2 & W2). rewrite E2, obind_Some.
    destruct (bump_pair ol lc orr rc f2 2 (vl 2%nat) (vr 2%nat) (component 2 a) (component 2 b) S2 H1 H2 (V1 2%nat ltac:(lia)) (V2 2%nat ltac:(lia)) ltac:(lia)) as (f3 & E3 & S3 & W3). rewrite E3, obind_Some.
    exists f3. split; [reflexivity|]. split; [exact S3|]. intros c' k Hc Hk. rewrite W3, W2, W1 by assumption.
    destruct ol, orr; cbn [andb]; destruct (Nat.eqb c' lc), (Nat.eqb c' rc); cbn [andb]; (destruct k as [|[|[|k]]]; [| | |lia]); cbn [Nat.eqb]; ring.
  Qed.

  (* the array holds a field on the owned cells *)
  Definition rel (x : list R) (f : nat -> vec3) : Prop := sized x /\ forall c k, owns c -> (k < 3)%nat -> value x c k = component k (f c).
  Lemma rel_zero : rel (repeat 0 (3 * length (owned_cells M))) zero_field.
  Proof. split; [unfold sized; apply repeat_length|]. intros c k _ _. unfold value, zero_field. rewrite nth_repeat, component_zero. reflexivity. Qed.

  Lemma edge_rel area kern x f f' e a b s : rel x f -> edge_update vadd vscal (cm_owned M) area kern f e = Some f' -> kern e = Some (a, b, s) ->
    forall x', sized x' ->
    (forall sl sr, rdiv (- ie_len e) (area (ie_l e)) = Some sl -> rdiv (ie_len e) (area (ie_r e)) = Some sr ->
      forall c k, owns c -> (k < 3)%nat -> value x' c k = value x c k + (if (cm_owned M (ie_l e) && Nat.eqb c (ie_l e))%bool then sl * component k a else 0)
        + (if (cm_owned M (ie_r e) && Nat.eqb c (ie_r e))%bool then sr * component k b else 0)) -> rel x' f'.
  Proof.
    intros (S & R0) E K x' S' V. unfold edge_update in E. rewrite K, obind_Some in E. apply obind_some in E. destruct E as (sl & El & E). apply obind_some in E. destruct E as (sr & Er & E). injection E as <-.
    split; [exact S'|]. intros c k Hc Hk. rewrite (V sl sr El Er c k Hc Hk), (R0 c k Hc Hk). unfold add_at.
    destruct (cm_owned M (ie_l e)), (cm_owned M (ie_r e)); cbn [andb]; destruct (Nat.eqb c (ie_l e)), (Nat.eqb c (ie_r e)); rewrite ?component_add, ?component_scal; ring.
  Qed.
End Entries.

(** ** Loading states, velocities, and the Riemann solver on a batch of edges *)
Definition rstate_of (q : vec3) : rstate := RState (Some (c0 q)) (c1 q) (c2 q) (Some 0) (Some 0).
Lemma nth_error_block3 (u : list R) c k q : block 3 u c = comps3 q -> (k < 3)%nat -> (3 * (c + 1) <= length u)%nat -> nth_error u (3 * c + k) = Some (component k q).
Proof.
  intros B Hk L. rewrite (nth_error_nth' u 0) by lia. apply f_equal. unfold component. rewrite <- B, nth_block by exact Hk. f_equal. lia.
Qed.
Lemma load_ok u c q : block 3 u c = comps3 q -> (3 * (c + 1) <= length u)%nat -> load u c = Some (rstate_of q).
Proof. intros B L. unfold load. rewrite !(nth_error_block3 u c _ q B) by lia. reflexivity. Qed.
Lemma velocity_prim tiny ha q : rs_prim (riemann_velocity tiny ha (rstate_of q)) = petsc_velocities tiny ha q.
Proof.
  unfold riemann_velocity, rstate_of, petsc_velocities, rs_prim. cbn [rs_h rs_hu rs_hv]. destruct (c0 q <? tiny); [reflexivity|]. cbn [rs_h rs_u rs_v]. rewrite obind_Some. reflexivity.
Qed.
Lemma velocity_h tiny ha q : rs_h (riemann_velocity tiny ha (rstate_of q)) = Some (c0 q).
Proof. unfold riemann_velocity, rstate_of. cbn [rs_h]. destruct (_ <? _); reflexivity. Qed.

Definition roe_between (l r : rstate) (sn cn : R) : option (vec3 * R) := let* L := rs_prim l in let* Rt := rs_prim r in petsc_roe_flux L Rt sn cn.
Lemma roe_batch dl dr sn cn : length dr = length dl -> length sn = length dl -> length cn = length dl ->
  exists fl am, ComputeSWERoeFlux dl dr sn cn = Some (fl, am) /\ length fl = (3 * length dl)%nat /\
    forall e l r s c, nth_error dl e = Some l -> nth_error dr e = Some r -> nth_error sn e = Some s -> nth_error cn e = Some c ->
      forall i, (i < 3)%nat -> nth_error fl (3 * e + i) = nth_error (flux3 (roe_between l r s c)) i.
Proof.
  intros H1 H2 H3. unfold ComputeSWERoeFlux.
  destruct (omap_rel (roe_at dl dr sn cn) (fun i o => roe_at dl dr sn cn i = Some o) (seq 0 (length dl))) as (rs & E & F).
  { intros i Hi. apply in_seq in Hi. unfold roe_at.
    rewrite (nth_error_nth' dl rstate0), (nth_error_nth' dr rstate0), (nth_error_nth' sn 0), (nth_error_nth' cn 0) by lia. rewrite !obind_Some. eexists. split; reflexivity. }
  rewrite E, obind_Some. assert (L : length rs = length dl). { clear - F. assert (X := seq_length (length dl) 0). induction F in X |- *; cbn in *; [congruence|]. rewrite <- X. clear X. f_equal. clear - F. induction F; cbn; congruence. }
  do 2 eexists. split; [reflexivity|].
  assert (R3 : forall r, In r (map flux3 rs) -> length r = 3%nat) by (intros r Hr; apply in_map_iff in Hr; destruct Hr as (o & <- & _); destruct o; reflexivity).
  split; [rewrite (concat_length_const 3) by exact R3; rewrite map_length, L; reflexivity|].
  intros e l r s c A B C D i Hi. assert (He : (e < length dl)%nat) by (apply nth_error_Some; congruence).
  destruct (Forall2_get _ _ _ _ _ F (nth_error_seq0 _ _ He)) as (o & Eo & Ho). unfold roe_at in Ho. rewrite A, B, C, D, !obind_Some in Ho. injection Ho as Ho.
  rewrite (concat_get 3 _ R3 e (flux3 o)) by (try exact Hi; rewrite nth_error_map, Eo; reflexivity). rewrite <- Ho. reflexivity.
Qed.
Lemma ofold_same {S T} (g h : S -> T -> option S) l s : (forall s t, g s t = h s t) -> ofold g l s = ofold h l s.
Proof. intros E. revert s. induction l as [|t l IH]; intros s; [reflexivity|]. cbn [ofold]. rewrite E. destruct (h s t); [apply IH|reflexivity]. Qed.
Lemma obind_id {S} (o : option S) : (let* x := o in Some x) = o.
Proof. destruct o; reflexivity. Qed.
Lemma scaled_some fl e i p s w : nth_error fl (3 * e + i) = nth_error (flux3 (Some p)) i -> (i < 3)%nat -> s = Some w -> scaled fl (3 * e + i) s = Some (component i (vscal w (fst p))).
Proof.
  intros E Hi ->. unfold scaled. rewrite E. rewrite component_scal. unfold component. do 3 (destruct i as [|i]; [cbn; f_equal; ring|]). lia.
Qed.

(** ** One process *)
Lemma petsc_scheme_view w cf z g gid : 0 < cf_tiny_h cf -> scheme_view gid (petsc_scheme_of w cf z g) (petsc_scheme_of w cf (fun l => z (gid l)) (geom_at gid g)).
Proof. intros T. destruct w; cbn [petsc_scheme_of]; [apply petsc_view|apply petsc_hr_view]; exact T. Qed.

Section Process.
  Context (w : balancing) (cf : cconfig) (m : mesh) (z : nat -> R) (g : cellgeom) (src : nat -> vec3) (p : cprocess) (C : petsc_config cf) (PO : petsc_process_ok w cf m z g src p).
  Context (u : nat -> vec3) (ul : list R).
  Local Notation M := (cp_mesh p).
  Local Notation gid := (cp_gid p).
  Local Notation vl := (to_local (prank_of p) u).
  Local Notation A := (to_local (prank_of p) (area m)).
  Local Notation sl := (petsc_scheme_of w cf (fun l => z (gid l)) (geom_at gid g)).
  Local Notation tiny := (cf_tiny_h cf).
  Hypothesis Lu : length ul = (3 * cm_cells M)%nat.
  Hypothesis Vu : forall c, (c < cm_cells M)%nat -> block 3 ul c = comps3 (u (gid c)).
  Lemma tiny_pos : 0 < tiny. Proof. exact (proj2 (proj2 (proj1 C))). Qed.
  Lemma roe_chosen : cf_riemann cf = RIEMANN_ROE. Proof. exact (proj1 (proj2 (proj1 C))). Qed.
  Lemma NB : numbered M. Proof. exact (pp_numbered _ _ _ _ _ _ _ PO). Qed.

  Lemma load_cell c : (c < cm_cells M)%nat -> load ul c = Some (rstate_of (vl c)).
  Proof. intros Hc. apply load_ok; [apply Vu; exact Hc|lia]. Qed.
  Lemma cell_entry c k : (c < cm_cells M)%nat -> (k < 3)%nat -> nth_error ul (3 * c + k) = Some (component k (vl c)).
  Proof. intros Hc Hk. apply nth_error_block3; [apply Vu; exact Hc|exact Hk|lia]. Qed.
  Lemma internal_cells e : In e (cm_internal M) -> (left_cell M e < cm_cells M)%nat /\ (right_cell M e < cm_cells M)%nat.
  Proof.
    intros He. destruct (nu_iedges _ _ (pp_numbering _ _ _ _ _ _ _ PO) (iedge_of M e)) as (H1 & H2); [cbn; apply in_map; exact He|].
    cbn [prank_of rk_cells iedge_of ie_l ie_r] in H1, H2. apply in_seq in H1, H2. lia.
  Qed.
  Lemma boundary_cells b e : In b (cp_bounds p) -> In e (cb_edges b) -> (left_cell M e < cm_cells M)%nat.
  Proof.
    intros Hb He. apply In_nth_error in He. destruct He as (i & He). assert (Hi : (i < length (cb_edges b))%nat) by (apply nth_error_Some; congruence).
    assert (H := nu_bedges _ _ (pp_numbering _ _ _ _ _ _ _ PO) (bedge_of M b (i, e))). cbn [prank_of rk_cells rk_bedges bedge_of be_c snd] in H.
    assert (In (left_cell M e) (seq 0 (cm_cells M))) as X; [apply H|apply in_seq in X; lia].
    apply in_flat_map. exists b. split; [exact Hb|]. apply in_map_iff. exists (i, e). split; [reflexivity|]. eapply nth_error_In. apply combine_get; [apply nth_error_seq0; exact Hi|exact He].
  Qed.
  Lemma owned_left e c : (c < cm_cells M)%nat -> c = e -> cm_owned M e = true -> In e (owned_cells M).
  Proof. intros H <- O. apply owned_in; assumption. Qed.

  (** *** Interior edges, first order *)
  Definition vel_state (c : nat) : rstate := riemann_velocity tiny (cf_h_anuga cf) (rstate_of (vl c)).
  Lemma interior_edge_ok fl x f f' i e : w = Standard ->
    (forall i e, nth_error (cm_internal M) i = Some e -> forall k, (k < 3)%nat ->
       nth_error fl (3 * i + k) = nth_error (flux3 (roe_between (vel_state (left_cell M e)) (vel_state (right_cell M e)) (cm_sn M e) (cm_cn M e))) k) ->
    nth_error (cm_internal M) i = Some e -> rel M x f -> edge_update vadd vscal (cm_owned M) A (s_interior sl vl) f (iedge_of M e) = Some f' ->
    exists x', accumulate_edge tiny M (map (fun e => vel_state (left_cell M e)) (cm_internal M)) (map (fun e => vel_state (right_cell M e)) (cm_internal M)) fl x (i, e) = Some x' /\ rel M x' f'.
  Proof.
    intros W HF Hi HR E. assert (Ht := tiny_pos). assert (He : In e (cm_internal M)) by (eapply nth_error_In; exact Hi). destruct (internal_cells e He) as (Hl & Hr).
    unfold accumulate_edge. rewrite !nth_error_map, Hi. cbn [option_map]. rewrite !obind_Some. unfold vel_state at 1 2. rewrite !velocity_h, !obind_Some.
    assert (K : s_interior sl vl (iedge_of M e) = both (petsc_interior_edge tiny (cf_h_anuga cf) (vl (left_cell M e)) (vl (right_cell M e)) (cm_sn M e) (cm_cn M e))) by (rewrite W; reflexivity).
    unfold petsc_interior_edge in K. rewrite !petsc_velocities_some, !obind_Some in K by exact Ht. unfold prim_dry in K. rewrite !pvel_h in K.
    destruct ((c0 (vl (right_cell M e)) <? tiny) && (c0 (vl (left_cell M e)) <? tiny))%bool.
    - exists x. split; [reflexivity|]. eapply (edge_rel M A _ x f f' _ _ _ _ HR E K); [exact (proj1 HR)|]. intros a b _ _ c k Hc Hk.
      cbn [fst snd]. rewrite component_zero, !Rmult_0_r. destruct (_ && _)%bool, (_ && _)%bool; ring.
    - destruct (petsc_roe_flux (pvel tiny (cf_h_anuga cf) (vl (left_cell M e))) (pvel tiny (cf_h_anuga cf) (vl (right_cell M e))) (cm_sn M e) (cm_cn M e)) as [[fv am]|] eqn:EF.
      2:{ unfold edge_update in E. rewrite K in E. discriminate E. }
      cbn [both obind fst snd] in K.
      assert (E' := E). unfold edge_update in E'. rewrite K, obind_Some in E'. apply obind_some in E'. destruct E' as (a & Ea & E'). apply obind_some in E'. destruct E' as (b & Eb & _).
      cbn [iedge_of ie_l ie_r ie_len] in Ea, Eb. unfold to_local at 1 in Ea. unfold to_local at 1 in Eb. cbn [prank_of rk_gid] in Ea, Eb. rewrite <- (pp_area _ _ _ _ _ _ _ PO) in Ea by exact Hl. rewrite <- (pp_area _ _ _ _ _ _ _ PO) in Eb by exact Hr.
      assert (HFe : forall k, (k < 3)%nat -> nth_error fl (3 * i + k) = nth_error (flux3 (Some (fv, am))) k).
      { intros k Hk. rewrite (HF i e Hi k Hk). unfold roe_between, vel_state. rewrite !velocity_prim, !petsc_velocities_some, !obind_Some by exact Ht. rewrite EF. reflexivity. }
      destruct (bump_flux M NB (cm_owned M (left_cell M e)) (left_cell M e) (cm_owned M (right_cell M e)) (right_cell M e) x
        (fun k => scaled fl (3 * i + k) (rdiv (- cm_len M e) (cm_area M (left_cell M e)))) (fun k => scaled fl (3 * i + k) (rdiv (cm_len M e) (cm_area M (right_cell M e))))
        (vscal a fv) (vscal b fv) (proj1 HR)) as (x' & Ex & Sx & Vx).
      + intros O. apply owned_in; assumption.
      + intros O. apply owned_in; assumption.
      + intros k Hk _. apply (scaled_some fl i k (fv, am) _ a (HFe k Hk) Hk Ea).
      + intros k Hk _. apply (scaled_some fl i k (fv, am) _ b (HFe k Hk) Hk Eb).
      + exists x'. split; [exact Ex|]. eapply (edge_rel M A _ x f f' _ _ _ _ HR E K); [exact Sx|]. intros a' b' Ea' Eb' c k Hc Hk.
        cbn [iedge_of ie_l ie_r ie_len] in Ea', Eb' |- *. unfold to_local at 1 in Ea'. unfold to_local at 1 in Eb'. cbn [prank_of rk_gid] in Ea', Eb'. rewrite <- (pp_area _ _ _ _ _ _ _ PO) in Ea' by exact Hl. rewrite <- (pp_area _ _ _ _ _ _ _ PO) in Eb' by exact Hr.
        assert (a' = a) by congruence. assert (b' = b) by congruence. subst a' b'. rewrite (Vx c k Hc Hk), !component_scal. reflexivity.
  Qed.

  (* a loop over edges *)
  Lemma fold_rel {X} (step : list R -> X -> option (list R)) {Y} (astep : (nat -> vec3) -> Y -> option (nat -> vec3)) (h : X -> Y) : forall l x f f',
    (forall a x f f', In a l -> rel M x f -> astep f (h a) = Some f' -> exists x', step x a = Some x' /\ rel M x' f') ->
    rel M x f -> ofold astep (map h l) f = Some f' -> exists x', ofold step l x = Some x' /\ rel M x' f'.
  Proof.
    induction l as [|a l IH]; intros x f f' H HR E; cbn [map ofold] in *; [injection E as <-; eauto|].
    apply obind_some in E. destruct E as (f1 & E1 & E). destruct (H a x f f1 (or_introl eq_refl) HR E1) as (x1 & Ex & HR1). rewrite Ex, obind_Some.
    apply (IH x1 f1 f' (fun a x f f' Ha => H a x f f' (or_intror Ha)) HR1 E).
  Qed.
  Lemma pair_edges : map (fun ie => iedge_of M (snd ie)) (combine (seq 0 (length (cm_internal M))) (cm_internal M)) = map (iedge_of M) (cm_internal M).
  Proof. rewrite <- (map_map snd (iedge_of M)), combine_seq_snd. reflexivity. Qed.

  Lemma interior_ok x f f' : w = Standard -> rel M x f -> interior_loop vadd vscal (cm_owned M) A (s_interior sl vl) (map (iedge_of M) (cm_internal M)) f = Some f' ->
    exists x', ApplyInteriorFlux cf M ul x = Some x' /\ rel M x' f'.
  Proof.
    intros W HR E. unfold ApplyInteriorFlux.
    rewrite (omap_map _ (fun e => rstate_of (vl (left_cell M e)))) by (intros e He; apply load_cell; apply internal_cells; exact He).
    rewrite (omap_map _ (fun e => rstate_of (vl (right_cell M e)))) by (intros e He; apply load_cell; apply internal_cells; exact He).
    rewrite !obind_Some, roe_chosen. unfold ComputeRiemannVelocities. rewrite !map_map.
    destruct (roe_batch (map (fun e => vel_state (left_cell M e)) (cm_internal M)) (map (fun e => vel_state (right_cell M e)) (cm_internal M)) (map (cm_sn M) (cm_internal M)) (map (cm_cn M) (cm_internal M)))
      as (fl & am & EF & _ & VF); [rewrite !map_length; reflexivity..|].
    unfold vel_state in EF at 1 2. rewrite EF, obind_Some. cbn [fst].
    rewrite <- pair_edges in E. unfold interior_loop in E.
    refine (fold_rel _ _ (fun ie => iedge_of M (snd ie)) _ x f f' _ HR E).
    intros [i e] x0 f0 f0' Hin HR0 E0. apply combine_seq_In in Hin. cbn [snd] in E0.
    refine (interior_edge_ok fl x0 f0 f0' i e W _ Hin HR0 E0).
    intros i' e' Hi' k Hk. apply (VF i' _ _ _ _ (map_nth_error (fun e => vel_state (left_cell M e)) _ _ Hi') (map_nth_error (fun e => vel_state (right_cell M e)) _ _ Hi') (map_nth_error (cm_sn M) _ _ Hi') (map_nth_error (cm_cn M) _ _ Hi') k Hk).
  Qed.

  (** *** Interior edges with hydrostatic reconstruction *)
  Section Reconstruction.
  Context (file : bool).
  Lemma area_at c : (c < cm_cells M)%nat -> A c = cm_area M c.
  Proof. intros Hc. unfold to_local. cbn [prank_of rk_gid]. symmetry. apply (pp_area _ _ _ _ _ _ _ PO); exact Hc. Qed.
  Lemma beds_ok : w = Hydrostatic file -> exists zc, cell_beds file (cp_hmesh p) = Some zc /\ forall c, (c < cm_cells M)%nat -> nth_error zc c = Some (z (gid c)).
  Proof.
    intros W. destruct (pp_bed _ _ _ _ _ _ _ PO file W) as (CO & HB). unfold cell_beds. rewrite (omap_map _ (bed file (cp_hmesh p))).
    - eexists. split; [reflexivity|]. intros c Hc. rewrite nth_error_map. unfold cp_mesh in Hc. rewrite nth_error_seq0 by exact Hc. cbn [option_map]. apply f_equal. apply HB. exact Hc.
    - intros c Hc. apply in_seq in Hc. apply bed_some; [exact CO|lia].
  Qed.
  Definition hr_state (q : vec3) (zs zo : R) : rstate :=
    let V := cvel tiny (cf_h_anuga cf) q in RState (Some (hr_depth (c0 q) zs zo)) 0 0 (Some (pu V)) (Some (pv V)).
  Definition hr_left (e : nat) := hr_state (vl (left_cell M e)) (z (gid (left_cell M e))) (z (gid (right_cell M e))).
  Definition hr_right (e : nat) := hr_state (vl (right_cell M e)) (z (gid (right_cell M e))) (z (gid (left_cell M e))).
  Lemma hr_depth_swap h a b : hr_depth h a b = Rmax 0 (h + a - Rmax b a).
  Proof. unfold hr_depth. rewrite (Rmax_comm a b). reflexivity. Qed.
  Lemma hr_states_ok zc e : (forall c, (c < cm_cells M)%nat -> nth_error zc c = Some (z (gid c))) -> In e (cm_internal M) ->
    hr_states tiny (cf_h_anuga cf) M zc ul e = Some (hr_left e, hr_right e).
  Proof.
    intros Z He. destruct (internal_cells e He) as (Hl & Hr). unfold hr_states. rewrite !cell_entry, !Z by (assumption || lia). rewrite !obind_Some.
    assert (Ht := tiny_pos). unfold hr_left, hr_right, hr_state. cbn [component comps3 nth].
    assert (V : forall q, ((if tiny <? c0 q then rdiv (c1 q * c0 q) (c0 q * c0 q + cf_h_anuga cf * cf_h_anuga cf) else Some 0) = Some (pu (cvel tiny (cf_h_anuga cf) q))) /\
      ((if tiny <? c0 q then rdiv (c2 q * c0 q) (c0 q * c0 q + cf_h_anuga cf * cf_h_anuga cf) else Some 0) = Some (pv (cvel tiny (cf_h_anuga cf) q)))).
    { intros q. unfold cvel. destruct (tiny <? c0 q) eqn:E; [|split; reflexivity]. apply Rltb_true in E. rewrite !rdiv_some by (apply denom_nz; lra). split; reflexivity. }
    rewrite (hr_depth_swap (c0 (vl (right_cell M e)))). unfold component. cbn [comps3 nth].
    rewrite (proj1 (V (vl (left_cell M e)))), (proj2 (V (vl (left_cell M e)))), (proj1 (V (vl (right_cell M e)))), (proj2 (V (vl (right_cell M e)))). reflexivity.
  Qed.
  Lemma hr_edge_ok zc fl x f f' i e : w = Hydrostatic file ->
    (forall c, (c < cm_cells M)%nat -> nth_error zc c = Some (z (gid c))) ->
    (forall i e, nth_error (cm_internal M) i = Some e -> forall k, (k < 3)%nat ->
       nth_error fl (3 * i + k) = nth_error (flux3 (roe_between (hr_left e) (hr_right e) (cm_sn M e) (cm_cn M e))) k) ->
    nth_error (cm_internal M) i = Some e -> rel M x f -> edge_update vadd vscal (cm_owned M) A (s_interior sl vl) f (iedge_of M e) = Some f' ->
    exists x', accumulate_edge_hr tiny M zc ul (map (cm_sn M) (cm_internal M)) (map (cm_cn M) (cm_internal M)) fl x (i, e) = Some x' /\ rel M x' f'.
  Proof.
    intros W Z HF Hi HR E. assert (Ht := tiny_pos). assert (He : In e (cm_internal M)) by (eapply nth_error_In; exact Hi). destruct (internal_cells e He) as (Hl & Hr).
    unfold accumulate_edge_hr. rewrite !cell_entry by (assumption || lia). rewrite !obind_Some. unfold component at 1 2. cbn [comps3 nth].
    assert (K : s_interior sl vl (iedge_of M e) = petsc_hr_edge tiny (cf_h_anuga cf) (z (gid (left_cell M e))) (z (gid (right_cell M e))) (vl (left_cell M e)) (vl (right_cell M e)) (cm_sn M e) (cm_cn M e)) by (rewrite W; reflexivity).
    unfold petsc_hr_edge, hr_velocity in K.
    destruct ((c0 (vl (right_cell M e)) <? tiny) && (c0 (vl (left_cell M e)) <? tiny))%bool.
    - exists x. split; [reflexivity|]. eapply (edge_rel M A _ x f f' _ _ _ _ HR E K); [exact (proj1 HR)|]. intros a b _ _ c k Hc Hk.
      rewrite component_zero, !Rmult_0_r. destruct (_ && _)%bool, (_ && _)%bool; ring.
    - rewrite !Z, !obind_Some by assumption. rewrite !nth_error_map, Hi. cbn [option_map].
      rewrite !ceed_velocities_some, !obind_Some in K by lra.
      set (zl := z (gid (left_cell M e))) in *. set (zr := z (gid (right_cell M e))) in *.
      change (component 0 (vl (left_cell M e))) with (c0 (vl (left_cell M e))). change (component 0 (vl (right_cell M e))) with (c0 (vl (right_cell M e))).
      change (Rmax 0 (c0 (vl (left_cell M e)) + zl - Rmax zl zr)) with (hr_depth (c0 (vl (left_cell M e))) zl zr).
      rewrite <- (hr_depth_swap (c0 (vl (right_cell M e))) zr zl).
      set (hl := hr_depth (c0 (vl (left_cell M e))) zl zr) in *. set (hr := hr_depth (c0 (vl (right_cell M e))) zr zl) in *.
      set (CL := hr_correction GRAVITY (c0 (vl (left_cell M e))) hl (cm_sn M e) (cm_cn M e)) in *. set (CR := hr_correction GRAVITY (c0 (vl (right_cell M e))) hr (cm_sn M e) (cm_cn M e)) in *.
      (* the scales *)
      assert (SC : exists a b, rdiv (- cm_len M e) (cm_area M (left_cell M e)) = Some a /\ rdiv (cm_len M e) (cm_area M (right_cell M e)) = Some b).
      { unfold edge_update in E. apply obind_some in E. destruct E as ([[q1 q2] q3] & _ & E). apply obind_some in E. destruct E as (a & Ea & E). apply obind_some in E. destruct E as (b & Eb & _).
        cbn [iedge_of ie_l ie_r ie_len] in Ea, Eb. rewrite area_at in Ea, Eb by assumption. eauto. }
      destruct SC as (a & b & Ea & Eb). rewrite Ea, Eb.
      (* corrections on top of an array x1 *)
      assert (CO : forall x1 D1 D2, sized M x1 ->
        (forall c k, In c (owned_cells M) -> (k < 3)%nat -> value M x1 c k = value M x c k + (if (cm_owned M (left_cell M e) && Nat.eqb c (left_cell M e))%bool then a * component k D1 else 0)
            + (if (cm_owned M (right_cell M e) && Nat.eqb c (right_cell M e))%bool then b * component k D2 else 0)) ->
        forall s, s_interior sl vl (iedge_of M e) = Some (vadd D1 CL, vadd D2 CR, s) ->
        exists x', (let* f := bump (cm_owned M (left_cell M e)) x1 (3 * cm_l2o M (left_cell M e) + 1) (Some (1/2 * GRAVITY * (c0 (vl (left_cell M e)) * c0 (vl (left_cell M e)) - hl * hl) * cm_cn M e * a)) in
                    let* f := bump (cm_owned M (left_cell M e)) f (3 * cm_l2o M (left_cell M e) + 2) (Some (1/2 * GRAVITY * (c0 (vl (left_cell M e)) * c0 (vl (left_cell M e)) - hl * hl) * cm_sn M e * a)) in
                    let* f := bump (cm_owned M (right_cell M e)) f (3 * cm_l2o M (right_cell M e) + 1) (Some (1/2 * GRAVITY * (c0 (vl (right_cell M e)) * c0 (vl (right_cell M e)) - hr * hr) * cm_cn M e * b)) in
                    bump (cm_owned M (right_cell M e)) f (3 * cm_l2o M (right_cell M e) + 2) (Some (1/2 * GRAVITY * (c0 (vl (right_cell M e)) * c0 (vl (right_cell M e)) - hr * hr) * cm_sn M e * b))) = Some x' /\ rel M x' f').
      { intros x1 D1 D2 S1 V1 s Ks.
        destruct (bump_ok M NB (cm_owned M (left_cell M e)) x1 (left_cell M e) 1 (Some (1/2 * GRAVITY * (c0 (vl (left_cell M e)) * c0 (vl (left_cell M e)) - hl * hl) * cm_cn M e * a)) (1/2 * GRAVITY * (c0 (vl (left_cell M e)) * c0 (vl (left_cell M e)) - hl * hl) * cm_cn M e * a) S1 (fun O => owned_in M _ Hl O) (fun _ => eq_refl) ltac:(lia)) as (y1 & Y1 & T1 & U1). rewrite Y1, obind_Some.
        destruct (bump_ok M NB (cm_owned M (left_cell M e)) y1 (left_cell M e) 2 (Some (1/2 * GRAVITY * (c0 (vl (left_cell M e)) * c0 (vl (left_cell M e)) - hl * hl) * cm_sn M e * a)) (1/2 * GRAVITY * (c0 (vl (left_cell M e)) * c0 (vl (left_cell M e)) - hl * hl) * cm_sn M e * a) T1 (fun O => owned_in M _ Hl O) (fun _ => eq_refl) ltac:(lia)) as (y2 & Y2 & T2 & U2). rewrite Y2, obind_Some.
        destruct (bump_ok M NB (cm_owned M (right_cell M e)) y2 (right_cell M e) 1 (Some (1/2 * GRAVITY * (c0 (vl (right_cell M e)) * c0 (vl (right_cell M e)) - hr * hr) * cm_cn M e * b)) (1/2 * GRAVITY * (c0 (vl (right_cell M e)) * c0 (vl (right_cell M e)) - hr * hr) * cm_cn M e * b) T2 (fun O => owned_in M _ Hr O) (fun _ => eq_refl) ltac:(lia)) as (y3 & Y3 & T3 & U3). rewrite Y3, obind_Some.
        destruct (bump_ok M NB (cm_owned M (right_cell M e)) y3 (right_cell M e) 2 (Some (1/2 * GRAVITY * (c0 (vl (right_cell M e)) * c0 (vl (right_cell M e)) - hr * hr) * cm_sn M e * b)) (1/2 * GRAVITY * (c0 (vl (right_cell M e)) * c0 (vl (right_cell M e)) - hr * hr) * cm_sn M e * b) T3 (fun O => owned_in M _ Hr O) (fun _ => eq_refl) ltac:(lia)) as (y4 & Y4 & T4 & U4).
        exists y4. split; [exact Y4|]. eapply (edge_rel M A _ x f f' _ _ _ _ HR E Ks); [exact T4|]. intros a' b' Ea' Eb' c k Hc Hk.
        cbn [iedge_of ie_l ie_r ie_len] in Ea', Eb' |- *. rewrite area_at in Ea', Eb' by assumption. assert (a' = a) by congruence. assert (b' = b) by congruence. subst a' b'.
        rewrite U4, U3, U2, U1, V1 by assumption. rewrite !component_add.
        unfold CL, CR, hr_correction, component. cbv zeta.
        destruct (cm_owned M (left_cell M e)), (cm_owned M (right_cell M e)); cbn [andb]; destruct (Nat.eqb c (left_cell M e)), (Nat.eqb c (right_cell M e)); cbn [andb];
          (destruct k as [|[|[|k]]]; [| | |lia]); cbn [Nat.eqb nth comps3 c0 c1 c2]; field. }
      destruct ((tiny <? hl) || (tiny <? hr))%bool.
      + destruct (petsc_roe_flux (Prim hl (pu (cvel tiny (cf_h_anuga cf) (vl (left_cell M e)))) (pv (cvel tiny (cf_h_anuga cf) (vl (left_cell M e)))))
                    (Prim hr (pu (cvel tiny (cf_h_anuga cf) (vl (right_cell M e)))) (pv (cvel tiny (cf_h_anuga cf) (vl (right_cell M e))))) (cm_sn M e) (cm_cn M e)) as [[fv am]|] eqn:EF.
        2:{ unfold edge_update in E. rewrite K in E. discriminate E. }
        rewrite obind_Some in K.
        assert (HFe : forall k, (k < 3)%nat -> nth_error fl (3 * i + k) = nth_error (flux3 (Some (fv, am))) k).
        { intros k Hk. rewrite (HF i e Hi k Hk). unfold roe_between, hr_left, hr_right, hr_state, rs_prim. cbn [rs_h rs_u rs_v]. rewrite !obind_Some. fold zl zr hl hr. rewrite EF. reflexivity. }
        destruct (bump_flux M NB (cm_owned M (left_cell M e)) (left_cell M e) (cm_owned M (right_cell M e)) (right_cell M e) x
          (fun k => scaled fl (3 * i + k) (Some a)) (fun k => scaled fl (3 * i + k) (Some b))
          (vscal a fv) (vscal b fv) (proj1 HR)) as (x1 & Ex & Sx & Vx).
        * intros O. apply owned_in; assumption.
        * intros O. apply owned_in; assumption.
        * intros k Hk _. apply (scaled_some fl i k (fv, am) _ a (HFe k Hk) Hk eq_refl).
        * intros k Hk _. apply (scaled_some fl i k (fv, am) _ b (HFe k Hk) Hk eq_refl).
        * rewrite Ex, obind_Some. apply (CO x1 fv fv Sx) with (s := am); [|exact K].
          intros c k Hc Hk. rewrite (Vx c k Hc Hk), !component_scal. reflexivity.
      + cbn [obind] in K. rewrite obind_Some. apply (CO x vzero vzero (proj1 HR)) with (s := 0); [|exact K].
        intros c k Hc Hk. rewrite component_zero, !Rmult_0_r. destruct (_ && _)%bool, (_ && _)%bool; ring.
  Qed.
  Lemma hr_interior_ok zc x f f' : w = Hydrostatic file -> (forall c, (c < cm_cells M)%nat -> nth_error zc c = Some (z (gid c))) ->
    rel M x f -> interior_loop vadd vscal (cm_owned M) A (s_interior sl vl) (map (iedge_of M) (cm_internal M)) f = Some f' ->
    exists x', ApplyInteriorFluxHR cf M zc ul x = Some x' /\ rel M x' f'.
  Proof.
    intros W Z HR E. unfold ApplyInteriorFluxHR.
    rewrite (omap_map _ (fun e => (hr_left e, hr_right e))) by (intros e He; apply hr_states_ok; assumption).
    rewrite obind_Some, roe_chosen, !map_map. cbn [fst snd].
    destruct (roe_batch (map hr_left (cm_internal M)) (map hr_right (cm_internal M)) (map (cm_sn M) (cm_internal M)) (map (cm_cn M) (cm_internal M)))
      as (fl & am & EF & _ & VF); [rewrite !map_length; reflexivity..|].
    change (map (fun x0 : nat => hr_left x0) (cm_internal M)) with (map hr_left (cm_internal M)). change (map (fun x0 : nat => hr_right x0) (cm_internal M)) with (map hr_right (cm_internal M)).
    rewrite EF, obind_Some. cbn [fst]. rewrite <- pair_edges in E. unfold interior_loop in E.
    refine (fold_rel _ _ (fun ie => iedge_of M (snd ie)) _ x f f' _ HR E).
    intros [i e] x0 f0 f0' Hin HR0 E0. apply combine_seq_In in Hin. cbn [snd] in E0.
    refine (hr_edge_ok zc fl x0 f0 f0' i e W Z _ Hin HR0 E0).
    intros i' e' Hi' k Hk. apply (VF i' _ _ _ _ (map_nth_error hr_left _ _ Hi') (map_nth_error hr_right _ _ Hi') (map_nth_error (cm_sn M) _ _ Hi') (map_nth_error (cm_cn M) _ _ Hi') k Hk).
  Qed.

  End Reconstruction.

  (** *** Boundary edges *)
  Context (dt : R).
  Section OneBoundary.
    Context (b : cboundary) (st : bop) (Hb : In b (cp_bounds p)) (SZ : bop_sized (cb_edges b) st).
    Local Notation bc i := (flow_condition (cb_type b) (block 3 (cb_values b) i)).
    Local Notation states i e := (petsc_boundary_states tiny (cf_h_anuga cf) (bc i) (vl (left_cell M e)) (cm_sn M e) (cm_cn M e)).
    Definition left_states := map (fun e => vel_state (left_cell M e)) (cb_edges b).
    Definition edge_data := combine (cb_edges b) (combine (combine left_states (bo_right st)) (combine (map (cm_sn M) (cb_edges b)) (map (cm_cn M) (cb_edges b)))).
    Lemma edge_data_length : length edge_data = length (cb_edges b).
    Proof. unfold edge_data, left_states. rewrite !combine_length, !map_length, (proj1 SZ). lia. Qed.
    Lemma edge_data_get i e : nth_error (cb_edges b) i = Some e -> exists r0, nth_error edge_data i = Some (e, (vel_state (left_cell M e), r0, (cm_sn M e, cm_cn M e))).
    Proof.
      intros Hi. assert (L : (i < length (bo_right st))%nat) by (rewrite (proj1 SZ); apply nth_error_Some; congruence).
      exists (nth i (bo_right st) rstate0). unfold edge_data, left_states. repeat apply combine_get; try (apply map_nth_error; exact Hi); [exact Hi| |apply nth_error_nth'; exact L].
      apply (map_nth_error (fun e => vel_state (left_cell M e))). exact Hi.
    Qed.
    Definition boundary_pair : option (list rstate * list rstate) :=
      match cb_type b with
      | DIRICHLET =>
        let* dr := omap (load (cb_values b)) (seq 0 (length (cb_edges b))) in
        Some (left_states, ComputeRiemannVelocities tiny (cf_h_anuga cf) dr)
      | REFLECTING => let ds := map (reflect_state M) edge_data in Some (map fst ds, map snd ds)
      | CRITICAL_OUTFLOW => let ds := map (outflow_state M) edge_data in Some (map fst ds, map snd ds)
      end.
    Lemma boundary_pair_ok : exists dl dr, boundary_pair = Some (dl, dr) /\ length dl = length (cb_edges b) /\ length dr = length (cb_edges b) /\
      forall i e L Rt, nth_error (cb_edges b) i = Some e -> cm_owned M (left_cell M e) = true -> states i e = Some (L, Rt) ->
        exists l r, nth_error dl i = Some l /\ nth_error dr i = Some r /\ rs_prim l = Some L /\ rs_prim r = Some Rt.
    Proof.
      assert (Ht := tiny_pos). unfold boundary_pair. destruct (cb_type b) eqn:TY.
      - assert (LV := pp_values _ _ _ _ _ _ _ PO b Hb TY). rewrite (num_comp_flow cf (proj1 C)) in LV.
        rewrite (omap_map _ (fun i => rstate_of (v3 (block 3 (cb_values b) i)))).
        2:{ intros i Hi. apply in_seq in Hi. apply load_ok; [rewrite comps3_of; [reflexivity|apply block_length; lia]|lia]. }
        rewrite obind_Some. do 2 eexists. split; [reflexivity|]. unfold ComputeRiemannVelocities, left_states. rewrite !map_length, seq_length. split; [reflexivity|]. split; [reflexivity|].
        intros i e L Rt Hi O S. assert (Li : (i < length (cb_edges b))%nat) by (apply nth_error_Some; congruence).
        unfold petsc_boundary_states in S. rewrite petsc_velocities_some, obind_Some in S by exact Ht. cbn [flow_condition] in S. rewrite petsc_velocities_some, obind_Some in S by exact Ht. injection S as <- <-.
        do 2 eexists. split; [apply (map_nth_error (fun e => vel_state (left_cell M e))); exact Hi|]. split; [rewrite map_map, nth_error_map, nth_error_seq0 by exact Li; reflexivity|].
        unfold vel_state. rewrite !velocity_prim, !petsc_velocities_some by exact Ht. auto.
      - do 2 eexists. split; [reflexivity|]. rewrite !map_length, edge_data_length. split; [reflexivity|]. split; [reflexivity|].
        intros i e L Rt Hi O S. destruct (edge_data_get i e Hi) as (r0 & G). do 2 eexists. split; [rewrite !nth_error_map, G; reflexivity|]. split; [rewrite !nth_error_map, G; reflexivity|].
        unfold petsc_boundary_states in S. rewrite petsc_velocities_some, obind_Some in S by exact Ht. cbn [flow_condition] in S. injection S as <- <-.
        unfold reflect_state. rewrite O. cbn [fst snd]. assert (P : rs_prim (vel_state (left_cell M e)) = Some (pvel tiny (cf_h_anuga cf) (vl (left_cell M e)))) by (unfold vel_state; rewrite velocity_prim; apply petsc_velocities_some; exact Ht).
        split; [exact P|]. unfold rs_prim in P |- *. cbn [rs_h rs_u rs_v].
        destruct (rs_h (vel_state (left_cell M e))) as [h|]; [|discriminate P]. destruct (rs_u (vel_state (left_cell M e))) as [uu|]; [|discriminate P]. destruct (rs_v (vel_state (left_cell M e))) as [vv|]; [|discriminate P].
        cbn [obind] in P |- *. injection P as <-. reflexivity.
      - do 2 eexists. split; [reflexivity|]. rewrite !map_length, edge_data_length. split; [reflexivity|]. split; [reflexivity|].
        intros i e L Rt Hi O S. destruct (edge_data_get i e Hi) as (r0 & G). do 2 eexists. split; [rewrite !nth_error_map, G; reflexivity|]. split; [rewrite !nth_error_map, G; reflexivity|].
        unfold petsc_boundary_states in S. rewrite petsc_velocities_some, obind_Some in S by exact Ht. cbn [flow_condition] in S.
        assert (P : rs_prim (vel_state (left_cell M e)) = Some (pvel tiny (cf_h_anuga cf) (vl (left_cell M e)))) by (unfold vel_state; rewrite velocity_prim; apply petsc_velocities_some; exact Ht).
        unfold outflow_state. rewrite O, P. unfold petsc_outflow in S. destruct (_ <? 0).
        + injection S as <- <-. cbn [fst snd]. split; reflexivity.
        + apply obind_some in S. destruct S as (x1 & X1 & S). apply obind_some in S. destruct S as (x2 & X2 & S). apply obind_some in S. destruct S as (x3 & X3 & S). injection S as <- <-.
          cbn [fst snd]. split; [exact P|]. unfold rs_prim. cbn [rs_h rs_u rs_v]. rewrite X1, obind_Some, X2. cbn [obind]. rewrite X3. reflexivity.
    Qed.

    Lemma prim_depth s P : rs_prim s = Some P -> rs_h s = Some (ph P).
    Proof. unfold rs_prim. intros H. apply obind_some in H. destruct H as (h & E & H). apply obind_some in H. destruct H as (a & _ & H). apply obind_some in H. destruct H as (c & _ & H). injection H as <-. exact E. Qed.
    Lemma axpy_get (y : list (option R)) a x i v w' : nth_error y i = Some (Some v) -> nth_error x i = Some (Some w') -> nth_error (axpy_opt y a x) i = Some (Some (v + a * w')).
    Proof. intros H1 H2. unfold axpy_opt. rewrite nth_error_map, (combine_get _ _ _ _ _ H1 H2). cbn [option_map fst snd]. rewrite !obind_Some. reflexivity. Qed.

    Lemma one_boundary_ok x f f' : rel M x f -> boundary_loop vadd vscal (cm_owned M) A (s_boundary sl vl) (map (bedge_of M b) (positions b)) f = Some f' ->
      exists x' st', ApplyBoundaryFlux cf M b dt ul st x = Some (x', st') /\ rel M x' f' /\ bop_sized (cb_edges b) st' /\ records cf u dt p b st st'.
    Proof.
      intros HR E. assert (Ht := tiny_pos). unfold ApplyBoundaryFlux.
      rewrite (omap_map _ (fun e => rstate_of (vl (left_cell M e)))) by (intros e He; apply load_cell; eapply boundary_cells; eassumption).
      rewrite obind_Some. 
      assert (EL : ComputeRiemannVelocities tiny (cf_h_anuga cf) (map (fun e => rstate_of (vl (left_cell M e))) (cb_edges b)) = left_states) by (unfold ComputeRiemannVelocities; rewrite map_map; reflexivity).
      rewrite EL. cbv zeta.
      fold edge_data. change (match cb_type b with
        | DIRICHLET => let* dr := omap (load (cb_values b)) (seq 0 (length (cb_edges b))) in Some (left_states, ComputeRiemannVelocities tiny (cf_h_anuga cf) dr)
        | REFLECTING => Some (map fst (map (reflect_state M) edge_data), map snd (map (reflect_state M) edge_data))
        | CRITICAL_OUTFLOW => Some (map fst (map (outflow_state M) edge_data), map snd (map (outflow_state M) edge_data)) end) with boundary_pair.
      destruct boundary_pair_ok as (dl & dr & EP & L1 & L2 & VP). rewrite EP, obind_Some, roe_chosen.
      destruct (roe_batch dl dr (map (cm_sn M) (cb_edges b)) (map (cm_cn M) (cb_edges b))) as (fl & am & EF & LF & VF); [rewrite ?map_length; congruence..|].
      rewrite EF, obind_Some. cbn [fst].
      assert (FV : forall i e L Rt, nth_error (cb_edges b) i = Some e -> cm_owned M (left_cell M e) = true -> states i e = Some (L, Rt) -> forall k, (k < 3)%nat ->
        nth_error fl (3 * i + k) = nth_error (flux3 (petsc_roe_flux L Rt (cm_sn M e) (cm_cn M e))) k).
      { intros i e L Rt Hi O S k Hk. destruct (VP i e L Rt Hi O S) as (l & r & G1 & G2 & P1 & P2).
        rewrite (VF i l r _ _ G1 G2 (map_nth_error (cm_sn M) _ _ Hi) (map_nth_error (cm_cn M) _ _ Hi) k Hk). unfold roe_between. rewrite P1, obind_Some, P2, obind_Some. reflexivity. }
      assert (ST : forall a x f f', In a (positions b) -> rel M x f -> bedge_update vadd vscal (cm_owned M) A (s_boundary sl vl) f (bedge_of M b a) = Some f' ->
        exists x', accumulate_bedge tiny M dl dr fl x a = Some x' /\ rel M x' f').
      { intros [i e] x0 f0 f0' Hin HR0 E0. unfold positions in Hin. apply combine_seq_In in Hin. unfold bedge_update in E0. cbn [bedge_of be_c be_len be_sn be_cn be_bc fst snd] in E0.
        unfold accumulate_bedge. destruct (cm_owned M (left_cell M e)) eqn:O; [|injection E0 as <-; exists x0; split; [reflexivity|exact HR0]].
        assert (Hc : (left_cell M e < cm_cells M)%nat) by (eapply boundary_cells; [exact Hb|eapply nth_error_In; exact Hin]).
        apply obind_some in E0. destruct E0 as ([q s] & K & E0). apply obind_some in E0. destruct E0 as (a & Ea & E0). injection E0 as <-. rewrite area_at in Ea by exact Hc.
        assert (K' : petsc_boundary_edge tiny (cf_h_anuga cf) (bc i) (vl (left_cell M e)) (cm_sn M e) (cm_cn M e) = Some (q, s)) by (rewrite <- K; destruct w; reflexivity).
        unfold petsc_boundary_edge in K'. apply obind_some in K'. destruct K' as ([L Rt] & S & K').
        destruct (VP i e L Rt Hin O S) as (l & r & G1 & G2 & P1 & P2). rewrite G1, G2, !obind_Some, (prim_depth _ _ P1), (prim_depth _ _ P2), !obind_Some.
        fold (prim_dry tiny L) (prim_dry tiny Rt).
        destruct (prim_dry tiny L && prim_dry tiny Rt)%bool.
        - injection K' as <- <-. exists x0. split; [reflexivity|]. destruct HR0 as (S0 & V0). split; [exact S0|]. intros c k Hc' Hk. rewrite (V0 c k Hc' Hk). unfold add_at.
          destruct (Nat.eqb c _); [|reflexivity]. rewrite component_add, component_scal. cbn [fst]. rewrite component_zero. ring.
        - destruct (bump_flux M NB true (left_cell M e) false 0%nat x0 (fun k => scaled fl (3 * i + k) (rdiv (- cm_len M e) (cm_area M (left_cell M e)))) (fun _ => None) (vscal a q) vzero (proj1 HR0)) as (x' & Ex & Sx & Vx).
          + intros _. apply owned_in; assumption.
          + discriminate.
          + intros k Hk _. refine (scaled_some fl i k (q, s) _ a _ Hk Ea). rewrite (FV i e L Rt Hin O S k Hk), K'. reflexivity.
          + discriminate.
          + exists x'. split.
            * rewrite <- Ex. apply ofold_same. intros f1 k. unfold bump at 3. symmetry. apply obind_id.
            * destruct HR0 as (S0 & V0). split; [exact Sx|]. intros c k Hc' Hk. rewrite (Vx c k Hc' Hk), (V0 c k Hc' Hk). unfold add_at. cbn [andb fst]. rewrite component_scal.
              destruct (Nat.eqb c _); [rewrite component_add, component_scal; ring|ring]. }
      destruct (fold_rel (accumulate_bedge tiny M dl dr fl) _ (bedge_of M b) (positions b) x f f' ST HR E) as (x' & Ex & HR').
      fold (positions b). rewrite Ex, obind_Some. do 2 eexists. split; [reflexivity|]. split; [exact HR'|]. split.
      - split; [exact L2|]. cbn [bo_accum]. unfold axpy_opt. rewrite map_length, combine_length, (proj2 SZ), LF, L1. lia.
      - intros i e q Hi O RQ k Hk. unfold petsc_boundary_recorded in RQ. apply obind_some in RQ. destruct RQ as ([L Rt] & S & RQ). apply obind_some in RQ. destruct RQ as ([q' s] & RF & RQ). injection RQ as <-.
        assert (V : nth_error fl (3 * i + k) = Some (Some (component k q'))).
        { rewrite (FV i e L Rt Hi O S k Hk), RF. unfold flux3, component. cbn [fst]. do 3 (destruct k as [|k]; [reflexivity|]). lia. }
        cbn [bo_fluxes bo_accum]. split; [exact V|]. intros a Ha. apply axpy_get; assumption.
    Qed.
  End OneBoundary.

  Lemma boundaries_ok : forall bs sts x f f' acc, incl bs (cp_bounds p) -> Forall2 bop_sized (map cb_edges bs) sts -> rel M x f ->
    boundary_loop vadd vscal (cm_owned M) A (s_boundary sl vl) (flat_map (fun b => map (bedge_of M b) (positions b)) bs) f = Some f' ->
    exists x' sts', ofold (fun x bst => let* r := ApplyBoundaryFlux cf M (fst bst) dt ul (snd bst) (fst x) in Some (fst r, snd x ++ [snd r])%list) (combine bs sts) (x, acc) = Some (x', acc ++ sts')%list /\
      rel M x' f' /\ Forall2 bop_sized (map cb_edges bs) sts' /\ Forall2 (fun bst st' => records cf u dt p (fst bst) (snd bst) st') (combine bs sts) sts'.
  Proof.
    induction bs as [|b bs IH]; intros sts x f f' acc I SZ HR E; cbn [map flat_map] in *.
    - inversion SZ; subst. injection E as <-. exists x, []. cbn [combine ofold]. rewrite app_nil_r. repeat split; [apply HR..|constructor|constructor].
    - inversion SZ as [|? st ? sts0 S0 S1]; subst. unfold boundary_loop in E. rewrite ofold_app in E. apply obind_some in E. destruct E as (f1 & E1 & E2).
      destruct (one_boundary_ok b st (I b (or_introl eq_refl)) S0 x f f1 HR E1) as (x1 & st1 & X1 & HR1 & Z1 & RC1).
      destruct (IH sts0 x1 f1 f' (acc ++ [st1])%list (fun y Hy => I y (or_intror Hy)) S1 HR1 E2) as (x2 & sts2 & X2 & HR2 & Z2 & RC2).
      exists x2, (st1 :: sts2). cbn [combine ofold fst snd]. rewrite X1, obind_Some. cbn [fst snd]. rewrite obind_Some, X2, <- app_assoc.
      split; [reflexivity|]. split; [exact HR2|]. split; constructor; assumption.
  Qed.

  (** *** Sources *)
  Lemma put_ok x c i (a : R) : sized M x -> In c (owned_cells M) -> (i < 3)%nat ->
    exists x', put x (3 * cm_l2o M c + i) (Some a) = Some x' /\ sized M x' /\
      forall c' k, In c' (owned_cells M) -> (k < 3)%nat -> value M x' c' k = if (Nat.eqb c' c && Nat.eqb k i)%bool then a else value M x c' k.
  Proof.
    intros S Hc Hi. unfold put. rewrite obind_Some. assert (B := slot_bound M NB c Hc). assert (Hk : (3 * cm_l2o M c + i < length x)%nat) by (rewrite S; lia).
    destruct (upd_some x _ a Hk) as (x' & E). exists x'. split; [exact E|]. split; [unfold sized; rewrite (upd_length _ _ _ _ E); exact S|].
    intros c' k Hc' Hk'. assert (B' := slot_bound M NB c' Hc'). unfold value. assert (U := upd_get _ _ _ _ (3 * cm_l2o M c' + k) E).
    destruct (Nat.eqb_spec (3 * cm_l2o M c' + k) (3 * cm_l2o M c + i)) as [Q|Q].
    - assert (k = i /\ cm_l2o M c' = cm_l2o M c) as (-> & Q') by lia. assert (c' = c) by (apply (slot_inj M NB); assumption). subst c'. rewrite !Nat.eqb_refl. cbn [andb].
      rewrite (nth_error_nth _ _ _ U). reflexivity.
    - rewrite (nth_error_nth' x 0) in U by (rewrite S; lia). rewrite (nth_error_nth _ _ _ U).
      destruct (Nat.eqb_spec c' c) as [->|]; cbn [andb]; [|reflexivity]. destruct (Nat.eqb_spec k i) as [->|]; [contradiction|reflexivity].
  Qed.
  Lemma put3 x c (a : vec3) : sized M x -> In c (owned_cells M) ->
    exists x', (let* x := put x (3 * cm_l2o M c + 0) (Some (c0 a)) in let* x := put x (3 * cm_l2o M c + 1) (Some (c1 a)) in put x (3 * cm_l2o M c + 2) (Some (c2 a))) = Some x' /\ sized M x' /\
      forall c' k, In c' (owned_cells M) -> (k < 3)%nat -> value M x' c' k = if Nat.eqb c' c then component k a else value M x c' k.
  Proof.
    intros S Hc. destruct (put_ok x c 0 (c0 a) S Hc ltac:(lia)) as (x1 & E1 & S1 & V1). rewrite E1, obind_Some.
    destruct (put_ok x1 c 1 (c1 a) S1 Hc ltac:(lia)) as (x2 & E2 & S2 & V2). rewrite E2, obind_Some.
    destruct (put_ok x2 c 2 (c2 a) S2 Hc ltac:(lia)) as (x3 & E3 & S3 & V3). exists x3. split; [exact E3|]. split; [exact S3|].
    intros c' k Hc' Hk. rewrite V3, V2, V1 by assumption. destruct (Nat.eqb c' c); cbn [andb]; [|reflexivity]. unfold component. do 3 (destruct k as [|k]; [reflexivity|]). lia.
  Qed.
  Lemma bump3 x c (a : vec3) : sized M x -> In c (owned_cells M) ->
    exists x', (let* x := bump true x (3 * cm_l2o M c + 0) (Some (c0 a)) in let* x := bump true x (3 * cm_l2o M c + 1) (Some (c1 a)) in bump true x (3 * cm_l2o M c + 2) (Some (c2 a))) = Some x' /\ sized M x' /\
      forall c' k, In c' (owned_cells M) -> (k < 3)%nat -> value M x' c' k = value M x c' k + (if Nat.eqb c' c then component k a else 0).
  Proof.
    intros S Hc. destruct (bump_ok M NB true x c 0 (Some (c0 a)) (c0 a) S (fun _ => Hc) (fun _ => eq_refl) ltac:(lia)) as (x1 & E1 & S1 & V1). rewrite E1, obind_Some.
    destruct (bump_ok M NB true x1 c 1 (Some (c1 a)) (c1 a) S1 (fun _ => Hc) (fun _ => eq_refl) ltac:(lia)) as (x2 & E2 & S2 & V2). rewrite E2, obind_Some.
    destruct (bump_ok M NB true x2 c 2 (Some (c2 a)) (c2 a) S2 (fun _ => Hc) (fun _ => eq_refl) ltac:(lia)) as (x3 & E3 & S3 & V3). exists x3. split; [exact E3|]. split; [exact S3|].
    intros c' k Hc' Hk. rewrite V3, V2, V1 by assumption. cbn [andb]. destruct (Nat.eqb c' c); cbn [andb]; [|ring]. unfold component. do 3 (destruct k as [|k]; [cbn; ring|]). lia.
  Qed.

  Definition prims (c : nat) : vec3 := let P := pvel tiny (cf_h_anuga cf) (vl c) in V3 (ph P) (pu P) (pv P).
  Lemma prims_parts c : c0 (prims c) = c0 (vl c) /\
    (if tiny <=? c0 (vl c) then rdiv (c1 (vl c) * c0 (vl c)) (c0 (vl c) * c0 (vl c) + cf_h_anuga cf * cf_h_anuga cf) else Some 0) = Some (c1 (prims c)) /\
    (if tiny <=? c0 (vl c) then rdiv (c2 (vl c) * c0 (vl c)) (c0 (vl c) * c0 (vl c) + cf_h_anuga cf * cf_h_anuga cf) else Some 0) = Some (c2 (prims c)).
  Proof.
    assert (Ht := tiny_pos). unfold prims, pvel. destruct (c0 (vl c) <? tiny) eqn:E.
    - apply Rltb_true in E. replace (tiny <=? c0 (vl c)) with false by (symmetry; apply Rleb_false; lra). cbn. auto.
    - apply Rltb_false in E. replace (tiny <=? c0 (vl c)) with true by (symmetry; apply Rleb_true; lra). rewrite !rdiv_some by (apply denom_nz; lra). cbn. auto.
  Qed.

  Local Notation rhs := (s_source sl dt vl (to_local (prank_of p) src)).
  Lemma source_at c F F' : In c (owned_cells M) -> rhs c F = Some F' ->
    exists s, petsc_source (friction_of cf) (includes_slope w) dt tiny (manning g (gid c)) (cm_dzdx M c) (cm_dzdy M c) (vl c) F (src (gid c)) = Some s /\ F' = vadd F s.
  Proof.
    intros Hc E. destruct (owned_range _ _ Hc) as (Rc & _).
    assert (HW : w = Standard \/ exists b, w = Hydrostatic b) by (destruct w; eauto).
    destruct HW as [W|(b & W)]; rewrite W in E |- *; cbn [petsc_scheme_of petsc_scheme petsc_hr_scheme s_source includes_slope geom_at manning dzdx dzdy] in E |- *.
    - destruct (pp_slope _ _ _ _ _ _ _ PO W c Rc) as (D1 & D2). unfold petsc_rhs in E. apply obind_some in E. destruct E as (s & E & X). injection X as <-. exists s. split; [|reflexivity]. rewrite D1, D2. exact E.
    - unfold petsc_rhs in E. apply obind_some in E. destruct E as (s & E & X). injection X as <-. exists s. split; [|reflexivity]. rewrite <- E. unfold petsc_source, bed_force. reflexivity.
  Qed.
  Lemma friction_chosen : petsc_friction cf = Some (friction_of cf).
  Proof. unfold petsc_friction, friction_of. assert (N := proj2 C). destruct (cf_source cf); [reflexivity|reflexivity|contradiction]. Qed.
  Lemma dofs_ok : dofs_of_sources M (cp_ext p) = Some 3%nat.
  Proof.
    unfold dofs_of_sources. rewrite (pp_ext_length _ _ _ _ _ _ _ PO). assert (N : length (owned_cells M) <> 0%nat) by (intros Q; apply length_zero_iff_nil in Q; exact (pp_some _ _ _ _ _ _ _ PO Q)).
    destruct (Nat.eqb_spec (length (owned_cells M)) 0) as [Q|_]; [contradiction|]. rewrite Nat.div_mul by exact N. reflexivity.
  Qed.
  Lemma vec3_eta (v : vec3) : V3 (c0 v) (c1 v) (c2 v) = v. Proof. destruct v; reflexivity. Qed.

  Lemma source_step fdiv f f' x pvs c : rel M fdiv f -> In c (owned_cells M) -> rhs c (f c) = Some (f' c) -> sized M x -> sized M pvs -> (forall k, (k < 3)%nat -> value M x c k = component k (f c)) ->
    exists x' pvs', source_cell (friction_of cf) (includes_slope w) cf M (cp_ext p) (cp_mat p) fdiv dt ul (x, pvs) c = Some (x', pvs') /\ sized M x' /\ sized M pvs' /\
      (forall c' k, In c' (owned_cells M) -> (k < 3)%nat -> value M x' c' k = if Nat.eqb c' c then component k (f' c) else value M x c' k) /\
      (forall c' k, In c' (owned_cells M) -> (k < 3)%nat -> value M pvs' c' k = if Nat.eqb c' c then component k (prims c) else value M pvs c' k).
  Proof.
    intros (Sd & Vd) Hc E Sx Sp Vx. destruct (owned_range _ _ Hc) as (Rc & Oc). assert (B := slot_bound M NB c Hc). assert (SL := owned_slot M NB c Hc).
    unfold source_cell. rewrite Oc. cbv zeta. rewrite !cell_entry by (assumption || lia). rewrite !obind_Some.
    assert (D : forall k, (k < 3)%nat -> nth_error fdiv (3 * cm_l2o M c + k) = Some (component k (f c))).
    { intros k Hk. rewrite (nth_error_nth' fdiv 0) by (rewrite Sd; lia). apply f_equal. exact (Vd c k Hc Hk). }
    rewrite !D by lia. rewrite !obind_Some.
    assert (X : forall k, (k < 3)%nat -> nth_error (cp_ext p) (3 * cm_l2o M c + k) = Some (component k (src (gid c)))).
    { intros k Hk. apply nth_error_block3; [apply (pp_ext _ _ _ _ _ _ _ PO); exact SL|exact Hk|]. rewrite (pp_ext_length _ _ _ _ _ _ _ PO). lia. }
    rewrite !X by lia. rewrite !obind_Some.
    assert (MT : nth_error (cp_mat p) (1 * cm_l2o M c + 0) = Some (manning g (gid c))).
    { replace (1 * cm_l2o M c + 0)%nat with (cm_l2o M c) by lia. rewrite (nth_error_nth' _ 0) by (rewrite (pp_mat_length _ _ _ _ _ _ _ PO); exact B). apply f_equal. apply (pp_mat _ _ _ _ _ _ _ PO). exact SL. }
    rewrite MT, obind_Some. destruct (source_at c (f c) (f' c) Hc E) as (s & ES & EF). cbn [component comps3 nth]. rewrite !vec3_eta, ES, obind_Some.
    destruct (bump3 x c s Sx Hc) as (x' & E1 & S1 & V1). destruct (put3 pvs c (prims c) Sp Hc) as (pvs' & E2 & S2 & V2).
    destruct (prims_parts c) as (P0 & P1 & P2). exists x', pvs'.
    apply obind_some in E1. destruct E1 as (y1 & Y1 & E1). apply obind_some in E1. destruct E1 as (y2 & Y2 & E1). rewrite Y1, obind_Some, Y2, obind_Some, E1, obind_Some.
    rewrite P0 in E2. apply obind_some in E2. destruct E2 as (y3 & Y3 & E2). apply obind_some in E2. destruct E2 as (y4 & Y4 & E2). rewrite Y3, obind_Some, P1, Y4, obind_Some, P2, E2, obind_Some.
    split; [reflexivity|]. split; [exact S1|]. split; [exact S2|]. split; [|exact V2].
    intros c' k Hc' Hk. rewrite (V1 c' k Hc' Hk). destruct (Nat.eqb_spec c' c) as [->|]; [|ring]. rewrite (Vx k Hk). change (component k (f c) + component k s = component k (f' c)). rewrite EF, component_add. reflexivity.
  Qed.

  Lemma source_fold fdiv f f' : rel M fdiv f -> (forall c, In c (owned_cells M) -> rhs c (f c) = Some (f' c)) -> forall l x pvs,
    NoDup l -> (forall c, In c l -> (c < cm_cells M)%nat) -> sized M x -> sized M pvs -> (forall c k, In c l -> In c (owned_cells M) -> (k < 3)%nat -> value M x c k = component k (f c)) ->
    exists x' pvs', ofold (source_cell (friction_of cf) (includes_slope w) cf M (cp_ext p) (cp_mat p) fdiv dt ul) l (x, pvs) = Some (x', pvs') /\ sized M x' /\ sized M pvs' /\
      forall c k, In c (owned_cells M) -> (k < 3)%nat ->
        (In c l -> value M x' c k = component k (f' c) /\ value M pvs' c k = component k (prims c)) /\
        (~ In c l -> value M x' c k = value M x c k /\ value M pvs' c k = value M pvs c k).
  Proof.
    intros HR HF. induction l as [|a l IH]; intros x pvs ND B Sx Sp V; cbn [ofold].
    - exists x, pvs. split; [reflexivity|]. split; [exact Sx|]. split; [exact Sp|]. intros c k Hc Hk. split; [intros []|auto].
    - apply NoDup_cons_iff in ND. destruct ND as (Na & ND).
      destruct (cm_owned M a) eqn:O.
      + assert (Ha : In a (owned_cells M)) by (apply owned_in; [apply B; left; reflexivity|exact O]).
        destruct (source_step fdiv f f' x pvs a HR Ha (HF a Ha) Sx Sp (fun k Hk => V a k (or_introl eq_refl) Ha Hk)) as (x1 & p1 & E1 & S1 & T1 & V1 & W1). rewrite E1, obind_Some.
        destruct (IH x1 p1 ND (fun c Hc => B c (or_intror Hc)) S1 T1) as (x2 & p2 & E2 & S2 & T2 & VW).
        { intros c k Hc Ho Hk. rewrite (V1 c k Ho Hk). destruct (Nat.eqb_spec c a) as [->|]; [contradiction|]. apply V; [right; exact Hc|exact Ho|exact Hk]. }
        exists x2, p2. split; [exact E2|]. split; [exact S2|]. split; [exact T2|]. intros c k Hc Hk. destruct (VW c k Hc Hk) as (Y & N). split.
        * intros [<-|Hl]; [|exact (Y Hl)]. destruct (N Na) as (-> & ->). rewrite (V1 a k Hc Hk), (W1 a k Hc Hk), Nat.eqb_refl. auto.
        * intros Hn. destruct (N (fun Hl => Hn (or_intror Hl))) as (-> & ->). rewrite (V1 c k Hc Hk), (W1 c k Hc Hk). destruct (Nat.eqb_spec c a) as [->|]; [contradiction Hn; left; reflexivity|auto].
      + unfold source_cell at 1. rewrite O, obind_Some. destruct (IH x pvs ND (fun c Hc => B c (or_intror Hc)) Sx Sp (fun c k Hc => V c k (or_intror Hc))) as (x2 & p2 & E2 & S2 & T2 & VW).
        exists x2, p2. split; [exact E2|]. split; [exact S2|]. split; [exact T2|]. intros c k Hc Hk. destruct (VW c k Hc Hk) as (Y & N). split.
        * intros [<-|Hl]; [|exact (Y Hl)]. apply owned_range in Hc. destruct Hc. congruence.
        * intros Hn. apply N. intros Hl. apply Hn. right. exact Hl.
  Qed.

  (** *** The operator on one process *)
  (* boundaries and sources, after the fluxes through the interior edges *)
  Lemma petsc_rest_ok sts x1 f1 f2 fl : Forall2 bop_sized (map cb_edges (cp_bounds p)) sts -> rel M x1 f1 ->
    boundary_loop vadd vscal (cm_owned M) A (s_boundary sl vl) (rk_bedges (prank_of p)) f1 = Some f2 ->
    source_loop (s_source sl dt vl (to_local (prank_of p) src)) (owned_cells M) f2 = Some fl ->
    exists x2 x pvs sts', apply_boundaries cf M dt ul (combine (cp_bounds p) sts) x1 = Some (x2, sts') /\
      ApplySource (includes_slope w) cf M (cp_ext p) (cp_mat p) x2 dt ul x2 (repeat 0 (3 * length (owned_cells M))) = Some (x, pvs) /\
      sized M x /\ (forall c k, In c (owned_cells M) -> (k < 3)%nat -> value M x c k = component k (fl c)) /\
      sized M pvs /\ (forall c k, In c (owned_cells M) -> (k < 3)%nat -> value M pvs c k = component k (prims c)) /\
      Forall2 bop_sized (map cb_edges (cp_bounds p)) sts' /\ Forall2 (fun bst st' => records cf u dt p (fst bst) (snd bst) st') (combine (cp_bounds p) sts) sts'.
  Proof.
    intros SZ HR1 E2 E3.
    destruct (boundaries_ok (cp_bounds p) sts x1 f1 f2 [] (incl_refl _) SZ HR1 E2) as (x2 & sts' & X2 & HR2 & Z2 & RC2). cbn [app] in X2.
    assert (HF : forall c, In c (owned_cells M) -> rhs c (f2 c) = Some (fl c)).
    { intros c Hc. refine (source_loop_val _ _ _ _ _ E3 c Hc). unfold owned_cells. apply NoDup_filter, seq_NoDup. }
    destruct (source_fold x2 f2 fl HR2 HF (seq 0 (cm_cells M)) x2 (repeat 0 (3 * length (owned_cells M)))) as (x3 & pvs & X3 & S3 & T3 & V3).
    - apply seq_NoDup.
    - intros c Hc. apply in_seq in Hc. lia.
    - exact (proj1 HR2).
    - unfold sized. apply repeat_length.
    - intros c k _ Hc Hk. exact (proj2 HR2 c k Hc Hk).
    - exists x2, x3, pvs, sts'. split; [exact X2|]. split; [unfold ApplySource; rewrite friction_chosen, obind_Some, dofs_ok, obind_Some; exact X3|]. split; [exact S3|].
      assert (I : forall c, In c (owned_cells M) -> In c (seq 0 (cm_cells M))) by (intros c Hc; apply owned_range in Hc; apply in_seq; lia).
      split; [intros c k Hc Hk; apply (proj1 (V3 c k Hc Hk) (I c Hc))|]. split; [exact T3|]. split; [intros c k Hc Hk; apply (proj1 (V3 c k Hc Hk) (I c Hc))|]. auto.
  Qed.
  Lemma petsc_operator_ok sts fl : Forall2 bop_sized (map cb_edges (cp_bounds p)) sts ->
    rank_rhs sl (prank_of p) (area m) dt src u = Some fl ->
    exists x pvs sts', ApplyPetscOperator w cf dt p ul sts = Some (x, pvs, sts') /\ sized M x /\ (forall c k, In c (owned_cells M) -> (k < 3)%nat -> value M x c k = component k (fl c)) /\
      sized M pvs /\ (forall c k, In c (owned_cells M) -> (k < 3)%nat -> value M pvs c k = component k (prims c)) /\
      Forall2 bop_sized (map cb_edges (cp_bounds p)) sts' /\ Forall2 (fun bst st' => records cf u dt p (fst bst) (snd bst) st') (combine (cp_bounds p) sts) sts'.
  Proof.
    intros SZ E. unfold rank_rhs in E. cbn [prank_of rk_owned rk_iedges rk_bedges rk_cells] in E. apply obind_some in E. destruct E as (f1 & E1 & E). apply obind_some in E. destruct E as (f2 & E2 & E3).
    fold (owned_cells M) in E3. unfold ApplyPetscOperator, petsc_flux. cbv zeta. rewrite (num_comp_flow cf (proj1 C)). cbn [Nat.eqb].
    assert (HI : exists x1, match w with Standard => ApplyInteriorFlux cf M ul (repeat 0 (3 * length (owned_cells M))) | Hydrostatic file => let* zc := cell_beds file (cp_hmesh p) in ApplyInteriorFluxHR cf M zc ul (repeat 0 (3 * length (owned_cells M))) end = Some x1 /\ rel M x1 f1).
    { assert (HW : w = Standard \/ exists b, w = Hydrostatic b) by (destruct w; eauto). destruct HW as [W|(b & W)].
      - destruct (interior_ok _ _ _ W (rel_zero M) E1) as (x1 & X1 & HR1). exists x1. rewrite W. auto.
      - destruct (beds_ok b W) as (zc & Z1 & Z2). destruct (hr_interior_ok b zc _ _ _ W Z2 (rel_zero M) E1) as (x1 & X1 & HR1). exists x1. rewrite W, Z1, obind_Some. auto. }
    destruct HI as (x1 & X1 & HR1). rewrite X1, obind_Some.
    destruct (petsc_rest_ok sts x1 f1 f2 fl SZ HR1 E2 E3) as (x2 & x & pvs & sts' & X2 & X3 & H). rewrite X2, obind_Some. cbn [fst snd]. rewrite X3, obind_Some. cbn [fst snd].
    exists x, pvs, sts'. split; [reflexivity|exact H].
  Qed.
End Process.
