(** C72: the libCEED back end, from the parts of the global solution to the parts of the global right-hand side,
    and whole runs. *)
From Coq Require Import String.
From Verif Require Import Base RoeModel RoeProofs EdgeModel EdgeProofs HRModel EtaModel SourceModel TracerModel AssemblyModel AssemblyProofs DecompModel DecompSpec DecompProofs DecompProperties
  MeshMapsProofs AMRProofs ConservationProperties HRProperties CeedLayoutModel CeedLayoutSpec CeedLayoutProofs CeedLayoutProperties CeedMusclProofs CeedHRModel CeedHRSpec CeedHRProofs CeedHRProperties CeedRunModel CeedRunSpec CeedRunProofs.
Local Open Scope R_scope.
Local Notation length := List.length.

Lemma block_ext n x y : (length x = n)%nat -> length y = n -> (forall k, (k < n)%nat -> nth k x 0 = nth k y 0) -> x = y.
Proof. intros Hx Hy H. apply (nth_ext x y 0 0); [congruence|]. intros k Hk. apply H. lia. Qed.

Lemma part_holds_entry u gs x : length x = (3 * length gs)%nat ->
  (forall i c k, nth_error gs i = Some c -> (k < 3)%nat -> nth (i * 3 + k) x 0 = component k (u c)) -> part_holds u gs x.
Proof.
  intros L H. split; [exact L|]. intros i c Hi. assert (i < length gs)%nat by (apply nth_error_Some; congruence).
  apply (block_ext 3); [apply block_length; lia|reflexivity|]. intros k Hk. rewrite nth_block by exact Hk. rewrite (H i c k Hi Hk). reflexivity.
Qed.
Lemma part_holds_nth u gs x i c k : part_holds u gs x -> nth_error gs i = Some c -> (k < 3)%nat -> nth (i * 3 + k) x 0 = component k (u c).
Proof.
  intros (L & H) Hi Hk. rewrite <- (nth_block 3) by exact Hk. rewrite (H i c Hi). reflexivity.
Qed.

(** ** One evaluation *)
Section RHS.
  Context (w : balancing) (cf : cconfig) (m : mesh) (z : nat -> R) (g : cellgeom) (src : nat -> vec3) (dt : R) (u f f1 f2 : nat -> vec3) (C : flow_config cf).
  Hypothesis E1 : interior_loop vadd vscal everything (area m) (s_interior (scheme_of w cf z g) u) (iedges m) zero_field = Some f1.
  Hypothesis E2 : boundary_loop vadd vscal everything (area m) (s_boundary (scheme_of w cf z g) u) (bedges m) f1 = Some f2.

  Definition local_ok (p : cprocess) (x : list R) : Prop :=
    length x = (3 * cm_cells (cp_mesh p))%nat /\ forall c, (c < cm_cells (cp_mesh p))%nat -> block 3 x c = comps3 (u (cp_gid p c)).
  Local Notation mine k c p f := (rsum (fun l => if Nat.eqb (cp_gid p l) c then nth (l * 3 + k) f 0 else 0) (seq 0 (cm_cells (cp_mesh p)))).

  Lemma fluxes_ok : forall ps us ges gbs,
    (forall p, In p ps -> process_ok w cf m z g src p) -> Forall2 local_ok ps us ->
    Forall2 (fun p es => Forall2 (fun e e' => exists flip, eview (cp_gid p) flip e e') (map (iedge_of (cp_mesh p)) (owned_internal (cp_mesh p))) es) ps ges -> incl (concat ges) (iedges m) ->
    Forall2 (fun p es => Forall2 (bview (cp_gid p)) (flat_map (fun b => map (bedge_of (cp_mesh p) b) (owned_boundary (cp_mesh p) b)) (cp_bounds p)) es) ps gbs -> incl (concat gbs) (bedges m) ->
    exists fs, omap (fun pu => local_flux w cf dt (fst pu) (snd pu)) (combine ps us) = Some fs /\
      Forall2 (fun p f => length f = (3 * cm_cells (cp_mesh p))%nat) ps fs /\
      forall k c, (k < 3)%nat -> rsum (fun pf => mine k c (fst pf) (snd pf)) (combine ps fs) =
        rsum (gcontrib (scheme_of w cf z g) m u (component k) c) (concat ges) + rsum (gbcontrib (scheme_of w cf z g) m u (component k) c) (concat gbs).
  Proof.
    induction ps as [|p ps IH]; intros us ges gbs HP HU HG IG HB IB; inversion HU; inversion HG; inversion HB; subst.
    - exists []. split; [reflexivity|]. split; [constructor|]. intros. cbn [combine rsum concat]. ring.
    - rename y into x. rename y0 into es. rename y1 into bes. cbn [concat] in IG, IB. cbn [combine omap fst snd].
      match goal with H : local_ok p x |- _ => destruct H as (Lx & Vx) end.
      assert (PO := HP p (or_introl eq_refl)).
      assert (I1 : incl es (iedges m)) by (intros e He; apply IG; apply in_or_app; left; exact He).
      assert (I2 : incl bes (bedges m)) by (intros e He; apply IB; apply in_or_app; left; exact He).
      assert (O1 : owned_edges_are (rank_of p) es) by (unfold owned_edges_are; rewrite rank_owned_edges; assumption).
      assert (O2 : owned_bedges_are (rank_of p) bes) by (unfold owned_bedges_are; rewrite rank_owned_bedges; assumption).
      destruct (local_flux_value w cf m z g src p C PO dt u f1 f2 es bes x E1 E2 O1 O2 I1 I2 Lx Vx) as (y & Ey & Ly & Vy).
      rewrite Ey, obind_Some.
      edestruct IH as (fs & Efs & Lfs & Vfs); [intros q Hq; apply HP; right; exact Hq|eassumption|eassumption|intros e He; apply IG; apply in_or_app; right; exact He|eassumption|intros e He; apply IB; apply in_or_app; right; exact He|].
      rewrite Efs, obind_Some. exists (y :: fs). split; [reflexivity|]. split; [constructor; assumption|]. intros k c Hk. cbn [combine rsum fst snd concat]. rewrite !rsum_app.
      rewrite (Vfs k c Hk). rewrite (local_flux_total w cf m z g src p C PO u f1 f2 es bes E1 E2 O1 O2 I1 I2 y Vy k c Hk). ring.
  Qed.
End RHS.

Lemma layout_get ps q gs : nth_error (layout ps) q = Some gs -> exists p, nth_error ps q = Some p /\ gs = map (cp_gid p) (owned_cells (cp_mesh p)).
Proof. unfold layout. intros H. rewrite nth_error_map in H. destruct (nth_error ps q) as [p|]; [|discriminate]. injection H as <-. eauto. Qed.
Lemma ceed_rhs_no_bed fr gr dt t a n zx zy q F s : ceed_rhs fr false gr dt t a n zx zy q F s = ceed_rhs fr true gr dt t a n 0 0 q F s.
Proof. rewrite ceed_rhs_flat. reflexivity. Qed.
Lemma Forall2_map_l {A B D} (P : B -> D -> Prop) (h : A -> B) l r : Forall2 (fun a d => P (h a) d) l r <-> Forall2 P (map h l) r.
Proof. split; [induction 1; cbn; constructor; assumption|]. revert r. induction l as [|a l IH]; intros r H; cbn in H; inversion H; subst; constructor; auto. Qed.
Lemma Forall2_nth {A B} (P : A -> B -> Prop) l r : length l = length r -> (forall i a b, nth_error l i = Some a -> nth_error r i = Some b -> P a b) -> Forall2 P l r.
Proof.
  revert r. induction l as [|a l IH]; intros [|b r] L H; cbn in L; try discriminate; constructor; [apply (H 0%nat); reflexivity|].
  apply IH; [lia|]. intros i. apply (H (S i)).
Qed.

Lemma Forall2_len {A B} (P : A -> B -> Prop) l r : Forall2 P l r -> length l = length r.
Proof. induction 1; cbn; congruence. Qed.

(* all fluxes added to the global vector *)
Lemma divergence_holds w cf m z g src ps fs f2 : distributed w cf m z g src ps -> NoDup (cells m) -> Forall2 (fun p f => length f = (3 * cm_cells (cp_mesh p))%nat) ps fs ->
  (forall k c, (k < 3)%nat -> rsum (fun pf => rsum (fun l => if Nat.eqb (cp_gid (fst pf) l) c then nth (l * 3 + k) (snd pf) 0 else 0) (seq 0 (cm_cells (cp_mesh (fst pf))))) (combine ps fs) = component k (f2 c)) ->
  exists divs, dm_local_to_global_add 3 ps fs (map (fun p => repeat 0 (3 * length (owned_cells (cp_mesh p)))) ps) = Some divs /\ holds (layout ps) divs f2.
Proof.
  intros D WF Lfs Vfs.
  set (G0 := map (fun p => repeat 0 (3 * length (owned_cells (cp_mesh p)))) ps).
  assert (S0 : shape (layout ps) G0).
  { unfold shape, layout, G0. clear. induction ps as [|p ps IH]; cbn [map]; constructor; [rewrite repeat_length, map_length; reflexivity|exact IH]. }
  assert (Z0 : forall q i k, entry G0 q i k = 0).
  { intros q i k. unfold entry. destruct (nth_error G0 q) as [y|] eqn:Y.
    - rewrite (nth_error_nth _ _ _ Y). unfold G0 in Y. rewrite nth_error_map in Y. destruct (nth_error ps q); [|discriminate]. injection Y as <-. apply nth_repeat.
    - apply nth_error_None in Y. rewrite nth_overflow with (l := G0) by exact Y. destruct (i * 3 + k)%nat; reflexivity. }
  destruct (local_to_global_ok (layout ps) ps fs (Forall2_len _ _ _ Lfs)) with (G := G0) as (divs & Ed & Sd & Vd); [|exact S0|].
  { intros p y Hin. destruct (combine_In _ _ _ _ _ Lfs Hin) as (Ly & Hp). split; [|exact Ly].
    intros c Hc. destruct (di_sf _ _ _ _ _ _ _ D p c Hp Hc) as (gs & A & B). exists gs. split; [exact A|]. apply nth_error_Some. congruence. }
  assert (ND : NoDup (concat (layout ps))) by (eapply Permutation_NoDup; [symmetry; exact (di_cells _ _ _ _ _ _ _ D)|exact WF]).
  exists divs. split; [exact Ed|]. apply Forall2_nth; [exact (Forall2_len _ _ _ Sd)|]. intros q gs x Hq Hx. apply part_holds_entry.
    - destruct (Forall2_get _ _ _ _ _ Sd Hq) as (x' & Ex & Lx). assert (x' = x) by congruence. subst x'. exact Lx.
    - intros i c k Hi Hk. assert (X := Vd q i k Hk). rewrite Z0, Rplus_0_l in X. unfold entry in X. rewrite (nth_error_nth _ _ _ Hx) in X. rewrite X.
      rewrite (rsum_ext _ (fun pf => rsum (fun l => if Nat.eqb (cp_gid (fst pf) l) c then nth (l * 3 + k) (snd pf) 0 else 0) (seq 0 (cm_cells (cp_mesh (fst pf)))))).
      + exact (Vfs k c Hk).
      + intros [p y] Hin. destruct (combine_In _ _ _ _ _ Lfs Hin) as (_ & Hp). cbn [fst snd]. apply rsum_ext. intros l Hl. apply in_seq in Hl.
        destruct (di_sf _ _ _ _ _ _ _ D p l Hp ltac:(lia)) as (gs' & A & B).
        assert (Eq : at_place (cp_sf p l) q i = Nat.eqb (cp_gid p l) c); [|rewrite Eq; reflexivity].
        unfold at_place. destruct (Nat.eqb_spec (cp_gid p l) c) as [Hc|Hc].
        * rewrite Hc in B. destruct (nodup_positions _ ND _ _ _ _ _ _ _ A B Hq Hi) as (-> & ->). rewrite !Nat.eqb_refl. reflexivity.
        * destruct (Nat.eqb_spec (fst (cp_sf p l)) q) as [Eq1|]; [|reflexivity]. destruct (Nat.eqb_spec (snd (cp_sf p l)) i) as [Eq2|]; [|reflexivity].
          exfalso. apply Hc. rewrite Eq1 in A. rewrite Eq2 in B. congruence.
Qed.
(* the sources of every process *)
Lemma sources_hold w cf m z g src dt ps us divs u f2 f : flow_config cf -> NoDup (cells m) -> distributed w cf m z g src ps -> Forall2 (local_ok u) ps us -> holds (layout ps) divs f2 ->
  source_loop (s_source (scheme_of w cf z g) dt u src) (cells m) f2 = Some f ->
  exists U', omap (fun x => local_source w cf dt (fst (fst x)) (snd (fst x)) (snd x)) (combine (combine ps us) divs) = Some U' /\ holds (layout ps) U' f.
Proof.
  intros C WF D Fus HD E3. assert (N := num_comp_flow cf C).
  assert (SO : forall p x d, In p ps -> local_ok u p x -> part_holds f2 (map (cp_gid p) (owned_cells (cp_mesh p))) d ->
    exists y, local_source w cf dt p x d = Some y /\ part_holds f (map (cp_gid p) (owned_cells (cp_mesh p))) y).
  { intros p x d Hp (Lx & Vx) (Ld & Vd'). assert (PO := di_processes _ _ _ _ _ _ _ D p Hp). rewrite map_length in Ld.
    assert (Hsrc : forall i c, nth_error (owned_cells (cp_mesh p)) i = Some c ->
      s_source (scheme_of w cf z g) dt u src (cp_gid p c) (f2 (cp_gid p c)) = Some (f (cp_gid p c))).
    { intros i c Hi. apply (source_loop_val _ _ WF _ _ E3). apply (nu_cells _ _ (po_numbering _ _ _ _ _ _ _ PO)). cbn. apply in_seq.
      destruct (owned_nth w cf m z g src p PO i c Hi). lia. }
    assert (Hup : forall i c, nth_error (owned_cells (cp_mesh p)) i = Some c -> forall zx zy,
      ceed_rhs (friction_of cf) true GRAVITY dt (cf_tiny_h cf) (cf_h_anuga cf) (manning g (cp_gid p c)) zx zy (u (cp_gid p c)) (f2 (cp_gid p c)) (src (cp_gid p c)) = Some (f (cp_gid p c)) ->
      source_update cf dt (nth i (cp_mat p) 0) zx zy (block (num_comp cf) x c) (block (num_comp cf) d i) (block (num_comp cf) (cp_ext p) i)
      = Some (comps3 (f (cp_gid p (nth i (owned_cells (cp_mesh p)) 0%nat))))).
    { intros i c Hi zx zy Hc. destruct (owned_nth w cf m z g src p PO i c Hi) as (_ & Hc').
      unfold source_update. rewrite (proj1 C), Nat.eqb_refl, N, (nth_error_nth _ _ _ Hi), (Vx c Hc'), (po_ext _ _ _ _ _ _ _ PO i c Hi), (po_mat _ _ _ _ _ _ _ PO i c Hi).
      rewrite (Vd' i (cp_gid p c)) by (rewrite nth_error_map, Hi; reflexivity). rewrite !v3_comps3. fold (friction_of cf). rewrite Hc, obind_Some. reflexivity. }
    assert (HX : length (cp_ext p) = (num_comp cf * length (owned_cells (cp_mesh p)))%nat) by (rewrite N; exact (po_ext_length _ _ _ _ _ _ _ PO)).
    assert (HU' : length x = (num_comp cf * cm_cells (cp_mesh p))%nat) by (rewrite N; exact Lx).
    assert (HD' : length d = (num_comp cf * length (owned_cells (cp_mesh p)))%nat) by (rewrite N; exact Ld).
    assert (HT : (num_tracers cf <= MAX_NUM_SEDIMENT_CLASSES)%nat) by (rewrite (proj1 C); apply Nat.le_0_l).
    assert (HQ : num_tracers cf <> 0%nat -> cf_source cf <> SOURCE_IMPLICIT_XQ2018) by (intros X; contradiction (X (proj1 C))).
    assert (Ht : 0 <= cf_tiny_h cf) by (destruct C as (_ & _ & X); lra).
    assert (NB := arrays_numbered w cf m z g src p PO).
    set (S := fun i => comps3 (f (cp_gid p (nth i (owned_cells (cp_mesh p)) 0%nat)))).
    assert (R0 : exists y, local_source w cf dt p x d = Some y /\ length y = (num_comp cf * length (owned_cells (cp_mesh p)))%nat /\
       forall i, (i < length (owned_cells (cp_mesh p)))%nat -> block (num_comp cf) y i = S i).
    { unfold local_source. destruct w as [|file].
      - apply (C68_sources cf (cp_mesh p) (cp_ext p) (cp_mat p) d dt x S HT HQ Ht HX (po_mat_length _ _ _ _ _ _ _ PO) HD' HU' NB).
        intros i c Hi. apply Hup; [exact Hi|]. destruct (owned_nth Standard cf m z g src p PO i c Hi) as (_ & Hc'). destruct (po_slope _ _ _ _ _ _ _ PO eq_refl c Hc') as (-> & ->). exact (Hsrc i c Hi).
      - apply (C71_sources cf (cp_mesh p) (cp_ext p) (cp_mat p) d dt x S HT HQ Ht HX (po_mat_length _ _ _ _ _ _ _ PO) HD' HU' NB).
        intros i c Hi. apply Hup; [exact Hi|]. rewrite <- (Hsrc i c Hi). cbn [scheme_of ceed_hr_scheme s_source]. symmetry. apply ceed_rhs_no_bed. }
    destruct R0 as (y & Ey & Ly & Vy). exists y. split; [exact Ey|]. rewrite N in Ly, Vy. split; [rewrite map_length; exact Ly|].
    intros i c Hi. rewrite nth_error_map in Hi. destruct (nth_error (owned_cells (cp_mesh p)) i) as [l|] eqn:El; [|discriminate]. injection Hi as <-.
    rewrite Vy by (apply nth_error_Some; congruence). unfold S. rewrite (nth_error_nth _ _ _ El). reflexivity. }
  clear - SO HD Fus. unfold holds, layout in *. revert us divs HD Fus SO. induction ps as [|p ps IH]; intros us divs HD Fus SO; cbn [map] in HD; inversion HD; inversion Fus; subst.
  - exists []. split; [reflexivity|constructor].
  - cbn [combine omap fst snd].
    match goal with X : part_holds f2 _ ?d, Y : local_ok u p ?x |- _ => destruct (SO p x d (or_introl eq_refl) Y X) as (y1 & Ey & Hy) end.
    rewrite Ey, obind_Some. edestruct IH as (ys & Eys & Hys); [eassumption|eassumption|intros q x0 d0 Hq; apply SO; right; exact Hq|].
    rewrite Eys, obind_Some. exists (y1 :: ys). split; [reflexivity|]. cbn [map]. constructor; assumption.
Qed.

(* Any number of processes, any distribution of a mesh over them: if the right-hand side of the whole domain is
   defined for a field, the parts of a global vector holding the field are turned into parts holding the
   right-hand side. *)
Theorem C72_rhs : forall w cf m z g src dt ps U u f,
  flow_config cf -> mesh_wf m -> distributed w cf m z g src ps -> holds (layout ps) U u ->
  rhs_domain (scheme_of w cf z g) m dt src u = Some f ->
  exists U', OperatorRHSFunction w cf dt ps U = Some U' /\ holds (layout ps) U' f.
Proof.
  intros w cf m z g src dt ps U u f C WF D H Hf. assert (N := num_comp_flow cf C).
  destruct (serial_steps _ m dt src u f Hf) as (f1 & f2 & E1 & E2 & E3 & V).
  unfold OperatorRHSFunction, ApplyCeedOperator. rewrite N.
  destruct (omap_rel (dm_global_to_local 3 U) (local_ok u) ps) as (us & Eus & Fus).
  { intros p Hp. exact (global_to_local_ok w cf m z g src ps U u p D H Hp). }
  rewrite Eus, obind_Some.
  destruct (di_iedges _ _ _ _ _ _ _ D) as (ges & FG & PG). destruct (di_bedges _ _ _ _ _ _ _ D) as (gbs & FB & PB).
  destruct (fluxes_ok w cf m z g src dt u f1 f2 C E1 E2 ps us ges gbs (di_processes _ _ _ _ _ _ _ D) Fus FG (fun e He => Permutation_in e PG He) FB (fun e He => Permutation_in e PB He)) as (fs & Efs & Lfs & Vfs).
  rewrite Efs, obind_Some.
  destruct (divergence_holds w cf m z g src ps fs f2 D (proj1 WF) Lfs) as (divs & Ed & HD).
  { intros k c Hk. rewrite (Vfs k c Hk). rewrite (V (component k) (component_add k) (component_scal k) c), component_zero, Rplus_0_l.
    rewrite (rsum_perm _ _ _ PG), (rsum_perm _ _ _ PB). reflexivity. }
  rewrite Ed, obind_Some. exact (sources_hold w cf m z g src dt ps us divs u f2 f C (proj1 WF) D Fus HD E3).
Qed.
Print Assumptions C72_rhs.

(** ** Whole runs *)
Lemma waxpy_holds L : forall U K u k a, holds L U u -> holds L K k -> holds L (waxpy U a K) (axpy u a k).
Proof.
  intros U K u k a HU. revert K. unfold holds, waxpy. induction HU as [|gs x L U Hx HU IH]; intros K HK; inversion HK; subst; cbn [combine map fst snd]; constructor; [|apply IH; assumption].
  rename y into y0. match goal with X : part_holds k gs y0 |- _ => rename X into Hy end.
  apply part_holds_entry.
  - rewrite map_length, combine_length, (proj1 Hx), (proj1 Hy). lia.
  - intros i c j Hi Hj. assert (Hl : (i < length gs)%nat) by (apply nth_error_Some; congruence).
    assert (X1 := part_holds_nth _ _ _ _ _ _ Hx Hi Hj). assert (X2 := part_holds_nth _ _ _ _ _ _ Hy Hi Hj).
    erewrite nth_error_nth; [|rewrite nth_error_map; erewrite combine_get by (apply nth_error_nth'; rewrite ?(proj1 Hx), ?(proj1 Hy); lia); reflexivity].
    cbn [fst snd]. rewrite X1, X2. unfold axpy. rewrite component_add, component_scal. reflexivity.
Qed.
Lemma vec_step_ok i L F G dt U u u' :
  (forall U u f, holds L U u -> G u = Some f -> exists U', F U = Some U' /\ holds L U' f) ->
  holds L U u -> ts_step i G dt u = Some u' -> exists U', vec_step i F dt U = Some U' /\ holds L U' u'.
Proof.
  intros HF HU H. destruct i; cbn [ts_step vec_step] in *; unfold euler_step, rk4_step, vec_euler, vec_rk4 in *.
  - apply obind_some in H. destruct H as (k & Ek & H). injection H as <-. destruct (HF U u k HU Ek) as (K & EK & HK). rewrite EK, obind_Some.
    eexists. split; [reflexivity|]. apply waxpy_holds; assumption.
  - apply obind_some in H. destruct H as (k1 & Ek1 & H). apply obind_some in H. destruct H as (k2 & Ek2 & H).
    apply obind_some in H. destruct H as (k3 & Ek3 & H). apply obind_some in H. destruct H as (k4 & Ek4 & H). injection H as <-.
    destruct (HF _ _ _ HU Ek1) as (K1 & EK1 & HK1). rewrite EK1, obind_Some.
    destruct (HF _ _ _ (waxpy_holds _ _ _ _ _ (dt / 2) HU HK1) Ek2) as (K2 & EK2 & HK2). rewrite EK2, obind_Some.
    destruct (HF _ _ _ (waxpy_holds _ _ _ _ _ (dt / 2) HU HK2) Ek3) as (K3 & EK3 & HK3). rewrite EK3, obind_Some.
    destruct (HF _ _ _ (waxpy_holds _ _ _ _ _ dt HU HK3) Ek4) as (K4 & EK4 & HK4). rewrite EK4, obind_Some.
    eexists. split; [reflexivity|]. repeat (first [assumption|apply waxpy_holds]).
Qed.

(* what the processes hold during the steps of a run: boundary values and sources change, the layout of the
   global vectors does not *)
Definition run_distributed (w : balancing) (cf : cconfig) (m : mesh) (z : nat -> R) (g : cellgeom) (L : list (list nat)) (x : step_input) (st : R * list cprocess) : Prop :=
  fst st = st_dt x /\ boundary_in m (st_bedges x) /\ layout (snd st) = L /\ distributed w cf (with_boundary m (st_bedges x)) z g (st_src x) (snd st).

Theorem C72_run : forall i w cf m z g L xs steps U u u',
  flow_config cf -> well_formed m -> Forall2 (run_distributed w cf m z g L) xs steps -> holds L U u ->
  run i (scheme_of w cf z g) m xs u = Some u' ->
  exists U', ceed_run i w cf steps U = Some U' /\ holds L U' u'.
Proof.
  intros i w cf m z g L xs steps U u u' C WF F. revert U u. unfold run, ceed_run. induction F as [|x st xs steps Hx F IH]; intros U u HU H; cbn [ofold] in *.
  - injection H as <-. exists U. split; [reflexivity|exact HU].
  - apply obind_some in H. destruct H as (u1 & E1 & H). destruct Hx as (Hdt & Hb & HL & HD). unfold advance_step in E1.
    destruct (vec_step_ok i L (OperatorRHSFunction w cf (fst st) (snd st)) (rhs_domain (scheme_of w cf z g) (with_boundary m (st_bedges x)) (st_dt x) (st_src x)) (st_dt x) U u u1) as (U1 & EU & HU1); [|exact HU|exact E1|].
    { intros V v f HV Hf. rewrite <- HL in HV |- *. rewrite Hdt. eapply C72_rhs; [exact C| |exact HD|exact HV|exact Hf].
      destruct WF as (W1 & W2). split; [exact W1|]. split; [exact W2|exact Hb]. }
    rewrite Hdt in EU |- *. rewrite EU, obind_Some. apply (IH U1 u1 HU1 H).
Qed.
Print Assumptions C72_run.

(** ** What this says about the arrays *)

(* the water in the parts of a global vector *)
Definition array_volume (m : mesh) (L : list (list nat)) (U : list (list R)) : R :=
  rsum (fun gx => rsum (fun ci => area m (fst ci) * nth (snd ci * 3) (snd gx) 0) (combine (fst gx) (seq 0 (length (fst gx))))) (combine L U).
Lemma array_volume_holds m L U u : holds L U u -> array_volume m L U = rsum (fun c => area m c * c0 (u c)) (concat L).
Proof.
  intros H. unfold array_volume. induction H as [|gs x L U Hx H IH]; cbn [combine rsum concat fst snd]; [reflexivity|]. rewrite rsum_app, IH. f_equal.
  assert (G : forall gs0 k, (forall i c, nth_error gs0 i = Some c -> nth ((k + i) * 3) x 0 = c0 (u c)) ->
    rsum (fun ci => area m (fst ci) * nth (snd ci * 3) x 0) (combine gs0 (seq k (length gs0))) = rsum (fun c => area m c * c0 (u c)) gs0).
  { induction gs0 as [|c gs0 IH0]; intros k HG; cbn [length seq combine rsum fst snd]; [reflexivity|].
    rewrite IH0 by (intros i c' Hi; rewrite <- (HG (S i) c' Hi); f_equal; lia). rewrite <- (HG 0%nat c eq_refl). rewrite Nat.add_0_r. reflexivity. }
  apply (G gs 0%nat). intros i c Hi. cbn [Nat.add]. rewrite <- (Nat.add_0_r (i * 3)). rewrite (part_holds_nth u gs x i c 0 Hx Hi) by lia. reflexivity.
Qed.

(* in a closed basin the arrays of all processes together keep the water *)
Theorem C72_volume : forall i w cf m z g L xs steps U u u',
  flow_config cf -> well_formed m -> Permutation (concat L) (cells m) -> Forall2 (run_distributed w cf m z g L) xs steps -> holds L U u ->
  (forall x, In x xs -> closed m x) ->
  run i (scheme_of w cf z g) m xs u = Some u' ->
  exists U', ceed_run i w cf steps U = Some U' /\ array_volume m L U' = array_volume m L U.
Proof.
  intros i w cf m z g L xs steps U u u' C WF P F HU HC H.
  destruct (C72_run i w cf m z g L xs steps U u u' C WF F HU H) as (U' & E & HU'). exists U'. split; [exact E|].
  rewrite (array_volume_holds m L U u HU), (array_volume_holds m L U' u' HU'). rewrite !(rsum_perm _ _ _ P).
  apply (C09_closed_basin_keeps_volume i (scheme_of w cf z g) m xs u u'); [|exact WF|exact HC|exact H].
  destruct C as (_ & _ & T). destruct w; cbn [scheme_of]; constructor; exact T.
Qed.
Print Assumptions C72_volume.

(* a lake at rest, whatever the number of processes: with hydrostatic reconstruction the run succeeds and the
   arrays still hold the lake *)
Definition lake_field (z : nat -> R) (eta : R) (c : nat) : vec3 := V3 (depth_at z eta c) 0 0.
Theorem C72_lake_at_rest : forall i file cf m z g L xs steps U eta,
  flow_config cf -> friction_ok (friction_of cf) -> well_formed m -> (forall c, In c (concat L) -> In c (cells m)) ->
  Forall2 (run_distributed (Hydrostatic file) cf m z g L) xs steps ->
  resolved (cf_tiny_h cf) m z eta -> (forall x, In x xs -> quiet_step m x) -> holds L U (lake_field z eta) ->
  exists U', ceed_run i (Hydrostatic file) cf steps U = Some U' /\ holds L U' (lake_field z eta).
Proof.
  intros i file cf m z g L xs steps U eta C FO WF Lin F RS QS HU.
  assert (HS : hr_scheme (cf_tiny_h cf) z (scheme_of (Hydrostatic file) cf z g)) by (cbn [scheme_of]; constructor; exact FO).
  destruct (C11_lake_stays_at_rest_partial (cf_tiny_h cf) eta z _ m i xs (lake_field z eta) (proj2 (proj2 C)) HS RS QS (fun c _ => eq_refl)) as (u' & E & Hu').
  destruct (C72_run i (Hydrostatic file) cf m z g L xs steps U _ u' C WF F HU E) as (U' & EU & HU'). exists U'. split; [exact EU|].
  apply Forall2_nth; [exact (Forall2_len _ _ _ HU')|]. intros q gs x Hq Hx. destruct (Forall2_get _ _ _ _ _ HU' Hq) as (x' & Ex & Lx & Vx). assert (x' = x) by congruence. subst x'.
  split; [exact Lx|]. intros k c Hk. rewrite (Vx k c Hk). rewrite (Hu' c); [reflexivity|]. apply Lin. apply in_concat. exists gs. split; [eapply nth_error_In; exact Hq|eapply nth_error_In; exact Hk].
Qed.
Print Assumptions C72_lake_at_rest.

(** ** An example: two squares, one on each of two processes, the edge between them on the first *)
Definition swap (b : bool) (c : nat) : nat := if b then (1 - c)%nat else c.
Definition square_walls : list cboundary := [CBoundary [1;2;3;4;5;6]%nat REFLECTING []].
(* [b]: the second process, whose first cell is the second square *)
Definition square_mesh (b : bool) : cmesh :=
  CMesh 2 6 [0%nat] (fun k => swap b (nth k [0;1;0;0;0;0;0;0;1;1;1;1;1;1]%nat 0%nat)) (fun k => nth k [1;4;0;3;0;1;3;4;2;5;1;2;4;5]%nat 0%nat)
        (fun e => if b then Nat.ltb 3 e else Nat.leb e 3) (fun e => nth e [0;0;-1;1;0;-1;1] 0) (fun e => nth e [1;-1;0;0;1;0;0] 0) (fun _ => 1) (fun _ => 1)
        (fun c => Nat.eqb c 0) (fun c => c) (fun _ => 0) (fun _ => 0) (fun _ => 0).
Definition square_process (b : bool) : cprocess :=
  CProcess (HMesh (square_mesh b) (fun c => 4 * c)%nat (fun k => nth k [0;1;4;3;1;2;5;4]%nat 0%nat) (fun _ => 4%nat) (fun c => INR (swap b c)))
           square_walls [0;0;0] [1/50] (swap b) (fun c => (swap b c, 0%nat)).
Definition squares : mesh :=
  Mesh [0;1]%nat (fun _ => 1) [IEdge 0 1 1 0 1]
    [BEdge 0 1 0 (-1) BCReflecting; BEdge 0 1 (-1) 0 BCReflecting; BEdge 0 1 1 0 BCReflecting; BEdge 1 1 0 1 BCReflecting; BEdge 1 1 (-1) 0 BCReflecting; BEdge 1 1 1 0 BCReflecting].
Definition square_ps : list cprocess := [square_process false; square_process true].
Definition square_geom : cellgeom := CellGeom (fun _ => 1/50) (fun _ => 0) (fun _ => 0).
Lemma below_two c : (c < 2)%nat -> c = 0%nat \/ c = 1%nat. Proof. lia. Qed.
Lemma square_edge b e : (e < 7)%nat -> edge_ok (square_mesh b) e.
Proof. intros H. unfold edge_ok. do 7 (destruct e as [|e]; [destruct b; cbn; repeat split; try lia; lra|]). lia. Qed.
Lemma square_process_ok file b : file = true -> process_ok (Hydrostatic file) (one_config 0 false) squares INR square_geom (fun _ => vzero) (square_process b).
Proof.
  intros ->. constructor.
  - constructor.
    + intros e [<-|[]] _. split; [apply square_edge; lia|]. destruct b; cbn; split; try lia; lra.
    + intros bd e [<-|[]] He _. apply square_edge. cbn in He. lia.
    + intros c Hc. exact Hc.
    + intros c c' _ _ E. exact E.
  - intros bd [<-|[]] X. discriminate X.
  - constructor.
    + cbn. repeat constructor; cbn; lia.
    + intros x y Hx Hy. cbn in Hx, Hy. destruct Hx as [<-|[<-|[]]]; destruct Hy as [<-|[<-|[]]]; destruct b; cbn; lia.
    + intros l Hl. cbn in Hl. destruct Hl as [<-|[<-|[]]]; destruct b; cbn; lia.
    + intros e He. cbn in He. destruct b; cbn in He; [contradiction|]. destruct He as [<-|[]]. cbn. lia.
    + intros e He. destruct b; cbn in He; repeat (destruct He as [<-|He]; [cbn; lia|]); contradiction.
  - exists 1%nat. intros c Hc. cbn in Hc |- *. destruct (below_two c Hc) as [-> | ->]; reflexivity.
  - intros c Hc. cbn [square_process cp_mesh cp_hmesh hm_mesh square_mesh cm_l2o]. symmetry. apply ghosts_last_identity; [|cbn; cbn in Hc; lia].
    exists 2%nat, 1%nat. split; [reflexivity|]. intros l Hl. destruct (below_two l Hl) as [-> | ->]; reflexivity.
  - intros c Hc. reflexivity.
  - discriminate.
  - intros file E. injection E as <-. split; [|intros c _; reflexivity].
    intros c Hc. split; [|discriminate]. unfold cell_vertices. rewrite map_length, seq_length. cbn [hm_offsets hm_count square_process cp_hmesh]. lia.
  - reflexivity.
  - reflexivity.
  - intros i c Hi. cbn in Hi. destruct i as [|i]; [reflexivity|destruct i; discriminate].
  - intros i c Hi. cbn in Hi. destruct i as [|i]; [reflexivity|destruct i; discriminate].
Qed.
Lemma squares_distributed : distributed (Hydrostatic true) (one_config 0 false) squares INR square_geom (fun _ => vzero) square_ps.
Proof.
  constructor.
  - intros p [<-|[<-|[]]]; apply square_process_ok; reflexivity.
  - apply Permutation_refl.
  - exists [iedges squares; []]. split; [|cbn; apply Permutation_refl]. repeat constructor. exists false. cbn. repeat split; reflexivity.
  - exists [firstn 3 (bedges squares); skipn 3 (bedges squares)]. split; [|cbn; apply Permutation_refl]. unfold square_ps. repeat constructor.
  - intros p c Hp Hc. assert (c = 0%nat \/ c = 1%nat) as Hc' by (destruct Hp as [<-|[<-|[]]]; cbn in Hc; lia).
    destruct Hp as [<-|[<-|[]]]; destruct Hc' as [-> | ->]; cbn; eexists; split; reflexivity.
Qed.
Definition square_step : step_input := StepInput (1/10) (bedges squares) (fun _ => vzero).
Lemma square_run : Forall2 (run_distributed (Hydrostatic true) (one_config 0 false) squares INR square_geom [[0];[1]]%nat) [square_step; square_step] [(1/10, square_ps); (1/10, square_ps)].
Proof.
  assert (X : run_distributed (Hydrostatic true) (one_config 0 false) squares INR square_geom [[0];[1]]%nat square_step (1/10, square_ps)).
  { split; [reflexivity|]. split; [|split; [reflexivity|exact squares_distributed]]. intros e He. cbn in He |- *. repeat (destruct He as [<-|He]; [cbn; tauto|]). contradiction. }
  constructor; [exact X|constructor; [exact X|constructor]].
Qed.
Lemma squares_quiet : quiet_step squares square_step.
Proof.
  split; [cbn; lra|]. split; [|reflexivity]. constructor.
  - cbn. repeat constructor; cbn; lia.
  - intros e [<-|[]]. cbn. auto.
  - intros e He. cbn in He. unfold unit_n. repeat (destruct He as [<-|He]; [cbn; split; [tauto|split; [reflexivity|ring]]|]). contradiction.
  - intros c _. cbn. lra.
  - intros c Hc. destruct Hc as [<-|[<-|[]]]; cbn; ring.
  - intros c Hc. destruct Hc as [<-|[<-|[]]]; cbn; ring.
Qed.
(* level 2 over a bed of 0 and 1 metres: both cells keep their depth for two Runge-Kutta steps *)
Example C72_lake_example : exists U', ceed_run RK4 (Hydrostatic true) (one_config 0 false) [(1/10, square_ps); (1/10, square_ps)] [[2;0;0]; [1;0;0]] = Some U' /\
  holds [[0];[1]]%nat U' (lake_field INR 2) /\ array_volume squares [[0];[1]]%nat U' = 3.
Proof.
  assert (D0 : depth_at INR 2 0 = 2) by (unfold depth_at; cbn [INR]; rewrite Rmax_right by lra; ring).
  assert (D1 : depth_at INR 2 1 = 1) by (unfold depth_at; cbn [INR]; rewrite Rmax_right by lra; ring).
  destruct (C72_lake_at_rest RK4 true (one_config 0 false) squares INR square_geom [[0];[1]]%nat [square_step; square_step] [(1/10, square_ps); (1/10, square_ps)] [[2;0;0]; [1;0;0]] 2) as (U' & E & H).
  - repeat split. cbn. lra.
  - exact I.
  - split; [cbn; repeat constructor; cbn; lia|]. intros e [<-|[]]. cbn. auto.
  - intros c Hc. exact Hc.
  - exact square_run.
  - split.
    + intros c Hc. change (cf_tiny_h (one_config 0 false)) with (1/1000). destruct Hc as [<-|[<-|[]]]; [rewrite D0|rewrite D1]; right; lra.
    + intros e [<-|[]]. change (cf_tiny_h (one_config 0 false)) with (1/1000). cbn [ie_l ie_r INR]. rewrite Rmax_right by lra. right. lra.
  - intros x [<-|[<-|[]]]; exact squares_quiet.
  - repeat constructor; (intros i c Hi; destruct i as [|i]; [injection Hi as <-; unfold lake_field; rewrite ?D0, ?D1; reflexivity|destruct i; discriminate]).
  - exists U'. split; [exact E|]. split; [exact H|]. rewrite (array_volume_holds _ _ _ _ H). cbn [concat app rsum]. unfold lake_field. rewrite D0, D1. cbn. ring.
Qed.
