(** Lemmas for tracers on the PETSc back end on flat arrays (C75). *)
From Verif Require Import Base RoeModel RoeProofs EdgeModel EdgeProofs HRModel HRProofs SourceModel AssemblyModel AssemblyProofs TracerModel TracerProofs DecompModel DecompSpec DecompProofs
  TracerDecompModel TracerDecompSpec TracerDecompProofs
  MeshMapsProofs AMRProofs CeedLayoutModel CeedLayoutSpec CeedLayoutProofs CeedLayoutProperties CeedMusclProofs CeedHRModel CeedHRSpec CeedHRProofs CeedRunModel CeedRunSpec CeedRunProofs CeedRunProperties
  PetscRunModel PetscRunSpec PetscRunProofs PetscTracerModel PetscTracerSpec.
Local Open Scope R_scope.
Local Notation length := List.length.

(** ** Components *)
Lemma comps_length nt q : length (comps nt q) = (3 + nt)%nat.
Proof. unfold comps. rewrite app_length, map_length, seq_length. reflexivity. Qed.
Lemma nth_map_seq (f : nat -> R) nt j : (j < nt)%nat -> nth j (map f (seq 0 nt)) 0 = f j.
Proof. intros H. rewrite (nth_indep _ 0 (f 0%nat)) by (rewrite map_length, seq_length; exact H). rewrite map_nth, seq_nth by exact H. reflexivity. Qed.
Lemma comps_nth nt q k : (k < 3 + nt)%nat -> nth k (comps nt q) 0 = tcomp k q.
Proof.
  intros H. unfold comps. destruct k as [|[|[|k]]]; try reflexivity. cbn [comps3 app nth tcomp]. apply nth_map_seq. lia.
Qed.
Lemma block_entry nt (u : list R) c k q : block (3 + nt) u c = comps nt q -> (k < 3 + nt)%nat -> ((3 + nt) * (c + 1) <= length u)%nat -> nth_error u ((3 + nt) * c + k) = Some (tcomp k q).
Proof.
  intros B Hk L. rewrite (nth_error_nth' u 0) by nia. apply f_equal. rewrite <- (comps_nth nt) by exact Hk. rewrite <- B, nth_block by exact Hk. f_equal. lia.
Qed.

(** ** Adding to the entries of owned cells *)
Section Entries.
  Context (n : nat) (M : cmesh) (NB : numbered M).
  Local Notation owns c := (In c (owned_cells M)).
  Definition tvalue (x : list R) (c k : nat) : R := nth (n * cm_l2o M c + k) x 0.
  Definition tsized (x : list R) : Prop := length x = (n * length (owned_cells M))%nat.
  Lemma slot_fits x c i : tsized x -> owns c -> (i < n)%nat -> (n * cm_l2o M c + i < length x)%nat.
  Proof. intros S Hc Hi. assert (B := slot_bound M NB c Hc). rewrite S. nia. Qed.
  Lemma slot_same c c' k i : owns c -> owns c' -> (k < n)%nat -> (i < n)%nat -> (n * cm_l2o M c' + k = n * cm_l2o M c + i)%nat -> c' = c /\ k = i.
  Proof.
    intros Hc Hc' Hk Hi Q. assert (cm_l2o M c' = cm_l2o M c) by nia. split; [apply (slot_inj M NB); assumption|]. nia.
  Qed.
  Lemma tbump_ok own f c i (v : option R) (a : R) : tsized f -> (own = true -> owns c) -> (own = true -> v = Some a) -> (i < n)%nat ->
    exists f', bump own f (n * cm_l2o M c + i) v = Some f' /\ tsized f' /\
      forall c' k, owns c' -> (k < n)%nat -> tvalue f' c' k = tvalue f c' k + (if (own && Nat.eqb c' c && Nat.eqb k i)%bool then a else 0).
  Proof.
    intros S Hc Hv Hi. unfold bump. destruct own; cbn [andb].
    - rewrite (Hv eq_refl), obind_Some. specialize (Hc eq_refl). assert (Hk := slot_fits f c i S Hc Hi).
      rewrite (nth_error_nth' f 0 Hk), obind_Some. destruct (upd_some f _ (nth (n * cm_l2o M c + i) f 0 + a) Hk) as (f' & E). exists f'. split; [exact E|].
      split; [unfold tsized; rewrite (upd_length _ _ _ _ E); exact S|]. intros c' k Hc' Hk'. unfold tvalue.
      assert (U := upd_get _ _ _ _ (n * cm_l2o M c' + k) E).
      destruct (Nat.eqb_spec (n * cm_l2o M c' + k) (n * cm_l2o M c + i)) as [Q|Q].
      + destruct (slot_same c c' k i Hc Hc' Hk' Hi Q) as (-> & ->). rewrite !Nat.eqb_refl. cbn [andb]. rewrite (nth_error_nth _ _ _ U). reflexivity.
      + rewrite (nth_error_nth' f 0) in U by (apply slot_fits; assumption). rewrite (nth_error_nth _ _ _ U).
        destruct (Nat.eqb_spec c' c) as [->|]; cbn [andb]; [|ring]. destruct (Nat.eqb_spec k i) as [->|]; [contradiction|ring].
    - exists f. split; [reflexivity|]. split; [exact S|]. intros. ring.
  Qed.
  (* the components in a list, to two cells *)
  Lemma tbump_list ol lc orr rc (vl vr : nat -> option R) (a b : nat -> R) : (ol = true -> owns lc) -> (orr = true -> owns rc) -> forall l f, tsized f -> NoDup l ->
    (forall i, In i l -> (i < n)%nat /\ (ol = true -> vl i = Some (a i)) /\ (orr = true -> vr i = Some (b i))) ->
    exists f', ofold (fun f i => let* f := bump ol f (n * cm_l2o M lc + i) (vl i) in bump orr f (n * cm_l2o M rc + i) (vr i)) l f = Some f' /\ tsized f' /\
      forall c' k, owns c' -> (k < n)%nat -> tvalue f' c' k = tvalue f c' k + (if (ol && Nat.eqb c' lc && existsb (Nat.eqb k) l)%bool then a k else 0) + (if (orr && Nat.eqb c' rc && existsb (Nat.eqb k) l)%bool then b k else 0).
  Proof.
    intros H1 H2. induction l as [|i l IH]; intros f S ND V; cbn [ofold existsb].
    - exists f. split; [reflexivity|]. split; [exact S|]. intros. rewrite !Bool.andb_false_r. ring.
    - apply NoDup_cons_iff in ND. destruct ND as (Ni & ND). destruct (V i (or_introl eq_refl)) as (Hi & V1 & V2).
      destruct (tbump_ok ol f lc i (vl i) (a i) S H1 V1 Hi) as (f1 & E1 & S1 & W1). rewrite E1, obind_Some.
      destruct (tbump_ok orr f1 rc i (vr i) (b i) S1 H2 V2 Hi) as (f2 & E2 & S2 & W2). rewrite E2, obind_Some.
      destruct (IH f2 S2 ND (fun j Hj => V j (or_intror Hj))) as (f3 & E3 & S3 & W3). exists f3. split; [exact E3|]. split; [exact S3|].
      intros c' k Hc Hk. rewrite W3, W2, W1 by assumption.
      destruct (Nat.eqb_spec k i) as [->|Nk]; cbn [orb].
      + assert (X : existsb (Nat.eqb i) l = false).
        { destruct (existsb (Nat.eqb i) l) eqn:X; [|reflexivity]. apply existsb_exists in X. destruct X as (j & Hj & X). apply Nat.eqb_eq in X. subst j. contradiction. }
        rewrite X. rewrite !Bool.andb_true_r, !Bool.andb_false_r. ring.
      + rewrite !Bool.andb_false_r. ring.
  Qed.
  Lemma existsb_seq k : (k < n)%nat -> existsb (Nat.eqb k) (seq 0 n) = true.
  Proof. intros H. apply existsb_exists. exists k. split; [apply in_seq; lia|apply Nat.eqb_refl]. Qed.
  Lemma tbump_flux ol lc orr rc f (vl vr : nat -> option R) (a b : tvec) : tsized f -> (ol = true -> owns lc) -> (orr = true -> owns rc) ->
    (forall i, (i < n)%nat -> ol = true -> vl i = Some (tcomp i a)) -> (forall i, (i < n)%nat -> orr = true -> vr i = Some (tcomp i b)) ->
    exists f', ofold (fun f i => let* f := bump ol f (n * cm_l2o M lc + i) (vl i) in bump orr f (n * cm_l2o M rc + i) (vr i)) (seq 0 n) f = Some f' /\ tsized f' /\
      forall c' k, owns c' -> (k < n)%nat -> tvalue f' c' k = tvalue f c' k + (if (ol && Nat.eqb c' lc)%bool then tcomp k a else 0) + (if (orr && Nat.eqb c' rc)%bool then tcomp k b else 0).
  Proof.
    intros S H1 H2 V1 V2. destruct (tbump_list ol lc orr rc vl vr (fun i => tcomp i a) (fun i => tcomp i b) H1 H2 (seq 0 n) f S (seq_NoDup _ _)) as (f' & E & S' & W).
    { intros i Hi. apply in_seq in Hi. split; [lia|]. split; intros; [apply V1|apply V2]; (assumption || lia). }
    exists f'. split; [exact E|]. split; [exact S'|]. intros c' k Hc Hk. rewrite (W c' k Hc Hk), existsb_seq, !Bool.andb_true_r by exact Hk. reflexivity.
  Qed.

  (* the array holds a field on the owned cells *)
  Definition trel (x : list R) (f : nat -> tvec) : Prop := tsized x /\ forall c k, owns c -> (k < n)%nat -> tvalue x c k = tcomp k (f c).
  Lemma trel_zero : trel (repeat 0 (n * length (owned_cells M))) (fun _ => tzero).
  Proof. split; [unfold tsized; apply repeat_length|]. intros c k _ _. unfold tvalue. rewrite nth_repeat, tcomp_zero. reflexivity. Qed.
  Lemma tedge_rel area kern x f f' e a b s : trel x f -> edge_update tadd tscal (cm_owned M) area kern f e = Some f' -> kern e = Some (a, b, s) ->
    forall x', tsized x' ->
    (forall sl sr, rdiv (- ie_len e) (area (ie_l e)) = Some sl -> rdiv (ie_len e) (area (ie_r e)) = Some sr ->
      forall c k, owns c -> (k < n)%nat -> tvalue x' c k = tvalue x c k + (if (cm_owned M (ie_l e) && Nat.eqb c (ie_l e))%bool then sl * tcomp k a else 0)
        + (if (cm_owned M (ie_r e) && Nat.eqb c (ie_r e))%bool then sr * tcomp k b else 0)) -> trel x' f'.
  Proof.
    intros (S & R0) E K x' S' V. unfold edge_update in E. rewrite K, obind_Some in E. apply obind_some in E. destruct E as (sl & El & E). apply obind_some in E. destruct E as (sr & Er & E). injection E as <-.
    split; [exact S'|]. intros c k Hc Hk. rewrite (V sl sr El Er c k Hc Hk), (R0 c k Hc Hk). unfold add_at.
    destruct (cm_owned M (ie_l e)), (cm_owned M (ie_r e)); cbn [andb]; destruct (Nat.eqb c (ie_l e)), (Nat.eqb c (ie_r e)); rewrite ?tcomp_add, ?tcomp_scal; ring.
  Qed.
  Lemma tfold_rel {X} (step : list R -> X -> option (list R)) {Y} (astep : (nat -> tvec) -> Y -> option (nat -> tvec)) (h : X -> Y) : forall l x f f',
    (forall a x f f', In a l -> trel x f -> astep f (h a) = Some f' -> exists x', step x a = Some x' /\ trel x' f') ->
    trel x f -> ofold astep (map h l) f = Some f' -> exists x', ofold step l x = Some x' /\ trel x' f'.
  Proof.
    induction l as [|a l IH]; intros x f f' H HR E; cbn [map ofold] in *; [injection E as <-; eauto|].
    apply obind_some in E. destruct E as (f1 & E1 & E). destruct (H a x f f1 (or_introl eq_refl) HR E1) as (x1 & Ex & HR1). rewrite Ex, obind_Some.
    apply (IH x1 f1 f' (fun a x f f' Ha => H a x f f' (or_intror Ha)) HR1 E).
  Qed.
  (* storing *)
  Lemma tput_ok x c i (a : R) : tsized x -> owns c -> (i < n)%nat ->
    exists x', put x (n * cm_l2o M c + i) (Some a) = Some x' /\ tsized x' /\
      forall c' k, owns c' -> (k < n)%nat -> tvalue x' c' k = if (Nat.eqb c' c && Nat.eqb k i)%bool then a else tvalue x c' k.
  Proof.
    intros S Hc Hi. unfold put. rewrite obind_Some. assert (Hk := slot_fits x c i S Hc Hi).
    destruct (upd_some x _ a Hk) as (x' & E). exists x'. split; [exact E|]. split; [unfold tsized; rewrite (upd_length _ _ _ _ E); exact S|].
    intros c' k Hc' Hk'. unfold tvalue. assert (U := upd_get _ _ _ _ (n * cm_l2o M c' + k) E).
    destruct (Nat.eqb_spec (n * cm_l2o M c' + k) (n * cm_l2o M c + i)) as [Q|Q].
    - destruct (slot_same c c' k i Hc Hc' Hk' Hi Q) as (-> & ->). rewrite !Nat.eqb_refl. cbn [andb]. rewrite (nth_error_nth _ _ _ U). reflexivity.
    - rewrite (nth_error_nth' x 0) in U by (apply slot_fits; assumption). rewrite (nth_error_nth _ _ _ U).
      destruct (Nat.eqb_spec c' c) as [->|]; cbn [andb]; [|reflexivity]. destruct (Nat.eqb_spec k i) as [->|]; [contradiction|reflexivity].
  Qed.
End Entries.

(** ** States and the Riemann solvers *)
(* the state of one side of an edge has depth, velocities and concentrations [P] *)
Definition tst (nt : nat) (s : tstate) (P : tprim) : Prop := rs_prim (st_flow s) = Some (tp P) /\ omap (fun c : option R => c) (st_ci s) = Some (map (tci P) (seq 0 nt)).
Definition tstate_of (nt : nat) (q : tvec) : tstate := TState (rstate_of (tflow q)) (map (ttr q) (seq 0 nt)) (repeat (Some 0) nt).
Lemma tload_ok nt u c q : block (3 + nt) u c = comps nt q -> ((3 + nt) * (c + 1) <= length u)%nat -> tload (3 + nt) nt u c = Some (tstate_of nt q).
Proof.
  intros B L. unfold tload. rewrite !(block_entry nt u c _ q B) by lia. rewrite !obind_Some.
  rewrite (omap_map _ (ttr q)); [reflexivity|]. intros s Hs. apply in_seq in Hs. rewrite <- Nat.add_assoc. rewrite (block_entry nt u c (3 + s) q B) by lia. reflexivity.
Qed.
Lemma omap_id_map {A} (g : A -> option R) (h : A -> R) l : (forall a, In a l -> g a = Some (h a)) -> omap (fun c : option R => c) (map g l) = Some (map h l).
Proof. induction l as [|a l IH]; intros H; cbn [map omap]; [reflexivity|]. rewrite (H a (or_introl eq_refl)), obind_Some, IH; [reflexivity|]. intros b Hb. apply H. right. exact Hb. Qed.
Lemma tvel_ok nt tiny q P : petsc_tracer_prim tiny q = Some P -> tst nt (tracer_velocity tiny (tstate_of nt q)) P.
Proof.
  unfold petsc_tracer_prim, tracer_velocity, tst, tstate_of, rstate_of, depth. cbn [st_flow rs_h rs_hu rs_hv st_hci]. destruct (c0 (tflow q) <? tiny); intros E.
  - injection E as <-. cbn [st_flow st_ci tp tci]. split; [reflexivity|]. rewrite map_map. apply omap_id_map. reflexivity.
  - apply obind_some in E. destruct E as (u & Eu & E). apply obind_some in E. destruct E as (v & Ev & E). apply obind_some in E. destruct E as (ci & Ec & E). injection E as <-.
    cbn [st_flow st_ci tp tci]. rewrite Eu, Ev. split; [reflexivity|]. rewrite map_map. apply omap_id_map. intros j _.
    destruct (rdivs_inv _ _ _ Ec) as (Nz & V). rewrite rdiv_some by exact Nz. rewrite V. reflexivity.
Qed.
Lemma tvel_h nt tiny q : rs_h (st_flow (tracer_velocity tiny (tstate_of nt q))) = Some (depth q).
Proof. unfold tracer_velocity, tstate_of, rstate_of, depth. cbn [st_flow rs_h]. destruct (_ <? _); reflexivity. Qed.

Lemma fold_left_zero (g : nat -> R) l a : (forall j, In j l -> g j = 0) -> fold_left (fun f j => f - g j) l a = a.
Proof. revert a. induction l as [|j l IH]; intros a H; cbn [fold_left]; [reflexivity|]. rewrite (H j (or_introl eq_refl)), Rminus_0_r. apply IH. intros i Hi. apply H. right. exact Hi. Qed.
Lemma fold_left_one (g : nat -> R) t : forall l a, NoDup l -> In t l -> (forall j, In j l -> j <> t -> g j = 0) -> fold_left (fun f j => f - g j) l a = a - g t.
Proof.
  induction l as [|j l IH]; intros a ND Ht H; [contradiction|]. apply NoDup_cons_iff in ND. destruct ND as (Nj & ND). cbn [fold_left]. destruct Ht as [->|Ht].
  - apply fold_left_zero. intros i Hi. apply H; [right; exact Hi|]. intros ->. contradiction.
  - rewrite (H j (or_introl eq_refl)) by (intros ->; contradiction). rewrite Rminus_0_r. apply IH; [exact ND|exact Ht|]. intros i Hi. apply H. right. exact Hi.
Qed.
Lemma seq_three nt : seq 0 (3 + nt) = (seq 0 3 ++ seq 3 nt)%list.
Proof. reflexivity. Qed.

Lemma map_seq_ext {A} (f g : nat -> A) n : (forall i, (i < n)%nat -> f i = g i) -> map f (seq 0 n) = map g (seq 0 n).
Proof. intros H. apply map_ext_in. intros i Hi. apply in_seq in Hi. apply H. lia. Qed.
Lemma comps_map nt q : comps nt q = map (fun k => tcomp k q) (seq 0 (3 + nt)).
Proof. apply (nth_ext _ _ 0 0); [rewrite comps_length, map_length, seq_length; reflexivity|]. intros k Hk. rewrite comps_length in Hk. rewrite comps_nth, nth_map_seq by exact Hk. reflexivity. Qed.

Lemma roe_fij_ok nt L Rt sn cn F a : petsc_tracer_flux TRoe L Rt sn cn = Some (F, a) ->
  roe_fij nt (tp L) (tp Rt) (map (tci L) (seq 0 nt)) (map (tci Rt) (seq 0 nt)) sn cn = Some (comps nt F).
Proof.
  unfold petsc_tracer_flux, roe_fij. intros E. apply obind_some in E. destruct E as (s & Es & E). rewrite Es, obind_Some. cbn [tracer_flux] in E. unfold tracer_roe in E.
  apply obind_some in E. destruct E as (duml & E1 & E). apply obind_some in E. destruct E as (dumr & E2 & E). apply obind_some in E. destruct E as (ch & Ec & E).
  rewrite E1, E2, !obind_Some. destruct (rdivs_inv _ _ _ Ec) as (Nz & V). injection E as <- _.
  rewrite (omap_map _ ch).
  2:{ intros j Hj. apply in_seq in Hj. rewrite !nth_map_seq by lia. rewrite rdiv_some by exact Nz. rewrite V. reflexivity. }
  rewrite obind_Some. cbv zeta. rewrite comps_map. apply f_equal. apply map_seq_ext. intros k Hk.
  rewrite seq_three, fold_left_app.
  assert (NF : forall (P Q : prim) (c : nat -> R) j, (3 <= j)%nat -> nth j (comps3 (side_flux GRAVITY P sn cn) ++ map (fun j => ph Q * (pu Q * cn + pv Q * sn) * nth j (map c (seq 0 nt)) 0) (seq 0 nt)) 0 = if Nat.ltb j (3 + nt) then ph Q * (pu Q * cn + pv Q * sn) * c (j - 3)%nat else 0).
  { intros P Q c j Hj. rewrite app_nth2 by (cbn; lia). cbn [comps3 length]. destruct (Nat.ltb_spec j (3 + nt)).
    - rewrite (nth_map_seq (fun j => ph Q * (pu Q * cn + pv Q * sn) * nth j (map c (seq 0 nt)) 0)) by lia. rewrite nth_map_seq by lia. reflexivity.
    - apply nth_overflow. rewrite map_length, seq_length. lia. }
  destruct (le_lt_dec 3 k) as [K3|K3].
  - rewrite !(NF _ _ _ k K3). destruct (Nat.ltb_spec k (3 + nt)) as [_|]; [|lia].
    destruct k as [|[|[|t]]]; try lia. replace (S (S (S t)) - 3)%nat with t by lia.
    rewrite (fold_left_one (fun j => 1/2 * tracer_R s (map ch (seq 0 nt)) (S (S (S t))) j * tracer_A s j * tracer_dW s (ph (tp Rt) - ph (tp L)) (map (fun j0 => nth j0 (map (tci Rt) (seq 0 nt)) 0 * ph (tp Rt) - nth j0 (map (tci L) (seq 0 nt)) 0 * ph (tp L)) (seq 0 nt)) (map ch (seq 0 nt)) j) (S (S (S t)))).
    + cbn [seq fold_left tracer_R tracer_A tracer_dW tcomp ttr]. cbn [Nat.eqb orb]. replace (t + 3)%nat with (S (S (S t))) by lia. rewrite Nat.eqb_refl.
      rewrite (nth_map_seq (fun j0 => nth j0 (map (tci Rt) (seq 0 nt)) 0 * ph (tp Rt) - nth j0 (map (tci L) (seq 0 nt)) 0 * ph (tp L))) by lia. rewrite !nth_map_seq by lia. field.
    + apply seq_NoDup.
    + apply in_seq. lia.
    + intros j Hj Nj. apply in_seq in Hj. cbn [tracer_R]. destruct (Nat.eqb_spec j 0); [lia|]. destruct (Nat.eqb_spec j 2); [lia|]. cbn [orb]. destruct (Nat.eqb_spec j (t + 3)); [lia|]. ring.
  - rewrite (fold_left_zero (fun j => 1/2 * tracer_R s (map ch (seq 0 nt)) k j * tracer_A s j * tracer_dW s (ph (tp Rt) - ph (tp L)) (map (fun j0 => nth j0 (map (tci Rt) (seq 0 nt)) 0 * ph (tp Rt) - nth j0 (map (tci L) (seq 0 nt)) 0 * ph (tp L)) (seq 0 nt)) (map ch (seq 0 nt)) j) (seq 3 nt)).
    + destruct k as [|[|[|k]]]; [| | |lia]; cbn [seq fold_left tracer_R tracer_A tracer_dW tcomp tflow comps3 nth app assemble_flux c0 c1 c2]; unfold assemble_flux, flux_row; cbn [c0 c1 c2]; field.
    + intros j Hj. apply in_seq in Hj. destruct j as [|[|[|j]]]; try lia. assert (Z : tracer_R s (map ch (seq 0 nt)) k (S (S (S j))) = 0) by (destruct k as [|[|[|k]]]; [| | |lia]; cbn [tracer_R comps3 nth]; destruct j; reflexivity). rewrite Z. ring.
Qed.
Lemma upwind_fij_ok nt L Rt sn cn F a : petsc_tracer_flux TUpwind L Rt sn cn = Some (F, a) ->
  upwind_fij nt (tp L) (tp Rt) (map (tci L) (seq 0 nt)) (map (tci Rt) (seq 0 nt)) sn cn = Some (comps nt F).
Proof.
  unfold petsc_tracer_flux, upwind_fij. intros E. apply obind_some in E. destruct E as (s & Es & E). rewrite Es, obind_Some. cbn [tracer_flux] in E. unfold tracer_upwind in E. injection E as <- _.
  cbv zeta. apply f_equal. unfold comps. cbn [tflow ttr].
  assert (RW : forall i, (i < 3)%nat -> fold_left (fun f j => f - 1/2 * tracer_R s [] i j * tracer_A s j * tracer_dW s 0 [] [] j) (seq 0 3) (1/2 * (nth i (comps3 (side_flux GRAVITY (tp L) sn cn)) 0 + nth i (comps3 (side_flux GRAVITY (tp Rt) sn cn)) 0)) = component i (assemble_flux GRAVITY (tp L) (tp Rt) sn cn s)).
  { intros i Hi. unfold component. destruct i as [|[|[|i]]]; [| | |lia]; cbn [seq fold_left tracer_R tracer_A tracer_dW comps3 nth]; unfold assemble_flux, flux_row; cbn [c0 c1 c2]; field. }
  rewrite (RW 0%nat) by lia. change (component 0 (assemble_flux GRAVITY (tp L) (tp Rt) sn cn s)) with (c0 (assemble_flux GRAVITY (tp L) (tp Rt) sn cn s)).
  apply f_equal2.
  - cbn [map seq]. cbn [map seq] in RW. rewrite (RW 0%nat), (RW 1%nat), (RW 2%nat) by lia. reflexivity.
  - apply map_seq_ext. intros j Hj. rewrite !nth_map_seq by exact Hj. destruct (0 <=? _); reflexivity.
Qed.
Lemma fij_length k nt L Rt cl cr sn cn row : fij k nt L Rt cl cr sn cn = Some row -> length row = (3 + nt)%nat.
Proof.
  intros E. assert (X : option_map (@length R) (fij k nt L Rt cl cr sn cn) = Some (length row)) by (rewrite E; reflexivity).
  destruct k; cbn [fij] in X; unfold roe_fij, upwind_fij in X.
  - destruct (petsc_eigenspectrum L Rt sn cn); [|discriminate X]. destruct (rsqrt (ph L)); [|discriminate X]. destruct (rsqrt (ph Rt)); [|discriminate X]. cbn [obind] in X.
    destruct (omap _ _); [|discriminate X]. cbv zeta in X. cbn [option_map obind] in X. rewrite map_length, seq_length in X. congruence.
  - destruct (petsc_eigenspectrum L Rt sn cn); [|discriminate X]. cbv zeta in X. cbn [option_map obind] in X. rewrite app_length, !map_length, !seq_length in X. congruence.
Qed.
Lemma tflux_ok k nt l r L Rt sn cn F a : tst nt l L -> tst nt r Rt -> petsc_tracer_flux k L Rt sn cn = Some (F, a) -> tflux_between k nt l r sn cn = Some (comps nt F).
Proof.
  intros (L1 & L2) (R1 & R2) E. unfold tflux_between. rewrite L1, obind_Some, R1, obind_Some, L2, obind_Some, R2, obind_Some.
  destruct k; cbn [fij]; [eapply roe_fij_ok|eapply upwind_fij_ok]; exact E.
Qed.
Lemma flux_row_length k nt l r sn cn : length (flux_row_of (3 + nt) (tflux_between k nt l r sn cn)) = (3 + nt)%nat.
Proof.
  destruct (tflux_between k nt l r sn cn) as [row|] eqn:E; cbn [flux_row_of]; [|apply repeat_length]. rewrite map_length. unfold tflux_between in E.
  do 4 (apply obind_some in E; let x := fresh "x" in destruct E as (x & _ & E)). eapply fij_length. exact E.
Qed.
Lemma tflux_batch k nt dl dr sn cn : length dr = length dl -> length sn = length dl -> length cn = length dl ->
  exists fl, ComputeTracerFlux k nt dl dr sn cn = Some fl /\
    forall e l r s c L Rt F a, nth_error dl e = Some l -> nth_error dr e = Some r -> nth_error sn e = Some s -> nth_error cn e = Some c ->
      tst nt l L -> tst nt r Rt -> petsc_tracer_flux k L Rt s c = Some (F, a) ->
      forall i, (i < 3 + nt)%nat -> nth_error fl ((3 + nt) * e + i) = Some (Some (tcomp i F)).
Proof.
  intros H1 H2 H3. unfold ComputeTracerFlux.
  destruct (omap_rel (tflux_at k nt dl dr sn cn) (fun i o => tflux_at k nt dl dr sn cn i = Some o) (seq 0 (length dl))) as (rs & E & FA).
  { intros i Hi. apply in_seq in Hi. unfold tflux_at.
    rewrite (nth_error_nth' dl (tstate0 0)), (nth_error_nth' dr (tstate0 0)), (nth_error_nth' sn 0), (nth_error_nth' cn 0) by lia. rewrite !obind_Some. eexists. split; reflexivity. }
  rewrite E, obind_Some. eexists. split; [reflexivity|].
  assert (RL : forall r, In r (map (flux_row_of (3 + nt)) rs) -> length r = (3 + nt)%nat).
  { intros r Hr. apply in_map_iff in Hr. destruct Hr as (o & <- & Ho). apply In_nth_error in Ho. destruct Ho as (i & Ho).
    destruct (Forall2_get_r _ _ _ _ _ FA Ho) as (j & _ & Hj). unfold tflux_at in Hj.
    apply obind_some in Hj. destruct Hj as (x1 & _ & Hj). apply obind_some in Hj. destruct Hj as (x2 & _ & Hj). apply obind_some in Hj. destruct Hj as (x3 & _ & Hj). apply obind_some in Hj. destruct Hj as (x4 & _ & Hj).
    injection Hj as <-. apply flux_row_length. }
  intros e l r s c L Rt F a A B C D TL TR EF i Hi. assert (He : (e < length dl)%nat) by (apply nth_error_Some; congruence).
  destruct (Forall2_get _ _ _ _ _ FA (nth_error_seq0 _ _ He)) as (o & Eo & Ho). unfold tflux_at in Ho. rewrite A, B, C, D, !obind_Some in Ho. injection Ho as Ho.
  rewrite (tflux_ok k nt l r L Rt s c F a TL TR EF) in Ho. subst o.
  rewrite (concat_get (3 + nt) _ RL e (flux_row_of (3 + nt) (Some (comps nt F)))) by (try exact Hi; rewrite nth_error_map, Eo; reflexivity). cbn [flux_row_of]. rewrite nth_error_map.
  rewrite (nth_error_nth' _ 0) by (rewrite comps_length; exact Hi). cbn [option_map]. rewrite comps_nth by exact Hi. reflexivity.
Qed.
Lemma tscaled_some fl j F i w : nth_error fl j = Some (Some (tcomp i F)) -> scaled fl j (Some w) = Some (tcomp i (tscal w F)).
Proof. intros E. unfold scaled. rewrite E, !obind_Some. rewrite tcomp_scal. f_equal. ring. Qed.

(** ** Owned cells come first *)
Lemma filter_prefix k N : filter (fun c => Nat.ltb c k) (seq 0 N) = seq 0 (Nat.min k N).
Proof.
  induction N as [|N IH]; [rewrite Nat.min_0_r; reflexivity|]. rewrite seq_S, filter_app, IH. cbn [filter Nat.add]. destruct (Nat.ltb_spec N k).
  - rewrite (Nat.min_r k N), (Nat.min_r k (S N)) by lia. rewrite seq_S. reflexivity.
  - rewrite (Nat.min_l k N), (Nat.min_l k (S N)) by lia. apply app_nil_r.
Qed.
Lemma owned_first M : (exists k, forall c, (c < cm_cells M)%nat -> cm_owned M c = Nat.ltb c k) -> numbered M -> forall c, In c (owned_cells M) -> cm_l2o M c = c.
Proof.
  intros (k & H) NB c Hc. assert (S := owned_slot M NB c Hc). assert (E : owned_cells M = seq 0 (Nat.min k (cm_cells M))).
  { unfold owned_cells. rewrite <- filter_prefix. apply filter_ext_in. intros a Ha. apply in_seq in Ha. apply H. lia. }
  assert (B := slot_bound M NB c Hc). rewrite E in S, B. rewrite seq_length in B. rewrite nth_error_seq0 in S by exact B. congruence.
Qed.
Lemma ofold_shift {A} (h : A -> nat -> option A) d : forall l f, ofold (fun f s => h f (d + s)%nat) l f = ofold h (map (fun s => (d + s)%nat) l) f.
Proof. induction l as [|a l IH]; intros f; cbn [ofold map]; [reflexivity|]. destruct (h f (d + a)%nat); cbn [obind]; [apply IH|reflexivity]. Qed.
Lemma shifted_NoDup d n : NoDup (map (fun s => (d + s)%nat) (seq 0 n)).
Proof. apply FinFun.Injective_map_NoDup; [intros a b; lia|apply seq_NoDup]. Qed.
Lemma existsb_shifted k n : (k < 3 + n)%nat -> existsb (Nat.eqb k) (map (fun s => (3 + s)%nat) (seq 0 n)) = Nat.leb 3 k.
Proof.
  intros H. apply Bool.eq_true_iff_eq. rewrite existsb_exists, Nat.leb_le. split.
  - intros (x & Hx & E). apply Nat.eqb_eq in E. apply in_map_iff in Hx. destruct Hx as (s & <- & _). lia.
  - intros L. exists k. split; [|apply Nat.eqb_refl]. apply in_map_iff. exists (k - 3)%nat. split; [lia|apply in_seq; lia].
Qed.
Lemma ofold_ext_in {S T} (g h : S -> T -> option S) l s : (forall s t, In t l -> g s t = h s t) -> ofold g l s = ofold h l s.
Proof. revert s. induction l as [|a l IH]; intros s H; cbn [ofold]; [reflexivity|]. rewrite H by (left; reflexivity). destruct (h s a); cbn [obind]; [|reflexivity]. apply IH. intros s1 t Ht. apply H. right. exact Ht. Qed.

Section Process.
  Context (w : balancing) (cf : cconfig) (m : mesh) (bcs : bedge -> tbcond) (z : nat -> R) (g : cellgeom) (src : nat -> tvec) (p : cprocess) (C : sediment_config cf)
          (PO : tprocess_ok w cf m bcs z g src p).
  Context (u : nat -> tvec) (ul : list R).
  Local Notation M := (cp_mesh p).
  Local Notation gid := (cp_gid p).
  Local Notation nt := (cf_classes cf).
  Local Notation n := (3 + cf_classes cf)%nat.
  Local Notation rk := (trank_of (cf_classes cf) p).
  Local Notation vl := (tr_local rk u).
  Local Notation A := (tr_local rk (area m)).
  Local Notation sl := (tscheme_of (tchoice_at gid (tchoice_of w cf z g))).
  Local Notation tiny := (cf_tiny_h cf).
  Local Notation kind := (tkind (cf_riemann cf)).
  Local Notation owns c := (In c (owned_cells M)).
  Hypothesis Lu : length ul = (n * cm_cells M)%nat.
  Hypothesis Vu : forall c, (c < cm_cells M)%nat -> block n ul c = comps nt (u (gid c)).
  Lemma ttiny_pos : 0 < tiny. Proof. exact (proj2 (proj2 (proj2 (proj2 C)))). Qed.
  Lemma ncomp : num_comp cf = n. Proof. destruct C as (_ & S & H & _). unfold num_comp, num_tracers. rewrite S, H. lia. Qed.
  Lemma TNB : numbered M. Proof. exact (tp_numbered _ _ _ _ _ _ _ _ PO). Qed.

  Lemma tload_cell c : (c < cm_cells M)%nat -> tload n nt ul c = Some (tstate_of nt (vl c)).
  Proof. intros Hc. apply tload_ok; [apply Vu; exact Hc|rewrite Lu; nia]. Qed.
  Lemma tcell_entry c k : (c < cm_cells M)%nat -> (k < n)%nat -> nth_error ul (n * c + k) = Some (tcomp k (vl c)).
  Proof. intros Hc Hk. apply block_entry; [apply Vu; exact Hc|exact Hk|rewrite Lu; nia]. Qed.
  Lemma tinternal_cells e : In e (cm_internal M) -> (left_cell M e < cm_cells M)%nat /\ (right_cell M e < cm_cells M)%nat.
  Proof.
    intros He. destruct (tn_iedges _ _ _ (tp_part _ _ _ _ _ _ _ _ PO) (iedge_of M e)) as (H1 & H2); [cbn; apply in_map; exact He|].
    cbn [trank_of tr_cells iedge_of ie_l ie_r] in H1, H2. apply in_seq in H1, H2. lia.
  Qed.
  Lemma tboundary_cells b e : In b (cp_bounds p) -> In e (cb_edges b) -> (left_cell M e < cm_cells M)%nat.
  Proof.
    intros Hb He. apply In_nth_error in He. destruct He as (i & He). assert (Hi : (i < length (cb_edges b))%nat) by (apply nth_error_Some; congruence).
    assert (H := tn_bedges _ _ _ (tp_part _ _ _ _ _ _ _ _ PO) (tbedge_of nt M b (i, e))). cbn [trank_of tr_cells tr_bedges tbedge_of be_c fst snd] in H.
    assert (In (left_cell M e) (seq 0 (cm_cells M))) as X; [apply H|apply in_seq in X; lia].
    apply in_flat_map. exists b. split; [exact Hb|]. apply in_map_iff. exists (i, e). split; [reflexivity|]. eapply nth_error_In. apply combine_get; [apply nth_error_seq0; exact Hi|exact He].
  Qed.
  Lemma tarea_at c : (c < cm_cells M)%nat -> A c = cm_area M c.
  Proof. intros Hc. unfold tr_local. cbn [trank_of tr_gid]. symmetry. apply (tp_area _ _ _ _ _ _ _ _ PO); exact Hc. Qed.

  (** *** Interior edges, first order *)
  Definition tvel_state (c : nat) : tstate := tracer_velocity tiny (tstate_of nt (vl c)).
  Lemma tinterior_edge_ok fl x f f' i e : w = Standard ->
    (forall i e L Rt F a, nth_error (cm_internal M) i = Some e -> petsc_tracer_prim tiny (vl (left_cell M e)) = Some L -> petsc_tracer_prim tiny (vl (right_cell M e)) = Some Rt ->
       petsc_tracer_flux kind L Rt (cm_sn M e) (cm_cn M e) = Some (F, a) -> forall k, (k < n)%nat -> nth_error fl (n * i + k) = Some (Some (tcomp k F))) ->
    nth_error (cm_internal M) i = Some e -> trel n M x f -> edge_update tadd tscal (cm_owned M) A (ts_interior (sl (fun _ => TReflecting)) vl) f (iedge_of M e) = Some f' ->
    exists x', taccumulate_edge n tiny M ul fl x (i, e) = Some x' /\ trel n M x' f'.
  Proof.
    intros W HF Hi HR E. assert (Ht := ttiny_pos). assert (He : In e (cm_internal M)) by (eapply nth_error_In; exact Hi). destruct (tinternal_cells e He) as (Hl & Hr).
    unfold taccumulate_edge. rewrite !tcell_entry by (assumption || lia). rewrite !obind_Some. cbn [tcomp].
    assert (K : ts_interior (sl (fun _ => TReflecting)) vl (iedge_of M e) = tboth (petsc_tracer_edge kind tiny (vl (left_cell M e)) (vl (right_cell M e)) (cm_sn M e) (cm_cn M e))) by (rewrite W; reflexivity).
    unfold petsc_tracer_edge in K.
    destruct (petsc_tracer_prim_some tiny (vl (left_cell M e)) Ht) as (PL & EL & _). destruct (petsc_tracer_prim_some tiny (vl (right_cell M e)) Ht) as (PR & ER & _). rewrite EL, ER, !obind_Some in K. unfold depth in K.
    destruct ((c0 (tflow (vl (right_cell M e))) <? tiny) && (c0 (tflow (vl (left_cell M e))) <? tiny))%bool.
    - exists x. split; [reflexivity|]. eapply (tedge_rel n M A _ x f f' _ _ _ _ HR E K); [exact (proj1 HR)|]. intros a b _ _ c k Hc Hk.
      cbn [fst snd]. rewrite tcomp_zero, !Rmult_0_r. destruct (_ && _)%bool, (_ && _)%bool; ring.
    - destruct (petsc_tracer_flux kind PL PR (cm_sn M e) (cm_cn M e)) as [[fv am]|] eqn:EF.
      2:{ unfold edge_update in E. rewrite K in E. discriminate E. }
      cbn [tboth obind fst snd] in K.
      assert (E' := E). unfold edge_update in E'. rewrite K, obind_Some in E'. apply obind_some in E'. destruct E' as (a & Ea & E'). apply obind_some in E'. destruct E' as (b & Eb & _).
      cbn [iedge_of ie_l ie_r ie_len] in Ea, Eb. rewrite tarea_at in Ea by exact Hl. rewrite tarea_at in Eb by exact Hr.
      assert (HFe : forall k, (k < n)%nat -> nth_error fl (n * i + k) = Some (Some (tcomp k fv))) by (intros k Hk; eapply HF; eassumption).
      rewrite Ea, Eb.
      destruct (tbump_flux n M TNB (cm_owned M (left_cell M e)) (left_cell M e) (cm_owned M (right_cell M e)) (right_cell M e) x
        (fun k => scaled fl (n * i + k) (Some a)) (fun k => scaled fl (n * i + k) (Some b))
        (tscal a fv) (tscal b fv) (proj1 HR)) as (x' & Ex & Sx & Vx).
      + intros O. apply owned_in; assumption.
      + intros O. apply owned_in; assumption.
      + intros k Hk _. apply tscaled_some. exact (HFe k Hk).
      + intros k Hk _. apply tscaled_some. exact (HFe k Hk).
      + exists x'. split; [exact Ex|]. eapply (tedge_rel n M A _ x f f' _ _ _ _ HR E K); [exact Sx|]. intros a' b' Ea' Eb' c k Hc Hk.
        cbn [iedge_of ie_l ie_r ie_len] in Ea', Eb' |- *. rewrite tarea_at in Ea' by exact Hl. rewrite tarea_at in Eb' by exact Hr.
        assert (a' = a) by congruence. assert (b' = b) by congruence. subst a' b'. rewrite (Vx c k Hc Hk), !tcomp_scal. reflexivity.
  Qed.
  Lemma tinterior_ok x f f' : w = Standard -> trel n M x f -> interior_loop tadd tscal (cm_owned M) A (ts_interior (sl (fun _ => TReflecting)) vl) (map (iedge_of M) (cm_internal M)) f = Some f' ->
    exists x', ApplyTracerInteriorFlux cf M ul x = Some x' /\ trel n M x' f'.
  Proof.
    intros W HR E. unfold ApplyTracerInteriorFlux. rewrite ncomp, Nat.eqb_refl. cbv zeta.
    rewrite (omap_map _ (fun e => tstate_of nt (vl (left_cell M e)))) by (intros e He; apply tload_cell; apply tinternal_cells; exact He).
    rewrite (omap_map _ (fun e => tstate_of nt (vl (right_cell M e)))) by (intros e He; apply tload_cell; apply tinternal_cells; exact He).
    rewrite !obind_Some, !map_map.
    destruct (tflux_batch kind nt (map (fun e => tvel_state (left_cell M e)) (cm_internal M)) (map (fun e => tvel_state (right_cell M e)) (cm_internal M)) (map (cm_sn M) (cm_internal M)) (map (cm_cn M) (cm_internal M)))
      as (fl & EF & VF); [rewrite !map_length; reflexivity..|].
    unfold tvel_state in EF at 1 2. rewrite EF, obind_Some.
    rewrite <- pair_edges in E. unfold interior_loop in E.
    refine (tfold_rel n M _ _ (fun ie => iedge_of M (snd ie)) _ x f f' _ HR E).
    intros [i e] x0 f0 f0' Hin HR0 E0. apply combine_seq_In in Hin. cbn [snd] in E0.
    refine (tinterior_edge_ok fl x0 f0 f0' i e W _ Hin HR0 E0).
    intros i' e' L Rt F a Hi' HL HRt HFl k Hk.
    apply (VF i' _ _ _ _ L Rt F a (map_nth_error (fun e => tvel_state (left_cell M e)) _ _ Hi') (map_nth_error (fun e => tvel_state (right_cell M e)) _ _ Hi') (map_nth_error (cm_sn M) _ _ Hi') (map_nth_error (cm_cn M) _ _ Hi')); try assumption; apply tvel_ok; assumption.
  Qed.

  (** *** Interior edges with hydrostatic reconstruction *)
  Section Reconstruction.
  Context (file : bool).
  Local Notation ha := (cf_h_anuga cf).
  Lemma tbeds_ok : w = Hydrostatic file -> exists zc, cell_beds false (cp_hmesh p) = Some zc /\ forall c, (c < cm_cells M)%nat -> nth_error zc c = Some (z (gid c)).
  Proof.
    intros W. destruct (tp_bed _ _ _ _ _ _ _ _ PO file W) as (CO & HB). unfold cell_beds. rewrite (omap_map _ (bed false (cp_hmesh p))).
    - eexists. split; [reflexivity|]. intros c Hc. rewrite nth_error_map. unfold cp_mesh in Hc. rewrite nth_error_seq0 by exact Hc. cbn [option_map]. apply f_equal. apply HB. exact Hc.
    - intros c Hc. apply in_seq in Hc. apply bed_some; [exact CO|lia].
  Qed.
  Definition thr_state (q : tvec) (hrec : R) : tstate :=
    let h := c0 (tflow q) in
    let denom := h * h + ha * ha in
    let vel h hu denom := if tiny <? h then rdiv (hu * h) denom else Some 0 in
    let conc h hc := if tiny <? h then rdiv hc h else Some 0 in
    TState (RState (Some hrec) 0 0 (vel h (c1 (tflow q)) denom) (vel h (c2 (tflow q)) denom)) [] (map (conc h) (map (ttr q) (seq 0 nt))).
  Lemma thr_state_ok q hrec P : hr_tracer_prim tiny ha hrec q = Some P -> tst nt (thr_state q hrec) P.
  Proof.
    assert (Ht := ttiny_pos). unfold hr_tracer_prim, hr_velocity, thr_state, tst, depth. rewrite ceed_velocities_some, obind_Some by lra. cbv zeta. cbn [st_flow st_ci]. intros E.
    apply obind_some in E. destruct E as (ci & Ec & E). injection E as <-. cbn [tp tci].
    unfold rs_prim, cvel. cbn [rs_h rs_u rs_v]. rewrite obind_Some. destruct (tiny <? c0 (tflow q)) eqn:D.
    - apply Rltb_true in D. rewrite !rdiv_some by (apply denom_nz; lra). rewrite !obind_Some. split; [reflexivity|]. rewrite map_map. apply omap_id_map. intros j _.
      destruct (rdivs_inv _ _ _ Ec) as (Nz & V). rewrite rdiv_some by exact Nz. rewrite V. reflexivity.
    - injection Ec as <-. rewrite !obind_Some. split; [reflexivity|]. rewrite map_map. apply omap_id_map. reflexivity.
  Qed.
  Definition thr_left (e : nat) := thr_state (vl (left_cell M e)) (hr_depth (depth (vl (left_cell M e))) (z (gid (left_cell M e))) (z (gid (right_cell M e)))).
  Definition thr_right (e : nat) := thr_state (vl (right_cell M e)) (hr_depth (depth (vl (right_cell M e))) (z (gid (right_cell M e))) (z (gid (left_cell M e)))).
  Lemma thr_states_ok zc e : (forall c, (c < cm_cells M)%nat -> nth_error zc c = Some (z (gid c))) -> In e (cm_internal M) ->
    thr_states n nt tiny ha M zc ul e = Some (thr_left e, thr_right e).
  Proof.
    intros Z He. destruct (tinternal_cells e He) as (Hl & Hr). unfold thr_states. rewrite !tcell_entry, !Z by (assumption || lia). rewrite !obind_Some.
    rewrite (omap_map _ (ttr (vl (left_cell M e)))), (omap_map _ (ttr (vl (right_cell M e)))), !obind_Some.
    - cbv zeta. unfold thr_left, thr_right. rewrite (hr_depth_swap (depth (vl (right_cell M e)))). reflexivity.
    - intros s Hs. apply in_seq in Hs. rewrite <- Nat.add_assoc, tcell_entry by (assumption || lia). reflexivity.
    - intros s Hs. apply in_seq in Hs. rewrite <- Nat.add_assoc, tcell_entry by (assumption || lia). reflexivity.
  Qed.
  Lemma tcorr_comp h hrec sn cn k : (k < n)%nat -> tcomp k (tcorrection GRAVITY h hrec sn cn) = (if Nat.eqb k 1 then 1/2 * GRAVITY * (h * h - hrec * hrec) * cn else 0) + (if Nat.eqb k 2 then 1/2 * GRAVITY * (h * h - hrec * hrec) * sn else 0).
  Proof. intros _. unfold tcorrection, hr_correction. cbv zeta. destruct k as [|[|[|k]]]; cbn [tcomp tflow ttr c0 c1 c2 Nat.eqb]; ring. Qed.
  Lemma thr_edge_ok zc fl x f f' i e : w = Hydrostatic file ->
    (forall c, (c < cm_cells M)%nat -> nth_error zc c = Some (z (gid c))) ->
    (forall i e L Rt F a, nth_error (cm_internal M) i = Some e -> tst nt (thr_left e) L -> tst nt (thr_right e) Rt ->
       petsc_tracer_flux kind L Rt (cm_sn M e) (cm_cn M e) = Some (F, a) -> forall k, (k < n)%nat -> nth_error fl (n * i + k) = Some (Some (tcomp k F))) ->
    nth_error (cm_internal M) i = Some e -> trel n M x f -> edge_update tadd tscal (cm_owned M) A (ts_interior (sl (fun _ => TReflecting)) vl) f (iedge_of M e) = Some f' ->
    exists x', taccumulate_edge_hr n tiny M zc ul (map (cm_sn M) (cm_internal M)) (map (cm_cn M) (cm_internal M)) fl x (i, e) = Some x' /\ trel n M x' f'.
  Proof.
    intros W Z HF Hi HR E. assert (Ht := ttiny_pos). assert (He : In e (cm_internal M)) by (eapply nth_error_In; exact Hi). destruct (tinternal_cells e He) as (Hl & Hr).
    unfold taccumulate_edge_hr. rewrite !tcell_entry by (assumption || lia). rewrite !obind_Some. cbn [tcomp].
    assert (K : ts_interior (sl (fun _ => TReflecting)) vl (iedge_of M e) = petsc_tracer_hr_edge kind tiny ha (z (gid (left_cell M e))) (z (gid (right_cell M e))) (vl (left_cell M e)) (vl (right_cell M e)) (cm_sn M e) (cm_cn M e)) by (rewrite W; reflexivity).
    unfold petsc_tracer_hr_edge in K. unfold depth in K.
    destruct ((c0 (tflow (vl (right_cell M e))) <? tiny) && (c0 (tflow (vl (left_cell M e))) <? tiny))%bool.
    - exists x. split; [reflexivity|]. eapply (tedge_rel n M A _ x f f' _ _ _ _ HR E K); [exact (proj1 HR)|]. intros a b _ _ c k Hc Hk.
      rewrite tcomp_zero, !Rmult_0_r. destruct (_ && _)%bool, (_ && _)%bool; ring.
    - rewrite !Z, !obind_Some by assumption. rewrite !nth_error_map, Hi. cbn [option_map].
      set (zl := z (gid (left_cell M e))) in *. set (zr := z (gid (right_cell M e))) in *.
      set (dl := c0 (tflow (vl (left_cell M e)))) in *. set (dr := c0 (tflow (vl (right_cell M e)))) in *.
      change (Rmax 0 (dl + zl - Rmax zl zr)) with (hr_depth dl zl zr).
      rewrite <- (hr_depth_swap dr zr zl).
      set (hl := hr_depth dl zl zr) in *. set (hr := hr_depth dr zr zl) in *. cbv zeta in K |- *.
      set (CL := tcorrection GRAVITY dl hl (cm_sn M e) (cm_cn M e)) in *. set (CR := tcorrection GRAVITY dr hr (cm_sn M e) (cm_cn M e)) in *.
      destruct (hr_tracer_prim_some tiny ha hl (vl (left_cell M e)) Ht) as (PL & EL & _). destruct (hr_tracer_prim_some tiny ha hr (vl (right_cell M e)) Ht) as (PR & ER & _). rewrite EL, ER, !obind_Some in K.
      (* the scales *)
      assert (SC : exists a b, rdiv (- cm_len M e) (cm_area M (left_cell M e)) = Some a /\ rdiv (cm_len M e) (cm_area M (right_cell M e)) = Some b).
      { unfold edge_update in E. apply obind_some in E. destruct E as ([[q1 q2] q3] & _ & E). apply obind_some in E. destruct E as (a & Ea & E). apply obind_some in E. destruct E as (b & Eb & _).
        cbn [iedge_of ie_l ie_r ie_len] in Ea, Eb. rewrite tarea_at in Ea, Eb by assumption. eauto. }
      destruct SC as (a & b & Ea & Eb). rewrite Ea, Eb.
      assert (CO : forall x1 D1 D2, tsized n M x1 ->
        (forall c k, owns c -> (k < n)%nat -> tvalue n M x1 c k = tvalue n M x c k + (if (cm_owned M (left_cell M e) && Nat.eqb c (left_cell M e))%bool then a * tcomp k D1 else 0)
            + (if (cm_owned M (right_cell M e) && Nat.eqb c (right_cell M e))%bool then b * tcomp k D2 else 0)) ->
        forall s, ts_interior (sl (fun _ => TReflecting)) vl (iedge_of M e) = Some (tadd D1 CL, tadd D2 CR, s) ->
        exists x', (let* f := bump (cm_owned M (left_cell M e)) x1 (n * cm_l2o M (left_cell M e) + 1) (Some (1/2 * GRAVITY * (dl * dl - hl * hl) * cm_cn M e * a)) in
                    let* f := bump (cm_owned M (left_cell M e)) f (n * cm_l2o M (left_cell M e) + 2) (Some (1/2 * GRAVITY * (dl * dl - hl * hl) * cm_sn M e * a)) in
                    let* f := bump (cm_owned M (right_cell M e)) f (n * cm_l2o M (right_cell M e) + 1) (Some (1/2 * GRAVITY * (dr * dr - hr * hr) * cm_cn M e * b)) in
                    bump (cm_owned M (right_cell M e)) f (n * cm_l2o M (right_cell M e) + 2) (Some (1/2 * GRAVITY * (dr * dr - hr * hr) * cm_sn M e * b))) = Some x' /\ trel n M x' f').
      { intros x1 D1 D2 S1 V1 s Ks.
        destruct (tbump_ok n M TNB (cm_owned M (left_cell M e)) x1 (left_cell M e) 1 (Some (1/2 * GRAVITY * (dl * dl - hl * hl) * cm_cn M e * a)) _ S1 (fun O => owned_in M _ Hl O) (fun _ => eq_refl) ltac:(lia)) as (y1 & Y1 & T1 & U1). rewrite Y1, obind_Some.
        destruct (tbump_ok n M TNB (cm_owned M (left_cell M e)) y1 (left_cell M e) 2 (Some (1/2 * GRAVITY * (dl * dl - hl * hl) * cm_sn M e * a)) _ T1 (fun O => owned_in M _ Hl O) (fun _ => eq_refl) ltac:(lia)) as (y2 & Y2 & T2 & U2). rewrite Y2, obind_Some.
        destruct (tbump_ok n M TNB (cm_owned M (right_cell M e)) y2 (right_cell M e) 1 (Some (1/2 * GRAVITY * (dr * dr - hr * hr) * cm_cn M e * b)) _ T2 (fun O => owned_in M _ Hr O) (fun _ => eq_refl) ltac:(lia)) as (y3 & Y3 & T3 & U3). rewrite Y3, obind_Some.
        destruct (tbump_ok n M TNB (cm_owned M (right_cell M e)) y3 (right_cell M e) 2 (Some (1/2 * GRAVITY * (dr * dr - hr * hr) * cm_sn M e * b)) _ T3 (fun O => owned_in M _ Hr O) (fun _ => eq_refl) ltac:(lia)) as (y4 & Y4 & T4 & U4).
        exists y4. split; [exact Y4|]. eapply (tedge_rel n M A _ x f f' _ _ _ _ HR E Ks); [exact T4|]. intros a' b' Ea' Eb' c k Hc Hk.
        cbn [iedge_of ie_l ie_r ie_len] in Ea', Eb' |- *. rewrite tarea_at in Ea', Eb' by assumption. assert (a' = a) by congruence. assert (b' = b) by congruence. subst a' b'.
        rewrite U4, U3, U2, U1, V1 by assumption. rewrite !tcomp_add. unfold CL, CR. rewrite !tcorr_comp by exact Hk.
        destruct (cm_owned M (left_cell M e)), (cm_owned M (right_cell M e)); cbn [andb]; destruct (Nat.eqb c (left_cell M e)), (Nat.eqb c (right_cell M e)); cbn [andb];
          destruct (Nat.eqb k 1), (Nat.eqb k 2); field. }
      destruct ((tiny <? hl) || (tiny <? hr))%bool.
      + destruct (petsc_tracer_flux kind PL PR (cm_sn M e) (cm_cn M e)) as [[fv am]|] eqn:EF.
        2:{ unfold edge_update in E. rewrite K in E. discriminate E. }
        rewrite obind_Some in K.
        assert (HFe : forall k, (k < n)%nat -> nth_error fl (n * i + k) = Some (Some (tcomp k fv))).
        { intros k Hk. refine (HF i e PL PR fv am Hi _ _ EF k Hk); apply thr_state_ok; assumption. }
        destruct (tbump_flux n M TNB (cm_owned M (left_cell M e)) (left_cell M e) (cm_owned M (right_cell M e)) (right_cell M e) x
          (fun k => scaled fl (n * i + k) (Some a)) (fun k => scaled fl (n * i + k) (Some b))
          (tscal a fv) (tscal b fv) (proj1 HR)) as (x1 & Ex & Sx & Vx).
        * intros O. apply owned_in; assumption.
        * intros O. apply owned_in; assumption.
        * intros k Hk _. apply tscaled_some. exact (HFe k Hk).
        * intros k Hk _. apply tscaled_some. exact (HFe k Hk).
        * rewrite Ex, !obind_Some. apply (CO x1 fv fv Sx) with (s := am); [|exact K].
          intros c k Hc Hk. rewrite (Vx c k Hc Hk), !tcomp_scal. reflexivity.
      + cbn [obind] in K. rewrite !obind_Some. apply (CO x tzero tzero (proj1 HR)) with (s := 0); [|exact K].
        intros c k Hc Hk. rewrite tcomp_zero, !Rmult_0_r. destruct (_ && _)%bool, (_ && _)%bool; ring.
  Qed.
  Lemma thr_interior_ok zc x f f' : w = Hydrostatic file -> (forall c, (c < cm_cells M)%nat -> nth_error zc c = Some (z (gid c))) ->
    trel n M x f -> interior_loop tadd tscal (cm_owned M) A (ts_interior (sl (fun _ => TReflecting)) vl) (map (iedge_of M) (cm_internal M)) f = Some f' ->
    exists x', ApplyTracerInteriorFluxHR cf M zc ul x = Some x' /\ trel n M x' f'.
  Proof.
    intros W Z HR E. unfold ApplyTracerInteriorFluxHR. rewrite ncomp, Nat.eqb_refl. cbv zeta.
    rewrite (omap_map _ (fun e => (thr_left e, thr_right e))) by (intros e He; apply thr_states_ok; assumption).
    rewrite obind_Some, !map_map. cbn [fst snd].
    destruct (tflux_batch kind nt (map thr_left (cm_internal M)) (map thr_right (cm_internal M)) (map (cm_sn M) (cm_internal M)) (map (cm_cn M) (cm_internal M)))
      as (fl & EF & VF); [rewrite !map_length; reflexivity..|].
    change (map (fun x0 : nat => thr_left x0) (cm_internal M)) with (map thr_left (cm_internal M)). change (map (fun x0 : nat => thr_right x0) (cm_internal M)) with (map thr_right (cm_internal M)).
    rewrite EF, obind_Some. rewrite <- pair_edges in E. unfold interior_loop in E.
    refine (tfold_rel n M _ _ (fun ie => iedge_of M (snd ie)) _ x f f' _ HR E).
    intros [i e] x0 f0 f0' Hin HR0 E0. apply combine_seq_In in Hin. cbn [snd] in E0.
    refine (thr_edge_ok zc fl x0 f0 f0' i e W Z _ Hin HR0 E0).
    intros i' e' L Rt F a Hi' HL HRt HFl k Hk.
    exact (VF i' _ _ _ _ L Rt F a (map_nth_error thr_left _ _ Hi') (map_nth_error thr_right _ _ Hi') (map_nth_error (cm_sn M) _ _ Hi') (map_nth_error (cm_cn M) _ _ Hi') HL HRt HFl k Hk).
  Qed.
  End Reconstruction.

  (** *** Boundary edges *)
  Section OneBoundary.
    Context (b : cboundary) (st : tbop) (Hb : In b (cp_bounds p)) (SZ : tbop_sized (cb_edges b) st).
    Local Notation bc i := (tcondition (cb_type b) (block n (cb_values b) i)).
    Definition tleft_states := map (fun e => tvel_state (left_cell M e)) (cb_edges b).
    Definition tedge_data := combine (cb_edges b) (combine (combine tleft_states (tb_right st)) (combine (map (cm_sn M) (cb_edges b)) (map (cm_cn M) (cb_edges b)))).
    Lemma tedge_data_length : length tedge_data = length (cb_edges b).
    Proof. unfold tedge_data, tleft_states. rewrite !combine_length, !map_length, SZ. lia. Qed.
    Lemma tedge_data_get i e : nth_error (cb_edges b) i = Some e -> exists r0, nth_error tedge_data i = Some (e, (tvel_state (left_cell M e), r0, (cm_sn M e, cm_cn M e))).
    Proof.
      intros Hi. assert (L : (i < length (tb_right st))%nat) by (rewrite SZ; apply nth_error_Some; congruence).
      exists (nth i (tb_right st) (tstate0 0)). unfold tedge_data, tleft_states. repeat apply combine_get; try (apply map_nth_error; exact Hi); [exact Hi| |apply nth_error_nth'; exact L].
      apply (map_nth_error (fun e => tvel_state (left_cell M e))). exact Hi.
    Qed.
    Definition tright : option (list tstate) :=
      match cb_type b with
      | DIRICHLET => let* dr := omap (tload n nt (cb_values b)) (seq 0 (length (cb_edges b))) in Some (map (tracer_velocity tiny) dr)
      | REFLECTING => Some (map (treflect_state M) tedge_data)
      | CRITICAL_OUTFLOW => None
      end.
    Lemma tright_ok : exists dr, tright = Some dr /\ length dr = length (cb_edges b) /\
      forall i e L Rt, nth_error (cb_edges b) i = Some e -> cm_owned M (left_cell M e) = true -> petsc_tracer_prim tiny (vl (left_cell M e)) = Some L ->
        match bc i with TDirichlet qR => petsc_tracer_prim tiny qR | TReflecting => Some (petsc_tracer_reflect L (cm_sn M e) (cm_cn M e)) end = Some Rt ->
        exists r, nth_error dr i = Some r /\ tst nt r Rt.
    Proof.
      assert (Ht := ttiny_pos). assert (NC := tp_conditions _ _ _ _ _ _ _ _ PO b Hb). unfold tright. destruct (cb_type b) eqn:TY; [| |contradiction].
      - assert (LV := tp_values _ _ _ _ _ _ _ _ PO b Hb TY). rewrite ncomp in LV.
        rewrite (omap_map _ (fun i => tstate_of nt (tv (block n (cb_values b) i)))).
        2:{ intros i Hi. apply in_seq in Hi. apply tload_ok; [rewrite comps_tv; [reflexivity|apply block_length; nia]|nia]. }
        rewrite obind_Some. eexists. split; [reflexivity|]. rewrite !map_length, seq_length. split; [reflexivity|].
        intros i e L Rt Hi O HL HRt. assert (Li : (i < length (cb_edges b))%nat) by (apply nth_error_Some; congruence). cbn [tcondition] in HRt.
        eexists. split; [rewrite map_map, nth_error_map, nth_error_seq0 by exact Li; reflexivity|]. apply tvel_ok. exact HRt.
      - eexists. split; [reflexivity|]. rewrite !map_length, tedge_data_length. split; [reflexivity|].
        intros i e L Rt Hi O HL HRt. destruct (tedge_data_get i e Hi) as (r0 & G). cbn [tcondition] in HRt. injection HRt as <-. eexists. split; [rewrite !nth_error_map, G; reflexivity|].
        destruct (tvel_ok nt tiny _ L HL) as (P1 & P2). fold (tvel_state (left_cell M e)) in P1, P2.
        unfold treflect_state. rewrite O. split; [|exact P2]. cbn [st_flow petsc_tracer_reflect tp]. unfold rs_prim in P1 |- *. cbn [rs_h rs_u rs_v].
        destruct (rs_h (st_flow (tvel_state (left_cell M e)))) as [h|]; [|discriminate P1]. destruct (rs_u (st_flow (tvel_state (left_cell M e)))) as [uu|]; [|discriminate P1]. destruct (rs_v (st_flow (tvel_state (left_cell M e)))) as [vv|]; [|discriminate P1].
        cbn [obind] in P1 |- *. injection P1 as <-. reflexivity.
    Qed.

    Lemma tone_boundary_ok x f f' : trel n M x f -> ofold (fun f eb => bedge_update tadd tscal (cm_owned M) A (ts_boundary (sl (fun _ => snd eb)) vl) f (fst eb)) (map (tbedge_of nt M b) (positions b)) f = Some f' ->
      exists x' st', ApplyTracerBoundaryFlux cf M b ul st x = Some (x', st') /\ trel n M x' f' /\ tbop_sized (cb_edges b) st' /\ trecords cf u p b st'.
    Proof.
      intros HR E. assert (Ht := ttiny_pos). unfold ApplyTracerBoundaryFlux. rewrite ncomp, Nat.eqb_refl. cbv zeta.
      rewrite (omap_map _ (fun e => tstate_of nt (vl (left_cell M e)))) by (intros e He; apply tload_cell; eapply tboundary_cells; eassumption).
      rewrite obind_Some, map_map.
      change (map (fun x0 => tracer_velocity tiny (tstate_of nt (vl (left_cell M x0)))) (cb_edges b)) with tleft_states.
      fold tedge_data. fold tright.
      destruct tright_ok as (dr & EP & L2 & VP). rewrite EP, obind_Some.
      destruct (tflux_batch kind nt tleft_states dr (map (cm_sn M) (cb_edges b)) (map (cm_cn M) (cb_edges b))) as (fl & EF & VF); [unfold tleft_states; rewrite ?map_length; congruence..|].
      rewrite EF, obind_Some.
      assert (FV : forall i e L Rt F a, nth_error (cb_edges b) i = Some e -> cm_owned M (left_cell M e) = true -> petsc_tracer_prim tiny (vl (left_cell M e)) = Some L ->
        match bc i with TDirichlet qR => petsc_tracer_prim tiny qR | TReflecting => Some (petsc_tracer_reflect L (cm_sn M e) (cm_cn M e)) end = Some Rt ->
        petsc_tracer_flux kind L Rt (cm_sn M e) (cm_cn M e) = Some (F, a) -> forall k, (k < n)%nat -> nth_error fl (n * i + k) = Some (Some (tcomp k F))).
      { intros i e L Rt F a Hi O HL HRt HF k Hk. destruct (VP i e L Rt Hi O HL HRt) as (r & G & Tr).
        refine (VF i _ r _ _ L Rt F a _ G (map_nth_error (cm_sn M) _ _ Hi) (map_nth_error (cm_cn M) _ _ Hi) (tvel_ok nt tiny _ L HL) Tr HF k Hk).
        apply (map_nth_error (fun e => tvel_state (left_cell M e))). exact Hi. }
      assert (ST : forall a x f f', In a (positions b) -> trel n M x f -> bedge_update tadd tscal (cm_owned M) A (ts_boundary (sl (fun _ => snd (tbedge_of nt M b a))) vl) f (fst (tbedge_of nt M b a)) = Some f' ->
        exists x', taccumulate_bedge n tiny M tleft_states dr fl x a = Some x' /\ trel n M x' f').
      { intros [i e] x0 f0 f0' Hin HR0 E0. unfold positions in Hin. apply combine_seq_In in Hin. unfold bedge_update in E0. cbn [tbedge_of be_c be_len be_sn be_cn be_bc fst snd] in E0.
        unfold taccumulate_bedge. destruct (cm_owned M (left_cell M e)) eqn:O; [|injection E0 as <-; exists x0; split; [reflexivity|exact HR0]].
        assert (Hc : (left_cell M e < cm_cells M)%nat) by (eapply tboundary_cells; [exact Hb|eapply nth_error_In; exact Hin]).
        apply obind_some in E0. destruct E0 as ([q s] & K & E0). apply obind_some in E0. destruct E0 as (a & Ea & E0). injection E0 as <-. rewrite tarea_at in Ea by exact Hc.
        assert (K' : petsc_tracer_bedge kind tiny (bc i) (vl (left_cell M e)) (cm_sn M e) (cm_cn M e) = Some (q, s)) by (rewrite <- K; destruct w; reflexivity).
        unfold petsc_tracer_bedge in K'. apply obind_some in K'. destruct K' as (L & HL & K'). apply obind_some in K'. destruct K' as (Rt & HRt & K').
        destruct (VP i e L Rt Hin O HL HRt) as (r & G2 & Tr). assert (TL := tvel_ok nt tiny _ L HL).
        assert (G1 : nth_error tleft_states i = Some (tvel_state (left_cell M e))) by (apply (map_nth_error (fun e => tvel_state (left_cell M e))); exact Hin).
        rewrite G1, G2, !obind_Some. fold (tvel_state (left_cell M e)) in TL. rewrite (prim_depth _ _ (proj1 TL)), (prim_depth _ _ (proj1 Tr)), !obind_Some.
        destruct ((ph (tp L) <? tiny) && (ph (tp Rt) <? tiny))%bool.
        - injection K' as <- <-. exists x0. split; [reflexivity|]. destruct HR0 as (S0 & V0). split; [exact S0|]. intros c k Hc' Hk. rewrite (V0 c k Hc' Hk). unfold add_at.
          destruct (Nat.eqb c _); [|reflexivity]. rewrite tcomp_add, tcomp_scal. cbn [fst]. rewrite tcomp_zero. ring.
        - rewrite Ea. destruct (tbump_flux n M TNB true (left_cell M e) false 0%nat x0 (fun k => scaled fl (n * i + k) (Some a)) (fun _ => None) (tscal a q) tzero (proj1 HR0)) as (x' & Ex & Sx & Vx).
          + intros _. apply owned_in; assumption.
          + discriminate.
          + intros k Hk _. apply tscaled_some. exact (FV i e L Rt q s Hin O HL HRt K' k Hk).
          + discriminate.
          + exists x'. split.
            * rewrite <- Ex. apply ofold_same. intros f1 k. unfold bump at 3. symmetry. apply obind_id.
            * destruct HR0 as (S0 & V0). split; [exact Sx|]. intros c k Hc' Hk. rewrite (Vx c k Hc' Hk), (V0 c k Hc' Hk). unfold add_at. cbn [andb fst]. rewrite tcomp_scal.
              destruct (Nat.eqb c _); [rewrite tcomp_add, tcomp_scal; ring|ring]. }
      destruct (tfold_rel n M (taccumulate_bedge n tiny M tleft_states dr fl) _ (tbedge_of nt M b) (positions b) x f f' ST HR E) as (x' & Ex & HR').
      fold (positions b). rewrite Ex, obind_Some. do 2 eexists. split; [reflexivity|]. split; [exact HR'|]. split; [exact L2|].
      intros i e q Hi O RQ k Hk. unfold tracer_recorded in RQ. apply obind_some in RQ. destruct RQ as (L & HL & RQ). apply obind_some in RQ. destruct RQ as (Rt & HRt & RQ). apply obind_some in RQ. destruct RQ as ([q' s] & RF & RQ). injection RQ as <-.
      cbn [tb_fluxes fst]. rewrite comps_nth by exact Hk. exact (FV i e L Rt q' s Hi O HL HRt RF k Hk).
    Qed.
  End OneBoundary.

  Lemma tboundaries_ok : forall bs sts x f f' acc, incl bs (cp_bounds p) -> Forall2 tbop_sized (map cb_edges bs) sts -> trel n M x f ->
    ofold (fun f eb => bedge_update tadd tscal (cm_owned M) A (ts_boundary (sl (fun _ => snd eb)) vl) f (fst eb)) (flat_map (fun b => map (tbedge_of nt M b) (positions b)) bs) f = Some f' ->
    exists x' sts', ofold (fun x bst => let* r := ApplyTracerBoundaryFlux cf M (fst bst) ul (snd bst) (fst x) in Some (fst r, snd x ++ [snd r])%list) (combine bs sts) (x, acc) = Some (x', acc ++ sts')%list /\
      trel n M x' f' /\ Forall2 tbop_sized (map cb_edges bs) sts' /\ Forall2 (trecords cf u p) bs sts'.
  Proof.
    induction bs as [|b bs IH]; intros sts x f f' acc I SZ HR E; cbn [map flat_map] in *.
    - inversion SZ; subst. injection E as <-. exists x, []. cbn [combine ofold]. rewrite app_nil_r. repeat split; [apply HR..|constructor|constructor].
    - inversion SZ as [|? st ? sts0 S0 S1]; subst. rewrite ofold_app in E. apply obind_some in E. destruct E as (f1 & E1 & E2).
      destruct (tone_boundary_ok b st (I b (or_introl eq_refl)) S0 x f f1 HR E1) as (x1 & st1 & X1 & HR1 & Z1 & RC1).
      destruct (IH sts0 x1 f1 f' (acc ++ [st1])%list (fun y Hy => I y (or_intror Hy)) S1 HR1 E2) as (x2 & sts2 & X2 & HR2 & Z2 & RC2).
      exists x2, (st1 :: sts2). cbn [combine ofold fst snd]. rewrite X1, obind_Some. cbn [fst snd]. rewrite obind_Some, X2, <- app_assoc.
      split; [reflexivity|]. split; [exact HR2|]. split; constructor; assumption.
  Qed.

  (** *** Sources *)
  Lemma tbump3 x c (a0 a1 a2 : R) : tsized n M x -> owns c ->
    exists x1 x2 x', bump true x (n * cm_l2o M c + 0) (Some a0) = Some x1 /\ bump true x1 (n * cm_l2o M c + 1) (Some a1) = Some x2 /\ bump true x2 (n * cm_l2o M c + 2) (Some a2) = Some x' /\ tsized n M x' /\
      forall c' k, owns c' -> (k < n)%nat -> tvalue n M x' c' k = tvalue n M x c' k + (if Nat.eqb c' c then tcomp k (TV (V3 a0 a1 a2) (fun _ => 0)) else 0).
  Proof.
    intros S Hc. destruct (tbump_ok n M TNB true x c 0 (Some a0) a0 S (fun _ => Hc) (fun _ => eq_refl) ltac:(lia)) as (x1 & E1 & S1 & V1).
    destruct (tbump_ok n M TNB true x1 c 1 (Some a1) a1 S1 (fun _ => Hc) (fun _ => eq_refl) ltac:(lia)) as (x2 & E2 & S2 & V2).
    destruct (tbump_ok n M TNB true x2 c 2 (Some a2) a2 S2 (fun _ => Hc) (fun _ => eq_refl) ltac:(lia)) as (x3 & E3 & S3 & V3). exists x1, x2, x3. split; [exact E1|]. split; [exact E2|]. split; [exact E3|]. split; [exact S3|].
    intros c' k Hc' Hk. rewrite V3, V2, V1 by assumption. cbn [andb]. destruct (Nat.eqb c' c); cbn [andb]; [|ring]. destruct k as [|[|[|k]]]; cbn [Nat.eqb tcomp tflow ttr c0 c1 c2]; ring.
  Qed.
  Lemma tbumps x c (a : nat -> R) : tsized n M x -> owns c ->
    exists x', ofold (fun f s => bump true f (n * cm_l2o M c + 3 + s) (Some (a s))) (seq 0 nt) x = Some x' /\ tsized n M x' /\
      forall c' k, owns c' -> (k < n)%nat -> tvalue n M x' c' k = tvalue n M x c' k + (if Nat.eqb c' c then tcomp k (TV (V3 0 0 0) a) else 0).
  Proof.
    intros Sx0 Hc. destruct (tbump_list n M TNB true c false 0%nat (fun i => Some (a (i - 3)%nat)) (fun _ => None) (fun i => a (i - 3)%nat) (fun _ => 0) (fun _ => Hc) (fun O => match Bool.diff_false_true O with end)
      (map (fun s => (3 + s)%nat) (seq 0 nt)) x Sx0 (shifted_NoDup 3 nt)) as (x' & E & S' & V).
    { intros i Hi. apply in_map_iff in Hi. destruct Hi as (s & <- & Hs). apply in_seq in Hs. split; [lia|]. split; [reflexivity|discriminate]. }
    exists x'. split; [|split; [exact S'|]].
    - rewrite <- E. rewrite <- (ofold_shift (fun f i => let* f0 := bump true f (n * cm_l2o M c + i) (Some (a (i - 3)%nat)) in bump false f0 (n * cm_l2o M 0 + i) None) 3). apply ofold_ext_in. intros f s _.
      replace (3 + s - 3)%nat with s by lia. rewrite Nat.add_assoc. unfold bump at 3. symmetry. apply obind_id.
    - intros c' k Hc' Hk. rewrite (V c' k Hc' Hk). cbn [andb]. rewrite existsb_shifted by exact Hk. destruct (Nat.eqb c' c); cbn [andb]; [|ring].
      destruct k as [|[|[|k]]]; cbn [Nat.leb tcomp tflow ttr c0 c1 c2]; [ring..|]. replace (S (S (S k)) - 3)%nat with k by lia. ring.
  Qed.
  Lemma tput3 x c (a0 a1 a2 : R) : tsized n M x -> owns c ->
    exists x1 x2 x', put x (n * cm_l2o M c + 0) (Some a0) = Some x1 /\ put x1 (n * cm_l2o M c + 1) (Some a1) = Some x2 /\ put x2 (n * cm_l2o M c + 2) (Some a2) = Some x' /\ tsized n M x' /\
      forall c' k, owns c' -> (k < n)%nat -> tvalue n M x' c' k = if (Nat.eqb c' c && Nat.ltb k 3)%bool then tcomp k (TV (V3 a0 a1 a2) (fun _ => 0)) else tvalue n M x c' k.
  Proof.
    intros S Hc. destruct (tput_ok n M TNB x c 0 a0 S Hc ltac:(lia)) as (x1 & E1 & S1 & V1).
    destruct (tput_ok n M TNB x1 c 1 a1 S1 Hc ltac:(lia)) as (x2 & E2 & S2 & V2).
    destruct (tput_ok n M TNB x2 c 2 a2 S2 Hc ltac:(lia)) as (x3 & E3 & S3 & V3). exists x1, x2, x3. split; [exact E1|]. split; [exact E2|]. split; [exact E3|]. split; [exact S3|].
    intros c' k Hc' Hk. rewrite V3, V2, V1 by assumption. destruct (Nat.eqb c' c); cbn [andb]; [|reflexivity]. destruct k as [|[|[|k]]]; cbn [Nat.eqb tcomp tflow ttr c0 c1 c2]; reflexivity.
  Qed.
  Lemma tputs c (a : nat -> R) : owns c -> forall l x, tsized n M x -> NoDup l -> (forall s, In s l -> (s < nt)%nat) ->
    exists x', ofold (fun f s => put f (n * cm_l2o M c + 3 + s) (Some (a s))) l x = Some x' /\ tsized n M x' /\
      forall c' k, owns c' -> (k < n)%nat -> tvalue n M x' c' k = if (Nat.eqb c' c && existsb (fun s => Nat.eqb k (3 + s)) l)%bool then a (k - 3)%nat else tvalue n M x c' k.
  Proof.
    intros Hc. induction l as [|s l IH]; intros x S ND B; cbn [ofold existsb].
    - exists x. split; [reflexivity|]. split; [exact S|]. intros. rewrite Bool.andb_false_r. reflexivity.
    - apply NoDup_cons_iff in ND. destruct ND as (Ns & ND). assert (Hs := B s (or_introl eq_refl)). destruct (tput_ok n M TNB x c (3 + s) (a s) S Hc ltac:(lia)) as (x1 & E1 & S1 & V1).
      rewrite <- Nat.add_assoc, E1, obind_Some. destruct (IH x1 S1 ND (fun t Ht => B t (or_intror Ht))) as (x2 & E2 & S2 & V2). exists x2. split; [exact E2|]. split; [exact S2|].
      intros c' k Hc' Hk. rewrite (V2 c' k Hc' Hk), (V1 c' k Hc' Hk). destruct (Nat.eqb c' c); cbn [andb]; [|reflexivity].
      destruct (existsb (fun s0 => Nat.eqb k (3 + s0)) l) eqn:X; [rewrite Bool.orb_true_r; reflexivity|]. rewrite Bool.orb_false_r. destruct (Nat.eqb_spec k (3 + s)) as [->|]; [|reflexivity]. f_equal. lia.
  Qed.

  Context (dt : R).
  Definition tprims (q : tvec) : tvec :=
    let P := pvel tiny (cf_h_anuga cf) (tflow q) in TV (V3 (ph P) (pu P) (pv P)) (fun j => if tiny <=? depth q then ttr q j / depth q else 0).
  Lemma tprims_parts q : ph (pvel tiny (cf_h_anuga cf) (tflow q)) = c0 (tflow q) /\
    (if tiny <=? c0 (tflow q) then rdiv (c1 (tflow q) * c0 (tflow q)) (c0 (tflow q) * c0 (tflow q) + cf_h_anuga cf * cf_h_anuga cf) else Some 0) = Some (pu (pvel tiny (cf_h_anuga cf) (tflow q))) /\
    (if tiny <=? c0 (tflow q) then rdiv (c2 (tflow q) * c0 (tflow q)) (c0 (tflow q) * c0 (tflow q) + cf_h_anuga cf * cf_h_anuga cf) else Some 0) = Some (pv (pvel tiny (cf_h_anuga cf) (tflow q))) /\
    forall j, (if tiny <=? c0 (tflow q) then rdiv (ttr q j) (c0 (tflow q)) else Some 0) = Some (ttr (tprims q) j).
  Proof.
    assert (Ht := ttiny_pos). unfold tprims, pvel, depth. destruct (c0 (tflow q) <? tiny) eqn:E.
    - apply Rltb_true in E. replace (tiny <=? c0 (tflow q)) with false by (symmetry; apply Rleb_false; lra). cbn. auto.
    - apply Rltb_false in E. replace (tiny <=? c0 (tflow q)) with true by (symmetry; apply Rleb_true; lra). rewrite !rdiv_some by (apply denom_nz; lra). cbn. split; [auto|]. split; [auto|]. split; [auto|]. intros j. rewrite rdiv_some by lra. reflexivity.
  Qed.
  Local Notation rhs := (ts_source (sl (fun _ => TReflecting)) dt vl (tr_local rk src)).
  Lemma tsource_at c F F' : owns c -> rhs c F = Some F' ->
    petsc_tracer_rhs (includes_slope w) dt tiny (manning g (gid c)) (cm_dzdx M c) (cm_dzdy M c) (vl c) F (src (gid c)) = Some F'.
  Proof.
    intros Hc E. destruct (owned_range _ _ Hc) as (Rc & _).
    assert (HW : w = Standard \/ exists b, w = Hydrostatic b) by (destruct w; eauto).
    destruct HW as [W|(b & W)]; rewrite W in E |- *.
    - destruct (tp_slope _ _ _ _ _ _ _ _ PO W c Rc) as (D1 & D2). rewrite D1, D2. exact E.
    - rewrite <- E. unfold tr_local. reflexivity.
  Qed.
  (* what is added to a cell *)
  Lemma tsource_parts bed c F F' zx zy nm q s : petsc_tracer_rhs bed dt tiny nm zx zy q F s = Some F' ->
    exists tbx tby ts, (forall k, tcomp k F' = tcomp k F + tcomp k (TV (V3 (c0 (tflow s)) (- bed_force bed GRAVITY zx (c0 (tflow q)) - tbx + c1 (tflow s)) (- bed_force bed GRAVITY zy (c0 (tflow q)) - tby + c2 (tflow s))) ts)) /\
      forall x, tsized n M x -> owns c -> nth_error (cp_mat p) c = Some nm ->
        (forall j, (j < nt)%nat -> nth_error ul (n * c + 3 + j) = Some (ttr q j)) -> (forall j, (j < nt)%nat -> nth_error (cp_ext p) (n * cm_l2o M c + 3 + j) = Some (ttr s j)) ->
        exists x', (if tiny <=? c0 (tflow q) then
            let* u_ := rdiv (c1 (tflow q)) (c0 (tflow q)) in
            let* v_ := rdiv (c2 (tflow q)) (c0 (tflow q)) in
            let* N_mannings := nth_error (cp_mat p) c in
            let* hp := rpowneg (c0 (tflow q)) (- (1/3)) in
            let Cd := GRAVITY * (N_mannings * N_mannings) * hp in
            let* velocity := rsqrt (u_ * u_ + v_ * v_) in
            let* tb := rdiv (Cd * velocity) (c0 (tflow q)) in
            let* factor := rdiv tb (1 + dt * tb) in
            let tbx := (c1 (tflow q) + dt * c1 (tflow F) - dt * bed_force bed GRAVITY zx (c0 (tflow q))) * factor in
            let tby := (c2 (tflow q) + dt * c2 (tflow F) - dt * bed_force bed GRAVITY zy (c0 (tflow q))) * factor in
            let tau_b := tau_bed Cd u_ v_ in
            let* f := ofold (fun f s =>
              let* hc := nth_error ul (n * c + 3 + s) in
              let* ci := rdiv hc (c0 (tflow q)) in
              let* src := nth_error (cp_ext p) (n * cm_l2o M c + 3 + s) in
              bump true f (n * cm_l2o M c + 3 + s) (Some (erosion tau_b - deposition tau_b ci + src))) (seq 0 nt) x in
            Some (f, tbx, tby)
          else Some (x, 0, 0)) = Some (x', tbx, tby) /\ tsized n M x' /\
          forall c' k, owns c' -> (k < n)%nat -> tvalue n M x' c' k = tvalue n M x c' k + (if Nat.eqb c' c then tcomp k (TV (V3 0 0 0) ts) else 0).
  Proof.
    assert (Ht := ttiny_pos). unfold petsc_tracer_rhs, petsc_rhs, petsc_source, depth. cbv zeta. intros E. destruct (tiny <=? c0 (tflow q)) eqn:D.
    - apply Rleb_true in D. unfold petsc_semi_implicit in E. cbv zeta in E.
      apply obind_some in E. destruct E as (flow & E1 & E). apply obind_some in E1. destruct E1 as (sv & E1 & X). injection X as <-. apply obind_some in E1. destruct E1 as ([tbx tby] & E1 & X). injection X as <-.
      apply obind_some in E1. destruct E1 as (u_ & Eu & E1). apply obind_some in E1. destruct E1 as (v_ & Ev & E1). apply obind_some in E1. destruct E1 as (hp & Ep & E1). apply obind_some in E1. destruct E1 as (ve & Ee & E1). apply obind_some in E1. destruct E1 as (tb & Et & E1). apply obind_some in E1. destruct E1 as (fa & Ef & E1).
      injection E1 as <- <-. rewrite Eu, Ev, Ep, !obind_Some in E. apply obind_some in E. destruct E as (ci & Ec & E). injection E as <-. destruct (rdivs_inv _ _ _ Ec) as (Nz & Vc).
      set (tau := tau_bed (GRAVITY * (nm * nm) * hp) u_ v_).
      do 2 eexists. exists (fun j => erosion tau - deposition tau (ci j) + ttr s j). split.
      + intros k. destruct k as [|[|[|k]]]; cbn [tcomp tflow ttr c0 c1 c2 vadd]; reflexivity.
      + intros x Sx Hc Hm Hu Hs. rewrite Eu, Ev, Hm, !obind_Some. rewrite Ep, obind_Some, Ee, obind_Some, Et, obind_Some, Ef, obind_Some.
        destruct (tbumps x c (fun j => erosion tau - deposition tau (ci j) + ttr s j) Sx Hc) as (x' & Ex & Sx' & Vx'). exists x'. split; [|split; [exact Sx'|exact Vx']].
        rewrite (ofold_ext_in _ (fun f s0 => bump true f (n * cm_l2o M c + 3 + s0) (Some (erosion tau - deposition tau (ci s0) + ttr s s0)))).
        * rewrite Ex, obind_Some. reflexivity.
        * intros f j Hj. apply in_seq in Hj. rewrite Hu, Hs by lia. rewrite obind_Some, rdiv_some, !obind_Some by exact Nz. rewrite Vc. reflexivity.
    - apply obind_some in E. destruct E as (flow & E1 & E). rewrite obind_Some in E1. cbn [obind] in E1. injection E1 as <-. injection E as <-. exists 0, 0, (fun _ => 0). split.
      + intros k. destruct k as [|[|[|k]]]; cbn [tcomp tflow ttr c0 c1 c2 vadd]; ring.
      + intros x Sx _ _ _ _. exists x. split; [reflexivity|]. split; [exact Sx|]. intros c' k _ _. destruct (Nat.eqb c' c); [|ring]. destruct k as [|[|[|k]]]; cbn [tcomp tflow ttr c0 c1 c2]; ring.
  Qed.

  Lemma tsource_step fdiv f f' x pvs c : trel n M fdiv f -> owns c -> rhs c (f c) = Some (f' c) -> tsized n M x -> tsized n M pvs -> (forall k, (k < n)%nat -> tvalue n M x c k = tcomp k (f c)) ->
    exists x' pvs', tsource_cell (includes_slope w) cf M (cp_ext p) (cp_mat p) fdiv dt ul (x, pvs) c = Some (x', pvs') /\ tsized n M x' /\ tsized n M pvs' /\
      (forall c' k, owns c' -> (k < n)%nat -> tvalue n M x' c' k = if Nat.eqb c' c then tcomp k (f' c) else tvalue n M x c' k) /\
      (forall c' k, owns c' -> (k < n)%nat -> tvalue n M pvs' c' k = if (includes_slope w && Nat.eqb c' c)%bool then tcomp k (tprims (vl c)) else tvalue n M pvs c' k).
  Proof.
    intros (Sd & Vd) Hc E Sx Sp Vx. destruct (owned_range _ _ Hc) as (Rc & Oc). assert (B := slot_bound M TNB c Hc). assert (SL := owned_slot M TNB c Hc).
    assert (OF := owned_first M (tp_order _ _ _ _ _ _ _ _ PO) TNB c Hc).
    unfold tsource_cell. rewrite Oc, ncomp. cbv zeta. rewrite !tcell_entry by (assumption || lia). rewrite !obind_Some. cbn [tcomp].
    assert (D : forall k, (k < n)%nat -> nth_error fdiv (n * cm_l2o M c + k) = Some (tcomp k (f c))).
    { intros k Hk. rewrite (nth_error_nth' fdiv 0) by (apply (slot_fits n M TNB fdiv c k Sd Hc Hk)). apply f_equal. exact (Vd c k Hc Hk). }
    rewrite !D by lia. rewrite !obind_Some. cbn [tcomp].
    assert (X : forall k, (k < n)%nat -> nth_error (cp_ext p) (n * cm_l2o M c + k) = Some (tcomp k (src (gid c)))).
    { intros k Hk. apply block_entry; [apply (tp_ext _ _ _ _ _ _ _ _ PO); exact SL|exact Hk|]. rewrite (tp_ext_length _ _ _ _ _ _ _ _ PO). nia. }
    assert (MT : nth_error (cp_mat p) c = Some (manning g (gid c))).
    { rewrite OF in SL, B. rewrite (nth_error_nth' _ 0) by (rewrite (tp_mat_length _ _ _ _ _ _ _ _ PO); exact B). apply f_equal. apply (tp_mat _ _ _ _ _ _ _ _ PO). exact SL. }
    destruct (tsource_parts _ c _ _ _ _ _ _ _ (tsource_at c (f c) (f' c) Hc E)) as (tbx & tby & ts & VF & RUN).
    destruct (RUN x Sx Hc MT) as (y & EY & SY & VY).
    { intros j Hj. rewrite <- Nat.add_assoc, tcell_entry by (assumption || lia). reflexivity. }
    { intros j Hj. rewrite <- Nat.add_assoc, X by lia. reflexivity. }
    clear RUN. unfold bed_force in EY, VF. cbv zeta in EY. rewrite EY, obind_Some. clear EY.
    rewrite !X by lia. rewrite !obind_Some. cbn [tcomp].
    match goal with |- context[bump true y _ (Some ?a0)] => set (A0 := a0) end.
    destruct (tbump3 y c (c0 (tflow (src (gid c)))) (- (if includes_slope w then cm_dzdx M c * GRAVITY * c0 (tflow (vl c)) else 0) - tbx + c1 (tflow (src (gid c))))
       (- (if includes_slope w then cm_dzdy M c * GRAVITY * c0 (tflow (vl c)) else 0) - tby + c2 (tflow (src (gid c)))) SY Hc) as (y1 & y2 & y3 & Y1 & Y2 & Y3 & S3 & V3). subst A0.
    rewrite Y1, obind_Some, Y2, obind_Some, Y3, obind_Some.
    assert (VX : forall c' k, owns c' -> (k < n)%nat -> tvalue n M y3 c' k = if Nat.eqb c' c then tcomp k (f' c) else tvalue n M x c' k).
    { intros c' k Hc' Hk. rewrite (V3 c' k Hc' Hk), (VY c' k Hc' Hk). destruct (Nat.eqb_spec c' c) as [->|]; [|ring]. rewrite (Vx k Hk), VF. destruct k as [|[|[|k]]]; cbn [tcomp tflow ttr c0 c1 c2]; ring. }
    destruct (includes_slope w).
    - destruct (tprims_parts (vl c)) as (P0 & P1 & P2 & P3). rewrite P1, P2.
      destruct (tput3 pvs c (c0 (tflow (vl c))) (pu (pvel tiny (cf_h_anuga cf) (tflow (vl c)))) (pv (pvel tiny (cf_h_anuga cf) (tflow (vl c)))) Sp Hc) as (z1 & z2 & z3 & Z1 & Z2 & Z3 & T3 & W3).
      rewrite Z1, obind_Some, Z2, obind_Some, Z3, obind_Some.
      destruct (tputs c (ttr (tprims (vl c))) Hc (seq 0 nt) z3 T3 (seq_NoDup _ _)) as (z4 & Z4 & T4 & W4); [intros s Hs; apply in_seq in Hs; lia|].
      rewrite (ofold_ext_in _ (fun f s => put f (n * cm_l2o M c + 3 + s) (Some (ttr (tprims (vl c)) s)))).
      + rewrite Z4, obind_Some. do 2 eexists. split; [reflexivity|]. split; [exact S3|]. split; [exact T4|]. split; [exact VX|].
        intros c' k Hc' Hk. rewrite (W4 c' k Hc' Hk), (W3 c' k Hc' Hk). cbn [andb]. destruct (Nat.eqb c' c); cbn [andb]; [|reflexivity].
        assert (EX : existsb (fun s => Nat.eqb k (3 + s)) (seq 0 nt) = Nat.leb 3 k).
        { rewrite <- (existsb_shifted k nt Hk). generalize (seq 0 nt). induction l as [|a l IH]; [reflexivity|]. cbn [existsb map]. rewrite IH. reflexivity. }
        rewrite EX. destruct k as [|[|[|k]]]; cbn [Nat.leb Nat.ltb tcomp tprims tflow ttr c0 c1 c2]; [exact (eq_sym P0)|reflexivity|reflexivity|]. replace (S (S (S k)) - 3)%nat with k by lia. reflexivity.
      + intros f1 s Hs. apply in_seq in Hs. rewrite <- Nat.add_assoc, tcell_entry, obind_Some by (assumption || lia). cbn [Nat.add tcomp]. rewrite P3. reflexivity.
    - do 2 eexists. split; [reflexivity|]. split; [exact S3|]. split; [exact Sp|]. split; [exact VX|]. reflexivity.
  Qed.

  Lemma tsource_fold fdiv f f' : trel n M fdiv f -> (forall c, owns c -> rhs c (f c) = Some (f' c)) -> forall l x pvs,
    NoDup l -> (forall c, In c l -> (c < cm_cells M)%nat) -> tsized n M x -> tsized n M pvs -> (forall c k, In c l -> owns c -> (k < n)%nat -> tvalue n M x c k = tcomp k (f c)) ->
    exists x' pvs', ofold (tsource_cell (includes_slope w) cf M (cp_ext p) (cp_mat p) fdiv dt ul) l (x, pvs) = Some (x', pvs') /\ tsized n M x' /\ tsized n M pvs' /\
      forall c k, owns c -> (k < n)%nat ->
        (In c l -> tvalue n M x' c k = tcomp k (f' c) /\ tvalue n M pvs' c k = if includes_slope w then tcomp k (tprims (vl c)) else tvalue n M pvs c k) /\
        (~ In c l -> tvalue n M x' c k = tvalue n M x c k /\ tvalue n M pvs' c k = tvalue n M pvs c k).
  Proof.
    intros HR HF. induction l as [|a l IH]; intros x pvs ND B Sx Sp V; cbn [ofold].
    - exists x, pvs. split; [reflexivity|]. split; [exact Sx|]. split; [exact Sp|]. intros c k Hc Hk. split; [intros []|auto].
    - apply NoDup_cons_iff in ND. destruct ND as (Na & ND).
      destruct (cm_owned M a) eqn:O.
      + assert (Ha : owns a) by (apply owned_in; [apply B; left; reflexivity|exact O]).
        destruct (tsource_step fdiv f f' x pvs a HR Ha (HF a Ha) Sx Sp (fun k Hk => V a k (or_introl eq_refl) Ha Hk)) as (x1 & p1 & E1 & S1 & T1 & V1 & W1). rewrite E1, obind_Some.
        destruct (IH x1 p1 ND (fun c Hc => B c (or_intror Hc)) S1 T1) as (x2 & p2 & E2 & S2 & T2 & VW).
        { intros c k Hc Ho Hk. rewrite (V1 c k Ho Hk). destruct (Nat.eqb_spec c a) as [->|]; [contradiction|]. apply V; [right; exact Hc|exact Ho|exact Hk]. }
        exists x2, p2. split; [exact E2|]. split; [exact S2|]. split; [exact T2|]. intros c k Hc Hk. destruct (VW c k Hc Hk) as (Y & N). split.
        * intros [<-|Hl].
          -- destruct (N Na) as (-> & ->). rewrite (V1 a k Hc Hk), (W1 a k Hc Hk), Nat.eqb_refl, Bool.andb_true_r. auto.
          -- destruct (Y Hl) as (Y1 & Y2). split; [exact Y1|]. rewrite Y2. destruct (includes_slope w) eqn:EW; [reflexivity|]. rewrite (W1 c k Hc Hk). reflexivity.
        * intros Hn. destruct (N (fun Hl => Hn (or_intror Hl))) as (-> & ->). rewrite (V1 c k Hc Hk), (W1 c k Hc Hk). destruct (Nat.eqb_spec c a) as [->|]; [contradiction Hn; left; reflexivity|]. rewrite Bool.andb_false_r. auto.
      + unfold tsource_cell at 1. rewrite O, obind_Some. destruct (IH x pvs ND (fun c Hc => B c (or_intror Hc)) Sx Sp (fun c k Hc => V c k (or_intror Hc))) as (x2 & p2 & E2 & S2 & T2 & VW).
        exists x2, p2. split; [exact E2|]. split; [exact S2|]. split; [exact T2|]. intros c k Hc Hk. destruct (VW c k Hc Hk) as (Y & N). split.
        * intros [<-|Hl]; [|exact (Y Hl)]. apply owned_range in Hc. destruct Hc. congruence.
        * intros Hn. apply N. intros Hl. apply Hn. right. exact Hl.
  Qed.

  (** *** The operator on one process *)
  Lemma tracer_operator_ok pv0 sts fl : tsized n M pv0 -> Forall2 tbop_sized (map cb_edges (cp_bounds p)) sts ->
    trank_rhs sl rk (area m) dt src u = Some fl ->
    exists x pvs sts', ApplyPetscTracerOperator w cf dt p ul pv0 sts = Some (x, pvs, sts') /\ tsized n M x /\ (forall c k, owns c -> (k < n)%nat -> tvalue n M x c k = tcomp k (fl c)) /\
      tsized n M pvs /\ (forall c k, owns c -> (k < n)%nat -> tvalue n M pvs c k = if includes_slope w then tcomp k (tprims (u (gid c))) else tvalue n M pv0 c k) /\
      Forall2 tbop_sized (map cb_edges (cp_bounds p)) sts' /\ Forall2 (trecords cf u p) (cp_bounds p) sts'.
  Proof.
    intros SP SZ E. unfold trank_rhs in E. cbv zeta in E. cbn [trank_of tr_owned tr_iedges tr_bedges tr_cells] in E. apply obind_some in E. destruct E as (f1 & E1 & E). apply obind_some in E. destruct E as (f2 & E2 & E3).
    fold (owned_cells M) in E3.
    assert (F : exists x2 sts', ptracer_flux w cf p ul sts (repeat 0 (n * length (owned_cells M))) = Some (x2, sts') /\ trel n M x2 f2 /\ Forall2 tbop_sized (map cb_edges (cp_bounds p)) sts' /\
      Forall2 (trecords cf u p) (cp_bounds p) sts').
    { unfold ptracer_flux.
      assert (HI : exists x1, match w with Standard => ApplyTracerInteriorFlux cf M ul (repeat 0 (n * length (owned_cells M))) | Hydrostatic _ => let* zc := cell_beds false (cp_hmesh p) in ApplyTracerInteriorFluxHR cf M zc ul (repeat 0 (n * length (owned_cells M))) end = Some x1 /\ trel n M x1 f1).
      { assert (HW : w = Standard \/ exists b, w = Hydrostatic b) by (destruct w; eauto). destruct HW as [W|(b & W)].
        - destruct (tinterior_ok _ _ _ W (trel_zero n M) E1) as (x1 & X1 & HR1). exists x1. rewrite W. auto.
        - destruct (tbeds_ok b W) as (zc & Z1 & Z2). destruct (thr_interior_ok b zc _ _ _ W Z2 (trel_zero n M) E1) as (x1 & X1 & HR1). exists x1. rewrite W, Z1, obind_Some. auto. }
      destruct HI as (x1 & X1 & HR1). rewrite X1, obind_Some. unfold tapply_boundaries.
      destruct (tboundaries_ok (cp_bounds p) sts x1 f1 f2 [] (incl_refl _) SZ HR1 E2) as (x2 & sts' & X2 & HR2 & Z2 & RC2). exists x2, sts'. cbn [app] in X2. auto. }
    destruct F as (x2 & sts' & X2 & HR2 & Z2 & RC2). unfold ApplyPetscTracerOperator. rewrite ncomp. cbv zeta. rewrite X2, obind_Some. cbn [fst snd].
    unfold ApplyTracerSource. rewrite (proj1 (proj2 (proj2 (proj2 C)))).
    assert (HF : forall c, owns c -> rhs c (f2 c) = Some (fl c)).
    { intros c Hc. refine (source_loop_val _ _ _ _ _ E3 c Hc). unfold owned_cells. apply NoDup_filter, seq_NoDup. }
    destruct (tsource_fold x2 f2 fl HR2 HF (seq 0 (cm_cells M)) x2 pv0) as (x3 & pvs & X3 & S3 & T3 & V3).
    - apply seq_NoDup.
    - intros c Hc. apply in_seq in Hc. lia.
    - exact (proj1 HR2).
    - exact SP.
    - intros c k _ Hc Hk. exact (proj2 HR2 c k Hc Hk).
    - rewrite X3, obind_Some. cbn [fst snd]. exists x3, pvs, sts'. split; [reflexivity|]. split; [exact S3|].
      assert (I : forall c, owns c -> In c (seq 0 (cm_cells M))) by (intros c Hc; apply owned_range in Hc; apply in_seq; lia).
      split; [intros c k Hc Hk; apply (proj1 (V3 c k Hc Hk) (I c Hc))|]. split; [exact T3|]. split; [intros c k Hc Hk; apply (proj1 (V3 c k Hc Hk) (I c Hc))|]. auto.
  Qed.
End Process.
