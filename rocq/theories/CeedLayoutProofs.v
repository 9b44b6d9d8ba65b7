(** Lemmas about the flat arrays of the libCEED back end. *)
From Coq Require Import String.
From Verif Require Import Base RoeModel EdgeModel EtaModel SourceModel TracerModel CeedLayoutModel CeedLayoutSpec MeshMapsProofs AMRProofs.
Local Open Scope R_scope.
Local Notation length := List.length.

(** ** Blocks *)
Lemma nth_error_nth0 (x : list R) i v : nth_error x i = Some v -> nth i x 0 = v.
Proof. intros H. erewrite nth_error_nth; [reflexivity|exact H]. Qed.
Lemma nth_error_in_range (x : list R) i : (i < length x)%nat -> nth_error x i = Some (nth i x 0).
Proof. intros H. apply nth_error_nth'. exact H. Qed.

Lemma fetch_slice n : forall x off, (off + n <= length x)%nat -> fetch x off n = Some (firstn n (skipn off x)).
Proof.
  unfold fetch. intros x off H.
  assert (G : forall k m, (m + k <= n)%nat -> omap (fun j => nth_error x (off + j)) (seq m k) = Some (firstn k (skipn (off + m) x))).
  { induction k as [|k IH]; intros m Hm; cbn [seq omap]; [reflexivity|].
    rewrite (nth_error_in_range x (off + m)) by lia. rewrite obind_Some, (IH (S m)) by lia. rewrite obind_Some. f_equal.
    assert (E : skipn (off + m) x = nth (off + m) x 0 :: skipn (off + S m) x).
    { replace (off + S m)%nat with (S (off + m)) by lia. generalize (off + m)%nat (ltac:(lia) : (off + m < length x)%nat). clear. intros i. revert x.
      induction i as [|i IH]; intros [|a x] Hi; cbn in Hi; try lia; [reflexivity|]. cbn [skipn nth]. apply IH. lia. }
    rewrite E. reflexivity. }
  rewrite (G n 0%nat) by lia. rewrite Nat.add_0_r. reflexivity.
Qed.
Lemma fetch_block n x i : ((i + 1) * n <= length x)%nat -> fetch x (i * n) n = Some (block n x i).
Proof. intros H. apply fetch_slice. nia. Qed.
Lemma block_length n x i : ((i + 1) * n <= length x)%nat -> length (block n x i) = n.
Proof. intros H. unfold block. rewrite firstn_length, skipn_length. nia. Qed.
Lemma nth_skipn_R i : forall (x : list R) k, nth k (skipn i x) 0 = nth (i + k) x 0.
Proof. induction i as [|i IH]; intros x k; [reflexivity|]. destruct x as [|a x]; cbn [skipn]; [destruct k; reflexivity|]. apply IH. Qed.
Lemma nth_firstn_R n : forall (x : list R) k, (k < n)%nat -> nth k (firstn n x) 0 = nth k x 0.
Proof. induction n as [|n IH]; intros x k H; [lia|]. destruct x as [|a x]; [destruct k; reflexivity|]. destruct k as [|k]; cbn; [reflexivity|]. apply IH. lia. Qed.
Lemma nth_block n x i k : (k < n)%nat -> nth k (block n x i) 0 = nth (i * n + k) x 0.
Proof. intros H. unfold block. rewrite nth_firstn_R by exact H. apply nth_skipn_R. Qed.

Lemma fetch_rows n : forall (rows : list (list R)) tail i r, Forall (fun r => length r = n) rows -> nth_error rows i = Some r ->
  fetch (concat rows ++ tail) (n * i) n = Some r.
Proof.
  intros rows tail i r HF Hi.
  assert (L : length (concat rows) = (length rows * n)%nat). { clear Hi. induction HF as [|a l Ha HF IH]; cbn; [reflexivity|]. rewrite app_length, Ha, IH. reflexivity. }
  assert (Hi' : (i < length rows)%nat) by (apply nth_error_Some; congruence).
  rewrite fetch_slice by (rewrite app_length, L; nia). f_equal. clear L Hi'. revert i Hi.
  induction HF as [|a l Ha HF IH]; intros i Hi; [destruct i; discriminate|]. cbn [concat]. rewrite <- app_assoc. destruct i as [|i]; cbn in Hi.
  - injection Hi as ->. rewrite Nat.mul_0_r. cbn [skipn]. rewrite firstn_app, Ha, Nat.sub_diag, firstn_O, app_nil_r. apply firstn_all2. lia.
  - replace (n * S i)%nat with (length a + n * i)%nat by (rewrite Ha; lia).
    rewrite skipn_app, (skipn_all2 a) by lia. replace (length a + n * i - length a)%nat with (n * i)%nat by lia. cbn [app]. apply IH. exact Hi.
Qed.

(** ** States *)
Lemma swe_state_v3 q : (3 <= length q)%nat -> swe_state q = Some (v3 q).
Proof. destruct q as [|a [|b [|c q]]]; cbn; intros H; try lia. reflexivity. Qed.
Lemma omap_nth_all (t : list R) : omap (fun j => nth_error t j) (seq 0 (length t)) = Some t.
Proof.
  change (omap (fun j => nth_error t (0 + j)) (seq 0 (length t)) = Some t). change (fetch t 0 (length t) = Some t).
  rewrite fetch_slice by lia. cbn [skipn]. rewrite firstn_all. reflexivity.
Qed.
Lemma tracer_state_tv nt q : length q = (3 + nt)%nat -> (nt <= MAX_NUM_SEDIMENT_CLASSES)%nat -> tracer_state nt q = Some (tv q).
Proof.
  intros H Hn. unfold tracer_state. rewrite swe_state_v3 by lia. rewrite obind_Some. destruct (Nat.leb_spec nt MAX_NUM_SEDIMENT_CLASSES); [|lia].
  destruct q as [|a [|b [|c t]]]; cbn in H; try lia. cbn [Nat.add nth_error]. replace nt with (length t) by lia. rewrite omap_nth_all. reflexivity.
Qed.
Lemma comps_length nt f : length (comps nt f) = (3 + nt)%nat.
Proof. unfold comps, comps3. rewrite app_length, map_length, seq_length. reflexivity. Qed.

(** ** Scatter *)
Lemma upd_nth (x x' : list R) i v j : upd x i v = Some x' -> nth j x' 0 = if Nat.eqb j i then v else nth j x 0.
Proof.
  intros H. assert (G := upd_get x x' i v j H). assert (L := upd_length x x' i v H). assert (B := upd_bound x x' i v H).
  destruct (Nat.lt_ge_cases j (length x')) as [Hj|Hj].
  - rewrite (nth_error_in_range x' j Hj) in G. destruct (Nat.eqb j i); [congruence|]. symmetry in G. apply nth_error_nth0 in G. congruence.
  - rewrite !nth_overflow by lia. destruct (Nat.eqb_spec j i); [lia|reflexivity].
Qed.
Lemma add_entries (v : list R) : forall x off s, (off + s + length v <= length x)%nat ->
  exists x', ofold (add_entry off) (combine (seq s (length v)) v) x = Some x' /\ length x' = length x /\
    forall i, nth i x' 0 = nth i x 0 + (if (Nat.leb (off + s) i && Nat.ltb i (off + s + length v))%bool then nth (i - (off + s)) v 0 else 0).
Proof.
  induction v as [|a v IH]; intros x off s H; cbn [length seq combine ofold] in *.
  - exists x. split; [reflexivity|]. split; [reflexivity|]. intros i. destruct (Nat.leb_spec (off + s) i); destruct (Nat.ltb_spec i (off + s + 0)); cbn [andb]; try lia; ring.
  - unfold add_entry at 1. cbn [fst snd]. rewrite (nth_error_in_range x (off + s)) by lia. rewrite obind_Some.
    destruct (upd_some x (off + s) (nth (off + s) x 0 + a)) as (x1 & E1); [lia|]. rewrite E1, obind_Some.
    assert (L1 := upd_length _ _ _ _ E1).
    destruct (IH x1 off (S s)) as (x' & E' & L' & V'); [lia|]. exists x'. split; [exact E'|]. split; [lia|]. intros i. rewrite V', (upd_nth _ _ _ _ i E1).
    destruct (Nat.eqb_spec i (off + s)) as [Hi|Hi].
    + subst i. rewrite Nat.leb_refl, Nat.sub_diag. destruct (Nat.leb_spec (off + S s) (off + s)); [lia|]. destruct (Nat.ltb_spec (off + s) (off + s + S (length v))); [|lia]. cbn [andb nth]. ring.
    + destruct (Nat.leb_spec (off + S s) i), (Nat.leb_spec (off + s) i), (Nat.ltb_spec i (off + S s + length v)), (Nat.ltb_spec i (off + s + S (length v))); cbn [andb]; try lia; try ring.
      replace (i - (off + s))%nat with (S (i - (off + S s))) by lia. cbn [nth]. reflexivity.
Qed.
Lemma add_block n v x w : length v = n -> ((w + 1) * n <= length x)%nat ->
  exists x', add_into x (w * n) v = Some x' /\ length x' = length x /\
    forall c k, (k < n)%nat -> nth (c * n + k) x' 0 = nth (c * n + k) x 0 + (if Nat.eqb w c then nth k v 0 else 0).
Proof.
  intros Hv Hx. unfold add_into. destruct (add_entries v x (w * n) 0) as (x' & E & L & V); [nia|].
  exists x'. split; [exact E|]. split; [exact L|]. intros c k Hk. rewrite V, Hv, Nat.add_0_r. f_equal.
  destruct (Nat.eqb_spec w c) as [He|He].
  - subst w. destruct (Nat.leb_spec (c * n) (c * n + k)); [|lia]. destruct (Nat.ltb_spec (c * n + k) (c * n + n)); [|lia]. cbn [andb]. f_equal. lia.
  - destruct (Nat.leb_spec (w * n) (c * n + k)) as [H1|]; destruct (Nat.ltb_spec (c * n + k) (w * n + n)) as [H2|]; cbn [andb]; try reflexivity. exfalso. nia.
Qed.
(* a whole active output *)
Lemma scatter_all {A} n (w : A -> nat) (P : A -> list (option (list R))) (v : A -> list R) j (es : list A) : forall x,
  (forall e, In e es -> nth_error (P e) j = Some (Some (v e)) /\ length (v e) = n /\ ((w e + 1) * n <= length x)%nat) ->
  exists x', ofold (fun x p => let* o := nth_error (snd p) j in let* y := o in add_into x (fst p) y)
                   (combine (map (fun e => w e * n)%nat es) (map P es)) x = Some x' /\ length x' = length x /\
    forall c k, (k < n)%nat -> nth (c * n + k) x' 0 = nth (c * n + k) x 0 + rsum (fun e => if Nat.eqb (w e) c then nth k (v e) 0 else 0) es.
Proof.
  induction es as [|e es IH]; intros x H; cbn [map combine ofold rsum].
  - exists x. repeat split; auto. intros; ring.
  - destruct (H e (or_introl eq_refl)) as (A1 & A2 & A3). cbn [fst snd]. rewrite A1, obind_Some, obind_Some.
    destruct (add_block n (v e) x (w e) A2 A3) as (x1 & E1 & L1 & V1). rewrite E1, obind_Some.
    destruct (IH x1) as (x' & E' & L' & V'). { intros e' He'. rewrite L1. apply H. right. exact He'. }
    exists x'. split; [exact E'|]. split; [lia|]. intros c k Hk. rewrite V', V1 by exact Hk. ring.
Qed.

(** ** Elements *)
Lemma omap_index {A B} (es : list A) (f : nat -> option B) (P : A -> B) :
  (forall i a, nth_error es i = Some a -> f i = Some (P a)) -> omap f (seq 0 (length es)) = Some (map P es).
Proof.
  intros H. assert (G : forall es' off, (forall i a, nth_error es' i = Some a -> f (off + i)%nat = Some (P a)) -> omap f (seq off (length es')) = Some (map P es')).
  { induction es' as [|a t IH]; intros off H'; cbn [length seq omap map]; [reflexivity|].
    assert (H0 := H' 0%nat a eq_refl). rewrite Nat.add_0_r in H0. rewrite H0, obind_Some, IH; [reflexivity|]. intros i b Hi. replace (S off + i)%nat with (off + S i)%nat by lia. apply H'. exact Hi. }
  apply (G es 0%nat). exact H.
Qed.
Lemma strided_offset n c i : (i < n)%nat -> nth_error (r_offsets (strided n c)) i = Some (c * i)%nat.
Proof. intros H. unfold strided. cbn [r_offsets]. rewrite nth_error_map. rewrite (nth_error_nth' (seq 0 n) 0%nat) by (rewrite seq_length; exact H). rewrite seq_nth by exact H. reflexivity. Qed.
Lemma omap_map {A B} (f : A -> option B) (g : A -> B) l : (forall a, In a l -> f a = Some (g a)) -> omap f l = Some (map g l).
Proof. induction l as [|a t IH]; intros H; cbn [omap map]; [reflexivity|]. rewrite (H a (or_introl eq_refl)), obind_Some, IH; [reflexivity|]. intros b Hb. apply H. right. exact Hb. Qed.

(** ** One element of the flux operators *)
Lemma input_passive op u i e name n f off v r :
  field op name = Some f -> of_restriction f = Restriction r n -> of_vector f = Some v -> nth_error r i = Some off -> fetch v off n = Some e ->
  input_at op u i (name, n) = Some e.
Proof. intros H1 H2 H3 H4 H5. unfold input_at. cbn [fst snd]. rewrite H1, obind_Some, H2. cbn [r_comps r_offsets]. rewrite Nat.eqb_refl, H4, obind_Some, H3. exact H5. Qed.
Lemma input_active op u i e name n f off r :
  field op name = Some f -> of_restriction f = Restriction r n -> of_vector f = None -> nth_error r i = Some off -> fetch u off n = Some e ->
  input_at op u i (name, n) = Some e.
Proof. intros H1 H2 H3 H4 H5. unfold input_at. cbn [fst snd]. rewrite H1, obind_Some, H2. cbn [r_comps r_offsets]. rewrite Nat.eqb_refl, H4, obind_Some, H3. exact H5. Qed.
Lemma offsets_map {A B} (g : A -> B) es i e : nth_error es i = Some e -> nth_error (map g es) i = Some (g e).
Proof. intros H. rewrite nth_error_map, H. reflexivity. Qed.
Lemma offsets_strided n c i : (i < n)%nat -> nth_error (map (fun e => c * e)%nat (seq 0 n)) i = Some (c * i)%nat.
Proof. exact (strided_offset n c i). Qed.
Lemma fetch_eta eta v : (v < length eta)%nat -> fetch eta (v * 1) 1 = Some [nth v eta 0].
Proof. intros H. unfold fetch. cbn [seq omap]. rewrite Nat.mul_1_r, Nat.add_0_r, (nth_error_in_range eta v H). reflexivity. Qed.

Definition igeom (m : cmesh) (e : nat) : list R :=
  [cm_sn m e; cm_cn m e; - cm_len m e / cm_area m (left_cell m e); cm_len m e / cm_area m (right_cell m e); cm_z m (vertex_beg m e); cm_z m (vertex_end m e)].
Definition bgeom (m : cmesh) (e : nat) : list R :=
  [cm_sn m e; cm_cn m e; - cm_len m e / cm_area m (left_cell m e); cm_z m (vertex_beg m e); cm_z m (vertex_end m e)].
Definition interior_outputs (m : cmesh) (dt : R) (F : nat -> list R) (a : nat -> R) (e : nat) : list (option (list R)) :=
  let wL := - cm_len m e / cm_area m (left_cell m e) in
  let wR := cm_len m e / cm_area m (right_cell m e) in
  [Some (map (fun x => x * wL) (F e)); Some (map (fun x => x * wR) (F e)); Some (F e); Some [- a e * wL * dt; a e * wR * dt]].

Lemma owned_internal_in m e : In e (owned_internal m) -> In e (cm_internal m) /\ cm_eowned m e = true.
Proof. intros H. apply filter_In in H. exact H. Qed.
Lemma igeom_all m bs : mesh_ok m bs -> omap (interior_geom m) (owned_internal m) = Some (map (igeom m) (owned_internal m)).
Proof.
  intros M. apply omap_map. intros e He. apply owned_internal_in in He. destruct He as (H1 & H2).
  destruct (mo_internal m bs M e H1 H2) as ((A & B & _) & C & D). unfold interior_geom. rewrite (rdiv_some _ _ B), obind_Some, (rdiv_some _ _ D), obind_Some. reflexivity.
Qed.
Lemma comps3_length f : length (comps3 f) = 3%nat.
Proof. reflexivity. Qed.
Lemma interior_flux_length cf qL qR sn cn dhv f a : interior_flux cf qL qR sn cn dhv = Some (f, a) -> length f = num_comp cf.
Proof.
  unfold interior_flux, num_comp. destruct (Nat.eqb_spec (num_tracers cf) 0) as [E|E].
  - rewrite E. destruct (ceed_interior_edge _ _ _ _ _ _ _ _) as [p|]; cbn; intros H; [|discriminate]. injection H as <- _. reflexivity.
  - destruct (ceed_tracer_edge _ _ _ _ _ _ _) as [p|]; cbn [obind]; intros H; [|discriminate]. injection H as <- _. apply comps_length.
Qed.
Lemma boundary_flux_length cf ty v qL sn cn dhv f a : boundary_flux cf ty v qL sn cn dhv = Some (f, a) -> length f = num_comp cf.
Proof.
  unfold boundary_flux, num_comp. destruct (Nat.eqb_spec (num_tracers cf) 0) as [E|E].
  - rewrite E. destruct (ceed_boundary_edge _ _ _ _ _ _ _ _) as [p|]; cbn; intros H; [|discriminate]. injection H as <- _. reflexivity.
  - destruct ty; [| |discriminate]; destruct (ceed_tracer_bedge _ _ _ _ _ _ _) as [p|]; cbn [obind]; intros H; try discriminate; injection H as <- _; apply comps_length.
Qed.
Lemma num_tracers_classes cf : num_tracers cf = 0%nat -> cf_classes cf = 0%nat.
Proof. unfold num_tracers. lia. Qed.

(* the operator as it is built for a proper mesh *)
Definition interior_inputs (cf : cconfig) : list (string * nat) :=
  ([("geom", 6%nat); ("q_left", num_comp cf); ("q_right", num_comp cf)]%string ++ with_eta cf [("eta_vert_beg", 1%nat); ("eta_vert_end", 1%nat)]%string)%list.
Definition interior_op (cf : cconfig) (m : cmesh) (eta : list R) body : ceed_operator :=
  let nc := num_comp cf in
  let es := owned_internal m in
  let n := length es in
  (CeedOp
    (QFunction (interior_inputs cf)
       [("cell_left", nc); ("cell_right", nc); ("flux", nc); ("courant_number", 2%nat)]%string body)
    ([OpField "geom" (strided n 6) (Some (concat (map (igeom m) es)));
      OpField "q_left" (Restriction (map (fun e => left_cell m e * nc)%nat es) nc) None;
      OpField "q_right" (Restriction (map (fun e => right_cell m e * nc)%nat es) nc) None]%string
     ++ with_eta cf [OpField "eta_vert_beg" (Restriction (map (fun e => vertex_beg m e * 1)%nat es) 1) (Some eta);
                     OpField "eta_vert_end" (Restriction (map (fun e => vertex_end m e * 1)%nat es) 1) (Some eta)]%string
     ++ [OpField "cell_left" (Restriction (map (fun e => cm_l2o m (left_cell m e) * nc)%nat es) nc) None;
         OpField "cell_right" (Restriction (map (fun e => cm_l2o m (right_cell m e) * nc)%nat es) nc) None;
         OpField "flux" (strided n nc) (Some (repeat 0 (n * nc)));
         OpField "courant_number" (strided n 2) (Some (repeat 0 (n * 2)))]%string)).

Lemma interior_created cf m eta dt bs body : mesh_ok m bs -> interior_body cf dt = Some body ->
  CreateCeedInteriorFluxSuboperator cf m eta dt = Some (interior_op cf m eta body).
Proof. intros M HB. unfold CreateCeedInteriorFluxSuboperator. rewrite HB, obind_Some, (igeom_all m bs M), obind_Some. reflexivity. Qed.

Lemma outputs_fit_interior nc (l1 l2 l3 : list R) c1 c2 : length l1 = nc -> length l2 = nc -> length l3 = nc ->
  outputs_fit [Some l1; Some l2; Some l3; Some [c1; c2]] [("cell_left", nc); ("cell_right", nc); ("flux", nc); ("courant_number", 2%nat)]%string = true.
Proof. intros H1 H2 H3. unfold outputs_fit. cbn [combine forallb fits fst snd length andb Nat.eqb]. rewrite H1, H2, H3, !Nat.eqb_refl. reflexivity. Qed.

Lemma interior_ins cf m eta body bs u i e : mesh_ok m bs -> length eta = cm_vertices m -> length u = (num_comp cf * cm_cells m)%nat ->
  nth_error (owned_internal m) i = Some e ->
  omap (input_at (interior_op cf m eta body) u i) (interior_inputs cf) =
  Some ([igeom m e; block (num_comp cf) u (left_cell m e); block (num_comp cf) u (right_cell m e)] ++
        with_eta cf [[nth (vertex_beg m e) eta 0]; [nth (vertex_end m e) eta 0]]).
Proof.
  intros M HE HU Hi.
  assert (Hin := nth_error_In _ _ Hi). apply owned_internal_in in Hin. destruct Hin as (I1 & I2).
  destruct (mo_internal m bs M e I1 I2) as ((A & B & V1 & V2) & C & D).
  assert (L : (i < length (owned_internal m))%nat) by (apply nth_error_Some; congruence).
  assert (G0 : input_at (interior_op cf m eta body) u i ("geom"%string, 6%nat) = Some (igeom m e)).
  { eapply input_passive; [reflexivity|reflexivity|reflexivity|apply offsets_strided; exact L|].
    rewrite <- (app_nil_r (concat _)). apply fetch_rows; [|apply offsets_map; exact Hi]. apply Forall_forall. intros r Hr. apply in_map_iff in Hr. destruct Hr as (z & <- & _). reflexivity. }
  assert (G1 : input_at (interior_op cf m eta body) u i ("q_left"%string, num_comp cf) = Some (block (num_comp cf) u (left_cell m e))).
  { eapply input_active; [reflexivity|reflexivity|reflexivity|exact (offsets_map (fun e => left_cell m e * num_comp cf)%nat _ _ _ Hi)|]. apply fetch_block. rewrite HU. nia. }
  assert (G2 : input_at (interior_op cf m eta body) u i ("q_right"%string, num_comp cf) = Some (block (num_comp cf) u (right_cell m e))).
  { eapply input_active; [reflexivity|reflexivity|reflexivity|exact (offsets_map (fun e => right_cell m e * num_comp cf)%nat _ _ _ Hi)|]. apply fetch_block. rewrite HU. nia. }
  unfold interior_inputs. rewrite omap_app. cbn [omap]. rewrite G0, G1, G2, !obind_Some. clear G0 G1 G2.
  unfold with_eta. destruct (Nat.eqb (cf_classes cf) 0) eqn:EC; [|reflexivity].
  assert (G3 : input_at (interior_op cf m eta body) u i ("eta_vert_beg"%string, 1%nat) = Some [nth (vertex_beg m e) eta 0]).
  { eapply input_passive; [unfold field, interior_op; cbn [co_fields]; unfold with_eta; rewrite EC; reflexivity|reflexivity|reflexivity|exact (offsets_map (fun e => vertex_beg m e * 1)%nat _ _ _ Hi)|]. apply fetch_eta. lia. }
  assert (G4 : input_at (interior_op cf m eta body) u i ("eta_vert_end"%string, 1%nat) = Some [nth (vertex_end m e) eta 0]).
  { eapply input_passive; [unfold field, interior_op; cbn [co_fields]; unfold with_eta; rewrite EC; reflexivity|reflexivity|reflexivity|exact (offsets_map (fun e => vertex_end m e * 1)%nat _ _ _ Hi)|]. apply fetch_eta. lia. }
  cbn [omap]. rewrite G3, G4, !obind_Some. reflexivity.
Qed.

Lemma point_of op u i ins outs : omap (input_at op u i) (qf_inputs (co_qf op)) = Some ins -> qf_body (co_qf op) ins = Some outs ->
  outputs_fit outs (qf_outputs (co_qf op)) = true -> point op u i = Some outs.
Proof. intros H1 H2 H3. unfold point. rewrite H1, obind_Some, H2, obind_Some, H3. reflexivity. Qed.

Lemma interior_point cf m eta dt body bs u i e F a : mesh_ok m bs -> length eta = cm_vertices m -> length u = (num_comp cf * cm_cells m)%nat ->
  (num_tracers cf <= MAX_NUM_SEDIMENT_CLASSES)%nat -> interior_body cf dt = Some body ->
  nth_error (owned_internal m) i = Some e ->
  interior_flux cf (block (num_comp cf) u (left_cell m e)) (block (num_comp cf) u (right_cell m e)) (cm_sn m e) (cm_cn m e) (edge_dhv m eta e) = Some (F e, a e) ->
  point (interior_op cf m eta body) u i = Some (interior_outputs m dt F a e).
Proof.
  intros M HE HU HT HB Hi HF.
  assert (Hin := nth_error_In _ _ Hi). apply owned_internal_in in Hin. destruct Hin as (I1 & I2).
  destruct (mo_internal m bs M e I1 I2) as ((A & B & V1 & V2) & C & D).
  assert (LF := interior_flux_length _ _ _ _ _ _ _ _ HF).
  assert (BL : length (block (num_comp cf) u (left_cell m e)) = num_comp cf) by (apply block_length; rewrite HU; nia).
  assert (BR : length (block (num_comp cf) u (right_cell m e)) = num_comp cf) by (apply block_length; rewrite HU; nia).
  eapply point_of; [exact (interior_ins cf m eta body bs u i e M HE HU Hi)| |].
  2:{ apply outputs_fit_interior; rewrite ?map_length; exact LF. }
  cbn [co_qf qf_body interior_op]. unfold interior_body in HB. unfold interior_flux in HF.
  destruct (Nat.eqb_spec (num_tracers cf) 0) as [E|E].
  - unfold with_eta. rewrite (num_tracers_classes cf E). cbn [Nat.eqb].
    destruct (cf_riemann cf); [|discriminate]. injection HB as <-. unfold SWEFlux, igeom. cbn [app nth_error]. rewrite !obind_Some.
    rewrite !swe_state_v3 by (rewrite ?BL, ?BR; unfold num_comp; lia). rewrite !obind_Some. cbn [nth_error]. rewrite ?obind_Some.
    change (ComputeDhv (cm_z m (vertex_beg m e)) (cm_z m (vertex_end m e)) (nth (vertex_beg m e) eta 0) (nth (vertex_end m e) eta 0)) with (edge_dhv m eta e).
    destruct (ceed_interior_edge _ _ _ _ _ _ _ _) as [[f w]|]; [|discriminate]. rewrite obind_Some; rewrite obind_Some in HF; cbn [fst snd] in HF. injection HF as HF1 HF2.
    unfold interior_outputs. rewrite <- HF1, <- HF2. reflexivity.
  - injection HB as <-. unfold TracerFlux, igeom. cbn [app nth_error]. rewrite !obind_Some.
    rewrite !tracer_state_tv by (rewrite ?BL, ?BR; unfold num_comp; lia). rewrite !obind_Some. cbn [nth_error]. rewrite ?obind_Some.
    destruct (ceed_tracer_edge _ _ _ _ _ _ _) as [[f w]|]; [|discriminate]. rewrite obind_Some; rewrite obind_Some in HF; cbn [fst snd] in HF. injection HF as HF1 HF2.
    unfold interior_outputs. rewrite <- HF1, <- HF2. reflexivity.
Qed.

Lemma interior_same cf m eta body : same_elems (interior_op cf m eta body) = true /\ elems (interior_op cf m eta body) = length (owned_internal m).
Proof.
  assert (E : elems (interior_op cf m eta body) = length (owned_internal m)).
  { unfold elems, interior_op, strided. cbn. rewrite map_length, seq_length. reflexivity. }
  split; [|exact E]. unfold same_elems. rewrite E. unfold interior_op, strided, with_eta. cbn [co_fields].
  destruct (Nat.eqb (cf_classes cf) 0); cbn [app forallb of_restriction r_offsets]; rewrite !map_length, !seq_length, !Nat.eqb_refl; reflexivity.
Qed.

Definition gain (m : cmesh) (F : nat -> list R) (c k e : nat) : R :=
  (if Nat.eqb (left_cell m e) c then - cm_len m e / cm_area m c * nth k (F e) 0 else 0) +
  (if Nat.eqb (right_cell m e) c then cm_len m e / cm_area m c * nth k (F e) 0 else 0).

Lemma nth_map_scale w (l : list R) k : (k < length l)%nat -> nth k (map (fun x => x * w) l) 0 = nth k l 0 * w.
Proof. intros H. rewrite (nth_indep _ 0 (0 * w)) by (rewrite map_length; exact H). apply (map_nth (fun x => x * w)). Qed.

Lemma interior_apply cf m eta dt body bs u F a x : mesh_ok m bs -> length eta = cm_vertices m -> length u = (num_comp cf * cm_cells m)%nat ->
  (num_tracers cf <= MAX_NUM_SEDIMENT_CLASSES)%nat -> interior_body cf dt = Some body -> length x = (num_comp cf * cm_cells m)%nat ->
  (forall e, In e (owned_internal m) ->
     interior_flux cf (block (num_comp cf) u (left_cell m e)) (block (num_comp cf) u (right_cell m e)) (cm_sn m e) (cm_cn m e) (edge_dhv m eta e) = Some (F e, a e)) ->
  exists x', apply_add (interior_op cf m eta body) u x = Some x' /\ length x' = length x /\
    forall c k, (c < cm_cells m)%nat -> (k < num_comp cf)%nat ->
      nth (cm_l2o m c * num_comp cf + k) x' 0 = nth (cm_l2o m c * num_comp cf + k) x 0 + rsum (gain m F c k) (owned_internal m).
Proof.
  intros M HE HU HT HB HX HF.
  assert (HP : points (interior_op cf m eta body) u = Some (map (interior_outputs m dt F a) (owned_internal m))).
  { unfold points. destruct (interior_same cf m eta body) as (S1 & S2). rewrite S1, S2. apply omap_index. intros i e Hi.
    eapply interior_point; eauto. apply HF. eapply nth_error_In; exact Hi. }
  unfold apply_add. rewrite HP, obind_Some. cbn [co_qf qf_outputs interior_op length seq combine ofold].
  assert (LF : forall e, In e (owned_internal m) -> length (F e) = num_comp cf). { intros e He. eapply interior_flux_length. apply HF. exact He. }
  assert (OK : forall e, In e (owned_internal m) -> (left_cell m e < cm_cells m)%nat /\ (right_cell m e < cm_cells m)%nat).
  { intros e He. apply owned_internal_in in He. destruct He as (I1 & I2). destruct (mo_internal m bs M e I1 I2) as ((A & _) & C & _). auto. }
  pose (wl := fun e => - cm_len m e / cm_area m (left_cell m e)). pose (wr := fun e => cm_len m e / cm_area m (right_cell m e)).
  destruct (scatter_all (num_comp cf) (fun e => cm_l2o m (left_cell m e)) (interior_outputs m dt F a) (fun e => map (fun x => x * wl e) (F e)) 0%nat (owned_internal m) x) as (x1 & E1 & L1 & V1).
  { intros e He. split; [reflexivity|]. split; [rewrite map_length; apply LF; exact He|]. rewrite HX. assert (B := mo_l2o m bs M _ (proj1 (OK e He))). nia. }
  destruct (scatter_all (num_comp cf) (fun e => cm_l2o m (right_cell m e)) (interior_outputs m dt F a) (fun e => map (fun x => x * wr e) (F e)) 1%nat (owned_internal m) x1) as (x2 & E2 & L2 & V2).
  { intros e He. split; [reflexivity|]. split; [rewrite map_length; apply LF; exact He|]. rewrite L1, HX. assert (B := mo_l2o m bs M _ (proj2 (OK e He))). nia. }
  exists x2. split; [|split; [lia|]].
  - assert (S1 : scatter_output (interior_op cf m eta body) (map (interior_outputs m dt F a) (owned_internal m)) x (0%nat, ("cell_left"%string, num_comp cf)) = Some x1).
    { rewrite <- E1. unfold scatter_output, interior_op, with_eta. cbn [fst snd]. destruct (Nat.eqb (cf_classes cf) 0); reflexivity. }
    assert (S2 : scatter_output (interior_op cf m eta body) (map (interior_outputs m dt F a) (owned_internal m)) x1 (1%nat, ("cell_right"%string, num_comp cf)) = Some x2).
    { rewrite <- E2. unfold scatter_output, interior_op, with_eta. cbn [fst snd]. destruct (Nat.eqb (cf_classes cf) 0); reflexivity. }
    assert (S3 : scatter_output (interior_op cf m eta body) (map (interior_outputs m dt F a) (owned_internal m)) x2 (2%nat, ("flux"%string, num_comp cf)) = Some x2).
    { unfold scatter_output, interior_op, with_eta. cbn [fst snd]. destruct (Nat.eqb (cf_classes cf) 0); reflexivity. }
    assert (S4 : scatter_output (interior_op cf m eta body) (map (interior_outputs m dt F a) (owned_internal m)) x2 (3%nat, ("courant_number"%string, 2%nat)) = Some x2).
    { unfold scatter_output, interior_op, with_eta. cbn [fst snd]. destruct (Nat.eqb (cf_classes cf) 0); reflexivity. }
    fold (interior_op cf m eta body). unfold interior_op in S1, S2, S3, S4 |- *. cbv zeta in S1, S2, S3, S4 |- *. rewrite S1, obind_Some, S2, obind_Some, S3, obind_Some, S4. reflexivity.
  - intros c k Hc Hk. rewrite V2, V1 by exact Hk. rewrite Rplus_assoc, <- rsum_plus. f_equal. apply rsum_ext. intros e He. unfold gain.
    destruct (OK e He) as (O1 & O2). rewrite !nth_map_scale by (rewrite LF; assumption).
    f_equal.
    + destruct (Nat.eqb_spec (left_cell m e) c) as [X|X].
      * rewrite X, Nat.eqb_refl. unfold wl. rewrite X. apply Rmult_comm.
      * destruct (Nat.eqb_spec (cm_l2o m (left_cell m e)) (cm_l2o m c)) as [Y|Y]; [|reflexivity]. apply (mo_l2o_inj m bs M) in Y; [contradiction|assumption|assumption].
    + destruct (Nat.eqb_spec (right_cell m e) c) as [X|X].
      * rewrite X, Nat.eqb_refl. unfold wr. rewrite X. apply Rmult_comm.
      * destruct (Nat.eqb_spec (cm_l2o m (right_cell m e)) (cm_l2o m c)) as [Y|Y]; [|reflexivity]. apply (mo_l2o_inj m bs M) in Y; [contradiction|assumption|assumption].
Qed.

Definition boundary_inputs (cf : cconfig) (ty : condition_type) : list (string * nat) :=
  ([("geom", 5%nat); ("q_left", num_comp cf)]%string ++ with_eta cf [("eta_vert_beg", 1%nat); ("eta_vert_end", 1%nat)]%string
        ++ if_dirichlet ty [("q_dirichlet", num_comp cf)]%string)%list.
Definition boundary_op (cf : cconfig) (m : cmesh) (eta : list R) (b : cboundary) body : ceed_operator :=
  let nc := num_comp cf in
  let es := map snd (owned_boundary m b) in
  let n := length es in
  let spare := (length (cb_edges b) - n)%nat in
  (CeedOp
    (QFunction (boundary_inputs cf (cb_type b))
       [("cell_left", nc); ("flux", nc); ("courant_number", 1%nat)]%string
       body)
    ([OpField "geom" (strided n 5) (Some (concat (map (bgeom m) es) ++ repeat 0 (spare * 5))%list);
      OpField "q_left" (Restriction (map (fun e => left_cell m e * nc)%nat es) nc) None]%string
     ++ with_eta cf [OpField "eta_vert_beg" (Restriction (map (fun e => vertex_beg m e * 1)%nat es) 1) (Some eta);
                     OpField "eta_vert_end" (Restriction (map (fun e => vertex_end m e * 1)%nat es) 1) (Some eta)]%string
     ++ if_dirichlet (cb_type b)
          [OpField "q_dirichlet"%string (Restriction (map (fun p => fst p * nc)%nat (owned_boundary m b)) nc) (Some (cb_values b))]
     ++ [OpField "cell_left" (Restriction (map (fun e => cm_l2o m (left_cell m e) * nc)%nat es) nc) None;
         OpField "flux" (strided n nc) (Some (repeat 0 (length (cb_edges b) * nc)));
         OpField "courant_number" (strided n 1) (Some (repeat 0 (length (cb_edges b) * 1)))]%string)).

Lemma owned_boundary_spec m b pe : In pe (owned_boundary m b) <-> owned_edge m b pe.
Proof.
  unfold owned_boundary, owned_edge. rewrite filter_In. destruct pe as (p, e). cbn [fst snd]. split; intros (H & O); split; auto.
  - apply In_nth_error in H. destruct H as (k & H). assert (L : (k < length (combine (seq 0 (length (cb_edges b))) (cb_edges b)))%nat) by (apply nth_error_Some; congruence).
    rewrite combine_length, seq_length, Nat.min_id in L. assert (X := combine_nth (seq 0 (length (cb_edges b))) (cb_edges b) k 0%nat e (seq_length _ _)).
    rewrite (nth_error_nth _ _ _ H) in X. rewrite seq_nth in X by exact L. injection X as X1 X2. subst p. rewrite X2. apply nth_error_nth'. exact L.
  - assert (L : (p < length (cb_edges b))%nat) by (apply nth_error_Some; congruence).
    assert (X := combine_nth (seq 0 (length (cb_edges b))) (cb_edges b) p 0%nat e (seq_length _ _)). rewrite seq_nth in X by exact L. rewrite (nth_error_nth _ _ _ H) in X. cbn in X. rewrite <- X. apply nth_In. rewrite combine_length, seq_length. lia.
Qed.
Lemma owned_boundary_edge m bs b p e : mesh_ok m bs -> In b bs -> In (p, e) (owned_boundary m b) -> edge_ok m e /\ nth_error (cb_edges b) p = Some e.
Proof. intros M Hb H. apply owned_boundary_spec in H. destruct H as (H & O). cbn [fst snd] in *. split; [|exact H]. apply (mo_boundary m bs M b e Hb); [eapply nth_error_In; exact H|exact O]. Qed.

Lemma boundary_created cf m eta dt bs b body : mesh_ok m bs -> In b bs -> boundary_body cf (cb_type b) dt = Some body ->
  CreateCeedBoundaryFluxSuboperator cf m eta dt b = Some (boundary_op cf m eta b body).
Proof.
  intros M Hb HB. unfold CreateCeedBoundaryFluxSuboperator. rewrite HB, obind_Some, (omap_map (boundary_geom m) (bgeom m)); [reflexivity|].
  intros e He. apply in_map_iff in He. destruct He as ((p, e') & E & He). cbn in E. subst e'. destruct (owned_boundary_edge m bs b p e M Hb He) as ((A & B & _) & _).
  unfold boundary_geom. rewrite (rdiv_some _ _ B). reflexivity.
Qed.
Lemma boundary_ins cf m eta body bs b u i p e : mesh_ok m bs -> In b bs -> length eta = cm_vertices m -> length u = (num_comp cf * cm_cells m)%nat ->
  (cb_type b = DIRICHLET -> length (cb_values b) = (num_comp cf * length (cb_edges b))%nat) ->
  nth_error (owned_boundary m b) i = Some (p, e) ->
  omap (input_at (boundary_op cf m eta b body) u i) (boundary_inputs cf (cb_type b)) =
  Some ([bgeom m e; block (num_comp cf) u (left_cell m e)] ++
        with_eta cf [[nth (vertex_beg m e) eta 0]; [nth (vertex_end m e) eta 0]] ++ if_dirichlet (cb_type b) [block (num_comp cf) (cb_values b) p]).
Proof.
  intros M Hb HE HU HD Hi.
  destruct (owned_boundary_edge m bs b p e M Hb (nth_error_In _ _ Hi)) as ((A & B & V1 & V2) & Hp).
  assert (Lp : (p < length (cb_edges b))%nat) by (apply nth_error_Some; congruence).
  assert (Hs : nth_error (map snd (owned_boundary m b)) i = Some e) by (rewrite nth_error_map, Hi; reflexivity).
  assert (L : (i < length (map snd (owned_boundary m b)))%nat) by (apply nth_error_Some; congruence).
  assert (G0 : input_at (boundary_op cf m eta b body) u i ("geom"%string, 5%nat) = Some (bgeom m e)).
  { eapply input_passive; [reflexivity|reflexivity|reflexivity|apply offsets_strided; exact L|].
    apply fetch_rows; [|apply offsets_map; exact Hs]. apply Forall_forall. intros r Hr. apply in_map_iff in Hr. destruct Hr as (z & <- & _). reflexivity. }
  assert (G1 : input_at (boundary_op cf m eta b body) u i ("q_left"%string, num_comp cf) = Some (block (num_comp cf) u (left_cell m e))).
  { eapply input_active; [reflexivity|reflexivity|reflexivity|exact (offsets_map (fun e => left_cell m e * num_comp cf)%nat _ _ _ Hs)|]. apply fetch_block. rewrite HU. nia. }
  assert (G3 : Nat.eqb (cf_classes cf) 0 = true -> input_at (boundary_op cf m eta b body) u i ("eta_vert_beg"%string, 1%nat) = Some [nth (vertex_beg m e) eta 0]).
  { intros EC. eapply input_passive; [unfold field, boundary_op; cbn [co_fields]; unfold with_eta; rewrite EC; reflexivity|reflexivity|reflexivity|exact (offsets_map (fun e => vertex_beg m e * 1)%nat _ _ _ Hs)|]. apply fetch_eta. lia. }
  assert (G4 : Nat.eqb (cf_classes cf) 0 = true -> input_at (boundary_op cf m eta b body) u i ("eta_vert_end"%string, 1%nat) = Some [nth (vertex_end m e) eta 0]).
  { intros EC. eapply input_passive; [unfold field, boundary_op; cbn [co_fields]; unfold with_eta; rewrite EC; reflexivity|reflexivity|reflexivity|exact (offsets_map (fun e => vertex_end m e * 1)%nat _ _ _ Hs)|]. apply fetch_eta. lia. }
  assert (G5 : cb_type b = DIRICHLET -> input_at (boundary_op cf m eta b body) u i ("q_dirichlet"%string, num_comp cf) = Some (block (num_comp cf) (cb_values b) p)).
  { intros ED. eapply input_passive; [unfold field, boundary_op; cbn [co_fields]; unfold with_eta, if_dirichlet; rewrite ED; destruct (Nat.eqb (cf_classes cf) 0); reflexivity|reflexivity|reflexivity|exact (offsets_map (fun q : nat * nat => fst q * num_comp cf)%nat _ _ _ Hi)|].
    cbn [fst]. apply fetch_block. rewrite (HD ED). nia. }
  unfold boundary_inputs. rewrite !omap_app. cbn [omap]. rewrite G0, G1, !obind_Some.
  unfold with_eta, if_dirichlet. destruct (Nat.eqb (cf_classes cf) 0) eqn:EC; cbn [omap]; [rewrite G3, G4 by reflexivity|]; rewrite ?obind_Some;
    destruct (cb_type b) eqn:ED; cbn [omap]; rewrite ?G5 by reflexivity; rewrite ?obind_Some; reflexivity.
Qed.
Lemma outputs_fit_boundary nc (l1 : list R) (l2 : option (list R)) c1 : length l1 = nc -> (forall l, l2 = Some l -> length l = nc) ->
  outputs_fit [Some l1; l2; Some [c1]] [("cell_left", nc); ("flux", nc); ("courant_number", 1%nat)]%string = true.
Proof. intros H1 H2. unfold outputs_fit. cbn [combine forallb fits fst snd length andb Nat.eqb]. rewrite H1, Nat.eqb_refl. destruct l2 as [l|]; cbn [fits fst snd]; [rewrite (H2 l eq_refl), Nat.eqb_refl|]; reflexivity. Qed.

(* the recorded flux is left undefined on reflecting edges with tracers *)
Definition recorded (cf : cconfig) (ty : condition_type) (f : list R) : option (list R) :=
  match ty with REFLECTING => if Nat.eqb (num_tracers cf) 0 then Some f else None | _ => Some f end.
Definition boundary_outputs (cf : cconfig) (m : cmesh) (dt : R) (b : cboundary) (F : nat * nat -> list R) (a : nat * nat -> R) (pe : nat * nat) : list (option (list R)) :=
  let wL := - cm_len m (snd pe) / cm_area m (left_cell m (snd pe)) in
  [Some (map (fun x => x * wL) (F pe)); recorded cf (cb_type b) (F pe); Some [- a pe * wL * dt]].

Lemma depth_tv q : depth (tv q) = nth 0 q 0.
Proof. reflexivity. Qed.

Lemma boundary_point cf m eta dt body bs b u i p e F a : mesh_ok m bs -> In b bs -> length eta = cm_vertices m -> length u = (num_comp cf * cm_cells m)%nat ->
  (cb_type b = DIRICHLET -> length (cb_values b) = (num_comp cf * length (cb_edges b))%nat) ->
  (num_tracers cf <= MAX_NUM_SEDIMENT_CLASSES)%nat -> boundary_body cf (cb_type b) dt = Some body ->
  (cb_type b = DIRICHLET -> num_tracers cf <> 0%nat -> cf_classes cf <> 0%nat) ->
  (cb_type b = DIRICHLET -> num_tracers cf <> 0%nat -> cf_tiny_h cf < nth 0 (block (num_comp cf) u (left_cell m e)) 0 \/ cf_tiny_h cf < nth 0 (block (num_comp cf) (cb_values b) p) 0) ->
  nth_error (owned_boundary m b) i = Some (p, e) ->
  boundary_flux cf (cb_type b) (block (num_comp cf) (cb_values b) p) (block (num_comp cf) u (left_cell m e)) (cm_sn m e) (cm_cn m e) (edge_dhv m eta e) = Some (F (p, e), a (p, e)) ->
  point (boundary_op cf m eta b body) u i = Some (boundary_outputs cf m dt b F a (p, e)).
Proof.
  intros M Hb HE HU HD HT HB HC HW Hi HF.
  destruct (owned_boundary_edge m bs b p e M Hb (nth_error_In _ _ Hi)) as ((A & B & V1 & V2) & Hp).
  assert (Lp : (p < length (cb_edges b))%nat) by (apply nth_error_Some; congruence).
  assert (LF := boundary_flux_length _ _ _ _ _ _ _ _ _ HF).
  assert (BL : length (block (num_comp cf) u (left_cell m e)) = num_comp cf) by (apply block_length; rewrite HU; nia).
  assert (BD : cb_type b = DIRICHLET -> length (block (num_comp cf) (cb_values b) p) = num_comp cf) by (intros ED; apply block_length; rewrite (HD ED); nia).
  eapply point_of; [exact (boundary_ins cf m eta body bs b u i p e M Hb HE HU HD Hi)| |].
  2:{ apply outputs_fit_boundary; rewrite ?map_length; [exact LF|]. unfold recorded. intros l. destruct (cb_type b); [|destruct (Nat.eqb (num_tracers cf) 0)|]; intros X; try discriminate X; injection X as <-; exact LF. }
  cbn [co_qf qf_body boundary_op]. unfold boundary_body in HB. unfold boundary_flux in HF.
  destruct (Nat.eqb_spec (num_tracers cf) 0) as [E|E].
  - unfold with_eta. rewrite (num_tracers_classes cf E). cbn [Nat.eqb].
    destruct (cf_riemann cf); [|discriminate]. injection HB as <-. unfold SWEBoundaryFlux, bgeom. cbn [app nth_error]. rewrite !obind_Some.
    rewrite (swe_state_v3 (block (num_comp cf) u (left_cell m e))) by (rewrite ?BL; unfold num_comp; lia). rewrite !obind_Some.
    assert (K : (match cb_type b with
             | DIRICHLET => let* q_R := nth_error ([bgeom m e; block (num_comp cf) u (left_cell m e)] ++ [[nth (vertex_beg m e) eta 0]; [nth (vertex_end m e) eta 0]] ++ if_dirichlet (cb_type b) [block (num_comp cf) (cb_values b) p]) 4 in let* qR := swe_state q_R in Some (BCDirichlet qR)
             | REFLECTING => Some BCReflecting
             | CRITICAL_OUTFLOW => Some BCCriticalOutflow
             end) = Some (flow_condition (cb_type b) (block (num_comp cf) (cb_values b) p))).
    { destruct (cb_type b) eqn:ED; [|reflexivity|reflexivity]. unfold if_dirichlet. cbn [app nth_error]. rewrite obind_Some, swe_state_v3 by (rewrite BD by reflexivity; unfold num_comp; lia). reflexivity. }
    cbn [app nth_error] in K. unfold bgeom in K. cbn [nth_error] in K. rewrite K, !obind_Some.
    change (ComputeDhv (cm_z m (vertex_beg m e)) (cm_z m (vertex_end m e)) (nth (vertex_beg m e) eta 0) (nth (vertex_end m e) eta 0)) with (edge_dhv m eta e).
    destruct (ceed_boundary_edge _ _ _ _ _ _ _ _) as [[f w]|]; [|discriminate]. rewrite obind_Some; rewrite obind_Some in HF; cbn [fst snd] in HF. injection HF as HF1 HF2.
    unfold boundary_outputs, recorded. rewrite <- HF1, <- HF2, E. cbn [Nat.eqb snd]. destruct (cb_type b); reflexivity.
  - destruct (cb_type b) eqn:ED; [| |discriminate].
    + injection HB as <-. unfold with_eta. destruct (Nat.eqb_spec (cf_classes cf) 0) as [Z|_]; [exfalso; apply (HC eq_refl E Z)|].
      unfold TracerBoundaryFlux_Dirichlet, bgeom, if_dirichlet. cbn [app nth_error]. rewrite !obind_Some.
      rewrite !tracer_state_tv by (rewrite ?BL, ?BD by reflexivity; unfold num_comp; lia). rewrite !obind_Some. rewrite !depth_tv.
      assert (W : ((cf_tiny_h cf <? nth 0 (block (num_comp cf) u (left_cell m e)) 0) || (cf_tiny_h cf <? nth 0 (block (num_comp cf) (cb_values b) p) 0))%bool = true).
      { destruct (HW eq_refl E) as [W|W]; apply Bool.orb_true_iff; [left|right]; apply Rltb_true; exact W. }
      rewrite W.
      destruct (ceed_tracer_bedge _ _ _ _ _ _ _) as [[f w]|]; [|discriminate]. rewrite obind_Some; rewrite obind_Some in HF; cbn [fst snd] in HF. injection HF as HF1 HF2.
      unfold boundary_outputs, recorded. rewrite ED, <- HF1, <- HF2. cbn [snd]. reflexivity.
    + injection HB as <-. unfold TracerBoundaryFlux_Reflecting, bgeom, if_dirichlet. cbn [app nth_error]. rewrite !obind_Some.
      rewrite !tracer_state_tv by (rewrite ?BL; unfold num_comp; lia). rewrite !obind_Some.
      destruct (ceed_tracer_bedge _ _ _ _ _ _ _) as [[f w]|]; [|discriminate]. rewrite obind_Some; rewrite obind_Some in HF; cbn [fst snd] in HF. injection HF as HF1 HF2.
      unfold boundary_outputs, recorded. rewrite ED, <- HF1, <- HF2. destruct (Nat.eqb_spec (num_tracers cf) 0); [contradiction|]. cbn [snd]. reflexivity.
Qed.

Lemma boundary_same cf m eta b body : same_elems (boundary_op cf m eta b body) = true /\ elems (boundary_op cf m eta b body) = length (owned_boundary m b).
Proof.
  assert (E : elems (boundary_op cf m eta b body) = length (owned_boundary m b)).
  { unfold elems, boundary_op, strided. cbn. rewrite map_length, seq_length, map_length. reflexivity. }
  split; [|exact E]. unfold same_elems. rewrite E. unfold boundary_op, strided, with_eta, if_dirichlet. cbn [co_fields].
  destruct (Nat.eqb (cf_classes cf) 0), (cb_type b); cbn [app forallb of_restriction r_offsets]; rewrite ?map_length, ?seq_length, ?map_length, ?Nat.eqb_refl; reflexivity.
Qed.
Definition bgain (m : cmesh) (F : nat * nat -> list R) (c k : nat) (pe : nat * nat) : R :=
  if Nat.eqb (left_cell m (snd pe)) c then - cm_len m (snd pe) / cm_area m c * nth k (F pe) 0 else 0.

Lemma boundary_apply cf m eta dt body bs b u F a x : mesh_ok m bs -> In b bs -> length eta = cm_vertices m -> length u = (num_comp cf * cm_cells m)%nat ->
  (cb_type b = DIRICHLET -> length (cb_values b) = (num_comp cf * length (cb_edges b))%nat) ->
  (num_tracers cf <= MAX_NUM_SEDIMENT_CLASSES)%nat -> boundary_body cf (cb_type b) dt = Some body -> length x = (num_comp cf * cm_cells m)%nat ->
  (cb_type b = DIRICHLET -> num_tracers cf <> 0%nat -> cf_classes cf <> 0%nat) ->
  (forall p e, In (p, e) (owned_boundary m b) -> cb_type b = DIRICHLET -> num_tracers cf <> 0%nat ->
     cf_tiny_h cf < nth 0 (block (num_comp cf) u (left_cell m e)) 0 \/ cf_tiny_h cf < nth 0 (block (num_comp cf) (cb_values b) p) 0) ->
  (forall p e, In (p, e) (owned_boundary m b) ->
     boundary_flux cf (cb_type b) (block (num_comp cf) (cb_values b) p) (block (num_comp cf) u (left_cell m e)) (cm_sn m e) (cm_cn m e) (edge_dhv m eta e) = Some (F (p, e), a (p, e))) ->
  exists x', apply_add (boundary_op cf m eta b body) u x = Some x' /\ length x' = length x /\
    forall c k, (c < cm_cells m)%nat -> (k < num_comp cf)%nat ->
      nth (cm_l2o m c * num_comp cf + k) x' 0 = nth (cm_l2o m c * num_comp cf + k) x 0 + rsum (bgain m F c k) (owned_boundary m b).
Proof.
  intros M Hb HE HU HD HT HB HX HC HW HF.
  assert (HP : points (boundary_op cf m eta b body) u = Some (map (boundary_outputs cf m dt b F a) (owned_boundary m b))).
  { unfold points. destruct (boundary_same cf m eta b body) as (S1 & S2). rewrite S1, S2. apply omap_index. intros i (p, e) Hi.
    assert (Hin := nth_error_In _ _ Hi). eapply boundary_point; eauto. }
  unfold apply_add. rewrite HP, obind_Some. cbn [co_qf qf_outputs boundary_op length seq combine ofold].
  assert (LF : forall pe, In pe (owned_boundary m b) -> length (F pe) = num_comp cf). { intros (p, e) He. eapply boundary_flux_length. apply HF. exact He. }
  assert (OK : forall pe, In pe (owned_boundary m b) -> (left_cell m (snd pe) < cm_cells m)%nat).
  { intros (p, e) He. destruct (owned_boundary_edge m bs b p e M Hb He) as ((A & _) & _). exact A. }
  pose (wl := fun pe : nat * nat => - cm_len m (snd pe) / cm_area m (left_cell m (snd pe))).
  destruct (scatter_all (num_comp cf) (fun pe => cm_l2o m (left_cell m (snd pe))) (boundary_outputs cf m dt b F a) (fun pe => map (fun x => x * wl pe) (F pe)) 0%nat (owned_boundary m b) x) as (x1 & E1 & L1 & V1).
  { intros pe He. split; [reflexivity|]. split; [rewrite map_length; apply LF; exact He|]. rewrite HX. assert (B := mo_l2o m bs M _ (OK pe He)). nia. }
  exists x1. split; [|split; [lia|]].
  - assert (S1 : scatter_output (boundary_op cf m eta b body) (map (boundary_outputs cf m dt b F a) (owned_boundary m b)) x (0%nat, ("cell_left"%string, num_comp cf)) = Some x1).
    { rewrite <- E1, <- (map_map snd (fun e => cm_l2o m (left_cell m e) * num_comp cf)%nat). unfold scatter_output, boundary_op, with_eta, if_dirichlet. cbn [fst snd]. destruct (Nat.eqb (cf_classes cf) 0), (cb_type b); reflexivity. }
    assert (S3 : scatter_output (boundary_op cf m eta b body) (map (boundary_outputs cf m dt b F a) (owned_boundary m b)) x1 (1%nat, ("flux"%string, num_comp cf)) = Some x1).
    { unfold scatter_output, boundary_op, with_eta, if_dirichlet. cbn [fst snd]. destruct (Nat.eqb (cf_classes cf) 0), (cb_type b); reflexivity. }
    assert (S4 : scatter_output (boundary_op cf m eta b body) (map (boundary_outputs cf m dt b F a) (owned_boundary m b)) x1 (2%nat, ("courant_number"%string, 1%nat)) = Some x1).
    { unfold scatter_output, boundary_op, with_eta, if_dirichlet. cbn [fst snd]. destruct (Nat.eqb (cf_classes cf) 0), (cb_type b); reflexivity. }
    unfold boundary_op in S1, S3, S4 |- *. cbv zeta in S1, S3, S4 |- *. rewrite S1, obind_Some, S3, obind_Some, S4. reflexivity.
  - intros c k Hc Hk. rewrite V1 by exact Hk. f_equal. apply rsum_ext. intros pe He. unfold bgain.
    rewrite !nth_map_scale by (rewrite LF; assumption).
    destruct (Nat.eqb_spec (left_cell m (snd pe)) c) as [X|X].
    + rewrite X, Nat.eqb_refl. unfold wl. rewrite X. apply Rmult_comm.
    + destruct (Nat.eqb_spec (cm_l2o m (left_cell m (snd pe))) (cm_l2o m c)) as [Y|Y]; [|reflexivity]. apply (mo_l2o_inj m bs M) in Y; [contradiction|apply OK; exact He|assumption].
Qed.

(** ** One element of the source operator *)
Definition source_op (cf : cconfig) (m : cmesh) (ext mat div : list R) body : ceed_operator :=
  let nc := num_comp cf in
  let cs := owned_cells m in
  let n := length cs in
  CeedOp
    (QFunction
       [("geom", 2%nat); ("ext_src", nc); ("mat_props", NUM_MATERIAL_PROPERTIES); ("riemannf", nc); ("q", nc)]%string
       [("cell", nc); ("primitive_variables", nc); ("sources", nc)]%string
       body)
    [OpField "geom" (strided n 2) (Some (concat (map (fun c => [cm_dzdx m c; cm_dzdy m c]) cs)));
     OpField "ext_src" (strided n nc) (Some ext);
     OpField "mat_props" (strided n NUM_MATERIAL_PROPERTIES) (Some mat);
     OpField "q" (Restriction (map (fun c => c * nc)%nat cs) nc) None;
     OpField "cell" (Restriction (map (fun c => cm_l2o m c * nc)%nat cs) nc) None;
     OpField "riemannf" (strided n nc) (Some div);
     OpField "primitive_variables" (strided n nc) (Some (repeat 0 (n * nc)));
     OpField "sources" (strided n nc) (Some (repeat 0 (n * nc)))]%string.
Lemma source_created cf m ext mat div dt body : source_body cf dt = Some body -> CreateCeedSourceSuboperator cf m ext mat div dt = Some (source_op cf m ext mat div body).
Proof. intros H. unfold CreateCeedSourceSuboperator. rewrite H. reflexivity. Qed.

Lemma source_ins cf m ext mat div body u i c : length ext = (num_comp cf * length (owned_cells m))%nat -> length mat = length (owned_cells m) ->
  length div = (num_comp cf * length (owned_cells m))%nat -> length u = (num_comp cf * cm_cells m)%nat -> nth_error (owned_cells m) i = Some c ->
  omap (input_at (source_op cf m ext mat div body) u i) [("geom", 2%nat); ("ext_src", num_comp cf); ("mat_props", NUM_MATERIAL_PROPERTIES); ("riemannf", num_comp cf); ("q", num_comp cf)]%string =
  Some [[cm_dzdx m c; cm_dzdy m c]; block (num_comp cf) ext i; [nth i mat 0]; block (num_comp cf) div i; block (num_comp cf) u c].
Proof.
  intros HX HM HD HU Hi. assert (L : (i < length (owned_cells m))%nat) by (apply nth_error_Some; congruence).
  assert (Hc : (c < cm_cells m)%nat). { apply nth_error_In in Hi. apply filter_In in Hi. destruct Hi as (Hi & _). apply in_seq in Hi. lia. }
  assert (G0 : input_at (source_op cf m ext mat div body) u i ("geom"%string, 2%nat) = Some [cm_dzdx m c; cm_dzdy m c]).
  { eapply input_passive; [reflexivity|reflexivity|reflexivity|apply offsets_strided; exact L|].
    rewrite <- (app_nil_r (concat _)). apply fetch_rows; [|exact (offsets_map (fun c => [cm_dzdx m c; cm_dzdy m c]) _ _ _ Hi)]. apply Forall_forall. intros r Hr. apply in_map_iff in Hr. destruct Hr as (z & <- & _). reflexivity. }
  assert (G1 : input_at (source_op cf m ext mat div body) u i ("ext_src"%string, num_comp cf) = Some (block (num_comp cf) ext i)).
  { eapply input_passive; [reflexivity|reflexivity|reflexivity|apply offsets_strided; exact L|]. rewrite Nat.mul_comm. apply fetch_block. rewrite HX. nia. }
  assert (G2 : input_at (source_op cf m ext mat div body) u i ("mat_props"%string, NUM_MATERIAL_PROPERTIES) = Some [nth i mat 0]).
  { eapply input_passive; [reflexivity|reflexivity|reflexivity|apply offsets_strided; exact L|]. rewrite Nat.mul_comm. apply fetch_eta. lia. }
  assert (G3 : input_at (source_op cf m ext mat div body) u i ("riemannf"%string, num_comp cf) = Some (block (num_comp cf) div i)).
  { eapply input_passive; [reflexivity|reflexivity|reflexivity|apply offsets_strided; exact L|]. rewrite Nat.mul_comm. apply fetch_block. rewrite HD. nia. }
  assert (G4 : input_at (source_op cf m ext mat div body) u i ("q"%string, num_comp cf) = Some (block (num_comp cf) u c)).
  { eapply input_active; [reflexivity|reflexivity|reflexivity|exact (offsets_map (fun c => c * num_comp cf)%nat _ _ _ Hi)|]. apply fetch_block. rewrite HU. nia. }
  cbn [omap]. rewrite G0, G1, G2, G3, G4, !obind_Some. reflexivity.
Qed.
Lemma outputs_fit_source nc (l1 l2 l3 : list R) : length l1 = nc -> length l2 = nc -> length l3 = nc ->
  outputs_fit [Some l1; Some l2; Some l3] [("cell", nc); ("primitive_variables", nc); ("sources", nc)]%string = true.
Proof. intros H1 H2 H3. unfold outputs_fit. cbn [combine forallb fits fst snd length andb Nat.eqb]. rewrite H1, H2, H3, !Nat.eqb_refl. reflexivity. Qed.
Lemma primitives_length cf q : length (primitives cf q) = num_comp cf.
Proof. unfold primitives, num_comp. cbv zeta. rewrite app_length, map_length, seq_length. reflexivity. Qed.
Lemma source_update_length cf dt n dx dy q F s r : source_update cf dt n dx dy q F s = Some r -> length r = num_comp cf.
Proof.
  unfold source_update, num_comp. destruct (Nat.eqb_spec (num_tracers cf) 0) as [E|E].
  - rewrite E. cbv zeta. destruct (ceed_rhs _ _ _ _ _ _ _ _ _ _ _ _) as [p|]; cbn [obind]; intros H; [|discriminate]. injection H as <-. reflexivity.
  - destruct (cf_source cf); [destruct (ceed_tracer_rhs _ _ _ _ _ _ _ _ _ _) as [p|]|discriminate|destruct (tracer_source_terms _ _ _ _ _ _ _ _ _) as [p|]]; cbn [obind]; intros H; try discriminate; injection H as <-; apply comps_length.
Qed.
Lemma comps3_v3 q : length q = 3%nat -> comps3 (v3 q) = q.
Proof. destruct q as [|a [|b [|c [|]]]]; cbn; intros H; try lia. reflexivity. Qed.
Lemma map_nth_all (t : list R) : map (fun j => nth j t 0) (seq 0 (length t)) = t.
Proof. apply (nth_ext _ _ 0 0); rewrite map_length, seq_length; [reflexivity|]. intros k Hk. rewrite (nth_indep _ 0 (nth 0 t 0)) by (rewrite map_length, seq_length; exact Hk). rewrite (map_nth (fun j => nth j t 0) _ 0%nat). rewrite seq_nth by exact Hk. reflexivity. Qed.
Lemma comps_tv nt q : length q = (3 + nt)%nat -> comps nt (tv q) = q.
Proof.
  destruct q as [|a [|b [|c t]]]; cbn [length]; intros H; try lia. unfold comps, tv, v3, comps3. cbn [tflow ttr c0 c1 c2 nth app]. do 3 f_equal. cbn [Nat.add nth].
  assert (nt = length t) by lia. subst nt. apply map_nth_all.
Qed.
Lemma tiny_denom tiny h an : 0 <= tiny -> tiny < h -> h * h + an * an <> 0.
Proof. intros H1 H2. assert (0 < h * h) by (apply Rmult_lt_0_compat; lra). assert (0 <= an * an) by (apply Rle_0_sqr). lra. Qed.
Lemma SafeDiv_vel tiny h an mom : 0 <= tiny -> SafeDiv (mom * h) (h * h + an * an) h tiny = Some (if tiny <? h then mom * h / (h * h + an * an) else 0).
Proof. intros H. unfold SafeDiv. destruct (tiny <? h) eqn:E; [|reflexivity]. apply rdiv_some. apply (tiny_denom tiny); [exact H|]. apply Rltb_true. exact E. Qed.

Lemma source_point cf m ext mat div dt body u i c S : length ext = (num_comp cf * length (owned_cells m))%nat -> length mat = length (owned_cells m) ->
  length div = (num_comp cf * length (owned_cells m))%nat -> length u = (num_comp cf * cm_cells m)%nat -> nth_error (owned_cells m) i = Some c ->
  (num_tracers cf <= MAX_NUM_SEDIMENT_CLASSES)%nat -> source_body cf dt = Some body -> 0 <= cf_tiny_h cf ->
  source_update cf dt (nth i mat 0) (cm_dzdx m c) (cm_dzdy m c) (block (num_comp cf) u c) (block (num_comp cf) div i) (block (num_comp cf) ext i) = Some S ->
  point (source_op cf m ext mat div body) u i = Some [Some S; Some (primitives cf (block (num_comp cf) u c)); Some (block (num_comp cf) ext i)].
Proof.
  intros HX HM HD HU Hi HT HB Htiny HS. assert (L : (i < length (owned_cells m))%nat) by (apply nth_error_Some; congruence).
  assert (Hc : (c < cm_cells m)%nat). { assert (Hin := nth_error_In _ _ Hi). apply filter_In in Hin. destruct Hin as (Hin & _). apply in_seq in Hin. lia. }
  assert (LS := source_update_length _ _ _ _ _ _ _ _ _ HS).
  assert (B1 : length (block (num_comp cf) u c) = num_comp cf) by (apply block_length; rewrite HU; nia).
  assert (B2 : length (block (num_comp cf) ext i) = num_comp cf) by (apply block_length; rewrite HX; nia).
  assert (B3 : length (block (num_comp cf) div i) = num_comp cf) by (apply block_length; rewrite HD; nia).
  eapply point_of; [exact (source_ins cf m ext mat div body u i c HX HM HD HU Hi)| |apply outputs_fit_source; [exact LS|apply primitives_length|exact B2]].
  cbn [co_qf qf_body source_op]. clear Hi. set (q := block (num_comp cf) u c) in *. set (s := block (num_comp cf) ext i) in *. set (F := block (num_comp cf) div i) in *. clearbody q s F.
  unfold source_body in HB. unfold source_update in HS. cbv zeta in HB, HS.
  destruct (Nat.eqb_spec (num_tracers cf) 0) as [E|E].
  - assert (N3 : num_comp cf = 3%nat) by (unfold num_comp; rewrite E; reflexivity).
    assert (P : primitives cf q = [nth 0 q 0; if cf_tiny_h cf <? nth 0 q 0 then nth 1 q 0 * nth 0 q 0 / (nth 0 q 0 * nth 0 q 0 + cf_h_anuga cf * cf_h_anuga cf) else 0;
                                   if cf_tiny_h cf <? nth 0 q 0 then nth 2 q 0 * nth 0 q 0 / (nth 0 q 0 * nth 0 q 0 + cf_h_anuga cf * cf_h_anuga cf) else 0]).
    { unfold primitives. rewrite E. reflexivity. }
    rewrite P.
    assert (K : forall fr, (let* r := ceed_rhs fr true GRAVITY dt (cf_tiny_h cf) (cf_h_anuga cf) (nth i mat 0) (cm_dzdx m c) (cm_dzdy m c) (v3 q) (v3 F) (v3 s) in Some (comps3 r)) = Some S ->
      SWESources fr (cf_tiny_h cf) (cf_h_anuga cf) dt [[cm_dzdx m c; cm_dzdy m c]; s; [nth i mat 0]; F; q] =
      Some [Some S; Some [nth 0 q 0; if cf_tiny_h cf <? nth 0 q 0 then nth 1 q 0 * nth 0 q 0 / (nth 0 q 0 * nth 0 q 0 + cf_h_anuga cf * cf_h_anuga cf) else 0;
                                   if cf_tiny_h cf <? nth 0 q 0 then nth 2 q 0 * nth 0 q 0 / (nth 0 q 0 * nth 0 q 0 + cf_h_anuga cf * cf_h_anuga cf) else 0]; Some s]).
    { intros fr H. unfold SWESources. cbn [nth_error]. rewrite !obind_Some. rewrite !swe_state_v3 by lia. rewrite !obind_Some.
      destruct (ceed_rhs fr true _ _ _ _ _ _ _ _ _ _) as [r|]; [|discriminate]. rewrite obind_Some. rewrite obind_Some in H. injection H as <-.
      cbv zeta. rewrite !SafeDiv_vel by exact Htiny. rewrite !obind_Some. rewrite (comps3_v3 s) by lia. reflexivity. }
    destruct (cf_source cf); injection HB as <-; apply K; exact HS.
  - assert (K : forall semi, (let* r := tracer_source_terms semi dt (cf_tiny_h cf) (nth i mat 0) (cm_dzdx m c) (cm_dzdy m c) (tv q) (tv F) (tv s) in Some (comps (num_tracers cf) r)) = Some S ->
      TracerSources semi (num_tracers cf) (cf_tiny_h cf) (cf_h_anuga cf) dt [[cm_dzdx m c; cm_dzdy m c]; s; [nth i mat 0]; F; q] = Some [Some S; Some (primitives cf q); Some s]).
    { intros semi H. unfold TracerSources. cbn [nth_error]. rewrite !obind_Some. rewrite !tracer_state_tv by (unfold num_comp in *; lia). rewrite !obind_Some.
      destruct (tracer_source_terms semi _ _ _ _ _ _ _ _) as [r|]; [|discriminate]. rewrite obind_Some. rewrite obind_Some in H. injection H as <-.
      cbv zeta. rewrite !SafeDiv_vel by exact Htiny. rewrite !obind_Some.
      rewrite (omap_map _ (fun j => if cf_tiny_h cf <? nth 0 q 0 then nth (3 + j) q 0 / nth 0 q 0 else 0)).
      - rewrite obind_Some. rewrite (comps_tv (num_tracers cf) s) by (unfold num_comp in *; lia). reflexivity.
      - intros j _. rewrite depth_tv. destruct (cf_tiny_h cf <? nth 0 q 0) eqn:W; [|reflexivity]. apply rdiv_some. apply Rltb_true in W. lra. }
    destruct (cf_source cf); try discriminate HB; injection HB as <-; apply K; exact HS.
Qed.
Lemma source_same cf m ext mat div body : same_elems (source_op cf m ext mat div body) = true /\ elems (source_op cf m ext mat div body) = length (owned_cells m).
Proof.
  assert (E : elems (source_op cf m ext mat div body) = length (owned_cells m)).
  { unfold elems, source_op, strided. cbn. rewrite map_length, seq_length. reflexivity. }
  split; [|exact E]. unfold same_elems. rewrite E. unfold source_op, strided. cbn [co_fields forallb of_restriction r_offsets].
  rewrite !map_length, !seq_length, !Nat.eqb_refl. reflexivity.
Qed.
