(** Lemmas about the elevation operator. *)
From Coq Require Import String.
From Verif Require Import Base RoeModel EdgeModel EtaModel EtaProofs EtaProperties SourceModel TracerModel MeshMapsProofs AMRProofs CeedLayoutModel CeedLayoutSpec CeedLayoutProofs CeedEtaModel.
Local Open Scope R_scope.
Local Notation length := List.length.

(* what the code uses of a cell: three of its vertices and its depth *)
Definition eta_input_of (cf : cconfig) (vm : vmesh) (u : list R) (c : nat) : eta_input :=
  EtaIn (corner vm c 0) (corner vm c 1) (corner vm c 2) (nth (c * eta_num_comp cf) u 0).

Lemma cells_around_length vm v : length (cells_around vm v) = vm_ncells vm v.
Proof. unfold cells_around. rewrite map_length, seq_length. reflexivity. Qed.
Lemma in_connections vm v c : In (v, c) (connections vm) <-> (v < cm_vertices (vm_mesh vm))%nat /\ In c (cells_around vm v).
Proof.
  unfold connections. rewrite in_flat_map. split.
  - intros (w & Hw & H). apply in_map_iff in H. destruct H as (c' & E & H). injection E as <- <-. apply in_seq in Hw. split; [lia|exact H].
  - intros (Hv & Hc). exists v. split; [apply in_seq; lia|]. apply in_map. exact Hc.
Qed.
Lemma ncells_pos vm v c : In c (cells_around vm v) -> INR (vm_ncells vm v) <> 0.
Proof. intros H. rewrite <- cells_around_length. destruct (cells_around vm v); [destruct H|]. apply not_0_INR. discriminate. Qed.

Definition sorted_corners (vm : vmesh) (c : nat) : R * R * R := sort3 (corner vm c 0) (corner vm c 1) (corner vm c 2).
Definition egeom (vm : vmesh) (vc : nat * nat) : list R :=
  let '(z1, z2, z3) := sorted_corners vm (snd vc) in [z1; z2; z3; 1 / INR (vm_ncells vm (fst vc))].
Lemma egeom_all vm : omap (eta_geom vm) (connections vm) = Some (map (egeom vm) (connections vm)).
Proof.
  apply omap_map. intros (v, c) H. apply in_connections in H. destruct H as (_ & H). apply ncells_pos in H. unfold eta_geom, egeom, sorted_corners. cbn [fst snd].
  destruct (sort3 _ _ _) as [[z1 z2] z3]. rewrite rdiv_some by exact H. reflexivity.
Qed.

Definition eta_op (cf : cconfig) (vm : vmesh) : ceed_operator :=
  let nc := eta_num_comp cf in
  let l := connections vm in
  let n := length l in
  CeedOp
    (QFunction [("geom", 4%nat); ("q", nc)]%string [("eta", 1%nat)]%string (SWEEtaVertex (cf_tiny_h cf)))
    [OpField "geom" (strided n 4) (Some (concat (map (egeom vm) l)));
     OpField "q" (Restriction (map (fun vc => snd vc * nc)%nat l) nc) None;
     OpField "eta" (Restriction (map (fun vc => fst vc * 1)%nat l) 1) None]%string.
Lemma eta_created cf vm : CreateCeedEtaVerticesOperator cf vm = Some (eta_op cf vm).
Proof. unfold CreateCeedEtaVerticesOperator. rewrite egeom_all. reflexivity. Qed.

(* level of a cell, zero if undefined *)
Definition level (cf : cconfig) (vm : vmesh) (u : list R) (c : nat) : R :=
  let '(z1, z2, z3) := sorted_corners vm c in
  match eta_cell (cf_tiny_h cf) z1 z2 z3 (nth (c * eta_num_comp cf) u 0) with Some e => e | None => 0 end.
Lemma level_spec cf vm u c : 0 <= cf_tiny_h cf -> cell_level (cf_tiny_h cf) (eta_input_of cf vm u c) (level cf vm u c).
Proof.
  intros H. unfold cell_level, level, eta_input_of, sorted_corners. cbn [ez1 ez2 ez3 edepth]. assert (S := sort3_sorted (corner vm c 0) (corner vm c 1) (corner vm c 2)).
  destruct (sort3 _ _ _) as [[z1 z2] z3]. destruct (C52_elevation_defined (cf_tiny_h cf) z1 z2 z3 (nth (c * eta_num_comp cf) u 0) H S) as (e & E & _). rewrite E. reflexivity.
Qed.

Definition eta_out (cf : cconfig) (vm : vmesh) (u : list R) (vc : nat * nat) : R := level cf vm u (snd vc) * (1 / INR (vm_ncells vm (fst vc))).
Definition eta_outputs cf vm u (vc : nat * nat) : list (option (list R)) := [Some [eta_out cf vm u vc]].

Lemma eta_point cf vm u i v c : 0 <= cf_tiny_h cf -> nth_error (connections vm) i = Some (v, c) -> ((c + 1) * eta_num_comp cf <= length u)%nat ->
  point (eta_op cf vm) u i = Some (eta_outputs cf vm u (v, c)).
Proof.
  intros Ht Hi HU. assert (L : (i < length (connections vm))%nat) by (apply nth_error_Some; congruence).
  assert (G0 : input_at (eta_op cf vm) u i ("geom"%string, 4%nat) = Some (egeom vm (v, c))).
  { eapply input_passive; [reflexivity|reflexivity|reflexivity|apply offsets_strided; exact L|].
    rewrite <- (app_nil_r (concat _)). apply fetch_rows; [|exact (offsets_map (egeom vm) _ _ _ Hi)].
    apply Forall_forall. intros r Hr. apply in_map_iff in Hr. destruct Hr as (z & <- & _). unfold egeom. destruct (sorted_corners _ _) as [[? ?] ?]. reflexivity. }
  assert (G1 : input_at (eta_op cf vm) u i ("q"%string, eta_num_comp cf) = Some (block (eta_num_comp cf) u c)).
  { eapply input_active; [reflexivity|reflexivity|reflexivity|exact (offsets_map (fun vc => snd vc * eta_num_comp cf)%nat _ _ _ Hi)|]. apply fetch_block. exact HU. }
  assert (B : length (block (eta_num_comp cf) u c) = eta_num_comp cf) by (apply block_length; exact HU).
  eapply (point_of _ _ _ [egeom vm (v, c); block (eta_num_comp cf) u c]).
  - cbn [co_qf qf_inputs eta_op omap]. rewrite G0, G1, !obind_Some. reflexivity.
  - cbn [co_qf qf_body eta_op]. unfold SWEEtaVertex. cbn [nth_error]. rewrite !obind_Some. rewrite swe_state_v3 by (rewrite B; unfold eta_num_comp; lia). rewrite obind_Some.
    assert (LS := level_spec cf vm u c Ht). unfold cell_level, eta_input_of in LS. cbn [ez1 ez2 ez3 edepth] in LS.
    unfold egeom, eta_outputs, eta_out. cbn [fst snd]. unfold sorted_corners. destruct (sort3 _ _ _) as [[z1 z2] z3]. cbn [nth_error]. rewrite !obind_Some.
    cbn [v3 c0]. rewrite nth_block by (unfold eta_num_comp; lia). rewrite Nat.add_0_r, LS, obind_Some. reflexivity.
  - reflexivity.
Qed.
Lemma eta_same cf vm : same_elems (eta_op cf vm) = true /\ elems (eta_op cf vm) = length (connections vm).
Proof.
  assert (E : elems (eta_op cf vm) = length (connections vm)). { unfold elems, eta_op, strided. cbn. rewrite map_length, seq_length. reflexivity. }
  split; [|exact E]. unfold same_elems. rewrite E. unfold eta_op, strided. cbn [co_fields forallb of_restriction r_offsets]. rewrite !map_length, !seq_length, !Nat.eqb_refl. reflexivity.
Qed.
Lemma rsum_pairs (g : nat -> nat -> R) (l : list nat) v w : rsum (fun vc => if Nat.eqb (fst vc) w then g (fst vc) (snd vc) else 0) (map (pair v) l) = if Nat.eqb v w then rsum (g v) l else 0.
Proof.
  induction l as [|c l IH]; cbn [map rsum fst snd]; [destruct (Nat.eqb v w); reflexivity|]. rewrite IH. destruct (Nat.eqb v w); ring.
Qed.
Lemma rsum_connections vm (g : nat -> nat -> R) w : (w < cm_vertices (vm_mesh vm))%nat ->
  rsum (fun vc => if Nat.eqb (fst vc) w then g (fst vc) (snd vc) else 0) (connections vm) = rsum (g w) (cells_around vm w).
Proof.
  intros Hw. unfold connections.
  assert (K : forall l, rsum (fun vc => if Nat.eqb (fst vc) w then g (fst vc) (snd vc) else 0) (flat_map (fun v => map (pair v) (cells_around vm v)) l) =
    rsum (fun v => if Nat.eqb v w then rsum (g v) (cells_around vm v) else 0) l).
  { induction l as [|v l IH]; cbn [flat_map rsum]; [reflexivity|]. rewrite rsum_app, IH, rsum_pairs. reflexivity. }
  rewrite K. rewrite (rsum_single (fun v => if Nat.eqb v w then rsum (g v) (cells_around vm v) else 0) _ w Hw).
  - rewrite Nat.eqb_refl. reflexivity.
  - intros j _ Hj. destruct (Nat.eqb_spec j w); [contradiction|reflexivity].
Qed.

(* every vertex gets the weighted sum over the cells around it *)
Lemma update_eta_spec cf vm u : 0 <= cf_tiny_h cf ->
  (forall v c, (v < cm_vertices (vm_mesh vm))%nat -> In c (cells_around vm v) -> ((c + 1) * eta_num_comp cf <= length u)%nat) ->
  exists eta, update_eta cf vm u = Some eta /\ length eta = cm_vertices (vm_mesh vm) /\
    forall v, (v < cm_vertices (vm_mesh vm))%nat -> nth v eta 0 = rsum (fun c => level cf vm u c * (1 / INR (vm_ncells vm v))) (cells_around vm v).
Proof.
  intros Ht HU. unfold update_eta. rewrite eta_created, obind_Some. unfold apply, apply_add_all. cbn [ofold].
  assert (HP : points (eta_op cf vm) u = Some (map (eta_outputs cf vm u) (connections vm))).
  { unfold points. destruct (eta_same cf vm) as (S1 & S2). rewrite S1, S2. apply omap_index. intros i (v, c) Hi.
    apply eta_point; [exact Ht|exact Hi|]. apply nth_error_In, in_connections in Hi. destruct Hi as (Hv & Hc). exact (HU v c Hv Hc). }
  set (nv := cm_vertices (vm_mesh vm)) in *.
  destruct (scatter_all 1 (fun vc : nat * nat => fst vc) (eta_outputs cf vm u) (fun vc => [eta_out cf vm u vc]) 0%nat (connections vm) (repeat 0 nv)) as (x1 & E1 & L1 & V1).
  { intros (v, c) H. apply in_connections in H. destruct H as (Hv & _). split; [reflexivity|]. split; [reflexivity|]. rewrite repeat_length. cbn [fst]. fold nv in Hv. lia. }
  rewrite repeat_length in L1. exists x1. split; [|split; [exact L1|]].
  - unfold apply_add. rewrite HP, obind_Some. cbn [co_qf qf_outputs eta_op length seq combine ofold].
    assert (S1 : scatter_output (eta_op cf vm) (map (eta_outputs cf vm u) (connections vm)) (repeat 0 nv) (0%nat, ("eta"%string, 1%nat)) = Some x1).
    { rewrite <- E1. reflexivity. }
    unfold eta_op in S1 |- *. cbv zeta in S1 |- *. rewrite S1, obind_Some. reflexivity.
  - intros v Hv. assert (V := V1 v 0%nat ltac:(lia)). rewrite Nat.mul_1_r, Nat.add_0_r in V. rewrite V, nth_repeat, Rplus_0_l.
    rewrite <- (rsum_connections vm (fun v c => level cf vm u c * (1 / INR (vm_ncells vm v))) v Hv). apply rsum_ext. intros (w, c) _. reflexivity.
Qed.
