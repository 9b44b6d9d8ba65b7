(** Lemmas about the flat arrays of the second-order reconstruction. *)
From Coq Require Import String.
From Verif Require Import Base RoeModel RoeProofs EdgeModel EdgeProofs EtaModel SourceModel TracerModel AssemblyModel MeshMapsProofs AMRProofs CeedLayoutModel CeedLayoutSpec CeedLayoutProofs MusclModel MusclProofs CeedMusclModel CeedMusclSpec.
Local Open Scope R_scope.
Local Notation length := List.length.

(** ** Accumulation over edges *)
Lemma ofold_ext {A S} (f g : S -> A -> option S) l : (forall s a, In a l -> f s a = g s a) -> forall s, ofold f l s = ofold g l s.
Proof.
  induction l as [|a t IH]; intros H s; cbn [ofold]; [reflexivity|]. rewrite (H s a (or_introl eq_refl)). destruct (g s a); cbn [obind]; [|reflexivity].
  apply IH. intros s' b Hb. apply H. right. exact Hb.
Qed.
Lemma accumulate {A} n (wl wr : A -> nat) (vl vr : A -> list R) es : forall x,
  (forall e, In e es -> length (vl e) = n /\ length (vr e) = n /\ ((wl e + 1) * n <= length x)%nat /\ ((wr e + 1) * n <= length x)%nat) ->
  exists x', ofold (fun x e => let* x := add_into x (wl e * n) (vl e) in add_into x (wr e * n) (vr e)) es x = Some x' /\ length x' = length x /\
    forall c k, (k < n)%nat -> nth (c * n + k) x' 0 = nth (c * n + k) x 0 +
      rsum (fun e => (if Nat.eqb (wl e) c then nth k (vl e) 0 else 0) + (if Nat.eqb (wr e) c then nth k (vr e) 0 else 0)) es.
Proof.
  induction es as [|e es IH]; intros x H; cbn [ofold rsum].
  - exists x. repeat split; auto. intros; ring.
  - destruct (H e (or_introl eq_refl)) as (A1 & A2 & A3 & A4).
    destruct (add_block n (vl e) x (wl e) A1 A3) as (x1 & E1 & L1 & V1). rewrite E1, obind_Some.
    destruct (add_block n (vr e) x1 (wr e) A2) as (x2 & E2 & L2 & V2); [lia|]. rewrite E2, obind_Some.
    destruct (IH x2) as (x' & E' & L' & V'). { intros e' He'. rewrite L2, L1. apply H. right. exact He'. }
    exists x'. split; [exact E'|]. split; [lia|]. intros c k Hk. rewrite V', V2, V1 by exact Hk. ring.
Qed.
Lemma rsum_flat_map {A B} (g : B -> R) (f : A -> list B) l : rsum g (flat_map f l) = rsum (fun a => rsum g (f a)) l.
Proof. induction l as [|a t IH]; cbn [flat_map rsum]; [reflexivity|]. rewrite rsum_app, IH. reflexivity. Qed.
Lemma rsum_neighbours rm c (f : nat -> R) : rsum f (neighbours rm c) =
  rsum (fun e => (if Nat.eqb (left_cell (rm_mesh rm) e) c then f (right_cell (rm_mesh rm) e) else 0) +
                 (if Nat.eqb (right_cell (rm_mesh rm) e) c then f (left_cell (rm_mesh rm) e) else 0)) (cm_internal (rm_mesh rm)).
Proof.
  unfold neighbours. rewrite rsum_flat_map. apply rsum_ext. intros e _. rewrite rsum_app.
  destruct (Nat.eqb _ _), (Nat.eqb _ _); cbn [rsum]; ring.
Qed.

(** ** Normal equations *)
Definition wt (a b : pt) : R := inverse_distance a b.
Lemma edge_weight_wt rm e : edge_weight rm e = wt (rm_centroid rm (left_cell (rm_mesh rm) e)) (rm_centroid rm (right_cell (rm_mesh rm) e)).
Proof.
  unfold edge_weight, wt, inverse_distance, dist, edge_vector. cbn [px py]. set (d := sqrt _). assert (P : 0 <= d) by apply sqrt_pos.
  destruct (Req_EM_T d 0) as [E|E].
  - assert (F : Rltb 0 d = false) by (apply Rltb_false; lra). rewrite F. reflexivity.
  - assert (F : Rltb 0 d = true) by (apply Rltb_true; lra). rewrite F. unfold Rdiv. ring.
Qed.
Lemma wt_sym a b : wt a b = wt b a.
Proof.
  unfold wt, inverse_distance. assert (E : dist a b = dist b a) by (unfold dist; apply f_equal; ring). rewrite E. reflexivity.
Qed.
Lemma wt_nonneg a b : 0 <= wt a b.
Proof.
  unfold wt, inverse_distance. assert (P : 0 <= dist a b) by apply sqrt_pos. destruct (Req_EM_T _ _); [lra|]. left. apply Rinv_0_lt_compat. lra.
Qed.

Definition nmat (x : nat -> pt) (c : nat) (nb : list nat) : sym2 :=
  Sym2 (rsum (fun j => wt (x c) (x j) * (px (x j) - px (x c)) * (px (x j) - px (x c))) nb)
       (rsum (fun j => wt (x c) (x j) * (px (x j) - px (x c)) * (py (x j) - py (x c))) nb)
       (rsum (fun j => wt (x c) (x j) * (py (x j) - py (x c)) * (py (x j) - py (x c))) nb).
Definition nrhs (x : nat -> pt) (q : nat -> R) (c : nat) (nb : list nat) : pt :=
  Pt (rsum (fun j => wt (x c) (x j) * (px (x j) - px (x c)) * (q j - q c)) nb)
     (rsum (fun j => wt (x c) (x j) * (py (x j) - py (x c)) * (q j - q c)) nb).
Definition lsq (x : nat -> pt) (q : nat -> R) (c : nat) (nb : list nat) : pt :=
  let i := ls_inverse (nmat x c nb) in let s := nrhs x q c nb in
  Pt (m00 i * px s + m01 i * py s) (m01 i * px s + m11 i * py s).

Lemma spread_sdet x c nb : spread x c nb = sdet (nmat x c nb).
Proof.
  unfold spread, sdet, nmat. cbn [m00 m01 m11].
  rewrite (rsum_ext (fun j => inverse_distance (x c) (x j) * ((px (x j) - px (x c)) * (px (x j) - px (x c)))) (fun j => wt (x c) (x j) * (px (x j) - px (x c)) * (px (x j) - px (x c)))) by (intros; unfold wt; ring).
  rewrite (rsum_ext (fun j => inverse_distance (x c) (x j) * ((py (x j) - py (x c)) * (py (x j) - py (x c)))) (fun j => wt (x c) (x j) * (py (x j) - py (x c)) * (py (x j) - py (x c)))) by (intros; unfold wt; ring).
  rewrite (rsum_ext (fun j => inverse_distance (x c) (x j) * ((px (x j) - px (x c)) * (py (x j) - py (x c)))) (fun j => wt (x c) (x j) * (px (x j) - px (x c)) * (py (x j) - py (x c)))) by (intros; unfold wt; ring).
  ring.
Qed.

(* expansion of the misfit around any slope *)
Lemma misfit_expand x q c nb g d :
  misfit x q c nb (Pt (px g + px d) (py g + py d)) = misfit x q c nb g
    - 2 * (px d * (px (nrhs x q c nb) - (m00 (nmat x c nb) * px g + m01 (nmat x c nb) * py g)) +
           py d * (py (nrhs x q c nb) - (m01 (nmat x c nb) * px g + m11 (nmat x c nb) * py g)))
    + rsum (fun j => wt (x c) (x j) * (px d * (px (x j) - px (x c)) + py d * (py (x j) - py (x c))) ^ 2) nb.
Proof.
  unfold misfit, nrhs, nmat. cbn [px py m00 m01 m11]. induction nb as [|j nb IH]; cbn [rsum]; [ring|]. rewrite IH. unfold wt. ring.
Qed.
Lemma lsq_normal x q c nb : degenerate_det <= Rabs (sdet (nmat x c nb)) ->
  m00 (nmat x c nb) * px (lsq x q c nb) + m01 (nmat x c nb) * py (lsq x q c nb) = px (nrhs x q c nb) /\
  m01 (nmat x c nb) * px (lsq x q c nb) + m11 (nmat x c nb) * py (lsq x q c nb) = py (nrhs x q c nb).
Proof.
  intros H. assert (P := degenerate_pos). assert (N : sdet (nmat x c nb) <> 0) by (intros E; rewrite E, Rabs_R0 in H; lra).
  unfold lsq, ls_inverse. assert (F : Rltb (Rabs (sdet (nmat x c nb))) degenerate_det = false) by (apply Rltb_false; exact H). rewrite F.
  set (M := nmat x c nb) in *. set (s := nrhs x q c nb). cbn [px py m00 m01 m11]. unfold sdet in *. split; field; exact N.
Qed.
Lemma lsq_minimal x q c nb g : degenerate_det <= Rabs (sdet (nmat x c nb)) -> misfit x q c nb (lsq x q c nb) <= misfit x q c nb g.
Proof.
  intros H. destruct (lsq_normal x q c nb H) as (N1 & N2). set (b := lsq x q c nb) in *.
  replace g with (Pt (px b + px (Pt (px g - px b) (py g - py b))) (py b + py (Pt (px g - px b) (py g - py b)))).
  2:{ cbn [px py]. destruct g as [gx gy]. cbn [px py]. f_equal; ring. }
  rewrite misfit_expand, N1, N2.
  assert (K : 0 <= rsum (fun j => wt (x c) (x j) * (px (Pt (px g - px b) (py g - py b)) * (px (x j) - px (x c)) + py (Pt (px g - px b) (py g - py b)) * (py (x j) - py (x c))) ^ 2) nb).
  { apply rsum_nonneg. intros j _. apply Rmult_le_pos; [apply wt_nonneg|apply pow2_ge_0]. }
  lra.
Qed.
Lemma lsq_degenerate x q c nb : Rabs (sdet (nmat x c nb)) < degenerate_det -> lsq x q c nb = Pt 0 0.
Proof.
  intros H. unfold lsq, ls_inverse. assert (F : Rltb (Rabs (sdet (nmat x c nb))) degenerate_det = true) by (apply Rltb_true; exact H). rewrite F. cbn [m00 m01 m11].
  apply f_equal2; ring.
Qed.
Lemma lsq_perm x q c nb nb' : Permutation nb nb' -> lsq x q c nb = lsq x q c nb'.
Proof.
  intros P. assert (M : nmat x c nb = nmat x c nb'). { unfold nmat. rewrite !(rsum_perm _ _ _ P). reflexivity. }
  assert (S : nrhs x q c nb = nrhs x q c nb'). { unfold nrhs. rewrite !(rsum_perm _ _ _ P). reflexivity. }
  unfold lsq. rewrite M, S. reflexivity.
Qed.
Lemma lsq_map (f : nat -> nat) x q x' q' c nb : x c = x' (f c) -> q c = q' (f c) -> (forall j, In j nb -> x j = x' (f j) /\ q j = q' (f j)) ->
  lsq x q c nb = lsq x' q' (f c) (map f nb).
Proof.
  intros X Q H.
  assert (M : nmat x c nb = nmat x' (f c) (map f nb)).
  { unfold nmat. rewrite !rsum_map. f_equal; apply rsum_ext; intros j Hj; destruct (H j Hj) as (A & B); rewrite X, A; reflexivity. }
  assert (S : nrhs x q c nb = nrhs x' q' (f c) (map f nb)).
  { unfold nrhs. rewrite !rsum_map. f_equal; apply rsum_ext; intros j Hj; destruct (H j Hj) as (A & B); rewrite X, A, Q, B; reflexivity. }
  unfold lsq. rewrite M, S. reflexivity.
Qed.

Lemma lsq_linear x q c nb g : degenerate_det <= Rabs (sdet (nmat x c nb)) -> (forall j, In j nb -> q j = q c + increment g (x c) (x j)) -> lsq x q c nb = g.
Proof.
  intros D H. destruct (lsq_normal x q c nb D) as (N1 & N2).
  assert (R1 : px (nrhs x q c nb) = m00 (nmat x c nb) * px g + m01 (nmat x c nb) * py g).
  { unfold nrhs, nmat. cbn [px py m00 m01 m11]. rewrite !(Rmult_comm (rsum _ _)), <- !rsum_scal, <- rsum_plus. apply rsum_ext. intros j Hj. rewrite (H j Hj). unfold increment. ring. }
  assert (R2 : py (nrhs x q c nb) = m01 (nmat x c nb) * px g + m11 (nmat x c nb) * py g).
  { unfold nrhs, nmat. cbn [px py m00 m01 m11]. rewrite !(Rmult_comm (rsum _ _)), <- !rsum_scal, <- rsum_plus. apply rsum_ext. intros j Hj. rewrite (H j Hj). unfold increment. ring. }
  assert (P := degenerate_pos). assert (N : sdet (nmat x c nb) <> 0) by (intros E; rewrite E, Rabs_R0 in D; lra).
  rewrite R1 in N1. rewrite R2 in N2. set (M := nmat x c nb) in *. set (b := lsq x q c nb) in *. unfold sdet in N.
  assert (X : (m00 M * m11 M - m01 M * m01 M) * (px b - px g) = 0).
  { replace ((m00 M * m11 M - m01 M * m01 M) * (px b - px g)) with (m11 M * (m00 M * px b + m01 M * py b - (m00 M * px g + m01 M * py g)) - m01 M * (m01 M * px b + m11 M * py b - (m01 M * px g + m11 M * py g))) by ring. rewrite N1, N2. ring. }
  assert (Y : (m00 M * m11 M - m01 M * m01 M) * (py b - py g) = 0).
  { replace ((m00 M * m11 M - m01 M * m01 M) * (py b - py g)) with (m00 M * (m01 M * px b + m11 M * py b - (m01 M * px g + m11 M * py g)) - m01 M * (m00 M * px b + m01 M * py b - (m00 M * px g + m01 M * py g))) by ring. rewrite N1, N2. ring. }
  apply Rmult_integral in X. apply Rmult_integral in Y. destruct X as [X|X]; [contradiction|]. destruct Y as [Y|Y]; [contradiction|].
  destruct b as [bx by'], g as [gx gy]. cbn [px py] in X, Y. apply f_equal2; lra.
Qed.
Lemma neighbours_inside rm c j : edges_inside rm -> In j (neighbours rm c) -> (j < cm_cells (rm_mesh rm))%nat.
Proof.
  intros HE H. unfold neighbours in H. apply in_flat_map in H. destruct H as (e & He & H). destruct (HE e He) as (A & B).
  apply in_app_or in H. destruct H as [H|H]; destruct (Nat.eqb _ _); cbn in H; try contradiction; destruct H as [<-|[]]; assumption.
Qed.

(** ** Coefficients *)
Lemma matrices_spec rm : edges_inside rm -> exists M, matrices rm = Some M /\ length M = (cm_cells (rm_mesh rm) * 3)%nat /\
  forall c, let N := nmat (rm_centroid rm) c (neighbours rm c) in
    nth (c * 3 + 0) M 0 = m00 N /\ nth (c * 3 + 1) M 0 = m01 N /\ nth (c * 3 + 2) M 0 = m11 N.
Proof.
  intros HE. pose (t := fun e => let dx := px (edge_vector rm e) in let dy := py (edge_vector rm e) in let w := edge_weight rm e in [w * dx * dx; w * dx * dy; w * dy * dy]).
  destruct (accumulate 3 (left_cell (rm_mesh rm)) (right_cell (rm_mesh rm)) t t (cm_internal (rm_mesh rm)) (repeat 0 (cm_cells (rm_mesh rm) * 3))) as (M & E & L & V).
  { intros e He. destruct (HE e He). rewrite repeat_length. repeat split; nia. }
  rewrite repeat_length in L. exists M. split; [exact E|]. split; [exact L|]. intros c N.
  assert (K : forall (k : nat) (f : pt -> pt -> R), (forall a b, f a b = f b a) -> (k < 3)%nat ->
    (forall e, nth k (t e) 0 = f (rm_centroid rm (left_cell (rm_mesh rm) e)) (rm_centroid rm (right_cell (rm_mesh rm) e))) ->
    nth (c * 3 + k) M 0 = rsum (fun j => f (rm_centroid rm c) (rm_centroid rm j)) (neighbours rm c)).
  { intros k f S Hk T. rewrite V by exact Hk. rewrite nth_repeat, Rplus_0_l, rsum_neighbours. apply rsum_ext. intros e _. rewrite T.
    destruct (Nat.eqb_spec (left_cell (rm_mesh rm) e) c) as [A|], (Nat.eqb_spec (right_cell (rm_mesh rm) e) c) as [B|]; rewrite ?A, ?B; try reflexivity.
    rewrite (S (rm_centroid rm (left_cell (rm_mesh rm) e))). reflexivity. }
  split; [|split].
  - unfold N, nmat. cbn [m00]. apply (K 0%nat (fun a b => wt a b * (px b - px a) * (px b - px a))); [|lia|].
    + intros a b. rewrite wt_sym. ring. + intros e. unfold t. cbn [nth]. rewrite edge_weight_wt. unfold edge_vector. cbn [px py]. reflexivity.
  - unfold N, nmat. cbn [m01]. apply (K 1%nat (fun a b => wt a b * (px b - px a) * (py b - py a))); [|lia|].
    + intros a b. rewrite wt_sym. ring. + intros e. unfold t. cbn [nth]. rewrite edge_weight_wt. unfold edge_vector. cbn [px py]. reflexivity.
  - unfold N, nmat. cbn [m11]. apply (K 2%nat (fun a b => wt a b * (py b - py a) * (py b - py a))); [|lia|].
    + intros a b. rewrite wt_sym. ring. + intros e. unfold t. cbn [nth]. rewrite edge_weight_wt. unfold edge_vector. cbn [px py]. reflexivity.
Qed.

Definition inv_row (S : sym2) : list R := let i := ls_inverse S in [m00 i; m01 i; m01 i; m11 i].
Definition cell_inv (rm : rmesh) (c : nat) : sym2 := ls_inverse (nmat (rm_centroid rm) c (neighbours rm c)).
Lemma inverses_spec rm M : length M = (cm_cells (rm_mesh rm) * 3)%nat ->
  (forall c, let N := nmat (rm_centroid rm) c (neighbours rm c) in nth (c * 3 + 0) M 0 = m00 N /\ nth (c * 3 + 1) M 0 = m01 N /\ nth (c * 3 + 2) M 0 = m11 N) ->
  inverses rm M = Some (concat (map (fun c => inv_row (nmat (rm_centroid rm) c (neighbours rm c))) (seq 0 (cm_cells (rm_mesh rm))))).
Proof.
  intros L V. unfold inverses. rewrite (omap_map _ (fun c => inv_row (nmat (rm_centroid rm) c (neighbours rm c)))); [rewrite obind_Some; reflexivity|].
  intros c Hc. apply in_seq in Hc. destruct (V c) as (V0 & V1 & V2). unfold inverse_entries.
  rewrite !nth_error_in_range by nia. rewrite !obind_Some, V0, V1, V2. set (N := nmat _ _ _). unfold inv_row, ls_inverse.
  change (m00 N * m11 N - m01 N * m01 N) with (sdet N).
  destruct (Rltb (Rabs (sdet N)) degenerate_det) eqn:F; [reflexivity|]. apply Rltb_false in F. assert (P := degenerate_pos).
  rewrite rdiv_some; [rewrite obind_Some; reflexivity|]. intros E. rewrite E, Rabs_R0 in F. lra.
Qed.
Definition coeff_row (rm : rmesh) (e : nat) : list R :=
  let wdx := edge_weight rm e * px (edge_vector rm e) in let wdy := edge_weight rm e * py (edge_vector rm e) in
  let il := cell_inv rm (left_cell (rm_mesh rm) e) in let ir := cell_inv rm (right_cell (rm_mesh rm) e) in
  [m00 il * wdx + m01 il * wdy; m01 il * wdx + m11 il * wdy; m00 ir * wdx + m01 ir * wdy; m01 ir * wdx + m11 ir * wdy].
Lemma fetch_concat n {A} (row : A -> list R) l i a : (forall a, length (row a) = n) -> nth_error l i = Some a -> fetch (concat (map row l)) (i * n) n = Some (row a).
Proof.
  intros H Hi. rewrite (Nat.mul_comm i n), <- (app_nil_r (concat _)). apply fetch_rows; [|apply offsets_map; exact Hi].
  apply Forall_forall. intros r Hr. apply in_map_iff in Hr. destruct Hr as (z & <- & _). apply H.
Qed.
Lemma nth_error_seq0 n i : (i < n)%nat -> nth_error (seq 0 n) i = Some i.
Proof. intros H. rewrite (nth_error_nth' (seq 0 n) 0%nat) by (rewrite seq_length; exact H). rewrite seq_nth by exact H. reflexivity. Qed.
Lemma coeffs_spec rm : edges_inside rm -> PrecomputeLSGradCoeffs rm = Some (concat (map (coeff_row rm) (cm_internal (rm_mesh rm)))).
Proof.
  intros HE. destruct (matrices_spec rm HE) as (M & E & L & V). unfold PrecomputeLSGradCoeffs. rewrite E, obind_Some, (inverses_spec rm M L V), obind_Some.
  rewrite (omap_map _ (coeff_row rm)); [rewrite obind_Some; reflexivity|]. intros e He. destruct (HE e He) as (A & B). unfold coeff_entries.
  rewrite (fetch_concat 4 (fun c => inv_row (nmat (rm_centroid rm) c (neighbours rm c))) _ _ _ (fun _ => eq_refl) (nth_error_seq0 _ _ A)), obind_Some.
  rewrite (fetch_concat 4 (fun c => inv_row (nmat (rm_centroid rm) c (neighbours rm c))) _ _ _ (fun _ => eq_refl) (nth_error_seq0 _ _ B)), obind_Some.
  unfold inv_row, coeff_row, cell_inv. cbn [nth]. reflexivity.
Qed.

(** ** Gradients *)
Lemma combine_index {A} (l : list A) : forall off i a, In (i, a) (combine (seq off (length l)) l) -> (off <= i)%nat /\ nth_error l (i - off) = Some a.
Proof.
  induction l as [|b l IH]; intros off i a H; cbn [length seq combine] in H; [contradiction|]. destruct H as [E|H].
  - injection E as <- <-. rewrite Nat.sub_diag. split; [lia|reflexivity].
  - destruct (IH (S off) i a H) as (L & N). split; [lia|]. replace (i - off)%nat with (S (i - S off)) by lia. exact N.
Qed.
Lemma rsum_combine {A} (f : A -> R) (l : list A) : forall off, rsum (fun p => f (snd p)) (combine (seq off (length l)) l) = rsum f l.
Proof. induction l as [|a l IH]; intros off; cbn [length seq combine rsum snd]; [reflexivity|]. rewrite IH. reflexivity. Qed.

Lemma gradient_spec rm q k : edges_inside rm -> (k < 3)%nat -> length q = (cm_cells (rm_mesh rm) * 3)%nat ->
  exists g, gradient_field rm (concat (map (coeff_row rm) (cm_internal (rm_mesh rm)))) q k = Some g /\ length g = (cm_cells (rm_mesh rm) * 2)%nat /\
    forall c, Pt (nth (c * 2) g 0) (nth (c * 2 + 1) g 0) = lsq (rm_centroid rm) (entry q k) c (neighbours rm c).
Proof.
  intros HE Hk HQ. set (m := rm_mesh rm) in *.
  pose (dq := fun e => entry q k (right_cell m e) - entry q k (left_cell m e)).
  pose (vl := fun ie : nat * nat => [nth 0 (coeff_row rm (snd ie)) 0 * dq (snd ie); nth 1 (coeff_row rm (snd ie)) 0 * dq (snd ie)]).
  pose (vr := fun ie : nat * nat => [nth 2 (coeff_row rm (snd ie)) 0 * dq (snd ie); nth 3 (coeff_row rm (snd ie)) 0 * dq (snd ie)]).
  unfold gradient_field. fold m. set (es := cm_internal m).
  rewrite (ofold_ext _ (fun x ie => let* x := add_into x (left_cell m (snd ie) * 2) (vl ie) in add_into x (right_cell m (snd ie) * 2) (vr ie))).
  2:{ intros s (i, e) Hin. destruct (combine_index _ _ _ _ Hin) as (_ & Hi). rewrite Nat.sub_0_r in Hi. assert (He := nth_error_In _ _ Hi). destruct (HE e He) as (A & B). fold m in A, B.
      unfold add_gradient. cbn [fst snd]. rewrite (fetch_concat 4 (coeff_row rm) es i e (fun _ => eq_refl) Hi), obind_Some. fold m. rewrite !nth_error_in_range by nia. rewrite !obind_Some. reflexivity. }
  destruct (accumulate 2 (fun ie => left_cell m (snd ie)) (fun ie => right_cell m (snd ie)) vl vr (combine (seq 0 (length es)) es) (repeat 0 (cm_cells m * 2))) as (g & E & L & V).
  { intros (i, e) Hin. destruct (combine_index _ _ _ _ Hin) as (_ & Hi). rewrite Nat.sub_0_r in Hi. destruct (HE e (nth_error_In _ _ Hi)) as (A & B). fold m in A, B. rewrite repeat_length. cbn [snd]. repeat split; nia. }
  rewrite repeat_length in L. exists g. split; [exact E|]. split; [exact L|]. intros c.
  pose (x := rm_centroid rm). pose (inv := cell_inv rm c).
  assert (K : forall j (a b : R), (j < 2)%nat ->
     (forall e, nth j (vl (0%nat, e)) 0 = (let il := cell_inv rm (left_cell m e) in (if Nat.eqb j 0 then m00 il else m01 il) * (edge_weight rm e * px (edge_vector rm e)) + (if Nat.eqb j 0 then m01 il else m11 il) * (edge_weight rm e * py (edge_vector rm e))) * dq e) ->
     (forall e, nth j (vr (0%nat, e)) 0 = (let ir := cell_inv rm (right_cell m e) in (if Nat.eqb j 0 then m00 ir else m01 ir) * (edge_weight rm e * px (edge_vector rm e)) + (if Nat.eqb j 0 then m01 ir else m11 ir) * (edge_weight rm e * py (edge_vector rm e))) * dq e) ->
     a = (if Nat.eqb j 0 then m00 inv else m01 inv) -> b = (if Nat.eqb j 0 then m01 inv else m11 inv) ->
     nth (c * 2 + j) g 0 = a * px (nrhs x (entry q k) c (neighbours rm c)) + b * py (nrhs x (entry q k) c (neighbours rm c))).
  { intros j a b Hj HL HR Ha Hb. rewrite V by exact Hj. rewrite nth_repeat, Rplus_0_l.
    transitivity (rsum (fun e => (if Nat.eqb (left_cell m e) c then nth j (vl (0%nat, e)) 0 else 0) + (if Nat.eqb (right_cell m e) c then nth j (vr (0%nat, e)) 0 else 0)) es).
    { exact (rsum_combine (fun e => (if Nat.eqb (left_cell m e) c then nth j (vl (0%nat, e)) 0 else 0) + (if Nat.eqb (right_cell m e) c then nth j (vr (0%nat, e)) 0 else 0)) es 0). }
    unfold nrhs. cbn [px py]. rewrite <- !rsum_scal, <- rsum_plus, rsum_neighbours. apply rsum_ext. intros e _. fold m. rewrite HL, HR, Ha, Hb.
    assert (W := edge_weight_wt rm e). fold m x in W. unfold edge_vector, dq. fold m x. cbn [px py]. rewrite W.
    destruct (Nat.eqb_spec (left_cell m e) c) as [A|], (Nat.eqb_spec (right_cell m e) c) as [B|]; cbv zeta; unfold inv; rewrite ?A, ?B; fold x; try ring.
    all: rewrite (wt_sym (x (left_cell m e)) (x c)); ring. }
  assert (K0 := K 0%nat _ _ ltac:(lia) (fun _ => eq_refl) (fun _ => eq_refl) eq_refl eq_refl).
  assert (K1 := K 1%nat _ _ ltac:(lia) (fun _ => eq_refl) (fun _ => eq_refl) eq_refl eq_refl).
  rewrite Nat.add_0_r in K0. cbn [Nat.eqb] in K0, K1. rewrite K0, K1. reflexivity.
Qed.

Lemma slope_nth grads k c g : nth_error grads k = Some g -> slope grads k c = Pt (nth (c * 2) g 0) (nth (c * 2 + 1) g 0).
Proof. intros H. unfold slope. rewrite (nth_error_nth grads k [] H). reflexivity. Qed.
Lemma gradients_spec rm q : edges_inside rm -> length q = (cm_cells (rm_mesh rm) * 3)%nat ->
  exists coeffs grads, PrecomputeLSGradCoeffs rm = Some coeffs /\ ComputeLeastSquaresGradients rm coeffs q = Some grads /\ shaped rm grads /\
    forall k c, (k < 3)%nat -> slope grads k c = lsq (rm_centroid rm) (entry q k) c (neighbours rm c).
Proof.
  intros HE HQ.
  destruct (gradient_spec rm q 0 HE ltac:(lia) HQ) as (g0 & E0 & L0 & V0). destruct (gradient_spec rm q 1 HE ltac:(lia) HQ) as (g1 & E1 & L1 & V1). destruct (gradient_spec rm q 2 HE ltac:(lia) HQ) as (g2 & E2 & L2 & V2).
  eexists; exists [g0; g1; g2]. split; [exact (coeffs_spec rm HE)|]. unfold ComputeLeastSquaresGradients. cbn [seq omap].
  rewrite E0, E1, E2, !obind_Some. split; [reflexivity|]. split; [split; [reflexivity|intros g [<-|[<-|[<-|[]]]]; assumption]|].
  intros k c Hk. do 3 (destruct k as [|k]; [unfold slope; cbn [nth]; first [apply V0|apply V1|apply V2]|]). lia.
Qed.

(** ** Exchange *)
Lemma omap_rel {A B} (f : A -> option B) (P : A -> B -> Prop) l : (forall a, In a l -> exists b, f a = Some b /\ P a b) -> exists bs, omap f l = Some bs /\ Forall2 P l bs.
Proof.
  induction l as [|a l IH]; intros H; cbn [omap]; [exists []; split; [reflexivity|constructor]|].
  destruct (H a (or_introl eq_refl)) as (b & Eb & Pb). destruct IH as (bs & E & F). { intros a' Ha. apply H. right. exact Ha. }
  exists (b :: bs). rewrite Eb, obind_Some, E, obind_Some. split; [reflexivity|constructor; assumption].
Qed.
Lemma Forall2_get {A B} (P : A -> B -> Prop) l bs i a : Forall2 P l bs -> nth_error l i = Some a -> exists b, nth_error bs i = Some b /\ P a b.
Proof. intros F. revert i. induction F as [|x y l bs H F IH]; intros [|i] Hi; cbn in *; try discriminate; [injection Hi as <-; eauto|apply IH; exact Hi]. Qed.
Lemma Forall2_get_r {A B} (P : A -> B -> Prop) l bs i b : Forall2 P l bs -> nth_error bs i = Some b -> exists a, nth_error l i = Some a /\ P a b.
Proof. intros F. revert i. induction F as [|x y l bs H F IH]; intros [|i] Hi; cbn in *; try discriminate; [injection Hi as <-; eauto|apply IH; exact Hi]. Qed.
Lemma combine_get {A B} (l : list A) (m : list B) i a b : nth_error l i = Some a -> nth_error m i = Some b -> nth_error (combine l m) i = Some (a, b).
Proof. revert m i. induction l as [|x l IH]; intros [|y m] [|i] Ha Hb; cbn in *; try discriminate; [congruence|apply IH; assumption]. Qed.
Lemma combine_In {A B} (P : A -> B -> Prop) (l : list A) (m : list B) a b : Forall2 P l m -> In (a, b) (combine l m) -> P a b /\ In a l.
Proof. intros F. induction F as [|x y l m H F IH]; cbn [combine]; intros Hin; [contradiction|]. destruct Hin as [E|Hin]; [injection E as <- <-; split; [exact H|left; reflexivity]|]. destruct (IH Hin). split; [assumption|right; assumption]. Qed.
Lemma combine_Forall2 {A B C} (P : A -> B -> Prop) (Q : A * B -> C -> Prop) (T : A -> C -> Prop) l m r :
  Forall2 P l m -> Forall2 Q (combine l m) r -> (forall a b c, Q (a, b) c -> T a c) -> Forall2 T l r.
Proof.
  intros F. revert r. induction F as [|x y l m H F IH]; cbn [combine]; intros r G K; inversion G; subst; constructor; [eapply K; eassumption|apply IH; assumption].
Qed.

Lemma numbered_position m c : numbered m -> (c < cm_cells m)%nat -> cm_owned m c = true -> nth_error (owned_cells m) (cm_l2o m c) = Some c.
Proof.
  intros N Hc Ho. assert (I : In c (owned_cells m)) by (unfold owned_cells; apply filter_In; split; [apply in_seq; lia|exact Ho]).
  apply In_nth_error in I. destruct I as (i & Hi). rewrite (N i c Hi). exact Hi.
Qed.
Lemma numbered_inj m c c' : numbered m -> (c < cm_cells m)%nat -> cm_owned m c = true -> (c' < cm_cells m)%nat -> cm_owned m c' = true -> cm_l2o m c = cm_l2o m c' -> c = c'.
Proof. intros N H1 H2 H3 H4 E. assert (A := numbered_position m c N H1 H2). assert (B := numbered_position m c' N H3 H4). rewrite E in A. congruence. Qed.
Lemma numbered_bound m c : numbered m -> (c < cm_cells m)%nat -> cm_owned m c = true -> (cm_l2o m c < length (owned_cells m))%nat.
Proof. intros N H1 H2. apply nth_error_Some. rewrite (numbered_position m c N H1 H2). discriminate. Qed.

Definition grad_at (grads : list (list R)) (i c k : nat) : R := nth (c * 2 + k) (nth i grads []) 0.
Lemma shaped_get rm grads i : shaped rm grads -> (i < 3)%nat -> nth_error grads i = Some (nth i grads []) /\ length (nth i grads []) = (cm_cells (rm_mesh rm) * 2)%nat.
Proof.
  intros (L & H) Hi. assert (E : nth_error grads i = Some (nth i grads [])) by (apply nth_error_nth'; lia). split; [exact E|]. apply H. exact (nth_error_In _ _ E).
Qed.

Lemma pack_cell_spec rm grads k x c : shaped rm grads -> (k < 2)%nat -> numbered (rm_mesh rm) -> length x = (3 * length (owned_cells (rm_mesh rm)))%nat ->
  (c < cm_cells (rm_mesh rm))%nat ->
  exists x', pack_cell (rm_mesh rm) grads k x c = Some x' /\ length x' = length x /\
    forall c' i, (i < 3)%nat -> (c' < cm_cells (rm_mesh rm))%nat -> cm_owned (rm_mesh rm) c' = true ->
      nth (3 * cm_l2o (rm_mesh rm) c' + i) x' 0 = if Nat.eqb c' c then grad_at grads i c k else nth (3 * cm_l2o (rm_mesh rm) c' + i) x 0.
Proof.
  intros S Hk N L Hc. unfold pack_cell. destruct (cm_owned (rm_mesh rm) c) eqn:O.
  2:{ exists x. split; [reflexivity|]. split; [reflexivity|]. intros c' i Hi Hc' Ho. destruct (Nat.eqb_spec c' c) as [->|]; [congruence|reflexivity]. }
  assert (B := numbered_bound _ c N Hc O). cbn [seq ofold].
  destruct (shaped_get rm grads 0 S ltac:(lia)) as (E0 & L0). destruct (shaped_get rm grads 1 S ltac:(lia)) as (E1 & L1). destruct (shaped_get rm grads 2 S ltac:(lia)) as (E2 & L2).
  rewrite E0, obind_Some, nth_error_in_range by nia. rewrite obind_Some.
  destruct (upd_some x (3 * cm_l2o (rm_mesh rm) c + 0) (nth (c * 2 + k) (nth 0 grads []) 0)) as (x0 & U0); [lia|]. rewrite U0, obind_Some. assert (M0 := upd_length _ _ _ _ U0).
  rewrite E1, obind_Some, nth_error_in_range by nia. rewrite obind_Some.
  destruct (upd_some x0 (3 * cm_l2o (rm_mesh rm) c + 1) (nth (c * 2 + k) (nth 1 grads []) 0)) as (x1 & U1); [lia|]. rewrite U1, obind_Some. assert (M1 := upd_length _ _ _ _ U1).
  rewrite E2, obind_Some, nth_error_in_range by nia. rewrite obind_Some.
  destruct (upd_some x1 (3 * cm_l2o (rm_mesh rm) c + 2) (nth (c * 2 + k) (nth 2 grads []) 0)) as (x2 & U2); [lia|]. rewrite U2, obind_Some. assert (M2 := upd_length _ _ _ _ U2).
  exists x2. split; [reflexivity|]. split; [lia|]. intros c' i Hi Hc' Ho. rewrite (upd_nth _ _ _ _ _ U2), (upd_nth _ _ _ _ _ U1), (upd_nth _ _ _ _ _ U0).
  destruct (Nat.eqb_spec c' c) as [->|NE].
  - unfold grad_at. do 3 (destruct i as [|i]; [repeat match goal with |- context [Nat.eqb ?a ?b] => destruct (Nat.eqb_spec a b); try lia end; reflexivity|]). lia.
  - assert (D : cm_l2o (rm_mesh rm) c' <> cm_l2o (rm_mesh rm) c) by (intros E; apply NE; exact (numbered_inj _ _ _ N Hc' Ho Hc O E)).
    repeat match goal with |- context [Nat.eqb ?a ?b] => destruct (Nat.eqb_spec a b); try lia end. reflexivity.
Qed.
Lemma pack_spec rm grads k : shaped rm grads -> (k < 2)%nat -> numbered (rm_mesh rm) ->
  exists x, pack (rm_mesh rm) grads k = Some x /\ length x = (3 * length (owned_cells (rm_mesh rm)))%nat /\
    forall c i, (i < 3)%nat -> (c < cm_cells (rm_mesh rm))%nat -> cm_owned (rm_mesh rm) c = true -> nth (3 * cm_l2o (rm_mesh rm) c + i) x 0 = grad_at grads i c k.
Proof.
  intros S Hk N. unfold pack.
  assert (K : forall l x, (forall c, In c l -> (c < cm_cells (rm_mesh rm))%nat) -> length x = (3 * length (owned_cells (rm_mesh rm)))%nat ->
    exists x', ofold (pack_cell (rm_mesh rm) grads k) l x = Some x' /\ length x' = length x /\
      forall c i, (i < 3)%nat -> (c < cm_cells (rm_mesh rm))%nat -> cm_owned (rm_mesh rm) c = true ->
        nth (3 * cm_l2o (rm_mesh rm) c + i) x' 0 = if existsb (Nat.eqb c) l then grad_at grads i c k else nth (3 * cm_l2o (rm_mesh rm) c + i) x 0).
  { induction l as [|a l IH]; intros x Hl Lx; cbn [ofold existsb].
    - exists x. repeat split; auto.
    - destruct (pack_cell_spec rm grads k x a S Hk N Lx (Hl a (or_introl eq_refl))) as (x1 & E1 & L1 & V1). rewrite E1, obind_Some.
      destruct (IH x1 (fun c H => Hl c (or_intror H)) ltac:(lia)) as (x2 & E2 & L2 & V2). exists x2. split; [exact E2|]. split; [lia|].
      intros c i Hi Hc Ho. rewrite V2, V1 by assumption. destruct (Nat.eqb_spec c a) as [->|]; cbn [orb]; [destruct (existsb _ _); reflexivity|reflexivity]. }
  destruct (K (seq 0 (cm_cells (rm_mesh rm))) (repeat 0 (3 * length (owned_cells (rm_mesh rm))))) as (x & E & L & V).
  { intros c Hc. apply in_seq in Hc. lia. } { apply repeat_length. }
  rewrite repeat_length in L. exists x. split; [exact E|]. split; [exact L|]. intros c i Hi Hc Ho. rewrite V by assumption.
  assert (X : existsb (Nat.eqb c) (seq 0 (cm_cells (rm_mesh rm))) = true). { apply existsb_exists. exists c. split; [apply in_seq; lia|apply Nat.eqb_refl]. }
  rewrite X. reflexivity.
Qed.
Lemma unpack_field_spec m l k i g : (i < 3)%nat -> (k < 2)%nat -> length l = (3 * cm_cells m)%nat -> length g = (cm_cells m * 2)%nat ->
  exists g', unpack_field m l k i g = Some g' /\ length g' = length g /\
    forall c k', (k' < 2)%nat -> (c < cm_cells m)%nat -> nth (c * 2 + k') g' 0 = if Nat.eqb k' k then nth (3 * c + i) l 0 else nth (c * 2 + k') g 0.
Proof.
  intros Hi Hk Ll Lg. unfold unpack_field.
  assert (K : forall cs g, (forall c, In c cs -> (c < cm_cells m)%nat) -> length g = (cm_cells m * 2)%nat ->
    exists g', ofold (fun g c => let* v := nth_error l (3 * c + i) in upd g (c * 2 + k) v) cs g = Some g' /\ length g' = length g /\
      forall c k', (k' < 2)%nat -> (c < cm_cells m)%nat -> nth (c * 2 + k') g' 0 = if (Nat.eqb k' k && existsb (Nat.eqb c) cs)%bool then nth (3 * c + i) l 0 else nth (c * 2 + k') g 0).
  { induction cs as [|a cs IH]; intros g0 Hl L0; cbn [ofold existsb].
    - exists g0. split; [reflexivity|]. split; [reflexivity|]. intros. rewrite Bool.andb_false_r. reflexivity.
    - assert (Ha := Hl a (or_introl eq_refl)). rewrite nth_error_in_range by nia. rewrite obind_Some.
      destruct (upd_some g0 (a * 2 + k) (nth (3 * a + i) l 0)) as (g1 & E1); [nia|]. rewrite E1, obind_Some. assert (L1 := upd_length _ _ _ _ E1).
      destruct (IH g1 (fun c H => Hl c (or_intror H)) ltac:(lia)) as (g2 & E2 & L2 & V2). exists g2. split; [exact E2|]. split; [lia|].
      intros c k' Hk' Hc. rewrite V2, (upd_nth _ _ _ _ _ E1) by assumption.
      destruct (Nat.eqb_spec k' k) as [->|NE]; cbn [andb].
      + destruct (Nat.eqb_spec c a) as [->|NA]; cbn [orb]; [rewrite Nat.eqb_refl; destruct (existsb _ _); reflexivity|].
        destruct (existsb _ _); [reflexivity|]. destruct (Nat.eqb_spec (c * 2 + k) (a * 2 + k)); [lia|reflexivity].
      + destruct (Nat.eqb_spec (c * 2 + k') (a * 2 + k)); [lia|reflexivity]. }
  destruct (K (seq 0 (cm_cells m)) g) as (g' & E & L & V); [intros c Hc; apply in_seq in Hc; lia|exact Lg|]. exists g'. split; [exact E|]. split; [exact L|].
  intros c k' Hk' Hc. rewrite V by assumption.
  assert (X : existsb (Nat.eqb c) (seq 0 (cm_cells m)) = true). { apply existsb_exists. exists c. split; [apply in_seq; lia|apply Nat.eqb_refl]. }
  rewrite X, Bool.andb_true_r. reflexivity.
Qed.
Lemma unpack_spec rm l k grads : shaped rm grads -> (k < 2)%nat -> length l = (3 * cm_cells (rm_mesh rm))%nat ->
  exists grads', unpack (rm_mesh rm) l k grads = Some grads' /\ shaped rm grads' /\
    forall i c k', (i < 3)%nat -> (k' < 2)%nat -> (c < cm_cells (rm_mesh rm))%nat -> grad_at grads' i c k' = if Nat.eqb k' k then nth (3 * c + i) l 0 else grad_at grads i c k'.
Proof.
  intros S Hk Ll. destruct (shaped_get rm grads 0 S ltac:(lia)) as (_ & L0). destruct (shaped_get rm grads 1 S ltac:(lia)) as (_ & L1). destruct (shaped_get rm grads 2 S ltac:(lia)) as (_ & L2).
  destruct S as (L & _). destruct grads as [|g0 [|g1 [|g2 [|]]]]; try discriminate L. cbn [nth] in L0, L1, L2.
  unfold unpack. cbn [length seq combine omap fst snd].
  destruct (unpack_field_spec _ l k 0 g0 ltac:(lia) Hk Ll L0) as (h0 & E0 & M0 & V0). destruct (unpack_field_spec _ l k 1 g1 ltac:(lia) Hk Ll L1) as (h1 & E1 & M1 & V1). destruct (unpack_field_spec _ l k 2 g2 ltac:(lia) Hk Ll L2) as (h2 & E2 & M2 & V2).
  rewrite E0, E1, E2, !obind_Some. exists [h0; h1; h2]. split; [reflexivity|]. split; [split; [reflexivity|intros g [<-|[<-|[<-|[]]]]; lia]|].
  intros i c k' Hi Hk' Hc. unfold grad_at. do 3 (destruct i as [|i]; [cbn [nth]; first [apply V0|apply V1|apply V2]; assumption|]). lia.
Qed.

Lemma nth_concat_seq n row (N c k : nat) : (forall a, length (row a) = n) -> (c < N)%nat -> (k < n)%nat -> nth (n * c + k) (concat (map row (seq 0 N))) 0 = nth k (row c) 0.
Proof.
  intros H Hc Hk. assert (F := fetch_concat n row (seq 0 N) c c H (nth_error_seq0 N c Hc)).
  assert (L : length (concat (map row (seq 0 N))) = (N * n)%nat).
  { generalize 0%nat. clear Hc F. induction N as [|N IH]; intros s; cbn [seq map concat]; [reflexivity|]. rewrite app_length, H, IH. lia. }
  rewrite fetch_block in F by nia. injection F as F. rewrite <- F, nth_block by exact Hk. rewrite (Nat.mul_comm n c). reflexivity.
Qed.
Lemma length_concat_seq n row (N : nat) : (forall a, In a (seq 0 N) -> length (row a : list R) = n) -> length (concat (map row (seq 0 N))) = (n * N)%nat.
Proof.
  intros H. assert (K : forall l, (forall a, In a l -> length (row a) = n) -> length (concat (map row l)) = (n * length l)%nat).
  { induction l as [|a l IH]; intros G; cbn [map concat length]; [lia|]. rewrite app_length, (G a (or_introl eq_refl)), IH; [lia|]. intros b Hb. apply G. right. exact Hb. }
  rewrite (K _ H), seq_length. reflexivity.
Qed.

Definition three (x : list R) (i : nat) : list R := [nth (3 * i + 0) x 0; nth (3 * i + 1) x 0; nth (3 * i + 2) x 0].
Lemma fetch_three x i : (3 * i + 3 <= length x)%nat -> fetch x (i * 3) 3 = Some (three x i).
Proof. intros H. unfold fetch. cbn [seq omap]. rewrite !nth_error_in_range by lia. rewrite !obind_Some. unfold three. rewrite (Nat.mul_comm i 3). reflexivity. Qed.

Lemma communicate_spec ps k all : partitioned ps -> (k < 2)%nat -> Forall2 (fun p g => shaped (pr_mesh p) g) ps all ->
  exists all', communicate_component ps k all = Some all' /\ Forall2 (fun p g => shaped (pr_mesh p) g) ps all' /\
    forall r p g g' c r' c' g'' i k', nth_error ps r = Some p -> nth_error all r = Some g -> nth_error all' r = Some g' -> (c < cm_cells (rm_mesh (pr_mesh p)))%nat ->
      owner_is ps p c r' c' -> nth_error all r' = Some g'' -> (i < 3)%nat -> (k' < 2)%nat ->
      grad_at g' i c k' = if Nat.eqb k' k then grad_at g'' i c' k else grad_at g i c k'.
Proof.
  intros (N & O) Hk S. unfold communicate_component.
  destruct (omap_rel (fun pg => pack (rm_mesh (pr_mesh (fst pg))) (snd pg) k)
    (fun pg x => length x = (3 * length (owned_cells (rm_mesh (pr_mesh (fst pg)))))%nat /\ forall c i, (i < 3)%nat -> (c < cm_cells (rm_mesh (pr_mesh (fst pg))))%nat -> cm_owned (rm_mesh (pr_mesh (fst pg))) c = true -> nth (3 * cm_l2o (rm_mesh (pr_mesh (fst pg))) c + i) x 0 = grad_at (snd pg) i c k)
    (combine ps all)) as (global & E & G).
  { intros (p, g) Hin. destruct (combine_In _ _ _ _ _ S Hin) as (Sg & Hp). cbn [fst snd]. destruct (pack_spec (pr_mesh p) g k Sg Hk (N p Hp)) as (x & Ex & Lx & Vx). exists x. auto. }
  rewrite E, obind_Some.
  assert (GL : forall p, In p ps -> exists l, global_to_local p global = Some l /\ length l = (3 * cm_cells (rm_mesh (pr_mesh p)))%nat /\
    forall c r' c' g'' i, (c < cm_cells (rm_mesh (pr_mesh p)))%nat -> owner_is ps p c r' c' -> nth_error all r' = Some g'' -> (i < 3)%nat -> nth (3 * c + i) l 0 = grad_at g'' i c' k).
  { intros p Hp. unfold global_to_local. rewrite (omap_map _ (fun c => three (nth (fst (pr_owner p c)) global []) (snd (pr_owner p c)))).
    - rewrite obind_Some. eexists. split; [reflexivity|]. split; [apply length_concat_seq; reflexivity|].
      intros c r' c' g'' i Hc (p' & Hp' & Hc' & Ho & EO) Hg Hi. rewrite (nth_concat_seq 3) by (trivial; reflexivity). rewrite EO. cbn [fst snd].
      destruct (Forall2_get _ _ _ r' (p', g'') G (combine_get _ _ _ _ _ Hp' Hg)) as (x & Hx & Lx & Vx). cbn [fst snd] in Lx, Vx. rewrite (nth_error_nth global r' [] Hx).
      rewrite <- (Vx c' i Hi Hc' Ho). unfold three. do 3 (destruct i as [|i]; [reflexivity|]). lia.
    - intros c Hc. apply in_seq in Hc. destruct (O p c Hp ltac:(lia)) as (r' & c' & p' & Hp' & Hc' & Ho & EO). rewrite EO. cbn [fst snd].
      destruct (Forall2_get _ _ _ r' p' S Hp') as (g'' & Hg & _). destruct (Forall2_get _ _ _ r' (p', g'') G (combine_get _ _ _ _ _ Hp' Hg)) as (x & Hx & Lx & Vx). cbn [fst snd] in Lx.
      rewrite Hx, obind_Some, (nth_error_nth global r' [] Hx). apply fetch_three. assert (B := numbered_bound _ c' (N p' (nth_error_In _ _ Hp')) Hc' Ho). lia. }
  destruct (omap_rel (fun pg => let* l := global_to_local (fst pg) global in unpack (rm_mesh (pr_mesh (fst pg))) l k (snd pg))
    (fun pg g' => shaped (pr_mesh (fst pg)) g' /\ forall c r' c' g'' i k', (c < cm_cells (rm_mesh (pr_mesh (fst pg))))%nat -> owner_is ps (fst pg) c r' c' -> nth_error all r' = Some g'' -> (i < 3)%nat -> (k' < 2)%nat ->
      grad_at g' i c k' = if Nat.eqb k' k then grad_at g'' i c' k else grad_at (snd pg) i c k')
    (combine ps all)) as (all' & E' & G').
  { intros (p, g) Hin. destruct (combine_In _ _ _ _ _ S Hin) as (Sg & Hp). cbn [fst snd]. destruct (GL p Hp) as (l & El & Ll & Vl). rewrite El, obind_Some.
    destruct (unpack_spec (pr_mesh p) l k g Sg Hk Ll) as (g' & Eg & Sg' & Vg). exists g'. split; [exact Eg|]. split; [exact Sg'|].
    intros c r' c' g'' i k' Hc HO Hg Hi Hk'. rewrite Vg by assumption. destruct (Nat.eqb_spec k' k) as [->|]; [|reflexivity]. apply (Vl c r' c' g'' i); assumption. }
  rewrite E'. exists all'. split; [reflexivity|]. split.
  - eapply combine_Forall2; [exact S|exact G'|]. intros p g g' (H & _). exact H.
  - intros r p g g' c r' c' g'' i k' Hp Hg Hg' Hc HO Hg'' Hi Hk'. destruct (Forall2_get _ _ _ r (p, g) G' (combine_get _ _ _ _ _ Hp Hg)) as (y & Hy & _ & V). cbn [fst snd] in V.
    assert (y = g') by congruence. subst y. apply (V c r' c' g'' i k'); assumption.
Qed.
Lemma slope_grad_at grads k c : slope grads k c = Pt (grad_at grads k c 0) (grad_at grads k c 1).
Proof. unfold slope, grad_at. rewrite Nat.add_0_r. reflexivity. Qed.
Lemma exchange_spec ps all : partitioned ps -> Forall2 (fun p g => shaped (pr_mesh p) g) ps all ->
  exists all', CommunicateCellGradients ps all = Some all' /\ Forall2 (fun p g => shaped (pr_mesh p) g) ps all' /\
    forall r p g' c r' c' g'' k, nth_error ps r = Some p -> nth_error all' r = Some g' -> (c < cm_cells (rm_mesh (pr_mesh p)))%nat ->
      owner_is ps p c r' c' -> nth_error all r' = Some g'' -> (k < 3)%nat -> slope g' k c = slope g'' k c'.
Proof.
  intros P S. unfold CommunicateCellGradients. cbn [seq ofold].
  destruct (communicate_spec ps 0 all P ltac:(lia) S) as (a1 & E1 & S1 & V1). rewrite E1, obind_Some.
  destruct (communicate_spec ps 1 a1 P ltac:(lia) S1) as (a2 & E2 & S2 & V2). rewrite E2, obind_Some. exists a2. split; [reflexivity|]. split; [exact S2|].
  intros r p g' c r' c' g'' k Hp Hg' Hc HO Hg'' Hk. rewrite !slope_grad_at.
  destruct (Forall2_get _ _ _ r p S Hp) as (g0 & Hg0 & _). destruct (Forall2_get _ _ _ r p S1 Hp) as (g1 & Hg1 & _).
  destruct HO as (p' & Hp' & Hc' & Ho & EO). assert (HO : owner_is ps p c r' c') by (exists p'; auto).
  destruct (Forall2_get _ _ _ r' p' S1 Hp') as (g1' & Hg1' & _).
  rewrite (V2 r p g1 g' c r' c' g1' k 0%nat), (V2 r p g1 g' c r' c' g1' k 1%nat) by (assumption || lia). cbn [Nat.eqb].
  rewrite (V1 r p g0 g1 c r' c' g'' k 0%nat) by (assumption || lia). cbn [Nat.eqb].
  destruct (proj2 P p' c' (nth_error_In _ _ Hp') Hc') as (r2 & c2 & HO2). assert (X := HO2). destruct X as (p2 & Hp2 & _). destruct (Forall2_get _ _ _ r2 p2 S Hp2) as (g2 & Hg2 & _).
  rewrite (V1 r' p' g'' g1' c' r2 c2 g2 k 1%nat) by (assumption || lia). cbn [Nat.eqb]. reflexivity.
Qed.

(** ** Face values *)
Lemma fetch_two x i : (i * 2 + 2 <= length x)%nat -> fetch x (i * 2) 2 = Some [nth (i * 2) x 0; nth (i * 2 + 1) x 0].
Proof. intros H. unfold fetch. cbn [seq omap]. rewrite !nth_error_in_range by lia. rewrite !obind_Some, Nat.add_0_r. reflexivity. Qed.
Lemma face_values_side lim rm u grads e k : shaped rm grads -> length u = (cm_cells (rm_mesh rm) * 3)%nat -> (k < 3)%nat ->
  (left_cell (rm_mesh rm) e < cm_cells (rm_mesh rm))%nat -> (right_cell (rm_mesh rm) e < cm_cells (rm_mesh rm))%nat ->
  face_values lim rm u grads e k = Some (side lim rm u grads e (left_cell (rm_mesh rm) e) (right_cell (rm_mesh rm) e) k, side lim rm u grads e (right_cell (rm_mesh rm) e) (left_cell (rm_mesh rm) e) k).
Proof.
  intros S HU Hk HL HR. destruct (shaped_get rm grads k S Hk) as (E & L). unfold face_values. rewrite E, obind_Some. rewrite !fetch_two by nia. rewrite !obind_Some.
  rewrite !nth_error_in_range by nia. rewrite !obind_Some. cbn [nth]. apply f_equal. unfold side, increment, slope, entry, to_face, midpoint_of. cbn [px py].
  apply f_equal2; (apply f_equal; apply f_equal2; [apply f_equal2; apply f_equal|]); field.
Qed.
Definition face_row lim rm u grads e : list R := (left_state lim rm u grads e ++ right_state lim rm u grads e)%list.
Lemma faces_spec lim rm u grads : shaped rm grads -> length u = (cm_cells (rm_mesh rm) * 3)%nat -> edges_inside rm ->
  ReconstructFaceValues lim rm u grads = Some (concat (map (face_row lim rm u grads) (owned_internal (rm_mesh rm)))).
Proof.
  intros S HU HE. unfold ReconstructFaceValues. rewrite (omap_map _ (face_row lim rm u grads)); [rewrite obind_Some; reflexivity|].
  intros e He. apply owned_internal_in in He. destruct (HE e (proj1 He)) as (A & B). unfold face_entries.
  rewrite !face_values_side by (assumption || lia). rewrite !obind_Some. reflexivity.
Qed.

(** ** The operator *)
Definition muscl_op (cf : cconfig) (m : cmesh) (eta faces : list R) (dt : R) : ceed_operator :=
  let es := owned_internal m in let n := length es in
  (CeedOp
    (QFunction
       [("geom", 6%nat); ("q_left_face", 3%nat); ("q_right_face", 3%nat); ("eta_vert_beg", 1%nat); ("eta_vert_end", 1%nat)]%string
       [("cell_left", 3%nat); ("cell_right", 3%nat); ("courant_number", 2%nat)]%string
       (SWEFlux_MUSCL (cf_tiny_h cf) (cf_h_anuga cf) dt))
    [OpField "geom" (strided n 6) (Some (concat (map (igeom m) es)));
     OpField "q_left_face" (Restriction (map (fun i => i * 2 * 3)%nat (seq 0 n)) 3) (Some faces);
     OpField "q_right_face" (Restriction (map (fun i => i * 2 * 3 + 3)%nat (seq 0 n)) 3) (Some faces);
     OpField "eta_vert_beg" (Restriction (map (fun e => vertex_beg m e * 1)%nat es) 1) (Some eta);
     OpField "eta_vert_end" (Restriction (map (fun e => vertex_end m e * 1)%nat es) 1) (Some eta);
     OpField "cell_left" (Restriction (map (fun e => cm_l2o m (left_cell m e) * 3)%nat es) 3) None;
     OpField "cell_right" (Restriction (map (fun e => cm_l2o m (right_cell m e) * 3)%nat es) 3) None;
     OpField "courant_number" (strided n 2) (Some (repeat 0 (n * 2)))]%string).
Lemma muscl_created cf m eta faces dt bs : mesh_ok m bs -> CreateCeedInteriorFluxSuboperatorReconstructed cf m eta faces dt = Some (muscl_op cf m eta faces dt).
Proof. intros M. unfold CreateCeedInteriorFluxSuboperatorReconstructed. rewrite (igeom_all m bs M), obind_Some. reflexivity. Qed.

Lemma omap_get {A B} (f : A -> option B) l : forall bs i a, omap f l = Some bs -> nth_error l i = Some a -> f a = nth_error bs i.
Proof.
  induction l as [|x l IH]; intros bs i a H Hi; [destruct i; discriminate|]. cbn [omap] in H. destruct (f x) as [y|] eqn:E; [|discriminate H]. rewrite obind_Some in H.
  destruct (omap f l) as [ys|] eqn:E'; [|discriminate H]. rewrite obind_Some in H. injection H as <-. destruct i as [|i]; cbn in Hi |- *; [congruence|]. apply (IH ys); [reflexivity|exact Hi].
Qed.
Lemma fetch_half rows i l r : (forall x, In x rows -> length x = 6%nat) -> nth_error rows i = Some (l ++ r)%list -> length l = 3%nat -> length r = 3%nat ->
  fetch (concat rows) (i * 2 * 3) 3 = Some l /\ fetch (concat rows) (i * 2 * 3 + 3) 3 = Some r.
Proof.
  intros H Hi Ll Lr.
  assert (F : fetch (concat rows) (i * 6) 6 = Some (l ++ r)%list).
  { rewrite (Nat.mul_comm i 6), <- (app_nil_r (concat rows)). apply fetch_rows; [|exact Hi]. apply Forall_forall. exact H. }
  destruct l as [|l0 [|l1 [|l2 [|]]]]; try discriminate Ll. destruct r as [|r0 [|r1 [|r2 [|]]]]; try discriminate Lr.
  assert (K : forall j, (j < 6)%nat -> nth_error (concat rows) (i * 6 + j) = nth_error ([l0; l1; l2] ++ [r0; r1; r2])%list j).
  { intros j Hj. exact (omap_get _ _ _ j j F (nth_error_seq0 6 j Hj)). }
  assert (K0 := K 0%nat ltac:(lia)). assert (K1 := K 1%nat ltac:(lia)). assert (K2 := K 2%nat ltac:(lia)). assert (K3 := K 3%nat ltac:(lia)). assert (K4 := K 4%nat ltac:(lia)). assert (K5 := K 5%nat ltac:(lia)).
  cbn [app nth_error] in K0, K1, K2, K3, K4, K5. clear K F H Hi.
  unfold fetch. cbn [seq omap]. replace (i * 2 * 3)%nat with (i * 6)%nat by lia.
  replace (i * 6 + 3 + 0)%nat with (i * 6 + 3)%nat by lia. replace (i * 6 + 3 + 1)%nat with (i * 6 + 4)%nat by lia. replace (i * 6 + 3 + 2)%nat with (i * 6 + 5)%nat by lia.
  rewrite K0, K1, K2, K3, K4, K5, !obind_Some. split; reflexivity.
Qed.

Definition muscl_outputs (m : cmesh) (dt : R) (F : nat -> list R) (a : nat -> R) (e : nat) : list (option (list R)) :=
  let wL := - cm_len m e / cm_area m (left_cell m e) in
  let wR := cm_len m e / cm_area m (right_cell m e) in
  [Some (map (fun x => x * wL) (F e)); Some (map (fun x => x * wR) (F e)); Some [- a e * wL * dt; a e * wR * dt]].
Lemma v3_clamped h hu hv : V3 (Rmax 0 (c0 (v3 [Rmax 0 h; hu; hv]))) (c1 (v3 [Rmax 0 h; hu; hv])) (c2 (v3 [Rmax 0 h; hu; hv])) = v3 [Rmax 0 h; hu; hv].
Proof. unfold v3. cbn [nth c0 c1 c2]. rewrite (Rmax_right 0 (Rmax 0 h)) by apply Rmax_l. reflexivity. Qed.

Section muscl.
Context (lim : limiter) (cf : cconfig) (rm : rmesh) (eta : list R) (grads : list (list R)) (dt : R) (bs : list cboundary) (u : list R) (F : nat -> list R) (a : nat -> R).
Let m := rm_mesh rm.
Let faces := concat (map (face_row lim rm u grads) (owned_internal m)).
Context (M : mesh_ok m bs) (HE : length eta = cm_vertices m) (HT : num_tracers cf = 0%nat)
  (HF : forall e, In e (owned_internal m) -> interior_flux cf (left_state lim rm u grads e) (right_state lim rm u grads e) (cm_sn m e) (cm_cn m e) (edge_dhv m eta e) = Some (F e, a e)).

Lemma muscl_point i e : nth_error (owned_internal m) i = Some e -> point (muscl_op cf m eta faces dt) u i = Some (muscl_outputs m dt F a e).
Proof.
  intros Hi. assert (Hin := nth_error_In _ _ Hi). assert (X := Hin). apply owned_internal_in in X. destruct X as (I1 & I2).
  destruct (mo_internal m bs M e I1 I2) as ((A & B & V1 & V2) & C & D).
  assert (L : (i < length (owned_internal m))%nat) by (apply nth_error_Some; congruence).
  destruct (fetch_half (map (face_row lim rm u grads) (owned_internal m)) i (left_state lim rm u grads e) (right_state lim rm u grads e)) as (FL & FR); [|exact (offsets_map (face_row lim rm u grads) _ _ _ Hi)|reflexivity|reflexivity|].
  { intros x Hx. apply in_map_iff in Hx. destruct Hx as (z & <- & _). reflexivity. }
  assert (OS : forall f, nth_error (map f (seq 0 (length (owned_internal m)))) i = Some (f i : nat)) by (intros f; apply (offsets_map f), nth_error_seq0; exact L).
  assert (G0 : input_at (muscl_op cf m eta faces dt) u i ("geom"%string, 6%nat) = Some (igeom m e)).
  { eapply input_passive; [reflexivity|reflexivity|reflexivity|apply offsets_strided; exact L|].
    rewrite <- (app_nil_r (concat _)). apply fetch_rows; [|apply offsets_map; exact Hi]. apply Forall_forall. intros r Hr. apply in_map_iff in Hr. destruct Hr as (z & <- & _). reflexivity. }
  assert (G1 : input_at (muscl_op cf m eta faces dt) u i ("q_left_face"%string, 3%nat) = Some (left_state lim rm u grads e)) by (eapply input_passive; [reflexivity|reflexivity|reflexivity|apply OS|exact FL]).
  assert (G2 : input_at (muscl_op cf m eta faces dt) u i ("q_right_face"%string, 3%nat) = Some (right_state lim rm u grads e)) by (eapply input_passive; [reflexivity|reflexivity|reflexivity|apply OS|exact FR]).
  assert (G3 : input_at (muscl_op cf m eta faces dt) u i ("eta_vert_beg"%string, 1%nat) = Some [nth (vertex_beg m e) eta 0]).
  { eapply input_passive; [reflexivity|reflexivity|reflexivity|exact (offsets_map (fun e => vertex_beg m e * 1)%nat _ _ _ Hi)|]. apply fetch_eta. lia. }
  assert (G4 : input_at (muscl_op cf m eta faces dt) u i ("eta_vert_end"%string, 1%nat) = Some [nth (vertex_end m e) eta 0]).
  { eapply input_passive; [reflexivity|reflexivity|reflexivity|exact (offsets_map (fun e => vertex_end m e * 1)%nat _ _ _ Hi)|]. apply fetch_eta. lia. }
  assert (H := HF e Hin). unfold interior_flux in H. rewrite HT in H. cbn [Nat.eqb] in H.
  destruct (ceed_interior_edge _ _ _ _ _ _ _ _) as [[f w]|] eqn:EF; [|discriminate]. rewrite obind_Some in H. cbn [fst snd] in H. injection H as HF1 HF2.
  eapply point_of.
  - change (qf_inputs (co_qf (muscl_op cf m eta faces dt))) with [("geom", 6%nat); ("q_left_face", 3%nat); ("q_right_face", 3%nat); ("eta_vert_beg", 1%nat); ("eta_vert_end", 1%nat)]%string.
    cbn [omap]. rewrite G0, G1, G2, G3, G4, !obind_Some. reflexivity.
  - change (qf_body (co_qf (muscl_op cf m eta faces dt))) with (SWEFlux_MUSCL (cf_tiny_h cf) (cf_h_anuga cf) dt). unfold SWEFlux_MUSCL, igeom. cbn [nth_error]. rewrite !obind_Some.
    rewrite !swe_state_v3 by (cbn [length left_state right_state state_at]; lia). rewrite !obind_Some. cbn [nth_error]. rewrite ?obind_Some.
    change (ComputeDhv (cm_z m (vertex_beg m e)) (cm_z m (vertex_end m e)) (nth (vertex_beg m e) eta 0) (nth (vertex_end m e) eta 0)) with (edge_dhv m eta e).
    unfold left_state, right_state, state_at in EF |- *. rewrite !v3_clamped, EF, obind_Some. unfold muscl_outputs. rewrite <- HF1, <- HF2. reflexivity.
  - unfold muscl_outputs. rewrite <- HF1. reflexivity.
Qed.
Lemma muscl_same : same_elems (muscl_op cf m eta faces dt) = true /\ elems (muscl_op cf m eta faces dt) = length (owned_internal m).
Proof.
  assert (E : elems (muscl_op cf m eta faces dt) = length (owned_internal m)). { unfold elems, muscl_op, strided. cbn. rewrite map_length, seq_length. reflexivity. }
  split; [|exact E]. unfold same_elems. rewrite E. unfold muscl_op, strided. cbn [co_fields forallb of_restriction r_offsets]; rewrite !map_length, !seq_length, !Nat.eqb_refl; reflexivity.
Qed.
Lemma muscl_apply x : length x = (3 * cm_cells m)%nat ->
  exists x', apply_add (muscl_op cf m eta faces dt) u x = Some x' /\ length x' = length x /\
    forall c k, (c < cm_cells m)%nat -> (k < 3)%nat -> nth (cm_l2o m c * 3 + k) x' 0 = nth (cm_l2o m c * 3 + k) x 0 + rsum (gain m F c k) (owned_internal m).
Proof.
  intros HX.
  assert (HP : points (muscl_op cf m eta faces dt) u = Some (map (muscl_outputs m dt F a) (owned_internal m))).
  { unfold points. destruct muscl_same as (S1 & S2). rewrite S1, S2. apply omap_index. intros i e Hi. apply muscl_point. exact Hi. }
  unfold apply_add. rewrite HP, obind_Some. change (qf_outputs (co_qf (muscl_op cf m eta faces dt))) with [("cell_left", 3%nat); ("cell_right", 3%nat); ("courant_number", 2%nat)]%string. cbn [length seq combine ofold].
  assert (LF : forall e, In e (owned_internal m) -> length (F e) = 3%nat). { intros e He. rewrite (interior_flux_length _ _ _ _ _ _ _ _ (HF e He)). unfold num_comp. rewrite HT. reflexivity. }
  assert (OK : forall e, In e (owned_internal m) -> (left_cell m e < cm_cells m)%nat /\ (right_cell m e < cm_cells m)%nat).
  { intros e He. apply owned_internal_in in He. destruct He as (I1 & I2). destruct (mo_internal m bs M e I1 I2) as ((A & _) & C & _). auto. }
  pose (wl := fun e => - cm_len m e / cm_area m (left_cell m e)). pose (wr := fun e => cm_len m e / cm_area m (right_cell m e)).
  destruct (scatter_all 3 (fun e => cm_l2o m (left_cell m e)) (muscl_outputs m dt F a) (fun e => map (fun x => x * wl e) (F e)) 0%nat (owned_internal m) x) as (x1 & E1 & L1 & V1).
  { intros e He. split; [reflexivity|]. split; [rewrite map_length; apply LF; exact He|]. rewrite HX. assert (B := mo_l2o m bs M _ (proj1 (OK e He))). nia. }
  destruct (scatter_all 3 (fun e => cm_l2o m (right_cell m e)) (muscl_outputs m dt F a) (fun e => map (fun x => x * wr e) (F e)) 1%nat (owned_internal m) x1) as (x2 & E2 & L2 & V2).
  { intros e He. split; [reflexivity|]. split; [rewrite map_length; apply LF; exact He|]. rewrite L1, HX. assert (B := mo_l2o m bs M _ (proj2 (OK e He))). nia. }
  exists x2. split; [|split; [lia|]].
  - assert (S1 : scatter_output (muscl_op cf m eta faces dt) (map (muscl_outputs m dt F a) (owned_internal m)) x (0%nat, ("cell_left"%string, 3%nat)) = Some x1) by exact E1.
    assert (S2 : scatter_output (muscl_op cf m eta faces dt) (map (muscl_outputs m dt F a) (owned_internal m)) x1 (1%nat, ("cell_right"%string, 3%nat)) = Some x2) by exact E2.
    assert (S3 : scatter_output (muscl_op cf m eta faces dt) (map (muscl_outputs m dt F a) (owned_internal m)) x2 (2%nat, ("courant_number"%string, 2%nat)) = Some x2) by reflexivity.
    rewrite S1, obind_Some, S2, obind_Some, S3. reflexivity.
  - intros c k Hc Hk. rewrite V2, V1 by exact Hk. rewrite Rplus_assoc, <- rsum_plus. f_equal. apply rsum_ext. intros e He. unfold gain.
    destruct (OK e He) as (O1 & O2). rewrite !nth_map_scale by (rewrite LF; assumption).
    f_equal.
    + destruct (Nat.eqb_spec (left_cell m e) c) as [X|X].
      * rewrite X, Nat.eqb_refl. unfold wl. rewrite X. apply Rmult_comm.
      * destruct (Nat.eqb_spec (cm_l2o m (left_cell m e)) (cm_l2o m c)) as [Y|Y]; [|reflexivity]. apply (mo_l2o_inj m bs M) in Y; [contradiction|assumption|assumption].
    + destruct (Nat.eqb_spec (right_cell m e) c) as [X|X].
      * rewrite X, Nat.eqb_refl. unfold wr. rewrite X. apply Rmult_comm.
      * destruct (Nat.eqb_spec (cm_l2o m (right_cell m e)) (cm_l2o m c)) as [Y|Y]; [|reflexivity]. apply (mo_l2o_inj m bs M) in Y; [contradiction|assumption|assumption].
Qed.
End muscl.
