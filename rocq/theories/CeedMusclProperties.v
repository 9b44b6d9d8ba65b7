(** C70: second-order reconstruction in the arrays of the libCEED back end. *)
From Coq Require Import String.
From Verif Require Import Base RoeModel RoeProofs EdgeModel EdgeProofs EtaModel SourceModel TracerModel AssemblyModel MeshMapsProofs AMRProofs CeedLayoutModel CeedLayoutSpec CeedLayoutProofs CeedLayoutProperties MusclModel MusclProofs CeedMusclModel CeedMusclSpec CeedMusclProofs.
Local Open Scope R_scope.
Local Notation length := List.length.

(** ** Gradients *)

(* The stored gradient of every cell and field is the slope whose linear function fits the values of the
   neighbours best (least squares, weighted by the inverse distance), and zero where the neighbours do not
   determine one. *)
Theorem C70_gradients : forall rm q, edges_inside rm -> length q = (cm_cells (rm_mesh rm) * 3)%nat ->
  exists coeffs grads, PrecomputeLSGradCoeffs rm = Some coeffs /\ ComputeLeastSquaresGradients rm coeffs q = Some grads /\ shaped rm grads /\
    forall k c, (k < 3)%nat ->
      let x := rm_centroid rm in let nb := neighbours rm c in
      (/ 10 ^ 15 <= Rabs (spread x c nb) -> forall g, misfit x (entry q k) c nb (slope grads k c) <= misfit x (entry q k) c nb g) /\
      (Rabs (spread x c nb) < / 10 ^ 15 -> slope grads k c = Pt 0 0).
Proof.
  intros rm q HE HQ. destruct (gradients_spec rm q HE HQ) as (coeffs & grads & E1 & E2 & S & V). exists coeffs, grads. split; [exact E1|]. split; [exact E2|]. split; [exact S|].
  intros k c Hk x nb. rewrite (V k c Hk), spread_sdet. split.
  - intros H g. apply lsq_minimal. exact H.
  - intros H. apply lsq_degenerate. exact H.
Qed.
Print Assumptions C70_gradients.

(* a field that is linear in space has its exact slope *)
Theorem C70_linear : forall rm q k c g, edges_inside rm -> length q = (cm_cells (rm_mesh rm) * 3)%nat -> (k < 3)%nat ->
  / 10 ^ 15 <= Rabs (spread (rm_centroid rm) c (neighbours rm c)) ->
  (forall j, In j (neighbours rm c) -> entry q k j = entry q k c + increment g (rm_centroid rm c) (rm_centroid rm j)) ->
  exists coeffs grads, PrecomputeLSGradCoeffs rm = Some coeffs /\ ComputeLeastSquaresGradients rm coeffs q = Some grads /\ shaped rm grads /\ slope grads k c = g.
Proof.
  intros rm q k c g HE HQ Hk D HL. destruct (gradients_spec rm q HE HQ) as (coeffs & grads & E1 & E2 & S & V). exists coeffs, grads. split; [exact E1|]. split; [exact E2|]. split; [exact S|].
  rewrite (V k c Hk). rewrite spread_sdet in D. exact (lsq_linear _ _ _ _ g D HL).
Qed.
Print Assumptions C70_linear.

(** ** Processes *)

(* After the exchange every local cell, owned or not, has the gradients computed by the process that owns it. *)
Theorem C70_exchange : forall ps all, partitioned ps -> Forall2 (fun p g => shaped (pr_mesh p) g) ps all ->
  exists all', CommunicateCellGradients ps all = Some all' /\ Forall2 (fun p g => shaped (pr_mesh p) g) ps all' /\
    forall r p g' c r' c' g'' k, nth_error ps r = Some p -> nth_error all' r = Some g' -> (c < cm_cells (rm_mesh (pr_mesh p)))%nat ->
      owner_is ps p c r' c' -> nth_error all r' = Some g'' -> (k < 3)%nat -> slope g' k c = slope g'' k c'.
Proof. exact exchange_spec. Qed.
Print Assumptions C70_exchange.

(* The gradients of all local cells, and with them the states at the edges, are those of the whole mesh. *)
Theorem C70_distribution : forall G U ps us gid, edges_inside G -> length U = (cm_cells (rm_mesh G) * 3)%nat -> partitioned ps -> distributed G U ps us gid ->
  exists all coeffs grads, all_gradients ps us = Some all /\ Forall2 (fun p g => shaped (pr_mesh p) g) ps all /\
    PrecomputeLSGradCoeffs G = Some coeffs /\ ComputeLeastSquaresGradients G coeffs U = Some grads /\
    forall r p u g, nth_error ps r = Some p -> nth_error us r = Some u -> nth_error all r = Some g ->
      (forall k c, (k < 3)%nat -> (c < cm_cells (rm_mesh (pr_mesh p)))%nat -> slope g k c = slope grads k (gid r c)) /\
      (forall lim e e', In e (cm_internal (rm_mesh (pr_mesh p))) -> same_edge G (pr_mesh p) (gid r) e e' ->
        left_state lim (pr_mesh p) u g e = left_state lim G U grads e' /\ right_state lim (pr_mesh p) u g e = right_state lim G U grads e').
Proof.
  intros G U ps us gid HE HU P D. destruct (gradients_spec G U HE HU) as (coeffs & grads & C1 & C2 & _ & VG).
  unfold all_gradients.
  destruct (omap_rel (fun pu => let* coeffs := PrecomputeLSGradCoeffs (pr_mesh (fst pu)) in ComputeLeastSquaresGradients (pr_mesh (fst pu)) coeffs (snd pu))
    (fun pu g => shaped (pr_mesh (fst pu)) g /\ forall k c, (k < 3)%nat -> slope g k c = lsq (rm_centroid (pr_mesh (fst pu))) (entry (snd pu) k) c (neighbours (pr_mesh (fst pu)) c))
    (combine ps us)) as (a0 & E0 & F0).
  { intros (p, u) Hin. destruct (combine_In _ _ _ _ _ (di_length _ _ _ _ _ D) Hin) as (Lu & Hp). cbn [fst snd].
    destruct (gradients_spec (pr_mesh p) u (di_inside _ _ _ _ _ D p Hp) Lu) as (cs & g & A1 & A2 & S & V). exists g. rewrite A1, obind_Some. auto. }
  rewrite E0, obind_Some.
  assert (S0 : Forall2 (fun p g => shaped (pr_mesh p) g) ps a0). { eapply combine_Forall2; [exact (di_length _ _ _ _ _ D)|exact F0|]. intros p u g (H & _). exact H. }
  destruct (exchange_spec ps a0 P S0) as (a1 & E1 & S1 & V1). rewrite E1. exists a1, coeffs, grads. split; [reflexivity|]. split; [exact S1|]. split; [exact C1|]. split; [exact C2|].
  intros r p u g Hp Hu Hg.
  assert (K : forall k c, (k < 3)%nat -> (c < cm_cells (rm_mesh (pr_mesh p)))%nat -> slope g k c = slope grads k (gid r c)).
  { intros k c Hk Hc. destruct (proj2 P p c (nth_error_In _ _ Hp) Hc) as (r' & c' & HO). assert (X := HO). destruct X as (p' & Hp' & Hc' & Ho & _).
    destruct (Forall2_get _ _ _ r' p' S0 Hp') as (g' & Hg' & _). destruct (Forall2_get _ _ _ r' p' (di_length _ _ _ _ _ D) Hp') as (u' & Hu' & Lu').
    rewrite (V1 r p g c r' c' g' k Hp Hg Hc HO Hg' Hk).
    destruct (Forall2_get _ _ _ r' (p', u') F0 (combine_get _ _ _ _ _ Hp' Hu')) as (g2 & Hg2 & _ & V2). cbn [fst snd] in V2. assert (g2 = g') by congruence. subst g2.
    rewrite (V2 k c' Hk), (VG k (gid r c) Hk), (di_owner _ _ _ _ _ D r p c r' c' Hp HO).
    rewrite <- (lsq_perm _ _ _ _ _ (di_complete _ _ _ _ _ D r' p' c' Hp' Hc' Ho)). apply lsq_map.
    - apply (di_cells _ _ _ _ _ D r' p' u' c' Hp' Hu' Hc').
    - apply (di_cells _ _ _ _ _ D r' p' u' c' Hp' Hu' Hc'); exact Hk.
    - intros j Hj. assert (Hj' := neighbours_inside _ _ _ (di_inside _ _ _ _ _ D p' (nth_error_In _ _ Hp')) Hj). destruct (di_cells _ _ _ _ _ D r' p' u' j Hp' Hu' Hj') as (A & B). auto. }
  split; [exact K|]. intros lim e e' He (A & B & V0 & V0'). destruct (di_inside _ _ _ _ _ D p (nth_error_In _ _ Hp) e He) as (HL & HR).
  assert (Q : forall c k, (c < cm_cells (rm_mesh (pr_mesh p)))%nat -> (k < 3)%nat -> entry u k c = entry U k (gid r c)) by (intros c k Hc Hk; apply (di_cells _ _ _ _ _ D r p u c Hp Hu Hc); exact Hk).
  assert (X : forall c, (c < cm_cells (rm_mesh (pr_mesh p)))%nat -> rm_centroid (pr_mesh p) c = rm_centroid G (gid r c)) by (intros c Hc; apply (di_cells _ _ _ _ _ D r p u c Hp Hu Hc)).
  assert (MP : midpoint_of (pr_mesh p) e = midpoint_of G e') by (unfold midpoint_of; rewrite V0, V0'; reflexivity).
  unfold left_state, right_state. split; unfold state_at, side; rewrite !K, !Q, !X, MP, <- A, <- B by (assumption || lia); reflexivity.
Qed.
Print Assumptions C70_distribution.

(** ** States at the edges *)

(* the six entries of the i-th owned internal edge *)
Theorem C70_faces : forall lim rm u grads, edges_inside rm -> shaped rm grads -> length u = (cm_cells (rm_mesh rm) * 3)%nat ->
  exists faces, ReconstructFaceValues lim rm u grads = Some faces /\
    forall i e, nth_error (owned_internal (rm_mesh rm)) i = Some e ->
      fetch faces (i * 2 * 3) 3 = Some (left_state lim rm u grads e) /\ fetch faces (i * 2 * 3 + 3) 3 = Some (right_state lim rm u grads e).
Proof.
  intros lim rm u grads HE S HU. rewrite (faces_spec lim rm u grads S HU HE). eexists. split; [reflexivity|]. intros i e Hi.
  apply fetch_half; [|exact (offsets_map (face_row lim rm u grads) _ _ _ Hi)|reflexivity|reflexivity].
  intros x Hx. apply in_map_iff in Hx. destruct Hx as (z & <- & _). reflexivity.
Qed.
Print Assumptions C70_faces.

(* with the limiter, the value at an edge lies between that of the cell and the mean of the two cells; without
   it, it is that of the linear function *)
Theorem C70_limited : forall rm u grads e c c' k,
  let mean := (entry u k c + entry u k c') / 2 in
  (Rmin (entry u k c) mean <= side LimMinmod rm u grads e c c' k <= Rmax (entry u k c) mean) /\
  (Rmin (entry u k c) (entry u k c') <= side LimVanLeer rm u grads e c c' k <= Rmax (entry u k c) (entry u k c')) /\
  side LimNone rm u grads e c c' k = entry u k c + increment (slope grads k c) (rm_centroid rm c) (midpoint_of rm e).
Proof.
  intros rm u grads e c c' k mean. unfold side, mean. cbn [LimitSlope]. set (d := increment _ _ _). set (b := (entry u k c' - entry u k c) / 2).
  assert (B : (entry u k c + entry u k c') / 2 = entry u k c + b) by (unfold b; field). assert (B' : entry u k c' = entry u k c + 2 * b) by (unfold b; field). rewrite B, B'.
  destruct (Minmod_range d b) as (M1 & M2). destruct (VanLeer_range d b) as (W1 & W2). split; [|split; [|reflexivity]].
  - destruct (Rle_dec 0 b) as [H|H]; [assert (X := M1 H); rewrite Rmin_left, Rmax_right by lra; lra|assert (X := M2 ltac:(lra)); rewrite Rmin_right, Rmax_left by lra; lra].
  - destruct (Rle_dec 0 b) as [H|H]; [assert (X := W1 H); rewrite Rmin_left, Rmax_right by lra; lra|assert (X := W2 ltac:(lra)); rewrite Rmin_right, Rmax_left by lra; lra].
Qed.
Print Assumptions C70_limited.

(** ** The right-hand side *)

(* Every owned internal edge passes the flux between the states at its midpoint from its left to its right cell,
   boundary edges the first-order flux; the fluxes of the internal edges are always defined. *)
Theorem C70_flux : forall lim cf rm eta grads dt_muscl dt bs u G ga,
  supported cf bs -> num_tracers cf = 0%nat -> 0 <= cf_tiny_h cf -> mesh_ok (rm_mesh rm) bs -> edges_inside rm -> values_ok cf bs -> length eta = cm_vertices (rm_mesh rm) ->
  shaped rm grads -> length u = (cm_cells (rm_mesh rm) * 3)%nat ->
  (forall b pe, In b bs -> owned_edge (rm_mesh rm) b pe -> bflux_at cf (rm_mesh rm) eta u b pe = Some (G b pe, ga b pe)) ->
  exists x F a, muscl_flux_rhs lim cf rm eta grads dt_muscl dt bs u = Some x /\ length x = (cm_cells (rm_mesh rm) * 3)%nat /\
    (forall e, In e (owned_internal (rm_mesh rm)) ->
       interior_flux cf (left_state lim rm u grads e) (right_state lim rm u grads e) (cm_sn (rm_mesh rm) e) (cm_cn (rm_mesh rm) e) (edge_dhv (rm_mesh rm) eta e) = Some (F e, a e)) /\
    forall c k, (c < cm_cells (rm_mesh rm))%nat -> (k < 3)%nat ->
      nth (cm_l2o (rm_mesh rm) c * 3 + k) x 0 = from_internal (rm_mesh rm) F c k + rsum (fun b => from_boundary (rm_mesh rm) b (G b) c k) bs.
Proof.
  intros lim cf rm eta grads dtm dt bs u G ga S HT H0 M HE V Heta SG HU HG. set (m := rm_mesh rm) in *.
  pose (fl := fun e => interior_flux cf (left_state lim rm u grads e) (right_state lim rm u grads e) (cm_sn m e) (cm_cn m e) (edge_dhv m eta e)).
  pose (F := fun e => match fl e with Some (f, _) => f | None => [] end). pose (a := fun e => match fl e with Some (_, w) => w | None => 0 end).
  assert (HF : forall e, fl e = Some (F e, a e)).
  { intros e. assert (X : exists f w, fl e = Some (f, w)).
    { unfold fl, interior_flux. rewrite HT. cbn [Nat.eqb]. rewrite ceed_interior_edge_some; [|exact GRAVITY_pos|exact H0|apply Rmax_l|apply Rmax_l].
      destruct (_ || _)%bool; rewrite obind_Some; do 2 eexists; reflexivity. }
    destruct X as (f & w & X). unfold F, a. rewrite X. reflexivity. }
  assert (NC : num_comp cf = 3%nat) by (unfold num_comp; rewrite HT; reflexivity).
  assert (HU' : length u = (num_comp cf * cm_cells m)%nat) by (rewrite NC, HU; apply Nat.mul_comm).
  assert (K : forall l, (forall b, In b l -> In b bs) -> forall x0, length x0 = (num_comp cf * cm_cells m)%nat ->
    exists ops x, omap (CreateCeedBoundaryFluxSuboperator cf m eta dt) l = Some ops /\ apply_add_all ops u x0 = Some x /\ length x = (num_comp cf * cm_cells m)%nat /\
      forall c k, (c < cm_cells m)%nat -> (k < num_comp cf)%nat ->
        nth (cm_l2o m c * num_comp cf + k) x 0 = nth (cm_l2o m c * num_comp cf + k) x0 0 + rsum (fun b => from_boundary m b (G b) c k) l).
  { induction l as [|b l IH]; intros Hl x0 Hx0.
    - exists [], x0. split; [reflexivity|]. split; [reflexivity|]. split; [exact Hx0|]. intros; cbn [rsum]. ring.
    - assert (Hb := Hl b (or_introl eq_refl)). destruct (boundary_body_some cf bs b dt S Hb) as (body & HB).
      destruct (boundary_apply cf m eta dt body bs b u (G b) (ga b) x0 M Hb Heta HU' (V b Hb) (su_tracers cf bs S) HB Hx0) as (x1 & E1 & L1 & V1).
      + intros ED EN. contradiction EN.
      + intros p e Hin ED EN. contradiction EN.
      + intros p e Hin. exact (HG b (p, e) Hb (proj1 (owned_boundary_spec m b (p, e)) Hin)).
      + destruct (IH (fun b' Hb' => Hl b' (or_intror Hb')) x1 ltac:(lia)) as (ops & x & E2 & E3 & L3 & V3').
        exists (boundary_op cf m eta b body :: ops), x. cbn [omap]. rewrite (boundary_created cf m eta dt bs b body M Hb HB), obind_Some, E2, obind_Some. split; [reflexivity|].
        split; [unfold apply_add_all in *; cbn [ofold]; rewrite E1, obind_Some; exact E3|]. split; [exact L3|].
        intros c k Hc Hk. rewrite V3', V1 by assumption. rewrite gain_boundary. cbn [rsum]. ring. }
  destruct (muscl_apply lim cf rm eta grads dtm bs u F a M Heta HT (fun e _ => HF e) (repeat 0 (3 * cm_cells m)) (repeat_length 0 (3 * cm_cells m))) as (x1 & E1 & L1 & V1).
  rewrite repeat_length in L1. rewrite NC in K. destruct (K bs (fun b H => H) x1 L1) as (ops & x & E2 & E3 & L3 & V3').
  exists x, F, a. unfold muscl_flux_rhs. rewrite HT. cbn [Nat.eqb]. rewrite (faces_spec lim rm u grads SG HU HE), obind_Some. fold m.
  rewrite (muscl_created cf m eta _ dtm bs M), obind_Some, E2, obind_Some. split; [|split; [lia|split; [intros e _; exact (HF e)|]]].
  - unfold apply_add_all. cbn [ofold]. fold m in E1. rewrite E1, obind_Some. exact E3.
  - intros c k Hc Hk. rewrite V3', V1 by assumption. fold m. rewrite gain_internal, nth_repeat. ring.
Qed.
Print Assumptions C70_flux.

(* with tracers there is no such operator *)
Theorem C70_tracers : forall lim cf rm eta grads dt_muscl dt bs u, num_tracers cf <> 0%nat -> muscl_flux_rhs lim cf rm eta grads dt_muscl dt bs u = None.
Proof. intros lim cf rm eta grads dm dt bs u H. unfold muscl_flux_rhs. destruct (Nat.eqb_spec (num_tracers cf) 0); [contradiction|reflexivity]. Qed.
Print Assumptions C70_tracers.

(** ** Limiters *)

(* the limiter of the configuration is used if it is the default one *)
Theorem C70_limiter_partial : forall no_limiter opt_no_limiter,
  ceed_limiter LimMinmod no_limiter opt_no_limiter false = resolve_limiter LimMinmod no_limiter opt_no_limiter false.
Proof. intros [|] [|]; reflexivity. Qed.
Print Assumptions C70_limiter_partial.

(* three cells in a corner: 0 at the origin, 1 to the east, 2 to the north; edges 0-1 and 0-2 *)
Definition corner : rmesh :=
  RMesh (CMesh 3 4 [0%nat; 1%nat] (fun k => nth k [0;1;0;2]%nat 0%nat) (fun k => nth k [0;1;2;3]%nat 0%nat) (fun _ => true) (fun e => nth e [0; 1] 0) (fun e => nth e [1; 0] 0) (fun _ => 1) (fun _ => 1)
               (fun _ => true) (fun c => c) (fun _ => 0) (fun _ => 0) (fun _ => 0))
        (fun c => nth c [Pt 0 0; Pt 1 0; Pt 0 1] (Pt 0 0)) (fun v => nth v [Pt (3/4) (-1/2); Pt (3/4) (1/2); Pt (-1/2) (1/2); Pt (1/2) (1/2)] (Pt 0 0)).
Lemma corner_inside : edges_inside corner.
Proof. intros e [<-|[<-|[]]]; cbn; lia. Qed.
Lemma unit_distance a b : (px b - px a) * (px b - px a) + (py b - py a) * (py b - py a) = 1 -> inverse_distance a b = 1.
Proof. intros H. unfold inverse_distance, dist. rewrite H, sqrt_1. destruct (Req_EM_T 1 0); [lra|]. field. Qed.
Lemma corner_spread : spread (rm_centroid corner) 0 (neighbours corner 0) = 1.
Proof.
  change (neighbours corner 0) with [1%nat; 2%nat]. unfold spread. cbn [rsum]. rewrite !unit_distance by (cbn; ring). cbn [rm_centroid corner nth px py]. ring.
Qed.
Definition corner_u : list R := [1; 0; 0; 2; 0; 0; 1; 0; 0].
(* depth 1 + x: the slope at the origin is (1, 0) *)
Example C70_linear_example : exists coeffs grads, PrecomputeLSGradCoeffs corner = Some coeffs /\ ComputeLeastSquaresGradients corner coeffs corner_u = Some grads /\ shaped corner grads /\ slope grads 0 0 = Pt 1 0.
Proof.
  apply C70_linear; [exact corner_inside|reflexivity|lia| |].
  - rewrite corner_spread, Rabs_R1. assert (1 <= 10 ^ 15) by (apply pow_R1_Rle; lra). assert (X := Rinv_le_contravar 1 (10 ^ 15) ltac:(lra) H). lra.
  - intros j [<-|[<-|[]]]; unfold entry, increment, corner_u; cbn; ring.
Qed.

(* the limiters van_leer and none of the configuration, and the option -van_leer, change the states at the edges
   on the PETSc back end but not on the libCEED one *)
Theorem C70_limiter_refuted : exists rm u coeffs grads e, edges_inside rm /\ PrecomputeLSGradCoeffs rm = Some coeffs /\ ComputeLeastSquaresGradients rm coeffs u = Some grads /\
  left_state (ceed_limiter LimVanLeer false false false) rm u grads e <> left_state (resolve_limiter LimVanLeer false false false) rm u grads e /\
  left_state (ceed_limiter LimNone false false false) rm u grads e <> left_state (resolve_limiter LimNone false false false) rm u grads e /\
  left_state (ceed_limiter LimMinmod false false true) rm u grads e <> left_state (resolve_limiter LimMinmod false false true) rm u grads e.
Proof.
  destruct C70_linear_example as (coeffs & grads & E1 & E2 & _ & S). exists corner, corner_u, coeffs, grads, 0%nat. split; [exact corner_inside|]. split; [exact E1|]. split; [exact E2|].
  assert (I : increment (slope grads 0 0) (rm_centroid corner 0) (midpoint_of corner 0) = 3/4) by (rewrite S; unfold increment, midpoint_of; cbn; field).
  assert (M : side LimMinmod corner corner_u grads 0 0 1 0 = 3/2).
  { unfold side. rewrite I. unfold entry, corner_u. cbn. unfold Minmod. destruct (Rleb _ _) eqn:F; [apply Rleb_true in F; lra|]. rewrite !Rabs_right by lra. destruct (Rltb _ _) eqn:F2; [apply Rltb_true in F2; lra|]. field. }
  assert (W : side LimVanLeer corner corner_u grads 0 0 1 0 = 8/5).
  { unfold side. rewrite I. unfold entry, corner_u. cbn. unfold VanLeer. destruct (Rleb _ _) eqn:F; [apply Rleb_true in F; lra|]. field. }
  assert (N : side LimNone corner corner_u grads 0 0 1 0 = 7/4).
  { unfold side. rewrite I. unfold entry, corner_u. cbn. field. }
  unfold left_state, state_at. cbn [ceed_limiter resolve_limiter negb]. change (left_cell (rm_mesh corner) 0) with 0%nat. change (right_cell (rm_mesh corner) 0) with 1%nat. rewrite M, W, N.
  rewrite !Rmax_right by lra. repeat split; intros H; injection H; intros; lra.
Qed.
Print Assumptions C70_limiter_refuted.

(** ** Concrete cases *)
(* the corner on two processes: the first owns cells 0 and 1, the second cell 2; each also has the neighbours *)
Definition corner0 : process :=
  Process (RMesh (CMesh 3 4 [0%nat; 1%nat] (fun k => nth k [0;1;0;2]%nat 0%nat) (fun k => nth k [0;1;2;3]%nat 0%nat) (fun _ => true) (fun e => nth e [0; 1] 0) (fun e => nth e [1; 0] 0) (fun _ => 1) (fun _ => 1)
                         (fun c => Nat.ltb c 2) (fun c => c) (fun _ => 0) (fun _ => 0) (fun _ => 0)) (rm_centroid corner) (rm_point corner))
          (fun c => nth c [(0, 0); (0, 1); (1, 0)]%nat (0, 0)%nat).
Definition corner1 : process :=
  Process (RMesh (CMesh 2 2 [0%nat] (fun k => nth k [1;0]%nat 0%nat) (fun k => nth k [0;1]%nat 0%nat) (fun _ => false) (fun _ => 1) (fun _ => 0) (fun _ => 1) (fun _ => 1)
                         (fun c => Nat.eqb c 0) (fun c => c) (fun _ => 0) (fun _ => 0) (fun _ => 0))
                 (fun c => nth c [Pt 0 1; Pt 0 0] (Pt 0 0)) (fun v => nth v [Pt (-1/2) (1/2); Pt (1/2) (1/2)] (Pt 0 0)))
          (fun c => nth c [(1, 0); (0, 0)]%nat (0, 0)%nat).
Definition corner_gid (r c : nat) : nat := nth c (nth r [[0;1;2]; [2;0]]%nat []) 0%nat.
Lemma corner_partitioned : partitioned [corner0; corner1].
Proof.
  split.
  - intros p [<-|[<-|[]]] i c H; cbn in H; do 3 (destruct i as [|i]; [cbn in H; first [injection H as <-; reflexivity|discriminate]|]); destruct i; discriminate.
  - intros p c [<-|[<-|[]]] Hc; cbn in Hc.
    + do 3 (destruct c as [|c]; [first [exists 0%nat, 0%nat, corner0; repeat split; cbn; lia|exists 0%nat, 1%nat, corner0; repeat split; cbn; lia|exists 1%nat, 0%nat, corner1; repeat split; cbn; lia]|]). lia.
    + do 2 (destruct c as [|c]; [first [exists 1%nat, 0%nat, corner1; repeat split; cbn; lia|exists 0%nat, 0%nat, corner0; repeat split; cbn; lia]|]). lia.
Qed.
Lemma corner_distributed : distributed corner corner_u [corner0; corner1] [corner_u; [1; 0; 0; 1; 0; 0]] corner_gid.
Proof.
  constructor.
  - intros p [<-|[<-|[]]] e; [intros [<-|[<-|[]]]|intros [<-|[]]]; cbn; lia.
  - repeat constructor.
  - intros r p u c Hp Hu Hc. destruct r as [|[|r]]; cbn in Hp, Hu; [| |destruct r; discriminate]; injection Hp as <-; injection Hu as <-; cbn in Hc.
    + do 3 (destruct c as [|c]; [split; [reflexivity|intros k Hk; do 3 (destruct k as [|k]; [reflexivity|]); lia]|]). lia.
    + do 2 (destruct c as [|c]; [split; [reflexivity|intros k Hk; do 3 (destruct k as [|k]; [reflexivity|]); lia]|]). lia.
  - intros r p c r' c' Hp (p' & Hp' & Hc' & Ho & EO).
    destruct r as [|[|r]]; cbn in Hp; [| |destruct r; discriminate]; injection Hp as <-; destruct r' as [|[|r']]; cbn in Hp'; try (destruct r'; discriminate); injection Hp' as <-; cbn in Hc', Ho, EO.
    all: do 3 (destruct c as [|c]; [cbn in EO; first [discriminate EO|injection EO as <-; reflexivity]|]).
    all: try (destruct c; cbn in EO; first [discriminate EO|injection EO as <-; reflexivity]).
  - intros r p c Hp Hc Ho. destruct r as [|[|r]]; cbn in Hp; [| |destruct r; discriminate]; injection Hp as <-; cbn in Hc, Ho.
    + do 2 (destruct c as [|c]; [apply Permutation_refl|]). destruct c; discriminate.
    + destruct c as [|c]; [apply Permutation_refl|discriminate].
Qed.
(* also the ghost cell of the second process has the slope of cell 0 in the whole mesh *)
Example C70_distribution_example : exists all g, all_gradients [corner0; corner1] [corner_u; [1; 0; 0; 1; 0; 0]] = Some all /\ nth_error all 1 = Some g /\ slope g 0 1 = Pt 1 0.
Proof.
  destruct (C70_distribution corner corner_u _ _ _ corner_inside eq_refl corner_partitioned corner_distributed) as (all & coeffs & grads & E & S & E1 & E2 & V).
  destruct (Forall2_get _ _ _ 1%nat corner1 S eq_refl) as (g & Hg & _). exists all, g. split; [exact E|]. split; [exact Hg|].
  rewrite (proj1 (V 1%nat corner1 _ g eq_refl eq_refl Hg) 0%nat 1%nat ltac:(lia) ltac:(cbn; lia)). change (corner_gid 1 1) with 0%nat.
  destruct C70_linear_example as (c2 & g2 & F1 & F2 & _ & S2). rewrite E1 in F1. injection F1 as <-. rewrite E2 in F2. injection F2 as <-. exact S2.
Qed.
Example C70_flux_example : exists coeffs grads x, PrecomputeLSGradCoeffs corner = Some coeffs /\ ComputeLeastSquaresGradients corner coeffs corner_u = Some grads /\
  muscl_flux_rhs LimMinmod (one_config 0 false) corner [0;0;0;0] grads (1/10) (1/10) [] corner_u = Some x.
Proof.
  destruct C70_linear_example as (coeffs & grads & E1 & E2 & S & _).
  destruct (C70_flux LimMinmod (one_config 0 false) corner [0;0;0;0] grads (1/10) (1/10) [] corner_u (fun _ _ => []) (fun _ _ => 0)) as (x & F & a & E & _).
  - constructor; [reflexivity|cbn; lia|intros H; contradiction H; reflexivity|intros H; contradiction H; reflexivity].
  - reflexivity.
  - cbn. lra.
  - constructor; [intros e [<-|[<-|[]]] _; unfold edge_ok; cbn; repeat split; try lia; lra|intros b e []|intros c Hc; exact Hc|intros c c' _ _ H; exact H].
  - exact corner_inside.
  - intros b [].
  - reflexivity.
  - exact S.
  - reflexivity.
  - intros b pe [].
  - exists coeffs, grads, x. auto.
Qed.
