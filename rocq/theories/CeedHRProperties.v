(** C71: hydrostatic reconstruction in the arrays of the libCEED back end. *)
From Coq Require Import String.
From Verif Require HRProofs.
From Verif Require Import Base RoeModel RoeProofs EdgeModel EdgeProofs HRModel EtaModel SourceModel TracerModel MeshMapsProofs AMRProofs CeedLayoutModel CeedLayoutSpec CeedLayoutProofs CeedLayoutProperties CeedMusclProofs CeedHRModel CeedHRSpec CeedHRProofs.
Local Open Scope R_scope.
Local Notation length := List.length.

(** ** The bed *)

(* Every local cell has a bed elevation: the one given for it, or the mean over its vertices, which lies between
   the lowest and the highest of them. *)
Theorem C71_bed : forall file hm c, cells_ok hm -> (c < cm_cells (hm_mesh hm))%nat ->
  bed_elevation file hm c = Some (bed file hm c) /\
  (file = true -> bed file hm c = hm_centroid_z hm c) /\
  (file = false -> forall lo hi, (forall v, In v (cell_vertices hm c) -> lo <= cm_z (hm_mesh hm) v <= hi) -> lo <= bed file hm c <= hi).
Proof.
  intros file hm c C Hc. split; [apply bed_some; assumption|]. split; [intros ->; reflexivity|]. intros -> lo hi H. unfold bed.
  destruct (C c Hc) as (E & N). rewrite E in N. clear E C Hc.
  assert (K : forall l, (forall v, In v l -> lo <= cm_z (hm_mesh hm) v <= hi) -> INR (length l) * lo <= rsum (cm_z (hm_mesh hm)) l <= INR (length l) * hi).
  { induction l as [|v l IH]; intros Hl; [cbn; lra|]. assert (A := Hl v (or_introl eq_refl)). assert (B := IH (fun w Hw => Hl w (or_intror Hw))). cbn [rsum length]. rewrite S_INR. lra. }
  specialize (K _ H). assert (P : 0 < INR (length (cell_vertices hm c))) by (apply lt_0_INR; lia).
  split; [apply Rmult_le_reg_r with (INR (length (cell_vertices hm c)))|apply Rmult_le_reg_r with (INR (length (cell_vertices hm c)))]; try exact P; unfold Rdiv; rewrite Rmult_assoc, Rinv_l by lra; lra.
Qed.
Print Assumptions C71_bed.

(** ** The flux operator *)

(* Block l2o(c) of the local right-hand side gains what the owned edges of cell c give to it: the two sides of
   an internal edge receive their own flux, from the beds of its two cells; boundary edges act as without
   reconstruction. *)
Theorem C71_flux : forall cf file hm dt bs u FL FR a G ga,
  supported cf bs -> mesh_ok (hm_mesh hm) bs -> cells_ok hm -> values_ok cf bs -> length u = (num_comp cf * cm_cells (hm_mesh hm))%nat ->
  (forall e, In e (cm_internal (hm_mesh hm)) -> cm_eowned (hm_mesh hm) e = true -> hr_flux_at cf file hm u e = Some (FL e, FR e, a e)) ->
  (forall b pe, In b bs -> owned_edge (hm_mesh hm) b pe -> bflux_at cf (hm_mesh hm) (initial_eta (hm_mesh hm)) u b pe = Some (G b pe, ga b pe)) ->
  (forall b pe, In b bs -> owned_edge (hm_mesh hm) b pe -> cb_type b = DIRICHLET -> num_tracers cf <> 0%nat -> edge_wet cf (hm_mesh hm) u b pe) ->
  exists x, hr_flux_rhs cf file hm dt bs u = Some x /\ length x = (num_comp cf * cm_cells (hm_mesh hm))%nat /\
    forall c k, (c < cm_cells (hm_mesh hm))%nat -> (k < num_comp cf)%nat ->
      nth (cm_l2o (hm_mesh hm) c * num_comp cf + k) x 0 = hr_from_internal (hm_mesh hm) FL FR c k + rsum (fun b => from_boundary (hm_mesh hm) b (G b) c k) bs.
Proof.
  intros cf file hm dt bs u FL FR a G ga S M C V HU HF HG HW. set (m := hm_mesh hm) in *.
  assert (HE : length (initial_eta m) = cm_vertices m) by (unfold initial_eta; rewrite map_length, seq_length; reflexivity).
  unfold hr_flux_rhs, CreateCeedFluxHROperator. rewrite (hr_created cf file hm dt bs M C), obind_Some. fold m.
  assert (K : forall l, (forall b, In b l -> In b bs) -> forall x0, length x0 = (num_comp cf * cm_cells m)%nat ->
    exists ops x, omap (CreateCeedBoundaryFluxSuboperator cf m (initial_eta m) dt) l = Some ops /\ apply_add_all ops u x0 = Some x /\ length x = (num_comp cf * cm_cells m)%nat /\
      forall c k, (c < cm_cells m)%nat -> (k < num_comp cf)%nat ->
        nth (cm_l2o m c * num_comp cf + k) x 0 = nth (cm_l2o m c * num_comp cf + k) x0 0 + rsum (fun b => from_boundary m b (G b) c k) l).
  { induction l as [|b l IH]; intros Hl x0 Hx0.
    - exists [], x0. split; [reflexivity|]. split; [reflexivity|]. split; [exact Hx0|]. intros; cbn [rsum]. ring.
    - assert (Hb := Hl b (or_introl eq_refl)). destruct (boundary_body_some cf bs b dt S Hb) as (body & HB).
      destruct (boundary_apply cf m (initial_eta m) dt body bs b u (G b) (ga b) x0 M Hb HE HU (V b Hb) (su_tracers cf bs S) HB Hx0) as (x1 & E1 & L1 & V1).
      + intros ED EN. exact (su_dirichlet cf bs S EN b Hb ED).
      + intros p e Hin ED EN. exact (HW b (p, e) Hb (proj1 (owned_boundary_spec m b (p, e)) Hin) ED EN).
      + intros p e Hin. exact (HG b (p, e) Hb (proj1 (owned_boundary_spec m b (p, e)) Hin)).
      + destruct (IH (fun b' Hb' => Hl b' (or_intror Hb')) x1 ltac:(lia)) as (ops & x & E2 & E3 & L3 & V3').
        exists (boundary_op cf m (initial_eta m) b body :: ops), x. cbn [omap]. rewrite (boundary_created cf m (initial_eta m) dt bs b body M Hb HB), obind_Some, E2, obind_Some. split; [reflexivity|].
        split; [unfold apply_add_all in *; cbn [ofold]; rewrite E1, obind_Some; exact E3|]. split; [exact L3|].
        intros c k Hc Hk. rewrite V3', V1 by assumption. rewrite gain_boundary. cbn [rsum]. ring. }
  destruct (hr_apply cf file hm dt bs u FL FR a (repeat 0 (num_comp cf * cm_cells m)) M HU (su_tracers cf bs S)) as (x1 & E1 & L1 & V1).
  - apply repeat_length.
  - intros e He. apply owned_internal_in in He. destruct He. apply HF; assumption.
  - rewrite repeat_length in L1. destruct (K bs (fun b H => H) x1 L1) as (ops & x & E2 & E3 & L3 & V3').
    rewrite E2, obind_Some, obind_Some. exists x. split; [|split; [exact L3|]].
    + unfold apply_add_all. cbn [ofold]. rewrite E1, obind_Some. exact E3.
    + intros c k Hc Hk. rewrite V3' by assumption. unfold m in V1 |- *. rewrite (V1 c k Hc Hk). rewrite nth_repeat. ring.
Qed.
Print Assumptions C71_flux.

(* Water and tracers leaving one cell enter the other; only the momentum differs, by the pressure on the part
   of the bed between the two cells, and not at all where the beds are level. *)
Theorem C71_sides : forall cf zL zR qL qR sn cn FL FR a, hr_flux cf zL zR qL qR sn cn = Some (FL, FR, a) ->
  nth 0 FL 0 = nth 0 FR 0 /\ (forall k, (3 <= k)%nat -> nth k FL 0 = nth k FR 0) /\
  (zL = zR -> 0 <= nth 0 qL 0 -> 0 <= nth 0 qR 0 -> FL = FR).
Proof.
  intros cf zL zR qL qR sn cn FL FR a H. unfold hr_flux in H.
  assert (D : forall h z, 0 <= h -> hr_depth h z z = h). { intros h z Hh. unfold hr_depth. rewrite (Rmax_left z z) by lra. rewrite Rmax_right by lra. ring. }
  destruct (Nat.eqb_spec (num_tracers cf) 0) as [E|E].
  - destruct (ceed_hr_edge _ _ _ _ _ _ _ _ _) as [[[f g] w]|] eqn:EF; [|discriminate]. rewrite obind_Some in H. injection H as <- <- <-. cbn [fst snd].
    unfold ceed_hr_edge in EF. destruct (ceed_velocities _ _ (v3 qL)) as [L|]; [|discriminate]. destruct (ceed_velocities _ _ (v3 qR)) as [Rt|]; [|discriminate]. rewrite !obind_Some in EF.
    destruct (_ || _)%bool in EF; [|injection EF as <- <- <-; repeat split; reflexivity].
    match type of EF with obind ?o _ = _ => destruct o as [[fx ax]|]; [|discriminate] end. rewrite obind_Some in EF. injection EF as <- <- <-.
    split; [cbn; ring|]. split. { intros k Hk. do 3 (destruct k as [|k]; [lia|]). destruct k; reflexivity. }
    intros Hz H1 H2. rewrite Hz, !D by assumption. unfold hr_correction, comps3, vadd. cbn [c0 c1 c2]. do 3 (apply f_equal2; [ring|]). reflexivity.
  - destruct (ceed_tracer_hr_edge _ _ _ _ _ _ _ _ _) as [[[f g] w]|] eqn:EF; [|discriminate]. rewrite obind_Some in H. injection H as <- <- <-. cbn [fst snd].
    unfold ceed_tracer_hr_edge in EF. destruct (hr_tracer_prim _ _ _ (tv qL)) as [L|]; [|discriminate]. destruct (hr_tracer_prim _ _ _ (tv qR)) as [Rt|]; [|discriminate]. rewrite !obind_Some in EF.
    destruct (_ || _)%bool in EF; [|injection EF as <- <- <-; repeat split; reflexivity].
    match type of EF with obind ?o _ = _ => destruct o as [[fx ax]|]; [|discriminate] end. rewrite obind_Some in EF. injection EF as <- <- <-.
    split; [cbn; ring|]. split.
    + intros k Hk. do 3 (destruct k as [|k]; [lia|]). unfold comps, comps3, tadd, tcorrection. cbn [tflow ttr app nth]. reflexivity.
    + intros Hz H1 H2. change (depth (tv qL)) with (nth 0 qL 0). change (depth (tv qR)) with (nth 0 qR 0). rewrite Hz, !D by assumption.
      unfold comps, comps3, tadd, tcorrection, vadd, hr_correction. cbn [tflow ttr c0 c1 c2 app]. do 3 (apply f_equal2; [ring|]). reflexivity.
Qed.
Print Assumptions C71_sides.

(** ** The source operator *)

(* The right-hand side of every owned cell is that of a cell with a level bed. *)
Theorem C71_sources : forall cf m ext mat div dt u S,
  (num_tracers cf <= MAX_NUM_SEDIMENT_CLASSES)%nat -> (num_tracers cf <> 0%nat -> cf_source cf <> SOURCE_IMPLICIT_XQ2018) -> 0 <= cf_tiny_h cf ->
  length ext = (num_comp cf * length (owned_cells m))%nat -> length mat = length (owned_cells m) -> length div = (num_comp cf * length (owned_cells m))%nat ->
  length u = (num_comp cf * cm_cells m)%nat -> numbered m ->
  (forall i c, nth_error (owned_cells m) i = Some c ->
     source_update cf dt (nth i mat 0) 0 0 (block (num_comp cf) u c) (block (num_comp cf) div i) (block (num_comp cf) ext i) = Some (S i)) ->
  (exists x, hr_source_rhs cf m ext mat div dt u = Some x /\ length x = (num_comp cf * length (owned_cells m))%nat /\
     forall i, (i < length (owned_cells m))%nat -> block (num_comp cf) x i = S i) /\
  (exists op, CreateCeedSourceHydroReconSuboperator cf m ext mat div dt = Some op /\
     forall i c, nth_error (owned_cells m) i = Some c ->
       passive_output op u "primitive_variables" i = Some (Some (primitives cf (block (num_comp cf) u c))) /\
       passive_output op u "sources" i = Some (Some (block (num_comp cf) ext i))).
Proof.
  intros cf m ext mat div dt u S HT HQ Htiny HX HM HD HU HN HS.
  assert (HB : exists body, hr_source_body cf dt = Some body).
  { unfold hr_source_body. cbv zeta. destruct (Nat.eqb_spec (num_tracers cf) 0) as [E|E]; [eexists; reflexivity|]. assert (X := HQ E). destruct (cf_source cf); [eexists; reflexivity|contradiction X; reflexivity|eexists; reflexivity]. }
  destruct HB as (body & HB). assert (HC := hr_source_created cf m ext mat div dt body HB).
  assert (PT : forall i c, nth_error (owned_cells m) i = Some c -> point (source_op cf m ext mat div body) u i =
    Some [Some (S i); Some (primitives cf (block (num_comp cf) u (nth i (owned_cells m) 0%nat))); Some (block (num_comp cf) ext i)]).
  { intros i c Hi. rewrite (nth_error_nth _ _ _ Hi). exact (hr_source_point cf m ext mat div dt body u i c (S i) HX HM HD HU Hi HT HB Htiny (HS i c Hi)). }
  split.
  - unfold hr_source_rhs. rewrite HC, obind_Some. eapply source_assembled; [exact HN|exact PT|].
    intros i Hi. eapply source_update_length. apply (HS i (nth i (owned_cells m) 0%nat)). apply nth_error_nth'. exact Hi.
  - exists (source_op cf m ext mat div body). split; [exact HC|]. intros i c Hi. unfold passive_output. rewrite (PT i c Hi), obind_Some. rewrite (nth_error_nth _ _ _ Hi). split; reflexivity.
Qed.
Print Assumptions C71_sources.

(** ** Courant numbers *)

(* Without reconstruction the largest number of the internal edges is found ... *)
Theorem C71_courant_standard : forall cf m eta dt bs u F a start,
  supported cf bs -> mesh_ok m bs -> length eta = cm_vertices m -> length u = (num_comp cf * cm_cells m)%nat ->
  (forall e, In e (cm_internal m) -> cm_eowned m e = true -> flux_at cf m eta u e = Some (F e, a e)) ->
  exists op mx, CreateCeedInteriorFluxSuboperator cf m eta dt = Some op /\ CeedFindMaxCourantNumberInternalEdges op u start = Some mx /\
    let left e := a e * (cm_len m e / cm_area m (left_cell m e)) * dt in
    let right e := a e * (cm_len m e / cm_area m (right_cell m e)) * dt in
    start <= mx /\ (forall e, In e (owned_internal m) -> left e <= mx /\ right e <= mx) /\
    (mx = start \/ exists e, In e (owned_internal m) /\ (mx = left e \/ mx = right e)).
Proof.
  intros cf m eta dt bs u F a start S M HE HU HF. destruct (interior_body_some cf bs dt S) as (ib & Hib).
  exists (interior_op cf m eta ib).
  pose (row := fun e => [- a e * (- cm_len m e / cm_area m (left_cell m e)) * dt; a e * (cm_len m e / cm_area m (right_cell m e)) * dt]).
  assert (R : omap (fun i => let* o := passive_output (interior_op cf m eta ib) u "courant_number" i in o) (seq 0 (elems (interior_op cf m eta ib))) = Some (map row (owned_internal m))).
  { rewrite (proj2 (interior_same cf m eta ib)). apply omap_index. intros i e Hi. assert (Hin := nth_error_In _ _ Hi). apply owned_internal_in in Hin. destruct Hin as (I1 & I2).
    unfold passive_output. rewrite (interior_point cf m eta dt ib bs u i e F a M HE HU (su_tracers cf bs S) Hib Hi (HF e I1 I2)), obind_Some. reflexivity. }
  unfold CeedFindMaxCourantNumberInternalEdges. rewrite R, obind_Some.
  assert (K : forall l st, exists mx, ofold (fun mx row => let* l := nth_error row 0 in let* r := nth_error row 1 in Some (Rmax mx (Rmax l r))) (map row l) st = Some mx /\
    let left e := a e * (cm_len m e / cm_area m (left_cell m e)) * dt in let right e := a e * (cm_len m e / cm_area m (right_cell m e)) * dt in
    st <= mx /\ (forall e, In e l -> left e <= mx /\ right e <= mx) /\ (mx = st \/ exists e, In e l /\ (mx = left e \/ mx = right e))).
  { induction l as [|e l IH]; intros st; cbn [map ofold].
    - exists st. split; [reflexivity|]. cbv zeta. split; [lra|]. split; [intros e []|left; reflexivity].
    - unfold row at 1 2. cbn [nth_error]. rewrite !obind_Some.
      set (le := a e * (cm_len m e / cm_area m (left_cell m e)) * dt). set (re := a e * (cm_len m e / cm_area m (right_cell m e)) * dt).
      replace (- a e * (- cm_len m e / cm_area m (left_cell m e)) * dt) with le by (unfold le, Rdiv; ring).
      destruct (IH (Rmax st (Rmax le re))) as (mx & E & A & B & D). exists mx. split; [exact E|]. cbv zeta in B, D |- *.
      assert (X1 := Rmax_l st (Rmax le re)). assert (X2 := Rmax_r st (Rmax le re)). assert (X3 := Rmax_l le re). assert (X4 := Rmax_r le re).
      split; [lra|]. split; [intros e' [<-|He]; [fold le re; lra|apply B; exact He]|].
      destruct D as [D|(e' & He & D)]; [|right; exists e'; split; [right; exact He|exact D]].
      unfold Rmax in D. destruct (Rle_dec le re), (Rle_dec st _) in D; [right|left; exact D|right|left; exact D]; exists e; (split; [left; reflexivity|]); [right|left]; exact D. }
  destruct (K (owned_internal m) start) as (mx & E & A). exists mx. split; [exact (interior_created cf m eta dt bs ib M Hib)|]. split; [exact E|exact A].
Qed.
Print Assumptions C71_courant_standard.

(* ... with it none of them is ever recorded: the operator has no defined value in the field that is searched,
   nor in the one for the fluxes, whatever the state. *)
Theorem C71_courant_never_recorded : forall cf file hm dt bs u i e,
  supported cf bs -> mesh_ok (hm_mesh hm) bs -> cells_ok hm -> length u = (num_comp cf * cm_cells (hm_mesh hm))%nat ->
  nth_error (owned_internal (hm_mesh hm)) i = Some e -> (exists r, hr_flux_at cf file hm u e = Some r) ->
  exists op, CreateCeedInteriorFluxHydroReconSuboperator cf file hm dt = Some op /\
    passive_output op u "courant_number" i = Some None /\ passive_output op u "flux" i = Some None /\
    forall start, CeedFindMaxCourantNumberInternalEdges op u start = None.
Proof.
  intros cf file hm dt bs u i e S M C HU Hi (((FL, FR), a) & HF). exists (hr_op cf file hm dt). split; [exact (hr_created cf file hm dt bs M C)|].
  assert (P := hr_point cf file hm dt bs u i e (fun _ => FL) (fun _ => FR) a M HU (su_tracers cf bs S) Hi HF).
  assert (Q : passive_output (hr_op cf file hm dt) u "courant_number" i = Some None) by (unfold passive_output; rewrite P, obind_Some; reflexivity).
  split; [exact Q|]. split; [unfold passive_output; rewrite P, obind_Some; reflexivity|].
  intros start. unfold CeedFindMaxCourantNumberInternalEdges. rewrite (omap_none _ i); [reflexivity| |rewrite Q; reflexivity].
  apply in_seq. rewrite (proj2 (hr_same cf file hm dt)). assert ((i < length (owned_internal (hm_mesh hm)))%nat) by (apply nth_error_Some; congruence). lia.
Qed.
Print Assumptions C71_courant_never_recorded.

(** ** Concrete cases *)

(* the strip of C67 with triangles: cell 0 has the vertices 0, 1, 2 and cell 1 the vertices 1, 3, 2 *)
Definition hstrip (z : nat -> R) : hmesh :=
  let m := strip (fun _ => true) in
  HMesh (CMesh (cm_cells m) (cm_vertices m) (cm_internal m) (cm_cell_ids m) (cm_vertex_ids m) (cm_eowned m) (cm_sn m) (cm_cn m) (cm_len m) (cm_area m) (cm_owned m) (cm_l2o m) (cm_dzdx m) (cm_dzdy m) z)
        (fun c => 3 * c)%nat (fun k => nth k [0;1;2;1;3;2]%nat 0%nat) (fun _ => 3%nat) (fun _ => 0).
Lemma hstrip_ok z bs : (forall b e, In b bs -> In e (cb_edges b) -> e = 1%nat \/ e = 2%nat) -> mesh_ok (hm_mesh (hstrip z)) bs /\ cells_ok (hstrip z).
Proof.
  intros H. destruct (strip_ok (fun _ => true) bs H) as [A B C D]. split; [constructor; assumption|].
  intros c Hc. split; [|discriminate]. unfold cell_vertices. rewrite map_length, seq_length. cbn [hm_offsets hm_count hstrip]. lia.
Qed.

(* a lake with level 2 over a bed of 0 and 1 metres, reflecting walls: all hypotheses of C71_flux and
   C71_courant_never_recorded *)
Definition lake_bed (v : nat) : R := if Nat.eqb v 3 then 3 else 0.
Lemma lake_beds : bed false (hstrip lake_bed) 0 = 0 /\ bed false (hstrip lake_bed) 1 = 1.
Proof. split; unfold bed; cbn; field. Qed.
Definition walls : list cboundary := [CBoundary [1;2]%nat REFLECTING []].
Lemma lake_fluxes : exists FL FR a, hr_flux_at (one_config 0 false) false (hstrip lake_bed) [2;0;0; 1;0;0] 0 = Some (FL, FR, a) /\ 0 < a.
Proof.
  destruct lake_beds as (B0 & B1). assert (G := GRAVITY_pos). unfold hr_flux_at.
  change (left_cell (hm_mesh (hstrip lake_bed)) 0) with 0%nat. change (right_cell (hm_mesh (hstrip lake_bed)) 0) with 1%nat. rewrite B0, B1.
  unfold hr_flux. cbn [num_tracers one_config cf_classes cf_salinity cf_heat Nat.add Nat.eqb].
  change (v3 (block _ [2;0;0; 1;0;0] 0)) with (V3 2 0 0). change (v3 (block _ [2;0;0; 1;0;0] 1)) with (V3 1 0 0). change (cf_tiny_h _) with (1/1000). change (cf_h_anuga _) with 0.
  unfold ceed_hr_edge. cbn [c0]. rewrite !ceed_velocities_some by lra. rewrite !obind_Some, !HRProofs.cvel_rest. cbn [pu pv].
  replace (hr_depth 2 0 1) with 1 by (unfold hr_depth; rewrite (Rmax_right 0 1), Rmax_right by lra; ring).
  replace (hr_depth 1 1 0) with 1 by (unfold hr_depth; rewrite (Rmax_left 1 0), Rmax_right by lra; ring).
  rewrite (proj2 (Rltb_true (1/1000) 2)), (proj2 (Rltb_true (1/1000) 1)) by lra. cbn [orb].
  rewrite ceed_roe_flux_some by (cbn [c0]; lra). rewrite !obind_Some. do 3 eexists. split; [reflexivity|]. cbn [snd]. rewrite !Rmult_0_r, HRProofs.cvel_rest.
  apply Rplus_lt_le_0_compat; [|apply Rabs_pos]. apply chat_pos; [exact G|]. unfold wetpair. cbn [ph]. lra.
Qed.
Lemma walls_supported : supported (one_config 0 false) walls.
Proof. constructor; [reflexivity|cbn; lia|intros X; contradiction X; reflexivity|intros X; contradiction X; reflexivity]. Qed.
Example C71_flux_example : exists x, hr_flux_rhs (one_config 0 false) false (hstrip lake_bed) (1/10) walls [2;0;0; 1;0;0] = Some x.
Proof.
  destruct (hstrip_ok lake_bed walls) as (M & C). { intros b e [<-|[]] [<-|[<-|[]]]; auto. }
  destruct lake_fluxes as (FL & FR & a & EF & _).
  pose (g := fun b pe => bflux_at (one_config 0 false) (hm_mesh (hstrip lake_bed)) (initial_eta (hm_mesh (hstrip lake_bed))) [2;0;0; 1;0;0] b pe).
  destruct (C71_flux (one_config 0 false) false (hstrip lake_bed) (1/10) walls [2;0;0; 1;0;0] (fun _ => FL) (fun _ => FR) (fun _ => a)
    (fun b pe => match g b pe with Some p => fst p | None => [] end) (fun b pe => match g b pe with Some p => snd p | None => 0 end)) as (x & E & _).
  - exact walls_supported.
  - exact M.
  - exact C.
  - intros b [<-|[]] X. discriminate X.
  - reflexivity.
  - intros e [<-|[]] _. exact EF.
  - intros b pe [<-|[]] (Hp & _). destruct pe as (p, e). cbn [cb_edges fst snd] in Hp.
    assert (N : exists f w, g (CBoundary [1; 2]%nat REFLECTING []) (p, e) = Some (f, w)).
    { unfold g, bflux_at, boundary_flux. cbn [num_tracers one_config cf_classes cf_salinity cf_heat Nat.add Nat.eqb cb_type flow_condition snd].
      rewrite C67_eta_initial by (destruct p as [|[|p]]; cbn in Hp; [injection Hp as <-; cbn; lia|injection Hp as <-; cbn; lia|destruct p; discriminate]).
      change (cf_tiny_h _) with (1/1000). change (cf_h_anuga _) with 0. change (cm_sn _ e) with 0. change (cm_cn _ e) with 1.
      destruct p as [|[|p]]; cbn in Hp; [injection Hp as <-|injection Hp as <-|destruct p; discriminate].
      - change (v3 (block _ _ _)) with (V3 2 0 0). destruct (HRProofs.ceed_wall_rest (1/1000) 0 2 0 1 ltac:(lra) ltac:(lra) ltac:(lra)) as (P & w & K & _). rewrite K. do 2 eexists. reflexivity.
      - change (v3 (block _ _ _)) with (V3 1 0 0). destruct (HRProofs.ceed_wall_rest (1/1000) 0 1 0 1 ltac:(lra) ltac:(lra) ltac:(lra)) as (P & w & K & _). rewrite K. do 2 eexists. reflexivity. }
    destruct N as (f & w & N). fold (g (CBoundary [1; 2]%nat REFLECTING []) (p, e)). rewrite N. reflexivity.
  - intros b pe [<-|[]] _ X. discriminate X.
  - exists x. exact E.
Qed.

(* The property of C26, that the reported maximum is the largest Courant number of the state, is false with
   hydrostatic reconstruction: the edge of this lake has a positive number and there is none to be found. *)
Theorem C71_courant_hydrostatic_refuted : exists cf file hm dt bs u e FL FR a op,
  supported cf bs /\ mesh_ok (hm_mesh hm) bs /\ cells_ok hm /\ 0 < dt /\
  owned_internal (hm_mesh hm) = [e] /\ hr_flux_at cf file hm u e = Some (FL, FR, a) /\ 0 < a * (cm_len (hm_mesh hm) e / cm_area (hm_mesh hm) (left_cell (hm_mesh hm) e)) * dt /\
  CreateCeedInteriorFluxHydroReconSuboperator cf file hm dt = Some op /\ forall start, CeedFindMaxCourantNumberInternalEdges op u start = None.
Proof.
  destruct (hstrip_ok lake_bed walls) as (M & C). { intros b e [<-|[]] [<-|[<-|[]]]; auto. }
  destruct lake_fluxes as (FL & FR & a & EF & Ha).
  destruct (C71_courant_never_recorded (one_config 0 false) false (hstrip lake_bed) (1/10) walls [2;0;0; 1;0;0] 0 0 walls_supported M C eq_refl eq_refl (ex_intro _ _ EF)) as (op & E & _ & _ & N).
  exists (one_config 0 false), false, (hstrip lake_bed), (1/10), walls, [2;0;0; 1;0;0], 0%nat, FL, FR, a, op.
  split; [exact walls_supported|]. split; [exact M|]. split; [exact C|]. split; [lra|]. split; [reflexivity|]. split; [exact EF|]. split; [cbn; lra|]. split; [exact E|exact N].
Qed.
Print Assumptions C71_courant_hydrostatic_refuted.

(* the source operator on the same lake: with no flux and no rain nothing moves *)
Example C71_sources_example : exists x, hr_source_rhs (one_config 0 false) (hm_mesh (hstrip lake_bed)) [0;0;0; 0;0;0] [1/50; 1/30] [0;0;0; 0;0;0] (1/10) [2;0;0; 1;0;0] = Some x /\
  block 3 x 0 = [0;0;0] /\ block 3 x 1 = [0;0;0].
Proof.
  destruct (C71_sources (one_config 0 false) (hm_mesh (hstrip lake_bed)) [0;0;0; 0;0;0] [1/50; 1/30] [0;0;0; 0;0;0] (1/10) [2;0;0; 1;0;0] (fun i => [0;0;0])) as ((x & E & L & V) & _).
  - cbn; lia.
  - intros X. contradiction X; reflexivity.
  - cbn; lra.
  - reflexivity.
  - reflexivity.
  - reflexivity.
  - reflexivity.
  - intros i c H. cbn in H. do 2 (destruct i as [|i]; [injection H as <-; reflexivity|cbn in H]). destruct i; discriminate.
  - intros i c H. cbn in H. assert (Z : forall h n, ceed_rhs SemiImplicit true GRAVITY (1/10) (1/1000) 0 n 0 0 (V3 h 0 0) (V3 0 0 0) (V3 0 0 0) = Some vzero).
    { intros h n. rewrite ceed_rhs_flat. apply HRProofs.ceed_rhs_rest; [lra|lra|discriminate]. }
    destruct i as [|[|i]]; [| |destruct i; discriminate]; injection H as <-; unfold source_update; cbn [num_tracers one_config cf_classes cf_salinity cf_heat Nat.add Nat.eqb cf_source];
      [change (v3 (block _ [2;0;0; 1;0;0] _)) with (V3 2 0 0)|change (v3 (block _ [2;0;0; 1;0;0] _)) with (V3 1 0 0)];
      change (v3 (block _ [0;0;0; 0;0;0] _)) with (V3 0 0 0); change (cf_tiny_h _) with (1/1000); change (cf_h_anuga _) with 0; rewrite Z; reflexivity.
  - exists x. split; [exact E|]. split; apply V; cbn; lia.
Qed.
