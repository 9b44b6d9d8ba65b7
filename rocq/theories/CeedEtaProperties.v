(** C69: the elevations used by Bradford-Sanders well-balancing in the libCEED back end. *)
From Coq Require Import String Permutation.
From Verif Require Import Base RoeModel RoeProofs EdgeModel EdgeProofs HRProofs EtaModel EtaProofs EtaProperties SourceModel TracerModel MeshMapsProofs AMRProofs CeedLayoutModel CeedLayoutSpec CeedLayoutProofs CeedLayoutProperties CeedEtaModel CeedEtaProofs.
Local Open Scope R_scope.
Local Notation length := List.length.

(** ** Specification *)

(* the surface in a triangle with its three vertices and a depth [h] of water is at [e] (C52) *)
Definition surface (tiny_h : R) (vm : vmesh) (c : nat) (h e : R) : Prop :=
  cell_level tiny_h (EtaIn (corner vm c 0) (corner vm c 1) (corner vm c 2) h) e.
(* the cells around the vertices are cells of the mesh *)
Definition connected (vm : vmesh) : Prop := forall v c, (v < cm_vertices (vm_mesh vm))%nat -> In c (cells_around vm v) -> (c < cm_cells (vm_mesh vm))%nat.
Definition depth_of (cf : cconfig) (u : list R) (c : nat) : R := nth (c * num_comp cf) u 0.

(** ** Flow without tracers *)

(* Every evaluation uses, at each vertex, the mean of the surfaces of the current solution in the cells around it. *)
Theorem C69_elevations : forall cf vm u,
  num_tracers cf = 0%nat -> 0 <= cf_tiny_h cf -> length u = (num_comp cf * cm_cells (vm_mesh vm))%nat -> connected vm ->
  exists eta lev, (forall c, (c < cm_cells (vm_mesh vm))%nat -> surface (cf_tiny_h cf) vm c (depth_of cf u c) (lev c)) /\
    (forall v, (v < cm_vertices (vm_mesh vm))%nat -> cells_around vm v <> [] -> nth v eta 0 = rsum lev (cells_around vm v) / INR (length (cells_around vm v))) /\
    length eta = cm_vertices (vm_mesh vm) /\
    forall dt bs, ceed_flux_step WELL_BALANCING_BS2002 cf vm dt bs u = flux_rhs cf (vm_mesh vm) eta dt bs u.
Proof.
  intros cf vm u HN Ht HU HC. assert (C0 := num_tracers_classes cf HN). assert (NC : num_comp cf = eta_num_comp cf) by (unfold num_comp, eta_num_comp; lia).
  destruct (update_eta_spec cf vm u Ht) as (eta & E & L & V). { intros v c Hv Hc. specialize (HC v c Hv Hc). rewrite HU, NC. nia. }
  exists eta, (level cf vm u). split; [|split; [|split; [exact L|]]].
  - intros c _. unfold surface, depth_of. rewrite NC. exact (level_spec cf vm u c Ht).
  - intros v Hv Hn. rewrite (V v Hv), cells_around_length. rewrite (rsum_ext _ (fun c => (1 / INR (vm_ncells vm v)) * level cf vm u c)) by (intros; ring).
    rewrite rsum_scal. unfold Rdiv. ring.
  - intros dt bs. unfold ceed_flux_step. rewrite C0. cbn [Nat.eqb]. rewrite E, obind_Some. reflexivity.
Qed.
Print Assumptions C69_elevations.

(* A triangulation: the corners of each cell.  The arrays of the mesh describe it when the entries of a cell are its
   corners and the entries of a vertex are, each once, the cells that have it as a corner. *)
Definition has_corner (tri : nat -> nat * nat * nat) (v c : nat) : bool :=
  let '(a, b, d) := tri c in (Nat.eqb a v || Nat.eqb b v || Nat.eqb d v)%bool.
Record describes (vm : vmesh) (tri : nat -> nat * nat * nat) : Prop := {
  de_corners : forall c, (c < cm_cells (vm_mesh vm))%nat ->
    tri c = (vm_vertex_ids vm (vm_vertex_offsets vm c), vm_vertex_ids vm (vm_vertex_offsets vm c + 1), vm_vertex_ids vm (vm_vertex_offsets vm c + 2))%nat;
  de_once : forall v i j, (v < cm_vertices (vm_mesh vm))%nat -> (i < vm_ncells vm v)%nat -> (j < vm_ncells vm v)%nat ->
    vm_cell_ids vm (vm_cell_offsets vm v + i)%nat = vm_cell_ids vm (vm_cell_offsets vm v + j)%nat -> i = j;
  de_cells : forall v c, (v < cm_vertices (vm_mesh vm))%nat ->
    ((exists i, (i < vm_ncells vm v)%nat /\ vm_cell_ids vm (vm_cell_offsets vm v + i)%nat = c) <-> (c < cm_cells (vm_mesh vm))%nat /\ has_corner tri v c = true);
}.
Lemma NoDup_map_on {A B} (f : A -> B) l : NoDup l -> (forall x y, In x l -> In y l -> f x = f y -> x = y) -> NoDup (map f l).
Proof.
  induction l as [|a t IH]; intros N H; cbn [map]; [constructor|]. inversion N as [|? ? Na Nt]; subst. constructor.
  - intros I. apply in_map_iff in I. destruct I as (x & E & Hx). apply Na. rewrite <- (H x a); [exact Hx|right; exact Hx|left; reflexivity|exact E].
  - apply IH; [exact Nt|]. intros x y Hx Hy. apply H; right; assumption.
Qed.
Lemma described_in vm tri v c : describes vm tri -> (v < cm_vertices (vm_mesh vm))%nat ->
  (In c (cells_around vm v) <-> (c < cm_cells (vm_mesh vm))%nat /\ has_corner tri v c = true).
Proof.
  intros D Hv. rewrite <- (de_cells _ _ D v c Hv). unfold cells_around. rewrite in_map_iff. split.
  - intros (i & E & Hi). apply in_seq in Hi. exists i. split; [lia|exact E].
  - intros (i & Hi & E). exists i. split; [exact E|]. apply in_seq. lia.
Qed.
Lemma described_around vm tri v : describes vm tri -> (v < cm_vertices (vm_mesh vm))%nat ->
  Permutation (cells_around vm v) (filter (has_corner tri v) (seq 0 (cm_cells (vm_mesh vm)))).
Proof.
  intros D Hv. apply NoDup_Permutation.
  - unfold cells_around. apply NoDup_map_on; [apply seq_NoDup|]. intros x y Hx Hy. apply in_seq in Hx, Hy. apply (de_once _ _ D); [exact Hv|lia|lia].
  - apply NoDup_filter, seq_NoDup.
  - intros c. rewrite (described_in vm tri v c D Hv), filter_In, in_seq. split; intros (A & B); (split; [lia|exact B]).
Qed.
(* The same in terms of the triangulation: at a vertex, the mean of the surfaces of all triangles with this corner. *)
Theorem C69_elevations_triangulation : forall cf vm tri u,
  num_tracers cf = 0%nat -> 0 <= cf_tiny_h cf -> length u = (num_comp cf * cm_cells (vm_mesh vm))%nat -> describes vm tri ->
  exists eta lev,
    (forall c, (c < cm_cells (vm_mesh vm))%nat -> let '(a, b, d) := tri c in
       cell_level (cf_tiny_h cf) (EtaIn (cm_z (vm_mesh vm) a) (cm_z (vm_mesh vm) b) (cm_z (vm_mesh vm) d) (depth_of cf u c)) (lev c)) /\
    (forall v, (v < cm_vertices (vm_mesh vm))%nat -> let l := filter (has_corner tri v) (seq 0 (cm_cells (vm_mesh vm))) in
       l <> [] -> nth v eta 0 = rsum lev l / INR (length l)) /\
    forall dt bs, ceed_flux_step WELL_BALANCING_BS2002 cf vm dt bs u = flux_rhs cf (vm_mesh vm) eta dt bs u.
Proof.
  intros cf vm tri u HN Ht HU D.
  assert (HC : connected vm). { intros v c Hv Hc. apply (described_in vm tri v c D Hv) in Hc. apply Hc. }
  destruct (C69_elevations cf vm u HN Ht HU HC) as (eta & lev & S & M & _ & St). exists eta, lev. split; [|split; [|exact St]].
  - intros c Hc. rewrite (de_corners _ _ D c Hc). specialize (S c Hc). unfold surface, corner in S. rewrite Nat.add_0_r in S. exact S.
  - intros v Hv l Hl. assert (P := described_around vm tri v D Hv). fold l in P.
    rewrite (M v Hv), (Permutation_length P), (rsum_perm lev _ _ P); [reflexivity|]. intros E. rewrite E in P. apply Permutation_nil in P. contradiction.
Qed.
Print Assumptions C69_elevations_triangulation.

(* Still water above all vertices, its level [eta0] given by the depths and the mean bed of the triangles: along
   every edge the jump handed to the flux function is exactly minus the change of the bed. *)
Theorem C69_still_water : forall cf vm u eta0,
  num_tracers cf = 0%nat -> 0 <= cf_tiny_h cf -> length u = (num_comp cf * cm_cells (vm_mesh vm))%nat -> connected vm ->
  (forall c, (c < cm_cells (vm_mesh vm))%nat -> cf_tiny_h cf < depth_of cf u c /\ mean_bed (corner vm c 0) (corner vm c 1) (corner vm c 2) + depth_of cf u c = eta0) ->
  (forall c k, (c < cm_cells (vm_mesh vm))%nat -> (k < 3)%nat -> corner vm c k <= eta0) ->
  exists eta, (forall dt bs, ceed_flux_step WELL_BALANCING_BS2002 cf vm dt bs u = flux_rhs cf (vm_mesh vm) eta dt bs u) /\
    (forall v, (v < cm_vertices (vm_mesh vm))%nat -> cells_around vm v <> [] -> nth v eta 0 = eta0) /\
    forall e, let m := vm_mesh vm in
      (vertex_beg m e < cm_vertices m)%nat -> (vertex_end m e < cm_vertices m)%nat ->
      cells_around vm (vertex_beg m e) <> [] -> cells_around vm (vertex_end m e) <> [] ->
      cm_z m (vertex_beg m e) <= eta0 -> cm_z m (vertex_end m e) <= eta0 ->
      edge_dhv m eta e = cm_z m (vertex_beg m e) - cm_z m (vertex_end m e).
Proof.
  intros cf vm u eta0 HN Ht HU HC HL HZ. destruct (C69_elevations cf vm u HN Ht HU HC) as (eta & lev & Hlev & Hmean & L & Hstep).
  assert (Lev : forall c, (c < cm_cells (vm_mesh vm))%nat -> lev c = eta0).
  { intros c Hc. destruct (HL c Hc) as (H1 & H2).
    destruct (C52_lake_at_rest (cf_tiny_h cf) [EtaIn (corner vm c 0) (corner vm c 1) (corner vm c 2) (depth_of cf u c)] eta0 Ht) as (E & _); [discriminate| |].
    - intros x [<-|[]]. cbn [ez1 ez2 ez3 edepth]. repeat split; try exact H1; try exact H2; apply HZ; try exact Hc; lia.
    - destruct (C52_vertex_value_is_mean (cf_tiny_h cf) [EtaIn (corner vm c 0) (corner vm c 1) (corner vm c 2) (depth_of cf u c)] Ht) as (f & F & E'); [discriminate|].
      specialize (F _ (or_introl eq_refl)). specialize (Hlev c Hc). unfold surface, cell_level in *. rewrite E in E'. injection E' as E'. cbn [rsum length INR] in E'.
      cbn [ez1 ez2 ez3 edepth] in *. destruct (sort3 _ _ _) as [[z1 z2] z3]. rewrite F in Hlev. injection Hlev as <-. lra. }
  assert (V : forall v, (v < cm_vertices (vm_mesh vm))%nat -> cells_around vm v <> [] -> nth v eta 0 = eta0).
  { intros v Hv Hn. rewrite (Hmean v Hv Hn). rewrite (rsum_ext lev (fun _ => eta0)) by (intros c Hc; apply Lev; exact (HC v c Hv Hc)).
    assert (K : forall l : list nat, rsum (fun _ => eta0) l = INR (length l) * eta0).
    { clear. induction l as [|x t IH]; cbn [rsum]; [cbn; ring|]. rewrite IH. cbn [length]. rewrite S_INR. ring. }
    rewrite K. field. destruct (cells_around vm v); [congruence|]. apply not_0_INR. discriminate. }
  exists eta. split; [exact Hstep|]. split; [exact V|]. intros e m Hb He Nb Ne Zb Ze. unfold edge_dhv. fold m. rewrite (V _ Hb Nb), (V _ He Ne).
  unfold ComputeDhv. rewrite !Rmax_left by lra. ring.
Qed.
Print Assumptions C69_still_water.

(* A process that holds all cells around a vertex, with the same corners and depths, in any order and under any
   numbering, computes the elevation that the whole mesh has there. *)
Theorem C69_distribution : forall cf whole part u ul (cell vertex : nat -> nat),
  num_tracers cf = 0%nat -> 0 <= cf_tiny_h cf ->
  length u = (num_comp cf * cm_cells (vm_mesh whole))%nat -> length ul = (num_comp cf * cm_cells (vm_mesh part))%nat -> connected whole -> connected part ->
  (forall c, (c < cm_cells (vm_mesh part))%nat -> depth_of cf ul c = depth_of cf u (cell c) /\ forall k, corner part c k = corner whole (cell c) k) ->
  exists eta etal, update_eta cf whole u = Some eta /\ update_eta cf part ul = Some etal /\
    forall v, (v < cm_vertices (vm_mesh part))%nat -> (vertex v < cm_vertices (vm_mesh whole))%nat ->
      Permutation (map cell (cells_around part v)) (cells_around whole (vertex v)) -> nth v etal 0 = nth (vertex v) eta 0.
Proof.
  intros cf whole part u ul cell vertex HN Ht HU HUL HC HCL HS. assert (C0 := num_tracers_classes cf HN). assert (NC : num_comp cf = eta_num_comp cf) by (unfold num_comp, eta_num_comp; lia).
  destruct (update_eta_spec cf whole u Ht) as (eta & E & L & V). { intros v c Hv Hc. specialize (HC v c Hv Hc). rewrite HU, NC. nia. }
  destruct (update_eta_spec cf part ul Ht) as (etal & El & Ll & Vl). { intros v c Hv Hc. specialize (HCL v c Hv Hc). rewrite HUL, NC. nia. }
  exists eta, etal. split; [exact E|]. split; [exact El|]. intros v Hv Hw P. rewrite (V _ Hw), (Vl _ Hv).
  assert (N : vm_ncells part v = vm_ncells whole (vertex v)). { rewrite <- !cells_around_length. rewrite <- (map_length cell). apply Permutation_length. exact P. }
  rewrite N, <- (rsum_perm _ _ _ P), rsum_map. apply rsum_ext. intros c Hc. f_equal.
  destruct (HS c (HCL v c Hv Hc)) as (D & K). unfold level, sorted_corners. rewrite !K. unfold depth_of in D. rewrite NC in D. rewrite D. reflexivity.
Qed.
Print Assumptions C69_distribution.

(** ** Still water *)

(* two cells at rest: water flows from the deeper into the shallower one, whatever the elevations of the vertices *)
Lemma pfix_pos a al ar : 0 < a -> 0 < pfix a al ar.
Proof.
  intros H. unfold pfix. destruct (a <? Rmax 0 (2 * (ar - al))) eqn:E; [|exact H]. apply Rltb_true in E.
  assert (0 <= a * a / Rmax 0 (2 * (ar - al))); [|lra]. apply Rmult_le_pos; [nra|]. left. apply Rinv_0_lt_compat. lra.
Qed.
Theorem C69_flow_at_rest : forall cf hL hR sn cn dhv, 0 <= cf_tiny_h cf -> cf_tiny_h cf < hR -> hR < hL -> num_tracers cf = 0%nat ->
  exists f a, interior_flux cf [hL; 0; 0] [hR; 0; 0] sn cn dhv = Some (f, a) /\ 0 < nth 0 f 0.
Proof.
  intros cf hL hR sn cn dhv Ht HR HL HN. unfold interior_flux. rewrite HN. cbn [Nat.eqb]. change (v3 [hL; 0; 0]) with (V3 hL 0 0). change (v3 [hR; 0; 0]) with (V3 hR 0 0).
  rewrite ceed_interior_edge_some by (cbn [c0]; try exact GRAVITY_pos; lra). cbn [c0]. rewrite (proj2 (Rltb_true (cf_tiny_h cf) hL)) by lra. cbn [orb]. rewrite obind_Some. cbn [fst snd].
  do 2 eexists. split; [reflexivity|]. rewrite !cvel_rest. unfold comps3. cbn [nth]. unfold cflux. cbn [c0]. unfold pflux, assemble_flux, flux_row, pspec, side_flux. cbn [c0 c1 c2 ph pu pv row0 lam dW].
  set (L := Prim hL 0 0). set (Rt := Prim hR 0 0).
  assert (C : 0 < chat GRAVITY L Rt) by (apply chat_pos; [exact GRAVITY_pos|unfold wetpair; cbn; lra]).
  assert (UP : uperp L Rt sn cn = 0). { unfold uperp, uhat, vhat. cbn [pu pv L Rt]. unfold Rdiv. ring. }
  rewrite UP. set (a1 := pfix (Rabs (0 - chat GRAVITY L Rt)) _ _). set (a3 := pfix (Rabs (0 + chat GRAVITY L Rt)) _ _).
  assert (A1 : 0 < a1) by (apply pfix_pos, Rabs_pos_lt; lra). assert (A3 : 0 < a3) by (apply pfix_pos, Rabs_pos_lt; lra).
  set (r := hhat L Rt * ((0 - 0) * cn + (0 - 0) * sn) / chat GRAVITY L Rt). assert (R0 : r = 0) by (unfold r, Rdiv; ring). rewrite R0. nra.
Qed.
Print Assumptions C69_flow_at_rest.
Example C69_flow_at_rest_example : 0 <= cf_tiny_h (one_config 0 false) /\ cf_tiny_h (one_config 0 false) < 4/3 /\ 4/3 < 5/3 /\ num_tracers (one_config 0 false) = 0%nat.
Proof. cbn. repeat split; lra. Qed.

(* a 4 by 3 rectangle with the bed z = x/4, cut along the diagonal; edge 0 is the diagonal, edges 1 to 4 the walls.
   [nv]: corners of cell 0 and 1 in storage order *)
Definition rectangle : vmesh :=
  VMesh (CMesh 2 4 [0%nat] (fun k => nth k [0;1; 0;0; 0;0; 1;1; 1;1]%nat 0%nat) (fun k => nth k [1;2; 0;1; 2;0; 1;3; 3;2]%nat 0%nat) (fun _ => true)
           (fun e => nth e [4/5; -1; 0; 0; 1] 0) (fun e => nth e [3/5; 0; -1; 1; 0] 0) (fun e => nth e [5; 4; 3; 3; 4] 0) (fun _ => 6)
           (fun _ => true) (fun c => c) (fun _ => 1/4) (fun _ => 0) (fun v => nth v [0; 1; 0; 1] 0))
        (fun v => nth v [1;2;2;1]%nat 0%nat) (fun v => nth v [0;1;3;5]%nat 0%nat) (fun k => nth k [0; 0;1; 0;1; 1]%nat 0%nat)
        (fun c => 3 * c)%nat (fun k => nth k [0;1;2; 1;3;2]%nat 0%nat).
Lemma rectangle_connected : connected rectangle.
Proof. intros v c Hv Hc. cbn in Hv. do 4 (destruct v as [|v]; [cbn in Hc; cbn; lia|]). lia. Qed.
Example C69_elevations_triangulation_example :
  describes rectangle (fun c => match c with 0 => (0, 1, 2) | _ => (1, 3, 2) end%nat) /\
  filter (has_corner (fun c => match c with 0 => (0, 1, 2) | _ => (1, 3, 2) end%nat) 1) (seq 0 2) = [0; 1]%nat.
Proof.
  split; [|reflexivity]. constructor.
  - intros c Hc. cbn in Hc. do 2 (destruct c as [|c]; [reflexivity|]). lia.
  - intros v i j Hv Hi Hj E. cbn in Hv. do 4 (destruct v as [|v]; [cbn in Hi, Hj; do 2 (destruct i as [|i]; [do 2 (destruct j as [|j]; [first [lia | cbn in E; lia]|]); lia|]); lia|]). lia.
  - intros v c Hv. cbn in Hv. do 4 (destruct v as [|v]; [split;
      [intros (i & Hi & <-); cbn in Hi; do 2 (destruct i as [|i]; [first [lia | cbn; split; [lia|reflexivity]]|]); lia
      |intros (Hc & H); cbn in Hc; do 2 (destruct c as [|c]; [first [discriminate H | exists 0%nat; cbn; split; [lia|reflexivity] | exists 1%nat; cbn; split; [lia|reflexivity]]|]); lia]|]). lia.
Qed.
Definition walls : list cboundary := [CBoundary [1;2;3;4]%nat REFLECTING []].
Lemma rectangle_ok : mesh_ok (vm_mesh rectangle) walls.
Proof.
  constructor.
  - intros e [<-|[]] _. unfold edge_ok. cbn. repeat split; try lia; lra.
  - intros b e [<-|[]] He _. destruct He as [<-|[<-|[<-|[<-|[]]]]]; unfold edge_ok; cbn; repeat split; try lia; lra.
  - intros c Hc. exact Hc.
  - intros c c' _ _ H. exact H.
Qed.
(* still water at level 2 *)
Definition still : list R := [5/3; 0; 0; 4/3; 0; 0].
Lemma still_level c : (c < cm_cells (vm_mesh rectangle))%nat ->
  cf_tiny_h (one_config 0 false) < depth_of (one_config 0 false) still c /\
  mean_bed (corner rectangle c 0) (corner rectangle c 1) (corner rectangle c 2) + depth_of (one_config 0 false) still c = 2.
Proof. intros H. cbn in H. do 2 (destruct c as [|c]; [unfold mean_bed, depth_of, corner; cbn; lra|]). lia. Qed.
Lemma still_corners c k : (c < cm_cells (vm_mesh rectangle))%nat -> (k < 3)%nat -> corner rectangle c k <= 2.
Proof. intros H Hk. cbn in H. do 2 (destruct c as [|c]; [do 3 (destruct k as [|k]; [cbn; lra|]); lia|]). lia. Qed.
Example C69_still_water_example : exists eta,
  (forall dt bs, ceed_flux_step WELL_BALANCING_BS2002 (one_config 0 false) rectangle dt bs still = flux_rhs (one_config 0 false) (vm_mesh rectangle) eta dt bs still) /\
  nth 1 eta 0 = 2 /\ edge_dhv (vm_mesh rectangle) eta 0 = 1.
Proof.
  destruct (C69_still_water (one_config 0 false) rectangle still 2 eq_refl) as (eta & S & V & D); [cbn; lra|reflexivity|exact rectangle_connected|exact still_level|exact still_corners|].
  exists eta. split; [exact S|]. split; [apply V; [cbn; lia|discriminate]|]. rewrite D; [cbn; lra|cbn; lia|cbn; lia|discriminate|discriminate|cbn; lra|cbn; lra].
Qed.

(* Still water in this basin does not stay still: the scheme moves water from the deep into the shallow half. *)
Theorem C69_still_water_refuted : exists cf vm u x,
  num_tracers cf = 0%nat /\ connected vm /\ mesh_ok (vm_mesh vm) walls /\ length u = (num_comp cf * cm_cells (vm_mesh vm))%nat /\
  (forall c, (c < cm_cells (vm_mesh vm))%nat -> cf_tiny_h cf < depth_of cf u c /\ mean_bed (corner vm c 0) (corner vm c 1) (corner vm c 2) + depth_of cf u c = 2) /\
  (forall c k, (c < cm_cells (vm_mesh vm))%nat -> (k < 3)%nat -> corner vm c k < 2) /\
  (forall c, (c < cm_cells (vm_mesh vm))%nat -> nth (c * num_comp cf + 1) u 0 = 0 /\ nth (c * num_comp cf + 2) u 0 = 0) /\
  ceed_flux_step WELL_BALANCING_BS2002 cf vm (1/10) walls u = Some x /\ nth 0 x 0 < 0 < nth (num_comp cf) x 0.
Proof.
  pose (cf := one_config 0 false). exists cf, rectangle, still.
  destruct (C69_elevations cf rectangle still eq_refl) as (eta & lev & _ & _ & LE & St); [cbn; lra|reflexivity|exact rectangle_connected|].
  destruct (C69_flow_at_rest cf (5/3) (4/3) (4/5) (3/5) (edge_dhv (vm_mesh rectangle) eta 0)) as (f & a & EF & PF); [cbn; lra|cbn; lra|lra|reflexivity|].
  pose (G := fun b pe => match bflux_at cf (vm_mesh rectangle) eta still b pe with Some p => p | None => ([], 0) end).
  assert (HG : forall b pe, In b walls -> owned_edge (vm_mesh rectangle) b pe -> exists g ga, bflux_at cf (vm_mesh rectangle) eta still b pe = Some (g, ga) /\ nth 0 g 0 = 0).
  { intros b (p, e) [<-|[]] (H & _). unfold bflux_at, boundary_flux. cbn [cb_type flow_condition fst snd]. change (Nat.eqb (num_tracers cf) 0) with true. cbv iota.
    assert (K : 0 <= c0 (v3 (block (num_comp cf) still (left_cell (vm_mesh rectangle) e))) /\ unit2 (cm_sn (vm_mesh rectangle) e) (cm_cn (vm_mesh rectangle) e)).
    { cbn [fst snd cb_edges nth_error] in H. do 4 (destruct p as [|p]; [cbn in H; injection H as <-; unfold unit2; cbn; lra|]). destruct p; discriminate. }
    destruct K as (K1 & K2).
    destruct (ceed_reflecting_no_mass GRAVITY (cf_tiny_h cf) (cf_h_anuga cf) _ _ _ (edge_dhv (vm_mesh rectangle) eta e) GRAVITY_pos ltac:(cbn; lra) K1 K2) as (g & ga & E & Z & _).
    rewrite E, obind_Some. cbn [fst snd]. do 2 eexists. split; [reflexivity|]. exact Z. }
  destruct (C67_flux cf (vm_mesh rectangle) eta (1/10) walls still (fun _ => f) (fun _ => a) (fun b pe => fst (G b pe)) (fun b pe => snd (G b pe))) as (x & E & L & V).
  - constructor; [reflexivity|cbn; unfold MAX_NUM_SEDIMENT_CLASSES; lia|intros X; contradiction X; reflexivity|intros X; contradiction X; reflexivity].
  - exact rectangle_ok.
  - intros b [<-|[]] X. discriminate X.
  - exact LE.
  - reflexivity.
  - intros e [<-|[]] _. exact EF.
  - intros b pe Hb Hpe. destruct (HG b pe Hb Hpe) as (g & ga & K & _). unfold G. rewrite K. reflexivity.
  - intros b pe [<-|[]] _ X. discriminate X.
  - assert (B0 : forall c k, k = 0%nat -> rsum (fun b => from_boundary (vm_mesh rectangle) b (fun pe => fst (G b pe)) c k) walls = 0).
    { intros c k ->. cbn [rsum walls]. unfold from_boundary. rewrite (rsum_ext _ (fun _ => 0)); [rewrite rsum_zero; [ring|reflexivity]|].
      intros pe Hpe. apply owned_boundary_spec in Hpe. destruct (HG _ pe (or_introl eq_refl) Hpe) as (g & ga & K & Z). unfold G. unfold walls in K. rewrite K. cbn [fst]. rewrite Z. destruct (Nat.eqb _ _); ring. }
    assert (V0 := V 0%nat 0%nat ltac:(cbn; lia) ltac:(cbn; lia)). assert (V1 := V 1%nat 0%nat ltac:(cbn; lia) ltac:(cbn; lia)). rewrite B0 in V0, V1 by reflexivity.
    cbn in V0, V1. exists x. split; [reflexivity|]. split; [exact rectangle_connected|]. split; [exact rectangle_ok|]. split; [reflexivity|]. split; [exact still_level|]. split; [|split; [|split]].
    + intros c k H Hk. cbn in H. do 2 (destruct c as [|c]; [do 3 (destruct k as [|k]; [cbn; lra|]); lia|]). lia.
    + intros c H. cbn in H. do 2 (destruct c as [|c]; [cbn; lra|]). lia.
    + rewrite St. exact E.
    + change (num_comp cf) with 3%nat. rewrite V0, V1. lra.
Qed.
Print Assumptions C69_still_water_refuted.

(** ** Other shapes and tracers *)

(* Of a quadrilateral only the first three vertices are used.  Two unit squares with the bed z = x and still water at
   level 3: the elevations differ from vertex to vertex, and the jump along the lower edge of the first square is not
   the change of the bed.  The second square is stored beginning at another corner. *)
Definition squares : vmesh :=
  VMesh (CMesh 2 6 [0%nat] (fun k => nth k [0;1; 0;0]%nat 0%nat) (fun k => nth k [1;4; 0;1]%nat 0%nat) (fun _ => true)
           (fun e => nth e [0; -1] 0) (fun e => nth e [1; 0] 0) (fun _ => 1) (fun _ => 1)
           (fun _ => true) (fun c => c) (fun _ => 1) (fun _ => 0) (fun v => nth v [0; 1; 2; 0; 1; 2] 0))
        (fun v => nth v [1;2;1;1;2;1]%nat 0%nat) (fun v => nth v [0;1;3;4;5;7]%nat 0%nat) (fun k => nth k [0; 0;1; 1; 0; 0;1; 1]%nat 0%nat)
        (fun c => 4 * c)%nat (fun k => nth k [0;1;4;3; 5;4;1;2]%nat 0%nat).
(* [n] corners of cell [c] *)
Definition corners (vm : vmesh) (n c : nat) : list R := map (corner vm c) (seq 0 n).
Theorem C69_quadrilateral_refuted : exists cf vm u eta,
  num_tracers cf = 0%nat /\ connected vm /\ length u = (num_comp cf * cm_cells (vm_mesh vm))%nat /\
  (forall c, (c < cm_cells (vm_mesh vm))%nat -> cf_tiny_h cf < depth_of cf u c /\ rsum (fun z => z) (corners vm 4 c) / 4 + depth_of cf u c = 3) /\
  (forall c k, (c < cm_cells (vm_mesh vm))%nat -> (k < 4)%nat -> corner vm c k <= 3) /\
  update_eta cf vm u = Some eta /\ nth 0 eta 0 = 19/6 /\ nth 1 eta 0 = 3 /\ nth 2 eta 0 = 17/6 /\
  vertex_beg (vm_mesh vm) 1 = 0%nat /\ vertex_end (vm_mesh vm) 1 = 1%nat /\
  edge_dhv (vm_mesh vm) eta 1 <> cm_z (vm_mesh vm) 0 - cm_z (vm_mesh vm) 1.
Proof.
  pose (cf := one_config 0 false). exists cf, squares, [5/2; 0; 0; 3/2; 0; 0].
  assert (HC : connected squares). { intros v c Hv Hc. cbn in Hv. do 6 (destruct v as [|v]; [cbn in Hc; cbn; lia|]). lia. }
  destruct (update_eta_spec cf squares [5/2; 0; 0; 3/2; 0; 0]) as (eta & E & L & V); [cbn; lra| |].
  { intros v c Hv Hc. specialize (HC v c Hv Hc). cbn in HC |- *. lia. }
  assert (L0 : level cf squares [5/2; 0; 0; 3/2; 0; 0] 0 = 19/6).
  { assert (S := level_spec cf squares [5/2; 0; 0; 3/2; 0; 0] 0 ltac:(cbn; lra)). revert S. generalize (level cf squares [5/2; 0; 0; 3/2; 0; 0] 0). intros e S.
    unfold cell_level, eta_input_of in S. cbn [ez1 ez2 ez3 edepth] in S. unfold corner in S. cbn in S. unfold sort3 in S.
    rewrite (proj2 (Rltb_false 1 0)) in S by lra. rewrite (proj2 (Rltb_false 1 1)) in S by lra. rewrite (proj2 (Rltb_false 1 0)) in S by lra.
    rewrite eta_cell_wet in S by (cbn; lra). injection S as <-. unfold lvl. destruct (Rle_dec _ (5/2)); lra. }
  assert (L1 : level cf squares [5/2; 0; 0; 3/2; 0; 0] 1 = 17/6).
  { assert (S := level_spec cf squares [5/2; 0; 0; 3/2; 0; 0] 1 ltac:(cbn; lra)). revert S. generalize (level cf squares [5/2; 0; 0; 3/2; 0; 0] 1). intros e S.
    unfold cell_level, eta_input_of in S. cbn [ez1 ez2 ez3 edepth] in S. unfold corner in S. cbn in S.
    unfold sort3 in S. rewrite (proj2 (Rltb_true 1 2)) in S by lra. rewrite (proj2 (Rltb_true 1 2)) in S by lra. rewrite (proj2 (Rltb_false 1 1)) in S by lra.
    rewrite eta_cell_wet in S by (cbn; lra). injection S as <-. unfold lvl. destruct (Rle_dec _ (3/2)); lra. }
  assert (E0 : nth 0 eta 0 = 19/6). { rewrite (V 0%nat ltac:(cbn; lia)). cbn. rewrite L0. field. }
  assert (E1 : nth 1 eta 0 = 3). { rewrite (V 1%nat ltac:(cbn; lia)). cbn. rewrite L0, L1. field. }
  assert (E2 : nth 2 eta 0 = 17/6). { rewrite (V 2%nat ltac:(cbn; lia)). cbn. rewrite L1. field. }
  exists eta. split; [reflexivity|]. split; [exact HC|]. split; [reflexivity|]. split; [|split].
  - intros c H. cbn in H. do 2 (destruct c as [|c]; [unfold depth_of, corners, corner; cbn; lra|]). lia.
  - intros c k H Hk. cbn in H. do 2 (destruct c as [|c]; [do 4 (destruct k as [|k]; [cbn; lra|]); lia|]). lia.
  - split; [exact E|]. split; [exact E0|]. split; [exact E1|]. split; [exact E2|]. split; [reflexivity|]. split; [reflexivity|].
    unfold edge_dhv. change (vertex_beg (vm_mesh squares) 1) with 0%nat. change (vertex_end (vm_mesh squares) 1) with 1%nat. rewrite E0, E1. unfold ComputeDhv. cbn. rewrite !Rmax_left by lra. lra.
Qed.
Print Assumptions C69_quadrilateral_refuted.

(* The configuration check lets salinity and temperature through (yaml_input.c:916-924).  The flux functions for
   tracers take no elevations, so the choice of well-balancing has no effect ... *)
Theorem C69_ignored_with_tracers : forall cf vm dt bs u eta F a G ga,
  num_tracers cf <> 0%nat -> supported cf bs -> mesh_ok (vm_mesh vm) bs -> values_ok cf bs -> length u = (num_comp cf * cm_cells (vm_mesh vm))%nat ->
  (cf_classes cf = 0%nat -> update_eta cf vm u = Some eta /\ length eta = cm_vertices (vm_mesh vm)) ->
  (forall e, In e (cm_internal (vm_mesh vm)) -> cm_eowned (vm_mesh vm) e = true -> flux_at cf (vm_mesh vm) (initial_eta (vm_mesh vm)) u e = Some (F e, a e)) ->
  (forall b pe, In b bs -> owned_edge (vm_mesh vm) b pe -> bflux_at cf (vm_mesh vm) (initial_eta (vm_mesh vm)) u b pe = Some (G b pe, ga b pe)) ->
  (forall b pe, In b bs -> owned_edge (vm_mesh vm) b pe -> cb_type b = DIRICHLET -> edge_wet cf (vm_mesh vm) u b pe) ->
  exists x y, ceed_flux_step WELL_BALANCING_BS2002 cf vm dt bs u = Some x /\ ceed_flux_step WELL_BALANCING_NONE cf vm dt bs u = Some y /\
    forall c k, (c < cm_cells (vm_mesh vm))%nat -> (k < num_comp cf)%nat ->
      nth (cm_l2o (vm_mesh vm) c * num_comp cf + k) x 0 = nth (cm_l2o (vm_mesh vm) c * num_comp cf + k) y 0.
Proof.
  intros cf vm dt bs u eta F a G ga HN HS HM HV HU HE HF HG HW.
  assert (LI : length (initial_eta (vm_mesh vm)) = cm_vertices (vm_mesh vm)) by (unfold initial_eta; rewrite map_length, seq_length; reflexivity).
  destruct (C67_flux cf (vm_mesh vm) (initial_eta (vm_mesh vm)) dt bs u F a G ga HS HM HV LI HU HF HG) as (y & Ey & Ly & Vy); [intros b pe Hb Hpe HD _; exact (HW b pe Hb Hpe HD)|].
  destruct (Nat.eqb_spec (cf_classes cf) 0) as [C|C].
  - destruct (HE C) as (E & L).
    destruct (C67_flux cf (vm_mesh vm) eta dt bs u F a G ga HS HM HV L HU) as (x & Ex & Lx & Vx).
    + intros e He Ho. rewrite <- (HF e He Ho). unfold flux_at, interior_flux. destruct (Nat.eqb_spec (num_tracers cf) 0); [contradiction|reflexivity].
    + intros b pe Hb Ho. rewrite <- (HG b pe Hb Ho). unfold bflux_at, boundary_flux. destruct (Nat.eqb_spec (num_tracers cf) 0); [contradiction|reflexivity].
    + intros b pe Hb Hpe HD _. exact (HW b pe Hb Hpe HD).
    + exists x, y. unfold ceed_flux_step. rewrite C. cbn [Nat.eqb]. rewrite E, !obind_Some. split; [exact Ex|]. split; [exact Ey|]. intros c k Hc Hk. rewrite Vx, Vy by assumption. reflexivity.
  - exists y, y. unfold ceed_flux_step. destruct (Nat.eqb_spec (cf_classes cf) 0); [contradiction|]. rewrite !obind_Some. split; [exact Ey|]. split; [exact Ey|]. reflexivity.
Qed.
Print Assumptions C69_ignored_with_tracers.

(* ... and the elevations themselves are computed from the wrong entries: with salinity the depth of cell 1 is
   entry 4, the operator reads entry 3, the salt of cell 0. *)
Theorem C69_salinity_refuted : exists cf vm u eta,
  cf_classes cf = 0%nat /\ cf_salinity cf = true /\ connected vm /\ length u = (num_comp cf * cm_cells (vm_mesh vm))%nat /\
  (forall c, (c < cm_cells (vm_mesh vm))%nat -> surface (cf_tiny_h cf) vm c (depth_of cf u c) 3) /\
  update_eta cf vm u = Some eta /\ nth 3 eta 0 = 10 + 2/3.
Proof.
  pose (cf := one_config 0 true). set (u := [8/3; 0; 0; 10; 7/3; 0; 0; 10]). exists cf, rectangle, u.
  destruct (update_eta_spec cf rectangle u) as (eta & E & L & V); [cbn; lra| |].
  { intros v c Hv Hc. assert (HC := rectangle_connected v c Hv Hc). cbn in HC |- *. lia. }
  assert (S0 : forall h, 1/1000 < h -> 1 <= h -> surface (1/1000) rectangle 0 h (1/3 + h)).
  { intros h H1 H2. unfold surface, cell_level. cbn [ez1 ez2 ez3 edepth]. unfold corner. cbn. unfold sort3.
    rewrite (proj2 (Rltb_false 1 0)) by lra. rewrite (proj2 (Rltb_true 0 1)) by lra. rewrite (proj2 (Rltb_false 0 0)) by lra.
    rewrite eta_cell_wet by lra. f_equal. unfold lvl. destruct (Rle_dec _ h); lra. }
  assert (S1 : forall h, 1/1000 < h -> 1 <= h -> surface (1/1000) rectangle 1 h (2/3 + h)).
  { intros h H1 H2. unfold surface, cell_level. cbn [ez1 ez2 ez3 edepth]. unfold corner. cbn. unfold sort3.
    rewrite (proj2 (Rltb_false 1 1)) by lra. rewrite (proj2 (Rltb_true 0 1)) by lra. rewrite (proj2 (Rltb_true 0 1)) by lra.
    rewrite eta_cell_wet by lra. f_equal. unfold lvl. destruct (Rle_dec _ h); lra. }
  exists eta. split; [reflexivity|]. split; [reflexivity|]. split; [exact rectangle_connected|]. split; [reflexivity|]. split; [|split; [exact E|]].
  - intros c H. cbn in H. destruct c as [|[|c]]; [| |lia]; unfold depth_of; cbn.
    + assert (Q : 1/3 + 8/3 = 3) by lra. rewrite <- Q at 2. apply S0; lra.
    + assert (Q : 2/3 + 7/3 = 3) by lra. rewrite <- Q at 2. apply S1; lra.
  - rewrite (V 3%nat ltac:(cbn; lia)). cbn. assert (LS := level_spec cf rectangle u 1 ltac:(cbn; lra)). assert (K := S1 10 ltac:(lra) ltac:(lra)).
    unfold surface in K. unfold eta_input_of in LS. cbn in LS. cbn in K. unfold cell_level in LS, K. cbn [ez1 ez2 ez3 edepth] in LS, K.
    destruct (sort3 _ _ _) as [[z1 z2] z3]. rewrite K in LS. injection LS as LS. rewrite <- LS. field.
Qed.
Print Assumptions C69_salinity_refuted.
Example C69_ignored_with_tracers_example : exists x y,
  ceed_flux_step WELL_BALANCING_BS2002 (one_config 0 true) rectangle (1/10) walls [8/3; 0; 0; 10; 7/3; 0; 0; 10] = Some x /\
  ceed_flux_step WELL_BALANCING_NONE (one_config 0 true) rectangle (1/10) walls [8/3; 0; 0; 10; 7/3; 0; 0; 10] = Some y.
Proof.
  set (cf := one_config 0 true). set (u := [8/3; 0; 0; 10; 7/3; 0; 0; 10]). set (m := vm_mesh rectangle).
  destruct (update_eta_spec cf rectangle u) as (eta & E & L & _); [cbn; lra| |].
  { intros v c Hv Hc. assert (HC := rectangle_connected v c Hv Hc). cbn in HC |- *. lia. }
  pose (F := fun e => match flux_at cf m (initial_eta m) u e with Some p => p | None => ([], 0) end).
  pose (G := fun b pe => match bflux_at cf m (initial_eta m) u b pe with Some p => p | None => ([], 0) end).
  assert (W : forall c, (c < 2)%nat -> cf_tiny_h cf < nth 0 (block (num_comp cf) u c) 0). { intros c H. do 2 (destruct c as [|c]; [cbn; lra|]). lia. }
  destruct (C69_ignored_with_tracers cf rectangle (1/10) walls u eta (fun e => fst (F e)) (fun e => snd (F e)) (fun b pe => fst (G b pe)) (fun b pe => snd (G b pe))) as (x & y & Ex & Ey & _).
  - discriminate.
  - constructor; [discriminate|cbn; unfold MAX_NUM_SEDIMENT_CLASSES; lia|intros _ b [<-|[]]; discriminate|intros _ b [<-|[]]; discriminate].
  - exact rectangle_ok.
  - intros b [<-|[]] X. discriminate X.
  - reflexivity.
  - intros _. split; [exact E|exact L].
  - intros e [<-|[]] _. fold m. destruct (tracer_flux_defined cf (block (num_comp cf) u 0) (block (num_comp cf) u 1) (cm_sn m 0) (cm_cn m 0) (edge_dhv m (initial_eta m) 0)) as (f & w & K); [discriminate|cbn; lra|apply W; lia|apply W; lia|].
    unfold F. unfold flux_at. change (left_cell m 0) with 0%nat. change (right_cell m 0) with 1%nat. rewrite K. reflexivity.
  - intros b (p, e) [<-|[]] (H & _). fold m. assert (C : (left_cell m e < 2)%nat).
    { cbn [fst snd cb_edges] in H. do 4 (destruct p as [|p]; [cbn in H; injection H as <-; cbn; lia|]). destruct p; discriminate. }
    destruct (tracer_bflux_defined cf REFLECTING (block (num_comp cf) [] p) (block (num_comp cf) u (left_cell m e)) (cm_sn m e) (cm_cn m e) (edge_dhv m (initial_eta m) e)) as (f & w & K); [discriminate|cbn; lra|apply W; exact C|left; reflexivity|].
    unfold G. unfold bflux_at. cbn [cb_type cb_values fst snd]. rewrite K. reflexivity.
  - intros b pe [<-|[]] _ X. discriminate X.
  - exists x, y. split; assumption.
Qed.
(* the rectangle with its cells numbered the other way round *)
Definition renumbered : vmesh :=
  VMesh (vm_mesh rectangle) (vm_ncells rectangle) (vm_cell_offsets rectangle) (fun k => nth k [1; 1;0; 1;0; 0]%nat 0%nat) (fun c => 3 * (1 - c))%nat (vm_vertex_ids rectangle).
Example C69_distribution_example : exists eta etal,
  update_eta (one_config 0 false) rectangle still = Some eta /\ update_eta (one_config 0 false) renumbered [4/3; 0; 0; 5/3; 0; 0] = Some etal /\ nth 1 etal 0 = nth 1 eta 0.
Proof.
  destruct (C69_distribution (one_config 0 false) rectangle renumbered still [4/3; 0; 0; 5/3; 0; 0] (fun c => 1 - c)%nat (fun v => v) eq_refl) as (eta & etal & E & E' & V); [cbn; lra|reflexivity|reflexivity|exact rectangle_connected| | |].
  - intros v c Hv Hc. cbn in Hv. do 4 (destruct v as [|v]; [cbn in Hc; cbn; lia|]). lia.
  - intros c H. cbn in H. destruct c as [|[|c]]; [| |lia]; split; try reflexivity.
  - exists eta, etal. split; [exact E|]. split; [exact E'|]. apply V; [cbn; lia|cbn; lia|]. cbn. apply Permutation_refl.
Qed.
