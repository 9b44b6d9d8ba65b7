(** C22, C23: bed slopes, edge normals, projected areas. *)
From Verif Require Import Base MeshGeomModel.

(** ** C22: specification *)
Definition on_plane (a b c : R) (p : xyz) : Prop := vz p = a + b * vx p + c * vy p.
(* twice the signed area of the projected triangle *)
Definition orient (p q r : xyz) : R := (vx q - vx p) * (vy r - vy p) - (vy q - vy p) * (vx r - vx p).

Lemma ccw_orient p q r : ccw p q r = true <-> 0 < orient p q r.
Proof. unfold ccw, orient. rewrite Rltb_true. split; lra. Qed.

(* Any three vertices not in line in the projection, in any order and orientation: the slopes are those
   of the plane through them. *)
Theorem C22_triangle_slopes_exact :
  forall a b c p0 p1 p2, on_plane a b c p0 -> on_plane a b c p1 -> on_plane a b c p2 -> orient p0 p1 p2 <> 0 ->
    triangle_slopes p0 p1 p2 = Some (b, c).
Proof.
  intros a b c p0 p1 p2 H0 H1 H2 N. unfold on_plane, orient, triangle_slopes in *.
  destruct (ccw p0 p1 p2); rewrite !rdiv_some by lra; cbn [obind]; rewrite H0, H1, H2; do 2 f_equal; field; lra.
Qed.
Print Assumptions C22_triangle_slopes_exact.

(* Every triangle lies on such a plane: the computed slopes interpolate its three vertices. *)
Theorem C22_triangle_slopes_interpolate :
  forall p0 p1 p2, orient p0 p1 p2 <> 0 ->
    exists b c, triangle_slopes p0 p1 p2 = Some (b, c) /\
      vz p1 - vz p0 = b * (vx p1 - vx p0) + c * (vy p1 - vy p0) /\
      vz p2 - vz p0 = b * (vx p2 - vx p0) + c * (vy p2 - vy p0).
Proof.
  intros p0 p1 p2 N. unfold orient in N.
  set (D := (vx p1 - vx p0) * (vy p2 - vy p0) - (vy p1 - vy p0) * (vx p2 - vx p0)) in *.
  set (b := ((vz p1 - vz p0) * (vy p2 - vy p0) - (vz p2 - vz p0) * (vy p1 - vy p0)) / D).
  set (c := ((vx p1 - vx p0) * (vz p2 - vz p0) - (vx p2 - vx p0) * (vz p1 - vz p0)) / D).
  exists b, c. assert (E1 : vz p1 - vz p0 = b * (vx p1 - vx p0) + c * (vy p1 - vy p0)) by (unfold b, c, D; field; exact N).
  assert (E2 : vz p2 - vz p0 = b * (vx p2 - vx p0) + c * (vy p2 - vy p0)) by (unfold b, c, D; field; exact N).
  split; [|split; assumption].
  apply (C22_triangle_slopes_exact (vz p0 - b * vx p0 - c * vy p0)); unfold on_plane; try lra. unfold orient. fold D. exact N.
Qed.
Print Assumptions C22_triangle_slopes_interpolate.

(* A quadrilateral whose corners and centroid lie on a plane, the centroid on none of its sides. *)
Theorem C22_quadrilateral_slopes_exact :
  forall a b c v0 v1 v2 v3 m,
    on_plane a b c v0 -> on_plane a b c v1 -> on_plane a b c v2 -> on_plane a b c v3 -> on_plane a b c m ->
    orient v0 v1 m <> 0 -> orient v1 v2 m <> 0 -> orient v2 v3 m <> 0 -> orient v3 v0 m <> 0 ->
    quad_slopes v0 v1 v2 v3 m = Some (b, c).
Proof.
  intros a b c v0 v1 v2 v3 m H0 H1 H2 H3 Hm N0 N1 N2 N3. unfold quad_slopes. cbn [ofold quad_step fst snd].
  rewrite (C22_triangle_slopes_exact a b c v0 v1 m) by assumption. cbn [obind ofold quad_step fst snd].
  rewrite (C22_triangle_slopes_exact a b c v1 v2 m) by assumption. cbn [obind ofold quad_step fst snd].
  rewrite (C22_triangle_slopes_exact a b c v2 v3 m) by assumption. cbn [obind ofold quad_step fst snd].
  rewrite (C22_triangle_slopes_exact a b c v3 v0 m) by assumption. cbn [obind ofold quad_step fst snd].
  assert (P : forall p q, orient p q m <> 0 -> 0 < triangle_area p q m).
  { intros p q N. unfold triangle_area. assert (0 < Rabs (orient p q m)) by (apply Rabs_pos_lt; exact N). unfold orient in H. lra. }
  assert (A0 := P _ _ N0). assert (A1 := P _ _ N1). assert (A2 := P _ _ N2). assert (A3 := P _ _ N3).
  rewrite !rdiv_some by lra. cbn [obind]. do 2 f_equal; field; lra.
Qed.
Print Assumptions C22_quadrilateral_slopes_exact.

(* Cells with other numbers of vertices are rejected. *)
Theorem C22_other_cells_rejected :
  forall vs m, length vs <> 3%nat -> length vs <> 4%nat -> cell_slopes vs m = None.
Proof. intros [|a [|b [|c [|d [|e t]]]]] m H3 H4; cbn in *; try reflexivity; congruence. Qed.
Print Assumptions C22_other_cells_rejected.

Example C22_example : let p0 := Xyz 0 0 1 in let p1 := Xyz 1 2 8 in let p2 := Xyz (-1) 3 8 in
  on_plane 1 (7/5) (14/5) p0 /\ on_plane 1 (7/5) (14/5) p1 /\ on_plane 1 (7/5) (14/5) p2 /\ orient p0 p1 p2 <> 0.
Proof. cbv [orient on_plane vx vy vz]. lra. Qed.
Example C22_quad_example : quad_slopes (Xyz 0 0 0) (Xyz 1 0 2) (Xyz 1 1 5) (Xyz 0 1 3) (Xyz (1/2) (1/2) (5/2)) = Some (2, 3).
Proof. apply (C22_quadrilateral_slopes_exact 0); cbv [on_plane orient vx vy vz]; lra. Qed.

(** ** C23: edges *)
(* The stored direction cosines of any edge with distinct end points: a unit vector perpendicular to the
   edge that points from the left cell towards the right cell (or out of the domain); the stored end
   points are those of the edge. *)
Theorem C23_edge_normal :
  forall v1 v2 cl cr, vx v1 <> vx v2 \/ vy v1 <> vy v2 ->
    exists g, edge_attributes v1 v2 cl cr = Some g /\
      eg_cn g * eg_cn g + eg_sn g * eg_sn g = 1 /\
      eg_cn g * (vx v2 - vx v1) + eg_sn g * (vy v2 - vy v1) = 0 /\
      ((eg_v1 g = v1 /\ eg_v2 g = v2) \/ (eg_v1 g = v2 /\ eg_v2 g = v1)) /\
      (* towards the right cell, or for a boundary edge towards its midpoint *)
      let tx := match cr with Some r => vx r | None => (vx v1 + vx v2) / 2 end in
      let ty := match cr with Some r => vy r | None => (vy v1 + vy v2) / 2 end in
      0 <= eg_cn g * (tx - vx cl) + eg_sn g * (ty - vy cl) /\
      (* looking along the stored direction, the normal is to the right *)
      length2 v1 v2 * eg_cn g = vy (eg_v2 g) - vy (eg_v1 g) /\ length2 v1 v2 * eg_sn g = - (vx (eg_v2 g) - vx (eg_v1 g)).
Proof.
  intros v1 v2 cl cr N. unfold edge_attributes.
  set (tx := match cr with Some r => vx r | None => (vx v1 + vx v2) / 2 end). set (ty := match cr with Some r => vy r | None => (vy v1 + vy v2) / 2 end).
  replace (match cr with Some r => (vx r - vx cl, vy r - vy cl) | None => ((vx v2 + vx v1) / 2 - vx cl, (vy v2 + vy v1) / 2 - vy cl) end) with (tx - vx cl, ty - vy cl)
    by (unfold tx, ty; destruct cr; [reflexivity|f_equal; field]).
  cbv iota beta zeta. set (X := vx v2 - vx v1). set (Y := vy v2 - vy v1).
  assert (PS : 0 < X * X + Y * Y).
  { assert (NX : X <> 0 \/ Y <> 0) by (unfold X, Y; destruct N as [N|N]; [left|right]; lra).
    assert (S1 := Rle_0_sqr X). assert (S2 := Rle_0_sqr Y). unfold Rsqr in *.
    destruct NX as [NX|NX]; [assert (0 < X * X) by (apply Rsqr_pos_lt; exact NX)|assert (0 < Y * Y) by (apply Rsqr_pos_lt; exact NX)]; lra. }
  assert (SP := sqrt_lt_R0 _ PS). assert (SS := sqrt_sqrt (X * X + Y * Y) ltac:(lra)).
  assert (EL : length2 v1 v2 = sqrt (X * X + Y * Y)) by reflexivity. rewrite EL.
  destruct (Rltb ((tx - vx cl) * Y + (ty - vy cl) * - X) 0) eqn:Hd; [apply Rltb_true in Hd|apply Rltb_false in Hd].
  - replace ((vx v1 - vx v2) * (vx v1 - vx v2) + (vy v1 - vy v2) * (vy v1 - vy v2)) with (X * X + Y * Y) by (unfold X, Y; ring).
    replace (vx v1 - vx v2) with (- X) by (unfold X; ring). replace (vy v1 - vy v2) with (- Y) by (unfold Y; ring).
    set (s := sqrt (X * X + Y * Y)) in *. rewrite !rdiv_some by lra. cbn [obind]. eexists. split; [reflexivity|]. cbn [eg_cn eg_sn eg_v1 eg_v2].
    split; [apply Rmult_eq_reg_r with (s * s); [|nra]; field_simplify; [lra|lra]|]. split; [field; lra|]. split; [right; split; reflexivity|].
    split; [|split; [unfold Y; field; lra|unfold X; field; lra]].
    replace (- Y / s * (tx - vx cl) + - - X / s * (ty - vy cl)) with ((- ((tx - vx cl) * Y + (ty - vy cl) * - X)) / s) by (field; lra).
    unfold Rdiv. apply Rmult_le_pos; [lra|]. left. apply Rinv_0_lt_compat; lra.
  - fold X Y. set (s := sqrt (X * X + Y * Y)) in *. rewrite !rdiv_some by lra. cbn [obind]. eexists. split; [reflexivity|]. cbn [eg_cn eg_sn eg_v1 eg_v2].
    split; [apply Rmult_eq_reg_r with (s * s); [|nra]; field_simplify; [lra|lra]|]. split; [field; lra|]. split; [left; split; reflexivity|].
    split; [|split; [unfold Y; field; lra|unfold X; field; lra]].
    replace (Y / s * (tx - vx cl) + - X / s * (ty - vy cl)) with (((tx - vx cl) * Y + (ty - vy cl) * - X) / s) by (field; lra).
    unfold Rdiv. apply Rmult_le_pos; [lra|]. left. apply Rinv_0_lt_compat; lra.
Qed.
Print Assumptions C23_edge_normal.

(** ** C23: closed cells *)
(* sides of the polygon with vertices [l] (in order) *)
Definition sides (l : list xyz) : list (xyz * xyz) := match l with [] => [] | p :: t => combine l (t ++ [p]) end.
(* how a cell meets one of its edges: as the left or the right cell, or at the boundary *)
Inductive role := OnBoundary | AsLeft (other : xyz) | AsRight (other : xyz).
(* the attributes stored for an edge with end points [a], [b] of a cell with centroid [m] *)
Definition stored (m : xyz) (r : role) (a b : xyz) : option edge_geom :=
  match r with
  | OnBoundary => edge_attributes a b m None
  | AsLeft o => edge_attributes a b m (Some o)
  | AsRight o => edge_attributes a b o (Some m)
  end.
(* the direction in which a positive flux leaves the cell *)
Definition outward (r : role) (g : edge_geom) : R * R :=
  match r with AsRight _ => (- eg_cn g, - eg_sn g) | _ => (eg_cn g, eg_sn g) end.
(* the cell lies to the left of its side p -> q (counterclockwise order), the neighbour on the other side *)
Definition well_placed (m : xyz) (r : role) (p q : xyz) : Prop :=
  0 < orient p q m /\ match r with OnBoundary => True | AsLeft o | AsRight o => orient p q o <= 0 end.

Theorem C23_normal_points_out_of_cell :
  forall m r p q a b g,
    well_placed m r p q -> (a = p /\ b = q) \/ (a = q /\ b = p) -> stored m r a b = Some g ->
    length2 p q * fst (outward r g) = vy q - vy p /\ length2 p q * snd (outward r g) = - (vx q - vx p).
Proof.
  intros m r p q a b g (HI & HO) Hab E.
  assert (N : vx a <> vx b \/ vy a <> vy b).
  { unfold orient in HI. destruct (Req_dec (vx a) (vx b)) as [Z1|Z1]; [|left; exact Z1]. destruct (Req_dec (vy a) (vy b)) as [Z2|Z2]; [|right; exact Z2].
    exfalso. destruct Hab as [(-> & ->)|(-> & ->)]; rewrite Z1, Z2 in HI; lra. }
  assert (LE : length2 a b = length2 p q). { destruct Hab as [(-> & ->)|(-> & ->)]; [reflexivity|]. unfold length2. f_equal. ring. }
  assert (LP : 0 < length2 a b). { unfold length2. apply sqrt_lt_R0. assert (S1 := Rle_0_sqr (vx b - vx a)). assert (S2 := Rle_0_sqr (vy b - vy a)). unfold Rsqr in *.
    destruct N as [N|N]; [assert (0 < (vx b - vx a) * (vx b - vx a)) by (apply Rsqr_pos_lt; lra)|assert (0 < (vy b - vy a) * (vy b - vy a)) by (apply Rsqr_pos_lt; lra)]; lra. }
  assert (K : forall cl cr g, edge_attributes a b cl cr = Some g ->
     let tx := match cr with Some r => vx r | None => (vx a + vx b) / 2 end in let ty := match cr with Some r => vy r | None => (vy a + vy b) / 2 end in
     let d := (vy q - vy p) * (tx - vx cl) - (vx q - vx p) * (ty - vy cl) in
     (0 < d -> length2 p q * eg_cn g = vy q - vy p /\ length2 p q * eg_sn g = - (vx q - vx p)) /\
     (d < 0 -> length2 p q * eg_cn g = - (vy q - vy p) /\ length2 p q * eg_sn g = vx q - vx p)).
  { intros cl cr g' E' tx ty d. destruct (C23_edge_normal a b cl cr N) as (g2 & E2 & _ & _ & Hv & Hd & L1 & L2). rewrite E' in E2. injection E2 as <-.
    cbv zeta in Hd. fold tx ty in Hd. rewrite LE in *.
    assert (Hd' : 0 <= length2 p q * eg_cn g' * (tx - vx cl) + length2 p q * eg_sn g' * (ty - vy cl)).
    { replace (length2 p q * eg_cn g' * (tx - vx cl) + length2 p q * eg_sn g' * (ty - vy cl)) with (length2 p q * (eg_cn g' * (tx - vx cl) + eg_sn g' * (ty - vy cl))) by ring.
      apply Rmult_le_pos; lra. }
    rewrite L1, L2 in Hd'. rewrite L1, L2. unfold d. destruct Hab as [(-> & ->)|(-> & ->)]; destruct Hv as [(V1 & V2)|(V1 & V2)]; rewrite V1, V2 in *; split; intros; split; lra. }
  unfold orient in *. destruct r as [|o|o]; cbn [stored outward fst snd] in *.
  - destruct (K m None g E) as (K1 & _). apply K1. destruct Hab as [(-> & ->)|(-> & ->)]; lra.
  - destruct (K m (Some o) g E) as (K1 & _). apply K1. lra.
  - destruct (K o (Some m) g E) as (_ & K1). destruct K1 as (Q1 & Q2); [lra|]. rewrite !Ropp_mult_distr_r_reverse, Q1, Q2. split; ring.
Qed.
Print Assumptions C23_normal_points_out_of_cell.

Lemma sides_sum (f : xyz -> R) l : rsum (fun s => f (snd s)) (sides l) = rsum (fun s => f (fst s)) (sides l).
Proof.
  destruct l as [|p t]; [reflexivity|]. unfold sides.
  assert (K : forall (l1 l2 : list xyz), length l1 = length l2 ->
     rsum (fun s => f (fst s)) (combine l1 l2) = rsum f l1 /\ rsum (fun s => f (snd s)) (combine l1 l2) = rsum f l2).
  { induction l1 as [|x l1 IH]; intros [|y l2] H; cbn in *; try discriminate; [split; reflexivity|]. destruct (IH l2) as (-> & ->); [congruence|]. split; reflexivity. }
  destruct (K (p :: t) (t ++ [p])) as (-> & ->); [rewrite app_length; cbn; lia|]. rewrite rsum_app. cbn [rsum]. ring.
Qed.

(* Around any counterclockwise cell the normals weighted with the projected lengths add up to zero,
   whatever order the end points were given in and whichever side the cell is on. *)
Theorem C23_cell_closes :
  forall m (l : list xyz) (r : xyz * xyz -> role) (swapped : xyz * xyz -> bool) (g : xyz * xyz -> edge_geom),
    (forall s, In s (sides l) -> well_placed m (r s) (fst s) (snd s)) ->
    (forall s, In s (sides l) -> (if swapped s then stored m (r s) (snd s) (fst s) else stored m (r s) (fst s) (snd s)) = Some (g s)) ->
    rsum (fun s => length2 (fst s) (snd s) * fst (outward (r s) (g s))) (sides l) = 0 /\
    rsum (fun s => length2 (fst s) (snd s) * snd (outward (r s) (g s))) (sides l) = 0.
Proof.
  intros m l r sw g HW HG.
  assert (E : forall s, In s (sides l) -> length2 (fst s) (snd s) * fst (outward (r s) (g s)) = vy (snd s) - vy (fst s) /\
                                        length2 (fst s) (snd s) * snd (outward (r s) (g s)) = - (vx (snd s) - vx (fst s))).
  { intros s Hs. specialize (HW s Hs). specialize (HG s Hs). destruct (sw s).
    - exact (C23_normal_points_out_of_cell m (r s) (fst s) (snd s) (snd s) (fst s) (g s) HW (or_intror (conj eq_refl eq_refl)) HG).
    - exact (C23_normal_points_out_of_cell m (r s) (fst s) (snd s) (fst s) (snd s) (g s) HW (or_introl (conj eq_refl eq_refl)) HG). }
  split.
  - rewrite (rsum_ext _ (fun s => vy (snd s) + (-1) * vy (fst s))) by (intros s Hs; destruct (E s Hs) as (-> & _); ring).
    rewrite rsum_plus, rsum_scal, (sides_sum vy). ring.
  - rewrite (rsum_ext _ (fun s => (-1) * vx (snd s) + vx (fst s))) by (intros s Hs; destruct (E s Hs) as (_ & ->); ring).
    rewrite rsum_plus, rsum_scal, (sides_sum vx). ring.
Qed.
Print Assumptions C23_cell_closes.

(* With the default lengths, measured along the bed, a cell on a slope does not close. *)
Theorem C23_sloping_cell_closes_refuted :
  exists m l g,
    (forall s, In s (sides l) -> well_placed m OnBoundary (fst s) (snd s) /\ stored m OnBoundary (fst s) (snd s) = Some (g s)) /\
    rsum (fun s => length3 (fst s) (snd s) * fst (outward OnBoundary (g s))) (sides l) <> 0.
Proof.
  set (A := Xyz 0 0 0). set (B := Xyz 1 0 0). set (C := Xyz 0 1 1). set (m := Xyz (1/3) (1/3) (1/3)).
  exists m, [A; B; C], (fun s => match stored m OnBoundary (fst s) (snd s) with Some g => g | None => EdgeGeom A A 0 0 end).
  assert (W : forall s, In s (sides [A; B; C]) -> well_placed m OnBoundary (fst s) (snd s) /\
     stored m OnBoundary (fst s) (snd s) = Some (match stored m OnBoundary (fst s) (snd s) with Some g => g | None => EdgeGeom A A 0 0 end)).
  { intros s Hs.
    assert (P : well_placed m OnBoundary (fst s) (snd s)).
    { cbn [sides combine app] in Hs. destruct Hs as [<-|[<-|[<-|[]]]]; split; auto; cbv [orient A B C m fst snd vx vy]; lra. }
    split; [exact P|]. destruct P as (P & _). destruct (C23_edge_normal (fst s) (snd s) m None) as (g & E & _).
    { unfold orient in P. destruct (Req_dec (vx (fst s)) (vx (snd s))) as [Z1|Z1]; [|left; exact Z1]. destruct (Req_dec (vy (fst s)) (vy (snd s))) as [Z2|Z2]; [|right; exact Z2].
      exfalso. rewrite Z1, Z2 in P. lra. }
    cbn [stored]. rewrite E. reflexivity. }
  split; [exact W|].
  set (G := fun s : xyz * xyz => match stored m OnBoundary (fst s) (snd s) with Some g => g | None => EdgeGeom A A 0 0 end) in *.
  change (rsum (fun s => length3 (fst s) (snd s) * fst (outward OnBoundary (G s))) (sides [A; B; C]) <> 0).
  assert (K : forall s, In s (sides [A; B; C]) -> length2 (fst s) (snd s) * fst (outward OnBoundary (G s)) = vy (snd s) - vy (fst s)).
  { intros s Hs. destruct (W s Hs) as (P & E). exact (proj1 (C23_normal_points_out_of_cell m OnBoundary (fst s) (snd s) (fst s) (snd s) (G s) P (or_introl (conj eq_refl eq_refl)) E)). }
  assert (K1 := K (A, B) ltac:(left; reflexivity)). assert (K2 := K (B, C) ltac:(right; left; reflexivity)). assert (K3 := K (C, A) ltac:(right; right; left; reflexivity)).
  change (sides [A; B; C]) with [(A, B); (B, C); (C, A)]. cbn [rsum]. cbn [fst snd] in *.
  set (n1 := fst (outward OnBoundary (G (A, B)))) in *. set (n2 := fst (outward OnBoundary (G (B, C)))) in *. set (n3 := fst (outward OnBoundary (G (C, A)))) in *.
  clearbody n1 n2 n3. clear K W G.
  assert (L1 : length2 A B = 1) by (unfold length2, A, B; cbn [vx vy]; replace ((1 - 0) * (1 - 0) + (0 - 0) * (0 - 0)) with (1 * 1) by ring; apply sqrt_square; lra).
  assert (L3 : length2 C A = 1) by (unfold length2, C, A; cbn [vx vy]; replace ((0 - 0) * (0 - 0) + (0 - 1) * (0 - 1)) with (1 * 1) by ring; apply sqrt_square; lra).
  assert (L2 : length2 B C = sqrt 2) by (unfold length2, C, B; cbn [vx vy]; f_equal; ring).
  assert (M1 : length3 B C = sqrt 3) by (unfold length3, C, B; cbn [vx vy vz]; f_equal; ring).
  assert (M2 : length3 C A = sqrt 2) by (unfold length3, C, A; cbn [vx vy vz]; f_equal; ring).
  rewrite L1 in K1. rewrite L2 in K2. rewrite L3 in K3. cbn [vx vy A B C] in K1, K2, K3. rewrite M1, M2.
  assert (n1 = 0) by lra. assert (n3 = -1) by lra. subst n1 n3.
  assert (S2 := sqrt_sqrt 2 ltac:(lra)). assert (S3 := sqrt_sqrt 3 ltac:(lra)). assert (P2 := sqrt_lt_R0 2 ltac:(lra)). assert (P3 := sqrt_lt_R0 3 ltac:(lra)).
  set (s2 := sqrt 2) in *. set (s3 := sqrt 3) in *. intros Z.
  assert (s3 = 2). { assert (s3 * (s2 * n2) = s2 * s2) by (assert (s3 * n2 = s2) by lra; replace (s3 * (s2 * n2)) with (s2 * (s3 * n2)) by ring; rewrite H; reflexivity). rewrite K2 in H. lra. }
  rewrite H in S3. lra.
Qed.
Print Assumptions C23_sloping_cell_closes_refuted.

(** ** C23: projected areas *)
Lemma twice_area_sides l : twice_area l = rsum (fun s => cross2 (fst s) (snd s)) (sides l).
Proof.
  destruct l as [|p t]; [reflexivity|]. unfold twice_area, sides.
  assert (K : forall t q, twice_area_from p (q :: t) = rsum (fun s => cross2 (fst s) (snd s)) (combine (q :: t) (t ++ [p]))).
  { induction t0 as [|x u IH]; intros q; [cbn; ring|]. change (twice_area_from p (q :: x :: u)) with (cross2 q x + twice_area_from p (x :: u)). rewrite IH. reflexivity. }
  apply K.
Qed.
Definition shift (a b c : R) (p : xyz) : xyz := Xyz (vx p + a) (vy p + b) (vz p + c).
Lemma sides_map f l : sides (map f l) = map (fun s => (f (fst s), f (snd s))) (sides l).
Proof.
  destruct l as [|p t]; [reflexivity|]. unfold sides. cbn [map].
  assert (K : forall l1 l2, combine (map f l1) (map f l2) = map (fun s => (f (fst s), f (snd s))) (combine l1 l2)).
  { induction l1 as [|x l1 IH]; intros [|y l2]; cbn; try reflexivity. rewrite IH. reflexivity. }
  change (f p :: map f t) with (map f (p :: t)). replace (map f t ++ [f p]) with (map f (t ++ [p])) by (rewrite map_app; reflexivity). apply K.
Qed.

Theorem C23_area_translation_invariant :
  forall a b c l, twice_area (map (shift a b c) l) = twice_area l /\ projected_area (map (shift a b c) l) = projected_area l.
Proof.
  intros a b c l. assert (E : twice_area (map (shift a b c) l) = twice_area l).
  { rewrite !twice_area_sides, sides_map, rsum_map. cbn [fst snd].
    rewrite (rsum_ext _ (fun s => cross2 (fst s) (snd s) + (a * vy (snd s) + ((- a) * vy (fst s) + (b * vx (fst s) + (- b) * vx (snd s)))))) by (intros; unfold cross2, shift; cbn; ring).
    rewrite !rsum_plus, !rsum_scal, (sides_sum vx), (sides_sum vy). ring. }
  split; [exact E|]. unfold projected_area. rewrite E. reflexivity.
Qed.
Print Assumptions C23_area_translation_invariant.

Theorem C23_area_starting_vertex_irrelevant :
  forall l1 l2, twice_area (l2 ++ l1) = twice_area (l1 ++ l2).
Proof.
  assert (K : forall p l, twice_area (l ++ [p]) = twice_area (p :: l)).
  { intros p [|q t]; [reflexivity|]. rewrite !twice_area_sides. cbn [app sides].
    assert (E : combine (q :: t ++ [p]) ((t ++ [p]) ++ [q]) = combine (q :: t) (t ++ [p]) ++ [(p, q)]).
    { assert (J : forall (l1 l2 : list xyz) x y, length l1 = length l2 -> combine (l1 ++ [x]) (l2 ++ [y]) = combine l1 l2 ++ [(x, y)]).
      { induction l1 as [|u l1 IH]; intros [|w l2] x y H; cbn in *; try discriminate; [reflexivity|]. rewrite IH by congruence. reflexivity. }
      change (q :: t ++ [p]) with ((q :: t) ++ [p]). apply J. rewrite app_length. cbn. lia. }
    rewrite E, rsum_app. change (combine (p :: q :: t) (q :: t ++ [p])) with ((p, q) :: combine (q :: t) (t ++ [p])). cbn [rsum fst snd]. ring. }
  induction l1 as [|p l1 IH]; intros l2; [rewrite app_nil_r; reflexivity|].
  change ((p :: l1) ++ l2) with (p :: (l1 ++ l2)). rewrite <- K, <- app_assoc, <- IH, <- app_assoc. reflexivity.
Qed.
Print Assumptions C23_area_starting_vertex_irrelevant.

(* Reversing the order of the vertices changes the sign; the stored area (absolute value) is the same. *)
Theorem C23_area_orientation :
  forall l, twice_area (rev l) = - twice_area l /\ projected_area (rev l) = projected_area l.
Proof.
  intros l. assert (E : twice_area (rev l) = - twice_area l).
  { destruct l as [|p t]; [cbn; ring|]. cbn [rev]. rewrite (C23_area_starting_vertex_irrelevant [p] (rev t)). cbn [app].
    rewrite !twice_area_sides.
    assert (Q : forall t p q, rsum (fun s => cross2 (fst s) (snd s)) (combine (p :: t) (t ++ [q])) = - rsum (fun s => cross2 (fst s) (snd s)) (combine (q :: rev t) (rev t ++ [p]))).
    { induction t0 as [|x u IH]; intros a b; [unfold cross2; cbn; ring|]. cbn [app]. change (combine (a :: x :: u) (x :: u ++ [b])) with ((a, x) :: combine (x :: u) (u ++ [b])).
      cbn [rsum fst snd rev]. rewrite IH. rewrite <- app_assoc.
      assert (J : forall (l1 l2 : list xyz) x y, length l1 = length l2 -> combine (l1 ++ [x]) (l2 ++ [y]) = combine l1 l2 ++ [(x, y)]).
      { induction l1 as [|u' l1 IH']; intros [|w l2] x' y' H; cbn in *; try discriminate; [reflexivity|]. rewrite IH' by congruence. reflexivity. }
      change (b :: rev u ++ [x]) with ((b :: rev u) ++ [x]). rewrite app_assoc. rewrite J by (rewrite app_length; cbn; lia).
      rewrite rsum_app. cbn [rsum fst snd]. unfold cross2. ring. }
    unfold sides. rewrite (Q (rev t) p p), rev_involutive. reflexivity. }
  split; [exact E|]. unfold projected_area. rewrite E, Rabs_Ropp. reflexivity.
Qed.
Print Assumptions C23_area_orientation.

(* For triangles it is the usual area; a polygon's signed area is that of the triangle on its first three
   vertices plus that of the rest. *)
Theorem C23_area_is_sum_of_triangles :
  (forall a b c, twice_area [a; b; c] = orient a b c /\ projected_area [a; b; c] = triangle_area a b c) /\
  (forall a b c d t, twice_area (a :: b :: c :: d :: t) = orient a b c + twice_area (a :: c :: d :: t)).
Proof.
  split.
  - intros a b c. assert (E : twice_area [a; b; c] = orient a b c) by (unfold twice_area, orient, cross2; cbn; unfold cross2; ring).
    split; [exact E|]. unfold projected_area. rewrite E. unfold triangle_area, orient. field.
  - intros a b c d t. unfold twice_area.
    change (twice_area_from a (a :: b :: c :: d :: t)) with (cross2 a b + (cross2 b c + twice_area_from a (c :: d :: t))).
    change (twice_area_from a (a :: c :: d :: t)) with (cross2 a c + twice_area_from a (c :: d :: t)). unfold orient, cross2. ring.
Qed.
Print Assumptions C23_area_is_sum_of_triangles.

Example C23_example : (vx (Xyz 0 0 0) <> vx (Xyz 3 4 0) \/ vy (Xyz 0 0 0) <> vy (Xyz 3 4 0)) /\
  projected_area [Xyz 0 0 5; Xyz 2 0 1; Xyz 2 3 0; Xyz 0 3 7] = 6.
Proof. split; [left; cbn; lra|]. unfold projected_area, twice_area; cbn; unfold cross2; cbn. rewrite Rabs_right; lra. Qed.
Example C23_closing_example : let s := (Xyz 1 0 0, Xyz 0 1 0) in
  In s (sides [Xyz 0 0 0; Xyz 1 0 0; Xyz 0 1 0]) /\ well_placed (Xyz (1/3) (1/3) 0) (AsLeft (Xyz 1 1 0)) (fst s) (snd s).
Proof. split; [right; left; reflexivity|]. split; cbv [orient fst snd vx vy]; lra. Qed.
