(** C52: water surface elevations at vertices. *)
From Verif Require Import Base RoeModel EtaModel EtaProofs.

(** ** Specification: a triangle with vertex elevations z1 <= z2 <= z3 and a plane bed *)
Definition sorted3 (z1 z2 z3 : R) : Prop := z1 <= z2 /\ z2 <= z3.
Definition mean_bed (z1 z2 z3 : R) : R := (z1 + z2 + z3) / 3.
(* mean depth of still water at level [eta] over the triangle, by similar triangles:
   - all vertices wet: mean of the three vertex depths;
   - only z1 wet: the wet corner has area fraction (eta-z1)^2/((z2-z1)(z3-z1)) and vertex depths
     eta-z1, 0, 0;
   - only z3 dry: the formula for all vertices counted a dry corner of area fraction
     (z3-eta)^2/((z3-z1)(z3-z2)) with the negative depths 0, 0, eta-z3 *)
Definition mean_depth (z1 z2 z3 eta : R) : R :=
  if Rle_dec z3 eta then ((eta - z1) + (eta - z2) + (eta - z3)) / 3
  else if Rle_dec z2 eta then
    ((eta - z1) + (eta - z2) + (eta - z3)) / 3 - (z3 - eta) * (z3 - eta) / ((z3 - z1) * (z3 - z2)) * ((eta - z3) / 3)
  else if Rle_dec z1 eta then (eta - z1) * (eta - z1) / ((z2 - z1) * (z3 - z1)) * ((eta - z1) / 3)
  else 0.

(** ** One cell *)
(* Always defined; the lowest bed elevation for dry cells, bed plus depth for submerged ones, never
   below the lowest vertex. *)
Theorem C52_elevation_defined :
  forall tiny_h z1 z2 z3 h, 0 <= tiny_h -> sorted3 z1 z2 z3 ->
    exists eta, eta_cell tiny_h z1 z2 z3 h = Some eta /\ z1 <= eta /\
      (h <= tiny_h -> eta = z1) /\ (tiny_h < h -> z1 < eta) /\
      (tiny_h < h -> z3 - mean_bed z1 z2 z3 <= h -> eta = mean_bed z1 z2 z3 + h /\ z3 <= eta) /\
      (tiny_h < h -> h < z3 - mean_bed z1 z2 z3 -> eta < z3).
Proof.
  intros tiny z1 z2 z3 h Ht (H12 & H23). unfold mean_bed. destruct (Rle_dec h tiny) as [Hd|Hw].
  - rewrite eta_cell_dry by assumption. exists z1. split; [reflexivity|]. repeat split; try lra.
  - rewrite eta_cell_wet by lra. eexists. split; [reflexivity|]. assert (P := lvl_pos (z2 - z1) (z3 - z1) h ltac:(lra) ltac:(lra) ltac:(lra)).
    assert (C := lvl_cases (z2 - z1) (z3 - z1) h ltac:(lra) ltac:(lra) ltac:(lra)). cbv zeta in C.
    assert (S : z3 - (z1 + z2 + z3) / 3 <= h -> lvl (z2 - z1) (z3 - z1) h = (z2 - z1 + (z3 - z1)) / 3 + h).
    { intros HS. unfold lvl. destruct (Rle_dec ((2 * (z3 - z1) - (z2 - z1)) / 3) h); lra. }
    assert (N : h < z3 - (z1 + z2 + z3) / 3 -> lvl (z2 - z1) (z3 - z1) h < z3 - z1).
    { intros HS. destruct C as [(A & B)|[(A & B & C & E)|(A & B & C & E & F)]]; [lra|lra|]. destruct (Req_dec (lvl (z2 - z1) (z3 - z1) h) (z3 - z1)) as [Z|Z]; [|lra].
      assert (W : z2 = z3) by lra. subst z3. rewrite Z in F. assert (3 * h = z2 - z1); [|lra].
      apply Rmult_eq_reg_l with ((z2 - z1) * (z2 - z1)); nra. }
    split; [lra|]. split; [lra|]. split; [lra|]. split.
    + intros _ HS. rewrite S by exact HS. lra.
    + intros _ HS. specialize (N HS). lra.
Qed.
Print Assumptions C52_elevation_defined.

Theorem C52_elevation_increasing :
  forall tiny_h z1 z2 z3 h k, 0 <= tiny_h -> sorted3 z1 z2 z3 -> tiny_h < k -> h < k ->
    exists a b, eta_cell tiny_h z1 z2 z3 h = Some a /\ eta_cell tiny_h z1 z2 z3 k = Some b /\ a < b.
Proof.
  intros tiny z1 z2 z3 h k Ht (H12 & H23) Hk H. rewrite (eta_cell_wet tiny z1 z2 z3 k) by lra. destruct (Rle_dec h tiny) as [Hd|Hw].
  - rewrite eta_cell_dry by assumption. do 2 eexists. split; [reflexivity|]. split; [reflexivity|].
    assert (P := lvl_pos (z2 - z1) (z3 - z1) k ltac:(lra) ltac:(lra) ltac:(lra)). lra.
  - rewrite eta_cell_wet by lra. do 2 eexists. split; [reflexivity|]. split; [reflexivity|].
    assert (P := lvl_incr (z2 - z1) (z3 - z1) h k ltac:(lra) ltac:(lra) ltac:(lra) H). lra.
Qed.
Print Assumptions C52_elevation_increasing.

(* Continuous at every wet depth.  Missing: the dry threshold itself, where the elevation jumps. *)
Theorem C52_elevation_continuous_partial :
  forall tiny_h z1 z2 z3 h eps, 0 <= tiny_h -> sorted3 z1 z2 z3 -> tiny_h < h -> 0 < eps ->
    exists delta, 0 < delta /\
      forall k, tiny_h < k -> Rabs (k - h) < delta ->
        exists a b, eta_cell tiny_h z1 z2 z3 h = Some a /\ eta_cell tiny_h z1 z2 z3 k = Some b /\ Rabs (b - a) < eps.
Proof.
  intros tiny z1 z2 z3 h eps Ht (H12 & H23) Hh He.
  destruct (lvl_cont (z2 - z1) (z3 - z1) h eps ltac:(lra) ltac:(lra) ltac:(lra) He) as (delta & Hd & H). exists delta. split; [exact Hd|].
  intros k Hk HA. rewrite !eta_cell_wet by lra. do 2 eexists. split; [reflexivity|]. split; [reflexivity|].
  replace (z1 + lvl (z2 - z1) (z3 - z1) k - (z1 + lvl (z2 - z1) (z3 - z1) h)) with (lvl (z2 - z1) (z3 - z1) k - lvl (z2 - z1) (z3 - z1) h) by ring.
  apply H; lra.
Qed.
Print Assumptions C52_elevation_continuous_partial.

(* At the dry threshold the elevation jumps from the lowest vertex to the level of the film: here by
   more than a tenth however close the two depths are. *)
Theorem C52_elevation_continuous_refuted :
  exists tiny_h z1 z2 z3, 0 < tiny_h /\ sorted3 z1 z2 z3 /\
    forall k, tiny_h < k -> exists a b, eta_cell tiny_h z1 z2 z3 tiny_h = Some a /\ eta_cell tiny_h z1 z2 z3 k = Some b /\ 1/10 <= b - a.
Proof.
  exists (1 / 1000), 0, 1, 1. split; [lra|]. split; [split; lra|]. intros k Hk.
  rewrite eta_cell_dry by lra. rewrite eta_cell_wet by lra. do 2 eexists. split; [reflexivity|]. split; [reflexivity|].
  replace (1 - 0) with 1 by ring. assert (T : lvl 1 1 (dep 1 1 (1/10)) = 1/10) by (apply lvl_dep; lra).
  assert (E : dep 1 1 (1/10) = 1/3000). { unfold dep. destruct (Rle_dec 1 (1/10)); [lra|]. lra. }
  rewrite E in T. assert (I := lvl_incr 1 1 (1/3000) k ltac:(lra) ltac:(lra) ltac:(lra) ltac:(lra)). lra.
Qed.
Print Assumptions C52_elevation_continuous_refuted.

(* The surface encloses the cell's volume when one or all three vertices are wet.  Missing: two wet
   vertices, see below. *)
Theorem C52_volume_consistent_partial :
  forall tiny_h z1 z2 z3 h eta, 0 <= tiny_h -> sorted3 z1 z2 z3 -> tiny_h < h ->
    eta_cell tiny_h z1 z2 z3 h = Some eta -> eta <= z2 \/ z3 <= eta -> mean_depth z1 z2 z3 eta = h.
Proof.
  intros tiny z1 z2 z3 h eta Ht (H12 & H23) Hh. rewrite eta_cell_wet by lra. intros E HR. injection E as <-.
  assert (C := lvl_cases (z2 - z1) (z3 - z1) h ltac:(lra) ltac:(lra) ltac:(lra)). cbv zeta in C. set (t := lvl (z2 - z1) (z3 - z1) h) in *.
  unfold mean_depth. destruct (Rle_dec z3 (z1 + t)) as [A|A].
  - destruct C as [(C & D)|[(C & D & X & F)|(C & D & X & F & Y)]]; [lra|lra|]. assert (z2 = z3 /\ t = z2 - z1) as (-> & Z) by lra.
    rewrite Z in *. assert (3 * h = z3 - z1); [|lra]. apply Rmult_eq_reg_l with ((z3 - z1) * (z3 - z1)); nra.
  - assert (T : t <= z2 - z1) by lra. destruct C as [(C & D)|[(C & D & X & F)|(C & D & X & F & Y)]]; [lra| |].
    + assert (Z : t = z2 - z1) by lra. rewrite Z in *. destruct (Rle_dec z2 (z1 + (z2 - z1))) as [B|B]; [|lra].
      apply Rmult_eq_reg_l with (3 * (z3 - z1)); [|lra]. rewrite F. field. lra.
    + destruct (Rle_dec z2 (z1 + t)) as [B|B].
      * assert (Z : t = z2 - z1) by lra. rewrite Z in *. apply Rmult_eq_reg_l with (3 * (z3 - z1) * (z2 - z1)); [|nra]. rewrite Y. field. lra.
      * destruct (Rle_dec z1 (z1 + t)); [|lra]. apply Rmult_eq_reg_l with (3 * (z3 - z1) * (z2 - z1)); [|nra]. rewrite Y. field. lra.
Qed.
Print Assumptions C52_volume_consistent_partial.

(* With two wet vertices the code inverts a quadratic where the volume is cubic: a cell holding a mean
   depth of 1/4 is given a surface that encloses 5/24. *)
Theorem C52_volume_consistent_refuted :
  exists tiny_h z1 z2 z3 h eta, 0 < tiny_h /\ sorted3 z1 z2 z3 /\ tiny_h < h /\
    eta_cell tiny_h z1 z2 z3 h = Some eta /\ z2 < eta < z3 /\ mean_depth z1 z2 z3 eta <> h.
Proof.
  exists (1/1000), 0, 0, 1, (1/4), (1/2). split; [lra|]. split; [split; lra|]. split; [lra|]. split.
  - rewrite eta_cell_wet by lra. f_equal. replace (0 - 0) with 0 by ring. replace (1 - 0) with 1 by ring.
    assert (E : dep 0 1 (1/2) = 1/4). { unfold dep. destruct (Rle_dec 1 (1/2)); [lra|]. destruct (Rle_dec 0 (1/2)); lra. }
    rewrite <- E. rewrite lvl_dep by lra. ring.
  - split; [lra|]. unfold mean_depth. destruct (Rle_dec 1 (1/2)); [lra|]. destruct (Rle_dec 0 (1/2)); lra.
Qed.
Print Assumptions C52_volume_consistent_refuted.

(** ** Around a vertex *)
(* what one cell contributes does not depend on the order in which its vertices are stored *)
Theorem C52_vertex_order_irrelevant :
  forall a b c, let '(x, y, z) := sort3 a b c in
    sorted3 x y z /\ sort3 b a c = (x, y, z) /\ sort3 a c b = (x, y, z) /\ x + y + z = a + b + c /\
    (x = a \/ x = b \/ x = c) /\ (y = a \/ y = b \/ y = c) /\ (z = a \/ z = b \/ z = c).
Proof.
  intros a b c. unfold sort3, sorted3.
  assert (P3 : forall x y z x' y' z' : R, x = x' -> y = y' -> z = z' -> (x, y, z) = (x', y', z')) by (intros; subst; reflexivity).
  repeat match goal with |- context [Rltb ?p ?q] => let E := fresh "E" in destruct (Rltb p q) eqn:E; [apply Rltb_true in E|apply Rltb_false in E] end;
  repeat split; try lra; try (apply P3; lra); auto.
Qed.
Print Assumptions C52_vertex_order_irrelevant.

(* level of the cell of [x], as a relation *)
Definition cell_level (tiny_h : R) (x : eta_input) (e : R) : Prop :=
  let '(z1, z2, z3) := sort3 (ez1 x) (ez2 x) (ez3 x) in eta_cell tiny_h z1 z2 z3 (edepth x) = Some e.

(* The vertex value is the arithmetic mean of the cells around it. *)
Theorem C52_vertex_value_is_mean :
  forall tiny_h l, 0 <= tiny_h -> l <> [] ->
    exists f, (forall x, In x l -> cell_level tiny_h x (f x)) /\ eta_vertex tiny_h l = Some (rsum f l / INR (length l)).
Proof.
  intros tiny l Ht Hl.
  set (f := fun x => let '(z1, z2, z3) := sort3 (ez1 x) (ez2 x) (ez3 x) in match eta_cell tiny z1 z2 z3 (edepth x) with Some e => e | None => 0 end).
  assert (F : forall x, cell_level tiny x (f x)).
  { intros x. unfold cell_level, f. assert (S := sort3_sorted (ez1 x) (ez2 x) (ez3 x)). destruct (sort3 (ez1 x) (ez2 x) (ez3 x)) as [[z1 z2] z3].
    destruct (C52_elevation_defined tiny z1 z2 z3 (edepth x) Ht S) as (e & E & _). rewrite E. reflexivity. }
  exists f. split; [intros; apply F|]. unfold eta_vertex. assert (N : INR (length l) <> 0) by (destruct l; [congruence|]; apply not_0_INR; discriminate).
  set (n := length l) in *. clearbody n. clear Hl.
  assert (K : forall l acc, ofold (fun acc x => let* e := eta_contribution tiny n x in Some (acc + e)) l acc = Some (acc + rsum f l / INR n)).
  { clear l. induction l as [|x t IH]; intros acc; cbn [ofold rsum]; [f_equal; field; exact N|].
    assert (E : eta_contribution tiny n x = Some (f x * (1 / INR n))).
    { unfold eta_contribution. specialize (F x). unfold cell_level in F. destruct (sort3 (ez1 x) (ez2 x) (ez3 x)) as [[z1 z2] z3].
      rewrite rdiv_some by exact N. cbn [obind]. rewrite F. reflexivity. }
    rewrite E. cbn [obind]. rewrite IH. f_equal. field. exact N. }
  rewrite K. f_equal. ring.
Qed.
Print Assumptions C52_vertex_value_is_mean.

(* Still water over submerged cells: every vertex gets the common surface level, and the change of
   depth along an edge is exactly the (negative) change of the bed. *)
Theorem C52_lake_at_rest :
  forall tiny_h l eta0, 0 <= tiny_h -> l <> [] ->
    (forall x, In x l -> tiny_h < edepth x /\ mean_bed (ez1 x) (ez2 x) (ez3 x) + edepth x = eta0 /\
                         ez1 x <= eta0 /\ ez2 x <= eta0 /\ ez3 x <= eta0) ->
    eta_vertex tiny_h l = Some eta0 /\
    (forall z_beg z_end, z_beg <= eta0 -> z_end <= eta0 -> ComputeDhv z_beg z_end eta0 eta0 = z_beg - z_end).
Proof.
  intros tiny l eta0 Ht Hl H. split.
  - destruct (C52_vertex_value_is_mean tiny l Ht Hl) as (f & F & ->). f_equal.
    assert (E : forall x, In x l -> f x = eta0).
    { intros x Hx. specialize (F x Hx). destruct (H x Hx) as (H1 & H2 & H3 & H4 & H5). unfold cell_level in F. unfold mean_bed in H2.
      assert (O := C52_vertex_order_irrelevant (ez1 x) (ez2 x) (ez3 x)). destruct (sort3 (ez1 x) (ez2 x) (ez3 x)) as [[z1 z2] z3].
      destruct O as (S & _ & _ & Sum & _ & _ & M). destruct (C52_elevation_defined tiny z1 z2 z3 (edepth x) Ht S) as (e & E & _ & _ & _ & Sub & _).
      rewrite E in F. injection F as ->. unfold mean_bed in Sub. destruct Sub as (-> & _); [exact H1|destruct M as [->|[->| ->]]; lra|]. lra. }
    rewrite (rsum_ext _ (fun _ => eta0) l) by exact E.
    assert (K : forall l : list eta_input, rsum (fun _ => eta0) l = INR (length l) * eta0).
    { clear. induction l as [|x t IH]; cbn [rsum]; [cbn; ring|]. rewrite IH. cbn [length]. rewrite S_INR. ring. }
    rewrite K. field. destruct l; [congruence|]. apply not_0_INR. discriminate.
  - intros zb ze Hb He. unfold ComputeDhv. rewrite !Rmax_left by lra. ring.
Qed.
Print Assumptions C52_lake_at_rest.
(* In general it is the difference of the depths of water at the ends, a vertex above the surface being dry. *)
Definition water_depth (eta z depth : R) : Prop := (z <= eta -> depth = eta - z) /\ (eta <= z -> depth = 0).
Theorem C52_edge_depth_change :
  forall z_beg z_end eta_beg eta_end d_beg d_end, water_depth eta_beg z_beg d_beg -> water_depth eta_end z_end d_end ->
    ComputeDhv z_beg z_end eta_beg eta_end = d_end - d_beg.
Proof.
  intros zb ze eb ee db de (B1 & B2) (E1 & E2). unfold ComputeDhv. f_equal.
  - destruct (Rle_dec ze ee); [rewrite Rmax_left, E1 by lra | rewrite Rmax_right, E2 by lra]; reflexivity.
  - destruct (Rle_dec zb eb); [rewrite Rmax_left, B1 by lra | rewrite Rmax_right, B2 by lra]; reflexivity.
Qed.
Print Assumptions C52_edge_depth_change.
Example C52_edge_depth_change_applies : water_depth 2 3 0 /\ water_depth 2 1 1 /\ ComputeDhv 3 1 2 2 = 1.
Proof. split; [split; lra|]. split; [split; lra|]. rewrite (C52_edge_depth_change 3 1 2 2 0 1); [ring | split; lra | split; lra]. Qed.

(** ** Non-vacuity *)
Example C52_example : 0 <= 1/1000 /\ sorted3 0 1 2 /\ eta_cell (1/1000) 0 1 2 3 = Some 4.
Proof. split; [lra|]. split; [split; lra|]. rewrite eta_cell_wet by lra. f_equal. unfold lvl. destruct (Rle_dec _ 3); lra. Qed.
Example C52_partly_wet_example : exists h eta, 1/1000 < h /\ h < 1/10 /\ eta_cell (1/1000) 0 1 2 h = Some eta /\ 0 < eta <= 1.
Proof.
  exists (dep 1 2 (1/2)), (1/2). assert (E : dep 1 2 (1/2) = 1/48). { unfold dep. destruct (Rle_dec 2 (1/2)); [lra|]. destruct (Rle_dec 1 (1/2)); lra. }
  split; [lra|]. split; [lra|]. split; [|lra]. rewrite eta_cell_wet by lra. replace (1 - 0) with 1 by ring. replace (2 - 0) with 2 by ring.
  rewrite lvl_dep by lra. f_equal. ring.
Qed.
Example C52_lake_example : let l := [EtaIn 0 1 2 3; EtaIn 3 0 0 3] in
  l <> [] /\ forall x, In x l -> 1/1000 < edepth x /\ mean_bed (ez1 x) (ez2 x) (ez3 x) + edepth x = 4 /\ ez1 x <= 4 /\ ez2 x <= 4 /\ ez3 x <= 4.
Proof. split; [discriminate|]. intros x [<-|[<-|[]]]; unfold mean_bed; cbn [ez1 ez2 ez3 edepth]; lra. Qed.
