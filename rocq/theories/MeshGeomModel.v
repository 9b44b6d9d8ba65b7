(** Geometric attributes of cells and edges. *)
From Verif Require Import Base.

Record xyz := Xyz { vx : R; vy : R; vz : R }.

(** ** Bed slopes *)
(* rdymesh.c:720-739 AreVerticesOrientedCounterClockwise *)
Definition ccw (p0 p1 p2 : xyz) : bool := (vy p1 - vy p0) * (vx p2 - vx p1) - (vy p2 - vy p1) * (vx p1 - vx p0) <? 0.
(* rdymesh.c:747-784 ComputeXYSlopesForTriangle; [None]: division by zero *)
Definition triangle_slopes (p0 p1' p2' : xyz) : option (R * R) :=
  let (p1, p2) := if ccw p0 p1' p2' then (p1', p2') else (p2', p1') in
  let* dx := rdiv ((vy p2 - vy p0) * (vz p1 - vz p0) - (vy p1 - vy p0) * (vz p2 - vz p0))
                  ((vy p2 - vy p0) * (vx p1 - vx p0) - (vy p1 - vy p0) * (vx p2 - vx p0)) in
  let* dy := rdiv ((vx p2 - vx p0) * (vz p1 - vz p0) - (vx p1 - vx p0) * (vz p2 - vz p0))
                  ((vx p2 - vx p0) * (vy p1 - vy p0) - (vx p1 - vx p0) * (vy p2 - vy p0)) in
  Some (dx, dy).
(* rdymesh.c:786-796 TriangleProjected2DArea *)
Definition triangle_area (a b c : xyz) : R :=
  1 / 2 * Rabs ((vx b - vx a) * (vy c - vy a) - (vy b - vy a) * (vx c - vx a)).
(* rdymesh.c:822-858, quadrilateral: area-weighted mean over the four triangles with the centroid [m]
   (computed by PETSc's DMPlexComputeCellGeometryFVM) *)
Definition quad_step (m : xyz) (acc : R * R * R) (ab : xyz * xyz) : option (R * R * R) :=
  let '(sx, sy, total) := acc in
  let k := triangle_area (fst ab) (snd ab) m in
  let* s := triangle_slopes (fst ab) (snd ab) m in
  Some (sx + k * fst s, sy + k * snd s, total + k).
Definition quad_slopes (v0 v1 v2 v3 m : xyz) : option (R * R) :=
  let* acc := ofold (quad_step m) [(v0, v1); (v1, v2); (v2, v3); (v3, v0)] (0, 0, 0) in
  let '(sx, sy, total) := acc in
  let* x := rdiv sx total in
  let* y := rdiv sy total in
  Some (x, y).
(* rdymesh.c:806-820: dispatch; other cells are an error ([None]) *)
Definition cell_slopes (vs : list xyz) (m : xyz) : option (R * R) :=
  match vs with
  | [a; b; c] => triangle_slopes a b c
  | [a; b; c; d] => quad_slopes a b c d m
  | _ => None
  end.

(** ** Edges *)
(* rdymesh.c:625-694 (loop body of ComputeAdditionalEdgeAttributes): vertices [v1], [v2] of the edge,
   centroid [cl] of the left cell and [cr] of the right cell if there is one.  Result: the vertices in
   stored order and (sn, cn). *)
Record edge_geom := EdgeGeom { eg_v1 : xyz; eg_v2 : xyz; eg_sn : R; eg_cn : R }.
Definition edge_attributes (v1 v2 cl : xyz) (cr : option xyz) : option edge_geom :=
  let px := vx v2 - vx v1 in let py := vy v2 - vy v1 in
  let '(lx, ly) := match cr with
                   | Some r => (vx r - vx cl, vy r - vy cl)
                   | None => ((vx v2 + vx v1) / 2 - vx cl, (vy v2 + vy v1) / 2 - vy cl)
                   end in
  let dot := lx * py + ly * - px in
  let (a, b) := if dot <? 0 then (v2, v1) else (v1, v2) in
  let dx := vx b - vx a in let dy := vy b - vy a in
  let ds := sqrt (dx * dx + dy * dy) in
  let* sn := rdiv (- dx) ds in
  let* cn := rdiv dy ds in
  Some (EdgeGeom a b sn cn).

(* length of an edge: in space (PETSc's DMPlexComputeCellGeometryFVM, rdymesh.c:486), and its projection
   (rdymesh.c:1487-1494 RDyMeshOverride2DProjection, used with hydrostatic reconstruction) *)
Definition length3 (a b : xyz) : R :=
  sqrt ((vx b - vx a) * (vx b - vx a) + (vy b - vy a) * (vy b - vy a) + (vz b - vz a) * (vz b - vz a)).
Definition length2 (a b : xyz) : R := sqrt ((vx b - vx a) * (vx b - vx a) + (vy b - vy a) * (vy b - vy a)).

(** ** Projected area: rdymesh.c:1497-1506 *)
(* the loop over k of the cells' vertices, v_next being vertex (k + 1) mod nverts *)
Definition cross2 (p q : xyz) : R := vx p * vy q - vx q * vy p.
Fixpoint twice_area_from (first : xyz) (l : list xyz) : R :=
  match l with
  | [] => 0
  | [p] => cross2 p first
  | p :: ((q :: _) as t) => cross2 p q + twice_area_from first t
  end.
Definition twice_area (l : list xyz) : R := match l with [] => 0 | p :: _ => twice_area_from p l end.
Definition projected_area (l : list xyz) : R := Rabs (twice_area l) / 2.
