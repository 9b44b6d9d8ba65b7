(** Water surface elevation at the vertices of triangles (well balancing BS2002). *)
From Verif Require Import Base RoeModel.

(* operator_fluxes_ceed.c:637-645 sort3 *)
Definition sort3 (a b c : R) : R * R * R :=
  let (a, b) := if b <? a then (b, a) else (a, b) in
  let (b, c) := if c <? b then (c, b) else (b, c) in
  let (a, b) := if b <? a then (b, a) else (a, b) in
  (a, b, c).

(* swe_well_balancing.h:41-73 SWEEtaVertex, body of the loop without the weight; [None]: NaN from
   0/0 or from pow of a negative base *)
Definition eta_cell (tiny_h z1 z2 z3 h : R) : option R :=
  let h3 := z3 - (z1 + z2 + z3) / 3 in
  let* h2 := (if z2 <? z3 then rdiv ((z2 - z1) * (z2 - z1)) (3 * (z3 - z1)) else Some h3) in
  if h <=? tiny_h then Some z1
  else if h3 <=? h then Some ((z1 + z2 + z3) / 3 + h)
  else if ((0 <? h) && (h <=? h2))%bool then
    let* r := rcbrt (3 * h * (z2 - z1) * (z3 - z1)) in Some (z1 + r)
  else if ((h2 <? h) && (h <? h3))%bool then
    let b := z3 - 3 * z1 in
    let c := z1 * z2 + z1 * z1 - z3 * z2 - 3 * h * (z3 - z1) in
    let* r := rsqrt (b * b - 4 * c) in Some (1 / 2 * (- b + r))
  else Some 0.

(* a cell around a vertex: elevations of its three vertices in storage order, and its depth *)
Record eta_input := EtaIn { ez1 : R; ez2 : R; ez3 : R; edepth : R }.
(* operator_fluxes_ceed.c:793-823 (sorted elevations, weight 1/num_cells) with swe_well_balancing.h:75;
   the restriction adds up the contributions of the cells around the vertex *)
Definition eta_contribution (tiny_h : R) (n : nat) (x : eta_input) : option R :=
  match sort3 (ez1 x) (ez2 x) (ez3 x) with
  | (z1, z2, z3) =>
    let* w := rdiv 1 (INR n) in
    let* e := eta_cell tiny_h z1 z2 z3 (edepth x) in Some (e * w)
  end.
Definition eta_vertex (tiny_h : R) (l : list eta_input) : option R :=
  ofold (fun acc x => let* e := eta_contribution tiny_h (length l) x in Some (acc + e)) l 0.

(* swe_fluxes_ceed.h:15-19 ComputeDhv: difference of the depths at the two ends of an edge *)
Definition ComputeDhv (z_beg z_end eta_beg eta_end : R) : R := Rmax (eta_end - z_end) 0 - Rmax (eta_beg - z_beg) 0.
