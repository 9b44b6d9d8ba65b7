(** Specification for hydrostatic reconstruction on flat arrays (C71). *)
From Verif Require Import Base RoeModel EdgeModel HRModel EtaModel SourceModel TracerModel CeedLayoutModel CeedLayoutSpec CeedHRModel.
Local Open Scope R_scope.
Local Notation length := List.length.

(* the vertices of a cell, and its bed: the given elevation or the mean over the vertices *)
Definition cell_vertices (hm : hmesh) (c : nat) : list nat := map (hm_vertices hm) (seq (hm_offsets hm c) (hm_offsets hm (S c) - hm_offsets hm c)).
Definition bed (file : bool) (hm : hmesh) (c : nat) : R :=
  if file then hm_centroid_z hm c else rsum (cm_z (hm_mesh hm)) (cell_vertices hm c) / INR (length (cell_vertices hm c)).
(* num_vertices agrees with the offsets, and cells have vertices *)
Definition cells_ok (hm : hmesh) : Prop :=
  forall c, (c < cm_cells (hm_mesh hm))%nat -> hm_count hm c = length (cell_vertices hm c) /\ hm_count hm c <> 0%nat.

(* what an internal edge between beds zL and zR gives to its left and to its right cell, and the wave speed *)
Definition hr_flux (cf : cconfig) (zL zR : R) (qL qR : list R) (sn cn : R) : option (list R * list R * R) :=
  if Nat.eqb (num_tracers cf) 0 then
    let* p := ceed_hr_edge GRAVITY (cf_tiny_h cf) (cf_h_anuga cf) zL zR (v3 qL) (v3 qR) sn cn in
    Some (comps3 (fst (fst p)), comps3 (snd (fst p)), snd p)
  else
    let* p := ceed_tracer_hr_edge GRAVITY (cf_tiny_h cf) (cf_h_anuga cf) zL zR (tv qL) (tv qR) sn cn in
    Some (comps (num_tracers cf) (fst (fst p)), comps (num_tracers cf) (snd (fst p)), snd p).
Definition hr_flux_at cf file hm u e : option (list R * list R * R) :=
  let m := hm_mesh hm in
  hr_flux cf (bed file hm (left_cell m e)) (bed file hm (right_cell m e)) (block (num_comp cf) u (left_cell m e)) (block (num_comp cf) u (right_cell m e)) (cm_sn m e) (cm_cn m e).

(* what the internal edges give to component k of cell c, per unit of area *)
Definition hr_from_internal m (FL FR : nat -> list R) c k : R :=
  rsum (fun e => (if Nat.eqb (left_cell m e) c then - (cm_len m e / cm_area m c * nth k (FL e) 0) else 0) +
                 (if Nat.eqb (right_cell m e) c then cm_len m e / cm_area m c * nth k (FR e) 0 else 0)) (owned_internal m).
