(** What it means to decompose a mesh over processes (specification used by C10). *)
From Verif Require Import Base RoeModel EdgeModel HRModel SourceModel AssemblyModel DecompModel.

(* A local edge [e] is the process's view of edge [e'] of the whole mesh.  The two cells may be
   exchanged ([flip]: the left cell is the first one in the DMPlex support of the edge,
   rdymesh.c:504-516, whose order may differ between processes), the normal then points the other
   way. *)
Definition eview (gid : nat -> nat) (flip : bool) (e e' : iedge) : Prop :=
  ie_len e = ie_len e' /\
  if flip then gid (ie_l e) = ie_r e' /\ gid (ie_r e) = ie_l e' /\ ie_sn e = - ie_sn e' /\ ie_cn e = - ie_cn e'
  else gid (ie_l e) = ie_l e' /\ gid (ie_r e) = ie_r e' /\ ie_sn e = ie_sn e' /\ ie_cn e = ie_cn e'.
Definition bview (gid : nat -> nat) (e e' : bedge) : Prop :=
  gid (be_c e) = be_c e' /\ be_len e = be_len e' /\ be_sn e = be_sn e' /\ be_cn e = be_cn e' /\ be_bc e = be_bc e'.

(* per-cell data of the source term, seen from a process *)
Definition geom_at (gid : nat -> nat) (g : cellgeom) : cellgeom :=
  CellGeom (fun l => manning g (gid l)) (fun l => dzdx g (gid l)) (fun l => dzdy g (gid l)).

Definition owner_test (r : rank) (c : nat) (l : nat) : bool := (rk_owned r l && Nat.eqb (rk_gid r l) c)%bool.
Definition owns (r : rank) (c : nat) : Prop := exists l, In l (rk_cells r) /\ rk_owned r l = true /\ rk_gid r l = c.
Definition ownsb (r : rank) (c : nat) : bool := existsb (owner_test r c) (rk_cells r).
Definition touches (r : rank) (e : iedge) : bool := (ownsb r (ie_l e) || ownsb r (ie_r e))%bool.
Definition btouches (r : rank) (e : bedge) : bool := ownsb r (be_c e).

(* local numbering of a process *)
Record numbering_ok (m : mesh) (r : rank) : Prop := NumOk {
  nu_nodup : NoDup (rk_cells r);
  nu_inj : forall a b, In a (rk_cells r) -> In b (rk_cells r) -> rk_gid r a = rk_gid r b -> a = b;
  nu_cells : forall l, In l (rk_cells r) -> In (rk_gid r l) (cells m);
  nu_iedges : forall e, In e (rk_iedges r) -> In (ie_l e) (rk_cells r) /\ In (ie_r e) (rk_cells r);
  nu_bedges : forall e, In e (rk_bedges r) -> In (be_c e) (rk_cells r) }.
(* a process sees every edge of the cells it owns (it has one layer of ghost cells), once *)
Record overlap_ok (m : mesh) (r : rank) : Prop := OverOk {
  ov_iedges : exists ges, Forall2 (fun e e' => exists flip, eview (rk_gid r) flip e e') (rk_iedges r) ges /\
                incl ges (iedges m) /\ Permutation (filter (touches r) ges) (filter (touches r) (iedges m));
  ov_bedges : exists gbs, Forall2 (bview (rk_gid r)) (rk_bedges r) gbs /\
                incl gbs (bedges m) /\ Permutation (filter (btouches r) gbs) (filter (btouches r) (bedges m)) }.

Definition agree (m : mesh) (u v : nat -> vec3) : Prop := forall c, In c (cells m) -> u c = v c.

(* a process's owned edges are [ges] *)
Definition owned_edges_are (r : rank) (ges : list iedge) : Prop :=
  Forall2 (fun e e' => exists flip, eview (rk_gid r) flip e e') (filter (rk_iowned r) (rk_iedges r)) ges.
Definition owned_bedges_are (r : rank) (gbs : list bedge) : Prop :=
  Forall2 (bview (rk_gid r)) (filter (rk_bowned r) (rk_bedges r)) gbs.


(* The local data of a process are those of the whole mesh. *)
Inductive local_scheme (gid : nat -> nat) : scheme -> scheme -> Prop :=
| Local_petsc : forall tiny ha fr g, 0 < tiny ->
    local_scheme gid (petsc_scheme tiny ha fr g) (petsc_scheme tiny ha fr (geom_at gid g))
| Local_ceed : forall tiny ha fr g, 0 < tiny ->
    local_scheme gid (ceed_scheme tiny ha (fun _ _ => 0) (fun _ _ => 0) fr g)
                     (ceed_scheme tiny ha (fun _ _ => 0) (fun _ _ => 0) fr (geom_at gid g))
| Local_petsc_hr : forall tiny ha z fr g, 0 < tiny ->
    local_scheme gid (petsc_hr_scheme tiny ha z fr g) (petsc_hr_scheme tiny ha (fun l => z (gid l)) fr (geom_at gid g))
| Local_ceed_hr : forall tiny ha z fr g, 0 < tiny ->
    local_scheme gid (ceed_hr_scheme tiny ha z fr g) (ceed_hr_scheme tiny ha (fun l => z (gid l)) fr (geom_at gid g)).

(* [rs] decomposes the mesh with an overlap of one cell: every process numbers its cells without
   repetition, sees every edge of the cells it owns, and every cell is owned by some process. *)
Definition decomposes (s : scheme) (m : mesh) (rs : list (rank * scheme)) : Prop :=
  (forall r sl, In (r, sl) rs -> local_scheme (rk_gid r) s sl /\ numbering_ok m r /\ overlap_ok m r) /\
  (forall c, In c (cells m) -> exists r sl, In (r, sl) rs /\ owns r c).

(* every edge of the mesh is owned by exactly one process *)
Definition edges_owned_once (m : mesh) (rs : list (rank * scheme)) : Prop :=
  (exists gess, Forall2 (fun q ges => owned_edges_are (fst q) ges) rs gess /\ Permutation (concat gess) (iedges m)) /\
  (exists gbss, Forall2 (fun q gbs => owned_bedges_are (fst q) gbs) rs gbss /\ Permutation (concat gbss) (bedges m)).

(* the owned cells of a process are numbered before its ghosts *)
Definition ghosts_last (r : rank) : Prop :=
  exists n k, rk_cells r = seq 0 n /\ forall l, (l < n)%nat -> rk_owned r l = Nat.ltb l k.

(* a parallel run: for each step, what is in force and how the domain is distributed *)
Record par_input := ParInput { pi_step : step_input; pi_ranks : list (rank * scheme) }.
Definition par_advance (par : list (rank * scheme) -> (nat -> R) -> R -> (nat -> vec3) -> (nat -> vec3) -> option (nat -> vec3))
           (i : integrator) (m : mesh) (u : nat -> vec3) (x : par_input) : option (nat -> vec3) :=
  let st := pi_step x in ts_step i (par (pi_ranks x) (area m) (st_dt st) (st_src st)) (st_dt st) u.
Definition par_run par (i : integrator) (m : mesh) (xs : list par_input) (u : nat -> vec3) : option (nat -> vec3) :=
  ofold (par_advance par i m) xs u.
