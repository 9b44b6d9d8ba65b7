(** What it means to distribute a tracer simulation over processes (C74). *)
From Verif Require Import Base RoeModel EdgeModel HRModel SourceModel AssemblyModel TracerModel DecompModel DecompSpec TracerDecompModel.

(* the discretisation: hydrostatic reconstruction or not, Riemann solver, tolerances, bed, roughness and slopes *)
Record tchoice := TChoice { tc_hr : bool; tc_kind : triemann; tc_tiny : R; tc_anuga : R; tc_bed : nat -> R; tc_geom : cellgeom }.
Definition tscheme_of (x : tchoice) (bcs : bedge -> tbcond) : tscheme :=
  if tc_hr x then petsc_tracer_hr_scheme (tc_kind x) (tc_tiny x) (tc_anuga x) (tc_bed x) bcs (tc_geom x)
  else petsc_tracer_scheme (tc_kind x) (tc_tiny x) bcs (tc_geom x).
(* ... seen from a process *)
Definition tchoice_at (gid : nat -> nat) (x : tchoice) : tchoice :=
  TChoice (tc_hr x) (tc_kind x) (tc_tiny x) (tc_anuga x) (fun l => tc_bed x (gid l)) (geom_at gid (tc_geom x)).

(* a boundary edge of a process is the edge [e'] of the whole mesh, with the same condition *)
Definition tbview (gid : nat -> nat) (bcs : bedge -> tbcond) (eb : bedge * tbcond) (e' : bedge) : Prop :=
  gid (be_c (fst eb)) = be_c e' /\ be_len (fst eb) = be_len e' /\ be_sn (fst eb) = be_sn e' /\ be_cn (fst eb) = be_cn e' /\ snd eb = bcs e'.

Definition towns (r : trank) (c : nat) : Prop := exists l, In l (tr_cells r) /\ tr_owned r l = true /\ tr_gid r l = c.
Definition townsb (r : trank) (c : nat) : bool := existsb (fun l => tr_owned r l && Nat.eqb (tr_gid r l) c)%bool (tr_cells r).

(* A process numbers its cells without repetition and sees every edge of the cells it owns, once; an edge may be
   traversed in the other direction. *)
Record tpart_ok (m : mesh) (bcs : bedge -> tbcond) (r : trank) : Prop := {
  tn_nodup : NoDup (tr_cells r);
  tn_inj : forall a b, In a (tr_cells r) -> In b (tr_cells r) -> tr_gid r a = tr_gid r b -> a = b;
  tn_cells : forall l, In l (tr_cells r) -> In (tr_gid r l) (cells m);
  tn_iedges : forall e, In e (tr_iedges r) -> In (ie_l e) (tr_cells r) /\ In (ie_r e) (tr_cells r);
  tn_bedges : forall eb, In eb (tr_bedges r) -> In (be_c (fst eb)) (tr_cells r);
  to_iedges : exists ges, Forall2 (fun e e' => exists flip, eview (tr_gid r) flip e e') (tr_iedges r) ges /\ incl ges (iedges m) /\
    let touches e := (townsb r (ie_l e) || townsb r (ie_r e))%bool in Permutation (filter touches ges) (filter touches (iedges m));
  to_bedges : exists gbs, Forall2 (tbview (tr_gid r) bcs) (tr_bedges r) gbs /\ incl gbs (bedges m) /\
    let touches e := townsb r (be_c e) in Permutation (filter touches gbs) (filter touches (bedges m));
}.
Definition tdecomposes (x : tchoice) (m : mesh) (bcs : bedge -> tbcond) (rs : list (trank * ((bedge -> tbcond) -> tscheme))) : Prop :=
  (forall r sl, In (r, sl) rs -> sl = tscheme_of (tchoice_at (tr_gid r) x) /\ tpart_ok m bcs r) /\
  (forall c, In c (cells m) -> exists r sl, In (r, sl) rs /\ towns r c).

Definition tagree (m : mesh) (u v : nat -> tvec) : Prop := forall c, In c (cells m) -> u c = v c.

(* A run of the whole domain.  Conditions, sources and the step may be different in each step. *)
Record tserial_input := TSerialInput { tsi_dt : R; tsi_src : nat -> tvec; tsi_bcs : bedge -> tbcond }.
Definition tserial_run (i : integrator) (x : tchoice) (m : mesh) (xs : list tserial_input) (u : nat -> tvec) : option (nat -> tvec) :=
  ofold (fun u st => tts_step i (trhs (tscheme_of x (tsi_bcs st)) m (tsi_dt st) (tsi_src st)) (tsi_dt st) u) xs u.
