(** What a simulation is responsible for between calls, and that every call keeps to it ([ResourcesProofs]). *)
From Verif Require Import Base SetupModel GridModel ResourcesModel ResourcesProofs.
Local Open Scope nat_scope.

Definition all_singles : list single :=
  [Rdy; Comm; Dm; Dm1; FlowDm; TracerDm; DmBase; Dm1Base; BaseToCurrentN; CurrentToBaseN; BaseToCurrent1; CurrentToBase1; RefineCell;
   UGlobal; Rhs; ULocal; Vec1; SolnAccum; FlowG; FlowL; TracerG; TracerL; MeshCells; MeshEdges; MeshVertices; MeshOutput;
   Regions; InitialConditions; Sources; BoundaryConditions; Boundaries; Ts; Oper; Forcing; Viewer; ViewerFormat;
   SolnInst; PrimOut; PrimAccumOut; SrcOut; SrcAccumOut; CPrimOut; CPrimAccumOut; CSrcOut; CSrcAccumOut;
   NumLocalEdges; FluxMd; Offsets; Fluxes; ObsAccum; SitesXYZ; SitesU; ScatterU;
   OpDm; FluxDiv; Prim; PrimAccum; SrcInst; SrcAccum; PValues; PFluxes; PFluxesAccum; ExternalSources; MaterialProperties; PFlux; PSource;
   CULocal; CRhs; CSources; CEta; CEtaOp; CFlux; CSource; CMuscl; CReconstructed; CGradients; CFluxDiv; CPrim; CPrimAccum; CSrcInst; CSrcAccum;
   DmOverlap; LocalDm; EtaLocal; DmFine; C2FN; F2CN; C2F1; F2C1; UCoarse; UFine; CellMaps; RefinedRegions; AdaptLabel; Product].
Definition all_families : list family := [RegionCells; RegionOwned; RefinedCells; RefinedOwned; BoundaryEdges; FluxAccumulated; Values; BFluxes; BFluxesAccum].
Lemma all_singles_all x : In x all_singles.
Proof.
  assert (H : existsb (single_beq x) all_singles = true) by (destruct x; vm_compute; reflexivity).
  apply existsb_exists in H. destruct H as (y & I & E). apply single_beq_spec in E. subst y. exact I.
Qed.
Lemma all_families_all f : In f all_families. Proof. destruct f; cbn; tauto. Qed.

Definition own_if (b : bool) : cell := if b then Own else Null.
(* v: an output file is open; s: the time series were set up *)
Definition inv_st (c : cfg) (marked refined v s : bool) (x : single) : cell :=
  match x with
  | Rdy | Comm | Dm | Dm1 | UGlobal | Rhs | ULocal | Vec1 | SolnAccum | MeshCells | MeshEdges | MeshVertices | MeshOutput
  | Regions | InitialConditions | BoundaryConditions | Boundaries | Ts | Oper | Forcing | FluxDiv | Prim | PrimAccum | SrcInst | SrcAccum => Own
  | FlowDm => if cf_sediment c then (if refined then Other else Own) else Other
  | TracerDm | TracerG | TracerL => own_if (cf_sediment c)
  | FlowG | FlowL => if cf_sediment c then Own else Other
  | DmBase | Dm1Base => if refined then Own else Other
  | BaseToCurrentN | CurrentToBaseN | BaseToCurrent1 | CurrentToBase1 => own_if refined
  | RefineCell => own_if marked
  | Sources => own_if (cf_sources c)
  | Viewer | ViewerFormat => own_if v
  | SolnInst | PrimOut | PrimAccumOut | SrcOut | SrcAccumOut | OpDm => Other
  | CPrimOut | CPrimAccumOut | CSrcOut | CSrcAccumOut => if cf_ceed c then Other else Null
  | Offsets | NumLocalEdges => own_if (s && cf_fluxes c)
  | FluxMd => own_if (s && cf_fluxes c && cf_root c && cf_some_edges c)
  | Fluxes => own_if (s && cf_fluxes c && cf_edges c)
  | ObsAccum | SitesU | ScatterU => own_if (s && cf_observations c)
  | SitesXYZ => own_if (s && cf_observations c && cf_root c)
  | PValues | PFluxes | PFluxesAccum | ExternalSources | MaterialProperties | PFlux | PSource => if cf_ceed c then Null else Own
  | CULocal | CRhs | CSources | CFlux | CSource | CFluxDiv | CPrim | CPrimAccum | CSrcInst | CSrcAccum => own_if (cf_ceed c)
  | CEta => if cf_ceed c then (match cf_balancing c with HR => Null | _ => Own end) else Null
  | CEtaOp => if cf_ceed c then (match cf_balancing c with BS2002 => Own | _ => Null end) else Null
  | CMuscl | CReconstructed | CGradients => if cf_ceed c then own_if (cf_second_order c) else Null
  | _ => Null
  end%bool.
Definition inv_fam (c : cfg) (n : size) (f : family) : option size :=
  match f with
  | RegionCells | RegionOwned => Some NumRegions
  | RefinedCells | RefinedOwned => None
  | BoundaryEdges => Some n
  | FluxAccumulated => if cf_ceed c then Some n else None
  | Values | BFluxes | BFluxesAccum => if cf_ceed c then None else Some n
  end.
Definition inv (c : cfg) (marked refined v s : bool) (n : size) : ast :=
  Ast (inv_st c marked refined v s) (inv_fam c n)
      ([(SolnInst, UGlobal); (PrimOut, Prim); (PrimAccumOut, PrimAccum); (SrcOut, SrcInst); (SrcAccumOut, SrcAccum); (OpDm, Dm)] ++
       if cf_ceed c then [(CPrimOut, CPrim); (CPrimAccumOut, CPrimAccum); (CSrcOut, CSrcInst); (CSrcAccumOut, CSrcAccum)] else [])
      [(FluxDiv, OpDm)] [].
Definition start : ast := Ast (fun _ => Null) (fun _ => None) [] [] [].

(** comparison of states *)
Definition has (l : list (single * single)) (p : single * single) : bool := existsb (fun q => single_beq (fst q) (fst p) && single_beq (snd q) (snd p))%bool l.
Definition tally (l : list loss) : nat * list size :=
  fold_right (fun a n => match a with LN c => (own1 c + fst n, snd n) | LS k => (fst n, k :: snd n) end) (0, []) l.
Definition becomes (r : option ast) (B : ast) (t : nat * list size) : Prop :=
  match r with
  | Some A => map (st A) all_singles = map (st B) all_singles /\ map (fam A) all_families = map (fam B) all_families /\
              forallb (has (same A)) (same B) = true /\ forallb (has (kept A)) (kept B) = true /\ tally (lost A) = t
  | None => False
  end.
Lemma map_on {A B} (f g : A -> B) l x : map f l = map g l -> In x l -> f x = g x.
Proof. induction l as [|a l IH]; intros H I; [contradiction|]. injection H as H1 H2. destruct I as [<- | I]; auto. Qed.
Lemma has_in l p : has l p = true -> In p l.
Proof.
  intros H. apply existsb_exists in H. destruct H as ([a b] & I & E). apply andb_prop in E. destruct E as [E1 E2]. apply single_beq_spec in E1, E2. cbn in E1, E2. subst. destruct p; exact I.
Qed.
Lemma weight_tally sz l : weight sz l = fst (tally l) + fold_right (fun k n => sz k + n) 0 (snd (tally l)).
Proof.
  induction l as [|[c|k] l IH]; [reflexivity| |]; cbn [weight fold_right tally fst snd]; fold (weight sz l); fold (tally l); rewrite IH; lia.
Qed.
Lemma rep_recast sz sz' n A B m : rep sz n A m -> (forall x, st A x = st B x) -> (forall f, option_map sz (fam A f) = option_map sz' (fam B f)) ->
  (forall p, In p (same B) -> In p (same A)) -> (forall p, In p (kept B) -> In p (kept A)) -> lost B = [] -> rep sz' (n + weight sz (lost A)) B m.
Proof.
  intros [[F1 F2 F3] (L & K & W)] HS HF H1 H2 H3. split.
  - split; [intros x X; apply F1; rewrite HS; exact X | auto | auto].
  - exists L. split; [|rewrite H3, W; cbn; lia]. apply (core_ext _ _ _ _ K). intros [x|f i]; cbn; [rewrite HS; reflexivity|].
    specialize (HF f). destruct (fam A f), (fam B f); cbn in HF; try discriminate; [injection HF as ->; reflexivity | reflexivity].
Qed.
(* a checked program, run on real memory *)
Lemma becomes_sound mv sz sz' n p A B t m : rep sz n A m -> becomes (aexecs mv p A) B t -> lost A = [] -> lost B = [] ->
  (forall f, option_map sz (fam B f) = option_map sz' (fam B f)) ->
  exists m', execs sz p m = Ret m' /\ rep sz' (n + (fst t + fold_right (fun k n => sz k + n) 0 (snd t))) B m'.
Proof.
  intros R H LA LB HF. unfold becomes in H. destruct (aexecs mv p A) as [A'|] eqn:E; [|contradiction]. destruct H as (H1 & H2 & H3 & H4 & H5).
  destruct (aexecs_sound _ _ _ _ _ _ _ R E) as (m' & X & R'). exists m'. split; [exact X|]. rewrite <- H5, <- weight_tally.
  apply (rep_recast sz); [exact R'| | | | |exact LB].
  - intros x. exact (map_on _ _ _ x H1 (all_singles_all x)).
  - intros f. rewrite (map_on _ _ _ f H2 (all_families_all f)). apply HF.
  - intros q I. rewrite forallb_forall in H3. exact (has_in _ _ (H3 q I)).
  - intros q I. rewrite forallb_forall in H4. exact (has_in _ _ (H4 q I)).
Qed.

(** ** Checks, one per call: the cases are the settings the call looks at *)
Definition mv_setup (x y : single) : bool := match x, y with Dm, DmOverlap => true | _, _ => false end.
Definition mv_refine (x y : single) : bool := match x, y with DmBase, Dm | Dm1Base, Dm1 | Dm, DmFine | Regions, RefinedRegions => true | _, _ => false end.
Definition mv_none (x y : single) : bool := false.
Ltac checked := vm_compute; repeat split; reflexivity.
Lemma check_setup c : accepted c = true -> becomes (aexecs mv_setup (RDyCreate ++ RDySetup c) start) (inv c false false false false NewBoundaries) (0, []).
Proof.
  destruct c as [ceed second bal sed src fl obs vw rs par root ed sed']. intros H. destruct ceed, second, bal, sed, par; try discriminate H; clear H; destruct src; checked.
Qed.
Definition lost_refining (c : cfg) (refined : bool) : nat * list size :=
  ((if cf_ceed c then match cf_balancing c with BS2002 => 1 | _ => 0 end else 0) + (if cf_sediment c then (if refined then 4 else 5) else 0),
   if cf_ceed c then [NumBoundaries] else []).
Lemma check_refine c marked refined v s : accepted c = true ->
  becomes (aexecs mv_refine (RDyPerformAMR c marked refined) (inv c marked refined v s NumBoundaries)) (inv c false true v s NewBoundaries) (lost_refining c refined).
Proof.
  destruct c as [ceed second bal sed src fl obs vw rs par root ed sed']. intros H. destruct ceed, second, bal, sed; try discriminate H; clear H; destruct marked, refined; checked.
Qed.
Lemma check_mark c marked refined v s : becomes (aexecs mv_none [New RefineCell []] (inv c marked refined v s NumBoundaries)) (inv c true refined v s NumBoundaries) (Nat.b2n marked, []).
Proof. destruct c as [ceed second bal sed src fl obs vw rs par root ed sed']. destruct ceed, marked; checked. Qed.
Lemma check_viewer c marked refined v s : becomes (aexecs mv_none (CreateOutputViewer c) (inv c marked refined (cf_viewer c && v) s NumBoundaries)) (inv c marked refined (cf_viewer c) s NumBoundaries) (0, []).
Proof. destruct c as [ceed second bal sed src fl obs vw rs par root ed sed']. destruct vw, ceed, v; checked. Qed.
Lemma check_series c marked refined v : becomes (aexecs mv_none (InitTimeSeries c) (inv c marked refined v false NumBoundaries)) (inv c marked refined v true NumBoundaries) (0, []).
Proof. destruct c as [ceed second bal sed src fl obs vw rs par root ed sed']. destruct ceed, fl, obs, root, ed, sed'; checked. Qed.
Lemma check_use c marked refined v s : becomes (aexecs mv_none (UseFields c) (inv c marked refined v s NumBoundaries)) (inv c marked refined v s NumBoundaries) (0, []).
Proof. destruct c as [ceed second bal sed src fl obs vw rs par root ed sed']. destruct ceed; checked. Qed.
Lemma check_last c marked refined v s : becomes (aexecs mv_none DestroyOutputViewer (inv c marked refined v s NumBoundaries)) (inv c marked refined false s NumBoundaries) (0, []).
Proof. destruct c as [ceed second bal sed src fl obs vw rs par root ed sed']. destruct ceed, v; checked. Qed.
(* RDyDestroy in four parts *)
Definition override (l : list single) (c : cell) (g : single -> cell) (x : single) : cell := if existsb (single_beq x) l then c else g x.
Definition nothing (g : single -> cell) : ast := Ast g (fun _ => None) [] [] [].
Definition destroy_a (c : cfg) : list instr :=
  RDyMeshDestroy ++ [Destroy InitialConditions; Destroy Sources; Destroy BoundaryConditions] ++ DestroyRegions ++ RDyDestroyBoundaries NumBoundaries ++
  [Destroy Ts] ++ RDyDestroyVectors ++ DestroyOperator c NumBoundaries ++ [Destroy Forcing].
Definition after_a (c : cfg) (marked refined v s : bool) : single -> cell :=
  override ([InitialConditions; Sources; BoundaryConditions; Regions; Boundaries; Ts; Rhs; UGlobal; ULocal; Vec1; SolnAccum; Oper; Forcing] ++ operator_fields) Null
    (override [MeshCells; MeshEdges; MeshVertices; MeshOutput] Other (inv_st c marked refined v s)).
Lemma check_a c marked refined v s : accepted c = true ->
  becomes (aexecs mv_none (destroy_a c) (inv c marked refined v s NumBoundaries)) (nothing (after_a c marked refined v s))
          (if cf_ceed c then match cf_balancing c with BS2002 => 1 | _ => 0 end else 0, if cf_ceed c then [NumBoundaries] else []).
Proof.
  destruct c as [ceed second bal sed src fl obs vw rs par root ed sed']. intros H. destruct ceed, second, bal; try discriminate H; clear H; destruct src; checked.
Qed.
Definition after_b (c : cfg) (marked refined v s : bool) (x : single) : cell :=
  match x with
  | Offsets | NumLocalEdges => own_if (s && cf_fluxes c && negb (cf_edges c))
  | FluxMd => own_if (s && cf_fluxes c && cf_root c && cf_some_edges c && negb (cf_edges c))
  | SitesU | ScatterU => own_if (s && cf_observations c && negb (cf_root c))
  | Fluxes | SitesXYZ => Null
  | _ => after_a c marked refined v s x
  end%bool.
Lemma check_b c marked refined v s : becomes (aexecs mv_none DestroyTimeSeries (nothing (after_a c marked refined v s))) (nothing (after_b c marked refined v s)) (0, []).
Proof. destruct c as [ceed second bal sed src fl obs vw rs par root ed sed']. destruct s, fl, obs, root, ed, sed'; checked. Qed.
Definition destroy_c (refined : bool) : list instr :=
  [Destroy Dm1; Destroy Dm] ++
  (if refined then [Destroy DmBase; Destroy Dm1Base; Destroy BaseToCurrentN; Destroy CurrentToBaseN; Destroy BaseToCurrent1; Destroy CurrentToBase1] else []) ++ [Destroy Comm].
Definition after_c (c : cfg) (marked refined v s : bool) : single -> cell :=
  override ([Dm1; Dm; Comm] ++ if refined then [DmBase; Dm1Base; BaseToCurrentN; CurrentToBaseN; BaseToCurrent1; CurrentToBase1] else []) Null (after_b c marked refined v s).
Lemma check_c c marked refined v s : becomes (aexecs mv_none (destroy_c refined) (nothing (after_b c marked refined v s))) (nothing (after_c c marked refined v s)) (0, []).
Proof. destruct refined; checked. Qed.
Definition lost_ending (c : cfg) (marked refined v s : bool) : nat :=
  (if cf_sediment c then (if refined then 5 else 6) else 0) + Nat.b2n marked + (if v then 2 else 0) +
  (if s then (if cf_observations c then (if cf_root c then 1 else 3) else 0) +
             (if cf_fluxes c then (if cf_edges c then 0 else if cf_root c && cf_some_edges c then 3 else 2) else 0) else 0).
Lemma check_d c marked refined v s :
  becomes (aexecs mv_none (map Clear fields ++ [Destroy Rdy]) (nothing (after_c c marked refined v s))) (nothing (fun _ => Null)) (lost_ending c marked refined v s, []).
Proof. destruct c as [ceed second bal sed src fl obs vw rs par root ed sed']. destruct ceed, sed, refined, marked, v, s, fl, obs, root, ed, sed'; checked. Qed.
Lemma destroy_parts c refined : RDyDestroy c refined = destroy_a c ++ DestroyTimeSeries ++ destroy_c refined ++ (map Clear fields ++ [Destroy Rdy]).
Proof. unfold RDyDestroy, destroy_a, destroy_c. rewrite <- !app_assoc. reflexivity. Qed.
