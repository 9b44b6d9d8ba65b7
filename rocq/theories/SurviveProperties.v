(** C87: what a refinement of the mesh keeps of a simulation. *)
From Coq Require Import String.
From Verif Require Import Base TimeModel MeshMapsModel MeshMapsProofs MeshMapsProperties DataModel DataProofs DataProperties SetupModel SetupProofs SetupProperties GridModel ForcingModel ForcingProofs SurviveModel SurviveProofs.
From Verif Require AMRModel AMRProofs AMRProperties.
Local Open Scope nat_scope.
Local Notation length := List.length.

(** ** Specification *)
(* A simulation whose sources, materials and boundary values are those of its configuration, as RDySetup leaves it. *)
Record configured (se : settings) (s : sim) : Prop := Configured {
  cg_mesh : mesh_good (sm_is_owned s) (sm_l2o s) (sm_o2l s) (r_regions (sm_data s));
  cg_settings : settings_good se (r_regions (sm_data s)) (r_boundaries (sm_data s)) (r_conds (sm_data s));
  cg_components : r_ncomp (sm_data s) = 3 + r_classes (sm_data s) + (if r_salinity (sm_data s) then 1 else 0) + (if r_heat (sm_data s) then 1 else 0);
  cg_solution : length (sm_solution s) = r_ncomp (sm_data s) * length (sm_is_owned s);
  cg_data : configure se (sm_is_owned s) (sm_l2o s) (new_operator (sm_data s) (num_owned (sm_is_owned s)) (r_regions (sm_data s)) (r_boundaries (sm_data s))) = Ret (sm_data s)
}.
(* What the adapted mesh must be: the cells of the old one cut into pieces, owned by who owned them, with the same boundaries
   (of any number of edges). *)
Record fits (s : sim) (a : adapted) : Prop := Fits {
  ft_partition : AMRProofs.partition (ad_tree a) (ad_fine a);
  ft_cells : length (ad_tree a) = length (sm_is_owned s) /\ 0 < length (ad_tree a) /\ (Z.of_nat (length (ad_tree a)) <= 2 ^ 31)%Z;
  ft_flags : length (ad_is_owned a) = ad_fine a;
  ft_owned : forall c p, AMRProofs.child (ad_tree a) c p -> (owns (ad_is_owned a) p <-> owns (sm_is_owned s) c);
  ft_boundaries : map bd_index (ad_boundaries a) = map bd_index (r_boundaries (sm_data s))
}.
(* [at_number s c k]: cell c is owned and has number k in the arrays of the operator *)
Definition at_number (s : sim) (c k : nat) : Prop := owns (sm_is_owned s) c /\ nth_error (sm_l2o s) c = Some (Z.of_nat k).
(* cell p of s' has the sources, the Manning coefficient and the region of cell c of s *)
Definition same_data (s : sim) (c : nat) (s' : sim) (p : nat) : Prop :=
  exists k k', at_number s c k /\ at_number s' p k' /\
    (forall j, value (sm_data s') (Source k' j) = value (sm_data s) (Source k j)) /\ value (sm_data s') (Manning k') = value (sm_data s) (Manning k) /\
    exists g g', In g (r_regions (sm_data s)) /\ In c (rg_cells g) /\ In g' (r_regions (sm_data s')) /\ In p (rg_cells g') /\ rg_id g' = rg_id g /\ rg_name g' = rg_name g.
Definition same_boundaries (s s' : sim) : Prop :=
  forall i b b' e e' k, nth_error (r_boundaries (sm_data s)) i = Some b -> nth_error (r_boundaries (sm_data s')) i = Some b' -> e < length (bd_edges b) -> e' < length (bd_edges b') ->
    value (sm_data s') (BoundaryValue i e' k) = value (sm_data s) (BoundaryValue i e k).

(** ** The refined regions *)
Lemma omap_pointwise {A B} (f : A -> option B) l l' : omap f l = Some l' -> Forall2 (fun a b => f a = Some b) l l'.
Proof.
  revert l'. induction l as [|a t IH]; intros l' H; cbn [omap] in H; [injection H as <-; constructor|]. destruct (f a) as [b|] eqn:E; [|discriminate]. cbn [obind] in H. destruct (omap f t) as [t'|]; [|discriminate]. injection H as <-. constructor; [exact E|apply IH; reflexivity].
Qed.
Lemma filter_ext_seq (f g : nat -> bool) n : (forall i, i < n -> f i = g i) -> filter f (seq 0 n) = filter g (seq 0 n).
Proof. intros H. assert (X : forall l, (forall i, In i l -> i < n) -> filter f l = filter g l). { induction l as [|a l IH]; intros B; [reflexivity|]. cbn [filter]. rewrite (H a) by (apply B; left; reflexivity). rewrite IH by (intros; apply B; right; assumption). reflexivity. } apply X. intros i Hi. apply in_seq in Hi. lia. Qed.
(* region g' of the fine mesh is region g of the coarse one *)
Record cut (flags flags' : list bool) (t : AMRModel.tree) (g g' : region) : Prop := Cut {
  ct_index : rg_index g' = 0; ct_id : rg_id g' = rg_id g; ct_name : rg_name g' = rg_name g;
  ct_bound : forall p, In p (rg_cells g') -> p < length flags';
  ct_owned : rg_owned g' = map (fun p => Z.of_nat (before (is_owned flags') p)) (filter (is_owned flags') (rg_cells g'));
  ct_cells : forall c p, AMRProofs.child t c p -> owns flags c -> (In p (rg_cells g') <-> In c (rg_cells g));
  ct_ghosts : forall c p, AMRProofs.child t c p -> In p (rg_cells g') -> In c (rg_cells g);
  ct_nodup : NoDup (rg_cells g')
}.
Lemma owns_cases flags flags' t nf : AMRProofs.partition t nf -> length flags' = nf -> length t = length flags -> (forall c p, AMRProofs.child t c p -> (owns flags' p <-> owns flags c)) ->
  forall p, p < nf -> is_owned flags' p = is_owned flags (AMRProofs.parent t p).
Proof.
  intros P L L' O p Hp. assert (C := AMRProofs.parent_child t nf p P Hp). specialize (O _ p C). rewrite !owns_is in O. assert (R := AMRProofs.child_range t nf P _ _ C). destruct (is_owned flags' p), (is_owned flags (AMRProofs.parent t p)); try reflexivity.
  - assert (X := proj1 O (conj ltac:(lia) eq_refl)). destruct X; congruence.
  - assert (X := proj2 O (conj ltac:(lia) eq_refl)). destruct X; congruence.
Qed.
Lemma regions_cut flags l2o o2l rs bs t nf flags' m tb : mesh_good flags l2o o2l rs -> 0 < bs -> AMRProofs.partition t nf -> length t = length flags -> 0 < length t -> (Z.of_nat (length t) <= 2 ^ 31)%Z ->
  length flags' = nf -> (forall c p, AMRProofs.child t c p -> (owns flags' p <-> owns flags c)) ->
  AMRModel.ConstructRefineTree bs nf t = Some m -> AMRModel.DetermineCoarseToFineCellMapping bs (fst m) flags = Some tb ->
  exists fine, AMRModel.CreateRefinedRegionsFromCoarseRDy tb o2l (map seen_region rs) = Some fine /\
    Forall2 (cut flags flags' t) rs (map (fun cf => fine_region (fst cf) (snd cf)) (combine rs fine)).
Proof.
  intros M Hb P Lt Pos Sm Lf Ow Em Et. assert (Fo := owns_cases flags flags' t nf P Lf Lt Ow).
  destruct (mg_num _ _ _ _ M) as (z & Ez & Eo). destruct (numbers_of _ _ _ Ez) as (L1 & L2 & N).
  assert (MK : AMRProperties.mesh_ok (is_owned flags) (length t) flags o2l).
  { split; [congruence|]. split; [reflexivity|]. intros c Hc Oc. rewrite Eo, nth_error_map. destruct (N c) as (_ & X); [apply owns_is; split; [lia|exact Oc]|]. unfold AMRProperties.number. unfold before in X. rewrite X. cbn [option_map]. rewrite Nat2Z.id. reflexivity. }
  assert (RK : forall g, In g rs -> AMRProperties.region_ok (is_owned flags) (length t) (seen_region g)).
  { intros g Hg. split; [intros c Hc; rewrite Lt; apply (mg_bound _ _ _ _ M g c Hg Hc)|]. cbn [seen_region AMRModel.rg_owned AMRModel.rg_local]. rewrite (mesh_good_owned _ _ _ _ g M Hg), map_map. apply map_ext. intros c.
    replace (Z.of_nat _ <? 0)%Z with false by (symmetry; apply Z.ltb_ge; lia). rewrite Nat2Z.id. reflexivity. }
  destruct (AMRProperties.C48_regions_inherited bs t nf (is_owned flags) flags o2l (map seen_region rs) m tb Hb P Pos Sm MK) as (fine & Ef & F); [rewrite Forall_forall; intros r Hr; apply in_map_iff in Hr; destruct Hr as (g & <- & Hg); apply RK, Hg|exact Em|exact Et|].
  exists fine. split; [exact Ef|]. unfold AMRModel.CreateRefinedRegionsFromCoarseRDy in Ef. apply omap_pointwise in Ef.
  assert (Hin : forall g, In g rs -> In g rs) by auto. revert Hin F Ef. generalize rs at 1 3 4 5 6 as l. intros l. revert fine. induction l as [|g l IH]; intros fine Hin F Ef; [cbn in F; inversion F; constructor|].
  cbn [map] in F, Ef. inversion F as [|a r' b fine' HR F' X Y]; subst. inversion Ef as [|a' r'' b' f'' HE Ef' X Y]; subst. cbn [combine map fst snd]. constructor; [|apply IH; [intros; apply Hin; right; assumption|exact F'|exact Ef']]. clear IH F F' Ef Ef'.
  assert (Hg : In g rs) by (apply Hin; left; reflexivity). destruct HR as (Rid & (Rb & Ro) & Rc & Rw & Rn). cbn [seen_region AMRModel.rg_id AMRModel.rg_local AMRModel.rg_owned] in Rid, Rc, Rw, Rn.
  constructor; cbn [fine_region rg_index rg_id rg_name rg_cells rg_owned].
  - reflexivity.
  - exact Rid.
  - reflexivity.
  - exact Rb.
  - rewrite Ro, map_map.
    assert (X : forall cells, (forall p, In p cells -> p < length flags') -> filter (fun p => is_owned flags (AMRProofs.parent t p)) cells = filter (is_owned flags') cells).
    { induction cells as [|p cells IHc]; intros B; [reflexivity|]. cbn [filter]. rewrite <- (Fo p) by (apply B; left; reflexivity). rewrite IHc by (intros; apply B; right; assumption). reflexivity. }
    rewrite (X _ Rb). apply map_ext_in. intros p Hp. apply filter_In in Hp. apply f_equal. unfold AMRProperties.number, before. apply f_equal. apply filter_ext_seq. intros i Hi. symmetry. apply Fo. assert (p < length flags') by (apply Rb, Hp). lia.
  - intros c p C Oc. apply (Rc c p C). apply owns_is in Oc. apply Oc.
  - intros c p C Hp. assert (NE : map (fun z0 : Z => if (z0 <? 0)%Z then None else Some (Z.to_nat z0)) (rg_owned g) <> []).
    { intros E. unfold AMRModel.refine_region in HE. cbn [seen_region AMRModel.rg_owned] in HE. rewrite E in HE. cbn in HE. injection HE as <-. contradiction. }
    apply (Rw NE c p C). exact Hp.
  - apply Rn. apply (mg_nodup _ _ _ _ M g Hg).
Qed.
Lemma Forall2_In_l {A B} (Q : A -> B -> Prop) l l' a : Forall2 Q l l' -> In a l -> exists b, In b l' /\ Q a b.
Proof. induction 1 as [|x y t t' H F IH]; intros Ha; [contradiction|]. destruct Ha as [<-|Ha]; [exists y; split; [left; reflexivity|exact H]|]. destruct (IH Ha) as (b & Hb & HQ). exists b. split; [right; exact Hb|exact HQ]. Qed.
Lemma Forall2_In_r {A B} (Q : A -> B -> Prop) l l' b : Forall2 Q l l' -> In b l' -> exists a, In a l /\ Q a b.
Proof. induction 1 as [|x y t t' H F IH]; intros Hb; [contradiction|]. destruct Hb as [<-|Hb]; [exists x; split; [left; reflexivity|exact H]|]. destruct (IH Hb) as (a & Ha & HQ). exists a. split; [right; exact Ha|exact HQ]. Qed.
Lemma cut_good flags l2o o2l rs t nf flags' l2o' z' rs' : mesh_good flags l2o o2l rs -> AMRProofs.partition t nf -> length t = length flags -> length flags' = nf ->
  (forall c p, AMRProofs.child t c p -> (owns flags' p <-> owns flags c)) -> number_cells flags' = Some (l2o', z') -> Forall2 (cut flags flags' t) rs rs' -> mesh_good flags' l2o' (map Z.to_nat z') rs'.
Proof.
  intros M P Lt Lf Ow E' F. destruct (numbers_of _ _ _ E') as (L1' & L2' & N'). constructor.
  - exists z'. auto.
  - intros g' Hg'. destruct (Forall2_In_r _ _ _ _ F Hg') as (g & Hg & C). rewrite (ct_owned _ _ _ _ _ C). apply map_ext_in. intros p Hp. apply filter_In in Hp. destruct (N' p) as (X & _); [apply owns_is; split; [apply (ct_bound _ _ _ _ _ C), Hp|apply Hp]|]. symmetry. apply nth_error_nth. exact X.
  - intros g' p Hg'. destruct (Forall2_In_r _ _ _ _ F Hg') as (g & Hg & C). apply (ct_bound _ _ _ _ _ C).
  - intros g' Hg'. destruct (Forall2_In_r _ _ _ _ F Hg') as (g & Hg & C). apply (ct_nodup _ _ _ _ _ C).
  - intros g1 g2 p H1 H2 P1 P2. assert (Ids : NoDup (map rg_id rs')). { replace (map rg_id rs') with (map rg_id rs); [apply (mg_ids _ _ _ _ M)|]. clear - F. induction F as [|a b u v H F IH]; [reflexivity|]. cbn [map]. rewrite IH, (ct_id _ _ _ _ _ H). reflexivity. }
    destruct (Forall2_In_r _ _ _ _ F H1) as (a1 & A1 & C1). destruct (Forall2_In_r _ _ _ _ F H2) as (a2 & A2 & C2). apply (nodup_map_eq rg_id rs' g1 g2 Ids H1 H2). rewrite (ct_id _ _ _ _ _ C1), (ct_id _ _ _ _ _ C2).
    assert (Hp : p < nf) by (rewrite <- Lf; apply (ct_bound _ _ _ _ _ C1), P1). destruct (AMRProofs.child_exists t nf P p Hp) as (c & Ch). rewrite (mg_disjoint _ _ _ _ M a1 a2 c A1 A2); [reflexivity|exact (ct_ghosts _ _ _ _ _ C1 c p Ch P1)|exact (ct_ghosts _ _ _ _ _ C2 c p Ch P2)].
  - replace (map rg_id rs') with (map rg_id rs); [apply (mg_ids _ _ _ _ M)|]. clear - F. induction F as [|a b u v H F IH]; [reflexivity|]. cbn [map]. rewrite IH, (ct_id _ _ _ _ _ H). reflexivity.
  - intros p Op. assert (Hp : p < nf) by (rewrite <- Lf; apply owns_is in Op; apply Op). destruct (AMRProofs.child_exists t nf P p Hp) as (c & Ch). assert (Oc := proj1 (Ow c p Ch) Op). destruct (mg_cover _ _ _ _ M c Oc) as (g & Hg & Hc).
    destruct (Forall2_In_l _ _ _ _ F Hg) as (g' & Hg' & C). exists g'. split; [exact Hg'|]. apply (ct_cells _ _ _ _ _ C c p Ch Oc). exact Hc.
  - intros g' Hg'. destruct (Forall2_In_r _ _ _ _ F Hg') as (g & Hg & C). rewrite (ct_index _ _ _ _ _ C). destruct rs'; [contradiction|cbn; lia].
Qed.

(** ** Theorems *)
(* The data a configuration gives survive: every piece of a cell has its region, its sources and its Manning coefficient,
   every boundary has its values, the solution is that of the cell, and time, step number and time step go on.  The new
   simulation is again as configured, so that the same holds of the next refinement. *)
Theorem C87_configured_data_survive : forall se s a, configured se s -> fits s a ->
  exists s', refine se s a = Ret s' /\ configured se s' /\
    (forall c p, AMRProofs.child (ad_tree a) c p -> owns (sm_is_owned s) c -> same_data s c s' p) /\ same_boundaries s s' /\
    (forall c p i, AMRProofs.child (ad_tree a) c p -> i < r_ncomp (sm_data s) ->
      AMRProperties.at_cell (r_ncomp (sm_data s)) (sm_solution s') p i = AMRProperties.at_cell (r_ncomp (sm_data s)) (sm_solution s) c i) /\
    rs_time (sm_run s') = rs_time (sm_run s) /\ rs_step (sm_run s') = rs_step (sm_run s) /\ rs_dt (sm_run s') = rs_dt (sm_run s).
Proof.
  intros se s a G T. destruct T as [P (Lt & Pos & Sm) Lf Ow Eb]. assert (NC := cg_components _ _ G). assert (M := cg_mesh _ _ G). assert (SG := cg_settings _ _ G). set (st := sm_data s) in *. set (bs := r_ncomp st) in *. assert (Hb : 0 < bs) by lia.
  destruct (AMRProperties.C48_values_inherited bs (ad_tree a) (ad_fine a) (sm_solution s) P) as (m & u & Em & Eu & Lu & Vu); [rewrite Lt; apply (cg_solution _ _ G)|].
  destruct (AMRProperties.C48_children_tables bs (ad_tree a) (ad_fine a) (sm_is_owned s) m Hb P (eq_sym Lt) Pos Sm Em) as (tb & Et & _).
  destruct (regions_cut (sm_is_owned s) (sm_l2o s) (sm_o2l s) (r_regions st) bs (ad_tree a) (ad_fine a) (ad_is_owned a) m tb M Hb P Lt Pos Sm Lf Ow Em Et) as (fine & Ef & F).
  set (rs' := map (fun cf => fine_region (fst cf) (snd cf)) (combine (r_regions st) fine)) in *.
  destruct (number_cells_spec (ad_is_owned a)) as (l2o' & z' & E' & _).
  assert (M' := cut_good _ _ _ _ _ _ _ _ _ rs' M P Lt Lf Ow E' F).
  assert (Lbd : length (ad_boundaries a) = length (r_boundaries st)) by (rewrite <- (map_length bd_index (ad_boundaries a)), Eb, map_length; reflexivity).
  assert (SG' : settings_good se rs' (ad_boundaries a) (r_conds st)).
  { destruct SG as [S1 S2 S3 S4 S5 S6 S7 S8 S9 S10]. constructor; try assumption; try congruence.
    apply forallb_forall. intros g' Hg'. destruct (Forall2_In_r _ _ _ _ F Hg') as (g & Hg & C). rewrite forallb_forall in S3. specialize (S3 g Hg). unfold region_has_material in *. rewrite (ct_name _ _ _ _ _ C). exact S3. }
  destruct (configure_spec se (ad_is_owned a) l2o' (map Z.to_nat z') st rs' (ad_boundaries a) M' SG' NC) as (st' & Ec & Np & Nc & Rr & Rb & Rc & Ro & V & B).
  destruct (configure_spec se (sm_is_owned s) (sm_l2o s) (sm_o2l s) st (r_regions st) (r_boundaries st) M SG NC) as (st1 & Ec1 & _ & _ & _ & _ & _ & _ & V1 & B1).
  assert (st1 = st). { assert (X := cg_data _ _ G). fold st in X. rewrite Ec1 in X. congruence. } subst st1.
  eexists. split. { unfold refine. cbv zeta. fold st bs. rewrite Em. cbn [of_option rbind]. rewrite Et. cbn [of_option rbind]. rewrite Ef. cbn [of_option rbind]. rewrite E'. cbn [of_option rbind]. rewrite Eu. cbn [of_option rbind fst snd]. fold rs'. rewrite Ec. cbn [rbind]. reflexivity. }
  cbn [sm_data sm_solution sm_run sm_is_owned sm_l2o sm_o2l rs_time rs_step rs_dt fst snd].
  assert (Pc : r_classes st' = r_classes st /\ r_salinity st' = r_salinity st /\ r_heat st' = r_heat st) by (assert (X1 := f_equal r_classes Np); assert (X2 := f_equal r_salinity Np); assert (X3 := f_equal r_heat Np); repeat split; assumption).
  split; [|split; [|split; [|split; [exact Vu|split; [reflexivity|split; reflexivity]]]]].
  - constructor; cbn [sm_data sm_solution sm_run sm_is_owned sm_l2o sm_o2l].
    + rewrite Rr. exact M'.
    + rewrite Rr, Rb, Rc. exact SG'.
    + destruct Pc as (-> & -> & ->). rewrite Nc. exact NC.
    + rewrite Nc, Lu, Lf. reflexivity.
    + rewrite Rr, Rb, Np. exact Ec.
  - intros c p Ch Oc. assert (Op := proj2 (Ow c p Ch) Oc). destruct (mg_num _ _ _ _ M) as (z & Ez & _). destruct (numbers_of _ _ _ Ez) as (_ & _ & N). destruct (numbers_of _ _ _ E') as (_ & _ & N').
    destruct (N c Oc) as (Nc1 & _). destruct (N' p Op) as (Nc' & _). destruct (mg_cover _ _ _ _ M c Oc) as (g & Hg & Hc). destruct (Forall2_In_l _ _ _ _ F Hg) as (g' & Hg' & C). assert (Hp := proj2 (ct_cells _ _ _ _ _ C c p Ch Oc) Hc).
    exists (before (is_owned (sm_is_owned s)) c), (before (is_owned (ad_is_owned a)) p). unfold at_number. cbn [sm_data sm_solution sm_run sm_is_owned sm_l2o sm_o2l].
    split; [split; assumption|]. split; [split; assumption|]. destruct (V1 g c _ Hg Hc Oc Nc1) as (W1 & Z1 & K1). destruct (V g' p _ Hg' Hp Op Nc') as (W & Z0 & K). fold st.
    split; [|split].
    + intros j. destruct (Nat.lt_ge_cases j bs) as [Hj|Hj].
      * destruct j as [|j]; [|rewrite Z0, Z1 by lia; reflexivity]. rewrite W, W1. unfold region_water. rewrite (ct_id _ _ _ _ _ C). reflexivity.
      * unfold value. rewrite Nc. fold bs. replace (j <? bs) with false by (symmetry; apply Nat.ltb_ge; exact Hj). reflexivity.
    + rewrite K, K1. reflexivity.
    + exists g, g'. rewrite Rr. split; [exact Hg|]. split; [exact Hc|]. split; [exact Hg'|]. split; [exact Hp|]. split; [apply (ct_id _ _ _ _ _ C)|apply (ct_name _ _ _ _ _ C)].
  - intros i b b' e e' k Hi Hi' He He'. cbn [sm_data] in *. rewrite Rb in Hi'. fold st in Hi |- *. destruct (nth_error (se_conditions se) i) as [c|] eqn:Ei; [|apply nth_error_None in Ei; rewrite (sg_conditions _ _ _ _ SG) in Ei; assert (i < length (r_boundaries st)) by (apply nth_error_Some; congruence); lia].
    destruct (Nat.lt_ge_cases k bs) as [Hk|Hk]; [rewrite (B i b' c e' k Hi' Ei He' Hk), (B1 i b c e k Hi Ei He Hk); reflexivity|].
    unfold value. rewrite Nc. fold bs. replace (k <? bs) with false by (symmetry; apply Nat.ltb_ge; exact Hk). destruct (nth_error (r_bvals st') i), (nth_error (r_bvals st) i); reflexivity.
Qed.
Print Assumptions C87_configured_data_survive.

(* Through any history of refinements, with advances in between: [progress] is the solution and the state of the time
   integration at the time of the refinement.  The data of a cell are those of the cell of the first mesh it is a piece of. *)
Definition refine_after (se : settings) (s : sim) (step : (list R * run_state) * adapted) : result sim :=
  refine se (Sim (sm_data s) (fst (fst step)) (snd (fst step)) (sm_is_owned s) (sm_l2o s) (sm_o2l s)) (snd step).
Inductive history (se : settings) : sim -> list ((list R * run_state) * adapted) -> Prop :=
| history_nil : forall s, history se s []
| history_step : forall s u r a rest, length u = r_ncomp (sm_data s) * length (sm_is_owned s) -> fits s a ->
    (forall s', refine_after se s ((u, r), a) = Ret s' -> history se s' rest) -> history se s (((u, r), a) :: rest).
Fixpoint ancestor (steps : list ((list R * run_state) * adapted)) (c p : nat) : Prop :=
  match steps with [] => c = p | st :: rest => exists q, AMRProofs.child (ad_tree (snd st)) c q /\ ancestor rest q p end.
Lemma at_number_unique s c k k' : at_number s c k -> at_number s c k' -> k = k'.
Proof. intros (_ & A) (_ & B). rewrite A in B. injection B as B. apply Nat2Z.inj in B. exact B. Qed.
Theorem C87_repeated : forall se steps s, configured se s -> history se s steps ->
  exists s', rfold (refine_after se) steps s = Ret s' /\ configured se s' /\
    (steps <> [] -> forall c p, ancestor steps c p -> owns (sm_is_owned s) c -> same_data s c s' p) /\ 
    (forall i, match nth_error (se_conditions se) i with Some cnd => fc_type (bc_flow_ cnd) = CONDITION_DIRICHLET | None => False end ->
       forall b e k, nth_error (r_boundaries (sm_data s')) i = Some b -> e < length (bd_edges b) -> k < 3 -> value (sm_data s') (BoundaryValue i e k) = (let* cnd := nth_error (se_conditions se) i in flow_entry (bc_flow_ cnd) k)).
Proof.
  intros se. induction steps as [|((u, r), a) rest IH]; intros s G H.
  - exists s. split; [reflexivity|]. split; [exact G|]. split; [congruence|]. intros i Hi b e k Hb He Hk. destruct (nth_error (se_conditions se) i) as [c|] eqn:Ei; [|contradiction]. cbn [obind].
    destruct (configure_spec se (sm_is_owned s) (sm_l2o s) (sm_o2l s) (sm_data s) (r_regions (sm_data s)) (r_boundaries (sm_data s)) (cg_mesh _ _ G) (cg_settings _ _ G) (cg_components _ _ G)) as (st1 & Ec1 & _ & _ & _ & _ & _ & _ & _ & B1).
    assert (st1 = sm_data s) by (rewrite (cg_data _ _ G) in Ec1; congruence). subst st1. assert (NC := cg_components _ _ G). rewrite (B1 i b c e k Hb Ei He) by lia. unfold boundary_value. rewrite Hi. rewrite (proj2 (Nat.ltb_lt _ _) Hk). reflexivity.
  - inversion H as [|s0 u0 r0 a0 rest0 Lu T Nx]; subst. set (s1 := Sim (sm_data s) u r (sm_is_owned s) (sm_l2o s) (sm_o2l s)).
    assert (G1 : configured se s1) by (destruct G; constructor; assumption). assert (T1 : fits s1 a) by (destruct T; constructor; assumption).
    destruct (C87_configured_data_survive se s1 a G1 T1) as (s2 & E & G2 & D & Bd & _). assert (E' : refine_after se s ((u, r), a) = Ret s2) by exact E.
    destruct (IH s2 G2 (Nx s2 E')) as (s' & Es & G' & D' & B'). exists s'. cbn [rfold]. rewrite E'. cbn [rbind]. split; [exact Es|]. split; [exact G'|]. split; [|exact B'].
    intros _ c p (q & Ch & An) Oc. cbn [snd] in Ch. assert (SD : same_data s c s2 q) by exact (D c q Ch Oc). destruct rest as [|st rest].
    + cbn in Es. injection Es as <-. cbn in An. subst q. exact SD.
    + assert (Oq : owns (sm_is_owned s2) q) by (destruct SD as (k & k' & _ & (X & _) & _); exact X). assert (SD2 := D' ltac:(discriminate) q p An Oq).
      destruct SD as (k & k1 & A & A1 & VS & VM & g & g1 & H1 & H2 & H3 & H4 & H5 & H6). destruct SD2 as (k1' & k' & A1' & A' & VS' & VM' & h & h' & J1 & J2 & J3 & J4 & J5 & J6). assert (k1' = k1) by (eapply at_number_unique; eassumption). subst k1'.
      exists k, k'. split; [exact A|]. split; [exact A'|]. split; [intros j; rewrite VS', VS; reflexivity|]. split; [rewrite VM', VM; reflexivity|]. exists g, h'. split; [exact H1|]. split; [exact H2|]. split; [exact J3|]. split; [exact J4|].
      assert (h = g1) by (eapply (mg_disjoint _ _ _ _ (cg_mesh _ _ G2)); eassumption). subst h. split; congruence.
Qed.
Print Assumptions C87_repeated.

(* A simulation that has just been set up is as configured. *)
Lemma init_regions_owned flags l2o names : forall sets r rs, init_regions_from flags l2o names r sets = Some rs ->
  forall g, In g rs -> rg_owned g = map (fun c => nth c l2o (-1)%Z) (filter (is_owned flags) (rg_cells g)).
Proof.
  induction sets as [|(id, cells) t IH]; intros r rs H g Hg; cbn [init_regions_from] in H; [injection H as <-; contradiction|].
  unfold region_owned in H. rewrite fill_spec in H by apply repeat_length. cbn [option_map fst obind] in H. destruct (init_regions_from flags l2o names (S r) t) as [rs'|] eqn:E; [|discriminate]. cbn [obind] in H. injection H as <-.
  destruct Hg as [<-|Hg]; [reflexivity|exact (IH (S r) rs' E g Hg)].
Qed.
Theorem C87_set_up : forall se flags l2o o2l names sets rs bds st0 u run,
  number_cells flags = Some (l2o, o2l) -> Permutation (concat (map snd sets)) (seq 0 (length flags)) -> NoDup (map fst sets) -> init_regions flags l2o names (Some sets) = Some rs ->
  settings_good se rs bds (r_conds st0) -> r_ncomp st0 = 3 + r_classes st0 + (if r_salinity st0 then 1 else 0) + (if r_heat st0 then 1 else 0) -> length u = r_ncomp st0 * length flags ->
  exists st, configure se flags l2o (new_operator st0 (num_owned flags) rs bds) = Ret st /\ configured se (Sim st u run flags l2o (map Z.to_nat o2l)).
Proof.
  intros se flags l2o o2l names sets rs bds st0 u run E P ND H SG NC Lu. assert (MO := mesh_ok_built flags l2o o2l names sets rs E P H).
  assert (Lm : length sets <= MAX_NUM_REGIONS) by (unfold init_regions in H; cbn [obind] in H; destruct (Nat.leb_spec (length sets) MAX_NUM_REGIONS); [assumption|discriminate]).
  assert (Hf := H). unfold init_regions in Hf. cbn [obind] in Hf. rewrite (proj2 (Nat.leb_le _ _) Lm) in Hf.
  assert (Ids : map rg_id rs = map fst sets).
  { assert (X : forall sets r rs, init_regions_from flags l2o names r sets = Some rs -> map rg_id rs = map fst sets); [|exact (X _ _ _ Hf)].
    induction sets0 as [|(id, cells) t IH]; intros r rs0 H0; cbn [init_regions_from] in H0; [injection H0 as <-; reflexivity|]. destruct (region_owned _ _ _); [|discriminate]. cbn [obind] in H0. destruct (init_regions_from _ _ _ _ t) as [rs'|] eqn:E'; [|discriminate]. injection H0 as <-. cbn [map rg_id fst]. rewrite (IH _ _ E'). reflexivity. }
  assert (M : mesh_good flags l2o (map Z.to_nat o2l) rs).
  { constructor.
    - exists o2l. auto.
    - exact (init_regions_owned flags l2o names sets 0 rs Hf).
    - apply (mo_bound _ _ _ MO).
    - apply (mo_nodup _ _ _ MO).
    - apply (mo_disjoint _ _ _ MO).
    - rewrite Ids. exact ND.
    - intros c Oc. apply (mo_cover _ _ _ MO). apply owns_is in Oc. apply Oc.
    - intros g Hg. apply (in_map rg_index) in Hg. rewrite (mo_index _ _ _ MO) in Hg. apply in_seq in Hg. lia. }
  destruct (configure_spec se flags l2o (map Z.to_nat o2l) st0 rs bds M SG NC) as (st & Ec & Np & Nc & Rr & Rb & Rc & Ro & _). exists st. split; [exact Ec|].
  assert (Pc : r_classes st = r_classes st0 /\ r_salinity st = r_salinity st0 /\ r_heat st = r_heat st0) by (assert (X1 := f_equal r_classes Np); assert (X2 := f_equal r_salinity Np); assert (X3 := f_equal r_heat Np); repeat split; assumption).
  constructor; cbn [sm_data sm_solution sm_run sm_is_owned sm_l2o sm_o2l].
  - rewrite Rr. exact M.
  - rewrite Rr, Rb, Rc. exact SG.
  - destruct Pc as (-> & -> & ->). rewrite Nc. exact NC.
  - rewrite Nc. exact Lu.
  - rewrite Rr, Rb, Np. exact Ec.
Qed.
Print Assumptions C87_set_up.

(* What was set through the interface is forgotten: the outcome depends on the sources, coefficients and boundary values of
   the configuration only, not on those the simulation holds. *)
Definition with_data (s : sim) (st : rdy) : sim := Sim st (sm_solution s) (sm_run s) (sm_is_owned s) (sm_l2o s) (sm_o2l s).
Theorem C87_interface_data_forgotten : forall se s st a, params st = params (sm_data s) -> refine se (with_data s st) a = refine se s a.
Proof.
  intros se s st a H. unfold params in H. injection H as H1 H2 H3 H4 H5 H6 H7 H8 H9 H10. unfold refine, with_data, new_operator. cbn [sm_data sm_solution sm_run sm_is_owned sm_l2o sm_o2l].
  rewrite H1, H2, H3, H4, H5, H6, H8, H10. reflexivity.
Qed.
Print Assumptions C87_interface_data_forgotten.

(* The first advance after a refinement uses the time step of the last one, whatever the Courant number was. *)
Theorem C87_time_step_not_adapted : forall se s a s' pick tc measured r, refine se s a = Ret s' -> advance pick tc measured (sm_run s') r -> rs_dt r = rs_dt (sm_run s).
Proof.
  intros se s a s' pick tc measured r H A. assert (E : rs_dt (sm_run s') = rs_dt (sm_run s) /\ rs_updated (sm_run s') = false).
  { unfold refine in H. cbv zeta in H. repeat (match type of H with (let! _ := ?X in _) = _ => destruct X; cbn [rbind] in H; try discriminate end). injection H as <-. split; reflexivity. }
  destruct E as (E1 & E2). inversion A; subst. cbn [rs_dt]. subst dt. rewrite E2, Bool.andb_false_r. exact E1.
Qed.
Print Assumptions C87_time_step_not_adapted.


(* Rain set up for the cells there were before the refinement: the advance after it fails. *)
Theorem C87_rain_refused : forall st g rate n values b time, 0 < n -> length values = n -> find_region (r_regions st) 1 = Some g -> length (rg_owned g) <> n ->
  exists r, RDyApplyForcing st (SConstant rate n values) b time = Err r.
Proof.
  intros st g rate n values b time Hn Lv Hg Hne. unfold RDyApplyForcing, apply_source. replace (Nat.eqb n 0) with false by (symmetry; apply Nat.eqb_neq; lia).
  unfold RDyForcingSetConstantRainfall. rewrite fill_some by exact Lv. cbn [of_def]. unfold water_source.
  replace (initialised (map (fun _ : nat => Some rate) (seq 0 n))) with (Some (map (fun _ : nat => rate) (seq 0 n))) by (unfold initialised; symmetry; clear; induction (seq 0 n) as [|x t IH]; [reflexivity|]; cbn [map omap obind]; rewrite IH; reflexivity).
  cbn [of_def]. unfold RDySetRegionalWaterSource, exec, SetRegionalSourceComponent. rewrite Hg. cbv zeta. replace (Z.eqb (Z.of_nat n) (Z.of_nat (length (rg_owned g)))) with false by (symmetry; apply Z.eqb_neq; lia).
  cbn [obound]. eexists. reflexivity.
Qed.
Print Assumptions C87_rain_refused.

(** ** A cell cut in four *)
Definition one_settings : settings :=
  Settings (Config [] [] [] [] 0 false false [Material "rock" None (Some (1/20)%R)] [("all", "rock")%string] [] [] [])
           [None] [BoundaryConditions (FlowCondition "reflecting" CONDITION_REFLECTING None None None None None) None None true].
Definition one_sim (src : list R) (mat : R) : sim :=
  Sim (Rdy false false 0 false false 3 1 [Region 0 1 (Some "all"%string) [0] [0%Z]] [Boundary 0 0 None [0; 1]] [BCond (Some CONDITION_REFLECTING) None None None] src [mat] [[0; 0; 0; 0; 0; 0]%R])
      [2; 3; 4]%R (RunState 100 7 10 0.9 true) [true] [0%Z] [0].
Definition one_adapted : adapted := Adapted [(2, [(2, [0; 1; 2; 3])])] 4 [true; true; true; true] [Boundary 0 0 None [0; 1; 2; 3]].
Lemma one_child c p : AMRProofs.child (ad_tree one_adapted) c p <-> c = 0 /\ p < 4.
Proof.
  unfold AMRProofs.child. cbn [one_adapted ad_tree]. split.
  - intros (cell & Hc & g & Hg & _ & Hp). destruct c as [|c]; [|destruct c; discriminate]. injection Hc as <-. cbn [snd] in Hg. destruct Hg as [<-|[]]. cbn [snd] in Hp. split; [reflexivity|]. destruct Hp as [<-|[<-|[<-|[<-|[]]]]]; lia.
  - intros (-> & Hp). exists (2, [(2, [0; 1; 2; 3])]). split; [reflexivity|]. exists (2, [0; 1; 2; 3]). split; [left; reflexivity|]. split; [reflexivity|]. cbn [snd]. do 4 (destruct p as [|p]; [cbn; tauto|]). lia.
Qed.
Lemma one_fits src mat : fits (one_sim src mat) one_adapted.
Proof.
  constructor.
  - unfold AMRProofs.partition, AMRProofs.fines. cbn. apply Permutation_refl.
  - cbn. repeat split; lia.
  - reflexivity.
  - intros c p H. apply one_child in H. destruct H as (-> & Hp). unfold owns. cbn. do 4 (destruct p as [|p]; [cbn; tauto|]). lia.
  - reflexivity.
Qed.
Lemma one_configured : configured one_settings (one_sim [0; 0; 0]%R (1/20)%R).
Proof.
  constructor.
  - constructor; cbn [one_sim sm_is_owned sm_l2o sm_o2l sm_data r_regions].
    + exists [0%Z]. split; reflexivity.
    + intros g [<-|[]]. reflexivity.
    + intros g c [<-|[]] [<-|[]]. cbn. lia.
    + intros g [<-|[]]. cbn. constructor; [intros []|constructor].
    + intros g g' c [<-|[]] [<-|[]] _ _. reflexivity.
    + cbn. constructor; [intros []|constructor].
    + intros c Oc. destruct c as [|c]; [|destruct c; discriminate]. eexists. split; [left; reflexivity|]. left. reflexivity.
    + intros g [<-|[]]. cbn. lia.
  - constructor; cbn [one_sim one_settings se_config se_sources se_conditions cf_materials sm_data r_regions r_boundaries r_conds].
    + discriminate.
    + intros m [<-|[]]. cbn. split; [reflexivity|discriminate].
    + reflexivity.
    + intros f [H|[]]. discriminate.
    + reflexivity.
    + reflexivity.
    + reflexivity.
    + intros i c H. destruct i as [|i]; [|destruct i; discriminate]. injection H as <-. eexists. split; reflexivity.
    + intros c [<-|[]]. cbn. tauto.
    + intros c k [<-|[]] H. discriminate.
  - reflexivity.
  - reflexivity.
  - reflexivity.
Qed.
Example C87_example : exists s', refine one_settings (one_sim [0; 0; 0]%R (1/20)%R) one_adapted = Ret s' /\ forall p, p < 4 -> same_data (one_sim [0; 0; 0]%R (1/20)%R) 0 s' p.
Proof.
  destruct (C87_configured_data_survive _ _ _ one_configured (one_fits _ _)) as (s' & E & _ & D & _). exists s'. split; [exact E|]. intros p Hp. apply D; [apply one_child; auto|reflexivity].
Qed.
Example C87_example_repeated : history one_settings (one_sim [0; 0; 0]%R (1/20)%R) [(([5; 6; 7]%R, RunState 110 8 10 0 false), one_adapted)].
Proof. constructor; [reflexivity|apply one_fits|intros; constructor]. Qed.

(* Sources and coefficients set through the interface do not survive. *)
Theorem C87_interface_data_refuted : exists st, exec (sm_data (one_sim [0; 0; 0]%R (1/20)%R)) (DomainSource 0 1 [7%R]) = Ok st /\ value st (Source 0 0) = Some 7%R /\
  exists s', refine one_settings (with_data (one_sim [0; 0; 0]%R (1/20)%R) st) one_adapted = Ret s' /\ forall p, p < 4 -> value (sm_data s') (Source p 0) = Some 0%R.
Proof.
  eexists. split; [reflexivity|]. split; [reflexivity|]. rewrite C87_interface_data_forgotten by reflexivity.
  destruct (C87_configured_data_survive _ _ _ one_configured (one_fits _ _)) as (s' & E & G & D & _). exists s'. split; [exact E|]. intros p Hp. destruct (D 0 p) as (k & k' & (_ & A) & (O' & A') & V & _); [apply one_child; auto|reflexivity|].
  cbn in A. injection A as A. assert (k = 0) by lia. subst k.
  assert (F : sm_is_owned s' = [true; true; true; true] /\ sm_l2o s' = [0; 1; 2; 3]%Z).
  { unfold refine in E. cbv zeta in E. repeat (match type of E with (let! _ := ?X in _) = _ => destruct X eqn:?; cbn [rbind] in E; try discriminate end).
    match goal with H : of_option (number_cells _) = Ret ?x |- _ => cbn in H; injection H as <- end. injection E as <-. split; reflexivity. }
  destruct F as (_ & F). rewrite F in A'. assert (k' = p) by (do 4 (destruct p as [|p]; [cbn in A'; injection A' as A'; lia|]); lia). subst k'. rewrite V. reflexivity.
Qed.
Print Assumptions C87_interface_data_refuted.
(* Constant rain: applied before the refinement, an error after it. *)
Theorem C87_rain_refuted : forall rate time, exists s', refine one_settings (one_sim [0; 0; 0]%R (1/20)%R) one_adapted = Ret s' /\
  (exists r, RDyApplyForcing (sm_data (one_sim [0; 0; 0]%R (1/20)%R)) (SConstant rate 1 [None]) BUnset time = Ok r) /\
  exists r, RDyApplyForcing (sm_data s') (SConstant rate 1 [None]) BUnset time = Err r.
Proof.
  intros rate time. destruct (C87_configured_data_survive _ _ _ one_configured (one_fits _ _)) as (s' & E & G & D & _). exists s'. split; [exact E|]. split; [eexists; reflexivity|].
  assert (M := cg_mesh _ _ G).
  assert (F : forall p, p < 4 -> exists g', In g' (r_regions (sm_data s')) /\ In p (rg_cells g') /\ rg_id g' = 1%Z /\ owns (sm_is_owned s') p).
  { intros p Hp. destruct (D 0 p) as (k & k' & _ & (O' & _) & _ & _ & g & g' & Hg & _ & Hg' & Hp' & Ei & _); [apply one_child; auto|reflexivity|]. exists g'. destruct Hg as [<-|[]]. auto. }
  destruct (F 0) as (g0 & H0 & P0 & I0 & O0); [lia|]. destruct (F 1) as (g1 & H1 & P1 & I1 & O1); [lia|].
  assert (g1 = g0) by (apply (nodup_map_eq rg_id (r_regions (sm_data s'))); [apply (mg_ids _ _ _ _ M)|exact H1|exact H0|congruence]). subst g1.
  apply (C87_rain_refused _ g0); [lia|reflexivity|apply find_region_unique; [apply (mg_ids _ _ _ _ M)|exact H0|exact I0]|].
  intros L. assert (A0 := proj2 (mesh_good_in _ _ _ _ g0 _ M H0) (ex_intro _ 0 (conj P0 (conj O0 eq_refl)))). assert (A1 := proj2 (mesh_good_in _ _ _ _ g0 _ M H0) (ex_intro _ 1 (conj P1 (conj O1 eq_refl)))).
  destruct (rg_owned g0) as [|x [|y l]]; try (cbn in L; lia). destruct A0 as [A0|[]]. destruct A1 as [A1|[]]. apply owns_is in O0. assert (X := before_lt (is_owned (sm_is_owned s')) 0 1 ltac:(lia) (proj2 O0)). lia.
Qed.
Print Assumptions C87_rain_refuted.
