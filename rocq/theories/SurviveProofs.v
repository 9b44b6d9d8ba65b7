(** Lemmas for C87. *)
From Coq Require Import String.
From Verif Require Import Base TimeModel MeshMapsModel MeshMapsProofs MeshMapsProperties DataModel DataProofs DataProperties SetupModel SetupProofs SetupProperties SurviveModel.
From Verif Require AMRModel AMRProofs AMRProperties.
Local Open Scope nat_scope.
Local Notation length := List.length.

(** ** The index of a region does not matter *)
Definition with_regions (st : rdy) (rs : list region) : rdy :=
  Rdy (r_ceed st) (r_second_order st) (r_classes st) (r_salinity st) (r_heat st) (r_ncomp st) (r_owned st) rs (r_boundaries st) (r_conds st) (r_src st) (r_mat st) (r_bvals st).
Definition same (g h : region) : Prop := rg_id g = rg_id h /\ rg_name g = rg_name h /\ rg_cells g = rg_cells h /\ rg_owned g = rg_owned h.
Definition indices_ok (rs : list region) : Prop := forall g, In g rs -> rg_index g < length rs.
Definition omapst (f : rdy -> rdy) (x : outcome rdy) : outcome rdy := match x with Ok a => Ok (f a) | Err a => Err (f a) | Undef => Undef end.

Lemma same_length rs rs' : Forall2 same rs rs' -> length rs = length rs'.
Proof. induction 1; cbn; congruence. Qed.
Lemma find_same id rs rs' : Forall2 same rs rs' ->
  (find_region rs id = None /\ find_region rs' id = None) \/ exists g g', find_region rs id = Some g /\ find_region rs' id = Some g' /\ same g g' /\ In g rs /\ In g' rs'.
Proof.
  induction 1 as [|g g' t t' E F IH]; [left; auto|]. cbn [find_region]. destruct E as (Ei & E). rewrite <- Ei. destruct (Z.eqb (rg_id g) id).
  - right. exists g, g'. repeat split; try (left; reflexivity); tauto.
  - destruct IH as [IH|(a & b & A & B & C & D & D')]; [left; exact IH|]. right. exists a, b. split; [exact A|]. split; [exact B|]. split; [exact C|]. split; right; assumption.
Qed.
Lemma edit_src_regions st rs ids k n f : edit_src (with_regions st rs) ids k n f = option_map (fun s => with_regions s rs) (edit_src st ids k n f).
Proof.
  unfold edit_src. cbn [r_ncomp r_src with_regions]. destruct (get_rows _ _ _) as [vs|]; [|reflexivity]. cbn [obind]. destruct (fill_component _ _ _ _) as [vs'|]; [|reflexivity]. cbn [obind].
  destruct (put_rows _ _ _ _) as [d|]; reflexivity.
Qed.
Lemma sethom_regions st rs rs' id c v : Forall2 same rs rs' -> indices_ok rs -> indices_ok rs' ->
  SetHomogeneousRegionalSourceComponent (with_regions st rs') id c v = omapst (fun s => with_regions s rs') (SetHomogeneousRegionalSourceComponent (with_regions st rs) id c v).
Proof.
  intros F I I'. unfold SetHomogeneousRegionalSourceComponent. cbn [r_regions with_regions]. destruct (find_same id rs rs' F) as [(A & B)|(g & g' & A & B & (_ & _ & _ & E) & D & D')]; rewrite A, B; [reflexivity|].
  cbv zeta. rewrite <- E. destruct (Nat.eqb _ _); [reflexivity|]. unfold region_index_ok. cbn [r_regions with_regions]. rewrite (proj2 (Nat.ltb_lt _ _) (I g D)), (proj2 (Nat.ltb_lt _ _) (I' g' D')).
  rewrite !edit_src_regions. destruct (edit_src st _ _ _ _); reflexivity.
Qed.
Lemma sethom_params st id c v st' : SetHomogeneousRegionalSourceComponent st id c v = Ok st' -> st' = with_src st (r_src st').
Proof.
  unfold SetHomogeneousRegionalSourceComponent. destruct (find_region _ _); [|intros [= <-]; destruct st; reflexivity]. cbv zeta. destruct (Nat.eqb _ _); [intros [= <-]; destruct st; reflexivity|].
  destruct (region_index_ok _ _); [|discriminate]. unfold edit_src. destruct (get_rows _ _ _) as [vs|]; [|discriminate]. cbn [obind]. destruct (fill_component _ _ _ _) as [vs'|]; [|discriminate]. cbn [obind].
  destruct (put_rows _ _ _ _) as [d|]; [|discriminate]. intros [= <-]. reflexivity.
Qed.
Lemma sources_regions rs rs' : Forall2 same rs rs' -> indices_ok rs -> indices_ok rs' -> forall srcs r st,
  apply_sources r srcs (with_regions st rs') = omapst (fun s => with_regions s rs') (apply_sources r srcs (with_regions st rs)).
Proof.
  intros F I I'. induction srcs as [|src t IH]; intros r st; [reflexivity|]. cbn [apply_sources]. destruct src as [f|]; [|apply IH]. destruct (fc_value f) as [v|]; [|reflexivity].
  rewrite (sethom_regions st rs rs') by assumption. destruct (SetHomogeneousRegionalSourceComponent (with_regions st rs) _ _ _) as [s|s|] eqn:E; cbn [omapst]; try reflexivity.
  apply sethom_params in E. rewrite E. exact (IH (S r) (with_src st (r_src s))).
Qed.
Lemma setop_regions st rs b off nc ne values : SetOperatorBoundaryValues (with_regions st rs) b off nc ne values = omapst (fun s => with_regions s rs) (SetOperatorBoundaryValues st b off nc ne values).
Proof.
  unfold SetOperatorBoundaryValues. destruct (Z.eqb _ _); [|reflexivity]. cbn [r_ceed r_second_order r_boundaries r_conds r_bvals r_ncomp with_regions].
  match goal with |- defined (let* i := ?X in _) = _ => destruct X end; [|reflexivity]. cbn [obind]. destruct (nth_error (r_bvals st) _); [|reflexivity]. cbn [obind].
  destruct (put_boundary _ _ _ _ _ _); [|reflexivity]. cbn [obind]. destruct (upd _ _ _); reflexivity.
Qed.
Lemma setflow_regions st rs b ne ndof values : RDySetFlowDirichletBoundaryValues (with_regions st rs) b ne ndof values = omapst (fun s => with_regions s rs) (RDySetFlowDirichletBoundaryValues st b ne ndof values).
Proof.
  unfold RDySetFlowDirichletBoundaryValues, checked, boundary_at. cbn [r_boundaries r_conds with_regions]. destruct (_ && _)%bool; [|reflexivity].
  destruct (zget (r_boundaries st) b) as [bd|]; [|reflexivity]. cbn [obind]. destruct (zget (r_conds st) b) as [c|]; [|reflexivity]. cbn [obind]. destruct (Z.eqb _ ne); [|reflexivity].
  destruct (Z.eqb ndof 3); [|reflexivity]. unfold dirichlet_only. destruct (bc_flow c) as [ty|]; [|reflexivity]. destruct (is_dirichlet ty); [|reflexivity]. apply setop_regions.
Qed.
Lemma setflow_params st b ne ndof values st' : RDySetFlowDirichletBoundaryValues st b ne ndof values = Ok st' -> st' = with_bvals st (r_bvals st').
Proof.
  unfold RDySetFlowDirichletBoundaryValues, checked, boundary_at. destruct (_ && _)%bool; [|discriminate].
  destruct (zget (r_boundaries st) b) as [bd|]; [|discriminate]. cbn [obind]. destruct (zget (r_conds st) b) as [c|]; [|discriminate]. cbn [obind]. destruct (Z.eqb _ ne); [|discriminate].
  destruct (Z.eqb ndof 3); [|discriminate]. unfold dirichlet_only. destruct (bc_flow c) as [ty|]; [|discriminate]. destruct (is_dirichlet ty); [|discriminate].
  unfold SetOperatorBoundaryValues. destruct (Z.eqb _ _); [|discriminate].
  match goal with |- defined (let* i := ?X in _) = _ -> _ => destruct X end; [|discriminate]. cbn [obind]. destruct (nth_error (r_bvals st) _); [|discriminate]. cbn [obind].
  destruct (put_boundary _ _ _ _ _ _); [|discriminate]. cbn [obind]. destruct (upd _ _ _); [|discriminate]. intros [= <-]. reflexivity.
Qed.
Lemma dirichlet_regions rs : forall bcs st, InitDirichlet bcs (with_regions st rs) = omapst (fun s => with_regions s rs) (InitDirichlet bcs st).
Proof.
  induction bcs as [|(b, c) t IH]; intros st; [reflexivity|]. cbn [InitDirichlet]. cbv zeta. destruct (fc_type (bc_flow_ c)); try reflexivity; try apply IH.
  match goal with |- match ?X with Some _ => _ | None => _ end = _ => destruct X as [vals|] end; [|reflexivity]. rewrite setflow_regions. destruct (RDySetFlowDirichletBoundaryValues st _ _ _ _) as [s|s|]; cbn [omapst]; [apply IH|reflexivity|reflexivity].
Qed.
Lemma dirichlet_params : forall bcs st st', InitDirichlet bcs st = Ok st' -> st' = with_bvals st (r_bvals st').
Proof.
  induction bcs as [|(b, c) t IH]; intros st st' H; [injection H as <-; destruct st; reflexivity|]. cbn [InitDirichlet] in H. cbv zeta in H. destruct (fc_type (bc_flow_ c)); try discriminate; try (apply IH; exact H).
  match type of H with match ?X with Some _ => _ | None => _ end = _ => destruct X as [vals|] end; [|discriminate]. destruct (RDySetFlowDirichletBoundaryValues st _ _ _ _) as [s|s|] eqn:E; try discriminate. apply IH in H. apply setflow_params in E. rewrite E in H. exact H.
Qed.
Lemma sources_params : forall srcs r st st', apply_sources r srcs st = Ok st' -> st' = with_src st (r_src st').
Proof.
  induction srcs as [|src t IH]; intros r st st' H; [injection H as <-; destruct st; reflexivity|]. cbn [apply_sources] in H. destruct src as [f|]; [|apply (IH (S r)); exact H]. destruct (fc_value f) as [v|]; [|discriminate].
  destruct (SetHomogeneousRegionalSourceComponent st _ _ _) as [s|s|] eqn:E; try discriminate. apply IH in H. apply sethom_params in E. rewrite E in H. exact H.
Qed.
Definition renumber (rs : list region) : list region := map (fun ig => Region (fst ig) (rg_id (snd ig)) (rg_name (snd ig)) (rg_cells (snd ig)) (rg_owned (snd ig))) (combine (seq 0 (length rs)) rs).
Lemma renumber_from k rs : let l := map (fun ig => Region (fst ig) (rg_id (snd ig)) (rg_name (snd ig)) (rg_cells (snd ig)) (rg_owned (snd ig))) (combine (seq k (length rs)) rs) in
  Forall2 same l rs /\ map rg_index l = seq k (length rs).
Proof.
  revert k. induction rs as [|g t IH]; intros k; [split; constructor|]. cbn [length seq combine map fst snd rg_index]. destruct (IH (S k)) as (A & B). split; [constructor; [repeat split|exact A]|]. f_equal. exact B.
Qed.
Lemma renumber_same rs : Forall2 same (renumber rs) rs.
Proof. apply (renumber_from 0 rs). Qed.
Lemma renumber_length rs : length (renumber rs) = length rs.
Proof. apply same_length, renumber_same. Qed.
Lemma renumber_index rs : map rg_index (renumber rs) = seq 0 (length (renumber rs)).
Proof. rewrite renumber_length. apply (renumber_from 0 rs). Qed.
Lemma renumber_indices rs : indices_ok (renumber rs).
Proof. intros g H. apply (in_map rg_index) in H. rewrite renumber_index in H. apply in_seq in H. lia. Qed.
Lemma same_in {rs rs'} : Forall2 same rs rs' -> forall g, In g rs' -> exists h, In h rs /\ same h g.
Proof. induction 1 as [|a b t t' E F IH]; intros g H; [contradiction|]. destruct H as [<-|H]; [exists a; split; [left; reflexivity|exact E]|]. destruct (IH g H) as (h & Hh & Eh). exists h. split; [right; exact Hh|exact Eh]. Qed.
Lemma same_in' {rs rs'} : Forall2 same rs rs' -> forall g, In g rs -> exists h, In h rs' /\ same g h.
Proof. induction 1 as [|a b t t' E F IH]; intros g H; [contradiction|]. destruct H as [<-|H]; [exists b; split; [left; reflexivity|exact E]|]. destruct (IH g H) as (h & Hh & Eh). exists h. split; [right; exact Hh|exact Eh]. Qed.
Lemma same_ids {rs rs'} : Forall2 same rs rs' -> map rg_id rs = map rg_id rs'.
Proof. induction 1 as [|a b t t' E F IH]; [reflexivity|]. cbn [map]. f_equal; [apply E|exact IH]. Qed.

(** ** Specification *)
(* The mesh of a process and its regions: numbering of the cells as RDyMeshCreateFromDM builds it, disjoint regions with
   distinct ids holding all owned cells, each listing the numbers of its owned cells. *)
Record mesh_good (flags : list bool) (l2o : list Z) (o2l : list nat) (rs : list region) : Prop := MeshGood {
  mg_num : exists z, number_cells flags = Some (l2o, z) /\ o2l = map Z.to_nat z;
  mg_owned : forall g, In g rs -> rg_owned g = map (fun c => nth c l2o (-1)%Z) (filter (is_owned flags) (rg_cells g));
  mg_bound : forall g c, In g rs -> In c (rg_cells g) -> c < length flags;
  mg_nodup : forall g, In g rs -> NoDup (rg_cells g);
  mg_disjoint : forall g g' c, In g rs -> In g' rs -> In c (rg_cells g) -> In c (rg_cells g') -> g = g';
  mg_ids : NoDup (map rg_id rs);
  mg_cover : forall c, owns flags c -> exists g, In g rs /\ In c (rg_cells g);
  mg_index : indices_ok rs
}.
(* A configuration that can be applied: materials given by numbers, one for each region; sources and Dirichlet conditions
   with their values; one condition per boundary, of a type that is implemented. *)
Record settings_good (se : settings) (rs : list region) (bds : list boundary) (conds : list bcond) : Prop := SettingsGood {
  sg_materials : cf_materials (se_config se) <> [];
  sg_coefficient : forall m, In m (cf_materials (se_config se)) -> mt_file m = None /\ mt_manning m <> None;
  sg_surface : forallb (region_has_material (se_config se)) rs = true;
  sg_sources : forall f, In (Some f) (se_sources se) -> fc_value f <> None;
  sg_index : map bd_index bds = seq 0 (length bds);
  sg_conds : length conds = length bds;
  sg_conditions : length (se_conditions se) = length bds;
  sg_match : forall i c, nth_error (se_conditions se) i = Some c -> exists cd, nth_error conds i = Some cd /\ bc_flow cd = Some (fc_type (bc_flow_ c));
  sg_types : forall c, In c (se_conditions se) -> In (fc_type (bc_flow_ c)) [CONDITION_DIRICHLET; CONDITION_REFLECTING; CONDITION_CRITICAL_OUTFLOW];
  sg_values : forall c k, In c (se_conditions se) -> fc_type (bc_flow_ c) = CONDITION_DIRICHLET -> flow_entry (bc_flow_ c) k <> None
}.

(** ** The mesh *)
Lemma numbers_of flags l2o z : number_cells flags = Some (l2o, z) -> length l2o = length flags /\ length z = num_owned flags /\
  (forall c, owns flags c -> nth_error l2o c = Some (Z.of_nat (before (is_owned flags) c)) /\ nth_error z (before (is_owned flags) c) = Some (Z.of_nat c)).
Proof.
  intros E. destruct (number_cells_spec flags) as (a & b & E' & A & B & C & _). rewrite E in E'. injection E' as <- <-. split; [exact A|]. split; [exact B|]. intros c Oc. apply owns_is in Oc. apply C; apply Oc.
Qed.
Lemma number_lt flags c : owns flags c -> before (is_owned flags) c < num_owned flags.
Proof. intros Oc. apply owns_is in Oc. rewrite num_owned_before. apply before_lt; apply Oc. Qed.
Lemma mesh_good_owned flags l2o o2l rs g : mesh_good flags l2o o2l rs -> In g rs -> rg_owned g = map (fun c => Z.of_nat (before (is_owned flags) c)) (filter (is_owned flags) (rg_cells g)).
Proof.
  intros M Hg. rewrite (mg_owned _ _ _ _ M g Hg). apply map_ext_in. intros c Hc. apply filter_In in Hc. destruct (mg_num _ _ _ _ M) as (z & E & _). destruct (numbers_of _ _ _ E) as (_ & _ & N).
  destruct (N c) as (X & _); [apply owns_is; split; [apply (mg_bound _ _ _ _ M g c Hg), Hc|apply Hc]|]. apply nth_error_nth with (d := (-1)%Z) in X. exact X.
Qed.
Lemma mesh_good_in flags l2o o2l rs g k : mesh_good flags l2o o2l rs -> In g rs -> In (Z.of_nat k) (rg_owned g) <-> exists c, In c (rg_cells g) /\ owns flags c /\ k = before (is_owned flags) c.
Proof.
  intros M Hg. rewrite (mesh_good_owned _ _ _ _ g M Hg). rewrite in_map_iff. split.
  - intros (c & E & Hc). apply filter_In in Hc. exists c. split; [apply Hc|]. split; [apply owns_is; split; [apply (mg_bound _ _ _ _ M g c Hg), Hc|apply Hc]|]. apply Nat2Z.inj in E. congruence.
  - intros (c & Hc & Oc & ->). exists c. split; [reflexivity|]. apply filter_In. split; [exact Hc|]. apply owns_is in Oc. apply Oc.
Qed.
Lemma mesh_good_region_owned flags l2o o2l rs g : mesh_good flags l2o o2l rs -> In g rs -> NoDup (rg_owned g) /\ in_range (num_owned flags) (rg_owned g).
Proof.
  intros M Hg. rewrite (mesh_good_owned _ _ _ _ g M Hg). split.
  - assert (ND := mg_nodup _ _ _ _ M g Hg). assert (B : forall c, In c (filter (is_owned flags) (rg_cells g)) -> is_owned flags c = true) by (intros c Hc; apply filter_In in Hc; apply Hc).
    apply (NoDup_filter (is_owned flags)) in ND. revert ND B. induction (filter (is_owned flags) (rg_cells g)) as [|a l IH]; intros ND B; [constructor|]. inversion_clear ND as [|? ? N1 N2]. cbn [map]. constructor; [|apply IH; [exact N2|intros; apply B; right; assumption]].
    intros X. apply in_map_iff in X. destruct X as (c & E & Hc). apply Nat2Z.inj in E. apply N1. rewrite <- (before_inj (is_owned flags) c a); [exact Hc|apply B; right; exact Hc|apply B; left; reflexivity|exact E].
  - intros z Hz. apply in_map_iff in Hz. destruct Hz as (c & <- & Hc). apply filter_In in Hc. assert (owns flags c) by (apply owns_is; split; [apply (mg_bound _ _ _ _ M g c Hg), Hc|apply Hc]). assert (X := number_lt flags c H). lia.
Qed.
Lemma nodup_map_eq {A B} (f : A -> B) l a b : NoDup (map f l) -> In a l -> In b l -> f a = f b -> a = b.
Proof.
  induction l as [|x t IH]; intros N Ha Hb E; [contradiction|]. cbn [map] in N. inversion_clear N as [|? ? N1 N2]. destruct Ha as [<-|Ha], Hb as [<-|Hb]; [reflexivity| | |exact (IH N2 Ha Hb E)]; exfalso; apply N1.
  - rewrite E. apply in_map, Hb.
  - rewrite <- E. apply in_map, Ha.
Qed.
Lemma mesh_good_disjoint flags l2o o2l rs : mesh_good flags l2o o2l rs -> disjoint_regions (renumber rs).
Proof.
  intros M g g' z Hg Hg' Hz Hz'. assert (F := renumber_same rs). destruct (same_in' F g Hg) as (h & Hh & E). destruct (same_in' F g' Hg') as (h' & Hh' & E').
  assert (N : NoDup (map rg_id (renumber rs))) by (rewrite (same_ids F); apply (mg_ids _ _ _ _ M)). apply (nodup_map_eq rg_id (renumber rs)); [exact N|exact Hg|exact Hg'|].
  destruct E as (Ei & _ & _ & Eo). destruct E' as (Ei' & _ & _ & Eo'). rewrite Ei, Ei'. rewrite Eo in Hz. rewrite Eo' in Hz'.
  assert (Hz0 := proj2 (mesh_good_region_owned _ _ _ _ h M Hh) z Hz). replace z with (Z.of_nat (Z.to_nat z)) in Hz, Hz' by lia.
  apply (mesh_good_in _ _ _ _ h _ M Hh) in Hz. apply (mesh_good_in _ _ _ _ h' _ M Hh') in Hz'. destruct Hz as (c & Hc & Oc & Ec). destruct Hz' as (c' & Hc' & Oc' & Ec').
  assert (c = c'). { apply owns_is in Oc, Oc'. apply (before_inj (is_owned flags)); [apply Oc|apply Oc'|congruence]. } subst c'. rewrite (mg_disjoint _ _ _ _ M h h' c Hh Hh' Hc Hc'). reflexivity.
Qed.

(** ** What the configuration makes of a new operator *)
Definition last_material (cf : config) : option material := last (map Some (cf_materials cf)) None.
Definition region_water (se : settings) (g : region) : option R := match source_at 0 (se_sources se) (rg_id g) with Some v => v | None => Some 0%R end.
Definition last_coefficient (se : settings) : option R := let* m := last_material (se_config se) in mt_manning m.
Definition boundary_value (c : boundary_conditions) (k : nat) : option R :=
  match fc_type (bc_flow_ c) with CONDITION_DIRICHLET => if k <? 3 then flow_entry (bc_flow_ c) k else Some 0%R | _ => Some 0%R end.
Lemma combine_nth {A B} (l : list A) (l' : list B) i a b : nth_error (combine l l') i = Some (a, b) <-> nth_error l i = Some a /\ nth_error l' i = Some b.
Proof.
  revert l' i. induction l as [|x t IH]; intros [|y t'] [|i]; cbn; try (split; [discriminate|intros (X & Y); discriminate]); [|apply IH].
  split; [intros [= -> ->]; auto|intros ([= ->] & [= ->]); reflexivity].
Qed.
Lemma nth_error_repeat_lt {A} (x : A) n i : i < n -> nth_error (repeat x n) i = Some x.
Proof. revert i. induction n as [|n IH]; intros [|i] H; cbn; try lia; [reflexivity|apply IH; lia]. Qed.
Lemma configure_spec se flags l2o o2l st0 rs bds : mesh_good flags l2o o2l rs -> settings_good se rs bds (r_conds st0) ->
  r_ncomp st0 = 3 + r_classes st0 + (if r_salinity st0 then 1 else 0) + (if r_heat st0 then 1 else 0) ->
  exists st, configure se flags l2o (new_operator st0 (num_owned flags) rs bds) = Ret st /\
    new_operator st (num_owned flags) rs bds = new_operator st0 (num_owned flags) rs bds /\ r_ncomp st = r_ncomp st0 /\ r_regions st = rs /\ r_boundaries st = bds /\ r_conds st = r_conds st0 /\
    r_owned st = num_owned flags /\
    (forall g c k, In g rs -> In c (rg_cells g) -> owns flags c -> nth_error l2o c = Some (Z.of_nat k) ->
      value st (Source k 0) = region_water se g /\ (forall j, 0 < j < r_ncomp st0 -> value st (Source k j) = Some 0%R) /\ value st (Manning k) = last_coefficient se) /\
    (forall i b c e k, nth_error bds i = Some b -> nth_error (se_conditions se) i = Some c -> e < length (bd_edges b) -> k < r_ncomp st0 -> value st (BoundaryValue i e k) = boundary_value c k).
Proof.
  intros M G NC. set (fresh := new_operator st0 (num_owned flags) rs bds). unfold configure.
  assert (MP : mesh_part flags l2o rs) by (destruct (mg_num _ _ _ _ M) as (z & E & _); constructor; [exists z; exact E|apply (mg_bound _ _ _ _ M)|apply (mg_nodup _ _ _ _ M)|apply (mg_disjoint _ _ _ _ M)]).
  destruct (exists_last (sg_materials _ _ _ _ G)) as (ms & m & Em).
  assert (LC : last_coefficient se = mt_manning m) by (unfold last_coefficient, last_material; rewrite Em, map_app; cbn [map]; rewrite last_last; reflexivity).
  assert (Fm : mt_file m = None) by (apply (sg_coefficient _ _ _ _ G); rewrite Em; apply in_or_app; right; left; reflexivity).
  destruct (last_material_everywhere (se_config se) flags l2o rs (r_mat fresh) ms m MP Em (sg_surface _ _ _ _ G)) as (mat & Ema & Lma & Wma).
  { apply repeat_length. }
  { intros m' g i Hm _ _. unfold coefficient. destruct (sg_coefficient _ _ _ _ G m' Hm) as (-> & X). exact X. }
  assert (Lmat : length mat = num_owned flags) by (rewrite Lma; apply repeat_length).
  change (r_regions fresh) with rs. rewrite Ema. cbn [rbind]. change (r_boundaries fresh) with bds. rewrite (sg_conditions _ _ _ _ G). rewrite Nat.ltb_irrefl.
  set (stn := with_regions (with_mat fresh mat) (renumber rs)).
  assert (F := renumber_same rs).
  assert (U : set_up stn).
  { unfold set_up. cbn [stn with_regions with_mat fresh new_operator r_ncomp r_classes r_salinity r_heat r_src r_owned r_mat r_regions r_boundaries r_conds r_bvals].
    split; [exact NC|]. split; [apply repeat_length|]. split; [exact Lmat|]. split; [apply renumber_index|]. split; [rewrite (same_ids F); apply (mg_ids _ _ _ _ M)|].
    split; [intros g Hg; destruct (same_in' F g Hg) as (h & Hh & (_ & _ & _ & ->)); apply (mesh_good_region_owned _ _ _ _ h M Hh)|].
    split; [apply (sg_index _ _ _ _ G)|]. split; [apply (sg_conds _ _ _ _ G)|]. split; [apply map_length|]. split.
    - intros i bd d Hb Hd. rewrite nth_error_map, Hb in Hd. injection Hd as <-. apply repeat_length.
    - intros cd Hcd. apply In_nth_error in Hcd. destruct Hcd as (i & Hi). assert (Li : i < length (se_conditions se)) by (rewrite (sg_conditions _ _ _ _ G), <- (sg_conds _ _ _ _ G); apply nth_error_Some; congruence).
      destruct (nth_error (se_conditions se) i) as [c|] eqn:Ec; [|apply nth_error_None in Ec; lia]. destruct (sg_match _ _ _ _ G i c Ec) as (cd' & E' & Fl). congruence. }
  assert (Idx : forall i b, nth_error bds i = Some b -> bd_index b = i).
  { intros i b Hb. assert (X := map_nth_error bd_index i bds Hb). rewrite (sg_index _ _ _ _ G) in X. assert (Li : i < length bds) by (apply nth_error_Some; congruence). rewrite (nth_error_nth' _ 0) in X by (rewrite seq_length; exact Li). rewrite seq_nth in X by exact Li. cbn in X. congruence. }
  assert (InC : forall b c, In (b, c) (combine bds (se_conditions se)) -> exists i, nth_error bds i = Some b /\ nth_error (se_conditions se) i = Some c /\ bd_index b = i).
  { intros b c H. apply In_nth_error in H. destruct H as (i & Hi). apply combine_nth in Hi. exists i. split; [apply Hi|]. split; [apply Hi|]. apply Idx, Hi. }
  destruct (C36_dirichlet_values_applied (combine bds (se_conditions se)) stn U) as (st1 & E1 & U1 & V1 & Fr1).
  { split.
    - assert (X : map (fun bc : boundary * boundary_conditions => bd_index (fst bc)) (combine bds (se_conditions se)) = map bd_index bds).
      { assert (L := sg_conditions _ _ _ _ G). revert L. generalize (se_conditions se). induction bds as [|b t IH]; intros [|c t'] L; cbn in *; try lia; [reflexivity|]. f_equal.
        clear - L. revert t' L. induction t as [|b t IH]; intros [|c t'] L; cbn in *; try lia; [reflexivity|]. f_equal. apply IH. lia. }
      rewrite X, (sg_index _ _ _ _ G). apply seq_NoDup.
    - intros b c H. destruct (InC b c H) as (i & Hb & Hc & Ei). rewrite Ei. split; [exact Hb|]. exact (sg_match _ _ _ _ G i c Hc). }
  { intros b c H. destruct (InC b c H) as (i & Hb & Hc & Ei). apply (sg_types _ _ _ _ G). eapply nth_error_In. exact Hc. }
  { intros b c k H Hd. destruct (InC b c H) as (i & Hb & Hc & Ei). apply (sg_values _ _ _ _ G); [eapply nth_error_In; exact Hc|exact Hd]. }
  change (with_mat fresh mat) with (with_regions stn rs). rewrite dirichlet_regions, E1. cbn [omapst result_of rbind].
  assert (P1 := dirichlet_params _ _ _ E1). assert (R1 : r_regions st1 = renumber rs) by (rewrite P1; reflexivity).
  destruct (apply_sources_spec (se_sources se) 0 st1 U1) as (st2 & E2 & U2 & Pm & W2 & Fr2).
  { rewrite R1. apply (mesh_good_disjoint _ _ _ _ M). }
  { apply (sg_sources _ _ _ _ G). }
  unfold InitSourceConditions. rewrite (sources_regions (renumber rs) rs F (renumber_indices rs) (mg_index _ _ _ _ M)).
  replace (with_regions st1 (renumber rs)) with st1 by (rewrite P1; reflexivity). rewrite E2. cbn [omapst result_of].
  assert (P2 := sources_params _ _ _ _ E2). exists (with_regions st2 rs). split; [reflexivity|].
  assert (Pf : new_operator (with_regions st2 rs) (num_owned flags) rs bds = fresh /\ r_ncomp (with_regions st2 rs) = r_ncomp st0 /\ r_regions (with_regions st2 rs) = rs /\ r_boundaries (with_regions st2 rs) = bds /\ r_conds (with_regions st2 rs) = r_conds st0 /\ r_owned (with_regions st2 rs) = num_owned flags)
    by (rewrite P2, P1; repeat split).
  split; [apply Pf|]. split; [apply Pf|]. split; [apply Pf|]. split; [apply Pf|]. split; [apply Pf|]. split; [apply Pf|].
  assert (Vr : forall s, value (with_regions st2 rs) s = value st2 s) by (intros [?|?|?]; reflexivity).
  split.
  - intros g c k Hg Hc Oc Ek. destruct (mg_num _ _ _ _ M) as (z & Ez & _). destruct (numbers_of _ _ _ Ez) as (_ & _ & N). destruct (N c Oc) as (Nc & _). assert (Kk : k = before (is_owned flags) c) by (rewrite Ek in Nc; injection Nc as Nc; apply Nat2Z.inj in Nc; exact Nc).
    assert (Lk : k < num_owned flags) by (rewrite Kk; apply number_lt, Oc). rewrite !Vr.
    assert (V0 : forall j, j < r_ncomp st0 -> value st1 (Source k j) = Some 0%R).
    { intros j Hj. rewrite Fr1 by (intros; discriminate). unfold value. cbn [stn with_regions with_mat fresh new_operator r_ncomp r_src]. rewrite (proj2 (Nat.ltb_lt _ _) Hj). apply nth_error_repeat_lt. nia. }
    destruct (same_in F g Hg) as (h & Hh & (Eid & _ & _ & Eow)).
    assert (Hin : In (Z.of_nat k) (rg_owned h)) by (rewrite Eow; apply (mesh_good_in _ _ _ _ g k M Hg); exists c; auto).
    split; [|split].
    + rewrite (W2 h k) by (first [rewrite R1; exact Hh|exact Hin]). rewrite Eid, V0 by lia. reflexivity.
    + intros j Hj. rewrite Vr, Fr2 by (intros cell [= _ X]; lia). apply V0. lia.
    + rewrite Fr2 by (intros; discriminate). rewrite Fr1 by (intros; discriminate). cbn [value stn with_regions with_mat r_mat]. rewrite LC. apply In_nth_error in Hc. destruct Hc as (i & Hi). rewrite (Wma g i c k Hg Hi Oc Ek). unfold coefficient. rewrite Fm. reflexivity.
  - intros i b c e k Hb Hc He Hk. rewrite Vr, Fr2 by (intros; discriminate). assert (Ei := Idx i b Hb). assert (Hin : In (b, c) (combine bds (se_conditions se))) by (apply (nth_error_In _ i); apply combine_nth; auto).
    assert (V0 : value stn (BoundaryValue i e k) = Some 0%R).
    { unfold value. cbn [stn with_regions with_mat fresh new_operator r_ncomp r_bvals]. rewrite nth_error_map, Hb. cbn [option_map obind]. rewrite (proj2 (Nat.ltb_lt _ _) Hk). apply nth_error_repeat_lt. nia. }
    assert (Other : fc_type (bc_flow_ c) <> CONDITION_DIRICHLET \/ 3 <= k -> value st1 (BoundaryValue i e k) = Some 0%R).
    { intros O. rewrite Fr1; [exact V0|]. intros b0 c0 e0 k0 H0 Hd0 Hk0 [= X1 X2 X3]. destruct (InC b0 c0 H0) as (i0 & Hb0 & Hc0 & Ei0). destruct O as [O|O]; [|lia]. apply O. assert (i0 = i) by congruence. subst i0. congruence. }
    unfold boundary_value. destruct (fc_type (bc_flow_ c)) eqn:Et; try (apply Other; left; congruence). destruct (Nat.ltb_spec k 3) as [K|K]; [|apply Other; right; lia]. rewrite <- Ei. apply (V1 b c e k Hin Et He K).
Qed.
