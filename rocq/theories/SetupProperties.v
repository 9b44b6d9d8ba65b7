(** C34, C35, C36, C57: what setup assigns to regions and boundaries. *)
From Verif Require Import Base MeshMapsModel MeshMapsProofs MeshMapsProperties DataModel DataProofs DataProperties SetupModel SetupProofs.
From Coq Require Import String.
Local Open Scope nat_scope.
Local Notation length := List.length.
Local Notation concat := List.concat.

(** ** Specification: what the configuration prescribes *)
Definition lookup {A} (nm : A -> string) (l : list A) (s : string) : option A := find (fun a => String.eqb (nm a) s) l.
(* the entry for the region in the list of initial conditions, and the conditions it names *)
Definition initial_entry (cf : config) (g : region) : option region_spec := lookup rs_region (cf_initial cf) (name_of (rg_name g)).
Definition initial_flow (cf : config) (g : region) : option flow_condition := let* s := initial_entry cf g in lookup fc_name (cf_flow cf) (rs_flow s).
Definition initial_sediment (cf : config) (g : region) : option sediment_condition := let* s := initial_entry cf g in lookup sc_name (cf_sediment cf) (rs_sediment s).
Definition initial_salinity (cf : config) (g : region) : option scalar_condition := let* s := initial_entry cf g in lookup kc_name (cf_salinity cf) (rs_salinity s).
Definition initial_temperature (cf : config) (g : region) : option scalar_condition := let* s := initial_entry cf g in lookup kc_name (cf_temperature cf) (rs_temperature s).
(* the value prescribed for entry [k] of the row of local cell [c] of region [g]: from the file if there is one, else
   from the expression *)
Definition prescribed (cf : config) (g : region) (c k : nat) : option R :=
  if Nat.ltb k 3 then
    let* f := initial_flow cf g in
    match fc_file f with Some d => nth_error d (3 * c + k) | None => match k with 0 => fc_height f | 1 => fc_xmom f | _ => fc_ymom f end end
  else if Nat.ltb k (3 + cf_classes cf) then
    let* f := initial_sediment cf g in let* cl := nth_error (sc_classes f) (k - 3) in
    match fst cl with Some d => nth_error d c | None => snd cl end
  else
    let* f := (if (cf_has_salinity cf && Nat.eqb k (3 + cf_classes cf))%bool then initial_salinity cf g else initial_temperature cf g) in
    match kc_file f with Some d => nth_error d c | None => kc_value f end.

(** ** Lemmas *)
Lemma lookup_find_named {A} (nm : A -> string) l s : lookup nm l s = find_named nm l s.
Proof. unfold lookup. induction l as [|a t IH]; cbn; [reflexivity|]. destruct (String.eqb (nm a) s); [reflexivity|exact IH]. Qed.

Lemma find_unchecked_Ret {A} (nm : A -> string) ok l s r : find_unchecked nm ok l s = Ret r -> exists a, r = Some a /\ lookup nm l s = Some a.
Proof.
  unfold find_unchecked, check. destruct (negb (empty_name s)); [|discriminate]. rewrite <- lookup_find_named. destruct (lookup nm l s) as [a|]; cbn; [|discriminate]. destruct (ok a); [|discriminate]. intros [= <-]. eauto.
Qed.
Lemma region_initial_Ret cf g cd : region_initial cf g = Ret cd ->
  initial_flow cf g = Some (cd_flow cd) /\ fc_type (cd_flow cd) = CONDITION_DIRICHLET /\
  (if Nat.ltb 0 (cf_classes cf) then exists f, cd_sediment cd = Some f /\ initial_sediment cf g = Some f else cd_sediment cd = None) /\
  (if cf_has_salinity cf then exists f, cd_salinity cd = Some f /\ initial_salinity cf g = Some f else cd_salinity cd = None) /\
  (if cf_has_heat cf then exists f, cd_temperature cd = Some f /\ initial_temperature cf g = Some f else cd_temperature cd = None).
Proof.
  unfold region_initial, initial_flow, initial_sediment, initial_salinity, initial_temperature, initial_entry. rewrite <- lookup_find_named. destruct (lookup rs_region (cf_initial cf) (name_of (rg_name g))) as [s|]; [|discriminate]. cbn [obind].
  unfold check. destruct (negb (empty_name (rs_flow s))); [|discriminate]. rewrite <- lookup_find_named. destruct (lookup fc_name (cf_flow cf) (rs_flow s)) as [f|]; [|discriminate].
  destruct (is_dirichlet (fc_type f)) eqn:Ty; [|discriminate].
  destruct (if Nat.ltb 0 (cf_classes cf) then find_unchecked sc_name (fun c => is_dirichlet (sc_type c)) (cf_sediment cf) (rs_sediment s) else Ret None) as [sed| |] eqn:Es; cbn [rbind]; try discriminate.
  destruct (if cf_has_salinity cf then find_unchecked kc_name (fun c => is_dirichlet (kc_type c)) (cf_salinity cf) (rs_salinity s) else Ret None) as [sal| |] eqn:El; cbn [rbind]; try discriminate.
  destruct (if cf_has_heat cf then find_unchecked kc_name (fun _ => true) (cf_temperature cf) (rs_temperature s) else Ret None) as [tmp| |] eqn:Et; cbn [rbind]; try discriminate.
  intros [= <-]. cbn [cd_flow cd_sediment cd_salinity cd_temperature]. split; [reflexivity|]. split; [destruct (fc_type f); try discriminate; reflexivity|]. split; [|split].
  - destruct (Nat.ltb 0 (cf_classes cf)); [exact (find_unchecked_Ret _ _ _ _ _ Es)|congruence].
  - destruct (cf_has_salinity cf); [exact (find_unchecked_Ret _ _ _ _ _ El)|congruence].
  - destruct (cf_has_heat cf); [exact (find_unchecked_Ret _ _ _ _ _ Et)|congruence].
Qed.
Lemma lookup_in {A} (nm : A -> string) l s a : lookup nm l s = Some a -> In a l /\ nm a = s.
Proof. rewrite lookup_find_named. apply find_named_spec. Qed.

Lemma combine_in {A B} (l : list A) (m : list B) a b : In (a, b) (combine l m) -> exists i, nth_error l i = Some a /\ nth_error m i = Some b.
Proof.
  revert m. induction l as [|x t IH]; intros [|y m] H; cbn in H; try contradiction. destruct H as [[= <- <-]|H]; [exists 0; split; reflexivity|].
  destruct (IH m H) as (i & P & Q). exists (S i). split; assumption.
Qed.
Lemma in_combine_nth {A B} (l : list A) (m : list B) i a b : nth_error l i = Some a -> nth_error m i = Some b -> In (a, b) (combine l m).
Proof. revert m i. induction l as [|x t IH]; intros [|y m] [|i] P Q; cbn in *; try discriminate; [left; congruence|right; eapply IH; eassumption]. Qed.
Lemma all_equal_short {A} (l : list A) : NoDup l -> (forall a b, In a l -> In b l -> a = b) -> length l <= 1.
Proof.
  intros ND H. destruct l as [|a [|b t]]; cbn; [lia|lia|]. exfalso. inversion ND as [|x y Nx _]; subst. apply Nx. left. apply H; cbn; auto.
Qed.
Lemma NoDup_map_filter {A B} (f : A -> B) (p : A -> bool) l : NoDup (map f l) -> NoDup (map f (filter p l)).
Proof.
  induction l as [|a t IH]; cbn; [auto|]. intros ND. inversion ND as [|x y Nx ND']; subst. destruct (p a); [|auto]. cbn. constructor; [|auto].
  intros H. apply Nx. apply in_map_iff in H. destruct H as (b & E & Hb). apply filter_In in Hb. rewrite <- E. apply in_map, Hb.
Qed.
Lemma map_fst_combine {A B} (l : list A) (m : list B) : length m = length l -> map fst (combine l m) = l.
Proof. revert m. induction l as [|a t IH]; intros [|b m] H; cbn in *; try discriminate; [reflexivity|]. f_equal. apply IH. lia. Qed.

Section Initial.
  Variables (cf : config) (owned : list bool) (l2o : list Z) (rs : list region) (cds : list conditions).
  Hypothesis M : mesh_ok owned l2o rs.
  Hypothesis IC : InitInitialConditions cf rs = Ret cds.
  Local Notation rcs := (combine rs cds).

  Lemma cds_length : length cds = length rs. Proof. exact (proj1 (rmap_Ret _ _ _ IC)). Qed.
  Lemma rc_initial g cd : In (g, cd) rcs -> In g rs /\ region_initial cf g = Ret cd.
  Proof. intros H. apply combine_in in H. destruct H as (i & P & Q). split; [eapply nth_error_In; exact P|]. exact (proj2 (rmap_Ret _ _ _ IC) i g cd P Q). Qed.
  Lemma rc_exists g : In g rs -> exists cd, In (g, cd) rcs.
  Proof.
    intros H. apply In_nth_error in H. destruct H as (i & P). destruct (nth_error cds i) as [cd|] eqn:Q; [exists cd; exact (in_combine_nth _ _ _ _ _ P Q)|].
    apply nth_error_None in Q. rewrite cds_length in Q. assert (i < length rs) by (apply nth_error_Some; congruence). lia.
  Qed.
  Lemma rc_unique g cd g' cd' c : In (g, cd) rcs -> In (g', cd') rcs -> In c (rg_cells g) -> In c (rg_cells g') -> g = g' /\ cd = cd'.
  Proof.
    intros H H' Hc Hc'. apply combine_in in H, H'. destruct H as (i & P & Q), H' as (j & P' & Q').
    assert (E : g = g') by (eapply (mo_disjoint _ _ _ M); [eapply nth_error_In; exact P|eapply nth_error_In; exact P'|exact Hc|exact Hc']).
    assert (i = j) by (eapply region_by_index; [exact (mo_index _ _ _ M)|exact P|exact P'|exact E]). split; [exact E|]. congruence.
  Qed.
  Lemma users_nodup uses : NoDup (users uses rcs).
  Proof.
    unfold users. apply NoDup_map_filter. rewrite map_fst_combine by exact cds_length.
    apply (NoDup_map_inv rg_index). rewrite (mo_index _ _ _ M). apply seq_NoDup.
  Qed.
  Lemma rcs_in rc : In rc rcs -> In (fst rc) rs. Proof. destruct rc as (g, cd). intros H. exact (proj1 (rc_initial g cd H)). Qed.
  Lemma row_index nc o k o' k' : k < nc -> k' < nc -> nc * o + k = nc * o' + k' -> o = o' /\ k = k'.
  Proof.
    intros Hk Hk' E. assert (A := at_inj nc (Z.of_nat o) k (Z.of_nat o') k' Hk Hk'). unfold at_ in A. destruct A as (A & B); [lia|]. split; [lia|exact B].
  Qed.
  Lemma row_bound nc o k n : k < nc -> o < n -> nc * o + k < nc * n.
  Proof. intros Hk Ho. assert (nc * S o <= nc * n) by (apply Nat.mul_le_mono_l; lia). lia. Qed.

  (* The general shape: every region has a value for each of its owned cells and some of the entries of the row;
     the writes are exactly those. *)
  Definition cell_writes (nc : nat) (val : conditions -> nat -> nat -> option R) (p : nat * R) : Prop :=
    exists g cd c o k v, In (g, cd) rcs /\ In c (rg_cells g) /\ owns owned c /\ nth_error l2o c = Some (Z.of_nat o) /\ k < nc /\ val cd c k = Some v /\ p = (nc * o + k, v).
  Lemma cell_writes_effect F nc val u : writing F (cell_writes nc val) -> length u = nc * num_owned owned ->
    exists u', F u = Some u' /\ length u' = length u /\
      forall g cd c o k v, In (g, cd) rcs -> In c (rg_cells g) -> owns owned c -> nth_error l2o c = Some (Z.of_nat o) -> k < nc -> val cd c k = Some v -> nth_error u' (nc * o + k) = Some v.
  Proof.
    intros W L. destruct (writing_effect _ _ u W) as (u' & E & L' & Wr & _).
    - intros i v v' (g & cd & c & o & k & w & H1 & H2 & H3 & H4 & H5 & H6 & [= -> <-]) (g' & cd' & c' & o' & k' & w' & H1' & H2' & H3' & H4' & H5' & H6' & [= Ei <-]).
      destruct (row_index nc o k o' k' H5 H5' Ei) as (<- & <-). assert (c = c') by (eapply (l2o_inj owned l2o rs); eassumption). subst c'.
      destruct (rc_unique g cd g' cd' c H1 H1' H2 H2') as (_ & <-). congruence.
    - intros i v (g & cd & c & o & k & w & H1 & H2 & H3 & H4 & H5 & H6 & [= -> <-]). rewrite L. apply row_bound; [exact H5|].
      destruct (l2o_owned owned l2o rs c M H3) as (o' & E & Lo). rewrite H4 in E. injection E as E. apply Nat2Z.inj in E. lia.
    - exists u'. split; [exact E|]. split; [exact L'|]. intros g cd c o k v H1 H2 H3 H4 H5 H6. apply Wr. exists g, cd, c, o, k, v. auto 10.
  Qed.

  (** *** Flow *)
  Hypothesis Uflow : NoDup (map fc_name (cf_flow cf)).
  Hypothesis Sflow : forall g g' f, In g rs -> In g' rs -> initial_flow cf g = Some f -> initial_flow cf g' = Some f -> fc_file f <> None -> g = g'.
  Definition flow_value (cd : conditions) (c k : nat) : option R := given (fc_file (cd_flow cd)) [fc_height (cd_flow cd); fc_xmom (cd_flow cd); fc_ymom (cd_flow cd)] 3 c k.
  Hypothesis Dflow : forall g cd c k, In (g, cd) rcs -> In c (rg_cells g) -> owns owned c -> k < 3 -> flow_value cd c k <> None.

  Lemma flow_in g cd : In (g, cd) rcs -> In (cd_flow cd) (cf_flow cf).
  Proof.
    intros H. apply rc_initial in H. destruct H as (_ & H). apply region_initial_Ret in H. destruct H as (H & _). unfold initial_flow in H. destruct (initial_entry cf g); [|discriminate]. cbn [obind] in H. apply lookup_in in H. apply H.
  Qed.
  Lemma flow_user g f : In f (cf_flow cf) -> In g (users (fun rc => Some (String.eqb (fc_name (cd_flow (snd rc))) (fc_name f))) rcs) -> exists cd, In (g, cd) rcs /\ cd_flow cd = f.
  Proof.
    intros Hf H. apply users_in in H. destruct H as (cd & H & E). cbn [snd] in E. injection E as E. apply String.eqb_eq in E. exists cd. split; [exact H|].
    exact (name_unique fc_name _ _ _ Uflow (flow_in g cd H) Hf E).
  Qed.
  Lemma init_flow_writing : writing (fun u => ofold (fun u f => fill_regions owned l2o 3 0 0 3 (fc_file f) [fc_height f; fc_xmom f; fc_ymom f] (fun rc => Some (String.eqb (fc_name (cd_flow (snd rc))) (fc_name f))) rcs u) (cf_flow cf) u)
    (cell_writes 3 flow_value).
  Proof.
    apply (writing_loop (fun f => region_writes owned l2o 3 0 0 3 (fc_file f) [fc_height f; fc_xmom f; fc_ymom f] (users (fun rc => Some (String.eqb (fc_name (cd_flow (snd rc))) (fc_name f))) rcs))).
    - intros f Hf. apply (fill_regions_writing owned l2o rs); [exact M|exact rcs_in|discriminate|reflexivity| |].
      + intros g c k Hg Hc Oc Hk. destruct (flow_user g f Hf Hg) as (cd & Hcd & <-). exact (Dflow g cd c k Hcd Hc Oc Hk).
      + destruct (fc_file f) as [d|] eqn:Ef; [right|left; reflexivity]. apply all_equal_short; [apply users_nodup|].
        intros a b Ha Hb. destruct (flow_user a f Hf Ha) as (cda & Hcda & Ea), (flow_user b f Hf Hb) as (cdb & Hcdb & Eb).
        apply rc_initial in Hcda, Hcdb. destruct Hcda as (Ra & Ia), Hcdb as (Rb & Ib). apply region_initial_Ret in Ia, Ib.
        apply (Sflow a b f Ra Rb); [rewrite (proj1 Ia), Ea; reflexivity|rewrite (proj1 Ib), Eb; reflexivity|congruence].
    - intros p. split.
      + intros (f & Hf & g & c & o & k & v & Hg & Hc & Oc & Eo & Hk & Ev & ->). destruct (flow_user g f Hf Hg) as (cd & Hcd & <-). exists g, cd, c, o, k, v.
        do 6 (split; [assumption|]). destruct (fc_file (cd_flow cd)); reflexivity.
      + intros (g & cd & c & o & k & v & Hcd & Hc & Oc & Eo & Hk & Ev & ->). exists (cd_flow cd). split; [exact (flow_in g cd Hcd)|]. exists g, c, o, k, v.
        split; [apply users_in; exists cd; cbn [snd]; rewrite String.eqb_refl; auto|]. do 5 (split; [assumption|]). destruct (fc_file (cd_flow cd)); reflexivity.
  Qed.

  (** *** Tracers *)
  Hypothesis Used : (cf_has_salinity cf = false -> cf_salinity cf = []) /\ (cf_has_heat cf = false -> cf_temperature cf = []).
  Hypothesis Utr : NoDup (map sc_name (cf_sediment cf)) /\ NoDup (map kc_name (cf_salinity cf)) /\ NoDup (map kc_name (cf_temperature cf)).
  (* expressions only where component 0 is the right one *)
  Hypothesis Const : (forall f, In f (cf_salinity cf) -> kc_file f <> None \/ cf_classes cf = 0) /\
                     (forall f, In f (cf_temperature cf) -> kc_file f <> None \/ (cf_classes cf = 0 /\ cf_has_salinity cf = false)).
  Hypothesis Str : (forall g g' f cl, In g rs -> In g' rs -> initial_sediment cf g = Some f -> initial_sediment cf g' = Some f -> In cl (sc_classes f) -> fst cl <> None -> g = g') /\
                   (forall g g' f, In g rs -> In g' rs -> initial_salinity cf g = Some f -> initial_salinity cf g' = Some f -> kc_file f <> None -> g = g') /\
                   (forall g g' f, In g rs -> In g' rs -> initial_temperature cf g = Some f -> initial_temperature cf g' = Some f -> kc_file f <> None -> g = g').
  Definition sed_value (cd : conditions) (c k : nat) : option R :=
    if Nat.ltb k (cf_classes cf) then let* f := cd_sediment cd in let* cl := nth_error (sc_classes f) k in given (fst cl) [snd cl] 1 c 0 else None.
  Definition scal_value (sel : conditions -> option scalar_condition) (comp : nat) (cd : conditions) (c k : nat) : option R :=
    if Nat.eqb k comp then let* f := sel cd in given (kc_file f) [kc_value f] 1 c 0 else None.
  Local Notation nt := (num_tracers cf).
  Hypothesis Dsed : forall g cd c k, In (g, cd) rcs -> In c (rg_cells g) -> owns owned c -> k < cf_classes cf -> sed_value cd c k <> None.
  Hypothesis Dlen : forall f, In f (cf_sediment cf) -> length (sc_classes f) >= cf_classes cf.

  Lemma init_sediment_writing : writing (init_sediment cf owned l2o rcs) (cell_writes nt sed_value).
  Proof.
    unfold init_sediment. destruct (Nat.ltb_spec 0 (cf_classes cf)) as [Hpos|Hz].
    - assert (Sd : forall g cd, In (g, cd) rcs -> exists f, cd_sediment cd = Some f /\ In f (cf_sediment cf) /\ initial_sediment cf g = Some f).
      { intros g cd H. apply rc_initial in H. destruct H as (_ & H). apply region_initial_Ret in H. destruct H as (_ & _ & H & _). apply Nat.ltb_lt in Hpos. rewrite Hpos in H. destruct H as (f & E & I). exists f. split; [exact E|]. split; [|exact I].
        unfold initial_sediment in I. destruct (initial_entry cf g); [|discriminate]. cbn [obind] in I. apply lookup_in in I. apply I. }
      assert (User : forall g f, In f (cf_sediment cf) -> In g (users (fun rc => named sc_name (cd_sediment (snd rc)) (sc_name f)) rcs) -> exists cd, In (g, cd) rcs /\ cd_sediment cd = Some f).
      { intros g f Hf H. apply users_in in H. destruct H as (cd & H & E). cbn [snd] in E. destruct (Sd g cd H) as (f' & E' & Hf' & _). rewrite E' in E. cbn in E. injection E as E. apply String.eqb_eq in E. exists cd. split; [exact H|].
        rewrite E'. f_equal. exact (name_unique sc_name _ _ _ (proj1 Utr) Hf' Hf E). }
      apply (writing_loop (fun f p => exists k, In k (seq 0 (cf_classes cf)) /\ exists cl, nth_error (sc_classes f) k = Some cl /\ region_writes owned l2o nt k k 1 (fst cl) [snd cl] (users (fun rc => named sc_name (cd_sediment (snd rc)) (sc_name f)) rcs) p)).
      + intros f Hf. apply (writing_loop (fun k p => exists cl, nth_error (sc_classes f) k = Some cl /\ region_writes owned l2o nt k k 1 (fst cl) [snd cl] (users (fun rc => named sc_name (cd_sediment (snd rc)) (sc_name f)) rcs) p)); [|reflexivity].
        intros k Hk. apply in_seq in Hk. assert (Lk := Dlen f Hf). destruct (nth_error (sc_classes f) k) as [cl|] eqn:Ecl; [|apply nth_error_None in Ecl; lia]. cbn [obind].
        eapply writing_ext; [apply (fill_regions_writing owned l2o rs nt k k 1 (fst cl) [snd cl] (fun rc => named sc_name (cd_sediment (snd rc)) (sc_name f)) rcs M rcs_in)|reflexivity|].
        * intros (g, cd) Hrc. destruct (Sd g cd Hrc) as (f' & E' & _). cbn [snd]. rewrite E'. discriminate.
        * reflexivity.
        * intros g c k' Hg Hc Oc Hk'. destruct (User g f Hf Hg) as (cd & Hcd & Ef). assert (D := Dsed g cd c k Hcd Hc Oc ltac:(lia)). unfold sed_value in D. replace (Nat.ltb k (cf_classes cf)) with true in D by (symmetry; apply Nat.ltb_lt; lia).
          rewrite Ef in D. cbn [obind] in D. rewrite Ecl in D. cbn [obind] in D. replace k' with 0 by lia. exact D.
        * destruct (fst cl) as [d|] eqn:Efile; [right|left; reflexivity]. apply all_equal_short; [apply users_nodup|].
          intros a b Ha Hb. destruct (User a f Hf Ha) as (cda & Hcda & Ea), (User b f Hf Hb) as (cdb & Hcdb & Eb). destruct (Sd a cda Hcda) as (fa & Fa & _ & Ia), (Sd b cdb Hcdb) as (fb & Fb & _ & Ib).
          apply (proj1 Str a b f cl); [exact (rcs_in _ Hcda)|exact (rcs_in _ Hcdb)|congruence|congruence|eapply nth_error_In; exact Ecl|congruence].
        * intros p. split; [intros H; exists cl; auto|intros (cl' & [= <-] & H); exact H].
      + intros p. split.
        * intros (f & Hf & k & Hk & cl & Ecl & g & c & o & k' & v & Hg & Hc & Oc & Eo & Hk' & Ev & ->). apply in_seq in Hk. destruct (User g f Hf Hg) as (cd & Hcd & Ef). exists g, cd, c, o, k, v.
          do 4 (split; [assumption|]). split; [unfold num_tracers; lia|]. replace k' with 0 in * by lia. split; [|rewrite Nat.add_0_r; destruct (fst cl); reflexivity].
          unfold sed_value. replace (Nat.ltb k (cf_classes cf)) with true by (symmetry; apply Nat.ltb_lt; lia). rewrite Ef. cbn [obind]. rewrite Ecl. exact Ev.
        * intros (g & cd & c & o & k & v & Hcd & Hc & Oc & Eo & Hk & Ev & ->). unfold sed_value in Ev. destruct (Nat.ltb_spec k (cf_classes cf)) as [Lk|]; [|discriminate].
          destruct (Sd g cd Hcd) as (f & Ef & Hf & _). rewrite Ef in Ev. cbn [obind] in Ev. destruct (nth_error (sc_classes f) k) as [cl|] eqn:Ecl; [|discriminate]. cbn [obind] in Ev.
          exists f. split; [exact Hf|]. exists k. split; [apply in_seq; lia|]. exists cl. split; [exact Ecl|]. exists g, c, o, 0, v.
          split; [apply users_in; exists cd; split; [exact Hcd|]; cbn [snd]; rewrite Ef; cbn; rewrite String.eqb_refl; reflexivity|]. do 3 (split; [assumption|]). split; [lia|]. split; [exact Ev|]. rewrite Nat.add_0_r. destruct (fst cl); reflexivity.
    - eapply writing_ext; [exact writing_nothing|reflexivity|]. intros p. split; [contradiction|]. intros (g & cd & c & o & k & v & _ & _ & _ & _ & _ & Ev & _). unfold sed_value in Ev. destruct (Nat.ltb_spec k (cf_classes cf)); [lia|discriminate].
  Qed.

  (* one scalar quantity *)
  Lemma init_scalar_writing (l : list scalar_condition) (sel : conditions -> option scalar_condition) (init : region -> option scalar_condition) (on : bool) comp :
    (on = false -> l = []) -> comp < nt \/ on = false -> NoDup (map kc_name l) -> (forall f, In f l -> kc_file f <> None \/ comp = 0) ->
    (forall g cd, In (g, cd) rcs -> if on then exists f, sel cd = Some f /\ In f l /\ init g = Some f else sel cd = None) ->
    (forall g g' f, In g rs -> In g' rs -> init g = Some f -> init g' = Some f -> kc_file f <> None -> g = g') ->
    (on = true -> forall g cd c, In (g, cd) rcs -> In c (rg_cells g) -> owns owned c -> scal_value sel comp cd c comp <> None) ->
    writing (fun u => ofold (fun u f => fill_regions owned l2o nt comp 0 1 (kc_file f) [kc_value f] (fun rc => named kc_name (sel (snd rc)) (kc_name f)) rcs u) l u) (cell_writes nt (scal_value sel comp)).
  Proof.
    intros Hoff Hcomp Un Hconst Hsel Hs Hd. destruct on.
    - destruct Hcomp as [Hcomp|]; [|discriminate].
      assert (User : forall g f, In f l -> In g (users (fun rc => named kc_name (sel (snd rc)) (kc_name f)) rcs) -> exists cd, In (g, cd) rcs /\ sel cd = Some f).
      { intros g f Hf H. apply users_in in H. destruct H as (cd & H & E). cbn [snd] in E. destruct (Hsel g cd H) as (f' & E' & Hf' & _). rewrite E' in E. cbn in E. injection E as E. apply String.eqb_eq in E. exists cd. split; [exact H|].
        rewrite E'. f_equal. exact (name_unique kc_name _ _ _ Un Hf' Hf E). }
      apply (writing_loop (fun f => region_writes owned l2o nt comp 0 1 (kc_file f) [kc_value f] (users (fun rc => named kc_name (sel (snd rc)) (kc_name f)) rcs))).
      + intros f Hf. apply (fill_regions_writing owned l2o rs); [exact M|exact rcs_in| |reflexivity| |].
        * intros (g, cd) Hrc. destruct (Hsel g cd Hrc) as (f' & E' & _). cbn [snd]. rewrite E'. discriminate.
        * intros g c k Hg Hc Oc Hk. destruct (User g f Hf Hg) as (cd & Hcd & Ef). assert (D := Hd eq_refl g cd c Hcd Hc Oc). unfold scal_value in D. rewrite Nat.eqb_refl, Ef in D. cbn [obind] in D. replace k with 0 by lia. exact D.
        * destruct (kc_file f) as [d|] eqn:Efile; [right|left; reflexivity]. apply all_equal_short; [apply users_nodup|].
          intros a b Ha Hb. destruct (User a f Hf Ha) as (cda & Hcda & Ea), (User b f Hf Hb) as (cdb & Hcdb & Eb). destruct (Hsel a cda Hcda) as (fa & Fa & _ & Ia), (Hsel b cdb Hcdb) as (fb & Fb & _ & Ib).
          apply (Hs a b f); [exact (rcs_in _ Hcda)|exact (rcs_in _ Hcdb)|congruence|congruence|congruence].
      + intros p. split.
        * intros (f & Hf & g & c & o & k & v & Hg & Hc & Oc & Eo & Hk & Ev & ->). destruct (User g f Hf Hg) as (cd & Hcd & Ef). exists g, cd, c, o, comp, v.
          do 5 (split; [assumption|]). replace k with 0 in * by lia. split; [unfold scal_value; rewrite Nat.eqb_refl, Ef; exact Ev|]. rewrite Nat.add_0_r.
          destruct (kc_file f) eqn:Efile; [reflexivity|]. destruct (Hconst f Hf) as [H|H]; [congruence|]. rewrite H. reflexivity.
        * intros (g & cd & c & o & k & v & Hcd & Hc & Oc & Eo & Hk & Ev & ->). unfold scal_value in Ev. destruct (Nat.eqb_spec k comp) as [->|]; [|discriminate].
          destruct (Hsel g cd Hcd) as (f & Ef & Hf & _). rewrite Ef in Ev. cbn [obind] in Ev. exists f. split; [exact Hf|]. exists g, c, o, 0, v.
          split; [apply users_in; exists cd; split; [exact Hcd|]; cbn [snd]; rewrite Ef; cbn; rewrite String.eqb_refl; reflexivity|]. do 3 (split; [assumption|]). split; [lia|]. split; [exact Ev|]. rewrite Nat.add_0_r.
          destruct (kc_file f) eqn:Efile; [reflexivity|]. destruct (Hconst f Hf) as [H|H]; [congruence|]. rewrite H. reflexivity.
    - rewrite Hoff by reflexivity. eapply writing_ext; [exact writing_nothing|reflexivity|]. intros p. split; [contradiction|]. intros (g & cd & c & o & k & v & Hcd & _ & _ & _ & _ & Ev & _).
      unfold scal_value in Ev. destruct (Nat.eqb k comp); [|discriminate]. rewrite (Hsel g cd Hcd) in Ev. discriminate.
  Qed.
  Definition tracer_value (cd : conditions) (c k : nat) : option R :=
    match sed_value cd c k with Some v => Some v | None =>
    match scal_value cd_salinity (cf_classes cf) cd c k with Some v => Some v | None => scal_value cd_temperature (cf_classes cf + (if cf_has_salinity cf then 1 else 0)) cd c k end end.
  Hypothesis Dsal : cf_has_salinity cf = true -> forall g cd c, In (g, cd) rcs -> In c (rg_cells g) -> owns owned c -> scal_value cd_salinity (cf_classes cf) cd c (cf_classes cf) <> None.
  Hypothesis Dtmp : cf_has_heat cf = true -> forall g cd c, In (g, cd) rcs -> In c (rg_cells g) -> owns owned c ->
    scal_value cd_temperature (cf_classes cf + (if cf_has_salinity cf then 1 else 0)) cd c (cf_classes cf + (if cf_has_salinity cf then 1 else 0)) <> None.
  Lemma sal_none g cd c k : In (g, cd) rcs -> cf_has_salinity cf = false -> scal_value cd_salinity (cf_classes cf) cd c k = None.
  Proof.
    intros H E. apply rc_initial in H. destruct H as (_ & H). apply region_initial_Ret in H. destruct H as (_ & _ & _ & H & _). rewrite E in H. unfold scal_value. rewrite H. destruct (Nat.eqb k (cf_classes cf)); reflexivity.
  Qed.
  Lemma init_tracer_writing : writing (fun u => let* u := init_sediment cf owned l2o rcs u in let* u := init_salinity cf owned l2o rcs u in init_temperature cf owned l2o rcs u) (cell_writes nt tracer_value).
  Proof.
    set (Ws := cell_writes nt (scal_value cd_salinity (cf_classes cf))). set (Wt := cell_writes nt (scal_value cd_temperature (cf_classes cf + (if cf_has_salinity cf then 1 else 0)))).
    assert (A2 : writing (init_salinity cf owned l2o rcs) Ws). 2: assert (A3 : writing (init_temperature cf owned l2o rcs) Wt). 3: eapply writing_ext; [exact (writing_seq _ _ _ _ init_sediment_writing (writing_seq _ _ _ _ A2 A3))|reflexivity|].
    - apply (init_scalar_writing (cf_salinity cf) cd_salinity (initial_salinity cf) (cf_has_salinity cf) (cf_classes cf)); [apply (proj1 Used)| |apply Utr|apply (proj1 Const)| |apply Str|exact Dsal].
      + destruct (cf_has_salinity cf) eqn:E; [left; unfold num_tracers; rewrite E; lia|right; reflexivity].
      + intros g cd H. apply rc_initial in H. destruct H as (_ & H). apply region_initial_Ret in H. destruct H as (_ & _ & _ & H & _). destruct (cf_has_salinity cf); [|exact H]. destruct H as (f & E & I). exists f. split; [exact E|]. split; [|exact I].
        unfold initial_salinity in I. destruct (initial_entry cf g); [|discriminate]. cbn [obind] in I. apply lookup_in in I. apply I.
    - apply (init_scalar_writing (cf_temperature cf) cd_temperature (initial_temperature cf) (cf_has_heat cf) (cf_classes cf + (if cf_has_salinity cf then 1 else 0))); [apply (proj2 Used)| |apply Utr| | |apply Str|exact Dtmp].
      + destruct (cf_has_heat cf) eqn:E; [left; unfold num_tracers; rewrite E; lia|right; reflexivity].
      + intros f Hf. destruct (proj2 Const f Hf) as [H|(H & H')]; [left; exact H|right; rewrite H, H'; reflexivity].
      + intros g cd H. apply rc_initial in H. destruct H as (_ & H). apply region_initial_Ret in H. destruct H as (_ & _ & _ & _ & H). destruct (cf_has_heat cf); [|exact H]. destruct H as (f & E & I). exists f. split; [exact E|]. split; [|exact I].
        unfold initial_temperature in I. destruct (initial_entry cf g); [|discriminate]. cbn [obind] in I. apply lookup_in in I. apply I.
    - intros p. split.
      + intros [H|[H|H]]; destruct H as (g & cd & c & o & k & v & Hcd & Hc & Oc & Eo & Hk & Ev & ->); exists g, cd, c, o, k, v; do 5 (split; [assumption|]); (split; [|reflexivity]); unfold tracer_value.
        * rewrite Ev. reflexivity.
        * assert (Nk : sed_value cd c k = None). { unfold sed_value. destruct (Nat.ltb_spec k (cf_classes cf)) as [L|]; [|reflexivity]. unfold scal_value in Ev. destruct (Nat.eqb_spec k (cf_classes cf)); [lia|discriminate]. }
          rewrite Nk, Ev. reflexivity.
        * assert (Ek : k = cf_classes cf + (if cf_has_salinity cf then 1 else 0)) by (unfold scal_value in Ev; destruct (Nat.eqb_spec k (cf_classes cf + (if cf_has_salinity cf then 1 else 0))); [assumption|discriminate]).
          assert (Nk : sed_value cd c k = None) by (unfold sed_value; destruct (Nat.ltb_spec k (cf_classes cf)); [lia|reflexivity]).
          assert (Ns : scal_value cd_salinity (cf_classes cf) cd c k = None). { destruct (cf_has_salinity cf) eqn:E; [unfold scal_value; destruct (Nat.eqb_spec k (cf_classes cf)); [lia|reflexivity]|exact (sal_none g cd c k Hcd E)]. }
          rewrite Nk, Ns, Ev. reflexivity.
      + intros (g & cd & c & o & k & v & Hcd & Hc & Oc & Eo & Hk & Ev & ->). unfold tracer_value in Ev. destruct (sed_value cd c k) as [w|] eqn:E1; [injection Ev as ->; left; exists g, cd, c, o, k, v; auto 10|right].
        destruct (scal_value cd_salinity (cf_classes cf) cd c k) as [w|] eqn:E2; [injection Ev as ->; left|right]; exists g, cd, c, o, k, v; auto 10.
  Qed.

  Lemma interleave_is nc off n cells v u : interleave nc off n cells v u = put_boundary nc off n cells v u. Proof. reflexivity. Qed.
  Lemma init_solution u : length u = (3 + nt) * num_owned owned ->
    exists u', InitSolution cf owned l2o rcs u = Some u' /\ length u' = length u /\
      forall g cd c o k v, In (g, cd) rcs -> In c (rg_cells g) -> owns owned c -> nth_error l2o c = Some (Z.of_nat o) -> k < 3 + nt ->
        (if Nat.ltb k 3 then flow_value cd c k else tracer_value cd c (k - 3)) = Some v -> nth_error u' ((3 + nt) * o + k) = Some v.
  Proof.
    intros L. unfold InitSolution, InitFlowVec.
    destruct (cell_writes_effect _ 3 flow_value (repeat 0%R (3 * num_owned owned)) init_flow_writing) as (fl & Ef & Lf & Wf); [apply repeat_length|]. rewrite repeat_length in Lf.
    cbv zeta. rewrite Ef. cbn [obind]. rewrite interleave_is. destruct (put_boundary_some (3 + nt) 0 3 (num_owned owned) fl u L ltac:(lia) Lf) as (u1 & E1 & L1 & W1). rewrite E1. cbn [obind].
    assert (Tr : exists tv, InitTracerVec cf owned l2o rcs = Some tv /\ length tv = nt * num_owned owned /\
      forall g cd c o k v, In (g, cd) rcs -> In c (rg_cells g) -> owns owned c -> nth_error l2o c = Some (Z.of_nat o) -> k < nt -> tracer_value cd c k = Some v -> nth_error tv (nt * o + k) = Some v).
    { unfold InitTracerVec. destruct (Nat.eqb_spec nt 0) as [Z0|N0]; [exists []; rewrite Z0; cbn; split; [reflexivity|split; [reflexivity|lia]]|].
      destruct (cell_writes_effect _ nt tracer_value (repeat 0%R (nt * num_owned owned)) init_tracer_writing) as (tv & Et & Lt & Wt); [apply repeat_length|]. exists tv. rewrite repeat_length in Lt. auto. }
    destruct Tr as (tv & Et & Lt & Wt). rewrite Et. cbn [obind]. rewrite interleave_is. destruct (put_boundary_some (3 + nt) 3 nt (num_owned owned) tv u1 ltac:(congruence) ltac:(lia) Lt) as (u2 & E2 & L2 & W2).
    exists u2. split; [exact E2|]. split; [congruence|]. intros g cd c o k v Hcd Hc Oc Eo Hk Ev.
    assert (Lo : o < num_owned owned). { destruct (l2o_owned owned l2o rs c M Oc) as (o' & E & Lo). rewrite Eo in E. injection E as E. apply Nat2Z.inj in E. lia. }
    rewrite W2 by assumption. destruct (Nat.ltb_spec k 3) as [K|K].
    - replace (Nat.leb 3 k) with false by (symmetry; apply Nat.leb_gt; lia). cbn [andb]. rewrite W1 by assumption. replace (Nat.leb 0 k && Nat.ltb k (0 + 3))%bool with true by (symmetry; apply Bool.andb_true_iff; split; [apply Nat.leb_le|apply Nat.ltb_lt]; lia).
      rewrite Nat.sub_0_r. eapply Wf; eassumption.
    - replace (Nat.leb 3 k && Nat.ltb k (3 + nt))%bool with true by (symmetry; apply Bool.andb_true_iff; split; [apply Nat.leb_le|apply Nat.ltb_lt]; lia). eapply Wt; try eassumption. lia.
  Qed.
End Initial.

(** ** C57 *)
Definition distinct_names (cf : config) : Prop :=
  NoDup (map fc_name (cf_flow cf)) /\ NoDup (map sc_name (cf_sediment cf)) /\ NoDup (map kc_name (cf_salinity cf)) /\ NoDup (map kc_name (cf_temperature cf)).
(* no condition that reads a file is used by two regions *)
Definition one_region_per_file (cf : config) (rs : list region) : Prop :=
  forall g g', In g rs -> In g' rs ->
    (exists f, initial_flow cf g = Some f /\ initial_flow cf g' = Some f /\ fc_file f <> None) \/
    (exists f cl, initial_sediment cf g = Some f /\ initial_sediment cf g' = Some f /\ In cl (sc_classes f) /\ fst cl <> None) \/
    (exists f, initial_salinity cf g = Some f /\ initial_salinity cf g' = Some f /\ kc_file f <> None) \/
    (exists f, initial_temperature cf g = Some f /\ initial_temperature cf g' = Some f /\ kc_file f <> None) -> g = g'.
(* salinity or temperature conditions are listed only if simulated, and by expression only if there is no tracer before *)
Definition scalar_conditions_supported (cf : config) : Prop :=
  (cf_has_salinity cf = false -> cf_salinity cf = []) /\ (cf_has_heat cf = false -> cf_temperature cf = []) /\
  (forall f, In f (cf_salinity cf) -> kc_file f <> None \/ cf_classes cf = 0) /\
  (forall f, In f (cf_temperature cf) -> kc_file f <> None \/ (cf_classes cf = 0 /\ cf_has_salinity cf = false)).

Lemma given_flow f c k : k < 3 -> given (fc_file f) [fc_height f; fc_xmom f; fc_ymom f] 3 c k =
  match fc_file f with Some d => nth_error d (3 * c + k) | None => match k with 0 => fc_height f | 1 => fc_xmom f | _ => fc_ymom f end end.
Proof. intros Hk. unfold given. destruct (fc_file f); [reflexivity|]. destruct k as [|[|[|k]]]; cbn; try reflexivity; lia. Qed.
Lemma given_scalar file (v : expression) c : given file [v] 1 c 0 = match file with Some d => nth_error d c | None => v end.
Proof. unfold given. destruct file; [f_equal; lia|]. cbn. reflexivity. Qed.

Lemma prescribed_flow cf g cd c k : region_initial cf g = Ret cd -> k < 3 -> prescribed cf g c k = flow_value cd c k.
Proof.
  intros H Hk. apply region_initial_Ret in H. destruct H as (H & _). unfold prescribed, flow_value. replace (Nat.ltb k 3) with true by (symmetry; apply Nat.ltb_lt; exact Hk). rewrite H. cbn [obind]. rewrite given_flow by exact Hk. reflexivity.
Qed.
Lemma prescribed_tracer cf g cd c k : region_initial cf g = Ret cd -> k < num_tracers cf -> prescribed cf g c (3 + k) <> None -> prescribed cf g c (3 + k) = tracer_value cf cd c k.
Proof.
  intros H Hk D. apply region_initial_Ret in H. destruct H as (_ & _ & Hs & Hl & Ht). revert D. unfold prescribed. replace (Nat.ltb (3 + k) 3) with false by (symmetry; apply Nat.ltb_ge; lia). replace (3 + k - 3) with k by lia.
  replace (Nat.ltb (3 + k) (3 + cf_classes cf)) with (Nat.ltb k (cf_classes cf)) by (destruct (Nat.ltb_spec k (cf_classes cf)), (Nat.ltb_spec (3 + k) (3 + cf_classes cf)); (reflexivity || lia)).
  replace (Nat.eqb (3 + k) (3 + cf_classes cf)) with (Nat.eqb k (cf_classes cf)) by (destruct (Nat.eqb_spec k (cf_classes cf)), (Nat.eqb_spec (3 + k) (3 + cf_classes cf)); (reflexivity || lia)).
  unfold tracer_value, sed_value. destruct (Nat.ltb_spec k (cf_classes cf)) as [L|L].
  - replace (Nat.ltb 0 (cf_classes cf)) with true in Hs by (symmetry; apply Nat.ltb_lt; lia). destruct Hs as (f & Es & Ei). rewrite Es, Ei. cbn [obind].
    destruct (nth_error (sc_classes f) k) as [cl|]; cbn [obind]; [|congruence]. rewrite given_scalar. intros D. destruct (fst cl) as [d|]; [destruct (nth_error d c)|destruct (snd cl)]; congruence.
  - intros D. unfold scal_value. unfold num_tracers in Hk. destruct (cf_has_salinity cf).
    + destruct Hl as (f & Es & Ei). destruct (Nat.eqb_spec k (cf_classes cf)) as [->|Nk].
      * cbn [andb] in *. rewrite Es, Ei in *. cbn [obind] in *. rewrite given_scalar. destruct (kc_file f) as [d|]; [destruct (nth_error d c)|destruct (kc_value f)]; congruence.
      * cbn [andb]. destruct (cf_has_heat cf); [|lia]. destruct Ht as (f' & Et & Ej). replace (Nat.eqb k (cf_classes cf + 1)) with true by (symmetry; apply Nat.eqb_eq; lia). rewrite Et, Ej. cbn [obind]. rewrite given_scalar. reflexivity.
    + cbn [andb]. destruct (cf_has_heat cf); [|lia]. destruct Ht as (f' & Et & Ej). rewrite Hl. replace (Nat.eqb k (cf_classes cf)) with true by (symmetry; apply Nat.eqb_eq; lia). replace (Nat.eqb k (cf_classes cf + 0)) with true by (symmetry; apply Nat.eqb_eq; lia). cbn [obind]. rewrite Et, Ej. cbn [obind]. rewrite given_scalar. reflexivity.
Qed.

(* Each region starts from its own initial condition.  Partial: a file may be used by one region only, and constant
   salinity (temperature) is supported only if no tracer precedes it. *)
Theorem C57_regions_start_from_their_condition_partial cf owned l2o rs cds u :
  mesh_ok owned l2o rs -> InitInitialConditions cf rs = Ret cds -> distinct_names cf -> one_region_per_file cf rs -> scalar_conditions_supported cf ->
  (forall f, In f (cf_sediment cf) -> length (sc_classes f) >= cf_classes cf) ->
  (forall g c k, In g rs -> In c (rg_cells g) -> owns owned c -> k < 3 + num_tracers cf -> prescribed cf g c k <> None) ->
  length u = (3 + num_tracers cf) * num_owned owned ->
  exists u', InitSolution cf owned l2o (combine rs cds) u = Some u' /\ length u' = length u /\
    (* every owned cell belongs to a region, and its row holds what the configuration prescribes for that region *)
    forall c, c < length owned -> owns owned c -> exists g o, In g rs /\ In c (rg_cells g) /\ nth_error l2o c = Some (Z.of_nat o) /\
      forall k, k < 3 + num_tracers cf -> nth_error u' ((3 + num_tracers cf) * o + k) = prescribed cf g c k.
Proof.
  intros M IC (U1 & U2 & U3 & U4) S (V1 & V2 & V3 & V4) Ls D L.
  assert (RI : forall g cd, In (g, cd) (combine rs cds) -> In g rs /\ region_initial cf g = Ret cd) by (intros; eapply rc_initial; eassumption).
  assert (TV : forall g cd c k, In (g, cd) (combine rs cds) -> In c (rg_cells g) -> owns owned c -> k < num_tracers cf -> tracer_value cf cd c k <> None).
  { intros g cd c k H Hc Oc Hk. destruct (RI g cd H) as (Hg & I). assert (N := D g c (3 + k) Hg Hc Oc ltac:(lia)). rewrite (prescribed_tracer cf g cd c k I Hk N) in N. exact N. }
  destruct (init_solution cf owned l2o rs cds) with (u := u) as (u' & E & L' & W); try assumption.
  - intros g g' f Hg Hg' E E' F. apply (S g g' Hg Hg'). left. eauto.
  - intros g cd c k H Hc Oc Hk. destruct (RI g cd H) as (Hg & I). rewrite <- (prescribed_flow cf g cd c k I Hk). apply D; (assumption || lia).
  - split; assumption.
  - split; [assumption|split; assumption].
  - split; assumption.
  - split; [|split].
    + intros g g' f cl Hg Hg' E E' I F. apply (S g g' Hg Hg'). right. left. exists f, cl. auto.
    + intros g g' f Hg Hg' E E' F. apply (S g g' Hg Hg'). right. right. left. eauto.
    + intros g g' f Hg Hg' E E' F. apply (S g g' Hg Hg'). right. right. right. eauto.
  - intros g cd c k H Hc Oc Hk. assert (N := TV g cd c k H Hc Oc ltac:(unfold num_tracers; lia)). intros Z. unfold tracer_value in N. rewrite Z in N. unfold scal_value in N.
    replace (Nat.eqb k (cf_classes cf)) with false in N by (symmetry; apply Nat.eqb_neq; lia). replace (Nat.eqb k (cf_classes cf + (if cf_has_salinity cf then 1 else 0))) with false in N by (symmetry; apply Nat.eqb_neq; lia). congruence.
  - intros Hon g cd c H Hc Oc. assert (N := TV g cd c (cf_classes cf) H Hc Oc ltac:(unfold num_tracers; rewrite Hon; lia)). intros Z. unfold tracer_value in N. rewrite Z in N. unfold sed_value in N. rewrite Nat.ltb_irrefl in N. unfold scal_value in N. rewrite Hon in N.
    replace (Nat.eqb (cf_classes cf) (cf_classes cf + 1)) with false in N by (symmetry; apply Nat.eqb_neq; lia). congruence.
  - intros Hon g cd c H Hc Oc. assert (N := TV g cd c (cf_classes cf + (if cf_has_salinity cf then 1 else 0)) H Hc Oc ltac:(unfold num_tracers; rewrite Hon; lia)). intros Z. unfold tracer_value in N. rewrite Z in N. unfold sed_value in N.
    replace (Nat.ltb (cf_classes cf + (if cf_has_salinity cf then 1 else 0)) (cf_classes cf)) with false in N by (symmetry; apply Nat.ltb_ge; lia).
    destruct (cf_has_salinity cf) eqn:Es.
    + unfold scal_value in N at 1. replace (Nat.eqb (cf_classes cf + 1) (cf_classes cf)) with false in N by (symmetry; apply Nat.eqb_neq; lia). congruence.
    + rewrite (sal_none cf rs cds IC g cd c _ H Es) in N. congruence.
  - exists u'. split; [exact E|]. split; [exact L'|]. intros c Hc Oc. destruct (mo_cover _ _ _ M c Hc) as (g & Hg & Hcg). destruct (l2o_owned owned l2o rs c M Oc) as (o & Eo & Lo). exists g, o. split; [exact Hg|]. split; [exact Hcg|]. split; [exact Eo|].
    intros k Hk. destruct (rc_exists cf rs cds IC g Hg) as (cd & Hcd). assert (I := proj2 (RI g cd Hcd)). assert (N := D g c k Hg Hcg Oc Hk). destruct (prescribed cf g c k) as [v|] eqn:Ev; [|congruence].
    apply (W g cd c o k v Hcd Hcg Oc Eo Hk). destruct (Nat.ltb_spec k 3) as [K|K]; [rewrite <- (prescribed_flow cf g cd c k I K); exact Ev|].
    rewrite <- (prescribed_tracer cf g cd c (k - 3) I ltac:(lia)); replace (3 + (k - 3)) with k by lia; [exact Ev|congruence].
Qed.
Print Assumptions C57_regions_start_from_their_condition_partial.

(* the region has an entry naming a Dirichlet flow condition that exists *)
Definition starts (cf : config) (g : region) : Prop := exists s f, initial_entry cf g = Some s /\ rs_flow s <> ""%string /\ initial_flow cf g = Some f /\ fc_type f = CONDITION_DIRICHLET.
Lemma rmap_error {A B} (f : A -> result B) l : (forall a, In a l -> f a <> UB) -> (exists a, In a l /\ f a = Error) -> rmap f l = Error.
Proof.
  induction l as [|b t IH]; intros N (a & Ha & E); [contradiction|]. cbn. destruct (f b) as [x| |] eqn:Eb; [|reflexivity|exfalso; exact (N b (or_introl eq_refl) Eb)].
  destruct Ha as [<-|Ha]; [congruence|]. cbn. rewrite IH; [reflexivity|intros; apply N; right; assumption|eauto].
Qed.
Lemma empty_name_spec s : empty_name s = true <-> s = ""%string. Proof. apply String.eqb_eq. Qed.
(* Without tracers, setup succeeds if every region names an existing condition and reports an error otherwise. *)
Theorem C57_unknown_condition_rejected_partial cf rs : num_tracers cf = 0 ->
  ((forall g, In g rs -> starts cf g) -> exists cds, InitInitialConditions cf rs = Ret cds) /\
  ((exists g, In g rs /\ ~ starts cf g) -> InitInitialConditions cf rs = Error).
Proof.
  unfold num_tracers. intros H0. assert (Hc : cf_classes cf = 0) by lia. assert (Hs : cf_has_salinity cf = false) by (destruct (cf_has_salinity cf); [lia|reflexivity]). assert (Hh : cf_has_heat cf = false) by (destruct (cf_has_heat cf); [lia|reflexivity]).
  assert (K : forall g, (starts cf g -> exists cd, region_initial cf g = Ret cd) /\ (~ starts cf g -> region_initial cf g = Error)).
  { intros g. unfold starts, initial_flow, initial_entry, region_initial. rewrite <- lookup_find_named. destruct (lookup rs_region (cf_initial cf) (name_of (rg_name g))) as [s|]; cbn [obind].
    2:{ split; [intros (s & f & E & _); discriminate|reflexivity]. }
    unfold check. destruct (empty_name (rs_flow s)) eqn:En; cbn [negb].
    { apply empty_name_spec in En. split; [intros (s' & f & [= <-] & N & _); contradiction|reflexivity]. }
    assert (Nn : rs_flow s <> ""%string) by (intros X; apply empty_name_spec in X; congruence). rewrite <- lookup_find_named. destruct (lookup fc_name (cf_flow cf) (rs_flow s)) as [f|].
    2:{ split; [intros (s' & f & _ & _ & E & _); discriminate|reflexivity]. }
    rewrite Hc, Hs, Hh. cbn [Nat.ltb Nat.leb rbind]. destruct (fc_type f) eqn:Et; cbn [is_dirichlet].
    all: try (split; [intros (s' & f' & _ & _ & [= <-] & E); congruence|reflexivity]).
    split; [intros _; eauto|intros N; exfalso; apply N; exists s, f; auto]. }
  split.
  - intros H. apply rmap_exists. intros g Hg. apply K, H, Hg.
  - intros (g & Hg & N). apply rmap_error.
    + intros a Ha E. destruct (region_initial cf a) as [cd| |] eqn:Ea; try discriminate. assert (S : ~ starts cf a) by (intros S; apply K in S; destruct S as (cd & S); congruence). apply K in S. congruence.
    + exists g. split; [exact Hg|]. apply K. exact N.
Qed.
Print Assumptions C57_unknown_condition_rejected_partial.
(* With any tracers: every region has an entry that names existing Dirichlet conditions for the flow, the sediment and the
   salinity, and an existing condition for the temperature. *)
Definition tracers_start (cf : config) (g : region) : Prop := exists s, initial_entry cf g = Some s /\
  (0 < cf_classes cf -> rs_sediment s <> ""%string /\ exists c, lookup sc_name (cf_sediment cf) (rs_sediment s) = Some c /\ sc_type c = CONDITION_DIRICHLET) /\
  (cf_has_salinity cf = true -> rs_salinity s <> ""%string /\ exists c, lookup kc_name (cf_salinity cf) (rs_salinity s) = Some c /\ kc_type c = CONDITION_DIRICHLET) /\
  (cf_has_heat cf = true -> rs_temperature s <> ""%string /\ exists c, lookup kc_name (cf_temperature cf) (rs_temperature s) = Some c).
Lemma find_unchecked_iff {A} (nm : A -> string) (ty : A -> bool) l name c : find_unchecked nm ty l name = Ret c <-> name <> ""%string /\ exists a, lookup nm l name = Some a /\ ty a = true /\ c = Some a.
Proof.
  unfold find_unchecked, check. rewrite lookup_find_named. destruct (empty_name name) eqn:En; cbn [negb].
  - apply empty_name_spec in En. split; [discriminate|]. intros [N _]. contradiction.
  - assert (Nn : name <> ""%string) by (intros X; apply empty_name_spec in X; congruence).
    destruct (find_named nm l name) as [a|]; cbn [of_option rbind]; [|split; [discriminate|intros (_ & a & [=] & _)]].
    destruct (ty a) eqn:Et; (split; [intros E|intros (_ & b & Eb & T & ->)]); try congruence.
    split; [exact Nn|]. exists a. split; [reflexivity|]. split; [exact Et|congruence].
Qed.
Lemma is_dirichlet_spec t : is_dirichlet t = true <-> t = CONDITION_DIRICHLET.
Proof. destruct t; cbn; split; congruence. Qed.
(* Setup accepts exactly the configurations in which every region has its conditions. *)
Theorem C57_accepted_exactly cf rs : (exists cds, InitInitialConditions cf rs = Ret cds) <-> (forall g, In g rs -> starts cf g /\ tracers_start cf g).
Proof.
  assert (K : forall g, (exists cd, region_initial cf g = Ret cd) <-> starts cf g /\ tracers_start cf g).
  { intros g. unfold starts, tracers_start, initial_flow, initial_entry, region_initial. rewrite <- lookup_find_named.
    destruct (lookup rs_region (cf_initial cf) (name_of (rg_name g))) as [s|]; cbn [obind].
    2:{ split; [intros (cd & E); discriminate|intros ((s & f & E & _) & _); discriminate]. }
    unfold check. destruct (empty_name (rs_flow s)) eqn:En; cbn [negb].
    { apply empty_name_spec in En. split; [intros (cd & E); discriminate|intros ((s' & f & [= <-] & N & _) & _); contradiction]. }
    assert (Nn : rs_flow s <> ""%string) by (intros X; apply empty_name_spec in X; congruence). rewrite <- lookup_find_named.
    destruct (lookup fc_name (cf_flow cf) (rs_flow s)) as [f|].
    2:{ split; [intros (cd & E); discriminate|intros ((s' & f & _ & _ & E & _) & _); discriminate]. }
    destruct (is_dirichlet (fc_type f)) eqn:Et.
    2:{ split; [intros (cd & E); discriminate|intros ((s' & f' & _ & _ & [= <-] & E) & _)]. apply is_dirichlet_spec in E. congruence. }
    apply is_dirichlet_spec in Et. split.
    - intros (cd & E). split; [exists s, f; auto|]. exists s. split; [reflexivity|].
      destruct (if Nat.ltb 0 (cf_classes cf) then find_unchecked sc_name (fun c => is_dirichlet (sc_type c)) (cf_sediment cf) (rs_sediment s) else Ret None) as [x| |] eqn:E1; cbn [rbind] in E; try discriminate.
      destruct (if cf_has_salinity cf then find_unchecked kc_name (fun c => is_dirichlet (kc_type c)) (cf_salinity cf) (rs_salinity s) else Ret None) as [y| |] eqn:E2; cbn [rbind] in E; try discriminate.
      destruct (if cf_has_heat cf then find_unchecked kc_name (fun _ => true) (cf_temperature cf) (rs_temperature s) else Ret None) as [z| |] eqn:E3; cbn [rbind] in E; try discriminate.
      split; [|split].
      + intros H. rewrite (proj2 (Nat.ltb_lt _ _) H) in E1. apply find_unchecked_iff in E1. destruct E1 as (N & a & Ea & T & _). split; [exact N|]. exists a. split; [exact Ea|]. now apply is_dirichlet_spec.
      + intros H. rewrite H in E2. apply find_unchecked_iff in E2. destruct E2 as (N & a & Ea & T & _). split; [exact N|]. exists a. split; [exact Ea|]. now apply is_dirichlet_spec.
      + intros H. rewrite H in E3. apply find_unchecked_iff in E3. destruct E3 as (N & a & Ea & _). split; [exact N|]. now exists a.
    - intros (_ & s' & [= <-] & H1 & H2 & H3).
      assert (E1 : exists x, (if Nat.ltb 0 (cf_classes cf) then find_unchecked sc_name (fun c => is_dirichlet (sc_type c)) (cf_sediment cf) (rs_sediment s) else Ret None) = Ret x).
      { destruct (Nat.ltb_spec 0 (cf_classes cf)) as [L|_]; [|eauto]. destruct (H1 L) as (N & a & Ea & T). exists (Some a). apply find_unchecked_iff. split; [exact N|]. exists a. split; [exact Ea|]. split; [now apply is_dirichlet_spec|reflexivity]. }
      assert (E2 : exists x, (if cf_has_salinity cf then find_unchecked kc_name (fun c => is_dirichlet (kc_type c)) (cf_salinity cf) (rs_salinity s) else Ret None) = Ret x).
      { destruct (cf_has_salinity cf); [|eauto]. destruct (H2 eq_refl) as (N & a & Ea & T). exists (Some a). apply find_unchecked_iff. split; [exact N|]. exists a. split; [exact Ea|]. split; [now apply is_dirichlet_spec|reflexivity]. }
      assert (E3 : exists x, (if cf_has_heat cf then find_unchecked kc_name (fun _ => true) (cf_temperature cf) (rs_temperature s) else Ret None) = Ret x).
      { destruct (cf_has_heat cf); [|eauto]. destruct (H3 eq_refl) as (N & a & Ea). exists (Some a). apply find_unchecked_iff. split; [exact N|]. exists a. auto. }
      destruct E1 as (x & ->), E2 as (y & ->), E3 as (z & ->). cbn [rbind]. eauto. }
  unfold InitInitialConditions. split.
  - intros (cds & E) g Hg. apply K. destruct (rmap_Ret _ _ _ E) as (L & W). apply In_nth_error in Hg. destruct Hg as (i & Hi).
    destruct (nth_error cds i) as [cd|] eqn:Ecd; [|apply nth_error_None in Ecd; assert (i < length rs) by (apply nth_error_Some; congruence); lia].
    exists cd. exact (W i g cd Hi Ecd).
  - intros H. apply rmap_exists. intros g Hg. apply K, H, Hg.
Qed.
Print Assumptions C57_accepted_exactly.

(** A mesh of three owned cells and a ghost, and two regions, as setup builds them *)
Definition demo_owned : list bool := [true; true; false; true].
Definition demo_l2o : list Z := [0; 1; 3; 2]%Z.
Definition upper : region := Region 0 7 (Some "upper"%string) [0; 1] [0; 1]%Z.
Definition lower : region := Region 1 9 (Some "lower"%string) [2; 3] [2]%Z.
Lemma demo_mesh : mesh_ok demo_owned demo_l2o [upper; lower].
Proof.
  apply (mesh_ok_built demo_owned demo_l2o [0; 1; 3]%Z [(7%Z, "upper"%string); (9%Z, "lower"%string)] [(7%Z, [0; 1]); (9%Z, [2; 3])]); [reflexivity|apply Permutation_refl|reflexivity].
Qed.
Definition still (name : string) (h : R) : flow_condition := FlowCondition name CONDITION_DIRICHLET None (Some h) (Some 0%R) (Some 0%R) None.
Definition from_file (name : string) (d : list R) : flow_condition := FlowCondition name CONDITION_DIRICHLET (Some d) None None None None.
Definition demo_config (flow : list flow_condition) (sed : list sediment_condition) (sal : list scalar_condition) (classes : nat) (has_sal : bool) (initial : list region_spec) : config :=
  Config flow sed sal [] classes has_sal false [] [] initial [] [].
(* two conditions, one of them from a file, sediment and salinity *)
Definition good_config : config :=
  demo_config [still "deep" 2; from_file "data" (map INR (seq 0 12))] [SedimentCondition "clean" CONDITION_DIRICHLET [(None, Some 0%R)]; SedimentCondition "muddy" CONDITION_DIRICHLET [(None, Some (1/2)%R)]]
    [ScalarCondition "sea" CONDITION_DIRICHLET (Some [30; 31; 32; 33]%R) (Some 0%R); ScalarCondition "river" CONDITION_DIRICHLET (Some [1; 1; 1; 1]%R) (Some 0%R)] 1 true
    [RegionSpec "lower" "data" "muddy" "river" ""; RegionSpec "upper" "deep" "clean" "sea" ""].
Example initial_example : exists cds, InitInitialConditions good_config [upper; lower] = Ret cds /\ distinct_names good_config /\ one_region_per_file good_config [upper; lower] /\ scalar_conditions_supported good_config /\
  (forall g c k, In g [upper; lower] -> In c (rg_cells g) -> owns demo_owned c -> k < 3 + num_tracers good_config -> prescribed good_config g c k <> None) /\
  prescribed good_config upper 1 4 = Some 31%R /\ prescribed good_config lower 3 0 = Some (INR 9).
Proof.
  eexists. split; [reflexivity|]. split; [|split; [|split; [|split; [|split; reflexivity]]]].
  - repeat split; repeat constructor; cbn; intuition discriminate.
  - intros g g' [<-|[<-|[]]] [<-|[<-|[]]] H; try reflexivity; exfalso; destruct H as [(f & A & B & _)|[(f & cl & A & B & _)|[(f & A & B & _)|(f & A & B & _)]]]; first [discriminate A|rewrite <- A in B; discriminate B].
  - unfold scalar_conditions_supported. cbn. repeat split; try congruence; [intros f [<-|[<-|[]]]; left; discriminate|contradiction].
  - intros g c k [<-|[<-|[]]] Hc _ Hk; cbn in Hc, Hk; destruct Hc as [<-|[<-|[]]]; do 5 (destruct k as [|k]; [cbn; discriminate|]); lia.
Qed.
Example accepted_example : forall g, In g [upper; lower] -> starts good_config g /\ tracers_start good_config g.
Proof. apply C57_accepted_exactly. destruct initial_example as (cds & E & _). eauto. Qed.

(* The values read from a file are released after the first region using the condition: a second region falls back
   on expressions that were not given. *)
Theorem C57_file_for_several_regions_refuted : exists cf owned l2o rs cds, mesh_ok owned l2o rs /\ InitInitialConditions cf rs = Ret cds /\ distinct_names cf /\ num_tracers cf = 0 /\
  (forall g c k, In g rs -> In c (rg_cells g) -> k < 3 -> prescribed cf g c k <> None) /\
  forall u, InitSolution cf owned l2o (combine rs cds) u = None.
Proof.
  exists (demo_config [from_file "data" (map INR (seq 0 12))] [] [] 0 false [RegionSpec "lower" "data" "" "" ""; RegionSpec "upper" "data" "" "" ""]), demo_owned, demo_l2o, [upper; lower]. eexists.
  split; [exact demo_mesh|]. split; [reflexivity|]. split; [repeat split; repeat constructor; cbn; intuition discriminate|]. split; [reflexivity|]. split.
  - intros g c k [<-|[<-|[]]] Hc Hk; cbn in Hc; destruct Hc as [<-|[<-|[]]]; do 3 (destruct k as [|k]; [cbn; discriminate|]); lia.
  - reflexivity.
Qed.
Print Assumptions C57_file_for_several_regions_refuted.

(* Salinity given by an expression is written over the first sediment class and the salinity stays 0. *)
Theorem C57_constant_salinity_refuted : exists cf owned l2o rs cds u', mesh_ok owned l2o rs /\ InitInitialConditions cf rs = Ret cds /\ distinct_names cf /\ one_region_per_file cf rs /\
  InitSolution cf owned l2o (combine rs cds) (repeat 0%R (5 * 3)) = Some u' /\
  prescribed cf upper 0 3 = Some (1/2)%R /\ prescribed cf upper 0 4 = Some 35%R /\ nth_error u' 3 = Some 35%R /\ nth_error u' 4 = Some 0%R.
Proof.
  exists (demo_config [still "deep" 2] [SedimentCondition "muddy" CONDITION_DIRICHLET [(None, Some (1/2)%R)]] [ScalarCondition "sea" CONDITION_DIRICHLET None (Some 35%R)] 1 true
    [RegionSpec "lower" "deep" "muddy" "sea" ""; RegionSpec "upper" "deep" "muddy" "sea" ""]), demo_owned, demo_l2o, [upper; lower]. eexists. eexists.
  split; [exact demo_mesh|]. split; [reflexivity|]. split; [repeat split; repeat constructor; cbn; intuition discriminate|]. split.
  - intros g g' [<-|[<-|[]]] [<-|[<-|[]]] H; try reflexivity; exfalso; destruct H as [(f & [= <-] & _ & C)|[(f & cl & [= <-] & _ & [<-|[]] & C)|[(f & [= <-] & _ & C)|(f & A & _)]]]; try (apply C; reflexivity); discriminate A.
  - split; [reflexivity|]. repeat split.
Qed.
Print Assumptions C57_constant_salinity_refuted.

(* A sediment or salinity condition that does not exist is not rejected: the entry before the array is used. *)
Theorem C57_unknown_tracer_condition_rejected_refuted : exists cf rs, initial_entry cf upper <> None /\ initial_sediment cf upper = None /\ In upper rs /\ cf_classes cf = 1 /\ InitInitialConditions cf rs = UB.
Proof.
  exists (demo_config [still "deep" 2] [] [] 1 false [RegionSpec "upper" "deep" "muddy" "" ""]), [upper]. split; [discriminate|]. split; [reflexivity|]. split; [left; reflexivity|]. split; reflexivity.
Qed.
Print Assumptions C57_unknown_tracer_condition_rejected_refuted.
(* Listing a salinity condition without simulating salinity is fatal as soon as there is another tracer. *)
Theorem C57_unused_salinity_condition_refuted : exists cf owned l2o rs cds, mesh_ok owned l2o rs /\ InitInitialConditions cf rs = Ret cds /\ cf_has_salinity cf = false /\
  (forall g c k, In g rs -> In c (rg_cells g) -> k < 4 -> prescribed cf g c k <> None) /\ InitSolution cf owned l2o (combine rs cds) (repeat 0%R (4 * 3)) = None.
Proof.
  exists (demo_config [still "deep" 2] [SedimentCondition "muddy" CONDITION_DIRICHLET [(None, Some (1/2)%R)]] [ScalarCondition "sea" CONDITION_DIRICHLET None (Some 35%R)] 1 false
    [RegionSpec "lower" "deep" "muddy" "" ""; RegionSpec "upper" "deep" "muddy" "" ""]), demo_owned, demo_l2o, [upper; lower]. eexists.
  split; [exact demo_mesh|]. split; [reflexivity|]. split; [reflexivity|]. split; [|reflexivity].
  intros g c k [<-|[<-|[]]] Hc Hk; cbn in Hc; destruct Hc as [<-|[<-|[]]]; do 4 (destruct k as [|k]; [cbn; discriminate|]); lia.
Qed.
Print Assumptions C57_unused_salinity_condition_refuted.

(** ** C34: sources *)
(* what the configuration prescribes for a region: [Some v] a constant water source *)
Definition configured_source (cf : config) (g : region) : option expression :=
  let* s := lookup rs_region (cf_sources cf) (name_of (rg_name g)) in
  if String.eqb (rs_flow s) "" then None else let* f := lookup fc_name (cf_flow cf) (rs_flow s) in Some (fc_value f).
Definition disjoint_regions (rs : list region) : Prop := forall g g' z, In g rs -> In g' rs -> In z (rg_owned g) -> In z (rg_owned g') -> g = g'.

Lemma region_source_Ret cf g src : region_source cf g = Ret src -> configured_source cf g = option_map fc_value src.
Proof.
  unfold region_source, configured_source. rewrite <- lookup_find_named. destruct (lookup rs_region (cf_sources cf) (name_of (rg_name g))) as [s|]; cbn [obind]; [|intros [= <-]; reflexivity].
  unfold empty_name. destruct (String.eqb (rs_flow s) ""); cbn [rbind].
  - unfold check. destruct (negb _); [intros [= <-]; reflexivity|discriminate].
  - rewrite <- lookup_find_named. destruct (lookup fc_name (cf_flow cf) (rs_flow s)) as [f|]; cbn [rbind obind]; [|discriminate]. destruct (fc_type f); cbn [rbind]; try discriminate. unfold check. destruct (negb _); [intros [= <-]; reflexivity|discriminate].
Qed.
(* the source in position [id - r] of the list *)
Definition source_at (r : nat) (srcs : list (option flow_condition)) (id : Z) : option expression :=
  if Z.leb (Z.of_nat r) id then match nth_error srcs (Z.to_nat id - r) with Some (Some f) => Some (fc_value f) | _ => None end else None.
Lemma apply_sources_spec srcs : forall r st, set_up st -> disjoint_regions (r_regions st) -> (forall f, In (Some f) srcs -> fc_value f <> None) ->
  exists st', apply_sources r srcs st = Ok st' /\ set_up st' /\ params st' = params st /\
    (forall g cell, In g (r_regions st) -> In (Z.of_nat cell) (rg_owned g) ->
       value st' (Source cell 0) = match source_at r srcs (rg_id g) with Some v => v | None => value st (Source cell 0) end) /\
    (forall s, (forall cell, s = Source cell 0 -> forall g, In g (r_regions st) -> ~ In (Z.of_nat cell) (rg_owned g)) -> value st' s = value st s).
Proof.
  induction srcs as [|src t IH]; intros r st U Dj Hv.
  - exists st. split; [reflexivity|]. split; [exact U|]. split; [reflexivity|]. split; [|reflexivity]. intros g cell _ _. unfold source_at. destruct (Z.leb _ _); [|reflexivity]. destruct (Z.to_nat (rg_id g) - r); reflexivity.
  - assert (Hv' : forall f, In (Some f) t -> fc_value f <> None) by (intros; apply Hv; right; assumption).
    assert (Shift : forall id, (id <> Z.of_nat r \/ src = None) -> source_at r (src :: t) id = source_at (S r) t id).
    { intros id Hn. unfold source_at. destruct (Z.leb_spec (Z.of_nat r) id) as [A|A], (Z.leb_spec (Z.of_nat (S r)) id) as [B|B]; try lia; try reflexivity.
      - replace (Z.to_nat id - r) with (S (Z.to_nat id - S r)) by lia. reflexivity.
      - replace (Z.to_nat id - r) with 0 by lia. cbn. destruct Hn as [| ->]; [lia|reflexivity]. }
    destruct src as [f|]; cbn [apply_sources].
    + assert (Vf := Hv f (or_introl eq_refl)). destruct (fc_value f) as [v|] eqn:Ev; [|congruence].
      assert (NC : 0 < r_ncomp st) by (destruct U as (U & _); lia).
      destruct (exec_spec st (HomogeneousSource 0 (Z.of_nat r) v) U I ltac:(cbn; lia) I) as (X & _). destruct (X I) as (st1 & E1 & U1 & P1 & W1). cbn [exec] in E1. rewrite E1.
      assert (R1 : r_regions st1 = r_regions st) by (unfold params in P1; congruence).
      destruct (IH (S r) st1 U1) as (st' & E & U' & P' & W & Fr); [rewrite R1; exact Dj|exact Hv'|]. exists st'. split; [exact E|]. split; [exact U'|]. split; [congruence|]. split.
      * intros g cell Hg Hc. rewrite (W g cell) by (try rewrite R1; assumption). destruct (Z.eq_dec (rg_id g) (Z.of_nat r)) as [Eid|Nid].
        -- assert (S1 : source_at (S r) t (rg_id g) = None). { unfold source_at. replace (Z.leb (Z.of_nat (S r)) (rg_id g)) with false by (symmetry; apply Z.leb_gt; lia). reflexivity. }
           assert (S2 : source_at r (Some f :: t) (rg_id g) = Some (Some v)). { unfold source_at. replace (Z.leb (Z.of_nat r) (rg_id g)) with true by (symmetry; apply Z.leb_le; lia). replace (Z.to_nat (rg_id g) - r) with 0 by lia. cbn. rewrite Ev. reflexivity. }
           rewrite S1, S2, W1. unfold updated, assigns. cbn [Z.of_nat Z.eqb]. rewrite (find_region_unique (r_regions st) (Z.of_nat r) g) by (first [apply U|assumption]). cbn [obind].
           destruct (position (rg_owned g) (Z.of_nat cell)) eqn:Ep; [reflexivity|]. apply position_none in Ep. contradiction.
        -- rewrite (Shift (rg_id g)) by (left; exact Nid). destruct (source_at (S r) t (rg_id g)); [reflexivity|]. rewrite W1. unfold updated, assigns. cbn [Z.of_nat Z.eqb].
           destruct (find_region (r_regions st) (Z.of_nat r)) as [g'|] eqn:Eg; [|reflexivity]. cbn [obind]. apply find_region_spec in Eg. destruct Eg as (Hg' & Eid).
           destruct (position (rg_owned g') (Z.of_nat cell)) eqn:Ep; [|reflexivity]. exfalso. assert (In (Z.of_nat cell) (rg_owned g')). { destruct (in_dec Z.eq_dec (Z.of_nat cell) (rg_owned g')) as [|N]; [assumption|]. apply position_none in N. congruence. }
           apply Nid. rewrite (Dj g g' (Z.of_nat cell) Hg Hg' Hc H). exact Eid.
      * intros s Hs. rewrite Fr by (rewrite R1; exact Hs). rewrite W1. unfold updated, assigns. destruct s as [cell comp| |]; try reflexivity. destruct comp as [|comp]; [|reflexivity]. cbn [Z.of_nat Z.eqb].
        destruct (find_region (r_regions st) (Z.of_nat r)) as [g'|] eqn:Eg; [|reflexivity]. cbn [obind]. apply find_region_spec in Eg. destruct Eg as (Hg' & Eid).
        assert (N := Hs cell eq_refl g' Hg'). apply position_none in N. rewrite N. reflexivity.
    + destruct (IH (S r) st U Dj Hv') as (st' & E & U' & P' & W & Fr). exists st'. split; [exact E|]. split; [exact U'|]. split; [exact P'|]. split; [|exact Fr].
      intros g cell Hg Hc. rewrite (W g cell Hg Hc), (Shift (rg_id g)) by (right; reflexivity). reflexivity.
Qed.

(* What the code does: the cells of a region receive the source configured for the region whose index is this region's id. *)
Theorem C34_source_goes_to_region_numbered_like_its_index cf st srcs : set_up st -> disjoint_regions (r_regions st) -> InitSources cf (r_regions st) = Ret srcs ->
  (forall g, In g (r_regions st) -> configured_source cf g <> Some None) ->
  exists st', InitSourceConditions srcs st = Ok st' /\ set_up st' /\
    (forall g cell, In g (r_regions st) -> In (Z.of_nat cell) (rg_owned g) ->
       value st' (Source cell 0) = match (let* h := zget (r_regions st) (rg_id g) in configured_source cf h) with Some v => v | None => value st (Source cell 0) end) /\
    (* nothing else changes *)
    (forall s, (forall cell, s = Source cell 0 -> forall g, In g (r_regions st) -> ~ In (Z.of_nat cell) (rg_owned g)) -> value st' s = value st s).
Proof.
  intros U Dj IS D. destruct (rmap_Ret _ _ _ IS) as (L & RS).
  destruct (apply_sources_spec srcs 0 st U Dj) as (st' & E & U' & _ & W & Fr).
  { intros f Hf. apply In_nth_error in Hf. destruct Hf as (i & Hi). assert (i < length (r_regions st)) by (rewrite <- L; apply nth_error_Some; congruence). destruct (nth_error (r_regions st) i) as [g|] eqn:Eg; [|apply nth_error_None in Eg; lia].
    assert (X := region_source_Ret cf g _ (RS i g _ Eg Hi)). cbn in X. intros N. rewrite N in X. exact (D g (nth_error_In _ _ Eg) X). }
  exists st'. split; [exact E|]. split; [exact U'|]. split; [|exact Fr]. intros g cell Hg Hc. rewrite (W g cell Hg Hc). replace (source_at 0 srcs (rg_id g)) with (let* h := zget (r_regions st) (rg_id g) in configured_source cf h); [reflexivity|].
  unfold source_at, zget. destruct (Z.leb_spec (Z.of_nat 0) (rg_id g)) as [A|A], (Z.ltb_spec (rg_id g) 0) as [B|B]; try lia; try reflexivity. rewrite Nat.sub_0_r.
  destruct (nth_error (r_regions st) (Z.to_nat (rg_id g))) as [h|] eqn:Eh; cbn [obind].
  - destruct (nth_error srcs (Z.to_nat (rg_id g))) as [src|] eqn:Es; [rewrite (region_source_Ret cf h src (RS _ _ _ Eh Es)); destruct src; reflexivity|].
    apply nth_error_None in Es. rewrite L in Es. assert (Z.to_nat (rg_id g) < length (r_regions st)) by (apply nth_error_Some; congruence). lia.
  - apply nth_error_None in Eh. replace (nth_error srcs (Z.to_nat (rg_id g))) with (@None (option flow_condition)); [reflexivity|]. symmetry. apply nth_error_None. lia.
Qed.
Print Assumptions C34_source_goes_to_region_numbered_like_its_index.

(* A source configured for a region is applied to its cells and no others, provided regions are numbered from 0 in
   order.  Partial: with other ids it goes elsewhere, see the refutations below. *)
Theorem C34_configured_source_applied_partial cf st srcs : set_up st -> disjoint_regions (r_regions st) -> InitSources cf (r_regions st) = Ret srcs ->
  (forall g, In g (r_regions st) -> configured_source cf g <> Some None) -> (forall g, In g (r_regions st) -> rg_id g = Z.of_nat (rg_index g)) ->
  exists st', InitSourceConditions srcs st = Ok st' /\ set_up st' /\
    (forall g cell, In g (r_regions st) -> In (Z.of_nat cell) (rg_owned g) ->
       value st' (Source cell 0) = match configured_source cf g with Some v => v | None => value st (Source cell 0) end) /\
    (forall s, (forall cell, s = Source cell 0 -> forall g, In g (r_regions st) -> ~ In (Z.of_nat cell) (rg_owned g)) -> value st' s = value st s).
Proof.
  intros U Dj IS D Ids. destruct (C34_source_goes_to_region_numbered_like_its_index cf st srcs U Dj IS D) as (st' & E & U' & W & Fr). exists st'. split; [exact E|]. split; [exact U'|]. split; [|exact Fr].
  intros g cell Hg Hc. rewrite (W g cell Hg Hc). rewrite (Ids g Hg). replace (zget (r_regions st) (Z.of_nat (rg_index g))) with (Some g); [reflexivity|].
  unfold zget. replace (Z.ltb (Z.of_nat (rg_index g)) 0) with false by (symmetry; apply Z.ltb_ge; lia). rewrite Nat2Z.id. symmetry.
  destruct (In_nth_error _ _ Hg) as (i & Ei). assert (X : rg_index g = i). { assert (Y : nth_error (map rg_index (r_regions st)) i = Some (rg_index g)) by (apply map_nth_error; exact Ei). destruct U as (_ & _ & _ & Ui & _). rewrite Ui in Y.
    assert (i < length (r_regions st)) by (apply nth_error_Some; congruence). rewrite (nth_error_nth' _ 0) in Y by (rewrite seq_length; assumption). rewrite seq_nth in Y by assumption. injection Y as Y. lia. }
  rewrite X. exact Ei.
Qed.
Print Assumptions C34_configured_source_applied_partial.

(* two regions of one cell each, with given ids *)
Definition source_demo (id1 id2 : Z) : rdy :=
  Rdy false false 0 false false 3 2 [Region 0 id1 (Some "upper"%string) [0] [0%Z]; Region 1 id2 (Some "lower"%string) [1] [1%Z]] [] [] (repeat 0%R 6) (repeat 0%R 2) [].
Lemma source_demo_ok id1 id2 : id1 <> id2 -> set_up (source_demo id1 id2) /\ disjoint_regions (r_regions (source_demo id1 id2)).
Proof.
  intros N. split.
  - unfold set_up, source_demo. cbn [r_ncomp r_classes r_salinity r_heat r_src r_owned r_mat r_regions r_boundaries r_conds r_bvals]. do 4 (split; [reflexivity|]). split; [cbn; constructor; [intros [X|[]]; congruence|constructor; [intros []|constructor]]|].
    split; [|do 3 (split; [reflexivity|]); split; [intros [|i]; discriminate|contradiction]]. intros g [<-|[<-|[]]]; cbn; (split; [constructor; [intros []|constructor]|]); intros z [<-|[]]; lia.
  - intros g g' z [<-|[<-|[]]] [<-|[<-|[]]] A B; cbn in A, B; try reflexivity; destruct A as [<-|[]], B as [X|[]]; discriminate.
Qed.
Definition rain_config (region : string) : config :=
  Config [FlowCondition "rain" CONDITION_RUNOFF None None None None (Some 5%R)] [] [] [] 0 false false [] [] [] [RegionSpec region "rain" "" "" ""] [].
Example source_example : let st := source_demo 0 1 in let cf := rain_config "lower" in exists srcs, set_up st /\ disjoint_regions (r_regions st) /\ InitSources cf (r_regions st) = Ret srcs /\
  (forall g, In g (r_regions st) -> configured_source cf g <> Some None) /\ (forall g, In g (r_regions st) -> rg_id g = Z.of_nat (rg_index g)).
Proof.
  cbv zeta. eexists. split; [apply source_demo_ok; discriminate|]. split; [apply source_demo_ok; discriminate|]. split; [reflexivity|]. split; intros g [<-|[<-|[]]]; try discriminate; reflexivity.
Qed.
(* A configuration is accepted exactly when every source names an existing runoff condition, or none, and none for
   sediment, salinity and temperature; every other configuration is an error. *)
Definition source_usable (cf : config) (g : region) : Prop := forall s, lookup rs_region (cf_sources cf) (name_of (rg_name g)) = Some s ->
  (rs_flow s <> ""%string -> exists f, lookup fc_name (cf_flow cf) (rs_flow s) = Some f /\ fc_type f = CONDITION_RUNOFF) /\
  (0 < cf_classes cf -> rs_sediment s = ""%string) /\ (cf_has_salinity cf = true -> rs_salinity s = ""%string) /\ (cf_has_heat cf = true -> rs_temperature s = ""%string).
Lemma region_source_cases cf g : (source_usable cf g /\ exists x, region_source cf g = Ret x) \/ (~ source_usable cf g /\ region_source cf g = Error).
Proof.
  unfold source_usable, region_source. rewrite <- lookup_find_named. destruct (lookup rs_region (cf_sources cf) (name_of (rg_name g))) as [s|]; [|left; split; [intros s E; discriminate|eauto]].
  rewrite <- lookup_find_named.
  assert (F : (exists x, (if empty_name (rs_flow s) then Ret None else match lookup fc_name (cf_flow cf) (rs_flow s) with None => Error | Some fc => match fc_type fc with CONDITION_RUNOFF => Ret (Some fc) | _ => Error end end) = Ret x
                 /\ (rs_flow s <> ""%string -> exists f, lookup fc_name (cf_flow cf) (rs_flow s) = Some f /\ fc_type f = CONDITION_RUNOFF)) \/
              ((if empty_name (rs_flow s) then Ret None else match lookup fc_name (cf_flow cf) (rs_flow s) with None => Error | Some fc => match fc_type fc with CONDITION_RUNOFF => Ret (Some fc) | _ => Error end end) = Error
                 /\ ~ (rs_flow s <> ""%string -> exists f, lookup fc_name (cf_flow cf) (rs_flow s) = Some f /\ fc_type f = CONDITION_RUNOFF))).
  { destruct (empty_name (rs_flow s)) eqn:En.
    - left. eexists. split; [reflexivity|]. intros N. apply empty_name_spec in En. contradiction.
    - assert (Nn : rs_flow s <> ""%string) by (intros X; apply empty_name_spec in X; congruence).
      destruct (lookup fc_name (cf_flow cf) (rs_flow s)) as [f|]; [|right; split; [reflexivity|intros H; destruct (H Nn) as (f & D & _); discriminate]].
      destruct (fc_type f) eqn:Et; try (right; split; [reflexivity|intros H; destruct (H Nn) as (f' & [= <-] & D); congruence]).
      left. eexists. split; [reflexivity|]. intros _. exists f. auto. }
  destruct F as [(x & -> & F)|(-> & F)]; cbn [rbind].
  2:{ right. split; [|reflexivity]. intros H. destruct (H s eq_refl) as (H0 & _). exact (F H0). }
  assert (T : forall b n, (b && negb (empty_name n))%bool = false <-> (b = true -> n = ""%string)).
  { intros b n. destruct b; cbn [andb]; [|split; [discriminate|reflexivity]]. rewrite Bool.negb_false_iff, empty_name_spec. split; auto. }
  unfold check. destruct (_ || _)%bool eqn:E; cbn [negb].
  - right. split; [|reflexivity]. intros H. destruct (H s eq_refl) as (_ & H1 & H2 & H3).
    assert (K : (Nat.ltb 0 (cf_classes cf) && negb (empty_name (rs_sediment s)) || cf_has_salinity cf && negb (empty_name (rs_salinity s)) || cf_has_heat cf && negb (empty_name (rs_temperature s)))%bool = false).
    { rewrite !Bool.orb_false_iff, !T. repeat split; auto. intros L. apply H1. now apply Nat.ltb_lt. }
    congruence.
  - left. split; [|eauto]. rewrite !Bool.orb_false_iff, !T in E. destruct E as ((E1 & E2) & E3). intros s' [= <-]. split; [exact F|]. split; [|auto]. intros L. apply E1. now apply Nat.ltb_lt.
Qed.
Theorem C34_errors_exactly cf rs :
  ((forall g, In g rs -> source_usable cf g) -> exists srcs, InitSources cf rs = Ret srcs) /\
  ((exists g, In g rs /\ ~ source_usable cf g) -> InitSources cf rs = Error).
Proof.
  split.
  - intros H. apply rmap_exists. intros g Hg. destruct (region_source_cases cf g) as [(_ & E)|(N & _)]; [exact E|]. exfalso. exact (N (H g Hg)).
  - intros (g & Hg & N). apply rmap_error.
    + intros a _. destruct (region_source_cases cf a) as [(_ & x & ->)|(_ & ->)]; discriminate.
    + exists g. split; [exact Hg|]. destruct (region_source_cases cf g) as [(U & _)|(_ & E)]; [contradiction|exact E].
Qed.
Print Assumptions C34_errors_exactly.
(* rain on the upper region; a reflecting condition given as a source *)
Example C34_errors_example :
  let rain := FlowCondition "rain" CONDITION_RUNOFF None None None None (Some 5%R) in
  let wall := FlowCondition "wall" CONDITION_REFLECTING None None None None None in
  let with_source n := Config [rain; wall] [] [] [] 1 true false [] [] [] [RegionSpec "upper" n "" "" ""] [] in
  (forall g, In g [upper; lower] -> source_usable (with_source "rain"%string) g) /\ ~ source_usable (with_source "wall"%string) upper.
Proof.
  cbv zeta. split.
  - intros g [<-|[<-|[]]] s E; cbn in E; [|discriminate]. injection E as <-. cbn. repeat split; try discriminate. intros _. eexists. split; reflexivity.
  - intros H. destruct (H _ eq_refl) as (H0 & _). destruct H0 as (f & E & Et); [discriminate|]. cbn in E. injection E as <-. discriminate.
Qed.

(* Regions numbered 1, 2 as mesh generators do: the source of the last region is applied nowhere or in another region. *)
Theorem C34_configured_source_applied_refuted :
  (* the source configured for the region is not applied at all *)
  (exists cf st srcs st' g, set_up st /\ disjoint_regions (r_regions st) /\ InitSources cf (r_regions st) = Ret srcs /\ InitSourceConditions srcs st = Ok st' /\
     In g (r_regions st) /\ In 0%Z (rg_owned g) /\ configured_source cf g = Some (Some 5%R) /\ forall s, value st' s = value st s) /\
  (* the source configured for one region is applied to another *)
  (exists cf st srcs st' g g', set_up st /\ disjoint_regions (r_regions st) /\ InitSources cf (r_regions st) = Ret srcs /\ InitSourceConditions srcs st = Ok st' /\
     In g (r_regions st) /\ In 0%Z (rg_owned g) /\ configured_source cf g = None /\ In g' (r_regions st) /\ In 1%Z (rg_owned g') /\ configured_source cf g' = Some (Some 5%R) /\
     value st' (Source 0 0) = Some 5%R /\ value st' (Source 1 0) = Some 0%R).
Proof.
  split.
  - exists (rain_config "upper"), (source_demo 1 2), [Some (FlowCondition "rain" CONDITION_RUNOFF None None None None (Some 5%R)); None]. eexists. eexists.
    split; [apply source_demo_ok; discriminate|]. split; [apply source_demo_ok; discriminate|]. split; [reflexivity|]. split; [reflexivity|]. split; [left; reflexivity|]. split; [left; reflexivity|]. split; reflexivity.
  - exists (rain_config "lower"), (source_demo 1 2), [None; Some (FlowCondition "rain" CONDITION_RUNOFF None None None None (Some 5%R))]. eexists. do 2 eexists.
    split; [apply source_demo_ok; discriminate|]. split; [apply source_demo_ok; discriminate|]. split; [reflexivity|]. split; [reflexivity|]. split; [left; reflexivity|]. split; [left; reflexivity|]. split; [reflexivity|].
    split; [right; left; reflexivity|]. split; [left; reflexivity|]. repeat split.
Qed.
Print Assumptions C34_configured_source_applied_refuted.

(** ** C35: materials *)
(* the material the surface composition assigns to a region, and the coefficient it prescribes for local cell [c] *)
Definition assigned_material (cf : config) (g : region) : option material :=
  let* sm := lookup fst (cf_surface cf) (name_of (rg_name g)) in lookup mt_name (cf_materials cf) (snd sm).
Definition coefficient (m : material) (c : nat) : option R := match mt_file m with Some d => nth_error d c | None => mt_manning m end.

Definition covers (cf : config) (g : region) : Prop := exists sm, In sm (cf_surface cf) /\ fst sm = name_of (rg_name g).
Definition material_writes (cf : config) (rs : list region) (m : material) (p : nat * R) : Prop :=
  exists g i c v, In g rs /\ covers cf g /\ nth_error (rg_cells g) i = Some c /\ coefficient m i = Some v /\ p = (c, v).
Lemma combine_seq0_in {A} (l : list A) k a : In (k, a) (combine (seq 0 (length l)) l) <-> nth_error l k = Some a.
Proof. rewrite combine_seq_in, Nat.sub_0_r. split; [intros (_ & H); exact H|intros H; split; [lia|exact H]]. Qed.
Lemma read_material_writing cf rs m : (forall g i, In g rs -> i < length (rg_cells g) -> coefficient m i <> None) -> writing (fun v => read_material cf rs v m) (material_writes cf rs m).
Proof.
  intros D. unfold read_material. apply (writing_loop (fun g p => exists sm, In sm (cf_surface cf) /\ fst sm = name_of (rg_name g) /\ exists i c v, nth_error (rg_cells g) i = Some c /\ coefficient m i = Some v /\ p = (c, v))).
  - intros g Hg. apply (writing_loop (fun sm p => fst sm = name_of (rg_name g) /\ exists i c v, nth_error (rg_cells g) i = Some c /\ coefficient m i = Some v /\ p = (c, v))).
    + intros sm Hsm. destruct (String.eqb_spec (fst sm) (name_of (rg_name g))) as [E|N].
      * apply (writing_loop (fun ic p => exists v, coefficient m (fst ic) = Some v /\ p = (snd ic, v))).
        -- intros (i, c) Hic. cbn [fst snd]. apply combine_seq0_in in Hic. assert (Li : i < length (rg_cells g)) by (apply nth_error_Some; congruence). assert (Di := D g i Hg Li). fold (coefficient m i). destruct (coefficient m i) as [v|]; [|congruence]. cbn [obind].
           eapply writing_ext; [apply (writing_one c v)|reflexivity|]. intros p. split; [intros ->; eauto|intros (w & [= <-] & ->); reflexivity].
        -- intros p. split.
           ++ intros ((i, c) & Hic & v & Ev & ->). apply combine_seq0_in in Hic. split; [exact E|]. exists i, c, v. auto.
           ++ intros (_ & i & c & v & Hi & Ev & ->). exists (i, c). split; [apply combine_seq0_in; exact Hi|]. exists v. auto.
      * eapply writing_ext; [exact writing_nothing|reflexivity|]. intros p. split; [contradiction|intros (E & _); contradiction].
    + intros p. split; [intros (sm & Hsm & E & H); exists sm; auto|intros (sm & Hsm & E & H); exists sm; auto].
  - intros p. split.
    + intros (g & Hg & sm & Hsm & E & i & c & v & Hi & Ev & ->). exists g, i, c, v. split; [exact Hg|]. split; [exists sm; auto|]. auto.
    + intros (g & i & c & v & Hg & (sm & Hsm & E) & Hi & Ev & ->). exists g. split; [exact Hg|]. exists sm. split; [exact Hsm|]. split; [exact E|]. exists i, c, v. auto.
Qed.

Lemma last_material_everywhere cf owned l2o rs mat ms m : mesh_part owned l2o rs -> cf_materials cf = ms ++ [m] -> forallb (region_has_material cf) rs = true -> length mat = num_owned owned ->
  (forall m' g i, In m' (cf_materials cf) -> In g rs -> i < length (rg_cells g) -> coefficient m' i <> None) ->
  exists mat', InitMaterialProperties cf owned l2o rs mat = Ret mat' /\ length mat' = length mat /\
    forall g i c o, In g rs -> nth_error (rg_cells g) i = Some c -> owns owned c -> nth_error l2o c = Some (Z.of_nat o) -> nth_error mat' o = coefficient m i.
Proof.
  intros M Em Hm Lm D. unfold InitMaterialProperties, check. rewrite Hm.
  assert (Cov : forall g, In g rs -> covers cf g).
  { intros g Hg. rewrite forallb_forall in Hm. specialize (Hm g Hg). unfold region_has_material in Hm. apply existsb_exists in Hm. destruct Hm as (sm & Hsm & E). apply Bool.andb_true_iff in E. destruct E as (E & _). apply String.eqb_eq in E. exists sm. auto. }
  assert (Bd : forall m' i v, material_writes cf rs m' (i, v) -> i < length owned).
  { intros m' i v (g & k & c & w & Hg & _ & Hc & _ & [= -> <-]). apply (mp_bound _ _ _ M g); [exact Hg|]. eapply nth_error_In. exact Hc. }
  assert (Pre : forall ms0 u, (forall m', In m' ms0 -> In m' (cf_materials cf)) -> length u = length owned -> exists u', ofold (read_material cf rs) ms0 u = Some u' /\ length u' = length owned).
  { induction ms0 as [|a t IH]; intros u Hin Lu; [exists u; auto|]. assert (Wa := read_material_writing cf rs a (fun g i => D a g i (Hin a (or_introl eq_refl)))).
    destruct (writing_defined _ _ u Wa) as (u1 & E1 & L1); [intros i v Hw; rewrite Lu; exact (Bd a i v Hw)|]. destruct (IH u1) as (u' & E & L); [intros; apply Hin; right; assumption|congruence|]. exists u'. cbn. rewrite E1. cbn. auto. }
  destruct (Pre ms (repeat 0%R (length owned))) as (u0 & E0 & L0); [intros m' H; rewrite Em; apply in_or_app; auto|apply repeat_length|].
  assert (Hmm : In m (cf_materials cf)) by (rewrite Em; apply in_or_app; right; left; reflexivity).
  destruct (writing_effect _ _ u0 (read_material_writing cf rs m (fun g i => D m g i Hmm))) as (vals & Ev & Lv & Wv & _).
  { intros i v v' (g & k & c & w & Hg & _ & Hc & Hw & [= -> <-]) (g' & k' & c' & w' & Hg' & _ & Hc' & Hw' & [= <- <-]).
    assert (g = g') by (eapply (mp_disjoint _ _ _ M); [exact Hg|exact Hg'|eapply nth_error_In; exact Hc|eapply nth_error_In; exact Hc']). subst g'.
    assert (k = k'). { assert (ND := mp_nodup _ _ _ M g Hg). rewrite NoDup_nth_error in ND. apply ND; [apply nth_error_Some; congruence|congruence]. } subst k'. congruence. }
  { intros i v Hw. rewrite L0. exact (Bd m i v Hw). }
  rewrite Em, ofold_app, E0. cbn [obind ofold]. rewrite Ev. cbn [obind].
  assert (W2 : writing (fun mt => ofold (fun mt i => if is_owned owned i then let* o := nth_error l2o i in let* v := nth_error vals i in zset mt o v else Some mt) (seq 0 (length owned)) mt)
    (fun p => exists i o v, i < length owned /\ owns owned i /\ nth_error l2o i = Some (Z.of_nat o) /\ nth_error vals i = Some v /\ p = (o, v))).
  { apply (writing_loop (fun i p => exists o v, owns owned i /\ nth_error l2o i = Some (Z.of_nat o) /\ nth_error vals i = Some v /\ p = (o, v))).
    - intros i Hi. apply in_seq in Hi. destruct (is_owned owned i) eqn:Eo.
      + assert (Oi : owns owned i) by (apply owns_is; split; [lia|exact Eo]). destruct (l2o_owned_part owned l2o rs i M Oi) as (o & Ei & Lo). rewrite Ei. cbn [obind]. destruct (nth_error vals i) as [v|] eqn:Evi; [|apply nth_error_None in Evi; lia]. cbn [obind].
        eapply writing_ext; [apply (writing_one o v)|intros u; unfold zset; replace (Z.ltb (Z.of_nat o) 0) with false by (symmetry; apply Z.ltb_ge; lia); rewrite Nat2Z.id; reflexivity|].
        intros p. split; [intros ->; exists o, v; auto|]. intros (o' & v' & _ & E' & [= <-] & ->). injection E' as E'. apply Nat2Z.inj in E'. congruence.
      + eapply writing_ext; [exact writing_nothing|reflexivity|]. intros p. split; [contradiction|]. intros (o & v & Oi & _). apply owns_is in Oi. destruct Oi. congruence.
    - intros p. split; [intros (i & Hi & o & v & H); apply in_seq in Hi; exists i, o, v; split; [lia|exact H]|intros (i & o & v & Hi & H); exists i; split; [apply in_seq; lia|exists o, v; exact H]]. }
  destruct (writing_effect _ _ mat W2) as (mat' & E & L & W & _).
  { intros o v v' (i & o1 & w & Hi & Oi & Ei & Evi & [= <- <-]) (i' & o2 & w' & Hi' & Oi' & Ei' & Evi' & [= <- <-]). assert (i = i') by (eapply (l2o_inj_part owned l2o rs); eassumption). congruence. }
  { intros o v (i & o1 & w & Hi & Oi & Ei & Evi & [= <- <-]). rewrite Lm. destruct (l2o_owned_part owned l2o rs i M Oi) as (o' & E' & Lo). rewrite Ei in E'. injection E' as E'. apply Nat2Z.inj in E'. lia. }
  rewrite E. cbn [of_option]. exists mat'. split; [reflexivity|]. split; [exact L|]. intros g i c o Hg Hi Oc Eo.
  assert (Lc : c < length owned) by (apply (mp_bound _ _ _ M g _ Hg); eapply nth_error_In; exact Hi). assert (Li : i < length (rg_cells g)) by (apply nth_error_Some; congruence).
  destruct (coefficient m i) as [v|] eqn:Evi; [|exfalso; exact (D m g i Hmm Hg Li Evi)]. apply W. exists c, o, v. split; [exact Lc|]. split; [exact Oc|]. split; [exact Eo|]. split; [|reflexivity].
  apply Wv. exists g, i, c, v. split; [exact Hg|]. split; [apply Cov, Hg|]. auto.
Qed.
(* What the code does: every cell receives the coefficient of the last material of the configuration, whatever the
   material of its region; from a file, the entry taken is the cell's position in its region. *)
Theorem C35_last_material_everywhere cf owned l2o rs mat ms m : mesh_ok owned l2o rs -> cf_materials cf = ms ++ [m] -> forallb (region_has_material cf) rs = true -> length mat = num_owned owned ->
  (forall m' g i, In m' (cf_materials cf) -> In g rs -> i < length (rg_cells g) -> coefficient m' i <> None) ->
  exists mat', InitMaterialProperties cf owned l2o rs mat = Ret mat' /\ length mat' = length mat /\
    forall g i c o, In g rs -> nth_error (rg_cells g) i = Some c -> owns owned c -> nth_error l2o c = Some (Z.of_nat o) -> nth_error mat' o = coefficient m i.
Proof. intros M. apply last_material_everywhere, mesh_ok_part, M. Qed.
Print Assumptions C35_last_material_everywhere.

(* Every cell's coefficient is the one its region's material prescribes, if there is one material for all regions and
   it is given by a number, or by a file with a single region listing the cells in order.  Partial: otherwise it is
   not, see below. *)
Theorem C35_coefficient_of_region_material_partial cf owned l2o rs mat m : mesh_ok owned l2o rs -> cf_materials cf = [m] -> (forall g, In g rs -> assigned_material cf g = Some m) -> length mat = num_owned owned ->
  (mt_file m = None -> mt_manning m <> None) ->
  (forall d, mt_file m = Some d -> length d >= length owned /\ forall g i c, In g rs -> nth_error (rg_cells g) i = Some c -> c = i) ->
  exists mat', InitMaterialProperties cf owned l2o rs mat = Ret mat' /\ length mat' = length mat /\
    forall g c o m', In g rs -> In c (rg_cells g) -> owns owned c -> nth_error l2o c = Some (Z.of_nat o) -> assigned_material cf g = Some m' -> nth_error mat' o = coefficient m' c.
Proof.
  intros M Em Ha Lm Hn Hf. destruct (C35_last_material_everywhere cf owned l2o rs mat [] m M) as (mat' & E & L & W).
  - exact Em.
  - apply forallb_forall. intros g Hg. specialize (Ha g Hg). unfold assigned_material in Ha. destruct (lookup fst (cf_surface cf) (name_of (rg_name g))) as [sm|] eqn:Es; [|discriminate]. cbn [obind] in Ha. apply lookup_in in Es, Ha.
    apply existsb_exists. exists sm. split; [apply Es|]. apply Bool.andb_true_iff. split; [apply String.eqb_eq, Es|]. apply existsb_exists. exists m. split; [apply Ha|]. apply String.eqb_eq, Ha.
  - exact Lm.
  - intros m' g i Hm Hg Hi. rewrite Em in Hm. destruct Hm as [<-|[]]. unfold coefficient. destruct (mt_file m) as [d|] eqn:Ed; [|exact (Hn eq_refl)]. destruct (Hf d eq_refl) as (Ld & Hpos). apply nth_error_Some.
    destruct (nth_error (rg_cells g) i) as [c|] eqn:Ec; [|apply nth_error_None in Ec; lia]. rewrite <- (Hpos g i c Hg Ec). assert (c < length owned) by (apply (mo_bound _ _ _ M g _ Hg); eapply nth_error_In; exact Ec). lia.
  - exists mat'. split; [exact E|]. split; [exact L|]. intros g c o m' Hg Hc Oc Eo Hm'. rewrite (Ha g Hg) in Hm'. injection Hm' as <-. apply In_nth_error in Hc. destruct Hc as (i & Hi). rewrite (W g i c o Hg Hi Oc Eo).
    unfold coefficient. destruct (mt_file m) as [d|] eqn:Ed; [|reflexivity]. rewrite (proj2 (Hf d eq_refl) g i c Hg Hi). reflexivity.
Qed.
Print Assumptions C35_coefficient_of_region_material_partial.
(* Setup reports an error exactly when some region has no entry naming a material that exists. *)
Theorem C35_missing_material_rejected cf owned l2o rs mat : InitMaterialProperties cf owned l2o rs mat = Error <->
  exists g, In g rs /\ forall sm m, In sm (cf_surface cf) -> In m (cf_materials cf) -> fst sm = name_of (rg_name g) -> snd sm <> mt_name m.
Proof.
  assert (K : forall g, region_has_material cf g = false <-> forall sm m, In sm (cf_surface cf) -> In m (cf_materials cf) -> fst sm = name_of (rg_name g) -> snd sm <> mt_name m).
  { intros g. unfold region_has_material. rewrite <- Bool.not_true_iff_false, existsb_exists. split.
    - intros N sm m Hs Hm E E'. apply N. exists sm. split; [exact Hs|]. apply Bool.andb_true_iff. split; [now apply String.eqb_eq|].
      apply existsb_exists. exists m. split; [exact Hm|]. now apply String.eqb_eq.
    - intros H (sm & Hs & E). apply Bool.andb_true_iff in E. destruct E as (E & E'). apply String.eqb_eq in E. apply existsb_exists in E'. destruct E' as (m & Hm & E').
      apply String.eqb_eq in E'. exact (H sm m Hs Hm E (eq_sym E')). }
  unfold InitMaterialProperties, check. destruct (forallb (region_has_material cf) rs) eqn:F.
  - split.
    + destruct (let* _ := _ in _) as [x|]; discriminate.
    + intros (g & Hg & N). apply K in N. rewrite forallb_forall in F. rewrite (F g Hg) in N. discriminate.
  - split; [intros _|reflexivity]. rewrite <- Bool.not_true_iff_false in F.
    destruct (find (fun g => negb (region_has_material cf g)) rs) as [g|] eqn:Ef.
    + apply find_some in Ef. destruct Ef as (Hg & N). exists g. split; [exact Hg|]. apply K. now apply Bool.negb_true_iff.
    + exfalso. apply F. apply forallb_forall. intros g Hg. pose proof (find_none _ _ Ef g Hg) as N. cbn in N. now apply Bool.negb_false_iff.
Qed.
Print Assumptions C35_missing_material_rejected.
Example C35_missing_example : let sand := Material "sand" None (Some (1 / 50)%R) in
  forall sm m, In sm [("upper", "sand"); ("lower", "clay")]%string -> In m [sand] -> fst sm = name_of (rg_name lower) -> snd sm <> mt_name m.
Proof. intros sand sm m [<-|[<-|[]]] [<-|[]]; cbn; discriminate. Qed.
Definition material_config (ms : list material) (sf : list (string * string)) : config := Config [] [] [] [] 0 false false ms sf [] [] [].
Example material_example : let m := Material "grass" None (Some (3/100)%R) in let cf := material_config [m] [("lower", "grass"); ("upper", "grass")]%string in
  mesh_ok demo_owned demo_l2o [upper; lower] /\ forall g, In g [upper; lower] -> assigned_material cf g = Some m.
Proof. cbv zeta. split; [exact demo_mesh|]. intros g [<-|[<-|[]]]; reflexivity. Qed.

Theorem C35_coefficient_of_region_material_refuted :
  (* two materials: a region with the first gets the coefficient of the second *)
  (exists cf owned l2o rs mat', mesh_ok owned l2o rs /\ InitMaterialProperties cf owned l2o rs (repeat 0%R 3) = Ret mat' /\ In upper rs /\ nth_error l2o 0 = Some 0%Z /\
     (let* m := assigned_material cf upper in coefficient m 0) = Some (1/100)%R /\ nth_error mat' 0 = Some (5/100)%R) /\
  (* one material read from a file: the second region gets the values of the first cells *)
  (exists cf owned l2o rs mat', mesh_ok owned l2o rs /\ InitMaterialProperties cf owned l2o rs (repeat 0%R 3) = Ret mat' /\ In lower rs /\ nth_error l2o 3 = Some 2%Z /\
     (let* m := assigned_material cf lower in coefficient m 3) = Some 4%R /\ nth_error mat' 2 = Some 2%R).
Proof.
  split.
  - exists (material_config [Material "grass" None (Some (1/100)%R); Material "rock" None (Some (5/100)%R)] [("upper", "grass"); ("lower", "rock")]%string), demo_owned, demo_l2o, [upper; lower]. eexists.
    split; [exact demo_mesh|]. split; [reflexivity|]. split; [left; reflexivity|]. repeat split.
  - exists (material_config [Material "soil" (Some [1; 2; 3; 4]%R) None] [("upper", "soil"); ("lower", "soil")]%string), demo_owned, demo_l2o, [upper; lower]. eexists.
    split; [exact demo_mesh|]. split; [reflexivity|]. split; [right; left; reflexivity|]. repeat split.
Qed.
Print Assumptions C35_coefficient_of_region_material_refuted.

(** ** C36: boundary conditions *)
(* the boundary condition entries of the configuration that list the boundary *)
Definition entries_for (cf : config) (b : boundary) : list boundary_spec := filter (fun s => existsb (fun n => String.eqb n (name_of (bd_name b))) (bs_boundaries s)) (cf_boundary cf).
(* the flow condition an entry names; reflecting if it names none *)
Definition entry_condition (cf : config) (s : boundary_spec) (f : flow_condition) : Prop :=
  if String.eqb (bs_flow s) "" then fc_type f = CONDITION_REFLECTING else lookup fc_name (cf_flow cf) (bs_flow s) = Some f.
(* an entry is usable if the conditions it names exist *)
Definition flow_named (cf : config) (s : boundary_spec) : Prop := bs_flow s = ""%string \/ exists f, lookup fc_name (cf_flow cf) (bs_flow s) = Some f.

Lemma bc_index_spec specs name found : bc_index specs name found =
  match found, filter (fun s => existsb (fun n => String.eqb n name) (bs_boundaries s)) specs with
  | x, [] => Ret x | None, [s] => Ret (Some s) | _, _ => Error
  end.
Proof.
  revert found. induction specs as [|s t IH]; intros found; cbn [bc_index filter]; [destruct found; reflexivity|]. destruct (existsb (fun n => String.eqb n name) (bs_boundaries s)).
  - destruct found as [x|]; [reflexivity|]. rewrite IH. destruct (filter _ t); reflexivity.
  - rewrite IH. reflexivity.
Qed.
Lemma boundary_condition_Ret cf r b bc : fc_type r = CONDITION_REFLECTING -> boundary_condition cf r b = Ret bc ->
  match entries_for cf b with [] => fc_type (bc_flow_ bc) = CONDITION_REFLECTING /\ bc_auto bc = true | [s] => entry_condition cf s (bc_flow_ bc) /\ bc_auto bc = false | _ => False end.
Proof.
  intros Hr. unfold boundary_condition. rewrite bc_index_spec. fold (entries_for cf b). destruct (entries_for cf b) as [|s [|s' t]]; cbn [rbind]; [intros [= <-]; auto| |discriminate].
  unfold entry_condition, empty_name. destruct (String.eqb (bs_flow s) "") eqn:En; cbn [rbind].
  - destruct (if Nat.ltb 0 (cf_classes cf) then _ else _) as [sed| |]; cbn [rbind]; try discriminate. destruct (if cf_has_salinity cf then _ else _) as [sal| |]; cbn [rbind]; try discriminate. intros [= <-]. auto.
  - rewrite <- lookup_find_named. destruct (lookup fc_name (cf_flow cf) (bs_flow s)) as [f|]; cbn [rbind]; [|discriminate].
    destruct (if Nat.ltb 0 (cf_classes cf) then _ else _) as [sed| |]; cbn [rbind]; try discriminate. destruct (if cf_has_salinity cf then _ else _) as [sal| |]; cbn [rbind]; try discriminate. intros [= <-]. auto.
Qed.

(* After successful setup every boundary has exactly one flow condition: the one of the only entry listing it, or an
   automatically generated reflecting one if there is none. *)
Theorem C36_one_condition_per_boundary cf bs bcs : InitBoundaryConditions cf bs = Ret bcs ->
  length bcs = length bs /\
  forall i b bc, nth_error bs i = Some b -> nth_error bcs i = Some bc ->
    match entries_for cf b with
    | [] => fc_type (bc_flow_ bc) = CONDITION_REFLECTING /\ bc_auto bc = true
    | [s] => entry_condition cf s (bc_flow_ bc) /\ bc_auto bc = false
    | _ => False
    end.
Proof.
  unfold InitBoundaryConditions, reflecting_flow. destruct (existsb _ _ || _)%bool; [|discriminate]. intros H. destruct (rmap_Ret _ _ _ H) as (L & W). split; [exact L|].
  intros i b bc Hb Hbc. refine (boundary_condition_Ret cf _ b bc _ (W i b bc Hb Hbc)). reflexivity.
Qed.
Print Assumptions C36_one_condition_per_boundary.

(* Without tracers: two entries for one boundary, or an entry naming a condition that does not exist, are errors, and
   nothing else is, as long as there is room for the reflecting condition. *)
Theorem C36_errors_exactly_partial cf bs : cf_classes cf = 0 -> cf_has_salinity cf = false -> length (cf_flow cf) < MAX_NUM_CONDITIONS ->
  ((exists b s s' t, In b bs /\ entries_for cf b = s :: s' :: t) -> InitBoundaryConditions cf bs = Error) /\
  ((exists b s, In b bs /\ entries_for cf b = [s] /\ ~ flow_named cf s) -> InitBoundaryConditions cf bs = Error) /\
  ((forall b, In b bs -> entries_for cf b = [] \/ exists s, entries_for cf b = [s] /\ flow_named cf s) -> exists bcs, InitBoundaryConditions cf bs = Ret bcs).
Proof.
  intros Hc Hs Hl. unfold InitBoundaryConditions, reflecting_flow. replace (Nat.ltb (length (cf_flow cf)) MAX_NUM_CONDITIONS) with true by (symmetry; apply Nat.ltb_lt; exact Hl). rewrite Bool.orb_true_r. cbv iota. set (r := FlowCondition _ _ _ _ _ _ _).
  assert (NoUB : forall b, boundary_condition cf r b <> UB).
  { intros b. unfold boundary_condition. rewrite bc_index_spec, Hc, Hs. cbn [Nat.ltb Nat.leb]. destruct (filter _ (cf_boundary cf)) as [|s [|s' t]]; cbn [rbind]; try discriminate. destruct (empty_name (bs_flow s)); cbn [rbind]; [discriminate|]. destruct (find_named fc_name (cf_flow cf) (bs_flow s)); cbn [rbind]; discriminate. }
  split; [|split].
  - intros (b & s & s' & t & Hb & E). apply rmap_error; [intros; apply NoUB|]. exists b. split; [exact Hb|]. unfold boundary_condition. rewrite bc_index_spec. fold (entries_for cf b). rewrite E. reflexivity.
  - intros (b & s & Hb & E & N). apply rmap_error; [intros; apply NoUB|]. exists b. split; [exact Hb|]. unfold boundary_condition. rewrite bc_index_spec. fold (entries_for cf b). rewrite E. cbn [rbind].
    destruct (empty_name (bs_flow s)) eqn:En; [exfalso; apply N; left; apply empty_name_spec; exact En|]. rewrite <- lookup_find_named. destruct (lookup fc_name (cf_flow cf) (bs_flow s)) as [f|] eqn:Ef; [exfalso; apply N; right; eauto|reflexivity].
  - intros H. apply rmap_exists. intros b Hb. unfold boundary_condition. rewrite bc_index_spec, Hc, Hs. fold (entries_for cf b). cbn [Nat.ltb Nat.leb]. destruct (H b Hb) as [->|(s & -> & F)]; cbn [rbind]; [eauto|].
    destruct (empty_name (bs_flow s)) eqn:En; cbn [rbind]; [eauto|]. destruct F as [F|(f & F)]; [apply empty_name_spec in F; congruence|]. rewrite <- lookup_find_named, F. cbn [rbind]. eauto.
Qed.
Print Assumptions C36_errors_exactly_partial.
(* With tracers too, two entries for one boundary never succeed. *)
Theorem C36_two_conditions_never_accepted cf bs b s s' t : In b bs -> entries_for cf b = s :: s' :: t -> forall bcs, InitBoundaryConditions cf bs <> Ret bcs.
Proof.
  intros Hb E bcs H. destruct (C36_one_condition_per_boundary cf bs bcs H) as (L & W). apply In_nth_error in Hb. destruct Hb as (i & Hi).
  destruct (nth_error bcs i) as [bc|] eqn:Ebc; [|apply nth_error_None in Ebc; assert (i < length bs) by (apply nth_error_Some; congruence); lia]. specialize (W i b bc Hi Ebc). rewrite E in W. exact W.
Qed.
Print Assumptions C36_two_conditions_never_accepted.

(* With any tracers, setup accepts exactly the configurations with room for the reflecting condition in which every
   boundary has at most one entry and this entry names existing conditions (for the sediment and the salinity, if there
   are any, it must name one). *)
Definition boundary_assigned (cf : config) (b : boundary) : Prop := entries_for cf b = [] \/ exists s, entries_for cf b = [s] /\ flow_named cf s /\
  (0 < cf_classes cf -> bs_sediment s <> ""%string /\ exists c, lookup sc_name (cf_sediment cf) (bs_sediment s) = Some c) /\
  (cf_has_salinity cf = true -> bs_salinity s <> ""%string /\ exists c, lookup kc_name (cf_salinity cf) (bs_salinity s) = Some c).
Theorem C36_accepted_exactly cf bs : (exists bcs, InitBoundaryConditions cf bs = Ret bcs) <->
  ((exists f, In f (cf_flow cf) /\ fc_name f = ""%string) \/ length (cf_flow cf) < MAX_NUM_CONDITIONS) /\ (forall b, In b bs -> boundary_assigned cf b).
Proof.
  assert (K : forall r b, (exists bc, boundary_condition cf r b = Ret bc) <-> boundary_assigned cf b).
  { intros r b. unfold boundary_assigned, boundary_condition, flow_named. rewrite bc_index_spec. fold (entries_for cf b).
    destruct (entries_for cf b) as [|s [|s' t]]; cbn [rbind].
    - split; [now left|eauto].
    - rewrite <- lookup_find_named. split.
      + intros (bc & E). right. exists s. split; [reflexivity|].
        destruct (if empty_name (bs_flow s) then _ else _) as [x| |] eqn:E0 in E; cbn [rbind] in E; try discriminate.
        destruct (if Nat.ltb 0 (cf_classes cf) then find_unchecked sc_name (fun _ => true) (cf_sediment cf) (bs_sediment s) else Ret None) as [y| |] eqn:E1; cbn [rbind] in E; try discriminate.
        destruct (if cf_has_salinity cf then find_unchecked kc_name (fun _ => true) (cf_salinity cf) (bs_salinity s) else Ret None) as [z| |] eqn:E2; cbn [rbind] in E; try discriminate.
        split; [|split].
        * destruct (empty_name (bs_flow s)) eqn:En; [left; now apply empty_name_spec|]. right. destruct (lookup fc_name (cf_flow cf) (bs_flow s)) as [f|]; [now exists f|discriminate].
        * intros H. rewrite (proj2 (Nat.ltb_lt _ _) H) in E1. apply find_unchecked_iff in E1. destruct E1 as (N & a & Ea & _). split; [exact N|now exists a].
        * intros H. rewrite H in E2. apply find_unchecked_iff in E2. destruct E2 as (N & a & Ea & _). split; [exact N|now exists a].
      + intros [D|(s' & [= <-] & Hf & H1 & H2)]; [discriminate|].
        assert (E0 : exists x, (if empty_name (bs_flow s) then Ret r else match lookup fc_name (cf_flow cf) (bs_flow s) with Some fc => Ret fc | None => Error end) = Ret x).
        { destruct (empty_name (bs_flow s)) eqn:En; [eauto|]. destruct Hf as [Hf|(f & ->)]; [apply empty_name_spec in Hf; congruence|eauto]. }
        assert (E1 : exists x, (if Nat.ltb 0 (cf_classes cf) then find_unchecked sc_name (fun _ => true) (cf_sediment cf) (bs_sediment s) else Ret None) = Ret x).
        { destruct (Nat.ltb_spec 0 (cf_classes cf)) as [L|_]; [|eauto]. destruct (H1 L) as (N & a & Ea). exists (Some a). apply find_unchecked_iff. split; [exact N|]. exists a. auto. }
        assert (E2 : exists x, (if cf_has_salinity cf then find_unchecked kc_name (fun _ => true) (cf_salinity cf) (bs_salinity s) else Ret None) = Ret x).
        { destruct (cf_has_salinity cf); [|eauto]. destruct (H2 eq_refl) as (N & a & Ea). exists (Some a). apply find_unchecked_iff. split; [exact N|]. exists a. auto. }
        destruct E0 as (x & ->), E1 as (y & ->), E2 as (z & ->). cbn [rbind]. eauto.
    - split; [intros (bc & E); discriminate|intros [D|(s0 & D & _)]; discriminate]. }
  assert (Hroom : (existsb (fun f => empty_name (fc_name f)) (cf_flow cf) || Nat.ltb (length (cf_flow cf)) MAX_NUM_CONDITIONS)%bool = true <->
                 (exists f, In f (cf_flow cf) /\ fc_name f = ""%string) \/ length (cf_flow cf) < MAX_NUM_CONDITIONS).
  { rewrite Bool.orb_true_iff, existsb_exists, Nat.ltb_lt. split; (intros [(f & Hf & N)|L]; [left; exists f; split; [exact Hf|now apply empty_name_spec]|now right]). }
  rewrite <- Hroom. unfold InitBoundaryConditions, reflecting_flow. destruct (_ || _)%bool.
  - split.
    + intros (bcs & E). split; [reflexivity|]. intros b Hb. destruct (rmap_Ret _ _ _ E) as (L & W). apply In_nth_error in Hb. destruct Hb as (i & Hi).
      destruct (nth_error bcs i) as [bc|] eqn:Ebc; [|apply nth_error_None in Ebc; assert (i < length bs) by (apply nth_error_Some; congruence); lia].
      eapply K. exists bc. exact (W i b bc Hi Ebc).
    + intros (_ & H). apply rmap_exists. intros b Hb. apply K, H, Hb.
  - split; [intros (bcs & E); discriminate|intros (E & _); discriminate].
Qed.
Print Assumptions C36_accepted_exactly.

Definition wall : boundary := Boundary 0 1 (Some "wall"%string) [0; 1].
Definition inlet : boundary := Boundary 1 2 (Some "inlet"%string) [2].
Definition bc_config (flow : list flow_condition) (classes : nat) (bcs : list boundary_spec) : config := Config flow [] [] [] classes false false [] [] [] [] bcs.
Example boundary_example :
  (exists bcs, InitBoundaryConditions (bc_config [still "deep" 2] 0 [BoundarySpec ["inlet"%string] "deep" "" ""]) [wall; inlet] = Ret bcs /\ map bc_auto bcs = [true; false] /\ map (fun c => fc_type (bc_flow_ c)) bcs = [CONDITION_REFLECTING; CONDITION_DIRICHLET]) /\
  InitBoundaryConditions (bc_config [still "deep" 2] 0 [BoundarySpec ["inlet"%string] "deep" "" ""; BoundarySpec ["wall"; "inlet"]%string "" "" ""]) [wall; inlet] = Error.
Proof. split; [eexists; split; [reflexivity|split; reflexivity]|reflexivity]. Qed.
(* sediment and salinity on the inlet *)
Example boundary_tracer_example : let cf := Config [still "deep" 2] [SedimentCondition "muddy" CONDITION_DIRICHLET [(None, Some (1/2)%R)]] [ScalarCondition "sea" CONDITION_DIRICHLET None (Some 30%R)] [] 1 true false [] [] [] []
    [BoundarySpec ["inlet"%string] "deep" "muddy" "sea"] in
  forall b, In b [wall; inlet] -> boundary_assigned cf b.
Proof. cbv zeta. apply C36_accepted_exactly. eexists. reflexivity. Qed.

(* A sediment condition that does not exist is not reported but used; a configuration with the largest number of flow
   conditions is refused although every boundary has its condition. *)
Theorem C36_errors_exactly_refuted :
  (exists cf bs, InitBoundaryConditions cf bs = UB) /\
  (exists cf bs, length (cf_flow cf) = MAX_NUM_CONDITIONS /\ (forall b, In b bs -> exists s f, entries_for cf b = [s] /\ lookup fc_name (cf_flow cf) (bs_flow s) = Some f) /\ InitBoundaryConditions cf bs = Error).
Proof.
  split.
  - exists (bc_config [still "deep" 2] 1 [BoundarySpec ["inlet"%string] "deep" "muddy" ""]), [inlet]. reflexivity.
  - exists (bc_config (repeat (still "deep" 2) 32) 0 [BoundarySpec ["inlet"%string] "deep" "" ""]), [inlet]. split; [reflexivity|]. split; [|reflexivity]. intros b [<-|[]]. do 2 eexists. split; reflexivity.
Qed.
Print Assumptions C36_errors_exactly_refuted.

(** *** The values on Dirichlet boundaries *)
(* the conditions the operator sees are the ones assigned *)
Definition conditions_recorded (st : rdy) (bcs : list (boundary * boundary_conditions)) : Prop :=
  NoDup (map (fun bc => bd_index (fst bc)) bcs) /\
  forall b c, In (b, c) bcs -> nth_error (r_boundaries st) (bd_index b) = Some b /\ exists cd, nth_error (r_conds st) (bd_index b) = Some cd /\ bc_flow cd = Some (fc_type (bc_flow_ c)).
Definition flow_entry (f : flow_condition) (k : nat) : option R := match k with 0 => fc_height f | 1 => fc_xmom f | _ => fc_ymom f end.
Lemma rows_nth (h hu hv : R) n e k : e < n -> k < 3 -> nth_error (concat (repeat [h; hu; hv] n)) (3 * e + k) = nth_error [h; hu; hv] k.
Proof.
  revert e. induction n as [|n IH]; intros e He Hk; [lia|]. cbn [repeat concat]. destruct e as [|e].
  - rewrite nth_error_app1 by (cbn; lia). f_equal; lia.
  - rewrite nth_error_app2 by (cbn; lia). rewrite <- (IH e) by lia. f_equal. cbn [length]. lia.
Qed.
Lemma rows_length (h hu hv : R) n : length (concat (repeat [h; hu; hv] n)) = 3 * n.
Proof. induction n as [|n IH]; [reflexivity|]. cbn [repeat concat]. rewrite app_length, IH. cbn [length]. lia. Qed.

(* Every edge of a boundary with a Dirichlet condition holds its depth and momenta; nothing else changes. *)
Theorem C36_dirichlet_values_applied : forall bcs st, set_up st -> conditions_recorded st bcs ->
  (forall b c, In (b, c) bcs -> In (fc_type (bc_flow_ c)) [CONDITION_DIRICHLET; CONDITION_REFLECTING; CONDITION_CRITICAL_OUTFLOW]) ->
  (forall b c k, In (b, c) bcs -> fc_type (bc_flow_ c) = CONDITION_DIRICHLET -> flow_entry (bc_flow_ c) k <> None) ->
  exists st', InitDirichlet bcs st = Ok st' /\ set_up st' /\
    (forall b c e k, In (b, c) bcs -> fc_type (bc_flow_ c) = CONDITION_DIRICHLET -> e < length (bd_edges b) -> k < 3 -> value st' (BoundaryValue (bd_index b) e k) = flow_entry (bc_flow_ c) k) /\
    (forall s, (forall b c e k, In (b, c) bcs -> fc_type (bc_flow_ c) = CONDITION_DIRICHLET -> k < 3 -> s <> BoundaryValue (bd_index b) e k) -> value st' s = value st s).
Proof.
  induction bcs as [|(b, c) t IH]; intros st U (ND & Rec) Ty Dv.
  - exists st. split; [reflexivity|]. split; [exact U|]. split; [contradiction|reflexivity].
  - cbn [map fst] in ND. inversion ND as [|x y Nb ND']; subst. assert (Rec' : conditions_recorded st t) by (split; [exact ND'|intros; apply Rec; right; assumption]).
    assert (Ty' : forall b c, In (b, c) t -> In (fc_type (bc_flow_ c)) [CONDITION_DIRICHLET; CONDITION_REFLECTING; CONDITION_CRITICAL_OUTFLOW]) by (intros; eapply Ty; right; eassumption).
    assert (Dv' : forall b c k, In (b, c) t -> fc_type (bc_flow_ c) = CONDITION_DIRICHLET -> flow_entry (bc_flow_ c) k <> None) by (intros; eapply Dv; [right; eassumption|assumption]).
    assert (Skip : fc_type (bc_flow_ c) <> CONDITION_DIRICHLET -> exists st', InitDirichlet t st = Ok st' /\ set_up st' /\
      (forall b0 c0 e k, In (b0, c0) ((b, c) :: t) -> fc_type (bc_flow_ c0) = CONDITION_DIRICHLET -> e < length (bd_edges b0) -> k < 3 -> value st' (BoundaryValue (bd_index b0) e k) = flow_entry (bc_flow_ c0) k) /\
      (forall s, (forall b0 c0 e k, In (b0, c0) ((b, c) :: t) -> fc_type (bc_flow_ c0) = CONDITION_DIRICHLET -> k < 3 -> s <> BoundaryValue (bd_index b0) e k) -> value st' s = value st s)).
    { intros Nd. destruct (IH st U Rec' Ty' Dv') as (st' & E & U' & W & Fr). exists st'. split; [exact E|]. split; [exact U'|]. split.
      - intros b0 c0 e k [[= <- <-]|H] Hd; [contradiction|]. eauto.
      - intros s Hs. apply Fr. intros b0 c0 e k H Hd Hk. apply (Hs b0 c0 e k); [right; exact H|exact Hd|exact Hk]. }
    cbn [InitDirichlet]. destruct (Ty b c (or_introl eq_refl)) as [Ec|[Ec|[Ec|[]]]]; rewrite <- Ec in *; try (apply Skip; discriminate). clear Skip.
    destruct (Rec b c (or_introl eq_refl)) as (Eb & cd & Ecd & Fcd).
    assert (D0 := Dv b c 0 (or_introl eq_refl) (eq_sym Ec)). assert (D1 := Dv b c 1 (or_introl eq_refl) (eq_sym Ec)). assert (D2 := Dv b c 2 (or_introl eq_refl) (eq_sym Ec)). cbn [flow_entry] in D0, D1, D2.
    destruct (fc_height (bc_flow_ c)) as [h|] eqn:Eh; [|congruence]. destruct (fc_xmom (bc_flow_ c)) as [hu|] eqn:Ehu; [|congruence]. destruct (fc_ymom (bc_flow_ c)) as [hv|] eqn:Ehv; [|congruence]. cbn [obind].
    set (vals := concat (repeat [h; hu; hv] (length (bd_edges b)))). replace (if Nat.eqb (length (bd_edges b)) 0 then Some [] else Some vals) with (Some vals) by (unfold vals; destruct (Nat.eqb_spec (length (bd_edges b)) 0) as [Z0|]; [rewrite Z0|]; reflexivity).
    assert (Zb : forall {A} (l : list A) x, nth_error l (bd_index b) = Some x -> zget l (Z.of_nat (bd_index b)) = Some x).
    { intros A l x Hx. unfold zget. replace (Z.ltb (Z.of_nat (bd_index b)) 0) with false by (symmetry; apply Z.ltb_ge; lia). rewrite Nat2Z.id. exact Hx. }
    destruct (exec_spec st (FlowValues (Z.of_nat (bd_index b)) (Z.of_nat (length (bd_edges b))) 3 vals) U ltac:(cbn [announced]; unfold vals; rewrite rows_length; lia) I I) as (X & _).
    destruct X as (st1 & E1 & U1 & P1 & W1). { cbn [valid]. split; [|reflexivity]. exists b, cd. split; [apply Zb; exact Eb|]. split; [apply Zb; exact Ecd|]. split; [reflexivity|rewrite Ec; exact Fcd]. }
    cbn [exec] in E1. rewrite E1. assert (R1 : r_boundaries st1 = r_boundaries st) by (unfold params in P1; congruence). assert (R2 : r_conds st1 = r_conds st) by (unfold params in P1; congruence).
    destruct (IH st1 U1) as (st' & E & U' & W & Fr); [unfold conditions_recorded; rewrite R1, R2; exact Rec'|exact Ty'|exact Dv'|]. exists st'. split; [exact E|]. split; [exact U'|]. split.
    + intros b0 c0 e k [[= <- <-]|H] Hd He Hk; [|eauto]. rewrite Fr.
      * rewrite W1. unfold updated, assigns. rewrite Z.eqb_refl. unfold num_edges. rewrite Eb. replace (Nat.ltb e (length (bd_edges b))) with true by (symmetry; apply Nat.ltb_lt; exact He). replace (Nat.ltb k 3) with true by (symmetry; apply Nat.ltb_lt; exact Hk). cbn [andb].
        unfold vals. rewrite rows_nth by assumption. destruct k as [|[|[|k]]]; cbn; try congruence; lia.
      * intros b1 c1 e1 k1 H1 _ _ X. injection X as X _ _. apply Nb. rewrite X. apply (in_map (fun bc => bd_index (fst bc)) t (b1, c1)). exact H1.
    + intros s Hs. rewrite Fr; [|intros b0 c0 e k H Hd Hk; apply (Hs b0 c0 e k); [right; exact H|exact Hd|exact Hk]]. rewrite W1. unfold updated, assigns. destruct s as [| |b' e k]; try reflexivity.
      destruct (Z.eqb_spec (Z.of_nat b') (Z.of_nat (bd_index b))) as [Eb'|]; [|reflexivity]. apply Nat2Z.inj in Eb'. subst b'. destruct (Nat.ltb e _); [|reflexivity]. destruct (Nat.ltb_spec k 3) as [Hk|]; [|reflexivity].
      exfalso. apply (Hs b c e k (or_introl eq_refl) (eq_sym Ec) Hk). reflexivity.
Qed.
Print Assumptions C36_dirichlet_values_applied.
Example dirichlet_example : let st := demo false 0 false false all_dirichlet in let b := Boundary 0 2 None [4; 5] in let c := BoundaryConditions (still "deep" 2) None None false in
  set_up st /\ conditions_recorded st [(b, c)].
Proof.
  cbv zeta. split; [apply demo_set_up; discriminate|]. split; [cbn; constructor; [intros []|constructor]|]. intros b c [[= <- <-]|[]]. split; [reflexivity|]. eexists. split; reflexivity.
Qed.
