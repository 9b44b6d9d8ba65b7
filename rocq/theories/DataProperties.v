(** C31, C32, C33, C56: data set through the API lands exactly where it should; invalid requests are rejected. *)
From Verif Require Import Base MeshMapsModel MeshMapsProofs DataModel DataProofs.
From Coq Require Import String.
Local Open Scope nat_scope.
Local Notation length := List.length.

(** ** Specification *)
(* State after setup: arrays of the right sizes, distinct region ids, regions listing distinct owned cells,
   a flow condition on every boundary. *)
Definition set_up (st : rdy) : Prop :=
  r_ncomp st = 3 + r_classes st + (if r_salinity st then 1 else 0) + (if r_heat st then 1 else 0) /\
  length (r_src st) = r_ncomp st * r_owned st /\ length (r_mat st) = r_owned st /\
  map rg_index (r_regions st) = seq 0 (length (r_regions st)) /\ NoDup (map rg_id (r_regions st)) /\
  (forall g, In g (r_regions st) -> NoDup (rg_owned g) /\ in_range (r_owned st) (rg_owned g)) /\
  map bd_index (r_boundaries st) = seq 0 (length (r_boundaries st)) /\
  length (r_conds st) = length (r_boundaries st) /\ length (r_bvals st) = length (r_boundaries st) /\
  (forall i bd d, nth_error (r_boundaries st) i = Some bd -> nth_error (r_bvals st) i = Some d -> length d = r_ncomp st * length (bd_edges bd)) /\
  (forall c, In c (r_conds st) -> bc_flow c <> None).

(* What can be observed *)
Inductive slot := Source (cell comp : nat) | Manning (cell : nat) | BoundaryValue (b e comp : nat).
Definition value (st : rdy) (s : slot) : option R :=
  match s with
  | Source cell comp => if Nat.ltb comp (r_ncomp st) then nth_error (r_src st) (r_ncomp st * cell + comp) else None
  | Manning cell => nth_error (r_mat st) cell
  | BoundaryValue b e comp => let* d := nth_error (r_bvals st) b in if Nat.ltb comp (r_ncomp st) then nth_error d (r_ncomp st * e + comp) else None
  end.
(* position of a cell in a region's list *)
Fixpoint position (ids : list Z) (z : Z) : option nat :=
  match ids with [] => None | a :: t => if Z.eqb a z then Some 0 else option_map S (position t z) end.
Definition num_edges (st : rdy) (b : nat) : nat := match nth_error (r_boundaries st) b with Some bd => length (bd_edges bd) | None => 0 end.

(* What a call is meant to set: the value it gives to a slot, if it concerns that slot *)
Definition assigns (st : rdy) (c : call) (s : slot) : option R :=
  match c, s with
  | FlowValues b _ _ vs, BoundaryValue b' e k =>
    if (Z.eqb (Z.of_nat b') b && Nat.ltb e (num_edges st b') && Nat.ltb k 3)%bool then nth_error vs (3 * e + k) else None
  | SedimentValues b _ _ vs, BoundaryValue b' e k =>
    if (Z.eqb (Z.of_nat b') b && Nat.ltb e (num_edges st b') && (Nat.leb 3 k && Nat.ltb k (3 + r_classes st)))%bool then nth_error vs (r_classes st * e + (k - 3)) else None
  | SalinityValues b _ vs, BoundaryValue b' e k =>
    if (Z.eqb (Z.of_nat b') b && Nat.ltb e (num_edges st b') && Nat.eqb k (3 + r_classes st))%bool then nth_error vs e else None
  | TemperatureValues b _ vs, BoundaryValue b' e k =>
    if (Z.eqb (Z.of_nat b') b && Nat.ltb e (num_edges st b') && Nat.eqb k (3 + r_classes st + (if r_salinity st then 1 else 0)))%bool then nth_error vs e else None
  | RegionalSource k id _ vs, Source cell comp =>
    if Z.eqb (Z.of_nat comp) k then let* g := find_region (r_regions st) id in let* i := position (rg_owned g) (Z.of_nat cell) in nth_error vs i else None
  | HomogeneousSource k id v, Source cell comp =>
    if Z.eqb (Z.of_nat comp) k then let* g := find_region (r_regions st) id in let* i := position (rg_owned g) (Z.of_nat cell) in Some v else None
  | DomainSource k _ vs, Source cell comp => if (Z.eqb (Z.of_nat comp) k && Nat.ltb cell (r_owned st))%bool then nth_error vs cell else None
  | RegionalManning j _ vs, Manning cell => let* g := zget (r_regions st) j in let* i := position (rg_owned g) (Z.of_nat cell) in nth_error vs i
  | DomainManning _ vs, Manning cell => if Nat.ltb cell (r_owned st) then nth_error vs cell else None
  | _, _ => None
  end.

(* The arrays passed have the announced numbers of entries. *)
Definition announced (c : call) : Prop :=
  match c with
  | FlowValues _ ne ndof vs => Z.of_nat (length vs) = (ne * ndof)%Z
  | SedimentValues _ ne ncl vs => Z.of_nat (length vs) = (ne * ncl)%Z
  | SalinityValues _ ne vs | TemperatureValues _ ne vs => Z.of_nat (length vs) = ne
  | RegionalSource _ _ size vs | DomainSource _ size vs | RegionalManning _ size vs | DomainManning size vs => Z.of_nat (length vs) = size
  | HomogeneousSource _ _ _ => True
  end.
(* the component exists *)
Definition component_exists (st : rdy) (c : call) : Prop :=
  match c with
  | RegionalSource k _ _ _ | HomogeneousSource k _ _ | DomainSource k _ _ => (0 <= k < Z.of_nat (r_ncomp st))%Z
  | _ => True
  end.
(* the condition concerned is present (and, with CEED, the flow condition of the boundary is of Dirichlet type) *)
Definition condition_present (st : rdy) (c : call) : Prop :=
  let present (field : bcond -> option ctype) (b : Z) := forall cd, zget (r_conds st) b = Some cd -> field cd <> None /\ (r_ceed st = true -> bc_flow cd = Some CONDITION_DIRICHLET) in
  match c with
  | SedimentValues b _ _ _ => present bc_sediment b
  | SalinityValues b _ _ => present bc_salinity b
  | TemperatureValues b _ _ => present bc_temperature b
  | _ => True
  end.
(* A request is valid if the boundary or region exists, the sizes and numbers of components fit and the
   boundary has a Dirichlet condition for the quantity.  A region id absent from this process is valid: the
   region has no cells here. *)
Definition valid (st : rdy) (c : call) : Prop :=
  let dirichlet (field : bcond -> option ctype) (b ne : Z) :=
    exists bd cd, zget (r_boundaries st) b = Some bd /\ zget (r_conds st) b = Some cd /\ ne = Z.of_nat (length (bd_edges bd)) /\ field cd = Some CONDITION_DIRICHLET in
  match c with
  | FlowValues b ne ndof _ => dirichlet bc_flow b ne /\ ndof = 3%Z
  | SedimentValues b ne ncl _ => dirichlet bc_sediment b ne /\ ncl = Z.of_nat (r_classes st)
  | SalinityValues b ne _ => dirichlet bc_salinity b ne /\ r_salinity st = true
  | TemperatureValues b ne _ => dirichlet bc_temperature b ne /\ r_heat st = true
  | RegionalSource _ id size _ => forall g, In g (r_regions st) -> rg_id g = id -> size = Z.of_nat (length (rg_owned g))
  | HomogeneousSource _ _ _ => True
  | DomainSource _ size _ | DomainManning size _ => size = Z.of_nat (r_owned st)
  | RegionalManning j size _ => exists g, zget (r_regions st) j = Some g /\ size = Z.of_nat (length (rg_owned g))
  end.

Definition params (st : rdy) :=
  (r_ceed st, r_second_order st, (r_classes st, r_salinity st, r_heat st, r_ncomp st, r_owned st), (r_regions st, r_boundaries st, r_conds st)).

(** ** Lemmas *)
Lemma find_region_spec rs id : (forall g, find_region rs id = Some g -> In g rs /\ rg_id g = id) /\ (find_region rs id = None -> forall g, In g rs -> rg_id g <> id).
Proof.
  induction rs as [|a t IH]; cbn; [split; [discriminate|contradiction]|]. destruct (Z.eqb_spec (rg_id a) id) as [E|N]; split.
  - intros g [= <-]. auto. - discriminate.
  - intros g H. apply IH in H. tauto. - intros H g [<-|Hg]; [exact N|apply IH; assumption].
Qed.
Lemma find_region_unique rs id g : NoDup (map rg_id rs) -> In g rs -> rg_id g = id -> find_region rs id = Some g.
Proof.
  induction rs as [|a t IH]; cbn; [contradiction|]. intros ND [->|Hg] E.
  - destruct (Z.eqb_spec (rg_id g) id); [reflexivity|contradiction].
  - inversion ND as [|x l Nx ND']; subst. destruct (Z.eqb_spec (rg_id a) (rg_id g)) as [Ea|Na]; [exfalso; apply Nx; rewrite Ea; apply in_map; exact Hg|]. apply IH; auto.
Qed.
Lemma position_some ids z i : NoDup ids -> (position ids z = Some i <-> nth_error ids i = Some z).
Proof.
  revert i. induction ids as [|a t IH]; intros i ND; cbn; [split; [discriminate|destruct i; discriminate]|]. inversion ND as [|x l Na ND']; subst.
  destruct (Z.eqb_spec a z) as [->|N].
  - split; [intros [= <-]; reflexivity|]. destruct i as [|i]; [reflexivity|]. cbn. intros H. exfalso. apply Na. eapply nth_error_In. exact H.
  - destruct i as [|i]; cbn.
    + split; [destruct (position t z); discriminate|congruence].
    + rewrite <- (IH i ND'). destruct (position t z); cbn; split; congruence.
Qed.
Lemma position_none ids z : position ids z = None <-> ~ In z ids.
Proof.
  induction ids as [|a t IH]; cbn; [tauto|]. destruct (Z.eqb_spec a z) as [->|N]; [split; [discriminate|tauto]|].
  destruct (position t z) as [i|]; cbn.
  - split; [discriminate|]. intros H. exfalso. assert (X : Some i = None) by (apply IH; tauto). discriminate.
  - split; [|reflexivity]. intros _ [E|Hin]; [contradiction|]. apply IH; auto.
Qed.
Lemma at_nat nc cell comp : at_ nc (Z.of_nat cell) comp = Z.of_nat (nc * cell + comp).
Proof. unfold at_. lia. Qed.
Lemma region_index_lt st g : set_up st -> In g (r_regions st) -> region_index_ok st g = true.
Proof.
  intros (_ & _ & _ & Hi & _) Hg. unfold region_index_ok. apply Nat.ltb_lt. assert (H : In (rg_index g) (map rg_index (r_regions st))) by (apply in_map; exact Hg).
  rewrite Hi in H. apply in_seq in H. lia.
Qed.
Lemma set_up_src st d : set_up st -> length d = length (r_src st) -> set_up (with_src st d).
Proof. intros (A & B & C) L. split; [exact A|]. split; [cbn; rewrite L; exact B|]. exact C. Qed.
Lemma set_up_mat st d : set_up st -> length d = length (r_mat st) -> set_up (with_mat st d).
Proof. intros (A & B & C & D) L. split; [exact A|]. split; [exact B|]. split; [cbn; rewrite L; exact C|]. exact D. Qed.

(* editing a component of the sources of a list of cells *)
Lemma edit_src_ok st ids k f : set_up st -> NoDup ids -> in_range (r_owned st) ids -> (0 <= k < Z.of_nat (r_ncomp st))%Z -> (forall i, i < length ids -> exists v, f i = Some v) ->
  exists st', edit_src st ids k (length ids) f = Some st' /\ set_up st' /\ params st' = params st /\
    forall s, value st' s = match s with
      | Source cell comp => match (if Z.eqb (Z.of_nat comp) k then let* i := position ids (Z.of_nat cell) in f i else None) with Some v => Some v | None => value st s end
      | _ => value st s end.
Proof.
  intros U ND Hr Hk Hf. assert (U' := U). destruct U' as (_ & L & _).
  destruct (edit_rows (r_ncomp st) (r_owned st) ids (Z.to_nat k) f (r_src st) ND Hr L ltac:(lia) Hf) as (vs & vs' & d & E1 & E2 & E3 & Ld & W & F).
  rewrite Z2Nat.id in E2 by lia. exists (with_src st d). unfold edit_src. rewrite E1. cbn [obind]. rewrite E2. cbn [obind]. rewrite E3. cbn [obind].
  split; [reflexivity|]. split; [apply set_up_src; assumption|]. split; [reflexivity|]. intros [cell comp|cell|b e comp]; [|reflexivity|reflexivity].
  unfold value, with_src. cbn [r_ncomp r_src]. destruct (Nat.ltb_spec comp (r_ncomp st)) as [Hc|Hc].
  - rewrite <- !zget_nat, <- at_nat. destruct (Z.eqb_spec (Z.of_nat comp) k) as [E|N].
    + destruct (position ids (Z.of_nat cell)) as [i|] eqn:Ep; cbn [obind].
      * apply (position_some ids _ _ ND) in Ep. assert (Li : i < length ids) by (apply nth_error_Some; congruence). destruct (Hf i Li) as (v & Ev). rewrite Ev.
        rewrite <- Ev. replace comp with (Z.to_nat k) by lia. apply W. exact Ep.
      * apply position_none in Ep. apply F; [exact Hc|lia|right; exact Ep].
    + apply F; [exact Hc|lia|left; lia].
  - destruct (Z.eqb_spec (Z.of_nat comp) k); [lia|reflexivity].
Qed.
Lemma edit_mat_ok st ids f : set_up st -> NoDup ids -> in_range (r_owned st) ids -> (forall i, i < length ids -> exists v, f i = Some v) ->
  exists st', edit_mat st ids (length ids) f = Some st' /\ set_up st' /\ params st' = params st /\
    forall s, value st' s = match s with
      | Manning cell => match (let* i := position ids (Z.of_nat cell) in f i) with Some v => Some v | None => value st s end
      | _ => value st s end.
Proof.
  intros U ND Hr Hf. assert (U' := U). destruct U' as (_ & _ & L & _).
  assert (L1 : length (r_mat st) = NUM_MATERIAL_PROPERTIES * r_owned st) by (unfold NUM_MATERIAL_PROPERTIES; lia).
  destruct (edit_rows NUM_MATERIAL_PROPERTIES (r_owned st) ids 0 f (r_mat st) ND Hr L1 (Nat.lt_0_succ 0) Hf) as (vs & vs' & d & E1 & E2 & E3 & Ld & W & F).
  exists (with_mat st d). unfold edit_mat. rewrite E1. cbn [obind]. change MATERIAL_PROPERTY_MANNINGS with (Z.of_nat 0). rewrite E2. cbn [obind]. rewrite E3. cbn [obind].
  split; [reflexivity|]. split; [apply set_up_mat; assumption|]. split; [reflexivity|]. intros [cell comp|cell|b e comp]; [reflexivity| |reflexivity].
  unfold value, with_mat. cbn [r_mat]. assert (A : at_ NUM_MATERIAL_PROPERTIES (Z.of_nat cell) 0 = Z.of_nat cell) by (rewrite at_nat; unfold NUM_MATERIAL_PROPERTIES; f_equal; lia).
  destruct (position ids (Z.of_nat cell)) as [i|] eqn:Ep; cbn [obind].
  - apply (position_some ids _ _ ND) in Ep. assert (Li : i < length ids) by (apply nth_error_Some; congruence). destruct (Hf i Li) as (v & Ev). rewrite Ev.
    rewrite <- zget_nat, <- A, <- Ev. apply W. exact Ep.
  - apply position_none in Ep. rewrite <- !zget_nat, <- A. apply F; [exact (Nat.lt_0_succ 0)|lia|right; exact Ep].
Qed.
Lemma domain_ids_spec n : NoDup (domain_ids n) /\ in_range n (domain_ids n) /\ length (domain_ids n) = n /\
  forall cell, position (domain_ids n) (Z.of_nat cell) = if Nat.ltb cell n then Some cell else None.
Proof.
  assert (ND : NoDup (domain_ids n)) by (apply FinFun.Injective_map_NoDup; [intros a b H; lia|apply seq_NoDup]).
  split; [exact ND|]. split; [intros z Hz; apply in_map_iff in Hz; destruct Hz as (i & <- & Hi); apply in_seq in Hi; lia|].
  split; [unfold domain_ids; rewrite map_length, seq_length; reflexivity|]. intros cell. destruct (Nat.ltb_spec cell n) as [H|H].
  - apply (position_some _ _ _ ND). unfold domain_ids. rewrite nth_error_map, (nth_error_nth' _ 0) by (rewrite seq_length; exact H). rewrite seq_nth by exact H. reflexivity.
  - apply position_none. intros Hin. apply in_map_iff in Hin. destruct Hin as (i & Ei & Hi). apply in_seq in Hi. lia.
Qed.
Lemma nth_defined (vs : list R) n : length vs = n -> forall i, i < n -> exists v, nth_error vs i = Some v.
Proof. intros L i Hi. destruct (nth_error vs i) eqn:E; [eauto|]. apply nth_error_None in E. lia. Qed.

(* setting a block of components on a boundary *)
Lemma set_boundary_ok st i bd cd off nc ne vs : set_up st -> nth_error (r_boundaries st) i = Some bd -> nth_error (r_conds st) i = Some cd ->
  (r_ceed st = true -> bc_flow cd = Some CONDITION_DIRICHLET) -> off + nc <= r_ncomp st -> ne = Z.of_nat (length (bd_edges bd)) -> length vs = nc * length (bd_edges bd) ->
  exists st', SetOperatorBoundaryValues st bd off nc ne vs = Ok st' /\ set_up st' /\ params st' = params st /\
    forall s, value st' s = match s with
      | BoundaryValue b e k => match (if (Z.eqb (Z.of_nat b) (Z.of_nat i) && Nat.ltb e (num_edges st b) && (Nat.leb off k && Nat.ltb k (off + nc)))%bool then nth_error vs (nc * e + (k - off)) else None) with
                               | Some v => Some v | None => value st s end
      | _ => value st s end.
Proof.
  intros U Eb Ec Hceed Ho -> Lv. assert (U' := U). destruct U' as (U1 & U2 & U3 & U4 & U5 & U6 & U7 & U8 & U9 & U10 & U11).
  assert (Li : i < length (r_boundaries st)) by (apply nth_error_Some; congruence).
  assert (Ei : bd_index bd = i).
  { assert (H := map_nth_error bd_index i _ Eb). rewrite U7, (nth_error_nth' _ 0) in H by (rewrite seq_length; exact Li). rewrite seq_nth in H by exact Li. injection H as H; lia. }
  unfold SetOperatorBoundaryValues. rewrite Z.eqb_refl.
  destruct (nth_error (r_bvals st) i) as [d|] eqn:Ed; [|apply nth_error_None in Ed; lia].
  assert (Ld := U10 i bd d Eb Ed).
  destruct (put_boundary_some (r_ncomp st) off nc (length (bd_edges bd)) vs d Ld Ho Lv) as (d' & Ep & Ld' & W).
  destruct (upd_some (r_bvals st) i d' ltac:(lia)) as (bv & Ebv).
  assert (X : (if r_ceed st then let* i0 := ceed_boundary_sub_op (r_second_order st) (length (r_boundaries st)) (bd_index bd) in let* c := nth_error (r_conds st) i0 in let* t := bc_flow c in if is_dirichlet t then Some i0 else None else Some (bd_index bd)) = Some i).
  { rewrite Ei. destruct (r_ceed st); [|reflexivity]. rewrite ceed_sub_op_index by exact Li. cbn [obind]. rewrite Ec. cbn [obind]. rewrite Hceed by reflexivity. reflexivity. }
  rewrite X. cbn [obind]. rewrite Ed. cbn [obind]. rewrite Ep. cbn [obind]. rewrite Ebv. cbn [obind defined]. eexists. split; [reflexivity|].
  assert (G : forall j, nth_error bv j = if Nat.eqb j i then Some d' else nth_error (r_bvals st) j) by (intros j; apply (upd_get _ _ _ _ j Ebv)).
  split; [|split; [reflexivity|]].
  - unfold set_up, with_bvals. cbn. repeat (split; [assumption|]). split; [rewrite (upd_length _ _ _ _ Ebv); exact U9|]. split; [|exact U11].
    intros j bd0 d0 Ej Ed0. rewrite G in Ed0. destruct (Nat.eqb_spec j i) as [->|N]; [injection Ed0 as <-; rewrite Eb in Ej; injection Ej as <-; lia|exact (U10 j bd0 d0 Ej Ed0)].
  - intros [cell comp|cell|b e k]; [reflexivity|reflexivity|]. unfold value, with_bvals. cbn [r_bvals r_ncomp]. rewrite G.
    destruct (Nat.eqb_spec b i) as [->|N].
    + rewrite Z.eqb_refl. cbn [andb]. unfold num_edges. rewrite Eb, Ed. cbn [obind]. destruct (Nat.ltb_spec k (r_ncomp st)) as [Hk|Hk].
      * destruct (Nat.ltb_spec e (length (bd_edges bd))) as [He|He]; cbn [andb].
        { rewrite W by assumption. destruct (Nat.leb off k && Nat.ltb k (off + nc))%bool eqn:B; [|reflexivity].
          apply Bool.andb_true_iff in B. destruct B as (B1 & B2). apply Nat.leb_le in B1. apply Nat.ltb_lt in B2.
          destruct (nth_defined vs _ Lv (nc * e + (k - off))) as (v & Ev); [assert (nc * S e <= nc * length (bd_edges bd)) by (apply Nat.mul_le_mono_l; lia); lia|]. rewrite Ev. reflexivity. }
        { assert (N1 : nth_error d (r_ncomp st * e + k) = None) by (apply nth_error_None; rewrite Ld; assert (r_ncomp st * length (bd_edges bd) <= r_ncomp st * e) by (apply Nat.mul_le_mono_l; lia); lia).
          assert (N2 : nth_error d' (r_ncomp st * e + k) = None) by (apply nth_error_None; rewrite Ld', Ld; assert (r_ncomp st * length (bd_edges bd) <= r_ncomp st * e) by (apply Nat.mul_le_mono_l; lia); lia).
          rewrite N1, N2. reflexivity. }
      * destruct (Nat.leb_spec off k); destruct (Nat.ltb_spec k (off + nc)); try lia; rewrite ?Bool.andb_false_r; reflexivity.
    + destruct (Z.eqb_spec (Z.of_nat b) (Z.of_nat i)); [lia|]. cbn [andb]. reflexivity.
Qed.

Lemma in_bounds {A} (l : list A) b : (Z.ltb b (Z.of_nat (length l)) && Z.leb 0 b)%bool = true <-> exists x, zget l b = Some x.
Proof.
  rewrite Bool.andb_true_iff, Z.ltb_lt, Z.leb_le. split; [intros H; apply zget_in; lia|]. intros (x & H). unfold zget in H. destruct (Z.ltb_spec b 0) as [|P]; [discriminate|].
  assert (Z.to_nat b < length l) by (apply nth_error_Some; congruence). lia.
Qed.
Lemma zget_inv {A} (l : list A) b x : zget l b = Some x -> exists i, b = Z.of_nat i /\ nth_error l i = Some x.
Proof. unfold zget. destruct (Z.ltb_spec b 0); [discriminate|]. intros H0. exists (Z.to_nat b). split; [lia|exact H0]. Qed.

Definition dirichlet_on (st : rdy) (field : bcond -> option ctype) (b ne : Z) : Prop :=
  exists bd cd, zget (r_boundaries st) b = Some bd /\ zget (r_conds st) b = Some cd /\ ne = Z.of_nat (length (bd_edges bd)) /\ field cd = Some CONDITION_DIRICHLET.
Lemma checked_cases st b ne field k : set_up st -> (forall cd, zget (r_conds st) b = Some cd -> field cd <> None) ->
  (dirichlet_on st field b ne -> exists i bd cd, b = Z.of_nat i /\ nth_error (r_boundaries st) i = Some bd /\ nth_error (r_conds st) i = Some cd /\ field cd = Some CONDITION_DIRICHLET /\
     ne = Z.of_nat (length (bd_edges bd)) /\ checked st b ne (fun bd cd => dirichlet_only st (field cd) (k bd)) = k bd) /\
  (~ dirichlet_on st field b ne -> checked st b ne (fun bd cd => dirichlet_only st (field cd) (k bd)) = Err st).
Proof.
  intros U Hn. assert (Lc : length (r_conds st) = length (r_boundaries st)) by apply U. unfold checked, boundary_at.
  destruct (Z.ltb b (Z.of_nat (length (r_boundaries st))) && Z.leb 0 b)%bool eqn:B.
  - assert (B' := B). apply in_bounds in B'. destruct B' as (bd & Eb). assert (Bc : (Z.ltb b (Z.of_nat (length (r_conds st))) && Z.leb 0 b)%bool = true) by (rewrite Lc; exact B).
    apply in_bounds in Bc. destruct Bc as (cd & Ec). rewrite Eb, Ec. cbn [obind]. specialize (Hn cd Ec).
    destruct (zget_inv _ _ _ Eb) as (i & -> & Ei). rewrite zget_nat in Ec. split.
    + intros (bd' & cd' & Eb' & Ec' & -> & Ef). rewrite Eb in Eb'. injection Eb' as <-. rewrite zget_nat in Ec'. rewrite Ec in Ec'. injection Ec' as <-.
      exists i, bd, cd. do 5 (split; [first [assumption|reflexivity]|]). rewrite Z.eqb_refl. unfold dirichlet_only. rewrite Ef. reflexivity.
    + intros N. destruct (Z.eqb_spec (Z.of_nat (length (bd_edges bd))) ne) as [E|]; [|reflexivity]. unfold dirichlet_only. destruct (field cd) as [t|] eqn:Ef; [|contradiction].
      destruct t; try reflexivity. exfalso. apply N. exists bd, cd. rewrite (zget_nat (r_conds st)). symmetry in E. auto.
  - split; [|reflexivity]. intros (bd & cd & Eb & _). assert (T : (Z.ltb b (Z.of_nat (length (r_boundaries st))) && Z.leb 0 b)%bool = true) by (apply in_bounds; eauto). congruence.
Qed.

Lemma orelse_none {A} (x : option A) : match (None : option A) with Some v => Some v | None => x end = x. Proof. reflexivity. Qed.
Definition updated (st : rdy) (c : call) (s : slot) : option R := match assigns st c s with Some v => Some v | None => value st s end.

(* The central lemma: a valid request succeeds and does what it should, an invalid one is rejected. *)
Lemma exec_spec st c : set_up st -> announced c -> component_exists st c -> condition_present st c ->
  (valid st c -> exists st', exec st c = Ok st' /\ set_up st' /\ params st' = params st /\ forall s, value st' s = updated st c s) /\
  (~ valid st c -> exec st c = Err st).
Proof.
  intros U An Co Pr. assert (U' := U). destruct U' as (U1 & U2 & U3 & U4 & U5 & U6 & U7 & U8 & U9 & U10 & U11).
  destruct c as [b ne ndof vs|b ne ncl vs|b ne vs|b ne vs|k id size vs|k id v|k size vs|j size vs|size vs]; cbn [exec announced component_exists condition_present valid] in *.
  - (* flow *) unfold RDySetFlowDirichletBoundaryValues.
    assert (Hn : forall cd, zget (r_conds st) b = Some cd -> bc_flow cd <> None) by (intros cd Ec; destruct (zget_inv _ _ _ Ec) as (i & -> & Ei); apply U11; eapply nth_error_In; exact Ei).
    destruct (Z.eqb_spec ndof 3) as [->|N3].
    + destruct (checked_cases st b ne bc_flow (fun bd => SetOperatorBoundaryValues st bd 0 3 ne vs) U Hn) as (Y & Z_). split.
      * intros (D & _). destruct (Y D) as (i & bd & cd & -> & Eb & Ec & Ef & -> & ->).
        destruct (set_boundary_ok st i bd cd 0 3 _ vs U Eb Ec (fun _ => Ef) ltac:(lia) eq_refl ltac:(lia)) as (st' & E & S' & P' & V). exists st'. do 3 (split; [assumption|]).
        intros s. rewrite V. unfold updated. destruct s as [cell comp|cell|b e k]; [reflexivity|reflexivity|]. cbn [assigns]. rewrite Nat.sub_0_r. reflexivity.
      * intros N. apply Z_. intros D. apply N. split; [exact D|reflexivity].
    + split; [intros (_ & E); contradiction|]. intros _. unfold checked. destruct (_ && _)%bool eqn:B; [|reflexivity].
      assert (B' := B). apply in_bounds in B'. destruct B' as (bd & Eb). assert (Bc : (Z.ltb b (Z.of_nat (length (r_conds st))) && Z.leb 0 b)%bool = true) by (rewrite U8; exact B). apply in_bounds in Bc. destruct Bc as (cd & Ec).
      unfold boundary_at. rewrite B, Eb, Ec. cbn [obind]. destruct (Z.eqb _ ne); reflexivity.
  - (* sediment *) unfold RDySetSedimentDirichletBoundaryValues.
    assert (Hn : forall cd, zget (r_conds st) b = Some cd -> bc_sediment cd <> None) by (intros cd Ec; apply (Pr cd Ec)).
    destruct (Z.eqb_spec ncl (Z.of_nat (r_classes st))) as [->|N3].
    + destruct (checked_cases st b ne bc_sediment (fun bd => SetOperatorBoundaryValues st bd 3 (r_classes st) ne vs) U Hn) as (Y & Z_). split.
      * intros (D & _). destruct (Y D) as (i & bd & cd & -> & Eb & Ec & Ef & -> & ->). rewrite <- zget_nat in Ec. destruct (Pr cd Ec) as (_ & Hc). rewrite zget_nat in Ec.
        destruct (set_boundary_ok st i bd cd 3 (r_classes st) _ vs U Eb Ec Hc ltac:(lia) eq_refl ltac:(lia)) as (st' & E & S' & P' & V). exists st'. do 3 (split; [assumption|]).
        intros s. rewrite V. unfold updated. destruct s as [cell comp|cell|b e k]; reflexivity.
      * intros N. apply Z_. intros D. apply N. split; [exact D|reflexivity].
    + split; [intros (_ & E); contradiction|reflexivity].
  - (* salinity *) unfold RDySetSalinityDirichletBoundaryValues.
    assert (Hn : forall cd, zget (r_conds st) b = Some cd -> bc_salinity cd <> None) by (intros cd Ec; apply (Pr cd Ec)).
    destruct (r_salinity st) eqn:Es.
    + destruct (checked_cases st b ne bc_salinity (fun bd => SetOperatorBoundaryValues st bd (3 + r_classes st) 1 ne vs) U Hn) as (Y & Z_). split.
      * intros (D & _). destruct (Y D) as (i & bd & cd & -> & Eb & Ec & Ef & -> & ->). rewrite <- zget_nat in Ec. destruct (Pr cd Ec) as (_ & Hc). rewrite zget_nat in Ec.
        destruct (set_boundary_ok st i bd cd (3 + r_classes st) 1 _ vs U Eb Ec Hc ltac:(lia) eq_refl ltac:(lia)) as (st' & E & S' & P' & V). exists st'. do 3 (split; [assumption|]).
        intros s. rewrite V. unfold updated. destruct s as [cell comp|cell|b e k]; [reflexivity|reflexivity|]. cbn [assigns].
        destruct (Nat.leb_spec (3 + r_classes st) k); destruct (Nat.ltb_spec k (3 + r_classes st + 1)); destruct (Nat.eqb_spec k (3 + r_classes st)); try lia; cbn [andb]; rewrite ?Bool.andb_false_r, ?Bool.andb_true_r; try reflexivity.
        replace (1 * e + (k - (3 + r_classes st))) with e by lia. reflexivity.
      * intros N. apply Z_. intros D. apply N. split; [exact D|reflexivity].
    + split; [intros (_ & E); discriminate|reflexivity].
  - (* temperature *) unfold RDySetTemperatureDirichletBoundaryValues.
    assert (Hn : forall cd, zget (r_conds st) b = Some cd -> bc_temperature cd <> None) by (intros cd Ec; apply (Pr cd Ec)).
    destruct (r_heat st) eqn:Es.
    + set (off := 3 + r_classes st + (if r_salinity st then 1 else 0)) in *.
      destruct (checked_cases st b ne bc_temperature (fun bd => SetOperatorBoundaryValues st bd off 1 ne vs) U Hn) as (Y & Z_). split.
      * intros (D & _). destruct (Y D) as (i & bd & cd & -> & Eb & Ec & Ef & -> & ->). rewrite <- zget_nat in Ec. destruct (Pr cd Ec) as (_ & Hc). rewrite zget_nat in Ec.
        destruct (set_boundary_ok st i bd cd off 1 _ vs U Eb Ec Hc ltac:(lia) eq_refl ltac:(lia)) as (st' & E & S' & P' & V). exists st'. do 3 (split; [assumption|]).
        intros s. rewrite V. unfold updated. destruct s as [cell comp|cell|b e k]; [reflexivity|reflexivity|]. cbn [assigns]. fold off.
        destruct (Nat.leb_spec off k); destruct (Nat.ltb_spec k (off + 1)); destruct (Nat.eqb_spec k off); try lia; cbn [andb]; rewrite ?Bool.andb_false_r, ?Bool.andb_true_r; try reflexivity.
        replace (1 * e + (k - off)) with e by lia. reflexivity.
      * intros N. apply Z_. intros D. apply N. split; [exact D|reflexivity].
    + split; [intros (_ & E); discriminate|reflexivity].
  - (* regional source *) unfold SetRegionalSourceComponent. destruct (find_region (r_regions st) id) as [g|] eqn:Eg.
    + assert (Hg := proj1 (find_region_spec _ _) g Eg). destruct Hg as (Hg & Hid). destruct (U6 g Hg) as (ND & Rg). destruct (Z.eqb_spec size (Z.of_nat (length (rg_owned g)))) as [E|N].
      * split; [intros _|intros N; exfalso; apply N; intros g' Hg' Hid'; rewrite (find_region_unique _ _ g' U5 Hg' Hid') in Eg; injection Eg as ->; exact E].
        destruct (Nat.eqb_spec (length (rg_owned g)) 0) as [E0|N0].
        { exists st. do 2 (split; [first [assumption|reflexivity]|]). split; [reflexivity|]. intros s. unfold updated. destruct s as [cell comp|cell|b e k']; cbn [assigns]; try reflexivity.
          destruct (Z.eqb (Z.of_nat comp) k); [|reflexivity]. rewrite Eg. cbn [obind]. destruct (rg_owned g); [reflexivity|discriminate]. }
        rewrite (region_index_lt st g U Hg). destruct (edit_src_ok st (rg_owned g) k (nth_error vs) U ND Rg Co) as (st' & E' & S' & P' & V); [apply nth_defined; lia|].
        rewrite E'. exists st'. split; [reflexivity|]. do 2 (split; [assumption|]). intros s. rewrite V. unfold updated. destruct s as [cell comp|cell|b e k']; cbn [assigns]; try reflexivity.
        destruct (Z.eqb (Z.of_nat comp) k); [|reflexivity]. rewrite Eg. reflexivity.
      * split; [intros Hv; exfalso; apply N; apply Hv; assumption|]. intros _. reflexivity.
    + assert (Nn := proj2 (find_region_spec _ _) Eg). split; [|intros N; exfalso; apply N; intros g Hg Hid; exfalso; exact (Nn g Hg Hid)].
      intros _. exists st. split; [reflexivity|]. split; [assumption|]. split; [reflexivity|]. intros s. unfold updated. destruct s as [cell comp|cell|b e k']; cbn [assigns]; try reflexivity.
      rewrite Eg. destruct (Z.eqb (Z.of_nat comp) k); reflexivity.
  - (* homogeneous *) split; [intros _|intros N; exfalso; exact (N I)]. unfold SetHomogeneousRegionalSourceComponent. destruct (find_region (r_regions st) id) as [g|] eqn:Eg.
    + assert (Hg := proj1 (find_region_spec _ _) g Eg). destruct Hg as (Hg & Hid). destruct (U6 g Hg) as (ND & Rg). destruct (Nat.eqb_spec (length (rg_owned g)) 0) as [E0|N0].
      { exists st. do 2 (split; [first [assumption|reflexivity]|]). split; [reflexivity|]. intros s. unfold updated. destruct s as [cell comp|cell|b e k']; cbn [assigns]; try reflexivity.
        destruct (Z.eqb (Z.of_nat comp) k); [|reflexivity]. rewrite Eg. cbn [obind]. destruct (rg_owned g); [reflexivity|discriminate]. }
      rewrite (region_index_lt st g U Hg). destruct (edit_src_ok st (rg_owned g) k (fun _ => Some v) U ND Rg Co) as (st' & E' & S' & P' & V); [eauto|].
      rewrite E'. exists st'. split; [reflexivity|]. do 2 (split; [assumption|]). intros s. rewrite V. unfold updated. destruct s as [cell comp|cell|b e k']; cbn [assigns]; try reflexivity.
      destruct (Z.eqb (Z.of_nat comp) k); [|reflexivity]. rewrite Eg. reflexivity.
    + exists st. split; [reflexivity|]. split; [assumption|]. split; [reflexivity|]. intros s. unfold updated. destruct s as [cell comp|cell|b e k']; cbn [assigns]; try reflexivity.
      rewrite Eg. destruct (Z.eqb (Z.of_nat comp) k); reflexivity.
  - (* domain source *) unfold SetDomainSourceComponent. destruct (Z.eqb_spec size (Z.of_nat (r_owned st))) as [E|N]; [|split; [intros; contradiction|reflexivity]].
    split; [intros _|intros N; contradiction]. destruct (domain_ids_spec (r_owned st)) as (ND & Rg & Ln & Ps).
    destruct (edit_src_ok st (domain_ids (r_owned st)) k (nth_error vs) U ND Rg Co) as (st' & E' & S' & P' & V); [rewrite Ln; apply nth_defined; lia|]. rewrite Ln in E'. rewrite E'.
    exists st'. split; [reflexivity|]. do 2 (split; [assumption|]). intros s. rewrite V. unfold updated. destruct s as [cell comp|cell|b e k']; cbn [assigns]; try reflexivity.
    destruct (Z.eqb (Z.of_nat comp) k); cbn [andb]; [|reflexivity]. rewrite Ps. destruct (Nat.ltb cell (r_owned st)); reflexivity.
  - (* regional Manning *) unfold RDySetRegionalManningsN. destruct (Z.ltb j (Z.of_nat (length (r_regions st))) && Z.leb 0 j)%bool eqn:B.
    + assert (B' := B). apply in_bounds in B'. destruct B' as (g & Eg). rewrite Eg. destruct (zget_inv _ _ _ Eg) as (i & -> & Ei). assert (Hg : In g (r_regions st)) by (eapply nth_error_In; exact Ei).
      destruct (U6 g Hg) as (ND & Rg). destruct (Z.eqb_spec size (Z.of_nat (length (rg_owned g)))) as [E|N].
      * split; [intros _|intros N; exfalso; apply N; exists g; auto]. rewrite (region_index_lt st g U Hg).
        destruct (edit_mat_ok st (rg_owned g) (nth_error vs) U ND Rg) as (st' & E' & S' & P' & V); [apply nth_defined; lia|]. rewrite E'. exists st'. split; [reflexivity|]. do 2 (split; [assumption|]).
        intros s. rewrite V. unfold updated. destruct s as [cell comp|cell|b e k']; cbn [assigns]; try reflexivity. rewrite Eg. reflexivity.
      * split; [intros (g' & Eg' & Es); injection Eg' as <-; contradiction|reflexivity].
    + split; [|reflexivity]. intros (g & Eg & _). assert (T : (Z.ltb j (Z.of_nat (length (r_regions st))) && Z.leb 0 j)%bool = true) by (apply in_bounds; eauto). congruence.
  - (* domain Manning *) unfold RDySetDomainManningsN. destruct (Z.eqb_spec size (Z.of_nat (r_owned st))) as [E|N]; [|split; [intros; contradiction|reflexivity]].
    split; [intros _|intros N; contradiction]. destruct (domain_ids_spec (r_owned st)) as (ND & Rg & Ln & Ps).
    destruct (edit_mat_ok st (domain_ids (r_owned st)) (nth_error vs) U ND Rg) as (st' & E' & S' & P' & V); [rewrite Ln; apply nth_defined; lia|]. rewrite Ln in E'. rewrite E'.
    exists st'. split; [reflexivity|]. do 2 (split; [assumption|]). intros s. rewrite V. unfold updated. destruct s as [cell comp|cell|b e k']; cbn [assigns]; try reflexivity.
    rewrite Ps. destruct (Nat.ltb cell (r_owned st)); reflexivity.
Qed.

Lemma assigns_params st st' c s : params st' = params st -> assigns st' c s = assigns st c s.
Proof.
  intros H. unfold params in H. injection H as Hce Hse Hcl Hsa Hhe Hnc How Hre Hbo Hco. destruct c, s; cbn [assigns]; try reflexivity; unfold num_edges; rewrite ?Hcl, ?Hsa, ?How, ?Hre, ?Hbo; reflexivity.
Qed.
Lemma pre_params st st' c : params st' = params st -> component_exists st c -> condition_present st c -> component_exists st' c /\ condition_present st' c.
Proof.
  intros H. unfold params in H. injection H as Hce Hse Hcl Hsa Hhe Hnc How Hre Hbo Hco. destruct c; cbn [component_exists condition_present]; rewrite ?Hnc, ?Hco, ?Hce; auto.
Qed.

(* the value the last call concerning the slot gave it *)
Fixpoint last_assigned (st : rdy) (cs : list call) (s : slot) (default : option R) : option R :=
  match cs with
  | [] => default
  | c :: t => last_assigned st t s (match assigns st c s with Some v => Some v | None => default end)
  end.
Definition admissible (st : rdy) (c : call) : Prop := announced c /\ component_exists st c /\ condition_present st c.

(** ** C31, C32: any sequence of accepted calls: every slot holds what the last call concerning it gave, and
    slots concerned by none keep their values.  (The slots of the sources, of the Manning coefficients and
    of the boundary values; [assigns] says which call concerns which slot.) *)
Theorem C31_reads_return_last_writes : forall cs st st', set_up st -> (forall c, In c cs -> admissible st c) -> run st cs = Ok st' ->
  set_up st' /\ forall s, value st' s = last_assigned st cs s (value st s).
Proof.
  intros cs. cut (forall st0 st st', set_up st -> params st = params st0 -> (forall c, In c cs -> admissible st0 c) -> run st cs = Ok st' ->
    set_up st' /\ forall s, value st' s = last_assigned st0 cs s (value st s)); [intros H st st' U A R; exact (H st st st' U eq_refl A R)|].
  intros st0. induction cs as [|c t IH]; intros st st' U P A E; cbn [run last_assigned] in *.
  - injection E as <-. auto.
  - destruct (A c (or_introl eq_refl)) as (An & Co & Pr). destruct (pre_params st0 st c P Co Pr) as (Co' & Pr').
    destruct (exec_spec st c U An Co' Pr') as (Y & Z_).
    destruct (exec st c) as [s1| |] eqn:Ex; try discriminate.
    assert (V : valid st c \/ ~ valid st c) by (apply Classical_Prop.classic). destruct V as [V|V]; [|specialize (Z_ V); discriminate].
    destruct (Y V) as (s2 & E2 & U2 & P2 & W). injection E2 as <-.
    destruct (IH s1 st' U2 (eq_trans P2 P) (fun c' Hc => A c' (or_intror Hc)) E) as (U' & W'). split; [exact U'|].
    intros s. rewrite W', W. unfold updated. rewrite (assigns_params _ _ _ _ P). reflexivity.
Qed.
Print Assumptions C31_reads_return_last_writes.

(** The cases of the English statement, spelt out. *)
(* Setting the source of a region: cells of the region get the given values in order, in that component only *)
Theorem C31_regional_source : forall st k id vs g, set_up st -> In g (r_regions st) -> rg_id g = id -> length vs = length (rg_owned g) -> k < r_ncomp st ->
  exists st', exec st (RegionalSource (Z.of_nat k) id (Z.of_nat (length vs)) vs) = Ok st' /\ set_up st' /\
    (forall i cell, nth_error (rg_owned g) i = Some (Z.of_nat cell) -> value st' (Source cell k) = nth_error vs i) /\
    (forall cell comp, comp <> k \/ ~ In (Z.of_nat cell) (rg_owned g) -> value st' (Source cell comp) = value st (Source cell comp)) /\
    (forall cell, value st' (Manning cell) = value st (Manning cell)) /\
    (forall b e comp, value st' (BoundaryValue b e comp) = value st (BoundaryValue b e comp)).
Proof.
  intros st k id vs g U Hg Hid L Hk. assert (U' := U). destruct U' as (_ & _ & _ & _ & U5 & U6 & _).
  destruct (exec_spec st (RegionalSource (Z.of_nat k) id (Z.of_nat (length vs)) vs) U eq_refl ltac:(cbn; lia) I) as (Y & _).
  assert (F : find_region (r_regions st) id = Some g) by (apply find_region_unique; assumption).
  destruct Y as (st' & E & S' & _ & V). { cbn. intros g' Hg' Hid'. rewrite (find_region_unique _ _ g' U5 Hg' Hid') in F. injection F as ->. rewrite L. reflexivity. }
  exists st'. split; [exact E|]. split; [exact S'|]. destruct (U6 g Hg) as (ND & _). split; [|split; [|split]].
  - intros i cell Hi. rewrite V. unfold updated. cbn [assigns]. rewrite Z.eqb_refl, F. cbn [obind]. apply (position_some _ _ _ ND) in Hi. rewrite Hi. cbn [obind].
    apply (position_some _ _ _ ND) in Hi. assert (Li : i < length (rg_owned g)) by (apply nth_error_Some; congruence). destruct (nth_defined vs _ L i Li) as (v & ->). reflexivity.
  - intros cell comp H. rewrite V. unfold updated. cbn [assigns]. destruct (Z.eqb_spec (Z.of_nat comp) (Z.of_nat k)) as [Ek|]; [|reflexivity]. destruct H as [H|H]; [lia|].
    rewrite F. cbn [obind]. apply position_none in H. rewrite H. reflexivity.
  - intros cell. rewrite V. reflexivity.
  - intros b e comp. rewrite V. reflexivity.
Qed.
Print Assumptions C31_regional_source.
Theorem C31_homogeneous_source : forall st k id v g, set_up st -> In g (r_regions st) -> rg_id g = id -> k < r_ncomp st ->
  exists st', exec st (HomogeneousSource (Z.of_nat k) id v) = Ok st' /\ set_up st' /\
    (forall cell, In (Z.of_nat cell) (rg_owned g) -> value st' (Source cell k) = Some v) /\
    (forall cell comp, comp <> k \/ ~ In (Z.of_nat cell) (rg_owned g) -> value st' (Source cell comp) = value st (Source cell comp)) /\
    (forall cell, value st' (Manning cell) = value st (Manning cell)) /\
    (forall b e comp, value st' (BoundaryValue b e comp) = value st (BoundaryValue b e comp)).
Proof.
  intros st k id v g U Hg Hid Hk. assert (U' := U). destruct U' as (_ & _ & _ & _ & U5 & U6 & _).
  destruct (exec_spec st (HomogeneousSource (Z.of_nat k) id v) U I ltac:(cbn; lia) I) as (Y & _).
  assert (F : find_region (r_regions st) id = Some g) by (apply find_region_unique; assumption).
  destruct (Y I) as (st' & E & S' & _ & V).
  exists st'. split; [exact E|]. split; [exact S'|]. destruct (U6 g Hg) as (ND & _). split; [|split; [|split]].
  - intros cell Hi. rewrite V. unfold updated. cbn [assigns]. rewrite Z.eqb_refl, F. cbn [obind]. destruct (position (rg_owned g) (Z.of_nat cell)) eqn:Ep; [reflexivity|]. apply position_none in Ep. contradiction.
  - intros cell comp H. rewrite V. unfold updated. cbn [assigns]. destruct (Z.eqb_spec (Z.of_nat comp) (Z.of_nat k)) as [Ek|]; [|reflexivity]. destruct H as [H|H]; [lia|].
    rewrite F. cbn [obind]. apply position_none in H. rewrite H. reflexivity.
  - intros cell. rewrite V. reflexivity.
  - intros b e comp. rewrite V. reflexivity.
Qed.
Print Assumptions C31_homogeneous_source.
Theorem C31_domain_source : forall st k vs, set_up st -> length vs = r_owned st -> k < r_ncomp st ->
  exists st', exec st (DomainSource (Z.of_nat k) (Z.of_nat (length vs)) vs) = Ok st' /\ set_up st' /\
    (forall cell, cell < r_owned st -> value st' (Source cell k) = nth_error vs cell) /\
    (forall cell comp, comp <> k -> value st' (Source cell comp) = value st (Source cell comp)) /\
    (forall cell, value st' (Manning cell) = value st (Manning cell)) /\
    (forall b e comp, value st' (BoundaryValue b e comp) = value st (BoundaryValue b e comp)).
Proof.
  intros st k vs U L Hk.
  destruct (exec_spec st (DomainSource (Z.of_nat k) (Z.of_nat (length vs)) vs) U eq_refl ltac:(cbn; lia) I) as (Y & _).
  destruct Y as (st' & E & S' & _ & V); [cbn; lia|]. exists st'. split; [exact E|]. split; [exact S'|]. split; [|split; [|split]].
  - intros cell Hc. rewrite V. unfold updated. cbn [assigns]. rewrite Z.eqb_refl. apply Nat.ltb_lt in Hc. rewrite Hc. cbn [andb]. apply Nat.ltb_lt in Hc. destruct (nth_defined vs _ L cell Hc) as (v & ->). reflexivity.
  - intros cell comp H. rewrite V. unfold updated. cbn [assigns]. destruct (Z.eqb_spec (Z.of_nat comp) (Z.of_nat k)) as [Ek|]; [lia|reflexivity].
  - intros cell. rewrite V. reflexivity.
  - intros b e comp. rewrite V. reflexivity.
Qed.
Print Assumptions C31_domain_source.
Theorem C31_manning : forall st vs,
  (forall j g, set_up st -> nth_error (r_regions st) j = Some g -> length vs = length (rg_owned g) ->
    exists st', exec st (RegionalManning (Z.of_nat j) (Z.of_nat (length vs)) vs) = Ok st' /\ set_up st' /\
      (forall i cell, nth_error (rg_owned g) i = Some (Z.of_nat cell) -> value st' (Manning cell) = nth_error vs i) /\
      (forall cell, ~ In (Z.of_nat cell) (rg_owned g) -> value st' (Manning cell) = value st (Manning cell)) /\
      (forall cell comp, value st' (Source cell comp) = value st (Source cell comp)) /\
      (forall b e comp, value st' (BoundaryValue b e comp) = value st (BoundaryValue b e comp))) /\
  (set_up st -> length vs = r_owned st ->
    exists st', exec st (DomainManning (Z.of_nat (length vs)) vs) = Ok st' /\ set_up st' /\
      (forall cell, cell < r_owned st -> value st' (Manning cell) = nth_error vs cell) /\
      (forall cell comp, value st' (Source cell comp) = value st (Source cell comp)) /\
      (forall b e comp, value st' (BoundaryValue b e comp) = value st (BoundaryValue b e comp))).
Proof.
  intros st vs. split.
  - intros j g U Eg L. assert (U' := U). destruct U' as (_ & _ & _ & _ & _ & U6 & _). destruct (U6 g (nth_error_In _ _ Eg)) as (ND & _). rewrite <- zget_nat in Eg.
    destruct (exec_spec st (RegionalManning (Z.of_nat j) (Z.of_nat (length vs)) vs) U eq_refl I I) as (Y & _).
    destruct Y as (st' & E & S' & _ & V); [cbn; exists g; split; [exact Eg|lia]|]. exists st'. split; [exact E|]. split; [exact S'|]. split; [|split; [|split]].
    + intros i cell Hi. rewrite V. unfold updated. cbn [assigns]. rewrite Eg. cbn [obind]. apply (position_some _ _ _ ND) in Hi. rewrite Hi. cbn [obind].
      apply (position_some _ _ _ ND) in Hi. assert (Li : i < length (rg_owned g)) by (apply nth_error_Some; congruence). destruct (nth_defined vs _ L i Li) as (v & ->). reflexivity.
    + intros cell H. rewrite V. unfold updated. cbn [assigns]. rewrite Eg. cbn [obind]. apply position_none in H. rewrite H. reflexivity.
    + intros cell comp. rewrite V. reflexivity.
    + intros b e comp. rewrite V. reflexivity.
  - intros U L. destruct (exec_spec st (DomainManning (Z.of_nat (length vs)) vs) U eq_refl I I) as (Y & _).
    destruct Y as (st' & E & S' & _ & V); [cbn; lia|]. exists st'. split; [exact E|]. split; [exact S'|]. split; [|split].
    + intros cell Hc. rewrite V. unfold updated. cbn [assigns]. apply Nat.ltb_lt in Hc. rewrite Hc. apply Nat.ltb_lt in Hc. destruct (nth_defined vs _ L cell Hc) as (v & ->). reflexivity.
    + intros cell comp. rewrite V. reflexivity.
    + intros b e comp. rewrite V. reflexivity.
Qed.
Print Assumptions C31_manning.

(** ** C32: the components of the boundary values set by the four calls do not overlap: whatever calls are made
    in whatever order, each read returns what was last set for that quantity on that boundary. *)
Inductive quantity := Flow | Sediment | Salinity | Temperature.
Definition quantity_of (c : call) : option (quantity * Z) :=
  match c with FlowValues b _ _ _ => Some (Flow, b) | SedimentValues b _ _ _ => Some (Sediment, b) | SalinityValues b _ _ => Some (Salinity, b) | TemperatureValues b _ _ => Some (Temperature, b) | _ => None end.
(* entry j of the quantity on edge e of boundary b, read as the solver reads it: component 3+.. of the row *)
Definition entry (st : rdy) (q : quantity) (j : nat) : nat :=
  match q with Flow => j | Sediment => 3 + j | Salinity => 3 + r_classes st | Temperature => 3 + r_classes st + (if r_salinity st then 1 else 0) end.
Definition entries (st : rdy) (q : quantity) : nat := match q with Flow => 3 | Sediment => r_classes st | Salinity => if r_salinity st then 1 else 0 | Temperature => if r_heat st then 1 else 0 end.
Definition values_of (c : call) : list R := match c with FlowValues _ _ _ vs | SedimentValues _ _ _ vs | SalinityValues _ _ vs | TemperatureValues _ _ vs => vs | _ => [] end.

Lemma last_assigned_none st cs s x : (forall c, In c cs -> assigns st c s = None) -> last_assigned st cs s x = x.
Proof. revert x. induction cs as [|c t IH]; intros x H; cbn; [reflexivity|]. rewrite H by (left; reflexivity). apply IH. intros c' Hc. apply H. right. exact Hc. Qed.
Lemma last_assigned_app st cs ds s x : last_assigned st (cs ++ ds) s x = last_assigned st ds s (last_assigned st cs s x).
Proof. revert x. induction cs as [|c t IH]; intros x; cbn; [reflexivity|apply IH]. Qed.
(* a call about another quantity or another boundary does not concern the entry *)
Lemma other_quantity st q b e j c : j < entries st q -> quantity_of c <> Some (q, Z.of_nat b) -> r_salinity st = true \/ (q <> Salinity /\ forall bz, quantity_of c <> Some (Salinity, bz)) ->
  r_heat st = true \/ (q <> Temperature /\ forall bz, quantity_of c <> Some (Temperature, bz)) -> assigns st c (BoundaryValue b e (entry st q j)) = None.
Proof.
  intros Hj Hq Hs Ht. destruct c; cbn [assigns]; try reflexivity.
  all: match goal with |- (if (Z.eqb ?x ?y && _ && _)%bool then _ else _) = None => destruct (Z.eqb_spec x y) as [E|]; [|reflexivity] end.
  all: subst; destruct (Nat.ltb e (num_edges st b)); [|reflexivity]; cbn [andb].
  all: destruct q; cbn [entry entries quantity_of] in *; try congruence.
  all: repeat match goal with |- context [Nat.ltb ?x ?y] => destruct (Nat.ltb_spec x y) | |- context [Nat.leb ?x ?y] => destruct (Nat.leb_spec x y) | |- context [Nat.eqb ?x ?y] => destruct (Nat.eqb_spec x y) end; try reflexivity; exfalso.
  all: destruct Hs as [Hs|(Hs1 & Hs2)]; [rewrite ?Hs in *|try (specialize (Hs2 (Z.of_nat b)); congruence)]; try lia.
  all: destruct (r_salinity st), (r_heat st); try lia; try congruence; try contradiction.
  all: destruct Ht as [Ht|(Ht1 & Ht2)]; try congruence; try (specialize (Ht2 (Z.of_nat b)); congruence).
Qed.
Theorem C32_dirichlet_values_disjoint : forall st cs1 c cs2 st' q b ne_ e j,
  set_up st -> (forall c', In c' (cs1 ++ c :: cs2) -> admissible st c') -> run st (cs1 ++ c :: cs2) = Ok st' ->
  (* c is the last call about quantity q on boundary b *)
  quantity_of c = Some (q, Z.of_nat b) -> (forall c', In c' cs2 -> quantity_of c' <> Some (q, Z.of_nat b)) ->
  num_edges st b = ne_ -> e < ne_ -> j < entries st q ->
  value st' (BoundaryValue b e (entry st q j)) = nth_error (values_of c) (entries st q * e + j).
Proof.
  intros st cs1 c cs2 st' q b ne_ e j U A E Hq Hn Hne He Hj.
  destruct (C31_reads_return_last_writes _ _ _ U A E) as (_ & V). rewrite V. clear V.
  (* every call was accepted, hence valid *)
  assert (Val : forall c', In c' (cs1 ++ c :: cs2) -> exists s, params s = params st /\ set_up s /\ valid s c').
  { clear Hn Hq. revert A E. generalize (cs1 ++ c :: cs2). intros cs A. revert A. cut (forall st0, params st0 = params st -> set_up st0 -> (forall c', In c' cs -> admissible st c') -> run st0 cs = Ok st' -> forall c', In c' cs -> exists s, params s = params st /\ set_up s /\ valid s c'); [intros H A' E'; exact (H st eq_refl U A' E')|].
    induction cs as [|d t IH]; intros st0 P0 U0 A' E'; [contradiction|]. cbn [run] in E'.
    destruct (A' d (or_introl eq_refl)) as (An & Co & Pr). destruct (pre_params st st0 d P0 Co Pr) as (Co' & Pr'). destruct (exec_spec st0 d U0 An Co' Pr') as (Y & Z_).
    destruct (exec st0 d) as [s1| |] eqn:Ex; try discriminate.
    assert (Vd : valid st0 d \/ ~ valid st0 d) by (apply Classical_Prop.classic). destruct Vd as [Vd|Vd]; [|specialize (Z_ Vd); discriminate].
    destruct (Y Vd) as (s2 & E2 & U2 & P2 & _). injection E2 as <-.
    intros c' [<-|Hc]; [exists st0; auto|]. apply (IH s1 (eq_trans P2 P0) U2 (fun c'' H => A' c'' (or_intror H)) E' c' Hc). }
  assert (Sal : forall c' bz, In c' (cs1 ++ c :: cs2) -> quantity_of c' = Some (Salinity, bz) -> r_salinity st = true).
  { intros c' bz Hc Hq'. destruct (Val c' Hc) as (s & P & _ & Vc). destruct c'; cbn in Hq'; try discriminate. cbn in Vc. destruct Vc as (_ & Es). unfold params in P. injection P as _ _ _ Hsa. congruence. }
  assert (Hea : forall c' bz, In c' (cs1 ++ c :: cs2) -> quantity_of c' = Some (Temperature, bz) -> r_heat st = true).
  { intros c' bz Hc Hq'. destruct (Val c' Hc) as (s & P & _ & Vc). destruct c'; cbn in Hq'; try discriminate. cbn in Vc. destruct Vc as (_ & Es). unfold params in P. injection P as _ _ _ _ Hsa. congruence. }
  rewrite last_assigned_app. cbn [last_assigned]. rewrite last_assigned_none.
  - destruct (A c ltac:(apply in_or_app; right; left; reflexivity)) as (An & _ & _).
    destruct (Val c ltac:(apply in_or_app; right; left; reflexivity)) as (s & P & Us & Vc). unfold params in P. injection P as Hce Hse Hcl Hsa Hhe Hnc How Hre Hbo Hco.
    assert (Len : length (values_of c) = entries st q * ne_).
    { destruct c; cbn in Hq; try discriminate; injection Hq as <- ->; cbn [values_of entries]; cbn [valid] in Vc; destruct Vc as ((bd & cd & Eb & _ & Ene & _) & Ex); rewrite zget_nat, Hbo in Eb; unfold num_edges in Hne; rewrite Eb in Hne; cbn [announced] in An; subst.
      - lia. - rewrite Hcl in *. lia. - rewrite <- Hsa, Ex. lia. - rewrite <- Hhe, Ex. lia. }
    assert (In_ : entries st q * e + j < length (values_of c)) by (rewrite Len; assert (entries st q * S e <= entries st q * ne_) by (apply Nat.mul_le_mono_l; lia); lia).
    destruct (nth_error (values_of c) (entries st q * e + j)) as [v|] eqn:Ev; [|apply nth_error_None in Ev; lia].
    assert (As : assigns st c (BoundaryValue b e (entry st q j)) = Some v).
    { destruct c; cbn in Hq; try discriminate; injection Hq as <- ->; cbn [assigns values_of entries entry] in *; rewrite Z.eqb_refl, Hne; assert (Lt := proj2 (Nat.ltb_lt e ne_) He); rewrite Lt; cbn [andb].
      - apply Nat.ltb_lt in Hj. rewrite Hj. exact Ev.
      - assert (B : (Nat.leb 3 (3 + j) && Nat.ltb (3 + j) (3 + r_classes st))%bool = true) by (apply Bool.andb_true_iff; split; [apply Nat.leb_le|apply Nat.ltb_lt]; lia). rewrite B. replace (3 + j - 3) with j by lia. exact Ev.
      - rewrite Nat.eqb_refl. destruct (r_salinity st); [|lia]. replace (1 * e + j) with e in Ev by lia. exact Ev.
      - rewrite Nat.eqb_refl. destruct (r_heat st); [|lia]. replace (1 * e + j) with e in Ev by lia. exact Ev. }
    rewrite As. reflexivity.
  - intros c' Hc. assert (Hin : In c' (cs1 ++ c :: cs2)) by (apply in_or_app; right; right; exact Hc). apply other_quantity; [exact Hj|apply Hn; exact Hc| |].
    + destruct (r_salinity st) eqn:Es; [left; reflexivity|right]. split.
      * intros ->. cbn in Hj. rewrite Es in Hj. lia.
      * intros bz Hq'. specialize (Sal c' bz Hin Hq'). congruence.
    + destruct (r_heat st) eqn:Es; [left; reflexivity|right]. split.
      * intros ->. cbn in Hj. rewrite Es in Hj. lia.
      * intros bz Hq'. specialize (Hea c' bz Hin Hq'). congruence.
Qed.
Print Assumptions C32_dirichlet_values_disjoint.
(* every component of a row belongs to exactly one quantity *)
Theorem C32_components_cover_row : forall st k, set_up st -> k < r_ncomp st -> exists! qj, snd qj < entries st (fst qj) /\ entry st (fst qj) (snd qj) = k.
Proof.
  intros st k (U1 & _) Hk.
  assert (Ex : exists q j, j < entries st q /\ entry st q j = k).
  { destruct (Nat.lt_ge_cases k 3); [exists Flow, k; cbn; lia|]. destruct (Nat.lt_ge_cases k (3 + r_classes st)); [exists Sediment, (k - 3); cbn; lia|].
    destruct (r_salinity st) eqn:Es.
    - destruct (Nat.eq_dec k (3 + r_classes st)); [exists Salinity, 0; cbn; rewrite Es; lia|]. exists Temperature, 0. cbn. rewrite Es. destruct (r_heat st); lia.
    - exists Temperature, 0. cbn. rewrite Es. destruct (r_heat st); lia. }
  destruct Ex as (q & j & Hj & Hk'). exists (q, j). split; [cbn; auto|]. intros (q' & j'). cbn [fst snd]. intros (Hj' & Hk2). subst k.
  destruct q, q'; cbn [entries entry] in *; destruct (r_salinity st), (r_heat st); try lia; f_equal; lia.
Qed.
Print Assumptions C32_components_cover_row.

(** ** C33: invalid requests are rejected and change nothing; valid ones never fail. *)
Theorem C33_invalid_rejected_partial : forall st c, set_up st -> admissible st c ->
  (~ valid st c -> exec st c = Err st) /\ (valid st c -> exists st', exec st c = Ok st' /\ set_up st').
Proof.
  intros st c U (An & Co & Pr). destruct (exec_spec st c U An Co Pr) as (Y & Z_). split; [exact Z_|]. intros V. destruct (Y V) as (st' & E & S' & _). eauto.
Qed.
Print Assumptions C33_invalid_rejected_partial.
(* the announced size decides: no assumption on the array is needed for the rejection of wrong sizes and indices *)
Theorem C33_bad_index_or_size_rejected : forall st b ne n vs, set_up st ->
  (~ (0 <= b < Z.of_nat (length (r_boundaries st)))%Z \/ (exists bd, zget (r_boundaries st) b = Some bd /\ ne <> Z.of_nat (length (bd_edges bd)))) ->
  exec st (FlowValues b ne n vs) = Err st /\ exec st (SedimentValues b ne n vs) = Err st /\ exec st (SalinityValues b ne vs) = Err st /\ exec st (TemperatureValues b ne vs) = Err st.
Proof.
  intros st b ne n vs U H. assert (Lc : length (r_conds st) = length (r_boundaries st)) by apply U.
  assert (C : forall k, checked st b ne k = Err st).
  { intros k. unfold checked. destruct (_ && _)%bool eqn:B; [|reflexivity]. assert (B' := B). apply in_bounds in B'. destruct B' as (bd & Eb).
    assert (Bc : (Z.ltb b (Z.of_nat (length (r_conds st))) && Z.leb 0 b)%bool = true) by (rewrite Lc; exact B). apply in_bounds in Bc. destruct Bc as (cd & Ec).
    unfold boundary_at. rewrite B, Eb, Ec. cbn [obind]. destruct H as [H|(bd' & Eb' & Hne)].
    - exfalso. apply H. apply Bool.andb_true_iff in B. destruct B as (B1 & B2). apply Z.ltb_lt in B1. apply Z.leb_le in B2. lia.
    - rewrite Eb in Eb'. injection Eb' as <-. destruct (Z.eqb_spec (Z.of_nat (length (bd_edges bd))) ne); [congruence|reflexivity]. }
  cbn. unfold RDySetFlowDirichletBoundaryValues, RDySetSedimentDirichletBoundaryValues, RDySetSalinityDirichletBoundaryValues, RDySetTemperatureDirichletBoundaryValues. rewrite !C.
  repeat split; [destruct (Z.eqb n _)|destruct (r_salinity st)|destruct (r_heat st)]; reflexivity.
Qed.
Print Assumptions C33_bad_index_or_size_rejected.
(* A whole history in which some calls fail ends in the state of the accepted calls alone. *)
Fixpoint run_ignoring_errors (st : rdy) (cs : list call) : outcome rdy :=
  match cs with [] => Ok st | c :: t => match exec st c with Ok s => run_ignoring_errors s t | Err s => run_ignoring_errors s t | Undef => Undef end end.
Fixpoint accepted (st : rdy) (cs : list call) : list call :=
  match cs with [] => [] | c :: t => match exec st c with Ok s => c :: accepted s t | Err _ | Undef => accepted st t end end.
Theorem C33_rejected_calls_have_no_effect : forall cs st, set_up st -> (forall c, In c cs -> admissible st c) ->
  exists st', run_ignoring_errors st cs = Ok st' /\ run st (accepted st cs) = Ok st'.
Proof.
  intros cs st. cut (forall st0, params st0 = params st -> set_up st0 -> (forall c, In c cs -> admissible st c) -> exists st', run_ignoring_errors st0 cs = Ok st' /\ run st0 (accepted st0 cs) = Ok st'); [intros H U A; exact (H st eq_refl U A)|].
  induction cs as [|c t IH]; intros st0 P U A; cbn [run_ignoring_errors accepted]; [exists st0; auto|].
  destruct (A c (or_introl eq_refl)) as (An & Co & Pr). destruct (pre_params st st0 c P Co Pr) as (Co' & Pr'). destruct (exec_spec st0 c U An Co' Pr') as (Y & Z_).
  assert (V : valid st0 c \/ ~ valid st0 c) by (apply Classical_Prop.classic). destruct V as [V|V].
  - destruct (Y V) as (s2 & E2 & U2 & P2 & _). rewrite E2. cbn [run]. rewrite E2. apply IH; [congruence|exact U2|intros c' Hc; apply A; right; exact Hc].
  - rewrite (Z_ V). apply IH; auto. intros c' Hc. apply A; right; exact Hc.
Qed.
Print Assumptions C33_rejected_calls_have_no_effect.

(** Requests that are wrong but not rejected.  A mesh of two cells, one region (id 1), one boundary of two edges. *)
Definition demo (ceed : bool) (classes : nat) (sal heat : bool) (cd : bcond) : rdy :=
  let nc := 3 + classes + (if sal then 1 else 0) + (if heat then 1 else 0) in
  Rdy ceed false classes sal heat nc 2 [Region 0 1%Z None [0;1] [0;1]%Z] [Boundary 0 2%Z None [4;5]] [cd] (repeat 0%R (nc * 2)) (repeat 0%R 2) [repeat 0%R (nc * 2)].
Lemma demo_set_up ceed classes sal heat cd : bc_flow cd <> None -> set_up (demo ceed classes sal heat cd).
Proof.
  intros H. unfold set_up, demo. cbn [r_ncomp r_classes r_salinity r_heat r_src r_owned r_mat r_regions r_boundaries r_conds r_bvals]. split; [reflexivity|].
  generalize (3 + classes + (if sal then 1 else 0) + (if heat then 1 else 0)). intros nc.
  split; [apply repeat_length|]. split; [reflexivity|]. split; [reflexivity|]. split; [repeat constructor; auto|].
  split. { intros g [<-|[]]. cbn [rg_owned]. split; [repeat constructor; cbn; intuition lia|]. intros z [<-|[<-|[]]]; lia. }
  split; [reflexivity|]. split; [reflexivity|]. split; [reflexivity|]. split.
  - intros [|[|i]] bd d; cbn [nth_error]; try (intros; discriminate). intros [= <-] [= <-]. exact (repeat_length _ _).
  - intros c [<-|[]]. exact H.
Qed.
Definition all_dirichlet : bcond := BCond (Some CONDITION_DIRICHLET) (Some CONDITION_DIRICHLET) (Some CONDITION_DIRICHLET) (Some CONDITION_DIRICHLET).
(* A sediment class that does not exist is not refused: with no tracers the write is out of bounds (undefined
   behaviour); with salinity it overwrites the salinity source. *)
Theorem C33_sediment_class_checked_refuted :
  (exists st c, set_up st /\ announced c /\ ~ component_exists st c /\ exec st c = Undef) /\
  (exists st st' v, set_up st /\ r_classes st = 1 /\ exec st (DomainSource (3 + 1) 2 [v; v]) = Ok st' /\ value st (Source 0 (entry st Salinity 0)) <> value st' (Source 0 (entry st Salinity 0))).
Proof.
  split.
  - exists (demo false 0 false false all_dirichlet), (DomainSource (3 + 0) 2 [1%R; 1%R]). split; [apply demo_set_up; discriminate|]. split; [reflexivity|]. split; [cbn; lia|]. reflexivity.
  - exists (demo false 1 true false all_dirichlet). eexists. exists 1%R. split; [apply demo_set_up; discriminate|]. split; [reflexivity|]. split; [reflexivity|].
    cbn. intros [= H]. lra.
Qed.
Print Assumptions C33_sediment_class_checked_refuted.
(* Asking for sediment values on a boundary without sediment condition (such as the automatically generated
   reflecting boundary), or, with CEED, on a boundary whose flow condition is not of Dirichlet type, crashes
   instead of returning an error. *)
Theorem C33_missing_condition_rejected_refuted :
  (exists st c, set_up st /\ announced c /\ component_exists st c /\ ~ valid st c /\ exec st c = Undef) /\
  (exists st c, set_up st /\ r_ceed st = true /\ announced c /\ component_exists st c /\ valid st c /\ exec st c = Undef).
Proof.
  split.
  - exists (demo false 1 false false (BCond (Some CONDITION_REFLECTING) None None None)), (SedimentValues 0 2 1 [1%R; 1%R]). split; [apply demo_set_up; discriminate|].
    split; [reflexivity|]. split; [exact I|]. split; [|reflexivity]. intros ((bd & cd & _ & [= <-] & _ & E) & _). discriminate.
  - exists (demo true 1 false false (BCond (Some CONDITION_REFLECTING) (Some CONDITION_DIRICHLET) None None)), (SedimentValues 0 2 1 [1%R; 1%R]). split; [apply demo_set_up; discriminate|].
    split; [reflexivity|]. split; [reflexivity|]. split; [exact I|]. split; [|reflexivity]. split; [|reflexivity]. eexists. eexists. repeat split.
Qed.
Print Assumptions C33_missing_condition_rejected_refuted.

(** ** C56: reading the solution *)
(* the entries of the solution vector: component [idof] of owned cell [i], for rows of [nc] entries *)
Theorem C56_flow_read_out : forall debug n idof u values, idof < 3 -> length u = 3 * n -> length values = n ->
  exists out, get_owned debug n idof u values = Ok out /\ length out = n /\ forall i, i < n -> nth_error out i = nth_error u (3 * i + idof).
Proof.
  intros debug n idof u values Hd Lu Lv. unfold get_owned. replace (debug && negb (Nat.eqb n (length values)))%bool with false by (rewrite Lv, Nat.eqb_refl; destruct debug; reflexivity).
  unfold RDyGetPrognosticVariableOfOwnedCell.
  assert (G : forall m, m <= n -> exists out, ofold (fun vs i => let* x := nth_error u (3 * i + idof) in upd vs i x) (seq 0 m) values = Some out /\ length out = n /\ forall i, i < m -> nth_error out i = nth_error u (3 * i + idof)).
  { induction m as [|m IH]; intros Hm; [exists values; cbn; split; [reflexivity|split; [exact Lv|lia]]|]. destruct IH as (out & E & L & W); [lia|].
    destruct (nth_defined u _ Lu (3 * m + idof) ltac:(lia)) as (x & Ex). destruct (upd_some out m x ltac:(lia)) as (out' & Eo).
    exists out'. rewrite seq_S, ofold_app, E. cbn [obind ofold plus]. rewrite Ex. cbn [obind]. rewrite Eo. split; [reflexivity|]. split; [rewrite (upd_length _ _ _ _ Eo); exact L|].
    intros i Hi. rewrite (upd_get _ _ _ _ i Eo). destruct (Nat.eqb_spec i m) as [->|N]; [symmetry; exact Ex|apply W; lia]. }
  destruct (G n (Nat.le_refl n)) as (out & E & L & W). exists out. rewrite E. split; [reflexivity|]. split; assumption.
Qed.
Print Assumptions C56_flow_read_out.
(* With tracers a row has more than three entries, but the reader steps by three: the second cell's height read is
   the first cell's concentration. *)
Theorem C56_read_out_with_tracers_refuted : exists n nc u values out, length u = nc * n /\ length values = n /\ get_owned true n 0 u values = Ok out /\ nth_error out 1 <> nth_error u (nc * 1 + 0).
Proof.
  exists 2, 4, [5%R; 0%R; 0%R; 7%R; 6%R; 0%R; 0%R; 8%R], [0%R; 0%R]. eexists. split; [reflexivity|]. split; [reflexivity|]. split; [reflexivity|]. cbn. intros [= H]. lra.
Qed.
Print Assumptions C56_read_out_with_tracers_refuted.
(* In an optimised build a wrong array size is not reported: with too small an array memory is overwritten. *)
Theorem C56_read_out_size_checked_refuted : exists n u values, length u = 3 * n /\ length values <> n /\ get_owned false n 0 u values = Undef /\ get_owned true n 0 u values = Err values.
Proof. exists 2, (repeat 0%R 6), [0%R]. repeat split. cbn. discriminate. Qed.
Print Assumptions C56_read_out_size_checked_refuted.

(** ** The hypotheses are met by a state with sediment, salinity and heat: a history of calls of all kinds *)
Example history_example : let st := demo true 2 true true all_dirichlet in
  set_up st /\ (forall c, In c [FlowValues 0 2 3 [1;2;3;4;5;6]%R; SalinityValues 0 2 [7;8]%R; RegionalSource 3 1 2 [9;10]%R; DomainManning 2 [11;12]%R; TemperatureValues 0 2 [13;14]%R] -> admissible st c) /\
  exists st', run st [FlowValues 0 2 3 [1;2;3;4;5;6]%R; SalinityValues 0 2 [7;8]%R; RegionalSource 3 1 2 [9;10]%R; DomainManning 2 [11;12]%R; TemperatureValues 0 2 [13;14]%R] = Ok st' /\
    value st' (BoundaryValue 0 1 2) = Some 6%R /\ value st' (BoundaryValue 0 1 (entry st Salinity 0)) = Some 8%R /\ value st' (BoundaryValue 0 0 (entry st Temperature 0)) = Some 13%R /\ value st' (Source 1 3) = Some 10%R /\ value st' (Manning 0) = Some 11%R.
Proof.
  cbv zeta. split; [apply demo_set_up; discriminate|]. split.
  - intros c [<-|[<-|[<-|[<-|[<-|[]]]]]]; (split; [reflexivity|split; [cbn; first [exact I|lia]|cbn; first [exact I|intros cd [= <-]; cbn; split; [discriminate|reflexivity]]]]).
  - eexists. split; [reflexivity|]. repeat split.
Qed.
Example rejected_example : let st := demo false 2 true true all_dirichlet in set_up st /\ admissible st (FlowValues 1 2 3 [1;2;3;4;5;6]%R) /\ ~ valid st (FlowValues 1 2 3 [1;2;3;4;5;6]%R).
Proof. cbv zeta. split; [apply demo_set_up; discriminate|]. split; [repeat split|]. intros ((bd & cd & E & _) & _). discriminate. Qed.
