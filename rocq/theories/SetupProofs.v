(** Lemmas about the setup loops. *)
From Verif Require Import Base MeshMapsModel MeshMapsProofs MeshMapsProperties DataModel DataProofs SetupModel.
From Coq Require Import String.
Local Open Scope nat_scope.
Local Notation length := List.length.
Local Notation concat := List.concat.

(** ** Routines that amount to a list of writes *)
Definition writing (F : list R -> option (list R)) (W : nat * R -> Prop) : Prop := exists ps, (forall u, F u = ofold wr ps u) /\ forall p, In p ps <-> W p.
Lemma writing_ext F G W V : writing F W -> (forall u, G u = F u) -> (forall p, W p <-> V p) -> writing G V.
Proof. intros (ps & E & H) EG HW. exists ps. split; [intros u; rewrite EG; apply E|]. intros p. rewrite H. apply HW. Qed.
Lemma writing_nothing : writing Some (fun _ => False).
Proof. exists []. split; [reflexivity|]. intros p. cbn. tauto. Qed.
Lemma writing_seq F G W V : writing F W -> writing G V -> writing (fun u => obind (F u) G) (fun p => W p \/ V p).
Proof.
  intros (ps & E & H) (qs & E' & H'). exists (ps ++ qs). split.
  - intros u. rewrite ofold_app, E. destruct (ofold wr ps u); cbn; [apply E'|reflexivity].
  - intros p. rewrite in_app_iff, H, H'. tauto.
Qed.
Lemma writing_one i v : writing (fun u => upd u i v) (fun p => p = (i, v)).
Proof. exists [(i, v)]. split; [intros u; cbn; unfold wr; cbn; destruct (upd u i v); reflexivity|]. intros p. cbn. split; [intros [<-|[]]; reflexivity|auto]. Qed.
Lemma writing_fold {A} (F : list R -> A -> option (list R)) (W : A -> nat * R -> Prop) l :
  (forall a, In a l -> writing (fun u => F u a) (W a)) -> writing (ofold F l) (fun p => exists a, In a l /\ W a p).
Proof.
  induction l as [|a t IH]; intros H.
  - eapply writing_ext; [exact writing_nothing|reflexivity|]. intros p. split; [contradiction|intros (a & [] & _)].
  - eapply writing_ext; [exact (writing_seq _ _ _ _ (H a (or_introl eq_refl)) (IH (fun b Hb => H b (or_intror Hb))))|reflexivity|].
    intros p. split; [intros [Ha|(b & Hb & Hw)]; [exists a|exists b]; cbn; auto|intros (b & [<-|Hb] & Hw); [left; exact Hw|right; exists b; auto]].
Qed.
Lemma writing_loop {A} (W : A -> nat * R -> Prop) (F : list R -> A -> option (list R)) l V :
  (forall a, In a l -> writing (fun u => F u a) (W a)) -> (forall p, (exists a, In a l /\ W a p) <-> V p) -> writing (fun u => ofold F l u) V.
Proof. intros H HV. eapply writing_ext; [exact (writing_fold F W l H)|reflexivity|exact HV]. Qed.
(* what a list of writes does, if no entry is given two values *)
Lemma writing_effect F W u : writing F W -> (forall i v v', W (i, v) -> W (i, v') -> v = v') -> (forall i v, W (i, v) -> i < length u) ->
  exists u', F u = Some u' /\ length u' = length u /\ (forall i v, W (i, v) -> nth_error u' i = Some v) /\ (forall i, (forall v, ~ W (i, v)) -> nth_error u' i = nth_error u i).
Proof.
  intros (ps & E & H) C B. destruct (writes_spec ps u) as (u' & Eu & L & Wr & Fr).
  - intros (i, v) (j, w) Hp Hq. cbn. intros <-. apply H in Hp, Hq. eapply C; eassumption.
  - intros (i, v) Hp. apply H in Hp. eapply B. exact Hp.
  - exists u'. rewrite E. split; [exact Eu|]. split; [exact L|]. split; [intros i v Hw; apply Wr, H, Hw|].
    intros i Hi. apply Fr. intros (j, v) Hp. cbn. intros ->. apply (Hi v), H, Hp.
Qed.
Lemma writing_length F W u u' : writing F W -> F u = Some u' -> length u' = length u.
Proof.
  intros (ps & E & _) H. rewrite E in H. clear E. revert u H. induction ps as [|p t IH]; intros u H; cbn in H; [congruence|].
  destruct (wr u p) as [u1|] eqn:E1; [|discriminate]. cbn in H. unfold wr in E1. rewrite (IH u1 H). eapply upd_length. exact E1.
Qed.
Lemma writing_defined F W u : writing F W -> (forall i v, W (i, v) -> i < length u) -> exists u', F u = Some u' /\ length u' = length u.
Proof.
  intros (ps & E & H) B. assert (G : forall qs u, (forall p, In p qs -> fst p < length u) -> exists u', ofold wr qs u = Some u' /\ length u' = length u).
  { clear. induction qs as [|(i, v) t IH]; intros u Hb; [exists u; auto|]. destruct (upd_some u i v (Hb (i, v) (or_introl eq_refl))) as (u1 & E1). assert (L1 := upd_length _ _ _ _ E1).
    destruct (IH u1) as (u' & E & L); [intros p Hp; rewrite L1; apply Hb; right; exact Hp|]. exists u'. cbn. unfold wr at 1. cbn. rewrite E1. cbn. split; [exact E|congruence]. }
  rewrite E. apply G. intros (i, v) Hp. apply H in Hp. eapply B. exact Hp.
Qed.

(** ** The mesh and its regions *)
Record mesh_ok (owned : list bool) (l2o : list Z) (rs : list region) : Prop := MeshOk {
  mo_num : exists o2l, number_cells owned = Some (l2o, o2l);
  mo_owned : forall g, In g rs -> owned_numbers owned l2o (rg_cells g) (rg_owned g);
  mo_bound : forall g c, In g rs -> In c (rg_cells g) -> c < length owned;
  mo_nodup : forall g, In g rs -> NoDup (rg_cells g);
  mo_index : map rg_index rs = seq 0 (length rs);
  mo_disjoint : forall g g' c, In g rs -> In g' rs -> In c (rg_cells g) -> In c (rg_cells g') -> g = g';
  mo_cover : forall c, c < length owned -> exists g, In g rs /\ In c (rg_cells g)
}.
Lemma NoDup_concat_disjoint {A B} (f : A -> list B) l : NoDup (concat (map f l)) -> forall i j a b x, nth_error l i = Some a -> nth_error l j = Some b -> In x (f a) -> In x (f b) -> i = j.
Proof.
  induction l as [|a t IH]; intros ND i j u v x Hi Hj Hx Hy; [destruct i; discriminate|]. cbn in ND.
  assert (D : forall k w, nth_error t k = Some w -> In x (f a) -> In x (f w) -> False).
  { intros k w Hk Ha Hw. clear - ND Hk Ha Hw. induction (f a) as [|y ys IHy]; [contradiction|]. cbn in ND. inversion ND as [|z zs Ny ND']; subst. destruct Ha as [->|Ha]; [|exact (IHy ND' Ha)].
    apply Ny. apply in_or_app. right. apply in_concat. exists (f w). split; [apply in_map; eapply nth_error_In; exact Hk|exact Hw]. }
  assert (ND2 : NoDup (concat (map f t))) by (clear - ND; induction (f a) as [|y ys IHy]; [exact ND|cbn in ND; inversion ND; auto]).
  destruct i as [|i], j as [|j]; cbn in Hi, Hj; [reflexivity| | |].
  - injection Hi as <-. exfalso. exact (D j v Hj Hx Hy).
  - injection Hj as <-. exfalso. exact (D i u Hi Hy Hx).
  - f_equal. exact (IH ND2 i j u v x Hi Hj Hx Hy).
Qed.
Lemma NoDup_concat_in {A B} (f : A -> list B) l a : NoDup (concat (map f l)) -> In a l -> NoDup (f a).
Proof.
  induction l as [|b t IH]; intros ND H; [contradiction|]. cbn in ND. assert (X : NoDup (f b) /\ NoDup (concat (map f t))).
  { clear - ND. induction (f b) as [|y ys IHy]; [split; [constructor|exact ND]|]. cbn in ND. inversion ND as [|z zs Ny ND']; subst. destruct (IHy ND') as (P & Q). split; [constructor; [intros Hy; apply Ny, in_or_app; left; exact Hy|exact P]|exact Q]. }
  destruct H as [<-|H]; [apply X|apply IH; [apply X|exact H]].
Qed.
(* the mesh as the code builds it *)
Lemma mesh_ok_built owned l2o o2l names sets rs : number_cells owned = Some (l2o, o2l) -> Permutation (concat (map snd sets)) (seq 0 (length owned)) ->
  init_regions owned l2o names (Some sets) = Some rs -> mesh_ok owned l2o rs.
Proof.
  intros E P H. assert (Lm : length sets <= MAX_NUM_REGIONS) by (unfold init_regions in H; cbn [obind] in H; destruct (Nat.leb_spec (length sets) MAX_NUM_REGIONS); [assumption|discriminate]).
  assert (ND : NoDup (concat (map snd sets))) by (eapply Permutation_NoDup; [apply Permutation_sym; exact P|apply seq_NoDup]).
  assert (Bd : forall s, In s sets -> NoDup (snd s) /\ forall c, In c (snd s) -> c < length owned).
  { intros s Hs. split; [exact (NoDup_concat_in snd sets s ND Hs)|]. intros c Hc. assert (In c (seq 0 (length owned))) by (eapply Permutation_in; [exact P|]; apply in_concat; exists (snd s); split; [apply in_map; exact Hs|exact Hc]).
    apply in_seq in H0. lia. }
  destruct (C31_regions_follow_cell_sets owned l2o o2l names sets E Lm Bd) as (rs' & E' & Ec & Ei & Ex & En & Ow). rewrite H in E'. injection E' as <-.
  assert (NDr : NoDup (concat (map rg_cells rs))) by (rewrite Ec; exact ND).
  assert (Lr : length rs = length sets) by (rewrite <- (map_length rg_cells rs), Ec, map_length; reflexivity).
  constructor.
  - exists o2l. exact E.
  - exact Ow.
  - intros g c Hg Hc. assert (In (rg_cells g) (map snd sets)) by (rewrite <- Ec; apply in_map; exact Hg). apply in_map_iff in H0. destruct H0 as (s & Es & Hs). destruct (Bd s Hs) as (_ & B). apply B. rewrite Es. exact Hc.
  - intros g Hg. exact (NoDup_concat_in rg_cells rs g NDr Hg).
  - rewrite Ex, Lr. reflexivity.
  - intros g g' c Hg Hg' Hc Hc'. apply In_nth_error in Hg, Hg'. destruct Hg as (i & Hi). destruct Hg' as (j & Hj). assert (i = j) by (eapply (NoDup_concat_disjoint rg_cells rs NDr); eassumption). congruence.
  - intros c Hc. assert (Hin : In c (concat (map rg_cells rs))) by (rewrite Ec; eapply Permutation_in; [apply Permutation_sym; exact P|apply in_seq; lia]).
    apply in_concat in Hin. destruct Hin as (l & Hl & Hcl). apply in_map_iff in Hl. destruct Hl as (g & <- & Hg). exists g. auto.
Qed.
Lemma l2o_owned owned l2o rs c : mesh_ok owned l2o rs -> owns owned c -> exists k, nth_error l2o c = Some (Z.of_nat k) /\ k < num_owned owned.
Proof.
  intros M Oc. destruct (mo_num _ _ _ M) as (o2l & E). destruct (C24_maps_mutually_inverse owned) as (a & b & E' & L1 & L2 & IV & PM). rewrite E in E'. injection E' as <- <-.
  apply owns_is in Oc. destruct Oc as (Lc & Oc). destruct (nth_error l2o c) as [z|] eqn:Ez; [|apply nth_error_None in Ez; lia].
  assert (Hz : In z (map Z.of_nat (seq 0 (length owned)))) by (eapply Permutation_in; [exact PM|eapply nth_error_In; exact Ez]).
  apply in_map_iff in Hz. destruct Hz as (k & <- & Hk). exists k. split; [reflexivity|]. rewrite <- L2. apply nth_error_Some. assert (X : nth_error o2l k = Some (Z.of_nat c)) by (apply IV; split; [apply owns_is; auto|exact Ez]). congruence.
Qed.
Lemma l2o_inj owned l2o rs c c' z : mesh_ok owned l2o rs -> nth_error l2o c = Some z -> nth_error l2o c' = Some z -> c = c'.
Proof.
  intros M H H'. destruct (mo_num _ _ _ M) as (o2l & E). destruct (C24_maps_mutually_inverse owned) as (a & b & E' & L1 & L2 & IV & PM). rewrite E in E'. injection E' as <- <-.
  assert (ND : NoDup l2o). { eapply Permutation_NoDup; [symmetry; exact PM|]. apply FinFun.Injective_map_NoDup; [intros x y; apply Nat2Z.inj|apply seq_NoDup]. }
  apply (proj1 (NoDup_nth_error l2o) ND); [apply nth_error_Some; congruence|congruence].
Qed.
(* the part of it the material properties need *)
Record mesh_part (owned : list bool) (l2o : list Z) (rs : list region) : Prop := MeshPart {
  mp_num : exists o2l, number_cells owned = Some (l2o, o2l);
  mp_bound : forall g c, In g rs -> In c (rg_cells g) -> c < length owned;
  mp_nodup : forall g, In g rs -> NoDup (rg_cells g);
  mp_disjoint : forall g g' c, In g rs -> In g' rs -> In c (rg_cells g) -> In c (rg_cells g') -> g = g'
}.
Lemma mesh_ok_part owned l2o rs : mesh_ok owned l2o rs -> mesh_part owned l2o rs.
Proof. intros [A B C D E F G]. constructor; assumption. Qed.
Lemma l2o_owned_part owned l2o rs c : mesh_part owned l2o rs -> owns owned c -> exists k, nth_error l2o c = Some (Z.of_nat k) /\ k < num_owned owned.
Proof.
  intros M Oc. destruct (mp_num _ _ _ M) as (o2l & E). destruct (C24_maps_mutually_inverse owned) as (a & b & E' & L1 & L2 & IV & PM). rewrite E in E'. injection E' as <- <-.
  apply owns_is in Oc. destruct Oc as (Lc & Oc). destruct (nth_error l2o c) as [z|] eqn:Ez; [|apply nth_error_None in Ez; lia].
  assert (Hz : In z (map Z.of_nat (seq 0 (length owned)))) by (eapply Permutation_in; [exact PM|eapply nth_error_In; exact Ez]).
  apply in_map_iff in Hz. destruct Hz as (k & <- & Hk). exists k. split; [reflexivity|]. rewrite <- L2. apply nth_error_Some. assert (X : nth_error o2l k = Some (Z.of_nat c)) by (apply IV; split; [apply owns_is; auto|exact Ez]). congruence.
Qed.
Lemma l2o_inj_part owned l2o rs c c' z : mesh_part owned l2o rs -> nth_error l2o c = Some z -> nth_error l2o c' = Some z -> c = c'.
Proof.
  intros M H H'. destruct (mp_num _ _ _ M) as (o2l & E). destruct (C24_maps_mutually_inverse owned) as (a & b & E' & L1 & L2 & IV & PM). rewrite E in E'. injection E' as <- <-.
  assert (ND : NoDup l2o). { eapply Permutation_NoDup; [symmetry; exact PM|]. apply FinFun.Injective_map_NoDup; [intros x y; apply Nat2Z.inj|apply seq_NoDup]. }
  apply (proj1 (NoDup_nth_error l2o) ND); [apply nth_error_Some; congruence|congruence].
Qed.
Lemma region_by_index rs g g' i j : map rg_index rs = seq 0 (length rs) -> nth_error rs i = Some g -> nth_error rs j = Some g' -> g = g' -> i = j.
Proof.
  intros H Hi Hj ->. assert (A := map_nth_error rg_index i _ Hi). assert (B := map_nth_error rg_index j _ Hj). rewrite H in A, B.
  assert (i < length rs) by (apply nth_error_Some; congruence). assert (j < length rs) by (apply nth_error_Some; congruence).
  rewrite (nth_error_nth' _ 0) in A by (rewrite seq_length; assumption). rewrite (nth_error_nth' _ 0) in B by (rewrite seq_length; assumption). rewrite seq_nth in A, B by assumption. injection A as A. injection B as B. lia.
Qed.

(** ** Filling the regions *)
(* the value a condition gives to component [k] of local cell [c] *)
Definition given (file : datafile) (vals : list expression) (n c k : nat) : option R :=
  match file with Some d => nth_error d (n * c + k) | None => let* e := nth_error vals k in e end.
Definition region_writes (owned : list bool) (l2o : list Z) (nc off offv n : nat) (file : datafile) (vals : list expression) (gs : list region) (p : nat * R) : Prop :=
  exists g c o k v, In g gs /\ In c (rg_cells g) /\ owns owned c /\ nth_error l2o c = Some (Z.of_nat o) /\ k < n /\ given file vals n c k = Some v /\
    p = (nc * o + (match file with Some _ => off | None => offv end + k), v).

Lemma zset_at (u : list R) nc o k v : zset u (at_ nc (Z.of_nat o) k) v = upd u (nc * o + k) v.
Proof. unfold zset, at_. destruct (Z.ltb_spec (Z.of_nat nc * Z.of_nat o + Z.of_nat k) 0); [lia|]. f_equal. lia. Qed.

Lemma copy_cells_writing owned l2o rs nc off n d g : mesh_ok owned l2o rs -> In g rs ->
  (forall c k, In c (rg_cells g) -> owns owned c -> k < n -> nth_error d (n * c + k) <> None) ->
  writing (copy_cells owned l2o nc off n d (rg_cells g))
    (fun p => exists c o k v, In c (rg_cells g) /\ owns owned c /\ nth_error l2o c = Some (Z.of_nat o) /\ k < n /\ nth_error d (n * c + k) = Some v /\ p = (nc * o + (off + k), v)).
Proof.
  intros M Hg Hd. unfold copy_cells.
  apply (writing_loop (fun c p => exists o k v, owns owned c /\ nth_error l2o c = Some (Z.of_nat o) /\ k < n /\ nth_error d (n * c + k) = Some v /\ p = (nc * o + (off + k), v))).
  - intros c Hc. assert (Lc := mo_bound _ _ _ M g c Hg Hc). destruct (is_owned owned c) eqn:Oc.
    + assert (Ow : owns owned c) by (apply owns_is; auto). destruct (l2o_owned owned l2o rs c M Ow) as (o & Eo & Lo). rewrite Eo. cbn [obind].
      apply (writing_loop (fun k p => exists v, nth_error d (n * c + k) = Some v /\ p = (nc * o + (off + k), v))).
      * intros k Hk. apply in_seq in Hk. destruct (nth_error d (n * c + k)) as [v|] eqn:Ev; [|exfalso; apply (Hd c k Hc Ow); [lia|exact Ev]]. cbn [obind].
        eapply writing_ext; [exact (writing_one (nc * o + (off + k)) v)|intros u; apply zset_at|]. intros p. split; [intros ->; exists v; auto|intros (v' & [= <-] & ->); reflexivity].
      * intros p. split.
        { intros (k & Hk & v & Ev & ->). apply in_seq in Hk. exists o, k, v. split; [exact Ow|]. split; [reflexivity|]. split; [lia|]. auto. }
        { intros (o' & k & v & _ & Eo' & Hk & Ev & ->). injection Eo' as Eo'. apply Nat2Z.inj in Eo'. subst o'. exists k. split; [apply in_seq; lia|]. exists v. auto. }
    + destruct (mo_num _ _ _ M) as (o2l & E). destruct (C24_maps_mutually_inverse owned) as (a & b & E' & L1 & _). rewrite E in E'. injection E' as <- <-.
      destruct (nth_error l2o c) as [z|] eqn:Ez; [|apply nth_error_None in Ez; lia]. cbn [obind]. eapply writing_ext; [exact writing_nothing|reflexivity|].
      intros p. split; [contradiction|]. intros (o & k & v & Ow & _). apply owns_is in Ow. destruct Ow as (_ & Ow). congruence.
  - intros p. split; [intros (c & Hc & o & k & v & H); exists c, o, k, v; tauto|intros (c & o & k & v & Hc & H); exists c; split; [exact Hc|exists o, k, v; exact H]].
Qed.

Lemma combine_seq_in {A} (l : list A) s k a : In (k, a) (combine (seq s (length l)) l) <-> s <= k /\ nth_error l (k - s) = Some a.
Proof.
  revert s. induction l as [|b t IH]; intros s; cbn [length seq combine].
  - split; [contradiction|]. intros (_ & H). destruct (k - s); discriminate.
  - split.
    + intros [[= -> ->]|H]; [split; [lia|rewrite Nat.sub_diag; reflexivity]|]. apply IH in H. destruct H as (L & H). split; [lia|]. replace (k - s) with (S (k - S s)) by lia. exact H.
    + intros (L & H). destruct (Nat.eq_dec k s) as [->|N]; [rewrite Nat.sub_diag in H; injection H as ->; left; reflexivity|]. right. apply IH. split; [lia|]. replace (k - s) with (S (k - S s)) in H by lia. exact H.
Qed.
Lemma set_cells_writing owned l2o rs nc off vals g : mesh_ok owned l2o rs -> In g rs ->
  (forall c k, In c (rg_cells g) -> owns owned c -> k < length vals -> (let* e := nth_error vals k in e) <> None) ->
  writing (set_cells nc off vals (rg_owned g))
    (fun p => exists c o k v, In c (rg_cells g) /\ owns owned c /\ nth_error l2o c = Some (Z.of_nat o) /\ k < length vals /\ (let* e := nth_error vals k in e) = Some v /\ p = (nc * o + (off + k), v)).
Proof.
  intros M Hg Hd. destruct (mo_owned _ _ _ M g Hg) as (_ & Ow). unfold set_cells.
  apply (writing_loop (fun id p => exists o k v, id = Z.of_nat o /\ k < length vals /\ (let* e := nth_error vals k in e) = Some v /\ p = (nc * o + (off + k), v))).
  - intros id Hid. apply Ow in Hid. destruct Hid as (c & Hc & Oc & Ez). destruct (l2o_owned owned l2o rs c M Oc) as (o & Eo & Lo). rewrite Eo in Ez. injection Ez as <-.
    apply (writing_loop (fun ke p => exists v, snd ke = Some v /\ p = (nc * o + (off + fst ke), v))).
    + intros (k, e) Hk. cbn [fst snd]. apply combine_seq_in in Hk. destruct Hk as (_ & Hk). rewrite Nat.sub_0_r in Hk.
      assert (D := Hd c k Hc Oc ltac:(apply nth_error_Some; congruence)). rewrite Hk in D. cbn [obind] in D. destruct e as [v|]; [|contradiction]. cbn [obind].
      eapply writing_ext; [exact (writing_one (nc * o + (off + k)) v)|intros u; apply zset_at|]. intros p. split; [intros ->; exists v; auto|intros (v' & [= <-] & ->); reflexivity].
    + intros p. split.
      * intros ((k, e) & Hk & v & Ev & ->). cbn [fst snd] in *. subst e. apply combine_seq_in in Hk. destruct Hk as (_ & Hk). rewrite Nat.sub_0_r in Hk. exists o, k, v.
        split; [reflexivity|]. split; [apply nth_error_Some; congruence|]. rewrite Hk. auto.
      * intros (o' & k & v & Eo' & Hk & Ev & ->). apply Nat2Z.inj in Eo'. subst o'. destruct (nth_error vals k) as [e|] eqn:En; [|discriminate]. cbn [obind] in Ev. subst e.
        exists (k, Some v). split; [apply combine_seq_in; rewrite Nat.sub_0_r; split; [lia|exact En]|]. exists v. auto.
  - intros p. split.
    + intros (id & Hid & o & k & v & -> & Hk & Ev & ->). apply Ow in Hid. destruct Hid as (c & Hc & Oc & Ez). exists c, o, k, v. auto 10.
    + intros (c & o & k & v & Hc & Oc & Eo & Hk & Ev & ->). exists (Z.of_nat o). split; [apply Ow; exists c; auto|]. exists o, k, v. auto 10.
Qed.

(* the regions using a condition *)
Definition users (uses : region * conditions -> option bool) (rcs : list (region * conditions)) : list region :=
  map fst (filter (fun rc => match uses rc with Some true => true | _ => false end) rcs).

Lemma fill_const owned l2o nc off offv n vals (uses : region * conditions -> option bool) rcs u : (forall rc, In rc rcs -> uses rc <> None) ->
  ofold (fun (st : list R * datafile) rc => let* b := uses rc in if b then fill_region owned l2o nc off offv n vals st (fst rc) else Some st) rcs (u, None)
  = option_map (fun u => (u, None)) (ofold (fun u g => set_cells nc offv vals (rg_owned g) u) (users uses rcs) u).
Proof.
  revert u. induction rcs as [|rc t IH]; intros u H; [reflexivity|]. cbn [ofold]. unfold users. cbn [filter]. assert (N := H rc (or_introl eq_refl)). destruct (uses rc) as [b|] eqn:Eb; [|contradiction].
  cbn [obind]. assert (H' : forall rc, In rc t -> uses rc <> None) by (intros; apply H; right; assumption). destruct b; cbn [map ofold].
  - unfold fill_region. cbn [snd fst]. destruct (set_cells nc offv vals (rg_owned (fst rc)) u) as [u1|]; cbn [obind]; [|reflexivity]. apply IH. exact H'.
  - cbn [obind]. apply IH. exact H'.
Qed.
Lemma fill_none owned l2o nc off offv n vals (uses : region * conditions -> option bool) rcs st : (forall rc, In rc rcs -> uses rc <> None) -> users uses rcs = [] ->
  ofold (fun st rc => let* b := uses rc in if b then fill_region owned l2o nc off offv n vals st (fst rc) else Some st) rcs st = Some st.
Proof.
  revert st. induction rcs as [|rc t IH]; intros st H E; [reflexivity|]. cbn [ofold]. unfold users in E. cbn [filter] in E. assert (N := H rc (or_introl eq_refl)). destruct (uses rc) as [b|] eqn:Eb; [|contradiction].
  destruct b; [discriminate|]. cbn [obind]. apply IH; [intros; apply H; right; assumption|exact E].
Qed.
Lemma fill_regions_writing owned l2o rs nc off offv n file vals (uses : region * conditions -> option bool) rcs : mesh_ok owned l2o rs -> (forall rc, In rc rcs -> In (fst rc) rs) -> (forall rc, In rc rcs -> uses rc <> None) -> length vals = n ->
  (forall g c k, In g (users uses rcs) -> In c (rg_cells g) -> owns owned c -> k < n -> given file vals n c k <> None) ->
  file = None \/ length (users uses rcs) <= 1 ->
  writing (fill_regions owned l2o nc off offv n file vals uses rcs) (region_writes owned l2o nc off offv n file vals (users uses rcs)).
Proof.
  intros M Hin Hu Lv Hd Hs. assert (Hus : forall g, In g (users uses rcs) -> In g rs) by (intros g Hg; unfold users in Hg; apply in_map_iff in Hg; destruct Hg as (rc & <- & Hrc); apply filter_In in Hrc; apply Hin, Hrc).
  destruct file as [d|].
  - destruct Hs as [Hs|Hs]; [discriminate|]. destruct (users uses rcs) as [|g [|g' t]] eqn:Eu; cbn in Hs; [| |lia].
    + eapply writing_ext; [exact writing_nothing| |].
      * intros u. unfold fill_regions. rewrite fill_none by assumption. reflexivity.
      * intros p. split; [contradiction|]. intros (g & c & o & k & v & [] & _).
    + eapply writing_ext; [exact (copy_cells_writing owned l2o rs nc off n d g M (Hus g (or_introl eq_refl)) (fun c k Hc Ow Hk => Hd g c k (or_introl eq_refl) Hc Ow Hk))| |].
      * intros u. unfold fill_regions. clear Hd Hus Hs. induction rcs as [|rc t IH]; [discriminate|]. cbn [ofold]. unfold users in Eu. cbn [filter] in Eu.
        assert (N := Hu rc (or_introl eq_refl)). destruct (uses rc) as [b|] eqn:Eb; [|contradiction]. destruct b; cbn [obind].
        { cbn [map] in Eu. injection Eu as Eg Et. unfold fill_region at 1. cbn [fst snd]. rewrite Eg. destruct (copy_cells owned l2o nc off n d (rg_cells g) u) as [u1|]; [|reflexivity]. cbn [obind].
          rewrite fill_none; [reflexivity|intros; apply Hu; right; assumption|exact Et]. }
        { apply IH; [intros; apply Hin; right; assumption|intros; apply Hu; right; assumption|exact Eu]. }
      * intros p. split; [intros (c & o & k & v & H); exists g, c, o, k, v; cbn [In given]; tauto|]. intros (g0 & c & o & k & v & [<-|[]] & H). exists c, o, k, v. exact H.
  - eapply (writing_ext (ofold (fun u g => set_cells nc offv vals (rg_owned g) u) (users uses rcs))); [apply (writing_fold (fun u g => set_cells nc offv vals (rg_owned g) u) (fun g p => exists c o k v, In c (rg_cells g) /\ owns owned c /\ nth_error l2o c = Some (Z.of_nat o) /\ k < length vals /\ (let* e := nth_error vals k in e) = Some v /\ p = (nc * o + (offv + k), v)))| |].
    + intros g Hg. apply (set_cells_writing owned l2o rs); [exact M|apply Hus; exact Hg|]. intros c k Hc Ow Hk. assert (Hk2 : k < n) by (rewrite <- Lv; exact Hk). exact (Hd g c k Hg Hc Ow Hk2).
    + intros u. unfold fill_regions. rewrite fill_const by exact Hu. destruct (ofold _ _ u); reflexivity.
    + intros p. rewrite Lv. split; [intros (g & Hg & c & o & k & v & H); exists g, c, o, k, v; cbn [given]; tauto|]. intros (g & c & o & k & v & Hg & H). exists g. split; [exact Hg|]. exists c, o, k, v. exact H.
Qed.
Lemma users_in uses rcs g : In g (users uses rcs) <-> exists cd, In (g, cd) rcs /\ uses (g, cd) = Some true.
Proof.
  unfold users. rewrite in_map_iff. split.
  - intros ((g', cd) & <- & H). apply filter_In in H. destruct H as (H & E). exists cd. split; [exact H|]. cbn. destruct (uses (g', cd)) as [[|]|]; congruence.
  - intros (cd & H & E). exists (g, cd). split; [reflexivity|]. apply filter_In. split; [exact H|]. rewrite E. reflexivity.
Qed.
Lemma find_named_spec {A} (nm : A -> string) l s a : find_named nm l s = Some a -> In a l /\ nm a = s.
Proof. induction l as [|b t IH]; cbn; [discriminate|]. destruct (String.eqb_spec (nm b) s) as [E|N]; [intros [= <-]; auto|]. intros H. apply IH in H. tauto. Qed.
Lemma find_named_none {A} (nm : A -> string) l s : find_named nm l s = None <-> forall a, In a l -> nm a <> s.
Proof.
  induction l as [|b t IH]; cbn; [split; [contradiction|reflexivity]|]. destruct (String.eqb_spec (nm b) s) as [E|N].
  - split; [discriminate|]. intros H. exfalso. exact (H b (or_introl eq_refl) E).
  - rewrite IH. split; [intros H a [<-|Ha]; auto|intros H a Ha; apply H; auto].
Qed.
Lemma rmap_Ret {A B} (f : A -> result B) l bs : rmap f l = Ret bs -> length bs = length l /\ forall i a b, nth_error l i = Some a -> nth_error bs i = Some b -> f a = Ret b.
Proof.
  revert bs. induction l as [|a t IH]; intros bs H; cbn in H.
  - injection H as <-. split; [reflexivity|]. intros [|i]; discriminate.
  - destruct (f a) as [b| |] eqn:E; cbn in H; try discriminate. destruct (rmap f t) as [cs| |] eqn:Et; cbn in H; try discriminate. injection H as <-. destruct (IH cs eq_refl) as (L & W).
    split; [cbn; congruence|]. intros [|i] x y; cbn; [intros [= <-] [= <-]; exact E|apply W].
Qed.
Lemma rmap_exists {A B} (f : A -> result B) l : (forall a, In a l -> exists b, f a = Ret b) -> exists bs, rmap f l = Ret bs.
Proof.
  induction l as [|a t IH]; intros H; [exists []; reflexivity|]. destruct (H a (or_introl eq_refl)) as (b & E). destruct IH as (bs & Es); [intros; apply H; right; assumption|].
  exists (b :: bs). cbn. rewrite E. cbn. rewrite Es. reflexivity.
Qed.
Lemma name_unique {A} (nm : A -> string) l a b : NoDup (map nm l) -> In a l -> In b l -> nm a = nm b -> a = b.
Proof.
  induction l as [|c t IH]; [contradiction|]. cbn. intros ND. inversion ND as [|x y Nx ND']; subst. intros [->|Ha] [->|Hb] E; [reflexivity| | |auto].
  - exfalso. apply Nx. rewrite E. apply in_map. exact Hb.
  - exfalso. apply Nx. rewrite <- E. apply in_map. exact Ha.
Qed.
