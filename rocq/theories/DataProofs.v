(** Lemmas about the array loops of the data API. *)
From Verif Require Import Base MeshMapsModel MeshMapsProofs DataModel.
From Coq Require Import String.
Local Open Scope nat_scope.
Local Notation length := List.length.

(** ** Sequences of writes *)
Definition wr (d : list R) (p : nat * R) : option (list R) := upd d (fst p) (snd p).
Definition consistent (ps : list (nat * R)) : Prop := forall p q, In p ps -> In q ps -> fst p = fst q -> snd p = snd q.

Lemma writes_spec ps : forall d, consistent ps -> (forall p, In p ps -> fst p < length d) ->
  exists d', ofold wr ps d = Some d' /\ length d' = length d /\
    (forall i v, In (i, v) ps -> nth_error d' i = Some v) /\ (forall i, (forall p, In p ps -> fst p <> i) -> nth_error d' i = nth_error d i).
Proof.
  induction ps as [|(i0, v0) ps IH]; intros d C B.
  - exists d. cbn. repeat split; intros; contradiction.
  - destruct (upd_some d i0 v0 (B (i0, v0) (or_introl eq_refl))) as (d1 & E1).
    assert (L1 := upd_length _ _ _ _ E1).
    destruct (IH d1) as (d' & E & L & W & F).
    { intros p q Hp Hq. apply C; right; assumption. } { intros p Hp. rewrite L1. apply B. right. exact Hp. }
    exists d'. cbn [ofold]. unfold wr at 1. cbn [fst snd]. rewrite E1. cbn [obind]. split; [exact E|]. split; [congruence|]. split.
    + intros i v [[= -> ->]|Hin]; [|exact (W i v Hin)].
      destruct (in_dec Nat.eq_dec i (map fst ps)) as [Hi|Hi].
      * apply in_map_iff in Hi. destruct Hi as ((j, w) & Ej & Hj). cbn in Ej. subst j. rewrite (W i w Hj). f_equal.
        symmetry. apply (C (i, v) (i, w)); [left; reflexivity|right; exact Hj|reflexivity].
      * rewrite F; [rewrite (upd_get _ _ _ _ i E1), Nat.eqb_refl; reflexivity|]. intros p Hp Ep. apply Hi. rewrite <- Ep. apply in_map. exact Hp.
    + intros i Hi. rewrite F by (intros p Hp; apply Hi; right; exact Hp). rewrite (upd_get _ _ _ _ i E1).
      destruct (Nat.eqb_spec i i0) as [->|N]; [|reflexivity]. exfalso. apply (Hi (i0, v0) (or_introl eq_refl)). reflexivity.
Qed.

Lemma ofold_map {A S B} (g : S -> A -> option S) (w : S -> B -> option S) (P : A -> B) l :
  (forall a, In a l -> forall d, g d a = w d (P a)) -> forall d, ofold g l d = ofold w (map P l) d.
Proof.
  induction l as [|a l IH]; intros H d; [reflexivity|]. cbn [ofold map]. rewrite (H a (or_introl eq_refl)).
  destruct (w d (P a)); cbn [obind]; [|reflexivity]. apply IH. intros; apply H; right; assumption.
Qed.
Lemma ofold_flat_map {A S B} (g : S -> A -> option S) (w : S -> B -> option S) (P : A -> list B) l :
  (forall a, In a l -> forall d, g d a = ofold w (P a) d) -> forall d, ofold g l d = ofold w (flat_map P l) d.
Proof.
  induction l as [|a l IH]; intros H d; [reflexivity|]. cbn [ofold flat_map]. rewrite (H a (or_introl eq_refl)), ofold_app.
  destruct (ofold w (P a) d); cbn [obind]; [|reflexivity]. apply IH. intros; apply H; right; assumption.
Qed.
Lemma omap_nth {A B} (f : A -> option B) l bs : omap f l = Some bs -> forall i, nth_error bs i = obind (nth_error l i) f.
Proof.
  revert bs. induction l as [|a l IH]; intros bs H i; cbn in H.
  - injection H as <-. destruct i; reflexivity.
  - destruct (f a) as [b|] eqn:E; [|discriminate]. cbn in H. destruct (omap f l) as [t|] eqn:Et; [|discriminate]. cbn in H. injection H as <-.
    destruct i as [|i]; [symmetry; exact E|]. cbn. apply IH. reflexivity.
Qed.
Lemma omap_exists {A B} (f : A -> option B) l : (forall a, In a l -> exists b, f a = Some b) -> exists bs, omap f l = Some bs /\ length bs = length l.
Proof.
  induction l as [|a l IH]; intros H; [exists []; split; reflexivity|]. destruct (H a (or_introl eq_refl)) as (b & E).
  destruct IH as (bs & Es & L); [intros; apply H; right; assumption|]. exists (b :: bs). cbn. rewrite E. cbn. rewrite Es. cbn. split; [reflexivity|congruence].
Qed.

(** ** Signed access *)
Lemma zget_nat {A} (l : list A) i : zget l (Z.of_nat i) = nth_error l i.
Proof. unfold zget. destruct (Z.ltb_spec (Z.of_nat i) 0); [lia|]. rewrite Nat2Z.id. reflexivity. Qed.
Lemma zget_pos {A} (l : list A) i : (0 <= i)%Z -> zget l i = nth_error l (Z.to_nat i).
Proof. intros H. rewrite <- (Z2Nat.id i H) at 1. apply zget_nat. Qed.
Lemma zget_in {A} (l : list A) i : (0 <= i < Z.of_nat (length l))%Z -> exists x, zget l i = Some x.
Proof.
  intros H. rewrite zget_pos by lia. destruct (nth_error l (Z.to_nat i)) eqn:E; [eauto|]. apply nth_error_None in E. lia.
Qed.
Lemma at_pos nc z c : (0 <= z)%Z -> (0 <= at_ nc z c)%Z.
Proof. intros H. unfold at_. assert (0 <= Z.of_nat nc * z)%Z by (apply Z.mul_nonneg_nonneg; lia). lia. Qed.
Lemma at_lt nc z c n : (0 <= z < Z.of_nat n)%Z -> c < nc -> (0 <= at_ nc z c < Z.of_nat (nc * n))%Z.
Proof.
  intros H Hc. split; [apply at_pos; lia|]. unfold at_. rewrite Nat2Z.inj_mul.
  assert (Z.of_nat nc * (z + 1) <= Z.of_nat nc * Z.of_nat n)%Z by (apply Z.mul_le_mono_nonneg_l; lia). lia.
Qed.
Lemma at_inj nc z c z' c' : c < nc -> c' < nc -> at_ nc z c = at_ nc z' c' -> z = z' /\ c = c'.
Proof.
  unfold at_. intros Hc Hc' E.
  assert (z = z').
  { assert (A : (Z.of_nat nc * (z - z') = Z.of_nat c' - Z.of_nat c)%Z) by lia.
    destruct (Z.lt_trichotomy z z') as [L|[L|L]]; [|exact L|].
    - assert (Z.of_nat nc * (z - z') <= Z.of_nat nc * (-1))%Z by (apply Z.mul_le_mono_nonneg_l; lia). lia.
    - assert (Z.of_nat nc * 1 <= Z.of_nat nc * (z - z'))%Z by (apply Z.mul_le_mono_nonneg_l; lia). lia. }
  split; [assumption|]. subst. lia.
Qed.

(** ** Rows *)
Definition in_range (n : nat) (ids : list Z) : Prop := forall z, In z ids -> (0 <= z < Z.of_nat n)%Z.
Lemma get_rows_some nc n ids data : in_range n ids -> length data = nc * n ->
  exists vs, get_rows nc ids data = Some vs /\ length vs = nc /\
    forall c, c < nc -> exists row, nth_error vs c = Some row /\ length row = length ids /\
      forall i id, nth_error ids i = Some id -> nth_error row i = zget data (at_ nc id c).
Proof.
  intros Hr Hl. unfold get_rows. destruct (omap_exists (fun c => omap (fun id => zget data (at_ nc id c)) ids) (seq 0 nc)) as (vs & E & L).
  - intros c Hc. apply in_seq in Hc. destruct (omap_exists (fun id => zget data (at_ nc id c)) ids) as (row & Er & _); [|eauto].
    intros id Hid. apply zget_in. rewrite Hl. apply at_lt; [apply Hr; exact Hid|lia].
  - exists vs. split; [exact E|]. split; [rewrite L, seq_length; reflexivity|]. intros c Hc.
    assert (N := omap_nth _ _ _ E c). rewrite (nth_error_nth' _ 0) in N by (rewrite seq_length; lia). rewrite seq_nth in N by lia. cbn [obind Nat.add] in N.
    destruct (omap_exists (fun id => zget data (at_ nc id c)) ids) as (row & Er & Lr).
    { intros id Hid. apply zget_in. rewrite Hl. apply at_lt; [apply Hr; exact Hid|lia]. }
    exists row. rewrite N, Er. split; [reflexivity|]. split; [exact Lr|]. intros i id Hi. rewrite (omap_nth _ _ _ Er i), Hi. reflexivity.
Qed.

Lemma put_rows_some nc n ids values data : NoDup ids -> in_range n ids -> length data = nc * n ->
  (forall c, c < nc -> exists row, nth_error values c = Some row /\ length row = length ids) ->
  exists d, put_rows nc ids values data = Some d /\ length d = length data /\
    (forall i id c row v, nth_error ids i = Some id -> c < nc -> nth_error values c = Some row -> nth_error row i = Some v -> zget d (at_ nc id c) = Some v) /\
    (forall z c, c < nc -> (0 <= z)%Z -> ~ In z ids -> zget d (at_ nc z c) = zget data (at_ nc z c)).
Proof.
  intros ND Hr Hl Hv.
  set (P := fun c i => (Z.to_nat (at_ nc (nth i ids 0%Z) c), nth i (nth c values []) 0%R)).
  assert (E : forall d, put_rows nc ids values d = ofold wr (flat_map (fun c => map (P c) (seq 0 (length ids))) (seq 0 nc)) d).
  { intros d. unfold put_rows. apply ofold_flat_map. intros c Hc d0. apply in_seq in Hc. apply ofold_map. intros i Hi d1. apply in_seq in Hi.
    destruct (Hv c ltac:(lia)) as (row & Er & Lr). rewrite Er. rewrite (nth_error_nth' ids 0%Z) by lia. cbn [obind]. rewrite (nth_error_nth' row 0%R) by lia. cbn [obind].
    unfold wr, P. cbn [fst snd]. rewrite (nth_error_nth _ _ [] Er). unfold zset.
    assert (0 <= at_ nc (nth i ids 0%Z) c)%Z by (apply at_pos, Hr, nth_In; lia). destruct (Z.ltb_spec (at_ nc (nth i ids 0%Z) c) 0); [lia|reflexivity]. }
  assert (In_P : forall p, In p (flat_map (fun c => map (P c) (seq 0 (length ids))) (seq 0 nc)) <-> exists c i, c < nc /\ i < length ids /\ p = P c i).
  { intros p. rewrite in_flat_map. split.
    - intros (c & Hc & H). apply in_map_iff in H. destruct H as (i & <- & Hi). apply in_seq in Hc. apply in_seq in Hi. exists c, i. split; [lia|]. split; [lia|reflexivity].
    - intros (c & i & Hc & Hi & ->). exists c. split; [apply in_seq; lia|]. apply in_map. apply in_seq. lia. }
  assert (Inj : forall c i z c', c < nc -> c' < nc -> i < length ids -> (0 <= z)%Z -> fst (P c i) = Z.to_nat (at_ nc z c') -> nth i ids 0%Z = z /\ c = c').
  { intros c i z c' Hc Hc' Hi Hz H. unfold P in H. cbn [fst] in H. apply Z2Nat.inj in H; [|apply at_pos, Hr, nth_In; exact Hi|apply at_pos; exact Hz]. apply (at_inj nc) in H; assumption. }
  destruct (writes_spec (flat_map (fun c => map (P c) (seq 0 (length ids))) (seq 0 nc)) data) as (d & Ed & Ld & W & F).
  - intros p q Hp Hq Epq. apply In_P in Hp. apply In_P in Hq. destruct Hp as (c & i & Hc & Hi & ->). destruct Hq as (c' & i' & Hc' & Hi' & ->).
    destruct (Inj c i (nth i' ids 0%Z) c' Hc Hc' Hi) as (En & ->); [apply Hr, nth_In; exact Hi'|exact Epq|].
    assert (i = i') by (apply (proj1 (NoDup_nth ids 0%Z) ND); assumption). subst. reflexivity.
  - intros p Hp. apply In_P in Hp. destruct Hp as (c & i & Hc & Hi & ->). unfold P. cbn [fst]. rewrite Hl.
    assert (A := at_lt nc (nth i ids 0%Z) c n (Hr _ (nth_In _ _ Hi)) Hc). lia.
  - exists d. rewrite E. split; [exact Ed|]. split; [exact Ld|]. split.
    + intros i id c row v Hi Hc Er Ev. assert (Li : i < length ids) by (apply nth_error_Some; congruence).
      assert (Hid : (0 <= id)%Z) by (apply Hr; eapply nth_error_In; exact Hi).
      rewrite zget_pos by (apply at_pos; exact Hid). apply W. apply In_P. exists c, i. split; [exact Hc|]. split; [exact Li|]. unfold P.
      rewrite (nth_error_nth _ _ 0%Z Hi), (nth_error_nth _ _ [] Er), (nth_error_nth _ _ 0%R Ev). reflexivity.
    + intros z c Hc Hz Nz. rewrite !zget_pos by (apply at_pos; exact Hz). apply F. intros p Hp Ep. apply In_P in Hp. destruct Hp as (c' & i & Hc' & Hi & ->).
      destruct (Inj c' i z c Hc' Hc Hi Hz Ep) as (En & _). apply Nz. rewrite <- En. apply nth_In. exact Hi.
Qed.

Lemma fill_row f n : forall row0 values comp, comp < length values -> nth_error values comp = Some row0 -> n <= length row0 ->
  (forall i, i < n -> exists v, f i = Some v) ->
  exists values' row, fill_component (Z.of_nat comp) n f values = Some values' /\ length values' = length values /\
    (forall c, c <> comp -> nth_error values' c = nth_error values c) /\ nth_error values' comp = Some row /\ length row = length row0 /\
    (forall i, i < n -> nth_error row i = f i) /\ (forall i, n <= i -> nth_error row i = nth_error row0 i).
Proof.
  induction n as [|n IH]; intros row0 values comp Hc Er Hn Hf.
  - exists values, row0. cbn. do 2 (split; [reflexivity|]). split; [reflexivity|]. split; [exact Er|]. split; [reflexivity|]. split; intros; [lia|reflexivity].
  - destruct (IH row0 values comp Hc Er ltac:(lia)) as (vs & row & E & L & O & R & Lr & W & F); [intros; apply Hf; lia|].
    destruct (Hf n ltac:(lia)) as (v & Ev). destruct (upd_some row n v ltac:(lia)) as (row' & Eu). destruct (upd_some vs comp row' ltac:(lia)) as (vs' & Es).
    exists vs', row'. split.
    { unfold fill_component in *. rewrite seq_S, ofold_app, E. cbn [obind ofold Nat.add]. rewrite Ev. cbn [obind]. rewrite zget_nat, R. cbn [obind]. rewrite Eu. cbn [obind].
      unfold zset. destruct (Z.ltb_spec (Z.of_nat comp) 0); [lia|]. rewrite Nat2Z.id, Es. reflexivity. }
    split; [rewrite (upd_length _ _ _ _ Es); exact L|]. split.
    { intros c Nc. rewrite (upd_get _ _ _ _ c Es). destruct (Nat.eqb_spec c comp); [contradiction|]. apply O. exact Nc. }
    split; [rewrite (upd_get _ _ _ _ comp Es), Nat.eqb_refl; reflexivity|]. split; [rewrite (upd_length _ _ _ _ Eu); exact Lr|]. split.
    + intros i Hi. rewrite (upd_get _ _ _ _ i Eu). destruct (Nat.eqb_spec i n) as [->|Ni]; [symmetry; exact Ev|]. apply W. lia.
    + intros i Hi. rewrite (upd_get _ _ _ _ i Eu). destruct (Nat.eqb_spec i n); [lia|]. apply F. lia.
Qed.

(* get the rows, replace one component, put them back *)
Lemma edit_rows nc n ids comp f data : NoDup ids -> in_range n ids -> length data = nc * n -> comp < nc ->
  (forall i, i < length ids -> exists v, f i = Some v) ->
  exists vs vs' d, get_rows nc ids data = Some vs /\ fill_component (Z.of_nat comp) (length ids) f vs = Some vs' /\ put_rows nc ids vs' data = Some d /\
    length d = length data /\
    (forall i id, nth_error ids i = Some id -> zget d (at_ nc id comp) = f i) /\
    (forall z c, c < nc -> (0 <= z)%Z -> (c <> comp \/ ~ In z ids) -> zget d (at_ nc z c) = zget data (at_ nc z c)).
Proof.
  intros ND Hr Hl Hc Hf. destruct (get_rows_some nc n ids data Hr Hl) as (vs & Eg & Lv & G).
  destruct (G comp Hc) as (row0 & Er0 & Lr0 & _).
  destruct (fill_row f (length ids) row0 vs comp ltac:(lia) Er0 ltac:(lia) Hf) as (vs' & row & Ef & Lv' & O & Er & Lr & W & _).
  destruct (put_rows_some nc n ids vs' data ND Hr Hl) as (d & Ed & Ld & P1 & P2).
  { intros c Hcc. destruct (Nat.eq_dec c comp) as [->|N]; [exists row; split; [exact Er|congruence]|]. rewrite (O c N). destruct (G c Hcc) as (r & Er' & Lr' & _). exists r. auto. }
  exists vs, vs', d. split; [exact Eg|]. split; [exact Ef|]. split; [exact Ed|]. split; [exact Ld|]. split.
  - intros i id Hi. assert (Li : i < length ids) by (apply nth_error_Some; congruence). destruct (Hf i Li) as (v & Ev). rewrite Ev.
    apply (P1 i id comp row v Hi Hc Er). rewrite W by exact Li. exact Ev.
  - intros z c Hcc Hz H. destruct (in_dec Z.eq_dec z ids) as [Hin|Hin]; [|apply P2; assumption].
    destruct H as [N|N]; [|contradiction]. apply In_nth_error in Hin. destruct Hin as (i & Hi). destruct (G c Hcc) as (r & Er' & Lr' & Gr).
    assert (Ei := Gr i z Hi). destruct (zget_in data (at_ nc z c)) as (x & Ex).
    { rewrite Hl. apply at_lt; [apply Hr; eapply nth_error_In; exact Hi|exact Hcc]. }
    rewrite Ex in Ei |- *. apply (P1 i z c r x Hi Hcc); [rewrite (O c N); exact Er'|exact Ei].
Qed.

(** ** Boundary arrays *)
Lemma put_boundary_some total off nc ne values data : length data = total * ne -> off + nc <= total -> length values = nc * ne ->
  exists d, put_boundary total off nc ne values data = Some d /\ length d = length data /\
    (forall e k, e < ne -> k < total ->
       nth_error d (total * e + k) = if (Nat.leb off k && Nat.ltb k (off + nc))%bool then nth_error values (nc * e + (k - off)) else nth_error data (total * e + k)).
Proof.
  intros Hl Ho Hv.
  set (P := fun c e => (total * e + off + c, nth (nc * e + c) values 0%R)).
  assert (Rg : forall c e, c < nc -> e < ne -> nc * e + c < nc * ne) by (intros c e Hc He; assert (nc * S e <= nc * ne) by (apply Nat.mul_le_mono_l; lia); lia).
  assert (E : forall d, put_boundary total off nc ne values d = ofold wr (flat_map (fun c => map (P c) (seq 0 ne)) (seq 0 nc)) d).
  { intros d. unfold put_boundary. apply ofold_flat_map. intros c Hc d0. apply in_seq in Hc. apply ofold_map. intros e He d1. apply in_seq in He.
    rewrite (nth_error_nth' values 0%R) by (rewrite Hv; apply Rg; lia). reflexivity. }
  assert (In_P : forall p, In p (flat_map (fun c => map (P c) (seq 0 ne)) (seq 0 nc)) <-> exists c e, c < nc /\ e < ne /\ p = P c e).
  { intros p. rewrite in_flat_map. split.
    - intros (c & Hc & H). apply in_map_iff in H. destruct H as (i & <- & Hi). apply in_seq in Hc. apply in_seq in Hi. exists c, i. split; [lia|]. split; [lia|reflexivity].
    - intros (c & i & Hc & Hi & ->). exists c. split; [apply in_seq; lia|]. apply in_map. apply in_seq. lia. }
  assert (Dec : forall e e' a b, a < total -> b < total -> total * e + a = total * e' + b -> e = e' /\ a = b).
  { intros e e' a b Ha Hb H. assert (e = e') by (apply (Nat.mul_cancel_l e e' total); [lia|]; destruct (Nat.lt_trichotomy e e') as [L|[L|L]]; [|congruence|];
      [assert (total * S e <= total * e') by (apply Nat.mul_le_mono_l; lia)|assert (total * S e' <= total * e) by (apply Nat.mul_le_mono_l; lia)]; lia). subst. lia. }
  destruct (writes_spec (flat_map (fun c => map (P c) (seq 0 ne)) (seq 0 nc)) data) as (d & Ed & Ld & W & F).
  - intros p q Hp Hq Epq. apply In_P in Hp. apply In_P in Hq. destruct Hp as (c & i & Hc & Hi & ->). destruct Hq as (c' & i' & Hc' & Hi' & ->).
    unfold P in Epq |- *. cbn [fst snd] in *. destruct (Dec i i' (off + c) (off + c')) as (-> & Eo); [lia|lia|lia|]. f_equal. lia.
  - intros p Hp. apply In_P in Hp. destruct Hp as (c & i & Hc & Hi & ->). unfold P. cbn [fst]. rewrite Hl.
    assert (total * S i <= total * ne) by (apply Nat.mul_le_mono_l; lia). lia.
  - exists d. rewrite E. split; [exact Ed|]. split; [exact Ld|]. intros e k He Hk. destruct (Nat.leb_spec off k) as [L1|L1]; cbn [andb].
    + destruct (Nat.ltb_spec k (off + nc)) as [L2|L2].
      * rewrite (nth_error_nth' values 0%R) by (rewrite Hv; apply Rg; lia). apply W. apply In_P. exists (k - off), e. split; [lia|]. split; [exact He|]. unfold P. f_equal. lia.
      * apply F. intros p Hp Ep. apply In_P in Hp. destruct Hp as (c & i & Hc & Hi & ->). unfold P in Ep. cbn [fst] in Ep. destruct (Dec i e (off + c) k) as (_ & Eo); [lia|lia|lia|lia].
    + apply F. intros p Hp Ep. apply In_P in Hp. destruct Hp as (c & i & Hc & Hi & ->). unfold P in Ep. cbn [fst] in Ep. destruct (Dec i e (off + c) k) as (_ & Eo); [lia|lia|lia|lia].
Qed.

Lemma ceed_sub_op_index second nb b : b < nb -> ceed_boundary_sub_op second nb b = Some b.
Proof.
  intros H. unfold ceed_boundary_sub_op, ceed_sub_ops. assert (N : nth_error (map Some (seq 0 nb)) b = Some (Some b)).
  { rewrite nth_error_map, (nth_error_nth' _ 0) by (rewrite seq_length; exact H). rewrite seq_nth by exact H. reflexivity. }
  destruct second; cbn [app Nat.add nth_error]; rewrite N; reflexivity.
Qed.
