(** Lemmas on the options for the forcing. *)
From Coq Require Import ZArith String Ascii.
From Verif Require Import Base MeshMapsModel DataModel SetupModel ConfigModel OutputModel CalendarModel ForcingModel CheckpointModel FortranDriverModel ForcingOptionsModel ForcingOptionsSpec.
Local Notation length := List.length.
Local Open Scope nat_scope.
Local Open Scope string_scope.

(** ** Values within the limits *)
Lemma substring_all s : forall n, String.length s <= n -> substring 0 n s = s.
Proof. induction s as [|c s IH]; intros [|n] H; cbn in *; try reflexivity; [lia|]. rewrite IH by lia. reflexivity. Qed.
Lemma short_kept s : short s -> snprintf PETSC_MAX_PATH_LEN s = s.
Proof. intros H. unfold snprintf. apply substring_all. unfold short in H. rewrite Z2Nat.inj_sub by lia. lia. Qed.
Lemma get_string a n : within_limits a -> GetString a n = a_str a n.
Proof. intros (H & _). unfold GetString. destruct (a_str a n) as [s|] eqn:E; [|reflexivity]. cbn. rewrite short_kept by (eapply H; exact E). reflexivity. Qed.
Lemma get_ints a n k : (forall l, a_ints a n = Some l -> length l <= k) -> GetIntArray a n k = a_ints a n.
Proof. intros H. unfold GetIntArray. destruct (a_ints a n) as [l|]; [|reflexivity]. cbn. rewrite firstn_all2 by (apply H; reflexivity). reflexivity. Qed.
Lemma get_strs a n : within_limits a -> GetStringArray a n MAX_DATASETS = a_strs a n.
Proof. intros (_ & H & _). unfold GetStringArray. destruct (a_strs a n) as [l|] eqn:E; [|reflexivity]. cbn [option_map]. rewrite firstn_all2 by (apply (H n); exact E). reflexivity. Qed.
Lemma copy_names (l : list string) : (forall s, In s l -> short s) -> rmap strcpy l = Ret l.
Proof.
  induction l as [|s l IH]; intros H; [reflexivity|]. cbn [rmap]. assert (E : strcpy s = Ret s) by (unfold strcpy; destruct (Nat.ltb_spec (String.length s) (Z.to_nat PETSC_MAX_PATH_LEN)) as [|L]; [reflexivity|]; assert (X := H s (or_introl eq_refl)); unfold short in X; lia).
  rewrite E. cbn [rbind]. rewrite IH by (intros x Hx; apply H; right; exact Hx). reflexivity.
Qed.
Lemma date_five (l : list Z) : length l = 5 -> exists y mo d h mi, l = [y; mo; d; h; mi].
Proof. destruct l as [|y [|mo [|d [|h [|mi [|]]]]]]; cbn; intros H; try lia. eauto 10. Qed.
Lemma numbers_of y mo d h mi k : numbers (forcing_date y mo d h mi) k = k y mo d h mi.
Proof. unfold numbers, forcing_date. cbn [tm_year tm_mon tm_mday tm_hour tm_min]. f_equal; lia. Qed.

(** ** One kind of forcing after the other *)
Definition rank (t : dataset_type) : nat := match t with UNSET => 0 | CONSTANT => 1 | HOMOGENEOUS => 2 | RASTER => 3 | UNSTRUCTURED => 4 | MULTI_HOMOGENEOUS => 5 end.
Definition frank (x : forcing) : nat := match x with Nothing => 0 | Constant _ => 1 | Series _ _ => 2 | Raster _ _ _ _ _ _ => 3 | Points _ _ _ _ _ _ _ => 4 | Regions _ => 5 end.
Lemma rank_understood d : frank (understood d) = rank (ds_type d).
Proof. unfold understood, numbers. destruct (ds_type d); reflexivity. Qed.
(* after the kinds up to k, with what was asked for so far *)
Inductive reading (k : nat) (A : forcing -> Prop) (s : state) : Prop :=
| read_none : snd s = 0 -> ds_type (fst s) = UNSET -> (forall x, ~ A x) -> reading k A s
| read_one : snd s = 1 -> A (understood (fst s)) -> (forall y, A y -> y = understood (fst s)) -> 0 < rank (ds_type (fst s)) <= k -> reading k A s
| read_many : 2 <= snd s -> two_things A -> reading k A s.
Definition either (A B : forcing -> Prop) (x : forcing) : Prop := A x \/ B x.
Lemma read_skip k A (B : forcing -> Prop) s s' : reading k A s -> (forall x, ~ B x) -> snd s' = snd s -> ds_type (fst s') = ds_type (fst s) -> (rank (ds_type (fst s)) <= k -> understood (fst s') = understood (fst s)) -> reading (S k) (either A B) s'.
Proof.
  intros R N C T U. destruct R as [Rc Rt Rn|Rc Ra Ru Rk|Rc Rt].
  - apply read_none; [congruence|congruence|]. intros x [X|X]; [apply (Rn x X)|apply (N x X)].
  - rewrite <- U in Ra, Ru by lia. apply read_one; [congruence|left; exact Ra| |rewrite T; lia]. intros y [Y|Y]; [apply Ru; exact Y|destruct (N y Y)].
  - apply read_many; [congruence|]. destruct Rt as (x & y & X & Y & D). exists x, y. split; [left; exact X|]. split; [left; exact Y|exact D].
Qed.
Lemma read_take k A (B : forcing -> Prop) s s' x : reading k A s -> B x -> (forall y, B y -> y = x) -> understood (fst s') = x -> frank x = S k -> snd s' = S (snd s) -> reading (S k) (either A B) s'.
Proof.
  intros R Bx Bu U F C. assert (K : rank (ds_type (fst s')) = S k) by (rewrite <- rank_understood, U; exact F). destruct R as [Rc Rt Rn|Rc Ra Ru Rk|Rc Rt].
  - apply read_one; [congruence|rewrite U; right; exact Bx| |lia]. intros y [Y|Y]; [destruct (Rn y Y)|rewrite U; apply Bu; exact Y].
  - apply read_many; [lia|]. exists (understood (fst s)), x. split; [left; exact Ra|]. split; [right; exact Bx|]. intros E. assert (X := rank_understood (fst s)). rewrite E, F in X. lia.
  - apply read_many; [lia|]. destruct Rt as (p & q & P & Q & D). exists p, q. split; [left; exact P|]. split; [left; exact Q|exact D].
Qed.
Lemma read_same k (A B : forcing -> Prop) s : (forall x, A x <-> B x) -> reading k A s -> reading k B s.
Proof.
  intros H [Rc Rt Rn|Rc Ra Ru Rk|Rc Rt].
  - apply read_none; auto. intros x X. apply (Rn x), H, X.
  - apply read_one; auto; [apply H; exact Ra|]. intros y Y. apply Ru, H, Y.
  - apply read_many; auto. destruct Rt as (x & y & X & Y & D). exists x, y. split; [apply H; exact X|]. split; [apply H; exact Y|exact D].
Qed.
Lemma read_later k k' A s : k <= k' -> reading k A s -> reading k' A s.
Proof. intros H [Rc Rt Rn|Rc Ra Ru Rk|Rc Rt]; [apply read_none; auto|apply read_one; auto; lia|apply read_many; auto]. Qed.
(* at the end *)
Lemma read_end k A s : reading k A s -> if Nat.leb (snd s) 1 then one_or_none A (understood (fst s)) else two_things A.
Proof.
  intros [Rc Rt Rn|Rc Ra Ru Rk|Rc Rt].
  - rewrite Rc. cbn [Nat.leb]. unfold one_or_none, understood. rewrite Rt. exact Rn.
  - rewrite Rc. cbn [Nat.leb]. unfold one_or_none. assert (X := rank_understood (fst s)). destruct (understood (fst s)); [cbn in X; lia|split; assumption..].
  - destruct (Nat.leb_spec (snd s) 1); [lia|exact Rt].
Qed.

(** ** Each kind *)
Definition nothing (x : forcing) : Prop := False.
Lemma initial_reading i : reading 0 nothing (initial i).
Proof. apply read_none; [reflexivity|reflexivity|intros x []]. Qed.
Definition asks_constant (a : args) (x : forcing) : Prop := exists r, a_real a "-constant_rain_rate" = Some r /\ x = Constant r.
Lemma constant_reading a s A : reading 0 A s -> reading 1 (either A (asks_constant a)) (constant_option a s) /\ ds_interp (fst (constant_option a s)) = ds_interp (fst s).
Proof.
  intros R. unfold constant_option. destruct (a_real a "-constant_rain_rate") as [r|] eqn:E.
  - split; [|reflexivity]. eapply (read_take 0 A (asks_constant a) s _ (Constant r)); [exact R|exists r; auto| |reflexivity|reflexivity|reflexivity]. intros y (r' & Er & ->). congruence.
  - split; [|reflexivity]. eapply read_skip; [exact R| |reflexivity|reflexivity|reflexivity]. intros x (r & Er & _). congruence.
Qed.
Lemma series_reading a flag file s A : within_limits a -> ds_interp (fst s) = or_else (a_bool a flag) false -> reading 1 A s -> reading 2 (either A (asks_series a flag file)) (homogeneous_option a file s).
Proof.
  intros W I R. unfold homogeneous_option. rewrite get_string by exact W. destruct (a_str a file) as [f|] eqn:E.
  - eapply (read_take 1 A _ s _ (Series f (or_else (a_bool a flag) false))); [exact R|constructor; exact E| | |reflexivity|reflexivity].
    + intros y [f' E']. unfold or_else. congruence.
    + unfold understood. cbn. rewrite I. reflexivity.
  - eapply read_skip; [exact R| |reflexivity|reflexivity|reflexivity]. intros x [f' E']. congruence.
Qed.
Definition asks_raster (a : args) (x : forcing) : Prop :=
  exists dir y mo d h mi, a_ints a "-raster_rain_start_date" = Some [y; mo; d; h; mi] /\ a_str a "-raster_rain_dir" = Some dir /\ x = Raster dir y mo d h mi.
Lemma keeps_raster (s : state) sp k : rank (ds_type (fst s)) <= 2 -> k = 2 ->
  understood (let d := fst s in Dataset (ds_type d) (ds_rate d) (ds_file d) (ds_interp d) sp (ds_unstructured d) (ds_multi d)) = understood (fst s).
Proof. intros L _. unfold understood. cbn. destruct (ds_type (fst s)); try reflexivity. cbn in L. lia. Qed.
Lemma raster_reading a s A : within_limits a -> reading 2 A s ->
  match raster_option a s with
  | Ret s' => reading 3 (either A (asks_raster a)) s' /\ ~ bad_date a "-raster_rain_start_date" /\ ~ lone_date a "-raster_rain_start_date" "-raster_rain_dir"
  | Error => bad_date a "-raster_rain_start_date" \/ lone_date a "-raster_rain_start_date" "-raster_rain_dir"
  | UB => False
  end.
Proof.
  intros W R. unfold raster_option. cbv zeta. rewrite get_ints by (intros l; apply (proj2 (proj2 (proj2 W))); left; reflexivity).
  destruct (a_ints a "-raster_rain_start_date") as [l|] eqn:E.
  - destruct (Nat.eqb_spec (length l) 5) as [L|L]; [|left; exists l; auto]. cbn [check]. rewrite get_string by exact W. destruct (a_str a "-raster_rain_dir") as [dir|] eqn:Ed; [|right; split; [congruence|exact Ed]]. cbn [is_some check].
    destruct (date_five l L) as (y & mo & d & h & mi & ->). cbn [date_of of_option rbind]. split; [|split; [intros (l & El & N); congruence|intros (_ & X); congruence]].
    eapply (read_take 2 A _ s _ (Raster dir y mo d h mi)); [exact R|exists dir, y, mo, d, h, mi; auto| | |reflexivity|reflexivity].
    + intros z (dir' & y' & mo' & d' & h' & mi' & E1 & E2 & ->). congruence.
    + unfold understood, chosen, with_type. cbn [fst snd ds_type ds_raster sp_date sp_dir]. rewrite numbers_of. unfold map_options. cbn [sp_dir]. rewrite get_string, Ed by exact W. reflexivity.
  - split; [|split; [intros (l & El & _); congruence|intros (X & _); congruence]]. eapply read_skip; [exact R| |reflexivity|reflexivity|intros K; apply (keeps_raster s _ 2 K eq_refl)].
    intros x (dir' & y' & mo' & d' & h' & mi' & E1 & _). congruence.
Qed.
Lemma keeps_unstructured (s : state) sp : rank (ds_type (fst s)) <= 3 ->
  understood (let d := fst s in Dataset (ds_type d) (ds_rate d) (ds_file d) (ds_interp d) (ds_raster d) sp (ds_multi d)) = understood (fst s).
Proof. intros L. unfold understood. cbn. destruct (ds_type (fst s)); try reflexivity. cbn in L. lia. Qed.
Lemma points_reading a n s A : within_limits a -> In (n_date n) ["-raster_rain_start_date"; "-unstructured_rain_start_date"; "-unstructured_bc_start_date"] -> reading 3 A s ->
  match unstructured_option a n s with
  | Ret s' => reading 4 (either A (asks_points a (n_date n) (n_dir n) (n_mesh n))) s' /\ ~ incomplete_points a (n_date n) (n_dir n) (n_mesh n)
  | Error => incomplete_points a (n_date n) (n_dir n) (n_mesh n)
  | UB => False
  end.
Proof.
  intros W I R. unfold unstructured_option. cbv zeta. rewrite get_ints by (intros l; apply (proj2 (proj2 (proj2 W))); exact I).
  destruct (a_ints a (n_date n)) as [l|] eqn:E.
  - destruct (Nat.eqb_spec (length l) 5) as [L|L]; [|left; exists l; auto]. cbn [check]. rewrite !get_string by exact W. destruct (a_str a (n_dir n)) as [dir|] eqn:Ed; [|right; left; split; [congruence|exact Ed]]. cbn [is_some check].
    destruct (a_str a (n_mesh n)) as [mesh|] eqn:Em; [|right; right; split; [congruence|exact Em]]. cbn [is_some check].
    destruct (date_five l L) as (y & mo & d & h & mi & ->). cbn [date_of of_option rbind]. split; [|intros [(l & El & N)|[(_ & X)|(_ & X)]]; congruence].
    eapply (read_take 3 A _ s _ (Points dir mesh y mo d h mi)); [exact R|constructor; assumption| | |reflexivity|reflexivity].
    + intros z [dir' mesh' y' mo' d' h' mi' E1 E2 E3]. congruence.
    + unfold understood, chosen, with_type. cbn [fst snd ds_type ds_unstructured sp_date sp_dir sp_mesh_file]. rewrite numbers_of. unfold map_options. cbn [sp_dir or_else]. rewrite get_string, Ed by exact W. reflexivity.
  - split; [|intros [(l & El & _)|[(X & _)|(X & _)]]; congruence]. eapply read_skip; [exact R| |reflexivity|reflexivity|intros K; apply (keeps_unstructured s _ K)].
    intros x [dir' mesh' y' mo' d' h' mi' E1 E2 E3]. congruence.
Qed.
Lemma regions_reading a files regions s A : within_limits a -> reading 4 A s ->
  match multi_option a files regions s with
  | Ret s' => reading 5 (either A (asks_regions a files regions)) s' /\ ~ unpaired a files regions
  | Error => unpaired a files regions
  | UB => False
  end.
Proof.
  intros W R. unfold multi_option, unpaired. cbv zeta. rewrite get_strs by exact W. rewrite get_ints by (intros l Hl; apply (proj1 (proj2 (proj2 W)) _ _ Hl)).
  destruct (a_strs a files) as [fs|] eqn:Ef, (a_ints a regions) as [ids|] eqn:Ei; cbn [is_some Bool.eqb check]; try exact Logic.I.
  - destruct (Nat.eqb_spec (length fs) (length ids)) as [L|L]; [|exact L]. cbn [check]. rewrite copy_names by (apply (proj1 (proj2 W) _ _ Ef)). cbn [rbind]. split; [|auto].
    eapply (read_take 4 A _ s _ (Regions (combine fs ids))); [exact R|constructor; assumption| |reflexivity|reflexivity|reflexivity]. intros z [fs' ids' E1 E2 E3]. congruence.
  - split; [|auto]. eapply read_skip; [exact R| |reflexivity|reflexivity|reflexivity]. intros x [fs' ids' E1 E2 E3]. congruence.
Qed.

(** ** Both functions *)
Lemma rain_read a : within_limits a ->
  match RDyForcingParseRainfallDataOptions a with
  | Ret d => ~ incomplete_rain a /\ one_or_none (asks_rain a) (understood d)
  | Error => incomplete_rain a \/ two_things (asks_rain a)
  | UB => False
  end.
Proof.
  intros W. unfold RDyForcingParseRainfallDataOptions. cbv zeta. set (s0 := initial _). destruct (constant_reading a s0 nothing (initial_reading _)) as (R1 & I1). set (s1 := constant_option a s0) in *.
  assert (R2 := series_reading a "-temporally_interpolate_spatially_homogeneous_rain" "-homogeneous_rain_file" s1 _ W I1 R1). set (s2 := homogeneous_option a "-homogeneous_rain_file" s1) in *.
  assert (R3 := raster_reading a s2 _ W R2). destruct (raster_option a s2) as [s3| |]; cbn [rbind]; [|left; destruct R3; [left; assumption|right; left; assumption]|exact R3]. destruct R3 as (R3 & N1 & N2).
  assert (R4 := points_reading a rain_names s3 _ W (or_intror (or_introl eq_refl)) R3). destruct (unstructured_option a rain_names s3) as [s4| |]; cbn [rbind]; [|left; right; right; left; exact R4|exact R4]. destruct R4 as (R4 & N3).
  assert (R5 := regions_reading a "-homogeneous_rain_files" "-homogeneous_rain_region_ids" s4 _ W R4). destruct (multi_option a "-homogeneous_rain_files" "-homogeneous_rain_region_ids" s4) as [s5| |]; cbn [rbind]; [|left; right; right; right; exact R5|exact R5]. destruct R5 as (R5 & N4).
  apply (read_same _ _ (asks_rain a)) in R5.
  2: { intros x. unfold either, nothing, asks_constant, asks_raster. split.
       - intros [[[[[[]|(r & Er & ->)]|X]|(dir & y & mo & d & h & mi & E1 & E2 & ->)]|X]|X]; [apply rain_constant; exact Er|apply rain_series; exact X|apply rain_raster; assumption|apply rain_points; exact X|apply rain_regions; exact X].
       - intros [r Er|z X|dir y mo d h mi E1 E2|z X|z X]; [left; left; left; left; right; eauto|left; left; left; right; exact X|left; left; right; eauto 10|left; right; exact X|right; exact X]. }
  apply read_end in R5. destruct (Nat.leb (snd s5) 1); cbn [check]; [split; [|exact R5]|right; exact R5]. intros [X|[X|[X|X]]]; auto.
Qed.
Lemma boundary_read a : within_limits a ->
  match RDyForcingParseBoundaryDataOptions a with
  | Ret d => ~ incomplete_boundary a /\ one_or_none (asks_boundary a) (understood d)
  | Error => incomplete_boundary a \/ two_things (asks_boundary a)
  | UB => False
  end.
Proof.
  intros W. unfold RDyForcingParseBoundaryDataOptions. cbv zeta. set (s0 := initial _). assert (R1 := read_later 0 1 _ _ (Nat.le_0_1) (initial_reading (a_bool a "-temporally_interpolate_bc"))). fold s0 in R1.
  assert (R2 := series_reading a "-temporally_interpolate_bc" "-homogeneous_bc_file" s0 _ W eq_refl R1). set (s2 := homogeneous_option a "-homogeneous_bc_file" s0) in *.
  apply (read_later 2 3) in R2; [|lia].
  assert (R4 := points_reading a bc_names s2 _ W (or_intror (or_intror (or_introl eq_refl))) R2). destruct (unstructured_option a bc_names s2) as [s4| |]; cbn [rbind]; [|left; left; exact R4|exact R4]. destruct R4 as (R4 & N3).
  assert (R5 := regions_reading a "-homogeneous_bc_files" "-homogeneous_bc_region_ids" s4 _ W R4). destruct (multi_option a "-homogeneous_bc_files" "-homogeneous_bc_region_ids" s4) as [s5| |]; cbn [rbind]; [|left; right; exact R5|exact R5]. destruct R5 as (R5 & N4).
  apply (read_same _ _ (asks_boundary a)) in R5.
  2: { intros x. unfold either, nothing. split.
       - intros [[[[]|X]|X]|X]; [apply boundary_series; exact X|apply boundary_points; exact X|apply boundary_regions; exact X].
       - intros [z X|z X|z X]; auto. }
  apply read_end in R5. destruct (Nat.leb (snd s5) 1); cbn [check]; [split; [|exact R5]|right; exact R5]. intros [X|X]; auto.
Qed.
