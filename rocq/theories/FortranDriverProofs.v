(** Lemmas about the forcing of the Fortran driver. *)
From Coq Require Import NArith Nnat ZArith String Ascii Permutation.
From Verif Require Import Base MeshMapsModel MeshMapsProofs DataModel DataProofs DataProperties SetupModel ConfigModel TimeModel OutputModel OutputProofs CalendarModel CalendarProperties
  ForcingModel ForcingProofs ForcingProperties ForcingRunProperties CheckpointModel CheckpointProperties FortranDriverModel FortranDriverSpec.
Local Notation length := List.length.
Local Notation concat := List.concat.
Local Open Scope R_scope.
Local Open Scope nat_scope.

(** ** Arrays from 1 *)
Lemma fget_nat {A} (l : list A) i : fget l (Z.of_nat (S i)) = nth_error l i.
Proof. unfold fget. destruct (Z.ltb_spec (Z.of_nat (S i)) 1); [lia|]. f_equal. lia. Qed.
Lemma fset_nat {A} (l : list A) i x : fset l (Z.of_nat (S i)) x = upd l i x.
Proof. unfold fset. destruct (Z.ltb_spec (Z.of_nat (S i)) 1); [lia|]. f_equal. lia. Qed.
Lemma fget_at {A} (l : list A) z i : z = Z.of_nat (S i) -> fget l z = nth_error l i.
Proof. intros ->. apply fget_nat. Qed.
Lemma fset_at {A} (l : list A) z i x : z = Z.of_nat (S i) -> fset l z x = upd l i x.
Proof. intros ->. apply fset_nat. Qed.
Lemma fseq_ofold {S} (f : S -> Z -> option S) (g : S -> nat -> option S) n s : (forall s i, i < n -> f s (Z.of_nat (Datatypes.S i)) = g s i) -> ofold f (fseq n) s = ofold g (seq 0 n) s.
Proof.
  intros H. unfold fseq. assert (K : forall m k s, k + m <= n -> ofold f (map Z.of_nat (seq (Datatypes.S k) m)) s = ofold g (seq k m) s).
  { induction m as [|m IH]; intros k u Hk; [reflexivity|]. cbn [seq map ofold]. rewrite H by lia. destruct (g u k); cbn [obind]; [|reflexivity]. apply IH. lia. }
  apply K. lia.
Qed.
Lemma fseq_omap {A} (f : Z -> option A) (g : nat -> option A) n : (forall i, i < n -> f (Z.of_nat (S i)) = g i) -> omap f (fseq n) = omap g (seq 0 n).
Proof.
  intros H. unfold fseq. assert (K : forall m k, k + m <= n -> omap f (map Z.of_nat (seq (S k) m)) = omap g (seq k m)).
  { induction m as [|m IH]; intros k Hk; [reflexivity|]. cbn [seq map omap]. rewrite H by lia. rewrite IH by lia. reflexivity. }
  apply K. lia.
Qed.

(** ** Time series *)
Lemma fortran_bracket_find data t : forall n i, fortran_bracket data t (Z.of_nat (S i)) n =
  match find_bracket data t i n with Some (Some (j, x)) => Some (Some (Z.of_nat (S j), x)) | Some None => Some None | None => None end.
Proof.
  induction n as [|n IH]; intros i; [reflexivity|]. cbn [fortran_bracket find_bracket].
  rewrite (fget_at _ _ (i * 2)), (fget_at _ _ (i * 2 + 1)), (fget_at _ _ (i * 2 + 2)), (fget_at _ _ (i * 2 + 3)) by lia.
  destruct (nth_error data (i * 2)); [|reflexivity]. destruct (nth_error data (i * 2 + 1)); [|reflexivity]. destruct (nth_error data (i * 2 + 2)); [|reflexivity]. destruct (nth_error data (i * 2 + 3)); [|reflexivity]. cbn [obind].
  destruct ((_ <=? t)%R && (t <? _)%R)%bool; [reflexivity|]. replace (Z.of_nat (S i) + 1)%Z with (Z.of_nat (S (S i))) by lia. apply IH.
Qed.
Lemma getcurrentdata_C data ndata t interp : ndata <> 0 -> getcurrentdata data ndata t interp = let* r := RDyForcingGetCurrentData data ndata t interp in Some ((fst r + 1)%Z, snd r).
Proof.
  intros N. unfold getcurrentdata, RDyForcingGetCurrentData. change 1%Z with (Z.of_nat 1) at 1. rewrite fortran_bracket_find. destruct (find_bracket data t 0 (ndata - 1)) as [[(j, ((a, b), (c, d)))|]|]; cbn [obind]; [| |reflexivity].
  - destruct interp; [|cbn [obind fst snd]; apply f_equal, (f_equal2 pair); [lia|reflexivity]]. destruct (rdiv (t - a) (c - a)); cbn [obind fst snd]; [|reflexivity]. apply f_equal, (f_equal2 pair); [lia|reflexivity].
  - rewrite (fget_at _ _ (ndata * 2 - 1)) by lia. unfold zget. destruct (Z.ltb_spec (Z.of_nat ndata * 2 - 1) 0); [lia|]. replace (Z.to_nat (Z.of_nat ndata * 2 - 1)) with (ndata * 2 - 1) by lia.
    destruct (nth_error data (ndata * 2 - 1)); cbn [obind fst snd]; [|reflexivity]. apply f_equal, (f_equal2 pair); [lia|reflexivity].
Qed.

(** ** Dates *)
Lemma tm_of_inj d e : tm_of d = tm_of e -> d = e.
Proof. destruct d, e. unfold tm_of. cbn. intros [= A B -> -> -> ->]. f_equal; lia. Qed.
Lemma later_is d e c n : valid_date d -> later n d e -> valid_date c -> mktime (tm_of c) = (mktime (tm_of d) + Z.of_nat n)%Z -> c = e.
Proof.
  intros V L Vc E. destruct (later_spec n d e V L) as (Ve & Ee). apply tm_of_inj. rewrite <- (localtime_mktime c Vc), <- (localtime_mktime e Ve). congruence.
Qed.
Lemma day_of_month_spec y m n : length_of_month y m n -> (400 <= y)%Z -> exists n', day_of_month y m = Some n' /\ (n' = n \/ m = 2%Z /\ n = 29%Z /\ n' = 28%Z).
Proof.
  intros L Y. assert (Q : (Z.quot y 400 =? 0)%Z = false) by (apply Z.eqb_neq; rewrite Z.quot_div_nonneg by lia; pose proof (Z.div_le_lower_bound y 400 1); lia).
  assert (Q4 : (Z.quot y 4 =? 0)%Z = false) by (apply Z.eqb_neq; rewrite Z.quot_div_nonneg by lia; pose proof (Z.div_le_lower_bound y 4 1); lia).
  destruct L; unfold day_of_month; cbn [existsb Z.eqb Pos.eqb orb]; try (eexists; split; [reflexivity|left; reflexivity]); rewrite Q, Q4; cbn [orb andb]; eexists; (split; [reflexivity|]); auto.
Qed.
Lemma hour_parts y mo d h mi s : mktime (tm_of (Date y mo d h mi s)) = (86400 * day_number (y + (mo - 1) / 12) ((mo - 1) mod 12) d + 3600 * h + 60 * mi + s)%Z.
Proof. unfold mktime, tm_of. cbn [year month day hour minute second tm_year tm_mon tm_mday tm_hour tm_min tm_sec]. replace (y - 1900 + 1900)%Z with y by lia. reflexivity. Qed.
Lemma increment_later d e : valid_date d -> later 3600 d e -> (400 <= year d)%Z -> ~ (month e = 2 /\ day e = 29 /\ hour e = 0)%Z -> IncrementDateByOneHour (time_of d) = Some (time_of e).
Proof.
  intros V L Y N. destruct d as [y mo d h mi s]. assert (V' := V). destruct V as (_ & (n & Ln & Dn) & H & M & S). cbn [year month day hour minute second] in *.
  destruct (month_length y mo n Ln) as (Bm & En). destruct (day_of_month_spec y mo n Ln Y) as (n' & E' & Hn').
  assert (Dv : ((mo - 1) / 12 = 0)%Z) by (apply Z.div_small; lia). assert (Md : ((mo - 1) mod 12 = mo - 1)%Z) by (apply Z.mod_small; lia).
  unfold IncrementDateByOneHour, time_of. cbn [t_year t_month t_day t_hour t_minute year month day hour minute].
  destruct (Z.eqb_spec (h + 1) 24) as [H24|H24].
  - assert (h = 23)%Z by lia. subst h. rewrite E'. cbn [obind].
    destruct (Z.eq_dec d n) as [->|Dd].
    + (* the last day of the month *)
      assert (C : (n' <? n + 1)%Z = true) by (apply Z.ltb_lt; destruct Hn' as [->|(_ & -> & ->)]; lia). rewrite C.
      destruct (Z.ltb_spec 12 (mo + 1)) as [D12|D12].
      * assert (mo = 12)%Z by lia. subst mo. assert (K : Date (y + 1) 1 1 0 mi s = e).
        { apply (later_is _ e _ 3600 V' L); [repeat split; cbn; try lia; exists 31%Z; split; [constructor|lia]|]. rewrite !hour_parts, Dv, Md. change ((1 - 1) / 12)%Z with 0%Z. change ((1 - 1) mod 12)%Z with 0%Z.
          unfold day_number. rewrite !Z.add_0_r, year_length. assert (En' := month_end y). change (12 - 1)%Z with 11%Z in *. cbn [month_days] in En. rewrite En. change (month_start (y + 1) 0) with 0%Z. change (Z.of_nat 3600) with 3600%Z. lia. }
        rewrite <- K. reflexivity.
      * assert (K : Date y (mo + 1) 1 0 mi s = e).
        { apply (later_is _ e _ 3600 V' L).
          - repeat split; cbn [year month day hour minute second]; try lia. exists (month_days y (mo + 1 - 1)). assert (G := length_exists y (mo + 1) ltac:(lia)). split; [exact G|]. assert (C1 : forall m k, length_of_month y m k -> (28 <= k)%Z) by (intros m k []; lia). specialize (C1 _ _ G). lia.
          - rewrite !hour_parts, Dv, Md. replace ((mo + 1 - 1) / 12)%Z with 0%Z by (symmetry; apply Z.div_small; lia). replace ((mo + 1 - 1) mod 12)%Z with (mo - 1 + 1)%Z by (rewrite Z.mod_small; lia).
            unfold day_number. rewrite !Z.add_0_r, (month_next y (mo - 1)) by lia. rewrite <- En. change (Z.of_nat 3600) with 3600%Z. lia. }
        rewrite <- K. reflexivity.
    + assert (K : Date y mo (d + 1) 0 mi s = e).
      { apply (later_is _ e _ 3600 V' L); [repeat split; cbn; try lia; exists n; split; [exact Ln|lia]|]. rewrite !hour_parts, Dv, Md. unfold day_number. rewrite !Z.add_0_r. change (Z.of_nat 3600) with 3600%Z. lia. }
      destruct (Z.ltb_spec n' (d + 1)) as [Lt|_].
      * exfalso. destruct Hn' as [->|(-> & -> & ->)]; [lia|]. apply N. rewrite <- K. cbn. lia.
      * rewrite <- K. reflexivity.
  - assert (K : Date y mo d (h + 1) mi s = e).
    { apply (later_is _ e _ 3600 V' L); [repeat split; cbn; try lia; exists n; split; [exact Ln|lia]|]. rewrite !hour_parts, Dv, Md. unfold day_number. change (Z.of_nat 3600) with 3600%Z. lia. }
    rewrite <- K. reflexivity.
Qed.

(** ** Names *)
Fixpoint digits_all (k : nat) (n : N) (w : nat) : bool := match k with 0 => true | S k => Nat.eqb (String.length (DecimalString.NilEmpty.string_of_uint (N.to_uint n))) w && digits_all k (N.succ n) w end.
Lemma digits_all_spec w : forall k n, digits_all k n w = true -> forall z, (Z.of_N n <= z < Z.of_N n + Z.of_nat k)%Z -> String.length (OutputModel.dec (Z.to_nat z)) = w.
Proof.
  induction k as [|k IH]; intros n H z B; [lia|]. cbn [digits_all] in H. apply andb_true_iff in H. destruct H as (H & G). apply Nat.eqb_eq in H.
  destruct (Z.eq_dec z (Z.of_N n)) as [->|D].
  - unfold OutputModel.dec. rewrite <- Z_N_nat, N2Z.id, N2Nat.id. exact H.
  - apply (IH (N.succ n) G). lia.
Qed.
Lemma dec4 z : (1000 <= z <= 9999)%Z -> String.length (OutputModel.dec (Z.to_nat z)) = 4.
Proof. intros H. apply (digits_all_spec 4 (Z.to_nat 9000) 1000%N); [vm_compute; reflexivity|]. rewrite Z2Nat.id by lia. change (Z.of_N 1000) with 1000%Z. lia. Qed.
Lemma dec2 z : (0 <= z <= 99)%Z -> String.length (OutputModel.dec (Z.to_nat z)) <= 2.
Proof.
  intros H. destruct (Z_lt_le_dec z 10) as [L|L].
  - rewrite (digits_all_spec 1 10 0%N); [lia|vm_compute; reflexivity|]. change (Z.of_N 0) with 0%Z. lia.
  - rewrite (digits_all_spec 2 90 10%N); [lia|vm_compute; reflexivity|]. change (Z.of_N 10) with 10%Z. lia.
Qed.
Lemma edit_I4 z : (1000 <= z <= 9999)%Z -> edit_I 4 z = num 4 z.
Proof. intros H. unfold edit_I, num, padded. rewrite dec4 by exact H. reflexivity. Qed.
Lemma edit_I2 z : (0 <= z <= 99)%Z -> edit_Iw 2 z = num 2 z.
Proof. intros H. unfold edit_Iw, num. rewrite padded_length. pose proof (dec2 z H). rewrite Nat.max_l by lia. reflexivity. Qed.
Lemma name_length dir id d : valid_date d -> (1000 <= year d <= 9999)%Z -> String.length (hourly_name dir id d) = String.length dir + String.length id + 22.
Proof.
  intros (_ & (n & L & D) & H & M & _) Y. destruct (month_length _ _ _ L) as (Bm & En). assert (n <= 31)%Z by (destruct L; lia).
  unfold hourly_name, num. rewrite !append_length, !padded_length, dec4 by exact Y. rewrite (Nat.max_l 2), (Nat.max_l 2), (Nat.max_l 2), (Nat.max_l 2) by (apply dec2; lia). cbn [String.length]. lia.
Qed.
Lemma filename_spec dir id d : valid_date d -> (1000 <= year d <= 9999)%Z -> String.length dir + String.length id + 22 <= 1024 -> DetermineDatasetFilename dir (time_of d) id = Ret (hourly_name dir id d).
Proof.
  intros V Y F. assert (V' := V). destruct V as (_ & (n & L & D) & H & M & _). destruct (month_length _ _ _ L) as (Bm & En). assert (n <= 31)%Z by (destruct L; lia).
  unfold DetermineDatasetFilename, time_of. cbn [t_year t_month t_day t_hour t_minute]. rewrite edit_I4 by exact Y. rewrite !edit_I2 by lia.
  change (let file := hourly_name dir id d in if Nat.leb (String.length file) 1024 then Ret file else Error) with (if Nat.leb (String.length (hourly_name dir id d)) 1024 then Ret (hourly_name dir id d) else Error).
  fold (hourly_name dir id d). rewrite name_length by assumption. rewrite (proj2 (Nat.leb_le _ _) F). reflexivity.
Qed.
Lemma time_of_inj d e : second d = second e -> time_of d = time_of e -> d = e.
Proof. destruct d, e. unfold time_of. cbn. congruence. Qed.

(** ** Files, hour by hour *)
Lemma next_date id dir start K k e : findable id dir start K -> S k <= K -> later (3600 * k) start e ->
  exists e', later (3600 * S k) start e' /\ IncrementDateByOneHour (time_of e) = Some (time_of e').
Proof.
  intros (V & _ & _ & G) Hk L. destruct (later_spec _ _ _ V L) as (Ve & _). destruct (later_exists 3600 e Ve) as (e' & L').
  assert (L2 : later (3600 * S k) start e') by (replace (3600 * S k) with (3600 + 3600 * k) by lia; eapply later_trans; eassumption). exists e'. split; [exact L2|].
  destruct (G k e ltac:(lia) L) as (Y & _). destruct (G (S k) e' Hk L2) as (_ & N). apply increment_later; [exact Ve|exact L'|lia|]. apply N. lia.
Qed.
Lemma dated_name id dir start K k e : findable id dir start K -> k <= K -> later (3600 * k) start e -> DetermineDatasetFilename dir (time_of e) id = Ret (hourly_name dir id e).
Proof.
  intros (V & _ & F & G) Hk L. destruct (later_spec _ _ _ V L) as (Ve & _). destruct (G k e Hk L) as (Y & _). apply filename_spec; assumption.
Qed.
Lemma file_at_date fs id dir start K k e d : findable id dir start K -> later (3600 * k) start e -> file_at fs id dir start k d -> fs (hourly_name dir id e) = Some d.
Proof. intros (V & _) L (e' & L' & H). rewrite (later_unique _ _ _ _ V L L'). exact H. Qed.
Lemma int_of_INR n : fits n -> int_of (INR n) = Some (Z.of_nat n).
Proof. intros H. rewrite INR_IZR_INZ. apply int_of_IZR. unfold fits in H. lia. Qed.

Lemma open_raster_dataset fs id dir d h date map_ name : DetermineDatasetFilename dir date id = Ret name -> fs name = Some d -> raster_file h d -> fits (sh_ncols h) -> fits (sh_nrows h) ->
  OpenRasterDataset fs id dir date map_ = Ret (FRaster dir date 1 (Z.of_nat (sh_ncols h)) (Z.of_nat (sh_nrows h)) (sh_xlc h) (sh_ylc h) (sh_size h) d map_).
Proof.
  intros E F (body & -> & _) C N. unfold OpenRasterDataset. rewrite E. cbn [rbind]. unfold opendata. rewrite F. cbn [rbind]. 
  rewrite (fget_at _ 1 0), (fget_at _ 2 1), (fget_at _ 3 2), (fget_at _ 4 3), (fget_at _ 5 4) by reflexivity. cbn [nth_error obind]. rewrite !int_of_INR by assumption. reflexivity.
Qed.
Lemma quot_exact n s : s <> 0 -> Z.quot (Z.of_nat (S (S (n * s))) - 2) (Z.of_nat s) = Z.of_nat n.
Proof. intros H. replace (Z.of_nat (S (S (n * s))) - 2)%Z with (Z.of_nat n * Z.of_nat s)%Z by lia. apply Z.quot_mul. lia. Qed.
Lemma open_unstructured_dataset fs id dir d n stride date map_ expected name : DetermineDatasetFilename dir date id = Ret name -> fs name = Some d -> point_file stride n d -> fits n -> fits stride -> stride <> 0 ->
  expected (Z.of_nat stride) = Z.of_nat stride -> OpenUnstructuredDataset fs id dir date map_ expected = Ret (FUnstructured dir date 1 (Z.of_nat stride) d map_).
Proof.
  intros E F (body & -> & Lb) Fn Fs Ns Ex. unfold OpenUnstructuredDataset. rewrite E. cbn [rbind]. unfold opendata. rewrite F. cbn [rbind].
  rewrite (fget_at _ 1 0), (fget_at _ 2 1) by reflexivity. cbn [nth_error obind]. rewrite !int_of_INR by assumption. cbn [of_option rbind]. destruct (Z.eqb_spec (Z.of_nat stride) 0); [lia|].
  cbn [length]. rewrite Lb, quot_exact by exact Ns. rewrite Z.eqb_refl. cbn [check]. rewrite Ex, Z.eqb_refl. reflexivity.
Qed.
Lemma omap_all {A} (l : list A) : omap (nth_error l) (seq 0 (length l)) = Some l.
Proof.
  destruct (omap_exists (nth_error l) (seq 0 (length l))) as (bs & E & L). { intros i Hi. apply in_seq in Hi. destruct (nth_error l i) as [a|] eqn:Ea; [eauto|]. apply nth_error_None in Ea. lia. }
  rewrite E. f_equal. apply nth_error_ext. intros i. rewrite (omap_nth _ _ _ E). rewrite seq_length in L. destruct (lt_dec i (length l)) as [H|H]; [rewrite nth_error_seq by exact H; reflexivity|].
  rewrite (proj2 (nth_error_None (seq 0 (length l)) i)) by (rewrite seq_length; lia). cbn. symmetry. apply nth_error_None. lia.
Qed.
Lemma read_coordinates pts : fits (length pts) -> FReadUnstructuredDatasetCoordinates (coordinates_file pts) = Ret pts.
Proof.
  intros F. unfold FReadUnstructuredDatasetCoordinates, coordinates_file. rewrite (fget_at _ 1 0), (fget_at _ 2 1) by reflexivity. cbn [nth_error obind]. rewrite int_of_INR by exact F. rewrite (int_of_IZR 2) by lia. cbn [of_option rbind Z.eqb Pos.eqb check].
  rewrite Nat2Z.id. rewrite (fseq_omap _ (nth_error pts)).
  - rewrite omap_all. reflexivity.
  - intros i Hi. rewrite (fget_at _ _ (2 + (i * 2 + 0))), (fget_at _ _ (2 + (i * 2 + 1))) by lia. cbn [nth_error Nat.add]. rewrite !(flat_map_nth _ 2) by (auto; lia).
    destruct (nth_error pts i) as [(x, y)|]; reflexivity.
Qed.

(** ** Maps *)
Definition one_based (m : list nat) : list (option Z) := map (fun k => Some (Z.of_nat (S k))) m.
Lemma unstructured_nearest_loop x y : forall pts kk m i, 0 < kk ->
  unstructured_nearest x y pts (Z.of_nat (S kk)) (Some m) (Some (Z.of_nat (S i))) = Some (Some (Z.of_nat (S (raster_loop x y pts kk m i)))).
Proof.
  induction pts as [|(px, py) t IH]; intros kk m i H; [reflexivity|]. cbn [unstructured_nearest raster_loop]. destruct (Z.eqb_spec (Z.of_nat (S kk)) 1); [lia|]. cbn [obind].
  replace (Z.of_nat (S kk) + 1)%Z with (Z.of_nat (S (S kk))) by lia. destruct (Rltb (distance x y px py) m); apply IH; lia.
Qed.
Lemma unstructured_map pts mesh : pts <> [] -> exists m, CreateUnstructuredDatasetMap pts mesh = Some (one_based m) /\ RDyForcingCreateUnstructuredDatasetMap pts mesh = Some m.
Proof.
  intros N. destruct pts as [|(px, py) t]; [contradiction|]. set (k := fun c : R * R => raster_loop (fst c) (snd c) t 1 (distance (fst c) (snd c) px py) 0).
  assert (A : forall c, unstructured_nearest (fst c) (snd c) ((px, py) :: t) 1 None None = Some (Some (Z.of_nat (S (k c))))).
  { intros c. cbn [unstructured_nearest Z.eqb Pos.eqb]. change (1 + 1)%Z with (Z.of_nat 2). change (Some 1%Z) with (Some (Z.of_nat 1)). apply unstructured_nearest_loop. lia. }
  assert (B : forall c, nearest_loop (fst c) (snd c) ((px, py) :: t) 0 None 0 = Some (k c)) by (intros c; cbn [nearest_loop Nat.eqb]; apply nearest_loop_some; lia).
  exists (map k mesh). unfold CreateUnstructuredDatasetMap, RDyForcingCreateUnstructuredDatasetMap. split.
  - induction mesh as [|c mesh IH]; [reflexivity|]. cbn [omap]. rewrite A, IH. reflexivity.
  - induction mesh as [|c mesh IH]; [reflexivity|]. cbn [omap]. rewrite B, IH. reflexivity.
Qed.
Lemma raster_points_same nc nr x y s : fortran_raster_points nc nr x y s = raster_points nc nr x y s.
Proof.
  unfold fortran_raster_points, raster_points. rewrite <- (seq_shift nr 0). rewrite !flat_map_concat_map, map_map. f_equal. apply map_ext. intros r. rewrite <- (seq_shift nc 0), map_map. apply map_ext. intros c.
  unfold fortran_raster_point, raster_point. rewrite !S_INR. apply (f_equal2 pair); ring.
Qed.
Lemma raster_nearest_some x y : forall pts kk m i, raster_nearest x y pts (Z.of_nat kk) m (Some (Z.of_nat (S i))) = Some (Z.of_nat (S (raster_loop x y pts kk m i))).
Proof.
  induction pts as [|(px, py) t IH]; intros kk m i; [reflexivity|]. cbn [raster_nearest raster_loop]. replace (Z.of_nat kk + 1)%Z with (Z.of_nat (S kk)) by lia. destruct (Rltb (distance x y px py) m); apply IH.
Qed.
Lemma raster_nearest_within x y : forall pts kk m i q, In q pts -> (dist_to x y q < m)%R -> raster_nearest x y pts (Z.of_nat kk) m None = Some (Z.of_nat (S (raster_loop x y pts kk m i))).
Proof.
  induction pts as [|(px, py) t IH]; intros kk m i q Hq Hd; [destruct Hq|]. cbn [raster_nearest raster_loop]. replace (Z.of_nat kk + 1)%Z with (Z.of_nat (S kk)) by lia.
  destruct (Rltb (distance x y px py) m) eqn:E; [apply raster_nearest_some|]. apply Rltb_false in E. destruct Hq as [<-|Hq]; [unfold dist_to in Hd; cbn in Hd; lra|]. eapply IH; eassumption.
Qed.
Lemma raster_nearest_beyond x y : forall pts kk m, (forall q, In q pts -> (m <= dist_to x y q)%R) -> raster_nearest x y pts kk m None = None.
Proof.
  induction pts as [|(px, py) t IH]; intros kk m H; [reflexivity|]. cbn [raster_nearest]. destruct (Rltb (distance x y px py) m) eqn:E.
  - apply Rltb_true in E. specialize (H (px, py) (or_introl eq_refl)). unfold dist_to in H. cbn in H. lra.
  - apply IH. intros q Hq. apply H. right. exact Hq.
Qed.
Lemma raster_limit_same nc nr s : ((IZR (Z.max (Z.of_nat nc) (Z.of_nat nr)) + 1) * s)%R = raster_limit nc nr s.
Proof. unfold raster_limit. rewrite <- Nat2Z.inj_max, <- INR_IZR_INZ, plus_INR. reflexivity. Qed.
Lemma raster_map h mesh : (forall c, In c mesh -> exists q, In q (shape_points h) /\ (dist_to (fst c) (snd c) q < INR (Nat.max (sh_ncols h) (sh_nrows h) + 1) * sh_size h)%R) ->
  CreateRasterDatasetMapping (Z.of_nat (sh_ncols h)) (Z.of_nat (sh_nrows h)) (sh_xlc h) (sh_ylc h) (sh_size h) mesh
  = one_based (RDyForcingCreateRasterDatasetMapping (sh_ncols h) (sh_nrows h) (sh_xlc h) (sh_ylc h) (sh_size h) mesh).
Proof.
  intros H. unfold CreateRasterDatasetMapping, one_based, RDyForcingCreateRasterDatasetMapping. rewrite map_map. apply map_ext_in. intros c Hc. rewrite !Nat2Z.id, raster_points_same, raster_limit_same.
  destruct (H c Hc) as (q & Hq & Hd). change 0%Z with (Z.of_nat 0). eapply raster_nearest_within; [exact Hq|exact Hd].
Qed.
Lemma first_nearest_unique pts x y i j : first_nearest pts x y i -> first_nearest pts x y j -> i = j.
Proof.
  intros (p & Hp & A) (q & Hq & B). destruct (lt_eq_lt_dec i j) as [[L|E]|L]; [|exact E|]; exfalso.
  - destruct (B i p Hp) as (_ & S). destruct (A j q Hq) as (T & _). specialize (S L). lra.
  - destruct (A j q Hq) as (_ & S). destruct (B i p Hp) as (T & _). specialize (S L). lra.
Qed.

(** ** Hours *)
Definition at_hour (prev : option R) (k : nat) : Prop := match prev with None => k = 0 | Some p => hour_of p k end.
Lemma hour_moves prev k t : at_hour prev k -> follows prev t -> exists j, hour_of t j /\ (j = k \/ j = S k).
Proof.
  destruct prev as [p|]; cbn [at_hour follows].
  - intros Hk (Hp & Hj). assert (Pos : (0 <= t)%R) by (unfold hour_of in Hk; assert (0 <= INR k)%R by apply pos_INR; lra).
    destruct (hour_exists t Pos) as (j & Ht). exists j. split; [exact Ht|]. specialize (Hj k j Hk Ht). assert (k < S j) by (unfold hour_of in Hk, Ht; apply INR_lt; lra). lia.
  - intros -> H. destruct (hour_exists t) as (j & Hj); [lra|]. exists j. split; [exact Hj|]. assert (j < 2) by (unfold hour_of in Hj; apply INR_lt; cbn [INR]; lra). lia.
Qed.
Lemma new_file_same t k : hour_of t k -> new_file t (S k) = false.
Proof. unfold new_file, hour_of. intros (_ & H). apply Bool.not_true_iff_false. intros E. apply hour_step in E. lra. Qed.
Lemma new_file_next t k : hour_of t (S k) -> new_file t (S k) = true.
Proof. unfold new_file, hour_of. intros (H & _). apply hour_step. exact H. Qed.
Lemma hour_bound t j K : hour_of t j -> (t < 3600 * INR (S K))%R -> j <= K.
Proof. intros (H & _) L. assert (INR j < INR (S K))%R by lra. apply INR_lt in H0. lia. Qed.

(** ** Arrays of values *)
Lemma f_fill n (v : R) (values : list (option R)) : length values = n -> ofold (fun vs i => fset vs i (Some v)) (fseq n) values = Some (map Some (map (fun _ => v) (seq 0 n))).
Proof. intros L. rewrite (fseq_ofold _ (fun vs i => upd vs i (Some v))) by (intros; apply fset_nat). change (fill n v values = Some (map Some (map (fun _ => v) (seq 0 n)))). rewrite fill_some by exact L. rewrite map_map. reflexivity. Qed.
Lemma f_triples n (v : R) (values : list (option R)) : length values = n * 3 ->
  ofold (fun vs i => let* vs := fset vs ((i - 1) * 3 + 1) (Some v) in let* vs := fset vs ((i - 1) * 3 + 2) (Some 0%R) in fset vs ((i - 1) * 3 + 3) (Some 0%R)) (fseq n) values = Some (map Some (flat_triples n v)).
Proof.
  intros L. rewrite (fseq_ofold _ (fun vs i => let* vs := upd vs (i * 3) (Some v) in let* vs := upd vs (i * 3 + 1) (Some 0%R) in upd vs (i * 3 + 2) (Some 0%R))).
  - change (fill_triples n v values = Some (map Some (flat_triples n v))). rewrite fill_triples_some by exact L. rewrite <- triples_some. reflexivity.
  - intros s i _. rewrite (fset_at _ _ (i * 3)) by lia. destruct (upd s (i * 3) (Some v)) as [s1|]; [|reflexivity]. cbn [obind]. rewrite (fset_at _ _ (i * 3 + 1)) by lia. destruct (upd s1 _ _) as [s2|]; [|reflexivity]. cbn [obind]. apply fset_at. lia.
Qed.
Lemma f_raster (m : list nat) (data : list R) (values : list (option R)) : (forall i, In i m -> 5 + i < length data) -> length values = length m ->
  ofold (fun vs icell => let* m := fget (one_based m) icell in let* idx := m in let* d := fget data (idx + 5) in fset vs icell (Some (d * mm_per_hr_2_m_per_sec)%R)) (fseq (length m)) values
  = Some (map Some (map (fun i => (nth (5 + nth i m 0)%nat data 0 * mm_per_hr_2_m_per_sec)%R) (seq 0 (length m)))).
Proof.
  intros H L. set (f := fun i => let* k := nth_error m i in let* d := nth_error data (5 + k) in Some (d * mm_per_hr_2_m_per_sec)%R). rewrite (fseq_ofold _ (fun vs i => let* v := f i in upd vs i (Some v))).
  - change (write_all (length m) f values = Some (map Some (map (fun i => (nth (5 + nth i m 0)%nat data 0 * mm_per_hr_2_m_per_sec)%R) (seq 0 (length m))))). rewrite (write_all_some _ _ (fun i => (nth (5 + nth i m 0)%nat data 0 * mm_per_hr_2_m_per_sec)%R)); [|intros i Hi|exact L]; [rewrite map_map; reflexivity|].
    unfold f. destruct (nth_error m i) as [k|] eqn:Ek; [|apply nth_error_None in Ek; lia]. cbn [obind]. rewrite (nth_error_nth _ _ 0 Ek). destruct (nth_error data (5 + k)) as [x|] eqn:Ex; [|apply nth_error_None in Ex; specialize (H k (nth_error_In _ _ Ek)); lia].
    rewrite (nth_error_nth _ _ 0%R Ex). reflexivity.
  - intros s i _. rewrite fget_nat. unfold one_based. rewrite nth_error_map. unfold f. destruct (nth_error m i) as [k|]; cbn [option_map obind]; [|reflexivity]. rewrite (fget_at _ _ (5 + k)) by lia. destruct (nth_error data (5 + k)); cbn [obind]; [|reflexivity]. apply fset_nat.
Qed.
Lemma f_rows (m : list nat) stride (data : list R) (values : list (option R)) : (forall k ii, In k m -> ii < stride -> k * stride + ii + 2 < length data) -> length values = length m * stride ->
  ofold (fun vs icell => let* m := fget (one_based m) icell in let* i := m in
      let idx := ((i - 1) * Z.of_nat stride)%Z in
      ofold (fun vs ii => let* d := fget data (idx + ii + 2) in fset vs ((icell - 1) * Z.of_nat stride + ii) (Some d)) (fseq (Z.to_nat (Z.of_nat stride))) vs) (fseq (length m)) values
  = Some (concat (map (fun i => map (fun ii => nth_error data (nth i m 0 * stride + ii + 2)) (seq 0 stride)) (seq 0 (length m)))).
Proof.
  intros H L. rewrite <- (copy_rows_some m stride data values H L). apply fseq_ofold. intros s i _. rewrite fget_nat. unfold one_based. rewrite nth_error_map. destruct (nth_error m i) as [k|]; cbn [option_map obind]; [|reflexivity]. cbv zeta. rewrite Nat2Z.id.
  apply fseq_ofold. intros s' ii _. rewrite (fget_at _ _ (k * stride + ii + 2)) by lia. destruct (nth_error data _); cbn [obind]; [|reflexivity]. apply fset_at. lia.
Qed.

(** ** Handing over to the library *)
Lemma rain_source_step st vs : set_up st -> whole_domain st -> length vs = r_owned st -> exists st', rain_source st (r_owned st) (map Some vs) = Ret st' /\
  set_up st' /\ params st' = params st /\ (forall cell, cell < r_owned st -> value st' (Source cell 0) = nth_error vs cell) /\ (forall s, (forall cell, s <> Source cell 0) -> value st' s = value st s).
Proof.
  intros U W L. destruct (water_source_step st vs SUnset U W L) as (st' & E & H). exists st'. split; [|exact H]. unfold water_source in E. unfold rain_source. rewrite initialised_some in *. cbn [of_def of_option rbind] in *.
  destruct (RDySetRegionalWaterSource st 1 (Z.of_nat (r_owned st)) vs) as [s|s|]; cbn [obound] in E; [|discriminate|discriminate]. injection E as ->. reflexivity.
Qed.
Lemma boundary_step_ st b ne data values vs : set_up st -> dirichlet st b ne -> length vs = ne * 3 ->
  exists st', boundary_values_ st (BoundaryCondition data (Z.of_nat (S b)) (ne * 3) values) (map Some vs) = Ret st' /\ set_up st' /\ params st' = params st /\
    (forall e k, e < ne -> k < 3 -> value st' (BoundaryValue b e k) = nth_error vs (3 * e + k)) /\ (forall s, (forall e k, k < 3 -> s <> BoundaryValue b e k) -> value st' s = value st s).
Proof.
  intros U D L. destruct (flow_step st b ne vs U D L) as (st' & E & H). exists st'. split; [|exact H]. unfold boundary_values_, FRDySetFlowDirichletBoundaryValues. rewrite initialised_some. cbn [of_option rbind bo_idx bo_n].
  rewrite Nat.div_mul by lia. replace (Z.of_nat (S b) - 1)%Z with (Z.of_nat b) by lia. rewrite E. reflexivity.
Qed.

(** ** One turn of the loop: rain *)
(* the file in memory is that of hour [k] *)
Definition holds (fs : archive) (id dir : string) (start : date) (k : nat) (count : nat) (date : time_struct) (dir' : string) (d : list R) : Prop :=
  count = S k /\ dir' = dir /\ exists e, later (3600 * k) start e /\ date = time_of e /\ fs (hourly_name dir id e) = Some d.
Lemma holds_file fs id dir start k count date dir' d : holds fs id dir start k count date dir' d -> file_at fs id dir start k d.
Proof. intros (_ & _ & e & L & _ & E). exists e. auto. Qed.
Lemma file_at_unique fs id dir start K k d d' : findable id dir start K -> file_at fs id dir start k d -> file_at fs id dir start k d' -> d = d'.
Proof. intros (V & _) (e & L & E) (e' & L' & E'). rewrite (later_unique _ _ _ _ V L L') in E. congruence. Qed.
Definition raster_step (fs : archive) (id : string) (t : R) (r : fraster) : result fraster :=
  if new_file t (fr_count r) then
    let! r' := OpenNextRasterDataset fs id r in
    Ret (FRaster (fr_dir r') (fr_date r') (S (fr_count r)) (fr_ncols r') (fr_nrows r') (fr_xlc r') (fr_ylc r') (fr_cellsize r') (fr_data r') (fr_map r'))
  else Ret r.
Lemma raster_moves fs id dir start K h r prev k t : findable id dir start K -> fits (sh_ncols h) -> fits (sh_nrows h) -> (forall k, k <= K -> exists d, file_at fs id dir start k d /\ raster_file h d) ->
  holds fs id dir start k (fr_count r) (fr_date r) (fr_dir r) (fr_data r) -> at_hour prev k -> follows prev t -> (t < 3600 * INR (S K))%R ->
  exists r' j, raster_step fs id t r = Ret r' /\ hour_of t j /\ j <= K /\ holds fs id dir start j (fr_count r') (fr_date r') (fr_dir r') (fr_data r') /\ fr_map r' = fr_map r.
Proof.
  intros F Fc Fr G Hold A Fo B. destruct (hour_moves _ _ _ A Fo) as (j & Hj & Cj). assert (Kj := hour_bound _ _ _ Hj B). destruct Hold as (Ec & Ed & e & L & Et & Ef). unfold raster_step. rewrite Ec.
  destruct Cj as [-> | ->].
  - rewrite new_file_same by exact Hj. exists r, k. split; [reflexivity|]. split; [exact Hj|]. split; [exact Kj|]. split; [|reflexivity]. split; [exact Ec|]. split; [exact Ed|]. exists e. auto.
  - rewrite new_file_next by exact Hj. destruct (next_date _ _ _ _ _ _ F Kj L) as (e' & L' & E'). destruct (G (S k) Kj) as (d & Hd & Rf). assert (Hf := file_at_date _ _ _ _ _ _ _ _ F L' Hd).
    unfold OpenNextRasterDataset. rewrite Et, E'. cbn [of_option rbind]. rewrite Ed, (open_raster_dataset fs id dir d h _ _ _ (dated_name _ _ _ _ _ _ F Kj L') Hf Rf Fc Fr). cbn [rbind]. eexists. exists (S k). split; [reflexivity|].
    cbn [fr_dir fr_date fr_count fr_data fr_map]. split; [exact Hj|]. split; [exact Kj|]. split; [|reflexivity]. split; [reflexivity|]. split; [reflexivity|]. exists e'. auto.
Qed.
Definition unstructured_step (fs : archive) (id : string) (t : R) (u : funstructured) : result funstructured :=
  if new_file t (fu_count u) then
    let! u' := OpenNextUnstructuredDataset fs id u in
    Ret (FUnstructured (fu_dir u') (fu_date u') (S (fu_count u)) (fu_stride u') (fu_data u') (fu_map u'))
  else Ret u.
Lemma unstructured_moves fs id dir start K n stride u prev k t : findable id dir start K -> fits n -> fits stride -> stride <> 0 -> (forall k, k <= K -> exists d, file_at fs id dir start k d /\ point_file stride n d) ->
  fu_stride u = Z.of_nat stride -> holds fs id dir start k (fu_count u) (fu_date u) (fu_dir u) (fu_data u) -> at_hour prev k -> follows prev t -> (t < 3600 * INR (S K))%R ->
  exists u' j, unstructured_step fs id t u = Ret u' /\ hour_of t j /\ j <= K /\ holds fs id dir start j (fu_count u') (fu_date u') (fu_dir u') (fu_data u') /\ fu_map u' = fu_map u /\ fu_stride u' = fu_stride u.
Proof.
  intros F Fn Fs Ns G Es Hold A Fo B. destruct (hour_moves _ _ _ A Fo) as (j & Hj & Cj). assert (Kj := hour_bound _ _ _ Hj B). destruct Hold as (Ec & Ed & e & L & Et & Ef). unfold unstructured_step. rewrite Ec.
  destruct Cj as [-> | ->].
  - rewrite new_file_same by exact Hj. exists u, k. split; [reflexivity|]. split; [exact Hj|]. split; [exact Kj|]. split; [|split; reflexivity]. split; [exact Ec|]. split; [exact Ed|]. exists e. auto.
  - rewrite new_file_next by exact Hj. destruct (next_date _ _ _ _ _ _ F Kj L) as (e' & L' & E'). destruct (G (S k) Kj) as (d & Hd & Rf). assert (Hf := file_at_date _ _ _ _ _ _ _ _ F L' Hd).
    unfold OpenNextUnstructuredDataset. rewrite Et, E'. cbn [of_option rbind]. rewrite Ed, (open_unstructured_dataset fs id dir d n stride _ _ _ _ (dated_name _ _ _ _ _ _ F Kj L') Hf Rf Fn Fs Ns eq_refl). cbn [rbind]. eexists. exists (S k). split; [reflexivity|].
    cbn [fu_dir fu_date fu_count fu_data fu_map fu_stride]. split; [exact Hj|]. split; [exact Kj|]. split; [|split; [reflexivity|symmetry; exact Es]]. split; [reflexivity|]. split; [reflexivity|]. exists e'. auto.
Qed.

Inductive rain_ok (fs : archive) (id : string) (K : nat) (mesh : list (R * R)) (prev : option R) : rain_options -> source_sink -> Prop :=
| ro_unset : rain_ok fs id K mesh prev RainUnset (SourceSink FUnset 0 [])
| ro_constant rate values : length values = length mesh -> rain_ok fs id K mesh prev (RainConstant rate) (SourceSink (FConstant rate) (length mesh) values)
| ro_record filename interp l values : fs filename = Some (interleaved l) -> l <> [] -> increasing l -> length values = length mesh ->
    rain_ok fs id K mesh prev (RainHomogeneous filename interp) (SourceSink (FHomogeneous (interleaved l) interp) (length mesh) values)
| ro_raster dir start h m r values : findable id dir start K -> fits (sh_ncols h) -> fits (sh_nrows h) -> (forall k, k <= K -> exists d, file_at fs id dir start k d /\ raster_file h d) ->
    length values = length mesh -> fr_map r = one_based m -> length m = length mesh ->
    (forall i c, nth_error mesh i = Some c -> exists k, nth_error m i = Some k /\ first_nearest (shape_points h) (fst c) (snd c) k) ->
    (mesh <> [] -> exists k, at_hour prev k /\ k <= K /\ holds fs id dir start k (fr_count r) (fr_date r) (fr_dir r) (fr_data r)) ->
    rain_ok fs id K mesh prev (RainRaster dir (time_of start)) (SourceSink (FRasterRain r) (length mesh) values)
| ro_points dir start mesh_file pts m u values : findable id dir start K -> fits (length pts) -> fs mesh_file = Some (coordinates_file pts) -> (forall k, k <= K -> exists d, file_at fs id dir start k d /\ point_file 1 (length pts) d) ->
    length values = length mesh -> fu_map u = one_based m -> fu_stride u = 1%Z -> length m = length mesh ->
    (forall i c, nth_error mesh i = Some c -> exists k, nth_error m i = Some k /\ first_nearest pts (fst c) (snd c) k) ->
    (mesh <> [] -> exists k, at_hour prev k /\ k <= K /\ holds fs id dir start k (fu_count u) (fu_date u) (fu_dir u) (fu_data u)) ->
    rain_ok fs id K mesh prev (RainUnstructured dir (time_of start) mesh_file) (SourceSink (FUnstructuredRain u) (length mesh) values).

Lemma INR_inj_ a b : INR a = INR b -> a = b. Proof. apply INR_eq. Qed.
Lemma raster_file_unique h h' d : raster_file h d -> raster_file h' d -> h = h'.
Proof.
  intros (b & -> & _) (b' & E & _). destruct h, h'. cbn in *. injection E as E1 E2 -> -> -> _. apply INR_eq in E1, E2. subst. reflexivity.
Qed.
Lemma coordinates_inj p q : coordinates_file p = coordinates_file q -> p = q.
Proof.
  unfold coordinates_file. intros E. injection E as _ E. revert q E. induction p as [|(a, b) p IH]; intros [|(c, d) q] E; cbn in E; try discriminate; [reflexivity|]. injection E as -> -> E. f_equal. apply IH. exact E.
Qed.
Lemma nearest_range pts x y k : first_nearest pts x y k -> k < length pts.
Proof. intros (p & H & _). apply nth_error_Some. congruence. Qed.
Lemma all_nearest (mesh : list (R * R)) m pts : length m = length mesh -> (forall i c, nth_error mesh i = Some c -> exists k, nth_error m i = Some k /\ first_nearest pts (fst c) (snd c) k) -> forall k, In k m -> k < length pts.
Proof.
  intros L H k Hk. apply In_nth_error in Hk. destruct Hk as (i & Hi). assert (i < length mesh) by (rewrite <- L; apply nth_error_Some; congruence).
  destruct (nth_error mesh i) as [c|] eqn:Ec; [|apply nth_error_None in Ec; lia]. destruct (H i c Ec) as (k' & E & N). assert (k' = k) by congruence. subst k'. eapply nearest_range. exact N.
Qed.
Lemma record_current l interp t : l <> [] -> exists i v, getcurrentdata (interleaved l) (num_samples (interleaved l)) t interp = Some (i, v) /\ exists i', RDyForcingGetCurrentData (interleaved l) (length l) t interp = Some (i', v).
Proof.
  intros N. rewrite num_samples_interleaved, getcurrentdata_C by (destruct l; [contradiction|discriminate]). destruct (current_data_spec l t interp N) as (k & v & E & _). rewrite E. cbn [obind fst snd]. eauto.
Qed.
Lemma shape_points_length h : length (shape_points h) = sh_nrows h * sh_ncols h. Proof. apply raster_points_length. Qed.

Lemma meant_raster fs id u t c dir tm v : meant_rain fs id u t c (RainRaster dir tm) v ->
  exists start h k d i x, tm = time_of start /\ v = (x / (1000 * 3600))%R /\ second start = 0%Z /\ hour_of t k /\ file_at fs id dir start k d /\ raster_file h d /\ first_nearest (shape_points h) (fst c) (snd c) i /\ nth_error d (5 + i) = Some x.
Proof. intros H. inversion H. subst. eauto 20. Qed.
Lemma meant_points fs id u t c dir tm f v : meant_rain fs id u t c (RainUnstructured dir tm f) v ->
  exists start pts k d i, tm = time_of start /\ second start = 0%Z /\ fs f = Some (coordinates_file pts) /\ hour_of t k /\ file_at fs id dir start k d /\ first_nearest pts (fst c) (snd c) i /\ nth_error d (2 + i) = Some v.
Proof. intros H. inversion H. subst. eauto 20. Qed.

Lemma rain_step fs id K mesh prev st o s u t : set_up st -> (o = RainUnset \/ whole_domain st) -> length mesh = r_owned st -> rain_ok fs id K mesh prev o s ->
  (hourly_rain o -> u = SECONDS /\ follows prev t /\ (t < 3600 * INR (S K))%R) ->
  exists st' s', ApplyRainfallDataset fs id st s (driver_time u t) = Ret (st', s') /\ set_up st' /\ params st' = params st /\ rain_ok fs id K mesh (Some t) o s' /\
    (forall cell c v, nth_error mesh cell = Some c -> meant_rain fs id u t c o v -> value st' (Source cell 0) = Some v) /\
    (forall x, o = RainUnset \/ (forall cell, x <> Source cell 0) -> value st' x = value st x).
Proof.
  intros U W Lm Ok Hr. assert (Hm : forall cell c, nth_error mesh cell = Some c -> cell < r_owned st) by (intros cell c Hc; rewrite <- Lm; apply nth_error_Some; congruence).
  destruct Ok as [|rate values L|filename interp l values Ef Nl Il L|dir start h m r values F Fc Fr G L Em Lmm Near Hold|dir start mesh_file pts m ud values F Fn Ef G L Em Es Lmm Near Hold].
  - exists st, (SourceSink FUnset 0 []). cbn [ApplyRainfallDataset ss_data]. split; [reflexivity|]. split; [exact U|]. split; [reflexivity|]. split; [constructor|]. split; [|auto]. intros cell c v _ H. inversion H.
  - destruct W as [W|W]; [discriminate|]. cbn [ApplyRainfallDataset ss_data ss_n ss_values]. destruct (Nat.ltb_spec 0 (length mesh)) as [P|P].
    + rewrite f_fill by exact L. cbn [of_option rbind]. rewrite Lm. destruct (rain_source_step st (map (fun _ => rate) (seq 0 (r_owned st))) U W) as (st' & E & U' & P' & V & V'); [rewrite map_length; apply seq_length|]. rewrite E. cbn [rbind]. exists st'. eexists. split; [reflexivity|]. split; [exact U'|]. split; [exact P'|].
      split; [rewrite <- Lm; constructor; rewrite !map_length; apply seq_length|]. split; [|intros x [?|Hx]; [discriminate|apply V'; exact Hx]]. intros cell c v Hc H. inversion H; subst. rewrite V by (eapply Hm; exact Hc). apply nth_const. eapply Hm. exact Hc.
    + exists st. eexists. split; [reflexivity|]. split; [exact U|]. split; [reflexivity|]. split; [constructor; exact L|]. split; [|auto]. intros cell c v Hc. apply Hm in Hc. lia.
  - destruct W as [W|W]; [discriminate|]. cbn [ApplyRainfallDataset ss_data ss_n ss_values]. destruct (Nat.ltb_spec 0 (length mesh)) as [P|P].
    + unfold FSetHomogeneousData. destruct (record_current l interp (driver_time u t) Nl) as (i & w & -> & i' & Ew). cbn [obind snd]. rewrite f_fill by exact L. cbn [of_option rbind]. rewrite Lm.
      destruct (rain_source_step st (map (fun _ => w) (seq 0 (r_owned st))) U W) as (st' & E & U' & P' & V & V'); [rewrite map_length; apply seq_length|]. rewrite E. cbn [rbind]. exists st'. eexists. split; [reflexivity|]. split; [exact U'|]. split; [exact P'|].
      split; [rewrite <- Lm; constructor; auto; rewrite !map_length; apply seq_length|]. split; [|intros x [?|Hx]; [discriminate|apply V'; exact Hx]]. intros cell c v Hc H. inversion H as [|? ? l' ? El Hv| |]; subst. rewrite Ef in El. injection El as El. apply interleaved_inj in El. subst l'.
      rewrite V by (eapply Hm; exact Hc). rewrite nth_const by (eapply Hm; exact Hc). f_equal. exact (sampled_current l interp _ i' w v Nl Il Ew Hv).
    + exists st. eexists. split; [reflexivity|]. split; [exact U|]. split; [reflexivity|]. split; [constructor; assumption|]. split; [|auto]. intros cell c v Hc. apply Hm in Hc. lia.
  - destruct W as [W|W]; [discriminate|]. cbn [ApplyRainfallDataset ss_data ss_n ss_values]. destruct (Nat.ltb_spec 0 (length mesh)) as [P|P].
    + assert (Nm : mesh <> []) by (intros ->; cbn in P; lia). destruct (Hold Nm) as (k & A & Kk & Hh). destruct (Hr I) as (-> & Fo & B). cbn [driver_time ConvertTimeFromSeconds].
      destruct (raster_moves fs id dir start K h r prev k t F Fc Fr G Hh A Fo B) as (r' & j & Er & Hj & Kj & Hh' & Em'). unfold SetRasterData. change (if new_file t (fr_count r) then _ else Ret r) with (raster_step fs id t r). rewrite Er. cbn [rbind].
      destruct (G j Kj) as (d & Hd & Rf). assert (d = fr_data r') by (eapply file_at_unique; [exact F|exact Hd|eapply holds_file; exact Hh']). subst d.
      assert (Ld : length (fr_data r') = 5 + length (shape_points h)) by (destruct Rf as (body & -> & Lb); rewrite shape_points_length; cbn [length]; lia).
      rewrite Em', Em. replace (fseq (length mesh)) with (fseq (length m)) by (rewrite Lmm; reflexivity). rewrite f_raster; [|intros i Hi; rewrite Ld; apply Nat.add_lt_mono_l; eapply all_nearest; eassumption|lia]. cbn [of_option rbind fst snd]. rewrite Lmm, Lm.
      set (g := fun i => (nth (5 + nth i m 0)%nat (fr_data r') 0 * mm_per_hr_2_m_per_sec)%R).
      destruct (rain_source_step st (map g (seq 0 (r_owned st))) U W) as (st' & E & U' & P' & V & V'); [rewrite map_length; apply seq_length|]. rewrite E. cbn [rbind]. exists st'. eexists. split; [reflexivity|]. split; [exact U'|]. split; [exact P'|]. split.
      * rewrite <- Lm. eapply ro_raster; try eassumption; [rewrite !map_length; apply seq_length|congruence|]. intros _. exists j. auto.
      * split; [|intros x [?|Hx]; [discriminate|apply V'; exact Hx]]. intros cell c v Hc H. assert (Hcell := Hm _ _ Hc). destruct (meant_raster _ _ _ _ _ _ _ _ H) as (start0 & h' & k' & d' & i & x & Et & -> & Sec & Hk' & Hd' & Rf' & Hn & Hx). assert (start0 = start) by (apply time_of_inj; [destruct F as (_ & -> & _); exact Sec|symmetry; exact Et]). subst start0.
        assert (k' = j) by (eapply hour_unique; eassumption). subst k'. assert (d' = fr_data r') by (eapply file_at_unique; [exact F|exact Hd'|exact Hd]). subst d'. assert (h' = h) by (eapply raster_file_unique; eassumption). subst h'.
        destruct (Near cell c Hc) as (i' & Ei & Hn'). assert (i' = i) by (eapply first_nearest_unique; eassumption). subst i'. rewrite V by exact Hcell. rewrite nth_error_map, nth_error_seq by exact Hcell. cbn [option_map Nat.add]. f_equal. unfold g. rewrite (nth_error_nth _ _ 0 Ei), (nth_error_nth _ _ 0%R Hx). unfold mm_per_hr_2_m_per_sec. field.
    + exists st. eexists. split; [reflexivity|]. split; [exact U|]. split; [reflexivity|]. split; [eapply ro_raster; try eassumption; intros Nm; destruct mesh; [contradiction|cbn in P; lia]|]. split; [|auto]. intros cell c v Hc. apply Hm in Hc. lia.
  - destruct W as [W|W]; [discriminate|]. cbn [ApplyRainfallDataset ss_data ss_n ss_values]. destruct (Nat.ltb_spec 0 (length mesh)) as [P|P].
    + assert (Nm : mesh <> []) by (intros ->; cbn in P; lia). destruct (Hold Nm) as (k & A & Kk & Hh). destruct (Hr I) as (-> & Fo & B). cbn [driver_time ConvertTimeFromSeconds].
      destruct (unstructured_moves fs id dir start K (length pts) 1 ud prev k t F Fn ltac:(unfold fits; lia) ltac:(lia) G Es Hh A Fo B) as (u' & j & Er & Hj & Kj & Hh' & Em' & Es').
      unfold SetUnstructuredData. change (if new_file t (fu_count ud) then _ else Ret ud) with (unstructured_step fs id t ud). rewrite Er. cbn [rbind].
      destruct (G j Kj) as (d & Hd & Rf). assert (d = fu_data u') by (eapply file_at_unique; [exact F|exact Hd|eapply holds_file; exact Hh']). subst d.
      assert (Ld : length (fu_data u') = 2 + length pts) by (destruct Rf as (body & -> & Lb); cbn [length]; lia).
      rewrite Em', Em, Es', Es. change 1%Z with (Z.of_nat 1). replace (fseq (length mesh)) with (fseq (length m)) by (rewrite Lmm; reflexivity). rewrite f_rows; [|intros i ii Hi Hii; assert (i < length pts) by (eapply all_nearest; eassumption); lia|lia]. cbn [of_option rbind fst snd]. rewrite Lmm, Lm. cbn [seq map].
      set (g := fun i => nth (2 + nth i m 0)%nat (fu_data u') 0%R).
      replace (concat (map (fun i => [nth_error (fu_data u') (nth i m 0 * 1 + 0 + 2)]) (seq 0 (r_owned st)))) with (map Some (map g (seq 0 (r_owned st)))).
      2: { rewrite concat_singletons, map_map. apply map_ext_in. intros i Hi. apply in_seq in Hi. unfold g. replace (nth i m 0 * 1 + 0 + 2) with (2 + nth i m 0) by lia. symmetry. apply nth_error_nth'. rewrite Ld. apply Nat.add_lt_mono_l. eapply all_nearest; [exact Lmm|exact Near|]. apply nth_In. lia. }
      destruct (rain_source_step st (map g (seq 0 (r_owned st))) U W) as (st' & E & U' & P' & V & V'); [rewrite map_length; apply seq_length|]. rewrite E. cbn [rbind]. exists st'. eexists. split; [reflexivity|]. split; [exact U'|]. split; [exact P'|]. split.
      * rewrite <- Lm. eapply ro_points; try eassumption; [rewrite !map_length; apply seq_length|congruence|congruence|]. intros _. exists j. auto.
      * split; [|intros x [?|Hx]; [discriminate|apply V'; exact Hx]]. intros cell c v Hc H. assert (Hcell := Hm _ _ Hc). destruct (meant_points _ _ _ _ _ _ _ _ _ H) as (start0 & pts' & k' & d' & i & Et & Sec & Epts & Hk' & Hd' & Hn & Hx). assert (start0 = start) by (apply time_of_inj; [destruct F as (_ & -> & _); exact Sec|symmetry; exact Et]). subst start0.
        assert (pts' = pts) by (apply coordinates_inj; congruence). subst pts'. assert (k' = j) by (eapply hour_unique; eassumption). subst k'. assert (d' = fu_data u') by (eapply file_at_unique; [exact F|exact Hd'|exact Hd]). subst d'.
        destruct (Near cell c Hc) as (i' & Ei & Hn'). assert (i' = i) by (eapply first_nearest_unique; eassumption). subst i'. rewrite V by exact Hcell. rewrite nth_error_map, nth_error_seq by exact Hcell. cbn [option_map Nat.add]. f_equal. unfold g. rewrite (nth_error_nth _ _ 0 Ei). apply nth_error_nth. exact Hx.
    + exists st. eexists. split; [reflexivity|]. split; [exact U|]. split; [reflexivity|]. split; [eapply ro_points; try eassumption; intros Nm; destruct mesh; [contradiction|cbn in P; lia]|]. split; [|auto]. intros cell c v Hc. apply Hm in Hc. lia.
Qed.

(** ** One turn of the loop: boundaries *)
Inductive bo_ok (fs : archive) (id : string) (K : nat) (b : nat) (edges : list (R * R)) (prev : option R) : bc_options -> boundary_condition -> Prop :=
| bo_unset : bo_ok fs id K b edges prev BCUnset (BoundaryCondition FBUnset 0 0 [])
| bo_record filename interp l values : fs filename = Some (interleaved l) -> l <> [] -> increasing l -> length values = length edges * 3 ->
    bo_ok fs id K b edges prev (BCHomogeneous filename interp) (BoundaryCondition (FBHomogeneous (interleaved l) interp) (Z.of_nat (S b)) (length edges * 3) values)
| bo_points dir start mesh_file pts m u values : findable id dir start K -> fits (length pts) -> fs mesh_file = Some (coordinates_file pts) -> (forall k, k <= K -> exists d, file_at fs id dir start k d /\ point_file 3 (length pts) d) ->
    length values = length edges * 3 ->
    (edges <> [] -> fu_map u = one_based m /\ fu_stride u = 3%Z /\ length m = length edges /\
      (forall i c, nth_error edges i = Some c -> exists k, nth_error m i = Some k /\ first_nearest pts (fst c) (snd c) k) /\
      exists k, at_hour prev k /\ k <= K /\ holds fs id dir start k (fu_count u) (fu_date u) (fu_dir u) (fu_data u)) ->
    bo_ok fs id K b edges prev (BCUnstructured dir (time_of start) mesh_file) (BoundaryCondition (FBUnstructured u) (Z.of_nat (S b)) (length edges * 3) values).
Lemma meant_edge_points fs id u t c comp dir tm f v : meant_bc fs id u t c comp (BCUnstructured dir tm f) v ->
  exists start pts k d i, tm = time_of start /\ second start = 0%Z /\ comp < 3 /\ fs f = Some (coordinates_file pts) /\ hour_of t k /\ file_at fs id dir start k d /\ first_nearest pts (fst c) (snd c) i /\ nth_error d (2 + (3 * i + comp)) = Some v.
Proof. intros H. inversion H. subst. eauto 20. Qed.
Lemma edges_positive {A} (l : list A) : 0 < length l * 3 -> l <> []. Proof. intros H ->. cbn in H. lia. Qed.
Lemma edges_none {A} (l : list A) : length l * 3 <= 0 -> l = []. Proof. destruct l; [reflexivity|cbn; lia]. Qed.

Lemma bc_step fs id K b edges prev st o bo u t : set_up st -> (o = BCUnset \/ (edges <> [] -> dirichlet st b (length edges))) -> bo_ok fs id K b edges prev o bo ->
  (hourly_bc o -> u = SECONDS /\ follows prev t /\ (t < 3600 * INR (S K))%R) ->
  exists st' bo', ApplyBoundaryCondition fs id st bo (driver_time u t) = Ret (st', bo') /\ set_up st' /\ params st' = params st /\ bo_ok fs id K b edges (Some t) o bo' /\
    (forall e c comp v, nth_error edges e = Some c -> meant_bc fs id u t c comp o v -> value st' (BoundaryValue b e comp) = Some v) /\
    (forall x, o = BCUnset \/ (forall e k, k < 3 -> x <> BoundaryValue b e k) -> value st' x = value st x).
Proof.
  intros U D Ok Hr. assert (He : forall e c, nth_error edges e = Some c -> e < length edges) by (intros e c Hc; apply nth_error_Some; congruence).
  destruct Ok as [|filename interp l values Ef Nl Il L|dir start mesh_file pts m ud values F Fn Ef G L Hold].
  - exists st. eexists. split; [reflexivity|]. split; [exact U|]. split; [reflexivity|]. split; [constructor|]. split; [|auto]. intros e c comp v _ H. inversion H.
  - destruct D as [D|D]; [discriminate|]. cbn [ApplyBoundaryCondition bo_data bo_n bo_values bo_idx]. destruct (Nat.ltb_spec 0 (length edges * 3)) as [P|P].
    + rewrite Nat.div_mul by lia. unfold FSetHomogeneousBoundary. destruct (record_current l interp (driver_time u t) Nl) as (i & w & -> & i' & Ew). cbn [obind snd]. rewrite f_triples by exact L. cbn [of_option rbind].
      destruct (boundary_step_ st b (length edges) (FBHomogeneous (interleaved l) interp) values (flat_triples (length edges) w) U (D (edges_positive _ P)) (flat_triples_length _ _)) as (st' & E & U' & P' & V & V'). rewrite E. cbn [rbind].
      exists st'. eexists. split; [reflexivity|]. split; [exact U'|]. split; [exact P'|]. split; [constructor; auto; rewrite map_length; apply flat_triples_length|]. split; [|intros x [?|Hx]; [discriminate|apply V'; exact Hx]].
      intros e c comp v Hc H. inversion H as [? ? l' w' ? El Hv Hs|]; subst. rewrite Ef in El. injection El as El. apply interleaved_inj in El. subst l'. rewrite V by (try (eapply He; exact Hc); eapply still_lt; exact Hs).
      assert (w' = w) by (symmetry; exact (sampled_current l interp _ i' w w' Nl Il Ew Hv)). subst w'. apply flat_triples_nth; [eapply He; exact Hc|exact Hs].
    + exists st. eexists. split; [reflexivity|]. split; [exact U|]. split; [reflexivity|]. split; [constructor; assumption|]. split; [|auto]. intros e c comp v Hc. apply edges_none in P. subst edges. destruct e; discriminate.
  - destruct D as [D|D]; [discriminate|]. cbn [ApplyBoundaryCondition bo_data bo_n bo_values bo_idx]. destruct (Nat.ltb_spec 0 (length edges * 3)) as [P|P].
    + assert (Ne := edges_positive _ P). destruct (Hold Ne) as (Em & Es & Lmm & Near & k & A & Kk & Hh). destruct (Hr I) as (-> & Fo & B). cbn [driver_time ConvertTimeFromSeconds]. rewrite Nat.div_mul by lia.
      destruct (unstructured_moves fs id dir start K (length pts) 3 ud prev k t F Fn ltac:(unfold fits; lia) ltac:(lia) G Es Hh A Fo B) as (u' & j & Er & Hj & Kj & Hh' & Em' & Es').
      unfold SetUnstructuredData. change (if new_file t (fu_count ud) then _ else Ret ud) with (unstructured_step fs id t ud). rewrite Er. cbn [rbind].
      destruct (G j Kj) as (d & Hd & Rf). assert (d = fu_data u') by (eapply file_at_unique; [exact F|exact Hd|eapply holds_file; exact Hh']). subst d.
      assert (Ld : length (fu_data u') = 2 + length pts * 3) by (destruct Rf as (body & -> & Lb); cbn [length]; lia). assert (Hk : forall i, In i m -> i < length pts) by (intros i Hi; eapply all_nearest; eassumption).
      rewrite Em', Em, Es', Es. change 3%Z with (Z.of_nat 3). replace (fseq (length edges)) with (fseq (length m)) by (rewrite Lmm; reflexivity).
      rewrite f_rows; [|intros i ii Hi Hii; apply Hk in Hi; lia|lia]. cbn [of_option rbind fst snd]. rewrite Lmm.
      set (g := fun i ii => nth (nth i m 0 * 3 + ii + 2) (fu_data u') 0%R). set (flat := flat_map (fun i => [g i 0; g i 1; g i 2]) (seq 0 (length edges))).
      assert (Hg : forall i ii, i < length edges -> ii < 3 -> nth_error (fu_data u') (nth i m 0 * 3 + ii + 2) = Some (g i ii)) by (intros i ii Hi Hii; unfold g; apply nth_error_nth'; assert (nth i m 0 < length pts) by (apply Hk; apply nth_In; lia); lia).
      assert (EF : concat (map (fun i => map (fun ii => nth_error (fu_data u') (nth i m 0 * 3 + ii + 2)) (seq 0 3)) (seq 0 (length edges))) = map Some flat).
      { unfold flat. rewrite flat_map_concat_map, concat_map, map_map. apply f_equal. apply map_ext_in. intros i Hi. apply in_seq in Hi. cbn [seq map]. rewrite !Hg by lia. reflexivity. }
      rewrite EF. clear EF. assert (Lf : length flat = length edges * 3). { unfold flat. rewrite flat_map_concat_map. rewrite <- (seq_length (length edges) 0) at 2. generalize (seq 0 (length edges)). intros s. induction s as [|a s IH]; [reflexivity|]. cbn. rewrite IH. reflexivity. }
      assert (Nf : forall e k, e < length edges -> k < 3 -> nth_error flat (3 * e + k) = Some (g e k)).
      { intros e c Hee Hc. unfold flat. replace (3 * e + c) with (e * 3 + c) by lia. rewrite (flat_map_nth _ 3); [|reflexivity|exact Hc]. rewrite nth_error_seq by exact Hee. cbn [obind]. destruct c as [|[|[|c]]]; try reflexivity. lia. }
      clearbody flat. destruct (boundary_step_ st b (length edges) (FBUnstructured ud) values flat U (D Ne) Lf) as (st' & E & U' & P' & V & V'). rewrite E. cbn [rbind].
      exists st'. eexists. split; [reflexivity|]. split; [exact U'|]. split; [exact P'|]. split.
      * eapply bo_points; try eassumption; [rewrite map_length; exact Lf|]. intros _. split; [rewrite Em'; exact Em|]. split; [congruence|]. split; [exact Lmm|]. split; [exact Near|]. exists j. auto.
      * split; [|intros x [?|Hx]; [discriminate|apply V'; exact Hx]]. intros e c comp v Hc H. assert (Hee := He _ _ Hc). destruct (meant_edge_points _ _ _ _ _ _ _ _ _ _ H) as (start0 & pts' & k' & d' & i & Et & Sec & Hcomp & Epts & Hk' & Hd' & Hn & Hx).
        assert (start0 = start) by (apply time_of_inj; [destruct F as (_ & -> & _); exact Sec|symmetry; exact Et]). subst start0.
        assert (pts' = pts) by (apply coordinates_inj; congruence). subst pts'. assert (k' = j) by (eapply hour_unique; eassumption). subst k'. assert (d' = fu_data u') by (eapply file_at_unique; [exact F|exact Hd'|exact Hd]). subst d'.
        destruct (Near e c Hc) as (i' & Ei & Hn'). assert (i' = i) by (eapply first_nearest_unique; eassumption). subst i'. rewrite V, Nf by assumption. f_equal. unfold g. rewrite (nth_error_nth _ _ 0 Ei). apply nth_error_nth. rewrite <- Hx. f_equal. lia.
    + exists st. eexists. split; [reflexivity|]. split; [exact U|]. split; [reflexivity|]. apply edges_none in P. split; [eapply bo_points with (m := m); try eassumption; intros Ne; contradiction|]. split; [|auto]. intros e c comp v Hc. subst edges. destruct e; discriminate.
Qed.

(** ** The data sets created *)
Lemma rain_created fs id K mesh o : rain_data fs id K mesh o -> exists s, CreateRainfallConditionDataset fs id o mesh = Ret s /\ rain_ok fs id K mesh None o s.
Proof.
  intros Hd. destruct Hd as [|rate|filename interp l Ef Nl Il|dir start h F Fc Fr G Near|dir start mesh_file pts F Np Fn Ef G]; cbn [CreateRainfallConditionDataset].
  - eexists. split; [reflexivity|constructor].
  - eexists. split; [reflexivity|]. constructor. apply repeat_length.
  - unfold opendata. rewrite Ef. cbn [rbind]. eexists. split; [reflexivity|]. constructor; auto. apply repeat_length.
  - destruct (G 0 ltac:(lia)) as (d & Hd & Rf). assert (L0 : later (3600 * 0) start start) by (rewrite Nat.mul_0_r; constructor). assert (V := proj1 F). assert (Hf := file_at_date _ _ _ _ _ 0 _ _ F L0 Hd).
    unfold CreateRaster. rewrite (open_raster_dataset fs id dir d h _ _ _ (dated_name id dir start K 0 start F ltac:(lia) L0) Hf Rf Fc Fr). cbn [rbind fr_count fr_ncols fr_nrows fr_xlc fr_ylc fr_cellsize fr_data]. rewrite raster_map by exact Near.
    eexists. split; [reflexivity|]. eapply ro_raster; try eassumption; [apply repeat_length|reflexivity|unfold RDyForcingCreateRasterDatasetMapping; apply map_length| |].
    + intros i c Hc. destruct (Near c (nth_error_In _ _ Hc)) as (q & Hq & Hlt). eapply C45_raster_nearest_partial; eassumption.
    + intros _. exists 0. split; [reflexivity|]. split; [lia|]. split; [reflexivity|]. split; [reflexivity|]. exists start. auto.
  - destruct (G 0 ltac:(lia)) as (d & Hd & Rf). assert (L0 : later (3600 * 0) start start) by (rewrite Nat.mul_0_r; constructor). assert (Hf := file_at_date _ _ _ _ _ 0 _ _ F L0 Hd). destruct (unstructured_map pts mesh Np) as (m & Em & Ec). destruct (C45_unstructured_nearest pts mesh Np) as (m' & Ec' & Lm & Near). assert (m' = m) by congruence. subst m'.
    unfold CreateUnstructured. rewrite (open_unstructured_dataset fs id dir d (length pts) 1 _ _ _ _ (dated_name id dir start K 0 start F ltac:(lia) L0) Hf Rf Fn ltac:(unfold fits; lia) ltac:(lia) eq_refl). cbn [rbind]. unfold opendata. rewrite Ef. cbn [rbind].
    rewrite read_coordinates by exact Fn. cbn [rbind]. rewrite Em. cbn [of_option rbind fu_count fu_stride fu_data]. eexists. split; [reflexivity|]. eapply ro_points; try eassumption; [apply repeat_length|reflexivity|reflexivity|].
    intros _. exists 0. split; [reflexivity|]. split; [lia|]. split; [reflexivity|]. split; [reflexivity|]. exists start. auto.
Qed.
Lemma fortran_find_none : forall bcs i acc, (forall j ty ne, nth_error bcs j = Some (ty, ne) -> is_dirichlet ty = false) -> fortran_find bcs i acc = acc.
Proof.
  induction bcs as [|(ty, ne) t IH]; intros i ((idx, n), mult) H; [reflexivity|]. cbn [fortran_find]. rewrite (H 0 ty ne eq_refl). apply IH. intros j. exact (H (S j)).
Qed.
Lemma fortran_find_one : forall bcs i b tyb N idx n, idx = (-1)%Z -> nth_error bcs b = Some (tyb, N) -> is_dirichlet tyb = true -> (forall j ty ne, nth_error bcs j = Some (ty, ne) -> is_dirichlet ty = true -> j = b) ->
  fortran_find bcs i (idx, n, false) = ((i + Z.of_nat b)%Z, N, false).
Proof.
  induction bcs as [|(ty, ne) t IH]; intros i b tyb N idx n -> Hb Db H; [destruct b; discriminate|]. cbn [fortran_find]. destruct b as [|b].
  - injection Hb as -> ->. rewrite Db. rewrite fortran_find_none. { rewrite Z.add_0_r. reflexivity. } intros j ty' ne' Hj. destruct (is_dirichlet ty') eqn:E; [|reflexivity]. specialize (H (S j) ty' ne' Hj E). discriminate.
  - destruct (is_dirichlet ty) eqn:E; [specialize (H 0 ty ne eq_refl E); discriminate|]. rewrite (IH (i + 1)%Z b tyb N (-1)%Z n eq_refl Hb Db). { apply (f_equal2 pair); [|reflexivity]. apply (f_equal2 pair); [lia|reflexivity]. }
    intros j ty' ne' Hj Ej. specialize (H (S j) ty' ne' Hj Ej). lia.
Qed.
Lemma is_dirichlet_true ty : is_dirichlet ty = true -> ty = CONDITION_DIRICHLET. Proof. destruct ty; cbn; congruence. Qed.
Lemma combine_nth_error {A B} : forall (l : list A) (m : list B) i a b, nth_error l i = Some a -> nth_error m i = Some b -> nth_error (combine l m) i = Some (a, b).
Proof. induction l as [|x l IH]; intros [|y m] [|i] a b H G; cbn in *; try discriminate; [congruence|]. apply IH; assumption. Qed.
Lemma boundaries_at st bcs b ne : boundaries_of st = Some bcs -> dirichlet st b ne -> exists i, nth_error bcs b = Some (CONDITION_DIRICHLET, ne, i).
Proof.
  intros Hb (bd & cd & H1 & H2 & -> & H4). rewrite (omap_nth _ _ _ Hb), (combine_nth_error _ _ _ _ _ H1 H2). cbn [obind fst snd]. rewrite H4. cbn [obind]. eauto.
Qed.
Lemma postprocess st bcs b edges : set_up st -> boundaries_of st = Some bcs -> only_dirichlet st b edges -> DoPostprocessForBoundary (map fst bcs) (Z.of_nat (S b)) = Ret (Z.of_nat (S b), length edges * 3).
Proof.
  intros U Hb (O & D). unfold DoPostprocessForBoundary, FortranFindDirichletBCID.
  assert (A : forall j ty ne, nth_error (map fst bcs) j = Some (ty, ne) -> is_dirichlet ty = true -> j = b /\ ne = length edges).
  { intros j ty ne Hj Ty. apply is_dirichlet_true in Ty. subst ty. rewrite nth_error_map in Hj. destruct (nth_error bcs j) as [((ty, ne'), i)|] eqn:Ej; [|discriminate]. cbn in Hj. injection Hj as -> ->. apply O. eapply boundaries_nth; eassumption. }
  assert (B : (exists ty, nth_error (map fst bcs) b = Some (ty, length edges) /\ is_dirichlet ty = true) \/ (edges = [] /\ forall j ty ne, nth_error (map fst bcs) j = Some (ty, ne) -> is_dirichlet ty = false)).
  { destruct edges as [|e edges].
    - destruct (nth_error (map fst bcs) b) as [(ty, ne)|] eqn:Eb.
      + destruct (is_dirichlet ty) eqn:Ty; [left; exists ty; destruct (A b ty ne Eb Ty) as (_ & ->); auto|]. right. split; [reflexivity|]. intros j ty' ne' Hj. destruct (is_dirichlet ty') eqn:E; [|reflexivity]. destruct (A j ty' ne' Hj E) as (-> & _). congruence.
      + right. split; [reflexivity|]. intros j ty' ne' Hj. destruct (is_dirichlet ty') eqn:E; [|reflexivity]. destruct (A j ty' ne' Hj E) as (-> & _). congruence.
    - left. exists CONDITION_DIRICHLET. split; [|reflexivity]. destruct (boundaries_at st bcs b _ Hb (D ltac:(discriminate))) as (i & Hi). rewrite nth_error_map, Hi. reflexivity. }
  destruct B as [(ty & Hn & Ty)|(-> & N)].
  - rewrite (fortran_find_one _ 1 b ty (length edges) (-1)%Z 0 eq_refl Hn Ty); [|intros j ty' ne' Hj Ej; apply (A j ty' ne' Hj Ej)]. cbn [negb check]. destruct (Z.eqb_spec (Z.of_nat (S b)) (-1)); [lia|]. reflexivity.
  - rewrite fortran_find_none by exact N. cbn [negb check]. destruct (Z.eqb_spec (Z.of_nat (S b)) (-1)); [lia|]. reflexivity.
Qed.
Lemma bc_created fs id K b edges st bcs o : set_up st -> boundaries_of st = Some bcs -> (o = BCUnset \/ only_dirichlet st b edges) -> bc_data fs id K o ->
  exists bo, CreateBoundaryConditionDataset fs id o (map fst bcs) (Z.of_nat (S b)) edges = Ret bo /\ bo_ok fs id K b edges None o bo.
Proof.
  intros U Hb O Hd. destruct Hd as [|filename interp l Ef Nl Il|dir start mesh_file pts F Np Fn Ef G]; cbn [CreateBoundaryConditionDataset].
  - eexists. split; [reflexivity|constructor].
  - destruct O as [O|O]; [discriminate|]. unfold opendata. rewrite Ef. cbn [rbind]. rewrite (postprocess st bcs b edges U Hb O). cbn [rbind fst snd]. eexists. split; [reflexivity|]. constructor; auto. apply repeat_length.
  - destruct O as [O|O]; [discriminate|]. destruct (G 0 ltac:(lia)) as (d & Hd & Rf). assert (L0 : later (3600 * 0) start start) by (rewrite Nat.mul_0_r; constructor). assert (Hf := file_at_date _ _ _ _ _ 0 _ _ F L0 Hd).
    rewrite (open_unstructured_dataset fs id dir d (length pts) 3 _ _ _ _ (dated_name id dir start K 0 start F ltac:(lia) L0) Hf Rf Fn ltac:(unfold fits; lia) ltac:(lia) eq_refl). cbn [rbind]. rewrite (postprocess st bcs b edges U Hb O). cbn [rbind fst snd].
    destruct (Nat.ltb_spec 0 (length edges * 3)) as [P|P].
    + unfold opendata. rewrite Ef. cbn [rbind]. rewrite read_coordinates by exact Fn. cbn [rbind]. destruct (unstructured_map pts edges Np) as (m & Em & Ec). destruct (C45_unstructured_nearest pts edges Np) as (m' & Ec' & Lm & Near). assert (m' = m) by congruence. subst m'.
      rewrite Em. cbn [of_option rbind fu_count fu_stride fu_data]. eexists. split; [reflexivity|]. eapply bo_points; try eassumption; [apply repeat_length|]. intros _. split; [reflexivity|]. split; [reflexivity|]. split; [exact Lm|]. split; [exact Near|].
      exists 0. split; [reflexivity|]. split; [lia|]. split; [reflexivity|]. split; [reflexivity|]. exists start. auto.
    + cbn [rbind]. apply edges_none in P. eexists. split; [reflexivity|]. eapply bo_points with (m := []); try eassumption; [apply repeat_length|]. intros Ne. contradiction.
Qed.

(** ** Whole runs *)
Lemma in_step_first : forall l a t, in_step (Some a) (l ++ [t]) -> (a <= t)%R.
Proof. induction l as [|x l IH]; intros a t H; cbn in H; [lra|]. destruct H as ((H1 & _) & H2). apply IH in H2. lra. Qed.
Lemma in_step_last : forall l prev t x, in_step prev (l ++ [t]) -> In x (l ++ [t]) -> (x <= t)%R.
Proof. induction l as [|a l IH]; intros prev t x H Hx; cbn in H, Hx; [destruct Hx as [<-|[]]; lra|]. destruct H as (_ & H). destruct Hx as [<-|Hx]; [eapply in_step_first; exact H|eapply IH; eassumption]. Qed.
Lemma run_forced fs id K mesh b edges ro bo_ u : forall times st s bo prev t, set_up st -> (ro = RainUnset \/ whole_domain st) -> length mesh = r_owned st -> (bo_ = BCUnset \/ (edges <> [] -> dirichlet st b (length edges))) ->
  rain_ok fs id K mesh prev ro s -> bo_ok fs id K b edges prev bo_ bo -> (hourly_rain ro \/ hourly_bc bo_ -> u = SECONDS /\ in_step prev (times ++ [t]) /\ (t < 3600 * INR (S K))%R) ->
  exists st' r, driver_run fs id (st, s, bo) (map (driver_time u) (times ++ [t])) = Ret (st', fst r, snd r) /\ set_up st' /\ params st' = params st /\
    (forall cell c v, nth_error mesh cell = Some c -> meant_rain fs id u t c ro v -> value st' (Source cell 0) = Some v) /\
    (forall e c comp v, nth_error edges e = Some c -> meant_bc fs id u t c comp bo_ v -> value st' (BoundaryValue b e comp) = Some v) /\
    (forall x, (ro = RainUnset \/ forall cell, x <> Source cell 0) -> (bo_ = BCUnset \/ forall e k, k < 3 -> x <> BoundaryValue b e k) -> value st' x = value st x).
Proof.
  assert (One : forall st s bo prev t, set_up st -> (ro = RainUnset \/ whole_domain st) -> length mesh = r_owned st -> (bo_ = BCUnset \/ (edges <> [] -> dirichlet st b (length edges))) ->
    rain_ok fs id K mesh prev ro s -> bo_ok fs id K b edges prev bo_ bo -> (hourly_rain ro \/ hourly_bc bo_ -> u = SECONDS /\ follows prev t /\ (t < 3600 * INR (S K))%R) ->
    exists st' s' bo', driver_step fs id (st, s, bo) (driver_time u t) = Ret (st', s', bo') /\ set_up st' /\ params st' = params st /\ rain_ok fs id K mesh (Some t) ro s' /\ bo_ok fs id K b edges (Some t) bo_ bo' /\
      (forall cell c v, nth_error mesh cell = Some c -> meant_rain fs id u t c ro v -> value st' (Source cell 0) = Some v) /\
      (forall e c comp v, nth_error edges e = Some c -> meant_bc fs id u t c comp bo_ v -> value st' (BoundaryValue b e comp) = Some v) /\
      (forall x, (ro = RainUnset \/ forall cell, x <> Source cell 0) -> (bo_ = BCUnset \/ forall e k, k < 3 -> x <> BoundaryValue b e k) -> value st' x = value st x)).
  { intros st s bo prev t U W Lm D Ok Bk H. destruct (rain_step fs id K mesh prev st ro s u t U W Lm Ok ltac:(tauto)) as (st1 & s' & E1 & U1 & P1 & Ok' & V1 & V1').
    destruct (bc_step fs id K b edges prev st1 bo_ bo u t U1) as (st2 & bo' & E2 & U2 & P2 & Bk' & V2 & V2'); [|exact Bk|tauto|]. { destruct D as [D|D]; [left; exact D|right; intros Ne; eapply dirichlet_params; [exact P1|exact (D Ne)]]. }
    exists st2, s', bo'. cbn [driver_step]. rewrite E1. cbn [rbind fst snd]. rewrite E2. cbn [rbind fst snd]. split; [reflexivity|]. split; [exact U2|]. split; [congruence|]. split; [exact Ok'|]. split; [exact Bk'|]. split.
    - intros cell c v Hc Hv. rewrite V2'; [eapply V1; eassumption|]. right. intros; discriminate.
    - split; [exact V2|]. intros x Hx Hy. rewrite V2' by exact Hy. apply V1'. exact Hx. }
  induction times as [|a times IH]; intros st s bo prev t U W Lm D Ok Bk H.
  - cbn [app map driver_run]. destruct (One st s bo prev t U W Lm D Ok Bk) as (st' & s' & bo' & E & U' & P' & _ & _ & V1 & V2 & V3). { intros X. destruct (H X) as (? & (? & _) & ?). auto. }
    rewrite E. cbn [rbind]. exists st', (s', bo'). auto 10.
  - cbn [app map driver_run]. destruct (One st s bo prev a U W Lm D Ok Bk) as (st1 & s1 & bo1 & E & U1 & P1 & Ok1 & Bk1 & _ & _ & V3). { intros X. destruct (H X) as (E & S1 & L). split; [exact E|]. assert (a <= t)%R by (eapply (in_step_last (a :: times)); [exact S1|left; reflexivity]). cbn in S1. destruct S1 as (S1 & _). split; [exact S1|lra]. }
    rewrite E. cbn [rbind]. destruct (same_params _ _ P1) as (Eo & _).
    destruct (IH st1 s1 bo1 (Some a) t U1) as (st' & r & E' & U' & P' & V1' & V2' & V3'); [destruct W as [W|W]; [left; exact W|right; eapply whole_domain_params; eassumption]|congruence| |exact Ok1|exact Bk1| |].
    + destruct D as [D|D]; [left; exact D|right; intros Ne; eapply dirichlet_params; [exact P1|exact (D Ne)]].
    + intros X. destruct (H X) as (? & S1 & ?). cbn in S1. destruct S1 as (_ & S1). auto.
    + exists st', r. split; [exact E'|]. split; [exact U'|]. split; [congruence|]. split; [exact V1'|]. split; [exact V2'|]. intros x Hx Hy. rewrite V3' by assumption. apply V3; assumption.
Qed.
