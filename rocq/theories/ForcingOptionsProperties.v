(** C84: the options of the C driver choose the forcing that is applied. *)
From Coq Require Import ZArith String Ascii Permutation.
From Verif Require FortranDriverProofs.
From Verif Require Import Base MeshMapsModel MeshMapsProofs DataModel DataProofs DataProperties SetupModel ConfigModel OutputModel CalendarModel ForcingModel ForcingProofs ForcingProperties ForcingRunProperties CheckpointModel CheckpointProperties FortranDriverModel FortranDriverProperties ForcingOptionsModel ForcingOptionsSpec ForcingOptionsProofs.
Local Notation length := List.length.
Local Notation concat := List.concat.
Local Open Scope nat_scope.
Local Open Scope string_scope.

(** ** What the options are read as *)
(* Within the limits: the program stops exactly if something is incomplete or two things are asked for; otherwise it takes what
   is asked for, and nothing if nothing is. *)
Theorem C84_rain : forall a, within_limits a ->
  match RDyForcingParseRainfallDataOptions a with
  | Ret d => ~ incomplete_rain a /\ one_or_none (asks_rain a) (understood d)
  | Error => incomplete_rain a \/ two_things (asks_rain a)
  | UB => False
  end.
Proof. exact rain_read. Qed.
Print Assumptions C84_rain.
Theorem C84_boundary : forall a, within_limits a ->
  match RDyForcingParseBoundaryDataOptions a with
  | Ret d => ~ incomplete_boundary a /\ one_or_none (asks_boundary a) (understood d)
  | Error => incomplete_boundary a \/ two_things (asks_boundary a)
  | UB => False
  end.
Proof. exact boundary_read. Qed.
Print Assumptions C84_boundary.

(** ** Command lines for the examples *)
Definition no_args : args := Args (fun _ => None) (fun _ => None) (fun _ => None) (fun _ => None) (fun _ => None).
Definition text (n v : string) (a : args) : args := Args (fun m => if String.eqb m n then Some v else a_str a m) (a_bool a) (a_real a) (a_ints a) (a_strs a).
Definition yes (n : string) (a : args) : args := Args (a_str a) (fun m => if String.eqb m n then Some true else a_bool a m) (a_real a) (a_ints a) (a_strs a).
Definition number (n : string) (v : R) (a : args) : args := Args (a_str a) (a_bool a) (fun m => if String.eqb m n then Some v else a_real a m) (a_ints a) (a_strs a).
Definition integers (n : string) (v : list Z) (a : args) : args := Args (a_str a) (a_bool a) (a_real a) (fun m => if String.eqb m n then Some v else a_ints a m) (a_strs a).
Definition texts (n : string) (v : list string) (a : args) : args := Args (a_str a) (a_bool a) (a_real a) (a_ints a) (fun m => if String.eqb m n then Some v else a_strs a m).
Lemma short_small s : String.length s < 100 -> short s.
Proof. intros H. unfold short, PETSC_MAX_PATH_LEN. apply (Nat.lt_le_trans _ 100); [exact H|]. change 100 with (Z.to_nat 100). apply Z2Nat.inj_le; lia. Qed.
Lemma limits_none : within_limits no_args.
Proof. repeat split; cbn; intros; try discriminate; contradiction. Qed.
Lemma limits_text n v a : String.length v < 100 -> within_limits a -> within_limits (text n v a).
Proof. intros L (A & B & C & D). split; [|auto]. intros m s. cbn. destruct (String.eqb m n); [|apply A]. intros E. injection E as <-. apply short_small. exact L. Qed.
Lemma limits_integers n v a : length v <= 5 -> within_limits a -> within_limits (integers n v a).
Proof.
  intros L (A & B & C & D). split; [exact A|]. split; [exact B|]. split; intros m l; cbn [a_ints integers].
  - destruct (String.eqb m n); [|apply C]. intros E. injection E as <-. lia.
  - intros I. destruct (String.eqb m n); [|apply D; exact I]. intros E. injection E as <-. lia.
Qed.
Lemma limits_texts n v a : length v <= 20 -> (forall s, In s v -> String.length s < 100) -> within_limits a -> within_limits (texts n v a).
Proof.
  intros L S (A & B & C & D). split; [exact A|]. split; [|auto]. intros m l. cbn [a_strs texts]. destruct (String.eqb m n); [|apply B]. intros E. injection E as <-. split; [exact L|]. intros s Hs. apply short_small, S, Hs.
Qed.

Definition two_years : args := text "-raster_rain_dir" "rain" (integers "-raster_rain_start_date" [2026; 11; 16; 17; 30]%Z (text "-homogeneous_bc_file" "tide.bin" (yes "-temporally_interpolate_bc" no_args))).
Example C84_rain_inhabited : within_limits two_years /\ asks_rain two_years (Raster "rain" 2026 11 16 17 30) /\
  (let! d := RDyForcingParseRainfallDataOptions two_years in Ret (understood d)) = Ret (Raster "rain" 2026 11 16 17 30).
Proof.
  split; [apply limits_text; [cbn; lia|]; apply limits_integers; [cbn; lia|]; apply limits_text; [cbn; lia|]; apply limits_none|]. split; [apply rain_raster; reflexivity|]. cbv. reflexivity.
Qed.
Example C84_boundary_inhabited : within_limits two_years /\ asks_boundary two_years (Series "tide.bin" true) /\ (let! d := RDyForcingParseBoundaryDataOptions two_years in Ret (understood d)) = Ret (Series "tide.bin" true).
Proof. split; [apply C84_rain_inhabited|]. split; [apply boundary_series; exact (series_given two_years "-temporally_interpolate_bc" "-homogeneous_bc_file" "tide.bin" eq_refl)|]. cbv. reflexivity. Qed.
(* two kinds of rain; a date without a directory *)
Example C84_rain_refused : RDyForcingParseRainfallDataOptions (number "-constant_rain_rate" 1 two_years) = Error /\ two_things (asks_rain (number "-constant_rain_rate" 1 two_years)) /\
  RDyForcingParseRainfallDataOptions (integers "-raster_rain_start_date" [2026; 11; 16; 17; 30]%Z no_args) = Error.
Proof.
  split; [reflexivity|]. split; [|reflexivity]. exists (Constant 1), (Raster "rain" 2026 11 16 17 30). split; [apply rain_constant; reflexivity|]. split; [apply rain_raster; reflexivity|discriminate].
Qed.

(** ** Runs *)
(* the contents of the hourly files in a directory, from a date on; their names: C60 *)
Definition hourly_files (fs : contents) (id_type dir : string) (y mo d h mi : Z) : files := fun k => fs (snd (forcing_file (forcing_date y mo d h mi) dir id_type k)).
(* a raster: columns, rows, lower left corner, cell size, then a value for each cell; points: their number, 2, the coordinates *)
Definition raster_file (ncols nrows : nat) (x y s : R) (values : list R) : list R := [INR ncols; INR nrows; x; y; s] ++ values.
Definition point_file (pts : list (R * R)) : list R := [INR (length pts); 2%R] ++ interleaved pts.
Definition int (n : nat) : Prop := (Z.of_nat n < 2 ^ 31)%Z.
(* the files named can be used: they are there, for every hour, and of the right size; [stride]: values for each point *)
Definition usable (fs : contents) (id_type : string) (stride : nat) (x : forcing) : Prop :=
  match x with
  | Nothing | Constant _ => True
  | Series f _ => exists l, fs f = Some (interleaved l) /\ l <> [] /\ increasing l
  | Raster dir y mo d h mi => exists nc nr xc yc s, 0 < nc /\ 0 < nr /\ int nc /\ int nr /\
      forall k, exists values, hourly_files fs id_type dir y mo d h mi k = Some (raster_file nc nr xc yc s values) /\ length values = nr * nc
  | Points dir mesh y mo d h mi => exists pts, fs mesh = Some (point_file pts) /\ pts <> [] /\ int (length pts) /\
      forall k, exists data, hourly_files fs id_type dir y mo d h mi k = Some data /\ length data = length pts * stride + 2
  | Regions _ => False
  end.
(* The value asked for at a time: of component [k] of what is at [c].  On a raster: that of the nearest cell, if there is one
   within (largest number of cells in a direction + 1) cell sizes, in mm/h. *)
Definition prescribed (fs : contents) (id_type : string) (stride : nat) (x : forcing) (t : R) (c : R * R) (comp : nat) (v : R) : Prop :=
  match x with
  | Constant r => v = r
  | Series f i => exists l, fs f = Some (interleaved l) /\ sampled l i t v
  | Raster dir y mo d h mi => exists k nc nr xc yc s values p q u, hour_of t k /\ hourly_files fs id_type dir y mo d h mi k = Some (raster_file nc nr xc yc s values) /\
      In q (raster_points nc nr xc yc s) /\ (dist_to (fst c) (snd c) q < INR (Nat.max nc nr + 1) * s)%R /\
      first_nearest (raster_points nc nr xc yc s) (fst c) (snd c) p /\ nth_error values p = Some u /\ (v = u / (1000 * 3600))%R
  | Points dir mesh y mo d h mi => exists k pts data p, hour_of t k /\ hourly_files fs id_type dir y mo d h mi k = Some data /\ fs mesh = Some (point_file pts) /\
      first_nearest pts (fst c) (snd c) p /\ nth_error data (2 + (stride * p + comp)) = Some v
  | _ => False
  end.
Lemma one_usable fs id n (asks : forcing -> Prop) x : one_or_none asks x -> (forall y, asks y -> usable fs id n y) -> usable fs id n x.
Proof. intros H U. destruct x; try exact Logic.I; apply U, H. Qed.
Lemma one_is (asks : forcing -> Prop) x y : one_or_none asks x -> asks y -> y = x.
Proof. intros H A. destruct x; [destruct (H y A)|apply H; exact A..]. Qed.
Lemma nearest_unique pts x y i j : first_nearest pts x y i -> first_nearest pts x y j -> i = j.
Proof.
  intros (p & Hp & P) (q & Hq & Q). destruct (Nat.lt_trichotomy i j) as [L|[L|L]]; [|exact L|].
  - destruct (P _ _ Hq) as (P1 & _). destruct (Q _ _ Hp) as (_ & Q2). specialize (Q2 L). lra.
  - destruct (Q _ _ Hp) as (Q1 & _). destruct (P _ _ Hq) as (_ & P2). specialize (P2 L). lra.
Qed.
Lemma int_INR n : int n -> int_of (INR n) = Some (Z.of_nat n).
Proof. intros H. rewrite INR_IZR_INZ. apply int_of_IZR. unfold int in H. lia. Qed.
Lemma point_file_inj p q : int (length p) -> point_file p = point_file q -> p = q.
Proof. intros _ E. unfold point_file in E. cbn [app] in E. injection E as _ E. apply interleaved_inj. exact E. Qed.
Lemma read_points pts : int (length pts) -> ReadUnstructuredDatasetCoordinates (point_file pts) = Ret pts.
Proof.
  intros H. unfold ReadUnstructuredDatasetCoordinates, point_file. cbn [app nth_error obind]. rewrite int_INR by exact H. rewrite (int_of_IZR 2) by lia. cbn [of_option rbind Z.eqb Pos.eqb check]. rewrite Nat2Z.id.
  rewrite (omap_map_some _ (fun i => nth i pts (0, 0)%R)).
  - cbn [of_option]. apply f_equal. apply nth_ext with (d := (0, 0)%R) (d' := (0, 0)%R); [rewrite map_length; apply seq_length|]. intros n Hn. rewrite map_length, seq_length in Hn. set (g := fun i => nth i pts (0, 0)%R). rewrite (nth_indep (map g _) (0, 0)%R (g 0)) by (rewrite map_length, seq_length; exact Hn). rewrite map_nth, seq_nth by exact Hn. reflexivity.
  - intros i Hi. apply in_seq in Hi. replace (i * 2 + 2) with (S (S (i * 2))) by lia. replace (i * 2 + 1 + 2) with (S (S (i * 2 + 1))) by lia. cbn [nth_error]. rewrite interleaved_time, interleaved_value.
    rewrite (nth_error_nth' pts (0, 0)%R) by lia. cbn [option_map obind]. destruct (nth i pts (0, 0)%R); reflexivity.
Qed.
Lemma raster_file_inj nc nr x y s v nc' nr' x' y' s' v' : int nc -> int nr -> raster_file nc nr x y s v = raster_file nc' nr' x' y' s' v' -> nc = nc' /\ nr = nr' /\ x = x' /\ y = y' /\ s = s' /\ v = v'.
Proof. intros _ _ E. unfold raster_file in E. cbn [app] in E. injection E as E1 E2 E3 E4 E5 E6. apply INR_eq in E1, E2. auto 10. Qed.
Lemma open_raster_file (files : files) nc nr x y s mesh values : int nc -> int nr -> files 0 = Some (raster_file nc nr x y s values) ->
  OpenRaster files mesh = Ret (ForcingModel.Raster (Z.of_nat nc) (Z.of_nat nr) x y s (Hourly (raster_file nc nr x y s values) 1) (RDyForcingCreateRasterDatasetMapping nc nr x y s mesh)).
Proof.
  intros C N E. unfold OpenRaster. rewrite E. unfold raster_file. cbn [app nth_error obind]. rewrite !int_INR by assumption. cbn [obind of_option]. rewrite !Nat2Z.id. reflexivity.
Qed.
Lemma file_header nc nr x y s f m values : int nc -> int nr -> same_header (ForcingModel.Raster (Z.of_nat nc) (Z.of_nat nr) x y s f m) (raster_file nc nr x y s values) = Some true.
Proof.
  intros C N. unfold same_header, raster_file. cbn [app nth_error obind]. rewrite !int_INR by assumption. cbn [obind ra_ncols ra_nrows ra_xlc ra_ylc ra_cellsize]. rewrite !Z.eqb_refl.
  assert (Q : forall r : R, Reqb r r = true) by (intros r; unfold Reqb; destruct (Req_EM_T r r); congruence). rewrite !Q. reflexivity.
Qed.
Lemma open_nowhere files stride f pts u : ReadUnstructuredDatasetCoordinates f = Ret pts -> OpenUnstructured files stride no_points [] = Ret u -> OpenUnstructured files stride f [] = Ret u.
Proof.
  intros Hp H. unfold OpenUnstructured in *. destruct (files 0) as [d|]; [|discriminate]. destruct (of_option (let* n := nth_error d 0 in int_of n)) as [n| |]; try discriminate. cbn [rbind] in *.
  destruct (of_option (let* n := nth_error d 1 in int_of n)) as [s| |]; try discriminate. cbn [rbind] in *. destruct (Z.eqb s 0); [discriminate|]. destruct (Z.eqb (Z.quot (Z.of_nat (length d) - 2) s) n); [|discriminate]. cbn [check] in *.
  destruct (Z.eqb s stride); [|discriminate]. cbn [check] in *. rewrite Hp. cbn [rbind]. destruct (ReadUnstructuredDatasetCoordinates no_points) as [p| |]; cbn [rbind] in H; [|discriminate..]. exact H.
Qed.
(* what the options for a map are read as, and the seconds of the dates *)
Definition seconds (d : dataset) : Prop := tm_sec (sp_date (ds_raster d)) = 0%Z /\ tm_sec (sp_date (ds_unstructured d)) = 0%Z.
Definition map_asked (a : args) (write read : string) (sp : spatial) : Prop := sp_write sp = is_some (a_str a write) /\ sp_read sp = is_some (a_str a read) /\ (forall f, a_str a read = Some f -> sp_map_file sp = f) /\ (forall f, a_str a read = None -> a_str a write = Some f -> sp_map_file sp = f).
Lemma map_options_asked a dir debug write read : within_limits a -> map_asked a write read (map_options a dir debug write read).
Proof. intros W. unfold map_asked, map_options. cbv zeta. cbn [sp_write sp_read sp_map_file]. rewrite !get_string by exact W. split; [reflexivity|]. split; [reflexivity|]. split; [intros f ->; reflexivity|]. intros f -> ->. reflexivity. Qed.
Lemma date_seconds l t : date_of l = Some t -> tm_sec t = 0%Z.
Proof. destruct l as [|y [|mo [|d [|h [|mi [|]]]]]]; try discriminate. cbn. intros E. injection E as <-. reflexivity. Qed.
Lemma raster_details a s s' : within_limits a -> raster_option a s = Ret s' -> seconds (fst s) -> seconds (fst s') /\ map_asked a "-raster_rain_write_map_file" "-raster_rain_read_map_file" (ds_raster (fst s')).
Proof.
  intros W H (_ & S2). unfold raster_option in H. cbv zeta in H. set (sp := map_options a _ _ _ _) in H. assert (M : map_asked a "-raster_rain_write_map_file" "-raster_rain_read_map_file" sp) by (apply map_options_asked; exact W). assert (Z : tm_sec (sp_date sp) = 0%Z) by reflexivity. clearbody sp.
  destruct (GetIntArray a "-raster_rain_start_date" 5) as [l|]; [|injection H as <-; split; [split; assumption|exact M]].
  destruct (Nat.eqb (length l) 5); [|discriminate]. destruct (is_some _); [|discriminate]. cbn [check] in H. destruct (date_of l) as [t|] eqn:Et; [|discriminate]. cbn [of_option rbind] in H. injection H as <-.
  split; [split; [exact (date_seconds _ _ Et)|exact S2]|]. exact M.
Qed.
Lemma unstructured_details a n s s' : within_limits a -> unstructured_option a n s = Ret s' -> seconds (fst s) -> seconds (fst s') /\ ds_raster (fst s') = ds_raster (fst s) /\ map_asked a (n_write n) (n_read n) (ds_unstructured (fst s')).
Proof.
  intros W H (S1 & _). unfold unstructured_option in H. cbv zeta in H. set (sp := map_options a _ _ _ _) in H. assert (M : map_asked a (n_write n) (n_read n) sp) by (apply map_options_asked; exact W). assert (Z : tm_sec (sp_date sp) = 0%Z) by reflexivity. clearbody sp.
  destruct (GetIntArray a (n_date n) 5) as [l|]; [|injection H as <-; split; [split; assumption|split; [reflexivity|exact M]]].
  destruct (Nat.eqb (length l) 5); [|discriminate]. destruct (is_some _); [|discriminate]. destruct (is_some _); [|discriminate]. cbn [check] in H. destruct (date_of l) as [t|] eqn:Et; [|discriminate]. cbn [of_option rbind] in H. injection H as <-.
  split; [split; [exact S1|exact (date_seconds _ _ Et)]|split; [reflexivity|exact M]].
Qed.
Lemma multi_details a files regions s s' : multi_option a files regions s = Ret s' -> ds_raster (fst s') = ds_raster (fst s) /\ ds_unstructured (fst s') = ds_unstructured (fst s).
Proof.
  unfold multi_option. cbv zeta. destruct (Bool.eqb _ _); [|discriminate]. cbn [check]. destruct (GetStringArray a files MAX_DATASETS) as [fs|], (GetIntArray a regions MAX_DATASETS) as [ids|]; try (intros H; injection H as <-; auto).
  destruct (Nat.eqb _ _); [|discriminate]. cbn [check]. destruct (rmap strcpy fs); cbn [rbind]; try discriminate. intros H. injection H as <-. auto.
Qed.
Lemma rain_details a d : within_limits a -> RDyForcingParseRainfallDataOptions a = Ret d -> seconds d /\ map_asked a "-raster_rain_write_map_file" "-raster_rain_read_map_file" (ds_raster d) /\ map_asked a "-unstructured_rain_write_map_file" "-unstructured_rain_read_map_file" (ds_unstructured d).
Proof.
  intros W H. unfold RDyForcingParseRainfallDataOptions in H. cbv zeta in H. set (s0 := homogeneous_option _ _ _) in H. assert (Z : seconds (fst s0)).
  { unfold s0, homogeneous_option, constant_option, seconds. destruct (GetString a _), (a_real a _); split; reflexivity. }
  clearbody s0. destruct (raster_option a s0) as [s1| |] eqn:E1; cbn [rbind] in H; try discriminate. destruct (raster_details _ _ _ W E1 Z) as (Z1 & M1).
  destruct (unstructured_option a rain_names s1) as [s2| |] eqn:E2; cbn [rbind] in H; try discriminate. destruct (unstructured_details _ _ _ _ W E2 Z1) as (Z2 & R2 & M2). rewrite <- R2 in M1.
  destruct (multi_option a _ _ s2) as [s3| |] eqn:E3; cbn [rbind] in H; try discriminate. destruct (multi_details _ _ _ _ _ E3) as (R3 & U3). unfold seconds in Z2. rewrite <- R3, <- U3 in *.
  destruct (Nat.leb (snd s3) 1); [|discriminate]. cbn [check] in H. injection H as <-. split; [exact Z2|]. split; [exact M1|exact M2].
Qed.
Lemma boundary_details a d : within_limits a -> RDyForcingParseBoundaryDataOptions a = Ret d -> seconds d.
Proof.
  intros W H. unfold RDyForcingParseBoundaryDataOptions in H. cbv zeta in H. set (s0 := homogeneous_option _ _ _) in H. assert (Z : seconds (fst s0)) by (unfold s0, homogeneous_option, seconds; destruct (GetString a _); split; reflexivity).
  clearbody s0. destruct (unstructured_option a bc_names s0) as [s2| |] eqn:E2; cbn [rbind] in H; try discriminate. destruct (unstructured_details _ _ _ _ W E2 Z) as (Z2 & R2 & M2).
  destruct (multi_option a _ _ s2) as [s3| |] eqn:E3; cbn [rbind] in H; try discriminate. destruct (multi_details _ _ _ _ _ E3) as (R3 & U3). unfold seconds in Z2. rewrite <- R3, <- U3 in *.
  destruct (Nat.leb (snd s3) 1); [|discriminate]. cbn [check] in H. injection H as <-. exact Z2.
Qed.
Lemma same_date t : tm_sec t = 0%Z -> forcing_date (tm_year t + 1900) (tm_mon t + 1) (tm_mday t) (tm_hour t) (tm_min t) = t.
Proof. destruct t as [yr mo md hr mi se]. cbn. intros ->. unfold forcing_date. replace (yr + 1900 - 1900)%Z with yr by lia. replace (mo + 1 - 1)%Z with mo by lia. reflexivity. Qed.
Definition no_map_read (a : args) : Prop := a_str a "-raster_rain_read_map_file" = None /\ a_str a "-unstructured_rain_read_map_file" = None.
Definition hourly_kind (x : forcing) : Prop := match x with Raster _ _ _ _ _ _ | Points _ _ _ _ _ _ _ => True | _ => False end.

(* With anything but records for several regions: after any number of applications, every cell has the rain asked for at the time
   of the last one, and every edge of the Dirichlet boundary the water height (a record) or height and momentum (hourly files).
   With hourly files the applications must keep step with the hours (C47).  Missing: several regions (see the refutations); maps
   that are read (C84_map_in_use). *)
Theorem C84_run_partial : forall a fs id_type junk bjunk dm st s w b times t, within_limits a -> no_map_read a -> RDyCreateForcing a fs id_type junk bjunk dm = Ret (s, w, b) ->
  set_up st -> whole_domain st -> length (dm_cells dm) = r_owned st -> boundaries_of st = Some (dm_bcs dm) -> same_index (dm_bcs dm) (dm_global_bc dm) ->
  (forall i ne, dirichlet st i ne -> length (dm_edges dm (Z.of_nat i)) = ne) ->
  (forall x, asks_rain a x -> usable fs id_type 1 x) -> (forall x, asks_boundary a x -> usable fs id_type 3 x) ->
  (forall x, asks_rain a x \/ asks_boundary a x -> hourly_kind x -> in_step None (times ++ [t])) ->
  exists st' r, apply_forcing_at st s b (times ++ [t]) = Ok (st', r) /\
    (forall x cell c v, asks_rain a x -> nth_error (dm_cells dm) cell = Some c -> prescribed fs id_type 1 x t c 0 v -> value st' (Source cell 0) = Some v) /\
    (forall x i ne e c h k v, asks_boundary a x -> ~ hourly_kind x -> prescribed fs id_type 3 x t c k h -> dirichlet st i ne -> e < ne -> still_water h k = Some v -> value st' (BoundaryValue i e k) = Some v) /\
    (forall x i ne e c k v, asks_boundary a x -> hourly_kind x -> dirichlet st i ne -> nth_error (dm_edges dm (Z.of_nat i)) e = Some c -> k < 3 -> prescribed fs id_type 3 x t c k v -> value st' (BoundaryValue i e k) = Some v) /\
    ((forall x, ~ asks_rain a x) -> forall cell, value st' (Source cell 0) = value st (Source cell 0)).
Proof.
  intros a fs id junk bjunk dm st s w b times t W NM E U D L Hb Si Hedges Ur Ub Step. unfold RDyCreateForcing in E. assert (Rr := C84_rain a W). assert (Rb := C84_boundary a W).
  destruct (RDyForcingParseRainfallDataOptions a) as [d| |] eqn:Ed; cbn [rbind] in E; try discriminate. destruct Rr as (_ & Rr). destruct (rain_details a d W Ed) as ((Z1 & Z2) & (_ & M1 & _) & (_ & M2 & _)). destruct NM as (NM1 & NM2). rewrite NM1 in M1. rewrite NM2 in M2. cbn [is_some] in M1, M2.
  destruct (open_source fs id junk dm d) as [sw| |] eqn:Es; cbn [rbind] in E; try discriminate.
  destruct (RDyForcingParseBoundaryDataOptions a) as [q| |] eqn:Eq; cbn [rbind] in E; try discriminate. destruct Rb as (_ & Rb). destruct (boundary_details a q W Eq) as (_ & Z3).
  destruct (open_boundary fs id bjunk dm q) as [bf| |] eqn:Eb; cbn [rbind] in E; try discriminate. injection E as -> <-.
  assert (Xr := one_usable fs id 1 _ _ Rr Ur). assert (Xb := one_usable fs id 3 _ _ Rb Ub).
  assert (Ss : created_source st s /\ (uses_files s -> exists x, asks_rain a x /\ hourly_kind x) /\ (forall x cell c v, asks_rain a x -> nth_error (dm_cells dm) cell = Some c -> prescribed fs id 1 x t c 0 v -> meant_source s t cell v) /\ ((forall x, ~ asks_rain a x) -> s = SUnset)).
  { unfold open_source in Es. rewrite L in Es. unfold understood in Rr, Xr. destruct (ds_type d); try contradiction.
    - injection Es as <- <-. split; [constructor|]. split; [intros []|]. split; [|auto]. intros x cell c v A. destruct (Rr x A).
    - injection Es as <- <-. split; [constructor|]. split; [intros []|]. split; [|intros N; destruct (N _ (proj1 Rr))]. intros x cell c v A _ P. rewrite (one_is _ _ _ Rr A) in P. exact P.
    - destruct Xr as (l & Fl & Nl & Il). unfold load in Es. rewrite Fl in Es. cbn [rbind] in Es. injection Es as <- <-. split; [constructor; assumption|]. split; [intros []|]. split; [|intros N; destruct (N _ (proj1 Rr))].
      intros x cell c v A _ P. rewrite (one_is _ _ _ Rr A) in P. destruct P as (l' & Fl' & Sl). exists l'. split; [|exact Sl]. cbn. congruence.
    - unfold numbers in Rr, Xr. destruct Xr as (nc & nr & xc & yc & cs & C0 & N0 & Ci & Ni & G). unfold hourly_files in G. rewrite same_date in G by exact Z1. fold (dated_files fs id (ds_raster d)) in G.
      assert (G' : forall k, exists values, dated_files fs id (ds_raster d) k = Some (raster_file nc nr xc yc cs values) /\ length values = nr * nc) by exact G. clear G.
      destruct (G' 0) as (v0 & F0 & L0). assert (O := open_raster_file _ nc nr xc yc cs (dm_cells dm) v0 Ci Ni F0). rewrite O in Es. cbn [rbind] in Es. unfold spatial_map in Es. rewrite M1 in Es. cbn [rbind] in Es. injection Es as <- _.
      split. { cbn [fst]. eapply (created_raster st _ _ (dm_cells dm)); [exact O|exact L|cbn; lia|cbn; lia|]. intros k. destruct (G' k) as (vk & Fk & Lk). exists (raster_file nc nr xc yc cs vk). split; [exact Fk|]. split; [apply file_header; assumption|].
               cbn [ra_nrows ra_ncols set_raster_map fst]. rewrite !Nat2Z.id. unfold raster_file. cbn [app length]. lia. }
      split; [intros _; eexists; split; [exact (proj1 Rr)|exact Logic.I]|]. split; [|intros N; destruct (N _ (proj1 Rr))].
      intros x cell c v A Hc P. rewrite (one_is _ _ _ Rr A) in P. destruct P as (k & nc' & nr' & xc' & yc' & s' & vs & p & q' & u & Hk & Fk & Iq & Dq & Np & Hu & ->).
      unfold hourly_files in Fk. rewrite same_date in Fk by exact Z1. destruct (G' k) as (vk & Fk' & Lk). unfold dated_files in Fk'. assert (Ek : raster_file nc nr xc yc cs vk = raster_file nc' nr' xc' yc' s' vs) by congruence.
      apply (raster_file_inj nc nr xc yc cs vk nc' nr' xc' yc' s' vs Ci Ni) in Ek. destruct Ek as (<- & <- & <- & <- & <- & <-).
      exists k. eexists. exists p, u. split; [exact Hk|]. split; [exact Fk|]. cbn [fst set_raster_map ra_map]. split; [|split; [exact Hu|reflexivity]].
      destruct (C45_raster_nearest_partial nc nr xc yc cs (dm_cells dm) cell c q' Hc Iq Dq) as (p' & Ep & Np'). rewrite Ep. rewrite (nearest_unique _ _ _ _ _ Np' Np). reflexivity.
    - unfold numbers in Rr, Xr. destruct Xr as (pts & Fm & Np & Ni & G). unfold hourly_files in G. rewrite same_date in G by exact Z2.
      destruct (OpenUnstructured (dated_files fs id (ds_unstructured d)) 1 no_points []) as [u0| |]; cbn [rbind] in Es; try discriminate. unfold load in Es. rewrite Fm in Es. cbn [rbind] in Es.
      destruct (OpenUnstructured (dated_files fs id (ds_unstructured d)) 1 (point_file pts) (dm_cells dm)) as [u| |] eqn:O; cbn [rbind] in Es; try discriminate. unfold spatial_map in Es. rewrite M2 in Es. cbn [rbind fst] in Es. injection Es as <- _.
      assert (Eu : set_unstructured_map (un_map u) u = u) by (destruct u; reflexivity). rewrite Eu.
      split. { eapply (created_unstructured st _ _ (point_file pts) (dm_cells dm) pts); [exact O|exact L|apply read_points; exact Ni|exact Np|]. intros k. destruct (G k) as (dk & Fk & Lk). exists dk. split; [exact Fk|lia]. }
      split; [intros _; eexists; split; [exact (proj1 Rr)|exact Logic.I]|]. split; [|intros N; destruct (N _ (proj1 Rr))].
      intros x cell c v A Hc P. rewrite (one_is _ _ _ Rr A) in P. destruct P as (k & pts' & data & p & Hk & Fk & Fm' & Hp & Hv). assert (Ep2 : point_file pts = point_file pts') by congruence. apply (point_file_inj _ _ Ni) in Ep2. subst pts'.
      unfold hourly_files in Fk. rewrite same_date in Fk by exact Z2. exists k, data, p. split; [exact Hk|]. split; [exact Fk|]. split; [|replace (2 + p) with (2 + (1 * p + 0)) by lia; exact Hv].
      destruct (open_unstructured _ _ _ _ _ _ O (read_points pts Ni) Np) as (d0 & _ & _ & _ & _ & _ & Em). destruct (C45_unstructured_nearest pts (dm_cells dm) Np) as (m & Em' & _ & Hm). rewrite Em in Em'. injection Em' as <-.
      destruct (Hm cell c Hc) as (p' & Ep & Hp'). rewrite Ep. rewrite (nearest_unique _ _ _ _ _ Hp' Hp). reflexivity. }
  assert (Sb : created_boundary st bf /\ (buses_files bf -> exists x, asks_boundary a x /\ hourly_kind x) /\
    (forall x i ne e c h k v, asks_boundary a x -> ~ hourly_kind x -> prescribed fs id 3 x t c k h -> dirichlet st i ne -> e < ne -> still_water h k = Some v -> meant_boundary bf t i e k v) /\
    (forall x i ne e c k v, asks_boundary a x -> hourly_kind x -> dirichlet st i ne -> nth_error (dm_edges dm (Z.of_nat i)) e = Some c -> k < 3 -> prescribed fs id 3 x t c k v -> meant_boundary bf t i e k v)).
  { unfold open_boundary in Eb. cbv zeta in Eb. unfold understood in Rb, Xb.
    assert (At : forall idx n values i ne, DoPostprocessForBoundaryDataset (map fst (dm_bcs dm)) (dm_global_bc dm) = Some (idx, n, values) -> dirichlet st i ne -> Z.of_nat i = idx /\ n = ne * 3).
    { intros idx n values i ne Ep Di. unfold DoPostprocessForBoundaryDataset in Ep. destruct (FindDirichletBCID (map fst (dm_bcs dm))) as ((j, nj), m) eqn:Ef. destruct m; [discriminate|]. destruct (Z.ltb_spec (-1) (dm_global_bc dm)); [|discriminate]. injection Ep as <- <- <-.
      destruct Di as (bd & cn & B1 & B2 & B3 & B4).
      assert (Hin : nth_error (map fst (dm_bcs dm)) i = Some (CONDITION_DIRICHLET, ne)).
      { rewrite nth_error_map. rewrite (omap_nth _ _ _ Hb). assert (Ec : nth_error (combine (r_boundaries st) (r_conds st)) i = Some (bd, cn)) by (apply FortranDriverProofs.combine_nth_error; assumption). rewrite Ec. cbn [obind snd]. rewrite B4. cbn. subst ne. reflexivity. }
      destruct (C62_single_boundary _ _ _ Ef) as [(_ & _ & No)|(i' & Ei & Hi & Uni)]; [destruct (No _ _ _ Hin eq_refl)|]. assert (i = i') by (eapply Uni; exact Hin). subst i'. assert (ne = nj) by congruence. subst nj. split; [|reflexivity]. destruct (Si _ _ _ Ef) as [Y|Y]; [lia|]. lia. }
    destruct (ds_type q); try contradiction; try discriminate.
    - injection Eb as <-. split; [constructor|]. split; [intros []|]. split; [intros x i ne e c h k v A; destruct (Rb x A)|]. intros x i ne e c k v A. destruct (Rb x A).
    - destruct Xb as (l & Fl & Nl & Il). unfold load in Eb. rewrite Fl in Eb. cbn [rbind] in Eb.
      destruct (DoPostprocessForBoundaryDataset (map fst (dm_bcs dm)) (dm_global_bc dm)) as [((idx, n), values)|] eqn:Ep; cbn [rbind] in Eb; [|discriminate]. injection Eb as <-.
      split; [eapply bcreated_homogeneous; eassumption|]. split; [intros []|]. split; [|intros x i ne e c k v A K; rewrite (one_is _ _ _ Rb A) in K; destruct K]. intros x i ne e c h k v A _ P Di He Hk. rewrite (one_is _ _ _ Rb A) in P. destruct P as (l' & Fl' & Sl).
      destruct (At _ _ _ i ne eq_refl Di) as (X & ->). split; [exact X|]. split; [lia|]. exists l', h. split; [cbn; congruence|]. split; [exact Sl|exact Hk].
    - unfold numbers in Rb, Xb. destruct Xb as (pts & Fm & Np & Ni & G). unfold hourly_files in G. rewrite same_date in G by exact Z3.
      destruct (OpenUnstructured (dated_files fs id (ds_unstructured q)) 3 no_points []) as [u0| |] eqn:O0; cbn [rbind] in Eb; try discriminate.
      destruct (DoPostprocessForBoundaryDataset (map fst (dm_bcs dm)) (dm_global_bc dm)) as [((idx, n), values)|] eqn:Ep; cbn [rbind] in Eb; [|discriminate].
      assert (O : exists u mesh, OpenUnstructured (dated_files fs id (ds_unstructured q)) 3 (point_file pts) mesh = Ret u /\ bf = BUnstructured (dated_files fs id (ds_unstructured q)) u n idx values /\ n = length mesh * 3 /\ (n <> 0 -> mesh = dm_edges dm idx)).
      { destruct (Nat.eqb_spec n 0) as [Zn|Zn].
        - cbn [rbind] in Eb. rewrite O0 in Eb. cbn [rbind] in Eb. injection Eb as <-. exists u0, []. split; [exact (open_nowhere _ _ _ _ _ (read_points pts Ni) O0)|]. split; [reflexivity|]. split; [exact Zn|contradiction].
        - unfold load in Eb. rewrite Fm in Eb. cbn [rbind] in Eb. destruct (OpenUnstructured _ 3 (point_file pts) (dm_edges dm idx)) as [u| |] eqn:O; cbn [rbind] in Eb; try discriminate. injection Eb as <-. exists u, (dm_edges dm idx). split; [exact O|]. split; [reflexivity|]. split; [|auto].
          destruct (postprocess_spec _ _ _ _ _ _ Hb Si Ep) as (ne & -> & _ & Dn). destruct Dn as (i & -> & Di); [lia|]. rewrite (Hedges i ne Di). reflexivity. }
      destruct O as (u & mesh & O & -> & Ln & Em). split. { eapply (bcreated_unstructured st _ _ (point_file pts) mesh pts); [exact Hb|exact Si|exact Ep|exact O|exact Ln|apply read_points; exact Ni|exact Np|]. intros k. exact (G k). }
      split; [intros _; eexists; split; [exact (proj1 Rb)|exact Logic.I]|]. split; [intros x i ne e c h k v A K; rewrite (one_is _ _ _ Rb A) in K; destruct K; exact Logic.I|].
      intros x i ne e c k v A _ Di Hc Hk P. rewrite (one_is _ _ _ Rb A) in P. destruct P as (hr & pts' & data & p & Hh & Fk & Fm' & Hp & Hv). assert (Ep2 : point_file pts = point_file pts') by congruence. apply (point_file_inj _ _ Ni) in Ep2. subst pts'.
      unfold hourly_files in Fk. rewrite same_date in Fk by exact Z3. destruct (At _ _ _ i ne eq_refl Di) as (X & En). assert (Le : e < ne) by (rewrite <- (Hedges i ne Di); apply nth_error_Some; congruence).
      split; [exact X|]. split; [lia|]. split; [exact Hk|]. exists hr, data, p. split; [exact Hh|]. split; [exact Fk|]. split; [|exact Hv].
      rewrite Em in O by lia. rewrite X in Hc. destruct (open_unstructured _ _ _ _ _ _ O (read_points pts Ni) Np) as (d0 & _ & _ & _ & _ & _ & Em'). destruct (C45_unstructured_nearest pts (dm_edges dm idx) Np) as (m & Em2 & _ & Hm). rewrite Em' in Em2. injection Em2 as <-.
      destruct (Hm e c Hc) as (p' & Ep' & Hp'). rewrite Ep'. rewrite (nearest_unique _ _ _ _ _ Hp' Hp). reflexivity. }
  destruct Ss as (S1 & S2 & S3 & S4). destruct Sb as (B1 & B2 & B3 & B4).
  destruct (C62_forcing_partial st s bf times t U S1 B1 (or_intror D)) as (st' & r & Er & V1 & V2 & V3). { intros [X|X]; [destruct (S2 X) as (x & A & K)|destruct (B2 X) as (x & A & K)]; apply (Step x); auto. }
  exists st', r. split; [exact Er|]. split; [intros x cell c v A Hc P; apply V1; [rewrite <- L; apply nth_error_Some; congruence|eapply S3; eassumption]|]. split; [intros x i ne e c h k v A K P Di He Hk; apply V2; eapply B3; eassumption|].
  split; [intros x i ne e c k v A K Di Hc Hk P; apply V2; eapply B4; eassumption|].
  intros N cell. apply V3; [left; apply S4, N|]. intros i e k Hx. discriminate.
Qed.
Print Assumptions C84_run_partial.

(* three cells, one Dirichlet boundary of two edges: a constant rain and a record of the tide *)
Definition tide : list (R * R) := [(0, 1); (10, 2)]%R.
Definition tide_files : contents := fun f => if String.eqb f "tide.bin" then Some (interleaved tide) else None.
Definition rain_and_tide : args := number "-constant_rain_rate" 3 (text "-homogeneous_bc_file" "tide.bin" (yes "-temporally_interpolate_bc" no_args)).
Definition small_domain : domain := Domain [(0, 0); (1, 0); (2, 0)]%R [0; 1; 2] 0 [(CONDITION_REFLECTING, 4, 7%Z); (CONDITION_DIRICHLET, 2, 8%Z)] 1 (fun _ => []).
Example C84_run_partial_inhabited : within_limits rain_and_tide /\ (exists s w b, RDyCreateForcing rain_and_tide tide_files "int32" (fun _ => false) (fun _ => false) small_domain = Ret (s, w, b) /\ b <> BUnset /\ meant_source s 5 0 3) /\
  asks_rain rain_and_tide (Constant 3) /\ asks_boundary rain_and_tide (Series "tide.bin" true) /\ (forall x, asks_rain rain_and_tide x -> usable tide_files "int32" 1 x) /\ usable tide_files "int32" 3 (Series "tide.bin" true) /\ prescribed tide_files "int32" 3 (Series "tide.bin" true) 5 (0, 0)%R 0 (3 / 2).
Proof.
  assert (W : within_limits rain_and_tide) by (apply limits_text; [cbn; lia|apply limits_none]).
  assert (Ac : asks_rain rain_and_tide (Constant 3)) by (apply rain_constant; reflexivity).
  split; [exact W|]. split; [eexists _, _, _; split; [reflexivity|]; split; [discriminate|reflexivity]|]. split; [exact Ac|]. split; [apply boundary_series; exact (series_given rain_and_tide "-temporally_interpolate_bc" "-homogeneous_bc_file" "tide.bin" eq_refl)|].
  split. { intros x X. assert (R := C84_rain rain_and_tide W). destruct R as (_ & R). change (one_or_none (asks_rain rain_and_tide) (Constant 3)) in R. rewrite (one_is _ _ _ R X). exact Logic.I. }
  split. { exists tide. split; [reflexivity|]. split; [discriminate|]. intros [|[|i]] p q Hp Hq; cbn in Hp, Hq; try discriminate. injection Hp as <-. injection Hq as <-. cbn. lra. }
  exists tide. split; [reflexivity|]. replace (3 / 2)%R with (1 + (5 - 0) * (2 - 1) / (10 - 0))%R by field. apply (sampled_between tide true 5 0 (0, 1)%R (10, 2)%R); [reflexivity|reflexivity|cbn; lra].
Qed.

(** two cells, one Dirichlet boundary of two edges; rain and boundary values at one point each, a file for each hour *)
Definition at_points : args :=
  integers "-unstructured_rain_start_date" [2026; 11; 16; 17; 30]%Z (text "-unstructured_rain_dir" "rain" (text "-unstructured_rain_mesh_file" "mesh"
    (integers "-unstructured_bc_start_date" [2026; 11; 16; 17; 30]%Z (text "-unstructured_bc_dir" "tide" (text "-unstructured_bc_mesh_file" "mesh" no_args))))).
Definition starts (c : ascii) (f : string) : bool := match f with String x _ => Ascii.eqb x c | _ => false end.
Definition point_files : contents := fun f => if starts "m" f then Some (point_file [(0, 0)]%R) else if starts "r" f then Some [1; 1; 7]%R else if starts "t" f then Some [1; 3; 4; 5; 6]%R else None.
Definition plain_domain : domain := Domain [(0, 0); (1, 0)]%R [0; 1] 0 plain_boundaries 0 (fun _ => [(0, 0); (0, 1)]%R).
Lemma first_char y mo d h mi dir id c rest k : dir = String c rest -> starts c (snd (forcing_file (forcing_date y mo d h mi) dir id k)) = true.
Proof.
  intros ->. assert (G : forall t, starts c (snd (RDyForcingDetermineDatasetFilename t (String c rest) id)) = true).
  { intros t. unfold RDyForcingDetermineDatasetFilename. cbn [snd]. unfold snprintf. destruct (Z.to_nat (PETSC_MAX_PATH_LEN - 1)) as [|n] eqn:En; [apply (f_equal Z.of_nat) in En; rewrite Z2Nat.id in En; unfold PETSC_MAX_PATH_LEN in En; lia|]. cbn. apply Ascii.eqb_refl. }
  destruct k; apply G.
Qed.
Lemma rain_file k : hourly_files point_files "int32" "rain" 2026 11 16 17 30 k = Some [1; 1; 7]%R.
Proof.
  unfold hourly_files, point_files. assert (X := first_char 2026 11 16 17 30 "rain" "int32" "r" "ain" k eq_refl). set (f := snd _) in *. clearbody f. destruct f as [|x f]; [discriminate|]. cbn [starts] in *. apply Ascii.eqb_eq in X. subst x. reflexivity.
Qed.
Lemma tide_file k : hourly_files point_files "int32" "tide" 2026 11 16 17 30 k = Some [1; 3; 4; 5; 6]%R.
Proof.
  unfold hourly_files, point_files. assert (X := first_char 2026 11 16 17 30 "tide" "int32" "t" "ide" k eq_refl). set (f := snd _) in *. clearbody f. destruct f as [|x f]; [discriminate|]. cbn [starts] in *. apply Ascii.eqb_eq in X. subst x. reflexivity.
Qed.
Lemma limits_at_points : within_limits at_points.
Proof. repeat first [apply limits_none | apply limits_text; [cbn; lia|] | apply limits_integers; [cbn; lia|]]. Qed.
Lemma at_points_rain x : asks_rain at_points x <-> x = Points "rain" "mesh" 2026 11 16 17 30.
Proof.
  split; [|intros ->; apply rain_points; constructor; reflexivity]. intros [r E|z [f E]|dir y mo d h mi E _|z [dir mesh y mo d h mi E1 E2 E3]|z [fs ids E _ _]]; cbn in *; try discriminate. congruence.
Qed.
Lemma at_points_boundary x : asks_boundary at_points x <-> x = Points "tide" "mesh" 2026 11 16 17 30.
Proof.
  split; [|intros ->; apply boundary_points; constructor; reflexivity]. intros [z [f E]|z [dir mesh y mo d h mi E1 E2 E3]|z [fs ids E _ _]]; cbn in *; try discriminate. congruence.
Qed.
Lemma open_points (files : files) (s : Z) (data : list R) (mesh : list (R * R)) : (0 < s < 2 ^ 31)%Z -> files 0 = Some data -> nth_error data 0 = Some 1%R -> nth_error data 1 = Some (IZR s) -> Z.of_nat (length data) = (s + 2)%Z ->
  OpenUnstructured files s (point_file [(0, 0)]%R) mesh = Ret (Unstructured (Z.to_nat s) (Hourly data 1) (repeat 0 (length mesh))).
Proof.
  intros S F D0 D1 Ln. unfold OpenUnstructured. rewrite F, D0, D1. cbn [obind]. rewrite (int_of_IZR 1), (int_of_IZR s) by lia. cbn [of_option rbind]. destruct (Z.eqb_spec s 0); [lia|]. rewrite Ln. replace (s + 2 - 2)%Z with s by lia. rewrite Z.quot_same by lia. rewrite Z.eqb_refl. cbn [check].
  rewrite Z.eqb_refl. cbn [check]. rewrite read_points by (unfold int; cbn; lia). cbn [rbind]. replace (RDyForcingCreateUnstructuredDatasetMap [(0, 0)]%R mesh) with (Some (repeat 0 (length mesh))); [reflexivity|].
  symmetry. unfold RDyForcingCreateUnstructuredDatasetMap. rewrite (omap_map_some _ (fun _ => 0)) by reflexivity. apply f_equal. clear. induction mesh as [|c mesh IH]; [reflexivity|]. cbn. rewrite IH. reflexivity.
Qed.
Lemma open_no_points (files : files) (s : Z) (data : list R) : (0 < s < 2 ^ 31)%Z -> files 0 = Some data -> nth_error data 0 = Some 1%R -> nth_error data 1 = Some (IZR s) -> Z.of_nat (length data) = (s + 2)%Z ->
  exists u, OpenUnstructured files s no_points [] = Ret u.
Proof.
  intros S F D0 D1 Ln. unfold OpenUnstructured. rewrite F, D0, D1. cbn [obind]. rewrite (int_of_IZR 1), (int_of_IZR s) by lia. cbn [of_option rbind]. destruct (Z.eqb_spec s 0); [lia|]. rewrite Ln. replace (s + 2 - 2)%Z with s by lia. rewrite Z.quot_same by lia. rewrite Z.eqb_refl. cbn [check].
  rewrite Z.eqb_refl. cbn [check]. unfold ReadUnstructuredDatasetCoordinates, no_points. cbn [nth_error obind]. rewrite (int_of_IZR 0), (int_of_IZR 2) by lia. cbn. eexists. reflexivity.
Qed.
Example C84_run_points : exists s w b st' r, RDyCreateForcing at_points point_files "int32" (fun _ => false) (fun _ => false) plain_domain = Ret (s, w, b) /\ apply_forcing_at plain s b [0; 1800]%R = Ok (st', r) /\
  value st' (Source 1 0) = Some 7%R /\ value st' (BoundaryValue 0 1 2) = Some 6%R.
Proof.
  assert (C : exists s w b, RDyCreateForcing at_points point_files "int32" (fun _ => false) (fun _ => false) plain_domain = Ret (s, w, b)).
  { unfold RDyCreateForcing. destruct (RDyForcingParseRainfallDataOptions at_points) as [d| |] eqn:Ed; [|exfalso; cbv in Ed; discriminate..]. cbv in Ed. injection Ed as <-.
    destruct (RDyForcingParseBoundaryDataOptions at_points) as [q| |] eqn:Eq; [|exfalso; cbv in Eq; discriminate..]. cbv in Eq. injection Eq as <-.
    cbn [rbind]. unfold open_source. cbn [ds_type ds_unstructured sp_mesh_file].
    match goal with |- context [dated_files point_files "int32" ?sp] => set (rf := dated_files point_files "int32" sp) end.
    assert (F0 : rf 0 = Some [1; 1; 7]%R) by exact (rain_file 0). destruct (open_no_points rf 1 _ ltac:(lia) F0 eq_refl eq_refl eq_refl) as (u0 & ->). cbn [rbind]. change (load point_files "mesh") with (Ret (point_file [(0, 0)]%R)). cbn [rbind].
    rewrite (open_points rf 1 _ _ ltac:(lia) F0 eq_refl eq_refl eq_refl). cbn [rbind]. unfold spatial_map. cbn [sp_read sp_write rbind]. clearbody rf.
    unfold open_boundary. cbn [ds_type ds_unstructured sp_mesh_file]. match goal with |- context [dated_files point_files "int32" ?sp] => set (tf := dated_files point_files "int32" sp) end.
    assert (T0 : tf 0 = Some [1; 3; 4; 5; 6]%R) by exact (tide_file 0). destruct (open_no_points tf 3 _ ltac:(lia) T0 eq_refl eq_refl eq_refl) as (u1 & ->). cbn [rbind].
    cbn [plain_domain dm_bcs dm_global_bc plain_boundaries map fst DoPostprocessForBoundaryDataset]. change (DoPostprocessForBoundaryDataset [(CONDITION_DIRICHLET, 2)] 0) with (Some (0%Z, 2 * 3, repeat (Some 0%R) (2 * 3))). cbn [rbind Nat.mul Nat.add Nat.eqb].
    change (load point_files "mesh") with (Ret (point_file [(0, 0)]%R)). cbn [rbind]. rewrite (open_points tf 3 _ _ ltac:(lia) T0 eq_refl eq_refl eq_refl). cbn [rbind]. eexists _, _, _. reflexivity. }
  destruct C as (s & w & b & C). exists s, w, b.
  destruct (C84_run_partial at_points point_files "int32" (fun _ => false) (fun _ => false) plain_domain plain s w b [0]%R 1800%R limits_at_points (conj eq_refl eq_refl) C plain_set_up plain_whole eq_refl plain_boundaries_of) as (st' & r & E & V1 & _ & V2 & _).
  - intros idx n m Ef. cbv in Ef. injection Ef as <- _ _. right. reflexivity.
  - intros i ne (bd & cd & B1 & B2 & -> & _). destruct i as [|i]; [|destruct i; discriminate]. cbn in B1. injection B1 as <-. reflexivity.
  - intros x A. apply at_points_rain in A. subst x. exists [(0, 0)]%R. split; [reflexivity|]. split; [discriminate|]. split; [unfold int; cbn; lia|]. intros k. eexists. split; [apply rain_file|reflexivity].
  - intros x A. apply at_points_boundary in A. subst x. exists [(0, 0)]%R. split; [reflexivity|]. split; [discriminate|]. split; [unfold int; cbn; lia|]. intros k. eexists. split; [apply tide_file|reflexivity].
  - intros _ _ _. assert (H := C47_regular_intervals 1800 2 ltac:(lra)). cbn [seq map] in H. cbn [app]. replace (INR 0 * 1800)%R with 0%R in H by (cbn; lra). replace (INR 1 * 1800)%R with 1800%R in H by (cbn; lra). exact H.
  - assert (H : hour_of 1800 0) by (unfold hour_of; cbn; lra).
    assert (Near : forall x y, first_nearest [(0, 0)]%R x y 0) by (intros x y; exists (0, 0)%R; split; [reflexivity|]; intros [|[|j]] q Hq; cbn in Hq; try discriminate; injection Hq as <-; split; [lra|lia]).
    exists st', r. split; [exact C|]. split; [exact E|]. split.
    + apply (V1 (Points "rain" "mesh" 2026 11 16 17 30) 1 (1, 0)%R 7%R); [apply at_points_rain; reflexivity|reflexivity|]. exists 0, [(0, 0)]%R, [1; 1; 7]%R, 0. split; [exact H|]. split; [apply rain_file|]. split; [reflexivity|]. split; [apply Near|reflexivity].
    + apply (V2 (Points "tide" "mesh" 2026 11 16 17 30) 0 2 1 (0, 1)%R 2 6%R); [apply at_points_boundary; reflexivity|exact Logic.I| |reflexivity|lia|].
      * eexists _, _. split; [reflexivity|]. split; [reflexivity|]. split; reflexivity.
      * exists 0, [(0, 0)]%R, [1; 3; 4; 5; 6]%R, 0. split; [exact H|]. split; [apply tide_file|]. split; [reflexivity|]. split; [apply Near|reflexivity].
Qed.

(** ** Map files *)
(* A map written by any number of processes and read by any number of processes, which may number the cells in another way:
   every process gets for each of its cells the index that was written for it. *)
Theorem C84_map_file : forall num num' cells parts, numbers_cells num cells -> numbers_cells num' cells -> length (concat parts) = cells -> (forall i, In i (concat parts) -> (Z.of_nat i < 2 ^ 31)%Z) ->
  exists file, RDyForcingWriteMap num parts = Some file /\
    forall first ncells, first + ncells <= cells -> exists m, RDyForcingReadSpatialMap num' file first ncells = Ret m /\ length m = ncells /\
      forall i g c, i < ncells -> nth_error num' (first + i) = Some c -> nth_error num g = Some c -> nth_error m i = nth_error (concat parts) g.
Proof.
  intros num num' cells parts Hn Hn' L B. destruct (numbers_NoDup num cells Hn) as (N1 & N2 & N3). destruct (numbers_NoDup num' cells Hn') as (N1' & N2' & N3').
  unfold RDyForcingWriteMap, RDyWriteOneDOFGlobalVecToBinaryFile. rewrite map_length, L, N2, Nat.eqb_refl.
  destruct (scatter_upd num (map INR (concat parts)) (repeat 0%R cells) N1) as (file & E & Lf & G & _); [rewrite map_length; congruence|intros k Hk; rewrite repeat_length; apply N3; exact Hk|]. rewrite repeat_length in Lf.
  exists file. split; [exact E|]. intros first ncells F. unfold RDyForcingReadSpatialMap, RDyReadOneDOFGlobalVecFromBinaryFile. rewrite N2', Lf, Nat.eqb_refl.
  rewrite (omap_map_some _ (fun i => nth i file 0%R)) by (intros i Hi; apply nth_error_nth'; rewrite Lf; apply N3'; exact Hi). cbn [of_option rbind]. set (local := firstn ncells (skipn first (map (fun i => nth i file 0%R) num'))).
  assert (At : forall i c, i < ncells -> nth_error num' (first + i) = Some c -> forall g, nth_error num g = Some c -> exists x, nth_error (concat parts) g = Some x /\ nth_error local i = Some (INR x) /\ (Z.of_nat x < 2 ^ 31)%Z).
  { intros i c Hi Hc g Hg. assert (Lg : g < length (concat parts)) by (rewrite L, <- N2; apply nth_error_Some; congruence). destruct (nth_error (concat parts) g) as [x|] eqn:Ex; [|apply nth_error_None in Ex; lia]. exists x. split; [reflexivity|].
    split; [|apply B; eapply nth_error_In; exact Ex]. assert (Y := G g c Hg). rewrite nth_error_map, Ex in Y. cbn [option_map] in Y.
    assert (Lc : nth_error local i = nth_error (map (fun i => nth i file 0%R) num') (first + i)).
    { unfold local. assert (forall (A : Type) (l : list A) n j, j < n -> nth_error (firstn n l) j = nth_error l j) as Fn by (intros A; induction l as [|b l IH]; intros [|n] [|j] Hj; cbn; try lia; try reflexivity; apply IH; lia). rewrite Fn by exact Hi.
      assert (forall (A : Type) (l : list A) n j, nth_error (skipn n l) j = nth_error l (n + j)) as Sn by (intros A; induction l as [|b l IH]; intros [|n] j; cbn; try reflexivity; [destruct j; reflexivity|apply IH]). apply Sn. }
    rewrite Lc, nth_error_map, Hc. cbn [option_map]. rewrite (nth_error_nth _ _ 0%R Y). reflexivity. }
  set (get := fun ii => match nth_error local ii with Some x => match int_of x with Some z => Z.to_nat z | None => 0 end | None => 0 end).
  assert (Get : forall i c, i < ncells -> nth_error num' (first + i) = Some c -> forall g, nth_error num g = Some c -> exists x, nth_error (concat parts) g = Some x /\ nth_error local i = Some (INR x) /\ int_of (INR x) = Some (Z.of_nat x)).
  { intros i c Hi Hc g Hg. destruct (At i c Hi Hc g Hg) as (x & X1 & X2 & X3). exists x. split; [exact X1|]. split; [exact X2|]. rewrite INR_IZR_INZ. apply int_of_IZR. lia. }
  assert (Here : forall i, i < ncells -> exists c g, nth_error num' (first + i) = Some c /\ nth_error num g = Some c).
  { intros i Hi. destruct (nth_error num' (first + i)) as [c|] eqn:Ec; [|apply nth_error_None in Ec; lia]. destruct (In_nth_error num c) as (g & Hg); [apply N3, N3'; eapply nth_error_In; exact Ec|]. exists c, g. auto. }
  rewrite (omap_map_some _ get).
  - cbn [of_option]. eexists. split; [reflexivity|]. split; [rewrite map_length; apply seq_length|]. intros i g c Hi Hc Hg. destruct (Get i c Hi Hc g Hg) as (x & X1 & X2 & X3).
    rewrite nth_error_map, nth_error_seq by exact Hi. cbn [option_map Nat.add]. unfold get. rewrite X2, X3, X1, Nat2Z.id. reflexivity.
  - intros i Hi. apply in_seq in Hi. destruct (Here i) as (c & g & Hc & Hg); [lia|]. destruct (Get i c ltac:(lia) Hc g Hg) as (x & X1 & X2 & X3). rewrite X2. cbn [obind]. rewrite X3. cbn [obind]. destruct (Z.ltb_spec (Z.of_nat x) 0); [lia|]. unfold get. rewrite X2, X3. reflexivity.
Qed.
Print Assumptions C84_map_file.
(* written by two processes, read by three *)
Example C84_map_file_inhabited : exists file, RDyForcingWriteMap [2; 0; 1] [[5; 6]; [7]] = Some file /\ RDyForcingReadSpatialMap [0; 1; 2] file 0 1 = Ret [6] /\ RDyForcingReadSpatialMap [0; 1; 2] file 1 1 = Ret [7] /\ RDyForcingReadSpatialMap [0; 1; 2] file 2 1 = Ret [5].
Proof.
  assert (P : numbers_cells [2; 0; 1] 3) by (unfold numbers_cells; cbn; eapply perm_trans; [apply perm_swap|]; apply perm_skip, perm_swap).
  destruct (C84_map_file [2; 0; 1] [0; 1; 2] 3 [[5; 6]; [7]] P) as (file & Hw & H); [unfold numbers_cells; reflexivity|reflexivity|cbn; intuition lia|]. exists file. split; [exact Hw|].
  assert (One : forall i g c x, i < 3 -> nth_error [0; 1; 2] i = Some c -> nth_error [2; 0; 1] g = Some c -> nth_error [5; 6; 7] g = Some x -> RDyForcingReadSpatialMap [0; 1; 2] file i 1 = Ret [x]).
  { intros i g c x Hi Hc Hg Hx. destruct (H i 1) as (m & Hm & Lm & G); [lia|]. specialize (G 0 g c). rewrite Nat.add_0_r in G. specialize (G ltac:(lia) Hc Hg). destruct m as [|y [|]]; cbn in Lm; try lia. cbn in G, Hx. rewrite Hm. congruence. }
  split; [apply (One 0 1 0 6); [lia|reflexivity..]|]. split; [apply (One 1 2 1 7); [lia|reflexivity..]|apply (One 2 0 2 5); [lia|reflexivity..]].
Qed.
(* Written where it is asked for, read from where it is asked for, as long as only one of the two is *)
Theorem C84_map_options_partial : forall a dir debug write read, within_limits a -> (a_str a write = None \/ a_str a read = None) ->
  let sp := map_options a dir debug write read in
  (forall f, a_str a write = Some f -> sp_write sp = true /\ sp_map_file sp = f) /\ (forall f, a_str a read = Some f -> sp_read sp = true /\ sp_map_file sp = f) /\
  (a_str a write = None -> sp_write sp = false) /\ (a_str a read = None -> sp_read sp = false).
Proof.
  intros a dir debug write read W O. unfold map_options. cbv zeta. cbn [sp_write sp_read sp_map_file]. rewrite !get_string by exact W. destruct (a_str a write) as [f|], (a_str a read) as [g|]; cbn [is_some or_else]; (split; [|split; [|split]]); intros; try congruence; try (split; congruence). destruct O; discriminate.
Qed.
Print Assumptions C84_map_options_partial.
Example C84_map_options_inhabited : let a := text "-raster_rain_write_map_file" "new" two_years in within_limits a /\ a_str a "-raster_rain_read_map_file" = None /\ a_str a "-raster_rain_write_map_file" = Some "new".
Proof. split; [apply limits_text; [cbn; lia|apply C84_rain_inhabited]|split; reflexivity]. Qed.

(* The map in use: the one in the file to be read, if there is one; otherwise each cell has the nearest cell of the raster (C45) or
   the nearest point.  It is written to the file to be written, if there is one and none is read. *)
Definition map_in_use (a : args) (fs : contents) (dm : domain) (write read : string) (made : list nat -> Prop) (m : list nat) (w : written) : Prop :=
  (a_str a read = None -> made m) /\
  (forall f, a_str a read = Some f -> exists file, fs f = Some file /\ RDyForcingReadSpatialMap (dm_num dm) file (dm_first dm) (length (dm_cells dm)) = Ret m) /\
  (a_str a write = None -> w = []) /\ (forall f, a_str a write = Some f -> a_str a read = None -> w = [(f, m)]).
Lemma spatial_map_in_use a fs dm write read sp made (P : list nat -> Prop) m w : map_asked a write read sp -> P made -> spatial_map fs dm sp made = Ret (m, w) -> map_in_use a fs dm write read P m w.
Proof.
  intros (A1 & A2 & A3 & A4) Hp H. unfold spatial_map in H. unfold map_in_use. rewrite A1, A2 in H. destruct (a_str a read) as [f|] eqn:Er; cbn [is_some] in H.
  - rewrite (A3 f eq_refl) in H. unfold load in H. destruct (fs f) as [file|] eqn:Ef; cbn [rbind] in H; [|discriminate]. destruct (RDyForcingReadSpatialMap _ _ _ _) as [m'| |] eqn:Em; cbn [rbind] in H; try discriminate. injection H as -> <-.
    split; [discriminate|]. split; [intros g Hg; injection Hg as <-; exists file; auto|]. split; [intros ->; reflexivity|discriminate].
  - cbn [rbind] in H. injection H as -> <-. split; [auto|]. split; [discriminate|]. split; [intros ->; reflexivity|]. intros f Hf _. rewrite (A4 f eq_refl Hf), Hf. reflexivity.
Qed.
Theorem C84_map_in_use_partial : forall a fs id_type junk bjunk dm s w b, within_limits a -> RDyCreateForcing a fs id_type junk bjunk dm = Ret (s, w, b) ->
  (forall dir y mo d h mi nc nr xc yc cs values, asks_rain a (Raster dir y mo d h mi) -> int nc -> int nr -> hourly_files fs id_type dir y mo d h mi 0 = Some (raster_file nc nr xc yc cs values) ->
    exists r n v, s = SRaster (hourly_files fs id_type dir y mo d h mi) r n v /\
      map_in_use a fs dm "-raster_rain_write_map_file" "-raster_rain_read_map_file" (fun m => forall i c q, nth_error (dm_cells dm) i = Some c -> In q (raster_points nc nr xc yc cs) -> (dist_to (fst c) (snd c) q < INR (Nat.max nc nr + 1) * cs)%R ->
        exists p, nth_error m i = Some p /\ first_nearest (raster_points nc nr xc yc cs) (fst c) (snd c) p) (ra_map r) w) /\
  (forall dir mesh y mo d h mi pts, asks_rain a (Points dir mesh y mo d h mi) -> pts <> [] -> int (length pts) -> fs mesh = Some (point_file pts) ->
    exists u n v, s = SUnstructured (hourly_files fs id_type dir y mo d h mi) u n v /\
      map_in_use a fs dm "-unstructured_rain_write_map_file" "-unstructured_rain_read_map_file" (fun m => forall i c, nth_error (dm_cells dm) i = Some c -> exists p, nth_error m i = Some p /\ first_nearest pts (fst c) (snd c) p) (un_map u) w).
Proof.
  intros a fs id junk bjunk dm s w b W E. unfold RDyCreateForcing in E. assert (Rr := C84_rain a W).
  destruct (RDyForcingParseRainfallDataOptions a) as [d| |] eqn:Ed; cbn [rbind] in E; try discriminate. destruct Rr as (_ & Rr). destruct (rain_details a d W Ed) as ((Z1 & Z2) & M1 & M2).
  destruct (open_source fs id junk dm d) as [sw| |] eqn:Es; cbn [rbind] in E; try discriminate. assert (sw = (s, w)) as ->.
  { destruct (RDyForcingParseBoundaryDataOptions a) as [q| |]; cbn [rbind] in E; try discriminate. destruct (open_boundary fs id bjunk dm q) as [bf| |]; cbn [rbind] in E; try discriminate. injection E as -> _. reflexivity. }
  clear E. unfold open_source in Es. unfold understood in Rr. split.
  - intros dir y mo dd h mi nc nr xc yc cs values A Ci Ni F0. destruct (ds_type d); try (assert (X := one_is _ _ _ Rr A); discriminate). unfold numbers in Rr. assert (X := one_is _ _ _ Rr A). injection X as -> -> -> -> -> ->.
    unfold hourly_files in *. rewrite same_date in * by exact Z1. rewrite (open_raster_file (dated_files fs id (ds_raster d)) nc nr xc yc cs (dm_cells dm) values Ci Ni F0) in Es. cbn [rbind ra_map] in Es.
    destruct (spatial_map fs dm (ds_raster d) _) as [(m, w')| |] eqn:Em; cbn [rbind fst snd] in Es; try discriminate. injection Es as <- <-. eexists _, _, _. split; [reflexivity|]. cbn [set_raster_map ra_map].
    eapply spatial_map_in_use; [exact M1| |exact Em]. intros i c q Hc Iq Dq. exact (C45_raster_nearest_partial nc nr xc yc cs (dm_cells dm) i c q Hc Iq Dq).
  - intros dir mesh y mo dd h mi pts A Np Ni Fm. destruct (ds_type d); try (assert (X := one_is _ _ _ Rr A); discriminate). unfold numbers in Rr. assert (X := one_is _ _ _ Rr A). injection X as -> -> -> -> -> -> ->.
    unfold hourly_files in *. rewrite same_date in * by exact Z2. destruct (OpenUnstructured _ 1 no_points []); cbn [rbind] in Es; try discriminate. unfold load in Es. rewrite Fm in Es. cbn [rbind] in Es.
    destruct (OpenUnstructured _ 1 (point_file pts) (dm_cells dm)) as [u| |] eqn:O; cbn [rbind] in Es; try discriminate.
    destruct (spatial_map fs dm (ds_unstructured d) _) as [(m, w')| |] eqn:Em; cbn [rbind fst snd] in Es; try discriminate. injection Es as <- <-. eexists _, _, _. split; [reflexivity|]. cbn [set_unstructured_map un_map].
    eapply spatial_map_in_use; [exact M2| |exact Em]. intros i c Hc. destruct (open_unstructured _ _ _ _ _ _ O (read_points pts Ni) Np) as (_ & _ & _ & _ & _ & _ & Em'). destruct (C45_unstructured_nearest pts (dm_cells dm) Np) as (m2 & Em2 & _ & Hm). rewrite Em' in Em2. injection Em2 as <-. exact (Hm i c Hc).
Qed.
Print Assumptions C84_map_in_use_partial.
Example C84_map_in_use_inhabited : asks_rain at_points (Points "rain" "mesh" 2026 11 16 17 30) /\ point_files "mesh" = Some (point_file [(0, 0)]%R) /\ exists s w b, RDyCreateForcing at_points point_files "int32" (fun _ => false) (fun _ => false) plain_domain = Ret (s, w, b).
Proof. split; [apply at_points_rain; reflexivity|]. split; [reflexivity|]. destruct C84_run_points as (s & w & b & _ & _ & E & _). exists s, w, b. exact E. Qed.

(** ** Where the options do not do what they say *)
(* A map to be read and a map to be written: both options name the same buffer.  The map read is written to the file it was read
   from; the file asked for is not written. *)
Theorem C84_two_map_files_refuted : exists a d, within_limits a /\ a_str a "-raster_rain_write_map_file" = Some "new" /\ a_str a "-raster_rain_read_map_file" = Some "old" /\ RDyForcingParseRainfallDataOptions a = Ret d /\ ds_type d = RASTER /\
  forall fs dm made m w, spatial_map fs dm (ds_raster d) made = Ret (m, w) -> w = [("old", m)].
Proof.
  exists (text "-raster_rain_write_map_file" "new" (text "-raster_rain_read_map_file" "old" two_years)). eexists. split; [apply limits_text; [cbn; lia|]; apply limits_text; [cbn; lia|]; apply C84_rain_inhabited|]. split; [reflexivity|]. split; [reflexivity|]. split; [reflexivity|]. split; [reflexivity|].
  intros fs dm made m w. unfold spatial_map. cbn [ds_raster sp_read sp_write sp_map_file]. change (sp_read _) with true. change (sp_write _) with true. change (sp_map_file _) with "old".
  destruct (load fs "old") as [f| |]; cbn [rbind]; try discriminate. destruct (RDyForcingReadSpatialMap _ _ _ _) as [m'| |]; cbn [rbind]; try discriminate. intros E. injection E as <- <-. reflexivity.
Qed.
Print Assumptions C84_two_map_files_refuted.
Lemma open_same fs id junk dm ty rate file interp ra sp sp' multi : sp_dir sp' = sp_dir sp -> sp_mesh_file sp' = sp_mesh_file sp -> sp_date sp' = sp_date sp ->
  open_boundary fs id junk dm (Dataset ty rate file interp ra sp' multi) = open_boundary fs id junk dm (Dataset ty rate file interp ra sp multi).
Proof. intros E1 E2 E3. unfold open_boundary, dated_files. cbn [ds_type ds_file ds_interp ds_multi ds_unstructured]. rewrite E1, E2, E3. reflexivity. Qed.
(* Map files of boundary data are neither read nor written: the options change nothing. *)
Theorem C84_boundary_map_file_refuted : forall a f g fs id_type junk bjunk dm,
  RDyCreateForcing (text "-unstructured_bc_read_map_file" f (text "-unstructured_bc_write_map_file" g a)) fs id_type junk bjunk dm = RDyCreateForcing a fs id_type junk bjunk dm.
Proof.
  intros a f g fs id junk bjunk dm. set (a' := text "-unstructured_bc_read_map_file" f (text "-unstructured_bc_write_map_file" g a)).
  assert (B : (let! d := RDyForcingParseBoundaryDataOptions a' in open_boundary fs id bjunk dm d) = let! d := RDyForcingParseBoundaryDataOptions a in open_boundary fs id bjunk dm d).
  { assert (G : forall n, n <> "-unstructured_bc_read_map_file" -> n <> "-unstructured_bc_write_map_file" -> GetString a' n = GetString a n).
    { intros n N1 N2. unfold GetString. f_equal. unfold a'. cbn [a_str text]. destruct (String.eqb_spec n "-unstructured_bc_read_map_file"); [contradiction|]. destruct (String.eqb_spec n "-unstructured_bc_write_map_file"); [contradiction|reflexivity]. }
    unfold RDyForcingParseBoundaryDataOptions, homogeneous_option, unstructured_option, multi_option. cbv zeta. set (sp := map_options a _ _ _ _). set (sp' := map_options a' _ _ _ _).
    assert (P1 : sp_dir sp' = sp_dir sp) by (unfold sp, sp', map_options; cbn [sp_dir]; rewrite G by discriminate; reflexivity). assert (P2 : sp_mesh_file sp' = sp_mesh_file sp) by reflexivity. assert (P3 : sp_date sp' = sp_date sp) by reflexivity.
    rewrite !G by discriminate. change (GetIntArray a') with (GetIntArray a). change (GetStringArray a') with (GetStringArray a). change (a_bool a') with (a_bool a). clearbody sp sp'. clear G.
    generalize (GetString a "-homogeneous_bc_file") (GetIntArray a (n_date bc_names) 5) (GetString a (n_dir bc_names)) (GetString a (n_mesh bc_names)) (GetStringArray a "-homogeneous_bc_files" MAX_DATASETS) (GetIntArray a "-homogeneous_bc_region_ids" MAX_DATASETS) (a_bool a "-temporally_interpolate_bc").
    clear a'. intros o1 o2 o3 o4 o5 o6 o7. destruct o1, o2 as [l|]; cbn [rbind check fst snd];
      try (destruct (Nat.eqb (length l) 5); cbn [check rbind]; [|reflexivity]; destruct (is_some o3); cbn [check rbind]; [|reflexivity]; destruct (is_some o4); cbn [check rbind]; [|reflexivity];
       destruct (date_of l); cbn [of_option rbind]; [|reflexivity]);
      (destruct (Bool.eqb _ _); cbn [check rbind]; [|reflexivity]); destruct o5 as [fl|], o6 as [il|]; cbn [rbind];
      try (destruct (Nat.eqb (length fl) (length il)); cbn [check rbind]; [|reflexivity]; destruct (rmap strcpy fl); cbn [rbind]; try reflexivity);
      unfold chosen, with_type, initial; cbn [fst snd Nat.leb check rbind ds_type ds_rate ds_file ds_interp ds_raster ds_unstructured ds_multi]; try reflexivity; apply open_same; assumption || reflexivity. }
  unfold RDyCreateForcing. change (RDyForcingParseRainfallDataOptions a') with (RDyForcingParseRainfallDataOptions a).
  destruct (RDyForcingParseRainfallDataOptions a) as [d| |]; cbn [rbind]; try reflexivity. destruct (open_source fs id junk dm d) as [s| |]; cbn [rbind]; try reflexivity.
  destruct (RDyForcingParseBoundaryDataOptions a') as [d1| |], (RDyForcingParseBoundaryDataOptions a) as [d2| |]; cbn [rbind] in B |- *; rewrite ?B; try reflexivity; try discriminate; rewrite <- ?B; reflexivity.
Qed.
Print Assumptions C84_boundary_map_file_refuted.
(* A directory without a start date: the program goes on without rain, and without a message. *)
Theorem C84_no_start_date_refuted : exists a d, within_limits a /\ a_str a "-raster_rain_dir" = Some "rain" /\ a_str a "-unstructured_rain_dir" = Some "rain" /\ RDyForcingParseRainfallDataOptions a = Ret d /\ understood d = Nothing.
Proof.
  exists (text "-raster_rain_dir" "rain" (text "-unstructured_rain_dir" "rain" no_args)). eexists. split; [apply limits_text; [cbn; lia|]; apply limits_text; [cbn; lia|]; apply limits_none|]. split; [reflexivity|]. split; [reflexivity|]. split; reflexivity.
Qed.
Print Assumptions C84_no_start_date_refuted.
(* A date with a number too many is accepted. *)
Theorem C84_long_date_refuted : exists a d, a_ints a "-raster_rain_start_date" = Some [2026; 11; 16; 17; 30; 59]%Z /\ RDyForcingParseRainfallDataOptions a = Ret d /\ understood d = Raster "rain" 2026 11 16 17 30.
Proof. exists (text "-raster_rain_dir" "rain" (integers "-raster_rain_start_date" [2026; 11; 16; 17; 30; 59]%Z no_args)). eexists. split; [reflexivity|]. split; reflexivity. Qed.
Print Assumptions C84_long_date_refuted.
(* Regions beyond the twentieth are left without rain. *)
Theorem C84_many_regions_refuted : forall fs ids, 20 < length fs -> length ids = length fs -> (forall f, In f fs -> short f) ->
  exists d, RDyForcingParseRainfallDataOptions (texts "-homogeneous_rain_files" fs (integers "-homogeneous_rain_region_ids" ids no_args)) = Ret d /\ ds_type d = MULTI_HOMOGENEOUS /\ length (ds_multi d) = 20.
Proof.
  intros fs ids Lf Li S. unfold RDyForcingParseRainfallDataOptions. cbv zeta. cbn [rbind raster_option unstructured_option map_options GetIntArray GetString]. cbn -[multi_option]. unfold multi_option, GetStringArray, GetIntArray. cbn -[firstn rmap strcpy combine MAX_DATASETS length Nat.eqb]. unfold MAX_DATASETS.
  rewrite !firstn_length_le by lia. cbn [Nat.eqb check]. rewrite copy_names by (intros s Hs; apply S; rewrite <- (firstn_skipn 20 fs); apply in_or_app; left; exact Hs). cbn [rbind]. eexists. split; [reflexivity|]. split; [reflexivity|].
  cbn [ds_multi fst with_type chosen]. rewrite combine_length, !firstn_length_le by lia. reflexivity.
Qed.
Print Assumptions C84_many_regions_refuted.
(* The name of a file for a region is copied without a look at its length *)
Theorem C84_long_name_refuted : forall f, ~ short f -> RDyForcingParseRainfallDataOptions (texts "-homogeneous_rain_files" [f] (integers "-homogeneous_rain_region_ids" [1]%Z no_args)) = UB.
Proof.
  intros f H. unfold RDyForcingParseRainfallDataOptions. cbv zeta. cbn -[multi_option]. unfold multi_option, GetStringArray, GetIntArray. cbn -[strcpy]. unfold strcpy. unfold short in H. destruct (Nat.ltb_spec (String.length f) (Z.to_nat PETSC_MAX_PATH_LEN)); [contradiction|reflexivity].
Qed.
Print Assumptions C84_long_name_refuted.
(* With a record for each region, the option for interpolation has no effect: whether values between two times of a record are
   interpolated depends on what the memory held before. *)
Definition one_region : args := yes "-temporally_interpolate_spatially_homogeneous_rain" (texts "-homogeneous_rain_files" ["tide.bin"] (integers "-homogeneous_rain_region_ids" [1]%Z no_args)).
Theorem C84_interpolation_refuted : within_limits one_region /\ forall dm, exists h h',
  open_source tide_files "int32" (fun _ => true) dm (match RDyForcingParseRainfallDataOptions one_region with Ret d => d | _ => fst (initial None) end) = Ret (SMultiHomogeneous [(h, 1%Z)], []) /\
  open_source tide_files "int32" (fun _ => false) dm (match RDyForcingParseRainfallDataOptions one_region with Ret d => d | _ => fst (initial None) end) = Ret (SMultiHomogeneous [(h', 1%Z)], []) /\
  RDyForcingGetCurrentData (h_data h) (h_ndata h) 5 (h_interp h) = Some (0%Z, (3 / 2)%R) /\ RDyForcingGetCurrentData (h_data h') (h_ndata h') 5 (h_interp h') = Some (0%Z, 1%R).
Proof.
  split. { destruct (limits_texts "-homogeneous_rain_files" ["tide.bin"] _ ltac:(cbn; lia) ltac:(intros s [<-|[]]; cbn; lia) (limits_integers "-homogeneous_rain_region_ids" [1]%Z no_args ltac:(cbn; lia) limits_none)) as (A & B & C & D). split; [exact A|]. split; [exact B|]. split; [exact C|exact D]. }
  intros dm. eexists _, _. split; [reflexivity|]. split; [reflexivity|].
  assert (Inc : increasing tide) by (intros [|[|i]] p q Hp Hq; cbn in Hp, Hq; try discriminate; injection Hp as <-; injection Hq as <-; cbn; lra).
  assert (P : forall b, RDyForcingGetCurrentData (interleaved tide) (num_samples (interleaved tide)) 5 b = Some (0%Z, if b then (3 / 2)%R else 1%R)).
  { intros b. rewrite num_samples_interleaved. destruct (current_data_spec tide 5 b ltac:(discriminate)) as (i & v & E & [(p & q & Hp & Hq & Ht & ->)|(Ei & _ & N)]).
    - rewrite E. destruct i as [|[|i]]; cbn in Hp, Hq; try discriminate. injection Hp as <-. injection Hq as <-. cbn [fst snd]. destruct b; [|reflexivity]. do 2 f_equal. field.
    - exfalso. apply (N 0 (0, 1)%R (10, 2)%R); [reflexivity|reflexivity|cbn; lra]. }
  split; [exact (P true)|exact (P false)].
Qed.
Print Assumptions C84_interpolation_refuted.

(** ** C47: files on another grid *)
(* When the next file of a raster is due and its grid is not the one of the first file, the run stops with an error
   message and the rain is not changed. *)
Theorem C47_other_grid_rejected : forall fs nc nr x y s f m nc' nr' x' y' s' values t n rain, int nc' -> int nr' ->
  let r := ForcingModel.Raster (Z.of_nat nc) (Z.of_nat nr) x y s f m in
  (INR (f_count f) * 3600 <= t)%R -> fs (f_count f) = Some (raster_file nc' nr' x' y' s' values) ->
  (RDyForcingSetRasterData fs r t n rain = Err (r, rain) <-> (nc', nr', x', y', s') <> (nc, nr, x, y, s)).
Proof.
  intros fs nc nr x y s f m nc' nr' x' y' s' values t n rain C N r T F. unfold RDyForcingSetRasterData, next_file. cbn [ra_file r].
  replace (INR (f_count f) * 1 <=? t / 3600)%R with true.
  2: { symmetry. unfold Rleb. destruct (Rle_dec (INR (f_count f) * 1) (t / 3600)) as [|NL]; [reflexivity|]. exfalso. apply NL. lra. }
  rewrite F. unfold same_header, raster_file. cbn [app nth_error obind]. rewrite !int_INR by assumption. cbn [obind r ra_ncols ra_nrows ra_xlc ra_ylc ra_cellsize].
  assert (Q : forall a b : R, Reqb a b = true <-> a = b) by (intros a b; unfold Reqb; destruct (Req_EM_T a b); split; congruence).
  assert (E : (Z.eqb (Z.of_nat nc') (Z.of_nat nc) && Z.eqb (Z.of_nat nr') (Z.of_nat nr) && Reqb x' x && Reqb y' y && Reqb s' s)%bool = true <-> (nc', nr', x', y', s') = (nc, nr, x, y, s)).
  { rewrite !Bool.andb_true_iff, !Z.eqb_eq, !Q. split.
    - intros ((((A & B) & ->) & ->) & ->). apply Nat2Z.inj in A, B. subst. reflexivity.
    - intros [= -> -> -> -> ->]. auto 10. }
  destruct (_ && _)%bool.
  - split; [|intros H; exfalso; apply H, E; reflexivity]. intros H. exfalso. revert H. unfold defined. destruct (let* vs := _ in _); discriminate.
  - split; [|reflexivity]. intros _ H. apply E in H. discriminate.
Qed.
Print Assumptions C47_other_grid_rejected.
Example C47_other_grid_example : let fs := fun k => Some (raster_file 1 1 0 0 (if Nat.eqb k 0 then 10 else 20) [5]%R) in
  exists r, OpenRaster fs [(5, 5)%R] = Ret r /\ RDyForcingSetRasterData fs r 3600 1 [Some 0%R] = Err (r, [Some 0%R]).
Proof.
  cbv zeta. eexists. assert (I1 : int 1) by (unfold int; lia). split; [apply (open_raster_file _ 1 1 0 0 10 _ [5]%R); auto|].
  apply C47_other_grid_rejected with (nc' := 1) (nr' := 1) (x' := 0%R) (y' := 0%R) (s' := 20%R) (values := [5]%R); auto.
  - cbn. lra.
  - intros E. injection E as E. lra.
Qed.
(* The next file of unstructured data is not checked: one with fewer points is read beyond its end. *)
Theorem C47_other_points_refuted : exists fs u, OpenUnstructured fs 1 [2; 2; 0; 0; 5; 0]%R [(5, 0)%R] = Ret u /\
  fs 0 = Some [2; 1; 7; 8]%R /\ fs 1 = Some [1; 1; 7]%R /\
  RDyForcingSetUnstructuredData fs u 0 [Some 0%R] = Ok (u, [Some 8%R]) /\ RDyForcingSetUnstructuredData fs u 3600 [Some 0%R] = Undef.
Proof.
  exists (fun k => Some (if Nat.eqb k 0 then [2; 1; 7; 8]%R else [1; 1; 7]%R)), (Unstructured 1 (Hourly [2; 1; 7; 8]%R 1) [1]).
  split; [|split; [reflexivity|split; [reflexivity|split]]].
  - unfold OpenUnstructured. cbn [nth_error obind Nat.eqb]. rewrite (int_of_IZR 1), (int_of_IZR 2) by lia. cbn [of_option rbind Z.eqb]. cbn [length Z.of_nat Pos.of_succ_nat]. change (Z.eqb (Z.quot _ _) 2) with true. cbn [check].
    unfold ReadUnstructuredDatasetCoordinates. cbn [nth_error obind]. rewrite (int_of_IZR 2) by lia. cbn [of_option rbind check Z.eqb Pos.eqb]. change (Z.to_nat 2) with 2. cbn [seq omap nth_error Nat.mul Nat.add obind of_option rbind].
    destruct (C45_unstructured_nearest [(0, 0); (5, 0)]%R [(5, 0)]%R) as (m & -> & Lm & Hm); [discriminate|]. cbn [of_option rbind]. do 2 f_equal. destruct m as [|k [|]]; try (cbn in Lm; lia). f_equal.
    destruct (Hm 0 (5, 0)%R eq_refl) as (k' & [= <-] & p & Hp & Hmin). destruct k as [|[|k]]; [exfalso|reflexivity|destruct k; discriminate]. injection Hp as <-.
    destruct (Hmin 1 (5, 0)%R eq_refl) as (H & _). unfold dist_to, distance in H. cbn [fst snd] in H. apply sqrt_le_0 in H; lra.
  - unfold RDyForcingSetUnstructuredData, next_file. cbn [un_file f_count]. destruct (Rleb _ _) eqn:E; [exfalso; apply Rleb_true in E; cbn in E; lra|]. reflexivity.
  - unfold RDyForcingSetUnstructuredData, next_file. cbn [un_file f_count]. destruct (Rleb _ _) eqn:E; [reflexivity|]. exfalso. unfold Rleb in E. destruct (Rle_dec _ _) as [|NL]; [discriminate|]. apply NL. cbn. lra.
Qed.
Print Assumptions C47_other_points_refuted.
