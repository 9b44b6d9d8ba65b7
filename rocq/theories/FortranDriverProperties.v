(** C76: the forcing of the Fortran driver (driver/main.F90). *)
From Coq Require Import ZArith String Ascii Permutation.
From Verif Require Import Base MeshMapsModel MeshMapsProofs DataModel DataProofs DataProperties SetupModel ConfigModel TimeModel OutputModel OutputProofs CalendarModel CalendarProperties
  ForcingModel ForcingProofs ForcingProperties ForcingRunProperties CheckpointModel CheckpointProperties FortranDriverModel FortranDriverSpec FortranDriverProofs.
Local Notation length := List.length.
Local Notation concat := List.concat.
Local Open Scope R_scope.
Local Open Scope nat_scope.

(** ** Time series *)
(* The value taken from a record at a time is that of the record, and the one of the library (C44) *)
Theorem C76_time_series : forall l interp t, l <> [] ->
  exists i v, getcurrentdata (interleaved l) (num_samples (interleaved l)) t interp = Some (i, v) /\ (increasing l -> forall w, sampled l interp t w -> v = w) /\
    RDyForcingGetCurrentData (interleaved l) (num_samples (interleaved l)) t interp = Some ((i - 1)%Z, v).
Proof.
  intros l interp t N. rewrite num_samples_interleaved. rewrite getcurrentdata_C by (destruct l; [contradiction|discriminate]). destruct (current_data_spec l t interp N) as (k & v & E & _). rewrite E. cbn [obind fst snd]. eexists. eexists. split; [reflexivity|]. split.
  - intros I w Hw. exact (sampled_current l interp t _ v w N I E Hw).
  - apply f_equal, (f_equal2 pair); [lia|reflexivity].
Qed.
Print Assumptions C76_time_series.
Example C76_time_series_inhabited : exists i, getcurrentdata (interleaved demo_record) 3 15 true = Some (i, 5%R).
Proof.
  destruct (C76_time_series demo_record true 15 ltac:(discriminate)) as (i & v & E & H & _). rewrite num_samples_interleaved in E. exists i. rewrite <- (H demo_record_increasing 5%R (proj1 C44_inhabited)). exact E.
Qed.

(** ** Dates and names *)
Fixpoint increments (k : nat) (d : time_struct) : option time_struct := match k with 0 => Some d | S k => let* e := increments k d in IncrementDateByOneHour e end.
(* The file opened k hours after the first one has the name with the date k hours later: the same name as in the C
   program (C60).  Missing: 29 February (below), years before 1000 and after 9999. *)
Theorem C76_file_names_partial : forall id_type dir start K k e, findable id_type dir start K -> k <= K -> later (3600 * k) start e ->
  (let! d := of_option (increments k (time_of start)) in DetermineDatasetFilename dir d id_type) = Ret (hourly_name dir id_type e) /\
  snd (forcing_file (tm_of start) dir id_type k) = hourly_name dir id_type e.
Proof.
  intros id dir start K k e F Hk L. assert (E : increments k (time_of start) = Some (time_of e)).
  { revert e L. induction k as [|k IH]; intros e L.
    - destruct F as (V & _). assert (L0 : later (3600 * 0) start start) by (rewrite Nat.mul_0_r; constructor). rewrite <- (later_unique _ _ _ _ V L0 L). reflexivity.
    - cbn [increments]. assert (V := proj1 F). destruct (later_exists (3600 * k) start V) as (f & Lf). rewrite (IH ltac:(lia) f Lf). cbn [obind]. destruct (next_date _ _ _ _ _ _ F Hk Lf) as (e' & L' & ->). rewrite (later_unique _ _ _ _ V L L'). reflexivity. }
  rewrite E. cbn [of_option rbind]. split; [eapply dated_name; eassumption|]. destruct F as (V & S0 & B & G). destruct (G k e Hk L) as (Y & _). destruct (later_spec _ _ _ V L) as (Ve & _).
  rewrite (forcing_files _ dir id k e V L). apply snprintf_fits. rewrite name_length by assumption. unfold PETSC_MAX_PATH_LEN. lia.
Qed.
Print Assumptions C76_file_names_partial.
(* In a leap year the hour after 28 February 23h is not on 29 February but on 1 March; no file of 29 February is ever opened *)
Theorem C76_leap_day_refuted :
  (forall y mi s, (400 <= y)%Z -> leap_year y -> (0 <= mi <= 59)%Z -> (0 <= s <= 59)%Z ->
    later 3600 (Date y 2 28 23 mi s) (Date y 2 29 0 mi s) /\ IncrementDateByOneHour (time_of (Date y 2 28 23 mi s)) = Some (time_of (Date y 3 1 0 mi s))) /\
  (forall d e, (400 <= t_year d)%Z -> IncrementDateByOneHour d = Some e -> t_month e = 2%Z -> t_day e = 29%Z -> t_month d = 2%Z /\ t_day d = 29%Z).
Proof.
  split.
  - intros y mi s Y Ly Bm Bs.
    assert (V : valid_date (Date y 2 28 23 mi s)) by (split; [cbn; lia|]; split; [exists 29%Z; split; [apply feb_leap; exact Ly|cbn; lia]|cbn; lia]).
    assert (W : valid_date (Date y 2 29 0 mi s)) by (split; [cbn; lia|]; split; [exists 29%Z; split; [apply feb_leap; exact Ly|cbn; lia]|cbn; lia]).
    split.
    + destruct (later_exists 3600 _ V) as (e & L). assert (E : Date y 2 29 0 mi s = e).
      { eapply later_is; [exact V|exact L|exact W|]. rewrite !hour_parts. change (Z.of_nat 3600) with 3600%Z. unfold day_number. lia. }
      rewrite E. exact L.
    + destruct (day_of_month_spec y 2 29 (feb_leap y Ly) Y) as (n & E & Hn). unfold IncrementDateByOneHour, time_of. cbn [t_year t_month t_day t_hour t_minute year month day hour minute]. cbn [Z.add Z.eqb Pos.add Pos.eqb Pos.succ Pos.add_carry]. rewrite E. cbn [obind].
      assert (n = 28%Z). { unfold day_of_month in E. cbn [existsb Z.eqb Pos.eqb orb] in E. rewrite Z.quot_div_nonneg, Z.quot_div_nonneg, Z.quot_div_nonneg in E by lia.
        assert (1 <= y / 400)%Z by (apply Z.div_le_lower_bound; lia). assert (1 <= y / 4)%Z by (apply Z.div_le_lower_bound; lia). destruct (Z.eqb_spec (y / 400) 0); [lia|]. destruct (Z.eqb_spec (y / 4) 0); [lia|]. cbn in E. congruence. }
      subst n. reflexivity.
  - intros d e Y E M D. unfold IncrementDateByOneHour in E. destruct (Z.eqb_spec (t_hour d + 1) 24) as [H|H].
    + destruct (day_of_month (t_year d) (t_month d)) as [n|] eqn:En; [|discriminate]. cbn [obind] in E. destruct (Z.ltb_spec n (t_day d + 1)) as [B|B].
      * destruct (12 <? t_month d + 1)%Z; injection E as <-; cbn in M, D; lia.
      * injection E as <-. cbn in M, D. exfalso. rewrite M in En. unfold day_of_month in En. cbn [existsb Z.eqb Pos.eqb orb] in En. rewrite Z.quot_div_nonneg, Z.quot_div_nonneg, Z.quot_div_nonneg in En by lia.
        assert (1 <= t_year d / 400)%Z by (apply Z.div_le_lower_bound; lia). assert (1 <= t_year d / 4)%Z by (apply Z.div_le_lower_bound; lia). destruct (Z.eqb_spec (t_year d / 400) 0); [lia|]. destruct (Z.eqb_spec (t_year d / 4) 0); [lia|]. cbn in En. injection En as <-. lia.
    + injection E as <-. cbn in M, D. auto.
Qed.
Print Assumptions C76_leap_day_refuted.

(** ** Runs *)
(* After the turn of the loop at the time [t], every cell of the mesh has the rain the options prescribe for that time and every
   edge of the Dirichlet boundary the prescribed values; nothing else has changed.  Missing (see the refutations below): rain
   with several regions, hourly files with steps of more than an hour or with a time unit other than seconds, 29 February,
   cells far from the raster, map files. *)
Theorem C76_forcing_partial : forall fs id_type ro bo u K mesh bcs b edges st times t, set_up st -> boundaries_of st = Some bcs ->
  rain_data fs id_type K mesh ro -> bc_data fs id_type K bo -> length mesh = r_owned st -> (ro = RainUnset \/ whole_domain st) -> (bo = BCUnset \/ only_dirichlet st b edges) ->
  (hourly_rain ro \/ hourly_bc bo -> u = SECONDS /\ in_step None (times ++ [t]) /\ (t < 3600 * INR (S K))%R) ->
  exists st', fortran_driver fs id_type ro bo u mesh (map fst bcs) (Z.of_nat (S b)) edges st (times ++ [t]) = Ret st' /\
    (forall cell c v, nth_error mesh cell = Some c -> meant_rain fs id_type u t c ro v -> value st' (Source cell 0) = Some v) /\
    (forall e c k v, nth_error edges e = Some c -> meant_bc fs id_type u t c k bo v -> value st' (BoundaryValue b e k) = Some v) /\
    (forall x, (ro = RainUnset \/ forall cell, x <> Source cell 0) -> (bo = BCUnset \/ forall e k, k < 3 -> x <> BoundaryValue b e k) -> value st' x = value st x).
Proof.
  intros fs id ro bo u K mesh bcs b edges st times t U Hb Rd Bd Lm W O H. destruct (rain_created fs id K mesh ro Rd) as (s & Es & Ok). destruct (bc_created fs id K b edges st bcs bo U Hb O Bd) as (q & Eq & Bk).
  destruct (run_forced fs id K mesh b edges ro bo u times st s q None t U W Lm) as (st' & r & E & U' & P' & V1 & V2 & V3); [|exact Ok|exact Bk|exact H|].
  - destruct O as [O|O]; [left; exact O|right; exact (proj2 O)].
  - exists st'. unfold fortran_driver. rewrite Es. cbn [rbind]. rewrite Eq. cbn [rbind]. rewrite E. cbn [rbind fst]. auto.
Qed.
Print Assumptions C76_forcing_partial.
(* Two Dirichlet boundaries, or none on any process, stop the program before the first step *)
Theorem C76_one_boundary : forall bcs global,
  ((exists i j ni nj, i <> j /\ nth_error bcs i = Some (CONDITION_DIRICHLET, ni) /\ nth_error bcs j = Some (CONDITION_DIRICHLET, nj)) \/ global = (-1)%Z) ->
  forall fs id_type filename interp ro u mesh edges st times, (exists s, CreateRainfallConditionDataset fs id_type ro mesh = Ret s) -> fs filename <> None ->
    fortran_driver fs id_type ro (BCHomogeneous filename interp) u mesh bcs global edges st times = Error.
Proof.
  intros bcs global H fs id filename interp ro u mesh edges st times (s & Es) Hf. unfold fortran_driver. rewrite Es. cbn [rbind CreateBoundaryConditionDataset]. unfold opendata. destruct (fs filename) as [d|]; [|contradiction]. cbn [rbind].
  assert (Stay : forall l i idx n, snd (fortran_find l i (idx, n, true)) = true). { induction l as [|(ty, ne) l IH]; intros i idx n; [reflexivity|]. cbn [fortran_find]. destruct (is_dirichlet ty); [|apply IH]. destruct (-1 <? idx)%Z; apply IH. }
  assert (Second : forall l i idx n k nk m, (-1 < idx)%Z -> (-1 < i)%Z -> nth_error l k = Some (CONDITION_DIRICHLET, nk) -> snd (fortran_find l i (idx, n, m)) = true).
  { induction l as [|(ty, ne) l IH]; intros i idx n k nk m Hi Hii Hk; [destruct k; discriminate|]. cbn [fortran_find]. destruct k as [|k].
    - injection Hk as -> ->. cbn [is_dirichlet]. destruct (Z.ltb_spec (-1) idx); [apply Stay|lia].
    - destruct (is_dirichlet ty); eapply IH; try eassumption; lia. }
  assert (Two : forall l i a c na nc idx n m, (-1 < i)%Z -> a < c -> nth_error l a = Some (CONDITION_DIRICHLET, na) -> nth_error l c = Some (CONDITION_DIRICHLET, nc) -> snd (fortran_find l i (idx, n, m)) = true).
  { induction l as [|(ty, ne) l IH]; intros i a c na nc idx n m Hi Hac Ha Hc; [destruct a; discriminate|]. cbn [fortran_find]. destruct c as [|c]; [lia|]. destruct a as [|a].
    - injection Ha as -> ->. cbn [is_dirichlet]. eapply Second; try eassumption; lia.
    - destruct (is_dirichlet ty); apply (IH _ a c na nc); try assumption; lia. }
  unfold DoPostprocessForBoundary, FortranFindDirichletBCID. destruct (fortran_find bcs 1 ((-1)%Z, 0, false)) as ((idx, n), m) eqn:E. destruct m; [reflexivity|]. destruct H as [(i & j & ni & nj & Nij & Hi & Hj)| ->]; [exfalso|reflexivity].
  assert (X : snd (fortran_find bcs 1 ((-1)%Z, 0, false)) = true).
  { destruct (Nat.lt_ge_cases i j); [apply (Two bcs 1%Z i j ni nj); auto; lia|apply (Two bcs 1%Z j i nj ni); auto; lia]. }
  rewrite E in X. discriminate.
Qed.
Print Assumptions C76_one_boundary.
Example C76_one_boundary_inhabited : fortran_driver (fun _ => Some (interleaved demo_record)) "int32" RainUnset (BCHomogeneous "stage" false) SECONDS [] [(CONDITION_DIRICHLET, 2); (CONDITION_REFLECTING, 3); (CONDITION_DIRICHLET, 4)] 3 [] plain [0%R] = Error.
Proof. apply C76_one_boundary; [left; exists 0, 2, 2, 4; split; [lia|split; reflexivity]|eexists; reflexivity|discriminate]. Qed.

(** ** Map files *)
Lemma omap_map_some {A B} (f : A -> option B) (g : A -> B) l : (forall a, In a l -> f a = Some (g a)) -> omap f l = Some (map g l).
Proof. induction l as [|a l IH]; intros H; [reflexivity|]. cbn [omap map]. rewrite H by (left; reflexivity). cbn [obind]. rewrite IH by (intros x Hx; apply H; right; exact Hx). reflexivity. Qed.
(* A map written by any number of processes and read by one process, which may number the cells in another way: each cell gets
   the number that was written for it. *)
Theorem C76_map_file : forall num num' cells parts, numbers_cells num cells -> numbers_cells num' cells -> length (concat parts) = cells -> (forall z, In z (concat parts) -> (0 <= z < 2 ^ 31)%Z) ->
  exists file m, WriteMap num parts = Some file /\ ReadRainfallDatasetMap num' file 0 cells = Ret m /\ length m = cells /\
    forall g g' i, nth_error num g = Some i -> nth_error num' g' = Some i -> nth_error m g' = nth_error (concat parts) g.
Proof.
  intros num num' cells parts Hn Hn' L B. destruct (numbers_NoDup num cells Hn) as (N1 & N2 & N3). destruct (numbers_NoDup num' cells Hn') as (N1' & N2' & N3'). unfold WriteMap, RDyWriteOneDOFGlobalVecToBinaryFile. rewrite map_length, L, N2, Nat.eqb_refl.
  destruct (scatter_upd num (map IZR (concat parts)) (repeat 0%R cells) N1) as (file & E & Lf & G & _); [rewrite map_length; congruence|intros k Hk; rewrite repeat_length; apply N3; exact Hk|]. rewrite repeat_length in Lf.
  exists file. rewrite E. unfold ReadRainfallDatasetMap, RDyReadOneDOFGlobalVecFromBinaryFile. rewrite N2', Lf, Nat.eqb_refl.
  assert (At : forall i, i < cells -> exists g, nth_error num g = Some i) by (intros i Hi; apply In_nth_error; apply N3; exact Hi).
  assert (Fz : forall i, i < cells -> exists z, nth_error file i = Some (IZR z) /\ (0 <= z < 2 ^ 31)%Z).
  { intros i Hi. destruct (At i Hi) as (g & Hg). rewrite (G g i Hg), nth_error_map. assert (g < length (concat parts)) by (rewrite L, <- N2; apply nth_error_Some; congruence).
    destruct (nth_error (concat parts) g) as [z|] eqn:Ez; [|apply nth_error_None in Ez; lia]. exists z. split; [reflexivity|]. apply B. eapply nth_error_In. exact Ez. }
  set (global := map (fun i => nth i file 0%R) num').
  rewrite (omap_map_some _ (fun i => nth i file 0%R)) by (intros i Hi; apply nth_error_nth'; rewrite Lf; apply N3'; exact Hi). fold global. cbn [of_option rbind]. assert (Lg : length global = cells) by (unfold global; rewrite map_length; exact N2'). rewrite Lg, Nat.eqb_refl. cbn [check skipn].
  rewrite (fseq_omap _ (fun i => let* x := nth_error global i in int_of x)) by (intros i _; rewrite fget_nat; reflexivity).
  set (g2 := fun i => match int_of (nth i global 0%R) with Some z => z | None => 0%Z end).
  assert (Gz : forall i, i < cells -> exists z, nth_error global i = Some (IZR z) /\ int_of (IZR z) = Some z).
  { intros i Hi. unfold global. rewrite nth_error_map. destruct (nth_error num' i) as [k|] eqn:Ek; [|apply nth_error_None in Ek; lia]. cbn [option_map]. destruct (Fz k) as (z & Hz & Bz); [apply N3'; eapply nth_error_In; exact Ek|]. exists z. rewrite (nth_error_nth _ _ 0%R Hz). split; [reflexivity|apply int_of_IZR; exact Bz]. }
  rewrite (omap_map_some _ g2). 2: { intros i Hi. apply in_seq in Hi. destruct (Gz i) as (z & Hz & Iz); [lia|]. rewrite Hz. cbn [obind]. unfold g2. rewrite (nth_error_nth _ _ 0%R Hz), Iz. reflexivity. }
  exists (map g2 (seq 0 cells)). split; [reflexivity|]. split; [reflexivity|]. split; [rewrite map_length; apply seq_length|]. intros g g' i Hg Hg'. assert (g' < cells) by (rewrite <- N2'; apply nth_error_Some; congruence).
  rewrite nth_error_map, nth_error_seq by assumption. cbn [option_map Nat.add]. assert (i < cells) by (apply N3; eapply nth_error_In; exact Hg). unfold g2, global. rewrite (nth_error_nth (map (fun i => nth i file 0%R) num') g' 0%R (x := nth i file 0%R)) by (rewrite nth_error_map, Hg'; reflexivity).
  assert (X := G g i Hg). rewrite nth_error_map in X. destruct (nth_error (concat parts) g) as [z|] eqn:Ez. { cbn in X. rewrite (nth_error_nth _ _ 0%R X), int_of_IZR by (apply B; eapply nth_error_In; exact Ez). reflexivity. }
  apply nth_error_None in Ez. assert (g < length num) by (apply nth_error_Some; congruence). lia.
Qed.
Print Assumptions C76_map_file.
Example C76_map_file_inhabited : numbers_cells [2; 0; 1] 3 /\ numbers_cells [0; 1; 2] 3 /\ exists file m, WriteMap [2; 0; 1] [[5; 6]; [7]]%Z = Some file /\ ReadRainfallDatasetMap [0; 1; 2] file 0 3 = Ret m /\ m = [6; 7; 5]%Z.
Proof.
  assert (P : numbers_cells [2; 0; 1] 3) by (unfold numbers_cells; cbn; eapply perm_trans; [apply perm_swap|]; apply perm_skip, perm_swap). split; [exact P|]. split; [unfold numbers_cells; reflexivity|].
  destruct (C76_map_file [2; 0; 1] [0; 1; 2] 3 [[5; 6]; [7]]%Z P) as (file & m & Hw & Hr & Lm & H); [unfold numbers_cells; reflexivity|reflexivity|cbn; intuition lia|]. exists file, m. split; [exact Hw|]. split; [exact Hr|].
  assert (A := H 1 0 0 eq_refl eq_refl). assert (B := H 2 1 1 eq_refl eq_refl). assert (C := H 0 2 2 eq_refl eq_refl). destruct m as [|a [|b [|c [|]]]]; cbn in Lm; try lia. cbn in A, B, C. congruence.
Qed.
(* With several processes a map file is never accepted: the number of cells of the process is compared with that of all *)
Theorem C76_map_file_parallel_refuted : forall num file first ncells, ncells < length num -> (forall k, In k num -> k < length file) -> ReadRainfallDatasetMap num file first ncells = Error.
Proof.
  intros num file first ncells L B. unfold ReadRainfallDatasetMap, RDyReadOneDOFGlobalVecFromBinaryFile. destruct (Nat.eqb (length num) (length file)); [|reflexivity].
  rewrite (omap_map_some _ (fun i => nth i file 0%R)) by (intros i Hi; apply nth_error_nth'; apply B; exact Hi). cbn [of_option rbind]. rewrite map_length. destruct (Nat.eqb_spec (length num) ncells); [lia|]. reflexivity.
Qed.
Print Assumptions C76_map_file_parallel_refuted.

(** ** Concrete cases *)
Lemma hour_is k d c : valid_date d -> valid_date c -> mktime (tm_of c) = (mktime (tm_of d) + Z.of_nat (3600 * k))%Z -> later (3600 * k) d c.
Proof. intros V W E. destruct (later_exists (3600 * k) d V) as (e & L). rewrite (later_is d e c _ V L W E). exact L. Qed.
Ltac a_date n C := split; [cbn; lia|]; split; [exists n; split; [C|cbn; lia]|cbn; lia].
(* hourly files whose only value is the hour, from 15 March 22h over midnight *)
Definition march (k : nat) : date := match k with 0 => Date 2026 3 15 22 0 0 | 1 => Date 2026 3 15 23 0 0 | _ => Date 2026 3 16 0 0 0 end.
Definition march_files : archive := fun s =>
  if String.eqb s "points" then Some [1; 2; 0; 0]%R else if String.eqb s "d/2026-03-15:22-00.int32.bin" then Some [1; 1; 0]%R else if String.eqb s "d/2026-03-15:23-00.int32.bin" then Some [1; 1; 1]%R
  else if String.eqb s "d/2026-03-16:00-00.int32.bin" then Some [1; 1; 2]%R else if String.eqb s "stage" then Some (interleaved demo_record) else None.
Lemma march_valid k : valid_date (march k). Proof. destruct k as [|[|k]]; a_date 31%Z constructor. Qed.
Lemma march_later k : k <= 2 -> later (3600 * k) (march 0) (march k).
Proof. intros H. apply hour_is; try apply march_valid. destruct k as [|[|[|k]]]; [| | |lia]; vm_compute; reflexivity. Qed.
Lemma march_is k e : k <= 2 -> later (3600 * k) (march 0) e -> e = march k.
Proof. intros H L. eapply later_unique; [apply march_valid|exact L|apply march_later; exact H]. Qed.
Lemma march_findable : findable "int32" "d" (march 0) 2.
Proof.
  split; [apply march_valid|]. split; [reflexivity|]. split; [cbn; lia|]. intros k e Hk L. rewrite (march_is k e Hk L). destruct k as [|[|[|k]]]; cbn; lia.
Qed.
Lemma march_data k : k <= 2 -> exists d, file_at march_files "int32" "d" (march 0) k d /\ point_file 1 1 d /\ nth_error d 2 = Some (INR k).
Proof.
  intros H. destruct k as [|[|[|k]]]; [| | |lia].
  - exists [1; 1; 0]%R. split; [exists (march 0); split; [apply march_later; lia|vm_compute; reflexivity]|]. split; [exists [0%R]; split; reflexivity|reflexivity].
  - exists [1; 1; 1]%R. split; [exists (march 1); split; [apply march_later; lia|vm_compute; reflexivity]|]. split; [exists [1%R]; split; reflexivity|reflexivity].
  - exists [1; 1; 2]%R. split; [exists (march 2); split; [apply march_later; lia|vm_compute; reflexivity]|]. split; [exists [2%R]; split; reflexivity|cbn; f_equal; lra].
Qed.
Definition two_cells : list (R * R) := [(0, 0); (1, 0)]%R.
Definition march_rain : rain_options := RainUnstructured "d" (time_of (march 0)) "points".
Lemma march_rain_data : rain_data march_files "int32" 2 two_cells march_rain.
Proof.
  apply (rd_points _ _ _ _ "d" (march 0) "points" [(0, 0)]%R); [exact march_findable|discriminate|unfold fits; cbn; lia|reflexivity|]. intros k Hk. destruct (march_data k Hk) as (d & A & B & _). exists d. auto.
Qed.
Lemma one_point x y : first_nearest [(0, 0)]%R x y 0.
Proof. exists (0, 0)%R. split; [reflexivity|]. intros [|j] q; cbn; [intros [= <-]|destruct j; discriminate]. split; [lra|lia]. Qed.
Lemma march_meant t k c : k <= 2 -> hour_of t k -> forall u, meant_rain march_files "int32" u t c march_rain (INR k).
Proof. intros Hk Ht u. destruct (march_data k Hk) as (d & A & _ & C). apply (mr_points _ _ _ _ _ "d" (march 0) "points" [(0, 0)]%R k d 0); [reflexivity|reflexivity|exact Ht|exact A|apply one_point|exact C]. Qed.
(* Rain from the files and water heights from a record: two hours after the start, past midnight, the third file is used *)
Example C76_inhabited : exists st', fortran_driver march_files "int32" march_rain (BCHomogeneous "stage" true) SECONDS two_cells [(CONDITION_DIRICHLET, 2)] 1 [(0, 0); (1, 0)]%R plain [0; 1800; 3600; 5400; 7200]%R = Ret st' /\
  value st' (Source 1 0) = Some (INR 2) /\ value st' (BoundaryValue 0 1 0) = Some 7%R /\ value st' (BoundaryValue 0 1 2) = Some 0%R /\ value st' (Source 1 1) = Some 0%R.
Proof.
  destruct (C76_forcing_partial march_files "int32" march_rain (BCHomogeneous "stage" true) SECONDS 2 two_cells plain_boundaries 0 [(0, 0); (1, 0)]%R plain [0; 1800; 3600; 5400]%R 7200%R) as (st' & E & V1 & V2 & V3).
  - exact plain_set_up.
  - exact plain_boundaries_of.
  - exact march_rain_data.
  - apply (bd_record _ _ _ _ _ demo_record); [reflexivity|discriminate|exact demo_record_increasing].
  - reflexivity.
  - right. exact plain_whole.
  - right. split.
    + intros [|j] ne (bd & cd & Hb & _ & -> & _); cbn in Hb; [injection Hb as <-; auto|destruct j; discriminate].
    + intros _. eexists. eexists. split; [reflexivity|]. split; [reflexivity|]. split; reflexivity.
  - intros _. split; [reflexivity|]. split; [|cbn; lra]. assert (H := C47_regular_intervals 1800 5 ltac:(lra)). cbn [seq map] in H. cbn [app].
    replace (INR 0 * 1800)%R with 0%R in H by (cbn; lra). replace (INR 1 * 1800)%R with 1800%R in H by (cbn; lra). replace (INR 2 * 1800)%R with 3600%R in H by (cbn; lra). replace (INR 3 * 1800)%R with 5400%R in H by (cbn; lra). replace (INR 4 * 1800)%R with 7200%R in H by (cbn; lra). exact H.
  - assert (S7 : sampled demo_record true (ConvertTimeFromSeconds 7200 SECONDS) 7) by (change 7%R with (snd (20, 7)%R); apply sampled_after; [reflexivity|cbn; lra]).
    exists st'. split; [exact E|]. split; [|split; [|split]].
    + apply (V1 1 (1, 0)%R); [reflexivity|]. apply march_meant; [lia|]. unfold hour_of. cbn. lra.
    + apply (V2 1 (1, 0)%R); [reflexivity|]. eapply mb_record; [reflexivity|exact S7|reflexivity].
    + apply (V2 1 (1, 0)%R); [reflexivity|]. eapply mb_record; [reflexivity|exact S7|reflexivity].
    + rewrite V3; [reflexivity|right; intros; discriminate|right; intros; discriminate].
Qed.

Lemma points_apply fs id st u u' t x values : set_up st -> whole_domain st -> r_owned st = 2 -> length values = 2 -> unstructured_step fs id t u = Ret u' -> fu_map u' = [Some 1; Some 1]%Z -> fu_stride u' = 1%Z -> fu_data u' = [1; 1; x]%R ->
  exists st', driver_step fs id (st, SourceSink (FUnstructuredRain u) 2 values, BoundaryCondition FBUnset 0 0 []) t = Ret (st', SourceSink (FUnstructuredRain u') 2 [Some x; Some x], BoundaryCondition FBUnset 0 0 []) /\
    set_up st' /\ whole_domain st' /\ r_owned st' = 2 /\ value st' (Source 0 0) = Some x.
Proof.
  intros U W Ho L Eu Em Es Ed. cbn [driver_step ApplyRainfallDataset ss_data ss_n ss_values Nat.ltb Nat.leb]. unfold SetUnstructuredData. change (if new_file t (fu_count u) then _ else Ret u) with (unstructured_step fs id t u). rewrite Eu. cbn [rbind]. rewrite Em, Es, Ed.
  destruct values as [|v [|w [|]]]; cbn in L; try lia. match goal with |- context [of_option ?X] => change X with (Some [Some x; Some x]) end. cbn [of_option rbind fst snd].
  destruct (rain_source_step st [x; x] U W) as (st' & E & U' & P' & V & _); [rewrite Ho; reflexivity|]. rewrite Ho in E. cbn [map] in E. rewrite E. cbn [rbind fst snd]. exists st'. split; [reflexivity|]. split; [exact U'|]. split; [eapply whole_domain_params; eassumption|].
  split; [destruct (same_params _ _ P') as (-> & _); exact Ho|]. rewrite V by lia. reflexivity.
Qed.
Lemma points_create (fs : archive) id dir date name x : DetermineDatasetFilename dir date id = Ret name -> fs name = Some [1; 1; x]%R -> fs "points"%string = Some [1; 2; 0; 0]%R ->
  CreateRainfallConditionDataset fs id (RainUnstructured dir date "points") two_cells = Ret (SourceSink (FUnstructuredRain (FUnstructured dir date 1 1 [1; 1; x]%R [Some 1; Some 1]%Z)) 2 [None; None]).
Proof.
  intros En Ef Ep. cbn [CreateRainfallConditionDataset]. unfold CreateUnstructured. rewrite (open_unstructured_dataset fs id dir [1; 1; x]%R 1 1 date [] (fun _ => 1%Z) name En Ef); [|exists [x]; split; reflexivity|unfold fits; lia|unfold fits; lia|lia|reflexivity].
  cbn [rbind]. unfold opendata. rewrite Ep. cbn [rbind]. change [1; 2; 0; 0]%R with (coordinates_file [(0, 0)]%R). rewrite read_coordinates by (unfold fits; cbn; lia). reflexivity.
Qed.
Lemma points_keep fs id t u : (t < 3600 * INR (fu_count u))%R -> unstructured_step fs id t u = Ret u.
Proof. intros H. unfold unstructured_step, new_file. destruct (Rleb (INR (fu_count u) * 1) (t / 3600)) eqn:E; [|reflexivity]. apply hour_step in E. lra. Qed.
Lemma points_next (fs : archive) id t u d name x : (3600 * INR (fu_count u) <= t)%R -> IncrementDateByOneHour (fu_date u) = Some d -> DetermineDatasetFilename (fu_dir u) d id = Ret name -> fs name = Some [1; 1; x]%R ->
  unstructured_step fs id t u = Ret (FUnstructured (fu_dir u) d (S (fu_count u)) 1 [1; 1; x]%R (fu_map u)).
Proof.
  intros H Ed En Ef. unfold unstructured_step, new_file. apply hour_step in H. rewrite H. unfold OpenNextUnstructuredDataset. rewrite Ed. cbn [of_option rbind].
  rewrite (open_unstructured_dataset fs id (fu_dir u) [1; 1; x]%R 1 1 d (fu_map u) _ name En Ef); [reflexivity|exists [x]; split; reflexivity|unfold fits; lia|unfold fits; lia|lia|reflexivity].
Qed.
Lemma points_two (fs : archive) id dir date name x t1 t2 d2 name2 y : DetermineDatasetFilename dir date id = Ret name -> fs name = Some [1; 1; x]%R -> fs "points"%string = Some [1; 2; 0; 0]%R -> (t1 < 3600)%R ->
  ((t2 < 3600)%R /\ y = x \/ (3600 <= t2)%R /\ IncrementDateByOneHour date = Some d2 /\ DetermineDatasetFilename dir d2 id = Ret name2 /\ fs name2 = Some [1; 1; y]%R) ->
  forall u s1 s2, driver_time u s1 = t1 -> driver_time u s2 = t2 ->
  exists st', fortran_driver fs id (RainUnstructured dir date "points") BCUnset u two_cells [] (-1) [] plain [s1; s2] = Ret st' /\ value st' (Source 0 0) = Some y.
Proof.
  intros En Ef Ep H1 H2 u s1 s2 Eq1 Eq2. unfold fortran_driver. rewrite (points_create fs id dir date name x En Ef Ep). cbn [rbind CreateBoundaryConditionDataset map driver_run]. rewrite Eq1, Eq2.
  destruct (points_apply fs id plain (FUnstructured dir date 1 1 [1; 1; x]%R [Some 1; Some 1]%Z) (FUnstructured dir date 1 1 [1; 1; x]%R [Some 1; Some 1]%Z) t1 x [None; None] plain_set_up plain_whole eq_refl eq_refl) as (st1 & E1 & U1 & W1 & O1 & _); [apply points_keep; cbn; lra|reflexivity|reflexivity|reflexivity|]. rewrite E1. cbn [rbind].
  destruct H2 as [(H2 & ->)|(H2 & Ed & En2 & Ef2)].
  - destruct (points_apply fs id st1 (FUnstructured dir date 1 1 [1; 1; x]%R [Some 1; Some 1]%Z) (FUnstructured dir date 1 1 [1; 1; x]%R [Some 1; Some 1]%Z) t2 x [Some x; Some x] U1 W1 O1 eq_refl) as (st2 & E2 & U2 & W2 & O2 & V2); [apply points_keep; cbn; lra|reflexivity|reflexivity|reflexivity|].
    rewrite E2. cbn [rbind fst]. exists st2. auto.
  - destruct (points_apply fs id st1 (FUnstructured dir date 1 1 [1; 1; x]%R [Some 1; Some 1]%Z) (FUnstructured dir d2 2 1 [1; 1; y]%R [Some 1; Some 1]%Z) t2 y [Some x; Some x] U1 W1 O1 eq_refl) as (st2 & E2 & U2 & W2 & O2 & V2); [exact (points_next fs id t2 (FUnstructured dir date 1 1 [1; 1; x]%R [Some 1; Some 1]%Z) d2 name2 y ltac:(cbn; lra) Ed En2 Ef2)|reflexivity|reflexivity|reflexivity|].
    rewrite E2. cbn [rbind fst]. exists st2. auto.
Qed.
(* The program run past the end of 28 February of a leap year: the rain of 1 March 0h falls on 29 February 0h *)
Definition leap_files : archive := fun s =>
  if String.eqb s "points" then Some [1; 2; 0; 0]%R else if String.eqb s "d/2024-02-28:23-00.int32.bin" then Some [1; 1; 0]%R else if String.eqb s "d/2024-02-29:00-00.int32.bin" then Some [1; 1; 1]%R
  else if String.eqb s "d/2024-03-01:00-00.int32.bin" then Some [1; 1; 25]%R else None.
Theorem C76_leap_day_run_refuted : exists fs start c v x st', valid_date start /\ in_step None [0; 3600]%R /\ nth_error two_cells 0 = Some c /\ meant_rain fs "int32" SECONDS 3600 c (RainUnstructured "d" (time_of start) "points") v /\
  fortran_driver fs "int32" (RainUnstructured "d" (time_of start) "points") BCUnset SECONDS two_cells [] (-1) [] plain [0; 3600]%R = Ret st' /\ value st' (Source 0 0) = Some x /\ x <> v.
Proof.
  exists leap_files, (Date 2024 2 28 23 0 0), (0, 0)%R, 1%R, 25%R. assert (Ly : leap_year 2024) by (apply leap_spec; reflexivity).
  assert (V : valid_date (Date 2024 2 28 23 0 0)) by a_date 29%Z ltac:(apply feb_leap; exact Ly).
  destruct (points_two leap_files "int32" "d" (time_of (Date 2024 2 28 23 0 0)) "d/2024-02-28:23-00.int32.bin" 0 0 3600 (Time 2024 3 1 0 0) "d/2024-03-01:00-00.int32.bin" 25 ltac:(vm_compute; reflexivity) eq_refl eq_refl ltac:(lra)) with (u := SECONDS) (s1 := 0%R) (s2 := 3600%R) as (st' & E & Hv);
    [right; split; [lra|]; split; [reflexivity|]; split; [vm_compute; reflexivity|reflexivity]|reflexivity|reflexivity|].
  exists st'. split; [exact V|]. split. { assert (H := C47_regular_intervals 3600 2 ltac:(lra)). cbn [seq map] in H. replace (INR 0 * 3600)%R with 0%R in H by (cbn; lra). replace (INR 1 * 3600)%R with 3600%R in H by (cbn; lra). exact H. }
  split; [reflexivity|]. split.
  - apply (mr_points _ _ _ _ _ "d" (Date 2024 2 28 23 0 0) "points" [(0, 0)]%R 1 [1; 1; 1]%R 0 1); [reflexivity|reflexivity|unfold hour_of; cbn; lra| |apply one_point|reflexivity].
    exists (Date 2024 2 29 0 0 0). split; [|vm_compute; reflexivity]. destruct C76_leap_day_refuted as (A & _). apply (A 2024%Z 0%Z 0%Z); [lia|exact Ly|lia|lia].
  - split; [exact E|]. split; [exact Hv|lra].
Qed.
Print Assumptions C76_leap_day_run_refuted.
(* With steps of two hours the files lag behind *)
Theorem C76_long_interval_refuted : exists c v x st', nth_error two_cells 0 = Some c /\ findable "int32" "d" (march 0) 2 /\ rain_data march_files "int32" 2 two_cells march_rain /\ meant_rain march_files "int32" SECONDS 7200 c march_rain v /\
  fortran_driver march_files "int32" march_rain BCUnset SECONDS two_cells [] (-1) [] plain [0; 7200]%R = Ret st' /\ value st' (Source 0 0) = Some x /\ x <> v.
Proof.
  exists (0, 0)%R, (INR 2), 1%R.
  destruct (points_two march_files "int32" "d" (time_of (march 0)) "d/2026-03-15:22-00.int32.bin" 0 0 7200 (Time 2026 3 15 23 0) "d/2026-03-15:23-00.int32.bin" 1 ltac:(vm_compute; reflexivity) eq_refl eq_refl ltac:(lra)) with (u := SECONDS) (s1 := 0%R) (s2 := 7200%R) as (st' & E & Hv);
    [right; split; [lra|]; split; [reflexivity|]; split; [vm_compute; reflexivity|reflexivity]|reflexivity|reflexivity|].
  exists st'. split; [reflexivity|]. split; [exact march_findable|]. split; [exact march_rain_data|]. split; [apply march_meant; [lia|unfold hour_of; cbn; lra]|]. split; [exact E|]. split; [exact Hv|cbn; lra].
Qed.
Print Assumptions C76_long_interval_refuted.
(* If the configuration has another time unit than seconds, the program still compares times with 3600 *)
Theorem C76_time_unit_refuted : exists c v x st', nth_error two_cells 0 = Some c /\ in_step None [0; 3600]%R /\ rain_data march_files "int32" 2 two_cells march_rain /\ meant_rain march_files "int32" HOURS 3600 c march_rain v /\
  fortran_driver march_files "int32" march_rain BCUnset HOURS two_cells [] (-1) [] plain [0; 3600]%R = Ret st' /\ value st' (Source 0 0) = Some x /\ x <> v.
Proof.
  exists (0, 0)%R, (INR 1), 0%R.
  destruct (points_two march_files "int32" "d" (time_of (march 0)) "d/2026-03-15:22-00.int32.bin" 0 0 1 (Time 0 0 0 0 0) "" 0 ltac:(vm_compute; reflexivity) eq_refl eq_refl ltac:(lra)) with (u := HOURS) (s1 := 0%R) (s2 := 3600%R) as (st' & E & Hv);
    [left; split; [lra|reflexivity]|unfold driver_time, ConvertTimeFromSeconds, mins_in_hr, secs_in_min; lra|unfold driver_time, ConvertTimeFromSeconds, mins_in_hr, secs_in_min; lra|].
  exists st'. split; [reflexivity|]. split. { assert (H := C47_regular_intervals 3600 2 ltac:(lra)). cbn [seq map] in H. replace (INR 0 * 3600)%R with 0%R in H by (cbn; lra). replace (INR 1 * 3600)%R with 3600%R in H by (cbn; lra). exact H. }
  split; [exact march_rain_data|]. split; [apply march_meant; [lia|unfold hour_of; cbn; lra]|]. split; [exact E|]. split; [exact Hv|cbn; lra].
Qed.
Print Assumptions C76_time_unit_refuted.
(* With several regions the library refuses the rain; the program does not look at the error code, and runs on without rain *)
Theorem C76_rain_lost_refuted : exists st rate st', set_up st /\ (rate > 0)%R /\ length two_cells = r_owned st /\ (forall fs id_type u,
  fortran_driver fs id_type (RainConstant rate) BCUnset u two_cells [] (-1) [] st [0%R] = Ret st') /\ forall cell, value st' (Source cell 0) = value st (Source cell 0).
Proof.
  exists split_domain, 1%R, split_domain. split; [exact split_set_up|]. split; [lra|]. split; [reflexivity|]. split; [|reflexivity]. intros fs id u. reflexivity.
Qed.
Print Assumptions C76_rain_lost_refuted.

(* a raster of two cells beside each other, and an hour later one of two cells above each other *)
Definition flat_shape : raster_shape := Shape 2 1 0 0 1.
Definition tall_shape : raster_shape := Shape 1 2 0 0 1.
Definition turning_files : archive := fun s =>
  if String.eqb s "d/2026-03-15:22-00.int32.bin" then Some [2; 1; 0; 0; 1; 10; 20]%R else if String.eqb s "d/2026-03-15:23-00.int32.bin" then Some [1; 2; 0; 0; 1; 30; 40]%R else None.
Definition corner : list (R * R) := [(0, 0); (0, 0)]%R.
Lemma flat_file : raster_file flat_shape [2; 1; 0; 0; 1; 10; 20]%R.
Proof. exists [10; 20]%R. split; [|reflexivity]. cbn. do 2 f_equal. Qed.
Lemma tall_file : raster_file tall_shape [1; 2; 0; 0; 1; 30; 40]%R.
Proof. exists [30; 40]%R. split; [|reflexivity]. cbn. do 2 f_equal. Qed.
Lemma flat_nearest : first_nearest (shape_points flat_shape) 0 0 0.
Proof.
  eexists. split; [reflexivity|]. intros [|[|j]] q; cbn [shape_points flat_shape raster_points sh_ncols sh_nrows sh_xlc sh_ylc sh_size seq flat_map map app nth_error]; try (destruct j; discriminate); intros [= <-]; split; try lia; [apply Rle_refl|].
  unfold dist_to, distance, raster_point. cbn [fst snd INR]. apply sqrt_le_1_alt. lra.
Qed.
Lemma tall_nearest : first_nearest (shape_points tall_shape) 0 0 1.
Proof.
  eexists. split; [reflexivity|]. intros [|[|j]] q; cbn [shape_points tall_shape raster_points sh_ncols sh_nrows sh_xlc sh_ylc sh_size seq flat_map map app nth_error]; try (destruct j; discriminate); intros [= <-]; split; try lia; try apply Rle_refl; intros;
    unfold dist_to, distance, raster_point; cbn [fst snd INR]; [apply sqrt_le_1_alt; lra|apply sqrt_lt_1_alt; lra].
Qed.
Lemma flat_rain_data : rain_data turning_files "int32" 0 corner (RainRaster "d" (time_of (march 0))).
Proof.
  apply (rd_raster _ _ _ _ "d" (march 0) flat_shape); [|unfold fits; cbn; lia|unfold fits; cbn; lia| |].
  - destruct march_findable as (A & B & C & D). split; [exact A|]. split; [exact B|]. split; [exact C|]. intros k e Hk. apply D. lia.
  - intros k Hk. assert (k = 0) by lia. subst k. exists [2; 1; 0; 0; 1; 10; 20]%R. split; [exists (march 0); split; [apply march_later; lia|vm_compute; reflexivity]|exact flat_file].
  - intros c [<-|[<-|[]]]; (eexists; split; [left; reflexivity|]); unfold dist_to, distance, raster_point; cbn [fst snd INR flat_shape sh_ncols sh_nrows sh_size sh_xlc sh_ylc Nat.max Nat.add]; (apply (Rlt_le_trans _ (sqrt 1)); [apply sqrt_lt_1_alt; lra|rewrite sqrt_1; cbn; lra]).
Qed.
Example C76_raster_inhabited : exists st', fortran_driver turning_files "int32" (RainRaster "d" (time_of (march 0))) BCUnset SECONDS corner (map fst plain_boundaries) 1 [] plain [600%R] = Ret st' /\ value st' (Source 1 0) = Some (10 / (1000 * 3600))%R.
Proof.
  destruct (C76_forcing_partial turning_files "int32" (RainRaster "d" (time_of (march 0))) BCUnset SECONDS 0 corner plain_boundaries 0 [] plain [] 600%R plain_set_up plain_boundaries_of flat_rain_data) as (st' & E & V & _);
    [constructor|reflexivity|right; exact plain_whole|left; reflexivity|intros _; split; [reflexivity|]; cbn; split; [split; [lra|exact I]|lra]|].
  exists st'. split; [exact E|]. apply (V 1 (0, 0)%R); [reflexivity|]. apply (mr_raster _ _ _ _ _ "d" (march 0) flat_shape 0 [2; 1; 0; 0; 1; 10; 20]%R 0); [reflexivity|unfold hour_of; cbn; lra| |exact flat_file|exact flat_nearest|reflexivity].
  exists (march 0). split; [apply march_later; lia|vm_compute; reflexivity].
Qed.
Lemma rain_ok_raster fs id K mesh prev dir tm s : rain_ok fs id K mesh prev (RainRaster dir tm) s -> exists start h m r values, tm = time_of start /\ s = SourceSink (FRasterRain r) (length mesh) values /\ findable id dir start K /\
  (forall k, k <= K -> exists d, file_at fs id dir start k d /\ raster_file h d) /\ length values = length mesh /\ fr_map r = one_based m /\ length m = length mesh /\
  (forall i c, nth_error mesh i = Some c -> exists k, nth_error m i = Some k /\ first_nearest (shape_points h) (fst c) (snd c) k) /\
  (mesh <> [] -> exists k, at_hour prev k /\ k <= K /\ holds fs id dir start k (fr_count r) (fr_date r) (fr_dir r) (fr_data r)).
Proof. intros H. inversion H; subst. exists start, h, m, r, values. repeat (split; [solve [auto]|]). assumption. Qed.
(* The header of a later raster file is not compared with that of the first: with another shape of the same size, the old map is
   used for the new raster *)
Theorem C76_changed_raster_refuted : exists c v x st', nth_error corner 0 = Some c /\ meant_rain turning_files "int32" SECONDS 3600 c (RainRaster "d" (time_of (march 0))) v /\
  fortran_driver turning_files "int32" (RainRaster "d" (time_of (march 0))) BCUnset SECONDS corner [] (-1) [] plain [0; 3600]%R = Ret st' /\ value st' (Source 0 0) = Some x /\ x <> v.
Proof.
  exists (0, 0)%R, (40 / (1000 * 3600))%R, (30 / (1000 * 3600))%R. destruct (rain_created _ _ _ _ _ flat_rain_data) as (s & Es & Ok).
  destruct (rain_step turning_files "int32" 0 corner None plain (RainRaster "d" (time_of (march 0))) s SECONDS 0 plain_set_up (or_intror plain_whole) eq_refl Ok) as (st1 & s1 & E1 & U1 & P1 & Ok1 & _). { intros _. split; [reflexivity|]. cbn. lra. }
  assert (W1 : whole_domain st1) by (eapply whole_domain_params; [exact P1|exact plain_whole]). assert (O1 : r_owned st1 = 2) by (destruct (same_params _ _ P1) as (-> & _); reflexivity).
  destruct (rain_ok_raster _ _ _ _ _ _ _ _ Ok1) as (start & h & m & r & values & Et & -> & F & G & L & Em & Lmm & Near & Hold).
  assert (start = march 0) by (apply time_of_inj; [destruct F as (_ & -> & _); reflexivity|symmetry; exact Et]). subst start. destruct (Hold ltac:(discriminate)) as (k & Hk & K0 & Hh). assert (k = 0) by lia. subst k. destruct Hh as (Hc & Hd & e & L0 & Hdate & Hf). rewrite (march_is 0 e ltac:(lia) L0) in *.
  assert (Eh : h = flat_shape). { destruct (G 0 ltac:(lia)) as (d & (e' & Le & Ed) & Rf). rewrite (march_is 0 e' ltac:(lia) Le) in Ed. assert (E0 : turning_files (hourly_name "d" "int32" (march 0)) = Some [2; 1; 0; 0; 1; 10; 20]%R) by (vm_compute; reflexivity). rewrite E0 in Ed. injection Ed as <-. eapply raster_file_unique; [exact Rf|exact flat_file]. } subst h.
  assert (Em0 : m = [0; 0]). { destruct (Near 0 (0, 0)%R eq_refl) as (a & Ea & Na). destruct (Near 1 (0, 0)%R eq_refl) as (b & Eb & Nb). assert (a = 0) by (eapply first_nearest_unique; [exact Na|exact flat_nearest]). assert (b = 0) by (eapply first_nearest_unique; [exact Nb|exact flat_nearest]). destruct m as [|m0 [|m1 [|]]]; cbn in Lmm; try lia. cbn in Ea, Eb. congruence. } subst m.
  assert (Er : raster_step turning_files "int32" 3600 r = Ret (FRaster "d" (Time 2026 3 15 23 0) 2 1 2 0 0 1 [1; 2; 0; 0; 1; 30; 40]%R (fr_map r))).
  { unfold raster_step. rewrite Hc. rewrite new_file_next by (unfold hour_of; cbn; lra). unfold OpenNextRasterDataset. rewrite Hdate, Hd. change (IncrementDateByOneHour (time_of (march 0))) with (Some (Time 2026 3 15 23 0)). cbn [of_option rbind].
    rewrite (open_raster_dataset turning_files "int32" "d" [1; 2; 0; 0; 1; 30; 40]%R tall_shape _ _ "d/2026-03-15:23-00.int32.bin"); [reflexivity|vm_compute; reflexivity|reflexivity|exact tall_file|unfold fits; cbn; lia|unfold fits; cbn; lia]. }
  destruct (rain_source_step st1 [30 * mm_per_hr_2_m_per_sec; 30 * mm_per_hr_2_m_per_sec]%R U1 W1) as (st2 & E2 & U2 & P2 & V2 & _); [rewrite O1; reflexivity|]. rewrite O1 in E2, V2.
  exists st2. split; [reflexivity|]. split.
  - apply (mr_raster _ _ _ _ _ "d" (march 0) tall_shape 1 [1; 2; 0; 0; 1; 30; 40]%R 1); [reflexivity|unfold hour_of; cbn; lra| |exact tall_file|exact tall_nearest|reflexivity]. exists (march 1). split; [apply march_later; lia|vm_compute; reflexivity].
  - split; [|split; [rewrite V2 by lia; cbn; f_equal; unfold mm_per_hr_2_m_per_sec; field|lra]]. unfold fortran_driver. rewrite Es. cbn [rbind CreateBoundaryConditionDataset map driver_run driver_step]. change (driver_time SECONDS 0) with 0%R in *. change (driver_time SECONDS 3600) with 3600%R. rewrite E1. cbn [rbind fst snd ApplyBoundaryCondition bo_data].
    cbn [driver_step ApplyRainfallDataset ss_data ss_n ss_values length corner Nat.ltb Nat.leb]. unfold SetRasterData. change (if new_file 3600 (fr_count r) then _ else Ret r) with (raster_step turning_files "int32" 3600 r). rewrite Er. cbn [rbind fr_map fr_data]. rewrite Em.
    change (fseq 2) with (fseq (length [0; 0])). rewrite (f_raster [0; 0] [1; 2; 0; 0; 1; 30; 40]%R values); [|intros i [<-|[<-|[]]]; cbn; lia|exact L]. cbn [of_option rbind fst snd length seq map nth Nat.add]. cbn [map] in E2. rewrite E2. reflexivity.
Qed.
Print Assumptions C76_changed_raster_refuted.
(* The map of a cell farther from the raster than its longer side and one cell is never given a value, and the value is used *)
Theorem C76_raster_far_refuted : exists fs mesh st t, set_up st /\ whole_domain st /\ length mesh = r_owned st /\ (forall c q, In c mesh -> In q (shape_points flat_shape) -> (dist_to (fst c) (snd c) q < 6)%R) /\
  file_at fs "int32" "d" (march 0) 0 [2; 1; 0; 0; 1; 10; 20]%R /\ hour_of t 0 /\ fortran_driver fs "int32" (RainRaster "d" (time_of (march 0))) BCUnset SECONDS mesh [] (-1) [] st [t] = UB.
Proof.
  exists turning_files, [(5, 1/2); (5, 1/2)]%R, plain, 600%R.
  assert (D : forall a b, b = (1/2)%R -> (a <= 5)%R -> distance 5 (1 / 2) a b = (5 - a)%R).
  { intros a b -> Ha. unfold distance. replace ((5 - a) * (5 - a) + (1/2 - 1/2) * (1/2 - 1/2))%R with (Rsqr (5 - a)) by (unfold Rsqr; ring). apply sqrt_Rsqr. lra. }
  assert (P : forall q, In q (shape_points flat_shape) -> (3 <= dist_to 5 (1/2) q < 6)%R).
  { intros q Hq. cbn [shape_points flat_shape raster_points sh_ncols sh_nrows sh_xlc sh_ylc sh_size seq flat_map map app In] in Hq. destruct Hq as [<-|[<-|[]]]; unfold dist_to, raster_point; cbn [fst snd INR]; rewrite D by lra; lra. }
  split; [exact plain_set_up|]. split; [exact plain_whole|]. split; [reflexivity|]. split; [intros c q [<-|[<-|[]]] Hq; apply P; exact Hq|].
  assert (F0 : file_at turning_files "int32" "d" (march 0) 0 [2; 1; 0; 0; 1; 10; 20]%R) by (exists (march 0); split; [apply march_later; lia|vm_compute; reflexivity]). split; [exact F0|]. split; [unfold hour_of; cbn; lra|].
  unfold fortran_driver. cbn [CreateRainfallConditionDataset]. unfold CreateRaster. rewrite (open_raster_dataset turning_files "int32" "d" [2; 1; 0; 0; 1; 10; 20]%R flat_shape _ _ "d/2026-03-15:22-00.int32.bin"); [|vm_compute; reflexivity|reflexivity|exact flat_file|unfold fits; cbn; lia|unfold fits; cbn; lia].
  cbn [rbind fr_count fr_ncols fr_nrows fr_xlc fr_ylc fr_cellsize fr_data CreateBoundaryConditionDataset]. unfold CreateRasterDatasetMapping. rewrite !Nat2Z.id, raster_points_same, raster_limit_same. fold (shape_points flat_shape). cbn [map fst snd].
  rewrite raster_nearest_beyond by (intros q Hq; destruct (P q Hq) as (A & _); unfold raster_limit; cbn; lra). cbn [driver_run]. change (driver_time SECONDS 600) with 600%R. cbn [driver_step ApplyRainfallDataset ss_data ss_n ss_values length Nat.ltb Nat.leb]. unfold SetRasterData. cbn [fr_count].
  rewrite new_file_same by (unfold hour_of; cbn; lra). reflexivity.
Qed.
Print Assumptions C76_raster_far_refuted.
