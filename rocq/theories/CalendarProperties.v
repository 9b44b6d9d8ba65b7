(** C60: dates in the names of output and forcing files. *)
From Verif Require Import Base SetupModel OutputModel OutputProofs CalendarModel.
From Coq Require Import ZArith String Ascii.
Local Open Scope string_scope.
Local Open Scope Z_scope.

(** ** Specification: the Gregorian calendar, second by second *)
Record date := Date { year : Z; month : Z; day : Z; hour : Z; minute : Z; second : Z }.
Definition leap_year (y : Z) : Prop := ((4 | y) /\ ~ (100 | y)) \/ (400 | y).
Inductive length_of_month (y : Z) : Z -> Z -> Prop :=
| jan : length_of_month y 1 31 | feb_leap : leap_year y -> length_of_month y 2 29 | feb : ~ leap_year y -> length_of_month y 2 28 | mar : length_of_month y 3 31
| apr : length_of_month y 4 30 | may : length_of_month y 5 31 | jun : length_of_month y 6 30 | jul : length_of_month y 7 31 | aug : length_of_month y 8 31
| sep : length_of_month y 9 30 | oct : length_of_month y 10 31 | nov : length_of_month y 11 30 | dec : length_of_month y 12 31.
Definition valid_date (d : date) : Prop :=
  1 <= year d /\ (exists n, length_of_month (year d) (month d) n /\ 1 <= day d <= n) /\ 0 <= hour d <= 23 /\ 0 <= minute d <= 59 /\ 0 <= second d <= 59.
(* the next second *)
Inductive ticks : date -> date -> Prop :=
| tick_second y mo d h mi s : s < 59 -> ticks (Date y mo d h mi s) (Date y mo d h mi (s + 1))
| tick_minute y mo d h mi : mi < 59 -> ticks (Date y mo d h mi 59) (Date y mo d h (mi + 1) 0)
| tick_hour y mo d h : h < 23 -> ticks (Date y mo d h 59 59) (Date y mo d (h + 1) 0 0)
| tick_day y mo d n : length_of_month y mo n -> d < n -> ticks (Date y mo d 23 59 59) (Date y mo (d + 1) 0 0 0)
| tick_month y mo d : length_of_month y mo d -> mo < 12 -> ticks (Date y mo d 23 59 59) (Date y (mo + 1) 1 0 0 0)
| tick_year y : ticks (Date y 12 31 23 59 59) (Date (y + 1) 1 1 0 0 0).
(* n seconds later *)
Inductive later : nat -> date -> date -> Prop :=
| later_0 d : later 0 d d
| later_S n d e f : later n d e -> ticks e f -> later (S n) d f.
Definition stamp_of (d : date) : string :=
  num 4 (year d) ++ "-" ++ num 2 (month d) ++ "-" ++ num 2 (day d) ++ "." ++ num 2 (hour d) ++ "." ++ num 2 (minute d) ++ "." ++ num 2 (second d).

(** ** The C library implements the calendar *)
Definition tm_of (d : date) : tm := Tm (year d - 1900) (month d - 1) (day d) (hour d) (minute d) (second d).
Local Notation seconds_of d := (mktime (tm_of d)).
Lemma leap_spec y : leap y = true <-> leap_year y.
Proof.
  unfold leap, leap_year. rewrite Bool.orb_true_iff, Bool.andb_true_iff, Bool.negb_true_iff, !Z.eqb_eq, Z.eqb_neq. rewrite <- !Z.mod_divide by lia. reflexivity.
Qed.
Lemma month_length y m n : length_of_month y m n -> 1 <= m <= 12 /\ n = month_days y (m - 1).
Proof.
  assert (K := leap_spec y). intros H. destruct H; cbn; try (split; [lia|reflexivity]).
  - split; [lia|]. now rewrite (proj2 K).
  - split; [lia|]. destruct (leap y); [exfalso; apply H, K; reflexivity|reflexivity].
Qed.
Lemma length_exists y m : 1 <= m <= 12 -> length_of_month y m (month_days y (m - 1)).
Proof.
  assert (K := leap_spec y). intros B. assert (C : m = 1 \/ m = 2 \/ m = 3 \/ m = 4 \/ m = 5 \/ m = 6 \/ m = 7 \/ m = 8 \/ m = 9 \/ m = 10 \/ m = 11 \/ m = 12) by lia.
  destruct C as [->|[->|[->|[->|[->|[->|[->|[->|[->|[->|[->| ->]]]]]]]]]]]; cbn; try constructor.
  destruct (leap y) eqn:E; constructor; [now apply K|intros F; apply K in F; congruence].
Qed.
Lemma year_length y : year_start (y + 1) = year_start y + 365 + (if leap y then 1 else 0).
Proof.
  unfold year_start, leap. replace (y + 1 - 1) with y by lia. 
  destruct (Z.eqb_spec (y mod 4) 0), (Z.eqb_spec (y mod 100) 0), (Z.eqb_spec (y mod 400) 0); cbn [andb orb negb]; Z.to_euclidean_division_equations; lia.
Qed.
Lemma month_next y m : 0 <= m < 11 -> month_start y (m + 1) = month_start y m + month_days y m.
Proof.
  intros B. assert (C : m = 0 \/ m = 1 \/ m = 2 \/ m = 3 \/ m = 4 \/ m = 5 \/ m = 6 \/ m = 7 \/ m = 8 \/ m = 9 \/ m = 10) by lia.
  destruct C as [->|[->|[->|[->|[->|[->|[->|[->|[->|[->| ->]]]]]]]]]]; cbn; destruct (leap y); reflexivity.
Qed.
Lemma month_end y : month_start y 11 + 31 = 365 + (if leap y then 1 else 0).
Proof. cbn. destruct (leap y); reflexivity. Qed.
(* a second later *)
Lemma ticks_seconds d e : ticks d e -> 1 <= month d <= 12 -> seconds_of e = seconds_of d + 1.
Proof.
  intros H B. destruct H; unfold mktime, tm_of, day_number; cbn [year month day hour minute second tm_year tm_mon tm_mday tm_hour tm_min tm_sec] in *; try lia.
  - apply month_length in H. destruct H as (_ & ->).
    rewrite !Z.div_small, !Z.mod_small by lia. replace (mo + 1 - 1) with (mo - 1 + 1) by lia. rewrite month_next by lia. replace (y - 1900 + 1900 + 0) with y by lia. lia.
  - rewrite !Z.div_small, !Z.mod_small by lia. change (1 - 1) with 0. change (12 - 1) with 11. assert (Y := year_length (y - 1900 + 1900)). assert (M := month_end (y - 1900 + 1900)).
    replace (y + 1 - 1900 + 1900 + 0) with (y - 1900 + 1900 + 1) by lia. replace (y - 1900 + 1900 + 0) with (y - 1900 + 1900) by lia. rewrite Y. change (month_start (y - 1900 + 1900 + 1) 0) with 0. lia.
Qed.
Lemma ticks_valid d e : valid_date d -> ticks d e -> valid_date e.
Proof.
  intros (Y & (n & L & Dn) & H & M & S) T. destruct T; cbn in *; repeat split; cbn; try lia; try (exists n; split; [exact L|lia]).
  - exists n0. split; [assumption|lia].
  - apply month_length in H0. destruct H0 as (B & _). eexists. split; [apply length_exists; lia|]. assert (28 <= month_days y (mo + 1 - 1)); [|lia].
    set (m := mo + 1 - 1). assert (0 <= m < 12) by (unfold m; lia). clearbody m. assert (C : m = 0 \/ m = 1 \/ m = 2 \/ m = 3 \/ m = 4 \/ m = 5 \/ m = 6 \/ m = 7 \/ m = 8 \/ m = 9 \/ m = 10 \/ m = 11) by lia.
    destruct C as [->|[->|[->|[->|[->|[->|[->|[->|[->|[->|[->| ->]]]]]]]]]]]; cbn; destruct (leap y); lia.
  - exists 31. split; [apply jan|lia].
Qed.
Lemma later_spec n d e : valid_date d -> later n d e -> valid_date e /\ seconds_of e = seconds_of d + Z.of_nat n.
Proof.
  intros V H. induction H as [|n d e f H IH T]; [split; [exact V|lia]|]. destruct (IH V) as (Ve & E). split; [apply (ticks_valid e f Ve T)|].
  rewrite (ticks_seconds e f T); [lia|]. destruct Ve as (_ & (k & L & _) & _). now apply month_length in L.
Qed.
Lemma later_exists n d : valid_date d -> exists e, later n d e.
Proof.
  intros V. induction n as [|n (e & IH)]; [exists d; constructor|]. destruct (later_spec n d e V IH) as ((Y & (k & L & B) & H & M & S) & _). destruct e as [y mo dd h mi s]. cbn in *.
  assert (X : exists f, ticks (Date y mo dd h mi s) f).
  { destruct (Z.eq_dec s 59) as [->|]; [|eexists; apply tick_second; lia]. destruct (Z.eq_dec mi 59) as [->|]; [|eexists; apply tick_minute; lia].
    destruct (Z.eq_dec h 23) as [->|]; [|eexists; apply tick_hour; lia]. destruct (Z.eq_dec dd k) as [->|]; [|eexists; apply (tick_day y mo dd k L); lia].
    destruct (Z.eq_dec mo 12) as [->|]; [|eexists; apply (tick_month y mo k L); apply month_length in L; lia]. apply month_length in L. destruct L as (_ & ->). eexists. apply tick_year. }
  destruct X as (f & T). exists f. econstructor; eassumption.
Qed.

(** ** localtime inverts mktime *)
Lemma year_bounds y : 146097 * (y - 1) - 800 <= 400 * year_start y <= 146097 * (y - 1) + 400.
Proof. unfold year_start. Z.to_euclidean_division_equations. lia. Qed.
Lemma year_mono a b : a <= b -> year_start a <= year_start b.
Proof. unfold year_start. intros. Z.to_euclidean_division_equations. lia. Qed.
Lemma find_year_spec y day : year_start y <= day < year_start (y + 1) -> find_year day = y.
Proof.
  intros (L & U). unfold find_year. set (z := 400 * day / 146097).
  assert (Bz : z - 2 <= y - 1 <= z + 1). { assert (A := year_bounds y). assert (B := year_bounds (y + 1)). unfold z. Z.to_euclidean_division_equations. lia. }
  assert (Ne : forall w, w <= y -> (year_start w <=? day) = true) by (intros w Hw; apply Z.leb_le; assert (Q := year_mono w y Hw); lia).
  assert (No : forall w, y < w -> (year_start w <=? day) = false) by (intros w Hw; apply Z.leb_gt; assert (Q := year_mono (y + 1) w ltac:(lia)); lia).
  assert (C : y = z + 2 \/ y = z + 1 \/ y = z \/ y = z - 1) by lia. destruct C as [C|[C|[C|C]]]; rewrite ?(No (z + 2)), ?(Ne (z + 2)), ?(No (z + 1)), ?(Ne (z + 1)), ?(No z), ?(Ne z) by lia; lia.
Qed.
Lemma find_month_spec y m day : 0 <= m <= 11 -> month_start y m <= day < month_start y m + month_days y m -> find_month y day = m.
Proof.
  intros B (L & U). unfold find_month. cbn [month_search Z.of_nat Pos.of_succ_nat Pos.succ].
  assert (C : m = 0 \/ m = 1 \/ m = 2 \/ m = 3 \/ m = 4 \/ m = 5 \/ m = 6 \/ m = 7 \/ m = 8 \/ m = 9 \/ m = 10 \/ m = 11) by lia.
  destruct C as [->|[->|[->|[->|[->|[->|[->|[->|[->|[->|[->| ->]]]]]]]]]]]; cbn [month_start month_days] in *; destruct (leap y);
    repeat match goal with |- context [Z.leb ?a day] => destruct (Z.leb_spec a day); [try lia; reflexivity || (exfalso; lia)|] end; try lia; reflexivity.
Qed.
Lemma month_in_year y m : 0 <= m <= 11 -> 0 <= month_start y m /\ month_start y m + month_days y m <= 365 + (if leap y then 1 else 0).
Proof.
  intros B. assert (C : m = 0 \/ m = 1 \/ m = 2 \/ m = 3 \/ m = 4 \/ m = 5 \/ m = 6 \/ m = 7 \/ m = 8 \/ m = 9 \/ m = 10 \/ m = 11) by lia.
  destruct C as [->|[->|[->|[->|[->|[->|[->|[->|[->|[->|[->| ->]]]]]]]]]]]; cbn [month_start month_days]; destruct (leap y); lia.
Qed.
Lemma localtime_mktime d : valid_date d -> localtime (mktime (tm_of d)) = tm_of d.
Proof.
  intros (Y & (n & L & Dn) & H & M & S). apply month_length in L. destruct L as (Bm & ->). destruct d as [y mo d h mi s]. cbn in *.
  unfold localtime, mktime, tm_of, day_number. cbn [year month day hour minute second tm_year tm_mon tm_mday tm_hour tm_min tm_sec].
  rewrite (Z.div_small (mo - 1) 12), (Z.mod_small (mo - 1) 12) by lia. replace (y - 1900 + 1900 + 0) with y by lia.
  set (dn := year_start y + month_start y (mo - 1) + (d - 1)). set (t := 3600 * h + 60 * mi + s). assert (Bt : 0 <= t < 86400) by (unfold t; lia).
  replace (86400 * dn + 3600 * h + 60 * mi + s) with (t + dn * 86400) by (unfold t; lia). rewrite Z.div_add, Z.mod_add, (Z.div_small t), (Z.mod_small t) by lia. cbn [Z.add].
  assert (I := month_in_year y (mo - 1) ltac:(lia)). assert (Fy : find_year dn = y) by (apply find_year_spec; rewrite year_length; unfold dn; lia). rewrite Fy.
  assert (Fm : find_month y (dn - year_start y) = mo - 1) by (apply find_month_spec; [lia|unfold dn; lia]). rewrite Fm. f_equal.
  - unfold dn. lia.
  - unfold t. Z.to_euclidean_division_equations. lia.
  - unfold t. Z.to_euclidean_division_equations. lia.
  - unfold t. Z.to_euclidean_division_equations. lia.
Qed.
(* and the other way round, so that different times give different dates *)
Lemma find_year_bounds day : year_start (find_year day) <= day < year_start (find_year day + 1).
Proof.
  unfold find_year. set (z := 400 * day / 146097).
  assert (A := year_bounds z). assert (B := year_bounds (z + 3)). assert (Lo : year_start z <= day) by (unfold z in *; Z.to_euclidean_division_equations; lia).
  assert (Hi : day < year_start (z + 3)) by (unfold z in *; Z.to_euclidean_division_equations; lia).
  destruct (Z.leb_spec (year_start (z + 2)) day); [replace (z + 2 + 1) with (z + 3) by lia; lia|]. destruct (Z.leb_spec (year_start (z + 1)) day); [replace (z + 1 + 1) with (z + 2) by lia; lia|].
  rewrite (proj2 (Z.leb_le _ _) Lo). lia.
Qed.
Lemma find_month_bounds y day : 0 <= day < 365 + (if leap y then 1 else 0) -> 0 <= find_month y day <= 11 /\ month_start y (find_month y day) <= day < month_start y (find_month y day) + month_days y (find_month y day).
Proof.
  intros B. assert (Ex : exists m, 0 <= m <= 11 /\ month_start y m <= day < month_start y m + month_days y m).
  { destruct (Z_lt_le_dec day (month_start y 1)); [exists 0; cbn [month_start month_days] in *; lia|]. destruct (Z_lt_le_dec day (month_start y 2)); [exists 1; cbn [month_start month_days] in *; destruct (leap y); lia|].
    destruct (Z_lt_le_dec day (month_start y 3)); [exists 2; cbn [month_start month_days] in *; lia|]. destruct (Z_lt_le_dec day (month_start y 4)); [exists 3; cbn [month_start month_days] in *; lia|].
    destruct (Z_lt_le_dec day (month_start y 5)); [exists 4; cbn [month_start month_days] in *; lia|]. destruct (Z_lt_le_dec day (month_start y 6)); [exists 5; cbn [month_start month_days] in *; lia|].
    destruct (Z_lt_le_dec day (month_start y 7)); [exists 6; cbn [month_start month_days] in *; lia|]. destruct (Z_lt_le_dec day (month_start y 8)); [exists 7; cbn [month_start month_days] in *; lia|].
    destruct (Z_lt_le_dec day (month_start y 9)); [exists 8; cbn [month_start month_days] in *; lia|]. destruct (Z_lt_le_dec day (month_start y 10)); [exists 9; cbn [month_start month_days] in *; lia|].
    destruct (Z_lt_le_dec day (month_start y 11)); [exists 10; cbn [month_start month_days] in *; lia|]. exists 11. cbn [month_start month_days] in *. lia. }
  destruct Ex as (m & Bm & H). rewrite (find_month_spec y m day Bm H). auto.
Qed.

Lemma mktime_localtime t : mktime (localtime t) = t.
Proof.
  unfold localtime, mktime, day_number. cbn [tm_year tm_mon tm_mday tm_hour tm_min tm_sec]. set (dn := t / 86400). set (r := t mod 86400).
  assert (B := find_year_bounds dn). set (y := find_year dn) in *. rewrite year_length in B. destruct (find_month_bounds y (dn - year_start y)) as (Bm & M); [lia|]. set (m := find_month y (dn - year_start y)) in *.
  rewrite (Z.div_small m 12), (Z.mod_small m 12) by lia. replace (y - 1900 + 1900 + 0) with y by lia. clearbody y m. unfold dn, r in *. clear M B. Z.to_euclidean_division_equations. lia.
Qed.
Lemma localtime_fields t : 0 <= tm_mon (localtime t) <= 11 /\ 1 <= tm_mday (localtime t) /\ 0 <= tm_hour (localtime t) /\ 0 <= tm_min (localtime t) /\ 0 <= tm_sec (localtime t).
Proof.
  unfold localtime. cbn [tm_mon tm_mday tm_hour tm_min tm_sec]. set (dn := t / 86400). assert (B := find_year_bounds dn). set (y := find_year dn) in *. rewrite year_length in B.
  destruct (find_month_bounds y (dn - year_start y)) as (Bm & M); [lia|]. set (m := find_month y (dn - year_start y)) in *. clearbody y m. repeat split; try lia; Z.to_euclidean_division_equations; lia.
Qed.
Lemma mktime_add t s : mktime (add_seconds t s) = mktime t + s.
Proof. unfold mktime, add_seconds. cbn. lia. Qed.

(** ** Printed dates *)
Lemma digits_split a a' c s s' : is_digit c = false -> all_chars is_digit a = true -> all_chars is_digit a' = true -> a ++ String c s = a' ++ String c s' -> a = a' /\ s = s'.
Proof.
  intros Nc. revert a'. induction a as [|x a IH]; intros [|x' a'] D D' E; cbn in *.
  - injection E as ->. auto.
  - injection E as <- E. rewrite Nc in D'. discriminate.
  - injection E as -> E. rewrite Nc in D. discriminate.
  - injection E as <- E. apply Bool.andb_true_iff in D, D'. destruct (IH a' (proj2 D) (proj2 D') E) as (-> & ->). auto.
Qed.
Lemma num_inj w v a b : 0 <= a -> 0 <= b -> num w a = num v b -> a = b.
Proof. intros A B E. apply padded_inj in E. lia. Qed.
Lemma num_digits w z : all_chars is_digit (num w z) = true.
Proof. apply padded_digits. Qed.
Lemma time_stamp_inj t u : 0 <= tm_year t -> 0 <= tm_mon t -> 0 <= tm_mday t -> 0 <= tm_hour t -> 0 <= tm_min t -> 0 <= tm_sec t ->
  0 <= tm_year u -> 0 <= tm_mon u -> 0 <= tm_mday u -> 0 <= tm_hour u -> 0 <= tm_min u -> 0 <= tm_sec u -> time_stamp t = time_stamp u -> t = u.
Proof.
  intros. unfold time_stamp in *. repeat match goal with H : num _ _ ++ _ = _ |- _ => cbn [append] in H; apply digits_split in H; [|reflexivity|apply num_digits|apply num_digits]; destruct H as (? & H) end.
  repeat match goal with H : num _ _ = num _ _ |- _ => apply num_inj in H; [|assumption|assumption] end. destruct t, u. cbn in *. congruence.
Qed.

Lemma stamps_inj t u : 0 <= tm_year (localtime t) -> 0 <= tm_year (localtime u) -> time_stamp (localtime t) = time_stamp (localtime u) -> t = u.
Proof.
  assert (Qt := localtime_fields t). assert (Qu := localtime_fields u). assert (Rt := mktime_localtime t). assert (Ru := mktime_localtime u).
  revert Qt Qu Rt Ru. generalize (localtime t) (localtime u). intros a b Qt Qu Rt Ru Ya Yb E. rewrite <- Rt, <- Ru. f_equal. apply time_stamp_inj; try assumption; lia.
Qed.
Lemma from_1900 t : 86400 * year_start 1900 <= t -> 0 <= tm_year (localtime t).
Proof.
  intros T. unfold localtime. cbn [tm_year]. assert (F := find_year_bounds (t / 86400)). assert (year_start 1900 <= t / 86400) by (apply Z.div_le_lower_bound; lia).
  destruct (Z_lt_le_dec (find_year (t / 86400)) 1900) as [L|L]; [|lia]. assert (R := year_mono (find_year (t / 86400) + 1) 1900). lia.
Qed.
Lemma mktime_from_1900 t : 0 <= tm_year t -> 0 <= tm_mon t -> 1 <= tm_mday t -> 0 <= tm_hour t -> 0 <= tm_min t -> 0 <= tm_sec t -> 86400 * year_start 1900 <= mktime t.
Proof.
  destruct t as [y mo d h mi s]. cbn [tm_year tm_mon tm_mday tm_hour tm_min tm_sec]. intros Y Mo D H M S. unfold mktime, day_number. cbn [tm_year tm_mon tm_mday tm_hour tm_min tm_sec].
  assert (Q := month_in_year (y + 1900 + mo / 12) (mo mod 12)). assert (B12 := Z.mod_pos_bound mo 12). assert (P := Z.div_pos mo 12). assert (R := year_mono 1900 (y + 1900 + mo / 12)).
  set (ys := year_start 1900) in *. clearbody ys. lia.
Qed.

Lemma stamps_distinct d s1 s2 : 86400 * year_start 1900 <= mktime d -> 0 <= s1 -> 0 <= s2 -> s1 <> s2 -> output_date d s1 <> output_date d s2.
Proof.
  unfold output_date. rewrite !mktime_add. intros F P1 P2 N E. apply stamps_inj in E; [|apply from_1900|apply from_1900].
  - apply N. lia.
  - revert F. generalize (86400 * year_start 1900). intros. lia.
  - revert F. generalize (86400 * year_start 1900). intros. lia.
Qed.
(** ** C60 *)
(* Different (whole) seconds give different stamps, for every start date *)
Theorem C60_output_names_distinct year month day hour minute second s1 s2 :
  0 <= year -> 0 <= month -> 1 <= day -> 0 <= hour -> 0 <= minute -> 0 <= second -> 0 <= s1 -> 0 <= s2 -> s1 <> s2 ->
  output_date (parse_date year month day hour minute second) s1 <> output_date (parse_date year month day hour minute second) s2.
Proof.
  intros Y Mo D H M S P1 P2 N E. assert (F := mktime_from_1900 (parse_date year month day hour minute second) Y Mo D H M S). exact (stamps_distinct _ s1 s2 F P1 P2 N E).
Qed.
Print Assumptions C60_output_names_distinct.
Lemma mktime_hour t : mktime (Tm (tm_year t) (tm_mon t) (tm_mday t) (tm_hour t + 1) (tm_min t) (tm_sec t)) = mktime t + 3600.
Proof. unfold mktime. cbn [tm_year tm_mon tm_mday tm_hour tm_min tm_sec]. lia. Qed.
Lemma same_month y m d h mi s d' h' mi' s' : mktime (Tm y m d' h' mi' s') - mktime (Tm y m d h mi s) = 86400 * (d' - d) + 3600 * (h' - h) + 60 * (mi' - mi) + (s' - s).
Proof. unfold mktime, day_number. cbn [tm_year tm_mon tm_mday tm_hour tm_min tm_sec]. lia. Qed.
Local Strategy 1000 [mktime localtime time_stamp].
Definition start_of (d : date) : tm := parse_date (year d) (month d) (day d) (hour d) (minute d) (second d).
(* The structure means month M+1 of year Y+1900, and is printed as month M of year Y.  The stamp is right as long as the
   run stays in its first month, not December, and before the day after which the other month ends. *)
Theorem C60_output_stamp_partial d n e k : valid_date d -> later n d e -> month d <= 11 -> year e = year d -> month e = month d ->
  length_of_month (year d + 1900) (month d + 1) k -> day e <= k -> output_date (start_of d) (Z.of_nat n) = stamp_of e.
Proof.
  intros V L Bm Ey Em Lk Dk. destruct (later_spec n d e V L) as (Ve & Se).
  set (d' := Date (year d + 1900) (month d + 1) (day d) (hour d) (minute d) (second d)). set (e' := Date (year d + 1900) (month d + 1) (day e) (hour e) (minute e) (second e)).
  assert (V' : valid_date e') by (destruct Ve as (A & (j & B & C) & D); split; [cbn; destruct V; lia|]; split; [exists k; split; [exact Lk|cbn; lia]|exact D]).
  assert (Ed : start_of d = tm_of d') by (unfold start_of, parse_date, tm_of, d'; cbn; f_equal; lia).
  assert (S' : mktime (tm_of d') + Z.of_nat n = mktime (tm_of e')).
  { clear - Ey Em Se. assert (A := same_month (year d - 1900) (month d - 1) (day d) (hour d) (minute d) (second d) (day e) (hour e) (minute e) (second e)).
    assert (B := same_month (year d + 1900 - 1900) (month d + 1 - 1) (day d) (hour d) (minute d) (second d) (day e) (hour e) (minute e) (second e)).
    unfold tm_of in *. cbn [year month day hour minute second d' e'] in *. rewrite Ey, Em in Se. lia. }
  unfold output_date. rewrite mktime_add, Ed, S', localtime_mktime by exact V'. unfold time_stamp, tm_of, stamp_of, e'. cbn [year month day hour minute second tm_year tm_mon tm_mday tm_hour tm_min tm_sec].
  rewrite Ey, Em. repeat f_equal; lia.
Qed.
Print Assumptions C60_output_stamp_partial.
Example stamp_example : valid_date (Date 2026 3 15 0 0 0) /\ exists e, later 61 (Date 2026 3 15 0 0 0) e /\ year e = 2026 /\ month e = 3 /\ day e <= 30 /\ length_of_month (2026 + 1900) (3 + 1) 30 /\
  output_date (start_of (Date 2026 3 15 0 0 0)) 61 = "2026-03-15.00.01.01".
Proof.
  assert (V : valid_date (Date 2026 3 15 0 0 0)) by (split; [cbn; lia|]; split; [exists 31; split; [apply mar|cbn; lia]|cbn; lia]). split; [exact V|].
  exists (Date 2026 3 15 0 1 1). split.
  { apply (later_S _ _ (Date 2026 3 15 0 1 0)); [|apply (tick_second 2026 3 15 0 1 0); lia]. apply (later_S _ _ (Date 2026 3 15 0 0 59)); [|apply (tick_minute 2026 3 15 0 0); lia].
    assert (K : forall s : nat, Z.of_nat s <= 59 -> later s (Date 2026 3 15 0 0 0) (Date 2026 3 15 0 0 (Z.of_nat s))).
    { induction s as [|s IH]; intros B; [constructor|]. apply (later_S _ _ (Date 2026 3 15 0 0 (Z.of_nat s))); [apply IH; lia|]. rewrite Nat2Z.inj_succ, <- Z.add_1_r. apply tick_second. lia. }
    apply (K 59%nat). lia. }
  cbn [year month day]. split; [lia|]. split; [lia|]. split; [lia|]. split; [apply apr|vm_compute; reflexivity].
Qed.
(* The stamp need not be the date: a valid start date is printed as another one already at time zero (31 January as 3
   "February", 25 December 2026 as month 00 of 2027), and a run crossing the end of February of the other year changes
   month on the wrong day. *)
Theorem C60_output_stamp_refuted :
  (exists d, valid_date d /\ later 0 d d /\ output_date (start_of d) 0 <> stamp_of d) /\
  output_date (start_of (Date 2026 1 31 0 0 0)) 0 = "2026-02-03.00.00.00" /\ output_date (start_of (Date 2026 12 25 0 0 0)) 0 = "2027-00-25.00.00.00" /\
  output_date (start_of (Date 2026 1 28 0 0 0)) 86400 = "2026-02-01.00.00.00".
Proof.
  split; [exists (Date 2026 1 31 0 0 0); split; [|split; [constructor|vm_compute; discriminate]]|vm_compute; auto].
  split; [cbn; lia|]. split; [exists 31; split; [apply jan|cbn; lia]|cbn; lia].
Qed.
Print Assumptions C60_output_stamp_refuted.

(* Forcing files: the k-th file opened after the first is named after the date k hours after the start *)
Definition hourly_name (dir id_type : string) (d : date) : string :=
  dir ++ "/" ++ num 4 (year d) ++ "-" ++ num 2 (month d) ++ "-" ++ num 2 (day d) ++ ":" ++ num 2 (hour d) ++ "-" ++ num 2 (minute d) ++ "." ++ id_type ++ ".bin".
Lemma next_hour_later d e : valid_date d -> later 3600 d e -> next_hour (tm_of d) = tm_of e.
Proof.
  intros V L. destruct (later_spec 3600 d e V L) as (Ve & Se). unfold next_hour. rewrite <- (localtime_mktime e Ve). f_equal. rewrite Se. apply mktime_hour.
Qed.
Lemma later_trans m n d e f : later m d e -> later n e f -> later (n + m) d f.
Proof. intros H G. induction G as [|n e x y G IH T]; [exact H|]. cbn. econstructor; [apply IH, H|exact T]. Qed.
Lemma later_split m n d f : later (n + m) d f -> exists e, later m d e /\ later n e f.
Proof.
  revert f. induction n as [|n IH]; intros f H; [exists f; split; [exact H|constructor]|]. cbn in H. inversion H as [|k a b c Hb T]; subst. destruct (IH b Hb) as (e & A & B). exists e. split; [exact A|]. econstructor; eassumption.
Qed.
Lemma later_unique n d e f : valid_date d -> later n d e -> later n d f -> e = f.
Proof.
  intros V H G. destruct (later_spec n d e V H) as (Ve & E). destruct (later_spec n d f V G) as (Vf & F). assert (K : tm_of e = tm_of f).
  { rewrite <- (localtime_mktime e Ve), <- (localtime_mktime f Vf). f_equal. congruence. }
  destruct e, f. unfold tm_of in K. cbn in K. injection K as K1 K2 -> -> -> ->. f_equal; lia.
Qed.
Lemma forcing_files d dir id_type k e : valid_date d -> later (3600 * k) d e ->
  forcing_file (tm_of d) dir id_type k = (tm_of e, snprintf (PETSC_MAX_PATH_LEN - 1) (hourly_name dir id_type e)).
Proof.
  intros V. revert e. induction k as [|k IH]; intros e L.
  - inversion L; subst. cbn [forcing_file]. unfold RDyForcingDetermineDatasetFilename. rewrite localtime_mktime by exact V. unfold hourly_name, tm_of. cbn [year month day hour minute second tm_year tm_mon tm_mday tm_hour tm_min tm_sec].
    f_equal. f_equal. f_equal. f_equal. replace (year e - 1900 + 1900) with (year e) by lia. replace (month e - 1 + 1) with (month e) by lia. reflexivity.
  - replace (3600 * S k)%nat with (3600 + 3600 * k)%nat in L by lia. apply later_split in L. destruct L as (f & A & B). cbn [forcing_file]. rewrite (IH f A). cbn [fst].
    destruct (later_spec _ d f V A) as (Vf & _). rewrite (next_hour_later f e Vf B). destruct (later_spec _ f e Vf B) as (Ve & _).
    unfold RDyForcingDetermineDatasetFilename. rewrite localtime_mktime by exact Ve. unfold hourly_name, tm_of. cbn [year month day hour minute second tm_year tm_mon tm_mday tm_hour tm_min tm_sec].
    f_equal. f_equal. f_equal. f_equal. replace (year e - 1900 + 1900) with (year e) by lia. replace (month e - 1 + 1) with (month e) by lia. reflexivity.
Qed.
Theorem C60_forcing_file_names y mo d h mi dir id_type k e : valid_date (Date y mo d h mi 0) -> later (3600 * k) (Date y mo d h mi 0) e ->
  (Z.of_nat (String.length (hourly_name dir id_type e)) < PETSC_MAX_PATH_LEN - 1) ->
  snd (forcing_file (forcing_date y mo d h mi) dir id_type k) = hourly_name dir id_type e.
Proof. intros V L F. change (forcing_date y mo d h mi) with (tm_of (Date y mo d h mi 0)). rewrite (forcing_files _ dir id_type k e V L). apply snprintf_fits. exact F. Qed.
Print Assumptions C60_forcing_file_names.
(* ... over the end of a leap February *)
Example forcing_name_example : snd (forcing_file (forcing_date 2024 2 28 23 30) "rain" "int32" 25) = "rain/2024-03-01:00-30.int32.bin" /\
  valid_date (Date 2024 2 28 23 30 0) /\ exists e, later (3600 * 25) (Date 2024 2 28 23 30 0) e.
Proof.
  split; [vm_compute; reflexivity|]. assert (V : valid_date (Date 2024 2 28 23 30 0)).
  { split; [cbn; lia|]. split; [exists 29; split; [apply feb_leap; apply leap_spec; reflexivity|cbn; lia]|cbn; lia]. }
  split; [exact V|]. apply later_exists, V.
Qed.
(* Hence output files of different seconds are different files, if the names fit *)
Theorem C60_output_files_distinct d dir prefix suffix s1 s2 : valid_date d -> 0 <= s1 -> 0 <= s2 -> s1 <> s2 ->
  (forall s, s = s1 \/ s = s2 -> Z.of_nat (String.length (dir ++ "/" ++ prefix ++ "." ++ output_date (start_of d) s ++ "." ++ suffix)) < PETSC_MAX_PATH_LEN - 1) ->
  GenerateTimestampedFilename dir prefix (output_date (start_of d)) s1 suffix <> GenerateTimestampedFilename dir prefix (output_date (start_of d)) s2 suffix.
Proof.
  intros (Y & (k & L & Bd) & H & M & S) P1 P2 N F. unfold GenerateTimestampedFilename. rewrite !snprintf_fits by (apply F; auto).
  intros E. apply append_inj_l in E. apply append_inj_l in E. apply append_inj_l in E. apply append_inj_l in E. apply append_inj_r in E. revert E. apply month_length in L.
  apply C60_output_names_distinct; lia.
Qed.
Print Assumptions C60_output_files_distinct.
