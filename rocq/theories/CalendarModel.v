(** Dates in file names: src/rdyadvance.c:82-104 (output), src/forcing/rdyforcing_dataset.c:105-113, 165-176 (forcing),
    src/yaml_input.c:947-951 (start date).  The C library is modelled with local time = UTC and no limit on time_t. *)
From Verif Require Import Base SetupModel OutputModel.
From Coq Require Import ZArith String Ascii.
Local Open Scope string_scope.
Local Open Scope Z_scope.

(** ** The C library *)
(* struct tm: years since 1900, months 0-11, days 1-31 *)
Record tm := Tm { tm_year : Z; tm_mon : Z; tm_mday : Z; tm_hour : Z; tm_min : Z; tm_sec : Z }.
Definition leap (y : Z) : bool := ((y mod 4 =? 0) && negb (y mod 100 =? 0) || (y mod 400 =? 0))%bool.
(* days of month m = 0..11 of year y *)
Definition month_days (y m : Z) : Z :=
  match m with 0 => 31 | 1 => if leap y then 29 else 28 | 2 => 31 | 3 => 30 | 4 => 31 | 5 => 30 | 6 => 31 | 7 => 31 | 8 => 30 | 9 => 31 | 10 => 30 | _ => 31 end.
(* days of year y before month m *)
Definition month_start (y m : Z) : Z :=
  match m with 0 => 0 | 1 => 31 | _ => 
    (if leap y then 1 else 0) + match m with 2 => 59 | 3 => 90 | 4 => 120 | 5 => 151 | 6 => 181 | 7 => 212 | 8 => 243 | 9 => 273 | 10 => 304 | _ => 334 end end.
(* days from 1 January of year 1 to 1 January of year y *)
Definition year_start (y : Z) : Z := 365 * (y - 1) + (y - 1) / 4 - (y - 1) / 100 + (y - 1) / 400.
Definition day_number (y m d : Z) : Z := year_start y + month_start y m + (d - 1).
(* mktime: values outside their ranges are carried over.  (Seconds from 1 January of year 1 instead of 1970.) *)
Definition mktime (t : tm) : Z :=
  let y := tm_year t + 1900 + tm_mon t / 12 in let m := tm_mon t mod 12 in
  86400 * day_number y m (tm_mday t) + 3600 * tm_hour t + 60 * tm_min t + tm_sec t.
(* localtime: the year is found from the average length of years, the month by search *)
Definition find_year (day : Z) : Z :=
  let y := 400 * day / 146097 in
  if year_start (y + 2) <=? day then y + 2 else if year_start (y + 1) <=? day then y + 1 else if year_start y <=? day then y else y - 1.
Fixpoint month_search (y day : Z) (k : nat) : Z :=
  match k with O => 0 | S k' => if month_start y (Z.of_nat k) <=? day then Z.of_nat k else month_search y day k' end.
Definition find_month (y day : Z) : Z := month_search y day 11.
Definition localtime (t : Z) : tm :=
  let day := t / 86400 in let s := t mod 86400 in
  let y := find_year day in let m := find_month y (day - year_start y) in
  Tm (y - 1900) m (day - year_start y - month_start y m + 1) (s / 3600) (s mod 3600 / 60) (s mod 60).

(** ** RDycore *)
(* "%0<w>d" of a number that is not negative *)
Definition num (w : nat) (z : Z) : string := padded w (Z.to_nat z).
(* rdyadvance.c:86: the fields of the structure are printed as they are *)
Definition time_stamp (t : tm) : string :=
  num 4 (tm_year t) ++ "-" ++ num 2 (tm_mon t) ++ "-" ++ num 2 (tm_mday t) ++ "." ++ num 2 (tm_hour t) ++ "." ++ num 2 (tm_min t) ++ "." ++ num 2 (tm_sec t).
(* yaml_input.c:948: the numbers of the text YYYY-MM-DD-hh:mm:ss go into the structure as they are *)
Definition parse_date (year month day hour minute second : Z) : tm := Tm year month day hour minute second.
(* rdyadvance.c:101-104: [seconds] is (time_t)time *)
Definition add_seconds (t : tm) (seconds : Z) : tm := Tm (tm_year t) (tm_mon t) (tm_mday t) (tm_hour t) (tm_min t) (tm_sec t + seconds).
(* the function oc_date of OutputModel *)
Definition output_date (date : tm) (seconds : Z) : string := time_stamp (localtime (mktime (add_seconds date seconds))).

(* rdyforcing.c:356-364: the numbers of -raster_rain_start_date *)
Definition forcing_date (year month day hour minute : Z) : tm := Tm (year - 1900) (month - 1) day hour minute 0.
(* rdyforcing_dataset.c:108-114; mktime normalises its argument.  "%4d" pads with blanks; years here have four digits. *)
Definition RDyForcingDetermineDatasetFilename (date : tm) (dir id_type : string) : tm * string :=
  let date := localtime (mktime date) in
  (date, snprintf (PETSC_MAX_PATH_LEN - 1) (dir ++ "/" ++ num 4 (tm_year date + 1900) ++ "-" ++ num 2 (tm_mon date + 1) ++ "-" ++ num 2 (tm_mday date) ++ ":"
     ++ num 2 (tm_hour date) ++ "-" ++ num 2 (tm_min date) ++ "." ++ id_type ++ ".bin")).
(* 168-175, 257-264: advance by an hour *)
Definition next_hour (date : tm) : tm := localtime (mktime (Tm (tm_year date) (tm_mon date) (tm_mday date) (tm_hour date + 1) (tm_min date) (tm_sec date))).
Fixpoint forcing_file (date : tm) (dir id_type : string) (k : nat) : tm * string :=
  match k with
  | O => RDyForcingDetermineDatasetFilename date dir id_type
  | S k => RDyForcingDetermineDatasetFilename (next_hour (fst (forcing_file date dir id_type k))) dir id_type
  end.
