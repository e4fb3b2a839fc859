(** Calendar and formatting of dates: the parts of chrono 0.4 (not part of /repo) used by
    imap-codec, and imap-types/src/datetime.rs validation. *)

From Verif Require Import Bytes Types Base64.
Open Scope N_scope.

(** One, two and four zero-padded decimal digits. *)
Definition digit (n : N) : byte := byte_of (48 + n).
Definition dec2 (n : N) : bytes := [digit (n / 10 mod 10); digit (n mod 10)].
Definition dec4 (n : N) : bytes :=
  [digit (n / 1000 mod 10); digit (n / 100 mod 10); digit (n / 10 mod 10); digit (n mod 10)].

(** chrono [%b] *)
Definition month_str (m : N) : bytes :=
  match m with
  | 1 => bs "Jan" | 2 => bs "Feb" | 3 => bs "Mar" | 4 => bs "Apr" | 5 => bs "May"
  | 6 => bs "Jun" | 7 => bs "Jul" | 8 => bs "Aug" | 9 => bs "Sep" | 10 => bs "Oct"
  | 11 => bs "Nov" | _ => bs "Dec"
  end.

(** Gregorian calendar: which (y, m, d) [NaiveDate::from_ymd_opt] accepts (for years in
    chrono's range, which contains 0..=9999). *)
Definition leap (y : N) : bool :=
  N.eqb (y mod 4) 0 && (negb (N.eqb (y mod 100) 0) || N.eqb (y mod 400) 0).
Definition days_in_month (y m : N) : N :=
  match m with
  | 2 => if leap y then 29 else 28
  | 4 | 6 | 9 | 11 => 30
  | _ => 31
  end.
Definition ymd_ok (y m d : N) : bool :=
  N.leb 1 m && N.leb m 12 && N.leb 1 d && N.leb d (days_in_month y m).

(** [format("%d-%b-%Y")]: encode.rs:1070-1074 *)
Definition format_date (d : naive_date) : bytes :=
  dec2 (d_day d) ++ bs "-" ++ month_str (d_month d) ++ bs "-" ++ dec4 (d_year d).

(** [format("%d-%b-%Y %H:%M:%S %z")]: encode.rs:2024-2028 *)
Definition format_zone (o : Z) : bytes :=
  (if Z.ltb o 0 then bs "-" else bs "+") ++
  dec2 (Z.to_N (Z.abs o / 3600)) ++ dec2 (Z.to_N (Z.abs o / 60 mod 60)).
Definition format_date_time (t : date_time) : bytes :=
  format_date (dt_date t) ++ bs " " ++ dec2 (dt_hour t) ++ bs ":" ++ dec2 (dt_min t)
    ++ bs ":" ++ dec2 (dt_sec t) ++ bs " " ++ format_zone (dt_offset t).
