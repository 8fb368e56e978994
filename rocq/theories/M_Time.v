(** Calendar dates and RFC 3339 text of points in time (Go package time, UTC only). *)
From Verif Require Import Base M_Decimal.
Local Open Scope Z_scope.

(** Date of a day counted from 0001-01-01, proleptic Gregorian calendar (time.Time.Date).  The standard library
    counts years from 0 and days from January; the arithmetic here counts 400-year eras from March. *)
Definition date_of_doe (doe : Z) : Z * Z * Z :=
  let yoe := (doe - doe / 1460 + doe / 36524 - doe / 146096) / 365 in
  let doy := doe - (365 * yoe + yoe / 4 - yoe / 100) in
  let mp := (5 * doy + 2) / 153 in
  let d := doy - (153 * mp + 2) / 5 + 1 in
  let m := if mp <? 10 then mp + 3 else mp - 9 in
  ((if m <=? 2 then yoe + 1 else yoe), m, d).
Definition date_of_day (day : Z) : Z * Z * Z :=
  let z := day + 306 in
  let '(y, m, d) := date_of_doe (z mod 146097) in
  (y + 400 * (z / 146097), m, d).

(** time.appendInt: decimal, zero-padded to a width, sign first. *)
Definition pad (w : nat) (s : bytes) : bytes := repeat 48%N (w - length s) ++ s.
Definition append_int (w : nat) (z : Z) : bytes :=
  if z <? 0 then 45%N :: pad w (dec (Z.abs_N z)) else pad w (dec (Z.to_N z)).

(** t.UTC().Format(time.RFC3339), with t in nanoseconds since 0001-01-01T00:00:00Z. *)
Definition rfc3339 (t : Z) : bytes :=
  let secs := t / 1000000000 in
  let '(y, m, d) := date_of_day (secs / 86400) in
  let s := secs mod 86400 in
  append_int 4 y ++ bs "-" ++ append_int 2 m ++ bs "-" ++ append_int 2 d ++ bs "T" ++
  append_int 2 (s / 3600) ++ bs ":" ++ append_int 2 (s / 60 mod 60) ++ bs ":" ++ append_int 2 (s mod 60) ++ bs "Z".
