(** The times that encoding/asn1 reads and writes: broken-down date, time of
    day and zone offset (time.Time; fractions of a second and offsets that are
    not whole minutes cannot occur in these formats).  Cited as in [Der.v]. *)
From Verif.Model Require Import Base Str.

Record gotime := mkTime {
  tm_year : Z; tm_month : Z; tm_day : Z; tm_hour : Z; tm_min : Z; tm_sec : Z;
  tm_off : Z     (* minutes east of UTC *) }.

(** The zero value of time.Time *)
Definition time0 : gotime := mkTime 1 1 1 0 0 0 0.
Definition time_is_zero (t : gotime) : bool :=
  (tm_year t =? 1) && (tm_month t =? 1) && (tm_day t =? 1) && (tm_hour t =? 0)
  && (tm_min t =? 0) && (tm_sec t =? 0) && (tm_off t =? 0).

(** time.daysIn *)
Definition leap (y : Z) : bool := (y mod 4 =? 0) && (negb (y mod 100 =? 0) || (y mod 400 =? 0)).
Definition days_in (m y : Z) : Z :=
  if m =? 2 then (if leap y then 29 else 28)
  else if (m =? 4) || (m =? 6) || (m =? 9) || (m =? 11) then 30 else 31.

(** Seconds since 1970-01-01 00:00 UTC (time.Time.Unix); days are counted in
    years that begin in March. *)
Definition unix_days (y m d : Z) : Z :=
  let y' := if m <=? 2 then y - 1 else y in
  let era := y' / 400 in
  let yoe := y' - era * 400 in
  let mp := (m + 9) mod 12 in
  let doy := (153 * mp + 2) / 5 + d - 1 in
  let doe := yoe * 365 + yoe / 4 - yoe / 100 + doy in
  era * 146097 + doe - 719468.
Definition unix (t : gotime) : Z :=
  unix_days (tm_year t) (tm_month t) (tm_day t) * 86400
  + tm_hour t * 3600 + tm_min t * 60 + tm_sec t - tm_off t * 60.

Definition digit (b : Z) : bool := (48 <=? b) && (b <=? 57).

(** A number of [k] digits *)
Fixpoint read_num (k : nat) (acc : Z) (l : bytes) : option (Z * bytes) :=
  match k, l with
  | O, _ => Some (acc, l)
  | S j, b :: r => if digit b then read_num j (acc * 10 + (b - 48)) r else None
  | S _, [] => None
  end.

(** The zone "Z0700" of time.Parse, as far as Time.Format gives the same text
    again: Z, or a sign with hours up to 24 and minutes, not both 0. *)
Definition read_zone (l : bytes) : option Z :=
  match l with
  | [90] => Some 0
  | s :: r =>
      if (s =? 43) || (s =? 45) then
        match read_num 2 0 r with
        | Some (hh, r1) =>
            match read_num 2 0 r1 with
            | Some (mm, []) =>
                if (hh <=? 24) && (mm <=? 59) && (0 <? hh * 60 + mm)
                then Some (if s =? 43 then hh * 60 + mm else - (hh * 60 + mm)) else None
            | _ => None
            end
        | None => None
        end
      else None
  | [] => None
  end.

Definition bindo {A B} (x : option A) (f : A -> option B) : option B :=
  match x with Some a => f a | None => None end.
Notation "'let?' x ':=' e 'in' k" := (bindo e (fun x => k))
  (at level 200, x pattern, e at level 100, k at level 200, right associativity).

Definition date_ok (y m d hh mm ss : Z) : bool :=
  (1 <=? m) && (m <=? 12) && (1 <=? d) && (d <=? days_in m y)
  && (hh <=? 23) && (mm <=? 59) && (ss <=? 59).

(** The fields after the year, with or without seconds *)
Definition read_date (secs : bool) (y : Z) (l : bytes) : option gotime :=
  let? (m, l) := read_num 2 0 l in
  let? (d, l) := read_num 2 0 l in
  let? (hh, l) := read_num 2 0 l in
  let? (mm, l) := read_num 2 0 l in
  let? (ss, l) := (if secs then read_num 2 0 l else Some (0, l)) in
  let? off := read_zone l in
  if date_ok y m d hh mm ss then Some (mkTime y m d hh mm ss off) else None.

(** asn1/asn1.go:369-393 parseUTCTime; two-digit years from 50 on are 19xx. *)
Definition parse_utc (l : bytes) : option gotime :=
  let? (yy, r) := read_num 2 0 l in
  let y := if yy <? 50 then 2000 + yy else 1900 + yy in
  match read_date false y r with
  | Some t => Some t
  | None => read_date true y r
  end.

(** asn1/asn1.go:397-410 parseGeneralizedTime *)
Definition parse_generalized (l : bytes) : option gotime :=
  let? (y, r) := read_num 4 0 l in read_date true y r.

(** asn1/marshal.go:309-320 appendTwoDigits, appendFourDigits *)
Definition two_digits (v : Z) : bytes := [48 + v / 10 mod 10; 48 + v mod 10].
Definition four_digits (v : Z) : bytes :=
  [48 + v / 1000 mod 10; 48 + v / 100 mod 10; 48 + v / 10 mod 10; 48 + v mod 10].

(** asn1/marshal.go:375-407 appendTimeCommon *)
Definition put_common (t : gotime) : bytes :=
  two_digits (tm_month t) ++ two_digits (tm_day t) ++ two_digits (tm_hour t)
  ++ two_digits (tm_min t) ++ two_digits (tm_sec t)
  ++ (if tm_off t =? 0 then [90]
      else (if 0 <? tm_off t then 43 else 45)
           :: two_digits (Z.abs (tm_off t) / 60) ++ two_digits (Z.abs (tm_off t) mod 60)).

(** asn1/marshal.go:349-373 appendUTCTime, appendGeneralizedTime *)
Definition put_utc (t : gotime) : option bytes :=
  let y := tm_year t in
  if (1950 <=? y) && (y <? 2000) then Some (two_digits (y - 1900) ++ put_common t)
  else if (2000 <=? y) && (y <? 2050) then Some (two_digits (y - 2000) ++ put_common t)
  else None.
Definition put_generalized (t : gotime) : option bytes :=
  if (tm_year t <? 0) || (9999 <? tm_year t) then None
  else Some (four_digits (tm_year t) ++ put_common t).
