(** Specification vocabulary for times: the texts of UTCTime and
    GeneralizedTime, the calendar, and the order of instants. *)
From Coq Require Import List ZArith Bool.
From Verif.Model Require Import Base GoTime.
From Verif.Spec Require Import ObjSpec.
Import ListNotations.
Open Scope Z_scope.

(** ** Instants *)
Definition sum (l : list Z) : Z := fold_right Z.add 0 l.
Definition months : list Z := [1; 2; 3; 4; 5; 6; 7; 8; 9; 10; 11; 12].
(** The days of the first [n] years, counted from year 0, *)
Fixpoint years (n : nat) : Z :=
  match n with
  | O => 0
  | S k => years k + sum (map (month_days (Z.of_nat k)) months)
  end.
(** the days before a date since the beginning of year 0, *)
Definition day_number (y m d : Z) : Z :=
  years (Z.to_nat y) + sum (map (month_days y) (filter (fun k => k <? m) months)) + (d - 1).
(** and the seconds since the beginning of 1970 in UTC. *)
Definition instant (t : gotime) : Z :=
  (((day_number (tm_year t) (tm_month t) (tm_day t) - day_number 1970 1 1) * 24 + tm_hour t) * 60 + tm_min t
   - tm_off t) * 60 + tm_sec t.

(** The order of dates and times of one zone, field by field. *)
Fixpoint before (a b : list Z) : Prop :=
  match a, b with
  | x :: a', y :: b' => x < y \/ x = y /\ before a' b'
  | _, _ => False
  end.
Definition fields (t : gotime) : list Z := [tm_year t; tm_month t; tm_day t; tm_hour t; tm_min t; tm_sec t].

(** ** Texts *)
Definition decimal (l : bytes) : Z := fold_left (fun n b => n * 10 + (b - 48)) l 0.
(** [l] consists of [k] decimal digits with value [n]. *)
Definition number (k : nat) (l : bytes) (n : Z) : Prop :=
  length l = k /\ Forall (fun b => 48 <= b <= 57) l /\ decimal l = n.

(** "Z", or sign, hours and minutes, not both 0 *)
Definition zone_text (l : bytes) (off : Z) : Prop :=
  (l = [90] /\ off = 0) \/
  exists s h m hh mm, l = s :: h ++ m /\ number 2 h hh /\ number 2 m mm /\ mm < 60 /\ off <> 0 /\
    ((s = 43 /\ off = hh * 60 + mm) \/ (s = 45 /\ off = - (hh * 60 + mm))).

(** Month, day, hour, minute, perhaps second, zone *)
Definition after_year (secs : bool) (l : bytes) (t : gotime) : Prop :=
  exists mo da ho mi se z, l = mo ++ da ++ ho ++ mi ++ se ++ z /\
    number 2 mo (tm_month t) /\ number 2 da (tm_day t) /\ number 2 ho (tm_hour t) /\ number 2 mi (tm_min t) /\
    (if secs then number 2 se (tm_sec t) else se = [] /\ tm_sec t = 0) /\ zone_text z (tm_off t).

(** A GeneralizedTime (without fractions of a second) *)
Definition generalized_text (l : bytes) (t : gotime) : Prop :=
  exists y r, l = y ++ r /\ number 4 y (tm_year t) /\ after_year true r t /\ calendar t.
(** A UTCTime, with or without seconds: years 1950 to 2049 *)
Definition utc_text (l : bytes) (t : gotime) : Prop :=
  exists y r yy secs, l = y ++ r /\ number 2 y yy /\ tm_year t = (if yy <? 50 then 2000 else 1900) + yy /\
    after_year secs r t /\ calendar t.
