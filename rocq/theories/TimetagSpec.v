(** Independent vocabulary for the time tag properties: 64-bit fixed-point
    time and the Gregorian calendar. *)

From Coq Require Import ZArith List Bool.
Import ListNotations.
Open Scope Z_scope.

(** The instant a (seconds, fraction) pair denotes, in units of 2^-32 s. *)
Definition instant (s f : Z) : Z := s * 2^32 + f.

Definition in32 (x : Z) : Prop := 0 <= x < 2^32.

Definition leap_year (y : Z) : bool :=
  (y mod 4 =? 0) && (negb (y mod 100 =? 0) || (y mod 400 =? 0)).

Definition month_days (y m : Z) : Z :=
  if m =? 2 then (if leap_year y then 29 else 28)
  else if (m =? 4) || (m =? 6) || (m =? 9) || (m =? 11) then 30 else 31.

Definition year_days (y : Z) : Z := if leap_year y then 366 else 365.

(** A calendar date from 1900 on. *)
Definition valid_date (y m d : Z) : Prop :=
  1900 <= y /\ 1 <= m <= 12 /\ 1 <= d <= month_days y m.

(** Days from 1900-01-01 to the first day of year [1900 + n]. *)
Fixpoint days_before_year (n : nat) : Z :=
  match n with
  | O => 0
  | S m => days_before_year m + year_days (1900 + Z.of_nat m)
  end.

(** Days from the first of January of [y] to the first of month [1 + n]. *)
Fixpoint days_before_month (y : Z) (n : nat) : Z :=
  match n with
  | O => 0
  | S m => days_before_month y m + month_days y (1 + Z.of_nat m)
  end.

(** Days from the NTP epoch, 1900-01-01, to a date. *)
Definition day_number (y m d : Z) : Z :=
  days_before_year (Z.to_nat (y - 1900)) + days_before_month y (Z.to_nat (m - 1)) + (d - 1).

(** Seconds from the NTP epoch to a date and time of day. *)
Definition ntp_seconds (y m d H M S : Z) : Z :=
  day_number y m d * 86400 + H * 3600 + M * 60 + S.

Definition valid_time (H M S : Z) : Prop := 0 <= H < 24 /\ 0 <= M < 60 /\ 0 <= S < 60.

(** YYYY-MM-DD and hh:mm:ss. *)
Definition dd (v : Z) : list Z := [48 + v / 10; 48 + v mod 10].
Definition iso_date (y m d : Z) : list Z :=
  dd (y / 100) ++ dd (y mod 100) ++ [45] ++ dd m ++ [45] ++ dd d.
Definition iso_time (H M S : Z) : list Z := dd H ++ [58] ++ dd M ++ [58] ++ dd S.
Definition iso_string (y m d H M S : Z) : list Z := iso_date y m d ++ [84] ++ iso_time H M S.
