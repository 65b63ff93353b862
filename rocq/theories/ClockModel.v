(** Model of the time tags taken from the clock, osc_timetag.c:570-621.

    What gettimeofday gives is an argument: the seconds and microseconds since
    1970, and the time zone (minutes west of Greenwich and whether daylight
    saving applies).  time_t and suseconds_t are 64 bits wide. *)

From Coq Require Import ZArith List Bool.
From Verif Require Import Base TimetagModel.
Open Scope Z_scope.

(** osc_timetag.c:602-621 osc_timetag_now: the sum is one of uint32_t, the
    product one of suseconds_t, converted to uint32_t. *)
Definition timetag_now (tv_sec tv_usec : Z) : timetag :=
  TT (u32 (2208988800 + u32 tv_sec)) (u32 (tv_usec * 4295)).

(** The product 60 * tz.tz_minuteswest of two ints. *)
Definition west_seconds (minuteswest : Z) : res Z :=
  let p := 60 * minuteswest in
  if (-2147483648 <=? p) && (p <=? 2147483647) then Ok p else Ub Overflow.

(** osc_timetag.c:570-584 osc_timetag_ut_to_ntp: the sum is one of uint64_t and
    is stored in a uint32_t. *)
Definition ut_to_ntp (minuteswest dsttime ut : Z) : res timetag :=
  do w <- west_seconds minuteswest;
  Ok (TT (u32 (u64 (2208988800 + u32 ut - u64 w + (if dsttime =? 1 then 3600 else 0)))) 0).

(** osc_timetag.c:586-599 osc_timetag_ntp_to_ut, in time_t. *)
Definition ntp_to_ut (minuteswest dsttime : Z) (n : timetag) : res Z :=
  do w <- west_seconds minuteswest;
  Ok (sec n - 2208988800 + w - (if dsttime =? 1 then 3600 else 0)).
