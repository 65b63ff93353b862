(** The clock and what a time tag stands for. *)

From Coq Require Import ZArith.
From Verif Require Import TimetagModel.
Open Scope Z_scope.

(** A reading of the clock: seconds and microseconds since 1970, up to the
    7th of February 2036, 06:28:15, the last second a time tag can hold. *)
Definition reading (s us : Z) : Prop := 0 <= s < 2085978496 /\ 0 <= us < 1000000.

(** That instant in microseconds since 1900, when time tags begin. *)
Definition instant (s us : Z) : Z := (s + 2208988800) * 1000000 + us.

(** The instant a time tag stands for, in units of 2^-32 of a second. *)
Definition ticks (t : timetag) : Z := sec t * 2 ^ 32 + frac t.

(** By how much a time tag is ahead of an instant, in units of 2^-32 of a
    microsecond. *)
Definition ahead (t : timetag) (i : Z) : Z := ticks t * 1000000 - i * 2 ^ 32.
