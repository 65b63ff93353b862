(** What rounding to a floating point format means (C44, C50): to the nearest
    number of the format, to the one with even last bit when two are equally
    near, and to infinity from half a unit beyond the greatest number on. *)

From Coq Require Import ZArith QArith Qabs.
From Verif Require Import AtomSpec.
Open Scope Z_scope.

(** [bits] is a pattern of the format whose number is nearest to [x]. *)
Definition nearest (mb eb : Z) (x : Q) (bits : Z) : Prop :=
  exists v, ieee_value mb eb bits = Some v /\
  forall b w, ieee_value mb eb b = Some w ->
    (Qabs (v - x) <= Qabs (w - x))%Q /\
    ((Qabs (v - x) == Qabs (w - x))%Q -> (w == v)%Q \/ Z.even bits = true).

(** The pattern of the infinities. *)
Definition infinity (mb eb : Z) (negative : bool) : Z :=
  (if negative then 2^(mb + eb) else 0) + (2^eb - 1) * 2^mb.

(** Half a unit beyond the greatest number of the format. *)
Definition overflow_limit (mb eb : Z) : Q :=
  (inject_Z (2^(mb + 2) - 1) * (2#1)^(2^(eb - 1) - mb - 2))%Q.

(** [bits] is the number [x], which has the given sign, rounded.  Zero may have
    either sign. *)
Definition rounds (mb eb : Z) (negative : bool) (x : Q) (bits : Z) : Prop :=
  (if negative then x <= 0 else 0 <= x)%Q /\
  Z.testbit bits (mb + eb) = negative /\
  ((Qabs x < overflow_limit mb eb)%Q -> nearest mb eb x bits) /\
  ((overflow_limit mb eb <= Qabs x)%Q -> bits = infinity mb eb negative).

(** NaN: all exponent bits set and a fraction that is not zero. *)
Definition is_nan (mb eb bits : Z) : Prop :=
  bits / 2^mb mod 2^eb = 2^eb - 1 /\ bits mod 2^mb <> 0.
