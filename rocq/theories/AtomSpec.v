(** What typed access to numbers means (C27, C28, C44-C47). *)

From Coq Require Import ZArith List Bool QArith.
Import ListNotations.
Open Scope Z_scope.

(** The integer types of the library. *)
Inductive ity := I8 | I16 | I32 | I64 | U8 | U16 | U32 | U64.
Definition width (t : ity) : Z :=
  match t with I8 | U8 => 8 | I16 | U16 => 16 | I32 | U32 => 32 | I64 | U64 => 64 end.
Definition signed (t : ity) : bool :=
  match t with I8 | I16 | I32 | I64 => true | _ => false end.
Definition in_type (t : ity) (v : Z) : Prop :=
  if signed t then - 2^(width t - 1) <= v < 2^(width t - 1) else 0 <= v < 2^width t.

(** [r] is [v] converted to the type [t]: the value of the type that is
    congruent to [v] modulo 2 to the width. *)
Definition converted (t : ity) (v r : Z) : Prop := in_type t r /\ (r - v) mod 2^width t = 0.

(** The number an IEEE 754 bit pattern stands for: a sign bit, [eb] bits of
    exponent, [mb] bits of fraction; none for infinities and NaNs. *)
Definition ieee_value (mb eb bits : Z) : option Q :=
  let sign := Z.testbit bits (mb + eb) in
  let E := (bits / 2^mb) mod 2^eb in
  let frac := (inject_Z (bits mod 2^mb) / inject_Z (2^mb))%Q in
  let bias := 2^(eb - 1) - 1 in
  if E =? 2^eb - 1 then None else
  Some ((if sign then - (1) else 1) *
        (if E =? 0 then frac * (2#1)^(1 - bias) else (1 + frac) * (2#1)^(E - bias)))%Q.
Definition float_value := ieee_value 23 8.
Definition double_value := ieee_value 52 11.

(** [z] is [q] rounded towards zero. *)
Definition truncates_to (q : Q) (z : Z) : Prop :=
  (0 <= q -> inject_Z z <= q < inject_Z (z + 1))%Q /\
  (q <= 0 -> inject_Z (z - 1) < q <= inject_Z z)%Q.

(** The decimal numeral of [n], in ASCII. *)
Fixpoint decimal (fuel : nat) (n : Z) : list Z :=
  match fuel with
  | O => []
  | S f => if n <? 10 then [48 + n] else decimal f (n / 10) ++ [48 + n mod 10]
  end.
Definition digit_string (n : Z) : list Z := decimal (Z.to_nat (1 + Z.log2 n)) n.
Definition numeral (z : Z) : list Z := if z <? 0 then 45 :: digit_string (- z) else digit_string z.
