(** Model of the integer accessors of serialized atoms, osc_atom_s.c, and of
    the C conversions they use. *)

From Coq Require Import ZArith List Bool.
From Verif Require Import Base Bytes UtilModel TimetagModel.
Import ListNotations.
Open Scope Z_scope.

(** * C conversions *)

(** Value of an IEEE 754 bit pattern with [mb] mantissa and [eb] exponent bits,
    rounded towards zero; [None] for infinities and NaNs. *)
Definition ieee_trunc (mb eb bits : Z) : option Z :=
  let m := bits mod 2^mb in
  let e := bits / 2^mb mod 2^eb in
  let sign := bits / 2^(mb + eb) mod 2 in
  if e =? 2^eb - 1 then None else
  let mant := if e =? 0 then m else m + 2^mb in
  let ex := (if e =? 0 then 1 else e) - (2^(eb - 1) - 1) - mb in
  let v := if 0 <=? ex then mant * 2^ex else mant / 2^(- ex) in
  Some (if sign =? 1 then - v else v).
Definition trunc32 := ieee_trunc 23 8.
Definition trunc64 := ieee_trunc 52 11.

(** Conversion of a floating value to an integer type with the given range:
    undefined when the truncated value does not fit (C11 6.3.1.4). *)
Definition to_range (lo hi : Z) (v : option Z) : res Z :=
  match v with
  | Some z => if (lo <=? z) && (z <=? hi) then Ok z else Ub Overflow
  | None => Ub Overflow
  end.

(** strtol, strtoll with base 10 on a 64-bit host: white space, an optional
    sign, digits; the result is clamped. *)
Definition is_space (c : Z) : bool := (c =? 32) || ((9 <=? c) && (c <=? 13)).
Definition is_digit (c : Z) : bool := (48 <=? c) && (c <=? 57).
Fixpoint skip_space (s : list Z) : list Z :=
  match s with
  | c :: s' => if is_space c then skip_space s' else s
  | [] => []
  end.
Fixpoint digits (acc : Z) (s : list Z) : Z :=
  match s with
  | c :: s' => if is_digit c then digits (10 * acc + (c - 48)) s' else acc
  | [] => acc
  end.
Definition strto_magnitude (s : list Z) : bool * Z :=
  match skip_space s with
  | c :: s' => if c =? 45 then (true, digits 0 s')
               else if c =? 43 then (false, digits 0 s')
               else (false, digits 0 (c :: s'))
  | [] => (false, 0)
  end.
Definition strtol (s : list Z) : Z :=
  let (neg, v) := strto_magnitude s in
  if neg then Z.max (- 2^63) (- v) else Z.min (2^63 - 1) v.
(** strtoul, strtoull: too large magnitudes give ULONG_MAX, a minus sign
    negates in the unsigned type. *)
Definition strtoul (s : list Z) : Z :=
  let (neg, v) := strto_magnitude s in
  if v >? 2^64 - 1 then 2^64 - 1 else if neg then u64 (- v) else v.

(** * osc_atom_s.c: accessors of the atom with type tag [tg] and data at
    offset [p] of [buf].  [ntoh32] yields an unsigned value whatever the type
    of its operand. *)

(** osc_atom_s.c:175-219 osc_atom_s_getInt32. *)
Definition as_int32 (buf : bytes) (tg p : Z) : res Z :=
  if (tg =? 105) || (tg =? 99) || (tg =? 117) then do n <- rd32 buf p; Ok (s32 n)
  else if tg =? 102 then do n <- rd32 buf p; to_range (- 2^31) (2^31 - 1) (trunc32 n)
  else if tg =? 100 then do n <- rd64 buf p; to_range (- 2^31) (2^31 - 1) (trunc64 n)
  else if tg =? 104 then do n <- rd64 buf p; Ok (s32 n)
  else if (tg =? 67) || (tg =? 85) || (tg =? 73) then do n <- rd32 buf p; Ok (s32 n)
  else if tg =? 72 then do n <- rd64 buf p; Ok (s32 n)
  else if tg =? 115 then do s <- rdstr buf p; Ok (s32 (strtol s))
  else if tg =? 84 then Ok 1
  else Ok 0.

(** osc_atom_s.c:165-173 osc_atom_s_getInt8 and getInt16. *)
Definition as_int8 (buf : bytes) (tg p : Z) : res Z := do v <- as_int32 buf tg p; Ok (s8 v).
Definition as_int16 (buf : bytes) (tg p : Z) : res Z := do v <- as_int32 buf tg p; Ok (s16 v).

(** osc_atom_s.c:221-263 osc_atom_s_getInt64. *)
Definition as_int64 (buf : bytes) (tg p : Z) : res Z :=
  if tg =? 104 then do n <- rd64 buf p; Ok (s64 n)
  else if (tg =? 99) || (tg =? 117) || (tg =? 105) then do n <- rd32 buf p; Ok (s64 n)
  else if tg =? 100 then do n <- rd64 buf p; to_range (- 2^63) (2^63 - 1) (trunc64 n)
  else if tg =? 102 then do n <- rd32 buf p; to_range (- 2^63) (2^63 - 1) (trunc32 n)
  else if tg =? 73 then do n <- rd32 buf p; Ok (s64 n)
  else if (tg =? 67) || (tg =? 85) || (tg =? 72) then do n <- rd64 buf p; Ok (s64 n)
  else if tg =? 115 then do s <- rdstr buf p; Ok (s64 (strtol s))
  else if tg =? 84 then Ok 1
  else Ok 0.

(** osc_atom_s.c:275-319 osc_atom_s_getUInt32. *)
Definition as_uint32 (buf : bytes) (tg p : Z) : res Z :=
  if tg =? 73 then rd32 buf p
  else if (tg =? 67) || (tg =? 85) || (tg =? 99) || (tg =? 117) || (tg =? 105) then
    do n <- rd32 buf p; Ok (u32 n)
  else if tg =? 102 then do n <- rd32 buf p; to_range 0 (2^32 - 1) (trunc32 n)
  else if tg =? 100 then do n <- rd64 buf p; to_range 0 (2^32 - 1) (trunc64 n)
  else if (tg =? 104) || (tg =? 72) then do n <- rd64 buf p; Ok (u32 n)
  else if tg =? 115 then do s <- rdstr buf p; Ok (u32 (strtoul s))
  else if tg =? 84 then Ok 1
  else Ok 0.

(** osc_atom_s.c:265-273 osc_atom_s_getUInt8 and getUInt16. *)
Definition as_uint8 (buf : bytes) (tg p : Z) : res Z := do v <- as_uint32 buf tg p; Ok (u8 v).
Definition as_uint16 (buf : bytes) (tg p : Z) : res Z := do v <- as_uint32 buf tg p; Ok (u16 v).

(** osc_atom_s.c:321-363 osc_atom_s_getUInt64. *)
Definition as_uint64 (buf : bytes) (tg p : Z) : res Z :=
  if tg =? 72 then rd64 buf p
  else if (tg =? 99) || (tg =? 117) || (tg =? 105) then do n <- rd32 buf p; Ok (u64 n)
  else if tg =? 104 then do n <- rd64 buf p; Ok (u64 n)
  else if (tg =? 67) || (tg =? 85) || (tg =? 73) then do n <- rd32 buf p; Ok (u64 n)
  else if tg =? 102 then do n <- rd32 buf p; to_range 0 (2^64 - 1) (trunc32 n)
  else if tg =? 100 then do n <- rd64 buf p; to_range 0 (2^64 - 1) (trunc64 n)
  else if tg =? 115 then do s <- rdstr buf p; Ok (u64 (strtoul s))
  else if tg =? 84 then Ok 1
  else Ok 0.

(** osc_atom_s.c:365-408 osc_atom_s_getInt: 'c' and 'u' fall into the float
    case. *)
Definition as_int (buf : bytes) (tg p : Z) : res Z :=
  if tg =? 105 then do n <- rd32 buf p; Ok (s32 n)
  else if (tg =? 99) || (tg =? 117) || (tg =? 102) then
    do n <- rd32 buf p; to_range (- 2^31) (2^31 - 1) (trunc32 n)
  else if tg =? 100 then do n <- rd64 buf p; to_range (- 2^31) (2^31 - 1) (trunc64 n)
  else if tg =? 104 then do n <- rd64 buf p; Ok (s32 n)
  else if (tg =? 67) || (tg =? 85) || (tg =? 73) then do n <- rd32 buf p; Ok (s32 n)
  else if tg =? 72 then do n <- rd64 buf p; Ok (s32 n)
  else if tg =? 115 then do s <- rdstr buf p; Ok (s32 (strtol s))
  else if tg =? 84 then Ok 1
  else Ok 0.

(** osc_atom_s.c:81-94, 121-131: the bits osc_atom_s_getFloat returns for 'f'
    and osc_atom_s_getDouble for 'd' (conversions between the formats are not
    modelled). *)
Definition as_float_bits (buf : bytes) (p : Z) : res Z := rd32 buf p.
Definition as_double_bits (buf : bytes) (p : Z) : res Z := rd64 buf p.

(** osc_atom_s.c:578-616 osc_atom_s_getBool. *)
Definition as_bool (buf : bytes) (tg p : Z) : res bool :=
  if tg =? 84 then Ok true
  else if (tg =? 99) || (tg =? 67) || (tg =? 117) || (tg =? 85) || (tg =? 105) || (tg =? 73) then
    do n <- rd32 buf p; Ok (negb (n =? 0))
  else if (tg =? 104) || (tg =? 72) then do n <- rd64 buf p; Ok (negb (n =? 0))
  else if tg =? 102 then do n <- rd32 buf p; Ok (negb (n mod 2^31 =? 0))
  else if tg =? 100 then do n <- rd64 buf p; Ok (negb (n mod 2^63 =? 0))
  else Ok false.

(** osc_atom_s.c:705-866: the setters, writing the value at [p]; the type tag
    they store is the second component. *)
Definition as_set_int8 (buf : bytes) (p v : Z) : res (bytes * Z) := do b <- wr32 buf p v; Ok (b, 99).
Definition as_set_int16 (buf : bytes) (p v : Z) : res (bytes * Z) := do b <- wr32 buf p v; Ok (b, 117).
Definition as_set_int32 (buf : bytes) (p v : Z) : res (bytes * Z) := do b <- wr32 buf p v; Ok (b, 105).
Definition as_set_int64 (buf : bytes) (p v : Z) : res (bytes * Z) := do b <- wr64 buf p v; Ok (b, 104).
Definition as_set_uint8 (buf : bytes) (p v : Z) : res (bytes * Z) := do b <- wr32 buf p v; Ok (b, 67).
Definition as_set_uint16 (buf : bytes) (p v : Z) : res (bytes * Z) := do b <- wr32 buf p v; Ok (b, 85).
Definition as_set_uint32 (buf : bytes) (p v : Z) : res (bytes * Z) := do b <- wr32 buf p v; Ok (b, 73).
Definition as_set_uint64 (buf : bytes) (p v : Z) : res (bytes * Z) := do b <- wr64 buf p v; Ok (b, 72).
Definition as_set_float (buf : bytes) (p bits : Z) : res (bytes * Z) := do b <- wr32 buf p bits; Ok (b, 102).
Definition as_set_double (buf : bytes) (p bits : Z) : res (bytes * Z) := do b <- wr64 buf p bits; Ok (b, 100).

(** osc_atom_s.c:882-920 osc_atom_s_negate.  The int negation of INT32_MIN is
    an overflow, as is that of INT64_MIN; 8 and 16 bit operands are promoted
    to int and the result is converted back; unsigned operands are negated in
    their own (promoted) type and become signed. *)
Definition neg_checked (lo v : Z) : res Z := if v =? lo then Ub Overflow else Ok (- v).
Definition as_negate (buf : bytes) (tg p : Z) : res (bytes * Z) :=
  if tg =? 99 then do v <- as_int8 buf tg p; as_set_int8 buf p (s8 (- v))
  else if tg =? 117 then do v <- as_int16 buf tg p; as_set_int16 buf p (s16 (- v))
  else if tg =? 105 then do v <- as_int32 buf tg p; do w <- neg_checked (- 2^31) v; as_set_int32 buf p w
  else if tg =? 104 then do v <- as_int64 buf tg p; do w <- neg_checked (- 2^63) v; as_set_int64 buf p w
  else if tg =? 67 then do v <- as_uint8 buf tg p; as_set_int8 buf p (s8 (- v))
  else if tg =? 85 then do v <- as_uint16 buf tg p; as_set_int16 buf p (s16 (- v))
  else if tg =? 73 then do v <- as_uint32 buf tg p; as_set_int32 buf p (s32 (u32 (- v)))
  else if tg =? 72 then do v <- as_uint64 buf tg p; as_set_int64 buf p (s64 (u64 (- v)))
  else if tg =? 102 then do n <- as_float_bits buf p; as_set_float buf p (Z.lxor n (2^31))
  else if tg =? 100 then do n <- as_double_bits buf p; as_set_double buf p (Z.lxor n (2^63))
  else Ok (buf, tg).
