(** C arithmetic conversions to and from floating point, as used by
    osc_atom_u.c and osc_atom_s.c.  A float (double) is its IEEE 754 bit
    pattern; conversions round to nearest, ties to even, which is the default
    rounding mode the library never changes. *)

From Coq Require Import ZArith List Bool.
From Verif Require Import Base AtomSModel.
Import ListNotations.
Open Scope Z_scope.

(** The number [(-1)^sign * m * 2^e], rounded to the format with [mb] mantissa
    and [eb] exponent bits. *)
Definition ieee_round (mb eb : Z) (sign : bool) (m e : Z) : Z :=
  let s := if sign then 2^(mb + eb) else 0 in
  if m =? 0 then s else
  let emin := 2 - 2^(eb - 1) in
  let top := Z.log2 m + e in
  let t := Z.max top emin - mb in
  let q :=
    if t <=? e then m * 2^(e - t)
    else
      let d := 2^(t - e) in
      let q := m / d in
      let r := m mod d in
      if (d <? 2 * r) || ((2 * r =? d) && Z.odd q) then q + 1 else q in
  let bits := if top <? emin then q else (top - emin) * 2^mb + q in
  s + Z.min bits ((2^eb - 1) * 2^mb).

(** Sign, mantissa and exponent of a bit pattern, [None] for infinities and
    NaNs. *)
Definition ieee_decode (mb eb bits : Z) : option (bool * Z * Z) :=
  let m := bits mod 2^mb in
  let e := bits / 2^mb mod 2^eb in
  if e =? 2^eb - 1 then None else
  Some (bits / 2^(mb + eb) mod 2 =? 1,
        (if e =? 0 then m else m + 2^mb),
        (if e =? 0 then 1 else e) - (2^(eb - 1) - 1) - mb).

(** Conversion of an integer. *)
Definition float_of_int (z : Z) : Z := ieee_round 23 8 (z <? 0) (Z.abs z) 0.
Definition double_of_int (z : Z) : Z := ieee_round 52 11 (z <? 0) (Z.abs z) 0.

(** Conversion between the formats: an infinity stays one, the upper bits of
    the mantissa of a NaN are kept and it becomes quiet (x86 and ARM). *)
Definition ieee_convert (mb eb mb' eb' bits : Z) : Z :=
  match ieee_decode mb eb bits with
  | Some (s, m, e) => ieee_round mb' eb' s m e
  | None =>
      let s := bits / 2^(mb + eb) mod 2 in
      let m := bits mod 2^mb in
      s * 2^(mb' + eb') + (2^eb' - 1) * 2^mb' +
        (if m =? 0 then 0 else
           let m' := if mb <=? mb' then m * 2^(mb' - mb) else m / 2^(mb - mb') in
           Z.lor m' (2^(mb' - 1)))
  end.
Definition double_of_float := ieee_convert 23 8 52 11.
Definition float_of_double := ieee_convert 52 11 23 8.
