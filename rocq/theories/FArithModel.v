(** C arithmetic on doubles as used by osc_expr.c: IEEE 754, round to nearest,
    ties to even.  A number is its bit pattern in the format with [mb] mantissa
    and [eb] exponent bits.  [nan x y] is the NaN the platform delivers for the
    operands [x] and [y], which C leaves open. *)

From Coq Require Import ZArith List Bool.
From Verif Require Import Base FloatModel.
Import ListNotations.
Open Scope Z_scope.

Definition ieee_sign (mb eb bits : Z) : bool := bits / 2^(mb + eb) mod 2 =? 1.
Definition ieee_isnan (mb eb bits : Z) : bool :=
  match ieee_decode mb eb bits with Some _ => false | None => negb (bits mod 2^mb =? 0) end.
Definition ieee_inf (mb eb : Z) (s : bool) : Z := (if s then 2^(mb + eb) else 0) + (2^eb - 1) * 2^mb.
Definition ieee_zero (mb eb : Z) (s : bool) : Z := if s then 2^(mb + eb) else 0.

(** A sign and a magnitude as an integer. *)
Definition signed_of (s : bool) (m : Z) : Z := if s then - m else m.

(** The operators +, -, * and /; [x - y] is the sum of [x] and [y] with its sign
    changed. *)
Definition ieee_sum (mb eb : Z) (n x : Z) (y : Z) (s2 : bool) : Z :=
  if ieee_isnan mb eb x || ieee_isnan mb eb y then n else
  match ieee_decode mb eb x, ieee_decode mb eb y with
  | Some (s1, m1, e1), Some (_, m2, e2) =>
      let e := Z.min e1 e2 in
      let z := signed_of s1 m1 * 2^(e1 - e) + signed_of s2 m2 * 2^(e2 - e) in
      if z =? 0 then ieee_zero mb eb (s1 && s2) else ieee_round mb eb (z <? 0) (Z.abs z) e
  | None, Some _ => ieee_inf mb eb (ieee_sign mb eb x)
  | Some _, None => ieee_inf mb eb s2
  | None, None => if Bool.eqb (ieee_sign mb eb x) s2 then ieee_inf mb eb s2 else n
  end.
Definition ieee_add (mb eb : Z) (nan : Z -> Z -> Z) (x y : Z) : Z :=
  ieee_sum mb eb (nan x y) x y (ieee_sign mb eb y).
Definition ieee_sub (mb eb : Z) (nan : Z -> Z -> Z) (x y : Z) : Z :=
  ieee_sum mb eb (nan x y) x y (negb (ieee_sign mb eb y)).
Definition ieee_mul (mb eb : Z) (nan : Z -> Z -> Z) (x y : Z) : Z :=
  if ieee_isnan mb eb x || ieee_isnan mb eb y then nan x y else
  let s := xorb (ieee_sign mb eb x) (ieee_sign mb eb y) in
  match ieee_decode mb eb x, ieee_decode mb eb y with
  | Some (_, m1, e1), Some (_, m2, e2) => ieee_round mb eb s (m1 * m2) (e1 + e2)
  | None, Some (_, m, _) | Some (_, m, _), None => if m =? 0 then nan x y else ieee_inf mb eb s
  | None, None => ieee_inf mb eb s
  end.
(** The quotient of the mantissas is computed with more bits than the format
    has, the last of which tells whether the division was exact. *)
Definition ieee_div (mb eb : Z) (nan : Z -> Z -> Z) (x y : Z) : Z :=
  if ieee_isnan mb eb x || ieee_isnan mb eb y then nan x y else
  let s := xorb (ieee_sign mb eb x) (ieee_sign mb eb y) in
  match ieee_decode mb eb x, ieee_decode mb eb y with
  | Some (_, m1, e1), Some (_, m2, e2) =>
      if m2 =? 0 then if m1 =? 0 then nan x y else ieee_inf mb eb s
      else
        let k := mb + 3 + Z.log2 m2 in
        let q := m1 * 2^k / m2 in
        let sticky := if m1 * 2^k mod m2 =? 0 then 0 else 1 in
        ieee_round mb eb s (2 * q + sticky) (e1 - e2 - k - 1)
  | None, Some _ => ieee_inf mb eb s
  | Some _, None => ieee_zero mb eb s
  | None, None => nan x y
  end.

(** The relational operators: [None] if one operand is a NaN. *)
Definition ieee_compare (mb eb : Z) (x y : Z) : option comparison :=
  if ieee_isnan mb eb x || ieee_isnan mb eb y then None else
  match ieee_decode mb eb x, ieee_decode mb eb y with
  | Some (s1, m1, e1), Some (s2, m2, e2) =>
      let e := Z.min e1 e2 in
      Some (signed_of s1 m1 * 2^(e1 - e) ?= signed_of s2 m2 * 2^(e2 - e))
  | None, Some _ => Some (if ieee_sign mb eb x then Lt else Gt)
  | Some _, None => Some (if ieee_sign mb eb y then Gt else Lt)
  | None, None =>
      Some (match ieee_sign mb eb x, ieee_sign mb eb y with
            | true, false => Lt | false, true => Gt | _, _ => Eq
            end)
  end.
Definition dlt (x y : Z) : bool := match ieee_compare 52 11 x y with Some Lt => true | _ => false end.
Definition dle (x y : Z) : bool := match ieee_compare 52 11 x y with Some (Lt | Eq) => true | _ => false end.
Definition dgt (x y : Z) : bool := match ieee_compare 52 11 x y with Some Gt => true | _ => false end.
Definition dge (x y : Z) : bool := match ieee_compare 52 11 x y with Some (Gt | Eq) => true | _ => false end.
Definition deq (x y : Z) : bool := match ieee_compare 52 11 x y with Some Eq => true | _ => false end.

Definition dadd := ieee_add 52 11.
Definition dsub := ieee_sub 52 11.
Definition dmul := ieee_mul 52 11.
Definition ddiv := ieee_div 52 11.
