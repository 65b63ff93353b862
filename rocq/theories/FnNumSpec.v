(** What further numeric functions of the expression language mean (C71-C75). *)

From Coq Require Import ZArith List Bool QArith Qabs.
From Verif Require Import Base SerialModel AtomUModel AtomSpec AtomProofs RoundSpec ExprSpec RealSpec.
Import ListNotations.
Open Scope Z_scope.

(** [d] is the double read from the atom [a] with the number [x]; a double is
    read bit by bit. *)
Definition double_read (a : atom) (x : ext) (d : Z) : Prop :=
  real 52 11 d x /\ forall b bits, a = set_double b bits -> 0 <= bits < 2^64 -> d = bits.
(** The same where there may be no atom, which counts as 0. *)
Definition double_given (a : option atom) (d : Z) : Prop :=
  match a with None => d = 0 | Some a => exists x, number a x /\ double_read a x d end.

(** * Sequences and running sums *)

Definition between (a b z : Z) : Prop := a <= z <= b \/ b <= z <= a.
(** From [a] in steps of [s] as far as possible without going beyond [b]. *)
Definition progression (a s b : Z) (l : list Z) : Prop :=
  (forall k z, nth_error l k = Some z -> z = a + Z.of_nat k * s) /\
  Forall (between a b) l /\ ~ between a b (a + zlen l * s).

(** Doubles that begin with [d], each the sum of the one before and [s]. *)
Inductive steps (s : ext) : Z -> list Z -> Prop :=
| steps_nil d : steps s d []
| steps_cons d x d' l : real 52 11 d x -> sum_is x s d' -> steps s d' l -> steps s d (d :: l).

(** Integers as the running sums see them: booleans count as int32. *)
Definition counted (a : atom) (t : ity) (v : Z) : Prop :=
  operand false t v a \/ (operand true I8 v a /\ t = I32).
Definition is_largest (t : ity) (ts : list ity) : Prop :=
  In t ts /\ forall t', In t' ts -> rank t' <= rank t.
Definition sum (zs : list Z) : Z := fold_right Z.add 0 zs.

(** The sums of [d] and the first, the first two, ... of the numbers. *)
Inductive double_sums : Z -> list ext -> list Z -> Prop :=
| double_sums_nil d : double_sums d [] []
| double_sums_cons d x y ys d' ds : real 52 11 d x -> sum_is x y d' -> double_sums d' ys ds ->
    double_sums d (y :: ys) (d' :: ds).
(** In single precision; nothing is said after a sum that is not finite. *)
Definition float_sum (p q : Q) (f : Z) : Prop := exists s, rounds 23 8 s (p + q) f.
Inductive float_sums : Z -> list Q -> list Z -> Prop :=
| float_sums_nil d : float_sums d [] []
| float_sums_cons d y ys d' ds : (forall p, real 23 8 d (Fin p) -> float_sum p y d') -> float_sums d' ys ds ->
    float_sums d (y :: ys) (d' :: ds).
(** Integers a float has exactly, and finite floats. *)
Inductive single_number : atom -> Q -> Prop :=
| single_int b t z a : operand b t z a -> Z.abs z <= 2^24 -> single_number a (inject_Z z)
| single_float a bits q : 0 <= bits < 2^32 -> real 23 8 bits (Fin q) -> single_number (set_float a bits) q.

(** * Bits and bytes *)

(** [r] has type [t]; its bits are got by [f] from those of [v1] and [v2]. *)
Definition bitwise (f : bool -> bool -> bool) (t : ity) (v1 v2 r : Z) : Prop :=
  in_type t r /\ forall n, 0 <= n < width t -> Z.testbit r n = f (Z.testbit v1 n) (Z.testbit v2 n).
Definition byte (k v : Z) : Z := v / 2^(8 * k) mod 2^8.
(** [r] has type [t]; its bytes are those of [v] in the opposite order. *)
Definition reversed (t : ity) (v r : Z) : Prop :=
  in_type t r /\ forall k, 0 <= k < width t / 8 -> byte k r = byte (width t / 8 - 1 - k) v.

(** * Remainder *)

(** [z] is what is left of [v] after taking multiples of [m] away. *)
Definition remainder (v m z : Z) : Prop := 0 <= z < Z.abs m /\ exists k, v = k * m + z.
(** The same in double precision: quotient, the largest integer not above it,
    product and difference are each rounded. *)
Definition double_remainder (p q : Q) (d : Z) : Prop :=
  exists dq, quotient_is (Fin p) (Fin (Qabs q)) dq /\ forall t, real 52 11 dq (Fin t) ->
    exists z dm x, (inject_Z z <= t < inject_Z (z + 1))%Q /\ product_is (Fin (Qabs q)) (Fin (inject_Z z)) dm /\
      real 52 11 dm x /\ sum_is (Fin p) (opposite x) d.

(** * Cross product *)

(** [r] is [p * q - r * s] converted to type [t]. *)
Definition difference_ok (t : ity) (p q r s : Z) : Prop :=
  let c := if width t <? 32 then I32 else t in
  traps c -> in_type c (p * q) /\ in_type c (r * s) /\ in_type c (p * q - r * s).
(** The same for finite numbers in double precision. *)
Definition double_difference (p q r s : ext) (d : Z) : Prop :=
  exists d1 d2 x1 x2, product_is p q d1 /\ real 52 11 d1 x1 /\ product_is r s d2 /\ real 52 11 d2 x2 /\
    sum_is x1 (opposite x2) d.

(** * Scaling *)

(** The doubles [m] and [b] of the line through ([i1], [o1]) and ([i2], [o2]). *)
Definition line (i1 i2 o1 o2 m b : ext) : Prop :=
  exists dout xout din xin dm dp p db,
    sum_is o2 (opposite o1) dout /\ real 52 11 dout xout /\
    sum_is i2 (opposite i1) din /\ real 52 11 din xin /\
    quotient_is xout xin dm /\ real 52 11 dm m /\
    product_is m i1 dp /\ real 52 11 dp p /\
    sum_is o1 (opposite p) db /\ real 52 11 db b.
(** [d] is the double [m * x + b]. *)
Definition on_line (m b x : ext) (d : Z) : Prop :=
  exists dp p, product_is m x dp /\ real 52 11 dp p /\ sum_is p b d.

(** Members that are not scaled: truth values and nil. *)
Definition unscaled (a : atom) : Prop := a_tt a = 84 \/ a_tt a = 70 \/ a_tt a = 78.
Definition measured (a : atom) (x : ext) : Prop := number a x /\ ~ unscaled a.
(** [r] holds the scaled member [a]; [on x d] says that [d] is the double for
    the number [x].  It is a double if an end or the member is a float or double,
    and an int32 without the fraction otherwise. *)
Definition scaled (ends : Prop) (on : ext -> Z -> Prop) (a r : atom) : Prop :=
  (unscaled a /\ r = a) \/
  exists x d, measured a x /\ on x d /\
    (((ends \/ a_tt a = 102 \/ a_tt a = 100) /\ r = set_double atom_fresh d) \/
     (~ (ends \/ a_tt a = 102 \/ a_tt a = 100) /\
      exists q z, real 52 11 d (Fin q) /\ truncates_to q z /\ in_type I32 z /\ r = set_u I32 atom_fresh z)).
(** The scaled member would be an int32 and is none. *)
Definition too_far (ends : Prop) (on : ext -> Z -> Prop) (a : atom) : Prop :=
  ~ (ends \/ a_tt a = 102 \/ a_tt a = 100) /\
  exists x d, measured a x /\ on x d /\ forall q z, real 52 11 d (Fin q) -> truncates_to q z -> ~ in_type I32 z.

(** * One more and one less *)

(** [r] is [a] and [k], which is 1 or -1: a uint32 becomes an int64; for uint64
    the result is taken modulo 2^64. *)
Inductive moved (k : Z) : atom -> atom -> Prop :=
| moved_int a v : in_type I32 v -> in_type I32 (v + k) -> moved k (set_u I32 a v) (set_u I32 atom_fresh (v + k))
| moved_word a v : in_type U32 v -> moved k (set_u U32 a v) (set_u I64 atom_fresh (v + k))
| moved_long a v w : in_type U64 v -> converted U64 (v + k) w -> moved k (set_u U64 a v) (set_u U64 atom_fresh w)
| moved_float a bits q s d : 0 <= bits < 2^32 -> real 23 8 bits (Fin q) -> rounds 23 8 s (q + inject_Z k) d ->
    moved k (set_float a bits) (set_float atom_fresh d)
| moved_double a bits x d : 0 <= bits < 2^64 -> real 52 11 bits x -> sum_is x (Fin (inject_Z k)) d ->
    moved k (set_double a bits) (set_double atom_fresh d).
