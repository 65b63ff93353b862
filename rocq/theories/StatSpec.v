(** What the numeric and statistical functions of the expression language mean
    (C63-C66). *)

From Coq Require Import ZArith List Bool QArith Permutation Sorted.
From Verif Require Import Base SerialModel AtomUModel AtomSpec AtomProofs RoundSpec RealSpec.
Import ListNotations.
Open Scope Z_scope.

(** [d'] is the double got from the double [d] by combining it with numbers one
    after the other, each time as [R] says. *)
Inductive accumulated (R : ext -> ext -> Z -> Prop) : Z -> list ext -> Z -> Prop :=
| accumulated_nil d : accumulated R d [] d
| accumulated_cons d x y ys d1 d2 : real 52 11 d x -> R x y d1 -> accumulated R d1 ys d2 -> accumulated R d (y :: ys) d2.

(** The sum of products, from [s] on. *)
Inductive total_products : Z -> list (ext * ext) -> Z -> Prop :=
| products_nil s : total_products s [] s
| products_cons s s0 x y f f0 s1 l s2 : product_is x y f -> real 52 11 f f0 -> real 52 11 s s0 -> sum_is s0 f0 s1 ->
    total_products s1 l s2 -> total_products s ((x, y) :: l) s2.

(** The first of the types int32, uint32 and int64 that has [z]. *)
Definition smallest_type (z : Z) : ity := if z <? 2^31 then I32 else if z <? 2^32 then U32 else I64.

(** All results on the way when combining integers from [z] on have at most 53
    bits. *)
Inductive exact (op : Z -> Z -> Z) : Z -> list Z -> Prop :=
| exact_nil z : Z.abs z <= 2^53 -> exact op z []
| exact_cons z y ys : Z.abs z <= 2^53 -> exact op (op z y) ys -> exact op z (y :: ys).

(** [a], with the number [x], is among [p], no number is [better] and it is the
    last of those that are as good.  Members that are not a number do not count. *)
Definition extreme (better : ext -> ext -> Prop) (p : list (atom * ext)) (a : atom) (x : ext) : Prop :=
  exists p1 p2, p = p1 ++ (a, x) :: p2 /\ x <> NotANumber /\
    (forall b y, In (b, y) p1 -> ~ better y x) /\ (forall b y, In (b, y) p2 -> ~ better y x /\ ~ same y x).
Definition greater (x y : ext) : Prop := less y x.

(** [y] is [x] moved into the interval from [lo] to [hi]. *)
Definition clipped (lo hi x y : ext) : Prop :=
  (less x lo -> y = lo) /\ (less hi x -> y = hi) /\ (~ less x lo -> ~ less hi x -> y = x).

(** * Sorting *)

(** What the C standard asks of a comparison function given to qsort, for members
    at different places. *)
Definition consistent {A : Set} (cmp : A -> A -> Z) (l : list A) : Prop :=
  (forall x y r, Permutation l (x :: y :: r) -> Z.sgn (cmp x y) = - Z.sgn (cmp y x)) /\
  (forall x y z r, Permutation l (x :: y :: z :: r) -> cmp x y <= 0 -> cmp y z <= 0 -> cmp x z <= 0).
(** What it promises then. *)
Definition qsort_ok (qs : forall A : Set, (A -> A -> Z) -> list A -> list A) : Prop :=
  forall (A : Set) cmp (l : list A), consistent cmp l ->
    Permutation l (qs A cmp l) /\ StronglySorted (fun x y => cmp x y <= 0) (qs A cmp l).

(** Numbers, NaN excepted, come before strings. *)
Inductive sval := SNum (x : ext) | SStr (s : list Z).
Inductive sortable : atom -> sval -> Prop :=
| sortable_number a x : number a x -> x <> NotANumber -> sortable a (SNum x)
| sortable_string w s : characters s -> sortable (Atom 115 w (PStr s)) (SStr s).
Definition in_order (v w : sval) : Prop :=
  match v, w with
  | SNum x, SNum y => ~ less y x
  | SNum _, SStr _ => True
  | SStr _, SNum _ => False
  | SStr s, SStr t => s = t \/ precedes s t
  end.
(** Not two equal numbers. *)
Definition different (v w : sval) : Prop :=
  match v, w with SNum x, SNum y => ~ same x y | _, _ => True end.

(** How a finite number [q], the double [d], is stored by the functions that look
    for the smallest type: as an integer when it does not exceed 2^64, rounded
    towards zero, as a double beyond.  Conversions out of the range of the type
    are undefined. *)
Definition whole (t : ity) (q : Q) (r : res atom) : Prop :=
  exists z a, truncates_to q z /\ r = Ok (set_u t a z).
Definition stored (d : Z) (q : Q) (r : res atom) : Prop :=
  ((q <= inject_Z (- 2^31 - 1))%Q -> r = Ub Overflow) /\
  ((inject_Z (- 2^31 - 1) < q <= inject_Z (2^31 - 1))%Q -> whole I32 q r) /\
  ((inject_Z (2^31 - 1) < q <= inject_Z (2^32 - 1))%Q -> whole U32 q r) /\
  ((inject_Z (2^32 - 1) < q < inject_Z (2^63))%Q -> whole I64 q r) /\
  ((q == inject_Z (2^63))%Q -> r = Ub Overflow) /\
  ((inject_Z (2^63) < q < inject_Z (2^64))%Q -> whole U64 q r) /\
  ((q == inject_Z (2^64))%Q -> r = Ub Overflow) /\
  ((inject_Z (2^64) < q)%Q -> exists a, r = Ok (set_double a d)).
