(** Numbers and their order as the expression language is meant to have them
    (C50, C51). *)

From Coq Require Import ZArith List Bool QArith.
From Verif Require Import Base SerialModel AtomUModel AtomSpec RoundSpec ExprModel ExprSpec.
Import ListNotations.
Open Scope Z_scope.

(** A rational number, an infinity or not a number. *)
Inductive ext := Fin (q : Q) | Infinite (negative : bool) | NotANumber.

Definition less (x y : ext) : Prop :=
  match x, y with
  | NotANumber, _ | _, NotANumber => False
  | Fin p, Fin q => (p < q)%Q
  | Infinite s, Fin _ => s = true
  | Fin _, Infinite s => s = false
  | Infinite s, Infinite s' => s = true /\ s' = false
  end.
Definition same (x y : ext) : Prop :=
  match x, y with
  | Fin p, Fin q => (p == q)%Q
  | Infinite s, Infinite s' => s = s'
  | _, _ => False
  end.

(** The IEEE 754 pattern [bits] of the format with [mb] mantissa and [eb]
    exponent bits stands for [x]. *)
Definition real (mb eb bits : Z) (x : ext) : Prop :=
  match x with
  | Fin q => exists v, ieee_value mb eb bits = Some v /\ (v == q)%Q
  | Infinite s => bits = infinity mb eb s
  | NotANumber => is_nan mb eb bits
  end.

(** The number an atom stands for: a boolean, an integer of at most 53 bits, a
    float or a double. *)
Inductive number : atom -> ext -> Prop :=
| number_int b t z a : operand b t z a -> Z.abs z <= 2^53 -> number a (Fin (inject_Z z))
| number_float a bits x : 0 <= bits < 2^32 -> real 23 8 bits x -> number (set_float a bits) x
| number_double a bits x : 0 <= bits < 2^64 -> real 52 11 bits x -> number (set_double a bits) x.

(** The operator [op] says true of [a] and [b] if [P] holds, false if not. *)
Definition answers (op : binop) (E : env) (a b : atom) (P : Prop) : Prop :=
  forall r, exists r', op E (Some a) (Some b) r = Ok (0, r') /\
    (P -> a_tt r' = 84) /\ (~ P -> a_tt r' = 70).

(** The order of strings: at the first place where they differ the character
    counts, a string comes before those that continue it. *)
Definition precedes (s1 s2 : list Z) : Prop :=
  exists p r1 r2, s1 = p ++ r1 /\ s2 = p ++ r2 /\
    match r1, r2 with
    | [], _ :: _ => True
    | c1 :: _, c2 :: _ => c1 < c2
    | _, _ => False
    end.
Definition characters (s : list Z) : Prop := Forall (fun c => 0 < c < 256) s.

(** * Arithmetic (C51): [d] is the double computed for the numbers [x] and [y]. *)
Definition opposite (x : ext) : ext :=
  match x with Fin q => Fin (- q) | Infinite s => Infinite (negb s) | NotANumber => NotANumber end.
Definition sum_is (x y : ext) (d : Z) : Prop :=
  match x, y with
  | Fin p, Fin q => exists s, rounds 52 11 s (p + q) d
  | Fin _, Infinite s | Infinite s, Fin _ => d = infinity 52 11 s
  | Infinite s, Infinite s' => if Bool.eqb s s' then d = infinity 52 11 s else is_nan 52 11 d
  | _, _ => is_nan 52 11 d
  end.
Definition product_is (x y : ext) (d : Z) : Prop :=
  match x, y with
  | Fin p, Fin q => exists s, rounds 52 11 s (p * q) d
  | Fin q, Infinite s | Infinite s, Fin q =>
      ((q == 0)%Q -> is_nan 52 11 d) /\
      ((0 < q)%Q -> d = infinity 52 11 s) /\ ((q < 0)%Q -> d = infinity 52 11 (negb s))
  | Infinite s, Infinite s' => d = infinity 52 11 (xorb s s')
  | _, _ => is_nan 52 11 d
  end.
(** The quotient for a divisor that is not zero. *)
Definition quotient_is (x y : ext) (d : Z) : Prop :=
  match x, y with
  | Fin p, Fin q => exists s, rounds 52 11 s (p / q) d
  | Fin q, Infinite s => exists v, double_value d = Some v /\ (v == 0)%Q
  | Infinite s, Fin q => ((0 < q)%Q -> d = infinity 52 11 s) /\ ((q < 0)%Q -> d = infinity 52 11 (negb s))
  | _, _ => is_nan 52 11 d
  end.
