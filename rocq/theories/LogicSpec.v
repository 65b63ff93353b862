(** Truth values, assigning to places of a list, and the places of true members
    (C53). *)

From Coq Require Import ZArith List Bool QArith.
From Verif Require Import Base SerialModel AtomUModel AtomSpec ExprModel ExprSpec RealSpec.
Import ListNotations.
Open Scope Z_scope.

(** The truth value of an atom: a number is true unless it is zero; nil, strings,
    blobs, time tags and bundles are false. *)
Inductive truth : atom -> bool -> Prop :=
| truth_int b t z a : operand b t z a -> truth a (negb (z =? 0))
| truth_number a x (c : bool) : number a x -> (c = true <-> ~ same x (Fin 0)) -> truth a c
| truth_other tg w p : In tg [78; 115; 98; 116; 46] -> truth (Atom tg w p) false.

(** The list [l] with [x] at place [i], if there is one. *)
Definition put {A} (l : list A) (i : Z) (x : A) : list A :=
  if (0 <=? i) && (i <? zlen l) then firstn (Z.to_nat i) l ++ x :: skipn (S (Z.to_nat i)) l else l.
(** One after the other. *)
Fixpoint put_all {A} (l : list A) (is : list Z) (xs : list A) : list A :=
  match is, xs with
  | i :: is', x :: xs' => put_all (put l i x) is' xs'
  | _, _ => l
  end.

(** The index an atom stands for: a number as an int32. *)
Definition index (a : atom) (n : Z) : Prop := exists b t v, operand b t v a /\ converted I32 v n.

(** The places of the true members of a list of truth values. *)
Definition places (cs : list bool) : list Z :=
  map Z.of_nat (filter (fun i => nth i cs false) (seq 0 (length cs))).
