(** What an array of numbers holds after it was filled from an array of atoms. *)

From Coq Require Import ZArith List.
From Verif Require Import Base.
Import ListNotations.
Open Scope Z_scope.

(** Reading each member with [get], until one read is undefined. *)
Fixpoint reads {A} (get : A -> res Z) (l : list A) : res (list Z) :=
  match l with [] => Ok [] | a :: l => do v <- get a; do vs <- reads get l; Ok (v :: vs) end.

(** The first cells are the numbers, one for each member, the others as before. *)
Definition filled_with (before vs after : list Z) : Prop :=
  length after = length before /\
  forall i, nth_error after i = if Nat.ltb i (length vs) then nth_error vs i else nth_error before i.

(** [f] puts what [get] reads into the array it is given, or into a new one of the
    right length; and it is undefined if the given one is too short. *)
Definition puts {A} (get : A -> res Z) (f : list A -> option (list Z) -> res (list Z)) : Prop :=
  forall ar vs, reads get ar = Ok vs -> zlen ar <= 2 ^ 31 - 1 ->
    f ar None = Ok vs /\
    (forall out, (length ar <= length out)%nat -> exists out', f ar (Some out) = Ok out' /\ filled_with out vs out') /\
    (forall out, (length out < length ar)%nat -> f ar (Some out) = Ub OOB).
