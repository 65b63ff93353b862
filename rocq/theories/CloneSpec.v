(** What a copy of a list is, and two lists used side by side. *)

From Coq Require Import ZArith List Bool.
From Verif Require Import Base HeapModel HeapSpec.
Import ListNotations.
Open Scope Z_scope.

(** The copies of the data, in order, without those that are NULL. *)
Fixpoint copies {V} (copy : V -> option V) (vs : list V) : list V :=
  match vs with
  | [] => []
  | v :: vs => match copy v with Some w => w :: copies copy vs | None => copies copy vs end
  end.

(** Two lists in the same memory, and operations on the one or the other
    ([true]: the first).  The plain state of each follows its own operations. *)
Definition spec_two {V} (s : list (Z * V) * list (Z * V)) (o : bool * list_op V) :=
  let '(b, o) := o in
  if b : bool then (spec_list (fst s) o, snd s) else (fst s, spec_list (snd s) o).
Definition two_enabled {V} (h : heap V) (s : list (Z * V) * list (Z * V)) (o : bool * list_op V) : Prop :=
  list_enabled h (if fst o : bool then fst s else snd s) (snd o).
