(** A finite map as a plain list of keys and values. *)

From Coq Require Import ZArith List Bool Permutation.
From Verif Require Import Base BundleUModel HashModel.
Import ListNotations.
Open Scope Z_scope.

Section Map.
Context {V : Type}.
Implicit Types m : list (bytes * V).

Fixpoint assoc (k : bytes) m : option V :=
  match m with
  | [] => None
  | (k', v) :: m' => if bytes_eqb k' k then Some v else assoc k m'
  end.
Definition without (k : bytes) m := filter (fun e => negb (bytes_eqb (fst e) k)) m.

Definition map_op m (o : tab_op V) : list (bytes * V) :=
  match o with
  | Store k v => (k, v) :: without k m
  | StoreSafe k v => match assoc k m with Some _ => m | None => (k, v) :: m end
  | Delete k _ => without k m
  | ClearTab => []
  end.

(** The entries given to the destructor by an operation, in some order: [dtor]
    says whether the table has one. *)
Definition destroyed (dtor : bool) m (o : tab_op V) : list (bytes * V) :=
  match o with
  | Store k _ => if dtor then match assoc k m with Some v => [(k, v)] | None => [] end else []
  | StoreSafe _ _ => []
  | Delete k d => if d then match assoc k m with Some v => [(k, v)] | None => [] end else []
  | ClearTab => if dtor then m else []
  end.
Fixpoint all_destroyed (dtor : bool) m (ops : list (tab_op V)) : list (bytes * V) :=
  match ops with
  | [] => []
  | o :: ops' => destroyed dtor m o ++ all_destroyed dtor (map_op m o) ops'
  end.
End Map.
