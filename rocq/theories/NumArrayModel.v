(** Model of the functions that put the numbers of an array of atoms into an array
    of numbers, osc_atom_array_u.c:61-150.

    Simplifications: arrays are lists, a cell of the given type for each member;
    the array of atoms is not NULL and allocation succeeds. *)

From Coq Require Import ZArith List Bool.
From Verif Require Import Base SerialModel AtomUModel.
Import ListNotations.
Open Scope Z_scope.

(** A store to member i of the array at out. *)
Fixpoint store_at (out : list Z) (i : nat) (v : Z) : res (list Z) :=
  match out, i with
  | [], _ => Ub OOB
  | _ :: out, O => Ok (v :: out)
  | x :: out, S i => do out <- store_at out i v; Ok (x :: out)
  end.

(** The loop, osc_atom_array_u.c:68-70 and the others: i is an int, and counting it
    past INT_MAX is undefined. *)
Fixpoint fill (get : atom -> res Z) (ar : list atom) (i : nat) (out : list Z) : res (list Z) :=
  match ar with
  | [] => Ok out
  | a :: ar =>
      do v <- get a;
      do out <- store_at out i v;
      if 2 ^ 31 - 1 <=? Z.of_nat i then Ub Overflow else fill get ar (S i) out
  end.

(** osc_atom_array_u.c:61-72 and the others: [None] is a NULL at out, [junk] what is in
    new memory. *)
Definition get_array (junk : Z) (get : atom -> res Z) (ar : list atom) (out : option (list Z)) : res (list Z) :=
  fill get ar 0 (match out with Some out => out | None => repeat junk (length ar) end).

(** osc_atom_array_u.c:61-72 osc_atom_array_u_getDoubleArray, 74-85 getFloatArray,
    87-98 getInt32Array, 100-111 getInt64Array, 113-124 getUInt32Array, 126-137
    getUInt64Array, 139-150 getBoolArray; [other] as in AtomUModel.v. *)
Definition double_array junk other := get_array junk (au_double other).
Definition float_array junk other := get_array junk (au_float other).
Definition int32_array junk := get_array junk au_int32.
Definition int64_array junk := get_array junk au_int64.
Definition uint32_array junk := get_array junk au_uint32.
Definition uint64_array junk := get_array junk au_uint64.
Definition bool_array junk := get_array junk (fun a => Ok (if au_bool a then 1 else 0)).
