(** What the operators and list functions of the expression language mean (C37-C39,
    C50-C53). *)

From Coq Require Import ZArith List Bool QArith.
From Verif Require Import Base WireSpec SerialModel SerialSpec AtomUModel AtomSpec AtomProofs.
Import ListNotations.
Open Scope Z_scope.

(** The order of the integer types. *)
Definition rank (t : ity) : Z :=
  match t with I8 => 0 | U8 => 1 | I16 => 2 | U16 => 3 | I32 => 4 | U32 => 5 | I64 => 6 | U64 => 7 end.
Definition larger (t1 t2 : ity) : ity := if rank t1 <=? rank t2 then t2 else t1.

(** The types whose arithmetic is undefined when the result is out of range. *)
Definition traps (t : ity) : Prop := signed t = true /\ 32 <= width t.

(** Integer operands of type [t] and value [v].  A boolean counts as an int8, 1
    or 0; the flag says whether it is one. *)
Inductive operand : bool -> ity -> Z -> atom -> Prop :=
| int_operand t v a : in_type t v -> operand false t v (set_u t a v)
| true_operand a : operand true I8 1 (set_true a)
| false_operand a : operand true I8 0 (set_false a).

(** The operand pairs of a binary operator on two lists: member by member up to
    the shorter length, a single member with every member of the other list.  If
    the other list is empty the operator gets no second operand. *)
Definition pairs {A} (a b : list A) : list (option A * option A) :=
  match a, b with
  | [x], [] => [(Some x, None)]
  | [], [y] => [(None, Some y)]
  | [x], _ => map (fun y => (Some x, Some y)) b
  | _, [y] => map (fun x => (Some x, Some y)) a
  | _, _ => map (fun '(x, y) => (Some x, Some y)) (combine a b)
  end.

(** Atoms that can be copied: objects as in C11; the messages inside nested
    bundles have addresses that begin with a slash and no unknown type tags, and
    the bundle is smaller than 2^31 bytes. *)
Definition slash (a : list Z) : Prop := hd 0 a = 47.
Definition copyable (a : atom) : Prop :=
  ok_atom a /\
  match raw_value a with
  | VBundle ms => Forall (std_message slash) ms /\ zlen (enc_bundle empty_header ms) + 4 < 2^31
  | _ => True
  end.

(** A copy has the same type tag and stands for the same value.  Inside nested
    bundles the 8 and 16 bit integers are taken modulo 2^8 and 2^16, as in C13. *)
Definition copy_of (a b : atom) : Prop :=
  copyable b /\ a_tt b = a_tt a /\
  raw_value b = match raw_value a with VBundle ms => VBundle (map narrow_msg ms) | v => v end.
