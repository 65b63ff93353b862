(** What the text of a list is, and when its buffer is large enough (C100). *)

From Coq Require Import ZArith List Bool.
From Verif Require Import Base.
Import ListNotations.
Open Scope Z_scope.

(** The texts one after the other, the separator after each, the last too. *)
Definition joined (sep : list Z) (ts : list (list Z)) : list Z := concat (map (fun t => t ++ sep) ts).

(** The size of the buffer once there is room for [t]: it is only made larger
    when [t] does not fit into what is left, and then by as much as if all
    texts that follow were as long; the separators and the terminator are not
    counted. *)
Definition grown (size used : Z) (t : list Z) (more : list (list Z)) : Z :=
  if size - used <? zlen t then size + zlen t * (1 + zlen more) + 1 else size.

(** Each text fits with the separator and a terminator. *)
Fixpoint enough (sep : list Z) (size used : Z) (ts : list (list Z)) : bool :=
  match ts with
  | [] => used <? size
  | t :: more =>
      let size' := grown size used t more in
      let used' := used + zlen t + zlen sep in
      (used' <? size') && enough sep size' used' more
  end.
