(** What a copy of a record of a function has. *)

From Coq Require Import ZArith List Bool.
From Verif Require Import FunRecSpec.
Import ListNotations.
Open Scope Z_scope.

(** The copy has all the source has, but the types. *)
Definition copied (h : has) : has := Has (h_name h) (h_sig h) (h_req h) None (h_opt h) None.

(** Whether all optional arguments that were set have a name. *)
Definition all_named (h : has) : bool :=
  match h_opt h with None => true | Some names => forallb is_some names end.
