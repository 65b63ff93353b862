(** Model of osc_atom_array_u_getStringArray (osc_atom_array_u.c): the members of
    an array as one text, in a buffer that grows. *)

From Coq Require Import ZArith List Bool.
From Verif Require Import Base SerialModel AtomUModel StrfmtModel ExprModel StatModel.
Import ListNotations.
Open Scope Z_scope.

(** [n] bytes as osc_mem_alloc or osc_mem_resize gives them, contents [junk]. *)
Definition new_bytes (junk : bytes) (n : Z) : bytes := firstn (Z.to_nat n) (junk ++ repeat 170 (Z.to_nat n)).

(** osc_atom_array_u.c:164-178, the buffer before a text of [n] characters is
    written at [pos], with [left] members to go (arlen - i); [buflen] is the
    variable, [buf] the block.  nbytes is an int, computed as a long. *)
Definition make_room (junk buf : bytes) (buflen pos n left : Z) : bytes * Z :=
  if buflen - pos <? n
  then let nbytes := s32 (n * left + 1) in (buf ++ new_bytes junk nbytes, buflen + nbytes)
  else (buf, buflen).

(** osc_atom_array_u.c:179 osc_atom_u_getString(..., (buflen - (ptr - *out)), &ptr)
    (StrfmtModel.v) at [pos] of [buf].  The room is turned into an int
    (osc_atom_u.c:766); one that is no int is taken for undefined. *)
Definition text_at_pos (other : atom -> list Z) (junk buf : bytes) (buflen pos : Z) (a : atom) : res (bytes * Z) :=
  let room := buflen - pos in
  if (room <? 0) || (2^31 <=? room) then Ub Overflow else
  if zlen buf <? pos then Ub OOB else
  do ' (b, k) <- au_string other junk a room (Some (skipn (Z.to_nat pos) buf));
  Ok (firstn (Z.to_nat pos) buf ++ b, pos + k).

(** osc_atom_array_u.c:181-183 sprintf(ptr, "%s", sep); [None] is NULL. *)
Definition put_sep (buf : bytes) (pos : Z) (sep : option (list Z)) : res (bytes * Z) :=
  match sep with
  | None => Ok (buf, pos)
  | Some s => do buf <- write buf pos (s ++ [0]); Ok (buf, pos + zlen s)
  end.

(** osc_atom_array_u.c:165-184, the loop over the members left. *)
Fixpoint list_text_loop (other : atom -> list Z) (junk : bytes) (sep : option (list Z)) (l : list atom)
  (buf : bytes) (buflen pos : Z) : res (bytes * Z) :=
  match l with
  | [] => Ok (buf, pos)
  | a :: l' =>
      do n <- au_string_len other a;
      let (buf, buflen) := make_room junk buf buflen pos n (zlen l) in
      do ' (buf, pos) <- text_at_pos other junk buf buflen pos a;
      do ' (buf, pos) <- put_sep buf pos sep;
      list_text_loop other junk sep l' buf buflen pos
  end.

(** osc_atom_array_u.c:152-189 osc_atom_array_u_getStringArray: [len] is *len,
    [out] *out with [None] for NULL.  The results are the block *out is left
    with and *len. *)
Definition list_text (other : atom -> list Z) (junk : bytes) (ar : arr) (len : Z) (out : option bytes)
  (sep : option (list Z)) : res (bytes * Z) :=
  let (buf, buflen) := match out with None => (new_bytes junk 256, 256) | Some b => (b, len) end in
  do ' (buf, pos) <- list_text_loop other junk sep (items ar) buf buflen 0;
  do buf <- write buf pos [0];
  Ok (buf, pos + 1).
