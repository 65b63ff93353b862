(** Model of osc_array.c: growable arrays of fixed-size members. *)

From Coq Require Import ZArith List Bool.
From Verif Require Import Base.
Import ListNotations.
Open Scope Z_scope.

(** osc_array.r struct _osc_array: the memory block ([None] is NULL), the
    number of members and the size of one. *)
Record array := Arr { ar_mem : option bytes; ar_len : Z; ar_size : Z }.

(** Contents of a fresh block of [n] bytes; indeterminate, hence a parameter. *)
Definition fresh_mem (junk : bytes) (n : Z) : bytes := firstn (Z.to_nat n) (junk ++ repeat 170 (Z.to_nat n)).

(** osc_mem.c:37-53 over malloc and realloc.  A size of 2^63 or more (a
    negative number converted to size_t) cannot be allocated; any other
    allocation is assumed to succeed.  [realloc(p, 0)] releases the block and
    returns NULL (glibc). *)
Definition mem_alloc (junk : bytes) (n : Z) : option bytes := if n <? 0 then None else Some (fresh_mem junk n).
Definition mem_resize (junk : bytes) (p : option bytes) (n : Z) : option bytes :=
  match p with
  | None => mem_alloc junk n
  | Some m => if n <=? 0 then None else Some (firstn (Z.to_nat n) (m ++ fresh_mem junk n))
  end.

(** memset(p + off, 0, n) and memcpy(p + off, v, zlen v); with a length of 0
    nothing is touched. *)
Definition mem_put (p : option bytes) (off : Z) (v : bytes) : res (option bytes) :=
  match p with
  | Some m => if zlen v =? 0 then Ok p else do m <- write m off v; Ok (Some m)
  | None => if zlen v =? 0 then Ok None else Ub NullDeref
  end.
Definition mem_zero (p : option bytes) (off n : Z) : res (option bytes) :=
  if n <? 0 then Ub OOB else mem_put p off (repeat 0 (Z.to_nat n)).
(** memcpy's source. *)
Definition mem_get (p : option bytes) (off n : Z) : res bytes :=
  match p with
  | Some m => if n =? 0 then Ok [] else slice m off n
  | None => if n =? 0 then Ok [] else Ub NullDeref
  end.

(** osc_array.c:64-69 osc_array_clear. *)
Definition array_clear (a : array) : res array :=
  do m <- mem_zero (ar_mem a) 0 (ar_len a * ar_size a); Ok (Arr m (ar_len a) (ar_size a)).

(** osc_array.c:36-54 osc_array_allocWithSize; arrays are cleared since
    osc.h:55 defines OSC_ARRAY_CLEAR_ON_ALLOC. *)
Definition array_alloc (junk : bytes) (len membersize : Z) : res array :=
  let m := if (len =? 0) || (membersize =? 0) then None else mem_alloc junk (len * membersize) in
  array_clear (Arr m len membersize).

(** osc_array.c:71-79 osc_array_get: the offset of the member in the block,
    [None] for NULL. *)
Definition array_get (a : array) (idx : Z) : option Z :=
  if ar_len a <=? idx then None else Some (idx * ar_size a).

(** osc_array.c:81-87 osc_array_getLen. *)
Definition array_get_len (a : array) : Z := ar_len a.

(** osc_array.c:89-97 osc_array_copy. *)
Definition array_copy (junk : bytes) (a : array) : res array :=
  do c <- array_alloc junk (ar_len a) (ar_size a);
  do v <- mem_get (ar_mem a) 0 (ar_len c * ar_size c);
  do m <- mem_put (ar_mem c) 0 v;
  Ok (Arr m (ar_len c) (ar_size c)).

(** Error codes, osc_error.h. *)
Inductive array_err := ErrNone | ErrInval | ErrOutOfMem.

(** osc_array.c:99-121 osc_array_copyInto. *)
Definition array_copy_into (junk : bytes) (dest : option array) (src : option array) (offset : Z) :
  res (array_err * option array) :=
  match src with
  | None => Ok (ErrInval, dest)
  | Some s =>
      let srcsize := ar_size s in
      let srclen_bytes := ar_len s * srcsize in
      let destlen := ar_len s + offset in
      let destlen_bytes := destlen * srcsize in
      do d <- match dest with
              | None => do d <- array_alloc junk destlen srcsize; Ok (d, false)
              | Some d =>
                  if destlen_bytes <? srclen_bytes then
                    let m := mem_resize junk (ar_mem d) destlen_bytes in
                    Ok (Arr m (ar_len d) (ar_size d), match m with None => true | Some _ => false end)
                  else Ok (d, false)
              end;
      let (d, failed) := d in
      if failed : bool then Ok (ErrOutOfMem, Some d) else
      do v <- mem_get (ar_mem s) 0 srclen_bytes;
      do m <- mem_put (ar_mem d) (offset * srcsize) v;
      Ok (ErrNone, Some (Arr m (ar_len d) (ar_size d)))
  end.

(** osc_array.c:123-141 osc_array_resize. *)
Definition array_resize (junk : bytes) (a : option array) (newlen : Z) : res (array_err * option array) :=
  match a with
  | None => Ok (ErrInval, None)
  | Some a =>
      match mem_resize junk (ar_mem a) (newlen * ar_size a) with
      | None => Ok (ErrOutOfMem, Some (Arr None 0 (ar_size a)))
      | Some m =>
          do m <- (if ar_len a <? newlen
                   then mem_zero (Some m) (ar_len a * ar_size a) ((newlen - ar_len a) * ar_size a)
                   else Ok (Some m));
          Ok (ErrNone, Some (Arr m newlen (ar_size a)))
      end
  end.

(** osc_array.c:143-150 osc_array_set: the array takes over a block. *)
Definition array_set (ptr : option bytes) (len membersize : Z) : array := Arr ptr len membersize.

(** What a client does with the pointer osc_array_get returns: write or read
    one member. *)
Definition array_put (a : array) (idx : Z) (v : bytes) : res (option array) :=
  match array_get a idx with
  | None => Ok None
  | Some off => do m <- mem_put (ar_mem a) off v; Ok (Some (Arr m (ar_len a) (ar_size a)))
  end.
Definition array_read (a : array) (idx : Z) : res (option bytes) :=
  match array_get a idx with
  | None => Ok None
  | Some off => do v <- mem_get (ar_mem a) off (ar_size a); Ok (Some v)
  end.
