(** Model of serialization: osc_atom_u_nserialize, osc_message_u_nserialize
    and osc_bundle_u_nserialize, with the atom setters that determine what is
    serialized. *)

From Coq Require Import ZArith List Bool.
From Verif Require Import Base Bytes UtilModel TimetagModel.
Import ListNotations.
Open Scope Z_scope.

(** osc_atom_u.r:41-62 (struct _osc_atom_u), osc_message_u.r (struct
    _osc_message_u), osc_bundle_u.r (struct _osc_bundle_u) as values.  An atom
    is its type tag, the first eight bytes of the union [w] as a little-endian
    number, and what the union points to if it holds a pointer.  The doubly
    linked lists of atoms and messages are lists here, [argc] is the length of
    the list (the linked structures are modelled in HeapModel.v), and a NULL
    address is [None]. *)
Inductive atom : Type :=
| Atom (tg w : Z) (p : payload)
with payload : Type :=
| PNone                       (* NULL, or the union holds no pointer *)
| PStr (s : list Z)           (* w.s: a C string *)
| PBlob (b : bytes)           (* w.b: size field and data *)
| PBndl (ms : list umsg)      (* w.bndl *)
with umsg : Type :=
| UMsg (address : option (list Z)) (args : list atom).

Definition a_tt (a : atom) : Z := match a with Atom tg _ _ => tg end.

(** osc_atom_u.c:38-43 osc_atom_u_alloc: the structure is zeroed. *)
Definition atom_fresh : atom := Atom 0 0 PNone.

(** osc_atom_u.c:1010-1097: the setters.  After osc_atom_u_clear
    (125-141, which releases what the atom owns and leaves the union alone) a
    setter stores through its own union member only: the other bytes of the
    union keep what was there. *)
Definition store (nbits : Z) (w v : Z) : Z := w - w mod 2^nbits + v mod 2^nbits.
Definition set_float (a : atom) (bits : Z) : atom :=
  match a with Atom _ w p => Atom 102 (store 32 w bits) PNone end.
Definition set_double (a : atom) (bits : Z) : atom :=
  match a with Atom _ w p => Atom 100 (store 64 w bits) PNone end.
Definition set_int8 (a : atom) (v : Z) : atom :=
  match a with Atom _ w p => Atom 99 (store 8 w v) PNone end.
Definition set_int16 (a : atom) (v : Z) : atom :=
  match a with Atom _ w p => Atom 117 (store 16 w v) PNone end.
Definition set_int32 (a : atom) (v : Z) : atom :=
  match a with Atom _ w p => Atom 105 (store 32 w v) PNone end.
Definition set_int64 (a : atom) (v : Z) : atom :=
  match a with Atom _ w p => Atom 104 (store 64 w v) PNone end.
Definition set_uint8 (a : atom) (v : Z) : atom :=
  match a with Atom _ w p => Atom 67 (store 8 w v) PNone end.
Definition set_uint16 (a : atom) (v : Z) : atom :=
  match a with Atom _ w p => Atom 85 (store 16 w v) PNone end.
Definition set_uint32 (a : atom) (v : Z) : atom :=
  match a with Atom _ w p => Atom 73 (store 32 w v) PNone end.
Definition set_uint64 (a : atom) (v : Z) : atom :=
  match a with Atom _ w p => Atom 72 (store 64 w v) PNone end.
(** osc_atom_u.c:1158-1183 osc_atom_u_setTrue, setFalse, setNil. *)
Definition set_true (a : atom) : atom := match a with Atom _ w p => Atom 84 w PNone end.
Definition set_false (a : atom) : atom := match a with Atom _ w p => Atom 70 w PNone end.
Definition set_nil (a : atom) : atom := match a with Atom _ w p => Atom 78 w PNone end.
(** osc_atom_u.c:1134-1142 osc_atom_u_setStringPtr with the copy made by
    osc_atom_u_setString (1101-1132); the address stored in the union is not
    modelled, it is taken to be [ptr]. *)
Definition set_string (a : atom) (ptr : Z) (s : list Z) : atom := Atom 115 (u64 ptr) (PStr s).
(** osc_atom_u.c:1209-1214 osc_atom_u_setBndl_u. *)
Definition set_bndl (a : atom) (ptr : Z) (ms : list umsg) : atom := Atom 46 (u64 ptr) (PBndl ms).
(** osc_atom_u.c:1216-1224 osc_atom_u_setTimetag: [sec] is stored first. *)
Definition set_timetag (a : atom) (t : timetag) : atom :=
  match a with Atom _ w p => Atom 116 (u32 (sec t) + 2^32 * u32 (frac t)) PNone end.
(** osc_atom_u.c:1226-1243 osc_atom_u_setBlob: the copy has room for the data,
    a NUL and padding, and is cleared first.  [l] is the size field as int32;
    for negative sizes the allocation and copy sizes are huge. *)
Definition set_blob (a : atom) (ptr : Z) (src : bytes) (i : Z) : res atom :=
  do n <- rd32 src i;
  let l := s32 n in
  if (l <? 0) || (2^31 <=? l + 4) then Ub OOB else
  do d <- slice src i (l + 4);
  let buflen := 4 * ((l + 1 + 3) / 4) in
  Ok (Atom 98 (u64 ptr) (PBlob (d ++ repeat 0 (Z.to_nat (buflen + 4 - (l + 4)))))).

(** The 4-byte tags of osc_atom_u.c:1349-1354. *)
Definition is_int32_tag (tg : Z) : bool :=
  (tg =? 99) || (tg =? 67) || (tg =? 117) || (tg =? 85) || (tg =? 105) || (tg =? 73).

(** [for(it; hasNext; next)] over a linked list, with an extra condition
    checked before each element. *)
Definition loop_list {S A} (cond : S -> bool) (f : S -> A -> res S) : list A -> S -> res S :=
  fix go l s :=
    match l with
    | [] => Ok s
    | a :: l' => if cond s then do s' <- f s a; go l' s' else Ok s
    end.
Definition always {S} (_ : S) : bool := true.

(** The size-only pass, [buf == NULL]: osc_atom_u.c:1343-1438,
    osc_message_u.c:978-1000 and osc_bundle_u.c:617-626.  Sums of sizes are in
    size_t; each summand is bounded by the size of a live object, so they are
    taken not to wrap.  A NULL bundle has no iterator and counts as empty. *)
Fixpoint atom_size (a : atom) : res Z :=
  match a with
  | Atom tg w p =>
      if is_int32_tag tg then Ok 4
      else if tg =? 102 then Ok 4
      else if tg =? 100 then Ok 8
      else if tg =? 115 then
        match p with PStr s => Ok (padding_for_nbytes (zlen s)) | _ => Ub NullDeref end
      else if tg =? 46 then
        match p with
        | PBndl ms =>
            do len <- loop_list always (fun n m => do k <- msg_size m; Ok (n + k)) ms 16;
            Ok (len + 4)
        | _ => Ok (16 + 4)
        end
      else if tg =? 116 then Ok 8
      else if (tg =? 104) || (tg =? 72) then Ok 8
      else if tg =? 98 then
        match p with
        | PBlob b => do n <- rd32 b 0; Ok (blob_length (s32 n))
        | _ => Ub NullDeref
        end
      else Ok 0
  end
with msg_size (m : umsg) : res Z :=
  match m with
  | UMsg None _ => Ok 0
  | UMsg (Some address) args =>
      loop_list always (fun n a => do k <- atom_size a; Ok (n + k)) args
        (4 + padded_string_len (zlen address) + padding_for_nbytes (zlen args + 1))
  end.

Definition bundle_size (ms : list umsg) : res Z :=
  loop_list always (fun n m => do k <- msg_size m; Ok (n + k)) ms 16.

(** [memset(buf + i, 0, n)]. *)
Definition memset0 (buf : bytes) (i n : Z) : res bytes := write buf i (repeat 0 (Z.to_nat n)).

(** OSC_EMPTY_HEADER, osc.h:43. *)
Definition osc_empty_header : bytes := [35; 98; 117; 110; 100; 108; 101; 0; 0; 0; 0; 0; 0; 0; 0; 0].

(** The writing pass into [n] bytes at offset [off] of [buf]: the buffer
    afterwards and the returned count.  osc_atom_u.c:1343-1438: a value that
    does not fit is not written and counts 0; a bundle that does not fit falls
    through to the time tag case, which writes the union's eight bytes (the
    bundle's address). *)
Fixpoint atom_nser (buf : bytes) (off n : Z) (a : atom) : res (bytes * Z) :=
  match a with
  | Atom tg w p =>
      let timetag_case :=
        if n >=? 8 then
          do b <- tt_encode (TT (w mod 2^32) (w / 2^32 mod 2^32)) buf off; Ok (b, 8)
        else Ok (buf, 0) in
      if is_int32_tag tg || (tg =? 102) then
        if n >=? 4 then do b <- wr32 buf off (w mod 2^32); Ok (b, 4) else Ok (buf, 0)
      else if tg =? 100 then
        if n >=? 8 then do b <- wr64 buf off (w mod 2^64); Ok (b, 8) else Ok (buf, 0)
      else if tg =? 115 then
        match p with
        | PStr s =>
            let len := zlen s in
            let plen := padding_for_nbytes len in
            if n >=? plen then
              do b <- memset0 buf off plen; do b <- write b off s; Ok (b, plen)
            else Ok (buf, 0)
        | _ => Ub NullDeref
        end
      else if tg =? 46 then
        match p with
        | PBndl ms =>
            do len <- loop_list always (fun n m => do k <- msg_size m; Ok (n + k)) ms 16;
            if n >=? len + 4 then
              do b <- wr32 buf off len;
              (* osc_bundle_u_nserialize(buf + 4, len, a->w.bndl) + 4 *)
              if len <? 16 then Ok (b, 4) else
              do b <- write b (off + 4) osc_empty_header;
              do ' (b, k) <- loop_list (fun st => snd st <? len)
                (fun st m => do ' (b, k) <- msg_nser (fst st) (off + 4 + snd st) (len - snd st) m;
                             Ok (b, snd st + k)) ms (b, 16);
              Ok (b, k + 4)
            else timetag_case
        | _ =>
            if n >=? 20 then
              do b <- wr32 buf off 16; do b <- write b (off + 4) osc_empty_header; Ok (b, 20)
            else timetag_case
        end
      else if tg =? 116 then timetag_case
      else if (tg =? 104) || (tg =? 72) then
        if n >=? 8 then do b <- wr64 buf off (w mod 2^64); Ok (b, 8) else Ok (buf, 0)
      else if tg =? 98 then
        match p with
        | PBlob bl =>
            do nn <- rd32 bl 0;
            let len := s32 nn in
            let plen := blob_length len in
            if n >=? plen then
              do b <- memset0 buf off plen;
              do d <- slice bl 0 (len + 4);
              do b <- write b off d; Ok (b, plen)
            else Ok (buf, 0)
        | _ => Ub NullDeref
        end
      else Ok (buf, 0)
  end
(** osc_message_u.c:978-1028; the loop state is the buffer, [ttptr] and
    [_n]. *)
with msg_nser (buf : bytes) (off n : Z) (m : umsg) : res (bytes * Z) :=
  match m with
  | UMsg None _ => Ok (buf, 0)
  | UMsg (Some address) args =>
      let addresslen := zlen address in
      let padded_address_len := padding_for_nbytes addresslen in
      let padded_typetag_len := padding_for_nbytes (zlen args + 1) in
      let before := 4 + padded_address_len + padded_typetag_len in
      if n <? before then Ok (buf, 0) else
      do b <- memset0 buf off before;
      do b <- write b (off + 4) address;
      let ttptr := off + 4 + padded_address_len in
      do b <- write b ttptr [44];
      do ' (b, _, n1) <- loop_list (fun st => let '(_, ttptr, _) := st in ttptr <? off + n)
        (fun st a =>
           let '(b, ttptr, n1) := st in
           do b <- write b ttptr [u8 (a_tt a)];
           if n1 <=? n then
             do ' (b, k) <- atom_nser b (off + n1) (n - n1) a; Ok (b, ttptr + 1, n1 + k)
           else Ok (b, ttptr + 1, n1))
        args (b, ttptr + 1, before);
      do b <- wr32 b off (n1 - 4);
      Ok (b, n1)
  end.

(** osc_bundle_u.c:617-640. *)
Definition bundle_nser (buf : bytes) (off n : Z) (ms : list umsg) : res (bytes * Z) :=
  if n <? 16 then Ok (buf, 0) else
  do b <- write buf off osc_empty_header;
  loop_list (fun st => snd st <? n)
    (fun st m => do ' (b, k) <- msg_nser (fst st) (off + snd st) (n - snd st) m;
                 Ok (b, snd st + k)) ms (b, 16).

(** osc_bundle_u.c:605-615 osc_bundle_u_serialize and osc_message_u.c:1035-1043
    osc_message_u_serialize: size pass, allocation of exactly that many bytes
    (contents [junk], whatever malloc returns), writing pass. *)
Definition bundle_serialize (junk : bytes) (ms : list umsg) : res bytes :=
  do n <- bundle_size ms;
  do ' (b, _) <- bundle_nser (firstn (Z.to_nat n) junk) 0 n ms;
  Ok b.
Definition msg_serialize (junk : bytes) (m : umsg) : res bytes :=
  do n <- msg_size m;
  do ' (b, _) <- msg_nser (firstn (Z.to_nat n) junk) 0 n m;
  Ok b.
