(** Model of the functions of osc_bundle_s.c that look up, add, remove and
    replace messages of a serialized bundle and combine bundles, and of
    osc_message_s_renameCopy.

    A bundle starts at offset 0 of its buffer; the buffer may be longer than
    the bundle.  Messages of other bundles live in buffers of their own.
    Allocation succeeds; fresh memory has the contents given by [junk]. *)

From Coq Require Import ZArith List Bool.
From Verif Require Import Base Bytes UtilModel MatchModel WireModel.
Import ListNotations.
Open Scope Z_scope.

(** * Looking up addresses *)

(** The test used by addressIsBound, addressExists and lookupAddress
    (osc_bundle_s.c:187-197, 222-232, 254-262): is the result [r] of matching
    [pat] a hit?  [pat[po]] is read in the NUL-terminated pattern. *)
Definition hit (fullmatch : bool) (pat : list Z) (r : mres) : res bool :=
  if fullmatch then Ok (code r =? 3)
  else if code r =? 0 then Ok false
  else if Z.land (code r) 2 =? 0 then do c <- rdc pat (poff r); Ok (c =? 47)
  else Ok true.

(** [osc_match(pat, msg + 4, &po, &ao)] for the message at [p].  The matcher
    is given the address up to its NUL; that NUL must be inside the buffer. *)
Definition match_at (buf : bytes) (pat : list Z) (p : Z) : res mres :=
  do a <- rdstr buf (p + 4); osc_match pat a.

(** osc_bundle_s.c:211-238 osc_bundle_s_addressExists: [*res]. *)
Definition address_exists (buf : bytes) (len : Z) (pat : list Z) (fullmatch : bool) : res bool :=
  do r <- raw_loop buf 0 len (fun _ p =>
    do r <- match_at buf pat p;
    do h <- hit fullmatch pat r;
    Ok (if h then Done true else Cont tt)) tt;
  match r with Done b => Ok b | Cont _ => Ok false end.

(** osc_bundle_s.c:174-209 osc_bundle_s_addressIsBound: [*res].  The type tags
    are looked for behind as many bytes as the padded *pattern* has. *)
Definition address_is_bound (buf : bytes) (len : Z) (pat : list Z) (fullmatch : bool) : res bool :=
  do r <- raw_loop buf 0 len (fun _ p =>
    do n <- rd32 buf p;
    do r <- match_at buf pat p;
    do h <- hit fullmatch pat r;
    if negb h then Ok (Cont tt) else
    let tgs := p + 4 + padded_string_len (zlen pat) in
    do k <- add_int (s32 n) 4;
    if negb (tgs - p <? k) then Ok (Cont tt) else
    do c <- rd buf (tgs + 1);
    Ok (if negb (c =? 0) then Done true else Cont tt)) tt;
  match r with Done b => Ok b | Cont _ => Ok false end.

(** osc_array.c:123-146 osc_array_resize of an array of messages: the part
    that is new is cleared (OSC_ARRAY_CLEAR_ON_ALLOC, osc.h:55). *)
Definition array_resize (ar : list msg_s) (n : Z) : list msg_s :=
  firstn (Z.to_nat n) (ar ++ repeat init_msg (Z.to_nat n - length ar)).

(** Store [x] as element [i]. *)
Definition put {A} (l : list A) (i : Z) (x : A) : list A :=
  firstn (Z.to_nat i) l ++ x :: skipn (S (Z.to_nat i)) l.

(** osc_bundle_s.c:264-284, for a message that was hit: make room in the array
    ([ar] is NULL at first), take element [n] (NULL if the array is too short:
    osc_message_s_wrap then does nothing) and wrap the message at [p]. *)
Definition lookup_add (buf : bytes) (p : Z) (ar : option (list msg_s)) (matchbuflen n : Z)
  : res (option (list msg_s) * Z * Z) :=
  let '(ar, matchbuflen) :=
    if n >=? matchbuflen then
      (match ar with
       | None => repeat init_msg 16
       | Some l => array_resize l (matchbuflen + 16)
       end, matchbuflen + 16)
    else (match ar with None => [] | Some l => l end, matchbuflen) in
  if zlen ar <=? n then Ok (Some ar, matchbuflen, n + 1)
  else
    do m <- rd ar n;
    do m' <- wrap m buf p;
    Ok (Some (put ar n m'), matchbuflen, n + 1).

(** osc_bundle_s.c:240-293 osc_bundle_s_lookupAddress; [None] is NULL. *)
Definition lookup_address (buf : bytes) (len : Z) (pat : list Z) (fullmatch : bool)
  : res (option (list msg_s)) :=
  do r <- raw_loop buf 0 len (fun (st : option (list msg_s) * Z * Z) p =>
    let '(ar, matchbuflen, n) := st in
    do r <- match_at buf pat p;
    do h <- hit fullmatch pat r;
    if negb h then Ok (@Cont _ unit st)
    else do st' <- lookup_add buf p ar matchbuflen n; Ok (Cont st')) (None, 0, 0);
  match r with
  | Cont (Some ar, _, n) => Ok (Some (array_resize ar n))
  | _ => Ok None
  end.

(** osc_bundle_s.c:300-314 osc_bundle_s_getFirstFullMatch: the position of the
    message. *)
Definition first_full_match (buf : bytes) (len : Z) (pat : list Z) : res (option Z) :=
  do r <- raw_loop buf 0 len (fun _ p =>
    do r <- match_at buf pat p;
    Ok (if code r =? 3 then Done p else Cont tt)) tt;
  match r with Done p => Ok (Some p) | Cont _ => Ok None end.

(** [strcmp(a, b) == 0] for two strings. *)
Definition streq (a b : list Z) : bool := if list_eq_dec Z.eq_dec a b then true else false.

(** osc_bundle_s.c:316-329 osc_bundle_s_getFirstEqualAddr. *)
Definition first_equal_addr (buf : bytes) (len : Z) (address : list Z) : res (option Z) :=
  do r <- raw_loop buf 0 len (fun _ p =>
    do a <- rdstr buf (p + 4);
    Ok (if streq address a then Done p else Cont tt)) tt;
  match r with Done p => Ok (Some p) | Cont _ => Ok None end.

(** * Changing a bundle *)

(** memcpy(dst + d, src + s, n). *)
Definition memcpy (dst : bytes) (d : Z) (src : bytes) (s n : Z) : res bytes :=
  do v <- slice src s n; write dst d v.

(** osc_bundle_s.c:487-494 osc_bundle_s_setBundleID. *)
Definition set_bundle_id (buf : bytes) : res bytes := write buf 0 osc_id.

(** osc_bundle_s.c:331-346 osc_bundle_s_wrapMessage of the [len] bytes [msg]
    into [bndl], or into a new buffer: [bndllen], [bndl] and [alloc]. *)
Definition wrap_message (junk : bytes) (len : Z) (msg : bytes) (bndl : option bytes)
  : res (Z * bytes * bool) :=
  let bndllen := len + 16 + 4 in
  let '(b, alloc) :=
    match bndl with
    | Some b => (b, false)
    | None => (firstn (Z.to_nat bndllen) junk, true)
    end in
  do b <- set_bundle_id b;
  do b <- wr32 b 16 len;
  do b <- memcpy b 20 msg 0 len;
  Ok (bndllen, b, alloc).

(** osc_bundle_s.c:348-392 osc_bundle_s_removeMessage: the new length and the
    buffer.  [p3] after the last iteration is kept in the state. *)
Definition remove_message (address : list Z) (len : Z) (buf : bytes) : res (Z * bytes) :=
  let tmp := repeat 0 (Z.to_nat len) in
  do tmp <- memcpy tmp 0 buf 0 16;
  do r <- raw_loop buf 0 len (fun (st : bytes * Z * Z * Z) p =>
    let '(tmp, p1, p2, _) := st in
    do n <- rd32 buf p;
    do k <- add_int (s32 n) 4;
    do a <- rdstr buf (p + 4);
    if streq a address then
      do ' (tmp, p1) <-
        (if negb (p2 =? p) then do t <- memcpy tmp p1 buf p2 (p - p2); Ok (t, p1 + (p - p2))
         else Ok (tmp, p1));
      Ok (@Cont _ unit (tmp, p1, p + k, p + k))
    else Ok (Cont (tmp, p1, p2, p + k))) (tmp, 16, 16, 16);
  match r with
  | Done _ => Ub NullDeref
  | Cont (tmp, p1, p2, p3) =>
      do ' (tmp, p1) <-
        (if negb (p2 =? p3) then do t <- memcpy tmp p1 buf p2 (p3 - p2); Ok (t, p1 + (p3 - p2))
         else Ok (tmp, p1));
      do buf' <- memcpy buf 0 tmp 0 p1;
      Ok (p1, buf')
  end.

(** realloc: the old contents as far as they fit, then [junk]. *)
Definition resize (b junk : bytes) (n : Z) : bytes := firstn (Z.to_nat n) (b ++ junk).

(** osc_bundle_s.c:394-444 osc_bundle_s_replaceMessage: the old message at
    [om] of the bundle, the new one at [nm] of [nbuf] (possibly the same
    buffer: it is read before anything is changed).  The result is the error
    code, [*buflen], [*bufpos] and [*bndl]. *)
Definition replace_message (junk : bytes) (buflen bufpos : Z) (bndl : bytes) (om : Z)
  (nbuf : bytes) (nm : Z) : res (Z * Z * Z * bytes) :=
  do os <- rd32 bndl om;
  do ns <- rd32 nbuf nm;
  do ok <- add_int (s32 os) 4;
  do nk <- add_int (s32 ns) 4;
  let newbuflen := bufpos - ok + nk in
  if newbuflen <? 0 then Ok (ERR_INVAL, buflen, bufpos, bndl) else
  let copy := firstn (Z.to_nat newbuflen) junk in
  do copy <- memcpy copy 0 bndl 0 om;
  do copy <- memcpy copy om nbuf nm nk;
  let r := bufpos - (om + ok) in
  do copy <- (if r >? 0 then memcpy copy (om + nk) bndl (om + ok) r else Ok copy);
  let '(bndl, buflen) :=
    if newbuflen >? buflen then (resize bndl junk newbuflen, newbuflen) else (bndl, buflen) in
  do bndl <- memcpy bndl 0 copy 0 newbuflen;
  Ok (ERR_NONE, buflen, newbuflen, bndl).

(** osc_bundle_s.c:449-477 osc_bundle_s_appendMessage of the message [m] (NULL:
    nothing happens) that lives in [mbuf]: [*len] and [*bndl]. *)
Definition append_message (junk : bytes) (len : Z) (bndl : option bytes) (mbuf : bytes)
  (m : option msg_s) : res (Z * option bytes) :=
  match m with
  | None => Ok (len, bndl)
  | Some m =>
      do msglen <- get_size mbuf m;
      do k <- add_int msglen 4;
      do ' (len, b) <-
        match bndl with
        | Some b => Ok (len, resize b junk (len + k))
        | None =>
            let b := firstn (Z.to_nat (k + 16)) junk in
            do b <- write b 8 (repeat 0 8);
            do b <- set_bundle_id b;
            Ok (16, b)
        end;
      match ms_size m with
      | None => Ub NullDeref
      | Some p => do b <- memcpy b len mbuf p k; Ok (len + k, Some b)
      end
  end.

(** * Combining bundles *)

(** The messages of [bndl] are appended to [out] at [len]. *)
Definition append_raw (out : bytes) (len : Z) (buf : bytes) (p l : Z) : res (bytes * Z) :=
  do out <- memcpy out len buf p l; Ok (out, len + l).

(** [if(addressExists(out, address) == 0) append], used by all three. *)
Definition append_new (out : bytes) (len : Z) (buf : bytes) (p l : Z) (address : list Z)
  : res (bytes * Z) :=
  do e <- address_exists out len address true;
  if e then Ok (out, len) else append_raw out len buf p l.

(** osc_bundle_s.c:687-751 osc_bundle_s_union: each operand is NULL or a length
    and a pointer that may be NULL; the result is NULL or a length and a
    buffer. *)
Definition bundle_union (junk : bytes) (lhs rhs : option (Z * option bytes))
  : res (option (Z * bytes)) :=
  match lhs, rhs with
  | Some (len1, bndl1), Some (len2, bndl2) =>
      if ((len1 =? 0) && (len2 =? 0)) || ((len1 =? 16) && (len2 =? 16)) then
        do b <- set_bundle_id (firstn 16 junk); Ok (Some (16, b))
      else
        let out := repeat 0 (Z.to_nat (len1 + len2)) in
        match bndl1, bndl2 with
        | None, Some b2 => do out <- memcpy out 0 b2 0 len2; Ok (Some (len2, out))
        | _, _ =>
            do ' (out, len) <-
              match bndl1 with
              | Some b1 => do o <- memcpy out 0 b1 0 len1; Ok (o, len1)
              | None => do o <- set_bundle_id out; Ok (o, 16)
              end;
            match bndl2 with
            | None => if 16 <? len2 then Ub NullDeref else Ok (Some (len, out))
            | Some b2 =>
                do r <- raw_loop b2 0 len2 (fun (st : bytes * Z) p =>
                  let '(out, len) := st in
                  do n <- rd32 b2 p;
                  do k <- add_int (s32 n) 4;
                  do a <- rdstr b2 (p + 4);
                  do st' <- append_new out len b2 p k a;
                  Ok (@Cont _ unit st')) (out, len);
                match r with
                | Cont (out, len) => Ok (Some (len, out))
                | Done _ => Ub NullDeref
                end
            end
        end
  | _, _ => Ok None
  end.

(** The address and the [getSize(m) + 4] bytes at [getPtr(m)] of a message
    handed out by an iterator. *)
Definition msg_parts (buf : bytes) (m : msg_s) : res (list Z * Z * Z) :=
  match ms_address m, ms_size m with
  | Some ap, Some p =>
      do a <- rdstr buf ap;
      do sz <- get_size buf m;
      do k <- add_int sz 4;
      Ok (a, p, k)
  | _, _ => Ub NullDeref
  end.

(** One pass over a bundle, as in osc_bundle_s.c:779-792 and 829-844: append
    the messages whose address is ([want]) or is not ([negb want]) in the other
    bundle and not yet in the result. *)
Definition select_pass (want : bool) (buf : bytes) (len : Z) (obuf : bytes) (olen : Z)
  (st : bytes * Z) : res (bytes * Z) :=
  do r <- bundle_loop buf 0 len (fun (st : bytes * Z) m =>
    let '(out, n) := st in
    do ' (a, p, k) <- msg_parts buf m;
    do e <- address_exists obuf olen a true;
    if negb (Bool.eqb e want) then Ok (@Cont _ unit st) else
    do st' <- append_new out n buf p k a;
    Ok (Cont st')) st;
  match r with Cont st => Ok st | Done _ => Ub NullDeref end.

(** The buffer that receives the result: the caller's, or a fresh one of
    [n] bytes, cleared. *)
Definition out_buffer (out : option bytes) (n : Z) : bytes :=
  match out with Some b => b | None => repeat 0 (Z.to_nat n) end.
(** The same for the empty result, where a fresh buffer is not cleared. *)
Definition out_header (junk : bytes) (out : option bytes) : res (Z * bytes) :=
  do b <- set_bundle_id (match out with Some b => b | None => firstn 16 junk end);
  Ok (16, b).

(** osc_bundle_s.c:753-796 osc_bundle_s_intersection, for bundles whose
    pointers are not NULL: [*len_out] and [*bndl_out]. *)
Definition bundle_intersection (junk : bytes) (len1 : Z) (bndl1 : bytes) (len2 : Z) (bndl2 : bytes)
  (out : option bytes) : res (Z * bytes) :=
  if (len1 =? 0) || (len2 =? 0) || (len1 =? 16) || (len2 =? 16) then out_header junk out
  else
    do o <- memcpy (out_buffer out (len1 + len2)) 0 bndl1 0 16;
    do ' (o, n) <- select_pass true bndl1 len1 bndl2 len2 (o, 16);
    Ok (n, o).

(** osc_bundle_s.c:798-848 osc_bundle_s_difference, likewise. *)
Definition bundle_difference (junk : bytes) (len1 : Z) (bndl1 : bytes) (len2 : Z) (bndl2 : bytes)
  (out : option bytes) : res (Z * bytes) :=
  if ((len1 =? 0) && (len2 =? 0)) || ((len1 =? 16) && (len2 =? 16)) then out_header junk out
  else
    do o <- memcpy (out_buffer out (len1 + len2)) 0 bndl1 0 16;
    do st <- select_pass false bndl1 len1 bndl2 len2 (o, 16);
    do ' (o, n) <- select_pass false bndl2 len2 bndl1 len1 st;
    Ok (n, o).

(** osc_bundle_s.c:850-865 osc_bundle_s_concat into [bndl]: the return value
    (an int) and the contents of [bndl]. *)
Definition bundle_concat (len1 : Z) (bndl1 : option bytes) (len2 : Z) (bndl2 : option bytes)
  (bndl : bytes) : res (Z * bytes) :=
  match bndl1, bndl2 with
  | None, None => Ok (0, bndl)
  | None, Some b2 => do b <- memcpy bndl 0 b2 0 len2; Ok (s32 len2, b)
  | Some b1, None => do b <- memcpy bndl 0 b1 0 len1; Ok (s32 len1, b)
  | Some b1, Some b2 =>
      do b <- memcpy bndl 0 b1 0 len1;
      do b <- memcpy b len1 b2 16 (len2 - 16);
      Ok (s32 (len1 + len2 - 16), b)
  end.

(** * osc_message_s.c *)

(** osc_message_s.c:149-152: NULs up to the next multiple of four; [k] is
    larger than the number of bytes this can take. *)
Fixpoint pad_nuls (k : nat) (dest : bytes) (ptr : Z) : res (bytes * Z) :=
  match k with
  | O => Fuel
  | S k' =>
      if ptr mod 4 =? 0 then Ok (dest, ptr)
      else do d <- write dest ptr [0]; pad_nuls k' d (ptr + 1)
  end.

(** osc_message_s.c:128-155 osc_message_s_renameCopy of the message [m] in
    [buf]: the return value and the contents of [dest].  [new_address_len] is
    passed along with the string and not checked against it. *)
Definition rename_copy (dest : option bytes) (buf : bytes) (m : msg_s) (new_address_len : Z)
  (new_address : option (list Z)) : res (Z * option bytes) :=
  match dest with
  | None => Ok (0, None)
  | Some d =>
      if negb (validate_address new_address =? 0) then Ok (0, Some d) else
      match new_address, ms_address m with
      | Some na, Some ap =>
          do oldlen <- get_size buf m;
          do a <- rdstr buf ap;
          let newlen := s32 (oldlen - padded_string_len (zlen a) + padding_for_nbytes new_address_len) in
          do d <- wr32 d 0 newlen;
          do d <- (if new_address_len >? 0 then memcpy d 4 (na ++ [0]) 0 new_address_len else Ok d);
          let ptr := 4 + new_address_len in
          do d <- write d ptr [0];
          do ' (d, ptr) <- pad_nuls 4 d (ptr + 1);
          match ms_typetags m with
          | None => Ub NullDeref
          | Some tp => do d <- memcpy d ptr buf tp (oldlen - (tp - ap)); Ok (newlen, Some d)
          end
      | _, _ => Ub NullDeref
      end
  end.
