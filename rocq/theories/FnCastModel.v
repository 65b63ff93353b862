(** Model of the casts of the expression language and of the functions readstring,
    match and bundle, osc_expr.c.  Each function gets its arguments [argv]; it
    returns its code and [*out], which is NULL before.  Error reports are not
    modelled.  Arrays are taken to have fewer than 2^31 members.  The addresses of
    new strings, blobs and bundles are not modelled, they are taken to be 0. *)

From Coq Require Import ZArith List Bool.
From Verif Require Import Base Bytes UtilModel TimetagModel MatchModel SerialModel WireModel FloatModel AtomUModel StrfmtModel
  ExprModel ExprListModel StatModel FnStrModel FnNumModel.
Import ListNotations.
Open Scope Z_scope.

(** * Atoms as blobs *)

(** osc_atom_u.c:890-914 osc_atom_u_getBlobLen.  osc_sizeof gets the union as a
    pointer, which it follows for strings and blobs only; these have their own
    cases.  A new block for a serialized bundle is zeroed here. *)
Definition au_blob_len (a : atom) : res Z :=
  match a with
  | Atom tg w p =>
      if tg =? 98 then
        match p with PBlob b => do n <- rd32 b 0; Ok (s32 n) | PNone => Ok 0 | _ => Ub NullDeref end
      else if tg =? 46 then
        match p with PBndl ms => do n <- bundle_size ms; Ok (s32 n) | _ => Ub NullDeref end
      else if tg =? 115 then
        match p with PStr s => Ok (s32 (zlen s)) | _ => Ub NullDeref end
      else do n <- osc_sizeof tg [] 0; Ok (s32 n)
  end.
(** osc_atom_u.c:927-1008 osc_atom_u_getBlobCopy with [*blob] NULL before: [*buflen]
    and [*blob].  For a type whose size is not known, -1, the block has 4 bytes. *)
Definition au_blob_copy (E : env) (a : atom) : res (Z * bytes) :=
  do bloblen <- au_blob_len a;
  let buflen := 4 * ((bloblen + 1 + 3) / 4) + 4 in
  if buflen <? 0 then Ub OOB else
  let blob := repeat 0 (Z.to_nat buflen) in
  do blob <-
    match a with
    | Atom tg w p =>
        if tg =? 98 then match p with PBlob b => slice b 0 buflen | _ => Ub NullDeref end
        else if (tg =? 99) || (tg =? 67) then do b <- wr32 blob 0 1; write b 4 [u8 (w_c w)]
        else if (tg =? 117) || (tg =? 85) then do b <- wr32 blob 0 2; write b 4 (le_bytes 2 (hton16 (u16 (w_u w))))
        else if (tg =? 105) || (tg =? 73) then do b <- wr32 blob 0 4; wr32 b 4 (w_i w)
        else if (tg =? 104) || (tg =? 72) then do b <- wr32 blob 0 8; wr64 b 4 (w_i w)
        else if tg =? 102 then do b <- wr32 blob 0 4; wr32 b 4 (w_f w)
        else if tg =? 100 then do b <- wr32 blob 0 8; wr64 b 4 (w_d w)
        else if tg =? 115 then
          do b <- wr32 blob 0 (buflen - 4);
          (* the buffer handed on begins at [blob + 4] and is said to have [buflen] bytes *)
          do ' (p, _) <- au_string (e_text E) (e_junk E) a buflen (Some (skipn 4 b));
          Ok (firstn 4 b ++ p)
        else if tg =? 46 then
          match p with
          | PBndl ms =>
              do n <- bundle_size ms;
              do s <- bundle_serialize (repeat 0 (Z.to_nat n)) ms;
              do b <- wr32 blob 0 (zlen s); write b 4 s
          | _ => Ub NullDeref
          end
        else if tg =? 116 then do b <- wr32 blob 0 8; tt_encode (au_timetag a) b 4
        else Ok blob
    end;
  Ok (buflen, blob).
(** osc_atom_u.c:1242-1250 osc_atom_u_setBlobPtr. *)
Definition set_blob_ptr (a : atom) (b : bytes) : atom := Atom 98 0 (PBlob b).

(** * Casts of one atom: the code returned and the destination *)

(** osc_expr.c:5909-5973. *)
Definition cast1 := atom -> atom -> res (Z * atom).
Definition cast_to {A} (get : atom -> res A) (set : atom -> A -> atom) : cast1 :=
  fun src dest => do v <- get src; Ok (0, set dest v).
Definition cast_float32 (F : single) := cast_to (au_float (s_float F)) set_float.
Definition cast_float64 (E : env) := cast_to (au_double (e_double E)) set_double.
Definition cast_int8 := cast_to au_int8 set_int8.
Definition cast_int16 := cast_to au_int16 set_int16.
Definition cast_int32 := cast_to au_int32 set_int32.
Definition cast_int64 := cast_to au_int64 set_int64.
Definition cast_uint8 := cast_to au_uint8 set_uint8.
Definition cast_uint16 := cast_to au_uint16 set_uint16.
Definition cast_uint32 := cast_to au_uint32 set_uint32.
Definition cast_uint64 := cast_to au_uint64 set_uint64.
Definition cast_bool : cast1 := cast_to (fun a => Ok (au_bool a)) set_bool.
(** osc_expr.c:5975-6018 osc_expr_explicitCast_string. *)
Definition cast_string (E : env) : cast1 := fun src dest =>
  if a_tt src =? 98 then
    match src with
    | Atom _ _ (PBlob b) => do s <- rdstr b 4; Ok (0, set_string dest 0 s)
    | _ => Ub NullDeref
    end
  else if a_tt src =? 99 then
    do c <- au_int8 src;
    let buf := if (32 <=? c) && (c <? 127) then [c] else firstn 3 (fmt_int c) in
    Ok (0, set_string dest 0 buf)
  else if a_tt src =? 67 then
    do v <- au_int8 src;
    let c := u8 v in
    let buf := if (32 <=? c) && (c <? 127) then [c] else firstn 3 (fmt_int c) in
    Ok (0, set_string dest 0 buf)
  else do s <- text_of E src; Ok (0, set_string dest 0 s).
(** osc_expr.c:6020-6027 osc_expr_explicitCast_blob. *)
Definition cast_blob (E : env) : cast1 := fun src dest =>
  do ' (_, b) <- au_blob_copy E src; Ok (0, set_blob_ptr dest b).

(** * Casts of lists *)

(** osc_expr.c:5895-5904: the loop over the members. *)
Fixpoint cast_loop (f : cast1) (l : list atom) (i : Z) (out : arr) : res (Z * arr) :=
  match l with
  | [] => Ok (0, out)
  | a :: l' =>
      do d <- aget out i;
      match d with
      | None => Ub NullDeref
      | Some d =>
          do ' (ret, d) <- f a d;
          do out <- aput out i (fun _ => Ok d);
          if negb (ret =? 0) then Ok (ret, out) else cast_loop f l' (i + 1) out
      end
  end.
(** osc_expr.c:5866-5908 osc_expr_explicitCast for the casts but that to a blob.
    The casts are called through a type of function with one parameter more than
    they have, which is taken to work. *)
Definition fn_cast (f : cast1) (argv : list arr) : res (Z * arr) :=
  match argv with
  | [] => Ok (0, None)
  | a :: _ => do out <- aalloc (alen a); cast_loop f (items a) 0 out
  end.
(** osc_expr.c:5869-5889: the cast to a blob. *)
Fixpoint byte_loop (l : list atom) (i : Z) (blob : bytes) : res bytes :=
  match l with
  | [] => Ok blob
  | a :: l' => do v <- au_int8 a; do b <- write blob (i + 4) [u8 v]; byte_loop l' (i + 1) b
  end.
Definition fn_cast_blob (E : env) (argv : list arr) : res (Z * arr) :=
  match argv with
  | [] => Ok (0, None)
  | a :: _ =>
      let n := alen a in
      do x <- aget a 0;
      match x with
      | Some x0 =>
          if (n =? 1) && (a_tt x0 =? 46) then
            do out <- aalloc 1;
            do ' (_, b) <- au_blob_copy E x0;
            do out <- aput out 0 (fun r => set_blob r 0 b 0);
            Ok (0, out)
          else
            do blob <- byte_loop (items a) 0 (firstn (Z.to_nat (n + 4)) (e_junk E ++ repeat 170 (Z.to_nat (n + 4))));
            do blob <- wr32 blob 0 n;
            do out <- aalloc 1;
            do out <- aput out 0 (fun r => Ok (set_blob_ptr r blob));
            Ok (0, out)
      | None =>
          do blob <- wr32 (firstn 4 (e_junk E ++ repeat 170 4)) 0 n;
          do out <- aalloc 1;
          do out <- aput out 0 (fun r => Ok (set_blob_ptr r blob));
          Ok (0, out)
      end
  end.
(** osc_expr.c:6050-6088: the cast for the type [tt]; other types leave the new
    atom as it is. *)
Definition cast_as (F : single) (E : env) (tt : Z) : cast1 :=
  if tt =? 99 then cast_int8
  else if tt =? 67 then cast_uint8
  else if tt =? 117 then cast_int16
  else if tt =? 85 then cast_uint16
  else if tt =? 105 then cast_int32
  else if tt =? 73 then cast_uint32
  else if tt =? 104 then cast_int64
  else if tt =? 72 then cast_uint64
  else if tt =? 102 then cast_float32 F
  else if tt =? 100 then cast_float64 E
  else if tt =? 115 then cast_string E
  else if tt =? 98 then cast_blob E
  else fun _ dest => Ok (0, dest).
(** osc_expr.c:6047-6089: the loop; [tts i] reads the type for member [i].  The
    codes of the casts are not looked at. *)
Fixpoint dynamic_loop (F : single) (E : env) (tts : Z -> res Z) (l : list atom) (i : Z) (out : arr) : res arr :=
  match l with
  | [] => Ok out
  | a :: l' =>
      do tt <- tts i;
      do out <- aput out i (fun d => do ' (_, d) <- cast_as F E tt a d; Ok d);
      dynamic_loop F E tts l' (i + 1) out
  end.
(** osc_atom_u_getInt8 of member [i], which is 0 without member. *)
Definition char_at (a : arr) (i : Z) : res Z :=
  do x <- aget a i; match x with Some x => au_int8 x | None => Ok 0 end.
(** osc_expr.c:6029-6096 osc_expr_explicitCast_dynamic: one type for several
    members is repeated. *)
Definition fn_cast_dynamic (F : single) (E : env) (argv : list arr) : res (Z * arr) :=
  match argv with
  | a0 :: a1 :: _ =>
      let ttlen := alen a0 in
      let arglen := alen a1 in
      do tts <- (if (arglen >? 1) && (ttlen =? 1) then
                   do tt <- char_at a0 0; Ok (fun _ : Z => Ok tt)
                 else Ok (char_at a0));
      do out <- aalloc arglen;
      do out <- dynamic_loop F E tts (items a1) 0 out;
      Ok (0, out)
  | _ => Ok (1, None)
  end.

(** * readstring *)

(** osc_expr.c:6218-6237 osc_expr_readstring: only more than one argument is
    refused. *)
Definition fn_readstring (argv : list arr) : res (Z * arr) :=
  match argv with
  | _ :: _ :: _ => Ok (1, None)
  | [] => Ub OOB
  | [a] =>
      if alen a >? 1 then Ok (1, None) else
      do x <- aget a 0;
      match x with
      | Some (Atom 115 _ p) =>
          match p with
          | PStr s => do out <- aalloc 1; do out <- aput out 0 (fun r => Ok (set_string r 0 s)); Ok (0, out)
          | _ => Ub NullDeref
          end
      | _ => Ok (1, None)
      end
  end.

(** * match *)

(** The string of an atom of type 's'. *)
Definition string_ptr (a : atom) : res (list Z) :=
  match a with Atom _ _ (PStr s) => Ok s | _ => Ub NullDeref end.
(** osc_expr.c:6304-6323: the first loop over the addresses.  [full], [partial]
    and [matches] as far as they are filled. *)
Fixpoint match_loop (pattern : list Z) (l : list atom) (full partial : list atom) (matches : list bool) :
  res (list atom * list atom * list bool) :=
  match l with
  | [] => Ok (full, partial, matches)
  | a :: l' =>
      if negb (a_tt a =? 115) then match_loop pattern l' full partial (matches ++ [false]) else
      do s <- string_ptr a;
      do r <- osc_match pattern s;
      if Z.odd (code r) && Z.odd (code r / 2) then
        match_loop pattern l' (full ++ [set_string atom_fresh 0 s]) partial (matches ++ [true])
      else
        do c <- (if poff r >? 0 then rdc pattern (poff r) else Ok 0);
        if (poff r >? 0) && (c =? 47) then
          match_loop pattern l' full (partial ++ [set_string atom_fresh 0 s]) (matches ++ [true])
        else match_loop pattern l' full partial (matches ++ [false])
  end.
(** osc_expr.c:6324-6333: the second loop. *)
Fixpoint unmatched_loop (l : list atom) (matches : list bool) (unmatched : list atom) : res (list atom) :=
  match l, matches with
  | [], _ => Ok unmatched
  | a :: l', m :: ms =>
      if m then unmatched_loop l' ms unmatched else
      if negb (a_tt a =? 115) then unmatched_loop l' ms unmatched else
      do s <- string_ptr a;
      unmatched_loop l' ms (unmatched ++ [set_string atom_fresh 0 s])
  | _ :: _, [] => Ub OOB
  end.
(** osc_expr.c:6292-6339: pattern [p] into [r].  The bundle gets the four messages
    (osc_bundle_u_addMsg) made by osc_message_u_allocWithString and
    osc_message_u_allocWithAddress (osc_message_u.c:1200-1225). *)
Definition s_pattern : list Z := [47; 112; 97; 116; 116; 101; 114; 110].
Definition s_full : list Z := [47; 102; 117; 108; 108].
Definition s_partial : list Z := [47; 112; 97; 114; 116; 105; 97; 108].
Definition s_unmatched : list Z := [47; 117; 110; 109; 97; 116; 99; 104; 101; 100].
Definition match_one (addresses : list atom) (p r : atom) : res atom :=
  if negb (a_tt p =? 115) then Ok r else
  do s <- string_ptr p;
  do ' (full, partial, matches) <- match_loop s addresses [] [] [];
  do unmatched <- unmatched_loop addresses matches [];
  Ok (set_bndl r 0 [UMsg (set_address s_pattern) [set_string atom_fresh 0 s]; UMsg (set_address s_full) full;
                    UMsg (set_address s_partial) partial; UMsg (set_address s_unmatched) unmatched]).
(** osc_expr.c:6282-6341 osc_expr_match: a number of arguments other than two is
    only reported. *)
Definition fn_match (argv : list arr) : res (Z * arr) :=
  do a0 <- argv_at argv 0;
  do a1 <- argv_at argv 1;
  do out <- aalloc (alen a0);
  do out <- each (match_one (items a1)) (items a0) 0 out;
  Ok (0, out).

(** * bundle *)

(** osc_atom_u.c:1189-1207 osc_atom_u_setBndl_s. *)
Definition set_bndl_s (a : atom) (b : bytes) (len : Z) : res atom :=
  do ms <- bundle_deserialize b 0 len; Ok (set_bndl a 0 ms).
(** osc_expr.c:6418-6424: the members as bytes. *)
Fixpoint bytes_loop (l : list atom) (i : Z) (buf : bytes) : res bytes :=
  match l with
  | [] => Ok buf
  | a :: l' => do v <- au_int32 a; do b <- write buf i [u8 v]; bytes_loop l' (i + 1) b
  end.
(** osc_message_u_appendAtom with a copy of each member (osc_expr.c:6441-6443). *)
Fixpoint copy_args (l : list atom) : res (list atom) :=
  match l with
  | [] => Ok []
  | a :: l' => do x <- copy_atom a; do xs <- copy_args l'; Ok (x :: xs)
  end.
(** osc_expr.c:6431-6448: the messages so far and the remaining arguments; [None]:
    an address is not a string. *)
Fixpoint message_loop (args : list arr) (ms : list umsg) : res (option (list umsg)) :=
  match args with
  | [] => Ok (Some ms)
  | a :: more =>
      do x <- aget a 0;
      match x with
      | Some x =>
          if negb (a_tt x =? 115) then Ok None else
          do s <- string_ptr x;
          match more with
          | [] => Ok (Some (ms ++ [UMsg (set_address s) []]))
          | b :: more' => do xs <- copy_args (items b); message_loop more' (ms ++ [UMsg (set_address s) xs])
          end
      | None => Ok None
      end
  end.
(** osc_expr.c:6384-6449 osc_expr_bundle.  An array of no bytes is taken to be
    allowed. *)
Definition fn_bundle (E : env) (argv : list arr) : res (Z * arr) :=
  do out <- aalloc 1;
  match argv with
  | [a] =>
      let n := alen a in
      if n =? 1 then
        do x <- aget a 0;
        match x with
        | None => Ok (1, out)
        | Some x =>
            if a_tt x =? 98 then
              do ' (len, ptr) <- au_blob_copy E x;
              do out <- aput out 0 (fun r => set_bndl_s r ptr (len - 4));
              Ok (0, out)
            else if a_tt x =? 115 then
              do s <- string_ptr x;
              do out <- aput out 0 (fun r => Ok (set_bndl r 0 [UMsg (set_address s) []]));
              Ok (0, out)
            else Ok (1, out)
        end
      else
        let np := 4 * ((n + 3) / 4) in
        do buf <- bytes_loop (items a) 0 (repeat 0 (Z.to_nat np));
        do out <- aput out 0 (fun r => set_bndl_s r buf np);
        Ok (0, out)
  | _ =>
      do r <- message_loop argv [];
      match r with
      | None => Ok (1, None)
      | Some ms => do out <- aput out 0 (fun r => Ok (set_bndl r 0 ms)); Ok (0, out)
      end
  end.
