(** Model of serialized messages and bundles: osc_message_s.c,
    osc_message_iterator_s.c, osc_bundle_iterator_s.c, the checks of
    osc_error.c, osc_bundle_s_getMsgCount and deserialization.

    Pointers are offsets into one buffer [buf]; NULL is [None].  A read outside
    [buf] is undefined behaviour.  The struct arguments themselves are never
    NULL here. *)

From Coq Require Import ZArith List Bool.
From Verif Require Import Base Bytes UtilModel TimetagModel SerialModel AtomSModel.
Import ListNotations.
Open Scope Z_scope.

(** Turn the result of a loop body into a step for [while]. *)
Definition run {S R} (r : res (lres S R)) : lres S (res R) :=
  match r with
  | Ok (Cont s) => Cont s
  | Ok (Done x) => Done (Ok x)
  | Ub u => Done (Ub u)
  | Fuel => Done Fuel
  end.

(** Fuel for a walk over [len] bytes. *)
Definition walk_fuel (len : Z) : positive := Z.to_pos (Z.max 1 (len + 2)).

(** An [int] addition. *)
Definition add_int (a b : Z) : res Z :=
  if (- 2^31 <=? a + b) && (a + b <? 2^31) then Ok (a + b) else Ub Overflow.

(** * osc_message_s.c *)

(** osc_message_s.r (struct _osc_message_s).  The two caches are read only up
    to [ms_cache_size]. *)
Record msg_s := MS {
  ms_size : option Z;
  ms_address : option Z;
  ms_typetags : option Z;
  ms_data : option Z;
  ms_cache_size : Z;
  ms_offset_cache : list Z;
  ms_size_cache : list Z }.

(** osc_message_s.c:73-79 osc_message_s_initMsg. *)
Definition init_msg : msg_s := MS None None None None 0 [] [].

(** osc_message_s.c:89-126 osc_message_s_wrap at [bytes]: the caches keep what
    was in the structure, and so does [data] when there are no type tags. *)
Definition wrap (m : msg_s) (buf : bytes) (bytes : Z) : res msg_s :=
  do n <- rd32 buf bytes;
  let len := s32 n in
  let address := bytes + 4 in
  do a <- rdstr buf address;
  let tt := address + padded_string_len (zlen a) in
  if tt - bytes >? len then
    Ok (MS (Some bytes) (Some address) None (ms_data m)
           (ms_cache_size m) (ms_offset_cache m) (ms_size_cache m))
  else
    do t <- rdstr buf tt;
    Ok (MS (Some bytes) (Some address) (Some tt) (Some (tt + padded_string_len (zlen t)))
           (ms_cache_size m) (ms_offset_cache m) (ms_size_cache m)).

(** osc_message_s.c:157-168 osc_message_s_getSize. *)
Definition get_size (buf : bytes) (m : msg_s) : res Z :=
  match ms_size m with
  | Some p => do n <- rd32 buf p; Ok (s32 n)
  | None => Ok 0
  end.

(** osc_message_s.c:194-203 osc_message_s_getArgCount. *)
Definition get_arg_count (buf : bytes) (m : msg_s) : res Z :=
  match ms_typetags m with
  | None => Ok 0
  | Some p => do t <- rdstr buf p; Ok (s32 (zlen t - 1))
  end.

(** osc_message_s.c:213-222 osc_message_s_getTypetag. *)
Definition get_typetag (buf : bytes) (m : msg_s) (n : Z) : res Z :=
  do nn <- get_arg_count buf m;
  if nn <=? n then Ok 0
  else match ms_typetags m with
       | None => Ub NullDeref
       | Some p => rd buf (p + n + 1)
       end.

(** osc_atom_s.r (struct _osc_atom_s). *)
Record atom_s := AS { as_data : Z; as_tt : Z }.

(** The loop of osc_message_s.c:239-243, from argument [i] on: [k] more
    arguments to skip; [offset] is an int. *)
Fixpoint skip_args (buf : bytes) (m : msg_s) (data : Z) (k : nat) (i offset : Z) : res Z :=
  match k with
  | O => Ok offset
  | S k' =>
      do tg <- get_typetag buf m i;
      do sz <- osc_sizeof tg buf (data + offset);
      skip_args buf m data k' (i + 1) (s32 (offset + sz))
  end.

(** osc_message_s.c:224-252 osc_message_s_getArg: [None] when [*atom] is left
    alone.  [data] is only NULL when there are no arguments. *)
Definition get_arg (buf : bytes) (m : msg_s) (n : Z) : res (option atom_s) :=
  do nn <- get_arg_count buf m;
  if nn <=? n then Ok None else
  do tg <- get_typetag buf m n;
  match ms_data m with
  | None => Ub NullDeref
  | Some data =>
      if negb (ms_cache_size m =? 0) then
        do o <- rd (ms_offset_cache m) n; Ok (Some (AS (data + o) tg))
      else
        do o <- skip_args buf m data (Z.to_nat n) 0 0; Ok (Some (AS (data + o) tg))
  end.

(** The loop of osc_message_s.c:262-268: the offsets and sizes of [k] arguments
    from [i] on. *)
Fixpoint cache_loop (buf : bytes) (m : msg_s) (data : Z) (k : nat) (i offset : Z)
  : res (list Z * list Z) :=
  match k with
  | O => Ok ([], [])
  | S k' =>
      do tg <- get_typetag buf m i;
      do sz <- osc_sizeof tg buf (data + offset);
      let size := s32 sz in
      do ' (os, ss) <- cache_loop buf m data k' (i + 1) (s32 (offset + size));
      Ok (offset :: os, size :: ss)
  end.

(** osc_message_s.c:254-270 osc_message_s_cacheDataOffsets. *)
Definition cache_data_offsets (buf : bytes) (m : msg_s) : res msg_s :=
  do n <- get_arg_count buf m;
  do ' (os, ss) <-
    match ms_data m with
    | Some data => cache_loop buf m data (Z.to_nat n) 0 0
    | None => if 0 <? n then Ub NullDeref else Ok ([], [])
    end;
  Ok (MS (ms_size m) (ms_address m) (ms_typetags m) (ms_data m) n os ss).

(** * osc_message_iterator_s.c *)

(** State of the iterator: [n] and [dataptr]. *)
Definition mit := (Z * option Z)%type.
(** osc_message_iterator_s.c:35-41. *)
Definition mit_get (m : msg_s) : mit := (0, ms_data m).
(** osc_message_iterator_s.c:71-76. *)
Definition mit_has_next (buf : bytes) (m : msg_s) (it : mit) : res bool :=
  do tg <- get_typetag buf m (fst it); Ok (negb (tg =? 0)).
(** osc_message_iterator_s.c:52-69.  The size is a size_t added to a pointer:
    it wraps around the address space. *)
Definition mit_next (buf : bytes) (m : msg_s) (it : mit) : res (option atom_s * mit) :=
  let '(n, dataptr) := it in
  do tg <- get_typetag buf m n;
  if tg =? 0 then Ok (None, it) else
  match dataptr with
  | None => Ub NullDeref
  | Some d =>
      do sz <- if negb (ms_cache_size m =? 0) then rd (ms_size_cache m) n
               else osc_sizeof tg buf d;
      Ok (Some (AS d tg), (n + 1, Some (d + s64 sz)))
  end.

(** [while(hasNext(it)){ a = next(it); ... }] over the arguments. *)
Definition msg_loop {S R} (buf : bytes) (m : msg_s) (body : S -> atom_s -> res (lres S R)) (s : S)
  : res (lres S R) :=
  while (fun st : mit * S =>
           let (it, s) := st in
           run (do more <- mit_has_next buf m it;
                if negb more then Ok (Done (Cont s)) else
                do ' (a, it') <- mit_next buf m it;
                match a with
                | None => Ub NullDeref
                | Some a =>
                    do r <- body s a;
                    match r with Cont s' => Ok (Cont (it', s')) | Done x => Ok (Done (Done x)) end
                end))
    (walk_fuel (zlen buf)) (mit_get m, s).

(** * osc_bundle_iterator_s.c *)

(** osc_bundle_iterator_s.r (struct _osc_bundle_iterator_s). *)
Record bit := BIT { it_len : Z; it_bndl : Z; it_msgptr : Z; it_msg : msg_s }.

(** osc_bundle_iterator_s.c:35-57 getIterator and resetIterator. *)
Definition bit_get (len ptr : Z) : bit := BIT len ptr ptr init_msg.

(** osc_bundle_iterator_s.c:87-100 osc_bundle_iterator_s_hasNext. *)
Definition bit_has_next (buf : bytes) (it : bit) : res bool :=
  if (it_msgptr it - it_bndl it >=? it_len it) || (it_len it =? 16) then Ok false
  else if (it_msgptr it =? it_bndl it) && (it_len it >? 16) then Ok true
  else do sz <- get_size buf (it_msg it);
       do k <- add_int sz 4;
       Ok (negb (it_msgptr it + k - it_bndl it >=? it_len it)).

(** osc_bundle_iterator_s.c:59-85 osc_bundle_iterator_s_next. *)
Definition bit_next (buf : bytes) (it : bit) : res bit :=
  if it_msgptr it =? it_bndl it then
    let p := it_msgptr it + 16 in
    do m <- wrap (it_msg it) buf p; Ok (BIT (it_len it) (it_bndl it) p m)
  else if it_msgptr it - it_bndl it <? it_len it then
    do sz <- get_size buf (it_msg it);
    do k <- add_int sz 4;
    let p := it_msgptr it + k in
    if p - it_bndl it <? it_len it then
      do m <- wrap (it_msg it) buf p; Ok (BIT (it_len it) (it_bndl it) p m)
    else Ok (BIT (it_len it) (it_bndl it) p init_msg)
  else Ok (BIT (it_len it) (it_bndl it) (it_msgptr it) init_msg).

(** [while(hasNext(it)){ m = next(it); ... }] over the messages of the bundle
    of [len] bytes at [base]. *)
Definition bundle_loop {S R} (buf : bytes) (base len : Z) (body : S -> msg_s -> res (lres S R)) (s : S)
  : res (lres S R) :=
  while (fun st : bit * S =>
           let (it, s) := st in
           run (do more <- bit_has_next buf it;
                if negb more then Ok (Done (Cont s)) else
                do it' <- bit_next buf it;
                do r <- body s (it_msg it');
                match r with Cont s' => Ok (Cont (it', s')) | Done x => Ok (Done (Done x)) end))
    (walk_fuel len) (bit_get len base, s).

(** The other way the library walks a bundle:
    [p = buf + 16; while(p - buf < len){ ...; p += ntoh32(size) + 4; }].
    [body] sees the position of the message. *)
Definition raw_loop {S R} (buf : bytes) (base len : Z) (body : S -> Z -> res (lres S R)) (s : S)
  : res (lres S R) :=
  while (fun st : Z * S =>
           let (p, s) := st in
           run (if negb (p - base <? len) then Ok (Done (Cont s)) else
                do r <- body s p;
                match r with
                | Done x => Ok (Done (Done x))
                | Cont s' =>
                    do n <- rd32 buf p;
                    do k <- add_int (s32 n) 4;
                    Ok (Cont (p + k, s'))
                end))
    (walk_fuel len) (base + 16, s).

(** * osc_error.c *)

(** osc_error.h: OSC_ERR_BUNDLETOOSMALL and so on. *)
Definition ERR_NONE : Z := 0.
Definition ERR_BUNDLETOOSMALL : Z := 1.
Definition ERR_NOBUNDLEID : Z := 2.
Definition ERR_MSGTOOSMALL : Z := 4.
Definition ERR_MALFORMEDADDRESS : Z := 8.
Definition ERR_NOBUNDLE : Z := 16.
Definition ERR_INVAL : Z := 32.
Definition ERR_NULLPTR : Z := 18.
Definition ERR_MSGTOOLARGE : Z := 34.
Definition ERR_INVALIDCHARINADDRESS : Z := 36.

(** osc_bundle_s.c:520-523 osc_bundle_s_strcmpID: strncmp with "#bundle" and
    its NUL compares up to eight bytes and stops at the first difference (the
    NUL is the eighth). *)
Fixpoint strncmp_id (buf : bytes) (i : Z) (id : list Z) : res bool :=
  match id with
  | [] => Ok false
  | c :: id' => do b <- rd buf i; if b =? c then strncmp_id buf (i + 1) id' else Ok true
  end.
Definition osc_id : bytes := [35; 98; 117; 110; 100; 108; 101; 0].

(** osc_error.c:166-176 osc_error_msgSanityCheck. *)
Definition msg_sanity_check (buf : bytes) (p : Z) : res Z :=
  do n <- rd32 buf p;
  let size := s32 n in
  if size <? 4 then Ok ERR_MSGTOOSMALL else
  do c <- rd buf (p + 4);
  Ok (if negb (c =? 47) then ERR_MALFORMEDADDRESS else ERR_NONE).

(** osc_error.c:137-164 osc_error_bundleSanityCheck of the [len] bytes at the
    start of [buf]. *)
Definition bundle_sanity_check (len : Z) (buf : option bytes) : res Z :=
  match buf with
  | None => Ok ERR_NOBUNDLE
  | Some buf =>
      if len <? 16 then Ok ERR_BUNDLETOOSMALL else
      do ne <- strncmp_id buf 0 osc_id;
      if ne then Ok ERR_NOBUNDLEID else
      do r <- raw_loop buf 0 len (fun cumsize p =>
        do c <- add_int cumsize 4;
        do n <- rd32 buf p;
        do c <- add_int c (s32 n);
        if c >? len then Ok (Done ERR_MSGTOOLARGE) else
        do e <- msg_sanity_check buf p;
        if negb (e =? 0) then Ok (Done e) else Ok (Cont c)) 16;
      match r with Cont _ => Ok ERR_NONE | Done e => Ok e end
  end.

(** osc_error.c:178-199 osc_error_validateAddress; the address is a C string
    or NULL. *)
Definition validate_address (a : option (list Z)) : Z :=
  match a with
  | None => ERR_NULLPTR
  | Some s =>
      if negb (hd 0 s =? 47) || (zlen s <? 2) then ERR_MALFORMEDADDRESS
      else if existsb (fun c => (c =? 35) || (c =? 32)) s then ERR_INVALIDCHARINADDRESS
      else ERR_NONE
  end.

(** osc_bundle_s.c:129-143 osc_bundle_s_getMsgCount: the error code and
    [*count]. *)
Definition get_msg_count (len : Z) (buf : option bytes) : res (Z * Z) :=
  do e <- bundle_sanity_check len buf;
  if negb (e =? 0) then Ok (e, 0) else
  match buf with
  | None => Ub NullDeref
  | Some buf =>
      do r <- raw_loop buf 0 len (fun count _ => Ok (@Cont Z unit (count + 1))) 0;
      match r with Cont c => Ok (ERR_NONE, c) | Done _ => Ok (ERR_NONE, 0) end
  end.

(** * Deserialization *)

(** osc_message_u.c:168-193 osc_message_u_setAddress on a fresh message: an
    address that does not begin with a slash is refused. *)
Definition set_address (s : list Z) : option (list Z) :=
  if hd 0 s =? 47 then Some s else None.

(** osc_atom_s.c:931-1009 osc_atom_s_deserializeInto a fresh atom; [rec] is
    osc_bundle_s_deserialize for the nested bundle.  The addresses of copies
    made of strings, blobs and bundles are taken to be 0.  Unknown tags leave
    the fresh atom as it was. *)
Definition deser_atom (rec : Z -> Z -> res (list umsg)) (buf : bytes) (a : atom_s) : res atom :=
  let tg := as_tt a in
  let p := as_data a in
  if tg =? 105 then do v <- as_int32 buf tg p; Ok (set_int32 atom_fresh v)
  else if tg =? 102 then do n <- as_float_bits buf p; Ok (set_float atom_fresh n)
  else if tg =? 100 then do n <- as_double_bits buf p; Ok (set_double atom_fresh n)
  else if tg =? 115 then do s <- rdstr buf p; Ok (set_string atom_fresh 0 s)
  else if tg =? 99 then do v <- as_int8 buf tg p; Ok (set_int8 atom_fresh v)
  else if tg =? 67 then do v <- as_uint8 buf tg p; Ok (set_uint8 atom_fresh v)
  else if tg =? 117 then do v <- as_int16 buf tg p; Ok (set_int16 atom_fresh v)
  else if tg =? 85 then do v <- as_uint16 buf tg p; Ok (set_uint16 atom_fresh v)
  else if tg =? 104 then do v <- as_int64 buf tg p; Ok (set_int64 atom_fresh v)
  else if tg =? 73 then do v <- as_uint32 buf tg p; Ok (set_uint32 atom_fresh v)
  else if tg =? 72 then do v <- as_uint64 buf tg p; Ok (set_uint64 atom_fresh v)
  else if tg =? 84 then Ok (set_true atom_fresh)
  else if tg =? 70 then Ok (set_false atom_fresh)
  else if tg =? 78 then Ok (set_nil atom_fresh)
  else if tg =? 46 then
    do n <- rd32 buf p; do ms <- rec (p + 4) n; Ok (set_bndl atom_fresh 0 ms)
  else if tg =? 116 then do t <- tt_decode buf p; Ok (set_timetag atom_fresh t)
  else if tg =? 98 then set_blob atom_fresh 0 buf p
  else Ok atom_fresh.

(** osc_message_s.c:272-284 osc_message_s_deserialize. *)
Definition deser_msg (rec : Z -> Z -> res (list umsg)) (buf : bytes) (m : msg_s) : res umsg :=
  match ms_address m with
  | None => Ub NullDeref
  | Some p =>
      do s <- rdstr buf p;
      do r <- msg_loop buf m
                (fun acc a => do x <- deser_atom rec buf a; Ok (@Cont _ unit (acc ++ [x]))) [];
      match r with Cont args => Ok (UMsg (set_address s) args) | Done _ => Ub NullDeref end
  end.

(** osc_bundle_s.c:593-604 osc_bundle_s_deserialize of the [len] bytes at
    [base]; [fuel] bounds the nesting depth. *)
Fixpoint deser_bundle (fuel : nat) (buf : bytes) (base len : Z) : res (list umsg) :=
  match fuel with
  | O => Fuel
  | S fuel' =>
      do r <- bundle_loop buf base len
                (fun acc m => do x <- deser_msg (deser_bundle fuel' buf) buf m;
                              Ok (@Cont _ unit (acc ++ [x]))) [];
      match r with Cont ms => Ok ms | Done _ => Ub NullDeref end
  end.

(** Nesting cannot be deeper than the buffer is long. *)
Definition bundle_deserialize (buf : bytes) (base len : Z) : res (list umsg) :=
  deser_bundle (S (length buf)) buf base len.
