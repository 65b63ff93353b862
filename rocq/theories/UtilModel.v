(** Model of osc_util.c (padding), osc_byteorder.h and the size and byte
    order functions of osc_mem.c. *)

From Coq Require Import ZArith List Bool.
From Verif Require Import Base Bytes.
Import ListNotations.
Open Scope Z_scope.

(** osc_util.c:43-51 osc_util_getPaddedStringLen of a string of [n]
    characters; the mask is a 32-bit constant, so the result is truncated. *)
Definition padded_string_len (n : Z) : Z := Z.land (u64 (n + 4)) 4294967292.

(** osc_util.c:53-56 osc_util_getPaddingForNBytes. *)
Definition padding_for_nbytes (n : Z) : Z := Z.land (u64 (n + 4)) 4294967292.

(** osc_util.c:58-65 osc_util_getBlobLength. *)
Definition blob_length (n : Z) : Z :=
  let len := u64 (4 + n) in
  if negb (len mod 4 =? 0) then u64 (len + (4 - len mod 4)) else len.

(** osc_byteorder.h:32-57, the swap macros as written.  Values are bit
    patterns (unsigned); shifting a bit into the sign position of a signed
    operand, which the macros do for negative arguments, is taken to be the
    two's complement shift. *)
Definition swap16 (x : Z) : Z :=
  Z.lor (Z.shiftr (Z.land x 65280) 8) (Z.shiftl (Z.land x 255) 8).

Definition swap32 (x : Z) : Z :=
  Z.lor (Z.lor (Z.lor
    (Z.shiftr (Z.land x 4278190080) 24)
    (Z.shiftr (Z.land x 16711680) 8))
    (Z.shiftl (Z.land x 65280) 8))
    (Z.shiftl (Z.land x 255) 24).

Definition swap64 (x : Z) : Z :=
  Z.lor (Z.lor (Z.lor (Z.lor (Z.lor (Z.lor (Z.lor
    (Z.shiftr (Z.land x 18374686479671623680) 56)
    (Z.shiftr (Z.land x 71776119061217280) 40))
    (Z.shiftr (Z.land x 280375465082880) 24))
    (Z.shiftr (Z.land x 1095216660480) 8))
    (Z.shiftl (Z.land x 4278190080) 8))
    (Z.shiftl (Z.land x 16711680) 24))
    (Z.shiftl (Z.land x 65280) 40))
    (Z.shiftl (Z.land x 255) 56).

(** osc_byteorder.h:28-30, 59-60: a pair of 64-bit words [(l1, l2)]. *)
Definition swap128 (x : Z * Z) : Z * Z := (swap64 (snd x), swap64 (fst x)).

(** osc_byteorder.h:78-86: on a little-endian host both directions swap. *)
Definition hton16 := swap16.  Definition ntoh16 := swap16.
Definition hton32 := swap32.  Definition ntoh32 := swap32.
Definition hton64 := swap64.  Definition ntoh64 := swap64.
Definition hton128 := swap128. Definition ntoh128 := swap128.

(** osc_mem.c:76-205 osc_data_lengths (on a 64-bit host). *)
Definition data_length (tt : Z) : Z :=
  if tt =? 65 then 3           (* A *)
  else if tt =? 67 then 4      (* C *)
  else if tt =? 70 then 0      (* F *)
  else if tt =? 72 then 8      (* H *)
  else if tt =? 73 then 4      (* I *)
  else if tt =? 74 then 16     (* J *)
  else if tt =? 78 then 0      (* N *)
  else if tt =? 83 then 8      (* S *)
  else if tt =? 84 then 0      (* T *)
  else if tt =? 85 then 4      (* U *)
  else if tt =? 98 then 8      (* b *)
  else if tt =? 99 then 4      (* c *)
  else if tt =? 100 then 8     (* d *)
  else if tt =? 102 then 4     (* f *)
  else if tt =? 104 then 8     (* h *)
  else if tt =? 105 then 4     (* i *)
  else if tt =? 106 then 16    (* j *)
  else if tt =? 109 then 4     (* m *)
  else if tt =? 114 then 4     (* r *)
  else if tt =? 115 then 8     (* s *)
  else if tt =? 117 then 4     (* u *)
  else -1.

(** osc_mem.c:229-254 osc_mem_shouldByteswap. *)
Definition should_byteswap (tt : Z) : bool :=
  existsb (Z.eqb tt) [99; 117; 97; 105; 104; 106; 67; 85; 65; 73; 72; 74; 101; 102; 100; 113].

(** Reading a big-endian 32-bit word of a buffer through
    [ntoh32( *(uint32_t * )p)]: four bytes, little-endian load, swap. *)
Definition rd32 (buf : bytes) (i : Z) : res Z :=
  do b <- slice buf i 4; Ok (ntoh32 (of_le b)).
Definition rd64 (buf : bytes) (i : Z) : res Z :=
  do b <- slice buf i 8; Ok (ntoh64 (of_le b)).

(** Writing [hton32(v)] through a [uint32_t *]. *)
Definition wr32 (buf : bytes) (i v : Z) : res bytes := write buf i (le_bytes 4 (hton32 (u32 v))).
Definition wr64 (buf : bytes) (i v : Z) : res bytes := write buf i (le_bytes 8 (hton64 (u64 v))).

(** osc_mem.c:207-227 osc_sizeof for data at offset [i] of a buffer.  The
    result is a size_t: -1 is 2^64-1.  For 's' the NUL must be inside the
    buffer ([rdstr]). *)
Definition osc_sizeof (tt : Z) (buf : bytes) (i : Z) : res Z :=
  if tt >? 127 then Ok (u64 (-1))
  else if tt =? 98 then do n <- rd32 buf i; Ok (blob_length n)
  else if (tt =? 115) || (tt =? 83) then do s <- rdstr buf i; Ok (padded_string_len (zlen s))
  else if tt =? 46 then do n <- rd32 buf i; Ok (u32 (n + 4))
  else if tt =? 116 then Ok 8
  else Ok (u64 (data_length tt)).

(** osc_mem.c:256-282 osc_mem_encodeByteorder and 284-310
    osc_mem_decodeByteorder on the argument bytes [data]: the bytes stored
    through [*out].  A size other than 1, 2, 4, 8, 16 leaves [tmp]
    uninitialised, and -1 asks for an array of that size. *)
Definition byteorder (tt : Z) (data : bytes) : res bytes :=
  do size <- osc_sizeof tt data 0;
  if negb (should_byteswap tt) then slice data 0 size
  else if size =? 4 then do b <- slice data 0 4; Ok (le_bytes 4 (swap32 (of_le b)))
  else if size =? 8 then do b <- slice data 0 8; Ok (le_bytes 8 (swap64 (of_le b)))
  else if size =? 16 then
    do b <- slice data 0 16;
    let '(l1, l2) := swap128 (of_le (firstn 8 b), of_le (skipn 8 b)) in
    Ok (le_bytes 8 l1 ++ le_bytes 8 l2)
  else Ub Uninit.
Definition encode_byteorder := byteorder.
Definition decode_byteorder := byteorder.
