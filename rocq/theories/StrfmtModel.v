(** Model of osc_strfmt.c, and of the conversion of atoms to strings in
    osc_atom_u.c and osc_atom_s.c.  Characters are their codes 0..255. *)

From Coq Require Import ZArith List Bool.
From Verif Require Import Base Bytes UtilModel SerialModel AtomSModel AtomUModel.
Import ListNotations.
Open Scope Z_scope.

(** * The C library *)

(** The digits printf produces for [%d], [%u] and their 64 bit variants, by
    repeated division, and with a minus sign. *)
Fixpoint dec_digits (fuel : nat) (n : Z) (acc : list Z) : list Z :=
  match fuel with
  | O => acc
  | S f => if n <? 10 then (48 + n) :: acc else dec_digits f (n / 10) ((48 + n mod 10) :: acc)
  end.
Definition fmt_nat (n : Z) : list Z := dec_digits (Z.to_nat (1 + Z.log2 n)) n [].
Definition fmt_int (z : Z) : list Z := if z <? 0 then 45 :: fmt_nat (- z) else fmt_nat z.
(** [%c]. *)
Definition fmt_char (c : Z) : list Z := [u8 c].

(** snprintf(buf + off, n, ...) that formats [text]: nothing when n is 0,
    otherwise at most n - 1 characters and a terminator.  The value returned is
    the length of [text]. *)
Definition snprintf (buf : bytes) (off n : Z) (text : list Z) : res bytes :=
  if n =? 0 then Ok buf else write buf off (firstn (Z.to_nat (n - 1)) text ++ [0]).

(** strncpy(buf, s, n): the characters of [s], padded with NULs to [n] bytes,
    without a terminator when [s] is too long. *)
Definition strncpy (buf : bytes) (s : list Z) (n : Z) : res bytes :=
  write buf 0 (firstn (Z.to_nat n) (s ++ repeat 0 (Z.to_nat n))).

(** An int counter incremented. *)
Definition incr (i : Z) : res Z := if i =? 2^31 - 1 then Ub Overflow else Ok (i + 1).

(** * osc_strfmt.c *)

(** osc_strfmt.h:44 OSC_STRFMT_META_CHARS: the double quote and the
    backslash. *)
Definition meta_chars : list Z := [34; 92].

(** osc_strfmt.c:235-244 osc_strfmt_isMeta. *)
Definition is_meta (c : Z) : bool := existsb (fun m => c =? m) meta_chars.

(** osc_strfmt.c:223-233 osc_strfmt_countMeta, of [len] characters at [buf]. *)
Fixpoint count_meta_loop (k : nat) (buf : bytes) (i n : Z) : res Z :=
  match k with
  | O => Ok n
  | S k' => do c <- rd buf i; count_meta_loop k' buf (i + 1) (if is_meta c then n + 1 else n)
  end.
Definition count_meta (len : Z) (buf : bytes) : res Z := count_meta_loop (Z.to_nat len) buf 0 0.

(** [if(i < n) buf[i] = c;] *)
Definition put_if (buf : bytes) (n i c : Z) : res bytes := if i <? n then write buf i [c] else Ok buf.

(** osc_strfmt.c:154-185 osc_strfmt_stringWithQuotedMeta.  The loop over the
    characters left, [i] the position in the output. *)
Fixpoint quote_loop (buf : bytes) (n : Z) (str : list Z) (i : Z) : res (bytes * Z) :=
  match str with
  | [] => Ok (buf, i)
  | c :: str' =>
      do ' (buf, i) <- (if is_meta c
                        then do buf <- put_if buf n i 92; do i <- incr i; Ok (buf, i)
                        else Ok (buf, i));
      do buf <- put_if buf n i c;
      do i <- incr i;
      quote_loop buf n str' i
  end.
(** [buf = None] is NULL; the result is the buffer and the value returned. *)
Definition string_with_quoted_meta (buf : option bytes) (n : Z) (str : list Z) : res (option bytes * Z) :=
  let len := zlen str in
  match buf with
  | None => do c <- count_meta (s32 len) (str ++ [0]); Ok (None, s32 (c + len))
  | Some b =>
      do ' (b, i) <- quote_loop b n str 0;
      do b <- (if i <? n then write b i [0] else write b (i - 1) [0]);
      Ok (Some b, i)
  end.

(** osc_strfmt.c:146-152 osc_strfmt_quotedString. *)
Definition quoted_string (buf : bytes) (n : Z) (str : list Z) : res (bytes * Z) :=
  do b <- snprintf buf 0 n (34 :: str ++ [34]); Ok (b, zlen str + 2).

(** osc_strfmt.c:187-200 osc_strfmt_quotedStringWithQuotedMeta; [tmp] is the
    uninitialised local array of [n] characters. *)
Definition quoted_string_with_quoted_meta (tmp : bytes) (buf : option bytes) (n : Z) (str : list Z) :
  res (option bytes * Z) :=
  match buf with
  | None => do ' (_, k) <- string_with_quoted_meta None n str; Ok (None, k + 2)
  | Some b =>
      if n <=? 0 then Ub OOB else
      do ' (t, nn) <- string_with_quoted_meta (Some (firstn (Z.to_nat n) (tmp ++ repeat 170 (Z.to_nat n)))) n str;
      do t <- match t with Some t => rdstr t 0 | None => Ub NullDeref end;
      do ' (b, _) <- quoted_string b n t;
      Ok (Some b, nn + 2)
  end.

(** osc_strfmt.c:246-275 osc_strfmt_addQuotesAndQuoteMeta on the [len]
    characters at [buf]; [out = None] is NULL, then a block of [n] bytes is
    allocated, contents [junk]. *)
Fixpoint add_quotes_loop (out : bytes) (str : list Z) (i : Z) : res (bytes * Z) :=
  match str with
  | [] => Ok (out, i)
  | c :: str' =>
      do ' (out, i) <- (if is_meta c then do out <- write out i [92]; Ok (out, i + 1) else Ok (out, i));
      do out <- write out i [c];
      add_quotes_loop out str' (i + 1)
  end.
Definition add_quotes_and_quote_meta (junk : bytes) (len : Z) (buf : bytes) (out : option bytes) : res (bytes * Z) :=
  do c <- count_meta len buf;
  let n := len + 2 + c in
  let out := match out with Some o => o | None => firstn (Z.to_nat n) (junk ++ repeat 170 (Z.to_nat n)) end in
  do out <- write out 0 [34];
  do str <- slice buf 0 len;
  do ' (out, i) <- add_quotes_loop out str 1;
  do out <- write out i [34];
  do out <- write out (i + 1) [0];
  Ok (out, n).

(** osc_strfmt.c:277-286 osc_strfmt_strlenPadded. *)
Definition strlen_padded (str : list Z) : Z :=
  let len := zlen str in
  let rem := Z.rem len 4 in
  if rem =? 0 then len + 4 else len + (4 - rem).

(** osc_strfmt.c:120-144 osc_strfmt_blob: [d] is the blob from its size on.
    The characters are signed.  [write_at] is one of the two branches: writing
    to the buffer or only counting. *)
Fixpoint blob_loop (k : nat) (d : bytes) (ptr : Z) (buf : option bytes) (n c : Z) : res (option bytes * Z) :=
  match k with
  | O => Ok (buf, c)
  | S k' =>
      do x <- rd d ptr;
      let text := 44 :: 32 :: fmt_int (s8 x) in
      do buf <- match buf with
                | None => Ok None
                | Some b => do b <- snprintf b c (u64 (n - c)) text; Ok (Some b)
                end;
      blob_loop k' d (ptr + 1) buf n (c + zlen text)
  end.
Definition fmt_blob (buf : option bytes) (n : Z) (d : bytes) : res (option bytes * Z) :=
  do len <- rd32 d 0;
  do x <- rd d 4;
  let text := [98; 108; 111; 98; 40] ++ fmt_int (s8 x) in
  do buf <- match buf with None => Ok None | Some b => do b <- snprintf b 0 n text; Ok (Some b) end;
  do ' (buf, c) <- blob_loop (Z.to_nat (s32 len - 1)) d 5 buf n (zlen text);
  do buf <- match buf with None => Ok None | Some b => do b <- snprintf b c (u64 (n - c)) [41]; Ok (Some b) end;
  Ok (buf, c + 1).

(** * Conversion of atoms to strings *)

(** osc_strfmt.c:39-78, 101-118: what is printed for the types that go through one
    snprintf.  The formats of floats and time tags are not modelled: [other]. *)
Definition quoted_char (c : Z) : list Z := 39 :: fmt_char c ++ [39].

(** osc_atom_u.c:719-758 osc_atom_u_getStringLen. *)
Definition au_string_len (other : atom -> list Z) (a : atom) : res Z :=
  match a with
  | Atom tg w p =>
      if tg =? 115 then match p with PStr s => Ok (zlen s) | _ => Ub NullDeref end
      else if tg =? 105 then Ok (zlen (fmt_int (w_i w)))
      else if tg =? 102 then Ok (zlen (other a))
      else if tg =? 100 then Ok (zlen (other a))
      else if tg =? 104 then Ok (zlen (fmt_int (w_h w)))
      else if tg =? 73 then Ok (zlen (fmt_int (w_I w)))
      else if tg =? 72 then Ok (zlen (fmt_int (w_H w)))
      else if tg =? 99 then Ok (zlen (quoted_char (w_c w)))
      else if tg =? 67 then Ok (zlen (fmt_int (w_C w)))
      else if tg =? 117 then Ok (zlen (fmt_int (w_u w)))
      else if tg =? 85 then Ok (zlen (fmt_int (w_U w)))
      else if tg =? 84 then Ok (zlen [116; 114; 117; 101])
      else if tg =? 70 then Ok (zlen [102; 97; 108; 115; 101])
      else if tg =? 78 then Ok (zlen [110; 105; 108])
      else if tg =? 116 then Ok (zlen (other a))
      else if tg =? 98 then match p with
                            | PBlob d => do ' (_, c) <- fmt_blob None 0 d; Ok c
                            | _ => Ub NullDeref
                            end
      else Ok 0
  end.

(** The buffer the conversion goes to: the caller's, of which [n] bytes may be
    used, or a new block of [stringlen + 1] bytes. *)
Definition out_buffer (junk : bytes) (out : option bytes) (n stringlen : Z) : bytes * Z :=
  match out with
  | Some b => (b, n)
  | None => (firstn (Z.to_nat (stringlen + 1)) (junk ++ repeat 170 (Z.to_nat (stringlen + 1))), stringlen + 1)
  end.

(** osc_atom_u.c:760-824 osc_atom_u_getString: the buffer and the value returned. *)
Definition au_string (other : atom -> list Z) (junk : bytes) (a : atom) (n : Z) (out : option bytes) :
  res (bytes * Z) :=
  do stringlen <- au_string_len other a;
  let (b, nn) := out_buffer junk out n stringlen in
  let print text := do b <- snprintf b 0 nn text; Ok (b, stringlen) in
  match a with
  | Atom tg w p =>
      if tg =? 115 then match p with PStr s => do b <- strncpy b s nn; Ok (b, stringlen) | _ => Ub NullDeref end
      else if tg =? 105 then print (fmt_int (w_i w))
      else if tg =? 102 then print (other a)
      else if tg =? 100 then print (other a)
      else if tg =? 104 then print (fmt_int (w_h w))
      else if tg =? 73 then print (fmt_int (w_I w))
      else if tg =? 72 then print (fmt_int (w_H w))
      else if tg =? 99 then print (quoted_char (w_c w))
      else if tg =? 67 then print (quoted_char (w_C w))
      else if tg =? 117 then print (fmt_int (w_u w))
      else if tg =? 85 then print (fmt_int (w_U w))
      else if tg =? 84 then print [116; 114; 117; 101]
      else if tg =? 70 then print [102; 97; 108; 115; 101]
      else if tg =? 78 then print [110; 105; 108]
      else if tg =? 116 then print (other a)
      else if tg =? 98 then match p with
                            | PBlob d => do ' (b, c) <- fmt_blob (Some b) nn d;
                                         match b with Some b => Ok (b, c) | None => Ub NullDeref end
                            | _ => Ub NullDeref
                            end
      else Ok (b, stringlen)
  end.

(** osc_atom_s.c:403-472 osc_atom_s_getStringLen, of the atom with tag [tg] and
    data at [p] of [buf]; [other] formats floats, doubles and time tags. *)
Definition as_string_len (other : Z -> list Z) (buf : bytes) (tg p : Z) : res Z :=
  if tg =? 115 then do s <- rdstr buf p; Ok (zlen s)
  else if tg =? 105 then do n <- rd32 buf p; Ok (zlen (fmt_int (s32 n)))
  else if tg =? 102 then do n <- rd32 buf p; Ok (zlen (other n))
  else if tg =? 100 then do n <- rd64 buf p; Ok (zlen (other n))
  else if tg =? 99 then do n <- rd32 buf p; Ok (zlen (quoted_char (s8 n)))
  else if tg =? 67 then do n <- rd32 buf p; Ok (zlen (fmt_int (u8 n)))
  else if tg =? 117 then do n <- rd32 buf p; Ok (zlen (fmt_int (s16 n)))
  else if tg =? 85 then do n <- rd32 buf p; Ok (zlen (fmt_int (u16 n)))
  else if tg =? 104 then do n <- rd64 buf p; Ok (zlen (fmt_int (s64 n)))
  else if tg =? 73 then do n <- rd32 buf p; Ok (zlen (fmt_int n))
  else if tg =? 72 then do n <- rd64 buf p; Ok (zlen (fmt_int n))
  else if tg =? 84 then Ok (zlen [116; 114; 117; 101])
  else if tg =? 70 then Ok (zlen [102; 97; 108; 115; 101])
  else if tg =? 78 then Ok (zlen [110; 105; 108])
  else if tg =? 116 then do n <- rd64 buf p; Ok (zlen (other n))
  else if tg =? 98 then do d <- slice buf p (zlen buf - p); do ' (_, c) <- fmt_blob None 0 d; Ok c
  else Ok 0.

(** osc_atom_s.c:474-575 osc_atom_s_getString. *)
Definition as_string (other : Z -> list Z) (junk : bytes) (buf : bytes) (tg p : Z) (n : Z) (out : option bytes) :
  res (bytes * Z) :=
  do stringlen <- as_string_len other buf tg p;
  let (b, nn) := out_buffer junk out n stringlen in
  let print text := do b <- snprintf b 0 nn text; Ok (b, stringlen) in
  if tg =? 115 then do s <- rdstr buf p; do b <- strncpy b s nn; Ok (b, stringlen)
  else if tg =? 105 then do n <- rd32 buf p; print (fmt_int (s32 n))
  else if tg =? 102 then do n <- rd32 buf p; print (other n)
  else if tg =? 100 then do n <- rd64 buf p; print (other n)
  else if tg =? 104 then do n <- rd64 buf p; print (fmt_int (s64 n))
  else if tg =? 99 then do n <- rd32 buf p; print (quoted_char (s8 n))
  else if tg =? 67 then do n <- rd32 buf p; print (quoted_char (u8 n))
  else if tg =? 117 then do n <- rd32 buf p; print (fmt_int (s16 n))
  else if tg =? 85 then do n <- rd32 buf p; print (fmt_int (u16 n))
  else if tg =? 73 then do n <- rd32 buf p; print (fmt_int n)
  else if tg =? 72 then do n <- rd64 buf p; print (fmt_int n)
  else if tg =? 84 then print [116; 114; 117; 101]
  else if tg =? 70 then print [102; 97; 108; 115; 101]
  else if tg =? 78 then print [110; 105; 108]
  else if tg =? 116 then do n <- rd64 buf p; print (other n)
  else if tg =? 98 then do d <- slice buf p (zlen buf - p);
                        do ' (b, c) <- fmt_blob (Some b) nn d;
                        match b with Some b => Ok (b, c) | None => Ub NullDeref end
  else Ok (b, stringlen).
