(** Model of osc_serial.c: the validator that is given one byte at a time. *)

From Coq Require Import ZArith List Bool.
From Verif Require Import Base.
Import ListNotations.
Open Scope Z_scope.

(** osc_serial.h:43-87, the constants. *)
Definition INIT : Z := 0.
Definition BUNDLE_HEADER : Z := 0x0100000000000000.
Definition BUNDLE_MESSAGE : Z := 0x0200000000000000.
Definition MESSAGE : Z := 0x0400000000000000.
Definition HEADER_ID : Z := 0x0001000000000000.
Definition HEADER_TIMETAG : Z := 0x0002000000000000.
Definition SIZE : Z := 0x0001000000000000.
Definition ADDRESS : Z := 0x0002000000000000.
Definition TYPETAGS : Z := 0x0004000000000000.
Definition DATA : Z := 0x0008000000000000.
Definition IN_CURLY : Z := 0x0000010000000000.
Definition IN_CURLY_COMMA : Z := 0x0000020000000000.
Definition IN_SQUARE : Z := 0x0000040000000000.
Definition IN_SQUARE_DASH : Z := 0x0000080000000000.
Definition ADDRESS_PADDING : Z := 0x0000100000000000.
Definition TYPETAGS_PADDING : Z := 0x0000010000000000.
Definition E_BADHEADER : Z := 0x0000000100000000.
Definition E_NOLEADINGSLASH : Z := 0x0000000300000000.
Definition E_NESTEDBRACKETS : Z := 0x0000000400000000.
Definition E_WILDCARD : Z := 0x0000000500000000.
Definition E_BADALIGNMENT : Z := 0x0000000600000000.
Definition E_TYPETAG : Z := 0x0000000700000000.
Definition E_NOTYPETAGS : Z := 0x0000000800000000.
Definition E_DOUBLEDASH : Z := 0x0000000a00000000.
Definition E_DOUBLECOMMA : Z := 0x0000000b00000000.
Definition E_RIGHTCURLY : Z := 0x0000000c00000000.
Definition E_LEFTCURLY : Z := 0x0000000d00000000.
Definition E_RIGHTSQUARE : Z := 0x0000000e00000000.
Definition E_LEFTSQUARE : Z := 0x0000000f00000000.
Definition ERROR_MASK : Z := 0x000000ff00000000.

Infix ".|" := Z.lor (at level 55, left associativity).

(** osc_serial.c:188-191 osc_serial_errorp. *)
Definition errorp (s : Z) : bool := negb (Z.land s ERROR_MASK =? 0).

(** osc_serial.c:386-401 and 506-521: the type tags that are known. *)
Definition known_tag (b : Z) : bool :=
  existsb (Z.eqb b) [99; 67; 117; 85; 105; 73; 104; 72; 102; 100; 115; 84; 70; 78; 116; 46].

Section Byte.
Variables (b s : Z).
Let macro := Z.land s 0xff00000000000000.
Let state := Z.land s 0x00ff000000000000.
Let micro := Z.land s 0x0000ff0000000000.
Let count := Z.land s 0x00000000ffffffff.
Let ctrm4 := count mod 4.

(** osc_serial.c:539-540. *)
Definition naked_data : Z := u64 (s + 1).

(** osc_serial.c:502-538; another micro state falls through to the data. *)
Definition naked_typetags : Z :=
  if micro =? 0 then
    if known_tag b then u64 (s + 1)
    else if b =? 0 then u64 ((s .| TYPETAGS_PADDING) + 1)
    else s .| E_TYPETAG
  else if micro =? TYPETAGS_PADDING then
    if ctrm4 =? 3 then MESSAGE .| DATA .| u32 (count + 1)
    else if b =? 0 then u64 (s + 1) else E_BADALIGNMENT
  else naked_data.

(** osc_serial.c:447-462, inside braces. *)
Definition naked_curly : Z :=
  if (b =? 91) || (b =? 93) || (b =? 123) then s .| E_NESTEDBRACKETS
  else if (b =? 42) || (b =? 63) then s .| E_WILDCARD
  else if b =? 44 then MESSAGE .| ADDRESS .| IN_CURLY_COMMA .| u32 (count + 1)
  else if b =? 125 then MESSAGE .| ADDRESS .| u32 (count + 1)
  else u64 (s + 1).
(** osc_serial.c:469-484, inside brackets. *)
Definition naked_square : Z :=
  if (b =? 123) || (b =? 125) || (b =? 91) then s .| E_NESTEDBRACKETS
  else if (b =? 42) || (b =? 63) then s .| E_WILDCARD
  else if b =? 45 then MESSAGE .| ADDRESS .| IN_SQUARE_DASH .| u32 (count + 1)
  else if b =? 93 then MESSAGE .| ADDRESS .| u32 (count + 1)
  else u64 (s + 1).
(** osc_serial.c:428-501; another micro state falls through to the type tags. *)
Definition naked_address : Z :=
  if micro =? 0 then
    if b =? 91 then u64 ((s .| IN_SQUARE) + 1)
    else if b =? 123 then u64 ((s .| IN_CURLY) + 1)
    else if b =? 0 then u64 ((s .| ADDRESS_PADDING) + 1)
    else u64 (s + 1)
  else if micro =? IN_CURLY_COMMA then if b =? 44 then s .| E_DOUBLECOMMA else naked_curly
  else if micro =? IN_CURLY then naked_curly
  else if micro =? IN_SQUARE_DASH then if b =? 45 then s .| E_DOUBLEDASH else naked_square
  else if micro =? IN_SQUARE then naked_square
  else if micro =? ADDRESS_PADDING then
    if ctrm4 =? 3 then
      if b =? 44 then MESSAGE .| TYPETAGS .| u32 (count + 1)
      else if b =? 0 then s .| E_BADALIGNMENT else s .| E_NOTYPETAGS
    else if b =? 0 then u64 (s + 1) else s .| E_BADALIGNMENT
  else naked_typetags.

(** osc_serial.c:426-541, a message without a bundle, and 543-546. *)
Definition naked : Z :=
  if state =? ADDRESS then naked_address
  else if state =? TYPETAGS then naked_typetags
  else if state =? DATA then naked_data
  else 0.

(** osc_serial.c:419-424. *)
Definition bundle_data : Z :=
  if count <=? 0 then BUNDLE_MESSAGE .| SIZE else u64 (s - 1).

(** osc_serial.c:382-418. *)
Definition bundle_typetags : Z :=
  if micro =? 0 then
    if known_tag b then u64 (s - 1)
    else if b =? 0 then u64 ((s .| TYPETAGS_PADDING) - 1)
    else s .| E_TYPETAG
  else if micro =? TYPETAGS_PADDING then
    if ctrm4 =? 0 then BUNDLE_MESSAGE .| DATA .| u32 (count - 1)
    else if b =? 0 then u64 (s - 1) else E_BADALIGNMENT
  else bundle_data.

(** osc_serial.c:323-340. *)
Definition bundle_curly : Z :=
  if (b =? 91) || (b =? 93) || (b =? 123) then s .| E_NESTEDBRACKETS
  else if (b =? 42) || (b =? 63) then s .| E_WILDCARD
  else if b =? 44 then BUNDLE_MESSAGE .| ADDRESS .| IN_CURLY_COMMA .| u32 (count - 1)
  else if b =? 125 then BUNDLE_MESSAGE .| ADDRESS .| u32 (count - 1)
  else if b =? 0 then E_LEFTCURLY
  else u64 (s - 1).
(** osc_serial.c:347-364. *)
Definition bundle_square : Z :=
  if (b =? 123) || (b =? 125) || (b =? 91) then s .| E_NESTEDBRACKETS
  else if (b =? 42) || (b =? 63) then s .| E_WILDCARD
  else if b =? 45 then BUNDLE_MESSAGE .| ADDRESS .| IN_SQUARE_DASH .| u32 (count - 1)
  else if b =? 93 then BUNDLE_MESSAGE .| ADDRESS .| u32 (count - 1)
  else if b =? 0 then E_LEFTSQUARE
  else u64 (s - 1).
(** osc_serial.c:300-381. *)
Definition bundle_address : Z :=
  if micro =? 0 then
    if b =? 91 then u64 ((s .| IN_SQUARE) - 1)
    else if b =? 123 then u64 ((s .| IN_CURLY) - 1)
    else if b =? 0 then u64 ((s .| ADDRESS_PADDING) - 1)
    else if b =? 93 then s .| E_RIGHTSQUARE
    else if b =? 125 then s .| E_RIGHTCURLY
    else u64 (s - 1)
  else if micro =? IN_CURLY_COMMA then if b =? 44 then s .| E_DOUBLECOMMA else bundle_curly
  else if micro =? IN_CURLY then bundle_curly
  else if micro =? IN_SQUARE_DASH then if b =? 45 then s .| E_DOUBLEDASH else bundle_square
  else if micro =? IN_SQUARE then bundle_square
  else if micro =? ADDRESS_PADDING then
    if ctrm4 =? 0 then
      if b =? 44 then BUNDLE_MESSAGE .| TYPETAGS .| u32 (count - 1)
      else if b =? 0 then s .| E_BADALIGNMENT else s .| E_NOTYPETAGS
    else if b =? 0 then u64 (s - 1) else s .| E_BADALIGNMENT
  else bundle_typetags.

(** osc_serial.c:278-299, the size of a message: the lowest byte of the counter
    is the number of bytes seen.  [count | b] converts the char to an unsigned
    number, sign and all. *)
Definition bundle_size : Z :=
  let c := Z.land count 0xff in
  if c =? 0 then BUNDLE_MESSAGE .| SIZE .| Z.shiftl (Z.land b 0xff) 16 .| (c + 1)
  else if c =? 1 then BUNDLE_MESSAGE .| SIZE .| Z.shiftl (Z.land b 0xff) 8 .| (c + 1)
  else if c =? 2 then BUNDLE_MESSAGE .| SIZE .| u32 ((count .| u32 b) - 2)
  else if b =? 47 then BUNDLE_MESSAGE .| ADDRESS .| u32 (count - 1)
  else BUNDLE_MESSAGE .| ADDRESS .| E_NOLEADINGSLASH.

(** osc_serial.c:276-425; another state falls through to the message without a
    bundle. *)
Definition bundle_message : Z :=
  if state =? SIZE then bundle_size
  else if state =? ADDRESS then bundle_address
  else if state =? TYPETAGS then bundle_typetags
  else if state =? DATA then bundle_data
  else naked.

(** osc_serial.c:261-274; another count falls through to the message.  Shifting
    a byte of 128 or more by 24 overflows an int. *)
Definition header_timetag : res Z :=
  if count <=? 6 then Ok (u64 (s + 1))
  else if count =? 7 then
    if Z.land b 0xff <? 128 then Ok (BUNDLE_MESSAGE .| SIZE .| Z.shiftl (Z.land b 0xff) 24) else Ub Overflow
  else Ok bundle_message.

(** osc_serial.c:214-260; another count falls through to the time tag. *)
Definition header_id : res Z :=
  let expect x := Ok (if b =? x then u64 (s + 1) else BUNDLE_HEADER .| HEADER_ID .| E_BADHEADER) in
  if count =? 0 then expect 98
  else if count =? 1 then expect 117
  else if count =? 2 then expect 110
  else if count =? 3 then expect 100
  else if count =? 4 then expect 108
  else if count =? 5 then expect 101
  else if count =? 6 then expect 0
  else if count =? 7 then Ok (BUNDLE_HEADER .| HEADER_TIMETAG)
  else header_timetag.

(** osc_serial.c:193-547 osc_serial_processByte.  [b] is a signed char. *)
Definition process_byte : res Z :=
  if macro =? INIT then
    Ok (if b =? 35 then BUNDLE_HEADER .| HEADER_ID
        else if b =? 47 then MESSAGE .| ADDRESS
        else E_BADHEADER)
  else if macro =? BUNDLE_HEADER then
    if state =? HEADER_ID then header_id
    else if state =? HEADER_TIMETAG then header_timetag
    else Ok bundle_message
  else if macro =? BUNDLE_MESSAGE then Ok bundle_message
  else if macro =? MESSAGE then Ok naked
  else Ok 0.
End Byte.
