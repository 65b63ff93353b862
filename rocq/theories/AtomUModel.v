(** Model of the accessors of unserialized atoms, osc_atom_u.c.  The atom and
    its union are those of SerialModel.v; [w] holds the first eight bytes of the
    union, lowest byte first, so reading through a smaller member truncates.
    The atom is not NULL. *)

From Coq Require Import ZArith List Bool.
From Verif Require Import Base Bytes UtilModel TimetagModel SerialModel AtomSModel FloatModel.
Import ListNotations.
Open Scope Z_scope.

(** Members of the union, osc_atom_u.r:38-56. *)
Definition w_c (w : Z) : Z := s8 w.
Definition w_C (w : Z) : Z := u8 w.
Definition w_u (w : Z) : Z := s16 w.
Definition w_U (w : Z) : Z := u16 w.
Definition w_i (w : Z) : Z := s32 w.
Definition w_I (w : Z) : Z := u32 w.
Definition w_h (w : Z) : Z := s64 w.
Definition w_H (w : Z) : Z := u64 w.
Definition w_f (w : Z) : Z := u32 w.
Definition w_d (w : Z) : Z := u64 w.

(** What the accessors do with a string ([strtol(a->w.s)]: NULL is undefined)
    and with a blob of the right length. *)
Definition of_string (p : payload) (f : list Z -> res Z) : res Z :=
  match p with PStr s => f s | _ => Ub NullDeref end.
Definition of_blob (p : payload) (len : Z) (f : bytes -> res Z) : res Z :=
  match p with
  | PBlob b => do n <- rd32 b 0; if s32 n =? len then f b else Ok 0
  | _ => Ub NullDeref
  end.
(** [ntoh16( *(int16_t * )p)]. *)
Definition rd16 (buf : bytes) (i : Z) : res Z := do b <- slice buf i 2; Ok (ntoh16 (of_le b)).
(** The first character of a string. *)
Definition first_char (s : list Z) : Z := match s with c :: _ => c | [] => 0 end.

(** osc_atom_u.c:262-312 osc_atom_u_getInt8: a NULL string falls through to
    'T'. *)
Definition au_int8 (a : atom) : res Z :=
  match a with
  | Atom tg w p =>
      if tg =? 99 then Ok (w_c w)
      else if tg =? 67 then Ok (s8 (w_C w))
      else if tg =? 105 then Ok (s8 (w_i w))
      else if tg =? 102 then to_range (- 2^7) (2^7 - 1) (trunc32 (w_f w))
      else if tg =? 100 then to_range (- 2^7) (2^7 - 1) (trunc64 (w_d w))
      else if tg =? 115 then match p with PStr s => Ok (s8 (first_char s)) | _ => Ok 1 end
      else if tg =? 84 then Ok 1
      else if tg =? 70 then Ok 0
      else if tg =? 117 then Ok (s8 (w_u w))
      else if tg =? 85 then Ok (s8 (w_U w))
      else if tg =? 104 then Ok (s8 (w_h w))
      else if tg =? 73 then Ok (s8 (w_I w))
      else if tg =? 72 then Ok (s8 (w_H w))
      else if tg =? 98 then of_blob p 4 (fun b => do c <- rd b 4; Ok (s8 c))
      else Ok 0
  end.

(** osc_atom_u.c:314-360 osc_atom_u_getInt16. *)
Definition au_int16 (a : atom) : res Z :=
  match a with
  | Atom tg w p =>
      if tg =? 117 then Ok (s16 (w_u w))
      else if tg =? 85 then Ok (s16 (w_U w))
      else if tg =? 105 then Ok (s16 (w_i w))
      else if tg =? 102 then to_range (- 2^15) (2^15 - 1) (trunc32 (w_f w))
      else if tg =? 100 then to_range (- 2^15) (2^15 - 1) (trunc64 (w_d w))
      else if tg =? 115 then of_string p (fun s => Ok (s16 (strtol s)))
      else if tg =? 84 then Ok 1
      else if tg =? 70 then Ok 0
      else if tg =? 99 then Ok (s16 (w_c w))
      else if tg =? 67 then Ok (s16 (w_C w))
      else if tg =? 104 then Ok (s16 (w_h w))
      else if tg =? 73 then Ok (s16 (w_I w))
      else if tg =? 72 then Ok (s16 (w_H w))
      else if tg =? 98 then of_blob p 4 (fun b => do n <- rd16 b 4; Ok (s16 n))
      else Ok 0
  end.

(** osc_atom_u.c:364-410 osc_atom_u_getInt32. *)
Definition au_int32 (a : atom) : res Z :=
  match a with
  | Atom tg w p =>
      if tg =? 105 then Ok (w_i w)
      else if tg =? 102 then to_range (- 2^31) (2^31 - 1) (trunc32 (w_f w))
      else if tg =? 100 then to_range (- 2^31) (2^31 - 1) (trunc64 (w_d w))
      else if tg =? 115 then of_string p (fun s => Ok (s32 (strtol s)))
      else if tg =? 84 then Ok 1
      else if tg =? 70 then Ok 0
      else if tg =? 99 then Ok (s32 (w_c w))
      else if tg =? 67 then Ok (s32 (w_C w))
      else if tg =? 117 then Ok (s32 (w_u w))
      else if tg =? 85 then Ok (s32 (w_U w))
      else if tg =? 104 then Ok (s32 (w_h w))
      else if tg =? 73 then Ok (s32 (w_I w))
      else if tg =? 72 then Ok (s32 (w_H w))
      else if tg =? 98 then of_blob p 4 (fun b => do n <- rd32 b 4; Ok (s32 n))
      else Ok 0
  end.

(** osc_atom_u.c:412-458 osc_atom_u_getInt64. *)
Definition au_int64 (a : atom) : res Z :=
  match a with
  | Atom tg w p =>
      if tg =? 104 then Ok (s64 (w_h w))
      else if tg =? 105 then Ok (s64 (w_i w))
      else if tg =? 100 then to_range (- 2^63) (2^63 - 1) (trunc64 (w_d w))
      else if tg =? 102 then to_range (- 2^63) (2^63 - 1) (trunc32 (w_f w))
      else if tg =? 73 then Ok (s64 (w_I w))
      else if tg =? 72 then Ok (s64 (w_H w))
      else if tg =? 115 then of_string p (fun s => Ok (s64 (strtol s)))
      else if tg =? 99 then Ok (s64 (w_c w))
      else if tg =? 67 then Ok (s64 (w_C w))
      else if tg =? 117 then Ok (s64 (w_u w))
      else if tg =? 85 then Ok (s64 (w_U w))
      else if tg =? 84 then Ok 1
      else if tg =? 70 then Ok 0
      else if tg =? 98 then of_blob p 8 (fun b => do n <- rd64 b 4; Ok (s64 n))
      else Ok 0
  end.

(** osc_atom_u.c:460-510 osc_atom_u_getUInt8: a NULL string falls through to
    'u', where the union is zero. *)
Definition au_uint8 (a : atom) : res Z :=
  match a with
  | Atom tg w p =>
      if tg =? 67 then Ok (u8 (w_C w))
      else if tg =? 99 then Ok (u8 (w_c w))
      else if tg =? 73 then Ok (u8 (w_I w))
      else if tg =? 105 then Ok (u8 (w_i w))
      else if tg =? 102 then to_range 0 (2^8 - 1) (trunc32 (w_f w))
      else if tg =? 100 then to_range 0 (2^8 - 1) (trunc64 (w_d w))
      else if tg =? 104 then Ok (u8 (w_h w))
      else if tg =? 72 then Ok (u8 (w_H w))
      else if tg =? 115 then match p with PStr s => Ok (u8 (first_char s)) | _ => Ok 0 end
      else if tg =? 117 then Ok (u8 (w_u w))
      else if tg =? 85 then Ok (u8 (w_U w))
      else if tg =? 84 then Ok 1
      else if tg =? 70 then Ok 0
      else if tg =? 98 then of_blob p 4 (fun b => do c <- rd b 4; Ok (u8 c))
      else Ok 0
  end.

(** osc_atom_u.c:512-558 osc_atom_u_getUInt16. *)
Definition au_uint16 (a : atom) : res Z :=
  match a with
  | Atom tg w p =>
      if tg =? 85 then Ok (w_U w)
      else if tg =? 117 then Ok (u16 (w_u w))
      else if tg =? 73 then Ok (u16 (w_I w))
      else if tg =? 105 then Ok (u16 (w_i w))
      else if tg =? 102 then to_range 0 (2^16 - 1) (trunc32 (w_f w))
      else if tg =? 100 then to_range 0 (2^16 - 1) (trunc64 (w_d w))
      else if tg =? 104 then Ok (u16 (w_h w))
      else if tg =? 72 then Ok (u16 (w_H w))
      else if tg =? 115 then of_string p (fun s => Ok (u16 (strtoul s)))
      else if tg =? 99 then Ok (u16 (w_c w))
      else if tg =? 67 then Ok (u16 (w_C w))
      else if tg =? 84 then Ok 1
      else if tg =? 70 then Ok 0
      else if tg =? 98 then of_blob p 4 (fun b => do n <- rd16 b 4; Ok (u16 n))
      else Ok 0
  end.

(** osc_atom_u.c:560-606 osc_atom_u_getUInt32. *)
Definition au_uint32 (a : atom) : res Z :=
  match a with
  | Atom tg w p =>
      if tg =? 73 then Ok (u32 (w_I w))
      else if tg =? 105 then Ok (u32 (w_i w))
      else if tg =? 102 then to_range 0 (2^32 - 1) (trunc32 (w_f w))
      else if tg =? 100 then to_range 0 (2^32 - 1) (trunc64 (w_d w))
      else if tg =? 104 then Ok (u32 (w_h w))
      else if tg =? 72 then Ok (u32 (w_H w))
      else if tg =? 115 then of_string p (fun s => Ok (u32 (strtoul s)))
      else if tg =? 99 then Ok (u32 (w_c w))
      else if tg =? 67 then Ok (u32 (w_C w))
      else if tg =? 117 then Ok (u32 (w_u w))
      else if tg =? 85 then Ok (u32 (w_U w))
      else if tg =? 84 then Ok 1
      else if tg =? 70 then Ok 0
      else if tg =? 98 then of_blob p 4 (fun b => do n <- rd32 b 4; Ok (u32 n))
      else Ok 0
  end.

(** osc_atom_u.c:608-654 osc_atom_u_getUInt64: of a blob of eight bytes only
    the first four are read (649). *)
Definition au_uint64 (a : atom) : res Z :=
  match a with
  | Atom tg w p =>
      if tg =? 72 then Ok (u64 (w_H w))
      else if tg =? 105 then Ok (u64 (w_i w))
      else if tg =? 104 then Ok (u64 (w_h w))
      else if tg =? 73 then Ok (u64 (w_I w))
      else if tg =? 102 then to_range 0 (2^64 - 1) (trunc32 (w_f w))
      else if tg =? 100 then to_range 0 (2^64 - 1) (trunc64 (w_d w))
      else if tg =? 115 then of_string p (fun s => Ok (u64 (strtoul s)))
      else if tg =? 99 then Ok (u64 (w_c w))
      else if tg =? 67 then Ok (u64 (w_C w))
      else if tg =? 117 then Ok (u64 (w_u w))
      else if tg =? 85 then Ok (u64 (w_U w))
      else if tg =? 84 then Ok 1
      else if tg =? 70 then Ok 0
      else if tg =? 98 then of_blob p 8 (fun b => do n <- rd32 b 4; Ok (u64 n))
      else Ok 0
  end.

(** osc_atom_u.c:656-704 osc_atom_u_getInt, with 32-bit int. *)
Definition au_int (a : atom) : res Z :=
  match a with
  | Atom tg w p =>
      if tg =? 105 then Ok (w_i w)
      else if tg =? 102 then to_range (- 2^31) (2^31 - 1) (trunc32 (w_f w))
      else if tg =? 100 then to_range (- 2^31) (2^31 - 1) (trunc64 (w_d w))
      else if tg =? 104 then Ok (s32 (w_h w))
      else if tg =? 73 then Ok (s32 (w_I w))
      else if tg =? 72 then Ok (s32 (w_H w))
      else if tg =? 115 then of_string p (fun s => Ok (s32 (strtol s)))
      else if tg =? 99 then Ok (s32 (w_c w))
      else if tg =? 67 then Ok (s32 (w_C w))
      else if tg =? 117 then Ok (s32 (w_u w))
      else if tg =? 85 then Ok (s32 (w_U w))
      else if tg =? 84 then Ok 1
      else if tg =? 70 then Ok 0
      else if tg =? 98 then of_blob p 4 (fun b => do n <- rd32 b 4; Ok (s32 n))
      else Ok 0
  end.

(** osc_atom_u.c:162-211 osc_atom_u_getFloat, as a bit pattern.  [strtof] and the
    conversion of time tags are not modelled: [other]. *)
Definition au_float (other : atom -> Z) (a : atom) : res Z :=
  match a with
  | Atom tg w p =>
      if tg =? 102 then Ok (w_f w)
      else if tg =? 100 then Ok (float_of_double (w_d w))
      else if tg =? 105 then Ok (float_of_int (w_i w))
      else if tg =? 104 then Ok (float_of_int (w_h w))
      else if tg =? 73 then Ok (float_of_int (w_I w))
      else if tg =? 115 then of_string p (fun _ => Ok (other a))
      else if tg =? 84 then Ok (float_of_int 1)
      else if tg =? 70 then Ok (float_of_int 0)
      else if tg =? 72 then Ok (float_of_int (w_H w))
      else if tg =? 99 then Ok (float_of_int (w_c w))
      else if tg =? 67 then Ok (float_of_int (w_C w))
      else if tg =? 117 then Ok (float_of_int (w_u w))
      else if tg =? 85 then Ok (float_of_int (w_U w))
      else if tg =? 116 then Ok (other a)
      else if tg =? 98 then of_blob p 4 (fun b => rd32 b 4)
      else Ok 0
  end.

(** osc_atom_u.c:213-260 osc_atom_u_getDouble. *)
Definition au_double (other : atom -> Z) (a : atom) : res Z :=
  match a with
  | Atom tg w p =>
      if tg =? 100 then Ok (w_d w)
      else if tg =? 102 then Ok (double_of_float (w_f w))
      else if tg =? 105 then Ok (double_of_int (w_i w))
      else if tg =? 104 then Ok (double_of_int (w_h w))
      else if tg =? 73 then Ok (double_of_int (w_I w))
      else if tg =? 115 then of_string p (fun _ => Ok (other a))
      else if tg =? 84 then Ok (double_of_int 1)
      else if tg =? 70 then Ok (double_of_int 0)
      else if tg =? 72 then Ok (double_of_int (w_H w))
      else if tg =? 99 then Ok (double_of_int (w_c w))
      else if tg =? 67 then Ok (double_of_int (w_C w))
      else if tg =? 117 then Ok (double_of_int (w_u w))
      else if tg =? 85 then Ok (double_of_int (w_U w))
      else if tg =? 116 then Ok (other a)
      else if tg =? 98 then of_blob p 8 (fun b => rd64 b 4)
      else Ok 0
  end.

(** osc_atom_u.c:826-866 osc_atom_u_getBool: [f == 0] holds for both zeros. *)
Definition au_bool (a : atom) : bool :=
  match a with
  | Atom tg w p =>
      if tg =? 84 then true
      else if (tg =? 70) || (tg =? 78) then false
      else if tg =? 105 then negb (w_i w =? 0)
      else if tg =? 104 then negb (w_h w =? 0)
      else if tg =? 73 then negb (w_I w =? 0)
      else if tg =? 72 then negb (w_H w =? 0)
      else if tg =? 102 then negb (w_f w mod 2^31 =? 0)
      else if tg =? 100 then negb (w_d w mod 2^63 =? 0)
      else if tg =? 115 then false
      else if tg =? 99 then negb (w_c w =? 0)
      else if tg =? 67 then negb (w_C w =? 0)
      else if tg =? 117 then negb (w_u w =? 0)
      else if tg =? 85 then negb (w_U w =? 0)
      else false
  end.

(** osc_atom_u.c:1268-1308 osc_atom_u_negate: 8 and 16 bit operands are
    promoted to int, the result is converted to the parameter type of the
    setter; negating the least int or int64 overflows; unsigned operands are
    negated in their own type.  The sign bit of a float is flipped. *)
Definition au_negate (a : atom) : res atom :=
  let tg := a_tt a in
  if tg =? 99 then do v <- au_int8 a; Ok (set_int8 a (s8 (- v)))
  else if tg =? 117 then do v <- au_int16 a; Ok (set_int16 a (s16 (- v)))
  else if tg =? 105 then do v <- au_int32 a; do n <- neg_checked (- 2^31) v; Ok (set_int32 a n)
  else if tg =? 104 then do v <- au_int64 a; do n <- neg_checked (- 2^63) v; Ok (set_int64 a n)
  else if tg =? 67 then do v <- au_uint8 a; Ok (set_int8 a (s8 (- v)))
  else if tg =? 85 then do v <- au_uint16 a; Ok (set_int16 a (s16 (- v)))
  else if tg =? 73 then do v <- au_uint32 a; Ok (set_int32 a (s32 (u32 (- v))))
  else if tg =? 72 then do v <- au_uint64 a; Ok (set_int64 a (s64 (u64 (- v))))
  else if tg =? 102 then do n <- au_float (fun _ => 0) a; Ok (set_float a (Z.lxor n (2^31)))
  else if tg =? 100 then do n <- au_double (fun _ => 0) a; Ok (set_double a (Z.lxor n (2^63)))
  else Ok a.

(** * osc_atom_s.c, the accessors that return floats *)

(** osc_atom_s.c:79-119 osc_atom_s_getFloat; strtof is not modelled. *)
Definition as_float (strtof : list Z -> Z) (buf : bytes) (tg p : Z) : res Z :=
  if tg =? 102 then rd32 buf p
  else if tg =? 100 then do n <- rd64 buf p; Ok (float_of_double n)
  else if (tg =? 99) || (tg =? 117) || (tg =? 105) then do n <- rd32 buf p; Ok (float_of_int (s32 n))
  else if tg =? 104 then do n <- rd64 buf p; Ok (float_of_int (s64 n))
  else if (tg =? 67) || (tg =? 85) || (tg =? 73) then do n <- rd32 buf p; Ok (float_of_int n)
  else if tg =? 72 then do n <- rd64 buf p; Ok (float_of_int n)
  else if tg =? 115 then do s <- rdstr buf p; Ok (strtof s)
  else if tg =? 84 then Ok (float_of_int 1)
  else Ok 0.

(** osc_atom_s.c:121-163 osc_atom_s_getDouble. *)
Definition as_double (strtod : list Z -> Z) (buf : bytes) (tg p : Z) : res Z :=
  if tg =? 100 then rd64 buf p
  else if tg =? 102 then do n <- rd32 buf p; Ok (double_of_float n)
  else if (tg =? 99) || (tg =? 117) || (tg =? 105) then do n <- rd32 buf p; Ok (double_of_int (s32 n))
  else if tg =? 104 then do n <- rd64 buf p; Ok (double_of_int (s64 n))
  else if (tg =? 67) || (tg =? 85) || (tg =? 73) then do n <- rd32 buf p; Ok (double_of_int n)
  else if tg =? 72 then do n <- rd64 buf p; Ok (double_of_int n)
  else if tg =? 115 then do s <- rdstr buf p; Ok (strtod s)
  else if tg =? 84 then Ok (double_of_int 1)
  else Ok 0.
