(** Model of further numeric functions of the expression language, osc_expr.c.
    Arrays are taken to have fewer than 2^31 members, as in StatModel.v.  Each
    function gets its arguments [argv]; it returns its code and [*out], which is
    NULL before.  Error reports are not modelled.  Products and sums of doubles
    are computed one after the other: a fused multiply-add, which C allows the
    compiler to use, is not modelled. *)

From Coq Require Import ZArith List Bool.
From Verif Require Import Base Bytes UtilModel TypetagModel SerialModel WireModel AtomSModel FloatModel AtomUModel
  FArithModel ExprModel ExprListModel StatModel.
Import ListNotations.
Open Scope Z_scope.

(** What the functions on floats get from outside the model: strtof and the
    conversion of a time tag atom to a float, and the NaN the platform delivers. *)
Record single := Single {
  s_float : atom -> Z;
  s_nan : Z -> Z -> Z }.

(** * Functions of the C library on each member *)

(** osc_expr.c:2189-2206 osc_expr_1arg_dbl; [func] is the function of the record.
    The first argument is looked at before [argc]. *)
Definition fn_1arg_dbl (func : Z -> Z) (E : env) (argv : list arr) : res (Z * arr) :=
  do a <- argv_at argv 0;
  if alen a <? 1 then Ok (1, None) else
  do out <- aalloc (alen a);
  do out <- each (fun x r => do d <- au_double (e_double E) x; Ok (set_double r (func d))) (items a) 0 out;
  Ok (0, out).

(** osc_expr.c:2208-2259 osc_expr_2arg_dbl_dbl: the loops are those of
    osc_expr_2arg (ExprModel.v) with this operator, which gets 0 for a NULL
    atom. *)
Definition op_dbl (func : Z -> Z -> Z) : binop := fun E f1 f2 r =>
  do x <- double_at E f1; do y <- double_at E f2; Ok (0, set_double r (func x y)).
Definition fn_2arg_dbl (func : Z -> Z -> Z) (E : env) (argv : list arr) : res (Z * arr) :=
  two_arg E (op_dbl func) argv.

(** osc_expr.c:3202-3213 osc_expr_ilogb. *)
Definition fn_ilogb (ilogb : Z -> Z) (E : env) (argv : list arr) : res (Z * arr) :=
  match argv with
  | [a] =>
      do out <- aalloc (alen a);
      do out <- each (fun x r => do d <- au_double (e_double E) x; Ok (set_int32 r (ilogb d))) (items a) 0 out;
      Ok (0, out)
  | _ => Ok (1, None)
  end.
(** osc_expr.c:3215-3226, 3228-3239 osc_expr_jn and osc_expr_yn. *)
Definition fn_jn (jn : Z -> Z -> Z) (E : env) (argv : list arr) : res (Z * arr) :=
  match argv with
  | [a0; a1] =>
      do out <- aalloc 1;
      do x0 <- aget a0 0; do n <- int32_at x0;
      do x1 <- aget a1 0; do x <- double_at E x1;
      do out <- aput out 0 (fun r => Ok (set_double r (jn n x)));
      Ok (0, out)
  | _ => Ok (1, None)
  end.

(** * The remainder *)

(** fabs and floor of the C library. *)
Definition dfabs (d : Z) : Z := d mod 2^63.
Definition dfloor (d : Z) : Z :=
  match ieee_decode 52 11 d with
  | None => d
  | Some (s, m, e) =>
      if 0 <=? e then d else
      let z := signed_of s m / 2^(- e) in
      if z =? 0 then ieee_zero 52 11 s else double_of_int z
  end.
(** osc_expr.c:4860-4869 _osc_expr_sign. *)
Definition dsign (f : Z) : Z := if deq f 0 then 0 else if dlt f 0 then -1 else 1.
(** osc_expr.c:3065-3068 _osc_expr_fmod. *)
Definition dfmod (nan : Z -> Z -> Z) (x m : Z) : Z :=
  dsub nan x (dmul nan (dmul nan m (double_of_int (dsign m))) (dfloor (ddiv nan x (dfabs m)))).
(** osc_expr.c:3070-3115 osc_expr_mod; the conversion of a remainder that is out
    of the range of int32 is undefined. *)
Definition op_mod : binop := fun E f1 f2 r =>
  match f1, f2 with
  | None, _ => Ok (0, set_int32 r 0)
  | Some f1, None => do r <- copy_into r (Some f1); Ok (0, r)
  | Some f1, Some f2 =>
      do ff1 <- au_double (e_double E) f1;
      do ff2 <- au_double (e_double E) f2;
      let m := dfmod (e_nan E) ff1 ff2 in
      if is_float (a_tt f1) || is_float (a_tt f2) then
        if deq ff2 0 then do r <- copy_into r (Some f1); Ok (0, r)
        else Ok (0, set_double r m)
      else
        if deq ff2 0 then do r <- copy_into r (Some f1); Ok (0, r)
        else do z <- to_range (- 2^31) (2^31 - 1) (trunc64 m); Ok (0, set_int32 r z)
  end.

(** * One more and one less *)

(** osc_expr.c:3142-3164, 3174-3197: member [a] into [r]; [op] and [fop] are +
    or -.  The tag 'h' is handled as if it were that of a uint32 and 'I' as if it
    were that of an int64; atoms with other tags leave the new atom as it is. *)
Definition bump_one (F : single) (E : env) (op : Z -> Z -> Z) (fop : Z -> Z -> (Z -> Z -> Z) -> Z -> Z -> Z)
  (a r : atom) : res atom :=
  let tt := a_tt a in
  if tt =? 105 then do v <- au_int32 a; do v <- checked 32 (op v 1); Ok (set_int32 r v)
  else if tt =? 102 then do v <- au_float (s_float F) a; Ok (set_float r (fop 23 8 (s_nan F) v (float_of_int 1)))
  else if tt =? 100 then do v <- au_double (e_double E) a; Ok (set_double r (fop 52 11 (e_nan E) v (double_of_int 1)))
  else if tt =? 104 then do v <- au_uint32 a; Ok (set_uint32 r (u32 (op v 1)))
  else if tt =? 73 then do v <- au_int64 a; do v <- checked 64 (op v 1); Ok (set_int64 r v)
  else if tt =? 72 then do v <- au_uint64 a; Ok (set_uint64 r (u64 (op v 1)))
  else Ok r.
(** osc_expr.c:3137-3167 osc_expr_plus1. *)
Definition fn_plus1 (F : single) (E : env) (argv : list arr) : res (Z * arr) :=
  do a <- argv_at argv 0;
  do out <- aalloc (alen a);
  do out <- each (bump_one F E Z.add ieee_add) (items a) 0 out;
  Ok (0, out).
(** osc_expr.c:3169-3200 osc_expr_minus1. *)
Definition fn_minus1 (F : single) (E : env) (argv : list arr) : res (Z * arr) :=
  do a <- argv_at argv 0;
  do out <- aalloc (alen a);
  do out <- each (bump_one F E Z.sub ieee_sub) (items a) 0 out;
  Ok (0, out).

(** * Running sums *)

(** osc_expr.c:3450-3505: the number of a type tag. *)
Definition sum_type (tt : Z) : Z :=
  if tt =? 99 then 1
  else if tt =? 67 then 2
  else if tt =? 117 then 4
  else if tt =? 85 then 8
  else if tt =? 73 then 32
  else if tt =? 104 then 64
  else if tt =? 72 then 128
  else if tt =? 102 then 256
  else if tt =? 100 then 512
  else 16.
Fixpoint largest_sum_type (l : list atom) (t : Z) : Z :=
  match l with
  | [] => t
  | a :: l' => largest_sum_type l' (if sum_type (a_tt a) >? t then sum_type (a_tt a) else t)
  end.
(** The loops of osc_expr.c:3508-3628: [add] gives the new sum, [set] stores it. *)
Fixpoint running (add : Z -> atom -> res Z) (set : atom -> Z -> atom) (l : list atom) (k cumsum : Z) (out : arr) : res arr :=
  match l with
  | [] => Ok out
  | a :: l' =>
      do cumsum <- add cumsum a;
      do out <- aput out k (fun r => Ok (set r cumsum));
      running add set l' (k + 1) cumsum out
  end.
(** A sum of integers: types of less than 32 bits are added as int, which cannot
    overflow, and the result is converted back. *)
Definition plus (get : atom -> res Z) (fin : Z -> res Z) (cumsum : Z) (a : atom) : res Z :=
  do v <- get a; fin (cumsum + v).
(** osc_expr.c:3431-3668 osc_expr_cumsum. *)
Definition fn_cumsum (F : single) (E : env) (argv : list arr) : res (Z * arr) :=
  let l := concat (map items argv) in
  do n <- int_lens 0 argv;
  do out <- aalloc n;
  let t := largest_sum_type l 0 in
  do out <-
    (if t =? 1 then running (plus au_int8 (fun v => Ok (s8 v))) set_int8 l 0 0 out
     else if t =? 2 then running (plus au_uint8 (fun v => Ok (u8 v))) set_uint8 l 0 0 out
     else if t =? 4 then running (plus au_int16 (fun v => Ok (s16 v))) set_int16 l 0 0 out
     else if t =? 8 then running (plus au_uint16 (fun v => Ok (u16 v))) set_uint16 l 0 0 out
     else if t =? 32 then running (plus au_uint32 (fun v => Ok (u32 v))) set_uint32 l 0 0 out
     else if t =? 64 then running (plus au_int64 (checked 64)) set_int64 l 0 0 out
     else if t =? 128 then running (plus au_uint64 (fun v => Ok (u64 v))) set_uint64 l 0 0 out
     else if t =? 256 then
       running (fun s a => do v <- au_float (s_float F) a; Ok (ieee_add 23 8 (s_nan F) s v)) set_float l 0 0 out
     else if t =? 512 then
       running (fun s a => do v <- au_double (e_double E) a; Ok (dadd (e_nan E) s v)) set_double l 0 0 out
     else running (plus au_int32 (checked 32)) set_int32 l 0 0 out);
  Ok (0, out).

(** * Sequences *)

(** osc_expr.c:3989-3992: [k] members from [i] on, starting with [start]. *)
Fixpoint seq_double (E : env) (k : nat) (i start step : Z) (out : arr) : res arr :=
  match k with
  | O => Ok out
  | S k' =>
      do out <- aput out i (fun r => Ok (set_double r start));
      seq_double E k' (i + 1) (dadd (e_nan E) start step) step out
  end.
(** osc_expr.c:3994-3997. *)
Fixpoint seq_int (E : env) (k : nat) (i start step : Z) (out : arr) : res arr :=
  match k with
  | O => Ok out
  | S k' =>
      do z <- to_range (- 2^31) (2^31 - 1) (trunc64 start);
      do out <- aput out i (fun r => Ok (set_int32 r z));
      seq_int E k' (i + 1) (dadd (e_nan E) start step) step out
  end.
(** osc_expr.c:3931-4000 osc_expr_aseq; the size is converted to int and one
    added to it, which is undefined if it is too large. *)
Definition fn_aseq (E : env) (argv : list arr) : res (Z * arr) :=
  match argv with
  | a0 :: a1 :: more =>
      do x0 <- aget a0 0;
      do x1 <- aget a1 0;
      do x2 <- match more with a2 :: _ => do x <- aget a2 0; Ok (Some x) | [] => Ok None end;
      let dblup := is_float (tag_at x0) || is_float (tag_at x1) ||
                   match x2 with Some x2 => is_float (tag_at x2) | None => false end in
      do start <- double_at E x0;
      do end_ <- double_at E x1;
      if deq start end_ then
        do out <- aalloc 1;
        do out <- aput out 0 (fun r => copy_into r x0);
        Ok (0, out)
      else
        let dir := dsign (dsub (e_nan E) end_ start) in
        do step <- match x2 with Some x2 => double_at E x2 | None => Ok (double_of_int dir) end;
        if deq step 0 then Ok (1, None)
        else if negb (dir =? dsign step) then Ok (1, None)
        else
          let min := if dgt start end_ then end_ else start in
          let max := if dgt start end_ then start else end_ in
          do q <- to_range (- 2^31) (2^31 - 1) (trunc64 (ddiv (e_nan E) (dsub (e_nan E) max min) (dfabs step)));
          do n <- add_int q 1;
          do out <- aalloc n;
          do out <- (if dblup then seq_double E (Z.to_nat n) 0 start step out
                     else seq_int E (Z.to_nat n) 0 start step out);
          Ok (0, out)
  | _ => Ok (1, None)
  end.

(** * Bits and bytes *)

(** osc_typetag.h:52 OSC_TYPETAG_ISINT. *)
Definition is_int_tag (t : Z) : bool :=
  (t =? 105) || (t =? 73) || (t =? 104) || (t =? 72) || (t =? 117) || (t =? 85) || (t =? 99) || (t =? 67).
Definition largest_of (argv : list arr) : res Z := get_largest_type (map (fun a => map a_tt (items a)) argv).
(** One case of the switches: the bits of the operands of types that are promoted
    to int are those of the type, repeated sign bits apart. *)
Definition bit_case (op : Z -> Z -> Z) (get : atom -> res Z) (set : atom -> Z -> atom) (x y r : atom) : res atom :=
  do i1 <- get x; do i2 <- get y; Ok (set r (op i1 i2)).
(** osc_expr.c:5296-5365 osc_expr_bitand and 5367-5436 osc_expr_bitor: these
    differ in [op].  For 'C' the result is stored with setInt8. *)
Definition fn_bits (op : Z -> Z -> Z) (argv : list arr) : res (Z * arr) :=
  match argv with
  | [a0; a1] =>
      do x0 <- aget a0 0;
      do x1 <- aget a1 0;
      match x0, x1 with
      | Some x, Some y =>
          if negb (is_int_tag (a_tt x)) || negb (is_int_tag (a_tt y)) then Ok (1, None) else
          do out <- aalloc 1;
          do t <- largest_of argv;
          do out <- aput out 0 (fun r =>
            if t =? 105 then bit_case op au_int32 set_int32 x y r
            else if t =? 73 then bit_case op au_uint32 set_uint32 x y r
            else if t =? 104 then bit_case op au_int64 set_int64 x y r
            else if t =? 72 then bit_case op au_uint64 set_uint64 x y r
            else if t =? 117 then bit_case op au_int16 set_int16 x y r
            else if t =? 85 then bit_case op au_uint16 set_uint16 x y r
            else if t =? 99 then bit_case op au_int8 set_int8 x y r
            else if t =? 67 then bit_case op au_uint8 (fun r v => set_int8 r (s8 v)) x y r
            else Ok r);
          Ok (0, out)
      | _, _ => Ok (1, None)
      end
  | _ => Ok (1, None)
  end.
Definition fn_bitand := fn_bits Z.land.
Definition fn_bitor := fn_bits Z.lor.

(** Loops that set the members of [*out] from all members of all arguments. *)
Definition from_all (f : atom -> atom -> res atom) (argv : list arr) : res (Z * arr) :=
  do n <- int_lens 0 argv;
  do out <- aalloc n;
  do out <- each f (concat (map items argv)) 0 out;
  Ok (0, out).
(** osc_expr.c:6098-6124 osc_expr_hton32, 6126-6152 osc_expr_ntoh32.  The macro
    gets an int or an unsigned int and gives an unsigned int. *)
Definition swap32_one (swap : Z -> Z) (a r : atom) : res atom :=
  let tt := a_tt a in
  if (tt =? 99) || (tt =? 117) || (tt =? 105) then do v <- au_int32 a; Ok (set_int32 r (s32 (swap (u32 v))))
  else if (tt =? 67) || (tt =? 85) || (tt =? 73) then do v <- au_uint32 a; Ok (set_uint32 r (u32 (swap v)))
  else Ok r.
Definition fn_hton32 := from_all (swap32_one hton32).
Definition fn_ntoh32 := from_all (swap32_one ntoh32).
(** osc_expr.c:6154-6184 osc_expr_hton64: both cases are the same. *)
Definition hton64_one (a r : atom) : res atom :=
  let tt := a_tt a in
  if (tt =? 99) || (tt =? 117) || (tt =? 105) || (tt =? 104) then
    do v <- au_uint64 a; Ok (set_uint64 r (u64 (hton64 v)))
  else if (tt =? 67) || (tt =? 85) || (tt =? 73) || (tt =? 72) then
    do v <- au_uint64 a; Ok (set_uint64 r (u64 (hton64 v)))
  else Ok r.
Definition fn_hton64 := from_all hton64_one.
(** osc_expr.c:6186-6216 osc_expr_ntoh64. *)
Definition ntoh64_one (a r : atom) : res atom :=
  let tt := a_tt a in
  if (tt =? 99) || (tt =? 117) || (tt =? 105) || (tt =? 104) then
    do v <- au_int64 a; Ok (set_int64 r (s64 (ntoh64 (u64 v))))
  else if (tt =? 67) || (tt =? 85) || (tt =? 73) || (tt =? 72) then
    do v <- au_uint64 a; Ok (set_uint64 r (u64 (ntoh64 v)))
  else Ok r.
Definition fn_ntoh64 := from_all ntoh64_one.

(** * The cross product *)

(** osc_expr.c:4146-4286: the nine reads and three results of the functions for
    one type; [minus p q r s] computes [p * q - r * s]. *)
Definition cross_case (get : atom -> res Z) (minus : Z -> Z -> Z -> Z -> res Z) (set : atom -> Z -> atom)
  (u v : list atom) (out : arr) : res (Z * arr) :=
  match u, v with
  | [u0; u1; u2], [v0; v1; v2] =>
      do a <- get u0; do b <- get u1; do c <- get u2;
      do x <- get v0; do y <- get v1; do z <- get v2;
      do out <- aput out 0 (fun r => do w <- minus b z c y; Ok (set r w));
      do out <- aput out 1 (fun r => do w <- minus c x a z; Ok (set r w));
      do out <- aput out 2 (fun r => do w <- minus a y b x; Ok (set r w));
      Ok (0, out)
  | _, _ => Ok (1, None)
  end.
(** Operands of less than 32 bits are promoted to int. *)
Definition minus_int (n : Z) (fin : Z -> Z) (p q r s : Z) : res Z :=
  do x <- checked n (p * q); do y <- checked n (r * s); do w <- checked n (x - y); Ok (fin w).
Definition minus_word (wrap : Z -> Z) (p q r s : Z) : res Z := Ok (wrap (wrap (p * q) - wrap (r * s))).
Definition minus_real (mb eb : Z) (nan : Z -> Z -> Z) (p q r s : Z) : res Z :=
  Ok (ieee_sub mb eb nan (ieee_mul mb eb nan p q) (ieee_mul mb eb nan r s)).
(** osc_expr.c:4288-4321 osc_expr_cross. *)
Definition fn_cross (F : single) (E : env) (argv : list arr) : res (Z * arr) :=
  match argv with
  | [a0; a1] =>
      if negb (alen a0 =? 3) || negb (alen a1 =? 3) then Ok (1, None) else
      do out <- aalloc 3;
      do t <- largest_of argv;
      let run get minus set := cross_case get minus set (items a0) (items a1) out in
      if t =? 99 then run au_int8 (minus_int 32 s8) set_int8
      else if t =? 67 then run au_uint8 (minus_int 32 u8) set_uint8
      else if t =? 117 then run au_int16 (minus_int 32 s16) set_int16
      else if t =? 85 then run au_uint16 (minus_int 32 u16) set_uint16
      else if t =? 105 then run au_int32 (minus_int 32 (fun v => v)) set_int32
      else if t =? 73 then run au_uint32 (minus_word u32) set_uint32
      else if t =? 104 then run au_int64 (minus_int 64 (fun v => v)) set_int64
      else if t =? 72 then run au_uint64 (minus_word u64) set_uint64
      else if t =? 102 then run (au_float (s_float F)) (minus_real 23 8 (s_nan F)) set_float
      else if t =? 100 then run (au_double (e_double E)) (minus_real 52 11 (e_nan E)) set_double
      else Ok (1, out)
  | _ => Ok (1, None)
  end.

(** * Scaling *)

(** osc_expr.c:4757-4797: member [a] into [r]; [line] is what is done with its
    value. *)
Definition scale_one (E : env) (fl : bool) (line : Z -> Z) (read : bool) (a r : atom) : res atom :=
  let type := a_tt a in
  if (type =? 115) || (type =? 84) || (type =? 70) || (type =? 78) || (type =? 98) || (type =? 46)
  then copy_into r (Some a) else
  do val <- (if read then au_double (e_double E) a else Ok 0);
  let val := line val in
  if fl || (type =? 100) || (type =? 102) then Ok (set_double r val)
  else do z <- to_range (- 2^31) (2^31 - 1) (trunc64 val); Ok (set_int32 r z).
(** osc_expr.c:4730-4797 osc_expr_scale. *)
Definition fn_scale (E : env) (argv : list arr) : res (Z * arr) :=
  match argv with
  | [a; a1; a2; a3; a4] =>
      do x1 <- aget a1 0; do x2 <- aget a2 0; do x3 <- aget a3 0; do x4 <- aget a4 0;
      do min_in <- double_at E x1;
      do max_in <- double_at E x2;
      do min_out <- double_at E x3;
      do max_out <- double_at E x4;
      let fl := is_float (tag_at x1) || is_float (tag_at x2) || is_float (tag_at x3) || is_float (tag_at x4) in
      do out <- aalloc (alen a);
      let nan := e_nan E in
      if deq max_out min_out then
        do out <- each (scale_one E fl (fun _ => min_out) false) (items a) 0 out;
        Ok (0, out)
      else
        let m := ddiv nan (dsub nan max_out min_out) (dsub nan max_in min_in) in
        let b := dsub nan min_out (dmul nan m min_in) in
        do out <- each (scale_one E fl (fun val => dadd nan (dmul nan m val) b) true) (items a) 0 out;
        Ok (0, out)
  | _ => Ok (1, None)
  end.
