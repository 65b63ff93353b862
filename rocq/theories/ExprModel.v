(** Model of the operators of the expression language, osc_expr.c. *)

From Coq Require Import ZArith List Bool.
From Verif Require Import Base Bytes UtilModel TimetagModel TypetagModel SerialModel WireModel
  AtomSModel FloatModel AtomUModel StrfmtModel FArithModel.
Import ListNotations.
Open Scope Z_scope.

(** What the operators get from outside the model: strtod and the conversion of
    a time tag atom to a double, the text of floats and time tags, the contents
    of fresh memory, the NaN the platform delivers, and
    osc_timetag_floatToTimetag and osc_timetag_timetagToFloat (osc_timetag.c:552-568). *)
Record env := Env {
  e_double : atom -> Z;
  e_text : atom -> list Z;
  e_junk : bytes;
  e_nan : Z -> Z -> Z;
  e_to_tt : Z -> timetag;
  e_of_tt : timetag -> Z }.

(** * Copying atoms *)

(** osc_atom_u.c:73-109 osc_atom_u_copyInto, the value the destination gets.
    The address of the copy of a string, blob or bundle is not modelled, it is
    that of the original.  A bundle is serialized and deserialized
    (osc_bundle_u.c:83-89), in fresh memory whose contents do not matter
    (C12_bundle_encoding) and are zero here; a NULL bundle counts as empty.
    Of a blob the size field and the data are copied, the rest of the new block
    is uninitialised and not part of the model; a negative size is taken to be an
    access outside the blob. *)
Definition copy_bundle (ms : list umsg) : res (list umsg) :=
  do n <- bundle_size ms;
  do b <- bundle_serialize (repeat 0 (Z.to_nat n)) ms;
  bundle_deserialize b 0 (zlen b).
Definition copy_atom (a : atom) : res atom :=
  match a with
  | Atom tg w p =>
      if tg =? 115 then match p with PStr s => Ok (Atom tg w (PStr s)) | _ => Ub NullDeref end
      else if tg =? 46 then
        do ms <- copy_bundle (match p with PBndl ms => ms | _ => [] end); Ok (Atom tg w (PBndl ms))
      else if tg =? 98 then
        match p with
        | PBlob b =>
            do n <- rd32 b 0;
            if s32 n <? 0 then Ub OOB else
            do d <- slice b 0 (s32 n + 4); Ok (Atom tg w (PBlob d))
        | _ => Ub NullDeref
        end
      else Ok (Atom tg w p)
  end.
(** From a possibly NULL source into an existing atom. *)
Definition copy_into (dest : atom) (src : option atom) : res atom :=
  match src with None => Ok dest | Some a => copy_atom a end.

(** * Type tags, osc_typetag.h:51-55 *)
Definition is_float (t : Z) : bool := (t =? 102) || (t =? 100).
Definition is_string (t : Z) : bool := t =? 115.
Definition is_numeric (t : Z) : bool :=
  is_float t || ((t =? 84) || (t =? 70)) ||
  ((t =? 105) || (t =? 73) || (t =? 104) || (t =? 72) || (t =? 117) || (t =? 85) || (t =? 99) || (t =? 67)).

(** osc_atom_u.c:706-716 osc_atom_u_getStringPtr where the caller dereferences
    the result. *)
Definition string_of (a : atom) : res (list Z) :=
  match a with Atom tg _ (PStr s) => if tg =? 115 then Ok s else Ub NullDeref | _ => Ub NullDeref end.
(** osc_atom_u.c:878-888 osc_atom_u_getTimetag. *)
Definition au_timetag (a : atom) : timetag :=
  match a with Atom tg w _ => if tg =? 116 then TT (w mod 2^32) (w / 2^32 mod 2^32) else tt_null end.
(** osc_atom_u.c:1145-1156 osc_atom_u_setBool. *)
Definition set_bool (a : atom) (b : bool) : atom := if b then set_true a else set_false a.

(** * Infix operators: the code returned and the result atom. *)
Definition binop := env -> option atom -> option atom -> atom -> res (Z * atom).

(** An int or int64 result, undefined if not representable. *)
Definition checked (n v : Z) : res Z :=
  if (- 2^(n - 1) <=? v) && (v <? 2^(n - 1)) then Ok v else Ub Overflow.

(** The switch of osc_expr.c:2382-2407 and 2484-2509 for the operation [op]:
    operands of 8 and 16 bits are promoted to int, the result is converted to
    the type of the setter's parameter. *)
Definition int_switch (op : Z -> Z -> Z) (t : Z) (f1 f2 r : atom) : res atom :=
  if t =? 105 then
    do a <- au_int32 f1; do b <- au_int32 f2; do v <- checked 32 (op a b); Ok (set_int32 r v)
  else if t =? 73 then
    do a <- au_uint32 f1; do b <- au_uint32 f2; Ok (set_uint32 r (u32 (op a b)))
  else if t =? 104 then
    do a <- au_int64 f1; do b <- au_int64 f2; do v <- checked 64 (op a b); Ok (set_int64 r v)
  else if t =? 72 then
    do a <- au_uint64 f1; do b <- au_uint64 f2; Ok (set_uint64 r (u64 (op a b)))
  else if t =? 117 then
    do a <- au_int16 f1; do b <- au_int16 f2; do v <- checked 32 (op a b); Ok (set_int16 r (s16 v))
  else if t =? 85 then
    do a <- au_uint16 f1; do b <- au_uint16 f2; do v <- checked 32 (op a b); Ok (set_uint16 r (u16 v))
  else if t =? 99 then
    do a <- au_int8 f1; do b <- au_int8 f2; do v <- checked 32 (op a b); Ok (set_int8 r (s8 v))
  else if t =? 67 then
    do a <- au_uint8 f1; do b <- au_uint8 f2; do v <- checked 32 (op a b); Ok (set_uint8 r (u8 v))
  else Ok r.

(** osc_expr.c:2381 and elsewhere: the larger of two type tags. *)
Definition larger_tag (t1 t2 : Z) : res Z :=
  do c <- typetag_compare t1 t2; Ok (if c >? 0 then t1 else t2).

(** [osc_atom_u_getString(f, 0, &sp)] and then [sp] read as a string. *)
Definition text_of (E : env) (f : atom) : res (list Z) :=
  do ' (b, _) <- au_string (e_text E) (e_junk E) f 0 None; rdstr b 0.

(** The two time tags of osc_expr.c:2364-2376, 2439-2456 and 2647-2658: [None] is
    the last case of the chain. *)
Definition two_timetags (E : env) (f1 f2 : atom) : res (option (timetag * timetag)) :=
  let t1 := a_tt f1 in let t2 := a_tt f2 in
  if (t1 =? 116) && (t2 =? 116) then Ok (Some (au_timetag f1, au_timetag f2))
  else if (t1 =? 116) && is_numeric t2 then
    do d <- au_double (e_double E) f2; Ok (Some (au_timetag f1, e_to_tt E d))
  else if (t2 =? 116) && is_numeric t1 then
    do d <- au_double (e_double E) f1; Ok (Some (e_to_tt E d, au_timetag f2))
  else Ok None.

(** Double operands and the operation on them. *)
Definition on_doubles {A} (E : env) (f1 f2 : atom) (g : Z -> Z -> A) : res A :=
  do a <- au_double (e_double E) f1; do b <- au_double (e_double E) f2; Ok (g a b).

(** osc_expr.c:2323-2418 osc_expr_add.  The addresses of strings made are not
    modelled. *)
Definition op_add : binop := fun E f1 f2 r =>
  match f1, f2 with
  | None, _ => do r <- copy_into r f2; Ok (0, r)
  | Some f1, None => do r <- copy_into r (Some f1); Ok (0, r)
  | Some f1, Some f2 =>
      let t1 := a_tt f1 in let t2 := a_tt f2 in
      if (t1 =? 115) && (t2 =? 115) then
        do s1 <- string_of f1; do s2 <- string_of f2; Ok (0, set_string r 0 (s1 ++ s2))
      else if (t1 =? 115) && is_numeric t2 then
        do s1 <- string_of f1; do s2 <- text_of E f2; Ok (0, set_string r 0 (s1 ++ s2))
      else if (t2 =? 115) && is_numeric t1 then
        do s2 <- string_of f2; do s1 <- text_of E f1; Ok (0, set_string r 0 (s1 ++ s2))
      else if (t1 =? 116) || (t2 =? 116) then
        do o <- two_timetags E f1 f2;
        match o with
        | Some (a, b) => Ok (0, set_timetag r (tt_add a b))
        | None => Ok (1, r)
        end
      else if is_numeric t1 && is_numeric t2 then
        if is_float t1 || is_float t2 then
          do d <- on_doubles E f1 f2 (dadd (e_nan E)); Ok (0, set_double r d)
        else
          do t <- larger_tag t1 t2; do r <- int_switch Z.add t f1 f2 r; Ok (0, r)
      else Ok (1, r)
  end.

(** osc_expr.c:2420-2465 osc_expr_subtract. *)
Definition op_subtract : binop := fun E f1 f2 r =>
  match f1, f2 with
  | None, _ => do r <- copy_into r f2; Ok (0, r)
  | Some f1, None => do r <- copy_into r (Some f1); Ok (0, r)
  | Some f1, Some f2 =>
      let t1 := a_tt f1 in let t2 := a_tt f2 in
      if is_numeric t1 && is_numeric t2 then
        if is_float t1 || is_float t2 then
          do d <- on_doubles E f1 f2 (dsub (e_nan E)); Ok (0, set_double r d)
        else
          do a <- au_int32 f1; do b <- au_int32 f2; do v <- checked 32 (a - b); Ok (0, set_int32 r v)
      else if (t1 =? 116) || (t2 =? 116) then
        do o <- two_timetags E f1 f2;
        match o with
        | Some (a, b) =>
            if (t1 =? 116) && (t2 =? 116) then Ok (0, set_double r (e_of_tt E (tt_sub a b)))
            else Ok (0, set_timetag r (tt_sub a b))
        | None => Ok (1, r)
        end
      else Ok (1, r)
  end.

(** osc_expr.c:2467-2520 osc_expr_multiply. *)
Definition op_multiply : binop := fun E f1 f2 r =>
  match f1, f2 with
  | None, _ => do r <- copy_into r f2; Ok (0, r)
  | Some f1, None => do r <- copy_into r (Some f1); Ok (0, r)
  | Some f1, Some f2 =>
      let t1 := a_tt f1 in let t2 := a_tt f2 in
      if is_numeric t1 && is_numeric t2 then
        if is_float t1 || is_float t2 then
          do d <- on_doubles E f1 f2 (dmul (e_nan E)); Ok (0, set_double r d)
        else
          do t <- larger_tag t1 t2; do r <- int_switch Z.mul t f1 f2 r; Ok (0, r)
      else Ok (1, r)
  end.

(** The string stored for a division by zero. *)
Definition inf_text : list Z := [73; 110; 102].

(** One case of the switch of osc_expr.c:2549-2630: the divisor is read first;
    [fin] converts the quotient of the promoted operands. *)
Definition div_case (get : atom -> res Z) (fin : Z -> res Z) (set : atom -> Z -> atom) (f1 f2 r : atom) : res atom :=
  do b <- get f2;
  if b =? 0 then Ok (set_string r 0 inf_text)
  else do a <- get f1; do v <- fin (Z.quot a b); Ok (set r v).

(** osc_expr.c:2522-2641 osc_expr_divide; 'C' is divided as int8 (2620-2629). *)
Definition op_divide : binop := fun E f1 f2 r =>
  match f1, f2 with
  | None, _ => do r <- copy_into r f2; Ok (0, r)
  | Some f1, None => do r <- copy_into r (Some f1); Ok (0, r)
  | Some f1, Some f2 =>
      let t1 := a_tt f1 in let t2 := a_tt f2 in
      if is_numeric t1 && is_numeric t2 then
        if is_float t1 || is_float t2 then
          do d2 <- au_double (e_double E) f2;
          if deq d2 0 then Ok (0, set_string r 0 inf_text)
          else do d1 <- au_double (e_double E) f1; Ok (0, set_double r (ddiv (e_nan E) d1 d2))
        else
          do t <- larger_tag t1 t2;
          do r <-
            (if t =? 105 then div_case au_int32 (checked 32) set_int32 f1 f2 r
             else if t =? 73 then div_case au_uint32 Ok set_uint32 f1 f2 r
             else if t =? 104 then div_case au_int64 (checked 64) set_int64 f1 f2 r
             else if t =? 72 then div_case au_uint64 Ok set_uint64 f1 f2 r
             else if t =? 117 then div_case au_int16 (fun v => Ok (s16 v)) set_int16 f1 f2 r
             else if t =? 85 then div_case au_uint16 (fun v => Ok (u16 v)) set_uint16 f1 f2 r
             else if t =? 99 then div_case au_int8 (fun v => Ok (s8 v)) set_int8 f1 f2 r
             else if t =? 67 then div_case au_int8 (fun v => Ok (s8 v)) set_int8 f1 f2 r
             else Ok r);
          Ok (0, r)
      else Ok (1, r)
  end.

(** strcmp: characters are compared as unsigned char. *)
Fixpoint strcmp (s1 s2 : list Z) : comparison :=
  match s1, s2 with
  | [], [] => Eq
  | [], _ :: _ => Lt
  | _ :: _, [] => Gt
  | c1 :: s1', c2 :: s2' => match u8 c1 ?= u8 c2 with Eq => strcmp s1' s2' | c => c end
  end.

(** osc_expr.c:2643-2660 osc_expr_compareTimetag. *)
Definition compare_timetag (E : env) (f1 f2 : atom) : res Z :=
  do o <- two_timetags E f1 f2;
  match o with Some (a, b) => Ok (tt_compare a b) | None => Ok 0 end.

Definition tt_or_numeric (t : Z) : bool := (t =? 116) || is_numeric t.

(** osc_expr.c:2662-2780 osc_expr_lt, le, gt, gte: these differ in the tests made
    on the result of strcmp, of the comparison of doubles and of time tags, and
    in what a string compares to a number. *)
Definition op_order (onstr : comparison -> bool) (str_num : bool) (ondbl : Z -> Z -> bool) (ontt : Z -> bool) : binop :=
  fun E f1 f2 r =>
  match f1, f2 with
  | Some f1, Some f2 =>
      let t1 := a_tt f1 in let t2 := a_tt f2 in
      if (t1 =? 115) && (t2 =? 115) then
        do s1 <- string_of f1; do s2 <- string_of f2; Ok (0, set_bool r (onstr (strcmp s1 s2)))
      else if (t1 =? 115) && is_numeric t2 then Ok (0, set_bool r str_num)
      else if (t2 =? 115) && is_numeric t1 then Ok (0, set_bool r (negb str_num))
      else if is_numeric t1 && is_numeric t2 then
        do b <- on_doubles E f1 f2 ondbl; Ok (0, set_bool r b)
      else if tt_or_numeric t1 && tt_or_numeric t2 then
        do c <- compare_timetag E f1 f2; Ok (0, set_bool r (ontt c))
      else Ok (1, r)
  | _, _ => Ok (0, set_false r)
  end.
Definition op_lt : binop :=
  op_order (fun c => match c with Lt => true | _ => false end) false dlt (fun c => c =? -1).
Definition op_le : binop :=
  op_order (fun c => match c with Gt => false | _ => true end) false dle (fun c => negb (c =? 1)).
Definition op_gt : binop :=
  op_order (fun c => match c with Gt => true | _ => false end) true dgt (fun c => c =? 1).
Definition op_gte : binop :=
  op_order (fun c => match c with Lt => false | _ => true end) true dge (fun c => negb (c =? -1)).

(** osc_expr.c:2803-2818, 2846-2861: two bundles are compared by their
    serialized form. *)
Definition serialized (ms : list umsg) : res bytes :=
  do n <- bundle_size ms; bundle_serialize (repeat 0 (Z.to_nat n)) ms.
Definition bundle_of (a : atom) : list umsg := match a with Atom _ _ (PBndl ms) => ms | _ => [] end.
Definition same_bundle (f1 f2 : atom) : res bool :=
  do b1 <- serialized (bundle_of f1); do b2 <- serialized (bundle_of f2);
  Ok (if list_eq_dec Z.eq_dec b1 b2 then true else false).

(** osc_expr.c:2782-2827 osc_expr_eq. *)
Definition op_eq : binop := fun E f1 f2 r =>
  match f1, f2 with
  | Some f1, Some f2 =>
      let t1 := a_tt f1 in let t2 := a_tt f2 in
      if (t1 =? 115) && (t2 =? 115) then
        do s1 <- string_of f1; do s2 <- string_of f2;
        Ok (0, set_bool r (match strcmp s1 s2 with Eq => true | _ => false end))
      else if is_numeric t1 && is_numeric t2 then
        do b <- on_doubles E f1 f2 deq; Ok (0, set_bool r b)
      else if tt_or_numeric t1 && tt_or_numeric t2 then
        do c <- compare_timetag E f1 f2; Ok (0, set_bool r (c =? 0))
      else if (t1 =? 78) && (t2 =? 78) then Ok (0, set_bool r true)
      else if (t1 =? 78) || (t2 =? 78) then Ok (0, set_bool r false)
      else if (t1 =? 46) && (t2 =? 46) then do b <- same_bundle f1 f2; Ok (0, set_bool r b)
      else Ok (1, r)
  | _, _ => Ok (0, set_false r)
  end.

(** osc_expr.c:2829-2870 osc_expr_neq: no case for 'N'. *)
Definition op_neq : binop := fun E f1 f2 r =>
  match f1, f2 with
  | Some f1, Some f2 =>
      let t1 := a_tt f1 in let t2 := a_tt f2 in
      if (t1 =? 115) && (t2 =? 115) then
        do s1 <- string_of f1; do s2 <- string_of f2;
        Ok (0, set_bool r (match strcmp s1 s2 with Eq => false | _ => true end))
      else if is_numeric t1 && is_numeric t2 then
        do b <- on_doubles E f1 f2 deq; Ok (0, set_bool r (negb b))
      else if tt_or_numeric t1 && tt_or_numeric t2 then
        do c <- compare_timetag E f1 f2; Ok (0, set_bool r (negb (c =? 0)))
      else if (t1 =? 46) && (t2 =? 46) then do b <- same_bundle f1 f2; Ok (0, set_bool r (negb b))
      else Ok (1, r)
  | _, _ => Ok (0, set_false r)
  end.

(** osc_expr.c:2872-2894 osc_expr_and, osc_expr_or. *)
Definition op_and : binop := fun _ f1 f2 r =>
  match f1, f2 with
  | Some f1, Some f2 => Ok (0, set_bool r (au_bool f1 && au_bool f2))
  | _, _ => Ok (0, set_false r)
  end.
Definition op_or : binop := fun _ f1 f2 r =>
  let b1 := match f1 with Some f => au_bool f | None => false end in
  let b2 := match f2 with Some f => au_bool f | None => false end in
  Ok (0, set_bool r (b1 || b2)).

(** * Arrays of atoms *)

(** osc_atom_array_u.c over osc_array.c (ArrayModel.v): the members, [None] is a
    NULL array.  Memory is cleared on allocation, so new members are
    [atom_fresh]. *)
Definition arr := option (list atom).
Definition alen (a : arr) : Z := match a with Some l => zlen l | None => 0 end.
(** osc_array.c:71-79 osc_array_get: [None] for NULL; a negative index is not
    checked. *)
Definition aget (a : arr) (i : Z) : res (option atom) :=
  match a with
  | None => Ok None
  | Some l => if zlen l <=? i then Ok None else if i <? 0 then Ub OOB else Ok (nth_error l (Z.to_nat i))
  end.
(** osc_array.c:36-54: a negative size cannot be allocated, clearing the NULL
    block is undefined. *)
Definition aalloc (n : Z) : res arr :=
  if n <? 0 then Ub NullDeref else Ok (Some (repeat atom_fresh (Z.to_nat n))).
Fixpoint set_nth (l : list atom) (n : nat) (a : atom) : list atom :=
  match l, n with
  | [], _ => []
  | _ :: l', O => a :: l'
  | x :: l', S n' => x :: set_nth l' n' a
  end.
(** Writing through the pointer to member [i]: [f] is what is done with the
    atom; setters ignore a NULL pointer, and osc_atom_u_copyInto then makes a
    new atom outside the array. *)
Definition aput (a : arr) (i : Z) (f : atom -> res atom) : res arr :=
  match a with
  | None => Ok None
  | Some l =>
      if zlen l <=? i then do _ <- f atom_fresh; Ok (Some l)
      else if i <? 0 then Ub OOB
      else match nth_error l (Z.to_nat i) with
           | Some x => do y <- f x; Ok (Some (set_nth l (Z.to_nat i) y))
           | None => Ub OOB
           end
  end.

(** [for(i = start; ...; i++)] with [k] turns. *)
Fixpoint forn {S} (k : nat) (i : Z) (f : Z -> S -> res S) (s : S) : res S :=
  match k with O => Ok s | Datatypes.S k' => do s' <- f i s; forn k' (i + 1) f s' end.

(** * osc_expr_2arg *)

(** osc_expr.c:2287-2293 and the two loops like it: [k] turns from index [i],
    stopping at the first operator that returns a code other than 0. *)
Fixpoint zip_loop (E : env) (op : binop) (k : nat) (i : Z) (g1 g2 : Z -> res (option atom)) (out : arr) :
  res (Z * arr) :=
  match k with
  | O => Ok (0, out)
  | S k' =>
      do p <- aget out i;
      match p with
      | None => Ub NullDeref  (* the operators write through the pointer *)
      | Some a =>
          do f1 <- g1 i; do f2 <- g2 i;
          do ' (ret, a) <- op E f1 f2 a;
          do out <- aput out i (fun _ => Ok a);
          if negb (ret =? 0) then Ok (ret, out) else zip_loop E op k' (i + 1) g1 g2 out
      end
  end.

(** osc_expr.c:2261-2321 osc_expr_2arg on the arguments [argv]: the code
    returned and [*out], which is NULL before. *)
Definition two_arg (E : env) (op : binop) (argv : list arr) : res (Z * arr) :=
  match argv with
  | [a0; a1] =>
      let argc0 := u32 (alen a0) in
      let argc1 := u32 (alen a1) in
      let min_argc := if argc0 >? argc1 then argc1 else argc0 in
      let max_argc := if argc0 >? argc1 then argc0 else argc1 in
      if argc0 =? 1 then
        do out <- aalloc max_argc;
        zip_loop E op (Z.to_nat max_argc) 0 (fun _ => aget a0 0) (fun i => aget a1 i) out
      else if argc1 =? 1 then
        do out <- aalloc max_argc;
        zip_loop E op (Z.to_nat max_argc) 0 (fun i => aget a0 i) (fun _ => aget a1 0) out
      else
        do out <- aalloc min_argc;
        zip_loop E op (Z.to_nat min_argc) 0 (fun i => aget a0 i) (fun i => aget a1 i) out
  | _ => Ok (1, None)
  end.
