(** Model of the string functions of the expression language, osc_expr.c.  Arrays
    and strings are taken to have fewer than 2^31 members, so that loop counters
    of type int do not overflow and every index below the length finds its
    member.  Each function gets its arguments [argv]; it returns its code and
    [*out], which is NULL before.  Error reports and memory that is not released
    are not modelled. *)

From Coq Require Import ZArith List Bool.
From Verif Require Import Base Bytes UtilModel SerialModel WireModel AtomSModel FloatModel AtomUModel StrfmtModel
  FArithModel ExprModel ExprListModel StatModel.
Import ListNotations.
Open Scope Z_scope.

(** [osc_atom_u_getString(a, 0, &s)] with [s] NULL before, osc_atom_u.c:760-764:
    without an atom it stays NULL. *)
Definition text_at (E : env) (a : option atom) : res (option (list Z)) :=
  match a with None => Ok None | Some a => do s <- text_of E a; Ok (Some s) end.
(** The same where the string is then handed to strlen or strcmp. *)
Definition text_must (E : env) (a : option atom) : res (list Z) :=
  do s <- text_at E a; match s with Some s => Ok s | None => Ub NullDeref end.

(** osc_expr.c:5017-5030 osc_expr_typetags. *)
Definition fn_typetags (argv : list arr) : res (Z * arr) :=
  match argv with
  | [] => Ok (0, None)
  | a :: _ =>
      do out <- aalloc (alen a);
      do out <- each (fun x r => Ok (set_int8 r (a_tt x))) (items a) 0 out;
      Ok (0, out)
  end.

(** * strcmp, strlen and strchar *)

(** strcmp and strncmp of the C library, which return any int of the right sign. *)
Record libc := Libc {
  c_strcmp : list Z -> list Z -> Z;
  c_strncmp : list Z -> list Z -> Z -> Z }.

(** osc_expr.c:5063-5084 osc_expr_strcmp; the int [n] becomes a size_t. *)
Definition fn_strcmp (E : env) (L : libc) (argv : list arr) : res (Z * arr) :=
  match argv with
  | a0 :: a1 :: more =>
      do x0 <- aget a0 0; do x1 <- aget a1 0;
      do st1 <- text_at E x0; do st2 <- text_at E x1;
      do n <- match more with
              | [a2] => do x2 <- aget a2 0; do n <- int_at x2; Ok (Some n)
              | _ => Ok None
              end;
      match st1, st2 with
      | Some st1, Some st2 =>
          let ret := match n with Some n => c_strncmp L st1 st2 (u64 n) | None => c_strcmp L st1 st2 end in
          do out <- aalloc 1;
          do out <- aput out 0 (fun r => Ok (set_int32 r ret));
          Ok (0, out)
      | _, _ => Ub NullDeref
      end
  | _ => Ok (1, None)
  end.

(** osc_expr.c:5086-5104 osc_expr_strlen. *)
Definition fn_strlen (E : env) (argv : list arr) : res (Z * arr) :=
  match argv with
  | [] => Ok (1, None)
  | a :: _ =>
      do out <- aalloc (alen a);
      do out <- each (fun x r => do s <- text_must E (Some x); Ok (set_int64 r (zlen s))) (items a) 0 out;
      Ok (0, out)
  end.

(** osc_expr.c:5125-5138: the characters at the positions given by [idx]; [None]
    if one is out of range. *)
Fixpoint chars_at (s : list Z) (idx : list atom) : res (option (list Z)) :=
  match idx with
  | [] => Ok (Some [])
  | p :: idx' =>
      do pos <- au_int32 p;
      if (pos >=? 0) && (pos <? zlen s) then
        do c <- rd s pos;
        do r <- chars_at s idx';
        Ok (match r with Some r => Some (c :: r) | None => None end)
      else Ok None
  end.
(** osc_expr.c:5117-5144: [None] if the function returns 1. *)
Fixpoint strchar_loop (E : env) (idx : list atom) (l : list atom) (i : Z) (out : arr) : res (bool * arr) :=
  match l with
  | [] => Ok (true, out)
  | x :: l' =>
      do s <- text_must E (Some x);
      do r <- chars_at s idx;
      match r with
      | None => Ok (false, out)
      | Some buf => do out <- aput out i (fun d => Ok (set_string d 0 buf)); strchar_loop E idx l' (i + 1) out
      end
  end.
(** osc_expr.c:5107-5146 osc_expr_strchar. *)
Definition fn_strchar (E : env) (argv : list arr) : res (Z * arr) :=
  match argv with
  | [a0; a1] =>
      do out <- aalloc (alen a1);
      do ' (ok, out) <- strchar_loop E (items a0) (items a1) 0 out;
      Ok (if ok then 0 else 1, out)
  | _ => Ok (1, None)
  end.

(** * strfind *)

(** Does [s] start with [sub]? *)
Fixpoint starts_with (sub s : list Z) : bool :=
  match sub, s with
  | [], _ => true
  | c :: sub', d :: s' => (c =? d) && starts_with sub' s'
  | _ :: _, [] => false
  end.
(** strstr of the C library, as the offset of the pointer returned. *)
Fixpoint strstr (sub s : list Z) : option Z :=
  if starts_with sub s then Some 0
  else match s with
       | [] => None
       | _ :: s' => match strstr sub s' with Some k => Some (k + 1) | None => None end
       end.
(** osc_array.c:123-141 osc_array_resize. *)
Definition aresize (a : arr) (n : Z) : arr :=
  match a with
  | None => None
  | Some l => Some (firstn (Z.to_nat n) l ++ repeat atom_fresh (Z.to_nat n - length l))
  end.
(** osc_expr.c:5173-5178: [p] is the distance of the pointer from the start of
    the string. *)
Fixpoint find_loop (fuel : nat) (sub s : list Z) (p i : Z) (ar : arr) : res (Z * arr) :=
  match fuel with
  | O => Fuel
  | S f =>
      match strstr sub (skipn (Z.to_nat p) s) with
      | None => Ok (i, ar)
      | Some k =>
          let pos := p + k in
          do ar <- aput ar i (fun r => Ok (set_int64 r pos));
          find_loop f sub s (pos + zlen sub) (i + 1) ar
      end
  end.
(** osc_expr.c:5148-5189 osc_expr_strfind. *)
Definition fn_strfind (E : env) (argv : list arr) : res (Z * arr) :=
  match argv with
  | [a0; a1] =>
      do x1 <- aget a1 0; do s <- text_at E x1;
      do x0 <- aget a0 0; do sub <- text_at E x0;
      match sub, s with
      | Some sub, Some s =>
          if zlen sub =? 0 then Ok (0, None) else
          do ar <- aalloc (zlen s);
          do ' (i, ar) <- find_loop (S (length s)) sub s 0 0 ar;
          Ok (0, aresize ar i)
      | _, _ => Ok (1, None)
      end
  | _ => Ok (1, None)
  end.

(** * split *)

(** strtok_r of the C library: the next token and what is left of the string
    after the separator that ends it. *)
Definition is_sep (sep : list Z) (c : Z) : bool := existsb (Z.eqb c) sep.
Fixpoint skip_seps (sep s : list Z) : list Z :=
  match s with [] => [] | c :: s' => if is_sep sep c then skip_seps sep s' else s end.
Fixpoint take_token (sep s : list Z) : list Z * list Z :=
  match s with
  | [] => ([], [])
  | c :: s' => if is_sep sep c then ([], s') else let (t, r) := take_token sep s' in (c :: t, r)
  end.
Definition strtok (sep s : list Z) : option (list Z * list Z) :=
  match skip_seps sep s with [] => None | s' => Some (take_token sep s') end.

(** osc_expr.c:5219-5228: [s] is what is left of the string, [n] the room. *)
Fixpoint split_loop (fuel : nat) (sep s : list Z) (n i : Z) (ar : arr) : res (Z * arr) :=
  match fuel with
  | O => Fuel
  | S f =>
      match strtok sep s with
      | None => Ok (i, ar)
      | Some (tok, s) =>
          let (n, ar) := if i >=? n then (n + 16, aresize ar (n + 16)) else (n, ar) in
          do ar <- aput ar i (fun r => Ok (set_string r 0 tok));
          split_loop f sep s n (i + 1) ar
      end
  end.
(** osc_expr.c:5206-5211. *)
Fixpoint put_chars (s : list Z) (i : Z) (out : arr) : res arr :=
  match s with
  | [] => Ok out
  | c :: s' => do out <- aput out i (fun r => Ok (set_int8 r (s8 c))); put_chars s' (i + 1) out
  end.
(** osc_expr.c:5192-5237 osc_expr_split. *)
Definition fn_split (E : env) (argv : list arr) : res (Z * arr) :=
  match argv with
  | [a0; a1] =>
      do x1 <- aget a1 0; do s <- text_at E x1;
      do x0 <- aget a0 0; do sep <- text_at E x0;
      match sep, s with
      | Some sep, Some s =>
          if zlen sep =? 0 then
            do out <- aalloc (zlen s);
            do out <- put_chars s 0 out;
            Ok (0, out)
          else
            do ar <- aalloc 16;
            do ' (i, ar) <- split_loop (S (length s)) sep s 16 0 ar;
            Ok (0, aresize ar i)
      | _, _ => Ok (1, None)
      end
  | _ => Ok (1, None)
  end.

(** * join *)

(** osc_expr.c:5262-5270: the text of a member; of a character without its
    quotes. *)
Definition join_text (E : env) (a : atom) : res (list Z) :=
  do ' (b, _) <- au_string (e_text E) (e_junk E) a 0 None;
  do b <- if (a_tt a =? 99) || (a_tt a =? 67) then
            do c <- rd b 1; do b <- write b 0 [c]; write b 1 [0]
          else Ok b;
  rdstr b 0.
Fixpoint join_texts (E : env) (l : list atom) : res (list (list Z)) :=
  match l with [] => Ok [] | a :: l' => do s <- join_text E a; do r <- join_texts E l'; Ok (s :: r) end.
(** osc_expr.c:5255-5274: the size of the buffer, in int. *)
Fixpoint join_len (seplen : Z) (l : list (list Z)) (len : Z) : Z :=
  match l with [] => len | s :: l' => join_len seplen l' (s32 (len + (zlen s + seplen))) end.
(** osc_expr.c:5277-5286: sprintf at [pos] of [buf]. *)
Fixpoint join_print (sep : list Z) (l : list (list Z)) (pos : Z) (buf : bytes) : res bytes :=
  match l with
  | [] => Ok buf
  | s :: l' =>
      let t := match l' with [] => s | _ => s ++ sep end in
      do buf <- write buf pos (t ++ [0]); join_print sep l' (pos + zlen t) buf
  end.
(** osc_expr.c:5239-5293 osc_expr_join.  Without a separator the string literal
    is released at the end, which is undefined.  When there are no members at
    all the buffer of one byte is never written, the result is an uninitialised
    string; it is taken to be undefined.  The int [len] is converted to size_t. *)
Definition fn_join (E : env) (argv : list arr) : res (Z * arr) :=
  match argv with
  | a0 :: ((_ :: _) as more) =>
      do x0 <- aget a0 0; do sep0 <- text_at E x0;
      let sep := match sep0 with Some s => s | None => [] end in
      do texts <- join_texts E (concat (map items more));
      do len <- incr (join_len (zlen sep) texts 0);
      if len <? 0 then Ub NullDeref else
      let buf := firstn (Z.to_nat len) (e_junk E ++ repeat 170 (Z.to_nat len)) in
      match texts with
      | [] => Ub Uninit
      | _ =>
          do buf <- join_print sep texts 0 buf;
          do s <- rdstr buf 0;
          do out <- aalloc 1;
          do out <- aput out 0 (fun r => Ok (set_string r 0 s));
          match sep0 with None => Ub Dangling | Some _ => Ok (0, out) end
      end
  | _ => Ok (1, None)
  end.
