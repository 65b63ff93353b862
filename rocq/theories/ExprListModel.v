(** Model of the list functions of the expression language, osc_expr.c.  Arrays
    are taken to have fewer than 2^31 members, so that loop counters of type int
    do not overflow.  Each function gets its arguments [argv]; it returns its
    code and [*out], which is NULL before.  Error reports are not modelled. *)

From Coq Require Import ZArith List Bool.
From Verif Require Import Base Bytes UtilModel SerialModel WireModel AtomSModel AtomUModel ExprModel.
Import ListNotations.
Open Scope Z_scope.

(** [argv[n]]. *)
Definition argv_at (argv : list arr) (n : nat) : res arr :=
  match nth_error argv n with Some a => Ok a | None => Ub OOB end.

(** Accessors of an atom that may be NULL, osc_atom_u.c:364-368, 656-660. *)
Definition int32_at (a : option atom) : res Z := match a with Some a => au_int32 a | None => Ok 0 end.
Definition int_at (a : option atom) : res Z := match a with Some a => au_int a | None => Ok 0 end.

(** [osc_atom_u_copyInto(&a, osc_atom_array_u_get(src, j))] with [a] member [i]
    of [out]. *)
Definition copy_member (out : arr) (i : Z) (src : arr) (j : Z) : res arr :=
  do x <- aget src j; aput out i (fun d => copy_into d x).

(** osc_atom_array_u.c:194-209 osc_atom_array_u_copy. *)
Definition acopy (a : arr) : res arr :=
  match a with
  | None => Ok None
  | Some l =>
      do cp <- aalloc (zlen l);
      forn (length l) 0 (fun i cp => copy_member cp i a i) cp
  end.

(** osc_atom_array_u.c:211-230 osc_atom_array_u_copyInto; new members are zero
    after osc_array_resize. *)
Definition acopy_into (dest src : arr) (offset : Z) : res arr :=
  match src with
  | None => Ok dest
  | Some s =>
      let destlen := zlen s + offset in
      do d <- match dest with
              | None => aalloc destlen
              | Some l =>
                  Ok (if zlen l <? destlen
                      then Some (l ++ repeat atom_fresh (Z.to_nat (destlen - zlen l))) else dest)
              end;
      forn (length s) 0 (fun i d => copy_member d (i + offset) src i) d
  end.

(** The sum of the lengths of arrays, in int: osc_expr.c:3245-3248, 3674-3677,
    3873-3877. *)
Fixpoint int_lens (acc : Z) (l : list arr) : res Z :=
  match l with [] => Ok acc | a :: l' => do n <- add_int acc (alen a); int_lens n l' end.

(** osc_expr.c:3242-3301 osc_expr_nth: the new contents of a member of [*out]
    for the index [l], [None] if it is out of range.  In the first branch these
    are bytes of a blob, in the second copies of members of the first array. *)
Definition nth_blob (b : bytes) (nbytes l : Z) (dest : atom) : res (option atom) :=
  if l <? 0 then Ok None
  else if l >? nbytes - 1 then Ok None
  else do c <- rd b (4 + l); Ok (Some (set_int8 (set_int8 dest 0) (s8 c))).
Definition nth_member (a : arr) (l : Z) (dest : atom) : res (option atom) :=
  if l <? 0 then Ok None
  else if l >? alen a - 1 then Ok None
  else do x <- aget a l; do y <- copy_into (set_double dest 0) x; Ok (Some y).
Definition nth_look (a0 : arr) : res (Z -> atom -> res (option atom)) :=
  match a0 with
  | Some [Atom tg w p] =>
      if tg =? 98 then
        match p with
        | PBlob b => do n <- rd32 b 0; Ok (nth_blob b (s32 n))
        | _ => Ub NullDeref
        end
      else Ok (nth_member a0)
  | _ => Ok (nth_member a0)
  end.
(** The nested loops over the indexes in the other arrays: [look l dest] is the
    new contents of the next member of [*out], [None] an index out of range. *)
Fixpoint nth_loop (look : Z -> atom -> res (option atom)) (idx : list atom) (k : Z) (out : arr) :
  res (option (Z * arr)) :=
  match idx with
  | [] => Ok (Some (k, out))
  | i :: idx' =>
      do l <- au_int32 i;
      do p <- aget out k;
      do x <- look l (match p with Some a => a | None => atom_fresh end);
      match x with
      | None => Ok None
      | Some x => do out <- aput out k (fun _ => Ok x); nth_loop look idx' (k + 1) out
      end
  end.
Fixpoint nth_outer (look : Z -> atom -> res (option atom)) (args : list arr) (k : Z) (out : arr) :
  res (option (Z * arr)) :=
  match args with
  | [] => Ok (Some (k, out))
  | a :: args' =>
      do r <- nth_loop look (match a with Some l => l | None => [] end) k out;
      match r with
      | None => Ok None
      | Some (k, out) => nth_outer look args' k out
      end
  end.
Definition fn_nth (argv : list arr) : res (Z * arr) :=
  let idx := match argv with [] => [] | _ :: l => l end in
  do argc_out <- int_lens 0 idx;
  do out <- aalloc argc_out;
  do a0 <- argv_at argv 0;
  do look <- nth_look a0;
  do r <- nth_outer look idx 0 out;
  match r with
  | None => Ok (1, None)
  | Some (_, out) => Ok (0, out)
  end.

(** osc_expr.c:3303-3351 osc_expr_assign_to_index. *)
Definition assign_one (out : arr) (outlen : Z) (idx : arr) (i : Z) (data : arr) (j : Z) : res (bool * arr) :=
  do x <- aget idx i;
  do n <- int_at x;
  if (n >=? outlen) || (n <? 0) then Ok (false, out)
  else do out <- copy_member out n data j; Ok (true, out).
Definition fn_assign_to_index (argv : list arr) : res (Z * arr) :=
  match argv with
  | [a0; idx; data] =>
      do out <- acopy a0;
      let outlen := s32 (alen out) in
      let nindexes := s32 (alen idx) in
      let ndata := s32 (alen data) in
      if (nindexes =? 0) || (ndata =? 0) then Ok (1, out)
      else if (nindexes =? 1) && (ndata >? 1) then
        do ' (ok, out) <- assign_one out outlen idx 0 data 0;
        Ok (if ok : bool then 0 else 1, out)
      else if (nindexes >? 1) && (ndata =? 1) then
        do out <- forn (Z.to_nat nindexes) 0
          (fun i out => do ' (_, out) <- assign_one out outlen idx i data 0; Ok out) out;
        Ok (0, out)
      else
        let n := if ndata <? nindexes then ndata else nindexes in
        do out <- forn (Z.to_nat n) 0
          (fun i out => do ' (_, out) <- assign_one out outlen idx i data i; Ok out) out;
        Ok (0, out)
  | _ => Ok (1, None)
  end.

(** osc_expr.c:3669-3680 osc_expr_length. *)
Definition fn_length (argv : list arr) : res (Z * arr) :=
  do out <- aalloc 1;
  do count <- int_lens 0 argv;
  do out <- aput out 0 (fun a => Ok (set_int32 a count));
  Ok (0, out).

(** osc_expr.c:3735-3746 osc_expr_reverse. *)
Definition fn_reverse (argv : list arr) : res (Z * arr) :=
  do a <- argv_at argv 0;
  let len := alen a in
  do out <- aalloc len;
  do out <- forn (Z.to_nat len) 0 (fun i out => copy_member out i a (len - i - 1)) out;
  Ok (0, out).

(** osc_expr.c:3852-3869 osc_expr_nonzero: the indexes are collected first. *)
Fixpoint nonzero_idxs (i : Z) (l : list atom) : list Z :=
  match l with
  | [] => []
  | a :: l' => if au_bool a then i :: nonzero_idxs (i + 1) l' else nonzero_idxs (i + 1) l'
  end.
Definition fn_nonzero (argv : list arr) : res (Z * arr) :=
  do a <- argv_at argv 0;
  let idxs := nonzero_idxs 0 (match a with Some l => l | None => [] end) in
  do out <- aalloc (zlen idxs);
  do out <- forn (length idxs) 0 (fun i out => do n <- rd idxs i; aput out i (fun x => Ok (set_int32 x (s32 n)))) out;
  Ok (0, out).

(** osc_expr.c:3871-3888 osc_expr_list. *)
Fixpoint list_loop (argv : list arr) (pos : Z) (out : arr) : res arr :=
  match argv with
  | [] => Ok out
  | a :: argv' => do out <- acopy_into out a pos; do pos <- add_int pos (alen a); list_loop argv' pos out
  end.
Definition fn_list (argv : list arr) : res (Z * arr) :=
  do outlen <- int_lens 0 argv;
  if outlen <=? 0 then Ok (0, None) else
  do out <- aalloc outlen;
  do out <- list_loop argv 0 out;
  Ok (0, out).

(** osc_expr.c:3890-3929 osc_expr_nfill. *)
Definition fn_nfill (argv : list arr) : res (Z * arr) :=
  match argv with
  | a0 :: a1 :: _ =>
      do x <- aget a0 0;
      do n <- int_at x;
      let n := if n <? 0 then 0 else n in
      let outlen := s32 (n * alen a1) in
      do out <- aalloc outlen;
      do ' (_, out) <- forn (Z.to_nat n) 0
        (fun _ st => let '(j, out) := st in
           do out <- acopy_into out a1 j; do j <- add_int j (alen a1); Ok (j, out)) (0, out);
      Ok (0, out)
  | _ => Ok (1, None)
  end.

(** osc_expr.c:4002-4012 osc_expr_first, 4014-4025 osc_expr_last. *)
Definition fn_first (argv : list arr) : res (Z * arr) :=
  match argv with
  | [] => Ok (0, None)
  | a :: _ =>
      if alen a =? 0 then Ok (0, None) else
      do out <- aalloc 1; do out <- copy_member out 0 a 0; Ok (0, out)
  end.
Definition fn_last (argv : list arr) : res (Z * arr) :=
  match argv with
  | [] => Ok (0, None)
  | a :: _ =>
      let len := s32 (alen a) in
      if len =? 0 then Ok (0, None) else
      do out <- aalloc 1; do out <- copy_member out 0 a (len - 1); Ok (0, out)
  end.

(** osc_expr.c:4027-4041 osc_expr_rest, 4043-4057 osc_expr_butlast. *)
Definition fn_rest (argv : list arr) : res (Z * arr) :=
  match argv with
  | [] => Ok (0, None)
  | a :: _ =>
      let len := s32 (alen a) in
      if len =? 0 then Ok (0, None) else
      do out <- aalloc (len - 1);
      do out <- forn (Z.to_nat (len - 1)) 1 (fun i out => copy_member out (i - 1) a i) out;
      Ok (0, out)
  end.
Definition fn_butlast (argv : list arr) : res (Z * arr) :=
  match argv with
  | [] => Ok (0, None)
  | a :: _ =>
      let len := s32 (alen a) in
      if len =? 0 then Ok (0, None) else
      do out <- aalloc (len - 1);
      do out <- forn (Z.to_nat (len - 1)) 0 (fun i out => copy_member out i a i) out;
      Ok (0, out)
  end.

(** osc_expr.c:4059-4078 osc_expr_interleave. *)
Fixpoint min_len (min : Z) (l : list arr) : Z :=
  match l with
  | [] => min
  | a :: l' => let val := s32 (alen a) in min_len (if val <? min then val else min) l'
  end.
Fixpoint interleave_loop (argc min : Z) (args : list arr) (i : Z) (out : arr) : res arr :=
  match args with
  | [] => Ok out
  | a :: args' =>
      do out <- forn (Z.to_nat min) 0 (fun j out => copy_member out (i + j * argc) a j) out;
      interleave_loop argc min args' (i + 1) out
  end.
Definition fn_interleave (argv : list arr) : res (Z * arr) :=
  do a0 <- argv_at argv 0;
  let argc := zlen argv in
  let min := min_len (s32 (alen a0)) (match argv with [] => [] | _ :: l => l end) in
  do n <- checked 32 (argc * min);
  do out <- aalloc n;
  do out <- interleave_loop argc min argv 0 out;
  Ok (0, out).

(** osc_expr.c:4080-4118 osc_expr_not. *)
Definition not_one (E : env) (a : atom) (r : atom) : res atom :=
  let t := a_tt a in
  if (t =? 105) || (t =? 73) || (t =? 104) || (t =? 72) then
    do v <- au_int32 a; Ok (set_int32 r (if v =? 0 then 1 else 0))
  else if (t =? 102) || (t =? 100) then
    do d <- au_double (e_double E) a; Ok (set_int32 r (if d mod 2^63 =? 0 then 1 else 0))
  else if (t =? 115) || (t =? 98) || (t =? 46) then copy_atom a
  else if t =? 84 then Ok (set_false r)
  else if (t =? 70) || (t =? 78) then Ok (set_true r)
  else Ok (set_false r).
Definition fn_not (E : env) (argv : list arr) : res (Z * arr) :=
  do a <- argv_at argv 0;
  do out <- aalloc (alen a);
  do out <- forn (Z.to_nat (alen a)) 0
    (fun i out => do x <- aget a i;
                  match x with Some x => aput out i (fun r => not_one E x r) | None => Ub NullDeref end) out;
  Ok (0, out).
