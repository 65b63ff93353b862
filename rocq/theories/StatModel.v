(** Model of the numeric and statistical functions of the expression language,
    osc_expr.c.  Arrays are taken to have fewer than 2^31 members, so that loop
    counters of type int do not overflow and every index below the length finds
    its member: loops over an array are recursions over its members.  Each
    function gets its arguments [argv]; it returns its code and [*out], which is
    NULL before.  Error reports are not modelled. *)

From Coq Require Import ZArith List Bool.
From Verif Require Import Base Bytes UtilModel SerialModel WireModel AtomSModel FloatModel AtomUModel FArithModel
  ExprModel ExprListModel.
Import ListNotations.
Open Scope Z_scope.

Definition items (a : arr) : list atom := match a with Some l => l | None => [] end.
(** [osc_atom_u_getDouble] and [osc_atom_u_getTypetag] of a pointer that may be
    NULL, osc_atom_u.c:213-216, 154-160. *)
Definition double_at (E : env) (a : option atom) : res Z :=
  match a with Some a => au_double (e_double E) a | None => Ok 0 end.
Definition tag_at (a : option atom) : Z := match a with Some a => a_tt a | None => 0 end.
(** The constants DBL_MAX and -DBL_MAX. *)
Definition dbl_max : Z := 2046 * 2^52 + (2^52 - 1).
Definition neg_dbl_max : Z := 2^63 + dbl_max.

(** * Sums and products *)

(** The loops [val = val op osc_atom_u_getDouble(...)]: osc_expr.c:3360-3371,
    3397-3412, 3688-3690. *)
Fixpoint gather (E : env) (op : Z -> Z -> Z) (l : list atom) (val : Z) : res Z :=
  match l with
  | [] => Ok val
  | a :: l' => do d <- au_double (e_double E) a; gather E op l' (op val d)
  end.

(** osc_expr.c:3375-3385, 3416-3426: the double [val] is compared with the
    bounds, which are converted to double, and converted to the type of the
    setter; a value out of its range is undefined. *)
Definition set_smallest (r : atom) (val : Z) : res atom :=
  if dle val (double_of_int 2147483647) then
    do z <- to_range (- 2^31) (2^31 - 1) (trunc64 val); Ok (set_int32 r z)
  else if dle val (double_of_int 4294967295) then
    do z <- to_range 0 (2^32 - 1) (trunc64 val); Ok (set_uint32 r z)
  else if dle val (double_of_int 9223372036854775807) then
    do z <- to_range (- 2^63) (2^63 - 1) (trunc64 val); Ok (set_int64 r z)
  else if dle val (double_of_int 18446744073709551615) then
    do z <- to_range 0 (2^64 - 1) (trunc64 val); Ok (set_uint64 r z)
  else Ok (set_double r val).

(** osc_expr.c:3353-3388 osc_expr_product; [doubleup] is never set there. *)
Definition fn_product (E : env) (argv : list arr) : res (Z * arr) :=
  do out <- aalloc 1;
  do val <- gather E (dmul (e_nan E)) (concat (map items argv)) (double_of_int 1);
  do out <- aput out 0 (fun r => set_smallest r val);
  Ok (0, out).

(** osc_expr.c:3390-3429 osc_expr_sum. *)
Definition fn_sum (E : env) (argv : list arr) : res (Z * arr) :=
  do out <- aalloc 1;
  let l := concat (map items argv) in
  do val <- gather E (dadd (e_nan E)) l 0;
  do out <- aput out 0 (fun r => if existsb (fun a => is_float (a_tt a)) l then Ok (set_double r val)
                                 else set_smallest r val);
  Ok (0, out).

(** osc_expr.c:3682-3694 osc_expr_mean. *)
Definition fn_mean (E : env) (argv : list arr) : res (Z * arr) :=
  do out <- aalloc 1;
  do a <- argv_at argv 0;
  do sum <- gather E (dadd (e_nan E)) (items a) 0;
  do out <- aput out 0 (fun r => Ok (set_double r (ddiv (e_nan E) sum (double_of_int (alen a)))));
  Ok (0, out).

(** osc_expr.c:4131-4141: the loop runs to the shorter length. *)
Fixpoint dot_loop (E : env) (l0 l1 : list atom) (s : Z) : res Z :=
  match l0, l1 with
  | a :: l0', b :: l1' =>
      do f1 <- au_double (e_double E) a;
      do f2 <- au_double (e_double E) b;
      dot_loop E l0' l1' (dadd (e_nan E) s (dmul (e_nan E) f1 f2))
  | _, _ => Ok s
  end.
(** osc_expr.c:4120-4144 osc_expr_dot; a fused multiply-add, which C allows the
    compiler to use for [s += f1 * f2], is not modelled. *)
Definition fn_dot (E : env) (argv : list arr) : res (Z * arr) :=
  match argv with
  | a0 :: a1 :: _ =>
      do out <- aalloc 1;
      do s <- dot_loop E (items a0) (items a1) 0;
      do out <- aput out 0 (fun r => Ok (set_double r s));
      Ok (0, out)
  | _ => Ok (0, None)
  end.

(** * Extremes *)

(** osc_expr.c:4589-4595, 4610-4616: [better] is the test made. *)
Fixpoint pick (E : env) (better : Z -> Z -> bool) (l : list atom) (m : Z) (best : option atom) : res (option atom) :=
  match l with
  | [] => Ok best
  | a :: l' =>
      do f <- au_double (e_double E) a;
      if better f m then pick E better l' f (Some a) else pick E better l' m best
  end.

(** osc_expr.c:4580-4599 osc_expr_min. *)
Definition fn_min (E : env) (argv : list arr) : res (Z * arr) :=
  match argv with
  | [] => Ok (0, None)
  | a :: _ =>
      do out <- aalloc 1;
      do best <- pick E dle (items a) dbl_max None;
      do out <- aput out 0 (fun o => copy_into o best);
      Ok (0, out)
  end.
(** osc_expr.c:4601-4620 osc_expr_max. *)
Definition fn_max (E : env) (argv : list arr) : res (Z * arr) :=
  match argv with
  | [] => Ok (0, None)
  | a :: _ =>
      do out <- aalloc 1;
      do best <- pick E dge (items a) neg_dbl_max None;
      do out <- aput out 0 (fun o => copy_into o best);
      Ok (0, out)
  end.

(** osc_expr.c:4631-4641, 4660-4672: both at once; the state is [min], the member
    that set it, [max] and the member that set it. *)
Fixpoint pick2 (E : env) (l : list atom) (s : Z * option atom * Z * option atom) : res (Z * option atom * Z * option atom) :=
  match l with
  | [] => Ok s
  | a :: l' =>
      do f <- au_double (e_double E) a;
      let '(min, amin, max, amax) := s in
      let '(min, amin) := if dle f min then (f, Some a) else (min, amin) in
      let '(max, amax) := if dge f max then (f, Some a) else (max, amax) in
      pick2 E l' (min, amin, max, amax)
  end.
(** osc_expr.c:4622-4647 osc_expr_extrema. *)
Definition fn_extrema (E : env) (argv : list arr) : res (Z * arr) :=
  match argv with
  | [] => Ok (0, None)
  | a :: _ =>
      do out <- aalloc 2;
      do ' (_, amin, _, amax) <- pick2 E (items a) (dbl_max, None, neg_dbl_max, None);
      do out <- aput out 0 (fun o => copy_into o amin);
      do out <- aput out 1 (fun o => copy_into o amax);
      Ok (0, out)
  end.
(** osc_expr.c:4649-4680 osc_expr_range: the type tags kept are those of the
    members, 'i' before there is one. *)
Definition tag_or_i (a : option atom) : Z := match a with Some a => a_tt a | None => 105 end.
Definition fn_range (E : env) (argv : list arr) : res (Z * arr) :=
  match argv with
  | [] => Ok (0, None)
  | a :: _ =>
      do out <- aalloc 1;
      do ' (min, amin, max, amax) <- pick2 E (items a) (dbl_max, None, neg_dbl_max, None);
      let d := dsub (e_nan E) max min in
      do out <- aput out 0 (fun r =>
        if is_float (tag_or_i amin) || is_float (tag_or_i amax) then Ok (set_double r d)
        else do z <- to_range (- 2^31) (2^31 - 1) (trunc64 d); Ok (set_int32 r z));
      Ok (0, out)
  end.

(** * Member by member *)

(** Loops that set member [i] of [*out] from member [i] of the first argument. *)
Fixpoint each (f : atom -> atom -> res atom) (l : list atom) (i : Z) (out : arr) : res arr :=
  match l with
  | [] => Ok out
  | a :: l' => do out <- aput out i (f a); each f l' (i + 1) out
  end.

(** osc_expr.c:4709-4725: member [a] into [r]. *)
Definition clip_one (E : env) (min max : Z) (fl : bool) (a r : atom) : res atom :=
  let type := a_tt a in
  if (type =? 115) || (type =? 84) || (type =? 70) || (type =? 78) || (type =? 98) || (type =? 46)
  then copy_into r (Some a) else
  do val <- au_double (e_double E) a;
  let val := if dlt val min then min else val in
  let val := if dgt val max then max else val in
  if (type =? 102) || (type =? 100) || fl then Ok (set_double r val)
  else do z <- to_range (- 2^31) (2^31 - 1) (trunc64 val); Ok (set_int32 r z).
(** osc_expr.c:4682-4728 osc_expr_clip. *)
Definition fn_clip (E : env) (argv : list arr) : res (Z * arr) :=
  match argv with
  | [a; b; c] =>
      do min_atom <- aget b 0;
      do max_atom <- aget c 0;
      do min <- double_at E min_atom;
      do max <- double_at E max_atom;
      let fl := is_float (tag_at min_atom) || is_float (tag_at max_atom) in
      do out <- aalloc (alen a);
      do out <- each (clip_one E min max fl) (items a) 0 out;
      Ok (0, out)
  | _ => Ok (1, None)
  end.

(** osc_expr.c:4871-4889 osc_expr_sign. *)
Definition sign_one (E : env) (a r : atom) : res atom :=
  do f <- au_double (e_double E) a;
  Ok (set_int32 r (if deq f 0 then 0 else if dlt f 0 then -1 else 1)).
Definition fn_sign (E : env) (argv : list arr) : res (Z * arr) :=
  do a <- argv_at argv 0;
  do out <- aalloc (alen a);
  do out <- each (sign_one E) (items a) 0 out;
  Ok (0, out).

(** * Sorting *)

(** qsort of the C library is a parameter: it gets the comparison function and
    the members and returns the members in their new order.  A comparison
    function gives a number below, equal to or above 0. *)
Definition qsort_t := forall A : Set, (A -> A -> Z) -> list A -> list A.

(** What the comparison functions look at.  They read it anew from the atoms each
    time; here it is read once from every member before sorting, so a list of one
    blob, which is not compared with anything, is taken to be read too. *)
Inductive key := KStr (s : list Z) | KNum (d : Z).
Definition key_of (E : env) (a : atom) : res key :=
  if a_tt a =? 115 then do s <- string_of a; Ok (KStr s)
  else do d <- au_double (e_double E) a; Ok (KNum d).
Fixpoint keys_of (E : env) (l : list atom) : res (list key) :=
  match l with
  | [] => Ok []
  | a :: l' => do k <- key_of E a; do ks <- keys_of E l'; Ok (k :: ks)
  end.
(** The result of strcmp, of which only the sign matters. *)
Definition strcmp_int (s1 s2 : list Z) : Z := match strcmp s1 s2 with Lt => -1 | Eq => 0 | Gt => 1 end.
(** osc_expr.c:3748-3770 osc_expr_qsortcb. *)
Definition qsortcb (k1 k2 : key) : Z :=
  match k1, k2 with
  | KStr s1, KStr s2 => strcmp_int s1 s2
  | KStr _, _ => 1
  | _, KStr _ => -1
  | KNum d1, KNum d2 => if dlt d1 d2 then -1 else 1
  end.
(** osc_expr.c:3799-3817 osc_expr_qsortIndexcb. *)
Definition qsort_index_cb (k1 k2 : key) : Z :=
  match k1, k2 with
  | KStr s1, KStr s2 => strcmp_int s1 s2
  | KStr _, _ => 1
  | _, KStr _ => -1
  | KNum d1, KNum d2 => if dlt d1 d2 then -1 else if dgt d1 d2 then 1 else 0
  end.
(** Copies of atoms, one after the other. *)
Fixpoint copy_all (l : list atom) : res (list atom) :=
  match l with
  | [] => Ok []
  | a :: l' => do b <- copy_into atom_fresh (Some a); do r <- copy_all l'; Ok (b :: r)
  end.

(** osc_expr.c:3772-3791 osc_expr_sort: [n] is an int; the copies of all members
    are sorted and become the members of [*out]. *)
Definition fn_sort (qs : qsort_t) (E : env) (argv : list arr) : res (Z * arr) :=
  do _ <- int_lens 0 argv;
  do ar <- copy_all (concat (map items argv));
  do ks <- keys_of E ar;
  let sorted := qs (key * atom)%type (fun x y => qsortcb (fst x) (fst y)) (combine ks ar) in
  Ok (0, Some (map snd sorted)).

(** osc_expr.c:3819-3850 osc_expr_sortidx.  GNU C allows the array [sort_ar] to
    have no members. *)
Fixpoint number_from (i : Z) (l : list key) : list (key * Z) :=
  match l with [] => [] | k :: l' => (k, i) :: number_from (i + 1) l' end.
Fixpoint set_indexes (l : list (key * Z)) (i : Z) (out : arr) : res arr :=
  match l with
  | [] => Ok out
  | (_, n) :: l' => do out <- aput out i (fun r => Ok (set_int32 r n)); set_indexes l' (i + 1) out
  end.
Definition fn_sortidx (qs : qsort_t) (E : env) (argv : list arr) : res (Z * arr) :=
  do a <- argv_at argv 0;
  do out <- aalloc (alen a);
  do ar <- copy_all (items a);
  do ks <- keys_of E ar;
  let sorted := qs (key * Z)%type (fun x y => qsort_index_cb (fst x) (fst y)) (number_from 0 ks) in
  do out <- set_indexes sorted 0 out;
  Ok (0, out).

(** osc_atom_array_u.c:61-72 osc_atom_array_u_getDoubleArray into a new block. *)
Fixpoint double_array (E : env) (l : list atom) : res (list Z) :=
  match l with
  | [] => Ok []
  | a :: l' => do d <- au_double (e_double E) a; do r <- double_array E l'; Ok (d :: r)
  end.
(** osc_expr.c:3699-3709 comp. *)
Definition comp (v1 v2 : Z) : Z := if dlt v1 v2 then -1 else if deq v1 v2 then 0 else 1.
(** osc_expr.c:3711-3733 osc_expr_median.  [(int)((len - 1) / 2.)] is the
    quotient rounded towards zero. *)
Definition fn_median (qs : qsort_t) (E : env) (argv : list arr) : res (Z * arr) :=
  do out <- aalloc 1;
  do a <- argv_at argv 0;
  let len := alen a in
  do tmp <- double_array E (items a);
  let tmp := qs Z comp tmp in
  do v <- (if len mod 2 =? 0 then
             do left <- rd tmp (Z.quot (len - 1) 2);
             do right <- rd tmp (Z.quot (len - 1) 2 + 1);
             Ok (ddiv (e_nan E) (dadd (e_nan E) left right) (double_of_int 2))
           else rd tmp (Z.quot (len - 1) 2));
  do out <- aput out 0 (fun r => Ok (set_double r v));
  Ok (0, out).
