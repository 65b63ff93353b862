(** Model of the members of nested bundles in the expression language:
    osc_expr.c:1739-1992, /a./b and /a./b = x.

    The evaluator of EvalModel.v does not have these two functions; they are modelled
    beside it, with the evaluator [rec] of the expressions in them.  A member name that
    is computed and is not a string is not modelled ([Fuel]). *)

From Coq Require Import ZArith List Bool String.
From Verif Require Import Base Bytes Text UtilModel SerialModel WireModel BundleSModel ExprModel ExprListModel FnCastModel EvalModel.
Import ListNotations.
Open Scope Z_scope.

(** osc_atom_s.c:629-645 osc_atom_s_getBndlCopy. *)
Definition bndl_copy (buf : bytes) (a : option atom_s) : res (option bytes) :=
  match a with
  | None => Ok None
  | Some a =>
      if negb (as_tt a =? 46) then Ok None else
      do n <- rd32 buf (as_data a);
      if n =? 0 then Ok None else
      do b <- slice buf (as_data a + 4) n;
      Ok (Some b)
  end.

(** osc_expr.c:1932 and osc_expr_func.h:1293-1310: the one function of the table that is
    osc_expr_nth is called nth. *)
Definition is_nth (f : fn) : bool := match f with FCall name => streq name (str "nth") | _ => false end.

Inductive found := Missing | NoBundle | Nested (st : bst).

Section Member.
Context (fresh : Z -> bytes).
Context (rec : lexenv -> bst -> expr atom -> res (Z * arr * bst)).

(** osc_expr.c:1752-1777 and 1859-1881: the nested bundle, serialized: the first
    argument of the first message a string matches, or the bundle itself.  A NULL
    bundle is serialized like an empty one. *)
Definition open_bundle (st : bst) (arg1 : arr) : res found :=
  do x <- aget arg1 0;
  match x with
  | None => Ok NoBundle
  | Some x =>
      if a_tt x =? 115 then
        do s <- string_in x;
        let buf := bytes_of st in
        do r <- lookup_address buf (b_len st) s true;
        match r with
        | None => Ok Missing
        | Some ms =>
            do m <- rd ms 0;
            do a <- get_arg buf m 0;
            do b <- bndl_copy buf a;
            Ok (match b with Some b => Nested (Bst (zlen b) (Some b) 0) | None => NoBundle end)
        end
      else if a_tt x =? 46 then
        let ms := match x with Atom _ _ (PBndl ms) => ms | _ => [] end in
        do n <- bundle_size ms;
        do b <- bundle_serialize (fresh n) ms;
        Ok (Nested (Bst n (Some b) 0))
      else Ok NoBundle
  end.

(** osc_expr.c:1790-1808 and 1812-1824: the name of the member is computed in the
    enclosing bundle. *)
Definition get_named (env : lexenv) (st nst : bst) (x : option (arg atom)) : res (Z * arr * bst) :=
  do ' (c, o, st) <- eval_opt rec env st x;
  match o with
  | None => Ok (c, None, st)
  | Some _ =>
      do t <- tag0 o;
      if negb (t =? 115) then Fuel else
      do s <- string0 o;
      do ' (c, o) <- eval_addr nst s;
      Ok (c, o, st)
  end.
(** osc_expr.c:1739-1832 osc_expr_specFunc_getBundleMember. *)
Definition get_member (env : lexenv) (st : bst) (args : list (arg atom)) : res (Z * arr * bst) :=
  do ' (_, arg1, st) <- eval_opt rec env st (nth_error args 0);
  match arg1 with
  | None => Ok (1, None, st)
  | Some _ =>
      do f <- open_bundle st arg1;
      match f with
      | Missing => Ok (UNBOUND, None, st)
      | NoBundle => Ok (1, None, st)
      | Nested nst =>
          match nth_error args 1 with
          | Some (AExpr (Ex FValue vargs)) => get_named env st nst (nth_error vargs 0)
          | Some (AExpr e) => get_named env st nst (Some (AExpr e))
          | Some (AAtom x) => get_named env st nst (Some (AAtom x))
          | b => do ' (c, o, _) <- eval_opt rec env nst b; Ok (c, o, st)
          end
      end
  end.

(** osc_expr.c:1848-1856: a message with an empty bundle is appended; the copy of its
    arguments. *)
Definition new_member (st : bst) (p : list Z) : res (arr * bst) :=
  let m := UMsg (set_address p) [set_bndl atom_fresh 0 []] in
  do n <- msg_size m;
  do mb <- msg_serialize (fresh n) m;
  do mm <- wrap init_msg mb 0;
  do ' (len, b) <- append_message (fresh (zlen mb + 16)) (b_len st) (b_buf st) mb (Some mm);
  do y <- copy_atom (set_bndl atom_fresh 0 []);
  Ok (Some [y], Bst len b (S (b_moves st))).

(** osc_expr.c:1928-1976: the changed bundle [nst] is put back. *)
Definition put_back (env : lexenv) (st : bst) (a : arg atom) (arg1 : arr) (nst : bst) : res (Z * arr * bst) :=
  match a with
  | AExpr (Ex f nargs) =>
      if is_nth f then
        match nargs with
        | x :: i :: _ =>
            do x <- copy_arg x;
            do i <- copy_arg i;
            do y <- set_bndl_s atom_fresh (bytes_of nst) (b_len nst);
            ev_assign_index fresh rec env st [x; i; AAtom y]
        | _ => Ub NullDeref
        end
      else
        do t <- tag0 arg1;
        if t =? 115 then
          do s <- string0 arg1;
          do y <- set_bndl_s atom_fresh (bytes_of nst) (b_len nst);
          ev_assign fresh rec env st [AAddr s; AAtom y]
        else Ok (1, None, st)
  | _ =>
      do arg1 <- aput arg1 0 (fun x => set_bndl_s x (bytes_of nst) (b_len nst));
      do x <- copy_arg a;
      ev_assign fresh rec env st [x; AList arg1]
  end.

(** osc_expr.c:1834-1992 osc_expr_specFunc_assignToBundleMember. *)
Definition assign_member (env : lexenv) (st : bst) (args : list (arg atom)) : res (Z * arr * bst) :=
  do ' (c, arg1, st) <- eval_opt rec env st (nth_error args 0);
  do ' (arg1, st) <-
    match arg1, args with
    | None, AAddr p :: AAddr _ :: _ :: _ => if c =? UNBOUND then new_member st p else Ok (None, st)
    | _, _ => Ok (arg1, st)
    end;
  match arg1 with
  | None => Ok (1, None, st)
  | Some _ =>
      do f <- open_bundle st arg1;
      match f with
      | Nested nst =>
          match args with
          | a :: b :: _ =>
              do ' (_, ar, st) <- eval_opt rec env st (nth_error args 2);
              match ar with
              | None => Ok (0, None, st)
              | Some l =>
                  do t <- copy_arg b;
                  do v <- match l with
                          | [x] => do y <- copy_atom x; Ok (AAtom y)
                          | _ => do y <- acopy ar; Ok (AList y)
                          end;
                  do ' (c, _, nst) <- ev_assign fresh rec env nst [t; v];
                  if negb (c =? 0) then Ok (c, None, st) else
                  put_back env st a arg1 nst
              end
          | _ => Ub NullDeref
          end
      | _ => Ok (1, None, st)
      end
  end.

End Member.
