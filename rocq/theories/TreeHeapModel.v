(** Model of expressions in memory and of the functions that copy and free them:
    osc_expr.c:6451-6604, 6797-6836 and osc_expr_rec.c:8-120.

    Memory is a map from addresses to blocks; NULL is 0.  malloc gives an address that was
    never given before, so that every use of a block that was freed is seen.  An atom with
    its string or blob is one block (copying one is in ExprModel.v), and so is the record
    of a function with the names of its parameters. *)

From Coq Require Import ZArith List Bool.
From Verif Require Import Base SerialModel ExprParseModel.
Import ListNotations.
Open Scope Z_scope.

(** osc_expr.h: OSC_EXPR_ARG_TYPE_ATOM ... OSC_EXPR_ARG_TYPE_LIST *)
Inductive kind : Type := KAtom | KExpr | KAddr | KFun | KList.
(** osc_expr.r: struct _osc_expr (rec, argc, argv, next; of a record of the function table
    the name), struct _osc_expr_arg (type, arg, next), and what arguments point to. *)
Inductive cell : Type :=
| CExpr (name : list Z) (argc argv next : Z)
| CArg (k : kind) (p next : Z)
| CAtom (a : atom)
| CText (t : list Z)
| CRec (params : list (list Z)) (extra : Z)
| CList (l : list atom).
(** The blocks, and the next address that malloc gives. *)
Definition mem := ((Z -> option cell) * Z)%type.

Definition upd (h : Z -> option cell) (l : Z) (c : option cell) : Z -> option cell := fun x => if x =? l then c else h x.
Definition alloc (s : mem) (c : cell) : Z * mem := (snd s, (upd (fst s) (snd s) (Some c), snd s + 1)).
Definition fetch (s : mem) (l : Z) : res cell :=
  if l =? 0 then Ub NullDeref else match fst s l with Some c => Ok c | None => Ub Dangling end.
Definition put_cell (s : mem) (l : Z) (c : cell) : res mem := do _ <- fetch s l; Ok (upd (fst s) l (Some c), snd s).
(** osc_mem_free; free(NULL) does nothing. *)
Definition drop (s : mem) (l : Z) : res mem :=
  if l =? 0 then Ok s else do _ <- fetch s l; Ok (upd (fst s) l None, snd s).

(** Blocks of the wrong type are not met. *)
Definition get_expr (s : mem) (l : Z) : res (list Z * Z * Z * Z) :=
  do c <- fetch s l; match c with CExpr n a v x => Ok (n, a, v, x) | _ => Ub Uninit end.
Definition get_arg (s : mem) (l : Z) : res (kind * Z * Z) :=
  do c <- fetch s l; match c with CArg k p x => Ok (k, p, x) | _ => Ub Uninit end.

(** [p->next = next] for an argument, and for an expression. *)
Definition link_arg (s : mem) (l next : Z) : res mem := do ' (k, p, _) <- get_arg s l; put_cell s l (CArg k p next).
Definition link_expr (s : mem) (l next : Z) : res mem := do ' (n, a, v, _) <- get_expr s l; put_cell s l (CExpr n a v next).
(** osc_expr.c:6523-6537 osc_expr_appendExpr: from [l] to the last expression. *)
Fixpoint last_expr (fuel : nat) (s : mem) (l : Z) : res Z :=
  match fuel with
  | O => Fuel
  | S f => do ' (_, _, _, x) <- get_expr s l; if x =? 0 then Ok l else last_expr f s x
  end.
Definition append_expr (fuel : nat) (s : mem) (e x : Z) : res mem :=
  if e =? 0 then Ok s else
  do l <- last_expr fuel s e; do s <- link_expr s l x; link_expr s x 0.

(** * Copying *)
(** osc_expr.c:6806-6831, the switch of osc_expr_arg_copy: what the argument points to is
    copied.  There is no case for lists: the pointer of the copy stays NULL. *)
Fixpoint copy_payload (fuel : nat) (s : mem) (k : kind) (p : Z) {struct fuel} : res (Z * mem) :=
  match fuel with
  | O => Fuel
  | S f =>
      match k with
      | KAtom => do c <- fetch s p; Ok (alloc s c)             (* osc_atom_u_copyInto *)
      | KAddr => do c <- fetch s p; Ok (alloc s c)
      | KExpr => copy_expr f s p
      | KFun =>                                            (* osc_expr_rec.c:67-120 *)
          if p =? 0 then Ok (0, s) else
          do c <- fetch s p;
          match c with
          | CRec params x =>
              let '(d, s) := alloc s (CRec params 0) in
              if x =? 0 then Ok (d, s) else
              do ' (y, s) <- copy_linked f s x 0;
              do s <- put_cell s d (CRec params y);
              Ok (d, s)
          | _ => Ub Uninit
          end
      | KList => Ok (0, s)
      end
  end
(** osc_expr.c:6797-6805: one argument; [next] of the copy is NULL. *)
with copy_arg (fuel : nat) (s : mem) (a : Z) {struct fuel} : res (Z * mem) :=
  match fuel with
  | O => Fuel
  | S f =>
      if a =? 0 then Ok (0, s) else
      do ' (k, p, _) <- get_arg s a;
      let '(d, s) := alloc s (CArg k 0 0) in
      do ' (q, s) <- copy_payload f s k p;
      do s <- put_cell s d (CArg k q 0);
      Ok (d, s)
  end
(** osc_expr.c:6489-6501: the loop over the arguments. *)
with copy_args (fuel : nat) (s : mem) (a first last : Z) {struct fuel} : res (Z * mem) :=
  match fuel with
  | O => Fuel
  | S f =>
      if a =? 0 then Ok (first, s) else
      do ' (d, s) <- copy_arg f s a;
      do s <- (if last =? 0 then Ok s else link_arg s last d);
      do ' (_, _, x) <- get_arg s a;
      copy_args f s x (if first =? 0 then d else first) d
  end
(** osc_expr.c:6476-6503 osc_expr_copy with [*dest] NULL. *)
with copy_expr (fuel : nat) (s : mem) (l : Z) {struct fuel} : res (Z * mem) :=
  match fuel with
  | O => Fuel
  | S f =>
      if l =? 0 then Ok (0, s) else
      let '(d, s) := alloc s (CExpr [] 0 0 0) in
      do ' (n, c, v, _) <- get_expr s l;
      do s <- put_cell s d (CExpr n c 0 0);
      do ' (first, s) <- copy_args f s v 0 0;
      do s <- put_cell s d (CExpr n c first 0);
      Ok (d, s)
  end
(** osc_expr.c:6505-6521 osc_expr_copyAllLinked. *)
with copy_linked (fuel : nat) (s : mem) (e dest : Z) {struct fuel} : res (Z * mem) :=
  match fuel with
  | O => Fuel
  | S f =>
      if e =? 0 then Ok (dest, s) else
      do ' (d, s) <- copy_expr f s e;
      do s <- (if dest =? 0 then Ok s else append_expr f s dest d);
      do ' (_, _, _, x) <- get_expr s e;
      copy_linked f s x (if dest =? 0 then d else dest)
  end.

(** * Freeing *)
(** osc_expr.c:6539-6573 osc_expr_arg_clear; osc_expr_rec.c:15-65 osc_expr_rec_free. *)
Fixpoint clear_payload (fuel : nat) (s : mem) (k : kind) (p : Z) {struct fuel} : res mem :=
  match fuel with
  | O => Fuel
  | S f =>
      match k with
      | KExpr => free_exprs f s p
      | KAtom | KAddr | KList => drop s p
      | KFun =>
          if p =? 0 then Ok s else
          do c <- fetch s p;
          match c with
          | CRec _ x => do s <- drop s p; if x =? 0 then Ok s else free_exprs f s x
          | _ => Ub Uninit
          end
      end
  end
(** osc_expr.c:6581-6588 osc_expr_arg_freeList and 6575-6579 osc_expr_arg_free. *)
with free_args (fuel : nat) (s : mem) (a : Z) {struct fuel} : res mem :=
  match fuel with
  | O => Fuel
  | S f =>
      if a =? 0 then Ok s else
      do ' (k, p, x) <- get_arg s a;
      do s <- clear_payload f s k p;
      do s <- drop s a;
      free_args f s x
  end
(** osc_expr.c:6465-6474 osc_expr_free: the expression and those linked to it. *)
with free_exprs (fuel : nat) (s : mem) (l : Z) {struct fuel} : res mem :=
  match fuel with
  | O => Fuel
  | S f =>
      if l =? 0 then Ok s else
      do ' (_, _, v, x) <- get_expr s l;
      do s <- free_args f s v;
      do s <- drop s l;
      free_exprs f s x
  end.
