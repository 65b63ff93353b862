(** Model of the functions that give arguments to an expression: osc_expr.c:6605-6684.
    Memory is that of TreeHeapModel.v.  [argc] is an int in C and is not bounded here. *)

From Coq Require Import ZArith List Bool.
From Verif Require Import Base SerialModel ExprParseModel TreeHeapModel.
Import ListNotations.
Open Scope Z_scope.

(** The loops along [next]: the number of arguments from [a] on (6610-6614, 6662-6666), and
    the last of them, [last] if there is none (6628-6634, 6651-6656). *)
Fixpoint count_args (fuel : nat) (s : mem) (a count : Z) : res Z :=
  match fuel with
  | O => Fuel
  | S f => if a =? 0 then Ok count else do ' (_, _, x) <- get_arg s a; count_args f s x (count + 1)
  end.
Fixpoint last_arg (fuel : nat) (s : mem) (aa last : Z) : res Z :=
  match fuel with
  | O => Fuel
  | S f => if aa =? 0 then Ok last else do ' (_, _, x) <- get_arg s aa; last_arg f s x aa
  end.

(** osc_expr.c:6605-6619 osc_expr_setArg. *)
Definition set_arg (fuel : nat) (s : mem) (e a : Z) : res mem :=
  if e =? 0 then Ok s else
  if a =? 0 then Ok s else
  do count <- count_args fuel s a 0;
  do ' (n, _, _, x) <- get_expr s e;
  put_cell s e (CExpr n count a x).
(** osc_expr.c:6621-6644 osc_expr_prependArg. *)
Definition prepend_arg (fuel : nat) (s : mem) (e a : Z) : res mem :=
  if e =? 0 then Ok s else
  do ' (n, c, v, x) <- get_expr s e;
  if v =? 0 then put_cell s e (CExpr n 1 a x) else
  do last <- last_arg fuel s a a;
  do count <- count_args fuel s a 0;
  if last =? 0 then Ok s else
  do s <- link_arg s last v;
  put_cell s e (CExpr n (c + count) a x).
(** osc_expr.c:6646-6671 osc_expr_appendArg. *)
Definition append_arg (fuel : nat) (s : mem) (e a : Z) : res mem :=
  if e =? 0 then Ok s else
  do ' (n, c, v, x) <- get_expr s e;
  if v =? 0 then put_cell s e (CExpr n 1 a x) else
  do last <- last_arg fuel s v v;
  if last =? 0 then Ok s else
  do s <- link_arg s last a;
  do count <- count_args fuel s a 0;
  put_cell s e (CExpr n (c + count) v x).
(** osc_expr.c:6673-6687 osc_expr_getArgs and osc_expr_getArgCount. *)
Definition get_args (s : mem) (e : Z) : res Z :=
  if e =? 0 then Ok 0 else do ' (_, _, v, _) <- get_expr s e; Ok v.
Definition get_arg_count (s : mem) (e : Z) : res Z :=
  if e =? 0 then Ok 0 else do ' (_, c, _, _) <- get_expr s e; Ok c.
