(** Evaluating text: the parser of ExprParseModel.v and the evaluator of EvalModel.v
    together, osc_expr.c:1519-1611 osc_expr_specFunc_eval. *)

From Coq Require Import ZArith List Bool.
From Verif Require Import Base SerialModel ExprModel EvalModel ExprParseModel.
Import ListNotations.
Open Scope Z_scope.

Definition map_opt {A B} (f : A -> option B) : list A -> option (list B) :=
  fix go l :=
    match l with
    | [] => Some []
    | x :: l' =>
        match f x with
        | Some y => match go l' with Some r => Some (y :: r) | None => None end
        | None => None
        end
    end.

Section Run.
Context (table : list Z -> option fn).          (* osc_expr_lookupFunction, osc_expr.c:2176-2187 *)
Context (plain : list Z -> list arr -> res (Z * arr)).
Context (fresh : Z -> bytes).
Context (strtod : list Z -> Z) (junk : bytes).

(** An expression of the parser as the evaluator sees it: the name of the function
    stands for its record in the table, and osc_expr.c:124-173 tells the special
    functions by that record.  A NULL expression has no counterpart. *)
Fixpoint link_arg (a : parg) : option (arg atom) :=
  match a with
  | PAtom x => Some (AAtom x)
  | PAddr p => Some (AAddr p)
  | PExpr None => None
  | PExpr (Some e) => match link e with Some x => Some (AExpr x) | None => None end
  | PFun params body => match map_opt link body with Some l => Some (AFun params l) | None => None end
  end
with link (e : pexpr) : option (expr atom) :=
  match e with
  | Call name args =>
      match table name, map_opt link_arg args with
      | Some f, Some l => Some (Ex f l)
      | _, _ => None
      end
  end.

(** osc_expr.c:1545-1561 and 1569-1585: the expressions in their order up to the first
    that fails; the results are dropped.  An expression with NULL in it is taken to be
    undefined behaviour also if the NULL is never reached. *)
Fixpoint eval_each (fuel : nat) (st : bst) (l : list pexpr) : res (Z * bst) :=
  match l with
  | [] => Ok (0, st)
  | e :: l' =>
      match link e with
      | None => Ub NullDeref
      | Some x =>
          do ' (ret, _, st) <- osc_expr_eval table plain fresh fuel st x;
          if negb (ret =? 0) then Ok (ret, st) else eval_each fuel st l'
      end
  end.
(** osc_expr.c:1533-1562: the argument is one string.  The code of the parser is
    ignored; the result is the code of the last expression evaluated. *)
Definition eval_text (fuel : nat) (st : bst) (expr : bytes) : res (arr * bst) :=
  do ' (_, f) <- parse_expr strtod junk expr;
  do ' (ret, st) <- eval_each fuel st f;
  Ok (Some [set_int32 atom_fresh ret], st).
End Run.
