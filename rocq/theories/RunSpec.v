(** What the text of expressions does to a bundle (C89). *)

From Coq Require Import String ZArith List Bool.
From Verif Require Import Base Text WireSpec SerialModel SerialSpec EvalModel EvalSpec ExprParseModel ExprParseSpec ExprTextSpec AtomSpec.
Import ListNotations.
Open Scope Z_scope.

(** The expression of EvalSpec.v that a parsed expression stands for. *)
Section Sense.
Context (table : list Z -> option fn).
Fixpoint sense (a : parg) : option (arg value) :=
  match a with
  | PAtom x => Some (AAtom (narrow (raw_value x)))
  | PAddr p => Some (AAddr p)
  | PExpr None => None
  | PExpr (Some e) => opt_map AExpr (sense_of e)
  | PFun params body => opt_map (AFun params) (each sense_of body)
  end
with sense_of (e : pexpr) : option (expr value) :=
  match e with Call name args => opt_map2 Ex (table name) (each sense args) end.
End Sense.

(** Expressions one after the other, up to the first that fails. *)
Section All.
Context (matches : list Z -> list Z -> bool) (table : list Z -> option fn) (sem : list Z -> list out -> option (Z * out)).
Definition no_variables : vars := fun _ => None.
Inductive run_all : world -> list (expr value) -> Z -> world -> Prop :=
| run_none w : run_all w [] 0 w
| run_next w e o w1 es c w2 : runs matches table sem no_variables w e 0 o w1 -> run_all w1 es c w2 -> run_all w (e :: es) c w2
| run_fails w e c o w1 es : runs matches table sem no_variables w e c o w1 -> c <> 0 -> run_all w (e :: es) c w1.
End All.

(** * Arithmetic *)

(** A number, the int32 at an address of the bundle, or an operation. *)
Inductive sum := Number (n : Z) | Cell (p : list Z) | Binary (l : sum) (o : op) (r : sum).
Definition number_op (o : op) : option (Z -> Z -> Z) :=
  match o with OAdd => Some Z.add | OSub => Some Z.sub | OMul => Some Z.mul | _ => None end.
(** The text: every operand that is an operation is in parentheses. *)
Definition parens (e : sum) (t : list Z) : list Z := match e with Binary _ _ _ => str "(" ++ t ++ str ")" | _ => t end.
Fixpoint text_of (e : sum) : list Z :=
  match e with
  | Number n => numeral n
  | Cell p => p
  | Binary l o r => parens l (text_of l) ++ str " " ++ spelling o ++ str " " ++ parens r (text_of r)
  end.
(** Addresses as they can be written in an expression. *)
Definition written (p : list Z) : Prop :=
  exists s, p = 47 :: s /\ s <> [] /\ nonul s /\ Forall (fun c => ~ In c address_ends) s.
Fixpoint all_written (e : sum) : Prop :=
  match e with Number _ => True | Cell p => written p | Binary l _ r => all_written l /\ all_written r end.
(** The value.  Every number and every result on the way is an int32. *)
Definition int32_range (x : Z) : bool := (- 2^31 <=? x) && (x <? 2^31).
Fixpoint value_of (read : list Z -> option Z) (e : sum) : option Z :=
  match e with
  | Number n => if (0 <=? n) && (n <? 2^31) then Some n else None
  | Cell p => read p
  | Binary l o r =>
      match value_of read l, number_op o, value_of read r with
      | Some x, Some f, Some y => if int32_range (f x y) then Some (f x y) else None
      | _, _, _ => None
      end
  end.
(** The int32 that is the only argument of the message with an address. *)
Definition cell (matches : list Z -> list Z -> bool) (w : world) (p : list Z) : option Z :=
  match EvalSpec.lookup matches w p with
  | Some [VNum32 105 x] => if (0 <=? x) && (x <? 2^32) then Some (if x <? 2^31 then x else x - 2^32) else None
  | _ => None
  end.
