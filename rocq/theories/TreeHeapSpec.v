(** What it means that an expression lies in memory, and which blocks belong to it. *)

From Coq Require Import ZArith List.
From Verif Require Import Base SerialModel ExprParseModel TreeHeapModel.
Import ListNotations.
Open Scope Z_scope.

(** A linked list at [l]: each of its members lies at its address, with the address of the
    next one; the last one has NULL.  [F] are the blocks of all of them. *)
Definition chain {A} (at_ : A -> Z -> Z -> list Z -> Prop) : list A -> Z -> list Z -> Prop :=
  fix go xs l F :=
    match xs with
    | [] => l = 0 /\ F = []
    | x :: xs' => exists next F1 F2, F = F1 ++ F2 /\ at_ x l next F1 /\ go xs' next F2
    end.

Section Lies.
Context (h : Z -> option cell).
(** A block at an address that is not NULL. *)
Definition block (l : Z) (c : cell) : Prop := l <> 0 /\ h l = Some c.

(** What an argument of kind [k] points to, and an expression at [l] followed by the one
    at [next]. *)
Fixpoint arg_at (a : parg) (k : kind) (p : Z) (F : list Z) : Prop :=
  match a with
  | PAtom x => k = KAtom /\ block p (CAtom x) /\ F = [p]
  | PAddr t => k = KAddr /\ block p (CText t) /\ F = [p]
  | PExpr None => k = KExpr /\ p = 0 /\ F = []
  | PExpr (Some e) => k = KExpr /\ expr_at e p 0 F
  | PFun params body =>
      k = KFun /\ exists x F', block p (CRec params x) /\ F = p :: F' /\ chain expr_at body x F'
  end
with expr_at (e : pexpr) (l next : Z) (F : list Z) : Prop :=
  match e with
  | Call name args =>
      exists v F', block l (CExpr name (zlen args) v next) /\ F = l :: F' /\
        chain (fun a l next F => exists k p F', block l (CArg k p next) /\ F = l :: F' /\ arg_at a k p F') args v F'
  end.
(** One argument of a list of arguments. *)
Definition cell_at (a : parg) (l next : Z) (F : list Z) : Prop :=
  exists k p F', block l (CArg k p next) /\ F = l :: F' /\ arg_at a k p F'.
(** A program: expressions linked by [next]. *)
Definition program_at : list pexpr -> Z -> list Z -> Prop := chain expr_at.
End Lies.

(** malloc has not given the addresses to come, and never gives NULL. *)
Definition sound (s : mem) : Prop := 1 <= snd s /\ forall l, snd s <= l -> fst s l = None.
