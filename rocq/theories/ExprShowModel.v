(** Model of the printer of expressions: osc_expr.c:6867-6953, osc_expr_format_r and
    osc_expr_format.

    The expressions are those of the parser (ExprParseModel.v): the name of the record,
    the arguments in their order.  Lists of atoms (6886-6897) are no arguments the parser
    makes. *)

From Coq Require Import String ZArith List Bool.
From Verif Require Import Base Text SerialModel FormatModel ExprParseModel.
Import ListNotations.
Open Scope Z_scope.

(** The buffer and the place to write to. *)
Definition out := (bytes * Z)%type.
(** ptr += sprintf(ptr, text) *)
Definition sprint (text : list Z) (s : out) : res out :=
  do b <- write (fst s) (snd s) (text ++ [0]); Ok (b, snd s + zlen text).
Definition in_turn {A} (f : A -> out -> res out) : list A -> out -> res out :=
  fix go l s := match l with [] => Ok s | x :: l' => do s <- f x s; go l' s end.

Section Print.
Context (rt : Z -> Z -> list Z) (junk : bytes).   (* as in FormatModel.v *)
Context (fresh : Z -> bytes).                     (* new bytes of a block *)

(** osc_expr.c:6879-6885: the text of an atom in a local array of its size. *)
Definition atom_text (a : atom) : res (list Z) := do b <- format_with junk (fmt_atom_u rt junk 0 a); rdstr b 0.

(** osc_expr.c:6907-6916 *)
Fixpoint print_params (l : list (list Z)) (s : out) : res out :=
  match l with
  | [] => Ok s
  | [x] => sprint (x ++ str ") ") s
  | x :: l' => do s <- sprint (x ++ str ", ") s; print_params l' s
  end.

(** osc_expr.c:6876-6926, one turn of the loop, and 6867-6931 osc_expr_format_r, which
    writes nothing for NULL. *)
Fixpoint print_arg (a : parg) (s : out) : res out :=
  match a with
  | PAtom x => do t <- atom_text x; sprint (t ++ str " ") s
  | PAddr p => sprint (p ++ str " ") s
  | PExpr None => Ok s
  | PExpr (Some e) => print_expr e s
  | PFun params body =>
      do s <- sprint (str "(lambda (") s;
      do s <- print_params params s;
      do s <- in_turn print_expr body s;
      sprint (str ") ") s
  end
with print_expr (e : pexpr) (s : out) : res out :=
  match e with
  | Call name args =>
      do s <- sprint (str "(" ++ name ++ str " ") s;
      do s <- in_turn print_arg args s;
      sprint (str ") ") (fst s, snd s - 1)
  end.

(** osc_expr.c:6938-6951: the loop.  The block grows only while the text is short, but
    [bufsize] grows each time. *)
Fixpoint print_lines (bufsize : Z) (es : list pexpr) (s : out) : res out :=
  match es with
  | [] => Ok s
  | e :: es' =>
      let b := if snd s <? 256 then fst s ++ fresh (bufsize + 256 - zlen (fst s)) else fst s in
      do s <- print_expr e (b, snd s);
      do s <- sprint [10] s;
      print_lines (bufsize + 256) es' s
  end.
(** osc_expr.c:6933-6953 osc_expr_format with [*fmt] NULL; with a block of the caller the
    first turn resizes it in the same way. *)
Definition expr_format (es : list pexpr) : res out := print_lines 512 es (fresh 512, 0).
End Print.
