(** How a program is listed (C93): one line for each expression, prefix notation. *)

From Coq Require Import String ZArith List Bool.
From Verif Require Import Base Text WireSpec SerialModel SerialSpec FormatSpec ExprParseModel.
Import ListNotations.
Open Scope Z_scope.

Section Show.
Context (rt : Z -> Z -> list Z).

(** The list of parameters; without any the closing parenthesis is missing. *)
Definition show_params (l : list (list Z)) : list Z :=
  match l with [] => [] | _ => join (str ", ") l ++ str ") " end.

Fixpoint show_arg (a : parg) : list (list Z) :=
  match a with
  | PAtom x => [show_value rt 0 (raw_value x)]
  | PAddr p => [p]
  | PExpr None => []
  | PExpr (Some e) => [show_expr e]
  | PFun params body =>
      [str "(lambda (" ++ show_params params ++ concat (map (fun e => show_expr e ++ str " ") body) ++ str ")"]
  end
with show_expr (e : pexpr) : list Z :=
  match e with Call name args => str "(" ++ join (str " ") (name :: concat (map show_arg args)) ++ str ")" end.

Definition line (e : pexpr) : list Z := show_expr e ++ [32; 10].
Definition listing (es : list pexpr) : list Z := concat (map line es).

(** Literals whose text is the one of C55. *)
Definition printable (a : atom) : Prop :=
  ok_atom a /\ whole_atom a /\ std_value (fun _ => True) (raw_value a) /\ showable (raw_value a) /\
  let t := show_value rt 0 (raw_value a) in t <> [] /\ zlen t < 2^31 /\ nonul t.
Fixpoint printable_arg (a : parg) : Prop :=
  match a with
  | PAtom x => printable x
  | PAddr _ | PExpr None => True
  | PExpr (Some e) => printable_expr e
  | PFun _ body => fold_right (fun e P => printable_expr e /\ P) True body
  end
with printable_expr (e : pexpr) : Prop :=
  match e with Call _ args => fold_right (fun a P => printable_arg a /\ P) True args end.
End Show.

(** Whether the lines fit: the block has 512 bytes and gets 256 more for each line that
    begins before the position 256; the text is followed by a NUL. *)
Fixpoint fits_from (size room pos : Z) (lines : list (list Z)) : bool :=
  match lines with
  | [] => true
  | l :: r =>
      let room := if pos <? 256 then size + 256 else room in
      (pos + zlen l + 1 <=? room) && fits_from (size + 256) room (pos + zlen l) r
  end.
Definition room_for (lines : list (list Z)) : bool := fits_from 512 512 0 lines.
