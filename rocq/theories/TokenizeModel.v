(** Model of tokenize of the expression language: osc_expr_lex and
    osc_expr_specFunc_tokenize (osc_expr.c), over the scanner of
    ExprParseModel.v. *)

From Coq Require Import String ZArith List Bool.
From Verif Require Import Base Text SerialModel AtomSModel AtomUModel StrfmtModel ScanModel ExprModel StatModel ExprParseModel
  ListTextModel.
Import ListNotations.
Open Scope Z_scope.

(** A string in an atom, osc_atom_u_setString. *)
Definition string_atom (s : list Z) : atom := Atom 115 0 (PStr s).

(** osc_expr_scanner.l:149-340 with alloc_atom 0: the atom of a token goes to
    yylval->atom, which osc_expr_lex has set; for other tokens [None]. *)
Definition token_atom (t : etoken) : option atom :=
  match t with
  | TNum a => Some a
  | TStr s | TAddr s | TQuoted s => Some (string_atom s)
  | _ => None
  end.

(** osc_expr.c:2020-2084: what osc_expr_lex writes for the other tokens; the
    tokens that are one character are the character. *)
Definition token_string (t : etoken) : list Z :=
  match t with
  | TNum _ | TStr _ | TAddr _ | TQuoted _ => []
  | TLambda => str "lambda"
  | TOpAssign OPow => str "^="
  | TOpAssign OMod => str "%="
  | TOpAssign ODiv => str "/="
  | TOpAssign OMul => str "*="
  | TOpAssign OSub => str "-="
  | TOpAssign OAdd => str "+="
  | TOpAssign _ => []
  | TElseAssign => str "??="
  | TElse => str "??"
  | TOp OOror => str "||"
  | TOp OAndand => str "&&"
  | TOp ONeq => str "!="
  | TOp OEq => str "="
  | TOp OGe => str ">="
  | TOp OLe => str "<="
  | TCloseDbl => str "]]"
  | TOpenDbl => str "[["
  | TStep false => str "--"
  | TStep true => str "++"
  | TOp OAdd => str "+" | TOp OSub => str "-" | TOp OMul => str "*" | TOp ODiv => str "/" | TOp OMod => str "%"
  | TOp OPow => str "^" | TNot => str "!" | TAssign => str "=" | TOpenSq => str "[" | TCloseSq => str "]"
  | TColon => str ":" | TQuest => str "?" | TOp OLt => str "<" | TOp OGt => str ">" | TTick => str "`"
  | TDot => str "." | TOp OAnd => str "&" | TOp OOr => str "|"
  | TComma => str "," | TSemi => str ";" | TOpen => str "(" | TClose => str ")" | TOpenBr => str "{" | TCloseBr => str "}"
  end.

(** osc_array.c:71-79 osc_array_get: the position, [None] is NULL. *)
Definition slot (ar : list atom) (i : Z) : option Z := if zlen ar <=? i then None else Some i.
(** An atom set through a pointer; the functions do nothing with NULL. *)
Definition set_slot (ar : list atom) (p : option Z) (a : atom) : res (list atom) :=
  match p with
  | None => Ok ar
  | Some i => if (i <? 0) || (zlen ar <=? i) then Ub OOB
              else Ok (firstn (Z.to_nat i) ar ++ a :: skipn (Z.to_nat i + 1) ar)
  end.
(** osc_array.c:123-141 osc_array_resize; new members are cleared, and resizing
    to nothing leaves an array without members. *)
Definition resize (ar : list atom) (n : Z) : list atom :=
  firstn (Z.to_nat n) (ar ++ repeat atom_fresh (Z.to_nat n)).

(** osc_expr.c:2015-2108, the loop.  The tokens left, with the information
    whether the scanner made an atom of its own for the token
    (osc_expr_scanner.l:206) and did not write to yylval->atom, which is [p].
    The copies of the atoms as text that are made and forgotten
    (osc_expr.c:2096-2099) are left out. *)
Fixpoint lex_loop (ts : list (etoken * bool)) (ar : list atom) (n i : Z) (p : option Z) : res (list atom) :=
  match ts with
  | [] => Ok (resize ar i)
  | (t, own) :: ts' =>
      do ar <- match token_atom t with
               | Some a => if own then Ok ar else set_slot ar p a
               | None => Ok ar
               end;
      let '(ar, n) := if i =? n then (resize ar (n + 64), n + 64) else (ar, n) in
      do ar <- match token_atom t with
               | Some _ => Ok ar
               | None => set_slot ar (slot ar i) (string_atom (token_string t))
               end;
      let i := i + 1 in
      lex_loop ts' ar n i (slot ar i)
  end.
(** osc_expr.c:1995-2014. *)
Definition lex_tokens (ts : list (etoken * bool)) : res (list atom) :=
  let n := 64 in
  let ar := repeat atom_fresh (Z.to_nat n) in
  lex_loop ts ar n 0 (slot ar 0).

Section Text.
Context (strtod : list Z -> Z) (junk : bytes).

(** The scanner of ExprParseModel.v (e_scan), with the information whether an
    atom of its own was made: at the end of a text with an escaped character
    (osc_expr_scanner.l:200-212). *)
Definition makes_own (l : elexer) : bool :=
  match e_mode l, e_buf l with InText, Some _ => true | _, _ => false end.
Fixpoint scan_own (fuel : nat) (l : elexer) (s : list Z) : res (list (etoken * bool)) :=
  match s with
  | [] => Ok []
  | _ :: s' =>
      match fuel with
      | O => Fuel
      | S fuel' =>
          match ScanModel.pick (rules_of strtod junk (e_mode l)) s with
          | None => scan_own fuel' l s'
          | Some (act, n) =>
              do ' (l', r, k) <- act (firstn n s) l;
              match r with
              | Finish => Ok []
              | Continue => scan_own fuel' l' (skipn k s)
              | Return t => do ts <- scan_own fuel' l' (skipn k s); Ok ((t, makes_own l) :: ts)
              end
          end
      end
  end.
(** osc_expr.c:1995-2116 osc_expr_lex. *)
Definition lex (s : list Z) : res (list atom) :=
  do ts <- scan_own (S (length s)) elexer_start s; lex_tokens ts.

(** osc_expr.c:1611-1642 osc_expr_specFunc_tokenize, from the value of the
    argument on. *)
Definition fn_tokenize (other : atom -> list Z) (arg : arr) : res arr :=
  match arg with
  | None => Ok None
  | Some l =>
      do expr <- match l with
                 | [Atom 115 _ (PStr s)] => Ok s
                 | [Atom 115 _ _] => Ub NullDeref
                 | _ => do ' (buf, _) <- list_text other junk arg 0 None (Some (str " ")); rdstr buf 0
                 end;
      do ar <- lex expr; Ok (Some ar)
  end.
End Text.
