(** Expressions as text: how tokens are spelled, and where one ends and the next
    begins. *)

From Coq Require Import String ZArith List Bool.
From Verif Require Import Base Text SerialModel AtomSpec ScanSpec ExprParseModel.
From Verif Require ExprParseSpec.
Import ListNotations.
Open Scope Z_scope.

(** Operators, brackets and so on are always spelled the same. *)
Definition sign (t : etoken) : option (list Z) :=
  match t with
  | TOp o => Some (ExprParseSpec.spelling o)
  | TOpAssign o =>
      match o with
      | OAdd | OSub | OMul | ODiv | OMod | OPow => Some (ExprParseSpec.spelling o ++ str "=")
      | _ => None
      end
  | TStep inc => Some (if inc then str "++" else str "--")
  | TNot => Some (str "!") | TAssign => Some (str "=") | TQuest => Some (str "?") | TColon => Some (str ":")
  | TElse => Some (str "??") | TElseAssign => Some (str "??=") | TComma => Some (str ",") | TDot => Some (str ".")
  | TTick => Some (str "`") | TOpen => Some (str "(") | TClose => Some (str ")")
  | TOpenSq => Some (str "[") | TCloseSq => Some (str "]") | TOpenDbl => Some (str "[[") | TCloseDbl => Some (str "]]")
  | TOpenBr => Some (str "{") | TCloseBr => Some (str "}")
  | _ => None
  end.

(** Characters that end a name, and those that end an address. *)
Definition blanks : list Z := [32; 9; 10].
Definition address_ends : list Z := str ".+-*%^!=[]:;,?<>&|\{}()`" ++ blanks.
Definition name_ends : list Z := 39 :: 34 :: 47 :: address_ends.
Definition next_in (l : list Z) (rest : list Z) : Prop := match rest with [] => True | c :: _ => In c l end.
Definition no_sign_from (s : list Z) : Prop := forall t x, sign t <> Some (s ++ x).

(** Words that are not names. *)
Definition yes : list (list Z) := [str "true"; str "True"; str "TRUE"].
Definition no : list (list Z) := [str "false"; str "False"; str "FALSE"].
Definition nothing : list (list Z) := [str "nil"; str "Nil"; str "NIL"].
Definition reserved : list (list Z) := yes ++ no ++ nothing ++ [str "lambda"; str "quote"].

(** After a number. *)
Definition after_number (w rest : list Z) : Prop :=
  match rest with
  | [] => True
  | c :: _ => In c name_ends /\ c <> 46 /\ ((c = 43 \/ c = 45) -> ~ In (last w 0) (str "eE"))
  end.

(** A double quote in a text is written with a backslash before it. *)
Definition with_backslashes (s : list Z) : list Z := flat_map (fun c => if c =? 34 then [92; 34] else [c]) s.

(** Texts in which the parentheses fit together. *)
Inductive balanced : list Z -> Prop :=
| bal_nil : balanced []
| bal_char c s : ~ In c [40; 41; 92] -> balanced s -> balanced (c :: s)
| bal_pair s s' : balanced s -> balanced s' -> balanced (40 :: s ++ 41 :: s').

Section Text.
Context (strtod : list Z -> Z).

(** [spells w rest t]: [w] spells the token [t] where [rest] comes after it. *)
Inductive spells : list Z -> list Z -> etoken -> Prop :=
| sp_sign t s rest : sign t = Some s ->
    match rest with
    | [] => True
    | c :: _ => no_sign_from (s ++ [c]) /\ (t = TDot -> ~ 48 <= c <= 57) /\ (t = TOp ODiv -> In c address_ends)
    end -> spells s rest t
| sp_number n rest : 0 <= n < 2^63 -> after_number (numeral n) rest ->
    spells (numeral n) rest (TNum (set_int32 atom_fresh (s32 n)))
| sp_double w rest : decimal_constant w -> hd 0 w <> 45 -> after_number w rest ->
    spells w rest (TNum (set_double atom_fresh (strtod w)))
| sp_hex x s rest : In x (str "xX") -> s <> [] -> Forall is_hex s -> zlen s <= 8 -> after_number s rest ->
    spells ([48; x] ++ s) rest (TNum (set_uint32 atom_fresh (hex_number s)))
| sp_hex64 x s rest : In x (str "xX") -> Forall is_hex s -> 8 < zlen s -> after_number s rest ->
    spells ([48; x] ++ s) rest (TNum (set_uint64 atom_fresh (Z.min (2^64 - 1) (hex_number s))))
| sp_char c rest : c <> 0 -> c <> 10 -> spells [39; c; 39] rest (TNum (set_int8 atom_fresh (s8 c)))
| sp_yes w rest : In w yes -> next_in name_ends rest -> spells w rest (TNum (set_true atom_fresh))
| sp_no w rest : In w no -> next_in name_ends rest -> spells w rest (TNum (set_false atom_fresh))
| sp_nothing w rest : In w nothing -> next_in name_ends rest -> spells w rest (TNum (set_nil atom_fresh))
| sp_lambda rest : next_in name_ends rest -> spells (str "lambda") rest TLambda
| sp_address s rest : s <> [] -> nonul s -> Forall (fun c => ~ In c address_ends) s -> next_in address_ends rest ->
    spells (47 :: s) rest (TAddr (47 :: s))
| sp_name c s rest : nonul (c :: s) -> c <> 35 -> ~ 48 <= c <= 57 -> Forall (fun c => ~ In c name_ends /\ ~ 11 <= c <= 13) (c :: s) ->
    ~ In (c :: s) reserved -> next_in name_ends rest -> spells (c :: s) rest (TStr (c :: s))
| sp_string s rest : nonul s -> ~ In 92 s -> spells ([34] ++ with_backslashes s ++ [34]) rest (TStr s)
| sp_quote b s rest : Forall (fun c => In c blanks) b -> nonul s -> balanced s ->
    spells (str "quote" ++ b ++ [40] ++ s ++ [41]) rest (TQuoted s).

(** Texts and the tokens they say.  Blanks and comments may stand between tokens. *)
Inductive says : list Z -> list etoken -> Prop :=
| says_end : says [] []
| says_blank b rest ts : b <> [] -> Forall (fun c => In c blanks) b ->
    match rest with [] => True | c :: _ => ~ In c blanks end -> says rest ts -> says (b ++ rest) ts
| says_comment s rest ts : nonul s -> ~ In 10 s -> next_in [10] rest -> says rest ts -> says (35 :: s ++ rest) ts
| says_token w t rest ts : spells w rest t -> says rest ts -> says (w ++ rest) (t :: ts).
End Text.
