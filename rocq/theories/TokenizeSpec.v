(** What tokenize gives for a token (C101). *)

From Coq Require Import String ZArith List Bool.
From Verif Require Import Base Text SerialModel AtomUModel ExprParseModel.
Import ListNotations.
Open Scope Z_scope.

(** Tokens with a value of their own: numbers, texts, addresses, quoted
    expressions. *)
Inductive valued : etoken -> atom -> Prop :=
| valued_num a : valued (TNum a) a
| valued_str s w : w = 0 -> valued (TStr s) (Atom 115 w (PStr s))
| valued_addr s w : w = 0 -> valued (TAddr s) (Atom 115 w (PStr s))
| valued_quoted s w : w = 0 -> valued (TQuoted s) (Atom 115 w (PStr s)).

(** How a token without value is shown: as it is spelled (the table of the
    scanner), but for == which is shown as =. *)
Inductive shown_as : etoken -> list Z -> Prop :=
| shown_lambda : shown_as TLambda (str "lambda")
| shown_eq : shown_as (TOp OEq) (str "=")
| shown_symbol s t : t <> TOp OEq -> In (s, t) symbols -> shown_as t s.

(** The member for the token at position [k]; [own]: a text with an escaped
    character.  Nothing is there for such a text, and for a token with a value
    at position 64, 128, ... *)
Definition dropped (k : nat) (own : bool) : Prop := own = true \/ exists j, (k = 64 * (j + 1))%nat.
Inductive member_for (k : nat) : etoken * bool -> atom -> Prop :=
| member_value t own a : valued t a -> ~ dropped k own -> member_for k (t, own) a
| member_dropped t own a : valued t a -> dropped k own -> member_for k (t, own) atom_fresh
| member_symbol t own s : shown_as t s -> member_for k (t, own) (Atom 115 0 (PStr s)).
