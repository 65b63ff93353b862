(** What the string functions of the expression language mean (C67-C70). *)

From Coq Require Import String ZArith List Bool.
From Verif Require Import Base Text SerialModel AtomUModel AtomSpec RealSpec AtomProofs TextProps.
Import ListNotations.
Open Scope Z_scope.

(** The text of a member: a string is itself, a number of 16 or more bits its
    decimal numeral, a character stands between quotes.  [other] gives the text
    of floats, doubles and time tags. *)
Inductive shown (other : atom -> list Z) : atom -> list Z -> Prop :=
| shown_string w s : characters s -> shown other (Atom 115 w (PStr s)) s
| shown_int t a v : in_type t v -> t <> I8 -> t <> U8 -> shown other (set_u t a v) (numeral v)
| shown_char a v : in_type I8 v -> v <> 0 -> shown other (set_u I8 a v) [39; v mod 2^8; 39]
| shown_true a : shown other (set_true a) (str "true")
| shown_false a : shown other (set_false a) (str "false")
| shown_other tg w p : In tg [102; 100; 116] -> characters (other (Atom tg w p)) ->
    shown other (Atom tg w p) (other (Atom tg w p)).

(** * Comparing *)

(** An int result [r] says how [s1] and [s2] compare. *)
Definition compares (s1 s2 : list Z) (r : Z) : Prop :=
  in_type I32 r /\ (r < 0 <-> precedes s1 s2) /\ (r > 0 <-> precedes s2 s1) /\ (r = 0 <-> s1 = s2).

(** * Finding *)

(** [sub] stands at position [p] of [s]. *)
Definition occurs (sub s : list Z) (p : Z) : Prop :=
  exists x y, s = x ++ sub ++ y /\ p = zlen x.
(** The places found from left to right that do not overlap: each is an
    occurrence, one starts only after the one before has ended, and every
    occurrence starts inside one of them. *)
Definition disjoint_places (sub s : list Z) (ps : list Z) : Prop :=
  (forall p, In p ps -> occurs sub s p) /\
  (forall ps1 p q ps2, ps = ps1 ++ p :: q :: ps2 -> p + zlen sub <= q) /\
  (forall p, occurs sub s p -> exists q, In q ps /\ q <= p < q + zlen sub).

(** * Splitting *)

(** [ts] are the longest pieces of the string that have no separator in them;
    any of the characters [sep] separates. *)
Definition separators (sep g : list Z) : Prop := Forall (fun c => In c sep) g.
Definition piece (sep t : list Z) : Prop := t <> [] /\ Forall (fun c => ~ In c sep) t.
Inductive pieces (sep : list Z) : list Z -> list (list Z) -> Prop :=
| pieces_none g : separators sep g -> pieces sep g []
| pieces_last g t : separators sep g -> piece sep t -> pieces sep (g ++ t) [t]
| pieces_more g t c s ts : separators sep g -> piece sep t -> In c sep -> pieces sep (c :: s) ts ->
    pieces sep (g ++ t ++ c :: s) (t :: ts).

(** * Joining *)

(** [ts] with [sep] between neighbours. *)
Fixpoint joined (sep : list Z) (ts : list (list Z)) : list Z :=
  match ts with
  | [] => []
  | [t] => t
  | t :: ts' => t ++ sep ++ joined sep ts'
  end.
(** The text joined for a member: as above, but a character without quotes. *)
Inductive joins (other : atom -> list Z) : atom -> list Z -> Prop :=
| joins_shown a s : a_tt a <> 99 -> a_tt a <> 67 -> shown other a s -> joins other a s
| joins_char a v : in_type I8 v -> v <> 0 -> joins other (set_u I8 a v) [v mod 2^8]
| joins_uchar a v : in_type U8 v -> 10 <= v -> joins other (set_u U8 a v) [v].
