(** Specification of the OSC address pattern language, independent of the
    matcher: a pattern is written down from its components and tokens
    ([pattern_text]), and [token_matches] / [component_matches] say which
    address components it denotes.  Only [Base.zlen] is used. *)

From Coq Require Import ZArith List.
From Verif Require Import Base.
Import ListNotations.
Open Scope Z_scope.

(** ** Abstract patterns *)

Inductive token : Type :=
| TChar (c : Z)                        (* a literal character *)
| TAny                                 (* ?  : any one character *)
| TStar                                (* *  : any sequence of characters *)
| TSet (neg : bool) (body : list Z)    (* [body] or [!body] *)
| TAlt (alts : list (list Z)).         (* {alt,alt,...} *)

Definition component := list token.
Definition pattern := list component.
(** Components of an address, without the slashes. *)
Definition address := list (list Z).

(** ** Concrete syntax *)

Fixpoint join (sep : Z) (l : list (list Z)) : list Z :=
  match l with
  | [] => []
  | [x] => x
  | x :: l' => x ++ sep :: join sep l'
  end.

Definition token_text (t : token) : list Z :=
  match t with
  | TChar c => [c]
  | TAny => [63]
  | TStar => [42]
  | TSet neg body => [91] ++ (if neg then [33] else []) ++ body ++ [93]
  | TAlt alts => [123] ++ join 44 alts ++ [125]
  end.

Definition component_text (ts : component) : list Z := concat (map token_text ts).
Definition pattern_text (p : pattern) : list Z :=
  concat (map (fun ts => 47 :: component_text ts) p).
Definition address_text (a : address) : list Z := concat (map (cons 47) a).

(** Characters that stand for themselves: anything but NUL and / * ? [ ] { } *)
Definition plain_char (c : Z) : Prop :=
  ~ In c [0; 47; 42; 63; 91; 93; 123; 125].

(** Well-formed tokens.  A bracket list is not empty and does not contain
    its own closing bracket; an alternation has non-empty alternatives. *)
Definition token_ok (t : token) : Prop :=
  match t with
  | TChar c => plain_char c
  | TAny | TStar => True
  | TSet neg body =>
      body <> [] /\ Forall (fun c => ~ In c [0; 47; 93]) body /\
      (neg = false -> hd 0 body <> 33)
  | TAlt alts =>
      alts <> [] /\
      Forall (fun w => w <> [] /\ Forall (fun c => ~ In c [0; 47; 44; 125]) w) alts
  end.

Definition pattern_ok (p : pattern) : Prop := p <> [] /\ Forall (Forall token_ok) p.

(** Address components contain neither NUL nor slash. *)
Definition address_ok (a : address) : Prop :=
  a <> [] /\ Forall (Forall (fun c => c <> 0 /\ c <> 47)) a.

(** ** Meaning *)

(** The intervals a bracket list denotes: [x-y] is a range (in either
    order), any other character stands for itself; a minus sign that is not
    between two characters is an ordinary character. *)
Fixpoint intervals (body : list Z) : list (Z * Z) :=
  match body with
  | x :: ((45 :: y :: rest) as tl) => (x, y) :: intervals rest
  | x :: tl => (x, x) :: intervals tl
  | [] => []
  end.

Definition in_body (body : list Z) (c : Z) : Prop :=
  Exists (fun i => fst i <= c <= snd i \/ snd i <= c <= fst i) (intervals body).

(** [token_matches t w]: token [t] matches exactly the characters [w]. *)
Inductive token_matches : token -> list Z -> Prop :=
| TM_char c : token_matches (TChar c) [c]
| TM_any c : token_matches TAny [c]
| TM_star w : token_matches TStar w
| TM_set body c : in_body body c -> token_matches (TSet false body) [c]
| TM_neg body c : ~ in_body body c -> token_matches (TSet true body) [c]
| TM_alt alts w : In w alts -> token_matches (TAlt alts) w.

(** A sequence of tokens matches the concatenation of what they match. *)
Inductive tokens_match : component -> list Z -> Prop :=
| TSM_nil : tokens_match [] []
| TSM_cons t ts w ws : token_matches t w -> tokens_match ts ws -> tokens_match (t :: ts) (w ++ ws).

(** A pattern component matches an address component; an address component
    that consists of a single star matches any pattern component (libo's
    documented extension). *)
Definition component_matches (ts : component) (a : list Z) : Prop :=
  a = [42] \/ tokens_match ts a.

(** The result for a pattern and an address, from left to right: the return
    code and the components left over on both sides.  Bit 0 of the code says
    that the whole address was consumed, bit 1 that the whole pattern was. *)
Inductive outcome : pattern -> address -> Z -> pattern -> address -> Prop :=
| O_both : outcome [] [] 3 [] []
| O_address t p : outcome (t :: p) [] 1 (t :: p) []
| O_pattern w a : outcome [] (w :: a) 2 [] (w :: a)
| O_step t p w a code p' a' :
    component_matches t w -> outcome p a code p' a' ->
    outcome (t :: p) (w :: a) code p' a'
| O_fail t p w a : ~ component_matches t w -> outcome (t :: p) (w :: a) 0 (t :: p) (w :: a).

(** Number of backtrack entries a component can need against an address
    component of length [n]: a star may leave one entry per address
    character, an alternation one per alternative. *)
Definition token_cost (n : Z) (t : token) : Z :=
  match t with
  | TStar => n
  | TAlt alts => zlen alts
  | _ => 0
  end.
Definition component_cost (n : Z) (ts : component) : Z :=
  fold_right (fun t acc => token_cost n t + acc) 0 ts.
