(** What a query answers, as plain lists of messages. *)

From Coq Require Import ZArith List Bool.
From Verif Require Import Base Bytes MatchModel WireSpec.
Import ListNotations.
Open Scope Z_scope.

(** How the address of a message, read as a pattern, relates to a selector:
    it matches the whole selector; or a part of it of [n] characters does and
    more follows; or neither. *)
Inductive relation := Full | Extends (n : Z) | Neither.
Definition related (addr sel : list Z) : relation :=
  match osc_match addr sel with
  | Ok r => if code r =? 3 then Full else if code r =? 1 then Extends (poff r) else Neither
  | _ => Neither
  end.

(** One query: the messages of the bundle, the selectors (NULL ones are left
    out) and whether partial matches are stripped. *)
Record query := Query { q_msgs : list wmsg; q_sels : list (option (list Z)); q_strip : bool }.

Fixpoint selectors (l : list (option (list Z))) : list (list Z) :=
  match l with
  | [] => []
  | None :: l' => selectors l'
  | Some s :: l' => s :: selectors l'
  end.

(** A message without the first [n] characters of its address. *)
Definition strip_addr (n : Z) (w : wmsg) : wmsg := WM (skipn (Z.to_nat n) (w_addr w)) (w_args w).

(** Every message with every selector, message by message. *)
Definition pairs (q : query) : list (wmsg * list Z) := list_prod (q_msgs q) (selectors (q_sels q)).

Definition eqs (a b : list Z) : bool := if list_eq_dec Z.eq_dec a b then true else false.

(** What a query adds to the complete matches of [sel], *)
Definition complete_matches (sel : list Z) (q : query) : list wmsg :=
  map fst (filter (fun x => eqs (snd x) sel && match related (w_addr (fst x)) sel with Full => true | _ => false end)
             (pairs q)).

(** to its partial matches *)
Definition partial_matches (sel : list Z) (q : query) : list wmsg :=
  flat_map (fun x => if eqs (snd x) sel
                     then match related (w_addr (fst x)) sel with
                          | Extends n => [if q_strip q then strip_addr n (fst x) else fst x]
                          | _ => []
                          end
                     else [])
    (pairs q).

(** and to the messages that are in neither for any selector. *)
Definition unmatched (q : query) : list wmsg :=
  filter (fun w => forallb (fun sel => match related (w_addr w) sel with Neither => true | _ => false end)
                     (selectors (q_sels q)))
    (q_msgs q).

(** The selectors that got something, in the order in which they first did. *)
Definition hits (q : query) : list (list Z) :=
  map snd (filter (fun x => match related (w_addr (fst x)) (snd x) with Neither => false | _ => true end) (pairs q)).
Definition in_order (l : list (list Z)) : list (list Z) :=
  fold_left (fun acc s => if existsb (eqs s) acc then acc else acc ++ [s]) l [].

(** A list of messages as a serialized bundle with its length; nothing if
    there are none. *)
Definition bundle_of (ws : list wmsg) : option (Z * option bytes) :=
  match ws with
  | [] => None
  | _ => Some (zlen (empty_header ++ concat (map enc_wmsg ws)), Some (empty_header ++ concat (map enc_wmsg ws)))
  end.

(** The query can be carried out: the matcher does not give up
    (OSC_MATCH_ERROR_BACKTRACK_LIMIT_EXCEEDED), selectors are shorter than
    2^31, and a message that is stripped has type tags and what is left of its
    address is an address again: a slash and at least one more character, none
    of them a space or '#'. *)
Definition addressable (a : list Z) : Prop := hd 0 a = 47 /\ 2 <= zlen a /\ ~ In 35 a /\ ~ In 32 a.
Definition answerable (q : query) : Prop :=
  Forall wf_wmsg (q_msgs q) /\
  Forall (fun x => exists r, osc_match (w_addr (fst x)) (snd x) = Ok r /\ code r <> 2048) (pairs q) /\
  Forall (fun s => nonul s /\ zlen s < 2^31) (selectors (q_sels q)) /\
  (q_strip q = true -> forall w s n, In w (q_msgs q) -> In s (selectors (q_sels q)) ->
     related (w_addr w) s = Extends n ->
     w_args w <> None /\ addressable (skipn (Z.to_nat n) (w_addr w))).
