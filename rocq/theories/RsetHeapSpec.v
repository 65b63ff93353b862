(** What a result set is to its user: for each selector, in the order of their
    first use, the complete and the partial matches in the order in which they
    were added; and the messages that nothing matched. *)

From Coq Require Import ZArith List Bool.
From Verif Require Import Base.
Import ListNotations.
Open Scope Z_scope.

Inductive call := Complete (sel : list Z) (msg : bytes) | Partial (sel : list Z) (msg : bytes) | Unmatched (msg : bytes).

Definition c_selector (c : call) : list (list Z) :=
  match c with Complete s _ | Partial s _ => [s] | Unmatched _ => [] end.

(** The selectors used, each once, in the order of their first use. *)
Fixpoint firsts (seen l : list (list Z)) : list (list Z) :=
  match l with
  | [] => []
  | s :: l => if in_dec (list_eq_dec Z.eq_dec) s seen then firsts seen l else s :: firsts (s :: seen) l
  end.
Definition selectors (cs : list call) : list (list Z) := firsts [] (flat_map c_selector cs).

(** What was added for a selector. *)
Definition completes (sel : list Z) (cs : list call) : list bytes :=
  flat_map (fun c => match c with Complete s m => if list_eq_dec Z.eq_dec s sel then [m] else [] | _ => [] end) cs.
Definition partials (sel : list Z) (cs : list call) : list bytes :=
  flat_map (fun c => match c with Partial s m => if list_eq_dec Z.eq_dec s sel then [m] else [] | _ => [] end) cs.
Definition unmatcheds (cs : list call) : list bytes :=
  flat_map (fun c => match c with Unmatched m => [m] | _ => [] end) cs.

(** What one result shows: its selector and its two bundles (none if nothing
    was added, for then the pointer is NULL). *)
Definition shown : Type := list Z * list bytes * list bytes.
Definition result_set (cs : list call) : list shown :=
  map (fun s => (s, completes s cs, partials s cs)) (selectors cs).
