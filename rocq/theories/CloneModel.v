(** Model of osc_linkedlist.c:82-108: copying a linked list, in the heap of
    HeapModel.v.  The data of an element is never NULL, since prepend and append
    do not add NULL.  [copy] is the user's function that copies the data; [None]
    is the NULL it may leave.  It does not touch the elements of the lists.
    [news] are the places malloc returns, one after the other. *)

From Coq Require Import ZArith List Bool.
From Verif Require Import Base HeapModel.
Import ListNotations.
Open Scope Z_scope.

Section Clone.
Context {V : Type}.

(** osc_linkedlist.c:361-365, the loop of osc_linkedlist_iterate, with 82-90
    osc_linkedlist_cloneCallback: [next] is read before the callback; a copy
    that is NULL is not appended (146).  [k] bounds the number of turns. *)
Fixpoint clone_loop (k : nat) (h : heap V) (p : ptr) (c : ends) (copy : V -> option V) (news : list Z)
  : res (heap V * ends) :=
  match p with
  | None => Ok (h, c)
  | Some _ =>
      match k with
      | O => Fuel
      | S k =>
          do n <- get h p;
          match copy (n_val n) with
          | None => clone_loop k h (n_next n) c copy news
          | Some w =>
              match news with
              | [] => Fuel
              | l :: news => do ' (h, c) <- ll_append h c l w; clone_loop k h (n_next n) c copy news
              end
          end
      end
  end.

(** osc_linkedlist.c:92-100 osc_linkedlist_clone: ll->dtor is read without a
    test of [ll]. *)
Definition ll_clone (k : nat) (h : heap V) (ll : option ends) (copy : V -> option V) (news : list Z)
  : res (heap V * ends) :=
  match ll with
  | None => Ub NullDeref
  | Some ll => clone_loop k h (e_head ll) (Ends None None 0) copy news
  end.

End Clone.
