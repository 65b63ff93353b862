(** Linked structures in memory: a heap of nodes, and the list operations of
    osc_message_u.c (arguments of a message) and osc_linkedlist.c on it.

    A pointer is NULL ([None]) or an address.  Reading or writing a node that
    is not there is undefined behaviour ([Dangling]), so a freed node cannot be
    used unnoticed. *)

From Coq Require Import ZArith List Bool.
From Verif Require Import Base.
Import ListNotations.
Open Scope Z_scope.

Section Heap.
Context {V : Type}.

Definition ptr := option Z.
(** The links of an atom (osc_atom_u.r:58-61), of a message
    (osc_message_u.r:50) and of a list element (osc_linkedlist.r:37-40), and
    all the rest of it. *)
Record node := Nd { n_next : ptr; n_prev : ptr; n_val : V }.
Definition heap := Z -> option node.

Definition upd (h : heap) (l : Z) (n : node) : heap := fun x => if x =? l then Some n else h x.
Definition release (h : heap) (l : Z) : heap := fun x => if x =? l then None else h x.

Definition get (h : heap) (p : ptr) : res node :=
  match p with
  | None => Ub NullDeref
  | Some l => match h l with Some n => Ok n | None => Ub Dangling end
  end.
Definition put_next (h : heap) (p : ptr) (q : ptr) : res heap :=
  match p with
  | None => Ub NullDeref
  | Some l => do n <- get h p; Ok (upd h l (Nd q (n_prev n) (n_val n)))
  end.
Definition put_prev (h : heap) (p : ptr) (q : ptr) : res heap :=
  match p with
  | None => Ub NullDeref
  | Some l => do n <- get h p; Ok (upd h l (Nd (n_next n) q (n_val n)))
  end.
(** [free(p)]; releasing what is not allocated is undefined. *)
Definition free (h : heap) (p : ptr) : res heap :=
  match p with
  | None => Ok h
  | Some l => do _ <- get h p; Ok (release h l)
  end.
Definition ptr_eqb (p q : ptr) : bool :=
  match p, q with
  | None, None => true
  | Some a, Some b => a =? b
  | _, _ => false
  end.

(** The ends and the count of a list: [arghead], [argtail] and [argc] of a
    message; [head], [tail] and [count] of a linked list. *)
Record ends := Ends { e_head : ptr; e_tail : ptr; e_count : Z }.

(** Follow [next] ([prev]) [k] times. *)
Fixpoint forward (h : heap) (p : ptr) (k : nat) : res ptr :=
  match k with
  | O => Ok p
  | S k' => do n <- get h p; forward h (n_next n) k'
  end.
Fixpoint backward (h : heap) (p : ptr) (k : nat) : res ptr :=
  match k with
  | O => Ok p
  | S k' => do n <- get h p; backward h (n_prev n) k'
  end.

(** * osc_message_u.c *)

(** osc_message_u.c:240-253 osc_message_u_appendAtom.  The message and the
    atom are not NULL; [argc] is taken not to overflow. *)
Definition append_atom (h : heap) (m : ends) (a : Z) : res (heap * ends) :=
  let argc := e_count m + 1 in
  match e_head m with
  | None =>
      do h <- put_next h (Some a) None;
      do h <- put_prev h (Some a) None;
      Ok (h, Ends (Some a) (Some a) argc)
  | Some _ =>
      do h <- put_next h (e_tail m) (Some a);
      do h <- put_prev h (Some a) (e_tail m);
      do h <- put_next h (Some a) None;
      Ok (h, Ends (e_head m) (Some a) argc)
  end.

(** osc_message_u.c:255-268 osc_message_u_prependAtom. *)
Definition prepend_atom (h : heap) (m : ends) (a : Z) : res (heap * ends) :=
  let argc := e_count m + 1 in
  match e_head m with
  | None =>
      do h <- put_next h (Some a) None;
      do h <- put_prev h (Some a) None;
      Ok (h, Ends (Some a) (Some a) argc)
  | Some _ =>
      do h <- put_next h (Some a) (e_head m);
      do h <- put_prev h (e_head m) (Some a);
      do h <- put_prev h (Some a) None;
      Ok (h, Ends (Some a) (e_tail m) argc)
  end.

(** osc_message_u.c:270-316 osc_message_u_insertAtom.  [front] is the outcome
    of the float comparison [(float)pos / m->argc < .5] (line 297), left open
    here except that it is true for negative positions; it only decides from
    which end the list is walked. *)
Definition insert_atom (front : bool) (h : heap) (m : ends) (a pos : Z) : res (heap * ends) :=
  let argc := e_count m + 1 in
  match e_head m with
  | None =>
      do h <- put_next h (Some a) None;
      do h <- put_prev h (Some a) None;
      Ok (h, Ends (Some a) (Some a) argc)
  | Some _ =>
      if pos >=? e_count m then
        do h <- match e_tail m with None => Ok h | Some _ => put_next h (e_tail m) (Some a) end;
        do h <- put_prev h (Some a) (e_tail m);
        Ok (h, Ends (e_head m) (Some a) argc)
      else if pos =? 0 then
        do h <- put_next h (Some a) (e_head m);
        do h <- put_prev h (e_head m) (Some a);
        do h <- put_prev h (Some a) None;
        Ok (h, Ends (Some a) (e_tail m) argc)
      else
        do aa <- (if (pos <? 0) || front then forward h (e_head m) (Z.to_nat pos)
                  else backward h (e_tail m) (Z.to_nat (e_count m - (pos + 1))));
        do n <- get h aa;
        do h <- match n_prev n with None => Ok h | Some _ => put_next h (n_prev n) (Some a) end;
        do h <- put_prev h (Some a) (n_prev n);
        do h <- put_next h (Some a) aa;
        do h <- put_prev h aa (Some a);
        Ok (h, Ends (e_head m) (e_tail m) argc)
  end.

(** osc_message_u.c:318-336 osc_message_u_removeAtom: the links of the atom
    itself stay as they are. *)
Definition remove_atom (h : heap) (m : ends) (a : Z) : res (heap * ends) :=
  do n <- get h (Some a);
  do h <- match n_next n with None => Ok h | Some _ => put_prev h (n_next n) (n_prev n) end;
  do h <- match n_prev n with None => Ok h | Some _ => put_next h (n_prev n) (n_next n) end;
  Ok (h, Ends (if ptr_eqb (Some a) (e_head m) then n_next n else e_head m)
              (if ptr_eqb (Some a) (e_tail m) then n_prev n else e_tail m)
              (e_count m - 1)).

(** osc_message_u.c:212-238 osc_message_u_getArg.  The quotient of line 227 is
    at least 1 for positive [n < argc], so the list is walked from its tail;
    for negative [n] it is not positive, and the walk from the head ends at
    once. *)
Definition get_atom (h : heap) (m : ends) (n : Z) : res ptr :=
  if e_count m <=? n then Ok None
  else if n =? 0 then Ok (e_head m)
  else if n <? 0 then Ok (e_head m)
  else backward h (e_tail m) (Z.to_nat (e_count m - 1 - n)).

(** Release a chain of nodes: osc_message_u.c:58-64 (osc_message_u_free), 80-90
    (osc_message_u_clearArgs), osc_linkedlist.c:60-76; [k] bounds the number of
    nodes.  What the node owns itself is released along with it. *)
Fixpoint free_chain (k : nat) (h : heap) (p : ptr) : res heap :=
  match p with
  | None => Ok h
  | Some _ =>
      match k with
      | O => Fuel
      | S k' => do n <- get h p; do h <- free h p; free_chain k' h (n_next n)
      end
  end.

(** osc_message_u.c:75-91 osc_message_u_clearArgs. *)
Definition clear_args (k : nat) (h : heap) (m : ends) : res (heap * ends) :=
  do h <- free_chain k h (e_head m); Ok (h, Ends None None 0).

(** * osc_linkedlist.c *)

(** osc_linkedlist.c:109-118 elem_alloc at a place [l] that malloc returned. *)
Definition elem_alloc (h : heap) (l : Z) (v : V) : heap := upd h l (Nd None None v).

(** osc_linkedlist.c:127-142 osc_linkedlist_prepend. *)
Definition ll_prepend (h : heap) (ll : ends) (l : Z) (v : V) : res (heap * ends) :=
  let h := elem_alloc h l v in
  match e_head ll with
  | Some _ =>
      do h <- put_prev h (e_head ll) (Some l);
      do h <- put_next h (Some l) (e_head ll);
      do h <- put_prev h (Some l) None;
      Ok (h, Ends (Some l) (e_tail ll) (e_count ll + 1))
  | None => Ok (h, Ends (Some l) (Some l) (e_count ll + 1))
  end.

(** osc_linkedlist.c:144-159 osc_linkedlist_append. *)
Definition ll_append (h : heap) (ll : ends) (l : Z) (v : V) : res (heap * ends) :=
  let h := elem_alloc h l v in
  match e_tail ll with
  | Some _ =>
      do h <- put_next h (e_tail ll) (Some l);
      do h <- put_next h (Some l) None;
      do h <- put_prev h (Some l) (e_tail ll);
      Ok (h, Ends (e_head ll) (Some l) (e_count ll + 1))
  | None => Ok (h, Ends (Some l) (Some l) (e_count ll + 1))
  end.

(** osc_linkedlist.c:161-190 osc_linkedlist_unlink. *)
Definition ll_unlink (h : heap) (ll : ends) (l : Z) : res (heap * ends) :=
  do n <- get h (Some l);
  let head := if ptr_eqb (e_head ll) (Some l) then n_next n else e_head ll in
  let tail := if ptr_eqb (e_tail ll) (Some l) then n_prev n else e_tail ll in
  do h <- match n_next n with None => Ok h | Some _ => put_prev h (n_next n) (n_prev n) end;
  do h <- match n_prev n with None => Ok h | Some _ => put_next h (n_prev n) (n_next n) end;
  do h <- put_prev h (Some l) None;
  do h <- put_next h (Some l) None;
  Ok (h, Ends head tail (e_count ll - 1)).

(** osc_linkedlist.c:208-232 peekHead and peekTail. *)
Definition peek (h : heap) (p : ptr) : res (option V) :=
  match p with
  | None => Ok None
  | Some _ => do n <- get h p; Ok (Some (n_val n))
  end.

(** The two loops of osc_linkedlist.c:244-266 and 309-336: walk until the
    counter [i] is [n] or the end is reached. *)
Fixpoint seek_forward (k : nat) (h : heap) (p : ptr) (i n : Z) : res ptr :=
  match p with
  | None => Ok None
  | Some _ =>
      if i =? n then Ok p else
      match k with
      | O => Fuel
      | S k' => do nd <- get h p; seek_forward k' h (n_next nd) (i + 1) n
      end
  end.
Fixpoint seek_backward (k : nat) (h : heap) (p : ptr) (i n : Z) : res ptr :=
  match p with
  | None => Ok None
  | Some _ =>
      if i =? n then Ok p else
      match k with
      | O => Fuel
      | S k' => do nd <- get h p; seek_backward k' h (n_prev nd) (i - 1) n
      end
  end.

(** The element peekNth and popNth settle on (234-269, 303-349).  [n] is an int,
    [count] an unsigned long: the comparisons convert [n] to unsigned long. *)
Definition ll_nth (h : heap) (ll : ends) (n : Z) : res ptr :=
  if n =? 0 then Ok (e_head ll)
  else if (u64 n =? u64 (e_count ll - 1)) || (n =? -1) then Ok (e_tail ll)
  else
    let k := S (Z.to_nat (e_count ll)) in
    if u64 n <? e_count ll / 2 then seek_forward k h (e_head ll) 0 n
    else seek_backward k h (e_tail ll) (s32 (e_count ll - 1)) n.

(** osc_linkedlist.c:234-269 osc_linkedlist_peekNth. *)
Definition ll_peek_nth (h : heap) (ll : ends) (n : Z) : res (option V) :=
  do p <- ll_nth h ll n; peek h p.

(** osc_linkedlist.c:271-300, 303-349 popHead, popTail, popNth: unlink the
    element, take its data, release it. *)
Definition ll_pop (h : heap) (ll : ends) (p : ptr) : res (heap * ends * option V) :=
  match p with
  | None => Ok (h, ll, None)
  | Some l =>
      do ' (h, ll) <- ll_unlink h ll l;
      do n <- get h p;
      do h <- free h p;
      Ok (h, ll, Some (n_val n))
  end.
Definition ll_pop_head (h : heap) (ll : ends) : res (heap * ends * option V) := ll_pop h ll (e_head ll).
Definition ll_pop_tail (h : heap) (ll : ends) : res (heap * ends * option V) := ll_pop h ll (e_tail ll).
Definition ll_pop_nth (h : heap) (ll : ends) (n : Z) : res (heap * ends * option V) :=
  do p <- ll_nth h ll n; ll_pop h ll p.

(** osc_linkedlist.c:56-80 osc_linkedlist_clear. *)
Definition ll_clear (k : nat) (h : heap) (ll : ends) : res (heap * ends) :=
  do h <- free_chain k h (e_head ll); Ok (h, Ends None None 0).

(** osc_linkedlist.c:352-368 osc_linkedlist_iterate: the calls of [cb] as a
    list of index and data; the call with index -1 at the end is the same for
    every list.  [next] is read before the call; the callback is taken not to
    change the list. *)
Fixpoint ll_iterate (k : nat) (h : heap) (p : ptr) (i : Z) : res (list (Z * V)) :=
  match p with
  | None => Ok []
  | Some _ =>
      match k with
      | O => Fuel
      | S k' =>
          do n <- get h p;
          do r <- ll_iterate k' h (n_next n) (i + 1);
          Ok ((i, n_val n) :: r)
      end
  end.

End Heap.
Arguments node : clear implicits.
Arguments heap : clear implicits.
