(** Model of the result set of a query with its memory: osc_rset.c with the
    links between the results, the iterator and osc_rset_free, which
    QueryModel.v leaves out.

    Memory maps addresses to blocks; address 0 is NULL.  A block is a text, the
    bundle of the matches, or a result.  A t_osc_bndl_s and the buffer it points
    to are one block [OMsgs] with the messages in order (what the bytes are is
    in QueryModel.v, [append_b]).  The hash table is the sequence of its
    elements, each with the address of its key and its value; where they are in
    the slots, and the memory of the table and of the rset itself, are left out.
    The order in which osc_hashtab_clear meets the elements depends on the hash,
    so [rset_free] takes it as an argument.  Allocation succeeds and never gives
    an address twice. *)

From Coq Require Import ZArith List Bool.
From Verif Require Import Base.
Import ListNotations.
Open Scope Z_scope.

(** osc_rset.r:36-42 struct _osc_rset_result: selector, complete_matches,
    partial_matches, next, prev (selector_len is the length of the selector). *)
Record cell := Cell { c_sel : Z; c_com : Z; c_par : Z; c_next : Z; c_prev : Z }.
Inductive obj := OText (s : list Z) | OMsgs (l : list bytes) | ORes (c : cell).

Definition mem := Z -> option obj.
(** A store to, or the end of, the block at [a]. *)
Definition upd (m : mem) (a : Z) (o : option obj) : mem := fun b => if b =? a then o else m b.

(** osc_rset.r:44-50 struct _osc_rset: ht, selectors, current_selector,
    numselectors, unmatched; with the memory and the next address malloc gives. *)
Record rset := Rset { mm : mem; nxt : Z; ht : list (Z * Z); sels : Z; cur : Z; num : Z; unm : Z }.

Definition with_mem (st : rset) (m : mem) : rset := Rset m (nxt st) (ht st) (sels st) (cur st) (num st) (unm st).

(** osc_mem_alloc (osc_mem.c) and the stores that fill the block. *)
Definition alloc (st : rset) (o : obj) : rset * Z :=
  (Rset (upd (mm st) (nxt st) (Some o)) (nxt st + 1) (ht st) (sels st) (cur st) (num st) (unm st), nxt st).

(** osc_mem_free (osc_mem.c) of a pointer that is not NULL: a block that is not
    there any more is a double free. *)
Definition free_block (m : mem) (a : Z) : res mem :=
  match m a with Some _ => Ok (upd m a None) | None => Ub Dangling end.

(** Reading a result, a text or a bundle through a pointer. *)
Definition get_cell (m : mem) (p : Z) : res cell :=
  if p =? 0 then Ub NullDeref else match m p with Some (ORes c) => Ok c | _ => Ub Dangling end.
Definition get_text (m : mem) (p : Z) : res (list Z) :=
  if p =? 0 then Ub NullDeref else match m p with Some (OText s) => Ok s | _ => Ub Dangling end.
Definition get_msgs (m : mem) (p : Z) : res (list bytes) :=
  if p =? 0 then Ub NullDeref else match m p with Some (OMsgs l) => Ok l | _ => Ub Dangling end.

(** osc_rset.c:50-61 osc_rset_alloc, in memory where nothing else is. *)
Definition rset_alloc : rset := Rset (fun _ => None) 1 [] 0 0 0 0.

(** osc_rset.c:237-249 osc_rset_result_alloc: the result and a copy of the
    selector (osc_util.c osc_util_strdup). *)
Definition result_alloc (st : rset) (sel : list Z) : rset * Z :=
  let '(st, k) := alloc st (OText sel) in
  alloc st (ORes (Cell k 0 0 0 0)).

(** osc_bundle_s.c:89-97 osc_bundle_s_deepFree. *)
Definition deep_free (m : mem) (p : Z) : res mem := if p =? 0 then Ok m else free_block m p.

(** osc_rset.c:251-265 osc_rset_result_free. *)
Definition result_free (m : mem) (p : Z) : res mem :=
  if p =? 0 then Ok m else
  do c <- get_cell m p;
  do m <- (if c_sel c =? 0 then Ok m else free_block m (c_sel c));
  do m <- deep_free m (c_com c);
  do m <- deep_free m (c_par c);
  free_block m p.

(** osc_rset.c:287-292 osc_rset_hashtab_dtor. *)
Definition dtor (m : mem) (k v : Z) : res mem := if k =? 0 then Ok m else result_free m v.

Fixpoint text_eqb (a b : list Z) : bool :=
  match a, b with
  | [], [] => true
  | x :: a, y :: b => (x =? y) && text_eqb a b
  | _, _ => false
  end.

(** osc_hashtab.c:220-233 osc_hashtab_lookup: the keys are read where they are
    now (strcmp).  Only the elements of the slot are looked at in the code. *)
Fixpoint ht_lookup (m : mem) (t : list (Z * Z)) (key : list Z) : res Z :=
  match t with
  | [] => Ok 0
  | (k, v) :: t => do s <- get_text m k; if text_eqb s key then Ok v else ht_lookup m t key
  end.

(** osc_hashtab.c:137-161 osc_hashtab_store_elem: the destructor runs for an
    element with the same key, which then gets the new key and value; otherwise
    there is one more element.  [key] is the text at [kp]. *)
Fixpoint ht_store (m : mem) (t : list (Z * Z)) (key : list Z) (kp v : Z) : res (mem * list (Z * Z)) :=
  match t with
  | [] => Ok (m, [(kp, v)])
  | (k, w) :: t =>
      do s <- get_text m k;
      if text_eqb s key then do m <- dtor m k w; Ok (m, (kp, v) :: t)
      else do ' (m, t) <- ht_store m t key kp v; Ok (m, (k, w) :: t)
  end.

(** osc_rset.c:114-116, the loop to the last result. *)
Fixpoint last_result (fuel : nat) (m : mem) (r : Z) : res Z :=
  match fuel with
  | O => Fuel
  | S fuel => do c <- get_cell m r; if c_next c =? 0 then Ok r else last_result fuel m (c_next c)
  end.

(** osc_rset.c:107-123 osc_rset_appendResult.  The loop is bounded by the number
    of results. *)
Definition append_result (st : rset) (p : Z) : res rset :=
  do st <- (if sels st =? 0 then Ok (Rset (mm st) (nxt st) (ht st) p (cur st) (num st) (unm st))
            else
              do r <- last_result (S (Z.to_nat (num st))) (mm st) (sels st);
              do c <- get_cell (mm st) r;
              let m := upd (mm st) r (Some (ORes (Cell (c_sel c) (c_com c) (c_par c) p (c_prev c)))) in
              do c <- get_cell m p;
              let m := upd m p (Some (ORes (Cell (c_sel c) (c_com c) (c_par c) (c_next c) r))) in
              Ok (with_mem st m));
  do c <- get_cell (mm st) p;
  do key <- get_text (mm st) (c_sel c);
  do ' (m, t) <- ht_store (mm st) (ht st) key (c_sel c) p;
  Ok (Rset m (nxt st) t (sels st) (cur st) (num st + 1) (unm st)).

(** osc_rset.c:125-132 osc_rset_select, for a selector that is not NULL. *)
Definition rset_select (st : rset) (sel : list Z) : res Z := ht_lookup (mm st) (ht st) sel.

(** osc_bundle_s.c:479-485 osc_bundle_s_appendMessage_b: the bundle at [b], made
    if [b] is NULL, gets the message; the pointer afterwards. *)
Definition append_b (st : rset) (b : Z) (msg : bytes) : res (rset * Z) :=
  let '(st, b) := if b =? 0 then alloc st (OMsgs []) else (st, b) in
  do l <- get_msgs (mm st) b;
  Ok (with_mem st (upd (mm st) b (Some (OMsgs (l ++ [msg])))), b).

(** osc_rset.c:267-275 osc_rset_result_addCompleteMatch ([partial] = false) and
    277-285 osc_rset_result_addPartialMatch ([partial] = true). *)
Definition result_add (partial : bool) (st : rset) (p : Z) (msg : bytes) : res rset :=
  do c <- get_cell (mm st) p;
  do ' (st, b) <- append_b st (if partial then c_par c else c_com c) msg;
  Ok (with_mem st (upd (mm st) p (Some (ORes
    (if partial then Cell (c_sel c) (c_com c) b (c_next c) (c_prev c)
     else Cell (c_sel c) b (c_par c) (c_next c) (c_prev c)))))).

(** osc_rset.c:134-147 osc_rset_addCompleteMatch and 149-162
    osc_rset_addPartialMatch. *)
Definition add_match (partial : bool) (st : rset) (sel : list Z) (msg : bytes) : res rset :=
  do r <- rset_select st sel;
  do ' (st, r) <- (if r =? 0 then
                     let '(st, p) := result_alloc st sel in
                     do st <- append_result st p; Ok (st, p)
                   else Ok (st, r));
  result_add partial st r msg.

(** osc_rset.c:164-172 osc_rset_addUnmatched. *)
Definition add_unmatched (st : rset) (msg : bytes) : res rset :=
  do ' (st, b) <- append_b st (unm st) msg;
  Ok (Rset (mm st) (nxt st) (ht st) (sels st) (cur st) (num st) b).

(** osc_rset.c:72-77 osc_rset_initIterator. *)
Definition init_iterator (st : rset) : rset :=
  Rset (mm st) (nxt st) (ht st) (sels st) (sels st) (num st) (unm st).

(** osc_rset.c:79-90 osc_rset_hasNext. *)
Definition has_next (st : rset) : bool := negb (cur st =? 0).

(** osc_rset.c:92-105 osc_rset_next. *)
Definition rset_next (st : rset) : res (rset * Z) :=
  if cur st =? 0 then Ok (st, 0) else
  do c <- get_cell (mm st) (cur st);
  Ok (Rset (mm st) (nxt st) (ht st) (sels st) (c_next c) (num st) (unm st), cur st).

(** osc_rset.c:63-70 osc_rset_free with osc_hashtab.c:278-309 osc_hashtab_clear
    and osc_hashtab_destroy: the memory afterwards. [order] is the order in
    which the elements are met. *)
Fixpoint clear (m : mem) (order : list (Z * Z)) : res mem :=
  match order with [] => Ok m | (k, v) :: t => do m <- dtor m k v; clear m t end.
Definition rset_free (order : list (Z * Z)) (st : rset) : res mem :=
  do m <- clear (mm st) order; deep_free m (unm st).
