(** Model of the message list of an unserialized bundle, osc_bundle_u.c.

    A message is a node of the heap of HeapModel; what it holds besides its
    links is its address (possibly NULL) and its arguments (HeapModel and C25
    deal with how those are linked; here they are a plain list). *)

From Coq Require Import ZArith List Bool.
From Verif Require Import Base HeapModel.
Import ListNotations.
Open Scope Z_scope.

Section Bundle.
Context {A : Type}.

(** osc_message_u.r:41-47, without the links; [size] is not modelled. *)
Record message := Msg { m_address : option bytes; m_args : list A }.
Notation heap := (heap message).

(** Comparison of addresses by strcmp. *)
Definition bytes_eqb (a b : bytes) : bool := if list_eq_dec Z.eq_dec a b then true else false.

(** osc_bundle_u.c:396-414 osc_bundle_u_removeMsg: the count is not touched. *)
Definition remove_msg (h : heap) (b : ends) (m : Z) : res (heap * ends) :=
  do n <- get h (Some m);
  do h <- match n_next n with None => Ok h | Some _ => put_prev h (n_next n) (n_prev n) end;
  do h <- match n_prev n with None => Ok h | Some _ => put_next h (n_prev n) (n_next n) end;
  Ok (h, Ends (if ptr_eqb (Some m) (e_head b) then n_next n else e_head b)
              (if ptr_eqb (Some m) (e_tail b) then n_prev n else e_tail b)
              (e_count b)).

Definition drop_count (b : ends) : ends := Ends (e_head b) (e_tail b) (e_count b - 1).

(** The loop of osc_bundle_u_addMsg_impl for [remove_dups == 1], lines 259-270:
    messages without an address are passed over.  osc_message_u_free releases
    the message with all it holds. *)
Fixpoint remove_dups (k : nat) (h : heap) (b : ends) (p : ptr) (address : bytes) : res (heap * ends) :=
  match p with
  | None => Ok (h, b)
  | Some m =>
      match k with
      | O => Fuel
      | S k' =>
          do n <- get h p;
          let next := n_next n in
          match m_address (n_val n) with
          | Some a =>
              if bytes_eqb address a then
                do ' (h, b) <- remove_msg h b m;
                do h <- free h p;
                remove_dups k' h (drop_count b) next address
              else remove_dups k' h b next address
          | None => remove_dups k' h b next address
          end
      end
  end.

(** The loop for [remove_dups == 2], lines 277-300.  There strcmp is given the
    address of each message, NULL or not.  The message found gets the address
    and copies of the arguments of the new one (osc_message_u_clearArgs and
    osc_message_u_deepCopy, osc_message_u.c:75-130; the old address is not
    released) and keeps its links; the new one is released. *)
Fixpoint replace_dup (k : nat) (h : heap) (p : ptr) (address : bytes) (msg : Z) (v : message)
  : res (option heap) :=
  match p with
  | None => Ok None
  | Some m =>
      match k with
      | O => Fuel
      | S k' =>
          do n <- get h p;
          match m_address (n_val n) with
          | None => Ub NullDeref
          | Some a =>
              if bytes_eqb address a then
                let h := upd h m (Nd (n_next n) (n_prev n) v) in
                do h <- free h (Some msg);
                Ok (Some h)
              else replace_dup k' h (n_next n) address msg v
          end
      end
  end.

(** Lines 303-318: put the message at the end.  [msgtail] is NULL for a bundle
    that got its first message. *)
Definition link_msg (h : heap) (b : ends) (msg : Z) : res (heap * ends) :=
  let count := e_count b + 1 in
  match e_head b with
  | None =>
      do h <- put_next h (Some msg) None;
      do h <- put_prev h (Some msg) None;
      Ok (h, Ends (Some msg) None count)
  | Some _ =>
      match e_tail b with
      | None =>
          do h <- put_next h (e_head b) (Some msg);
          do h <- put_prev h (Some msg) (e_head b);
          do h <- put_next h (Some msg) None;
          Ok (h, Ends (e_head b) (Some msg) count)
      | Some _ =>
          do h <- put_prev h (Some msg) (e_tail b);
          do h <- put_next h (Some msg) None;
          do h <- put_next h (e_tail b) (Some msg);
          Ok (h, Ends (e_head b) (Some msg) count)
      end
  end.

(** osc_bundle_u.c:250-319 osc_bundle_u_addMsg_impl with [remove_dups] 0, 1 and
    2: addMsg (321-324), addMsgWithoutDups (326-329), replaceMessage (331-335).
    [k] bounds the number of messages walked over. *)
Definition add_msg (h : heap) (b : ends) (msg : Z) : res (heap * ends) := link_msg h b msg.
Definition add_msg_without_dups (k : nat) (h : heap) (b : ends) (msg : Z) : res (heap * ends) :=
  do n <- get h (Some msg);
  do ' (h, b) <- match m_address (n_val n) with
                 | Some address => remove_dups k h b (e_head b) address
                 | None => Ok (h, b)
                 end;
  link_msg h b msg.
Definition replace_message (k : nat) (h : heap) (b : ends) (msg : Z) : res (heap * ends) :=
  do n <- get h (Some msg);
  do r <- match m_address (n_val n) with
          | Some address => replace_dup k h (e_head b) address msg (n_val n)
          | None => Ok None
          end;
  match r with
  | Some h => Ok (h, b)
  | None => link_msg h b msg
  end.

(** osc_bundle_u.c:416-430 osc_bundle_u_removeMessage with an address that is
    not NULL. *)
Fixpoint remove_message (k : nat) (h : heap) (b : ends) (p : ptr) (address : bytes) : res (heap * ends) :=
  match p with
  | None => Ok (h, b)
  | Some m =>
      match k with
      | O => Fuel
      | S k' =>
          do n <- get h p;
          let next := n_next n in
          match m_address (n_val n) with
          | None => Ub NullDeref
          | Some a =>
              if bytes_eqb address a then
                do ' (h, b) <- remove_msg h b m;
                do h <- free h p;
                remove_message k' h (drop_count b) next address
              else remove_message k' h b next address
          end
      end
  end.

(** osc_bundle_u.c:68-82 osc_bundle_u_clear. *)
Definition bundle_clear (k : nat) (h : heap) (b : ends) : res (heap * ends) :=
  do h <- free_chain k h (e_head b); Ok (h, Ends None None 0).

(** osc_bundle_u.c:376-395 osc_bundle_u_addMsgList: the messages the bundle had
    are forgotten. *)
Fixpoint list_end (k : nat) (h : heap) (p : ptr) (last : ptr) (n : Z) : res (ptr * Z) :=
  match p with
  | None => Ok (last, n)
  | Some _ =>
      match k with
      | O => Fuel
      | S k' => do nd <- get h p; list_end k' h (n_next nd) p (n + 1)
      end
  end.
Definition add_msg_list (k : nat) (h : heap) (b : ends) (msgs : ptr) : res (heap * ends) :=
  do ' (last, n) <- list_end k h msgs msgs 0;
  Ok (h, Ends msgs last n).

End Bundle.
Arguments message : clear implicits.
