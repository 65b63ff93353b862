(** What the list operations are meant to do, as operations on plain lists, and
    what it means for a linked structure in memory to hold a list. *)

From Coq Require Import ZArith List Bool.
From Verif Require Import Base HeapModel.
Import ListNotations.
Open Scope Z_scope.

(** Following a link from [p] passes exactly the nodes [ls], all of them
    allocated, and ends at NULL. *)
Inductive chain {V} (link : node V -> ptr) (h : heap V) : ptr -> list Z -> Prop :=
| chain_nil : chain link h None []
| chain_cons l n ls : h l = Some n -> chain link h (link n) ls -> chain link h (Some l) (l :: ls).

(** Put [x] at position [pos] of a list (at the end if it is shorter). *)
Fixpoint insert_at {A} (pos : nat) (x : A) (ls : list A) : list A :=
  match pos, ls with
  | S k, y :: ls' => y :: insert_at k x ls'
  | _, _ => x :: ls
  end.

(** Take out the element at position [pos]. *)
Fixpoint delete_at {A} (pos : nat) (ls : list A) : list A :=
  match pos, ls with
  | O, _ :: ls' => ls'
  | S k, y :: ls' => y :: delete_at k ls'
  | _, [] => []
  end.

(** * The argument list of a message *)

Inductive arg_op (V : Type) :=
| New (l : Z) (v : V)                        (* allocate an atom; malloc returned l *)
| Append (l : Z)
| Prepend (l : Z)
| Insert (front : bool) (l : Z) (pos : Z)    (* front: from which end the code walks *)
| Remove (l : Z)
| Free (l : Z)                               (* release an atom that is in no message *)
| Clear.                                     (* release all arguments *)
Arguments New {V}. Arguments Append {V}. Arguments Prepend {V}. Arguments Insert {V}.
Arguments Remove {V}. Arguments Free {V}. Arguments Clear {V}.

(** The plain state: which atoms are allocated and what they hold, and the
    arguments in order. *)
Record args_spec (V : Type) := Args { live : Z -> option V; args : list Z }.
Arguments Args {V}. Arguments live {V}. Arguments args {V}.

Definition spec_op {V} (a : args_spec V) (o : arg_op V) : args_spec V :=
  match o with
  | New l v => Args (fun x => if x =? l then Some v else live a x) (args a)
  | Append l => Args (live a) (args a ++ [l])
  | Prepend l => Args (live a) (l :: args a)
  | Insert _ l pos => Args (live a) (insert_at (Z.to_nat pos) l (args a))
  | Remove l => Args (live a) (remove Z.eq_dec l (args a))
  | Free l => Args (fun x => if x =? l then None else live a x) (args a)
  | Clear => Args (fun x => if in_dec Z.eq_dec x (args a) then None else live a x) []
  end.

(** The message [m] in the heap [h] is the plain state [a]. *)
Definition holds {V} (h : heap V) (m : ends) (a : args_spec V) : Prop :=
  e_count m = zlen (args a) /\ NoDup (args a) /\
  chain n_next h (e_head m) (args a) /\ chain n_prev h (e_tail m) (rev (args a)) /\
  (forall l, option_map n_val (h l) = live a l).

(** What the caller has to see to: allocation returns unused memory, an atom put
    into the message is allocated and not in it already, an atom removed is in
    it, an atom released is not.  An insertion has a position that is not
    negative; at the end of a list that is not empty the atom must not carry a
    [next] link from an earlier life. *)
Definition enabled {V} (h : heap V) (a : args_spec V) (o : arg_op V) : Prop :=
  match o with
  | New l _ => h l = None
  | Append l | Prepend l | Free l => h l <> None /\ ~ In l (args a)
  | Insert _ l pos =>
      h l <> None /\ ~ In l (args a) /\ 0 <= pos /\
      (args a <> [] -> zlen (args a) <= pos -> forall n, h l = Some n -> n_next n = None)
  | Remove l => In l (args a)
  | Clear => True
  end.

(** * osc_linkedlist *)

Inductive list_op (V : Type) :=
| PushFront (l : Z) (v : V)     (* malloc returned l *)
| PushBack (l : Z) (v : V)
| PopHead
| PopTail
| PopNth (n : Z)
| Unlink (l : Z)
| ClearList.
Arguments PushFront {V}. Arguments PushBack {V}. Arguments PopHead {V}. Arguments PopTail {V}.
Arguments PopNth {V}. Arguments Unlink {V}. Arguments ClearList {V}.

(** The position an index stands for in a list of [len] elements: -1 is the
    last one. *)
Definition position (len n : Z) : option nat :=
  if (0 <=? n) && (n <? len) then Some (Z.to_nat n)
  else if (n =? -1) && (0 <? len) then Some (Z.to_nat (len - 1)) else None.

Definition at_position {A} (ls : list A) (o : option nat) : option A :=
  match o with Some i => nth_error ls i | None => None end.
Definition without_position {A} (ls : list A) (o : option nat) : list A :=
  match o with Some i => delete_at i ls | None => ls end.

(** The plain state is the list of elements: where each one is and its data. *)
Definition spec_list {V} (xs : list (Z * V)) (o : list_op V) : list (Z * V) :=
  match o with
  | PushFront l v => (l, v) :: xs
  | PushBack l v => xs ++ [(l, v)]
  | PopHead => tl xs
  | PopTail => removelast xs
  | PopNth n => without_position xs (position (zlen xs) n)
  | Unlink l => filter (fun x => negb (fst x =? l)) xs
  | ClearList => []
  end.
(** What the operation returns. *)
Definition spec_out {V} (xs : list (Z * V)) (o : list_op V) : option V :=
  match o with
  | PopHead => option_map snd (hd_error xs)
  | PopTail => option_map snd (hd_error (rev xs))
  | PopNth n => option_map snd (at_position xs (position (zlen xs) n))
  | _ => None
  end.
Definition list_enabled {V} (h : heap V) (xs : list (Z * V)) (o : list_op V) : Prop :=
  match o with
  | PushFront l _ | PushBack l _ => h l = None
  | Unlink l => In l (map fst xs)
  | PopNth n => zlen xs < 2^31 /\ - 2^31 <= n < 2^31
  | _ => True
  end.

Definition list_holds {V} (h : heap V) (ll : ends) (xs : list (Z * V)) : Prop :=
  e_count ll = zlen xs /\ NoDup (map fst xs) /\
  chain n_next h (e_head ll) (map fst xs) /\ chain n_prev h (e_tail ll) (rev (map fst xs)) /\
  (forall l v, In (l, v) xs -> option_map n_val (h l) = Some v).
