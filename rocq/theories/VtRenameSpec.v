(** What a method table that was filled by adding entries looks like. *)

From Coq Require Import ZArith List.
From Verif Require Import Base VtRenameModel.
Import ListNotations.
Open Scope Z_scope.

(** [names] are the names of the entries, in order.  Every entry has a name of its own in
    memory, and the slot of the name has one element with that name as its key. *)
Record filled (slot : list Z -> Z) (t : table) (names : list (list Z)) : Prop := Filled {
  f_len : length (entries t) = length names;
  f_names : NoDup names;
  f_text : forall i p m c n, nth_error (entries t) i = Some (p, m, c) -> nth_error names i = Some n ->
             p <> 0 /\ texts t p = Some (zlen n + 1, n);
  f_own : forall i j p m c m' c', nth_error (entries t) i = Some (p, m, c) -> nth_error (entries t) j = Some (p, m', c') -> i = j;
  f_chains : forall s p i, In (p, i) (chains t s) <->
             exists n m c, nth_error (entries t) i = Some (p, m, c) /\ nth_error names i = Some n /\ slot n = s;
  f_count : count t = zlen names;
  f_fresh : 1 <= brk t /\ forall l, brk t <= l -> texts t l = None }.
(** The caller's name at [q] is not in the table's memory. *)
Definition callers (t : table) (q : Z) (name : list Z) : Prop :=
  q <> 0 /\ (exists size, texts t q = Some (size, name)) /\ forall i p m c, nth_error (entries t) i = Some (p, m, c) -> p <> q.
(** The caller frees the name. *)
Definition caller_frees (t : table) (q : Z) : table :=
  Tbl (fun y => if y =? q then None else texts t y) (brk t) (entries t) (chains t) (count t).
