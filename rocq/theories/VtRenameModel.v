(** Model of osc_vtable_renameEntry (osc_vtable.c:175-189), with the memory of the names.

    The keys of the hash table of a method table are pointers to names that others own
    (osc_hashtab.c:195-199), so what a key says changes when the name is written over.  The
    array of entries is large enough here and does not move (its moving is in
    DispatchModel.v); entries are named by their index. *)

From Coq Require Import ZArith List Bool.
From Verif Require Import Base BundleSModel.
Import ListNotations.
Open Scope Z_scope.

(** A name in memory: the size of the block and the characters before the NUL. *)
Definition text := (Z * list Z)%type.
(** osc_vtable.r:37-51 and osc_hashtab.r:36-47: [entries] are selector, method and context;
    [chains] gives the chain of each slot, the first element first; [count] is nentries. *)
Record table := Tbl {
  texts : Z -> option text; brk : Z;
  entries : list (Z * Z * Z);
  chains : Z -> list (Z * nat); count : Z }.
Definition read (texts : Z -> option text) (p : Z) : res (list Z) :=
  if p =? 0 then Ub NullDeref else match texts p with Some (_, t) => Ok t | None => Ub Dangling end.
Definition put {A} (f : Z -> A) (l : Z) (x : A) : Z -> A := fun y => if y =? l then x else f y.

Section Slots.
(** osc_hash(strlen(key), key) % ht->nslots (HashModel.v). *)
Context (slot : list Z -> Z).

(** osc_hashtab.c:226-231, the loop of osc_hashtab_lookup. *)
Fixpoint find_elem (ts : Z -> option text) (key : list Z) (c : list (Z * nat)) : res (option nat) :=
  match c with
  | [] => Ok None
  | (k, e) :: c' => do t <- read ts k; if streq t key then Ok (Some e) else find_elem ts key c'
  end.
(** osc_vtable.c:132-134 osc_vtable_getEntryBySelector. *)
Definition lookup (t : table) (key : list Z) : res (option nat) := find_elem (texts t) key (chains t (slot key)).

(** osc_hashtab.c:143-157: the chain with the element that has the key written over. *)
Fixpoint overwrite (ts : Z -> option text) (key : list Z) (q : Z) (e : nat) (c : list (Z * nat)) : res (option (list (Z * nat))) :=
  match c with
  | [] => Ok None
  | (k, x) :: c' =>
      do t <- read ts k;
      if streq t key then Ok (Some ((q, e) :: c')) else
      do r <- overwrite ts key q e c';
      Ok (match r with Some c'' => Some ((k, x) :: c'') | None => None end)
  end.
(** osc_hashtab.c:138-162, 184-211 osc_hashtab_store, of the key at [q]; no destructor is set
    (osc_vtable.c:48). *)
Definition store (t : table) (q : Z) (e : nat) : res table :=
  do key <- read (texts t) q;
  let s := slot key in
  do r <- overwrite (texts t) key q e (chains t s);
  Ok (match r with
      | Some c => Tbl (texts t) (brk t) (entries t) (put (chains t) s c) (count t)
      | None => Tbl (texts t) (brk t) (entries t) (put (chains t) s ((q, e) :: chains t s)) (count t + 1)
      end).
(** osc_hashtab.c:243-260, the loop of osc_hashtab_remove: the elements that stay. *)
Fixpoint remove_elems (ts : Z -> option text) (key : list Z) (c : list (Z * nat)) : res (list (Z * nat)) :=
  match c with
  | [] => Ok []
  | (k, x) :: c' =>
      do t <- read ts k;
      do r <- remove_elems ts key c';
      Ok (if streq key t then r else (k, x) :: r)
  end.
(** osc_hashtab.c:235-261 osc_hashtab_remove. *)
Definition remove (t : table) (key : list Z) : res table :=
  let s := slot key in
  do c <- remove_elems (texts t) key (chains t s);
  Ok (Tbl (texts t) (brk t) (entries t) (put (chains t) s c) (count t - (zlen (chains t s) - zlen c))).

(** osc_vtable.c:38-52 osc_vtable_alloc; [texts] are the names the callers have. *)
Definition empty (ts : Z -> option text) (b : Z) : table := Tbl ts b [] (fun _ => []) 0.
Definition set_entry (l : list (Z * Z * Z)) (i : nat) (x : Z * Z * Z) : list (Z * Z * Z) := firstn i l ++ x :: skipn (S i) l.
(** osc_vtable.c:78-115 osc_vtable_addEntry, when there is a slot left. *)
Definition add (t : table) (name : list Z) (method context : Z) : res table :=
  do r <- lookup t name;
  match r with
  | Some i =>
      do ' (p, _, _) <- (match nth_error (entries t) i with Some x => Ok x | None => Ub OOB end);
      Ok (Tbl (texts t) (brk t) (set_entry (entries t) i (p, method, context)) (chains t) (count t))
  | None =>
      let p := brk t in
      store (Tbl (put (texts t) p (Some (zlen name + 1, name))) (brk t + 1) (entries t ++ [(p, method, context)]) (chains t) (count t))
        p (length (entries t))
  end.

(** osc_mem_resize of the block at [p]: its address and memory.  [moves]: whether realloc
    moves it. *)
Definition resize (moves : bool) (ts : Z -> option text) (b p size : Z) : res (Z * (Z -> option text) * Z) :=
  match ts p with
  | None => Ub Dangling
  | Some (_, x) => Ok (if moves then (b, put (put ts p None) b (Some (size, x)), b + 1) else (p, put ts p (Some (size, x)), b))
  end.
(** strncpy(p, new, newlen + 1). *)
Definition overwrite_text (ts : Z -> option text) (p : Z) (new : list Z) : res (Z -> option text) :=
  match ts p with
  | None => Ub Dangling
  | Some (size, _) => if zlen new + 1 <=? size then Ok (put ts p (Some (size, new))) else Ub OOB
  end.
(** osc_vtable.c:175-189 osc_vtable_renameEntry: the error code (OSC_ERR_INVAL is written 1).
    [old] is in memory of the caller that is not written; the new name is at [q]. *)
Definition rename (moves : bool) (t : table) (old : list Z) (q : Z) : res (table * Z) :=
  do r <- lookup t old;
  match r with
  | None => Ok (t, 1)
  | Some i =>
      do ' (p, m, c) <- (match nth_error (entries t) i with Some x => Ok x | None => Ub OOB end);
      do new <- read (texts t) q;
      do ' (p, ts, b) <- (if zlen old <? zlen new then resize moves (texts t) (brk t) p (zlen new + 1) else Ok (p, texts t, brk t));
      do ts <- overwrite_text ts p new;
      do t <- remove (Tbl ts b (set_entry (entries t) i (p, m, c)) (chains t) (count t)) old;
      do t <- store t q i;
      Ok (t, 0)
  end.
End Slots.
