(** Model of osc_hashtab.c.

    The chain in a slot is a list of keys and values, the first element of the
    chain first.  Keys are compared by their characters (strcmp), so a key is
    the string the stored pointer points to; who owns it is not modelled. *)

From Coq Require Import ZArith List Bool.
From Verif Require Import Base BundleUModel.
Import ListNotations.
Open Scope Z_scope.

(** osc_hashtab.c:55-81 osc_hash, the ELF hash, with a 64 bit OSC_HASHTYPE
    (osc_hashtab.h:37-41): [i] and [hash] are of that type, so a negative [len]
    is a huge one.  [*key] is a signed char.  The result is a uint32_t. *)
Definition hash_mix (hash c : Z) : Z :=
  let hash := u64 (u64 (Z.shiftl hash 4) + s8 c) in
  let x := Z.land hash 0xF0000000 in
  let hash := if negb (x =? 0) then Z.lxor hash (Z.shiftr x 24) else hash in
  Z.land hash (u64 (Z.lnot x)).
Fixpoint hash_loop (k : nat) (i : Z) (key : bytes) (hash : Z) : res Z :=
  match k with
  | O => Ok hash
  | S k' => do c <- rdc key i; hash_loop k' (i + 1) key (hash_mix hash c)
  end.
Definition osc_hash (len : Z) (key : bytes) : res Z :=
  do h <- hash_loop (Z.to_nat (u64 len)) 0 key 0; Ok (u32 h).

(** osc_hashtab.c:35-50, 83-91: past the table it reads behind it. *)
Definition primes : list Z := [17; 37; 67; 137; 271; 541; 1181; 2371; 4759; 9521; 19037; 38083; 76157; 152287].
Definition get_prime (n : Z) : res Z :=
  match find (fun p => n <? p) primes with
  | Some p => Ok p
  | None => Ub OOB
  end.

Section Table.
Context {V : Type}.

(** osc_hashtab.r:36-47; [t_dtor] says whether a destructor is set. *)
Record table := Tab { t_slots : list (list (bytes * V)); t_count : Z; t_dtor : bool }.

(** osc_hashtab.c:121-136 osc_hashtab_new. *)
Definition tab_new (nslots : Z) (dtor : bool) : res table :=
  do n <- get_prime (u32 (if nslots <=? 0 then 541 else nslots));
  Ok (Tab (repeat [] (Z.to_nat n)) 0 dtor).

(** The slot of a hash: [hash % ht->nslots]. *)
Definition slot_of (ht : table) (hash : Z) : Z := hash mod zlen (t_slots ht).
Definition put_slot (ht : table) (i : Z) (c : list (bytes * V)) (count : Z) : table :=
  Tab (firstn (Z.to_nat i) (t_slots ht) ++ c :: skipn (S (Z.to_nat i)) (t_slots ht)) count (t_dtor ht).

(** The search of osc_hashtab.c:143-157 for an equal key: the chain with its
    entry overwritten and the old entry. *)
Fixpoint overwrite (key : bytes) (val : V) (c : list (bytes * V)) : option (list (bytes * V) * (bytes * V)) :=
  match c with
  | [] => None
  | e :: c' =>
      if bytes_eqb (fst e) key then Some ((key, val) :: c', e)
      else match overwrite key val c' with
           | Some (c', old) => Some (e :: c', old)
           | None => None
           end
  end.

(** osc_hashtab.c:138-162, 184-211 osc_hashtab_store.  The second result lists
    the calls of the destructor. *)
Definition tab_store (ht : table) (keylen : Z) (key : bytes) (val : V) : res (table * list (bytes * V)) :=
  do h <- osc_hash keylen key;
  let i := slot_of ht h in
  do c <- rd (t_slots ht) i;
  match overwrite key val c with
  | Some (c', old) => Ok (put_slot ht i c' (t_count ht), if t_dtor ht then [old] else [])
  | None => Ok (put_slot ht i ((key, val) :: c) (t_count ht + 1), [])
  end.

(** osc_hashtab.c:164-182, 213-218 osc_hashtab_storeSafe: the element made for a
    key that is there already is not released. *)
Definition tab_store_safe (ht : table) (keylen : Z) (key : bytes) (val : V) : res (table * list (bytes * V)) :=
  do h <- osc_hash keylen key;
  let i := slot_of ht h in
  do c <- rd (t_slots ht) i;
  if existsb (fun e => bytes_eqb (fst e) key) c then Ok (ht, [])
  else Ok (put_slot ht i ((key, val) :: c) (t_count ht + 1), []).

(** osc_hashtab.c:220-233 osc_hashtab_lookup. *)
Definition tab_lookup (ht : table) (keylen : Z) (key : bytes) : res (option V) :=
  do h <- osc_hash keylen key;
  do c <- rd (t_slots ht) (slot_of ht h);
  Ok (option_map snd (find (fun e => bytes_eqb (fst e) key) c)).

(** osc_hashtab.c:235-261 osc_hashtab_remove; [dtor]: whether a destructor is
    given.  [kept] are the elements before the current one, in reverse ([prev]
    is the first of them). *)
Fixpoint remove_loop (key : bytes) (dtor : bool) (kept c : list (bytes * V)) (count : Z) (calls : list (bytes * V))
  : list (bytes * V) * Z * list (bytes * V) :=
  match c with
  | [] => (rev kept, count, calls)
  | e :: c' =>
      if bytes_eqb key (fst e)
      then remove_loop key dtor kept c' (count - 1) (if dtor then calls ++ [e] else calls)
      else remove_loop key dtor (e :: kept) c' count calls
  end.
Definition tab_remove (ht : table) (keylen : Z) (key : bytes) (dtor : bool) : res (table * list (bytes * V)) :=
  do h <- osc_hash keylen key;
  let i := slot_of ht h in
  do c <- rd (t_slots ht) i;
  let '(c', count, calls) := remove_loop key dtor [] c (t_count ht) [] in
  Ok (put_slot ht i c' count, calls).

(** osc_hashtab.c:263-276 osc_hashtab_foreach: the calls of the callback. *)
Definition tab_foreach (ht : table) : list (bytes * V) := concat (t_slots ht).

(** osc_hashtab.c:278-298 osc_hashtab_clear. *)
Definition tab_clear (ht : table) : table * list (bytes * V) :=
  (Tab (repeat [] (length (t_slots ht))) 0 (t_dtor ht),
   if t_dtor ht then concat (t_slots ht) else []).

(** A sequence of operations. *)
Inductive tab_op := Store (k : bytes) (v : V) | StoreSafe (k : bytes) (v : V) | Delete (k : bytes) (dtor : bool) | ClearTab.
Definition tab_step (keylen : bytes -> Z) (ht : table) (o : tab_op) : res (table * list (bytes * V)) :=
  match o with
  | Store k v => tab_store ht (keylen k) k v
  | StoreSafe k v => tab_store_safe ht (keylen k) k v
  | Delete k dtor => tab_remove ht (keylen k) k dtor
  | ClearTab => Ok (tab_clear ht)
  end.
Fixpoint tab_run (keylen : bytes -> Z) (ht : table) (ops : list tab_op) : res (table * list (bytes * V)) :=
  match ops with
  | [] => Ok (ht, [])
  | o :: ops' =>
      do ' (ht, c1) <- tab_step keylen ht o;
      do ' (ht, c2) <- tab_run keylen ht ops';
      Ok (ht, c1 ++ c2)
  end.
End Table.
Arguments table : clear implicits.
Arguments tab_op : clear implicits.
