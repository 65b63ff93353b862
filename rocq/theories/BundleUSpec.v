(** What the operations on the message list of a bundle are meant to do, on
    plain lists. *)

From Coq Require Import ZArith List Bool.
From Verif Require Import Base HeapModel HeapSpec BundleUModel.
Import ListNotations.
Open Scope Z_scope.

Inductive msg_op (A : Type) :=
| NewMsg (l : Z) (v : message A)        (* make a message; malloc returned l *)
| Add (l : Z) (v : message A)           (* v: what the message holds *)
| AddNoDups (l : Z) (v : message A)
| Replace (l : Z) (v : message A)
| RemoveAddress (a : bytes)
| RemoveMsg (l : Z)
| FreeMsg (l : Z)
| ClearBundle.
Arguments NewMsg {A}. Arguments Add {A}. Arguments AddNoDups {A}. Arguments Replace {A}.
Arguments RemoveAddress {A}. Arguments RemoveMsg {A}. Arguments FreeMsg {A}. Arguments ClearBundle {A}.

(** The messages of the bundle in order (where each one is and what it holds),
    the messages made that are not in the bundle, and the number by which the
    count of the bundle is too high. *)
Record bundle_spec (A : Type) := Bndl {
  msgs : list (Z * message A);
  loose : Z -> option (message A);
  excess : Z }.
Arguments Bndl {A}. Arguments msgs {A}. Arguments loose {A}. Arguments excess {A}.

Definition address_is {A} (a : bytes) (x : Z * message A) : bool :=
  match m_address (snd x) with Some b => bytes_eqb a b | None => false end.
(** [x] has the address of the message [v]. *)
Definition same_address {A} (v : message A) (x : Z * message A) : bool :=
  match m_address v with Some a => address_is a x | None => false end.

Definition take {A} (l : Z) (f : Z -> option (message A)) : Z -> option (message A) :=
  fun x => if x =? l then None else f x.
Definition give {A} (l : Z) (v : message A) (f : Z -> option (message A)) : Z -> option (message A) :=
  fun x => if x =? l then Some v else f x.

(** The first message that [p] holds of gets the contents [v]. *)
Fixpoint replace_first {A} (p : Z * message A -> bool) (v : message A) (xs : list (Z * message A)) :=
  match xs with
  | [] => []
  | x :: xs' => if p x then (fst x, v) :: xs' else x :: replace_first p v xs'
  end.

Fixpoint value_at {A} (l : Z) (xs : list (Z * message A)) : option (message A) :=
  match xs with
  | [] => None
  | (k, v) :: xs' => if l =? k then Some v else value_at l xs'
  end.

Definition spec_msg {A} (b : bundle_spec A) (o : msg_op A) : bundle_spec A :=
  match o with
  | NewMsg l v => Bndl (msgs b) (give l v (loose b)) (excess b)
  | Add l v => Bndl (msgs b ++ [(l, v)]) (take l (loose b)) (excess b)
  | AddNoDups l v =>
      Bndl (filter (fun x => negb (same_address v x)) (msgs b) ++ [(l, v)]) (take l (loose b)) (excess b)
  | Replace l v =>
      if existsb (same_address v) (msgs b)
      then Bndl (replace_first (same_address v) v (msgs b)) (take l (loose b)) (excess b)
      else Bndl (msgs b ++ [(l, v)]) (take l (loose b)) (excess b)
  | RemoveAddress a => Bndl (filter (fun x => negb (address_is a x)) (msgs b)) (loose b) (excess b)
  | RemoveMsg l =>
      Bndl (filter (fun x => negb (fst x =? l)) (msgs b))
           (match value_at l (msgs b) with Some v => give l v (loose b) | None => loose b end)
           (excess b + 1)
  | FreeMsg l => Bndl (msgs b) (take l (loose b)) (excess b)
  | ClearBundle => Bndl [] (loose b) 0
  end.

(** The bundle [b] in the heap [h] is the plain state [s].  Its [msgtail] is the
    last message, or NULL if there is at most one. *)
Definition bundle_holds {A} (h : heap (message A)) (b : ends) (s : bundle_spec A) : Prop :=
  e_count b = zlen (msgs s) + excess s /\ NoDup (map fst (msgs s)) /\
  chain n_next h (e_head b) (map fst (msgs s)) /\
  chain n_prev h (hd_error (rev (map fst (msgs s)))) (rev (map fst (msgs s))) /\
  (e_tail b = hd_error (rev (map fst (msgs s))) \/ e_tail b = None /\ zlen (msgs s) <= 1) /\
  (forall l, option_map n_val (h l) = match value_at l (msgs s) with Some v => Some v | None => loose s l end).

(** What the caller sees to.  To replace by address or to remove by address,
    every message of the bundle has an address. *)
Definition msg_enabled {A} (h : heap (message A)) (s : bundle_spec A) (o : msg_op A) : Prop :=
  match o with
  | NewMsg l _ => h l = None
  | Add l v | AddNoDups l v => loose s l = Some v
  | Replace l v =>
      loose s l = Some v /\
      (m_address v <> None -> forall x, In x (msgs s) -> m_address (snd x) <> None)
  | RemoveAddress a => forall x, In x (msgs s) -> m_address (snd x) <> None
  | RemoveMsg l => In l (map fst (msgs s))
  | FreeMsg l => loose s l <> None
  | ClearBundle => True
  end.
