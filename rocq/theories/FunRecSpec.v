(** What the calls on a record of a function set, and when one of them
    overwrites what another one set.  Of the model, only the names of the calls
    are used. *)

From Coq Require Import ZArith List Bool.
From Verif Require Import FunRecModel.
Import ListNotations.
Open Scope Z_scope.

(** What a record has: name, signature, and the names and types of the required
    and of the optional arguments. *)
Record has := Has {
  h_name : option (list Z); h_sig : option (list Z);
  h_req : option (list (option (list Z))); h_reqt : option (list Z);
  h_opt : option (list (option (list Z))); h_optt : option (list Z) }.

Definition nothing := Has None None None None None None.

Definition or_else {A} (a b : option A) : option A := match a with Some _ => a | None => b end.

(** Without names, a call about arguments does nothing; without types, the types
    stay. *)
Definition apply (h : has) (c : setting) : has :=
  match c with
  | Name s => Has (Some s) (h_sig h) (h_req h) (h_reqt h) (h_opt h) (h_optt h)
  | Signature s => Has (h_name h) (Some s) (h_req h) (h_reqt h) (h_opt h) (h_optt h)
  | Required (Some n) t => Has (h_name h) (h_sig h) (Some n) (or_else t (h_reqt h)) (h_opt h) (h_optt h)
  | Optional (Some n) t => Has (h_name h) (h_sig h) (h_req h) (h_reqt h) (Some n) (or_else t (h_optt h))
  | _ => h
  end.

(** Whether the call overwrites something that was set before. *)
Definition is_some {A} (o : option A) : bool := match o with Some _ => true | None => false end.
Definition overwrites (h : has) (c : setting) : bool :=
  match c with
  | Name _ => is_some (h_name h)
  | Signature _ => is_some (h_sig h)
  | Required (Some _) _ => is_some (h_req h)
  | Optional (Some _) _ => is_some (h_opt h)
  | _ => false
  end.

Fixpoint any_overwrites (h : has) (cs : list setting) : bool :=
  match cs with [] => false | c :: cs => overwrites h c || any_overwrites (apply h c) cs end.

(** The number of a list of names, 0 if there is none. *)
Definition how_many (o : option (list (option (list Z)))) : Z :=
  match o with Some l => Z.of_nat (length l) | None => 0 end.
