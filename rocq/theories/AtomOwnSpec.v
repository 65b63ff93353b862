(** What an atom holds after a call, and which blocks should be freed when. *)

From Coq Require Import ZArith List Bool.
From Verif Require Import Base AtomOwnModel.
Import ListNotations.
Open Scope Z_scope.

(** Nothing that is in a block, a string, a bundle or a blob of its own, or a string or a
    blob of the caller. *)
Inductive held : Type := Nothing | OwnString | OwnBundle | OwnBlob | CallersString | CallersBlob.
Definition holds_after (o : op) : held :=
  match o with
  | ONum _ _ | OBool _ | OStringNull | ORec _ => Nothing
  | OString _ _ => OwnString
  | OStringPtr p => if p =? 0 then Nothing else CallersString
  | OBundleU | OBundleS => OwnBundle
  | OBlob _ => OwnBlob
  | OBlobPtr p => if p =? 0 then Nothing else CallersBlob
  end.
(** Does the call lose the block that the atom holds?  A blob of its own is always lost; a
    bundle is lost by the calls that set a string, a bundle object or a record; a string by
    those that set a NULL string, a bundle object or a record. *)
Definition loses (h : held) (o : op) : bool :=
  match h, o with
  | OwnBlob, _ => true
  | OwnBundle, (OString _ _ | OStringNull | OBundleU | ORec _) => true
  | OwnString, (OStringNull | OBundleU | ORec _) => true
  | _, _ => false
  end.
Fixpoint losses (h : held) (ops : list op) : nat :=
  match ops with
  | [] => O
  | o :: ops' => ((if loses h o then 1 else 0) + losses (holds_after o) ops')%nat
  end.
(** The caller's block that the atom holds at the end. *)
Fixpoint borrowed (ops : list op) : option Z :=
  match ops with
  | [] => None
  | [OStringPtr p] | [OBlobPtr p] => if p =? 0 then None else Some p
  | _ :: ops' => borrowed ops'
  end.

(** malloc has not given the addresses to come, and never gives NULL. *)
Definition sound (s : mem) : Prop := 1 <= snd s /\ forall l, snd s <= l -> fst s l = None.
(** The pointers given are NULL or blocks of the caller; numbers do not have the typetags of
    strings, bundles and blobs. *)
Definition proper (s : mem) (o : op) : Prop :=
  match o with
  | ONum t _ => t <> 115 /\ t <> 46 /\ t <> 98
  | OStringPtr p => p = 0 \/ exists t, fst s p = Some (AStr t)
  | OBlobPtr p => p = 0 \/ exists b, fst s p = Some (ABlob b)
  | _ => True
  end.
