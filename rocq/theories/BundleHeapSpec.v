(** What it means that a bundle lies in memory, and which blocks belong to it. *)

From Coq Require Import ZArith List Bool.
From Verif Require Import Base BundleHeapModel.
Import ListNotations.
Open Scope Z_scope.

(** Bundles: messages with an address, or none, and arguments; an argument is a number or
    the like, a string, a blob or a bundle. *)
Inductive targ : Type :=
| TVal (tag w : Z)
| TStr (t : list Z)
| TBlob (b : list Z)
| TBun (ms : list tmsg)
with tmsg : Type := TMsg (address : option (list Z)) (args : list targ).

(** A linked list from [l] to [stop]: each of its members lies at its address, with the
    address of the next one.  [F] are the blocks of all of them. *)
Definition segment {A} (at_ : A -> Z -> Z -> list Z -> Prop) (stop : Z) : list A -> Z -> list Z -> Prop :=
  fix go xs l F :=
    match xs with
    | [] => l = stop /\ F = []
    | x :: xs' => exists next F1 F2, F = F1 ++ F2 /\ at_ x l next F1 /\ go xs' next F2
    end.

Section Lies.
Context (h : Z -> option cell).
(** A block at an address that is not NULL. *)
Definition block (l : Z) (c : cell) : Prop := l <> 0 /\ h l = Some c.
(** The address of a message. *)
Definition text_at (o : option (list Z)) (p : Z) (F : list Z) : Prop :=
  match o with None => p = 0 /\ F = [] | Some t => block p (HText t) /\ F = [p] end.

Fixpoint arg_at (a : targ) (l next : Z) (F : list Z) : Prop :=
  match a with
  | TVal tag w => block l (HAtom tag w next) /\ tag <> 115 /\ tag <> 46 /\ tag <> 98 /\ F = [l]
  | TStr t => exists p, block l (HAtom 115 p next) /\ block p (HText t) /\ F = [l; p]
  | TBlob b => exists p, block l (HAtom 98 p next) /\ block p (HBlob b) /\ F = [l; p]
  | TBun ms =>
      exists p F', block l (HAtom 46 p next) /\ F = l :: F' /\
        exists head tail F'', block p (HBundle (zlen ms) head tail) /\ F' = p :: F'' /\ segment msg_at 0 ms head F''
  end
with msg_at (m : tmsg) (l next : Z) (F : list Z) : Prop :=
  match m with
  | TMsg address args =>
      exists p head tail F1 F2, block l (HMsg p (zlen args) head tail next) /\ F = l :: F1 ++ F2 /\
        text_at address p F1 /\ segment arg_at 0 args head F2
  end.
(** The message at [m] says where the last of its arguments is. *)
Definition tail_right (args : list targ) (m : Z) : Prop :=
  exists p c head tail next, h m = Some (HMsg p c head tail next) /\
    ((args = [] /\ tail = 0) \/ exists init x F G, args = init ++ [x] /\ segment arg_at tail init head F /\ arg_at x tail 0 G).
Definition bundle_at (ms : list tmsg) (b : Z) (F : list Z) : Prop :=
  exists head tail F', block b (HBundle (zlen ms) head tail) /\ F = b :: F' /\ segment msg_at 0 ms head F'.
End Lies.

(** malloc has not given the addresses to come, and never gives NULL. *)
Definition sound (s : mem) : Prop := 1 <= snd s /\ forall l, snd s <= l -> fst s l = None.
(** No bundle among the arguments. *)
Definition flat (args : list targ) : Prop := Forall (fun a => match a with TBun _ => False | _ => True end) args.
