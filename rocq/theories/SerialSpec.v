(** What the in-memory objects of the model stand for. *)

From Coq Require Import ZArith List Bool.
From Verif Require Import Base Bytes WireSpec SerialModel.
Import ListNotations.
Open Scope Z_scope.

(** The data of a blob object: a size field, the data, possibly more bytes. *)
Definition blob_data (b : bytes) : bytes :=
  firstn (Z.to_nat (of_be (firstn 4 b))) (skipn 4 b).

(** The argument an atom stands for, with all 32 bits of the union's integer
    member for the tags libo sends in four bytes. *)
Fixpoint raw_value (a : atom) : value :=
  match a with
  | Atom tg w p =>
      if existsb (Z.eqb tg) [99; 67; 117; 85; 105; 73; 102] then VNum32 tg (w mod 2^32)
      else if existsb (Z.eqb tg) [104; 72; 100] then VNum64 tg (w mod 2^64)
      else if tg =? 116 then VTime (w mod 2^32) (w / 2^32 mod 2^32)
      else match p with
           | PStr s => VStr s
           | PBlob b => VBlob (blob_data b)
           | PBndl ms => VBundle (concat (map raw_msg ms))
           | PNone => if tg =? 46 then VBundle [] else VFlag (tg mod 2^8)
           end
  end
(** A message without an address is not part of the serialized bundle. *)
with raw_msg (m : umsg) : list message :=
  match m with
  | UMsg None _ => []
  | UMsg (Some a) args => [M a (map raw_value args)]
  end.

Definition raw_msgs (ms : list umsg) : list message := concat (map raw_msg ms).

(** The value seen by the accessor of the tag's own type: 8 bits for 'c' and
    'C', 16 for 'u' and 'U'. *)
Fixpoint narrow (v : value) : value :=
  match v with
  | VNum32 tg x =>
      if (tg =? 99) || (tg =? 67) then VNum32 tg (x mod 2^8)
      else if (tg =? 117) || (tg =? 85) then VNum32 tg (x mod 2^16)
      else VNum32 tg x
  | VBundle ms => VBundle (map narrow_msg ms)
  | _ => v
  end
with narrow_msg (m : message) : message :=
  match m with M a vs => M a (map narrow vs) end.

(** The messages of a bundle as its users see them. *)
Definition content (ms : list umsg) : list message := map narrow_msg (raw_msgs ms).

(** Objects: strings are C strings, a blob's size field agrees with its
    allocation, pointers match the type tag, lengths are representable.  The
    only tags without any restriction are those that carry no pointer. *)
Definition blob_ok (b : bytes) : Prop :=
  wf_bytes b /\ 4 <= zlen b /\ of_be (firstn 4 b) + 8 < 2^31 /\ 4 + of_be (firstn 4 b) <= zlen b.

Fixpoint ok_atom (a : atom) : Prop :=
  match a with
  | Atom tg w p =>
      0 <= w < 2^64 /\
      match p with
      | PNone => tg <> 115 /\ tg <> 98
      | PStr s => tg = 115 /\ nonul s /\ wf_bytes s /\ zlen s + 4 < 2^32
      | PBlob b => tg = 98 /\ blob_ok b
      | PBndl ms => tg = 46 /\ fold_right (fun m P => ok_msg m /\ P) True ms
      end
  end
with ok_msg (m : umsg) : Prop :=
  match m with
  | UMsg ad args =>
      match ad with None => True | Some s => nonul s /\ wf_bytes s /\ zlen s + 4 < 2^32 end /\
      zlen args + 5 < 2^32 /\
      fold_right (fun a P => ok_atom a /\ P) True args
  end.
