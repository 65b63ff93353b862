(** The text a user sees for OSC data. *)

From Coq Require Import ZArith List Bool.
From Verif Require Import Base Text WireSpec SerialModel AtomSpec.
Import ListNotations.
Open Scope Z_scope.

(** Words separated by [sep]. *)
Fixpoint join (sep : list Z) (l : list (list Z)) : list Z :=
  match l with
  | [] => []
  | [x] => x
  | x :: l' => x ++ sep ++ join sep l'
  end.

Definition newline : list Z := [10].
Definition spaces (k : Z) : list Z := repeat 32 (Z.to_nat k).

(** The number a field of [k] bits holds in two's complement. *)
Definition two_complement (k x : Z) : Z :=
  let y := x mod 2^k in if y <? 2^(k - 1) then y else y - 2^k.

(** A string literal: a backslash before each double quote and backslash. *)
Definition escaped (s : list Z) : list Z :=
  flat_map (fun c => if (c =? 34) || (c =? 92) then [92; c] else [c]) s.
Definition literal (s : list Z) : list Z := [34] ++ escaped s ++ [34].

(** Bytes of a blob as signed decimal numbers. *)
Definition blob_literal (d : bytes) : list Z :=
  str "blob(" ++ join (str ", ") (map (fun b => numeral (two_complement 8 b)) d) ++ str ")".

Section Show.
(** The texts of floats, doubles and time tags are those of [rt]. *)
Context (rt : Z -> Z -> list Z).

(** [d] is the depth of nesting: two spaces per level. *)
Fixpoint show_value (d : Z) (v : value) : list Z :=
  match v with
  | VNum32 t x =>
      if (t =? 99) || (t =? 67) then str "'" ++ [x mod 2^8] ++ str "'"
      else if t =? 117 then numeral (two_complement 16 x)
      else if t =? 85 then numeral (x mod 2^16)
      else if t =? 105 then numeral (two_complement 32 x)
      else if t =? 73 then numeral x
      else rt t x
  | VNum64 t x =>
      if t =? 104 then numeral (two_complement 64 x)
      else if t =? 72 then numeral x
      else rt t x
  | VTime s f => rt 116 (s * 2^32 + f)
  | VStr s => literal s
  | VBlob b => blob_literal b
  | VFlag t => if t =? 84 then str "true" else if t =? 70 then str "false" else str "nil"
  | VBundle ms =>
      str "{" ++ newline ++ join (str "," ++ newline) (map (show_message (d + 1)) ms) ++
      newline ++ spaces (2 * d) ++ str "}"
  end
with show_message (d : Z) (m : message) : list Z :=
  match m with
  | M a vs =>
      spaces (2 * d) ++ a ++
      match vs with
      | [] => []
      | [v] => str " : " ++ show_value d v
      | _ => str " : [" ++ join (str ", ") (map (show_value d) vs) ++ str "]"
      end
  end.

(** The text of a bundle: its messages, one after the other. *)
Definition show_bundle (ms : list message) : list Z :=
  join (str "," ++ newline) (map (show_message 0) ms).
End Show.

(** What the formatter handles: 8-bit unsigned integers of three digits (for
    smaller ones the announced size is wrong) and blobs that are not empty, at
    every depth. *)
Fixpoint showable (v : value) : Prop :=
  match v with
  | VNum32 t x => t = 67 -> 100 <= x mod 2^8
  | VBlob b => b <> []
  | VBundle ms => fold_right (fun m P => showable_message m /\ P) True ms
  | _ => True
  end
with showable_message (m : message) : Prop :=
  match m with M a vs => fold_right (fun v P => showable v /\ P) True vs end.

(** Objects in which every message has an address and every bundle atom a
    bundle; type tags are characters. *)
Fixpoint whole_atom (a : atom) : Prop :=
  match a with
  | Atom tg w p =>
      is_byte tg /\
      match p with
      | PBndl ms => fold_right (fun m P => whole_msg m /\ P) True ms
      | _ => tg <> 46
      end
  end
with whole_msg (m : umsg) : Prop :=
  match m with
  | UMsg ad args => ad <> None /\ fold_right (fun a P => whole_atom a /\ P) True args
  end.
