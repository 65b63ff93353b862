(** What OSC data looks like on the wire, written from the OSC 1.0 text and
    without reference to the code: values, messages, bundles and their
    encoding. *)

From Coq Require Import ZArith List Bool.
From Verif Require Import Base Bytes.
Import ListNotations.
Open Scope Z_scope.

(** An argument together with its type tag.  Numbers are bit patterns, so
    floats and doubles are covered by [VNum32]/[VNum64]. *)
Inductive value : Type :=
| VNum32 (tag v : Z)           (* a number sent in four bytes *)
| VNum64 (tag v : Z)           (* a number sent in eight bytes *)
| VTime (sec frac : Z)         (* 't', an NTP time tag *)
| VStr (s : list Z)            (* 's' *)
| VBlob (d : bytes)            (* 'b' *)
| VFlag (tag : Z)              (* a tag without data: T, F, N *)
| VBundle (ms : list message)  (* '.', libo's nested bundle *)
with message : Type :=
| M (address : list Z) (args : list value).

Definition zeros (n : Z) : bytes := repeat 0 (Z.to_nat n).

(** A string is followed by one to four NULs so that its length becomes a
    multiple of four. *)
Definition pad_str (s : list Z) : bytes := s ++ zeros (4 - zlen s mod 4).

(** Blob data is followed by zero to three NULs. *)
Definition pad_blob (d : bytes) : bytes := d ++ zeros ((- zlen d) mod 4).

(** A four-byte big-endian byte count followed by the bytes. *)
Definition sized (b : bytes) : bytes := be_bytes 4 (zlen b) ++ b.

Definition vtag (v : value) : Z :=
  match v with
  | VNum32 t _ => t
  | VNum64 t _ => t
  | VTime _ _ => 116
  | VStr _ => 115
  | VBlob _ => 98
  | VFlag t => t
  | VBundle _ => 46
  end.

(** "#bundle" and its NUL. *)
Definition bundle_id : bytes := [35; 98; 117; 110; 100; 108; 101; 0].

(** The header libo puts in front of the messages of a new bundle: the
    identifier and eight zero bytes of time tag. *)
Definition empty_header : bytes := bundle_id ++ zeros 8.

Fixpoint enc_value (v : value) : bytes :=
  match v with
  | VNum32 _ x => be_bytes 4 x
  | VNum64 _ x => be_bytes 8 x
  | VTime s f => be_bytes 4 s ++ be_bytes 4 f
  | VStr s => pad_str s
  | VBlob d => be_bytes 4 (zlen d) ++ pad_blob d
  | VFlag _ => []
  | VBundle ms => sized (empty_header ++ concat (map enc_message ms))
  end
with enc_message (m : message) : bytes :=
  match m with
  | M a vs => sized (pad_str a ++ pad_str (44 :: map vtag vs) ++ concat (map enc_value vs))
  end.

(** A bundle: sixteen bytes of header, then the messages. *)
Definition enc_bundle (header : bytes) (ms : list message) : bytes :=
  header ++ concat (map enc_message ms).

(** A message as the functions that do not look at arguments see it: its
    address and, if it has a type tag string at all (old senders omit it),
    that string, which normally begins with a comma, and the argument bytes. *)
Record wmsg := WM { w_addr : list Z; w_args : option (list Z * bytes) }.

Definition wbody (w : wmsg) : bytes :=
  pad_str (w_addr w) ++
  match w_args w with
  | None => []
  | Some (tags, data) => pad_str tags ++ data
  end.
Definition enc_wmsg (w : wmsg) : bytes := sized (wbody w).

(** No NUL inside the strings, and a size that fits the size field. *)
Definition wf_wmsg (w : wmsg) : Prop :=
  nonul (w_addr w) /\
  match w_args w with None => True | Some (tags, _) => nonul tags end /\
  zlen (wbody w) + 4 < 2^31.

(** The view of a message with arguments. *)
Definition wm_of (m : message) : wmsg :=
  match m with M a vs => WM a (Some (44 :: map vtag vs, concat (map enc_value vs))) end.

(** The values libo can send and receive: the numeric tags with four and eight
    bytes, time tags, C strings, blobs, T, F, N and bundles of such messages;
    [Q] is what is required of the addresses, at every depth. *)
Fixpoint std_value (Q : list Z -> Prop) (v : value) : Prop :=
  match v with
  | VNum32 t x => In t [99; 67; 117; 85; 105; 73; 102] /\ 0 <= x < 2^32
  | VNum64 t x => In t [104; 72; 100] /\ 0 <= x < 2^64
  | VTime s f => 0 <= s < 2^32 /\ 0 <= f < 2^32
  | VStr s => nonul s /\ wf_bytes s
  | VBlob d => wf_bytes d
  | VFlag t => In t [84; 70; 78]
  | VBundle ms => fold_right (fun m P => std_message Q m /\ P) True ms
  end
with std_message (Q : list Z -> Prop) (m : message) : Prop :=
  match m with
  | M a vs => nonul a /\ wf_bytes a /\ Q a /\ fold_right (fun v P => std_value Q v /\ P) True vs
  end.
