(** What typed calls build (C90). *)

From Coq Require Import ZArith List Bool.
From Verif Require Import Base Bytes WireSpec SerialModel SerialSpec ExprSpec TimetagModel HeapSpec BuildModel.
Import ListNotations.
Open Scope Z_scope.

(** The value on the wire of what is passed in; a number is sent with the bits its type
    has. *)
Inductive sends : typed -> value -> Prop :=
| s_int8 v : sends (GInt8 v) (VNum32 99 (v mod 2^8))
| s_int16 v : sends (GInt16 v) (VNum32 117 (v mod 2^16))
| s_int32 v : sends (GInt32 v) (VNum32 105 (v mod 2^32))
| s_int64 v : sends (GInt64 v) (VNum64 104 (v mod 2^64))
| s_uint8 v : sends (GUInt8 v) (VNum32 67 (v mod 2^8))
| s_uint16 v : sends (GUInt16 v) (VNum32 85 (v mod 2^16))
| s_uint32 v : sends (GUInt32 v) (VNum32 73 (v mod 2^32))
| s_uint64 v : sends (GUInt64 v) (VNum64 72 (v mod 2^64))
| s_float v : sends (GFloat v) (VNum32 102 (v mod 2^32))
| s_double v : sends (GDouble v) (VNum64 100 (v mod 2^64))
| s_string_ptr p s : nonul s -> wf_bytes s -> zlen s + 4 < 2^32 -> sends (GStringPtr p s) (VStr s)
| s_string p s : nonul s -> wf_bytes s -> zlen s + 4 < 2^32 -> sends (GString p s) (VStr s)
| s_bool v : sends (GBool v) (VFlag (if v =? 0 then 70 else 84))
| s_true : sends GTrue (VFlag 84)
| s_false : sends GFalse (VFlag 70)
| s_nil : sends GNil (VFlag 78)
(* a serialized bundle, read as C13 says *)
| s_bndl hdr ms rest : zlen hdr = 16 -> Forall (std_message slash) ms -> zlen (enc_bundle hdr ms) + 4 < 2^31 ->
    sends (GBndl (zlen (enc_bundle hdr ms)) (enc_bundle hdr ms ++ rest)) (VBundle (map narrow_msg ms))
| s_bndl_s hdr ms rest : zlen hdr = 16 -> Forall (std_message slash) ms -> zlen (enc_bundle hdr ms) + 4 < 2^31 ->
    sends (GBndl_s (zlen (enc_bundle hdr ms)) (enc_bundle hdr ms ++ rest)) (VBundle (map narrow_msg ms))
| s_bndl_u p ms : Forall ok_msg ms -> sends (GBndl_u p ms) (VBundle (raw_msgs ms))
| s_timetag s f : sends (GTimetag (TT s f)) (VTime (s mod 2^32) (f mod 2^32))
(* a size and the data *)
| s_blob p d rest : wf_bytes d -> zlen d + 8 < 2^31 -> sends (GBlob p (be_bytes 4 (zlen d) ++ d ++ rest)) (VBlob d).

Definition placed {A} (p : place) (x : A) (l : list A) : list A :=
  match p with AtEnd => l ++ [x] | AtFront => x :: l | At _ pos => insert_at (Z.to_nat pos) x l end.
Definition position_ok (p : place) : Prop := match p with At _ pos => 0 <= pos | _ => True end.

(** The values of the message after some calls. *)
Inductive built : list value -> list call -> list value -> Prop :=
| built_nil vs : built vs [] vs
| built_cons vs loc p t v l ws : position_ok p -> sends t v -> built (placed p v vs) l ws ->
    built vs (Put loc p t :: l) ws.

Definition locations (l : list call) : list Z := map (fun '(Put loc _ _) => loc) l.
