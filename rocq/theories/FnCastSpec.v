(** What the casts and the functions match and bundle of the expression language
    mean (C76-C80). *)

From Coq Require Import String ZArith List Bool QArith.
From Verif Require Import Base Text Bytes SerialModel UtilModel AtomSModel AtomUModel AtomSpec AtomProofs RoundSpec ExprSpec RealSpec LogicSpec
  RoundProps TextProps FnStrSpec MatchSpec ExprModel ExprProps.
Import ListNotations.
Open Scope Z_scope.

(** * Numbers *)

(** The member [a] read as an integer of type [t] is [v].  Integers are taken
    modulo the size of the type, the fraction of a float is dropped.  A text that
    begins with a numeral is its number; for the types of one byte a text is its
    first character. *)
Inductive reads (t : ity) : atom -> Z -> Prop :=
| reads_int b t' v a r : operand b t' v a -> converted t v r -> reads t a r
| reads_float a bits q z : 0 <= bits < 2^32 -> float_value bits = Some q -> truncates_to q z -> in_type t z ->
    reads t (set_float a bits) z
| reads_double a bits q z : 0 <= bits < 2^64 -> double_value bits = Some q -> truncates_to q z -> in_type t z ->
    reads t (set_double a bits) z
| reads_text w sp z rest : width t > 8 -> Forall (fun c => is_space c = true) sp -> ends_number rest -> in_type t z ->
    reads t (Atom 115 w (PStr (sp ++ numeral z ++ rest))) z
| reads_character w c s r : width t = 8 -> converted t c r -> reads t (Atom 115 w (PStr (c :: s))) r
| reads_nil w p : reads t (Atom 78 w p) 0.
(** A float or double that has no integer of type [t]. *)
Inductive out_of_range (t : ity) : atom -> Prop :=
| float_out a bits : 0 <= bits < 2^32 ->
    (forall q z, float_value bits = Some q -> truncates_to q z -> ~ in_type t z) -> out_of_range t (set_float a bits)
| double_out a bits : 0 <= bits < 2^64 ->
    (forall q z, double_value bits = Some q -> truncates_to q z -> ~ in_type t z) -> out_of_range t (set_double a bits).

(** The single precision number [d] for the member [a]. *)
Inductive reads_single : atom -> Z -> Prop :=
| single_of_int b t v a d : operand b t v a -> rounds 23 8 (v <? 0) (inject_Z v) d -> reads_single a d
| single_of_single a bits : 0 <= bits < 2^32 -> reads_single (set_float a bits) bits
| single_of_double a bits d : 0 <= bits < 2^64 -> as_single bits d -> reads_single (set_double a bits) d.
(** The same in double precision. *)
Inductive reads_double_as : atom -> Z -> Prop :=
| double_of_int_as b t v a d : operand b t v a -> rounds 52 11 (v <? 0) (inject_Z v) d -> reads_double_as a d
| double_of_single a bits x d : 0 <= bits < 2^32 -> real 23 8 bits x -> real 52 11 d x -> reads_double_as (set_float a bits) d
| double_of_double a bits : 0 <= bits < 2^64 -> reads_double_as (set_double a bits) bits.

(** * Texts and blobs *)

(** The text of a member: a character that can be printed is itself, another one
    its number; a blob is read up to the first zero byte. *)
Inductive reads_text_as (other : atom -> list Z) : atom -> list Z -> Prop :=
| text_member a s : shown other a s -> a_tt a <> 99 -> reads_text_as other a s
| text_printed t a v : t = I8 \/ t = U8 -> 32 <= v < 127 -> reads_text_as other (set_u t a v) [v]
| text_code t a v : t = I8 \/ t = U8 -> in_type t v -> ~ 32 <= v < 127 -> -100 < v -> reads_text_as other (set_u t a v) (numeral v)
| text_blob w size s rest : zlen size = 4 -> nonul s -> reads_text_as other (Atom 98 w (PBlob (size ++ s ++ 0 :: rest))) s.

(** The blob [b] holds [data]: the size comes first, bytes that do not count may
    follow. *)
Definition holds (b data : list Z) : Prop := exists pad, b = be_bytes 4 (zlen data) ++ data ++ pad.

(** * Dynamic casts *)

(** [r] is the member [a] with the type [tt]. *)
Inductive typed (other : atom -> list Z) : Z -> atom -> atom -> Prop :=
| typed_int t a v : reads t a v -> typed other (tag_of t) a (set_u t atom_fresh v)
| typed_float a d : reads_single a d -> typed other 102 a (set_float atom_fresh d)
| typed_double a d : reads_double_as a d -> typed other 100 a (set_double atom_fresh d)
| typed_text a s : reads_text_as other a s -> typed other 115 a (set_string atom_fresh 0 s)
| typed_bytes t a v b : in_type t v -> width t < 64 -> holds b (be_bytes (Z.to_nat (width t / 8)) (v mod 2^width t)) ->
    typed other 98 (set_u t a v) (Atom 98 0 (PBlob b))
| typed_float_bytes a bits b : 0 <= bits < 2^32 -> holds b (be_bytes 4 bits) ->
    typed other 98 (set_float a bits) (Atom 98 0 (PBlob b))
| typed_double_bytes a bits b : 0 <= bits < 2^64 -> holds b (be_bytes 8 bits) ->
    typed other 98 (set_double a bits) (Atom 98 0 (PBlob b))
| typed_same_blob w size data pad : size = be_bytes 4 (zlen data) -> 0 < zlen pad <= 4 ->
    (zlen data + zlen pad) mod 4 = 0 -> zlen data + 8 < 2^31 ->
    typed other 98 (Atom 98 w (PBlob (size ++ data ++ pad))) (Atom 98 0 (PBlob (size ++ data ++ pad)))
| typed_unknown tt a : ~ In tt [99; 67; 117; 85; 105; 73; 104; 72; 102; 100; 115; 98] -> typed other tt a atom_fresh.
(** The types for [n] members: a single type is for all of them, and 0 stands
    where there is none. *)
Definition types_for (n : nat) (given types : list Z) : Prop :=
  (exists tt, given = [tt] /\ types = repeat tt n) \/ (zlen given <> 1 /\ types = firstn n (given ++ repeat 0 n)).

(** * Matching *)

(** [l'] is what is left of [l] if only the members with [P] stay. *)
Inductive chosen {A} (P : A -> Prop) : list A -> list A -> Prop :=
| chosen_nil : chosen P [] []
| chosen_keep x l l' : P x -> chosen P l l' -> chosen P (x :: l) (x :: l')
| chosen_drop x l l' : ~ P x -> chosen P l l' -> chosen P (x :: l) l'.
(** The pattern is the address, component by component. *)
Definition whole (p : pattern) (a : address) : Prop := Forall2 component_matches p a.
(** The pattern goes on after the address has ended. *)
Definition begun (p : pattern) (a : address) : Prop :=
  exists p1 p2, p = p1 ++ p2 /\ p2 <> [] /\ Forall2 component_matches p1 a.
Definition texts (ss : list (list Z)) : list atom := map (set_string atom_fresh 0) ss.
(** The bundle that tells the matches of a pattern. *)
Definition report (pattern : list Z) (full partial unmatched : list (list Z)) : atom :=
  set_bndl atom_fresh 0 [UMsg (Some (str "/pattern")) (texts [pattern]); UMsg (Some (str "/full")) (texts full);
                         UMsg (Some (str "/partial")) (texts partial); UMsg (Some (str "/unmatched")) (texts unmatched)].
(** The strings among the members. *)
Definition is_string (a : atom) (s : list Z) : Prop := exists w, a = Atom 115 w (PStr s).
Inductive strings_of : list atom -> list (list Z) -> Prop :=
| strings_nil : strings_of [] []
| strings_keep a s l ss : is_string a s -> strings_of l ss -> strings_of (a :: l) (s :: ss)
| strings_drop a l ss : a_tt a <> 115 -> strings_of l ss -> strings_of (a :: l) ss.

(** * Bundles *)

(** The address a message gets: a text that does not begin with a slash is none. *)
Definition address_given (s : list Z) (o : option (list Z)) : Prop :=
  (exists s', s = 47 :: s' /\ o = Some s) \/ ((forall s', s <> 47 :: s') /\ o = None).
(** Arguments that are an address, the values of its message, an address and so
    on; the last address may be without values. *)
Inductive alternating : list arr -> list (list Z * list atom) -> Prop :=
| alternating_nil : alternating [] []
| alternating_last a m l s : members a = m :: l -> is_string m s -> alternating [a] [(s, [])]
| alternating_more a m l s b args ps : members a = m :: l -> is_string m s -> alternating args ps ->
    alternating (a :: b :: args) ((s, members b) :: ps).
(** The message for an address and its values. *)
Definition built (x : list Z * list atom) (m : umsg) : Prop :=
  exists o ys, m = UMsg o ys /\ address_given (fst x) o /\ Forall2 copy_of (snd x) ys.
