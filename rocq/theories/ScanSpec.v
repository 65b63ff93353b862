(** What a text says: the spelling of values, the grammar of bundles, and which
    values come back from the text the library itself writes (FormatSpec). *)

From Coq Require Import String ZArith List Bool.
From Verif Require Import Base Text WireSpec TimetagModel SerialModel SerialSpec AtomSpec FormatSpec ScanModel.
Import ListNotations.
Open Scope Z_scope.

(** * Grammar *)

(** Values, lists of values, messages and lists of messages as sequences of tokens.
    An address among the values is a text. *)
Inductive datum_of : list token -> atom -> Prop :=
| d_address s : datum_of [TAddress s] (set_string atom_fresh 0 s)
| d_value a : datum_of [TValue a] a
| d_empty : datum_of [TChar 123; TChar 125] (set_bndl atom_fresh 0 [])
| d_bundle ts ms : messages_of ts ms -> datum_of ([TChar 123] ++ ts ++ [TChar 125]) (set_bndl atom_fresh 0 ms)
with data_of : list token -> list atom -> Prop :=
| data_one ts a : datum_of ts a -> data_of ts [a]
| data_more ts a us l : datum_of ts a -> data_of us l -> data_of (ts ++ [TChar 44] ++ us) (a :: l)
with message_of : list token -> umsg -> Prop :=
| m_address s : message_of [TAddress s] (UMsg (Some s) [])
| m_datum s ts a : datum_of ts a -> message_of ([TAddress s; TChar 58] ++ ts) (UMsg (Some s) [a])
| m_list s ts l : data_of ts l -> message_of ([TAddress s; TChar 58; TChar 91] ++ ts ++ [TChar 93]) (UMsg (Some s) l)
with messages_of : list token -> list umsg -> Prop :=
| ms_one ts m : message_of ts m -> messages_of ts [m]
| ms_more ts m us ms : message_of ts m -> messages_of us ms -> messages_of (ts ++ [TChar 44] ++ us) (m :: ms).

(** * Spelling *)

Definition white : list Z := [32; 9; 10].
(** The text ends, or white space, a comma or a closing bracket follows. *)
Definition delimited (rest : list Z) : Prop :=
  match rest with [] => True | c :: _ => In c (white ++ [44; 93; 125]) end.

Definition is_digit_char (c : Z) : Prop := 48 <= c <= 57.
Definition digit_text (s : list Z) : Prop := s <> [] /\ Forall is_digit_char s.
(** A decimal constant with a point or an exponent, and perhaps a minus sign. *)
Inductive decimal_constant : list Z -> Prop :=
| DecimalConstant sign whole fraction exponent :
    In sign [[]; [45]] -> digit_text whole ->
    (fraction = [] \/ exists f, fraction = 46 :: f /\ Forall is_digit_char f) ->
    (exponent = [] \/ exists s d, exponent = 101 :: s ++ d /\ In s [[]; [43]; [45]] /\ digit_text d) ->
    fraction <> [] \/ exponent <> [] ->
    decimal_constant (sign ++ whole ++ fraction ++ exponent).

Definition two_digits (n : Z) : list Z := [48 + n / 10; 48 + n mod 10].
(** Date and time with four digits for the year, a Z for universal time. *)
Inductive iso_time : list Z -> Prop :=
| IsoTime year month day hour minute second fraction zone :
    length year = 4%nat -> Forall is_digit_char year -> 1 <= month <= 12 -> 1 <= day <= 31 ->
    0 <= hour <= 23 -> 0 <= minute <= 59 -> 0 <= second <= 59 ->
    (fraction = [] \/ exists f, fraction = 46 :: f /\ digit_text f) -> In zone [[]; [90]] ->
    iso_time (year ++ [45] ++ two_digits month ++ [45] ++ two_digits day ++ [84] ++
              two_digits hour ++ [58] ++ two_digits minute ++ [58] ++ two_digits second ++ fraction ++ zone).

(** Hexadecimal digits and their number. *)
Definition is_hex (c : Z) : Prop := 48 <= c <= 57 \/ 65 <= c <= 70 \/ 97 <= c <= 102.
Definition hex_number (s : list Z) : Z :=
  fold_left (fun n c => 16 * n + (if c <=? 57 then c - 48 else if c <=? 70 then c - 65 + 10 else c - 97 + 10)) s 0.

(** Addresses as they can be read. *)
Definition plain_address (s : list Z) : Prop :=
  exists body, s = 47 :: body /\ body <> [] /\ Forall (fun c => ~ In c (white ++ [0; 35])) body /\ last body 0 <> 44.

Section Spell.
Context (strtod : list Z -> Z) (iso : list Z -> timetag).

(** Values and their spelling; the flag tells whether it must be delimited. *)
Inductive spelled : list Z -> bool -> token -> Prop :=
| sp_punctuation c : In c [58; 123; 125; 44; 91; 93] -> spelled [c] false (TChar c)
| sp_true : spelled (str "true") false (TValue (set_true atom_fresh))
| sp_false : spelled (str "false") false (TValue (set_false atom_fresh))
| sp_nil : spelled (str "nil") false (TValue (set_nil atom_fresh))
| sp_char c : is_byte c -> c <> 0 -> c <> 10 ->
    spelled ([39] ++ [c] ++ [39]) false (TValue (set_int8 atom_fresh (two_complement 8 c)))
| sp_text s : nonul s -> spelled (literal s) false (TValue (set_string atom_fresh 0 s))
| sp_integer z : spelled (numeral z) true
    (TValue (set_int32 atom_fresh (two_complement 32 (Z.max (- 2^63) (Z.min z (2^63 - 1))))))
| sp_hex32 x s : In x (str "xX") -> s <> [] -> Forall is_hex s -> zlen s <= 8 ->
    spelled ([48; x] ++ s) true (TValue (set_uint32 atom_fresh (hex_number s)))
| sp_hex64 x s : In x (str "xX") -> Forall is_hex s -> 8 < zlen s ->
    spelled ([48; x] ++ s) true (TValue (set_uint64 atom_fresh (Z.min (2^64 - 1) (hex_number s))))
| sp_double w : decimal_constant w -> spelled w true (TValue (set_double atom_fresh (strtod w)))
| sp_time w : iso_time w -> spelled w true (TValue (set_timetag atom_fresh (iso w))).

(** Texts and the tokens they say.  White space may stand between any two of them;
    an address ends at white space, perhaps with a comma before it. *)
Inductive written : list Z -> list token -> Prop :=
| w_end : written [] []
| w_white c rest ts : In c white -> written rest ts -> written (c :: rest) ts
| w_token w must t rest ts : spelled w must t -> (must = true -> delimited rest) -> written rest ts ->
    written (w ++ rest) (t :: ts)
| w_address s rest ts : plain_address s ->
    (match rest with
     | [] => True
     | c :: rest' => In c (35 :: white) \/ (c = 44 /\ match rest' with [] => True | d :: _ => In d (35 :: white) end)
     end) -> written rest ts -> written (s ++ rest) (TAddress s :: ts).

(** * What comes back *)

Section Back.
Context (rt : Z -> Z -> list Z).

(** The value that is read from the text of a value: integers of other types come
    back as int32, modulo 2^32; floats as doubles. *)
Fixpoint read_back (v : value) : value :=
  match v with
  | VNum32 t x =>
      if (t =? 99) || (t =? 67) then VNum32 99 (x mod 2^8)
      else if t =? 117 then VNum32 105 (two_complement 16 x mod 2^32)
      else if t =? 85 then VNum32 105 (x mod 2^16)
      else if (t =? 105) || (t =? 73) then VNum32 105 x
      else VNum64 100 (strtod (rt t x) mod 2^64)
  | VNum64 t x =>
      if t =? 104 then VNum32 105 (x mod 2^32)
      else if t =? 72 then VNum32 105 (Z.min x (2^63 - 1) mod 2^32)
      else VNum64 100 (strtod (rt t x) mod 2^64)
  | VTime s f => let t := iso (rt 116 (s * 2^32 + f)) in VTime (sec t mod 2^32) (frac t mod 2^32)
  | VBundle ms => VBundle (map read_back_message ms)
  | _ => v
  end
with read_back_message (m : message) : message :=
  match m with M a vs => M a (map read_back vs) end.

(** What can be read: no blobs, characters that can stand between quotes, addresses
    without white space, and the texts of the other types as the C library is known
    to write them. *)
Fixpoint readable (v : value) : Prop :=
  match v with
  | VNum32 t x =>
      ((t = 99 \/ t = 67) -> x mod 2^8 <> 0 /\ x mod 2^8 <> 10) /\ (t = 102 -> decimal_constant (rt t x))
  | VNum64 t x => t = 100 -> decimal_constant (rt t x)
  | VTime s f => iso_time (rt 116 (s * 2^32 + f))
  | VBlob _ => False
  | VBundle ms => fold_right (fun m P => readable_message m /\ P) True ms
  | _ => True
  end
with readable_message (m : message) : Prop :=
  match m with M a vs => plain_address a /\ fold_right (fun v P => readable v /\ P) True vs end.

(** Values that come back as they are: characters, int32, doubles and time tags
    whose text is exact, texts, truth values, nil, and bundles of such. *)
Fixpoint kept (v : value) : Prop :=
  match v with
  | VNum32 t x => t = 99 \/ t = 105
  | VNum64 t x => t = 100 /\ strtod (rt t x) = x
  | VTime s f => iso (rt 116 (s * 2^32 + f)) = TT s f
  | VBundle ms => fold_right (fun m P => kept_message m /\ P) True ms
  | _ => True
  end
with kept_message (m : message) : Prop :=
  match m with M a vs => fold_right (fun v P => kept v /\ P) True vs end.
End Back.
End Spell.
