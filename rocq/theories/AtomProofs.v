(** Proofs about typed access (see AtomSpec.v). *)

From Coq Require Import ZArith List Bool Lia QArith.
From Verif Require Import Base BaseProofs Bytes UtilModel UtilProofs TimetagModel
  WireSpec SerialModel SerialSpec AtomSModel FloatModel AtomUModel AtomSpec.
Import ListNotations.
Open Scope Z_scope.

(** * Conversions between integers *)

Definition wrap (t : ity) : Z -> Z :=
  match t with I8 => s8 | I16 => s16 | I32 => s32 | I64 => s64 | U8 => u8 | U16 => u16 | U32 => u32 | U64 => u64 end.

Ltac wr := unfold s8, s16, s32, s64, u8, u16, u32, u64 in *;
  change (2^7) with 128 in *; change (2^8) with 256 in *;
  change (2^15) with 32768 in *; change (2^16) with 65536 in *;
  change (2^31) with 2147483648 in *; change (2^32) with 4294967296 in *;
  change (2^63) with 9223372036854775808 in *; change (2^64) with 18446744073709551616 in *.
Ltac ity_cases t := destruct t; cbn [signed width wrap] in *;
  change (8 - 1) with 7 in *; change (16 - 1) with 15 in *; change (32 - 1) with 31 in *; change (64 - 1) with 63 in *.

Lemma converted_wrap t v : converted t v (wrap t v).
Proof.
  unfold converted, in_type. ity_cases t; wr; (split; [|]);
    try (Z.div_mod_to_equations; lia).
Qed.

Lemma converted_unique t v r r' : converted t v r -> converted t v r' -> r = r'.
Proof. unfold converted, in_type. intros [H1 H2] [H3 H4]. ity_cases t; wr; Z.div_mod_to_equations; lia. Qed.

Lemma wrap_id t v : in_type t v -> wrap t v = v.
Proof. unfold in_type. intros H. ity_cases t; wr; Z.div_mod_to_equations; lia. Qed.

Lemma wrap_mod t v : wrap t (v mod 2^width t) = wrap t v.
Proof. ity_cases t; wr; Z.div_mod_to_equations; lia. Qed.

Lemma wrap_store t w v : wrap t (store (width t) w v) = wrap t v.
Proof. unfold store. ity_cases t; wr; Z.div_mod_to_equations; lia. Qed.

(** The accessors by type. *)
Definition set_u (t : ity) : atom -> Z -> atom :=
  match t with
  | I8 => set_int8 | I16 => set_int16 | I32 => set_int32 | I64 => set_int64
  | U8 => set_uint8 | U16 => set_uint16 | U32 => set_uint32 | U64 => set_uint64
  end.
Definition get_u (t : ity) : atom -> res Z :=
  match t with
  | I8 => au_int8 | I16 => au_int16 | I32 => au_int32 | I64 => au_int64
  | U8 => au_uint8 | U16 => au_uint16 | U32 => au_uint32 | U64 => au_uint64
  end.
Definition get_s (t : ity) : bytes -> Z -> Z -> res Z :=
  match t with
  | I8 => as_int8 | I16 => as_int16 | I32 => as_int32 | I64 => as_int64
  | U8 => as_uint8 | U16 => as_uint16 | U32 => as_uint32 | U64 => as_uint64
  end.
Definition tag_of (t : ity) : Z :=
  match t with
  | I8 => 99 | I16 => 117 | I32 => 105 | I64 => 104
  | U8 => 67 | U16 => 85 | U32 => 73 | U64 => 72
  end.

Lemma get_set t t' a v : in_type t v -> get_u t' (set_u t a v) = Ok (wrap t' v).
Proof.
  intros H. destruct a as [tg w p].
  assert (E := wrap_store t w v). rewrite (wrap_id t v H) in E.
  destruct t, t'; cbn [wrap width] in E; cbn -[store s8 s16 s32 s64 u8 u16 u32 u64];
    unfold w_c, w_C, w_u, w_U, w_i, w_I, w_h, w_H; rewrite E; f_equal;
    try (symmetry; exact (wrap_id _ v H)); try reflexivity.
Qed.

Lemma get_int_set t a v : in_type t v -> au_int (set_u t a v) = Ok (s32 v).
Proof.
  intros H. destruct a as [tg w p].
  assert (E := wrap_store t w v). rewrite (wrap_id t v H) in E.
  destruct t; cbn [wrap width] in E; cbn -[store s8 s16 s32 s64 u8 u16 u32 u64];
    unfold w_c, w_C, w_u, w_U, w_i, w_I, w_h, w_H; rewrite E; f_equal;
    try (symmetry; exact (wrap_id I32 v H)); try reflexivity.
Qed.

Lemma bool_set t a v : in_type t v -> au_bool (set_u t a v) = negb (v =? 0).
Proof.
  intros H. destruct a as [tg w p].
  assert (E := wrap_store t w v). rewrite (wrap_id t v H) in E.
  destruct t; cbn [wrap width] in E; cbn -[store s8 s16 s32 s64 u8 u16 u32 u64 Z.eqb];
    unfold w_c, w_C, w_u, w_U, w_i, w_I, w_h, w_H; cbn -[store s8 s16 s32 s64 u8 u16 u32 u64 Z.eqb]; rewrite E; reflexivity.
Qed.

(** * Serialized integers *)

Definition esize (t : ity) : nat := match t with I64 | U64 => 8%nat | _ => 4%nat end.
Definition reads_past (t t' : ity) : bool :=
  match t, t' with U8, I64 | U16, I64 => true | _, _ => false end.

Ltac redtag := cbv beta iota delta [Z.eqb Pos.eqb orb] ; cbn [bind].
Lemma get_s_wire t t' l1 n l2 : 0 <= n < 2^(8 * Z.of_nat (esize t)) -> reads_past t t' = false ->
  get_s t' (l1 ++ be_bytes (esize t) n ++ l2) (tag_of t) (zlen l1) = Ok (wrap t' n).
Proof.
  intros Hn Hr.
  assert (H4 : esize t = 4%nat -> rd32 (l1 ++ be_bytes 4 n ++ l2) (zlen l1) = Ok n).
  { intros E. rewrite rd32_be. f_equal. rewrite E in Hn. apply Z.mod_small. exact Hn. }
  assert (H8 : esize t = 8%nat -> rd64 (l1 ++ be_bytes 8 n ++ l2) (zlen l1) = Ok n).
  { intros E. rewrite rd64_be. f_equal. rewrite E in Hn. apply Z.mod_small. exact Hn. }
  destruct t, t'; try discriminate Hr; cbn [esize get_s tag_of wrap] in *;
    unfold as_int8, as_int16, as_int32, as_int64, as_uint8, as_uint16, as_uint32, as_uint64;
    redtag; (rewrite (H4 eq_refl) || rewrite (H8 eq_refl)); cbn [bind]; f_equal; clear H4 H8; cbn in Hn;
    wr; try (Z.div_mod_to_equations; lia).
Qed.

Lemma get_s_past t l1 n l2 : t = U8 \/ t = U16 ->
  get_s I64 (l1 ++ be_bytes 4 n ++ l2) (tag_of t) (zlen l1) =
    (do x <- rd64 (l1 ++ be_bytes 4 n ++ l2) (zlen l1); Ok (s64 x)).
Proof. intros [-> | ->]; reflexivity. Qed.

(** The word a serialized integer atom is sent as. *)
Lemma raw_set t a v : exists n,
  raw_value (set_u t a v) = (match esize t with 4%nat => VNum32 (tag_of t) n | _ => VNum64 (tag_of t) n end) /\
  0 <= n < 2^(8 * Z.of_nat (esize t)) /\ wrap t n = wrap t v.
Proof.
  destruct a as [tg w p].
  exists (store (width t) w v mod 2^(8 * Z.of_nat (esize t))).
  split; [now destruct t|]. split; [apply Z.mod_pos_bound; destruct t; reflexivity|].
  rewrite <- (wrap_store t w v). unfold store.
  ity_cases t; cbn [esize]; change (8 * Z.of_nat 4) with 32; change (8 * Z.of_nat 8) with 64;
    wr; try (Z.div_mod_to_equations; lia).
Qed.

Lemma raw_fresh t v :
  raw_value (set_u t atom_fresh v) =
    match esize t with 4%nat => VNum32 (tag_of t) (v mod 2^width t) | _ => VNum64 (tag_of t) (v mod 2^width t) end.
Proof.
  destruct t; cbn -[Z.pow Z.modulo]; unfold store; f_equal; wr; Z.div_mod_to_equations; lia.
Qed.

(** * Numerals *)

Lemma digits_app l c : Forall (fun c => is_digit c = true) l -> is_digit c = true ->
  forall acc, digits acc (l ++ [c]) = 10 * digits acc l + (c - 48).
Proof.
  induction 1 as [|x l Hx Hl IH]; intros Hc acc; cbn [app digits].
  - now rewrite Hc.
  - rewrite Hx. now apply IH.
Qed.
Lemma digits_stop l rest : Forall (fun c => is_digit c = true) l ->
  match rest with c :: _ => is_digit c = false | [] => True end ->
  forall acc, digits acc (l ++ rest) = digits acc l.
Proof.
  induction 1 as [|x l Hx Hl IH]; intros Hc acc; cbn [app digits].
  - destruct rest as [|c r]; cbn [digits]; [easy|now rewrite Hc].
  - rewrite Hx. now apply IH.
Qed.
Lemma is_digit_of n : 0 <= n < 10 -> is_digit (48 + n) = true.
Proof. unfold is_digit. intros H. apply andb_true_intro. split; apply Z.leb_le; lia. Qed.

Lemma decimal_ok f : forall n, 0 <= n < 2^Z.of_nat f -> f <> 0%nat ->
  Forall (fun c => is_digit c = true) (decimal f n) /\ digits 0 (decimal f n) = n /\ decimal f n <> [].
Proof.
  induction f as [|f IH]; intros n Hn Hf; [easy|].
  cbn [decimal]. destruct (n <? 10) eqn:E.
  - apply Z.ltb_lt in E. split; [constructor; [apply is_digit_of; lia|constructor]|].
    split; [|discriminate]. cbn [digits]. rewrite is_digit_of by lia. lia.
  - apply Z.ltb_ge in E.
    assert (Hf0 : f <> 0%nat). { intros ->. change (2 ^ Z.of_nat 1) with 2 in Hn. lia. }
    assert (Hd : 0 <= n / 10 < 2^Z.of_nat f).
    { rewrite Nat2Z.inj_succ, Z.pow_succ_r in Hn by lia. Z.div_mod_to_equations. lia. }
    destruct (IH _ Hd Hf0) as (H1 & H2 & H3).
    assert (Hm : is_digit (48 + n mod 10) = true) by (apply is_digit_of, Z.mod_pos_bound; lia).
    split; [apply Forall_app; split; [exact H1|constructor; [exact Hm|constructor]]|].
    split; [|destruct (decimal f (n / 10)); discriminate].
    rewrite digits_app by assumption. rewrite H2. Z.div_mod_to_equations. lia.
Qed.

Lemma digit_string_ok n : 0 <= n ->
  Forall (fun c => is_digit c = true) (digit_string n) /\ digits 0 (digit_string n) = n /\ digit_string n <> [].
Proof.
  intros Hn. unfold digit_string. pose proof (Z.log2_nonneg n). apply decimal_ok; [|lia].
  rewrite Z2Nat.id by lia. split; [exact Hn|].
  destruct (Z.eq_dec n 0) as [-> | Hz]; [reflexivity|].
  replace (1 + Z.log2 n) with (Z.succ (Z.log2 n)) by lia. apply Z.log2_spec. lia.
Qed.

Definition ends_number (rest : list Z) : Prop := match rest with c :: _ => is_digit c = false | [] => True end.

Lemma digit_not_space c : is_digit c = true -> is_space c = false /\ c <> 45 /\ c <> 43.
Proof.
  unfold is_digit, is_space. intros H. apply andb_true_iff in H. destruct H as [H1 H2].
  apply Z.leb_le in H1, H2. split; [|lia].
  rewrite (proj2 (Z.eqb_neq c 32)) by lia. cbn. apply andb_false_iff. right. apply Z.leb_gt. lia.
Qed.

Lemma magnitude_numeral sp z rest : Forall (fun c => is_space c = true) sp -> ends_number rest ->
  strto_magnitude (sp ++ numeral z ++ rest) = (z <? 0, Z.abs z).
Proof.
  intros Hsp Hr. unfold strto_magnitude.
  assert (Hskip : forall s, match s with c :: _ => is_space c = false | [] => True end -> skip_space (sp ++ s) = s).
  { intros s Hs. induction Hsp as [|c sp Hc Hsp IH]; cbn [app skip_space].
    - destruct s as [|c s]; cbn [skip_space]; [easy|now rewrite Hs].
    - now rewrite Hc. }
  unfold numeral. destruct (z <? 0) eqn:E.
  - apply Z.ltb_lt in E. rewrite Hskip by reflexivity. cbn [app Z.eqb Pos.eqb].
    destruct (digit_string_ok (- z)) as (H1 & H2 & H3); [lia|].
    rewrite digits_stop by assumption. rewrite H2. f_equal. lia.
  - apply Z.ltb_ge in E. destruct (digit_string_ok z E) as (H1 & H2 & H3).
    destruct (digit_string z) as [|c l] eqn:Ed; [easy|].
    assert (Hc : is_digit c = true) by now inversion H1.
    destruct (digit_not_space c Hc) as (Hs & H45 & H43).
    rewrite Hskip by exact Hs. cbn [app].
    rewrite (proj2 (Z.eqb_neq c 45)), (proj2 (Z.eqb_neq c 43)) by assumption.
    change (c :: l ++ rest) with ((c :: l) ++ rest). rewrite digits_stop by assumption.
    rewrite H2. f_equal. lia.
Qed.

Lemma strtol_numeral sp z rest : Forall (fun c => is_space c = true) sp -> ends_number rest ->
  strtol (sp ++ numeral z ++ rest) = Z.max (- 2^63) (Z.min (2^63 - 1) z).
Proof.
  intros Hsp Hr. unfold strtol. rewrite magnitude_numeral by assumption.
  destruct (z <? 0) eqn:E; [apply Z.ltb_lt in E|apply Z.ltb_ge in E];
    change (2^63) with 9223372036854775808; lia.
Qed.
Lemma strtoul_numeral sp z rest : Forall (fun c => is_space c = true) sp -> ends_number rest ->
  Z.abs z < 2^64 -> strtoul (sp ++ numeral z ++ rest) = z mod 2^64.
Proof.
  intros Hsp Hr Hz. unfold strtoul. rewrite magnitude_numeral by assumption.
  destruct (Z.abs z >? 2^64 - 1) eqn:E; [rewrite Z.gtb_ltb in E; apply Z.ltb_lt in E; lia|].
  destruct (z <? 0) eqn:E'; [apply Z.ltb_lt in E'|apply Z.ltb_ge in E'].
  - unfold u64. f_equal. lia.
  - symmetry. rewrite Z.mod_small; lia.
Qed.
