(** C05 and C06: padding and byte order. *)

From Coq Require Import ZArith List Bool Lia.
From Verif Require Import Base BaseProofs Bytes UtilModel UtilProofs.
Import ListNotations.
Open Scope Z_scope.

(** [r] is the least multiple of four that is at least [n]. *)
Definition least_multiple_of_4 (r n : Z) : Prop :=
  n <= r /\ (exists k, r = 4 * k) /\ (forall r', n <= r' -> (exists k, r' = 4 * k) -> r <= r').

(** The padded length of a string leaves room for the terminator and is the
    least multiple of four that does. *)
Theorem C05_padded_string : forall n, 0 <= n < 2^32 - 8 ->
  least_multiple_of_4 (padded_string_len n) (n + 1).
Proof.
  intros n H. rewrite padded_string_len_eq by lia. unfold least_multiple_of_4.
  pose proof (Z.div_mod n 4 ltac:(lia)). pose proof (Z.mod_pos_bound n 4 ltac:(lia)).
  split; [lia|]. split; [exists (n / 4 + 1); lia|]. intros r' Hr [k ->]. lia.
Qed.
Print Assumptions C05_padded_string.

Theorem C05_padding_for_nbytes : forall n, 0 <= n < 2^32 - 8 ->
  least_multiple_of_4 (padding_for_nbytes n) (n + 1).
Proof. exact C05_padded_string. Qed.
Print Assumptions C05_padding_for_nbytes.

(** The padded size of a blob of [n] bytes, with its four-byte count. *)
Theorem C05_blob : forall n, 0 <= n < 2^32 - 8 ->
  least_multiple_of_4 (blob_length n) (n + 4).
Proof.
  intros n H. rewrite blob_length_eq by lia. unfold least_multiple_of_4.
  pose proof (Z.div_mod (n + 3) 4 ltac:(lia)). pose proof (Z.mod_pos_bound (n + 3) 4 ltac:(lia)).
  split; [lia|]. split; [exists (1 + (n + 3) / 4); lia|]. intros r' Hr [k ->]. lia.
Qed.
Print Assumptions C05_blob.

Example C05_cases : padded_string_len 3 = 4 /\ padded_string_len 4 = 8 /\ blob_length 5 = 12 /\ blob_length 8 = 12.
Proof. repeat split; reflexivity. Qed.

(** Outside the range the 32-bit mask cuts the result off: a string of 2^32-4
    bytes has padded length 0. *)
Theorem C05_padded_string_limit_refuted : padded_string_len (2^32 - 4) = 0.
Proof. reflexivity. Qed.
Print Assumptions C05_padded_string_limit_refuted.

(** * Byte order *)

(** [width] bytes in memory hold the value, most significant byte first:
    byte [i] is digit [n-1-i] in base 256. *)
Definition big_endian (n : nat) (v : Z) (mem : bytes) : Prop :=
  length mem = n /\ forall i, (i < n)%nat ->
    nth i mem 0 = v / 256 ^ Z.of_nat (n - 1 - i) mod 256.

Lemma le_bytes_nth n : forall v i, (i < n)%nat -> nth i (le_bytes n v) 0 = v / 256 ^ Z.of_nat i mod 256.
Proof.
  induction n as [|n IH]; intros v i Hi; [lia|]. destruct i as [|i]; cbn [le_bytes nth].
  - change (256 ^ Z.of_nat 0) with 1. now rewrite Z.div_1_r.
  - rewrite IH by lia. rewrite Nat2Z.inj_succ, Z.pow_succ_r by lia.
    rewrite Z.div_div by (try apply Z.pow_nonzero; lia). reflexivity.
Qed.

Lemma be_bytes_big_endian n v : big_endian n v (be_bytes n v).
Proof.
  split; [apply be_bytes_length|]. intros i Hi. unfold be_bytes.
  rewrite rev_nth by (rewrite le_bytes_length; lia). rewrite le_bytes_length.
  rewrite le_bytes_nth by lia. do 3 f_equal. lia.
Qed.

Theorem C06_16 : forall v, 0 <= v < 2^16 ->
  big_endian 2 v (le_bytes 2 (hton16 v)) /\ ntoh16 (hton16 v) = v /\ hton16 (ntoh16 v) = v.
Proof.
  intros v H. unfold hton16, ntoh16. rewrite swap16_bytes, swap16_invol.
  split; [apply be_bytes_big_endian|]. unfold u16. rewrite Z.mod_small by lia. auto.
Qed.
Print Assumptions C06_16.

Theorem C06_32 : forall v, 0 <= v < 2^32 ->
  big_endian 4 v (le_bytes 4 (hton32 v)) /\ ntoh32 (hton32 v) = v /\ hton32 (ntoh32 v) = v.
Proof.
  intros v H. unfold hton32, ntoh32. rewrite swap32_bytes, swap32_invol.
  split; [apply be_bytes_big_endian|]. unfold u32. rewrite Z.mod_small by lia. auto.
Qed.
Print Assumptions C06_32.

Theorem C06_64 : forall v, 0 <= v < 2^64 ->
  big_endian 8 v (le_bytes 8 (hton64 v)) /\ ntoh64 (hton64 v) = v /\ hton64 (ntoh64 v) = v.
Proof.
  intros v H. unfold hton64, ntoh64. rewrite swap64_bytes, swap64_invol.
  split; [apply be_bytes_big_endian|]. unfold u64. rewrite Z.mod_small by lia. auto.
Qed.
Print Assumptions C06_64.

(** A 128-bit value as the pair of words of a little-endian object, low word
    first, ends up most significant byte first. *)
Theorem C06_128 : forall lo hi, 0 <= lo < 2^64 -> 0 <= hi < 2^64 ->
  (let '(a, b) := hton128 (lo, hi) in
   big_endian 16 (hi * 2^64 + lo) (le_bytes 8 a ++ le_bytes 8 b)) /\
  ntoh128 (hton128 (lo, hi)) = (lo, hi) /\ hton128 (ntoh128 (lo, hi)) = (lo, hi).
Proof.
  intros lo hi Hlo Hhi. unfold hton128, ntoh128, swap128. cbn [fst snd].
  rewrite !swap64_bytes, !swap64_invol. unfold u64. rewrite !Z.mod_small by lia.
  split; [|auto].
  destruct (be_bytes_big_endian 8 hi) as [L1 H1]. destruct (be_bytes_big_endian 8 lo) as [L2 H2].
  split; [rewrite app_length, L1, L2; reflexivity|]. intros i Hi.
  destruct (Nat.lt_ge_cases i 8) as [Hlt|Hge].
  - rewrite app_nth1 by (rewrite L1; lia). rewrite H1 by lia.
    replace (Z.of_nat (16 - 1 - i)) with (8 + Z.of_nat (8 - 1 - i)) by lia.
    rewrite Z.pow_add_r by lia. rewrite <- Z.div_div by (try apply Z.pow_pos_nonneg; try apply Z.pow_nonzero; lia).
    change (256 ^ 8) with (2^64). rewrite Z.add_comm, Z.div_add by lia. rewrite (Z.div_small lo) by lia. reflexivity.
  - rewrite app_nth2 by (rewrite L1; lia). rewrite L1. rewrite H2 by lia.
    replace (8 - 1 - (i - 8))%nat with (16 - 1 - i)%nat by lia.
    set (k := Z.of_nat (16 - 1 - i)). assert (0 <= k <= 7) by (unfold k; lia).
    replace (2 ^ 64) with (2 ^ 8 * 256 ^ (7 - k) * 256 ^ k).
    2:{ rewrite <- Z.mul_assoc, <- Z.pow_add_r by lia. replace (7 - k + k) with 7 by lia. reflexivity. }
    rewrite Z.mul_assoc, Z.add_comm, Z.div_add by (apply Z.pow_nonzero; lia).
    rewrite Z.mul_assoc, (Z.mul_comm hi), <- Z.mul_assoc. rewrite Z.mul_comm. change (2^8) with 256.
    now rewrite Z.mod_add by lia.
Qed.
Print Assumptions C06_128.

Example C06_cases : hton32 0x01020304 = 0x04030201 /\ hton64 0x0102030405060708 = 0x0807060504030201 /\
  big_endian 4 0x01020304 [1; 2; 3; 4].
Proof.
  split; [reflexivity|]. split; [reflexivity|]. split; [reflexivity|].
  intros i Hi. do 4 (destruct i as [|i]; [reflexivity|]). lia.
Qed.

(** * Arguments *)

(** Types whose values have a fixed size and are byte-swapped, and the size. *)
Inductive numeric_size : Z -> nat -> Prop :=
| ns_c : numeric_size 99 4 | ns_C : numeric_size 67 4
| ns_u : numeric_size 117 4 | ns_U : numeric_size 85 4
| ns_i : numeric_size 105 4 | ns_I : numeric_size 73 4
| ns_f : numeric_size 102 4
| ns_h : numeric_size 104 8 | ns_H : numeric_size 72 8
| ns_d : numeric_size 100 8
| ns_j : numeric_size 106 16 | ns_J : numeric_size 74 16.

Lemma slice_all (l : bytes) rest n : zlen l = n -> slice (l ++ rest) 0 n = Ok l.
Proof. intros <-. exact (slice_app [] l rest). Qed.

Lemma byteorder_rev tt n data rest : numeric_size tt n -> wf_bytes data -> length data = n ->
  byteorder tt (data ++ rest) = Ok (rev data).
Proof.
  intros Hn Hw Hl.
  assert (Hz : zlen data = Z.of_nat n) by (unfold zlen; lia).
  assert (G4 : n = 4%nat -> Ok (le_bytes 4 (swap32 (of_le data))) = Ok (rev data)).
  { intros ->. rewrite swap32_bytes. unfold be_bytes. rewrite <- Hl, le_bytes_of_le by assumption. reflexivity. }
  assert (G8 : n = 8%nat -> Ok (le_bytes 8 (swap64 (of_le data))) = Ok (rev data)).
  { intros ->. rewrite swap64_bytes. unfold be_bytes. rewrite <- Hl, le_bytes_of_le by assumption. reflexivity. }
  assert (G16 : n = 16%nat ->
     (let '(l1, l2) := swap128 (of_le (firstn 8 data), of_le (skipn 8 data)) in
      Ok (le_bytes 8 l1 ++ le_bytes 8 l2)) = Ok (rev data)).
  { intros ->. unfold swap128. cbn [fst snd]. rewrite !swap64_bytes. unfold be_bytes.
    assert (E1 : le_bytes 8 (of_le (firstn 8 data)) = firstn 8 data).
    { replace 8%nat with (length (firstn 8 data)) at 1 by (rewrite firstn_length; lia).
      apply le_bytes_of_le. apply Forall_forall. intros x Hx. eapply Forall_forall; [exact Hw|].
      rewrite <- (firstn_skipn 8 data). apply in_or_app. now left. }
    assert (E2 : le_bytes 8 (of_le (skipn 8 data)) = skipn 8 data).
    { replace 8%nat with (length (skipn 8 data)) at 1 by (rewrite skipn_length; lia).
      apply le_bytes_of_le. apply Forall_forall. intros x Hx. eapply Forall_forall; [exact Hw|].
      rewrite <- (firstn_skipn 8 data). apply in_or_app. now right. }
    rewrite E1, E2, <- rev_app_distr, firstn_skipn. reflexivity. }
  destruct Hn; unfold byteorder, osc_sizeof, data_length; cbn [Z.gtb Z.compare Pos.compare Pos.compare_cont Z.eqb Pos.eqb orb bind];
  change (should_byteswap 99) with true; change (should_byteswap 67) with true;
  change (should_byteswap 117) with true; change (should_byteswap 85) with true;
  change (should_byteswap 105) with true; change (should_byteswap 73) with true;
  change (should_byteswap 102) with true; change (should_byteswap 104) with true;
  change (should_byteswap 72) with true; change (should_byteswap 100) with true;
  change (should_byteswap 106) with true; change (should_byteswap 74) with true; cbn [negb];
  change (u64 4) with 4; change (u64 8) with 8; change (u64 16) with 16; cbn [Z.eqb Pos.eqb];
  rewrite slice_all by exact Hz; cbn [bind]; auto.
Qed.

(** Encoding an argument of a fixed-size numeric type puts its bytes in
    network order, and decoding the result restores them; nothing outside the
    value's own bytes is read. *)
Theorem C06_encode_decode : forall tt n data rest rest',
  numeric_size tt n -> wf_bytes data -> length data = n ->
  exists e, encode_byteorder tt (data ++ rest) = Ok e /\
    e = be_bytes n (of_le data) /\
    decode_byteorder tt (e ++ rest') = Ok data.
Proof.
  intros tt n data rest rest' Hn Hw Hl. exists (rev data). unfold encode_byteorder, decode_byteorder.
  rewrite (byteorder_rev tt n) by assumption. split; [reflexivity|]. split.
  - unfold be_bytes. rewrite <- Hl, le_bytes_of_le by assumption. reflexivity.
  - rewrite (byteorder_rev tt n) by (auto using wf_bytes_rev; rewrite ?rev_length; auto).
    now rewrite rev_involutive.
Qed.
Print Assumptions C06_encode_decode.

Example C06_encode_case : numeric_size 105 4 /\ encode_byteorder 105 [4; 3; 2; 1] = Ok [1; 2; 3; 4].
Proof. split; [constructor | reflexivity]. Qed.

(** For a type whose table entry is no power of two, or is missing, the
    encoder uses an uninitialised temporary: 'A' (3 bytes) and 'a' (no size). *)
Theorem C06_encode_odd_size_refuted : forall data,
  encode_byteorder 65 data = Ub Uninit /\ encode_byteorder 97 data = Ub Uninit.
Proof. intros. split; reflexivity. Qed.
Print Assumptions C06_encode_odd_size_refuted.
