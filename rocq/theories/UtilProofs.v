(** Facts about padding and byte order. *)

From Coq Require Import ZArith List Bool Lia.
From Verif Require Import Base BaseProofs Bytes UtilModel.
Import ListNotations.
Open Scope Z_scope.

(** * Padding *)

Lemma lor_disjoint a b : Z.land a b = 0 -> Z.lor a b = a + b.
Proof. intros H. rewrite Z.add_nocarry_lxor by assumption. symmetry. now apply Z.lxor_lor. Qed.

Lemma land_mask4 x : 0 <= x < 2^32 -> Z.land x 4294967292 = x - x mod 4.
Proof.
  intros H. change 4294967292 with (Z.shiftl (Z.ones 30) 2).
  replace x with (4 * (x / 4) + x mod 4) at 1 by (rewrite <- Z.div_mod by lia; reflexivity).
  assert (E : Z.land (4 * (x / 4) + x mod 4) (Z.shiftl (Z.ones 30) 2) = 4 * (x / 4)).
  { replace (4 * (x / 4) + x mod 4) with (Z.lor (Z.shiftl (x / 4) 2) (x mod 4)).
    - rewrite Z.land_lor_distr_l.
      rewrite <- Z.shiftl_land.
      rewrite Z.land_ones by lia. rewrite (Z.mod_small (x / 4)).
      2:{ split; [apply Z.div_pos; lia|]. apply Z.div_lt_upper_bound; lia. }
      rewrite Z.shiftl_mul_pow2 by lia.
      replace (Z.land (x mod 4) (Z.shiftl (Z.ones 30) 2)) with 0; [rewrite Z.lor_0_r; lia|].
      symmetry. apply Z.bits_inj'. intros n Hn. rewrite Z.land_spec, Z.bits_0.
      destruct (Z_lt_le_dec n 2).
      + rewrite Z.shiftl_spec_low by lia. apply andb_false_r.
      + replace (x mod 4) with (Z.land x (Z.ones 2)) by (rewrite Z.land_ones by lia; reflexivity).
        rewrite Z.land_spec, Z.ones_spec_high by lia. now rewrite andb_false_r.
    - rewrite lor_disjoint.
      + rewrite Z.shiftl_mul_pow2 by lia. lia.
      + apply Z.bits_inj'. intros n Hn. rewrite Z.land_spec, Z.bits_0.
        destruct (Z_lt_le_dec n 2).
        * rewrite Z.shiftl_spec_low by lia. reflexivity.
        * replace (x mod 4) with (Z.land x (Z.ones 2)) by (rewrite Z.land_ones by lia; reflexivity).
          rewrite Z.land_spec, Z.ones_spec_high by lia. now rewrite !andb_false_r. }
  rewrite E. pose proof (Z.div_mod x 4). lia.
Qed.

Lemma padded_string_len_eq n : 0 <= n < 2^32 - 4 ->
  padded_string_len n = 4 * (n / 4) + 4.
Proof.
  intros H. unfold padded_string_len, u64. rewrite Z.mod_small by lia.
  rewrite land_mask4 by lia.
  replace (n + 4) with (n + 1 * 4) by lia. rewrite Z.mod_add by lia.
  pose proof (Z.div_mod n 4). lia.
Qed.

Lemma padding_for_nbytes_eq n : 0 <= n < 2^32 - 4 ->
  padding_for_nbytes n = 4 * (n / 4) + 4.
Proof. apply padded_string_len_eq. Qed.

Lemma blob_length_eq n : 0 <= n < 2^32 ->
  blob_length n = 4 + 4 * ((n + 3) / 4).
Proof.
  intros H. unfold blob_length, u64. rewrite (Z.mod_small (4 + n)) by lia.
  replace ((4 + n) mod 4) with (n mod 4).
  2:{ replace (4 + n) with (n + 1 * 4) by lia. now rewrite Z.mod_add by lia. }
  pose proof (Z.div_mod n 4). pose proof (Z.mod_pos_bound n 4).
  pose proof (Z.div_mod (n + 3) 4). pose proof (Z.mod_pos_bound (n + 3) 4).
  destruct (n mod 4 =? 0) eqn:E; cbn [negb].
  - lia.
  - rewrite Z.mod_small by lia. lia.
Qed.

(** * Byte order *)

(** [land] with a byte mask. *)
Lemma land_byte x k : 0 <= k -> Z.land x (Z.shiftl 255 k) = ((x / 2 ^ k) mod 256) * 2 ^ k.
Proof.
  intros Hk. rewrite <- Z.shiftl_mul_pow2 by lia. rewrite <- Z.shiftr_div_pow2 by lia.
  change 256 with (2 ^ 8). rewrite <- Z.land_ones by lia. change (Z.ones 8) with 255.
  apply Z.bits_inj'. intros n Hn. rewrite Z.land_spec.
  destruct (Z_lt_le_dec n k).
  - rewrite !Z.shiftl_spec_low by lia. apply andb_false_r.
  - rewrite !Z.shiftl_spec by lia. rewrite Z.land_spec, Z.shiftr_spec by lia.
    replace (n - k + k) with n by lia. reflexivity.
Qed.

Lemma lor_add a b k : 0 <= k -> 0 <= a < 2 ^ k -> Z.lor a (b * 2 ^ k) = a + b * 2 ^ k.
Proof.
  intros Hk Ha. apply lor_disjoint. apply Z.bits_inj'. intros n Hn. rewrite Z.land_spec, Z.bits_0.
  destruct (Z_lt_le_dec n k).
  - rewrite Z.mul_pow2_bits_low by lia. apply andb_false_r.
  - replace a with (Z.land a (Z.ones k)) by (rewrite Z.land_ones by lia; apply Z.mod_small; lia).
    rewrite Z.land_spec, Z.ones_spec_high by lia. now rewrite andb_false_r.
Qed.

Lemma shiftr_byte y k j : 0 <= j <= k -> Z.shiftr (y * 2 ^ k) j = y * 2 ^ (k - j).
Proof.
  intros H. rewrite Z.shiftr_div_pow2 by lia.
  replace (2 ^ k) with (2 ^ (k - j) * 2 ^ j) by (rewrite <- Z.pow_add_r by lia; f_equal; lia).
  rewrite Z.mul_assoc. apply Z.div_mul. apply Z.pow_nonzero; lia.
Qed.

(** Byte [i] of a word. *)
Definition byt (x : Z) (i : Z) : Z := (x / 2 ^ (8 * i)) mod 256.

Lemma byt_range x i : 0 <= byt x i < 256.
Proof. apply Z.mod_pos_bound. lia. Qed.

Lemma swap32_eq x : swap32 x = byt x 3 + byt x 2 * 2^8 + byt x 1 * 2^16 + byt x 0 * 2^24.
Proof.
  unfold swap32.
  change 4278190080 with (Z.shiftl 255 24). change 16711680 with (Z.shiftl 255 16).
  change 65280 with (Z.shiftl 255 8). replace (Z.land x 255) with (Z.land x (Z.shiftl 255 0)) by reflexivity.
  rewrite !land_byte by lia.
  change ((x / 2 ^ 24) mod 256) with (byt x 3). change ((x / 2 ^ 16) mod 256) with (byt x 2).
  change ((x / 2 ^ 8) mod 256) with (byt x 1). change ((x / 2 ^ 0) mod 256) with (byt x 0).
  pose proof (byt_range x 0). pose proof (byt_range x 1). pose proof (byt_range x 2). pose proof (byt_range x 3).
  rewrite !shiftr_byte by lia. rewrite !Z.shiftl_mul_pow2 by lia.
  change (2 ^ (24 - 24)) with 1. change (16 - 8) with 8.
  replace (byt x 1 * 2 ^ 8 * 2 ^ 8) with (byt x 1 * 2 ^ 16) by lia.
  replace (byt x 0 * 2 ^ 0 * 2 ^ 24) with (byt x 0 * 2 ^ 24) by lia.
  rewrite Z.mul_1_r.
  rewrite (lor_add (byt x 3)) by lia.
  rewrite (lor_add (byt x 3 + byt x 2 * 2 ^ 8)) by lia.
  rewrite (lor_add (byt x 3 + byt x 2 * 2 ^ 8 + byt x 1 * 2 ^ 16)) by lia. lia.
Qed.

Lemma swap16_eq x : swap16 x = byt x 1 + byt x 0 * 2^8.
Proof.
  unfold swap16. change 65280 with (Z.shiftl 255 8).
  replace (Z.land x 255) with (Z.land x (Z.shiftl 255 0)) by reflexivity.
  rewrite !land_byte by lia.
  change ((x / 2 ^ 8) mod 256) with (byt x 1). change ((x / 2 ^ 0) mod 256) with (byt x 0).
  pose proof (byt_range x 0). pose proof (byt_range x 1).
  rewrite !shiftr_byte by lia. rewrite !Z.shiftl_mul_pow2 by lia.
  change (2 ^ (8 - 8)) with 1. rewrite Z.mul_1_r.
  replace (byt x 0 * 2 ^ 0 * 2 ^ 8) with (byt x 0 * 2 ^ 8) by lia.
  apply lor_add; lia.
Qed.

Lemma swap64_eq x : swap64 x =
  byt x 7 + byt x 6 * 2^8 + byt x 5 * 2^16 + byt x 4 * 2^24 +
  byt x 3 * 2^32 + byt x 2 * 2^40 + byt x 1 * 2^48 + byt x 0 * 2^56.
Proof.
  unfold swap64.
  change 18374686479671623680 with (Z.shiftl 255 56). change 71776119061217280 with (Z.shiftl 255 48).
  change 280375465082880 with (Z.shiftl 255 40). change 1095216660480 with (Z.shiftl 255 32).
  change 4278190080 with (Z.shiftl 255 24). change 16711680 with (Z.shiftl 255 16).
  change 65280 with (Z.shiftl 255 8). replace (Z.land x 255) with (Z.land x (Z.shiftl 255 0)) by reflexivity.
  rewrite !land_byte by lia.
  change ((x / 2 ^ 56) mod 256) with (byt x 7). change ((x / 2 ^ 48) mod 256) with (byt x 6).
  change ((x / 2 ^ 40) mod 256) with (byt x 5). change ((x / 2 ^ 32) mod 256) with (byt x 4).
  change ((x / 2 ^ 24) mod 256) with (byt x 3). change ((x / 2 ^ 16) mod 256) with (byt x 2).
  change ((x / 2 ^ 8) mod 256) with (byt x 1). change ((x / 2 ^ 0) mod 256) with (byt x 0).
  pose proof (byt_range x 0) as H0. pose proof (byt_range x 1) as H1. pose proof (byt_range x 2) as H2.
  pose proof (byt_range x 3) as H3. pose proof (byt_range x 4) as H4. pose proof (byt_range x 5) as H5.
  pose proof (byt_range x 6) as H6. pose proof (byt_range x 7) as H7.
  rewrite !shiftr_byte by lia. rewrite !Z.shiftl_mul_pow2 by lia.
  generalize dependent (byt x 0). generalize dependent (byt x 1). generalize dependent (byt x 2).
  generalize dependent (byt x 3). generalize dependent (byt x 4). generalize dependent (byt x 5).
  generalize dependent (byt x 6). generalize dependent (byt x 7).
  intros b7 H7 b6 H6 b5 H5 b4 H4 b3 H3 b2 H2 b1 H1 b0 H0.
  change (2 ^ (56 - 56)) with 1. change (48 - 40) with 8. change (40 - 24) with 16. change (32 - 8) with 24.
  replace (b3 * 2 ^ 24 * 2 ^ 8) with (b3 * 2 ^ 32) by lia.
  replace (b2 * 2 ^ 16 * 2 ^ 24) with (b2 * 2 ^ 40) by lia.
  replace (b1 * 2 ^ 8 * 2 ^ 40) with (b1 * 2 ^ 48) by lia.
  replace (b0 * 2 ^ 0 * 2 ^ 56) with (b0 * 2 ^ 56) by lia.
  rewrite Z.mul_1_r.
  rewrite (lor_add b7) by lia.
  rewrite (lor_add (b7 + b6 * 2 ^ 8)) by lia.
  rewrite (lor_add (b7 + b6 * 2 ^ 8 + b5 * 2 ^ 16)) by lia.
  rewrite (lor_add (b7 + b6 * 2 ^ 8 + b5 * 2 ^ 16 + b4 * 2 ^ 24)) by lia.
  rewrite (lor_add (b7 + b6 * 2 ^ 8 + b5 * 2 ^ 16 + b4 * 2 ^ 24 + b3 * 2 ^ 32)) by lia.
  rewrite (lor_add (b7 + b6 * 2 ^ 8 + b5 * 2 ^ 16 + b4 * 2 ^ 24 + b3 * 2 ^ 32 + b2 * 2 ^ 40)) by lia.
  rewrite (lor_add (b7 + b6 * 2 ^ 8 + b5 * 2 ^ 16 + b4 * 2 ^ 24 + b3 * 2 ^ 32 + b2 * 2 ^ 40 + b1 * 2 ^ 48)) by lia.
  lia.
Qed.

(** The bytes of a word, by position. *)
Lemma le_bytes_byt n : forall x k, 0 <= k ->
  le_bytes n (x / 2 ^ (8 * k)) = map (fun i => byt x (k + Z.of_nat i)) (seq 0 n).
Proof.
  induction n as [|n IH]; intros x k Hk; [reflexivity|].
  cbn [le_bytes seq map]. f_equal.
  - unfold byt. now rewrite Z.add_0_r.
  - rewrite Z.div_div by (try apply Z.pow_nonzero; lia).
    replace (2 ^ (8 * k) * 256) with (2 ^ (8 * (k + 1))).
    2:{ replace (8 * (k + 1)) with (8 * k + 8) by lia. rewrite Z.pow_add_r by lia. reflexivity. }
    rewrite IH by lia. rewrite <- seq_shift, map_map. apply map_ext. intros i. f_equal. lia.
Qed.

Lemma le_bytes_byt0 n x : le_bytes n x = map (fun i => byt x (Z.of_nat i)) (seq 0 n).
Proof.
  pose proof (le_bytes_byt n x 0 ltac:(lia)) as H. change (2 ^ (8 * 0)) with 1 in H.
  rewrite Z.div_1_r in H. exact H.
Qed.

(** The swaps, on memory. *)
Lemma swap32_bytes x : le_bytes 4 (swap32 x) = be_bytes 4 x.
Proof.
  unfold be_bytes. rewrite (le_bytes_byt0 4 x). cbn [seq map rev app].
  change (Z.of_nat 0) with 0. change (Z.of_nat 1) with 1. change (Z.of_nat 2) with 2. change (Z.of_nat 3) with 3.
  rewrite swap32_eq.
  replace (byt x 3 + byt x 2 * 2 ^ 8 + byt x 1 * 2 ^ 16 + byt x 0 * 2 ^ 24)
    with (of_le [byt x 3; byt x 2; byt x 1; byt x 0]) by (cbn [of_le]; lia).
  apply (le_bytes_of_le [byt x 3; byt x 2; byt x 1; byt x 0]).
  repeat (constructor; [unfold is_byte; apply byt_range|]). constructor.
Qed.

Lemma swap16_bytes x : le_bytes 2 (swap16 x) = be_bytes 2 x.
Proof.
  unfold be_bytes. rewrite (le_bytes_byt0 2 x). cbn [seq map rev app].
  change (Z.of_nat 0) with 0. change (Z.of_nat 1) with 1.
  rewrite swap16_eq.
  replace (byt x 1 + byt x 0 * 2 ^ 8) with (of_le [byt x 1; byt x 0]) by (cbn [of_le]; lia).
  apply (le_bytes_of_le [byt x 1; byt x 0]).
  repeat (constructor; [unfold is_byte; apply byt_range|]). constructor.
Qed.

Lemma swap64_bytes x : le_bytes 8 (swap64 x) = be_bytes 8 x.
Proof.
  unfold be_bytes. rewrite (le_bytes_byt0 8 x). cbn [seq map rev app].
  change (Z.of_nat 0) with 0. change (Z.of_nat 1) with 1. change (Z.of_nat 2) with 2. change (Z.of_nat 3) with 3.
  change (Z.of_nat 4) with 4. change (Z.of_nat 5) with 5. change (Z.of_nat 6) with 6. change (Z.of_nat 7) with 7.
  rewrite swap64_eq.
  replace (byt x 7 + byt x 6 * 2 ^ 8 + byt x 5 * 2 ^ 16 + byt x 4 * 2 ^ 24 + byt x 3 * 2 ^ 32 +
           byt x 2 * 2 ^ 40 + byt x 1 * 2 ^ 48 + byt x 0 * 2 ^ 56)
    with (of_le [byt x 7; byt x 6; byt x 5; byt x 4; byt x 3; byt x 2; byt x 1; byt x 0]) by (cbn [of_le]; lia).
  apply (le_bytes_of_le [byt x 7; byt x 6; byt x 5; byt x 4; byt x 3; byt x 2; byt x 1; byt x 0]).
  repeat (constructor; [unfold is_byte; apply byt_range|]). constructor.
Qed.

Lemma swap_of_le (n : nat) (sw : Z -> Z) l : (forall x, le_bytes n (sw x) = be_bytes n x) ->
  (forall x, 0 <= sw x < 256 ^ Z.of_nat n) ->
  wf_bytes l -> length l = n -> sw (of_le l) = of_be l.
Proof.
  intros Hsw Hr Hl Hn. specialize (Hsw (of_le l)). unfold be_bytes in Hsw. subst n.
  rewrite le_bytes_of_le in Hsw by assumption.
  apply (f_equal of_le) in Hsw. rewrite of_le_bytes in Hsw. rewrite Z.mod_small in Hsw by apply Hr. exact Hsw.
Qed.

Lemma swap16_range x : 0 <= swap16 x < 256 ^ Z.of_nat 2.
Proof.
  rewrite swap16_eq. pose proof (byt_range x 0). pose proof (byt_range x 1).
  change (256 ^ Z.of_nat 2) with 65536. lia.
Qed.

Lemma swap32_range x : 0 <= swap32 x < 256 ^ Z.of_nat 4.
Proof.
  rewrite swap32_eq. pose proof (byt_range x 0). pose proof (byt_range x 1). pose proof (byt_range x 2).
  pose proof (byt_range x 3). change (256 ^ Z.of_nat 4) with 4294967296. lia.
Qed.

Lemma swap64_range x : 0 <= swap64 x < 256 ^ Z.of_nat 8.
Proof.
  rewrite swap64_eq. pose proof (byt_range x 0). pose proof (byt_range x 1). pose proof (byt_range x 2).
  pose proof (byt_range x 3). pose proof (byt_range x 4). pose proof (byt_range x 5). pose proof (byt_range x 6).
  pose proof (byt_range x 7). change (256 ^ Z.of_nat 8) with 18446744073709551616. lia.
Qed.

Lemma swap32_of_le l : wf_bytes l -> length l = 4%nat -> swap32 (of_le l) = of_be l.
Proof. intros. eapply swap_of_le; eauto; [apply swap32_bytes | apply swap32_range]. Qed.
Lemma swap16_of_le l : wf_bytes l -> length l = 2%nat -> swap16 (of_le l) = of_be l.
Proof. intros. eapply swap_of_le; eauto; [apply swap16_bytes | apply swap16_range]. Qed.
Lemma swap64_of_le l : wf_bytes l -> length l = 8%nat -> swap64 (of_le l) = of_be l.
Proof. intros. eapply swap_of_le; eauto; [apply swap64_bytes | apply swap64_range]. Qed.

(** Swapping is an involution on words of the width. *)
Lemma swap_invol (n : nat) (sw : Z -> Z) : (forall x, le_bytes n (sw x) = be_bytes n x) ->
  (forall x, 0 <= sw x < 256 ^ Z.of_nat n) -> forall x, sw (sw x) = x mod 256 ^ Z.of_nat n.
Proof.
  intros Hsw Hr x. pose proof (Hsw (sw x)) as H. apply (f_equal of_le) in H.
  rewrite of_le_bytes, Z.mod_small in H by apply Hr. rewrite H. unfold be_bytes.
  rewrite Hsw. unfold be_bytes. rewrite rev_involutive. apply of_le_bytes.
Qed.

Lemma swap32_invol x : swap32 (swap32 x) = u32 x.
Proof. apply (swap_invol 4); [apply swap32_bytes | apply swap32_range]. Qed.
Lemma swap16_invol x : swap16 (swap16 x) = u16 x.
Proof. apply (swap_invol 2); [apply swap16_bytes | apply swap16_range]. Qed.
Lemma swap64_invol x : swap64 (swap64 x) = u64 x.
Proof. apply (swap_invol 8); [apply swap64_bytes | apply swap64_range]. Qed.

(** * Reads and writes of words *)

Lemma rd32_at l1 v l2 : wf_bytes v -> length v = 4%nat ->
  rd32 (l1 ++ v ++ l2) (zlen l1) = Ok (of_be v).
Proof.
  intros Hv Hl. unfold rd32. replace 4 with (zlen v) by (unfold zlen; lia). rewrite slice_app. cbn [bind].
  unfold ntoh32. now rewrite swap32_of_le.
Qed.

Lemma rd32_be l1 v l2 : rd32 (l1 ++ be_bytes 4 v ++ l2) (zlen l1) = Ok (u32 v).
Proof.
  rewrite rd32_at; [|apply be_bytes_wf|apply be_bytes_length]. now rewrite of_be_4.
Qed.

Lemma rd64_at l1 v l2 : wf_bytes v -> length v = 8%nat ->
  rd64 (l1 ++ v ++ l2) (zlen l1) = Ok (of_be v).
Proof.
  intros Hv Hl. unfold rd64. replace 8 with (zlen v) by (unfold zlen; lia). rewrite slice_app. cbn [bind].
  unfold ntoh64. now rewrite swap64_of_le.
Qed.

Lemma rd64_be l1 v l2 : rd64 (l1 ++ be_bytes 8 v ++ l2) (zlen l1) = Ok (u64 v).
Proof.
  rewrite rd64_at; [|apply be_bytes_wf|apply be_bytes_length]. now rewrite of_be_8.
Qed.

Lemma wr32_at l1 v' l2 v : length v' = 4%nat ->
  wr32 (l1 ++ v' ++ l2) (zlen l1) v = Ok (l1 ++ be_bytes 4 v ++ l2).
Proof.
  intros Hl. unfold wr32, hton32. rewrite swap32_bytes. rewrite be_bytes_u32.
  apply write_app. now rewrite be_bytes_length.
Qed.

Lemma wr64_at l1 v' l2 v : length v' = 8%nat ->
  wr64 (l1 ++ v' ++ l2) (zlen l1) v = Ok (l1 ++ be_bytes 8 v ++ l2).
Proof.
  intros Hl. unfold wr64, hton64. rewrite swap64_bytes. rewrite be_bytes_u64.
  apply write_app. now rewrite be_bytes_length.
Qed.

Lemma rd32_range buf i n : rd32 buf i = Ok n -> 0 <= n < 2^32.
Proof.
  unfold rd32. destruct (slice buf i 4); try discriminate. cbn [bind]. intros H. inversion H; subst.
  apply swap32_range.
Qed.
