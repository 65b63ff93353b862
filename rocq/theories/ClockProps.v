(** C103: what the time tags taken from the clock say, and when they are in
    order. *)

From Coq Require Import ZArith List Bool Lia.
From Verif Require Import Base TimetagModel ClockModel ClockSpec.
Open Scope Z_scope.

Lemma u32_wrap : forall x k, k * 4294967296 <= x < (k + 1) * 4294967296 -> u32 x = x - k * 4294967296.
Proof.
  intros x k H. unfold u32. change (2 ^ 32) with 4294967296.
  symmetry. apply (Z.mod_unique x 4294967296 k); lia.
Qed.

Lemma now_value : forall s us, reading s us -> timetag_now s us =
  TT (s + 2208988800) (if us <? 999993 then us * 4295 else us * 4295 - 4294967296).
Proof.
  intros s us [Hs Hu]. unfold timetag_now.
  rewrite (u32_wrap s 0) by lia. rewrite (u32_wrap (2208988800 + (s - 0 * 4294967296)) 0) by lia.
  f_equal; [lia|]. destruct (Z.ltb_spec us 999993).
  - rewrite (u32_wrap _ 0); lia.
  - rewrite (u32_wrap _ 1); lia.
Qed.

(** A time tag taken from the clock is not behind the clock and ahead of it by
    less than eight microseconds, except in the last seven microseconds of every
    second: then it is behind by almost a second. *)
Theorem C103_accuracy : forall s us, reading s us ->
  (us < 999993 -> 0 <= ahead (timetag_now s us) (instant s us) < 8 * 2 ^ 32) /\
  (999993 <= us -> - 1000000 * 2 ^ 32 <= ahead (timetag_now s us) (instant s us) < - 999992 * 2 ^ 32).
Proof.
  intros s us R. rewrite (now_value s us R). destruct R as [Hs Hu].
  unfold ahead, ticks, instant. cbn [sec frac]. change (2 ^ 32) with 4294967296.
  split; intros H.
  - rewrite (proj2 (Z.ltb_lt us 999993)) by lia. lia.
  - rewrite (proj2 (Z.ltb_ge us 999993)) by lia. lia.
Qed.
Print Assumptions C103_accuracy.

(** Two readings, the first before the second: the time tags compare as before
    and after, except exactly if both are in the same second, only the second one
    is in its last seven microseconds, and the first one is not too near the
    beginning of the second.  Then they compare the other way round; they are
    never equal. *)
Theorem C103_order : forall s1 u1 s2 u2, reading s1 u1 -> reading s2 u2 ->
  instant s1 u1 < instant s2 u2 ->
  tt_compare (timetag_now s1 u1) (timetag_now s2 u2) =
    if (s1 =? s2) && (u1 <? 999993) && (999993 <=? u2) && (u2 - 999993 <? u1) then 1 else -1.
Proof.
  intros s1 u1 s2 u2 R1 R2 L. rewrite (now_value _ _ R1), (now_value _ _ R2).
  destruct R1 as [Hs1 Hu1], R2 as [Hs2 Hu2]. unfold instant in L.
  unfold tt_compare. cbn [sec frac]. rewrite !Z.gtb_ltb.
  destruct (Z.eqb_spec s1 s2) as [->|N].
  - rewrite Z.ltb_irrefl, Z.eqb_refl. cbn [orb andb].
    destruct (Z.ltb_spec u1 999993); destruct (Z.leb_spec 999993 u2); cbn [andb].
    + rewrite (proj2 (Z.ltb_ge u2 999993)) by lia. destruct (Z.ltb_spec (u2 - 999993) u1).
      * rewrite (proj2 (Z.ltb_ge (u1 * 4295) _)) by lia.
        rewrite (proj2 (Z.ltb_lt _ (u1 * 4295))) by lia. reflexivity.
      * rewrite (proj2 (Z.ltb_lt (u1 * 4295) _)) by lia. reflexivity.
    + rewrite (proj2 (Z.ltb_lt u2 999993)) by lia.
      rewrite (proj2 (Z.ltb_lt (u1 * 4295) _)) by lia. reflexivity.
    + rewrite (proj2 (Z.ltb_ge u2 999993)) by lia.
      rewrite (proj2 (Z.ltb_lt (u1 * 4295 - 4294967296) _)) by lia. reflexivity.
    + lia.
  - cbn [andb]. rewrite (proj2 (Z.ltb_lt (s1 + 2208988800) (s2 + 2208988800))) by lia. reflexivity.
Qed.
Print Assumptions C103_order.

(** The statement a user expects is false: a later time tag can compare as
    earlier. *)
Theorem C103_order_refuted : exists s u1 u2, reading s u1 /\ reading s u2 /\ u1 < u2 /\
  tt_compare (timetag_now s u1) (timetag_now s u2) = 1.
Proof.
  exists 1700000000, 999992, 999993. unfold reading. split; [lia|]. split; [lia|]. split; [lia|]. reflexivity.
Qed.
Print Assumptions C103_order_refuted.

(** After the last second a time tag can hold the next one begins again at 0. *)
Theorem C103_era_refuted : tt_compare (timetag_now 2085978495 0) (timetag_now 2085978496 0) = 1 /\
  timetag_now 2085978496 0 = tt_null.
Proof. split; reflexivity. Qed.
Print Assumptions C103_era_refuted.

(** Whatever the clock says, now is never the time tag that means immediately. *)
Theorem C103_never_immediate : forall s us, 0 <= us < 1000000 -> tt_is_immediate (timetag_now s us) = false.
Proof.
  intros s us H. unfold tt_is_immediate, timetag_now. cbn [sec frac].
  replace (u32 (us * 4295) =? 1) with false; [apply andb_false_r|]. symmetry. apply Z.eqb_neq.
  destruct (Z.ltb_spec us 999993).
  - rewrite (u32_wrap _ 0); lia.
  - rewrite (u32_wrap _ 1); lia.
Qed.
Print Assumptions C103_never_immediate.

(** Unix time to a time tag and back, with the time zone not changing between:
    the same time again, up to whole eras of 2^32 seconds; and exactly the same
    if and only if the local time is from 1900 to 2036. *)
Theorem C103_round_trip : forall w dst ut, -10000 <= w <= 10000 ->
  exists n ut', ut_to_ntp w dst ut = Ok n /\ ntp_to_ut w dst n = Ok ut' /\
    (exists k, ut' = ut + k * 2 ^ 32) /\
    (ut' = ut <-> 0 <= 2208988800 + ut - 60 * w + (if dst =? 1 then 3600 else 0) < 2 ^ 32).
Proof.
  intros w dst ut Hw. unfold ut_to_ntp, ntp_to_ut, west_seconds.
  rewrite (proj2 (Z.leb_le (-2147483648) (60 * w))) by lia.
  rewrite (proj2 (Z.leb_le (60 * w) 2147483647)) by lia. cbn [andb bind].
  do 2 eexists. split; [reflexivity|]. cbn [bind sec]. split; [reflexivity|].
  set (d := if dst =? 1 then 3600 else 0).
  assert (E : u32 (u64 (2208988800 + u32 ut - u64 (60 * w) + d)) = u32 (2208988800 + ut - 60 * w + d)).
  { unfold u32, u64. change (2 ^ 64) with (4294967296 * 4294967296). change (2 ^ 32) with 4294967296.
    assert (A := Z.div_mod ut 4294967296 ltac:(lia)).
    assert (B := Z.div_mod (60 * w) (4294967296 * 4294967296) ltac:(lia)).
    set (x := 2208988800 + _ - _ + d).
    assert (C := Z.div_mod x (4294967296 * 4294967296) ltac:(lia)).
    set (q1 := ut / _) in *. set (q2 := 60 * w / _) in *. set (q3 := x / _) in *.
    replace (x mod (4294967296 * 4294967296))
      with (2208988800 + ut - 60 * w + d + (- q1 + q2 * 4294967296 - q3 * 4294967296) * 4294967296).
    - apply Z_mod_plus_full.
    - subst x. lia. }
  rewrite E. set (y := 2208988800 + ut - 60 * w + d).
  unfold u32. assert (D := Z.div_mod y (2 ^ 32) ltac:(lia)). assert (M := Z.mod_pos_bound y (2 ^ 32) ltac:(lia)).
  split.
  - exists (- (y / 2 ^ 32)). subst y. lia.
  - split; intros H.
    + assert (y mod 2 ^ 32 = y) by (subst y; lia). lia.
    + rewrite Z.mod_small by exact H. subst y. lia.
Qed.
Print Assumptions C103_round_trip.

Example C103_example : reading 1700000000 250000 /\ reading 1700000000 750000 /\
  instant 1700000000 250000 < instant 1700000000 750000 /\
  timetag_now 1700000000 250000 = TT 3908988800 1073750000.
Proof. unfold reading, instant. repeat split; lia. Qed.
Example C103_example_zone : exists n, ut_to_ntp 480 1 1700000000 = Ok n /\ ntp_to_ut 480 1 n = Ok 1700000000.
Proof. eexists. split; reflexivity. Qed.
