(** C07-C10: time tags. *)

From Coq Require Import ZArith List Bool Lia.
From Verif Require Import Base BaseProofs Bytes UtilModel UtilProofs TimetagModel TimetagSpec TimetagDays TimetagProofs Text.
Import ListNotations.
Open Scope Z_scope.

(** Addition is addition of 64-bit fixed-point times modulo 2^64. *)
Theorem C07_add : forall s1 f1 s2 f2, in32 s1 -> in32 f1 -> in32 s2 -> in32 f2 ->
  exists s f, tt_add (TT s1 f1) (TT s2 f2) = TT s f /\ in32 s /\ in32 f /\
    instant s f = (instant s1 f1 + instant s2 f2) mod 2^64.
Proof.
  intros s1 f1 s2 f2 H1 H2 H3 H4.
  destruct (tt_add_instant (TT s1 f1) (TT s2 f2)) as [[Ha Hb] Hc]; [split; assumption..|].
  destruct (tt_add (TT s1 f1) (TT s2 f2)) as [s f]. exists s, f. auto.
Qed.
Print Assumptions C07_add.

Example C07_add_carry : tt_add (TT 1 (2^32 - 1)) (TT 2 3) = TT 4 2.
Proof. reflexivity. Qed.

(** Subtracting an earlier time gives the difference.  With the arguments the
    other way round the result is the absolute difference exactly if the first
    fraction does not exceed the second. *)
Theorem C07_subtract : forall s1 f1 s2 f2, in32 s1 -> in32 f1 -> in32 s2 -> in32 f2 ->
  exists s f, tt_sub (TT s1 f1) (TT s2 f2) = TT s f /\ in32 s /\ in32 f /\
    (instant s2 f2 <= instant s1 f1 -> instant s f = instant s1 f1 - instant s2 f2) /\
    (instant s1 f1 < instant s2 f2 ->
      (instant s f = instant s2 f2 - instant s1 f1 <-> f1 <= f2)).
Proof.
  intros s1 f1 s2 f2 H1 H2 H3 H4.
  destruct (tt_sub_instant (TT s1 f1) (TT s2 f2)) as ([Ha Hb] & Hc & Hd); [split; assumption..|].
  destruct (tt_sub (TT s1 f1) (TT s2 f2)) as [s f]. exists s, f. auto.
Qed.
Print Assumptions C07_subtract.

Example C07_subtract_borrow : tt_sub (TT 5 1) (TT 2 3) = TT 2 (2^32 - 2).
Proof. reflexivity. Qed.

(** 2.75 - 3.25 is reported as 1.5 instead of 0.5. *)
Theorem C07_subtract_absolute_refuted :
  tt_sub (TT 2 (3 * 2^30)) (TT 3 (2^30)) = TT 1 (2^31).
Proof. reflexivity. Qed.
Print Assumptions C07_subtract_absolute_refuted.

(** Adding and subtracting the same amount is the identity when nothing wraps. *)
Theorem C07_add_subtract : forall a b, in32 (sec a) -> in32 (frac a) -> in32 (sec b) -> in32 (frac b) ->
  instant (sec a) (frac a) + instant (sec b) (frac b) < 2^64 ->
  tt_sub (tt_add a b) b = a.
Proof.
  intros a b H1 H2 H3 H4 Hw.
  assert (Ha : tt_ok a) by (split; assumption). assert (Hb : tt_ok b) by (split; assumption).
  destruct (tt_add_instant a b Ha Hb) as [Hok Hi].
  destruct (tt_sub_instant (tt_add a b) b Hok Hb) as (Hok2 & Hs & _).
  apply tt_instant_inj; try assumption.
  unfold tt_instant in *. unfold instant, in32 in *. rewrite Z.mod_small in Hi by lia.
  rewrite Hs by lia. lia.
Qed.
Print Assumptions C07_add_subtract.

(** Comparison is the order of instants. *)
Theorem C08_compare : forall s1 f1 s2 f2, in32 s1 -> in32 f1 -> in32 s2 -> in32 f2 ->
  (instant s1 f1 < instant s2 f2 -> tt_compare (TT s1 f1) (TT s2 f2) = -1) /\
  (instant s1 f1 > instant s2 f2 -> tt_compare (TT s1 f1) (TT s2 f2) = 1) /\
  (tt_compare (TT s1 f1) (TT s2 f2) = 0 <-> s1 = s2 /\ f1 = f2).
Proof.
  intros s1 f1 s2 f2 H1 H2 H3 H4.
  rewrite (tt_compare_instant (TT s1 f1) (TT s2 f2)) by (split; assumption).
  unfold tt_instant. cbn [sec frac]. unfold instant, in32 in *.
  destruct (Z.compare_spec (s1 * 2^32 + f1) (s2 * 2^32 + f2)); split; try lia; split; lia.
Qed.
Print Assumptions C08_compare.

(** It is antisymmetric and transitive. *)
Theorem C08_order : forall a b c, tt_ok a -> tt_ok b -> tt_ok c ->
  tt_compare a b = - tt_compare b a /\
  (tt_compare a b <= 0 -> tt_compare b c <= 0 -> tt_compare a c <= 0) /\
  (tt_compare a b < 0 -> tt_compare b c <= 0 -> tt_compare a c < 0).
Proof.
  intros a b c Ha Hb Hc. rewrite !tt_compare_instant by assumption.
  destruct (Z.compare_spec (tt_instant a) (tt_instant b));
  destruct (Z.compare_spec (tt_instant b) (tt_instant a));
  destruct (Z.compare_spec (tt_instant b) (tt_instant c));
  destruct (Z.compare_spec (tt_instant a) (tt_instant c)); lia.
Qed.
Print Assumptions C08_order.

Example C08_case : tt_compare (TT 7 5) (TT 8 4) = -1 /\ tt_compare (TT 7 5) (TT 7 4) = 1.
Proof. split; reflexivity. Qed.

(** The immediate time tag is the only one reported as such. *)
Theorem C08_immediate : forall s f, tt_is_immediate (TT s f) = true <-> s = 0 /\ f = 1.
Proof. intros. unfold tt_is_immediate. cbn [sec frac]. rewrite andb_true_iff, !Z.eqb_eq. reflexivity. Qed.
Print Assumptions C08_immediate.

(** Writing a time tag into a bundle header: the eight bytes after the
    identifier become seconds and fraction, big-endian; the rest stays; reading
    gives the time tag back. *)
Theorem C09_header_codec : forall id old rest s f len,
  length id = 8%nat -> length old = 8%nat -> in32 s -> in32 f -> 16 <= len ->
  exists buf', bundle_set_timetag len (id ++ old ++ rest) (TT s f) = Ok buf' /\
    buf' = id ++ (be_bytes 4 s ++ be_bytes 4 f) ++ rest /\
    bundle_get_timetag len buf' = Ok (TT s f).
Proof.
  intros id old rest s f len Hid Hold Hs Hf Hlen.
  assert (Hz : 8 = zlen id) by (unfold zlen; lia).
  unfold bundle_set_timetag, bundle_get_timetag. destruct (len <? 16) eqn:E; [lia|].
  rewrite Hz. rewrite tt_encode_at by assumption. eexists. split; [reflexivity|]. cbn [sec frac].
  split; [reflexivity|]. rewrite tt_decode_at. unfold u32, in32 in *. rewrite !Z.mod_small by lia. reflexivity.
Qed.
Print Assumptions C09_header_codec.

Example C09_case : bundle_set_timetag 16 (str "#bundle" ++ [0] ++ repeat 9 8) (TT 1 258) =
  Ok (str "#bundle" ++ [0] ++ [0;0;0;1;0;0;1;2]).
Proof. reflexivity. Qed.

(** A buffer too short for a header is left alone and has the null time tag. *)
Theorem C09_short_buffer : forall len buf t, len < 16 ->
  bundle_set_timetag len buf t = Ok buf /\ bundle_get_timetag len buf = Ok (TT 0 0).
Proof.
  intros len buf t H. unfold bundle_set_timetag, bundle_get_timetag.
  destruct (len <? 16) eqn:E; [|lia]. auto.
Qed.
Print Assumptions C09_short_buffer.

(** * ISO 8601 *)

(** The rendering of the instant of a calendar date and time of day is the
    ISO 8601 text of that date and time exactly for dates in 1900 and for
    dates from 2001 on that are not 31 December of a leap year; the conversion
    always terminates. *)
Theorem C10_rendering : forall y m d H M S fr,
  valid_date y m d -> valid_time H M S -> ntp_seconds y m d H M S < 2^32 ->
  exists t, to_iso8601 (TT (ntp_seconds y m d H M S) fr) = Ok t /\
    (t = iso_string y m d H M S <->
      y = 1900 \/ (2001 <= y /\ ~ (leap_year y = true /\ m = 12 /\ d = 31))).
Proof.
  intros y m d H M S fr Hv Ht Hb. destruct (to_iso_correct y m d H M S fr Hv Ht Hb) as (t & E & Hg).
  exists t. split; [exact E|]. rewrite Hg. unfold good_date.
  rewrite orb_true_iff, !andb_true_iff, negb_true_iff, Z.eqb_eq, Z.leb_le.
  rewrite <- not_true_iff_false, !andb_true_iff, !Z.eqb_eq. tauto.
Qed.
Print Assumptions C10_rendering.

(** Every seconds value is the instant of such a date and time. *)
Theorem C10_every_instant : forall s, 0 <= s -> exists y m d H M S,
  valid_date y m d /\ valid_time H M S /\ ntp_seconds y m d H M S = s.
Proof. exact ntp_seconds_surj. Qed.
Print Assumptions C10_every_instant.

(** Reading the ISO 8601 text of any date and time of the range gives its
    instant, whatever follows the seconds. *)
Theorem C10_reading : forall y m d H M S rest,
  valid_date y m d -> valid_time H M S -> ntp_seconds y m d H M S < 2^32 ->
  from_iso8601 (iso_string y m d H M S ++ rest) = Some (Ok (ntp_seconds y m d H M S)).
Proof.
  intros y m d H M S rest Hv Ht Hb. unfold from_iso8601.
  pose proof (day_number_lower y m d Hv). pose proof (month_days_range y m).
  rewrite strptime_iso; [|destruct Hv as (? & _); unfold ntp_seconds, valid_time in *; lia
                         |destruct Hv; lia|destruct Hv as (_ & _ & ?); lia|assumption].
  f_equal. now apply from_fields_correct.
Qed.
Print Assumptions C10_reading.

(** Rendering and reading back restores the seconds, for every instant from
    2001 on outside the last day of a leap year. *)
Theorem C10_round_trip : forall y m d H M S fr rest,
  valid_date y m d -> valid_time H M S -> ntp_seconds y m d H M S < 2^32 ->
  2001 <= y -> ~ (leap_year y = true /\ m = 12 /\ d = 31) ->
  exists t, to_iso8601 (TT (ntp_seconds y m d H M S) fr) = Ok t /\
    from_iso8601 (t ++ rest) = Some (Ok (ntp_seconds y m d H M S)).
Proof.
  intros y m d H M S fr rest Hv Ht Hb Hy Hd.
  destruct (C10_rendering y m d H M S fr Hv Ht Hb) as (t & E & Hg). exists t. split; [exact E|].
  replace t with (iso_string y m d H M S) by (symmetry; tauto). now apply C10_reading.
Qed.
Print Assumptions C10_round_trip.

Example C10_case : valid_date 2017 3 14 /\ valid_time 15 9 26 /\
  to_iso8601 (TT (ntp_seconds 2017 3 14 15 9 26) 0) = Ok (str "2017-03-14T15:09:26").
Proof. unfold valid_date, valid_time. split; [|split]; [cbn; lia|lia|vm_compute; reflexivity]. Qed.

(** 1969-07-20 is printed as 1969-07-19, and 2016-12-31 as 2153-02-06. *)
Theorem C10_wrong_dates_refuted :
  to_iso8601 (TT (ntp_seconds 1969 7 20 20 17 40) 0) = Ok (str "1969-07-19T20:17:40") /\
  to_iso8601 (TT (ntp_seconds 2016 12 31 12 0 0) 0) = Ok (str "2153-02-06T18:28:16").
Proof. split; vm_compute; reflexivity. Qed.
Print Assumptions C10_wrong_dates_refuted.
