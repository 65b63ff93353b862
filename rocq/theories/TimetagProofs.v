(** Proofs about time tags. *)

From Coq Require Import ZArith List Bool Lia.
From Verif Require Import Base BaseProofs Bytes UtilModel UtilProofs TimetagModel TimetagSpec TimetagDays.
Import ListNotations.
Open Scope Z_scope.

Ltac Zify.zify_post_hook ::= Z.div_mod_to_equations.

(** * Every day of the 32-bit range *)

Lemma check_date_valid y m d : valid_date y m d -> day_number y m d <= 49710 ->
  exists L, explore 400 0 (day_number y m d) false = Some L /\
    forall y' d' w, In (y', d', w) L ->
      length (date_text y' d') = 10%nat /\
      ((w = false /\ date_text y' d' = iso_date y m d) <-> good_date y m d = true) /\
      (w = true -> date_text y' d' <> iso_date y m d).
Proof.
  intros Hv Hn. pose proof (day_number_lower y m d Hv) as Hlow. destruct Hv as (Hy & Hm & Hd).
  pose proof (month_days_range y m) as Hmd.
  destruct (month_facts y m d Hm Hd) as (D1 & D2 & D3 & m0 & d0 & D4 & D5 & D6 & D7).
  unfold day_number in *. set (k := Z.to_nat (y - 1900)) in *.
  set (doy := days_before_month y (Z.to_nat (m - 1)) + d) in *.
  pose proof (days_before_month_ge y (Z.to_nat (m - 1))) as Hbm.
  replace (days_before_year k + days_before_month y (Z.to_nat (m - 1)) + (d - 1))
    with (days_before_year k + (doy - 1)) in * by (unfold doy; lia).
  assert (Hk : y = Z.of_nat k + 1900) by (unfold k; lia). clearbody k.
  assert (Hk2 : Z.of_nat k <= 136) by lia.
  pose proof (loop_days_eq k Hk2) as HL.
  assert (Hgood : good_date y m d = true <-> y = 1900 \/ (2001 <= y /\ ~ (leap_year y = true /\ m = 12 /\ d = 31))).
  { unfold good_date. rewrite orb_true_iff, andb_true_iff, negb_true_iff, Z.eqb_eq, Z.leb_le.
    rewrite <- not_true_iff_false, !andb_true_iff, !Z.eqb_eq. tauto. }
  destruct ((1 <=? Z.of_nat k) && (Z.of_nat k <=? 100)) eqn:EK.
  - (* 1901-2000: one day behind *)
    assert (~ good_date y m d = true) as Hng by (rewrite Hgood; lia).
    destruct (Z.eq_dec doy 1) as [E1|E1].
    + (* 1 January *)
      destruct k as [|j]; [discriminate EK|]. cbn [days_before_year] in *.
      assert (m = 1 /\ d = 1) as [-> ->].
      { unfold doy in E1. assert (days_before_month y (Z.to_nat (m - 1)) = 0) by lia.
        destruct (Z.to_nat (m - 1)) as [|q] eqn:Eq; [lia|]. cbn [days_before_month] in H.
        pose proof (days_before_month_ge y q). pose proof (month_days_range y (1 + Z.of_nat q)). lia. }
      rewrite E1. rewrite Z.sub_diag, Z.add_0_r.
      assert (HJ : loop_days j + (if leap_year (Z.of_nat j) then 366 else 365) - 1 =
                   days_before_year j + year_days (1900 + Z.of_nat j)) by (cbn [loop_days] in HL; lia).
      replace 400%nat with (j + (400 - j))%nat by lia.
      rewrite explore_skip by (destruct (leap_year (Z.of_nat j)); lia).
      destruct (leap_year (Z.of_nat j)) eqn:EJ.
      * replace (days_before_year j + year_days (1900 + Z.of_nat j) - loop_days j) with 365 by lia.
        destruct (wrapped j y 1 1 ltac:(lia) EJ ltac:(lia) ltac:(lia) ltac:(lia)) as (L & HE & HA).
        exists L. split; [exact HE|]. intros y' d' w Hin. destruct (HA _ _ _ Hin) as (Hw & Hlen & Hne).
        split; [exact Hlen|]. split; [|intros _; exact Hne]. split; [intros [Hf _]; congruence|]. intros Hg. contradiction.
      * replace (days_before_year j + year_days (1900 + Z.of_nat j) - loop_days j) with 364 by lia.
        replace (400 - j)%nat with (S (399 - j)) by lia. cbn [explore]. change (364 <? 365) with true. cbv iota.
        eexists. split; [reflexivity|]. intros y' d' w [Hin|[]]. inversion Hin; subst y' d' w.
        rewrite date_text_eq.
        assert (exists mo md, getmonth (364 + 1) (if leap_year (Z.of_nat j + 1900) then 1 else 0) = (mo, md) /\
                 0 <= mo < 100 /\ 0 <= md < 100) as (mo & md & -> & Hmo & Hmd').
        { clear. destruct (leap_year _); [exists 12, 30 | exists 12, 31]; (split; [reflexivity|]); lia. }
        rewrite text_of_eq by lia. split; [reflexivity|]. split; [|congruence].
        split; [|intros; contradiction]. intros [_ E]. apply iso_date_inj in E; lia.
    + assert (1 < doy) by (unfold doy in *; lia).
      replace 400%nat with (k + (400 - k))%nat by lia. rewrite explore_skip by lia.
      replace (days_before_year k + (doy - 1) - loop_days k) with (doy - 2) by lia.
      replace (400 - k)%nat with (S (399 - k)) by lia. cbn [explore].
      destruct (doy - 2 <? 365) eqn:E2; [|destruct (leap_year y); lia].
      eexists. split; [reflexivity|]. intros y' d' w [Hin|[]]. inversion Hin; subst y' d' w.
      rewrite date_text_eq. rewrite <- Hk. replace (doy - 2 + 1) with (doy - 1) by lia. rewrite D4.
      rewrite text_of_eq by lia. split; [reflexivity|]. split; [|congruence].
      split; [|intros; contradiction]. intros [_ E]. apply iso_date_inj in E; try lia.
      exfalso. apply D7. f_equal; lia.
  - assert (HK : k = 0%nat \/ 101 <= Z.of_nat k) by lia.
    replace 400%nat with (k + (400 - k))%nat by lia. rewrite explore_skip by (unfold doy in *; lia).
    replace (days_before_year k + (doy - 1) - loop_days k) with (doy - 1) by lia.
    destruct (Z_lt_le_dec (doy - 1) 365) as [E2|E2].
    + replace (400 - k)%nat with (S (399 - k)) by lia. cbn [explore].
      destruct (doy - 1 <? 365) eqn:E3; [|lia].
      eexists. split; [reflexivity|]. intros y' d' w [Hin|[]]. inversion Hin; subst y' d' w.
      rewrite date_text_eq. rewrite <- Hk. replace (doy - 1 + 1) with doy by lia. rewrite D3.
      rewrite text_of_eq by lia. split; [reflexivity|]. split; [|congruence].
      split; [intros _|auto]. apply Hgood.
      destruct HK as [->|HK]; [left; lia|]. right. split; [lia|]. intros (H1 & H2 & H3). subst m d.
      assert (doy = 366); [|lia]. unfold doy. change (Z.to_nat (12 - 1)) with 11%nat. clear - H1.
      rewrite (days_before_month_leap y 2000) by (rewrite H1; reflexivity). reflexivity.
    + assert (leap_year y = true /\ doy = 366) as [HL1 HL2] by (destruct (leap_year y); lia).
      assert (m = 12 /\ d = 31) as [-> ->] by (rewrite HL1 in D2; lia).
      destruct HK as [->|HK]; [subst y; discriminate|].
      rewrite HL2. change (366 - 1) with 365.
      destruct (wrapped k y 12 31 ltac:(lia)) as (L & HE & HA); try lia.
      { rewrite leap_same by lia. now rewrite <- Hk. }
      exists L. split; [exact HE|]. intros y' d' w Hin. destruct (HA _ _ _ Hin) as (Hw & Hlen & Hne).
      split; [exact Hlen|]. split; [|intros _; exact Hne]. split; [intros [Hf _]; congruence|].
      rewrite Hgood. intros [?|[_ Hn12]]; [lia|]. exfalso. apply Hn12. auto.
Qed.

Lemma iso_fields_eq secs y' d' s' : 0 <= y' < 30000 -> 0 <= d' < 366 -> 0 <= s' < 86400 ->
  while year_step 65536 (0, secs) = Ok (y', 86400 * d' + s') ->
  iso_fields secs = Ok (let '(mo, md) := getmonth (d' + 1) (if leap_year (y' + 1900) then 1 else 0) in
     F (y' + 1900) mo md (s' / 3600) (s' mod 3600 / 60) (s' mod 60)).
Proof.
  intros Hy Hd Hs Hw. unfold iso_fields. rewrite Hw. cbn [bind].
  replace (u16 (y' + 1900)) with (y' + 1900) by (unfold u16; rewrite Z.mod_small; lia).
  rewrite isleap_eq by lia. cbn [bind].
  rewrite count_loop_eq by lia. cbn [bind].
  replace (1 + (86400 * d' + s') / 86400) with (d' + 1) by lia.
  replace ((86400 * d' + s') mod 86400) with s' by lia.
  rewrite count_loop_eq by lia. cbn [bind].
  rewrite count_loop_eq by lia. cbn [bind].
  destruct (getmonth _ _) as [mo md]. rewrite !Z.add_0_l.
  replace ((s' mod 3600) mod 60) with (s' mod 60) by lia. reflexivity.
Qed.

Lemma to_iso_correct y m d H M S fr :
  valid_date y m d -> valid_time H M S -> ntp_seconds y m d H M S < 2^32 ->
  exists t, to_iso8601 (TT (ntp_seconds y m d H M S) fr) = Ok t /\
    (t = iso_string y m d H M S <-> good_date y m d = true).
Proof.
  intros Hv Ht Hb. pose proof (day_number_lower y m d Hv) as Hlow.
  assert (Hy : 1900 <= y) by apply Hv. unfold valid_time in Ht.
  set (s := H * 3600 + M * 60 + S).
  assert (Hs : 0 <= s < 86400) by (unfold s; lia).
  assert (Hn : 0 <= day_number y m d <= 49710) by (unfold ntp_seconds in Hb; lia).
  destruct (check_date_valid y m d Hv ltac:(lia)) as (L & HL & Hall).
  assert (Hsec : ntp_seconds y m d H M S = 86400 * day_number y m d + s) by (unfold ntp_seconds, s; lia).
  unfold to_iso8601. cbn [sec]. rewrite Hsec in *.
  destruct (explore_sound 400 0 _ false L s ltac:(lia) Hn Hs Hb HL) as (y' & d' & w' & s' & H1 & H2 & H3 & H4 & H5 & H6).
  destruct (Hall _ _ _ H2) as (Hlen & Hg & Hw).
  rewrite (iso_fields_eq _ y' d' s'); [|lia|lia|lia|].
  2:{ eapply while_loopn; [exact H1|]. lia. }
  cbn [bind]. eexists. split; [reflexivity|].
  assert (E : iso_text (let '(mo, md) := getmonth (d' + 1) (if leap_year (y' + 1900) then 1 else 0) in
       F (y' + 1900) mo md (s' / 3600) (s' mod 3600 / 60) (s' mod 60)) =
       date_text y' d' ++ [84] ++ iso_time (s' / 3600) (s' mod 3600 / 60) (s' mod 60)).
  { unfold date_text, iso_text, iso_time. destruct (getmonth _ _) as [mo md]. cbn [fyear fmonth fday fhour fmin fsec].
    rewrite !(print_u_2 (s' / 3600)), !(print_u_2 (s' mod 3600 / 60)), !(print_u_2 (s' mod 60)) by lia.
    rewrite <- !app_assoc. reflexivity. }
  rewrite E. rewrite <- Hg. unfold iso_string. split.
  - intros Heq. assert (Hd : date_text y' d' = iso_date y m d).
    { apply (f_equal (firstn 10)) in Heq. rewrite !firstn_app in Heq. rewrite Hlen in Heq.
      replace (length (iso_date y m d)) with 10%nat in Heq by reflexivity.
      rewrite Nat.sub_diag in Heq. rewrite !firstn_O in Heq. rewrite !app_nil_r in Heq.
      rewrite !firstn_all2 in Heq by (rewrite ?Hlen; cbn; lia). exact Heq. }
    split; [|exact Hd]. destruct w'; [|reflexivity]. exfalso. now apply Hw.
  - intros [-> Hd]. destruct (H6 eq_refl) as [_ ->]. rewrite Hd. unfold iso_time.
    replace (s / 3600) with H by (unfold s; lia).
    replace (s mod 3600 / 60) with M by (unfold s; lia).
    replace (s mod 60) with S by (unfold s; lia). reflexivity.
Qed.

(** * Reading back *)

Lemma num2_dd v : 0 <= v < 100 -> num2 (48 + v / 10) (48 + v mod 10) = Some v.
Proof.
  intros H. unfold num2, dig.
  destruct ((48 <=? 48 + v / 10) && (48 + v / 10 <=? 57)) eqn:E1; [|lia].
  destruct ((48 <=? 48 + v mod 10) && (48 + v mod 10 <=? 57)) eqn:E2; [|lia].
  f_equal. lia.
Qed.

Lemma within_ok lo hi v : lo <= v <= hi -> within lo hi (Some v) = Some v.
Proof. intros H. unfold within. destruct ((lo <=? v) && (v <=? hi)) eqn:E; [reflexivity|lia]. Qed.

Lemma strptime_iso y m d H M S rest :
  0 <= y < 10000 -> 1 <= m <= 12 -> 1 <= d <= 31 -> valid_time H M S ->
  strptime (iso_string y m d H M S ++ rest) = Some (F y m d H M S).
Proof.
  intros Hy Hm Hd Ht. unfold valid_time in Ht. unfold iso_string, iso_date, iso_time, dd.
  cbn [app]. unfold strptime. cbn [Z.eqb Pos.eqb andb].
  rewrite !num2_dd by lia. rewrite !within_ok by lia. do 2 f_equal. lia.
Qed.

Lemma year_secs_eq n : Z.of_nat n <= 20000 -> year_secs n = Ok (u32 (86400 * days_before_year n)).
Proof.
  induction n as [|n IH]; intros Hn; [reflexivity|]. cbn [year_secs days_before_year].
  rewrite IH by lia. cbn [bind]. rewrite isleap_eq by lia. cbn [bind]. unfold year_days.
  replace (1900 + Z.of_nat n) with (Z.of_nat n + 1900) by lia.
  destruct (leap_year _); cbn [Z.eqb]; f_equal; unfold u32.
  - rewrite Zplus_mod_idemp_l. rewrite <- Z.add_assoc, Zplus_mod_idemp_l. f_equal. lia.
  - rewrite Zplus_mod_idemp_l. f_equal. lia.
Qed.

Lemma days_before_month_eq y m : 1 <= m <= 12 ->
  rd days_in_months (m - 1) = Ok (days_before_month y (Z.to_nat (m - 1)) - (if leap_year y && (m - 1 >? 1) then 1 else 0)).
Proof.
  intros Hm.
  assert (m = 1 \/ m = 2 \/ m = 3 \/ m = 4 \/ m = 5 \/ m = 6 \/ m = 7 \/ m = 8 \/ m = 9 \/ m = 10 \/ m = 11 \/ m = 12) as Hc by lia.
  repeat destruct Hc as [->|Hc]; try subst m; cbv -[leap_year]; destruct (leap_year y); reflexivity.
Qed.

Lemma from_fields_correct y m d H M S :
  valid_date y m d -> valid_time H M S -> ntp_seconds y m d H M S < 2^32 ->
  from_fields (F y m d H M S) = Ok (ntp_seconds y m d H M S).
Proof.
  intros Hv Ht Hb. pose proof (day_number_lower y m d Hv) as Hlow. unfold valid_time in Ht.
  assert (Hy : 1900 <= y <= 2036).
  { destruct Hv as (H0 & _). unfold ntp_seconds in Hb. lia. }
  destruct Hv as (_ & Hm & Hd).
  unfold from_fields. cbn [fyear fmonth fday fhour fmin fsec].
  rewrite year_secs_eq by lia. cbn [bind].
  replace (u16 y) with y by (unfold u16; rewrite Z.mod_small; lia).
  rewrite isleap_eq by lia. cbn [bind].
  rewrite (days_before_month_eq y m) by lia. cbn [bind]. f_equal.
  assert (Hn : 0 <= ntp_seconds y m d H M S) by (unfold ntp_seconds; lia).
  rewrite <- (Z.mod_small (ntp_seconds y m d H M S) (2^32)) by lia.
  pose proof (days_before_year_ge (Z.to_nat (y - 1900))) as Hby.
  pose proof (days_before_month_ge y (Z.to_nat (m - 1))) as Hbm.
  replace (u32 (86400 * days_before_year (Z.to_nat (y - 1900)))) with (86400 * days_before_year (Z.to_nat (y - 1900))).
  2:{ unfold u32. rewrite Z.mod_small; [reflexivity|]. unfold ntp_seconds, day_number in Hb. lia. }
  unfold u32. rewrite !Zplus_mod_idemp_l.
  rewrite <- !Z.add_assoc, !Zplus_mod_idemp_l, !Z.add_assoc. f_equal.
  unfold ntp_seconds, day_number.
  destruct (leap_year y); cbn [Z.eqb negb andb]; destruct (m - 1 >? 1); lia.
Qed.

(** Every day number is that of a date. *)
Lemma date_exists n : exists y m d, valid_date y m d /\ day_number y m d = Z.of_nat n.
Proof.
  induction n as [|n (y & m & d & (Hy & Hm & Hd) & Hn)].
  - exists 1900, 1, 1. split; [unfold valid_date, month_days; cbn; lia | reflexivity].
  - destruct (Z_lt_le_dec d (month_days y m)).
    { exists y, m, (d + 1). split; [unfold valid_date; lia|]. unfold day_number in *. lia. }
    assert (d = month_days y m) by lia. subst d.
    destruct (Z_lt_le_dec m 12).
    { exists y, (m + 1), 1. split.
      - pose proof (month_days_range y (m + 1)). unfold valid_date. lia.
      - unfold day_number in *. replace (Z.to_nat (m + 1 - 1)) with (S (Z.to_nat (m - 1))) by lia.
        cbn [days_before_month]. replace (1 + Z.of_nat (Z.to_nat (m - 1))) with m by lia. lia. }
    assert (m = 12) by lia. subst m. exists (y + 1), 1, 1. split.
    + pose proof (month_days_range (y + 1) 1). unfold valid_date. lia.
    + unfold day_number in *. replace (Z.to_nat (y + 1 - 1900)) with (S (Z.to_nat (y - 1900))) by lia.
      cbn [days_before_year]. replace (1900 + Z.of_nat (Z.to_nat (y - 1900))) with y by lia.
      change (Z.to_nat (1 - 1)) with 0%nat. cbn [days_before_month].
      assert (E : days_before_month y (Z.to_nat (12 - 1)) + month_days y 12 = year_days y).
      { change (Z.to_nat (12 - 1)) with 11%nat. cbv -[leap_year].
        destruct (leap_year y); reflexivity. }
      lia.
Qed.

Lemma ntp_seconds_surj s : 0 <= s -> exists y m d H M S,
  valid_date y m d /\ valid_time H M S /\ ntp_seconds y m d H M S = s.
Proof.
  intros Hs. destruct (date_exists (Z.to_nat (s / 86400))) as (y & m & d & Hv & Hn).
  exists y, m, d, (s mod 86400 / 3600), (s mod 3600 / 60), (s mod 60).
  split; [exact Hv|]. split; [unfold valid_time; lia|]. unfold ntp_seconds. rewrite Hn. lia.
Qed.

(** * Arithmetic and order *)

Definition tt_ok (t : timetag) : Prop := in32 (sec t) /\ in32 (frac t).
Definition tt_instant (t : timetag) : Z := instant (sec t) (frac t).

Lemma tt_add_instant a b : tt_ok a -> tt_ok b ->
  tt_ok (tt_add a b) /\ tt_instant (tt_add a b) = (tt_instant a + tt_instant b) mod 2^64.
Proof.
  destruct a as [s1 f1], b as [s2 f2]. unfold tt_ok, tt_instant, instant, in32, tt_add, u32. cbn [sec frac].
  intros (H1 & H2) (H3 & H4).
  destruct (Z_lt_le_dec (f1 + f2) (2^32)).
  - rewrite (Z.mod_small (f1 + f2)) by lia. destruct (f1 + f2 <? f1) eqn:E; [lia|]. cbn [sec frac].
    split; [lia|]. lia.
  - replace ((f1 + f2) mod 2^32) with (f1 + f2 - 2^32) by lia.
    destruct (f1 + f2 - 2^32 <? f1) eqn:E; [|lia]. cbn [sec frac]. split; [lia|].
    rewrite Zplus_mod_idemp_l. lia.
Qed.

Lemma tt_sub_instant a b : tt_ok a -> tt_ok b ->
  tt_ok (tt_sub a b) /\
  (tt_instant b <= tt_instant a -> tt_instant (tt_sub a b) = tt_instant a - tt_instant b) /\
  (tt_instant a < tt_instant b ->
     (tt_instant (tt_sub a b) = tt_instant b - tt_instant a <-> frac a <= frac b)).
Proof.
  destruct a as [s1 f1], b as [s2 f2]. unfold tt_ok, tt_instant, instant, in32, tt_sub, u32. cbn [sec frac].
  intros (H1 & H2) (H3 & H4).
  destruct ((s1 >? s2) || ((s1 =? s2) && (f1 >=? f2))) eqn:E.
  - assert (s1 > s2 \/ s1 = s2 /\ f1 >= f2) by lia. clear E.
    rewrite (Z.mod_small (s1 - s2)) by lia.
    destruct (f1 >=? f2) eqn:E1.
    + cbn [sec frac]. rewrite (Z.mod_small (f1 - f2)) by lia. split; [lia|]. lia.
    + destruct (s1 - s2 =? 0) eqn:E2; [lia|]. cbn [sec frac].
      rewrite (Z.mod_small (s1 - s2 - 1)) by lia.
      replace ((f1 - f2) mod 2 ^ 32) with (f1 - f2 + 2^32) by lia. split; [lia|]. lia.
  - assert (s1 < s2 \/ s1 = s2 /\ f1 < f2) by lia. clear E.
    rewrite (Z.mod_small (s2 - s1)) by lia.
    destruct (f1 >=? f2) eqn:E1; cbn [sec frac].
    + rewrite (Z.mod_small (f1 - f2)) by lia. split; [lia|]. lia.
    + rewrite (Z.mod_small (f2 - f1)) by lia. split; [lia|]. lia.
Qed.

Lemma tt_compare_instant a b : tt_ok a -> tt_ok b ->
  tt_compare a b = match tt_instant a ?= tt_instant b with Lt => -1 | Eq => 0 | Gt => 1 end.
Proof.
  destruct a as [s1 f1], b as [s2 f2]. unfold tt_ok, tt_instant, instant, in32, tt_compare. cbn [sec frac].
  intros (H1 & H2) (H3 & H4).
  destruct (Z.compare_spec (s1 * 2^32 + f1) (s2 * 2^32 + f2));
  destruct ((s1 <? s2) || ((s1 =? s2) && (f1 <? f2))) eqn:E;
  destruct ((s1 >? s2) || ((s1 =? s2) && (f1 >? f2))) eqn:E2; lia.
Qed.

Lemma tt_instant_inj a b : tt_ok a -> tt_ok b -> tt_instant a = tt_instant b -> a = b.
Proof.
  destruct a as [s1 f1], b as [s2 f2]. unfold tt_ok, tt_instant, instant, in32. cbn [sec frac].
  intros (H1 & H2) (H3 & H4) H. f_equal; lia.
Qed.

(** * Header codec *)

Lemma tt_encode_at l1 v l2 t : length v = 8%nat ->
  tt_encode t (l1 ++ v ++ l2) (zlen l1) = Ok (l1 ++ (be_bytes 4 (sec t) ++ be_bytes 4 (frac t)) ++ l2).
Proof.
  intros Hl. unfold tt_encode.
  assert (Hv : v = firstn 4 v ++ skipn 4 v) by (symmetry; apply firstn_skipn).
  rewrite Hv. rewrite <- app_assoc. rewrite wr32_at by (rewrite firstn_length; lia). cbn [bind].
  replace (zlen l1 + 4) with (zlen (l1 ++ be_bytes 4 (sec t))) by (rewrite zlen_app, zlen_be; lia).
  rewrite (app_assoc l1). rewrite wr32_at by (rewrite skipn_length; lia).
  rewrite <- !app_assoc. reflexivity.
Qed.

Lemma tt_decode_at l1 l2 s f :
  tt_decode (l1 ++ (be_bytes 4 s ++ be_bytes 4 f) ++ l2) (zlen l1) = Ok (TT (u32 s) (u32 f)).
Proof.
  unfold tt_decode. rewrite <- app_assoc. rewrite rd32_be. cbn [bind].
  replace (zlen l1 + 4) with (zlen (l1 ++ be_bytes 4 s)) by (rewrite zlen_app, zlen_be; lia).
  rewrite (app_assoc l1). rewrite rd32_be. reflexivity.
Qed.
