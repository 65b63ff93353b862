(** Loops of the calendar code, and its result on every day of the range. *)

From Coq Require Import ZArith List Bool Lia.
From Verif Require Import Base BaseProofs Bytes UtilModel UtilProofs TimetagModel TimetagSpec.
Import ListNotations.
Open Scope Z_scope.

Ltac Zify.zify_post_hook ::= Z.div_mod_to_equations.

(** * Leap years *)

Lemma small_mod0 k z : 0 < k -> - k < z -> z <= 0 -> z mod k = 0 -> z = 0.
Proof.
  intros Hk H1 H2 H. pose proof (Z.div_mod z k ltac:(lia)) as E. rewrite H in E. clear H.
  generalize dependent (z / k). intros q E.
  assert (-1 < q) by nia. assert (q <= 0) by nia. nia.
Qed.

Lemma down_eq k y : 0 < k <= 400 -> 0 <= y < 32768 ->
  exists r, down k y = Ok r /\ (r = 0 <-> y mod k = 0) /\ r <= 0.
Proof.
  intros Hk Hy. unfold down.
  set (step := fun y0 : Z => if y0 >? 0 then Cont (s16 (y0 - k)) else Done (Ok y0)).
  assert (H : forall n y, (Z.to_nat y <= n)%nat -> - k < y < 32768 ->
            exists r, loopn step (S n) y = Done (Ok r) /\ (r = 0 <-> y mod k = 0) /\ r <= 0).
  { induction n as [|n IH]; intros z Hn Hz.
    - exists z. split; [cbn; unfold step; destruct (z >? 0) eqn:E; [lia|reflexivity]|].
      split; [|lia]. split; intros Hr; [subst; apply Z.mod_0_l; lia|].
      apply (small_mod0 k); lia.
    - destruct (z >? 0) eqn:E.
      + destruct (IH (z - k)) as (r & Hr & Hz' & Hle); [lia|lia|].
        exists r. split.
        * change (loopn step (S (S n)) z) with
            (match step z with Cont s' => loopn step (S n) s' | Done r0 => Done r0 end).
          replace (step z) with (@Cont Z (res Z) (z - k)); [exact Hr|].
          unfold step. rewrite E. f_equal. unfold s16. lia.
        * split; [|exact Hle]. rewrite Hz'. replace (z - k) with (z + (-1) * k) by lia.
          rewrite Z.mod_add by lia. reflexivity.
      + exists z. split; [cbn [loopn]; unfold step; rewrite E; reflexivity|].
        split; [|lia]. split; intros Hr; [subst; apply Z.mod_0_l; lia|].
        apply (small_mod0 k); lia. }
  destruct (H (Z.to_nat y) y ltac:(lia) ltac:(lia)) as (r & Hr & H3).
  exists r. split; [|exact H3]. eapply while_loopn; [exact Hr|]. lia.
Qed.

Lemma isleap_eq y : 0 <= y < 32768 -> isleap y = Ok (if leap_year y then 1 else 0).
Proof.
  intros Hy. unfold isleap, leap_year. replace (s16 y) with y by (unfold s16; lia).
  destruct (down_eq 400 y ltac:(lia) Hy) as (a & Ha & Ha0 & _).
  destruct (down_eq 4 y ltac:(lia) Hy) as (b & Hb & Hb0 & _).
  destruct (down_eq 100 y ltac:(lia) Hy) as (c & Hc & Hc0 & Hcl).
  rewrite Ha, Hb, Hc. cbn [bind].
  destruct (a =? 0) eqn:Ea.
  - destruct (y mod 400 =? 0) eqn:E4; [|lia]. rewrite orb_true_r, andb_true_r.
    destruct (y mod 4 =? 0) eqn:E; [reflexivity|lia].
  - destruct (y mod 400 =? 0) eqn:E4; [lia|]. rewrite orb_false_r.
    destruct (b =? 0) eqn:Eb.
    + destruct (y mod 4 =? 0) eqn:E; [|lia]. cbn [andb].
      destruct (y mod 100 =? 0) eqn:E1; cbn [negb]; destruct (c <? 0) eqn:E2; try reflexivity; lia.
    + destruct (y mod 4 =? 0) eqn:E; [lia|]. reflexivity.
Qed.

(** * Counting loops *)

Lemma count_loop_eq k start secs :
  0 < k -> 0 <= secs < 2^32 -> 0 <= start -> start + secs / k < 65536 ->
  count_loop k start secs = Ok (start + secs / k, secs mod k).
Proof.
  intros Hk Hs Hst Hb. unfold count_loop.
  set (step := fun '(c, s) => if s >=? k then Cont (u16 (c + 1), u32 (s - k)) else Done (Ok (c, s))).
  assert (H : forall n c s, 0 <= s < 2^32 -> 0 <= c -> c + s / k < 65536 -> (Z.to_nat (s / k) <= n)%nat ->
            loopn step (S n) (c, s) = Done (Ok (c + s / k, s mod k))).
  { induction n as [|n IH]; intros c s Hs' Hc Hb' Hn.
    - assert (s / k = 0) by (pose proof (Z.div_pos s k); lia).
      assert (s < k) by (apply Z.div_small_iff in H; lia).
      cbn [loopn]. unfold step. destruct (s >=? k) eqn:E; [lia|].
      rewrite H, Z.mod_small by lia. rewrite Z.add_0_r. reflexivity.
    - change (loopn step (S (S n)) (c, s)) with
        (match step (c, s) with Cont s' => loopn step (S n) s' | Done r0 => Done r0 end).
      unfold step at 1. destruct (s >=? k) eqn:E.
      + assert (E2 : (s - k) / k = s / k - 1).
        { replace (s - k) with (s + (-1) * k) by lia. rewrite Z.div_add by lia. lia. }
        assert (E3 : (s - k) mod k = s mod k).
        { replace (s - k) with (s + (-1) * k) by lia. now rewrite Z.mod_add by lia. }
        assert (1 <= s / k) by (apply Z.div_le_lower_bound; lia).
        replace (u16 (c + 1)) with (c + 1) by (unfold u16; rewrite Z.mod_small; lia).
        replace (u32 (s - k)) with (s - k) by (unfold u32; rewrite Z.mod_small; lia).
        rewrite IH by (rewrite ?E2; lia). rewrite E2, E3.
        replace (c + 1 + (s / k - 1)) with (c + s / k) by lia. reflexivity.
      + assert (s / k = 0) by (apply Z.div_small; lia).
        rewrite H, Z.mod_small by lia. rewrite Z.add_0_r. reflexivity. }
  eapply while_loopn; [apply (H (Z.to_nat (secs / k)))|]; try lia.
Qed.

(** * The year loop, at the granularity of days *)

(** The possible ends of the year loop from year [y] with [d] days (and some
    seconds) left: year, days left, whether the seconds counter has wrapped
    around.  After a wrap the days left are 49709 or 49710, depending on the
    time of day; both are explored. *)
Fixpoint explore (n : nat) (y d : Z) (w : bool) : option (list (Z * Z * bool)) :=
  match n with
  | O => None
  | S m =>
    if d <? 365 then Some [(y, d, w)]
    else if 32000 <? y then None
    else if leap_year y then
      if d =? 365 then
        match explore m (y + 1) 49709 true, explore m (y + 1) 49710 true with
        | Some a, Some b => Some (a ++ b)
        | _, _ => None
        end
      else explore m (y + 1) (d - 366) w
    else explore m (y + 1) (d - 365) w
  end.

Lemma explore_sound n : forall y d w L s, 0 <= y -> 0 <= d <= 49710 -> 0 <= s < 86400 ->
  86400 * d + s < 2^32 ->
  explore n y d w = Some L ->
  exists y' d' w' s', loopn year_step n (y, 86400 * d + s) = Done (Ok (y', 86400 * d' + s')) /\
    In (y', d', w') L /\ 0 <= y' <= y + Z.of_nat n /\ 0 <= d' < 365 /\ 0 <= s' < 86400 /\ (w' = false -> w = false /\ s' = s).
Proof.
  induction n as [|n IH]; intros y d w L s Hy Hd Hs Hb HE; [discriminate|].
  cbn [explore] in HE. cbn [loopn]. unfold year_step at 1.
  destruct (d <? 365) eqn:E1.
  { destruct (86400 * d + s >=? 31536000) eqn:E2; [lia|]. inversion HE; subst.
    exists y, d, w, s. repeat split; try lia; auto. left. reflexivity. }
  destruct (86400 * d + s >=? 31536000) eqn:E2; [|lia].
  destruct (32000 <? y) eqn:E3; [discriminate|].
  rewrite isleap_eq by lia.
  replace (u16 (y + 1)) with (y + 1) by (unfold u16; rewrite Z.mod_small; lia).
  replace (u32 (86400 * d + s - 31536000)) with (86400 * d + s - 31536000)
    by (unfold u32; rewrite Z.mod_small; lia).
  destruct (leap_year y) eqn:EL; cbn [Z.eqb].
  - destruct (d =? 365) eqn:E4.
    + assert (d = 365) by lia. subst d.
      destruct (explore n (y + 1) 49709 true) as [A|] eqn:EA; [|discriminate].
      destruct (explore n (y + 1) 49710 true) as [B|] eqn:EB; [|discriminate].
      inversion HE; subst L.
      destruct (Z_lt_le_dec (23296 + s) 86400).
      * replace (u32 (86400 * 365 + s - 31536000 - 86400)) with (86400 * 49709 + (23296 + s))
          by (unfold u32; lia).
        destruct (IH (y + 1) 49709 true A (23296 + s)) as (y' & d' & w' & s' & H1 & H2 & H3 & H4 & H5 & H6); try lia; auto.
        exists y', d', w', s'. rewrite in_app_iff. repeat split; auto; try lia; destruct (H6 H); congruence.
      * replace (u32 (86400 * 365 + s - 31536000 - 86400)) with (86400 * 49710 + (s - 63104))
          by (unfold u32; lia).
        destruct (IH (y + 1) 49710 true B (s - 63104)) as (y' & d' & w' & s' & H1 & H2 & H3 & H4 & H5 & H6); try lia; auto.
        exists y', d', w', s'. rewrite in_app_iff. repeat split; auto; try lia; destruct (H6 H); congruence.
    + replace (u32 (86400 * d + s - 31536000 - 86400)) with (86400 * (d - 366) + s)
        by (unfold u32; rewrite Z.mod_small; lia).
      destruct (IH (y + 1) (d - 366) w L s) as (y' & d' & w' & s' & H1 & H2 & H3 & H4 & H5 & H6); try lia; auto.
      exists y', d', w', s'. repeat split; auto; try lia; apply H6; auto.
  - replace (86400 * d + s - 31536000) with (86400 * (d - 365) + s) by lia.
    destruct (IH (y + 1) (d - 365) w L s) as (y' & d' & w' & s' & H1 & H2 & H3 & H4 & H5 & H6); try lia; auto.
    exists y', d', w', s'. repeat split; auto; try lia; apply H6; auto.
Qed.


(** * Every day of the 32-bit range *)

Definition zrange (a : Z) (n : nat) : list Z := map (fun i => a + Z.of_nat i) (seq 0 n).

Lemma zrange_in a n x : a <= x < a + Z.of_nat n -> In x (zrange a n).
Proof.
  intros H. unfold zrange. apply in_map_iff. exists (Z.to_nat (x - a)). split; [lia|].
  apply in_seq. lia.
Qed.

(** Dates the rendering gets right. *)
Definition good_date (y m d : Z) : bool :=
  (y =? 1900) || ((2001 <=? y) && negb (leap_year y && (m =? 12) && (d =? 31))).

(** The date part of the text printed at the end of the year loop. *)
Definition date_text (y' d' : Z) : list Z :=
  let '(mo, md) := getmonth (d' + 1) (if leap_year (y' + 1900) then 1 else 0) in
  print_u 4 5 (y' + 1900) ++ [45] ++ print_u 2 3 mo ++ [45] ++ print_u 2 3 md.


Lemma days_before_year_ge n : 365 * Z.of_nat n <= days_before_year n.
Proof.
  induction n as [|n IH]; [cbn; lia|]. cbn [days_before_year]. unfold year_days.
  destruct (leap_year _); lia.
Qed.

Lemma month_days_range y m : 28 <= month_days y m <= 31.
Proof.
  unfold month_days. destruct (m =? 2); [destruct (leap_year y); lia|].
  destruct ((m =? 4) || (m =? 6) || (m =? 9) || (m =? 11)); lia.
Qed.

Lemma days_before_month_ge y n : 0 <= days_before_month y n.
Proof.
  induction n as [|n IH]; [cbn; lia|]. cbn [days_before_month].
  pose proof (month_days_range y (1 + Z.of_nat n)). lia.
Qed.

Lemma day_number_lower y m d : valid_date y m d -> 365 * (y - 1900) <= day_number y m d.
Proof.
  intros (Hy & Hm & Hd). unfold day_number. pose proof (days_before_year_ge (Z.to_nat (y - 1900))).
  pose proof (days_before_month_ge y (Z.to_nat (m - 1))). lia.
Qed.

(** Days the loop subtracts before it reaches year [k]. *)
Fixpoint loop_days (k : nat) : Z :=
  match k with
  | O => 0
  | S j => loop_days j + (if leap_year (Z.of_nat j) then 366 else 365)
  end.

Lemma explore_skip k : forall n d, loop_days k <= d -> (Z.of_nat k <= 32000) ->
  explore (k + n) 0 d false = explore n (Z.of_nat k) (d - loop_days k) false.
Proof.
  induction k as [|k IH]; intros n d Hd Hk; [cbn [loop_days Nat.add]; rewrite Z.sub_0_r; reflexivity|].
  replace (S k + n)%nat with (k + S n)%nat by lia. cbn [loop_days] in Hd.
  assert (0 <= loop_days k). { clear. induction k; cbn [loop_days]; [lia|]. destruct (leap_year _); lia. }
  rewrite IH by (destruct (leap_year _); lia). cbn [explore].
  destruct (d - loop_days k <? 365) eqn:E1; [destruct (leap_year _); lia|].
  destruct (32000 <? Z.of_nat k) eqn:E2; [lia|].
  cbn [loop_days]. replace (Z.of_nat (S k)) with (Z.of_nat k + 1) by lia.
  destruct (leap_year (Z.of_nat k)).
  - destruct (d - loop_days k =? 365) eqn:E3; [lia|]. f_equal. lia.
  - f_equal. lia.
Qed.

(** The loop counts 1900 as a leap year and 2000 as none. *)
Lemma loop_days_eq : forall k, Z.of_nat k <= 136 ->
  loop_days k = days_before_year k + (if (1 <=? Z.of_nat k) && (Z.of_nat k <=? 100) then 1 else 0).
Proof.
  assert (H : forallb (fun k => loop_days k =? days_before_year k +
     (if (1 <=? Z.of_nat k) && (Z.of_nat k <=? 100) then 1 else 0)) (seq 0 137) = true) by (vm_compute; reflexivity).
  intros k Hk. rewrite forallb_forall in H. apply Z.eqb_eq. apply H. apply in_seq. lia.
Qed.

Lemma leap_same k : 1 <= k <= 136 -> k <> 100 -> leap_year k = leap_year (k + 1900).
Proof.
  intros H1 H2. unfold leap_year.
  replace ((k + 1900) mod 4) with (k mod 4) by lia.
  replace ((k + 1900) mod 100) with (k mod 100) by lia.
  destruct (k mod 4 =? 0) eqn:E4; [|reflexivity]. destruct (k mod 100 =? 0) eqn:E1; [lia|]. reflexivity.
Qed.

(** ** Months *)

Definition month_check (l : bool) : bool :=
  let y := if l then 2000 else 2001 in
  forallb (fun m => forallb (fun d =>
     let doy := days_before_month y (Z.to_nat (m - 1)) + d in
     let '(m1, d1) := getmonth doy (if l then 1 else 0) in
     let '(m0, d0) := getmonth (doy - 1) (if l then 1 else 0) in
     (doy <=? (if l then 366 else 365)) && ((m =? 12) && (d =? 31) || (doy <? (if l then 366 else 365))) &&
     (m1 =? m) && (d1 =? d) && (0 <=? m0) && (m0 <? 100) && (0 <=? d0) && (d0 <? 100) &&
     negb ((m0 =? m) && (d0 =? d))) (zrange 1 (Z.to_nat (month_days y m)))) (zrange 1 12).

Lemma month_check_true : month_check true = true /\ month_check false = true.
Proof. split; vm_compute; reflexivity. Qed.

Lemma month_days_leap y y' m : leap_year y = leap_year y' -> month_days y m = month_days y' m.
Proof. intros H. unfold month_days. now rewrite H. Qed.

Lemma days_before_month_leap y y' n : leap_year y = leap_year y' -> days_before_month y n = days_before_month y' n.
Proof. intros H. induction n as [|n IH]; [reflexivity|]. cbn [days_before_month]. now rewrite IH, (month_days_leap y y'). Qed.

Lemma month_facts y m d : 1 <= m <= 12 -> 1 <= d <= month_days y m ->
  let doy := days_before_month y (Z.to_nat (m - 1)) + d in
  let l := if leap_year y then 1 else 0 in
  doy <= 365 + l /\ ((m = 12 /\ d = 31) \/ doy < 365 + l) /\
  getmonth doy l = (m, d) /\
  exists m0 d0, getmonth (doy - 1) l = (m0, d0) /\ 0 <= m0 < 100 /\ 0 <= d0 < 100 /\ (m0, d0) <> (m, d).
Proof.
  intros Hm Hd.
  set (y' := if leap_year y then 2000 else 2001).
  assert (El : leap_year y = leap_year y') by (unfold y'; destruct (leap_year y); reflexivity).
  rewrite (month_days_leap y y' m El) in Hd. rewrite (days_before_month_leap y y' _ El). unfold y' in *.
  assert (HC : month_check (leap_year y) = true) by (destruct (leap_year y); apply month_check_true).
  unfold month_check in HC. cbv zeta in HC.
  destruct (leap_year y); clear y' El;
  pose proof (proj1 (forallb_forall _ _) HC m (zrange_in 1 12 m ltac:(lia))) as H1; clear HC; cbv beta in H1;
  match type of H1 with forallb _ (zrange 1 ?k) = true =>
    pose proof (proj1 (forallb_forall _ _) H1 d (zrange_in 1 k d ltac:(lia))) as H2; clear H1 end;
  cbv zeta beta in *;
  destruct (getmonth _ _) as [m1 d1]; destruct (getmonth _ _) as [m0 d0];
  rewrite !andb_true_iff, orb_true_iff, andb_true_iff, negb_true_iff, <- not_true_iff_false, andb_true_iff, !Z.eqb_eq, !Z.leb_le, !Z.ltb_lt in H2;
  destruct H2 as ((((((((A1 & A2) & A3) & A4) & A5) & A6) & A7) & A8) & A9);
  subst m1 d1;
  (split; [lia|]); (split; [lia|]); (split; [reflexivity|]);
  exists m0, d0; (split; [reflexivity|]); (split; [lia|]); (split; [lia|]); intros E; inversion E; apply A9; auto.
Qed.

(** ** Text *)

Lemma print_u_2 v : 0 <= v < 100 -> print_u 2 3 v = dd v.
Proof.
  intros H. unfold print_u, dd. cbn [digits]. destruct (v <? 10) eqn:E.
  - cbn [length Nat.sub repeat app firstn]. rewrite (Z.div_small v 10), (Z.mod_small v 10) by lia. reflexivity.
  - destruct (v / 10 <? 10) eqn:E2; [|lia]. reflexivity.
Qed.

Lemma print_u_4 v : 1000 <= v < 10000 -> print_u 4 5 v = dd (v / 100) ++ dd (v mod 100).
Proof.
  intros H. unfold print_u, dd. cbn [digits]. destruct (v <? 10) eqn:E; [lia|].
  destruct (v / 10 <? 10) eqn:E2; [lia|]. destruct (v / 10 / 10 <? 10) eqn:E3; [lia|].
  destruct (v / 10 / 10 / 10 <? 10) eqn:E4; [|lia]. cbn [length app Nat.sub repeat firstn].
  replace (v / 10 / 10 / 10) with (v / 100 / 10) by lia.
  replace ((v / 10 / 10) mod 10) with ((v / 100) mod 10) by lia.
  replace ((v / 10) mod 10) with (v mod 100 / 10) by lia.
  replace (v mod 10) with ((v mod 100) mod 10) by lia. reflexivity.
Qed.

Lemma dd_inj a b : 0 <= a < 100 -> 0 <= b < 100 -> dd a = dd b -> a = b.
Proof.
  unfold dd. intros Ha Hb H.
  pose proof (f_equal (fun l => nth 0 l 0) H) as H0. pose proof (f_equal (fun l => nth 1 l 0) H) as H1.
  cbn [nth] in H0, H1. lia.
Qed.

Lemma dd_length v : length (dd v) = 2%nat.
Proof. reflexivity. Qed.

Definition text_of (y mo md : Z) : list Z := print_u 4 5 y ++ [45] ++ print_u 2 3 mo ++ [45] ++ print_u 2 3 md.

Lemma text_of_eq y mo md : 1000 <= y < 10000 -> 0 <= mo < 100 -> 0 <= md < 100 ->
  text_of y mo md = iso_date y mo md.
Proof.
  intros H1 H2 H3. unfold text_of, iso_date. rewrite print_u_4, !print_u_2 by lia.
  rewrite <- app_assoc. reflexivity.
Qed.

Lemma iso_date_inj y m d y' m' d' : 1000 <= y < 10000 -> 1000 <= y' < 10000 ->
  0 <= m < 100 -> 0 <= m' < 100 -> 0 <= d < 100 -> 0 <= d' < 100 ->
  iso_date y m d = iso_date y' m' d' -> y = y' /\ m = m' /\ d = d'.
Proof.
  intros ? ? ? ? ? ? E. unfold iso_date in E.
  assert (G : forall a b l r, dd a ++ l = dd b ++ r -> dd a = dd b /\ l = r).
  { clear. intros a b l r E. unfold dd in *. cbn [app] in E.
    split; [exact (f_equal (firstn 2) E) | exact (f_equal (skipn 2) E)]. }
  apply G in E. destruct E as [E1 E]. apply G in E. destruct E as [E2 E].
  apply (f_equal (skipn 1)) in E. change (dd m ++ [45] ++ dd d = dd m' ++ [45] ++ dd d') in E.
  apply G in E. destruct E as [E3 E]. apply (f_equal (skipn 1)) in E. change (dd d = dd d') in E.
  apply dd_inj in E1; [|lia|lia]. apply dd_inj in E2; [|lia|lia]. apply dd_inj in E3; [|lia|lia].
  apply dd_inj in E; lia.
Qed.

Lemma date_text_eq y' d' : date_text y' d' =
  let '(mo, md) := getmonth (d' + 1) (if leap_year (y' + 1900) then 1 else 0) in text_of (y' + 1900) mo md.
Proof. reflexivity. Qed.

(** ** Wrapped ends *)

Definition wrap_check (k : nat) : bool :=
  forallb (fun d => match explore (399 - k) (Z.of_nat k + 1) d true with
     | Some L => forallb (fun '(y', d', w) => w && (136 <? y') && (y' <? 8000) &&
          (let '(mo, md) := getmonth (d' + 1) (if leap_year (y' + 1900) then 1 else 0) in
           (0 <=? mo) && (mo <? 100) && (0 <=? md) && (md <? 100))) L
     | None => false end) [49709; 49710].

Lemma wrap_checks : forallb wrap_check (seq 0 137) = true.
Proof. vm_compute. reflexivity. Qed.

Lemma wrapped k y m d : Z.of_nat k <= 136 -> leap_year (Z.of_nat k) = true -> 1900 <= y <= 2036 ->
  1 <= m <= 12 -> 1 <= d <= 31 ->
  exists L, explore (400 - k) (Z.of_nat k) 365 false = Some L /\
    forall y' d' w, In (y', d', w) L -> w = true /\ length (date_text y' d') = 10%nat /\
      date_text y' d' <> iso_date y m d.
Proof.
  intros Hk Hl Hy Hm Hd.
  assert (HC : wrap_check k = true).
  { apply (proj1 (forallb_forall _ _) wrap_checks). apply in_seq. lia. }
  unfold wrap_check in HC. cbn [forallb] in HC. rewrite andb_true_r in HC. apply andb_true_iff in HC.
  replace (400 - k)%nat with (S (399 - k)) by lia. cbn [explore].
  destruct (365 <? 365) eqn:E1; [lia|]. destruct (32000 <? Z.of_nat k) eqn:E2; [lia|]. rewrite Hl.
  destruct (365 =? 365) eqn:E3; [|lia].
  destruct (explore (399 - k) (Z.of_nat k + 1) 49709 true) as [A|]; [|destruct HC; discriminate].
  destruct (explore (399 - k) (Z.of_nat k + 1) 49710 true) as [B|]; [|destruct HC; discriminate].
  exists (A ++ B). split; [reflexivity|]. intros y' d' w Hin.
  assert (HX : w && (136 <? y') && (y' <? 8000) &&
          (let '(mo, md) := getmonth (d' + 1) (if leap_year (y' + 1900) then 1 else 0) in
           (0 <=? mo) && (mo <? 100) && (0 <=? md) && (md <? 100)) = true).
  { destruct HC as [HA HB]. apply in_app_or in Hin. destruct Hin as [Hin|Hin].
    - exact (proj1 (forallb_forall _ _) HA _ Hin).
    - exact (proj1 (forallb_forall _ _) HB _ Hin). }
  rewrite date_text_eq. destruct (getmonth _ _) as [mo md].
  rewrite !andb_true_iff, !Z.leb_le, !Z.ltb_lt in HX.
  rewrite text_of_eq by lia. split; [tauto|]. split; [reflexivity|].
  intros E. apply iso_date_inj in E; lia.
Qed.
