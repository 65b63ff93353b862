(** The arithmetic of doubles is correctly rounded. *)

From Coq Require Import ZArith List Bool QArith Qabs Lia Lqa.
From Verif Require Import Base AtomSpec RoundSpec FloatModel FloatProofs RoundProofs RoundProps FArithModel
  RealSpec CompareProofs StickyProofs.
Open Scope Z_scope.

Lemma inf_is s : ieee_inf 52 11 s = infinity 52 11 s.
Proof. reflexivity. Qed.

Lemma signed_if s m : signed_of s m = if s then - m else m.
Proof. reflexivity. Qed.

Lemma sign_decode d s m e : ieee_decode 52 11 d = Some (s, m, e) -> ieee_sign 52 11 d = s.
Proof.
  unfold ieee_decode, ieee_sign. destruct (_ =? 2^11 - 1); [discriminate|]. intros H. injection H as <- _ _. reflexivity.
Qed.

Section Ops.
Context (nan : Z -> Z -> Z) (Hnan : forall a b, is_nan 52 11 (nan a b)).

(** [y] with the sign [s2] instead of its own. *)
Lemma sum_ok d1 d2 x y n (s2 : bool) : is_nan 52 11 n -> real 52 11 d1 x -> real 52 11 d2 y ->
  (y = NotANumber \/ s2 = ieee_sign 52 11 d2 -> sum_is x y (ieee_sum 52 11 n d1 d2 s2)) /\
  (y = NotANumber \/ s2 = negb (ieee_sign 52 11 d2) -> sum_is x (opposite y) (ieee_sum 52 11 n d1 d2 s2)).
Proof.
  intros Hn H1 H2.
  assert (Fin2 : forall p q, real 52 11 d1 (Fin p) -> real 52 11 d2 (Fin q) ->
    forall k, (k = q /\ s2 = ieee_sign 52 11 d2) \/ (k = (- q)%Q /\ s2 = negb (ieee_sign 52 11 d2)) ->
    exists s, rounds 52 11 s (p + k) (ieee_sum 52 11 n d1 d2 s2)).
  { clear x y H1 H2. intros p q H1 H2 k Hk.
    destruct (fin_fields _ _ H1) as (N1 & s1 & m1 & e1 & D1 & P1 & E1).
    destruct (fin_fields _ _ H2) as (N2 & s2' & m2 & e2 & D2 & P2 & E2).
    assert (Ek : (k == inject_Z (signed_of s2 m2) * pow2Q e2)%Q).
    { rewrite (sign_decode _ _ _ _ D2) in Hk. destruct Hk as [[-> ->]|[-> ->]]; [exact E2|].
      rewrite E2. unfold signed_of. destruct s2'; cbn [negb]; rewrite ?inject_Z_opp; ring. }
    unfold ieee_sum. rewrite N1, N2, D1, D2. cbn [orb].
    set (e := Z.min e1 e2). set (z := signed_of s1 m1 * 2^(e1 - e) + signed_of s2 m2 * 2^(e2 - e)).
    assert (Ez : (p + k == inject_Z z * pow2Q e)%Q).
    { rewrite E1, Ek. rewrite (unscale (signed_of s1 m1) e1 e), (unscale (signed_of s2 m2) e2 e) by (unfold e; lia).
      unfold z. rewrite inject_Z_plus. ring. }
    destruct (z =? 0) eqn:Z0.
    - apply Z.eqb_eq in Z0. exists (s1 && s2).
      refine (rounds_ext _ _ _ _ _ _ _ (round_ok 52 11 (s1 && s2) 0 0 double_fmt (Z.le_refl 0))).
      rewrite Ez, Z0. destruct (s1 && s2); change (inject_Z (- 0)) with 0%Q; change (inject_Z 0) with 0%Q; ring.
    - exists (z <? 0). refine (rounds_ext _ _ _ _ _ _ _ (round_ok 52 11 (z <? 0) (Z.abs z) e double_fmt (Z.abs_nonneg z))).
      rewrite Ez. destruct (z <? 0) eqn:S; [apply Z.ltb_lt in S|apply Z.ltb_ge in S].
      + replace (- Z.abs z) with z by lia. reflexivity.
      + replace (Z.abs z) with z by lia. reflexivity. }
  assert (Rest : (forall p q, ~ (x = Fin p /\ y = Fin q)) ->
    (y = NotANumber \/ s2 = ieee_sign 52 11 d2 -> sum_is x y (ieee_sum 52 11 n d1 d2 s2)) /\
    (y = NotANumber \/ s2 = negb (ieee_sign 52 11 d2) -> sum_is x (opposite y) (ieee_sum 52 11 n d1 d2 s2))).
  { intros Hne. unfold ieee_sum.
    destruct x as [p|s|], y as [q|s'|]; cbn [sum_is opposite];
      try (exfalso; exact (Hne p q (conj eq_refl eq_refl))); clear Hne Fin2;
      try (destruct (fin_fields _ _ H1) as (-> & s1 & m1 & e1 & D1 & _ & E1));
      try (destruct (fin_fields _ _ H2) as (-> & s2' & m2 & e2 & D2 & _ & E2));
      try (cbn [real] in H1; subst d1; destruct (inf_fields s) as (D1 & -> & S1); rewrite ?S1);
      try (cbn [real] in H2; subst d2; destruct (inf_fields s') as (D2 & -> & S2); rewrite ?S2);
      try (destruct (nan_fields _ H1) as (D1 & ->));
      try (destruct (nan_fields _ H2) as (D2 & ->));
      rewrite ?D1, ?D2; cbn [orb]; rewrite ?orb_true_r; try (split; intros; exact Hn).
    - split; (intros [K|K]; [discriminate|]); subst s2; reflexivity.
    - split; reflexivity.
    - split; (intros [K|K]; [discriminate|]); subst s2; destruct s, s'; cbn; try exact Hn; reflexivity. }
  destruct x as [p|s|], y as [q|s'|]; try (apply Rest; intros p' q' [K1 K2]; discriminate).
  cbn [sum_is opposite]. split; (intros [K|K]; [discriminate|]); apply (Fin2 p q H1 H2); [left|right]; now split.
Qed.

Lemma add_ok d1 d2 x y : real 52 11 d1 x -> real 52 11 d2 y -> sum_is x y (dadd nan d1 d2).
Proof. intros H1 H2. unfold dadd, ieee_add. apply sum_ok; auto. Qed.
Lemma sub_ok d1 d2 x y : real 52 11 d1 x -> real 52 11 d2 y -> sum_is x (opposite y) (dsub nan d1 d2).
Proof. intros H1 H2. unfold dsub, ieee_sub. apply sum_ok; auto. Qed.

Lemma fin_sign d q s m e : (q == inject_Z (signed_of s m) * pow2Q e)%Q -> 0 <= m ->
  ieee_decode 52 11 d = Some (s, m, e) ->
  (m = 0 <-> (q == 0)%Q) /\ ((0 < q)%Q -> s = false /\ m <> 0) /\ ((q < 0)%Q -> s = true /\ m <> 0).
Proof.
  intros Eq Hm _. pose proof (pow2Q_pos e) as Pe.
  assert (Z0 : m = 0 -> (q == 0)%Q).
  { intros ->. rewrite Eq. unfold signed_of. destruct s; change (inject_Z (- 0)) with 0%Q; change (inject_Z 0) with 0%Q; ring. }
  assert (Pp : m <> 0 -> s = false -> (0 < q)%Q).
  { intros N ->. rewrite Eq. apply Qmult_lt_0_compat; [apply injQ_pos; cbn; lia|exact Pe]. }
  assert (Pn : m <> 0 -> s = true -> (q < 0)%Q).
  { intros N ->. rewrite Eq. unfold signed_of. rewrite inject_Z_opp.
    assert (0 < inject_Z m * pow2Q e)%Q by (apply Qmult_lt_0_compat; [apply injQ_pos; lia|exact Pe]). lra. }
  destruct (Z.eq_dec m 0) as [E|E].
  - specialize (Z0 E). repeat split; intros; try assumption; try lra; exfalso; lra.
  - destruct s.
    + specialize (Pn E eq_refl). repeat split; intros; try lia; try assumption; try lra; exfalso; lra.
    + specialize (Pp E eq_refl). repeat split; intros; try lia; try assumption; try lra; exfalso; lra.
Qed.

Lemma mul_ok d1 d2 x y : real 52 11 d1 x -> real 52 11 d2 y -> product_is x y (dmul nan d1 d2).
Proof.
  intros H1 H2. unfold dmul, ieee_mul.
  destruct x as [p|s|], y as [q|s'|]; cbn [product_is];
    try (destruct (fin_fields _ _ H1) as (-> & s1 & m1 & e1 & D1 & M1 & E1); rewrite ?(sign_decode _ _ _ _ D1));
    try (destruct (fin_fields _ _ H2) as (-> & s2 & m2 & e2 & D2 & M2 & E2); rewrite ?(sign_decode _ _ _ _ D2));
    try (cbn [real] in H1; subst d1; destruct (inf_fields s) as (D1 & -> & S1); rewrite ?S1);
    try (cbn [real] in H2; subst d2; destruct (inf_fields s') as (D2 & -> & S2); rewrite ?S2);
    try (destruct (nan_fields _ H1) as (D1 & ->));
    try (destruct (nan_fields _ H2) as (D2 & ->));
    rewrite ?D1, ?D2; cbn [orb]; rewrite ?orb_true_r; try apply Hnan.
  - exists (xorb s1 s2). refine (rounds_ext _ _ _ _ _ _ _ (round_ok 52 11 (xorb s1 s2) (m1 * m2) (e1 + e2) double_fmt _)); [|nia].
    rewrite E1, E2, pow2Q_add. unfold signed_of. destruct s1, s2; cbn [xorb]; rewrite ?inject_Z_opp, ?inject_Z_mult; ring.
  - destruct (fin_sign _ _ _ _ _ E1 M1 D1) as (F1 & F2 & F3). split; [|split].
    + intros K. apply F1 in K. subst m1. apply Hnan.
    + intros K. destruct (F2 K) as [-> N]. apply Z.eqb_neq in N. rewrite N. destruct s'; reflexivity.
    + intros K. destruct (F3 K) as [-> N]. apply Z.eqb_neq in N. rewrite N. destruct s'; reflexivity.
  - destruct (fin_sign _ _ _ _ _ E2 M2 D2) as (F1 & F2 & F3). split; [|split].
    + intros K. apply F1 in K. subst m2. apply Hnan.
    + intros K. destruct (F2 K) as [-> N]. apply Z.eqb_neq in N. rewrite N. rewrite xorb_false_r. reflexivity.
    + intros K. destruct (F3 K) as [-> N]. apply Z.eqb_neq in N. rewrite N. rewrite xorb_true_r. reflexivity.
  - reflexivity.
Qed.

Lemma quotient_rounds s m1 m2 e1 e2 : 0 <= m1 -> 0 < m2 ->
  let k := 52 + 3 + Z.log2 m2 in
  let q := m1 * 2^k / m2 in
  let st := if m1 * 2^k mod m2 =? 0 then 0 else 1 in
  rounds 52 11 s (sgn s (inject_Z m1 / inject_Z m2 * pow2Q (e1 - e2))) (ieee_round 52 11 s (2 * q + st) (e1 - e2 - k - 1)).
Proof.
  intros H1 H2 k q st.
  assert (Lk : 0 <= k) by (unfold k; pose proof (Z.log2_nonneg m2); lia).
  pose proof (pow2_ge1 k Lk) as Pk.
  pose proof (Z.div_mod (m1 * 2^k) m2 ltac:(lia)) as Dm. fold q in Dm.
  pose proof (Z.mod_pos_bound (m1 * 2^k) m2 H2) as Rb. set (r := m1 * 2^k mod m2) in *.
  assert (Hq0 : 0 <= q) by (apply Z.div_pos; nia).
  set (e := e1 - e2 - k - 1).
  set (y := (inject_Z (m1 * 2^k * 2) / inject_Z m2)%Q).
  assert (Pm2 : (0 < inject_Z m2)%Q) by now apply injQ_pos.
  assert (Ey : (inject_Z m1 / inject_Z m2 * pow2Q (e1 - e2) == y * pow2Q e)%Q).
  { unfold y. replace (e1 - e2) with ((k + 1) + e) by (unfold e; lia). rewrite pow2Q_add, (pow2Q_nonneg (k + 1)) by lia.
    rewrite Z.pow_add_r by lia. change (2^1) with 2. rewrite !inject_Z_mult. field. lra. }
  destruct (r =? 0) eqn:R0.
  - apply Z.eqb_eq in R0. subst st. rewrite Z.add_0_r.
    refine (rounds_ext _ _ _ _ _ _ _ (round_ok 52 11 s (2 * q) e double_fmt _)); [|lia].
    assert (Ey2 : (y == inject_Z (2 * q))%Q).
    { unfold y. replace (m1 * 2^k * 2) with (2 * q * m2) by lia. rewrite (inject_Z_mult (2 * q) m2). field. lra. }
    destruct s; cbn [sgn]; rewrite Ey, Ey2; rewrite ?inject_Z_opp; ring.
  - apply Z.eqb_neq in R0. subst st.
    assert (M1 : 1 <= m1) by (destruct (Z.eq_dec m1 0) as [->|]; [exfalso; apply R0; unfold r; rewrite Z.mul_0_l; apply Z.mod_0_l; lia|lia]).
    assert (Q2 : 2^54 <= q).
    { apply Z.div_le_lower_bound; [exact H2|]. pose proof (Z.log2_spec m2 H2) as [_ L].
      assert (m2 * 2^54 <= 2^k).
      { apply Z.le_trans with (2^(Z.succ (Z.log2 m2)) * 2^54); [apply Z.mul_le_mono_nonneg_r; lia|].
        rewrite <- Z.pow_add_r by (pose proof (Z.log2_nonneg m2); lia). apply Z.pow_le_mono_r; unfold k; lia. }
      nia. }
    assert (Yb : (inject_Z (2 * q) < y < inject_Z (2 * q + 2))%Q).
    { unfold y. split.
      - apply Qlt_shift_div_l; [exact Pm2|]. rewrite <- inject_Z_mult, <- Zlt_Qlt. lia.
      - apply Qlt_shift_div_r; [exact Pm2|]. rewrite <- inject_Z_mult, <- Zlt_Qlt. nia. }
    assert (Lq : 52 + 2 <= Z.log2 (2 * q + 1)).
    { apply Z.log2_le_pow2; lia. }
    refine (rounds_ext _ _ _ _ _ _ _ (transfer 52 11 s q e y _ double_fmt Lq ltac:(lia) Yb _)).
    + destruct s; cbn [sgn]; rewrite Ey; reflexivity.
    + refine (rounds_ext _ _ _ _ _ _ _ (round_ok 52 11 s (2 * q + 1) e double_fmt _)); [|lia].
      destruct s; cbn [sgn]; rewrite ?inject_Z_opp; ring.
Qed.

Lemma div_ok d1 d2 x y : real 52 11 d1 x -> real 52 11 d2 y -> ~ same y (Fin 0) -> quotient_is x y (ddiv nan d1 d2).
Proof.
  intros H1 H2 Hy. unfold ddiv, ieee_div.
  destruct x as [p|s|], y as [q|s'|]; cbn [quotient_is];
    try (destruct (fin_fields _ _ H1) as (-> & s1 & m1 & e1 & D1 & M1 & E1); rewrite ?(sign_decode _ _ _ _ D1));
    try (destruct (fin_fields _ _ H2) as (-> & s2 & m2 & e2 & D2 & M2 & E2); rewrite ?(sign_decode _ _ _ _ D2));
    try (cbn [real] in H1; subst d1; destruct (inf_fields s) as (D1 & -> & S1); rewrite ?S1);
    try (cbn [real] in H2; subst d2; destruct (inf_fields s') as (D2 & -> & S2); rewrite ?S2);
    try (destruct (nan_fields _ H1) as (D1 & ->));
    try (destruct (nan_fields _ H2) as (D2 & ->));
    rewrite ?D1, ?D2; cbn [orb]; rewrite ?orb_true_r; try apply Hnan.
  - cbn [same] in Hy. destruct (fin_sign _ _ _ _ _ E2 M2 D2) as (F1 & _).
    assert (N : m2 <> 0) by tauto. assert (N' := N). apply Z.eqb_neq in N'. rewrite N'.
    exists (xorb s1 s2).
    refine (rounds_ext _ _ _ _ _ _ _ (quotient_rounds (xorb s1 s2) m1 m2 e1 e2 M1 ltac:(lia))).
    assert (Pm2 : (0 < inject_Z m2)%Q) by (apply injQ_pos; lia).
    assert (Pe : (0 < pow2Q e2)%Q) by apply pow2Q_pos.
    replace e1 with ((e1 - e2) + e2) in E1 by lia. rewrite pow2Q_add in E1.
    rewrite E1, E2. unfold signed_of. destruct s1, s2; cbn [xorb sgn]; rewrite ?inject_Z_opp; field; repeat split; lra.
  - destruct (xorb s1 s'); eexists; split; reflexivity.
  - destruct (fin_sign _ _ _ _ _ E2 M2 D2) as (F1 & F2 & F3). split; intros K.
    + destruct (F2 K) as [-> N]. rewrite xorb_false_r. reflexivity.
    + destruct (F3 K) as [-> N]. rewrite xorb_true_r. reflexivity.
Qed.
End Ops.
