(** Rounding in the model (ieee_round) is rounding to nearest, ties to even. *)

From Coq Require Import ZArith List Bool Lia QArith Qpower Qabs Lqa.
From Verif Require Import Base BaseProofs AtomSModel FloatModel AtomSpec FloatProofs RoundSpec.
Import ListNotations.
Open Scope Z_scope.

(** * The integer core *)

(** Division with rounding as the model does it. *)
Definition rdiv (m d : Z) : Z :=
  let q := m / d in let r := m mod d in
  if (d <? 2 * r) || ((2 * r =? d) && Z.odd q) then q + 1 else q.

Lemma rdiv_nearest m d y : 0 < d ->
  Z.abs (rdiv m d * d - m) <= Z.abs (y * d - m) /\
  (Z.abs (rdiv m d * d - m) = Z.abs (y * d - m) -> y = rdiv m d \/ Z.even (rdiv m d) = true).
Proof.
  intros Hd. unfold rdiv. set (q := m / d). set (r := m mod d).
  assert (Hm : m = d * q + r) by apply Z.div_mod, Z.neq_sym, Z.lt_neq, Hd.
  assert (Hr : 0 <= r < d) by now apply Z.mod_pos_bound. clearbody q r.
  assert (Hy : y <= q - 1 \/ y = q \/ y = q + 1 \/ q + 2 <= y) by lia.
  assert (H2 : (q - 1) * d = q * d - d) by ring. assert (H3 : (q + 1) * d = q * d + d) by ring.
  assert (H4 : (q + 2) * d = q * d + 2 * d) by ring.
  assert (Hyd : (y <= q - 1 /\ y * d <= q * d - d) \/ y = q \/ y = q + 1 \/ (q + 2 <= y /\ q * d + 2 * d <= y * d)).
  { destruct Hy as [Hy|[Hy|[Hy|Hy]]]; [left|right; left|right; right; left|right; right; right]; try lia; split; nia. }
  subst m. rewrite (Z.mul_comm d q).
  destruct ((d <? 2 * r) || ((2 * r =? d) && Z.odd q)) eqn:E.
  - apply orb_true_iff in E. rewrite H3. destruct E as [E|E].
    + apply Z.ltb_lt in E. destruct Hyd as [Hy'|[Hy'|[Hy'|Hy']]]; try subst y; rewrite ?H3; split; lia.
    + apply andb_true_iff in E. destruct E as [E Ho]. apply Z.eqb_eq in E.
      assert (Z.even (q + 1) = true) by now rewrite Z.even_add, <- Z.negb_odd, Ho.
      destruct Hyd as [Hy'|[Hy'|[Hy'|Hy']]]; try subst y; rewrite ?H3; (split; [lia|now right]).
  - apply orb_false_iff in E. destruct E as [E1 E2]. apply Z.ltb_ge in E1. apply andb_false_iff in E2.
    destruct E2 as [E2|E2].
    + apply Z.eqb_neq in E2. destruct Hyd as [Hy'|[Hy'|[Hy'|Hy']]]; try subst y; rewrite ?H3; split; lia.
    + assert (Z.even q = true) by now rewrite <- Z.negb_odd, E2.
      destruct Hyd as [Hy'|[Hy'|[Hy'|Hy']]]; try subst y; rewrite ?H3; (split; [lia|now right]).
Qed.

Lemma rdiv_bounds m d : 0 < d -> m / d <= rdiv m d <= m / d + 1.
Proof. intros _. unfold rdiv. destruct (_ || _); lia. Qed.

(** The quotient of the model, for the number m * 2^e in units of 2^t. *)
Definition rquot (m e t : Z) : Z := if t <=? e then m * 2^(e - t) else rdiv m (2^(t - e)).

Lemma rquot_nearest m e t c y : c <= e -> c <= t ->
  let X := m * 2^(e - c) in let D := 2^(t - c) in
  Z.abs (rquot m e t * D - X) <= Z.abs (y * D - X) /\
  (Z.abs (rquot m e t * D - X) = Z.abs (y * D - X) -> y = rquot m e t \/ Z.even (rquot m e t) = true).
Proof.
  intros He Ht X D. pose proof (pow2_ge1 (t - c) ltac:(lia)) as HD. fold D in HD. unfold rquot.
  destruct (t <=? e) eqn:E; [apply Z.leb_le in E|apply Z.leb_gt in E].
  - assert (HX : X = m * 2^(e - t) * D).
    { unfold X, D. rewrite <- Z.mul_assoc, <- Z.pow_add_r by lia. do 2 f_equal. lia. }
    rewrite HX, Z.sub_diag. split; [lia|]. intros Hy. left. nia.
  - pose proof (pow2_ge1 (e - c) ltac:(lia)) as HF. set (F := 2^(e - c)) in *.
    assert (HDF : D = 2^(t - e) * F).
    { unfold D, F. rewrite <- Z.pow_add_r by lia. f_equal. lia. }
    assert (Hd := pow2_ge1 (t - e) ltac:(lia)). set (d := 2^(t - e)) in *.
    destruct (rdiv_nearest m d y ltac:(lia)) as [H1 H2].
    assert (HA : forall z, Z.abs (z * D - X) = Z.abs (z * d - m) * F).
    { intros z. rewrite HDF. unfold X. fold F. replace (z * (d * F) - m * F) with ((z * d - m) * F) by ring.
      rewrite Z.abs_mul. f_equal. lia. }
    rewrite !HA. split; [nia|]. intros Hy. apply H2. nia.
Qed.

(** * The bits of the result *)

(** [k] counts the binades above the lowest. *)
Lemma round_bits mb eb s m e : fmt mb eb -> 0 < m ->
  let emin := 2 - 2^(eb - 1) in
  let k := Z.max (Z.log2 m + e) emin - emin in
  let t := emin + k - mb in
  let q := rquot m e t in
  ieee_round mb eb s m e = (if s then 2^(mb + eb) else 0) + Z.min (k * 2^mb + q) ((2^eb - 1) * 2^mb) /\
  0 <= k /\ 0 <= q <= 2^(mb + 1) /\ (0 < k -> 2^mb <= q) /\
  (forall c, c <= e -> c <= t -> 0 < k -> 2^mb * 2^(t - c) <= m * 2^(e - c)) /\
  (forall c, c <= e -> c <= t -> m * 2^(e - c) < 2^(mb + 1) * 2^(t - c)).
Proof.
  intros [Hb He] Hm emin k t q.
  assert (Hk : 0 <= k) by (unfold k; lia).
  assert (Ht : t = Z.max (Z.log2 m + e) emin - mb) by (unfold t, k; lia).
  assert (E : ieee_round mb eb s m e = (if s then 2^(mb + eb) else 0) + Z.min (k * 2^mb + q) ((2^eb - 1) * 2^mb)).
  { unfold ieee_round. rewrite (proj2 (Z.eqb_neq m 0)) by lia. fold emin. rewrite <- Ht. f_equal. f_equal.
    change (if t <=? e then m * 2^(e - t) else _) with q.
    destruct (Z.log2 m + e <? emin) eqn:E1; [apply Z.ltb_lt in E1|apply Z.ltb_ge in E1].
    - replace k with 0 by (unfold k; lia). reflexivity.
    - f_equal. unfold k. rewrite Z.max_l by lia. reflexivity. }
  split; [exact E|]. split; [exact Hk|].
  destruct (Z.log2_spec m Hm) as [L1 L2]. set (n := Z.log2 m) in *. assert (Hn : 0 <= n) by apply Z.log2_nonneg.
  assert (Hlo : forall c, c <= e -> c <= t -> 0 < k -> 2^mb * 2^(t - c) <= m * 2^(e - c)).
  { intros c Hc1 Hc2 Hk0. rewrite <- Z.pow_add_r by lia.
    replace (mb + (t - c)) with (n + (e - c)) by (unfold t, k in *; lia). rewrite Z.pow_add_r by lia.
    apply Z.mul_le_mono_nonneg_r; [apply Z.pow_nonneg; lia|exact L1]. }
  assert (Hhi : forall c, c <= e -> c <= t -> m * 2^(e - c) < 2^(mb + 1) * 2^(t - c)).
  { intros c Hc1 Hc2. rewrite <- Z.pow_add_r by lia.
    apply Z.lt_le_trans with (2^(Z.succ n) * 2^(e - c)).
    - apply Z.mul_lt_mono_pos_r; [apply Z.pow_pos_nonneg; lia|exact L2].
    - rewrite <- Z.pow_add_r by lia. apply Z.pow_le_mono_r; unfold t, k in *; lia. }
  split; [|split; [|split; [exact Hlo|exact Hhi]]].
  - assert (Hq0 := rquot_nearest m e t (Z.min e t) 0 ltac:(lia) ltac:(lia)). cbv zeta in Hq0. fold q in Hq0.
    specialize (Hhi (Z.min e t) ltac:(lia) ltac:(lia)).
    assert (Hq1 := rquot_nearest m e t (Z.min e t) (2^(mb + 1)) ltac:(lia) ltac:(lia)). cbv zeta in Hq1. fold q in Hq1.
    set (X := m * 2^(e - Z.min e t)) in *. pose proof (pow2_ge1 (t - Z.min e t) ltac:(lia)).
    assert (0 < X) by (unfold X; apply Z.mul_pos_pos; [lia|apply Z.pow_pos_nonneg; lia]).
    set (D := 2^(t - Z.min e t)) in *. set (U := 2^(mb + 1)) in *. clearbody X D U. split.
    + destruct (Z_lt_le_dec q 0) as [Hq|Hq]; [exfalso|exact Hq]. assert (q * D < 0) by nia. lia.
    + destruct (Z_lt_le_dec U q) as [Hq|Hq]; [exfalso|exact Hq].
      assert (U * D < q * D) by nia. lia.
  - intros Hk0. specialize (Hlo (Z.min e t) ltac:(lia) ltac:(lia) Hk0).
    assert (Hq1 := rquot_nearest m e t (Z.min e t) (2^mb) ltac:(lia) ltac:(lia)). cbv zeta in Hq1. fold q in Hq1.
    set (X := m * 2^(e - Z.min e t)) in *. pose proof (pow2_ge1 (t - Z.min e t) ltac:(lia)).
    set (D := 2^(t - Z.min e t)) in *. set (U := 2^mb) in *. clearbody X D U.
    destruct (Z_lt_le_dec q U) as [Hq|Hq]; [exfalso|exact Hq]. assert (q * D < U * D) by nia. lia.
Qed.

(** The bit pattern decoded: the mantissa may have become a power of two. *)
Lemma decode_low mb eb (s : bool) q : fmt mb eb -> 0 <= q < 2^mb ->
  ieee_decode mb eb ((if s then 2^(mb + eb) else 0) + q) = Some (s, q, 2 - 2^(eb - 1) - mb).
Proof.
  intros [Hm He] Hq. unfold ieee_decode.
  pose proof (pow2_ge1 mb ltac:(lia)) as Hp. pose proof (pow2_ge1 eb ltac:(lia)) as Hpe.
  assert (Hx : (if s then 2^(mb + eb) else 0) + q = ((if s then 1 else 0) * 2^eb) * 2^mb + q).
  { rewrite Z.pow_add_r by lia. destruct s; ring. }
  rewrite Hx. set (c := if s then 1 else 0) in *. set (P := 2^mb) in *. set (F := 2^eb) in *.
  assert (Hmod : (c * F * P + q) mod P = q).
  { symmetry. apply (Z.mod_unique_pos _ _ (c * F)); [lia|]. ring. }
  assert (Hdiv : (c * F * P + q) / P = c * F).
  { symmetry. apply (Z.div_unique_pos _ _ _ q); [lia|]. ring. }
  assert (H4 : 4 <= F). { unfold F. change 4 with (2^2). apply Z.pow_le_mono_r; lia. }
  rewrite Hmod, Hdiv, Z.mod_mul by lia.
  rewrite (proj2 (Z.eqb_neq 0 (F - 1))) by lia. cbn [Z.eqb].
  assert (Hs : (c * F * P + q) / 2^(mb + eb) mod 2 = c).
  { rewrite Z.pow_add_r by lia. fold P F. rewrite <- Z.div_div by lia. rewrite Hdiv, Z.div_mul by lia.
    unfold c. now destruct s. }
  rewrite Hs. do 2 f_equal; [unfold c; now destruct s|]. lia.
Qed.

Lemma decode_bits mb eb (s : bool) k q : fmt mb eb -> 0 <= k -> 0 <= q <= 2^(mb + 1) -> (0 < k -> 2^mb <= q) ->
  k * 2^mb + q < (2^eb - 1) * 2^mb ->
  exists M E, ieee_decode mb eb ((if s then 2^(mb + eb) else 0) + (k * 2^mb + q)) = Some (s, M, E) /\
    2 - 2^(eb - 1) - mb <= E /\
    (M = q /\ E = 2 - 2^(eb - 1) + k - mb \/ 2 * M = q /\ E = 2 - 2^(eb - 1) + k - mb + 1).
Proof.
  intros Hf Hk Hq Hkq Hlt. assert (Hf' := Hf). destruct Hf' as [Hm He].
  pose proof (pow2_ge1 mb ltac:(lia)) as Hp.
  assert (H2 : 2^(mb + 1) = 2 * 2^mb) by (rewrite Z.pow_add_r by lia; change (2^1) with 2; ring).
  destruct (Z_lt_le_dec q (2^mb)) as [Hlow|Hge].
  - assert (k = 0) by lia. subst k. exists q, (2 - 2^(eb - 1) - mb). cbn [Z.mul Z.add].
    rewrite decode_low by (try assumption; lia). split; [reflexivity|]. split; [lia|]. left. lia.
  - destruct (Z.eq_dec q (2^(mb + 1))) as [->|Hne].
    + exists (2^mb), (2 - 2^(eb - 1) + k - mb + 1). split; [|split; [lia|right; lia]].
      replace (k * 2^mb + 2^(mb + 1)) with ((k + 1) * 2^mb + 2^mb) by (rewrite H2; ring).
      rewrite decode_normal; [do 2 f_equal; lia|exact Hf|split; [lia|nia]|lia].
    + exists q, (2 - 2^(eb - 1) + k - mb). split; [|split; [lia|left; lia]].
      rewrite decode_normal; [do 2 f_equal; lia|exact Hf|split; [lia|nia]|lia].
Qed.

(** * Distances *)

Lemma scaled_le a b a' b' c : (Qabs (inject_Z a * pow2Q c - inject_Z b * pow2Q c) <=
  Qabs (inject_Z a' * pow2Q c - inject_Z b' * pow2Q c))%Q <-> Z.abs (a - b) <= Z.abs (a' - b').
Proof.
  assert (H : forall a b, (Qabs (inject_Z a * pow2Q c - inject_Z b * pow2Q c) ==
    inject_Z (Z.abs (a - b)) * pow2Q c)%Q).
  { intros x y. setoid_replace (inject_Z x * pow2Q c - inject_Z y * pow2Q c)%Q
      with (inject_Z (x - y) * pow2Q c)%Q.
    - rewrite Qabs_Qmult. rewrite (Qabs_pos (pow2Q c)) by (apply Qlt_le_weak, pow2Q_pos). reflexivity.
    - unfold Z.sub. rewrite inject_Z_plus, inject_Z_opp. ring. }
  rewrite !H. pose proof (pow2Q_pos c). rewrite Qmult_le_r by assumption. now rewrite <- Zle_Qle.
Qed.

Lemma unscale z e c : c <= e -> (inject_Z z * pow2Q e == inject_Z (z * 2^(e - c)) * pow2Q c)%Q.
Proof.
  intros H. replace e with ((e - c) + c) at 1 by lia. rewrite pow2Q_add, inject_Z_mult.
  rewrite (pow2Q_nonneg (e - c)) by lia. ring.
Qed.

Lemma nearest_core mb eb m e : fmt mb eb -> 0 < m ->
  let emin := 2 - 2^(eb - 1) in
  let k := Z.max (Z.log2 m + e) emin - emin in
  let t := emin + k - mb in
  let q := rquot m e t in
  forall c Y M E, c <= e -> c <= emin - mb -> c <= E -> emin - mb <= E -> 0 <= M < 2^(mb + 1) ->
  (Y = M \/ Y = - M) ->
  Z.abs (q * 2^(t - c) - m * 2^(e - c)) <= Z.abs (Y * 2^(E - c) - m * 2^(e - c)) /\
  (Z.abs (q * 2^(t - c) - m * 2^(e - c)) = Z.abs (Y * 2^(E - c) - m * 2^(e - c)) ->
   Y * 2^(E - c) = q * 2^(t - c) \/ Z.even q = true).
Proof.
  intros Hf Hm emin k t q c Y M E Hc1 Hc2 Hc3 HE HM HY.
  destruct (round_bits mb eb false m e Hf Hm) as (_ & Hk & _ & _ & Hlo & _).
  fold emin in Hk, Hlo. fold k in Hk, Hlo. fold t in Hlo. destruct Hf as [Hb He].
  assert (Hct : c <= t) by (unfold t; lia).
  destruct (Z_le_gt_dec t E) as [HtE|HtE].
  - destruct (rquot_nearest m e t c (Y * 2^(E - t)) Hc1 Hct) as [H1 H2]. fold q in H1, H2.
    replace (Y * 2^(E - t) * 2^(t - c)) with (Y * 2^(E - c)) in H1, H2.
    2:{ rewrite <- Z.mul_assoc, <- Z.pow_add_r by lia. do 2 f_equal. lia. }
    split; [exact H1|]. intros H. destruct (H2 H) as [H3|H3]; [left|now right].
    rewrite <- H3, <- Z.mul_assoc, <- Z.pow_add_r by lia. do 2 f_equal. lia.
  - assert (Hk0 : 0 < k) by (unfold t in HtE; lia).
    specialize (Hlo c Hc1 Hct Hk0).
    destruct (rquot_nearest m e t c (2^mb) Hc1 Hct) as [H1 _]. fold q in H1.
    assert (HB : M * 2^(E - c) < 2^mb * 2^(t - c)).
    { apply Z.lt_le_trans with (2^(mb + 1) * 2^(E - c)).
      - apply Z.mul_lt_mono_pos_r; [apply Z.pow_pos_nonneg; lia|lia].
      - rewrite <- !Z.pow_add_r by lia. apply Z.pow_le_mono_r; lia. }
    assert (H0 : 0 <= M * 2^(E - c)) by (apply Z.mul_nonneg_nonneg; [lia|apply Z.pow_nonneg; lia]).
    assert (HYb : Y * 2^(E - c) <= M * 2^(E - c)).
    { destruct HY; subst Y; [lia|]. rewrite Z.mul_opp_l. lia. }
    split; lia.
Qed.

Lemma sign_bit mb eb (s : bool) b : 0 <= mb -> 0 <= eb -> 0 <= b < 2^(mb + eb) ->
  Z.testbit ((if s then 2^(mb + eb) else 0) + b) (mb + eb) = s.
Proof.
  intros Hm He Hb. rewrite Z.testbit_odd, Z.shiftr_div_pow2 by lia.
  replace (((if s then 2^(mb + eb) else 0) + b) / 2^(mb + eb)) with (if s then 1 else 0); [now destruct s|].
  apply (Z.div_unique_pos _ _ _ b); [lia|]. destruct s; ring.
Qed.

(** When the result is an infinity. *)
Lemma overflow_iff mb eb m e : fmt mb eb -> 0 < m ->
  let emin := 2 - 2^(eb - 1) in
  let k := Z.max (Z.log2 m + e) emin - emin in
  let t := emin + k - mb in
  let q := rquot m e t in
  forall c, c <= e -> c <= emin - mb - 1 ->
  ((2^eb - 1) * 2^mb <= k * 2^mb + q <->
   (2^(mb + 2) - 1) * 2^(2^(eb - 1) - mb - 2 - c) <= m * 2^(e - c)).
Proof.
  intros Hf Hm emin k t q c Hc1 Hc2.
  destruct (round_bits mb eb false m e Hf Hm) as (_ & Hk & Hq & Hkq & Hlo & Hhi).
  fold emin in Hk, Hq, Hkq, Hlo, Hhi. fold k in Hk, Hq, Hkq, Hlo, Hhi. fold t in Hq, Hkq, Hlo, Hhi.
  fold q in Hq, Hkq. destruct Hf as [Hb He]. assert (Hct : c <= t) by (unfold t; lia).
  specialize (Hlo c Hc1 Hct). specialize (Hhi c Hc1 Hct).
  pose proof (pow2_ge1 mb ltac:(lia)) as Hp.
  assert (H2 : 2^(mb + 1) = 2 * 2^mb) by (rewrite Z.pow_add_r by lia; change (2^1) with 2; ring).
  assert (H2' : 2^(mb + 2) = 4 * 2^mb) by (rewrite Z.pow_add_r by lia; change (2^2) with 4; ring).
  assert (Hhalf : 2^eb = 2 * 2^(eb - 1)).
  { replace eb with (1 + (eb - 1)) at 1 by lia. rewrite Z.pow_add_r by lia. reflexivity. }
  assert (H2e : 2 <= 2^(eb - 1)). { change 2 with (2^1) at 1. apply Z.pow_le_mono_r; lia. }
  set (X := m * 2^(e - c)) in *. set (P := 2^mb) in *.
  (* the unit of the topmost binade *)
  set (T := 2^(eb - 1) - 1 - mb).
  assert (HT : 2^(2^(eb - 1) - mb - 2 - c) * 2 = 2^(T - c)).
  { replace (T - c) with ((2^(eb - 1) - mb - 2 - c) + 1) by (unfold T; lia).
    rewrite Z.pow_add_r by (unfold emin in *; lia). reflexivity. }
  set (G := 2^(2^(eb - 1) - mb - 2 - c)) in *.
  assert (HG : 1 <= G) by (apply pow2_ge1; unfold emin in *; lia).
  destruct (Z_lt_le_dec k (2^eb - 3)) as [Hk1|Hk1].
  - (* below the topmost binade *)
    split; intros H; exfalso.
    + assert ((k + 2) * P <= (2^eb - 2) * P) by (apply Z.mul_le_mono_nonneg_r; lia). nia.
    + assert (HtT : t + 1 <= T) by (unfold t, T, emin in *; lia).
      assert (Hpow : 2 * 2^(t - c) <= 2^(T - c)).
      { change 2 with (2^1) at 1. rewrite <- Z.pow_add_r by lia. apply Z.pow_le_mono_r; lia. }
      rewrite H2 in Hhi. nia.
  - destruct (Z.eq_dec k (2^eb - 3)) as [Hk2|Hk2].
    + assert (HtT : t = T) by (unfold t, T, emin in *; lia).
      assert (Hqe : q = rquot m e T) by (unfold q; now rewrite HtT). rewrite HtT in *.
      assert (Hlast : (2^eb - 1) * P <= k * P + q <-> q = 2 * P).
      { rewrite Hk2. split; intros H; nia. }
      rewrite Hlast.
      assert (N1 := rquot_nearest m e T c (2 * P) Hc1 Hct). cbv zeta in N1. fold X in N1. rewrite <- Hqe in N1.
      assert (N2 := rquot_nearest m e T c (2 * P - 1) Hc1 Hct). cbv zeta in N2. fold X in N2. rewrite <- Hqe in N2.
      rewrite <- HT, H2 in *. clearbody q X G P. clear Hqe.
      assert (Hodd : Z.even (2 * P - 1) = false).
      { rewrite Z.even_sub, Z.even_mul. reflexivity. }
      assert (M1 : 2 * P * (G * 2) = 4 * (P * G)) by ring.
      assert (M2 : (2 * P - 1) * (G * 2) = 4 * (P * G) - 2 * G) by ring.
      assert (M3 : (4 * P - 1) * G = 4 * (P * G) - G) by ring.
      rewrite H2', M3. rewrite M1 in *. rewrite M2 in *.
      split; intros H.
      * rewrite H, M1 in *. lia.
      * destruct (Z_lt_le_dec q (2 * P)) as [Hlt|Hge]; [exfalso|lia].
        assert (Hq2 : q <= 2 * P - 1) by lia.
        assert (q * (G * 2) <= (2 * P - 1) * (G * 2)) by (apply Z.mul_le_mono_nonneg_r; lia).
        destruct N1 as [N1 N1']. destruct N1' as [N|N]; [lia|lia|].
        assert (q <> 2 * P - 1) by (intros ->; rewrite Hodd in N; discriminate).
        assert (q * (G * 2) <= (2 * P - 2) * (G * 2)) by (apply Z.mul_le_mono_nonneg_r; lia).
        assert ((2 * P - 2) * (G * 2) = 4 * (P * G) - 4 * G) by ring. lia.
    + split; intros _.
      * rewrite H2'. assert (Hk0 : 0 < k) by lia. specialize (Hlo Hk0).
        assert (HtT : T + 1 <= t) by (unfold t, T, emin in *; lia).
        assert (Hpow : 2 * 2^(T - c) <= 2^(t - c)).
        { change 2 with (2^1) at 1. rewrite <- Z.pow_add_r by (unfold T, emin in *; lia). apply Z.pow_le_mono_r; lia. }
        rewrite <- HT in Hpow. nia.
      * assert (Hk0 : 0 < k) by lia. specialize (Hkq Hk0).
        assert ((2^eb - 2) * P <= k * P) by (apply Z.mul_le_mono_nonneg_r; lia). lia.
Qed.

Lemma even_bits mb eb (s : bool) k q : fmt mb eb ->
  Z.even q = true -> Z.even ((if s then 2^(mb + eb) else 0) + (k * 2^mb + q)) = true.
Proof.
  intros [Hm He] H. rewrite !Z.even_add, H, Z.even_mul.
  rewrite (Z.even_pow 2 mb) by lia. cbn. rewrite orb_true_r. destruct s; [|reflexivity].
  rewrite Z.even_pow by lia. reflexivity.
Qed.

(** The model rounds. *)
Theorem round_ok mb eb (s : bool) m e : fmt mb eb -> 0 <= m ->
  rounds mb eb s (inject_Z (if s then - m else m) * pow2Q e) (ieee_round mb eb s m e).
Proof.
  intros Hf Hm0. assert (Hf' := Hf). destruct Hf' as [Hb He].
  split.
  { pose proof (pow2Q_pos e) as Pe. assert (Pm : (0 <= inject_Z m)%Q) by (change 0%Q with (inject_Z 0); now rewrite <- Zle_Qle).
    assert (Pp : (0 <= inject_Z m * pow2Q e)%Q) by (apply Qmult_le_0_compat; lra).
    destruct s; [rewrite inject_Z_opp|]; lra. }
  pose proof (pow2_ge1 mb ltac:(lia)) as Hp. pose proof (pow2_ge1 eb ltac:(lia)) as Hpe.
  destruct (Z.eq_dec m 0) as [->|Hne].
  - (* zero *)
    assert (Hz : (inject_Z (if s then - 0 else 0) * pow2Q e == 0)%Q).
    { destruct s; change (- 0)%Z with 0; change (inject_Z 0) with 0%Q; ring. }
    split; [|split].
    + unfold ieee_round. cbn [Z.eqb]. rewrite <- (Z.add_0_r (if s then _ else _)) at 1.
      apply sign_bit; lia.
    + intros _. destruct (round_zero mb eb s e Hf) as (v & Hv & Hv0). exists v. split; [exact Hv|].
      intros b w _. assert (H0 : (Qabs (v - inject_Z (if s then - 0 else 0) * pow2Q e) == 0)%Q).
      { rewrite Hz, Hv0. reflexivity. }
      rewrite H0. split; [apply Qabs_nonneg|]. intros _. right.
      unfold ieee_round. cbn [Z.eqb]. destruct s; [|reflexivity]. rewrite Z.even_pow by lia. reflexivity.
    + intros H. exfalso. rewrite Hz in H. apply (Qle_not_lt _ _ H). change (Qabs 0) with 0%Q.
      unfold overflow_limit. change ((2#1)^(2^(eb - 1) - mb - 2))%Q with (pow2Q (2^(eb - 1) - mb - 2)).
      apply Qmult_lt_0_compat; [|apply pow2Q_pos]. apply injQ_pos.
      assert (4 <= 2^(mb + 2)). { change 4 with (2^2). apply Z.pow_le_mono_r; lia. } lia.
  - assert (Hm : 0 < m) by lia. clear Hm0 Hne.
    destruct (round_bits mb eb s m e Hf Hm) as (E & Hk & Hq & Hkq & _ & _).
    set (emin := 2 - 2^(eb - 1)) in *. set (k := Z.max (Z.log2 m + e) emin - emin) in *.
    set (t := emin + k - mb) in *. set (q := rquot m e t) in *.
    set (c := Z.min e (emin - mb - 1)).
    assert (Hov := overflow_iff mb eb m e Hf Hm). cbv zeta in Hov. fold emin in Hov. fold k in Hov.
    fold t in Hov. fold q in Hov. specialize (Hov c ltac:(unfold c; lia) ltac:(unfold c; lia)).
    assert (Hx : (inject_Z (if s then - m else m) * pow2Q e ==
                  inject_Z (if s then - (m * 2^(e - c)) else m * 2^(e - c)) * pow2Q c)%Q).
    { rewrite (unscale _ e c) by (unfold c; lia). destruct s; [rewrite Z.mul_opp_l|]; reflexivity. }
    assert (HX : 0 < m * 2^(e - c)) by (apply Z.mul_pos_pos; [lia|apply Z.pow_pos_nonneg; unfold c; lia]).
    assert (Hlim : (overflow_limit mb eb <= Qabs (inject_Z (if s then - m else m) * pow2Q e))%Q <->
      (2^eb - 1) * 2^mb <= k * 2^mb + q).
    { rewrite Hov, Hx. unfold overflow_limit.
      change ((2#1)^(2^(eb - 1) - mb - 2))%Q with (pow2Q (2^(eb - 1) - mb - 2)).
      assert (2 <= 2^(eb - 1)). { change 2 with (2^1) at 1. apply Z.pow_le_mono_r; lia. }
      rewrite (unscale _ (2^(eb - 1) - mb - 2) c) by (unfold c, emin; lia).
      rewrite Qabs_Qmult, (Qabs_pos (pow2Q c)) by (apply Qlt_le_weak, pow2Q_pos).
      rewrite Qmult_le_r by apply pow2Q_pos.
      assert (HA : (Qabs (inject_Z (if s then - (m * 2^(e - c)) else m * 2^(e - c))) == inject_Z (m * 2^(e - c)))%Q).
      { destruct s; [rewrite inject_Z_opp, Qabs_opp|]; apply Qabs_pos;
          change 0%Q with (inject_Z 0); rewrite <- Zle_Qle; lia. }
      rewrite HA. now rewrite <- Zle_Qle. }
    assert (Hmin : 0 <= Z.min (k * 2^mb + q) ((2^eb - 1) * 2^mb) < 2^(mb + eb)).
    { rewrite Z.pow_add_r by lia. assert (0 <= k * 2^mb) by (apply Z.mul_nonneg_nonneg; lia).
      assert (0 <= (2^eb - 1) * 2^mb) by (apply Z.mul_nonneg_nonneg; lia). nia. }
    split; [|split].
    + rewrite E. apply sign_bit; lia || exact Hmin.
    + intros Hlt. assert (Hfin : k * 2^mb + q < (2^eb - 1) * 2^mb).
      { destruct (Z_lt_le_dec (k * 2^mb + q) ((2^eb - 1) * 2^mb)) as [H|H]; [exact H|exfalso].
        apply Hlim in H. exact (Qle_not_lt _ _ H Hlt). }
      rewrite E, Z.min_l by lia.
      destruct (decode_bits mb eb s k q Hf Hk Hq Hkq Hfin) as (M & Ex & Hdec & HEx & HM).
      pose proof (value_decode mb eb ((if s then 2^(mb + eb) else 0) + (k * 2^mb + q)) ltac:(lia) ltac:(lia)) as Hv.
      rewrite Hdec in Hv. destruct (ieee_value mb eb _) as [v|] eqn:Ev; [|easy].
      exists v. split; [exact Ev|]. intros b w Hw.
      assert (Hvq : (v == inject_Z (if s then - (q * 2^(t - c)) else q * 2^(t - c)) * pow2Q c)%Q).
      { rewrite Hv. rewrite (unscale _ Ex c) by (fold emin in HEx; unfold c; lia).
        assert (HMq : M * 2^(Ex - c) = q * 2^(t - c)).
        { fold emin in HM. destruct HM as [[-> ->]|[HM ->]]; [reflexivity|].
          rewrite <- HM. replace (emin + k - mb + 1 - c) with (1 + (t - c)) by (unfold t; lia).
          rewrite Z.pow_add_r by (unfold t, c; lia). change (2^1) with 2. ring. }
        destruct s; [rewrite Z.mul_opp_l|]; now rewrite HMq. }
      pose proof (value_decode mb eb b ltac:(lia) ltac:(lia)) as Hwd. rewrite Hw in Hwd.
      destruct (ieee_decode mb eb b) as [[[sb Mb] Eb]|] eqn:Hdb; [|easy].
      destruct (decode_bounds mb eb b sb Mb Eb Hf Hdb) as [HMb [HEb _]]. fold emin in HEb.
      assert (Hwq : (w == inject_Z ((if sb then - Mb else Mb) * 2^(Eb - c)) * pow2Q c)%Q).
      { rewrite Hwd. apply unscale. unfold c. lia. }
      set (Y := if eqb s sb then Mb else - Mb).
      assert (Hcore := nearest_core mb eb m e Hf Hm). cbv zeta in Hcore. fold emin in Hcore. fold k in Hcore.
      fold t in Hcore. fold q in Hcore.
      specialize (Hcore c Y Mb Eb ltac:(unfold c; lia) ltac:(unfold c; lia) ltac:(unfold c; lia) HEb HMb
        ltac:(unfold Y; destruct (eqb s sb); auto)).
      set (A := q * 2^(t - c)) in *. set (X := m * 2^(e - c)) in *. set (W := 2^(Eb - c)) in *.
      assert (HYW : (if sb then - Mb else Mb) * W = if s then - (Y * W) else Y * W).
      { unfold Y. destruct s, sb; cbn [eqb]; ring. }
      rewrite HYW in Hwq.
      assert (HAbs : forall B, Z.abs ((if s then - B else B) - (if s then - X else X)) = Z.abs (B - X)).
      { intros B. destruct s; lia. }
      rewrite Hvq, Hwq, Hx. destruct Hcore as [C1 C2]. split.
      * apply scaled_le. destruct s; lia.
      * intros Heq. assert (HeqZ : Z.abs (A - X) = Z.abs (Y * W - X)).
        { apply Z.le_antisymm.
          - exact C1.
          - assert (Hle := Qle_refl (Qabs (v - 0))). clear Hle.
            assert (Hle : (Qabs (inject_Z (if s then - (Y * W) else Y * W) * pow2Q c - inject_Z (if s then - X else X) * pow2Q c)
              <= Qabs (inject_Z (if s then - A else A) * pow2Q c - inject_Z (if s then - X else X) * pow2Q c))%Q).
            { rewrite Heq. apply Qle_refl. }
            apply scaled_le in Hle. destruct s; lia. }
        destruct (C2 HeqZ) as [C|C]; [left|right].
        -- rewrite C. reflexivity.
        -- now apply even_bits.
    + intros Hge. apply Hlim in Hge. rewrite E, Z.min_r by lia. unfold infinity. reflexivity.
Qed.
