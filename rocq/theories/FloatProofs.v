(** Proofs about the floating point conversions of FloatModel.v. *)

From Coq Require Import ZArith List Bool Lia QArith Qpower Qabs Lqa.
From Verif Require Import Base BaseProofs AtomSModel FloatModel AtomSpec.
Import ListNotations.
Open Scope Z_scope.

Lemma pow2_pos n : 0 < 2^n \/ n < 0.
Proof. destruct (Z_lt_le_dec n 0); [now right|left]. apply Z.pow_pos_nonneg; lia. Qed.

Definition pow2Q (e : Z) : Q := ((2#1)^e)%Q.
Lemma pow2Q_nonneg e : 0 <= e -> (pow2Q e == inject_Z (2^e))%Q.
Proof. intros H. unfold pow2Q. now rewrite Zpower_Qpower. Qed.
Lemma pow2Q_neg e : e < 0 -> (pow2Q e == / inject_Z (2^(- e)))%Q.
Proof.
  intros H. unfold pow2Q. rewrite Zpower_Qpower by lia.
  replace e with (- - e) at 1 by lia. now rewrite Qpower_opp.
Qed.
Lemma pow2Q_add a b : (pow2Q (a + b) == pow2Q a * pow2Q b)%Q.
Proof. unfold pow2Q. apply Qpower_plus. discriminate. Qed.
Lemma pow2Q_pos e : (0 < pow2Q e)%Q.
Proof. unfold pow2Q. apply Qpower_0_lt. reflexivity. Qed.
Lemma injQ_pos z : 0 < z -> (0 < inject_Z z)%Q.
Proof. intros H. change 0%Q with (inject_Z 0). now rewrite <- Zlt_Qlt. Qed.

(** The two descriptions of a bit pattern agree. *)
Lemma value_decode mb eb bits : 0 <= mb -> 0 <= eb ->
  match ieee_value mb eb bits, ieee_decode mb eb bits with
  | Some q, Some (s, m, e) => (q == inject_Z (if s : bool then - m else m) * pow2Q e)%Q
  | None, None => True
  | _, _ => False
  end.
Proof.
  intros Hm He. unfold ieee_value, ieee_decode.
  destruct (bits / 2^mb mod 2^eb =? 2^eb - 1); [exact I|].
  assert (Hs : Z.testbit bits (mb + eb) = (bits / 2^(mb + eb) mod 2 =? 1)).
  { rewrite Z.testbit_odd, Z.shiftr_div_pow2 by lia.
    rewrite Zmod_odd. now destruct (Z.odd (bits / 2 ^ (mb + eb))). }
  rewrite Hs.
  set (b := bits / 2^(mb + eb) mod 2 =? 1). set (m := bits mod 2^mb).
  set (E := bits / 2^mb mod 2^eb). clearbody b m E. clear Hs.
  assert (Hp : (0 < inject_Z (2^mb))%Q) by (apply injQ_pos; destruct (pow2_pos mb); lia).
  assert (Hmb : (pow2Q (- mb) == / inject_Z (2^mb))%Q).
  { unfold pow2Q. rewrite Qpower_opp, Zpower_Qpower by lia. reflexivity. }
  set (bias := 2^(eb - 1) - 1).
  destruct (E =? 0).
  - replace (1 - bias - mb) with (1 - bias + - mb) by lia.
    rewrite pow2Q_add. change ((2 # 1) ^ (1 - bias))%Q with (pow2Q (1 - bias)).
    rewrite Hmb. destruct b; rewrite ?inject_Z_opp; field; lra.
  - replace (E - bias - mb) with (E - bias + - mb) by lia.
    rewrite pow2Q_add. change ((2 # 1) ^ (E - bias))%Q with (pow2Q (E - bias)).
    rewrite Hmb. destruct b; rewrite ?inject_Z_opp, ?inject_Z_plus; field; lra.
Qed.

(** * Truncation *)

Lemma trunc_magnitude m e : 0 <= m ->
  let v := if 0 <=? e then m * 2^e else m / 2^(- e) in
  0 <= v /\ (inject_Z v <= inject_Z m * pow2Q e < inject_Z (v + 1))%Q.
Proof.
  intros Hm. destruct (0 <=? e) eqn:E; cbv zeta; [apply Z.leb_le in E|apply Z.leb_gt in E].
  - destruct (pow2_pos e); [|lia]. split; [apply Z.mul_nonneg_nonneg; lia|].
    rewrite pow2Q_nonneg by exact E. rewrite inject_Z_plus, inject_Z_mult. change (inject_Z 1) with 1%Q. lra.
  - set (d := 2^(- e)). assert (Hd : 0 < d) by (unfold d; destruct (pow2_pos (- e)); lia).
    split; [apply Z.div_pos; lia|]. rewrite pow2Q_neg by exact E. fold d. clearbody d.
    assert (Hq : (0 < inject_Z d)%Q) by now apply injQ_pos.
    change (inject_Z m * / inject_Z d)%Q with (inject_Z m / inject_Z d)%Q. split.
    + apply Qle_shift_div_l; [exact Hq|]. rewrite <- inject_Z_mult, <- Zle_Qle.
      rewrite Z.mul_comm. now apply Z.mul_div_le.
    + apply Qlt_shift_div_r; [exact Hq|]. rewrite <- inject_Z_mult, <- Zlt_Qlt.
      rewrite Z.mul_comm. now apply Z.mul_succ_div_gt.
Qed.

Lemma ieee_trunc_ok mb eb bits : 0 <= mb -> 0 <= eb ->
  match ieee_value mb eb bits with
  | Some q => exists z, ieee_trunc mb eb bits = Some z /\ truncates_to q z
  | None => ieee_trunc mb eb bits = None
  end.
Proof.
  intros Hm He. pose proof (value_decode mb eb bits Hm He) as H.
  unfold ieee_trunc. unfold ieee_decode in H.
  destruct (bits / 2^mb mod 2^eb =? 2^eb - 1) eqn:E.
  - now destruct (ieee_value mb eb bits).
  - destruct (ieee_value mb eb bits) as [q|]; [|easy].
    set (mant := if bits / 2^mb mod 2^eb =? 0 then bits mod 2^mb else bits mod 2^mb + 2^mb) in *.
    set (ex := (if bits / 2^mb mod 2^eb =? 0 then 1 else bits / 2^mb mod 2^eb) - (2^(eb - 1) - 1) - mb) in *.
    assert (Hmant : 0 <= mant).
    { unfold mant. destruct (pow2_pos mb); [|lia].
      pose proof (Z.mod_pos_bound bits (2^mb) ltac:(assumption)).
      destruct (bits / 2^mb mod 2^eb =? 0); lia. }
    pose proof (trunc_magnitude mant ex Hmant) as T. cbv zeta in T.
    set (v := if 0 <=? ex then mant * 2^ex else mant / 2^(- ex)) in *.
    destruct T as (Hv & T1 & T2). clearbody mant ex v.
    destruct (bits / 2^(mb + eb) mod 2 =? 1).
    + exists (- v). split; [reflexivity|].
      unfold truncates_to. rewrite H, inject_Z_opp.
      unfold Zminus. rewrite !inject_Z_plus, !inject_Z_opp.
      rewrite inject_Z_plus in T2. change (inject_Z 1) with 1%Q in *.
      assert (Hv' : (0 <= inject_Z v)%Q) by (change 0%Q with (inject_Z 0); now rewrite <- Zle_Qle).
      set (x := (inject_Z mant * pow2Q ex)%Q) in *.
      setoid_replace (- inject_Z mant * pow2Q ex)%Q with (- x)%Q by (unfold x; ring).
      clearbody x. split; intros Hq; split; lra.
    + exists v. split; [reflexivity|].
      unfold truncates_to. rewrite H.
      unfold Zminus. rewrite !inject_Z_plus, !inject_Z_opp.
      rewrite inject_Z_plus in T2. change (inject_Z 1) with 1%Q in *.
      assert (Hv' : (0 <= inject_Z v)%Q) by (change 0%Q with (inject_Z 0); now rewrite <- Zle_Qle).
      set (x := (inject_Z mant * pow2Q ex)%Q) in *. clearbody x. split; intros Hq; split; lra.
Qed.

Lemma truncates_unique q z z' : truncates_to q z -> truncates_to q z' -> z = z'.
Proof.
  intros [H1 H2] [H3 H4]. destruct (Qlt_le_dec q 0) as [Hq|Hq].
  - destruct (H2 (Qlt_le_weak _ _ Hq)) as [A B]. destruct (H4 (Qlt_le_weak _ _ Hq)) as [C D].
    assert (X : (inject_Z (z - 1) < inject_Z z')%Q) by lra. assert (Y : (inject_Z (z' - 1) < inject_Z z)%Q) by lra.
    rewrite <- Zlt_Qlt in X, Y. lia.
  - destruct (H1 Hq) as [A B]. destruct (H3 Hq) as [C D].
    assert (X : (inject_Z z < inject_Z (z' + 1))%Q) by lra. assert (Y : (inject_Z z' < inject_Z (z + 1))%Q) by lra.
    rewrite <- Zlt_Qlt in X, Y. lia.
Qed.

(** * Rounding a representable number *)

Definition fmt (mb eb : Z) : Prop := 1 <= mb /\ 2 <= eb.

Lemma pow2_ge1 n : 0 <= n -> 1 <= 2^n.
Proof. intros H. destruct (pow2_pos n); lia. Qed.

(** The fields of a bit pattern put together from a sign, [k] and [q]. *)
Lemma decode_normal mb eb (s : bool) k q : fmt mb eb -> 0 <= k < 2^eb - 2 -> 2^mb <= q < 2^(mb + 1) ->
  ieee_decode mb eb ((if s then 2^(mb + eb) else 0) + (k * 2^mb + q)) =
    Some (s, q, k + 1 - (2^(eb - 1) - 1) - mb).
Proof.
  intros [Hm He] Hk Hq. unfold ieee_decode.
  pose proof (pow2_ge1 mb ltac:(lia)) as Hp. pose proof (pow2_ge1 eb ltac:(lia)) as Hpe.
  rewrite Z.pow_add_r in Hq by lia. change (2^1) with 2 in Hq.
  set (P := 2^mb) in *. set (F := 2^eb) in *.
  assert (Hmod : forall c, ((c * F) * P + (k * P + q)) mod P = q - P).
  { intros c. symmetry. apply (Z.mod_unique_pos _ _ (c * F + k + 1)); [lia|]. ring. }
  assert (Hdiv : forall c, ((c * F) * P + (k * P + q)) / P = c * F + k + 1).
  { intros c. symmetry. apply (Z.div_unique_pos _ _ _ (q - P)); [lia|]. ring. }
  assert (Hx : (if s then 2^(mb + eb) else 0) + (k * P + q) = ((if s then 1 else 0) * F) * P + (k * P + q)).
  { rewrite Z.pow_add_r by lia. fold P F. destruct s; ring. }
  rewrite Hx. clear Hx. set (c := if s then 1 else 0). rewrite Hmod, Hdiv.
  assert (Hexp : (c * F + k + 1) mod F = k + 1).
  { symmetry. apply (Z.mod_unique_pos _ _ c); [lia|]. ring. }
  rewrite Hexp. rewrite (proj2 (Z.eqb_neq (k + 1) (F - 1))) by lia. rewrite (proj2 (Z.eqb_neq (k + 1) 0)) by lia.
  assert (Hs : (c * F * P + (k * P + q)) / 2^(mb + eb) mod 2 = c).
  { rewrite Z.pow_add_r by lia. fold P F. rewrite <- Z.div_div by lia. rewrite Hdiv.
    replace ((c * F + k + 1) / F) with c; [unfold c; now destruct s|].
    apply (Z.div_unique_pos _ _ _ (k + 1)); [lia|]. ring. }
  rewrite Hs. replace (q - P + P) with q by lia. unfold c. now destruct s.
Qed.

Lemma round_exact mb eb s m e : fmt mb eb -> 0 < m < 2^(mb + 1) ->
  2 - 2^(eb - 1) <= Z.log2 m + e < 2^(eb - 1) ->
  ieee_decode mb eb (ieee_round mb eb s m e) =
    Some (s, m * 2^(mb - Z.log2 m), Z.log2 m + e - mb).
Proof.
  intros Hf [Hm0 Hm] [Hlo Hhi]. destruct Hf as [Hb He]. unfold ieee_round.
  rewrite (proj2 (Z.eqb_neq m 0)) by lia.
  set (n := Z.log2 m) in *. set (emin := 2 - 2^(eb - 1)) in *.
  assert (Hn : 0 <= n <= mb).
  { split; [apply Z.log2_nonneg|]. assert (n < mb + 1); [|lia]. apply Z.log2_lt_pow2; lia. }
  rewrite Z.max_l by lia.
  destruct (n + e - mb <=? e) eqn:E; [|apply Z.leb_gt in E; lia].
  replace (e - (n + e - mb)) with (mb - n) by lia.
  destruct (n + e <? emin) eqn:E'; [apply Z.ltb_lt in E'; lia|].
  destruct (Z.log2_spec m Hm0) as [L1 L2]. fold n in L1, L2.
  rewrite Z.pow_succ_r in L2 by lia.
  assert (Hq : 2^mb <= m * 2^(mb - n) < 2^(mb + 1)).
  { replace mb with (n + (mb - n)) at 1 by lia. rewrite Z.pow_add_r by lia.
    replace (mb + 1) with (1 + n + (mb - n)) by lia. rewrite !Z.pow_add_r by lia.
    change (2^1) with 2. pose proof (pow2_ge1 (mb - n) ltac:(lia)). split; nia. }
  set (q := m * 2^(mb - n)) in *. set (k := n + e - emin).
  assert (Hhalf : 2^eb = 2 * 2^(eb - 1)).
  { replace eb with (1 + (eb - 1)) at 1 by lia. rewrite Z.pow_add_r by lia. reflexivity. }
  assert (Hk : 0 <= k < 2^eb - 2) by (unfold k, emin in *; lia).
  rewrite Z.min_l.
  - rewrite decode_normal by (try assumption; split; lia). f_equal. f_equal. unfold k, emin. lia.
  - rewrite Z.pow_add_r in Hq by lia. change (2^1) with 2 in Hq.
    assert (k + 2 <= 2^eb - 1) by lia. pose proof (pow2_ge1 mb ltac:(lia)). nia.
Qed.

Lemma round_exact_value mb eb s m e : fmt mb eb -> 0 < m < 2^(mb + 1) ->
  2 - 2^(eb - 1) <= Z.log2 m + e < 2^(eb - 1) ->
  exists q, ieee_value mb eb (ieee_round mb eb s m e) = Some q /\
    (q == inject_Z (if s then - m else m) * pow2Q e)%Q.
Proof.
  intros Hf Hm He. pose proof (value_decode mb eb (ieee_round mb eb s m e)
    ltac:(destruct Hf; lia) ltac:(destruct Hf; lia)) as H.
  rewrite round_exact in H by assumption.
  destruct (ieee_value mb eb (ieee_round mb eb s m e)) as [q|]; [|easy].
  exists q. split; [reflexivity|]. rewrite H.
  assert (Hn : 0 <= mb - Z.log2 m).
  { assert (Z.log2 m < mb + 1); [|lia]. apply Z.log2_lt_pow2; lia. }
  replace (Z.log2 m + e - mb) with (e + - (mb - Z.log2 m)) by lia. rewrite pow2Q_add.
  assert (Hp : (pow2Q (- (mb - Z.log2 m)) == / inject_Z (2^(mb - Z.log2 m)))%Q).
  { unfold pow2Q. rewrite Qpower_opp, Zpower_Qpower by lia. reflexivity. }
  rewrite Hp.
  assert (Hpos : (0 < inject_Z (2^(mb - Z.log2 m)))%Q) by (apply injQ_pos; pose proof (pow2_ge1 _ Hn); lia).
  destruct s; rewrite ?inject_Z_opp, inject_Z_mult; field; lra.
Qed.

Lemma round_zero mb eb s e : fmt mb eb ->
  exists q, ieee_value mb eb (ieee_round mb eb s 0 e) = Some q /\ (q == 0)%Q.
Proof.
  intros [Hm He]. unfold ieee_round. cbn [Z.eqb].
  pose proof (value_decode mb eb (if s then 2^(mb + eb) else 0) ltac:(lia) ltac:(lia)) as H.
  unfold ieee_decode in H.
  assert (Hmod : (if s then 2^(mb + eb) else 0) mod 2^mb = 0).
  { destruct s; [|now apply Z.mod_0_l, Z.pow_nonzero; lia]. rewrite Z.pow_add_r, Z.mul_comm by lia.
    apply Z.mod_mul. apply Z.pow_nonzero; lia. }
  assert (Hexp : (if s then 2^(mb + eb) else 0) / 2^mb mod 2^eb = 0).
  { destruct s.
    - rewrite Z.pow_add_r, Z.mul_comm, Z.div_mul by (try apply Z.pow_nonzero; lia).
      apply Z.mod_same, Z.pow_nonzero; lia.
    - rewrite Z.div_0_l by (apply Z.pow_nonzero; lia). apply Z.mod_0_l, Z.pow_nonzero; lia. }
  rewrite Hmod, Hexp in H.
  assert (H2 : 4 <= 2^eb). { change 4 with (2^2). apply Z.pow_le_mono_r; lia. }
  rewrite (proj2 (Z.eqb_neq 0 (2^eb - 1))) in H by lia. cbn [Z.eqb] in H.
  destruct (ieee_value mb eb (if s then 2^(mb + eb) else 0)) as [q|]; [|easy].
  exists q. split; [reflexivity|]. rewrite H.
  destruct (_ =? 1); change (- 0)%Z with 0%Z; change (inject_Z 0) with 0%Q; ring.
Qed.

(** * Integers *)

Lemma int_exact mb eb z : fmt mb eb -> mb + 2 <= 2^(eb - 1) -> Z.abs z < 2^(mb + 1) ->
  exists q, ieee_value mb eb (ieee_round mb eb (z <? 0) (Z.abs z) 0) = Some q /\ (q == inject_Z z)%Q.
Proof.
  intros Hf Hr Hz. destruct (Z.eq_dec z 0) as [-> | Hn].
  - cbn [Z.abs]. destruct (round_zero mb eb (0 <? 0) 0 Hf) as (q & H1 & H2). exists q. split; [exact H1|].
    exact H2.
  - destruct (round_exact_value mb eb (z <? 0) (Z.abs z) 0 Hf) as (q & H1 & H2).
    + lia.
    + pose proof (Z.log2_nonneg (Z.abs z)). destruct Hf.
      assert (Z.log2 (Z.abs z) < mb + 1) by (apply Z.log2_lt_pow2; lia). lia.
    + exists q. split; [exact H1|]. rewrite H2. change (pow2Q 0) with 1%Q.
      destruct (z <? 0) eqn:E; [apply Z.ltb_lt in E|apply Z.ltb_ge in E].
      * rewrite Z.abs_neq, Z.opp_involutive by lia. ring.
      * rewrite Z.abs_eq by lia. ring.
Qed.

Lemma float_of_int_exact z : Z.abs z <= 2^24 ->
  exists q, float_value (float_of_int z) = Some q /\ (q == inject_Z z)%Q.
Proof.
  intros Hz. destruct (Z.eq_dec (Z.abs z) (2^24)) as [E|E].
  - assert (z = 2^24 \/ z = - 2^24) as [-> | ->] by lia; (eexists; split; [reflexivity|]; reflexivity).
  - apply int_exact; [split; lia|vm_compute; discriminate|]. change (23 + 1) with 24. lia.
Qed.
Lemma double_of_int_exact z : Z.abs z <= 2^53 ->
  exists q, double_value (double_of_int z) = Some q /\ (q == inject_Z z)%Q.
Proof.
  intros Hz. destruct (Z.eq_dec (Z.abs z) (2^53)) as [E|E].
  - assert (z = 2^53 \/ z = - 2^53) as [-> | ->] by lia; (eexists; split; [reflexivity|]; reflexivity).
  - apply int_exact; [split; lia|vm_compute; discriminate|]. change (52 + 1) with 53. lia.
Qed.

(** * Between the formats *)

Lemma decode_bounds mb eb bits s m e : fmt mb eb -> ieee_decode mb eb bits = Some (s, m, e) ->
  0 <= m < 2^(mb + 1) /\ 2 - 2^(eb - 1) - mb <= e <= 2^(eb - 1) - 1 - mb.
Proof.
  intros [Hm He]. unfold ieee_decode.
  pose proof (pow2_ge1 mb ltac:(lia)). pose proof (pow2_ge1 eb ltac:(lia)).
  pose proof (Z.mod_pos_bound bits (2^mb) ltac:(lia)).
  pose proof (Z.mod_pos_bound (bits / 2^mb) (2^eb) ltac:(lia)).
  assert (2^eb = 2 * 2^(eb - 1)).
  { replace eb with (1 + (eb - 1)) at 1 by lia. rewrite Z.pow_add_r by lia. reflexivity. }
  rewrite (Z.pow_add_r 2 mb 1) by lia. change (2^1) with 2.
  pose proof (pow2_ge1 (eb - 1) ltac:(lia)).
  assert (2 <= 2^(eb - 1)). { change 2 with (2^1) at 1. apply Z.pow_le_mono_r; lia. }
  destruct (bits / 2^mb mod 2^eb =? 2^eb - 1) eqn:E; [discriminate|]. apply Z.eqb_neq in E.
  intros X. injection X as <- <- <-. set (x := bits / 2^mb mod 2^eb) in *. set (y := bits mod 2^mb) in *.
  clearbody x y. destruct (x =? 0) eqn:E0; [|apply Z.eqb_neq in E0]; lia.
Qed.

Lemma double_of_float_exact bits q : float_value bits = Some q ->
  exists q', double_value (double_of_float bits) = Some q' /\ (q' == q)%Q.
Proof.
  intros Hq. pose proof (value_decode 23 8 bits ltac:(lia) ltac:(lia)) as H.
  fold (float_value bits) in H. rewrite Hq in H.
  unfold double_of_float, ieee_convert.
  destruct (ieee_decode 23 8 bits) as [[[s m] e]|] eqn:Ed; [|easy].
  destruct (decode_bounds 23 8 bits s m e ltac:(split; lia) Ed) as [Hm He].
  change (2^(23 + 1)) with 16777216 in Hm. change (2^(8 - 1)) with 128 in He.
  destruct (Z.eq_dec m 0) as [-> | Hz].
  - destruct (round_zero 52 11 s e ltac:(split; lia)) as (q' & H1 & H2). exists q'. split; [exact H1|].
    rewrite H2, H. destruct s; change (- 0)%Z with 0%Z; change (inject_Z 0) with 0%Q; ring.
  - assert (Hl : 0 <= Z.log2 m < 24).
    { split; [apply Z.log2_nonneg|]. apply Z.log2_lt_pow2; lia. }
    destruct (round_exact_value 52 11 s m e ltac:(split; lia)) as (q' & H1 & H2).
    + change (2^(52 + 1)) with 9007199254740992. lia.
    + change (2^(11 - 1)) with 1024. lia.
    + exists q'. split; [exact H1|]. now rewrite H2, H.
Qed.

(** * Sign *)

Lemma lxor_pow2 n k : 0 <= k -> 0 <= n < 2^(k + 1) ->
  Z.lxor n (2^k) = if n <? 2^k then n + 2^k else n - 2^k.
Proof.
  intros Hk Hn. rewrite Z.pow_add_r in Hn by lia. change (2^1) with 2 in Hn.
  assert (Hlow : forall r, 0 <= r < 2^k -> Z.lxor r (2^k) = r + 2^k).
  { intros r Hr. symmetry. apply Z.add_nocarry_lxor. apply Z.bits_inj'. intros i Hi.
    rewrite Z.land_spec, Z.bits_0. destruct (Z.eq_dec i k) as [-> | Hik].
    - replace (Z.testbit r k) with false; [reflexivity|]. symmetry.
      destruct (Z.eq_dec r 0) as [-> | Hr0]; [apply Z.bits_0|].
      apply Z.bits_above_log2; [lia|]. apply Z.log2_lt_pow2; lia.
    - rewrite Z.pow2_bits_false by (now apply not_eq_sym). apply andb_false_r. }
  destruct (n <? 2^k) eqn:E; [apply Z.ltb_lt in E|apply Z.ltb_ge in E].
  - apply Hlow. lia.
  - replace n with (Z.lxor (n - 2^k) (2^k)) at 1 by (rewrite Hlow; lia).
    rewrite Z.lxor_assoc, Z.lxor_nilpotent, Z.lxor_0_r. reflexivity.
Qed.

Lemma value_flip mb eb n : fmt mb eb -> 0 <= n < 2^(mb + eb + 1) ->
  match ieee_value mb eb n, ieee_value mb eb (Z.lxor n (2^(mb + eb))) with
  | Some q, Some q' => (q' == - q)%Q
  | None, None => True
  | _, _ => False
  end.
Proof.
  intros [Hm He] Hn. pose proof (value_decode mb eb n ltac:(lia) ltac:(lia)) as H1.
  pose proof (value_decode mb eb (Z.lxor n (2^(mb + eb))) ltac:(lia) ltac:(lia)) as H2.
  rewrite lxor_pow2 in * by lia. rewrite Z.pow_add_r in Hn by lia. change (2^1) with 2 in Hn.
  set (n' := if n <? 2^(mb + eb) then n + 2^(mb + eb) else n - 2^(mb + eb)) in *.
  pose proof (pow2_ge1 mb ltac:(lia)). pose proof (pow2_ge1 eb ltac:(lia)).
  assert (Hpow : 2^(mb + eb) = 2^eb * 2^mb) by (rewrite Z.pow_add_r by lia; ring).
  assert (Hmod : n' mod 2^mb = n mod 2^mb).
  { unfold n'. rewrite Hpow. destruct (n <? 2^eb * 2^mb).
    - apply Z.mod_add. lia.
    - unfold Z.sub. rewrite <- Z.mul_opp_l. apply Z.mod_add. lia. }
  assert (Hexp : n' / 2^mb mod 2^eb = n / 2^mb mod 2^eb).
  { unfold n'. rewrite Hpow. destruct (n <? 2^eb * 2^mb).
    - rewrite Z.div_add by lia. rewrite <- (Z.mul_1_l (2^eb)) at 1. apply Z.mod_add. lia.
    - unfold Z.sub. rewrite <- Z.mul_opp_l, Z.div_add by lia.
      replace (- 2^eb) with ((-1) * 2^eb) by lia. apply Z.mod_add. lia. }
  assert (Hs : (n' / 2^(mb + eb) mod 2 =? 1) = negb (n / 2^(mb + eb) mod 2 =? 1)).
  { assert (X : forall r, 0 <= r < 2 * 2^(mb + eb) -> (r / 2^(mb + eb) mod 2 =? 1) = negb (r <? 2^(mb + eb))).
    { intros r Hr. destruct (r <? 2^(mb + eb)) eqn:E; [apply Z.ltb_lt in E|apply Z.ltb_ge in E].
      - rewrite Z.div_small by lia. reflexivity.
      - replace (r / 2^(mb + eb)) with 1; [reflexivity|].
        apply (Z.div_unique_pos _ _ _ (r - 2^(mb + eb))); lia. }
    assert (Hn' : 0 <= n' < 2 * 2^(mb + eb)).
    { unfold n'. destruct (n <? 2^(mb + eb)) eqn:E; [apply Z.ltb_lt in E|apply Z.ltb_ge in E]; lia. }
    rewrite !X by lia. f_equal. unfold n'.
    destruct (n <? 2^(mb + eb)) eqn:E; [apply Z.ltb_lt in E|apply Z.ltb_ge in E].
    - apply Z.ltb_ge. lia.
    - apply Z.ltb_lt. lia. }
  unfold ieee_decode in H1, H2. rewrite Hmod, Hexp, Hs in H2.
  destruct (n / 2^mb mod 2^eb =? 2^eb - 1).
  - destruct (ieee_value mb eb n); [easy|]. now destruct (ieee_value mb eb n').
  - destruct (ieee_value mb eb n) as [q|]; [|easy]. destruct (ieee_value mb eb n') as [q'|]; [|easy].
    rewrite H1, H2. destruct (_ =? 1); cbn [negb]; rewrite inject_Z_opp; ring.
Qed.
