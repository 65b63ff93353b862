(** Rounding a quotient by way of one more bit that tells whether the division
    was exact. *)

From Coq Require Import ZArith List Bool QArith Qabs Lia Lqa.
From Verif Require Import Base AtomSpec RoundSpec FloatModel FloatProofs RoundProofs RoundProps.
Open Scope Z_scope.

Definition sgn (s : bool) (x : Q) : Q := if s then (- x)%Q else x.

Lemma sgn_sgn s x : (sgn s (sgn s x) == x)%Q.
Proof. destruct s; cbn; ring. Qed.
Lemma sgn_dist s w y : (Qabs (w - sgn s y) == Qabs (sgn s w - y))%Q.
Proof.
  destruct s; cbn [sgn]; [|reflexivity]. rewrite <- Qabs_opp.
  assert (E : (- (w - - y) == - w - y)%Q) by ring. now rewrite E.
Qed.

(** Numbers of the format are multiples of 2^t, t the unit at 2^top, unless they
    are smaller than 2^top. *)
Lemma grid mb eb top b w s : fmt mb eb -> ieee_value mb eb b = Some w ->
  let emin := 2 - 2^(eb - 1) in
  let t := Z.max top emin - mb in
  (exists n, sgn s w == inject_Z n * pow2Q t)%Q \/
  (emin < top /\ (Qabs (sgn s w) < pow2Q top)%Q).
Proof.
  intros Hf Hw emin t. pose proof Hf as [Hm He].
  pose proof (value_decode mb eb b ltac:(lia) ltac:(lia)) as H. rewrite Hw in H.
  destruct (ieee_decode mb eb b) as [[[s0 m] e]|] eqn:D; [|destruct H].
  destruct (decode_bounds mb eb b s0 m e Hf D) as [Bm Be].
  set (z := if s0 then - m else m) in *.
  assert (Hz : (sgn s w == inject_Z (if s then - z else z) * pow2Q e)%Q).
  { destruct s; cbn [sgn]; rewrite H; [rewrite inject_Z_opp|]; ring. }
  destruct (Z_le_gt_dec t e) as [L|G].
  - left. exists ((if s then - z else z) * 2^(e - t)). rewrite Hz. now apply unscale.
  - right. assert (emin < top) by (unfold t, emin in *; lia). split; [assumption|].
    rewrite Hz, Qabs_Qmult. rewrite (Qabs_pos (pow2Q e)) by (apply Qlt_le_weak, pow2Q_pos).
    assert (Ha : (Qabs (inject_Z (if s then - z else z)) == inject_Z m)%Q).
    { unfold Qabs, inject_Z. assert (Z.abs (if s then - z else z) = m) as -> by (unfold z; destruct s, s0; lia). reflexivity. }
    rewrite Ha. replace top with ((top - e) + e) by lia. rewrite pow2Q_add.
    apply Qmult_lt_r; [apply pow2Q_pos|]. rewrite (pow2Q_nonneg (top - e)) by (unfold t, emin in *; lia).
    rewrite <- Zlt_Qlt. apply Z.lt_le_trans with (2^(mb + 1)); [lia|]. apply Z.pow_le_mono_r; unfold t, emin in *; lia.
Qed.

Lemma pow2Q_lt a b : a < b -> (pow2Q a < pow2Q b)%Q.
Proof.
  intros H. replace b with ((b - a) + a) by lia. rewrite pow2Q_add, (pow2Q_nonneg (b - a)) by lia.
  pose proof (pow2Q_pos a). assert (Hp : 2 <= 2^(b - a)).
  { replace (b - a) with (1 + (b - a - 1)) by lia. rewrite Z.pow_add_r by lia. change (2^1) with 2.
    pose proof (pow2_ge1 (b - a - 1) ltac:(lia)). lia. }
  rewrite Zle_Qle in Hp. assert (K : (inject_Z 2 * pow2Q a <= inject_Z (2^(b-a)) * pow2Q a)%Q) by (apply Qmult_le_compat_r; lra).
  change (inject_Z 2) with 2%Q in K. lra.
Qed.

(** Between two even integers no rounding decision changes. *)
Section Transfer.
Context (mb eb : Z) (s : bool) (q e : Z) (y : Q) (d : Z).
Context (Hf : fmt mb eb).
Context (Hq : mb + 2 <= Z.log2 (2 * q + 1)).
Context (Hq0 : 0 < q).
Context (Hy : (inject_Z (2 * q) < y < inject_Z (2 * q + 2))%Q).

Let emin := 2 - 2^(eb - 1).
Let top := Z.log2 (2 * q + 1) + e.
Let t := Z.max top emin - mb.
Let P := pow2Q e.

Lemma P_pos : (0 < P)%Q.
Proof. apply pow2Q_pos. Qed.

Lemma low_bound : 2^(Z.log2 (2 * q + 1)) <= 2 * q.
Proof.
  pose proof (Z.log2_spec (2 * q + 1) ltac:(lia)) as [L _].
  assert (Ev : exists k, 2^(Z.log2 (2 * q + 1)) = 2 * k).
  { exists (2^(Z.log2 (2 * q + 1) - 1)). rewrite <- (Z.pow_succ_r 2) by (destruct Hf; lia). f_equal. lia. }
  destruct Ev as [k Ek]. lia.
Qed.

Lemma top_le : (pow2Q top <= inject_Z (2 * q) * P)%Q.
Proof.
  unfold top, P. rewrite pow2Q_add. rewrite (pow2Q_nonneg (Z.log2 (2 * q + 1))) by apply Z.log2_nonneg.
  apply Qmult_le_compat_r; [rewrite <- Zle_Qle; apply low_bound|apply Qlt_le_weak, P_pos].
Qed.

Lemma t_e : e + 2 <= t.
Proof. unfold t, top. lia. Qed.

Lemma even4 n : exists k, (inject_Z n * pow2Q t == inject_Z (4 * k) * P)%Q.
Proof.
  exists (n * 2^(t - e - 2)). pose proof t_e. rewrite (unscale n t e) by lia. unfold P.
  replace (n * 2^(t - e)) with (4 * (n * 2^(t - e - 2))); [reflexivity|].
  replace (t - e) with (2 + (t - e - 2)) at 2 by lia. rewrite (Z.pow_add_r 2 2) by lia. change (2^2) with 4. ring.
Qed.

(** The decision between two numbers of the grid. *)
Lemma decide a b :
  (Qabs (inject_Z (4 * a) * P - inject_Z (2 * q + 1) * P) <= Qabs (inject_Z (4 * b) * P - inject_Z (2 * q + 1) * P))%Q ->
  a = b \/ (Qabs (inject_Z (4 * a) * P - y * P) < Qabs (inject_Z (4 * b) * P - y * P))%Q.
Proof.
  intros H. unfold P in H. apply scaled_le in H. destruct (Z.eq_dec a b) as [E|N]; [now left|right].
  assert (S : forall x, (Qabs (x * P - y * P) == Qabs (x - y) * P)%Q).
  { intros x. assert (E : (x * P - y * P == (x - y) * P)%Q) by ring. rewrite E, Qabs_Qmult.
    rewrite (Qabs_pos P) by (apply Qlt_le_weak, P_pos). reflexivity. }
  rewrite !S. apply Qmult_lt_r; [apply P_pos|]. destruct Hy as [Y1 Y2].
  destruct (Z_lt_le_dec a b) as [L|L].
  - assert (K : 2 * q + 2 <= 2 * a + 2 * b) by lia. rewrite Zle_Qle in K.
    rewrite !inject_Z_plus, !inject_Z_mult in *. rewrite Zlt_Qlt in L.
    change (inject_Z 2) with 2%Q in *. change (inject_Z 4) with 4%Q in *.
    apply Qabs_case; intros ?; apply Qabs_case; intros ?; lra.
  - assert (K : 2 * a + 2 * b <= 2 * q) by lia. rewrite Zle_Qle in K. assert (L' : b < a) by lia. rewrite Zlt_Qlt in L'.
    rewrite !inject_Z_plus, !inject_Z_mult in *.
    change (inject_Z 2) with 2%Q in *. change (inject_Z 4) with 4%Q in *.
    apply Qabs_case; intros ?; apply Qabs_case; intros ?; lra.
Qed.

Lemma limit_same :
  (y * P < overflow_limit mb eb <-> inject_Z (2 * q + 1) * P < overflow_limit mb eb)%Q.
Proof.
  unfold overflow_limit. set (l := 2^(eb - 1) - mb - 2). fold (pow2Q l). destruct Hy as [Y1 Y2].
  pose proof P_pos as HP. destruct Hf as [Hm He].
  destruct (Z_lt_le_dec e l) as [G|G].
  - assert (E : (inject_Z (2^(mb + 2) - 1) * pow2Q l == inject_Z (2 * ((2^(mb + 2) - 1) * 2^(l - e - 1))) * P)%Q).
    { rewrite (unscale _ l e) by lia. unfold P. replace (l - e) with (1 + (l - e - 1)) at 1 by lia.
      rewrite (Z.pow_add_r 2 1) by lia. change (2^1) with 2.
      replace ((2^(mb + 2) - 1) * (2 * 2^(l - e - 1))) with (2 * ((2^(mb + 2) - 1) * 2^(l - e - 1))) by ring. reflexivity. }
    rewrite E. set (K := (2^(mb + 2) - 1) * 2^(l - e - 1)) in *. clearbody K. split; intros H; apply Qmult_lt_r in H; try exact HP; apply Qmult_lt_r; try exact HP.
    + assert (C : (inject_Z (2 * q) < inject_Z (2 * K))%Q) by lra. rewrite <- Zlt_Qlt in C. rewrite <- Zlt_Qlt. lia.
    + rewrite <- Zlt_Qlt in H. assert (C : 2 * q + 2 <= 2 * K) by lia. rewrite Zle_Qle in C. lra.
  - assert (B : (inject_Z (2^(mb + 2) - 1) * pow2Q l < inject_Z (2 * q) * P)%Q).
    { apply Qlt_le_trans with (pow2Q top); [|apply top_le]. apply Qlt_le_trans with (inject_Z (2^(mb + 2)) * pow2Q l)%Q.
      - apply Qmult_lt_r; [apply pow2Q_pos|]. rewrite <- Zlt_Qlt. lia.
      - rewrite <- (pow2Q_nonneg (mb + 2)) by lia. rewrite <- pow2Q_add. unfold top.
        destruct (Z.eq_dec (mb + 2 + l) (Z.log2 (2 * q + 1) + e)) as [->|]; [apply Qle_refl|].
        apply Qlt_le_weak, pow2Q_lt. lia. }
    assert (C : (inject_Z (2 * q) * P < y * P)%Q) by (apply Qmult_lt_r; assumption).
    assert (C2 : (inject_Z (2 * q) * P < inject_Z (2 * q + 1) * P)%Q) by (apply Qmult_lt_r; [assumption|rewrite <- Zlt_Qlt; lia]).
    split; intros; exfalso; lra.
Qed.

Lemma top_small : (y * P < overflow_limit mb eb)%Q -> top < 2^(eb - 1).
Proof.
  intros H. destruct (Z_lt_le_dec top (2^(eb - 1))) as [L|G]; [exact L|exfalso].
  destruct Hf as [Hm He]. destruct Hy as [Y1 Y2].
  assert (C : (inject_Z (2 * q) * P < y * P)%Q) by (apply Qmult_lt_r; [apply P_pos|assumption]).
  pose proof top_le as T.
  assert (B : (overflow_limit mb eb < pow2Q (2^(eb - 1)))%Q).
  { unfold overflow_limit. fold (pow2Q (2^(eb - 1) - mb - 2)).
    replace (2^(eb - 1)) with ((mb + 2) + (2^(eb - 1) - mb - 2)) at 2 by lia. rewrite pow2Q_add, (pow2Q_nonneg (mb + 2)) by lia.
    apply Qmult_lt_r; [apply pow2Q_pos|]. rewrite <- Zlt_Qlt. lia. }
  destruct (Z.eq_dec top (2^(eb - 1))) as [E|E]; [rewrite E in T; lra|].
  assert (K := pow2Q_lt (2^(eb - 1)) top ltac:(lia)). lra.
Qed.

Lemma transfer : rounds mb eb s (sgn s (inject_Z (2 * q + 1) * P)) d -> rounds mb eb s (sgn s (y * P)) d.
Proof.
  destruct Hy as [Y1 Y2]. pose proof P_pos as HP.
  assert (Pos : (0 < inject_Z (2 * q))%Q) by (apply injQ_pos; lia).
  assert (Py : (0 < y * P)%Q) by (apply Qmult_lt_0_compat; lra).
  assert (Pm : (0 < inject_Z (2 * q + 1) * P)%Q) by (apply Qmult_lt_0_compat; [apply injQ_pos; lia|exact HP]).
  assert (Ab : forall x, (0 < x)%Q -> (Qabs (sgn s x) == x)%Q).
  { intros x Hx. destruct s; cbn [sgn]; [rewrite Qabs_opp|]; apply Qabs_pos, Qlt_le_weak, Hx. }
  intros (_ & R1 & R2 & R3). split; [destruct s; cbn [sgn]; lra|]. split; [exact R1|]. split.
  2: { intros H. apply R3. rewrite Ab in H |- * by assumption. destruct limit_same as [_ L].
       destruct (Qlt_le_dec (inject_Z (2 * q + 1) * P) (overflow_limit mb eb)) as [l|l]; [|exact l]. specialize (L l). lra. }
  intros H. rewrite Ab in H by assumption.
  assert (Hn : nearest mb eb (sgn s (inject_Z (2 * q + 1) * P)) d).
  { apply R2. rewrite Ab by assumption. now apply limit_same. }
  clear R2 R3. destruct Hn as (v & Hv & Nv). exists v. split; [exact Hv|].
  pose proof (top_small H) as Htop. pose proof top_le as Tl.
  assert (Cy : (inject_Z (2 * q) * P < y * P)%Q) by (apply Qmult_lt_r; assumption).
  assert (Cm : (inject_Z (2 * q) * P < inject_Z (2 * q + 1) * P)%Q) by (apply Qmult_lt_r; [assumption|rewrite <- Zlt_Qlt; lia]).
  pose proof (pow2Q_pos top) as Ptop.
  (* 2^top is a number of the format *)
  assert (W0 : emin < top -> exists b0 w0, ieee_value mb eb b0 = Some w0 /\ (sgn s w0 == pow2Q top)%Q).
  { intros Hlt. destruct (round_exact_value mb eb s 1 top Hf) as (w0 & W1 & W2).
    - split; [lia|]. change 1 with (2^0) at 1. apply Z.pow_lt_mono_r; destruct Hf; lia.
    - cbn [Z.log2]. unfold emin in Hlt. lia.
    - exists (ieee_round mb eb s 1 top), w0. split; [exact W1|]. destruct s; cbn [sgn]; rewrite W2.
      + change (inject_Z (- (1))) with (- (1))%Q. ring.
      + change (inject_Z 1) with 1%Q. ring. }
  assert (Gv : exists a, (sgn s v == inject_Z (4 * a) * P)%Q).
  { destruct (grid mb eb top d v s Hf Hv) as [[n Hn]|[Hlt Hsm]].
    - fold emin t in Hn. destruct (even4 n) as [k Hk]. exists k. now rewrite Hn.
    - exfalso. destruct (W0 Hlt) as (b0 & w0 & V0 & E0). destruct (Nv b0 w0 V0) as [A _].
      rewrite !sgn_dist, E0 in A. revert Hsm A. apply Qabs_case; intros ?; apply Qabs_case; intros ?; apply Qabs_case; intros ?; intros; lra. }
  destruct Gv as [a Ga].
  assert (Main : forall b w c, ieee_value mb eb b = Some w -> (sgn s w == inject_Z (4 * c) * P)%Q ->
    (w == v)%Q \/ (Qabs (sgn s v - y * P) < Qabs (sgn s w - y * P))%Q).
  { intros b w c Hw Gc. destruct (Nv b w Hw) as [A _]. rewrite !sgn_dist, Ga, Gc in A.
    destruct (decide a c A) as [->|L]; [left|right; now rewrite Ga, Gc].
    rewrite <- (sgn_sgn s w), <- (sgn_sgn s v). destruct s; cbn [sgn] in *; rewrite Gc, Ga; reflexivity. }
  intros b w Hw. rewrite !sgn_dist. destruct (grid mb eb top b w s Hf Hw) as [[n Hn]|[Hlt Hsm]].
  - fold emin t in Hn. destruct (even4 n) as [k Hk]. rewrite Hk in Hn. destruct (Main b w k Hw Hn) as [E|L].
    + assert (Es : (sgn s w == sgn s v)%Q) by (destruct s; cbn [sgn]; rewrite E; reflexivity).
      rewrite Es. split; [apply Qle_refl|]. intros _. now left.
    + split; [now apply Qlt_le_weak|]. intros Eq. exfalso. lra.
  - assert (G0 : exists b0 w0, ieee_value mb eb b0 = Some w0 /\ (sgn s w0 == pow2Q top)%Q) by (apply W0, Hlt).
    destruct G0 as (b0 & w0 & V0 & E0).
    assert (E0' : exists k, (sgn s w0 == inject_Z (4 * k) * P)%Q).
    { destruct (grid mb eb top b0 w0 s Hf V0) as [[n Hn]|[_ Hbad]].
      - fold emin t in Hn. destruct (even4 n) as [k Hk]. exists k. now rewrite Hn.
      - exfalso. rewrite E0, Qabs_pos in Hbad by lra. lra. }
    destruct E0' as [k Hk].
    assert (L1 : (Qabs (sgn s v - y * P) <= Qabs (sgn s w0 - y * P))%Q).
    { destruct (Main b0 w0 k V0 Hk) as [E|L]; [|now apply Qlt_le_weak].
      assert (Es : (sgn s w0 == sgn s v)%Q) by (destruct s; cbn [sgn]; rewrite E; reflexivity).
      rewrite Es. apply Qle_refl. }
    assert (L2 : (Qabs (sgn s w0 - y * P) < Qabs (sgn s w - y * P))%Q).
    { rewrite E0. revert Hsm. apply Qabs_case; intros ?; apply Qabs_case; intros ?; apply Qabs_case; intros ?; intros; lra. }
    split; [lra|]. intros Eq. exfalso. lra.
Qed.
End Transfer.
