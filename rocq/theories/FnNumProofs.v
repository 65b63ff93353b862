(** Proofs about further numeric functions. *)

From Coq Require Import ZArith List Bool QArith Qabs Lia Lqa.
From Verif Require Import Base BaseProofs Bytes UtilModel UtilProofs TypetagModel SerialModel WireModel AtomSModel FloatModel AtomUModel FArithModel
  ExprModel ExprListModel StatModel FnNumModel AtomSpec AtomProofs RoundSpec RealSpec ExprSpec StatSpec FnNumSpec NumProps
  FloatProofs RoundProofs RoundProps CompareProofs FArithProofs FArithProps ExprListProofs ExprProps ExprListProps
  StatProofs StatProps TypetagProps.
Import ListNotations.
Open Scope Z_scope.

(** * Reading *)

Lemma double_read_ok o a x : number a x -> exists d, au_double o a = Ok d /\ double_read a x d.
Proof.
  intros N. destruct (number_double_of o a x N) as (d & Hd & R & _). exists d. split; [exact Hd|]. split; [exact R|].
  intros b bits -> B. pose proof (proj1 (C44_doubles o (fun _ => 0) b bits B)) as C. rewrite C in Hd. now injection Hd.
Qed.

(** * Doubles *)

Lemma wide_finite z : Z.abs z <= 2^1000 -> (Qabs (inject_Z z) < overflow_limit 52 11)%Q.
Proof.
  intros H. apply wide_limit. assert (2^1000 < 2^1023) by (apply Z.pow_lt_mono_r; lia). lia.
Qed.

(** Rounding is monotone. *)
Lemma nearest_le q d v b w : nearest 52 11 q d -> ieee_value 52 11 d = Some v -> ieee_value 52 11 b = Some w ->
  ((q <= w)%Q -> (v <= w)%Q) /\ ((w <= q)%Q -> (w <= v)%Q).
Proof.
  intros (v' & Hv & N) Hv' Hw. rewrite Hv in Hv'. injection Hv' as <-. destruct (N b w Hw) as (N1 & _). split; intros L.
  - destruct (Qlt_le_dec w v') as [K|K]; [exfalso|exact K]. revert N1. do 2 apply Qabs_case; intros; lra.
  - destruct (Qlt_le_dec v' w) as [K|K]; [exfalso|exact K]. revert N1. do 2 apply Qabs_case; intros; lra.
Qed.

(** Numbers with few digits are doubles. *)
Lemma frac_double z j : Z.abs z < 2^53 -> 0 <= j <= 900 ->
  exists b w, ieee_value 52 11 b = Some w /\ (w == inject_Z z * pow2Q (- j))%Q.
Proof.
  intros Hz Hj. destruct (Z.eq_dec z 0) as [-> | N].
  - destruct real_zero as (v & Hv & Ev). exists 0, v. split; [exact Hv|]. rewrite Ev. change (inject_Z 0) with 0%Q. ring.
  - destruct (round_exact_value 52 11 (z <? 0) (Z.abs z) (- j) double_fmt) as (q & H1 & H2).
    + change (52 + 1) with 53. lia.
    + change (2 - 2^(11 - 1)) with (-1022). change (2^(11 - 1)) with 1024.
      pose proof (Z.log2_nonneg (Z.abs z)). assert (Z.log2 (Z.abs z) < 53) by (apply Z.log2_lt_pow2; lia). lia.
    + exists (ieee_round 52 11 (z <? 0) (Z.abs z) (- j)), q. split; [exact H1|]. rewrite H2.
      destruct (z <? 0) eqn:S; [apply Z.ltb_lt in S|apply Z.ltb_ge in S].
      * replace (- Z.abs z) with z by lia. reflexivity.
      * replace (Z.abs z) with z by lia. reflexivity.
Qed.

(** A quotient of integers, rounded, has the same integer part. *)
Lemma div_floor nan d1 d2 x a : (forall a b, is_nan 52 11 (nan a b)) ->
  real 52 11 d1 (Fin (inject_Z x)) -> real 52 11 d2 (Fin (inject_Z a)) -> 0 < a <= 2^33 -> Z.abs x <= 2^50 ->
  exists q, real 52 11 (ddiv nan d1 d2) (Fin q) /\ (inject_Z (x / a) <= q < inject_Z (x / a + 1))%Q.
Proof.
  intros Hn H1 H2 Ha Hx.
  assert (Pa : (0 < inject_Z a)%Q) by (apply injQ_pos; lia).
  destruct (div_ok nan Hn _ _ _ _ H1 H2) as (s & R). { cbn [same]. lra. }
  set (q0 := (inject_Z x / inject_Z a)%Q) in *.
  pose proof (Z.div_mod x a ltac:(lia)) as Dm. pose proof (Z.mod_pos_bound x a ltac:(lia)) as Mb.
  set (k := x / a) in *.
  assert (L1 : (inject_Z k <= q0)%Q).
  { unfold q0. apply Qle_shift_div_l; [exact Pa|]. rewrite <- inject_Z_mult, <- Zle_Qle. lia. }
  set (j := Z.log2_up a).
  assert (J0 : 0 <= j) by apply Z.log2_up_nonneg.
  assert (J1 : a <= 2^j < 2 * a).
  { destruct (Z.eq_dec a 1) as [E|E]; [unfold j; rewrite E; cbn; lia|].
    pose proof (Z.log2_up_spec a ltac:(lia)) as (P1 & P2). fold j in P1, P2. split; [exact P2|].
    assert (0 < j) by (apply Z.log2_up_pos; lia). replace j with (Z.succ (Z.pred j)) by lia. rewrite Z.pow_succ_r by lia. lia. }
  assert (J2 : j <= 900).
  { assert (j <= Z.log2_up (2^33)) by (apply Z.log2_up_le_mono; lia). rewrite Z.log2_up_pow2 in H by lia. lia. }
  assert (L2 : (q0 <= inject_Z ((k + 1) * 2^j - 1) * pow2Q (- j))%Q).
  { destruct (Z.eq_dec j 0) as [E|E].
    - rewrite E in J1 |- *. change (2^0) with 1 in *. assert (a = 1) by lia. subst a. unfold q0.
      change (pow2Q (- 0)) with 1%Q. change (inject_Z 1) with 1%Q.
      setoid_replace (inject_Z x / 1)%Q with (inject_Z x) by field.
      setoid_replace (inject_Z ((k + 1) * 1 - 1) * 1)%Q with (inject_Z ((k + 1) * 1 - 1)) by ring.
      rewrite <- Zle_Qle. lia.
    - rewrite pow2Q_neg by lia. rewrite Z.opp_involutive.
      assert (Pj : (0 < inject_Z (2^j))%Q) by (apply injQ_pos; lia).
      unfold q0. apply Qle_shift_div_r; [exact Pa|].
      setoid_replace (inject_Z ((k + 1) * 2^j - 1) * / inject_Z (2^j) * inject_Z a)%Q
        with (inject_Z (((k + 1) * 2^j - 1) * a) / inject_Z (2^j))%Q by (rewrite inject_Z_mult; field; lra).
      apply Qle_shift_div_l; [exact Pj|]. rewrite <- inject_Z_mult, <- Zle_Qle. nia. }
  assert (B : Z.abs ((k + 1) * 2^j - 1) < 2^53).
  { assert (Z.abs ((k + 1) * a) <= 2^50 + 2^33) by nia.
    assert (Z.abs ((k + 1) * 2^j) <= 2 * Z.abs ((k + 1) * a)) by (rewrite !Z.abs_mul; nia).
    change (2^53) with (8 * 2^50). change (2^33) with 8589934592 in *. change (2^50) with 1125899906842624 in *. lia. }
  assert (K : Z.abs k <= 2^50 + 1) by nia.
  assert (Lim : (Qabs q0 < overflow_limit 52 11)%Q).
  { eapply Qle_lt_trans; [|apply (wide_finite (2^52))].
    - rewrite (Qabs_pos (inject_Z (2^52))) by (change 0%Q with (inject_Z 0); rewrite <- Zle_Qle; lia).
      assert (U1 : (inject_Z (- 2^52) <= q0)%Q).
      { eapply Qle_trans; [|exact L1]. rewrite <- Zle_Qle. change (2^52) with (4 * 2^50). change (2^50) with 1125899906842624 in *. lia. }
      assert (U2 : (q0 <= inject_Z (2^52))%Q).
      { apply Qle_trans with (inject_Z (k + 1)).
        - unfold q0. apply Qle_shift_div_r; [exact Pa|]. rewrite <- inject_Z_mult, <- Zle_Qle. lia.
        - rewrite <- Zle_Qle. change (2^52) with (4 * 2^50). change (2^50) with 1125899906842624 in *. lia. }
      rewrite inject_Z_opp in U1. apply Qabs_case; intros; lra.
    - rewrite Z.abs_eq by lia. apply Z.pow_le_mono_r; lia. }
  destruct R as (_ & _ & R & _). specialize (R Lim). pose proof R as R'. destruct R as (v & Hv & N).
  exists v. split; [exists v; split; [exact Hv|apply Qeq_refl]|].
  destruct (frac_double _ j B (conj J0 J2)) as (b & w & Hb & Ew).
  destruct (double_of_int_exact k) as (w' & Hw' & Ew'). { change (2^53) with (8 * 2^50). change (2^50) with 1125899906842624 in *. lia. }
  destruct (nearest_le _ _ _ _ _ R' Hv Hb) as (N1 & _). destruct (nearest_le _ _ _ _ _ R' Hv Hw') as (_ & N2).
  rewrite Ew in N1. rewrite Ew' in N2. split; [exact (N2 L1)|].
  eapply Qle_lt_trans; [exact (N1 L2)|].
  assert (Pj : (0 < pow2Q (- j))%Q) by apply pow2Q_pos.
  assert (Ej : (inject_Z (2^j) * pow2Q (- j) == 1)%Q).
  { rewrite <- pow2Q_nonneg by lia. rewrite <- pow2Q_add. replace (j + - j) with 0 by lia. reflexivity. }
  setoid_replace (inject_Z (k + 1)) with (inject_Z ((k + 1) * 2^j) * pow2Q (- j))%Q
    by (rewrite inject_Z_mult, <- Qmult_assoc, Ej; ring).
  apply Qmult_lt_compat_r; [exact Pj|]. rewrite <- Zlt_Qlt. lia.
Qed.

(** * Sign, magnitude and floor *)

Lemma dsign_ok d q : real 52 11 d (Fin q) ->
  ((q == 0)%Q -> dsign d = 0) /\ ((q < 0)%Q -> dsign d = -1) /\ ((0 < q)%Q -> dsign d = 1).
Proof.
  intros R. unfold dsign. pose proof (deq_iff _ _ _ _ R real_zero) as De. pose proof (dlt_iff _ _ _ _ R real_zero) as Dl.
  cbn [same less] in De, Dl. destruct (deq d 0).
  - assert ((q == 0)%Q) by now apply De. split; [|split]; intros; [reflexivity|exfalso; lra|exfalso; lra].
  - destruct (dlt d 0).
    + assert ((q < 0)%Q) by now apply Dl. split; [|split]; intros; [exfalso; lra|reflexivity|exfalso; lra].
    + split; [|split]; intros K; [apply De in K; discriminate|apply Dl in K; discriminate|reflexivity].
Qed.
Lemma dsign_int d z : real 52 11 d (Fin (inject_Z z)) -> dsign d = Z.sgn z.
Proof.
  intros R. destruct (dsign_ok d _ R) as (D0 & Dm & Dp). destruct (Z.lt_trichotomy z 0) as [L|[-> |L]].
  - rewrite Dm by (change 0%Q with (inject_Z 0); now rewrite <- Zlt_Qlt). lia.
  - rewrite D0 by reflexivity. reflexivity.
  - rewrite Dp by (change 0%Q with (inject_Z 0); now rewrite <- Zlt_Qlt). lia.
Qed.

Lemma dfabs_ok d q : real 52 11 d (Fin q) -> real 52 11 (dfabs d) (Fin (Qabs q)).
Proof.
  intros R. destruct (fin_fields _ _ R) as (_ & s & m & e & D & M & Eq).
  assert (D' : ieee_decode 52 11 (dfabs d) = Some (false, m, e)).
  { revert D. unfold ieee_decode, dfabs. change (2^(52 + 11)) with (2^52 * 2^11). change (2^63) with (2^52 * 2^11).
    rewrite Z.rem_mul_r by lia.
    replace ((d mod 2^52 + 2^52 * ((d / 2^52) mod 2^11)) mod 2^52) with (d mod 2^52)
      by (rewrite Z.mul_comm, Z.mod_add by lia; symmetry; apply Z.mod_mod; lia).
    replace ((d mod 2^52 + 2^52 * ((d / 2^52) mod 2^11)) / 2^52) with ((d / 2^52) mod 2^11).
    2: { rewrite Z.mul_comm, Z.div_add by lia. rewrite (Z.div_small (d mod 2^52)) by (apply Z.mod_pos_bound; lia). lia. }
    rewrite Z.mod_mod by lia. destruct (_ =? 2^11 - 1); [discriminate|]. intros H. injection H as _ <- <-. f_equal. f_equal. f_equal.
    apply Z.eqb_neq. rewrite (Z.div_small _ (2^52 * 2^11)).
    - discriminate.
    - pose proof (Z.mod_pos_bound d (2^52) ltac:(lia)). pose proof (Z.mod_pos_bound (d / 2^52) (2^11) ltac:(lia)). nia. }
  pose proof (value_decode 52 11 (dfabs d) ltac:(lia) ltac:(lia)) as V. rewrite D' in V.
  destruct (ieee_value 52 11 (dfabs d)) as [v|] eqn:Ev; [|destruct V]. exists v. split; [exact Ev|]. cbn iota in V.
  rewrite V, Eq. unfold FArithModel.signed_of. pose proof (pow2Q_pos e) as Pe.
  assert (Pm : (0 <= inject_Z m)%Q) by (change 0%Q with (inject_Z 0); rewrite <- Zle_Qle; exact M).
  rewrite Qabs_Qmult, (Qabs_pos (pow2Q e)) by lra. destruct s; [rewrite inject_Z_opp, Qabs_opp|]; rewrite Qabs_pos by exact Pm; reflexivity.
Qed.

Lemma floor_unique q z z' : (inject_Z z <= q < inject_Z (z + 1))%Q -> (inject_Z z' <= q < inject_Z (z' + 1))%Q -> z = z'.
Proof.
  intros (A & B) (C & D). assert (X : (inject_Z z < inject_Z (z' + 1))%Q) by lra. assert (Y : (inject_Z z' < inject_Z (z + 1))%Q) by lra.
  rewrite <- Zlt_Qlt in X, Y. lia.
Qed.
Lemma dfloor_ok d q z : real 52 11 d (Fin q) -> (inject_Z z <= q < inject_Z (z + 1))%Q ->
  real 52 11 (dfloor d) (Fin (inject_Z z)).
Proof.
  intros R Fl. destruct (fin_fields _ _ R) as (_ & s & m & e & D & M & Eq). unfold dfloor. rewrite D.
  destruct (0 <=? e) eqn:E0; [apply Z.leb_le in E0|apply Z.leb_gt in E0].
  - apply (real_same d (Fin q)); [exact R|]. cbn [same].
    assert (Ez : (q == inject_Z (FArithModel.signed_of s m * 2^e))%Q) by (rewrite Eq, inject_Z_mult, (pow2Q_nonneg e) by lia; reflexivity).
    rewrite Ez. rewrite (floor_unique q z (FArithModel.signed_of s m * 2^e) Fl); [reflexivity|]. rewrite Ez.
    rewrite <- Zle_Qle, <- Zlt_Qlt. lia.
  - set (z' := FArithModel.signed_of s m / 2^(- e)). pose proof (pow2_ge1 (- e) ltac:(lia)) as Pe.
    assert (F' : (inject_Z z' <= q < inject_Z (z' + 1))%Q).
    { rewrite Eq, pow2Q_neg by lia. assert (P : (0 < inject_Z (2^(- e)))%Q) by (apply injQ_pos; lia).
      pose proof (Z.div_mod (FArithModel.signed_of s m) (2^(- e)) ltac:(lia)) as Dm. fold z' in Dm.
      pose proof (Z.mod_pos_bound (FArithModel.signed_of s m) (2^(- e)) ltac:(lia)). split.
      - apply Qle_shift_div_l; [exact P|]. rewrite <- inject_Z_mult, <- Zle_Qle. lia.
      - apply Qlt_shift_div_r; [exact P|]. rewrite <- inject_Z_mult, <- Zlt_Qlt. lia. }
    rewrite (floor_unique q z z' Fl F') in *. destruct (z' =? 0) eqn:Z0.
    + apply Z.eqb_eq in Z0. rewrite Z0. destruct s; eexists; (split; [reflexivity|reflexivity]).
    + assert (Bz : Z.abs z' <= 2^53); [|now apply real_int].
      (* a fraction has fewer digits than 2^53 *)
      pose proof (decode_bounds 52 11 d s m e double_fmt D) as (Mb & _). change (2^(52 + 1)) with (2^53) in Mb.
      unfold z', FArithModel.signed_of. destruct s.
      * assert (- 2^53 <= - m / 2^(- e)) by (apply Z.div_le_lower_bound; nia).
        assert (- m / 2^(- e) <= 0) by (apply Z.div_le_upper_bound; nia). lia.
      * assert (0 <= m / 2^(- e)) by (apply Z.div_pos; lia). assert (m / 2^(- e) <= 2^53) by (apply Z.div_le_upper_bound; nia). lia.
Qed.

(** The sign of a difference, rounded. *)
Lemma least_double q1 q2 d1 d2 : real 52 11 d1 (Fin q1) -> real 52 11 d2 (Fin q2) -> (q1 < q2)%Q -> (pow2Q (-1074) <= q2 - q1)%Q.
Proof.
  assert (G : forall d q, real 52 11 d (Fin q) -> exists z, (q == inject_Z z * pow2Q (-1074))%Q).
  { intros d q R. destruct (fin_fields _ _ R) as (_ & s & m & e & D & _ & Eq).
    pose proof (decode_bounds 52 11 d s m e double_fmt D) as (_ & B & _). change (2 - 2^(11 - 1) - 52) with (-1074) in B.
    exists (FArithModel.signed_of s m * 2^(e - -1074)). rewrite Eq. apply unscale. lia. }
  intros R1 R2 L. destruct (G _ _ R1) as (z1 & E1), (G _ _ R2) as (z2 & E2).
  pose proof (pow2Q_pos (-1074)) as P. set (p := pow2Q (-1074)) in *.
  assert (z1 < z2). { rewrite Zlt_Qlt. apply (Qmult_lt_r _ _ p P). now rewrite <- E1, <- E2. }
  rewrite E1, E2. assert (K : (inject_Z 1 <= inject_Z (z2 - z1))%Q) by (rewrite <- Zle_Qle; lia).
  setoid_replace (inject_Z z2 * p - inject_Z z1 * p)%Q with (inject_Z (z2 - z1) * p)%Q
    by (unfold Z.sub; rewrite inject_Z_plus, inject_Z_opp; ring).
  setoid_replace p with (inject_Z 1 * p)%Q at 1 by (change (inject_Z 1) with 1%Q; ring).
  apply (Qmult_le_r _ _ p P). exact K.
Qed.
Lemma smallest_value : exists b w, ieee_value 52 11 b = Some w /\ (w == pow2Q (-1074))%Q.
Proof. exists 1. eexists. split; [reflexivity|reflexivity]. Qed.
Lemma dsign_infinity s : dsign (infinity 52 11 s) = if s then -1 else 1.
Proof. destruct s; reflexivity. Qed.

Lemma diff_sign nan d1 d2 q1 q2 : (forall a b, is_nan 52 11 (nan a b)) ->
  real 52 11 d1 (Fin q1) -> real 52 11 d2 (Fin q2) ->
  ((q1 < q2)%Q -> dsign (dsub nan d2 d1) = 1) /\ ((q2 < q1)%Q -> dsign (dsub nan d2 d1) = -1).
Proof.
  intros Hn R1 R2. destruct (sub_ok nan Hn _ _ _ _ R2 R1) as (s & Sg & _ & N & I). set (d := dsub nan d2 d1) in *.
  destruct (Qlt_le_dec (Qabs (q2 + - q1)) (overflow_limit 52 11)) as [L|L].
  - specialize (N L). clear I. pose proof N as N'. destruct N' as (v & Hv & _).
    assert (Rv : real 52 11 d (Fin v)) by (exists v; split; [exact Hv|apply Qeq_refl]).
    destruct smallest_value as (b & w & Hb & Ew). destruct (nearest_le _ _ _ _ _ N Hv Hb) as (_ & N2).
    pose proof (pow2Q_pos (-1074)) as P. split; intros K.
    + pose proof (least_double _ _ _ _ R1 R2 K) as M. apply (dsign_ok d v Rv).
      assert (w <= v)%Q by (apply N2; lra). lra.
    + pose proof (least_double _ _ _ _ R2 R1 K) as M. apply (dsign_ok d v Rv).
      assert (Bm : exists b' w', ieee_value 52 11 b' = Some w' /\ (w' == - pow2Q (-1074))%Q).
      { exists (2^63 + 1). eexists. split; [reflexivity|reflexivity]. }
      destruct Bm as (b' & w' & Hb' & Ew'). destruct (nearest_le _ _ _ _ _ N Hv Hb') as (N1 & _).
      assert (v <= w')%Q by (apply N1; lra). lra.
  - rewrite (I L). rewrite dsign_infinity. clear N I L. split; intros K; destruct s; try reflexivity; exfalso; lra.
Qed.

(** * Sequences *)

Definition nth_term (v s : Z) (k : nat) : Z := v + Z.of_nat k * s.
Lemma terms_next v s k : map (nth_term v s) (seq 0 (S k)) = v :: map (nth_term (v + s) s) (seq 0 k).
Proof.
  cbn [seq map]. f_equal; [unfold nth_term; lia|]. rewrite <- seq_shift, map_map. apply map_ext. intros j. unfold nth_term. lia.
Qed.
Lemma trunc_range d z : real 52 11 d (Fin (inject_Z z)) -> - 2^31 <= z <= 2^31 - 1 ->
  to_range (- 2^31) (2^31 - 1) (trunc64 d) = Ok z.
Proof.
  intros R B. rewrite (trunc_int d z R). unfold to_range.
  destruct (Z.leb_spec (- 2^31) z); [|lia]. destruct (Z.leb_spec z (2^31 - 1)); [reflexivity|lia].
Qed.
Lemma seq_int_ok E (Hn : forall a b, is_nan 52 11 (e_nan E a b)) ds s : real 52 11 ds (Fin (inject_Z s)) -> Z.abs s <= 2^31 ->
  forall k i v d done, i = zlen done -> real 52 11 d (Fin (inject_Z v)) ->
  Forall (fun z => - 2^31 <= z <= 2^31 - 1) (map (nth_term v s) (seq 0 k)) ->
  seq_int E k i d ds (Some (done ++ repeat atom_fresh k)) =
  Ok (Some (done ++ map (set_u I32 atom_fresh) (map (nth_term v s) (seq 0 k)))).
Proof.
  intros Rs Bs. induction k as [|k IH]; intros i v d done Hi R B; [reflexivity|].
  rewrite terms_next in B |- *. inversion B as [|? ? B0 B1]; subst. cbn [seq_int].
  rewrite (trunc_range d v R B0). cbn [bind repeat]. rewrite aput_at. cbn [bind].
  specialize (IH (zlen done + 1) (v + s) (dadd (e_nan E) d ds) (done ++ [set_u I32 atom_fresh v])).
  rewrite <- !app_assoc in IH. cbn [app] in IH. change (set_int32 atom_fresh v) with (set_u I32 atom_fresh v).
  rewrite IH; [reflexivity| |apply sum_int; [exact Hn|exact R|exact Rs|lia]|exact B1].
  rewrite zlen_app. reflexivity.
Qed.
Lemma seq_double_ok E (Hn : forall a b, is_nan 52 11 (e_nan E a b)) ds x : real 52 11 ds x ->
  forall k i d v done, i = zlen done -> real 52 11 d v ->
  exists l, steps x d l /\ length l = k /\
  seq_double E k i d ds (Some (done ++ repeat atom_fresh k)) = Ok (Some (done ++ map (set_double atom_fresh) l)).
Proof.
  intros Rs. induction k as [|k IH]; intros i d v done Hi R; [exists []; split; [constructor|split; reflexivity]|].
  pose proof (add_ok _ Hn _ _ _ _ R Rs) as A. destruct (sum_real _ _ _ A) as (v' & R').
  destruct (IH (i + 1) (dadd (e_nan E) d ds) v' (done ++ [set_double atom_fresh d])) as (l & H1 & H2 & H3).
  { rewrite zlen_app, Hi. reflexivity. } { exact R'. }
  exists (d :: l). split; [exact (steps_cons x d v _ l R A H1)|]. split; [cbn [length]; now rewrite H2|].
  cbn [seq_double repeat]. subst i. rewrite aput_at. cbn [bind]. rewrite <- !app_assoc in H3. exact H3.
Qed.

(** The progression from [a] in steps of [s]. *)
Lemma progression_ok a s b : a <> b -> s <> 0 -> Z.sgn (b - a) = Z.sgn s ->
  progression a s b (map (nth_term a s) (seq 0 (Z.to_nat (Z.abs (b - a) / Z.abs s + 1)))).
Proof.
  intros N S0 Sg. set (q := Z.abs (b - a) / Z.abs s).
  assert (Hq : 0 <= q) by (apply Z.div_pos; lia).
  pose proof (Z.div_mod (Z.abs (b - a)) (Z.abs s) ltac:(lia)) as D. fold q in D.
  pose proof (Z.mod_pos_bound (Z.abs (b - a)) (Z.abs s) ltac:(lia)) as M.
  assert (Lo : forall k, 0 <= k <= q -> between a b (a + k * s)).
  { intros k Hk. unfold between. destruct (Z.lt_trichotomy s 0) as [L|[L|L]]; [right|lia|left].
    - assert (b < a) by lia. assert (k * (- s) <= q * (- s)) by nia. nia.
    - assert (a < b) by lia. assert (k * s <= q * s) by nia. nia. }
  split; [|split].
  - intros k z H. rewrite nth_error_map in H. destruct (nth_error (seq 0 _) k) as [j|] eqn:E; [|discriminate].
    cbn [option_map] in H. injection H as <-.
    assert (L : (k < length (seq 0 (Z.to_nat (q + 1))))%nat) by (apply nth_error_Some; fold q in E; rewrite E; discriminate).
    rewrite seq_length in L. assert (j = k). { fold q in E. rewrite (nth_error_nth' _ 0%nat) in E by (rewrite seq_length; exact L).
      rewrite seq_nth in E by exact L. injection E as <-. reflexivity. }
    subst j. reflexivity.
  - apply Forall_forall. intros z H. apply in_map_iff in H. destruct H as (k & <- & H). apply in_seq in H. apply Lo. lia.
  - unfold zlen. rewrite map_length, seq_length. rewrite Z2Nat.id by lia. unfold between.
    destruct (Z.lt_trichotomy s 0) as [L|[L|L]]; [|lia|]; nia.
Qed.

(** A quotient of positive numbers is not negative. *)
Lemma nonneg_quotient nan (Hn : forall a b, is_nan 52 11 (nan a b)) d1 d2 p1 p2 q : rounds 52 11 false p1 d1 -> (0 < p1)%Q ->
  real 52 11 d2 (Fin p2) -> (0 < p2)%Q -> real 52 11 (ddiv nan d1 d2) (Fin q) -> (0 <= q)%Q.
Proof.
  intros (_ & _ & H1 & H2) P1 R2 P2 Rq. pose proof real_zero as (v0 & Hv0 & Ev0).
  destruct (Qlt_le_dec (Qabs p1) (overflow_limit 52 11)) as [L|L].
  - specialize (H1 L). pose proof H1 as (v & Hv & _). destruct (nearest_le _ _ _ _ _ H1 Hv Hv0) as (_ & M).
    assert (Pv : (0 <= v)%Q) by (rewrite <- Ev0; apply M; lra).
    assert (R1 : real 52 11 d1 (Fin v)) by (exists v; split; [exact Hv|apply Qeq_refl]).
    destruct (div_ok nan Hn _ _ _ _ R1 R2) as (s & _ & _ & N & I). { cbn [same]. lra. }
    destruct Rq as (w & Hw & Ew). rewrite <- Ew.
    destruct (Qlt_le_dec (Qabs (v / p2)) (overflow_limit 52 11)) as [K|K].
    + specialize (N K). destruct (nearest_le _ _ _ _ _ N Hw Hv0) as (_ & M'). rewrite <- Ev0. apply M'. rewrite Ev0.
      apply Qle_shift_div_l; [exact P2|]. lra.
    + rewrite (I K) in Hw. destruct s; discriminate Hw.
  - assert (R1 : real 52 11 d1 (Infinite false)) by exact (H2 L).
    destruct (div_ok nan Hn _ _ _ _ R1 R2) as (I & _). { cbn [same]. lra. }
    rewrite (I P2) in Rq. destruct Rq as (w & Hw & _). discriminate Hw.
Qed.

(** * Sums in any format *)

Lemma fields mb eb d q : fmt mb eb -> real mb eb d (Fin q) ->
  ieee_isnan mb eb d = false /\ exists s m e, ieee_decode mb eb d = Some (s, m, e) /\ ieee_sign mb eb d = s /\ 0 <= m /\
    (q == inject_Z (FArithModel.signed_of s m) * pow2Q e)%Q.
Proof.
  intros Hf (v & Hv & Hq). assert (Hf' := Hf). destruct Hf' as [Hb He].
  pose proof (value_decode mb eb d ltac:(lia) ltac:(lia)) as H. rewrite Hv in H.
  unfold ieee_isnan. destruct (ieee_decode mb eb d) as [[[s m] e]|] eqn:D; [|destruct H].
  split; [reflexivity|]. exists s, m, e. split; [reflexivity|].
  pose proof (decode_bounds mb eb d s m e Hf D). split.
  - revert D. unfold ieee_decode, ieee_sign. destruct (_ =? 2^eb - 1); [discriminate|]. intros K. injection K as <- _ _. reflexivity.
  - split; [lia|]. unfold FArithModel.signed_of. now rewrite <- H.
Qed.
Lemma finite_sum mb eb nan d1 d2 p q : fmt mb eb -> real mb eb d1 (Fin p) -> real mb eb d2 (Fin q) ->
  (exists s, rounds mb eb s (p + q) (ieee_add mb eb nan d1 d2)) /\ (exists s, rounds mb eb s (p - q) (ieee_sub mb eb nan d1 d2)).
Proof.
  intros Hf H1 H2.
  destruct (fields _ _ _ _ Hf H1) as (N1 & s1 & m1 & e1 & D1 & S1 & P1 & E1).
  destruct (fields _ _ _ _ Hf H2) as (N2 & s2 & m2 & e2 & D2 & S2 & P2 & E2).
  assert (X : forall k n (s' : bool), (k == inject_Z (FArithModel.signed_of s' m2) * pow2Q e2)%Q ->
    exists s, rounds mb eb s (p + k) (ieee_sum mb eb n d1 d2 s')).
  { intros k n s' Ek. unfold ieee_sum. rewrite N1, N2, D1, D2. cbn [orb].
    set (e := Z.min e1 e2). set (z := FArithModel.signed_of s1 m1 * 2^(e1 - e) + FArithModel.signed_of s' m2 * 2^(e2 - e)).
    assert (Ez : (p + k == inject_Z z * pow2Q e)%Q).
    { rewrite E1, Ek. rewrite (unscale (FArithModel.signed_of s1 m1) e1 e), (unscale (FArithModel.signed_of s' m2) e2 e) by (unfold e; lia).
      unfold z. rewrite inject_Z_plus. ring. }
    destruct (z =? 0) eqn:Z0.
    - apply Z.eqb_eq in Z0. exists (s1 && s').
      refine (rounds_ext _ _ _ _ _ _ _ (round_ok mb eb (s1 && s') 0 0 Hf (Z.le_refl 0))).
      rewrite Ez, Z0. destruct (s1 && s'); change (inject_Z (- 0)) with 0%Q; change (inject_Z 0) with 0%Q; ring.
    - exists (z <? 0). refine (rounds_ext _ _ _ _ _ _ _ (round_ok mb eb (z <? 0) (Z.abs z) e Hf (Z.abs_nonneg z))).
      rewrite Ez. destruct (z <? 0) eqn:S; [apply Z.ltb_lt in S|apply Z.ltb_ge in S].
      + replace (- Z.abs z) with z by lia. reflexivity.
      + replace (Z.abs z) with z by lia. reflexivity. }
  split.
  - unfold ieee_add. rewrite S2. apply X. exact E2.
  - unfold ieee_sub. rewrite S2. apply (X (- q)%Q). rewrite E2. unfold FArithModel.signed_of. destruct s2; cbn [negb]; rewrite ?inject_Z_opp; ring.
Qed.

(** * Running sums *)

Definition fin_sum (t : ity) (v : Z) : res Z :=
  match t with I32 => checked 32 v | I64 => checked 64 v | _ => Ok (wrap t v) end.
Lemma fin_sum_ok t v : (traps t -> in_type t v) -> fin_sum t v = Ok (wrap t v).
Proof.
  intros H. destruct t; try reflexivity; cbn [fin_sum].
  - assert (K : in_type I32 v) by (apply H; split; [reflexivity|cbn; lia]). rewrite (wrap_id I32 v K).
    apply checked_ok. unfold in_type, signed, width in K. exact K.
  - assert (K : in_type I64 v) by (apply H; split; [reflexivity|cbn; lia]). rewrite (wrap_id I64 v K).
    apply checked_ok. unfold in_type, signed, width in K. exact K.
Qed.
Lemma fin_sum_over t v : traps t -> ~ in_type t v -> fin_sum t v = Ub Overflow.
Proof.
  intros (T1 & T2) H. destruct t; cbn in T1, T2; try discriminate; try lia; cbn [fin_sum]; apply checked_over; exact H.
Qed.
Lemma wrap_sum t a b : wrap t (wrap t a + b) = wrap t (a + b).
Proof.
  apply (converted_unique t (a + b)); [|apply converted_wrap].
  apply (converted_congr t (wrap t a + b)); [apply converted_wrap|].
  destruct (wrap_congr t a) as (k & ->). replace (a + b - (a + 2^width t * k + b)) with (- k * 2^width t) by lia.
  apply Z.mod_mul. destruct t; discriminate.
Qed.
Lemma wrap_sum_r t a b : wrap t (a + wrap t b) = wrap t (a + b).
Proof. rewrite Z.add_comm, wrap_sum. f_equal. lia. Qed.

Lemma running_ok t l zs : Forall2 (fun a z => get_u t a = Ok (wrap t z) /\ (traps t -> wrap t z = z)) l zs ->
  forall done acc, (traps t -> in_type t acc /\ forall k, (k < length zs)%nat -> in_type t (acc + sum (firstn (S k) zs))) ->
  exists cs, running (plus (get_u t) (fin_sum t)) (set_u t) l (zlen done) (wrap t acc) (Some (done ++ repeat atom_fresh (length l))) =
      Ok (Some (done ++ map (set_u t atom_fresh) cs)) /\ length cs = length zs /\
    forall k s, nth_error cs k = Some s -> s = wrap t (acc + sum (firstn (S k) zs)).
Proof.
  induction 1 as [|a z l zs (G & W) H IH]; intros done acc B.
  - exists []. split; [reflexivity|]. split; [reflexivity|]. intros [|k] s K; discriminate.
  - destruct (IH (done ++ [set_u t atom_fresh (wrap t (acc + z))]) (acc + z)) as (cs & H1 & H2 & H3).
    { intros T. destruct (B T) as (B0 & B1). split.
      - specialize (B1 0%nat ltac:(cbn; lia)). cbn in B1. now rewrite Z.add_0_r in B1.
      - intros k Hk. specialize (B1 (S k) ltac:(cbn; lia)). cbn [firstn] in B1. unfold sum in *. cbn [fold_right] in B1.
        replace (acc + z + _) with (acc + (z + fold_right Z.add 0 (firstn (S k) zs))) by (cbn [firstn]; lia). exact B1. }
    exists (wrap t (acc + z) :: cs). split; [|split].
    + cbn [running]. unfold plus at 1. rewrite G. cbn [bind].
      assert (F : fin_sum t (wrap t acc + wrap t z) = Ok (wrap t (acc + z))).
      { rewrite fin_sum_ok; [now rewrite wrap_sum, wrap_sum_r|]. intros T. destruct (B T) as (B0 & B1).
        rewrite (wrap_id t acc B0), (W T). specialize (B1 0%nat ltac:(cbn; lia)). cbn in B1. now rewrite Z.add_0_r in B1. }
      rewrite F. cbn [bind length repeat]. rewrite aput_at. cbn [bind].
      rewrite zlen_app in H1. rewrite <- !app_assoc in H1. exact H1.
    + cbn [length]. now rewrite H2.
    + intros [|k] s K.
      * injection K as <-. cbn. now rewrite Z.add_0_r.
      * cbn [nth_error] in K. rewrite (H3 k s K). cbn [firstn]. unfold sum. cbn [fold_right]. f_equal. lia.
Qed.
Lemma running_over t l zs : traps t -> Forall2 (fun a z => get_u t a = Ok z /\ in_type t z) l zs ->
  forall done acc k, in_type t acc -> (k < length zs)%nat -> ~ in_type t (acc + sum (firstn (S k) zs)) ->
  running (plus (get_u t) (fin_sum t)) (set_u t) l (zlen done) acc (Some (done ++ repeat atom_fresh (length l))) = Ub Overflow.
Proof.
  intros T. induction 1 as [|a z l zs (G & W) H IH]; intros done acc k B Hk N; [cbn in Hk; lia|].
  cbn [running]. unfold plus at 1. rewrite G. cbn [bind].
  assert (D : in_type t (acc + z) \/ ~ in_type t (acc + z)) by (unfold in_type; destruct (signed t); lia).
  destruct D as [D|D]; [|now rewrite (fin_sum_over t _ T D)].
  rewrite fin_sum_ok by auto. rewrite (wrap_id t _ D). cbn [bind length repeat]. rewrite aput_at. cbn [bind].
  destruct k as [|k]. { exfalso. apply N. cbn. now rewrite Z.add_0_r. }
  specialize (IH (done ++ [set_u t atom_fresh (acc + z)]) (acc + z) k D).
  rewrite zlen_app in IH. rewrite <- !app_assoc in IH. apply IH; [cbn in Hk; lia|].
  intros K. apply N. cbn [firstn]. unfold sum in *. cbn [fold_right]. replace (acc + (z + _)) with (acc + z + fold_right Z.add 0 (firstn (S k) zs)) by (cbn [firstn]; lia).
  exact K.
Qed.

(** The codes of the types are in the order of the types. *)
Definition sum_code (t : ity) : Z := 2^rank t.
Lemma sum_code_le t t' : rank t' <= rank t <-> sum_code t' <= sum_code t.
Proof. unfold sum_code. destruct t, t'; cbn; lia. Qed.
Lemma sum_type_counted a t v : counted a t v -> sum_type (a_tt a) = sum_code t.
Proof.
  intros [H|[H ->]]; rewrite (operand_tag _ _ _ _ H); [destruct t; reflexivity|]. destruct (v =? 0); reflexivity.
Qed.
Lemma largest_sum_max l c : forall c0, (forall a, In a l -> sum_type (a_tt a) <= c) -> c0 <= c ->
  c0 = c \/ (exists a, In a l /\ sum_type (a_tt a) = c) -> largest_sum_type l c0 = c.
Proof.
  induction l as [|a l IH]; intros c0 Hle H0 Hex; cbn [largest_sum_type].
  - destruct Hex as [E|(a & [] & _)]. exact E.
  - pose proof (Hle a (or_introl eq_refl)) as Ha. apply IH.
    + intros b Hb. apply Hle. now right.
    + destruct (_ >? _); lia.
    + destruct Hex as [E|(b & [<-|Hb] & E)].
      * left. rewrite Z.gtb_ltb. destruct (Z.ltb_spec c0 (sum_type (a_tt a))); lia.
      * left. rewrite Z.gtb_ltb. destruct (Z.ltb_spec c0 (sum_type (a_tt a))); lia.
      * right. now exists b.
Qed.
Lemma counted_get a t v t' : counted a t v -> get_u t' a = Ok (wrap t' v).
Proof. intros [H|[H _]]; exact (operand_get _ _ _ _ t' H). Qed.
Lemma counted_in a t v : counted a t v -> in_type t v.
Proof. intros [H|[H ->]]; [exact (operand_in _ _ _ _ H)|]. inversion H; subst; unfold in_type, signed, width; lia. Qed.
Lemma in_larger t t' v : traps t' -> rank t <= rank t' -> in_type t v -> in_type t' v.
Proof. intros (T1 & T2) L H. unfold in_type in *. destruct t, t'; cbn in *; try discriminate; lia. Qed.

(** Sums of floats. *)
Lemma single_read o a q : single_number a q -> exists d, au_float o a = Ok d /\ real 23 8 d (Fin q).
Proof.
  intros [b t z a' Ho Hz|a' bits q' B R].
  - destruct (float_of_int_exact z Hz) as (v & Hv & Ev). exists (float_of_int z). split; [|exists v; now split].
    destruct Ho as [t v' a'' Hin|a''|a'']; [now apply au_float_set|destruct a''; reflexivity..].
  - exists bits. split; [|exact R]. exact (proj1 (C44_floats o (fun _ => 0) a' bits B)).
Qed.
Lemma running_float F l qs : Forall2 single_number l qs ->
  forall done d, exists ds, running (fun s a => do v <- au_float (s_float F) a; Ok (ieee_add 23 8 (s_nan F) s v)) set_float l (zlen done) d
      (Some (done ++ repeat atom_fresh (length l))) = Ok (Some (done ++ map (set_float atom_fresh) ds)) /\ float_sums d qs ds.
Proof.
  induction 1 as [|a q l qs Ha _ IH]; intros done d.
  - exists []. split; [reflexivity|constructor].
  - destruct (single_read (s_float F) a q Ha) as (b & Hb & Rb). set (d' := ieee_add 23 8 (s_nan F) d b).
    destruct (IH (done ++ [set_float atom_fresh d']) d') as (ds & H1 & H2).
    exists (d' :: ds). split; [|constructor; [|exact H2]].
    + cbn [running]. rewrite Hb. cbn [bind length repeat]. rewrite aput_at. cbn [bind]. fold d'.
      rewrite zlen_app in H1. rewrite <- !app_assoc in H1. exact H1.
    + intros p R. exact (proj1 (finite_sum 23 8 (s_nan F) d b p q float_fmt R Rb)).
Qed.
Lemma running_double E (Hn : forall a b, is_nan 52 11 (e_nan E a b)) l xs : Forall2 number l xs ->
  forall done d x, real 52 11 d x -> exists ds,
    running (fun s a => do v <- au_double (e_double E) a; Ok (dadd (e_nan E) s v)) set_double l (zlen done) d
      (Some (done ++ repeat atom_fresh (length l))) = Ok (Some (done ++ map (set_double atom_fresh) ds)) /\ double_sums d xs ds.
Proof.
  induction 1 as [|a y l ys Ha _ IH]; intros done d x R.
  - exists []. split; [reflexivity|constructor].
  - destruct (double_read_ok (e_double E) a y Ha) as (b & Hb & (Rb & _)). set (d' := dadd (e_nan E) d b).
    pose proof (add_ok _ Hn _ _ _ _ R Rb) as A. fold d' in A. destruct (sum_real _ _ _ A) as (x' & R').
    destruct (IH (done ++ [set_double atom_fresh d']) d' x' R') as (ds & H1 & H2).
    exists (d' :: ds). split; [|exact (double_sums_cons d x y ys d' ds R A H2)].
    cbn [running]. rewrite Hb. cbn [bind length repeat]. rewrite aput_at. cbn [bind]. fold d'.
    rewrite zlen_app in H1. rewrite <- !app_assoc in H1. exact H1.
Qed.

(** * Bits *)

(** [op] works bit by bit. *)
Definition bit_op (op : Z -> Z -> Z) (f : bool -> bool -> bool) : Prop :=
  (forall a b n, 0 <= n -> Z.testbit (op a b) n = f (Z.testbit a n) (Z.testbit b n)) /\
  (forall a b n, 0 <= n -> Z.shiftr (op a b) n = op (Z.shiftr a n) (Z.shiftr b n)) /\
  op 0 0 = 0 /\ (op 0 (-1) = 0 \/ op 0 (-1) = -1) /\ (op (-1) 0 = 0 \/ op (-1) 0 = -1) /\ op (-1) (-1) = -1.
Lemma and_bits : bit_op Z.land andb.
Proof.
  split; [intros; apply Z.land_spec|]. split; [intros; apply Z.shiftr_land|]. cbn.
  split; [reflexivity|]. split; [now left|]. split; [now left|reflexivity].
Qed.
Lemma or_bits : bit_op Z.lor orb.
Proof.
  split; [intros; apply Z.lor_spec|]. split; [intros; apply Z.shiftr_lor|]. cbn.
  split; [reflexivity|]. split; [now right|]. split; [now right|reflexivity].
Qed.
Lemma in_signed t v : signed t = true -> in_type t v <-> Z.shiftr v (width t - 1) = 0 \/ Z.shiftr v (width t - 1) = -1.
Proof.
  intros S. unfold in_type. rewrite S. rewrite Z.shiftr_div_pow2 by (destruct t; cbn; lia).
  assert (P : 0 < 2^(width t - 1)) by (destruct t; reflexivity). set (p := 2^(width t - 1)) in *. split.
  - intros H. assert (-1 <= v / p < 1); [|lia]. split; [apply Z.div_le_lower_bound; lia|apply Z.div_lt_upper_bound; lia].
  - intros H. pose proof (Z.div_mod v p ltac:(lia)). pose proof (Z.mod_pos_bound v p ltac:(lia)). destruct H as [H|H]; rewrite H in *; lia.
Qed.
Lemma in_unsigned t v : signed t = false -> in_type t v <-> Z.shiftr v (width t) = 0.
Proof.
  intros S. unfold in_type. rewrite S. rewrite Z.shiftr_div_pow2 by (destruct t; cbn; lia).
  assert (P : 0 < 2^width t) by (destruct t; reflexivity). set (p := 2^width t) in *. split.
  - intros H. now apply Z.div_small.
  - intros H. pose proof (Z.div_mod v p ltac:(lia)). pose proof (Z.mod_pos_bound v p ltac:(lia)). rewrite H in *. lia.
Qed.
Lemma bit_wrap t v n : 0 <= n < width t -> Z.testbit (wrap t v) n = Z.testbit v n.
Proof.
  intros H. destruct (wrap_congr t v) as (k & ->).
  rewrite <- (Z.mod_pow2_bits_low (v + 2^width t * k) (width t) n), <- (Z.mod_pow2_bits_low v (width t) n) by lia.
  f_equal. rewrite Z.mul_comm. apply Z.mod_add. destruct t; discriminate.
Qed.
Lemma bit_op_ok op f t v1 v2 : bit_op op f -> bitwise f t v1 v2 (op (wrap t v1) (wrap t v2)).
Proof.
  intros (B & Sh & Z00 & Z01 & Z10 & Z11). split.
  - pose proof (proj1 (converted_wrap t v1)) as I1. pose proof (proj1 (converted_wrap t v2)) as I2.
    destruct (signed t) eqn:S.
    + apply (in_signed t _ S). apply (in_signed t _ S) in I1. apply (in_signed t _ S) in I2.
      rewrite Sh by (destruct t; cbn; lia). destruct I1 as [-> | ->], I2 as [-> | ->]; rewrite ?Z00, ?Z11; auto.
    + apply (in_unsigned t _ S). apply (in_unsigned t _ S) in I1. apply (in_unsigned t _ S) in I2.
      rewrite Sh by (destruct t; cbn; lia). now rewrite I1, I2.
  - intros n Hn. rewrite B by lia. now rewrite !bit_wrap by exact Hn.
Qed.

(** The largest type of integers. *)
Lemma largest_index_of t : largest_index (tag_of t) = rank t + 3.
Proof. destruct t; reflexivity. Qed.
Lemma largest_int argv ts t : Forall2 (fun tag t => tag = tag_of t) (concat argv) ts -> is_largest t ts ->
  get_largest_type argv = Ok (tag_of t).
Proof.
  intros H (Hin & Hmax). unfold get_largest_type. rewrite outer_fold by lia.
  pose proof (inner_fold (concat argv) 0 ltac:(lia)) as F. cbv zeta in F.
  set (r := fold_left _ (concat argv) 0) in *. destruct F as (F0 & Hall & Hex).
  assert (I : In (tag_of t) (concat argv)).
  { clear - H Hin. induction H as [|x y l l' E _ IH]; [destruct Hin|]. destruct Hin as [<-|Hin]; [left; exact E|right; auto]. }
  pose proof (Hall _ I) as L. rewrite largest_index_of in L.
  assert (r = rank t + 3) as ->; [|destruct t; reflexivity].
  destruct Hex as [Hex|(g & Hg & Eg)]; [pose proof (proj1 (conj (eq_refl : rank t = rank t) I)); assert (0 <= rank t) by (destruct t; cbn; lia); lia|].
  assert (exists t', In t' ts /\ g = tag_of t') as (t' & Ht' & Eg').
  { clear - H Hg. induction H as [|x y l l' E _ IH]; [destruct Hg|]. destruct Hg as [<-|Hg]; [exists y; split; [now left|exact E]|].
    destruct (IH Hg) as (t' & A & B). exists t'. split; [now right|exact B]. }
  specialize (Hmax t' Ht'). rewrite Eg', largest_index_of in Eg. lia.
Qed.

(** * Bytes *)

Lemma byte_byt k v : byte k v = byt v k.
Proof. reflexivity. Qed.
Lemma byte_wrap t k v : 0 <= k < width t / 8 -> byte k (wrap t v) = byte k v.
Proof.
  intros H. destruct (wrap_congr t v) as (c & ->). unfold byte.
  assert (W : width t = 8 * k + 8 + 8 * (width t / 8 - 1 - k)) by (assert (width t = 8 * (width t / 8)) by (destruct t; reflexivity); lia).
  rewrite W. rewrite !Z.pow_add_r by lia. set (p := 2^(8 * k)). set (e := 2^(8 * _)).
  assert (0 < p) by (apply Z.pow_pos_nonneg; lia).
  replace (v + p * 2^8 * e * c) with (v + (e * c * 2^8) * p) by ring. rewrite Z.div_add by lia. apply Z.mod_add. discriminate.
Qed.
Lemma swap32_byte k x : 0 <= k < 4 -> byte k (swap32 x) = byte (3 - k) x.
Proof.
  intros H. pose proof (swap32_bytes x) as E. unfold be_bytes in E. rewrite !le_bytes_byt0 in E.
  cbn [seq map rev app Z.of_nat Pos.of_succ_nat Pos.succ] in E. injection E as E0 E1 E2 E3. rewrite !byte_byt.
  assert (k = 0 \/ k = 1 \/ k = 2 \/ k = 3) as [-> |[-> |[-> | ->]]] by lia; [exact E0|exact E1|exact E2|exact E3].
Qed.
Lemma swap64_byte k x : 0 <= k < 8 -> byte k (swap64 x) = byte (7 - k) x.
Proof.
  intros H. pose proof (swap64_bytes x) as E. unfold be_bytes in E. rewrite !le_bytes_byt0 in E.
  cbn [seq map rev app Z.of_nat Pos.of_succ_nat Pos.succ] in E. injection E as E0 E1 E2 E3 E4 E5 E6 E7. rewrite !byte_byt.
  assert (k = 0 \/ k = 1 \/ k = 2 \/ k = 3 \/ k = 4 \/ k = 5 \/ k = 6 \/ k = 7) as
    [-> |[-> |[-> |[-> |[-> |[-> |[-> | ->]]]]]]] by lia;
    [exact E0|exact E1|exact E2|exact E3|exact E4|exact E5|exact E6|exact E7].
Qed.
Lemma reversed32 t v : width t = 32 -> reversed t v (wrap t (swap32 (wrap U32 v))).
Proof.
  intros W. split; [exact (proj1 (converted_wrap t _))|]. intros k Hk. rewrite byte_wrap by exact Hk.
  rewrite W in *. change (32 / 8) with 4 in *. rewrite swap32_byte by lia. rewrite byte_wrap by (change (width U32 / 8) with 4; lia). now replace (4 - 1 - k) with (3 - k) by lia.
Qed.
Lemma reversed64 t v : width t = 64 -> reversed t v (wrap t (swap64 (wrap U64 v))).
Proof.
  intros W. split; [exact (proj1 (converted_wrap t _))|]. intros k Hk. rewrite byte_wrap by exact Hk.
  rewrite W in *. change (64 / 8) with 8 in *. rewrite swap64_byte by lia. rewrite byte_wrap by (change (width U64 / 8) with 8; lia). now replace (8 - 1 - k) with (7 - k) by lia.
Qed.
(** Bytes determine a number. *)
Lemma bytes_low n : forall a b, (forall k, 0 <= k < Z.of_nat n -> byte k a = byte k b) -> a mod 2^(8 * Z.of_nat n) = b mod 2^(8 * Z.of_nat n).
Proof.
  induction n as [|n IH]; intros a b H. { now rewrite !Z.mod_1_r. }
  replace (8 * Z.of_nat (S n)) with (8 * Z.of_nat n + 8) by lia. rewrite Z.pow_add_r by lia.
  assert (0 < 2^(8 * Z.of_nat n)) by (apply Z.pow_pos_nonneg; lia).
  rewrite !Z.rem_mul_r by lia. rewrite (IH a b) by (intros k Hk; apply H; lia).
  pose proof (H (Z.of_nat n) ltac:(lia)) as E. unfold byte in E. now rewrite E.
Qed.
Lemma reversed_twice t v r r' : in_type t v -> reversed t v r -> reversed t r r' -> r' = v.
Proof.
  intros I (_ & R1) (I' & R2). apply (converted_unique t v).
  - split; [exact I'|]. assert (W : width t = 8 * Z.of_nat (Z.to_nat (width t / 8))) by (destruct t; reflexivity).
    assert (E : r' mod 2^width t = v mod 2^width t).
    { rewrite W. apply bytes_low. intros k Hk. rewrite R2 by lia. rewrite R1 by lia. f_equal. lia. }
    assert (P : 0 < 2^width t) by (destruct t; reflexivity). rewrite Zminus_mod, E, Z.sub_diag. now apply Z.mod_0_l, Z.neq_sym, Z.lt_neq.
  - split; [exact I|]. rewrite Z.sub_diag. apply Z.mod_0_l. destruct t; discriminate.
Qed.

(** * The remainder *)

Lemma finite_limit d q : real 52 11 d (Fin q) -> (Qabs q < overflow_limit 52 11)%Q.
Proof.
  intros R. destruct (finite_bound d q R) as (L & U).
  assert (H : (huge < overflow_limit 52 11)%Q) by reflexivity. apply Qabs_case; intros; lra.
Qed.
(** What is a double already is not changed by rounding. *)
Lemma rounds_same s x d b : rounds 52 11 s x d -> real 52 11 b (Fin x) -> real 52 11 d (Fin x).
Proof.
  intros (_ & _ & N & _) R. specialize (N (finite_limit _ _ R)). pose proof N as (v & Hv & _).
  destruct R as (w & Hw & Ew). destruct (nearest_le _ _ _ _ _ N Hv Hw) as (A & B). rewrite Ew in A, B.
  exists v. split; [exact Hv|]. apply Qle_antisym; [apply A|apply B]; apply Qle_refl.
Qed.
Lemma times_sign nan d q : (forall a b, is_nan 52 11 (nan a b)) -> real 52 11 d (Fin q) ->
  real 52 11 (dmul nan d (double_of_int (dsign d))) (Fin (Qabs q)).
Proof.
  intros Hn R. destruct (dsign_ok d q R) as (Z0 & Zm & Zp). pose proof (dfabs_ok d q R) as Ra.
  assert (X : exists z, dsign d = z /\ Z.abs z <= 1 /\ (q * inject_Z z == Qabs q)%Q).
  { destruct (Q_dec q 0) as [[L|L]|L].
    - exists (-1). split; [exact (Zm L)|]. split; [lia|]. rewrite Qabs_neg by lra. change (inject_Z (-1)) with (- (1))%Q. ring.
    - exists 1. split; [exact (Zp L)|]. split; [lia|]. rewrite Qabs_pos by lra. change (inject_Z 1) with 1%Q. ring.
    - exists 0. split; [exact (Z0 L)|]. split; [lia|]. rewrite L. reflexivity. }
  destruct X as (z & -> & Bz & Ez). destruct (mul_ok nan Hn _ _ _ _ R (real_int z ltac:(lia))) as (s & Rd).
  apply (rounds_same s _ _ (dfabs d)); [|exact Ra]. exact (rounds_ext _ _ _ _ _ _ Ez Rd).
Qed.
Lemma dfmod_int nan d1 d2 v1 v2 : (forall a b, is_nan 52 11 (nan a b)) ->
  real 52 11 d1 (Fin (inject_Z v1)) -> real 52 11 d2 (Fin (inject_Z v2)) -> Z.abs v1 <= 2^50 -> 0 < Z.abs v2 <= 2^33 ->
  real 52 11 (dfmod nan d1 d2) (Fin (inject_Z (v1 mod Z.abs v2))).
Proof.
  intros Hn R1 R2 B1 B2.
  assert (Ab : (Qabs (inject_Z v2) == inject_Z (Z.abs v2))%Q).
  { apply Qabs_case; intros L; change 0%Q with (inject_Z 0) in L; rewrite <- Zle_Qle in L.
    - now rewrite Z.abs_eq by lia.
    - rewrite Z.abs_neq by lia. now rewrite inject_Z_opp. }
  assert (Ra : real 52 11 (dfabs d2) (Fin (inject_Z (Z.abs v2)))) by exact (real_same _ (Fin _) (Fin _) (dfabs_ok _ _ R2) Ab).
  assert (Rm : real 52 11 (dmul nan d2 (double_of_int (dsign d2))) (Fin (inject_Z (Z.abs v2)))) by exact (real_same _ (Fin _) (Fin _) (times_sign nan _ _ Hn R2) Ab).
  destruct (div_floor nan d1 (dfabs d2) v1 (Z.abs v2) Hn R1 Ra B2 B1) as (q & Rq & Fl).
  pose proof (dfloor_ok _ _ _ Rq Fl) as Rf. unfold dfmod.
  pose proof (Z.div_mod v1 (Z.abs v2) ltac:(lia)) as D. pose proof (Z.mod_pos_bound v1 (Z.abs v2) ltac:(lia)) as M.
  assert (Bp : Z.abs (Z.abs v2 * (v1 / Z.abs v2)) <= 2^53) by lia.
  pose proof (product_int nan _ _ _ _ Hn Rm Rf Bp) as Rp.
  destruct (sub_ok nan Hn _ _ _ _ R1 Rp) as (s & Rd).
  apply (rounds_int s _ (inject_Z v1 + - inject_Z (Z.abs v2 * (v1 / Z.abs v2))) _); [|lia|exact Rd].
  rewrite <- inject_Z_opp, <- inject_Z_plus. replace (v1 + - (Z.abs v2 * (v1 / Z.abs v2))) with (v1 mod Z.abs v2) by lia. reflexivity.
Qed.

(** * Cross product *)

Lemma largest_double argv : In 100 (concat argv) -> ~ In 115 (concat argv) -> get_largest_type argv = Ok 100.
Proof.
  intros I N. unfold get_largest_type. rewrite outer_fold by lia.
  pose proof (inner_fold (concat argv) 0 ltac:(lia)) as F. cbv zeta in F.
  set (r := fold_left _ (concat argv) 0) in *. destruct F as (F0 & Hall & Hex).
  pose proof (Hall _ I) as L. change (largest_index 100) with 12 in L.
  assert (r = 12) as ->; [|reflexivity]. destruct Hex as [Hex|(g & Hg & Eg)]; [lia|].
  assert (K : g <> 115) by (intros ->; now apply N). rewrite <- Eg in *. clear - L K.
  assert (largest_index g <= 12); [|lia]. unfold largest_index. destruct (Z.eqb_spec g 115); [contradiction|].
  repeat (destruct (_ =? _); cbn [orb]; try lia).
Qed.
Definition minus_t (t : ity) : Z -> Z -> Z -> Z -> res Z :=
  match t with
  | I8 => minus_int 32 s8 | U8 => minus_int 32 u8 | I16 => minus_int 32 s16 | U16 => minus_int 32 u16
  | I32 => minus_int 32 (fun v => v) | U32 => minus_word u32 | I64 => minus_int 64 (fun v => v) | U64 => minus_word u64
  end.
Lemma minus_int_ok n fin p q r s :
  (- 2^(n - 1) <= p * q < 2^(n - 1) /\ - 2^(n - 1) <= r * s < 2^(n - 1) /\ - 2^(n - 1) <= p * q - r * s < 2^(n - 1) ->
     minus_int n fin p q r s = Ok (fin (p * q - r * s))) /\
  (~ (- 2^(n - 1) <= p * q < 2^(n - 1) /\ - 2^(n - 1) <= r * s < 2^(n - 1) /\ - 2^(n - 1) <= p * q - r * s < 2^(n - 1)) ->
     minus_int n fin p q r s = Ub Overflow).
Proof.
  unfold minus_int. split.
  - intros (A & B & C). rewrite (checked_ok n (p * q) A). cbn [bind]. rewrite (checked_ok n (r * s) B). cbn [bind].
    rewrite (checked_ok n _ C). reflexivity.
  - intros H. destruct (Z_le_dec (- 2^(n - 1)) (p * q)) as [A1|A1]; [|rewrite checked_over by lia; reflexivity].
    destruct (Z_lt_dec (p * q) (2^(n - 1))) as [A2|A2]; [|rewrite checked_over by lia; reflexivity].
    rewrite (checked_ok n (p * q)) by lia. cbn [bind].
    destruct (Z_le_dec (- 2^(n - 1)) (r * s)) as [B1|B1]; [|rewrite checked_over by lia; reflexivity].
    destruct (Z_lt_dec (r * s) (2^(n - 1))) as [B2|B2]; [|rewrite checked_over by lia; reflexivity].
    rewrite (checked_ok n (r * s)) by lia. cbn [bind]. rewrite checked_over by lia. reflexivity.
Qed.
Lemma minus_word_ok t p q r s : wrap t (wrap t (p * q) - wrap t (r * s)) = wrap t (p * q - r * s).
Proof.
  rewrite <- Z.add_opp_r, wrap_sum. apply (converted_unique t (p * q - r * s)); [|apply converted_wrap].
  apply (converted_congr t (p * q + - wrap t (r * s))); [apply converted_wrap|].
  destruct (wrap_congr t (r * s)) as (k & ->).
  replace (p * q - r * s - (p * q + - (r * s + 2^width t * k))) with (k * 2^width t) by lia.
  apply Z.mod_mul. destruct t; discriminate.
Qed.
Lemma minus_t_ok t p q r s :
  (difference_ok t p q r s -> minus_t t p q r s = Ok (wrap t (p * q - r * s))) /\
  (~ difference_ok t p q r s -> minus_t t p q r s = Ub Overflow).
Proof.
  assert (T32 : traps I32) by (split; [reflexivity|cbn; lia]). assert (T64 : traps I64) by (split; [reflexivity|cbn; lia]).
  assert (N : forall u, signed u = false -> ~ traps u) by (intros u H (K & _); rewrite H in K; discriminate).
  assert (G32 : forall u fin, (u = I8 \/ u = U8 \/ u = I16 \/ u = U16 \/ u = I32) ->
    (difference_ok u p q r s -> minus_int 32 fin p q r s = Ok (fin (p * q - r * s))) /\
    (~ difference_ok u p q r s -> minus_int 32 fin p q r s = Ub Overflow)).
  { intros u fin Hu. destruct (minus_int_ok 32 fin p q r s) as (A & B).
    assert (X : difference_ok u p q r s <-> in_type I32 (p * q) /\ in_type I32 (r * s) /\ in_type I32 (p * q - r * s)).
    { unfold difference_ok. assert ((if width u <? 32 then I32 else u) = I32) as -> by (destruct Hu as [-> |[-> |[-> |[-> | ->]]]]; reflexivity).
      cbv zeta. split; [intros H; exact (H T32)|intros H _; exact H]. }
    split; intros H.
    - apply A. apply X in H. exact H.
    - apply B. intros K. apply H, X, K. }
  destruct t; cbn [minus_t].
  - exact (G32 I8 s8 ltac:(auto)).
  - exact (G32 I16 s16 ltac:(auto)).
  - pose proof (G32 I32 (fun v => v) ltac:(auto 6)) as (A & B). split; [|exact B]. intros H. rewrite (A H).
    rewrite wrap_id; [reflexivity|]. destruct (H T32) as (_ & _ & C). exact C.
  - destruct (minus_int_ok 64 (fun v => v) p q r s) as (A & B). split; intros H.
    + rewrite A by exact (H T64). rewrite wrap_id; [reflexivity|]. destruct (H T64) as (_ & _ & C). exact C.
    + apply B. intros K. apply H. intros _. exact K.
  - exact (G32 U8 u8 ltac:(auto)).
  - exact (G32 U16 u16 ltac:(auto)).
  - split; intros H; [|exfalso; apply H; intros K; destruct (N U32 eq_refl K)]. unfold minus_word. f_equal. exact (minus_word_ok U32 p q r s).
  - split; intros H; [|exfalso; apply H; intros K; destruct (N U64 eq_refl K)]. unfold minus_word. f_equal. exact (minus_word_ok U64 p q r s).
Qed.

(** * Scaling *)

Lemma quotient_real x y d : quotient_is x y d -> ~ same y (Fin 0) -> exists z, real 52 11 d z.
Proof.
  intros H Nz. destruct x as [p|s|], y as [q|s'|]; cbn [quotient_is] in H; try (now exists NotANumber).
  - destruct H as (s & H). exact (rounds_real _ _ _ H).
  - destruct H as (v & Hv & _). exists (Fin v), v. split; [exact Hv|apply Qeq_refl].
  - cbn [same] in Nz. destruct (Q_dec q 0) as [[L|L]|L]; [|exists (Infinite s); now apply H|contradiction].
    exists (Infinite (negb s)). now apply H.
Qed.
Lemma diff_nonzero nan d1 d2 q1 q2 x : (forall a b, is_nan 52 11 (nan a b)) -> real 52 11 d1 (Fin q1) -> real 52 11 d2 (Fin q2) ->
  ~ (q1 == q2)%Q -> real 52 11 (dsub nan d2 d1) x -> ~ same x (Fin 0).
Proof.
  intros Hn R1 R2 Ne Rx K. pose proof (proj2 (deq_iff _ _ _ _ Rx real_zero) K) as D.
  destruct (diff_sign nan d1 d2 q1 q2 Hn R1 R2) as (A & B). unfold dsign in A, B. rewrite D in A, B.
  destruct (Q_dec q1 q2) as [[L|L]|L]; [specialize (A L); discriminate|specialize (B L); discriminate|contradiction].
Qed.
Lemma some_real d z : trunc64 d = Some z -> exists q, real 52 11 d (Fin q) /\ truncates_to q z.
Proof.
  intros H. pose proof (ieee_trunc_ok 52 11 d ltac:(lia) ltac:(lia)) as T. destruct (ieee_value 52 11 d) as [q|] eqn:V.
  - destruct T as (z' & Hz & T). unfold trunc64 in H. rewrite Hz in H. injection H as ->. exists q. split; [|exact T].
    exists q. split; [exact V|apply Qeq_refl].
  - unfold trunc64 in H. rewrite T in H. discriminate.
Qed.
