(** Proofs about comparing numbers and strings. *)

From Coq Require Import ZArith List Bool QArith Qabs Lia Lqa.
From Verif Require Import Base BaseProofs SerialModel AtomUModel AtomSpec AtomProofs RoundSpec FloatModel FloatProofs
  RoundProofs RoundProps NumProps FArithModel ExprModel ExprSpec ExprProps RealSpec.
Import ListNotations.
Open Scope Z_scope.

Lemma double_fmt : fmt 52 11.
Proof. split; lia. Qed.
Lemma float_fmt : fmt 23 8.
Proof. split; lia. Qed.

(** Infinities and NaNs in the arithmetic of the model. *)
Lemma inf_fields (s : bool) :
  ieee_decode 52 11 (infinity 52 11 s) = None /\ ieee_isnan 52 11 (infinity 52 11 s) = false /\
  ieee_sign 52 11 (infinity 52 11 s) = s.
Proof. destruct s; repeat split; reflexivity. Qed.

Lemma nan_fields d : is_nan 52 11 d -> ieee_decode 52 11 d = None /\ ieee_isnan 52 11 d = true.
Proof.
  intros [H1 H2]. assert (H : ieee_decode 52 11 d = None).
  { unfold ieee_decode. rewrite H1. rewrite Z.eqb_refl. reflexivity. }
  split; [exact H|]. unfold ieee_isnan. rewrite H. apply Z.eqb_neq in H2. rewrite H2. reflexivity.
Qed.

Lemma fin_fields d q : real 52 11 d (Fin q) ->
  ieee_isnan 52 11 d = false /\
  exists s m e, ieee_decode 52 11 d = Some (s, m, e) /\ 0 <= m /\
    (q == inject_Z (signed_of s m) * pow2Q e)%Q.
Proof.
  intros (v & Hv & Hq). pose proof (value_decode 52 11 d ltac:(lia) ltac:(lia)) as H. rewrite Hv in H.
  unfold ieee_isnan. destruct (ieee_decode 52 11 d) as [[[s m] e]|] eqn:D; [|destruct H].
  split; [reflexivity|]. exists s, m, e. split; [reflexivity|].
  pose proof (decode_bounds 52 11 d s m e double_fmt D). split; [lia|].
  unfold signed_of. now rewrite <- H.
Qed.

Lemma scaled_compare a b c : (inject_Z a * pow2Q c ?= inject_Z b * pow2Q c)%Q = (a ?= b).
Proof.
  pose proof (pow2Q_pos c) as Hc. destruct (a ?= b) eqn:E.
  - apply Z.compare_eq in E. subst b. apply Qeq_alt. reflexivity.
  - apply (proj1 (Qlt_alt _ _)). apply Qmult_lt_r; [exact Hc|]. rewrite <- Zlt_Qlt. exact E.
  - apply (proj1 (Qgt_alt _ _)). apply Qmult_lt_r; [exact Hc|]. rewrite <- Zlt_Qlt. now apply Z.gt_lt.
Qed.

(** Comparing doubles is comparing the numbers they stand for. *)
Lemma compare_real d1 d2 x y : real 52 11 d1 x -> real 52 11 d2 y ->
  match ieee_compare 52 11 d1 d2 with
  | Some Lt => less x y /\ ~ less y x /\ ~ same x y
  | Some Eq => same x y /\ ~ less x y /\ ~ less y x
  | Some Gt => less y x /\ ~ less x y /\ ~ same x y
  | None => ~ less x y /\ ~ less y x /\ ~ same x y
  end.
Proof.
  intros H1 H2. unfold ieee_compare.
  destruct x as [p|s|], y as [q|s'|]; cbn [less same];
    try (destruct (fin_fields _ _ H1) as (-> & s1 & m1 & e1 & D1 & _ & E1));
    try (destruct (fin_fields _ _ H2) as (-> & s2 & m2 & e2 & D2 & _ & E2));
    try (cbn [real] in H1; subst d1; destruct (inf_fields s) as (D1 & -> & S1); rewrite ?S1);
    try (cbn [real] in H2; subst d2; destruct (inf_fields s') as (D2 & -> & S2); rewrite ?S2);
    try (destruct (nan_fields _ H1) as (D1 & ->));
    try (destruct (nan_fields _ H2) as (D2 & ->));
    rewrite ?D1, ?D2; cbn [orb]; rewrite ?orb_true_r; try tauto.
  - pose proof (scaled_compare (signed_of s1 m1 * 2^(e1 - Z.min e1 e2)) (signed_of s2 m2 * 2^(e2 - Z.min e1 e2)) (Z.min e1 e2)) as S.
    rewrite <- !unscale in S by lia. rewrite <- E1, <- E2 in S. rewrite <- S.
    destruct (p ?= q)%Q eqn:C.
    + apply Qeq_alt in C. rewrite C. split; [reflexivity|]. split; apply Qlt_irrefl.
    + apply Qlt_alt in C. split; [exact C|]. split; lra.
    + apply Qgt_alt in C. split; [exact C|]. split; lra.
  - destruct s'; cbn; repeat split; try discriminate; tauto.
  - destruct s; cbn; repeat split; try discriminate; tauto.
  - destruct s, s'; cbn; repeat split; try discriminate; try tauto; intros [? ?]; discriminate.
Qed.

(** What comparing sees of a number. *)
Lemma number_double_of o a x : number a x ->
  exists d, au_double o a = Ok d /\ real 52 11 d x /\
    is_numeric (a_tt a) = true /\ (a_tt a =? 115) = false.
Proof.
  intros [b t z a' Ho Hz|a' bits x' Hb Hr|a' bits x' Hb Hr].
  - destruct (operand_numeric _ _ _ _ Ho) as (N1 & _ & N2 & _).
    destruct (double_of_int_exact z Hz) as (q & Hq & E).
    exists (double_of_int z). split; [|split; [exists q; split; [exact Hq|exact E]|split; assumption]].
    destruct Ho as [t v a'' Hv|a''|a'']; [now apply au_double_set|destruct a''; reflexivity..].
  - assert (T : a_tt (set_float a' bits) = 102) by (destruct a'; reflexivity).
    destruct (C44_floats_special o a' bits Hb) as (r & Hr1 & Hi & Hn).
    assert (Hd : r = double_of_float bits).
    { destruct a' as [tg w p]. unfold set_float, au_double in Hr1. rewrite !(proj2 (Z.eqb_neq 102 100)) in Hr1 by lia.
      rewrite Z.eqb_refl in Hr1. injection Hr1 as <-. f_equal. unfold w_f, store, u32.
      Z.div_mod_to_equations; lia. }
    exists r. split; [exact Hr1|]. rewrite T. split; [|split; reflexivity].
    destruct x' as [q|s|]; cbn [real] in *; [|now apply Hi|now apply Hn].
    destruct Hr as (v & Hv & Hq). destruct (double_of_float_exact bits v Hv) as (q' & Hq' & E).
    exists q'. rewrite Hd. split; [exact Hq'|]. now rewrite E.
  - assert (T : a_tt (set_double a' bits) = 100) by (destruct a'; reflexivity).
    exists bits. rewrite T. split; [|split; [exact Hr|split; reflexivity]].
    destruct a' as [tg w p]. cbn. f_equal. unfold w_d, store, u64. Z.div_mod_to_equations; lia.
Qed.

Lemma answer_bool op E a b P (c : bool) : (forall r, op E (Some a) (Some b) r = Ok (0, set_bool r c)) ->
  (c = true <-> P) -> answers op E a b P.
Proof.
  intros H Hc r. exists (set_bool r c). split; [apply H|]. destruct r as [tg w p]. destruct c; cbn.
  - split; [reflexivity|]. intros N. elim N. now apply Hc.
  - split; [|reflexivity]. intros HP. apply Hc in HP. discriminate.
Qed.

Lemma order_numbers os sn od ot E a b x y d1 d2 :
  au_double (e_double E) a = Ok d1 -> is_numeric (a_tt a) = true -> (a_tt a =? 115) = false ->
  au_double (e_double E) b = Ok d2 -> is_numeric (a_tt b) = true -> (a_tt b =? 115) = false ->
  real 52 11 d1 x -> real 52 11 d2 y ->
  forall r, op_order os sn od ot E (Some a) (Some b) r = Ok (0, set_bool r (od d1 d2)).
Proof.
  intros A1 A2 A3 B1 B2 B3 _ _ r. unfold op_order. rewrite A2, A3, B2, B3. cbn [andb].
  unfold on_doubles. rewrite A1, B1. reflexivity.
Qed.

(** strcmp and the order of strings. *)
Lemma strcmp_spec s1 : forall s2, characters s1 -> characters s2 ->
  match strcmp s1 s2 with
  | Lt => precedes s1 s2
  | Eq => s1 = s2
  | Gt => precedes s2 s1
  end.
Proof.
  induction s1 as [|c1 s1 IH]; intros [|c2 s2] H1 H2; cbn [strcmp].
  - reflexivity.
  - exists [], [], (c2 :: s2). repeat split.
  - exists [], [], (c1 :: s1). repeat split.
  - apply Forall_cons_iff in H1 as [C1 H1]. apply Forall_cons_iff in H2 as [C2 H2].
    unfold u8. rewrite !Z.mod_small by lia. destruct (c1 ?= c2) eqn:C.
    + apply Z.compare_eq in C. subst c2. specialize (IH s2 H1 H2). destruct (strcmp s1 s2).
      * now subst s2.
      * destruct IH as (p & r1 & r2 & -> & -> & M). exists (c1 :: p), r1, r2. repeat split. exact M.
      * destruct IH as (p & r1 & r2 & -> & -> & M). exists (c1 :: p), r1, r2. repeat split. exact M.
    + exists [], (c1 :: s1), (c2 :: s2). repeat split. exact C.
    + exists [], (c2 :: s2), (c1 :: s1). repeat split. now apply Z.gt_lt.
Qed.

Lemma precedes_cons c s1 s2 : precedes (c :: s1) (c :: s2) -> precedes s1 s2.
Proof.
  intros (p & r1 & r2 & E1 & E2 & M). destruct p as [|x p].
  - cbn in E1, E2. subst r1 r2. lia.
  - cbn in E1, E2. injection E1 as _ ->. injection E2 as _ ->. exists p, r1, r2. repeat split. exact M.
Qed.
Lemma precedes_irrefl s : ~ precedes s s.
Proof.
  induction s as [|c s IH]; [|intros H; exact (IH (precedes_cons _ _ _ H))].
  intros (p & r1 & r2 & E1 & E2 & M). symmetry in E1, E2. apply app_eq_nil in E1 as [_ ->]. apply app_eq_nil in E2 as [_ ->].
  exact M.
Qed.
Lemma precedes_asym s1 : forall s2, precedes s1 s2 -> ~ precedes s2 s1.
Proof.
  induction s1 as [|c s1 IH]; intros [|d s2] H K.
  - now apply precedes_irrefl in H.
  - destruct K as (p & r1 & r2 & E1 & E2 & M). symmetry in E2. apply app_eq_nil in E2 as [-> ->]. destruct r1; exact M.
  - destruct H as (p & r1 & r2 & E1 & E2 & M). symmetry in E2. apply app_eq_nil in E2 as [-> ->]. destruct r1; exact M.
  - destruct (Z.eq_dec c d) as [->|N].
    + apply precedes_cons in H. apply precedes_cons in K. exact (IH s2 H K).
    + destruct H as (p & r1 & r2 & E1 & E2 & M). destruct K as (p' & r1' & r2' & E1' & E2' & M').
      destruct p as [|x p]; [|cbn in E1, E2; congruence]. destruct p' as [|x' p']; [|cbn in E1', E2'; congruence].
      cbn in *. subst. lia.
Qed.

(** Rounding to doubles keeps the order of integers. *)
Lemma nearest_mono mb eb x y bx by_ vx vy : (x < y)%Q -> nearest mb eb x bx -> nearest mb eb y by_ ->
  ieee_value mb eb bx = Some vx -> ieee_value mb eb by_ = Some vy -> (vx <= vy)%Q.
Proof.
  intros Hxy (v & Hv & Nv) (w & Hw & Nw) Ev Ew. rewrite Hv in Ev. injection Ev as <-. rewrite Hw in Ew. injection Ew as <-.
  destruct (Qlt_le_dec w v) as [L|L]; [exfalso|exact L].
  destruct (Nv by_ w Hw) as [A _]. destruct (Nw bx v Hv) as [B _].
  revert A B. apply Qabs_case; intros ?; apply Qabs_case; intros ?; apply Qabs_case; intros ?; apply Qabs_case; intros ?; lra.
Qed.

Lemma wide_limit z : Z.abs z < 2^1023 -> (Qabs (inject_Z z) < overflow_limit 52 11)%Q.
Proof.
  intros H. unfold overflow_limit. change (2^(11-1) - 52 - 2) with 970.
  fold (pow2Q 970). rewrite (pow2Q_nonneg 970) by lia. rewrite <- inject_Z_mult.
  assert (Ha : (Qabs (inject_Z z) == inject_Z (Z.abs z))%Q).
  { unfold Qabs, inject_Z. reflexivity. }
  rewrite Ha. rewrite <- Zlt_Qlt. change (52 + 2) with 54.
  replace (2^1023) with (2^53 * 2^970) in H by (rewrite <- Z.pow_add_r by lia; reflexivity).
  assert (0 < 2^970) by (apply Z.pow_pos_nonneg; lia). nia.
Qed.

Lemma in_type_wide t v : in_type t v -> Z.abs v < 2^1023.
Proof.
  intros H. assert (Z.abs v < 2^64) by (unfold in_type in H; destruct t; cbn in H; lia).
  assert (2^64 < 2^1023) by (apply Z.pow_lt_mono_r; lia). lia.
Qed.

Lemma int_real t v : in_type t v ->
  exists q, double_value (double_of_int v) = Some q /\ nearest 52 11 (inject_Z v) (double_of_int v).
Proof.
  intros H. destruct (int_rounds 52 11 v double_fmt) as (_ & _ & N & _).
  specialize (N (wide_limit v (in_type_wide t v H))). destruct N as (q & Hq & N).
  exists q. split; [exact Hq|]. exists q. split; [exact Hq|exact N].
Qed.
