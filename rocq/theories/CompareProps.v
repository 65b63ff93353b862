(** C50: the comparison operators of the expression language. *)

From Coq Require Import ZArith List Bool QArith Lia Lqa.
From Verif Require Import Base BaseProofs Text WireSpec TimetagModel TimetagSpec TimetagProofs TimetagProps SerialModel SerialSpec SerialProofs
  SerialProps DeserProofs DeserProps AtomUModel AtomSpec AtomProofs NumProps RoundSpec FloatModel FloatProofs RoundProofs RoundProps
  FArithModel ExprModel ExprSpec ExprProps RealSpec CompareProofs FlattenProps.
Import ListNotations.
Open Scope Z_scope.

(** Booleans, integers of at most 53 bits, floats and doubles are compared by the
    numbers they stand for, whatever their types; a NaN is different from
    everything and in no order with anything. *)
Theorem C50_numbers E a b x y : number a x -> number b y ->
  answers op_lt E a b (less x y) /\
  answers op_gt E a b (less y x) /\
  answers op_le E a b (less x y \/ same x y) /\
  answers op_gte E a b (less y x \/ same x y) /\
  answers op_eq E a b (same x y) /\
  answers op_neq E a b (~ same x y).
Proof.
  intros Ha Hb.
  destruct (number_double_of (e_double E) a x Ha) as (d1 & A1 & A2 & A3 & A4).
  destruct (number_double_of (e_double E) b y Hb) as (d2 & B1 & B2 & B3 & B4).
  pose proof (compare_real d1 d2 x y A2 B2) as C.
  assert (O : forall os sn od ot r, op_order os sn od ot E (Some a) (Some b) r = Ok (0, set_bool r (od d1 d2))).
  { intros. eapply order_numbers; eassumption. }
  repeat split.
  - apply (answer_bool _ _ _ _ _ (dlt d1 d2)); [intros r; apply O|]. unfold dlt.
    destruct (ieee_compare 52 11 d1 d2) as [[]|]; split; intros; try discriminate; tauto.
  - apply (answer_bool _ _ _ _ _ (dgt d1 d2)); [intros r; apply O|]. unfold dgt.
    destruct (ieee_compare 52 11 d1 d2) as [[]|]; split; intros; try discriminate; tauto.
  - apply (answer_bool _ _ _ _ _ (dle d1 d2)); [intros r; apply O|]. unfold dle.
    destruct (ieee_compare 52 11 d1 d2) as [[]|]; split; intros; try discriminate; tauto.
  - apply (answer_bool _ _ _ _ _ (dge d1 d2)); [intros r; apply O|]. unfold dge.
    destruct (ieee_compare 52 11 d1 d2) as [[]|]; split; intros; try discriminate; tauto.
  - apply (answer_bool _ _ _ _ _ (deq d1 d2)).
    + intros r. unfold op_eq. rewrite A3, A4, B3. cbn [andb]. unfold on_doubles. rewrite A1, B1. reflexivity.
    + unfold deq. destruct (ieee_compare 52 11 d1 d2) as [[]|]; split; intros; try discriminate; tauto.
  - apply (answer_bool _ _ _ _ _ (negb (deq d1 d2))).
    + intros r. unfold op_neq. rewrite A3, A4, B3. cbn [andb]. unfold on_doubles. rewrite A1, B1. reflexivity.
    + unfold deq. destruct (ieee_compare 52 11 d1 d2) as [[]|]; cbn [negb]; split; intros; try discriminate; tauto.
Qed.
Print Assumptions C50_numbers.

Example C50_numbers_case a b :
  number (set_float a (126 * 2^23)) (Fin (1#2)) /\ number (set_uint8 b 200) (Fin 200) /\
  less (Fin (1#2)) (Fin 200) /\
  number (set_double a (infinity 52 11 true)) (Infinite true) /\ less (Infinite true) (Fin (1#2)).
Proof.
  split; [|split; [|split; [|split]]].
  - apply number_float; [lia|]. eexists. split; [reflexivity|]. reflexivity.
  - apply (number_int false U8 200); [|lia]. apply (int_operand U8). unfold in_type. cbn. lia.
  - cbn. lra.
  - apply number_double; [|reflexivity]. unfold infinity. lia.
  - reflexivity.
Qed.

(** Integers of any of the 64 bit types are rounded first: equal ones are equal,
    and of two different ones the smaller is never said to be the greater. *)
Theorem C50_integers E b1 b2 t1 t2 v1 v2 f1 f2 : operand b1 t1 v1 f1 -> operand b2 t2 v2 f2 ->
  (v1 = v2 -> answers op_eq E f1 f2 True /\ answers op_neq E f1 f2 False /\
     answers op_lt E f1 f2 False /\ answers op_gt E f1 f2 False /\
     answers op_le E f1 f2 True /\ answers op_gte E f1 f2 True) /\
  (v1 < v2 -> answers op_gt E f1 f2 False /\ answers op_le E f1 f2 True) /\
  (v1 > v2 -> answers op_lt E f1 f2 False /\ answers op_gte E f1 f2 True).
Proof.
  intros O1 O2.
  assert (D : forall b t v f, operand b t v f -> au_double (e_double E) f = Ok (double_of_int v)).
  { intros b t v f []; [now apply au_double_set|destruct a; reflexivity..]. }
  pose proof (D _ _ _ _ O1) as A1. pose proof (D _ _ _ _ O2) as B1. clear D.
  destruct (operand_numeric _ _ _ _ O1) as (A3 & _ & A4 & _).
  destruct (operand_numeric _ _ _ _ O2) as (B3 & _ & B4 & _).
  destruct (int_real t1 v1 (operand_in _ _ _ _ O1)) as (q1 & Q1 & N1).
  destruct (int_real t2 v2 (operand_in _ _ _ _ O2)) as (q2 & Q2 & N2).
  set (d1 := double_of_int v1) in *. set (d2 := double_of_int v2) in *.
  assert (A2 : real 52 11 d1 (Fin q1)) by (exists q1; split; [exact Q1|reflexivity]).
  assert (B2 : real 52 11 d2 (Fin q2)) by (exists q2; split; [exact Q2|reflexivity]).
  pose proof (compare_real d1 d2 _ _ A2 B2) as C. cbn [less same] in C.
  assert (O : forall os sn od ot r, op_order os sn od ot E (Some f1) (Some f2) r = Ok (0, set_bool r (od d1 d2))).
  { intros. eapply order_numbers; eassumption. }
  assert (Leq : v1 = v2 -> (q1 == q2)%Q).
  { intros Ev. subst d1 d2. rewrite Ev in Q1. rewrite Q1 in Q2. injection Q2 as ->. reflexivity. }
  assert (Llt : v1 < v2 -> (q1 <= q2)%Q).
  { intros L. rewrite Zlt_Qlt in L. exact (nearest_mono _ _ _ _ _ _ _ _ L N1 N2 Q1 Q2). }
  assert (Lgt : v1 > v2 -> (q2 <= q1)%Q).
  { intros L. apply Z.gt_lt in L. rewrite Zlt_Qlt in L. exact (nearest_mono _ _ _ _ _ _ _ _ L N2 N1 Q2 Q1). }
  split; [|split].
  - intros Ev. specialize (Leq Ev). destruct (ieee_compare 52 11 d1 d2) as [[]|] eqn:K; try (exfalso; lra); try tauto.
    repeat split.
    + apply (answer_bool _ _ _ _ _ true); [|tauto].
      intros r. unfold op_eq. rewrite A3, A4, B3. cbn [andb]. unfold on_doubles. rewrite A1, B1. cbn [bind].
      unfold deq. rewrite K. reflexivity.
    + apply (answer_bool _ _ _ _ _ false); [|split; [discriminate|tauto]].
      intros r. unfold op_neq. rewrite A3, A4, B3. cbn [andb]. unfold on_doubles. rewrite A1, B1. cbn [bind].
      unfold deq. rewrite K. reflexivity.
    + apply (answer_bool _ _ _ _ _ false); [|split; [discriminate|tauto]]. intros r. unfold op_lt. rewrite O. unfold dlt. now rewrite K.
    + apply (answer_bool _ _ _ _ _ false); [|split; [discriminate|tauto]]. intros r. unfold op_gt. rewrite O. unfold dgt. now rewrite K.
    + apply (answer_bool _ _ _ _ _ true); [|tauto]. intros r. unfold op_le. rewrite O. unfold dle. now rewrite K.
    + apply (answer_bool _ _ _ _ _ true); [|tauto]. intros r. unfold op_gte. rewrite O. unfold dge. now rewrite K.
  - intros L. specialize (Llt L). split.
    + apply (answer_bool _ _ _ _ _ false); [|split; [discriminate|tauto]]. intros r. unfold op_gt. rewrite O. unfold dgt.
      destruct (ieee_compare 52 11 d1 d2) as [[]|]; try reflexivity. exfalso. lra.
    + apply (answer_bool _ _ _ _ _ true); [|tauto]. intros r. unfold op_le. rewrite O. unfold dle.
      destruct (ieee_compare 52 11 d1 d2) as [[]|]; try reflexivity; exfalso; lra.
  - intros L. specialize (Lgt L). split.
    + apply (answer_bool _ _ _ _ _ false); [|split; [discriminate|tauto]]. intros r. unfold op_lt. rewrite O. unfold dlt.
      destruct (ieee_compare 52 11 d1 d2) as [[]|]; try reflexivity. exfalso. lra.
    + apply (answer_bool _ _ _ _ _ true); [|tauto]. intros r. unfold op_gte. rewrite O. unfold dge.
      destruct (ieee_compare 52 11 d1 d2) as [[]|]; try reflexivity; exfalso; lra.
Qed.
Print Assumptions C50_integers.

(** Beyond 53 bits different integers can be equal. *)
Theorem C50_wide_refuted E a b :
  operand false I64 (2^53) (set_int64 a (2^53)) /\ operand false I64 (2^53 + 1) (set_int64 b (2^53 + 1)) /\
  answers op_lt E (set_int64 a (2^53)) (set_int64 b (2^53 + 1)) False /\
  answers op_eq E (set_int64 a (2^53)) (set_int64 b (2^53 + 1)) True.
Proof.
  assert (I1 : in_type I64 (2^53)) by (unfold in_type; cbn; lia).
  assert (I2 : in_type I64 (2^53 + 1)) by (unfold in_type; cbn; lia).
  assert (O1 : operand false I64 (2^53) (set_int64 a (2^53))) by (exact (int_operand I64 _ a I1)).
  assert (O2 : operand false I64 (2^53 + 1) (set_int64 b (2^53 + 1))) by (exact (int_operand I64 _ b I2)).
  split; [exact O1|]. split; [exact O2|].
  pose proof (au_double_set (e_double E) I64 a _ I1) as A1. pose proof (au_double_set (e_double E) I64 b _ I2) as B1.
  cbn [set_u] in A1, B1.
  destruct (operand_numeric _ _ _ _ O1) as (A3 & _ & A4 & _). destruct (operand_numeric _ _ _ _ O2) as (B3 & _ & B4 & _).
  split.
  - apply (answer_bool _ _ _ _ _ false); [|split; [discriminate|tauto]]. intros r. unfold op_lt, op_order.
    rewrite A3, A4, B3, B4. cbn [andb]. unfold on_doubles. rewrite A1, B1. reflexivity.
  - apply (answer_bool _ _ _ _ _ true); [|tauto]. intros r. unfold op_eq.
    rewrite A3, A4, B3. cbn [andb]. unfold on_doubles. rewrite A1, B1. reflexivity.
Qed.
Print Assumptions C50_wide_refuted.

(** Strings are in the order of their characters as unsigned numbers; exactly one
    of less, equal and greater holds. *)
Theorem C50_strings E a b p1 p2 s1 s2 : characters s1 -> characters s2 ->
  answers op_lt E (set_string a p1 s1) (set_string b p2 s2) (precedes s1 s2) /\
  answers op_gt E (set_string a p1 s1) (set_string b p2 s2) (precedes s2 s1) /\
  answers op_le E (set_string a p1 s1) (set_string b p2 s2) (precedes s1 s2 \/ s1 = s2) /\
  answers op_gte E (set_string a p1 s1) (set_string b p2 s2) (precedes s2 s1 \/ s1 = s2) /\
  answers op_eq E (set_string a p1 s1) (set_string b p2 s2) (s1 = s2) /\
  answers op_neq E (set_string a p1 s1) (set_string b p2 s2) (s1 <> s2).
Proof.
  intros H1 H2. pose proof (strcmp_spec s1 s2 H1 H2) as C.
  assert (Neq : s1 = s2 -> ~ precedes s1 s2 /\ ~ precedes s2 s1).
  { intros <-. split; apply precedes_irrefl. }
  pose proof (precedes_asym s1 s2) as A.
  repeat split;
    [apply (answer_bool _ _ _ _ _ (match strcmp s1 s2 with Lt => true | _ => false end))
    |apply (answer_bool _ _ _ _ _ (match strcmp s1 s2 with Gt => true | _ => false end))
    |apply (answer_bool _ _ _ _ _ (match strcmp s1 s2 with Gt => false | _ => true end))
    |apply (answer_bool _ _ _ _ _ (match strcmp s1 s2 with Lt => false | _ => true end))
    |apply (answer_bool _ _ _ _ _ (match strcmp s1 s2 with Eq => true | _ => false end))
    |apply (answer_bool _ _ _ _ _ (match strcmp s1 s2 with Eq => false | _ => true end))];
    try (intros r; reflexivity);
    destruct (strcmp s1 s2); split; intros; try discriminate; try reflexivity; tauto.
Qed.
Print Assumptions C50_strings.

Example C50_strings_case : characters (str "ab") /\ characters [97; 200] /\ precedes (str "ab") [97; 200] /\
  precedes (str "a") (str "ab").
Proof.
  assert (H : forall a b, 0 < a < 256 -> 0 < b < 256 -> characters [a; b]).
  { intros. apply Forall_cons; [assumption|]. apply Forall_cons; [assumption|apply Forall_nil]. }
  split; [apply H; cbv; intuition discriminate|]. split; [apply H; lia|]. split.
  - exists [97], [98], [200]. repeat split.
  - exists [97], [], [98]. repeat split.
Qed.

(** A string is greater than every number, whatever they are; asking whether they
    are equal or different is an error. *)
Theorem C50_string_number E a p s n r : is_numeric (a_tt n) = true -> a_tt n <> 115 ->
  let x := set_string a p s in
  answers op_lt E x n False /\ answers op_le E x n False /\
  answers op_gt E x n True /\ answers op_gte E x n True /\
  answers op_lt E n x True /\ answers op_le E n x True /\
  answers op_gt E n x False /\ answers op_gte E n x False /\
  op_eq E (Some x) (Some n) r = Ok (1, r) /\ op_eq E (Some n) (Some x) r = Ok (1, r) /\
  op_neq E (Some x) (Some n) r = Ok (1, r) /\ op_neq E (Some n) (Some x) r = Ok (1, r).
Proof.
  intros Hn Ht x. apply Z.eqb_neq in Ht.
  assert (F : forall os sn od ot, answers (op_order os sn od ot) E x n (sn = true)).
  { intros. apply (answer_bool _ _ _ _ _ sn); [|tauto]. intros r'. unfold op_order. subst x. cbn [set_string a_tt].
    rewrite Hn, Ht. reflexivity. }
  assert (G : forall os sn od ot, answers (op_order os sn od ot) E n x (sn = false)).
  { intros. apply (answer_bool _ _ _ _ _ (negb sn)); [|destruct sn; cbn; intuition discriminate].
    intros r'. unfold op_order. subst x. cbn [set_string a_tt]. rewrite Hn, Ht. reflexivity. }
  assert (W : forall op a b P Q, (P <-> Q) -> answers op E a b P -> answers op E a b Q).
  { intros op a0 b0 P Q HPQ H r'. destruct (H r') as (r1 & H1 & H2 & H3). exists r1. split; [exact H1|]. tauto. }
  assert (N : n = Atom (a_tt n) (match n with Atom _ w _ => w end) (match n with Atom _ _ p => p end)) by (destruct n; reflexivity).
  assert (T78 : (a_tt n =? 78) = false).
  { apply Z.eqb_neq. intros K. rewrite K in Hn. discriminate. }
  assert (T46 : (a_tt n =? 46) = false).
  { apply Z.eqb_neq. intros K. rewrite K in Hn. discriminate. }
  repeat split;
    try (refine (W _ _ _ _ _ _ (F _ _ _ _)); intuition discriminate);
    try (refine (W _ _ _ _ _ _ (G _ _ _ _)); intuition discriminate);
    unfold op_eq, op_neq; subst x; cbn [set_string a_tt]; rewrite Ht, ?T78, ?T46; cbn [Z.eqb Pos.eqb andb orb tt_or_numeric is_numeric is_float];
    rewrite ?andb_false_r; reflexivity.
Qed.
Print Assumptions C50_string_number.

(** Time tags are in the order of time. *)
Theorem C50_timetags E a b s1 f1 s2 f2 : in32 s1 -> in32 f1 -> in32 s2 -> in32 f2 ->
  let x := set_timetag a (TT s1 f1) in let y := set_timetag b (TT s2 f2) in
  answers op_lt E x y (instant s1 f1 < instant s2 f2) /\
  answers op_gt E x y (instant s1 f1 > instant s2 f2) /\
  answers op_le E x y (instant s1 f1 <= instant s2 f2) /\
  answers op_gte E x y (instant s1 f1 >= instant s2 f2) /\
  answers op_eq E x y (s1 = s2 /\ f1 = f2) /\
  answers op_neq E x y (~ (s1 = s2 /\ f1 = f2)).
Proof.
  intros H1 H2 H3 H4 x y.
  assert (T : forall a s f, in32 s -> in32 f -> au_timetag (set_timetag a (TT s f)) = TT s f /\ a_tt (set_timetag a (TT s f)) = 116).
  { intros a0 s f Hs Hf. destruct a0 as [tg w p]. split; [|reflexivity]. cbn [set_timetag au_timetag Z.eqb Pos.eqb sec frac].
    unfold u32, in32 in *. f_equal; Z.div_mod_to_equations; lia. }
  destruct (T a s1 f1 H1 H2) as [X1 X2]. destruct (T b s2 f2 H3 H4) as [Y1 Y2]. fold x in X1, X2. fold y in Y1, Y2.
  destruct (C08_compare s1 f1 s2 f2 H1 H2 H3 H4) as (L & G & Eq).
  set (c := tt_compare (TT s1 f1) (TT s2 f2)) in *.
  assert (K : compare_timetag E x y = Ok c).
  { unfold compare_timetag, two_timetags. rewrite X2, Y2, X1, Y1. reflexivity. }
  assert (C : c = -1 /\ instant s1 f1 < instant s2 f2 \/ c = 1 /\ instant s1 f1 > instant s2 f2 \/
              c = 0 /\ instant s1 f1 = instant s2 f2 /\ s1 = s2 /\ f1 = f2).
  { destruct (Z_lt_le_dec (instant s1 f1) (instant s2 f2)) as [l|l]; [left; now split; [apply L|]|].
    destruct (Z.eq_dec (instant s1 f1) (instant s2 f2)) as [e|e]; [right; right|right; left; split; [apply G|]; lia].
    assert (s1 = s2 /\ f1 = f2) by (unfold instant, in32 in *; lia). split; [now apply Eq|]. split; [exact e|assumption]. }
  assert (O : forall os sn od ot r, op_order os sn od ot E (Some x) (Some y) r = Ok (0, set_bool r (ot c))).
  { intros. unfold op_order. rewrite X2, Y2. change (is_numeric 116) with false. cbn [Z.eqb Pos.eqb andb tt_or_numeric orb]. rewrite K. reflexivity. }
  assert (Oe : forall r, op_eq E (Some x) (Some y) r = Ok (0, set_bool r (c =? 0))).
  { intros. unfold op_eq. rewrite X2, Y2. change (is_numeric 116) with false. cbn [Z.eqb Pos.eqb andb tt_or_numeric orb]. rewrite K. reflexivity. }
  assert (On : forall r, op_neq E (Some x) (Some y) r = Ok (0, set_bool r (negb (c =? 0)))).
  { intros. unfold op_neq. rewrite X2, Y2. change (is_numeric 116) with false. cbn [Z.eqb Pos.eqb andb tt_or_numeric orb]. rewrite K. reflexivity. }
  clearbody c.
  repeat split;
    [apply (answer_bool _ _ _ _ _ (c =? -1)); [intros r; apply O|]
    |apply (answer_bool _ _ _ _ _ (c =? 1)); [intros r; apply O|]
    |apply (answer_bool _ _ _ _ _ (negb (c =? 1))); [intros r; apply O|]
    |apply (answer_bool _ _ _ _ _ (negb (c =? -1))); [intros r; apply O|]
    |apply (answer_bool _ _ _ _ _ (c =? 0)); [exact Oe|]
    |apply (answer_bool _ _ _ _ _ (negb (c =? 0))); [exact On|]];
    (destruct C as [[-> C]|[[-> C]|[-> C]]]; cbn [Z.eqb Pos.eqb negb]; split; intros; try discriminate; try reflexivity; try lia;
     exfalso; unfold instant in *; try lia).
Qed.
Print Assumptions C50_timetags.

(** Nil is equal to nil and to nothing else. *)
Theorem C50_nil E a b x : a_tt x <> 78 ->
  answers op_eq E (set_nil a) (set_nil b) True /\
  answers op_eq E (set_nil a) x False /\ answers op_eq E x (set_nil a) False.
Proof.
  intros H. apply Z.eqb_neq in H.
  assert (T : forall a, a_tt (set_nil a) = 78) by (intros []; reflexivity).
  repeat split;
    [apply (answer_bool _ _ _ _ _ true); [|tauto]|apply (answer_bool _ _ _ _ _ false); [|split; [discriminate|tauto]]..];
    intros r; unfold op_eq; rewrite ?T, ?H; unfold tt_or_numeric; change (is_numeric 78) with false;
    cbn [Z.eqb Pos.eqb andb orb]; rewrite ?andb_false_r, ?orb_true_r; cbn [Z.eqb Pos.eqb andb orb]; reflexivity.
Qed.
Print Assumptions C50_nil.

(** But there is no answer to whether something is different from nil. *)
Theorem C50_nil_refuted E a b r :
  op_neq E (Some (set_nil a)) (Some (set_int32 b 1)) r = Ok (1, r) /\
  op_neq E (Some (set_nil a)) (Some (set_nil b)) r = Ok (1, r).
Proof. destruct a, b. split; reflexivity. Qed.
Print Assumptions C50_nil_refuted.

(** Two bundles are equal if they have the same messages in the same order, with
    equal addresses and values of the same types. *)
Theorem C50_bundles E a b p1 p2 m1 m2 :
  Forall ok_msg m1 -> Forall (std_message slash) (raw_msgs m1) -> map narrow_msg (raw_msgs m1) = raw_msgs m1 ->
  zlen (enc_bundle empty_header (raw_msgs m1)) + 4 < 2^31 ->
  Forall ok_msg m2 -> Forall (std_message slash) (raw_msgs m2) -> map narrow_msg (raw_msgs m2) = raw_msgs m2 ->
  zlen (enc_bundle empty_header (raw_msgs m2)) + 4 < 2^31 ->
  answers op_eq E (set_bndl a p1 m1) (set_bndl b p2 m2) (raw_msgs m1 = raw_msgs m2) /\
  answers op_neq E (set_bndl a p1 m1) (set_bndl b p2 m2) (raw_msgs m1 <> raw_msgs m2).
Proof.
  intros K1 S1 N1 L1 K2 S2 N2 L2.
  assert (Ser : forall m, Forall ok_msg m -> serialized m = Ok (enc_bundle empty_header (raw_msgs m))).
  { intros m K. unfold serialized. rewrite bundle_size_ok by exact K. cbn [bind]. apply C12_bundle_encoding; [exact K|].
    unfold enc_bundle. rewrite zlen_app, enc_umsgs_raw. change (zlen empty_header) with 16.
    pose proof (zlen_nonneg (enc_umsgs m)). unfold zlen at 2. rewrite repeat_length. lia. }
  set (e1 := enc_bundle empty_header (raw_msgs m1)) in *. set (e2 := enc_bundle empty_header (raw_msgs m2)) in *.
  assert (Inj : e1 = e2 <-> raw_msgs m1 = raw_msgs m2).
  { split; [|intros H; unfold e1, e2; now rewrite H]. intros He.
    destruct (C13_deserialize [] empty_header (raw_msgs m1) [] eq_refl S1 L1) as (r1 & D1 & _ & R1).
    destruct (C13_deserialize [] empty_header (raw_msgs m2) [] eq_refl S2 L2) as (r2 & D2 & _ & R2).
    fold e1 in D1. fold e2 in D2. rewrite He in D1. rewrite D1 in D2. injection D2 as ->.
    rewrite <- N1, <- N2, <- R1, <- R2. reflexivity. }
  assert (Sm : same_bundle (set_bndl a p1 m1) (set_bndl b p2 m2) = Ok (if list_eq_dec Z.eq_dec e1 e2 then true else false)).
  { unfold same_bundle, bundle_of, set_bndl. rewrite !Ser by assumption. reflexivity. }
  split.
  - apply (answer_bool _ _ _ _ _ (if list_eq_dec Z.eq_dec e1 e2 then true else false)).
    + intros r. unfold op_eq. cbn [set_bndl a_tt]. cbn [Z.eqb Pos.eqb andb orb is_numeric is_float tt_or_numeric].
      fold (set_bndl a p1 m1). fold (set_bndl b p2 m2). rewrite Sm. reflexivity.
    + destruct (list_eq_dec Z.eq_dec e1 e2) as [e|e]; split; intros; try discriminate; tauto.
  - apply (answer_bool _ _ _ _ _ (negb (if list_eq_dec Z.eq_dec e1 e2 then true else false))).
    + intros r. unfold op_neq. cbn [set_bndl a_tt]. cbn [Z.eqb Pos.eqb andb orb is_numeric is_float tt_or_numeric].
      fold (set_bndl a p1 m1). fold (set_bndl b p2 m2). rewrite Sm. reflexivity.
    + destruct (list_eq_dec Z.eq_dec e1 e2) as [e|e]; cbn [negb]; split; intros; try discriminate; try reflexivity; tauto.
Qed.
Print Assumptions C50_bundles.

(** The messages of the example of C40. *)
Example C50_bundles_case :
  Forall ok_msg sample /\ Forall (std_message slash) (raw_msgs sample) /\
  map narrow_msg (raw_msgs sample) = raw_msgs sample /\ zlen (enc_bundle empty_header (raw_msgs sample)) + 4 < 2^31.
Proof.
  destruct sample_ok as (H1 & _ & _ & H2 & _). split; [exact H1|]. split; [exact H2|]. split; reflexivity.
Qed.

(** With an operand missing the answer is no, for every operator. *)
Theorem C50_missing E f op : In op [op_lt; op_le; op_gt; op_gte; op_eq; op_neq] ->
  forall r, op E f None r = Ok (0, set_false r) /\ op E None f r = Ok (0, set_false r).
Proof.
  intros H r. repeat (destruct H as [<-|H]; [destruct f; split; reflexivity|]). destruct H.
Qed.
Print Assumptions C50_missing.
