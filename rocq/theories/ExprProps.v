(** C37, C39: operators of the expression language. *)

From Coq Require Import ZArith List Bool Lia QArith.
From Verif Require Import Base BaseProofs Bytes UtilModel TimetagModel TypetagModel
  WireSpec SerialModel SerialSpec WireModel AtomSModel FloatModel AtomUModel AtomSpec FloatProofs AtomProofs
  FArithModel ExprModel ExprSpec.
Import ListNotations.
Open Scope Z_scope.

(** * C37 *)

Lemma tag_set t a v : a_tt (set_u t a v) = tag_of t.
Proof. destruct a, t; reflexivity. Qed.

Lemma larger_tag_of t1 t2 : larger_tag (tag_of t1) (tag_of t2) = Ok (tag_of (larger t1 t2)).
Proof. destruct t1, t2; reflexivity. Qed.

(** What the switch does with the result of the operation. *)
Definition finish (t : ity) (v : Z) : res Z :=
  match t with
  | I64 => checked 64 v
  | U32 | U64 => Ok (wrap t v)
  | I32 => checked 32 v
  | _ => do v <- checked 32 v; Ok (wrap t v)
  end.

Lemma int_switch_of op t f1 f2 r :
  int_switch op (tag_of t) f1 f2 r =
  do a <- get_u t f1; do b <- get_u t f2; do v <- finish t (op a b); Ok (set_u t r v).
Proof.
  destruct t; cbn [tag_of get_u set_u finish wrap]; unfold int_switch;
    repeat match goal with |- context[?a =? ?b] => let c := eval compute in (a =? b) in change (a =? b) with c end; cbv iota;
    match goal with |- bind ?x _ = _ => destruct x as [a| |]; cbn [bind]; try reflexivity end;
    match goal with |- bind ?x _ = _ => destruct x as [b| |]; cbn [bind]; try reflexivity end;
    match goal with |- bind ?x _ = _ => destruct x; reflexivity end.
Qed.

Lemma checked_ok n v : - 2^(n - 1) <= v < 2^(n - 1) -> checked n v = Ok v.
Proof.
  intros H. unfold checked. rewrite (proj2 (Z.leb_le _ _)), (proj2 (Z.ltb_lt _ _)) by lia. reflexivity.
Qed.
Lemma checked_over n v : ~ (- 2^(n - 1) <= v < 2^(n - 1)) -> checked n v = Ub Overflow.
Proof.
  intros H. unfold checked. destruct (- 2^(n - 1) <=? v) eqn:E1; [|reflexivity].
  destruct (v <? 2^(n - 1)) eqn:E2; [|reflexivity].
  apply Z.leb_le in E1. apply Z.ltb_lt in E2. lia.
Qed.

Lemma in_type_signed t v : signed t = true -> in_type t v = (- 2^(width t - 1) <= v < 2^(width t - 1)).
Proof. intros H. unfold in_type. now rewrite H. Qed.

Lemma finish_ok t v : (traps t -> in_type t v) -> (width t < 32 -> in_type I32 v) ->
  exists w, finish t v = Ok w /\ converted t v w.
Proof.
  intros H1 H2. exists (wrap t v). split; [|apply converted_wrap].
  destruct t; cbn [finish wrap]; try reflexivity;
    try (rewrite checked_ok; [reflexivity|apply H2; reflexivity]);
    (assert (T : in_type _ v) by (apply H1; split; [reflexivity|cbn; lia]));
    rewrite checked_ok by exact T; symmetry; f_equal; exact (wrap_id _ v T).
Qed.

Lemma finish_over t v : (traps t /\ ~ in_type t v) \/ (width t < 32 /\ ~ in_type I32 v) ->
  finish t v = Ub Overflow.
Proof.
  intros [[[T1 T2] H]|[T H]].
  - destruct t; cbn in T1, T2; try discriminate; try lia; cbn [finish]; apply checked_over; exact H.
  - destruct t; cbn in T; try lia; cbn [finish]; rewrite checked_over by exact H; reflexivity.
Qed.

Lemma tag_not t x : In x [115; 116; 102; 100; 46; 98] -> tag_of t =? x = false.
Proof. intros H. destruct t; repeat (destruct H as [<-|H]; [reflexivity|]); destruct H. Qed.

Lemma tag_numeric t : is_numeric (tag_of t) = true /\ is_float (tag_of t) = false.
Proof. destruct t; split; reflexivity. Qed.

Lemma operand_in b t v f : operand b t v f -> in_type t v.
Proof. intros []; [assumption|unfold in_type; cbn; lia..]. Qed.
Lemma operand_get b t v f t' : operand b t v f -> get_u t' f = Ok (wrap t' v).
Proof.
  intros []; [now apply get_set|destruct a, t'; reflexivity..].
Qed.
Lemma operand_tag b t v f : operand b t v f -> a_tt f = if b then (if v =? 0 then 70 else 84) else tag_of t.
Proof. intros []; [apply tag_set|destruct a; reflexivity..]. Qed.
Lemma operand_numeric b t v f : operand b t v f ->
  is_numeric (a_tt f) = true /\ is_float (a_tt f) = false /\ (a_tt f =? 115) = false /\ (a_tt f =? 116) = false.
Proof.
  intros H. rewrite (operand_tag _ _ _ _ H). destruct b; [destruct (v =? 0)|destruct t]; repeat split.
Qed.
Lemma operand_larger b1 b2 t1 t2 v1 v2 f1 f2 : operand b1 t1 v1 f1 -> operand b2 t2 v2 f2 -> b1 && b2 = false ->
  larger_tag (a_tt f1) (a_tt f2) = Ok (tag_of (larger t1 t2)).
Proof.
  intros O1 O2 Ob. rewrite (operand_tag _ _ _ _ O1), (operand_tag _ _ _ _ O2).
  destruct O1, O2; try discriminate Ob; try apply larger_tag_of; destruct t; reflexivity.
Qed.

Ltac tags := match goal with O1 : operand _ _ _ ?f1, O2 : operand _ _ _ ?f2, Ob : _ && _ = false |- _ =>
  let A := fresh in let B := fresh in let C := fresh in let D := fresh in
  destruct (operand_numeric _ _ _ _ O1) as (A & B & C & D); rewrite ?A, ?B, ?C, ?D; clear A B C D;
  destruct (operand_numeric _ _ _ _ O2) as (A & B & C & D); rewrite ?A, ?B, ?C, ?D; clear A B C D;
  cbn [andb orb]; rewrite ?(operand_larger _ _ _ _ _ _ _ _ O1 O2 Ob) end.
Ltac gets := repeat match goal with O : operand _ _ _ ?f |- context[get_u ?t ?f] =>
  rewrite (operand_get _ _ _ _ t O) end.

(** The sum and the product, up to the final conversion. *)
Lemma add_run E t1 t2 f1 f2 r v1 v2 b1 b2 : operand b1 t1 v1 f1 -> operand b2 t2 v2 f2 -> b1 && b2 = false -> let t := larger t1 t2 in
  op_add E (Some f1) (Some f2) r =
  do v <- finish t (wrap t v1 + wrap t v2); Ok (0, set_u t r v).
Proof.
  intros O1 O2 Ob t. subst t. unfold op_add. tags. cbn [bind]. rewrite int_switch_of.
  gets. cbn [bind]. now destruct finish.
Qed.
Lemma mul_run E t1 t2 f1 f2 r v1 v2 b1 b2 : operand b1 t1 v1 f1 -> operand b2 t2 v2 f2 -> b1 && b2 = false -> let t := larger t1 t2 in
  op_multiply E (Some f1) (Some f2) r =
  do v <- finish t (wrap t v1 * wrap t v2); Ok (0, set_u t r v).
Proof.
  intros O1 O2 Ob t. subst t. unfold op_multiply. tags. cbn [bind]. rewrite int_switch_of.
  gets. cbn [bind]. now destruct finish.
Qed.

(** Conversion to the larger type changes nothing if that type is signed. *)
Lemma wrap_larger t1 t2 v1 v2 : in_type t1 v1 -> in_type t2 v2 -> signed (larger t1 t2) = true ->
  wrap (larger t1 t2) v1 = v1 /\ wrap (larger t1 t2) v2 = v2.
Proof.
  intros H1 H2 Hs. split; apply wrap_id; unfold in_type in *; destruct t1, t2; cbn in *; try discriminate; lia.
Qed.

Lemma converted_congr t v v' r : converted t v r -> (v' - v) mod 2^width t = 0 -> converted t v' r.
Proof.
  intros [H1 H2] H. split; [exact H1|]. destruct t; cbn [width] in *; wr; Z.div_mod_to_equations; lia.
Qed.
Lemma wrap_congr t v : exists k, wrap t v = v + 2^width t * k.
Proof.
  destruct (converted_wrap t v) as [_ H]. exists ((wrap t v - v) / 2^width t).
  pose proof (Z.div_mod (wrap t v - v) (2^width t)). destruct t; cbn [width] in *; wr; lia.
Qed.
Lemma mod_mult p k : 0 < p -> (p * k) mod p = 0.
Proof. intros H. rewrite Z.mul_comm. apply Z.mod_mul. lia. Qed.
Lemma width_pos t : 0 < 2^width t.
Proof. destruct t; reflexivity. Qed.

(** Adding two integers, of any types and values: the sum is of the larger of the
    two types and exact modulo its width.  If that type is int32 or int64 the sum
    must be representable, ... *)
Theorem C37_add E t1 t2 f1 f2 r v1 v2 b1 b2 : operand b1 t1 v1 f1 -> operand b2 t2 v2 f2 -> b1 && b2 = false -> let t := larger t1 t2 in
  (traps t -> in_type t (v1 + v2)) ->
  exists v, op_add E (Some f1) (Some f2) r = Ok (0, set_u t r v) /\
    converted t (v1 + v2) v.
Proof.
  intros O1 O2 Ob t Ht. rewrite (add_run E t1 t2 f1 f2 r v1 v2 b1 b2) by assumption. fold t.
  destruct (finish_ok t (wrap t v1 + wrap t v2)) as (v & -> & Hv).
  - intros T. destruct (wrap_larger t1 t2 v1 v2 (operand_in _ _ _ _ O1) (operand_in _ _ _ _ O2) (proj1 T)) as [E1 E2]. fold t in E1, E2. rewrite E1, E2. exact (Ht T).
  - intros Hw. destruct (converted_wrap t v1) as [C1 _], (converted_wrap t v2) as [C2 _].
    unfold in_type in *. destruct t; cbn in *; lia.
  - exists v. split; [reflexivity|]. eapply converted_congr; [exact Hv|].
    destruct (wrap_congr t v1) as [k1 ->], (wrap_congr t v2) as [k2 ->].
    replace (v1 + v2 - (v1 + 2^width t * k1 + (v2 + 2^width t * k2))) with (2^width t * (- k1 - k2)) by ring.
    apply mod_mult, width_pos.
Qed.
Print Assumptions C37_add.

(** ... otherwise the addition is undefined in C. *)
Theorem C37_add_overflow E t1 t2 f1 f2 r v1 v2 b1 b2 : operand b1 t1 v1 f1 -> operand b2 t2 v2 f2 -> b1 && b2 = false -> let t := larger t1 t2 in
  traps t -> ~ in_type t (v1 + v2) ->
  op_add E (Some f1) (Some f2) r = Ub Overflow.
Proof.
  intros O1 O2 Ob t T Ht. rewrite (add_run E t1 t2 f1 f2 r v1 v2 b1 b2) by assumption. fold t.
  destruct (wrap_larger t1 t2 v1 v2 (operand_in _ _ _ _ O1) (operand_in _ _ _ _ O2) (proj1 T)) as [E1 E2]. fold t in E1, E2. rewrite E1, E2.
  rewrite finish_over by (left; split; assumption). reflexivity.
Qed.
Print Assumptions C37_add_overflow.

(** Multiplication likewise; finding: products of 16-bit unsigned integers are
    computed in int, and undefined from 2^31 on. *)
Definition product_defined (t : ity) (v1 v2 : Z) : Prop :=
  (traps t -> in_type t (v1 * v2)) /\
  (t = U16 -> (v1 mod 2^16) * (v2 mod 2^16) < 2^31).

Theorem C37_multiply E t1 t2 f1 f2 r v1 v2 b1 b2 : operand b1 t1 v1 f1 -> operand b2 t2 v2 f2 -> b1 && b2 = false -> let t := larger t1 t2 in
  product_defined t v1 v2 ->
  exists v, op_multiply E (Some f1) (Some f2) r = Ok (0, set_u t r v) /\
    converted t (v1 * v2) v.
Proof.
  intros O1 O2 Ob t [Ht Hu]. rewrite (mul_run E t1 t2 f1 f2 r v1 v2 b1 b2) by assumption. fold t.
  destruct (finish_ok t (wrap t v1 * wrap t v2)) as (v & -> & Hv).
  - intros T. destruct (wrap_larger t1 t2 v1 v2 (operand_in _ _ _ _ O1) (operand_in _ _ _ _ O2) (proj1 T)) as [E1 E2]. fold t in E1, E2. rewrite E1, E2. exact (Ht T).
  - intros Hw. destruct (converted_wrap t v1) as [C1 _], (converted_wrap t v2) as [C2 _].
    destruct t eqn:Et; cbn in Hw; try lia; unfold in_type in *; cbn in C1, C2; cbn.
    + cbn [wrap]. set (x := s8 v1) in *. set (y := s8 v2) in *. nia.
    + cbn [wrap]. set (x := s16 v1) in *. set (y := s16 v2) in *. nia.
    + cbn [wrap]. set (x := u8 v1) in *. set (y := u8 v2) in *. nia.
    + specialize (Hu eq_refl). cbn [wrap]. unfold u16. change (2^31) with 2147483648 in Hu.
      pose proof (Z.mod_pos_bound v1 (2^16) eq_refl). pose proof (Z.mod_pos_bound v2 (2^16) eq_refl). nia.
  - exists v. split; [reflexivity|]. eapply converted_congr; [exact Hv|].
    destruct (wrap_congr t v1) as [k1 ->], (wrap_congr t v2) as [k2 ->]. set (p := 2^width t).
    replace (v1 * v2 - (v1 + p * k1) * (v2 + p * k2)) with (p * (- v1 * k2 - k1 * v2 - p * k1 * k2)) by ring.
    apply mod_mult, width_pos.
Qed.
Print Assumptions C37_multiply.

Theorem C37_multiply_overflow E t1 t2 f1 f2 r v1 v2 b1 b2 : operand b1 t1 v1 f1 -> operand b2 t2 v2 f2 -> b1 && b2 = false -> let t := larger t1 t2 in
  (traps t /\ ~ in_type t (v1 * v2)) \/ (t = U16 /\ 2^31 <= (v1 mod 2^16) * (v2 mod 2^16)) ->
  op_multiply E (Some f1) (Some f2) r = Ub Overflow.
Proof.
  intros O1 O2 Ob t H. rewrite (mul_run E t1 t2 f1 f2 r v1 v2 b1 b2) by assumption. fold t.
  rewrite finish_over; [reflexivity|]. destruct H as [[T H]|[T H]].
  - destruct (wrap_larger t1 t2 v1 v2 (operand_in _ _ _ _ O1) (operand_in _ _ _ _ O2) (proj1 T)) as [E1 E2]. fold t in E1, E2. rewrite E1, E2.
    left. split; assumption.
  - right. rewrite T. split; [reflexivity|]. cbn [wrap]. unfold u16, in_type. cbn [signed width].
    change (2^(32 - 1)) with (2^31). lia.
Qed.
Print Assumptions C37_multiply_overflow.

(** Subtraction converts both operands to int32, whatever their types, and the
    result is an int32: exact modulo 2^32 only. *)
Theorem C37_subtract E t1 t2 f1 f2 r v1 v2 b1 b2 c1 c2 : operand b1 t1 v1 f1 -> operand b2 t2 v2 f2 -> b1 && b2 = false ->
  converted I32 v1 c1 -> converted I32 v2 c2 ->
  (in_type I32 (c1 - c2) ->
    op_subtract E (Some f1) (Some f2) r = Ok (0, set_int32 r (c1 - c2)) /\
    converted I32 (v1 - v2) (c1 - c2)) /\
  (~ in_type I32 (c1 - c2) ->
    op_subtract E (Some f1) (Some f2) r = Ub Overflow).
Proof.
  intros O1 O2 Ob C1 C2.
  assert (R : op_subtract E (Some f1) (Some f2) r =
              do v <- checked 32 (c1 - c2); Ok (0, set_int32 r v)).
  { unfold op_subtract. tags. change au_int32 with (get_u I32). gets. cbn [bind].
    rewrite (converted_unique I32 v1 _ _ (converted_wrap I32 v1) C1).
    rewrite (converted_unique I32 v2 _ _ (converted_wrap I32 v2) C2). reflexivity. }
  split; intros Hc.
  - rewrite R, checked_ok by exact Hc. split; [reflexivity|]. split; [exact Hc|].
    destruct C1 as [_ C1], C2 as [_ C2]. cbn [width] in *. wr. Z.div_mod_to_equations. lia.
  - rewrite R, checked_over by exact Hc. reflexivity.
Qed.
Print Assumptions C37_subtract.

(** Finding: the difference of two 64-bit integers is wrong when it, or an
    operand, does not fit in 32 bits. *)
Theorem C37_subtract_wide_refuted E a1 a2 r :
  op_subtract E (Some (set_int64 a1 (2^40))) (Some (set_int64 a2 1)) r = Ok (0, set_int32 r (-1)).
Proof.
  destruct (C37_subtract E I64 I64 (set_int64 a1 (2^40)) (set_int64 a2 1) r (2^40) 1 false false 0 1) as [H _].
  - apply (int_operand I64). unfold in_type. cbn. lia.
  - apply (int_operand I64). unfold in_type. cbn. lia.
  - reflexivity.
  - split; [unfold in_type; cbn; lia|reflexivity].
  - split; [unfold in_type; cbn; lia|reflexivity].
  - apply H. unfold in_type. cbn. lia.
Qed.
Print Assumptions C37_subtract_wide_refuted.

(** Division by zero, of any integer type, or False, gives the string Inf. *)
Theorem C37_divide_by_zero E t1 t2 f1 f2 r v1 b1 b2 :
  operand b1 t1 v1 f1 -> operand b2 t2 0 f2 -> b1 && b2 = false ->
  op_divide E (Some f1) (Some f2) r = Ok (0, set_string r 0 [73; 110; 102]).
Proof.
  intros O1 O2 Ob. unfold op_divide. tags. cbn [bind].
  assert (Z0 : forall t, wrap t 0 = 0) by (intros []; reflexivity).
  assert (G : forall t, get_u t f2 = Ok 0) by (intros t; rewrite (operand_get _ _ _ _ t O2); now rewrite Z0).
  destruct (larger t1 t2); cbn [tag_of];
    repeat match goal with |- context[?a =? ?b] => let c := eval compute in (a =? b) in change (a =? b) with c end; cbv iota;
    unfold div_case.
  - now rewrite (G I8 : au_int8 _ = _).
  - now rewrite (G I16 : au_int16 _ = _).
  - now rewrite (G I32 : au_int32 _ = _).
  - now rewrite (G I64 : au_int64 _ = _).
  - now rewrite (G I8 : au_int8 _ = _).
  - now rewrite (G U16 : au_uint16 _ = _).
  - now rewrite (G U32 : au_uint32 _ = _).
  - now rewrite (G U64 : au_uint64 _ = _).
Qed.
Print Assumptions C37_divide_by_zero.

(** Otherwise the operands are converted to the larger type and the quotient is
    rounded towards zero.  The least int32 or int64 divided by -1 is undefined.
    For 8-bit unsigned see below. *)
Theorem C37_divide E t1 t2 f1 f2 r v1 v2 b1 b2 c1 c2 : operand b1 t1 v1 f1 -> operand b2 t2 v2 f2 -> b1 && b2 = false -> v2 <> 0 ->
  let t := larger t1 t2 in t <> U8 ->
  converted t v1 c1 -> converted t v2 c2 ->
  (traps t /\ c1 = - 2^(width t - 1) /\ c2 = -1 ->
     op_divide E (Some f1) (Some f2) r = Ub Overflow) /\
  (~ (traps t /\ c1 = - 2^(width t - 1) /\ c2 = -1) ->
     exists v, op_divide E (Some f1) (Some f2) r = Ok (0, set_u t r v) /\
       converted t (Z.quot c1 c2) v).
Proof.
  intros O1 O2 Ob Hz t Ht C1 C2.
  assert (H2 := operand_in _ _ _ _ O2).
  assert (N : c2 <> 0).
  { intros ->. destruct C2 as [_ C2]. apply Hz. subst t. unfold in_type in H2.
    assert (W : width t2 <= width (larger t1 t2)) by (destruct t1, t2; cbn; lia).
    assert (P := width_pos (larger t1 t2)).
    apply Z.mod_divide in C2; [|lia]. destruct C2 as [k C2].
    assert (B : - 2^width (larger t1 t2) < v2 < 2^width (larger t1 t2)).
    { assert (2^width t2 <= 2^width (larger t1 t2)) by (apply Z.pow_le_mono_r; lia).
      destruct t2; cbn [signed width] in H2; cbn [width] in *;
        change (2^(8 - 1)) with 128 in *; change (2^(16 - 1)) with 32768 in *;
        change (2^(32 - 1)) with 2147483648 in *; change (2^(64 - 1)) with 9223372036854775808 in *;
        wr; lia. }
    assert (k = 0) by nia. lia. }
  assert (G1 : get_u t f1 = Ok c1)
    by (rewrite (operand_get _ _ _ _ t O1); f_equal; exact (converted_unique t v1 _ _ (converted_wrap t v1) C1)).
  assert (G2 : get_u t f2 = Ok c2)
    by (rewrite (operand_get _ _ _ _ t O2); f_equal; exact (converted_unique t v2 _ _ (converted_wrap t v2) C2)).
  assert (Nb : c2 =? 0 = false) by (apply Z.eqb_neq; exact N).
  assert (Q : Z.abs (Z.quot c1 c2) <= Z.abs c1).
  { rewrite <- Z.quot_abs by exact N. apply Z.quot_le_upper_bound; [lia|]. assert (1 <= Z.abs c2) by lia. nia. }
  assert (Qp : 0 <= c1 -> 0 <= c2 -> 0 <= Z.quot c1 c2) by (intros; apply Z.quot_pos; lia).
  assert (Qm : c2 <> -1 -> Z.quot c1 c2 = - Z.abs c1 \/ Z.quot c1 c2 = c1 \/ Z.abs (Z.quot c1 c2) < Z.abs c1 \/ Z.abs c1 = 0).
  { intros Hm. destruct (Z.eq_dec c2 1) as [->|H]; [right; left; apply Z.quot_1_r|].
    destruct (Z.eq_dec c1 0) as [->|Hc1]; [right; right; right; reflexivity|].
    right; right; left. rewrite <- Z.quot_abs by exact N. apply Z.quot_lt; lia. }
  assert (Qn : c2 = -1 -> Z.quot c1 c2 = - c1).
  { intros ->. change (-1) with (Z.opp 1). rewrite Z.quot_opp_r by lia. now rewrite Z.quot_1_r. }
  assert (R : op_divide E (Some f1) (Some f2) r =
    do v <- match t with I32 => checked 32 (Z.quot c1 c2) | I64 => checked 64 (Z.quot c1 c2)
                    | _ => Ok (wrap t (Z.quot c1 c2)) end; Ok (0, set_u t r v)).
  { unfold op_divide. tags. fold t. cbn [bind].
    destruct C1 as [C1 _], C2 as [C2 _].
    destruct t; try (now exfalso; apply Ht); cbn [tag_of get_u] in *;
      repeat match goal with |- context[?a =? ?b] => let c := eval compute in (a =? b) in change (a =? b) with c end; cbv iota;
      unfold div_case; rewrite G2; cbn [bind]; rewrite Nb, G1; cbn [bind wrap set_u]; try reflexivity;
      try (destruct checked; reflexivity).
    - replace (u32 (Z.quot c1 c2)) with (Z.quot c1 c2); [reflexivity|]. symmetry.
      apply (wrap_id U32). unfold in_type in *. cbn in *. lia.
    - replace (u64 (Z.quot c1 c2)) with (Z.quot c1 c2); [reflexivity|]. symmetry.
      apply (wrap_id U64). unfold in_type in *. cbn in *. lia. }
  rewrite R. destruct C1 as [C1 _], C2 as [C2 _]. unfold in_type in C1, C2. split.
  - intros (T & E1 & E2). specialize (Qn E2). destruct T as [T1 T2].
    destruct t; cbn in T1, T2; try discriminate; try lia; cbn [width] in E1;
      (rewrite checked_over; [reflexivity|]); rewrite Qn, E1;
      [change (32 - 1) with 31|change (64 - 1) with 63]; lia.
  - intros Hn. exists (wrap t (Z.quot c1 c2)). split; [|apply converted_wrap].
    destruct t; try reflexivity; cbn [width signed] in C1, C2; cbn [width] in Hn.
    + assert (B : - 2^(32 - 1) <= Z.quot c1 c2 < 2^(32 - 1)).
      { destruct (Z.eq_dec c2 (-1)) as [E2|E2].
        - rewrite (Qn E2). assert (c1 <> - 2^(32 - 1)); [|lia].
          intros E1. apply Hn. split; [split; [reflexivity|cbn; lia]|split; assumption].
        - specialize (Qm E2). lia. }
      rewrite checked_ok by exact B. cbn [bind]. do 3 f_equal. symmetry. apply (wrap_id I32). exact B.
    + assert (B : - 2^(64 - 1) <= Z.quot c1 c2 < 2^(64 - 1)).
      { destruct (Z.eq_dec c2 (-1)) as [E2|E2].
        - rewrite (Qn E2). assert (c1 <> - 2^(64 - 1)); [|lia].
          intros E1. apply Hn. split; [split; [reflexivity|cbn; lia]|split; assumption].
        - specialize (Qm E2). lia. }
      rewrite checked_ok by exact B. cbn [bind]. do 3 f_equal. symmetry. apply (wrap_id I64). exact B.
Qed.
Print Assumptions C37_divide.

(** Finding: two uint8 operands, or a uint8 and an int8 or boolean, are divided as
    int8, and the quotient is an int8. *)
Theorem C37_divide_uint8 E t1 t2 f1 f2 r v1 v2 b1 b2 c1 c2 :
  operand b1 t1 v1 f1 -> operand b2 t2 v2 f2 -> b1 && b2 = false -> v2 <> 0 -> larger t1 t2 = U8 ->
  converted I8 v1 c1 -> converted I8 v2 c2 ->
  exists v, op_divide E (Some f1) (Some f2) r = Ok (0, set_int8 r v) /\ converted I8 (Z.quot c1 c2) v.
Proof.
  intros O1 O2 Ob Hz Ht C1 C2. exists (s8 (Z.quot c1 c2)). split; [|apply (converted_wrap I8)].
  assert (H2 := operand_in _ _ _ _ O2).
  assert (G1 : au_int8 f1 = Ok c1)
    by (refine (eq_trans (operand_get _ _ _ _ I8 O1) _); f_equal; exact (converted_unique I8 v1 _ _ (converted_wrap I8 v1) C1)).
  assert (G2 : au_int8 f2 = Ok c2)
    by (refine (eq_trans (operand_get _ _ _ _ I8 O2) _); f_equal; exact (converted_unique I8 v2 _ _ (converted_wrap I8 v2) C2)).
  assert (N : c2 =? 0 = false).
  { apply Z.eqb_neq. intros ->. apply Hz. destruct C2 as [_ C2]. unfold in_type in H2.
    destruct t1, t2; try discriminate Ht; cbn in H2, C2; Z.div_mod_to_equations; lia. }
  unfold op_divide. tags. rewrite Ht. cbn [bind tag_of].
  repeat match goal with |- context[?a =? ?b] => let c := eval compute in (a =? b) in change (a =? b) with c end; cbv iota.
  unfold div_case. rewrite G2. cbn [bind]. rewrite N, G1. reflexivity.
Qed.
Print Assumptions C37_divide_uint8.

Theorem C37_divide_uint8_refuted E a1 a2 r :
  op_divide E (Some (set_uint8 a1 200)) (Some (set_uint8 a2 2)) r = Ok (0, set_int8 r (-28)).
Proof.
  destruct (C37_divide_uint8 E U8 U8 (set_uint8 a1 200) (set_uint8 a2 2) r 200 2 false false (-56) 2) as (v & -> & Hv).
  - apply (int_operand U8). unfold in_type. cbn. lia.
  - apply (int_operand U8). unfold in_type. cbn. lia.
  - reflexivity.
  - discriminate.
  - reflexivity.
  - split; [unfold in_type; cbn; lia|reflexivity].
  - split; [unfold in_type; cbn; lia|reflexivity].
  - do 3 f_equal. refine (converted_unique I8 (-28) _ _ Hv _). split; [unfold in_type; cbn; lia|reflexivity].
Qed.
Print Assumptions C37_divide_uint8_refuted.

(** Finding: the sum, product or quotient of two booleans is no value at all, the
    result atom is left as it was. *)
Theorem C37_two_booleans_refuted E (b1 b2 : bool) a1 a2 r :
  let f b a := Some (if b : bool then set_true a else set_false a) in
  op_add E (f b1 a1) (f b2 a2) r = Ok (0, r) /\
  op_multiply E (f b1 a1) (f b2 a2) r = Ok (0, r) /\
  op_divide E (f b1 a1) (f b2 a2) r = Ok (0, r) /\
  exists v, op_subtract E (f b1 a1) (f b2 a2) r = Ok (0, set_int32 r v) /\ v = Z.b2z b1 - Z.b2z b2.
Proof.
  destruct b1, b2, a1, a2; repeat split; eexists; split; reflexivity.
Qed.
Print Assumptions C37_two_booleans_refuted.

Example C37_example : exists E,
  op_add E (Some (set_uint16 atom_fresh 65535)) (Some (set_int8 atom_fresh (-3))) atom_fresh
    = Ok (0, set_uint16 atom_fresh 65532) /\
  op_multiply E (Some (set_int64 atom_fresh (2^40))) (Some (set_true atom_fresh)) atom_fresh
    = Ok (0, set_int64 atom_fresh (2^40)) /\
  op_multiply E (Some (set_uint16 atom_fresh 65535)) (Some (set_uint16 atom_fresh 65535)) atom_fresh
    = Ub Overflow /\
  op_add E (Some (set_int32 atom_fresh (2^31 - 1))) (Some (set_uint16 atom_fresh 1)) atom_fresh = Ub Overflow /\
  op_subtract E (Some (set_int32 atom_fresh 5)) (Some (set_int32 atom_fresh 7)) atom_fresh
    = Ok (0, set_int32 atom_fresh (-2)) /\
  op_divide E (Some (set_int32 atom_fresh (-7))) (Some (set_int32 atom_fresh 2)) atom_fresh
    = Ok (0, set_int32 atom_fresh (-3)).
Proof.
  exists (Env (fun _ => 0) (fun _ => []) [] (fun x _ => x) (fun _ => tt_null) (fun _ => 0)).
  repeat split; reflexivity.
Qed.

(** * C39 *)

(** The members of an argument; a missing array counts as empty. *)
Definition members (a : arr) : list atom := match a with Some l => l | None => [] end.

Lemma aget_members a i : 0 <= i -> aget a i = Ok (nth_error (members a) (Z.to_nat i)).
Proof.
  intros H. destruct a as [l|]; cbn [aget members].
  - destruct (zlen l <=? i) eqn:E.
    + apply Z.leb_le in E. f_equal. symmetry. apply nth_error_None. unfold zlen in E. lia.
    + rewrite (proj2 (Z.ltb_ge _ _)) by lia. reflexivity.
  - destruct (Z.to_nat i); reflexivity.
Qed.
Lemma alen_members a : alen a = zlen (members a).
Proof. destruct a; reflexivity. Qed.

Lemma set_nth_app l1 x l2 y : set_nth (l1 ++ x :: l2) (length l1) y = l1 ++ y :: l2.
Proof. induction l1 as [|z l1 IH]; cbn [length app set_nth]; [reflexivity|]. now rewrite IH. Qed.

Lemma aget_at l1 x l2 : aget (Some (l1 ++ x :: l2)) (zlen l1) = Ok (Some x).
Proof.
  rewrite aget_members by apply zlen_nonneg. cbn [members]. unfold zlen. rewrite Nat2Z.id.
  rewrite nth_error_app2 by lia. now rewrite Nat.sub_diag.
Qed.
Lemma aput_at l1 x l2 f : aput (Some (l1 ++ x :: l2)) (zlen l1) f = do y <- f x; Ok (Some (l1 ++ y :: l2)).
Proof.
  cbn [aput]. rewrite zlen_app, zlen_cons. pose proof (zlen_nonneg l1). pose proof (zlen_nonneg l2).
  rewrite (proj2 (Z.leb_gt _ _)), (proj2 (Z.ltb_ge _ _)) by lia.
  unfold zlen at 1. rewrite Nat2Z.id, nth_error_app2, Nat.sub_diag by lia. cbn [nth_error].
  destruct (f x); [|reflexivity..]. cbn [bind]. unfold zlen. now rewrite Nat2Z.id, set_nth_app.
Qed.

(** What the loop does with the operand pairs [ps]. *)
Fixpoint apply_all (E : env) (op : binop) (done : list atom) (ps : list (option atom * option atom)) : res (Z * arr) :=
  match ps with
  | [] => Ok (0, Some done)
  | p :: ps' =>
      do ' (c, x) <- op E (fst p) (snd p) atom_fresh;
      if c =? 0 then apply_all E op (done ++ [x]) ps'
      else Ok (c, Some (done ++ x :: repeat atom_fresh (length ps')))
  end.

Lemma zip_run E op g1 g2 ps : forall done,
  (forall j p, nth_error ps j = Some p ->
     g1 (zlen done + Z.of_nat j) = Ok (fst p) /\ g2 (zlen done + Z.of_nat j) = Ok (snd p)) ->
  zip_loop E op (length ps) (zlen done) g1 g2 (Some (done ++ repeat atom_fresh (length ps))) =
  apply_all E op done ps.
Proof.
  induction ps as [|p ps IH]; intros done H; cbn [length repeat zip_loop apply_all].
  - now rewrite app_nil_r.
  - rewrite aget_at. cbn [bind]. destruct (H 0%nat p eq_refl) as [G1 G2].
    rewrite Z.add_0_r in G1, G2. rewrite G1, G2. cbn [bind].
    destruct (op E (fst p) (snd p) atom_fresh) as [[c x]| |]; [|reflexivity..]. cbn [bind].
    rewrite aput_at. cbn [bind]. destruct (c =? 0); cbn [negb]; [|reflexivity].
    replace (zlen done + 1) with (zlen (done ++ [x])) by (rewrite zlen_app, zlen_cons; zl; lia).
    replace (done ++ x :: repeat atom_fresh (length ps)) with ((done ++ [x]) ++ repeat atom_fresh (length ps))
      by (now rewrite <- app_assoc).
    apply IH. intros j q Hq. destruct (H (S j) q Hq) as [A B].
    rewrite zlen_app, zlen_cons. change (zlen (@nil atom)) with 0.
    replace (zlen done + (1 + 0) + Z.of_nat j) with (zlen done + Z.of_nat (S j)) by lia. now split.
Qed.

Lemma zlen_one {A} (l : list A) : zlen l = 1 -> exists x, l = [x].
Proof.
  destruct l as [|x [|y l]]; intros H; [discriminate H|now exists x|].
  rewrite !zlen_cons in H. pose proof (zlen_nonneg l). lia.
Qed.

Lemma two_arg_all E op a b : zlen (members a) < 2^31 -> zlen (members b) < 2^31 ->
  two_arg E op [a; b] = apply_all E op [] (pairs (members a) (members b)).
Proof.
  intros Ha Hb. unfold two_arg. rewrite !alen_members.
  assert (U : forall l : list atom, zlen l < 2^31 -> u32 (zlen l) = zlen l).
  { intros l Hl. pose proof (zlen_nonneg l). unfold u32. apply Z.mod_small. lia. }
  rewrite !U by assumption. clear U Ha Hb.
  assert (Run : forall g1 g2 ps n, n = zlen ps ->
    (forall j p, nth_error ps j = Some p -> g1 (Z.of_nat j) = Ok (fst p) /\ g2 (Z.of_nat j) = Ok (snd p)) ->
    (do out <- aalloc n; zip_loop E op (Z.to_nat n) 0 g1 g2 out) = apply_all E op [] ps).
  { intros g1 g2 ps n -> Hg. unfold aalloc. pose proof (zlen_nonneg ps).
    rewrite (proj2 (Z.ltb_ge _ _)) by lia. cbn [bind]. unfold zlen. rewrite Nat2Z.id.
    apply (zip_run E op g1 g2 ps []). intros j p Hp. cbn [zlen length]. exact (Hg j p Hp). }
  assert (At : forall (l : list atom) j, nth_error l (Z.to_nat (Z.of_nat j)) = nth_error l j)
    by (intros; now rewrite Nat2Z.id).
  assert (Nn : forall j, 0 <= Z.of_nat j) by (intros; lia).
  assert (G : forall x j, aget x (Z.of_nat j) = Ok (nth_error (members x) j))
    by (intros; rewrite aget_members by apply Nn; now rewrite At).
  assert (G0 : forall x, aget x 0 = Ok (nth_error (members x) 0)) by (intros; apply (G x 0%nat)).
  destruct (zlen (members a) =? 1) eqn:E1.
  { apply Z.eqb_eq in E1. apply Run.
    - destruct (zlen_one _ E1) as [x ->].
      destruct (members b) as [|y [|y' l]]; cbn [pairs]; try reflexivity.
      unfold zlen. rewrite map_length. cbn [length].
      destruct (_ >? _) eqn:Eg; [|reflexivity]. apply Z.gtb_lt in Eg. lia.
    - destruct (zlen_one _ E1) as [x Ea]. rewrite Ea.
      intros j p Hp. rewrite G0, G, Ea. cbn [nth_error].
      destruct (members b) as [|y [|y' l]]; cbn [pairs] in Hp.
      + destruct j as [|[|j]]; inversion Hp. split; reflexivity.
      + destruct j as [|[|j]]; inversion Hp. split; reflexivity.
      + rewrite nth_error_map in Hp. destruct (nth_error (y :: y' :: l) j); inversion Hp. split; reflexivity. }
  destruct (zlen (members b) =? 1) eqn:E2.
  { apply Z.eqb_eq in E2. apply Run.
    - destruct (zlen_one _ E2) as [y ->].
      destruct (members a) as [|x [|x' l]]; cbn [pairs]; try reflexivity.
      unfold zlen. rewrite map_length. cbn [length].
      destruct (_ >? _) eqn:Eg; [reflexivity|]. rewrite Z.gtb_ltb in Eg. apply Z.ltb_ge in Eg. lia.
    - destruct (zlen_one _ E2) as [y Eb]. rewrite Eb.
      intros j p Hp. rewrite G0, G, Eb. cbn [nth_error].
      destruct (members a) as [|x [|x' l]]; cbn [pairs] in Hp.
      + destruct j as [|[|j]]; inversion Hp. split; reflexivity.
      + discriminate E1.
      + rewrite nth_error_map in Hp. destruct (nth_error (x :: x' :: l) j); inversion Hp. split; reflexivity. }
  assert (P : pairs (members a) (members b) = map (fun '(x, y) => (Some x, Some y)) (combine (members a) (members b))).
  { destruct (members a) as [|x [|x' la]]; [|discriminate E1|];
      (destruct (members b) as [|y [|y' lb]]; [|discriminate E2|]); reflexivity. }
  rewrite P. apply Run.
  - unfold zlen. rewrite map_length, combine_length. destruct (_ >? _) eqn:Eg.
    + apply Z.gtb_lt in Eg. lia.
    + rewrite Z.gtb_ltb in Eg. apply Z.ltb_ge in Eg. lia.
  - intros j p Hp. rewrite nth_error_map in Hp.
    destruct (nth_error (combine (members a) (members b)) j) as [[x y]|] eqn:En; inversion Hp. cbn [fst snd].
    rewrite !G. clear -En. revert j En. generalize (members a), (members b).
    induction l as [|u l IH]; intros [|v l'] [|j] En; cbn [combine nth_error] in *; try discriminate En.
    + inversion En. split; reflexivity.
    + now apply IH.
Qed.

(** An operator on two lists gives the list of what it gives for the operand
    pairs, ... *)
Theorem C39_elementwise E op a b rs : zlen (members a) < 2^31 -> zlen (members b) < 2^31 ->
  Forall2 (fun p r => op E (fst p) (snd p) atom_fresh = Ok (0, r)) (pairs (members a) (members b)) rs ->
  two_arg E op [a; b] = Ok (0, Some rs).
Proof.
  intros Ha Hb H. rewrite two_arg_all by assumption.
  change rs with ([] ++ rs). generalize (@nil atom) as done.
  induction H as [|p r ps rs Hp _ IH]; intros done; cbn [apply_all].
  - now rewrite app_nil_r.
  - rewrite Hp. cbn [bind]. rewrite Z.eqb_refl, IH, <- app_assoc. reflexivity.
Qed.
Print Assumptions C39_elementwise.

(** ... and stops at the first pair it fails for: the code is returned, what was
    computed before is kept and the rest is left empty. *)
Theorem C39_stops E op a b ps p qs rs c x : zlen (members a) < 2^31 -> zlen (members b) < 2^31 ->
  pairs (members a) (members b) = ps ++ p :: qs ->
  Forall2 (fun p r => op E (fst p) (snd p) atom_fresh = Ok (0, r)) ps rs ->
  op E (fst p) (snd p) atom_fresh = Ok (c, x) -> c <> 0 ->
  two_arg E op [a; b] = Ok (c, Some (rs ++ x :: repeat atom_fresh (length qs))).
Proof.
  intros Ha Hb Hp H Hx Hc. rewrite two_arg_all, Hp by assumption. clear Hp.
  change (rs ++ x :: repeat atom_fresh (length qs)) with ([] ++ rs ++ x :: repeat atom_fresh (length qs)).
  generalize (@nil atom) as done.
  induction H as [|p' r ps rs Hp' _ IH]; intros done; cbn [apply_all app].
  - rewrite Hx. cbn [bind]. now rewrite (proj2 (Z.eqb_neq _ _) Hc).
  - rewrite Hp'. cbn [bind]. rewrite Z.eqb_refl, IH, <- app_assoc. reflexivity.
Qed.
Print Assumptions C39_stops.

(** With any other number of arguments there is no result. *)
Theorem C39_arity E op argv : length argv <> 2%nat -> two_arg E op argv = Ok (1, None).
Proof. destruct argv as [|a [|b [|c l]]]; try reflexivity. intros H. now destruct H. Qed.
Print Assumptions C39_arity.

(** The operand pairs: the k-th result is that of the k-th members, or of the
    only member of one list and the k-th of the other. *)
Theorem C39_pairs {A} (a b : list A) :
  (length a <> 1 -> length b <> 1 -> length (pairs a b) = Nat.min (length a) (length b) /\
     forall k x y, nth_error a k = Some x -> nth_error b k = Some y -> nth_error (pairs a b) k = Some (Some x, Some y))%nat /\
  (forall x, a = [x] -> b <> [] -> pairs a b = map (fun y => (Some x, Some y)) b) /\
  (forall y, b = [y] -> a <> [] -> pairs a b = map (fun x => (Some x, Some y)) a) /\
  (forall x, a = [x] -> b = [] -> pairs a b = [(Some x, None)]) /\
  (forall y, a = [] -> b = [y] -> pairs a b = [(None, Some y)]).
Proof.
  split; [|repeat split].
  - intros Ha Hb.
    assert (P : pairs a b = map (fun '(x, y) => (Some x, Some y)) (combine a b)).
    { destruct a as [|x [|x' la]]; [|now destruct Ha|]; (destruct b as [|y [|y' lb]]; [|now destruct Hb|]); reflexivity. }
    rewrite P. split; [now rewrite map_length, combine_length|].
    intros k x y Hx Hy. rewrite nth_error_map.
    assert (En : nth_error (combine a b) k = Some (x, y)); [|now rewrite En].
    clear -Hx Hy. revert b k Hx Hy. induction a as [|u l IH]; intros [|v l'] [|k] Hx Hy; cbn in *; try discriminate.
    + congruence.
    + now apply IH.
  - intros x -> Hb. destruct b; [now destruct Hb|reflexivity].
  - intros y -> Ha. destruct a as [|x [|x' l]]; [now destruct Ha|reflexivity|reflexivity].
  - intros x -> ->. reflexivity.
  - intros y -> ->. reflexivity.
Qed.
Print Assumptions C39_pairs.

Example C39_example : exists E,
  let i v := set_int32 atom_fresh v in
  two_arg E op_add [Some [i 1; i 2; i 3]; Some [i 10; i 20]] = Ok (0, Some [i 11; i 22]) /\
  two_arg E op_add [Some [i 1; i 2; i 3]; Some [i 10]] = Ok (0, Some [i 11; i 12; i 13]) /\
  two_arg E op_add [Some [i 1; i 2; i 3]; None] = Ok (0, Some []) /\
  two_arg E op_multiply [Some [i 2; set_string atom_fresh 0 [97]; i 3]; Some [i 10]]
    = Ok (1, Some [i 20; atom_fresh; atom_fresh]).
Proof.
  exists (Env (fun _ => 0) (fun _ => []) [] (fun x _ => x) (fun _ => tt_null) (fun _ => 0)).
  repeat split; reflexivity.
Qed.
