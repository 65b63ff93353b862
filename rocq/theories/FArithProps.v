(** C51: arithmetic of the expression language on floats and doubles. *)

From Coq Require Import ZArith List Bool QArith Lia Lqa.
From Verif Require Import Base SerialModel AtomUModel AtomSpec AtomProofs RoundSpec FloatModel FloatProofs
  RoundProofs RoundProps FArithModel ExprModel ExprSpec ExprProps RealSpec CompareProofs FArithProofs.
Import ListNotations.
Open Scope Z_scope.

(** A float or double. *)
Definition floating (a : atom) : Prop := a_tt a = 102 \/ a_tt a = 100.
(** An operation that has no result gives a NaN. *)
Definition nan_platform (E : env) : Prop := forall a b, is_nan 52 11 (e_nan E a b).

Lemma floating_tag a : floating a -> is_float (a_tt a) = true.
Proof. intros [H|H]; rewrite H; reflexivity. Qed.

Lemma number_tags a x : number a x -> (a_tt a =? 116) = false.
Proof.
  intros [b t z a' Ho _|a' bits x' _ _|a' bits x' _ _].
  - apply (operand_numeric _ _ _ _ Ho).
  - destruct a'; reflexivity.
  - destruct a'; reflexivity.
Qed.

(** If one operand is a float or double and the other any number, the result is
    a double: the exact sum, difference, product or quotient rounded to the
    nearest double, an infinity or a NaN as in IEEE 754. *)
Theorem C51_arithmetic E a b x y r : nan_platform E -> number a x -> number b y -> floating a \/ floating b ->
  (exists d, op_add E (Some a) (Some b) r = Ok (0, set_double r d) /\ sum_is x y d) /\
  (exists d, op_subtract E (Some a) (Some b) r = Ok (0, set_double r d) /\ sum_is x (opposite y) d) /\
  (exists d, op_multiply E (Some a) (Some b) r = Ok (0, set_double r d) /\ product_is x y d) /\
  (~ same y (Fin 0) ->
     exists d, op_divide E (Some a) (Some b) r = Ok (0, set_double r d) /\ quotient_is x y d).
Proof.
  intros Hn Ha Hb Hf.
  destruct (number_double_of (e_double E) a x Ha) as (d1 & A1 & A2 & A3 & A4).
  destruct (number_double_of (e_double E) b y Hb) as (d2 & B1 & B2 & B3 & B4).
  pose proof (number_tags a x Ha) as A5. pose proof (number_tags b y Hb) as B5.
  assert (F : is_float (a_tt a) || is_float (a_tt b) = true).
  { destruct Hf as [H|H]; rewrite (floating_tag _ H); [reflexivity|apply orb_true_r]. }
  split; [|split; [|split]].
  - exists (dadd (e_nan E) d1 d2). split; [|now apply add_ok].
    unfold op_add. rewrite A3, B3, A4, B4, A5, B5, F. cbn [andb orb]. unfold on_doubles. rewrite A1, B1. reflexivity.
  - exists (dsub (e_nan E) d1 d2). split; [|now apply sub_ok].
    unfold op_subtract. rewrite A3, B3, F. cbn [andb]. unfold on_doubles. rewrite A1, B1. reflexivity.
  - exists (dmul (e_nan E) d1 d2). split; [|now apply mul_ok].
    unfold op_multiply. rewrite A3, B3, F. cbn [andb]. unfold on_doubles. rewrite A1, B1. reflexivity.
  - intros Hy. exists (ddiv (e_nan E) d1 d2). split; [|now apply div_ok].
    unfold op_divide. rewrite A3, B3, F. cbn [andb]. rewrite B1. cbn [bind].
    assert (Z0 : real 52 11 0 (Fin 0)) by (eexists; split; [reflexivity|]; reflexivity).
    pose proof (compare_real d2 0 y (Fin 0) B2 Z0) as C. unfold deq.
    destruct (ieee_compare 52 11 d2 0) as [[]|]; try (rewrite A1; reflexivity). tauto.
Qed.
Print Assumptions C51_arithmetic.

(** A divisor that is zero, with either sign, gives the string Inf whatever the
    dividend is. *)
Theorem C51_divide_by_zero E a b x y r : number a x -> number b y -> floating a \/ floating b -> same y (Fin 0) ->
  op_divide E (Some a) (Some b) r = Ok (0, set_string r 0 [73; 110; 102]).
Proof.
  intros Ha Hb Hf Hy.
  destruct (number_double_of (e_double E) a x Ha) as (d1 & A1 & A2 & A3 & A4).
  destruct (number_double_of (e_double E) b y Hb) as (d2 & B1 & B2 & B3 & B4).
  assert (F : is_float (a_tt a) || is_float (a_tt b) = true).
  { destruct Hf as [H|H]; rewrite (floating_tag _ H); [reflexivity|apply orb_true_r]. }
  unfold op_divide. rewrite A3, B3, F. cbn [andb]. rewrite B1. cbn [bind].
  assert (Z0 : real 52 11 0 (Fin 0)) by (eexists; split; [reflexivity|]; reflexivity).
  pose proof (compare_real d2 0 y (Fin 0) B2 Z0) as C. unfold deq.
  destruct (ieee_compare 52 11 d2 0) as [[]|]; try reflexivity; exfalso; tauto.
Qed.
Print Assumptions C51_divide_by_zero.

(** 1/2 + 200, 1/2 - inf and 1/3. *)
Example C51_case (E : env) (a b r : atom) :
  number (set_float a (126 * 2^23)) (Fin (1#2)) /\ floating (set_float a (126 * 2^23)) /\
  number (set_uint8 b 200) (Fin 200) /\ sum_is (Fin (1#2)) (Fin 200) 4641258483168051200 /\
  sum_is (Fin (1#2)) (opposite (Infinite false)) (infinity 52 11 true) /\
  ddiv (e_nan E) (double_of_int 1) (double_of_int 3) = 4599676419421066581.
Proof.
  split; [|split; [|split; [|split; [|split]]]].
  - apply number_float; [lia|]. eexists. split; reflexivity.
  - left. destruct a; reflexivity.
  - apply (number_int false U8 200); [|lia]. apply (int_operand U8). unfold in_type. cbn. lia.
  - exists false. pose proof (round_ok 52 11 false 401 (-1) double_fmt ltac:(lia)) as R.
    change (ieee_round 52 11 false 401 (-1)) with 4641258483168051200 in R.
    refine (rounds_ext _ _ _ _ _ _ _ R). reflexivity.
  - reflexivity.
  - vm_compute. reflexivity.
Qed.
(** The quiet NaN of x86 and ARM meets the assumption. *)
Example C51_platform (E : env) :
  nan_platform (Env (e_double E) (e_text E) (e_junk E) (fun _ _ => 2047 * 2^52 + 2^51) (e_to_tt E) (e_of_tt E)).
Proof. intros a b. split; vm_compute; [reflexivity|discriminate]. Qed.
