(** C44 continued: numbers that the target format does not have are rounded to
    nearest. *)

From Coq Require Import ZArith List Bool Lia QArith Qabs.
From Verif Require Import Base BaseProofs Bytes UtilModel UtilProofs WireSpec SerialModel SerialSpec WireModel ArgProps
  AtomSModel FloatModel AtomUModel AtomSpec FloatProofs RoundSpec RoundProofs AtomProofs AtomProps NumProps.
Import ListNotations.
Open Scope Z_scope.

Lemma rounds_ext mb eb s x y b : (x == y)%Q -> rounds mb eb s x b -> rounds mb eb s y b.
Proof.
  intros E (H0 & H1 & H2 & H3). split; [destruct s; now rewrite <- E|]. split; [exact H1|]. split.
  - intros H. rewrite <- E in H. destruct (H2 H) as (v & Hv & Hn). exists v. split; [exact Hv|].
    intros b' w Hw. destruct (Hn b' w Hw) as [A B]. rewrite <- E. split; assumption.
  - intros H. rewrite <- E in H. exact (H3 H).
Qed.

Lemma int_rounds mb eb z : fmt mb eb ->
  rounds mb eb (z <? 0) (inject_Z z) (ieee_round mb eb (z <? 0) (Z.abs z) 0).
Proof.
  intros Hf. refine (rounds_ext _ _ _ _ _ _ _ (round_ok mb eb (z <? 0) (Z.abs z) 0 Hf (Z.abs_nonneg z))).
  change (pow2Q 0) with 1%Q. rewrite Qmult_1_r.
  destruct (z <? 0) eqn:E; [apply Z.ltb_lt in E|apply Z.ltb_ge in E].
  - now rewrite Z.abs_neq, Z.opp_involutive by lia.
  - now rewrite Z.abs_eq by lia.
Qed.

(** Every integer atom, of any type and value. *)
Theorem C44_integers_rounded o t a v : in_type t v ->
  (exists bits, au_float o (set_u t a v) = Ok bits /\ rounds 23 8 (v <? 0) (inject_Z v) bits) /\
  (exists bits, au_double o (set_u t a v) = Ok bits /\ rounds 52 11 (v <? 0) (inject_Z v) bits).
Proof.
  intros Hv. split.
  - exists (float_of_int v). split; [now apply au_float_set|]. apply int_rounds. split; lia.
  - exists (double_of_int v). split; [now apply au_double_set|]. apply int_rounds. split; lia.
Qed.
Print Assumptions C44_integers_rounded.

Lemma as_real_wire st t v buf x : in_type t v ->
  shows_value buf x (raw_value (set_u t atom_fresh v)) ->
  as_float st buf (as_tt x) (as_data x) = Ok (float_of_int (wire_number t v)) /\
  as_double st buf (as_tt x) (as_data x) = Ok (double_of_int (wire_number t v)).
Proof.
  intros Hv [Htt Hs]. rewrite raw_fresh in Htt, Hs.
  destruct (slice_inv _ _ _ _ Hs) as (l1 & l2 & -> & <- & _). clear Hs.
  replace (as_tt x) with (tag_of t) by (rewrite Htt; now destruct t).
  replace (enc_value (match esize t with 4%nat => VNum32 (tag_of t) (v mod 2^width t) | _ => VNum64 (tag_of t) (v mod 2^width t) end))
    with (be_bytes (esize t) (v mod 2^width t)) by now destruct t.
  unfold as_float, as_double, wire_number. unfold in_type in Hv.
  ity_cases t; cbn [esize tag_of]; redtag; rewrite ?rd32_be, ?rd64_be; cbn [bind];
    (split; [apply (f_equal (fun z => Ok (float_of_int z)))|apply (f_equal (fun z => Ok (double_of_int z)))]);
    cbv beta iota delta [Z.ltb Z.compare Pos.compare Pos.compare_cont]; wr; Z.div_mod_to_equations; lia.
Qed.

(** In serialized form; 8 and 16 bit integers are read without their sign. *)
Theorem C44_serialized_rounded st t v buf x : in_type t v ->
  shows_value buf x (raw_value (set_u t atom_fresh v)) ->
  let n := wire_number t v in
  (exists bits, as_float st buf (as_tt x) (as_data x) = Ok bits /\ rounds 23 8 (n <? 0) (inject_Z n) bits) /\
  (exists bits, as_double st buf (as_tt x) (as_data x) = Ok bits /\ rounds 52 11 (n <? 0) (inject_Z n) bits).
Proof.
  intros Hv Hs n. destruct (as_real_wire st t v buf x Hv Hs) as [H1 H2]. split.
  - exists (float_of_int n). split; [exact H1|]. apply int_rounds. split; lia.
  - exists (double_of_int n). split; [exact H2|]. apply int_rounds. split; lia.
Qed.
Print Assumptions C44_serialized_rounded.

(** A double as a float: finite numbers are rounded, infinities stay what they
    are, NaN stays NaN. *)
Definition as_single (bits r : Z) : Prop :=
  (forall q, double_value bits = Some q -> rounds 23 8 (Z.testbit bits 63) q r) /\
  (forall s, bits = infinity 52 11 s -> r = infinity 23 8 s) /\
  (is_nan 52 11 bits -> is_nan 23 8 r).

Lemma lor_mask m k : 0 <= k -> 0 <= m < 2^(k + 1) -> 0 < Z.lor m (2^k) < 2^(k + 1).
Proof.
  intros Hk Hm. assert (Hn : 0 <= Z.lor m (2^k)) by (apply Z.lor_nonneg; split; [lia|apply Z.pow_nonneg; lia]).
  assert (Hb : Z.testbit (Z.lor m (2^k)) k = true).
  { rewrite Z.lor_spec, Z.pow2_bits_true by lia. apply orb_true_r. }
  split.
  - destruct (Z.eq_dec (Z.lor m (2^k)) 0) as [E|E]; [|lia]. rewrite E, Z.bits_0 in Hb. discriminate.
  - destruct (Z.eq_dec (Z.lor m (2^k)) 0) as [E|E]; [rewrite E; apply Z.pow_pos_nonneg; lia|].
    apply Z.log2_lt_pow2; [lia|]. rewrite Z.log2_lor by (try apply Z.pow_nonneg; lia).
    rewrite Z.log2_pow2 by lia. apply Z.max_lub_lt; [|lia].
    destruct (Z.eq_dec m 0) as [->|Hm0]; [cbn; lia|]. apply Z.log2_lt_pow2; lia.
Qed.

Lemma float_of_double_ok bits : as_single bits (float_of_double bits).
Proof.
  unfold float_of_double. split; [|split].
  - intros q Hq. pose proof (value_decode 52 11 bits ltac:(lia) ltac:(lia)) as H.
    fold (double_value bits) in H. rewrite Hq in H. unfold ieee_convert.
    destruct (ieee_decode 52 11 bits) as [[[s m] e]|] eqn:Ed; [|easy].
    destruct (decode_bounds 52 11 bits s m e ltac:(split; lia) Ed) as [Hm He].
    assert (Hs : Z.testbit bits 63 = s).
    { unfold ieee_decode in Ed. destruct (_ =? _) in Ed; [discriminate|]. injection Ed as <- _ _.
      rewrite Z.testbit_odd, Z.shiftr_div_pow2 by lia. change (52 + 11) with 63.
      rewrite Zmod_odd. change (Z.pow_pos 2 63) with (2^63). now destruct (Z.odd (bits / 2^63)). }
    rewrite Hs. refine (rounds_ext _ _ _ _ _ _ _ (round_ok 23 8 s m e ltac:(split; lia) ltac:(lia))).
    symmetry. exact H.
  - intros s ->. now destruct s.
  - intros [H1 H2]. unfold ieee_convert.
    assert (Ed : ieee_decode 52 11 bits = None).
    { unfold ieee_decode. rewrite H1. reflexivity. }
    rewrite Ed. apply Z.eqb_neq in H2. rewrite H2. change (52 <=? 23) with false. cbv iota.
    set (m := bits mod 2^52 / 2^(52 - 23)).
    assert (Hm : 0 <= m < 2^(22 + 1)).
    { unfold m. assert (0 <= bits mod 2^52 < 2^52) by (apply Z.mod_pos_bound; lia).
      change (2^(52 - 23)) with (2^29). change (2^(22 + 1)) with (2^23). Z.div_mod_to_equations; lia. }
    change (23 - 1) with 22. pose proof (lor_mask m 22 ltac:(lia) Hm) as Hl. change (22 + 1) with 23 in Hl.
    set (r := Z.lor m (2^22)) in *. clearbody r.
    assert (Hs : 0 <= bits / 2^(52 + 11) mod 2 < 2) by (apply Z.mod_pos_bound; lia).
    set (s := bits / 2^(52 + 11) mod 2) in *. clearbody s. unfold is_nan.
    change (2^(23 + 8)) with (2^31). change (2^8 - 1) with 255. change (2^8) with 256.
    split; Z.div_mod_to_equations; lia.
Qed.

Theorem C44_doubles_rounded o st a bits : 0 <= bits < 2^64 ->
  (exists r, au_float o (set_double a bits) = Ok r /\ as_single bits r) /\
  (forall buf x, shows_value buf x (raw_value (set_double a bits)) ->
     exists r, as_float st buf (as_tt x) (as_data x) = Ok r /\ as_single bits r).
Proof.
  intros Hb. destruct a as [tg w p].
  assert (E : u64 (store 64 w bits) = bits).
  { unfold store. wr. Z.div_mod_to_equations. lia. }
  split.
  - exists (float_of_double bits). split; [|apply float_of_double_ok]. cbn -[store u64 float_of_double].
    unfold w_d. now rewrite E.
  - intros buf x [Htt Hs]. exists (float_of_double bits). split; [|apply float_of_double_ok]. rewrite Htt.
    change (raw_value (set_double (Atom tg w p) bits)) with (VNum64 100 (u64 (store 64 w bits))) in *.
    rewrite E in *. destruct (slice_inv _ _ _ _ Hs) as (l1 & l2 & -> & <- & _).
    cbn [enc_value]. unfold as_float. cbn [vtag]. redtag. rewrite rd64_be. cbn [bind]. do 2 f_equal.
    now apply Z.mod_small.
Qed.
Print Assumptions C44_doubles_rounded.

(** A float as a double: finite ones are exact (C44_floats), the others are
    what they were. *)
Theorem C44_floats_special o a bits : 0 <= bits < 2^32 ->
  exists r, au_double o (set_float a bits) = Ok r /\
    (forall s, bits = infinity 23 8 s -> r = infinity 52 11 s) /\
    (is_nan 23 8 bits -> is_nan 52 11 r).
Proof.
  intros Hb. destruct a as [tg w p].
  assert (E : u32 (store 32 w bits) = bits).
  { unfold store. wr. Z.div_mod_to_equations. lia. }
  exists (double_of_float bits). split; [|split].
  - cbn -[store u32 double_of_float]. unfold w_f. now rewrite E.
  - intros s ->. now destruct s.
  - intros [H1 H2]. unfold double_of_float, ieee_convert.
    assert (Ed : ieee_decode 23 8 bits = None).
    { unfold ieee_decode. rewrite H1. reflexivity. }
    rewrite Ed. apply Z.eqb_neq in H2. rewrite H2. change (23 <=? 52) with true. cbv iota.
    set (m := bits mod 2^23 * 2^(52 - 23)).
    assert (Hm : 0 <= m < 2^(51 + 1)).
    { unfold m. assert (0 <= bits mod 2^23 < 2^23) by (apply Z.mod_pos_bound; lia).
      change (2^(52 - 23)) with (2^29). change (2^(51 + 1)) with (2^52). lia. }
    change (52 - 1) with 51. pose proof (lor_mask m 51 ltac:(lia) Hm) as Hl. change (51 + 1) with 52 in Hl.
    set (r := Z.lor m (2^51)) in *. clearbody r.
    assert (Hs : 0 <= bits / 2^(23 + 8) mod 2 < 2) by (apply Z.mod_pos_bound; lia).
    set (s := bits / 2^(23 + 8) mod 2) in *. clearbody s. unfold is_nan.
    change (2^(52 + 11)) with (2^63). change (2^11 - 1) with 2047. change (2^11) with 2048.
    split; Z.div_mod_to_equations; lia.
Qed.
Print Assumptions C44_floats_special.

(** 2^24+1 lies between two floats; the even one is taken.  A third as a double
    becomes the float nearest to it. *)
Example C44_rounded_hypotheses :
  in_type I32 16777217 /\
  au_float (fun _ => 0) (set_int32 atom_fresh 16777217) = Ok 1266679808 /\
  (exists q, float_value 1266679808 = Some q /\ (q == 16777216 # 1)%Q) /\
  (exists q, float_value 1266679809 = Some q /\ (q == 16777218 # 1)%Q) /\
  au_float (fun _ => 0) (set_double atom_fresh 4599676419421066581) = Ok 1051372203 /\
  (inject_Z 16777217 < overflow_limit 23 8)%Q /\
  is_nan 52 11 (infinity 52 11 true + 1).
Proof.
  split; [cbn; lia|]. split; [vm_compute; reflexivity|].
  split; [eexists; (split; [vm_compute; reflexivity|vm_compute; reflexivity])|].
  split; [eexists; (split; [vm_compute; reflexivity|vm_compute; reflexivity])|].
  split; [vm_compute; reflexivity|]. split; [vm_compute; reflexivity|].
  split; vm_compute; [reflexivity|discriminate].
Qed.
