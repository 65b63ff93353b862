(** C44-C48: numbers read as other kinds of numbers. *)

From Coq Require Import ZArith List Bool Lia QArith.
From Verif Require Import Base BaseProofs Bytes Text UtilModel UtilProofs TimetagModel
  WireSpec SerialModel SerialSpec SerialProofs SerialProps WireModel ArgProps
  AtomSModel FloatModel AtomUModel AtomSpec FloatProofs AtomProofs AtomProps.
Import ListNotations.
Open Scope Z_scope.

(** * C44: integers read as floating point numbers *)

Lemma au_float_set o t a v : in_type t v -> au_float o (set_u t a v) = Ok (float_of_int v).
Proof.
  intros H. destruct a as [tg w p].
  assert (E := wrap_store t w v). rewrite (wrap_id t v H) in E.
  destruct t; cbn [wrap width] in E; cbn -[store s8 s16 s32 s64 u8 u16 u32 u64 float_of_int];
    unfold w_c, w_C, w_u, w_U, w_i, w_I, w_h, w_H; rewrite E; reflexivity.
Qed.
Lemma au_double_set o t a v : in_type t v -> au_double o (set_u t a v) = Ok (double_of_int v).
Proof.
  intros H. destruct a as [tg w p].
  assert (E := wrap_store t w v). rewrite (wrap_id t v H) in E.
  destruct t; cbn [wrap width] in E; cbn -[store s8 s16 s32 s64 u8 u16 u32 u64 double_of_int];
    unfold w_c, w_C, w_u, w_U, w_i, w_I, w_h, w_H; rewrite E; reflexivity.
Qed.

(** Every integer up to 2^24 in magnitude is read exactly by
    osc_atom_u_getFloat, every one up to 2^53 by osc_atom_u_getDouble. *)
Theorem C44_unserialized o t a v : in_type t v ->
  (Z.abs v <= 2^24 -> exists bits q, au_float o (set_u t a v) = Ok bits /\
     float_value bits = Some q /\ (q == inject_Z v)%Q) /\
  (Z.abs v <= 2^53 -> exists bits q, au_double o (set_u t a v) = Ok bits /\
     double_value bits = Some q /\ (q == inject_Z v)%Q).
Proof.
  intros Hv. split; intros H.
  - destruct (float_of_int_exact v H) as (q & H1 & H2). exists (float_of_int v), q.
    split; [now apply au_float_set|]. now split.
  - destruct (double_of_int_exact v H) as (q & H1 & H2). exists (double_of_int v), q.
    split; [now apply au_double_set|]. now split.
Qed.
Print Assumptions C44_unserialized.

(** In serialized form likewise, except that 8 and 16 bit integers are read
    without their sign. *)
Definition wire_number (t : ity) (v : Z) : Z := if width t <? 32 then v mod 2^width t else v.

Theorem C44_serialized st t v buf x : in_type t v ->
  shows_value buf x (raw_value (set_u t atom_fresh v)) ->
  (Z.abs v <= 2^24 -> exists bits q, as_float st buf (as_tt x) (as_data x) = Ok bits /\
     float_value bits = Some q /\ (q == inject_Z (wire_number t v))%Q) /\
  (Z.abs v <= 2^53 -> exists bits q, as_double st buf (as_tt x) (as_data x) = Ok bits /\
     double_value bits = Some q /\ (q == inject_Z (wire_number t v))%Q).
Proof.
  intros Hv [Htt Hs]. rewrite raw_fresh in Htt, Hs.
  destruct (slice_inv _ _ _ _ Hs) as (l1 & l2 & -> & <- & _). clear Hs.
  replace (as_tt x) with (tag_of t) by (rewrite Htt; now destruct t).
  replace (enc_value (match esize t with 4%nat => VNum32 (tag_of t) (v mod 2^width t) | _ => VNum64 (tag_of t) (v mod 2^width t) end))
    with (be_bytes (esize t) (v mod 2^width t)) by now destruct t.
  assert (Hf : as_float st (l1 ++ be_bytes (esize t) (v mod 2^width t) ++ l2) (tag_of t) (zlen l1)
                 = Ok (float_of_int (wire_number t v)) /\
               as_double st (l1 ++ be_bytes (esize t) (v mod 2^width t) ++ l2) (tag_of t) (zlen l1)
                 = Ok (double_of_int (wire_number t v))).
  { unfold as_float, as_double, wire_number. unfold in_type in Hv.
    ity_cases t; cbn [esize tag_of]; redtag; rewrite ?rd32_be, ?rd64_be; cbn [bind];
      (split; [apply (f_equal (fun z => Ok (float_of_int z)))|apply (f_equal (fun z => Ok (double_of_int z)))]);
      cbv beta iota delta [Z.ltb Z.compare Pos.compare Pos.compare_cont]; wr; Z.div_mod_to_equations; lia. }
  destruct Hf as [Hf Hd]. rewrite Hf, Hd.
  assert (Hw : Z.abs (wire_number t v) <= Z.max (Z.abs v) (2^16)).
  { unfold wire_number. destruct (width t <? 32) eqn:E; [|lia].
    pose proof (Z.mod_pos_bound v (2^width t)). destruct t; cbn in *; try discriminate; lia. }
  split; intros H.
  - destruct (float_of_int_exact (wire_number t v)) as (q & H1 & H2); [lia|]. now exists (float_of_int (wire_number t v)), q.
  - destruct (double_of_int_exact (wire_number t v)) as (q & H1 & H2); [lia|]. now exists (double_of_int (wire_number t v)), q.
Qed.
Print Assumptions C44_serialized.

(** Floats read as doubles keep their value, and reading them as what they are
    gives the very bits. *)
Theorem C44_floats o st a bits : 0 <= bits < 2^32 ->
  au_float o (set_float a bits) = Ok bits /\
  (forall buf x, shows_value buf x (raw_value (set_float a bits)) ->
     as_float st buf (as_tt x) (as_data x) = Ok bits) /\
  forall q, float_value bits = Some q ->
    (exists bits' q', au_double o (set_float a bits) = Ok bits' /\
       double_value bits' = Some q' /\ (q' == q)%Q) /\
    (forall buf x, shows_value buf x (raw_value (set_float a bits)) ->
       exists bits' q', as_double st buf (as_tt x) (as_data x) = Ok bits' /\
         double_value bits' = Some q' /\ (q' == q)%Q).
Proof.
  intros Hb. destruct a as [tg w p].
  assert (E : u32 (store 32 w bits) = bits).
  { unfold store. wr. Z.div_mod_to_equations. lia. }
  assert (Hsh : forall buf x, shows_value buf x (raw_value (set_float (Atom tg w p) bits)) ->
    as_tt x = 102 /\ rd32 buf (as_data x) = Ok bits).
  { intros buf x [Htt Hs]. split; [exact Htt|].
    change (raw_value (set_float (Atom tg w p) bits)) with (VNum32 102 (u32 (store 32 w bits))) in Hs.
    rewrite E in Hs. destruct (slice_inv _ _ _ _ Hs) as (l1 & l2 & -> & <- & _).
    cbn [enc_value]. rewrite rd32_be. f_equal. now apply Z.mod_small. }
  split; [|split].
  - cbn -[store u32]. unfold w_f. now rewrite E.
  - intros buf x Hx. destruct (Hsh buf x Hx) as [-> Hr]. exact Hr.
  - intros q Hq. destruct (double_of_float_exact bits q Hq) as (q' & H1 & H2). split.
    + exists (double_of_float bits), q'. split; [|now split]. cbn -[store u32 double_of_float]. unfold w_f. now rewrite E.
    + intros buf x Hx. destruct (Hsh buf x Hx) as [-> Hr]. exists (double_of_float bits), q'.
      split; [|now split]. unfold as_double. redtag. now rewrite Hr.
Qed.
Print Assumptions C44_floats.

Theorem C44_doubles o st a bits : 0 <= bits < 2^64 ->
  au_double o (set_double a bits) = Ok bits /\
  (forall buf x, shows_value buf x (raw_value (set_double a bits)) ->
     as_double st buf (as_tt x) (as_data x) = Ok bits).
Proof.
  intros Hb. destruct a as [tg w p].
  assert (E : u64 (store 64 w bits) = bits).
  { unfold store. wr. Z.div_mod_to_equations. lia. }
  split.
  - cbn -[store u64]. unfold w_d. now rewrite E.
  - intros buf x [Htt Hs]. rewrite Htt.
    change (raw_value (set_double (Atom tg w p) bits)) with (VNum64 100 (u64 (store 64 w bits))) in *.
    rewrite E in *. destruct (slice_inv _ _ _ _ Hs) as (l1 & l2 & -> & <- & _).
    cbn [enc_value]. unfold as_double. cbn [vtag]. redtag. rewrite rd64_be. f_equal. now apply Z.mod_small.
Qed.
Print Assumptions C44_doubles.

Example C44_hypotheses :
  in_type I16 (-3) /\ Z.abs (-3) <= 2^24 /\
  au_float (fun _ => 0) (set_int16 atom_fresh (-3)) = Ok 3225419776 /\
  (exists q, float_value 3225419776 = Some q /\ (q == -3 # 1)%Q) /\
  (exists q, float_value 1075838976 = Some q /\ (q == 5 # 2)%Q).
Proof.
  split; [cbn; lia|]. split; [cbn; lia|]. split; [vm_compute; reflexivity|].
  split; eexists; (split; [vm_compute; reflexivity|vm_compute; reflexivity]).
Qed.

(** * C45: floating point numbers read as integers *)

Lemma to_range_ok t lo hi v : (forall z, in_type t z <-> lo <= z <= hi) ->
  match v with
  | Some z => if (lo <=? z) && (z <=? hi) then in_type t z /\ to_range lo hi v = Ok z
              else ~ in_type t z /\ to_range lo hi v = Ub Overflow
  | None => to_range lo hi v = Ub Overflow
  end.
Proof.
  intros H. destruct v as [z|]; [|reflexivity]. unfold to_range.
  destruct ((lo <=? z) && (z <=? hi)) eqn:E.
  - split; [|reflexivity]. apply H. apply andb_true_iff in E. destruct E as [E1 E2].
    apply Z.leb_le in E1, E2. lia.
  - split; [|reflexivity]. rewrite H. intros [H1 H2]. apply andb_false_iff in E.
    destruct E as [E|E]; apply Z.leb_gt in E; lia.
Qed.

(** [r] is what reading the number [v] as an integer of type [t] gives: the
    number rounded towards zero if the type has it.  C leaves everything else
    undefined, infinities and NaNs included. *)
Definition reads_as (t : ity) (v : option Q) (r : res Z) : Prop :=
  match v with
  | Some q => exists z, truncates_to q z /\ (in_type t z -> r = Ok z) /\ (~ in_type t z -> r = Ub Overflow)
  | None => r = Ub Overflow
  end.

Lemma reads_as_intro mb eb t lo hi bits : 0 <= mb -> 0 <= eb ->
  (forall z, in_type t z <-> lo <= z <= hi) ->
  reads_as t (ieee_value mb eb bits) (to_range lo hi (ieee_trunc mb eb bits)).
Proof.
  intros Hm He Ht. pose proof (ieee_trunc_ok mb eb bits Hm He) as H.
  pose proof (to_range_ok t lo hi (ieee_trunc mb eb bits) Ht) as R.
  unfold reads_as. destruct (ieee_value mb eb bits) as [q|].
  - destruct H as (z & E & T). rewrite E in *. exists z. split; [exact T|].
    destruct ((lo <=? z) && (z <=? hi)); destruct R as [R1 R2]; rewrite R2; tauto.
  - now rewrite H in *.
Qed.

Lemma in_type_bounds t z : in_type t z <->
  (if signed t then - 2^(width t - 1) else 0) <= z <= (if signed t then 2^(width t - 1) - 1 else 2^width t - 1).
Proof. unfold in_type. destruct (signed t); lia. Qed.

Theorem C45_unserialized t a bits :
  (0 <= bits < 2^32 -> reads_as t (float_value bits) (get_u t (set_float a bits))) /\
  (0 <= bits < 2^64 -> reads_as t (double_value bits) (get_u t (set_double a bits))) /\
  (0 <= bits < 2^32 -> reads_as I32 (float_value bits) (au_int (set_float a bits))) /\
  (0 <= bits < 2^64 -> reads_as I32 (double_value bits) (au_int (set_double a bits))).
Proof.
  destruct a as [tg w p].
  assert (E32 : 0 <= bits < 2^32 -> u32 (store 32 w bits) = bits).
  { intros H. unfold store. wr. Z.div_mod_to_equations. lia. }
  assert (E64 : 0 <= bits < 2^64 -> u64 (store 64 w bits) = bits).
  { intros H. unfold store. wr. Z.div_mod_to_equations. lia. }
  assert (B := in_type_bounds).
  split; [|split; [|split]]; intros H.
  - specialize (E32 H). specialize (B t). destruct t; cbn -[store u32 to_range trunc32 float_value Z.pow Z.sub Z.opp];
      unfold w_f; rewrite E32; apply reads_as_intro; try lia; exact B.
  - specialize (E64 H). specialize (B t). destruct t; cbn -[store u64 to_range trunc64 double_value Z.pow Z.sub Z.opp];
      unfold w_d; rewrite E64; apply reads_as_intro; try lia; exact B.
  - specialize (E32 H). cbn -[store u32 to_range trunc32 float_value Z.pow Z.sub Z.opp]; unfold w_f; rewrite E32;
      apply reads_as_intro; try lia. exact (B I32).
  - specialize (E64 H). cbn -[store u64 to_range trunc64 double_value Z.pow Z.sub Z.opp]; unfold w_d; rewrite E64;
      apply reads_as_intro; try lia. exact (B I32).
Qed.
Print Assumptions C45_unserialized.

(** Serialized numbers are first read as 32-bit integers by the accessors of the
    smaller types. *)
Definition first_read (t : ity) : ity :=
  match t with I8 | I16 => I32 | U8 | U16 => U32 | _ => t end.

Theorem C45_serialized t a bits buf x :
  (0 <= bits < 2^32 -> shows_value buf x (raw_value (set_float a bits)) ->
   exists r, reads_as (first_read t) (float_value bits) r /\
     match r with
     | Ok z => exists z', get_s t buf (as_tt x) (as_data x) = Ok z' /\ converted t z z'
     | _ => get_s t buf (as_tt x) (as_data x) = r
     end) /\
  (0 <= bits < 2^64 -> shows_value buf x (raw_value (set_double a bits)) ->
   exists r, reads_as (first_read t) (double_value bits) r /\
     match r with
     | Ok z => exists z', get_s t buf (as_tt x) (as_data x) = Ok z' /\ converted t z z'
     | _ => get_s t buf (as_tt x) (as_data x) = r
     end).
Proof.
  destruct a as [tg w p].
  assert (Hgen : forall lo hi mb eb, 0 <= mb -> 0 <= eb ->
    (forall z, in_type (first_read t) z <-> lo <= z <= hi) ->
    get_s t buf (as_tt x) (as_data x) =
      (do z <- to_range lo hi (ieee_trunc mb eb bits); Ok (wrap t z)) ->
    exists r, reads_as (first_read t) (ieee_value mb eb bits) r /\
     match r with
     | Ok z => exists z', get_s t buf (as_tt x) (as_data x) = Ok z' /\ converted t z z'
     | _ => get_s t buf (as_tt x) (as_data x) = r
     end).
  { intros lo hi mb eb Hm He Hb Hr. exists (to_range lo hi (ieee_trunc mb eb bits)).
    split; [now apply reads_as_intro|]. rewrite Hr.
    destruct (to_range lo hi (ieee_trunc mb eb bits)) as [z| |]; cbn [bind]; try reflexivity.
    exists (wrap t z). split; [reflexivity|apply converted_wrap]. }
  assert (Hw : forall lo hi v, (forall z, in_type t z <-> lo <= z <= hi) ->
    to_range lo hi v = (do z <- to_range lo hi v; Ok (wrap t z))).
  { intros lo hi v Ht. pose proof (to_range_ok t lo hi v Ht) as R. destruct v as [z|]; [|now rewrite R].
    destruct ((lo <=? z) && (z <=? hi)); destruct R as [R1 R2]; rewrite R2; cbn [bind]; [|reflexivity].
    now rewrite wrap_id. }
  assert (B := in_type_bounds).
  split; intros Hb [Htt Hs].
  - change (raw_value (set_float (Atom tg w p) bits)) with (VNum32 102 (u32 (store 32 w bits))) in *.
    assert (E : u32 (store 32 w bits) = bits) by (unfold store; wr; Z.div_mod_to_equations; lia).
    rewrite E in *. cbn [vtag] in Htt.
    destruct (slice_inv _ _ _ _ Hs) as (l1 & l2 & Ebuf & El & _).
    assert (Hrd : rd32 buf (as_data x) = Ok bits).
    { rewrite Ebuf, <- El. cbn [enc_value]. rewrite rd32_be. f_equal. now apply Z.mod_small. }
    apply (Hgen (if signed (first_read t) then - 2^(width (first_read t) - 1) else 0)
                (if signed (first_read t) then 2^(width (first_read t) - 1) - 1 else 2^width (first_read t) - 1) 23 8);
      [lia|lia|apply B|]. rewrite Htt.
    destruct t; cbn [get_s first_read signed width wrap];
      unfold as_int8, as_int16, as_int32, as_int64, as_uint8, as_uint16, as_uint32, as_uint64; redtag; rewrite Hrd; cbn [bind];
      try reflexivity; apply Hw; apply B.
  - change (raw_value (set_double (Atom tg w p) bits)) with (VNum64 100 (u64 (store 64 w bits))) in *.
    assert (E : u64 (store 64 w bits) = bits) by (unfold store; wr; Z.div_mod_to_equations; lia).
    rewrite E in *. cbn [vtag] in Htt.
    destruct (slice_inv _ _ _ _ Hs) as (l1 & l2 & Ebuf & El & _).
    assert (Hrd : rd64 buf (as_data x) = Ok bits).
    { rewrite Ebuf, <- El. cbn [enc_value]. rewrite rd64_be. f_equal. now apply Z.mod_small. }
    apply (Hgen (if signed (first_read t) then - 2^(width (first_read t) - 1) else 0)
                (if signed (first_read t) then 2^(width (first_read t) - 1) - 1 else 2^width (first_read t) - 1) 52 11);
      [lia|lia|apply B|]. rewrite Htt.
    destruct t; cbn [get_s first_read signed width wrap];
      unfold as_int8, as_int16, as_int32, as_int64, as_uint8, as_uint16, as_uint32, as_uint64; redtag; rewrite Hrd; cbn [bind];
      try reflexivity; apply Hw; apply B.
Qed.
Print Assumptions C45_serialized.

Example C45_hypotheses :
  get_u I8 (set_float atom_fresh 3223322624) = Ok (-2) /\   (* -2.5 *)
  get_u U8 (set_float atom_fresh 3223322624) = Ub Overflow /\
  (exists q, float_value 3223322624 = Some q /\ (q == -5 # 2)%Q /\ truncates_to q (-2)) /\
  get_u I32 (set_float atom_fresh 2139095040) = Ub Overflow /\ float_value 2139095040 = None.
Proof.
  split; [vm_compute; reflexivity|]. split; [vm_compute; reflexivity|].
  split; [|split; vm_compute; reflexivity].
  eexists. split; [vm_compute; reflexivity|]. split; [vm_compute; reflexivity|].
  split; intros H; [vm_compute in H; tauto|]. split; vm_compute; [reflexivity|discriminate].
Qed.

(** * C46: strings read as integers *)

Theorem C46_unserialized t w sp z rest :
  Forall (fun c => is_space c = true) sp -> ends_number rest ->
  let a := Atom 115 w (PStr (sp ++ numeral z ++ rest)) in
  (t = I16 \/ t = I32 \/ t = I64 ->
   exists r, get_u t a = Ok r /\ converted t (Z.max (- 2^63) (Z.min (2^63 - 1) z)) r) /\
  (t = U16 \/ t = U32 \/ t = U64 -> Z.abs z < 2^64 ->
   exists r, get_u t a = Ok r /\ converted t z r) /\
  (exists r, au_int a = Ok r /\ converted I32 (Z.max (- 2^63) (Z.min (2^63 - 1) z)) r).
Proof.
  intros Hs Hr a. set (c := Z.max (- 2^63) (Z.min (2^63 - 1) z)).
  assert (E : strtol (sp ++ numeral z ++ rest) = c) by now apply strtol_numeral.
  split; [|split].
  - intros Ht. exists (wrap t c). split; [|apply converted_wrap].
    destruct Ht as [-> | [-> | ->]]; cbn -[strtol s16 s32 s64]; now rewrite E.
  - intros Ht Hz. assert (E' : strtoul (sp ++ numeral z ++ rest) = z mod 2^64) by now apply strtoul_numeral.
    exists (wrap t z). split; [|apply converted_wrap].
    destruct Ht as [-> | [-> | ->]]; cbn -[strtoul u16 u32 u64 Z.pow Z.modulo]; rewrite E'; f_equal;
      cbn [wrap]; wr; Z.div_mod_to_equations; lia.
  - exists (s32 c). split; [|apply (converted_wrap I32)]. cbn -[strtol s32]. now rewrite E.
Qed.
Print Assumptions C46_unserialized.

Theorem C46_serialized t sp z rest buf x : nonul rest ->
  Forall (fun c => is_space c = true) sp -> ends_number rest ->
  shows_value buf x (VStr (sp ++ numeral z ++ rest)) ->
  (signed t = true ->
   exists r, get_s t buf (as_tt x) (as_data x) = Ok r /\ converted t (Z.max (- 2^63) (Z.min (2^63 - 1) z)) r) /\
  (signed t = false -> Z.abs z < 2^64 ->
   exists r, get_s t buf (as_tt x) (as_data x) = Ok r /\ converted t z r).
Proof.
  intros Hn Hs Hr [Htt Hx]. set (c := Z.max (- 2^63) (Z.min (2^63 - 1) z)).
  assert (E : strtol (sp ++ numeral z ++ rest) = c) by now apply strtol_numeral.
  destruct (slice_inv _ _ _ _ Hx) as (l1 & l2 & Ebuf & El & _).
  assert (Hz : nonul (sp ++ numeral z ++ rest)).
  { apply Forall_app. split; [|apply Forall_app; split; [|exact Hn]].
    - eapply Forall_impl; [|exact Hs]. unfold is_space. intros b Hb ->. discriminate Hb.
    - assert (D : forall n, 0 <= n -> nonul (digit_string n)).
      { intros n Hn'. destruct (digit_string_ok n Hn') as (H1 & _).
        eapply Forall_impl; [|exact H1]. intros b Hb ->. discriminate Hb. }
      unfold numeral. destruct (z <? 0) eqn:Ez; [apply Z.ltb_lt in Ez|apply Z.ltb_ge in Ez].
      + constructor; [discriminate|apply D; lia].
      + now apply D. }
  assert (Hrd : rdstr buf (as_data x) = Ok (sp ++ numeral z ++ rest)).
  { rewrite Ebuf, <- El. cbn [enc_value]. unfold pad_str.
    set (s := sp ++ numeral z ++ rest) in *.
    assert (Hp : 0 < 4 - zlen s mod 4) by (pose proof (Z.mod_pos_bound (zlen s) 4); lia).
    unfold zeros. destruct (Z.to_nat (4 - zlen s mod 4)) as [|k] eqn:Ek; [lia|].
    cbn [repeat]. rewrite <- app_assoc. cbn [app]. now apply rdstr_at. }
  cbn [vtag] in Htt. rewrite Htt. split.
  - intros Ht. exists (wrap t c). split; [|apply converted_wrap].
    destruct t; try discriminate Ht; cbn [get_s];
      unfold as_int8, as_int16, as_int32, as_int64, as_uint8, as_uint16, as_uint32, as_uint64;
      redtag; rewrite Hrd; cbn [bind]; rewrite E; f_equal; cbn [wrap]; wr; Z.div_mod_to_equations; lia.
  - intros Ht Hab. assert (E' : strtoul (sp ++ numeral z ++ rest) = z mod 2^64) by now apply strtoul_numeral.
    exists (wrap t z). split; [|apply converted_wrap].
    destruct t; try discriminate Ht; cbn [get_s];
      unfold as_int8, as_int16, as_int32, as_int64, as_uint8, as_uint16, as_uint32, as_uint64;
      redtag; rewrite Hrd; cbn [bind]; rewrite E'; f_equal; cbn [wrap]; wr; Z.div_mod_to_equations; lia.
Qed.
Print Assumptions C46_serialized.

(** The 8 bit accessors of unserialized strings return the first character
    instead. *)
Theorem C46_first_char_refuted w c s : 0 < c < 128 ->
  au_int8 (Atom 115 w (PStr (c :: s))) = Ok c /\ au_uint8 (Atom 115 w (PStr (c :: s))) = Ok c.
Proof.
  intros H. cbn -[s8 u8]. unfold first_char. wr. split; f_equal; Z.div_mod_to_equations; lia.
Qed.
Print Assumptions C46_first_char_refuted.

Example C46_hypotheses :
  numeral (-1203) = str "-1203" /\ numeral 0 = str "0" /\
  au_int32 (Atom 115 0 (PStr (str "  -1203 Hz"))) = Ok (-1203) /\
  Forall (fun c => is_space c = true) (str "  ") /\ ends_number (str " Hz") /\
  str "  -1203 Hz" = str "  " ++ numeral (-1203) ++ str " Hz" /\
  au_int8 (Atom 115 0 (PStr (str "12"))) = Ok 49.
Proof. repeat split; try reflexivity. repeat constructor. Qed.

(** * C47: negation *)

(** Negating an integer makes it one of the signed type of its width. *)
Definition signed_of (t : ity) : ity :=
  match t with U8 => I8 | U16 => I16 | U32 => I32 | U64 => I64 | _ => t end.
(** Negating the least 32 or 64 bit integer is signed overflow. *)
Definition overflows (t : ity) (v : Z) : Prop := (t = I32 /\ v = - 2^31) \/ (t = I64 /\ v = - 2^63).

Lemma neg_value t v : in_type t v -> ~ overflows t v ->
  exists v', in_type (signed_of t) v' /\ converted (signed_of t) (- v) v' /\ v' = wrap (signed_of t) (- v).
Proof.
  intros _ _. exists (wrap (signed_of t) (- v)).
  pose proof (converted_wrap (signed_of t) (- v)) as H. split; [apply H|]. split; [exact H|reflexivity].
Qed.

Theorem C47_unserialized t a v : in_type t v ->
  (overflows t v -> au_negate (set_u t a v) = Ub Overflow) /\
  (~ overflows t v ->
   exists a' r, au_negate (set_u t a v) = Ok a' /\ a_tt a' = tag_of (signed_of t) /\
     get_u (signed_of t) a' = Ok r /\ converted (signed_of t) (- v) r).
Proof.
  intros Hv. split.
  - intros [[-> ->]|[-> ->]]; unfold au_negate, a_tt.
    + assert (E := get_set I32 I32 a (- 2^31) Hv). rewrite wrap_id in E by exact Hv. cbn [get_u] in E.
      destruct a as [tg w p]. cbn [set_u set_int32] in *. redtag. rewrite E. cbn [bind]. reflexivity.
    + assert (E := get_set I64 I64 a (- 2^63) Hv). rewrite wrap_id in E by exact Hv. cbn [get_u] in E.
      destruct a as [tg w p]. cbn [set_u set_int64] in *. redtag. rewrite E. cbn [bind]. reflexivity.
  - intros Ho. assert (E := get_set t t a v Hv). rewrite wrap_id in E by exact Hv.
    exists (set_u (signed_of t) (set_u t a v) (wrap (signed_of t) (- v))), (wrap (signed_of t) (- v)).
    pose proof (converted_wrap (signed_of t) (- v)) as C.
    split; [|split; [|split; [|exact C]]].
    + assert (Ht : a_tt (set_u t a v) = tag_of t) by (destruct a, t; reflexivity).
      unfold au_negate. rewrite Ht. clear Ht.
      assert (N : forall lo, v <> lo -> neg_checked lo v = Ok (- v)).
      { intros lo Hl. unfold neg_checked. now rewrite (proj2 (Z.eqb_neq v lo)). }
      destruct t; cbn [tag_of get_u signed_of set_u wrap] in *; redtag; rewrite E; cbn [bind]; try reflexivity.
      * rewrite N by (intros ->; apply Ho; now left). cbn [bind]. f_equal. f_equal. symmetry.
        apply (wrap_id I32). unfold in_type in *. cbn in *.
        assert (v <> - 2^31) by (intros ->; apply Ho; now left). wr. lia.
      * rewrite N by (intros ->; apply Ho; now right). cbn [bind]. f_equal. f_equal. symmetry.
        apply (wrap_id I64). unfold in_type in *. cbn in *.
        assert (v <> - 2^63) by (intros ->; apply Ho; now right). wr. lia.
      * f_equal. f_equal. wr. Z.div_mod_to_equations. lia.
      * f_equal. f_equal. wr. Z.div_mod_to_equations. lia.
    + destruct a as [tg w p]. destruct t; reflexivity.
    + rewrite get_set by apply C. now rewrite wrap_id by apply C.
Qed.
Print Assumptions C47_unserialized.

Theorem C47_serialized t v l1 l2 : in_type t v ->
  let buf := l1 ++ enc_value (raw_value (set_u t atom_fresh v)) ++ l2 in
  (overflows t v -> as_negate buf (tag_of t) (zlen l1) = Ub Overflow) /\
  (~ overflows t v ->
   exists e r, as_negate buf (tag_of t) (zlen l1) = Ok (l1 ++ e ++ l2, tag_of (signed_of t)) /\
     zlen e = Z.of_nat (esize t) /\
     get_s (signed_of t) (l1 ++ e ++ l2) (tag_of (signed_of t)) (zlen l1) = Ok r /\
     converted (signed_of t) (- v) r).
Proof.
  intros Hv buf.
  assert (He : enc_value (raw_value (set_u t atom_fresh v)) = be_bytes (esize t) (v mod 2^width t))
    by (rewrite raw_fresh; now destruct t).
  assert (Hn : 0 <= v mod 2^width t < 2^(8 * Z.of_nat (esize t))).
  { clear. ity_cases t; cbn [esize]; change (8 * Z.of_nat 4) with 32; change (8 * Z.of_nat 8) with 64;
      wr; Z.div_mod_to_equations; lia. }
  assert (E : get_s t buf (tag_of t) (zlen l1) = Ok v).
  { unfold buf. rewrite He, get_s_wire by (try assumption; now destruct t). now rewrite wrap_mod, wrap_id. }
  assert (Hbuf : buf = l1 ++ be_bytes (esize t) (v mod 2^width t) ++ l2) by (unfold buf; now rewrite He).
  clearbody buf. clear He. split.
  - intros [[-> ->]|[-> ->]]; unfold as_negate; cbn [tag_of get_s] in *; redtag; rewrite E; reflexivity.
  - intros Ho. pose proof (converted_wrap (signed_of t) (- v)) as C.
    set (r := wrap (signed_of t) (- v)) in *.
    exists (be_bytes (esize t) r), r.
    assert (Hw : forall x, length x = esize t -> esize t = 4%nat ->
      wr32 (l1 ++ x ++ l2) (zlen l1) r = Ok (l1 ++ be_bytes 4 r ++ l2)).
    { intros x Hx Hx4. apply wr32_at. lia. }
    assert (Hw8 : forall x, length x = esize t -> esize t = 8%nat ->
      wr64 (l1 ++ x ++ l2) (zlen l1) r = Ok (l1 ++ be_bytes 8 r ++ l2)).
    { intros x Hx Hx8. apply wr64_at. lia. }
    specialize (Hw (be_bytes (esize t) (v mod 2^width t)) (be_bytes_length _ _)).
    specialize (Hw8 (be_bytes (esize t) (v mod 2^width t)) (be_bytes_length _ _)).
    split; [|split; [|split; [|exact C]]].
    + rewrite Hbuf in *. unfold as_negate.
      assert (N : forall lo, v <> lo -> neg_checked lo v = Ok (- v)).
      { intros lo Hl. unfold neg_checked. now rewrite (proj2 (Z.eqb_neq v lo)). }
      destruct t; cbn [tag_of get_s signed_of esize width wrap] in *; redtag; rewrite E; cbn [bind];
        unfold as_set_int8, as_set_int16, as_set_int32, as_set_int64.
      * fold r. now rewrite (Hw eq_refl).
      * fold r. now rewrite (Hw eq_refl).
      * assert (v <> - 2^31) by (intros ->; apply Ho; now left).
        rewrite N by assumption. cbn [bind].
        replace (- v) with r; [now rewrite (Hw eq_refl)|]. apply (wrap_id I32).
        unfold in_type in *. cbn in *. wr. lia.
      * assert (v <> - 2^63) by (intros ->; apply Ho; now right).
        rewrite N by assumption. cbn [bind].
        replace (- v) with r; [now rewrite (Hw8 eq_refl)|]. apply (wrap_id I64).
        unfold in_type in *. cbn in *. wr. lia.
      * fold r. now rewrite (Hw eq_refl).
      * fold r. now rewrite (Hw eq_refl).
      * replace (s32 (u32 (- v))) with r; [now rewrite (Hw eq_refl)|].
        unfold r. wr. Z.div_mod_to_equations. lia.
      * replace (s64 (u64 (- v))) with r; [now rewrite (Hw8 eq_refl)|].
        unfold r. wr. Z.div_mod_to_equations. lia.
    + now rewrite zlen_be.
    + assert (Hs : esize (signed_of t) = esize t) by now destruct t.
      assert (Hm : be_bytes (esize t) r = be_bytes (esize (signed_of t)) (r mod 2^(8 * Z.of_nat (esize t)))).
      { rewrite Hs. symmetry.
        replace (2^(8 * Z.of_nat (esize t))) with (256^Z.of_nat (esize t)) by now destruct t.
        apply be_bytes_mod. }
      rewrite Hm, get_s_wire; [| |now destruct t].
      * f_equal. transitivity (wrap (signed_of t) r); [|apply wrap_id, C].
        clear - C. destruct t; cbn [signed_of wrap esize]; change (8 * Z.of_nat 4) with 32; change (8 * Z.of_nat 8) with 64;
          wr; Z.div_mod_to_equations; lia.
      * rewrite Hs. apply Z.mod_pos_bound. now destruct t.
Qed.
Print Assumptions C47_serialized.

(** Floating point numbers change their sign; infinities and NaNs stay what
    they are. *)
Definition negated (v v' : option Q) : Prop :=
  match v, v' with
  | Some q, Some q' => (q' == - q)%Q
  | None, None => True
  | _, _ => False
  end.

Theorem C47_floats o a bits :
  (0 <= bits < 2^32 -> exists a' bits', au_negate (set_float a bits) = Ok a' /\ a_tt a' = 102 /\
     au_float o a' = Ok bits' /\ negated (float_value bits) (float_value bits')) /\
  (0 <= bits < 2^64 -> exists a' bits', au_negate (set_double a bits) = Ok a' /\ a_tt a' = 100 /\
     au_double o a' = Ok bits' /\ negated (double_value bits) (double_value bits')).
Proof.
  destruct a as [tg w p]. split; intros Hb.
  - assert (E : forall w b, 0 <= b < 2^32 -> u32 (store 32 w b) = b).
    { intros w' b' H'. unfold store. wr. Z.div_mod_to_equations. lia. }
    set (bits' := Z.lxor bits (2^31)).
    assert (Hb' : 0 <= bits' < 2^32).
    { unfold bits'. rewrite lxor_pow2 by (try lia; exact Hb). change (2^32) with (2 * 2^31) in *.
      destruct (bits <? 2^31) eqn:L; [apply Z.ltb_lt in L|apply Z.ltb_ge in L]; lia. }
    exists (Atom 102 (store 32 (store 32 w bits) bits') PNone), bits'.
    split; [|split; [reflexivity|split]].
    + unfold au_negate. cbn [a_tt set_float]. redtag. cbn [au_float]. redtag. unfold w_f. rewrite E by exact Hb. reflexivity.
    + cbn [au_float]. redtag. unfold w_f. now rewrite E.
    + pose proof (value_flip 23 8 bits ltac:(split; lia) Hb) as H. unfold negated, float_value, bits'.
      change (23 + 8) with 31 in H. exact H.
  - assert (E : forall w b, 0 <= b < 2^64 -> u64 (store 64 w b) = b).
    { intros w' b' H'. unfold store. wr. Z.div_mod_to_equations. lia. }
    set (bits' := Z.lxor bits (2^63)).
    assert (Hb' : 0 <= bits' < 2^64).
    { unfold bits'. rewrite lxor_pow2 by (try lia; exact Hb). change (2^64) with (2 * 2^63) in *.
      destruct (bits <? 2^63) eqn:L; [apply Z.ltb_lt in L|apply Z.ltb_ge in L]; lia. }
    exists (Atom 100 (store 64 (store 64 w bits) bits') PNone), bits'.
    split; [|split; [reflexivity|split]].
    + unfold au_negate. cbn [a_tt set_double]. redtag. cbn [au_double]. redtag. unfold w_d. rewrite E by exact Hb. reflexivity.
    + cbn [au_double]. redtag. unfold w_d. now rewrite E.
    + pose proof (value_flip 52 11 bits ltac:(split; lia) Hb) as H. unfold negated, double_value, bits'.
      change (52 + 11) with 63 in H. exact H.
Qed.
Print Assumptions C47_floats.

Theorem C47_serialized_floats l1 l2 bits :
  (0 <= bits < 2^32 -> exists bits',
     as_negate (l1 ++ be_bytes 4 bits ++ l2) 102 (zlen l1) = Ok (l1 ++ be_bytes 4 bits' ++ l2, 102) /\
     0 <= bits' < 2^32 /\ negated (float_value bits) (float_value bits')) /\
  (0 <= bits < 2^64 -> exists bits',
     as_negate (l1 ++ be_bytes 8 bits ++ l2) 100 (zlen l1) = Ok (l1 ++ be_bytes 8 bits' ++ l2, 100) /\
     0 <= bits' < 2^64 /\ negated (double_value bits) (double_value bits')).
Proof.
  split; intros Hb.
  - set (bits' := Z.lxor bits (2^31)).
    assert (Hb' : 0 <= bits' < 2^32).
    { unfold bits'. rewrite lxor_pow2 by (try lia; exact Hb). change (2^32) with (2 * 2^31) in *.
      destruct (bits <? 2^31) eqn:L; [apply Z.ltb_lt in L|apply Z.ltb_ge in L]; lia. }
    exists bits'. split; [|split; [exact Hb'|]].
    + unfold as_negate. redtag. unfold as_float_bits. rewrite rd32_be. cbn [bind]. unfold as_set_float.
      unfold u32. rewrite (Z.mod_small bits) by exact Hb. fold bits'.
      rewrite wr32_at by apply be_bytes_length. reflexivity.
    + pose proof (value_flip 23 8 bits ltac:(split; lia) Hb) as H. change (23 + 8) with 31 in H. exact H.
  - set (bits' := Z.lxor bits (2^63)).
    assert (Hb' : 0 <= bits' < 2^64).
    { unfold bits'. rewrite lxor_pow2 by (try lia; exact Hb). change (2^64) with (2 * 2^63) in *.
      destruct (bits <? 2^63) eqn:L; [apply Z.ltb_lt in L|apply Z.ltb_ge in L]; lia. }
    exists bits'. split; [|split; [exact Hb'|]].
    + unfold as_negate. redtag. unfold as_double_bits. rewrite rd64_be. cbn [bind]. unfold as_set_double.
      unfold u64. rewrite (Z.mod_small bits) by exact Hb. fold bits'.
      rewrite wr64_at by apply be_bytes_length. reflexivity.
    + pose proof (value_flip 52 11 bits ltac:(split; lia) Hb) as H. change (52 + 11) with 63 in H. exact H.
Qed.
Print Assumptions C47_serialized_floats.

Example C47_hypotheses :
  (exists a', au_negate (set_u U8 atom_fresh 200) = Ok a' /\ get_u I8 a' = Ok 56) /\
  au_negate (set_u I32 atom_fresh (- 2^31)) = Ub Overflow /\ overflows I32 (- 2^31) /\
  as_negate (be_bytes 4 5) 105 0 = Ok (be_bytes 4 (-5), 105).
Proof.
  split; [|split; [vm_compute; reflexivity|split; [now left|vm_compute; reflexivity]]].
  exists (Atom 99 56 PNone). split; vm_compute; reflexivity.
Qed.

(** * C48: truth *)

Theorem C48_integers t a v : in_type t v ->
  au_bool (set_u t a v) = negb (v =? 0) /\
  (forall buf x, shows_value buf x (raw_value (set_u t atom_fresh v)) ->
     as_bool buf (as_tt x) (as_data x) = Ok (negb (v =? 0))).
Proof.
  intros Hv. split; [now apply bool_set|]. intros buf x [Htt Hs]. rewrite raw_fresh in Htt, Hs.
  destruct (slice_inv _ _ _ _ Hs) as (l1 & l2 & -> & <- & _). clear Hs.
  replace (as_tt x) with (tag_of t) by (rewrite Htt; now destruct t).
  assert (Hz : (v mod 2^width t =? 0) = (v =? 0)).
  { unfold in_type in Hv. apply eq_true_iff_eq. rewrite !Z.eqb_eq. split; [|intros ->; now destruct t].
    ity_cases t; wr; intros H; Z.div_mod_to_equations; lia. }
  rewrite <- Hz. clear Hz Hv Htt.
  destruct t; cbn [esize enc_value tag_of width]; unfold as_bool; redtag; rewrite ?rd32_be, ?rd64_be; cbn [bind].
  all: match goal with |- context [u32 ?x] => replace (u32 x) with x | |- context [u64 ?x] => replace (u64 x) with x end;
    [reflexivity|wr; Z.div_mod_to_equations; lia].
Qed.
Print Assumptions C48_integers.

(** A float is true when its value is not zero; infinities and NaNs are
    true. *)
Definition nonzero (v : option Q) : Prop := match v with Some q => ~ (q == 0)%Q | None => True end.

Lemma nonzero_bits mb eb n : fmt mb eb ->
  negb (n mod 2^(mb + eb) =? 0) = true <-> nonzero (ieee_value mb eb n).
Proof.
  intros [Hm He]. rewrite negb_true_iff, Z.eqb_neq.
  pose proof (value_decode mb eb n ltac:(lia) ltac:(lia)) as H. unfold ieee_decode in H.
  pose proof (pow2_ge1 mb ltac:(lia)). pose proof (pow2_ge1 eb ltac:(lia)).
  assert (X : n mod 2^(mb + eb) = n mod 2^mb + 2^mb * (n / 2^mb mod 2^eb)).
  { rewrite Z.pow_add_r by lia. apply Z.rem_mul_r; lia. }
  pose proof (Z.mod_pos_bound n (2^mb) ltac:(lia)). pose proof (Z.mod_pos_bound (n / 2^mb) (2^eb) ltac:(lia)).
  assert (H4 : 4 <= 2^eb). { change 4 with (2^2). apply Z.pow_le_mono_r; lia. }
  rewrite X. set (m := n mod 2^mb) in *. set (E := n / 2^mb mod 2^eb) in *.
  set (s := n / 2^(mb + eb) mod 2 =? 1) in H. clearbody m E s.
  destruct (E =? 2^eb - 1) eqn:EE; [apply Z.eqb_eq in EE|].
  - destruct (ieee_value mb eb n); [easy|]. cbn. split; [easy|]. intros _. nia.
  - destruct (ieee_value mb eb n) as [q|]; [|easy]. cbn [nonzero].
    set (e := (if E =? 0 then 1 else E) - (2^(eb - 1) - 1) - mb) in H.
    set (mant := if E =? 0 then m else m + 2^mb) in H.
    assert (Hq : (q == 0)%Q <-> mant = 0).
    { rewrite H. pose proof (pow2Q_pos e) as Hp. split.
      - intros Hz. apply Qmult_integral in Hz. destruct Hz as [Hz|Hz]; [|rewrite Hz in Hp; now apply Qlt_irrefl in Hp].
        unfold Qeq in Hz. cbn in Hz. clear H. clearbody mant. destruct s; lia.
      - intros ->. destruct s; change (- 0)%Z with 0%Z; change (inject_Z 0) with 0%Q; ring. }
    rewrite Hq. unfold mant. destruct (E =? 0) eqn:E0; [apply Z.eqb_eq in E0|apply Z.eqb_neq in E0].
    + rewrite E0, Z.mul_0_r, Z.add_0_r. reflexivity.
    + split; intros _; nia.
Qed.

Theorem C48_floats a bits :
  (0 <= bits < 2^32 ->
     (au_bool (set_float a bits) = true <-> nonzero (float_value bits)) /\
     (forall buf x, shows_value buf x (raw_value (set_float a bits)) ->
        as_bool buf (as_tt x) (as_data x) = Ok (au_bool (set_float a bits)))) /\
  (0 <= bits < 2^64 ->
     (au_bool (set_double a bits) = true <-> nonzero (double_value bits)) /\
     (forall buf x, shows_value buf x (raw_value (set_double a bits)) ->
        as_bool buf (as_tt x) (as_data x) = Ok (au_bool (set_double a bits)))).
Proof.
  destruct a as [tg w p]. split; intros Hb.
  - assert (E : u32 (store 32 w bits) = bits) by (unfold store; wr; Z.div_mod_to_equations; lia).
    assert (Ha : au_bool (set_float (Atom tg w p) bits) = negb (bits mod 2^31 =? 0)).
    { unfold au_bool, set_float. redtag. unfold w_f. now rewrite E. }
    rewrite Ha. split; [apply (nonzero_bits 23 8); split; lia|].
    intros buf x [Htt Hs].
    change (raw_value (set_float (Atom tg w p) bits)) with (VNum32 102 (u32 (store 32 w bits))) in *.
    rewrite E in *. cbn [vtag] in Htt. destruct (slice_inv _ _ _ _ Hs) as (l1 & l2 & -> & <- & _).
    cbn [enc_value]. rewrite Htt. unfold as_bool. redtag. rewrite rd32_be. cbn [bind].
    unfold u32. now rewrite (Z.mod_small bits) by exact Hb.
  - assert (E : u64 (store 64 w bits) = bits) by (unfold store; wr; Z.div_mod_to_equations; lia).
    assert (Ha : au_bool (set_double (Atom tg w p) bits) = negb (bits mod 2^63 =? 0)).
    { unfold au_bool, set_double. redtag. unfold w_d. now rewrite E. }
    rewrite Ha. split; [apply (nonzero_bits 52 11); split; lia|].
    intros buf x [Htt Hs].
    change (raw_value (set_double (Atom tg w p) bits)) with (VNum64 100 (u64 (store 64 w bits))) in *.
    rewrite E in *. cbn [vtag] in Htt. destruct (slice_inv _ _ _ _ Hs) as (l1 & l2 & -> & <- & _).
    cbn [enc_value]. rewrite Htt. unfold as_bool. redtag. rewrite rd64_be. cbn [bind].
    unfold u64. now rewrite (Z.mod_small bits) by exact Hb.
Qed.
Print Assumptions C48_floats.

(** true is true; false, nil, strings, blobs, time tags and bundles are
    false. *)
Theorem C48_others w p buf i :
  au_bool (Atom 84 w p) = true /\ as_bool buf 84 i = Ok true /\
  forall tg, In tg [70; 78; 115; 98; 116; 46] -> au_bool (Atom tg w p) = false /\ as_bool buf tg i = Ok false.
Proof.
  split; [reflexivity|]. split; [reflexivity|]. intros tg H.
  repeat destruct H as [<- | H]; try easy; split; reflexivity.
Qed.
Print Assumptions C48_others.

Example C48_hypotheses :
  au_bool (set_int8 atom_fresh (-128)) = true /\ au_bool (set_uint64 atom_fresh 0) = false /\
  au_bool (set_float atom_fresh (2^31)) = false /\ float_value (2^31) <> None.
Proof. repeat split; try reflexivity. discriminate. Qed.
