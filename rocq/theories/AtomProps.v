(** C27, C28, C44-C48: typed access to numbers. *)

From Coq Require Import ZArith List Bool Lia QArith.
From Verif Require Import Base BaseProofs Bytes Text UtilModel UtilProofs TimetagModel
  WireSpec SerialModel SerialSpec SerialProofs SerialProps WireModel ArgProps
  AtomSModel FloatModel AtomUModel AtomSpec FloatProofs AtomProofs.
Import ListNotations.
Open Scope Z_scope.

Lemma slice_inv buf i n b : slice buf i n = Ok b ->
  exists l1 l2, buf = l1 ++ b ++ l2 /\ zlen l1 = i /\ zlen b = n.
Proof.
  unfold slice. destruct ((i <? 0) || (n <? 0) || (zlen buf <? i + n)) eqn:E; [discriminate|].
  apply orb_false_iff in E. destruct E as [E E3]. apply orb_false_iff in E. destruct E as [E1 E2].
  apply Z.ltb_ge in E1, E2, E3. intros H. injection H as <-.
  exists (firstn (Z.to_nat i) buf), (skipn (Z.to_nat n) (skipn (Z.to_nat i) buf)).
  rewrite !firstn_skipn. unfold zlen in *. split; [reflexivity|].
  rewrite !firstn_length, skipn_length. lia.
Qed.

(** * C27 *)

(** [set_u t], [get_u t] and [get_s t] are the accessors osc_atom_u_set<t>,
    osc_atom_u_get<t> and osc_atom_s_get<t>; [tag_of t] is the type tag of a
    serialized integer of type [t]. *)

(** Whatever integer is stored and by whichever accessor it is read: the result
    is the integer converted to the type of the accessor. *)
Theorem C27_unserialized t t' a v : in_type t v ->
  exists r, get_u t' (set_u t a v) = Ok r /\ converted t' v r.
Proof. intros H. exists (wrap t' v). split; [now apply get_set|apply converted_wrap]. Qed.
Print Assumptions C27_unserialized.

(** In particular nothing is lost if that type has the integer too. *)
Theorem C27_same_or_wider t t' a v : in_type t v -> in_type t' v ->
  get_u t' (set_u t a v) = Ok v.
Proof. intros H H'. rewrite get_set by exact H. now rewrite wrap_id. Qed.
Print Assumptions C27_same_or_wider.

Theorem C27_get_int t a v : in_type t v ->
  exists r, au_int (set_u t a v) = Ok r /\ converted I32 v r.
Proof. intros H. exists (s32 v). split; [now apply get_int_set|apply (converted_wrap I32)]. Qed.
Print Assumptions C27_get_int.

(** A serialized argument gives the integer back, whatever the atom held
    before. *)
Theorem C27_serialized_argument t a v buf x : in_type t v ->
  shows_value buf x (raw_value (set_u t a v)) ->
  get_s t buf (as_tt x) (as_data x) = Ok v.
Proof.
  intros Hv [Htt Hs]. destruct (raw_set t a v) as (n & E & Hn & Hw). rewrite E in Htt, Hs.
  destruct (slice_inv _ _ _ _ Hs) as (l1 & l2 & -> & <- & _).
  replace (as_tt x) with (tag_of t) by (rewrite Htt; now destruct t).
  replace (enc_value (match esize t with 4%nat => VNum32 (tag_of t) n | _ => VNum64 (tag_of t) n end))
    with (be_bytes (esize t) n) by now destruct t.
  rewrite get_s_wire by (try assumption; now destruct t). now rewrite Hw, wrap_id.
Qed.
Print Assumptions C27_serialized_argument.

(** The same for an atom serialized by itself, at any place with room for
    it. *)
Theorem C27_serialized t a v pre reg post : ok_atom a -> in_type t v -> 8 <= zlen reg ->
  exists buf k, atom_nser (pre ++ reg ++ post) (zlen pre) (zlen reg) (set_u t a v) = Ok (buf, k) /\
    get_s t buf (tag_of t) (zlen pre) = Ok v.
Proof.
  intros Ha Hv Hr.
  assert (Hok : ok_atom (set_u t a v)).
  { destruct a as [tg w p]. destruct Ha as [Hw _].
    assert (Hst : 0 <= store (width t) w v < 2^64).
    { unfold store. ity_cases t; wr; Z.div_mod_to_equations; lia. }
    destruct t; (split; [exact Hst|split; discriminate]). }
  destruct (proj1 write_ok (set_u t a v) Hok pre reg post) as (reg' & k & Hrun & Hlen & Hk & Hfit).
  destruct (raw_set t a v) as (n & E & Hn & Hw).
  assert (He : enc_value (raw_value (set_u t a v)) = be_bytes (esize t) n) by (rewrite E; now destruct t).
  rewrite He in Hfit. destruct Hfit as [_ ->]; [rewrite zlen_be; destruct t; cbn; lia|].
  exists (pre ++ (be_bytes (esize t) n ++ skipn (length (be_bytes (esize t) n)) reg) ++ post), k.
  split; [exact Hrun|]. rewrite <- app_assoc.
  rewrite get_s_wire by (try assumption; now destruct t). now rewrite Hw, wrap_id.
Qed.
Print Assumptions C27_serialized.

Example C27_hypotheses :
  in_type I16 (-2) /\ in_type I64 (-2) /\ ~ in_type U16 (-2) /\
  get_u I64 (set_u I16 (set_u I32 atom_fresh 16909060) (-2)) = Ok (-2) /\
  get_u U16 (set_u I16 (set_u I32 atom_fresh 16909060) (-2)) = Ok 65534 /\
  (exists buf, atom_nser (repeat 7 12) 2 10 (set_u I16 (set_u I32 atom_fresh 16909060) (-2)) = Ok (buf, 4) /\
     get_s I16 buf (tag_of I16) 2 = Ok (-2)).
Proof.
  split; [cbn; lia|]. split; [cbn; lia|]. split; [cbn; lia|].
  split; [vm_compute; reflexivity|]. split; [vm_compute; reflexivity|].
  exists [7; 7; 1; 2; 255; 254; 7; 7; 7; 7; 7; 7]. split; vm_compute; reflexivity.
Qed.

(** * C28 *)

(** Serialized integers are sent without their sign: what an accessor of
    another type returns is the unsigned number on the wire, converted to the
    accessor's type.  The exception are osc_atom_s_getInt64 of 8 and 16 bit
    unsigned integers, see below. *)
Theorem C28_conversion t t' v buf x : in_type t v ->
  ~ (t' = I64 /\ (t = U8 \/ t = U16)) ->
  shows_value buf x (raw_value (set_u t atom_fresh v)) ->
  exists r, get_s t' buf (as_tt x) (as_data x) = Ok r /\ converted t' (v mod 2^width t) r.
Proof.
  intros Hv Hne [Htt Hs]. rewrite raw_fresh in Htt, Hs.
  destruct (slice_inv _ _ _ _ Hs) as (l1 & l2 & -> & <- & _).
  replace (as_tt x) with (tag_of t) by (rewrite Htt; now destruct t).
  replace (enc_value (match esize t with 4%nat => VNum32 (tag_of t) (v mod 2^width t) | _ => VNum64 (tag_of t) (v mod 2^width t) end))
    with (be_bytes (esize t) (v mod 2^width t)) by now destruct t.
  exists (wrap t' (v mod 2^width t)). split; [|apply converted_wrap].
  apply get_s_wire.
  - clear. ity_cases t; cbn [esize]; change (8 * Z.of_nat 4) with 32; change (8 * Z.of_nat 8) with 64;
      wr; Z.div_mod_to_equations; lia.
  - destruct t, t'; try reflexivity; exfalso; apply Hne; auto.
Qed.
Print Assumptions C28_conversion.

(** Hence 32-bit integers read as 64-bit ones: exact when not negative. *)
Theorem C28_int32_as_64 v buf x : in_type I32 v ->
  shows_value buf x (raw_value (set_int32 atom_fresh v)) ->
  let r := if v <? 0 then v + 2^32 else v in
  as_int64 buf (as_tt x) (as_data x) = Ok r /\ as_uint64 buf (as_tt x) (as_data x) = Ok r.
Proof.
  intros Hv Hs r. subst r.
  assert (Hr : v mod 2^32 = if v <? 0 then v + 2^32 else v).
  { cbn in Hv. wr. destruct (v <? 0) eqn:E; [apply Z.ltb_lt in E|apply Z.ltb_ge in E];
      Z.div_mod_to_equations; lia. }
  assert (Hb : 0 <= v mod 2^32 < 2^32) by (apply Z.mod_pos_bound; reflexivity).
  destruct (C28_conversion I32 I64 v buf x Hv) as (r1 & E1 & C1); [now intros [_ [|]]|exact Hs|].
  destruct (C28_conversion I32 U64 v buf x Hv) as (r2 & E2 & C2); [now intros [? _]|exact Hs|].
  cbn [get_s width] in *. rewrite E1, E2, <- Hr. split; f_equal.
  - eapply converted_unique; [exact C1|]. split; [unfold in_type; cbn; wr; lia|]. now rewrite Z.sub_diag.
  - eapply converted_unique; [exact C2|]. split; [unfold in_type; cbn; wr; lia|]. now rewrite Z.sub_diag.
Qed.
Print Assumptions C28_int32_as_64.

(** osc_atom_s_getInt64 of an 8 or 16 bit unsigned integer reads eight bytes:
    the integer ends up in the upper half, or memory behind the buffer is
    read. *)
Theorem C28_small_unsigned_refuted t v l1 l2 : (t = U8 \/ t = U16) -> in_type t v ->
  let buf := l1 ++ enc_value (raw_value (set_u t atom_fresh v)) ++ l2 in
  (zlen l2 < 4 -> as_int64 buf (tag_of t) (zlen l1) = Ub OOB) /\
  (forall k l3, l2 = be_bytes 4 k ++ l3 -> 0 <= k < 2^32 ->
     as_int64 buf (tag_of t) (zlen l1) = Ok (v * 2^32 + k)).
Proof.
  intros Ht Hv buf.
  assert (He : enc_value (raw_value (set_u t atom_fresh v)) = be_bytes 4 v).
  { rewrite raw_fresh. destruct Ht as [-> | ->]; cbn [esize width enc_value]; cbn in Hv;
      rewrite Z.mod_small by exact Hv; reflexivity. }
  unfold buf. rewrite He. change as_int64 with (get_s I64). rewrite get_s_past by exact Ht.
  assert (Hv' : 0 <= v < 65536) by (destruct Ht as [-> | ->]; cbn in Hv; lia).
  split.
  - intros Hl. unfold rd64, slice. pose proof (zlen_nonneg l1). pose proof (zlen_nonneg l2).
    rewrite !zlen_app, zlen_be. destruct (zlen l1 + (Z.of_nat 4 + zlen l2) <? zlen l1 + 8) eqn:E.
    + now rewrite orb_true_r.
    + apply Z.ltb_ge in E. lia.
  - intros k l3 -> Hk.
    assert (Hb : be_bytes 4 v ++ be_bytes 4 k = be_bytes 8 (v * 2^32 + k)).
    { assert (W : wf_bytes (be_bytes 4 v ++ be_bytes 4 k)) by (apply wf_app; apply be_bytes_wf).
      rewrite <- (be_bytes_of_be (be_bytes 4 v ++ be_bytes 4 k) W) at 1.
      rewrite app_length, !be_bytes_length. change (4 + 4)%nat with 8%nat. f_equal.
      unfold of_be. rewrite rev_app_distr.
      assert (Hle : forall a b : bytes, of_le (a ++ b) = of_le a + 256^zlen a * of_le b).
      { induction a as [|c a IH]; intros b; [change (zlen (@nil Z)) with 0; cbn [app of_le]; lia|].
        cbn [app of_le]. rewrite IH, zlen_cons, Z.pow_add_r by (try apply zlen_nonneg; lia). change (256^1) with 256. ring. }
      rewrite Hle. change (of_le (rev (be_bytes 4 k))) with (of_be (be_bytes 4 k)).
      change (of_le (rev (be_bytes 4 v))) with (of_be (be_bytes 4 v)).
      rewrite !of_be_4. unfold zlen. rewrite rev_length, be_bytes_length. cbn [Z.of_nat Pos.of_succ_nat Pos.succ].
      wr. rewrite !Z.mod_small by lia. lia. }
    rewrite (app_assoc (be_bytes 4 v)), Hb, rd64_be. cbn [bind]. f_equal.
    wr. Z.div_mod_to_equations. lia.
Qed.
Print Assumptions C28_small_unsigned_refuted.

Lemma trunc_small n : 0 <= n < 2^16 -> trunc32 n = Some 0.
Proof.
  intros Hn. unfold trunc32, ieee_trunc.
  replace (n / 2^23) with 0 by (symmetry; apply Z.div_small; change (2^23) with 8388608; lia).
  replace (n / 2^(23 + 8)) with 0 by (symmetry; apply Z.div_small; change (2^(23 + 8)) with 2147483648; lia).
  replace (n mod 2^23) with n by (symmetry; apply Z.mod_small; change (2^23) with 8388608; lia).
  change (0 mod 2^8) with 0. change (0 mod 2) with 0.
  change (0 =? 2^8 - 1) with false. cbv iota. change (0 =? 0) with true. cbv iota. cbv zeta.
  change (1 - (2^(8 - 1) - 1) - 23) with (-149). change (0 <=? -149) with false. cbv iota.
  change (0 =? 1) with false. cbv iota. f_equal. apply Z.div_small.
  assert (2^16 < 2^(- -149)) by (apply Z.pow_lt_mono_r; lia). lia.
Qed.

(** osc_atom_s_getInt of an 8 or 16 bit signed integer takes its bits for a
    float, and returns 0. *)
Theorem C28_get_int_refuted t v buf x : (t = I8 \/ t = I16) -> in_type t v ->
  shows_value buf x (raw_value (set_u t atom_fresh v)) ->
  as_int buf (as_tt x) (as_data x) = Ok 0.
Proof.
  intros Ht Hv [Htt Hs]. rewrite raw_fresh in Htt, Hs.
  destruct (slice_inv _ _ _ _ Hs) as (l1 & l2 & -> & <- & _). clear Hs.
  assert (Hn : 0 <= v mod 2^width t < 2^16).
  { pose proof (Z.mod_pos_bound v (2^width t)) as H. destruct Ht as [-> | ->]; cbn in *; lia. }
  set (n := v mod 2^width t) in *.
  replace (enc_value _) with (be_bytes 4 n) by now destruct Ht as [-> | ->].
  replace (as_tt x) with (tag_of t) by (rewrite Htt; now destruct Ht as [-> | ->]).
  unfold as_int. destruct Ht as [-> | ->]; cbn [tag_of]; redtag; rewrite rd32_be; cbn [bind];
    (replace (trunc32 (u32 n)) with (Some 0); [reflexivity|]);
    symmetry; replace (u32 n) with n by (unfold u32; symmetry; apply Z.mod_small; lia); now apply trunc_small.
Qed.
Print Assumptions C28_get_int_refuted.

Example C28_hypotheses :
  let buf := be_bytes 4 9 ++ be_bytes 4 (-1) ++ be_bytes 4 7 ++ be_bytes 4 200 in
  shows_value buf (AS 4 105) (raw_value (set_int32 atom_fresh (-1))) /\
  as_int64 buf 105 4 = Ok 4294967295 /\
  shows_value buf (AS 8 67) (raw_value (set_uint8 atom_fresh 7)) /\
  as_int64 buf 67 8 = Ok (7 * 2^32 + 200) /\ as_int64 buf 67 12 = Ub OOB /\
  shows_value buf (AS 8 99) (raw_value (set_int8 atom_fresh 7)) /\ as_int buf 99 8 = Ok 0.
Proof. repeat split; vm_compute; reflexivity. Qed.
