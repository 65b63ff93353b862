(** The validator on whole messages and bundles. *)

From Coq Require Import ZArith List Bool Lia.
From Verif Require Import Base BaseProofs Bytes Text WireSpec WireWalk StreamModel StreamSpec StreamProofs.
Import ListNotations.
Open Scope Z_scope.

(** * Padding, type tags and data in a bundle *)

Lemma zeros_S n : 0 <= n -> zeros (n + 1) = 0 :: zeros n.
Proof. intros H. unfold zeros. replace (Z.to_nat (n + 1)) with (S (Z.to_nat n)) by lia. reflexivity. Qed.

Lemma feed_one x s s' l : process_byte (s8 x) s = Ok s' -> errorp s' = false -> feed (x :: l) s = feed l s'.
Proof. intros E He. cbn [feed]. rewrite E. cbn [bind]. now rewrite He. Qed.

Lemma pad_address j : forall e, 0 <= j <= 3 -> e mod 4 = j -> 0 <= e < 2^32 ->
  feed (zeros j) (mk 2 2 16 0 e) = Ok (Some (mk 2 2 16 0 (e - j))).
Proof.
  assert (Hstep : forall e, e mod 4 <> 0 -> 0 <= e < 2^32 -> process_byte (s8 0) (mk 2 2 16 0 e) = Ok (mk 2 2 16 0 (e - 1))).
  { intros e Hm He. rewrite pb_bundle_address by fit. f_equal. unfold bundle_address. fld. decide_consts.
    destruct (e mod 4 =? 0) eqn:E; [lia|]. change (s8 0 =? 0) with true. cbv iota. apply down; [fit|].
    Z.div_mod_to_equations. lia. }
  intros e Hj Hm He. assert (Hle : j <= e) by (Z.div_mod_to_equations; lia).
  assert (Hc : j = 0 \/ j = 1 \/ j = 2 \/ j = 3) by lia.
  destruct Hc as [->|[->|[->| ->]]].
  - unfold zeros. cbn [Z.to_nat repeat feed]. now rewrite Z.sub_0_r.
  - change (zeros 1) with [0]. rewrite (feed_one _ _ _ _ (Hstep e ltac:(lia) He)) by (apply mk_ok; fit). reflexivity.
  - change (zeros 2) with [0; 0]. rewrite (feed_one _ _ _ _ (Hstep e ltac:(lia) He)) by (apply mk_ok; fit).
    rewrite (feed_one _ _ _ _ (Hstep (e - 1) ltac:(Z.div_mod_to_equations; lia) ltac:(lia))) by (apply mk_ok; fit).
    cbn [feed]. do 3 f_equal. lia.
  - change (zeros 3) with [0; 0; 0]. rewrite (feed_one _ _ _ _ (Hstep e ltac:(lia) He)) by (apply mk_ok; fit).
    rewrite (feed_one _ _ _ _ (Hstep (e - 1) ltac:(Z.div_mod_to_equations; lia) ltac:(lia))) by (apply mk_ok; fit).
    rewrite (feed_one _ _ _ _ (Hstep (e - 1 - 1) ltac:(Z.div_mod_to_equations; lia) ltac:(lia))) by (apply mk_ok; fit).
    cbn [feed]. do 3 f_equal. lia.
Qed.

Lemma comma e : e mod 4 = 0 -> 1 <= e < 2^32 -> process_byte (s8 44) (mk 2 2 16 0 e) = Ok (mk 2 4 0 0 (e - 1)).
Proof.
  intros Hm He. rewrite pb_bundle_address by fit. f_equal. unfold bundle_address. fld. decide_consts. rewrite Hm.
  change (s8 44 =? 44) with true. cbv iota. change (0 =? 0) with true. cbv iota.
  change (BUNDLE_MESSAGE .| TYPETAGS) with (mk 2 4 0 0 0).
  rewrite u32_small by lia. apply lor_count. fit.
Qed.

Lemma pb_bundle_typetags b c e : fits 2 4 c 0 e -> process_byte b (mk 2 4 c 0 e) = Ok (bundle_typetags b (mk 2 4 c 0 e)).
Proof. intros H. unfold process_byte, bundle_message. fld. reflexivity. Qed.

Lemma known_tag_spec x : 0 <= x < 256 -> known_tag (s8 x) = true <-> In x supported_tags.
Proof.
  intros Hx. unfold known_tag. cbn [existsb]. rewrite !s8_eqb by lia. rewrite !orb_true_iff, !Z.eqb_eq.
  unfold supported_tags, str. cbn. split; intros H; repeat destruct H as [H|H]; try lia; try discriminate; try contradiction.
Qed.

Lemma tag_step x e : 0 < x < 256 -> 1 <= e < 2^32 ->
  exists s', process_byte (s8 x) (mk 2 4 0 0 e) = Ok s' /\
    (In x supported_tags -> s' = mk 2 4 0 0 (e - 1)) /\ (~ In x supported_tags -> errorp s' = true).
Proof.
  intros Hx He. rewrite pb_bundle_typetags by fit. eexists. split; [reflexivity|].
  unfold bundle_typetags. fld. decide_consts. pose proof (known_tag_spec x ltac:(lia)) as Hk. split; intros Hi.
  - apply Hk in Hi. rewrite Hi. apply down; [fit|lia].
  - destruct (known_tag (s8 x)); [exfalso; now apply Hi, Hk|]. rewrite s8_eqb by lia. destruct (x =? 0) eqn:E0; [lia|].
    change E_TYPETAG with (7 * 2^32). apply err_of; [fit|lia].
Qed.

Lemma supported_range x : In x supported_tags -> 0 < x < 256.
Proof. unfold supported_tags, str. cbn. intros H. repeat destruct H as [H|H]; try lia. Qed.

Lemma tags_run : forall t e, Forall (fun c => 0 < c < 256) t -> zlen t <= e < 2^32 ->
  (Forall (fun c => In c supported_tags) t -> feed t (mk 2 4 0 0 e) = Ok (Some (mk 2 4 0 0 (e - zlen t)))) /\
  (~ Forall (fun c => In c supported_tags) t -> feed t (mk 2 4 0 0 e) = Ok None).
Proof.
  induction t as [|x t IH]; intros e Hr He.
  - split; [|intros H; exfalso; apply H; constructor]. intros _. cbn [feed]. change (zlen (@nil Z)) with 0. now rewrite Z.sub_0_r.
  - rewrite zlen_cons in *. pose proof (zlen_nonneg t). pose proof (Forall_inv Hr) as Hx. cbn beta in Hx.
    destruct (tag_step x e Hx ltac:(lia)) as (s' & E & Hin & Hout).
    destruct (in_dec Z.eq_dec x supported_tags) as [Hi|Hi].
    + rewrite (Hin Hi) in E. rewrite (feed_one _ _ _ _ E) by (apply mk_ok; fit).
      destruct (IH (e - 1) (Forall_inv_tail Hr) ltac:(lia)) as [IH1 IH2]. split; intros H'.
      * rewrite IH1 by exact (Forall_inv_tail H'). do 3 f_equal. lia.
      * apply IH2. intros H''. apply H'. now constructor.
    + split; intros H'; [exfalso; apply Hi, (Forall_inv H')|]. cbn [feed]. rewrite E. cbn [bind]. now rewrite (Hout Hi).
Qed.

Lemma tags_end e : 1 <= e < 2^32 -> process_byte (s8 0) (mk 2 4 0 0 e) = Ok (mk 2 4 1 0 (e - 1)).
Proof.
  intros He. rewrite pb_bundle_typetags by fit. f_equal. unfold bundle_typetags. fld. decide_consts.
  change (known_tag (s8 0)) with false. change (s8 0 =? 0) with true. cbv iota.
  change TYPETAGS_PADDING with (1 * 2^40). rewrite lor_micro by fit. apply down; [fit|lia].
Qed.

Lemma pad_tags j : forall e, 0 <= j <= 3 -> e mod 4 = j -> 0 <= e < 2^32 ->
  feed (zeros j) (mk 2 4 1 0 e) = Ok (Some (mk 2 4 1 0 (e - j))).
Proof.
  assert (Hstep : forall e, e mod 4 <> 0 -> 0 <= e < 2^32 -> process_byte (s8 0) (mk 2 4 1 0 e) = Ok (mk 2 4 1 0 (e - 1))).
  { intros e Hm He. rewrite pb_bundle_typetags by fit. f_equal. unfold bundle_typetags. fld. decide_consts.
    destruct (e mod 4 =? 0) eqn:E; [lia|]. change (s8 0 =? 0) with true. cbv iota. apply down; [fit|].
    Z.div_mod_to_equations. lia. }
  intros e Hj Hm He. assert (Hle : j <= e) by (Z.div_mod_to_equations; lia).
  assert (Hc : j = 0 \/ j = 1 \/ j = 2 \/ j = 3) by lia.
  destruct Hc as [->|[->|[->| ->]]].
  - unfold zeros. cbn [Z.to_nat repeat feed]. now rewrite Z.sub_0_r.
  - change (zeros 1) with [0]. rewrite (feed_one _ _ _ _ (Hstep e ltac:(lia) He)) by (apply mk_ok; fit). reflexivity.
  - change (zeros 2) with [0; 0]. rewrite (feed_one _ _ _ _ (Hstep e ltac:(lia) He)) by (apply mk_ok; fit).
    rewrite (feed_one _ _ _ _ (Hstep (e - 1) ltac:(Z.div_mod_to_equations; lia) ltac:(lia))) by (apply mk_ok; fit).
    cbn [feed]. do 3 f_equal. lia.
  - change (zeros 3) with [0; 0; 0]. rewrite (feed_one _ _ _ _ (Hstep e ltac:(lia) He)) by (apply mk_ok; fit).
    rewrite (feed_one _ _ _ _ (Hstep (e - 1) ltac:(Z.div_mod_to_equations; lia) ltac:(lia))) by (apply mk_ok; fit).
    rewrite (feed_one _ _ _ _ (Hstep (e - 1 - 1) ltac:(Z.div_mod_to_equations; lia) ltac:(lia))) by (apply mk_ok; fit).
    cbn [feed]. do 3 f_equal. lia.
Qed.

Lemma first_data x e : e mod 4 = 0 -> 1 <= e < 2^32 -> process_byte x (mk 2 4 1 0 e) = Ok (mk 2 8 0 0 (e - 1)).
Proof.
  intros Hm He. rewrite pb_bundle_typetags by fit. f_equal. unfold bundle_typetags. fld. decide_consts. rewrite Hm.
  change (0 =? 0) with true. cbv iota. change (BUNDLE_MESSAGE .| DATA) with (mk 2 8 0 0 0).
  rewrite u32_small by lia. apply lor_count. fit.
Qed.

Lemma pb_bundle_data b e : fits 2 8 0 0 e -> process_byte b (mk 2 8 0 0 e) = Ok (bundle_data (mk 2 8 0 0 e)).
Proof. intros H. unfold process_byte, bundle_message. fld. reflexivity. Qed.

Lemma data_run : forall d e, zlen d <= e < 2^32 -> feed d (mk 2 8 0 0 e) = Ok (Some (mk 2 8 0 0 (e - zlen d))).
Proof.
  induction d as [|x d IH]; intros e He.
  - cbn [feed]. change (zlen (@nil Z)) with 0. now rewrite Z.sub_0_r.
  - rewrite zlen_cons in *. pose proof (zlen_nonneg d).
    assert (E : process_byte (s8 x) (mk 2 8 0 0 e) = Ok (mk 2 8 0 0 (e - 1))).
    { rewrite pb_bundle_data by fit. unfold bundle_data. fld. destruct (e <=? 0) eqn:E0; [lia|]. f_equal. apply down; [fit|lia]. }
    rewrite (feed_one _ _ _ _ E) by (apply mk_ok; fit). rewrite IH by lia. do 3 f_equal. lia.
Qed.

(** * Sizes *)

Lemma pb_bundle_size b e : fits 2 1 0 0 e -> process_byte b (mk 2 1 0 0 e) = Ok (bundle_size b (mk 2 1 0 0 e)).
Proof. intros H. unfold process_byte, bundle_message. fld. reflexivity. Qed.

Lemma land_ff x : Z.land x 0xff = x mod 256.
Proof. change 0xff with (Z.ones 8). now rewrite Z.land_ones by lia. Qed.

Lemma size_bytes n : n mod 4 = 0 -> 0 <= n < 65536 -> 4 <= n mod 256 < 128 ->
  feed [0; n / 256; n mod 256] (mk 2 1 0 0 0) = Ok (Some (mk 2 1 0 0 n)).
Proof.
  intros H4 Hn Hl.
  assert (E1 : process_byte (s8 0) (mk 2 1 0 0 0) = Ok (mk 2 1 0 0 1)) by reflexivity.
  rewrite (feed_one _ _ _ _ E1) by (apply mk_ok; fit).
  assert (Hq : 0 <= n / 256 < 256) by (Z.div_mod_to_equations; lia).
  assert (E2 : process_byte (s8 (n / 256)) (mk 2 1 0 0 1) = Ok (mk 2 1 0 0 (n / 256 * 256 + 2))).
  { rewrite pb_bundle_size by fit. f_equal. unfold bundle_size. fld. rewrite land_ff. change (1 mod 256) with 1.
    change (1 =? 0) with false. change (1 =? 1) with true. cbv iota. change (1 + 1) with 2.
    rewrite land_ff. replace (s8 (n / 256) mod 256) with (n / 256) by (unfold s8; Z.div_mod_to_equations; lia).
    rewrite Z.shiftl_mul_pow2 by lia. rewrite <- Z.lor_assoc.
    rewrite (lor_disj 8) by lia. change (2^8) with 256. change (BUNDLE_MESSAGE .| SIZE) with (mk 2 1 0 0 0). apply lor_count. fit. }
  rewrite (feed_one _ _ _ _ E2) by (apply mk_ok; fit).
  assert (E3 : process_byte (s8 (n mod 256)) (mk 2 1 0 0 (n / 256 * 256 + 2)) = Ok (mk 2 1 0 0 n)).
  { rewrite pb_bundle_size by fit. f_equal. unfold bundle_size. fld. rewrite land_ff.
    replace ((n / 256 * 256 + 2) mod 256) with 2 by (rewrite Z.add_comm, Z.mod_add by lia; reflexivity).
    change (2 =? 0) with false. change (2 =? 1) with false. change (2 =? 2) with true. cbv iota.
    assert (Eu : u32 (s8 (n mod 256)) = n mod 256).
    { unfold s8. rewrite Z.mod_small by lia. rewrite u32_small by lia. lia. }
    rewrite Eu. change (n / 256 * 256 + 2) with (n / 256 * 2^8 + 2). rewrite <- (lor_disj 8 (n / 256) 2) by lia. rewrite <- (Z.lor_assoc (n / 256 * 2 ^ 8) 2), (Z.lor_comm 2).
    assert (Ed : n mod 256 = n mod 256 / 4 * 2^2) by (Z.div_mod_to_equations; lia).
    rewrite Ed at 1. rewrite (lor_disj 2) by lia. rewrite <- Ed. rewrite (lor_disj 8) by lia.
    replace (n / 256 * 2 ^ 8 + (n mod 256 + 2) - 2) with n by (Z.div_mod_to_equations; lia).
    rewrite u32_small by lia. change (BUNDLE_MESSAGE .| SIZE) with (mk 2 1 0 0 0). apply lor_count. fit. }
  rewrite (feed_one _ _ _ _ E3) by (apply mk_ok; fit). reflexivity.
Qed.

Lemma slash_step x n : 0 <= x < 256 -> 4 <= n < 65536 -> 4 <= n mod 256 ->
  exists s', process_byte (s8 x) (mk 2 1 0 0 n) = Ok s' /\
    if x =? 47 then s' = mk 2 2 0 0 (n - 1) else errorp s' = true.
Proof.
  intros Hx Hn Hl. rewrite pb_bundle_size by fit. eexists. split; [reflexivity|]. unfold bundle_size. fld. rewrite land_ff.
  destruct (n mod 256 =? 0) eqn:G0; [lia|]. destruct (n mod 256 =? 1) eqn:G1; [lia|]. destruct (n mod 256 =? 2) eqn:G2; [lia|].
  rewrite s8_eqb by lia. destruct (x =? 47); [|reflexivity].
  rewrite u32_small by lia. change (BUNDLE_MESSAGE .| ADDRESS) with (mk 2 2 0 0 0). apply lor_count. fit.
Qed.

Lemma size_run n : n mod 4 = 0 -> 0 <= n < 65536 -> 4 <= n mod 256 < 128 ->
  feed [0; n / 256; n mod 256; 47] (mk 2 1 0 0 0) = Ok (Some (mk 2 2 0 0 (n - 1))).
Proof.
  intros H4 Hn Hl. assert (4 <= n) by (Z.div_mod_to_equations; lia).
  change [0; n / 256; n mod 256; 47] with ([0; n / 256; n mod 256] ++ [47]).
  rewrite (feed_app _ _ _ _ (size_bytes n H4 Hn Hl)).
  destruct (slash_step 47 n ltac:(lia) ltac:(lia) ltac:(lia)) as (s' & E & Hs). cbn [Z.eqb Pos.eqb] in Hs. subst s'.
  rewrite (feed_one _ _ _ _ E) by (apply mk_ok; fit). reflexivity.
Qed.

(** * A message of a bundle *)

Lemma zeros_cons j : 1 <= j -> zeros j = 0 :: zeros (j - 1).
Proof. intros H. replace j with (j - 1 + 1) at 1 by lia. apply zeros_S. lia. Qed.

Lemma zlen_zeros j : 0 <= j -> zlen (zeros j) = j.
Proof. intros H. unfold zeros, zlen. rewrite repeat_length. lia. Qed.

Lemma message_run a t d n : Forall (fun c => 0 < c < 256) a -> accepted a -> Forall (fun c => In c supported_tags) t -> d <> [] ->
  n = zlen (pad_str (47 :: a) ++ pad_str (44 :: t) ++ d) -> n mod 4 = 0 -> n < 65536 -> 4 <= n mod 256 < 128 ->
  feed (0 :: n / 256 :: n mod 256 :: pad_str (47 :: a) ++ pad_str (44 :: t) ++ d) (mk 2 1 0 0 0) = Ok (Some (mk 2 8 0 0 0)).
Proof.
  intros Ha Hacc Ht Hd En H4 Hn Hl. unfold pad_str in *. rewrite !zlen_cons in *.
  set (ja := 4 - (1 + zlen a) mod 4) in *. set (jt := 4 - (1 + zlen t) mod 4) in *.
  assert (Hja : 1 <= ja <= 4) by (unfold ja; Z.div_mod_to_equations; lia).
  assert (Hjt : 1 <= jt <= 4) by (unfold jt; Z.div_mod_to_equations; lia).
  pose proof (zlen_nonneg a). pose proof (zlen_nonneg t). pose proof (zlen_nonneg d).
  assert (Hdl : 1 <= zlen d) by (destruct d; [congruence|rewrite zlen_cons; pose proof (zlen_nonneg d); lia]).
  rewrite !zlen_app, !zlen_cons, !zlen_zeros in En by lia.
  replace (0 :: n / 256 :: n mod 256 :: ((47 :: a) ++ zeros ja) ++ ((44 :: t) ++ zeros jt) ++ d)
    with ([0; n / 256; n mod 256; 47] ++ a ++ zeros ja ++ (44 :: t) ++ zeros jt ++ d)
    by (cbn [app]; now rewrite <- !app_assoc).
  rewrite (feed_app _ _ _ _ (size_run n H4 ltac:(lia) Hl)).
  assert (E2 : feed a (mk 2 2 0 0 (n - 1)) = Ok (Some (mk 2 2 0 0 (n - 1 - zlen a)))).
  { change (mk 2 2 0 0 (n - 1)) with (mk 2 2 (micro_of Out) 0 (n - 1)). rewrite bundle_address_run by (assumption || lia).
    now rewrite (proj2 (modes_iff a) Hacc). }
  rewrite (feed_app _ _ _ _ E2). rewrite (zeros_cons ja) by lia. cbn [app].
  destruct (bundle_end Out (n - 1 - zlen a) ltac:(lia)) as (s3 & E3 & ->). change (micro_of Out) with 0 in E3.
  rewrite (feed_one _ _ _ _ E3) by (apply mk_ok; fit).
  rewrite (feed_app _ _ _ _ (pad_address (ja - 1) (n - 1 - zlen a - 1) ltac:(lia)
    ltac:(unfold ja in *; Z.div_mod_to_equations; lia) ltac:(lia))).
  replace (n - 1 - zlen a - 1 - (ja - 1)) with (n - (1 + zlen a + ja)) by lia. set (m := n - (1 + zlen a + ja)).
  assert (Hm : m mod 4 = 0) by (unfold m, ja in *; Z.div_mod_to_equations; lia).
  cbn [app]. rewrite (feed_one _ _ _ _ (comma m Hm ltac:(unfold m; lia))) by (apply mk_ok; unfold m; fit).
  assert (Htr : Forall (fun c => 0 < c < 256) t) by (eapply Forall_impl; [|exact Ht]; exact supported_range).
  rewrite (feed_app _ _ _ _ (proj1 (tags_run t (m - 1) Htr ltac:(unfold m; lia)) Ht)).
  rewrite (zeros_cons jt) by lia. cbn [app].
  rewrite (feed_one _ _ _ _ (tags_end (m - 1 - zlen t) ltac:(unfold m; lia))) by (apply mk_ok; unfold m; fit).
  rewrite (feed_app _ _ _ _ (pad_tags (jt - 1) (m - 1 - zlen t - 1) ltac:(lia)
    ltac:(unfold m, jt in *; Z.div_mod_to_equations; lia) ltac:(unfold m; lia))).
  replace (m - 1 - zlen t - 1 - (jt - 1)) with (zlen d) by (unfold m; lia).
  destruct d as [|x d]; [congruence|]. rewrite zlen_cons in *.
  assert (Hmd : (1 + zlen d) mod 4 = 0) by (unfold m, jt in *; Z.div_mod_to_equations; lia).
  rewrite (feed_one _ _ _ _ (first_data (s8 x) (1 + zlen d) Hmd ltac:(lia))) by (apply mk_ok; fit).
  replace (1 + zlen d - 1) with (zlen d) by lia. rewrite data_run by lia. now rewrite Z.sub_diag.
Qed.

(** * The header, and a whole bundle *)

Lemma tt_step x e : 0 <= e <= 6 -> process_byte x (mk 1 2 0 0 e) = Ok (mk 1 2 0 0 (e + 1)).
Proof.
  intros He. assert (E0 : process_byte x (mk 1 2 0 0 e) = header_timetag x (mk 1 2 0 0 e)) by (unfold process_byte; fld; reflexivity).
  rewrite E0. unfold header_timetag. fld. destruct (e <=? 6) eqn:E; [|lia]. f_equal. apply up; fit.
Qed.

Lemma header_run tt : zlen tt = 8 -> feed (bundle_id ++ tt) 0 = Ok (Some (mk 1 2 0 0 7)).
Proof.
  intros Ht. assert (E0 : feed bundle_id 0 = Ok (Some (mk 1 1 0 0 7))) by reflexivity.
  rewrite (feed_app _ _ _ _ E0).
  destruct tt as [|x0 [|x1 [|x2 [|x3 [|x4 [|x5 [|x6 [|x7 [|? ?]]]]]]]]]; try (exfalso; unfold zlen in Ht; cbn [length] in Ht; lia).
  assert (E1 : process_byte (s8 x0) (mk 1 1 0 0 7) = Ok (mk 1 2 0 0 0)).
  { unfold process_byte. fld. unfold header_id. fld. reflexivity. }
  rewrite (feed_one _ _ _ _ E1) by (apply mk_ok; fit).
  rewrite (feed_one _ _ _ _ (tt_step (s8 x1) 0 ltac:(lia))) by (apply mk_ok; fit).
  rewrite (feed_one _ _ _ _ (tt_step (s8 x2) (0 + 1) ltac:(lia))) by (apply mk_ok; fit).
  rewrite (feed_one _ _ _ _ (tt_step (s8 x3) (0 + 1 + 1) ltac:(lia))) by (apply mk_ok; fit).
  rewrite (feed_one _ _ _ _ (tt_step (s8 x4) (0 + 1 + 1 + 1) ltac:(lia))) by (apply mk_ok; fit).
  rewrite (feed_one _ _ _ _ (tt_step (s8 x5) (0 + 1 + 1 + 1 + 1) ltac:(lia))) by (apply mk_ok; fit).
  rewrite (feed_one _ _ _ _ (tt_step (s8 x6) (0 + 1 + 1 + 1 + 1 + 1) ltac:(lia))) by (apply mk_ok; fit).
  rewrite (feed_one _ _ _ _ (tt_step (s8 x7) (0 + 1 + 1 + 1 + 1 + 1 + 1) ltac:(lia))) by (apply mk_ok; fit).
  reflexivity.
Qed.

Definition ready (s : Z) : Prop := s = mk 1 2 0 0 7 \/ s = mk 2 8 0 0 0.

Lemma ready_step s : ready s -> process_byte (s8 0) s = Ok (mk 2 1 0 0 0).
Proof. intros [-> | ->]; reflexivity. Qed.

Lemma be4_small n : 0 <= n < 65536 -> be_bytes 4 n = [0; 0; n / 256; n mod 256].
Proof.
  intros H. unfold be_bytes. cbn [le_bytes rev app]. assert (Eq : 0 <= n / 256 < 256) by (Z.div_mod_to_equations; lia).
  rewrite (Z.div_small (n / 256)) by lia. change (0 / 256) with 0. change (0 mod 256) with 0.
  now rewrite (Z.mod_small (n / 256)) by lia.
Qed.

Lemma streamed w s : streamable w -> ready s -> feed (enc_wmsg w) s = Ok (Some (mk 2 8 0 0 0)).
Proof.
  intros (a & t & d & -> & Ha & Hacc & Ht & Hd & _ & Hn4 & Hn & Hl) Hs. cbn zeta in *.
  unfold enc_wmsg, sized. set (n := zlen (wbody _)) in *.
  assert (H0 : 0 <= n) by apply zlen_nonneg.
  rewrite be4_small by lia. cbn [app]. rewrite (feed_one _ _ _ _ (ready_step s Hs)) by (apply mk_ok; fit).
  unfold n in *. cbn [wbody] in *. now apply message_run.
Qed.

Lemma bundle_run : forall ws s, Forall streamable ws -> ready s ->
  feed (concat (map enc_wmsg ws)) s = Ok (Some (if ws then s else mk 2 8 0 0 0)).
Proof.
  induction ws as [|w ws IH]; intros s Hw Hs; [reflexivity|].
  cbn [map concat]. rewrite (feed_app _ _ _ _ (streamed w s (Forall_inv Hw) Hs)).
  rewrite (IH _ (Forall_inv_tail Hw)) by now right. now destruct ws.
Qed.

(** * A message without a bundle *)

Lemma pb_naked_address b c e : fits 4 2 c 0 e -> process_byte b (mk 4 2 c 0 e) = Ok (naked_address b (mk 4 2 c 0 e)).
Proof. intros H. unfold process_byte, naked. fld. reflexivity. Qed.

Lemma naked_step m x e m' : 0 < x < 256 -> 0 <= e -> e + 1 < 2^32 -> mode_step m x = Some m' ->
  process_byte (s8 x) (mk 4 2 (micro_of m) 0 e) = Ok (mk 4 2 (micro_of m') 0 (e + 1)).
Proof.
  intros Hx He Hm. rewrite pb_naked_address by (destruct m; cbn [micro_of]; fit). intros E. f_equal. revert E.
  unfold naked_address, naked_curly, naked_square, mode_step.
  destruct m; cbn [micro_of]; fld; decide_consts; rewrite !s8_eqb by lia.
  - change IN_SQUARE with (4 * 2^40). change IN_CURLY with (1 * 2^40).
    tests x; intros E; inversion E; subst m'; cbn [micro_of]; rewrite ?lor_micro by fit; apply up; fit.
  - change (MESSAGE .| ADDRESS .| IN_CURLY_COMMA) with (mk 4 2 2 0 0). change (MESSAGE .| ADDRESS) with (mk 4 2 0 0 0).
    rewrite u32_small by lia.
    tests x; intros E; inversion E; subst m'; cbn [micro_of]; rewrite ?lor_count by fit; try reflexivity; apply up; fit.
  - change (MESSAGE .| ADDRESS .| IN_CURLY_COMMA) with (mk 4 2 2 0 0). change (MESSAGE .| ADDRESS) with (mk 4 2 0 0 0).
    rewrite u32_small by lia.
    tests x; intros E; inversion E; subst m'; cbn [micro_of]; rewrite ?lor_count by fit; try reflexivity; apply up; fit.
  - change (MESSAGE .| ADDRESS .| IN_SQUARE_DASH) with (mk 4 2 8 0 0). change (MESSAGE .| ADDRESS) with (mk 4 2 0 0 0).
    rewrite u32_small by lia.
    tests x; intros E; inversion E; subst m'; cbn [micro_of]; rewrite ?lor_count by fit; try reflexivity; apply up; fit.
  - change (MESSAGE .| ADDRESS .| IN_SQUARE_DASH) with (mk 4 2 8 0 0). change (MESSAGE .| ADDRESS) with (mk 4 2 0 0 0).
    rewrite u32_small by lia.
    tests x; intros E; inversion E; subst m'; cbn [micro_of]; rewrite ?lor_count by fit; try reflexivity; apply up; fit.
Qed.

Lemma micro_fits m e : 0 <= e < 2^32 -> fits 4 2 (micro_of m) 0 e.
Proof. intros H. destruct m; cbn [micro_of]; fit. Qed.

Lemma naked_address_run : forall a m m' e, Forall (fun c => 0 < c < 256) a -> 0 <= e -> e + zlen a < 2^32 -> modes m a = Some m' ->
  feed a (mk 4 2 (micro_of m) 0 e) = Ok (Some (mk 4 2 (micro_of m') 0 (e + zlen a))).
Proof.
  induction a as [|x a IH]; intros m m' e Ha He Hl Hm.
  - cbn [modes] in Hm. inversion Hm; subst. cbn [feed]. change (zlen (@nil Z)) with 0. now rewrite Z.add_0_r.
  - rewrite zlen_cons in *. pose proof (zlen_nonneg a). cbn [modes] in Hm.
    destruct (mode_step m x) as [m1|] eqn:E1; [|discriminate].
    rewrite (feed_one _ _ _ _ (naked_step m x e m1 (Forall_inv Ha) He ltac:(lia) E1)) by (apply mk_ok, micro_fits; lia).
    rewrite (IH m1 m') by (try exact (Forall_inv_tail Ha); try assumption; lia). do 3 f_equal. lia.
Qed.

Lemma naked_address_end e : 0 <= e -> e + 1 < 2^32 -> process_byte (s8 0) (mk 4 2 0 0 e) = Ok (mk 4 2 16 0 (e + 1)).
Proof.
  intros He Hm. rewrite pb_naked_address by fit. f_equal. unfold naked_address. fld. decide_consts.
  change (s8 0 =? 91) with false. change (s8 0 =? 123) with false. change (s8 0 =? 0) with true. cbv iota.
  change ADDRESS_PADDING with (16 * 2^40). rewrite lor_micro by fit. apply up; fit.
Qed.

Lemma naked_pad_address : forall j e, e mod 4 = 3 - Z.of_nat j -> 0 <= e -> e + Z.of_nat j < 2^32 ->
  feed (repeat 0 j) (mk 4 2 16 0 e) = Ok (Some (mk 4 2 16 0 (e + Z.of_nat j))).
Proof.
  induction j as [|j IH]; intros e Hm He Hl.
  - cbn [repeat feed]. now rewrite Z.add_0_r.
  - cbn [repeat]. assert (E : process_byte (s8 0) (mk 4 2 16 0 e) = Ok (mk 4 2 16 0 (e + 1))).
    { rewrite pb_naked_address by fit. f_equal. unfold naked_address. fld. decide_consts.
      destruct (e mod 4 =? 3) eqn:E; [lia|]. change (s8 0 =? 0) with true. cbv iota. apply up; fit. }
    rewrite (feed_one _ _ _ _ E) by (apply mk_ok; fit).
    rewrite IH by (try (Z.div_mod_to_equations; lia); lia). do 3 f_equal. lia.
Qed.

Lemma naked_comma e : e mod 4 = 3 -> 0 <= e -> e + 1 < 2^32 -> process_byte (s8 44) (mk 4 2 16 0 e) = Ok (mk 4 4 0 0 (e + 1)).
Proof.
  intros Hm He Hl. rewrite pb_naked_address by fit. f_equal. unfold naked_address. fld. decide_consts. rewrite Hm.
  change (s8 44 =? 44) with true. cbv iota. change (3 =? 3) with true. cbv iota.
  change (MESSAGE .| TYPETAGS) with (mk 4 4 0 0 0). rewrite u32_small by lia. apply lor_count. fit.
Qed.

Lemma pb_naked_typetags b c e : fits 4 4 c 0 e -> process_byte b (mk 4 4 c 0 e) = Ok (naked_typetags b (mk 4 4 c 0 e)).
Proof. intros H. unfold process_byte, naked. fld. reflexivity. Qed.

Lemma naked_tags_run : forall t e, Forall (fun c => In c supported_tags) t -> 0 <= e -> e + zlen t < 2^32 ->
  feed t (mk 4 4 0 0 e) = Ok (Some (mk 4 4 0 0 (e + zlen t))).
Proof.
  induction t as [|x t IH]; intros e Ht He Hl.
  - cbn [feed]. change (zlen (@nil Z)) with 0. now rewrite Z.add_0_r.
  - rewrite zlen_cons in *. pose proof (zlen_nonneg t). pose proof (Forall_inv Ht) as Hx. cbn beta in Hx.
    assert (E : process_byte (s8 x) (mk 4 4 0 0 e) = Ok (mk 4 4 0 0 (e + 1))).
    { rewrite pb_naked_typetags by fit. f_equal. unfold naked_typetags. fld. decide_consts.
      rewrite (proj2 (known_tag_spec x ltac:(apply supported_range in Hx; lia)) Hx). apply up; fit. }
    rewrite (feed_one _ _ _ _ E) by (apply mk_ok; fit). rewrite IH by (try exact (Forall_inv_tail Ht); lia). do 3 f_equal. lia.
Qed.

Lemma naked_tags_end e : 0 <= e -> e + 1 < 2^32 -> process_byte (s8 0) (mk 4 4 0 0 e) = Ok (mk 4 4 1 0 (e + 1)).
Proof.
  intros He Hl. rewrite pb_naked_typetags by fit. f_equal. unfold naked_typetags. fld. decide_consts.
  change (known_tag (s8 0)) with false. change (s8 0 =? 0) with true. cbv iota.
  change TYPETAGS_PADDING with (1 * 2^40). rewrite lor_micro by fit. apply up; fit.
Qed.

Lemma naked_pad_tags : forall j e, e mod 4 = 3 - Z.of_nat j -> 0 <= e -> e + Z.of_nat j < 2^32 ->
  feed (repeat 0 j) (mk 4 4 1 0 e) = Ok (Some (mk 4 4 1 0 (e + Z.of_nat j))).
Proof.
  induction j as [|j IH]; intros e Hm He Hl.
  - cbn [repeat feed]. now rewrite Z.add_0_r.
  - cbn [repeat]. assert (E : process_byte (s8 0) (mk 4 4 1 0 e) = Ok (mk 4 4 1 0 (e + 1))).
    { rewrite pb_naked_typetags by fit. f_equal. unfold naked_typetags. fld. decide_consts.
      destruct (e mod 4 =? 3) eqn:E; [lia|]. change (s8 0 =? 0) with true. cbv iota. apply up; fit. }
    rewrite (feed_one _ _ _ _ E) by (apply mk_ok; fit).
    rewrite IH by (try (Z.div_mod_to_equations; lia); lia). do 3 f_equal. lia.
Qed.

Lemma naked_data_run : forall d e, 0 <= e -> e + zlen d < 2^32 -> feed d (mk 4 8 0 0 e) = Ok (Some (mk 4 8 0 0 (e + zlen d))).
Proof.
  induction d as [|x d IH]; intros e He Hl.
  - cbn [feed]. change (zlen (@nil Z)) with 0. now rewrite Z.add_0_r.
  - rewrite zlen_cons in *. pose proof (zlen_nonneg d).
    assert (E : process_byte (s8 x) (mk 4 8 0 0 e) = Ok (mk 4 8 0 0 (e + 1))).
    { unfold process_byte, naked, naked_data. fld. rewrite up by fit. reflexivity. }
    rewrite (feed_one _ _ _ _ E) by (apply mk_ok; fit). rewrite IH by lia. do 3 f_equal. lia.
Qed.

Lemma naked_first_data x e : e mod 4 = 3 -> 0 <= e -> e + 1 < 2^32 -> process_byte x (mk 4 4 1 0 e) = Ok (mk 4 8 0 0 (e + 1)).
Proof.
  intros Hm He Hl. rewrite pb_naked_typetags by fit. f_equal. unfold naked_typetags. fld. decide_consts. rewrite Hm.
  change (3 =? 3) with true. cbv iota. change (MESSAGE .| DATA) with (mk 4 8 0 0 0). rewrite u32_small by lia. apply lor_count. fit.
Qed.

Lemma naked_run a t d n : Forall (fun c => 0 < c < 256) a -> accepted a -> Forall (fun c => In c supported_tags) t ->
  n = zlen (pad_str (47 :: a) ++ pad_str (44 :: t) ++ d) -> n < 2^32 ->
  feed (pad_str (47 :: a) ++ pad_str (44 :: t) ++ d) 0 = Ok (Some (match d with [] => mk 4 4 1 0 (n - 1) | _ => mk 4 8 0 0 (n - 1) end)).
Proof.
  intros Ha Hacc Ht En Hn. unfold pad_str in *. rewrite !zlen_cons in *.
  set (ja := 4 - (1 + zlen a) mod 4) in *. set (jt := 4 - (1 + zlen t) mod 4) in *.
  assert (Hja : 1 <= ja <= 4) by (unfold ja; Z.div_mod_to_equations; lia).
  assert (Hjt : 1 <= jt <= 4) by (unfold jt; Z.div_mod_to_equations; lia).
  pose proof (zlen_nonneg a). pose proof (zlen_nonneg t). pose proof (zlen_nonneg d).
  rewrite !zlen_app, !zlen_cons, !zlen_zeros in En by lia.
  replace (((47 :: a) ++ zeros ja) ++ ((44 :: t) ++ zeros jt) ++ d)
    with (47 :: a ++ zeros ja ++ (44 :: t) ++ zeros jt ++ d) by (cbn [app]; now rewrite <- !app_assoc).
  assert (E1 : process_byte (s8 47) 0 = Ok (mk 4 2 0 0 0)) by reflexivity.
  rewrite (feed_one _ _ _ _ E1) by (apply mk_ok; fit).
  assert (E2 : feed a (mk 4 2 0 0 0) = Ok (Some (mk 4 2 0 0 (zlen a)))).
  { exact (naked_address_run a Out Out 0 Ha ltac:(lia) ltac:(lia) (proj2 (modes_iff a) Hacc)). }
  rewrite (feed_app _ _ _ _ E2). rewrite (zeros_cons ja) by lia. cbn [app].
  rewrite (feed_one _ _ _ _ (naked_address_end (zlen a) ltac:(lia) ltac:(lia))) by (apply mk_ok; fit).
  unfold zeros at 1.
  rewrite (feed_app _ _ _ _ (naked_pad_address (Z.to_nat (ja - 1)) (zlen a + 1)
     ltac:(rewrite Z2Nat.id by lia; unfold ja in *; Z.div_mod_to_equations; lia) ltac:(lia) ltac:(lia))).
  rewrite Z2Nat.id by lia. replace (zlen a + 1 + (ja - 1)) with (zlen a + ja) by lia. set (m := zlen a + ja).
  assert (Hm : m mod 4 = 3) by (unfold m, ja in *; Z.div_mod_to_equations; lia).
  cbn [app]. rewrite (feed_one _ _ _ _ (naked_comma m Hm ltac:(unfold m; lia) ltac:(unfold m; lia))) by (apply mk_ok; unfold m; fit).
  rewrite (feed_app _ _ _ _ (naked_tags_run t (m + 1) Ht ltac:(unfold m; lia) ltac:(unfold m; lia))).
  rewrite (zeros_cons jt) by lia. cbn [app].
  rewrite (feed_one _ _ _ _ (naked_tags_end (m + 1 + zlen t) ltac:(unfold m; lia) ltac:(unfold m; lia))) by (apply mk_ok; unfold m; fit).
  unfold zeros at 1.
  rewrite (feed_app _ _ _ _ (naked_pad_tags (Z.to_nat (jt - 1)) (m + 1 + zlen t + 1)
     ltac:(rewrite Z2Nat.id by lia; unfold m, jt in *; Z.div_mod_to_equations; lia) ltac:(unfold m; lia) ltac:(unfold m; lia))).
  rewrite Z2Nat.id by lia. replace (m + 1 + zlen t + 1 + (jt - 1)) with (m + 1 + zlen t + jt) by lia.
  destruct d as [|x d].
  - change (zlen (@nil Z)) with 0 in *. cbn [feed]. do 3 f_equal. unfold m. lia.
  - rewrite zlen_cons in *. pose proof (zlen_nonneg d).
    rewrite (feed_one _ _ _ _ (naked_first_data (s8 x) (m + 1 + zlen t + jt)
      ltac:(unfold m, jt in *; Z.div_mod_to_equations; lia) ltac:(unfold m; lia) ltac:(unfold m; lia))) by (apply mk_ok; unfold m; fit).
    rewrite naked_data_run by (unfold m; lia). do 3 f_equal. unfold m. lia.
Qed.
