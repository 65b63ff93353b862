(** C13: serialization followed by deserialization. *)

From Coq Require Import ZArith List Bool Lia.
From Verif Require Import Base BaseProofs Bytes Text UtilModel UtilProofs TimetagModel TimetagProofs
  WireSpec SerialModel SerialSpec SerialProofs SerialProps AtomSModel WireModel WireProofs WireWalk
  ArgProofs DeserProofs.
Import ListNotations.
Open Scope Z_scope.
Ltac Zify.zify_post_hook ::= Z.div_mod_to_equations.

Lemma narrow_idem : (forall v, narrow (narrow v) = narrow v) /\
  (forall m, narrow_msg (narrow_msg m) = narrow_msg m).
Proof.
  assert (HV : forall v,
    match v with VBundle ms => Forall (fun m => narrow_msg (narrow_msg m) = narrow_msg m) ms | _ => True end ->
    narrow (narrow v) = narrow v).
  { intros v H. destruct v; try reflexivity.
    - cbn [narrow]. destruct ((tag =? 99) || (tag =? 67)) eqn:E1;
        [|destruct ((tag =? 117) || (tag =? 85)) eqn:E2]; cbn [narrow]; rewrite ?E1, ?E2;
        try reflexivity; f_equal; lia.
    - cbn [narrow]. f_equal. rewrite map_map. apply map_ext_in. now apply Forall_forall. }
  assert (HM : forall a vs, Forall (fun v => narrow (narrow v) = narrow v) vs ->
    narrow_msg (narrow_msg (M a vs)) = narrow_msg (M a vs)).
  { intros a vs H. cbn [narrow_msg]. f_equal. rewrite map_map. apply map_ext_in. now apply Forall_forall. }
  split; [exact (value_ind2 _ _ HV HM) | exact (message_ind2 _ _ HV HM)].
Qed.

(** Deserializing the encoding of any messages with supported arguments and
    addresses that begin with a slash, at any place in memory and with any
    header, gives proper objects that stand for these messages: the same
    addresses, type tags and values in the same order at every depth.  [narrow]
    takes the 8 and 16 bit types modulo 2^8 and 2^16. *)
Theorem C13_deserialize P hdr ms post :
  zlen hdr = 16 -> Forall (std_message slash) ms -> zlen (enc_bundle hdr ms) + 4 < 2^31 ->
  exists ms', bundle_deserialize (P ++ enc_bundle hdr ms ++ post) (zlen P) (zlen (enc_bundle hdr ms)) = Ok ms' /\
    Forall ok_msg ms' /\ raw_msgs ms' = map narrow_msg ms.
Proof.
  intros Hh Hs Hl. exists (map umsg_of ms). unfold bundle_deserialize, enc_bundle in *.
  rewrite zlen_app in Hl.
  assert (Hin : forall m, In m ms -> zlen (enc_message m) + 4 < 2^31).
  { intros m Hm. pose proof (enc_chunk enc_message ms m Hm). lia. }
  split; [|split].
  - apply deser_bundle_of; try assumption; try lia.
    + apply Forall_forall. intros m _. apply deser_all.
    + apply Forall_forall. intros m Hm. pose proof (proj2 depth_le m).
      pose proof (enc_chunk enc_message ms m Hm).
      rewrite !app_length. unfold zlen in *. lia.
  - rewrite Forall_map. rewrite Forall_forall in *. intros m Hm. apply (proj2 ok_obj); auto.
  - unfold raw_msgs. rewrite map_map. clear Hl. induction ms as [|m ms IH]; [reflexivity|].
    inversion Hs; subst. cbn [map concat]. rewrite (proj2 raw_obj); [|assumption|].
    + cbn [app]. f_equal. apply IH; [assumption|]. intros x Hx. apply Hin. now right.
    + specialize (Hin m (or_introl eq_refl)). lia.
Qed.
Print Assumptions C13_deserialize.

(** Round trip from objects: what comes back stands for what was serialized. *)
Theorem C13_round_trip ms junk b :
  Forall ok_msg ms -> Forall (std_message slash) (raw_msgs ms) ->
  zlen (enc_bundle empty_header (raw_msgs ms)) <= zlen junk ->
  bundle_serialize junk ms = Ok b -> zlen b + 4 < 2^31 ->
  exists ms', bundle_deserialize b 0 (zlen b) = Ok ms' /\ Forall ok_msg ms' /\
    raw_msgs ms' = content ms /\ content ms' = content ms.
Proof.
  intros Hok Hs Hj Hser Hl. rewrite C12_bundle_encoding in Hser by assumption. injection Hser as <-.
  destruct (C13_deserialize [] empty_header (raw_msgs ms) [] eq_refl Hs Hl) as (ms' & H1 & H2 & H3).
  rewrite app_nil_r in H1. exists ms'. split; [exact H1|]. split; [exact H2|]. split; [exact H3|].
  unfold content. rewrite H3. rewrite map_map. apply map_ext. apply narrow_idem.
Qed.
Print Assumptions C13_round_trip.

(** Round trip from bytes: serializing what was deserialized gives the bytes
    back, for data in which the 8 and 16 bit numbers are in range. *)
Theorem C13_reserialize ms junk :
  Forall (std_message slash) ms -> map narrow_msg ms = ms ->
  zlen (enc_bundle empty_header ms) + 4 < 2^31 -> zlen (enc_bundle empty_header ms) <= zlen junk ->
  exists ms', bundle_deserialize (enc_bundle empty_header ms) 0 (zlen (enc_bundle empty_header ms)) = Ok ms' /\
    bundle_serialize junk ms' = Ok (enc_bundle empty_header ms).
Proof.
  intros Hs Hn Hl Hj.
  destruct (C13_deserialize [] empty_header ms [] eq_refl Hs Hl) as (ms' & H1 & H2 & H3).
  rewrite app_nil_r in H1. exists ms'. split; [exact H1|]. rewrite Hn in H3.
  rewrite <- H3. apply C12_bundle_encoding; [assumption|]. now rewrite H3.
Qed.
Print Assumptions C13_reserialize.

Lemma all_std Q l : fold_right (fun v P => std_value Q v /\ P) True l <-> Forall (std_value Q) l.
Proof. apply all_Forall. Qed.

Example C13_hypotheses :
  Forall ok_msg ex_msgs /\ Forall (std_message slash) (raw_msgs ex_msgs) /\
  map narrow_msg (raw_msgs ex_msgs) = raw_msgs ex_msgs.
Proof.
  split; [exact ex_msgs_ok|]. split; [|vm_compute; reflexivity].
  match goal with |- Forall _ ?l => let l' := eval vm_compute in l in change (Forall (std_message slash) l') end.
  repeat constructor; try discriminate; try lia; auto 12; cbn; auto 12; unfold is_byte; lia.
Qed.

(** What does not survive: a type tag libo does not know, *)
Theorem C13_unknown_tag_refuted :
  let b := enc_bundle empty_header [M (str "/a") [VFlag 114]] in
  exists ms, bundle_deserialize b 0 (zlen b) = Ok ms /\ raw_msgs ms <> [M (str "/a") [VFlag 114]].
Proof. eexists. split; [vm_compute; reflexivity|]. vm_compute. discriminate. Qed.
Print Assumptions C13_unknown_tag_refuted.

(** a message whose address does not begin with a slash, *)
Theorem C13_no_slash_refuted :
  let b := enc_bundle empty_header [M (str "a") [VNum32 105 1]] in
  exists ms, bundle_deserialize b 0 (zlen b) = Ok ms /\ raw_msgs ms = [].
Proof. eexists. split; [vm_compute; reflexivity|]. vm_compute. reflexivity. Qed.
Print Assumptions C13_no_slash_refuted.

(** and the time tag of the bundle: whatever it was, the header that comes back
    has none. *)
Theorem C13_time_tag_refuted timetag ms junk :
  zlen timetag = 8 -> Forall (std_message slash) ms -> map narrow_msg ms = ms ->
  let b := enc_bundle (bundle_id ++ timetag) ms in
  zlen b + 4 < 2^31 -> zlen b <= zlen junk ->
  exists ms', bundle_deserialize b 0 (zlen b) = Ok ms' /\
    bundle_serialize junk ms' = Ok (enc_bundle (bundle_id ++ zeros 8) ms).
Proof.
  intros Ht Hs Hn b Hl Hj.
  assert (Hh : zlen (bundle_id ++ timetag) = 16) by (zl; change (zlen bundle_id) with 8; lia).
  destruct (C13_deserialize [] (bundle_id ++ timetag) ms [] Hh Hs Hl) as (ms' & H1 & H2 & H3).
  rewrite app_nil_r in H1. exists ms'. split; [exact H1|]. rewrite Hn in H3.
  change (bundle_id ++ zeros 8) with empty_header. rewrite <- H3.
  apply C12_bundle_encoding; [assumption|]. rewrite H3. unfold b in Hj. unfold enc_bundle in *.
  rewrite zlen_app in Hj |- *. rewrite Hh in Hj. exact Hj.
Qed.
Print Assumptions C13_time_tag_refuted.
