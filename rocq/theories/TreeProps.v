(** C92: exploding and flattening serialized bundles. *)

From Coq Require Import String ZArith List Bool Lia Permutation.
From Verif Require Import Base BaseProofs Bytes Text
  WireSpec SerialModel SerialSpec SerialProofs SerialProps WireModel WireProofs ArgProofs DeserProofs DeserProps
  AtomUModel ExprModel ExprSpec ExprListProofs FlattenModel FlattenSpec FlattenProofs FlattenProps TreeModel.
Import ListNotations.
Open Scope Z_scope.

(** A block from malloc has the size that was asked for. *)
Definition blocks (fresh : Z -> bytes) : Prop := forall n, 0 <= n -> zlen (fresh n) = n.

Lemma serialized_ok fresh ms : blocks fresh -> Forall ok_msg ms ->
  serialized fresh ms = Ok (enc_bundle empty_header (raw_msgs ms)).
Proof.
  intros Hf Hok. unfold serialized. rewrite bundle_size_ok by exact Hok. cbn [bind]. apply C12_bundle_encoding; [exact Hok|].
  unfold enc_bundle. rewrite enc_umsgs_raw, zlen_app. change (zlen empty_header) with 16.
  rewrite Hf by (pose proof (zlen_nonneg (enc_umsgs ms)); lia). lia.
Qed.
Lemma deserialized hdr ms : zlen hdr = 16 -> Forall (std_message slash) ms -> zlen (enc_bundle hdr ms) + 4 < 2^31 ->
  exists us, bundle_deserialize (enc_bundle hdr ms) 0 (zlen (enc_bundle hdr ms)) = Ok us /\
    Forall ok_msg us /\ Forall has_address us /\ raw_msgs us = map narrow_msg ms.
Proof.
  intros Hh Hs Hl. destruct (C13_deserialize [] hdr ms [] Hh Hs Hl) as (us & E & Hok & Hr).
  cbn [app] in E. rewrite app_nil_r in E. change (zlen (@nil Z)) with 0 in E. exists us. split; [exact E|]. split; [exact Hok|]. split; [|exact Hr].
  assert (K : us = map umsg_of ms).
  { unfold bundle_deserialize in E. unfold enc_bundle in *. rewrite zlen_app in Hl.
    pose proof (deser_bundle_of [] hdr ms [] (length (hdr ++ concat (map enc_message ms))) Hh) as K. cbn [app] in K. rewrite app_nil_r in K.
    change (zlen (@nil Z)) with 0 in K. rewrite K in E; [congruence|..]; try assumption; try lia.
    - apply Forall_forall. intros m _. apply deser_all.
    - apply Forall_forall. intros m Hm. pose proof (proj2 depth_le m). pose proof (enc_chunk enc_message ms m Hm). rewrite app_length. unfold zlen in *. lia. }
  rewrite K, Forall_map. apply Forall_forall. intros [a vs] _. cbn [umsg_of]. eexists. eexists. reflexivity.
Qed.
Lemma plain_narrow m : plain_message m -> plain_message (narrow_msg m).
Proof.
  destruct m as [a vs]. intros (H1 & H2 & H3). cbn [narrow_msg plain_message]. split; [exact H1|]. split; [destruct vs; [now elim H2|discriminate]|].
  now apply narrow_leaf.
Qed.
Lemma independent_narrow ms : all_independent ms -> all_independent (map narrow_msg ms).
Proof.
  unfold all_independent. intros H. apply ordpairs_map.
  induction H as [|m ms Hm _ IH]; constructor; [|exact IH]. eapply Forall_impl; [|exact Hm]. intros x Hx. now rewrite !addr_narrow.
Qed.
Lemma costs_narrow ms : costs (map narrow_msg ms) = costs ms.
Proof.
  induction ms as [|[a vs] ms IH]; [reflexivity|]. cbn [map costs fold_right]. fold (costs (map narrow_msg ms)) (costs ms). rewrite IH. f_equal.
  pose proof (proj1 (proj2 narrow_same (M a vs))) as K. cbn [narrow_msg cost] in *. lia.
Qed.
Lemma std_narrow ms : Forall (std_message slash) ms -> Forall (std_message slash) (map narrow_msg ms).
Proof. intros H. rewrite Forall_map. eapply Forall_impl; [|exact H]. intros m. apply (proj2 narrow_same m). Qed.
Lemma size_cost hdr ms : zlen hdr = 16 -> zlen (enc_bundle hdr ms) <= 16 + costs ms.
Proof.
  intros H. unfold enc_bundle. rewrite zlen_app, H. apply Zplus_le_compat_l. induction ms as [|[a vs] ms IH]; [reflexivity|].
  cbn [map concat costs fold_right]. fold (costs ms). rewrite zlen_app. cbn [cost]. pose proof (zlen_nonneg a). lia.
Qed.
Lemma narrow_twice ms : map narrow_msg (map narrow_msg ms) = map narrow_msg ms.
Proof. rewrite map_map. apply map_ext. apply narrow_idem. Qed.

(** * C92 *)

(** Exploding the bytes of a bundle of data messages gives the bytes of a nested bundle
    that stands for the same messages.  As in C40 no address may continue another. *)
Theorem C92_explode fresh hdr ms sep maxlevel fuel : blocks fresh ->
  zlen hdr = 16 -> Forall (std_message slash) ms -> Forall plain_message ms -> all_independent ms ->
  16 + costs ms + 4 < 2^31 ->
  (sep = None \/ hd 47 (match sep with Some s => s | None => [] end) = 47) -> 2^31 <= Z.of_nat fuel ->
  exists ex, s_explode fresh fuel sep maxlevel (enc_bundle hdr ms) = Ok (enc_bundle empty_header ex) /\
    Forall (std_message slash) ex /\ shaped_all ex /\ Permutation (meanings [] ex) (map narrow_msg ms) /\
    total_size ex <= 16 + costs ms /\ (maxlevel < 0 -> Forall all_one ex).
Proof.
  intros Hf Hh Hs Hp Hi Hc Hsep Hfuel. pose proof (size_cost hdr ms Hh) as Hsz.
  destruct (deserialized hdr ms Hh Hs ltac:(lia)) as (us & E & Hok & Had & Hr).
  destruct (C40_explode us sep maxlevel fuel Hok Had) as (ex & Ex & X1 & X2 & X3 & X4 & X5 & X6 & X7); try assumption; try rewrite Hr.
  - rewrite Forall_map. eapply Forall_impl; [|exact Hp]. apply plain_narrow.
  - now apply std_narrow.
  - now apply independent_narrow.
  - now rewrite costs_narrow.
  - exists (raw_msgs ex). unfold s_explode. rewrite E. cbn [bind]. rewrite Ex. cbn [bind].
    split; [now apply serialized_ok|]. split; [exact X3|]. split; [exact X4|].
    unfold content in X5. rewrite Hr, narrow_twice in X5. rewrite Hr, costs_narrow in X6. auto.
Qed.
Print Assumptions C92_explode.

(** Flattening the bytes of a nested bundle gives the bytes of the bundle of the messages
    it stands for, in their order, provided the freed argument can still be read (see
    C92_flatten_refuted). *)
Theorem C92_flatten fresh hdr ms sep maxlevel fuel : blocks fresh ->
  zlen hdr = 16 -> Forall (std_message slash) ms -> shaped_all ms -> NoDup (map address_of (meanings [] ms)) ->
  zlen (enc_bundle hdr ms) + 4 < 2^31 -> (sep = None \/ sep = Some []) -> maxlevel <= 0 -> 2^31 <= Z.of_nat fuel ->
  exists out, s_flatten fresh true fuel maxlevel sep true (enc_bundle hdr ms) = Ok (enc_bundle empty_header out) /\
    map narrow_msg out = meanings [] ms.
Proof.
  intros Hf Hh Hs Hsh Hnd Hl Hsep Hml Hfuel.
  destruct (deserialized hdr ms Hh Hs Hl) as (us & E & Hok & Had & Hr).
  destruct (narrow_shapes ms Hsh) as [S1 S2].
  destruct (C40_flatten us sep maxlevel fuel Hok Had) as (out & Eo & O1 & O2); try assumption; try rewrite Hr.
  - exact S1.
  - now apply std_narrow.
  - now rewrite S2.
  - unfold total_size. rewrite enc_narrow. unfold enc_bundle in *. rewrite zlen_app in *. change (zlen empty_header) with 16. lia.
  - exists (raw_msgs out). unfold s_flatten. rewrite E. cbn [bind]. rewrite Eo. cbn [bind].
    split; [now apply serialized_ok|]. unfold content in O2. now rewrite O2, Hr, S2.
Qed.
Print Assumptions C92_flatten.

(** Exploding and flattening: the same messages come back. *)
Theorem C92_round_trip fresh hdr ms sep maxlevel fuel : blocks fresh ->
  zlen hdr = 16 -> Forall (std_message slash) ms -> Forall plain_message ms -> all_independent ms ->
  16 + costs ms + 4 < 2^31 ->
  (sep = None \/ hd 47 (match sep with Some s => s | None => [] end) = 47) -> 2^31 <= Z.of_nat fuel ->
  exists b out, s_explode fresh fuel sep maxlevel (enc_bundle hdr ms) = Ok b /\
    s_flatten fresh true fuel 0 None true b = Ok (enc_bundle empty_header out) /\
    Permutation (map narrow_msg out) (map narrow_msg ms).
Proof.
  intros Hf Hh Hs Hp Hi Hc Hsep Hfuel.
  destruct (C92_explode fresh hdr ms sep maxlevel fuel Hf Hh Hs Hp Hi Hc Hsep Hfuel) as (ex & E & X1 & X2 & X3 & X4 & _).
  destruct (C92_flatten fresh empty_header ex None 0 fuel Hf eq_refl X1 X2) as (out & E' & O).
  - refine (Permutation_NoDup (Permutation_map address_of (Permutation_sym X3)) _). rewrite narrow_addresses. now apply independent_distinct.
  - unfold total_size in X4. lia.
  - now left.
  - lia.
  - exact Hfuel.
  - exists (enc_bundle empty_header ex), out. split; [exact E|]. split; [exact E'|]. now rewrite O.
Qed.
Print Assumptions C92_round_trip.

(** Flattening a bundle that is in fact nested reads an argument after it is freed. *)
Theorem C92_flatten_refuted fresh hdr ms sep maxlevel remove fuel :
  zlen hdr = 16 -> Forall (std_message slash) ms -> shaped_all ms -> zlen (enc_bundle hdr ms) + 4 < 2^31 ->
  maxlevel <= 0 -> 2^31 <= Z.of_nat fuel -> Exists nested ms ->
  s_flatten fresh false fuel maxlevel sep remove (enc_bundle hdr ms) = Ub Dangling.
Proof.
  intros Hh Hs Hsh Hl Hml Hfuel Hn. destruct (deserialized hdr ms Hh Hs Hl) as (us & E & Hok & Had & Hr).
  destruct (narrow_shapes ms Hsh) as [S1 _]. unfold s_flatten. rewrite E. cbn [bind].
  rewrite C40_nested_flatten_refuted; try assumption; try rewrite Hr; try reflexivity.
  - exact S1.
  - now apply std_narrow.
  - unfold total_size. rewrite enc_narrow. unfold enc_bundle in *. rewrite zlen_app in *. change (zlen empty_header) with 16. lia.
  - apply Exists_exists in Hn as (m & Hm & Hn). apply Exists_exists. exists (narrow_msg m). split; [now apply in_map|].
    destruct m as [a vs]. cbn [narrow_msg nested] in *. destruct vs as [|[] [|]]; try contradiction Hn. exact I.
Qed.
Print Assumptions C92_flatten_refuted.

(** * Example: a bundle with three levels *)
Definition exhdr : bytes := bundle_id ++ [0; 0; 0; 1; 0; 0; 0; 2].
Definition zero_blocks (n : Z) : bytes := repeat 0 (Z.to_nat n).
Lemma zero_blocks_ok : blocks zero_blocks.
Proof. intros n Hn. unfold zero_blocks, zlen. rewrite repeat_length. lia. Qed.
Example hypotheses_met fuel : 2^31 <= Z.of_nat fuel -> exists b out,
  s_explode zero_blocks fuel None (-1) (enc_bundle exhdr (raw_msgs sample)) = Ok b /\
  s_flatten zero_blocks true fuel 0 None true b = Ok (enc_bundle empty_header out) /\
  Permutation (map narrow_msg out) (map narrow_msg (raw_msgs sample)).
Proof.
  intros Hfuel. destruct sample_ok as (_ & _ & H1 & H2 & H3 & H4).
  apply (C92_round_trip zero_blocks exhdr (raw_msgs sample) None (-1) fuel zero_blocks_ok eq_refl H2 H1 H3 H4 (or_introl eq_refl) Hfuel).
Qed.
Example computed : exists b, s_explode zero_blocks 10 None (-1) (enc_bundle exhdr (raw_msgs sample)) = Ok b /\ zlen b = 148 /\
  s_flatten zero_blocks false 10 0 None true b = Ub Dangling.
Proof. eexists. split; [vm_compute; reflexivity|]. split; vm_compute; reflexivity. Qed.
