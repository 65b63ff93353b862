(** C35: where the validator goes wrong. *)

From Coq Require Import ZArith List Bool Lia.
From Verif Require Import Base BaseProofs Bytes Text WireSpec WireWalk StreamModel StreamSpec StreamProofs StreamRun StreamProps.
Import ListNotations.
Open Scope Z_scope.

Lemma pump_app : forall l1 l2 s s1, pump l1 s = Ok s1 -> pump (l1 ++ l2) s = pump l2 s1.
Proof.
  induction l1 as [|z l1 IH]; intros l2 s s1; cbn [pump app].
  - now intros [= ->].
  - destruct (process_byte (s8 z) s) as [s'| |]; cbn [bind]; try discriminate. apply IH.
Qed.

Lemma after_header tt bs : zlen tt = 8 -> pump (bundle_id ++ tt ++ bs) 0 = pump bs (mk 1 2 0 0 7).
Proof.
  intros Ht. rewrite app_assoc. apply pump_app. exact (proj1 (feed_pump _ _ _ (eq_refl : errorp 0 = false) (header_run tt Ht))).
Qed.

(** An error is not kept: after a first byte that is neither a hash nor a slash
    the validator starts afresh. *)
Theorem C35_error_kept_refuted x y bs : is_byte x -> x <> 35 -> x <> 47 ->
  (exists s, pump [x] 0 = Ok s /\ errorp s = true) /\ pump (x :: y :: bs) 0 = pump (y :: bs) 0.
Proof.
  intros Hx H1 H2. assert (E : process_byte (s8 x) 0 = Ok E_BADHEADER).
  { unfold process_byte. change (Z.land 0 _ =? INIT) with true. cbv iota. unfold is_byte in Hx. rewrite !s8_eqb by lia.
    destruct (x =? 35) eqn:G1; [lia|]. destruct (x =? 47) eqn:G2; [lia|]. reflexivity. }
  cbn [pump]. rewrite E. cbn [bind]. split; [now exists E_BADHEADER|]. reflexivity.
Qed.
Print Assumptions C35_error_kept_refuted.
Example C35_error_kept_refuted_holds : pump (120 :: bundle_id ++ repeat 0 8) 0 = Ok 0x0102000000000007.
Proof. reflexivity. Qed.

(** Nor are the errors of padding: a wrong byte in the padding of type tags of a
    bundle takes the validator back to the start. *)
Theorem C35_alignment_error_kept_refuted tt : zlen tt = 8 ->
  exists pre x, (forall y bs, pump (bundle_id ++ tt ++ pre ++ x :: y :: bs) 0 = pump (y :: bs) 0) /\ loud (bundle_id ++ tt ++ pre ++ [x]).
Proof.
  intros Ht. exists ([0; 0; 0; 16] ++ str "/ab" ++ [0] ++ str ",i" ++ [0]), 120.
  assert (Ep : forall bs, pump (bundle_id ++ tt ++ bs) 0 = pump bs (mk 1 2 0 0 7)).
  { intros bs. exact (after_header tt bs Ht). }
  split.
  - intros y bs. rewrite Ep. rewrite <- !app_assoc. reflexivity.
  - unfold loud. rewrite app_assoc, (feed_app _ _ _ _ (header_run tt Ht)). vm_compute. reflexivity.
Qed.
Print Assumptions C35_alignment_error_kept_refuted.

(** Messages that the OSC format allows, and that the validator rejects: three
    alternatives, a blob, a size of 256, and a message without type tags that is
    not the last. *)
Theorem C35_complete_refuted tt : zlen tt = 8 ->
  Forall (fun ws => Forall wf_wmsg ws /\ loud (bundle_id ++ tt ++ concat (map enc_wmsg ws)))
    [ [WM (str "/{a,b,c}") (Some (str ",i", [0; 0; 0; 1]))];
      [WM (str "/a") (Some (str ",b", [0; 0; 0; 4; 1; 2; 3; 4]))];
      [WM (str "/ab") (Some (str ",hhhhhhhhhhhhhhhhhhhhhhhhhhh", repeat 0 220%nat))];
      [WM (str "/ab") None; WM (str "/ab") (Some (str ",i", [0; 0; 0; 1]))] ].
Proof.
  intros Ht.
  assert (H : forall ws, feed (concat (map enc_wmsg ws)) (mk 1 2 0 0 7) = Ok None -> loud (bundle_id ++ tt ++ concat (map enc_wmsg ws))).
  { intros ws E. unfold loud. now rewrite app_assoc, (feed_app _ _ _ _ (header_run tt Ht)). }
  repeat (apply Forall_cons; [split; [repeat (apply Forall_cons; [unfold wf_wmsg, nonul; cbn; repeat split; try lia; repeat constructor; lia|]); apply Forall_nil
     | apply H; vm_compute; reflexivity]|]). apply Forall_nil.
Qed.
Print Assumptions C35_complete_refuted.

(** After a message of 128 bytes, or one without data, the validator takes
    whatever follows for data. *)
Theorem C35_sound_refuted tt d : zlen tt = 8 -> zlen d < 2^31 ->
  let long := WM (str "/ab") (Some (str ",hhhhhhhhhhhhhh", repeat 0 108%nat)) in
  let empty := WM (str "/ab") (Some (str ",TF", [])) in
  quiet (bundle_id ++ tt ++ enc_wmsg long ++ d) /\ quiet (bundle_id ++ tt ++ enc_wmsg empty ++ d).
Proof.
  intros Ht Hd. cbn zeta. unfold quiet. pose proof (zlen_nonneg d).
  split; rewrite app_assoc, (feed_app _ _ _ _ (header_run tt Ht)).
  - assert (E : feed (enc_wmsg (WM (str "/ab") (Some (str ",hhhhhhhhhhhhhh", repeat 0 108%nat)))) (mk 1 2 0 0 7) = Ok (Some (mk 2 8 0 0 0xffffff00)))
      by (vm_compute; reflexivity).
    rewrite (feed_app _ _ _ _ E). eexists. apply data_run. lia.
  - assert (E : feed (enc_wmsg (WM (str "/ab") (Some (str ",TF", [])))) (mk 1 2 0 0 7) = Ok (Some (mk 2 4 1 0 0))) by (vm_compute; reflexivity).
    rewrite (feed_app _ _ _ _ E). destruct d as [|x d]; [now eexists|]. rewrite zlen_cons in *. pose proof (zlen_nonneg d).
    assert (E1 : process_byte (s8 x) (mk 2 4 1 0 0) = Ok (mk 2 8 0 0 0xffffffff)) by reflexivity.
    rewrite (feed_one _ _ _ _ E1) by (apply mk_ok; fit). eexists. apply data_run. lia.
Qed.
Print Assumptions C35_sound_refuted.

(** A first size with its highest bit set overflows an int. *)
Theorem C35_negative_size_refuted tt x bs : zlen tt = 8 -> 128 <= x < 256 ->
  pump (bundle_id ++ tt ++ x :: bs) 0 = Ub Overflow.
Proof.
  intros Ht Hx. rewrite (after_header tt _ Ht). cbn [pump].
  assert (E : process_byte (s8 x) (mk 1 2 0 0 7) = Ub Overflow).
    { change (process_byte (s8 x) (mk 1 2 0 0 7)) with
        (if Z.land (s8 x) 0xff <? 128 then Ok (BUNDLE_MESSAGE .| SIZE .| Z.shiftl (Z.land (s8 x) 0xff) 24) else Ub Overflow).
      rewrite land_ff. replace (s8 x mod 256) with x by (unfold s8; Z.div_mod_to_equations; lia).
      destruct (x <? 128) eqn:G; [lia|reflexivity]. }
  now rewrite E.
Qed.
Print Assumptions C35_negative_size_refuted.
