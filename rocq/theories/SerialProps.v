(** C11, C12, C14: serialization of atoms, messages and nested bundles. *)

From Coq Require Import ZArith List Bool Lia.
From Verif Require Import Base BaseProofs Bytes Text UtilModel UtilProofs TimetagModel TimetagProofs
  WireSpec SerialModel SerialSpec SerialProofs.
Import ListNotations.
Open Scope Z_scope.
Ltac Zify.zify_post_hook ::= Z.div_mod_to_equations.

(** A bundle with a nested bundle, a string, a blob and numbers, used to show
    that the hypotheses below are met. *)
Definition ex_inner : list umsg :=
  [UMsg (Some (str "/in")) [set_int32 atom_fresh (-7); set_double atom_fresh 4607182418800017408]].
Definition ex_blob : bytes := be_bytes 4 5 ++ [1; 2; 3; 4; 5; 0; 0; 0].
Definition ex_msgs : list umsg :=
  [UMsg (Some (str "/a")) [set_int8 atom_fresh (-1); set_string atom_fresh 4096 (str "hello");
                           set_true atom_fresh];
   UMsg (Some (str "/empty")) [];
   UMsg (Some (str "/b/c")) [Atom 98 8192 (PBlob ex_blob); set_bndl atom_fresh 65536 ex_inner;
                             set_timetag atom_fresh (TT 5 6)]].

Lemma ok_atom_fold l : fold_right (fun a P => ok_atom a /\ P) True l <-> Forall ok_atom l.
Proof. apply all_Forall. Qed.

Ltac okdec :=
  repeat match goal with
  | |- _ /\ _ => split
  | |- True => exact I
  | |- nonul _ => unfold nonul; repeat constructor; discriminate
  | |- wf_bytes _ => unfold wf_bytes; repeat constructor; unfold is_byte; lia
  end; try (vm_compute; first [reflexivity | discriminate | congruence]);
  try (vm_compute; split; first [reflexivity | discriminate | congruence]).

Lemma ex_msgs_ok : Forall ok_msg ex_msgs.
Proof.
  repeat constructor; cbn [ok_msg ok_atom fold_right set_int8 set_string set_true set_bndl set_timetag
    set_int32 set_double atom_fresh ex_inner]; okdec.
Qed.

(** * C11 *)

Lemma mod4_pad_str s : zlen (pad_str s) mod 4 = 0.
Proof. rewrite zlen_pad_str. lia. Qed.

Section ValueInd.
  Context (P : value -> Prop) (Q : message -> Prop).
  Let sub (v : value) : Prop := match v with VBundle ms => Forall Q ms | _ => True end.
  Context (HV : forall v, sub v -> P v).
  Context (HM : forall a vs, Forall P vs -> Q (M a vs)).
  Fixpoint value_ind2 (v : value) : P v :=
    HV v match v return sub v with
         | VBundle ms =>
             (fix go l := match l return Forall Q l with
                          | [] => Forall_nil _
                          | m :: l' => @Forall_cons _ Q m l' (message_ind2 m) (go l')
                          end) ms
         | VNum32 _ _ => I | VNum64 _ _ => I | VTime _ _ => I | VStr _ => I
         | VBlob _ => I | VFlag _ => I
         end
  with message_ind2 (m : message) : Q m :=
    match m with
    | M a vs => HM a vs
        ((fix go l := match l return Forall P l with
                      | [] => Forall_nil _
                      | v :: l' => @Forall_cons _ P v l' (value_ind2 v) (go l')
                      end) vs)
    end.
End ValueInd.

Lemma concat_mod4 {A} (f : A -> bytes) l :
  Forall (fun x => zlen (f x) mod 4 = 0) l -> zlen (concat (map f l)) mod 4 = 0.
Proof.
  induction 1 as [|x l Hx _ IH]; [reflexivity|]. cbn [map concat]. rewrite zlen_app. lia.
Qed.

Lemma enc_mod4 :
  (forall v, zlen (enc_value v) mod 4 = 0) /\ (forall m, zlen (enc_message m) mod 4 = 0).
Proof.
  assert (HV : forall v,
    match v with VBundle ms => Forall (fun m => zlen (enc_message m) mod 4 = 0) ms | _ => True end ->
    zlen (enc_value v) mod 4 = 0).
  { intros v H. destruct v; cbn [enc_value].
    - rewrite zlen_be. reflexivity.
    - rewrite zlen_be. reflexivity.
    - rewrite zlen_app, !zlen_be. reflexivity.
    - apply mod4_pad_str.
    - rewrite zlen_app, zlen_be, zlen_pad_blob. lia.
    - reflexivity.
    - rewrite zlen_sized, zlen_app. change (zlen empty_header) with 16.
      pose proof (concat_mod4 enc_message ms H). lia. }
  assert (HM : forall a vs, Forall (fun v => zlen (enc_value v) mod 4 = 0) vs ->
    zlen (enc_message (M a vs)) mod 4 = 0).
  { intros a vs H. cbn [enc_message]. rewrite zlen_sized, !zlen_app.
    pose proof (concat_mod4 enc_value vs H). pose proof (mod4_pad_str a).
    pose proof (mod4_pad_str (44 :: map vtag vs)). lia. }
  split; [exact (value_ind2 _ _ HV HM) | exact (message_ind2 _ _ HV HM)].
Qed.

Lemma enc_umsg_mod4 m : zlen (enc_umsg m) mod 4 = 0.
Proof.
  apply concat_mod4. apply Forall_forall. intros x _. apply (proj2 enc_mod4).
Qed.

Lemma enc_umsgs_mod4 ms : zlen (enc_umsgs ms) mod 4 = 0.
Proof. apply concat_mod4. apply Forall_forall. intros m _. apply enc_umsg_mod4. Qed.

(** The size-only pass succeeds; its result [n] is a multiple of four, and the
    writing pass given at least [n] bytes anywhere in memory reports [n] and
    changes exactly the first [n] bytes it was given. *)
Definition size_is_written (size : res Z) (run : bytes -> Z -> Z -> res (bytes * Z)) : Prop :=
  exists n, size = Ok n /\ n mod 4 = 0 /\ 0 <= n /\
    forall pre r1 r2 post, zlen r1 = n ->
      exists w, run (pre ++ (r1 ++ r2) ++ post) (zlen pre) (zlen (r1 ++ r2))
                = Ok (pre ++ (w ++ r2) ++ post, n) /\ zlen w = n.

Lemma size_is_written_intro e size run :
  size = Ok (zlen e) -> zlen e mod 4 = 0 -> Wr e run -> size_is_written size run.
Proof.
  intros Hs Hm HW. exists (zlen e). split; [exact Hs|split; [exact Hm|split; [apply zlen_nonneg|]]].
  intros pre r1 r2 post Hr. destruct (HW pre (r1 ++ r2) post) as (reg' & k & Hrun & _ & _ & Hfit).
  destruct Hfit as (-> & ->); [rewrite zlen_app; pose proof (zlen_nonneg r2); lia|].
  exists e. split; [|reflexivity]. rewrite Hrun. rewrite skipn_app.
  replace (length e) with (length r1) by (unfold zlen in Hr; lia).
  rewrite skipn_all, Nat.sub_diag. reflexivity.
Qed.

Theorem C11_atom a : ok_atom a -> size_is_written (atom_size a) (fun b o n => atom_nser b o n a).
Proof.
  intros H. eapply size_is_written_intro.
  - now apply (proj1 size_ok).
  - apply (proj1 enc_mod4).
  - now apply (proj1 write_ok).
Qed.
Print Assumptions C11_atom.

Theorem C11_message m : ok_msg m -> size_is_written (msg_size m) (fun b o n => msg_nser b o n m).
Proof.
  intros H. eapply size_is_written_intro.
  - now apply (proj2 size_ok).
  - apply enc_umsg_mod4.
  - now apply (proj2 write_ok).
Qed.
Print Assumptions C11_message.

Lemma bundle_Wr ms : Forall ok_msg ms ->
  Wr (empty_header ++ enc_umsgs ms) (fun b o n => bundle_nser b o n ms).
Proof.
  intros H. apply bundle_nser_ok. eapply Forall_impl; [|exact H]. exact (proj2 write_ok).
Qed.

Theorem C11_bundle ms : Forall ok_msg ms ->
  size_is_written (bundle_size ms) (fun b o n => bundle_nser b o n ms).
Proof.
  intros H. eapply (size_is_written_intro (empty_header ++ enc_umsgs ms)).
  - rewrite bundle_size_ok by assumption. now rewrite zlen_app.
  - rewrite zlen_app. change (zlen empty_header) with 16. pose proof (enc_umsgs_mod4 ms). lia.
  - now apply bundle_Wr.
Qed.
Print Assumptions C11_bundle.

Example C11_hypotheses : Forall ok_msg ex_msgs /\ bundle_size ex_msgs = Ok 144.
Proof. split; [exact ex_msgs_ok | vm_compute; reflexivity]. Qed.

(** * C12 *)

(** Serialization allocates exactly the reported size and fills all of it; the
    result is the OSC encoding of the messages, whatever the allocated memory
    contained before. *)
Theorem C12_bundle_encoding ms junk :
  Forall ok_msg ms -> zlen (enc_bundle empty_header (raw_msgs ms)) <= zlen junk ->
  bundle_serialize junk ms = Ok (enc_bundle empty_header (raw_msgs ms)).
Proof.
  intros H Hj. unfold enc_bundle in *. rewrite enc_umsgs_raw in *.
  unfold bundle_serialize. rewrite bundle_size_ok by assumption. cbn [bind].
  set (e := empty_header ++ enc_umsgs ms) in *.
  replace (16 + zlen (enc_umsgs ms)) with (zlen e) by (unfold e; now rewrite zlen_app).
  pose proof (zlen_nonneg e).
  assert (Hr : zlen (firstn (Z.to_nat (zlen e)) junk) = zlen e) by (apply zlen_firstn; lia).
  set (reg := firstn (Z.to_nat (zlen e)) junk) in *.
  destruct (bundle_Wr ms H [] reg []) as (reg' & k & Hrun & _ & _ & Hfit).
  cbn [app] in Hrun. rewrite !app_nil_r in Hrun. change (zlen (@nil Z)) with 0 in Hrun.
  rewrite Hr in Hrun. rewrite Hrun. cbn [bind]. fold e in Hfit.
  destruct Hfit as (_ & ->); [lia|].
  rewrite skipn_all2, app_nil_r; [reflexivity|]. unfold zlen in Hr. lia.
Qed.
Print Assumptions C12_bundle_encoding.

Theorem C12_message_encoding a args junk :
  ok_msg (UMsg (Some a) args) ->
  zlen (enc_message (M a (map raw_value args))) <= zlen junk ->
  msg_serialize junk (UMsg (Some a) args) = Ok (enc_message (M a (map raw_value args))).
Proof.
  intros H Hj.
  assert (He : enc_umsg (UMsg (Some a) args) = enc_message (M a (map raw_value args))).
  { unfold enc_umsg. cbn [raw_msg map concat]. apply app_nil_r. }
  unfold msg_serialize. rewrite (proj2 size_ok) by assumption. cbn [bind]. rewrite He.
  set (e := enc_message (M a (map raw_value args))) in *.
  pose proof (zlen_nonneg e).
  assert (Hr : zlen (firstn (Z.to_nat (zlen e)) junk) = zlen e) by (apply zlen_firstn; lia).
  set (reg := firstn (Z.to_nat (zlen e)) junk) in *.
  destruct (proj2 write_ok _ H [] reg []) as (reg' & k & Hrun & _ & _ & Hfit).
  cbn [app] in Hrun. rewrite !app_nil_r in Hrun. change (zlen (@nil Z)) with 0 in Hrun.
  rewrite Hr in Hrun. rewrite Hrun. cbn [bind]. rewrite He in Hfit.
  destruct Hfit as (_ & ->); [lia|].
  rewrite skipn_all2, app_nil_r; [reflexivity|]. unfold zlen in Hr. lia.
Qed.
Print Assumptions C12_message_encoding.

(** The numbers in the encoding are the numbers that were set, provided no
    unrelated bits were left in the atom: *)
Corollary C12_bundle_content ms junk :
  Forall ok_msg ms -> content ms = raw_msgs ms ->
  zlen (enc_bundle empty_header (content ms)) <= zlen junk ->
  bundle_serialize junk ms = Ok (enc_bundle empty_header (content ms)).
Proof. intros H Hc. rewrite Hc. now apply C12_bundle_encoding. Qed.
Print Assumptions C12_bundle_content.

(** which is so for every atom that was set once after its allocation. *)
Theorem C12_setters v :
  raw_value (set_int8 atom_fresh v) = VNum32 99 (v mod 2^8) /\
  raw_value (set_uint8 atom_fresh v) = VNum32 67 (v mod 2^8) /\
  raw_value (set_int16 atom_fresh v) = VNum32 117 (v mod 2^16) /\
  raw_value (set_uint16 atom_fresh v) = VNum32 85 (v mod 2^16) /\
  raw_value (set_int32 atom_fresh v) = VNum32 105 (v mod 2^32) /\
  raw_value (set_uint32 atom_fresh v) = VNum32 73 (v mod 2^32) /\
  raw_value (set_float atom_fresh v) = VNum32 102 (v mod 2^32) /\
  raw_value (set_int64 atom_fresh v) = VNum64 104 (v mod 2^64) /\
  raw_value (set_uint64 atom_fresh v) = VNum64 72 (v mod 2^64) /\
  raw_value (set_double atom_fresh v) = VNum64 100 (v mod 2^64) /\
  (forall f, raw_value (set_timetag atom_fresh (TT v f)) = VTime (v mod 2^32) (f mod 2^32)) /\
  raw_value (set_true atom_fresh) = VFlag 84 /\
  raw_value (set_false atom_fresh) = VFlag 70 /\
  raw_value (set_nil atom_fresh) = VFlag 78.
Proof.
  unfold atom_fresh, set_int8, set_uint8, set_int16, set_uint16, set_int32, set_uint32, set_float,
    set_int64, set_uint64, set_double, set_timetag, set_true, set_false, set_nil, store, u32.
  cbn [raw_value existsb Z.eqb Pos.eqb orb sec frac].
  repeat split; intros; f_equal; try lia.
Qed.
Print Assumptions C12_setters.

(** In general a setter on a used atom leaves other bits in place, and for the
    8 and 16 bit types these are sent: *)
Theorem C12_stale_bits_refuted :
  exists a v, ok_atom a /\ 0 <= v < 128 /\
    raw_value (set_int8 a v) <> VNum32 99 v /\
    enc_value (raw_value (set_int8 a v)) <> be_bytes 4 v.
Proof.
  exists (set_int32 atom_fresh 16909060), 5. split; [cbn; lia|]. split; [lia|].
  split; vm_compute; discriminate.
Qed.
Print Assumptions C12_stale_bits_refuted.

Example C12_hypotheses :
  Forall ok_msg ex_msgs /\ content ex_msgs = raw_msgs ex_msgs /\
  bundle_serialize (repeat 77 144) ex_msgs = Ok (enc_bundle empty_header (content ex_msgs)).
Proof.
  split; [exact ex_msgs_ok|]. split; [vm_compute; reflexivity|].
  apply C12_bundle_content; [exact ex_msgs_ok | vm_compute; reflexivity | vm_compute; discriminate].
Qed.

(** * C14 *)

(** Whatever the object and however small [n]: the call is defined, nothing
    outside the [n] bytes given changes (they may be the whole allocation: [post]
    may be empty), and the reported size is at most [n]. *)
Definition stays_inside (run : bytes -> Z -> Z -> res (bytes * Z)) : Prop :=
  forall pre region post, exists region' k,
    run (pre ++ region ++ post) (zlen pre) (zlen region) = Ok (pre ++ region' ++ post, k) /\
    zlen region' = zlen region /\ 0 <= k <= zlen region.

Lemma Wr_inside e run : Wr e run -> stays_inside run.
Proof.
  intros H pre reg post. destruct (H pre reg post) as (r & k & H1 & H2 & H3 & _).
  exists r, k. auto.
Qed.

Theorem C14_atom a : ok_atom a -> stays_inside (fun b o n => atom_nser b o n a).
Proof. intros H. eapply Wr_inside. now apply (proj1 write_ok). Qed.
Print Assumptions C14_atom.

Theorem C14_message m : ok_msg m -> stays_inside (fun b o n => msg_nser b o n m).
Proof. intros H. eapply Wr_inside. now apply (proj2 write_ok). Qed.
Print Assumptions C14_message.

Theorem C14_bundle ms : Forall ok_msg ms -> stays_inside (fun b o n => bundle_nser b o n ms).
Proof. intros H. eapply Wr_inside. now apply bundle_Wr. Qed.
Print Assumptions C14_bundle.

(** The length restriction in [ok_atom] is needed: the padded length of a
    string of 2^32-4 characters is computed as 0, and the string is copied into
    a buffer of any size. *)
Theorem C14_long_string_refuted s w :
  zlen s = 2^32 - 4 -> atom_nser [] 0 0 (Atom 115 w (PStr s)) = Ub OOB.
Proof.
  intros H. cbn [atom_nser Z.eqb Pos.eqb is_int32_tag orb]. rewrite H.
  change (padding_for_nbytes (2^32 - 4)) with 0. cbn [Z.geb Z.compare].
  change (memset0 [] 0 0) with (@Ok bytes []). cbn [bind]. unfold write. rewrite H. reflexivity.
Qed.
Print Assumptions C14_long_string_refuted.

(** A bundle that does not fit is replaced by the eight bytes of its own
    address (the code falls through to the time tag case). *)
Example C14_bundle_fallthrough :
  atom_nser (repeat 0 8) 0 8 (set_bndl atom_fresh 4660 []) = Ok ([0; 0; 18; 52; 0; 0; 0; 0], 8).
Proof. vm_compute. reflexivity. Qed.

Example C14_hypotheses :
  Forall ok_msg ex_msgs /\
  exists b, bundle_nser (repeat 9 58) 0 58 ex_msgs = Ok (b, 44).
Proof. split; [exact ex_msgs_ok|]. eexists. vm_compute. reflexivity. Qed.
