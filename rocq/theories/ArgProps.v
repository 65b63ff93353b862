(** C18: access to the arguments of serialized messages. *)

From Coq Require Import ZArith List Bool Lia.
From Verif Require Import Base BaseProofs Bytes Text UtilModel UtilProofs TimetagModel
  WireSpec SerialModel SerialSpec SerialProofs SerialProps WireModel WireProofs WireWalk
  ArgProofs WireProps.
Import ListNotations.
Open Scope Z_scope.

(** The atom [a] gives access to the value [v]: its type tag, and the value's
    encoding at the place it points to. *)
Definition shows_value (buf : bytes) (a : atom_s) (v : value) : Prop :=
  as_tt a = vtag v /\ slice buf (as_data a) (zlen (enc_value v)) = Ok (enc_value v).

(** A structure [m] that was initialised and then wrapped around the message:
    the count, the type tags and the arguments are those of the message, and
    beyond the last one there is nothing. *)
Definition gives_access (buf : bytes) (m : msg_s) (vs : list value) : Prop :=
  get_arg_count buf m = Ok (zlen vs) /\
  (forall n v, nth_error vs n = Some v ->
     get_typetag buf m (Z.of_nat n) = Ok (vtag v) /\
     exists a, get_arg buf m (Z.of_nat n) = Ok (Some a) /\ shows_value buf a v) /\
  (forall n, zlen vs <= n -> get_typetag buf m n = Ok 0 /\ get_arg buf m n = Ok None).

(** The arguments the message iterator hands out. *)
Definition iterate_args (buf : bytes) (m : msg_s) : res (lres (list atom_s) unit) :=
  msg_loop buf m (fun acc a => Ok (Cont (acc ++ [a]))) [].

Lemma over_atoms_collect l : forall acc : list atom_s,
  over_atoms (fun acc a => Ok (@Cont _ unit (acc ++ [a]))) acc l = Ok (Cont (acc ++ l)).
Proof.
  induction l as [|v vs IH]; intros acc; cbn [over_atoms bind]; [now rewrite app_nil_r|].
  rewrite IH. now rewrite <- app_assoc.
Qed.

Section C18.
Context (P post : bytes) (a : list Z) (vs : list value).
Hypothesis Hstd : std_message any (M a vs).
Hypothesis Hlen : zlen (enc_message (M a vs)) < 2^31.
Let buf := P ++ enc_message (M a vs) ++ post.
Let m := wrapped init_msg (zlen P) (wm_of (M a vs)).

Lemma access_slice d0 P0 n v : buf = P0 ++ concat (map enc_value vs) ++ post -> d0 = zlen P0 ->
  nth_error vs n = Some v -> shows_value buf (AS (d0 + off vs n) (vtag v)) v.
Proof.
  intros Hb -> Hn. split; [reflexivity|]. cbn [as_data].
  destruct (off_split buf vs post P0 Hb n v Hn) as (post' & Hb' & _).
  rewrite Hb'. unfold off. rewrite <- zlen_app. apply slice_app.
Qed.

Lemma wrapped_access : gives_access buf m vs /\
  exists mc, cache_data_offsets buf m = Ok mc /\ gives_access buf mc vs /\
    (forall n, 0 <= n -> get_arg buf mc n = get_arg buf m n) /\
    exists l, iterate_args buf m = Ok (Cont l) /\ iterate_args buf mc = Ok (Cont l) /\
      Forall2 (shows_value buf) l vs.
Proof.
  destruct (wrapped_args P a vs post init_msg Hstd Hlen) as
    (t & P0 & Ht & Hd & Htags & Htag & Hbuf & Hs & Hl & Hn & Hfuel).
  fold buf in Htags, Htag, Hbuf, Hfuel. fold m in Ht, Hd.
  assert (Hmc : ms_cache_size m = 0) by reflexivity.
  set (d := zlen P0) in *.
  assert (Hcount : get_arg_count buf m = Ok (zlen vs)) by now apply (arg_count buf m t vs).
  assert (Htg : forall n v, nth_error vs n = Some v -> get_typetag buf m (Z.of_nat n) = Ok (vtag v))
    by (intros; eapply typetag_in; eauto).
  assert (Hto : forall n, zlen vs <= n -> get_typetag buf m n = Ok 0)
    by (intros; eapply typetag_out; eauto).
  assert (Harg : forall n v, nth_error vs n = Some v ->
    get_arg buf m (Z.of_nat n) = Ok (Some (AS (d + off vs n) (vtag v))))
    by (intros; eapply get_arg_in; eauto).
  assert (Hao : forall n, zlen vs <= n -> get_arg buf m n = Ok None)
    by (intros; eapply get_arg_out; eauto).
  assert (Hcache := cache_ok buf m t d vs post Ht Hd Htags Htag P0 Hbuf eq_refl Hs Hl Hn).
  set (mc := MS _ _ _ _ _ _ _) in Hcache.
  assert (Hcc : get_arg_count buf mc = Ok (zlen vs)) by exact Hcount.
  assert (Hct : forall n, get_typetag buf mc n = get_typetag buf m n) by reflexivity.
  assert (Hca : forall n, 0 <= n -> get_arg buf mc n = get_arg buf m n).
  { intros n H0. destruct (Z.leb_spec (zlen vs) n) as [Hge|Hlt].
    - rewrite Hao by assumption. unfold get_arg. rewrite Hcc. cbn [bind].
      destruct (zlen vs <=? n) eqn:E; [reflexivity|lia].
    - destruct (nth_error vs (Z.to_nat n)) as [v|] eqn:Ev; [|apply nth_error_None in Ev; unfold zlen in Hlt; lia].
      rewrite <- (Z2Nat.id n) by assumption. rewrite (Harg _ _ Ev).
      unfold get_arg. rewrite Hcc. cbn [bind]. rewrite Z2Nat.id by assumption.
      destruct (zlen vs <=? n) eqn:E; [lia|]. rewrite Hct.
      rewrite <- (Z2Nat.id n) by assumption. rewrite (Htg _ _ Ev). cbn [bind].
      unfold mc. cbn [ms_data ms_cache_size ms_offset_cache]. rewrite Hd.
      destruct (zlen vs =? 0) eqn:E0; [lia|]. cbn [negb].
      erewrite offsets_nth by eauto. cbn [bind]. now rewrite !Nat2Z.id. }
  assert (Hbody : gives_access buf m vs).
  { split; [exact Hcount|]. split.
    - intros n v Hv. split; [now apply Htg|]. exists (AS (d + off vs n) (vtag v)). split; [exact (Harg n v Hv)|].
      now apply (access_slice d P0).
    - intros n Hge. split; [now apply Hto|now apply Hao]. }
  split; [exact Hbody|]. exists mc. split; [exact Hcache|]. split; [|split; [exact Hca|]].
  - destruct Hbody as (B1 & B2 & B3). split; [exact Hcc|]. split.
    + intros n v Hv. rewrite Hct, Hca by lia. now apply B2.
    + intros n Hge. rewrite Hct, Hca by (pose proof (zlen_nonneg vs); lia). now apply B3.
  - exists (atoms d vs). unfold iterate_args. split; [|split].
    + rewrite (msg_loop_atoms buf m t d vs post Ht Hd Htags Htag P0 Hbuf eq_refl Hs Hl Hn m); auto.
      apply over_atoms_collect.
    + rewrite (msg_loop_atoms buf m t d vs post Ht Hd Htags Htag P0 Hbuf eq_refl Hs Hl Hn mc); auto.
      apply over_atoms_collect.
    + unfold atoms.
      assert (Hgen : forall k i, (i + k = length vs)%nat ->
        Forall2 (shows_value buf) (map (fun n => AS (d + off vs n) (vtag (nth n vs (VFlag 0)))) (seq i k))
          (skipn i vs)).
      { induction k as [|k IH]; intros i Hi; cbn [seq map].
        - rewrite skipn_all2 by lia. constructor.
        - destruct (nth_error vs i) as [v|] eqn:Ev; [|apply nth_error_None in Ev; lia].
          destruct (nth_split_at vs i v Ev) as [_ Hsk].
          rewrite Hsk, (nth_error_nth vs i (VFlag 0) Ev). constructor.
          + now apply (access_slice d P0).
          + apply IH. lia. }
      exact (Hgen (length vs) 0%nat eq_refl).
Qed.
End C18.

(** For a message with any supported arguments, anywhere in memory: after
    wrapping, count, type tags and arguments are those of the message; caching
    the offsets succeeds and changes nothing; the iterator yields the arguments
    once each, in order, with and without the cache. *)
Theorem C18_argument_access P a vs post :
  std_message any (M a vs) -> zlen (enc_message (M a vs)) < 2^31 ->
  let buf := P ++ enc_message (M a vs) ++ post in
  exists m mc, wrap init_msg buf (zlen P) = Ok m /\ cache_data_offsets buf m = Ok mc /\
    gives_access buf m vs /\ gives_access buf mc vs /\
    (forall n, 0 <= n -> get_arg buf mc n = get_arg buf m n) /\
    exists l, iterate_args buf m = Ok (Cont l) /\ iterate_args buf mc = Ok (Cont l) /\
      Forall2 (shows_value buf) l vs.
Proof.
  intros Hs Hl buf. destruct (wrapped_access P post a vs Hs Hl) as (H1 & mc & H2 & H3 & H4 & H5).
  exists (wrapped init_msg (zlen P) (wm_of (M a vs))), mc.
  split; [|auto 6]. unfold buf. rewrite enc_message_wm. apply wrap_ok.
  now apply (std_wf any).
Qed.
Print Assumptions C18_argument_access.

Example C18_hypotheses :
  let msg := M (str "/a") [VNum32 105 7; VStr (str "abc"); VBundle [M (str "/x") [VFlag 84]]; VNum64 100 9] in
  std_message any msg /\ zlen (enc_message msg) < 2^31.
Proof.
  split; [|vm_compute; reflexivity].
  cbn. unfold any, nonul, wf_bytes, is_byte. repeat split; auto 12; try lia;
    repeat constructor; try discriminate; try lia.
Qed.

(** A cached structure that is wrapped around another message keeps the old
    offsets: the second message's arguments are then read at the first one's
    offsets. *)
Definition c18_first : message := M (str "/a") [VNum32 105 1; VNum32 105 2].
Definition c18_second : message := M (str "/b") [VNum64 104 1; VNum32 105 2].

Theorem C18_stale_cache_refuted :
  exists m1 m2 m3,
    let buf := enc_message c18_first ++ enc_message c18_second in
    wrap init_msg buf 0 = Ok m1 /\ cache_data_offsets buf m1 = Ok m2 /\
    wrap m2 buf (zlen (enc_message c18_first)) = Ok m3 /\
    exists x, get_arg buf m3 1 = Ok (Some x) /\ ~ shows_value buf x (VNum32 105 2).
Proof.
  do 3 eexists. cbv zeta.
  split; [vm_compute; reflexivity|]. split; [vm_compute; reflexivity|].
  split; [vm_compute; reflexivity|]. eexists. split; [vm_compute; reflexivity|].
  intros [_ H]. revert H. vm_compute. discriminate.
Qed.
Print Assumptions C18_stale_cache_refuted.

(** Index -1 is not refused: it yields the comma and the first argument's
    data without the cache, and reads before the cache with it. *)
Theorem C18_negative_index_refuted :
  exists m1 m2,
    let buf := enc_message c18_first in
    wrap init_msg buf 0 = Ok m1 /\ cache_data_offsets buf m1 = Ok m2 /\
    get_typetag buf m1 (-1) = Ok 44 /\ get_arg buf m2 (-1) = Ub OOB.
Proof.
  do 2 eexists. cbv zeta.
  split; [vm_compute; reflexivity|]. split; [vm_compute; reflexivity|].
  split; vm_compute; reflexivity.
Qed.
Print Assumptions C18_negative_index_refuted.
