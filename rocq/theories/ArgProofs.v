(** The arguments of a serialized message. *)

From Coq Require Import ZArith List Bool Lia.
From Verif Require Import Base BaseProofs Bytes UtilModel UtilProofs TimetagModel
  WireSpec SerialModel SerialSpec SerialProofs SerialProps WireModel WireProofs WireWalk.
Import ListNotations.
Open Scope Z_scope.

Definition any (_ : list Z) : Prop := True.

Lemma std_args Q a vs : std_message Q (M a vs) <->
  nonul a /\ wf_bytes a /\ Q a /\ Forall (std_value Q) vs.
Proof. cbn [std_message]. rewrite all_Forall. tauto. Qed.

Lemma std_bundle Q ms : std_value Q (VBundle ms) <-> Forall (std_message Q) ms.
Proof. cbn [std_value]. apply all_Forall. Qed.

(** osc_sizeof agrees with the encoding. *)
Lemma sizeof_ok Q v P post : std_value Q v -> zlen (enc_value v) < 2^31 ->
  osc_sizeof (vtag v) (P ++ enc_value v ++ post) (zlen P) = Ok (zlen (enc_value v)).
Proof.
  intros Hv Hl. unfold osc_sizeof. destruct v; cbn [vtag enc_value] in *.
  - destruct Hv as [Ht _]. rewrite zlen_be.
    repeat destruct Ht as [<-|Ht]; try reflexivity. destruct Ht.
  - destruct Hv as [Ht _]. rewrite zlen_be.
    repeat destruct Ht as [<-|Ht]; try reflexivity. destruct Ht.
  - rewrite zlen_app, !zlen_be. reflexivity.
  - destruct Hv as [Hn _]. cbn [Z.gtb Z.compare Pos.compare Pos.compare_cont Z.eqb Pos.eqb orb].
    rewrite rdstr_pad by assumption. cbn [bind]. f_equal. apply padded_pad_str.
    rewrite zlen_pad_str in Hl. lia.
  - cbn [Z.gtb Z.compare Pos.compare Pos.compare_cont Z.eqb Pos.eqb orb].
    rewrite zlen_app, zlen_be, zlen_pad_blob in *. pose proof (zlen_nonneg d).
    rewrite <- app_assoc, rd32_be. cbn [bind]. unfold u32. rewrite Z.mod_small by lia.
    rewrite blob_length_eq by lia. f_equal.
  - repeat destruct Hv as [<-|Hv]; try reflexivity. destruct Hv.
  - cbn [Z.gtb Z.compare Pos.compare Pos.compare_cont Z.eqb Pos.eqb orb].
    set (b := empty_header ++ _) in *. rewrite zlen_sized' in *. pose proof (zlen_nonneg b).
    rewrite size_at by lia. cbn [bind]. unfold u32. rewrite Z.mod_small by lia. f_equal. lia.
Qed.

Lemma std_tag Q v : std_value Q v -> vtag v <> 0 /\ is_byte (vtag v).
Proof.
  unfold is_byte. destruct v; cbn [vtag std_value]; intros H; try lia.
  - destruct H as [H _]. repeat destruct H as [<-|H]; try lia. destruct H.
  - destruct H as [H _]. repeat destruct H as [<-|H]; try lia. destruct H.
  - repeat destruct H as [<-|H]; try lia. destruct H.
Qed.

Lemma std_tags Q vs : Forall (std_value Q) vs -> nonul (44 :: map vtag vs).
Proof.
  intros H. constructor; [discriminate|]. rewrite Forall_map. eapply Forall_impl; [|exact H].
  intros v Hv. now apply (std_tag Q).
Qed.

Lemma std_wf Q m : std_message Q m -> zlen (enc_message m) < 2^31 -> wf_wmsg (wm_of m).
Proof.
  destruct m as [a vs]. intros H Hl. apply std_args in H as (Ha & _ & _ & Hv).
  rewrite enc_message_wm in Hl. unfold enc_wmsg in Hl. rewrite zlen_sized' in Hl.
  unfold wf_wmsg. cbn [wm_of w_addr w_args]. split; [assumption|]. split; [now apply (std_tags Q)|].
  cbn [wm_of] in Hl. lia.
Qed.

Lemma nth_split_at {A} (l : list A) n v : nth_error l n = Some v ->
  firstn (S n) l = firstn n l ++ [v] /\ skipn n l = v :: skipn (S n) l.
Proof.
  revert l. induction n as [|n IH]; intros [|x l] H; try discriminate; cbn [nth_error] in H.
  - injection H as ->. now split.
  - apply IH in H as [H1 H2]. split; [|exact H2].
    change (firstn (S (S n)) (x :: l)) with (x :: firstn (S n) l). rewrite H1. reflexivity.
Qed.

(** The buffer around the data of the arguments: [T] is everything before,
    and the type tag string is at [t]. *)
Section Args.
Variables (buf : bytes) (m : msg_s) (t d : Z) (vs : list value) (post : bytes).
Hypothesis Ht : ms_typetags m = Some t.
Hypothesis Hd : ms_data m = Some d.
Hypothesis Htags : rdstr buf t = Ok (44 :: map vtag vs).
Hypothesis Htag : forall n v, nth_error vs n = Some v -> rd buf (t + Z.of_nat n + 1) = Ok (vtag v).
Variable P0 : bytes.
Hypothesis Hbuf : buf = P0 ++ concat (map enc_value vs) ++ post.
Hypothesis HP0 : d = zlen P0.
Hypothesis Hstd : Forall (std_value any) vs.
Hypothesis Hlen : zlen (concat (map enc_value vs)) < 2^31.
Hypothesis Hn : zlen vs < 2^31.

Lemma arg_count : get_arg_count buf m = Ok (zlen vs).
Proof.
  unfold get_arg_count. rewrite Ht, Htags. cbn [bind]. zl. rewrite zlen_map.
  pose proof (zlen_nonneg vs). rewrite s32_id by lia. f_equal. lia.
Qed.

Lemma typetag_in n v : nth_error vs n = Some v -> get_typetag buf m (Z.of_nat n) = Ok (vtag v).
Proof.
  intros H. unfold get_typetag. rewrite arg_count. cbn [bind].
  assert (n < length vs)%nat by (apply nth_error_Some; congruence).
  destruct (zlen vs <=? Z.of_nat n) eqn:E; [unfold zlen in E; lia|].
  rewrite Ht. now apply Htag.
Qed.

Lemma typetag_out n : zlen vs <= n -> get_typetag buf m n = Ok 0.
Proof.
  intros H. unfold get_typetag. rewrite arg_count. cbn [bind].
  destruct (zlen vs <=? n) eqn:E; [reflexivity|lia].
Qed.

(** Offset of argument [n]. *)
Definition off (n : nat) : Z := zlen (concat (map enc_value (firstn n vs))).

Lemma split_arg n v : nth_error vs n = Some v ->
  vs = firstn n vs ++ v :: skipn (S n) vs.
Proof.
  intros H. rewrite <- (firstn_skipn n vs) at 1. f_equal. now apply nth_split_at.
Qed.

Lemma off_split n v : nth_error vs n = Some v ->
  exists post', buf = (P0 ++ concat (map enc_value (firstn n vs))) ++ enc_value v ++ post' /\
    off n + zlen (enc_value v) <= zlen (concat (map enc_value vs)) /\
    off (S n) = off n + zlen (enc_value v).
Proof using Hbuf.
  clear - Hbuf.
  intros H. pose proof (split_arg n v H) as Hs.
  exists (concat (map enc_value (skipn (S n) vs)) ++ post). split.
  - rewrite Hbuf. rewrite Hs at 1. rewrite map_app, concat_app. cbn [map concat].
    now rewrite <- !app_assoc.
  - unfold off. split.
    + rewrite Hs at 2. rewrite map_app, concat_app. cbn [map concat]. zl.
      pose proof (zlen_nonneg (concat (map enc_value (skipn (S n) vs)))). lia.
    + destruct (nth_split_at vs n v H) as [Hf _].
      rewrite Hf, map_app, concat_app. cbn [map concat]. zl. lia.
Qed.

Lemma sizeof_arg n v : nth_error vs n = Some v ->
  osc_sizeof (vtag v) buf (d + off n) = Ok (zlen (enc_value v)).
Proof.
  intros H. destruct (off_split n v H) as (post' & Hb & Hle & _).
  rewrite Hb, HP0. unfold off. rewrite <- zlen_app.
  apply (sizeof_ok any).
  - rewrite Forall_forall in Hstd. apply Hstd. eapply nth_error_In; eauto.
  - pose proof (zlen_nonneg (concat (map enc_value (firstn n vs)))). unfold off in Hle. lia.
Qed.

Lemma off_nonneg n : 0 <= off n.
Proof. apply zlen_nonneg. Qed.

Lemma off_bound n : off n <= zlen (concat (map enc_value vs)).
Proof.
  unfold off. rewrite <- (firstn_skipn n vs) at 2. rewrite map_app, concat_app. zl.
  pose proof (zlen_nonneg (concat (map enc_value (skipn n vs)))). lia.
Qed.

Lemma skip_args_ok k : forall i, (i + k <= length vs)%nat ->
  skip_args buf m d k (Z.of_nat i) (off i) = Ok (off (i + k)).
Proof.
  induction k as [|k IH]; intros i Hi; cbn [skip_args].
  - now rewrite Nat.add_0_r.
  - destruct (nth_error vs i) as [v|] eqn:Ev; [|apply nth_error_None in Ev; lia].
    rewrite (typetag_in i v Ev). cbn [bind]. rewrite (sizeof_arg i v Ev). cbn [bind].
    destruct (off_split i v Ev) as (_ & _ & Hle & HS).
    pose proof (off_nonneg i). pose proof (zlen_nonneg (enc_value v)).
    rewrite s32_id by lia. rewrite <- HS. replace (Z.of_nat i + 1) with (Z.of_nat (S i)) by lia.
    rewrite IH by lia. f_equal. f_equal. lia.
Qed.

Lemma get_arg_in n v : ms_cache_size m = 0 -> nth_error vs n = Some v ->
  get_arg buf m (Z.of_nat n) = Ok (Some (AS (d + off n) (vtag v))).
Proof.
  intros Hc Hv. unfold get_arg. rewrite arg_count. cbn [bind].
  assert (n < length vs)%nat by (apply nth_error_Some; congruence).
  destruct (zlen vs <=? Z.of_nat n) eqn:E; [unfold zlen in E; lia|].
  rewrite (typetag_in n v Hv). cbn [bind]. rewrite Hd, Hc. cbn [Z.eqb negb].
  rewrite Nat2Z.id. pose proof (skip_args_ok n 0 ltac:(lia)) as Hs.
  change (Z.of_nat 0) with 0 in Hs. change (off 0) with 0 in Hs. rewrite Hs. reflexivity.
Qed.

Lemma get_arg_out n : zlen vs <= n -> get_arg buf m n = Ok None.
Proof.
  intros H. unfold get_arg. rewrite arg_count. cbn [bind].
  destruct (zlen vs <=? n) eqn:E; [reflexivity|lia].
Qed.

(** The cache. *)
Definition offsets : list Z := map off (seq 0 (length vs)).
Definition sizes : list Z := map (fun v => zlen (enc_value v)) vs.

Lemma cache_loop_ok k : forall i, (i + k <= length vs)%nat ->
  cache_loop buf m d k (Z.of_nat i) (off i)
  = Ok (map off (seq i k), map (fun v => zlen (enc_value v)) (firstn k (skipn i vs))).
Proof.
  induction k as [|k IH]; intros i Hi; cbn [cache_loop]; [reflexivity|].
  destruct (nth_error vs i) as [v|] eqn:Ev; [|apply nth_error_None in Ev; lia].
  rewrite (typetag_in i v Ev). cbn [bind]. rewrite (sizeof_arg i v Ev). cbn [bind].
  destruct (off_split i v Ev) as (_ & _ & Hle & HS).
  pose proof (off_nonneg i). pose proof (zlen_nonneg (enc_value v)).
  rewrite (s32_id (zlen (enc_value v))) by lia. rewrite s32_id by lia. rewrite <- HS.
  replace (Z.of_nat i + 1) with (Z.of_nat (S i)) by lia.
  rewrite IH by lia. cbn [bind seq map].
  destruct (nth_split_at vs i v Ev) as [_ Hsk].
  rewrite Hsk. cbn [firstn map]. reflexivity.
Qed.

Lemma cache_ok : cache_data_offsets buf m
  = Ok (MS (ms_size m) (ms_address m) (ms_typetags m) (ms_data m) (zlen vs) offsets sizes).
Proof.
  unfold cache_data_offsets. rewrite arg_count. cbn [bind]. rewrite Hd.
  replace (Z.to_nat (zlen vs)) with (length vs) by (unfold zlen; lia).
  pose proof (cache_loop_ok (length vs) 0 ltac:(lia)) as Hc.
  change (Z.of_nat 0) with 0 in Hc. change (off 0) with 0 in Hc. rewrite Hc. cbn [bind].
  cbn [skipn]. rewrite firstn_all. reflexivity.
Qed.

(** The atoms in order. *)
Definition atoms : list atom_s :=
  map (fun n => AS (d + off n) (vtag (nth n vs (VFlag 0)))) (seq 0 (length vs)).

Lemma sizes_nth n v : nth_error vs n = Some v -> rd sizes (Z.of_nat n) = Ok (zlen (enc_value v)).
Proof.
  intros H. unfold rd, sizes. rewrite (proj2 (Z.ltb_ge (Z.of_nat n) 0)) by apply Nat2Z.is_nonneg. rewrite Nat2Z.id.
  rewrite nth_error_map, H. reflexivity.
Qed.

Lemma offsets_nth n v : nth_error vs n = Some v -> rd offsets (Z.of_nat n) = Ok (off n).
Proof using vs.
  clear - vs.
  intros H. assert (n < length vs)%nat by (apply nth_error_Some; congruence).
  unfold rd, offsets. rewrite (proj2 (Z.ltb_ge (Z.of_nat n) 0)) by apply Nat2Z.is_nonneg. rewrite Nat2Z.id.
  rewrite nth_error_map. rewrite (nth_error_nth' _ 0%nat) by (rewrite seq_length; lia).
  rewrite seq_nth by lia. reflexivity.
Qed.

(** Running a body over the atoms. *)
Fixpoint over_atoms {S R} (body : S -> atom_s -> res (lres S R)) (s : S) (l : list atom_s) : res (lres S R) :=
  match l with
  | [] => Ok (Cont s)
  | a :: l' => do r <- body s a; match r with Cont s' => over_atoms body s' l' | Done x => Ok (Done x) end
  end.

(** [mm] is [m], with or without the cache. *)
Lemma msg_steps {S R} (mm : msg_s) (body : S -> atom_s -> res (lres S R)) :
  ms_typetags mm = ms_typetags m ->
  (ms_cache_size mm = 0 \/ (ms_cache_size mm = zlen vs /\ ms_size_cache mm = sizes)) ->
  forall k i s, (i + k = length vs)%nat ->
  loopn (fun st : mit * S =>
           let (it, s) := st in
           run (do more <- mit_has_next buf mm it;
                if negb more then Ok (Done (Cont s)) else
                do ' (a, it') <- mit_next buf mm it;
                match a with
                | None => Ub NullDeref
                | Some a =>
                    do r <- body s a;
                    match r with Cont s' => Ok (Cont (it', s')) | Done x => Ok (Done (Done x)) end
                end)) (Datatypes.S k) ((Z.of_nat i, Some (d + off i)), s)
  = Done (over_atoms body s
      (map (fun n => AS (d + off n) (vtag (nth n vs (VFlag 0)))) (seq i k))).
Proof.
  intros Hmt Hmc.
  assert (Htt : forall n, get_typetag buf mm n = get_typetag buf m n).
  { intros n. unfold get_typetag, get_arg_count. now rewrite Hmt. }
  induction k as [|k IH]; intros i s Hi.
  - cbn [loopn seq map over_atoms]. unfold mit_has_next. cbn [fst].
    rewrite Htt, typetag_out by (unfold zlen; lia). reflexivity.
  - destruct (nth_error vs i) as [v|] eqn:Ev; [|apply nth_error_None in Ev; lia].
    remember (Datatypes.S k) as sk eqn:Esk. cbn [loopn]. subst sk. cbn [seq map over_atoms].
    unfold mit_has_next, mit_next. cbn [fst]. rewrite Htt, (typetag_in i v Ev). cbn [bind].
    assert (Hv : std_value any v) by (rewrite Forall_forall in Hstd; apply Hstd; eapply nth_error_In; eauto).
    destruct (std_tag any v Hv) as [Hnz _].
    destruct (vtag v =? 0) eqn:E0; [lia|]. cbn [negb].
    assert (Hsz : (if negb (ms_cache_size mm =? 0) then rd (ms_size_cache mm) (Z.of_nat i)
                   else osc_sizeof (vtag v) buf (d + off i)) = Ok (zlen (enc_value v))).
    { destruct Hmc as [->|[-> ->]].
      - cbn [Z.eqb negb]. now apply sizeof_arg.
      - destruct (zlen vs =? 0) eqn:Ez; cbn [negb]; [now apply sizeof_arg|now apply sizes_nth]. }
    rewrite Hsz. cbn [bind].
    rewrite (nth_error_nth vs i (VFlag 0) Ev).
    destruct (body s (AS (d + off i) (vtag v))) as [[s'|x]|u|]; cbn [bind run]; try reflexivity.
    destruct (off_split i v Ev) as (_ & _ & Hle & HS).
    pose proof (off_nonneg i). pose proof (zlen_nonneg (enc_value v)).
    assert (Hs64 : s64 (zlen (enc_value v)) = zlen (enc_value v)).
    { unfold s64. rewrite Z.mod_small by lia. lia. }
    rewrite Hs64. replace (d + off i + zlen (enc_value v)) with (d + off (Datatypes.S i)) by lia.
    replace (Z.of_nat i + 1) with (Z.of_nat (Datatypes.S i)) by lia.
    apply IH. lia.
Qed.

Lemma msg_loop_atoms {S R} (mm : msg_s) (body : S -> atom_s -> res (lres S R)) s :
  ms_typetags mm = ms_typetags m -> ms_data mm = ms_data m ->
  (ms_cache_size mm = 0 \/ (ms_cache_size mm = zlen vs /\ ms_size_cache mm = sizes)) ->
  zlen vs <= zlen buf ->
  msg_loop buf mm body s = over_atoms body s atoms.
Proof.
  intros H1 H2 H3 Hle. unfold msg_loop, mit_get. rewrite H2, Hd.
  eapply while_loopn.
  - pose proof (msg_steps mm body H1 H3 (length vs) 0 s eq_refl) as Hs.
    change (Z.of_nat 0) with 0 in Hs. change (off 0) with 0 in Hs. rewrite Z.add_0_r in Hs. exact Hs.
  - unfold walk_fuel. pose proof (zlen_nonneg buf). rewrite Z2Pos.id by lia. unfold zlen in *. lia.
Qed.
End Args.

(** The hypotheses of the section hold for a wrapped message. *)
Lemma wrapped_args P a vs post m0 :
  std_message any (M a vs) -> zlen (enc_message (M a vs)) < 2^31 ->
  let buf := P ++ enc_message (M a vs) ++ post in
  let m := wrapped m0 (zlen P) (wm_of (M a vs)) in
  exists t P0, ms_typetags m = Some t /\ ms_data m = Some (zlen P0) /\
    rdstr buf t = Ok (44 :: map vtag vs) /\
    (forall n v, nth_error vs n = Some v -> rd buf (t + Z.of_nat n + 1) = Ok (vtag v)) /\
    buf = P0 ++ concat (map enc_value vs) ++ post /\
    Forall (std_value any) vs /\ zlen (concat (map enc_value vs)) < 2^31 /\ zlen vs < 2^31 /\
    zlen vs <= zlen buf.
Proof.
  intros Hs Hl buf m. assert (Hs' := Hs). apply std_args in Hs' as (Ha & _ & _ & Hv).
  pose proof (std_tags any vs Hv) as Hnt.
  set (sz := be_bytes 4 (zlen (pad_str a ++ pad_str (44 :: map vtag vs) ++ concat (map enc_value vs)))).
  assert (Hsz : zlen sz = 4) by apply zlen_be.
  assert (Hbuf : buf = (P ++ sz ++ pad_str a) ++ pad_str (44 :: map vtag vs) ++ concat (map enc_value vs) ++ post).
  { unfold buf. cbn [enc_message]. unfold sized. fold sz. now rewrite <- !app_assoc. }
  exists (zlen (P ++ sz ++ pad_str a)), ((P ++ sz ++ pad_str a) ++ pad_str (44 :: map vtag vs)).
  unfold m. cbn [ms_typetags ms_data wrapped wm_of w_addr w_args].
  split; [f_equal; zl; lia|]. split; [f_equal; zl; lia|].
  split; [rewrite Hbuf; now apply rdstr_pad|].
  split.
  { intros n v Hn. rewrite Hbuf. rewrite rd_app_r by lia.
    replace (zlen (P ++ sz ++ pad_str a) + Z.of_nat n + 1 - zlen (P ++ sz ++ pad_str a)) with (1 + Z.of_nat n) by lia.
    unfold pad_str at 1. rewrite <- app_assoc. cbn [app]. rewrite rd_S by lia.
    assert (n < length vs)%nat by (apply nth_error_Some; congruence).
    rewrite rd_app_l by (rewrite zlen_map; unfold zlen; lia).
    unfold rd. rewrite (proj2 (Z.ltb_ge (Z.of_nat n) 0)) by apply Nat2Z.is_nonneg. rewrite Nat2Z.id, nth_error_map, Hn. reflexivity. }
  split; [rewrite Hbuf; now rewrite <- !app_assoc|]. split; [assumption|].
  cbn [enc_message] in Hl. rewrite zlen_sized', !zlen_app in Hl.
  pose proof (zlen_nonneg (pad_str a)). pose proof (zlen_nonneg (concat (map enc_value vs))).
  pose proof (zlen_nonneg vs) as Hvs.
  assert (Hpt : zlen vs < zlen (pad_str (44 :: map vtag vs))).
  { rewrite zlen_pad_str. zl. rewrite zlen_map. lia. }
  split; [lia|]. split; [lia|].
  rewrite Hbuf. rewrite !zlen_app. pose proof (zlen_nonneg P). pose proof (zlen_nonneg post). lia.
Qed.
