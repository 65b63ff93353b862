(** Theorems about walking serialized bundles: C15, C16, C17. *)

From Coq Require Import ZArith List Bool Lia.
From Verif Require Import Base BaseProofs Text Bytes UtilModel UtilProofs
  WireSpec SerialModel SerialSpec SerialProofs SerialProps WireModel WireProofs WireWalk.
Import ListNotations.
Open Scope Z_scope.

(** * C15, C16 *)

Lemma check_visit buf len post : forall bs P,
  buf = P ++ concat (map sized bs) ++ post ->
  len = zlen P + zlen (concat (map sized bs)) -> len + 4 < 2^31 ->
  Forall good_chunk bs ->
  visit (check_step buf len) (zlen P) (zlen P) bs = Ok (Cont len).
Proof.
  induction bs as [|b bs IH]; intros P Hbuf Hlen Hmax Hg.
  - cbn [map concat visit] in *. zl. now replace len with (zlen P) by lia.
  - inversion Hg as [|? ? [H4 Hs] Hg']; subst x l. cbn [map concat] in *.
    zl. rewrite zlen_sized' in Hlen. pose proof (zlen_nonneg P).
    pose proof (zlen_nonneg (concat (map sized bs))).
    cbn [visit]. unfold check_step at 1. rewrite add_int_ok by lia. cbn [bind].
    assert (Hrd : rd32 buf (zlen P) = Ok (zlen b)).
    { rewrite Hbuf, <- app_assoc. apply size_at. lia. }
    rewrite Hrd. cbn [bind]. rewrite s32_id by lia. rewrite add_int_ok by lia. cbn [bind].
    destruct (zlen P + 4 + zlen b >? len) eqn:E; [lia|].
    unfold msg_sanity_check. rewrite Hrd. cbn [bind]. rewrite s32_id by lia.
    destruct (zlen b <? 4) eqn:E4; [lia|].
    destruct b as [|c b]; [zl; lia|]. cbn [hd] in Hs. subst c.
    assert (Hc : rd buf (zlen P + 4) = Ok 47).
    { rewrite Hbuf. unfold sized. set (n := zlen (47 :: b)).
      replace (zlen P + 4) with (zlen (P ++ be_bytes 4 n)) by (zl; now rewrite zlen_be).
      rewrite <- !app_assoc. rewrite app_assoc. cbn [app]. apply rd_at. }
    rewrite Hc. cbn [bind]. change (negb (47 =? 47)) with false. cbn [bind negb].
    change (negb (ERR_NONE =? 0)) with false. cbn [bind].
    replace (zlen P + 4 + zlen (47 :: b)) with (zlen (P ++ sized (47 :: b)))
      by (zl; rewrite zlen_sized'; zl; lia).
    apply IH; try assumption.
    + rewrite Hbuf. now rewrite <- !app_assoc.
    + zl. rewrite zlen_sized'. zl. lia.
Qed.

Lemma sanity_accepts timetag bs : zlen timetag = 8 -> Forall good_chunk bs ->
  let buf := bundle_id ++ timetag ++ concat (map sized bs) in
  zlen buf + 4 < 2^31 -> bundle_sanity_check (zlen buf) (Some buf) = Ok ERR_NONE.
Proof.
  intros Ht Hg buf Hmax. unfold bundle_sanity_check.
  assert (Hlen : zlen buf = 16 + zlen (concat (map sized bs))).
  { unfold buf. zl. change (zlen bundle_id) with 8. lia. }
  pose proof (zlen_nonneg (concat (map sized bs))).
  destruct (zlen buf <? 16) eqn:E; [lia|].
  destruct (strncmp_spec osc_id buf 0) as (e & He & Hiff);
    [lia | change (zlen osc_id) with 8; lia |].
  rewrite He. cbn [bind].
  assert (e = false) as -> by (apply Hiff; reflexivity).
  assert (Hb : Forall (fun b => zlen b + 4 < 2^31) bs).
  { clear -Hmax Hlen. assert (Hm : zlen (concat (map sized bs)) + 20 < 2^31) by lia. clear -Hm.
    induction bs as [|b bs IH]; [constructor|]. cbn [map concat] in Hm. zl. rewrite zlen_sized' in Hm.
    pose proof (zlen_nonneg b). pose proof (zlen_nonneg (concat (map sized bs))).
    constructor; [lia|]. apply IH. lia. }
  pose proof (raw_loop_visit (check_step buf (zlen buf)) 16 [] (bundle_id ++ timetag) bs []) as HL.
  rewrite zlen_app in HL. change (zlen bundle_id) with 8 in HL. specialize (HL ltac:(lia) Hb).
  cbn [app] in HL. rewrite <- app_assoc, app_nil_r in HL. fold buf in HL. rewrite <- Hlen in HL.
  change (zlen (@nil Z)) with 0 in HL. unfold check_step at 1 in HL.
  rewrite HL.
  pose proof (check_visit buf (zlen buf) [] bs (bundle_id ++ timetag)) as HV.
  replace (zlen (bundle_id ++ timetag)) with 16 in HV by (zl; change (zlen bundle_id) with 8; lia).
  change (0 + 16) with 16. rewrite HV; [reflexivity| |lia|lia|assumption].
  rewrite app_nil_r. unfold buf. now rewrite <- app_assoc.
Qed.

Lemma count_visit bs : forall p n,
  visit (fun count (_ : Z) => Ok (@Cont Z unit (count + 1))) n p bs = Ok (Cont (n + zlen bs)).
Proof.
  induction bs as [|b bs IH]; intros p n; cbn [visit bind]; [zl; f_equal; f_equal; lia|].
  rewrite IH. zl. f_equal. f_equal. lia.
Qed.

Lemma chunks_bound bs k : 0 <= k -> zlen (concat (map sized bs)) + k < 2^31 ->
  Forall (fun b => zlen b + 4 + k < 2^31) bs.
Proof.
  intros Hk. induction bs as [|b bs IH]; intros Hm; [constructor|].
  cbn [map concat] in Hm. zl. rewrite zlen_sized' in Hm.
  pose proof (zlen_nonneg b). pose proof (zlen_nonneg (concat (map sized bs))).
  constructor; [lia|]. apply IH. lia.
Qed.

(** The check accepts a buffer exactly if it is the identifier, eight more
    bytes and then messages that follow each other without gaps up to the end,
    each at least four bytes long and beginning with a slash. *)
Theorem C16_accepted_iff buf : wf_bytes buf -> zlen buf + 4 < 2^31 ->
  bundle_sanity_check (zlen buf) (Some buf) = Ok 0 <->
  exists timetag bs, zlen timetag = 8 /\
    buf = bundle_id ++ timetag ++ concat (map sized bs) /\
    Forall (fun b => 4 <= zlen b /\ hd 0 b = 47) bs.
Proof.
  intros Hwf Hmax. split.
  - intros Hok. destruct (Z_lt_le_dec (zlen buf) 16) as [H16|H16].
    { unfold bundle_sanity_check in Hok. destruct (zlen buf <? 16) eqn:E; [discriminate|lia]. }
    destruct (sanity_decides buf Hwf H16 Hmax) as [[_ He]|(t & bs & tail & r & Hb & Ht & Hg & Hv & He)].
    + rewrite Hok in He. discriminate.
    + rewrite Hok in He. destruct Hv; cbn [bind] in He; try discriminate.
      subst tail. exists t, bs. rewrite app_nil_r in Hb. auto.
  - intros (t & bs & Ht & Hb & Hg). subst buf. now apply sanity_accepts.
Qed.
Print Assumptions C16_accepted_iff.

(** Everything else the check can do, including its own undefined behaviour:
    the walk stops behind a series of good messages, and what is left decides.
    With one to three bytes left it reads past the end of the buffer; with a
    size field close to the maximum its int sum overflows. *)
Theorem C16_outcomes buf : wf_bytes buf -> zlen buf + 4 < 2^31 ->
  let verdict_of := bundle_sanity_check (zlen buf) (Some buf) in
  (zlen buf < 16 /\ verdict_of = Ok ERR_BUNDLETOOSMALL) \/
  (16 <= zlen buf /\ firstn 8 buf <> bundle_id /\ verdict_of = Ok ERR_NOBUNDLEID) \/
  exists timetag bs tail,
    buf = bundle_id ++ timetag ++ concat (map sized bs) ++ tail /\ zlen timetag = 8 /\
    Forall (fun b => 4 <= zlen b /\ hd 0 b = 47) bs /\
    let size := s32 (of_be (firstn 4 tail)) in
    let next := zlen buf - zlen tail + 4 + size in
    ((tail = [] /\ verdict_of = Ok ERR_NONE) \/
     (0 < zlen tail < 4 /\ verdict_of = Ub OOB) \/
     (4 <= zlen tail /\ 2^31 <= next /\ verdict_of = Ub Overflow) \/
     (4 <= zlen tail /\ zlen buf < next < 2^31 /\ verdict_of = Ok ERR_MSGTOOLARGE) \/
     (4 <= zlen tail /\ size < 4 /\ verdict_of = Ok ERR_MSGTOOSMALL) \/
     (4 <= size <= zlen tail - 4 /\ hd 0 (skipn 4 tail) <> 47 /\ verdict_of = Ok ERR_MALFORMEDADDRESS)).
Proof.
  intros Hwf Hmax verdict_of. unfold verdict_of.
  destruct (Z_lt_le_dec (zlen buf) 16) as [H16|H16].
  { left. split; [assumption|]. unfold bundle_sanity_check.
    destruct (zlen buf <? 16) eqn:E; [reflexivity|lia]. }
  destruct (sanity_decides buf Hwf H16 Hmax) as [[H He]|(t & bs & tail & r & Hb & Ht & Hg & Hv & He)].
  { right. left. auto. }
  right. right. exists t, bs, tail. split; [assumption|]. split; [assumption|]. split; [assumption|].
  cbv zeta. rewrite He. destruct Hv; cbn [bind]; auto 8.
Qed.
Print Assumptions C16_outcomes.

Example C16_trailing_bytes :
  bundle_sanity_check 18 (Some (empty_header ++ [0; 0])) = Ub OOB.
Proof. vm_compute. reflexivity. Qed.
Example C16_huge_size :
  bundle_sanity_check 24 (Some (empty_header ++ [127; 255; 255; 255; 47; 97; 0; 0])) = Ub Overflow.
Proof. vm_compute. reflexivity. Qed.

(** What the iterator shows of the chunk [b] at offset [p]: its place and the
    size it reports. *)
Fixpoint spans (p : Z) (bs : list bytes) : list (option Z * Z) :=
  match bs with
  | [] => []
  | b :: bs' => (Some p, zlen b) :: spans (p + 4 + zlen b) bs'
  end.
Definition iterate_spans (buf : bytes) : res (lres (list (option Z * Z)) unit) :=
  bundle_loop buf 0 (zlen buf)
    (fun acc m => do sz <- get_size buf m; Ok (Cont (acc ++ [(ms_size m, sz)]))) [].

(** The strings the iterator looks for are terminated: the address inside the
    buffer, and the type tags if the message is long enough to have any. *)
Definition terminated (b rest : bytes) : Prop :=
  exists a, rdstr (b ++ rest) 0 = Ok a /\ zlen a + 4 < 2^32 /\
    (zlen (pad_str a) + 4 <= zlen b ->
     exists t, rdstr (b ++ rest) (zlen (pad_str a)) = Ok t).
Fixpoint all_terminated (bs : list bytes) : Prop :=
  match bs with
  | [] => True
  | b :: bs' => terminated b (concat (map sized bs')) /\ all_terminated bs'
  end.

Lemma rdstr_shift P l i : 0 <= i -> rdstr (P ++ l) (zlen P + i) = rdstr l i.
Proof.
  intros Hi. unfold rdstr. pose proof (zlen_nonneg P). zl.
  destruct (i <? 0) eqn:E1; [lia|]. destruct (zlen P + i <? 0) eqn:E2; [lia|]. cbn [orb].
  replace (zlen P + zlen l <? zlen P + i) with (zlen l <? i) by lia.
  destruct (zlen l <? i); [reflexivity|].
  replace (Z.to_nat (zlen P + i)) with (length P + Z.to_nat i)%nat by (unfold zlen in *; lia).
  rewrite skipn_app, skipn_all2 by lia. cbn [app].
  replace (length P + Z.to_nat i - length P)%nat with (Z.to_nat i) by lia. reflexivity.
Qed.

Lemma wrap_terminated P b rest m : zlen b < 2^31 -> terminated b rest ->
  exists m', wrap m (P ++ sized b ++ rest) (zlen P) = Ok m' /\ ms_size m' = Some (zlen P).
Proof.
  intros Hb (a & Ha & Hl & Ht). pose proof (zlen_nonneg b). unfold wrap.
  rewrite size_at by lia. cbn [bind]. rewrite s32_id by lia.
  unfold sized. set (sz := be_bytes 4 (zlen b)). assert (Hsz : zlen sz = 4) by apply zlen_be.
  replace (P ++ (sz ++ b) ++ rest) with ((P ++ sz) ++ b ++ rest) by now rewrite <- !app_assoc.
  replace (zlen P + 4) with (zlen (P ++ sz) + 0) by (zl; lia).
  rewrite rdstr_shift, Ha by lia. cbn [bind].
  rewrite padded_pad_str by assumption.
  destruct (_ >? _) eqn:E; [eexists; split; reflexivity|].
  destruct Ht as [t Ht]; [zl; lia|].
  replace (zlen (P ++ sz) + 0 + zlen (pad_str a)) with (zlen (P ++ sz) + zlen (pad_str a)) by lia.
  rewrite rdstr_shift, Ht by apply zlen_nonneg. cbn [bind]. eexists; split; reflexivity.
Qed.

Lemma spans_visit buf : forall bs P m acc,
  buf = P ++ concat (map sized bs) -> Forall (fun b => zlen b + 4 < 2^31) bs -> all_terminated bs ->
  drop_msg (visit (iter_body buf
     (fun acc m => do sz <- get_size buf m; Ok (@Cont _ unit (acc ++ [(ms_size m, sz)])))) (m, acc) (zlen P) bs)
  = Ok (Cont (acc ++ spans (zlen P) bs)).
Proof.
  induction bs as [|b bs IH]; intros P m acc Hbuf Hb Ht; cbn [visit spans].
  - cbn. now rewrite app_nil_r.
  - inversion Hb as [|? ? Hb1 Hb2]; subst x l. destruct Ht as [Ht1 Ht2].
    cbn [map concat] in Hbuf. pose proof (zlen_nonneg b).
    unfold iter_body at 1. cbn [fst snd].
    destruct (wrap_terminated P b (concat (map sized bs)) m ltac:(lia) Ht1) as (m' & Hw & Hs).
    assert (Hrd : rd32 buf (zlen P) = Ok (zlen b)) by (rewrite Hbuf; apply size_at; lia).
    rewrite <- Hbuf in Hw. rewrite Hw. cbn [bind]. unfold get_size at 1. rewrite Hs.
    rewrite Hrd. cbn [bind]. rewrite s32_id by lia.
    specialize (IH (P ++ sized b) m' (acc ++ [(Some (zlen P), zlen b)])).
    rewrite zlen_app, zlen_sized' in IH.
    replace (zlen P + 4 + zlen b) with (zlen P + (4 + zlen b)) by lia.
    rewrite IH; [now rewrite <- app_assoc| | assumption | assumption].
    rewrite Hbuf. now rewrite <- app_assoc.
Qed.

(** An accepted buffer is divided by the iterator into the messages of its
    decomposition: they are adjacent, the first one starts behind the header
    and the last one ends with the buffer.  getMsgCount needs no terminators. *)
Theorem C16_accepted_walk buf : wf_bytes buf -> zlen buf + 4 < 2^31 ->
  bundle_sanity_check (zlen buf) (Some buf) = Ok 0 ->
  exists timetag bs, zlen timetag = 8 /\ buf = bundle_id ++ timetag ++ concat (map sized bs) /\
    get_msg_count (zlen buf) (Some buf) = Ok (ERR_NONE, zlen bs) /\
    (all_terminated bs -> iterate_spans buf = Ok (Cont (spans 16 bs))).
Proof.
  intros Hwf Hmax Hok. pose proof Hok as Hok'.
  apply C16_accepted_iff in Hok as (t & bs & Ht & Hb & Hg); try assumption.
  exists t, bs. split; [assumption|]. split; [assumption|].
  assert (Hlen : zlen buf = 16 + zlen (concat (map sized bs))).
  { rewrite Hb. zl. change (zlen bundle_id) with 8. lia. }
  assert (Hbs : Forall (fun b => zlen b + 4 < 2^31) bs).
  { eapply Forall_impl; [|apply (chunks_bound bs 20); lia]. intros x Hx. cbn beta in Hx |- *. lia. }
  assert (Hbuf : buf = [] ++ (bundle_id ++ t) ++ concat (map sized bs) ++ []).
  { rewrite app_nil_r, Hb. cbn [app]. now rewrite <- app_assoc. }
  assert (Hh : zlen (bundle_id ++ t) = 16) by (zl; change (zlen bundle_id) with 8; lia).
  split.
  - unfold get_msg_count. rewrite Hok'. cbn [bind]. change (negb (0 =? 0)) with false.
    rewrite Hlen. rewrite Hbuf at 1. change 0 with (zlen (@nil Z)) at 1.
    rewrite raw_loop_visit by assumption.
    rewrite count_visit. reflexivity.
  - intros Htm. unfold iterate_spans. rewrite Hlen.
    pose proof (bundle_loop_visit (fun acc m => do sz <- get_size buf m; Ok (@Cont _ unit (acc ++ [(ms_size m, sz)])))
      [] [] (bundle_id ++ t) bs [] Hh Hbs) as HL. cbv zeta in HL. rewrite <- Hbuf in HL.
    change (zlen (@nil Z)) with 0 in HL. change (0 + 16) with 16 in HL.
    transitivity (drop_msg (visit (iter_body buf
     (fun acc m => do sz <- get_size buf m; Ok (@Cont _ unit (acc ++ [(ms_size m, sz)])))) (init_msg, []) 16 bs));
      [exact HL|].
    rewrite <- Hh. apply (spans_visit buf bs (bundle_id ++ t) init_msg []); try assumption.
Qed.
Print Assumptions C16_accepted_walk.

(** The check does not look for the terminators: a buffer can pass and still
    make the iterator read behind its end. *)
Theorem C16_unterminated_refuted :
  exists buf, wf_bytes buf /\ bundle_sanity_check (zlen buf) (Some buf) = Ok 0 /\
    iterate_spans buf = Ub OOB.
Proof.
  exists (empty_header ++ [0; 0; 0; 4; 47; 97; 98; 99]). split.
  - repeat constructor; unfold is_byte; lia.
  - split; vm_compute; reflexivity.
Qed.
Print Assumptions C16_unterminated_refuted.

Example C16_hypotheses :
  let buf := empty_header ++ sized (str "/a" ++ [0; 0; 44; 0; 0; 0]) ++ sized (str "/bcd" ++ zeros 4) in
  bundle_sanity_check (zlen buf) (Some buf) = Ok 0 /\
  iterate_spans buf = Ok (Cont [(Some 16, 8); (Some 28, 8)]).
Proof. split; vm_compute; reflexivity. Qed.

(** ** C15 *)

(** The address of every message of the bundle begins with a slash. *)
Definition slash_addresses (ms : list umsg) : Prop :=
  Forall (fun m => match m with UMsg (Some a) _ => hd 0 a = 47 | _ => True end) ms.
(** Messages without an address are not sent. *)
Definition n_messages (ms : list umsg) : Z :=
  zlen (filter (fun m => match m with UMsg (Some _) _ => true | _ => false end) ms).

Lemma raw_chunks ms : slash_addresses ms ->
  exists bs, concat (map enc_message (raw_msgs ms)) = concat (map sized bs) /\
    Forall good_chunk bs /\ zlen bs = n_messages ms.
Proof.
  unfold raw_msgs, n_messages. induction 1 as [|m ms Hm _ IH]; [exists []; repeat constructor|].
  destruct IH as (bs & He & Hg & Hn). destruct m as [[a|] args]; cbn [map concat raw_msg filter app].
  - exists (wbody (wm_of (M a (map raw_value args))) :: bs). split.
    + cbn [map concat]. rewrite He, enc_message_wm. reflexivity.
    + split; [|zl; now rewrite Hn]. constructor; [|assumption].
      unfold good_chunk, wbody, wm_of. cbn [w_addr w_args].
      destruct a as [|c a]; [cbn in Hm; discriminate|]. cbn [hd] in Hm. subst c. split; [|reflexivity].
      zl. rewrite zlen_pad_str. zl.
      pose proof (zlen_nonneg (pad_str (44 :: map vtag (map raw_value args)))).
      pose proof (zlen_nonneg (concat (map enc_value (map raw_value args)))).
      pose proof (zlen_nonneg a). lia.
  - exists bs. auto.
Qed.

Theorem C15_serialized_is_accepted ms junk b :
  Forall ok_msg ms -> slash_addresses ms ->
  zlen (enc_bundle empty_header (raw_msgs ms)) <= zlen junk ->
  bundle_serialize junk ms = Ok b -> zlen b + 4 < 2^31 ->
  bundle_sanity_check (zlen b) (Some b) = Ok 0 /\
  get_msg_count (zlen b) (Some b) = Ok (0, n_messages ms).
Proof.
  intros Hok Hs Hj Hser Hmax. rewrite C12_bundle_encoding in Hser by assumption.
  injection Hser as <-. destruct (raw_chunks ms Hs) as (bs & He & Hg & Hn).
  unfold enc_bundle in *. rewrite He in *.
  assert (Hb : empty_header ++ concat (map sized bs) = bundle_id ++ zeros 8 ++ concat (map sized bs)).
  { unfold empty_header. now rewrite <- app_assoc. }
  rewrite Hb in *. assert (Hsane := sanity_accepts (zeros 8) bs eq_refl Hg Hmax).
  cbv zeta in Hsane.
  assert (Hlen : zlen (bundle_id ++ zeros 8 ++ concat (map sized bs)) = 16 + zlen (concat (map sized bs))) by (clear; rewrite !zlen_app; change (zlen bundle_id) with 8; change (zlen (zeros 8)) with 8; lia).
  pose (buf := bundle_id ++ zeros 8 ++ concat (map sized bs) : bytes).
  change (bundle_sanity_check (zlen buf) (Some buf) = Ok ERR_NONE) in Hsane.
  change (zlen buf = 16 + zlen (concat (map sized bs))) in Hlen.
  change (zlen buf + 4 < 2^31) in Hmax.
  change (bundle_sanity_check (zlen buf) (Some buf) = Ok 0 /\
    get_msg_count (zlen buf) (Some buf) = Ok (0, n_messages ms)).
  split; [exact Hsane|].
  unfold get_msg_count. rewrite Hsane. cbn [bind]. change (negb (ERR_NONE =? 0)) with false.
  assert (Hbuf : buf = [] ++ empty_header ++ concat (map sized bs) ++ []).
  { rewrite app_nil_r. cbn [app]. unfold buf, empty_header. now rewrite <- app_assoc. }
  rewrite Hlen. rewrite Hbuf at 1. change 0 with (zlen (@nil Z)) at 1.
  assert (Hbs : Forall (fun b => zlen b + 4 < 2^31) bs).
  { eapply Forall_impl; [|apply (chunks_bound bs 20); lia]. intros x Hx. cbn beta in Hx |- *. lia. }
  rewrite raw_loop_visit by (try assumption; reflexivity).
  rewrite count_visit. cbn [bind]. now rewrite Hn.
Qed.
Print Assumptions C15_serialized_is_accepted.

Example C15_hypotheses :
  Forall ok_msg ex_msgs /\ slash_addresses ex_msgs /\ n_messages ex_msgs = 3.
Proof. split; [exact ex_msgs_ok|]. split; [repeat constructor|reflexivity]. Qed.

(** * C17 *)

(** The structure [m] handed out by the iterator gives access to the message
    [w], which lies at offset [p] of the buffer. *)
Definition shows (buf : bytes) (m : msg_s) (p : Z) (w : wmsg) : Prop :=
  ms_size m = Some p /\
  slice buf p (zlen (enc_wmsg w)) = Ok (enc_wmsg w) /\
  get_size buf m = Ok (zlen (wbody w)) /\
  (exists a, ms_address m = Some a /\ rdstr buf a = Ok (w_addr w)) /\
  match w_args w with
  | None => ms_typetags m = None
  | Some (tags, data) =>
      exists t d, ms_typetags m = Some t /\ rdstr buf t = Ok tags /\
                  ms_data m = Some d /\ slice buf d (zlen data) = Ok data
  end.

Lemma shows_wrapped P w post m : wf_wmsg w ->
  shows (P ++ enc_wmsg w ++ post) (wrapped m (zlen P) w) (zlen P) w.
Proof.
  intros (Ha & Ht & Hl). unfold shows. cbn [ms_size ms_address ms_typetags ms_data wrapped].
  split; [reflexivity|]. split; [apply slice_app|]. pose proof (zlen_nonneg (wbody w)).
  split.
  { unfold get_size. cbn [ms_size wrapped]. unfold enc_wmsg. rewrite size_at by lia. cbn [bind].
    now rewrite s32_id by lia. }
  destruct w as [a args]. unfold enc_wmsg, sized, wbody. cbn [w_addr w_args] in *.
  set (rest := match args with Some (tags, data) => pad_str tags ++ data | None => [] end).
  set (sz := be_bytes 4 _). assert (Hsz : zlen sz = 4) by apply zlen_be.
  split.
  { exists (zlen P + 4). split; [reflexivity|].
    replace (zlen P + 4) with (zlen (P ++ sz)) by (zl; lia).
    replace (P ++ (sz ++ pad_str a ++ rest) ++ post) with ((P ++ sz) ++ pad_str a ++ rest ++ post)
      by now rewrite <- !app_assoc.
    now apply rdstr_pad. }
  destruct args as [[tags data]|]; [|reflexivity].
  exists (zlen P + 4 + zlen (pad_str a)), (zlen P + 4 + zlen (pad_str a) + zlen (pad_str tags)).
  split; [reflexivity|].
  replace (P ++ (sz ++ pad_str a ++ rest) ++ post)
    with ((P ++ sz ++ pad_str a) ++ pad_str tags ++ data ++ post) by (unfold rest; now rewrite <- !app_assoc).
  replace (zlen P + 4 + zlen (pad_str a)) with (zlen (P ++ sz ++ pad_str a)) by (zl; lia).
  split; [now apply rdstr_pad|]. split; [reflexivity|].
  rewrite app_assoc. rewrite <- zlen_app. apply slice_app.
Qed.

(** Offsets of consecutive messages. *)
Fixpoint starts (p : Z) (ws : list wmsg) : list Z :=
  match ws with [] => [] | w :: ws' => p :: starts (p + zlen (enc_wmsg w)) ws' end.

Definition iterate (buf : bytes) (base len : Z) : res (lres (list msg_s) unit) :=
  bundle_loop buf base len (fun acc m => Ok (Cont (acc ++ [m]))) [].

Lemma over_collect vs : forall acc : list msg_s,
  over (fun acc m => Ok (@Cont _ unit (acc ++ [m]))) acc vs = Ok (Cont (acc ++ vs)).
Proof.
  induction vs as [|v vs IH]; intros acc; cbn [over bind]; [now rewrite app_nil_r|].
  rewrite IH. now rewrite <- app_assoc.
Qed.

Lemma views_show buf post : forall ws P m, buf = P ++ enc_wmsgs ws ++ post -> Forall wf_wmsg ws ->
  Forall2 (fun v pw => shows buf v (fst pw) (snd pw)) (views m (zlen P) ws)
    (combine (starts (zlen P) ws) ws).
Proof.
  induction ws as [|w ws IH]; intros P m Hbuf Hw; cbn [views starts combine]; [constructor|].
  inversion Hw as [|? ? H1 H2]; subst x l. unfold enc_wmsgs in Hbuf. cbn [map concat] in Hbuf.
  constructor.
  - cbn [fst snd]. rewrite Hbuf. rewrite <- app_assoc. now apply shows_wrapped.
  - rewrite <- zlen_app. apply IH; [|assumption]. rewrite Hbuf. now rewrite <- !app_assoc.
Qed.

(** Iteration over a well-formed bundle anywhere in memory ends, having shown
    each message once, in order. *)
Theorem C17_iteration P hdr ws post :
  zlen hdr = 16 -> Forall wf_wmsg ws ->
  let buf := P ++ hdr ++ enc_wmsgs ws ++ post in
  exists vs, iterate buf (zlen P) (zlen (hdr ++ enc_wmsgs ws)) = Ok (Cont vs) /\
    Forall2 (fun v pw => shows buf v (fst pw) (snd pw)) vs
      (combine (starts (zlen P + 16) ws) ws) /\
    zlen vs = zlen ws.
Proof.
  intros Hh Hw buf. exists (views init_msg (zlen P + 16) ws). split; [|split].
  - unfold iterate. rewrite zlen_app, Hh. unfold buf. rewrite bundle_loop_over by assumption.
    apply over_collect.
  - replace (zlen P + 16) with (zlen (P ++ hdr)) by (zl; lia).
    apply views_show with (post := post); [|assumption]. unfold buf. now rewrite <- app_assoc.
  - generalize (zlen P + 16) as p, init_msg as m. induction ws as [|w ws IH]; intros p m; [reflexivity|].
    inversion Hw; subst. cbn [views]. zl. rewrite IH by assumption. lia.
Qed.
Print Assumptions C17_iteration.

(** The number of steps is what osc_bundle_s_getMsgCount reports. *)
Theorem C17_count timetag ws :
  zlen timetag = 8 -> Forall wf_wmsg ws -> Forall (fun w => hd 0 (w_addr w) = 47) ws ->
  let buf := bundle_id ++ timetag ++ enc_wmsgs ws in
  zlen buf + 4 < 2^31 ->
  exists vs, iterate buf 0 (zlen buf) = Ok (Cont vs) /\
    get_msg_count (zlen buf) (Some buf) = Ok (ERR_NONE, zlen vs).
Proof.
  intros Ht Hw Hs buf Hmax.
  destruct (C17_iteration [] (bundle_id ++ timetag) ws [] ltac:(zl; change (zlen bundle_id) with 8; lia) Hw)
    as (vs & Hi & _ & Hn). cbv zeta in Hi.
  assert (Hbuf : [] ++ (bundle_id ++ timetag) ++ enc_wmsgs ws ++ [] = buf).
  { rewrite app_nil_r. unfold buf. cbn [app]. now rewrite <- app_assoc. }
  rewrite Hbuf in Hi. change (zlen (@nil Z)) with 0 in Hi.
  rewrite <- app_assoc in Hi. fold buf in Hi.
  exists vs. split; [exact Hi|].
  assert (Hg : Forall good_chunk (map wbody ws)).
  { rewrite Forall_map. rewrite Forall_forall in *. intros w Hin. specialize (Hs w Hin).
    destruct w as [a args]. unfold good_chunk, wbody. cbn [w_addr w_args] in *.
    destruct a as [|c a]; [cbn in Hs; discriminate|]. cbn [hd] in Hs. subst c. split; [|reflexivity].
    zl. rewrite zlen_pad_str. zl. pose proof (zlen_nonneg a).
    pose proof (zlen_nonneg (match args with Some (tags, data) => pad_str tags ++ data | None => [] end)). lia. }
  assert (Hsane := sanity_accepts timetag (map wbody ws) Ht Hg). cbv zeta in Hsane.
  rewrite <- enc_wmsgs_chunks in Hsane. fold buf in Hsane. specialize (Hsane Hmax).
  unfold get_msg_count. rewrite Hsane. cbn [bind]. change (negb (ERR_NONE =? 0)) with false.
  assert (Hlen : zlen buf = 16 + zlen (enc_wmsgs ws)).
  { unfold buf. zl. change (zlen bundle_id) with 8. lia. }
  rewrite Hlen. rewrite <- Hbuf at 1. change 0 with (zlen (@nil Z)) at 1.
  rewrite enc_wmsgs_chunks. rewrite raw_loop_visit; [|zl; change (zlen bundle_id) with 8; lia|now apply wf_chunks].
  rewrite count_visit. cbn [bind]. rewrite zlen_map. now rewrite Hn.
Qed.
Print Assumptions C17_count.

Example C17_hypotheses :
  let ws := [WM (str "/a") (Some (str ",i", [0; 0; 0; 1])); WM (str "/bcd") None;
             WM (str "/c") (Some (str ",", []))] in
  Forall wf_wmsg ws /\ Forall (fun w => hd 0 (w_addr w) = 47) ws.
Proof.
  split; [|repeat constructor].
  repeat constructor; cbn; try discriminate.
Qed.
