(** The sanity check decides exactly whether a buffer is a header followed by
    sized chunks; wrapping a well-formed message. *)

From Coq Require Import ZArith List Bool Lia.
From Verif Require Import Base BaseProofs Bytes UtilModel UtilProofs
  WireSpec SerialModel SerialSpec SerialProofs WireModel WireProofs.
Import ListNotations.
Open Scope Z_scope.

Lemma firstn_exact {A} (v l : list A) n : length v = n -> firstn n (v ++ l) = v.
Proof. intros <-. rewrite firstn_app, firstn_all, Nat.sub_diag. apply app_nil_r. Qed.
Lemma skipn_exact {A} (v l : list A) n : length v = n -> skipn n (v ++ l) = l.
Proof. intros <-. rewrite skipn_app, skipn_all, Nat.sub_diag. reflexivity. Qed.

(** * The sanity check *)

Definition good_chunk (b : bytes) : Prop := 4 <= zlen b /\ hd 0 b = 47.

Definition check_step (buf : bytes) (len : Z) (cumsize p : Z) : res (lres Z Z) :=
  do c <- add_int cumsize 4;
  do n <- rd32 buf p;
  do c <- add_int c (s32 n);
  if c >? len then Ok (Done ERR_MSGTOOLARGE) else
  do e <- msg_sanity_check buf p;
  if negb (e =? 0) then Ok (Done e) else Ok (Cont c).

(** What the walk finds behind the last good message. *)
Inductive verdict (len : Z) (tail : bytes) : res (lres Z Z) -> Prop :=
| V_end : tail = [] -> verdict len tail (Ok (Cont len))
| V_cut : 0 < zlen tail < 4 -> verdict len tail (Ub OOB)
| V_overflow : 4 <= zlen tail -> 2^31 <= len - zlen tail + 4 + s32 (of_be (firstn 4 tail)) ->
    verdict len tail (Ub Overflow)
| V_large : 4 <= zlen tail ->
    len < len - zlen tail + 4 + s32 (of_be (firstn 4 tail)) < 2^31 ->
    verdict len tail (Ok (Done ERR_MSGTOOLARGE))
| V_small : 4 <= zlen tail -> s32 (of_be (firstn 4 tail)) < 4 ->
    verdict len tail (Ok (Done ERR_MSGTOOSMALL))
| V_noslash : 4 <= s32 (of_be (firstn 4 tail)) <= zlen tail - 4 -> hd 0 (skipn 4 tail) <> 47 ->
    verdict len tail (Ok (Done ERR_MALFORMEDADDRESS)).

Lemma check_walk buf len : wf_bytes buf -> zlen buf = len -> len + 4 < 2^31 ->
  forall n P l, buf = P ++ l -> 16 <= zlen P -> zlen l < 8 * Z.of_nat n ->
  exists bs tail r,
    l = concat (map sized bs) ++ tail /\ Forall good_chunk bs /\ verdict len tail r /\
    loopn (fun st : Z * Z =>
           let (p, s) := st in
           run (if negb (p - 0 <? len) then Ok (Done (Cont s)) else
                do r <- check_step buf len s p;
                match r with
                | Done x => Ok (Done (Done x))
                | Cont s' =>
                    do n <- rd32 buf p;
                    do k <- add_int (s32 n) 4;
                    Ok (Cont (p + k, s'))
                end)) n (zlen P, zlen P) = Done r.
Proof.
  intros Hwf Hlen Hsmall. induction n as [|n IH]; intros P l Hbuf HP Hl.
  { pose proof (zlen_nonneg l). lia. }
  assert (HlP : len = zlen P + zlen l) by (rewrite <- Hlen, Hbuf; zl; lia).
  cbn [loopn].
  destruct (Z.eq_dec (zlen l) 0) as [H0|H0].
  { assert (l = []) as -> by (destruct l; [reflexivity|zl; pose proof (zlen_nonneg l); lia]).
    exists [], [], (Ok (Cont (zlen P))). split; [reflexivity|]. split; [constructor|]. zl.
    split; [replace (zlen P) with len by lia; now constructor|].
    destruct (zlen P - 0 <? len) eqn:E; [lia|]. reflexivity. }
  pose proof (zlen_nonneg l). pose proof (zlen_nonneg P).
  destruct (zlen P - 0 <? len) eqn:E; [|lia]. cbn [negb].
  unfold check_step at 1. rewrite add_int_ok by lia. cbn [bind].
  destruct (Z_lt_le_dec (zlen l) 4) as [H4|H4].
  { exists [], l, (Ub OOB). split; [reflexivity|]. split; [constructor|].
    split; [constructor; lia|].
    unfold rd32, slice. rewrite Hlen.
    destruct (zlen P <? 0) eqn:E1; [lia|]. destruct (len <? zlen P + 4) eqn:E2; [|lia].
    reflexivity. }
  destruct (split_at l 4) as (v & l' & -> & Hv); [lia|].
  assert (Hv4 : length v = 4%nat) by (unfold zlen in Hv; lia).
  assert (Hwv : wf_bytes v).
  { unfold wf_bytes in *. rewrite Hbuf in Hwf. apply Forall_app in Hwf as [_ Hwf].
    now apply Forall_app in Hwf as [Hwf _]. }
  assert (Hrd : rd32 buf (zlen P) = Ok (of_be v)) by (rewrite Hbuf; now apply rd32_at).
  rewrite Hrd. cbn [bind].
  assert (Hf : firstn 4 (v ++ l') = v).
  { now apply firstn_exact. }
  assert (Hs : skipn 4 (v ++ l') = l').
  { now apply skipn_exact. }
  assert (Hsr : - 2^31 <= s32 (of_be v) < 2^31).
  { unfold s32. pose proof (Z.mod_pos_bound (of_be v + 2^31) (2^32) ltac:(lia)). lia. }
  zl. set (size := s32 (of_be v)) in *.
  destruct (Z_lt_le_dec (zlen P + 4 + size) (2^31)) as [Hov|Hov].
  2:{ exists [], (v ++ l'), (Ub Overflow). split; [reflexivity|]. split; [constructor|].
      split; [apply V_overflow; zl; [lia|]; rewrite Hf; fold size; lia|].
      unfold add_int at 1. destruct (- 2^31 <=? zlen P + 4 + size) eqn:E1; [|lia].
      destruct (zlen P + 4 + size <? 2^31) eqn:E2; [lia|]. reflexivity. }
  rewrite (add_int_ok (zlen P + 4) size) by lia. cbn [bind].
  destruct (zlen P + 4 + size >? len) eqn:EL.
  { exists [], (v ++ l'), (Ok (Done ERR_MSGTOOLARGE)). split; [reflexivity|]. split; [constructor|].
    split; [apply V_large; zl; [lia|]; rewrite Hf; fold size; lia|]. reflexivity. }
  unfold msg_sanity_check. rewrite Hrd. cbn [bind]. fold size.
  destruct (size <? 4) eqn:ES.
  { exists [], (v ++ l'), (Ok (Done ERR_MSGTOOSMALL)). split; [reflexivity|]. split; [constructor|].
    split; [apply V_small; zl; [lia|]; rewrite Hf; fold size; lia|]. reflexivity. }
  destruct l' as [|c l'']; [zl; lia|].
  assert (Hc : rd buf (zlen P + 4) = Ok c).
  { rewrite Hbuf, app_assoc. replace (zlen P + 4) with (zlen (P ++ v)) by (zl; lia). apply rd_at. }
  rewrite Hc. cbn [bind].
  destruct (c =? 47) eqn:EC.
  2:{ exists [], (v ++ c :: l''), (Ok (Done ERR_MALFORMEDADDRESS)). split; [reflexivity|].
      split; [constructor|].
      split; [apply V_noslash; [rewrite Hf; fold size; zl; lia|rewrite Hs; cbn [hd]; lia]|]. reflexivity. }
  cbn [negb]. change (ERR_NONE =? 0) with true. cbn [negb bind].
  rewrite add_int_ok by lia. cbn [bind run].
  destruct (split_at (c :: l'') size) as (b & l3 & Hb3 & Hb); [zl; lia|].
  assert (Hbs : v ++ c :: l'' = sized b ++ l3).
  { unfold sized. rewrite Hb. rewrite <- app_assoc. rewrite <- Hb3. f_equal.
    assert (size = of_be v) as ->.
    { unfold size in *. pose proof (of_be_bound v Hwv) as Hr. rewrite Hv in Hr.
      change (256 ^ 4) with (2^32) in Hr. unfold s32 in *.
      assert (of_be v < 2^31 \/ 2^31 <= of_be v) as [|] by lia.
      - rewrite Z.mod_small by lia. lia.
      - exfalso. replace (of_be v + 2^31) with ((of_be v - 2^31) + 1 * 2^32) in ES by lia.
        rewrite Z.mod_add, Z.mod_small in ES by lia. lia. }
    symmetry. rewrite <- Hv4. now apply be_bytes_of_be. }
  destruct (IH (P ++ sized b) l3) as (bs & tail & r & Hl3 & Hg & Hver & Hrun).
  { rewrite Hbuf, Hbs. now rewrite app_assoc. }
  { zl. rewrite zlen_sized'. lia. }
  { apply (f_equal zlen) in Hbs. zl. rewrite zlen_sized' in Hbs. lia. }
  exists (b :: bs), tail, r. cbn [map concat].
  split; [rewrite Hbs, Hl3; now rewrite app_assoc|].
  split; [constructor; [|assumption]; split; [lia|]|].
  { destruct b as [|c' b]; [zl; lia|]. cbn [app] in Hb3. injection Hb3 as -> _. cbn [hd]. lia. }
  split; [assumption|].
  rewrite zlen_app, zlen_sized' in Hrun.
  replace (zlen P + (size + 4)) with (zlen P + (4 + zlen b)) by lia.
  replace (zlen P + 4 + size) with (zlen P + (4 + zlen b)) by lia.
  exact Hrun.
Qed.

Lemma strncmp_spec : forall id buf i, 0 <= i -> i + zlen id <= zlen buf ->
  exists e, strncmp_id buf i id = Ok e /\
    (e = false <-> firstn (length id) (skipn (Z.to_nat i) buf) = id).
Proof.
  induction id as [|c id IH]; intros buf i Hi Hl.
  - exists false. cbn. split; [reflexivity|]. split; reflexivity.
  - zl. pose proof (zlen_nonneg id).
    destruct (rd_ok buf i) as (x & Hx & Hn); [lia|].
    cbn [strncmp_id]. rewrite Hx. cbn [bind].
    assert (Hsk : skipn (Z.to_nat i) buf = x :: skipn (Z.to_nat (i + 1)) buf).
    { replace (Z.to_nat (i + 1)) with (S (Z.to_nat i)) by lia.
      clear -Hn. revert buf Hn. generalize (Z.to_nat i) as k.
      induction k as [|k IH]; intros [|y buf] Hn; try discriminate; cbn in *.
      - injection Hn as ->. reflexivity.
      - now apply IH. }
    rewrite Hsk. cbn [length firstn].
    destruct (x =? c) eqn:E.
    + assert (x = c) as -> by lia.
      destruct (IH buf (i + 1)) as (e & He & Hiff); [lia|lia|]. exists e. split; [assumption|].
      rewrite Hiff. split; intros Hq; [now rewrite Hq|now injection Hq].
    + exists true. split; [reflexivity|]. split; [discriminate|]. intros [= -> _]. lia.
Qed.

(** The outcome of the whole check on a buffer that has room for a header. *)
Theorem sanity_decides buf : wf_bytes buf -> 16 <= zlen buf -> zlen buf + 4 < 2^31 ->
  (firstn 8 buf <> bundle_id /\ bundle_sanity_check (zlen buf) (Some buf) = Ok ERR_NOBUNDLEID) \/
  (exists timetag bs tail r,
     buf = bundle_id ++ timetag ++ concat (map sized bs) ++ tail /\ zlen timetag = 8 /\
     Forall good_chunk bs /\ verdict (zlen buf) tail r /\
     bundle_sanity_check (zlen buf) (Some buf) =
       do x <- r; match x with Cont _ => Ok ERR_NONE | Done e => Ok e end).
Proof.
  intros Hwf H16 Hmax. unfold bundle_sanity_check.
  destruct (zlen buf <? 16) eqn:E16; [lia|].
  destruct (strncmp_spec osc_id buf 0) as (e & He & Hiff);
    [lia | change (zlen osc_id) with 8; lia |].
  rewrite He. cbn [bind]. change (length osc_id) with 8%nat in Hiff. cbn [Z.to_nat skipn] in Hiff.
  destruct e.
  { left. split; [|reflexivity]. intros Hid. apply Hiff in Hid. discriminate. }
  right. assert (Hid : firstn 8 buf = bundle_id) by now apply Hiff.
  destruct (split_at buf 16) as (h & l & Hb & Hh); [lia|].
  destruct (split_at h 8) as (i & t & -> & Hi); [lia|].
  assert (Hi8 : length i = 8%nat) by (unfold zlen in Hi; lia).
  assert (i = bundle_id) as ->.
  { rewrite <- Hid, Hb, <- app_assoc. symmetry. now apply firstn_exact. }
  assert (Hn : zlen l < 8 * Z.of_nat (length buf)).
  { apply (f_equal zlen) in Hb. zl. unfold zlen in *. lia. }
  destruct (check_walk buf (zlen buf) Hwf eq_refl Hmax (length buf) (bundle_id ++ t) l Hb ltac:(lia) Hn)
    as (bs & tail & r & Hl & Hg & Hv & Hrun).
  exists t, bs, tail, r. split; [rewrite Hb, Hl; now rewrite <- app_assoc|].
  split; [zl; lia|]. split; [assumption|]. split; [assumption|].
  unfold raw_loop. rewrite Hh in Hrun. unfold check_step in Hrun.
  erewrite while_loopn; [reflexivity| exact Hrun |].
  unfold walk_fuel. rewrite Z2Pos.id by lia. unfold zlen. lia.
Qed.

(** * Wrapping a well-formed message *)

Definition wrapped (m : msg_s) (p : Z) (w : wmsg) : msg_s :=
  let tt := p + 4 + zlen (pad_str (w_addr w)) in
  MS (Some p) (Some (p + 4))
     (match w_args w with None => None | Some _ => Some tt end)
     (match w_args w with None => ms_data m | Some (tags, _) => Some (tt + zlen (pad_str tags)) end)
     (ms_cache_size m) (ms_offset_cache m) (ms_size_cache m).

Lemma zlen_pad s : zlen (pad_str s) = 4 * (zlen s / 4) + 4.
Proof.
  unfold pad_str. zl. pose proof (Z.mod_pos_bound (zlen s) 4 ltac:(lia)).
  rewrite zlen_zeros by lia. pose proof (Z.div_mod (zlen s) 4 ltac:(lia)). lia.
Qed.

Lemma pad_cons s l : exists l', pad_str s ++ l = s ++ 0 :: l'.
Proof.
  unfold pad_str, zeros. pose proof (Z.mod_pos_bound (zlen s) 4 ltac:(lia)).
  destruct (Z.to_nat (4 - zlen s mod 4)) as [|k] eqn:E; [lia|].
  cbn [repeat]. exists (repeat 0 k ++ l). rewrite <- app_assoc. reflexivity.
Qed.

Lemma rdstr_pad P s l : nonul s -> rdstr (P ++ pad_str s ++ l) (zlen P) = Ok s.
Proof.
  intros Hs. destruct (pad_cons s l) as [l' ->]. now apply rdstr_at.
Qed.

Lemma wrap_ok P w post m : wf_wmsg w ->
  wrap m (P ++ enc_wmsg w ++ post) (zlen P) = Ok (wrapped m (zlen P) w).
Proof.
  intros (Ha & Ht & Hl). unfold wrap, enc_wmsg. rewrite size_at by lia. cbn [bind].
  pose proof (zlen_nonneg (wbody w)). rewrite s32_id by lia.
  destruct w as [a args]. unfold wbody, wrapped in *. cbn [w_addr w_args] in *.
  unfold sized. set (sz := be_bytes 4 _).
  assert (Hsz : zlen sz = 4) by apply zlen_be.
  rewrite zlen_app in Hl. pose proof (zlen_pad a) as Hpa. pose proof (zlen_nonneg a) as Hza.
  replace (zlen P + 4) with (zlen (P ++ sz)) by (zl; lia).
  replace (P ++ (sz ++ pad_str a ++ match args with Some (tags, data) => pad_str tags ++ data | None => [] end) ++ post)
    with ((P ++ sz) ++ pad_str a ++ match args with Some (tags, data) => pad_str tags ++ data | None => [] end ++ post)
    by now rewrite <- !app_assoc.
  rewrite rdstr_pad by assumption. cbn [bind].
  assert (Hlt : zlen a < 2^32 - 4).
  { set (rest := match args with Some (tags, data) => pad_str tags ++ data | None => [] end) in *.
    pose proof (zlen_nonneg rest). pose proof (Z.div_mod (zlen a) 4 ltac:(lia)).
    pose proof (Z.mod_pos_bound (zlen a) 4 ltac:(lia)). lia. }
  rewrite padded_string_len_eq by lia. rewrite <- Hpa.
  replace (zlen (P ++ sz) + zlen (pad_str a)) with (zlen ((P ++ sz) ++ pad_str a)) by (zl; lia).
  destruct args as [[tags data]|].
  - pose proof (zlen_pad tags) as Hpt. pose proof (zlen_nonneg tags). pose proof (zlen_nonneg data).
    pose proof (Z.div_mod (zlen tags) 4 ltac:(lia)). pose proof (Z.mod_pos_bound (zlen tags) 4 ltac:(lia)).
    destruct (zlen ((P ++ sz) ++ pad_str a) - zlen P >? zlen (pad_str a ++ pad_str tags ++ data)) eqn:E.
    { zl. lia. }
    replace ((P ++ sz) ++ pad_str a ++ (pad_str tags ++ data) ++ post)
      with (((P ++ sz) ++ pad_str a) ++ pad_str tags ++ data ++ post) by now rewrite <- !app_assoc.
    rewrite rdstr_pad by assumption. cbn [bind]. zl.
    rewrite padded_string_len_eq by lia. rewrite <- Hpt. reflexivity.
  - destruct (zlen ((P ++ sz) ++ pad_str a) - zlen P >? zlen (pad_str a ++ [])) eqn:E.
    + reflexivity.
    + exfalso. zl. lia.
Qed.

(** * Message lists as chunks *)

Definition enc_wmsgs (ws : list wmsg) : bytes := concat (map enc_wmsg ws).
Lemma enc_wmsgs_chunks ws : enc_wmsgs ws = concat (map sized (map wbody ws)).
Proof. unfold enc_wmsgs. now rewrite map_map. Qed.

Lemma enc_message_wm m : enc_message m = enc_wmsg (wm_of m).
Proof. destruct m as [a vs]. cbn [enc_message wm_of]. reflexivity. Qed.

Lemma enc_bundle_wm h ms : enc_bundle h ms = h ++ enc_wmsgs (map wm_of ms).
Proof.
  unfold enc_bundle, enc_wmsgs. f_equal. f_equal. rewrite map_map. apply map_ext, enc_message_wm.
Qed.

Lemma wf_chunks ws : Forall wf_wmsg ws -> Forall (fun b => zlen b + 4 < 2^31) (map wbody ws).
Proof. intros H. rewrite Forall_map. eapply Forall_impl; [|exact H]. intros w (_ & _ & Hl). exact Hl. Qed.

(** The structures the iterator hands out, one per message. *)
Fixpoint views (m : msg_s) (p : Z) (ws : list wmsg) : list msg_s :=
  match ws with
  | [] => []
  | w :: ws' => let m' := wrapped m p w in m' :: views m' (p + zlen (enc_wmsg w)) ws'
  end.

(** Running a body over the views, stopping early if it says so. *)
Fixpoint over {S R} (body : S -> msg_s -> res (lres S R)) (s : S) (vs : list msg_s) : res (lres S R) :=
  match vs with
  | [] => Ok (Cont s)
  | m :: vs' =>
      do r <- body s m;
      match r with Cont s' => over body s' vs' | Done x => Ok (Done x) end
  end.

Lemma visit_views {S R} (body : S -> msg_s -> res (lres S R)) buf post : forall ws P m s,
  buf = P ++ enc_wmsgs ws ++ post -> Forall wf_wmsg ws ->
  drop_msg (visit (iter_body buf body) (m, s) (zlen P) (map wbody ws))
  = over body s (views m (zlen P) ws).
Proof.
  induction ws as [|w ws IH]; intros P m s Hbuf Hwf; [reflexivity|].
  inversion Hwf as [|? ? H1 H2]; subst x l. cbn [map visit views over].
  unfold iter_body at 1. cbn [fst snd].
  assert (Hw : wrap m buf (zlen P) = Ok (wrapped m (zlen P) w)).
  { rewrite Hbuf. unfold enc_wmsgs. cbn [map concat]. rewrite <- app_assoc. now apply wrap_ok. }
  rewrite Hw. cbn [bind].
  destruct (body s (wrapped m (zlen P) w)) as [[s'|x]|u|]; cbn [bind]; try reflexivity.
  specialize (IH (P ++ enc_wmsg w) (wrapped m (zlen P) w) s').
  assert (Hz : zlen (enc_wmsg w) = 4 + zlen (wbody w)) by apply zlen_sized'.
  rewrite zlen_app, Hz in IH. rewrite Hz.
  replace (zlen P + 4 + zlen (wbody w)) with (zlen P + (4 + zlen (wbody w))) by lia.
  apply IH; [|assumption].
  rewrite Hbuf. unfold enc_wmsgs. cbn [map concat]. unfold enc_wmsg. now rewrite <- !app_assoc.
Qed.

Theorem bundle_loop_over {S R} (body : S -> msg_s -> res (lres S R)) s P hdr ws post :
  zlen hdr = 16 -> Forall wf_wmsg ws ->
  bundle_loop (P ++ hdr ++ enc_wmsgs ws ++ post) (zlen P) (16 + zlen (enc_wmsgs ws)) body s
  = over body s (views init_msg (zlen P + 16) ws).
Proof.
  intros Hh Hw. rewrite enc_wmsgs_chunks.
  rewrite bundle_loop_visit by (try assumption; now apply wf_chunks).
  replace (zlen P + 16) with (zlen (P ++ hdr)) by (zl; lia).
  apply visit_views with (post := post); [|assumption].
  rewrite enc_wmsgs_chunks. now rewrite <- !app_assoc.
Qed.
