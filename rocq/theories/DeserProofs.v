(** Deserialization rebuilds the encoded values. *)

From Coq Require Import ZArith List Bool Lia.
From Verif Require Import Base BaseProofs Bytes UtilModel UtilProofs TimetagModel TimetagProofs
  WireSpec SerialModel SerialSpec SerialProofs SerialProps AtomSModel WireModel WireProofs WireWalk
  ArgProofs.
Import ListNotations.
Open Scope Z_scope.
Ltac Zify.zify_post_hook ::= Z.div_mod_to_equations.

(** Addresses a message object accepts. *)
Definition slash (a : list Z) : Prop := hd 0 a = 47.

(** The objects deserialization builds. *)
Fixpoint obj_of (v : value) : atom :=
  match v with
  | VNum32 t x =>
      Atom t (if (t =? 99) || (t =? 67) then x mod 2^8
              else if (t =? 117) || (t =? 85) then x mod 2^16 else x) PNone
  | VNum64 t x => Atom t x PNone
  | VTime s f => Atom 116 (s + 2^32 * f) PNone
  | VStr s => Atom 115 0 (PStr s)
  | VBlob d => Atom 98 0 (PBlob (be_bytes 4 (zlen d) ++ d ++
                 zeros (4 * ((zlen d + 1 + 3) / 4) - zlen d)))
  | VFlag t => Atom t 0 PNone
  | VBundle ms => Atom 46 0 (PBndl (map umsg_of ms))
  end
with umsg_of (m : message) : umsg :=
  match m with M a vs => UMsg (Some a) (map obj_of vs) end.

(** Nesting depth. *)
Fixpoint vdepth (v : value) : nat :=
  match v with
  | VBundle ms => S (fold_right (fun m d => Nat.max (mdepth m) d) 0 ms)%nat
  | _ => 0%nat
  end
with mdepth (m : message) : nat :=
  match m with M _ vs => fold_right (fun v d => Nat.max (vdepth v) d) 0%nat vs end.

Lemma max_le {A} (f : A -> nat) l n :
  (fold_right (fun x d => Nat.max (f x) d) 0 l <= n)%nat <-> Forall (fun x => (f x <= n)%nat) l.
Proof.
  induction l as [|x l IH]; cbn [fold_right]; split; intros H.
  - constructor.
  - lia.
  - constructor; [lia|]. apply IH. lia.
  - inversion H; subst. apply IH in H3. lia.
Qed.

Lemma std_any Q : (forall v, std_value Q v -> std_value any v) /\
  (forall m, std_message Q m -> std_message any m).
Proof.
  assert (HV : forall v,
    match v with VBundle ms => Forall (fun m => std_message Q m -> std_message any m) ms | _ => True end ->
    std_value Q v -> std_value any v).
  { intros v H. destruct v; cbn [std_value]; auto.
    intros Hs. apply all_Forall in Hs. apply all_Forall. eapply Forall_mp; eassumption. }
  assert (HM : forall a vs, Forall (fun v => std_value Q v -> std_value any v) vs ->
    std_message Q (M a vs) -> std_message any (M a vs)).
  { intros a vs H Hs. apply std_args in Hs as (H1 & H2 & _ & H3). apply std_args.
    split; [assumption|]. split; [assumption|]. split; [exact I|]. eapply Forall_mp; eassumption. }
  split; [exact (value_ind2 _ _ HV HM) | exact (message_ind2 _ _ HV HM)].
Qed.

(** Reading a number back. *)
Ltac tags := cbn [Z.eqb Pos.eqb orb].

Lemma u32_id x : 0 <= x < 2^32 -> u32 x = x.
Proof. apply Z.mod_small. Qed.
Lemma u64_id x : 0 <= x < 2^64 -> u64 x = x.
Proof. apply Z.mod_small. Qed.

Lemma enc_chunk {A} (f : A -> bytes) l x : In x l -> zlen (f x) <= zlen (concat (map f l)).
Proof.
  induction l as [|y l IH]; cbn [In map concat]; [tauto|]. rewrite zlen_app.
  pose proof (zlen_nonneg (concat (map f l))). pose proof (zlen_nonneg (f y)).
  intros [->|H1]; [lia|]. apply IH in H1. lia.
Qed.

Definition deser_value_ok (v : value) : Prop := forall P post fuel,
  std_value slash v -> zlen (enc_value v) + 4 < 2^31 -> (vdepth v <= fuel)%nat ->
  let buf := P ++ enc_value v ++ post in
  deser_atom (deser_bundle fuel buf) buf (AS (zlen P) (vtag v)) = Ok (obj_of v).

Definition deser_msg_ok (m : message) : Prop := forall P post m0 fuel,
  std_message slash m -> zlen (enc_message m) + 4 < 2^31 -> (mdepth m <= fuel)%nat ->
  ms_cache_size m0 = 0 ->
  let buf := P ++ enc_message m ++ post in
  deser_msg (deser_bundle fuel buf) buf (wrapped m0 (zlen P) (wm_of m)) = Ok (umsg_of m).

(** All messages of a bundle. *)
Lemma over_deser buf post fuel : forall ms P m0 acc,
  Forall deser_msg_ok ms -> Forall (std_message slash) ms ->
  Forall (fun m => (mdepth m <= fuel)%nat) ms ->
  zlen (concat (map enc_message ms)) + 4 < 2^31 -> ms_cache_size m0 = 0 ->
  buf = P ++ concat (map enc_message ms) ++ post ->
  over (fun acc m => do x <- deser_msg (deser_bundle fuel buf) buf m; Ok (@Cont _ unit (acc ++ [x]))) acc
    (views m0 (zlen P) (map wm_of ms))
  = Ok (Cont (acc ++ map umsg_of ms)).
Proof.
  induction ms as [|m ms IH]; intros P m0 acc Hok Hstd Hd Hlen Hc Hbuf; cbn [map views over].
  - now rewrite app_nil_r.
  - inversion Hok as [|? ? K1 K2]; subst x l. inversion Hstd as [|? ? S1 S2]; subst x l.
    inversion Hd as [|? ? D1 D2]; subst x l. cbn [map concat] in Hlen, Hbuf. rewrite zlen_app in Hlen.
    pose proof (zlen_nonneg (enc_message m)).
    pose proof (zlen_nonneg (concat (map enc_message ms))).
    assert (H1 := K1 P (concat (map enc_message ms) ++ post) m0 fuel S1 ltac:(lia) D1 Hc).
    cbv zeta in H1. rewrite app_assoc in Hbuf. rewrite app_assoc in H1.
    replace ((P ++ enc_message m) ++ concat (map enc_message ms) ++ post) with buf in H1
      by (rewrite Hbuf; now rewrite <- !app_assoc).
    rewrite H1. cbn [bind].
    rewrite <- enc_message_wm. rewrite <- zlen_app.
    rewrite IH; try assumption; try lia.
    + now rewrite <- app_assoc.
    + rewrite Hbuf. now rewrite <- !app_assoc.
Qed.

Lemma map_wm_enc ms : enc_wmsgs (map wm_of ms) = concat (map enc_message ms).
Proof.
  unfold enc_wmsgs. f_equal. rewrite map_map. apply map_ext. intros m. symmetry. apply enc_message_wm.
Qed.

Lemma std_wfs ms : Forall (std_message slash) ms -> zlen (concat (map enc_message ms)) < 2^31 ->
  Forall wf_wmsg (map wm_of ms).
Proof.
  intros Hs Hl. rewrite Forall_map. rewrite Forall_forall in *. intros m Hm.
  apply (std_wf slash); [now apply Hs|]. pose proof (enc_chunk enc_message ms m Hm). lia.
Qed.

Lemma deser_bundle_of P hdr ms post fuel :
  zlen hdr = 16 -> Forall deser_msg_ok ms -> Forall (std_message slash) ms ->
  Forall (fun m => (mdepth m <= fuel)%nat) ms -> zlen (concat (map enc_message ms)) + 4 < 2^31 ->
  deser_bundle (S fuel) (P ++ (hdr ++ concat (map enc_message ms)) ++ post) (zlen P)
    (zlen (hdr ++ concat (map enc_message ms))) = Ok (map umsg_of ms).
Proof.
  intros Hh Hok Hs Hd Hl. cbn [deser_bundle].
  rewrite zlen_app, Hh. rewrite <- map_wm_enc.
  replace (P ++ (hdr ++ enc_wmsgs (map wm_of ms)) ++ post)
    with (P ++ hdr ++ enc_wmsgs (map wm_of ms) ++ post) by now rewrite <- !app_assoc.
  rewrite bundle_loop_over; [|assumption|apply std_wfs; [assumption|lia]].
  replace (zlen P + 16) with (zlen (P ++ hdr)) by (zl; lia).
  rewrite (over_deser _ post fuel ms (P ++ hdr) init_msg []); try assumption; try reflexivity.
  rewrite map_wm_enc. now rewrite <- !app_assoc.
Qed.

(** All arguments of a message. *)
Lemma over_atoms_deser buf post fuel d P0 : forall vs done,
  let all := done ++ vs in
  Forall deser_value_ok vs -> Forall (std_value slash) vs ->
  Forall (fun v => (vdepth v <= fuel)%nat) vs ->
  zlen (concat (map enc_value all)) + 4 < 2^31 ->
  buf = P0 ++ concat (map enc_value all) ++ post -> d = zlen P0 ->
  over_atoms (fun acc a => do x <- deser_atom (deser_bundle fuel buf) buf a; Ok (@Cont _ unit (acc ++ [x])))
    (map obj_of done)
    (map (fun n => AS (d + off all n) (vtag (nth n all (VFlag 0)))) (seq (length done) (length vs)))
  = Ok (Cont (map obj_of all)).
Proof.
  induction vs as [|v vs IH]; intros done all Hok Hs Hd Hl Hbuf Hd0; cbn [length seq map over_atoms].
  - unfold all. now rewrite app_nil_r.
  - inversion Hok as [|? ? K1 K2]; subst x l. inversion Hs as [|? ? S1 S2]; subst x l.
    inversion Hd as [|? ? D1 D2]; subst x l.
    assert (Hall : all = (done ++ [v]) ++ vs) by (unfold all; now rewrite <- app_assoc).
    assert (Hn : nth (length done) all (VFlag 0) = v) by (unfold all; now rewrite nth_middle).
    assert (Ho : off all (length done) = zlen (concat (map enc_value done))).
    { unfold off, all. rewrite firstn_exact by reflexivity. reflexivity. }
    rewrite Hn, Ho.
    assert (Hb : buf = (P0 ++ concat (map enc_value done)) ++ enc_value v ++ concat (map enc_value vs) ++ post).
    { rewrite Hbuf. unfold all. rewrite map_app, concat_app. cbn [map concat]. now rewrite <- !app_assoc. }
    assert (H1 := K1 (P0 ++ concat (map enc_value done)) (concat (map enc_value vs) ++ post) fuel S1).
    cbv zeta in H1. rewrite <- Hb in H1. rewrite zlen_app in H1. rewrite Hd0.
    unfold all in Hl. rewrite map_app, concat_app in Hl. cbn [map concat] in Hl. rewrite !zlen_app in Hl.
    pose proof (zlen_nonneg (concat (map enc_value done))). pose proof (zlen_nonneg (concat (map enc_value vs))).
    rewrite H1 by (try lia; assumption). cbn [bind].
    specialize (IH (done ++ [v])). cbv zeta in IH. rewrite <- Hall in IH.
    rewrite app_length, Nat.add_1_r, map_app in IH. cbn [map] in IH.
    rewrite Hd0 in IH. apply IH; try assumption; try reflexivity.
    rewrite Hall, map_app, concat_app, map_app, concat_app. cbn [map concat]. rewrite !zlen_app.
    change (zlen (@nil Z)) with 0. lia.
Qed.

Lemma deser_all : (forall v, deser_value_ok v) /\ (forall m, deser_msg_ok m).
Proof.
  assert (HV : forall v, match v with VBundle ms => Forall deser_msg_ok ms | _ => True end -> deser_value_ok v).
  { intros v Hsub P post fuel Hs Hl Hd buf. unfold deser_atom. cbn [as_tt as_data].
    destruct v; cbn [vtag std_value enc_value obj_of] in *.
    - destruct Hs as [Ht Hx].
      assert (Hr : rd32 buf (zlen P) = Ok v) by (unfold buf; rewrite rd32_be; now rewrite u32_id).
      repeat destruct Ht as [<-|Ht]; try destruct Ht; tags;
        unfold as_int8, as_int16, as_uint8, as_uint16, as_int32, as_uint32, as_float_bits; tags;
        rewrite Hr; cbn [bind]; f_equal;
        unfold set_int8, set_int16, set_int32, set_uint8, set_uint16, set_uint32, set_float,
          atom_fresh, store; f_equal; unfold s8, s16, s32, u8, u16, u32; lia.
    - destruct Hs as [Ht Hx].
      assert (Hr : rd64 buf (zlen P) = Ok v) by (unfold buf; rewrite rd64_be; now rewrite u64_id).
      repeat destruct Ht as [<-|Ht]; try destruct Ht; tags;
        unfold as_int64, as_uint64, as_double_bits; tags;
        rewrite Hr; cbn [bind]; f_equal;
        unfold set_int64, set_uint64, set_double, atom_fresh, store; f_equal; unfold s64, u64; lia.
    - tags. destruct Hs as [H1 H2]. unfold buf.
      rewrite tt_decode_at. cbn [bind]. unfold set_timetag, atom_fresh. cbn [TimetagModel.sec TimetagModel.frac].
      now rewrite !u32_id by (rewrite ?u32_id; assumption).
    - tags. unfold buf. rewrite rdstr_pad by apply Hs. cbn [bind]. reflexivity.
    - tags. unfold set_blob, buf. rewrite zlen_app, zlen_be, zlen_pad_blob in Hl.
      pose proof (zlen_nonneg d) as Hnn. rewrite <- app_assoc, rd32_be. cbn [bind].
      rewrite u32_id by lia. rewrite s32_id by lia.
      destruct ((zlen d <? 0) || (2^31 <=? zlen d + 4)) eqn:E; [lia|].
      unfold pad_blob.
      replace (P ++ be_bytes 4 (zlen d) ++ (d ++ zeros (- zlen d mod 4)) ++ post)
        with (P ++ (be_bytes 4 (zlen d) ++ d) ++ (zeros (- zlen d mod 4) ++ post))
        by now rewrite <- !app_assoc.
      replace (zlen d + 4) with (zlen (be_bytes 4 (zlen d) ++ d)) by (rewrite zlen_app, zlen_be; lia).
      rewrite slice_app. cbn [bind]. f_equal. f_equal. f_equal. rewrite <- app_assoc. f_equal. f_equal.
      rewrite repeat_zeros. f_equal. rewrite zlen_app, zlen_be. lia.
    - repeat destruct Hs as [<-|Hs]; try destruct Hs; reflexivity.
    - tags. set (b := empty_header ++ concat (map enc_message ms)) in *.
      rewrite zlen_sized' in Hl. unfold buf. rewrite size_at by lia. cbn [bind].
      unfold sized. rewrite <- app_assoc. rewrite app_assoc.
      replace (zlen P + 4) with (zlen (P ++ be_bytes 4 (zlen b))) by (rewrite zlen_app, zlen_be; lia).
      apply all_Forall in Hs. cbn [vdepth] in Hd. destruct fuel as [|fuel]; [lia|].
      apply le_S_n in Hd. apply max_le in Hd.
      assert (Hb : zlen b = 16 + zlen (concat (map enc_message ms))) by (unfold b; now rewrite zlen_app).
      unfold b at 2 3. rewrite (deser_bundle_of _ empty_header ms post fuel); try assumption; try reflexivity.
      lia. }
  assert (HM : forall a vs, Forall deser_value_ok vs -> deser_msg_ok (M a vs)).
  { intros a vs Hsub P post m0 fuel Hs Hl Hd Hc buf.
    assert (Hs' := Hs). apply std_args in Hs' as (Ha & Hwa & Hsl & Hv).
    assert (Hany : std_message any (M a vs)) by now apply (proj2 (std_any slash)).
    assert (Hw : wf_wmsg (wm_of (M a vs))) by (apply (std_wf any); [assumption|lia]).
    set (m := wrapped m0 (zlen P) (wm_of (M a vs))).
    destruct (wrapped_args P a vs post m0 Hany ltac:(lia)) as
      (t & P0 & Ht & Hd0 & Htags & Htag & Hbuf & Hstd & Hlv & Hn & Hfuel).
    fold buf in Htags, Htag, Hbuf, Hfuel. fold m in Ht, Hd0.
    unfold deser_msg. change (ms_address m) with (Some (zlen P + 4)). cbv iota.
    assert (Hra : rdstr buf (zlen P + 4) = Ok a).
    { unfold buf. cbn [enc_message]. unfold sized. rewrite <- !app_assoc. rewrite app_assoc.
      match goal with |- rdstr ((P ++ ?sz) ++ _) _ = _ =>
        replace (zlen P + 4) with (zlen (P ++ sz)) by (rewrite zlen_app, zlen_be; lia) end.
      now apply rdstr_pad. }
    rewrite Hra. cbn [bind].
    rewrite (msg_loop_atoms buf m t (zlen P0) vs post Ht Hd0 Htags Htag P0 Hbuf eq_refl Hstd Hlv Hn m);
      try reflexivity; try assumption; [|left; exact Hc].
    assert (Hlv' : zlen (concat (map enc_value vs)) + 4 < 2^31).
    { cbn [enc_message] in Hl. rewrite zlen_sized', !zlen_app in Hl.
      pose proof (zlen_nonneg (pad_str a)). pose proof (zlen_nonneg (pad_str (44 :: map vtag vs))). lia. }
    cbn [mdepth] in Hd. apply max_le in Hd.
    assert (Hover := over_atoms_deser buf post fuel (zlen P0) P0 vs [] Hsub Hv Hd Hlv' Hbuf eq_refl).
    cbn [app map length] in Hover. unfold atoms. rewrite Hover. cbn [bind umsg_of].
    unfold set_address. unfold slash in Hsl. rewrite Hsl. reflexivity. }
  split; [exact (value_ind2 _ _ HV HM) | exact (message_ind2 _ _ HV HM)].
Qed.

(** The objects stand for the values. *)
Lemma raw_obj : (forall v, std_value slash v -> zlen (enc_value v) < 2^31 -> raw_value (obj_of v) = narrow v) /\
  (forall m, std_message slash m -> zlen (enc_message m) < 2^31 -> raw_msg (umsg_of m) = [narrow_msg m]).
Proof.
  assert (HV : forall v,
    match v with VBundle ms => Forall (fun m => std_message slash m -> zlen (enc_message m) < 2^31 ->
                                        raw_msg (umsg_of m) = [narrow_msg m]) ms | _ => True end ->
    std_value slash v -> zlen (enc_value v) < 2^31 -> raw_value (obj_of v) = narrow v).
  { intros v Hsub Hs Hl. destruct v; cbn [std_value obj_of raw_value narrow] in *.
    - destruct Hs as [Ht Hx]. repeat destruct Ht as [<-|Ht]; try destruct Ht;
        cbn [existsb Z.eqb Pos.eqb orb]; f_equal; lia.
    - destruct Hs as [Ht Hx]. repeat destruct Ht as [<-|Ht]; try destruct Ht;
        cbn [existsb Z.eqb Pos.eqb orb]; f_equal; lia.
    - cbn [existsb Z.eqb Pos.eqb orb]. destruct Hs. f_equal; lia.
    - reflexivity.
    - cbn [existsb Z.eqb Pos.eqb orb]. f_equal. unfold blob_data. cbn [enc_value] in Hl.
      rewrite zlen_app, zlen_be, zlen_pad_blob in Hl. pose proof (zlen_nonneg d).
      rewrite firstn_exact by apply be_bytes_length. rewrite skipn_exact by apply be_bytes_length.
      rewrite of_be_4, u32_id by lia. apply firstn_exact. unfold zlen. lia.
    - repeat destruct Hs as [<-|Hs]; try destruct Hs; reflexivity.
    - cbn [existsb Z.eqb Pos.eqb orb]. f_equal. rewrite map_map.
      apply all_Forall in Hs. cbn [enc_value] in Hl. rewrite zlen_sized', zlen_app in Hl.
      change (zlen empty_header) with 16 in Hl.
      assert (Hb : Forall (fun m => zlen (enc_message m) < 2^31) ms).
      { apply Forall_forall. intros m Hm. pose proof (enc_chunk enc_message ms m Hm). lia. }
      clear Hl. induction ms as [|m ms IH]; [reflexivity|]. cbn [map concat].
      inversion Hsub; inversion Hs; inversion Hb; subst. rewrite H1 by assumption. cbn [app]. f_equal.
      now apply IH. }
  assert (HM : forall a vs,
    Forall (fun v => std_value slash v -> zlen (enc_value v) < 2^31 -> raw_value (obj_of v) = narrow v) vs ->
    std_message slash (M a vs) -> zlen (enc_message (M a vs)) < 2^31 ->
    raw_msg (umsg_of (M a vs)) = [narrow_msg (M a vs)]).
  { intros a vs Hsub Hs Hl. cbn [umsg_of raw_msg narrow_msg]. f_equal. f_equal.
    apply std_args in Hs as (_ & _ & _ & Hv). rewrite map_map. apply map_ext_in. intros v Hin.
    rewrite Forall_forall in *. apply Hsub; [assumption|now apply Hv|].
    cbn [enc_message] in Hl. rewrite zlen_sized', !zlen_app in Hl.
    pose proof (zlen_nonneg (pad_str a)). pose proof (zlen_nonneg (pad_str (44 :: map vtag vs))).
    pose proof (enc_chunk enc_value vs v Hin). lia. }
  split; [exact (value_ind2 _ _ HV HM) | exact (message_ind2 _ _ HV HM)].
Qed.

(** They are proper objects. *)
Lemma ok_obj : (forall v, std_value slash v -> zlen (enc_value v) + 4 < 2^31 -> ok_atom (obj_of v)) /\
  (forall m, std_message slash m -> zlen (enc_message m) + 4 < 2^31 -> ok_msg (umsg_of m)).
Proof.
  assert (HV : forall v,
    match v with VBundle ms => Forall (fun m => std_message slash m -> zlen (enc_message m) + 4 < 2^31 ->
                                        ok_msg (umsg_of m)) ms | _ => True end ->
    std_value slash v -> zlen (enc_value v) + 4 < 2^31 -> ok_atom (obj_of v)).
  { intros v Hsub Hs Hl. destruct v; cbn [std_value obj_of ok_atom] in *.
    - destruct Hs as [Ht Hx]. repeat destruct Ht as [<-|Ht]; try destruct Ht;
        cbn [existsb Z.eqb Pos.eqb orb]; lia.
    - destruct Hs as [Ht Hx]. repeat destruct Ht as [<-|Ht]; try destruct Ht; lia.
    - lia.
    - destruct Hs as [H1 H2]. cbn [enc_value] in Hl. rewrite zlen_pad_str in Hl.
      split; [lia|]. split; [reflexivity|]. split; [assumption|]. split; [assumption|lia].
    - split; [lia|]. split; [reflexivity|]. cbn [enc_value] in Hl.
      rewrite zlen_app, zlen_be, zlen_pad_blob in Hl. pose proof (zlen_nonneg d).
      unfold blob_ok. rewrite firstn_exact by apply be_bytes_length. rewrite of_be_4, u32_id by lia.
      rewrite !zlen_app, zlen_be, zlen_zeros by lia.
      split; [|lia]. apply wf_app; [apply be_bytes_wf|]. apply wf_app; [assumption|apply wf_zeros].
    - repeat destruct Hs as [<-|Hs]; try destruct Hs; lia.
    - split; [lia|]. split; [reflexivity|]. apply all_Forall in Hs. apply all_Forall.
      cbn [enc_value] in Hl. rewrite zlen_sized', zlen_app in Hl. change (zlen empty_header) with 16 in Hl.
      rewrite Forall_map. rewrite Forall_forall in *. intros m Hm.
      apply Hsub; [assumption|now apply Hs|]. pose proof (enc_chunk enc_message ms m Hm). lia. }
  assert (HM : forall a vs,
    Forall (fun v => std_value slash v -> zlen (enc_value v) + 4 < 2^31 -> ok_atom (obj_of v)) vs ->
    std_message slash (M a vs) -> zlen (enc_message (M a vs)) + 4 < 2^31 -> ok_msg (umsg_of (M a vs))).
  { intros a vs Hsub Hs Hl. cbn [umsg_of ok_msg].
    apply std_args in Hs as (Ha & Hwa & _ & Hv).
    cbn [enc_message] in Hl. rewrite zlen_sized', !zlen_app in Hl.
    assert (Hpt : zlen vs < zlen (pad_str (44 :: map vtag vs))).
    { rewrite zlen_pad_str. zl. rewrite zlen_map. lia. }
    pose proof (zlen_pad_str a). pose proof (zlen_nonneg a). pose proof (zlen_nonneg vs).
    pose proof (zlen_nonneg (concat (map enc_value vs))).
    split; [split; [assumption|split; [assumption|lia]]|]. rewrite zlen_map. split; [lia|].
    apply all_Forall. rewrite Forall_map. rewrite Forall_forall in *. intros v Hin.
    apply Hsub; [assumption|now apply Hv|]. pose proof (enc_chunk enc_value vs v Hin). lia. }
  split; [exact (value_ind2 _ _ HV HM) | exact (message_ind2 _ _ HV HM)].
Qed.

(** Nesting is bounded by the size. *)
Lemma depth_le : (forall v, Z.of_nat (vdepth v) <= zlen (enc_value v)) /\
  (forall m, Z.of_nat (mdepth m) <= zlen (enc_message m)).
Proof.
  assert (Hmax : forall A (f : A -> nat) (g : A -> bytes) l,
    Forall (fun x => Z.of_nat (f x) <= zlen (g x)) l ->
    Z.of_nat (fold_right (fun x d => Nat.max (f x) d) 0%nat l) <= zlen (concat (map g l))).
  { intros A f g l H. induction H as [|x l Hx _ IH]; cbn [fold_right map concat]; [cbn; lia|].
    rewrite zlen_app. pose proof (zlen_nonneg (g x)). pose proof (zlen_nonneg (concat (map g l))). lia. }
  assert (HV : forall v,
    match v with VBundle ms => Forall (fun m => Z.of_nat (mdepth m) <= zlen (enc_message m)) ms | _ => True end ->
    Z.of_nat (vdepth v) <= zlen (enc_value v)).
  { intros v H. destruct v; try apply zlen_nonneg. cbn [vdepth enc_value].
    rewrite zlen_sized', zlen_app. change (zlen empty_header) with 16.
    pose proof (Hmax _ mdepth enc_message ms H). lia. }
  assert (HM : forall a vs, Forall (fun v => Z.of_nat (vdepth v) <= zlen (enc_value v)) vs ->
    Z.of_nat (mdepth (M a vs)) <= zlen (enc_message (M a vs))).
  { intros a vs H. cbn [mdepth enc_message]. rewrite zlen_sized', !zlen_app.
    pose proof (Hmax _ vdepth enc_value vs H).
    pose proof (zlen_nonneg (pad_str a)). pose proof (zlen_nonneg (pad_str (44 :: map vtag vs))). lia. }
  split; [exact (value_ind2 _ _ HV HM) | exact (message_ind2 _ _ HV HM)].
Qed.
