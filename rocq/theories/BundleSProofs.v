(** Proofs about BundleSModel.v: every function walks the messages one after
    the other. *)

From Coq Require Import ZArith List Bool Lia.
From Verif Require Import Base BaseProofs Bytes UtilModel UtilProofs MatchModel MatchSafety
  WireSpec SerialModel SerialSpec SerialProofs WireModel WireProofs WireWalk WireProps BundleSModel.
Import ListNotations.
Open Scope Z_scope.

(** * Walking with the messages in view *)

Fixpoint walk {S R} (f : S -> Z -> wmsg -> res (lres S R)) (s : S) (p : Z) (ws : list wmsg)
  : res (lres S R) :=
  match ws with
  | [] => Ok (Cont s)
  | w :: ws' =>
      do r <- f s p w;
      match r with Cont s' => walk f s' (p + zlen (enc_wmsg w)) ws' | Done x => Ok (Done x) end
  end.

Lemma enc_wmsgs_cons w ws : enc_wmsgs (w :: ws) = enc_wmsg w ++ enc_wmsgs ws.
Proof. reflexivity. Qed.
Lemma enc_wmsgs_app ws ws' : enc_wmsgs (ws ++ ws') = enc_wmsgs ws ++ enc_wmsgs ws'.
Proof. unfold enc_wmsgs. now rewrite map_app, concat_app. Qed.
Lemma enc_wmsgs_one w : enc_wmsgs [w] = enc_wmsg w.
Proof. unfold enc_wmsgs. cbn [map concat]. apply app_nil_r. Qed.
Lemma zlen_enc w : zlen (enc_wmsg w) = 4 + zlen (wbody w).
Proof. apply zlen_sized'. Qed.

Lemma visit_walk {S R} buf (body : S -> Z -> res (lres S R)) f :
  (forall s P w post, buf = P ++ enc_wmsg w ++ post -> wf_wmsg w ->
     body s (zlen P) = f s (zlen P) w) ->
  forall ws P post s, buf = P ++ enc_wmsgs ws ++ post -> Forall wf_wmsg ws ->
  visit body s (zlen P) (map wbody ws) = walk f s (zlen P) ws.
Proof.
  intros Hb. induction ws as [|w ws IH]; intros P post s Hbuf Hw; [reflexivity|].
  inversion Hw as [|? ? H1 H2]; subst x l. rewrite enc_wmsgs_cons in Hbuf.
  cbn [map visit walk]. rewrite (Hb s P w (enc_wmsgs ws ++ post)); [|rewrite Hbuf; now rewrite <- app_assoc|assumption].
  destruct (f s (zlen P) w) as [[s'|x]|u|]; cbn [bind]; try reflexivity.
  rewrite zlen_enc. replace (zlen P + 4 + zlen (wbody w)) with (zlen (P ++ enc_wmsg w))
    by (zl; rewrite zlen_enc; lia).
  replace (zlen P + (4 + zlen (wbody w))) with (zlen (P ++ enc_wmsg w))
    by (zl; rewrite zlen_enc; lia).
  apply IH with (post := post); [|assumption]. rewrite Hbuf. now rewrite <- !app_assoc.
Qed.

Lemma raw_walk {S R} hdr ws post (body : S -> Z -> res (lres S R)) f s :
  zlen hdr = 16 -> Forall wf_wmsg ws ->
  (forall s P w post', hdr ++ enc_wmsgs ws ++ post = P ++ enc_wmsg w ++ post' -> wf_wmsg w ->
     body s (zlen P) = f s (zlen P) w) ->
  raw_loop (hdr ++ enc_wmsgs ws ++ post) 0 (16 + zlen (enc_wmsgs ws)) body s = walk f s 16 ws.
Proof.
  intros Hh Hw Hb. rewrite <- Hh at 2. rewrite <- (visit_walk _ body f Hb ws hdr post s eq_refl Hw).
  pose proof (raw_loop_visit body s [] hdr (map wbody ws) post Hh (wf_chunks ws Hw)) as H.
  rewrite <- enc_wmsgs_chunks in H. cbn [app] in H. change (zlen (@nil Z)) with 0 in H.
  rewrite H, Hh. reflexivity.
Qed.

Lemma addr_at P w post : wf_wmsg w -> rdstr (P ++ enc_wmsg w ++ post) (zlen P + 4) = Ok (w_addr w).
Proof.
  intros (Ha & _ & _). unfold enc_wmsg, sized, wbody.
  set (sz := be_bytes 4 _). assert (Hsz : zlen sz = 4) by apply zlen_be.
  replace (zlen P + 4) with (zlen (P ++ sz)) by (zl; lia).
  rewrite <- !app_assoc. rewrite app_assoc. now apply rdstr_pad.
Qed.

Lemma msg_size_at P w post : wf_wmsg w ->
  rd32 (P ++ enc_wmsg w ++ post) (zlen P) = Ok (zlen (wbody w)).
Proof. intros (_ & _ & Hl). apply size_at. lia. Qed.

Lemma msg_step_at w : wf_wmsg w -> add_int (s32 (zlen (wbody w))) 4 = Ok (zlen (enc_wmsg w)).
Proof.
  intros (_ & _ & Hl). pose proof (zlen_nonneg (wbody w)). rewrite s32_id by lia.
  rewrite add_int_ok by lia. rewrite zlen_enc. f_equal. lia.
Qed.

(** * Looking up *)

(** Does the matcher's answer make an address a hit?  Full matches are those
    with code 3; otherwise every non-zero code counts that says the pattern was
    used up, or that stopped in front of a slash of the pattern. *)
Definition selects (fullmatch : bool) (pat adr : list Z) : bool :=
  match osc_match pat adr with
  | Ok r => if fullmatch then code r =? 3
            else negb (code r =? 0) &&
                 (Z.testbit (code r) 1 || (nth (Z.to_nat (poff r)) pat 0 =? 47))
  | _ => false
  end.

Lemma rdc_nth s i : 0 <= i <= zlen s -> rdc s i = Ok (nth (Z.to_nat i) s 0).
Proof.
  intros H. unfold rdc. destruct (rd_ok (s ++ [0]) i) as (x & Hx & Hn); [zl; lia|].
  rewrite Hx. f_equal. destruct (Z_lt_le_dec i (zlen s)).
  - rewrite nth_error_app1 in Hn by (unfold zlen in *; lia).
    symmetry. now apply nth_error_nth.
  - assert (i = zlen s) as -> by lia. unfold zlen in *. rewrite Nat2Z.id in *.
    rewrite nth_error_app2, Nat.sub_diag in Hn by lia. cbn in Hn. injection Hn as <-.
    now rewrite nth_overflow by lia.
Qed.

Lemma land2_testbit c : (Z.land c 2 =? 0) = negb (Z.testbit c 1).
Proof.
  destruct (Z.testbit c 1) eqn:E; cbn [negb].
  - apply Z.eqb_neq. intros H. assert (Hb : Z.testbit (Z.land c 2) 1 = false) by (rewrite H; reflexivity).
    rewrite Z.land_spec, E in Hb. discriminate.
  - apply Z.eqb_eq. apply Z.bits_inj'. intros n Hn. rewrite Z.land_spec, Z.bits_0.
    destruct (Z.eq_dec n 1) as [->|Hne]; [now rewrite E|].
    change 2 with (2^1). rewrite Z.pow2_bits_false by lia. apply andb_false_r.
Qed.

Lemma hit_selects fullmatch pat adr :
  (do r <- osc_match pat adr; hit fullmatch pat r) = Ok (selects fullmatch pat adr).
Proof.
  unfold selects. destruct (osc_match_safe pat adr) as (r & Hr & _ & H1 & _). rewrite Hr.
  cbn [bind]. unfold hit. destruct fullmatch; [reflexivity|].
  destruct (code r =? 0); [reflexivity|]. rewrite land2_testbit.
  destruct (Z.testbit (code r) 1); cbn [negb orb andb]; [reflexivity|].
  rewrite rdc_nth by lia. reflexivity.
Qed.

(** Splitting the double bind of the bodies. *)
Lemma match_hit {A} buf fullmatch pat P w post (k : bool -> res A) :
  buf = P ++ enc_wmsg w ++ post -> wf_wmsg w ->
  (do r <- match_at buf pat (zlen P); do h <- hit fullmatch pat r; k h) =
  k (selects fullmatch pat (w_addr w)).
Proof.
  intros -> Hw. unfold match_at. rewrite addr_at by assumption. cbn [bind].
  pose proof (hit_selects fullmatch pat (w_addr w)) as H.
  destruct (osc_match pat (w_addr w)) as [r|u|]; cbn [bind] in *; try discriminate.
  rewrite H. reflexivity.
Qed.

Lemma walk_find (q : Z -> wmsg -> bool) {R} (g : Z -> R) : forall ws p,
  walk (fun (_ : unit) p w => Ok (if q p w then Done (g p) else Cont tt)) tt p ws =
  Ok (match find (fun pw => q (fst pw) (snd pw)) (combine (starts p ws) ws) with
      | Some pw => Done (g (fst pw))
      | None => Cont tt
      end).
Proof.
  induction ws as [|w ws IH]; intros p; [reflexivity|].
  cbn [walk starts combine find bind fst snd]. destruct (q p w); [reflexivity|]. apply IH.
Qed.

Lemma find_combine_existsb (q : wmsg -> bool) : forall ws p,
  (match find (fun pw => q (snd pw)) (combine (starts p ws) ws) with Some _ => true | None => false end)
  = existsb q ws.
Proof.
  induction ws as [|w ws IH]; intros p; [reflexivity|]. cbn [starts combine find existsb snd].
  destruct (q w); [reflexivity|]. apply IH.
Qed.

Lemma address_exists_ok fullmatch pat hdr ws post : zlen hdr = 16 -> Forall wf_wmsg ws ->
  address_exists (hdr ++ enc_wmsgs ws ++ post) (16 + zlen (enc_wmsgs ws)) pat fullmatch
  = Ok (existsb (fun w => selects fullmatch pat (w_addr w)) ws).
Proof.
  intros Hh Hw. unfold address_exists.
  rewrite (raw_walk hdr ws post _
    (fun (_ : unit) (_ : Z) w => Ok (if selects fullmatch pat (w_addr w) then Done true else Cont tt)));
    [|assumption|assumption|].
  2:{ intros s P w post' Hb Hwf. now rewrite (match_hit _ fullmatch pat P w post' _ Hb Hwf). }
  rewrite (walk_find (fun _ w => selects fullmatch pat (w_addr w)) (fun _ => true)). cbn [bind].
  rewrite <- (find_combine_existsb _ ws 16).
  destruct (find _ _); reflexivity.
Qed.

Definition found (q : wmsg -> bool) (ws : list wmsg) : option (Z * wmsg) :=
  find (fun pw => q (snd pw)) (combine (starts 16 ws) ws).

Lemma first_full_match_ok pat hdr ws post : zlen hdr = 16 -> Forall wf_wmsg ws ->
  first_full_match (hdr ++ enc_wmsgs ws ++ post) (16 + zlen (enc_wmsgs ws)) pat
  = Ok (option_map fst (found (fun w => selects true pat (w_addr w)) ws)).
Proof.
  intros Hh Hw. unfold first_full_match.
  rewrite (raw_walk hdr ws post _
    (fun (_ : unit) p w => Ok (if selects true pat (w_addr w) then Done p else Cont tt)));
    [|assumption|assumption|].
  2:{ intros s P w post' Hb Hwf.
      pose proof (match_hit _ true pat P w post' (fun h => Ok (if h then @Done unit Z (zlen P) else Cont tt)) Hb Hwf) as H.
      cbn beta in H. rewrite <- H. clear H. destruct (match_at _ pat (zlen P)); reflexivity. }
  rewrite (walk_find (fun _ w => selects true pat (w_addr w)) (fun p => p)). cbn [bind].
  unfold found. destruct (find _ _); reflexivity.
Qed.

Lemma streq_iff a b : streq a b = true <-> a = b.
Proof. unfold streq. destruct (list_eq_dec Z.eq_dec a b); split; congruence. Qed.

Lemma first_equal_addr_ok adr hdr ws post : zlen hdr = 16 -> Forall wf_wmsg ws ->
  first_equal_addr (hdr ++ enc_wmsgs ws ++ post) (16 + zlen (enc_wmsgs ws)) adr
  = Ok (option_map fst (found (fun w => streq adr (w_addr w)) ws)).
Proof.
  intros Hh Hw. unfold first_equal_addr.
  rewrite (raw_walk hdr ws post _
    (fun (_ : unit) p w => Ok (if streq adr (w_addr w) then Done p else Cont tt)));
    [|assumption|assumption|].
  2:{ intros s P w post' -> Hwf. rewrite addr_at by assumption. reflexivity. }
  rewrite (walk_find (fun _ w => streq adr (w_addr w)) (fun p => p)). cbn [bind].
  unfold found. destruct (find _ _); reflexivity.
Qed.

(** ** The array of matches *)

Lemma put_app {A} (l : list A) x y r : put (l ++ y :: r) (zlen l) x = l ++ x :: r.
Proof.
  unfold put. unfold zlen. rewrite Nat2Z.id. rewrite firstn_app, firstn_all, Nat.sub_diag.
  cbn [firstn]. rewrite app_nil_r. f_equal. f_equal.
  rewrite skipn_app, skipn_all2 by lia. replace (S (length l) - length l)%nat with 1%nat by lia.
  reflexivity.
Qed.

Lemma array_resize_grow l n : zlen l <= n ->
  array_resize l n = l ++ repeat init_msg (Z.to_nat (n - zlen l)).
Proof.
  intros H. unfold array_resize. rewrite firstn_all2.
  - f_equal. f_equal. unfold zlen in *. lia.
  - rewrite app_length, repeat_length. unfold zlen in *. lia.
Qed.

Lemma array_resize_shrink l l' : array_resize (l ++ l') (zlen l) = l.
Proof.
  unfold array_resize. unfold zlen. rewrite Nat2Z.id. rewrite <- app_assoc. now apply firstn_exact.
Qed.

(** The array holds [vs] and room for a multiple of sixteen structures. *)
Definition holds (vs : list msg_s) (st : option (list msg_s) * Z * Z) : Prop :=
  (vs = [] /\ st = (None, 0, 0)) \/
  (vs <> [] /\ exists room, st = (Some (vs ++ repeat init_msg room), zlen vs + Z.of_nat room, zlen vs)).

Lemma lookup_add_ok buf P w post vs ar mbl n :
  buf = P ++ enc_wmsg w ++ post -> wf_wmsg w -> holds vs (ar, mbl, n) ->
  exists st, lookup_add buf (zlen P) ar mbl n = Ok st /\
    holds (vs ++ [wrapped init_msg (zlen P) w]) st.
Proof.
  intros Hb Hw H.
  assert (Hmain : forall l m, l = vs ++ repeat init_msg (S m) ->
    n = zlen vs ->
    exists st, (if zlen l <=? n then Ok (Some l, zlen vs + Z.of_nat (S m), n + 1)
     else do x <- rd l n; do x' <- wrap x buf (zlen P); Ok (Some (put l n x'), zlen vs + Z.of_nat (S m), n + 1))
     = Ok st /\ holds (vs ++ [wrapped init_msg (zlen P) w]) st).
  { intros l m -> ->. destruct (_ <=? _) eqn:E.
    { zl. cbn [repeat] in E. zl. pose proof (zlen_nonneg (repeat init_msg m)). lia. }
    cbn [repeat]. rewrite rd_at. cbn [bind]. rewrite Hb, wrap_ok by assumption. cbn [bind].
    rewrite put_app. eexists. split; [reflexivity|]. right. split; [destruct vs; discriminate|].
    exists m. rewrite <- app_assoc. cbn [app]. zl.
    replace (zlen vs + (1 + 0) + Z.of_nat m) with (zlen vs + Z.of_nat (S m)) by lia.
    replace (zlen vs + (1 + 0)) with (zlen vs + 1) by lia. reflexivity. }
  destruct H as [[-> [= -> -> ->]]|(Hne & room & [= -> -> ->])].
  - unfold lookup_add. change (0 >=? 0) with true. cbn [app] in Hmain.
    destruct (Hmain (repeat init_msg 16) 15%nat eq_refl eq_refl) as (st & Hst & Hh).
    exists st. split; [exact Hst|assumption].
  - unfold lookup_add. destruct (zlen vs >=? zlen vs + Z.of_nat room) eqn:E.
    + assert (room = O) as -> by lia. cbn [repeat]. rewrite app_nil_r.
      destruct (Hmain (array_resize vs (zlen vs + Z.of_nat 0 + 16)) 15%nat) as (st & Hst & Hh).
      * rewrite array_resize_grow by lia. f_equal. f_equal. lia.
      * reflexivity.
      * exists st. split; [|assumption]. rewrite <- Hst.
        replace (zlen vs + Z.of_nat 0 + 16) with (zlen vs + Z.of_nat 16) by lia. reflexivity.
    + destruct room as [|m]; [rewrite Z.geb_leb in E; apply Z.leb_gt in E; lia|].
      destruct (Hmain (vs ++ repeat init_msg (S m)) m eq_refl eq_refl) as (st & Hst & Hh).
      exists st. split; assumption.
Qed.

Definition picked (q : wmsg -> bool) (p : Z) (ws : list wmsg) : list (Z * wmsg) :=
  filter (fun pw => q (snd pw)) (combine (starts p ws) ws).

Lemma lookup_walk buf fullmatch pat post : forall ws P vs st,
  buf = P ++ enc_wmsgs ws ++ post -> Forall wf_wmsg ws -> holds vs st ->
  exists st', walk (fun (st : option (list msg_s) * Z * Z) p w =>
      let '(ar, mbl, n) := st in
      if negb (selects fullmatch pat (w_addr w)) then Ok (@Cont _ unit st)
      else do st' <- lookup_add buf p ar mbl n; Ok (Cont st')) st (zlen P) ws = Ok (Cont st') /\
    holds (vs ++ map (fun pw => wrapped init_msg (fst pw) (snd pw))
                   (picked (fun w => selects fullmatch pat (w_addr w)) (zlen P) ws)) st'.
Proof.
  induction ws as [|w ws IH]; intros P vs st Hb Hw Hh.
  - exists st. split; [reflexivity|]. cbn. now rewrite app_nil_r.
  - inversion Hw as [|? ? H1 H2]; subst x l. rewrite enc_wmsgs_cons, <- app_assoc in Hb.
    cbn [walk]. destruct st as [[ar mbl] n]. unfold picked. cbn [starts combine filter snd].
    assert (Hb' : buf = (P ++ enc_wmsg w) ++ enc_wmsgs ws ++ post) by (rewrite Hb; now rewrite <- app_assoc).
    destruct (selects fullmatch pat (w_addr w)) eqn:E; cbn [negb bind].
    + destruct (lookup_add_ok buf P w _ vs ar mbl n Hb H1 Hh) as (st1 & Hs1 & Hh1).
      rewrite Hs1. cbn [bind map].
      destruct (IH (P ++ enc_wmsg w) _ st1 Hb' H2 Hh1) as (st2 & Hs2 & Hh2).
      rewrite zlen_app in Hs2, Hh2. exists st2. split; [exact Hs2|].
      rewrite <- app_assoc in Hh2. exact Hh2.
    + destruct (IH (P ++ enc_wmsg w) vs (ar, mbl, n) Hb' H2 Hh) as (st2 & Hs2 & Hh2).
      rewrite zlen_app in Hs2, Hh2. exists st2. split; assumption.
Qed.

Lemma lookup_ok fullmatch pat hdr ws post : zlen hdr = 16 -> Forall wf_wmsg ws ->
  let vs := map (fun pw => wrapped init_msg (fst pw) (snd pw))
              (picked (fun w => selects fullmatch pat (w_addr w)) 16 ws) in
  lookup_address (hdr ++ enc_wmsgs ws ++ post) (16 + zlen (enc_wmsgs ws)) pat fullmatch
  = Ok (match vs with [] => None | _ => Some vs end).
Proof.
  intros Hh Hw vs. unfold lookup_address.
  rewrite (raw_walk hdr ws post _
    (fun (st : option (list msg_s) * Z * Z) p w =>
      let '(ar, mbl, n) := st in
      if negb (selects fullmatch pat (w_addr w)) then Ok (@Cont _ unit st)
      else do st' <- lookup_add (hdr ++ enc_wmsgs ws ++ post) p ar mbl n; Ok (Cont st')));
    [|assumption|assumption|].
  2:{ intros [[ar mbl] n] P w post' Hb Hwf. now rewrite (match_hit _ fullmatch pat P w post' _ Hb Hwf). }
  destruct (lookup_walk (hdr ++ enc_wmsgs ws ++ post) fullmatch pat post ws hdr [] (None, 0, 0) eq_refl Hw)
    as (st & Hst & Hv).
  { left. auto. }
  rewrite Hh in Hst, Hv. rewrite Hst. cbn [bind]. cbn [app] in Hv. fold vs in Hv.
  destruct Hv as [[-> ->]|(Hne & room & ->)]; [reflexivity|].
  rewrite array_resize_shrink. destruct vs; [congruence|reflexivity].
Qed.

(** * Changing a bundle *)

(** [v] written over the beginning of [o]. *)
Definition overlay (o v : bytes) : bytes := v ++ skipn (length v) o.

Lemma zlen_overlay o v : zlen v <= zlen o -> zlen (overlay o v) = zlen o.
Proof.
  intros H. unfold overlay. zl. unfold zlen in *. rewrite skipn_length. lia.
Qed.

Lemma skipn_add {A} n m (l : list A) : skipn (n + m) l = skipn m (skipn n l).
Proof. revert l. induction n as [|n IH]; intros [|x l]; cbn [skipn plus]; try reflexivity; [now rewrite skipn_nil|apply IH]. Qed.

Lemma write_overlay o v x : zlen (v ++ x) <= zlen o ->
  write (overlay o v) (zlen v) x = Ok (overlay o (v ++ x)).
Proof.
  intros H. zl. unfold overlay.
  assert (Hs : skipn (length v) o = firstn (length x) (skipn (length v) o) ++ skipn (length (v ++ x)) o).
  { rewrite app_length, skipn_add. symmetry. apply firstn_skipn. }
  rewrite Hs at 1. rewrite write_app; [now rewrite <- app_assoc|].
  rewrite firstn_length, skipn_length. unfold zlen in *. lia.
Qed.

Lemma write_first o x : zlen x <= zlen o -> write o 0 x = Ok (overlay o x).
Proof. intros H. exact (write_overlay o [] x H). Qed.

Lemma overlay_over o v x : zlen v <= zlen x -> overlay (overlay o v) x = overlay o x.
Proof.
  intros H. unfold overlay. f_equal. rewrite skipn_app.
  rewrite skipn_all2 by (unfold zlen in *; lia). cbn [app]. rewrite <- skipn_add. f_equal.
  unfold zlen in *. lia.
Qed.

Lemma memcpy_app dst d P v post : memcpy dst d (P ++ v ++ post) (zlen P) (zlen v) = write dst d v.
Proof. unfold memcpy. now rewrite slice_app. Qed.
Lemma memcpy_first dst d v post : memcpy dst d (v ++ post) 0 (zlen v) = write dst d v.
Proof. exact (memcpy_app dst d [] v post). Qed.

(** ** removeMessage *)

Definition others (adr : list Z) (ws : list wmsg) : list wmsg :=
  filter (fun w => negb (streq (w_addr w) adr)) ws.

Lemma zlen_filter_enc q ws : zlen (enc_wmsgs (filter q ws)) <= zlen (enc_wmsgs ws).
Proof.
  induction ws as [|w ws IH]; [cbn; lia|]. cbn [filter]. rewrite enc_wmsgs_cons.
  pose proof (zlen_nonneg (enc_wmsg w)).
  destruct (q w); [rewrite enc_wmsgs_cons|]; zl; lia.
Qed.

Definition remove_step (buf : bytes) (adr : list Z) (st : bytes * Z * Z * Z) (p : Z) (w : wmsg)
  : res (lres (bytes * Z * Z * Z) unit) :=
  let '(tmp, p1, p2, _) := st in
  if streq (w_addr w) adr then
    do ' (tmp, p1) <-
      (if negb (p2 =? p) then do t <- memcpy tmp p1 buf p2 (p - p2); Ok (t, p1 + (p - p2))
       else Ok (tmp, p1));
    Ok (@Cont _ unit (tmp, p1, p + zlen (enc_wmsg w), p + zlen (enc_wmsg w)))
  else Ok (Cont (tmp, p1, p2, p + zlen (enc_wmsg w))).

(** Copying the run of messages that are kept. *)
Lemma flush_run buf hdr D Rn post z adr :
  buf = hdr ++ enc_wmsgs (D ++ Rn) ++ post -> zlen hdr = 16 ->
  zlen (hdr ++ enc_wmsgs (D ++ Rn)) <= zlen z ->
  others adr Rn = Rn ->
  let tmp := overlay z (hdr ++ enc_wmsgs (others adr D)) in
  let p1 := zlen (hdr ++ enc_wmsgs (others adr D)) in
  let p2 := zlen (hdr ++ enc_wmsgs D) in
  let p := zlen (hdr ++ enc_wmsgs (D ++ Rn)) in
  (if negb (p2 =? p) then do t <- memcpy tmp p1 buf p2 (p - p2); Ok (t, p1 + (p - p2)) else Ok (tmp, p1))
  = Ok (overlay z (hdr ++ enc_wmsgs (others adr (D ++ Rn))), zlen (hdr ++ enc_wmsgs (others adr (D ++ Rn)))).
Proof.
  intros Hb Hh Hz HR tmp p1 p2 p.
  assert (Ho : others adr (D ++ Rn) = others adr D ++ Rn).
  { unfold others in *. now rewrite filter_app, HR. }
  assert (Hp : p - p2 = zlen (enc_wmsgs Rn)) by (unfold p, p2; rewrite enc_wmsgs_app; zl; lia).
  rewrite Ho, enc_wmsgs_app. rewrite app_assoc.
  destruct (p2 =? p) eqn:E; cbn [negb].
  - assert (Hn : enc_wmsgs Rn = []).
    { destruct (enc_wmsgs Rn) as [|x l]; [reflexivity|]. zl. pose proof (zlen_nonneg l). lia. }
    rewrite Hn, app_nil_r. reflexivity.
  - rewrite Hp. rewrite Hb, enc_wmsgs_app.
    replace (hdr ++ (enc_wmsgs D ++ enc_wmsgs Rn) ++ post)
      with ((hdr ++ enc_wmsgs D) ++ enc_wmsgs Rn ++ post) by now rewrite <- !app_assoc.
    unfold p2 at 1. rewrite memcpy_app. unfold tmp, p1. rewrite write_overlay.
    + cbn [bind]. now rewrite (zlen_app (hdr ++ enc_wmsgs (others adr D))).
    + pose proof (zlen_filter_enc (fun w => negb (streq (w_addr w) adr)) D) as Hf.
      rewrite enc_wmsgs_app in Hz. unfold others. zl. lia.
Qed.

Lemma remove_walk buf hdr z adr post : forall ws D Rn,
  buf = hdr ++ enc_wmsgs (D ++ Rn ++ ws) ++ post -> zlen hdr = 16 ->
  zlen (hdr ++ enc_wmsgs (D ++ Rn ++ ws)) <= zlen z ->
  others adr Rn = Rn ->
  exists D' Rn', D' ++ Rn' = D ++ Rn ++ ws /\ others adr Rn' = Rn' /\
  walk (remove_step buf adr)
    (overlay z (hdr ++ enc_wmsgs (others adr D)), zlen (hdr ++ enc_wmsgs (others adr D)),
     zlen (hdr ++ enc_wmsgs D), zlen (hdr ++ enc_wmsgs (D ++ Rn)))
    (zlen (hdr ++ enc_wmsgs (D ++ Rn))) ws
  = Ok (Cont (overlay z (hdr ++ enc_wmsgs (others adr D')), zlen (hdr ++ enc_wmsgs (others adr D')),
     zlen (hdr ++ enc_wmsgs D'), zlen (hdr ++ enc_wmsgs (D' ++ Rn')))).
Proof.
  induction ws as [|w ws IH]; intros D Rn Hb Hh Hz HR.
  - exists D, Rn. rewrite app_nil_r. auto.
  - cbn [walk]. unfold remove_step at 1.
    assert (Hnext : zlen (hdr ++ enc_wmsgs (D ++ Rn)) + zlen (enc_wmsg w)
                    = zlen (hdr ++ enc_wmsgs (D ++ Rn ++ [w]))).
    { rewrite !enc_wmsgs_app, enc_wmsgs_one. zl. lia. }
    destruct (streq (w_addr w) adr) eqn:E.
    + rewrite (flush_run buf hdr D Rn (enc_wmsgs (w :: ws) ++ post) z adr).
      * cbn [bind]. rewrite Hnext.
        destruct (IH (D ++ Rn ++ [w]) []) as (D' & Rn' & H1 & H2 & H3).
        -- cbn [app]. rewrite <- !app_assoc. cbn [app]. exact Hb.
        -- assumption.
        -- cbn [app]. rewrite <- !app_assoc. cbn [app]. exact Hz.
        -- reflexivity.
        -- exists D', Rn'. split; [rewrite H1; cbn [app]; rewrite <- !app_assoc; reflexivity|].
           split; [assumption|]. rewrite app_nil_r in H3.
           assert (Ho : others adr (D ++ Rn ++ [w]) = others adr (D ++ Rn)).
           { unfold others. rewrite !filter_app. cbn [filter]. rewrite E. cbn [negb]. now rewrite app_nil_r. }
           rewrite Ho in H3. exact H3.
      * rewrite Hb. rewrite !enc_wmsgs_app. now rewrite <- !app_assoc.
      * assumption.
      * rewrite app_assoc, enc_wmsgs_app in Hz. pose proof (zlen_nonneg (enc_wmsgs (w :: ws))). zl. lia.
      * assumption.
    + cbn [bind]. rewrite Hnext.
      destruct (IH D (Rn ++ [w])) as (D' & Rn' & H1 & H2 & H3).
      * rewrite <- !app_assoc. exact Hb.
      * assumption.
      * rewrite <- !app_assoc. exact Hz.
      * unfold others in *. rewrite filter_app, HR. cbn [filter]. now rewrite E.
      * exists D', Rn'. split; [rewrite H1; now rewrite <- !app_assoc|]. split; assumption.
Qed.

Lemma remove_ok adr hdr ws post : zlen hdr = 16 -> Forall wf_wmsg ws ->
  let buf := hdr ++ enc_wmsgs ws ++ post in
  let v := hdr ++ enc_wmsgs (others adr ws) in
  remove_message adr (16 + zlen (enc_wmsgs ws)) buf = Ok (zlen v, overlay buf v).
Proof.
  intros Hh Hw buf v. unfold remove_message.
  pose proof (zlen_nonneg (enc_wmsgs ws)).
  set (z := repeat 0 (Z.to_nat (16 + zlen (enc_wmsgs ws)))).
  assert (Hz : zlen z = 16 + zlen (enc_wmsgs ws)) by (unfold z; unfold zlen at 1; rewrite repeat_length; lia).
  rewrite <- Hh at 1. unfold buf at 1. rewrite memcpy_first, write_first by lia. cbn [bind].
  unfold buf at 2. rewrite (raw_walk hdr ws post _ (remove_step buf adr)); [|assumption|assumption|].
  2:{ intros [[[tmp p1] p2] p3] P w post' Hb Hwf. unfold buf. rewrite Hb.
      rewrite msg_size_at by assumption. cbn [bind]. rewrite msg_step_at by assumption. cbn [bind].
      rewrite addr_at by assumption. cbn [bind]. reflexivity. }
  destruct (remove_walk buf hdr z adr post ws [] []) as (D & Rn & H1 & H2 & H3).
  - reflexivity.
  - assumption.
  - cbn [app]. zl. lia.
  - reflexivity.
  - cbn [app others filter] in H3. change (enc_wmsgs []) with (@nil Z) in H3.
    rewrite app_nil_r, Hh in H3. rewrite H3. cbn [bind]. cbn [app] in H1.
    rewrite (flush_run buf hdr D Rn post z adr); [| |assumption| |assumption].
    + cbn [bind]. rewrite H1. fold v. unfold overlay at 1. rewrite memcpy_first. rewrite write_first; [reflexivity|].
      unfold buf, v. pose proof (zlen_filter_enc (fun w => negb (streq (w_addr w) adr)) ws).
      unfold others. pose proof (zlen_nonneg post). zl. lia.
    + rewrite H1. reflexivity.
    + rewrite H1. zl. lia.
Qed.

(** ** replaceMessage *)

Lemma zlen_firstn_junk (junk : bytes) n : 0 <= n <= zlen junk -> zlen (firstn (Z.to_nat n) junk) = n.
Proof. intros H. unfold zlen in *. rewrite firstn_length. lia. Qed.

Lemma overlay_all o v : zlen v = zlen o -> overlay o v = v.
Proof. intros H. unfold overlay. rewrite skipn_all2 by (unfold zlen in *; lia). apply app_nil_r. Qed.

Lemma zlen_resize b junk n : 0 <= n <= zlen b + zlen junk -> zlen (resize b junk n) = n.
Proof. intros H. unfold resize. apply zlen_firstn_junk. zl. lia. Qed.

Lemma replace_le junk buflen pre old rest room nP new npost :
  wf_wmsg old -> wf_wmsg new ->
  zlen pre + zlen (enc_wmsg new) + zlen rest <= zlen junk ->
  let bufpos := zlen (pre ++ enc_wmsg old ++ rest) in
  let v := pre ++ enc_wmsg new ++ rest in
  let bndl := pre ++ enc_wmsg old ++ rest ++ room in
  buflen <= zlen bndl ->
  replace_message junk buflen bufpos bndl (zlen pre) (nP ++ enc_wmsg new ++ npost) (zlen nP)
  = Ok (ERR_NONE, Z.max buflen (zlen v), zlen v,
        if zlen v >? buflen then v else overlay bndl v).
Proof.
  intros Ho Hn Hj bufpos v bndl Hbl. unfold replace_message.
  unfold bndl at 1. rewrite msg_size_at by assumption. cbn [bind].
  rewrite msg_size_at by assumption. cbn [bind].
  rewrite !msg_step_at by assumption. cbn [bind].
  pose proof (zlen_nonneg pre). pose proof (zlen_nonneg rest). pose proof (zlen_nonneg room).
  pose proof (zlen_nonneg (enc_wmsg new)). pose proof (zlen_nonneg (enc_wmsg old)).
  assert (Hnl : bufpos - zlen (enc_wmsg old) + zlen (enc_wmsg new) = zlen v).
  { unfold bufpos, v. zl. lia. }
  rewrite Hnl. destruct (zlen v <? 0) eqn:E; [pose proof (zlen_nonneg v); lia|].
  assert (Hv : zlen v = zlen pre + zlen (enc_wmsg new) + zlen rest) by (unfold v; zl; lia).
  set (copy := firstn (Z.to_nat (zlen v)) junk).
  assert (Hc : zlen copy = zlen v) by (apply zlen_firstn_junk; lia).
  unfold bndl at 1. rewrite memcpy_first, write_first by lia. cbn [bind].
  rewrite memcpy_app, write_overlay by (zl; lia). cbn [bind].
  assert (Hr : bufpos - (zlen pre + zlen (enc_wmsg old)) = zlen rest) by (unfold bufpos; zl; lia).
  rewrite Hr.
  assert (Hcopy : (if zlen rest >? 0 then
       memcpy (overlay copy (pre ++ enc_wmsg new)) (zlen pre + zlen (enc_wmsg new)) bndl
              (zlen pre + zlen (enc_wmsg old)) (zlen rest)
     else Ok (overlay copy (pre ++ enc_wmsg new))) = Ok v).
  { destruct (zlen rest >? 0) eqn:Er.
    - unfold bndl. rewrite <- !zlen_app.
      replace (pre ++ enc_wmsg old ++ rest ++ room) with ((pre ++ enc_wmsg old) ++ rest ++ room)
        by now rewrite <- !app_assoc.
      rewrite memcpy_app, write_overlay by (zl; lia). rewrite <- app_assoc. fold v.
      now rewrite overlay_all by lia.
    - assert (Hrn : rest = []) by (destruct rest as [|x l]; [reflexivity|]; zl; pose proof (zlen_nonneg l); lia).
      unfold v in *. subst rest. rewrite app_nil_r in *. now rewrite overlay_all by (symmetry; exact Hc). }
  rewrite Hcopy. cbn [bind].
  pose proof (zlen_nonneg bndl).
  destruct (zlen v >? buflen) eqn:Eg.
  - rewrite <- (app_nil_r v) at 2. rewrite memcpy_first.
    rewrite write_first by (rewrite zlen_resize; lia). cbn [bind].
    rewrite overlay_all by (rewrite zlen_resize; lia). now rewrite Z.max_r by lia.
  - rewrite <- (app_nil_r v) at 1. rewrite memcpy_first. rewrite write_first by lia. cbn [bind].
    now rewrite Z.max_l by lia.
Qed.
Lemma replace_ok junk buflen pre old rest room nP new npost :
  wf_wmsg old -> wf_wmsg new ->
  zlen pre + zlen (enc_wmsg new) + zlen rest <= zlen junk ->
  let bufpos := zlen (pre ++ enc_wmsg old ++ rest) in
  let v := pre ++ enc_wmsg new ++ rest in
  let bndl := pre ++ enc_wmsg old ++ rest ++ room in
  zlen bndl = buflen ->
  replace_message junk buflen bufpos bndl (zlen pre) (nP ++ enc_wmsg new ++ npost) (zlen nP)
  = Ok (ERR_NONE, Z.max buflen (zlen v), zlen v,
        if zlen v >? buflen then v else overlay bndl v).
Proof. intros Ho Hn Hj bufpos v bndl Hbl. apply replace_le; try assumption. fold bndl. lia. Qed.

(** ** appendMessage *)

Lemma append_ok junk b room mP w mpost m :
  wf_wmsg w -> ms_size m = Some (zlen mP) -> zlen (enc_wmsg w) <= zlen junk ->
  append_message junk (zlen b) (Some (b ++ room)) (mP ++ enc_wmsg w ++ mpost) (Some m)
  = Ok (zlen (b ++ enc_wmsg w), Some (b ++ enc_wmsg w)).
Proof.
  intros Hw Hm Hj. unfold append_message, get_size. rewrite Hm. rewrite msg_size_at by assumption.
  cbn [bind]. rewrite msg_step_at by assumption. cbn [bind].
  rewrite memcpy_app.
  assert (Hr : zlen (resize (b ++ room) junk (zlen b + zlen (enc_wmsg w))) = zlen (b ++ enc_wmsg w)).
  { rewrite zlen_resize; zl; [reflexivity|]. pose proof (zlen_nonneg b).
    pose proof (zlen_nonneg room). pose proof (zlen_nonneg (enc_wmsg w)). lia. }
  assert (Ho : overlay (resize (b ++ room) junk (zlen b + zlen (enc_wmsg w))) b
               = resize (b ++ room) junk (zlen b + zlen (enc_wmsg w))).
  { unfold overlay, resize. rewrite <- app_assoc.
    replace (Z.to_nat (zlen b + zlen (enc_wmsg w))) with (length b + length (enc_wmsg w))%nat
      by (unfold zlen; lia).
    rewrite firstn_app_2. now rewrite skipn_exact. }
  rewrite <- Ho. rewrite write_overlay by lia. cbn [bind]. rewrite overlay_all by lia.
  now rewrite zlen_app.
Qed.

Lemma append_new_bundle junk len mP w mpost m :
  wf_wmsg w -> ms_size m = Some (zlen mP) -> 16 + zlen (enc_wmsg w) <= zlen junk ->
  append_message junk len None (mP ++ enc_wmsg w ++ mpost) (Some m)
  = Ok (zlen (empty_header ++ enc_wmsg w), Some (empty_header ++ enc_wmsg w)).
Proof.
  intros Hw Hm Hj. unfold append_message, get_size. rewrite Hm. rewrite msg_size_at by assumption.
  cbn [bind]. rewrite msg_step_at by assumption. cbn [bind].
  pose proof (zlen_nonneg (enc_wmsg w)) as Hn.
  set (b := firstn (Z.to_nat (zlen (enc_wmsg w) + 16)) junk).
  assert (Hb : zlen b = zlen (enc_wmsg w) + 16) by (apply zlen_firstn_junk; lia).
  destruct (split_at b 8) as (b1 & b' & Hb1 & H8); [lia|].
  assert (Hb' : zlen b' = zlen (enc_wmsg w) + 8) by (apply (f_equal zlen) in Hb1; zl; lia).
  destruct (split_at b' 8) as (b2 & b3 & Hb2 & H82); [lia|].
  assert (Hb3 : zlen b3 = zlen (enc_wmsg w)) by (apply (f_equal zlen) in Hb2; zl; lia).
  rewrite Hb1, Hb2. rewrite <- H8 at 1.
  rewrite write_app by (rewrite repeat_length; unfold zlen in H82; lia). cbn [bind].
  unfold set_bundle_id.
  assert (H9 : write (b1 ++ repeat 0 8 ++ b3) 0 osc_id = Ok (osc_id ++ repeat 0 8 ++ b3)).
  { change 0 with (zlen (@nil Z)) at 2.
    exact (write_app [] b1 osc_id (repeat 0 8 ++ b3) ltac:(unfold zlen in H8; cbn [length osc_id]; lia)). }
  rewrite H9. cbn [bind]. rewrite memcpy_app.
  change (osc_id ++ repeat 0 8 ++ b3) with ((osc_id ++ repeat 0 8) ++ b3).
  change (osc_id ++ repeat 0 8) with empty_header.
  rewrite <- (app_nil_r b3). change 16 with (zlen empty_header).
  rewrite write_app by (unfold zlen in Hb3; lia). cbn [bind]. rewrite app_nil_r. now rewrite zlen_app.
Qed.

(** * Combining bundles *)

(** Is an address, taken as a pattern, fully matched by the address of one of
    the messages? *)
Definition present (adr : list Z) (ws : list wmsg) : bool :=
  existsb (fun w => selects true adr (w_addr w)) ws.

(** Add the messages of [ws] that pass [q] and whose address is not yet
    present. *)
Definition add_missing (q : wmsg -> bool) (acc ws : list wmsg) : list wmsg :=
  fold_left (fun acc w => if q w && negb (present (w_addr w) acc) then acc ++ [w] else acc) ws acc.

Lemma add_missing_ext q acc ws : exists l, add_missing q acc ws = acc ++ l /\
  zlen (enc_wmsgs l) <= zlen (enc_wmsgs ws).
Proof.
  revert acc. induction ws as [|w ws IH]; intros acc.
  - exists []. cbn. split; [now rewrite app_nil_r|lia].
  - cbn [add_missing fold_left]. destruct (q w && negb (present (w_addr w) acc)).
    + destruct (IH (acc ++ [w])) as (l & H1 & H2). exists (w :: l). split.
      * unfold add_missing in H1. rewrite H1. now rewrite <- app_assoc.
      * rewrite !enc_wmsgs_cons. zl. lia.
    + destruct (IH acc) as (l & H1 & H2). exists l. split; [exact H1|].
      rewrite enc_wmsgs_cons. zl. pose proof (zlen_nonneg (enc_wmsg w)). lia.
Qed.

Lemma add_missing_same q q' acc ws : (forall w, q w = q' w) -> add_missing q acc ws = add_missing q' acc ws.
Proof.
  intros Hq. revert acc. induction ws as [|w ws IH]; intros acc; [reflexivity|].
  cbn [add_missing fold_left]. rewrite Hq. apply IH.
Qed.

Lemma add_missing_wf q acc ws : Forall wf_wmsg acc -> Forall wf_wmsg ws ->
  Forall wf_wmsg (add_missing q acc ws).
Proof.
  intros Ha Hw. revert acc Ha. induction Hw as [|w ws H1 H2 IH]; intros acc Ha; [exact Ha|].
  cbn [add_missing fold_left]. apply IH. destruct (_ && _); [|assumption].
  apply Forall_app. auto.
Qed.

Lemma append_new_ok o hdr acc buf P w post : zlen hdr = 16 -> Forall wf_wmsg acc -> wf_wmsg w ->
  buf = P ++ enc_wmsg w ++ post ->
  zlen (hdr ++ enc_wmsgs acc) + zlen (enc_wmsg w) <= zlen o ->
  let acc' := if negb (present (w_addr w) acc) then acc ++ [w] else acc in
  append_new (overlay o (hdr ++ enc_wmsgs acc)) (zlen (hdr ++ enc_wmsgs acc)) buf (zlen P)
    (zlen (enc_wmsg w)) (w_addr w)
  = Ok (overlay o (hdr ++ enc_wmsgs acc'), zlen (hdr ++ enc_wmsgs acc')).
Proof.
  intros Hh Ha Hw Hb Ho acc'. unfold append_new.
  rewrite zlen_app at 1. rewrite Hh. unfold overlay at 1. rewrite <- app_assoc.
  rewrite address_exists_ok by assumption. cbn [bind]. fold (present (w_addr w) acc).
  unfold acc'. destruct (present (w_addr w) acc); cbn [negb]; [reflexivity|].
  unfold append_raw. rewrite Hb, memcpy_app. rewrite write_overlay by (zl; lia). cbn [bind].
  rewrite enc_wmsgs_app, enc_wmsgs_one, app_assoc.
  now rewrite (zlen_app (hdr ++ enc_wmsgs acc)).
Qed.

Definition union_step (buf : bytes) (st : bytes * Z) (p : Z) (w : wmsg) : res (lres (bytes * Z) unit) :=
  do st' <- append_new (fst st) (snd st) buf p (zlen (enc_wmsg w)) (w_addr w);
  Ok (Cont st').

Definition room_for (o hdr : bytes) (acc ws : list wmsg) : Prop :=
  zlen (hdr ++ enc_wmsgs acc) + zlen (enc_wmsgs ws) <= zlen o.

Lemma room_step o hdr q acc w ws : room_for o hdr acc (w :: ws) ->
  room_for o hdr (if q && negb (present (w_addr w) acc) then acc ++ [w] else acc) ws.
Proof.
  unfold room_for. rewrite enc_wmsgs_cons. intros H. pose proof (zlen_nonneg (enc_wmsg w)).
  destruct (_ && _); [rewrite enc_wmsgs_app, enc_wmsgs_one|]; zl; lia.
Qed.

Lemma union_walk o hdr buf post : zlen hdr = 16 -> forall ws P acc,
  buf = P ++ enc_wmsgs ws ++ post -> Forall wf_wmsg ws -> Forall wf_wmsg acc ->
  room_for o hdr acc ws ->
  let acc' := add_missing (fun _ => true) acc ws in
  walk (union_step buf) (overlay o (hdr ++ enc_wmsgs acc), zlen (hdr ++ enc_wmsgs acc)) (zlen P) ws
  = Ok (Cont (overlay o (hdr ++ enc_wmsgs acc'), zlen (hdr ++ enc_wmsgs acc'))).
Proof.
  intros Hh. induction ws as [|w ws IH]; intros P acc Hb Hw Ha Hr acc'; [reflexivity|].
  inversion Hw as [|? ? H1 H2]; subst x l. rewrite enc_wmsgs_cons, <- app_assoc in Hb.
  cbn [walk]. unfold union_step at 1. cbn [fst snd].
  rewrite (append_new_ok o hdr acc buf P w _ Hh Ha H1 Hb).
  2:{ unfold room_for in Hr. rewrite enc_wmsgs_cons in Hr. pose proof (zlen_nonneg (enc_wmsgs ws)). zl. lia. }
  cbn [bind]. rewrite <- zlen_app. apply IH.
  - rewrite Hb. now rewrite <- app_assoc.
  - assumption.
  - destruct (negb _); [apply Forall_app; auto|assumption].
  - exact (room_step o hdr true acc w ws Hr).
Qed.

Lemma select_over want buf obuf ohdr ows opost o hdr post : zlen hdr = 16 -> zlen ohdr = 16 ->
  Forall wf_wmsg ows -> obuf = ohdr ++ enc_wmsgs ows ++ opost ->
  forall ws P m acc,
  buf = P ++ enc_wmsgs ws ++ post -> Forall wf_wmsg ws -> Forall wf_wmsg acc ->
  room_for o hdr acc ws ->
  let acc' := add_missing (fun w => Bool.eqb (present (w_addr w) ows) want) acc ws in
  over (fun (st : bytes * Z) m =>
    let '(out, n) := st in
    do ' (a, p, k) <- msg_parts buf m;
    do e <- address_exists obuf (16 + zlen (enc_wmsgs ows)) a true;
    if negb (Bool.eqb e want) then Ok (@Cont _ unit st) else
    do st' <- append_new out n buf p k a;
    Ok (Cont st'))
   (overlay o (hdr ++ enc_wmsgs acc), zlen (hdr ++ enc_wmsgs acc)) (views m (zlen P) ws)
  = Ok (Cont (overlay o (hdr ++ enc_wmsgs acc'), zlen (hdr ++ enc_wmsgs acc'))).
Proof.
  intros Hh Hoh How Hob. induction ws as [|w ws IH]; intros P m acc Hb Hw Ha Hr acc'; [reflexivity|].
  inversion Hw as [|? ? H1 H2]; subst x l. rewrite enc_wmsgs_cons, <- app_assoc in Hb.
  cbn [views over]. unfold msg_parts at 1. cbn [wrapped ms_address ms_size].
  assert (Ha' : rdstr buf (zlen P + 4) = Ok (w_addr w)) by (rewrite Hb; now apply addr_at).
  rewrite Ha'. cbn [bind].
  assert (Hg : get_size buf (wrapped m (zlen P) w) = Ok (zlen (wbody w))).
  { unfold get_size. cbn [wrapped ms_size]. rewrite Hb, msg_size_at by assumption. cbn [bind].
    destruct H1 as (_ & _ & Hl). pose proof (zlen_nonneg (wbody w)). now rewrite s32_id by lia. }
  rewrite Hg. cbn [bind].
  assert (Hk : add_int (zlen (wbody w)) 4 = Ok (zlen (enc_wmsg w))).
  { rewrite <- (msg_step_at w H1). destruct H1 as (_ & _ & Hl). pose proof (zlen_nonneg (wbody w)).
    now rewrite s32_id by lia. }
  rewrite Hk. cbn [bind]. rewrite Hob, address_exists_ok by assumption. cbn [bind].
  fold (present (w_addr w) ows).
  assert (Hb2 : buf = (P ++ enc_wmsg w) ++ enc_wmsgs ws ++ post) by (rewrite Hb; now rewrite <- app_assoc).
  rewrite <- zlen_app.
  pose proof (room_step o hdr (Bool.eqb (present (w_addr w) ows) want) acc w ws Hr) as Hr2.
  unfold acc'. cbn [add_missing fold_left].
  destruct (Bool.eqb (present (w_addr w) ows) want) eqn:E; cbn [negb andb] in *.
  - rewrite (append_new_ok o hdr acc buf P w _ Hh Ha H1 Hb).
    2:{ unfold room_for in Hr. rewrite enc_wmsgs_cons in Hr. pose proof (zlen_nonneg (enc_wmsgs ws)). zl. lia. }
    cbn [bind]. rewrite <- Hob. apply IH.
    + exact Hb2.
    + assumption.
    + destruct (negb _); [apply Forall_app; auto|assumption].
    + exact Hr2.
  - rewrite <- Hob. now apply IH.
Qed.

Lemma select_pass_ok want hdr1 ws1 post1 ohdr ows opost o hdr acc : zlen hdr = 16 ->
  zlen hdr1 = 16 -> zlen ohdr = 16 ->
  Forall wf_wmsg ws1 -> Forall wf_wmsg ows -> Forall wf_wmsg acc -> room_for o hdr acc ws1 ->
  let acc' := add_missing (fun w => Bool.eqb (present (w_addr w) ows) want) acc ws1 in
  select_pass want (hdr1 ++ enc_wmsgs ws1 ++ post1) (16 + zlen (enc_wmsgs ws1))
    (ohdr ++ enc_wmsgs ows ++ opost) (16 + zlen (enc_wmsgs ows))
    (overlay o (hdr ++ enc_wmsgs acc), zlen (hdr ++ enc_wmsgs acc))
  = Ok (overlay o (hdr ++ enc_wmsgs acc'), zlen (hdr ++ enc_wmsgs acc')).
Proof.
  intros Hh H1 Ho Hw1 Hwo Ha Hr acc'. unfold select_pass.
  set (body := fun (st : bytes * Z) m => _).
  pose proof (bundle_loop_over body (overlay o (hdr ++ enc_wmsgs acc), zlen (hdr ++ enc_wmsgs acc))
                [] hdr1 ws1 post1 H1 Hw1) as HL.
  cbn [app] in HL. change (zlen (@nil Z)) with 0 in HL. rewrite HL. clear HL.
  change (0 + 16) with 16. rewrite <- H1 at 1. unfold body.
  rewrite (select_over want _ (ohdr ++ enc_wmsgs ows ++ opost) ohdr ows opost o hdr post1);
    try assumption; reflexivity.
Qed.

Lemma zlen_repeat (n : Z) : 0 <= n -> zlen (repeat 0 (Z.to_nat n)) = n.
Proof. intros H. unfold zlen. rewrite repeat_length. lia. Qed.

Lemma zlen_zero_nil ws : zlen (enc_wmsgs ws) = 0 -> ws = [].
Proof.
  destruct ws as [|w ws]; [reflexivity|]. rewrite enc_wmsgs_cons. zl. rewrite zlen_enc.
  pose proof (zlen_nonneg (wbody w)). pose proof (zlen_nonneg (enc_wmsgs ws)). lia.
Qed.

(** The two operands of a set operation. *)
Lemma union_ok junk hdr1 ws1 post1 hdr2 ws2 post2 :
  zlen hdr1 = 16 -> zlen hdr2 = 16 -> Forall wf_wmsg ws1 -> Forall wf_wmsg ws2 ->
  ws1 <> [] \/ ws2 <> [] ->
  let v := hdr1 ++ enc_wmsgs (add_missing (fun _ => true) ws1 ws2) in
  bundle_union junk
    (Some (16 + zlen (enc_wmsgs ws1), Some (hdr1 ++ enc_wmsgs ws1 ++ post1)))
    (Some (16 + zlen (enc_wmsgs ws2), Some (hdr2 ++ enc_wmsgs ws2 ++ post2)))
  = Ok (Some (zlen v, overlay (zeros (32 + zlen (enc_wmsgs ws1) + zlen (enc_wmsgs ws2))) v)).
Proof.
  intros H1 H2 Hw1 Hw2 Hne v. unfold bundle_union.
  pose proof (zlen_nonneg (enc_wmsgs ws1)). pose proof (zlen_nonneg (enc_wmsgs ws2)).
  destruct (_ || _) eqn:E.
  { exfalso. destruct Hne as [Hn|Hn]; apply Hn; apply zlen_zero_nil; lia. }
  set (z := repeat 0 _).
  assert (Hz : z = zeros (32 + zlen (enc_wmsgs ws1) + zlen (enc_wmsgs ws2))).
  { unfold z, zeros. f_equal. lia. }
  assert (Hzl : zlen z = 32 + zlen (enc_wmsgs ws1) + zlen (enc_wmsgs ws2)).
  { unfold z. rewrite zlen_repeat; lia. }
  assert (Hm : memcpy z 0 (hdr1 ++ enc_wmsgs ws1 ++ post1) 0 (16 + zlen (enc_wmsgs ws1))
               = Ok (overlay z (hdr1 ++ enc_wmsgs ws1))).
  { rewrite app_assoc. replace (16 + zlen (enc_wmsgs ws1)) with (zlen (hdr1 ++ enc_wmsgs ws1)) by (zl; lia).
    rewrite memcpy_first, write_first by (zl; lia). reflexivity. }
  rewrite Hm. cbn [bind].
  rewrite (raw_walk hdr2 ws2 post2 _ (union_step (hdr2 ++ enc_wmsgs ws2 ++ post2))); [|assumption|assumption|].
  2:{ intros [out len] P w post' Hb Hwf. rewrite Hb. rewrite msg_size_at by assumption. cbn [bind].
      rewrite msg_step_at by assumption. cbn [bind]. rewrite addr_at by assumption. reflexivity. }
  replace (16 + zlen (enc_wmsgs ws1)) with (zlen (hdr1 ++ enc_wmsgs ws1)) by (zl; lia).
  rewrite <- H2. rewrite (union_walk z hdr1 _ post2 H1 ws2 hdr2 ws1 eq_refl Hw2 Hw1).
  2:{ unfold room_for. zl. lia. }
  cbn [bind]. fold v. now rewrite Hz.
Qed.

Lemma intersection_ok junk hdr1 ws1 post1 hdr2 ws2 post2 out :
  zlen hdr1 = 16 -> zlen hdr2 = 16 -> Forall wf_wmsg ws1 -> Forall wf_wmsg ws2 ->
  ws1 <> [] -> ws2 <> [] ->
  let n1 := 16 + zlen (enc_wmsgs ws1) in let n2 := 16 + zlen (enc_wmsgs ws2) in
  let o := out_buffer out (n1 + n2) in
  n1 <= zlen o ->
  let v := hdr1 ++ enc_wmsgs (add_missing (fun w => present (w_addr w) ws2) [] ws1) in
  bundle_intersection junk n1 (hdr1 ++ enc_wmsgs ws1 ++ post1) n2 (hdr2 ++ enc_wmsgs ws2 ++ post2) out
  = Ok (zlen v, overlay o v).
Proof.
  intros H1 H2 Hw1 Hw2 Hn1 Hn2 n1 n2 o Ho v. unfold bundle_intersection.
  pose proof (zlen_nonneg (enc_wmsgs ws1)). pose proof (zlen_nonneg (enc_wmsgs ws2)).
  destruct (_ || _) eqn:E.
  { exfalso. assert (n1 = 16 \/ n2 = 16) as [Hq|Hq] by (unfold n1, n2 in *; lia);
      [apply Hn1|apply Hn2]; apply zlen_zero_nil; unfold n1, n2 in Hq; lia. }
  fold o. rewrite <- H1 at 1. rewrite memcpy_first, write_first by (unfold n1 in Ho; lia). cbn [bind].
  pose proof (select_pass_ok true hdr1 ws1 post1 hdr2 ws2 post2 o hdr1 [] H1 H1 H2 Hw1 Hw2
                (Forall_nil _)) as Hs.
  cbn zeta in Hs. change (enc_wmsgs []) with (@nil Z) in Hs. rewrite !app_nil_r in Hs. rewrite H1 in Hs.
  unfold n1, n2. rewrite Hs.
  2:{ unfold room_for. change (enc_wmsgs []) with (@nil Z). rewrite app_nil_r. unfold n1 in Ho. lia. }
  cbn [bind].
  rewrite (add_missing_same _ (fun w => present (w_addr w) ws2)) by (intros w; now destruct (present _ _)).
  reflexivity.
Qed.

Lemma difference_ok junk hdr1 ws1 post1 hdr2 ws2 post2 out :
  zlen hdr1 = 16 -> zlen hdr2 = 16 -> Forall wf_wmsg ws1 -> Forall wf_wmsg ws2 ->
  ws1 <> [] \/ ws2 <> [] ->
  let n1 := 16 + zlen (enc_wmsgs ws1) in let n2 := 16 + zlen (enc_wmsgs ws2) in
  let o := out_buffer out (n1 + n2) in
  n1 + n2 - 16 <= zlen o ->
  let v := hdr1 ++ enc_wmsgs (add_missing (fun w => negb (present (w_addr w) ws1))
                     (add_missing (fun w => negb (present (w_addr w) ws2)) [] ws1) ws2) in
  bundle_difference junk n1 (hdr1 ++ enc_wmsgs ws1 ++ post1) n2 (hdr2 ++ enc_wmsgs ws2 ++ post2) out
  = Ok (zlen v, overlay o v).
Proof.
  intros H1 H2 Hw1 Hw2 Hne n1 n2 o Ho v. unfold bundle_difference.
  pose proof (zlen_nonneg (enc_wmsgs ws1)). pose proof (zlen_nonneg (enc_wmsgs ws2)).
  destruct (_ || _) eqn:E.
  { exfalso. destruct Hne as [Hn|Hn]; apply Hn; apply zlen_zero_nil; unfold n1, n2 in E; lia. }
  fold o. rewrite <- H1 at 1. rewrite memcpy_first, write_first by (unfold n1, n2 in Ho; lia). cbn [bind].
  pose proof (select_pass_ok false hdr1 ws1 post1 hdr2 ws2 post2 o hdr1 [] H1 H1 H2 Hw1 Hw2
                (Forall_nil _)) as Hs.
  cbn zeta in Hs. change (enc_wmsgs []) with (@nil Z) in Hs. rewrite !app_nil_r in Hs. rewrite H1 in Hs.
  unfold n1, n2. rewrite Hs.
  2:{ unfold room_for. change (enc_wmsgs []) with (@nil Z). rewrite app_nil_r. unfold n1, n2 in Ho. lia. }
  cbn [bind].
  rewrite (add_missing_same _ (fun w => negb (present (w_addr w) ws2))) by (intros w; now destruct (present _ _)).
  set (acc := add_missing (fun w => negb (present (w_addr w) ws2)) [] ws1) in *.
  rewrite (select_pass_ok false hdr2 ws2 post2 hdr1 ws1 post1 o hdr1 acc); try assumption.
  - cbn [bind]. rewrite (add_missing_same _ (fun w => negb (present (w_addr w) ws1))) by (intros w; now destruct (present _ _)). reflexivity.
  - apply add_missing_wf; [constructor|assumption].
  - unfold room_for. destruct (add_missing_ext (fun w => negb (present (w_addr w) ws2)) [] ws1) as (l & Hl & Hle).
    unfold acc. rewrite Hl. cbn [app]. unfold n1, n2 in Ho. zl. lia.
Qed.

Lemma concat_ok hdr1 ws1 post1 hdr2 ws2 post2 dest :
  zlen hdr1 = 16 -> zlen hdr2 = 16 ->
  let n1 := 16 + zlen (enc_wmsgs ws1) in let n2 := 16 + zlen (enc_wmsgs ws2) in
  let v := hdr1 ++ enc_wmsgs (ws1 ++ ws2) in
  zlen v <= zlen dest -> zlen v < 2^31 ->
  bundle_concat n1 (Some (hdr1 ++ enc_wmsgs ws1 ++ post1)) n2 (Some (hdr2 ++ enc_wmsgs ws2 ++ post2)) dest
  = Ok (zlen v, overlay dest v).
Proof.
  intros H1 H2 n1 n2 v Hv Hm. unfold bundle_concat.
  pose proof (zlen_nonneg (enc_wmsgs ws1)). pose proof (zlen_nonneg (enc_wmsgs ws2)).
  assert (Hvl : zlen v = 16 + zlen (enc_wmsgs ws1) + zlen (enc_wmsgs ws2)).
  { unfold v. rewrite enc_wmsgs_app. zl. lia. }
  rewrite app_assoc. replace n1 with (zlen (hdr1 ++ enc_wmsgs ws1)) by (zl; unfold n1; lia).
  rewrite memcpy_first, write_first by (zl; lia). cbn [bind].
  replace (n2 - 16) with (zlen (enc_wmsgs ws2)) by (unfold n2; lia).
  rewrite <- H2 at 1. rewrite memcpy_app, write_overlay by (zl; lia). cbn [bind].
  rewrite <- app_assoc, <- enc_wmsgs_app. fold v. f_equal. f_equal.
  rewrite s32_id; unfold n2; zl; lia.
Qed.

(** * renameCopy *)

Lemma pad_nuls_ok o : forall k v, (- zlen v) mod 4 < Z.of_nat k -> zlen v + (- zlen v) mod 4 <= zlen o ->
  pad_nuls k (overlay o v) (zlen v)
  = Ok (overlay o (v ++ zeros ((- zlen v) mod 4)), zlen v + (- zlen v) mod 4).
Proof.
  induction k as [|k IH]; intros v Hk Ho.
  { pose proof (Z.mod_pos_bound (- zlen v) 4). lia. }
  cbn [pad_nuls]. destruct (zlen v mod 4 =? 0) eqn:E.
  - assert (H0 : (- zlen v) mod 4 = 0) by (Z.div_mod_to_equations; lia).
    rewrite H0. change (zeros 0) with (@nil Z). rewrite app_nil_r, Z.add_0_r. reflexivity.
  - assert (H1 : (- zlen (v ++ [0])) mod 4 = (- zlen v) mod 4 - 1) by (zl; Z.div_mod_to_equations; lia).
    assert (H2 : 1 <= (- zlen v) mod 4) by (Z.div_mod_to_equations; lia).
    rewrite write_overlay by (zl; lia). cbn [bind].
    replace (zlen v + 1) with (zlen (v ++ [0])) by (zl; lia).
    rewrite IH; [|rewrite H1; lia|rewrite H1; zl; lia].
    rewrite H1. rewrite <- app_assoc. unfold zeros.
    replace (Z.to_nat ((- zlen v) mod 4)) with (S (Z.to_nat ((- zlen v) mod 4 - 1))) by lia.
    cbn [repeat app]. f_equal. f_equal. zl. lia.
Qed.

Lemma wr32_first d v : 4 <= zlen d -> wr32 d 0 v = Ok (overlay d (be_bytes 4 v)).
Proof.
  intros H. destruct (split_at d 4) as (d1 & d2 & -> & H4); [lia|].
  change 0 with (zlen (@nil Z)). change (d1 ++ d2) with ([] ++ d1 ++ d2) at 1.
  rewrite wr32_at by (unfold zlen in H4; lia). cbn [app]. unfold overlay. f_equal. f_equal.
  rewrite skipn_exact; [reflexivity|]. rewrite be_bytes_length. unfold zlen in H4. lia.
Qed.

Lemma rename_ok P a tags data post m na d :
  let w := WM a (Some (tags, data)) in let w' := WM na (Some (tags, data)) in
  wf_wmsg w -> wf_wmsg w' -> validate_address (Some na) = 0 -> zlen (enc_wmsg w') <= zlen d ->
  rename_copy (Some d) (P ++ enc_wmsg w ++ post) (wrapped m (zlen P) w) (zlen na) (Some na)
  = Ok (zlen (wbody w'), Some (overlay d (enc_wmsg w'))).
Proof.
  intros w w' Hw Hw' Hv Hd. unfold rename_copy. rewrite Hv. change (negb (0 =? 0)) with false.
  cbn [wrapped ms_address ms_typetags w_args w_addr].
  assert (Hg : get_size (P ++ enc_wmsg w ++ post) (wrapped m (zlen P) w) = Ok (zlen (wbody w))).
  { unfold get_size. cbn [wrapped ms_size]. rewrite msg_size_at by assumption. cbn [bind].
    destruct Hw as (_ & _ & Hl). pose proof (zlen_nonneg (wbody w)). now rewrite s32_id by lia. }
  rewrite Hg. cbn [bind]. rewrite addr_at by assumption. cbn [bind w_addr].
  destruct Hw as (_ & _ & Hl). destruct Hw' as (_ & _ & Hl').
  set (rest := pad_str tags ++ data).
  assert (Hb : wbody w = pad_str a ++ rest) by reflexivity.
  assert (Hb' : wbody w' = pad_str na ++ rest) by reflexivity.
  rewrite Hb, Hb' in *. unfold enc_wmsg in *. rewrite Hb, Hb' in *. unfold sized in *. clearbody rest.
  change (w_addr w) with a. change (w_args w) with (Some (tags, data)). cbn match. clear Hb Hb' Hg.
  pose proof (zlen_nonneg a). pose proof (zlen_nonneg na). pose proof (zlen_nonneg rest).
  pose proof (zlen_pad a) as Hpa. pose proof (zlen_pad na) as Hpn.
  rewrite zlen_app in Hl, Hl'.
  pose proof (Z.div_mod (zlen a) 4 ltac:(lia)). pose proof (Z.mod_pos_bound (zlen a) 4 ltac:(lia)).
  pose proof (Z.div_mod (zlen na) 4 ltac:(lia)). pose proof (Z.mod_pos_bound (zlen na) 4 ltac:(lia)).
  rewrite padded_string_len_eq, padding_for_nbytes_eq by lia. rewrite <- Hpa, <- Hpn.
  assert (Hnl : s32 (zlen (pad_str a ++ rest) - zlen (pad_str a) + zlen (pad_str na)) = zlen (pad_str na ++ rest)).
  { rewrite s32_id; zl; lia. }
  rewrite Hnl. set (sz := be_bytes 4 (zlen (pad_str na ++ rest))) in *.
  set (sz0 := be_bytes 4 (zlen (pad_str a ++ rest))).
  assert (Hsz : zlen sz = 4) by apply zlen_be. assert (Hsz0 : zlen sz0 = 4) by apply zlen_be.
  rewrite !zlen_app in Hd.
  rewrite wr32_first by lia. fold sz. cbn [bind].
  assert (Hn2 : 2 <= zlen na).
  { unfold validate_address in Hv. destruct (zlen na <? 2) eqn:E; [|lia].
    rewrite orb_true_r in Hv. discriminate. }
  destruct (zlen na >? 0) eqn:E0; [|lia].
  rewrite memcpy_first. rewrite <- Hsz at 1. rewrite write_overlay by (zl; lia). cbn [bind].
  replace (4 + zlen na) with (zlen (sz ++ na)) by (zl; lia).
  rewrite write_overlay by (zl; lia). cbn [bind].
  replace (zlen (sz ++ na) + 1) with (zlen ((sz ++ na) ++ [0])) by (zl; lia).
  assert (Hpad : ((sz ++ na) ++ [0]) ++ zeros ((- zlen ((sz ++ na) ++ [0])) mod 4) = sz ++ pad_str na).
  { rewrite <- !app_assoc. f_equal. unfold pad_str. f_equal. unfold zeros.
    replace (Z.to_nat (4 - zlen na mod 4)) with (S (Z.to_nat ((- zlen ((sz ++ na) ++ [0])) mod 4))).
    - now rewrite <- app_assoc.
    - assert ((- zlen ((sz ++ na) ++ [0])) mod 4 = 3 - zlen na mod 4); [|lia].
      zl. rewrite Hsz. symmetry. apply Z.mod_unique with (q := - (2 + zlen na / 4)); lia. }
  assert (Hpl : zlen ((sz ++ na) ++ [0]) + (- zlen ((sz ++ na) ++ [0])) mod 4 = zlen (sz ++ pad_str na)).
  { rewrite <- Hpad. rewrite (zlen_app ((sz ++ na) ++ [0])). rewrite zlen_zeros; [lia|].
    apply Z.mod_pos_bound. lia. }
  rewrite pad_nuls_ok; [|pose proof (Z.mod_pos_bound (- zlen ((sz ++ na) ++ [0])) 4); lia|rewrite Hpl; zl; lia].
  cbn [bind]. rewrite Hpad, Hpl.
  replace (P ++ (sz0 ++ pad_str a ++ rest) ++ post) with ((P ++ sz0 ++ pad_str a) ++ rest ++ post)
    by now rewrite <- !app_assoc.
  replace (zlen P + 4 + zlen (pad_str a)) with (zlen (P ++ sz0 ++ pad_str a)) by (zl; lia).
  replace (zlen (pad_str a ++ rest) - (zlen (P ++ sz0 ++ pad_str a) - (zlen P + 4))) with (zlen rest) by (zl; lia).
  rewrite memcpy_app, write_overlay by (zl; lia). cbn [bind]. now rewrite <- app_assoc.
Qed.
