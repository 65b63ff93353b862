From Coq Require Import ZArith List Bool Lia.
From Verif Require Import Base BaseProofs Bytes UtilModel UtilProofs Text MatchModel MatchSafety MatchFacts MatchProps.
From Verif Require Import WireSpec WireModel WireProofs WireWalk BundleSModel BundleSProofs BundleSProps.
From Verif Require Import BundleUModel HashModel HashSpec HashProofs HashProps QueryModel QuerySpec.
Import ListNotations.
Open Scope Z_scope.

(** * The matcher never reports an offset of 0 after a partial match *)

Definition ahead (s : stack) : Prop := Forall (fun e => 0 < fst e) s.

Lemma scan_ge stop s : forall f i q, scan f stop s i = Ok q -> i <= q.
Proof.
  induction f as [|f IH]; intros i q H; cbn [scan] in H; [discriminate|].
  destruct (rdc s i) as [c| |]; cbn [bind] in H; try discriminate.
  destruct (stop c); [injection H as <-; lia|]. apply IH in H. lia.
Qed.

Lemma push_ahead p a st st' : push p a st = Some st' -> 0 < p -> ahead st -> ahead st'.
Proof. unfold push. destruct (_ <=? _)%nat; [discriminate|]. intros H Hp Hs. injection H as <-. constructor; assumption. Qed.

Lemma alt_ahead pat adr rest aa : 0 < rest -> forall f p1 p2 st st',
  alt_loop f pat adr rest aa p1 p2 st = Ok (Some st') -> ahead st -> ahead st'.
Proof.
  intros Hr. induction f as [|f IH]; intros p1 p2 st st' H Hs; cbn [alt_loop] in H; [discriminate|].
  destruct (rdc pat p2) as [c| |]; cbn [bind] in H; try discriminate.
  destruct (is_end c); [injection H as <-; assumption|].
  destruct (_ || _); [|eapply IH; eassumption].
  destruct (strncmp_eq _ _ _ _ _) as [e| |]; cbn [bind] in H; try discriminate.
  assert (K : forall st1, (if e then push rest (aa + (p2 - p1)) st else Some st) = Some st1 -> ahead st1).
  { intros st1 E. destruct e; [eapply push_ahead; eassumption|injection E as <-; assumption]. }
  destruct (if e then _ else _) as [st1|]; [|discriminate]. specialize (K st1 eq_refl).
  destruct (c =? c_rbrace); [injection H as <-; assumption|]. eapply IH; eassumption.
Qed.

Lemma star_ahead pp here : 0 < pp -> forall f aa st st',
  star_loop f pp aa here st = Ok (Some st') -> ahead st -> ahead st'.
Proof.
  intros Hr. induction f as [|f IH]; intros aa st st' H Hs; cbn [star_loop] in H; [discriminate|].
  destruct (push pp aa st) as [st1|] eqn:E; [|discriminate].
  assert (K : ahead st1) by (eapply push_ahead; eassumption).
  destruct (aa =? here); [injection H as <-; assumption|]. eapply IH; eassumption.
Qed.

(** What a step does to stacks of ahead positions. *)
Definition pos_next (x : lres stack (res mres)) : Prop :=
  match x with
  | Cont s => ahead s
  | Done (Ok r) => code r = 1 -> 0 < poff r
  | Done _ => True
  end.

Lemma lift_pos {A} (m : res A) k : (forall x, m = Ok x -> pos_next (k x)) -> pos_next (lift m k).
Proof. destruct m; cbn; auto. Qed.

Lemma fail_pos c : c <> 1 -> pos_next (fail_with c).
Proof. cbn. intros H E. congruence. Qed.

Lemma switch_pos pat adr sp sa p a st : 0 < sp -> ahead st -> pos_next (step_switch pat adr sp sa p a st).
Proof.
  intros Hsp Hst. unfold step_switch.
  destruct (is_end p); [exact Hst|].
  destruct (p =? c_quest); [constructor; cbn; [lia|assumption]|].
  destruct (p =? c_lbrack).
  { apply lift_pos. intros r Hr. destruct (r =? 0) eqn:E0; [exact Hst|]. destruct (r =? 1) eqn:E1.
    - apply lift_pos. intros d _. cbv zeta. apply lift_pos. intros q Hq. apply scan_ge in Hq. apply lift_pos. intros c _.
      destruct (c =? c_rbrack); [|apply fail_pos; discriminate]. constructor; [cbn|assumption].
      destruct (d =? c_rbrack); lia.
    - apply fail_pos. lia. }
  destruct (p =? c_lbrace).
  { apply lift_pos. intros q Hq. apply scan_ge in Hq. apply lift_pos. intros c _. destruct (c =? c_rbrace).
    - apply lift_pos. intros [st'|] Ha; [|cbn; discriminate]. apply alt_ahead in Ha; [exact Ha|lia|assumption].
    - apply fail_pos; discriminate. }
  destruct (p =? c_rbrace); [apply fail_pos; discriminate|].
  destruct (p =? c_rbrack); [apply fail_pos; discriminate|].
  destruct (p =? c_star).
  { apply lift_pos. intros pp Hq. apply scan_ge in Hq. apply lift_pos. intros c _. apply lift_pos. intros q _.
    destruct (is_end c); [constructor; cbn; [lia|assumption]|].
    apply lift_pos. intros [st'|] Ha; [|cbn; discriminate]. apply star_ahead in Ha; [exact Ha|lia|assumption]. }
  destruct (p =? a); [constructor; cbn; [lia|assumption]|exact Hst].
Qed.

Lemma step_pos pat adr s : ahead s -> pos_next (step pat adr s).
Proof.
  destruct s as [|[sp sa] st]; intros Hs; [apply fail_pos; discriminate|].
  pose proof (Forall_inv Hs) as Hsp. pose proof (Forall_inv_tail Hs) as Hst. cbn [fst] in Hsp. unfold step.
  apply lift_pos. intros p _. apply lift_pos. intros a _.
  destruct (a =? 0).
  { apply lift_pos. intros q Hq. apply scan_ge in Hq. apply lift_pos. intros c _.
    destruct (c =? 0); [cbn; discriminate|]. destruct (c =? c_slash); [cbn; lia|exact Hst]. }
  destruct (a =? c_slash).
  { destruct (p =? c_slash); [constructor; cbn; [lia|constructor]|]. destruct (p =? 0); [cbn; discriminate|].
    destruct (p =? c_star); [|exact Hst]. apply lift_pos. intros q Hq. apply scan_ge in Hq.
    constructor; cbn; [lia|assumption]. }
  apply lift_pos. intros b _. destruct b; [|now apply switch_pos].
  apply lift_pos. intros q _. apply lift_pos. intros q2 Hq. apply scan_ge in Hq. constructor; cbn; [lia|assumption].
Qed.

Lemma partial_ahead pat adr r : osc_match pat adr = Ok r -> code r = 1 -> 0 < poff r.
Proof.
  unfold osc_match. destruct (rdc pat 0) as [p| |] eqn:Ep; try discriminate. cbn [bind].
  destruct (p =? c_slash) eqn:E1; cbn [negb]; [|intros H; injection H as <-; discriminate].
  destruct (rdc adr 0) as [a| |] eqn:Ea; try discriminate. cbn [bind].
  destruct (a =? c_slash) eqn:E2; cbn [negb]; [|intros H; injection H as <-; discriminate].
  apply Z.eqb_eq in E1, E2. subst p a.
  assert (E0 : step pat adr [(0, 0)] = Cont [(1, 1)]).
  { unfold step. rewrite Ep, Ea. reflexivity. }
  intros H. apply while_runs in H; [|discriminate].
  set (Inv := fun s : stack => s = [(0, 0)] \/ ahead s).
  apply (runs_inv (step pat adr) Inv (fun x => match x with Ok r => code r = 1 -> 0 < poff r | _ => True end)) in H.
  - exact H.
  - intros s s' [-> |Hs] Es.
    + rewrite E0 in Es. injection Es as <-. right. repeat constructor.
    + right. pose proof (step_pos pat adr s Hs) as K. rewrite Es in K. exact K.
  - intros s r' [-> |Hs] Es.
    + rewrite E0 in Es. discriminate.
    + pose proof (step_pos pat adr s Hs) as K. rewrite Es in K. destruct r'; exact K.
  - now left.
Qed.

(** * The result set *)

Lemma append_b_ok junk ws w P post m : wf_wmsg w -> ms_size m = Some (zlen P) ->
  16 + zlen (enc_wmsg w) <= zlen junk ->
  append_b junk (bundle_of ws) (P ++ enc_wmsg w ++ post) (Some m) = Ok (bundle_of (ws ++ [w])).
Proof.
  intros Hw Hm Hj. unfold append_b, bundle_of. destruct ws as [|w0 ws].
  - rewrite append_new_bundle by assumption. cbn [app map concat bind]. now rewrite app_nil_r.
  - set (l := w0 :: ws). assert (El : exists x y, l ++ [w] = x :: y) by (eexists _, _; reflexivity).
    destruct El as (x & y & El). rewrite El, <- El. clearbody l.
    assert (Hj2 : zlen (enc_wmsg w) <= zlen junk) by lia.
    pose proof (append_ok junk (empty_header ++ concat (map enc_wmsg l)) [] P w post m Hw Hm Hj2) as H.
    rewrite app_nil_r in H. rewrite H. cbn [bind]. rewrite map_app, concat_app. cbn [map concat].
    now rewrite app_nil_r, !app_assoc.
Qed.

Lemma append_b_first junk w P post m len : wf_wmsg w -> ms_size m = Some (zlen P) ->
  16 + zlen (enc_wmsg w) <= zlen junk ->
  append_b junk (Some (len, None)) (P ++ enc_wmsg w ++ post) (Some m) = Ok (bundle_of [w]).
Proof.
  intros Hw Hm Hj. unfold append_b, bundle_of. rewrite append_new_bundle by assumption.
  cbn [app map concat bind]. now rewrite app_nil_r.
Qed.

Definition entry : Type := list Z * (list wmsg * list wmsg).
Definition conc (e : entry) : result := Res (fst e) (bundle_of (fst (snd e))) (bundle_of (snd (snd e))).

Fixpoint pos (s : list Z) (st : list entry) : option nat :=
  match st with
  | [] => None
  | e :: st' => if eqs (fst e) s then Some O else option_map S (pos s st')
  end.
Fixpoint afind (s : list Z) (st : list entry) : list wmsg * list wmsg :=
  match st with
  | [] => ([], [])
  | e :: st' => if eqs (fst e) s then snd e else afind s st'
  end.
Definition upd (full : bool) (w : wmsg) (e : entry) : entry :=
  if full then (fst e, (fst (snd e) ++ [w], snd (snd e))) else (fst e, (fst (snd e), snd (snd e) ++ [w])).
Fixpoint aadd (full : bool) (s : list Z) (w : wmsg) (st : list entry) : list entry :=
  match st with
  | [] => [upd full w (s, ([], []))]
  | e :: st' => if eqs (fst e) s then upd full w e :: st' else e :: aadd full s w st'
  end.

Lemma eqs_spec a b : eqs a b = true <-> a = b.
Proof. unfold eqs. destruct (list_eq_dec Z.eq_dec a b); split; auto; discriminate. Qed.
Lemma eqs_refl a : eqs a a = true. Proof. now apply eqs_spec. Qed.
Lemma eqs_neq a b : a <> b -> eqs a b = false.
Proof. intros H. destruct (eqs a b) eqn:E; [apply eqs_spec in E; contradiction|reflexivity]. Qed.
Lemma eqs_bytes a b : bytes_eqb a b = eqs a b.
Proof.
  destruct (eqs a b) eqn:E.
  - apply eqs_spec in E. subst. now apply BundleUProofs.bytes_eqb_spec.
  - apply HashProofs.bytes_eqb_neq. intros ->. now rewrite eqs_refl in E.
Qed.

Definition hlen (k : bytes) : Z := Z.min (zlen k) (2^31 - 1).
Lemma hlen_ok : forall k, 0 <= hlen k < 2^31 /\ hlen k <= zlen k + 1.
Proof. intros k. unfold hlen, zlen. lia. Qed.
Lemma hlen_s32 s : zlen s < 2^31 -> s32 (zlen s) = hlen s.
Proof. intros H. unfold hlen. rewrite s32_id by (pose proof (zlen_nonneg s); lia). lia. Qed.

(** The result set holds exactly the entries [st]. *)
Definition holds (rs : rset) (st : list entry) (um : bndl_s) : Prop :=
  rs_results rs = map conc st /\ rs_unmatched rs = um /\
  exists m, tinv hlen (rs_ht rs) m /\ forall s, assoc s m = pos s st.

Lemma pos_upd f w e st s s' : eqs (fst e) s = true -> pos s' (upd f w e :: st) = pos s' (e :: st).
Proof. intros _. unfold upd. destruct f; reflexivity. Qed.
Lemma fst_upd f w e : fst (upd f w e) = fst e. Proof. unfold upd. now destruct f. Qed.

Lemma pos_aadd full s w st s' :
  pos s' (aadd full s w st) =
  match pos s st with
  | Some _ => pos s' st
  | None => match pos s' st with Some i => Some i | None => if eqs s s' then Some (length st) else None end
  end.
Proof.
  induction st as [|e st IH]; cbn [aadd pos].
  - rewrite fst_upd. cbn [fst]. now destruct (eqs s s').
  - destruct (eqs (fst e) s) eqn:E; cbn [pos].
    + rewrite fst_upd. reflexivity.
    + rewrite IH. destruct (pos s st) as [i|]; cbn [option_map]; [reflexivity|].
      destruct (eqs (fst e) s') eqn:E2; [reflexivity|].
      destruct (pos s' st); cbn [option_map]; [reflexivity|]. now destruct (eqs s s').
Qed.

Lemma aadd_some full s w st i : pos s st = Some i -> exists a e b,
  st = a ++ e :: b /\ length a = i /\ fst e = s /\ aadd full s w st = a ++ upd full w e :: b.
Proof.
  revert i. induction st as [|e st IH]; intros i H; cbn [pos] in H; [discriminate|]. cbn [aadd].
  destruct (eqs (fst e) s) eqn:E.
  - injection H as <-. exists [], e, st. apply eqs_spec in E. repeat split; auto.
  - destruct (pos s st) as [j|]; [|discriminate]. injection H as <-.
    destruct (IH j eq_refl) as (a & e' & b & -> & <- & <- & ->). exists (e :: a), e', b. repeat split.
Qed.

Lemma aadd_none full s w st : pos s st = None -> aadd full s w st = st ++ [upd full w (s, ([], []))].
Proof.
  induction st as [|e st IH]; cbn [pos aadd app]; [reflexivity|].
  destruct (eqs (fst e) s); [discriminate|]. destruct (pos s st); [discriminate|]. intros _. now rewrite IH.
Qed.

Lemma afind_aadd full s w st s' :
  afind s' (aadd full s w st) =
  if eqs s s' then (fst (afind s st) ++ (if full then [w] else []), snd (afind s st) ++ (if full then [] else [w]))
  else afind s' st.
Proof.
  induction st as [|e st IH]; cbn [aadd afind].
  - rewrite fst_upd. cbn [fst]. destruct (eqs s s'); [|reflexivity]. now destruct full.
  - destruct (eqs (fst e) s) eqn:E; cbn [afind].
    + rewrite fst_upd. apply eqs_spec in E. subst s. destruct (eqs (fst e) s'); [|reflexivity].
      unfold upd. destruct full; cbn [snd]; now rewrite app_nil_r.
    + rewrite IH. destruct (eqs (fst e) s') eqn:E2; [|reflexivity].
      rewrite (eqs_neq s s'); [reflexivity|]. intros <-. congruence.
Qed.

Lemma rset_find_ok rs st um s : holds rs st um -> zlen s < 2^31 -> rset_find rs s = Ok (pos s st).
Proof.
  intros (_ & _ & m & I & Hm) Hs. unfold rset_find. rewrite hlen_s32 by assumption.
  rewrite (lookup_ok hlen hlen_ok _ m) by assumption. now rewrite Hm.
Qed.

(** The common part of adding a match. *)
Lemma add_ok junk rs st um s w P post m (full : bool) : holds rs st um -> zlen s < 2^31 -> wf_wmsg w ->
  ms_size m = Some (zlen P) -> 16 + zlen (enc_wmsg w) <= zlen junk ->
  exists rs', (if full then add_complete else add_partial) junk rs s (P ++ enc_wmsg w ++ post) m = Ok rs' /\
    holds rs' (aadd full s w st) um.
Proof.
  intros H Hs Hw Hm Hj. pose proof H as (Hr & Hu & t & I & Ht).
  set (f := fun r => if full
     then do b <- append_b junk (r_complete r) (P ++ enc_wmsg w ++ post) (Some m); Ok (Res (r_selector r) b (r_partial r))
     else do b <- append_b junk (r_partial r) (P ++ enc_wmsg w ++ post) (Some m); Ok (Res (r_selector r) (r_complete r) b)).
  assert (Ef : forall e, f (conc e) = Ok (conc (upd full w e))).
  { intros [s0 [l1 l2]]. unfold f, conc, upd. cbn [fst snd r_complete r_partial r_selector].
    destruct full; rewrite append_b_ok by assumption; reflexivity. }
  assert (E : (if full then add_complete else add_partial) junk rs s (P ++ enc_wmsg w ++ post) m
              = (do ' (rs, i) <- rset_get rs s; rset_update rs i f)).
  { unfold f, add_complete, add_partial. destruct full; reflexivity. }
  rewrite E. clear E. unfold rset_get. rewrite (rset_find_ok rs st um s) by assumption. cbn [bind].
  destruct (pos s st) as [i|] eqn:Ep.
  - cbn [bind]. destruct (aadd_some full s w st i Ep) as (a & e & b & Est & Ei & _ & Ea). rewrite Ea.
    unfold rset_update. rewrite Hr, Est, map_app. cbn [map].
    rewrite nth_error_app2 by (rewrite map_length; lia). rewrite map_length, Ei, Nat.sub_diag. cbn [nth_error].
    rewrite Ef. cbn [bind]. eexists. split; [reflexivity|]. split; [|split].
    + cbn [rs_results]. rewrite map_app. cbn [map]. f_equal.
      * rewrite firstn_app, map_length, Ei, Nat.sub_diag. cbn [firstn]. rewrite app_nil_r.
        rewrite <- Ei. apply firstn_all2. rewrite map_length. lia.
      * f_equal. rewrite skipn_app. rewrite map_length, Ei. replace (S i - i)%nat with 1%nat by lia.
        rewrite skipn_all2 by (rewrite map_length; lia). reflexivity.
    + exact Hu.
    + cbn [rs_ht]. exists t. split; [exact I|]. intros s'. rewrite Ht. rewrite <- Ea.
      rewrite pos_aadd, Ep. reflexivity.
  - unfold rset_new_result. rewrite hlen_s32 by assumption.
    destruct (tab_step_ok hlen hlen_ok (rs_ht rs) t (Store s (length (rs_results rs))) I)
      as (ht' & calls & Es & I' & _ & _).
    cbn [tab_step] in Es. rewrite Es. cbn [bind]. unfold rset_update. cbn [rs_results].
    rewrite nth_error_app2, Nat.sub_diag by lia. cbn [nth_error].
    change (Res s None None) with (conc (s, ([], []))). rewrite Ef. cbn [bind].
    eexists. split; [reflexivity|]. split; [|split].
    + cbn [rs_results]. rewrite (aadd_none full s w st Ep), map_app. cbn [map]. rewrite Hr.
      rewrite firstn_app, Nat.sub_diag, firstn_all, skipn_all2 by (rewrite app_length; cbn; lia).
      cbn [firstn]. now rewrite app_nil_r.
    + exact Hu.
    + cbn [rs_ht]. exists (map_op t (Store s (length (rs_results rs)))). split; [exact I'|]. intros s'.
      pose proof (C29_map_laws _ t s (length (rs_results rs)) s' false (tinv_nodup _ _ _ I)) as (L & _).
      rewrite L, eqs_bytes, pos_aadd, Ep, Ht. rewrite Hr, map_length.
      destruct (eqs s s') eqn:E; [|now destruct (pos s' st)].
      apply eqs_spec in E. subst s'. now rewrite Ep.
Qed.

(** * Stripping *)

Lemma strip_wf n w : wf_wmsg w -> wf_wmsg (strip_addr n w) /\ zlen (wbody (strip_addr n w)) <= zlen (wbody w).
Proof.
  intros (Ha & Ht & Hl).
  assert (Hle : zlen (wbody (strip_addr n w)) <= zlen (wbody w)).
  { unfold wbody, strip_addr. cbn [w_addr w_args]. zl. rewrite !zlen_pad.
    assert (zlen (skipn (Z.to_nat n) (w_addr w)) <= zlen (w_addr w)) by (unfold zlen; rewrite skipn_length; lia).
    assert (zlen (skipn (Z.to_nat n) (w_addr w)) / 4 <= zlen (w_addr w) / 4) by (apply Z.div_le_mono; lia). lia. }
  split; [|exact Hle]. split; [|split]; cbn [strip_addr w_addr w_args]; [|exact Ht|lia].
  unfold nonul in *. rewrite <- (firstn_skipn (Z.to_nat n) (w_addr w)) in Ha. apply Forall_app in Ha. tauto.
Qed.

Lemma stripped_ok junk stale P w post m n : wf_wmsg w -> 0 <= n <= zlen (w_addr w) ->
  w_args w <> None -> addressable (skipn (Z.to_nat n) (w_addr w)) -> zlen (enc_wmsg w) <= zlen junk ->
  exists rest m', stripped junk stale (P ++ enc_wmsg w ++ post) (wrapped m (zlen P) w) (w_addr w) n
    = Ok (enc_wmsg (strip_addr n w) ++ rest, m') /\ ms_size m' = Some 0.
Proof.
  intros Hw Hn Ht Hv Hj. destruct (strip_wf n w Hw) as [Hw' Hle]. unfold stripped.
  assert (Hg : get_size (P ++ enc_wmsg w ++ post) (wrapped m (zlen P) w) = Ok (zlen (wbody w))).
  { unfold get_size. cbn [wrapped ms_size]. rewrite msg_size_at by assumption. cbn [bind].
    destruct Hw as (_ & _ & Hl). pose proof (zlen_nonneg (wbody w)). now rewrite s32_id by lia. }
  rewrite Hg. cbn [bind]. destruct Hw as (Hwa & Hwt & Hl). pose proof (zlen_nonneg (wbody w)) as Hp.
  rewrite add_int_ok by lia. cbn [bind]. rewrite zlen_enc in Hj.
  set (tmp := firstn (Z.to_nat (zlen (wbody w) + 4)) junk).
  assert (Htmp : zlen tmp = zlen (wbody w) + 4) by (unfold tmp; apply zlen_firstn_junk; lia). clearbody tmp.
  assert (Hal : zlen (w_addr w) < 2^31).
  { unfold wbody in Hl. rewrite zlen_app, zlen_pad in Hl.
    set (rest := match w_args w with Some (tags, data) => pad_str tags ++ data | None => [] end) in *.
    pose proof (zlen_nonneg rest). pose proof (Z.div_mod (zlen (w_addr w)) 4 ltac:(lia)).
    pose proof (Z.mod_pos_bound (zlen (w_addr w)) 4 ltac:(lia)). lia. }
  assert (Hsk : zlen (skipn (Z.to_nat n) (w_addr w)) = zlen (w_addr w) - n) by (unfold zlen in *; rewrite skipn_length; lia).
  rewrite s32_id by lia. rewrite <- Hsk.
  destruct w as [a [[tags data]|]]; cbn [w_args] in Ht; [|congruence]. cbn [w_addr] in *.
  assert (Hd : zlen (enc_wmsg (WM (skipn (Z.to_nat n) a) (Some (tags, data)))) <= zlen tmp).
  { rewrite zlen_enc, Htmp. change (WM (skipn (Z.to_nat n) a) (Some (tags, data))) with (strip_addr n (WM a (Some (tags, data)))). lia. }
  rewrite (rename_ok P a tags data post m (skipn (Z.to_nat n) a) tmp (conj Hwa (conj Hwt Hl)) Hw' (proj2 (validate_iff _) Hv) Hd).
  cbn [bind]. set (w' := WM (skipn (Z.to_nat n) a) (Some (tags, data))).
  assert (H4 : 4 <= zlen (wbody w')).
  { unfold wbody. rewrite zlen_app, zlen_pad. set (rest := match w_args w' with Some _ => _ | None => _ end).
    pose proof (zlen_nonneg rest). pose proof (zlen_nonneg (w_addr w')). pose proof (Z.div_pos (zlen (w_addr w')) 4 ltac:(lia) ltac:(lia)). lia. }
  destruct (zlen (wbody w') =? 0) eqn:E0; [lia|]. unfold overlay.
  pose proof (wrap_ok [] w' (skipn (length (enc_wmsg w')) tmp) stale Hw') as Hwr.
  change (zlen (@nil Z)) with 0 in Hwr. cbn [app] in Hwr. rewrite Hwr. cbn [bind].
  eexists _, _. split; [reflexivity|]. reflexivity.
Qed.

(** * One message *)

Definition act (strip : bool) (st : list entry) (x : wmsg * list Z) : list entry :=
  let '(w, s) := x in
  match related (w_addr w) s with
  | Full => aadd true s w st
  | Extends n => aadd false s (if strip then strip_addr n w else w) st
  | Neither => st
  end.

Definition pair_ok (strip : bool) (w : wmsg) (s : list Z) : Prop :=
  (exists r, osc_match (w_addr w) s = Ok r /\ code r <> 2048) /\ (nonul s /\ zlen s < 2^31) /\
  (strip = true -> forall n, related (w_addr w) s = Extends n ->
     w_args w <> None /\ addressable (skipn (Z.to_nat n) (w_addr w))).

Lemma match_code pat adr r : osc_match pat adr = Ok r -> code r = 3 \/ code r = 1 \/ (Z.land (code r) 1 =? 0) || (Z.land (code r) 2 =? 0) = true.
Proof.
  intros H. destruct (C01_match_total_and_in_bounds pat adr) as (r' & H' & Hd & _). rewrite H in H'. injection H' as <-.
  unfold documented_code in Hd. cbn in Hd.
  repeat (destruct Hd as [<-|Hd]; [auto|]). contradiction.
Qed.

Lemma rdc_in s i : 0 <= i <= zlen s -> exists c, rdc s i = Ok c.
Proof. intros H. unfold rdc. destruct (rd_ok (s ++ [0]) i) as (x & Hx & _); [zl; lia|]. eauto. Qed.

Lemma select_one_ok junk stale strip P w post m rs st um s : wf_wmsg w -> pair_ok strip w s ->
  holds rs st um -> 16 + zlen (enc_wmsg w) <= zlen junk ->
  exists rs', select_one junk stale strip (P ++ enc_wmsg w ++ post) (wrapped m (zlen P) w) (w_addr w) rs s
    = Ok (rs', match related (w_addr w) s with Neither => false | _ => true end) /\
    holds rs' (act strip st (w, s)) um.
Proof.
  intros Hw (Hm & (Hs & Hsl) & Hst) H Hj. destruct Hm as (r & Hr & Hb).
  unfold select_one, act, related in *. rewrite Hr in *. cbn [bind].
  destruct (C01_match_total_and_in_bounds (w_addr w) s) as (r0 & Hr0 & _ & Hpo & _). rewrite Hr in Hr0. injection Hr0 as <-.
  destruct Hw as (Hwa & Hw). destruct (C03_match_offsets (w_addr w) s r Hwa Hs Hr) as (H3 & H1 & H2 & H0).
  pose proof (conj Hwa Hw : wf_wmsg w) as Hww.
  assert (Hend : rdc (w_addr w) (zlen (w_addr w)) = Ok 0) by (unfold rdc; apply rd_at).
  destruct (code r =? 3) eqn:E3.
  { apply Z.eqb_eq in E3. destruct (H3 E3) as [Ep _]. rewrite Ep, Hend, E3. cbn [bind].
    change (0 =? 42) with false. cbn [bind]. change (Z.land 3 1 =? 0) with false. change (Z.land 3 2 =? 0) with false.
    cbn [negb andb].
    destruct (add_ok junk rs st um s w P post (wrapped m (zlen P) w) true H Hsl Hww eq_refl Hj) as (rs' & Ea & Hh).
    rewrite Ea. cbn [bind]. eauto. }
  destruct (code r =? 1) eqn:E1.
  { apply Z.eqb_eq in E1. destruct (H1 E1) as [Ep _]. rewrite Ep. cbn [bind]. change (47 =? 42) with false. cbn [bind].
    rewrite E1. change (Z.land 1 1 =? 0) with false. change (Z.land 1 2 =? 0) with true. cbn [negb andb].
    pose proof (partial_ahead _ _ _ Hr E1) as Hpos. destruct (poff r >? 0) eqn:Eg; [|lia].
    change (47 =? 47) with true. cbn [andb orb]. destruct strip.
    - destruct (Hst eq_refl (poff r) eq_refl) as [Ht Hv].
      destruct (stripped_ok junk stale P w post m (poff r) Hww Hpo Ht Hv ltac:(lia)) as (rest & m' & Es & Em).
      rewrite Es. cbn [bind]. destruct (strip_wf (poff r) w Hww) as [Hw' Hle].
      destruct (add_ok junk rs st um s (strip_addr (poff r) w) [] rest m' false H Hsl Hw' Em) as (rs' & Ea & Hh).
      { rewrite zlen_enc in *. lia. }
      cbn [app] in Ea. rewrite Ea. cbn [bind]. eauto.
    - destruct (add_ok junk rs st um s w P post (wrapped m (zlen P) w) false H Hsl Hww eq_refl Hj) as (rs' & Ea & Hh).
      rewrite Ea. cbn [bind]. eauto. }
  assert (Hl : negb (Z.land (code r) 1 =? 0) && negb (Z.land (code r) 2 =? 0) = false).
  { destruct (match_code _ _ _ Hr) as [E|[E|E]]; [lia|lia|]. now rewrite <- negb_orb, E. }
  destruct (rdc_in (w_addr w) (poff r) Hpo) as (c & Ec). rewrite Ec. cbn [bind].
  assert (Hst2 : exists b, (if c =? 42 then do c1 <- rdc (w_addr w) (poff r + 1); Ok (c1 =? 0) else Ok false) = Ok b /\
                 (poff r >? 0) && ((c =? 47) || b) = false).
  { destruct (Z.eq_dec (code r) 2) as [E2|N2].
    - destruct (H2 E2) as [Ep _]. rewrite Ep, Hend in Ec. injection Ec as <-. exists false. split; [reflexivity|].
      change (0 =? 47) with false. now rewrite andb_false_r.
    - destruct H0 as [Ep _]; try lia. rewrite Ep in *. change (0 >? 0) with false. cbn [andb].
      destruct (c =? 42) eqn:E42; [|eauto]. assert (c = 42) by lia. subst c.
      destruct (rdc_in (w_addr w) 1) as (c1 & Ec1).
      { destruct (w_addr w) as [|x l]; [discriminate|]. zl. pose proof (zlen_nonneg l). lia. }
      change (0 + 1) with 1. rewrite Ec1. cbn [bind]. eauto. }
  destruct Hst2 as (b & Eb & En). rewrite Eb. cbn [bind]. rewrite Hl, En. eauto.
Qed.

Lemma select_each_ok junk stale strip P w post m um : wf_wmsg w -> 16 + zlen (enc_wmsg w) <= zlen junk ->
  forall sels rs st matched, Forall (pair_ok strip w) (selectors sels) -> holds rs st um ->
  exists rs', select_each junk stale strip (P ++ enc_wmsg w ++ post) (wrapped m (zlen P) w) (w_addr w) rs sels matched
    = Ok (rs', matched || negb (forallb (fun s => match related (w_addr w) s with Neither => true | _ => false end)
                                  (selectors sels))) /\
    holds rs' (fold_left (act strip) (map (pair w) (selectors sels)) st) um.
Proof.
  intros Hw Hj. induction sels as [|[s|] sels IH]; intros rs st matched Hp H; cbn [select_each selectors map forallb fold_left].
  - exists rs. cbn [negb]. rewrite orb_false_r. auto.
  - cbn [selectors] in Hp.
    destruct (select_one_ok junk stale strip P w post m rs st um s Hw (Forall_inv Hp) H Hj) as (rs1 & E & H1).
    rewrite E. cbn [bind].
    destruct (IH rs1 (act strip st (w, s)) (matched || match related (w_addr w) s with Neither => false | _ => true end)
      (Forall_inv_tail Hp) H1) as (rs2 & E2 & H2).
    rewrite E2. exists rs2. split; [|exact H2]. f_equal. f_equal.
    destruct (related (w_addr w) s); cbn [andb negb]; rewrite ?orb_true_r, ?orb_false_r; reflexivity.
  - exact (IH rs st matched Hp H).
Qed.

(** * A whole query *)

(** The unmatched messages; [started] says that a bundle without messages was
    queried, which leaves a bundle of length 0 and a NULL pointer. *)
Definition um_of (started : bool) (ws : list wmsg) : bndl_s :=
  match ws with [] => if started then Some (0, None) else None | _ => bundle_of ws end.

Lemma add_unmatched_ok junk rs st started us w P post m : wf_wmsg w -> ms_size m = Some (zlen P) ->
  16 + zlen (enc_wmsg w) <= zlen junk -> holds rs st (um_of started us) ->
  exists rs', add_unmatched junk rs (P ++ enc_wmsg w ++ post) (Some m) = Ok rs' /\ holds rs' st (um_of started (us ++ [w])).
Proof.
  intros Hw Hm Hj (Hr & Hu & Ht). unfold add_unmatched. rewrite Hu.
  assert (E : append_b junk (um_of started us) (P ++ enc_wmsg w ++ post) (Some m) = Ok (bundle_of (us ++ [w]))).
  { unfold um_of. destruct us as [|u us]; [|now apply append_b_ok]. destruct started.
    - now apply append_b_first.
    - apply (append_b_ok junk [] w P post m); assumption. }
  rewrite E. cbn [bind]. eexists. split; [reflexivity|]. split; [exact Hr|]. split; [|exact Ht].
  cbn [rs_unmatched]. unfold um_of. destruct (us ++ [w]) eqn:Ee; [|reflexivity].
  apply (f_equal (@length _)) in Ee. rewrite app_length in Ee. cbn in Ee. lia.
Qed.

Lemma over_ok junk stale strip sels started post : forall ws P m rs st us,
  Forall wf_wmsg ws -> Forall (fun w => 16 + zlen (enc_wmsg w) <= zlen junk) ws ->
  Forall (fun w => Forall (pair_ok strip w) (selectors sels)) ws ->
  holds rs st (um_of started us) ->
  let buf := P ++ enc_wmsgs ws ++ post in
  exists rs', over (fun rs m =>
      match ms_address m with
      | None => Ub NullDeref
      | Some ap =>
          do addr <- rdstr buf ap;
          do ' (rs, matched) <- select_each junk stale strip buf m addr rs sels false;
          if matched then Ok (@Cont _ unit rs) else
          do rs <- add_unmatched junk rs buf (Some m); Ok (Cont rs)
      end) rs (views m (zlen P) ws) = Ok (Cont rs') /\
    holds rs' (fold_left (act strip) (list_prod ws (selectors sels)) st)
      (um_of started (us ++ filter (fun w => forallb (fun sel => match related (w_addr w) sel with Neither => true | _ => false end)
                     (selectors sels)) ws)).
Proof.
  induction ws as [|w ws IH]; intros P m rs st us Hw Hj Hp H buf.
  - exists rs. cbn [views over list_prod filter fold_left]. rewrite app_nil_r. auto.
  - pose proof (Forall_inv Hw) as Hw1. pose proof (Forall_inv Hj) as Hj1. pose proof (Forall_inv Hp) as Hp1.
    cbn beta in Hj1, Hp1.
    assert (Eb : buf = P ++ enc_wmsg w ++ (enc_wmsgs ws ++ post)) by (unfold buf; now rewrite enc_wmsgs_cons, <- app_assoc).
    assert (Eb2 : buf = (P ++ enc_wmsg w) ++ enc_wmsgs ws ++ post) by (rewrite Eb; now rewrite <- app_assoc).
    cbn [views over]. cbn [wrapped ms_address].
    assert (Ha : rdstr buf (zlen P + 4) = Ok (w_addr w)) by (rewrite Eb; now apply addr_at).
    rewrite Ha. cbn [bind].
    destruct (select_each_ok junk stale strip P w (enc_wmsgs ws ++ post) m (um_of started us) Hw1 Hj1 sels rs st false Hp1 H)
      as (rs1 & E1 & H1).
    rewrite <- Eb in E1. fold (wrapped m (zlen P) w). rewrite E1. cbn [bind orb].
    replace (zlen P + zlen (enc_wmsg w)) with (zlen (P ++ enc_wmsg w)) by (zl; lia).
    cbn [list_prod filter]. rewrite fold_left_app.
    set (st1 := fold_left (act strip) (map (pair w) (selectors sels)) st) in *.
    destruct (forallb _ (selectors sels)) eqn:Ef; cbn [negb].
    + destruct (add_unmatched_ok junk rs1 st1 started us w P (enc_wmsgs ws ++ post) (wrapped m (zlen P) w) Hw1 eq_refl Hj1 H1)
        as (rs2 & E2 & H2).
      rewrite <- Eb in E2. rewrite E2. cbn [bind].
      destruct (IH (P ++ enc_wmsg w) (wrapped m (zlen P) w) rs2 st1 (us ++ [w]) (Forall_inv_tail Hw) (Forall_inv_tail Hj)
                  (Forall_inv_tail Hp) H2) as (rs3 & E3 & H3).
      rewrite <- Eb2 in E3. exists rs3. split; [exact E3|]. rewrite <- app_assoc in H3. exact H3.
    + destruct (IH (P ++ enc_wmsg w) (wrapped m (zlen P) w) rs1 st1 us (Forall_inv_tail Hw) (Forall_inv_tail Hj)
                  (Forall_inv_tail Hp) H1) as (rs3 & E3 & H3).
      rewrite <- Eb2 in E3. exists rs3. split; [exact E3|]. exact H3.
Qed.

Lemma pairs_ok q : answerable q -> Forall (fun w => Forall (pair_ok (q_strip q) w) (selectors (q_sels q))) (q_msgs q).
Proof.
  intros (_ & Hm & Hs & Hst). apply Forall_forall. intros w Hw. apply Forall_forall. intros s Hin.
  rewrite Forall_forall in Hm, Hs. split; [|split].
  - apply (Hm (w, s)). unfold pairs. now apply in_prod.
  - now apply Hs.
  - intros E n Hr. now apply (Hst E w s n).
Qed.

Definition empty (q : query) : bool := match q_msgs q with [] => true | _ => false end.

Lemma query_ok junk stale hdr q post rs st started us : zlen hdr = 16 -> answerable q ->
  Forall (fun w => 16 + zlen (enc_wmsg w) <= zlen junk) (q_msgs q) ->
  holds rs st (um_of started us) ->
  exists rs', query_select junk stale (q_sels q) (16 + zlen (enc_wmsgs (q_msgs q)))
                (Some (hdr ++ enc_wmsgs (q_msgs q) ++ post)) (q_strip q) (Some rs) = Ok (0, Some rs') /\
    holds rs' (fold_left (act (q_strip q)) (pairs q) st) (um_of (started || empty q) (us ++ unmatched q)).
Proof.
  intros Hh Ha Hj H. pose proof (pairs_ok q Ha) as Hp. destruct Ha as (Hw & _). unfold query_select. cbn [bind].
  pose proof (zlen_nonneg (enc_wmsgs (q_msgs q))).
  destruct (16 + zlen (enc_wmsgs (q_msgs q)) =? 16) eqn:E.
  - assert (Ez : zlen (enc_wmsgs (q_msgs q)) = 0) by lia. apply zlen_zero_nil in Ez.
    unfold pairs, unmatched, empty. rewrite Ez. cbn [list_prod fold_left filter]. rewrite app_nil_r, orb_true_r.
    destruct H as (Hr & Hu & Ht). unfold add_unmatched, append_b, append_message. rewrite Hu.
    unfold um_of. destruct us as [|u us].
    + destruct started; cbn [bind]; eexists; (split; [reflexivity|]); repeat split; auto.
    + cbn [bundle_of bind]. eexists; (split; [reflexivity|]); repeat split; auto.
  - assert (Ee : empty q = false).
    { unfold empty. destruct (q_msgs q); [|reflexivity]. cbn in E. discriminate. }
    rewrite Ee, orb_false_r. unfold query_impl.
    match goal with |- context [bundle_loop _ _ _ ?b _] => set (body := b) end.
    pose proof (bundle_loop_over body rs [] hdr (q_msgs q) post Hh Hw) as HL.
    change (zlen (@nil Z)) with 0 in HL. cbn [app] in HL. rewrite HL. clear HL.
    change (0 + 16) with 16. unfold body.
    destruct (over_ok junk stale (q_strip q) (q_sels q) started post (q_msgs q) hdr init_msg rs st us Hw Hj Hp H)
      as (rs' & E' & H'). cbv zeta in E'. rewrite Hh in E'. rewrite E'. cbn [bind].
    exists rs'. split; [reflexivity|]. exact H'.
Qed.

(** * What the entries are *)

Lemma act_afind strip st w s s' :
  afind s' (act strip st (w, s)) =
  (fst (afind s' st) ++ map fst (filter (fun x : wmsg * list Z => eqs (snd x) s' &&
       match related (w_addr (fst x)) s' with Full => true | _ => false end) [(w, s)]),
   snd (afind s' st) ++ (if eqs s s' then match related (w_addr w) s' with
                          | Extends n => [if strip then strip_addr n w else w] | _ => [] end else [])).
Proof.
  unfold act. cbn [filter fst snd].
  destruct (eqs s s') eqn:E; cbn [andb].
  - apply eqs_spec in E. subst s'. destruct (related (w_addr w) s) as [|n|]; rewrite ?afind_aadd, ?eqs_refl; cbn [map fst].
    + reflexivity.
    + reflexivity.
    + rewrite !app_nil_r. now destruct (afind s st).
  - cbn [map]. rewrite !app_nil_r.
    destruct (related (w_addr w) s) as [|n|]; rewrite ?afind_aadd, ?E; now destruct (afind s' st).
Qed.

Lemma fold_afind strip s : forall l st,
  afind s (fold_left (act strip) l st) =
  (fst (afind s st) ++ map fst (filter (fun x : wmsg * list Z => eqs (snd x) s &&
       match related (w_addr (fst x)) s with Full => true | _ => false end) l),
   snd (afind s st) ++ flat_map (fun x : wmsg * list Z => if eqs (snd x) s
                     then match related (w_addr (fst x)) s with
                          | Extends n => [if strip then strip_addr n (fst x) else fst x]
                          | _ => []
                          end
                     else []) l).
Proof.
  induction l as [|[w s0] l IH]; intros st; cbn [fold_left flat_map].
  - cbn [filter map]. rewrite !app_nil_r. now destruct (afind s st).
  - rewrite IH, act_afind. cbn [fst snd]. rewrite <- !app_assoc. f_equal. f_equal.
    rewrite <- map_app. f_equal. cbn [filter fst snd]. now destruct (eqs s0 s && _).
Qed.

Definition add_new (acc : list (list Z)) (s : list Z) : list (list Z) := if existsb (eqs s) acc then acc else acc ++ [s].

Lemma aadd_keys full s w st : map fst (aadd full s w st) = add_new (map fst st) s.
Proof.
  unfold add_new. induction st as [|e st IH]; cbn [aadd map existsb].
  - now rewrite fst_upd.
  - destruct (eqs (fst e) s) eqn:E.
    + apply eqs_spec in E. subst s. rewrite eqs_refl. cbn [map orb]. now rewrite fst_upd.
    + rewrite (eqs_neq s (fst e)) by (intros ->; now rewrite eqs_refl in E). cbn [map orb]. rewrite IH.
      now destruct (existsb (eqs s) (map fst st)).
Qed.

Lemma fold_keys strip : forall l st,
  map fst (fold_left (act strip) l st) =
  fold_left add_new (map snd (filter (fun x : wmsg * list Z => match related (w_addr (fst x)) (snd x) with Neither => false | _ => true end) l))
    (map fst st).
Proof.
  induction l as [|[w s] l IH]; intros st; [reflexivity|]. cbn [fold_left filter fst snd]. rewrite IH. unfold act.
  destruct (related (w_addr w) s) as [|n|]; cbn [map fold_left]; rewrite ?aadd_keys; reflexivity.
Qed.

Lemma add_new_nodup acc s : NoDup acc -> NoDup (add_new acc s).
Proof.
  intros H. unfold add_new. destruct (existsb (eqs s) acc) eqn:E; [assumption|].
  apply NoDup_rev in H. rewrite <- (rev_involutive (acc ++ [s])). apply NoDup_rev. rewrite rev_app_distr. cbn.
  constructor; [|assumption]. intros Hi. apply in_rev in Hi.
  assert (existsb (eqs s) acc = true) by (apply existsb_exists; exists s; split; [assumption|apply eqs_refl]). congruence.
Qed.

Lemma entries_eq st : NoDup (map fst st) -> st = map (fun s => (s, afind s st)) (map fst st).
Proof.
  induction st as [|e st IH]; intros H; [reflexivity|]. cbn [map afind]. rewrite eqs_refl.
  inversion H as [|? ? Hn Hd]; subst. f_equal; [now destruct e|].
  rewrite (IH Hd) at 1. apply map_ext_in. intros s Hs.
  destruct (eqs (fst e) s) eqn:E; [|reflexivity]. apply eqs_spec in E. subst. contradiction.
Qed.

Lemma entries_in st s : pos s st <> None <-> In s (map fst st).
Proof.
  induction st as [|e st IH]; cbn [pos map]; [split; [congruence|intros []]|].
  destruct (eqs (fst e) s) eqn:E.
  - apply eqs_spec in E. split; [intros _; now left|discriminate].
  - destruct (pos s st); cbn [option_map].
    + split; [intros _; right; now apply IH|discriminate].
    + split; [congruence|]. intros [Hi|Hi]; [subst; now rewrite eqs_refl in E|]. apply IH in Hi. congruence.
Qed.

Lemma pos_nth st s i : pos s st = Some i -> nth_error st i = Some (s, afind s st).
Proof.
  revert i. induction st as [|e st IH]; intros i H; cbn [pos] in H; [discriminate|]. cbn [afind].
  destruct (eqs (fst e) s) eqn:E.
  - injection H as <-. apply eqs_spec in E. subst. cbn. now destruct e.
  - destruct (pos s st) as [j|]; [|discriminate]. injection H as <-. now apply IH.
Qed.
