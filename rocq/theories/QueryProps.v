(** C33: queries. *)

From Coq Require Import ZArith List Bool Lia.
From Verif Require Import Base BaseProofs Bytes Text MatchModel MatchSpec MatchFacts MatchProps.
From Verif Require Import WireSpec WireModel WireWalk BundleSModel BundleSProofs BundleSProps QueryModel QuerySpec QueryProofs.
Import ListNotations.
Open Scope Z_scope.

(** A series of queries that fill one result set, created by the first; each
    bundle has a header and may have other bytes behind it. *)
Fixpoint run (junk : bytes) (stale : msg_s) (hist : list (bytes * query * bytes)) (rs : option rset)
  : res (option rset) :=
  match hist with
  | [] => Ok rs
  | (hdr, q, post) :: hist' =>
      do ' (_, rs) <- query_select junk stale (q_sels q) (16 + zlen (concat (map enc_wmsg (q_msgs q))))
                        (Some (hdr ++ concat (map enc_wmsg (q_msgs q)) ++ post)) (q_strip q) rs;
      run junk stale hist' rs
  end.

Definition runs_ok (junk : bytes) (x : bytes * query * bytes) : Prop :=
  let '(hdr, q, _) := x in
  zlen hdr = 16 /\ answerable q /\ Forall (fun w => 16 + zlen (enc_wmsg w) <= zlen junk) (q_msgs q).

Lemma run_ok junk stale : forall hist rs st started us, Forall (runs_ok junk) hist ->
  holds rs st (um_of started us) ->
  let qs := map (fun x => snd (fst x)) hist in
  exists rs', run junk stale hist (Some rs) = Ok (Some rs') /\
    holds rs' (fold_left (fun st q => fold_left (act (q_strip q)) (pairs q) st) qs st)
      (um_of (started || existsb empty qs) (us ++ flat_map unmatched qs)).
Proof.
  induction hist as [|[[hdr q] post] hist IH]; intros rs st started us Hok H qs; cbn [map run].
  - exists rs. split; [reflexivity|]. unfold qs. cbn [map fold_left existsb flat_map]. rewrite app_nil_r, orb_false_r. exact H.
  - pose proof (Forall_inv Hok) as (Hh & Ha & Hj).
    destruct (query_ok junk stale hdr q post rs st started us Hh Ha Hj H) as (rs1 & E & H1).
    unfold enc_wmsgs in E. rewrite E. cbn [bind].
    destruct (IH rs1 _ _ _ (Forall_inv_tail Hok) H1) as (rs2 & E2 & H2).
    exists rs2. split; [exact E2|]. unfold qs. cbn [map fold_left existsb flat_map fst snd].
    rewrite orb_assoc, app_assoc. exact H2.
Qed.

Lemma all_afind s : forall qs st,
  afind s (fold_left (fun st q => fold_left (act (q_strip q)) (pairs q) st) qs st)
  = (fst (afind s st) ++ flat_map (complete_matches s) qs, snd (afind s st) ++ flat_map (partial_matches s) qs).
Proof.
  induction qs as [|q qs IH]; intros st; cbn [fold_left flat_map]; [rewrite !app_nil_r; now destruct (afind s st)|].
  rewrite IH, fold_afind. cbn [fst snd]. unfold complete_matches at 2, partial_matches at 2. now rewrite <- !app_assoc.
Qed.

Lemma all_keys : forall qs st,
  map fst (fold_left (fun st q => fold_left (act (q_strip q)) (pairs q) st) qs st)
  = fold_left add_new (flat_map hits qs) (map fst st).
Proof.
  induction qs as [|q qs IH]; intros st; cbn [fold_left flat_map]; [reflexivity|].
  rewrite IH, fold_keys, fold_left_app. reflexivity.
Qed.

Lemma add_new_in l : forall acc s, In s (fold_left add_new l acc) <-> In s acc \/ In s l.
Proof.
  induction l as [|x l IH]; intros acc s; cbn [fold_left]; [cbn; tauto|]. rewrite IH. unfold add_new.
  destruct (existsb (eqs x) acc) eqn:E.
  - apply existsb_exists in E as (y & Hy & Ey). apply eqs_spec in Ey. subst y. cbn. intuition (subst; auto).
  - rewrite in_app_iff. cbn. tauto.
Qed.

Lemma fold_nodup l : forall acc, NoDup acc -> NoDup (fold_left add_new l acc).
Proof. induction l as [|x l IH]; intros acc H; cbn [fold_left]; [assumption|]. apply IH. now apply add_new_nodup. Qed.

Lemma in_order_nodup l : NoDup (in_order l).
Proof. apply (fold_nodup l []). constructor. Qed.
Lemma in_order_in l s : In s (in_order l) <-> In s l.
Proof. etransitivity; [apply (add_new_in l [] s)|]. cbn. tauto. Qed.

(** For every series of queries the result set holds, for each selector that
    matched something and in the order in which they first did, the bundle of
    the messages that match it completely and the bundle of those that extend
    it, both in order; and the messages that matched nothing.  A bundle without
    any message makes the unmatched bundle exist, but with a NULL pointer. *)
Theorem C33_queries junk stale hist : hist <> [] -> Forall (runs_ok junk) hist ->
  let qs := map (fun x => snd (fst x)) hist in
  let answer s := Res s (bundle_of (flat_map (complete_matches s) qs)) (bundle_of (flat_map (partial_matches s) qs)) in
  exists rs, run junk stale hist None = Ok (Some rs) /\
    rs_results rs = map answer (in_order (flat_map hits qs)) /\
    (forall s, zlen s < 2^31 ->
       rset_select rs s = Ok (if existsb (eqs s) (flat_map hits qs) then Some (answer s) else None)) /\
    rs_unmatched rs = match flat_map unmatched qs with
                      | [] => if existsb (fun q => match q_msgs q with [] => true | _ => false end) qs
                              then Some (0, None) else None
                      | ws => bundle_of ws
                      end.
Proof.
  intros Hne Hok qs answer.
  destruct (HashProofs.new_ok nat 0 true) as (ht & Ent & _ & I0); [lia|lia|].
  set (rs0 := RSet ht [] None).
  assert (H0 : holds rs0 [] (um_of false [])).
  { split; [reflexivity|]. split; [reflexivity|]. exists []. split; [apply I0|reflexivity]. }
  assert (Er : run junk stale hist None = run junk stale hist (Some rs0)).
  { destruct hist as [|[[hdr q] post] hist]; [congruence|]. cbn [run]. unfold query_select.
    unfold rset_alloc. rewrite Ent. reflexivity. }
  destruct (run_ok junk stale hist rs0 [] false [] Hok H0) as (rs & E & H). fold qs in H. cbn [orb app] in H.
  exists rs. split; [rewrite Er; exact E|].
  set (st := fold_left (fun st q => fold_left (act (q_strip q)) (pairs q) st) qs []) in *.
  assert (Hk : map fst st = in_order (flat_map hits qs)) by (unfold st; now rewrite all_keys).
  assert (Hf : forall s, conc (s, afind s st) = answer s).
  { intros s. unfold st. rewrite all_afind. reflexivity. }
  pose proof H as (Hr & Hu & _). split; [|split].
  - rewrite Hr. rewrite (entries_eq st) by (rewrite Hk; apply in_order_nodup).
    rewrite Hk, map_map. apply map_ext. exact Hf.
  - intros s Hs. unfold rset_select. rewrite (rset_find_ok rs st _ s H Hs). cbn [bind].
    pose proof (entries_in st s) as Hi. rewrite Hk, in_order_in in Hi.
    destruct (pos s st) as [i|] eqn:Ep.
    + rewrite Hr, (map_nth_error conc i st (pos_nth st s i Ep)), Hf.
      replace (existsb (eqs s) (flat_map hits qs)) with true; [reflexivity|].
      symmetry. apply existsb_exists. exists s. split; [|apply eqs_refl]. apply Hi. discriminate.
    + replace (existsb (eqs s) (flat_map hits qs)) with false; [reflexivity|].
      symmetry. apply not_true_is_false. intros Ex. apply existsb_exists in Ex as (y & Hy & Ey).
      apply eqs_spec in Ey. subst y. apply Hi in Hy. congruence.
  - rewrite Hu. unfold um_of. now destruct (flat_map unmatched qs).
Qed.
Print Assumptions C33_queries.

(** The lists of one query when no selector is given twice. *)
Theorem C33_lists q s : NoDup (selectors (q_sels q)) -> In s (selectors (q_sels q)) ->
  let rel w := related (w_addr w) s in
  complete_matches s q = filter (fun w => match rel w with Full => true | _ => false end) (q_msgs q) /\
  partial_matches s q = flat_map (fun w => match rel w with
                                           | Extends n => [if q_strip q then strip_addr n w else w] | _ => [] end) (q_msgs q).
Proof.
  intros Hd Hi rel. unfold complete_matches, partial_matches, pairs.
  assert (Hf : forall w l, NoDup l -> In s l ->
     filter (fun x : wmsg * list Z => eqs (snd x) s) (map (pair w) l) = [(w, s)]).
  { intros w l. induction l as [|x l IH]; intros Hn Hin; [destruct Hin|]. inversion Hn as [|? ? Hx Hl]; subst.
    cbn [map filter snd]. destruct Hin as [->|Hin].
    - rewrite eqs_refl. f_equal. clear - Hx. induction l as [|y l IH]; [reflexivity|].
      cbn [map filter snd]. rewrite eqs_neq by (intros ->; apply Hx; now left). apply IH. intros H. apply Hx. now right.
    - rewrite eqs_neq by (intros ->; contradiction). now apply IH. }
  induction (q_msgs q) as [|w ws [IH1 IH2]]; [split; reflexivity|]. cbn [list_prod filter flat_map].
  change (fun y : list Z => (w, y)) with (@pair wmsg (list Z) w). split.
  - rewrite filter_app, map_app, IH1.
    assert (E : filter (fun x : wmsg * list Z => eqs (snd x) s && match related (w_addr (fst x)) s with Full => true | _ => false end)
                  (map (pair w) (selectors (q_sels q)))
                = filter (fun x : wmsg * list Z => match related (w_addr (fst x)) s with Full => true | _ => false end)
                    (filter (fun x => eqs (snd x) s) (map (pair w) (selectors (q_sels q))))).
    { induction (map (pair w) (selectors (q_sels q))) as [|x l IH]; [reflexivity|]. cbn [filter].
      destruct (eqs (snd x) s); cbn [andb filter]; rewrite IH; reflexivity. }
    rewrite E, Hf by assumption. cbn [filter fst]. unfold rel. now destruct (related (w_addr w) s).
  - rewrite flat_map_app, IH2. f_equal.
    assert (E : flat_map (fun x : wmsg * list Z => if eqs (snd x) s
                     then match related (w_addr (fst x)) s with
                          | Extends n => [if q_strip q then strip_addr n (fst x) else fst x] | _ => [] end
                     else []) (map (pair w) (selectors (q_sels q)))
                = flat_map (fun x : wmsg * list Z => match related (w_addr (fst x)) s with
                          | Extends n => [if q_strip q then strip_addr n (fst x) else fst x] | _ => [] end)
                    (filter (fun x => eqs (snd x) s) (map (pair w) (selectors (q_sels q))))).
    { induction (map (pair w) (selectors (q_sels q))) as [|x l IH]; [reflexivity|]. cbn [filter flat_map].
      destruct (eqs (snd x) s); cbn [flat_map app]; rewrite IH; reflexivity. }
    rewrite E, Hf by assumption. cbn [flat_map fst]. now rewrite app_nil_r.
Qed.
Print Assumptions C33_lists.

Lemma same_length {A B} (R : A -> B -> Prop) l l' : Forall2 R l l' -> length l = length l'.
Proof. intros H. induction H; cbn; congruence. Qed.

(** How a message relates to a selector, in terms of the pattern language: the
    address of the message is read as a pattern, the selector as an address. *)
Theorem C33_related (p : pattern) (a : address) : pattern_ok p -> address_ok a -> within_backtrack_limit p a ->
  let addr := pattern_text p in let sel := address_text a in
  (related addr sel = Full <-> Forall2 component_matches p a) /\
  (forall n, related addr sel = Extends n <->
     exists p1 p2, p = p1 ++ p2 /\ p2 <> [] /\ Forall2 component_matches p1 a /\ n = zlen (pattern_text p1)) /\
  (related addr sel = Neither <-> forall p1 p2, p = p1 ++ p2 -> ~ Forall2 component_matches p1 a).
Proof.
  intros Hp Ha Hl addr sel. destruct (C02_match_decides_language p a Hp Ha Hl) as (r & Hr & H3 & H1 & H2 & Hc).
  assert (Ef : related addr sel = Full <-> Forall2 component_matches p a).
  { unfold related, addr, sel. rewrite Hr, <- H3. destruct (code r =? 3) eqn:E3; [split; [lia|auto]|].
    destruct (code r =? 1); split; try discriminate; lia. }
  assert (Ee : forall n, related addr sel = Extends n <->
     exists p1 p2, p = p1 ++ p2 /\ p2 <> [] /\ Forall2 component_matches p1 a /\ n = zlen (pattern_text p1)).
  { intros n. unfold related, addr, sel. rewrite Hr. split.
    - destruct (code r =? 3) eqn:E3; [discriminate|]. destruct (code r =? 1) eqn:E1; [|discriminate].
      intros E. injection E as <-. assert (Hc1 : code r = 1) by lia.
      destruct (C03_match_offsets_are_component_boundaries p a r Hp Ha Hr (or_introl Hc1))
        as (p1 & p2 & a1 & a2 & Ep & Ea & Hf & Epo & _ & Hp2 & Ha2).
      assert (a2 = []) by (apply Ha2; auto). subst a2. rewrite app_nil_r in Ea. subst a1.
      exists p1, p2. repeat split; auto. intros ->. destruct Hp2 as [Hp2 _]. specialize (Hp2 eq_refl). lia.
    - intros (p1 & p2 & Ep & Hn & Hf & ->).
      assert (Hc1 : code r = 1) by (apply H1; eauto).
      destruct (code r =? 3) eqn:E3; [lia|]. destruct (code r =? 1) eqn:E1; [|lia]. f_equal.
      destruct (C03_match_offsets_are_component_boundaries p a r Hp Ha Hr (or_introl Hc1))
        as (q1 & q2 & a1 & a2 & Ep' & Ea & Hf' & Epo & _ & Hp2 & Ha2).
      assert (a2 = []) by (apply Ha2; auto). subst a2. rewrite app_nil_r in Ea. subst a1.
      rewrite Epo. f_equal. f_equal. apply same_length in Hf, Hf'.
      rewrite Ep in Ep'. revert Ep' Hf Hf'. clear. revert q1 a.
      induction p1 as [|x p1 IH]; intros [|y q1] [|z a] E L1 L2; cbn in *; try lia; [reflexivity|].
      injection E as -> E. f_equal. apply (IH q1 a); lia || assumption. }
  split; [exact Ef|]. split; [exact Ee|]. split.
  - intros En p1 p2 Ep Hf. destruct p2 as [|x p2].
    + rewrite app_nil_r in Ep. subst p1. apply Ef in Hf. congruence.
    + assert (Ex : related addr sel = Extends (zlen (pattern_text p1))).
      { apply Ee. exists p1, (x :: p2). repeat split; auto. discriminate. }
      congruence.
  - intros Hno. destruct (related addr sel) as [|n|] eqn:E; [| |reflexivity].
    + exfalso. apply (Hno p []); [now rewrite app_nil_r|now apply Ef].
    + exfalso. destruct (Ee n) as [Ee1 _]. destruct (Ee1 eq_refl) as (p1 & p2 & Ep & _ & Hf & _). now apply (Hno p1 p2).
Qed.
Print Assumptions C33_related.

(** No bundle: an error, and the result set is not touched. *)
Theorem C33_no_bundle junk stale sels len strip rs : query_select junk stale sels len None strip rs = Ok (16, rs).
Proof. reflexivity. Qed.
Print Assumptions C33_no_bundle.

(** Stripping a message whose address is the selector and a slash: the rest, a
    slash, is refused by osc_message_s_renameCopy and an uninitialised array is
    put into the result. *)
Theorem C33_strip_slash_refuted : forall junk, zlen junk = 200 ->
  let ws := [WM (str "/a/") (Some (str ",i", [0; 0; 0; 1]))] in
  query_select junk init_msg [Some (str "/a")] (16 + zlen (concat (map enc_wmsg ws)))
    (Some (empty_header ++ concat (map enc_wmsg ws))) true None = Ub Uninit.
Proof.
  intros junk Hj ws. unfold query_select, rset_alloc.
  destruct (HashModel.tab_new 0 true) as [ht| |] eqn:E; [|discriminate|discriminate]. cbn [bind].
  injection E as <-. set (buf := empty_header ++ _). vm_compute in buf.
  match goal with |- context [16 + ?x] => let v := eval vm_compute in (16 + x) in change (16 + x) with v end.
  vm_compute. reflexivity.
Qed.
Print Assumptions C33_strip_slash_refuted.

(** Stripping a message without type tags reads through their NULL pointer. *)
Theorem C33_strip_no_typetags_refuted : forall junk, zlen junk = 200 ->
  let ws := [WM (str "/a/b") None] in
  query_select junk init_msg [Some (str "/a")] (16 + zlen (concat (map enc_wmsg ws)))
    (Some (empty_header ++ concat (map enc_wmsg ws))) true None = Ub NullDeref.
Proof.
  intros junk Hj ws. unfold query_select, rset_alloc.
  destruct (HashModel.tab_new 0 true) as [ht| |] eqn:E; [|discriminate|discriminate]. cbn [bind].
  injection E as <-. do 200 (destruct junk as [|? junk]; [vm_compute in Hj; discriminate|]).
  destruct junk; [|exfalso; rewrite !zlen_cons in Hj; pose proof (zlen_nonneg junk); lia].
  vm_compute. reflexivity.
Qed.
Print Assumptions C33_strip_no_typetags_refuted.

Definition ex_query : query :=
  Query [WM (str "/a/b") (Some (str ",i", [0; 0; 0; 1])); WM (str "/c") None; WM (str "/a") (Some (str ",i", [0; 0; 0; 2]));
         WM (str "/{x,b}/d") (Some (str ",", []))]
    [Some (str "/b"); None; Some (str "/a")] true.
Example C33_hypotheses : runs_ok (zeros 100) (empty_header, ex_query, [1; 2; 3]).
Proof.
  split; [reflexivity|]. split.
  - split; [repeat constructor; try (cbn; exact I); discriminate|]. split; [|split].
    + repeat constructor; eexists; (split; [vm_compute; reflexivity|discriminate]).
    + repeat constructor; discriminate.
    + intros _ w s n Hw Hs Hr. cbn in Hw, Hs.
      destruct Hw as [<-|[<-|[<-|[<-|[]]]]]; destruct Hs as [<-|[<-|[]]]; vm_compute in Hr; try discriminate;
        injection Hr as <-; (split; [discriminate|apply validate_iff; vm_compute; reflexivity]).
  - repeat constructor; vm_compute; discriminate.
Qed.
Example C33_example :
  flat_map hits [ex_query] = [str "/a"; str "/a"; str "/b"] /\
  complete_matches (str "/a") ex_query = [WM (str "/a") (Some (str ",i", [0; 0; 0; 2]))] /\
  partial_matches (str "/a") ex_query = [WM (str "/b") (Some (str ",i", [0; 0; 0; 1]))] /\
  partial_matches (str "/b") ex_query = [WM (str "/d") (Some (str ",", []))] /\
  unmatched ex_query = [WM (str "/c") None].
Proof. repeat split; vm_compute; reflexivity. Qed.
