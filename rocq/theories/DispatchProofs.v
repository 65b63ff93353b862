(** Proofs about the model of tables and dispatching. *)

From Coq Require Import ZArith List Bool Lia.
From Verif Require Import Base BaseProofs Bytes MatchModel MatchSpec MatchFacts MatchProps.
From Verif Require Import WireSpec WireModel WireWalk BundleSModel BundleSProofs BundleSProps.
From Verif Require Import HashModel HashSpec HashProofs HashProps QueryModel QuerySpec QueryProofs.
From Verif Require Import DispatchModel DispatchSpec.
Import ListNotations.
Open Scope Z_scope.

(** * Dispatching *)

Section Dispatch.
Variables (junk : bytes) (stale : msg_s) (strip : bool).

Definition got (sel : list Z) (ws : list wmsg) : bndl_s * bndl_s :=
  (bundle_of (partials strip sel ws), bundle_of (completes sel ws)).
Definition hit (w : wmsg) (sel : list Z) : bool := match related (w_addr w) sel with Neither => false | _ => true end.

Definition pair_can (w : wmsg) (s : list Z) : Prop :=
  nonul s /\ (exists r, osc_match (w_addr w) s = Ok r /\ code r <> 2048) /\
  (strip = true -> forall n, related (w_addr w) s = Extends n ->
     w_args w <> None /\ addressable (skipn (Z.to_nat (zlen s)) (w_addr w))).

Lemma dispatch_msg_ok P w post m s seen : wf_wmsg w -> pair_can w s -> 16 + zlen (enc_wmsg w) <= zlen junk ->
  dispatch_msg junk stale strip (P ++ enc_wmsg w ++ post) (wrapped m (zlen P) w) (w_addr w) s (got s seen)
  = Ok (got s (seen ++ [w]), hit w s).
Proof.
  intros Hw (Hs & Hm & Hst) Hj. destruct Hm as (r & Hr & Hb).
  unfold got, completes, partials, hit. rewrite filter_app, flat_map_app. cbn [filter flat_map].
  unfold dispatch_msg, related in *. rewrite Hr in *. cbn [bind].
  destruct (C01_match_total_and_in_bounds (w_addr w) s) as (r0 & Hr0 & _ & Hpo & _). rewrite Hr in Hr0. injection Hr0 as <-.
  destruct Hw as (Hwa & Hw). destruct (C03_match_offsets (w_addr w) s r Hwa Hs Hr) as (H3 & H1 & H2 & H0).
  pose proof (conj Hwa Hw : wf_wmsg w) as Hww.
  assert (Hend : rdc (w_addr w) (zlen (w_addr w)) = Ok 0) by (unfold rdc; apply rd_at).
  destruct (code r =? 3) eqn:E3.
  { apply Z.eqb_eq in E3. destruct (H3 E3) as [Ep _]. rewrite Ep, Hend, E3. cbn [bind].
    change (0 =? 42) with false. cbn [bind]. change (Z.land 3 1 =? 0) with false. change (Z.land 3 2 =? 0) with false.
    cbn [negb andb]. rewrite append_b_ok by (try assumption; reflexivity). cbn [bind]. now rewrite !app_nil_r. }
  destruct (code r =? 1) eqn:E1.
  { apply Z.eqb_eq in E1. destruct (H1 E1) as [Ep Ea]. rewrite Ep. cbn [bind]. change (47 =? 42) with false. cbn [bind].
    rewrite E1. change (Z.land 1 1 =? 0) with false. change (Z.land 1 2 =? 0) with true. cbn [negb andb].
    pose proof (partial_ahead _ _ _ Hr E1) as Hpos. destruct (poff r >? 0) eqn:Eg; [|lia].
    change (47 =? 47) with true. cbn [andb orb]. rewrite !app_nil_r. destruct strip.
    - destruct (Hst eq_refl (poff r) eq_refl) as [Ht Hv]. rewrite Ea.
      assert (Hle : 0 <= zlen s <= zlen (w_addr w)).
      { pose proof (zlen_nonneg s). destruct Hv as (_ & Hv & _). unfold zlen in *. rewrite skipn_length in Hv. lia. }
      destruct (zlen s >? zlen (w_addr w)) eqn:Egt; [lia|].
      destruct (stripped_ok junk stale P w post m (zlen s) Hww Hle Ht Hv ltac:(lia)) as (rest & m' & Es & Em).
      rewrite Es. cbn [bind]. destruct (strip_wf (zlen s) w Hww) as [Hw' Hl'].
      pose proof (append_b_ok junk (flat_map (fun w0 => match
           match osc_match (w_addr w0) s with
           | Ok r1 => if code r1 =? 3 then Full else if code r1 =? 1 then Extends (poff r1) else Neither
           | _ => Neither end
         with Extends _ => [strip_addr (zlen s) w0] | _ => [] end) seen) (strip_addr (zlen s) w) [] rest m' Hw' Em) as Hap.
      cbn [app] in Hap. rewrite Hap by (rewrite zlen_enc in *; lia). reflexivity.
    - rewrite append_b_ok by (try assumption; reflexivity). reflexivity. }
  assert (Hl : negb (Z.land (code r) 1 =? 0) && negb (Z.land (code r) 2 =? 0) = false).
  { destruct (match_code _ _ _ Hr) as [E|[E|E]]; [lia|lia|]. now rewrite <- negb_orb, E. }
  destruct (rdc_in (w_addr w) (poff r) Hpo) as (c & Ec). rewrite Ec. cbn [bind].
  assert (Hst2 : exists b, (if c =? 42 then do c1 <- rdc (w_addr w) (poff r + 1); Ok (c1 =? 0) else Ok false) = Ok b /\
                 (poff r >? 0) && ((c =? 47) || b) = false).
  { destruct (Z.eq_dec (code r) 2) as [E2|N2].
    - destruct (H2 E2) as [Ep _]. rewrite Ep, Hend in Ec. injection Ec as <-. exists false. split; [reflexivity|].
      change (0 =? 47) with false. now rewrite andb_false_r.
    - destruct H0 as [Ep _]; try lia. rewrite Ep in *. change (0 >? 0) with false. cbn [andb].
      destruct (c =? 42) eqn:E42; [|eauto]. assert (c = 42) by lia. subst c.
      destruct (rdc_in (w_addr w) 1) as (c1 & Ec1).
      { destruct (w_addr w) as [|x l]; [discriminate|]. zl. pose proof (zlen_nonneg l). lia. }
      change (0 + 1) with 1. rewrite Ec1. cbn [bind]. eauto. }
  destruct Hst2 as (b & Eb & En). rewrite Eb. cbn [bind]. rewrite Hl, En. now rewrite !app_nil_r.
Qed.

Lemma dispatch_each_ok P w post m seen : wf_wmsg w -> 16 + zlen (enc_wmsg w) <= zlen junk ->
  forall es, Forall (fun e => pair_can w (ve_selector e)) es ->
  dispatch_each junk stale strip (P ++ enc_wmsg w ++ post) (wrapped m (zlen P) w) (w_addr w) es
    (map (fun e => got (ve_selector e) seen) es)
  = Ok (map (fun e => got (ve_selector e) (seen ++ [w])) es, existsb (fun e => hit w (ve_selector e)) es).
Proof.
  intros Hw Hj. induction es as [|e es IH]; intros Hp; [reflexivity|]. cbn [dispatch_each map existsb].
  rewrite dispatch_msg_ok by (try assumption; exact (Forall_inv Hp)). cbn [bind].
  rewrite IH by exact (Forall_inv_tail Hp). reflexivity.
Qed.

Lemma hit_forallb w es : existsb (fun e => hit w (ve_selector e)) es
  = negb (forallb (fun e => match related (w_addr w) (ve_selector e) with Neither => true | _ => false end) es).
Proof.
  induction es as [|e es IH]; [reflexivity|]. cbn [existsb forallb]. rewrite IH, negb_andb. unfold hit. f_equal.
  now destruct (related _ _).
Qed.

Lemma dispatch_over_ok es post : forall ws P m seen,
  Forall wf_wmsg ws -> Forall (fun w => 16 + zlen (enc_wmsg w) <= zlen junk) ws ->
  Forall (fun w => Forall (fun e => pair_can w (ve_selector e)) es) ws ->
  let buf := P ++ enc_wmsgs ws ++ post in
  over (fun (st : list (bndl_s * bndl_s) * bndl_s) m =>
    let '(bs, un) := st in
    match ms_address m with
    | None => Ub NullDeref
    | Some ap =>
        do addr <- rdstr buf ap;
        do ' (bs, matched) <- dispatch_each junk stale strip buf m addr es bs;
        if matched then Ok (@Cont _ unit (bs, un)) else
        do un <- append_b junk un buf (Some m); Ok (Cont (bs, un))
    end) (map (fun e => got (ve_selector e) seen) es, bundle_of (undelivered es seen)) (views m (zlen P) ws)
  = Ok (Cont (map (fun e => got (ve_selector e) (seen ++ ws)) es, bundle_of (undelivered es (seen ++ ws)))).
Proof.
  induction ws as [|w ws IH]; intros P m seen Hw Hj Hp buf.
  - cbn [views over]. now rewrite app_nil_r.
  - pose proof (Forall_inv Hw) as Hw1. pose proof (Forall_inv Hj) as Hj1. pose proof (Forall_inv Hp) as Hp1.
    cbn beta in Hj1, Hp1.
    assert (Eb : buf = P ++ enc_wmsg w ++ (enc_wmsgs ws ++ post)) by (unfold buf; now rewrite enc_wmsgs_cons, <- app_assoc).
    assert (Eb2 : buf = (P ++ enc_wmsg w) ++ enc_wmsgs ws ++ post) by (rewrite Eb; now rewrite <- app_assoc).
    cbn [views over]. cbn [wrapped ms_address].
    assert (Ha : rdstr buf (zlen P + 4) = Ok (w_addr w)) by (rewrite Eb; now apply addr_at).
    rewrite Ha. cbn [bind]. fold (wrapped m (zlen P) w).
    pose proof (dispatch_each_ok P w (enc_wmsgs ws ++ post) m seen Hw1 Hj1 es Hp1) as E1. rewrite <- Eb in E1.
    rewrite E1. cbn [bind]. rewrite hit_forallb.
    replace (zlen P + zlen (enc_wmsg w)) with (zlen (P ++ enc_wmsg w)) by (zl; lia).
    specialize (IH (P ++ enc_wmsg w) (wrapped m (zlen P) w) (seen ++ [w]) (Forall_inv_tail Hw) (Forall_inv_tail Hj)
                  (Forall_inv_tail Hp)). cbv zeta in IH. rewrite <- Eb2, <- (app_assoc seen [w] ws) in IH. cbn [app] in IH.
    assert (Eu : undelivered es (seen ++ [w]) = undelivered es seen ++
      (if forallb (fun e => match related (w_addr w) (ve_selector e) with Neither => true | _ => false end) es then [w] else [])).
    { unfold undelivered. rewrite filter_app. reflexivity. }
    destruct (forallb _ es) eqn:Ef; cbn [negb].
    + assert (E2 : append_b junk (bundle_of (undelivered es seen)) buf (Some (wrapped m (zlen P) w))
                  = Ok (bundle_of (undelivered es (seen ++ [w])))).
      { rewrite Eu, Eb. now apply append_b_ok. }
      rewrite E2. cbn [bind]. exact IH.
    + rewrite Eu, app_nil_r in IH. exact IH.
Qed.

Lemma impl_ok es hdr ws post : zlen hdr = 16 -> deliverable strip es ws ->
  Forall (fun w => 16 + zlen (enc_wmsg w) <= zlen junk) ws ->
  dispatch_impl junk stale es (16 + zlen (enc_wmsgs ws)) (hdr ++ enc_wmsgs ws ++ post) strip (repeat (None, None) (length es))
  = Ok (map (fun e => got (ve_selector e) ws) es, bundle_of (undelivered es ws)).
Proof.
  intros Hh (Hw & Hp) Hj.
  assert (E0 : repeat (@None (Z * option bytes), @None (Z * option bytes)) (length es) = map (fun e => got (ve_selector e) []) es).
  { clear. induction es as [|e es IH]; [reflexivity|]. cbn [length repeat map]. now rewrite IH. }
  unfold dispatch_impl. unfold bytes in *. rewrite E0.
  match goal with |- context [bundle_loop _ _ _ ?b ?s] => set (body := b); set (st := s) end.
  pose proof (bundle_loop_over body st [] hdr ws post Hh Hw) as HL.
  change (zlen (@nil Z)) with 0 in HL. cbn [app] in HL. rewrite HL. clear HL.
  change (0 + 16) with 16. unfold body, st.
  assert (Hp' : Forall (fun w => Forall (fun e => pair_can w (ve_selector e)) es) ws).
  { apply Forall_forall. intros w Hiw. apply Forall_forall. intros e Hie. exact (Hp w e Hiw Hie). }
  pose proof (dispatch_over_ok es post ws hdr init_msg [] Hw Hj Hp') as E'. cbv zeta in E'. rewrite Hh in E'.
  change (bundle_of (undelivered es [])) with (@None (Z * option bytes)) in E'. unfold bytes in *. rewrite E'. reflexivity.
Qed.
End Dispatch.

Lemma delegate_ok vt ws : (ws = [] \/ vt_deleg vt <> None) ->
  match bundle_of ws with Some _ => delegate vt (bundle_of ws) | None => Ok [] end = Ok (delegation (vt_deleg vt) ws).
Proof.
  intros H. unfold delegation, delegate. destruct ws as [|w ws]; [reflexivity|]. cbn [bundle_of].
  destruct H as [H|H]; [discriminate|]. destruct (vt_deleg vt) as [[m c]|]; [reflexivity|congruence].
Qed.

Lemma combine_map {A B} (f : A -> B) l : combine l (map f l) = map (fun x => (x, f x)) l.
Proof. induction l as [|x l IH]; [reflexivity|]. cbn. now rewrite IH. Qed.

Lemma enc_nonempty ws : ws <> [] -> zlen (enc_wmsgs ws) > 0.
Proof.
  destruct ws as [|w ws]; [congruence|]. intros _. rewrite enc_wmsgs_cons. zl.
  pose proof (zlen_nonneg (enc_wmsgs ws)). rewrite zlen_enc. pose proof (zlen_nonneg (wbody w)). lia.
Qed.

(** * The table *)

Definition sels (l : list (ventry * bool)) : list (list Z) := map (fun e => ve_selector (fst e)) l.

Definition vholds (vt : vtable) (g : registry) : Prop :=
  vt_entries vt = map fst (g_entries g) /\ vt_slots vt = g_slots g /\ NoDup (sels (g_entries g)) /\
  exists m, tinv hlen (vt_ht vt) m /\
    forall s, match assoc s m with
              | None => ~ In s (sels (g_entries g))
              | Some (k, i) => exists e b, nth_error (g_entries g) i = Some (e, b) /\ ve_selector e = s /\
                                 (k <= vt_gen vt)%nat /\ b = Nat.eqb k (vt_gen vt)
              end.

Lemma lookup_none s l : ~ In s (sels l) -> lookup s l = None.
Proof.
  induction l as [|e l IH]; intros H; [reflexivity|]. unfold lookup in *. cbn [find]. unfold has at 1. cbn [sels map] in H.
  rewrite eqs_neq by (intros E; apply H; now left). apply IH. intros Hi. apply H. now right.
Qed.

Lemma change_other s f l : ~ In s (sels l) -> change s f l = l.
Proof.
  induction l as [|e l IH]; intros H; [reflexivity|]. cbn [change map]. unfold has at 1. cbn [sels map] in H.
  rewrite eqs_neq by (intros E; apply H; now left). f_equal. apply IH. intros Hi. apply H. now right.
Qed.

Lemma sels_app a b : sels (a ++ b) = sels a ++ sels b. Proof. apply map_app. Qed.

Lemma nodup_mid l i e b : NoDup (sels l) -> nth_error l i = Some (e, b) -> exists a c,
  l = a ++ (e, b) :: c /\ length a = i /\ ~ In (ve_selector e) (sels a) /\ ~ In (ve_selector e) (sels c).
Proof.
  intros Hd Hn. apply nth_error_split in Hn as (a & c & -> & Hl). exists a, c. split; [reflexivity|]. split; [exact Hl|].
  rewrite sels_app in Hd. cbn [sels map fst] in Hd. apply NoDup_remove_2 in Hd. rewrite in_app_iff in Hd.
  change (map (fun e0 : ventry * bool => ve_selector (fst e0)) c) with (sels c) in Hd. tauto.
Qed.

Lemma lookup_mid a e b c : ~ In (ve_selector e) (sels a) -> lookup (ve_selector e) (a ++ (e, b) :: c) = Some (e, b).
Proof.
  intros H. unfold lookup. induction a as [|x a IH]; cbn [app find].
  - unfold has at 1. cbn [fst]. now rewrite eqs_refl.
  - unfold has at 1. cbn [sels map] in H. rewrite eqs_neq by (intros E; apply H; now left). apply IH.
    intros Hi. apply H. now right.
Qed.

Lemma change_mid s f a e b c : s = ve_selector e -> ~ In s (sels a) -> ~ In s (sels c) ->
  change s f (a ++ (e, b) :: c) = a ++ (f e, b) :: c.
Proof.
  intros -> Ha Hc. unfold change. rewrite map_app. cbn [map].
  change (map _ a) with (change (ve_selector e) f a). change (map _ c) with (change (ve_selector e) f c).
  rewrite !change_other by assumption. unfold has. cbn [fst snd]. now rewrite eqs_refl.
Qed.

Lemma sels_change s f l : (forall e, ve_selector (f e) = ve_selector e) -> sels (change s f l) = sels l.
Proof.
  intros Hf. unfold sels, change. rewrite map_map. apply map_ext. intros e. destruct (has s e); cbn [fst]; auto.
Qed.

Lemma by_selector_ok vt g s : vholds vt g -> zlen s < 2^31 ->
  (lookup s (g_entries g) = None /\ ~ In s (sels (g_entries g)) /\ vt_by_selector vt s = Ok None) \/
  exists k i e b, lookup s (g_entries g) = Some (e, b) /\ vt_by_selector vt s = Ok (Some (k, i)) /\
    nth_error (g_entries g) i = Some (e, b) /\ ve_selector e = s /\ b = Nat.eqb k (vt_gen vt).
Proof.
  intros (He & _ & Hd & m & I & Hm) Hs. unfold vt_by_selector. rewrite hlen_s32 by assumption.
  rewrite (lookup_ok hlen hlen_ok _ m) by assumption. specialize (Hm s). destruct (assoc s m) as [[k i]|].
  - right. destruct Hm as (e & b & Hn & Es & _ & Hb). exists k, i, e, b. split; [|repeat split; auto].
    destruct (nodup_mid _ i e b Hd Hn) as (a & c & -> & _ & Ha & _). subst s. now apply lookup_mid.
  - left. split; [now apply lookup_none|]. split; [assumption|reflexivity].
Qed.

Lemma set_ok vt g s f : vholds vt g -> zlen s < 2^31 -> (forall e, ve_selector (f e) = ve_selector e) ->
  lookup s (g_entries g) <> None ->
  match changed s f g with
  | Some (g', _) => exists p vt', vt_by_selector vt s = Ok (Some p) /\ set_entry vt p f = Ok vt' /\ vholds vt' g' /\
                      vt_deleg vt' = vt_deleg vt /\ changed s f g = Some (g', 0)
  | None => exists p, vt_by_selector vt s = Ok (Some p) /\ set_entry vt p f = Ub Dangling
  end.
Proof.
  intros H Hs Hf Hne. unfold changed. destruct (by_selector_ok vt g s H Hs) as [(E & _)|(k & i & e & b & E & Eb & Hn & Es & Hb)]; [congruence|].
  rewrite E. pose proof H as (He & Hsl & Hd & m & I & Hm). destruct b.
  - assert (Hnv : nth_error (vt_entries vt) i = Some e) by (rewrite He; erewrite map_nth_error by exact Hn; reflexivity).
    eexists (k, i), _. split; [exact Eb|]. split; [|split; [|split; [|reflexivity]]].
    + unfold set_entry, deref. cbn [fst snd]. rewrite <- Hb. cbn [negb]. rewrite Hnv. cbn [bind]. reflexivity.
    + destruct (nodup_mid _ i e true Hd Hn) as (a & c & El & La & Ha & Hc).
      assert (Ech : change s f (g_entries g) = a ++ (f e, true) :: c) by (rewrite El; apply change_mid; subst s; auto).
      split; [|split; [|split]]; cbn [vt_entries vt_slots vt_gen vt_ht g_entries g_slots].
      * rewrite Ech, He, El, !map_app. cbn [map fst]. f_equal.
        -- rewrite firstn_app, map_length, La, Nat.sub_diag. cbn [firstn]. rewrite app_nil_r. apply firstn_all2. rewrite map_length. lia.
        -- f_equal. rewrite skipn_app, map_length, La. replace (S i - i)%nat with 1%nat by lia.
           rewrite skipn_all2 by (rewrite map_length; lia). reflexivity.
      * exact Hsl.
      * rewrite sels_change by exact Hf. exact Hd.
      * exists m. split; [exact I|]. intros s'. specialize (Hm s'). rewrite sels_change by exact Hf.
        destruct (assoc s' m) as [[k' i']|]; [|exact Hm]. destruct Hm as (e' & b' & Hn' & Es' & Hk' & Hb').
        exists (if has s (e', b') then f e' else e'), b'. split; [|split; [|split; auto]].
        -- unfold change. erewrite map_nth_error by exact Hn'. now destruct (has s (e', b')).
        -- destruct (has s (e', b')); [now rewrite Hf|exact Es'].
    + reflexivity.
  - exists (k, i). split; [exact Eb|]. unfold set_entry, deref. cbn [fst]. rewrite <- Hb. reflexivity.
Qed.

Lemma sels_flags l : sels (map (fun e => (fst e, false)) l) = sels l.
Proof. unfold sels. rewrite map_map. reflexivity. Qed.

Lemma room_ok vt g : vholds vt g ->
  let vt' := if zlen (vt_entries vt) >=? vt_slots vt
    then VT (vt_entries vt) (vt_slots vt + 1) (S (vt_gen vt)) (vt_ht vt) (vt_deleg vt) else vt in
  vholds vt' (make_room g) /\ vt_deleg vt' = vt_deleg vt.
Proof.
  intros H vt'. unfold make_room, vt'. pose proof H as (He & Hsl & Hd & m & I & Hm).
  assert (El : zlen (vt_entries vt) = zlen (g_entries g)) by (rewrite He; unfold zlen; now rewrite map_length).
  rewrite El, Hsl, Z.geb_leb, Z.leb_antisym. destruct (zlen (g_entries g) <? g_slots g); cbn [negb]; [auto|].
  split; [|reflexivity]. split; [|split; [|split]]; cbn [vt_entries vt_slots vt_gen vt_ht g_entries g_slots].
  - rewrite He, map_map. reflexivity.
  - reflexivity.
  - now rewrite sels_flags.
  - exists m. split; [exact I|]. intros s. specialize (Hm s). rewrite sels_flags. destruct (assoc s m) as [[k i]|]; [|exact Hm].
    destruct Hm as (e & b & Hn & Es & Hk & _). exists e, false. split; [|split; [exact Es|split; [lia|]]].
    + erewrite map_nth_error by exact Hn. reflexivity.
    + symmetry. apply Nat.eqb_neq. lia.
Qed.

Lemma vt_op_ok vt g o : vholds vt g -> zlen (op_selector o) < 2^31 ->
  match apply g o with
  | Some (g', c) => exists vt', vt_op vt o = Ok (vt', c) /\ vholds vt' g' /\ vt_deleg vt' = vt_deleg vt
  | None => vt_op vt o = Ub Dangling
  end.
Proof.
  intros H Hs. destruct o as [s m c|s m|s m c]; cbn [op_selector] in Hs; cbn [apply vt_op].
  - destruct (room_ok vt g H) as [H' Hdl]. unfold vt_add.
    match type of H' with vholds ?v _ => set (vt1 := v) in * end. set (g1 := make_room g) in *.
    clearbody vt1 g1. rewrite <- Hdl. clear vt g H Hdl.
    destruct (by_selector_ok vt1 g1 s H' Hs) as [(El & Hni & Eb)|(k & i & e & b & El & Eb & Hn & Es & Hb)]; rewrite El.
    + rewrite Eb. cbn [bind]. pose proof H' as (He & Hsl & Hd & t & I & Ht). rewrite hlen_s32 by assumption.
      destruct (tab_step_ok hlen hlen_ok (vt_ht vt1) t (Store s (vt_gen vt1, length (vt_entries vt1))) I)
        as (ht' & calls & Est & I' & _ & _).
      cbn [tab_step] in Est. rewrite Est. cbn [bind]. eexists. split; [reflexivity|]. split; [|reflexivity].
      split; [|split; [|split]]; cbn [vt_entries vt_slots vt_gen vt_ht g_entries g_slots].
      * rewrite map_app, He. reflexivity.
      * exact Hsl.
      * rewrite sels_app. cbn [sels map fst ve_selector]. apply NoDup_rev in Hd.
        rewrite <- (rev_involutive (_ ++ _)). apply NoDup_rev. rewrite rev_app_distr. cbn [rev app].
        constructor; [|exact Hd]. now rewrite <- in_rev.
      * exists (map_op t (Store s (vt_gen vt1, length (vt_entries vt1)))). split; [exact I'|]. intros s'.
        pose proof (C29_map_laws _ t s (vt_gen vt1, length (vt_entries vt1)) s' false (tinv_nodup _ _ _ I)) as (L & _).
        rewrite L, eqs_bytes. specialize (Ht s'). destruct (eqs s s') eqn:E.
        -- apply eqs_spec in E. subst s'. exists (VE s m c), true. split; [|split; [reflexivity|split; [lia|]]].
           ++ rewrite He, map_length, nth_error_app2, Nat.sub_diag by lia. reflexivity.
           ++ symmetry. apply Nat.eqb_refl.
        -- destruct (assoc s' t) as [[k i]|].
           ++ destruct Ht as (e & b & Hn & Es & Hk & Hb). exists e, b. split; [|auto].
              rewrite nth_error_app1; [exact Hn|]. apply nth_error_Some. congruence.
           ++ rewrite sels_app, in_app_iff. cbn [sels map fst ve_selector]. intros [Hi|[Hi|[]]]; [contradiction|].
              subst s'. now rewrite eqs_refl in E.
    + pose proof (set_ok vt1 g1 s (fun e => VE (ve_selector e) m c) H' Hs (fun e => eq_refl) ltac:(congruence)) as Hset.
      change (fun e => VE (ve_selector e) m c) with (set_both m c) in Hset |- *.
      destruct (changed s (set_both m c) g1) as [[g' c']|].
      * destruct Hset as (p & vt' & Ep & Ese & Hv & Hd & Ec). rewrite Ep. cbn [bind]. rewrite Ese. cbn [bind].
        injection Ec as ->. eauto.
      * destruct Hset as (p & Ep & Ese). rewrite Ep. cbn [bind]. rewrite Ese. reflexivity.
  - unfold vt_rebind. destruct (by_selector_ok vt g s H Hs) as [(El & Hni & Eb)|(k & i & e & b & El & Eb & Hn & Es & Hb)].
    + unfold changed. rewrite El, Eb. cbn [bind]. eauto.
    + pose proof (set_ok vt g s (set_method m) H Hs (fun e => eq_refl) ltac:(congruence)) as Hset.
      destruct (changed s (set_method m) g) as [[g' c']|].
      * destruct Hset as (p & vt' & Ep & Ese & Hv & Hd & Ec). rewrite Ep. cbn [bind].
        change (fun e0 => VE (ve_selector e0) m (ve_context e0)) with (set_method m). rewrite Ese. cbn [bind].
        injection Ec as ->. eauto.
      * destruct Hset as (p & Ep & Ese). rewrite Ep. cbn [bind].
        change (fun e0 => VE (ve_selector e0) m (ve_context e0)) with (set_method m). rewrite Ese. reflexivity.
  - unfold vt_rebind_context. destruct (by_selector_ok vt g s H Hs) as [(El & Hni & Eb)|(k & i & e & b & El & Eb & Hn & Es & Hb)].
    + unfold changed. rewrite El, Eb. cbn [bind]. eauto.
    + pose proof (set_ok vt g s (set_both m c) H Hs (fun e => eq_refl) ltac:(congruence)) as Hset.
      destruct (changed s (set_both m c) g) as [[g' c']|].
      * destruct Hset as (p & vt' & Ep & Ese & Hv & Hd & Ec). rewrite Ep. cbn [bind].
        change (fun e0 => VE (ve_selector e0) m c) with (set_both m c). rewrite Ese. cbn [bind].
        injection Ec as ->. eauto.
      * destruct Hset as (p & Ep & Ese). rewrite Ep. cbn [bind].
        change (fun e0 => VE (ve_selector e0) m c) with (set_both m c). rewrite Ese. reflexivity.
Qed.

Lemma vt_ops_ok : forall ops vt g, vholds vt g -> Forall (fun o => zlen (op_selector o) < 2^31) ops ->
  match apply_all g ops with
  | Some (g', cs) => exists vt', vt_ops vt ops = Ok (vt', cs) /\ vholds vt' g' /\ vt_deleg vt' = vt_deleg vt
  | None => vt_ops vt ops = Ub Dangling
  end.
Proof.
  induction ops as [|o ops IH]; intros vt g H Hs; cbn [apply_all vt_ops]; [eauto|].
  pose proof (vt_op_ok vt g o H (Forall_inv Hs)) as Ho. destruct (apply g o) as [[g1 c]|].
  - destruct Ho as (vt1 & E & H1 & D1). rewrite E. cbn [bind]. specialize (IH vt1 g1 H1 (Forall_inv_tail Hs)).
    destruct (apply_all g1 ops) as [[g2 cs]|].
    + destruct IH as (vt2 & E2 & H2 & D2). rewrite E2. cbn [bind]. exists vt2. split; [reflexivity|]. split; [exact H2|congruence].
    + rewrite IH. reflexivity.
  - rewrite Ho. reflexivity.
Qed.

Lemma vt_alloc_ok n : -2^31 <= n < 152287 -> exists vt, vt_alloc n = Ok vt /\ vholds vt (Reg [] (Z.max n 0)) /\ vt_deleg vt = None.
Proof.
  intros Hn. destruct (new_ok (nat * nat) n false) as (ht & E & _ & I); [lia|lia|]. unfold vt_alloc. rewrite E. cbn [bind].
  eexists. split; [reflexivity|]. split; [|reflexivity].
  split; [|split; [|split]]; cbn [vt_entries vt_slots vt_gen vt_ht g_entries g_slots].
  - reflexivity.
  - destruct (n >? 0) eqn:E0; lia.
  - constructor.
  - exists []. split; [apply I|]. intros s. cbn. auto.
Qed.

Lemma call_selectors_ok vt g (bs : ventry -> bndl_s * bndl_s) : vholds vt g -> forall ss,
  Forall (fun s => zlen s < 2^31 /\ forall e b, lookup s (g_entries g) = Some (e, b) -> b = true) ss ->
  call_selectors vt (map bs (vt_entries vt)) ss
  = Ok (flat_map (fun s => match lookup s (g_entries g) with
                           | Some (e, _) => [Called e (fst (bs e)) (snd (bs e))] | None => [] end) ss).
Proof.
  intros H. induction ss as [|s ss IH]; intros Hs; cbn [call_selectors flat_map]; [reflexivity|].
  destruct (Forall_inv Hs) as [Hl Hb].
  destruct (by_selector_ok vt g s H Hl) as [(El & Hni & Eb)|(k & i & e & b & El & Eb & Hn & Es & Hk)]; rewrite Eb, El; cbn [bind].
  - rewrite IH by exact (Forall_inv_tail Hs). reflexivity.
  - rewrite (Hb e b El) in *. unfold vt_index, deref. cbn [fst snd]. rewrite <- Hk. cbn [negb bind].
    pose proof H as (He & _).
    assert (Hnv : nth_error (vt_entries vt) i = Some e) by (rewrite He; erewrite map_nth_error by exact Hn; reflexivity).
    assert (Erd : rd (map bs (vt_entries vt)) (Z.of_nat i) = Ok (bs e)).
    { unfold rd. replace (Z.of_nat i <? 0) with false by (symmetry; apply Z.ltb_ge; lia). rewrite Nat2Z.id.
      now rewrite (map_nth_error bs i _ Hnv). }
    rewrite Erd, Hnv. cbn [bind].
    rewrite IH by exact (Forall_inv_tail Hs). reflexivity.
Qed.
