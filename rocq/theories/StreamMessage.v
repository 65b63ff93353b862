(** C35: what is rejected in a message without a bundle. *)

From Coq Require Import ZArith List Bool Lia.
From Verif Require Import Base BaseProofs Bytes Text WireSpec WireWalk StreamModel StreamSpec StreamProofs StreamRun StreamProps.
Import ListNotations.
Open Scope Z_scope.

Lemma modes_app : forall l1 m l2, modes m (l1 ++ l2) = match modes m l1 with Some m' => modes m' l2 | None => None end.
Proof.
  induction l1 as [|x l1 IH]; intros m l2; cbn [modes app]; [reflexivity|]. destruct (mode_step m x); [apply IH|reflexivity].
Qed.

Definition seen (sep : Z) (x : list Z) : bool := (1 <=? count_occ Z.eq_dec x sep)%nat.

Lemma curly_open x : forall used, inside_run 44 used x = true -> modes (curly_of used) x = Some (curly_of (used || seen 44 x)).
Proof.
  induction x as [|c x IH]; intros used H; cbn [inside_run modes] in *.
  - now rewrite orb_false_r.
  - apply andb_true_iff in H as [Hc H]. apply negb_true_iff, existsb_in in Hc. unfold str in Hc. cbn in Hc.
    assert (Es : mode_step (curly_of used) c = if c =? 44 then (if used then None else Some CurlyComma) else Some (curly_of used)).
    { destruct used; cbn [curly_of mode_step]; tests c; try reflexivity; exfalso; lia. }
    rewrite Es. destruct (c =? 44) eqn:E.
    + apply andb_true_iff in H as [Hu H]. destruct used; [discriminate|]. apply Z.eqb_eq in E. subst c.
      unfold seen. rewrite count_occ_cons_eq by reflexivity. exact (IH true H).
    + apply Z.eqb_neq in E. unfold seen. rewrite count_occ_cons_neq by exact E. exact (IH used H).
Qed.
Lemma square_open x : forall used, inside_run 45 used x = true -> modes (square_of used) x = Some (square_of (used || seen 45 x)).
Proof.
  induction x as [|c x IH]; intros used H; cbn [inside_run modes] in *.
  - now rewrite orb_false_r.
  - apply andb_true_iff in H as [Hc H]. apply negb_true_iff, existsb_in in Hc. unfold str in Hc. cbn in Hc.
    assert (Es : mode_step (square_of used) c = if c =? 45 then (if used then None else Some SquareDash) else Some (square_of used)).
    { destruct used; cbn [square_of mode_step]; tests c; try reflexivity; exfalso; lia. }
    rewrite Es. destruct (c =? 45) eqn:E.
    + apply andb_true_iff in H as [Hu H]. destruct used; [discriminate|]. apply Z.eqb_eq in E. subst c.
      unfold seen. rewrite count_occ_cons_eq by reflexivity. exact (IH true H).
    + apply Z.eqb_neq in E. unfold seen. rewrite count_occ_cons_neq by exact E. exact (IH used H).
Qed.

(** Inside brackets, a message without a bundle raises the same errors. *)
Lemma naked_reject m x e : m <> Out -> 0 < x < 256 -> 0 <= e < 2^32 -> mode_step m x = None ->
  exists s', process_byte (s8 x) (mk 4 2 (micro_of m) 0 e) = Ok s' /\ errorp s' = true.
Proof.
  intros Ho Hx He E. rewrite pb_naked_address by (destruct m; cbn [micro_of]; fit). eexists. split; [reflexivity|]. revert E.
  unfold naked_address, naked_curly, naked_square, mode_step.
  change E_NESTEDBRACKETS with (4 * 2^32). change E_WILDCARD with (5 * 2^32).
  change E_DOUBLECOMMA with (11 * 2^32). change E_DOUBLEDASH with (10 * 2^32).
  destruct m; [congruence| | | |]; cbn [micro_of]; fld; decide_consts; rewrite !s8_eqb by lia;
    tests x; intros E; try discriminate; apply err_of; fit.
Qed.

Lemma naked_open a m c : Forall (fun c => 0 < c < 256) a -> zlen a + 1 < 2^32 -> 0 < c < 256 -> modes Out a = Some m -> m <> Out ->
  (mode_step m c <> None -> quiet (47 :: a ++ [c])) /\ (mode_step m c = None -> loud (47 :: a ++ [c])).
Proof.
  intros Ha Hl Hc Hm Ho. pose proof (zlen_nonneg a).
  assert (E1 : process_byte (s8 47) 0 = Ok (mk 4 2 0 0 0)) by reflexivity.
  assert (E2 : feed (47 :: a) 0 = Ok (Some (mk 4 2 (micro_of m) 0 (0 + zlen a)))).
  { rewrite (feed_one _ _ _ _ E1) by (apply mk_ok; fit). exact (naked_address_run a Out m 0 Ha ltac:(lia) ltac:(lia) Hm). }
  unfold quiet, loud. change (47 :: a ++ [c]) with ((47 :: a) ++ [c]). split; intros Hs.
  - destruct (mode_step m c) as [m'|] eqn:E; [|congruence].
    rewrite (last_byte _ _ _ E2 _ (naked_step m c (0 + zlen a) m' Hc ltac:(lia) ltac:(lia) E)).
    rewrite mk_ok by (apply micro_fits; lia). now eexists.
  - destruct (naked_reject m c (0 + zlen a) Ho Hc ltac:(lia) Hs) as (s' & E & He).
    rewrite (last_byte _ _ _ E2 _ E). now rewrite He.
Qed.

(** Inside braces: no nesting, no wildcards, one comma. *)
Theorem C35_message_braces_exact a x c : Forall (fun c => 0 < c < 256) (a ++ 123 :: x ++ [c]) -> zlen a + zlen x + 2 < 2^32 ->
  accepted a -> inside 44 x ->
  (c = 125 \/ inside 44 (x ++ [c]) -> quiet (47 :: a ++ 123 :: x ++ [c])) /\
  (c <> 125 -> ~ inside 44 (x ++ [c]) -> loud (47 :: a ++ 123 :: x ++ [c])).
Proof.
  intros Hr Hl Ha Hx. apply Forall_app in Hr as [Hra Hr]. pose proof (Forall_inv_tail Hr) as Hr'. apply Forall_app in Hr' as [Hrx Hc].
  pose proof (Forall_inv Hc) as Hc'. cbn beta in Hc'.
  assert (Hrun : inside_run 44 false x = true) by (apply inside_run_spec; destruct Hx; split; [assumption|lia]).
  assert (Hm : modes Out (a ++ 123 :: x) = Some (curly_of (seen 44 x))).
  { rewrite modes_app, (accepted_modes a Ha). exact (curly_open x false Hrun). }
  replace (47 :: a ++ 123 :: x ++ [c]) with (47 :: (a ++ 123 :: x) ++ [c]) by (now rewrite <- app_assoc).
  assert (Hf : Forall (fun c => 0 < c < 256) (a ++ 123 :: x)) by (apply Forall_app; split; [assumption|constructor; [lia|assumption]]).
  destruct (naked_open (a ++ 123 :: x) (curly_of (seen 44 x)) c Hf ltac:(rewrite zlen_app, zlen_cons; lia) Hc' Hm ltac:(now destruct (seen 44 x))) as [H1 H2].
  assert (Hi : inside 44 (x ++ [c]) <-> ~ In c (str "[]{}*?") /\ (c = 44 -> seen 44 x = false)).
  { unfold inside. rewrite Forall_app, count_occ_app. destruct Hx as [Hx1 Hx2]. unfold seen. split.
    - intros [[_ Hc1] Hc2]. split; [exact (Forall_inv Hc1)|]. intros ->. rewrite count_occ_cons_eq in Hc2 by reflexivity.
      apply Nat.leb_gt. cbn [count_occ] in Hc2. lia.
    - intros [Hc1 Hc2]. split; [split; [assumption|now constructor]|]. destruct (Z.eq_dec c 44) as [->|Hne].
      + rewrite count_occ_cons_eq by reflexivity. specialize (Hc2 eq_refl). apply Nat.leb_gt in Hc2. cbn [count_occ]. lia.
      + rewrite count_occ_cons_neq by exact Hne. cbn [count_occ]. lia. }
  assert (Hs : mode_step (curly_of (seen 44 x)) c = None <-> c <> 125 /\ ~ inside 44 (x ++ [c])).
  { assert (Es : mode_step (curly_of (seen 44 x)) c = if c =? 125 then Some Out else if existsb (Z.eqb c) (str "[]{}*?") then None
      else if c =? 44 then (if seen 44 x then None else Some CurlyComma) else Some (curly_of (seen 44 x))).
    { change (str "[]{}*?") with [91; 93; 123; 125; 42; 63]. cbn [existsb]. destruct (seen 44 x); cbn [curly_of mode_step]; tests c; reflexivity. }
    rewrite Es, Hi, <- existsb_in. destruct (Z.eqb_spec c 125).
    - split; [discriminate|]. intros [G _]. congruence.
    - destruct (existsb _ _); [split; [intros _; split; [assumption|intros [G _]; discriminate]|reflexivity]|].
      destruct (Z.eqb_spec c 44); destruct (seen 44 x); split; try discriminate; try reflexivity;
        try (intros [_ G]; exfalso; apply G; split; [reflexivity|]; intros; (reflexivity || congruence)).
      intros _. split; [assumption|]. intros [_ G]. specialize (G ltac:(assumption)). discriminate. }
  split.
  - intros Hq. apply H1. intros E. apply Hs in E as [E1 E2]. tauto.
  - intros Hc1 Hc2. apply H2, Hs. now split.
Qed.
Print Assumptions C35_message_braces_exact.

(** Inside brackets: the same with a dash. *)
Theorem C35_message_brackets_exact a x c : Forall (fun c => 0 < c < 256) (a ++ 91 :: x ++ [c]) -> zlen a + zlen x + 2 < 2^32 ->
  accepted a -> inside 45 x ->
  (c = 93 \/ inside 45 (x ++ [c]) -> quiet (47 :: a ++ 91 :: x ++ [c])) /\
  (c <> 93 -> ~ inside 45 (x ++ [c]) -> loud (47 :: a ++ 91 :: x ++ [c])).
Proof.
  intros Hr Hl Ha Hx. apply Forall_app in Hr as [Hra Hr]. pose proof (Forall_inv_tail Hr) as Hr'. apply Forall_app in Hr' as [Hrx Hc].
  pose proof (Forall_inv Hc) as Hc'. cbn beta in Hc'.
  assert (Hrun : inside_run 45 false x = true) by (apply inside_run_spec; destruct Hx; split; [assumption|lia]).
  assert (Hm : modes Out (a ++ 91 :: x) = Some (square_of (seen 45 x))).
  { rewrite modes_app, (accepted_modes a Ha). exact (square_open x false Hrun). }
  replace (47 :: a ++ 91 :: x ++ [c]) with (47 :: (a ++ 91 :: x) ++ [c]) by (now rewrite <- app_assoc).
  assert (Hf : Forall (fun c => 0 < c < 256) (a ++ 91 :: x)) by (apply Forall_app; split; [assumption|constructor; [lia|assumption]]).
  destruct (naked_open (a ++ 91 :: x) (square_of (seen 45 x)) c Hf ltac:(rewrite zlen_app, zlen_cons; lia) Hc' Hm ltac:(now destruct (seen 45 x))) as [H1 H2].
  assert (Hi : inside 45 (x ++ [c]) <-> ~ In c (str "[]{}*?") /\ (c = 45 -> seen 45 x = false)).
  { unfold inside. rewrite Forall_app, count_occ_app. destruct Hx as [Hx1 Hx2]. unfold seen. split.
    - intros [[_ Hc1] Hc2]. split; [exact (Forall_inv Hc1)|]. intros ->. rewrite count_occ_cons_eq in Hc2 by reflexivity.
      apply Nat.leb_gt. cbn [count_occ] in Hc2. lia.
    - intros [Hc1 Hc2]. split; [split; [assumption|now constructor]|]. destruct (Z.eq_dec c 45) as [->|Hne].
      + rewrite count_occ_cons_eq by reflexivity. specialize (Hc2 eq_refl). apply Nat.leb_gt in Hc2. cbn [count_occ]. lia.
      + rewrite count_occ_cons_neq by exact Hne. cbn [count_occ]. lia. }
  assert (Hs : mode_step (square_of (seen 45 x)) c = None <-> c <> 93 /\ ~ inside 45 (x ++ [c])).
  { assert (Es : mode_step (square_of (seen 45 x)) c = if c =? 93 then Some Out else if existsb (Z.eqb c) (str "[]{}*?") then None
      else if c =? 45 then (if seen 45 x then None else Some SquareDash) else Some (square_of (seen 45 x))).
    { change (str "[]{}*?") with [91; 93; 123; 125; 42; 63]. cbn [existsb]. destruct (seen 45 x); cbn [square_of mode_step]; tests c; reflexivity. }
    rewrite Es, Hi, <- existsb_in. destruct (Z.eqb_spec c 93).
    - split; [discriminate|]. intros [G _]. congruence.
    - destruct (existsb _ _); [split; [intros _; split; [assumption|intros [G _]; discriminate]|reflexivity]|].
      destruct (Z.eqb_spec c 45); destruct (seen 45 x); split; try discriminate; try reflexivity;
        try (intros [_ G]; exfalso; apply G; split; [reflexivity|]; intros; (reflexivity || congruence)).
      intros _. split; [assumption|]. intros [_ G]. specialize (G ltac:(assumption)). discriminate. }
  split.
  - intros Hq. apply H1. intros E. apply Hs in E as [E1 E2]. tauto.
  - intros Hc1 Hc2. apply H2, Hs. now split.
Qed.
Print Assumptions C35_message_brackets_exact.

Example C35_message_braces_exact_holds : quiet (str "/a{b,c") /\ loud (str "/a{b,c,") /\ quiet (str "/a[0-9]") /\ loud (str "/a[0{").
Proof. unfold quiet. split; [|split; [|split]]; try (eexists; vm_compute; reflexivity); vm_compute; reflexivity. Qed.

(** The padding of the address and the type tags, where the message ends an
    address that is accepted. *)
Theorem C35_message_padding_exact a i x : Forall (fun c => 0 < c < 256) a -> accepted a -> zlen a + 8 < 2^32 -> is_byte x ->
  0 <= i -> (zlen a + 2 + i - 1) / 4 = (zlen a + 1) / 4 ->
  let bs := 47 :: a ++ 0 :: zeros i ++ [x] in
  if x =? (if (zlen a + 2 + i) mod 4 =? 0 then 44 else 0) then quiet bs else loud bs.
Proof.
  intros Ha Hacc Hl Hx Hi Hq. cbn zeta. pose proof (zlen_nonneg a).
  assert (Hi3 : i <= 3) by (Z.div_mod_to_equations; lia).
  assert (E : feed (47 :: a ++ 0 :: zeros i) 0 = Ok (Some (mk 4 2 16 0 (zlen a + 1 + i)))).
  { assert (E1 : process_byte (s8 47) 0 = Ok (mk 4 2 0 0 0)) by reflexivity.
    rewrite (feed_one _ _ _ _ E1) by (apply mk_ok; fit).
    assert (E2 : feed a (mk 4 2 0 0 0) = Ok (Some (mk 4 2 0 0 (zlen a)))).
    { exact (naked_address_run a Out Out 0 Ha ltac:(lia) ltac:(lia) (proj2 (modes_iff a) Hacc)). }
    rewrite (feed_app _ _ _ _ E2). rewrite (feed_one _ _ _ _ (naked_address_end (zlen a) ltac:(lia) ltac:(lia))) by (apply mk_ok; fit).
    assert (Hrun : forall j k e, (j <= k)%nat -> e mod 4 = 3 - Z.of_nat k -> Z.of_nat k <= 3 -> 0 <= e -> e + 4 < 2^32 ->
      feed (repeat 0 j) (mk 4 2 16 0 e) = Ok (Some (mk 4 2 16 0 (e + Z.of_nat j)))).
    { intros j k e Hj Hm Hk He Hb.
      assert (Ek : repeat 0 k = repeat 0 j ++ repeat 0 (k - j)) by (rewrite <- repeat_app; f_equal; lia).
      clear - Hj Hm Hk He Hb. revert k e Hj Hm Hk He Hb. induction j as [|j IH]; intros k e Hj Hm Hk He Hb.
      - cbn [repeat feed]. now rewrite Z.add_0_r.
      - cbn [repeat]. assert (E : process_byte (s8 0) (mk 4 2 16 0 e) = Ok (mk 4 2 16 0 (e + 1))).
        { rewrite pb_naked_address by fit. f_equal. unfold naked_address. fld. decide_consts.
          destruct (e mod 4 =? 3) eqn:E; [lia|]. change (s8 0 =? 0) with true. cbv iota. apply up; fit. }
        rewrite (feed_one _ _ _ _ E) by (apply mk_ok; fit).
        destruct (Z.eq_dec (e mod 4) 3) as [E3|E3]; [lia|].
        replace (e + Z.of_nat (S j)) with (e + 1 + Z.of_nat j) by lia.
        destruct (Z.lt_ge_cases (e + 1 + 4) (2^32)); [apply (IH (k - 1)%nat); try lia; Z.div_mod_to_equations; lia|].
        Z.div_mod_to_equations. lia. }
    unfold zeros. rewrite (Hrun (Z.to_nat i) (Z.to_nat (3 - (zlen a + 1) mod 4))) by (Z.div_mod_to_equations; lia).
    rewrite Z2Nat.id by lia. reflexivity. }
  replace (47 :: a ++ 0 :: zeros i ++ [x]) with ((47 :: a ++ 0 :: zeros i) ++ [x]) by (cbn [app]; now rewrite <- app_assoc).
  set (e := zlen a + 1 + i) in *.
  assert (He : 0 <= e < 2^32 - 1) by (unfold e; lia).
  assert (Ep : process_byte (s8 x) (mk 4 2 16 0 e) = Ok (naked_address (s8 x) (mk 4 2 16 0 e))) by (apply pb_naked_address; fit).
  unfold quiet, loud. rewrite (last_byte _ _ _ E _ Ep). unfold naked_address. fld. decide_consts.
  assert (Em : (e mod 4 =? 3) = ((zlen a + 2 + i) mod 4 =? 0)).
  { apply eq_true_iff_eq. rewrite !Z.eqb_eq. unfold e. Z.div_mod_to_equations. lia. }
  rewrite Em, !s8_eqb by (try exact Hx; lia).
  change E_BADALIGNMENT with (6 * 2^32). change E_NOTYPETAGS with (8 * 2^32).
  destruct ((zlen a + 2 + i) mod 4 =? 0) eqn:E0.
  - destruct (x =? 44).
    + change (MESSAGE .| TYPETAGS) with (mk 4 4 0 0 0). rewrite u32_small, lor_count, mk_ok by fit. now eexists.
    + destruct (x =? 0); rewrite err_of by (try fit; lia); reflexivity.
  - destruct (x =? 0).
    + rewrite up, mk_ok by fit. now eexists.
    + rewrite err_of by (try fit; lia). reflexivity.
Qed.
Print Assumptions C35_message_padding_exact.
