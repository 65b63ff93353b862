(** The matcher model decides the pattern language of [MatchSpec]. *)

From Coq Require Import ZArith List Bool Lia.
From Verif Require Import Base BaseProofs MatchModel MatchSafety MatchSpec.
Import ListNotations.
Open Scope Z_scope.

(** * Reading at a split *)

Lemma rdc_hd l1 l2 : rdc (l1 ++ l2) (zlen l1) = Ok (hd 0 l2).
Proof.
  unfold rdc. rewrite <- app_assoc. destruct l2 as [|c l2]; cbn [app hd]; apply rd_at.
Qed.

Lemma rdc_hd1 l1 x l2 : rdc (l1 ++ x :: l2) (zlen l1 + 1) = Ok (hd 0 l2).
Proof.
  replace (l1 ++ x :: l2) with ((l1 ++ [x]) ++ l2) by (rewrite <- app_assoc; reflexivity).
  replace (zlen l1 + 1) with (zlen (l1 ++ [x])) by (zl; lia). apply rdc_hd.
Qed.

Lemma rdc_hd2 l1 x y l2 : rdc (l1 ++ x :: y :: l2) (zlen l1 + 1 + 1) = Ok (hd 0 l2).
Proof.
  replace (l1 ++ x :: y :: l2) with ((l1 ++ [x; y]) ++ l2) by (rewrite <- app_assoc; reflexivity).
  replace (zlen l1 + 1 + 1) with (zlen (l1 ++ [x; y])) by (zl; lia). apply rdc_hd.
Qed.

Lemma scan_app stop l2 : stop (hd 0 l2) = true ->
  forall w l1 fuel, Forall (fun c => stop c = false) w -> (length w < fuel)%nat ->
  scan fuel stop (l1 ++ w ++ l2) (zlen l1) = Ok (zlen l1 + zlen w).
Proof.
  intros Hs w. induction w as [|c w IH]; intros l1 fuel Hw Hf.
  - destruct fuel as [|f]; [cbn in Hf; lia|]. cbn [scan app]. rewrite rdc_hd. cbn [bind]. rewrite Hs.
    f_equal. zl. lia.
  - inversion Hw; subst. destruct fuel as [|f]; [cbn in Hf; lia|]. cbn [scan].
    rewrite rdc_hd. cbn [bind hd app]. rewrite H1.
    replace (l1 ++ c :: w ++ l2) with ((l1 ++ [c]) ++ w ++ l2) by (rewrite <- app_assoc; reflexivity).
    replace (zlen l1 + 1) with (zlen (l1 ++ [c])) by (zl; lia).
    rewrite IH; [|assumption|cbn in Hf; lia]. f_equal. zl. lia.
Qed.

Lemma fuel_of_app l1 w l2 : (length w < fuel_of (l1 ++ w ++ l2))%nat.
Proof. unfold fuel_of. rewrite !app_length. lia. Qed.

(** * strncmp *)

Fixpoint prefixb (x y : list Z) : bool :=
  match x, y with
  | [], _ => true
  | c :: x', d :: y' => (c =? d) && prefixb x' y'
  | _ :: _, [] => false
  end.

Lemma prefixb_spec x y : prefixb x y = true <-> exists z, y = x ++ z.
Proof.
  revert y. induction x as [|c x IH]; intros y; cbn.
  - split; eauto.
  - destruct y as [|d y].
    + split; [discriminate|]. intros [z Hz]. discriminate.
    + rewrite andb_true_iff, Z.eqb_eq, IH. split.
      * intros [-> [z ->]]. eauto.
      * intros [z Hz]. inversion Hz; subst. eauto.
Qed.

Lemma strncmp_app x : nonul x -> forall l1 l2 m1 y,
  strncmp_eq (length x) (l1 ++ x ++ l2) (zlen l1) (m1 ++ y) (zlen m1) = Ok (prefixb x y).
Proof.
  induction 1 as [|c x Hc Hx IH]; intros l1 l2 m1 y; [reflexivity|].
  cbn [length strncmp_eq app prefixb]. rewrite rdc_hd, rdc_hd. cbn [bind hd].
  destruct y as [|d y]; cbn [hd].
  - replace (c =? 0) with false by lia. reflexivity.
  - destruct (c =? d) eqn:E; [|reflexivity]. replace (c =? 0) with false by lia. cbn [andb].
    replace (l1 ++ c :: x ++ l2) with ((l1 ++ [c]) ++ x ++ l2) by (rewrite <- app_assoc; reflexivity).
    replace (m1 ++ d :: y) with ((m1 ++ [d]) ++ y) by (rewrite <- app_assoc; reflexivity).
    replace (zlen l1 + 1) with (zlen (l1 ++ [c])) by (zl; lia).
    replace (zlen m1 + 1) with (zlen (m1 ++ [d])) by (zl; lia). apply IH.
Qed.

(** * Bracket lists *)

Definition in_intb (c : Z) (i : Z * Z) : bool :=
  ((fst i <=? c) && (c <=? snd i)) || ((snd i <=? c) && (c <=? fst i)).
Definition in_bodyb (body : list Z) (c : Z) : bool := existsb (in_intb c) (intervals body).

Lemma in_bodyb_spec body c : in_bodyb body c = true <-> in_body body c.
Proof.
  unfold in_bodyb, in_body. rewrite existsb_exists, Exists_exists.
  split; intros (i & Hi & H); exists i; (split; [assumption|]).
  - unfold in_intb in H. apply orb_true_iff in H. rewrite !andb_true_iff, !Z.leb_le in H. lia.
  - unfold in_intb. apply orb_true_iff. rewrite !andb_true_iff, !Z.leb_le. lia.
Qed.

Definition body_char (c : Z) : Prop := ~ In c [0; 47; 93].

Lemma body_char_tests c : body_char c -> (c =? c_rbrack) = false /\ is_end c = false.
Proof.
  unfold body_char, is_end, c_rbrack, c_slash. cbn. intros H. split.
  - apply Z.eqb_neq. lia.
  - apply orb_false_iff. split; apply Z.eqb_neq; lia.
Qed.

Lemma intervals_range x y rest : intervals (x :: 45 :: y :: rest) = (x, y) :: intervals rest.
Proof. reflexivity. Qed.

Lemma intervals_single x tl :
  (forall y rest, tl <> 45 :: y :: rest) -> intervals (x :: tl) = (x, x) :: intervals tl.
Proof.
  intros H. destruct tl as [|d tl]; [reflexivity|].
  destruct tl as [|y rest].
  - cbn. destruct d; try reflexivity. do 6 (try (destruct p; try reflexivity)).
  - cbn. destruct d; try reflexivity. do 6 (try (destruct p; try reflexivity)).
    exfalso. eapply H. reflexivity.
Qed.

Lemma in_intb_single c x : in_intb c (x, x) = (x =? c).
Proof.
  unfold in_intb. cbn [fst snd]. destruct (x =? c) eqn:E.
  - replace (x <=? c) with true by lia. replace (c <=? x) with true by lia. reflexivity.
  - destruct (x <=? c) eqn:E1; destruct (c <=? x) eqn:E2; cbn; try reflexivity; lia.
Qed.

Lemma range_loop_spec ach val l2 : (val = 0 \/ val = 1) ->
  forall n body l1 fuel, (length body <= n)%nat -> Forall body_char body -> (length body < fuel)%nat ->
  range_loop fuel (l1 ++ body ++ 93 :: l2) ach val (zlen l1) =
  Ok (if in_bodyb body ach then val else 1 - val).
Proof.
  intros Hval n. induction n as [|n IH]; intros body l1 fuel Hn Hb Hf.
  - destruct body; [|cbn in Hn; lia]. destruct fuel; [cbn in Hf; lia|].
    cbn [range_loop app]. rewrite rdc_hd. reflexivity.
  - destruct body as [|x tl].
    { destruct fuel; [cbn in Hf; lia|]. cbn [range_loop app]. rewrite rdc_hd. reflexivity. }
    destruct fuel as [|f]; [cbn in Hf; lia|].
    inversion Hb as [|? ? Hx Htl]; subst. destruct (body_char_tests x Hx) as [Ex1 Ex2].
    cbn [range_loop app]. rewrite rdc_hd. cbn [bind hd]. rewrite Ex1, Ex2.
    rewrite rdc_hd1. cbn [bind].
    assert (Hsingle : (forall y rest, tl <> 45 :: y :: rest) ->
      (if x =? ach then Ok val else range_loop f (l1 ++ x :: tl ++ 93 :: l2) ach val (zlen l1 + 1)) =
      Ok (if in_bodyb (x :: tl) ach then val else 1 - val)).
    { intros Hns. unfold in_bodyb. rewrite intervals_single by assumption. cbn [existsb].
      rewrite in_intb_single. destruct (x =? ach); [reflexivity|]. cbn [orb].
      replace (l1 ++ x :: tl ++ 93 :: l2) with ((l1 ++ [x]) ++ tl ++ 93 :: l2) by (rewrite <- app_assoc; reflexivity).
      replace (zlen l1 + 1) with (zlen (l1 ++ [x])) by (zl; lia).
      apply IH; [cbn in Hn; lia | assumption | cbn in Hf; lia]. }
    destruct tl as [|d tl].
    + cbn [app hd]. change (93 =? c_dash) with false. cbn iota. cbn [app] in Hsingle. apply Hsingle. discriminate.
    + cbn [app hd]. destruct (d =? c_dash) eqn:Ed.
      * apply Z.eqb_eq in Ed. unfold c_dash in Ed. subst d. rewrite rdc_hd2. cbn [bind].
        destruct tl as [|y rest].
        -- cbn [app hd]. change (is_end 93) with false. change (93 =? c_rbrack) with true. cbn [negb andb].
           cbn [app] in Hsingle. apply Hsingle. discriminate.
        -- cbn [app hd]. inversion Htl as [|? ? _ Htl2]; subst. inversion Htl2 as [|? ? Hy Hrest]; subst.
           destruct (body_char_tests y Hy) as [Ey1 Ey2]. rewrite Ey1, Ey2. cbn [negb andb].
           unfold in_bodyb. rewrite intervals_range. cbn [existsb].
           unfold in_intb at 1. cbn [fst snd].
           replace ((x <=? ach) && (ach <=? y) || (ach <=? x) && (y <=? ach))
             with ((x <=? ach) && (ach <=? y) || (y <=? ach) && (ach <=? x))
             by (rewrite (andb_comm (ach <=? x)); reflexivity).
           destruct (_ || _); [reflexivity|]. cbn [orb].
           replace (l1 ++ x :: 45 :: y :: rest ++ 93 :: l2) with ((l1 ++ [x; 45; y]) ++ rest ++ 93 :: l2)
             by (rewrite <- app_assoc; reflexivity).
           replace (zlen l1 + 1 + 2) with (zlen (l1 ++ [x; 45; y])) by (zl; lia).
           apply IH; [cbn in Hn; lia | assumption | cbn in Hf; lia].
      * cbn [app] in Hsingle. apply Hsingle. intros y rest E. inversion E; subst. discriminate.
Qed.

Lemma range_spec l1 neg body l2 m1 m2 :
  token_ok (TSet neg body) ->
  osc_match_range (l1 ++ token_text (TSet neg body) ++ l2) (zlen l1) (m1 ++ m2) (zlen m1) =
  Ok (if eqb neg (in_bodyb body (hd 0 m2)) then 0 else 1).
Proof.
  intros (Hne & Hb & Hbang). cbn [token_text app].
  set (ach := hd 0 m2).
  assert (Hfuel : forall l : list Z, (length body < fuel_of (l ++ body ++ 93%Z :: l2))%nat) by (intros; apply fuel_of_app).
  destruct body as [|x tl]; [congruence|].
  inversion Hb as [|? ? Hx _]; subst. destruct (body_char_tests x Hx) as [Ex1 _].
  unfold osc_match_range. destruct neg; cbn [app].
  - rewrite rdc_hd1. cbn [bind hd]. change (33 =? c_bang) with true. cbn iota.
    rewrite rdc_hd. cbn [bind]. fold ach.
    replace (zlen l1 + 2) with (zlen (l1 ++ [91; 33])) by (zl; lia).
    replace (l1 ++ 91 :: 33 :: x :: (tl ++ [93]) ++ l2) with ((l1 ++ [91; 33]) ++ (x :: tl) ++ 93 :: l2)
      by (rewrite <- !app_assoc; reflexivity).
    rewrite rdc_hd. cbn [bind hd app]. rewrite Ex1. cbn [andb].
    change (x :: tl ++ 93 :: l2) with ((x :: tl) ++ 93 :: l2).
    erewrite range_loop_spec; eauto. destruct (in_bodyb (x :: tl) ach); reflexivity.
  - rewrite rdc_hd1. cbn [bind hd]. cbn [hd] in Hbang.
    replace (x =? c_bang) with false by (unfold c_bang; specialize (Hbang eq_refl); lia). cbn iota.
    rewrite rdc_hd. cbn [bind]. fold ach.
    rewrite rdc_hd1. cbn [bind hd app]. rewrite Ex1. cbn [andb].
    replace (zlen l1 + 1) with (zlen (l1 ++ [91])) by (zl; lia).
    replace (l1 ++ 91 :: x :: (tl ++ [93]) ++ l2) with ((l1 ++ [91]) ++ (x :: tl) ++ 93 :: l2)
      by (rewrite <- !app_assoc; reflexivity).
    erewrite range_loop_spec; eauto. destruct (in_bodyb (x :: tl) ach); reflexivity.
Qed.

(** * Pushes *)

Definition LIM := OSC_MATCH_BACKTRACK_LIMIT.

(** Push a list of states, first element first. *)
Definition pushn (cs : list (Z * Z)) (st : stack) : option stack :=
  if (length st + length cs <=? LIM)%nat then Some (rev cs ++ st) else None.

Lemma pushn_nil st : (length st <= LIM)%nat -> pushn [] st = Some st.
Proof.
  intros H. unfold pushn. cbn [length]. rewrite Nat.add_0_r.
  apply Nat.leb_le in H. now rewrite H.
Qed.

Lemma pushn_cons p a cs st : (length st <= LIM)%nat ->
  pushn ((p, a) :: cs) st =
  match push p a st with Some st' => pushn cs st' | None => None end.
Proof.
  intros H. unfold push, pushn. fold LIM. destruct (LIM <=? length st)%nat eqn:E.
  - apply Nat.leb_le in E. cbn [length].
    destruct (_ <=? _)%nat eqn:E2; [|reflexivity]. apply Nat.leb_le in E2. lia.
  - cbn [length rev]. rewrite <- app_assoc. cbn [app].
    replace (length st + S (length cs))%nat with (S (length st) + length cs)%nat by lia. reflexivity.
Qed.

Lemma push_len p a st st' : push p a st = Some st' -> (length st' <= LIM)%nat.
Proof.
  unfold push. fold LIM. destruct (LIM <=? length st)%nat eqn:E; [discriminate|].
  apply Nat.leb_gt in E. intros H. inversion H; subst. cbn [length]. lia.
Qed.

(** The states pushed for an alternation. *)
Definition alt_states (rest aa : Z) (y : list Z) (alts : list (list Z)) : list (Z * Z) :=
  map (fun w => (rest, aa + zlen w)) (filter (fun w => prefixb w y) alts).

Definition alt_char (c : Z) : Prop := ~ In c [0; 47; 44; 125].

Lemma alt_char_tests c : alt_char c ->
  is_end c = false /\ (c =? c_comma) = false /\ (c =? c_rbrace) = false /\ c <> 0.
Proof.
  unfold alt_char, is_end, c_comma, c_rbrace, c_slash. cbn. intros H.
  split; [apply orb_false_iff; split; apply Z.eqb_neq; lia|].
  split; [apply Z.eqb_neq; lia|]. split; [apply Z.eqb_neq; lia|]. lia.
Qed.

(** Scanning one alternative. *)
Lemma alt_scan rest aa m y l2 c : (c = 44 \/ c = 125) ->
  forall w2 w1 l1 fuel st,
  Forall alt_char (w1 ++ w2) -> (length st <= LIM)%nat -> (length w2 < fuel)%nat -> aa = zlen m ->
  alt_loop fuel (l1 ++ (w1 ++ w2) ++ c :: l2) (m ++ y) rest aa (zlen l1) (zlen l1 + zlen w1) st =
  match (if prefixb (w1 ++ w2) y then push rest (aa + zlen (w1 ++ w2)) st else Some st) with
  | None => Ok None
  | Some st' => if c =? c_rbrace then Ok (Some st')
                else alt_loop (fuel - S (length w2)) (l1 ++ (w1 ++ w2) ++ c :: l2) (m ++ y) rest aa
                       (zlen l1 + zlen (w1 ++ w2) + 1) (zlen l1 + zlen (w1 ++ w2) + 1) st'
  end.
Proof.
  intros Hc w2. induction w2 as [|x w2 IH]; intros w1 l1 fuel st Hw Hst Hf Haa.
  - rewrite app_nil_r in *. destruct fuel as [|f]; [cbn in Hf; lia|]. cbn [alt_loop].
    replace (rdc (l1 ++ w1 ++ c :: l2) (zlen l1 + zlen w1)) with (Ok c).
    2:{ rewrite app_assoc. replace (zlen l1 + zlen w1) with (zlen (l1 ++ w1)) by (zl; lia). now rewrite rdc_hd. }
    cbn [bind]. replace (is_end c) with false by (destruct Hc; subst; reflexivity).
    replace ((c =? c_comma) || (c =? c_rbrace)) with true by (destruct Hc; subst; reflexivity).
    replace (zlen l1 + zlen w1 - zlen l1) with (zlen w1) by lia.
    replace (Z.to_nat (zlen w1)) with (length w1) by (unfold zlen; lia).
    rewrite Haa at 1. rewrite strncmp_app.
    2:{ eapply Forall_impl; [|exact Hw]. intros d Hd. apply alt_char_tests in Hd. tauto. }
    cbn [bind length]. replace (S f - 1)%nat with f by lia. reflexivity.
  - destruct fuel as [|f]; [cbn in Hf; lia|]. cbn [alt_loop].
    replace (rdc (l1 ++ (w1 ++ x :: w2) ++ c :: l2) (zlen l1 + zlen w1)) with (Ok x).
    2:{ rewrite <- app_assoc, app_assoc. replace (zlen l1 + zlen w1) with (zlen (l1 ++ w1)) by (zl; lia).
        now rewrite rdc_hd. }
    cbn [bind]. assert (Hx : alt_char x) by (apply Forall_app in Hw as [_ Hw]; now inversion Hw).
    apply alt_char_tests in Hx as (E1 & E2 & E3 & _). rewrite E1, E2, E3. cbn [orb].
    specialize (IH (w1 ++ [x]) l1 f st). rewrite <- !app_assoc in IH. cbn [app] in IH.
    replace (zlen l1 + zlen (w1 ++ [x])) with (zlen l1 + zlen w1 + 1) in IH by (zl; lia).
    replace (l1 ++ (w1 ++ x :: w2) ++ c :: l2) with (l1 ++ w1 ++ x :: w2 ++ c :: l2) by (rewrite <- !app_assoc; reflexivity).
    rewrite IH; try assumption; [|cbn in Hf; lia].
    replace (S f - S (length (x :: w2)))%nat with (f - S (length w2))%nat by (cbn [length]; lia).
    reflexivity.
Qed.

Lemma alt_loop_spec rest m y l2 :
  forall alts l1 fuel st, alts <> [] ->
  Forall (fun w => Forall alt_char w) alts -> (length st <= LIM)%nat ->
  (length (join 44 alts) < fuel)%nat ->
  alt_loop fuel (l1 ++ join 44 alts ++ 125 :: l2) (m ++ y) rest (zlen m) (zlen l1) (zlen l1) st =
  Ok (pushn (alt_states rest (zlen m) y alts) st).
Proof.
  intros alts. induction alts as [|w alts IH]; intros l1 fuel st Hne Hall Hst Hf; [congruence|].
  inversion Hall as [|? ? Hw Halts]; subst.
  destruct alts as [|w' alts].
  - cbn [join] in *.
    pose proof (alt_scan rest (zlen m) m y l2 125 (or_intror eq_refl) w [] l1 fuel st) as Hs.
    cbn [app] in Hs. rewrite (@zlen_nil Z), Z.add_0_r in Hs. rewrite Hs; auto; clear Hs.
    change (125 =? c_rbrace) with true. cbn iota. unfold alt_states. cbn [filter].
    destruct (prefixb w y); cbn [map].
    + rewrite pushn_cons by assumption. destruct (push rest (zlen m + zlen w) st) eqn:E; [|reflexivity].
      rewrite pushn_nil; [reflexivity|]. eapply push_len; eauto.
    + rewrite pushn_nil; auto.
  - replace (join 44 (w :: w' :: alts)) with (w ++ 44 :: join 44 (w' :: alts)) in * by reflexivity.
    rewrite app_length in Hf. cbn [length] in Hf.
    pose proof (alt_scan rest (zlen m) m y (join 44 (w' :: alts) ++ 125 :: l2) 44 (or_introl eq_refl) w [] l1 fuel st) as Hs.
    cbn [app] in Hs. rewrite (@zlen_nil Z), Z.add_0_r in Hs.
    rewrite <- app_assoc. cbn [app]. rewrite Hs; auto; [|lia]; clear Hs.
    change (44 =? c_rbrace) with false. cbn iota.
    assert (Hrec : forall st', (length st' <= LIM)%nat ->
      alt_loop (fuel - S (length w)) (l1 ++ w ++ 44 :: join 44 (w' :: alts) ++ 125 :: l2) (m ++ y) rest (zlen m)
        (zlen l1 + zlen w + 1) (zlen l1 + zlen w + 1) st' = Ok (pushn (alt_states rest (zlen m) y (w' :: alts)) st')).
    { intros st' Hst'.
      replace (l1 ++ w ++ 44 :: join 44 (w' :: alts) ++ 125 :: l2) with
        ((l1 ++ w ++ [44]) ++ join 44 (w' :: alts) ++ 125 :: l2) by (rewrite <- !app_assoc; reflexivity).
      replace (zlen l1 + zlen w + 1) with (zlen (l1 ++ w ++ [44])) by (zl; lia).
      apply IH; auto; [discriminate | lia]. }
    unfold alt_states at 1. cbn [filter]. destruct (prefixb w y).
    + cbn [map]. rewrite pushn_cons by assumption. destruct (push rest (zlen m + zlen w) st) eqn:E; [|reflexivity].
      apply Hrec. eapply push_len; eauto.
    + apply Hrec. assumption.
Qed.

(** The states pushed for a star: [pp] paired with [here + n - 1] down to [here]. *)
Fixpoint star_states (pp here : Z) (n : nat) : list (Z * Z) :=
  match n with
  | O => []
  | S m => (pp, here + Z.of_nat m) :: star_states pp here m
  end.

Lemma star_loop_spec pp here : forall n fuel st,
  (length st <= LIM)%nat -> (n < fuel)%nat ->
  star_loop fuel pp (here + Z.of_nat n) here st = Ok (pushn (star_states pp here (S n)) st).
Proof.
  induction n as [|n IH]; intros fuel st Hst Hf; destruct fuel as [|f]; try lia; cbn [star_loop].
  - cbn [star_states]. rewrite pushn_cons by assumption.
    destruct (push pp (here + Z.of_nat 0) st) eqn:E; [|reflexivity].
    replace (here + Z.of_nat 0 =? here) with true by (symmetry; apply Z.eqb_eq; lia).
    rewrite pushn_nil; [reflexivity|]. eapply push_len; eauto.
  - change (star_states pp here (S (S n))) with ((pp, here + Z.of_nat (S n)) :: star_states pp here (S n)).
    rewrite pushn_cons by assumption.
    destruct (push pp (here + Z.of_nat (S n)) st) eqn:E; [|reflexivity].
    replace (here + Z.of_nat (S n) =? here) with false by (symmetry; apply Z.eqb_neq; lia).
    replace (here + Z.of_nat (S n) - 1) with (here + Z.of_nat n) by lia.
    apply IH; [eapply push_len; eauto | lia].
Qed.

Lemma star_states_length pp here n : length (star_states pp here n) = n.
Proof. induction n; cbn; auto. Qed.
