(** Consequences of [osc_match_outcome] in the form the properties use, and
    facts about the results for arbitrary strings. *)

From Coq Require Import ZArith List Bool Lia.
From Verif Require Import Base BaseProofs MatchModel MatchSafety MatchSpec MatchProofs MatchLang.
Import ListNotations.
Open Scope Z_scope.

(** * Offsets for arbitrary strings *)

(** What the offsets mean for each return code. *)
Definition offsets_ok (pat adr : list Z) (r : mres) : Prop :=
  (code r = 3 -> rdc pat (poff r) = Ok 0 /\ rdc adr (aoff r) = Ok 0) /\
  (code r = 1 -> rdc pat (poff r) = Ok 47 /\ rdc adr (aoff r) = Ok 0) /\
  (code r = 2 -> rdc pat (poff r) = Ok 0 /\ rdc adr (aoff r) = Ok 47) /\
  (code r <> 1 -> code r <> 2 -> code r <> 3 -> code r <> ERR_BACKTRACK -> poff r = 0 /\ aoff r = 0).

Definition res_offsets (pat adr : list Z) (o : res mres) : Prop :=
  match o with Ok r => offsets_ok pat adr r | _ => True end.

Definition done_offsets (pat adr : list Z) (l : lres stack (res mres)) : Prop :=
  match l with Cont _ => True | Done o => res_offsets pat adr o end.

Lemma lift_offsets {T} pat adr (m : res T) k :
  (forall x, m = Ok x -> done_offsets pat adr (k x)) -> done_offsets pat adr (lift m k).
Proof. intros H. destruct m; cbn; auto. Qed.

Lemma fail_offsets pat adr c : c <> 1 -> c <> 2 -> c <> 3 -> done_offsets pat adr (fail_with c).
Proof. intros. cbn. unfold offsets_ok. cbn [code poff aoff]. repeat split; intros; try contradiction. Qed.

Lemma bt_offsets pat adr p a : done_offsets pat adr (ret_with ERR_BACKTRACK p a).
Proof. cbn. unfold offsets_ok. cbn [code poff aoff]. repeat split; intros; try discriminate; contradiction. Qed.

Lemma step_switch_offsets pat adr sp sa p a st :
  done_offsets pat adr (step_switch pat adr sp sa p a st).
Proof.
  unfold step_switch. destruct (is_end p); [exact I|]. destruct (p =? c_quest); [exact I|].
  destruct (p =? c_lbrack).
  { apply lift_offsets. intros r Hr. destruct (r =? 0) eqn:E0; [exact I|]. destruct (r =? 1) eqn:E1.
    - apply lift_offsets. intros d _. apply lift_offsets. intros q _. apply lift_offsets. intros c _.
      destruct (c =? c_rbrack); [exact I|]. apply fail_offsets; discriminate.
    - apply Z.eqb_neq in E1. assert (Hr3 : r = 0 \/ r = 1 \/ r = ERR_UNMATCHED_LSB).
      { revert Hr. unfold osc_match_range.
        destruct (rdc pat (sp + 1)) as [c1| |]; try discriminate. cbn [bind].
        destruct (rdc adr sa) as [c2| |]; try discriminate. cbn [bind].
        destruct (rdc pat _) as [c3| |]; try discriminate. cbn [bind].
        set (val := if c1 =? c_bang then 0 else 1).
        assert (Hv : val = 0 \/ val = 1) by (unfold val; destruct (c1 =? c_bang); auto).
        clearbody val.
        destruct (_ && _).
        { intros H. inversion H. lia. }
        generalize (if c1 =? c_bang then sp + 2 else sp + 1). generalize (fuel_of pat).
        intros fuel. induction fuel as [|f IH]; intros i; cbn [range_loop]; [discriminate|].
        destruct (rdc pat i) as [x1| |]; try discriminate. cbn [bind].
        destruct (x1 =? c_rbrack); [intros H; assert (r = 1 - val) by congruence; lia|].
        destruct (is_end x1); [intros H; inversion H; auto|].
        destruct (rdc pat (i + 1)) as [x2| |]; try discriminate. cbn [bind].
        destruct (x2 =? c_dash).
        - destruct (rdc pat (i + 1 + 1)) as [x3| |]; try discriminate. cbn [bind].
          destruct (_ && _).
          + destruct (_ || _); [intros H; inversion H; lia|apply IH].
          + destruct (x1 =? c2); [intros H; inversion H; lia|apply IH].
        - destruct (x1 =? c2); [intros H; inversion H; lia|apply IH]. }
      apply Z.eqb_neq in E0. assert (r = ERR_UNMATCHED_LSB) by tauto. subst r. apply fail_offsets; discriminate. }
  destruct (p =? c_lbrace).
  { apply lift_offsets. intros q _. apply lift_offsets. intros c _. destruct (c =? c_rbrace).
    - apply lift_offsets. intros [st'|] _; [exact I|]. apply bt_offsets.
    - apply fail_offsets; discriminate. }
  destruct (p =? c_rbrace); [apply fail_offsets; discriminate|].
  destruct (p =? c_rbrack); [apply fail_offsets; discriminate|].
  destruct (p =? c_star).
  { apply lift_offsets. intros pp _. apply lift_offsets. intros c _. apply lift_offsets. intros q _.
    destruct (is_end c); [exact I|]. apply lift_offsets. intros [st'|] _; [exact I|]. apply bt_offsets. }
  destruct (p =? a); exact I.
Qed.

Lemma step_offsets pat adr s : done_offsets pat adr (step pat adr s).
Proof.
  destruct s as [|[sp sa] st]; [apply fail_offsets; discriminate|]. unfold step.
  apply lift_offsets. intros p Hp. apply lift_offsets. intros a Ha.
  destruct (a =? 0) eqn:E0.
  { apply Z.eqb_eq in E0. subst. apply lift_offsets. intros q _. apply lift_offsets. intros c Hc.
    destruct (c =? 0) eqn:E1.
    - apply Z.eqb_eq in E1. subst. cbn. unfold offsets_ok. cbn [code poff aoff].
      repeat split; intros; try discriminate; auto; contradiction.
    - destruct (c =? c_slash) eqn:E2; [|exact I]. apply Z.eqb_eq in E2. unfold c_slash in E2. subst.
      cbn. unfold offsets_ok. cbn [code poff aoff].
      repeat split; intros; try discriminate; auto; contradiction. }
  destruct (a =? c_slash) eqn:E1.
  { apply Z.eqb_eq in E1. unfold c_slash in E1. subst. destruct (p =? c_slash); [exact I|].
    destruct (p =? 0) eqn:E2.
    - apply Z.eqb_eq in E2. subst. cbn. unfold offsets_ok. cbn [code poff aoff].
      repeat split; intros; try discriminate; auto; contradiction.
    - destruct (p =? c_star); [|exact I]. apply lift_offsets. intros q _. exact I. }
  apply lift_offsets. intros b _. destruct b; [|apply step_switch_offsets].
  apply lift_offsets. intros q _. apply lift_offsets. intros q2 _. exact I.
Qed.

Lemma osc_match_offsets pat adr r : osc_match pat adr = Ok r -> offsets_ok pat adr r.
Proof.
  unfold osc_match. destruct (rdc pat 0) as [p| |]; try discriminate. cbn [bind].
  assert (Hf : forall c, c <> 1 -> c <> 2 -> c <> 3 -> offsets_ok pat adr (MRes c 0 0)).
  { intros c H1 H2 H3. apply (fail_offsets pat adr c H1 H2 H3). }
  destruct (negb (p =? c_slash)).
  { intros H. inversion H. apply Hf; discriminate. }
  destruct (rdc adr 0) as [a| |]; try discriminate. cbn [bind].
  destruct (negb (a =? c_slash)).
  { intros H. inversion H. apply Hf; discriminate. }
  intros H. apply while_runs in H; [|discriminate].
  apply (runs_inv (step pat adr) (fun _ => True) (res_offsets pat adr)) in H; auto.
  intros s r' _ Hs. pose proof (step_offsets pat adr s) as Hd. rewrite Hs in Hd. exact Hd.
Qed.

Lemma rdc_zero_end s i : nonul s -> rdc s i = Ok 0 -> i = zlen s.
Proof.
  intros Hs H. pose proof (rdc_range _ _ _ H) as Hr.
  destruct (Z.eq_dec i (zlen s)) as [|Hne]; [assumption|].
  exfalso. unfold rdc in H. rewrite rd_app_l in H by lia.
  destruct (rd_ok s i) as (x & Hx & Hn); [lia|]. rewrite Hx in H. inversion H; subst.
  apply nth_error_In in Hn. unfold nonul in Hs. rewrite Forall_forall in Hs. now apply (Hs 0).
Qed.

(** * The outcome relation in closed form *)

Definition full_match (p : pattern) (a : address) : Prop := Forall2 component_matches p a.

Lemma outcome_code p a c p' a' : outcome p a c p' a' -> c = 0 \/ c = 1 \/ c = 2 \/ c = 3.
Proof. induction 1; auto. Qed.

Lemma outcome_full p a c p' a' : outcome p a c p' a' ->
  (c = 3 <-> full_match p a).
Proof.
  unfold full_match. induction 1.
  - split; auto.
  - split; [discriminate|]. intros H; inversion H.
  - split; [discriminate|]. intros H; inversion H.
  - rewrite IHoutcome. split; [now constructor|]. intros H1; now inversion H1.
  - split; [discriminate|]. intros H1. inversion H1. contradiction.
Qed.

Lemma outcome_address p a c p' a' : outcome p a c p' a' ->
  (c = 1 <-> exists p1 p2, p = p1 ++ p2 /\ p2 <> [] /\ full_match p1 a).
Proof.
  unfold full_match. induction 1.
  - split; [discriminate|]. intros (p1 & p2 & E & Hne & _). symmetry in E. apply app_eq_nil in E. tauto.
  - split; [|reflexivity]. intros _. exists [], (t :: p). repeat split; auto. discriminate.
  - split; [discriminate|]. intros (p1 & p2 & E & Hne & H). symmetry in E. apply app_eq_nil in E. tauto.
  - rewrite IHoutcome. split.
    + intros (p1 & p2 & -> & Hne & H1). exists (t :: p1), p2. repeat split; auto.
    + intros (p1 & p2 & E & Hne & H1). inversion H1; subst. inversion E; subst. eauto.
  - split; [discriminate|]. intros (p1 & p2 & E & Hne & H1). inversion H1; subst. inversion E; subst. contradiction.
Qed.

Lemma outcome_pattern p a c p' a' : outcome p a c p' a' ->
  (c = 2 <-> exists a1 a2, a = a1 ++ a2 /\ a2 <> [] /\ full_match p a1).
Proof.
  unfold full_match. induction 1.
  - split; [discriminate|]. intros (p1 & p2 & E & Hne & _). symmetry in E. apply app_eq_nil in E. tauto.
  - split; [discriminate|]. intros (p1 & p2 & E & Hne & H). symmetry in E. apply app_eq_nil in E. tauto.
  - split; [|reflexivity]. intros _. exists [], (w :: a). repeat split; auto. discriminate.
  - rewrite IHoutcome. split.
    + intros (p1 & p2 & -> & Hne & H1). exists (w :: p1), p2. repeat split; auto.
    + intros (p1 & p2 & E & Hne & H1). inversion H1; subst. inversion E; subst. eauto.
  - split; [discriminate|]. intros (p1 & p2 & E & Hne & H1). inversion H1; subst. inversion E; subst. contradiction.
Qed.

Lemma outcome_rest p a c p' a' : outcome p a c p' a' ->
  c <> 0 -> exists p1 a1, p = p1 ++ p' /\ a = a1 ++ a' /\ full_match p1 a1 /\
                          (c = 3 -> p' = [] /\ a' = []) /\ (c = 1 -> a' = []) /\ (c = 2 -> p' = []).
Proof.
  unfold full_match. induction 1; intros Hc; try congruence.
  - exists [], []. repeat split; auto; discriminate.
  - exists [], []. repeat split; auto; discriminate.
  - exists [], []. repeat split; auto; discriminate.
  - destruct (IHoutcome Hc) as (p1 & a1 & -> & -> & H1 & H2). exists (t :: p1), (w :: a1).
    repeat split; auto; tauto.
Qed.

(** * Addresses and literal patterns as strings *)

Lemma address_parse s : nonul s -> exists a : address,
  Forall (Forall achar) a /\ match s with 47 :: _ => s = address_text a /\ a <> [] | _ => True end /\
  exists w, Forall achar w /\ s = w ++ address_text (tl (w :: a)) /\ Forall (Forall achar) a.
Proof.
  induction 1 as [|c s Hc Hs (a & Ha & H1 & w & Hw & H2 & _)].
  - exists []. repeat split; auto. exists []. repeat split; auto.
  - cbn [tl] in H2. destruct (Z.eq_dec c 47) as [->|Hne].
    + exists (w :: a). split; [now constructor|]. split.
      * rewrite address_text_cons, <- H2. split; [reflexivity|discriminate].
      * exists []. cbn [tl app]. rewrite address_text_cons, <- H2. repeat split; auto.
    + exists a. split; [assumption|]. split.
      * destruct c; try exact I. do 6 (try (destruct p; try exact I)). congruence.
      * exists (c :: w). cbn [tl app]. rewrite <- H2. repeat split; auto.
        constructor; [split; assumption | assumption].
Qed.

Lemma address_of_string s : nonul s -> hd 0 s = 47 -> exists a, address_ok a /\ s = address_text a.
Proof.
  intros Hs Hh. destruct (address_parse s Hs) as (a & Ha & H1 & _).
  destruct s as [|c s]; [discriminate|]. cbn in Hh. subst c. destruct H1 as [-> Hne].
  exists a. split; [|reflexivity]. split; assumption.
Qed.

(** The pattern made of literal characters only. *)
Definition literal (a : address) : pattern := map (map TChar) a.

Lemma literal_text a : pattern_text (literal a) = address_text a.
Proof.
  unfold pattern_text, literal, address_text. rewrite map_map. f_equal. apply map_ext. intros w. f_equal.
  unfold component_text. induction w as [|c w IH]; [reflexivity|]. cbn. f_equal. exact IH.
Qed.

Lemma literal_ok a : address_ok a -> Forall (Forall plain_char) a -> pattern_ok (literal a).
Proof.
  intros [Hne _] Hp. split.
  - unfold literal. destruct a; [congruence|discriminate].
  - unfold literal. apply Forall_map. eapply Forall_impl; [|exact Hp].
    intros w Hw. apply Forall_map. exact Hw.
Qed.

Lemma literal_cost n w : component_cost n (map TChar w) = 0.
Proof. unfold component_cost. induction w as [|c w IH]; [reflexivity|]. cbn. exact IH. Qed.

Lemma literal_fits a b : pairs_fit (literal a) b.
Proof.
  intros t w Hin. apply in_combine_l in Hin. unfold literal in Hin. apply in_map_iff in Hin as (x & <- & _).
  rewrite literal_cost. lia.
Qed.

Lemma literal_tokens w v : tokens_match (map TChar w) v <-> w = v.
Proof.
  revert v. induction w as [|c w IH]; intros v; cbn [map].
  - rewrite tokens_match_nil. split; auto.
  - rewrite tokens_match_cons. split.
    + intros (u & z & -> & H1 & H2). inversion H1; subst. apply IH in H2. subst. reflexivity.
    + intros <-. exists [c], w. repeat split; auto; [constructor | now apply IH].
Qed.

Lemma literal_full a b : Forall (fun w => w <> [42]) b -> (full_match (literal a) b <-> a = b).
Proof.
  unfold full_match, literal. intros Hb. split.
  - revert b Hb. induction a as [|w a IH]; intros b Hb H; cbn in H; inversion H; subst; [reflexivity|].
    inversion Hb as [|? ? Hy Hb']; subst. f_equal; [|now apply IH].
    destruct H2 as [H2|H2]; [contradiction|]. now apply literal_tokens.
  - intros ->. clear Hb. induction b as [|w b IH]; cbn; constructor; [|assumption].
    right. now apply literal_tokens.
Qed.

Lemma address_text_inj a b : Forall (Forall achar) a -> Forall (Forall achar) b ->
  address_text a = address_text b -> a = b.
Proof.
  intros Ha. revert b. induction Ha as [|w a Hw _ IH]; intros b Hb E.
  - destruct b; [reflexivity|discriminate].
  - destruct b as [|v b]; [discriminate|]. inversion Hb as [|? ? Hv Hb']; subst.
    rewrite !address_text_cons in E. inversion E as [E2].
    assert (Hwv : w = v /\ address_text a = address_text b).
    { clear -Hw Hv E2. revert v Hv E2. induction Hw as [|c w Hc _ IH]; intros v Hv E.
      - destruct v as [|d v]; [auto|]. cbn in E. inversion Hv; subst.
        destruct a; cbn in E; inversion E; subst. destruct H1. congruence.
      - destruct v as [|d v].
        + cbn in E. destruct b; cbn in E; inversion E; subst. destruct Hc. congruence.
        + cbn in E. inversion E; subst. inversion Hv; subst.
          destruct (IH v) as [-> ->]; auto. }
    destruct Hwv as [-> E3]. f_equal. now apply IH.
Qed.

Lemma address_text_forall (Q : Z -> Prop) a : Forall Q (address_text a) -> Forall (Forall Q) a.
Proof.
  induction a as [|w a IH]; intros H; [constructor|]. rewrite address_text_cons in H.
  inversion H as [|? ? _ H']; subst. apply Forall_app in H' as [H1 H2]. constructor; auto.
Qed.

Lemma component_cost_bound (n k : Z) t : 0 <= n ->
  (forall x, In x t -> token_cost n x = 0) -> component_cost n t = 0.
Proof.
  intros Hn. unfold component_cost. induction t as [|x t IH]; intros H; cbn; [reflexivity|].
  rewrite H by (now left). rewrite IH; [reflexivity|]. intros y Hy. apply H. now right.
Qed.
