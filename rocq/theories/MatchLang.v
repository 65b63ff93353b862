(** Simulation of the matcher's loop by the pattern language. *)

From Coq Require Import ZArith List Bool Lia.
From Verif Require Import Base BaseProofs MatchModel MatchSafety MatchSpec MatchProofs.
Import ListNotations.
Open Scope Z_scope.

(** * The language *)

Lemma tokens_match_cons t ts w :
  tokens_match (t :: ts) w <-> exists u v, w = u ++ v /\ token_matches t u /\ tokens_match ts v.
Proof.
  split.
  - intros H. inversion H; subst. eauto.
  - intros (u & v & -> & H1 & H2). now constructor.
Qed.

Lemma tokens_match_nil w : tokens_match [] w <-> w = [].
Proof. split; [intros H; inversion H; reflexivity | intros ->; constructor]. Qed.

(** Tokens that consume exactly one character. *)
Definition one_char (t : token) : Prop :=
  match t with TChar _ | TAny | TSet _ _ => True | _ => False end.

Lemma one_char_len t u : one_char t -> token_matches t u -> exists d, u = [d].
Proof. intros H Hm. destruct Hm; cbn in H; try contradiction; eauto. Qed.

Lemma tokens_match_one_char t ts c w : one_char t ->
  tokens_match (t :: ts) (c :: w) <-> token_matches t [c] /\ tokens_match ts w.
Proof.
  intros H. rewrite tokens_match_cons. split.
  - intros (u & v & E & Hm & Hts). destruct (one_char_len t u H Hm) as [d ->].
    cbn in E. inversion E; subst. auto.
  - intros [H1 H2]. exists [c], w. auto.
Qed.

Lemma tm_char c d : token_matches (TChar c) [d] <-> c = d.
Proof. split; [intros H; now inversion H | intros ->; constructor]. Qed.

Lemma tm_set neg body d : token_matches (TSet neg body) [d] <-> eqb neg (in_bodyb body d) = false.
Proof.
  split.
  - intros H. inversion H; subst.
    + apply in_bodyb_spec in H1. rewrite H1. reflexivity.
    + destruct (in_bodyb body d) eqn:E; [|reflexivity]. apply in_bodyb_spec in E. contradiction.
  - intros H. destruct neg; destruct (in_bodyb body d) eqn:E; try discriminate.
    + constructor. intros Hb. apply in_bodyb_spec in Hb. congruence.
    + constructor. now apply in_bodyb_spec.
Qed.

(** Non-star tokens need at least one character. *)
Lemma token_nonempty t : token_ok t -> t <> TStar -> ~ token_matches t [].
Proof.
  intros Hok Hns Hm. inversion Hm; subst; try congruence.
  cbn in Hok. destruct Hok as [_ Hall]. rewrite Forall_forall in Hall.
  specialize (Hall _ H). tauto.
Qed.

Lemma tokens_match_empty t ts : token_ok t -> t <> TStar -> ~ tokens_match (t :: ts) [].
Proof.
  intros Hok Hns H. apply tokens_match_cons in H as (u & v & E & Hm & _).
  symmetry in E. apply app_eq_nil in E as [-> ->]. eapply token_nonempty; eauto.
Qed.

Lemma tokens_match_star ts w :
  tokens_match (TStar :: ts) w <-> exists u v, w = u ++ v /\ tokens_match ts v.
Proof.
  rewrite tokens_match_cons. split; intros (u & v & E & H).
  - exists u, v. tauto.
  - exists u, v. repeat split; auto. constructor.
Qed.

Lemma tokens_match_stars n ts w :
  tokens_match (repeat TStar (S n) ++ ts) w <-> exists u v, w = u ++ v /\ tokens_match ts v.
Proof.
  revert w. induction n as [|n IH]; intros w.
  - cbn [repeat app]. apply tokens_match_star.
  - change (repeat TStar (S (S n)) ++ ts) with (TStar :: repeat TStar (S n) ++ ts).
    rewrite tokens_match_star. split.
    + intros (u & v & -> & H). apply IH in H as (u2 & v2 & -> & H).
      exists (u ++ u2), v2. split; [apply app_assoc | assumption].
    + intros (u & v & -> & H). exists u, v. split; [reflexivity|]. apply IH. exists [], v. auto.
Qed.

(** Maximal prefix of stars. *)
Definition nonstar_head (ts : component) : Prop := forall ts', ts <> TStar :: ts'.

Lemma split_stars ts : exists n ts', ts = repeat TStar n ++ ts' /\ nonstar_head ts'.
Proof.
  induction ts as [|t ts (n & ts' & -> & H)].
  - exists 0%nat, []. split; [reflexivity|]. intros ? ?; discriminate.
  - destruct t; try (exists 0%nat; eexists; split; [reflexivity | intros ? E; discriminate]).
    exists (S n), ts'. auto.
Qed.

Lemma stars_text n ts : component_text (repeat TStar n ++ ts) = repeat 42 n ++ component_text ts.
Proof. unfold component_text. induction n as [|n IH]; [reflexivity|]. cbn. f_equal. exact IH. Qed.

Lemma component_text_cons t ts : component_text (t :: ts) = token_text t ++ component_text ts.
Proof. reflexivity. Qed.

(** First character of a token. *)
Lemma token_text_hd t : token_ok t -> exists c l, token_text t = c :: l /\ c <> 0 /\ c <> 47 /\
  (c = 42 <-> t = TStar).
Proof.
  destruct t as [c| | |neg body|alts]; cbn; intros H.
  - exists c, []. unfold plain_char in H. cbn in H. repeat split; try tauto; try lia. intros E; discriminate.
  - exists 63, []. repeat split; try lia. intros E; discriminate.
  - exists 42, []. repeat split; try lia.
  - eexists 91, _. repeat split; try lia. intros E; discriminate.
  - eexists 123, _. repeat split; try lia. intros E; discriminate.
Qed.

Lemma pattern_text_hd pcs : is_end (hd 0 (pattern_text pcs)) = true.
Proof. destruct pcs; reflexivity. Qed.
Lemma address_text_hd acs : is_end (hd 0 (address_text acs)) = true.
Proof. destruct acs; reflexivity. Qed.

(** Head of the rest of the pattern after the stars. *)
Lemma nonstar_hd ts pcs : Forall token_ok ts -> nonstar_head ts ->
  not_star (hd 0 (component_text ts ++ pattern_text pcs)) = true.
Proof.
  intros Hok Hns. destruct ts as [|t ts].
  - cbn [component_text map concat app]. destruct pcs; reflexivity.
  - inversion Hok as [|? ? Ht _]; subst. destruct (token_text_hd t Ht) as (c & l & E & H1 & H2 & H3).
    rewrite component_text_cons, E. cbn [app hd]. unfold not_star, c_star.
    destruct (c =? 42) eqn:E2; [|reflexivity]. apply Z.eqb_eq in E2. apply H3 in E2. subst.
    exfalso. eapply Hns. reflexivity.
Qed.

Lemma nonempty_hd_not_end t ts l : token_ok t ->
  is_end (hd 0 (component_text (t :: ts) ++ l)) = false.
Proof.
  intros Ht. destruct (token_text_hd t Ht) as (c & l' & E & H1 & H2 & H3).
  rewrite component_text_cons, E. cbn [app hd]. unfold is_end, c_slash.
  apply orb_false_iff; split; apply Z.eqb_neq; assumption.
Qed.

(** Token texts contain no slash or NUL. *)
Lemma join_chars l : Forall (fun w => w <> [] /\ Forall (fun c => ~ In c [0; 47; 44; 125]) w) l ->
  Forall (fun c => c <> 0 /\ c <> 47 /\ c <> 125) (join 44 l).
Proof.
  assert (Hw : forall w, Forall (fun c => ~ In c [0; 47; 44; 125]) w ->
     Forall (fun c => c <> 0 /\ c <> 47 /\ c <> 125) w).
  { intros w. apply Forall_impl. intros c Hc. cbn in Hc. lia. }
  induction 1 as [|w l [_ H] Hl IH]; [constructor|].
  destruct l as [|w' l]; [cbn; auto|].
  change (join 44 (w :: w' :: l)) with (w ++ 44 :: join 44 (w' :: l)).
  apply Forall_app. split; [auto|]. constructor; [lia | exact IH].
Qed.

Lemma token_text_chars t : token_ok t -> Forall (fun c => is_end c = false) (token_text t).
Proof.
  assert (Hc : forall c, c <> 0 -> c <> 47 -> is_end c = false).
  { intros c H1 H2. unfold is_end, c_slash. apply orb_false_iff; split; apply Z.eqb_neq; assumption. }
  destruct t as [c| | |neg body|alts]; cbn [token_text token_ok]; intros H.
  - constructor; [|constructor]. unfold plain_char in H. cbn in H. apply Hc; lia.
  - repeat constructor.
  - repeat constructor.
  - destruct H as (_ & Hb & _). cbn [app]. constructor; [reflexivity|].
    apply Forall_app; split; [destruct neg; repeat constructor|].
    apply Forall_app; split; [|repeat constructor].
    eapply Forall_impl; [|exact Hb]. intros c Hi. cbn in Hi. apply Hc; lia.
  - destruct H as (_ & Hall). cbn [app]. constructor; [reflexivity|].
    apply Forall_app; split; [|repeat constructor].
    eapply Forall_impl; [|apply join_chars, Hall]. intros c (H1 & H2 & _). auto.
Qed.

Lemma component_text_chars ts : Forall token_ok ts -> Forall (fun c => is_end c = false) (component_text ts).
Proof.
  induction 1 as [|t ts Ht _ IH]; [constructor|]. rewrite component_text_cons.
  apply Forall_app. split; [now apply token_text_chars | exact IH].
Qed.

(** * Costs *)

Lemma token_cost_nonneg n t : 0 <= n -> 0 <= token_cost n t.
Proof. intros H. destruct t; cbn; try lia. apply zlen_nonneg. Qed.

Lemma component_cost_nonneg n ts : 0 <= n -> 0 <= component_cost n ts.
Proof.
  intros H. unfold component_cost. induction ts as [|t ts IH]; cbn; [lia|].
  pose proof (token_cost_nonneg n t H). lia.
Qed.

Lemma component_cost_mono n m ts : 0 <= n <= m -> component_cost n ts <= component_cost m ts.
Proof.
  intros H. unfold component_cost. induction ts as [|t ts IH]; cbn [fold_right]; [lia|].
  assert (token_cost n t <= token_cost m t) by (destruct t; cbn; lia). lia.
Qed.

Lemma component_cost_cons n t ts : component_cost n (t :: ts) = token_cost n t + component_cost n ts.
Proof. reflexivity. Qed.

Lemma component_cost_stars n k ts : 0 <= n -> component_cost n ts <= component_cost n (repeat TStar k ++ ts).
Proof.
  intros H. induction k as [|k IH]; [cbn [repeat app]; lia|].
  cbn [repeat app]. rewrite component_cost_cons. cbn [token_cost]. lia.
Qed.

Definition item := (component * list Z)%type.
Definition cost (x : item) : Z := component_cost (zlen (snd x)) (fst x).

Lemma cost_nonneg x : 0 <= cost x.
Proof. apply component_cost_nonneg, zlen_nonneg. Qed.

(** The stack of items fits below the limit whatever is pushed for them. *)
Fixpoint fits (l : list item) : Prop :=
  match l with
  | [] => True
  | x :: l' => zlen l' + 1 + cost x <= 1000 /\ fits l'
  end.

Lemma fits_app cs l : fits l -> (forall x, In x cs -> zlen cs + zlen l + cost x <= 1000) -> fits (cs ++ l).
Proof.
  intros Hl. induction cs as [|x cs IH]; intros H; cbn [app fits]; [assumption|]. split.
  - specialize (H x (or_introl eq_refl)). zl. lia.
  - apply IH. intros y Hy. specialize (H y (or_intror Hy)). zl. lia.
Qed.

Definition matches (x : item) : Prop := tokens_match (fst x) (snd x).

(** * Simulation *)

Section Sim.
Context (P A : list Z).

Definition achar (c : Z) : Prop := c <> 0 /\ c <> 47.

Lemma achar_not_end c : achar c -> is_end c = false.
Proof.
  intros [H1 H2]. unfold is_end, c_slash. apply orb_false_iff; split; apply Z.eqb_neq; assumption.
Qed.

(** State [s] stands in a component with tokens [ts] and characters [w] left. *)
Definition rep (pcs : pattern) (acs : address) (x : item) (s : Z * Z) : Prop :=
  exists ppre abase u,
    P = ppre ++ component_text (fst x) ++ pattern_text pcs /\ fst s = zlen ppre /\
    Forall token_ok (fst x) /\
    A = (abase ++ 47 :: u) ++ snd x ++ address_text acs /\ snd s = zlen (abase ++ 47 :: u) /\
    Forall achar u /\ Forall achar (snd x) /\ (u = [] -> snd x <> [42]).

Inductive sim (pcs : pattern) (acs : address) (x : item) (l : list item) (s : Z * Z) (st : stack)
  : lres stack (res mres) -> Prop :=
| Sim_step st' l' :
    Forall2 (rep pcs acs) l' st' ->
    (Exists matches l' <-> Exists matches (x :: l)) ->
    (fits (x :: l) -> fits l') ->
    sim pcs acs x l s st (Cont st')
| Sim_limit p a : ~ fits (x :: l) -> sim pcs acs x l s st (Done (Ok (MRes ERR_BACKTRACK p a)))
| Sim_done c : matches x -> outcome pcs acs c pcs acs -> c <> 0 ->
    sim pcs acs x l s st
      (Done (Ok (MRes c (zlen P - zlen (pattern_text pcs)) (zlen A - zlen (address_text acs)))))
| Sim_next t pcs' w acs' ppre apre :
    matches x -> pcs = t :: pcs' -> acs = w :: acs' ->
    P = ppre ++ pattern_text pcs -> A = apre ++ address_text acs ->
    sim pcs acs x l s st (Cont [(zlen ppre + 1, zlen apre + 1)]).

Lemma rep_pop pcs acs x l s st : Forall2 (rep pcs acs) l st -> ~ matches x ->
  sim pcs acs x l s st (Cont st).
Proof.
  intros H1 H2. apply (Sim_step _ _ _ _ _ _ st l); auto.
  - split; intros H; [now constructor 2|]. inversion H; subst; [contradiction|assumption].
  - cbn. tauto.
Qed.

Lemma rep_replace pcs acs x l s st y s' : Forall2 (rep pcs acs) l st ->
  rep pcs acs y s' -> (matches y <-> matches x) -> cost y <= cost x ->
  sim pcs acs x l s st (Cont (s' :: st)).
Proof.
  intros H1 H2 Hm Hc. apply (Sim_step _ _ _ _ _ _ (s' :: st) (y :: l)); auto.
  - split; intros H; inversion H; subst; try (now constructor 2); constructor; now apply Hm.
  - cbn [fits]. intros [Hf1 Hf2]. split; [lia | assumption].
Qed.

Lemma rep_children pcs acs x l s st cs ys : Forall2 (rep pcs acs) l st ->
  Forall2 (rep pcs acs) ys (rev cs) -> (Exists matches ys <-> matches x) ->
  (forall y, In y ys -> zlen ys + cost y <= cost x) -> zlen ys <= cost x ->
  (length st <= LIM)%nat ->
  sim pcs acs x l s st
    (match pushn cs st with Some st' => Cont st' | None => ret_with ERR_BACKTRACK (fst s) (snd s) end).
Proof.
  intros H1 H2 Hm Hc Hn Hst. unfold pushn.
  assert (Hlen : length ys = length cs) by (rewrite <- (rev_length cs); eapply Forall2_len; eauto).
  assert (Hlen2 : length l = length st) by (eapply Forall2_len; eauto).
  destruct (_ <=? _)%nat eqn:E.
  - apply (Sim_step _ _ _ _ _ _ (rev cs ++ st) (ys ++ l)).
    + now apply Forall2_app.
    + rewrite Exists_app, Exists_cons. tauto.
    + cbn [fits]. intros [Hf1 Hf2]. apply fits_app; auto.
      intros y Hy. specialize (Hc y Hy). lia.
  - apply Nat.leb_gt in E. apply Sim_limit. cbn [fits]. intros [Hf _].
    unfold LIM, OSC_MATCH_BACKTRACK_LIMIT, zlen in *. lia.
Qed.

(** Moving forward by a token and some characters. *)
Lemma rep_advance pcs acs ts1 ts2 w1 w2 sp sa :
  rep pcs acs (ts1 ++ ts2, w1 ++ w2) (sp, sa) ->
  rep pcs acs (ts2, w2) (sp + zlen (component_text ts1), sa + zlen w1).
Proof.
  intros (ppre & abase & u & HP & Hp & Hok & HA & Ha & Hu & Hw & Hs). cbn [fst snd] in *.
  exists (ppre ++ component_text ts1), abase, (u ++ w1). cbn [fst snd].
  apply Forall_app in Hok as [_ Hok]. apply Forall_app in Hw as [Hw1 Hw2].
  split; [|split; [|split; [|split; [|split; [|split; [|split]]]]]]; auto.
  - rewrite HP. unfold component_text. rewrite map_app, concat_app, <- !app_assoc. reflexivity.
  - zl. lia.
  - rewrite HA. rewrite <- !app_assoc. cbn [app]. rewrite <- !app_assoc. reflexivity.
  - zl. lia.
  - apply Forall_app; auto.
  - intros E. apply app_eq_nil in E as [-> ->]. cbn [app] in Hs. now apply Hs.
Qed.

Lemma rep_hd_p pcs acs ts w sp sa : rep pcs acs (ts, w) (sp, sa) ->
  rdc P sp = Ok (hd 0 (component_text ts ++ pattern_text pcs)).
Proof. intros (ppre & abase & u & HP & Hp & _). cbn [fst snd] in *. rewrite HP, Hp. apply rdc_hd. Qed.

Lemma rep_hd_a pcs acs ts w sp sa : rep pcs acs (ts, w) (sp, sa) ->
  rdc A sa = Ok (hd 0 (w ++ address_text acs)).
Proof. intros (ppre & abase & u & _ & _ & _ & HA & Ha & _). cbn [fst snd] in *. rewrite HA, Ha. apply rdc_hd. Qed.

Lemma rep_scan_stars pcs acs n ts w sp sa :
  rep pcs acs (repeat TStar n ++ ts, w) (sp, sa) -> nonstar_head ts ->
  scan (fuel_of P) not_star P sp = Ok (sp + Z.of_nat n).
Proof.
  intros (ppre & abase & u & HP & Hp & Hok & _) Hns. cbn [fst snd] in *.
  rewrite stars_text, <- app_assoc in HP. rewrite Hp.
  replace (Z.of_nat n) with (zlen (repeat 42 n)) by (unfold zlen; rewrite repeat_length; reflexivity).
  rewrite HP at 2. rewrite scan_app; auto.
  - apply Forall_app in Hok as [_ Hok]. now apply nonstar_hd.
  - clear. induction n; cbn; constructor; auto.
  - rewrite HP. apply fuel_of_app.
Qed.

Lemma rep_scan_end_a pcs acs ts w sp sa : rep pcs acs (ts, w) (sp, sa) ->
  scan (fuel_of A) is_end A sa = Ok (sa + zlen w).
Proof.
  intros (ppre & abase & u & _ & _ & _ & HA & Ha & _ & Hw & _). cbn [fst snd] in *. rewrite Ha.
  rewrite HA at 2. rewrite scan_app; auto.
  - apply address_text_hd.
  - eapply Forall_impl; [|exact Hw]. intros c. apply achar_not_end.
  - rewrite HA. apply fuel_of_app.
Qed.

(** The star-in-address test never fires on such a state. *)
Lemma rep_star_component pcs acs ts c w sp sa : rep pcs acs (ts, c :: w) (sp, sa) ->
  star_component A sa c = Ok false.
Proof.
  intros (ppre & abase & u & _ & _ & _ & HA & Ha & Hu & Hw & Hs). cbn [fst snd] in *.
  unfold star_component. destruct ((c =? c_star) && (0 <? sa)) eqn:E; [|reflexivity].
  apply andb_true_iff in E as [E _]. apply Z.eqb_eq in E. unfold c_star in E. subst c.
  destruct (rev u) as [|d ru] eqn:Eu.
  - assert (u = []) by (apply (f_equal (@rev Z)) in Eu; rewrite rev_involutive in Eu; exact Eu). subst u.
    assert (Hw1 : w <> []) by (intros ->; now apply Hs).
    rewrite Ha, HA. replace (zlen (abase ++ [47]) - 1) with (zlen abase) by (zl; lia).
    rewrite <- (app_assoc abase). cbn [app]. rewrite rdc_hd. cbn [bind hd]. cbn [Z.eqb Pos.eqb c_slash].
    replace (zlen (abase ++ [47]) + 1) with (zlen abase + 1 + 1) by (zl; lia).
    change (abase ++ 47 :: 42 :: w ++ address_text acs) with (abase ++ 47 :: 42 :: (w ++ address_text acs)).
    change (47 =? c_slash) with true. cbn iota. rewrite rdc_hd2. cbn [bind].
    destruct w as [|e w]; [congruence|]. cbn [app hd]. f_equal.
    inversion Hw as [|? ? _ Hw2]; subst. inversion Hw2; subst. now apply achar_not_end.
  - assert (u = rev ru ++ [d]) by (apply (f_equal (@rev Z)) in Eu; rewrite rev_involutive in Eu; exact Eu). subst u.
    rewrite Ha, HA. replace (zlen (abase ++ 47 :: rev ru ++ [d]) - 1) with (zlen (abase ++ 47 :: rev ru)) by (zl; lia).
    replace ((abase ++ 47 :: rev ru ++ [d]) ++ (42 :: w) ++ address_text acs)
      with ((abase ++ 47 :: rev ru) ++ d :: 42 :: w ++ address_text acs)
      by (rewrite <- !app_assoc; cbn [app]; rewrite <- !app_assoc; reflexivity).
    rewrite rdc_hd. cbn [bind hd].
    apply Forall_app in Hu as [_ Hu]. inversion Hu as [|? ? Hd _]; subst. destruct Hd as [_ Hd].
    unfold c_slash. apply Z.eqb_neq in Hd. rewrite Hd. reflexivity.
Qed.

(** ** One iteration when the address component is exhausted *)

Lemma sim_end pcs acs ts l sp sa st :
  rep pcs acs (ts, []) (sp, sa) -> Forall2 (rep pcs acs) l st ->
  sim pcs acs (ts, []) l (sp, sa) st (step P A ((sp, sa) :: st)).
Proof.
  intros Hr Hl. unfold step. rewrite (rep_hd_p _ _ _ _ _ _ Hr). cbn [lift].
  rewrite (rep_hd_a _ _ _ _ _ _ Hr). cbn [lift app].
  destruct (split_stars ts) as (n & ts' & -> & Hns).
  assert (Hok : Forall token_ok ts').
  { destruct Hr as (? & ? & ? & _ & _ & Hok & _). cbn [fst] in Hok. now apply Forall_app in Hok as [_ Hok]. }
  assert (Hm : matches (repeat TStar n ++ ts', []) <-> ts' = []).
  { unfold matches. cbn [fst snd]. destruct n as [|n].
    - cbn [repeat app]. split.
      + intros H. destruct ts' as [|t ts']; [reflexivity|]. inversion Hok; subst.
        exfalso. eapply tokens_match_empty; [| |exact H]; auto. intros ->. eapply Hns. reflexivity.
      + intros ->. constructor.
    - rewrite tokens_match_stars. split.
      + intros (u & v & E & H). symmetry in E. apply app_eq_nil in E as [-> ->].
        destruct ts' as [|t ts']; [reflexivity|]. inversion Hok; subst.
        exfalso. eapply tokens_match_empty; [| |exact H]; auto. intros ->. eapply Hns. reflexivity.
      + intros ->. exists [], []. split; [reflexivity|constructor]. }
  pose proof (rep_scan_stars _ _ _ _ _ _ _ Hr Hns) as Hscan.
  assert (Hadv : rep pcs acs (ts', []) (sp + Z.of_nat n, sa)).
  { pose proof (rep_advance pcs acs (repeat TStar n) ts' [] [] sp sa Hr) as H.
    rewrite (@zlen_nil Z), Z.add_0_r in H.
    rewrite <- (app_nil_r (repeat TStar n)), stars_text, app_nil_r in H.
    unfold zlen in H at 1. now rewrite repeat_length in H. }
  pose proof (rep_hd_p _ _ _ _ _ _ Hadv) as Hhd.
  assert (Hpo : ts' = [] -> sp + Z.of_nat n = zlen P - zlen (pattern_text pcs)).
  { intros ->. destruct Hadv as (pp & ? & ? & HP & Hp & _). cbn [fst snd] in *. rewrite Hp, HP. zl.
    change (component_text []) with (@nil Z). zl. lia. }
  assert (Hao : sa = zlen A - zlen (address_text acs)).
  { destruct Hr as (? & ab & u & _ & _ & _ & HA & Ha & _). cbn [fst snd] in *. rewrite Ha, HA. zl. lia. }
  assert (Hendhd : forall t ts2, ts' = t :: ts2 -> is_end (hd 0 (component_text ts' ++ pattern_text pcs)) = false).
  { intros t ts2 ->. inversion Hok; subst. now apply nonempty_hd_not_end. }
  destruct acs as [|w acs].
  - (* address exhausted *)
    cbn [address_text map concat hd]. change (0 =? 0) with true. cbn iota.
    rewrite Hscan. cbn [lift]. rewrite Hhd. cbn [lift].
    destruct ts' as [|t ts2].
    + cbn [component_text map concat app]. destruct pcs as [|t pcs].
      * cbn [pattern_text map concat hd]. change (0 =? 0) with true. cbn iota.
        unfold ret_with. change (OSC_MATCH_PATTERN_COMPLETE + OSC_MATCH_ADDRESS_COMPLETE) with 3.
        rewrite Hpo, Hao by reflexivity. apply (Sim_done _ _ _ _ _ _ 3); [now apply Hm | constructor | lia].
      * cbn [pattern_text map concat app hd]. change (47 =? 0) with false. cbn iota.
        change (47 =? c_slash) with true. cbn iota. unfold ret_with.
        change OSC_MATCH_ADDRESS_COMPLETE with 1.
        rewrite Hpo, Hao by reflexivity. apply (Sim_done _ _ _ _ _ _ 1); [now apply Hm | constructor | lia].
    + specialize (Hendhd t ts2 eq_refl). unfold is_end in Hendhd. apply orb_false_iff in Hendhd as [E1 E2].
      rewrite E1, E2. apply rep_pop; auto. rewrite Hm. discriminate.
  - (* address at a slash *)
    cbn [address_text map concat hd app]. change (47 =? 0) with false. cbn iota.
    change (47 =? c_slash) with true. cbn iota.
    destruct n as [|n].
    + cbn [repeat app] in *. rewrite Z.add_0_r in *. destruct ts' as [|t ts2].
      * cbn [component_text map concat app]. destruct pcs as [|t pcs].
        -- cbn [pattern_text map concat hd]. change (0 =? c_slash) with false. change (0 =? 0) with true. cbn iota.
           unfold ret_with. change OSC_MATCH_PATTERN_COMPLETE with 2.
           rewrite Hpo, Hao by reflexivity. apply (Sim_done _ _ _ _ _ _ 2); [now apply Hm | constructor | lia].
        -- cbn [pattern_text map concat app hd]. change (47 =? c_slash) with true. cbn iota.
           destruct Hr as (pp & ab & u & HP & Hp & _ & HA & Ha & _). cbn [fst snd] in *. rewrite Hp, Ha.
           eapply Sim_next; [now apply Hm | reflexivity | reflexivity | exact HP | exact HA].
      * specialize (Hendhd t ts2 eq_refl). pose proof (nonstar_hd _ pcs Hok Hns) as Hst.
        unfold is_end in Hendhd. apply orb_false_iff in Hendhd as [E1 E2].
        unfold not_star in Hst. apply negb_true_iff in Hst. rewrite E1, E2, Hst.
        apply rep_pop; auto. rewrite Hm. discriminate.
    + replace (hd 0 (component_text (repeat TStar (S n) ++ ts') ++ pattern_text pcs)) with 42 by reflexivity.
      change (42 =? c_slash) with false. change (42 =? 0) with false. change (42 =? c_star) with true. cbn iota.
      rewrite Hscan. cbn [lift].
      apply (rep_replace _ _ _ _ _ _ (ts', [])); auto.
      * rewrite Hm. unfold matches. cbn [fst snd]. split.
        -- intros H. destruct ts' as [|t ts']; [reflexivity|]. inversion Hok; subst.
           exfalso. eapply tokens_match_empty; [| |exact H]; auto. intros ->. eapply Hns. reflexivity.
        -- intros ->. constructor.
      * unfold cost. cbn [fst snd]. apply component_cost_stars. apply zlen_nonneg.
Qed.

(** ** One iteration inside the address component *)

Lemma prefix_in_component v w acs : Forall achar v ->
  prefixb v (w ++ address_text acs) = true <-> exists z, w = v ++ z.
Proof.
  intros Hv. rewrite prefixb_spec. split.
  - revert w. induction Hv as [|c v Hc _ IH]; intros w [z Hz]; [eexists; reflexivity|].
    destruct w as [|d w].
    + exfalso. destruct acs as [|a acs]; cbn in Hz; inversion Hz; subst. destruct Hc as [_ Hc]. congruence.
    + cbn in Hz. inversion Hz; subst. destruct (IH w) as [z' ->]; [eauto|]. exists z'. reflexivity.
  - intros [z ->]. exists (z ++ address_text acs). symmetry. apply app_assoc.
Qed.

Lemma alt_chars_achar v : Forall alt_char v -> Forall achar v.
Proof. apply Forall_impl. intros c Hc. unfold alt_char in Hc. cbn in Hc. unfold achar. lia. Qed.

(** Items for the alternatives. *)
Lemma alt_items pcs acs ts alts0 w sp sa :
  rep pcs acs (TAlt alts0 :: ts, w) (sp, sa) ->
  forall alts, (forall v, In v alts -> In v alts0) ->
  exists ys, Forall2 (rep pcs acs) ys
       (alt_states (sp + zlen (token_text (TAlt alts0))) sa (w ++ address_text acs) alts) /\
    (Exists matches ys <-> exists v z, In v alts /\ w = v ++ z /\ tokens_match ts z) /\
    (length ys <= length alts)%nat /\ (forall y, In y ys -> fst y = ts /\ (zlen (snd y) <= zlen w)).
Proof.
  intros Hr alts. induction alts as [|v alts IH]; intros Hin.
  - exists []. split; [constructor|]. split; [|split; [cbn; lia|intros ? []]].
    split; [intros H; inversion H | intros (v & z & [] & _)].
  - destruct IH as (ys & Hrep & Hex & Hlen & Hy); [intros; apply Hin; now right|].
    assert (Hv : Forall alt_char v).
    { destruct Hr as (? & ? & ? & _ & _ & Hok & _). cbn [fst] in Hok. inversion Hok as [|? ? Hal _]; subst. cbn in Hal. destruct Hal as [_ Hall].
      rewrite Forall_forall in Hall. apply (Hall v). apply Hin. now left. }
    unfold alt_states. cbn [filter]. destruct (prefixb v (w ++ address_text acs)) eqn:E.
    + apply prefix_in_component in E; [|now apply alt_chars_achar]. destruct E as [z Hz].
      exists ((ts, z) :: ys). split; [|split; [|split]].
      * cbn [map]. constructor; [|exact Hrep].
        pose proof (rep_advance pcs acs [TAlt alts0] ts v z sp sa) as H. cbn [app] in H.
        rewrite <- Hz in H. specialize (H Hr). unfold component_text in H at 1. cbn [map concat] in H.
        rewrite app_nil_r in H. exact H.
      * rewrite Exists_cons, Hex. split.
        -- intros [Hmz | (v' & z' & H1 & H2 & H3)].
           ++ exists v, z. repeat split; auto. now left.
           ++ exists v', z'. repeat split; auto. now right.
        -- intros (v' & z' & [<-|H1] & H2 & H3).
           ++ left. assert (z' = z) by (rewrite Hz in H2; now apply app_inv_head in H2). subst. exact H3.
           ++ right. eauto.
      * cbn. lia.
      * intros y [<-|Hin2]; [|now apply Hy]. cbn [fst snd]. split; [reflexivity|]. rewrite Hz. zl.
        pose proof (zlen_nonneg v). lia.
    + exists ys. split; [exact Hrep|]. split; [|split; [cbn; lia|exact Hy]].
      rewrite Hex. split.
      * intros (v' & z' & H1 & H2 & H3). exists v', z'. repeat split; auto. now right.
      * intros (v' & z' & [<-|H1] & H2 & H3); [|eauto].
        exfalso. assert (prefixb v (w ++ address_text acs) = true); [|congruence].
        apply prefix_in_component; [now apply alt_chars_achar|eauto].
Qed.

(** Items for a star. *)
Lemma star_items pcs acs n ts w sp sa :
  rep pcs acs (repeat TStar (S n) ++ ts, w) (sp, sa) ->
  forall k, (k <= length w)%nat ->
  exists ys, Forall2 (rep pcs acs) ys (star_states (sp + Z.of_nat (S n)) sa k) /\
    (Exists matches ys <-> exists u v, w = u ++ v /\ (length u < k)%nat /\ tokens_match ts v) /\
    (forall y, In y ys -> fst y = ts /\ (zlen (snd y) <= zlen w)).
Proof.
  intros Hr k. induction k as [|k IH]; intros Hk.
  - exists []. split; [constructor|]. split; [|intros ? []].
    split; [intros H; inversion H | intros (u & v & _ & H & _); lia].
  - destruct IH as (ys & Hrep & Hex & Hy); [lia|].
    set (u := firstn k w). set (v := skipn k w).
    assert (Hw : w = u ++ v) by (symmetry; apply firstn_skipn).
    assert (Hu : length u = k) by (unfold u; rewrite firstn_length; lia).
    exists ((ts, v) :: ys). split; [|split].
    + cbn [star_states]. constructor; [|exact Hrep].
      pose proof (rep_advance pcs acs (repeat TStar (S n)) ts u v sp sa) as H. rewrite <- Hw in H. specialize (H Hr).
      replace (zlen (component_text (repeat TStar (S n)))) with (Z.of_nat (S n)) in H.
      2:{ rewrite <- (app_nil_r (repeat TStar (S n))), stars_text. unfold zlen. rewrite app_length, repeat_length. cbn [component_text map concat length]. lia. }
      replace (zlen u) with (Z.of_nat k) in H by (unfold zlen; lia). exact H.
    + rewrite Exists_cons, Hex. split.
      * intros [Hm|(u' & v' & H1 & H2 & H3)].
        -- exists u, v. repeat split; auto. lia.
        -- exists u', v'. repeat split; auto.
      * intros (u' & v' & H1 & H2 & H3).
        destruct (Nat.eq_dec (length u') k) as [E|E].
        -- left. assert (v' = v).
           { unfold v. rewrite H1, <- E, skipn_app, skipn_all, Nat.sub_diag. reflexivity. }
           unfold matches; cbn [fst snd]. rewrite <- H. exact H3.
        -- right. exists u', v'. repeat split; auto. lia.
    + intros y [<-|Hin]; [|now apply Hy]. cbn [fst snd]. split; [reflexivity|]. rewrite Hw. zl.
      pose proof (zlen_nonneg u). lia.
Qed.

Lemma Forall2_rev' {X Y} (R : X -> Y -> Prop) l1 l2 : Forall2 R l1 l2 -> Forall2 R (rev l1) (rev l2).
Proof.
  induction 1; cbn; [constructor|]. apply Forall2_app; auto.
Qed.

Lemma Exists_rev' {X} (Q : X -> Prop) l : Exists Q (rev l) <-> Exists Q l.
Proof.
  rewrite !Exists_exists. split; intros (x & H1 & H2); exists x; split; auto;
    [now apply in_rev | now apply -> in_rev].
Qed.

Lemma sim_mid pcs acs ts c w l sp sa st :
  rep pcs acs (ts, c :: w) (sp, sa) -> Forall2 (rep pcs acs) l st -> (length st <= LIM)%nat ->
  sim pcs acs (ts, c :: w) l (sp, sa) st (step P A ((sp, sa) :: st)).
Proof.
  intros Hr Hl Hst. unfold step. rewrite (rep_hd_p _ _ _ _ _ _ Hr). cbn [lift].
  rewrite (rep_hd_a _ _ _ _ _ _ Hr). cbn [lift app hd].
  assert (Hc : achar c).
  { destruct Hr as (? & ? & ? & _ & _ & _ & _ & _ & _ & Hw & _). cbn [snd] in Hw. now inversion Hw. }
  assert (Hok : Forall token_ok ts).
  { destruct Hr as (? & ? & ? & _ & _ & Hok & _). exact Hok. }
  pose proof (achar_not_end c Hc) as Hce. unfold is_end in Hce. apply orb_false_iff in Hce as [E1 E2].
  rewrite E2, E1. rewrite (rep_star_component _ _ _ _ _ _ _ Hr). cbn [lift].
  unfold step_switch. destruct ts as [|t ts].
  { (* end of the pattern component *)
    cbn [component_text map concat app]. rewrite pattern_text_hd.
    apply rep_pop; auto. unfold matches. cbn [fst snd]. rewrite tokens_match_nil. discriminate. }
  inversion Hok as [|? ? Ht Hts]; subst.
  rewrite nonempty_hd_not_end by assumption.
  assert (Hadv1 : rep pcs acs (ts, w) (sp + zlen (token_text t), sa + 1)).
  { pose proof (rep_advance pcs acs [t] ts [c] w sp sa Hr) as H.
    unfold component_text in H at 1. cbn [map concat] in H. rewrite app_nil_r in H.
    replace (zlen [c]) with 1 in H by reflexivity. exact H. }
  assert (Hcost1 : cost (ts, w) <= cost (t :: ts, c :: w)).
  { unfold cost. cbn [fst snd]. rewrite component_cost_cons. pose proof (zlen_nonneg w). zl.
    pose proof (token_cost_nonneg (1 + zlen w) t). pose proof (component_cost_mono (zlen w) (1 + zlen w) ts). lia. }
  destruct t as [x| | |neg body|alts].
  - (* literal *)
    cbn [component_text map concat token_text app hd]. cbn [token_text] in Hadv1.
    replace (zlen [x]) with 1 in Hadv1 by reflexivity.
    cbn in Ht. unfold plain_char in Ht. cbn in Ht.
    replace (x =? c_quest) with false by (unfold c_quest; lia).
    replace (x =? c_lbrack) with false by (unfold c_lbrack; lia).
    replace (x =? c_lbrace) with false by (unfold c_lbrace; lia).
    replace (x =? c_rbrace) with false by (unfold c_rbrace; lia).
    replace (x =? c_rbrack) with false by (unfold c_rbrack; lia).
    replace (x =? c_star) with false by (unfold c_star; lia).
    destruct (x =? c) eqn:E.
    + apply (rep_replace _ _ _ _ _ _ (ts, w)); auto. unfold matches. cbn [fst snd].
      rewrite tokens_match_one_char by exact I. rewrite tm_char. split; [|tauto]. intros H; split; [lia|auto].
    + apply rep_pop; auto. unfold matches. cbn [fst snd].
      rewrite tokens_match_one_char by exact I. rewrite tm_char. lia.
  - (* ? *)
    cbn [component_text map concat token_text app hd]. cbn [token_text] in Hadv1.
    replace (zlen [63]) with 1 in Hadv1 by reflexivity.
    change (63 =? c_quest) with true. cbn iota.
    apply (rep_replace _ _ _ _ _ _ (ts, w)); auto. unfold matches. cbn [fst snd].
    rewrite tokens_match_one_char by exact I. split; [|tauto]. intros H; split; [constructor|auto].
  - (* star *)
    replace (hd 0 (component_text (TStar :: ts) ++ pattern_text pcs)) with 42 by reflexivity.
    change (42 =? c_quest) with false. change (42 =? c_lbrack) with false. change (42 =? c_lbrace) with false.
    change (42 =? c_rbrace) with false. change (42 =? c_rbrack) with false. change (42 =? c_star) with true.
    cbn iota. clear Hadv1.
    destruct (split_stars ts) as (n & ts' & -> & Hns).
    change (TStar :: repeat TStar n ++ ts') with (repeat TStar (S n) ++ ts') in *.
    apply Forall_app in Hts as [_ Hts].
    assert (Hscan : scan (fuel_of P) not_star P (sp + 1) = Ok (sp + Z.of_nat (S n))).
    { pose proof (rep_advance pcs acs [TStar] (repeat TStar n ++ ts') [] (c :: w) sp sa Hr) as H.
      cbn [component_text map concat token_text app] in H. replace (zlen [42]) with 1 in H by reflexivity.
      rewrite (rep_scan_stars _ _ _ _ _ _ _ H Hns). f_equal. lia. }
    rewrite Hscan. cbn [lift].
    assert (Hadv : rep pcs acs (ts', c :: w) (sp + Z.of_nat (S n), sa)).
    { pose proof (rep_advance pcs acs (repeat TStar (S n)) ts' [] (c :: w) sp sa Hr) as H.
      rewrite (@zlen_nil Z), Z.add_0_r in H.
      rewrite <- (app_nil_r (repeat TStar (S n))), stars_text, app_nil_r in H.
      unfold zlen in H at 1. now rewrite repeat_length in H. }
    rewrite (rep_hd_p _ _ _ _ _ _ Hadv). cbn [lift].
    rewrite (rep_scan_end_a _ _ _ _ _ _ Hr). cbn [lift].
    destruct ts' as [|t2 ts2].
    + cbn [component_text map concat app]. rewrite pattern_text_hd.
      apply (rep_replace _ _ _ _ _ _ ([], [])); auto.
      * pose proof (rep_advance pcs acs [] [] (c :: w) [] (sp + Z.of_nat (S n)) sa) as H.
        cbn [app] in H. rewrite app_nil_r in H. specialize (H Hadv).
        replace (sp + Z.of_nat (S n) + zlen (component_text [])) with (sp + Z.of_nat (S n)) in H by (change (component_text []) with (@nil Z); zl; lia).
        exact H.
      * unfold matches. cbn [fst snd]. rewrite tokens_match_stars. split; intros _; [|constructor].
        exists (c :: w), []. rewrite app_nil_r. split; [reflexivity|constructor].
      * unfold cost at 1. cbn [fst snd]. pose proof (cost_nonneg (repeat TStar (S n) ++ [], c :: w)). exact H.
    + inversion Hts as [|? ? Ht2 _]; subst. rewrite nonempty_hd_not_end by assumption.
      replace (sa + zlen (c :: w) - 1) with (sa + Z.of_nat (length w)) by (unfold zlen; cbn [length]; lia).
      rewrite star_loop_spec; auto.
      2:{ destruct Hr as (? & ab & u & _ & _ & _ & HA & _). rewrite HA. cbn [fst snd].
          unfold fuel_of. rewrite !app_length. cbn [length]. lia. }
      cbn [lift].
      destruct (star_items pcs acs n (t2 :: ts2) (c :: w) sp sa Hr (S (length w))) as (ys & Hrep & Hex & Hy); [cbn [length]; lia|].
      assert (Hlen : length ys = S (length w)).
      { rewrite <- (star_states_length (sp + Z.of_nat (S n)) sa (S (length w))). eapply Forall2_len; eauto. }
      assert (Hsc : component_cost (zlen (c :: w)) (repeat TStar (S n) ++ t2 :: ts2) >=
                    zlen (c :: w) + component_cost (zlen (c :: w)) (t2 :: ts2)).
      { cbn [repeat app]. rewrite component_cost_cons. cbn [token_cost].
        pose proof (component_cost_stars (zlen (c :: w)) n (t2 :: ts2) (zlen_nonneg _)). lia. }
      assert (Hzl : zlen ys = zlen (c :: w)) by (unfold zlen; cbn [length]; lia).
      apply (rep_children _ _ _ _ (sp, sa) _ _ (rev ys)); auto.
      * now apply Forall2_rev'.
      * rewrite Exists_rev', Hex. unfold matches. cbn [fst snd]. rewrite tokens_match_stars. split.
        -- intros (u & v & H1 & _ & H3). eauto.
        -- intros (u & v & H1 & H3). exists u, v. repeat split; auto.
           assert (v <> []).
           { intros ->. eapply tokens_match_empty; [| |exact H3]; auto. intros ->. eapply Hns. reflexivity. }
           apply (f_equal (@length Z)) in H1. rewrite app_length in H1. cbn [length] in H1.
           destruct v; [congruence|]. cbn [length] in H1. lia.
      * intros y Hin. apply in_rev in Hin. apply Hy in Hin as [Hy1 Hy2].
        rewrite zlen_rev. rewrite Hzl.
        unfold cost. cbn [fst snd]. rewrite Hy1.
        pose proof (component_cost_mono (zlen (snd y)) (zlen (c :: w)) (t2 :: ts2)).
        pose proof (zlen_nonneg (snd y)). lia.
      * rewrite zlen_rev. rewrite Hzl. unfold cost. cbn [fst snd].
        pose proof (component_cost_nonneg (zlen (c :: w)) (t2 :: ts2) (zlen_nonneg _)). lia.
  - (* bracket list *)
    replace (hd 0 (component_text (TSet neg body :: ts) ++ pattern_text pcs)) with 91 by reflexivity.
    change (91 =? c_quest) with false. change (91 =? c_lbrack) with true. cbn iota.
    destruct Hr as (ppre & abase & u & HP & Hp & _ & HA & Ha & Hu & Hw & Hs). cbn [fst snd] in *.
    rewrite component_text_cons, <- app_assoc in HP.
    pose proof (range_spec ppre neg body (component_text ts ++ pattern_text pcs) (abase ++ 47 :: u)
                 ((c :: w) ++ address_text acs) Ht) as Hrange.
    rewrite <- HP, <- HA, <- Hp, <- Ha in Hrange. rewrite Hrange. cbn [lift app hd]. clear Hrange.
    destruct (eqb neg (in_bodyb body c)) eqn:Eb.
    + change (0 =? 0) with true. cbn iota. apply rep_pop; auto. unfold matches. cbn [fst snd].
      rewrite tokens_match_one_char by exact I. rewrite tm_set. intros [H _]. congruence.
    + change (1 =? 0) with false. change (1 =? 1) with true. cbn iota.
      destruct Ht as (Hne & Hb & Hbang).
      assert (Hbt : Forall (fun d => (d =? c_rbrack) || is_end d = false) body).
      { eapply Forall_impl; [|exact Hb]. intros d Hd. apply body_char_tests in Hd as [-> ->]. reflexivity. }
      set (text := 91 :: (if neg then [33] else []) ++ body).
      assert (Htext : Forall (fun d => (d =? c_rbrack) || is_end d = false) text).
      { unfold text. constructor; [reflexivity|]. apply Forall_app. split; [|exact Hbt].
        destruct neg; repeat constructor. }
      assert (HP2 : P = ppre ++ text ++ 93 :: component_text ts ++ pattern_text pcs).
      { rewrite HP. unfold text. cbn [token_text app]. rewrite <- !app_assoc. reflexivity. }
      assert (Hnext : rdc P (sp + 1) = Ok (if neg then 33 else hd 0 body)).
      { rewrite HP2, Hp. unfold text. cbn [app]. rewrite rdc_hd1. f_equal. destruct neg; [reflexivity|].
        destruct body; [congruence|reflexivity]. }
      rewrite Hnext. cbn [lift].
      replace ((if neg then 33 else hd 0 body) =? c_rbrack) with false.
      2:{ destruct neg; [reflexivity|]. destruct body as [|d body]; [congruence|]. inversion Hb; subst.
          cbn [hd]. symmetry. now apply body_char_tests. }
      cbn zeta.
      assert (Hscan : scan (fuel_of P) (fun c0 => (c0 =? c_rbrack) || is_end c0) P sp = Ok (sp + zlen text)).
      { rewrite Hp. rewrite HP2 at 2. apply scan_app; [reflexivity | exact Htext |].
        rewrite HP2. apply fuel_of_app. }
      rewrite Hscan. cbn [lift].
      assert (Hrb : rdc P (sp + zlen text) = Ok 93).
      { rewrite HP2, Hp, app_assoc. replace (zlen ppre + zlen text) with (zlen (ppre ++ text)) by (zl; lia).
        now rewrite rdc_hd. }
      rewrite Hrb. cbn [lift]. change (93 =? c_rbrack) with true. cbn iota.
      assert (Htl : zlen (token_text (TSet neg body)) = zlen text + 1).
      { unfold text. cbn [token_text app]. zl. lia. }
      rewrite Htl, Z.add_assoc in Hadv1.
      apply (rep_replace _ _ _ _ _ _ (ts, w)); auto. unfold matches. cbn [fst snd].
      rewrite tokens_match_one_char by exact I. rewrite tm_set. tauto.
  - (* alternation *)
    replace (hd 0 (component_text (TAlt alts :: ts) ++ pattern_text pcs)) with 123 by reflexivity.
    change (123 =? c_quest) with false. change (123 =? c_lbrack) with false. change (123 =? c_lbrace) with true.
    cbn iota.
    pose proof Hr as (ppre & abase & u & HP & Hp & _ & HA & Ha & Hu & Hw & Hs). cbn [fst snd] in *.
    rewrite component_text_cons, <- app_assoc in HP. cbn [token_text app] in HP.
    rewrite <- app_assoc in HP. cbn [app] in HP.
    set (rest := component_text ts ++ pattern_text pcs) in *.
    destruct Ht as [Hne Hall].
    assert (Hjc := join_chars alts Hall).
    assert (Hscan : scan (fuel_of P) (fun c0 => (c0 =? c_rbrace) || is_end c0) P sp = Ok (sp + zlen (123 :: join 44 alts))).
    { assert (HP' : P = ppre ++ (123 :: join 44 alts) ++ 125 :: rest) by (rewrite HP; reflexivity).
      rewrite Hp. rewrite HP' at 2. apply scan_app; [reflexivity| |].
      - constructor; [reflexivity|]. eapply Forall_impl; [|exact Hjc]. intros d (D1 & D2 & D3).
        unfold is_end, c_rbrace, c_slash. repeat (apply orb_false_iff; split); apply Z.eqb_neq; assumption.
      - rewrite HP'. apply fuel_of_app. }
    rewrite Hscan. cbn [lift].
    assert (Hrb : rdc P (sp + zlen (123 :: join 44 alts)) = Ok 125).
    { assert (HP' : P = (ppre ++ 123 :: join 44 alts) ++ 125 :: rest) by (rewrite HP, <- app_assoc; reflexivity).
      rewrite HP', Hp. replace (zlen ppre + zlen (123 :: join 44 alts)) with (zlen (ppre ++ 123 :: join 44 alts)) by (zl; lia).
      now rewrite rdc_hd. }
    rewrite Hrb. cbn [lift]. change (125 =? c_rbrace) with true. cbn iota.
    assert (Halt : alt_loop (fuel_of P) P A (sp + zlen (123 :: join 44 alts) + 1) sa (sp + 1) (sp + 1) st =
      Ok (pushn (alt_states (sp + zlen (token_text (TAlt alts))) sa ((c :: w) ++ address_text acs) alts) st)).
    { replace (sp + zlen (token_text (TAlt alts))) with (sp + zlen (123 :: join 44 alts) + 1)
        by (cbn [token_text app]; zl; lia).
      assert (HP' : P = (ppre ++ [123]) ++ join 44 alts ++ 125 :: rest) by (rewrite HP, <- app_assoc; reflexivity).
      rewrite Hp. replace (zlen ppre + 1) with (zlen (ppre ++ [123])) by (zl; lia). rewrite Ha.
      rewrite HP' at 2. rewrite HA at 1. apply alt_loop_spec; auto.
      - eapply Forall_impl; [|exact Hall]. intros v [_ Hv]. exact Hv.
      - rewrite HP'. apply fuel_of_app. }
    rewrite Halt. cbn [lift]. clear Halt.
    destruct (alt_items pcs acs ts alts (c :: w) sp sa Hr alts (fun v H => H)) as (ys & Hrep & Hex & Hlen & Hy).
    assert (Hcost : cost (TAlt alts :: ts, c :: w) = zlen alts + component_cost (zlen (c :: w)) ts) by reflexivity.
    assert (Hzl : zlen ys <= zlen alts) by (unfold zlen; lia).
    apply (rep_children _ _ _ _ (sp, sa) _ _ (rev ys)); auto.
    + now apply Forall2_rev'.
    + rewrite Exists_rev', Hex. unfold matches. cbn [fst snd]. rewrite tokens_match_cons. split.
      * intros (v & z & H1 & H2 & H3). exists v, z. repeat split; auto. now constructor.
      * intros (u' & v & H1 & H2 & H3). inversion H2; subst. exists u', v. auto.
    + intros y Hin. apply in_rev in Hin. apply Hy in Hin as [Hy1 Hy2].
      rewrite zlen_rev. change (zlen ys + cost y <= zlen alts + component_cost (zlen (c :: w)) ts).
      unfold cost. cbn [fst snd]. rewrite Hy1.
      pose proof (component_cost_mono (zlen (snd y)) (zlen (c :: w)) ts).
      pose proof (zlen_nonneg (snd y)). lia.
    + rewrite zlen_rev. change (zlen ys <= zlen alts + component_cost (zlen (c :: w)) ts).
      pose proof (component_cost_nonneg (zlen (c :: w)) ts (zlen_nonneg _)). lia.
Qed.

Lemma sim_step pcs acs x l s st :
  rep pcs acs x s -> Forall2 (rep pcs acs) l st -> (length st <= LIM)%nat ->
  sim pcs acs x l s st (step P A (s :: st)).
Proof.
  destruct x as [ts [|c w]], s as [sp sa]; intros; [apply sim_end | apply sim_mid]; assumption.
Qed.

(** ** A whole run *)

Definition result_of (c : Z) (p' : pattern) (a' : address) : mres :=
  if c =? 0 then MRes 0 0 0
  else MRes c (zlen P - zlen (pattern_text p')) (zlen A - zlen (address_text a')).

Definition pairs_fit (pcs : pattern) (acs : address) : Prop :=
  forall t w, In (t, w) (combine pcs acs) -> component_cost (zlen w) t < 1000.

(** What a run can return, when the items below stand for the stack. *)
Definition answer (pcs : pattern) (acs : address) (l : list item) (r : res mres) : Prop :=
  (exists p a, r = Ok (MRes ERR_BACKTRACK p a) /\ ~ (fits l /\ pairs_fit pcs acs)) \/
  (Exists matches l /\ exists c p' a', outcome pcs acs c p' a' /\ r = Ok (result_of c p' a')) \/
  (~ Exists matches l /\ r = Ok (MRes 0 0 0)).

(** At the beginning of a component. *)
Definition at_start (t : component) (w : list Z) (pcs : pattern) (acs : address) (s : Z * Z) : Prop :=
  exists ppre abase,
    P = ppre ++ component_text t ++ pattern_text pcs /\ fst s = zlen ppre /\ Forall token_ok t /\
    A = (abase ++ [47]) ++ w ++ address_text acs /\ snd s = zlen (abase ++ [47]) /\ Forall achar w.

Definition start_answer (pcs : pattern) (acs : address) (r : res mres) : Prop :=
  (exists p a, r = Ok (MRes ERR_BACKTRACK p a) /\ ~ pairs_fit pcs acs) \/
  (exists c p' a', outcome pcs acs c p' a' /\ r = Ok (result_of c p' a')).

Lemma start_from_answer t w pcs acs s r :
  w <> [42] -> at_start t w pcs acs s ->
  answer pcs acs [(t, w)] r -> start_answer (t :: pcs) (w :: acs) r.
Proof.
  intros Hw Hs [(p & a & -> & Hn) | [(Hex & c & p' & a' & Ho & ->) | (Hn & ->)]].
  - left. exists p, a. split; [reflexivity|]. intros Hp. apply Hn. split.
    + cbn [fits]. split; [|exact I]. specialize (Hp t w (or_introl eq_refl)). unfold cost. cbn [fst snd]. zl. lia.
    + intros t' w' Hin. apply Hp. now right.
  - right. exists c, p', a'. split; [|reflexivity]. apply O_step; [|assumption]. right.
    inversion Hex; subst; [assumption|]. inversion H0.
  - right. exists 0, (t :: pcs), (w :: acs). split; [|reflexivity]. apply O_fail.
    intros [E|Hm]; [congruence|]. apply Hn. now constructor.
Qed.

Lemma at_start_rep t w pcs acs s : w <> [42] -> at_start t w pcs acs s -> rep pcs acs (t, w) s.
Proof.
  intros Hw (ppre & abase & HP & Hp & Hok & HA & Ha & Hac).
  exists ppre, abase, []. cbn [fst snd]. repeat split; auto.
Qed.

(** A star component of the address jumps over the pattern component. *)
Lemma step_star_component t pcs acs s :
  at_start t [42] pcs acs s ->
  exists s', step P A [s] = Cont [s'] /\ rep pcs acs ([], []) s'.
Proof.
  intros (ppre & abase & HP & Hp & Hok & HA & Ha & Hac). destruct s as [sp sa]. cbn [fst snd] in *.
  assert (Hpos : 0 < sa) by (rewrite Ha; zl; pose proof (zlen_nonneg abase); lia).
  unfold step.
  assert (E0 : exists p0, rdc P sp = Ok p0) by (eexists; rewrite HP, Hp; apply rdc_hd). destruct E0 as [p0 E0].
  rewrite E0. cbn [lift].
  assert (E1 : rdc A sa = Ok 42) by (rewrite HA, Ha, rdc_hd; reflexivity).
  rewrite E1. cbn [lift]. change (42 =? 0) with false. change (42 =? c_slash) with false. cbn iota.
  assert (Hsc : star_component A sa 42 = Ok true).
  { unfold star_component. change (42 =? c_star) with true. replace (0 <? sa) with true by lia. cbn [andb].
    rewrite Ha, HA. replace (zlen (abase ++ [47]) - 1) with (zlen abase) by (zl; lia).
    rewrite <- (app_assoc abase). cbn [app]. rewrite rdc_hd. cbn [bind hd]. change (47 =? c_slash) with true. cbn iota.
    replace (zlen (abase ++ [47]) + 1) with (zlen abase + 1 + 1) by (zl; lia).
    rewrite rdc_hd2. cbn [bind]. f_equal. apply address_text_hd. }
  rewrite Hsc. cbn [lift].
  assert (Hs1 : scan (fuel_of A) is_end A sa = Ok (sa + zlen [42])).
  { rewrite Ha. rewrite HA at 2. apply scan_app; [apply address_text_hd | repeat constructor |]. rewrite HA. apply fuel_of_app. }
  rewrite Hs1. cbn [lift].
  assert (Hs2 : scan (fuel_of P) is_end P sp = Ok (sp + zlen (component_text t))).
  { rewrite Hp. rewrite HP at 2. apply scan_app; [apply pattern_text_hd | now apply component_text_chars |]. rewrite HP. apply fuel_of_app. }
  rewrite Hs2. cbn [lift].
  eexists. split; [reflexivity|].
  exists (ppre ++ component_text t), abase, [42]. cbn [fst snd app].
  split; [|split; [|split; [|split; [|split; [|split; [|split]]]]]]; auto.
  - rewrite HP. cbn [component_text map concat app]. now rewrite app_assoc.
  - zl. lia.
  - rewrite HA, <- !app_assoc. reflexivity.
  - rewrite Ha. zl. lia.
  - discriminate.
Qed.

Lemma address_text_cons w acs : address_text (w :: acs) = 47 :: w ++ address_text acs.
Proof. reflexivity. Qed.
Lemma pattern_text_cons t pcs : pattern_text (t :: pcs) = 47 :: component_text t ++ pattern_text pcs.
Proof. reflexivity. Qed.

(** Reaching the slashes in front of both component lists. *)
Lemma next_at_start t pcs w acs ppre apre :
  P = ppre ++ pattern_text (t :: pcs) -> A = apre ++ address_text (w :: acs) ->
  Forall token_ok t -> Forall achar w ->
  at_start t w pcs acs (zlen ppre + 1, zlen apre + 1).
Proof.
  intros HP HA Ht Hw. exists (ppre ++ [47]), apre. cbn [fst snd].
  split; [|split; [|split; [|split; [|split]]]]; auto.
  - rewrite HP, pattern_text_cons, <- app_assoc. reflexivity.
  - zl. lia.
  - rewrite HA, address_text_cons, <- app_assoc. reflexivity.
  - zl. lia.
Qed.

Lemma run_answer st r : runs (step P A) st r ->
  (forall pcs acs l, Forall (Forall token_ok) pcs -> Forall (Forall achar) acs ->
     Forall2 (rep pcs acs) l st -> (length st <= LIM)%nat -> answer pcs acs l r) /\
  (forall t w pcs acs s, Forall (Forall token_ok) pcs -> Forall (Forall achar) acs ->
     st = [s] -> at_start t w pcs acs s -> w = [42] -> start_answer (t :: pcs) (w :: acs) r).
Proof.
  induction 1 as [st r Hstep | st st' r Hstep Hruns [IH1 IH2]].
  - split.
    + intros pcs acs l Hpcs Hacs Hl Hlen. inversion Hl as [|x s l' st2 Hx Hl']; subst.
      * cbn in Hstep. inversion Hstep; subst. right. right. split; [|reflexivity]. intros H; inversion H.
      * cbn [length] in Hlen.
        pose proof (sim_step pcs acs x l' s st2 Hx Hl' ltac:(lia)) as Hsim.
        rewrite Hstep in Hsim. inversion Hsim; subst.
        -- left. exists p, a. split; [reflexivity|]. tauto.
        -- right. left. split; [now constructor|]. exists c, pcs, acs. split; [assumption|].
           unfold result_of. apply Z.eqb_neq in H2. now rewrite H2.
    + intros t w pcs acs s _ _ -> Hs ->.
      destruct (step_star_component t pcs acs s Hs) as (s' & Hs' & _). congruence.
  - split.
    + intros pcs acs l Hpcs Hacs Hl Hlen. inversion Hl as [|x s l' st2 Hx Hl']; subst; [discriminate|].
      cbn [length] in Hlen.
      pose proof (sim_step pcs acs x l' s st2 Hx Hl' ltac:(lia)) as Hsim.
      rewrite Hstep in Hsim. inversion Hsim; subst.
      * assert (Hlen' : (length st' <= LIM)%nat).
        { pose proof (step_safe P A (s :: st2)) as Hsafe. rewrite Hstep in Hsafe.
          apply Hsafe. split; [|cbn [length]; exact Hlen].
          assert (Hv : forall y z, rep pcs acs y z -> valid P A z).
          { intros y [p a] (pp & ab & u & HP & Hp & _ & HA & Ha & _). unfold valid. cbn [fst snd] in *.
            rewrite Hp, Ha, HP, HA. zl. pose proof (zlen_nonneg pp). pose proof (zlen_nonneg (component_text (fst y))).
            pose proof (zlen_nonneg (pattern_text pcs)). pose proof (zlen_nonneg ab). pose proof (zlen_nonneg u).
            pose proof (zlen_nonneg (snd y)). pose proof (zlen_nonneg (address_text acs)). lia. }
          constructor; [eapply Hv; eauto|]. clear -Hl' Hv. induction Hl'; constructor; eauto. }
        destruct (IH1 pcs acs l'0 Hpcs Hacs H0 Hlen') as [(p & a & -> & Hn) | [(Hex & Ho) | (Hn & ->)]].
        -- left. exists p, a. split; [reflexivity|]. tauto.
        -- right. left. split; [now apply H1 | assumption].
        -- right. right. split; [rewrite <- H1; assumption | reflexivity].
      * inversion Hpcs as [|? ? Ht Hpcs']; subst. inversion Hacs as [|? ? Hw Hacs']; subst.
        assert (Hs : at_start t w pcs' acs' (zlen ppre + 1, zlen apre + 1)) by (eapply next_at_start; eauto).
        assert (Hsa : start_answer (t :: pcs') (w :: acs') r).
        { destruct (list_eq_dec Z.eq_dec w [42]) as [->|Hne].
          - eapply IH2; eauto.
          - eapply start_from_answer; eauto. apply IH1; auto.
            + constructor; [|constructor]. now apply at_start_rep.
            + cbn. unfold LIM, OSC_MATCH_BACKTRACK_LIMIT. lia. }
        destruct Hsa as [(p & a & -> & Hn) | Ho].
        -- left. exists p, a. split; [reflexivity|]. tauto.
        -- right. left. split; [now constructor | assumption].
    + intros t w pcs acs s Hpcs Hacs -> Hs ->.
      destruct (step_star_component t pcs acs s Hs) as (s' & Hs' & Hrep').
      rewrite Hs' in Hstep. inversion Hstep; subst.
      assert (Ha : answer pcs acs [([], [])] r).
      { apply IH1; auto. cbn. unfold LIM, OSC_MATCH_BACKTRACK_LIMIT. lia. }
      destruct Ha as [(p & a & -> & Hn) | [(_ & c & p' & a' & Ho & ->) | (Hn & _)]].
      * left. exists p, a. split; [reflexivity|]. intros Hp. apply Hn. split.
        -- cbn. lia.
        -- intros t' w' Hin. apply Hp. now right.
      * right. exists c, p', a'. split; [|reflexivity]. apply O_step; [now left | assumption].
      * exfalso. apply Hn. constructor. constructor.
Qed.

End Sim.

(** The result of the matcher on a well-formed pattern and address. *)
Theorem osc_match_outcome pcs acs :
  pattern_ok pcs -> address_ok acs ->
  let P := pattern_text pcs in let A := address_text acs in
  exists r, osc_match P A = Ok r /\
    ((code r = ERR_BACKTRACK /\ ~ pairs_fit pcs acs) \/
     exists c p' a', outcome pcs acs c p' a' /\ r = result_of P A c p' a').
Proof.
  intros [Hne Hok] [Hane Haok] P A.
  destruct pcs as [|t pcs]; [congruence|]. destruct acs as [|w acs]; [congruence|].
  destruct (loop_safe P A) as (r & Hr & Hruns & _).
  exists r. split.
  - unfold osc_match. unfold P, A. rewrite pattern_text_cons, address_text_cons. exact Hr.
  - assert (H0 : rdc P 0 = Ok 47) by reflexivity.
    inversion Hruns as [s r' Hd | s s' r' Hc Hrest]; subst.
    { cbn in Hd. discriminate. }
    cbn in Hc. inversion Hc; subst.
    inversion Hok as [|? ? Ht Hpcs]; subst. inversion Haok as [|? ? Hw Hacs]; subst.
    assert (Hs : at_start P A t w pcs acs (0 + 1, 0 + 1)).
    { apply (next_at_start P A t pcs w acs [] []); auto. }
    destruct (run_answer P A _ _ Hrest) as [IH1 IH2].
    assert (Hsa : start_answer P A (t :: pcs) (w :: acs) (Ok r)).
    { destruct (list_eq_dec Z.eq_dec w [42]) as [->|Hne2].
      - eapply IH2; eauto.
      - eapply start_from_answer; eauto. apply IH1; auto.
        + constructor; [|constructor]. now apply at_start_rep.
        + cbn. unfold LIM, OSC_MATCH_BACKTRACK_LIMIT. lia. }
    destruct Hsa as [(p & a & E & Hn) | (c & p' & a' & Ho & E)]; inversion E; subst.
    + left. split; [reflexivity | assumption].
    + right. exists c, p', a'. auto.
Qed.
