(** Properties C01-C04: address pattern matching. *)

From Coq Require Import ZArith List Bool Lia.
From Verif Require Import Base BaseProofs Text MatchModel MatchSafety MatchSpec MatchProofs MatchLang MatchFacts.
Import ListNotations.
Open Scope Z_scope.

(** The return codes documented in osc_match.h. *)
Definition documented_code (c : Z) : Prop :=
  In c [0; 1; 2; 3; 256; 512; 768; 1024; 1280; 1536; 2048].

(** ** C01: every call returns, with a documented code, reading only inside
    the two NUL-terminated strings ([Ok] excludes [Ub _] and [Fuel]). *)
Theorem C01_match_total_and_in_bounds : forall pattern address : list Z,
  exists r, osc_match pattern address = Ok r /\
    documented_code (code r) /\
    0 <= poff r <= zlen pattern /\ 0 <= aoff r <= zlen address.
Proof.
  intros p a. destruct (osc_match_safe p a) as (r & Hr & Hc & H1 & H2).
  exists r. repeat split; try assumption; try lia.
  unfold documented_code, loop_code in *. cbn.
  unfold ERR_UNMATCHED_LSB, ERR_UNMATCHED_RSB, ERR_UNMATCHED_LCB, ERR_UNMATCHED_RCB, ERR_BACKTRACK,
    ERR_PATTERN_NO_SLASH, ERR_ADDRESS_NO_SLASH in *. lia.
Qed.
Print Assumptions C01_match_total_and_in_bounds.

Example C01_ex : osc_match (str "/a*{b,[c") (str "/axxb") = Ok (MRes 768 0 0).
Proof. vm_compute. reflexivity. Qed.

(** ** C02: the return code is decided by the pattern language. *)

(** Every component pair needs fewer than 1000 backtrack entries. *)
Definition within_backtrack_limit (p : pattern) (a : address) : Prop :=
  forall t w, In (t, w) (combine p a) -> component_cost (zlen w) t < 1000.

Theorem C02_match_decides_language : forall (p : pattern) (a : address),
  pattern_ok p -> address_ok a -> within_backtrack_limit p a ->
  exists r, osc_match (pattern_text p) (address_text a) = Ok r /\
    (code r = 3 <-> Forall2 component_matches p a) /\
    (code r = 1 <-> exists p1 p2, p = p1 ++ p2 /\ p2 <> [] /\ Forall2 component_matches p1 a) /\
    (code r = 2 <-> exists a1 a2, a = a1 ++ a2 /\ a2 <> [] /\ Forall2 component_matches p a1) /\
    (code r = 0 \/ code r = 1 \/ code r = 2 \/ code r = 3).
Proof.
  intros p a Hp Ha Hl. destruct (osc_match_outcome p a Hp Ha) as (r & Hr & [[_ Hn]|(c & p' & a' & Ho & ->)]).
  - contradiction.
  - exists (result_of (pattern_text p) (address_text a) c p' a'). split; [exact Hr|].
    assert (Hc : code (result_of (pattern_text p) (address_text a) c p' a') = c).
    { unfold result_of. destruct (c =? 0) eqn:E; [apply Z.eqb_eq in E; subst|]; reflexivity. }
    rewrite Hc. split; [eapply outcome_full; eauto|]. split; [eapply outcome_address; eauto|].
    split; [eapply outcome_pattern; eauto|]. eapply outcome_code; eauto.
Qed.
Print Assumptions C02_match_decides_language.

(** Without the limit hypothesis the only other answer is the documented
    backtrack-limit error: the code never claims a wrong match. *)
Theorem C02_match_sound_without_limit : forall (p : pattern) (a : address),
  pattern_ok p -> address_ok a ->
  exists r, osc_match (pattern_text p) (address_text a) = Ok r /\
    (code r = 3 -> Forall2 component_matches p a) /\
    (code r = 0 -> ~ Forall2 component_matches p a) /\
    (code r = 0 \/ code r = 1 \/ code r = 2 \/ code r = 3 \/ code r = 2048).
Proof.
  intros p a Hp Ha. destruct (osc_match_outcome p a Hp Ha) as (r & Hr & [[Hb _]|(c & p' & a' & Ho & ->)]).
  - exists r. rewrite Hb. split; [exact Hr|]. split; [discriminate|]. split; [discriminate|]. auto 6.
  - exists (result_of (pattern_text p) (address_text a) c p' a'). split; [exact Hr|].
    assert (Hc : code (result_of (pattern_text p) (address_text a) c p' a') = c).
    { unfold result_of. destruct (c =? 0) eqn:E; [apply Z.eqb_eq in E; subst|]; reflexivity. }
    rewrite Hc. pose proof (outcome_full _ _ _ _ _ Ho). pose proof (outcome_code _ _ _ _ _ Ho).
    split; [tauto|]. split; [|tauto]. intros -> Hf. apply H in Hf. discriminate.
Qed.
Print Assumptions C02_match_sound_without_limit.

(** "/foo*/[a-c]{x,yz}" against "/foobar/byz". *)
Definition ex_pattern : pattern :=
  [[TChar 102; TChar 111; TChar 111; TStar]; [TSet false [97; 45; 99]; TAlt [[120]; [121; 122]]]].
Definition ex_address : address := [[102; 111; 111; 98; 97; 114]; [98; 121; 122]].
Example C02_ex_text : pattern_text ex_pattern = str "/foo*/[a-c]{x,yz}" /\ address_text ex_address = str "/foobar/byz".
Proof. split; reflexivity. Qed.
Example C02_ex_hyps : pattern_ok ex_pattern /\ address_ok ex_address /\ within_backtrack_limit ex_pattern ex_address.
Proof.
  split; [|split].
  - split; [discriminate|]. repeat (constructor; cbn; unfold plain_char; cbn; try lia; try discriminate).
  - split; [discriminate|]. repeat (constructor; try lia).
  - intros t w [E|[E|[]]]; inversion E; subst; vm_compute; reflexivity.
Qed.
Example C02_ex_run : osc_match (str "/foo*/[a-c]{x,yz}") (str "/foobar/byz") = Ok (MRes 3 17 11).
Proof. vm_compute. reflexivity. Qed.

(** Finding: with an empty alternative the matcher is incomplete.  The
    pattern /foo*{,x} denotes /foobar (star matches "bar", the empty
    alternative matches nothing), but the matcher answers "no match". *)
Theorem C02_empty_alternative_refuted :
  exists (p : pattern) (a : address),
    Forall2 component_matches p a /\
    exists r, osc_match (pattern_text p) (address_text a) = Ok r /\ code r = 0.
Proof.
  exists [[TChar 102; TStar; TAlt [[]; [120]]]], [[102; 98]]. split.
  - constructor; [|constructor]. right.
    apply (TSM_cons (TChar 102) _ [102] [98]); [constructor|].
    apply (TSM_cons TStar _ [98] []); [constructor|].
    apply (TSM_cons _ [] [] []); [constructor; now left|constructor].
  - eexists. split; [vm_compute; reflexivity|reflexivity].
Qed.
Print Assumptions C02_empty_alternative_refuted.

(** ** C03: the offsets say where the match stopped, for all strings. *)
Theorem C03_match_offsets : forall pattern address r,
  nonul pattern -> nonul address -> osc_match pattern address = Ok r ->
  (code r = 3 -> poff r = zlen pattern /\ aoff r = zlen address) /\
  (code r = 1 -> rdc pattern (poff r) = Ok 47 /\ aoff r = zlen address) /\
  (code r = 2 -> poff r = zlen pattern /\ rdc address (aoff r) = Ok 47) /\
  (code r <> 1 -> code r <> 2 -> code r <> 3 -> code r <> 2048 -> poff r = 0 /\ aoff r = 0).
Proof.
  intros p a r Hp Ha H. destruct (osc_match_offsets p a r H) as (H3 & H1 & H2 & H0).
  split; [|split; [|split]].
  - intros E. destruct (H3 E). split; now apply rdc_zero_end.
  - intros E. destruct (H1 E). split; [assumption | now apply rdc_zero_end].
  - intros E. destruct (H2 E). split; [now apply rdc_zero_end | assumption].
  - exact H0.
Qed.
Print Assumptions C03_match_offsets.

(** For well-formed patterns the offsets are exactly the length of the
    components that were matched against each other. *)
Theorem C03_match_offsets_are_component_boundaries : forall (p : pattern) (a : address) r,
  pattern_ok p -> address_ok a ->
  osc_match (pattern_text p) (address_text a) = Ok r -> code r = 1 \/ code r = 2 \/ code r = 3 ->
  exists p1 p2 a1 a2, p = p1 ++ p2 /\ a = a1 ++ a2 /\
    Forall2 component_matches p1 a1 /\
    poff r = zlen (pattern_text p1) /\ aoff r = zlen (address_text a1) /\
    (p2 = [] <-> code r = 2 \/ code r = 3) /\ (a2 = [] <-> code r = 1 \/ code r = 3).
Proof.
  intros p a r Hp Ha Hr Hcode.
  destruct (osc_match_outcome p a Hp Ha) as (r' & Hr' & H). rewrite Hr in Hr'. inversion Hr'; subst r'.
  destruct H as [[Hb _]|(c & p' & a' & Ho & E)]; [rewrite Hb in Hcode; cbv in Hcode; lia|].
  assert (Hcc : code r = c).
  { subst r. unfold result_of. destruct (c =? 0) eqn:E0; [apply Z.eqb_eq in E0; subst|]; reflexivity. }
  rewrite Hcc in *. assert (Hc0 : c <> 0) by lia.
  destruct (outcome_rest _ _ _ _ _ Ho Hc0) as (p1 & a1 & Ep & Ea & Hf & H3 & H1 & H2).
  exists p1, p', a1, a'. split; [assumption|]. split; [assumption|]. split; [assumption|].
  assert (Hpt : forall x y, pattern_text (x ++ y) = pattern_text x ++ pattern_text y).
  { intros x y. unfold pattern_text. now rewrite map_app, concat_app. }
  assert (Hat : forall x y, address_text (x ++ y) = address_text x ++ address_text y).
  { intros x y. unfold address_text. now rewrite map_app, concat_app. }
  split; [|split; [|split]].
  - subst r. unfold result_of. apply Z.eqb_neq in Hc0. rewrite Hc0. cbn [poff]. rewrite Ep, Hpt. zl. lia.
  - subst r. unfold result_of. apply Z.eqb_neq in Hc0. rewrite Hc0. cbn [aoff]. rewrite Ea, Hat. zl. lia.
  - split; [|intros [->| ->]; [now apply H2 | now apply H3]].
    intros E0. destruct Hcode as [E1|E1]; [exfalso|exact E1].
    pose proof (proj1 (outcome_address _ _ _ _ _ Ho) E1) as (q1 & q2 & Eq & Hne & Hq).
    pose proof (H1 E1) as E2. rewrite E0, app_nil_r in Ep. rewrite E2, app_nil_r in Ea. subst p a.
    apply Forall2_len in Hf. apply Forall2_len in Hq. rewrite Eq, app_length in Hf.
    destruct q2; [congruence|]. cbn [List.length] in Hf. lia.
  - split; [|intros [->| ->]; [now apply H1 | now apply H3]].
    intros E0. destruct Hcode as [E1|[E1|E1]]; [tauto| exfalso | tauto].
    pose proof (proj1 (outcome_pattern _ _ _ _ _ Ho) E1) as (q1 & q2 & Eq & Hne & Hq).
    pose proof (H2 E1) as E2. rewrite E0, app_nil_r in Ea. rewrite E2, app_nil_r in Ep. subst p a.
    apply Forall2_len in Hf. apply Forall2_len in Hq. rewrite Eq, app_length in Hf.
    destruct q2; [congruence|]. cbn [List.length] in Hf. lia.
Qed.
Print Assumptions C03_match_offsets_are_component_boundaries.

Example C03_ex : osc_match (str "/fo*/bar") (str "/foo") = Ok (MRes 1 4 4).
Proof. vm_compute. reflexivity. Qed.

(** ** C04: patterns without special characters are compared literally. *)
Theorem C04_literal_match_is_equality : forall p a : list Z,
  hd 0 p = 47 -> hd 0 a = 47 ->
  Forall (fun c => ~ In c [0; 42; 63; 91; 93; 123; 125]) p ->
  Forall (fun c => ~ In c [0; 42]) a ->
  exists r, osc_match p a = Ok r /\ (code r = 3 <-> p = a).
Proof.
  intros p a Hp Ha Hpc Hac.
  assert (Hpn : nonul p) by (eapply Forall_impl; [|exact Hpc]; intros c Hc; cbn in Hc; lia).
  assert (Han : nonul a) by (eapply Forall_impl; [|exact Hac]; intros c Hc; cbn in Hc; lia).
  destruct (address_of_string p Hpn Hp) as (pa & Hpok & ->).
  destruct (address_of_string a Han Ha) as (aa & Haok & ->).
  assert (Hplain : Forall (Forall plain_char) pa).
  { apply address_text_forall in Hpc. destruct Hpok as [_ Hok]. rewrite Forall_forall in *.
    intros w Hw. specialize (Hpc w Hw). specialize (Hok w Hw). rewrite Forall_forall in *.
    intros c Hc. specialize (Hpc c Hc). specialize (Hok c Hc). unfold plain_char. cbn in *. lia. }
  rewrite <- literal_text.
  destruct (C02_match_decides_language (literal pa) aa) as (r & Hr & H3 & _).
  - now apply literal_ok.
  - assumption.
  - apply literal_fits.
  - exists r. split; [exact Hr|]. rewrite H3. rewrite literal_text.
    change (Forall2 component_matches (literal pa) aa) with (full_match (literal pa) aa).
    rewrite literal_full.
    + split; [intros ->; reflexivity|]. apply address_text_inj; [apply Hpok | apply Haok].
    + apply address_text_forall in Hac. eapply Forall_impl; [|exact Hac].
      intros w Hw ->. inversion Hw; subst. cbn in H1. lia.
Qed.
Print Assumptions C04_literal_match_is_equality.

Example C04_ex : osc_match (str "/foo/bar") (str "/foo/bar") = Ok (MRes 3 8 8) /\
                 osc_match (str "/foo/bar") (str "/foo/baz") = Ok (MRes 0 0 0).
Proof. split; vm_compute; reflexivity. Qed.
