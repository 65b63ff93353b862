(** Proofs about the scanner: regular expressions, one token at a time, and the
    grammar. *)

From Coq Require Import String ZArith List Bool Lia.
From Verif Require Import Base Text BaseProofs WireSpec TimetagModel SerialModel SerialSpec AtomSModel AtomSpec AtomProofs FormatSpec
  ScanModel ScanSpec.
Import ListNotations.
Open Scope Z_scope.

(** * Regular expressions *)

Inductive matches : re -> list Z -> Prop :=
| M_eps : matches Eps []
| M_cls f c : f c = true -> matches (Cls f) [c]
| M_cat r s u v : matches r u -> matches s v -> matches (Cat r s) (u ++ v)
| M_left r s u : matches r u -> matches (Alt r s) u
| M_right r s u : matches s u -> matches (Alt r s) u
| M_done r : matches (Star r) []
| M_again r u v : matches r u -> matches (Star r) v -> matches (Star r) (u ++ v).

Lemma nullable_ok r : nullable r = true <-> matches r [].
Proof.
  induction r as [| |f|r1 IH1 r2 IH2|r1 IH1 r2 IH2|r IH]; cbn [nullable].
  - split; [discriminate|inversion 1].
  - split; [intros _; constructor|reflexivity].
  - split; [discriminate|inversion 1].
  - rewrite andb_true_iff, IH1, IH2. split.
    + intros [H1 H2]. exact (M_cat _ _ [] [] H1 H2).
    + intros H. inversion H as [| |? ? u v H1 H2 E E'| | | |]; subst. apply app_eq_nil in E' as [-> ->]. now split.
  - rewrite orb_true_iff, IH1, IH2. split.
    + intros [H|H]; [now apply M_left|now apply M_right].
    + intros H. inversion H; subst; [now left|now right].
  - split; [intros _; constructor|reflexivity].
Qed.
Lemma matches_cat r s w : matches (cat r s) w <-> matches (Cat r s) w.
Proof.
  destruct r; cbn [cat]; try reflexivity.
  - split; [inversion 1|]. intros H. inversion H as [| |? ? u v H1| | | |]; subst. inversion H1.
  - split; [intros H; exact (M_cat _ _ [] w M_eps H)|]. intros H. inversion H as [| |? ? u v H1| | | |]; subst. now inversion H1; subst.
Qed.
Lemma matches_alt r s w : matches (alt r s) w <-> matches (Alt r s) w.
Proof.
  assert (V : forall u, ~ matches Void u) by (intros u H; inversion H).
  assert (L : matches s w <-> matches (Alt Void s) w)
    by (split; [now apply M_right|intros H; inversion H; subst; [exfalso; eapply V; eassumption|assumption]]).
  assert (R : matches r w <-> matches (Alt r Void) w)
    by (split; [now apply M_left|intros H; inversion H; subst; [assumption|exfalso; eapply V; eassumption]]).
  unfold alt. destruct r; destruct s; try reflexivity; first [exact L | exact R].
Qed.
Lemma cat_cons r s c w : matches (Cat r s) (c :: w) <->
  (exists u v, w = u ++ v /\ matches r (c :: u) /\ matches s v) \/ (matches r [] /\ matches s (c :: w)).
Proof.
  split.
  - intros H. inversion H as [| |? ? u v H1 H2 E E'| | | |]; subst. destruct u as [|x u]; cbn [app] in E'.
    + right. subst. now split.
    + left. injection E' as -> <-. now exists u, v.
  - intros [(u & v & -> & H1 & H2)|[H1 H2]]; [exact (M_cat _ _ _ _ H1 H2)|exact (M_cat _ _ [] _ H1 H2)].
Qed.
Lemma star_cons r c w : matches (Star r) (c :: w) <-> exists u v, w = u ++ v /\ matches r (c :: u) /\ matches (Star r) v.
Proof.
  split.
  - intros H. remember (Star r) as q eqn:Eq. remember (c :: w) as x eqn:Ex. revert w Ex.
    induction H as [| | | | |r'|r' u v H1 IH1 H2 IH2]; intros w0 Ex; try discriminate; injection Eq as ->.
    destruct u as [|y u]; cbn [app] in Ex.
    + now apply IH2.
    + injection Ex as -> <-. now exists u, v.
  - intros (u & v & -> & H1 & H2). exact (M_again _ _ _ H1 H2).
Qed.
Lemma deriv_ok r : forall c w, matches (deriv c r) w <-> matches r (c :: w).
Proof.
  induction r as [| |f|r1 IH1 r2 IH2|r1 IH1 r2 IH2|r IH]; intros c w; cbn [deriv].
  - split; inversion 1.
  - split; inversion 1.
  - destruct (f c) eqn:E; split; intros H.
    + inversion H. now constructor.
    + inversion H; subst. constructor.
    + inversion H.
    + inversion H; subst. congruence.
  - rewrite cat_cons.
    assert (K : matches (cat (deriv c r1) r2) w <-> exists u v, w = u ++ v /\ matches r1 (c :: u) /\ matches r2 v).
    { rewrite matches_cat. split.
      - intros H. inversion H as [| |? ? u v H1 H2| | | |]; subst. exists u, v. split; [reflexivity|]. split; [now apply IH1|exact H2].
      - intros (u & v & -> & H1 & H2). apply M_cat; [now apply IH1|exact H2]. }
    destruct (nullable r1) eqn:E.
    + rewrite matches_alt. split.
      * intros H. inversion H; subst; [left; now apply K|]. right. split; [now apply nullable_ok|]. now apply IH2.
      * intros [H|[_ H]]; [apply M_left; now apply K|apply M_right; now apply IH2].
    + rewrite K. split; [now left|]. intros [H|[H _]]; [exact H|]. apply nullable_ok in H. congruence.
  - rewrite matches_alt. split; intros H; inversion H; subst;
      [apply M_left; now apply IH1|apply M_right; now apply IH2|apply M_left; now apply IH1|apply M_right; now apply IH2].
  - rewrite matches_cat, star_cons. split.
    + intros H. inversion H as [| |? ? u v H1 H2| | | |]; subst. exists u, v. split; [reflexivity|]. split; [now apply IH|exact H2].
    + intros (u & v & -> & H1 & H2). apply M_cat; [now apply IH|exact H2].
Qed.

Lemma longest_sound s : forall r n, longest r s = Some n -> (n <= length s)%nat /\ matches r (firstn n s).
Proof.
  induction s as [|c s IH]; intros r n; cbn [longest].
  - destruct (nullable r) eqn:E; [|discriminate]. intros [= <-]. split; [lia|]. now apply nullable_ok.
  - destruct (longest (deriv c r) s) as [m|] eqn:E.
    + intros [= <-]. destruct (IH _ _ E) as [H1 H2]. cbn [length firstn]. split; [lia|]. now apply deriv_ok.
    + destruct (nullable r) eqn:E'; [|discriminate]. intros [= <-]. split; [lia|]. now apply nullable_ok.
Qed.
Lemma longest_complete s : forall r m, (m <= length s)%nat -> matches r (firstn m s) -> exists n, longest r s = Some n /\ (m <= n)%nat.
Proof.
  induction s as [|c s IH]; intros r m Hm H; cbn [longest].
  - cbn [length] in Hm. assert (m = O) by lia. subst. cbn [firstn] in H. apply nullable_ok in H. rewrite H. now exists O.
  - destruct m as [|m]; cbn [firstn] in H.
    + destruct (longest (deriv c r) s) as [n|]; [exists (S n); split; [reflexivity|lia]|]. apply nullable_ok in H. rewrite H. now exists O.
    + cbn [length] in Hm. destruct (IH (deriv c r) m ltac:(lia)) as (n & -> & Hn); [now apply deriv_ok|]. exists (S n). split; [reflexivity|lia].
Qed.
(** The longest match is [w] if it matches and nothing longer does. *)
Lemma longest_is r w rest : matches r w -> (forall n, longest r (w ++ rest) = Some n -> (n <= length w)%nat) ->
  longest r (w ++ rest) = Some (length w).
Proof.
  intros H Hb. destruct (longest_complete (w ++ rest) r (length w)) as (n & E & Hn).
  - rewrite app_length. lia.
  - rewrite firstn_app, Nat.sub_diag, firstn_all, app_nil_r. exact H.
  - rewrite E. f_equal. specialize (Hb n E). lia.
Qed.
Lemma longest_none r s : (forall n, (n <= length s)%nat -> ~ matches r (firstn n s)) -> longest r s = None.
Proof.
  intros H. destruct (longest r s) as [n|] eqn:E; [|reflexivity]. destruct (longest_sound s r n E) as [H1 H2]. now exfalso; apply (H n).
Qed.

(** ** Characters of the matching words *)

Fixpoint alphabet (r : re) (c : Z) : bool :=
  match r with
  | Void | Eps => false
  | Cls f => f c
  | Cat r s | Alt r s => alphabet r c || alphabet s c
  | Star r => alphabet r c
  end.
Lemma alphabet_ok r w : matches r w -> forall c, In c w -> alphabet r c = true.
Proof.
  induction 1 as [|f c E|r s u v _ IH1 _ IH2|r s u _ IH|r s u _ IH|r|r u v _ IH1 _ IH2]; intros x Hx; cbn [alphabet].
  - destruct Hx.
  - destruct Hx as [<-|[]]. exact E.
  - apply orb_true_iff. apply in_app_iff in Hx as [Hx|Hx]; [left; now apply IH1|right; now apply IH2].
  - apply orb_true_iff. left. now apply IH.
  - apply orb_true_iff. right. now apply IH.
  - destruct Hx.
  - apply in_app_iff in Hx as [Hx|Hx]; [now apply IH1|exact (IH2 x Hx)].
Qed.
(** No match reaches past a character outside of the alphabet. *)
Lemma longest_stops r w c rest n : alphabet r c = false -> longest r (w ++ c :: rest) = Some n -> (n <= length w)%nat.
Proof.
  intros H E. destruct (longest_sound _ _ _ E) as [H1 H2]. destruct (le_lt_dec n (length w)) as [L|L]; [exact L|]. exfalso.
  assert (In c (firstn n (w ++ c :: rest))).
  { rewrite firstn_app. apply in_or_app. right. destruct (n - length w)%nat as [|k] eqn:Ek; [lia|]. now left. }
  pose proof (alphabet_ok r _ H2 c H0). congruence.
Qed.
Lemma longest_ends r w n : longest r (w ++ []) = Some n -> (n <= length w)%nat.
Proof. rewrite app_nil_r. intros E. exact (proj1 (longest_sound _ _ _ E)). Qed.

(** Every matching word has a character in [f]. *)
Definition bytes256 : list Z := map Z.of_nat (List.seq 0 256).
Fixpoint needs (r : re) (f : Z -> bool) : bool :=
  match r with
  | Void => true
  | Eps | Star _ => false
  | Cls g => forallb (fun c => negb (g c) || f c) bytes256
  | Cat r s => needs r f || needs s f
  | Alt r s => needs r f && needs s f
  end.
Lemma in_bytes256 c : is_byte c -> In c bytes256.
Proof.
  unfold is_byte, bytes256. intros H. apply in_map_iff. exists (Z.to_nat c). split; [lia|]. apply in_seq. lia.
Qed.
Lemma needs_ok f r w : matches r w -> wf_bytes w -> needs r f = true -> exists c, In c w /\ f c = true.
Proof.
  induction 1 as [|g c E|r s u v _ IH1 _ IH2|r s u _ IH|r s u _ IH|r|r u v _ IH1 _ IH2]; intros Hb N; cbn [needs] in N; try discriminate.
  - rewrite forallb_forall in N. inversion Hb as [|? ? Hc _]; subst. specialize (N c (in_bytes256 c Hc)). rewrite E in N. cbn in N.
    exists c. split; [now left|exact N].
  - apply Forall_app in Hb as [Hu Hv]. apply orb_true_iff in N as [N|N].
    + destruct (IH1 Hu N) as (c & H1 & H2). exists c. split; [now apply in_or_app; left|exact H2].
    + destruct (IH2 Hv N) as (c & H1 & H2). exists c. split; [now apply in_or_app; right|exact H2].
  - apply andb_true_iff in N as [N _]. now apply IH.
  - apply andb_true_iff in N as [_ N]. now apply IH.
Qed.

(** A rule whose remaining expression after the first character is void. *)
Lemma longest_dead r c s : nullable r = false -> deriv c r = Void -> longest r (c :: s) = None.
Proof.
  intros Hn Hd. cbn [longest]. rewrite Hd, Hn.
  assert (K : longest Void s = None) by (induction s as [|x s IH]; cbn [longest nullable deriv]; [reflexivity|now rewrite IH]).
  now rewrite K.
Qed.

(** ** Choosing a rule *)

Lemma pick_none {A} (rules : list (re * A)) s : Forall (fun x => longest (fst x) s = None) rules -> pick rules s = None.
Proof. induction 1 as [|[r a] rules H _ IH]; cbn [pick]; [reflexivity|]. cbn [fst] in H. now rewrite H. Qed.
Definition below (s : list Z) (n : nat) {A} (x : re * A) : Prop := forall m, longest (fst x) s = Some m -> (m < n)%nat.
Definition upto (s : list Z) (n : nat) {A} (x : re * A) : Prop := forall m, longest (fst x) s = Some m -> (m <= n)%nat.
Lemma pick_le {A} (rules : list (re * A)) s n : Forall (upto s n) rules -> forall b m, pick rules s = Some (b, m) -> (m <= n)%nat.
Proof.
  induction 1 as [|[r a] rules H _ IH]; intros b m; cbn [pick]; [discriminate|]. unfold upto in H. cbn [fst] in H.
  destruct (longest r s) as [k|].
  - destruct (pick rules s) as [[b' m']|]; [destruct (m' <=? k)%nat|]; intros [= <- <-]; try (now apply H); now apply (IH b' m').
  - apply IH.
Qed.
Lemma pick_rule {A} (before after : list (re * A)) r a s n : longest r s = Some n ->
  Forall (below s n) before -> Forall (upto s n) after -> pick (before ++ (r, a) :: after) s = Some (a, n).
Proof.
  intros E Hb Ha. induction Hb as [|[r' a'] before H _ IH]; cbn [app pick].
  - rewrite E. pose proof (pick_le after s n Ha) as K. destruct (pick after s) as [[b m]|]; [|reflexivity].
    rewrite (proj2 (Nat.leb_le m n)); [reflexivity|]. now apply (K b).
  - rewrite IH. unfold below in H. cbn [fst] in H. destruct (longest r' s) as [k|]; [|reflexivity]. specialize (H k eq_refl).
    rewrite (proj2 (Nat.leb_gt n k) H). reflexivity.
Qed.

(** ** First characters *)

Fixpoint first (r : re) (c : Z) : bool :=
  match r with
  | Void | Eps => false
  | Cls f => f c
  | Cat r s => first r c || (nullable r && first s c)
  | Alt r s => first r c || first s c
  | Star r => first r c
  end.
Lemma first_ok r c w : matches r (c :: w) -> first r c = true.
Proof.
  intros H. remember (c :: w) as x eqn:Ex. revert w Ex.
  induction H as [|f d E|r s u v H1 IH1 H2 IH2|r s u H1 IH1|r s u H1 IH1|r|r u v H1 IH1 H2 IH2]; intros w0 Ex; cbn [first].
  - discriminate.
  - now injection Ex as -> _.
  - destruct u as [|y u]; cbn [app] in Ex.
    + apply nullable_ok in H1. rewrite H1, (IH2 _ Ex). apply orb_true_r.
    + injection Ex as -> _. now rewrite (IH1 _ eq_refl).
  - now rewrite (IH1 _ Ex).
  - rewrite (IH1 _ Ex). apply orb_true_r.
  - discriminate.
  - destruct u as [|y u]; cbn [app] in Ex; [exact (IH2 _ Ex)|]. injection Ex as -> _. exact (IH1 _ eq_refl).
Qed.
Lemma longest_first r c s : nullable r = false -> first r c = false -> longest r (c :: s) = None.
Proof.
  intros Hn Hf. apply longest_none. intros [|n] _ H; cbn [firstn] in H.
  - apply nullable_ok in H. congruence.
  - apply first_ok in H. congruence.
Qed.
Lemma longest_void s : longest Void s = None.
Proof. induction s as [|x s IH]; cbn [longest nullable deriv]; [reflexivity|now rewrite IH]. Qed.
Lemma longest_eps s : longest Eps s = Some O.
Proof. destruct s as [|c s]; [reflexivity|]. cbn [longest nullable deriv]. now rewrite longest_void. Qed.
Lemma longest_cls f c s : longest (Cls f) (c :: s) = if f c then Some 1%nat else None.
Proof. cbn [longest nullable deriv]. destruct (f c); [now rewrite longest_eps|now rewrite longest_void]. Qed.
Lemma longest_lit c r s : nullable (Cat (lit c) r) = false -> longest (Cat (lit c) r) (c :: s) = option_map S (longest r s).
Proof.
  intros _. cbn [longest nullable andb lit deriv]. rewrite Z.eqb_refl. cbn [cat]. destruct (longest r s); reflexivity.
Qed.

(** ** Words that match *)

Lemma matches_lit c : matches (lit c) [c].
Proof. apply M_cls. apply Z.eqb_refl. Qed.
Lemma matches_none r : matches (opt r) [].
Proof. apply M_right. constructor. Qed.
Lemma matches_some r w : matches r w -> matches (opt r) w.
Proof. apply M_left. Qed.
Lemma matches_star f w : Forall (fun c => f c = true) w -> matches (Star (Cls f)) w.
Proof. induction 1 as [|c w H _ IH]; [constructor|]. exact (M_again _ [c] w (M_cls f c H) IH). Qed.
Lemma matches_plus f w : w <> [] -> Forall (fun c => f c = true) w -> matches (plus (Cls f)) w.
Proof.
  intros Hn H. destruct H as [|c w H Hw]; [easy|]. exact (M_cat _ _ [c] w (M_cls f c H) (matches_star f w Hw)).
Qed.
Lemma matches_last r w : matches r w -> matches (Cat r Eps) w.
Proof. intros H. rewrite <- (app_nil_r w). apply M_cat; [exact H|constructor]. Qed.
Lemma matches_one_of c s : In c s -> matches (one_of s) [c].
Proof. intros H. apply M_cls. apply existsb_exists. exists c. split; [exact H|apply Z.eqb_refl]. Qed.
Lemma matches_range a b c : a <= c <= b -> matches (range a b) [c].
Proof. intros H. apply M_cls. apply andb_true_intro. split; apply Z.leb_le; lia. Qed.
Lemma digits_true w : Forall is_digit_char w -> Forall (fun c => ((48 <=? c) && (c <=? 57)) = true) w.
Proof. apply Forall_impl. intros c H. unfold is_digit_char in H. apply andb_true_intro. split; apply Z.leb_le; lia. Qed.
Lemma matches_dseq w : digit_text w -> matches dseq w.
Proof. intros [H1 H2]. apply matches_plus; [exact H1|now apply digits_true]. Qed.
Lemma matches_dseq_opt w : Forall is_digit_char w -> matches (Star digit) w.
Proof. intros H. apply matches_star. now apply digits_true. Qed.

(** ** Delimited words *)

Definition delimiters : list Z := [32; 9; 10; 44; 93; 125].
Definition bounded_re (r : re) : bool := forallb (fun c => negb (alphabet r c)) delimiters.
Lemma bounded r w rest n : bounded_re r = true -> delimited rest -> longest r (w ++ rest) = Some n -> (n <= length w)%nat.
Proof.
  intros Hr Hd E. destruct rest as [|c rest]; [now apply longest_ends in E|]. cbn [delimited] in Hd.
  unfold bounded_re in Hr. rewrite forallb_forall in Hr. specialize (Hr c Hd). apply negb_true_iff in Hr. exact (longest_stops r w c rest n Hr E).
Qed.
Lemma firstn_in {A} n (x : A) l : In x (firstn n l) -> In x l.
Proof. intros H. rewrite <- (firstn_skipn n l). apply in_or_app. now left. Qed.
Lemma lacking f r w rest : bounded_re r = true -> delimited rest -> wf_bytes w -> needs r f = true -> Forall (fun c => f c = false) w ->
  longest r (w ++ rest) = None.
Proof.
  intros Hr Hd Hb Hn Hf. destruct (longest r (w ++ rest)) as [n|] eqn:E; [|reflexivity]. exfalso.
  pose proof (bounded r w rest n Hr Hd E) as L. destruct (longest_sound _ _ _ E) as [_ Hm].
  rewrite firstn_app in Hm. replace (n - length w)%nat with O in Hm by lia. rewrite firstn_O, app_nil_r in Hm.
  assert (Hb' : wf_bytes (firstn n w)) by (apply Forall_forall; intros x Hx; apply (proj1 (Forall_forall _ _) Hb); now apply firstn_in in Hx).
  destruct (needs_ok f r _ Hm Hb' Hn) as (c & H1 & H2). apply firstn_in in H1. rewrite Forall_forall in Hf. specialize (Hf c H1). congruence.
Qed.
Lemma pick_nth {A} (rules : list (re * A)) i r a s n : nth_error rules i = Some (r, a) -> longest r s = Some n ->
  Forall (below s n) (firstn i rules) -> Forall (upto s n) (skipn (S i) rules) -> pick rules s = Some (a, n).
Proof.
  intros E L Hb Ha. destruct (nth_error_split _ _ E) as (l1 & l2 & -> & Hl). subst i.
  rewrite firstn_app, Nat.sub_diag, firstn_all, app_nil_r in Hb.
  replace (skipn (S (length l1)) (l1 ++ (r, a) :: l2)) with l2 in Ha.
  - now apply pick_rule.
  - clear. induction l1 as [|x l1 IH]; [reflexivity|exact IH].
Qed.
