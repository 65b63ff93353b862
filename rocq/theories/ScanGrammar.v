(** Proofs about the parser: the scanner always ends, and the parser accepts the
    grammar. *)

From Coq Require Import String ZArith List Bool Lia.
From Verif Require Import Base Text BaseProofs WireSpec TimetagModel SerialModel SerialSpec AtomSModel AtomSpec AtomProofs FormatSpec
  ScanModel ScanSpec ScanProofs ScanTokens.
Import ListNotations.
Open Scope Z_scope.

(** * The scanner ends *)

Lemma pick_sound {A} (rules : list (re * A)) s a n : pick rules s = Some (a, n) -> exists r, In (r, a) rules /\ longest r s = Some n.
Proof.
  induction rules as [|[r b] rules IH]; cbn [pick]; [discriminate|].
  destruct (longest r s) as [m|] eqn:E.
  - destruct (pick rules s) as [[c k]|] eqn:P.
    + destruct (k <=? m)%nat; intros [= <- <-]; [exists r; split; [now left|exact E]|].
      destruct (IH eq_refl) as (q & H1 & H2). exists q. split; [now right|exact H2].
    + intros [= <- <-]. exists r. split; [now left|exact E].
  - intros H. destruct (IH H) as (q & H1 & H2). exists q. split; [now right|exact H2].
Qed.
Lemma write_some l i v : 0 <= i -> i + zlen v <= zlen l -> exists a b c, l = a ++ b ++ c /\ zlen a = i /\ zlen b = zlen v /\ write l i v = Ok (a ++ v ++ c).
Proof.
  intros Hi Hl. exists (firstn (Z.to_nat i) l), (firstn (length v) (skipn (Z.to_nat i) l)), (skipn (length v) (skipn (Z.to_nat i) l)).
  rewrite firstn_skipn, firstn_skipn. split; [reflexivity|]. unfold zlen in *. rewrite !firstn_length, skipn_length.
  split; [lia|]. split; [lia|]. set (a := firstn (Z.to_nat i) l). set (b := firstn (length v) (skipn (Z.to_nat i) l)).
  set (c := skipn (length v) (skipn (Z.to_nat i) l)).
  assert (E : l = a ++ b ++ c) by (unfold a, b, c; now rewrite firstn_skipn, firstn_skipn).
  assert (Ea : zlen a = i) by (unfold a, zlen; rewrite firstn_length; lia).
  rewrite E, <- Ea. apply write_app. unfold b. rewrite firstn_length, skipn_length. lia.
Qed.
Lemma write_length l i v l' : write l i v = Ok l' -> zlen l' = zlen l.
Proof.
  unfold write. destruct ((i <? 0) || (zlen l <? i + zlen v)) eqn:E; [discriminate|]. apply orb_false_iff in E as [E1 E2].
  apply Z.ltb_ge in E1, E2. intros [= <-]. unfold zlen in *. rewrite !app_length, firstn_length, skipn_length. lia.
Qed.
Lemma zero_split (b : bytes) : In 0 b -> exists p t, b = p ++ 0 :: t /\ nonul p.
Proof.
  induction b as [|c b IH]; [intros []|]. intros H. destruct (Z.eq_dec c 0) as [-> |N]; [exists [], b; split; [reflexivity|constructor]|].
  destruct H as [H|H]; [contradiction|]. destruct (IH H) as (p & t & -> & Hp). exists (c :: p), t. split; [reflexivity|now constructor].
Qed.

Section Total.
Context (strtod : list Z -> Z) (iso : list Z -> timetag) (junk : bytes).

Definition inv (l : lexer) : Prop := match l_buf l with Some b => In 0 b /\ zlen b <= l_buflen l + 1 | None => True end.
Definition safe (x : re * action) : Prop := forall text l, matches (fst x) text -> inv l ->
  exists l' t k, snd x text l = Ok (l', t, k) /\ inv l' /\ (0 < k)%nat.

Lemma nonempty r text : nullable r = false -> matches r text -> (0 < length text)%nat.
Proof. intros Hn H. destruct text as [|c text]; [|cbn [length]; lia]. apply nullable_ok in H. congruence. Qed.
Lemma safe_returns r f : nullable r = false -> safe (r, returns f).
Proof. intros Hn text l H Hl. cbn [snd]. unfold returns. exists l, (Some (f text)), (length text). split; [reflexivity|]. split; [exact Hl|]. now apply (nonempty r). Qed.
Lemma grown_in b n : In 0 b -> zlen b <= n -> In 0 (grown junk b n) /\ zlen (grown junk b n) = n.
Proof.
  intros H1 H2. destruct (grown_tail junk b (n - zlen b) ltac:(lia)) as (t & E & L).
  replace (zlen b + (n - zlen b)) with n in E by lia. rewrite E. split; [apply in_or_app; now left|]. rewrite zlen_app. lia.
Qed.
Lemma inside_length text : matches inside text -> (2 <= length text)%nat.
Proof.
  intros H. inversion H as [| |? ? u v H1 H2| | | |]; subst. inversion H2 as [| |? ? u1 v1 H3 H4| | | |]; subst. inversion H4 as [| |? ? u2 v2 H5 H6| | | |]; subst.
  inversion H3; subst. inversion H5; subst. rewrite !app_length. cbn [length]. lia.
Qed.
Lemma escape_safe text l : (2 <= length text)%nat -> inv l -> exists l', act_escape junk text l = Ok (l', None, length text) /\ inv l'.
Proof.
  intros Ht Hl. unfold act_escape.
  assert (Hz : 2 <= zlen text) by (unfold zlen; lia).
  rewrite last_rd by (intros ->; cbn [length] in Ht; lia). cbn [bind].
  assert (Hf : zlen (firstn (Z.to_nat (zlen text - 1)) text) = zlen text - 1) by (unfold zlen in *; rewrite firstn_length; lia).
  assert (W : forall b n q, 0 <= n -> zlen b = n + zlen text ->
    exists b', (do b <- write b n (firstn (Z.to_nat (zlen text - 1)) text);
      do b <- write b (n + (zlen text - 1) - 1) [q]; write b (n + (zlen text - 1)) [0]) = Ok b' /\ In 0 b' /\ zlen b' = n + zlen text).
  { intros b n q Hn Hb. destruct (write_some b n (firstn (Z.to_nat (zlen text - 1)) text)) as (a1 & a2 & a3 & _ & _ & _ & E1); [lia|rewrite Hf; lia|].
    pose proof (write_length _ _ _ _ E1) as L1. rewrite E1. cbn [bind].
    destruct (write_some (a1 ++ firstn (Z.to_nat (zlen text - 1)) text ++ a3) (n + (zlen text - 1) - 1) [q]) as (b1 & b2 & b3 & _ & _ & _ & E2);
      [lia|change (zlen [q]) with 1; lia|]. pose proof (write_length _ _ _ _ E2) as L2. rewrite E2. cbn [bind].
    destruct (write_some (b1 ++ [q] ++ b3) (n + (zlen text - 1)) [0]) as (c1 & c2 & c3 & _ & _ & _ & E3); [lia|change (zlen [0]) with 1; lia|].
    pose proof (write_length _ _ _ _ E3) as L3. rewrite E3. eexists. split; [reflexivity|]. split; [|lia].
    apply in_or_app. right. now left. }
  unfold inv in Hl. destruct (l_buf l) as [b|].
  - destruct Hl as [H0 Hb]. pose proof (zlen_nonneg b) as Hb0. assert (1 <= zlen b) by (destruct b; [destruct H0|rewrite zlen_cons; pose proof (zlen_nonneg b); lia]).
    destruct (grown_in b (l_buflen l + zlen text) H0 ltac:(lia)) as [_ Hg].
    destruct (W (grown junk b (l_buflen l + zlen text)) (l_buflen l) (last text 0) ltac:(lia) Hg) as (b' & E & I0 & L).
    destruct (write (grown junk b (l_buflen l + zlen text)) (l_buflen l) (firstn (Z.to_nat (zlen text - 1)) text)) as [b1| |]; cbn [bind] in *; try discriminate E.
    destruct (write b1 (l_buflen l + (zlen text - 1) - 1) [last text 0]) as [b2| |]; cbn [bind] in *; try discriminate E.
    rewrite E. cbn [bind]. eexists. split; [reflexivity|]. unfold inv. cbn [l_buf l_buflen]. split; [exact I0|lia].
  - pose proof (grown_length junk [] (zlen text) ltac:(lia)) as Hg.
    destruct (W (grown junk [] (zlen text)) 0 (last text 0) ltac:(lia) Hg) as (b' & E & I0 & L). rewrite !Z.add_0_l in E.
    destruct (write (grown junk [] (zlen text)) 0 (firstn (Z.to_nat (zlen text - 1)) text)) as [b1| |]; cbn [bind] in *; try discriminate E.
    destruct (write b1 (zlen text - 1 - 1) [last text 0]) as [b2| |]; cbn [bind] in *; try discriminate E.
    rewrite E. cbn [bind]. eexists. split; [reflexivity|]. unfold inv. cbn [l_buf l_buflen]. split; [exact I0|lia].
Qed.
Lemma quoted_safe text l : inv l -> exists l' t, act_quoted junk text l = Ok (l', t, length text) /\ inv l'.
Proof.
  intros Hl. unfold act_quoted. pose proof Hl as Hi. unfold inv in Hl. destruct (l_buf l) as [b|].
  - destruct Hl as [H0 Hb]. pose proof (zlen_nonneg text) as Ht.
    destruct (grown_in b (l_buflen l + zlen text + 1) H0 ltac:(lia)) as [G0 Hg].
    destruct (grown_tail junk b (l_buflen l + zlen text + 1 - zlen b) ltac:(lia)) as (t & E & L).
    replace (zlen b + (l_buflen l + zlen text + 1 - zlen b)) with (l_buflen l + zlen text + 1) in E by lia.
    destruct (zero_split b H0) as (p & t' & Eb & Hp).
    assert (R : rdstr (grown junk b (l_buflen l + zlen text + 1)) 0 = Ok p).
    { rewrite E, Eb, <- app_assoc. cbn [app]. exact (rdstr_at [] p (t' ++ t) Hp). }
    rewrite R. cbn [bind].
    assert (zlen p + 1 <= zlen b) by (rewrite Eb, zlen_app, zlen_cons; pose proof (zlen_nonneg t'); lia).
    destruct (write_some (grown junk b (l_buflen l + zlen text + 1)) (zlen p) (text ++ [0])) as (a1 & a2 & a3 & _ & _ & _ & W);
      [apply zlen_nonneg|rewrite zlen_app; change (zlen [0]) with 1; lia|].
    pose proof (write_length _ _ _ _ W) as LW. rewrite W. cbn [bind]. eexists _, _. split; [reflexivity|].
    unfold inv. cbn [l_buf l_buflen]. split; [|lia]. apply in_or_app. right. apply in_or_app. left. apply in_or_app. right. now left.
  - exists l, (Some (TValue (set_string atom_fresh 0 text))). now split.
Qed.
Lemma close_safe text l : inv l -> exists l' t, act_close text l = Ok (l', t, length text) /\ inv l'.
Proof.
  intros Hl. unfold act_close. unfold inv in Hl. destruct (l_buf l) as [b|]; [|eexists _, _; split; [reflexivity|exact I]].
  destruct Hl as [H0 _]. destruct (zero_split b H0) as (p & t & -> & Hp). pose proof (rdstr_at [] p t Hp) as R. cbn [app] in R. change (zlen []) with 0 in R.
  rewrite R. cbn [bind]. eexists _, _. split; [reflexivity|exact I].
Qed.
Lemma safe_initial : Forall safe (initial_rules strtod iso).
Proof.
  unfold initial_rules. repeat first [apply Forall_nil | apply Forall_cons]; try (apply safe_returns; reflexivity).
  - intros text l H Hl. cbn [snd fst] in *. unfold act_open. eexists _, _, _. split; [reflexivity|]. split; [exact Hl|].
    apply (nonempty (lit 34)); [reflexivity|exact H].
  - intros text l H Hl. cbn [snd fst] in *. unfold act_char.
    inversion H as [| |? ? u v H1 H2| | | |]; subst. inversion H2 as [| |? ? u1 v1 H3 H4| | | |]; subst.
    inversion H1; subst. inversion H3; subst. cbn [app].
    eexists _, _, _. split; [reflexivity|]. split; [exact Hl|]. cbn [length]. lia.
  - intros text l H Hl. cbn [snd fst] in *. unfold act_address.
    inversion H as [| |? ? u v H1 H2| | | |]; subst. inversion H2 as [| |? ? u1 v1 H3 H4| | | |]; subst.
    inversion H1; subst. inversion H3; subst. rewrite last_rd by discriminate. cbn [bind].
    eexists _, _, _. split; [reflexivity|]. split; [exact Hl|]. destruct (_ =? 44); rewrite ?firstn_length; cbn [length app]; lia.
  - intros text l H Hl. cbn [snd fst] in *. unfold skips. eexists _, _, _. split; [reflexivity|]. split; [exact Hl|].
    apply (nonempty (plus space_re)); [reflexivity|exact H].
Qed.
Lemma safe_quote : Forall safe (quote_rules junk).
Proof.
  unfold quote_rules. repeat first [apply Forall_nil | apply Forall_cons]; intros text l H Hl; cbn [snd fst] in *.
  - destruct (quoted_safe text l Hl) as (l' & t & E & Hi). exists l', t, (length text). split; [exact E|]. split; [exact Hi|].
    apply (nonempty (plus quoted_string_re)); [reflexivity|exact H].
  - destruct (close_safe text l Hl) as (l' & t & E & Hi). exists l', t, (length text). split; [exact E|]. split; [exact Hi|].
    apply (nonempty (lit 34)); [reflexivity|exact H].
  - pose proof (inside_length text H) as Ht. destruct (escape_safe text l Ht Hl) as (l' & E & Hi). exists l', None, (length text).
    split; [exact E|]. split; [exact Hi|lia].
Qed.
Lemma scan_total fuel : forall l s, (length s <= fuel)%nat -> inv l -> exists ts, scan strtod iso junk fuel l s = Ok ts.
Proof.
  induction fuel as [|fuel IH]; intros l s Hs Hl; destruct s as [|c s]; cbn [scan length] in *; [now eexists|lia|now eexists|].
  destruct (pick (if quoting l then quote_rules junk else initial_rules strtod iso) (c :: s)) as [[act n]|] eqn:P.
  - destruct (pick_sound _ _ _ _ P) as (r & Hin & L).
    assert (Hsafe : safe (r, act)).
    { destruct (quoting l); [pose proof safe_quote as F|pose proof safe_initial as F]; rewrite Forall_forall in F; exact (F _ Hin). }
    destruct (longest_sound _ _ _ L) as [_ Hm]. destruct (Hsafe _ l Hm Hl) as (l' & t & k & E & Hi & Hk). cbn [snd] in E. rewrite E. cbn [bind].
    cbv beta iota. destruct (IH l' (skipn k (c :: s))) as (ts & ->); [rewrite skipn_length; cbn [length]; lia|exact Hi|]. cbn [bind]. now eexists.
  - apply IH; [lia|exact Hl].
Qed.
End Total.

(** * The grammar *)

Definition leads (ts : list token) (c : Z) : Prop := exists us, ts = TChar c :: us.

Lemma tok_dec (ts : list token) c : {us | ts = TChar c :: us} + {~ leads ts c}.
Proof.
  destruct ts as [|t ts]; [right; intros [us H]; discriminate|]. destruct t as [s|a|d]; try (right; intros [us H]; discriminate).
  destruct (Z.eq_dec d c) as [-> |N]; [left; now exists ts|right; intros [us H]; congruence].
Qed.

Definition messages_sound (k : nat) : Prop := forall ts ms rest, p_messages k ts = Ok (Some (ms, rest)) -> exists us, ts = us ++ rest /\ messages_of us ms.
Definition args_sound (k : nat) : Prop := forall ts l rest, p_args k ts = Ok (Some (l, rest)) ->
  forall s, exists us, ts = us ++ rest /\ message_of (TAddress s :: us) (UMsg (Some s) l).
Definition data_sound (k : nat) : Prop := forall ts l rest, p_data k ts = Ok (Some (l, rest)) -> exists us, ts = us ++ [TChar 93] ++ rest /\ data_of us l.
Definition datum_sound (k : nat) : Prop := forall ts a rest, p_datum k ts = Ok (Some (a, rest)) -> exists us, ts = us ++ rest /\ datum_of us a.

(** One step of each function, by the tokens it looks at. *)
Tactic Notation "not_char" hyp(N) ident(M) := match type of N with ~ leads (TChar ?d :: ?ts) ?c =>
  destruct (Z.eq_dec d c) as [-> |M]; [exfalso; apply N; now exists ts|] end.
Ltac chars := repeat (match goal with |- context [match ?x with _ => _ end] => is_var x; destruct x; try reflexivity; try contradiction end).

Lemma match_char {A} c (ts : list token) (f : list token -> A) (g : A) :
  (match ts with TChar d :: us => if d =? c then f us else g | _ => g end) =
  match tok_dec ts c with inleft (exist _ us _) => f us | inright _ => g end.
Proof.
  destruct (tok_dec ts c) as [[us ->]|N]; [now rewrite Z.eqb_refl|]. destruct ts as [|[s|a|d] ts]; try reflexivity.
  not_char N M. now rewrite (proj2 (Z.eqb_neq d c) M).
Qed.
Lemma args_step k ts : p_args (S k) ts =
  match tok_dec ts 58 with
  | inleft (exist _ us _) =>
      match tok_dec us 91 with
      | inleft (exist _ vs _) => p_data k vs
      | inright _ => do r <- p_datum k us; match r with None => Ok None | Some (a, us) => Ok (Some ([a], us)) end
      end
  | inright _ => Ok (Some ([], ts))
  end.
Proof.
  destruct (tok_dec ts 58) as [[us ->]|N].
  - destruct (tok_dec us 91) as [[vs ->]|N']; [reflexivity|]. cbn [p_args]. destruct us as [|[s|a|d] us]; try reflexivity. not_char N' M. chars.
  - cbn [p_args]. destruct ts as [|[s|a|d] ts]; try reflexivity. not_char N M. chars.
Qed.
Lemma data_step k ts : p_data (S k) ts =
  do r <- p_datum k ts;
  match r with
  | None => Ok None
  | Some (a, ts) =>
      match tok_dec ts 44 with
      | inleft (exist _ us _) => do r <- p_data k us; match r with None => Ok None | Some (l, us) => Ok (Some (a :: l, us)) end
      | inright _ => match tok_dec ts 93 with inleft (exist _ us _) => Ok (Some ([a], us)) | inright _ => Ok None end
      end
  end.
Proof.
  cbn [p_data]. destruct (p_datum k ts) as [[[a us]|]| |]; cbn [bind]; try reflexivity.
  destruct (tok_dec us 44) as [[vs ->]|N]; [reflexivity|]. destruct (tok_dec us 93) as [[vs ->]|N']; [reflexivity|].
  destruct us as [|[s|b|d] us]; try reflexivity. not_char N M. not_char N' M'. chars.
Qed.
Lemma datum_step k ts : p_datum (S k) ts =
  match tok_dec ts 123 with
  | inleft (exist _ us _) =>
      match tok_dec us 125 with
      | inleft (exist _ vs _) => Ok (Some (set_bndl atom_fresh 0 [], vs))
      | inright _ =>
          do r <- p_messages k us;
          match r with
          | Some (ms, vs) => match tok_dec vs 125 with inleft (exist _ ws _) => Ok (Some (set_bndl atom_fresh 0 ms, ws)) | inright _ => Ok None end
          | None => Ok None
          end
      end
  | inright _ =>
      match ts with
      | TAddress s :: us => Ok (Some (set_string atom_fresh 0 s, us))
      | TValue a :: us => Ok (Some (a, us))
      | _ => Ok None
      end
  end.
Proof.
  assert (K : forall us : list token, (do r <- p_messages k us;
      match r with Some (ms, TChar 125 :: ts) => Ok (Some (set_bndl atom_fresh 0 ms, ts)) | _ => Ok None end) =
     (do r <- p_messages k us;
          match r with
          | Some (ms, vs) => match tok_dec vs 125 with inleft (exist _ ws _) => Ok (Some (set_bndl atom_fresh 0 ms, ws)) | inright _ => Ok None end
          | None => Ok None
          end)).
  { intros us. destruct (p_messages k us) as [[[ms vs]|]| |]; cbn [bind]; try reflexivity.
    destruct (tok_dec vs 125) as [[ws ->]|N]; [reflexivity|]. destruct vs as [|[s|a|d] vs]; try reflexivity. not_char N M. chars. }
  destruct (tok_dec ts 123) as [[us ->]|N].
  - destruct (tok_dec us 125) as [[vs ->]|N']; [reflexivity|]. rewrite <- K. cbn [p_datum]. destruct us as [|[s|a|d] us]; try reflexivity. not_char N' M.
    destruct d as [|p|p]; try reflexivity. do 7 (destruct p as [p|p|]; try reflexivity). contradiction.
  - cbn [p_datum]. destruct ts as [|[s|a|d] ts]; try reflexivity. not_char N M.
    destruct d as [|p|p]; try reflexivity. do 7 (destruct p as [p|p|]; try reflexivity). contradiction.
Qed.
Lemma messages_step k ts : p_messages (S k) ts =
  match ts with
  | TAddress a :: ts =>
      do r <- p_args k ts;
      match r with
      | None => Ok None
      | Some (args, ts) =>
          match tok_dec ts 44 with
          | inleft (exist _ us _) => do r <- p_messages k us; match r with None => Ok None | Some (ms, us) => Ok (Some (UMsg (Some a) args :: ms, us)) end
          | inright _ => Ok (Some ([UMsg (Some a) args], ts))
          end
      end
  | _ => Ok None
  end.
Proof.
  cbn [p_messages]. destruct ts as [|[s|a|d] ts]; try reflexivity. destruct (p_args k ts) as [[[l us]|]| |]; cbn [bind]; try reflexivity.
  destruct (tok_dec us 44) as [[vs ->]|N]; [reflexivity|]. destruct us as [|[s'|b|d] us]; try reflexivity. not_char N M. chars.
Qed.

Lemma all_sound k : messages_sound k /\ args_sound k /\ data_sound k /\ datum_sound k.
Proof.
  induction k as [|k (IHm & IHa & IHd & IHv)]; [repeat split; intros ? ? ?; discriminate|].
  split; [|split; [|split]].
  - intros ts ms rest. rewrite messages_step. destruct ts as [|[s|a|d] ts]; try discriminate.
    destruct (p_args k ts) as [[[l us]|]| |] eqn:E; cbn [bind]; try discriminate. destruct (IHa _ _ _ E s) as (vs & -> & Hm).
    destruct (tok_dec us 44) as [[ws ->]|N].
    + destruct (p_messages k ws) as [[[ms' ys]|]| |] eqn:E'; cbn [bind]; try discriminate. intros [= <- <-].
      destruct (IHm _ _ _ E') as (zs & -> & Hz). exists ((TAddress s :: vs) ++ [TChar 44] ++ zs). split.
      * cbn [app]. rewrite <- app_assoc. reflexivity.
      * now apply ms_more.
    + intros [= <- <-]. exists (TAddress s :: vs). split; [reflexivity|]. now apply ms_one.
  - intros ts l rest. rewrite args_step. destruct (tok_dec ts 58) as [[us ->]|N].
    + destruct (tok_dec us 91) as [[vs ->]|N'].
      * intros E s. destruct (IHd _ _ _ E) as (ws & -> & Hd). exists ([TChar 58; TChar 91] ++ ws ++ [TChar 93]). split.
        -- cbn [app]. rewrite <- app_assoc. reflexivity.
        -- exact (m_list s ws l Hd).
      * destruct (p_datum k us) as [[[a vs]|]| |] eqn:E; cbn [bind]; try discriminate. intros [= <- <-] s.
        destruct (IHv _ _ _ E) as (ws & -> & Hv). exists (TChar 58 :: ws). split; [reflexivity|]. exact (m_datum s ws a Hv).
    + intros [= <- <-] s. exists []. split; [reflexivity|apply m_address].
  - intros ts l rest. rewrite data_step. destruct (p_datum k ts) as [[[a us]|]| |] eqn:E; cbn [bind]; try discriminate.
    destruct (IHv _ _ _ E) as (vs & -> & Hv). destruct (tok_dec us 44) as [[ws ->]|N].
    + destruct (p_data k ws) as [[[l' ys]|]| |] eqn:E'; cbn [bind]; try discriminate. intros [= <- <-].
      destruct (IHd _ _ _ E') as (zs & -> & Hz). exists (vs ++ [TChar 44] ++ zs). split; [rewrite <- !app_assoc; reflexivity|now apply data_more].
    + destruct (tok_dec us 93) as [[ws ->]|N']; [|discriminate]. intros [= <- <-]. exists vs. split; [reflexivity|now apply data_one].
  - intros ts a rest. rewrite datum_step. destruct (tok_dec ts 123) as [[us ->]|N].
    + destruct (tok_dec us 125) as [[vs ->]|N'].
      * intros [= <- <-]. exists [TChar 123; TChar 125]. split; [reflexivity|constructor].
      * destruct (p_messages k us) as [[[ms vs]|]| |] eqn:E; cbn [bind]; try discriminate. destruct (tok_dec vs 125) as [[ws ->]|N'']; [|discriminate].
        intros [= <- <-]. destruct (IHm _ _ _ E) as (ys & -> & Hy). exists ([TChar 123] ++ ys ++ [TChar 125]).
        split; [rewrite <- !app_assoc; reflexivity|now constructor].
    + destruct ts as [|[s|b|d] ts]; try discriminate; intros [= <- <-]; [exists [TAddress s]|exists [TValue b]]; (split; [reflexivity|constructor]).
Qed.

(** There is always enough fuel. *)
Lemma all_total k :
  (forall ts, (4 * length ts + 1 <= k)%nat -> exists r, p_messages k ts = Ok r) /\
  (forall ts, (4 * length ts + 4 <= k)%nat -> exists r, p_args k ts = Ok r) /\
  (forall ts, (4 * length ts + 2 <= k)%nat -> exists r, p_data k ts = Ok r) /\
  (forall ts, (4 * length ts + 1 <= k)%nat -> exists r, p_datum k ts = Ok r).
Proof.
  induction k as [|k (IHm & IHa & IHd & IHv)]; [repeat split; intros ts H; lia|].
  destruct (all_sound k) as (Sm & Sa & Sd & Sv).
  split; [|split; [|split]]; intros ts H.
  - rewrite messages_step. destruct ts as [|[s|a|d] ts]; try (now eexists). cbn [length] in H.
    destruct (IHa ts ltac:(lia)) as ([[l us]|] & E); rewrite E; cbn [bind]; [|now eexists].
    destruct (tok_dec us 44) as [[vs ->]|N]; [|now eexists].
    destruct (Sa _ _ _ E []) as (ws & -> & _). rewrite app_length in H. cbn [length] in H.
    destruct (IHm vs ltac:(lia)) as ([[ms ys]|] & ->); cbn [bind]; now eexists.
  - rewrite args_step. destruct (tok_dec ts 58) as [[us ->]|N]; [|now eexists]. cbn [length] in H. destruct (tok_dec us 91) as [[vs ->]|N'].
    + cbn [length] in H. apply IHd. lia.
    + destruct (IHv us ltac:(lia)) as ([[a vs]|] & ->); cbn [bind]; now eexists.
  - rewrite data_step. destruct (IHv ts ltac:(lia)) as ([[a us]|] & E); rewrite E; cbn [bind]; [|now eexists].
    destruct (tok_dec us 44) as [[vs ->]|N].
    + destruct (Sv _ _ _ E) as (ws & -> & _). rewrite app_length in H. cbn [length] in H.
      destruct (IHd vs ltac:(lia)) as ([[l ys]|] & ->); cbn [bind]; now eexists.
    + destruct (tok_dec us 93) as [[vs ->]|N']; now eexists.
  - rewrite datum_step. destruct (tok_dec ts 123) as [[us ->]|N].
    + cbn [length] in H. destruct (tok_dec us 125) as [[vs ->]|N']; [now eexists|].
      destruct (IHm us ltac:(lia)) as ([[ms vs]|] & ->); cbn [bind]; [|now eexists]. destruct (tok_dec vs 125) as [[ws ->]|N'']; now eexists.
    + destruct ts as [|[s|b|d] ts]; now eexists.
Qed.

(** What the grammar describes is read. *)
Scheme datum_min := Minimality for datum_of Sort Prop
  with data_min := Minimality for data_of Sort Prop
  with message_min := Minimality for message_of Sort Prop
  with messages_min := Minimality for messages_of Sort Prop.
Combined Scheme grammar_ind from datum_min, data_min, message_min, messages_min.

Lemma leads_no t ts c : t <> TChar c -> ~ leads (t :: ts) c.
Proof. intros H [us E]. congruence. Qed.
Lemma leads_inv c d ts : leads (TChar c :: ts) d -> c = d.
Proof. intros [us E]. congruence. Qed.
Ltac step_in E := match goal with |- context [tok_dec ?x ?c] => destruct (tok_dec x c) as [[? E]|E] end.

Lemma datum_starts us a : datum_of us a -> forall rest, ~ leads (us ++ rest) 91.
Proof. intros H rest. destruct H; cbn [app]; apply leads_no; discriminate. Qed.
Lemma messages_starts us ms : messages_of us ms -> exists s vs, us = TAddress s :: vs.
Proof.
  assert (M : forall ts m, message_of ts m -> exists s vs, ts = TAddress s :: vs) by (intros ts m H; destruct H; eexists _, _; reflexivity).
  intros H. destruct H as [ts m H|ts m us ms H _]; destruct (M _ _ H) as (s & vs & ->); [now exists s, vs|]. eexists _, _. reflexivity.
Qed.

(** The function reads exactly [us] with enough fuel. *)
Lemma all_complete :
  (forall us a, datum_of us a -> forall k rest, (4 * length us <= k)%nat -> p_datum k (us ++ rest) = Ok (Some (a, rest))) /\
  (forall us l, data_of us l -> forall k rest, (4 * length us + 1 <= k)%nat -> p_data k (us ++ [TChar 93] ++ rest) = Ok (Some (l, rest))) /\
  (forall us m, message_of us m -> forall k rest, (4 * length us <= k + 3)%nat -> ~ leads rest 58 -> ~ leads rest 44 ->
     exists s l vs, us = TAddress s :: vs /\ m = UMsg (Some s) l /\ (forall rest', (~ leads rest' 58) -> p_args k (vs ++ rest') = Ok (Some (l, rest')))) /\
  (forall us ms, messages_of us ms -> forall k rest, (4 * length us <= k)%nat -> ~ leads rest 58 -> ~ leads rest 44 ->
     p_messages k (us ++ rest) = Ok (Some (ms, rest))).
Proof.
  apply grammar_ind.
  - intros s k rest Hk. cbn [length] in Hk. destruct k as [|k]; [lia|]. rewrite datum_step. cbn [app]. step_in E; [discriminate|reflexivity].
  - intros s k rest Hk. cbn [length] in Hk. destruct k as [|k]; [lia|]. rewrite datum_step. cbn [app]. step_in E; [discriminate|reflexivity].
  - intros k rest Hk. cbn [length] in Hk. destruct k as [|k]; [lia|]. reflexivity.
  - intros ts ms H IH k rest Hk. rewrite !app_length in Hk. cbn [length] in Hk. destruct k as [|k]; [lia|].
    rewrite datum_step. destruct (messages_starts _ _ H) as (s & vs & E). rewrite <- !app_assoc. cbn [app].
    step_in E1; [|exfalso; apply E1; eexists; reflexivity]. injection E1 as <-.
    step_in E2; [rewrite E in E2; discriminate|].
    rewrite (IH k (TChar 125 :: rest)); [|lia|apply leads_no; discriminate|apply leads_no; discriminate]. cbn [bind].
    step_in E3; [|exfalso; apply E3; eexists; reflexivity]. now injection E3 as <-.
  - intros ts a H IH k rest Hk. destruct k as [|k]; [lia|]. rewrite data_step, IH by lia. cbn [bind]. cbn [app].
    step_in E1; [discriminate|]. step_in E2; [|exfalso; apply E2; eexists; reflexivity]. now injection E2 as <-.
  - intros ts a us l H1 IH1 H2 IH2 k rest Hk. destruct k as [|k]; [lia|]. rewrite !app_length in Hk. cbn [length] in Hk.
    rewrite data_step, <- !app_assoc, IH1 by lia. cbn [bind app]. step_in E1; [|exfalso; apply E1; eexists; reflexivity]. injection E1 as <-.
    change (us ++ TChar 93 :: rest) with (us ++ [TChar 93] ++ rest). rewrite IH2 by lia. reflexivity.
  - intros s k rest Hk _ _. exists s, [], []. split; [reflexivity|]. split; [reflexivity|]. intros rest' N.
    cbn [length] in Hk. destruct k as [|k]; [lia|]. cbn [app]. rewrite args_step. step_in E1; [subst; exfalso; apply N; eexists; reflexivity|reflexivity].
  - intros s ts a H IH k rest Hk _ _. exists s, [a], (TChar 58 :: ts). split; [reflexivity|]. split; [reflexivity|]. intros rest' N.
    cbn [app length] in Hk. destruct k as [|k]; [lia|]. cbn [app]. rewrite args_step. step_in E1; [|exfalso; apply E1; eexists; reflexivity]. injection E1 as <-.
    step_in E2; [exfalso; apply (datum_starts _ _ H rest'); eexists; exact E2|]. rewrite IH by lia. reflexivity.
  - intros s ts l H IH k rest Hk _ _. exists s, l, ([TChar 58; TChar 91] ++ ts ++ [TChar 93]). split; [reflexivity|]. split; [reflexivity|]. intros rest' N.
    cbn [app length] in Hk. rewrite app_length in Hk. cbn [length] in Hk.
    destruct k as [|k]; [lia|]. rewrite <- !app_assoc. cbn [app]. rewrite args_step. step_in E1; [|exfalso; apply E1; eexists; reflexivity]. injection E1 as <-.
    step_in E2; [|exfalso; apply E2; eexists; reflexivity]. injection E2 as <-.
    change (ts ++ TChar 93 :: rest') with (ts ++ [TChar 93] ++ rest'). apply IH. lia.
  - intros ts m H IH k rest Hk N1 N2. assert (Hn : (0 < length ts)%nat) by (destruct H; cbn [length app]; lia). destruct k as [|k]; [lia|]. destruct (IH k rest ltac:(lia) N1 N2) as (s & l & vs & -> & -> & A).
    cbn [app]. rewrite messages_step, A by exact N1. cbn [bind]. step_in E1; [subst; exfalso; apply N2; eexists; reflexivity|reflexivity].
  - intros ts m us ms H1 IH1 H2 IH2 k rest Hk N1 N2. rewrite !app_length in Hk. cbn [length] in Hk. destruct k as [|k]; [lia|].
    destruct (IH1 k rest ltac:(lia) N1 N2) as (s & l & vs & -> & -> & A).
    cbn [app]. rewrite messages_step, <- app_assoc. cbn [app]. rewrite A by (apply leads_no; discriminate). cbn [bind].
    step_in E1; [|exfalso; apply E1; eexists; reflexivity]. injection E1 as <-. rewrite IH2; [reflexivity|lia|exact N1|exact N2].
Qed.
