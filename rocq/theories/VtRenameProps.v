(** C98: renaming the entries of a method table.  The statements use VtRenameSpec.v and the
    functions of the table only. *)

From Coq Require Import String ZArith List Bool Lia.
From Verif Require Import Base BaseProofs Text BundleSModel BundleSProofs VtRenameModel VtRenameSpec.
Import ListNotations.
Open Scope Z_scope.

Lemma put_same {A} (f : Z -> A) l x : put f l x l = x.
Proof. unfold put. now rewrite Z.eqb_refl. Qed.
Lemma put_other {A} (f : Z -> A) l x y : y <> l -> put f l x y = f y.
Proof. intros H. unfold put. destruct (Z.eqb_spec y l); [contradiction|reflexivity]. Qed.
Lemma streq_no a b : a <> b -> streq a b = false.
Proof. intros H. destruct (streq a b) eqn:E; [apply streq_iff in E; contradiction|reflexivity]. Qed.
Lemma streq_yes a : streq a a = true. Proof. now apply streq_iff. Qed.
(** The key at [k] says [t]. *)
Definition says (ts : Z -> option text) (k : Z) (t : list Z) : Prop := k <> 0 /\ exists z, ts k = Some (z, t).
Lemma says_read ts k t : says ts k t -> read ts k = Ok t.
Proof. intros [H [z E]]. unfold read. destruct (Z.eqb_spec k 0); [contradiction|]. now rewrite E. Qed.
Lemma find_none ts key c : (forall k x, In (k, x) c -> exists t, says ts k t /\ t <> key) -> find_elem ts key c = Ok None.
Proof.
  induction c as [|[k x] c IH]; intros H; [reflexivity|]. cbn [find_elem]. destruct (H k x (or_introl eq_refl)) as (t & S & N).
  rewrite (says_read _ _ _ S). cbn [bind]. rewrite streq_no by exact N. apply IH. intros k' x' Hi. apply (H k' x'). now right.
Qed.
Lemma find_some ts key c i : (forall k x, In (k, x) c -> exists t, says ts k t /\ (t = key -> x = i)) -> (exists k x, In (k, x) c /\ says ts k key) ->
  find_elem ts key c = Ok (Some i).
Proof.
  induction c as [|[k x] c IH]; intros H (k0 & x0 & Hi & S0); [destruct Hi|]. cbn [find_elem]. destruct (H k x (or_introl eq_refl)) as (t & S & N).
  rewrite (says_read _ _ _ S). cbn [bind]. destruct (streq t key) eqn:E.
  - apply streq_iff in E. now rewrite (N E).
  - apply IH; [intros k' x' Hx; apply (H k' x'); now right|]. destruct Hi as [Hi|Hi]; [|now exists k0, x0].
    injection Hi as -> ->. pose proof (says_read _ _ _ S) as R. rewrite (says_read _ _ _ S0) in R. injection R as <-. now rewrite streq_yes in E.
Qed.
Lemma overwrite_no ts key q e c : (forall k x, In (k, x) c -> exists t, says ts k t /\ t <> key) -> overwrite ts key q e c = Ok None.
Proof.
  induction c as [|[k x] c IH]; intros H; [reflexivity|]. cbn [overwrite]. destruct (H k x (or_introl eq_refl)) as (t & S & N).
  rewrite (says_read _ _ _ S). cbn [bind]. rewrite streq_no by exact N. rewrite IH; [reflexivity|]. intros k' x' Hi. apply (H k' x'). now right.
Qed.
Lemma overwrite_yes ts key q e c : (forall k x, In (k, x) c -> exists t, says ts k t) -> (exists k x, In (k, x) c /\ says ts k key) ->
  exists a x b, c = a ++ x :: b /\ overwrite ts key q e c = Ok (Some (a ++ (q, e) :: b)) /\ (forall k y, In (k, y) a -> exists t, says ts k t /\ t <> key) /\ says ts (fst x) key.
Proof.
  induction c as [|[k x] c IH]; intros H (k0 & x0 & Hi & S0); [destruct Hi|]. cbn [overwrite]. destruct (H k x (or_introl eq_refl)) as (t & S).
  rewrite (says_read _ _ _ S). cbn [bind]. destruct (streq t key) eqn:E.
  - apply streq_iff in E. subst t. exists [], (k, x), c. split; [reflexivity|]. split; [reflexivity|]. split; [intros ? ? []|exact S].
  - assert (N : t <> key) by (intros ->; now rewrite streq_yes in E).
    destruct IH as (a & y & b & -> & R & A & Y).
    + intros k' x' Hx. apply (H k' x'). now right.
    + destruct Hi as [Hi|Hi]; [|now exists k0, x0]. injection Hi as -> ->. pose proof (says_read _ _ _ S) as R. rewrite (says_read _ _ _ S0) in R. congruence.
    + exists ((k, x) :: a), y, b. rewrite R. split; [reflexivity|]. split; [reflexivity|]. split; [|exact Y].
      intros k' y' [E'|E']; [injection E' as <- <-; now exists t|now apply (A k' y')].
Qed.
Lemma remove_no ts key c : (forall k x, In (k, x) c -> exists t, says ts k t /\ t <> key) -> remove_elems ts key c = Ok c.
Proof.
  induction c as [|[k x] c IH]; intros H; [reflexivity|]. cbn [remove_elems]. destruct (H k x (or_introl eq_refl)) as (t & S & N).
  rewrite (says_read _ _ _ S). cbn [bind]. rewrite IH; [cbn [bind]; rewrite streq_no by congruence; reflexivity|]. intros k' x' Hi. apply (H k' x'). now right.
Qed.
Lemma remove_dangling ts key c : (forall k x, In (k, x) c -> k <> 0) -> (exists k x, In (k, x) c /\ ts k = None) -> remove_elems ts key c = Ub Dangling.
Proof.
  induction c as [|[k x] c IH]; intros H (k0 & x0 & Hi & S0); [destruct Hi|]. cbn [remove_elems].
  unfold read at 1. destruct (Z.eqb_spec k 0) as [E|_]; [elim (H k x (or_introl eq_refl) E)|]. destruct (ts k) as [[z t]|] eqn:E; cbn [bind]; [|reflexivity].
  rewrite IH; [reflexivity| |].
  - intros k' x' Hx. apply (H k' x'). now right.
  - destruct Hi as [Hi|Hi]; [injection Hi as -> ->; congruence|now exists k0, x0].
Qed.
Lemma find_dangling ts key a q e b : (forall k y, In (k, y) a -> k <> 0 /\ (ts k = None \/ exists t, says ts k t /\ t <> key)) -> q <> 0 -> ts q = None ->
  find_elem ts key (a ++ (q, e) :: b) = Ub Dangling.
Proof.
  intros H Hq Q. induction a as [|[k y] a IH]; cbn [app find_elem].
  - unfold read. destruct (Z.eqb_spec q 0); [contradiction|]. now rewrite Q.
  - destruct (H k y (or_introl eq_refl)) as [K [N|(t & S & N)]].
    + unfold read. destruct (Z.eqb_spec k 0); [contradiction|]. now rewrite N.
    + rewrite (says_read _ _ _ S). cbn [bind]. rewrite streq_no by exact N. apply IH. intros k' y' Hi. apply (H k' y'). now right.
Qed.

Section Slots.
Context (slot : list Z -> Z).

(** An entry by its name. *)
Lemma entry_at t names i n : filled slot t names -> nth_error names i = Some n ->
  exists p m c, nth_error (entries t) i = Some (p, m, c) /\ says (texts t) p n /\ texts t p = Some (zlen n + 1, n) /\ In (p, i) (chains t (slot n)).
Proof.
  intros F E. destruct (nth_error (entries t) i) as [[[p m] c]|] eqn:Ee.
  - exists p, m, c. destruct (f_text _ _ _ F _ _ _ _ _ Ee E) as [P T]. split; [reflexivity|]. split; [split; [exact P|now exists (zlen n + 1)]|]. split; [exact T|].
    apply (f_chains _ _ _ F). now exists n, m, c.
  - apply nth_error_None in Ee. rewrite (f_len _ _ _ F) in Ee. apply nth_error_None in Ee. congruence.
Qed.
Lemma chain_says t names s p i : filled slot t names -> In (p, i) (chains t s) ->
  exists n, nth_error names i = Some n /\ says (texts t) p n /\ slot n = s /\ exists m c, nth_error (entries t) i = Some (p, m, c).
Proof.
  intros F H. apply (f_chains _ _ _ F) in H as (n & m & c & E1 & E2 & E3). exists n. split; [exact E2|]. destruct (f_text _ _ _ F _ _ _ _ _ E1 E2) as [P T].
  split; [split; [exact P|now exists (zlen n + 1)]|]. split; [exact E3|now exists m, c].
Qed.
Lemma name_once (names : list (list Z)) i j n : NoDup names -> nth_error names i = Some n -> nth_error names j = Some n -> i = j.
Proof.
  intros ND E1 E2. apply (proj1 (NoDup_nth_error names) ND); [apply nth_error_Some; congruence|congruence].
Qed.

(** In a table that was filled, a name finds its entry, and what is no name finds none. *)
Theorem C98_lookup t names : filled slot t names ->
  (forall i n, nth_error names i = Some n -> lookup slot t n = Ok (Some i)) /\ (forall n, ~ In n names -> lookup slot t n = Ok None).
Proof.
  intros F. split.
  - intros i n E. destruct (entry_at t names i n F E) as (p & m & c & _ & S & _ & I). apply find_some; [|now exists p, i].
    intros k x Hx. destruct (chain_says t names _ k x F Hx) as (n' & En & Sn & _). exists n'. split; [exact Sn|]. intros ->. now apply (name_once names x i n (f_names _ _ _ F)).
  - intros n Hn. apply find_none. intros k x Hx. destruct (chain_says t names _ k x F Hx) as (n' & En & Sn & _). exists n'. split; [exact Sn|].
    intros ->. apply Hn. now apply nth_error_In with x.
Qed.

(** The empty table is filled with nothing, and adding fills it. *)
Theorem C98_empty ts b : 1 <= b -> (forall l, b <= l -> ts l = None) -> filled slot (empty ts b) [].
Proof.
  intros H1 H2. constructor; cbn [empty entries texts chains count brk]; try (intros [|?]; discriminate); [reflexivity|constructor| |reflexivity|now split].
  intros s p i. split; [intros []|]. intros (n & m & c & E & _). destruct i; discriminate.
Qed.
Theorem C98_add t names name method context : filled slot t names -> ~ In name names ->
  exists t', add slot t name method context = Ok t' /\ filled slot t' (names ++ [name]) /\
    nth_error (entries t') (length names) = Some (brk t, method, context) /\ (forall l, l < brk t -> texts t' l = texts t l).
Proof.
  intros F Hn. unfold add. rewrite (proj2 (C98_lookup t names F) name Hn). cbn [bind]. destruct (f_fresh _ _ _ F) as [B0 B1].
  set (ts := put (texts t) (brk t) (Some (zlen name + 1, name))).
  assert (K : forall k x, In (k, x) (chains t (slot name)) -> exists n, says ts k n /\ n <> name).
  { intros k x Hx. destruct (chain_says t names _ k x F Hx) as (n & En & [Sn [z Ez]] & _ & _). exists n. split.
    - split; [exact Sn|]. exists z. unfold ts. rewrite put_other; [exact Ez|]. intros ->. rewrite B1 in Ez by lia. discriminate.
    - intros ->. apply Hn. now apply nth_error_In with x. }
  unfold store. cbn [texts brk entries chains count].
  assert (R : read ts (brk t) = Ok name) by (apply says_read; split; [lia|exists (zlen name + 1); apply put_same]). fold ts. rewrite R. cbn [bind].
  rewrite (overwrite_no ts name _ _ _ K). cbn [bind]. eexists. split; [reflexivity|].
  assert (Le : length (entries t) = length names) by apply (f_len _ _ _ F).
  assert (Old : forall i p m c, nth_error (entries t) i = Some (p, m, c) -> p < brk t).
  { intros i p m c E. destruct (nth_error names i) as [n|] eqn:En.
    - destruct (f_text _ _ _ F _ _ _ _ _ E En) as [_ T]. destruct (Z_lt_le_dec p (brk t)); [assumption|]. rewrite B1 in T by lia. discriminate.
    - apply nth_error_None in En. rewrite <- Le in En. apply nth_error_None in En. congruence. }
  assert (EN : forall i p m c, nth_error (entries t ++ [(brk t, method, context)]) i = Some (p, m, c) ->
    (nth_error (entries t) i = Some (p, m, c) /\ (i < length names)%nat) \/ (i = length names /\ p = brk t /\ m = method /\ c = context)).
  { intros i p m c E. destruct (lt_dec i (length (entries t))) as [L|L].
    - rewrite nth_error_app1 in E by exact L. left. split; [exact E|lia].
    - rewrite nth_error_app2 in E by lia. destruct (i - length (entries t))%nat as [|k] eqn:Ek; cbn [nth_error] in E; [|destruct k; discriminate].
      injection E as <- <- <-. right. split; [lia|now split]. }
  split; [|split].
  - constructor; cbn [texts brk entries chains count].
    + rewrite !app_length. cbn [length]. lia.
    + rewrite <- (rev_involutive (names ++ [name])). apply NoDup_rev. rewrite rev_app_distr. cbn [rev app]. constructor; [now rewrite <- in_rev|]. apply NoDup_rev, (f_names _ _ _ F).
    + intros i p m c n E1 E2. destruct (EN _ _ _ _ E1) as [[E L]|(-> & -> & -> & ->)].
      * rewrite nth_error_app1 in E2 by exact L. destruct (f_text _ _ _ F _ _ _ _ _ E E2) as [P T]. split; [exact P|]. unfold ts. rewrite put_other; [exact T|]. apply Old in E. lia.
      * rewrite nth_error_app2 in E2 by lia. rewrite Nat.sub_diag in E2. injection E2 as <-. split; [lia|apply put_same].
    + intros i j p m c m' c' E1 E2. destruct (EN _ _ _ _ E1) as [[E L]|(-> & -> & -> & ->)], (EN _ _ _ _ E2) as [[E' L']|(-> & E' & _)].
      * now apply (f_own _ _ _ F) with p m c m' c'.
      * apply Old in E. lia.
      * apply Old in E'. lia.
      * reflexivity.
    + intros s p i. assert (X : (exists n m c, nth_error (entries t ++ [(brk t, method, context)]) i = Some (p, m, c) /\ nth_error (names ++ [name]) i = Some n /\ slot n = s) <->
        In (p, i) (chains t s) \/ (p = brk t /\ i = length names /\ slot name = s)).
      { split.
        - intros (n & m & c & E1 & E2 & E3). destruct (EN _ _ _ _ E1) as [[E L]|(-> & -> & -> & ->)].
          + rewrite nth_error_app1 in E2 by exact L. left. apply (f_chains _ _ _ F). now exists n, m, c.
          + rewrite nth_error_app2 in E2 by lia. rewrite Nat.sub_diag in E2. injection E2 as <-. right. now split.
        - intros [H|(-> & -> & <-)].
          + apply (f_chains _ _ _ F) in H as (n & m & c & E1 & E2 & E3). exists n, m, c. rewrite !nth_error_app1; [now split| |]; apply nth_error_Some; congruence.
          + exists name, method, context. split; [rewrite <- Le, nth_error_app2, Nat.sub_diag by lia; reflexivity|]. split; [rewrite nth_error_app2, Nat.sub_diag by lia; reflexivity|reflexivity]. }
      rewrite X. clear X. destruct (Z.eq_dec s (slot name)) as [->|Hs].
      * rewrite put_same. cbn [In]. rewrite Le. split; [intros [H|H]; [injection H as <- <-; right; now split|now left]|intros [H|(-> & -> & _)]; [now right|now left]].
      * rewrite put_other by exact Hs. split; [now left|]. intros [H|(_ & _ & H)]; [exact H|congruence].
    + rewrite (f_count _ _ _ F). unfold zlen. rewrite app_length. cbn [length]. lia.
    + split; [lia|]. intros l Hl. unfold ts. rewrite put_other by lia. apply B1. lia.
  - cbn [entries]. rewrite <- Le, nth_error_app2, Nat.sub_diag by lia. reflexivity.
  - intros l Hl. cbn [texts]. unfold ts. apply put_other. lia.
Qed.

(** A name that no entry has cannot be renamed, and nothing changes. *)
Theorem C98_rename_absent moves t names old q : filled slot t names -> ~ In old names -> rename slot moves t old q = Ok (t, 1).
Proof. intros F Hn. unfold rename. now rewrite (proj2 (C98_lookup t names F) old Hn). Qed.

Lemma set_entry_nth l i (x : Z * Z * Z) j : (i < length l)%nat -> nth_error (set_entry l i x) j = if Nat.eqb j i then Some x else nth_error l j.
Proof.
  intros L. unfold set_entry. assert (Lf : length (firstn i l) = i) by (rewrite firstn_length; lia). destruct (Nat.eqb_spec j i) as [->|N].
  - rewrite nth_error_app2 by lia. rewrite Lf, Nat.sub_diag. reflexivity.
  - rewrite <- (firstn_skipn i l) at 3. destruct (lt_dec j i) as [H|H].
    + rewrite !nth_error_app1 by lia. reflexivity.
    + rewrite !nth_error_app2 by lia. rewrite Lf. destruct (j - i)%nat as [|k] eqn:Ek; [lia|]. cbn [nth_error].
      destruct (skipn i l) as [|y r] eqn:Es; [apply (f_equal (@length _)) in Es; rewrite skipn_length in Es; cbn [length] in Es; lia|]. cbn [nth_error].
      replace (skipn (S i) l) with r; [reflexivity|]. clear - Es. revert l Es. induction i as [|i IH]; intros [|z l] Es; cbn [skipn] in *; try discriminate; [now injection Es|].
      destruct l as [|z2 l]; [destruct i; discriminate|]. exact (IH (z2 :: l) Es).
Qed.

(** When the new name is longer and realloc moves the name of the entry, the table's own key
    is a freed name, and it is read: the behaviour is undefined, always. *)
Theorem C98_rename_moved_refuted t names i old q new : filled slot t names -> nth_error names i = Some old -> callers t q new -> zlen old < zlen new ->
  rename slot true t old q = Ub Dangling.
Proof.
  intros F E (Q0 & (qs & Q) & Qn) L. unfold rename. rewrite (proj1 (C98_lookup t names F) i old E). cbn [bind].
  destruct (entry_at t names i old F E) as (p & m & c & Ee & S & T & I). rewrite Ee. cbn [bind].
  assert (R : read (texts t) q = Ok new) by (apply says_read; split; [exact Q0|now exists qs]). rewrite R. cbn [bind]. rewrite (proj2 (Z.ltb_lt _ _) L).
  unfold resize. rewrite T. cbn [bind]. destruct (f_fresh _ _ _ F) as [B0 B1].
  assert (Lp : p < brk t) by (destruct (Z_lt_le_dec p (brk t)); [assumption|]; rewrite B1 in T by lia; discriminate).
  unfold overwrite_text. rewrite put_same. rewrite (proj2 (Z.leb_le _ _) (Z.le_refl _)). cbn [bind]. unfold remove. cbn [texts chains].
  rewrite remove_dangling; [reflexivity| |].
  - intros k x Hx. destruct (chain_says t names _ k x F Hx) as (n & _ & [K _] & _). exact K.
  - exists p, i. split; [exact I|]. rewrite put_other by lia. rewrite put_other by lia. apply put_same.
Qed.

(** Otherwise the new name finds the entry, the old one finds none, and the other names find
    what they found.  But the element of the old name stays unless both names share a slot, so
    that the table counts one element too many; and the table's key is now the caller's
    memory: once the caller frees it, looking for the new name reads freed memory. *)
Theorem C98_rename moves t names i old q new : filled slot t names -> nth_error names i = Some old -> callers t q new -> ~ In new names ->
  (moves = false \/ zlen new <= zlen old) ->
  exists t', rename slot moves t old q = Ok (t', 0) /\
    lookup slot t' new = Ok (Some i) /\ lookup slot t' old = Ok None /\ (forall k, k <> old -> k <> new -> lookup slot t' k = lookup slot t k) /\
    (exists p size m c, nth_error (entries t) i = Some (p, m, c) /\ nth_error (entries t') i = Some (p, m, c) /\ texts t' p = Some (size, new) /\
       forall y, y <> p -> texts t' y = texts t y) /\
    (forall j, j <> i -> nth_error (entries t') j = nth_error (entries t) j) /\
    count t' = count t + (if slot new =? slot old then 0 else 1) /\
    lookup slot (caller_frees t' q) new = Ub Dangling.
Proof.
  intros F E (Q0 & (qs & Q) & Qn) Hnew Hm. unfold rename. rewrite (proj1 (C98_lookup t names F) i old E). cbn [bind].
  destruct (entry_at t names i old F E) as (p & m & c & Ee & [P0 _] & T & I). rewrite Ee. cbn [bind].
  assert (R : read (texts t) q = Ok new) by (apply says_read; split; [exact Q0|now exists qs]). rewrite R. cbn [bind].
  assert (Hno : new <> old) by (intros ->; apply Hnew; now apply nth_error_In with i).
  assert (KT : exists ts size, (do ' (p, ts, b) <- (if zlen old <? zlen new then resize moves (texts t) (brk t) p (zlen new + 1) else Ok (p, texts t, brk t));
      do ts <- overwrite_text ts p new; Ok (p, ts, b)) = Ok (p, ts, brk t) /\ ts p = Some (size, new) /\ forall y, y <> p -> ts y = texts t y).
  { destruct (Z.ltb_spec (zlen old) (zlen new)) as [L|L].
    - destruct Hm as [->|H]; [|lia]. unfold resize. rewrite T. cbn [bind]. unfold overwrite_text. rewrite put_same. rewrite (proj2 (Z.leb_le _ _) (Z.le_refl _)). cbn [bind].
      eexists _, (zlen new + 1). split; [reflexivity|]. split; [apply put_same|]. intros y Hy. rewrite !put_other by exact Hy. reflexivity.
    - cbn [bind]. unfold overwrite_text. rewrite T. rewrite (proj2 (Z.leb_le (zlen new + 1) (zlen old + 1))) by lia. cbn [bind].
      eexists _, (zlen old + 1). split; [reflexivity|]. split; [apply put_same|]. intros y Hy. now apply put_other. }
  destruct KT as (ts & size & ET & Tp & To).
  destruct (if zlen old <? zlen new then resize moves (texts t) (brk t) p (zlen new + 1) else Ok (p, texts t, brk t)) as [[[p' ts'] b']| |]; cbn [bind] in ET |- *; [|discriminate|discriminate].
  destruct (overwrite_text ts' p' new) as [ts''| |]; cbn [bind] in ET |- *; [|discriminate|discriminate]. injection ET as -> -> ->.
  assert (Hpq : p <> q) by (now apply (Qn i p m c)).
  assert (Sq : says ts q new) by (split; [exact Q0|exists qs; rewrite To by congruence; exact Q]).
  (* what the keys say now *)
  assert (K : forall s k x, In (k, x) (chains t s) -> exists n, nth_error names x = Some n /\ slot n = s /\ says ts k (if Nat.eqb x i then new else n)).
  { intros s k x Hx. destruct (chain_says t names s k x F Hx) as (n & En & [S0 [z Sz]] & Sl & m' & c' & Ex). exists n. split; [exact En|]. split; [exact Sl|].
    destruct (Nat.eqb_spec x i) as [->|N].
    - rewrite Ee in Ex. injection Ex as <- _ _. split; [exact P0|now exists size].
    - split; [exact S0|]. exists z. rewrite To; [exact Sz|]. intros ->. apply N. now apply (f_own _ _ _ F) with p m' c' m c. }
  assert (N1 : forall x n, x <> i -> nth_error names x = Some n -> n <> old) by (intros x n N En ->; apply N; now apply (name_once names x i old (f_names _ _ _ F))).
  assert (N2 : forall x n, nth_error names x = Some n -> n <> new) by (intros x n En ->; apply Hnew; now apply nth_error_In with x).
  (* the element of the old name is not found *)
  unfold remove. cbn [texts brk entries chains count]. rewrite remove_no.
  2:{ intros k x Hx. destruct (K _ _ _ Hx) as (n & En & _ & S). eexists. split; [exact S|]. destruct (Nat.eqb_spec x i); [exact Hno|now apply (N1 x)]. }
  cbn [bind]. set (cc := put (chains t) (slot old) (chains t (slot old))).
  assert (Ecc : forall s, cc s = chains t s) by (intros s; unfold cc; destruct (Z.eq_dec s (slot old)) as [->|Hs]; [apply put_same|now apply put_other]).
  unfold store. cbn [texts brk entries chains count]. rewrite (says_read _ _ _ Sq). cbn [bind]. rewrite Ecc. rewrite Z.sub_diag, Z.sub_0_r.
  set (ents := set_entry (entries t) i (p, m, c)).
  assert (Li : (i < length (entries t))%nat) by (apply nth_error_Some; congruence).
  assert (KC : exists a b, (forall k y, In (k, y) a -> exists u, says ts k u /\ u <> new) /\
    (forall y, In y (a ++ (q, i) :: b) -> y = (q, i) \/ In y (chains t (slot new))) /\ (forall k x, In (k, x) (chains t (slot new)) -> x <> i -> In (k, x) (a ++ (q, i) :: b)) /\
    (do r <- overwrite ts new q i (chains t (slot new)); Ok (match r with
      | Some c => Tbl ts (brk t) ents (put cc (slot new) c) (count t)
      | None => Tbl ts (brk t) ents (put cc (slot new) ((q, i) :: chains t (slot new))) (count t + 1) end)) =
    Ok (Tbl ts (brk t) ents (put cc (slot new) (a ++ (q, i) :: b)) (count t + (if slot new =? slot old then 0 else 1)))).
  { destruct (Z.eqb_spec (slot new) (slot old)) as [Es|Es].
    - destruct (overwrite_yes ts new q i (chains t (slot new))) as (a & [k x] & b & Ec & Eo & A & X).
      + intros k x Hx. destruct (K _ _ _ Hx) as (n & _ & _ & S). eexists. exact S.
      + exists p, i. split; [rewrite Es; exact I|]. split; [exact P0|now exists size].
      + exists a, b. split; [exact A|]. rewrite Eo. cbn [bind fst] in *. rewrite Z.add_0_r. rewrite Ec. split; [|split; [|reflexivity]].
        * intros y Hy. apply in_app_or in Hy as [Hy|[Hy|Hy]]; [right; apply in_or_app; now left|now left|right; apply in_or_app; right; now right].
        * intros k' x' Hx Nx. apply in_app_or in Hx as [Hx|[Hx|Hx]]; [apply in_or_app; now left| |apply in_or_app; right; now right].
          injection Hx as <- <-. assert (Hk : In (k, x) (chains t (slot new))) by (rewrite Ec; apply in_or_app; right; now left).
          destruct (K _ _ _ Hk) as (n & En & _ & S). destruct (Nat.eqb_spec x i); [contradiction|]. pose proof (says_read _ _ _ S) as R1. rewrite (says_read _ _ _ X) in R1.
          injection R1 as <-. elim (N2 x new En). reflexivity.
    - exists [], (chains t (slot new)). split; [intros ? ? []|]. rewrite overwrite_no; [cbn [bind app]; split; [|split; [|reflexivity]]|].
      + intros y [<-|Hy]; [now left|now right].
      + intros k x Hx _. now right.
      + intros k x Hx. destruct (K _ _ _ Hx) as (n & En & Sl & S). eexists. split; [exact S|]. destruct (Nat.eqb_spec x i) as [->|]; [|now apply (N2 x)].
        rewrite E in En. injection En as <-. congruence. }
  destruct KC as (a & b & A & C1 & C2 & ES). rewrite ES. cbn [bind]. clear ES.
  set (t' := Tbl ts (brk t) ents (put cc (slot new) (a ++ (q, i) :: b)) (count t + (if slot new =? slot old then 0 else 1))).
  (* the chains *)
  assert (D1 : forall s k x, In (k, x) (chains t' s) -> (k = q /\ x = i) \/ In (k, x) (chains t s)).
  { intros s k x Hx. cbn [t' chains] in Hx. destruct (Z.eq_dec s (slot new)) as [->|Hs].
    - rewrite put_same in Hx. apply C1 in Hx as [Hx|Hx]; [injection Hx as -> ->; now left|now right].
    - rewrite put_other, Ecc in Hx by exact Hs. now right. }
  assert (D2 : forall s k x, In (k, x) (chains t s) -> x <> i -> In (k, x) (chains t' s)).
  { intros s k x Hx Nx. cbn [t' chains]. destruct (Z.eq_dec s (slot new)) as [->|Hs]; [rewrite put_same; now apply C2|rewrite put_other, Ecc by exact Hs; exact Hx]. }
  assert (D3 : chains t' (slot new) = a ++ (q, i) :: b) by (cbn [t' chains]; apply put_same).
  assert (D4 : forall s k x, In (k, x) (chains t' s) -> exists u, says ts k u /\ (u = new /\ x = i \/ x <> i /\ nth_error names x = Some u)).
  { intros s k x Hx. destruct (D1 _ _ _ Hx) as [[-> ->]|Hc]; [exists new; split; [exact Sq|now left]|]. destruct (K _ _ _ Hc) as (n & En & _ & S). eexists. split; [exact S|].
    destruct (Nat.eqb_spec x i); [now left|now right]. }
  exists t'. split; [reflexivity|]. split; [|split; [|split; [|split; [|split; [|split; [reflexivity|]]]]]].
  - apply find_some.
    + intros k x Hx. destruct (D4 _ _ _ Hx) as (u & S & H). exists u. split; [exact S|]. intros ->. destruct H as [[_ H]|[_ H]]; [exact H|]. elim (N2 x new H). reflexivity.
    + exists q, i. split; [rewrite D3; apply in_or_app; right; now left|exact Sq].
  - apply find_none. intros k x Hx. destruct (D4 _ _ _ Hx) as (u & S & H). exists u. split; [exact S|]. destruct H as [[-> _]|[H H2]]; [exact Hno|now apply (N1 x)].
  - intros k Ho Hn. destruct (in_dec (list_eq_dec Z.eq_dec) k names) as [Hi|Hi].
    + apply In_nth_error in Hi as [j Ej]. assert (Nj : j <> i) by (intros ->; congruence). rewrite (proj1 (C98_lookup t names F) j k Ej).
      destruct (entry_at t names j k F Ej) as (pj & mj & cj & Eej & _ & _ & Ij). apply find_some.
      * intros k' x Hx. destruct (D4 _ _ _ Hx) as (u & S & H). exists u. split; [exact S|]. intros ->. destruct H as [[-> _]|[_ H]]; [contradiction|]. now apply (name_once names x j k (f_names _ _ _ F)).
      * exists pj, j. split; [now apply D2|]. destruct (K _ _ _ Ij) as (n & En & _ & S). rewrite (proj2 (Nat.eqb_neq j i) Nj) in S. rewrite Ej in En. injection En as <-. exact S.
    + rewrite (proj2 (C98_lookup t names F) k Hi). apply find_none. intros k' x Hx. destruct (D4 _ _ _ Hx) as (u & S & H). exists u. split; [exact S|].
      intros ->. destruct H as [[-> _]|[_ H]]; [contradiction|]. apply Hi. now apply nth_error_In with x.
  - exists p, size, m, c. split; [reflexivity|]. split; [|now split]. cbn [t' entries]. unfold ents. rewrite set_entry_nth by exact Li. now rewrite Nat.eqb_refl.
  - intros j Nj. cbn [t' entries]. unfold ents. rewrite set_entry_nth by exact Li. now rewrite (proj2 (Nat.eqb_neq j i) Nj).
  - unfold lookup, caller_frees. cbn [texts chains]. rewrite D3. apply find_dangling; [|exact Q0|now rewrite Z.eqb_refl].
    intros k y Hy. destruct (A k y Hy) as (u & [S0 [z Sz]] & N). split; [exact S0|]. destruct (Z.eqb_spec k q); [now left|]. right. exists u. split; [|exact N].
    split; [exact S0|]. exists z. cbn [t' texts]. destruct (Z.eqb_spec k q); [contradiction|exact Sz].
Qed.
End Slots.
Print Assumptions C98_lookup.
Print Assumptions C98_empty.
Print Assumptions C98_add.
Print Assumptions C98_rename_absent.
Print Assumptions C98_rename_moved_refuted.
Print Assumptions C98_rename.

(** ** A table of /a and /bb, and the caller's names /c at 1 and /longer at 2 *)
Definition example_slot (n : list Z) : Z := zlen n mod 17.
Definition example_texts (l : Z) : option text := if l =? 1 then Some (3, str "/c") else if l =? 2 then Some (8, str "/longer") else None.
Definition example_table : table :=
  match (do t <- add example_slot (empty example_texts 3) (str "/a") 10 0; add example_slot t (str "/bb") 11 0) with Ok t => t | _ => empty example_texts 3 end.
Example example_filled : filled example_slot example_table [str "/a"; str "/bb"].
Proof.
  unfold example_table. destruct (C98_add example_slot (empty example_texts 3) [] (str "/a") 10 0) as (t1 & E1 & F1 & _).
  - apply C98_empty; [lia|]. intros l Hl. unfold example_texts. destruct (Z.eqb_spec l 1); [lia|]. destruct (Z.eqb_spec l 2); [lia|reflexivity].
  - intros [].
  - destruct (C98_add example_slot t1 [str "/a"] (str "/bb") 11 0 F1) as (t2 & E2 & F2 & _); [intros [H|[]]; discriminate H|]. rewrite E1. cbn [bind]. rewrite E2. exact F2.
Qed.
Example example_callers : callers example_table 1 (str "/c") /\ callers example_table 2 (str "/longer").
Proof.
  assert (N : forall q i p m c, q < 3 -> nth_error (entries example_table) i = Some (p, m, c) -> p <> q).
  { intros q i p m c Hq E ->. destruct i as [|[|[|i]]]; vm_compute in E; try discriminate; injection E as <- _ _; lia. }
  split; (split; [lia|]); (split; [eexists; vm_compute; reflexivity|]); intros; now apply N with i m c.
Qed.
Example example_renamed :
  (exists t', rename example_slot true example_table (str "/a") 1 = Ok (t', 0) /\ lookup example_slot t' (str "/c") = Ok (Some 0%nat) /\ lookup example_slot t' (str "/a") = Ok None /\
     lookup example_slot t' (str "/bb") = Ok (Some 1%nat)) /\
  rename example_slot true example_table (str "/a") 2 = Ub Dangling /\
  (exists t', rename example_slot false example_table (str "/a") 2 = Ok (t', 0) /\ lookup example_slot t' (str "/longer") = Ok (Some 0%nat) /\ count t' = 3).
Proof. split; [eexists; vm_compute; repeat split|]. split; [reflexivity|]. eexists. vm_compute. repeat split. Qed.
