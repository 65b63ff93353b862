(** The scanner of expressions reads what is spelled. *)

From Coq Require Import String ZArith List Bool Lia.
From Verif Require Import Base Text BaseProofs WireSpec TimetagModel SerialModel SerialSpec AtomSModel AtomSpec AtomProofs FormatSpec
  ScanModel ScanSpec ScanProofs ScanTokens ScanGrammar ExprParseModel ExprTextSpec.
Import ListNotations.
Open Scope Z_scope.

(** * More about regular expressions *)

(** The last characters, and the characters that can follow each other. *)
Fixpoint final (r : re) (c : Z) : bool :=
  match r with
  | Void | Eps => false
  | Cls f => f c
  | Cat r s => final s c || (nullable s && final r c)
  | Alt r s => final r c || final s c
  | Star r => final r c
  end.
Fixpoint pair (r : re) (c d : Z) : bool :=
  match r with
  | Void | Eps | Cls _ => false
  | Cat r s => pair r c d || pair s c d || (final r c && first s d)
  | Alt r s => pair r c d || pair s c d
  | Star r => pair r c d || (final r c && first r d)
  end.
Lemma final_ok r w : matches r w -> forall u c, w = u ++ [c] -> final r c = true.
Proof.
  induction 1 as [|f x E|r s u v H1 IH1 H2 IH2|r s u H1 IH1|r s u H1 IH1|r|r u v H1 IH1 H2 IH2]; intros p c Ex; cbn [final].
  - now destruct p.
  - destruct p as [|y p]; [now injection Ex as ->|]. now destruct p.
  - destruct v as [|y v] using rev_ind.
    + rewrite app_nil_r in Ex. rewrite (IH1 _ _ Ex). apply nullable_ok in H2. rewrite H2. apply orb_true_r.
    + clear IHv. rewrite app_assoc in Ex. apply app_inj_tail in Ex as [_ ->]. now rewrite (IH2 _ _ eq_refl).
  - now rewrite (IH1 _ _ Ex).
  - rewrite (IH1 _ _ Ex). apply orb_true_r.
  - now destruct p.
  - destruct v as [|y v] using rev_ind.
    + rewrite app_nil_r in Ex. now apply (IH1 _ _ Ex).
    + clear IHv. rewrite app_assoc in Ex. apply app_inj_tail in Ex as [_ ->]. now apply (IH2 _ _ eq_refl).
Qed.
Lemma app_split {A} (u v p : list A) c d q : u ++ v = p ++ c :: d :: q ->
  (exists q', u = p ++ c :: d :: q') \/ (u = p ++ [c] /\ v = d :: q) \/ (exists p', v = p' ++ c :: d :: q).
Proof.
  revert p; induction u as [|x u IH]; intros p E; cbn [app] in E; [right; right; now exists p|].
  destruct p as [|y p]; cbn [app] in E; injection E as -> E.
  - destruct u as [|z u]; cbn [app] in E; [right; left; now split|]. injection E as -> E. left. now exists u.
  - destruct (IH p E) as [(q' & ->)|[[-> ->]|(p' & ->)]]; [left; now exists q'|right; left; now split|right; right; now exists p'].
Qed.
Lemma pair_ok r w : matches r w -> forall u c d v, w = u ++ c :: d :: v -> pair r c d = true.
Proof.
  induction 1 as [|f x E|r s u v H1 IH1 H2 IH2|r s u H1 IH1|r s u H1 IH1|r|r u v H1 IH1 H2 IH2]; intros p c d q Ex; cbn [pair].
  - now destruct p.
  - destruct p as [|y p]; [discriminate|]. now destruct p.
  - destruct (app_split _ _ _ _ _ _ Ex) as [(q' & E)|[[E1 E2]|(p' & E)]].
    + now rewrite (IH1 _ _ _ _ E).
    + subst v. rewrite (final_ok _ _ H1 _ _ E1), (first_ok _ _ _ H2). apply orb_true_r.
    + rewrite (IH2 _ _ _ _ E). now rewrite orb_true_r.
  - now rewrite (IH1 _ _ _ _ Ex).
  - rewrite (IH1 _ _ _ _ Ex). apply orb_true_r.
  - now destruct p.
  - destruct (app_split _ _ _ _ _ _ Ex) as [(q' & E)|[[E1 E2]|(p' & E)]].
    + now rewrite (IH1 _ _ _ _ E).
    + subst v. rewrite (final_ok _ _ H1 _ _ E1). apply (first_ok (Star r)) in H2. cbn [first] in H2. rewrite H2. apply orb_true_r.
    + specialize (IH2 _ _ _ _ E). cbn [pair] in IH2. exact IH2.
Qed.
Lemma longest_pair r w c d rest n : pair r c d = false -> longest r ((w ++ [c]) ++ d :: rest) = Some n -> (n <= length (w ++ [c]))%nat.
Proof.
  intros P E. destruct (longest_sound _ _ _ E) as [H1 H2]. destruct (le_lt_dec n (length (w ++ [c]))) as [L|L]; [exact L|]. exfalso.
  rewrite firstn_app in H2. destruct (n - length (w ++ [c]))%nat as [|k] eqn:Ek; [lia|]. rewrite firstn_all2 in H2 by lia.
  cbn [firstn] in H2. rewrite <- app_assoc in H2. cbn [app] in H2.
  pose proof (pair_ok r _ H2 w c d _ eq_refl). congruence.
Qed.
Lemma cat_inv r s w : matches (Cat r s) w -> exists u v, w = u ++ v /\ matches r u /\ matches s v.
Proof. intros H. inversion H as [| |? ? u v H1 H2| | | |]; subst. now exists u, v. Qed.
Lemma cls_inv f w : matches (Cls f) w -> exists c, w = [c] /\ f c = true.
Proof. intros H. inversion H as [|? c E| | | | |]; subst. now exists c. Qed.
Lemma matches_word v w : matches (word v) w -> w = v.
Proof.
  revert w; induction v as [|c v IH]; intros w H; [now inversion H|].
  change (word (c :: v)) with (Cat (lit c) (word v)) in H.
  inversion H as [| |? ? u x H1 H2| | | |]; subst. apply IH in H2 as ->. inversion H1; subst.
  match goal with E : (c =? _) = true |- _ => apply Z.eqb_eq in E as <- end. reflexivity.
Qed.
Lemma longest_word_inv v s m : longest (word v) s = Some m -> m = length v /\ exists x, s = v ++ x.
Proof.
  intros H. destruct (longest_sound _ _ _ H) as [L M]. apply matches_word in M.
  assert (m = length v) by (rewrite <- M, firstn_length; lia). split; [exact H0|]. exists (skipn m s). rewrite <- M. symmetry. apply firstn_skipn.
Qed.
Lemma matches_any l w : matches (any_of (map word l)) w -> In w l.
Proof.
  induction l as [|v l IH]; intros H; inversion H; subst; [left; symmetry; now apply matches_word|right; auto].
Qed.
Lemma pick_skip {A} (before after : list (re * A)) s : Forall (fun x => longest (fst x) s = None) before ->
  pick (before ++ after) s = pick after s.
Proof. induction 1 as [|[r a] before H _ IH]; [reflexivity|]. cbn [app pick fst] in *. now rewrite H. Qed.
Lemma next_longest l r w rest n : forallb (fun d => negb (alphabet r d)) l = true -> next_in l rest ->
  longest r (w ++ rest) = Some n -> (n <= length w)%nat.
Proof.
  intros F N E. destruct rest as [|d rest]; [now apply longest_ends in E|]. cbn [next_in] in N.
  rewrite forallb_forall in F. specialize (F d N). apply negb_true_iff in F. now apply longest_stops in E.
Qed.
Lemma next_is l r w rest : forallb (fun d => negb (alphabet r d)) l = true -> next_in l rest -> matches r w ->
  longest r (w ++ rest) = Some (length w).
Proof. intros F N M. apply longest_is; [exact M|]. intros n. now apply (next_longest l). Qed.

Section ETokens.
Context (strtod : list Z -> Z) (junk : bytes).

Definition escans (l : elexer) (s : list Z) (ts : list etoken) : Prop :=
  forall k, (length s <= k)%nat -> e_scan strtod junk k l s = Ok ts.
Definition answer (r : result) (ts : list etoken) : list etoken := match r with Return t => t :: ts | _ => ts end.
Lemma escans_nil l : escans l [] [].
Proof. intros k _. now destruct k. Qed.
Lemma escans_step l s act n l' r k ts : s <> [] -> pick (rules_of strtod junk (e_mode l)) s = Some (act, n) ->
  act (firstn n s) l = Ok (l', r, k) -> (0 < k)%nat -> r <> Finish -> escans l' (skipn k s) ts -> escans l s (answer r ts).
Proof.
  intros Hs Hp Ha Hk Hr H f Hf. destruct s as [|c s]; [contradiction|]. destruct f as [|f]; [cbn [length] in Hf; lia|].
  cbn [e_scan]. rewrite Hp, Ha. cbn [bind].
  assert (L : (length (skipn k (c :: s)) <= f)%nat) by (rewrite skipn_length; cbn [length] in Hf |- *; lia).
  destruct r; [now rewrite H|now rewrite H|congruence].
Qed.

(** The rules after the signs. *)
Definition others : list (re * eaction) :=
  [ (seq [word (str "quote"); Star space; lit 40], enters InQuote);
    (lit 34, enters InText);
    (word [34; 34], ereturns (fun _ => TStr []));
    (natural_re, ereturns (fun s => TNum (set_int32 atom_fresh (s32 (strtol s)))));
    (hex_re, ereturns (fun s => TNum (hex_atom s)));
    (c99_floating_point_constant, ereturns (fun s => TNum (set_double atom_fresh (strtod s))));
    (seq [lit 39; dot; lit 39], act_letter);
    (any_of [word (str "true"); word (str "True"); word (str "TRUE")], ereturns (fun _ => TNum (set_true atom_fresh)));
    (any_of [word (str "false"); word (str "False"); word (str "FALSE")], ereturns (fun _ => TNum (set_false atom_fresh)));
    (any_of [word (str "nil"); word (str "Nil"); word (str "NIL")], ereturns (fun _ => TNum (set_nil atom_fresh)));
    (word (str "lambda"), ereturns (fun _ => TLambda));
    (eaddress_re, ereturns TAddr);
    (name_re, ereturns TStr);
    (Alt (plus (lit 59)) (plus (Cat (lit 59) (Star space))), ereturns (fun _ => TSemi));
    (plus (one_of [32; 9; 10]), eskips) ].
Definition sign_rules : list (re * eaction) := map (fun '(s, t) => (word s, ereturns (fun _ => t))) symbols.
Lemma rules_eq : e_rules strtod = [(Cat (lit 35) (Star dot), eskips)] ++ sign_rules ++ others.
Proof. reflexivity. Qed.

(** First characters. *)
Definition sign_chars : list Z := str "+-*/%^!=[]:?<>`.&|,;(){}".
Lemma in_symbols s t : In (s, t) symbols -> exists c s', s = c :: s' /\ In c sign_chars.
Proof.
  intros H.
  assert (F : forallb (fun x => match fst x with [] => false | c :: _ => existsb (Z.eqb c) sign_chars end) symbols = true) by reflexivity.
  rewrite forallb_forall in F. specialize (F _ H). cbn [fst] in F. destruct s as [|c s]; [discriminate|].
  apply existsb_exists in F as (d & Hd & E). apply Z.eqb_eq in E as ->. now exists d, s.
Qed.
Lemma signs_dead c s : ~ In c sign_chars -> Forall (fun x => longest (fst x) (c :: s) = None) sign_rules.
Proof.
  intros H. unfold sign_rules. rewrite Forall_forall. intros x Hx. apply in_map_iff in Hx as ([v t] & <- & Hv). cbn [fst].
  destruct (longest (word v) (c :: s)) as [m|] eqn:E; [|reflexivity]. exfalso. apply longest_word_inv in E as [_ (y & E)].
  destruct (in_symbols _ _ Hv) as (d & v' & -> & Hd). injection E as -> _. contradiction.
Qed.
Lemma pick_others c s : c <> 35 -> ~ In c sign_chars -> pick (e_rules strtod) (c :: s) = pick others (c :: s).
Proof.
  intros H1 H2. rewrite rules_eq, app_assoc. apply pick_skip. apply Forall_app. split; [|now apply signs_dead].
  constructor; [|constructor]. cbn [fst]. apply longest_first; [reflexivity|].
  cbn [first lit nullable andb]. rewrite (proj2 (Z.eqb_neq 35 c)) by congruence. reflexivity.
Qed.
Lemma others_nth i r a w rest c w' : w = c :: w' -> c <> 35 -> ~ In c sign_chars ->
  nth_error others i = Some (r, a) -> longest r (w ++ rest) = Some (length w) ->
  Forall (below (w ++ rest) (length w)) (firstn i others) -> Forall (upto (w ++ rest) (length w)) (skipn (S i) others) ->
  pick (e_rules strtod) (w ++ rest) = Some (a, length w).
Proof.
  intros -> H1 H2 Hi L Hb Ha. cbn [app] in *. rewrite pick_others by assumption. now apply (pick_nth others i r).
Qed.
Lemma rules_nth i r a s n : nth_error others i = Some (r, a) -> longest r s = Some n ->
  below s n (Cat (lit 35) (Star dot), eskips) -> Forall (below s n) sign_rules ->
  Forall (below s n) (firstn i others) -> Forall (upto s n) (skipn (S i) others) -> pick (e_rules strtod) s = Some (a, n).
Proof.
  intros Hi L H0 H1 H2 H3. apply (pick_nth (e_rules strtod) (43 + i) r a s n).
  - exact Hi.
  - exact L.
  - rewrite rules_eq, app_assoc, firstn_app, firstn_all2 by (cbn; lia). apply Forall_app. split; [apply Forall_app; split; [now constructor|exact H1]|].
    change (length ([(Cat (lit 35) (Star dot), eskips)] ++ sign_rules)) with 43%nat. replace (43 + i - 43)%nat with i by lia. exact H2.
  - exact H3.
Qed.
Lemma escans_rule f w rest ts : w <> [] -> pick (e_rules strtod) (w ++ rest) = Some (ereturns f, length w) ->
  escans elexer_start rest ts -> escans elexer_start (w ++ rest) (f w :: ts).
Proof.
  intros Hw P H.
  apply (escans_step elexer_start (w ++ rest) (ereturns f) (length w) elexer_start (Return (f w)) (length w) ts).
  - destruct w; [contradiction|discriminate].
  - exact P.
  - rewrite firstn_word. reflexivity.
  - destruct w; [contradiction|cbn [length]; lia].
  - discriminate.
  - now rewrite skipn_word.
Qed.
Ltac rules := cbn [firstn skipn others]; repeat first [apply Forall_nil | apply Forall_cons].
Ltac dead := first [apply below_none | apply upto_none]; cbn [fst app]; refine (longest_first _ _ _ _ _); reflexivity.

(** ** Reserved words *)

Lemma upto_next {A} l r w rest (a : A) : forallb (fun d => negb (alphabet r d)) l = true -> next_in l rest -> upto (w ++ rest) (length w) (r, a).
Proof. intros F N m. cbn [fst]. now apply (next_longest l). Qed.
Lemma word_self v : matches (word v) v.
Proof. induction v as [|c v IH]; [constructor|]. exact (M_cat _ _ [c] v (matches_lit c) IH). Qed.
Lemma any_self l w : In w l -> matches (any_of (map word l)) w.
Proof. induction l as [|v l IH]; [intros []|]. intros [->|H]; [apply M_left, word_self|apply M_right; auto]. Qed.
Lemma escans_reserved i f l w rest ts : nth_error others i = Some (any_of (map word l), ereturns f) ->
  In w l -> next_in name_ends rest -> In (i, l) [(7%nat, yes); (8%nat, no); (9%nat, nothing)] ->
  escans elexer_start rest ts -> escans elexer_start (w ++ rest) (f w :: ts).
Proof.
  intros Hi Hw N Hl H.
  assert (L : longest (any_of (map word l)) (w ++ rest) = Some (length w)).
  { apply (next_is name_ends); [|exact N|now apply any_self].
    destruct Hl as [[= <- <-]|[[= <- <-]|[[= <- <-]|[]]]]; reflexivity. }
  apply escans_rule; [|destruct w as [|c w']; [exfalso|apply (others_nth i (any_of (map word l)) (ereturns f) (c :: w') rest c w' eq_refl)]|exact H].
  - destruct Hl as [[= <- <-]|[[= <- <-]|[[= <- <-]|[]]]]; destruct Hw as [<-|[<-|[<-|[]]]]; discriminate.
  - destruct Hl as [[= <- <-]|[[= <- <-]|[[= <- <-]|[]]]]; destruct Hw as [Hw|[Hw|[Hw|[]]]]; discriminate.
  - destruct Hl as [[= <- <-]|[[= <- <-]|[[= <- <-]|[]]]]; destruct Hw as [[= <- <-]|[[= <- <-]|[[= <- <-]|[]]]]; discriminate.
  - destruct Hl as [[= <- <-]|[[= <- <-]|[[= <- <-]|[]]]]; destruct Hw as [[= <- <-]|[[= <- <-]|[[= <- <-]|[]]]]; cbn; intuition discriminate.
  - exact Hi.
  - exact L.
  - clear Hi L. destruct Hl as [[= <- <-]|[[= <- <-]|[[= <- <-]|[]]]]; destruct Hw as [[= <- <-]|[[= <- <-]|[[= <- <-]|[]]]]; rules; dead.
  - clear Hi L. destruct Hl as [[= <- <-]|[[= <- <-]|[[= <- <-]|[]]]]; destruct Hw as [[= <- <-]|[[= <- <-]|[[= <- <-]|[]]]]; rules;
      first [dead|now apply (upto_next name_ends)].
Qed.
Lemma escans_lambda rest ts : next_in name_ends rest -> escans elexer_start rest ts ->
  escans elexer_start (str "lambda" ++ rest) (TLambda :: ts).
Proof.
  intros N H. apply (escans_rule (fun _ => TLambda) (str "lambda")); [discriminate| |exact H].
  eapply (others_nth 10 _ _ (str "lambda") rest 108 (str "ambda") eq_refl).
  - discriminate.
  - cbn; intuition discriminate.
  - reflexivity.
  - apply longest_word.
  - rules; dead.
  - rules; first [dead|now apply (upto_next name_ends)].
Qed.

(** ** Names *)

Lemma not_in l c : ~ In c l -> existsb (Z.eqb c) l = false.
Proof.
  intros H. destruct (existsb (Z.eqb c) l) eqn:E; [|reflexivity]. apply existsb_exists in E as (d & Hd & E). apply Z.eqb_eq in E as ->. contradiction.
Qed.
Lemma name_chars c : In c not_in_name <-> In c name_ends.
Proof. cbn. intuition. Qed.
Lemma name_first c : ~ In c name_ends -> ~ 48 <= c <= 57 -> In c (not_in_name ++ str "0123456789") -> False.
Proof.
  intros H1 H2 H. apply in_app_or in H as [H|H]; [now apply name_chars in H|]. cbn in H. lia.
Qed.
Lemma matches_name c s : ~ 48 <= c <= 57 -> Forall (fun c => ~ In c name_ends) (c :: s) -> matches name_re (c :: s).
Proof.
  intros H1 H2. apply (M_cat _ _ [c] s).
  - apply M_cls. apply negb_true_iff, not_in. intros H. apply (name_first c); [now apply Forall_inv in H2|exact H1|exact H].
  - apply matches_star. apply Forall_inv_tail in H2. revert H2. apply Forall_impl. intros d Hd. apply negb_true_iff, not_in. now rewrite name_chars.
Qed.
Lemma below_any {A} v w rest (a : A) : forallb (fun d => negb (alphabet (any_of (map word v)) d)) name_ends = true -> next_in name_ends rest ->
  ~ In w v -> below (w ++ rest) (length w) (any_of (map word v), a).
Proof.
  intros F N Hn m. cbn [fst]. intros E. pose proof (next_longest name_ends _ _ _ _ F N E) as L.
  destruct (Nat.eq_dec m (length w)) as [-> |]; [|lia]. exfalso. destruct (longest_sound _ _ _ E) as [_ M]. rewrite firstn_word in M.
  now apply matches_any in M.
Qed.

(** First characters of rules. *)
Definition bytes_first (r : re) (l : list Z) : Prop := forall c, first r c = true -> In c l.
Lemma first_cat r s l : nullable r = false -> bytes_first r l -> bytes_first (Cat r s) l.
Proof. intros Hn H c. cbn [first]. rewrite Hn, orb_false_r. apply H. Qed.
Lemma first_cat' r s l : bytes_first r l -> bytes_first s l -> bytes_first (Cat r s) l.
Proof. intros H1 H2 c. cbn [first]. rewrite orb_true_iff, andb_true_iff. intros [H|[_ H]]; auto. Qed.
Lemma first_alt r s l : bytes_first r l -> bytes_first s l -> bytes_first (Alt r s) l.
Proof. intros H1 H2 c. cbn [first]. rewrite orb_true_iff. intros [H|H]; auto. Qed.
Lemma first_star r l : bytes_first r l -> bytes_first (Star r) l.
Proof. intros H c. cbn [first]. apply H. Qed.
Lemma first_eps l : bytes_first Eps l.
Proof. intros c. discriminate. Qed.
Lemma first_void l : bytes_first Void l.
Proof. intros c. discriminate. Qed.
Lemma first_lit d l : In d l -> bytes_first (lit d) l.
Proof. intros H c. cbn [first lit]. rewrite Z.eqb_eq. now intros <-. Qed.
Lemma first_one_of v l : incl v l -> bytes_first (one_of v) l.
Proof. intros H c. cbn [first one_of]. rewrite existsb_exists. intros (d & Hd & E). apply Z.eqb_eq in E as ->. auto. Qed.
Lemma first_range a b l : (forall c, a <= c <= b -> In c l) -> bytes_first (range a b) l.
Proof. intros H c. cbn [first range]. rewrite andb_true_iff, !Z.leb_le. apply H. Qed.
Lemma first_out r l c : bytes_first r l -> ~ In c l -> first r c = false.
Proof. intros H Hn. destruct (first r c) eqn:E; [|reflexivity]. now apply H in E. Qed.
Definition number_firsts : list Z := str ".0123456789".
Lemma first_natural : bytes_first natural_re number_firsts.
Proof. apply first_alt; [apply first_cat; [reflexivity|]; apply first_range; intros c H; cbn; lia|apply first_lit; cbn; auto]. Qed.
Lemma first_hex : bytes_first hex_re number_firsts.
Proof. apply first_cat; [reflexivity|]. apply first_lit. cbn. auto. Qed.
Lemma first_digit : bytes_first digit number_firsts.
Proof. apply first_range. intros c H. cbn. lia. Qed.
Lemma first_c99 : bytes_first c99_floating_point_constant number_firsts.
Proof.
  assert (D : bytes_first dseq number_firsts) by (apply first_cat; [reflexivity|exact first_digit]).
  assert (H : bytes_first hpref number_firsts) by (apply first_cat; [reflexivity|]; apply first_lit; cbn; auto).
  apply first_alt; apply first_alt; (apply first_cat; [reflexivity|]); try assumption.
  apply first_alt; [|now apply first_cat]. apply first_cat'; [apply first_star, first_digit|].
  apply first_cat; [reflexivity|]. apply first_lit. cbn. auto.
Qed.
Lemma first_words v l : forallb (fun w => match w with [] => false | c :: _ => existsb (Z.eqb c) l end) v = true ->
  bytes_first (any_of (map word v)) l.
Proof.
  intros H. induction v as [|w v IH]; [apply first_void|]. cbn [forallb] in H. apply andb_true_iff in H as [H1 H2].
  apply first_alt; [|auto]. destruct w as [|c w]; [discriminate|]. apply existsb_exists in H1 as (d & Hd & E). apply Z.eqb_eq in E as ->.
  apply first_cat; [reflexivity|]. now apply first_lit.
Qed.
Lemma below_out {A} r l c w rest n (a : A) : nullable r = false -> bytes_first r l -> ~ In c l -> below ((c :: w) ++ rest) n (r, a).
Proof. intros H1 H2 H3. apply below_firsts; [exact H1|]. now apply (first_out r l). Qed.
Lemma upto_out {A} r l c w rest n (a : A) : nullable r = false -> bytes_first r l -> ~ In c l -> upto ((c :: w) ++ rest) n (r, a).
Proof. intros H1 H2 H3. apply upto_firsts; [exact H1|]. now apply (first_out r l). Qed.
Definition quote_re : re := seq [word (str "quote"); Star space; lit 40].
Lemma longest_quote w rest : next_in name_ends rest -> w <> str "quote" ->
  Forall (fun c => ~ In c name_ends /\ ~ 11 <= c <= 13) w -> longest quote_re (w ++ rest) = None.
Proof.
  intros N Hw Hf. destruct (longest quote_re (w ++ rest)) as [n|] eqn:E; [exfalso|reflexivity]. destruct (longest_sound _ _ _ E) as [L M].
  unfold quote_re, seq in M. cbn [fold_right] in M. remember (word (str "quote")) as q eqn:Eq. remember (firstn n (w ++ rest)) as t eqn:Et.
  apply cat_inv in M as (u & v & E1 & M1 & M2). subst q. apply (matches_word (str "quote")) in M1 as ->.
  assert (S : exists y, w ++ rest = str "quote" ++ v ++ y).
  { exists (skipn n (w ++ rest)). rewrite app_assoc, <- E1, Et. symmetry. apply firstn_skipn. }
  assert (K : exists c v', v = c :: v' /\ In c [40; 32; 9; 10; 11; 12; 13]).
  { apply cat_inv in M2 as (u' & v0 & -> & M3 & M4). destruct u' as [|c u'].
    - apply cat_inv in M4 as (u1 & v1 & -> & M5 & M6). apply cls_inv in M5 as (d & -> & Ed). apply Z.eqb_eq in Ed as <-. cbn [app].
      eexists _, _. split; [reflexivity|now left].
    - cbn [app]. eexists _, _. split; [reflexivity|]. right. apply first_ok in M3. apply existsb_exists in M3 as (d & Hd & Ed).
      apply Z.eqb_eq in Ed as ->. exact Hd. }
  destruct S as (y & S). destruct K as (c & v' & -> & Hc). apply app_eq_app in S as (x & [[-> S]|[Eq S]]).
  - destruct x as [|d x]; [now rewrite app_nil_r in Hw|]. injection S as <- _. apply Forall_app in Hf as [_ Hf]. apply Forall_inv in Hf as [H1 H2].
    cbn [In] in Hc. decompose [or] Hc; subst; try lia; try (now (apply H1; cbn; auto 40)); contradiction.
  - destruct x as [|d x]; [rewrite app_nil_r in Eq; congruence|]. subst rest. cbn [next_in app] in N.
    assert (Hd : In d (str "quote")) by (rewrite Eq; apply in_or_app; right; now left).
    clear - N Hd. cbn in N, Hd. lia.
Qed.
Lemma escans_name c s rest ts : c <> 35 -> ~ 48 <= c <= 57 -> Forall (fun c => ~ In c name_ends /\ ~ 11 <= c <= 13) (c :: s) ->
  ~ In (c :: s) reserved -> next_in name_ends rest -> escans elexer_start rest ts ->
  escans elexer_start ((c :: s) ++ rest) (TStr (c :: s) :: ts).
Proof.
  intros H1 H2 H3 H4 N H. apply (escans_rule TStr (c :: s)); [discriminate| |exact H].
  assert (H3' : Forall (fun c => ~ In c name_ends) (c :: s)) by (revert H3; apply Forall_impl; intros d Hd; apply Hd).
  pose proof (Forall_inv H3') as Hc. cbv beta in Hc.
  assert (Hn : ~ In c number_firsts) by (intros K; apply Hc; cbn in K |- *; lia).
  apply (others_nth 12 name_re (ereturns TStr) (c :: s) rest c s eq_refl H1).
  - intros K. apply Hc. cbn in K |- *. lia.
  - reflexivity.
  - apply (next_is name_ends); [reflexivity|exact N|now apply matches_name].
  - rules.
    + apply below_none. cbn [fst]. apply longest_quote; [exact N|intros E; apply H4; rewrite E; cbn; auto 20|exact H3].
    + apply (below_out _ [34]); [reflexivity|now apply first_lit; left|cbn; intros [<-|[]]; apply Hc; cbn; auto].
    + apply (below_out _ [34]); [reflexivity|apply first_cat; [reflexivity|]; now apply first_lit; left|cbn; intros [<-|[]]; apply Hc; cbn; auto].
    + apply (below_out _ number_firsts); [reflexivity|exact first_natural|exact Hn].
    + apply (below_out _ number_firsts); [reflexivity|exact first_hex|exact Hn].
    + apply (below_out _ number_firsts); [reflexivity|exact first_c99|exact Hn].
    + apply (below_out _ [39]); [reflexivity|apply first_cat; [reflexivity|]; now apply first_lit; left|cbn; intros [<-|[]]; apply Hc; cbn; auto].
    + apply (below_any yes); [reflexivity|exact N|]. intros K. apply H4. cbn [reserved]. apply in_or_app. now left.
    + apply (below_any no); [reflexivity|exact N|]. intros K. apply H4. apply in_or_app. right. apply in_or_app. now left.
    + apply (below_any nothing); [reflexivity|exact N|]. intros K. apply H4. apply in_or_app. right. apply in_or_app. right. apply in_or_app. now left.
    + intros m E. cbn [fst] in E. pose proof (next_longest name_ends (word (str "lambda")) _ _ _ eq_refl N E) as L.
      destruct (Nat.eq_dec m (length (c :: s))) as [-> |]; [|lia]. exfalso. destruct (longest_sound _ _ _ E) as [_ M]. rewrite firstn_word in M.
      apply matches_word in M. apply H4. rewrite M. cbn. auto 20.
    + apply (below_out _ [47]); [reflexivity|apply first_cat; [reflexivity|]; now apply first_lit; left|cbn; intros [<-|[]]; apply Hc; cbn; auto].
  - rules.
    + apply (upto_out _ [59]); [reflexivity| |cbn; intros [<-|[]]; apply Hc; cbn; auto 20].
      apply first_alt; repeat (apply first_cat; [reflexivity|]); now apply first_lit; left.
    + apply (upto_out _ blanks); [reflexivity|apply first_cat; [reflexivity|]; apply first_one_of; apply incl_refl|].
      intros K. apply Hc. cbn in K |- *. lia.
Qed.

(** ** Addresses *)

Lemma address_chars c : In c (str ".+-*%^!=[]:;,?<>&|\{}() `" ++ [10; 9]) <-> In c address_ends.
Proof. cbn. intuition. Qed.
Lemma escans_address s rest ts : s <> [] -> Forall (fun c => ~ In c address_ends) s -> next_in address_ends rest ->
  escans elexer_start rest ts -> escans elexer_start ((47 :: s) ++ rest) (TAddr (47 :: s) :: ts).
Proof.
  intros Hs Hf N H. apply (escans_rule TAddr (47 :: s)); [discriminate| |exact H].
  assert (L : longest eaddress_re ((47 :: s) ++ rest) = Some (length (47 :: s))).
  { apply (next_is address_ends); [reflexivity|exact N|]. apply (M_cat _ _ [47] s); [apply matches_lit|]. apply matches_plus; [exact Hs|].
    revert Hf. apply Forall_impl. intros c Hc. apply negb_true_iff, not_in. now rewrite address_chars. }
  apply (rules_nth 11 eaddress_re _ _ _ eq_refl L).
  - dead.
  - unfold sign_rules. rewrite Forall_forall. intros x Hx. apply in_map_iff in Hx as ([v t] & <- & Hv). intros m. cbn [fst]. intros E.
    apply longest_word_inv in E as [-> (y & E)].
    destruct s as [|c s]; [contradiction|]. apply Forall_inv in Hf. cbn [app] in E.
    assert (F : forallb (fun x => match fst x with 47 :: d :: _ => existsb (Z.eqb d) address_ends | 47 :: [] => true | [] => false | d :: _ => negb (d =? 47) end) symbols = true)
      by reflexivity.
    rewrite forallb_forall in F. specialize (F _ Hv). cbn [fst] in F. destruct v as [|a v]; [discriminate|]. injection E as <- E.
    destruct v as [|b v]; [cbn [length]; lia|]. injection E as <- _. apply existsb_exists in F as (d & Hd & Ed). apply Z.eqb_eq in Ed as ->. contradiction.
  - rules; dead.
  - rules; dead.
Qed.

(** ** Numbers *)

Definition numeric_chars : list Z := str "0123456789.abcdefABCDEF".
Lemma number_upto r w rest : In r [natural_re; hex_re; c99_floating_point_constant] -> w <> [] -> In (last w 0) numeric_chars ->
  after_number w rest -> forall n, longest r (w ++ rest) = Some n -> (n <= length w)%nat.
Proof.
  intros Hr Hw Hl Ha n E. destruct rest as [|d rest]; [now apply longest_ends in E|]. cbn [after_number] in Ha. destruct Ha as (H1 & H2 & H3).
  rewrite (app_removelast_last 0 Hw) in E |- *. set (c := last w 0) in *. set (u := removelast w) in *.
  apply (longest_pair r u c d rest n); [|exact E].
  assert (F1 : forallb (fun r => forallb (fun c => forallb (fun d => (d =? 46) || (d =? 43) || (d =? 45) || negb (pair r c d)) name_ends) numeric_chars)
    [natural_re; hex_re; c99_floating_point_constant] = true) by (vm_compute; reflexivity).
  assert (F2 : forallb (fun r => forallb (fun c => forallb (fun d => existsb (Z.eqb c) (str "eE") || negb (pair r c d)) [43; 45]) numeric_chars)
    [natural_re; hex_re; c99_floating_point_constant] = true) by (vm_compute; reflexivity).
  rewrite forallb_forall in F1, F2. specialize (F1 _ Hr). specialize (F2 _ Hr). rewrite forallb_forall in F1, F2. specialize (F1 _ Hl). specialize (F2 _ Hl).
  rewrite forallb_forall in F1, F2. specialize (F1 _ H1). apply orb_true_iff in F1 as [F1|F1]; [|now apply negb_true_iff].
  rewrite !orb_true_iff, !Z.eqb_eq in F1. assert (Hd : d = 43 \/ d = 45) by (destruct F1 as [[F1|F1]|F1]; [contradiction|now left|now right]).
  assert (Hd' : In d [43; 45]) by (destruct Hd as [-> | ->]; cbn; auto). specialize (F2 _ Hd').
  apply orb_true_iff in F2 as [F2|F2]; [|now apply negb_true_iff]. exfalso. apply (H3 Hd). apply existsb_exists in F2 as (x & Hx & Ex).
  apply Z.eqb_eq in Ex as ->. exact Hx.
Qed.
Lemma number_lacking f r w rest : (forall n, longest r (w ++ rest) = Some n -> (n <= length w)%nat) -> wf_bytes w -> needs r f = true ->
  Forall (fun c => f c = false) w -> longest r (w ++ rest) = None.
Proof.
  intros Hu Hb Hn Hf. destruct (longest r (w ++ rest)) as [n|] eqn:E; [exfalso|reflexivity]. specialize (Hu n eq_refl).
  destruct (longest_sound _ _ _ E) as [_ Hm]. rewrite firstn_app in Hm. replace (n - length w)%nat with 0%nat in Hm by lia.
  rewrite firstn_O, app_nil_r in Hm.
  assert (Hb' : wf_bytes (firstn n w)) by (apply Forall_forall; intros c Hc; apply firstn_in in Hc; unfold wf_bytes in Hb; rewrite Forall_forall in Hb; auto).
  destruct (needs_ok f r _ Hm Hb' Hn) as (c & H1 & H2). apply firstn_in in H1. rewrite Forall_forall in Hf. specialize (Hf c H1). congruence.
Qed.
Definition digits : list Z := str "0123456789".
Lemma digit_in c : is_digit_char c -> In c digits.
Proof. unfold is_digit_char. intros H. cbn. lia. Qed.
Lemma number_pick i r f w rest ts d w' : w = d :: w' -> is_digit_char d -> In (last w 0) numeric_chars -> after_number w rest ->
  nth_error others i = Some (r, ereturns f) -> In i [3; 4; 5]%nat -> matches r w ->
  (i <> 3%nat -> below (w ++ rest) (length w) (natural_re, tt)) -> (i = 5%nat -> below (w ++ rest) (length w) (hex_re, tt)) ->
  escans elexer_start rest ts -> escans elexer_start (w ++ rest) (f w :: ts).
Proof.
  intros -> Hd Hl Ha Hi Hin M Hb1 Hb2 H. apply escans_rule; [discriminate| |exact H]. apply digit_in in Hd.
  assert (U : forall r, In r [natural_re; hex_re; c99_floating_point_constant] -> upto ((d :: w') ++ rest) (length (d :: w')) (r, tt)).
  { intros q Hq n. now apply number_upto. }
  assert (Hr : In r [natural_re; hex_re; c99_floating_point_constant]).
  { destruct Hin as [<-|[<-|[<-|[]]]]; injection Hi as <- _; cbn; auto. }
  assert (D : forall r, nullable r = false -> forallb (fun c => negb (first r c)) digits = true -> longest r ((d :: w') ++ rest) = None).
  { intros q Hn F. apply longest_first; [exact Hn|]. rewrite forallb_forall in F. apply negb_true_iff. now apply F. }
  apply (others_nth i r (ereturns f) (d :: w') rest d w' eq_refl).
  - intros ->. cbn in Hd. lia.
  - intros K. clear - Hd K. cbn in Hd, K. lia.
  - exact Hi.
  - apply longest_is; [exact M|]. exact (U r Hr).
  - destruct Hin as [<-|[<-|[<-|[]]]]; rules; first [exact (Hb1 ltac:(discriminate))|exact (Hb2 eq_refl)|apply below_none; cbn [fst]; refine (D _ _ _); reflexivity].
  - destruct Hin as [<-|[<-|[<-|[]]]]; rules; first [apply (U hex_re); cbn; tauto|apply (U c99_floating_point_constant); cbn; tauto|
      apply upto_none; cbn [fst]; refine (D _ _ _); reflexivity].
Qed.
Lemma last_in w (P : Z -> Prop) : w <> [] -> Forall P w -> P (last w 0).
Proof. intros Hn H. rewrite Forall_forall in H. apply H. rewrite (app_removelast_last 0 Hn) at 2. apply in_or_app. right. now left. Qed.
Lemma digit_numeric c : is_digit_char c -> In c numeric_chars.
Proof. unfold is_digit_char. intros H. cbn. lia. Qed.
Lemma natural_shape n : 0 <= n -> exists d ds, numeral n = d :: ds /\ is_digit_char d /\ Forall is_digit_char ds /\ matches natural_re (numeral n).
Proof.
  intros H. unfold numeral. rewrite (proj2 (Z.ltb_ge n 0)) by lia. destruct (Z.eq_dec n 0) as [-> |N].
  - exists 48, []. split; [reflexivity|]. split; [unfold is_digit_char; lia|]. split; [constructor|]. apply M_right, matches_lit.
  - destruct (digit_string_head strtod (fun _ => TT 0 0) junk n) as (d & ds & -> & H1 & H2); [lia|]. exists d, ds. split; [reflexivity|]. split; [unfold is_digit_char; lia|].
    split; [exact H2|]. apply M_left. apply (M_cat _ _ [d] ds); [apply matches_range; lia|]. now apply matches_dseq_opt.
Qed.
Lemma escans_number n rest ts : 0 <= n < 2^63 -> after_number (numeral n) rest -> escans elexer_start rest ts ->
  escans elexer_start (numeral n ++ rest) (TNum (set_int32 atom_fresh (s32 n)) :: ts).
Proof.
  intros Hn Ha H. destruct (natural_shape n) as (d & ds & E & H1 & H2 & M); [lia|].
  assert (S : strtol (numeral n) = n).
  { pose proof (strtol_numeral [] n []) as S. cbn [app] in S. rewrite app_nil_r in S. rewrite S; [|constructor|exact I]. lia. }
  rewrite <- S at 2.
  apply (number_pick 3 natural_re (fun s => TNum (set_int32 atom_fresh (s32 (strtol s)))) (numeral n) rest ts d ds E H1); try assumption; try reflexivity.
  - apply digit_numeric. apply last_in; rewrite E; [discriminate|now constructor].
  - now left.
  - contradiction.
  - discriminate.
Qed.
Lemma below_char {A} r u c v rest (a : A) : alphabet r c = false -> below ((u ++ c :: v) ++ rest) (length (u ++ c :: v)) (r, a).
Proof.
  intros F m. cbn [fst]. rewrite <- app_assoc. cbn [app]. intros E. apply longest_stops in E; [|exact F]. rewrite app_length. cbn [length]. lia.
Qed.
Lemma escans_hex x s rest ts : In x (str "xX") -> s <> [] -> Forall is_hex s -> after_number s rest -> escans elexer_start rest ts ->
  escans elexer_start (([48; x] ++ s) ++ rest) (TNum (hex_atom ([48; x] ++ s)) :: ts).
Proof.
  intros Hx Hs Hh Ha H.
  assert (El : last ([48; x] ++ s) 0 = last s 0) by (destruct s; [contradiction|reflexivity]).
  apply (number_pick 4 hex_re (fun s => TNum (hex_atom s)) ([48; x] ++ s) rest ts 48 (x :: s) eq_refl).
  - unfold is_digit_char. lia.
  - rewrite El. apply (last_in s (fun c => In c numeric_chars) Hs). revert Hh. apply Forall_impl. unfold is_hex. intros c Hc. cbn. lia.
  - destruct rest as [|c rest]; [exact I|]. cbn [after_number] in *. now rewrite El.
  - reflexivity.
  - right. now left.
  - apply (M_cat _ _ [48] (x :: s)); [apply matches_lit|].
    apply (M_cat _ _ [x] s); [now apply matches_one_of|]. apply matches_last. apply matches_plus; [exact Hs|].
    revert Hh. apply Forall_impl. exact xdigit_ok.
  - intros _. apply (below_char natural_re [48] x s). destruct Hx as [<-|[<-|[]]]; reflexivity.
  - discriminate.
  - exact H.
Qed.
Lemma escans_double w rest ts : decimal_constant w -> hd 0 w <> 45 -> after_number w rest -> escans elexer_start rest ts ->
  escans elexer_start (w ++ rest) (TNum (set_double atom_fresh (strtod w)) :: ts).
Proof.
  intros Hw H45 Ha H.
  assert (M : matches c99_floating_point_constant w).
  { pose proof (matches_decimal w Hw) as M. apply cat_inv in M as (u & v & -> & M1 & M2).
    inversion M1 as [| | |? ? ? M3|? ? ? M3| |]; subst.
    - apply cls_inv in M3 as (c & -> & E). apply Z.eqb_eq in E as <-. cbn in H45. congruence.
    - inversion M3; subst. exact M2. }
  destruct Hw as [sign whole fraction exponent Hs Hw Hf He Hfe].
  assert (sign = []) as ->.
  { destruct Hs as [<-|[<-|[]]]; [reflexivity|]. cbn in H45. congruence. }
  cbn [app] in *. destruct (digit_text_head _ Hw) as (d & ds & Ew & Hd & Hds).
  assert (Dh : Forall (fun c => In c numeric_chars /\ c <> 120 /\ c <> 88) whole /\ Forall (fun c => In c numeric_chars /\ c <> 120 /\ c <> 88) fraction).
  { assert (G : forall l, Forall is_digit_char l -> Forall (fun c => In c numeric_chars /\ c <> 120 /\ c <> 88) l).
    { intros l. apply Forall_impl. intros c Hc. split; [now apply digit_numeric|]. unfold is_digit_char in Hc. lia. }
    split; [apply G, Hw|]. destruct Hf as [-> |(f & -> & Hf)]; constructor; [split; [cbn; auto 20|lia]|now apply G]. }
  destruct Dh as [D1 D2].
  assert (D3 : Forall (fun c => (0 <= c < 120 /\ c <> 88)) exponent /\ (exponent <> [] -> In (last exponent 0) numeric_chars)).
  { destruct He as [-> |(s & e & -> & K1 & K2 & K3)]; [split; [constructor|contradiction]|]. split.
    - constructor; [lia|]. apply Forall_app. split; [destruct K1 as [<-|[<-|[<-|[]]]]; repeat constructor; lia|].
      revert K3. apply Forall_impl. intros c Hc. unfold is_digit_char in Hc. lia.
    - intros _. replace (last (101 :: s ++ e) 0) with (last e 0); [apply digit_numeric; now apply last_in|].
      destruct e as [|c e]; [contradiction|]. rewrite app_comm_cons. rewrite (app_removelast_last 0 (l := c :: e)) at 2 by discriminate.
      rewrite app_assoc. now rewrite last_last. }
  destruct D3 as [D3 D4].
  apply (number_pick 5 c99_floating_point_constant (fun s => TNum (set_double atom_fresh (strtod s))) (whole ++ fraction ++ exponent) rest ts d (ds ++ fraction ++ exponent)).
  - now rewrite Ew.
  - exact Hd.
  - destruct exponent as [|c e].
    + rewrite app_nil_r. apply (last_in (whole ++ fraction) (fun c => In c numeric_chars)); [rewrite Ew; discriminate|].
      apply Forall_app. split; [revert D1|revert D2]; apply Forall_impl; intros c Hc; apply Hc.
    + rewrite app_assoc. replace (last ((whole ++ fraction) ++ c :: e) 0) with (last (c :: e) 0); [apply D4; discriminate|].
      rewrite (app_removelast_last 0 (l := c :: e)) at 2 by discriminate. rewrite app_assoc. now rewrite last_last.
  - exact Ha.
  - reflexivity.
  - cbn; auto.
  - exact M.
  - intros _. destruct Hf as [-> |(f & -> & Hf)].
    + destruct He as [-> |(s & e & -> & _)]; [destruct Hfe; contradiction|]. apply (below_char natural_re whole 101). reflexivity.
    + apply (below_char natural_re whole 46). reflexivity.
  - intros _. apply below_none. cbn [fst].
    assert (D : Forall (fun c => 0 <= c < 120 /\ c <> 88) (whole ++ fraction ++ exponent)).
    { repeat (apply Forall_app; split); [revert D1|revert D2|exact D3]; apply Forall_impl; intros c (K1 & K2 & K3); cbn in K1; lia. }
    apply (number_lacking (fun c => existsb (Z.eqb c) [120; 88])).
    + intros n. apply number_upto; [cbn; auto|rewrite Ew; discriminate| |exact Ha].
      destruct exponent as [|c e].
      * rewrite app_nil_r. apply (last_in (whole ++ fraction) (fun c => In c numeric_chars)); [rewrite Ew; discriminate|].
        apply Forall_app. split; [revert D1|revert D2]; apply Forall_impl; intros c Hc; apply Hc.
      * rewrite app_assoc. replace (last ((whole ++ fraction) ++ c :: e) 0) with (last (c :: e) 0); [apply D4; discriminate|].
        rewrite (app_removelast_last 0 (l := c :: e)) at 2 by discriminate. rewrite app_assoc. now rewrite last_last.
    + revert D. apply Forall_impl. unfold is_byte. lia.
    + reflexivity.
    + revert D. apply Forall_impl. intros c (K1 & K2). cbn [existsb]. rewrite (proj2 (Z.eqb_neq c 120)), (proj2 (Z.eqb_neq c 88)) by lia. reflexivity.
  - exact H.
Qed.

(** ** Signs *)

Lemma sign_in t s : sign t = Some s -> In (s, t) symbols /\ t <> TSemi.
Proof.
  destruct t as [?|?|?|?| |o|o|inc| | | | | | | | | | | | | | | | | | ]; try discriminate; try destruct o; try destruct inc; intros [= <-];
    (split; [|discriminate]); cbn; repeat first [left; reflexivity|right].
Qed.
Lemma symbol_sign s t : In (s, t) symbols -> t <> TSemi -> sign t = Some s.
Proof.
  intros H N. unfold symbols in H. cbn [In] in H.
  repeat match type of H with _ \/ _ => destruct H as [[= <- <-]|H]; [first [reflexivity|congruence]|] end. contradiction.
Qed.
Definition sign_after (t : etoken) (s rest : list Z) : Prop :=
  match rest with
  | [] => True
  | c :: _ => no_sign_from (s ++ [c]) /\ (t = TDot -> ~ 48 <= c <= 57) /\ (t = TOp ODiv -> In c address_ends)
  end.
Lemma symbols_distinct : NoDup (map fst symbols).
Proof. cbn. repeat (constructor; [cbn; intuition discriminate|]). constructor. Qed.
Lemma sign_upto t s rest v u : sign t = Some s -> sign_after t s rest -> In (v, u) symbols -> forall m, longest (word v) (s ++ rest) = Some m ->
  (m <= length s)%nat /\ (m = length s -> v = s).
Proof.
  intros Hs Ha Hv m E. apply longest_word_inv in E as [-> (x & E)]. apply app_eq_app in E as (y & [[Es Ex]|[Ev Er]]).
  - rewrite Es, app_length. split; [lia|]. intros L. assert (y = []) as -> by (destruct y; [reflexivity|cbn [length] in L; lia]). now rewrite app_nil_r.
  - destruct y as [|c y]; [rewrite app_nil_r in Ev; subst; split; [lia|reflexivity]|]. exfalso. rewrite Er in Ha. cbn [sign_after app] in Ha.
    destruct Ha as [Ha _]. assert (Hu : u <> TSemi).
    { intros ->. assert (v = [59]) as ->.
      { unfold symbols in Hv. cbn [In] in Hv. repeat match type of Hv with _ \/ _ => destruct Hv as [Hv|Hv]; [try discriminate Hv|] end;
          [now injection Hv as <-|contradiction]. }
      destruct s as [|a s]; [|destruct s; discriminate]. apply sign_in in Hs as [Hs _]. now destruct (in_symbols _ _ Hs) as (? & ? & ? & _). }
    apply (Ha u y). rewrite <- app_assoc. cbn [app]. rewrite <- Ev. now apply symbol_sign.
Qed.
Lemma others_sign t s rest : sign t = Some s -> sign_after t s rest -> Forall (upto (s ++ rest) (length s)) others.
Proof.
  intros Hs Ha. apply sign_in in Hs as [Hs Ht].
  assert (A : forall s', t = TOp ODiv \/ s' <> [] -> s = 47 :: s' -> upto (s ++ rest) (length s) (eaddress_re, ereturns TAddr)).
  { intros s' K ->. apply upto_none. cbn [fst app].
    assert (D : s' = [] \/ s' = [61]).
    { clear - Hs. unfold symbols in Hs. cbn [In] in Hs. repeat match type of Hs with _ \/ _ => destruct Hs as [Hs|Hs]; [try discriminate Hs|] end;
        try contradiction; injection Hs as <-; auto. }
    unfold eaddress_re, lit. rewrite longest_cat_cls. cbn [Z.eqb Pos.eqb].
    assert (N : longest (plus (none_of (str ".+-*%^!=[]:;,?<>&|\{}() `" ++ [10; 9]))) (s' ++ rest) = None); [|now rewrite N].
    destruct D as [-> | ->]; [|apply longest_first; reflexivity]. cbn [app]. destruct K as [-> |K]; [|contradiction].
    destruct rest as [|c rest]; [reflexivity|]. cbn [sign_after] in Ha. destruct Ha as (_ & _ & Ha). specialize (Ha eq_refl).
    apply longest_first; [reflexivity|]. unfold plus, none_of. cbn [first nullable andb]. rewrite orb_false_r. apply negb_false_iff.
    apply existsb_exists. exists c. split; [now apply address_chars|apply Z.eqb_refl]. }
  assert (B : t = TDot -> s = [46] -> upto (s ++ rest) (length s) (c99_floating_point_constant, tt)).
  { intros -> ->. apply upto_none. cbn [fst app]. destruct rest as [|c rest]; [reflexivity|]. cbn [sign_after] in Ha. destruct Ha as (_ & Ha & _).
    specialize (Ha eq_refl). cbn [longest].
    assert (D : deriv 46 c99_floating_point_constant = Cat (Cat dseq Eps) (Cat exp_opt (Cat fsuff_opt Eps))) by reflexivity.
    assert (N : longest (Cat (Cat dseq Eps) (Cat exp_opt (Cat fsuff_opt Eps))) (c :: rest) = None).
    { apply longest_first; [reflexivity|]. apply (first_out _ digits).
      - apply first_cat; [reflexivity|]. apply first_cat; [reflexivity|]. apply first_cat; [reflexivity|]. apply first_range. intros d Hd. cbn. lia.
      - intros K. apply Ha. cbn in K. lia. }
    change (match longest (deriv 46 c99_floating_point_constant) (c :: rest) with Some n => Some (S n) | None => None end = None).
    now rewrite D, N. }
  clear Ha. unfold symbols in Hs. cbn [In] in Hs.
  repeat match type of Hs with _ \/ _ => destruct Hs as [[= <- <-]|Hs];
    [first [congruence|rules; first [dead|eapply A; [|reflexivity]; first [now left|now right]|now apply B]]|] end. contradiction.
Qed.
Lemma escans_sign t s rest ts : sign t = Some s -> sign_after t s rest -> escans elexer_start rest ts -> escans elexer_start (s ++ rest) (t :: ts).
Proof.
  intros Hs Ha H. pose proof (proj1 (sign_in t s Hs)) as Hin.
  destruct (in_symbols _ _ Hin) as (c & s' & Es & Hc).
  apply (escans_rule (fun _ => t) s); [rewrite Es; discriminate| |exact H].
  destruct (in_split _ _ Hin) as (l1 & l2 & El).
  assert (Nd : ~ In s (map fst l1)).
  { pose proof symbols_distinct as D. rewrite El, map_app in D. cbn [map fst] in D. apply NoDup_remove_2 in D. intros K. apply D. apply in_or_app. now left. }
  rewrite rules_eq. unfold sign_rules. rewrite El, map_app. cbn [map].
  rewrite <- app_assoc. cbn [app]. rewrite app_comm_cons. apply pick_rule.
  - apply longest_word.
  - constructor.
    + apply below_none. cbn [fst]. rewrite Es. cbn [app]. apply longest_first; [reflexivity|].
      assert (F : forallb (fun c => negb (first (Cat (lit 35) (Star dot)) c)) sign_chars = true) by reflexivity.
      rewrite forallb_forall in F. apply negb_true_iff. now apply F.
    + rewrite Forall_forall. intros x Hx. apply in_map_iff in Hx as ([v u] & <- & Hv). intros m. cbn [fst]. intros E.
      destruct (sign_upto t s rest v u Hs Ha ltac:(rewrite El; apply in_or_app; now left) m E) as [L K].
      destruct (Nat.eq_dec m (length s)) as [Em|]; [|lia]. exfalso. apply Nd. apply in_map_iff. exists (v, u). split; [now apply K|exact Hv].
  - apply Forall_app. split; [|now apply (others_sign t)].
    rewrite Forall_forall. intros x Hx. apply in_map_iff in Hx as ([v u] & <- & Hv). intros m. cbn [fst]. intros E.
    exact (proj1 (sign_upto t s rest v u Hs Ha ltac:(rewrite El; apply in_or_app; right; now right) m E)).
Qed.

(** ** Characters, blanks and comments *)

Lemma escans_char c rest ts : c <> 10 -> escans elexer_start rest ts -> escans elexer_start ([39; c; 39] ++ rest) (TNum (set_int8 atom_fresh (s8 c)) :: ts).
Proof.
  intros Hc H. 
  apply (escans_step elexer_start ([39; c; 39] ++ rest) act_letter 3 elexer_start (Return (TNum (set_int8 atom_fresh (s8 c)))) 3 ts); try discriminate; try reflexivity; try lia; try exact H.
  apply (others_nth 6 (seq [lit 39; dot; lit 39]) act_letter [39; c; 39] rest 39 [c; 39] eq_refl).
  - discriminate.
  - cbn; intuition discriminate.
  - reflexivity.
  - unfold seq, lit, dot, none_of. cbn [fold_right app length]. rewrite !longest_cat_cls. cbn [existsb].
    rewrite (proj2 (Z.eqb_neq c 10) Hc). cbn [orb negb Z.eqb Pos.eqb]. now rewrite longest_eps.
  - rules; dead.
  - rules; dead.
Qed.
Lemma escans_skip w rest ts : w <> [] -> pick (e_rules strtod) (w ++ rest) = Some (eskips, length w) ->
  escans elexer_start rest ts -> escans elexer_start (w ++ rest) ts.
Proof.
  intros Hw P H. apply (escans_step elexer_start (w ++ rest) eskips (length w) elexer_start Continue (length w) ts); try discriminate.
  - destruct w; [contradiction|discriminate].
  - exact P.
  - rewrite firstn_word. reflexivity.
  - destruct w; [contradiction|cbn [length]; lia].
  - now rewrite skipn_word.
Qed.
Lemma escans_blank b rest ts : b <> [] -> Forall (fun c => In c blanks) b -> match rest with [] => True | c :: _ => ~ In c blanks end ->
  escans elexer_start rest ts -> escans elexer_start (b ++ rest) ts.
Proof.
  intros Hb Hf Hr H. apply escans_skip; [exact Hb| |exact H].
  destruct b as [|c b]; [contradiction|]. pose proof (Forall_inv Hf) as Hc. cbv beta in Hc.
  assert (L : longest (plus (one_of [32; 9; 10])) ((c :: b) ++ rest) = Some (length (c :: b))).
  { apply longest_is.
    - apply matches_plus; [discriminate|]. revert Hf. apply Forall_impl. intros d Hd. apply existsb_exists. exists d. split; [exact Hd|apply Z.eqb_refl].
    - intros n E. destruct rest as [|d rest]; [now apply longest_ends in E|]. apply longest_stops in E; [exact E|].
      unfold plus, one_of. cbn [alphabet]. change [32; 9; 10] with blanks. rewrite (not_in _ _ Hr). reflexivity. }
  apply (others_nth 14 (plus (one_of [32; 9; 10])) eskips (c :: b) rest c b eq_refl).
  - intros ->. cbn in Hc. lia.
  - intros K. cbn in K, Hc. lia.
  - reflexivity.
  - exact L.
  - clear L Hf. destruct Hc as [<-|[<-|[<-|[]]]]; rules; dead.
  - rules.
Qed.
Lemma escans_comment s rest ts : ~ In 10 s -> next_in [10] rest -> escans elexer_start rest ts -> escans elexer_start ((35 :: s) ++ rest) ts.
Proof.
  intros Hs N H. apply escans_skip; [discriminate| |exact H].
  rewrite rules_eq. apply (pick_rule []); [|constructor|].
  - apply (next_is [10]); [reflexivity|exact N|]. apply (M_cat _ _ [35] s); [apply matches_lit|]. apply matches_star.
    apply Forall_forall. intros c Hc. apply negb_true_iff. apply not_in. cbn. intros [<-|[]]. contradiction.
  - apply Forall_app. split.
    + eapply Forall_impl; [|apply (signs_dead 35 (s ++ rest)); cbn; intuition discriminate]. intros x Hx. now apply upto_none.
    + rules; first [dead|now apply (upto_next [10])].
Qed.

(** ** Strings *)

Lemma epick_escape u s : plain u -> pick (text_rules junk) (u ++ 92 :: 34 :: s) = Some (act_text_escape junk, length u + 2)%nat.
Proof.
  intros Hu. apply (pick_nth (text_rules junk) 2 inside _ _ _ eq_refl (longest_inside u 34 s Hu ltac:(discriminate))); [|constructor].
  constructor; [|constructor; [|constructor]].
  - intros m. cbn [fst]. replace (u ++ 92 :: 34 :: s) with ((u ++ [92]) ++ 34 :: s) by now rewrite <- app_assoc. intros E.
    apply longest_stops in E; [|reflexivity]. rewrite app_length in E. cbn [length] in E. lia.
  - apply below_none. cbn [fst]. destruct u as [|c u]; cbn [app]; apply longest_first; try reflexivity.
    apply Forall_inv in Hu. cbn [first lit]. apply Z.eqb_neq. lia.
Qed.
Lemma epick_text u s : plain u -> u <> [] -> pick (text_rules junk) (u ++ 34 :: s) = Some (act_text junk, length u).
Proof.
  intros Hu Hn. apply (pick_nth (text_rules junk) 0 (plus (none_of [34])) _ _ _ eq_refl); [|constructor|].
  - apply longest_is; [apply matches_plus; [exact Hn|]|].
    + revert Hu. apply Forall_impl. intros c [H1 _]. cbn [existsb]. rewrite (proj2 (Z.eqb_neq c 34) H1). reflexivity.
    + intros n. apply longest_stops. reflexivity.
  - constructor; [|constructor; [|constructor]]; apply upto_none; cbn [fst]; [|now apply inside_none].
    destruct u as [|c u]; [contradiction|]. cbn [app]. apply longest_first; [reflexivity|]. apply Forall_inv in Hu. cbn [first lit]. apply Z.eqb_neq. lia.
Qed.
Lemma epick_end s : pick (text_rules junk) (34 :: s) = Some (act_text_end, 1%nat).
Proof.
  apply (pick_nth (text_rules junk) 1 (lit 34) _ _ _ eq_refl).
  - unfold lit. rewrite longest_cls. reflexivity.
  - constructor; [|constructor]. apply below_none. apply longest_first; reflexivity.
  - constructor; [|constructor]. apply upto_none. apply longest_first; reflexivity.
Qed.
Definition eholds (l : elexer) (p : list Z) : Prop :=
  (p = [] /\ l = ELexer InText None 0) \/ l = ELexer InText (Some (p ++ [0])) (zlen p).
Lemma escape_does l p u q : eholds l p ->
  act_text_escape junk (u ++ [92; q]) l = Ok (ELexer InText (Some ((p ++ u ++ [q]) ++ [0])) (zlen (p ++ u ++ [q])), Continue, (length u + 2)%nat).
Proof.
  intros H. unfold act_text_escape.
  assert (Lz : zlen (u ++ [92; q]) = zlen u + 2) by (rewrite zlen_app; reflexivity).
  assert (Fz : firstn (Z.to_nat (zlen u + 2 - 1)) (u ++ [92; q]) = u ++ [92]).
  { replace (u ++ [92; q]) with ((u ++ [92]) ++ [q]) by (rewrite <- app_assoc; reflexivity).
    replace (Z.to_nat (zlen u + 2 - 1)) with (length (u ++ [92])) by (rewrite app_length; unfold zlen; cbn [length]; lia). apply firstn_word. }
  assert (Rz : rd (u ++ [92; q]) (zlen (u ++ [92; q]) - 1) = Ok q).
  { rewrite last_rd by (destruct u; discriminate). replace (u ++ [92; q]) with ((u ++ [92]) ++ [q]) by (rewrite <- app_assoc; reflexivity).
    now rewrite last_last. }
  assert (Gz : length (u ++ [92; q]) = (length u + 2)%nat) by (rewrite app_length; reflexivity).
  assert (Pz : zlen (p ++ u ++ [q]) = zlen p + (zlen u + 1)) by (rewrite !zlen_app; reflexivity).
  rewrite Rz. cbn [bind]. rewrite Lz, Fz, Gz, Pz. replace (zlen u + 2 - 1) with (zlen u + 1) by lia.
  destruct H as [[-> ->]| ->]; cbn [e_buf e_buflen e_mode].
  - destruct (grown_tail junk [] (zlen u + 2)) as (t & Et & Lt); [pose proof (zlen_nonneg u); lia|]. change (zlen [] + (zlen u + 2)) with (zlen u + 2) in Et.
    rewrite Et. pose proof (escape_writes [] u q t Lt) as E. change (zlen []) with 0 in *. rewrite !Z.add_0_l in *.
    cbn [app] in *.
    destruct (write t 0 (u ++ [92])) as [b1| |]; cbn [bind] in *; try discriminate E.
    destruct (write b1 (zlen u + 1 - 1) [q]) as [b2| |]; cbn [bind] in *; try discriminate E.
    rewrite E. cbn [bind]. now rewrite <- app_assoc.
  - replace (zlen p + (zlen u + 2)) with (zlen (p ++ [0]) + (zlen u + 1)) by (rewrite zlen_app; change (zlen [0]) with 1; lia).
    destruct (grown_tail junk (p ++ [0]) (zlen u + 1)) as (t & Et & Lt); [pose proof (zlen_nonneg u); lia|]. rewrite Et, <- app_assoc.
    assert (Lt' : zlen ([0] ++ t) = zlen u + 2) by (rewrite zlen_app, Lt; change (zlen [0]) with 1; lia).
    pose proof (escape_writes p u q ([0] ++ t) Lt') as E.
    destruct (write (p ++ [0] ++ t) (zlen p) (u ++ [92])) as [b1| |]; cbn [bind] in *; try discriminate E.
    destruct (write b1 (zlen p + (zlen u + 1) - 1) [q]) as [b2| |]; cbn [bind] in *; try discriminate E.
    rewrite E. cbn [bind]. now rewrite <- !app_assoc.
Qed.
Lemma text_does p u : nonul p ->
  exists n, act_text junk u (ELexer InText (Some (p ++ [0])) (zlen p)) = Ok (ELexer InText (Some ((p ++ u) ++ [0])) n, Continue, length u).
Proof.
  intros Hp. unfold act_text. cbn [e_buf e_buflen e_mode].
  replace (zlen p + zlen u + 1) with (zlen (p ++ [0]) + zlen u) by (rewrite zlen_app; change (zlen [0]) with 1; lia).
  destruct (grown_tail junk (p ++ [0]) (zlen u) (zlen_nonneg u)) as (t & -> & Lt).
  pose proof (rdstr_at [] p t Hp) as R. cbn [app] in R. change (zlen []) with 0 in R.
  rewrite <- app_assoc. cbn [app]. rewrite R. cbn [bind].
  replace (p ++ 0 :: t) with (p ++ (0 :: t) ++ []) by now rewrite app_nil_r.
  rewrite write_app by (rewrite app_length; unfold zlen in Lt; cbn [length]; lia). cbn [bind]. rewrite app_nil_r, app_assoc. now eexists.
Qed.
Lemma end_does p n : nonul p ->
  act_text_end [34] (ELexer InText (Some (p ++ [0])) n) = Ok (elexer_start, Return (TStr p), 1%nat).
Proof.
  intros Hp. unfold act_text_end. cbn [e_buf]. pose proof (rdstr_at [] p [] Hp) as R. cbn [app] in R. change (zlen []) with 0 in R.
  now rewrite R.
Qed.
Lemma with_plain u : plain u -> with_backslashes u = u.
Proof.
  unfold with_backslashes. induction 1 as [|c u [H1 H2] _ IH]; [reflexivity|]. cbn [flat_map].
  rewrite (proj2 (Z.eqb_neq c 34) H1), IH. reflexivity.
Qed.
Lemma escans_end p m rest ts : nonul p -> escans elexer_start rest ts -> escans (ELexer InText (Some (p ++ [0])) m) (34 :: rest) (TStr p :: ts).
Proof.
  intros Hp Hr. apply (escans_step _ (34 :: rest) act_text_end 1 elexer_start (Return (TStr p)) 1 ts);
    [discriminate|apply epick_end|now apply end_does|lia|discriminate|exact Hr].
Qed.
Lemma escans_text n : forall s l p rest ts, (length s <= n)%nat -> eholds l p -> (s <> [] \/ p <> []) -> nonul s -> ~ In 92 s -> nonul p ->
  escans elexer_start rest ts -> escans l (with_backslashes s ++ 34 :: rest) (TStr (p ++ s) :: ts).
Proof.
  induction n as [|n IH]; intros s l p rest ts Hn Hl Hne Hs H92 Hp Hr.
  - destruct s as [|c s]; [|cbn [length] in Hn; lia]. destruct Hne as [Hne|Hne]; [contradiction|].
    destruct Hl as [[-> _]| ->]; [contradiction|]. cbn [with_backslashes flat_map app]. rewrite app_nil_r. now apply escans_end.
  - destruct (plain_split s) as (u & v & -> & Hu & Hv). apply Forall_app in Hs as [Hsu Hsv].
    unfold with_backslashes. rewrite flat_map_app. fold (with_backslashes u). fold (with_backslashes v). rewrite (with_plain u Hu). destruct v as [|q v].
    + rewrite !app_nil_r in *. cbn [with_backslashes flat_map] in *. rewrite ?app_nil_r. destruct u as [|c u].
      * destruct Hne as [Hne|Hne]; [contradiction|]. destruct Hl as [[-> _]| ->]; [contradiction|]. cbn [app]. rewrite app_nil_r. now apply escans_end.
      * set (w := c :: u) in *. destruct Hl as [[-> ->]| ->].
        -- apply (escans_step (ELexer InText None 0) (w ++ 34 :: rest) (act_text junk) (length w) (ELexer InText None 0) (Return (TStr w)) (length w) ts).
           ++ discriminate.
           ++ apply epick_text; [exact Hu|discriminate].
           ++ rewrite firstn_word. reflexivity.
           ++ cbn; lia.
           ++ discriminate.
           ++ rewrite skipn_word.
              apply (escans_step (ELexer InText None 0) (34 :: rest) act_text_end 1 elexer_start Continue 1 ts);
                [discriminate|apply epick_end|reflexivity|lia|discriminate|exact Hr].
        -- destruct (text_does p w Hp) as (m & Em).
           apply (escans_step (ELexer InText (Some (p ++ [0])) (zlen p)) (w ++ 34 :: rest) (act_text junk) (length w)
             (ELexer InText (Some ((p ++ w) ++ [0])) m) Continue (length w)).
           ++ discriminate.
           ++ apply epick_text; [exact Hu|discriminate].
           ++ rewrite firstn_word. exact Em.
           ++ cbn; lia.
           ++ discriminate.
           ++ rewrite skipn_word. apply escans_end; [now apply Forall_app|exact Hr].
    + assert (q = 34) as -> by (destruct Hv as [->|Hv]; [reflexivity|exfalso; apply H92; subst; apply in_or_app; right; now left]).
      change (with_backslashes (34 :: v)) with ([92; 34] ++ with_backslashes v).
      replace ((u ++ [92; 34] ++ with_backslashes v) ++ 34 :: rest) with ((u ++ [92; 34]) ++ with_backslashes v ++ 34 :: rest)
        by (rewrite <- !app_assoc; reflexivity).
      assert (Lw : (length u + 2)%nat = length (u ++ [92; 34])) by (rewrite app_length; reflexivity).
      apply (escans_step l _ (act_text_escape junk) (length u + 2) (ELexer InText (Some ((p ++ u ++ [34]) ++ [0])) (zlen (p ++ u ++ [34]))) Continue (length u + 2)).
      * destruct u; discriminate.
      * assert (e_mode l = InText) as -> by (destruct Hl as [[_ ->]| ->]; reflexivity).
        rewrite <- app_assoc. cbn [app rules_of]. now apply epick_escape.
      * rewrite Lw, firstn_word, <- Lw. now apply escape_does.
      * lia.
      * discriminate.
      * rewrite Lw, skipn_word. replace (p ++ u ++ 34 :: v) with ((p ++ u ++ [34]) ++ v) by (rewrite <- !app_assoc; reflexivity).
        apply IH.
        -- rewrite app_length in Hn. cbn [length] in Hn. lia.
        -- now right.
        -- right. destruct p; [destruct u|]; discriminate.
        -- now apply Forall_inv_tail in Hsv.
        -- intros K. apply H92. apply in_or_app. right. now right.
        -- apply Forall_app. split; [exact Hp|]. apply Forall_app. split; [exact Hsu|]. repeat constructor. discriminate.
        -- exact Hr.
Qed.
Lemma escans_string s rest ts : nonul s -> ~ In 92 s -> escans elexer_start rest ts ->
  escans elexer_start (([34] ++ with_backslashes s ++ [34]) ++ rest) (TStr s :: ts).
Proof.
  intros Hs H92 Hr. destruct s as [|c s].
  - apply (escans_rule (fun _ => TStr []) [34; 34]); [discriminate| |exact Hr].
    apply (others_nth 2 (word [34; 34]) (ereturns (fun _ => TStr [])) [34; 34] rest 34 [34] eq_refl).
    + discriminate.
    + cbn; intuition discriminate.
    + reflexivity.
    + apply longest_word.
    + rules; try dead. intros m. cbn [fst]. unfold lit. cbn [app]. rewrite longest_cls. cbn. intros [= <-]. lia.
    + rules; dead.
  - set (w := c :: s) in *. rewrite <- !app_assoc. cbn [app].
    apply (escans_step elexer_start (34 :: with_backslashes w ++ 34 :: rest) (enters InText) 1 (ELexer InText None 0) Continue 1).
    + discriminate.
    + apply (others_nth 1 (lit 34) (enters InText) [34] (with_backslashes w ++ 34 :: rest) 34 [] eq_refl).
      * discriminate.
      * cbn; intuition discriminate.
      * reflexivity.
      * unfold lit. cbn [app]. rewrite longest_cls. reflexivity.
      * rules; dead.
      * rules; try dead.
        apply upto_none. cbn [fst]. unfold word, lit. cbn [fold_right app]. rewrite longest_cat_cls. cbn [Z.eqb Pos.eqb].
        assert (H : exists d e, with_backslashes w ++ 34 :: rest = d :: e /\ d <> 34).
        { unfold w, with_backslashes. cbn [flat_map]. destruct (c =? 34) eqn:E; cbn [app].
          - eexists _, _. split; [reflexivity|lia].
          - eexists _, _. split; [reflexivity|]. now apply Z.eqb_neq in E. }
        destruct H as (d & e & -> & Hd). rewrite longest_cat_cls, (proj2 (Z.eqb_neq 34 d)) by congruence. reflexivity.
    + reflexivity.
    + lia.
    + discriminate.
    + cbn [skipn]. apply (escans_text (length w) w (ELexer InText None 0) [] rest ts); try assumption; try constructor.
      * now split.
      * discriminate.
Qed.

(** ** Quotations *)

Lemma closing_balanced s : balanced s -> forall np prev rest k, 1 <= np -> prev <> 92 ->
  exists prev', prev' <> 92 /\ closing np prev (s ++ rest) k = closing np prev' rest (k + length s).
Proof.
  induction 1 as [|c s Hc Hs IH|s s' _ IH1 _ IH2]; intros np prev rest k Hn Hp.
  - exists prev. split; [exact Hp|]. cbn [app length]. now rewrite Nat.add_0_r.
  - destruct (IH np c rest (S k) Hn) as (p' & Hp' & E); [intros ->; apply Hc; cbn; auto|]. exists p'. split; [exact Hp'|].
    cbn [app closing]. rewrite (proj2 (Z.eqb_neq np 0)) by lia.
    assert ((c =? 41) = false) as -> by (apply Z.eqb_neq; intros ->; apply Hc; cbn; auto).
    assert ((c =? 40) = false) as -> by (apply Z.eqb_neq; intros ->; apply Hc; cbn; auto). cbn [andb]. rewrite E. f_equal. cbn [length]. lia.
  - cbn [app closing]. rewrite (proj2 (Z.eqb_neq np 0)) by lia. cbn [Z.eqb Pos.eqb andb]. rewrite (proj2 (Z.eqb_neq prev 92) Hp). cbn [negb].
    rewrite <- app_assoc. cbn [app].
    destruct (IH1 (np + 1) 40 (41 :: s' ++ rest) (S k)) as (p1 & Hp1 & ->); [lia|discriminate|].
    cbn [closing]. rewrite (proj2 (Z.eqb_neq (np + 1) 0)) by lia. cbn [Z.eqb Pos.eqb andb]. rewrite (proj2 (Z.eqb_neq p1 92) Hp1). cbn [negb].
    destruct (IH2 (np + 1 - 1) 41 rest (S (S k + length s))) as (p2 & Hp2 & E2); [lia|discriminate|].
    exists p2. split; [exact Hp2|]. rewrite E2. replace (np + 1 - 1) with np by lia. f_equal. cbn [length]. rewrite app_length. cbn [length]. lia.
Qed.
Lemma longest_all s : longest (Star (Alt dot (lit 10))) s = Some (length s).
Proof.
  rewrite <- (app_nil_r s) at 1. apply longest_is.
  - induction s as [|c s IH]; [constructor|]. apply (M_again _ [c] s); [|exact IH]. destruct (Z.eq_dec c 10) as [-> |N]; [apply M_right, matches_lit|].
    apply M_left, M_cls. cbn [existsb]. now rewrite (proj2 (Z.eqb_neq c 10) N).
  - intros n E. now apply longest_ends in E.
Qed.
Lemma escans_quote b s rest ts : Forall (fun c => In c blanks) b -> balanced s -> escans elexer_start rest ts ->
  escans elexer_start ((str "quote" ++ b ++ [40] ++ s ++ [41]) ++ rest) (TQuoted s :: ts).
Proof.
  intros Hb Hs H. set (w := str "quote" ++ b ++ [40]).
  replace ((str "quote" ++ b ++ [40] ++ s ++ [41]) ++ rest) with (w ++ s ++ 41 :: rest) by (unfold w; rewrite <- !app_assoc; reflexivity).
  apply (escans_step elexer_start (w ++ s ++ 41 :: rest) (enters InQuote) (length w) (ELexer InQuote None 0) Continue (length w) (TQuoted s :: ts)); try discriminate.
  - assert (L : longest quote_re (w ++ s ++ 41 :: rest) = Some (length w)).
    { apply longest_is.
      - apply M_cat; [apply word_self|]. apply M_cat; [|apply matches_last, matches_lit]. apply matches_star. revert Hb. apply Forall_impl. intros c Hc.
        apply existsb_exists. exists c. split; [|apply Z.eqb_refl]. cbn in Hc |- *. lia.
      - intros n E. assert (Ew : w = (str "quote" ++ b) ++ [40]) by (unfold w; now rewrite <- app_assoc). rewrite Ew in E |- *.
        destruct (s ++ 41 :: rest) as [|d y]; [now apply longest_ends in E|]. apply longest_pair in E; [exact E|reflexivity]. }
    apply (others_nth 0 quote_re (enters InQuote) w (s ++ 41 :: rest) 113 (str "uote" ++ b ++ [40]) eq_refl).
    + discriminate.
    + cbn; intuition discriminate.
    + reflexivity.
    + exact L.
    + constructor.
    + clear L. unfold w. rules; try dead. intros m. cbn [fst]. intros E. rewrite <- !app_assoc in E. rewrite app_assoc in E. cbn [app] in E.
      apply longest_stops in E; [|reflexivity]. rewrite !app_length in *. cbn [length] in *. lia.
  - rewrite firstn_word. reflexivity.
  - unfold w. rewrite app_length. cbn. lia.
  - rewrite skipn_word.
    assert (P : pick quote_fn_rules (s ++ 41 :: rest) = Some (act_quote, length (s ++ 41 :: rest))).
    { cbn [pick quote_fn_rules]. now rewrite longest_all. }
    apply (escans_step (ELexer InQuote None 0) (s ++ 41 :: rest) act_quote (length (s ++ 41 :: rest)) elexer_start (Return (TQuoted s)) (S (length s)) ts).
    + destruct s; discriminate.
    + exact P.
    + rewrite firstn_all. unfold act_quote.
      destruct (closing_balanced s Hs 1 40 (41 :: rest) 0) as (p & Hp & ->); [lia|discriminate|]. cbn [closing Z.eqb Pos.eqb andb].
      rewrite (proj2 (Z.eqb_neq p 92) Hp). cbn [negb Nat.add].
      assert (C : forall prev r k, closing (1 - 1) prev r k = Some k) by (intros ? [|? ?] ?; reflexivity). rewrite C. cbn [e_buf e_buflen].
      replace (S (length s) - 1)%nat with (length s) by lia. now rewrite firstn_word.
    + lia.
    + discriminate.
    + replace (s ++ 41 :: rest) with ((s ++ [41]) ++ rest) by (rewrite <- app_assoc; reflexivity).
      replace (S (length s)) with (length (s ++ [41])) by (rewrite app_length; cbn [length]; lia). now rewrite skipn_word.
Qed.

Theorem escans_says s ts : says strtod s ts -> escans elexer_start s ts.
Proof.
  induction 1 as [|b rest ts Hb Hf Hr _ IH|s rest ts H0 Hs N _ IH|w t rest ts Hw _ IH].
  - apply escans_nil.
  - now apply escans_blank.
  - now apply (escans_comment s rest ts).
  - destruct Hw as [t s rest H1 H2|n rest H1 H2|w rest H1 H2 H3|x s rest H1 H2 H3 H4 H5|x s rest H1 H2 H3 H4|c rest H1 H2|w rest H1 H2|w rest H1 H2|w rest H1 H2|rest H1|
      s rest H1 H2 H3 H4|c s rest H1 H2 H3 H4 H5 H6|s rest H1 H2|b s rest H1 H2 H3].
    + now apply escans_sign.
    + now apply escans_number.
    + now apply escans_double.
    + rewrite <- (hex_atom_32 x s H3 H4). now apply escans_hex.
    + rewrite <- (hex_atom_64 x s H2 H3). apply escans_hex; try assumption. intros ->. cbn in H3. lia.
    + now apply escans_char.
    + now apply (escans_reserved 7 (fun _ => TNum (set_true atom_fresh)) yes); [|  | |left|].
    + now apply (escans_reserved 8 (fun _ => TNum (set_false atom_fresh)) no); [|  | |right; left|].
    + now apply (escans_reserved 9 (fun _ => TNum (set_nil atom_fresh)) nothing); [|  | |right; right; left|].
    + now apply escans_lambda.
    + now apply escans_address.
    + now apply escans_name.
    + now apply escans_string.
    + now apply escans_quote.
Qed.

(** * The scanner always ends *)

Definition einv (l : elexer) : Prop := match e_buf l with Some b => In 0 b /\ zlen b <= e_buflen l + 1 | None => True end.
Definition esafe (x : re * eaction) : Prop := forall text l, text <> [] -> matches (fst x) text -> einv l ->
  exists l' t k, snd x text l = Ok (l', t, k) /\ einv l' /\ (0 < k)%nat.
Lemma nonempty_length (text : list Z) : text <> [] -> (0 < length text)%nat.
Proof. destruct text; [contradiction|cbn [length]; lia]. Qed.
Lemma esafe_returns r f : esafe (r, ereturns f).
Proof. intros text l Hn _ Hl. cbn [snd]. eexists _, _, _. split; [reflexivity|]. split; [exact Hl|]. now apply nonempty_length. Qed.
Lemma escape_esafe text l : (2 <= length text)%nat -> einv l -> exists l', act_text_escape junk text l = Ok (l', Continue, length text) /\ einv l'.
Proof.
  intros Ht Hl. unfold act_text_escape.
  assert (Hz : 2 <= zlen text) by (unfold zlen; lia).
  rewrite last_rd by (intros ->; cbn [length] in Ht; lia). cbn [bind].
  assert (Hf : zlen (firstn (Z.to_nat (zlen text - 1)) text) = zlen text - 1) by (unfold zlen in *; rewrite firstn_length; lia).
  assert (W : forall b n q, 0 <= n -> zlen b = n + zlen text ->
    exists b', (do b <- write b n (firstn (Z.to_nat (zlen text - 1)) text);
      do b <- write b (n + (zlen text - 1) - 1) [q]; write b (n + (zlen text - 1)) [0]) = Ok b' /\ In 0 b' /\ zlen b' = n + zlen text).
  { intros b n q Hn Hb. destruct (write_some b n (firstn (Z.to_nat (zlen text - 1)) text)) as (a1 & a2 & a3 & _ & _ & _ & E1); [lia|rewrite Hf; lia|].
    pose proof (write_length _ _ _ _ E1) as L1. rewrite E1. cbn [bind].
    destruct (write_some (a1 ++ firstn (Z.to_nat (zlen text - 1)) text ++ a3) (n + (zlen text - 1) - 1) [q]) as (b1 & b2 & b3 & _ & _ & _ & E2);
      [lia|change (zlen [q]) with 1; lia|]. pose proof (write_length _ _ _ _ E2) as L2. rewrite E2. cbn [bind].
    destruct (write_some (b1 ++ [q] ++ b3) (n + (zlen text - 1)) [0]) as (c1 & c2 & c3 & _ & _ & _ & E3); [lia|change (zlen [0]) with 1; lia|].
    pose proof (write_length _ _ _ _ E3) as L3. rewrite E3. eexists. split; [reflexivity|]. split; [|lia].
    apply in_or_app. right. now left. }
  unfold einv in Hl. destruct (e_buf l) as [b|].
  - destruct Hl as [H0 Hb]. pose proof (zlen_nonneg b) as Hb0. assert (1 <= zlen b) by (destruct b; [destruct H0|rewrite zlen_cons; pose proof (zlen_nonneg b); lia]).
    destruct (grown_in junk b (e_buflen l + zlen text) H0 ltac:(lia)) as [_ Hg].
    destruct (W (grown junk b (e_buflen l + zlen text)) (e_buflen l) (last text 0) ltac:(lia) Hg) as (b' & E & I0 & L).
    destruct (write (grown junk b (e_buflen l + zlen text)) (e_buflen l) (firstn (Z.to_nat (zlen text - 1)) text)) as [b1| |]; cbn [bind] in *; try discriminate E.
    destruct (write b1 (e_buflen l + (zlen text - 1) - 1) [last text 0]) as [b2| |]; cbn [bind] in *; try discriminate E.
    rewrite E. cbn [bind]. eexists. split; [reflexivity|]. unfold einv. cbn [e_buf e_buflen]. split; [exact I0|lia].
  - pose proof (grown_length junk [] (zlen text) ltac:(lia)) as Hg.
    destruct (W (grown junk [] (zlen text)) 0 (last text 0) ltac:(lia) Hg) as (b' & E & I0 & L). rewrite !Z.add_0_l in E.
    destruct (write (grown junk [] (zlen text)) 0 (firstn (Z.to_nat (zlen text - 1)) text)) as [b1| |]; cbn [bind] in *; try discriminate E.
    destruct (write b1 (zlen text - 1 - 1) [last text 0]) as [b2| |]; cbn [bind] in *; try discriminate E.
    rewrite E. cbn [bind]. eexists. split; [reflexivity|]. unfold einv. cbn [e_buf e_buflen]. split; [exact I0|lia].
Qed.
Lemma text_esafe text l : einv l -> exists l' t, act_text junk text l = Ok (l', t, length text) /\ einv l'.
Proof.
  intros Hl. unfold act_text. pose proof Hl as Hi. unfold einv in Hl. destruct (e_buf l) as [b|].
  - destruct Hl as [H0 Hb]. pose proof (zlen_nonneg text) as Ht.
    destruct (grown_in junk b (e_buflen l + zlen text + 1) H0 ltac:(lia)) as [G0 Hg].
    destruct (grown_tail junk b (e_buflen l + zlen text + 1 - zlen b) ltac:(lia)) as (t & E & L).
    replace (zlen b + (e_buflen l + zlen text + 1 - zlen b)) with (e_buflen l + zlen text + 1) in E by lia.
    destruct (zero_split b H0) as (p & t' & Eb & Hp).
    assert (R : rdstr (grown junk b (e_buflen l + zlen text + 1)) 0 = Ok p).
    { rewrite E, Eb, <- app_assoc. cbn [app]. exact (rdstr_at [] p (t' ++ t) Hp). }
    rewrite R. cbn [bind].
    assert (zlen p + 1 <= zlen b) by (rewrite Eb, zlen_app, zlen_cons; pose proof (zlen_nonneg t'); lia).
    destruct (write_some (grown junk b (e_buflen l + zlen text + 1)) (zlen p) (text ++ [0])) as (a1 & a2 & a3 & _ & _ & _ & W);
      [apply zlen_nonneg|rewrite zlen_app; change (zlen [0]) with 1; lia|].
    pose proof (write_length _ _ _ _ W) as LW. rewrite W. cbn [bind]. eexists _, _. split; [reflexivity|].
    unfold einv. cbn [e_buf e_buflen]. split; [|lia]. apply in_or_app. right. apply in_or_app. left. apply in_or_app. right. now left.
  - eexists _, _. split; [reflexivity|exact Hi].
Qed.
Lemma end_esafe text l : einv l -> exists l' t, act_text_end text l = Ok (l', t, length text) /\ einv l'.
Proof.
  intros Hl. unfold act_text_end. unfold einv in Hl. destruct (e_buf l) as [b|]; [|eexists _, _; split; [reflexivity|exact I]].
  destruct Hl as [H0 _]. destruct (zero_split b H0) as (p & t & -> & Hp). pose proof (rdstr_at [] p t Hp) as R. cbn [app] in R. change (zlen []) with 0 in R.
  rewrite R. cbn [bind]. eexists _, _. split; [reflexivity|exact I].
Qed.
Lemma closing_later s : forall np prev k n, closing np prev s k = Some n -> (k <= n)%nat.
Proof.
  induction s as [|c s IH]; intros np prev k n; cbn [closing]; destruct (np =? 0); try discriminate; try (intros [= <-]; lia).
  intros H. apply IH in H. lia.
Qed.
Lemma esafe_initial : Forall esafe (e_rules strtod).
Proof.
  rewrite rules_eq. apply Forall_app. split; [|apply Forall_app; split].
  - constructor; [|constructor]. intros text l Hn _ Hl. eexists _, _, _. split; [reflexivity|]. split; [exact Hl|now apply nonempty_length].
  - unfold sign_rules. rewrite Forall_forall. intros x Hx. apply in_map_iff in Hx as ([v u] & <- & _). apply esafe_returns.
  - rules; try apply esafe_returns; intros text l Hn M Hl; cbn [snd fst] in *.
    + eexists _, _, _. split; [reflexivity|]. split; [exact Hl|now apply nonempty_length].
    + eexists _, _, _. split; [reflexivity|]. split; [exact Hl|now apply nonempty_length].
    + apply cat_inv in M as (u & v & -> & M1 & M2). apply cat_inv in M2 as (u2 & v2 & -> & M2 & M3). apply cls_inv in M1 as (c & -> & _).
      apply cls_inv in M2 as (d & -> & _). cbn [app]. unfold act_letter. pose proof (rd_at [c] d v2) as R. cbn [app] in R. change (zlen [c]) with 1 in R. rewrite R. cbn [bind].
      eexists _, _, _. split; [reflexivity|]. split; [exact Hl|cbn [length]; lia].
    + eexists _, _, _. split; [reflexivity|]. split; [exact Hl|now apply nonempty_length].
Qed.
Lemma esafe_modes m : Forall esafe (rules_of strtod junk m).
Proof.
  destruct m; cbn [rules_of].
  - exact esafe_initial.
  - unfold text_rules. repeat first [apply Forall_nil | apply Forall_cons]; intros text l Hn H Hl; cbn [snd fst] in *.
    + destruct (text_esafe text l Hl) as (l' & t & E & Hi). exists l', t, (length text). split; [exact E|]. split; [exact Hi|now apply nonempty_length].
    + destruct (end_esafe text l Hl) as (l' & t & E & Hi). exists l', t, (length text). split; [exact E|]. split; [exact Hi|now apply nonempty_length].
    + pose proof (inside_length text H) as Ht. destruct (escape_esafe text l Ht Hl) as (l' & E & Hi). exists l', Continue, (length text).
      split; [exact E|]. split; [exact Hi|lia].
  - constructor; [|constructor]. intros text l Hn H Hl. cbn [snd]. unfold act_quote. destruct (closing 1 40 text 0) as [k|] eqn:E.
    + eexists _, _, _. split; [reflexivity|]. split; [exact Hl|]. destruct text as [|c text]; [discriminate|]. cbn [closing Z.eqb] in E.
      apply closing_later in E. lia.
    + eexists _, _, _. split; [reflexivity|]. split; [exact Hl|now apply nonempty_length].
Qed.
Lemma star_all_longest m s n a c : s = c :: tl s -> pick (rules_of strtod junk m) s = Some (a, n) -> (0 < n)%nat.
Proof.
  intros Hs P. destruct m; cbn [rules_of] in P; try (
  destruct (pick_sound _ _ _ _ P) as (r & Hin & L); destruct n as [|n]; [exfalso|lia]; destruct (longest_sound _ _ _ L) as [_ M]; cbn [firstn] in M;
  apply nullable_ok in M).
  - assert (F : forallb (fun x => negb (nullable (fst x))) (e_rules strtod) = true) by reflexivity. rewrite forallb_forall in F.
    specialize (F _ Hin). cbn [fst] in F. rewrite M in F. discriminate.
  - assert (F : forallb (fun x => negb (nullable (fst x))) (text_rules junk) = true) by reflexivity. rewrite forallb_forall in F.
    specialize (F _ Hin). cbn [fst] in F. rewrite M in F. discriminate.
  - cbn [pick quote_fn_rules] in P. rewrite longest_all in P. injection P as _ P. rewrite Hs in P. discriminate P.
Qed.
Lemma escan_total fuel : forall l s, (length s <= fuel)%nat -> einv l -> exists ts, e_scan strtod junk fuel l s = Ok ts.
Proof.
  induction fuel as [|fuel IH]; intros l s Hs Hl; destruct s as [|c s]; cbn [e_scan length] in *; [now eexists|lia|now eexists|].
  destruct (pick (rules_of strtod junk (e_mode l)) (c :: s)) as [[act n]|] eqn:P.
  - pose proof (star_all_longest (e_mode l) (c :: s) n act c eq_refl P) as Hn.
    destruct (pick_sound _ _ _ _ P) as (r & Hin & L).
    assert (Hsafe : esafe (r, act)) by (pose proof (esafe_modes (e_mode l)) as F; rewrite Forall_forall in F; exact (F _ Hin)).
    destruct (longest_sound _ _ _ L) as [_ Hm].
    destruct (Hsafe (firstn n (c :: s)) l ltac:(destruct n; [lia|discriminate]) Hm Hl) as (l' & t & k & E & Hi & Hk). cbn [snd] in E. rewrite E. cbn [bind].
    destruct (IH l' (skipn k (c :: s))) as (ts & Ets); [rewrite skipn_length; cbn [length]; lia|exact Hi|].
    destruct t; [rewrite Ets; now eexists|rewrite Ets; now eexists|now eexists].
  - apply IH; [lia|exact Hl].
Qed.
Lemma escan_any s : exists ts, escans elexer_start s ts.
Proof.
  destruct (escan_total (length s) elexer_start s (le_n _) I) as (ts & E).
  exists ts. intros k Hk. revert E. generalize elexer_start as l. revert s Hk ts.
  assert (G : forall f s l ts, e_scan strtod junk f l s = Ok ts -> forall k, (f <= k)%nat -> e_scan strtod junk k l s = Ok ts).
  { clear. induction f as [|f IH]; intros s l ts E k Hk; destruct s as [|c s]; cbn [e_scan] in E; try discriminate; try (destruct k; exact E).
    destruct k as [|k]; [lia|]. cbn [e_scan]. destruct (pick _ _) as [[act n]|]; [|apply IH; [exact E|lia]].
    destruct (act (firstn n (c :: s)) l) as [[[l' t] j]| |]; cbn [bind] in *; try discriminate.
    destruct t as [|t|]; [apply IH; [exact E|lia]| |exact E].
    destruct (e_scan strtod junk f l' (skipn j (c :: s))) as [ts'| |] eqn:E'; cbn [bind] in E; try discriminate.
    rewrite (IH _ _ _ E' k) by lia. exact E. }
  intros s Hk ts l E. now apply (G (length s)).
Qed.

(** * Where tokens come from *)

Definition from (w : list Z) (t : etoken) : Prop :=
  match t with
  | TAddr p => hd 0 p = 47
  | TOp OPow | TOpAssign OPow => In 94 w
  | TDot => In 46 w
  | TLambda => exists a b, w = a ++ str "lambda" ++ b
  | TOpenSq => In 91 w
  | _ => True
  end.
Lemma from_more a w b t : from w t -> from (a ++ w ++ b) t.
Proof.
  assert (I : forall c, In c w -> In c (a ++ w ++ b)) by (intros c H; apply in_or_app; right; apply in_or_app; now left).
  destruct t as [?|?|?|?| |o|o|?| | | | | | | | | | | | | | | | | | ]; cbn [from]; try destruct o; auto.
  intros (x & y & ->). exists (a ++ x), (y ++ b). now rewrite <- !app_assoc.
Qed.
Definition honest (x : re * eaction) : Prop := forall text l l' t k, matches (fst x) text -> snd x text l = Ok (l', Return t, k) -> from text t.
Lemma honest_returns r f : (forall text, matches r text -> from text (f text)) -> honest (r, ereturns f).
Proof. intros H text l l' t k M. cbn [snd]. unfold ereturns. intros [= <- <- <-]. now apply H. Qed.
Lemma honest_modes m : Forall honest (rules_of strtod junk m).
Proof.
  destruct m; cbn [rules_of].
  - rewrite rules_eq. apply Forall_app. split; [|apply Forall_app; split].
    + constructor; [|constructor]. intros text l l' t k _ H. discriminate H.
    + unfold sign_rules. rewrite Forall_forall. intros x Hx. apply in_map_iff in Hx as ([v u] & <- & Hv). apply honest_returns.
      intros text M. apply matches_word in M as ->. unfold symbols in Hv. cbn [In] in Hv.
      repeat match type of Hv with _ \/ _ => destruct Hv as [[= <- <-]|Hv]; [cbn [from]; first [exact I|cbn; tauto]|] end. contradiction.
    + rules; try (apply honest_returns; intros text M; exact I); try (intros text l l' t k _ H; discriminate H).
      * intros text l l' t k _ H. cbn [snd] in H. unfold act_letter in H. destruct (rd text 1); [|discriminate|discriminate]. injection H as <- <- <-. exact I.
      * apply honest_returns. intros text M. apply matches_word in M as ->. exists [], []. reflexivity.
      * apply honest_returns. intros text M. apply cat_inv in M as (u & v & -> & M & _). apply cls_inv in M as (c & -> & E). apply Z.eqb_eq in E as <-. reflexivity.
  - repeat first [apply Forall_nil | apply Forall_cons]; intros text l l' t k _ H; cbn [snd] in H.
    + unfold act_text in H. destruct (e_buf l); [|now injection H as <- <- <-].
      destruct (rdstr _ _); cbn [bind] in H; try discriminate. destruct (write _ _ _); discriminate.
    + unfold act_text_end in H. destruct (e_buf l); [|discriminate]. destruct (rdstr _ _); cbn [bind] in H; try discriminate. now injection H as <- <- <-.
    + unfold act_text_escape in H. destruct (rd _ _); cbn [bind] in H; try discriminate.
      destruct (e_buf l); destruct (write _ _ _); cbn [bind] in H; try discriminate; destruct (write _ _ _); cbn [bind] in H; try discriminate;
        destruct (write _ _ _); discriminate.
  - constructor; [|constructor]. intros text l l' t k _ H. cbn [snd] in H. unfold act_quote in H. destruct (closing _ _ _ _); [|discriminate]. now injection H as <- <- <-.
Qed.
Lemma escan_from f : forall l s ts, e_scan strtod junk f l s = Ok ts -> Forall (from s) ts.
Proof.
  assert (S : forall k s ts, Forall (from (skipn k s)) ts -> Forall (from s) ts).
  { intros k s ts. apply Forall_impl. intros t H. apply (from_more (firstn k s) _ []) in H. now rewrite app_nil_r, firstn_skipn in H. }
  induction f as [|f IH]; intros l s ts E; destruct s as [|c s]; cbn [e_scan] in E; try discriminate; try (injection E as <-; constructor).
  destruct (pick (rules_of strtod junk (e_mode l)) (c :: s)) as [[act n]|] eqn:P; [|apply IH in E; now apply (S 1%nat (c :: s))].
  destruct (act (firstn n (c :: s)) l) as [[[l' t] k]| |] eqn:A; cbn [bind] in E; try discriminate.
  destruct t as [|t|]; [apply IH in E; now apply (S k)| |injection E as <-; constructor].
  destruct (e_scan strtod junk f l' (skipn k (c :: s))) as [ts'| |] eqn:E'; cbn [bind] in E; try discriminate. injection E as <-.
  constructor; [|apply IH in E'; now apply (S k)].
  destruct (pick_sound _ _ _ _ P) as (r & Hin & L). pose proof (honest_modes (e_mode l)) as F. rewrite Forall_forall in F.
  destruct (longest_sound _ _ _ L) as [_ M]. pose proof (F _ Hin _ _ _ _ _ M A) as K.
  apply (from_more [] _ (skipn n (c :: s))) in K. cbn [app] in K. now rewrite firstn_skipn in K.
Qed.
End ETokens.
