(** Reading expressions from text: C85 to C88. *)

From Coq Require Import String ZArith List Bool Lia.
From Verif Require Import Base Text BaseProofs SerialModel BundleSModel AtomSpec ExprParseModel ExprTextSpec.
From Verif Require ExprScan ScanModel.
From Verif Require Import ExprParseSpec ExprParseProofs ExprReads ExprSound ExprTotal ExprMeaning ExprTop.
Import ListNotations.
Open Scope Z_scope.

Section Parse.
Context (strtod : list Z -> Z) (junk : bytes).
Notation parse := (parse_expr strtod junk).

(** The tokens of a text. *)
Definition tokens (s : list Z) (ts : list etoken) : Prop := e_scan strtod junk (S (length s)) elexer_start s = Ok ts.

Lemma parse_at s rest ts : nonul s -> tokens s ts -> parse (s ++ 0 :: rest) = p_expns ts.
Proof.
  intros Hs T. unfold parse_expr. pose proof (rdstr_at [] s rest Hs) as R. cbn [app] in R. change (zlen []) with 0 in R. rewrite R. cbn [bind].
  unfold tokens in T. rewrite T. reflexivity.
Qed.

(** ** C87: a text is divided into the tokens it spells, for each token as far as
    possible; every text has tokens. *)
Theorem C87_scans s ts : says strtod s ts -> tokens s ts.
Proof. intros H. apply (ExprScan.escans_says strtod junk s ts H). lia. Qed.
Theorem C87_total s : exists ts, tokens s ts.
Proof. destruct (ExprScan.escan_any strtod junk s) as (ts & H). exists ts. apply H. lia. Qed.

(** ** C85: expressions are read as they are written *)

Lemma enough_program ts : (4 * length ts + 3 <= enough ts)%nat.
Proof. unfold enough. lia. Qed.
Lemma program_start l : some l = true -> forallb well l = true -> match program l with [] | TComma :: _ => False | _ => True end.
Proof.
  intros SO W. destruct l as [|e l]; [discriminate|]. unfold program. cbn [map]. destruct (flat_head e) as (t & ts & F & St).
  assert (K : forall us, match flat e ++ us with [] | TComma :: _ => False | _ => True end) by (intros us; rewrite F; destruct t; try exact I; discriminate St).
  destruct l as [|e' l]; cbn [map sep]; [specialize (K []); now rewrite app_nil_r in K|apply K].
Qed.
Lemma expns_program ts l : some l = true -> forallb well l = true -> ts = program l \/ ts = TComma :: program l -> p_expns ts = run [] l.
Proof.
  intros SO W [-> | ->].
  - pose proof (program_start l SO W) as N.
    pose proof (items_read l (enough (program l)) [] SO W (enough_program _)) as R. unfold p_expns.
    destruct (program l) as [|[] ?]; try contradiction; exact R.
  - cbn [p_expns]. apply items_read; [exact SO|exact W|apply enough_program].
Qed.
Lemma fits_well l : forallb (fun e => well e && works e) l = true -> forallb well l = true.
Proof. rewrite !forallb_forall. intros H x Hx. specialize (H x Hx). now apply andb_true_iff in H. Qed.

(** A text that spells well-formed expressions, separated by commas, perhaps with a
    comma before the first: the code and the expressions they stand for. *)
Theorem C85_reads s rest l : nonul s -> says strtod s (program l) \/ says strtod s (TComma :: program l) -> some l = true ->
  forallb (fun e => well e && works e) l = true -> parse (s ++ 0 :: rest) = Ok (outcome l).
Proof.
  intros Hs T SO W. assert (R : p_expns (program l) = Ok (outcome l) /\ p_expns (TComma :: program l) = Ok (outcome l)).
  { pose proof (run_outcome l [] W) as R. cbn [app] in R. rewrite <- surjective_pairing in R. rewrite <- R. split; apply expns_program; auto using fits_well. }
  destruct T as [T|T]; apply C87_scans in T; rewrite (parse_at s rest _ Hs T); apply R.
Qed.
(** The caller that gets the expressions only. *)
Theorem C85_reads_r s rest l : nonul s -> says strtod s (program l) \/ says strtod s (TComma :: program l) -> some l = true ->
  forallb (fun e => well e && works e) l = true ->
  parse_expr_r strtod junk (s ++ 0 :: rest) = Ok (if fst (outcome l) =? 0 then snd (outcome l) else []).
Proof. intros Hs T SO W. unfold parse_expr_r. rewrite (C85_reads s rest l Hs T SO W). cbn [bind]. now destruct (outcome l). Qed.
(** The empty text. *)
Theorem C85_empty s rest : nonul s -> says strtod s [] -> parse (s ++ 0 :: rest) = Ok (0, []).
Proof. intros Hs T. apply C87_scans in T. now rewrite (parse_at s rest _ Hs T). Qed.

(** Which of two operators is applied first, spelled out. *)
Definition operand (t : etoken) : option parg :=
  match t with TNum a => Some (PAtom a) | TStr s => Some (lit_text s) | TAddr p => Some (PAddr p) | _ => None end.
Theorem C85_order s rest x y z a b c o o' : nonul s -> works_op o = true -> works_op o' = true ->
  (forall p, In (TAddr p) [x; y; z] -> hd 0 p = 47) ->
  operand x = Some a -> operand y = Some b -> operand z = Some c -> says strtod s [x; TOp o; y; TOp o'; z] ->
  parse (s ++ 0 :: rest) = Ok (0,
    [if rank (TOp o') <=? rank (TOp o) then Call (spelling o') [PExpr (Some (Call (spelling o) [a; b])); c]
     else Call (spelling o) [a; PExpr (Some (Call (spelling o') [b; c]))]]).
Proof.
  intros Hs W1 W2 Ad Hx Hy Hz T.
  set (leaf := fun t => match t with TNum a => SNum a | TStr s => SText s | TAddr p => SAddr p | _ => SText [] end).
  assert (L : forall t d, operand t = Some d -> In t [x; y; z] -> flat (leaf t) = [t] /\ meaning (leaf t) = Some d /\ well (leaf t) = true /\
    works (leaf t) = true /\ rights (leaf t) = [] /\ lefts (leaf t) = []).
  { intros t d Ht Hin. destruct t; try discriminate Ht; injection Ht as <-; repeat split; try reflexivity. cbn [leaf works addr]. apply Z.eqb_eq.
    now apply Ad. }
  destruct (L x a Hx ltac:(cbn; auto)) as (X1 & X2 & X3 & X4 & X5 & X6). destruct (L y b Hy ltac:(cbn; auto)) as (Y1 & Y2 & Y3 & Y4 & Y5 & Y6).
  destruct (L z c Hz ltac:(cbn; auto)) as (Z1 & Z2 & Z3 & Z4 & Z5 & Z6).
  destruct (rank (TOp o') <=? rank (TOp o)) eqn:R.
  - rewrite (C85_reads s rest [SOp (SOp (leaf x) o (leaf y)) o' (leaf z)]); [|exact Hs| |reflexivity|].
    + unfold outcome, item_meaning. cbn [item is_expr meaning]. rewrite X2, Y2, Z2. reflexivity.
    + left. unfold program. cbn [map sep flat]. rewrite X1, Y1, Z1. exact T.
    + cbn [forallb well works]. unfold left_of, right_of. cbn [rights lefts forallb]. rewrite X3, X4, X5, Y3, Y4, Y5, Y6, Z3, Z4, Z6, W1, W2.
      cbn [forallb andb]. unfold first. assert (F : (rank (TOp o') <? rank (TOp o)) || (rank (TOp o') =? rank (TOp o)) && negb (to_the_right (rank (TOp o))) = true).
      { apply Z.leb_le in R. apply orb_true_iff. destruct (Z.eq_dec (rank (TOp o')) (rank (TOp o))) as [E|E]; [right|left; apply Z.ltb_lt; lia].
        rewrite (proj2 (Z.eqb_eq _ _) E). now destruct o. }
      rewrite F. reflexivity.
  - rewrite (C85_reads s rest [SOp (leaf x) o (SOp (leaf y) o' (leaf z))]); [|exact Hs| |reflexivity|].
    + unfold outcome, item_meaning. cbn [item is_expr meaning]. rewrite X2, Y2, Z2. reflexivity.
    + left. unfold program. cbn [map sep flat]. rewrite X1, Y1, Z1. exact T.
    + cbn [forallb well works]. unfold left_of, right_of. cbn [rights lefts forallb]. rewrite X3, X4, X5, Y3, Y4, Y5, Y6, Z3, Z4, Z6, W1, W2.
      cbn [forallb andb]. unfold first. apply Z.leb_gt in R. rewrite (proj2 (Z.ltb_ge _ _)) by lia. rewrite (proj2 (Z.eqb_neq _ _)) by lia. reflexivity.
Qed.

(** The tokens determine the expressions. *)
Theorem C85_unambiguous l l' : some l = true -> some l' = true -> forallb (fun e => well e && works e) l = true ->
  forallb (fun e => well e && works e) l' = true -> program l = program l' -> outcome l = outcome l'.
Proof.
  intros S1 S2 W1 W2 E. pose proof (run_outcome l [] W1) as R1. pose proof (run_outcome l' [] W2) as R2. cbn [app] in *. rewrite <- surjective_pairing in R1, R2.
  rewrite <- (expns_program (program l) l S1 (fits_well l W1) (or_introl eq_refl)) in R1.
  rewrite <- (expns_program (program l') l' S2 (fits_well l' W2) (or_introl eq_refl)) in R2. rewrite E in R1. congruence.
Qed.

(** ** C86: any text is read to its end; what is accepted is a list of expressions *)

Lemma expns_cases ts : ts = [] \/ exists us, (ts = us \/ ts = TComma :: us) /\ p_expns ts = p_items (enough us) [] us.
Proof.
  destruct ts as [|t ts]; [now left|]. right.
  destruct t; try (eexists; split; [left; reflexivity|reflexivity]). exists ts. split; [now right|reflexivity].
Qed.
Theorem C86_ends s rest : nonul s -> parse (s ++ 0 :: rest) <> Fuel.
Proof.
  intros Hs. destruct (C87_total s) as (ts & T). rewrite (parse_at s rest ts Hs T).
  destruct (expns_cases ts) as [-> |(us & _ & ->)]; [discriminate|]. apply items_fine; apply enough_program.
Qed.
(** Accepted is nothing but expressions separated by commas. *)
Theorem C86_accepted s rest es : nonul s -> parse (s ++ 0 :: rest) = Ok (0, es) -> exists ts, tokens s ts /\
  ((ts = [] /\ es = []) \/
   exists l, some l = true /\ forallb well l = true /\ forallb item l = true /\ (ts = program l \/ ts = TComma :: program l) /\
     (forallb works l = true -> outcome l = (0, es))).
Proof.
  intros Hs H. destruct (C87_total s) as (ts & T). exists ts. split; [exact T|]. rewrite (parse_at s rest ts Hs T) in H.
  assert (K : forall us, p_items (enough us) [] us = Ok (0, es) -> exists l, some l = true /\ forallb well l = true /\ forallb item l = true /\ us = program l /\
     (forallb works l = true -> outcome l = (0, es))).
  { intros us E. apply items_sound in E as (l & S1 & -> & W & It & R). exists l. repeat (split; [assumption|]). split; [reflexivity|]. intros V.
    assert (WV : forallb (fun e => well e && works e) l = true).
    { rewrite forallb_forall in W, V |- *. intros x Hx. now rewrite W, V. }
    rewrite (run_outcome l [] WV) in R. injection R as R1 R2. rewrite (surjective_pairing (outcome l)). congruence. }
  destruct (expns_cases ts) as [-> |(us & Eu & E)]; [left; injection H as <-; now split|]. right. rewrite E in H.
  destruct (K us H) as (l & H1 & H2 & H3 & -> & H5). exists l. repeat (split; [assumption|]). exact H5.
Qed.
(** No undefined behaviour if the text has no operator ^, no member of a bundle and no
    function with parameters in brackets. *)
Theorem C86_safe s rest ts : nonul s -> tokens s ts -> plain ts ->
  exists code es, parse (s ++ 0 :: rest) = Ok (code, es) /\ (code = 0 \/ code = 1).
Proof.
  intros Hs T P. rewrite (parse_at s rest ts Hs T).
  assert (K : forall us f tmp r, p_items f tmp us = Ok r -> fst r = 0 \/ fst r = 1).
  { intros us f. revert us. induction f as [|f IH]; intros us tmp r; [discriminate|]. cbn [p_items].
    destruct (p_item f us) as [[[e us']|]| |]; cbn [bind]; try discriminate; [|intros [= <-]; now right].
    destruct (push tmp e) as [tmp'| |]; cbn [bind]; try discriminate. destruct us' as [|? us']; [intros [= <-]; now left|apply IH]. }
  assert (G : forall us, plain us -> exists code es, p_items (enough us) [] us = Ok (code, es) /\ (code = 0 \/ code = 1)).
  { intros us Pu. pose proof (items_safe (enough us) [] us Pu) as S. pose proof (items_fine (enough us) [] us (enough_program us)) as F.
    pose proof (K us (enough us) []) as C.
    destruct (p_items (enough us) [] us) as [[code es]|u|]; [|now contradiction (S u)|contradiction]. exists code, es. split; [reflexivity|]. now apply (C (code, es)). }
  destruct (expns_cases ts) as [-> |(us & Eu & ->)]; [eexists _, _; split; [reflexivity|now left]|].
  apply G. destruct Eu as [-> | ->]; [exact P|]. apply plain_cons in P as [_ P]. exact P.
Qed.
(** The same for the characters of the text. *)
Theorem C86_safe_text s rest : nonul s -> ~ In 94 s -> ~ In 46 s -> ~ In 91 s \/ (forall a b, s <> a ++ str "lambda" ++ b) ->
  exists code es, parse (s ++ 0 :: rest) = Ok (code, es) /\ (code = 0 \/ code = 1).
Proof.
  intros Hs H94 H46 Hl. destruct (C87_total s) as (ts & T). apply (C86_safe s rest ts Hs T).
  pose proof (ExprScan.escan_from strtod junk _ _ _ _ T) as F. rewrite Forall_forall in F. split.
  - apply forallb_forall. intros t Ht. specialize (F t Ht).
    destruct t as [?|?|p|?| |o|o|?| | | | | | | | | | | | | | | | | | ]; try reflexivity; cbn [ExprScan.from plain_token] in *.
    + now apply Z.eqb_eq.
    + now destruct o.
    + now destruct o.
    + contradiction.
  - intros w pre post ->. destruct Hl as [Hl|Hl].
    + apply Hl. apply (F TOpenSq). apply in_or_app. right. cbn. auto.
    + destruct (F TLambda) as (a & b & E); [apply in_or_app; right; now left|]. now apply (Hl a b).
Qed.

(** ** C88: a function is read from its text *)

Lemma primary_whole e f : well e = true -> headed e = true -> (4 * length (flat e) + 2 <= f)%nat -> p_primary f (flat e) = lift (build e) [].
Proof.
  intros W Hd F. pose proof (prim_read (S (size e)) (reads_n (S (size e))) e [] ltac:(lia) W Hd (quiet_calm [] e eq_refl)) as [f0 H].
  rewrite app_nil_r in H. rewrite <- (H (f + f0)%nat) by lia.
  assert (G : forall g, (f <= g)%nat -> p_primary g (flat e) = p_primary f (flat e)).
  { intros g Hg. induction Hg as [|g Hg IH]; [reflexivity|]. destruct (more_fuel g) as (_ & _ & _ & _ & A). rewrite <- IH. apply A. rewrite IH.
    apply fine_all. lia. }
  symmetry. apply G. lia.
Qed.
Theorem C88_reads s rest params brackets body : nonul s -> says strtod s (flat (SFun params brackets body)) ->
  well (SFun params brackets body) = true -> works (SFun params brackets body) = true ->
  parse_function strtod junk (s ++ 0 :: rest) =
    Ok (opt_map (fun l => (params, flat_map in_body l)) (each meaning body)).
Proof.
  intros Hs T W V. unfold parse_function. pose proof (rdstr_at [] s rest Hs) as R. cbn [app] in R. change (zlen []) with 0 in R. rewrite R. cbn [bind].
  apply C87_scans in T. unfold tokens in T. rewrite T. cbn [bind]. cbn [flat]. 
  change (TLambda :: TOpen :: ?x) with (flat (SFun params brackets body)).
  rewrite (primary_whole (SFun params brackets body)) by (try assumption; try reflexivity; unfold enough; lia).
  rewrite (build_meaning _ W V). cbn [meaning]. destruct (each meaning body) as [l|]; reflexivity.
Qed.
(** Nothing else is accepted. *)
Theorem C88_only s rest params body : nonul s -> parse_function strtod junk (s ++ 0 :: rest) = Ok (Some (params, body)) ->
  exists e, tokens s (flat e) /\ well e = true /\ match e with SFun ps _ _ => ps = params | _ => False end /\
    (works e = true -> meaning e = Some (PFun params body)).
Proof.
  intros Hs H. unfold parse_function in H. pose proof (rdstr_at [] s rest Hs) as R. cbn [app] in R. change (zlen []) with 0 in R. rewrite R in H. cbn [bind] in H.
  destruct (C87_total s) as (ts & T). pose proof T as T'. unfold tokens in T'. rewrite T' in H. cbn [bind] in H.
  destruct ts as [|t ts]; [discriminate|]. destruct t; try discriminate.
  destruct (p_primary (enough (TLambda :: ts)) (TLambda :: ts)) as [[[a us]|]| |] eqn:E; cbn [bind] in H; try discriminate.
  destruct a; try discriminate. destruct us; [|discriminate]. injection H as -> ->.
  apply sound_all in E as (e & Ee & W & B & _ & _). rewrite app_nil_r in Ee. exists e. rewrite <- Ee. split; [exact T|]. split; [exact W|].
  assert (Hf : exists brackets bd, e = SFun params brackets bd).
  { pose proof (build_kind e (PFun params body) W B) as K. destruct e; cbn [is_expr] in K; try discriminate B; try (exfalso; clear - K; intuition discriminate).
    cbn [build] in B. destruct (all_of _ _) as [[l|]| |]; try discriminate. cbn [try] in B. destruct (body_of _ _); try discriminate. cbn [bind] in B.
    injection B as -> _. eauto. }
  destruct Hf as (brackets & bd & ->). split; [reflexivity|]. intros V. pose proof (build_meaning _ W V) as M. congruence.
Qed.
End Parse.
Print Assumptions C85_reads.
Print Assumptions C85_reads_r.
Print Assumptions C85_empty.
Print Assumptions C85_order.
Print Assumptions C85_unambiguous.
Print Assumptions C86_ends.
Print Assumptions C86_accepted.
Print Assumptions C86_safe.
Print Assumptions C86_safe_text.
Print Assumptions C87_scans.
Print Assumptions C87_total.
Print Assumptions C88_reads.
Print Assumptions C88_only.

(** * What fails *)

Definition P (s : string) : res (Z * list pexpr) := parse_expr (fun _ => 0) [] (str s ++ [0]).
(** The operator ^ and the members of bundles are accepted, but the expression is lost;
    a second expression after such a one, or before it, is lost or dereferences NULL. *)
Theorem C85_power_refuted : P "2 ^ 3" = Ok (0, []).
Proof. reflexivity. Qed.
Theorem C85_member_refuted : P "/a./b" = Ok (0, []).
Proof. reflexivity. Qed.
Theorem C86_safe_refuted : P "1 + 1, /a./b" = Ub NullDeref.
Proof. reflexivity. Qed.
(** What one would expect to be accepted and is not: a number or an address in
    parentheses, a division without blanks, lists in lists without blanks, a comma or a
    semicolon at the end, a text alone. *)
Theorem C86_rejected_refuted :
  P "(1)" = Ok (1, []) /\ P "(/a)" = Ok (1, []) /\ P "6/2" = Ok (1, []) /\ P "[1, [2, 3]]" = Ok (1, []) /\
  (exists es, P "[1, [2, 3] ]" = Ok (0, es)) /\ (exists es, P "1 + 1," = Ok (1, es)) /\ (exists es, P "1 + 1;" = Ok (1, es)) /\
  P "abc" = Ok (1, []).
Proof. repeat split; try reflexivity; eexists; reflexivity. Qed.
(** A quotation without its closing parenthesis is the end of the text, and a text
    without its closing quote is complete. *)
Theorem C87_open_refuted :
  P "1 + 2 quote(3" = P "1 + 2" /\ (exists es, P "1 + 2" = Ok (0, es)) /\
  parse_expr (fun _ => 0) [] (str "/a = " ++ 34 :: str "abc" ++ [0]) = parse_expr (fun _ => 0) [] (str "/a = " ++ 34 :: str "abc" ++ [34; 0]).
Proof. repeat split; try reflexivity; eexists; reflexivity. Qed.

(** * Examples *)

Definition num (n : Z) : atom := set_int32 atom_fresh n.
Ltac no_sign := intros t x; destruct t as [?|?|?|?| |o|o|inc| | | | | | | | | | | | | | | | | | ]; try destruct o; try destruct inc; discriminate.
Ltac is_in := vm_compute; repeat (first [left; reflexivity|right]).
Ltac after_sign := first [exact I|repeat split; [no_sign|discriminate|discriminate]].
Ltac blank := apply (says_blank _ [32]); [discriminate|repeat constructor; cbn; auto|vm_compute; intuition discriminate|].
Ltac number n := apply (says_token _ (numeral n) (TNum (num n)));
  [apply (sp_number _ n); [lia|cbn [after_number app]; first [exact I|split; [is_in|split; [discriminate|intros _; vm_compute; intuition discriminate]]]]|].
Ltac a_sign w := apply (says_token _ w); [apply sp_sign; [reflexivity|after_sign]|].
Ltac literal := match goal with |- says _ ?s ?ts => let l := eval vm_compute in s in change (says (fun _ => 0) l ts) end.
Ltac address w := apply (says_token _ (47 :: w)); [apply (sp_address _ w); [discriminate|repeat constructor; discriminate|repeat constructor; vm_compute; intuition discriminate|vm_compute; intuition]|].
Ltac name w := apply (says_token _ w); [apply (sp_name _ w)|].

(** /a = 1 + 2 * 3 *)
Example C85_example :
  let e := SAssign (str "/a") (SOp (SNum (num 1)) OAdd (SOp (SNum (num 2)) OMul (SNum (num 3)))) in
  says (fun _ => 0) (str "/a = 1 + 2 * 3") (program [e]) /\ forallb (fun e => well e && works e) [e] = true /\
  outcome [e] = (0, [Call (str "assign") [PAddr (str "/a");
                       call (str "+") [PAtom (num 1); call (str "*") [PAtom (num 2); PAtom (num 3)]]]]).
Proof.
  cbv zeta. split; [|split; reflexivity]. literal.
  address (str "a").
  blank. a_sign [61]. blank. number 1. blank. a_sign [43]. blank. number 2. blank. a_sign [42]. blank. number 3. apply says_end.
Qed.
(** Blanks are not needed around most signs. *)
Example C87_example :
  says (fun _ => 0) (str "(1+2)*3") [TOpen; TNum (num 1); TOp OAdd; TNum (num 2); TClose; TOp OMul; TNum (num 3)].
Proof. literal. a_sign [40]. number 1. a_sign [43]. number 2. a_sign [41]. a_sign [42]. number 3. apply says_end. Qed.
(** lambda(x, x + 1) *)
Example C88_example :
  let f := SFun [str "x"] false [SOp (SText (str "x")) OAdd (SNum (num 1))] in
  says (fun _ => 0) (str "lambda(x, x + 1)") (flat f) /\ well f = true /\ works f = true /\
  meaning f = Some (PFun [str "x"] [Call (str "+") [lit_text (str "x"); PAtom (num 1)]]).
Proof.
  cbv zeta. split; [|split; [reflexivity|split; reflexivity]]. literal.
  apply (says_token _ (str "lambda")); [apply sp_lambda; is_in|]. a_sign [40].
  apply (says_token _ [120]); [apply sp_name; [repeat constructor; discriminate|discriminate|lia|repeat constructor; [vm_compute; intuition discriminate|lia]|vm_compute; intuition discriminate|is_in]|].
  a_sign [44]. blank.
  apply (says_token _ [120]); [apply sp_name; [repeat constructor; discriminate|discriminate|lia|repeat constructor; [vm_compute; intuition discriminate|lia]|vm_compute; intuition discriminate|is_in]|].
  blank. a_sign [43]. blank. number 1. a_sign [41]. apply says_end.
Qed.
(** The texts of the theorem about safety: nearly all. *)
Example C86_example : nonul (str "/b = sum(1)") /\ ~ In 94 (str "/b = sum(1)") /\ ~ In 46 (str "/b = sum(1)") /\ ~ In 91 (str "/b = sum(1)") /\
  P "/b = sum(1)" = Ok (0, [Call (str "assign") [PAddr (str "/b"); call (str "sum") [PAtom (num 1)]]]).
Proof.
  split; [repeat constructor; discriminate|]. split; [vm_compute; intuition discriminate|]. split; [vm_compute; intuition discriminate|].
  split; [vm_compute; intuition discriminate|]. vm_compute. reflexivity.
Qed.
