(** Whole texts: expressions separated by commas. *)

From Coq Require Import String ZArith List Bool Lia.
From Verif Require Import Base Text SerialModel BundleSModel ExprParseModel ExprParseSpec ExprParseProofs ExprReads ExprSound ExprTotal ExprMeaning.
Import ListNotations.
Open Scope Z_scope.

Definition item_of (e : syn) (a : parg) : res (option (option pexpr)) :=
  match a with
  | PExpr x => Ok (Some x)
  | _ => if item e then Ok (Some (reduce_prefix (str "progn") [a])) else Ok None
  end.
Definition build_item (e : syn) : res (option (option pexpr)) := try (build e) (item_of e).
Definition at_end (rest : list etoken) : bool := match rest with [] | TComma :: _ => true | _ => false end.
Fixpoint run (tmp : list pexpr) (l : list syn) : res (Z * list pexpr) :=
  match l with
  | [] => Ok (0, tmp)
  | e :: l' =>
      do r <- build_item e;
      match r with
      | None => Ok (1, tmp)
      | Some x => do tmp <- push tmp x; run tmp l'
      end
  end.

(** What an argument that is not an expression was written as. *)
Lemma simple_kind e a rest : well e = true -> build e = Ok (Some a) ->
  match a with
  | PExpr _ => is_expr e = true
  | PAddr _ => item e = true
  | PAtom _ => is_expr e = false /\ item e = match flat e ++ rest with TNum _ :: _ => true | _ => false end
  | PFun _ _ => item e = false
  end.
Proof.
  intros W B. pose proof (build_kind e a W B) as K. destruct (is_expr e) eqn:E.
  - destruct a; try discriminate K. reflexivity.
  - destruct e; try discriminate E.
    + injection B as <-. split; reflexivity.
    + injection B as <-. split; reflexivity.
    + injection B as <-. reflexivity.
    + cbn [build] in B. destruct (all_of _ _) as [[l|]| |]; try discriminate B. cbn [try] in B.
      destruct (body_of _ _); try discriminate B. injection B as <-. reflexivity.
Qed.
Lemma item_read f e rest : well e = true -> at_end rest = true -> (4 * length (flat e ++ rest) + 2 <= f)%nat ->
  p_item f (flat e ++ rest) = lift (build_item e) rest.
Proof.
  intros W A F. assert (Q : quiet rest = true) by (destruct rest as [|[]]; (reflexivity || discriminate A)).
  unfold p_item. rewrite reads_whole by assumption. unfold build_item.
  pose proof (fun a => simple_kind e a rest W) as K.
  destruct (build e) as [[a|]|u|]; try reflexivity. cbn [lift try]. specialize (K a eq_refl).
  assert (R : forall (X : res (option (option pexpr * list etoken))),
    match rest with [] | TComma :: _ => X | _ => Ok None end = X).
  { intros X. destruct rest as [|[]]; (reflexivity || discriminate A). }
  transitivity (match a, flat e ++ rest with
      | PExpr e, _ => Ok (Some (e, rest))
      | PAddr _, _ | PAtom _, TNum _ :: _ => Ok (Some (reduce_prefix (str "progn") [a], rest))
      | _, _ => Ok None
      end).
  { rewrite <- R. destruct rest as [|[]]; reflexivity. }
  destruct a; cbn [item_of].
  - destruct K as [_ ->]. destruct (flat e ++ rest) as [|[]]; reflexivity.
  - now rewrite K.
  - reflexivity.
  - now rewrite K.
Qed.
Lemma item_sound f ts x rest : p_item f ts = Ok (Some (x, rest)) ->
  at_end rest = true /\ exists e, ts = flat e ++ rest /\ well e = true /\ item e = true /\ build_item e = Ok (Some x).
Proof.
  unfold p_item. intros H. apply try_inv in H as ([a ts'] & HA & H).
  apply accepted in HA as (e & -> & W & B). pose proof (simple_kind e a ts' W B) as K.
  assert (H' : at_end ts' = true /\ match a, flat e ++ ts' with
      | PExpr e, _ => Ok (Some (e, ts'))
      | PAddr _, _ | PAtom _, TNum _ :: _ => Ok (Some (reduce_prefix (str "progn") [a], ts'))
      | _, _ => Ok None
      end = Ok (Some (x, rest))).
  { destruct ts' as [|[]]; try discriminate H; (split; [reflexivity|exact H]). }
  clear H. destruct H' as [A H].
  assert (E : ts' = rest).
  { destruct a; try discriminate H; [|congruence|congruence]. destruct (flat e ++ ts') as [|[]]; congruence. }
  subst ts'. split; [exact A|]. exists e. split; [reflexivity|]. split; [exact W|]. unfold build_item. rewrite B. cbn [try].
  destruct a; cbn [item_of].
  - destruct K as [_ K]. destruct (flat e ++ rest) as [|[]]; try discriminate H. rewrite K. split; [reflexivity|congruence].
  - rewrite K. split; [reflexivity|congruence].
  - split; [|congruence]. destruct e; try discriminate K; reflexivity.
  - discriminate H.
Qed.
Lemma item_fine f ts : (4 * length ts + 2 <= f)%nat -> p_item f ts <> Fuel.
Proof.
  intros F. unfold p_item. apply try_fine; [apply fine_all; [lia|exact F]|]. intros [a ts'].
  destruct ts' as [|[]]; try discriminate; destruct a; try discriminate; destruct ts as [|[]]; discriminate.
Qed.

Lemma program_cons e l : some l = true -> program (e :: l) = flat e ++ TComma :: program l.
Proof. unfold program. cbn [map]. destruct l; [discriminate|]. reflexivity. Qed.
Lemma items_read l : forall f tmp, some l = true -> forallb well l = true ->
  (4 * length (program l) + 3 <= f)%nat -> p_items f tmp (program l) = run tmp l.
Proof.
  induction l as [|e l IH]; intros f tmp SO W F; [discriminate|]. cbn [forallb] in W. apply andb_true_iff in W as [W WS].
  destruct f as [|f]; [lia|].
  assert (K : exists rest, program (e :: l) = flat e ++ rest /\ at_end rest = true /\
    rest = match l with [] => [] | _ => TComma :: program l end).
  { destruct l as [|e' l]; [exists []; unfold program; cbn [map sep]; rewrite app_nil_r; auto|].
    exists (TComma :: program (e' :: l)). rewrite program_cons by reflexivity. auto. }
  destruct K as (rest & E & A & R). rewrite E in *. cbn [p_items run].
  rewrite item_read by (auto; lia).
  destruct (build_item e) as [[x|]|u|]; try reflexivity. cbn [lift bind].
  destruct (push tmp x) as [tmp'|u|]; try reflexivity. cbn [bind]. subst rest.
  destruct l as [|e' l]; [reflexivity|]. apply IH; [reflexivity|exact WS|].
  rewrite app_length in F. cbn [length] in F. lia.
Qed.
Lemma items_sound f : forall tmp ts es, p_items f tmp ts = Ok (0, es) ->
  exists l, some l = true /\ ts = program l /\ forallb well l = true /\ forallb item l = true /\ run tmp l = Ok (0, es).
Proof.
  induction f as [|f IH]; intros tmp ts es H; [discriminate|]. cbn [p_items] in H.
  destruct (p_item f ts) as [[[x rest]|]|u|] eqn:E; try discriminate H. cbn [bind] in H.
  apply item_sound in E as (A & e & -> & W & I & B).
  destruct (push tmp x) as [tmp'|u|] eqn:P; try discriminate H. cbn [bind] in H.
  destruct rest as [|t rest].
  - exists [e]. cbn [forallb run]. rewrite W, I, B. cbn [bind]. rewrite P. repeat split; [|exact H].
    unfold program. cbn [map sep]. now rewrite app_nil_r.
  - destruct t; try discriminate A. apply IH in H as (l & SO & -> & WS & IS & R).
    exists (e :: l). cbn [forallb run]. rewrite W, I, B, WS, IS. cbn [bind]. rewrite P. repeat split; [|exact R].
    now rewrite program_cons.
Qed.
Lemma items_fine f : forall tmp ts, (4 * length ts + 3 <= f)%nat -> p_items f tmp ts <> Fuel.
Proof.
  induction f as [|f IH]; intros tmp ts F; [lia|]. cbn [p_items].
  pose proof (item_fine f ts ltac:(lia)) as G.
  destruct (p_item f ts) as [[[x rest]|]|u|] eqn:E; try discriminate; [|contradiction]. cbn [bind].
  apply item_sound in E as (A & e & -> & _).
  destruct (push tmp x) as [tmp'|u|] eqn:P; try discriminate; cbn [bind].
  - destruct rest as [|t rest]; [discriminate|]. apply IH. rewrite app_length in F. cbn [length] in F. lia.
  - destruct tmp; cbn [push] in P; [discriminate P|now apply append_fine in P].
Qed.

(** * With what works *)

Lemma build_item_meaning e : well e = true -> works e = true ->
  build_item e = Ok (opt_map Some (item_meaning e)).
Proof.
  intros W V. unfold build_item, item_meaning. pose proof (build_meaning e W V) as B. rewrite B.
  pose proof (meaning_good e) as G.
  destruct (meaning e) as [a|]; cbn [try]; [|destruct (item e); reflexivity].
  specialize (G a eq_refl).
  assert (I : is_expr e = true -> item e = true) by (destruct e; (reflexivity || discriminate)).
  pose proof (build_kind e a W B) as K.
  destruct a as [x|x|[x|]|x y]; cbn [item_of]; cbn [is_pexpr] in K.
  - destruct (item e); reflexivity.
  - destruct (item e); reflexivity.
  - now rewrite I.
  - now contradiction G.
  - destruct (item e); reflexivity.
Qed.
Lemma run_outcome l : forall tmp, forallb (fun e => well e && works e) l = true ->
  run tmp l = Ok (fst (outcome l), tmp ++ snd (outcome l)).
Proof.
  induction l as [|e l IH]; intros tmp H; cbn [run outcome fst snd]; [now rewrite app_nil_r|].
  cbn [forallb] in H. rewrite !andb_true_iff in H. destruct H as [[W V] H].
  rewrite build_item_meaning by assumption. cbn [bind].
  destruct (item_meaning e) as [x|]; cbn [opt_map fst snd]; [|now rewrite app_nil_r].
  assert (P : push tmp (Some x) = Ok (tmp ++ [x])) by (destruct tmp; reflexivity).
  rewrite P. cbn [bind]. rewrite IH by exact H. now rewrite <- app_assoc.
Qed.

(** * Without what does not work *)

Lemma plain_app ts us : plain (ts ++ us) -> plain ts /\ plain us.
Proof.
  intros [H P]. rewrite forallb_app in H. apply andb_true_iff in H as [H1 H2]. split; (split; [assumption|]).
  - intros s pre post ->. apply (P s pre (post ++ us)). rewrite <- app_assoc. reflexivity.
  - intros s pre post ->. apply (P s (ts ++ pre) post). now rewrite <- app_assoc.
Qed.
Lemma plain_cons t ts : plain (t :: ts) -> plain_token t = true /\ plain ts.
Proof.
  intros H. change (t :: ts) with ([t] ++ ts) in H. apply plain_app in H as [[H _] H2]. split; [|exact H2].
  cbn [forallb] in H. now apply andb_true_iff in H.
Qed.
Lemma plain_sep l x : plain (sep l) -> In x l -> plain x.
Proof.
  induction l as [|y l IH]; intros H X; [destruct X|]. destruct l as [|z l].
  - destruct X as [<- |[]]. exact H.
  - cbn [sep] in H. apply plain_app in H as [H1 H2]. destruct X as [<- |X]; [exact H1|].
    apply IH; [|exact X]. now apply plain_cons in H2.
Qed.
Ltac plains := repeat match goal with
  | H : plain (_ :: _) |- _ => let X := fresh "T" in apply plain_cons in H as [X H]; cbn [plain_token] in X
  | H : plain (_ ++ _) |- _ => let X := fresh "H" in apply plain_app in H as [X H]
  end.
Lemma plain_works_n n : forall e, (size e < n)%nat -> plain (flat e) -> works e = true.
Proof.
  induction n as [|n IH]; intros e N P; [lia|].
  assert (AL : forall l, (length (sep (map flat l)) < n)%nat -> plain (sep (map flat l)) -> forallb works l = true).
  { intros l L Q. apply forallb_forall. intros x X. apply IH; [apply size_in in X; lia|].
    apply (plain_sep _ _ Q). now apply in_map. }
  destruct e; cbn [works]; try reflexivity; cbn [flat] in P.
  2: { destruct brackets, params as [|s params].
    - cbn [app names map sep] in P. plains. rewrite AL by (auto; sizes; lia). reflexivity.
    - exfalso. destruct P as [_ P]. destruct params as [|s' params].
      + apply (P s [] (TCloseSq :: TComma :: sep (map flat body) ++ [TClose])). reflexivity.
      + apply (P s [] ((TComma :: sep (map (fun s => [TStr s]) (s' :: params)) ++ [TCloseSq]) ++ TComma :: sep (map flat body) ++ [TClose])). reflexivity.
    - cbn [app names map sep] in P. plains. rewrite AL by (auto; sizes; lia). reflexivity.
    - plains. rewrite AL by (auto; sizes; lia). reflexivity. }
  3: { apply forallb_forall. intros [p e] X. plains.
    apply (plain_sep _ (TAddr p :: TColon :: flat e)) in H.
    - plains. apply andb_true_iff; split; [assumption|]. apply IH; [|assumption]. apply size_in_pair in X. sizes. lia.
    - apply in_map_iff. exists (p, e). auto. }
  all: try (destruct step; plains; rewrite ?andb_true_iff; repeat split; try assumption; try (apply IH; [sizes; lia|assumption]); fail).
  all: plains; rewrite ?andb_true_iff; repeat split; try assumption; try discriminate;
    try (apply IH; [sizes; lia|assumption]); try (apply AL; [sizes; lia|assumption]).
  all: try (destruct o; (reflexivity || discriminate)).
Qed.
Lemma plain_works e : plain (flat e) -> works e = true.
Proof. apply (plain_works_n (S (size e))). lia. Qed.

Definition safe {A} (m : res A) : Prop := forall u, m <> Ub u.
Lemma safe_ok {A} (x : A) : safe (Ok x).
Proof. intros u. discriminate. Qed.
Lemma safe_try {A B} (m : res (option A)) (k : A -> res (option B)) :
  safe m -> (forall a, m = Ok (Some a) -> safe (k a)) -> safe (try m k).
Proof. intros H1 H2 u. destruct m as [[a|]|v|]; cbn [try]; try discriminate; [now apply H2|]. intros _. now apply (H1 v). Qed.
Lemma safe_expect t ts : safe (expect t ts).
Proof. intros u. destruct ts; cbn [expect]; [discriminate|]. destruct (etoken_eqb _ _); discriminate. Qed.

Lemma plain_args es : forallb well es = true -> plain (sep (map flat es)) -> forall l, all_of build es = Ok (Some l) ->
  forall a, In a l -> good a.
Proof.
  intros W P l B.
  assert (E : all_of build es = Ok (each meaning es)).
  { apply all_each. intros x X. rewrite forallb_forall in W. apply build_meaning; [auto|].
    apply plain_works. apply (plain_sep _ _ P). now apply in_map. }
  rewrite E in B. injection B as B. intros a A. destruct (each_in _ _ _ B a A) as (x & _ & M). now apply meaning_good in M.
Qed.
(** Nothing is undefined, and the rest is plain. *)
Definition fair {A} (m : res (option (A * list etoken))) : Prop :=
  safe m /\ forall a rest, m = Ok (Some (a, rest)) -> plain rest.
Lemma fair_none {A} : fair (A := A) (Ok None).
Proof. split; [apply safe_ok|discriminate]. Qed.
Lemma fair_ret {A} (a : A) ts : plain ts -> fair (Ok (Some (a, ts))).
Proof. intros P. split; [apply safe_ok|]. intros b rest H. injection H as <- <-. exact P. Qed.
Lemma fair_try {A B} (m : res (option (A * list etoken))) (k : A * list etoken -> res (option (B * list etoken))) :
  fair m -> (forall a ts, plain ts -> fair (k (a, ts))) -> fair (try m k).
Proof.
  intros [H1 H2] H3. destruct m as [[[a ts]|]|v|]; cbn [try]; [apply H3; now apply (H2 a)|apply fair_none| |].
  - now contradiction (H1 v).
  - split; [intros u|]; discriminate.
Qed.
Lemma fair_expect {A} t ts (k : list etoken -> res (option (A * list etoken))) :
  plain ts -> (forall ts, plain ts -> fair (k ts)) -> fair (try (expect t ts) k).
Proof.
  intros P H. destruct (expect t ts) as [[ts'|]|u|] eqn:E; cbn [try].
  - apply expect_inv in E as ->. apply H. now apply plain_cons in P.
  - apply fair_none.
  - now apply safe_expect in E.
  - now apply expect_fine in E.
Qed.

Lemma primary_fair pa pargs pmsgs ts : plain ts ->
  (forall p ts', 0 <= p < 11 -> plain ts' -> fair (pa p ts')) ->
  (forall ts', plain ts' -> fair (pargs ts')) ->
  (forall ts', plain ts' -> fair (pmsgs ts')) ->
  (forall ts' a rest, pargs ts' = Ok (Some (a, rest)) -> ArgsS ts' a rest) ->
  fair (primary pa pargs pmsgs ts).
Proof.
  intros P A S M LS.
  assert (P1 : 0 <= LEVEL_ASSIGN < 11) by (split; [discriminate|reflexivity]).
  assert (P2 : 0 <= LEVEL_PREFIX < 11) by (split; [discriminate|reflexivity]).
  assert (P3 : 0 <= 0 < 11) by lia.
  destruct ts as [|t ts]; [apply fair_none|].
  assert (Lam : t = TLambda -> fair (primary pa pargs pmsgs (t :: ts))).
  { intros ->. destruct ts as [|[] ts]; try apply fair_none. cbn [primary].
    destruct (p_head ts) as [[[many params] ts1]|] eqn:HH; [|apply fair_none].
    apply head_inv in HH as (brackets & HB & -> & ->).
    assert (N : brackets && some params = false).
    { destruct (brackets && some params) eqn:Hm; [|reflexivity]. exfalso.
      apply andb_true_iff in Hm as [-> Hm]. destruct params as [|s params]; [discriminate|].
      destruct P as [_ P]. destruct params as [|s' params].
      + eapply (P s []). reflexivity.
      + eapply (P s []). cbn [app names map sep]. reflexivity. }
    assert (Q : plain ts1) by now plains.
    pose proof (S ts1 Q) as [F1 F2]. pose proof (LS ts1) as LS'.
    destruct (pargs ts1) as [[[l ts2]|]|u|]; cbn [try]; [|apply fair_none|now contradiction (F1 u)|split; [intros u|]; discriminate].
    destruct (LS' l ts2 eq_refl) as (es & E & SO & WS & BS). pose proof (F2 _ _ eq_refl) as Q2.
    apply fair_expect; [exact Q2|]. intros ts3 Q3.
    rewrite E in Q. apply plain_app in Q as [Q _].
    rewrite body_ok; [now apply fair_ret|exact (plain_args es WS Q l BS)| |].
    - rewrite N. discriminate.
    - destruct es as [|e es]; [discriminate|].
      change (try (build e) (fun y => try (all_of build es) (fun r => Ok (Some (y :: r)))) = Ok (Some l)) in BS.
      apply try_inv in BS as (y & _ & BS). apply try_inv in BS as (r & _ & BS). injection BS as <-. reflexivity. }
  Ltac sp := first [assumption | match goal with H : plain (_ :: _) |- _ => apply plain_cons in H; destruct H as [_ H]; sp end].
  Ltac fair1 := match goal with
    | |- fair (try (expect _ _) _) => apply fair_expect; [sp|intros ? ?]
    | |- fair (try _ _) => apply fair_try; [|intros ? ? ?]
    | |- fair (Ok None) => apply fair_none
    | |- fair (Ok (Some (_, _))) => apply fair_ret; sp
    | A : (forall p ts', _ -> _ -> fair (?pa p ts')) |- fair (?pa _ _) => apply A; [assumption|sp]
    | A : (forall ts', _ -> fair (?pa ts')) |- fair (?pa _) => apply A; sp
    | |- fair (match ?x with _ => _ end) => destruct x
    end.
  destruct t; try (apply fair_none); try (now apply Lam); clear Lam; cbn [primary]; repeat fair1.
Qed.

Lemma fair_all f :
  (forall p ts, 0 <= p < 11 -> plain ts -> fair (p_arg f p ts)) /\
  (forall p a ts, 0 <= p < 11 -> plain ts -> fair (p_more f p a ts)) /\
  (forall ts, plain ts -> fair (p_args f ts)) /\
  (forall ts, plain ts -> fair (p_msgs f ts)) /\
  (forall ts, plain ts -> fair (p_primary f ts)).
Proof.
  assert (Z : forall A, fair (A := A) Fuel) by (intros A; split; [intros u|]; discriminate).
  induction f as [|f (IA & IM & IS & IG & IP)]; [repeat apply conj; intros; apply Z|].
  assert (P1 : 0 <= LEVEL_ASSIGN < 11) by now split.
  assert (P2 : 0 <= LEVEL_TERNARY < 11) by now split.
  assert (P3 : 0 <= 0 < 11) by lia.
  split; [|split; [|split; [|split]]].
  - intros p ts P Q. cbn [p_arg]. apply fair_try; [now apply IP|]. intros a ts1 Q1. now apply IM.
  - intros p a ts P Q. cbn [p_more]. destruct ts as [|[] ts]; try (now apply fair_ret).
    + assert (OL : 0 <= op_level o < 11) by (destruct o; cbn; lia).
      destruct (shifted p (TOp o)); [|now apply fair_ret]. apply fair_try; [apply IA; [exact OL|sp]|]. intros b ts1 Q1. now apply IM.
    + destruct (shifted p (TOpAssign o)); [|now apply fair_ret]. apply fair_try; [apply IA; [assumption|sp]|]. intros b ts1 Q1. now apply IM.
    + destruct (shifted p TQuest); [|now apply fair_ret]. apply fair_try; [apply IA; [assumption|sp]|]. intros b ts1 Q1.
      apply fair_expect; [assumption|]. intros ts2 Q2. apply fair_try; [apply IA; assumption|]. intros c ts3 Q3. now apply IM.
    + destruct (shifted p TOpenDbl); [|now apply fair_ret]. apply fair_try; [apply IS; sp|]. intros b ts1 Q1.
      apply fair_expect; [assumption|]. intros ts2 Q2. now apply IM.
  - intros ts Q. cbn [p_args]. apply fair_try; [now apply IA|]. intros a ts1 Q1.
    destruct ts1 as [|[] ts1]; try (now apply fair_ret). apply fair_try; [apply IS; sp|]. intros l ts2 Q2. now apply fair_ret.
  - intros ts Q. cbn [p_msgs]. destruct ts as [|[] [|[] ts]]; try apply fair_none.
    apply fair_try; [apply IA; [assumption|sp]|]. intros a ts1 Q1.
    destruct ts1 as [|[] ts1]; try (now apply fair_ret). apply fair_try; [apply IG; sp|]. intros l ts2 Q2. now apply fair_ret.
  - intros ts Q. rewrite primary_eq. apply primary_fair; auto. apply sound_all.
Qed.

Lemma items_safe f : forall tmp ts, plain ts -> safe (p_items f tmp ts).
Proof.
  induction f as [|f IH]; intros tmp ts P u; [discriminate|]. cbn [p_items].
  assert (F : safe (p_item f ts)).
  { unfold p_item. apply safe_try; [apply fair_all; [lia|exact P]|]. intros [a ts'] _ v.
    destruct ts' as [|[]]; try discriminate; destruct a; try discriminate; destruct ts as [|[]]; discriminate. }
  destruct (p_item f ts) as [[[x rest]|]|v|] eqn:E; try discriminate; [|now contradiction (F v)]. cbn [bind].
  apply item_sound in E as (A & e & -> & W & I & B). apply plain_app in P as [P1 P2].
  rewrite build_item_meaning in B by (auto using plain_works).
  destruct (item_meaning e) as [y|]; [|discriminate B]. injection B as <-.
  assert (Q : push tmp (Some y) = Ok (tmp ++ [y])) by (destruct tmp; reflexivity). rewrite Q. cbn [bind].
  destruct rest as [|t rest]; [discriminate|]. apply IH. now apply plain_cons in P2.
Qed.
