(** Linking the parser with the evaluator (C89). *)

From Coq Require Import String ZArith List Bool Lia.
From Verif Require Import Base BaseProofs Bytes Text BundleSModel BundleSProofs WireSpec SerialModel SerialSpec ExprModel ExprSpec EvalModel EvalSpec EvalRep EvalSteps EvalProps EvalStdModel EvalStdSpec EvalStdProofs
  ExprParseModel ExprParseSpec ExprParseProofs ExprReads ExprMeaning ExprTextSpec AtomSpec RunModel RunSpec.
Import ListNotations.
Open Scope Z_scope.

(** * Literals *)

Definition okstr (p : list Z) : Prop := nonul p /\ wf_bytes p /\ zlen p + 4 < 2^32.
Definition oklit (x : atom) : Prop := stands x (narrow (raw_value x)).
Definition good (t : etoken) : Prop :=
  match t with TNum a => oklit a | TStr s | TAddr s | TQuoted s => okstr s | _ => True end.

Lemma oklit_string s : okstr s -> oklit (set_string atom_fresh 0 s).
Proof.
  intros (N & B & L). unfold oklit, set_string. cbn [raw_value existsb Z.eqb Pos.eqb orb narrow].
  split; [split; [|exact I]|split; [|split; [reflexivity|reflexivity]]].
  - cbn [ok_atom]. split; [cbn; lia|]. repeat split; auto.
  - cbn [std_value raw_value existsb Z.eqb Pos.eqb orb]. now split.
Qed.
Lemma oklit_plain tg w : In tg [99; 105; 73; 72; 100; 84; 70; 78] -> 0 <= w < 2^64 -> oklit (Atom tg w PNone).
Proof.
  intros T Hw. unfold oklit.
  assert (0 <= w mod 2^32 < 2^32) by (apply Z.mod_pos_bound; lia).
  assert (0 <= w mod 2^64 < 2^64) by (apply Z.mod_pos_bound; lia).
  cbn [In] in T. 
  repeat (destruct T as [<- |T]; [split; [split; [cbn [ok_atom]; split; [exact Hw|split; discriminate]|exact I]|
    split; [|split; reflexivity]]; cbn [raw_value existsb Z.eqb Pos.eqb orb std_value]; first [split; [cbn [In]; tauto|assumption]|cbn; tauto]|]).
  contradiction.
Qed.
Lemma store_bound bits v : In bits [8; 32; 64] -> 0 <= SerialModel.store bits 0 v < 2^64.
Proof.
  intros B. unfold SerialModel.store. rewrite Z.mod_0_l by (cbn [In] in B; destruct B as [<-|[<-|[<-|[]]]]; discriminate).
  cbn [In] in B. destruct B as [<-|[<-|[<-|[]]]].
  - pose proof (Z.mod_pos_bound v (2^8) ltac:(lia)). lia.
  - pose proof (Z.mod_pos_bound v (2^32) ltac:(lia)). lia.
  - pose proof (Z.mod_pos_bound v (2^64) ltac:(lia)). lia.
Qed.
Ltac plain_lit := apply oklit_plain; [cbn [In]; tauto|apply store_bound; cbn [In]; tauto].

Lemma okstr_part a s b : okstr (a ++ s ++ b) -> okstr s.
Proof.
  unfold okstr, nonul, wf_bytes. intros (N & B & L). apply Forall_app in N as [_ N]. apply Forall_app in N as [N _].
  apply Forall_app in B as [_ B]. apply Forall_app in B as [B _]. rewrite !zlen_app in L.
  pose proof (zlen_nonneg a). pose proof (zlen_nonneg b). repeat split; auto; lia.
Qed.
Lemma okstr_backslashes s : okstr (with_backslashes s) -> nonul s -> okstr s.
Proof.
  intros (_ & B & L) N. split; [exact N|]. unfold with_backslashes in *.
  assert (K : Forall is_byte s /\ zlen s <= zlen (flat_map (fun c => if c =? 34 then [92; 34] else [c]) s)).
  { clear L N. unfold wf_bytes in B. induction s as [|c s IH]; [split; [constructor|reflexivity || (cbn; lia)]|]. cbn [flat_map] in B |- *. apply Forall_app in B as [B1 B2].
    destruct (IH B2) as [I1 I2]. rewrite zlen_app, zlen_cons. destruct (c =? 34) eqn:E.
    - apply Z.eqb_eq in E. subst c. split; [constructor; [unfold is_byte; lia|exact I1]|]. change (zlen [92; 34]) with 2. lia.
    - split; [constructor; [now inversion B1|exact I1]|]. change (zlen [c]) with 1. lia. }
  destruct K as [K1 K2]. split; [exact K1|lia].
Qed.

Section Says.
Context (strtod : list Z -> Z).
Lemma spells_good w rest t : spells strtod w rest t -> okstr w -> good t.
Proof.
  intros H O. destruct H; cbn [good]; try exact I; try (now apply O).
  - destruct t; try discriminate; exact I.
  - plain_lit.
  - plain_lit.
  - plain_lit.
  - plain_lit.
  - plain_lit.
  - apply oklit_plain; [cbn [In]; tauto|cbn; lia].
  - apply oklit_plain; [cbn [In]; tauto|cbn; lia].
  - apply oklit_plain; [cbn [In]; tauto|cbn; lia].
  - apply okstr_part in O. now apply okstr_backslashes.
  - rewrite !app_assoc in O. rewrite <- app_assoc in O. now apply okstr_part in O.
Qed.
Lemma says_good s ts : says strtod s ts -> okstr s -> Forall good ts.
Proof.
  induction 1 as [|b rest ts _ _ _ _ IH|c rest ts _ _ _ _ IH|w t rest ts H _ IH]; intros O.
  - constructor.
  - apply IH. rewrite <- (app_nil_r rest) in O. exact (okstr_part b rest [] O).
  - apply IH. change (35 :: c ++ rest) with ((35 :: c) ++ rest) in O. rewrite <- (app_nil_r rest) in O. exact (okstr_part (35 :: c) rest [] O).
  - constructor; [apply (spells_good w rest t H); exact (okstr_part [] w rest O)|].
    apply IH. rewrite <- (app_nil_r rest) in O. exact (okstr_part w rest [] O).
Qed.
End Says.

(** * Expressions with such literals *)

Fixpoint lits (a : parg) : Prop :=
  match a with
  | PAtom x => oklit x
  | PAddr p => okstr p
  | PExpr None => True
  | PExpr (Some e) => lits_of e
  | PFun _ body => fold_right (fun e P => lits_of e /\ P) True body
  end
with lits_of (e : pexpr) : Prop :=
  match e with Call _ args => fold_right (fun a P => lits a /\ P) True args end.
Lemma fold_forall {A} (P : A -> Prop) l : fold_right (fun x Q => P x /\ Q) True l <-> Forall P l.
Proof. induction l as [|x l IH]; cbn [fold_right]; [split; auto|]. rewrite IH. split; [intros []; now constructor|intros H; now inversion H]. Qed.
Lemma lits_call f l : lits (call f l) <-> Forall lits l.
Proof. cbn [call lits lits_of]. apply fold_forall. Qed.
Lemma lits_fun ps body : lits (PFun ps body) <-> Forall lits_of body.
Proof. cbn [lits]. apply fold_forall. Qed.

Lemma good_in e l : Forall good (sep (map flat l)) -> In e l -> Forall good (flat e).
Proof.
  induction l as [|x [|y l] IH]; intros G I; [contradiction| |].
  - destruct I as [<-|[]]. exact G.
  - change (sep (map flat (x :: y :: l))) with (flat x ++ TComma :: sep (map flat (y :: l))) in G. apply Forall_app in G as [G1 G2].
    inversion G2 as [|? ? _ G3]; subst. destruct I as [<-|I]; [exact G1|]. now apply IH.
Qed.
Definition pair_flat (p : list Z * syn) : list etoken := let '(p, e) := p in TAddr p :: TColon :: flat e.
Lemma good_pair p l : Forall good (sep (map pair_flat l)) -> In p l -> Forall good (pair_flat p).
Proof.
  induction l as [|x [|y l] IH]; intros G I; [contradiction| |].
  - destruct I as [<-|[]]. exact G.
  - change (sep (map pair_flat (x :: y :: l))) with (pair_flat x ++ TComma :: sep (map pair_flat (y :: l))) in G. apply Forall_app in G as [G1 G2].
    inversion G2 as [|? ? _ G3]; subst. destruct I as [<-|I]; [exact G1|]. now apply IH.
Qed.
Ltac parts G := repeat rewrite ?Forall_app, ?Forall_cons_iff in G; cbn [good] in G; decompose [and] G; clear G.
Ltac somes H := unfold opt_map, opt_map2 in H; repeat match type of H with
  | match ?m with Some _ => _ | None => _ end = _ => destruct m eqn:?; try discriminate H
  | (if ?b then _ else _) = _ => destruct b; try discriminate H
  end; try (injection H as <-).

Lemma body_lits l : Forall lits l -> Forall lits_of (flat_map in_body l).
Proof.
  induction 1 as [|a l H _ IH]; [constructor|]. cbn [flat_map]. apply Forall_app. split; [|exact IH].
  destruct a as [x|p|[e|]|ps body]; cbn [in_body]; try (constructor; [|constructor]); try constructor; try exact H; try exact I.
Qed.
Ltac all_lits := repeat first [assumption|apply lits_call|constructor].
Lemma meaning_lits n : forall e a, (size e < n)%nat -> Forall good (flat e) -> meaning e = Some a -> lits a.
Proof.
  induction n as [|n IH]; intros e a N G M; [lia|].
  assert (AL : forall l r, (length (sep (map flat l)) < n)%nat -> Forall good (sep (map flat l)) -> each meaning l = Some r -> Forall lits r).
  { intros l r L Gl E. apply Forall_forall. intros y Y. destruct (each_in _ _ _ E y Y) as (x & X & Ex). apply (IH x); [|now apply (good_in x l)|exact Ex].
    apply size_in in X. lia. }
  assert (TX : forall s, okstr s -> lits (lit_text s)) by (intros s; apply oklit_string).
  destruct e; cbn [meaning] in M; cbn [flat] in G; parts G; somes M;
    repeat match goal with
    | H : meaning ?e = Some ?b |- _ => apply IH in H; [|sizes; lia|assumption]
    | H : each meaning ?l = Some ?r |- _ => apply AL in H; [|sizes; lia|assumption]
    end; try (rewrite lits_call); auto.
  - apply lits_fun. now apply body_lits.
  - apply Forall_concat, Forall_forall. intros y Y. destruct (each_in _ _ _ Heqo y Y) as ([p e] & X & Ex). somes Ex.
    pose proof (good_pair (p, e) l) as Gp. assert (Hg : Forall good (pair_flat (p, e))) by (apply Gp; assumption).
    cbn [pair_flat] in Hg. parts Hg. constructor; [now apply TX|]. constructor; [|constructor]. apply (IH e); [|assumption|assumption].
    apply size_in_pair in X. sizes. lia.
  - all_lits.
  - constructor; [|all_lits]. apply oklit_plain; [cbn [In]; tauto|cbn; lia].
  - all_lits.
  - all_lits.
  - constructor; [assumption|]. constructor; [|all_lits]. destruct l as [|i [|j l]]; all_lits; try (now inversion Heqo).
  - assert (K : lits p1 /\ Forall lits l).
    { destruct step as [s|].
      - parts H3. destruct (meaning s) as [q|] eqn:Eq; [|discriminate]. injection Heqo0 as <-.
        apply IH in Heqo1; [|sizes; lia|assumption]. apply IH in Eq; [|sizes; lia|assumption]. all_lits.
      - injection Heqo0 as <-. apply IH in Heqo1; [|sizes; lia|assumption]. all_lits. }
    destruct K as [K1 K2]. all_lits.
  - all_lits.
  - all_lits.
Qed.

(** * Linking *)

Section Both.
Context (P : parg -> Prop) (Q : pexpr -> Prop)
  (HA : forall x, P (PAtom x)) (HP : forall p, P (PAddr p)) (HN : P (PExpr None)) (HE : forall e, Q e -> P (PExpr (Some e)))
  (HF : forall ps body, Forall Q body -> P (PFun ps body)) (HC : forall f args, Forall P args -> Q (Call f args)).
Fixpoint parg_all (a : parg) : P a :=
  match a with
  | PAtom x => HA x
  | PAddr p => HP p
  | PExpr None => HN
  | PExpr (Some e) => HE e (pexpr_all e)
  | PFun ps body => HF ps body ((fix go l : Forall Q l := match l with [] => Forall_nil Q | e :: l' => Forall_cons e (pexpr_all e) (go l') end) body)
  end
with pexpr_all (e : pexpr) : Q e :=
  match e with
  | Call f args => HC f args ((fix go l : Forall P l := match l with [] => Forall_nil P | a :: l' => Forall_cons a (parg_all a) (go l') end) args)
  end.
End Both.

Section Link.
Context (table : list Z -> option fn).
Lemma link_list {A B C} (g : A -> option B) (h : A -> option C) (R : B -> C -> Prop) (G : A -> Prop) l :
  Forall (fun a => G a -> forall y, h a = Some y -> exists x, g a = Some x /\ R x y) l -> Forall G l ->
  forall r, each h l = Some r -> exists k, map_opt g l = Some k /\ Forall2 R k r.
Proof.
  induction 1 as [|a l H _ IH]; intros Gl r E; cbn [each map_opt] in *.
  - injection E as <-. eexists. split; [reflexivity|constructor].
  - inversion Gl as [|? ? Ga Gl']; subst. destruct (h a) as [y|] eqn:Ea; [|discriminate]. destruct (each h l) as [r'|] eqn:El; [|discriminate].
    injection E as <-. destruct (H Ga y eq_refl) as (x & Ex & Rx). destruct (IH Gl' r' eq_refl) as (k & Ek & Rk). unfold each in El.
    rewrite Ex. fold (map_opt g) in *. rewrite Ek. eexists. split; [reflexivity|now constructor].
Qed.
Lemma sense_expr e : sense table (PExpr (Some e)) = match sense_of table e with Some x => Some (AExpr x) | None => None end.
Proof. reflexivity. Qed.
Lemma sense_fun ps body : sense table (PFun ps body) = match each (sense_of table) body with Some x => Some (AFun ps x) | None => None end.
Proof. reflexivity. Qed.
Lemma sense_call f args : sense_of table (Call f args) =
  match table f with Some g => match each (sense table) args with Some l => Some (Ex g l) | None => None end | None => None end.
Proof. reflexivity. Qed.
Lemma link_arg_expr e : link_arg table (PExpr (Some e)) = match link table e with Some x => Some (AExpr x) | None => None end.
Proof. reflexivity. Qed.
Lemma link_arg_fun ps body : link_arg table (PFun ps body) = match map_opt (link table) body with Some l => Some (AFun ps l) | None => None end.
Proof. reflexivity. Qed.
Lemma link_call f args : link table (Call f args) =
  match table f, map_opt (link_arg table) args with Some g, Some l => Some (Ex g l) | _, _ => None end.
Proof. reflexivity. Qed.
Definition linked (a : parg) : Prop := lits a -> forall y, sense table a = Some y -> exists x, link_arg table a = Some x /\ arg_rep x y.
Definition linked_of (e : pexpr) : Prop := lits_of e -> forall y, sense_of table e = Some y -> exists x, link table e = Some x /\ expr_rep x y.
Lemma link_rep : (forall a, linked a) /\ (forall e, linked_of e).
Proof.
  assert (K1 : forall x, linked (PAtom x)). { intros x H y E. injection E as <-. eexists. split; [reflexivity|exact H]. }
  assert (K2 : forall p, linked (PAddr p)).
  { intros p H y E. injection E as <-. eexists. split; [reflexivity|]. cbn [arg_rep]. destruct H as (H1 & H2 & H3). auto. }
  assert (K3 : linked (PExpr None)) by (intros H y E; discriminate E).
  assert (K4 : forall e, linked_of e -> linked (PExpr (Some e))).
  { intros e IH H y E. rewrite sense_expr in E. destruct (sense_of table e) as [z|] eqn:Ez; [|discriminate]. injection E as <-.
    destruct (IH H z Ez) as (x & Ex & Rx). exists (AExpr x). rewrite link_arg_expr, Ex. split; [reflexivity|exact Rx]. }
  assert (K5 : forall ps body, Forall linked_of body -> linked (PFun ps body)).
  { intros ps body IH H y E. apply lits_fun in H. rewrite sense_fun in E. destruct (each (sense_of table) body) as [r|] eqn:Er; [|discriminate]. injection E as <-.
    destruct (link_list (link table) (sense_of table) expr_rep lits_of body IH H r Er) as (k & Ek & Rk).
    exists (AFun ps k). rewrite link_arg_fun, Ek. split; [reflexivity|]. now apply arg_rep_fun. }
  assert (K6 : forall f args, Forall linked args -> linked_of (Call f args)).
  { intros f args IH H y E. apply (lits_call f) in H. rewrite sense_call in E. destruct (table f) as [g|] eqn:Eg; [|discriminate].
    destruct (each (sense table) args) as [r|] eqn:Er; [|discriminate]. injection E as <-.
    destruct (link_list (link_arg table) (sense table) arg_rep lits args IH H r Er) as (k & Ek & Rk).
    exists (Ex g k). rewrite link_call, Eg, Ek. split; [reflexivity|]. now apply expr_rep_args. }
  split; [exact (parg_all linked linked_of K1 K2 K3 K4 K5 K6)|exact (pexpr_all linked linked_of K1 K2 K3 K4 K5 K6)].
Qed.

Context (plain : list Z -> list arr -> res (Z * arr)) (sem : list Z -> list out -> option (Z * out)) (fresh : Z -> bytes)
  (Hf : blocks fresh) (Hi : implements plain sem).
Lemma each_runs es es' c w w' : run_all (selects true) table sem w es' c w' -> forall st, bundle_rep st w ->
  Forall2 (fun e e' => lits_of e /\ sense_of table e = Some e') es es' ->
  exists N st', (forall k, (N <= k)%nat -> eval_each table plain fresh k st es = Ok (c, st')) /\ bundle_rep st' w'.
Proof.
  intros H. revert es. induction H as [w|w e o w1 es' c w2 H _ IH|w e c o w1 es' H Hc]; intros es st Hw F; inversion F as [|x ? l ? [L S] F']; subst.
  - exists O, st. split; [reflexivity|exact Hw].
  - destruct (proj2 link_rep x L e S) as (e' & Le & Re).
    destruct (C57_top table plain sem fresh Hf Hi w e 0 o w1 H st e' Hw Re) as (N1 & o' & st1 & E1 & _ & W1).
    destruct (IH l st1 W1 F') as (N2 & st2 & E2 & W2). exists (Nat.max N1 N2), st2. split; [|exact W2].
    intros k Hk. cbn [eval_each]. rewrite Le, E1 by lia. cbn [bind]. change (negb (0 =? 0)) with false. cbv iota. apply E2. lia.
  - destruct (proj2 link_rep x L e S) as (e' & Le & Re).
    destruct (C57_top table plain sem fresh Hf Hi w e c o w1 H st e' Hw Re) as (N1 & o' & st1 & E1 & _ & W1).
    exists N1, st1. split; [|exact W1]. intros k Hk. cbn [eval_each]. rewrite Le, E1 by lia. cbn [bind].
    apply Z.eqb_neq in Hc. rewrite Hc. reflexivity.
Qed.
End Link.

Lemma item_lits e x : Forall good (flat e) -> item_meaning e = Some x -> lits_of x.
Proof.
  intros G M. unfold item_meaning in M. destruct (item e); [|discriminate]. destruct (meaning e) as [a|] eqn:E; [|discriminate].
  pose proof (meaning_lits (S (size e)) e a ltac:(lia) G E) as L.
  destruct a as [y|p|[y|]|ps body]; injection M as <-; try exact L; split; try exact L; exact I.
Qed.
Lemma outcome_lits l : Forall good (program l) -> Forall lits_of (snd (outcome l)).
Proof.
  intros G. assert (K : Forall (fun e => Forall good (flat e)) l) by (apply Forall_forall; intros e He; now apply (good_in e l)).
  clear G. induction K as [|e l Ge _ IH]; [constructor|]. cbn [outcome]. destruct (item_meaning e) as [x|] eqn:E; cbn [snd]; [|constructor].
  constructor; [now apply (item_lits e)|exact IH].
Qed.
