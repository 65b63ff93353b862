(** What works as intended is read as what it stands for. *)

From Coq Require Import String ZArith List Bool Lia.
From Verif Require Import Base Text SerialModel BundleSModel BundleSProofs ExprParseModel ExprParseSpec ExprParseProofs ExprReads ExprSound ExprTotal.
Import ListNotations.
Open Scope Z_scope.

(** * The table of functions *)

Definition same_entry (r : option (Z * Z)) (s : Z * Z) : bool :=
  match r with Some r => (fst r =? fst s) && (snd r =? snd s) | None => false end.
Lemma table_ok : forallb (fun p => same_entry (lookup (fst p)) (snd p)) functions = true.
Proof. vm_compute. reflexivity. Qed.
Lemma lookup_in f r : lookup f = Some r <-> In (f, r) functions.
Proof.
  split.
  - unfold lookup. intros H. destruct (find _ _) as [[g s]|] eqn:E; [|discriminate]. injection H as <-.
    apply find_some in E as [I E]. cbn [fst] in E. apply streq_iff in E as ->. exact I.
  - intros H. pose proof table_ok as T. rewrite forallb_forall in T. specialize (T _ H). cbn [fst snd] in T.
    destruct (lookup f) as [[a b]|]; [|discriminate]. destruct r as [c d]. cbn [same_entry fst snd] in T.
    apply andb_true_iff in T as [T1 T2]. apply Z.eqb_eq in T1, T2. now subst.
Qed.
Lemma arity_spec req opt n : check_arity (req, opt) n = (req <=? n) && ((opt <? 0) || (n <=? req + opt)).
Proof.
  unfold check_arity. destruct (Z.eqb_spec n req), (Z.ltb_spec n req), (Z.ltb_spec opt 0), (Z.eqb_spec opt 0),
    (Z.ltb_spec opt (n - req)), (Z.leb_spec req n), (Z.leb_spec n (req + opt)); try reflexivity; lia.
Qed.
Lemma known_spec f n : known f n = match lookup f with Some r => check_arity r n | None => false end.
Proof.
  unfold known. destruct (lookup f) as [[req opt]|] eqn:E.
  - rewrite arity_spec. apply lookup_in in E as I. destruct ((req <=? n) && _) eqn:A.
    + apply existsb_exists. exists (f, (req, opt)). split; [exact I|]. rewrite <- andb_assoc, A.
      apply andb_true_iff; split; [now apply streq_iff|reflexivity].
    + destruct (existsb _ _) eqn:X; [|reflexivity]. apply existsb_exists in X as ([g [r o]] & I' & X).
      rewrite <- andb_assoc in X. apply andb_true_iff in X as [X1 X2]. apply streq_iff in X1 as ->.
      apply lookup_in in I'. rewrite E in I'. injection I' as <- <-. now rewrite X2 in A.
  - destruct (existsb _ _) eqn:X; [|reflexivity]. apply existsb_exists in X as ([g [r o]] & I' & X).
    rewrite <- andb_assoc in X. apply andb_true_iff in X as [X1 X2]. apply streq_iff in X1 as ->.
    apply lookup_in in I'. congruence.
Qed.
Lemma reduce_known f l : reduce_prefix f l = if known f (zlen l) then Some (Call f l) else None.
Proof. unfold reduce_prefix. rewrite known_spec. destruct (lookup f); reflexivity. Qed.
Lemma zlen_pos {A} (l : list A) : 0 <= zlen l.
Proof. unfold zlen. lia. Qed.
Lemma zlen_cons1 {A} (x : A) l : zlen (x :: l) = zlen l + 1.
Proof. unfold zlen. cbn [length]. lia. Qed.
Lemma reduce_any f l : lookup f = Some (0, -1) -> reduce_prefix f l = Some (Call f l).
Proof.
  intros H. unfold reduce_prefix. rewrite H, arity_spec. pose proof (zlen_pos l).
  destruct (Z.leb_spec 0 (zlen l)); [reflexivity|lia].
Qed.
Lemma reduce_two f a l : lookup f = Some (2, -1) -> some l = true -> reduce_prefix f (a :: l) = Some (Call f (a :: l)).
Proof.
  intros H S. destruct l as [|b l]; [discriminate|].
  unfold reduce_prefix. rewrite H, arity_spec, !zlen_cons1. pose proof (zlen_pos l).
  destruct (Z.leb_spec 2 (zlen l + 1 + 1)); [reflexivity|lia].
Qed.
Lemma bundle_in : lookup (str "bundle") = Some (0, -1). Proof. reflexivity. Qed.
Lemma list_in : lookup (str "list") = Some (0, -1). Proof. reflexivity. Qed.
Lemma apply_in : lookup (str "apply") = Some (2, -1). Proof. reflexivity. Qed.
Lemma nth_in : lookup (str "nth") = Some (2, -1). Proof. reflexivity. Qed.
Lemma infix_known o a b : works_op o = true -> reduce_infix (op_name o) a b = Some (Call (spelling o) [a; b]).
Proof. destruct o; intros H; try discriminate H; reflexivity. Qed.

(** * The body of a function *)

Definition good (a : parg) : Prop := a <> PExpr None.
Lemma meaning_good e a : meaning e = Some a -> good a.
Proof.
  revert a; induction e; intros v H; cbn [meaning] in H;
    repeat match type of H with
    | opt_map _ ?m = _ => destruct m; cbn [opt_map] in H; try discriminate H
    | opt_map2 _ ?m ?n = _ => destruct m, n; cbn [opt_map2] in H; try discriminate H
    | match ?m with Some _ => _ | None => _ end = _ => destruct m; try discriminate H
    | (if ?m then _ else _) = _ => destruct m; try discriminate H
    end; try (injection H as <-; intros X; discriminate X).
  now apply IHe.
Qed.
Lemma body_rest_ok many l : forall b, b <> [] -> (forall a, In a l -> good a) ->
  (many = true -> forallb is_pexpr (removelast l) = true) ->
  body_rest many b l = Ok (b ++ flat_map in_body l).
Proof.
  induction l as [|a l IH]; intros b B G M.
  - cbn [body_rest flat_map]. now rewrite app_nil_r.
  - assert (G' : forall a, In a l -> good a) by (intros x X; apply G; now right).
    assert (M' : many = true -> forallb is_pexpr (removelast l) = true).
    { intros Hm. specialize (M Hm). destruct l as [|a' l]; [reflexivity|].
      change (is_pexpr a && forallb is_pexpr (removelast (a' :: l)) = true) in M. now apply andb_true_iff in M. }
    assert (K : forall e, in_body a = [e] -> (do body <- append_expr b (Some e); body_rest many body l) =
      Ok (b ++ flat_map in_body (a :: l))).
    { intros e E. destruct b as [|x b]; [contradiction|]. cbn [append_expr bind].
      rewrite IH by (auto; discriminate). cbn [flat_map]. rewrite E. now rewrite <- app_assoc. }
    destruct a as [x|x|[x|]|x y]; cbn [body_rest].
    4: now contradiction (G (PExpr None) (or_introl eq_refl)).
    3: now apply K.
    all: destruct l as [|a' l]; cbn [negb andb]; rewrite ?andb_false_r; [now apply K|];
         destruct many; cbn [andb]; [|now apply K]; specialize (M eq_refl); discriminate M.
Qed.
Lemma body_ok many l : (forall a, In a l -> good a) ->
  (many = true -> forallb is_pexpr (tl (removelast l)) = true) -> some l = true ->
  body_of many l = Ok (flat_map in_body l).
Proof.
  intros G M SO. destruct l as [|a l]; [discriminate|].
  assert (G' : forall a, In a l -> good a) by (intros x X; apply G; now right).
  assert (M' : many = true -> forallb is_pexpr (removelast l) = true).
  { intros Hm. specialize (M Hm). destruct l as [|a' l]; [reflexivity|exact M]. }
  assert (K : forall e, body_rest many [e] l = Ok (e :: flat_map in_body l)).
  { intros e. rewrite body_rest_ok; auto; discriminate. }
  destruct a as [x|x|[x|]|x y]; cbn [body_of]; rewrite ?K; try reflexivity.
  now contradiction (G (PExpr None) (or_introl eq_refl)).
Qed.

(** * Expressions *)

Lemma all_each {A B} (f : A -> res (option B)) (g : A -> option B) l : (forall x, In x l -> f x = Ok (g x)) ->
  all_of f l = Ok (each g l).
Proof.
  induction l as [|x l IH]; intros H; [reflexivity|].
  change (try (f x) (fun y => try (all_of f l) (fun r => Ok (Some (y :: r)))) =
    Ok (match g x, each g l with Some y, Some r => Some (y :: r) | _, _ => None end)).
  rewrite H by now left. rewrite IH by (intros y Y; apply H; now right).
  cbn [try]. destruct (g x); [|reflexivity]. destruct (each g l); reflexivity.
Qed.
Lemma each_in {A B} (g : A -> option B) l r : each g l = Some r -> forall y, In y r -> exists x, In x l /\ g x = Some y.
Proof.
  revert r; induction l as [|x l IH]; intros r H.
  - injection H as <-. intros y [].
  - change (match g x, each g l with Some y, Some r => Some (y :: r) | _, _ => None end = Some r) in H.
    destruct (g x) eqn:E; [|discriminate]. destruct (each g l) as [r'|]; [|discriminate]. injection H as <-.
    intros y [<- |Y]; [exists x; split; [now left|exact E]|].
    destruct (IH _ eq_refl y Y) as (z & Z1 & Z2). exists z. split; [now right|exact Z2].
Qed.
Lemma each_forall2 {A B} (g : A -> option B) l r : each g l = Some r -> Forall2 (fun x y => g x = Some y) l r.
Proof.
  revert r; induction l as [|x l IH]; intros r H.
  - injection H as <-. constructor.
  - change (match g x, each g l with Some y, Some r => Some (y :: r) | _, _ => None end = Some r) in H.
    destruct (g x) eqn:E; [|discriminate]. destruct (each g l) as [r'|]; [|discriminate]. injection H as <-.
    constructor; auto.
Qed.
Lemma forall2_tl {A B} (R : A -> B -> Prop) l r : Forall2 R l r -> Forall2 R (tl l) (tl r).
Proof. intros H; destruct H; [constructor|assumption]. Qed.
Lemma forall2_removelast {A B} (R : A -> B -> Prop) l r : Forall2 R l r -> Forall2 R (removelast l) (removelast r).
Proof. induction 1 as [|x y l r H F IH]; [constructor|]. destruct F; [constructor|]. constructor; assumption. Qed.
Lemma forall2_kind l r : Forall2 (fun e a => is_pexpr a = is_expr e) l r -> forallb is_expr l = true -> forallb is_pexpr r = true.
Proof. induction 1 as [|x y l r H F IH]; intros K; [reflexivity|]. cbn [forallb] in *. rewrite H. apply andb_true_iff in K as [-> K]. auto. Qed.
Lemma each_some {A B} (g : A -> option B) l r : each g l = Some r -> some r = some l.
Proof. intros H. apply each_forall2 in H. destruct H; reflexivity. Qed.

Ltac split_in W := repeat rewrite ?andb_true_iff in W;
  repeat match type of W with _ /\ _ => let W' := fresh W in destruct W as [W W'] end.
Lemma build_meaning_n n : forall e, (size e < n)%nat -> well e = true -> works e = true -> build e = Ok (meaning e).
Proof.
  induction n as [|n IH]; intros e N W V; [lia|].
  assert (AL : forall l, (length (sep (map flat l)) < n)%nat -> forallb well l = true -> forallb works l = true ->
    all_of build l = Ok (each meaning l)).
  { intros l L Wl Vl. apply all_each. intros x X. rewrite forallb_forall in Wl, Vl. apply IH; auto.
    apply size_in in X. lia. }
  assert (PA : forall p, addr p = true -> negb (hd 0 p =? 47) = false) by (intros p Hp; unfold addr in Hp; now rewrite Hp).
  destruct e; cbn [well works] in W, V; split_in W; split_in V; cbn [build meaning].
  - reflexivity.
  - reflexivity.
  - reflexivity.
  - (* lambda *) rewrite AL by (auto; sizes; lia). destruct (each meaning body) as [l|] eqn:E; [|reflexivity].
    cbn [try opt_map]. rewrite body_ok; [reflexivity|..].
    + intros a A. destruct (each_in _ _ _ E a A) as (x & _ & X). now apply meaning_good in X.
    + intros M. rewrite M in V0. cbn [negb orb] in V0.
      apply (forall2_kind (tl (removelast body))); [|exact V0]. apply forall2_tl, forall2_removelast.
      pose proof (each_forall2 _ _ _ E) as F. revert F. 
      assert (X : forall x, In x body -> well x = true /\ build x = Ok (meaning x)).
      { intros x X. rewrite forallb_forall in W0, V. split; [auto|]. apply IH; auto. apply size_in in X. sizes. lia. }
      clear - X. intros F. induction F as [|x y l r H F IHF]; constructor.
      * destruct (X x (or_introl eq_refl)) as [Wx Bx]. apply build_kind; [exact Wx|]. now rewrite Bx, H.
      * apply IHF. intros z Z. apply X. now right.
    + now rewrite (each_some _ _ _ E).
  - apply IH; auto. sizes; lia.
  - (* bundle *) 
    rewrite (all_each _ (fun '(p, e) => opt_map (fun a => [lit_text p; a]) (meaning e))).
    + destruct (each _ l) as [r|]; [|reflexivity]. cbn [try opt_map]. now rewrite reduce_any by apply bundle_in.
    + intros [p e] X. rewrite forallb_forall in W, V. specialize (W _ X). specialize (V _ X). cbn beta iota in W, V.
      apply andb_true_iff in V as [_ V]. rewrite IH; auto; [|apply size_in_pair in X; sizes; lia].
      destruct (meaning e); reflexivity.
  - rewrite AL by (auto; sizes; lia). destruct (each meaning args) as [l|]; [|reflexivity]. cbn [try].
    rewrite reduce_known. destruct (known f (zlen l)); reflexivity.
  - reflexivity.
  - rewrite AL by (auto; sizes; lia). destruct (each meaning args) as [l|]; reflexivity.
  - rewrite IH by (auto; sizes; lia). rewrite AL by (auto; sizes; lia).
    destruct (meaning e); [|reflexivity]. cbn [try].
    destruct (each meaning args) as [l|] eqn:E; [|reflexivity]. cbn [try opt_map2]. rewrite reduce_two; [reflexivity|apply apply_in|].
    now rewrite (each_some _ _ _ E).
  - rewrite !IH by (auto; sizes; lia). destruct (meaning e1); [|reflexivity]. cbn [try].
    destruct (meaning e2); [|reflexivity]. cbn [try opt_map2]. now rewrite infix_known.
  - rewrite !IH by (auto; sizes; lia). destruct (meaning e1); [|reflexivity]. cbn [try].
    destruct (meaning e2); [|reflexivity]. cbn [try opt_map2]. unfold reduce_infix_assign. now rewrite infix_known.
  - rewrite !IH by (auto; sizes; lia). destruct (meaning e1); [|reflexivity]. cbn [try].
    destruct (meaning e2); [|reflexivity]. cbn [try]. destruct (meaning e3); reflexivity.
  - rewrite IH by (auto; sizes; lia). rewrite AL by (auto; sizes; lia).
    destruct (meaning e); [|reflexivity]. cbn [try].
    destruct (each meaning args) as [l|] eqn:E; [|reflexivity]. cbn [try opt_map2]. rewrite reduce_two; [reflexivity|apply nth_in|].
    now rewrite (each_some _ _ _ E).
  - discriminate.
  - discriminate.
  - rewrite IH by (auto; sizes; lia). destruct (meaning e); reflexivity.
  - rewrite IH by (auto; sizes; lia). destruct (meaning e); reflexivity.
  - unfold reduce_prefix_unary. rewrite PA by exact V. destruct inc; reflexivity.
  - unfold reduce_postfix_unary, reduce_prefix_unary. rewrite PA by exact V. destruct inc; reflexivity.
  - rewrite IH by (auto; sizes; lia). rewrite PA by exact V. destruct (meaning e); reflexivity.
  - rewrite AL by (auto; sizes; lia). rewrite IH by (auto; sizes; lia). rewrite PA by exact V.
    destruct (each meaning args) as [l|]; [|reflexivity]. cbn [try]. destruct (meaning e); [|reflexivity].
    cbn [try opt_map2]. rewrite (reduce_any (str "list") l list_in). destruct l as [|? [|? ?]]; reflexivity.
  - destruct step as [st|]; rewrite !IH by (auto; sizes; lia); rewrite PA by exact V;
      (destruct (meaning e1); [|reflexivity]); cbn [try].
    + destruct (meaning st); [|reflexivity]. cbn [try opt_map]. destruct (meaning e2); [|reflexivity]. cbn [try].
      destruct (meaning e3); reflexivity.
    + destruct (meaning e2); [|reflexivity]. cbn [try]. destruct (meaning e3); reflexivity.
  - rewrite IH by (auto; sizes; lia). destruct (meaning e); reflexivity.
  - rewrite IH by (auto; sizes; lia). unfold reduce_null_coalescing. rewrite PA by exact V. destruct (meaning e); reflexivity.
  - rewrite IH by (auto; sizes; lia). unfold reduce_null_coalescing. rewrite PA by exact V. destruct (meaning e); reflexivity.
  - rewrite AL by (auto; sizes; lia). destruct (each meaning args) as [l|]; [|reflexivity]. cbn [try opt_map].
    now rewrite reduce_any by apply list_in.
  - reflexivity.
  - reflexivity.
Qed.
Theorem build_meaning e : well e = true -> works e = true -> build e = Ok (meaning e).
Proof. apply (build_meaning_n (S (size e))). lia. Qed.
