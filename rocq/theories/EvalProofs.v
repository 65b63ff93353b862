(** Copies of expressions, variables, and expressions that leave the bundle alone
    (C57, C58). *)

From Coq Require Import ZArith List Bool Lia.
From Verif Require Import Base BaseProofs Bytes UtilModel TimetagModel WireSpec SerialModel SerialSpec AtomSModel
  AtomUModel WireModel WireProps BundleSModel BundleSProofs BundleSProps BundleSProofs ExprModel ExprListModel ExprSpec EvalModel EvalSpec EvalRep EvalBundle.
Import ListNotations.
Open Scope Z_scope.

(** * Induction on expressions *)

Section Induction.
Context {A : Type} (P : arg A -> Prop) (Q : expr A -> Prop).
Context (HU : P AUnset) (HA : forall a, P (AAtom a)) (HL : forall l, P (AList l)) (HE : forall e, Q e -> P (AExpr e))
  (HP : forall p, P (AAddr p)) (HF : forall ps body, Forall Q body -> P (AFun ps body))
  (HX : forall f args, Forall P args -> Q (Ex f args)).
Fixpoint arg_induct (a : arg A) : P a :=
  match a with
  | AUnset => HU
  | AAtom x => HA x
  | AList l => HL l
  | AExpr e => HE e (expr_induct e)
  | AAddr p => HP p
  | AFun ps body => HF ps body ((fix go l : Forall Q l :=
      match l with [] => Forall_nil Q | e :: l' => Forall_cons e (expr_induct e) (go l') end) body)
  end
with expr_induct (e : expr A) : Q e :=
  match e with
  | Ex f args => HX f args ((fix go l : Forall P l :=
      match l with [] => Forall_nil P | a :: l' => Forall_cons a (arg_induct a) (go l') end) args)
  end.
Lemma syntax_induct : (forall a, P a) /\ (forall e, Q e).
Proof. exact (conj arg_induct expr_induct). Qed.
End Induction.

(** * Copies *)

Lemma copy_rep_all :
  (forall a a', arg_rep a a' -> no_list a' = true -> exists b, copy_arg a = Ok b /\ arg_rep b a') /\
  (forall e e', expr_rep e e' -> no_list_expr e' = true -> exists f, copy_expr e = Ok f /\ expr_rep f e').
Proof.
  apply (syntax_induct
    (fun a => forall a', arg_rep a a' -> no_list a' = true -> exists b, copy_arg a = Ok b /\ arg_rep b a')
    (fun e => forall e', expr_rep e e' -> no_list_expr e' = true -> exists f, copy_expr e = Ok f /\ expr_rep f e')).
  - intros a' H _. exists AUnset. split; [reflexivity|exact H].
  - intros a [| v | | | |] H _; try contradiction. cbn [arg_rep] in H. destruct (copy_stands a v H) as (b & E & Hb).
    exists (AAtom b). split; [|exact Hb]. cbn [copy_arg]. now rewrite E.
  - intros l [| | | | |] H Hn; try contradiction. discriminate Hn.
  - intros e IH [| | | e' | |] H Hn; try contradiction. cbn [arg_rep] in H. destruct (IH e' H Hn) as (b & E & Hb).
    exists (AExpr b). split; [|exact Hb]. cbn [copy_arg]. now rewrite E.
  - intros p a' H _. exists (AAddr p). split; [reflexivity|exact H].
  - intros ps body IH [| | | | | ps' body'] H Hn; try contradiction. apply arg_rep_fun in H as [-> H]. cbn [no_list] in Hn.
    assert (K : exists l, map_list copy_expr body = Ok l /\ Forall2 expr_rep l body').
    { clear - IH H Hn. revert IH. induction H as [|e e' body body' He _ IHb]; intros IH; [exists []; split; [reflexivity|constructor]|].
      cbn [forallb] in Hn. apply andb_true_iff in Hn as [Hn1 Hn2]. inversion IH as [|? ? I1 I2]; subst.
      destruct (I1 e' He Hn1) as (b & E & Hb). destruct (IHb Hn2 I2) as (l & El & Hl). exists (b :: l).
      split; [|now constructor]. cbn [map_list]. rewrite E. cbn [bind]. now rewrite El. }
    destruct K as (l & El & Hl). exists (AFun ps' l). split; [|now apply arg_rep_fun]. cbn [copy_arg]. now rewrite El.
  - intros f args IH [f' args'] H Hn. apply expr_rep_args in H as [-> H]. cbn [no_list_expr] in Hn.
    assert (K : exists l, map_list copy_arg args = Ok l /\ Forall2 arg_rep l args').
    { clear - IH H Hn. revert IH. induction H as [|e e' body body' He _ IHb]; intros IH; [exists []; split; [reflexivity|constructor]|].
      cbn [forallb] in Hn. apply andb_true_iff in Hn as [Hn1 Hn2]. inversion IH as [|? ? I1 I2]; subst.
      destruct (I1 e' He Hn1) as (b & E & Hb). destruct (IHb Hn2 I2) as (l & El & Hl). exists (b :: l).
      split; [|now constructor]. cbn [map_list]. rewrite E. cbn [bind]. now rewrite El. }
    destruct K as (l & El & Hl). exists (Ex f' l). split; [|now apply expr_rep_args]. cbn [copy_expr]. now rewrite El.
Qed.

Lemma map_list_quiet {A} (f : A -> res A) (q : A -> bool) l : Forall (fun a => forall b, f a = Ok b -> q b = q a) l ->
  forall l', map_list f l = Ok l' -> forallb q l' = forallb q l.
Proof.
  induction 1 as [|a l Ha _ IH]; intros l' E; cbn [map_list] in E; [injection E as <-; reflexivity|].
  destruct (f a) as [b| |] eqn:Eb; cbn [bind] in E; try discriminate E.
  destruct (map_list f l) as [r| |] eqn:Er; cbn [bind] in E; try discriminate E. injection E as <-.
  cbn [forallb]. now rewrite (Ha b eq_refl), (IH r eq_refl).
Qed.
Definition is_fun {A} (a : arg A) : bool := match a with AFun _ _ => true | _ => false end.
Lemma copy_fun a b : copy_arg a = Ok b -> is_fun b = is_fun a.
Proof.
  destruct a; cbn [copy_arg]; intros E; try (injection E as <-; reflexivity).
  - destruct (copy_atom a); cbn [bind] in E; try discriminate E. now injection E as <-.
  - destruct (copy_expr e); cbn [bind] in E; try discriminate E. now injection E as <-.
  - destruct (map_list _ _); cbn [bind] in E; try discriminate E. now injection E as <-.
Qed.
Definition fun_first {A} (args : list (arg A)) : bool := match args with a :: _ => is_fun a | [] => false end.
Lemma quiet_expr_def {A} f (args : list (arg A)) : quiet_expr (Ex f args) =
  match f with
  | FAssign | FAssignIndex | FDelete | FSetTime => false
  | FApply | FMap | FLreduce | FRreduce => fun_first args
  | _ => true
  end && forallb quiet args.
Proof. destruct f; try reflexivity; destruct args as [|[] ?]; reflexivity. Qed.
Lemma quiet_fun {A} ps (body : list (expr A)) : quiet (AFun ps body) = forallb quiet_expr body.
Proof. reflexivity. Qed.
Lemma copy_quiet_all :
  (forall a b, copy_arg a = Ok b -> quiet b = quiet a) /\ (forall e f, copy_expr e = Ok f -> quiet_expr f = quiet_expr e).
Proof.
  apply (syntax_induct (fun a => forall b, copy_arg a = Ok b -> quiet b = quiet a)
           (fun e => forall f, copy_expr e = Ok f -> quiet_expr f = quiet_expr e)).
  - now injection 1 as <-.
  - intros a b E. cbn [copy_arg] in E. destruct (copy_atom a); cbn [bind] in E; try discriminate E. now injection E as <-.
  - now injection 1 as <-.
  - intros e IH b E. cbn [copy_arg] in E. destruct (copy_expr e) as [f| |] eqn:Ef; cbn [bind] in E; try discriminate E.
    injection E as <-. cbn [quiet]. now apply IH.
  - now injection 1 as <-.
  - intros ps body IH b E. cbn [copy_arg] in E. destruct (map_list copy_expr body) as [l| |] eqn:El; cbn [bind] in E; try discriminate E.
    injection E as <-. cbn [quiet]. exact (map_list_quiet copy_expr quiet_expr body IH l El).
  - intros f args IH e E. cbn [copy_expr] in E. destruct (map_list copy_arg args) as [l| |] eqn:El; cbn [bind] in E; try discriminate E.
    injection E as <-. rewrite !quiet_expr_def. rewrite (map_list_quiet copy_arg quiet args IH l El). f_equal.
    assert (Ef : fun_first l = fun_first args).
    { destruct args as [|a args]; cbn [map_list] in El; [injection El as <-; reflexivity|].
      destruct (copy_arg a) as [b| |] eqn:Eb; cbn [bind] in El; try discriminate El.
      destruct (map_list copy_arg args); cbn [bind] in El; try discriminate El. injection El as <-.
      cbn [fun_first]. exact (copy_fun a b Eb). }
    rewrite Ef. reflexivity.
Qed.
Lemma rep_quiet_all :
  (forall a (a' : arg value), arg_rep a a' -> quiet a = quiet a') /\ (forall e e', expr_rep e e' -> quiet_expr e = quiet_expr e').
Proof.
  apply (syntax_induct (fun a => forall a', arg_rep a a' -> quiet a = quiet a') (fun e => forall e', expr_rep e e' -> quiet_expr e = quiet_expr e')).
  - intros [] H; try contradiction; reflexivity.
  - intros a [] H; try contradiction; reflexivity.
  - intros l [] H; try contradiction; reflexivity.
  - intros e IH [] H; try contradiction. exact (IH _ H).
  - intros p [] H; try contradiction; reflexivity.
  - intros ps body IH [] H; try contradiction. apply arg_rep_fun in H as [-> H]. rewrite !quiet_fun.
    revert IH. induction H as [|e e' l l' He _ IHl]; intros IH; [reflexivity|]. inversion IH as [|? ? I1 I2]; subst.
    cbn [forallb]. now rewrite (I1 _ He), (IHl I2).
  - intros f args IH [f' args'] H. apply expr_rep_args in H as [-> H]. rewrite !quiet_expr_def.
    assert (E1 : forallb quiet args = forallb quiet args').
    { revert IH. induction H as [|e e' l l' He _ IHl]; intros IH; [reflexivity|]. inversion IH as [|? ? I1 I2]; subst.
      cbn [forallb]. now rewrite (I1 _ He), (IHl I2). }
    assert (E2 : fun_first args = fun_first args').
    { destruct H as [|a a' l l' Ha _]; [reflexivity|]. cbn [fun_first]. destruct a, a'; try contradiction; reflexivity. }
    now rewrite E1, E2.
Qed.

(** * Expressions that leave the bundle alone *)

Section Quiet.
Context (table : list Z -> option fn) (plain : list Z -> list arr -> res (Z * arr)) (fresh : Z -> bytes).
Context (rec : lexenv -> bst -> expr atom -> res (Z * arr * bst)).
Context (Hrec : forall env st e c o st', quiet_expr e = true -> rec env st e = Ok (c, o, st') -> st' = st).

Lemma quiet_arg env st a c o st' : quiet a = true -> eval_arg rec env st a = Ok (c, o, st') -> st' = st.
Proof.
  intros Hq H. destruct a; cbn [eval_arg] in H.
  - now injection H as _ _ ->.
  - destruct (if a_tt a =? 115 then _ else _) as [v| |]; cbn [bind] in H; try discriminate H. destruct v.
    + destruct (acopy _); cbn [bind] in H; try discriminate H. now injection H as _ _ ->.
    + destruct (copy_atom a); cbn [bind] in H; try discriminate H. now injection H as _ _ ->.
  - destruct (acopy _); cbn [bind] in H; try discriminate H. now injection H as _ _ ->.
  - exact (Hrec _ _ _ _ _ _ Hq H).
  - destruct (eval_addr st p) as [[? ?]| |]; cbn [bind] in H; try discriminate H. now injection H as _ _ ->.
  - now injection H as _ _ ->.
Qed.
Lemma quiet_opt env st a c o st' : match a with Some a => quiet a = true | None => True end ->
  eval_opt rec env st a = Ok (c, o, st') -> st' = st.
Proof.
  destruct a as [a|]; cbn [eval_opt]; intros Hq H; [exact (quiet_arg _ _ _ _ _ _ Hq H)|]. now injection H as _ _ ->.
Qed.
Lemma quiet_args env : forall args st c os st', forallb quiet args = true -> eval_args rec env st args = Ok (c, os, st') -> st' = st.
Proof.
  induction args as [|a args IH]; intros st c os st' Hq H; cbn [eval_args] in H; [now injection H as _ _ ->|].
  cbn [forallb] in Hq. apply andb_true_iff in Hq as [Ha Hq].
  destruct (eval_arg rec env st a) as [[[c1 o1] st1]| |] eqn:E; cbn [bind] in H; try discriminate H.
  apply (quiet_arg _ _ _ _ _ _ Ha) in E. subst st1. destruct (negb (c1 =? 0)); [now injection H as _ _ ->|].
  destruct (eval_args rec env st args) as [[[c2 os2] st2]| |] eqn:E; cbn [bind] in H; try discriminate H.
  apply (IH _ _ _ _ Hq) in E. subst st2. now injection H as _ _ ->.
Qed.
Lemma quiet_collect env : forall args st c os st', forallb quiet args = true -> collect rec env st args = Ok (c, os, st') -> st' = st.
Proof.
  induction args as [|a args IH]; intros st c os st' Hq H; cbn [collect] in H; [now injection H as _ _ ->|].
  cbn [forallb] in Hq. apply andb_true_iff in Hq as [Ha Hq].
  destruct (eval_arg rec env st a) as [[[c1 o1] st1]| |] eqn:E; cbn [bind] in H; try discriminate H.
  apply (quiet_arg _ _ _ _ _ _ Ha) in E. subst st1. destruct (c1 =? UNBOUND); [now injection H as _ _ ->|].
  destruct (collect rec env st args) as [[[c2 os2] st2]| |] eqn:E; cbn [bind] in H; try discriminate H.
  apply (IH _ _ _ _ Hq) in E. subst st2. now injection H as _ _ ->.
Qed.
Lemma quiet_params env : forall params args st inner c inner' st', forallb quiet args = true ->
  bind_params rec env st params args inner = Ok (c, inner', st') -> st' = st.
Proof.
  induction params as [|x params IH]; intros args st inner c inner' st' Hq H; cbn [bind_params] in H; [now injection H as _ _ ->|].
  destruct args as [|a args]; [now injection H as _ _ ->|].
  cbn [forallb] in Hq. apply andb_true_iff in Hq as [Ha Hq].
  destruct (eval_arg rec env st a) as [[[c1 o1] st1]| |] eqn:E; cbn [bind] in H; try discriminate H.
  apply (quiet_arg _ _ _ _ _ _ Ha) in E. subst st1. destruct (c1 =? UNBOUND); [now injection H as _ _ ->|].
  exact (IH _ _ _ _ _ _ Hq H).
Qed.
Lemma quiet_body env : forall body st c o st', forallb quiet_expr body = true -> eval_body rec env st body = Ok (c, o, st') -> st' = st.
Proof.
  induction body as [|e body IH]; intros st c o st' Hq H; cbn [eval_body] in H; [now injection H as _ _ ->|].
  cbn [forallb] in Hq. apply andb_true_iff in Hq as [He Hq].
  destruct (rec env st e) as [[[c1 o1] st1]| |] eqn:E; cbn [bind] in H; try discriminate H.
  apply (Hrec _ _ _ _ _ _ He) in E. subst st1. destruct (negb (c1 =? 0)); [now injection H as _ _ ->|].
  destruct body; [now injection H as _ _ ->|]. exact (IH _ _ _ _ Hq H).
Qed.
Lemma quiet_apply env st args c o st' : fun_first args = true -> forallb quiet args = true ->
  ev_apply table rec env st args = Ok (c, o, st') -> st' = st.
Proof.
  destruct args as [|a args]; [discriminate|]. destruct a; try discriminate. intros _ Hq H. cbn [ev_apply] in H.
  cbn [forallb] in Hq. rewrite quiet_fun in Hq. apply andb_true_iff in Hq as [Hb Hq].
  destruct (match env with Some e => copy_entries e | None => Ok [] end) as [inner| |]; cbn [bind] in H; try discriminate H.
  destruct (bind_params rec env st params args inner) as [[[c1 o1] st1]| |] eqn:E; cbn [bind] in H; try discriminate H.
  apply (quiet_params _ _ _ _ _ _ _ _ Hq) in E. subst st1. destruct (c1 =? UNBOUND); [now injection H as _ _ ->|].
  exact (quiet_body _ _ _ _ _ _ Hb H).
Qed.
Lemma quiet_atoms (args : list (arg atom)) : Forall (fun a => match a with AAtom _ => True | _ => False end) args -> forallb quiet args = true.
Proof. induction 1 as [|a l Ha _ IH]; [reflexivity|]. destruct a; try contradiction. exact IH. Qed.
Lemma row_atoms : forall os i l, row os i = Ok l -> Forall (fun a => match a with AAtom _ => True | _ => False end) l.
Proof.
  induction os as [|o os IH]; intros i l H; cbn [row] in H; [injection H as <-; constructor|].
  destruct (aget o i); cbn [bind] in H; try discriminate H. destruct (row os i) eqn:E; cbn [bind] in H; try discriminate H.
  injection H as <-. constructor; [exact I|exact (IH _ _ E)].
Qed.
Lemma quiet_call env st f l c o st' : is_fun f = true -> quiet f = true ->
  Forall (fun a => match a with AAtom _ | AUnset => True | _ => False end) l -> rec env st (Ex FApply (f :: l)) = Ok (c, o, st') -> st' = st.
Proof.
  intros Hf Hq Hl. apply Hrec. rewrite quiet_expr_def. cbn [fun_first forallb]. rewrite Hf, Hq. cbn [andb].
  induction Hl as [|a l Ha _ IH]; [reflexivity|]. destruct a; try contradiction; exact IH.
Qed.
Lemma quiet_calls env f os : is_fun f = true -> quiet f = true -> forall k i st outs st',
  map_calls rec env f os k i st = Ok (outs, st') -> st' = st.
Proof.
  intros Hf Hq. induction k as [|k IH]; intros i st outs st' H; cbn [map_calls] in H; [now injection H as _ ->|].
  destruct (row os i) as [l| |] eqn:El; cbn [bind] in H; try discriminate H.
  destruct (rec env st (Ex FApply (f :: l))) as [[[c1 o1] st1]| |] eqn:E; cbn [bind] in H; try discriminate H.
  apply (quiet_call _ _ _ _ _ _ _ Hf Hq) in E; [subst st1|eapply Forall_impl; [|exact (row_atoms _ _ _ El)]; now intros []].
  destruct (map_calls rec env f os k (i + 1) st) as [[outs2 st2]| |] eqn:E; cbn [bind] in H; try discriminate H.
  apply IH in E. subst st2. now injection H as _ ->.
Qed.
Lemma quiet_map env st args c o st' : fun_first args = true -> forallb quiet args = true ->
  ev_map rec env st args = Ok (c, o, st') -> st' = st.
Proof.
  destruct args as [|f [|a args]]; try discriminate; intros Hf Hq H; cbn [ev_map] in H; [now injection H as _ _ ->|].
  change (quiet f && forallb quiet (a :: args) = true) in Hq. apply andb_true_iff in Hq as [Hqf Hq]. cbn [fun_first] in Hf.
  destruct (collect rec env st (a :: args)) as [[[c1 os] st1]| |] eqn:E; cbn [bind] in H; try discriminate H.
  apply (quiet_collect _ _ _ _ _ _ Hq) in E. subst st1. destruct (c1 =? UNBOUND); [now injection H as _ _ ->|].
  destruct (copy_arg f) as [g| |] eqn:Eg; cbn [bind] in H; try discriminate H.
  destruct (map_calls rec env g os _ 0 st) as [[outs st1]| |] eqn:E; cbn [bind] in H; try discriminate H.
  apply quiet_calls in E; [subst st1|rewrite (copy_fun f g Eg); exact Hf|rewrite (proj1 copy_quiet_all f g Eg); exact Hqf].
  destruct (aalloc _); cbn [bind] in H; try discriminate H. destruct (join_outputs _ _ _); cbn [bind] in H; try discriminate H.
  now injection H as _ _ ->.
Qed.
Lemma two_quiet right a x : Forall (fun a => match a with AAtom _ | AUnset => True | _ => False end) (two_args right (AAtom a) (AAtom x)).
Proof. destruct right; repeat constructor. Qed.
Lemma quiet_loop env right f : is_fun f = true -> quiet f = true -> forall xs o st o' st',
  reduce_loop rec env right f xs o st = Ok (o', st') -> st' = st.
Proof.
  intros Hf Hq. induction xs as [|x xs IH]; intros o st o' st' H; cbn [reduce_loop] in H; [now injection H as _ ->|].
  destruct (aget o 0); cbn [bind] in H; try discriminate H. destruct (copy_into _ _) as [a2| |]; cbn [bind] in H; try discriminate H.
  destruct (copy_atom x) as [y| |]; cbn [bind] in H; try discriminate H.
  destruct (rec env st _) as [[[c1 o1] st1]| |] eqn:E; cbn [bind] in H; try discriminate H.
  apply (quiet_call _ _ _ _ _ _ _ Hf Hq (two_quiet _ _ _)) in E. subst st1. exact (IH _ _ _ _ H).
Qed.
Lemma quiet_reduce right env st args c o st' : fun_first args = true -> forallb quiet args = true ->
  ev_reduce rec right env st args = Ok (c, o, st') -> st' = st.
Proof.
  destruct args as [|f [|a more]]; try discriminate; intros Hf Hq H; cbn [ev_reduce] in H; [now injection H as _ _ ->|].
  change (quiet f && (quiet a && forallb quiet more) = true) in Hq. apply andb_true_iff in Hq as [Hqf Hq]. apply andb_true_iff in Hq as [Hqa Hq].
  cbn [fun_first] in Hf.
  destruct (copy_arg f) as [g| |] eqn:Eg; cbn [bind] in H; try discriminate H.
  assert (Hg : is_fun g = true) by (rewrite (copy_fun f g Eg); exact Hf).
  assert (Hqg : quiet g = true) by (rewrite (proj1 copy_quiet_all f g Eg); exact Hqf).
  destruct (eval_arg rec env st a) as [[[c1 ar] st1]| |] eqn:E; cbn [bind] in H; try discriminate H.
  apply (quiet_arg _ _ _ _ _ _ Hqa) in E. subst st1. destruct (c1 =? UNBOUND); [now injection H as _ _ ->|].
  assert (Hcall : forall l c2 o2 st2, Forall (fun a => match a with AAtom _ | AUnset => True | _ => False end) l ->
     rec env st (Ex FApply (g :: l)) = Ok (c2, o2, st2) -> st2 = st).
  { intros l c2 o2 st2 Hl. now apply quiet_call. }
  set (l := match ar with Some l => l | None => [] end) in *.
  assert (Hpair : forall x y xs, (do ' (_, o, st) <- rec env st (Ex FApply (g :: two_args right (AAtom x) (AAtom y)));
      do ' (o, st) <- reduce_loop rec env right g xs o st; Ok (0, o, st)) = Ok (c, o, st') -> st' = st).
  { intros x y xs H'. destruct (rec env st (Ex FApply (g :: two_args right (AAtom x) (AAtom y)))) as [[[c2 o2] st2]| |] eqn:E; cbn [bind] in H'; try discriminate H'.
    apply (Hcall _ _ _ _ (two_quiet _ _ _)) in E. subst st2.
    destruct (reduce_loop rec env right g xs o2 st) as [[o3 st3]| |] eqn:E; cbn [bind] in H'; try discriminate H'.
    apply (quiet_loop _ _ _ Hg Hqg) in E. subst st3. now injection H' as _ _ ->. }
  destruct (if right then rev l else l) as [|x xs].
  { destruct (rec env st _) as [[[c2 o2] st2]| |] eqn:E; cbn [bind] in H; try discriminate H.
    apply Hcall in E; [|repeat constructor]. subst st2. now injection H as _ _ ->. }
  assert (Hone : forall b, quiet b = true -> (do ' (c, sc, st) <- eval_arg rec env st b;
       if c =? UNBOUND then Ok (c, None, st) else
       match sc with
       | None => Ok (1, None, st)
       | Some _ => do s <- aget sc 0; do s <- copy_into atom_fresh s;
              do ' (_, o, st) <- rec env st (Ex FApply (g :: two_args right (AAtom s) (AAtom x)));
              do ' (o, st) <- reduce_loop rec env right g xs o st; Ok (0, o, st)
       end) = Ok (c, o, st') -> st' = st).
  { intros b Hb H'. destruct (eval_arg rec env st b) as [[[c2 sc] st2]| |] eqn:E; cbn [bind] in H'; try discriminate H'.
    apply (quiet_arg _ _ _ _ _ _ Hb) in E. subst st2. destruct (c2 =? UNBOUND); [now injection H' as _ _ ->|].
    destruct sc; [|now injection H' as _ _ ->].
    destruct (aget _ 0) as [s| |]; cbn [bind] in H'; try discriminate H'. destruct (copy_into _ _) as [s'| |]; cbn [bind] in H'; try discriminate H'.
    exact (Hpair _ _ _ H'). }
  destruct more as [|b [|b' more]].
  - destruct xs as [|y xs]; [now injection H as _ _ ->|exact (Hpair _ _ _ H)].
  - cbn [forallb] in Hq. rewrite andb_true_r in Hq. destruct xs; exact (Hone b Hq H).
  - destruct xs as [|y xs]; [|exact (Hpair _ _ _ H)].
    destruct (rec env st _) as [[[c2 o2] st2]| |] eqn:E; cbn [bind] in H; try discriminate H.
    apply (Hcall _ _ _ _ (two_quiet _ _ _)) in E. subst st2. now injection H as _ _ ->.
Qed.
Lemma quiet_branch env st n a c o st' : quiet a = true -> ev_branch rec env st n a = Ok (c, o, st') -> st' = st.
Proof.
  intros Hq H. unfold ev_branch in H. destruct (n =? 0); [discriminate H|].
  destruct (eval_arg rec env st a) as [[[c1 o1] st1]| |] eqn:E; cbn [bind] in H; try discriminate H.
  apply (quiet_arg _ _ _ _ _ _ Hq) in E. subst st1. destruct (negb (c1 =? 0)); [now injection H as _ _ ->|].
  destruct (aalloc _); cbn [bind] in H; try discriminate H. destruct (acopy_into _ _ _); cbn [bind] in H; try discriminate H.
  now injection H as _ _ ->.
Qed.
Lemma quiet_if env st args c o st' : forallb quiet args = true -> ev_if rec env st args = Ok (c, o, st') -> st' = st.
Proof.
  intros Hq H. destruct args as [|t [|y [|n [|? ?]]]]; cbn [ev_if] in H; try now injection H as _ _ ->.
  - cbn [forallb] in Hq. apply andb_true_iff in Hq as [Ht Hq]. rewrite andb_true_r in Hq.
    destruct (eval_arg rec env st t) as [[[c1 o1] st1]| |] eqn:E; cbn [bind] in H; try discriminate H.
    apply (quiet_arg _ _ _ _ _ _ Ht) in E. subst st1. destruct (negb (c1 =? 0)); [now injection H as _ _ ->|].
    destruct (aget o1 0); cbn [bind] in H; try discriminate H. destruct (int32_at _) as [i| |]; cbn [bind] in H; try discriminate H.
    destruct (negb (i =? 0)); [exact (quiet_branch _ _ _ _ _ _ _ Hq H)|].
    destruct (aalloc _); cbn [bind] in H; try discriminate H. now injection H as _ _ ->.
  - cbn [forallb] in Hq. apply andb_true_iff in Hq as [Ht Hq]. apply andb_true_iff in Hq as [Hy Hn]. rewrite andb_true_r in Hn.
    destruct (eval_arg rec env st t) as [[[c1 o1] st1]| |] eqn:E; cbn [bind] in H; try discriminate H.
    apply (quiet_arg _ _ _ _ _ _ Ht) in E. subst st1. destruct (negb (c1 =? 0)); [now injection H as _ _ ->|].
    destruct (aget o1 0); cbn [bind] in H; try discriminate H. destruct (int32_at _) as [i| |]; cbn [bind] in H; try discriminate H.
    destruct (negb (i =? 0)); [exact (quiet_branch _ _ _ _ _ _ _ Hy H)|exact (quiet_branch _ _ _ _ _ _ _ Hn H)].
Qed.
Lemma quiet_exists func env st args c o st' : forallb quiet args = true -> ev_exists rec func env st args = Ok (c, o, st') -> st' = st.
Proof.
  intros Hq H. unfold ev_exists in H.
  match type of H with bind ?m _ = _ => destruct m as [[ad st1]| |] eqn:E; cbn [bind] in H; try discriminate H end.
  assert (st1 = st).
  { destruct args as [|a args]; [now injection E as _ ->|]. cbn [forallb] in Hq. apply andb_true_iff in Hq as [Ha _].
    destruct a; try (now injection E as _ ->).
    - destruct (negb (a_tt a =? 115)); [now injection E as _ ->|].
      destruct (eval_arg rec env st (AAtom a)) as [[[c2 ar] st2]| |] eqn:E2; cbn [bind] in E; try discriminate E.
      apply (quiet_arg _ _ _ _ _ _ Ha) in E2. subst st2. destruct (tag0 ar); cbn [bind] in E; try discriminate E.
      destruct (_ =? 115); [|now injection E as _ ->]. destruct (string0 ar); cbn [bind] in E; try discriminate E. now injection E as _ ->.
    - destruct (rec env st e) as [[[c2 ar] st2]| |] eqn:E2; cbn [bind] in E; try discriminate E.
      apply (Hrec _ _ _ _ _ _ Ha) in E2. subst st2. destruct ar as [l|]; [|now injection E as _ ->].
      destruct (negb (c2 =? 0)); [now injection E as _ ->|]. destruct (negb (alen (Some l) =? 1)); [now injection E as _ ->|].
      destruct (tag0 _) as [t| |]; cbn [bind] in E; try discriminate E. destruct (negb (t =? 115)); [now injection E as _ ->|].
      destruct (string0 _) as [s| |]; cbn [bind] in E; try discriminate E. destruct (hd 0 s =? 47); now injection E as _ ->. }
  subst st1. destruct ad; [|now injection H as _ _ ->].
  destruct (func _ _ _ _); cbn [bind] in H; try discriminate H. now injection H as _ _ ->.
Qed.
Lemma quiet_value env st args c o st' : forallb quiet args = true -> ev_value rec env st args = Ok (c, o, st') -> st' = st.
Proof.
  intros Hq H. unfold ev_value in H.
  destruct (eval_opt rec env st (nth_error args 0)) as [[[c1 ar] st1]| |] eqn:E; cbn [bind] in H; try discriminate H.
  apply quiet_opt in E; [subst st1|destruct args as [|a args]; [exact I|]; cbn [forallb] in Hq; now apply andb_true_iff in Hq].
  destruct (c1 =? UNBOUND); [now injection H as _ _ ->|]. destruct (tag0 ar) as [t| |]; cbn [bind] in H; try discriminate H.
  destruct (negb (t =? 115)); [now injection H as _ _ ->|]. destruct (string0 ar); cbn [bind] in H; try discriminate H.
  destruct (lookup_address _ _ _ _) as [[ms|]| |]; cbn [bind] in H; try discriminate H; [|now injection H as _ _ ->].
  destruct (rd ms 0); cbn [bind] in H; try discriminate H. destruct (get_arg_count _ _); cbn [bind] in H; try discriminate H.
  destruct (aalloc _); cbn [bind] in H; try discriminate H. destruct (fetch_args _ _ _ _ _); cbn [bind] in H; try discriminate H.
  now injection H as _ _ ->.
Qed.
Lemma quiet_shortcut stop env st args c o st' : forallb quiet args = true -> ev_shortcut rec stop env st args = Ok (c, o, st') -> st' = st.
Proof.
  intros Hq H. destruct args as [|a [|b [|? ?]]]; cbn [ev_shortcut] in H; try now injection H as _ _ ->.
  cbn [forallb] in Hq. apply andb_true_iff in Hq as [Ha Hb]. rewrite andb_true_r in Hb.
  destruct (eval_arg rec env st a) as [[[c1 l] st1]| |] eqn:E; cbn [bind] in H; try discriminate H.
  apply (quiet_arg _ _ _ _ _ _ Ha) in E. subst st1. destruct l as [l|]; [|now injection H as _ _ ->].
  destruct (negb (c1 =? 0)); [now injection H as _ _ ->|]. destruct (tag0 _) as [t| |]; cbn [bind] in H; try discriminate H.
  destruct (negb _); [now injection H as _ _ ->|]. destruct (t =? stop); [now injection H as _ _ ->|].
  destruct (eval_arg rec env st b) as [[[c2 r] st2]| |] eqn:E; cbn [bind] in H; try discriminate H.
  apply (quiet_arg _ _ _ _ _ _ Hb) in E. subst st2. destruct r as [r|]; [|now injection H as _ _ ->].
  destruct (negb (c2 =? 0)); [now injection H as _ _ ->|]. destruct (tag0 _) as [t'| |]; cbn [bind] in H; try discriminate H.
  destruct (negb _); now injection H as _ _ ->.
Qed.
Lemma quiet_ev env st e c o st' : quiet_expr e = true -> ev_expr table plain fresh rec env st e = Ok (c, o, st') -> st' = st.
Proof.
  destruct e as [f args]. rewrite quiet_expr_def. intros Hq H. apply andb_true_iff in Hq as [Hf Hq]. cbn [ev_expr] in H.
  destruct f; try discriminate Hf.
  - exact (quiet_apply _ _ _ _ _ _ Hf Hq H).
  - exact (quiet_map _ _ _ _ _ _ Hf Hq H).
  - exact (quiet_reduce _ _ _ _ _ _ _ Hf Hq H).
  - exact (quiet_reduce _ _ _ _ _ _ _ Hf Hq H).
  - exact (quiet_if _ _ _ _ _ _ Hq H).
  - unfold ev_empty in H. destruct args; [|discriminate H]. now injection H as _ _ ->.
  - exact (quiet_exists _ _ _ _ _ _ _ Hq H).
  - exact (quiet_exists _ _ _ _ _ _ _ Hq H).
  - unfold ev_addresses in H. destruct args; [|discriminate H].
    destruct (bundle_loop _ _ _ _ _) as [r| |]; cbn [bind] in H; try discriminate H. destruct r; cbn [bind] in H; try discriminate H.
    destruct (aalloc _); cbn [bind] in H; try discriminate H.
    destruct (bundle_loop _ _ _ _ _) as [[[? ?]|]| |]; cbn [bind] in H; try discriminate H. now injection H as _ _ ->.
  - unfold ev_count in H. destruct (bundle_loop _ _ _ _ _) as [[]| |]; cbn [bind] in H; try discriminate H. now injection H as _ _ ->.
  - exact (quiet_value _ _ _ _ _ _ Hq H).
  - unfold ev_quote in H. destruct args as [|[] args]; try discriminate H; try (now injection H as _ _ ->).
    destruct (copy_atom a); cbn [bind] in H; try discriminate H. now injection H as _ _ ->.
  - unfold ev_get_time in H. destruct (bundle_get_timetag _ _); cbn [bind] in H; try discriminate H. now injection H as _ _ ->.
  - exact (quiet_shortcut _ _ _ _ _ _ _ Hq H).
  - exact (quiet_shortcut _ _ _ _ _ _ _ Hq H).
  - unfold ev_call in H. destruct (eval_args rec env st args) as [[[c1 os] st1]| |] eqn:E; cbn [bind] in H; try discriminate H.
    apply (quiet_args _ _ _ _ _ _ Hq) in E. subst st1. destruct (negb (c1 =? 0)); [now injection H as _ _ ->|].
    destruct (plain name os) as [[c2 o2]| |]; cbn [bind] in H; try discriminate H. now injection H as _ _ ->.
Qed.
End Quiet.

Lemma quiet_in table plain fresh : forall k env st e c o st', quiet_expr e = true ->
  eval_in table plain fresh k env st e = Ok (c, o, st') -> st' = st.
Proof.
  induction k as [|k IH]; intros env st e c o st' Hq H; [discriminate H|]. cbn [eval_in] in H.
  exact (quiet_ev table plain fresh _ IH env st e c o st' Hq H).
Qed.

(** * Variables *)

Lemma find_filter x y l : find_entry (filter (fun '(z, _) => negb (streq x z)) l) y = if streq y x then None else find_entry l y.
Proof.
  induction l as [|[z v] l IH]; cbn [filter find_entry]; [now destruct (streq y x)|].
  destruct (streq x z) eqn:E; cbn [negb].
  - apply streq_iff in E. subst z. rewrite IH. now destruct (streq y x).
  - cbn [find_entry]. rewrite IH. destruct (streq y z) eqn:E2; [|reflexivity]. apply streq_iff in E2. subst z.
    destruct (streq y x) eqn:E3; [|reflexivity]. apply streq_iff in E3. subst y. rewrite (proj2 (streq_iff x x) eq_refl) in E. discriminate E.
Qed.
Lemma bind_rep e V x o o' : env_rep (Some e) V -> result_rep o o' -> env_rep (Some (bind_var e x o)) (bind_one V x o').
Proof.
  intros [Hn Hl] Ho. split.
  - cbn [names_once bind_var map fst]. constructor.
    + intros Hin. apply in_map_iff in Hin as ([y v] & Ey & Hin). apply filter_In in Hin as [_ Hin]. cbn [fst] in Ey. subst y.
      rewrite (proj2 (streq_iff x x) eq_refl) in Hin. discriminate Hin.
    + cbn [names_once] in Hn. clear -Hn. induction e as [|[y v] e IH]; cbn [filter map fst]; [constructor|].
      inversion Hn as [|? ? Hni Hn']; subst. destruct (negb _); [|now apply IH]. cbn [map fst]. constructor; [|now apply IH].
      intros Hin. apply Hni. apply in_map_iff in Hin as ([z u] & Ez & Hin). apply filter_In in Hin as [Hin _].
      apply in_map_iff. exists (z, u). split; assumption.
  - intros y. cbn [lookup_var bind_var find_entry]. unfold bind_one. change (same_name y x) with (streq y x). rewrite find_filter.
    destruct (streq y x); [exact Ho|]. exact (Hl y).
Qed.
Lemma copy_entries_rep l V : env_rep (Some l) V -> exists l', copy_entries l = Ok l' /\ env_rep (Some l') V.
Proof.
  intros [Hn Hl]. cbn [names_once] in Hn. cbn [lookup_var] in Hl.
  assert (K : exists l', copy_entries l = Ok l' /\ NoDup (map fst l') /\ incl (map fst l') (map fst l) /\
     forall x, In x (map fst l) -> result_rep (find_entry l' x) (V x)).
  { assert (Hl' : forall x, In x (map fst l) -> result_rep (find_entry l x) (V x)) by (intros x _; apply Hl). clear Hl.
    induction l as [|[x v] l IH]; [exists []; repeat split; [constructor|apply incl_refl|intros x []]|].
    inversion Hn as [|? ? Hni Hn']; subst. cbn [map fst] in Hl'.
    assert (Hrest : forall y, In y (map fst l) -> result_rep (find_entry l y) (V y)).
    { intros y Hy. specialize (Hl' y (or_intror Hy)). cbn [find_entry] in Hl'. destruct (streq y x) eqn:E; [|exact Hl'].
      apply streq_iff in E. subst y. contradiction. }
    destruct (IH Hn' Hrest) as (l' & E & Hnd & Hincl & Hf).
    specialize (Hl' x (or_introl eq_refl)). cbn [find_entry] in Hl'. rewrite (proj2 (streq_iff x x) eq_refl) in Hl'.
    cbn [copy_entries map fst]. destruct v as [a|].
    - destruct (acopy_rep _ _ Hl') as (b & Eb & Hb). rewrite Eb. cbn [bind]. rewrite E. cbn [bind].
      exists ((x, b) :: l'). repeat split.
      + cbn [map fst]. constructor; [intros Hin; apply Hni; now apply Hincl|exact Hnd].
      + cbn [map fst]. intros y [<-|Hy]; [now left|right; now apply Hincl].
      + intros y Hy. cbn [find_entry]. destruct (streq y x) eqn:E2; [apply streq_iff in E2; now subst y|].
        destruct Hy as [<-|Hy]; [rewrite (proj2 (streq_iff x x) eq_refl) in E2; discriminate E2|now apply Hf].
    - exists l'. repeat split; [exact E|exact Hnd|intros y Hy; right; now apply Hincl|].
      intros y [<-|Hy]; [|now apply Hf].
      assert (E2 : find_entry l' x = None).
      { assert (Hx : ~ In x (map fst l')) by (intros Hin; apply Hni; now apply Hincl). clear -Hx.
        induction l' as [|[z u] l' IH]; [reflexivity|]. cbn [find_entry]. destruct (streq x z) eqn:E.
        - apply streq_iff in E. subst z. exfalso. apply Hx. now left.
        - apply IH. intros Hin. apply Hx. now right. }
      rewrite E2. exact Hl'. }
  destruct K as (l' & E & Hnd & Hincl & Hf). exists l'. split; [exact E|]. split; [exact Hnd|]. intros x. cbn [lookup_var].
  destruct (in_dec (list_eq_dec Z.eq_dec) x (map fst l)) as [Hin|Hnot]; [now apply Hf|].
  assert (K : forall m, ~ In x (map fst m) -> find_entry m x = None).
  { clear. induction m as [|[z u] m IH]; intros Hx; [reflexivity|]. cbn [find_entry]. destruct (streq x z) eqn:E.
    - apply streq_iff in E. subst z. exfalso. apply Hx. now left.
    - apply IH. intros Hin. apply Hx. now right. }
  specialize (Hl x). rewrite K in Hl by assumption. rewrite K; [exact Hl|]. intros Hin. apply Hnot. now apply Hincl.
Qed.
Lemma copy_env_rep env V : env_rep env V ->
  exists l, (match env with Some e => copy_entries e | None => Ok [] end) = Ok l /\ env_rep (Some l) V.
Proof.
  destruct env as [e|]; [apply copy_entries_rep|]. intros [_ H]. exists []. split; [reflexivity|]. split; [constructor|exact H].
Qed.
