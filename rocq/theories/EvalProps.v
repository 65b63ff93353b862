(** Evaluation of expressions: agreement with the semantics, expressions that do
    not change the bundle, assignment, laziness, map and reduce (C57-C62). *)

From Coq Require Import String ZArith List Bool Lia.
From Verif Require Import Base BaseProofs Bytes UtilProofs TimetagModel WireSpec WireProofs SerialModel SerialSpec AtomSModel AtomUModel
  BundleSModel BundleSProofs BundleSProps ExprModel ExprListModel ExprSpec EvalModel EvalSpec EvalRep EvalBundle EvalProofs EvalSim
  EvalSteps EvalStdModel EvalStdSpec EvalStdProofs DeserProofs DeserProps AtomProps Text.
Import ListNotations.
Open Scope Z_scope.

(** A block from malloc has the size that was asked for. *)
Definition blocks (fresh : Z -> bytes) : Prop := forall n, 0 <= n -> zlen (fresh n) = n.

(** The evaluation of [e] comes to an end without undefined behaviour: given enough
    recursion it always gives the same code, a result that represents [o] and a
    bundle that represents [w']. *)
Definition ends table plain fresh (env : lexenv) (st : bst) (e : expr atom) (c : Z) (o : out) (w' : world) : Prop :=
  exists N o' st', (forall k, (N <= k)%nat -> eval_in table plain fresh k env st e = Ok (c, o', st')) /\
    result_rep o' o /\ bundle_rep st' w'.
Definition no_vars : vars := fun _ => None.

(** * C57: evaluation does what the semantics says *)

Theorem C57_agrees table plain sem fresh : blocks fresh -> implements plain sem ->
  forall V w e c o w', runs (selects true) table sem V w e c o w' ->
  forall env st e', env_rep env V -> bundle_rep st w -> expr_rep e' e ->
  ends table plain fresh env st e' c o w'.
Proof.
  intros Hf Hi V w e c o w' H env st e' He Hw Hr.
  destruct (simulation table plain fresh sem Hf Hi) as (_ & _ & _ & _ & _ & _ & _ & _ & S9).
  exact (S9 V w e c o w' H env st e' He Hw Hr).
Qed.
Print Assumptions C57_agrees.

Lemma no_vars_rep : env_rep None no_vars.
Proof. split; [exact I|]. intros x. constructor. Qed.

(** At the top level there are no variables. *)
Theorem C57_top table plain sem fresh : blocks fresh -> implements plain sem ->
  forall w e c o w', runs (selects true) table sem no_vars w e c o w' ->
  forall st e', bundle_rep st w -> expr_rep e' e ->
  exists N o' st', (forall k, (N <= k)%nat -> osc_expr_eval table plain fresh k st e' = Ok (c, o', st')) /\
    result_rep o' o /\ bundle_rep st' w'.
Proof.
  intros Hf Hi w e c o w' H st e' Hw Hr. exact (C57_agrees table plain sem fresh Hf Hi _ _ _ _ _ _ H None st e' no_vars_rep Hw Hr).
Qed.
Print Assumptions C57_top.

Lemma result_rep_fun a o1 : result_rep a o1 -> forall o2, result_rep a o2 -> o1 = o2.
Proof.
  intros [|l vs H1] o2 H2; inversion H2 as [|l' vs' H3]; subst; [reflexivity|]. f_equal. clear H2.
  revert vs' H3. induction H1 as [|x v l vs Ha _ IH]; intros vs' H3; inversion H3 as [|? v' ? vs2 Ha' H4]; subst; [reflexivity|].
  f_equal; [|exact (IH _ H4)]. destruct Ha as (_ & _ & <- & _). destruct Ha' as (_ & _ & <- & _). reflexivity.
Qed.

(** The semantics gives a represented expression one code and one result only. *)
Theorem C57_one_result table sem : (exists plain, implements plain sem) ->
  forall V w e c1 o1 w1 c2 o2 w2,
  runs (selects true) table sem V w e c1 o1 w1 -> runs (selects true) table sem V w e c2 o2 w2 ->
  forall env st e', env_rep env V -> bundle_rep st w -> expr_rep e' e -> c1 = c2 /\ o1 = o2.
Proof.
  intros [plain Hi] V w e c1 o1 w1 c2 o2 w2 H1 H2 env st e' He Hw Hr.
  pose (fresh := fun n => repeat 0 (Z.to_nat n)).
  assert (Hf : blocks fresh). { intros n Hn. unfold fresh, zlen. rewrite repeat_length. lia. }
  destruct (C57_agrees table plain sem fresh Hf Hi _ _ _ _ _ _ H1 env st e' He Hw Hr) as (N1 & r1 & s1 & E1 & R1 & _).
  destruct (C57_agrees table plain sem fresh Hf Hi _ _ _ _ _ _ H2 env st e' He Hw Hr) as (N2 & r2 & s2 & E2 & R2 & _).
  specialize (E1 (Nat.max N1 N2) (Nat.le_max_l _ _)). specialize (E2 (Nat.max N1 N2) (Nat.le_max_r _ _)).
  rewrite E1 in E2. injection E2 as Ec Eo Es. subst r2. split; [exact Ec|]. exact (result_rep_fun r1 o1 R1 o2 R2).
Qed.
Print Assumptions C57_one_result.

(** * C58: expressions that only ask do not change the bundle *)

Theorem C58_no_effect table plain fresh k env st e c o st' :
  quiet_expr e = true -> eval_in table plain fresh k env st e = Ok (c, o, st') -> st' = st.
Proof. apply quiet_in. Qed.
Print Assumptions C58_no_effect.

(** * C59: assignment *)

Definition all_plain (w : world) : Prop := Forall (fun '(M a _) => hd 0 a = 47 /\ Forall (fun c => ~ In c [0; 42]) a) (msgs w).
Definition addresses (ms : list message) : list (list Z) := map (fun '(M a _) => a) ms.

Lemma same_name_iff a b : same_name a b = true <-> a = b.
Proof. unfold same_name. destruct (list_eq_dec Z.eq_dec a b); split; intros; congruence. Qed.
Lemma plain_parts p : plain_name p -> hd 0 p = 47 /\ Forall (fun c => ~ In c [0; 42]) p.
Proof.
  intros [H1 H2]. split; [exact H1|]. apply (Forall_impl _ (P := fun c => ~ In c [0; 42; 63; 91; 93; 123; 125])); [|exact H2].
  intros c Hc Hi. apply Hc. cbn [In] in Hi |- *. tauto.
Qed.
Lemma find_store s vs p ms : plain_name s -> plain_name p ->
  Forall (fun '(M a _) => hd 0 a = 47 /\ Forall (fun c => ~ In c [0; 42]) a) ms ->
  option_map (fun '(M _ vs) => vs) (find (fun '(M a _) => selects true p a) (store s vs ms)) =
  if same_name p s then Some vs else option_map (fun '(M _ vs) => vs) (find (fun '(M a _) => selects true p a) ms).
Proof.
  intros Hs Hp. pose proof (plain_parts s Hs) as [S1 S2].
  assert (Hsel : forall a, hd 0 a = 47 -> Forall (fun c => ~ In c [0; 42]) a -> selects true p a = same_name p a).
  { intros a A1 A2. destruct (selects true p a) eqn:E; symmetry.
    - apply same_name_iff. now apply (selects_literal p a Hp A1 A2).
    - destruct (same_name p a) eqn:E2; [|reflexivity]. apply same_name_iff in E2.
      rewrite (proj2 (selects_literal p a Hp A1 A2) E2) in E. discriminate E. }
  induction ms as [|[a xs] ms IH]; intros Hms.
  - cbn [store find]. rewrite (Hsel s S1 S2). destruct (same_name p s); reflexivity.
  - inversion Hms as [|? ? HA Hms']; subst. destruct HA as [A1 A2]. specialize (IH Hms'). cbn [store]. destruct (same_name a s) eqn:Ea.
    + apply same_name_iff in Ea. subst a. cbn [find]. rewrite (Hsel s S1 S2).
      destruct (same_name p s) eqn:Eps; reflexivity.
    + cbn [find]. rewrite (Hsel a A1 A2). destruct (same_name p a) eqn:Epa.
      * apply same_name_iff in Epa. subst a. rewrite Ea. reflexivity.
      * exact IH.
Qed.
Lemma store_addresses s vs ms :
  addresses (store s vs ms) = if existsb (fun a => same_name a s) (addresses ms) then addresses ms else addresses ms ++ [s].
Proof.
  unfold addresses. induction ms as [|[a xs] ms IH]; [reflexivity|]. cbn [store map existsb].
  destruct (same_name a s) eqn:Ea; cbn [orb map].
  - apply same_name_iff in Ea. now subst a.
  - rewrite IH. destruct (existsb _ _); reflexivity.
Qed.

(** After /s = b the address /s reads as the result of b, every other address reads
    as before, and the messages keep their places; a new message comes last. *)
Theorem C59_assignment table plain sem fresh : blocks fresh -> implements plain sem ->
  forall V w s b o w1, plain_name s -> address_code s 0 -> all_plain w1 ->
  evals (selects true) table sem V w b 0 o w1 ->
  fits (with_msgs w1 (store s (values o) (msgs w1))) ->
  forall env st b' more, env_rep env V -> bundle_rep st w -> arg_rep b' b -> wf_bytes s -> zlen s + 4 < 2^32 ->
  Forall (fun a => exists v, arg_rep a v) more ->
  exists N o' st' w', (forall k, (N <= k)%nat ->
      eval_in table plain fresh k env st (Ex FAssign (AAddr s :: b' :: more)) = Ok (0, o', st')) /\
    result_rep o' o /\ bundle_rep st' w' /\ time w' = time w1 /\
    addresses (msgs w') = (if existsb (fun a => same_name a s) (addresses (msgs w1)) then addresses (msgs w1)
                           else addresses (msgs w1) ++ [s]) /\
    (exists r, eval_addr st' s = Ok (0, r) /\ result_rep r (Some (values o))) /\
    (forall p, plain_name p -> p <> s ->
       exists r, eval_addr st' p = Ok (match lookup (selects true) w1 p with Some _ => 0 | None => unbound end, r) /\
         result_rep r (lookup (selects true) w1 p)).
Proof.
  intros Hf Hi V w s b o w1 Hp Hc Hall Hev Hfits env st b' more He Hw Hb Hwf Hl Hmore.
  assert (Hm : exists more', Forall2 arg_rep more more').
  { clear -Hmore. induction Hmore as [|a more [v Hv] _ [l IH]]; [exists []; constructor|exists (v :: l); now constructor]. }
  destruct Hm as [more' Hm].
  assert (Hn : nonul s).
  { destruct Hp as [_ H]. unfold nonul. apply Forall_forall. intros c Hin Hz. rewrite Forall_forall in H. apply (H c Hin).
    left. symmetry. exact Hz. }
  assert (Hr : runs (selects true) table sem V w (Ex FAssign (AAddr s :: b :: more')) 0 o
     (with_msgs w1 (store s (values o) (msgs w1)))).
  { eapply R_assign; [apply T_address|exact Hc|exact Hev|exact Hfits]. }
  destruct (C57_agrees table plain sem fresh Hf Hi _ _ _ _ _ _ Hr env st (Ex FAssign (AAddr s :: b' :: more)) He Hw)
    as (N & o' & st' & E & Ro & Rw).
  { apply expr_rep_args. split; [reflexivity|]. constructor; [|constructor; [exact Hb|exact Hm]].
    cbn [arg_rep]. split; [reflexivity|]. split; [exact Hn|]. split; [exact Hwf|exact Hl]. }
  exists N, o', st', (with_msgs w1 (store s (values o) (msgs w1))).
  split; [exact E|]. split; [exact Ro|]. split; [exact Rw|]. split; [reflexivity|].
  split; [apply store_addresses|].
  assert (Hlook : forall p, plain_name p -> lookup (selects true) (with_msgs w1 (store s (values o) (msgs w1))) p =
    if same_name p s then Some (values o) else lookup (selects true) w1 p).
  { intros p Pp. unfold lookup. cbn [with_msgs msgs]. exact (find_store s (values o) p (msgs w1) Hp Pp Hall). }
  split.
  - destruct (eval_addr_rep st' _ s Rw) as (r & Er & Rr). rewrite (Hlook s Hp) in Er, Rr.
    rewrite (proj2 (same_name_iff s s) eq_refl) in Er, Rr. exists r. split; [exact Er|exact Rr].
  - intros p Pp Hne. destruct (eval_addr_rep st' _ p Rw) as (r & Er & Rr). rewrite (Hlook p Pp) in Er, Rr.
    destruct (same_name p s) eqn:E2; [apply same_name_iff in E2; contradiction|]. exists r. split; [exact Er|exact Rr].
Qed.
Print Assumptions C59_assignment.

(** * C60: if, andalso and orelse evaluate only what is needed *)

(** Only the branch that is taken is evaluated: the other one can be any argument,
    even one whose evaluation fails or is not defined. *)
Theorem C60_if table plain fresh k env st test yes no c t st1 x n :
  eval_arg (eval_in table plain fresh k) env st test = Ok (c, t, st1) -> c = 0 ->
  aget t 0 = Ok x -> int32_at x = Ok n ->
  forall other,
  (n <> 0 -> eval_in table plain fresh (S k) env st (Ex FIf [test; yes; no]) =
             eval_in table plain fresh (S k) env st (Ex FIf [test; yes; other])) /\
  (n = 0 -> eval_in table plain fresh (S k) env st (Ex FIf [test; yes; no]) =
            eval_in table plain fresh (S k) env st (Ex FIf [test; other; no])) /\
  (n = 0 -> eval_in table plain fresh (S k) env st (Ex FIf [test; yes]) = Ok (0, Some [], st1)).
Proof.
  intros E -> E1 E2 other. cbn [eval_in ev_expr]. unfold ev_if. rewrite E. cbn [bind Z.eqb negb]. rewrite E1. cbn [bind].
  rewrite E2. cbn [bind]. split; [|split]; intros Hn.
  - apply Z.eqb_neq in Hn. rewrite Hn. reflexivity.
  - apply Z.eqb_eq in Hn. rewrite Hn. reflexivity.
  - apply Z.eqb_eq in Hn. rewrite Hn. reflexivity.
Qed.
Print Assumptions C60_if.

(** The second argument of andalso and orelse is only looked at if the first one
    does not decide. *)
Theorem C60_shortcut table plain fresh V w (isor : bool) a b vs w1 sem :
  blocks fresh -> implements plain sem ->
  evals (selects true) table sem V w a 0 (Some (truth isor :: vs)) w1 ->
  forall env st a' b', env_rep env V -> bundle_rep st w -> arg_rep a' a -> arg_rep b' b ->
  ends table plain fresh env st (Ex (if isor then FOrelse else FAndalso) [a'; b']) 0 (Some [truth isor]) w1.
Proof.
  intros Hf Hi H env st a' b' He Hw Ha Hb.
  apply (C57_agrees table plain sem fresh Hf Hi V w (Ex (if isor then FOrelse else FAndalso) [a; b]));
    [|exact He|exact Hw|apply expr_rep_args; split; [reflexivity|repeat (constructor; try assumption)]].
  destruct isor; [eapply R_orelse_true|eapply R_andalso_false]; exact H.
Qed.
Print Assumptions C60_shortcut.
Theorem C60_decides table plain fresh V w (isor : bool) a b vs w1 r vs' w2 sem :
  blocks fresh -> implements plain sem ->
  evals (selects true) table sem V w a 0 (Some (truth (negb isor) :: vs)) w1 ->
  evals (selects true) table sem V w1 b 0 (Some (truth r :: vs')) w2 ->
  forall env st a' b', env_rep env V -> bundle_rep st w -> arg_rep a' a -> arg_rep b' b ->
  ends table plain fresh env st (Ex (if isor then FOrelse else FAndalso) [a'; b']) 0 (Some [truth r]) w2.
Proof.
  intros Hf Hi H1 H2 env st a' b' He Hw Ha Hb.
  apply (C57_agrees table plain sem fresh Hf Hi V w (Ex (if isor then FOrelse else FAndalso) [a; b]));
    [|exact He|exact Hw|apply expr_rep_args; split; [reflexivity|repeat (constructor; try assumption)]].
  destruct isor; cbn [negb] in H1; [eapply R_orelse|eapply R_andalso]; eassumption.
Qed.
Print Assumptions C60_decides.

(** * C61: map and reduce *)

Lemma rows_one l : rows [l] = map (fun x => [x]) l.
Proof.
  unfold rows, shortest. cbn [fold_left map].
  assert (G : forall l1 l2 : list value, map (fun i => [nth i (l1 ++ l2) (VFlag 78)]) (seq (length l1) (length l2)) = map (fun x => [x]) l2).
  { intros l1 l2. revert l1. induction l2 as [|x l2 IH]; intros l1; [reflexivity|]. cbn [length seq map]. f_equal.
    - now rewrite nth_middle.
    - replace (S (length l1)) with (length (l1 ++ [x])) by (rewrite app_length; cbn [length]; lia).
      rewrite <- (IH (l1 ++ [x])). rewrite <- app_assoc. reflexivity. }
  exact (G [] l).
Qed.
Lemma rows_two l m : rows [l; m] = map (fun '(x, y) => [x; y]) (combine l m).
Proof.
  unfold rows, shortest. cbn [fold_left map].
  assert (G : forall l2 m2 l1 m1 : list value, length l1 = length m1 ->
    map (fun i => [nth i (l1 ++ l2) (VFlag 78); nth i (m1 ++ m2) (VFlag 78)]) (seq (length l1) (Nat.min (length l2) (length m2)))
    = map (fun '(x, y) => [x; y]) (combine l2 m2)).
  { induction l2 as [|x l2 IH]; intros m2 l1 m1 Hl; [reflexivity|]. destruct m2 as [|y m2]; [reflexivity|].
    cbn [length Nat.min seq map combine]. f_equal.
    - rewrite nth_middle, Hl, nth_middle. reflexivity.
    - replace (S (length l1)) with (length (l1 ++ [x])) by (rewrite app_length; cbn [length]; lia).
      rewrite <- (IH m2 (l1 ++ [x]) (m1 ++ [y])); [rewrite <- !app_assoc; reflexivity|rewrite !app_length, Hl; reflexivity]. }
  exact (G l m [] [] eq_refl).
Qed.

Section Higher.
Context (table : list Z -> option fn) (plain : list Z -> list arr -> res (Z * arr)) (fresh : Z -> bytes)
  (sem : list Z -> list out -> option (Z * out)) (Hf : blocks fresh) (Hi : implements plain sem).
Notation runs := (runs (selects true) table sem).
Notation evals := (evals (selects true) table sem).
Notation collects := (collects (selects true) table sem).

(** If the function [f] applied to the members [r] gives [g r], then map gives the
    results one after the other. *)
Theorem C61_map V w f a args os w1 g : no_list f = true ->
  collects V w (a :: args) 0 os w1 -> Forall (fun o => zlen (values o) < 2^31) os ->
  (forall r, In r (rows (map values os)) -> exists c, runs V w1 (Ex FApply (f :: map AAtom r)) c (Some (g r)) w1) ->
  forall env st f' a' args', env_rep env V -> bundle_rep st w -> arg_rep f' f -> arg_rep a' a -> Forall2 arg_rep args' args ->
  ends table plain fresh env st (Ex FMap (f' :: a' :: args')) 0 (Some (flat_map g (rows (map values os)))) w1.
Proof.
  intros Hn Hc Hl Hg env st f' a' args' He Hw Rf Ra Rs.
  apply (C57_agrees table plain sem fresh Hf Hi V w (Ex FMap (f :: a :: args)));
    [|exact He|exact Hw|apply expr_rep_args; split; [reflexivity|constructor; [exact Rf|constructor; assumption]]].
  replace (flat_map g (rows (map values os))) with (concat (map values (map (fun r => Some (g r)) (rows (map values os)))))
    by (rewrite map_map, flat_map_concat_map; reflexivity).
  eapply R_map; [exact Hn|exact Hc|exact Hl|]. clear -Hg. revert Hg. generalize (rows (map values os)).
  induction l as [|r rs IH]; intros Hg; [constructor|]. cbn [map].
  destruct (Hg r (or_introl eq_refl)) as [c Hr]. econstructor; [exact Hr|]. apply IH. intros r' Hin. exact (Hg r' (or_intror Hin)).
Qed.

(** If [f] applied to the value so far and the next member always gives the value
    [g] of them, lreduce is [fold_left] and rreduce is [fold_right]. *)
Context (V : vars) (w : world) (f : arg value) (g : value -> value -> value).
Context (Hn : no_list f = true).
Definition gives (x y : value) : Prop := exists c, runs V w (Ex FApply [f; AAtom x; AAtom y]) c (Some [g x y]) w.
Definition left_steps (v : value) (l : list value) : Prop :=
  forall ys y zs, l = ys ++ y :: zs -> gives (fold_left g ys v) y.
Definition right_steps (v : value) (l : list value) : Prop :=
  forall ys y zs, l = ys ++ y :: zs -> gives y (fold_right g v zs).

Lemma folds_left xs : forall a, left_steps a xs ->
  folds (selects true) table sem false V w f (Some [a]) xs (Some [fold_left g xs a]) w.
Proof.
  induction xs as [|x xs IH]; intros a Ha; [constructor|]. cbn [fold_left]. destruct (Ha [] x xs eq_refl) as [c Hc].
  eapply F_cons; [exact Hc|]. apply IH. intros ys y zs E. exact (Ha (x :: ys) y zs (f_equal (cons x) E)).
Qed.
Lemma folds_right xs : forall a, right_steps a (rev xs) ->
  folds (selects true) table sem true V w f (Some [a]) xs (Some [fold_right g a (rev xs)]) w.
Proof.
  induction xs as [|x xs IH]; intros a Ha; [constructor|]. cbn [rev] in *. rewrite fold_right_app.
  destruct (Ha (rev xs) x [] eq_refl) as [c Hc]. cbn [fold_right] in *. eapply F_cons; [exact Hc|]. apply IH.
  intros ys y zs E. specialize (Ha ys y (zs ++ [x])). rewrite fold_right_app in Ha. apply Ha. rewrite E.
  rewrite <- app_assoc. reflexivity.
Qed.

Theorem C61_lreduce a x xs c : evals V w a c (Some (x :: xs)) w -> c <> unbound -> left_steps x xs ->
  forall env st f' a', env_rep env V -> bundle_rep st w -> arg_rep f' f -> arg_rep a' a ->
  ends table plain fresh env st (Ex FLreduce [f'; a']) 0 (Some [fold_left g xs x]) w.
Proof.
  intros He Hu Hall env st f' a' Ee Hw Rf Ra.
  apply (C57_agrees table plain sem fresh Hf Hi V w (Ex FLreduce [f; a]));
    [|exact Ee|exact Hw|apply expr_rep_args; split; [reflexivity|repeat (constructor; try assumption)]].
  destruct xs as [|y xs].
  - exact (R_reduce_one _ _ _ false V w f a c x w Hn He Hu).
  - pose proof (folds_left (y :: xs) x Hall) as H. inversion H; subst.
    eapply (R_reduce _ _ _ false); [exact Hn|exact He|exact Hu|reflexivity|eassumption|eassumption].
Qed.
Theorem C61_lreduce_from a b v vs x xs c c1 : evals V w a c (Some (x :: xs)) w -> c <> unbound ->
  evals V w b c1 (Some (v :: vs)) w -> c1 <> unbound -> left_steps v (x :: xs) ->
  forall env st f' a' b', env_rep env V -> bundle_rep st w -> arg_rep f' f -> arg_rep a' a -> arg_rep b' b ->
  ends table plain fresh env st (Ex FLreduce [f'; a'; b']) 0 (Some [fold_left g (x :: xs) v]) w.
Proof.
  intros He Hu Hb Hu1 Hall env st f' a' b' Ee Hw Rf Ra Rb.
  apply (C57_agrees table plain sem fresh Hf Hi V w (Ex FLreduce [f; a; b]));
    [|exact Ee|exact Hw|apply expr_rep_args; split; [reflexivity|repeat (constructor; try assumption)]].
  pose proof (folds_left (x :: xs) v Hall) as H. inversion H; subst.
  eapply (R_reduce_from _ _ _ false); [exact Hn|exact He|exact Hu|reflexivity|exact Hb|exact Hu1|eassumption|eassumption].
Qed.
Theorem C61_rreduce a xs x c : evals V w a c (Some (xs ++ [x])) w -> c <> unbound -> right_steps x xs ->
  forall env st f' a', env_rep env V -> bundle_rep st w -> arg_rep f' f -> arg_rep a' a ->
  ends table plain fresh env st (Ex FRreduce [f'; a']) 0 (Some [fold_right g x xs]) w.
Proof.
  intros He Hu Hall env st f' a' Ee Hw Rf Ra.
  apply (C57_agrees table plain sem fresh Hf Hi V w (Ex FRreduce [f; a]));
    [|exact Ee|exact Hw|apply expr_rep_args; split; [reflexivity|repeat (constructor; try assumption)]].
  rewrite <- (rev_involutive xs) in He, Hall |- *. revert He Hall. generalize (rev xs). clear xs. intros ys He Hall.
  destruct ys as [|y ys].
  - exact (R_reduce_one _ _ _ true V w f a c x w Hn He Hu).
  - pose proof (folds_right (y :: ys) x Hall) as H. inversion H; subst.
    eapply (R_reduce _ _ _ true); [exact Hn|exact He|exact Hu| |eassumption|eassumption].
    cbn [met]. rewrite rev_app_distr, rev_involutive. reflexivity.
Qed.
Theorem C61_rreduce_from a b v vs xs x c c1 : evals V w a c (Some (xs ++ [x])) w -> c <> unbound ->
  evals V w b c1 (Some (v :: vs)) w -> c1 <> unbound -> right_steps v (xs ++ [x]) ->
  forall env st f' a' b', env_rep env V -> bundle_rep st w -> arg_rep f' f -> arg_rep a' a -> arg_rep b' b ->
  ends table plain fresh env st (Ex FRreduce [f'; a'; b']) 0 (Some [fold_right g v (xs ++ [x])]) w.
Proof.
  intros He Hu Hb Hu1 Hall env st f' a' b' Ee Hw Rf Ra Rb.
  apply (C57_agrees table plain sem fresh Hf Hi V w (Ex FRreduce [f; a; b]));
    [|exact Ee|exact Hw|apply expr_rep_args; split; [reflexivity|repeat (constructor; try assumption)]].
  assert (E : xs ++ [x] = rev (x :: rev xs)) by (cbn [rev]; now rewrite rev_involutive).
  rewrite E in Hall |- *. pose proof (folds_right (x :: rev xs) v Hall) as H. inversion H; subst.
  eapply (R_reduce_from _ _ _ true); [exact Hn|exact He|exact Hu| |exact Hb|exact Hu1|eassumption|eassumption].
  cbn [met]. rewrite E, rev_involutive. reflexivity.
Qed.
End Higher.
Print Assumptions C61_map.
Print Assumptions C61_lreduce.
Print Assumptions C61_lreduce_from.
Print Assumptions C61_rreduce.
Print Assumptions C61_rreduce_from.

(** * C62: the functions of the table *)

Theorem C62_functions E name os os' c o : Forall2 result_rep os os' -> std_sem name os' = Some (c, o) ->
  exists o', std_plain E name os = Ok (c, o') /\ result_rep o' o.
Proof. exact (std_implements E name os os' c o). Qed.
Print Assumptions C62_functions.

(** The names mean what they should. *)
Lemma one_of_in name l : one_of name l = true -> In name (map str l).
Proof.
  unfold one_of. intros H. apply existsb_exists in H. destruct H as (x & Hx & E). apply same_name_iff in E. now subst x.
Qed.
Theorem C62_names name f : meaning name = Some f -> std_table name = Some f.
Proof.
  unfold meaning, number_fn, test_fn, list_fn. intros H.
  repeat match type of H with
  | (if one_of name ?l then _ else _) = _ =>
      let E := fresh "E" in destruct (one_of name l) eqn:E;
      [apply one_of_in in E; injection H as <-; cbn [map In] in E;
       repeat (destruct E as [<-|E]; [vm_compute; reflexivity|]); contradiction|]
  end.
  repeat match type of H with
  | context [one_of name ?l] =>
      let E := fresh "E" in destruct (one_of name l) eqn:E;
      [apply one_of_in in E; cbn [map In] in E;
       repeat match type of H with context [if ?b then _ else _] => destruct b end; injection H as <-;
       repeat (destruct E as [<-|E]; [vm_compute; reflexivity|]); contradiction|]
  end.
  discriminate H.
Qed.
Print Assumptions C62_names.

Theorem C62_agrees E fresh : blocks fresh -> forall V w e c o w', runs (selects true) std_table std_sem V w e c o w' ->
  forall env st e', env_rep env V -> bundle_rep st w -> expr_rep e' e ->
  ends std_table (std_plain E) fresh env st e' c o w'.
Proof. intros Hf. exact (C57_agrees std_table (std_plain E) std_sem fresh Hf (std_implements E)). Qed.
Print Assumptions C62_agrees.

(** * Examples *)

Definition num (n : Z) : value := VNum32 105 n.
Definition zero_blocks (n : Z) : bytes := repeat 0 (Z.to_nat n).
Lemma zero_blocks_ok : blocks zero_blocks.
Proof. intros n Hn. unfold zero_blocks, zlen. rewrite repeat_length. lia. Qed.

(** The bundle with /x [1 2 3]. *)
Definition w0 : world := W (1, 2) [M (str "/x") [num 1; num 2; num 3]].
Definition st0 : bst :=
  let b := header (1, 2) ++ concat (map enc_message (msgs w0)) in Bst (zlen b) (Some b) 0.
Lemma st0_rep : bundle_rep st0 w0.
Proof.
  exists (msgs w0), []. split; [rewrite app_nil_r; reflexivity|]. split; [reflexivity|]. split; [split; vm_compute; congruence|].
  split; [split; vm_compute; congruence|]. split; [|split; [reflexivity|vm_compute; reflexivity]].
  constructor; [|constructor]. unfold std_message. repeat split; try (vm_compute; congruence).
  - unfold nonul. repeat constructor; vm_compute; congruence.
  - unfold wf_bytes, is_byte. repeat constructor; vm_compute; congruence.
  - cbn [In]. tauto.
  - cbn [In]. tauto.
  - cbn [In]. tauto.
Qed.

Lemma lit_num n : 0 <= n < 2^32 -> stands (obj_of (num n)) (num n).
Proof.
  intros Hn. apply (stands_obj (num n)).
  - unfold num. cbn [std_value]. split; [cbn [In]; tauto|exact Hn].
  - reflexivity.
Qed.
Lemma lit_x : stands (obj_of (VStr (str "x"))) (VStr (str "x")).
Proof.
  apply (stands_obj (VStr (str "x"))); [|reflexivity]. cbn [std_value].
  split; [unfold nonul|unfold wf_bytes, is_byte]; repeat constructor; vm_compute; congruence.
Qed.
Lemma addr_ok (s : list Z) : forallb (fun c => (0 <? c) && (c <? 256)) s = true -> zlen s + 4 < 2^32 -> arg_rep (AAddr s) (AAddr s).
Proof.
  intros H Hl. rewrite forallb_forall in H. cbn [arg_rep]. split; [reflexivity|]. unfold nonul, wf_bytes, is_byte.
  split; [|split; [|exact Hl]]; apply Forall_forall; intros c Hc; specialize (H c Hc); apply andb_prop in H;
    destruct H as [H1 H2]; apply Z.ltb_lt in H1; apply Z.ltb_lt in H2; lia.
Qed.

(** /y = map(lambda([x], x * x), /x) *)
Definition square {A} (x : A) : arg A := AFun [str "x"] [Ex (FCall (str "*")) [AAtom x; AAtom x]].
Definition program {A} (x : A) : expr A := Ex FAssign [AAddr (str "/y"); AExpr (Ex FMap [square x; AAddr (str "/x")])].
Definition w1 : world := W (1, 2) [M (str "/x") [num 1; num 2; num 3]; M (str "/y") [num 1; num 4; num 9]].

Lemma square_runs n : 0 <= n < 2^10 -> 
  runs (selects true) std_table std_sem no_vars w0 (Ex FApply [square (VStr (str "x")); AAtom (num n)]) 0 (Some [num (n * n)]) w0.
Proof.
  intros Hn. eapply (R_apply _ _ _ no_vars w0 [str "x"] _ [AAtom (num n)] [Some [num n]] w0).
  - cbn [length firstn]. eapply L_cons; [apply E_literal; exact I|discriminate|apply L_nil].
  - cbn [bind_all]. apply S_last. eapply R_call.
    + eapply A_cons; [apply E_variable; reflexivity|]. eapply A_cons; [apply E_variable; reflexivity|]. apply A_nil.
    + assert (E : number_fn (str "*") = Some Z.mul) by reflexivity. unfold std_sem. rewrite E.
      cbn [map values concat app zlen length int32s num option_map matched forallb fst snd].
      change (zlen [VNum32 105 n; VNum32 105 n] <? 2^31) with true. cbn [negb].
      assert (Es : s32 n = n) by (apply s32_id; lia). rewrite Es.
      assert (Ei : is_int32 (n * n) = true) by (unfold is_int32; apply andb_true_intro; split; [apply Z.leb_le|apply Z.ltb_lt]; nia).
      rewrite Ei. cbn [andb]. unfold num, int32. rewrite Z.mod_small by nia. reflexivity.
Qed.

Example program_runs : runs (selects true) std_table std_sem no_vars w0 (program (VStr (str "x"))) 0
  (Some [num 1; num 4; num 9]) w1.
Proof.
  eapply (R_assign _ _ _ no_vars w0 (AAddr (str "/y")) (AExpr (Ex FMap [square (VStr (str "x")); AAddr (str "/x")])) []
    (str "/y") w0 (Some [num 1; num 4; num 9]) w0).
  - apply T_address.
  - apply good_address; [reflexivity|vm_compute; congruence| |]; cbn; intros H; repeat destruct H as [H|H]; try discriminate H; exact H.
  - apply E_expr. eapply (R_map _ _ _ no_vars w0 (square (VStr (str "x"))) (AAddr (str "/x")) [] [Some [num 1; num 2; num 3]] w0
      [Some [num 1]; Some [num 4]; Some [num 9]] w0).
    + reflexivity.
    + eapply L_cons; [apply E_address; vm_compute; reflexivity|discriminate|apply L_nil].
    + constructor; [vm_compute; reflexivity|constructor].
    + cbn [map values]. rewrite rows_one. cbn [map].
      eapply M_cons; [exact (square_runs 1 ltac:(lia))|]. eapply M_cons; [exact (square_runs 2 ltac:(lia))|].
      eapply M_cons; [exact (square_runs 3 ltac:(lia))|]. apply M_nil.
  - unfold fits. vm_compute. reflexivity.
Qed.
(** The evaluator carries it out: C57 and C62 apply to it. *)
Example program_ends E : ends std_table (std_plain E) zero_blocks None st0 (program (obj_of (VStr (str "x")))) 0
  (Some [num 1; num 4; num 9]) w1.
Proof.
  apply (C62_agrees E zero_blocks zero_blocks_ok no_vars w0 (program (VStr (str "x")))).
  - exact program_runs.
  - exact no_vars_rep.
  - exact st0_rep.
  - apply expr_rep_args. split; [reflexivity|]. constructor; [apply addr_ok; reflexivity|]. constructor; [|constructor].
    cbn [arg_rep]. apply expr_rep_args. split; [reflexivity|]. constructor; [|constructor; [apply addr_ok; reflexivity|constructor]].
    apply arg_rep_fun. split; [reflexivity|]. constructor; [|constructor]. apply expr_rep_args. split; [reflexivity|].
    constructor; [exact lit_x|constructor; [exact lit_x|constructor]].
Qed.
(** C58: asking for the values is quiet, the assignment is not. *)
Example quiet_example : quiet_expr (Ex FMap [square (VStr (str "x")); AAddr (str "/x")]) = true /\
  quiet_expr (program (VStr (str "x"))) = false.
Proof. split; reflexivity. Qed.
(** C59: the addresses are plain. *)
Example plain_example : plain_name (str "/y") /\ all_plain w0.
Proof.
  split.
  - split; [reflexivity|]. repeat constructor; cbn; intros H; repeat destruct H as [H|H]; try discriminate H; exact H.
  - constructor; [|constructor]. split; [reflexivity|]. repeat constructor; cbn; intros H; repeat destruct H as [H|H]; try discriminate H; exact H.
Qed.

(** lreduce("+", /x) is 6. *)
Definition plus (x y : value) : value :=
  match x, y with VNum32 105 a, VNum32 105 b => num (a + b) | _, _ => num 0 end.
Lemma plus_gives a b : 0 <= a < 2^20 -> 0 <= b < 2^20 ->
  gives std_table std_sem no_vars w0 (AAtom (VStr (str "+"))) plus (num a) (num b).
Proof.
  intros Ha Hb. exists 0. eapply R_apply_name; [reflexivity|]. eapply R_call.
  - eapply A_cons; [apply E_literal; exact I|]. eapply A_cons; [apply E_literal; exact I|]. apply A_nil.
  - assert (E : number_fn (str "+") = Some Z.add) by reflexivity. unfold std_sem. rewrite E.
    cbn [map values concat app zlen length int32s num option_map matched forallb fst snd plus].
    change (zlen [num a; num b] <? 2^31) with true. cbn [negb].
    assert (Es : s32 a = a) by (apply s32_id; lia). rewrite Es.
    assert (Es2 : s32 b = b) by (apply s32_id; lia). rewrite Es2.
    assert (Ei : is_int32 (a + b) = true) by (unfold is_int32; apply andb_true_intro; split; [apply Z.leb_le|apply Z.ltb_lt]; lia).
    rewrite Ei. cbn [andb]. unfold num, int32. rewrite Z.mod_small by lia. reflexivity.
Qed.
Example reduce_ends E : ends std_table (std_plain E) zero_blocks None st0
  (Ex FLreduce [AAtom (obj_of (VStr (str "+"))); AAddr (str "/x")]) 0 (Some [num 6]) w0.
Proof.
  eapply (C61_lreduce std_table (std_plain E) zero_blocks std_sem zero_blocks_ok (std_implements E) no_vars w0
    (AAtom (VStr (str "+"))) plus eq_refl (AAddr (str "/x")) (num 1) [num 2; num 3] 0).
  - apply E_address. vm_compute. reflexivity.
  - discriminate.
  - intros [|y1 [|y2 [|y3 ys]]] y zs H; injection H; intros; subst; try discriminate.
    + exact (plus_gives 1 2 ltac:(lia) ltac:(lia)).
    + exact (plus_gives 3 3 ltac:(lia) ltac:(lia)).
  - exact no_vars_rep.
  - exact st0_rep.
  - cbn [arg_rep]. apply (stands_obj (VStr (str "+"))); [|reflexivity]. cbn [std_value].
    split; [unfold nonul|unfold wf_bytes, is_byte]; repeat constructor; vm_compute; congruence.
  - apply addr_ok; reflexivity.
Qed.

(** * What goes wrong *)

(** A test without values makes if write outside of its array. *)
Theorem C60_empty_test_refuted table plain fresh k env st test yes no st1 :
  eval_arg (eval_in table plain fresh k) env st test = Ok (0, Some [], st1) ->
  eval_in table plain fresh (S k) env st (Ex FIf [test; yes; no]) = Ub OOB.
Proof. intros E. cbn [eval_in ev_expr]. unfold ev_if. rewrite E. reflexivity. Qed.
Print Assumptions C60_empty_test_refuted.

(** A function with a list constant is not the same to apply and to map: map
    works with a copy of the function without the constant.  Applied to 5,
    lambda([x], length([1, 2])) gives 2, mapped over [5] it gives 0. *)
Definition with_constant : arg atom :=
  AFun [str "x"] [Ex (FCall (str "length")) [AList (Some [obj_of (num 1); obj_of (num 2)])]].
Theorem C61_constant_refuted E fresh st k : (4 <= k)%nat ->
  (exists a, eval_in std_table (std_plain E) fresh k None st (Ex FApply [with_constant; AAtom (obj_of (num 5))])
     = Ok (0, Some [a], st) /\ stands a (num 2)) /\
  (exists a, eval_in std_table (std_plain E) fresh k None st (Ex FMap [with_constant; AList (Some [obj_of (num 5)])])
     = Ok (0, Some [a], st) /\ stands a (num 0)).
Proof.
  intros Hk. destruct k as [|[|[|[|k]]]]; try lia. split.
  - eexists. split; [vm_compute; reflexivity|]. exact (stands_int32 2).
  - eexists. split; [vm_compute; reflexivity|]. exact (stands_int32 0).
Qed.
Print Assumptions C61_constant_refuted.

(** /x[[0]] = (/z = 7): the assignment to /z moves the bundle, and the message of /x
    is then replaced where it was before. *)
Definition moving : expr atom :=
  Ex FAssignIndex [AAddr (str "/x"); AAtom (obj_of (num 0)); AExpr (Ex FAssign [AAddr (str "/z"); AAtom (obj_of (num 7))])].
Theorem C59_moved_refuted E : osc_expr_eval std_table (std_plain E) zero_blocks 5 st0 moving = Ub Dangling.
Proof. vm_compute. reflexivity. Qed.
Print Assumptions C59_moved_refuted.

(** Assignment to an index of a pattern gives the message the pattern as address. *)
Theorem C59_pattern_refuted E : ends std_table (std_plain E) zero_blocks None st0
  (Ex FAssignIndex [AAddr (str "/*"); AAtom (obj_of (num 0)); AAtom (obj_of (num 7))]) 0 (Some [num 7; num 2; num 3])
  (W (1, 2) [M (str "/*") [num 7; num 2; num 3]]).
Proof.
  apply (C62_agrees E zero_blocks zero_blocks_ok no_vars w0 (Ex FAssignIndex [AAddr (str "/*"); AAtom (num 0); AAtom (num 7)])).
  - assert (Ew : W (1, 2) [M (str "/*") [num 7; num 2; num 3]] =
      with_msgs w0 (overwrite (selects true) (str "/*") [num 7; num 2; num 3] (msgs w0))) by (vm_compute; reflexivity).
    rewrite Ew. apply (R_index (selects true) std_table std_sem no_vars w0 (str "/*") (AAtom (num 0)) (AAtom (num 7)) [num 1; num 2; num 3] 0 [num 0] [0] 0 [num 7]);
      [reflexivity|reflexivity|reflexivity|vm_compute; reflexivity|apply E_literal; exact I|discriminate|apply E_literal; exact I
      |discriminate|reflexivity|discriminate|discriminate| |vm_compute; reflexivity].
    intros H. exfalso. vm_compute in H. discriminate H.
  - exact no_vars_rep.
  - exact st0_rep.
  - apply expr_rep_args. split; [reflexivity|]. constructor; [apply addr_ok; reflexivity|].
    constructor; [exact (lit_num 0 ltac:(lia))|]. constructor; [exact (lit_num 7 ltac:(lia))|constructor].
Qed.
Print Assumptions C59_pattern_refuted.

(** A string equal to the name of a variable is replaced by its value, also if it
    is data: with lambda([x], list(x)), the string x passed for another
    parameter cannot be told from the variable. *)
Theorem C57_capture_refuted E fresh st k : (3 <= k)%nat ->
  exists a, eval_in std_table (std_plain E) fresh k None st
    (Ex FApply [AFun [str "x"] [Ex (FCall (str "list")) [AAtom (obj_of (VStr (str "x")))]]; AAtom (obj_of (num 5))])
     = Ok (0, Some [a], st) /\ stands a (num 5).
Proof.
  intros Hk. destruct k as [|[|[|k]]]; try lia. eexists. split; [vm_compute; reflexivity|]. exact (lit_num 5 ltac:(lia)).
Qed.
Print Assumptions C57_capture_refuted.
