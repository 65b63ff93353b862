(** Every rule of the semantics is a step of the evaluator (C57). *)

From Coq Require Import ZArith List Bool Lia.
From Verif Require Import Base BaseProofs Bytes UtilModel TimetagModel WireSpec SerialModel SerialSpec AtomSModel
  AtomUModel WireModel WireProofs WireProps BundleSModel BundleSProofs BundleSProps ExprModel ExprListModel ExprSpec
  ExprProps ExprListProofs ExprListProps DeserProofs DeserProps EvalModel EvalSpec EvalRep EvalBundle EvalProofs EvalSim.
Import ListNotations.
Open Scope Z_scope.

(** The ordinary functions compute what [sem] says, whenever it says something. *)
Definition implements (plain : list Z -> list arr -> res (Z * arr)) (sem : list Z -> list out -> option (Z * out)) : Prop :=
  forall name os os' c o, Forall2 result_rep os os' -> sem name os' = Some (c, o) ->
    exists o', plain name os = Ok (c, o') /\ result_rep o' o.

Scheme evals_mut := Minimality for evals Sort Prop
with evals_all_mut := Minimality for evals_all Sort Prop
with collects_mut := Minimality for collects Sort Prop
with sequence_mut := Minimality for sequence Sort Prop
with maps_mut := Minimality for maps Sort Prop
with folds_mut := Minimality for folds Sort Prop
with target_mut := Minimality for target Sort Prop
with asked_mut := Minimality for asked Sort Prop
with runs_mut := Minimality for runs Sort Prop.
Combined Scheme semantics_mut from evals_mut, evals_all_mut, collects_mut, sequence_mut, maps_mut, folds_mut,
  target_mut, asked_mut, runs_mut.

Section Steps.
Context (table : list Z -> option fn) (plain : list Z -> list arr -> res (Z * arr)) (fresh : Z -> bytes)
  (sem : list Z -> list out -> option (Z * out)).
Context (Hfresh : forall n, 0 <= n -> zlen (fresh n) = n) (Himpl : implements plain sem).
Notation matches := (selects true).
Notation rec := (eval_in table plain fresh).
Notation evals := (evals matches table sem).
Notation runs := (runs matches table sem).

Definition PE (V : vars) (w : world) (a : arg value) (c : Z) (o : out) (w' : world) : Prop :=
  forall env st a', env_rep env V -> bundle_rep st w -> arg_rep a' a ->
  exists N o' st', (forall k, (N <= k)%nat -> eval_arg (rec k) env st a' = Ok (c, o', st')) /\ result_rep o' o /\ bundle_rep st' w'.
Definition PR (V : vars) (w : world) (e : expr value) (c : Z) (o : out) (w' : world) : Prop :=
  forall env st e', env_rep env V -> bundle_rep st w -> expr_rep e' e ->
  exists N o' st', (forall k, (N <= k)%nat -> rec k env st e' = Ok (c, o', st')) /\ result_rep o' o /\ bundle_rep st' w'.
Definition PA (V : vars) (w : world) (args : list (arg value)) (c : Z) (os : list out) (w' : world) : Prop :=
  forall env st args', env_rep env V -> bundle_rep st w -> Forall2 arg_rep args' args ->
  exists N os' st', (forall k, (N <= k)%nat -> eval_args (rec k) env st args' = Ok (c, os', st')) /\
    (c = 0 -> Forall2 result_rep os' os) /\ bundle_rep st' w'.
Definition PL (V : vars) (w : world) (args : list (arg value)) (c : Z) (os : list out) (w' : world) : Prop :=
  forall env st args', env_rep env V -> bundle_rep st w -> Forall2 arg_rep args' args ->
  exists N os' st', (forall k, (N <= k)%nat -> collect (rec k) env st args' = Ok (c, os', st')) /\
    (c = 0 -> Forall2 result_rep os' os) /\ (c = 0 \/ c = unbound) /\ bundle_rep st' w'.
Definition PS (V : vars) (w : world) (body : list (expr value)) (c : Z) (o : out) (w' : world) : Prop :=
  forall env st body', env_rep env V -> bundle_rep st w -> Forall2 expr_rep body' body ->
  exists N o' st', (forall k, (N <= k)%nat -> eval_body (rec k) env st body' = Ok (c, o', st')) /\ result_rep o' o /\ bundle_rep st' w'.
Definition PM (V : vars) (w : world) (f : arg value) (rs : list (list value)) (outs : list out) (w' : world) : Prop :=
  forall env st f' os os' i n, env_rep env V -> bundle_rep st w -> arg_rep f' f -> Forall2 result_rep os os' ->
  Forall (fun l => (i + n <= length l)%nat) (map values os') -> rs = map (nth_row (map values os')) (seq i n) ->
  exists N outs' st', (forall k, (N <= k)%nat -> map_calls (rec k) env f' os n (Z.of_nat i) st = Ok (outs', st')) /\
    Forall2 result_rep outs' outs /\ bundle_rep st' w'.
Definition PF (right : bool) (V : vars) (w : world) (f : arg value) (o : out) (xs : list value) (o' : out) (w' : world) : Prop :=
  forall env st f' ar xs', env_rep env V -> bundle_rep st w -> arg_rep f' f -> result_rep ar o -> Forall2 stands xs' xs ->
  exists N r st', (forall k, (N <= k)%nat -> reduce_loop (rec k) env right f' xs' ar st = Ok (r, st')) /\
    result_rep r o' /\ bundle_rep st' w'.
Definition PT (V : vars) (w : world) (a : arg value) (s : list Z) (w' : world) : Prop :=
  forall env st a', env_rep env V -> bundle_rep st w -> arg_rep a' a ->
  exists N st', (forall k, (N <= k)%nat -> EvalModel.target (rec k) env st (Some a') = Ok (inr s, st')) /\ c_string s /\ bundle_rep st' w'.
Definition PQ (V : vars) (w : world) (a : arg value) (s : list Z) (w' : world) : Prop :=
  forall env st a', env_rep env V -> bundle_rep st w -> arg_rep a' a ->
  exists N st', (forall k func more, (N <= k)%nat -> ev_exists (rec k) func env st (a' :: more) =
     (do b <- func (bytes_of st') (b_len st') s true; Ok (0, one_bool b, st'))) /\ bundle_rep st' w'.

(** * Arguments *)

Lemma e_variable V w x vs : V x = Some vs -> PE V w (AAtom (VStr x)) 0 (Some vs) w.
Proof.
  intros HV env st [| a | | | |] [_ Hl] Hw Ha; try contradiction. cbn [arg_rep] in Ha.
  destruct (stands_str _ _ Ha) as (Ht & Hs & _). specialize (Hl x). rewrite HV in Hl. destruct (rep_Some _ _ Hl) as (l & El & _).
  destruct (acopy_rep _ _ Hl) as (b & Eb & Hb). exists 0%nat, b, st. split; [|split; assumption].
  intros k _. cbn [eval_arg]. rewrite Ht, Hs. cbn [Z.eqb Pos.eqb bind]. rewrite El in Eb |- *. now rewrite Eb.
Qed.
Lemma e_literal V w v : match v with VStr x => V x = None | _ => True end -> PE V w (AAtom v) 0 (Some [v]) w.
Proof.
  intros HV env st [| a | | | |] [_ Hl] Hw Ha; try contradiction. cbn [arg_rep] in Ha.
  destruct (copy_stands _ _ Ha) as (b & Eb & Hb). exists 0%nat, (Some [b]), st.
  split; [|split; [constructor; constructor; [exact Hb|constructor]|assumption]].
  intros k _. cbn [eval_arg]. rewrite (stands_tag _ _ Ha). destruct (is_string v (stands_std _ _ Ha)) as [(s & ->)|E].
  - cbn [vtag Z.eqb Pos.eqb]. rewrite (proj1 (proj2 (stands_str _ _ Ha))). cbn [bind].
    specialize (Hl s). rewrite HV in Hl. rewrite (rep_None _ Hl). now rewrite Eb.
  - rewrite E. cbn [bind]. now rewrite Eb.
Qed.
Lemma e_list V w l : PE V w (AList l) 0 l w.
Proof.
  intros env st [| | l' | | |] He Hw Ha; try contradiction. cbn [arg_rep] in Ha. destruct (acopy_rep _ _ Ha) as (b & Eb & Hb).
  exists 0%nat, b, st. split; [|split; assumption]. intros k _. cbn [eval_arg]. now rewrite Eb.
Qed.
Lemma e_address V w p vs : lookup matches w p = Some vs -> PE V w (AAddr p) 0 (Some vs) w.
Proof.
  intros E env st [| | | | q |] He Hw Ha; try contradiction. destruct Ha as (-> & _).
  destruct (eval_addr_rep st w p Hw) as (o & Eo & Ho). rewrite E in Eo, Ho. exists 0%nat, o, st. split; [|split; assumption].
  intros k _. cbn [eval_arg]. now rewrite Eo.
Qed.
Lemma e_address_unbound V w p : lookup matches w p = None -> PE V w (AAddr p) unbound None w.
Proof.
  intros E env st [| | | | q |] He Hw Ha; try contradiction. destruct Ha as (-> & _).
  destruct (eval_addr_rep st w p Hw) as (o & Eo & Ho). rewrite E in Eo, Ho. exists 0%nat, o, st. split; [|split; assumption].
  intros k _. cbn [eval_arg]. now rewrite Eo.
Qed.
Lemma e_expr V w e c o w' : PR V w e c o w' -> PE V w (AExpr e) c o w'.
Proof.
  intros IH env st [| | | e' | |] He Hw Ha; try contradiction. exact (IH env st e' He Hw Ha).
Qed.

(** * Lists of arguments *)

Lemma a_nil V w : PA V w [] 0 [] w.
Proof.
  intros env st args' He Hw Ha. inversion Ha; subst. exists 0%nat, [], st. split; [reflexivity|]. split; [constructor|exact Hw].
Qed.
Lemma a_cons V w a o w1 args c os w2 : PE V w a 0 o w1 -> PA V w1 args c os w2 -> PA V w (a :: args) c (o :: os) w2.
Proof.
  intros I1 I2 env st args' He Hw Ha. inversion Ha as [|a' ? l' ? Ha1 Ha2]; subst.
  destruct (I1 env st a' He Hw Ha1) as (N1 & o1 & st1 & E1 & R1 & W1).
  destruct (I2 env st1 l' He W1 Ha2) as (N2 & o2 & st2 & E2 & R2 & W2).
  exists (Nat.max N1 N2), (o1 :: o2), st2. split; [|split; [intros H; constructor; [exact R1|exact (R2 H)]|exact W2]].
  intros k Hk. cbn [eval_args]. rewrite E1 by lia. cbn [bind Z.eqb negb]. rewrite E2 by lia. reflexivity.
Qed.
Lemma a_stop V w a c o w1 args : PE V w a c o w1 -> c <> 0 -> PA V w (a :: args) c [] w1.
Proof.
  intros I1 Hc env st args' He Hw Ha. inversion Ha as [|a' ? l' ? Ha1 Ha2]; subst.
  destruct (I1 env st a' He Hw Ha1) as (N1 & o1 & st1 & E1 & R1 & W1).
  exists N1, [], st1. split; [|split; [contradiction|exact W1]].
  intros k Hk. cbn [eval_args]. rewrite E1 by lia. cbn [bind]. now rewrite not_zero.
Qed.
Lemma l_nil V w : PL V w [] 0 [] w.
Proof.
  intros env st args' He Hw Ha. inversion Ha; subst. exists 0%nat, [], st. split; [reflexivity|]. split; [constructor|]. split; [now left|exact Hw].
Qed.
Lemma l_cons V w a c o w1 args d os w2 : PE V w a c o w1 -> c <> unbound -> PL V w1 args d os w2 -> PL V w (a :: args) d (o :: os) w2.
Proof.
  intros I1 Hc I2 env st args' He Hw Ha. inversion Ha as [|a' ? l' ? Ha1 Ha2]; subst.
  destruct (I1 env st a' He Hw Ha1) as (N1 & o1 & st1 & E1 & R1 & W1).
  destruct (I2 env st1 l' He W1 Ha2) as (N2 & o2 & st2 & E2 & R2 & D2 & W2).
  exists (Nat.max N1 N2), (o1 :: o2), st2. split; [|split; [intros H; constructor; [exact R1|exact (R2 H)]|split; [exact D2|exact W2]]].
  intros k Hk. cbn [collect]. rewrite E1 by lia. cbn [bind]. rewrite not_unbound by exact Hc. rewrite E2 by lia. reflexivity.
Qed.
Lemma l_stop V w a o w1 args : PE V w a unbound o w1 -> PL V w (a :: args) unbound [] w1.
Proof.
  intros I1 env st args' He Hw Ha. inversion Ha as [|a' ? l' ? Ha1 Ha2]; subst.
  destruct (I1 env st a' He Hw Ha1) as (N1 & o1 & st1 & E1 & R1 & W1).
  exists N1, [], st1. split; [|split; [discriminate|split; [now right|exact W1]]].
  intros k Hk. cbn [collect]. rewrite E1 by lia. reflexivity.
Qed.

(** * The body of a function *)

Lemma s_nil V w : PS V w [] 0 None w.
Proof.
  intros env st b He Hw Hb. inversion Hb; subst. exists 0%nat, None, st. split; [reflexivity|]. split; [constructor|exact Hw].
Qed.
Lemma s_last V w e c o w1 : PR V w e c o w1 -> PS V w [e] c o w1.
Proof.
  intros I1 env st b He Hw Hb. inversion Hb as [|e' ? l' ? Hb1 Hb2]; subst. inversion Hb2; subst.
  destruct (I1 env st e' He Hw Hb1) as (N1 & o1 & st1 & E1 & R1 & W1).
  exists N1, o1, st1. split; [|split; assumption]. intros k Hk. cbn [eval_body]. rewrite E1 by lia. cbn [bind].
  destruct (c =? 0) eqn:E; [|reflexivity]. apply Z.eqb_eq in E. now subst c.
Qed.
Lemma s_next V w e o w1 e' body c o' w2 : PR V w e 0 o w1 -> PS V w1 (e' :: body) c o' w2 -> PS V w (e :: e' :: body) c o' w2.
Proof.
  intros I1 I2 env st b He Hw Hb. inversion Hb as [|x ? l' ? Hb1 Hb2]; subst.
  destruct (I1 env st x He Hw Hb1) as (N1 & o1 & st1 & E1 & R1 & W1).
  destruct (I2 env st1 l' He W1 Hb2) as (N2 & o2 & st2 & E2 & R2 & W2).
  exists (Nat.max N1 N2), o2, st2. split; [|split; assumption]. inversion Hb2 as [|y ? l'' ? Hb3 Hb4]; subst.
  intros k Hk. specialize (E2 k ltac:(lia)). cbn [eval_body] in E2 |- *. rewrite E1 by lia. cbn [bind Z.eqb negb]. exact E2.
Qed.
Lemma s_fail V w e c o w1 e' body : PR V w e c o w1 -> c <> 0 -> PS V w (e :: e' :: body) c None w1.
Proof.
  intros I1 Hc env st b He Hw Hb. inversion Hb as [|x ? l' ? Hb1 Hb2]; subst.
  destruct (I1 env st x He Hw Hb1) as (N1 & o1 & st1 & E1 & R1 & W1).
  exists N1, None, st1. split; [|split; [constructor|assumption]]. inversion Hb2 as [|y ? l'' ? Hb3 Hb4]; subst.
  intros k Hk. cbn [eval_body]. rewrite E1 by lia. cbn [bind]. now rewrite not_zero.
Qed.

(** * Map and reduce *)

Lemma m_nil V w f : PM V w f [] [] w.
Proof.
  intros env st f' os os' i n He Hw Hf Hos Hi Hr. destruct n; [|discriminate Hr].
  exists 0%nat, [], st. split; [reflexivity|]. split; [constructor|exact Hw].
Qed.
Lemma m_cons V w f r rs c o w1 os w2 : PR V w (Ex FApply (f :: map AAtom r)) c o w1 -> PM V w1 f rs os w2 -> PM V w f (r :: rs) (o :: os) w2.
Proof.
  intros I1 I2 env st f' xs xs' i n He Hw Hf Hos Hi Hr. destruct n as [|n]; [discriminate Hr|]. cbn [seq map] in Hr. injection Hr as -> Hr.
  destruct (row_rep xs xs' i Hos) as (l & El & Hl); [eapply Forall_impl; [|exact Hi]; cbv beta; intros ? ?; lia|].
  destruct (I1 env st (Ex FApply (f' :: l)) He Hw) as (N1 & o1 & st1 & E1 & R1 & W1).
  { apply expr_rep_args. split; [reflexivity|]. constructor; assumption. }
  destruct (I2 env st1 f' xs xs' (S i) n He W1 Hf Hos) as (N2 & o2 & st2 & E2 & R2 & W2); [|exact Hr|].
  { eapply Forall_impl; [|exact Hi]; cbv beta; intros ? ?; lia. }
  exists (Nat.max N1 N2), (o1 :: o2), st2. split; [|split; [constructor|]; assumption].
  intros k Hk. cbn [map_calls]. rewrite El. cbn [bind]. rewrite E1 by lia. cbn [bind].
  rewrite Nat2Z.inj_succ in E2. rewrite <- Z.add_1_r in E2. rewrite E2 by lia. reflexivity.
Qed.
Lemma two_rep right a x a' x' : stands a' a -> stands x' x -> Forall2 arg_rep (two_args right (AAtom a') (AAtom x')) (operands right a x).
Proof. intros Ha Hx. destruct right; repeat (constructor; [assumption|]); constructor. Qed.
Lemma f_nil right V w f o : PF right V w f o [] o w.
Proof.
  intros env st f' ar xs He Hw Hf Ho Hx. inversion Hx; subst. exists 0%nat, ar, st. split; [reflexivity|]. split; assumption.
Qed.
Lemma f_cons right V w f a more x xs c o w1 o' w2 : PR V w (Ex FApply (f :: operands right a x)) c o w1 ->
  PF right V w1 f o xs o' w2 -> PF right V w f (Some (a :: more)) (x :: xs) o' w2.
Proof.
  intros I1 I2 env st f' ar ys He Hw Hf Ho Hx. inversion Hx as [|y ? ys' ? Hy Hys]; subst.
  destruct (rep_Some _ _ Ho) as (l & -> & Hl). inversion Hl as [|b ? l' ? Hb Hl']; subst.
  destruct (copy_stands _ _ Hb) as (b' & Eb & Hb'). destruct (copy_stands _ _ Hy) as (y' & Ey & Hy').
  destruct (I1 env st (Ex FApply (f' :: two_args right (AAtom b') (AAtom y'))) He Hw) as (N1 & o1 & st1 & E1 & R1 & W1).
  { apply expr_rep_args. split; [reflexivity|]. constructor; [exact Hf|]. now apply two_rep. }
  destruct (I2 env st1 f' o1 ys' He W1 Hf R1 Hys) as (N2 & o2 & st2 & E2 & R2 & W2).
  exists (Nat.max N1 N2), o2, st2. split; [|split; assumption].
  intros k Hk. cbn [reduce_loop]. rewrite aget_zero. cbn [hd_error bind copy_into]. rewrite Eb. cbn [bind]. rewrite Ey. cbn [bind].
  rewrite E1 by lia. cbn [bind]. apply E2. lia.
Qed.

(** * Addresses *)

Lemma t_address V w p : PT V w (AAddr p) p w.
Proof.
  intros env st [| | | | q |] He Hw Ha; try contradiction. destruct Ha as (-> & Ha). exists 0%nat, st. split; [reflexivity|]. split; [exact Ha|exact Hw].
Qed.
Lemma t_value V w p more s vs : lookup matches w p = Some (VStr s :: vs) -> PT V w (AExpr (Ex FValue (AAddr p :: more))) s w.
Proof.
  intros E env st [| | | [f args] | |] He Hw Ha; try contradiction. apply expr_rep_args in Ha as [-> Ha].
  inversion Ha as [|a' ? l' ? Ha1 Ha2]; subst. destruct a'; try contradiction. destruct Ha1 as (-> & _).
  destruct (eval_addr_rep st w p Hw) as (o & Eo & Ho). rewrite E in Eo, Ho. destruct (rep_Some _ _ Ho) as (l & -> & Hl).
  exists 0%nat, st. split; [|split; [|exact Hw]].
  - intros k _. cbn [EvalModel.target]. rewrite Eo. cbn [bind]. change (0 =? UNBOUND) with false. cbv iota.
    rewrite (tag_zero _ _ Ho). cbn [bind values vtag Z.eqb Pos.eqb negb]. now rewrite (string_zero l s vs Hl).
  - inversion Hl as [|x ? ? ? Hx _]; subst. exact (proj2 (proj2 (stands_str _ _ Hx))).
Qed.
Lemma t_other V w a c s vs w1 : indirect a -> PE V w a c (Some (VStr s :: vs)) w1 -> c <> unbound -> PT V w a s w1.
Proof.
  intros Hi I1 Hc env st a' He Hw Ha. destruct (I1 env st a' He Hw Ha) as (N1 & o1 & st1 & E1 & R1 & W1).
  destruct (rep_Some _ _ R1) as (l & -> & Hl). exists N1, st1. split; [|split; [|exact W1]].
  - assert (Et : forall k, EvalModel.target (rec k) env st (Some a') =
      do ' (c, ar, st) <- eval_arg (rec k) env st a';
      if c =? UNBOUND then Ok (inl c, st) else
      match ar with
      | None => Ok (inl 1, st)
      | Some _ => do t <- tag0 ar; if negb (t =? 115) then Ok (inl 1, st) else do s <- string0 ar; Ok (inr s, st)
      end).
    { intros k. unfold EvalModel.target, eval_opt. destruct a' as [| x | l0 | e | q | ps bd], a as [| x' | l0' | e' | q' | ps' bd']; try contradiction; try reflexivity.
      destruct e as [f args], e' as [f' args']. apply expr_rep_args in Ha as [-> Ha]. destruct f'; try reflexivity.
      destruct Ha as [|y y' ys ys' Hy _]; [reflexivity|]. destruct y, y'; try contradiction; reflexivity. }
    intros k Hk. rewrite Et, E1 by lia. cbn [bind]. rewrite not_unbound by exact Hc.
    rewrite (tag_zero _ _ R1). cbn [bind values vtag Z.eqb Pos.eqb negb]. now rewrite (string_zero l s vs Hl).
  - inversion Hl as [|x ? ? ? Hx _]; subst. exact (proj2 (proj2 (stands_str _ _ Hx))).
Qed.
Lemma q_address V w p : PQ V w (AAddr p) p w.
Proof.
  intros env st [| | | | q |] He Hw Ha; try contradiction. destruct Ha as (-> & Ha). exists 0%nat, st. split; [reflexivity|exact Hw].
Qed.
Lemma q_string V w x c s vs w1 : PE V w (AAtom (VStr x)) c (Some (VStr s :: vs)) w1 -> PQ V w (AAtom (VStr x)) s w1.
Proof.
  intros I1 env st [| a | | | |] He Hw Ha; try contradiction. destruct (I1 env st (AAtom a) He Hw Ha) as (N1 & o1 & st1 & E1 & R1 & W1).
  destruct (rep_Some _ _ R1) as (l & -> & Hl). exists N1, st1. split; [|exact W1].
  intros k func more Hk. unfold ev_exists. cbn [arg_rep] in Ha. rewrite (proj1 (stands_str _ _ Ha)). cbn [Z.eqb Pos.eqb negb].
  rewrite E1 by lia. cbn [bind]. rewrite (tag_zero _ _ R1). cbn [bind values vtag Z.eqb Pos.eqb].
  rewrite (string_zero l s vs Hl). reflexivity.
Qed.
Lemma q_expr V w e s w1 : PR V w e 0 (Some [VStr s]) w1 -> hd 0 s = 47 -> PQ V w (AExpr e) s w1.
Proof.
  intros I1 Hs env st [| | | e' | |] He Hw Ha; try contradiction. destruct (I1 env st e' He Hw Ha) as (N1 & o1 & st1 & E1 & R1 & W1).
  pose proof (rep_len _ _ R1) as Hn. destruct (rep_Some _ _ R1) as (l & -> & Hl). exists N1, st1. split; [|exact W1].
  intros k func more Hk. unfold ev_exists. rewrite E1 by lia. cbn [bind Z.eqb negb]. rewrite Hn. cbn [values].
  change (zlen [VStr s] =? 1) with true. cbn [negb]. rewrite (tag_zero _ _ R1). cbn [bind values vtag Z.eqb Pos.eqb negb].
  rewrite (string_zero l s [] Hl). cbn [bind]. now rewrite Hs.
Qed.

(** * Expressions *)

(** [k] is at least one more than what the parts need. *)
Ltac fuel k Hk := intros k Hk; destruct k as [|k]; [exfalso; lia|]; cbn [eval_in ev_expr].

Lemma r_count V w f args : bad_count f (length args) -> PR V w (Ex f args) 1 None w.
Proof.
  intros Hb env st [g args'] He Hw Hr. apply expr_rep_args in Hr as [-> Hr]. rewrite <- (Forall2_len _ _ _ Hr) in Hb.
  exists 1%nat, None, st. split; [|split; [constructor|exact Hw]].
  fuel k Hk. destruct f; cbn [bad_count] in Hb; try contradiction.
  - destruct args'; [reflexivity|discriminate Hb].
  - destruct args' as [|? [|? ?]]; [reflexivity|reflexivity|cbn [length] in Hb; lia].
  - destruct args' as [|? [|? ?]]; [reflexivity|reflexivity|cbn [length] in Hb; lia].
  - destruct args' as [|? [|? ?]]; [reflexivity|reflexivity|cbn [length] in Hb; lia].
  - destruct args' as [|? [|? [|? [|? ?]]]]; try reflexivity. cbn [length] in Hb. lia.
  - destruct args' as [|? [|? [|? [|? ?]]]]; try reflexivity; cbn [length] in Hb; lia.
  - destruct args'; [reflexivity|discriminate Hb].
  - destruct args' as [|? [|? [|? ?]]]; try reflexivity. cbn [length] in Hb. lia.
  - destruct args' as [|? [|? [|? ?]]]; try reflexivity. cbn [length] in Hb. lia.
Qed.
Lemma r_call V w name args os w1 c o : PA V w args 0 os w1 -> sem name os = Some (c, o) -> PR V w (Ex (FCall name) args) c o w1.
Proof.
  intros I1 Hs env st [g args'] He Hw Hr. apply expr_rep_args in Hr as [-> Hr].
  destruct (I1 env st args' He Hw Hr) as (N1 & os1 & st1 & E1 & R1 & W1).
  destruct (Himpl name os1 os c o (R1 eq_refl) Hs) as (o' & Eo & Ho).
  exists (S N1), o', st1. split; [|split; assumption]. fuel k Hk. unfold ev_call. rewrite E1 by lia.
  cbn [bind Z.eqb negb]. now rewrite Eo.
Qed.
Lemma r_call_fails V w name args c os w1 : PA V w args c os w1 -> c <> 0 -> PR V w (Ex (FCall name) args) c None w1.
Proof.
  intros I1 Hc env st [g args'] He Hw Hr. apply expr_rep_args in Hr as [-> Hr].
  destruct (I1 env st args' He Hw Hr) as (N1 & os1 & st1 & E1 & R1 & W1).
  exists (S N1), None, st1. split; [|split; [constructor|assumption]]. fuel k Hk. unfold ev_call. rewrite E1 by lia.
  cbn [bind]. now rewrite not_zero.
Qed.

(** apply *)
Fixpoint bind_vars (inner : entries) (params : list (list Z)) (os : list arr) : entries :=
  match params, os with
  | x :: params', o :: os' => bind_vars (bind_var inner x o) params' os'
  | _, _ => inner
  end.
Lemma params_collect r env : forall params args st inner c os st', collect r env st (firstn (length params) args) = Ok (c, os, st') ->
  (c = 0 -> bind_params r env st params args inner = Ok (0, bind_vars inner params os, st')) /\
  (c = UNBOUND -> exists inner', bind_params r env st params args inner = Ok (UNBOUND, inner', st')).
Proof.
  induction params as [|x params IH]; intros args st inner c os st' H; cbn [length firstn] in H.
  - cbn [collect] in H. injection H as <- <- <-. split; [reflexivity|discriminate].
  - destruct args as [|a args]; cbn [collect] in H; [injection H as <- <- <-; split; [reflexivity|discriminate]|].
    cbn [bind_params]. destruct (eval_arg r env st a) as [[[c1 o1] st1]| |]; cbn [bind] in H |- *; try discriminate H.
    destruct (c1 =? UNBOUND) eqn:E.
    + injection H as <- <- <-. split.
      * intros ->. discriminate E.
      * intros ->. exists inner. reflexivity.
    + destruct (collect r env st1 (firstn (length params) args)) as [[[c2 os2] st2]| |] eqn:E2; cbn [bind] in H; try discriminate H.
      injection H as <- <- <-. cbn [bind_vars]. exact (IH args st1 (bind_var inner x o1) c2 os2 st2 E2).
Qed.
Lemma bind_vars_rep : forall params os os' inner V, Forall2 result_rep os os' -> env_rep (Some inner) V ->
  env_rep (Some (bind_vars inner params os)) (bind_all V params os').
Proof.
  induction params as [|x params IH]; intros os os' inner V Hos Hin; cbn [bind_vars bind_all]; [exact Hin|].
  destruct Hos as [|o o' os os' Ho Hos]; [exact Hin|]. apply IH; [exact Hos|]. now apply bind_rep.
Qed.
Lemma Forall2_firstn {A B} (R : A -> B -> Prop) n l l' : Forall2 R l l' -> Forall2 R (firstn n l) (firstn n l').
Proof. intros H. revert n. induction H as [|x y l l' Hx _ IH]; intros [|n]; cbn [firstn]; constructor; [exact Hx|apply IH]. Qed.
Lemma r_apply V w params body args os w1 c o w2 : PL V w (firstn (length params) args) 0 os w1 ->
  PS (bind_all V params os) w1 body c o w2 -> PR V w (Ex FApply (AFun params body :: args)) c o w2.
Proof.
  intros I1 I2 env st [g args'] He Hw Hr. apply expr_rep_args in Hr as [-> Hr]. inversion Hr as [|f ? l' ? Hf Hl]; subst.
  destruct f as [| | | | | ps bd]; try contradiction. apply arg_rep_fun in Hf as [-> Hb].
  destruct (I1 env st (firstn (length params) l') He Hw (Forall2_firstn _ _ _ _ Hl)) as (N1 & os1 & st1 & E1 & R1 & _ & W1).
  destruct (copy_env_rep env V He) as (inner & Ei & Hi).
  destruct (I2 (Some (bind_vars inner params os1)) st1 bd (bind_vars_rep _ _ _ _ _ (R1 eq_refl) Hi) W1 Hb) as (N2 & o2 & st2 & E2 & R2 & W2).
  exists (S (Nat.max N1 N2)), o2, st2. split; [|split; assumption]. fuel k Hk. cbn [ev_apply]. rewrite Ei. cbn [bind].
  specialize (E1 k ltac:(lia)). rewrite (proj1 (params_collect _ _ _ _ _ inner _ _ _ E1) eq_refl). cbn [bind].
  change (0 =? UNBOUND) with false. cbv iota. apply E2. lia.
Qed.
Lemma r_apply_unbound V w params body args os w1 : PL V w (firstn (length params) args) unbound os w1 ->
  PR V w (Ex FApply (AFun params body :: args)) unbound None w1.
Proof.
  intros I1 env st [g args'] He Hw Hr. apply expr_rep_args in Hr as [-> Hr]. inversion Hr as [|f ? l' ? Hf Hl]; subst.
  destruct f as [| | | | | ps bd]; try contradiction. apply arg_rep_fun in Hf as [-> Hb].
  destruct (I1 env st (firstn (length params) l') He Hw (Forall2_firstn _ _ _ _ Hl)) as (N1 & os1 & st1 & E1 & _ & _ & W1).
  destruct (copy_env_rep env V He) as (inner & Ei & Hi).
  exists (S N1), None, st1. split; [|split; [constructor|assumption]]. fuel k Hk. cbn [ev_apply]. rewrite Ei. cbn [bind].
  specialize (E1 k ltac:(lia)). destruct (proj2 (params_collect _ _ _ _ _ inner _ _ _ E1) eq_refl) as (i' & E2). rewrite E2. reflexivity.
Qed.
Lemma r_apply_name V w s f args c o w1 : table s = Some f -> PR V w (Ex f args) c o w1 -> PR V w (Ex FApply (AAtom (VStr s) :: args)) c o w1.
Proof.
  intros Ht I1 env st [g args'] He Hw Hr. apply expr_rep_args in Hr as [-> Hr]. inversion Hr as [|a ? l' ? Ha Hl]; subst.
  destruct a as [| x | | | |]; try contradiction. cbn [arg_rep] in Ha. destruct (stands_str _ _ Ha) as (Hx & Hs & _).
  destruct (I1 env st (Ex f l') He Hw) as (N1 & o1 & st1 & E1 & R1 & W1); [apply expr_rep_args; now split|].
  exists (S N1), o1, st1. split; [|split; assumption]. fuel k Hk. cbn [ev_apply]. rewrite Hx, Hs. cbn [Z.eqb Pos.eqb negb bind].
  unfold apply_name. rewrite Ht. cbn [option_map]. apply E1. lia.
Qed.
Lemma r_apply_computed V w a c0 s w1 f args c o w2 : computed a -> PE V w a c0 (Some [VStr s]) w1 -> c0 <> unbound ->
  table s = Some f -> PR V w1 (Ex f args) c o w2 -> PR V w (Ex FApply (a :: args)) c o w2.
Proof.
  intros Hc I0 Hu Ht I1 env st [g args'] He Hw Hr. apply expr_rep_args in Hr as [-> Hr]. inversion Hr as [|a' ? l' ? Ha Hl]; subst.
  destruct (I0 env st a' He Hw Ha) as (N0 & o0 & st0 & E0 & R0 & W0).
  destruct (I1 env st0 (Ex f l') He W0) as (N1 & o1 & st1 & E1 & R1 & W1); [apply expr_rep_args; now split|].
  exists (S (Nat.max N0 N1)), o1, st1. split; [|split; assumption]. fuel k Hk.
  pose proof (rep_len _ _ R0) as Hn. destruct (rep_Some _ _ R0) as (l & -> & Hs).
  assert (Ev : ev_apply table (rec k) env st (a' :: l') =
     do ' (c, ar, st) <- eval_arg (rec k) env st a';
      if c =? UNBOUND then Ok (c, None, st) else
      match ar with
      | None => Ok (1, None, st)
      | Some _ =>
          if negb (alen ar =? 1) then Ok (1, None, st) else
          do t <- tag0 ar;
          if negb (t =? 115) then Ok (1, None, st) else
          do s <- string0 ar;
          match apply_name table (rec k) env st s l' with Some r => r | None => Fuel end
      end).
  { destruct a', a; try contradiction; reflexivity. }
  rewrite Ev, E0 by lia. cbn [bind]. rewrite not_unbound by exact Hu. rewrite Hn. cbn [values].
  change (zlen [VStr s] =? 1) with true. cbn [negb]. rewrite (tag_zero _ _ R0). cbn [bind values vtag Z.eqb Pos.eqb negb].
  rewrite (string_zero l s [] Hs). cbn [bind]. unfold apply_name. rewrite Ht. cbn [option_map]. apply E1. lia.
Qed.

(** map *)
Lemma r_map V w f a args os w1 outs w2 : no_list f = true -> PL V w (a :: args) 0 os w1 ->
  Forall (fun o => zlen (values o) < 2^31) os -> PM V w1 f (rows (map values os)) outs w2 ->
  PR V w (Ex FMap (f :: a :: args)) 0 (Some (concat (map values outs))) w2.
Proof.
  intros Hf I1 Hlen I2 env st [g args'] He Hw Hr. apply expr_rep_args in Hr as [-> Hr]. inversion Hr as [|f' ? l' ? Hf' Hl]; subst.
  destruct (proj1 copy_rep_all f' f Hf' Hf) as (h & Eh & Hh).
  destruct (I1 env st l' He Hw Hl) as (N1 & os1 & st1 & E1 & R1 & _ & W1). specialize (R1 eq_refl).
  assert (Hne : os1 <> []).
  { inversion Hl; subst. specialize (E1 N1 (le_n _)). cbn [collect] in E1. intros ->.
    match type of E1 with bind ?m _ = _ => destruct m as [[[? ?] ?]| |]; cbn [bind] in E1; try discriminate E1 end.
    destruct (_ =? UNBOUND) eqn:Eu; [injection E1 as -> _; discriminate Eu|].
    match type of E1 with bind ?m _ = _ => destruct m as [[[? ?] ?]| |]; cbn [bind] in E1; discriminate E1 end. }
  destruct (min_short os1 os R1 Hlen Hne) as [Hmin Hall].
  destruct (I2 env st1 h os1 os 0%nat (shortest (map values os)) He W1 Hh R1 Hall eq_refl) as (N2 & outs1 & st2 & E2 & R2 & W2).
  destruct (join_rep outs1 outs R2 [] (repeat atom_fresh (length (concat (map values outs)))) (repeat_length _ _)) as (ys & Ej & Hy).
  exists (S (Nat.max N1 N2)), (Some ys), st2. split; [|split; [now constructor|assumption]]. fuel k Hk.
  cbn [ev_map]. inversion Hl; subst. rewrite E1 by lia. cbn [bind]. change (0 =? UNBOUND) with false. cbv iota. rewrite Eh. cbn [bind].
  rewrite Hmin. change (Z.of_nat 0) with 0 in E2. rewrite E2 by lia. cbn [bind].
  rewrite (total_len _ _ R2), Z.add_0_l, aalloc_len. cbn [bind]. cbn [app] in Ej. change (zlen (@nil atom)) with 0 in Ej.
  rewrite Ej. reflexivity.
Qed.
Lemma r_map_unbound V w f a args os w1 : PL V w (a :: args) unbound os w1 -> PR V w (Ex FMap (f :: a :: args)) unbound None w1.
Proof.
  intros I1 env st [g args'] He Hw Hr. apply expr_rep_args in Hr as [-> Hr]. inversion Hr as [|f' ? l' ? Hf' Hl]; subst.
  destruct (I1 env st l' He Hw Hl) as (N1 & os1 & st1 & E1 & _ & _ & W1).
  exists (S N1), None, st1. split; [|split; [constructor|assumption]]. fuel k Hk.
  cbn [ev_map]. inversion Hl; subst. rewrite E1 by lia. reflexivity.
Qed.

(** reduce *)
Lemma reduce_fn right k env st args : rec (S k) env st (Ex (reducer right) args) = ev_reduce (rec k) right env st args.
Proof. destruct right; reflexivity. Qed.
Lemma met_rep (right : bool) l vs : Forall2 stands l vs -> Forall2 stands (if right then rev l else l) (met right vs).
Proof.
  intros H. destruct right; [|exact H]. cbn [met]. induction H as [|x v l vs Hx _ IH]; cbn [rev]; [constructor|].
  apply Forall2_app; [exact IH|]. constructor; [exact Hx|constructor].
Qed.
Lemma r_reduce right V w f a c0 l w1 x y xs c o w2 o' w3 : no_list f = true -> PE V w a c0 (Some l) w1 -> c0 <> unbound ->
  met right l = x :: y :: xs -> PR V w1 (Ex FApply (f :: operands right x y)) c o w2 ->
  PF right V w2 f o xs o' w3 -> PR V w (Ex (reducer right) [f; a]) 0 o' w3.
Proof.
  intros Hf I0 Hu Hm I1 I2 env st [g args'] He Hw Hr. apply expr_rep_args in Hr as [-> Hr].
  inversion Hr as [|f' ? l' ? Hf' Hl]; subst. inversion Hl as [|a' ? l'' ? Ha Hl']; subst. inversion Hl'; subst.
  destruct (proj1 copy_rep_all f' f Hf' Hf) as (h & Eh & Hh).
  destruct (I0 env st a' He Hw Ha) as (N0 & o0 & st0 & E0 & R0 & W0). destruct (rep_Some _ _ R0) as (ar & -> & Hs).
  pose proof (met_rep right ar l Hs) as Hmr. rewrite Hm in Hmr. inversion Hmr as [|x' ? r1 ? Hx Hr1 Er]; subst.
  inversion Hr1 as [|y' ? xs' ? Hy Hxs]; subst.
  destruct (I1 env st0 (Ex FApply (h :: two_args right (AAtom x') (AAtom y'))) He W0) as (N1 & o1 & st1 & E1 & R1 & W1).
  { apply expr_rep_args. split; [reflexivity|]. constructor; [exact Hh|]. now apply two_rep. }
  destruct (I2 env st1 h o1 xs' He W1 Hh R1 Hxs) as (N2 & o2 & st2 & E2 & R2 & W2).
  exists (S (Nat.max N0 (Nat.max N1 N2))), o2, st2. split; [|split; assumption].
  intros k Hk. destruct k as [|k]; [exfalso; lia|]. rewrite reduce_fn. cbn [ev_reduce]. rewrite Eh. cbn [bind]. rewrite E0 by lia. cbn [bind].
  rewrite not_unbound by exact Hu. rewrite <- Er. rewrite E1 by lia. cbn [bind]. rewrite E2 by lia. reflexivity.
Qed.
Lemma r_reduce_one right V w f a c0 x w1 : no_list f = true -> PE V w a c0 (Some [x]) w1 -> c0 <> unbound ->
  PR V w (Ex (reducer right) [f; a]) 0 (Some [x]) w1.
Proof.
  intros Hf I0 Hu env st [g args'] He Hw Hr. apply expr_rep_args in Hr as [-> Hr].
  inversion Hr as [|f' ? l' ? Hf' Hl]; subst. inversion Hl as [|a' ? l'' ? Ha Hl']; subst. inversion Hl'; subst.
  destruct (proj1 copy_rep_all f' f Hf' Hf) as (h & Eh & Hh).
  destruct (I0 env st a' He Hw Ha) as (N0 & o0 & st0 & E0 & R0 & W0). destruct (rep_Some _ _ R0) as (ar & -> & Hs).
  inversion Hs as [|x' ? r1 ? Hx Hr1]; subst. inversion Hr1; subst.
  exists (S N0), (Some [x']), st0. split; [|split; assumption].
  intros k Hk. destruct k as [|k]; [exfalso; lia|]. rewrite reduce_fn. cbn [ev_reduce]. rewrite Eh. cbn [bind]. rewrite E0 by lia. cbn [bind].
  rewrite not_unbound by exact Hu. destruct right; reflexivity.
Qed.
Lemma r_reduce_from right V w f a b c0 l w1 x xs c1 v vs w2 c o w3 o' w4 : no_list f = true ->
  PE V w a c0 (Some l) w1 -> c0 <> unbound -> met right l = x :: xs ->
  PE V w1 b c1 (Some (v :: vs)) w2 -> c1 <> unbound ->
  PR V w2 (Ex FApply (f :: operands right v x)) c o w3 -> PF right V w3 f o xs o' w4 ->
  PR V w (Ex (reducer right) [f; a; b]) 0 o' w4.
Proof.
  intros Hf I0 Hu Hm Ib Hub I1 I2 env st [g args'] He Hw Hr. apply expr_rep_args in Hr as [-> Hr].
  inversion Hr as [|f' ? l' ? Hf' Hl]; subst. inversion Hl as [|a' ? l'' ? Ha Hl']; subst.
  inversion Hl' as [|b' ? l3 ? Hb Hl3]; subst. inversion Hl3; subst.
  destruct (proj1 copy_rep_all f' f Hf' Hf) as (h & Eh & Hh).
  destruct (I0 env st a' He Hw Ha) as (N0 & o0 & st0 & E0 & R0 & W0). destruct (rep_Some _ _ R0) as (ar & -> & Hs).
  pose proof (met_rep right ar l Hs) as Hmr. rewrite Hm in Hmr. inversion Hmr as [|x' ? xs' ? Hx Hxs Er]; subst.
  destruct (Ib env st0 b' He W0 Hb) as (Nb & ob & stb & Eb & Rb & Wb). destruct (rep_Some _ _ Rb) as (br & -> & Hbs).
  inversion Hbs as [|v' ? br' ? Hv Hbr]; subst. destruct (copy_stands _ _ Hv) as (v2 & Ev2 & Hv2).
  destruct (I1 env stb (Ex FApply (h :: two_args right (AAtom v2) (AAtom x'))) He Wb) as (N1 & o1 & st1 & E1 & R1 & W1).
  { apply expr_rep_args. split; [reflexivity|]. constructor; [exact Hh|]. now apply two_rep. }
  destruct (I2 env st1 h o1 xs' He W1 Hh R1 Hxs) as (N2 & o2 & st2 & E2 & R2 & W2).
  exists (S (Nat.max (Nat.max N0 Nb) (Nat.max N1 N2))), o2, st2. split; [|split; assumption].
  intros k Hk. destruct k as [|k]; [exfalso; lia|]. rewrite reduce_fn. cbn [ev_reduce]. rewrite Eh. cbn [bind]. rewrite E0 by lia. cbn [bind].
  rewrite not_unbound by exact Hu. rewrite <- Er.
  assert (Egoal : (do ' (c, sc, st) <- eval_arg (rec k) env st0 b';
          if c =? UNBOUND then Ok (c, None, st) else
          match sc with
          | None => Ok (1, None, st)
          | Some _ =>
              do s <- aget sc 0;
              do s <- copy_into atom_fresh s;
              do ' (_, o, st) <- rec k env st (Ex FApply (h :: two_args right (AAtom s) (AAtom x')));
              do ' (o, st) <- reduce_loop (rec k) env right h xs' o st;
              Ok (0, o, st)
          end) = Ok (0, o2, st2)).
  { rewrite Eb by lia. cbn [bind]. rewrite not_unbound by exact Hub. rewrite aget_zero. cbn [hd_error bind copy_into]. rewrite Ev2. cbn [bind].
    rewrite E1 by lia. cbn [bind]. rewrite E2 by lia. reflexivity. }
  destruct xs'; exact Egoal.
Qed.
Lemma r_reduce_unbound right V w f a args o w1 : no_list f = true -> PE V w a unbound o w1 ->
  PR V w (Ex (reducer right) (f :: a :: args)) unbound None w1.
Proof.
  intros Hf I0 env st [g args'] He Hw Hr. apply expr_rep_args in Hr as [-> Hr].
  inversion Hr as [|f' ? l' ? Hf' Hl]; subst. inversion Hl as [|a' ? l'' ? Ha Hl']; subst.
  destruct (proj1 copy_rep_all f' f Hf' Hf) as (h & Eh & Hh).
  destruct (I0 env st a' He Hw Ha) as (N0 & o0 & st0 & E0 & R0 & W0).
  exists (S N0), None, st0. split; [|split; [constructor|assumption]].
  intros k Hk. destruct k as [|k]; [exfalso; lia|]. rewrite reduce_fn. cbn [ev_reduce]. rewrite Eh. cbn [bind]. rewrite E0 by lia. reflexivity.
Qed.

(** assign *)
Lemma r_assign V w a b more s w1 o w2 : PT V w a s w1 -> address_code s 0 -> PE V w1 b 0 o w2 ->
  fits (with_msgs w2 (store s (values o) (msgs w2))) ->
  PR V w (Ex FAssign (a :: b :: more)) 0 o (with_msgs w2 (store s (values o) (msgs w2))).
Proof.
  intros I1 Hs I2 Hfit env st [g args'] He Hw Hr. apply expr_rep_args in Hr as [-> Hr].
  inversion Hr as [|a' ? l' ? Ha Hl]; subst. inversion Hl as [|b' ? l'' ? Hb Hl']; subst.
  destruct (I1 env st a' He Hw Ha) as (N1 & st1 & E1 & (Hn & Hwf & Hlen) & W1).
  destruct (I2 env st1 b' He W1 Hb) as (N2 & o2 & st2 & E2 & R2 & W2).
  assert (Hst : Forall2 stands (match o2 with Some l => l | None => [] end) (values o)).
  { destruct R2; [constructor|assumption]. }
  assert (Ha47 : hd 0 s = 47) by (inversion Hs; assumption).
  destruct (make_rep fresh Hfresh s _ _ Hst Ha47 Hn Hwf Hlen) as (r & Er & Hr1 & Hr2).
  { apply (in_fits _ _ Hfit). cbn [msgs with_msgs]. apply in_store. }
  destruct (store_rep fresh Hfresh st2 w2 s (values o) r W2 Hr1 Hr2 Hfit) as (st3 & E3 & W3).
  exists (S (Nat.max N1 N2)), o2, st3. split; [|split; assumption]. fuel k Hk. unfold ev_assign. cbn [nth_error].
  rewrite E1 by lia. cbn [bind]. rewrite (address_validate _ _ Hs). cbn [Z.eqb negb eval_opt]. rewrite E2 by lia. cbn [bind Z.eqb negb].
  rewrite Er. cbn [bind]. rewrite E3. reflexivity.
Qed.
Lemma r_assign_address V w a b more s w1 c : PT V w a s w1 -> address_code s c -> c <> 0 ->
  PR V w (Ex FAssign (a :: b :: more)) c None w1.
Proof.
  intros I1 Hs Hc env st [g args'] He Hw Hr. apply expr_rep_args in Hr as [-> Hr]. inversion Hr as [|a' ? l' ? Ha Hl]; subst.
  destruct (I1 env st a' He Hw Ha) as (N1 & st1 & E1 & _ & W1).
  exists (S N1), None, st1. split; [|split; [constructor|assumption]]. fuel k Hk. unfold ev_assign. cbn [nth_error].
  rewrite E1 by lia. cbn [bind]. rewrite (address_validate _ _ Hs). now rewrite not_zero.
Qed.
Lemma r_assign_fails V w a b more s w1 c o w2 : PT V w a s w1 -> address_code s 0 -> PE V w1 b c o w2 -> c <> 0 ->
  PR V w (Ex FAssign (a :: b :: more)) c o w2.
Proof.
  intros I1 Hs I2 Hc env st [g args'] He Hw Hr. apply expr_rep_args in Hr as [-> Hr].
  inversion Hr as [|a' ? l' ? Ha Hl]; subst. inversion Hl as [|b' ? l'' ? Hb Hl']; subst.
  destruct (I1 env st a' He Hw Ha) as (N1 & st1 & E1 & _ & W1).
  destruct (I2 env st1 b' He W1 Hb) as (N2 & o2 & st2 & E2 & R2 & W2).
  exists (S (Nat.max N1 N2)), o2, st2. split; [|split; assumption]. fuel k Hk. unfold ev_assign. cbn [nth_error].
  rewrite E1 by lia. cbn [bind]. rewrite (address_validate _ _ Hs). cbn [Z.eqb negb eval_opt]. rewrite E2 by lia. cbn [bind].
  now rewrite not_zero.
Qed.
Lemma r_assign_unbound V w p more args : lookup matches w p = None ->
  PR V w (Ex FAssign (AExpr (Ex FValue (AAddr p :: more)) :: args)) unbound None w.
Proof.
  intros Hn env st [g args'] He Hw Hr. apply expr_rep_args in Hr as [-> Hr]. inversion Hr as [|a' ? l' ? Ha Hl]; subst.
  destruct a' as [| | | [f xs] | |]; try contradiction. apply expr_rep_args in Ha as [-> Ha].
  inversion Ha as [|q ? xs' ? Hq Hxs]; subst. destruct q; try contradiction. destruct Hq as (-> & _).
  destruct (eval_addr_rep st w p Hw) as (o & Eo & Ho). rewrite Hn in Eo, Ho. rewrite (rep_None _ Ho) in Eo.
  exists 2%nat, None, st. split; [|split; [constructor|assumption]]. fuel k Hk. unfold ev_assign. cbn [nth_error EvalModel.target].
  rewrite Eo. cbn [bind eval_opt eval_arg]. destruct k as [|k]; [exfalso; lia|]. cbn [eval_in ev_expr]. unfold ev_value.
  cbn [nth_error eval_opt eval_arg]. rewrite Eo. reflexivity.
Qed.

(** assign to an index *)
Lemma r_index V w p i d old c1 is ns c2 ds : quiet i = true -> quiet d = true -> hd 0 p = 47 ->
    lookup matches w p = Some old ->
    PE V w i c1 (Some is) w -> c1 <> unbound -> PE V w d c2 (Some ds) w -> c2 <> unbound ->
    map whole is = map Some ns -> ns <> [] -> ds <> [] ->
    (1 < zlen ds -> forall n, ns = [n] -> 0 <= n < zlen old) ->
    let new := at_places old ns (match ds with [d] => repeat d (length ns) | _ => ds end) in
    fits (with_msgs w (overwrite matches p new (msgs w))) ->
    PR V w (Ex FAssignIndex [AAddr p; i; d]) 0 (Some new) (with_msgs w (overwrite matches p new (msgs w))).
Proof.
  intros Hqi Hqd Hp Hold I1 Hu1 I2 Hu2 Hint Hns Hds Hone new Hfit env st [g args'] He Hw Hr. apply expr_rep_args in Hr as [-> Hr].
  inversion Hr as [|a' ? l' ? Ha Hl]; subst. inversion Hl as [|i' ? l'' ? Hi Hl']; subst.
  inversion Hl' as [|d' ? l3 ? Hd Hl3]; subst. inversion Hl3; subst. destruct a'; try contradiction. destruct Ha as (-> & Hn & Hwf & Hlen).
  destruct (I1 env st i' He Hw Hi) as (N1 & o1 & st1 & E1 & R1 & _).
  assert (st1 = st).
  { apply (quiet_arg _ (quiet_in table plain fresh N1) env st i' c1 o1 st1); [now rewrite (proj1 rep_quiet_all i' i Hi)|]. now apply E1. }
  subst st1.
  destruct (I2 env st d' He Hw Hd) as (N2 & o2 & st2 & E2 & R2 & _).
  assert (st2 = st).
  { apply (quiet_arg _ (quiet_in table plain fresh N2) env st d' c2 o2 st2); [now rewrite (proj1 rep_quiet_all d' d Hd)|]. now apply E2. }
  subst st2.
  destruct (rep_Some _ _ R1) as (idx & -> & Hidx). destruct (rep_Some _ _ R2) as (data & -> & Hdata).
  destruct (first_rep st w p Hw) as (r & Er & Hr').
  destruct r as [ar|]; [|congruence].
  destruct Hr' as (m & rest & rs1 & a0 & xs & rs2 & P & post & -> & Hh & Hms & Hnot & Hmat & Hlk & Hby & HP & Hsh & _).
  rewrite Hold in Hlk. injection Hlk as Hlk.
  destruct (eval_addr_rep st w p Hw) as (o & Eo & Ho). rewrite Hold in Eo, Ho. destruct (rep_Some _ _ Ho) as (l & -> & Hlo).
  destruct (put_cases l old idx is ns data ds Hlo Hidx Hint Hdata Hns Hds Hone) as (l2 & El2 & Hl2). fold new in Hl2.
  assert (Eow : overwrite matches p new (msgs w) = map narrow_msg rs1 ++ M p new :: map narrow_msg rs2).
  { rewrite <- Hms, narrow_msgs_app. cbn [narrow_msg]. apply overwrite_first; [|exact Hmat].
    rewrite Forall_map. eapply Forall_impl; [|exact Hnot]. intros mm Hmm. now rewrite addr_narrow. }
  destruct (make_rep fresh Hfresh p l2 new Hl2 Hp Hn Hwf Hlen) as (r & Emk & Hr1 & Hr2).
  { apply (in_fits _ _ Hfit). cbn [msgs with_msgs]. rewrite Eow. apply in_or_app. right. now left. }
  assert (Emsgs : overwrite matches p new (msgs w) = map narrow_msg (rs1 ++ r :: rs2)) by now rewrite Eow, narrow_msgs_app, Hr2.
  destruct (replace_rep fresh Hfresh st (time w) rs1 (M a0 xs) rs2 r Hh Hr1) as (st3 & E3 & H3).
  { unfold fits in Hfit. cbn [msgs with_msgs] in Hfit. rewrite Emsgs, enc_len in Hfit. exact Hfit. }
  exists (S (Nat.max N1 N2)), (Some l2), st3. split; [|split; [now constructor|]].
  2:{ apply rep_holds. exists (rs1 ++ r :: rs2). split; [exact H3|]. cbn [msgs with_msgs]. now symmetry. }
  fuel k Hk. cbn [ev_assign_index]. rewrite Er. cbn [bind].
  change (rd (m :: rest) 0) with (@Ok msg_s m). cbn [bind]. rewrite Eo. cbn [bind]. change (0 =? UNBOUND) with false. cbv iota.
  rewrite E1 by lia. cbn [bind]. rewrite not_unbound by exact Hu1. rewrite E2 by lia. cbn [bind]. rewrite not_unbound by exact Hu2.
  cbn [alen]. rewrite (Forall2_zlen _ _ _ Hlo).
  assert (Ei : zlen idx =? 0 = false).
  { apply Z.eqb_neq. rewrite (Forall2_zlen _ _ _ Hidx). unfold zlen. rewrite <- (map_length whole is), Hint, map_length. destruct ns; [now destruct Hns|discriminate]. }
  assert (Ed : zlen data =? 0 = false).
  { apply Z.eqb_neq. rewrite (Forall2_zlen _ _ _ Hdata). destruct ds; [now destruct Hds|discriminate]. }
  rewrite Ei, Ed. cbn [orb]. rewrite El2. cbn [bind]. rewrite Emk. cbn [bind].
  destruct Hsh as (Hsz & _). rewrite Hsz, Nat.eqb_refl, HP, E3. reflexivity.
Qed.
Lemma r_index_none V w p i d : lookup matches w p = None -> PR V w (Ex FAssignIndex [AAddr p; i; d]) 1 None w.
Proof.
  intros Hn env st [g args'] He Hw Hr. apply expr_rep_args in Hr as [-> Hr].
  inversion Hr as [|a' ? l' ? Ha Hl]; subst. inversion Hl as [|i' ? l'' ? Hi Hl']; subst.
  inversion Hl' as [|d' ? l3 ? Hd Hl3]; subst. inversion Hl3; subst. destruct a'; try contradiction. destruct Ha as (-> & _).
  destruct (first_rep st w p Hw) as (r & Er & Hr'). destruct r as [ar|].
  { destruct Hr' as (? & ? & ? & ? & ? & ? & ? & ? & _ & _ & _ & _ & _ & Hlk & _). congruence. }
  exists 1%nat, None, st. split; [|split; [constructor|exact Hw]]. fuel k Hk. cbn [ev_assign_index]. now rewrite Er.
Qed.

(** if *)
Lemma branch_rep r env st n a c o st' ov : (n =? 0) = false -> eval_arg r env st a = Ok (c, o, st') -> result_rep o ov ->
  exists o', ev_branch r env st n a = Ok (c, o', st') /\ result_rep o' (if c =? 0 then Some (values ov) else None).
Proof.
  intros Hn E Ho. unfold ev_branch. rewrite Hn, E. cbn [bind]. destruct (c =? 0) eqn:Ec; cbn [negb].
  - apply Z.eqb_eq in Ec. subst c. destruct (copy_alloc o ov Ho) as (r' & Er & Hr).
    destruct (aalloc (alen o)) as [ou| |]; cbn [bind] in Er |- *; try discriminate Er. rewrite Er. cbn [bind]. exists r'. split; [reflexivity|exact Hr].
  - exists None. split; [reflexivity|constructor].
Qed.
Lemma test_rep o t ts n : result_rep o (Some (t :: ts)) -> whole t = Some n ->
  exists x, aget o 0 = Ok x /\ int32_at x = Ok n /\ (alen o =? 0) = false.
Proof.
  intros H Hw. pose proof (rep_len _ _ H) as Hl. destruct (rep_Some _ _ H) as (l & -> & Hs). inversion Hs as [|x ? l' ? Hx _]; subst.
  exists (Some x). rewrite aget_zero. split; [reflexivity|]. split; [exact (proj2 (stands_whole _ _ _ Hx Hw))|].
  rewrite Hl. cbn [values]. rewrite zlen_cons. pose proof (zlen_nonneg ts). apply Z.eqb_neq. lia.
Qed.
Lemma r_if V w test yes no t ts n w1 c o w2 : PE V w test 0 (Some (t :: ts)) w1 -> whole t = Some n ->
  PE V w1 (if n =? 0 then no else yes) c o w2 ->
  PR V w (Ex FIf [test; yes; no]) c (if c =? 0 then Some (values o) else None) w2.
Proof.
  intros I1 Ht I2 env st [g args'] He Hw Hr. apply expr_rep_args in Hr as [-> Hr].
  inversion Hr as [|a' ? l' ? Ha Hl]; subst. inversion Hl as [|y' ? l'' ? Hy Hl']; subst.
  inversion Hl' as [|n' ? l3 ? Hn Hl3]; subst. inversion Hl3; subst.
  destruct (I1 env st a' He Hw Ha) as (N1 & o1 & st1 & E1 & R1 & W1).
  destruct (test_rep o1 t ts n R1 Ht) as (x & Ex1 & Ex2 & Ex3).
  destruct (I2 env st1 (if n =? 0 then n' else y') He W1) as (N2 & o2 & st2 & E2 & R2 & W2); [destruct (n =? 0); assumption|].
  destruct (branch_rep (rec (Nat.max N1 N2)) env st1 (alen o1) _ c o2 st2 o Ex3 (E2 _ (Nat.le_max_r _ _)) R2) as (o3 & _ & R3).
  exists (S (Nat.max N1 N2)).
  assert (K : forall k, (Nat.max N1 N2 <= k)%nat -> exists o4, ev_branch (rec k) env st1 (alen o1) (if n =? 0 then n' else y') = Ok (c, o4, st2) /\
     o4 = (if c =? 0 then match aalloc (alen o2) with Ok u => match acopy_into u o2 0 with Ok v => v | _ => None end | _ => None end else None) /\
     result_rep o4 (if c =? 0 then Some (values o) else None)).
  { intros k Hk. destruct (branch_rep (rec k) env st1 (alen o1) _ c o2 st2 o Ex3 (E2 k ltac:(lia)) R2) as (o4 & E4 & R4).
    exists o4. split; [exact E4|]. split; [|exact R4]. unfold ev_branch in E4. rewrite Ex3, (E2 k) in E4 by lia. cbn [bind] in E4.
    destruct (c =? 0); cbn [negb] in E4; [|now injection E4].
    destruct (aalloc (alen o2)) as [u| |]; cbn [bind] in E4; try discriminate E4.
    destruct (acopy_into u o2 0); cbn [bind] in E4; try discriminate E4. now injection E4. }
  destruct (K (Nat.max N1 N2) (le_n _)) as (o4 & _ & Eo4 & R4). exists o4, st2. split; [|split; assumption].
  fuel k Hk. cbn [ev_if]. rewrite E1 by lia. cbn [bind Z.eqb negb]. rewrite Ex1. cbn [bind]. rewrite Ex2. cbn [bind].
  destruct (K k ltac:(lia)) as (o5 & E5 & Eo5 & _). rewrite <- Eo4 in Eo5. subst o5. destruct (n =? 0); exact E5.
Qed.
Lemma r_if_only V w test yes t ts n w1 c o w2 : PE V w test 0 (Some (t :: ts)) w1 -> whole t = Some n -> n <> 0 ->
  PE V w1 yes c o w2 -> PR V w (Ex FIf [test; yes]) c (if c =? 0 then Some (values o) else None) w2.
Proof.
  intros I1 Ht Hn I2 env st [g args'] He Hw Hr.
  assert (I3 : PR V w (Ex FIf [test; yes; yes]) c (if c =? 0 then Some (values o) else None) w2).
  { apply (r_if V w test yes yes t ts n w1 c o w2 I1 Ht). now destruct (n =? 0). }
  apply expr_rep_args in Hr as [-> Hr].
  inversion Hr as [|a' ? l' ? Ha Hl]; subst. inversion Hl as [|y' ? l'' ? Hy Hl']; subst. inversion Hl'; subst.
  destruct (I3 env st (Ex FIf [a'; y'; y']) He Hw) as (N & o1 & st1 & E1 & R1 & W1).
  { apply expr_rep_args. split; [reflexivity|]. repeat (constructor; [assumption|]). constructor. }
  destruct (I1 env st a' He Hw Ha) as (N1 & o2 & st2 & E2 & R2 & W2). destruct (test_rep o2 t ts n R2 Ht) as (x & Ex1 & Ex2 & Ex3).
  exists (S (Nat.max N N1)), o1, st1. split; [|split; assumption]. intros k Hk. rewrite <- (E1 k) by lia.
  destruct k as [|k]; [exfalso; lia|]. cbn [eval_in ev_expr ev_if]. rewrite E2 by lia. cbn [bind Z.eqb negb]. rewrite Ex1. cbn [bind]. rewrite Ex2. cbn [bind].
  now rewrite not_zero.
Qed.
Lemma r_if_not V w test yes t ts w1 : PE V w test 0 (Some (t :: ts)) w1 -> whole t = Some 0 ->
  PR V w (Ex FIf [test; yes]) 0 (Some []) w1.
Proof.
  intros I1 Ht env st [g args'] He Hw Hr. apply expr_rep_args in Hr as [-> Hr].
  inversion Hr as [|a' ? l' ? Ha Hl]; subst. inversion Hl as [|y' ? l'' ? Hy Hl']; subst. inversion Hl'; subst.
  destruct (I1 env st a' He Hw Ha) as (N1 & o1 & st1 & E1 & R1 & W1). destruct (test_rep o1 t ts 0 R1 Ht) as (x & Ex1 & Ex2 & Ex3).
  exists (S N1), (Some []), st1. split; [|split; [constructor; constructor|assumption]]. fuel k Hk. cbn [ev_if]. rewrite E1 by lia.
  cbn [bind Z.eqb negb]. rewrite Ex1. cbn [bind]. rewrite Ex2. reflexivity.
Qed.
Lemma r_if_fails V w test yes no c o w1 : (length no <= 1)%nat -> PE V w test c o w1 -> c <> 0 ->
  PR V w (Ex FIf (test :: yes :: no)) c None w1.
Proof.
  intros Hno I1 Hc env st [g args'] He Hw Hr. apply expr_rep_args in Hr as [-> Hr].
  inversion Hr as [|a' ? l' ? Ha Hl]; subst. inversion Hl as [|y' ? l'' ? Hy Hl']; subst.
  destruct (I1 env st a' He Hw Ha) as (N1 & o1 & st1 & E1 & R1 & W1).
  exists (S N1), None, st1. split; [|split; [constructor|assumption]]. fuel k Hk. pose proof (Forall2_len _ _ _ Hl') as Hlen.
  destruct l'' as [|n' [|? ?]]; [| |cbn [length] in *; lia]; cbn [ev_if]; rewrite E1 by lia; cbn [bind]; now rewrite not_zero.
Qed.

(** andalso and orelse *)
Lemma truth_tag o b vs : result_rep o (Some (truth b :: vs)) -> exists l, o = Some l /\ tag0 o = Ok (if b then 84 else 70).
Proof.
  intros H. destruct (rep_Some _ _ H) as (l & El & _). exists l. split; [exact El|]. rewrite (tag_zero _ _ H). now destruct b.
Qed.
Lemma r_stop (stop : bool) V w a b vs w1 : PE V w a 0 (Some (truth stop :: vs)) w1 ->
  PR V w (Ex (if stop then FOrelse else FAndalso) [a; b]) 0 (Some [truth stop]) w1.
Proof.
  intros I1 env st [g args'] He Hw Hr. apply expr_rep_args in Hr as [-> Hr].
  inversion Hr as [|a' ? l' ? Ha Hl]; subst. inversion Hl as [|b' ? l'' ? Hb Hl']; subst. inversion Hl'; subst.
  destruct (I1 env st a' He Hw Ha) as (N1 & o1 & st1 & E1 & R1 & W1). destruct (truth_tag _ _ _ R1) as (l & -> & Ht).
  exists (S N1), (one_bool stop), st1. split; [|split; [apply rep_bool|assumption]].
  fuel k Hk. destruct stop; cbn [ev_shortcut]; rewrite E1 by lia; cbn [bind Z.eqb negb]; rewrite Ht; reflexivity.
Qed.
Lemma r_go (stop : bool) V w a b vs w1 r vs' w2 : PE V w a 0 (Some (truth (negb stop) :: vs)) w1 ->
  PE V w1 b 0 (Some (truth r :: vs')) w2 -> PR V w (Ex (if stop then FOrelse else FAndalso) [a; b]) 0 (Some [truth r]) w2.
Proof.
  intros I1 I2 env st [g args'] He Hw Hr. apply expr_rep_args in Hr as [-> Hr].
  inversion Hr as [|a' ? l' ? Ha Hl]; subst. inversion Hl as [|b' ? l'' ? Hb Hl']; subst. inversion Hl'; subst.
  destruct (I1 env st a' He Hw Ha) as (N1 & o1 & st1 & E1 & R1 & W1). destruct (truth_tag _ _ _ R1) as (l & -> & Ht).
  destruct (I2 env st1 b' He W1 Hb) as (N2 & o2 & st2 & E2 & R2 & W2). destruct (truth_tag _ _ _ R2) as (l2 & -> & Ht2).
  exists (S (Nat.max N1 N2)), (one_bool r), st2. split; [|split; [apply rep_bool|assumption]].
  fuel k Hk. destruct stop; cbn [ev_shortcut]; rewrite E1 by lia; cbn [bind Z.eqb negb]; rewrite Ht; cbn [bind negb Z.eqb Pos.eqb orb];
    rewrite E2 by lia; cbn [bind Z.eqb negb]; rewrite Ht2; destruct r; reflexivity.
Qed.
Lemma shortcut_fn f k env st args : f = FAndalso \/ f = FOrelse -> exists stop, rec (S k) env st (Ex f args) = ev_shortcut (rec k) stop env st args.
Proof. intros [->| ->]; eexists; reflexivity. Qed.
Lemma r_shortcut_fails V w f a b c o w1 : f = FAndalso \/ f = FOrelse -> PE V w a c o w1 -> c <> 0 -> PR V w (Ex f [a; b]) c None w1.
Proof.
  intros Hf I1 Hc env st [g args'] He Hw Hr. apply expr_rep_args in Hr as [-> Hr].
  inversion Hr as [|a' ? l' ? Ha Hl]; subst. inversion Hl as [|b' ? l'' ? Hb Hl']; subst. inversion Hl'; subst.
  destruct (I1 env st a' He Hw Ha) as (N1 & o1 & st1 & E1 & R1 & W1).
  exists (S N1), None, st1. split; [|split; [constructor|assumption]]. intros k Hk. destruct k as [|k]; [exfalso; lia|].
  destruct (shortcut_fn f k env st [a'; b'] Hf) as (stop & ->). cbn [ev_shortcut]. rewrite E1 by lia. cbn [bind].
  destruct o1; [|reflexivity]. now rewrite not_zero.
Qed.
Lemma flag_truth v : std_value slash v -> vtag v = 84 \/ vtag v = 70 -> v = truth true \/ v = truth false.
Proof.
  destruct v as [tg x|tg x|s f|s|bb|tg|ms]; cbn [std_value vtag]; intros Hs Ht; try (exfalso; destruct Ht as [Ht|Ht]; discriminate Ht).
  - exfalso. destruct Hs as [Hs _]. cbn [In] in Hs. destruct Ht; subst; intuition discriminate.
  - exfalso. destruct Hs as [Hs _]. cbn [In] in Hs. destruct Ht; subst; intuition discriminate.
  - destruct Ht; subst; auto.
Qed.
Lemma r_shortcut_not_bool V w f a b v vs w1 : f = FAndalso \/ f = FOrelse -> PE V w a 0 (Some (v :: vs)) w1 ->
  v <> truth true -> v <> truth false -> PR V w (Ex f [a; b]) 1 None w1.
Proof.
  intros Hf I1 Hv1 Hv2 env st [g args'] He Hw Hr. apply expr_rep_args in Hr as [-> Hr].
  inversion Hr as [|a' ? l' ? Ha Hl]; subst. inversion Hl as [|b' ? l'' ? Hb Hl']; subst. inversion Hl'; subst.
  destruct (I1 env st a' He Hw Ha) as (N1 & o1 & st1 & E1 & R1 & W1). pose proof (tag_zero _ _ R1) as Ht. cbn [values] in Ht.
  pose proof (result_std _ _ R1) as Hstd. apply Forall_inv in Hstd. destruct (rep_Some _ _ R1) as (l & -> & _).
  exists (S N1), None, st1. split; [|split; [constructor|assumption]]. intros k Hk. destruct k as [|k]; [exfalso; lia|].
  destruct (shortcut_fn f k env st [a'; b'] Hf) as (stop & ->). cbn [ev_shortcut]. rewrite E1 by lia. cbn [bind Z.eqb negb]. rewrite Ht. cbn [bind].
  replace ((vtag v =? 84) || (vtag v =? 70)) with false; [reflexivity|]. symmetry. apply orb_false_iff.
  split; apply Z.eqb_neq; intros E; destruct (flag_truth v Hstd ltac:(auto)); contradiction.
Qed.

(** questions *)
Lemma r_empty V w : PR V w (Ex FEmpty []) 0 (Some [truth (match msgs w with [] => true | _ => false end)]) w.
Proof.
  intros env st [g args'] He Hw Hr. apply expr_rep_args in Hr as [-> Hr]. inversion Hr; subst.
  eexists 1%nat, _, st. split; [fuel k Hk; reflexivity|]. split; [|exact Hw].
  replace (match msgs w with [] => true | _ :: _ => false end) with (b_len st =? 16); [apply rep_bool|].
  apply rep_holds in Hw as (rs & (room & _ & Hl & _) & Hm). rewrite Hl, <- Hm, zlen_app, zlen_header.
  destruct rs as [|[a xs] rs]; [reflexivity|]. cbn [map concat enc_message]. rewrite zlen_app, zlen_sized'. apply Z.eqb_neq.
  pose proof (zlen_nonneg (concat (map enc_message rs))). match goal with |- context [4 + zlen ?b] => pose proof (zlen_nonneg b) end. lia.
Qed.
Lemma r_exists V w a more s w1 : PQ V w a s w1 -> PR V w (Ex FExists (a :: more)) 0 (Some [truth (exists_in matches w1 s)]) w1.
Proof.
  intros I1 env st [g args'] He Hw Hr. apply expr_rep_args in Hr as [-> Hr]. inversion Hr as [|a' ? l' ? Ha Hl]; subst.
  destruct (I1 env st a' He Hw Ha) as (N1 & st1 & E1 & W1). eexists (S N1), _, st1. split; [|split; [apply rep_bool|exact W1]].
  fuel k Hk. rewrite E1 by lia. rewrite (exists_rep st1 w1 s W1). reflexivity.
Qed.
Lemma r_bound V w a more s w1 : PQ V w a s w1 -> plain_name s -> Forall (fun '(M x _) => ~ In 42 x) (msgs w1) ->
  PR V w (Ex FBound (a :: more)) 0 (Some [truth (bound_in w1 s)]) w1.
Proof.
  intros I1 Hp Hst env st [g args'] He Hw Hr. apply expr_rep_args in Hr as [-> Hr]. inversion Hr as [|a' ? l' ? Ha Hl]; subst.
  destruct (I1 env st a' He Hw Ha) as (N1 & st1 & E1 & W1). eexists (S N1), _, st1. split; [|split; [apply rep_bool|exact W1]].
  fuel k Hk. rewrite E1 by lia. rewrite (bound_rep st1 w1 s W1 Hp Hst). reflexivity.
Qed.
Lemma r_addresses V w : PR V w (Ex FAddresses []) 0 (Some (map (fun '(M a _) => VStr a) (msgs w))) w.
Proof.
  intros env st [g args'] He Hw Hr. apply expr_rep_args in Hr as [-> Hr]. inversion Hr; subst.
  destruct (addresses_rep fresh Hfresh st w Hw) as (o & Eo & Ho). exists 1%nat, o, st. split; [fuel k Hk; exact Eo|]. split; assumption.
Qed.
Lemma r_count_messages V w args : PR V w (Ex FCount args) 0 (Some [VNum32 105 (zlen (msgs w))]) w.
Proof.
  intros env st [g args'] He Hw Hr. apply expr_rep_args in Hr as [-> Hr]. destruct (count_rep fresh Hfresh st w Hw) as [Ec Hb].
  eexists 1%nat, _, st. split; [fuel k Hk; unfold ev_count; rewrite Ec; reflexivity|]. split; [|exact Hw].
  constructor. constructor; [|constructor]. unfold set_int32, atom_fresh. 
  assert (Hst : SerialModel.store 32 0 (zlen (msgs w)) = zlen (msgs w)).
  { unfold SerialModel.store. rewrite (Z.mod_small (zlen _)) by lia. reflexivity. }
  rewrite Hst. split; [split; [cbn; split; [lia|split; discriminate]|exact I]|].
  cbn. rewrite Z.mod_small by lia. split; [|split; reflexivity]. split; [tauto|lia].
Qed.
Lemma r_value V w a more c s vs w1 : PE V w a c (Some (VStr s :: vs)) w1 -> c <> unbound ->
  PR V w (Ex FValue (a :: more)) 0 (lookup matches w1 s) w1.
Proof.
  intros I1 Hc env st [g args'] He Hw Hr. apply expr_rep_args in Hr as [-> Hr]. inversion Hr as [|a' ? l' ? Ha Hl]; subst.
  destruct (I1 env st a' He Hw Ha) as (N1 & o1 & st1 & E1 & R1 & W1). destruct (rep_Some _ _ R1) as (l & -> & Hs).
  destruct (first_rep st1 w1 s W1) as (r & Er & Hr'). destruct r as [ar|].
  - destruct Hr' as (m & rest & rs1 & a0 & xs & rs2 & P & post & -> & Hh & Hms & Hnot & Hmat & Hlk & Hby & HP & Hsh & Hcache).
    assert (Hstd : std_message slash (M a0 xs)).
    { destruct Hh as (_ & _ & _ & _ & _ & Hall & _). apply Forall_app in Hall as [_ Hall]. exact (Forall_inv Hall). }
    assert (Hlen : zlen (enc_message (M a0 xs)) + 4 < 2^31).
    { destruct Hh as (_ & _ & _ & _ & _ & _ & Hlt). rewrite zlen_app, zlen_header, piece, !zlen_app in Hlt.
      pose proof (zlen_nonneg (concat (map enc_message rs1))). pose proof (zlen_nonneg (concat (map enc_message rs2))). lia. }
    destruct (fetch_rep fresh Hfresh (bytes_of st1) m P a0 xs post Hstd Hlen Hby Hsh Hcache) as (Ecnt & o & Eo & Ho).
    rewrite Hlk. exists (S N1), o, st1. split; [|split; assumption]. fuel k Hk. unfold ev_value. cbn [nth_error eval_opt].
    rewrite E1 by lia. cbn [bind]. rewrite not_unbound by exact Hc. rewrite (tag_zero _ _ R1). cbn [bind values vtag Z.eqb Pos.eqb negb].
    rewrite (string_zero l s vs Hs). cbn [bind]. rewrite Er. cbn [bind]. change (rd (m :: rest) 0) with (@Ok msg_s m). cbn [bind].
    rewrite Ecnt. cbn [bind]. destruct (aalloc (zlen xs)) as [u| |]; cbn [bind] in Eo |- *; try discriminate Eo. rewrite Eo. reflexivity.
  - rewrite Hr'. exists (S N1), None, st1. split; [|split; [constructor|assumption]]. fuel k Hk. unfold ev_value. cbn [nth_error eval_opt].
    rewrite E1 by lia. cbn [bind]. rewrite not_unbound by exact Hc. rewrite (tag_zero _ _ R1). cbn [bind values vtag Z.eqb Pos.eqb negb].
    rewrite (string_zero l s vs Hs). cbn [bind]. rewrite Er. reflexivity.
Qed.
Lemma r_value_other V w a more c o w1 : PE V w a c o w1 -> c <> unbound -> (forall s vs, o <> Some (VStr s :: vs)) ->
  PR V w (Ex FValue (a :: more)) 0 None w1.
Proof.
  intros I1 Hc Ho env st [g args'] He Hw Hr. apply expr_rep_args in Hr as [-> Hr]. inversion Hr as [|a' ? l' ? Ha Hl]; subst.
  destruct (I1 env st a' He Hw Ha) as (N1 & o1 & st1 & E1 & R1 & W1).
  exists (S N1), None, st1. split; [|split; [constructor|assumption]]. fuel k Hk. unfold ev_value. cbn [nth_error eval_opt].
  rewrite E1 by lia. cbn [bind]. rewrite not_unbound by exact Hc. rewrite (tag_zero _ _ R1). cbn [bind].
  pose proof (result_std _ _ R1) as Hstd. destruct o as [[|v vs]|]; try reflexivity. cbn [values] in *. apply Forall_inv in Hstd.
  destruct (is_string v Hstd) as [(s & ->)|E]; [now destruct (Ho s vs)|]. now rewrite E.
Qed.
Lemma r_value_unbound V w a more o w1 : PE V w a unbound o w1 -> PR V w (Ex FValue (a :: more)) unbound None w1.
Proof.
  intros I1 env st [g args'] He Hw Hr. apply expr_rep_args in Hr as [-> Hr]. inversion Hr as [|a' ? l' ? Ha Hl]; subst.
  destruct (I1 env st a' He Hw Ha) as (N1 & o1 & st1 & E1 & R1 & W1).
  exists (S N1), None, st1. split; [|split; [constructor|assumption]]. fuel k Hk. unfold ev_value. cbn [nth_error eval_opt].
  rewrite E1 by lia. reflexivity.
Qed.
Lemma r_delete V w a args : PR V w (Ex FDelete (a :: args)) 0 None (with_msgs w (without (names_of (a :: args)) (msgs w))).
Proof.
  intros env st [g args'] He Hw Hr. apply expr_rep_args in Hr as [-> Hr].
  destruct (delete_all_rep _ _ Hr st w Hw) as (st1 & E1 & W1). exists 1%nat, None, st1. split; [|split; [constructor|exact W1]].
  fuel k Hk. unfold ev_delete. inversion Hr; subst. now rewrite E1.
Qed.
Lemma r_quote V w v more : PR V w (Ex FQuote (AAtom v :: more)) 0 (Some [v]) w.
Proof.
  intros env st [g args'] He Hw Hr. apply expr_rep_args in Hr as [-> Hr]. inversion Hr as [|a' ? l' ? Ha Hl]; subst.
  destruct a'; try contradiction. cbn [arg_rep] in Ha. destruct (copy_stands _ _ Ha) as (b & Eb & Hb).
  exists 1%nat, (Some [b]), st. split; [|split; [constructor; constructor; [exact Hb|constructor]|exact Hw]].
  fuel k Hk. cbn [ev_quote]. now rewrite Eb.
Qed.
Lemma r_get_time V w args : PR V w (Ex FGetTime args) 0 (Some [VTime (fst (time w)) (snd (time w))]) w.
Proof.
  intros env st [g args'] He Hw Hr. apply expr_rep_args in Hr as [-> Hr]. pose proof (get_time_rep st w Hw) as Et.
  assert (Hb : 0 <= fst (time w) < 2^32 /\ 0 <= snd (time w) < 2^32) by (destruct Hw as (? & ? & _ & _ & H1 & H2 & _); auto).
  destruct (time w) as [s f]. cbn [fst snd] in *. eexists 1%nat, _, st. split; [fuel k Hk; unfold ev_get_time; rewrite Et; reflexivity|].
  split; [|exact Hw]. constructor. constructor; [|constructor]. unfold set_timetag, atom_fresh. cbn [sec frac].
  unfold u32. rewrite !Z.mod_small by lia. assert (E1 : (s + 2^32 * f) mod 2^32 = s) by (rewrite (Z.mul_comm (2^32)), Z_mod_plus_full; apply Z.mod_small; lia).
  assert (E2 : (s + 2^32 * f) / 2^32 = f) by (rewrite (Z.mul_comm (2^32)), Z_div_plus_full by lia; rewrite Z.div_small by lia; lia).
  assert (Ev : raw_value (Atom 116 (s + 2^32 * f) PNone) = VTime s f).
  { cbn [raw_value existsb Z.eqb Pos.eqb orb]. rewrite E1, E2. now rewrite Z.mod_small by lia. }
  unfold stands, copyable. rewrite Ev. split; [split; [|exact I]|split; [cbn; lia|split; reflexivity]].
  cbn [ok_atom]. split; [lia|split; discriminate].
Qed.
Lemma time_atom x v : stands x v -> 
  au_timetag x = TT (fst (match v with VTime s f => (s, f) | _ => (0, 0) end)) (snd (match v with VTime s f => (s, f) | _ => (0, 0) end)).
Proof.
  intros H. pose proof (stands_std _ _ H) as Hs. destruct H as (_ & _ & Hn & Ht). destruct x as [tg w p]. cbn [a_tt] in Ht. unfold au_timetag. rewrite Ht.
  destruct v as [t' z|t' z|s f|s|bb|t'|ms]; cbn [vtag std_value] in *.
  - destruct Hs as [Hs _]. cbn [In] in Hs. destruct (t' =? 116) eqn:E; [|reflexivity]. apply Z.eqb_eq in E. subst t'. exfalso. subst tg. intuition discriminate.
  - destruct Hs as [Hs _]. cbn [In] in Hs. destruct (t' =? 116) eqn:E; [|reflexivity]. apply Z.eqb_eq in E. subst t'. exfalso. subst tg. intuition discriminate.
  - subst tg. cbn [raw_value existsb Z.eqb Pos.eqb orb narrow] in Hn. injection Hn as <- <-. reflexivity.
  - reflexivity.
  - reflexivity.
  - cbn [In] in Hs. destruct (t' =? 116) eqn:E; [|reflexivity]. apply Z.eqb_eq in E. subst t'. exfalso. subst tg. intuition discriminate.
  - reflexivity.
Qed.
Lemma r_set_time V w a more v vs w1 : PE V w a 0 (Some (v :: vs)) w1 ->
  PR V w (Ex FSetTime (a :: more)) 0 None (W (match v with VTime s f => (s, f) | _ => (0, 0) end) (msgs w1)).
Proof.
  intros I1 env st [g args'] He Hw Hr. apply expr_rep_args in Hr as [-> Hr]. inversion Hr as [|a' ? l' ? Ha Hl]; subst.
  destruct (I1 env st a' He Hw Ha) as (N1 & o1 & st1 & E1 & R1 & W1). destruct (rep_Some _ _ R1) as (l & -> & Hs).
  inversion Hs as [|x ? l2 ? Hx _]; subst. pose proof (time_atom _ _ Hx) as Et. pose proof (stands_std _ _ Hx) as Hstd.
  set (t := match v with VTime s f => (s, f) | _ => (0, 0) end) in *.
  assert (Hb : 0 <= fst t < 2^32 /\ 0 <= snd t < 2^32).
  { destruct v; cbn [t fst snd]; try lia. cbn [std_value] in Hstd. exact Hstd. }
  destruct Hb as [Hb1 Hb2].
  destruct (set_time_rep fresh Hfresh st1 w1 (fst t) (snd t) (b_moves st1) W1 Hb1 Hb2) as (b & Eb & Wb).
  eexists (S N1), None, _. split; [|split; [constructor|]].
  - fuel k Hk. unfold ev_set_time. cbn [nth_error eval_opt]. rewrite E1 by lia. cbn [bind Z.eqb negb]. rewrite aget_zero. cbn [bind hd_error].
    rewrite Et, Eb. reflexivity.
  - rewrite <- surjective_pairing in Wb. exact Wb.
Qed.
Lemma r_set_time_fails V w a more c o w1 : PE V w a c o w1 -> c <> 0 \/ values o = [] ->
  PR V w (Ex FSetTime (a :: more)) 1 None w1.
Proof.
  intros I1 Hc env st [g args'] He Hw Hr. apply expr_rep_args in Hr as [-> Hr]. inversion Hr as [|a' ? l' ? Ha Hl]; subst.
  destruct (I1 env st a' He Hw Ha) as (N1 & o1 & st1 & E1 & R1 & W1).
  exists (S N1), None, st1. split; [|split; [constructor|assumption]]. fuel k Hk. unfold ev_set_time. cbn [nth_error eval_opt].
  rewrite E1 by lia. cbn [bind]. destruct (c =? 0) eqn:E; [|reflexivity]. cbn [negb]. apply Z.eqb_eq in E. destruct Hc as [Hc|Hc]; [contradiction|].
  destruct R1 as [|l vs Hl1]; [reflexivity|]. cbn [values] in Hc. subst vs. inversion Hl1; subst. reflexivity.
Qed.

(** * All rules together *)

Theorem simulation :
  (forall V w a c o w', evals V w a c o w' -> PE V w a c o w') /\
  (forall V w args c os w', evals_all matches table sem V w args c os w' -> PA V w args c os w') /\
  (forall V w args c os w', collects matches table sem V w args c os w' -> PL V w args c os w') /\
  (forall V w body c o w', sequence matches table sem V w body c o w' -> PS V w body c o w') /\
  (forall V w f rs os w', maps matches table sem V w f rs os w' -> PM V w f rs os w') /\
  (forall right V w f o xs o' w', folds matches table sem right V w f o xs o' w' -> PF right V w f o xs o' w') /\
  (forall V w a s w', target matches table sem V w a s w' -> PT V w a s w') /\
  (forall V w a s w', asked matches table sem V w a s w' -> PQ V w a s w') /\
  (forall V w e c o w', runs V w e c o w' -> PR V w e c o w').
Proof.
  apply semantics_mut; intros.
  - now apply e_variable.
  - now apply e_literal.
  - apply e_list.
  - now apply e_address.
  - now apply e_address_unbound.
  - now apply e_expr.
  - apply a_nil.
  - eapply a_cons; eassumption.
  - eapply a_stop; eassumption.
  - apply l_nil.
  - eapply l_cons; eassumption.
  - eapply l_stop; eassumption.
  - apply s_nil.
  - apply s_last; assumption.
  - eapply s_next; eassumption.
  - eapply s_fail; eassumption.
  - apply m_nil.
  - eapply m_cons; eassumption.
  - apply f_nil.
  - eapply f_cons; eassumption.
  - apply t_address.
  - eapply t_value; eassumption.
  - eapply t_other; eassumption.
  - apply q_address.
  - eapply q_string; eassumption.
  - eapply q_expr; eassumption.
  - now apply r_count.
  - eapply r_call; eassumption.
  - eapply r_call_fails; eassumption.
  - eapply r_apply; eassumption.
  - eapply r_apply_unbound; eassumption.
  - eapply r_apply_name; eassumption.
  - eapply r_apply_computed; eassumption.
  - eapply r_map; eassumption.
  - eapply r_map_unbound; eassumption.
  - eapply r_reduce; eassumption.
  - eapply r_reduce_one; eassumption.
  - eapply r_reduce_from; eassumption.
  - eapply r_reduce_unbound; eassumption.
  - eapply r_assign; eassumption.
  - eapply r_assign_address; eassumption.
  - eapply r_assign_fails; eassumption.
  - eapply r_assign_unbound; eassumption.
  - eapply r_index; eassumption.
  - now apply r_index_none.
  - eapply r_if; eassumption.
  - eapply r_if_only; eassumption.
  - eapply r_if_not; eassumption.
  - eapply r_if_fails; eassumption.
  - eapply (r_stop false); eassumption.
  - eapply (r_go false); eassumption.
  - eapply (r_stop true); eassumption.
  - eapply (r_go true); eassumption.
  - eapply r_shortcut_fails; eassumption.
  - eapply r_shortcut_not_bool; eassumption.
  - apply r_empty.
  - apply r_exists; assumption.
  - apply r_bound; assumption.
  - apply r_addresses.
  - apply r_count_messages.
  - eapply r_value; eassumption.
  - eapply r_value_other; eassumption.
  - eapply r_value_unbound; eassumption.
  - apply r_delete.
  - apply r_quote.
  - apply r_get_time.
  - eapply r_set_time; eassumption.
  - eapply r_set_time_fails; eassumption.
Qed.
End Steps.
