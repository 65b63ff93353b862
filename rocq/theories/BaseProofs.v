(** Lemmas about [Base.v]. *)

From Coq Require Import ZArith List Bool Lia.
From Verif Require Import Base.
Import ListNotations.
Open Scope Z_scope.

(** * Loops *)

(** Unbounded execution of a loop. *)
Inductive runs {S R} (step : S -> lres S R) : S -> R -> Prop :=
| runs_done s r : step s = Done r -> runs step s r
| runs_cont s s' r : step s = Cont s' -> runs step s' r -> runs step s r.

Lemma runs_det {S R} (step : S -> lres S R) s r1 :
  runs step s r1 -> forall r2, runs step s r2 -> r1 = r2.
Proof.
  induction 1 as [s r H | s s' r H _ IH]; intros r2 H2; inversion H2; subst; try congruence.
  apply IH. congruence.
Qed.

Fixpoint loopn {S R} (step : S -> lres S R) (n : nat) (s : S) : lres S R :=
  match n with
  | O => Cont s
  | Datatypes.S m => match step s with
                     | Cont s' => loopn step m s'
                     | Done r => Done r
                     end
  end.

Lemma loopn_add {S R} (step : S -> lres S R) n m s :
  loopn step (n + m) s =
  match loopn step n s with Cont s' => loopn step m s' | Done r => Done r end.
Proof.
  revert s. induction n as [|n IH]; intros s; cbn; [reflexivity|].
  destruct (step s); [apply IH | reflexivity].
Qed.

Lemma loopP_loopn {S R} (step : S -> lres S R) n s :
  loopP step n s = loopn step (Pos.to_nat n) s.
Proof.
  revert s. induction n as [q IH|q IH|]; intros s.
  - rewrite Pos2Nat.inj_xI. cbn [loopP].
    change (Datatypes.S (2 * Pos.to_nat q)) with (1 + 2 * Pos.to_nat q)%nat.
    rewrite loopn_add. cbn [loopn]. destruct (step s) as [s'|r]; [|reflexivity].
    replace (2 * Pos.to_nat q)%nat with (Pos.to_nat q + Pos.to_nat q)%nat by lia.
    rewrite loopn_add, IH. destruct (loopn step (Pos.to_nat q) s'); [apply IH|reflexivity].
  - rewrite Pos2Nat.inj_xO. cbn [loopP].
    replace (2 * Pos.to_nat q)%nat with (Pos.to_nat q + Pos.to_nat q)%nat by lia.
    rewrite loopn_add, IH. destruct (loopn step (Pos.to_nat q) s); [apply IH|reflexivity].
  - rewrite Pos2Nat.inj_1. cbn. destruct (step s); reflexivity.
Qed.

Lemma loopn_runs {S R} (step : S -> lres S R) n s r :
  loopn step n s = Done r -> runs step s r.
Proof.
  revert s. induction n as [|n IH]; cbn; intros s H; [discriminate|].
  destruct (step s) as [s'|r'] eqn:E.
  - eapply runs_cont; eauto.
  - inversion H; subst. now apply runs_done.
Qed.

Lemma loopP_runs {S R} (step : S -> lres S R) n s r :
  loopP step n s = Done r -> runs step s r.
Proof. rewrite loopP_loopn. apply loopn_runs. Qed.

Lemma while_runs {S R} (step : S -> lres S (res R)) n s r :
  while step n s = r -> r <> Fuel -> runs step s r.
Proof.
  unfold while. destruct (loopP step n s) as [s'|r'] eqn:E; intros <- Hf; [congruence|].
  now apply loopP_runs in E.
Qed.

(** A loop whose measure strictly decreases terminates with enough fuel. *)
Lemma loopn_measure {S R} (step : S -> lres S R) (Inv : S -> Prop) (mu : S -> Z) :
  (forall s, Inv s -> 0 <= mu s) ->
  (forall s s', Inv s -> step s = Cont s' -> Inv s' /\ mu s' < mu s) ->
  forall n s, Inv s -> mu s < Z.of_nat n ->
  exists r, loopn step n s = Done r.
Proof.
  intros Hpos Hdec n. induction n as [|n IH]; intros s HI Hmu.
  - specialize (Hpos _ HI). lia.
  - cbn. destruct (step s) as [s'|r] eqn:E; [|eauto].
    destruct (Hdec _ _ HI E) as [HI' Hlt]. apply IH; [assumption | lia].
Qed.

Lemma loopP_measure {S R} (step : S -> lres S R) (Inv : S -> Prop) (mu : S -> Z) :
  (forall s, Inv s -> 0 <= mu s) ->
  (forall s s', Inv s -> step s = Cont s' -> Inv s' /\ mu s' < mu s) ->
  forall n s, Inv s -> mu s < Zpos n ->
  exists r, loopP step n s = Done r /\ runs step s r.
Proof.
  intros Hpos Hdec n s HI Hmu. rewrite loopP_loopn.
  destruct (loopn_measure step Inv mu Hpos Hdec (Pos.to_nat n) s HI) as [r Hr].
  - rewrite positive_nat_Z. exact Hmu.
  - exists r. split; [exact Hr|]. now apply loopn_runs in Hr.
Qed.

(** Invariants along a run. *)
Lemma runs_inv {S R} (step : S -> lres S R) (Inv : S -> Prop) (Post : R -> Prop) :
  (forall s s', Inv s -> step s = Cont s' -> Inv s') ->
  (forall s r, Inv s -> step s = Done r -> Post r) ->
  forall s r, runs step s r -> Inv s -> Post r.
Proof.
  intros Hc Hd s r H. induction H; intros; eauto.
Qed.

(** * Reads *)

Lemma zlen_nonneg {A} (l : list A) : 0 <= zlen l.
Proof. unfold zlen. lia. Qed.

Lemma zlen_app {A} (l l' : list A) : zlen (l ++ l') = zlen l + zlen l'.
Proof. unfold zlen. rewrite app_length. lia. Qed.

Lemma zlen_cons {A} (x : A) l : zlen (x :: l) = 1 + zlen l.
Proof. unfold zlen. cbn [length]. lia. Qed.

Lemma zlen_nil {A} : zlen (@nil A) = 0.
Proof. reflexivity. Qed.

Lemma rd_ok {A} (l : list A) i :
  0 <= i < zlen l -> exists x, rd l i = Ok x /\ nth_error l (Z.to_nat i) = Some x.
Proof.
  intros H. unfold rd. destruct (i <? 0) eqn:E; [lia|].
  destruct (nth_error l (Z.to_nat i)) as [x|] eqn:E2; [eauto|].
  apply nth_error_None in E2. unfold zlen in H. lia.
Qed.

Lemma rd_oob {A} (l : list A) i : i < 0 \/ zlen l <= i -> rd l i = Ub OOB.
Proof.
  intros H. unfold rd. destruct (i <? 0) eqn:E; [reflexivity|].
  replace (nth_error l (Z.to_nat i)) with (@None A); [reflexivity|].
  symmetry. apply nth_error_None. unfold zlen in H. lia.
Qed.

Lemma rd_app_r {A} (l l' : list A) i :
  zlen l <= i -> rd (l ++ l') i = rd l' (i - zlen l).
Proof.
  intros H. pose proof (zlen_nonneg l). unfold rd.
  destruct (i <? 0) eqn:E1; [lia|].
  destruct (i - zlen l <? 0) eqn:E2; [lia|].
  rewrite nth_error_app2 by (unfold zlen in *; lia).
  replace (Z.to_nat i - length l)%nat with (Z.to_nat (i - zlen l)) by (unfold zlen in *; lia).
  reflexivity.
Qed.

Lemma rd_app_l {A} (l l' : list A) i :
  i < zlen l -> rd (l ++ l') i = rd l i.
Proof.
  intros H. unfold rd.
  destruct (i <? 0) eqn:E1; [reflexivity|].
  rewrite nth_error_app1 by (unfold zlen in *; lia). reflexivity.
Qed.

Lemma rd_0 {A} (x : A) l : rd (x :: l) 0 = Ok x.
Proof. reflexivity. Qed.

Lemma rd_S {A} (x : A) l i : 0 <= i -> rd (x :: l) (1 + i) = rd l i.
Proof.
  intros H. change (x :: l) with ([x] ++ l). rewrite rd_app_r.
  - f_equal. unfold zlen; cbn [length]. lia.
  - unfold zlen; cbn [length]. lia.
Qed.

Lemma rd_at {A} (l1 : list A) x l2 : rd (l1 ++ x :: l2) (zlen l1) = Ok x.
Proof. rewrite rd_app_r by lia. rewrite Z.sub_diag. reflexivity. Qed.

(** Splitting a list at a valid position. *)
Lemma split_at {A} (l : list A) i :
  0 <= i <= zlen l -> exists l1 l2, l = l1 ++ l2 /\ zlen l1 = i.
Proof.
  intros H. exists (firstn (Z.to_nat i) l), (skipn (Z.to_nat i) l).
  split; [symmetry; apply firstn_skipn|].
  unfold zlen in *. rewrite firstn_length. lia.
Qed.

Lemma slice_app l1 v l2 :
  slice (l1 ++ v ++ l2) (zlen l1) (zlen v) = Ok v.
Proof.
  unfold slice. pose proof (zlen_nonneg l1). pose proof (zlen_nonneg v).
  pose proof (zlen_nonneg l2). rewrite !zlen_app.
  destruct (zlen l1 <? 0) eqn:E1; [lia|]. destruct (zlen v <? 0) eqn:E2; [lia|].
  destruct (zlen l1 + (zlen v + zlen l2) <? zlen l1 + zlen v) eqn:E3; [lia|]. cbn [orb].
  f_equal. unfold zlen. rewrite !Nat2Z.id.
  rewrite skipn_app, skipn_all, Nat.sub_diag. cbn [skipn app].
  rewrite firstn_app, Nat.sub_diag, firstn_all. cbn [firstn]. apply app_nil_r.
Qed.

Lemma write_app l1 v' v l2 :
  length v' = length v ->
  write (l1 ++ v' ++ l2) (zlen l1) v = Ok (l1 ++ v ++ l2).
Proof.
  intros Hl. unfold write. pose proof (zlen_nonneg l1). pose proof (zlen_nonneg l2).
  rewrite !zlen_app. replace (zlen v') with (zlen v) by (unfold zlen; lia).
  destruct (zlen l1 <? 0) eqn:E1; [lia|].
  destruct (zlen l1 + (zlen v + zlen l2) <? zlen l1 + zlen v) eqn:E3; [lia|]. cbn [orb].
  f_equal. unfold zlen. rewrite Nat2Z.id.
  rewrite firstn_app, Nat.sub_diag, firstn_all. cbn [firstn]. rewrite app_nil_r. f_equal. f_equal.
  rewrite app_assoc, skipn_app, skipn_all2 by (rewrite app_length; lia).
  rewrite app_length. replace (length l1 + length v - (length l1 + length v'))%nat with 0%nat by lia.
  reflexivity.
Qed.

Lemma cstr_app s l : nonul s -> cstr (s ++ 0 :: l) = Some s.
Proof.
  induction 1 as [|c s Hc Hs IH]; cbn; [reflexivity|].
  destruct (c =? 0) eqn:E; [lia|]. now rewrite IH.
Qed.

Lemma rdstr_at l1 s l2 :
  nonul s -> rdstr (l1 ++ s ++ 0 :: l2) (zlen l1) = Ok s.
Proof.
  intros Hs. unfold rdstr. pose proof (zlen_nonneg l1).
  rewrite !zlen_app. pose proof (zlen_nonneg s). pose proof (zlen_nonneg (0 :: l2)).
  destruct (zlen l1 <? 0) eqn:E1; [lia|].
  destruct (zlen l1 + (zlen s + zlen (0 :: l2)) <? zlen l1) eqn:E2; [lia|]. cbn [orb].
  unfold zlen. rewrite Nat2Z.id, skipn_app, skipn_all, Nat.sub_diag. cbn [skipn app].
  now rewrite cstr_app.
Qed.

(** Normalise lengths. *)
Ltac zl :=
  repeat match goal with
  | |- context [zlen (_ ++ _)] => rewrite zlen_app
  | |- context [zlen (_ :: _)] => rewrite zlen_cons
  | |- context [@zlen ?A []] => change (@zlen A []) with 0
  | H : context [zlen (_ ++ _)] |- _ => rewrite zlen_app in H
  | H : context [zlen (_ :: _)] |- _ => rewrite zlen_cons in H
  | H : context [@zlen ?A []] |- _ => change (@zlen A []) with 0 in H
  end.

Lemma Forall2_len {A B} (R : A -> B -> Prop) l1 l2 : Forall2 R l1 l2 -> length l1 = length l2.
Proof. induction 1; cbn; auto. Qed.

Lemma zlen_rev {A} (l : list A) : zlen (rev l) = zlen l.
Proof. unfold zlen. now rewrite rev_length. Qed.

Lemma loopn_le {S R} (step : S -> lres S R) n m s r :
  loopn step n s = Done r -> (n <= m)%nat -> loopn step m s = Done r.
Proof.
  intros H Hle. replace m with (n + (m - n))%nat by lia. now rewrite loopn_add, H.
Qed.

Lemma while_loopn {S R} (step : S -> lres S (res R)) p n s r :
  loopn step n s = Done r -> Z.of_nat n <= Zpos p -> while step p s = r.
Proof.
  intros H Hle. unfold while. rewrite loopP_loopn.
  rewrite (loopn_le step n (Pos.to_nat p) s r H); [reflexivity|].
  lia.
Qed.
