(** C96: the arguments of an expression.  The statements use TreeHeapSpec.v only. *)

From Coq Require Import String ZArith List Bool Lia Permutation.
From Verif Require Import Base BaseProofs Text SerialModel ExprParseModel TreeHeapModel TreeHeapSpec TreeHeapProofs ExprArgsModel.
Import ListNotations.
Open Scope Z_scope.

(** ** Lists of arguments *)
Lemma count_ok s args : forall a F n, chain (cell_at (fst s)) args a F ->
  exists N, forall f, (N <= f)%nat -> count_args f s a n = Ok (n + zlen args).
Proof.
  induction args as [|x args IH]; intros a F n C; cbn [chain] in C.
  - destruct C as [-> _]. exists 1%nat. intros [|f] Hf; [lia|]. cbn. f_equal. cbn. lia.
  - destruct C as (nx & F1 & F2 & -> & (k & p & F3 & B & -> & _) & C). destruct (IH nx F2 (n + 1) C) as (N & H). exists (S N). intros [|f] Hf; [lia|].
    cbn [count_args]. destruct (Z.eqb_spec a 0) as [E|_]; [destruct B; contradiction|]. rewrite (arg_block s a k p nx B). cbn [bind]. rewrite H by lia.
    f_equal. rewrite !zlen_cons. lia.
Qed.
Lemma last_ok s args : forall x a F z, chain (cell_at (fst s)) (x :: args) a F -> NoDup F ->
  exists N last k p, In last F /\ block (fst s) last (CArg k p 0) /\ (forall f, (N <= f)%nat -> last_arg f s a z = Ok last) /\
    forall h' more b G, h' last = Some (CArg k p b) -> (forall y, In y F -> y <> last -> h' y = fst s y) ->
      chain (cell_at h') more b G -> chain (cell_at h') (x :: args ++ more) a (F ++ G).
Proof.
  induction args as [|y args IH]; intros x a F z C ND.
  - destruct C as (nx & F1 & F2 & -> & (k & p & F3 & B & -> & C1) & [-> ->]). rewrite app_nil_r in *. inversion_clear ND as [|? ? Ha _].
    exists 2%nat, a, k, p. split; [now left|]. split; [exact B|]. split.
    + intros [|[|f]] Hf; try lia. cbn [last_arg]. destruct (Z.eqb_spec a 0) as [E|_]; [destruct B; contradiction|].
      rewrite (arg_block s a k p 0 B). reflexivity.
    + intros h' more b G E O C. exists b, (a :: F3), G. split; [reflexivity|]. split; [|exact C]. exists k, p, F3. split; [split; [exact (proj1 B)|exact E]|].
      split; [reflexivity|]. apply (proj1 (frame (fst s) h')); [|exact C1]. intros w Hw. apply O; [now right|]. intros ->. contradiction.
  - destruct C as (nx & F1 & F2 & -> & C1 & C2). destruct (NoDup_split _ _ ND) as (N1 & N2 & D).
    destruct (IH y nx F2 a C2 N2) as (N & last & k & p & Hin & B & E & K).
    pose proof C1 as (k1 & p1 & F3 & B1 & -> & _).
    exists (S N), last, k, p. split; [apply in_or_app; now right|]. split; [exact B|]. split.
    + intros [|f] Hf; [lia|]. cbn [last_arg]. destruct (Z.eqb_spec a 0) as [E0|_]; [destruct B1; contradiction|].
      rewrite (arg_block s a k1 p1 nx B1). cbn [bind]. apply E. lia.
    + intros h' more b G E' O C. exists nx, (a :: F3), (F2 ++ G). split; [now rewrite <- app_assoc|]. split.
      * apply (cell_frame (fst s) h'); [|exact C1]. intros w Hw. apply O; [apply in_or_app; now left|]. intros ->. now apply (D last).
      * apply (K h' more b G E'); [|exact C]. intros w Hw. apply O. apply in_or_app. now right.
Qed.

(** ** The theorems *)
(** [e] is an expression and [more] a list of arguments at [a], in blocks of their own. *)
Definition given (h : Z -> option cell) (name : list Z) (args : list parg) (e next : Z) (F : list Z) (more : list parg) (a : Z) (G : list Z) : Prop :=
  expr_at h (Call name args) e next F /\ chain (cell_at h) more a G /\ NoDup (F ++ G).

(** What is counted is the number of the arguments. *)
Theorem C96_count s name args e next F : expr_at (fst s) (Call name args) e next F ->
  get_arg_count s e = Ok (zlen args) /\ exists v F', get_args s e = Ok v /\ chain (cell_at (fst s)) args v F'.
Proof.
  intros (v & F' & B & -> & C). unfold get_arg_count, get_args. destruct (Z.eqb_spec e 0) as [E|_]; [destruct B; contradiction|].
  rewrite (expr_block s e _ _ _ _ B). cbn [bind]. split; [reflexivity|]. now exists v, F'.
Qed.
Print Assumptions C96_count.

(** Arguments are set: only the block of the expression changes, so the arguments it had
    before are still there and belong to no expression. *)
Theorem C96_set s name args e next F more a G : given (fst s) name args e next F more a G -> more <> [] ->
  exists N s', (forall fuel, (N <= fuel)%nat -> set_arg fuel s e a = Ok s') /\ snd s' = snd s /\
    expr_at (fst s') (Call name more) e next (e :: G) /\ forall x, x <> e -> fst s' x = fst s x.
Proof.
  intros ((v & F' & B & -> & C) & M & ND) Hm. destruct (count_ok s more a G 0 M) as (N & E).
  exists N, (upd (fst s) e (Some (CExpr name (zlen more) a next)), snd s). split; [|split; [reflexivity|split]].
  - intros f Hf. unfold set_arg. destruct (Z.eqb_spec e 0) as [E0|_]; [destruct B; contradiction|]. destruct (Z.eqb_spec a 0) as [E0|_].
    + destruct more as [|m more]; [contradiction|]. destruct M as (? & ? & ? & _ & (? & ? & ? & [B0 _] & _) & _). contradiction.
    + rewrite (E f Hf). cbn [bind]. rewrite (expr_block s e _ _ _ _ B). cbn [bind]. rewrite (put_block s e _ _ B). now rewrite Z.add_0_l.
  - cbn [fst]. exists a, G. split; [split; [exact (proj1 B)|apply upd_same]|]. split; [reflexivity|]. apply (cells_frame (fst s)); [|exact M].
    intros y Hy. apply upd_other. intros ->. inversion_clear ND as [|? ? H _]. apply H. apply in_or_app. now right.
  - intros x Hx. cbn [fst]. now apply upd_other.
Qed.
Print Assumptions C96_set.

(** Arguments are appended to an expression that has some. *)
Theorem C96_append s name args e next F more a G : given (fst s) name args e next F more a G -> args <> [] ->
  exists N s', (forall fuel, (N <= fuel)%nat -> append_arg fuel s e a = Ok s') /\ snd s' = snd s /\
    expr_at (fst s') (Call name (args ++ more)) e next (F ++ G) /\ forall x, ~ In x F -> fst s' x = fst s x.
Proof.
  intros ((v & F' & B & -> & C) & M & ND) Ha. destruct args as [|x args]; [contradiction|]. cbn [app] in ND. inversion_clear ND as [|? ? He ND'].
  destruct (NoDup_split _ _ ND') as (NF & NG & D).
  destruct (last_ok s args x v F' v C NF) as (N1 & last & k & p & Hin & Bl & E1 & K).
  assert (Hel : e <> last) by (intros ->; apply He, in_or_app; now left).
  set (s1 := (upd (fst s) last (Some (CArg k p a)), snd s) : mem).
  assert (M1 : chain (cell_at (fst s1)) more a G).
  { apply (cells_frame (fst s)); [|exact M]. intros y Hy. cbn [fst s1]. apply upd_other. intros ->. now apply (D last). }
  destruct (count_ok s1 more a G 0 M1) as (N2 & E2).
  assert (B1 : block (fst s1) e (CExpr name (zlen (x :: args)) v next)).
  { split; [exact (proj1 B)|]. cbn [fst s1]. rewrite upd_other by exact Hel. exact (proj2 B). }
  exists (Nat.max N1 N2), (upd (fst s1) e (Some (CExpr name (zlen (x :: args) + zlen more) v next)), snd s). split; [|split; [reflexivity|split]].
  - intros f Hf. unfold append_arg. destruct (Z.eqb_spec e 0) as [E0|_]; [destruct B; contradiction|]. rewrite (expr_block s e _ _ _ _ B). cbn [bind].
    destruct (Z.eqb_spec v 0) as [E0|_]. { destruct C as (? & ? & ? & _ & (? & ? & ? & [B0 _] & _) & _). contradiction. }
    rewrite (E1 f) by lia. cbn [bind]. destruct (Z.eqb_spec last 0) as [E0|_]; [destruct Bl; contradiction|].
    unfold link_arg. rewrite (arg_block s last k p 0 Bl). cbn [bind]. rewrite (put_block s last _ _ Bl). cbn [bind]. fold s1.
    rewrite (E2 f) by lia. cbn [bind]. rewrite (put_block s1 e _ _ B1). now rewrite Z.add_0_l.
  - cbn [fst]. exists v, (F' ++ G). split; [split; [exact (proj1 B)|]|]. { rewrite upd_same. do 2 f_equal. unfold zlen. rewrite app_length. lia. }
    split; [reflexivity|]. apply K with (b := a).
    + rewrite upd_other by congruence. cbn [fst s1]. apply upd_same.
    + intros y Hy Hn. rewrite upd_other by (intros ->; apply He, in_or_app; now left). cbn [fst s1]. now apply upd_other.
    + apply (cells_frame (fst s1)); [|exact M1]. intros y Hy. apply upd_other. intros ->. apply He, in_or_app. now right.
  - intros y Hy. cbn [fst]. rewrite upd_other by (intros ->; apply Hy; now left). cbn [fst s1]. apply upd_other. intros ->. apply Hy. now right.
Qed.
Print Assumptions C96_append.

(** Arguments are put before those of an expression that has some. *)
Theorem C96_prepend s name args e next F more a G : given (fst s) name args e next F more a G -> args <> [] ->
  exists N s' F', (forall fuel, (N <= fuel)%nat -> prepend_arg fuel s e a = Ok s') /\ snd s' = snd s /\ Permutation (F ++ G) F' /\
    expr_at (fst s') (Call name (more ++ args)) e next F' /\ forall x, x <> e -> ~ In x G -> fst s' x = fst s x.
Proof.
  intros ((v & F' & B & -> & C) & M & ND) Ha. cbn [app] in ND. inversion_clear ND as [|? ? He ND'].
  destruct (NoDup_split _ _ ND') as (NF & NG & D).
  assert (Hv : v <> 0). { destruct args as [|x args]; [contradiction|]. destruct C as (? & ? & ? & _ & (? & ? & ? & [B0 _] & _) & _). exact B0. }
  assert (Hp : Permutation ((e :: F') ++ G) (e :: G ++ F')) by (apply perm_skip, Permutation_app_comm).
  destruct more as [|x more].
  { destruct M as [-> ->]. exists 1%nat, s, (e :: [] ++ F'). split; [|split; [reflexivity|split; [exact Hp|split]]].
    - intros [|f] Hf; [lia|]. unfold prepend_arg. destruct (Z.eqb_spec e 0) as [E0|_]; [destruct B; contradiction|]. rewrite (expr_block s e _ _ _ _ B). cbn [bind].
      destruct (Z.eqb_spec v 0); [contradiction|]. reflexivity.
    - exists v, F'. split; [exact B|]. split; [reflexivity|exact C].
    - reflexivity. }
  destruct (last_ok s more x a G a M NG) as (N1 & last & k & p & Hin & Bl & E1 & K).
  destruct (count_ok s (x :: more) a G 0 M) as (N2 & E2).
  assert (Hel : e <> last) by (intros ->; apply He, in_or_app; now right).
  set (s1 := (upd (fst s) last (Some (CArg k p v)), snd s) : mem).
  assert (B1 : block (fst s1) e (CExpr name (zlen args) v next)).
  { split; [exact (proj1 B)|]. cbn [fst s1]. rewrite upd_other by exact Hel. exact (proj2 B). }
  exists (Nat.max N1 N2), (upd (fst s1) e (Some (CExpr name (zlen args + zlen (x :: more)) a next)), snd s), (e :: G ++ F').
  split; [|split; [reflexivity|split; [exact Hp|split]]].
  - intros f Hf. unfold prepend_arg. destruct (Z.eqb_spec e 0) as [E0|_]; [destruct B; contradiction|]. rewrite (expr_block s e _ _ _ _ B). cbn [bind].
    destruct (Z.eqb_spec v 0); [contradiction|]. rewrite (E1 f) by lia. cbn [bind]. rewrite (E2 f) by lia. cbn [bind].
    destruct (Z.eqb_spec last 0) as [E0|_]; [destruct Bl; contradiction|].
    unfold link_arg. rewrite (arg_block s last k p 0 Bl). cbn [bind]. rewrite (put_block s last _ _ Bl). cbn [bind]. fold s1.
    rewrite (put_block s1 e _ _ B1). now rewrite Z.add_0_l.
  - cbn [fst]. exists a, (G ++ F'). split; [split; [exact (proj1 B)|]|]. { rewrite upd_same. do 2 f_equal. unfold zlen. rewrite app_length. lia. }
    split; [reflexivity|]. apply K with (b := v).
    + rewrite upd_other by congruence. cbn [fst s1]. apply upd_same.
    + intros y Hy Hn. rewrite upd_other by (intros ->; apply He, in_or_app; now right). cbn [fst s1]. now apply upd_other.
    + apply (cells_frame (fst s)); [|exact C]. intros y Hy. rewrite upd_other by (intros ->; apply He, in_or_app; now left). cbn [fst s1]. apply upd_other.
      intros ->. now apply (D last).
  - intros y Hy Hn. cbn [fst]. rewrite upd_other by exact Hy. cbn [fst s1]. apply upd_other. intros ->. contradiction.
Qed.
Print Assumptions C96_prepend.

(** An expression without arguments gets those given, and counts one whatever their number:
    that is right for a single one. *)
Theorem C96_first s name e next F more a G : given (fst s) name [] e next F more a G ->
  exists s', (forall fuel, append_arg fuel s e a = Ok s' /\ prepend_arg fuel s e a = Ok s') /\ snd s' = snd s /\
    get_arg_count s' e = Ok 1 /\ get_args s' e = Ok a /\
    (zlen more = 1 -> expr_at (fst s') (Call name more) e next (e :: G)) /\
    (zlen more <> 1 -> forall args F', ~ expr_at (fst s') (Call name args) e next F') /\ forall x, x <> e -> fst s' x = fst s x.
Proof.
  intros ((v & F' & B & -> & C) & M & ND). destruct C as [-> ->].
  set (s' := (upd (fst s) e (Some (CExpr name 1 a next)), snd s) : mem). exists s'.
  assert (B' : block (fst s') e (CExpr name 1 a next)) by (split; [exact (proj1 B)|cbn [fst s']; apply upd_same]).
  assert (He : (e =? 0) = false) by (destruct (Z.eqb_spec e 0); [destruct B; contradiction|reflexivity]).
  assert (O : forall x, x <> e -> fst s' x = fst s x) by (intros x Hx; cbn [fst s']; now apply upd_other).
  assert (M' : chain (cell_at (fst s')) more a G).
  { apply (cells_frame (fst s)); [|exact M]. intros y Hy. apply O. intros ->. cbn [app] in ND. inversion_clear ND. contradiction. }
  split; [intros f; unfold append_arg, prepend_arg; rewrite He, (expr_block s e _ _ _ _ B); cbn [bind Z.eqb]; now rewrite (put_block s e _ _ B)|].
  split; [reflexivity|]. unfold get_arg_count, get_args. rewrite He, (expr_block s' e _ _ _ _ B'). split; [reflexivity|]. split; [reflexivity|].
  split; [|split; [|exact O]].
  - intros H1. exists a, G. rewrite H1. split; [exact B'|]. split; [reflexivity|exact M'].
  - intros H1 args F' (w & F2 & B2 & _ & C2). destruct B2 as [_ B2]. destruct B' as [_ B']. rewrite B' in B2. injection B2 as E1 E2.
    rewrite <- E2 in C2. destruct (count_ok s' more a G 0 M') as (Na & Ea). destruct (count_ok s' args a F2 0 C2) as (Nb & Eb).
    specialize (Ea (Nat.max Na Nb) ltac:(lia)). specialize (Eb (Nat.max Na Nb) ltac:(lia)). rewrite Ea in Eb. injection Eb as Eb. lia.
Qed.
Print Assumptions C96_first.

(** ** The code refutes: the number counted is the number of arguments *)
Definition two_given : mem :=
  ((fun x => match x with
    | 1 => Some (CExpr (str "list") 0 0 0) | 2 => Some (CArg KAddr 3 4) | 3 => Some (CText (str "/a"))
    | 4 => Some (CArg KAddr 5 0) | 5 => Some (CText (str "/b")) | _ => None end), 6).
Lemma two_given_ok : given (fst two_given) (str "list") [] 1 0 [1] [PAddr (str "/a"); PAddr (str "/b")] 2 [2; 3; 4; 5].
Proof.
  assert (B : forall l c, l <> 0 -> fst two_given l = Some c -> block (fst two_given) l c) by (intros; now split).
  split; [|split].
  - exists 0, []. split; [apply B; [lia|reflexivity]|]. split; [reflexivity|now split].
  - exists 4, [2; 3], [4; 5]. split; [reflexivity|]. split.
    + exists KAddr, 3, [3]. split; [apply B; [lia|reflexivity]|]. split; [reflexivity|]. split; [reflexivity|]. split; [apply B; [lia|reflexivity]|reflexivity].
    + exists 0, [4; 5], []. split; [reflexivity|]. split; [|now split].
      exists KAddr, 5, [5]. split; [apply B; [lia|reflexivity]|]. split; [reflexivity|]. split; [reflexivity|]. split; [apply B; [lia|reflexivity]|reflexivity].
  - repeat constructor; cbn [In]; lia.
Qed.
Theorem C96_first_refuted : exists s name e next F more a G, given (fst s) name [] e next F more a G /\ zlen more = 2 /\
  exists s', (forall fuel, append_arg fuel s e a = Ok s') /\ get_arg_count s' e = Ok 1.
Proof.
  exists two_given, (str "list"), 1, 0, [1], [PAddr (str "/a"); PAddr (str "/b")], 2, [2; 3; 4; 5]. split; [exact two_given_ok|]. split; [reflexivity|].
  destruct (C96_first _ _ _ _ _ _ _ _ two_given_ok) as (s' & E & _ & K & _). exists s'. split; [intros f; apply E|exact K].
Qed.
Print Assumptions C96_first_refuted.
(** The same arguments can be set. *)
Example C96_example : exists s', (forall fuel, (4 <= fuel)%nat -> set_arg fuel two_given 1 2 = Ok s') /\ get_arg_count s' 1 = Ok 2.
Proof. eexists. split; [intros [|[|[|[|f]]]] Hf; try lia; reflexivity|reflexivity]. Qed.
