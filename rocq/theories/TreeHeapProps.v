(** C95: copying and freeing expressions.  The statements use TreeHeapSpec.v only. *)

From Coq Require Import String ZArith List Bool Lia.
From Verif Require Import Base Text SerialModel ExprParseModel TreeHeapModel TreeHeapSpec TreeHeapProofs.
Import ListNotations.
Open Scope Z_scope.

(** The copy of a program is the same program in blocks that were not there before; all the
    blocks made belong to it, none twice, and no other block changes. *)
Theorem C95_copy s prog l F : sound s -> program_at (fst s) prog l F ->
  exists N l' F' s', (forall fuel, (N <= fuel)%nat -> copy_linked fuel s l 0 = Ok (l', s')) /\ sound s' /\
    program_at (fst s') prog l' F' /\ program_at (fst s') prog l F /\ NoDup F' /\
    (forall x, In x F' -> fst s x = None) /\ (forall x, ~ In x F' -> fst s' x = fst s x).
Proof.
  intros Hs C. destruct (copy_program prog s l F Hs C) as (N & q & G & s' & E & Hs' & [G1 G2] & C' & [ND I]).
  exists N, q, G, s'. split; [exact E|]. split; [exact Hs'|]. split; [exact C'|]. split.
  - apply (exprs_frame (fst s)); [|exact C]. intros y Hy. apply G2. now apply (there_below s F Hs (exprs_there _ _ _ _ C)).
  - split; [exact ND|]. split; [intros x Hx; apply Hs; apply I in Hx; lia|]. intros x Hx. rewrite I in Hx.
    destruct (Z_lt_le_dec x (snd s)); [now apply G2|]. rewrite (proj2 Hs') by lia. symmetry. apply Hs. lia.
Qed.
Print Assumptions C95_copy.

(** One expression: its copy is followed by none, whatever the expression is followed by. *)
Theorem C95_copy_one s e l next F : sound s -> expr_at (fst s) e l next F ->
  exists N l' F' s', (forall fuel, (N <= fuel)%nat -> copy_expr fuel s l = Ok (l', s')) /\ sound s' /\
    expr_at (fst s') e l' 0 F' /\ NoDup F' /\
    (forall x, In x F' -> fst s x = None) /\ (forall x, ~ In x F' -> fst s' x = fst s x).
Proof.
  intros Hs C. destruct (proj2 copy_all e s l next F Hs C) as (N & q & G & s' & E & Hs' & [G1 G2] & C' & [ND I]).
  exists N, q, G, s'. split; [exact E|]. split; [exact Hs'|]. split; [exact C'|].
  split; [exact ND|]. split; [intros x Hx; apply Hs; apply I in Hx; lia|]. intros x Hx. rewrite I in Hx.
  destruct (Z_lt_le_dec x (snd s)); [now apply G2|]. rewrite (proj2 Hs') by lia. symmetry. apply Hs. lia.
Qed.
Print Assumptions C95_copy_one.

(** Freeing a program frees each of its blocks once and no other block. *)
Theorem C95_free s prog l F : program_at (fst s) prog l F -> NoDup F ->
  exists N s', (forall fuel, (N <= fuel)%nat -> free_exprs fuel s l = Ok s') /\ snd s' = snd s /\
    (forall x, In x F -> fst s' x = None) /\ (forall x, ~ In x F -> fst s' x = fst s x).
Proof. intros C ND. destruct (free_program prog s l F C ND) as (N & s' & E & R). exists N, s'. split; [exact E|exact R]. Qed.
Print Assumptions C95_free.

(** Copying a program and freeing the copy leaves memory as it was. *)
Theorem C95_copy_freed s prog l F : sound s -> program_at (fst s) prog l F ->
  exists N s', (forall fuel, (N <= fuel)%nat -> (do ' (l', s1) <- copy_linked fuel s l 0; free_exprs fuel s1 l') = Ok s') /\
    (forall x, fst s' x = fst s x).
Proof.
  intros Hs C. destruct (C95_copy s prog l F Hs C) as (N & q & G & s1 & E & Hs1 & C' & _ & ND & Fr & O).
  destruct (C95_free s1 prog q G C' ND) as (N2 & s2 & E2 & _ & I2 & O2).
  exists (Nat.max N N2), s2. split; [intros f Hf; rewrite (E f) by lia; cbn [bind]; apply E2; lia|].
  intros x. destruct (in_dec Z.eq_dec x G) as [Hx|Hx]; [now rewrite I2, Fr|]. rewrite O2, O by exact Hx. reflexivity.
Qed.
Print Assumptions C95_copy_freed.

(** Copying a program and freeing the original leaves the copy. *)
Theorem C95_original_freed s prog l F : sound s -> program_at (fst s) prog l F -> NoDup F ->
  exists N l' F' s', (forall fuel, (N <= fuel)%nat ->
      (do ' (l', s1) <- copy_linked fuel s l 0; do s2 <- free_exprs fuel s1 l; Ok (l', s2)) = Ok (l', s')) /\
    program_at (fst s') prog l' F' /\ (forall x, In x F -> fst s' x = None) /\
    (forall x, ~ In x F -> ~ In x F' -> fst s' x = fst s x).
Proof.
  intros Hs C NF. destruct (C95_copy s prog l F Hs C) as (N & q & G & s1 & E & Hs1 & C' & C1 & ND & Fr & O).
  destruct (C95_free s1 prog l F C1 NF) as (N2 & s2 & E2 & _ & I2 & O2).
  exists (Nat.max N N2), q, G, s2. split; [intros f Hf; rewrite (E f) by lia; cbn [bind]; rewrite (E2 f) by lia; reflexivity|]. split.
  - apply (exprs_frame (fst s1)); [|exact C']. intros y Hy. apply O2. intros Hy2. apply (exprs_there _ _ _ _ C y Hy2). now apply Fr.
  - split; [exact I2|]. intros x H1 H2. rewrite O2 by exact H1. now apply O.
Qed.
Print Assumptions C95_original_freed.

(** Freeing a program a second time reads a block that is gone. *)
Theorem C95_twice s e rest l F : program_at (fst s) (e :: rest) l F -> NoDup F ->
  exists N, forall fuel, (N <= fuel)%nat -> (do s1 <- free_exprs fuel s l; free_exprs fuel s1 l) = Ub Dangling.
Proof.
  intros C ND. destruct (C95_free s (e :: rest) l F C ND) as (N & s' & E & _ & I & _).
  exists (S N). intros [|f] Hf; [lia|]. rewrite (E (S f)) by lia. cbn [bind free_exprs].
  destruct C as (n & F1 & F2 & -> & C & _). destruct e as [name args]. destruct C as (v & F' & [B0 B] & -> & _).
  destruct (Z.eqb_spec l 0); [contradiction|]. unfold get_expr, fetch. destruct (Z.eqb_spec l 0); [contradiction|].
  rewrite I by (now left). reflexivity.
Qed.
Print Assumptions C95_twice.

(** ** The code refutes: the copy of an argument is the argument *)
(** An argument that is a list: the pointer of the copy is NULL. *)
Theorem C95_list_refuted : exists s a l p, sound s /\ fst s a = Some (CArg KList p 0) /\ fst s p = Some (CList l) /\ a <> 0 /\ p <> 0 /\
  exists d s', (forall fuel, (2 <= fuel)%nat -> copy_arg fuel s a = Ok (d, s')) /\ fst s' d = Some (CArg KList 0 0).
Proof.
  exists ((fun x => if x =? 1 then Some (CArg KList 2 0) else if x =? 2 then Some (CList []) else None), 3), 1, [], 2.
  split. { split; cbn [fst snd]; [lia|]. intros l Hl. destruct (Z.eqb_spec l 1); [lia|]. destruct (Z.eqb_spec l 2); [lia|reflexivity]. }
  split; [reflexivity|]. split; [reflexivity|]. split; [lia|]. split; [lia|].
  eexists 3, _. split; [intros [|[|f]] Hf; [lia|lia|reflexivity]|reflexivity].
Qed.
Print Assumptions C95_list_refuted.

(** /a = 1 with a function of one expression as a second argument. *)
Definition example_program : list pexpr := [Call (str "assign") [PAddr (str "/a"); PFun [str "x"] [Call (str "abs") [PAddr (str "x")]]]; Call (str "pi") []].
Definition example_memory : mem :=
  ((fun x => match x with
    | 1 => Some (CExpr (str "assign") 2 2 8) | 2 => Some (CArg KAddr 3 4) | 3 => Some (CText (str "/a"))
    | 4 => Some (CArg KFun 5 0) | 5 => Some (CRec [str "x"] 6) | 6 => Some (CExpr (str "abs") 1 7 0)
    | 7 => Some (CArg KAddr 9 0) | 9 => Some (CText (str "x")) | 8 => Some (CExpr (str "pi") 0 0 0) | _ => None end), 10).
Example example_sound : sound example_memory.
Proof.
  split; cbn [snd example_memory]; [lia|]. intros l Hl. cbn [fst example_memory].
  destruct l as [|p|p]; try lia. do 4 (destruct p as [p|p|]; try reflexivity; try lia).
Qed.
Example example_lies : program_at (fst example_memory) example_program 1 [1; 2; 3; 4; 5; 6; 7; 9; 8].
Proof.
  assert (B : forall l c, l <> 0 -> fst example_memory l = Some c -> block (fst example_memory) l c) by (intros; now split).
  exists 8, [1; 2; 3; 4; 5; 6; 7; 9], [8]. split; [reflexivity|]. split.
  - exists 2, [2; 3; 4; 5; 6; 7; 9]. split; [apply B; [lia|reflexivity]|]. split; [reflexivity|].
    exists 4, [2; 3], [4; 5; 6; 7; 9]. split; [reflexivity|]. split.
    + exists KAddr, 3, [3]. split; [apply B; [lia|reflexivity]|]. split; [reflexivity|]. split; [reflexivity|]. split; [apply B; [lia|reflexivity]|reflexivity].
    + exists 0, [4; 5; 6; 7; 9], []. split; [reflexivity|]. split; [|now split].
      exists KFun, 5, [5; 6; 7; 9]. split; [apply B; [lia|reflexivity]|]. split; [reflexivity|]. split; [reflexivity|].
      exists 6, [6; 7; 9]. split; [apply B; [lia|reflexivity]|]. split; [reflexivity|].
      exists 0, [6; 7; 9], []. split; [reflexivity|]. split; [|now split].
      exists 7, [7; 9]. split; [apply B; [lia|reflexivity]|]. split; [reflexivity|].
      exists 0, [7; 9], []. split; [reflexivity|]. split; [|now split].
      exists KAddr, 9, [9]. split; [apply B; [lia|reflexivity]|]. split; [reflexivity|]. split; [reflexivity|]. split; [apply B; [lia|reflexivity]|reflexivity].
  - exists 0, [8], []. split; [reflexivity|]. split; [|now split]. exists 0, []. split; [apply B; [lia|reflexivity]|]. split; [reflexivity|now split].
Qed.
Example example_once : NoDup [1; 2; 3; 4; 5; 6; 7; 9; 8].
Proof. repeat constructor; cbn [In]; lia. Qed.
