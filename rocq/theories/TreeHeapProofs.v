(** Proofs about expressions in memory. *)

From Coq Require Import ZArith List Bool Lia.
From Verif Require Import Base BaseProofs SerialModel ExprParseModel RunProofs TreeHeapModel TreeHeapSpec.
Import ListNotations.
Open Scope Z_scope.

(** * Memory *)
Lemma fetch_block s l c : block (fst s) l c -> fetch s l = Ok c.
Proof. intros [H E]. unfold fetch. destruct (Z.eqb_spec l 0); [contradiction|]. now rewrite E. Qed.
Lemma arg_block s l k p x : block (fst s) l (CArg k p x) -> get_arg s l = Ok (k, p, x).
Proof. intros H. unfold get_arg. rewrite (fetch_block _ _ _ H). reflexivity. Qed.
Lemma expr_block s l n c v x : block (fst s) l (CExpr n c v x) -> get_expr s l = Ok (n, c, v, x).
Proof. intros H. unfold get_expr. rewrite (fetch_block _ _ _ H). reflexivity. Qed.
Lemma put_block s l c c' : block (fst s) l c -> put_cell s l c' = Ok (upd (fst s) l (Some c'), snd s).
Proof. intros H. unfold put_cell. rewrite (fetch_block _ _ _ H). reflexivity. Qed.
Lemma drop_block s l c : block (fst s) l c -> drop s l = Ok (upd (fst s) l None, snd s).
Proof. intros H. unfold drop. destruct H as [H E]. destruct (Z.eqb_spec l 0); [contradiction|]. rewrite (fetch_block s l c) by (now split). reflexivity. Qed.
Lemma upd_same h l c : upd h l c l = c.
Proof. unfold upd. now rewrite Z.eqb_refl. Qed.
Lemma upd_other h l c x : x <> l -> upd h l c x = h x.
Proof. intros H. unfold upd. destruct (Z.eqb_spec x l); [contradiction|reflexivity]. Qed.
Lemma below s l : sound s -> fst s l <> None -> l < snd s.
Proof. intros [_ H] N. destruct (Z_lt_le_dec l (snd s)) as [|L]; [assumption|]. now elim N; apply H. Qed.
Lemma sound_upd s l c : sound s -> l < snd s -> sound (upd (fst s) l c, snd s).
Proof. intros [H1 H2] Hl. split; [exact H1|]. cbn [fst snd] in *. intros x Hx. rewrite upd_other by lia. now apply H2. Qed.
Lemma sound_alloc s c : sound s -> sound (upd (fst s) (snd s) (Some c), snd s + 1).
Proof. intros [H1 H2]. split; cbn [fst snd]; [lia|]. intros x Hx. rewrite upd_other by lia. apply H2. lia. Qed.

(** * Only the blocks of an expression matter *)
Definition agree (h h' : Z -> option cell) (F : list Z) : Prop := forall l, In l F -> h' l = h l.
Lemma agree_app h h' F G : agree h h' (F ++ G) -> agree h h' F /\ agree h h' G.
Proof. intros H. split; intros l Hl; apply H, in_or_app; auto. Qed.
Lemma block_agree h h' F l c : agree h h' F -> In l F -> block h l c -> block h' l c.
Proof. intros H Hin [H1 H2]. split; [exact H1|]. now rewrite H. Qed.
Lemma chain_agree {A} (P Q : A -> Z -> Z -> list Z -> Prop) h h' xs :
  Forall (fun x => forall l n F, agree h h' F -> P x l n F -> Q x l n F) xs ->
  forall l F, agree h h' F -> chain P xs l F -> chain Q xs l F.
Proof.
  induction 1 as [|x xs Hx _ IH]; intros l F Ha H; [exact H|]. cbn [chain] in *. destruct H as (n & F1 & F2 & -> & H1 & H2).
  apply agree_app in Ha as [A1 A2]. exists n, F1, F2. split; [reflexivity|]. split; [now apply Hx|now apply IH].
Qed.
Section Frame.
Context (h h' : Z -> option cell).
Lemma frame : (forall a k p F, agree h h' F -> arg_at h a k p F -> arg_at h' a k p F) /\
  (forall e l n F, agree h h' F -> expr_at h e l n F -> expr_at h' e l n F).
Proof.
  set (P := fun a => forall k p F, agree h h' F -> arg_at h a k p F -> arg_at h' a k p F).
  set (Q := fun e => forall l n F, agree h h' F -> expr_at h e l n F -> expr_at h' e l n F).
  assert (K1 : forall x, P (PAtom x)).
  { intros x k p F A (-> & B & ->). split; [reflexivity|]. split; [|reflexivity]. apply (block_agree h h' [p]); [exact A|now left|exact B]. }
  assert (K2 : forall x, P (PAddr x)).
  { intros x k p F A (-> & B & ->). split; [reflexivity|]. split; [|reflexivity]. apply (block_agree h h' [p]); [exact A|now left|exact B]. }
  assert (K3 : P (PExpr None)) by (intros k p F A H; exact H).
  assert (K4 : forall e, Q e -> P (PExpr (Some e))).
  { intros e He k p F A (-> & B). split; [reflexivity|]. now apply He. }
  assert (K5 : forall ps body, Forall Q body -> P (PFun ps body)).
  { intros ps body Hb k p F A (-> & x & F' & B & -> & C). split; [reflexivity|]. exists x, F'.
    split; [apply (block_agree h h' (p :: F')); [exact A|now left|exact B]|]. split; [reflexivity|].
    apply (chain_agree (expr_at h) (expr_at h') h h' body Hb); [|exact C]. intros l Hl. apply A. now right. }
  assert (K6 : forall f args, Forall P args -> Q (Call f args)).
  { intros f args Ha l n F A (v & F' & B & -> & C). exists v, F'.
    split; [apply (block_agree h h' (l :: F')); [exact A|now left|exact B]|]. split; [reflexivity|].
    apply (chain_agree (cell_at h) (cell_at h') h h' args); [|intros y Hy; apply A; now right|exact C].
    eapply Forall_impl; [|exact Ha]. intros a H l' n' F2 A2 (k & p & F3 & B3 & -> & C3). exists k, p, F3.
    split; [apply (block_agree h h' (l' :: F3)); [exact A2|now left|exact B3]|]. split; [reflexivity|]. apply H; [|exact C3]. intros y Hy. apply A2. now right. }
  split; [exact (parg_all P Q K1 K2 K3 K4 K5 K6)|exact (pexpr_all P Q K1 K2 K3 K4 K5 K6)].
Qed.
Lemma cell_frame a l n F : agree h h' F -> cell_at h a l n F -> cell_at h' a l n F.
Proof.
  intros A (k & p & F3 & B3 & -> & C3). exists k, p, F3.
  split; [apply (block_agree h h' (l :: F3)); [exact A|now left|exact B3]|]. split; [reflexivity|]. apply (proj1 frame); [|exact C3]. intros y Hy. apply A. now right.
Qed.
Lemma cells_frame args l F : agree h h' F -> chain (cell_at h) args l F -> chain (cell_at h') args l F.
Proof. apply chain_agree. apply Forall_forall. intros a _. apply cell_frame. Qed.
Lemma exprs_frame es l F : agree h h' F -> chain (expr_at h) es l F -> chain (expr_at h') es l F.
Proof. apply chain_agree. apply Forall_forall. intros a _. apply (proj2 frame). Qed.
End Frame.

(** * The blocks are there *)
Definition there (h : Z -> option cell) (F : list Z) : Prop := forall l, In l F -> l <> 0 /\ h l <> None.
Lemma there_app h F G : there h F -> there h G -> there h (F ++ G).
Proof. intros H1 H2 l Hl. apply in_app_or in Hl as [|]; auto. Qed.
Lemma there_cons h l c F : block h l c -> there h F -> there h (l :: F).
Proof. intros [H E] H2 x [<-|Hx]; [split; [exact H|congruence]|auto]. Qed.
Lemma chain_there {A} (P : A -> Z -> Z -> list Z -> Prop) h xs : Forall (fun x => forall l n F, P x l n F -> there h F) xs ->
  forall l F, chain P xs l F -> there h F.
Proof.
  induction 1 as [|x xs Hx _ IH]; intros l F H; cbn [chain] in H; [destruct H as [_ ->]; intros y []|].
  destruct H as (n & F1 & F2 & -> & H1 & H2). apply there_app; [now apply (Hx _ _ _ H1)|now apply (IH _ _ H2)].
Qed.
Section There.
Context (h : Z -> option cell).
Lemma there_all : (forall a k p F, arg_at h a k p F -> there h F) /\ (forall e l n F, expr_at h e l n F -> there h F).
Proof.
  set (P := fun a => forall k p F, arg_at h a k p F -> there h F). set (Q := fun e => forall l n F, expr_at h e l n F -> there h F).
  assert (K0 : there h []) by (intros y []).
  assert (K1 : forall x, P (PAtom x)) by (intros x k p F (-> & B & ->); now apply (there_cons h p _ [] B)).
  assert (K2 : forall x, P (PAddr x)) by (intros x k p F (-> & B & ->); now apply (there_cons h p _ [] B)).
  assert (K3 : P (PExpr None)) by (intros k p F (_ & _ & ->); exact K0).
  assert (K4 : forall e, Q e -> P (PExpr (Some e))) by (intros e He k p F (_ & B); now apply (He _ _ _ B)).
  assert (K5 : forall ps body, Forall Q body -> P (PFun ps body)).
  { intros ps body Hb k p F (-> & x & F' & B & -> & C). apply (there_cons h p _ F' B). exact (chain_there (expr_at h) h body Hb x F' C). }
  assert (K6 : forall f args, Forall P args -> Q (Call f args)).
  { intros f args Ha l n F (v & F' & B & -> & C). apply (there_cons h l _ F' B). apply (chain_there (cell_at h) h args) with (l := v); [|exact C].
    eapply Forall_impl; [|exact Ha]. intros a H l' n' F2 (k & p & F3 & B3 & -> & C3). apply (there_cons h l' _ F3 B3). now apply (H _ _ _ C3). }
  split; [exact (parg_all P Q K1 K2 K3 K4 K5 K6)|exact (pexpr_all P Q K1 K2 K3 K4 K5 K6)].
Qed.
Lemma cell_there a l n F : cell_at h a l n F -> there h F.
Proof. intros (k & p & F3 & B3 & -> & C3). apply (there_cons h l _ F3 B3). exact (proj1 there_all _ _ _ _ C3). Qed.
Lemma cells_there args l F : chain (cell_at h) args l F -> there h F.
Proof. apply chain_there. apply Forall_forall. intros a _. apply cell_there. Qed.
Lemma exprs_there es l F : chain (expr_at h) es l F -> there h F.
Proof. apply chain_there. apply Forall_forall. intros a _. apply (proj2 there_all). Qed.
End There.
Lemma there_below s F : sound s -> there (fst s) F -> forall l, In l F -> l <> 0 /\ l < snd s.
Proof. intros Hs H l Hl. destruct (H l Hl). split; [assumption|now apply below]. Qed.

(** * Copying *)
Definition grows (s s' : mem) : Prop := snd s <= snd s' /\ forall l, l < snd s -> fst s' l = fst s l.
Definition fills (F : list Z) (lo hi : Z) : Prop := NoDup F /\ forall l, In l F <-> lo <= l < hi.
Definition copying (run : nat -> res (Z * mem)) (s : mem) (P : (Z -> option cell) -> Z -> list Z -> Prop) : Prop :=
  exists N q F s', (forall f, (N <= f)%nat -> run f = Ok (q, s')) /\ sound s' /\ grows s s' /\ P (fst s') q F /\ fills F (snd s) (snd s').

Lemma fills_nil n : fills [] n n.
Proof. split; [constructor|]. intros l. split; [intros []|lia]. Qed.
Lemma fills_cons F n m : n + 1 <= m -> fills F (n + 1) m -> fills (n :: F) n m.
Proof. intros H [N I]. split; [constructor; [rewrite I; lia|exact N]|]. intros l. cbn [In]. rewrite I. lia. Qed.
Lemma NoDup_both {A} (l1 l2 : list A) : NoDup l1 -> NoDup l2 -> (forall x, In x l1 -> ~ In x l2) -> NoDup (l1 ++ l2).
Proof.
  induction 1 as [|x l1 Hx _ IH]; intros H2 D; [exact H2|]. cbn [app]. constructor.
  - rewrite in_app_iff. intros [H|H]; [now apply Hx|]. apply (D x); [now left|exact H].
  - apply IH; [exact H2|]. intros y Hy. apply D. now right.
Qed.
Lemma fills_app F G a b c : a <= b -> b <= c -> fills F a b -> fills G b c -> fills (F ++ G) a c.
Proof.
  intros H1 H2 [N1 I1] [N2 I2]. split.
  - apply NoDup_both; [exact N1|exact N2|]. intros x. rewrite I1, I2. lia.
  - intros l. rewrite in_app_iff, I1, I2. lia.
Qed.
Lemma grows_trans s1 s2 s3 : grows s1 s2 -> grows s2 s3 -> grows s1 s3.
Proof. intros [A1 B1] [A2 B2]. split; [lia|]. intros l Hl. rewrite B2 by lia. now apply B1. Qed.

Definition Pcopy (a : parg) : Prop := forall s k p F, sound s -> arg_at (fst s) a k p F ->
  copying (fun f => copy_payload f s k p) s (fun h q F => arg_at h a k q F).
Definition Qcopy (e : pexpr) : Prop := forall s l n F, sound s -> expr_at (fst s) e l n F ->
  copying (fun f => copy_expr f s l) s (fun h q F => expr_at h e q 0 F).

Lemma copy_arg_ok a s l n F : Pcopy a -> sound s -> cell_at (fst s) a l n F ->
  copying (fun f => copy_arg f s l) s (fun h q F => cell_at h a q 0 F).
Proof.
  intros Ha Hs C. pose proof (there_below s F Hs (cell_there _ _ _ _ _ C)) as T. destruct C as (k & p & F3 & B & -> & C).
  set (d := snd s). set (s1 := (upd (fst s) d (Some (CArg k 0 0)), d + 1) : mem).
  assert (Hs1 : sound s1) by (now apply sound_alloc).
  assert (C1 : arg_at (fst s1) a k p F3).
  { apply (proj1 (frame (fst s) (fst s1))); [|exact C]. intros y Hy. cbn [fst s1]. apply upd_other. destruct (T y); [now right|]. unfold d. lia. }
  destruct (Ha s1 k p F3 Hs1 C1) as (N & q & F' & s2 & E & Hs2 & [G1 G2] & C2 & [ND I]). cbn [snd s1] in *.
  assert (Bd : block (fst s2) d (CArg k 0 0)).
  { split; [destruct Hs as [Hs _]; unfold d; lia|]. rewrite G2 by lia. cbn [fst s1]. apply upd_same. }
  exists (S N), d, (d :: F'), (upd (fst s2) d (Some (CArg k q 0)), snd s2). split; [|split; [|split; [|split]]].
  - intros [|f] Hf; [lia|]. cbn [copy_arg]. destruct B as [B0 B]. destruct (Z.eqb_spec l 0); [contradiction|].
    rewrite (arg_block s l k p n) by (now split). cbn [bind]. unfold alloc. fold d. fold s1. rewrite (E f) by lia. cbn [bind].
    rewrite (put_block s2 d _ _ Bd). reflexivity.
  - apply sound_upd; [exact Hs2|lia].
  - split; cbn [fst snd]; [fold d; lia|]. intros y Hy. fold d in Hy. rewrite upd_other, G2 by lia. cbn [fst s1]. apply upd_other. lia.
  - exists k, q, F'. split; [split; [exact (proj1 Bd)|cbn [fst]; apply upd_same]|]. split; [reflexivity|].
    apply (proj1 (frame (fst s2) _)) with (2 := C2). intros y Hy. cbn [fst]. apply upd_other. apply I in Hy. lia.
  - cbn [snd]. apply fills_cons; [lia|]. split; assumption.
Qed.

(** The loop over the arguments, after the first one.  The copy made last gets its [next]. *)
Lemma loop_args rest : Forall Pcopy rest -> forall s a F first last k p, sound s -> chain (cell_at (fst s)) rest a F ->
  first <> 0 -> last < snd s -> block (fst s) last (CArg k p 0) -> ~ In last F ->
  exists N r G s', (forall f, (N <= f)%nat -> copy_args f s a first last = Ok (first, s')) /\ sound s' /\ snd s <= snd s' /\
    fst s' last = Some (CArg k p r) /\ (forall l, l < snd s -> l <> last -> fst s' l = fst s l) /\
    chain (cell_at (fst s')) rest r G /\ fills G (snd s) (snd s').
Proof.
  induction 1 as [|x rest Hx _ IH]; intros s a F first last k p Hs C Hfi Hla Bl Hni; cbn [chain] in C.
  { destruct C as [-> ->]. exists 1%nat, 0, [], s. split; [intros [|f] Hf; [lia|reflexivity]|]. split; [exact Hs|]. split; [lia|].
    split; [exact (proj2 Bl)|]. split; [auto|]. split; [now split|apply fills_nil]. }
  destruct C as (next & F1 & F2 & -> & C1 & C2).
  pose proof (there_below s F1 Hs (cell_there _ _ _ _ _ C1)) as T1. pose proof (there_below s F2 Hs (cells_there _ _ _ _ C2)) as T2.
  assert (Ba : exists ka pa, block (fst s) a (CArg ka pa next) /\ In a F1).
  { destruct C1 as (ka & pa & F3 & B & -> & _). exists ka, pa. split; [exact B|now left]. }
  destruct Ba as (ka & pa & Ba & Hain).
  destruct (copy_arg_ok x s a next F1 Hx Hs C1) as (N1 & d & Fd & s1 & E1 & Hs1 & [G1 G2] & Cd & [ND I]).
  set (s2 := (upd (fst s1) last (Some (CArg k p d)), snd s1) : mem).
  assert (Hs2 : sound s2) by (apply sound_upd; [exact Hs1|lia]).
  assert (Hne : a <> last). { intros ->. apply Hni, in_or_app. now left. }
  assert (Ba2 : block (fst s2) a (CArg ka pa next)).
  { destruct Ba as [B0 B]. split; [exact B0|]. cbn [fst s2]. rewrite upd_other by exact Hne. rewrite G2; [exact B|]. now apply T1. }
  assert (C22 : chain (cell_at (fst s2)) rest next F2).
  { apply (cells_frame (fst s)); [|exact C2]. intros y Hy. cbn [fst s2]. rewrite upd_other by (intros ->; apply Hni, in_or_app; now right).
    apply G2. now apply T2. }
  destruct Cd as (kx & q & Fq & Bd & -> & Cq). assert (Hd : snd s <= d < snd s1) by (apply I; now left).
  assert (Bd2 : block (fst s2) d (CArg kx q 0)).
  { destruct Bd as [B0 B]. split; [exact B0|]. cbn [fst s2]. rewrite upd_other by lia. exact B. }
  destruct (IH s2 next F2 first d kx q Hs2 C22 Hfi (proj2 Hd) Bd2) as (N2 & r & G & s3 & E2 & Hs3 & L3 & Ld & O3 & C3 & Fi3).
  { intros Hin. apply T2 in Hin. lia. }
  cbn [snd s2] in *.
  exists (S (Nat.max N1 N2)), d, ((d :: Fq) ++ G), s3. split; [|split; [|split; [|split; [|split; [|split]]]]].
  - intros [|f] Hf; [lia|]. cbn [copy_args]. destruct (Z.eqb_spec a 0) as [E0|_]; [destruct Ba; contradiction|].
    rewrite (E1 f) by lia. cbn [bind]. destruct (Z.eqb_spec last 0) as [E0|_]; [destruct Bl; contradiction|].
    assert (Bl1 : block (fst s1) last (CArg k p 0)) by (destruct Bl as [B0 B]; split; [exact B0|]; rewrite G2; assumption).
    unfold link_arg. rewrite (arg_block s1 last k p 0 Bl1). cbn [bind]. rewrite (put_block s1 last _ _ Bl1). cbn [bind]. fold s2.
    rewrite (arg_block s2 a ka pa next Ba2). cbn [bind]. destruct (Z.eqb_spec first 0); [contradiction|]. apply E2. lia.
  - exact Hs3.
  - lia.
  - rewrite O3 by lia. cbn [fst s2]. apply upd_same.
  - intros l Hl Hn. rewrite O3 by lia. cbn [fst s2]. rewrite upd_other by exact Hn. now apply G2.
  - exists r, (d :: Fq), G. split; [reflexivity|]. split; [|exact C3]. exists kx, q, Fq. split; [split; [exact (proj1 Bd)|exact Ld]|]. split; [reflexivity|].
    apply (proj1 (frame (fst s1) (fst s3))) with (2 := Cq). intros y Hy. assert (In y (d :: Fq)) as Hy2 by (now right). apply I in Hy2.
    rewrite O3; [|lia|intros ->; inversion ND; contradiction]. cbn [fst s2]. apply upd_other. lia.
  - apply (fills_app _ _ _ (snd s1)); [lia|lia|now split|exact Fi3].
Qed.
Lemma copy_args_ok args s v F : Forall Pcopy args -> sound s -> chain (cell_at (fst s)) args v F ->
  copying (fun f => copy_args f s v 0 0) s (fun h q F => chain (cell_at h) args q F).
Proof.
  intros Ha Hs C. destruct Ha as [|x rest Hx Hr]; cbn [chain] in C.
  { destruct C as [-> ->]. exists 1%nat, 0, [], s. split; [intros [|f] Hf; [lia|reflexivity]|]. split; [exact Hs|].
    split; [split; [lia|auto]|]. split; [now split|apply fills_nil]. }
  destruct C as (next & F1 & F2 & -> & C1 & C2).
  pose proof (there_below s F1 Hs (cell_there _ _ _ _ _ C1)) as T1. pose proof (there_below s F2 Hs (cells_there _ _ _ _ C2)) as T2.
  assert (Ba : exists ka pa, block (fst s) v (CArg ka pa next) /\ In v F1).
  { destruct C1 as (ka & pa & F3 & B & -> & _). exists ka, pa. split; [exact B|now left]. }
  destruct Ba as (ka & pa & Ba & Hain).
  destruct (copy_arg_ok x s v next F1 Hx Hs C1) as (N1 & d & Fd & s1 & E1 & Hs1 & [G1 G2] & Cd & [ND I]).
  destruct Cd as (kx & q & Fq & Bd & -> & Cq). assert (Hd : snd s <= d < snd s1) by (apply I; now left).
  assert (C22 : chain (cell_at (fst s1)) rest next F2).
  { apply (cells_frame (fst s)); [|exact C2]. intros y Hy. apply G2. now apply T2. }
  destruct (loop_args rest Hr s1 next F2 d d kx q Hs1 C22 (proj1 Bd) (proj2 Hd) Bd) as (N2 & r & G & s3 & E2 & Hs3 & L3 & Ld & O3 & C3 & Fi3).
  { intros Hin. apply T2 in Hin. lia. }
  exists (S (Nat.max N1 N2)), d, ((d :: Fq) ++ G), s3. split; [|split; [|split; [|split]]].
  - intros [|f] Hf; [lia|]. cbn [copy_args]. destruct (Z.eqb_spec v 0) as [E0|_]; [destruct Ba; contradiction|].
    rewrite (E1 f) by lia. cbn [bind Z.eqb].
    rewrite (arg_block s1 v ka pa next); [cbn [bind]; apply E2; lia|]. destruct Ba as [B0 B]. split; [exact B0|]. rewrite G2; [exact B|]. now apply T1.
  - exact Hs3.
  - split; [lia|]. intros l Hl. rewrite O3 by lia. now apply G2.
  - exists r, (d :: Fq), G. split; [reflexivity|]. split; [|exact C3]. exists kx, q, Fq. split; [split; [exact (proj1 Bd)|exact Ld]|]. split; [reflexivity|].
    apply (proj1 (frame (fst s1) (fst s3))) with (2 := Cq). intros y Hy. assert (In y (d :: Fq)) as Hy2 by (now right). apply I in Hy2.
    apply O3; [lia|]. intros ->. inversion ND; contradiction.
  - apply (fills_app _ _ _ (snd s1)); [lia|lia|now split|exact Fi3].
Qed.

Lemma copy_expr_ok name args : Forall Pcopy args -> Qcopy (Call name args).
Proof.
  intros Ha s l n F Hs C. pose proof (there_below s F Hs (proj2 (there_all (fst s)) _ _ _ _ C)) as T. destruct C as (v & F3 & B & -> & C).
  set (d := snd s). set (s1 := (upd (fst s) d (Some (CExpr [] 0 0 0)), d + 1) : mem).
  assert (Hs1 : sound s1) by (now apply sound_alloc).
  assert (Hd : d <> 0) by (destruct Hs as [Hs _]; unfold d; lia).
  assert (Bl : block (fst s1) l (CExpr name (zlen args) v n)).
  { destruct B as [B0 B]. split; [exact B0|]. cbn [fst s1]. rewrite upd_other; [exact B|]. destruct (T l); [now left|]. unfold d. lia. }
  assert (Bd1 : block (fst s1) d (CExpr [] 0 0 0)) by (split; [exact Hd|cbn [fst s1]; apply upd_same]).
  set (s2 := (upd (fst s1) d (Some (CExpr name (zlen args) 0 0)), d + 1) : mem).
  assert (Hs2 : sound s2) by (apply (sound_upd s1); [exact Hs1|cbn [snd s1]; lia]).
  assert (C2 : chain (cell_at (fst s2)) args v F3).
  { apply (cells_frame (fst s)); [|exact C]. intros y Hy. destruct (T y) as [_ Ty]; [now right|]. cbn [fst s2 s1]. rewrite !upd_other; [reflexivity|unfold d; lia..]. }
  destruct (copy_args_ok args s2 v F3 Ha Hs2 C2) as (N & q & F' & s3 & E & Hs3 & [G1 G2] & C3 & [ND I]). cbn [snd s2] in *.
  assert (Bd : block (fst s3) d (CExpr name (zlen args) 0 0)).
  { split; [exact Hd|]. rewrite G2 by lia. cbn [fst s2]. apply upd_same. }
  exists (S N), d, (d :: F'), (upd (fst s3) d (Some (CExpr name (zlen args) q 0)), snd s3). split; [|split; [|split; [|split]]].
  - intros [|f] Hf; [lia|]. cbn [copy_expr]. destruct (Z.eqb_spec l 0) as [E0|_]; [destruct B; contradiction|]. unfold alloc. fold d. fold s1.
    rewrite (expr_block s1 l _ _ _ _ Bl). cbn [bind]. rewrite (put_block s1 d _ _ Bd1). cbn [bind]. change (snd s1) with (d + 1). fold s2. rewrite (E f) by lia. cbn [bind].
    rewrite (put_block s3 d _ _ Bd). reflexivity.
  - apply sound_upd; [exact Hs3|lia].
  - split; cbn [fst snd]; [fold d; lia|]. intros y Hy. fold d in Hy. rewrite upd_other, G2 by lia. cbn [fst s2 s1]. rewrite !upd_other by lia. reflexivity.
  - exists q, F'. split; [split; [exact Hd|cbn [fst]; apply upd_same]|]. split; [reflexivity|].
    apply (cells_frame (fst s3)); [|exact C3]. intros y Hy. cbn [fst]. apply upd_other. apply I in Hy. lia.
  - cbn [snd]. apply fills_cons; [lia|]. split; assumption.
Qed.

(** ** Linked expressions *)
Inductive path (h : Z -> option cell) (last : Z) : Z -> nat -> Prop :=
| path_end n c v : block h last (CExpr n c v 0) -> path h last last 0
| path_step l n c v x m : block h l (CExpr n c v x) -> x <> 0 -> path h last x m -> path h last l (S m).
Lemma last_path s last l m : path (fst s) last l m -> forall f, (m < f)%nat -> last_expr f s l = Ok last.
Proof.
  induction 1 as [n c v B|l n c v x m B Hx _ IH]; intros [|f] Hf; try lia; cbn [last_expr]; rewrite (expr_block s _ _ _ _ _ B); cbn [bind].
  - reflexivity.
  - destruct (Z.eqb_spec x 0); [contradiction|]. apply IH. lia.
Qed.
Lemma path_last h last l m : path h last l m -> exists n c v, block h last (CExpr n c v 0).
Proof. induction 1 as [n c v B|]; [now exists n, c, v|assumption]. Qed.
Lemma path_same h h' last l m : path h last l m -> (forall y, h y <> None -> h' y = h y) -> path h' last l m.
Proof.
  intros H O. induction H as [n0 c0 v0 [B1 B2]|l n0 c0 v0 x m [B1 B2] Hx H IH].
  - apply (path_end _ _ n0 c0 v0). split; [exact B1|]. rewrite O; [exact B2|congruence].
  - apply (path_step _ _ l n0 c0 v0 x m); [|exact Hx|exact IH]. split; [exact B1|]. rewrite O; [exact B2|congruence].
Qed.
Lemma path_extend h h' last l m d n c v n' c' v' : path h last l m -> (forall y, h y <> None -> y <> last -> h' y = h y) ->
  block h' last (CExpr n c v d) -> block h' d (CExpr n' c' v' 0) -> path h' d l (S m).
Proof.
  intros H O B Bd. induction H as [n0 c0 v0 B0|l n0 c0 v0 x m [B1 B2] Hx H IH].
  - apply (path_step _ _ _ n c v d); [exact B|exact (proj1 Bd)|]. now apply (path_end _ _ n' c' v').
  - apply (path_step _ _ l n0 c0 v0 x (S m)); [|exact Hx|exact IH]. split; [exact B1|]. rewrite O; [exact B2|congruence|].
    intros ->. destruct (path_last _ _ _ _ H) as (n1 & c1 & v1 & _ & E). congruence.
Qed.

Lemma loop_exprs rest : Forall Qcopy rest -> forall s e F dest last m n c v, sound s -> chain (expr_at (fst s)) rest e F ->
  dest <> 0 -> path (fst s) last dest m -> block (fst s) last (CExpr n c v 0) -> ~ In last F ->
  exists N r G s', (forall f, (N <= f)%nat -> copy_linked f s e dest = Ok (dest, s')) /\ sound s' /\ snd s <= snd s' /\
    fst s' last = Some (CExpr n c v r) /\ (forall l, l < snd s -> l <> last -> fst s' l = fst s l) /\
    chain (expr_at (fst s')) rest r G /\ fills G (snd s) (snd s').
Proof.
  induction 1 as [|x rest Hx _ IH]; intros s a F dest last m n c v Hs C Hde Hpa Bl Hni; cbn [chain] in C.
  { destruct C as [-> ->]. exists 1%nat, 0, [], s. split; [intros [|f] Hf; [lia|reflexivity]|]. split; [exact Hs|]. split; [lia|].
    split; [exact (proj2 Bl)|]. split; [auto|]. split; [now split|apply fills_nil]. }
  assert (Hla : last < snd s) by (apply below; [exact Hs|destruct Bl; congruence]).
  destruct C as (next & F1 & F2 & -> & C1 & C2).
  pose proof (there_below s F1 Hs (proj2 (there_all _) _ _ _ _ C1)) as T1. pose proof (there_below s F2 Hs (exprs_there _ _ _ _ C2)) as T2.
  assert (Ba : exists na ca va, block (fst s) a (CExpr na ca va next) /\ In a F1).
  { destruct x as [nx ax]. destruct C1 as (va & F3 & B & -> & _). exists nx, (zlen ax), va. split; [exact B|now left]. }
  destruct Ba as (na & ca & va & Ba & Hain).
  destruct (Hx s a next F1 Hs C1) as (N1 & d & Fd & s1 & E1 & Hs1 & [G1 G2] & Cd & [ND I]).
  destruct x as [nx ax]. destruct Cd as (q & Fq & Bd & -> & Cq). assert (Hd : snd s <= d < snd s1) by (apply I; now left).
  set (cd := CExpr nx (zlen ax) q 0) in *.
  set (sA := (upd (fst s1) last (Some (CExpr n c v d)), snd s1) : mem). set (s2 := (upd (fst sA) d (Some cd), snd s1) : mem).
  assert (HsA : sound sA) by (apply sound_upd; [exact Hs1|lia]).
  assert (Hs2 : sound s2) by (apply (sound_upd sA); [exact HsA|cbn [snd sA]; lia]).
  assert (Hne : a <> last). { intros ->. apply Hni, in_or_app. now left. }
  assert (O2 : forall y, y < snd s -> y <> last -> fst s2 y = fst s y).
  { intros y H1 H2. cbn [fst s2 sA]. rewrite !upd_other by lia. now apply G2. }
  assert (Ba2 : block (fst s2) a (CExpr na ca va next)).
  { destruct Ba as [B0 B]. split; [exact B0|]. rewrite O2; [exact B|now apply T1|exact Hne]. }
  assert (C22 : chain (expr_at (fst s2)) rest next F2).
  { apply (exprs_frame (fst s)); [|exact C2]. intros y Hy. apply O2; [now apply T2|]. intros ->. apply Hni, in_or_app. now right. }
  assert (Bd2 : block (fst s2) d cd) by (split; [exact (proj1 Bd)|cbn [fst s2]; apply upd_same]).
  assert (Bl1 : block (fst s1) last (CExpr n c v 0)) by (destruct Bl as [B0 B]; split; [exact B0|]; rewrite G2; assumption).
  assert (Bl2 : block (fst s2) last (CExpr n c v d)).
  { split; [exact (proj1 Bl)|]. cbn [fst s2 sA]. rewrite upd_other by lia. apply upd_same. }
  assert (BdA : block (fst sA) d cd).
  { destruct Bd as [B0 B]. split; [exact B0|]. cbn [fst sA]. rewrite upd_other by lia. exact B. }
  assert (Hpa1 : path (fst s1) last dest m).
  { apply (path_same (fst s)); [exact Hpa|]. intros y Hy. apply G2. now apply below. }
  assert (Hpa2 : path (fst s2) d dest (S m)).
  { apply (path_extend (fst s) _ last dest m d n c v nx (zlen ax) q Hpa); [|exact Bl2|exact Bd2]. intros y Hy. apply O2. now apply below. }
  destruct (IH s2 next F2 dest d (S m) nx (zlen ax) q Hs2 C22 Hde Hpa2 Bd2) as (N2 & r & G & s3 & E2 & Hs3 & L3 & Ld & O3 & C3 & Fi3).
  { intros Hin. apply T2 in Hin. lia. }
  cbn [snd s2] in *.
  exists (S (Nat.max (S m) (Nat.max N1 N2))), d, ((d :: Fq) ++ G), s3. split; [|split; [|split; [|split; [|split; [|split]]]]].
  - intros [|f] Hf; [lia|]. cbn [copy_linked]. destruct (Z.eqb_spec a 0) as [E0|_]; [destruct Ba; contradiction|].
    rewrite (E1 f) by lia. cbn [bind]. unfold append_expr. destruct (Z.eqb_spec dest 0) as [E0|_]; [contradiction|].
    destruct (Z.eqb_spec d 0) as [E0|_]; [destruct Bd; contradiction|].
    rewrite (last_path s1 last dest m Hpa1 f) by lia. cbn [bind].
    unfold link_expr. rewrite (expr_block s1 last _ _ _ _ Bl1). cbn [bind]. rewrite (put_block s1 last _ _ Bl1). cbn [bind]. fold sA.
    rewrite (expr_block sA d _ _ _ _ BdA). cbn [bind]. rewrite (put_block sA d _ _ BdA). cbn [bind]. change (snd sA) with (snd s1). fold cd. fold s2.
    rewrite (expr_block s2 a _ _ _ _ Ba2). cbn [bind]. apply E2. lia.
  - exact Hs3.
  - lia.
  - rewrite O3 by lia. exact (proj2 Bl2).
  - intros l Hl Hn. rewrite O3 by lia. now apply O2.
  - exists r, (d :: Fq), G. split; [reflexivity|]. split; [|exact C3]. exists q, Fq. split; [split; [exact (proj1 Bd)|exact Ld]|]. split; [reflexivity|].
    apply (cells_frame (fst s1) (fst s3)) with (2 := Cq). intros y Hy. assert (In y (d :: Fq)) as Hy2 by (now right). apply I in Hy2.
    assert (y <> d) by (intros ->; inversion ND; contradiction).
    rewrite O3; [|lia|assumption]. cbn [fst s2 sA]. rewrite !upd_other by (assumption || lia). reflexivity.
  - apply (fills_app _ _ _ (snd s1)); [lia|lia|now split|exact Fi3].
Qed.
Lemma copy_linked_ok es s v F : Forall Qcopy es -> sound s -> chain (expr_at (fst s)) es v F ->
  copying (fun f => copy_linked f s v 0) s (fun h q F => chain (expr_at h) es q F).
Proof.
  intros Ha Hs C. destruct Ha as [|x rest Hx Hr]; cbn [chain] in C.
  { destruct C as [-> ->]. exists 1%nat, 0, [], s. split; [intros [|f] Hf; [lia|reflexivity]|]. split; [exact Hs|].
    split; [split; [lia|auto]|]. split; [now split|apply fills_nil]. }
  destruct C as (next & F1 & F2 & -> & C1 & C2).
  pose proof (there_below s F1 Hs (proj2 (there_all _) _ _ _ _ C1)) as T1. pose proof (there_below s F2 Hs (exprs_there _ _ _ _ C2)) as T2.
  assert (Ba : exists na ca va, block (fst s) v (CExpr na ca va next) /\ In v F1).
  { destruct x as [nx ax]. destruct C1 as (va & F3 & B & -> & _). exists nx, (zlen ax), va. split; [exact B|now left]. }
  destruct Ba as (na & ca & va & Ba & Hain).
  destruct (Hx s v next F1 Hs C1) as (N1 & d & Fd & s1 & E1 & Hs1 & [G1 G2] & Cd & [ND I]).
  destruct x as [nx ax]. destruct Cd as (q & Fq & Bd & -> & Cq). assert (Hd : snd s <= d < snd s1) by (apply I; now left).
  assert (C22 : chain (expr_at (fst s1)) rest next F2).
  { apply (exprs_frame (fst s)); [|exact C2]. intros y Hy. apply G2. now apply T2. }
  destruct (loop_exprs rest Hr s1 next F2 d d 0 nx (zlen ax) q Hs1 C22 (proj1 Bd) (path_end _ _ _ _ _ Bd) Bd) as (N2 & r & G & s3 & E2 & Hs3 & L3 & Ld & O3 & C3 & Fi3).
  { intros Hin. apply T2 in Hin. lia. }
  exists (S (Nat.max N1 N2)), d, ((d :: Fq) ++ G), s3. split; [|split; [|split; [|split]]].
  - intros [|f] Hf; [lia|]. cbn [copy_linked]. destruct (Z.eqb_spec v 0) as [E0|_]; [destruct Ba; contradiction|].
    rewrite (E1 f) by lia. cbn [bind]. unfold append_expr. rewrite Z.eqb_refl. cbn [bind].
    rewrite (expr_block s1 v na ca va next); [cbn [bind]; apply E2; lia|]. destruct Ba as [B0 B]. split; [exact B0|]. rewrite G2; [exact B|]. now apply T1.
  - exact Hs3.
  - split; [lia|]. intros l Hl. rewrite O3 by lia. now apply G2.
  - exists r, (d :: Fq), G. split; [reflexivity|]. split; [|exact C3]. exists q, Fq. split; [split; [exact (proj1 Bd)|exact Ld]|]. split; [reflexivity|].
    apply (cells_frame (fst s1) (fst s3)) with (2 := Cq). intros y Hy. assert (In y (d :: Fq)) as Hy2 by (now right). apply I in Hy2.
    apply O3; [lia|]. intros ->. inversion ND; contradiction.
  - apply (fills_app _ _ _ (snd s1)); [lia|lia|now split|exact Fi3].
Qed.

Lemma copy_all : (forall a, Pcopy a) /\ (forall e, Qcopy e).
Proof.
  assert (K1 : forall x, Pcopy (PAtom x)).
  { intros x s k p F Hs (-> & B & ->). exists 1%nat, (snd s), [snd s], (upd (fst s) (snd s) (Some (CAtom x)), snd s + 1).
    split; [intros [|f] Hf; [lia|]; cbn [copy_payload]; rewrite (fetch_block s p _ B); reflexivity|]. split; [now apply sound_alloc|].
    split; [split; cbn [fst snd]; [lia|intros y Hy; apply upd_other; lia]|]. split.
    - split; [reflexivity|]. split; [|reflexivity]. split; [destruct Hs; lia|cbn [fst]; apply upd_same].
    - cbn [snd]. apply fills_cons; [lia|apply fills_nil]. }
  assert (K2 : forall x, Pcopy (PAddr x)).
  { intros x s k p F Hs (-> & B & ->). exists 1%nat, (snd s), [snd s], (upd (fst s) (snd s) (Some (CText x)), snd s + 1).
    split; [intros [|f] Hf; [lia|]; cbn [copy_payload]; rewrite (fetch_block s p _ B); reflexivity|]. split; [now apply sound_alloc|].
    split; [split; cbn [fst snd]; [lia|intros y Hy; apply upd_other; lia]|]. split.
    - split; [reflexivity|]. split; [|reflexivity]. split; [destruct Hs; lia|cbn [fst]; apply upd_same].
    - cbn [snd]. apply fills_cons; [lia|apply fills_nil]. }
  assert (K3 : Pcopy (PExpr None)).
  { intros s k p F Hs (-> & -> & ->). exists 2%nat, 0, [], s. split; [intros [|[|f]] Hf; [lia|lia|reflexivity]|]. split; [exact Hs|].
    split; [split; [lia|auto]|]. split; [now repeat split|apply fills_nil]. }
  assert (K4 : forall e, Qcopy e -> Pcopy (PExpr (Some e))).
  { intros e He s k p F Hs (-> & C). destruct (He s p 0 F Hs C) as (N & q & G & s' & E & R). exists (S N), q, G, s'.
    split; [intros [|f] Hf; [lia|]; cbn [copy_payload]; apply E; lia|]. destruct R as (R1 & R2 & R3 & R4). split; [exact R1|]. split; [exact R2|]. split; [now split|exact R4]. }
  assert (K5 : forall ps body, Forall Qcopy body -> Pcopy (PFun ps body)).
  { intros ps body Hb s k p F Hs C. pose proof (there_below s F Hs (proj1 (there_all (fst s)) _ _ _ _ C)) as T. destruct C as (-> & x & F3 & B & -> & C).
    set (d := snd s). set (s1 := (upd (fst s) d (Some (CRec ps 0)), d + 1) : mem).
    assert (Hs1 : sound s1) by (now apply sound_alloc). assert (Hd : d <> 0) by (destruct Hs as [Hs _]; unfold d; lia).
    assert (C1 : chain (expr_at (fst s1)) body x F3).
    { apply (exprs_frame (fst s)); [|exact C]. intros y Hy. cbn [fst s1]. apply upd_other. destruct (T y); [now right|]. unfold d. lia. }
    destruct (Z.eq_dec x 0) as [Ex|Hx].
    - assert (body = []) as ->.
      { destruct body as [|[nx ax] body]; [reflexivity|]. cbn in C. destruct C as (? & ? & ? & _ & (? & ? & [B0 _] & _) & _). contradiction. }
      exists 1%nat, d, [d], s1. split; [intros [|f] Hf; [lia|]; cbn [copy_payload]; destruct B as [B0 B]; destruct (Z.eqb_spec p 0); [contradiction|];
        rewrite (fetch_block s p (CRec ps x)) by (now split); cbn [bind]; unfold alloc; rewrite Ex; reflexivity|]. split; [exact Hs1|].
      split; [split; cbn [fst snd s1]; [unfold d; lia|intros y Hy; apply upd_other; unfold d; lia]|]. split.
      + split; [reflexivity|]. exists 0, []. split; [split; [exact Hd|cbn [fst s1]; apply upd_same]|]. split; [reflexivity|now split].
      + cbn [snd s1]. apply fills_cons; [lia|apply fills_nil].
    - destruct (copy_linked_ok body s1 x F3 Hb Hs1 C1) as (N & q & G & s2 & E & Hs2 & [G1 G2] & C2 & [ND I]). cbn [snd s1] in *.
      assert (Bd : block (fst s2) d (CRec ps 0)). { split; [exact Hd|]. rewrite G2 by lia. cbn [fst s1]. apply upd_same. }
      exists (S N), d, (d :: G), (upd (fst s2) d (Some (CRec ps q)), snd s2). split; [|split; [|split; [|split]]].
      + intros [|f] Hf; [lia|]. cbn [copy_payload]. destruct (Z.eqb_spec p 0) as [E0|_]; [destruct B; contradiction|]. rewrite (fetch_block s p _ B). cbn [bind].
        unfold alloc. fold d. fold s1. destruct (Z.eqb_spec x 0); [contradiction|]. rewrite (E f) by lia. cbn [bind]. rewrite (put_block s2 d _ _ Bd). reflexivity.
      + apply sound_upd; [exact Hs2|lia].
      + split; cbn [fst snd]; [fold d; lia|]. intros y Hy. fold d in Hy. rewrite upd_other, G2 by lia. cbn [fst s1]. apply upd_other. lia.
      + split; [reflexivity|]. exists q, G. split; [split; [exact Hd|cbn [fst]; apply upd_same]|]. split; [reflexivity|].
        apply (exprs_frame (fst s2)); [|exact C2]. intros y Hy. cbn [fst]. apply upd_other. apply I in Hy. lia.
      + cbn [snd]. apply fills_cons; [lia|]. split; assumption. }
  split; [exact (parg_all Pcopy Qcopy K1 K2 K3 K4 K5 copy_expr_ok)|exact (pexpr_all Pcopy Qcopy K1 K2 K3 K4 K5 copy_expr_ok)].
Qed.
Lemma copy_program es s v F : sound s -> program_at (fst s) es v F ->
  copying (fun f => copy_linked f s v 0) s (fun h q F => program_at h es q F).
Proof. apply copy_linked_ok. apply Forall_forall. intros e _. apply copy_all. Qed.

(** * Freeing *)
Definition frees (s s' : mem) (F : list Z) : Prop :=
  snd s' = snd s /\ (forall l, In l F -> fst s' l = None) /\ (forall l, ~ In l F -> fst s' l = fst s l).
Definition freeing (run : nat -> res mem) (s : mem) (F : list Z) : Prop :=
  exists N s', (forall f, (N <= f)%nat -> run f = Ok s') /\ frees s s' F.
Lemma frees_nil s : frees s s [].
Proof. repeat split; auto; intros l []. Qed.
Lemma frees_app s1 s2 s3 F G : (forall x, In x F -> ~ In x G) -> frees s1 s2 F -> frees s2 s3 G -> frees s1 s3 (F ++ G).
Proof.
  intros D (A1 & B1 & C1) (A2 & B2 & C2). split; [congruence|]. split; intros l Hl; rewrite in_app_iff in Hl.
  - destruct Hl as [Hl|Hl]; [rewrite C2; [now apply B1|now apply D]|now apply B2].
  - rewrite C2 by tauto. apply C1. tauto.
Qed.
Lemma frees_swap s s' F G : (forall x, In x F <-> In x G) -> frees s s' F -> frees s s' G.
Proof. intros H (A & B & C). split; [exact A|]. split; intros l Hl; [apply B|apply C]; rewrite H; assumption. Qed.
Lemma drop_frees s l c : block (fst s) l c -> exists s', drop s l = Ok s' /\ frees s s' [l].
Proof.
  intros B. exists (upd (fst s) l None, snd s). split; [now apply (drop_block s l c)|]. split; [reflexivity|]. cbn [fst In]. split; intros x Hx.
  - destruct Hx as [<-|[]]. apply upd_same.
  - apply upd_other. intros ->. apply Hx. now left.
Qed.
Lemma frees_agree s s' F G : frees s s' F -> (forall x, In x G -> ~ In x F) -> agree (fst s) (fst s') G.
Proof. intros (_ & _ & C) D l Hl. apply C. now apply D. Qed.
Lemma NoDup_split {A} (F G : list A) : NoDup (F ++ G) -> NoDup F /\ NoDup G /\ forall x, In x F -> ~ In x G.
Proof.
  induction F as [|y F IH]; cbn [app]; intros H; [split; [constructor|]; split; [exact H|intros x []]|]. inversion_clear H as [|? ? Hy HF].
  destruct (IH HF) as (I1 & I2 & I3). rewrite in_app_iff in Hy. split; [constructor; tauto|]. split; [exact I2|]. intros x [<-|Hx]; [tauto|now apply I3].
Qed.
Definition Pfree (a : parg) : Prop := forall s k p F, arg_at (fst s) a k p F -> NoDup F -> freeing (fun f => clear_payload f s k p) s F.
Definition Qfree (e : pexpr) : Prop := forall s l n F, expr_at (fst s) e l n F -> NoDup F ->
  exists N v c m s', get_expr s l = Ok (m, c, v, n) /\ l <> 0 /\ (forall f, (N <= f)%nat -> (do s1 <- free_args f s v; drop s1 l) = Ok s') /\ frees s s' F.
Lemma free_args_ok args : Forall Pfree args -> forall s v F, chain (cell_at (fst s)) args v F -> NoDup F -> freeing (fun f => free_args f s v) s F.
Proof.
  induction 1 as [|x args Hx _ IH]; intros s v F C ND; cbn [chain] in C.
  { destruct C as [-> ->]. exists 1%nat, s. split; [intros [|f] Hf; [lia|reflexivity]|apply frees_nil]. }
  destruct C as (n & F1 & F2 & -> & (k & p & F3 & B & -> & C1) & C2). apply NoDup_split in ND as (N1 & N2 & D). inversion_clear N1 as [|? ? Hv N3].
  destruct (Hx s k p F3 C1 N3) as (Na & s1 & E1 & R1).
  assert (B1 : block (fst s1) v (CArg k p n)).
  { apply (block_agree (fst s) (fst s1) [v]); [|now left|exact B]. apply (frees_agree _ _ F3 [v] R1). intros y [<-|[]]. exact Hv. }
  destruct (drop_frees s1 v _ B1) as (s2 & E2 & R2).
  assert (R12 : frees s s2 (v :: F3)).
  { apply (frees_swap s s2 (F3 ++ [v])); [intros y; rewrite in_app_iff; cbn [In]; tauto|]. apply (frees_app s s1 s2); [|exact R1|exact R2]. intros y Hy [<-|[]]. now apply Hv. }
  destruct (IH s2 n F2) as (Nb & s3 & E3 & R3); [|exact N2|].
  { apply (cells_frame (fst s)); [|exact C2]. apply (frees_agree _ _ _ _ R12). intros y Hy Hy2. now apply (D y). }
  exists (S (Nat.max Na Nb)), s3. split; [|now apply (frees_app s s2 s3)].
  intros [|f] Hf; [lia|]. cbn [free_args]. destruct (Z.eqb_spec v 0) as [E0|_]; [destruct B; contradiction|]. rewrite (arg_block s v k p n B). cbn [bind].
  rewrite (E1 f) by lia. cbn [bind]. rewrite E2. cbn [bind]. apply E3. lia.
Qed.
Lemma free_exprs_ok es : Forall Qfree es -> forall s v F, chain (expr_at (fst s)) es v F -> NoDup F -> freeing (fun f => free_exprs f s v) s F.
Proof.
  induction 1 as [|x es Hx _ IH]; intros s v F C ND; cbn [chain] in C.
  { destruct C as [-> ->]. exists 1%nat, s. split; [intros [|f] Hf; [lia|reflexivity]|apply frees_nil]. }
  destruct C as (n & F1 & F2 & -> & C1 & C2). apply NoDup_split in ND as (N1 & N2 & D).
  destruct (Hx s v n F1 C1 N1) as (Na & w & c & m & s1 & G & Hv & E1 & R1).
  destruct (IH s1 n F2) as (Nb & s3 & E3 & R3); [|exact N2|].
  { apply (exprs_frame (fst s)); [|exact C2]. apply (frees_agree _ _ _ _ R1). intros y Hy Hy2. now apply (D y). }
  exists (S (Nat.max Na Nb)), s3. split; [|now apply (frees_app s s1 s3)].
  intros [|f] Hf; [lia|]. cbn [free_exprs]. destruct (Z.eqb_spec v 0); [contradiction|]. rewrite G. cbn [bind].
  specialize (E1 f ltac:(lia)). destruct (free_args f s w) as [t| |]; cbn [bind] in *; try discriminate. rewrite E1. cbn [bind]. apply E3. lia.
Qed.
Lemma free_expr_ok name args : Forall Pfree args -> Qfree (Call name args).
Proof.
  intros Ha s l n F (v & F3 & B & -> & C) ND. inversion_clear ND as [|? ? Hl N3].
  destruct (free_args_ok args Ha s v F3 C N3) as (N & s1 & E1 & R1).
  assert (B1 : block (fst s1) l (CExpr name (zlen args) v n)).
  { apply (block_agree (fst s) (fst s1) [l]); [|now left|exact B]. apply (frees_agree _ _ F3 [l] R1). intros y [<-|[]]. exact Hl. }
  destruct (drop_frees s1 l _ B1) as (s2 & E2 & R2).
  exists N, v, (zlen args), name, s2. split; [now apply expr_block|]. split; [exact (proj1 B)|]. split.
  - intros f Hf. rewrite (E1 f Hf). exact E2.
  - apply (frees_swap s s2 (F3 ++ [l])); [intros y; rewrite in_app_iff; cbn [In]; tauto|]. apply (frees_app s s1 s2); [|exact R1|exact R2]. intros y Hy [<-|[]]. now apply Hl.
Qed.
Lemma free_all : (forall a, Pfree a) /\ (forall e, Qfree e).
Proof.
  assert (K1 : forall x, Pfree (PAtom x)).
  { intros x s k p F (-> & B & ->) _. destruct (drop_frees s p _ B) as (s2 & E & R). exists 1%nat, s2. split; [intros [|f] Hf; [lia|exact E]|exact R]. }
  assert (K2 : forall x, Pfree (PAddr x)).
  { intros x s k p F (-> & B & ->) _. destruct (drop_frees s p _ B) as (s2 & E & R). exists 1%nat, s2. split; [intros [|f] Hf; [lia|exact E]|exact R]. }
  assert (K3 : Pfree (PExpr None)).
  { intros s k p F (-> & -> & ->) _. exists 2%nat, s. split; [intros [|[|f]] Hf; [lia|lia|reflexivity]|apply frees_nil]. }
  assert (K4 : forall e, Qfree e -> Pfree (PExpr (Some e))).
  { intros e He s k p F (-> & C) ND.
    assert (C' : chain (expr_at (fst s)) [e] p F). { exists 0, F, []. split; [now rewrite app_nil_r|]. split; [exact C|now split]. }
    destruct (free_exprs_ok [e] (Forall_cons _ He (Forall_nil _)) s p F C' ND) as (N & s' & E & R). exists (S N), s'.
    split; [intros [|f] Hf; [lia|]; cbn [clear_payload]; apply E; lia|exact R]. }
  assert (K5 : forall ps body, Forall Qfree body -> Pfree (PFun ps body)).
  { intros ps body Hb s k p F (-> & x & F3 & B & -> & C) ND. inversion_clear ND as [|? ? Hp N3].
    destruct (drop_frees s p _ B) as (s1 & E1 & R1).
    assert (C1 : chain (expr_at (fst s1)) body x F3).
    { apply (exprs_frame (fst s)); [|exact C]. apply (frees_agree _ _ _ _ R1). intros y Hy [<-|[]]. now apply Hp. }
    destruct (free_exprs_ok body Hb s1 x F3 C1 N3) as (N & s2 & E2 & R2).
    assert (R : frees s s2 (p :: F3)). { apply (frees_app s s1 s2 [p] F3); [|exact R1|exact R2]. intros y [<-|[]]. exact Hp. }
    exists (S (S N)), s2. split; [|exact R]. intros [|f] Hf; [lia|]. cbn [clear_payload]. destruct (Z.eqb_spec p 0) as [E0|_]; [destruct B; contradiction|].
    rewrite (fetch_block s p _ B). cbn [bind]. rewrite E1. cbn [bind]. specialize (E2 f ltac:(lia)). destruct (Z.eqb_spec x 0) as [->|]; [|exact E2].
    destruct f as [|f]; [lia|]. exact E2. }
  split; [exact (parg_all Pfree Qfree K1 K2 K3 K4 K5 free_expr_ok)|exact (pexpr_all Pfree Qfree K1 K2 K3 K4 K5 free_expr_ok)].
Qed.
Lemma free_program es s v F : program_at (fst s) es v F -> NoDup F -> freeing (fun f => free_exprs f s v) s F.
Proof. apply free_exprs_ok. apply Forall_forall. intros e _. apply free_all. Qed.
