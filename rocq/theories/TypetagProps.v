(** C36: ordering and promotion of type tags. *)

From Coq Require Import ZArith List Bool Lia Permutation.
From Verif Require Import Base BaseProofs TypetagModel Text.
Import ListNotations.
Open Scope Z_scope.

(** The documented promotion order, lowest first (osc_typetag.h). *)
Definition promotion_order : list Z := str "NTFcCuUiIhHfds".

(** [later a b]: [a] comes strictly after [b] in the promotion order. *)
Definition later (a b : Z) : Prop :=
  exists l1 l2 l3, promotion_order = l1 ++ b :: l2 ++ a :: l3.

(** How an unlisted type and a boolean count when several types are combined. *)
Definition counts_as (t : Z) : Z :=
  if t =? 70 then 84
  else if existsb (Z.eqb t) promotion_order then t
  else 105.

Fixpoint pos (t : Z) (l : list Z) : nat :=
  match l with
  | [] => 0%nat
  | x :: l' => if t =? x then 0%nat else S (pos t l')
  end.

Lemma later_pos a b : later a b ->
  In a promotion_order /\ In b promotion_order /\ (pos b promotion_order < pos a promotion_order)%nat.
Proof.
  intros (l1 & l2 & l3 & H). unfold promotion_order in *.
  let s := eval vm_compute in (str "NTFcCuUiIhHfds") in change (str "NTFcCuUiIhHfds") with s in *.
  assert (Hnd : NoDup (l1 ++ b :: l2 ++ a :: l3)).
  { rewrite <- H. repeat constructor; cbn; intuition lia. }
  rewrite H. split; [|split].
  - apply in_or_app. right. right. apply in_or_app. right. now left.
  - apply in_or_app. right. now left.
  - assert (G : forall l x r, ~ In x l -> pos x (l ++ x :: r) = length l).
    { induction l as [|c l IH]; intros x r Hx; cbn; [now rewrite Z.eqb_refl|].
      destruct (x =? c) eqn:E; [exfalso; apply Hx; left; lia|]. f_equal. apply IH. intros Hi. apply Hx. now right. }
    rewrite G.
    + replace (l1 ++ b :: l2 ++ a :: l3) with ((l1 ++ b :: l2) ++ a :: l3) by (rewrite <- app_assoc; reflexivity).
      rewrite G; [rewrite app_length; cbn; lia|].
      replace (l1 ++ b :: l2 ++ a :: l3) with ((l1 ++ b :: l2) ++ a :: l3) in Hnd by (rewrite <- app_assoc; reflexivity).
      apply NoDup_remove_2 in Hnd. intros Hi. apply Hnd. apply in_or_app. now left.
    + apply NoDup_remove_2 in Hnd. intros Hi. apply Hnd. apply in_or_app. now left.
Qed.

Lemma pos_index : forall t, In t promotion_order ->
  rd typetag_indexes t = Ok (Z.of_nat (pos t promotion_order)) /\
  rd typetags (Z.of_nat (pos t promotion_order)) = Ok t.
Proof.
  assert (H : Forall (fun t => rd typetag_indexes t = Ok (Z.of_nat (pos t promotion_order)) /\
                        rd typetags (Z.of_nat (pos t promotion_order)) = Ok t) promotion_order).
  { unfold promotion_order.
    let s := eval vm_compute in (str "NTFcCuUiIhHfds") in change (str "NTFcCuUiIhHfds") with s.
    repeat constructor. }
  rewrite Forall_forall in H. exact H.
Qed.

(** Comparison of two distinct listed types follows the promotion order. *)
Theorem C36_compare_follows_order : forall a b, later a b ->
  typetag_compare a b = Ok 1 /\ typetag_compare b a = Ok (-1).
Proof.
  intros a b H. destruct (later_pos a b H) as (Ha & Hb & Hp).
  destruct (pos_index a Ha) as [Ea _]. destruct (pos_index b Hb) as [Eb _].
  assert (a <> b) by (intros ->; lia).
  unfold typetag_compare. destruct (a =? b) eqn:E1; [lia|]. destruct (b =? a) eqn:E2; [lia|].
  rewrite Ea, Eb. cbn [bind].
  destruct (Z.of_nat (pos a promotion_order) <? Z.of_nat (pos b promotion_order)) eqn:E3; [lia|].
  destruct (Z.of_nat (pos b promotion_order) <? Z.of_nat (pos a promotion_order)) eqn:E4; [|lia].
  split; reflexivity.
Qed.
Print Assumptions C36_compare_follows_order.

Example C36_compare_case : later 100 105 /\ typetag_compare 100 105 = Ok 1.
Proof. split; [exists (str "NTFcCuU"), (str "IhHf"), (str "s"); reflexivity | reflexivity]. Qed.

(** Between listed types, 0 is returned for equal ones only, and exactly one
    of the two orders of two distinct types is "less". *)
Theorem C36_compare_total : forall a b, In a promotion_order -> In b promotion_order ->
  exists r, typetag_compare a b = Ok r /\ typetag_compare b a = Ok (- r) /\ (r = 0 <-> a = b).
Proof.
  intros a b Ha Hb. destruct (Z.eq_dec a b) as [->|Hne].
  { exists 0. unfold typetag_compare. rewrite Z.eqb_refl. split; [reflexivity|]. split; [reflexivity|]. tauto. }
  destruct (pos_index a Ha) as [Ea Ta]. destruct (pos_index b Hb) as [Eb Tb].
  assert (Hp : Z.of_nat (pos a promotion_order) <> Z.of_nat (pos b promotion_order)) by congruence.
  unfold typetag_compare. destruct (a =? b) eqn:E1; [lia|]. destruct (b =? a) eqn:E2; [lia|].
  rewrite Ea, Eb. cbn [bind].
  destruct (Z.of_nat (pos a promotion_order) <? Z.of_nat (pos b promotion_order)) eqn:E3;
  destruct (Z.of_nat (pos b promotion_order) <? Z.of_nat (pos a promotion_order)) eqn:E4; try lia;
  eexists; (split; [reflexivity|]); (split; [reflexivity|]); lia.
Qed.
Print Assumptions C36_compare_total.

Example C36_compare_total_case : In 102 promotion_order /\ In 72 promotion_order /\ typetag_compare 72 102 = Ok (-1).
Proof. unfold promotion_order. cbn. intuition lia. Qed.

(** For unlisted types the comparison is not antisymmetric: a blob is greater
    than a time tag and the time tag is greater than the blob. *)
Theorem C36_compare_unlisted_refuted :
  typetag_compare 98 116 = Ok 1 /\ typetag_compare 116 98 = Ok 1.
Proof. split; vm_compute; reflexivity. Qed.
Print Assumptions C36_compare_unlisted_refuted.

(** A type tag byte above 127 (negative char) reads outside the table. *)
Theorem C36_compare_negative_refuted : forall a b, -128 <= a < 0 -> a <> b -> typetag_compare a b = Ub OOB.
Proof.
  intros a b Ha Hne. unfold typetag_compare. destruct (a =? b) eqn:E; [lia|].
  rewrite rd_oob by lia. reflexivity.
Qed.
Print Assumptions C36_compare_negative_refuted.

(** * Combining several types *)

Lemma largest_index_pos t : exists r, In r promotion_order /\ r = counts_as t /\
  largest_index t = Z.of_nat (pos r promotion_order).
Proof.
  exists (counts_as t). unfold counts_as, largest_index, promotion_order.
  let s := eval vm_compute in (str "NTFcCuUiIhHfds") in change (str "NTFcCuUiIhHfds") with s.
  cbn [existsb].
  destruct (Z.eq_dec t 78) as [->|]; [cbn; intuition|].
  destruct (Z.eq_dec t 84) as [->|]; [cbn; intuition|].
  destruct (Z.eq_dec t 70) as [->|]; [cbn; intuition|].
  destruct (Z.eq_dec t 99) as [->|]; [cbn; intuition|].
  destruct (Z.eq_dec t 67) as [->|]; [cbn; intuition|].
  destruct (Z.eq_dec t 117) as [->|]; [cbn; intuition|].
  destruct (Z.eq_dec t 85) as [->|]; [cbn; intuition|].
  destruct (Z.eq_dec t 105) as [->|]; [cbn; intuition|].
  destruct (Z.eq_dec t 73) as [->|]; [cbn; intuition|].
  destruct (Z.eq_dec t 104) as [->|]; [cbn; intuition|].
  destruct (Z.eq_dec t 72) as [->|]; [cbn; intuition|].
  destruct (Z.eq_dec t 102) as [->|]; [cbn; intuition|].
  destruct (Z.eq_dec t 100) as [->|]; [cbn; intuition|].
  destruct (Z.eq_dec t 115) as [->|]; [cbn; intuition|].
  repeat match goal with |- context [t =? ?k] => destruct (Z.eqb_spec t k); [lia|] end.
  cbn. intuition.
Qed.

Lemma inner_fold args : forall m, 0 <= m ->
  let r := fold_left (fun m t => if largest_index t >? m then largest_index t else m) args m in
  m <= r /\ (forall t, In t args -> largest_index t <= r) /\ (r = m \/ exists t, In t args /\ largest_index t = r).
Proof.
  induction args as [|t args IH]; intros m Hm; cbn [fold_left]; cbv zeta.
  - split; [lia|]. split; [intros t []|]. now left.
  - pose proof (largest_index_pos t) as (r & _ & _ & Hr).
    specialize (IH (if largest_index t >? m then largest_index t else m) ltac:(destruct (_ >? _); lia)).
    cbv zeta in IH. destruct IH as (H1 & H2 & H3).
    destruct (largest_index t >? m) eqn:E.
    + split; [lia|]. split.
      * intros t' [<-|Ht']; [lia|auto].
      * right. destruct H3 as [H3|(t' & Ht' & H3)]; [exists t; split; [now left|lia] | exists t'; split; [now right|lia]].
    + split; [lia|]. split.
      * intros t' [<-|Ht']; [lia|auto].
      * destruct H3 as [H3|(t' & Ht' & H3)]; [left; lia | right; exists t'; split; [now right|lia]].
Qed.

Lemma outer_fold argv : forall m, 0 <= m ->
  fold_left (fun m args => fold_left (fun m t => if largest_index t >? m then largest_index t else m) args m) argv m =
  fold_left (fun m t => if largest_index t >? m then largest_index t else m) (concat argv) m.
Proof.
  induction argv as [|args argv IH]; intros m Hm; [reflexivity|]. cbn [fold_left concat].
  rewrite fold_left_app. apply IH. pose proof (inner_fold args m Hm). cbv zeta in H. lia.
Qed.

(** The type of a combination of atoms is the one among them that is latest
    in the promotion order, booleans counting as true and unlisted types as
    32-bit integers. *)
Theorem C36_largest_is_latest : forall argv, concat argv <> [] ->
  exists t, In t (concat argv) /\ get_largest_type argv = Ok (counts_as t) /\
    forall t', In t' (concat argv) -> counts_as t' = counts_as t \/ later (counts_as t) (counts_as t').
Proof.
  intros argv Hne. unfold get_largest_type. rewrite outer_fold by lia.
  pose proof (inner_fold (concat argv) 0 ltac:(lia)) as H. cbv zeta in *.
  set (r := fold_left _ (concat argv) 0) in *. destruct H as (H0 & Hall & Hex).
  assert (exists t, In t (concat argv) /\ largest_index t = r) as (t & Ht & Hr).
  { destruct Hex as [Hr|Hex]; [|exact Hex]. destruct (concat argv) as [|t l]; [congruence|].
    exists t. split; [now left|]. specialize (Hall t (or_introl eq_refl)).
    destruct (largest_index_pos t) as (? & _ & _ & ?). lia. }
  exists t. split; [exact Ht|].
  destruct (largest_index_pos t) as (q & Hq & Hc & Hi). subst q.
  split.
  - rewrite <- Hr, Hi. apply pos_index. exact Hq.
  - intros t' Ht'. destruct (largest_index_pos t') as (q' & Hq' & Hc' & Hi'). subst q'.
    specialize (Hall t' Ht'). rewrite <- Hr in Hall. rewrite Hi, Hi' in Hall.
    clear - Hall Hq Hq'. revert Hall Hq Hq'. generalize (counts_as t) as a, (counts_as t') as b. intros a b Hle Ha Hb.
    destruct (Z.eq_dec b a) as [|Hne]; [now left|]. right.
    destruct (in_split _ _ Hb) as (l1 & l2 & E).
    assert (In a l2 \/ In a l1) as [Hin|Hin].
    { rewrite E in Ha. apply in_app_or in Ha. destruct Ha as [|[->|]]; [now right|congruence|now left]. }
    + destruct (in_split _ _ Hin) as (l3 & l4 & ->). exists l1, l3, l4. exact E.
    + exfalso. destruct (in_split _ _ Hin) as (l3 & l4 & ->).
      assert (L : later b a) by (exists l3, l4, l2; rewrite E, <- app_assoc; reflexivity).
      destruct (later_pos _ _ L) as (_ & _ & Hp). lia.
Qed.
Print Assumptions C36_largest_is_latest.

Example C36_largest_case : get_largest_type [[105; 99]; [102; 104]] = Ok 102.
Proof. reflexivity. Qed.

(** Combining numeric or string types only, the result is one of them. *)
Theorem C36_largest_is_one_of_them : forall argv, concat argv <> [] ->
  (forall t, In t (concat argv) -> In t promotion_order /\ t <> 70) ->
  exists t, In t (concat argv) /\ get_largest_type argv = Ok t.
Proof.
  intros argv Hne Hl. destruct (C36_largest_is_latest argv Hne) as (t & Ht & Hg & _).
  exists t. split; [exact Ht|]. rewrite Hg. f_equal. destruct (Hl t Ht) as [Hin Hf].
  unfold counts_as. destruct (t =? 70) eqn:E; [lia|].
  destruct (existsb (Z.eqb t) promotion_order) eqn:E2; [reflexivity|].
  rewrite <- not_true_iff_false in E2. exfalso. apply E2. apply existsb_exists. exists t. split; [exact Hin|apply Z.eqb_refl].
Qed.
Print Assumptions C36_largest_is_one_of_them.

Example C36_one_of_them_case :
  (forall t, In t (concat [[105]; [100; 72]]) -> In t promotion_order /\ t <> 70) /\
  get_largest_type [[105]; [100; 72]] = Ok 100.
Proof. split; [|reflexivity]. unfold promotion_order. cbn. intuition lia. Qed.

(** The order of the arguments, and how they are grouped in arrays, does not
    matter. *)
Theorem C36_largest_commutes : forall argv argv',
  Permutation (concat argv) (concat argv') -> get_largest_type argv = get_largest_type argv'.
Proof.
  intros argv argv' H. unfold get_largest_type. rewrite !outer_fold by lia. f_equal.
  assert (G : forall l l', Permutation l l' -> forall m,
     fold_left (fun m t => if largest_index t >? m then largest_index t else m) l m =
     fold_left (fun m t => if largest_index t >? m then largest_index t else m) l' m).
  { clear. induction 1; intros m; cbn [fold_left]; auto.
    - f_equal. destruct (largest_index y >? m) eqn:E1, (largest_index x >? m) eqn:E2;
      rewrite ?E1, ?E2; try reflexivity;
      destruct (largest_index x >? largest_index y) eqn:E3; destruct (largest_index y >? largest_index x) eqn:E4; lia.
    - now rewrite IHPermutation1. }
  now apply G.
Qed.
Print Assumptions C36_largest_commutes.

Example C36_largest_commutes_case :
  Permutation (concat [[105; 102]]) (concat [[102]; [105]]) /\ get_largest_type [[105; 102]] = Ok 102.
Proof. split; [apply perm_swap | reflexivity]. Qed.
