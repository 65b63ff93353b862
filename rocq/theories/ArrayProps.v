(** C31: growable arrays are lists of members. *)

From Coq Require Import ZArith List Bool Lia.
From Verif Require Import Base BaseProofs ArrayModel.
Import ListNotations.
Open Scope Z_scope.

(** * Specification *)

(** The array consists of the members [xs], each of [size] bytes. *)
Definition holds (size : Z) (a : array) (xs : list bytes) : Prop :=
  ar_size a = size /\ ar_len a = zlen xs /\ Forall (fun x : bytes => zlen x = size) xs /\
  match ar_mem a with Some m => m = concat xs | None => concat xs = [] end.

Definition zero_member (size : Z) : bytes := repeat 0 (Z.to_nat size).
Definition zero_members (size n : Z) : list bytes := repeat (zero_member size) (Z.to_nat n).

(** * Lemmas *)

Section Size.
Variable size : Z.
Hypothesis Hs : 0 <= size.

Lemma zlen_repeat {A} (x : A) n : zlen (repeat x n) = Z.of_nat n.
Proof. unfold zlen. now rewrite repeat_length. Qed.
Lemma zlen_concat xs : Forall (fun x : bytes => zlen x = size) xs -> zlen (concat xs) = zlen xs * size.
Proof. induction 1 as [|x xs Hx _ IH]; [reflexivity|]. cbn [concat]. rewrite zlen_app, zlen_cons, IH, Hx. lia. Qed.
Lemma zero_member_size : zlen (zero_member size) = size.
Proof using Hs. unfold zero_member. rewrite zlen_repeat. lia. Qed.
Lemma zero_members_size n : Forall (fun x : bytes => zlen x = size) (zero_members size n).
Proof using Hs. apply Forall_forall. intros x H. apply repeat_spec in H. subst. apply zero_member_size. Qed.
Lemma repeat_app_len {A} (x : A) n m : repeat x n ++ repeat x m = repeat x (n + m).
Proof. symmetry. apply repeat_app. Qed.
Lemma concat_zero n : 0 <= n -> concat (zero_members size n) = repeat 0 (Z.to_nat (n * size)).
Proof using Hs.
  intros Hn. unfold zero_members, zero_member. replace (Z.to_nat (n * size)) with (Z.to_nat n * Z.to_nat size)%nat by lia.
  clear Hn. induction (Z.to_nat n) as [|k IH]; [reflexivity|].
  cbn [repeat concat Nat.mul]. rewrite IH. now rewrite repeat_app_len.
Qed.

Lemma fresh_len junk n : 0 <= n -> zlen (fresh_mem junk n) = n.
Proof. intros H. unfold fresh_mem, zlen. rewrite firstn_length, app_length, repeat_length. lia. Qed.

Lemma write_all m v : zlen m = zlen v -> write m 0 v = Ok v.
Proof.
  intros H. assert (E := write_app [] m v []). cbn [app] in E. rewrite !app_nil_r in E. apply E. unfold zlen in H. lia.
Qed.
Lemma zlen_0 {A} (l : list A) : zlen l = 0 -> l = [].
Proof. destruct l; [reflexivity|]. rewrite zlen_cons. pose proof (zlen_nonneg l). lia. Qed.

Lemma zero_all p n : 0 <= n -> match p with Some m => zlen m = n | None => n = 0 end ->
  exists q, mem_zero p 0 n = Ok q /\ match q with Some m => m = repeat 0 (Z.to_nat n) | None => n = 0 end.
Proof.
  intros Hn Hp. unfold mem_zero. rewrite (proj2 (Z.ltb_ge n 0)) by exact Hn. unfold mem_put.
  rewrite zlen_repeat, Z2Nat.id by exact Hn. destruct p as [m|]; destruct (n =? 0) eqn:E.
  - apply Z.eqb_eq in E. subst n. exists (Some m). split; [reflexivity|]. rewrite E. cbn. apply zlen_0. lia.
  - rewrite write_all by (rewrite zlen_repeat; lia). cbn [bind]. eexists. split; reflexivity.
  - apply Z.eqb_eq in E. exists None. now split.
  - apply Z.eqb_neq in E. lia.
Qed.

Lemma holds_mem a xs : holds size a xs ->
  match ar_mem a with Some m => zlen m = zlen xs * size | None => zlen xs * size = 0 end.
Proof.
  intros (_ & _ & Hf & Hm). rewrite <- (zlen_concat xs Hf). destruct (ar_mem a); [now subst|]. now rewrite Hm.
Qed.

Lemma member_split xs i : Forall (fun x : bytes => zlen x = size) xs -> 0 <= i < zlen xs ->
  exists l1 x l2, xs = l1 ++ x :: l2 /\ zlen l1 = i /\ zlen (concat l1) = i * size /\ zlen x = size.
Proof.
  intros Hf Hi. destruct (split_at xs i ltac:(lia)) as (l1 & l2 & -> & <-).
  rewrite zlen_app in Hi. destruct l2 as [|x l2]; [change (zlen (@nil bytes)) with 0 in Hi; lia|].
  exists l1, x, l2. apply Forall_app in Hf. destruct Hf as [H1 H2]. apply Forall_inv in H2.
  rewrite (zlen_concat l1 H1). now repeat split.
Qed.

Lemma get_mid p l1 x l2 : match p with Some m => m = l1 ++ x ++ l2 | None => l1 ++ x ++ l2 = [] end ->
  mem_get p (zlen l1) (zlen x) = Ok x.
Proof.
  intros H. unfold mem_get. destruct (zlen x =? 0) eqn:E.
  - apply Z.eqb_eq, zlen_0 in E. subst x. now destruct p.
  - destruct p as [m|]; [subst m; apply slice_app|].
    apply app_eq_nil in H. destruct H as [_ H]. apply app_eq_nil in H. destruct H as [-> _]. discriminate.
Qed.
Lemma put_mid p l1 x y l2 : match p with Some m => m = l1 ++ x ++ l2 | None => l1 ++ x ++ l2 = [] end ->
  zlen x = zlen y -> exists q, mem_put p (zlen l1) y = Ok q /\
  match q with Some m => m = l1 ++ y ++ l2 | None => l1 ++ y ++ l2 = [] end.
Proof.
  intros H Hxy. unfold mem_put. destruct (zlen y =? 0) eqn:E.
  - apply Z.eqb_eq in E. assert (x = []) by (apply zlen_0; lia). apply zlen_0 in E. subst x y.
    exists p. split; [now destruct p|exact H].
  - destruct p as [m|].
    + subst m. rewrite write_app by (unfold zlen in Hxy; lia). cbn [bind]. eexists. split; reflexivity.
    + apply app_eq_nil in H. destruct H as [-> H]. apply app_eq_nil in H. destruct H as [-> ->].
      change (zlen (@nil Z)) with 0 in Hxy. apply Z.eqb_neq in E. lia.
Qed.

Lemma firstn_size n xs : Forall (fun x : bytes => zlen x = size) xs -> 0 <= n ->
  firstn (Z.to_nat (n * size)) (concat xs) = concat (firstn (Z.to_nat n) xs).
Proof using Hs.
  intros Hf. revert n. induction Hf as [|x xs Hx Hf IH]; intros n Hn.
  - cbn [concat]. now rewrite !firstn_nil.
  - destruct (Z.eq_dec n 0) as [->|Hn0]; [reflexivity|].
    replace (Z.to_nat n) with (S (Z.to_nat (n - 1))) by lia. cbn [concat firstn].
    rewrite <- IH by lia. rewrite firstn_app. f_equal.
    + apply firstn_all2. unfold zlen in Hx. nia.
    + f_equal. unfold zlen in Hx. nia.
Qed.
End Size.

(** * Theorems *)

(** A new array consists of zeros. *)
Theorem C31_alloc junk len size : 0 <= len -> 0 <= size ->
  exists a, array_alloc junk len size = Ok a /\ holds size a (zero_members size len).
Proof.
  intros Hl Hs. unfold array_alloc, array_clear. cbn [ar_mem ar_len ar_size].
  set (p := if (len =? 0) || (size =? 0) then None else mem_alloc junk (len * size)).
  destruct (zero_all p (len * size)) as (q & E & Hq); [nia| |].
  { unfold p. destruct ((len =? 0) || (size =? 0)) eqn:E; [apply orb_true_iff in E; rewrite !Z.eqb_eq in E; nia|].
    unfold mem_alloc. rewrite (proj2 (Z.ltb_ge _ 0)) by nia. apply fresh_len. nia. }
  rewrite E. cbn [bind]. eexists. split; [reflexivity|]. unfold holds. cbn.
  assert (Hz : zlen (zero_members size len) = len) by (unfold zero_members; rewrite zlen_repeat; lia).
  rewrite Hz. split; [reflexivity|split; [reflexivity|split; [now apply zero_members_size|]]].
  rewrite concat_zero by assumption. destruct q; [exact Hq|]. now rewrite Hq.
Qed.
Print Assumptions C31_alloc.

(** osc_array_get gives the n-th member, NULL beyond the end. *)
Theorem C31_get size a xs i : 0 <= size -> holds size a xs -> 0 <= i ->
  array_get_len a = zlen xs /\
  array_read a i = Ok (nth_error xs (Z.to_nat i)) /\ (zlen xs <= i -> array_get a i = None).
Proof.
  intros Hs (E1 & E2 & Hf & Hm) Hi. split; [exact E2|]. split.
  - unfold array_read, array_get. rewrite E1, E2. destruct (zlen xs <=? i) eqn:L; [apply Z.leb_le in L|apply Z.leb_gt in L].
    + rewrite (proj2 (nth_error_None xs (Z.to_nat i))) by (unfold zlen in L; lia). reflexivity.
    + destruct (member_split size xs i Hf ltac:(lia)) as (l1 & x & l2 & -> & H1 & H2 & Hx).
      rewrite <- H2. rewrite <- Hx at 1.
      rewrite get_mid with (l2 := concat l2) by (rewrite concat_app in Hm; exact Hm). cbn [bind].
      f_equal. rewrite nth_error_app2 by (unfold zlen in H1; lia).
      replace (Z.to_nat i - length l1)%nat with O by (unfold zlen in H1; lia). reflexivity.
  - intros L. unfold array_get. now rewrite (proj2 (Z.leb_le _ _)) by lia.
Qed.
Print Assumptions C31_get.

(** Writing through the pointer of osc_array_get replaces that member only. *)
Theorem C31_put size a xs i x : holds size a xs -> 0 <= i < zlen xs -> zlen x = size ->
  exists a', array_put a i x = Ok (Some a') /\
    holds size a' (firstn (Z.to_nat i) xs ++ x :: skipn (S (Z.to_nat i)) xs).
Proof.
  intros (E1 & E2 & Hf & Hm) Hi Hx. unfold array_put, array_get.
  rewrite E1, E2, (proj2 (Z.leb_gt _ _)) by lia.
  destruct (member_split size xs i Hf ltac:(lia)) as (l1 & y & l2 & -> & H1 & H2 & Hy).
  destruct (put_mid (ar_mem a) (concat l1) y x (concat l2)) as (q & E & Hq);
    [rewrite concat_app in Hm; exact Hm|lia|].
  rewrite <- H2, E. cbn [bind]. eexists. split; [reflexivity|].
  replace (Z.to_nat i) with (length l1) by (unfold zlen in H1; lia).
  rewrite firstn_app, Nat.sub_diag, firstn_all. cbn [firstn]. rewrite app_nil_r.
  replace (skipn (S (length l1)) (l1 ++ y :: l2)) with l2.
  2:{ change (S (length l1)) with (1 + length l1)%nat. rewrite Nat.add_comm.
      rewrite skipn_app, skipn_all2 by lia. replace (length l1 + 1 - length l1)%nat with 1%nat by lia. reflexivity. }
  unfold holds. cbn. split; [reflexivity|]. split; [rewrite !zlen_app, !zlen_cons; reflexivity|].
  split.
  - apply Forall_app in Hf. destruct Hf as [F1 F2]. inversion F2; subst. apply Forall_app. split; [assumption|].
    now constructor.
  - rewrite concat_app. cbn [concat]. exact Hq.
Qed.
Print Assumptions C31_put.

(** osc_array_clear. *)
Theorem C31_clear size a xs : 0 <= size -> holds size a xs ->
  exists a', array_clear a = Ok a' /\ holds size a' (zero_members size (zlen xs)).
Proof.
  intros Hs H. pose proof (holds_mem size a xs H) as Hm. destruct H as (E1 & E2 & Hf & _).
  unfold array_clear. rewrite E1, E2. destruct (zero_all (ar_mem a) (zlen xs * size)) as (q & E & Hq); [|exact Hm|].
  { pose proof (zlen_nonneg xs). nia. }
  rewrite E. cbn [bind]. eexists. split; [reflexivity|]. unfold holds. cbn. pose proof (zlen_nonneg xs).
  assert (Hz : zlen (zero_members size (zlen xs)) = zlen xs) by (unfold zero_members; rewrite zlen_repeat; lia).
  rewrite Hz. split; [reflexivity|split; [reflexivity|split; [now apply zero_members_size|]]].
  rewrite concat_zero by assumption. destruct q; [exact Hq|]. now rewrite Hq.
Qed.
Print Assumptions C31_clear.

(** osc_array_copy gives an array of the same members; the original is not
    written to. *)
Theorem C31_copy junk size a xs : 0 <= size -> holds size a xs ->
  exists c, array_copy junk a = Ok c /\ holds size c xs.
Proof.
  intros Hs H. pose proof (holds_mem size a xs H) as Hm. destruct H as (E1 & E2 & Hf & Hc).
  unfold array_copy. rewrite E1, E2.
  destruct (C31_alloc junk (zlen xs) size (zlen_nonneg _) Hs) as (c & Ea & Hz).
  rewrite Ea. cbn [bind]. pose proof (holds_mem size c _ Hz) as Hcm. destruct Hz as (C1 & C2 & _ & C4).
  assert (Hn : zlen (zero_members size (zlen xs)) = zlen xs).
  { unfold zero_members. rewrite zlen_repeat. pose proof (zlen_nonneg xs). lia. }
  rewrite C1, C2, Hn in *.
  assert (G : mem_get (ar_mem a) 0 (zlen xs * size) = Ok (concat xs)).
  { rewrite <- (zlen_concat size xs Hf). change 0 with (zlen (@nil Z)). apply get_mid with (l2 := []).
    cbn [app]. now rewrite app_nil_r. }
  rewrite G. cbn [bind].
  destruct (put_mid (ar_mem c) [] (concat (zero_members size (zlen xs))) (concat xs) []) as (q & E & Hq).
  { cbn [app]. rewrite app_nil_r. exact C4. }
  { rewrite (zlen_concat size xs Hf), (zlen_concat size) by now apply zero_members_size. lia. }
  change (zlen (@nil Z)) with 0 in E. rewrite E. cbn [bind]. eexists. split; [reflexivity|].
  unfold holds. cbn. split; [reflexivity|split; [reflexivity|split; [exact Hf|]]].
  cbn [app] in Hq. now rewrite app_nil_r in Hq.
Qed.
Print Assumptions C31_copy.

(** osc_array_resize keeps the members that still fit and adds zeros; sizing
    to nothing, or by a negative amount, leaves an empty array and reports
    that there is no memory. *)
Theorem C31_resize junk size a xs n : 0 < size -> holds size a xs -> 0 < n ->
  exists a', array_resize junk (Some a) n = Ok (ErrNone, Some a') /\
    holds size a' (firstn (Z.to_nat n) xs ++ zero_members size (n - zlen xs)).
Proof.
  intros Hs H Hn. pose proof (holds_mem size a xs H) as Hm. destruct H as (E1 & E2 & Hf & Hc).
  unfold array_resize. rewrite E1, E2. pose proof (zlen_nonneg xs) as Hx.
  assert (Hz : Forall (fun x : bytes => zlen x = size) (firstn (Z.to_nat n) xs ++ zero_members size (n - zlen xs))).
  { apply Forall_app. split; [|apply zero_members_size; lia].
    rewrite <- (firstn_skipn (Z.to_nat n) xs) in Hf. now apply Forall_app in Hf. }
  assert (Hl : zlen (firstn (Z.to_nat n) xs ++ zero_members size (n - zlen xs)) = n).
  { rewrite zlen_app. unfold zero_members. rewrite zlen_repeat. unfold zlen in *. rewrite firstn_length. lia. }
  assert (R : exists m, mem_resize junk (ar_mem a) (n * size) = Some m /\
                (zlen xs < n -> exists t, m = concat xs ++ t /\ zlen t = (n - zlen xs) * size) /\
                (n <= zlen xs -> m = concat (firstn (Z.to_nat n) xs))).
  { unfold mem_resize, mem_alloc. assert (0 < n * size) by nia. destruct (ar_mem a) as [m|].
    - rewrite (proj2 (Z.leb_gt _ _)) by assumption. eexists. split; [reflexivity|]. subst m.
      assert (L := zlen_concat size xs Hf). split; intros Hlt.
      + exists (firstn (Z.to_nat ((n - zlen xs) * size)) (fresh_mem junk (n * size))). split.
        * rewrite firstn_app. assert (zlen xs * size <= n * size) by nia. f_equal; [apply firstn_all2|f_equal; rewrite Z.mul_sub_distr_r];
            unfold zlen in *; lia.
        * assert (F := fresh_len junk (n * size) ltac:(lia)). assert (0 <= (n - zlen xs) * size <= n * size) by nia.
          unfold zlen in *. rewrite firstn_length. lia.
      + assert (n * size <= zlen xs * size) by nia. rewrite firstn_app.
        replace (Z.to_nat (n * size) - length (concat xs))%nat with O by (unfold zlen in *; lia).
        cbn [firstn]. rewrite app_nil_r. apply firstn_size; try assumption; lia.
    - rewrite (proj2 (Z.ltb_ge _ _)) by lia. eexists. split; [reflexivity|].
      assert (zlen xs = 0) by nia. apply zlen_0 in H0. subst xs. cbn [concat app firstn].
      split; [|change (zlen (@nil bytes)) with 0; lia]. intros _. eexists. split; [reflexivity|].
      rewrite fresh_len by lia. change (zlen (@nil bytes)) with 0. f_equal. lia. }
  destruct R as (m & -> & R1 & R2).
  destruct (zlen xs <? n) eqn:L; [apply Z.ltb_lt in L|apply Z.ltb_ge in L].
  - destruct (R1 L) as (t & -> & Ht). unfold mem_zero. rewrite (proj2 (Z.ltb_ge _ _)) by nia.
    destruct (put_mid (Some (concat xs ++ t)) (concat xs) t (repeat 0 (Z.to_nat ((n - zlen xs) * size))) [])
      as (q & E & Hq); [now rewrite app_nil_r|rewrite zlen_repeat, Ht; nia|].
    rewrite (zlen_concat size xs Hf) in E. unfold bytes in *. rewrite E. cbn [bind]. eexists. split; [reflexivity|].
    unfold holds. cbn. unfold bytes. rewrite Hl. split; [reflexivity|split; [reflexivity|split; [exact Hz|]]].
    rewrite app_nil_r in Hq. rewrite concat_app, concat_zero by lia.
    rewrite firstn_all2 by (unfold zlen in L; lia). exact Hq.
  - rewrite (R2 L). cbn [bind]. eexists. split; [reflexivity|].
    unfold holds. cbn. rewrite Hl. split; [reflexivity|split; [reflexivity|split; [exact Hz|]]].
    rewrite concat_app. unfold zero_members. replace (Z.to_nat (n - zlen xs)) with O by lia. cbn [repeat concat].
    now rewrite app_nil_r.
Qed.
Print Assumptions C31_resize.

Theorem C31_resize_to_nothing junk size a xs n : 0 < size -> holds size a xs -> n < 0 \/ (n = 0 /\ xs <> []) ->
  exists a', array_resize junk (Some a) n = Ok (ErrOutOfMem, Some a') /\ holds size a' [].
Proof.
  intros Hs H Hn. pose proof (holds_mem size a xs H) as Hm. destruct H as (E1 & E2 & Hf & Hc).
  unfold array_resize. rewrite E1.
  assert (R : mem_resize junk (ar_mem a) (n * size) = None).
  { unfold mem_resize, mem_alloc. destruct (ar_mem a).
    - now rewrite (proj2 (Z.leb_le _ _)) by nia.
    - destruct Hn as [Hn|[_ Hn]]; [now rewrite (proj2 (Z.ltb_lt _ _)) by nia|].
      exfalso. apply Hn. apply zlen_0. pose proof (zlen_nonneg xs). nia. }
  rewrite R. eexists. split; [reflexivity|]. now repeat split.
Qed.
Print Assumptions C31_resize_to_nothing.

(** osc_array_copyInto: into no array, a new one of [offset] zeros and the
    source; into one, the members from [offset] on are replaced, if there are
    enough of them, and otherwise memory outside of the array is written. *)
Theorem C31_copy_into_new junk size s xs off : 0 <= size -> holds size s xs -> 0 <= off ->
  exists d, array_copy_into junk None (Some s) off = Ok (ErrNone, Some d) /\
    holds size d (zero_members size off ++ xs).
Proof.
  intros Hs H Ho. destruct H as (E1 & E2 & Hf & Hc). pose proof (zlen_nonneg xs).
  unfold array_copy_into. rewrite E1, E2.
  destruct (C31_alloc junk (zlen xs + off) size ltac:(lia) Hs) as (d & -> & D1 & D2 & _ & D4).
  cbn [bind].
  assert (G : mem_get (ar_mem s) 0 (zlen xs * size) = Ok (concat xs)).
  { rewrite <- (zlen_concat size xs Hf). change 0 with (zlen (@nil Z)). apply get_mid with (l2 := []).
    cbn [app]. now rewrite app_nil_r. }
  rewrite G. cbn [bind].
  assert (Hz : zero_members size (zlen xs + off) = zero_members size off ++ zero_members size (zlen xs)).
  { unfold zero_members. rewrite repeat_app_len. f_equal. lia. }
  rewrite Hz, concat_app in D4.
  destruct (put_mid (ar_mem d) (concat (zero_members size off)) (concat (zero_members size (zlen xs))) (concat xs) [])
    as (q & E & Hq).
  { rewrite app_nil_r. exact D4. }
  { rewrite (zlen_concat size xs Hf), (zlen_concat size) by now apply zero_members_size.
    unfold zero_members. rewrite zlen_repeat. f_equal. lia. }
  rewrite (zlen_concat size) in E by now apply zero_members_size.
  replace (zlen (zero_members size off)) with off in E by (unfold zero_members; rewrite zlen_repeat; lia).
  rewrite E. cbn [bind]. eexists. split; [reflexivity|]. unfold holds. cbn. split; [exact D1|].
  split; [rewrite D2, Hz, !zlen_app; unfold zero_members; rewrite !zlen_repeat; lia|].
  split; [apply Forall_app; split; [now apply zero_members_size|exact Hf]|].
  rewrite app_nil_r in Hq. now rewrite concat_app.
Qed.
Print Assumptions C31_copy_into_new.

Theorem C31_copy_into junk size d ys s xs off : 0 < size -> holds size d ys -> holds size s xs -> 0 <= off ->
  (off + zlen xs <= zlen ys ->
   exists d', array_copy_into junk (Some d) (Some s) off = Ok (ErrNone, Some d') /\
     holds size d' (firstn (Z.to_nat off) ys ++ xs ++ skipn (Z.to_nat (off + zlen xs)) ys)) /\
  (zlen ys < off + zlen xs -> xs <> [] -> 0 < zlen ys ->
   array_copy_into junk (Some d) (Some s) off = Ub OOB).
Proof.
  intros Hs Hd (E1 & E2 & Hf & Hc) Ho. pose proof (holds_mem size d ys Hd) as Hdm.
  destruct Hd as (D1 & D2 & Dy & D4). pose proof (zlen_nonneg xs). pose proof (zlen_nonneg ys).
  assert (G : mem_get (ar_mem s) 0 (zlen xs * size) = Ok (concat xs)).
  { rewrite <- (zlen_concat size xs Hf). change 0 with (zlen (@nil Z)). apply get_mid with (l2 := []).
    cbn [app]. now rewrite app_nil_r. }
  unfold array_copy_into. rewrite E1, E2, (proj2 (Z.ltb_ge _ _)) by nia. cbn [bind]. rewrite G. cbn [bind].
  split.
  - intros Hfit.
    destruct (split_at ys off ltac:(lia)) as (y1 & y2 & -> & Y1).
    rewrite zlen_app in *. destruct (split_at y2 (zlen xs) ltac:(lia)) as (y3 & y4 & -> & Y3).
    apply Forall_app in Dy. destruct Dy as [F1 F2]. apply Forall_app in F2. destruct F2 as [F3 F4].
    destruct (put_mid (ar_mem d) (concat y1) (concat y3) (concat xs) (concat y4)) as (q & E & Hq).
    { rewrite !concat_app in D4. exact D4. }
    { rewrite (zlen_concat size xs Hf), (zlen_concat size y3 F3). nia. }
    rewrite (zlen_concat size y1 F1), Y1 in E. rewrite E. cbn [bind]. eexists. split; [reflexivity|].
    replace (firstn (Z.to_nat off) (y1 ++ y3 ++ y4)) with y1.
    2:{ rewrite firstn_app. replace (Z.to_nat off) with (length y1) by (unfold zlen in Y1; lia).
        now rewrite Nat.sub_diag, firstn_all, app_nil_r. }
    replace (skipn (Z.to_nat (off + zlen xs)) (y1 ++ y3 ++ y4)) with y4.
    2:{ rewrite app_assoc, skipn_app.
        replace (Z.to_nat (off + zlen xs)) with (length (y1 ++ y3)) by (rewrite app_length; unfold zlen in *; lia).
        now rewrite Nat.sub_diag, skipn_all. }
    unfold holds. cbn. split; [exact D1|]. split; [rewrite D2, !zlen_app; lia|].
    split; [rewrite !Forall_app; tauto|]. now rewrite !concat_app.
  - intros Hover Hne Hy. assert (0 < zlen xs) by (destruct xs; [easy|rewrite zlen_cons; pose proof (zlen_nonneg xs); lia]).
    unfold mem_put. rewrite (zlen_concat size xs Hf), (proj2 (Z.eqb_neq _ _)) by nia.
    destruct (ar_mem d) as [m|]; [|nia]. unfold write. rewrite (zlen_concat size xs Hf), Hdm.
    rewrite (proj2 (Z.ltb_lt (zlen ys * size) _)) by nia. now rewrite orb_true_r.
Qed.
Print Assumptions C31_copy_into.

(** * All histories *)

(** What a client can do to an array after allocating it. *)
Inductive array_op :=
| OpPut (i : Z) (x : bytes)     (* write a member through osc_array_get *)
| OpClear
| OpResize (n : Z)
| OpCopyInto (s : array) (off : Z)
| OpCopy.                       (* go on with a copy *)

Definition array_step (junk : bytes) (a : array) (o : array_op) : res array :=
  match o with
  | OpPut i x => do r <- array_put a i x; Ok (match r with Some a' => a' | None => a end)
  | OpClear => array_clear a
  | OpResize n => do r <- array_resize junk (Some a) n; Ok (match snd r with Some a' => a' | None => a end)
  | OpCopyInto s off => do r <- array_copy_into junk (Some a) (Some s) off;
                        Ok (match snd r with Some a' => a' | None => a end)
  | OpCopy => array_copy junk a
  end.

(** The same on lists of members; the premises are what the client must
    respect. *)
Inductive list_step (size : Z) : list bytes -> array_op -> list bytes -> Prop :=
| LPut xs l1 x y l2 : xs = l1 ++ y :: l2 -> zlen x = size -> list_step size xs (OpPut (zlen l1) x) (l1 ++ x :: l2)
| LPutBeyond xs i x : zlen xs <= i -> list_step size xs (OpPut i x) xs
| LClear xs : list_step size xs OpClear (zero_members size (zlen xs))
| LGrow xs n : zlen xs <= n -> 0 < n -> list_step size xs (OpResize n) (xs ++ zero_members size (n - zlen xs))
| LShrink l1 l2 : l1 <> [] -> list_step size (l1 ++ l2) (OpResize (zlen l1)) l1
| LInto l1 l2 l3 s xs : holds size s xs -> zlen xs = zlen l2 ->
    list_step size (l1 ++ l2 ++ l3) (OpCopyInto s (zlen l1)) (l1 ++ xs ++ l3)
| LCopy xs : list_step size xs OpCopy xs.

Inductive list_run (size : Z) : list bytes -> list array_op -> list bytes -> Prop :=
| run_nil xs : list_run size xs [] xs
| run_cons xs o ys os zs : list_step size xs o ys -> list_run size ys os zs -> list_run size xs (o :: os) zs.

Fixpoint array_run (junk : bytes) (a : array) (os : list array_op) : res array :=
  match os with
  | [] => Ok a
  | o :: os' => do a <- array_step junk a o; array_run junk a os'
  end.

Lemma firstn_app_exact {A} (l1 l2 : list A) n : n = length l1 -> firstn n (l1 ++ l2) = l1.
Proof. intros ->. now rewrite firstn_app, Nat.sub_diag, firstn_all, app_nil_r. Qed.
Lemma skipn_app_exact {A} (l1 l2 : list A) n : n = length l1 -> skipn n (l1 ++ l2) = l2.
Proof. intros ->. now rewrite skipn_app, Nat.sub_diag, skipn_all. Qed.

Lemma step_ok junk size a xs o ys : 0 < size -> holds size a xs -> list_step size xs o ys ->
  exists a', array_step junk a o = Ok a' /\ holds size a' ys.
Proof.
  intros Hs H St. destruct St as [xs l1 x y l2 -> Hx | xs i x Hi | xs | xs n Hn Hn0 | l1 l2 Hne | l1 l2 l3 s xs Hh Hl | xs];
    cbn [array_step].
  - destruct (C31_put size a (l1 ++ y :: l2) (zlen l1) x H) as (a' & E & H'); [|exact Hx|].
    { rewrite zlen_app, zlen_cons. pose proof (zlen_nonneg l1). pose proof (zlen_nonneg l2). lia. }
    rewrite E. cbn [bind]. exists a'. split; [reflexivity|]. revert H'.
    rewrite firstn_app_exact by (unfold zlen; lia).
    replace (l1 ++ y :: l2) with ((l1 ++ [y]) ++ l2) by now rewrite <- app_assoc.
    now rewrite skipn_app_exact by (rewrite app_length; unfold zlen; cbn; lia).
  - unfold array_put, array_get. destruct H as (E1 & E2 & H3). rewrite E2, (proj2 (Z.leb_le _ _)) by exact Hi.
    cbn [bind]. exists a. now repeat split.
  - apply C31_clear; [lia|exact H].
  - destruct (C31_resize junk size a xs n Hs H Hn0) as (a' & -> & H'). cbn [bind snd]. exists a'. split; [reflexivity|].
    now rewrite firstn_all2 in H' by (unfold zlen in Hn; lia).
  - assert (0 < zlen l1) by (destruct l1; [easy|rewrite zlen_cons; pose proof (zlen_nonneg l1); lia]).
    destruct (C31_resize junk size a _ (zlen l1) Hs H ltac:(assumption)) as (a' & -> & H'). cbn [bind snd].
    exists a'. split; [reflexivity|]. rewrite firstn_app_exact in H' by (unfold zlen; lia).
    rewrite zlen_app in H'. unfold zero_members in H'.
    replace (Z.to_nat (zlen l1 - (zlen l1 + zlen l2))) with O in H' by (pose proof (zlen_nonneg l2); lia).
    now rewrite app_nil_r in H'.
  - destruct (C31_copy_into junk size a (l1 ++ l2 ++ l3) s xs (zlen l1) Hs H Hh (zlen_nonneg _)) as [C _].
    destruct C as (d & -> & H'). { rewrite !zlen_app. pose proof (zlen_nonneg l3). lia. }
    cbn [bind snd]. exists d. split; [reflexivity|]. rewrite firstn_app_exact in H' by (unfold zlen; lia).
    rewrite (app_assoc l1 l2 l3), skipn_app_exact in H' by (rewrite app_length; unfold zlen in *; lia). exact H'.
  - apply C31_copy; [lia|exact H].
Qed.

(** After any sequence of operations the array has exactly the members the
    same operations give on lists, and nothing undefined happens. *)
Theorem C31_history junk size len os ys : 0 < size -> 0 <= len ->
  list_run size (zero_members size len) os ys ->
  exists a0 a, array_alloc junk len size = Ok a0 /\ array_run junk a0 os = Ok a /\ holds size a ys /\
    (forall i, 0 <= i -> array_read a i = Ok (nth_error ys (Z.to_nat i))).
Proof.
  intros Hs Hl R. destruct (C31_alloc junk len size Hl ltac:(lia)) as (a0 & E0 & H0).
  exists a0. revert a0 E0 H0. cut (forall a0, holds size a0 (zero_members size len) ->
    exists a, array_run junk a0 os = Ok a /\ holds size a ys).
  { intros C a0 E0 H0. destruct (C a0 H0) as (a & E & H). exists a.
    split; [exact E0|split; [exact E|split; [exact H|]]]. intros i Hi.
    now apply (C31_get size a ys i ltac:(lia) H Hi). }
  induction R as [xs | xs o zs os ys St _ IH]; intros a0 H0.
  - exists a0. now split.
  - destruct (step_ok junk size a0 xs o zs Hs H0 St) as (a1 & E1 & H1). cbn [array_run]. rewrite E1. cbn [bind].
    now apply IH.
Qed.
Print Assumptions C31_history.

(** Findings: a negative index gives a pointer outside of the block, and so
    does copyInto past the end of a shorter destination. *)
Theorem C31_negative_index_refuted : exists a xs, holds 1 a xs /\ array_get a (-1) = Some (-1).
Proof. exists (Arr (Some [5]) 1 1), [[5]]. split; [|reflexivity]. repeat split. now constructor. Qed.
Print Assumptions C31_negative_index_refuted.
Theorem C31_copy_into_refuted : exists d s ys xs, holds 1 d ys /\ holds 1 s xs /\
  array_copy_into [] (Some d) (Some s) 0 = Ub OOB.
Proof.
  exists (Arr (Some [5]) 1 1), (Arr (Some [6; 7]) 2 1), [[5]], [[6]; [7]].
  split; [|split; [|reflexivity]]; repeat split; repeat constructor.
Qed.
Print Assumptions C31_copy_into_refuted.

Example C31_hypotheses :
  list_run 2 (zero_members 2 2)
    [OpPut 1 [1; 2]; OpResize 3; OpPut 2 [3; 4]; OpResize 5; OpCopy; OpPut 9 [0]; OpResize 3; OpCopyInto (Arr (Some [7; 8]) 1 2) 0]
    [[7; 8]; [1; 2]; [3; 4]].
Proof.
  apply run_cons with [[0; 0]; [1; 2]]. { apply (LPut 2 _ [[0; 0]] [1; 2] [0; 0] []); reflexivity. }
  apply run_cons with [[0; 0]; [1; 2]; [0; 0]]. { apply (LGrow 2 [[0; 0]; [1; 2]] 3); vm_compute; easy. }
  apply run_cons with [[0; 0]; [1; 2]; [3; 4]]. { apply (LPut 2 _ [[0; 0]; [1; 2]] [3; 4] [0; 0] []); reflexivity. }
  apply run_cons with [[0; 0]; [1; 2]; [3; 4]; [0; 0]; [0; 0]].
  { apply (LGrow 2 [[0; 0]; [1; 2]; [3; 4]] 5); vm_compute; easy. }
  eapply run_cons; [apply LCopy|]. eapply run_cons; [apply LPutBeyond; vm_compute; easy|].
  apply run_cons with [[0; 0]; [1; 2]; [3; 4]].
  { apply (LShrink 2 [[0; 0]; [1; 2]; [3; 4]] [[0; 0]; [0; 0]]). easy. }
  eapply run_cons; [|apply run_nil].
  apply (LInto 2 [] [[0; 0]] [[1; 2]; [3; 4]] _ [[7; 8]]); [|reflexivity].
  repeat split. now constructor.
Qed.
