(** C38: the list functions of the expression language. *)

From Coq Require Import ZArith List Bool Lia.
From Verif Require Import Base BaseProofs Bytes UtilModel TimetagModel
  UtilProofs WireSpec SerialModel SerialSpec SerialProofs WireModel AtomUModel AtomSpec AtomProofs
  ExprModel ExprListModel ExprSpec ExprProps ExprListProofs.
Import ListNotations.
Open Scope Z_scope.

Lemma s32_small n : 0 <= n < 2^31 -> s32 n = n.
Proof. intros H. apply (wrap_id I32). unfold in_type. cbn [signed width]. change (2^(32 - 1)) with (2^31). lia. Qed.

Lemma nth_error_rev {A} (l : list A) j : (j < length l)%nat ->
  nth_error (rev l) j = nth_error l (length l - S j).
Proof.
  intros H. destruct (nth_error l (length l - S j)) as [x|] eqn:E.
  - rewrite (nth_error_nth' (rev l) x) by (now rewrite rev_length). rewrite rev_nth by exact H. f_equal.
    apply nth_error_nth. exact E.
  - apply nth_error_None in E. lia.
Qed.

Lemma nth_error_lt {A} (l : list A) j x : nth_error l j = Some x -> (j < length l)%nat.
Proof. intros H. apply nth_error_Some. now rewrite H. Qed.

(** reverse(l): the members in reverse order. *)
Theorem C38_reverse a more : Forall copyable (members a) ->
  exists out, fn_reverse (a :: more) = Ok (0, Some out) /\ Forall2 copy_of (rev (members a)) out.
Proof.
  intros Hc. unfold fn_reverse. cbn [argv_at nth_error bind]. rewrite alen_members.
  rewrite aalloc_len. cbn [bind]. unfold zlen at 1. rewrite Nat2Z.id.
  destruct (fill_all (fun i out => copy_member out i a (zlen (members a) - i - 1)) (rev (members a)) 0) as (ys & Hr & Hys).
  - now apply Forall_rev.
  - intros j x out Hx. pose proof (nth_error_lt _ _ _ Hx) as Hj. rewrite rev_length in Hj.
    rewrite nth_error_rev in Hx by exact Hj. rewrite Z.add_0_l.
    apply copy_member_some; [unfold zlen; lia|].
    replace (Z.to_nat (zlen (members a) - Z.of_nat j - 1)) with (length (members a) - S j)%nat by (unfold zlen; lia). exact Hx.
  - rewrite rev_length in Hr. rewrite Hr. exists ys. split; [reflexivity|exact Hys].
Qed.
Print Assumptions C38_reverse.

(** first(l), last(l): one member; nothing if the list is empty. *)
Theorem C38_first a more x l : members a = x :: l -> copyable x ->
  exists y, fn_first (a :: more) = Ok (0, Some [y]) /\ copy_of x y.
Proof.
  intros Ha Hx. unfold fn_first. rewrite alen_members, Ha, zlen_cons. pose proof (zlen_nonneg l).
  rewrite (proj2 (Z.eqb_neq _ _)) by lia. cbn [aalloc Z.ltb Z.compare bind Z.to_nat Pos.to_nat Pos.iter_op repeat Init.Nat.add].
  rewrite (copy_member_some _ 0 a 0 x) by (try lia; now rewrite Ha).
  destruct (copy_ok x Hx) as (y & Hy & Cy). exists y. split; [|exact Cy].
  change (aput _ _ _) with (aput (Some ([] ++ atom_fresh :: [])) (zlen (@nil atom)) (fun _ => copy_atom x)).
  rewrite aput_at, Hy. reflexivity.
Qed.
Print Assumptions C38_first.

Theorem C38_last a more x l : members a = l ++ [x] -> copyable x -> zlen (members a) < 2^31 ->
  exists y, fn_last (a :: more) = Ok (0, Some [y]) /\ copy_of x y.
Proof.
  intros Ha Hx Hl. unfold fn_last. rewrite alen_members.
  rewrite s32_small by (pose proof (zlen_nonneg (members a)); lia). rewrite Ha, zlen_app, zlen_cons.
  change (zlen (@nil atom)) with 0. pose proof (zlen_nonneg l).
  rewrite (proj2 (Z.eqb_neq _ _)) by lia. cbn [aalloc Z.ltb Z.compare bind Z.to_nat Pos.to_nat Pos.iter_op repeat Init.Nat.add].
  rewrite (copy_member_some _ 0 a _ x).
  - destruct (copy_ok x Hx) as (y & Hy & Cy). exists y. split; [|exact Cy].
    change (aput _ _ _) with (aput (Some ([] ++ atom_fresh :: [])) (zlen (@nil atom)) (fun _ => copy_atom x)).
    rewrite aput_at, Hy. reflexivity.
  - lia.
  - rewrite Ha. replace (Z.to_nat _) with (length l) by (unfold zlen; lia).
    rewrite nth_error_app2, Nat.sub_diag by lia. reflexivity.
Qed.
Print Assumptions C38_last.

Theorem C38_nothing a more : members a = [] ->
  fn_first (a :: more) = Ok (0, None) /\ fn_last (a :: more) = Ok (0, None) /\
  fn_rest (a :: more) = Ok (0, None) /\ fn_butlast (a :: more) = Ok (0, None).
Proof.
  intros Ha. unfold fn_first, fn_last, fn_rest, fn_butlast. rewrite !alen_members, Ha. repeat split.
Qed.
Print Assumptions C38_nothing.

(** rest(l), butlast(l): all but the first, or the last, member. *)
Theorem C38_rest a more x l : members a = x :: l -> Forall copyable l -> zlen (members a) < 2^31 ->
  exists out, fn_rest (a :: more) = Ok (0, Some out) /\ Forall2 copy_of l out.
Proof.
  intros Ha Hc Hl. unfold fn_rest. rewrite alen_members.
  rewrite s32_small by (pose proof (zlen_nonneg (members a)); lia). rewrite Ha, zlen_cons. pose proof (zlen_nonneg l).
  rewrite (proj2 (Z.eqb_neq _ _)) by lia. replace (1 + zlen l - 1) with (zlen l) by lia.
  rewrite aalloc_len. cbn [bind]. unfold zlen. rewrite Nat2Z.id.
  destruct (fill_all (fun i out => copy_member out (i - 1) a i) l 1 Hc) as (ys & -> & Hys).
  - intros j y out Hy. replace (1 + Z.of_nat j - 1) with (Z.of_nat j) by lia.
    apply copy_member_some; [lia|]. rewrite Ha. replace (Z.to_nat (1 + Z.of_nat j)) with (S j) by lia. exact Hy.
  - exists ys. split; [reflexivity|exact Hys].
Qed.
Print Assumptions C38_rest.

Theorem C38_butlast a more x l : members a = l ++ [x] -> Forall copyable l -> zlen (members a) < 2^31 ->
  exists out, fn_butlast (a :: more) = Ok (0, Some out) /\ Forall2 copy_of l out.
Proof.
  intros Ha Hc Hl. unfold fn_butlast. rewrite alen_members.
  rewrite s32_small by (pose proof (zlen_nonneg (members a)); lia). rewrite Ha, zlen_app, zlen_cons.
  change (zlen (@nil atom)) with 0. pose proof (zlen_nonneg l).
  rewrite (proj2 (Z.eqb_neq _ _)) by lia. replace (zlen l + (1 + 0) - 1) with (zlen l) by lia.
  rewrite aalloc_len. cbn [bind]. unfold zlen. rewrite Nat2Z.id.
  destruct (fill_all (fun i out => copy_member out i a i) l 0 Hc) as (ys & -> & Hys).
  - intros j y out Hy. rewrite Z.add_0_l. apply copy_member_some; [lia|].
    rewrite Ha, Nat2Z.id, nth_error_app1 by exact (nth_error_lt _ _ _ Hy). exact Hy.
  - exists ys. split; [reflexivity|exact Hys].
Qed.
Print Assumptions C38_butlast.

(** length(l1, l2, ...): the number of members, an int32. *)
Theorem C38_length argv : zlen (concat (map members argv)) < 2^31 ->
  fn_length argv = Ok (0, Some [set_int32 atom_fresh (zlen (concat (map members argv)))]).
Proof.
  intros H. unfold fn_length. rewrite int_lens_ok by (unfold total; lia). reflexivity.
Qed.
Print Assumptions C38_length.

Lemma list_loop_ok argv : forall done news, Forall copyable (concat (map members argv)) ->
  zlen done + total argv < 2^31 -> length news = length (concat (map members argv)) ->
  exists ys, list_loop argv (zlen done) (Some (done ++ news)) = Ok (Some (done ++ ys)) /\
    Forall2 copy_of (concat (map members argv)) ys.
Proof.
  induction argv as [|a argv IH]; intros done news Hc Hl Hn.
  - destruct news; [|discriminate Hn]. exists []. split; [reflexivity|constructor].
  - cbn [map concat] in Hc, Hn. apply Forall_app in Hc. destruct Hc as [Hc1 Hc2]. cbn [list_loop].
    rewrite total_cons in Hl. rewrite app_length in Hn.
    pose proof (total_nonneg argv). pose proof (zlen_nonneg done). pose proof (zlen_nonneg (members a)).
    assert (S : exists ys, acopy_into (Some (done ++ news)) a (zlen done)
      = Ok (Some (done ++ ys ++ skipn (length (members a)) news)) /\ Forall2 copy_of (members a) ys).
    { destruct a as [s|].
      - destruct (acopy_into_ok s done (firstn (length s) news) (skipn (length s) news)) as (ys & Hr & Hys).
        + rewrite firstn_length. cbn [members] in Hn. lia.
        + exact Hc1.
        + rewrite firstn_skipn in Hr. exists ys. split; assumption.
      - exists []. split; [reflexivity|constructor]. }
    destruct S as (ys & -> & Hys). cbn [bind].
    assert (Ly : length ys = length (members a)) by (clear -Hys; induction Hys; cbn; congruence).
    rewrite alen_members, add_int_ok by lia. cbn [bind].
    replace (zlen done + zlen (members a)) with (zlen (done ++ ys)) by (rewrite zlen_app; unfold zlen; lia).
    rewrite app_assoc.
    destruct (IH (done ++ ys) (skipn (length (members a)) news) Hc2) as (zs & -> & Hzs).
    + rewrite zlen_app. unfold zlen in *. lia.
    + rewrite skipn_length. lia.
    + exists (ys ++ zs). rewrite app_assoc. split; [reflexivity|]. cbn [map concat]. now apply Forall2_app.
Qed.

(** list(l1, l2, ...): all members in order; nothing if there is none. *)
Theorem C38_list argv : Forall copyable (concat (map members argv)) -> zlen (concat (map members argv)) < 2^31 ->
  concat (map members argv) <> [] ->
  exists out, fn_list argv = Ok (0, Some out) /\ Forall2 copy_of (concat (map members argv)) out.
Proof.
  intros Hc Hl Hn. unfold fn_list. rewrite int_lens_ok by (unfold total; lia). cbn [bind]. rewrite Z.add_0_l.
  rewrite (proj2 (Z.leb_gt _ _)).
  2:{ unfold total. destruct (concat (map members argv)) as [|x l]; [now destruct Hn|].
      rewrite zlen_cons. pose proof (zlen_nonneg l). lia. }
  unfold total. rewrite aalloc_len. cbn [bind].
  destruct (list_loop_ok argv [] (repeat atom_fresh (length (concat (map members argv)))) Hc) as (ys & Hr & Hys).
  - exact Hl.
  - apply repeat_length.
  - change (zlen (@nil atom)) with 0 in Hr. cbn [app] in Hr. rewrite Hr. exists ys. split; [reflexivity|exact Hys].
Qed.
Print Assumptions C38_list.
Theorem C38_list_nothing argv : concat (map members argv) = [] -> fn_list argv = Ok (0, None).
Proof.
  intros H. assert (T : total argv = 0) by (unfold total; now rewrite H).
  unfold fn_list. rewrite int_lens_ok by lia. rewrite T. reflexivity.
Qed.
Print Assumptions C38_list_nothing.

(** * nfill *)

Lemma operand_int b t v f : operand b t v f -> au_int f = Ok (s32 v).
Proof. intros []; [now apply get_int_set|destruct a; reflexivity..]. Qed.

Lemma nfill_loop s a1 : members a1 = s -> Forall copyable s -> forall n i done news,
  zlen done + zlen news < 2^31 -> length news = length (concat (repeat s n)) ->
  exists ys, forn n i (fun _ st => let '(j, out) := st in
           do out <- acopy_into out a1 j; do j <- add_int j (alen a1); Ok (j, out)) (zlen done, Some (done ++ news))
     = Ok (zlen (done ++ ys), Some (done ++ ys)) /\ Forall2 copy_of (concat (repeat s n)) ys.
Proof.
  intros Hs Hc. induction n as [|n IH]; intros i done news Hl Hn.
  - destruct news; [|discriminate Hn]. exists []. rewrite !app_nil_r. split; [reflexivity|constructor].
  - cbn [repeat concat] in *. rewrite app_length in Hn. cbn [forn].
    assert (S : exists ys, acopy_into (Some (done ++ news)) a1 (zlen done)
      = Ok (Some (done ++ ys ++ skipn (length s) news)) /\ Forall2 copy_of s ys).
    { destruct a1 as [s'|]; cbn [members] in Hs; subst s.
      - destruct (acopy_into_ok s' done (firstn (length s') news) (skipn (length s') news)) as (ys & Hr & Hys).
        + rewrite firstn_length. lia.
        + exact Hc.
        + rewrite firstn_skipn in Hr. exists ys. split; assumption.
      - exists []. split; [reflexivity|constructor]. }
    destruct S as (ys & -> & Hys). cbn [bind].
    assert (Ly : length ys = length s) by (clear -Hys; induction Hys; cbn; congruence).
    assert (A : add_int (zlen done) (alen a1) = Ok (zlen done + zlen s))
      by (rewrite alen_members, Hs; apply add_int_ok; unfold zlen in *; lia).
    rewrite A. cbn [bind].
    replace (zlen done + zlen s) with (zlen (done ++ ys)) by (rewrite zlen_app; unfold zlen; lia).
    rewrite app_assoc.
    destruct (IH (i + 1) (done ++ ys) (skipn (length s) news)) as (zs & Hz & Hzs).
    + rewrite zlen_app. unfold zlen in *. rewrite skipn_length. lia.
    + rewrite skipn_length. lia.
    + exists (ys ++ zs). rewrite app_assoc. split; [exact Hz|]. now apply Forall2_app.
Qed.

(** nfill(n, l): the members of [l], [n] times; a negative number counts as zero. *)
Theorem C38_nfill a0 a1 more i l b t n : members a0 = i :: l -> operand b t n i -> in_type I32 n ->
  Forall copyable (members a1) -> n * zlen (members a1) < 2^31 ->
  exists out, fn_nfill (a0 :: a1 :: more) = Ok (0, Some out) /\
    Forall2 copy_of (concat (repeat (members a1) (Z.to_nat n))) out.
Proof.
  intros Ha Ho Hi Hc Hl. unfold fn_nfill. rewrite aget_members by lia. rewrite Ha. cbn [nth_error bind int_at Z.to_nat].
  rewrite (operand_int _ _ _ _ Ho). cbn [bind].
  rewrite (wrap_id I32 n Hi : s32 n = n).
  set (m := if n <? 0 then 0 else n).
  assert (Hm : 0 <= m /\ Z.to_nat m = Z.to_nat n /\ m * zlen (members a1) < 2^31).
  { unfold m. pose proof (zlen_nonneg (members a1)). destruct (n <? 0) eqn:E; [apply Z.ltb_lt in E|apply Z.ltb_ge in E]; lia. }
  destruct Hm as (Hm1 & Hm2 & Hm3). rewrite alen_members.
  pose proof (zlen_nonneg (members a1)) as Hz.
  rewrite s32_small by nia.
  assert (Lc : Z.of_nat (length (concat (repeat (members a1) (Z.to_nat n)))) = m * zlen (members a1)).
  { rewrite <- Hm2. replace m with (Z.of_nat (Z.to_nat m)) at 2 by lia. generalize (Z.to_nat m) as k.
    induction k as [|k IH]; [reflexivity|]. cbn [repeat concat]. rewrite app_length. unfold zlen in *. lia. }
  unfold aalloc. rewrite (proj2 (Z.ltb_ge _ _)) by nia. cbn [bind]. rewrite Hm2.
  destruct (nfill_loop (members a1) a1 eq_refl Hc (Z.to_nat n) 0 [] (repeat atom_fresh (Z.to_nat (m * zlen (members a1)))))
    as (ys & Hr & Hys).
  - change (zlen (@nil atom)) with 0. unfold zlen at 1. rewrite repeat_length. lia.
  - rewrite repeat_length. lia.
  - change (zlen (@nil atom)) with 0 in Hr. cbn [app] in Hr.
    exists ys. split; [|exact Hys]. rewrite alen_members in Hr. unfold arr in *. rewrite Hr. reflexivity.
Qed.
Print Assumptions C38_nfill.

(** * nth *)

Lemma nth_loop_app look l1 l2 : forall k out,
  nth_loop look (l1 ++ l2) k out =
  do r <- nth_loop look l1 k out;
  match r with None => Ok None | Some (k, out) => nth_loop look l2 k out end.
Proof.
  induction l1 as [|i l1 IH]; intros k out; cbn [app nth_loop bind]; [reflexivity|].
  destruct (au_int32 i); [|reflexivity..]. cbn [bind]. destruct (aget out k); [|reflexivity..]. cbn [bind].
  destruct (look _ _) as [[y|]| |]; [|reflexivity..]. cbn [bind]. destruct (aput out k _); [|reflexivity..].
  cbn [bind]. apply IH.
Qed.
Lemma nth_outer_concat look args : forall k out,
  nth_outer look args k out = nth_loop look (concat (map members args)) k out.
Proof.
  induction args as [|a args IH]; intros k out; cbn [nth_outer map concat]; [reflexivity|].
  rewrite nth_loop_app. change (match a with Some l => l | None => [] end) with (members a).
  destruct (nth_loop look (members a) k out) as [[[k' out']|]| |]; [|reflexivity..]. cbn [bind]. apply IH.
Qed.

Lemma nth_loop_ok look idx ys :
  Forall2 (fun i y => exists c, au_int32 i = Ok c /\ look c atom_fresh = Ok (Some y)) idx ys ->
  forall done rest,
  nth_loop look idx (zlen done) (Some (done ++ repeat atom_fresh (length idx) ++ rest)) =
  Ok (Some (zlen (done ++ ys), Some (done ++ ys ++ rest))).
Proof.
  induction 1 as [|i y idx ys (c & Hc & Hl) _ IH]; intros done rest.
  - cbn [nth_loop length repeat app]. now rewrite app_nil_r.
  - cbn [nth_loop length repeat app]. rewrite Hc. cbn [bind]. rewrite aget_at. cbn [bind]. rewrite Hl. cbn [bind].
    rewrite aput_at. cbn [bind]. specialize (IH (done ++ [y]) rest). rewrite <- !app_assoc in IH.
    rewrite zlen_app, zlen_cons in IH. exact IH.
Qed.

Lemma look_list a0 : (forall w p, members a0 <> [Atom 98 w p]) -> nth_look a0 = Ok (nth_member a0).
Proof.
  intros H. destruct a0 as [[|[tg w p] [|? ?]]|]; try reflexivity. cbn [nth_look].
  destruct (tg =? 98) eqn:E; [|reflexivity]. apply Z.eqb_eq in E. subst tg. now destruct (H w p).
Qed.

(** The list the indexes choose from: the members of [a], or the bytes of a single
    blob as int8. *)
Definition not_a_blob (a : arr) : Prop := forall w p, members a <> [Atom 98 w p].

(** nth(l, i1, i2, ...): copies of the members chosen by the indexes, taken as
    int32. *)
Theorem C38_nth a args xs : not_a_blob a -> Forall copyable (members a) -> zlen (members a) < 2^31 ->
  zlen (concat (map members args)) < 2^31 ->
  Forall2 (fun i x => exists b t n c, operand b t n i /\ converted I32 n c /\
                        0 <= c /\ nth_error (members a) (Z.to_nat c) = Some x) (concat (map members args)) xs ->
  exists out, fn_nth (a :: args) = Ok (0, Some out) /\ Forall2 copy_of xs out.
Proof.
  intros Hb Hc Hl Hi Hx. unfold fn_nth. rewrite int_lens_ok by (unfold total; lia). cbn [bind]. rewrite Z.add_0_l.
  unfold total. rewrite aalloc_len. cbn [bind argv_at nth_error]. rewrite look_list by exact Hb. cbn [bind].
  rewrite nth_outer_concat.
  assert (S : exists ys, Forall2 (fun i y => exists c, au_int32 i = Ok c /\ nth_member a c atom_fresh = Ok (Some y))
                          (concat (map members args)) ys /\ Forall2 copy_of xs ys).
  { clear Hi. induction Hx as [|i x is xs (b & t & n & c & Ho & Hcv & Hc0 & Hn) _ IH].
    - exists []. split; constructor.
    - destruct IH as (ys & H1 & H2).
      assert (Cx : copyable x) by (rewrite Forall_forall in Hc; apply Hc; exact (nth_error_In _ _ Hn)).
      destruct (copy_ok x Cx) as (y & Hy & Cy). exists (y :: ys). split; [|now constructor]. constructor; [|exact H1].
      exists c. split.
      + refine (eq_trans (operand_get _ _ _ _ I32 Ho) _). f_equal. exact (converted_unique I32 n _ _ (converted_wrap I32 n) Hcv).
      + pose proof (nth_error_lt _ _ _ Hn) as Hlt. unfold nth_member. rewrite alen_members.
        rewrite (proj2 (Z.ltb_ge _ _)) by lia.
        replace (c >? zlen (members a) - 1) with false by (symmetry; rewrite Z.gtb_ltb; apply Z.ltb_ge; unfold zlen; lia).
        rewrite aget_members, Hn by lia. cbn [bind copy_into]. rewrite Hy. reflexivity. }
  destruct S as (ys & H1 & H2).
  pose proof (nth_loop_ok _ _ _ H1 [] []) as R. cbn [app] in R. rewrite !app_nil_r in R.
  change (zlen (@nil atom)) with 0 in R. rewrite R. cbn [bind]. exists ys. split; [reflexivity|exact H2].
Qed.
Print Assumptions C38_nth.

(** An index out of range gives an error and no list, and nothing is read. *)
Theorem C38_nth_out_of_range a args xs is1 i is2 b t n c :
  not_a_blob a -> Forall copyable (members a) -> zlen (members a) < 2^31 ->
  zlen (concat (map members args)) < 2^31 -> concat (map members args) = is1 ++ i :: is2 ->
  Forall2 (fun i x => exists b t n c, operand b t n i /\ converted I32 n c /\
                        0 <= c /\ nth_error (members a) (Z.to_nat c) = Some x) is1 xs ->
  operand b t n i -> converted I32 n c -> c < 0 \/ zlen (members a) <= c ->
  fn_nth (a :: args) = Ok (1, None).
Proof.
  intros Hb Hc Hl Hi He Hx Ho Hcv Hr. unfold fn_nth. rewrite int_lens_ok by (unfold total; lia). cbn [bind]. rewrite Z.add_0_l.
  unfold total. rewrite aalloc_len. cbn [bind argv_at nth_error]. rewrite look_list by exact Hb. cbn [bind].
  rewrite nth_outer_concat, He.
  assert (S : exists ys, Forall2 (fun i y => exists c, au_int32 i = Ok c /\ nth_member a c atom_fresh = Ok (Some y)) is1 ys).
  { clear He. induction Hx as [|i' x is1 xs (b' & t' & n' & c' & Ho' & Hcv' & Hc0 & Hn) _ IH].
    - exists []. constructor.
    - destruct IH as (ys & H1).
      assert (Cx : copyable x) by (rewrite Forall_forall in Hc; apply Hc; exact (nth_error_In _ _ Hn)).
      destruct (copy_ok x Cx) as (y & Hy & Cy). exists (y :: ys). constructor; [|exact H1].
      exists c'. split.
      + refine (eq_trans (operand_get _ _ _ _ I32 Ho') _). f_equal. exact (converted_unique I32 n' _ _ (converted_wrap I32 n') Hcv').
      + pose proof (nth_error_lt _ _ _ Hn) as Hlt. unfold nth_member. rewrite alen_members.
        rewrite (proj2 (Z.ltb_ge _ _)) by lia.
        replace (c' >? zlen (members a) - 1) with false by (symmetry; rewrite Z.gtb_ltb; apply Z.ltb_ge; unfold zlen; lia).
        rewrite aget_members, Hn by lia. cbn [bind copy_into]. rewrite Hy. reflexivity. }
  destruct S as (ys & H1).
  rewrite nth_loop_app, app_length, repeat_app.
  pose proof (nth_loop_ok _ _ _ H1 [] (repeat atom_fresh (length (i :: is2)))) as R.
  change (zlen (@nil atom)) with 0 in R. cbn [app] in R.
  change (arr) with (option (list atom)) in *. rewrite R. cbn [bind nth_loop length repeat].
  assert (G : au_int32 i = Ok c).
  { refine (eq_trans (operand_get _ _ _ _ I32 Ho) _). f_equal. exact (converted_unique I32 n _ _ (converted_wrap I32 n) Hcv). }
  rewrite G. cbn [bind]. rewrite aget_at. cbn [bind]. unfold nth_member.
  destruct (c <? 0) eqn:E; [reflexivity|]. apply Z.ltb_ge in E. rewrite alen_members.
  replace (c >? zlen (members a) - 1) with true by (symmetry; apply Z.gtb_lt; lia). reflexivity.
Qed.
Print Assumptions C38_nth_out_of_range.

(** The argument may also be a blob, the result is then its bytes as int8. *)
Theorem C38_nth_blob w bl args bs : ok_atom (Atom 98 w (PBlob bl)) ->
  zlen (concat (map members args)) < 2^31 ->
  Forall2 (fun i x => exists b t n c, operand b t n i /\ converted I32 n c /\
                        0 <= c /\ nth_error (blob_data bl) (Z.to_nat c) = Some x) (concat (map members args)) bs ->
  fn_nth (Some [Atom 98 w (PBlob bl)] :: args) = Ok (0, Some (map (fun x => set_int8 atom_fresh (s8 x)) bs)).
Proof.
  intros (_ & _ & Hb) Hi Hx. destruct (blob_facts bl Hb) as (d & r & Eb & Ed & Hd & _). rewrite Ed in Hx.
  pose proof (zlen_nonneg d) as Hd0.
  unfold fn_nth. rewrite int_lens_ok by (unfold total; lia). cbn [bind]. rewrite Z.add_0_l.
  unfold total. rewrite aalloc_len. cbn [bind argv_at nth_error nth_look Z.eqb Pos.eqb].
  assert (Hn : rd32 bl 0 = Ok (zlen d)).
  { rewrite Eb. refine (eq_trans (rd32_be [] (zlen d) (d ++ r)) _). f_equal. unfold u32. apply Z.mod_small. lia. }
  rewrite Hn. cbn [bind]. rewrite s32_small by lia. rewrite nth_outer_concat.
  assert (S : Forall2 (fun i y => exists c, au_int32 i = Ok c /\ nth_blob bl (zlen d) c atom_fresh = Ok (Some y))
                (concat (map members args)) (map (fun x => set_int8 atom_fresh (s8 x)) bs)).
  { clear Hi. induction Hx as [|i x is xs (b & t & n & c & Ho & Hcv & Hc0 & Hnx) _ IH]; [constructor|].
    cbn [map]. constructor; [|exact IH]. exists c. split.
    - refine (eq_trans (operand_get _ _ _ _ I32 Ho) _). f_equal. exact (converted_unique I32 n _ _ (converted_wrap I32 n) Hcv).
    - pose proof (nth_error_lt _ _ _ Hnx) as Hlt. unfold nth_blob.
      rewrite (proj2 (Z.ltb_ge _ _)) by lia.
      replace (c >? zlen d - 1) with false by (symmetry; rewrite Z.gtb_ltb; apply Z.ltb_ge; unfold zlen; lia).
      assert (Rd : rd bl (4 + c) = Ok x).
      { destruct (nth_error_split _ _ Hnx) as (d1 & d2 & -> & L1).
        rewrite Eb. rewrite <- !app_assoc. cbn [app].
        replace (4 + c) with (zlen (be_bytes 4 (zlen (d1 ++ x :: d2)) ++ d1)) by (rewrite zlen_app, zlen_be; unfold zlen; lia).
        rewrite app_assoc. apply rd_at. }
      rewrite Rd. reflexivity. }
  pose proof (nth_loop_ok _ _ _ S [] []) as R. cbn [app] in R. rewrite !app_nil_r in R.
  change (zlen (@nil atom)) with 0 in R. rewrite R. reflexivity.
Qed.
Print Assumptions C38_nth_blob.

(** Finding: a 64-bit index is truncated, 2^32 selects the first member. *)
Theorem C38_nth_wide_refuted x : copyable x -> not_a_blob (Some [x]) ->
  exists y, fn_nth [Some [x]; Some [set_int64 atom_fresh (2^32)]] = Ok (0, Some [y]) /\ copy_of x y.
Proof.
  intros Hx Hb. destruct (C38_nth (Some [x]) [Some [set_int64 atom_fresh (2^32)]] [x]) as (out & H1 & H2).
  - exact Hb.
  - repeat constructor; apply Hx.
  - reflexivity.
  - reflexivity.
  - constructor; [|constructor]. exists false, I64, (2^32), 0. split; [|split; [|split]].
    + apply (int_operand I64). unfold in_type. cbn. lia.
    + split; [unfold in_type; cbn; lia|reflexivity].
    + lia.
    + reflexivity.
  - inversion H2 as [|? y ? l Hy Hl]; subst. inversion Hl; subst. exists y. split; assumption.
Qed.
Print Assumptions C38_nth_wide_refuted.

(** * interleave *)

Definition shortest (argv : list arr) (k : Z) : Prop :=
  (forall a, In a argv -> k <= zlen (members a)) /\ exists a, In a argv /\ zlen (members a) = k.

Lemma set_nth_length l : forall n y, length (set_nth l n y) = length l.
Proof. induction l as [|x l IH]; intros [|n] y; cbn [set_nth length]; congruence. Qed.
Lemma set_nth_same l : forall n y, (n < length l)%nat -> nth_error (set_nth l n y) n = Some y.
Proof.
  induction l as [|x l IH]; intros [|n] y H; cbn [set_nth length nth_error] in *; try lia; [reflexivity|].
  apply IH. lia.
Qed.
Lemma set_nth_other l : forall n m y, n <> m -> nth_error (set_nth l n y) m = nth_error l m.
Proof.
  induction l as [|x l IH]; intros [|n] [|m] y H; cbn [set_nth nth_error]; try reflexivity; [now destruct H|].
  apply IH. congruence.
Qed.
Lemma aput_in l i y : (i < length l)%nat ->
  aput (Some l) (Z.of_nat i) (fun _ => Ok y) = Ok (Some (set_nth l i y)).
Proof.
  intros H. cbn [aput]. unfold zlen. rewrite (proj2 (Z.leb_gt _ _)), (proj2 (Z.ltb_ge _ _)) by lia.
  rewrite Nat2Z.id. destruct (nth_error l i) eqn:E; [reflexivity|]. apply nth_error_None in E. lia.
Qed.

Lemma slots i j i' j' k : (i < k -> i' < k -> i + j * k = i' + j' * k -> i = i' /\ j = j')%nat.
Proof. intros H H' E. assert (j = j') by (destruct (Nat.lt_trichotomy j j') as [|[|]]; nia). lia. Qed.

Lemma interleave_inner a k n i m : (i < k)%nat -> Forall copyable (members a) -> forall j0 out,
  (j0 + m <= n)%nat -> (n <= length (members a))%nat -> length out = (k * n)%nat ->
  exists out', forn m (Z.of_nat j0) (fun j out => copy_member out (Z.of_nat i + j * Z.of_nat k) a j) (Some out) = Ok (Some out') /\
    length out' = length out /\
    (forall j x, (j0 <= j < j0 + m)%nat -> nth_error (members a) j = Some x ->
       exists y, nth_error out' (i + j * k) = Some y /\ copy_of x y) /\
    (forall q, (forall j, (j0 <= j < j0 + m)%nat -> q <> i + j * k)%nat -> nth_error out' q = nth_error out q).
Proof.
  intros Hi Hc. induction m as [|m IH]; intros j0 out Hm Hn Hl.
  - exists out. split; [reflexivity|]. split; [reflexivity|]. split; [intros; lia|reflexivity].
  - cbn [forn].
    destruct (nth_error (members a) j0) as [x|] eqn:Ex; [|apply nth_error_None in Ex; lia].
    rewrite (copy_member_some _ _ _ _ x) by (try lia; now rewrite Nat2Z.id).
    assert (Cx : copyable x) by (rewrite Forall_forall in Hc; apply Hc; exact (nth_error_In _ _ Ex)).
    destruct (copy_ok x Cx) as (y & Hy & Cy). rewrite Hy.
    replace (Z.of_nat i + Z.of_nat j0 * Z.of_nat k) with (Z.of_nat (i + j0 * k)) by lia.
    assert (B : (i + j0 * k < length out)%nat) by nia.
    rewrite aput_in by exact B. cbn [bind]. replace (Z.of_nat j0 + 1) with (Z.of_nat (S j0)) by lia.
    destruct (IH (S j0) (set_nth out (i + j0 * k) y)) as (out' & H1 & H2 & H3 & H4).
    + lia.
    + exact Hn.
    + now rewrite set_nth_length.
    + exists out'. split; [exact H1|]. split; [now rewrite H2, set_nth_length|]. split.
      * intros j x' Hj Hx'. destruct (Nat.eq_dec j j0) as [->|Hne]; [|apply H3; [lia|exact Hx']].
        rewrite H4; [|intros j Hj' E; apply slots in E; lia].
        rewrite set_nth_same by exact B. exists y. split; [reflexivity|]. now replace x' with x by congruence.
      * intros q Hq. rewrite H4 by (intros j Hj; apply Hq; lia). apply set_nth_other. intros E. apply (Hq j0); lia.
Qed.

Lemma interleave_outer k n : forall args i out, (i + length args = k)%nat ->
  Forall (fun a => Forall copyable (members a)) args -> Forall (fun a => (n <= length (members a))%nat) args ->
  length out = (k * n)%nat ->
  exists out', interleave_loop (Z.of_nat k) (Z.of_nat n) args (Z.of_nat i) (Some out) = Ok (Some out') /\
    length out' = length out /\
    (forall p j a x, nth_error args p = Some a -> nth_error (members a) j = Some x -> (j < n)%nat ->
       exists y, nth_error out' (i + p + j * k) = Some y /\ copy_of x y) /\
    (forall p j, (p < i -> j < n -> nth_error out' (p + j * k) = nth_error out (p + j * k))%nat).
Proof.
  induction args as [|a args IH]; intros i out Hk Hc Hn Hl; cbn [interleave_loop].
  - exists out. split; [reflexivity|]. split; [reflexivity|]. split; [|reflexivity].
    intros p j a x Hp. destruct p; discriminate Hp.
  - cbn [length] in Hk. rewrite Nat2Z.id.
    destruct (interleave_inner a k n i n) with (j0 := 0%nat) (out := out) as (o1 & R1 & L1 & W1 & U1).
    + lia.
    + exact (Forall_inv Hc).
    + lia.
    + exact (Forall_inv Hn).
    + exact Hl.
    + change (Z.of_nat 0) with 0 in R1. rewrite R1. cbn [bind].
      replace (Z.of_nat i + 1) with (Z.of_nat (S i)) by lia.
      destruct (IH (S i) o1) as (o2 & R2 & L2 & W2 & U2).
      * lia.
      * exact (Forall_inv_tail Hc).
      * exact (Forall_inv_tail Hn).
      * congruence.
      * exists o2. split; [exact R2|]. split; [congruence|]. split.
        -- intros [|p] j a' x Hp Hx Hj; cbn [nth_error] in Hp.
           ++ inversion Hp; subst a'. rewrite Nat.add_0_r. rewrite U2 by lia. apply W1; [lia|exact Hx].
           ++ replace (i + S p + j * k)%nat with (S i + p + j * k)%nat by lia. exact (W2 p j a' x Hp Hx Hj).
        -- intros p j Hp Hj. rewrite U2 by lia. apply U1. intros j' Hj' E. apply slots in E; lia.
Qed.

Lemma min_len_ok args : Forall (fun a => zlen (members a) < 2^31) args -> forall m, exists r,
  min_len m args = r /\ r <= m /\ Forall (fun a => r <= zlen (members a)) args /\
  (r = m \/ Exists (fun a => r = zlen (members a)) args).
Proof.
  induction 1 as [|a args Ha _ IH]; intros m; cbn [min_len].
  - exists m. repeat split; [lia|constructor|now left].
  - rewrite alen_members, s32_small by (pose proof (zlen_nonneg (members a)); lia).
    destruct (IH (if zlen (members a) <? m then zlen (members a) else m)) as (r & -> & H1 & H2 & H3).
    exists r. split; [reflexivity|]. destruct (zlen (members a) <? m) eqn:E; [apply Z.ltb_lt in E|apply Z.ltb_ge in E].
    + split; [lia|]. split; [constructor; [lia|exact H2]|]. right. destruct H3 as [H3|H3]; [left|right]; assumption.
    + split; [lia|]. split; [constructor; [lia|exact H2]|]. destruct H3 as [H3|H3]; [now left|]. right. right. exact H3.
Qed.

(** interleave(l1, ..., lk): member j of list i is at position i + j k, up to the
    length of the shortest list. *)
Theorem C38_interleave argv n : shortest argv n ->
  Forall (fun a => Forall copyable (members a)) argv -> Forall (fun a => zlen (members a) < 2^31) argv ->
  zlen argv * n < 2^31 ->
  exists out, fn_interleave argv = Ok (0, Some out) /\ zlen out = zlen argv * n /\
    forall i j a x, nth_error argv i = Some a -> nth_error (members a) j = Some x -> Z.of_nat j < n ->
      exists y, nth_error out (i + j * length argv) = Some y /\ copy_of x y.
Proof.
  intros [Hmin (a0 & Ha0 & Hn)] Hc Hb Hl. unfold fn_interleave.
  destruct argv as [|a argv]; [destruct Ha0|]. cbn [argv_at nth_error bind].
  assert (M : min_len (s32 (alen a)) argv = n).
  { rewrite alen_members, s32_small by (pose proof (zlen_nonneg (members a)); pose proof (Forall_inv Hb); cbn beta in *; lia).
    destruct (min_len_ok argv (Forall_inv_tail Hb) (zlen (members a))) as (r & -> & H1 & H2 & H3).
    rewrite Forall_forall in H2.
    assert (n <= r).
    { destruct H3 as [->|H3]; [apply Hmin; now left|]. apply Exists_exists in H3. destruct H3 as (b & Hb1 & ->). apply Hmin. now right. }
    destruct Ha0 as [<-|Ha0]; [lia|]. specialize (H2 a0 Ha0). lia. }
  rewrite M. set (args := a :: argv) in *.
  assert (N0 : 0 <= n) by (rewrite <- Hn; apply zlen_nonneg).
  assert (K1 : zlen args = Z.of_nat (length args)) by reflexivity.
  rewrite checked_ok by (change (2^(32 - 1)) with (2^31); rewrite K1 in *; nia). cbn [bind].
  unfold aalloc. rewrite (proj2 (Z.ltb_ge _ _)) by (rewrite K1; nia). cbn [bind].
  destruct (interleave_outer (length args) (Z.to_nat n) args 0 (repeat atom_fresh (Z.to_nat (zlen args * n))))
    as (out & R & L & W & _).
  - reflexivity.
  - exact Hc.
  - rewrite Forall_forall. intros b Hb'. specialize (Hmin b Hb'). unfold zlen in Hmin. lia.
  - rewrite repeat_length, K1. rewrite Z2Nat.inj_mul by lia. now rewrite Nat2Z.id.
  - rewrite Z2Nat.id in R by exact N0. change (Z.of_nat 0) with 0 in R. rewrite <- K1 in R. rewrite R. cbn [bind].
    exists out. split; [reflexivity|]. split.
    + unfold zlen at 1. rewrite L, repeat_length, K1. nia.
    + intros i j b x Hb' Hx Hj. apply (W i j b x Hb' Hx). lia.
Qed.
Print Assumptions C38_interleave.

Example C38_example :
  let i v := set_int32 atom_fresh v in let s := set_string atom_fresh 0 [97; 98] in
  let l := Some [i 1; s; i 3] in
  Forall copyable (members l) /\
  fn_reverse [l] = Ok (0, Some [i 3; s; i 1]) /\ fn_first [l] = Ok (0, Some [i 1]) /\
  fn_last [l] = Ok (0, Some [i 3]) /\ fn_rest [l] = Ok (0, Some [s; i 3]) /\
  fn_butlast [l] = Ok (0, Some [i 1; s]) /\ fn_length [l; l] = Ok (0, Some [i 6]) /\
  fn_list [l; None; Some [i 7]] = Ok (0, Some [i 1; s; i 3; i 7]) /\
  fn_nfill [Some [i 2]; Some [i 8; s]] = Ok (0, Some [i 8; s; i 8; s]) /\
  fn_nth [l; Some [i 2; i 0]] = Ok (0, Some [i 3; i 1]) /\ fn_nth [l; Some [i 3]] = Ok (1, None) /\
  fn_interleave [l; Some [i 5; i 6]] = Ok (0, Some [i 1; i 5; s; i 6]).
Proof.
  split; [|repeat split; vm_compute; reflexivity].
  repeat apply Forall_cons; try apply Forall_nil; (split; [|exact I]);
    (split; [vm_compute; intuition discriminate|]); try (split; vm_compute; discriminate).
  split; [reflexivity|]. split; [|split; [|vm_compute; reflexivity]].
  - repeat apply Forall_cons; try apply Forall_nil; discriminate.
  - repeat apply Forall_cons; try apply Forall_nil; vm_compute; intuition discriminate.
Qed.
