(** Facts about doubly linked lists in the heap. *)

From Coq Require Import ZArith List Bool Lia.
From Verif Require Import Base BaseProofs HeapModel.
Import ListNotations.
Open Scope Z_scope.

Lemma insert_list_split {A} (xs : list A) pos : 0 < pos < zlen xs ->
  exists ys x zs, xs = ys ++ x :: zs /\ ys <> [] /\ zlen ys = pos.
Proof.
  intros H. destruct (split_at xs pos) as (ys & zs & -> & L); [lia|].
  destruct zs as [|x zs]; [exfalso; revert H; zl; lia|]. exists ys, x, zs.
  split; [reflexivity|]. split; [|assumption]. intros ->. change (zlen (@nil A)) with 0 in L. lia.
Qed.

Section Dll.
Context {V : Type}.
Notation heap := (heap V).
Notation node := (node V).
Implicit Types (h : heap) (xs ys : list (Z * V)) (p q : ptr).

(** A list is given by the places of its nodes and their values. *)
Definition locs xs : list Z := map fst xs.
Definition firstp xs (nxt : ptr) : ptr := match xs with [] => nxt | (l, _) :: _ => Some l end.
Fixpoint lastp xs (prv : ptr) : ptr := match xs with [] => prv | (l, _) :: xs' => lastp xs' (Some l) end.

(** The nodes [xs] in a row, between the nodes [prv] and [nxt]. *)
Fixpoint seg h (prv : ptr) xs (nxt : ptr) : Prop :=
  match xs with
  | [] => True
  | (l, v) :: xs' => h l = Some (Nd (firstp xs' nxt) prv v) /\ seg h (Some l) xs' nxt
  end.

Definition dll h (m : ends) xs : Prop :=
  NoDup (locs xs) /\ e_head m = firstp xs None /\ e_tail m = lastp xs None /\
  e_count m = zlen xs /\ seg h None xs None.

(** Nothing but the nodes [ls] is changed. *)
Definition frame h h' (ls : list Z) : Prop := forall x, ~ In x ls -> h' x = h x.

Lemma firstp_app xs ys nxt : firstp (xs ++ ys) nxt = firstp xs (firstp ys nxt).
Proof. destruct xs as [|[]]; reflexivity. Qed.
Lemma lastp_app : forall xs ys prv, lastp (xs ++ ys) prv = lastp ys (lastp xs prv).
Proof. induction xs as [|[l v] xs IH]; intros; [reflexivity|]. cbn [app lastp]. apply IH. Qed.
Lemma lastp_one l v prv : lastp [(l, v)] prv = Some l. Proof. reflexivity. Qed.
Lemma locs_app xs ys : locs (xs ++ ys) = locs xs ++ locs ys. Proof. apply map_app. Qed.

Lemma seg_app h : forall xs ys prv nxt,
  seg h prv (xs ++ ys) nxt <-> seg h prv xs (firstp ys nxt) /\ seg h (lastp xs prv) ys nxt.
Proof.
  induction xs as [|[l v] xs IH]; intros ys prv nxt; cbn [app seg lastp]; [tauto|].
  rewrite IH, firstp_app. tauto.
Qed.

Lemma seg_same h h' : forall xs prv nxt, (forall x, In x (locs xs) -> h' x = h x) ->
  seg h prv xs nxt -> seg h' prv xs nxt.
Proof.
  induction xs as [|[l v] xs IH]; intros prv nxt He Hs; [exact I|]. cbn [seg] in *.
  destruct Hs as [H1 H2]. split; [rewrite He by (left; reflexivity); assumption|].
  apply IH; [|assumption]. intros x Hx. apply He. now right.
Qed.

Lemma upd_same h l n : upd h l n l = Some n.
Proof. unfold upd. now rewrite Z.eqb_refl. Qed.
Lemma upd_other h l n x : x <> l -> upd h l n x = h x.
Proof. unfold upd. intros H. destruct (x =? l) eqn:E; [lia|reflexivity]. Qed.
Lemma rel_same h l : release h l l = None.
Proof. unfold release. now rewrite Z.eqb_refl. Qed.
Lemma rel_other h l x : x <> l -> release h l x = h x.
Proof. unfold release. intros H. destruct (x =? l) eqn:E; [lia|reflexivity]. Qed.

Lemma seg_upd h l n xs prv nxt : ~ In l (locs xs) -> seg h prv xs nxt -> seg (upd h l n) prv xs nxt.
Proof. intros Hn. apply seg_same. intros x Hx. apply upd_other. intros ->. contradiction. Qed.
Lemma seg_rel h l xs prv nxt : ~ In l (locs xs) -> seg h prv xs nxt -> seg (release h l) prv xs nxt.
Proof. intros Hn. apply seg_same. intros x Hx. apply rel_other. intros ->. contradiction. Qed.

Lemma seg_at h xs l v ys prv nxt : seg h prv (xs ++ (l, v) :: ys) nxt ->
  h l = Some (Nd (firstp ys nxt) (lastp xs prv) v).
Proof. intros H. apply seg_app in H as [_ H]. cbn [seg] in H. tauto. Qed.

Lemma seg_live h xs prv nxt l : seg h prv xs nxt -> In l (locs xs) -> exists n, h l = Some n.
Proof.
  intros H Hi. unfold locs in Hi. apply in_map_iff in Hi as ([l' v] & E & Hi). cbn in E. subst l'.
  apply in_split in Hi as (a & b & ->). apply seg_at in H. eauto.
Qed.

Lemma get_ok h l n : h l = Some n -> get h (Some l) = Ok n.
Proof. intros H. cbn. now rewrite H. Qed.
Lemma put_next_ok h l n q : h l = Some n -> put_next h (Some l) q = Ok (upd h l (Nd q (n_prev n) (n_val n))).
Proof. intros H. cbn. now rewrite H. Qed.
Lemma put_prev_ok h l n q : h l = Some n -> put_prev h (Some l) q = Ok (upd h l (Nd (n_next n) q (n_val n))).
Proof. intros H. cbn. now rewrite H. Qed.
Lemma free_ok h l n : h l = Some n -> free h (Some l) = Ok (release h l).
Proof. intros H. cbn. now rewrite H. Qed.

(** Redirecting the last [next] and the first [prev] of a row. *)
Lemma seg_next h xs l v prv nxt q : NoDup (locs (xs ++ [(l, v)])) ->
  seg h prv (xs ++ [(l, v)]) nxt -> seg (upd h l (Nd q (lastp xs prv) v)) prv (xs ++ [(l, v)]) q.
Proof.
  intros Hd H. apply seg_app in H as [H1 H2]. apply seg_app. split.
  - apply seg_upd; [|exact H1]. rewrite locs_app in Hd. apply NoDup_remove_2 in Hd. rewrite app_nil_r in Hd. exact Hd.
  - cbn [seg firstp]. split; [apply upd_same|exact I].
Qed.
Lemma seg_prev h l v xs prv nxt q : NoDup (locs ((l, v) :: xs)) ->
  seg h prv ((l, v) :: xs) nxt -> seg (upd h l (Nd (firstp xs nxt) q v)) q ((l, v) :: xs) nxt.
Proof.
  intros Hd [H1 H2]. cbn [seg]. split; [apply upd_same|].
  apply seg_upd; [|exact H2]. now inversion Hd.
Qed.

Lemma split_last xs : xs = [] \/ exists ys l v, xs = ys ++ [(l, v)].
Proof.
  destruct xs as [|x xs]; [now left|]. right.
  destruct (exists_last (l := x :: xs) ltac:(discriminate)) as (ys & [l v] & E). eauto.
Qed.

Lemma dll_nil h : dll h (Ends None None 0) [].
Proof. unfold dll. cbn. repeat split. constructor. Qed.

Lemma dll_head h m xs : dll h m xs -> e_head m = None <-> xs = [].
Proof. intros (_ & -> & _). destruct xs as [|[]]; cbn; split; congruence. Qed.

Lemma dll_same h h' m xs : (forall x, In x (locs xs) -> h' x = h x) -> dll h m xs -> dll h' m xs.
Proof.
  intros He (H1 & H2 & H3 & H4 & H5). repeat split; try assumption. eapply seg_same; eauto.
Qed.

Lemma nodup_l (a b : list Z) : NoDup (a ++ b) -> NoDup a.
Proof.
  induction a as [|x a IH]; intros H; [constructor|]. cbn in H. inversion H as [|? ? N1 N2]; subst.
  constructor; [|now apply IH]. intros Hi. apply N1, in_app_iff. now left.
Qed.
Lemma nodup_r (a b : list Z) : NoDup (a ++ b) -> NoDup b.
Proof. induction a as [|x a IH]; intros H; [exact H|]. cbn in H. inversion H; subst. now apply IH. Qed.
Lemma nodup_app_swap (a : Z) (l1 l2 : list Z) : NoDup (l1 ++ l2) -> ~ In a (l1 ++ l2) -> NoDup (l1 ++ a :: l2).
Proof. intros H1 H2. apply NoDup_Add with (a := a) (l := l1 ++ l2); [apply Add_app|]. now split. Qed.

Ltac fr := let x := fresh in intros x; intros; repeat rewrite upd_other; auto;
  let E := fresh in intros E; subst; cbn in *; rewrite ?locs_app, ?in_app_iff in *; cbn in *; intuition eauto.

(** * osc_message_u.c *)

Lemma append_atom_ok h m xs a p q v : dll h m xs -> h a = Some (Nd p q v) -> ~ In a (locs xs) ->
  exists h' m', append_atom h m a = Ok (h', m') /\ dll h' m' (xs ++ [(a, v)]) /\ frame h h' (a :: locs xs).
Proof.
  intros (Hd & Hh & Ht & Hc & Hs) Ha Hn. unfold append_atom.
  assert (Hd' : NoDup (locs (xs ++ [(a, v)]))).
  { rewrite locs_app. cbn. apply nodup_app_swap; rewrite app_nil_r; assumption. }
  destruct (split_last xs) as [->|(ys & l & w & ->)].
  - cbn [firstp] in Hh. rewrite Hh. rewrite (put_next_ok _ _ _ _ Ha). cbn [bind n_prev n_val n_next].
    erewrite put_prev_ok by apply upd_same. cbn [bind n_prev n_val n_next].
    eexists _, _. split; [reflexivity|]. split.
    + repeat split; try assumption; try reflexivity. cbn. rewrite Hc. reflexivity. cbn. apply upd_same.
    + fr.
  - assert (Hne : exists z, e_head m = Some z) by (rewrite Hh; destruct ys as [|[]]; cbn; eauto).
    destruct Hne as (z & Hz). rewrite Hz. rewrite lastp_app in Ht. cbn in Ht. rewrite Ht.
    assert (Hl : h l = Some (Nd None (lastp ys None) w)) by (apply seg_at in Hs; exact Hs).
    assert (Hal : a <> l) by (intros ->; apply Hn; rewrite locs_app; apply in_app_iff; right; now left).
    rewrite (put_next_ok _ _ _ _ Hl). cbn [bind n_prev n_val n_next].
    erewrite put_prev_ok by (rewrite upd_other by assumption; exact Ha). cbn [bind n_prev n_val n_next].
    erewrite put_next_ok by apply upd_same. cbn [bind n_prev n_val n_next].
    eexists _, _. split; [reflexivity|]. split.
    + split; [exact Hd'|]. cbn [e_head e_tail e_count].
      split; [rewrite <- Hz, Hh; rewrite firstp_app; destruct ys as [|[]]; reflexivity|].
      split; [rewrite lastp_app; reflexivity|].
      split; [rewrite Hc; zl; lia|].
      apply seg_app. split.
      * apply seg_upd; [assumption|]. apply seg_upd; [assumption|]. cbn [firstp].
        apply seg_next with (nxt := None); assumption.
      * rewrite lastp_app. cbn. split; [apply upd_same|exact I].
    + fr.
Qed.

Lemma prepend_atom_ok h m xs a p q v : dll h m xs -> h a = Some (Nd p q v) -> ~ In a (locs xs) ->
  exists h' m', prepend_atom h m a = Ok (h', m') /\ dll h' m' ((a, v) :: xs) /\ frame h h' (a :: locs xs).
Proof.
  intros (Hd & Hh & Ht & Hc & Hs) Ha Hn. unfold prepend_atom.
  destruct xs as [|[l w] xs].
  - cbn [firstp] in Hh. rewrite Hh. rewrite (put_next_ok _ _ _ _ Ha). cbn [bind n_prev n_val n_next].
    erewrite put_prev_ok by apply upd_same. cbn [bind n_prev n_val n_next].
    eexists _, _. split; [reflexivity|]. split.
    + repeat split; try reflexivity. repeat constructor; intros []. cbn. rewrite Hc. reflexivity. cbn. apply upd_same.
    + fr.
  - cbn [firstp] in Hh. rewrite Hh.
    assert (Hl : h l = Some (Nd (firstp xs None) None w)) by (cbn in Hs; tauto).
    assert (Hal : l <> a) by (intros ->; apply Hn; now left).
    rewrite (put_next_ok _ _ _ _ Ha). cbn [bind n_prev n_val n_next].
    erewrite put_prev_ok by (rewrite upd_other by assumption; exact Hl). cbn [bind n_prev n_val n_next].
    erewrite put_prev_ok by (rewrite upd_other by congruence; apply upd_same). cbn [bind n_prev n_val n_next].
    eexists _, _. split; [reflexivity|]. split.
    + split; [constructor; assumption|]. cbn [e_head e_tail e_count].
      split; [reflexivity|]. split; [rewrite Ht; reflexivity|]. split; [rewrite Hc; zl; lia|].
      cbn [seg]. split; [apply upd_same|]. split.
      * rewrite upd_other by assumption. apply upd_same.
      * apply seg_upd; [intros Hi; apply Hn; now right|]. apply seg_upd; [now inversion Hd|].
        apply seg_upd; [intros Hi; apply Hn; now right|]. cbn in Hs. tauto.
    + fr.
Qed.

Lemma forward_ok h nxt : forall xs ys prv, seg h prv (xs ++ ys) nxt ->
  forward h (firstp (xs ++ ys) nxt) (length xs) = Ok (firstp ys nxt).
Proof.
  induction xs as [|[l v] xs IH]; intros ys prv Hs; [reflexivity|].
  cbn [app firstp length forward]. cbn [app seg] in Hs. destruct Hs as [H1 H2].
  rewrite (get_ok _ _ _ H1). cbn [bind n_next]. eapply IH. exact H2.
Qed.

Lemma backward_ok h prv : forall ys xs nxt, seg h prv (xs ++ ys) nxt ->
  backward h (lastp (xs ++ ys) prv) (length ys) = Ok (lastp xs prv).
Proof.
  intros ys. induction ys as [|[l v] ys IH] using rev_ind; intros xs nxt Hs; [rewrite app_nil_r; reflexivity|].
  rewrite app_length. cbn [length]. rewrite Nat.add_1_r. cbn [backward].
  rewrite app_assoc in *. rewrite lastp_app. cbn [lastp].
  pose proof (seg_at _ _ _ _ _ _ _ Hs) as Hl. rewrite (get_ok _ _ _ Hl). cbn [bind n_prev].
  apply seg_app in Hs as [Hs _]. eapply IH. exact Hs.
Qed.

(** Insertion before the node [l]. *)
Lemma insert_before h xs l w ys a p q v :
  NoDup (locs (xs ++ (l, w) :: ys)) -> seg h None (xs ++ (l, w) :: ys) None -> xs <> [] ->
  h a = Some (Nd p q v) -> ~ In a (locs (xs ++ (l, w) :: ys)) ->
  exists h',
    (do n <- get h (Some l);
     do h <- match n_prev n with None => Ok h | Some _ => put_next h (n_prev n) (Some a) end;
     do h <- put_prev h (Some a) (n_prev n);
     do h <- put_next h (Some a) (Some l);
     put_prev h (Some l) (Some a)) = Ok h' /\
    seg h' None (xs ++ (a, v) :: (l, w) :: ys) None /\
    frame h h' (a :: locs (xs ++ (l, w) :: ys)).
Proof.
  intros Hd Hs Hne Ha Hn. pose proof (seg_at _ _ _ _ _ _ _ Hs) as Hl.
  rewrite (get_ok _ _ _ Hl). cbn [bind n_prev].
  destruct (split_last xs) as [->|(xs' & k & u & ->)]; [contradiction|]. clear Hne.
  rewrite lastp_app in *. cbn [lastp] in *.
  pose proof Hs as Hs0. rewrite <- app_assoc in Hs0. cbn [app] in Hs0.
  pose proof (seg_at _ _ _ _ _ _ _ Hs0) as Hk. cbn [firstp] in Hk.
  assert (Hak : a <> k) by (intros ->; apply Hn; rewrite !locs_app, !in_app_iff; left; right; now left).
  assert (Hal : a <> l) by (intros ->; apply Hn; rewrite !locs_app, !in_app_iff; right; now left).
  assert (Hkl : k <> l).
  { intros ->. rewrite !locs_app in Hd. cbn in Hd. apply NoDup_remove_2 in Hd. apply Hd.
    rewrite !in_app_iff. left. right. now left. }
  rewrite (put_next_ok _ _ _ _ Hk). cbn [bind n_prev n_val n_next].
  erewrite put_prev_ok by (rewrite upd_other by assumption; exact Ha). cbn [bind n_prev n_val n_next].
  erewrite put_next_ok by apply upd_same. cbn [bind n_prev n_val n_next].
  erewrite put_prev_ok by (rewrite !upd_other by congruence; exact Hl). cbn [bind n_prev n_val n_next].
  eexists. split; [reflexivity|]. split.
  - assert (Hd1 : NoDup (locs (xs' ++ [(k, u)]))).
    { rewrite locs_app in Hd. apply nodup_l in Hd. exact Hd. }
    assert (Hnx : ~ In a (locs (xs' ++ [(k, u)]))) by (intros Hi; apply Hn; rewrite locs_app; apply in_app_iff; now left).
    assert (Hlx : ~ In l (locs (xs' ++ [(k, u)]))).
    { rewrite locs_app in Hd. cbn in Hd. apply NoDup_remove_2 in Hd. intros Hi. apply Hd. apply in_app_iff. now left. }
    assert (Hly : ~ In l (locs ys)).
    { rewrite locs_app in Hd. cbn in Hd. apply NoDup_remove_2 in Hd. intros Hi. apply Hd. apply in_app_iff. now right. }
    assert (Hay : ~ In a (locs ys)) by (intros Hi; apply Hn; rewrite locs_app; apply in_app_iff; right; now right).
    assert (Hky : ~ In k (locs ys)).
    { rewrite locs_app in Hd. rewrite locs_app, <- app_assoc in Hd. cbn in Hd. apply NoDup_remove_2 in Hd.
      intros Hi. apply Hd. apply in_app_iff. right. now right. }
    apply seg_app in Hs as [S1 S2]. cbn [firstp] in S1. cbn [seg] in S2. destruct S2 as [_ S3].
    apply seg_app. split.
    + apply seg_upd; [assumption|]. apply seg_upd; [assumption|]. apply seg_upd; [assumption|].
      cbn [firstp]. eapply seg_next; eassumption.
    + rewrite lastp_app. cbn [lastp seg firstp]. split; [rewrite upd_other by congruence; apply upd_same|].
      split; [apply upd_same|]. repeat (apply seg_upd; [assumption|]). exact S3.
  - fr.
Qed.


(** The atom must be fresh as far as [next] goes if it is put at the end of a
    list that is not empty. *)
Lemma insert_atom_ok front h m xs a p q v pos : dll h m xs -> h a = Some (Nd p q v) -> ~ In a (locs xs) ->
  0 <= pos -> (xs <> [] -> zlen xs <= pos -> p = None) ->
  exists h' m', insert_atom front h m a pos = Ok (h', m') /\
    dll h' m' (firstn (Z.to_nat pos) xs ++ (a, v) :: skipn (Z.to_nat pos) xs) /\ frame h h' (a :: locs xs).
Proof.
  intros D Ha Hn Hp Hfr. pose proof D as (Hd & Hh & Ht & Hc & Hs). unfold insert_atom.
  destruct xs as [|[l0 w0] xs0].
  - cbn [firstp] in Hh. rewrite Hh. rewrite (put_next_ok _ _ _ _ Ha). cbn [bind n_prev n_val n_next].
    erewrite put_prev_ok by apply upd_same. cbn [bind n_prev n_val n_next].
    eexists _, _. split; [reflexivity|]. rewrite firstn_nil, skipn_nil. split.
    + repeat split; try reflexivity. repeat constructor; intros []. cbn. rewrite Hc. reflexivity. cbn. apply upd_same.
    + fr.
  - cbn [firstp] in Hh. rewrite Hh. rewrite Hc.
    assert (Hpp : 0 < zlen ((l0, w0) :: xs0)) by (zl; pose proof (zlen_nonneg xs0); lia).
    remember ((l0, w0) :: xs0) as xs eqn:Exs. specialize (Hfr ltac:(rewrite Exs; discriminate)).
    destruct (pos >=? zlen xs) eqn:Epos.
    + rewrite Z.geb_leb in Epos. apply Z.leb_le in Epos. specialize (Hfr Epos). subst p.
      destruct (split_last xs) as [E|(ys & l & w & E)]; [rewrite Exs in E; discriminate|].
      rewrite Ht. replace (lastp xs None) with (Some l) by (rewrite E, lastp_app; reflexivity). cbn [bind].
      assert (Hl : h l = Some (Nd None (lastp ys None) w)) by (rewrite E in Hs; apply seg_at in Hs; exact Hs).
      assert (Hal : a <> l) by (intros ->; apply Hn; rewrite E, locs_app; apply in_app_iff; right; now left).
      rewrite (put_next_ok _ _ _ _ Hl). cbn [bind n_prev n_val n_next].
      erewrite put_prev_ok by (rewrite upd_other by assumption; exact Ha). cbn [bind n_prev n_val n_next].
      eexists _, _. split; [reflexivity|].
      rewrite firstn_all2, skipn_all2 by (unfold zlen in Epos; lia). split.
      * split; [rewrite locs_app; cbn; apply nodup_app_swap; rewrite app_nil_r; assumption|].
        cbn [e_head e_tail e_count]. split; [rewrite firstp_app, Exs; reflexivity|]. split; [rewrite lastp_app; reflexivity|].
        split; [zl; lia|]. apply seg_app. split.
        -- apply seg_upd; [assumption|]. rewrite E in *. cbn [firstp]. apply seg_next with (nxt := None); assumption.
        -- rewrite E. rewrite lastp_app. cbn. split; [apply upd_same|exact I].
      * intros x Hx. rewrite !upd_other; [reflexivity| |]; intros ->; apply Hx; [|now left].
        right. rewrite E, locs_app. apply in_app_iff. right. now left.
    + rewrite Z.geb_leb in Epos. apply Z.leb_gt in Epos.
      destruct (pos =? 0) eqn:E0.
      * apply Z.eqb_eq in E0. subst pos. change (Z.to_nat 0) with O. cbn [firstn skipn app].
        destruct (prepend_atom_ok h m xs a p q v D Ha Hn) as (h' & m' & R & D' & F').
        unfold prepend_atom in R. rewrite Hh in R. rewrite Hc in R. exists h', m'. auto.
      * apply Z.eqb_neq in E0. destruct (insert_list_split xs pos) as (ys & [l w] & zs & E & Hy & Ly); [lia|].
        assert (Lz : zlen xs = pos + 1 + zlen zs) by (rewrite E; zl; lia).
        assert (Haa : (if (pos <? 0) || front then forward h (Some l0) (Z.to_nat pos)
                      else backward h (e_tail m) (Z.to_nat (zlen xs - (pos + 1)))) = Ok (Some l)).
        { destruct (pos <? 0) eqn:En; [lia|]. cbn [orb]. destruct front.
          - replace (Some l0) with (firstp (ys ++ (l, w) :: zs) None) by (rewrite <- E, Exs; reflexivity).
            replace (Z.to_nat pos) with (length ys) by (unfold zlen in Ly; lia).
            rewrite (forward_ok h None ys ((l, w) :: zs) None); [reflexivity|]. rewrite <- E. exact Hs.
          - rewrite Ht, E. replace (ys ++ (l, w) :: zs) with ((ys ++ [(l, w)]) ++ zs) by (rewrite <- app_assoc; reflexivity).
            replace (Z.to_nat (zlen ((ys ++ [(l, w)]) ++ zs) - (pos + 1))) with (length zs)
              by (rewrite <- app_assoc; cbn [app]; rewrite <- E; unfold zlen in Lz; unfold zlen; lia).
            rewrite (backward_ok h None zs (ys ++ [(l, w)]) None); [rewrite lastp_app; reflexivity|].
            rewrite <- app_assoc. cbn [app]. rewrite <- E. exact Hs. }
        rewrite Haa. cbn [bind].
        destruct (insert_before h ys l w zs a p q v) as (h' & R & S' & F'); try (rewrite <- E); try assumption.
        replace (firstn (Z.to_nat pos) xs) with ys
          by (rewrite E; replace (Z.to_nat pos) with (length ys) by (unfold zlen in Ly; lia);
              rewrite firstn_app, Nat.sub_diag, firstn_all; cbn; now rewrite app_nil_r).
        replace (skipn (Z.to_nat pos) xs) with ((l, w) :: zs)
          by (rewrite E; replace (Z.to_nat pos) with (length ys) by (unfold zlen in Ly; lia);
              rewrite skipn_app, Nat.sub_diag, skipn_all; reflexivity).
        exists h', (Ends (Some l0) (e_tail m) (zlen xs + 1)). split; [|split].
        -- destruct (get h (Some l)) as [n| |]; cbn [bind] in *; try discriminate.
           destruct (match n_prev n with None => Ok h | Some _ => _ end) as [h1| |]; cbn [bind] in *; try discriminate.
           destruct (put_prev h1 (Some a) (n_prev n)) as [h2| |]; cbn [bind] in *; try discriminate.
           destruct (put_next h2 (Some a) (Some l)) as [h3| |]; cbn [bind] in *; try discriminate.
           rewrite R. reflexivity.
        -- split; [rewrite locs_app; cbn; apply nodup_app_swap; rewrite E, locs_app in Hd, Hn; assumption|].
           cbn [e_head e_tail e_count]. split; [|split; [|split; [|exact S']]].
           ++ destruct ys as [|[y1 y2] ys]; [contradiction|]. rewrite Exs in E. injection E as -> -> _. reflexivity.
           ++ rewrite Ht, E, !lastp_app. reflexivity.
           ++ rewrite E. zl. lia.
        -- rewrite E. exact F'.
Qed.

(** [xs] is split at the node removed; its links stay. *)
Lemma remove_atom_ok h m xs l v ys : dll h m (xs ++ (l, v) :: ys) ->
  exists h' m', remove_atom h m l = Ok (h', m') /\ dll h' m' (xs ++ ys) /\
    h' l = Some (Nd (firstp ys None) (lastp xs None) v) /\ frame h h' (locs (xs ++ ys)).
Proof.
  intros (Hd & Hh & Ht & Hc & Hs). unfold remove_atom. pose proof (seg_at _ _ _ _ _ _ _ Hs) as Hl.
  rewrite (get_ok _ _ _ Hl). cbn [bind n_next n_prev].
  rewrite locs_app in Hd. cbn in Hd. pose proof (NoDup_remove_1 _ _ _ Hd) as Hd1.
  pose proof (NoDup_remove_2 _ _ _ Hd) as Hd2. fold (locs ys) in Hd1, Hd2.
  assert (Hlx : ~ In l (locs xs)) by (intros Hi; apply Hd2, in_app_iff; now left).
  assert (Hly : ~ In l (locs ys)) by (intros Hi; apply Hd2, in_app_iff; now right).
  apply seg_app in Hs as [S1 S2]. cbn [firstp] in S1. cbn [seg] in S2. destruct S2 as [_ S3].
  assert (Hm : Ends (if ptr_eqb (Some l) (e_head m) then firstp ys None else e_head m)
                    (if ptr_eqb (Some l) (e_tail m) then lastp xs None else e_tail m) (e_count m - 1)
             = Ends (firstp (xs ++ ys) None) (lastp (xs ++ ys) None) (zlen (xs ++ ys))).
  { rewrite Hh, Ht, Hc, firstp_app, !lastp_app. cbn [firstp lastp]. f_equal.
    - destruct xs as [|[x1 x2] xs]; cbn [firstp ptr_eqb]; [now rewrite Z.eqb_refl|].
      destruct (l =? x1) eqn:E; [|reflexivity]. exfalso. apply Hlx. left. cbn. lia.
    - destruct (split_last ys) as [->|(ys' & k & u & ->)]; cbn [lastp ptr_eqb]; [now rewrite Z.eqb_refl|].
      rewrite !lastp_app. cbn [lastp ptr_eqb]. destruct (l =? k) eqn:E; [|reflexivity].
      exfalso. apply Hly. rewrite locs_app, in_app_iff. right. left. cbn. lia.
    - zl. lia. }
  rewrite Hm. clear Hm Hh Ht Hc.
  (* the node behind *)
  assert (Hstep1 : exists h1,
    match firstp ys None with None => Ok h | Some _ => put_prev h (firstp ys None) (lastp xs None) end = Ok h1 /\
    seg h1 (lastp xs None) ys None /\ seg h1 None xs (Some l) /\ h1 l = h l /\ frame h h1 (locs ys)).
  { destruct ys as [|[k u] ys]; cbn [firstp].
    - exists h. repeat split; auto.
    - assert (Hk : h k = Some (Nd (firstp ys None) (Some l) u)) by (cbn in S3; tauto).
      rewrite (put_prev_ok _ _ _ _ Hk). eexists. split; [reflexivity|]. cbn [n_next n_val].
      split; [apply seg_prev with (prv := Some l); [|exact S3]; apply nodup_r in Hd1; exact Hd1|].
      split; [apply seg_upd; [|assumption]|].
      + intros Hi. cbn in Hd1. apply NoDup_remove_2 in Hd1. apply Hd1, in_app_iff. now left.
      + split; [apply upd_other; intros ->; apply Hly; now left|]. fr. }
  destruct Hstep1 as (h1 & R1 & A1 & A2 & A3 & A4). rewrite R1. cbn [bind].
  assert (Hstep2 : exists h2,
    match lastp xs None with None => Ok h1 | Some _ => put_next h1 (lastp xs None) (firstp ys None) end = Ok h2 /\
    seg h2 None (xs ++ ys) None /\ h2 l = h1 l /\ frame h1 h2 (locs xs)).
  { destruct (split_last xs) as [->|(xs' & k & u & ->)].
    - cbn [lastp app] in *. exists h1. repeat split; auto.
    - rewrite lastp_app in *. cbn [lastp] in *.
      pose proof (seg_at _ _ _ _ _ _ _ A2) as Hk. cbn [firstp] in Hk.
      rewrite (put_next_ok _ _ _ _ Hk). cbn [n_prev n_val]. eexists. split; [reflexivity|].
      assert (Hdx : NoDup (locs (xs' ++ [(k, u)]))) by (apply nodup_l in Hd1; exact Hd1).
      split; [apply seg_app; split|].
      + eapply seg_next; eassumption.
      + rewrite lastp_app. cbn [lastp]. apply seg_upd; [|exact A1].
        rewrite locs_app, <- app_assoc in Hd1. cbn in Hd1. apply NoDup_remove_2 in Hd1.
        intros Hi. apply Hd1, in_app_iff. now right.
      + split; [apply upd_other; intros ->; apply Hlx; rewrite locs_app, in_app_iff; right; now left|].
        intros x Hx. apply upd_other. intros ->. apply Hx. rewrite locs_app, in_app_iff. right. now left. }
  destruct Hstep2 as (h2 & R2 & B1 & B2 & B3). rewrite R2. cbn [bind].
  eexists _, _. split; [reflexivity|]. split; [|split].
  - unfold dll. cbn [e_head e_tail e_count]. rewrite locs_app. repeat split; assumption.
  - rewrite B2, A3, Hl. reflexivity.
  - intros x Hx. rewrite locs_app, in_app_iff in Hx. rewrite B3 by tauto. apply A4. tauto.
Qed.

Lemma get_atom_ok h m xs n : dll h m xs -> 0 <= n ->
  get_atom h m n = Ok (option_map fst (nth_error xs (Z.to_nat n))).
Proof.
  intros (Hd & Hh & Ht & Hc & Hs) Hn. unfold get_atom. rewrite Hc.
  destruct (zlen xs <=? n) eqn:E.
  - rewrite (proj2 (nth_error_None xs (Z.to_nat n))); [reflexivity|]. unfold zlen in E. lia.
  - destruct (n =? 0) eqn:E0.
    + assert (n = 0) by lia. subst n. rewrite Hh. destruct xs as [|[]]; reflexivity.
    + destruct (n <? 0) eqn:En; [lia|].
      destruct (insert_list_split xs n) as (ys & [l w] & zs & Ex & Hy & Ly); [lia|].
      replace (Z.to_nat n) with (length ys) by (unfold zlen in Ly; lia).
      rewrite Ex, nth_error_app2, Nat.sub_diag by lia. cbn [nth_error option_map fst].
      rewrite Ht, Ex. replace (ys ++ (l, w) :: zs) with ((ys ++ [(l, w)]) ++ zs) by (rewrite <- app_assoc; reflexivity).
      replace (Z.to_nat (zlen ((ys ++ [(l, w)]) ++ zs) - 1 - n)) with (length zs)
        by (zl; cbn; unfold zlen in *; lia).
      rewrite (backward_ok h None zs (ys ++ [(l, w)]) None); [rewrite lastp_app; reflexivity|].
      rewrite <- app_assoc. cbn [app]. rewrite <- Ex. exact Hs.
Qed.

Lemma free_chain_ok : forall xs k h prv, NoDup (locs xs) -> seg h prv xs None -> (length xs <= k)%nat ->
  exists h', free_chain k h (firstp xs None) = Ok h' /\
    (forall x, In x (locs xs) -> h' x = None) /\ frame h h' (locs xs).
Proof.
  induction xs as [|[l v] xs IH]; intros k h prv Hd Hs Hk.
  - destruct k; exists h; (split; [reflexivity|split; [intros x []|fr]]).
  - destruct k as [|k]; [cbn in Hk; lia|]. cbn [firstp free_chain]. cbn [seg] in Hs. destruct Hs as [H1 H2].
    rewrite (get_ok _ _ _ H1). cbn [bind]. rewrite (free_ok _ _ _ H1). cbn [bind n_next].
    cbn in Hd. inversion Hd as [|? ? N1 N2]; subst. fold (locs xs) in N1, N2.
    destruct (IH k (release h l) (Some l) N2) as (h' & R & A & F); [apply seg_rel; assumption|cbn in Hk; lia|].
    exists h'. split; [exact R|]. split.
    + intros x [<-|Hx]; [|now apply A]. cbn. rewrite F by assumption. apply rel_same.
    + intros x Hx. cbn in Hx. rewrite F by tauto. apply rel_other. intros ->. tauto.
Qed.

(** * osc_linkedlist.c *)

Lemma ll_prepend_ok h m xs l v : dll h m xs -> h l = None ->
  exists h' m', ll_prepend h m l v = Ok (h', m') /\ dll h' m' ((l, v) :: xs) /\ frame h h' (l :: locs xs).
Proof.
  intros D Hl. assert (Hn : ~ In l (locs xs)).
  { intros Hi. destruct D as (_ & _ & _ & _ & Hs). destruct (seg_live _ _ _ _ _ Hs Hi) as (n & E). congruence. }
  pose proof D as (Hd & Hh & Ht & Hc & Hs).
  unfold ll_prepend, elem_alloc. set (h0 := upd h l (Nd None None v)).
  assert (Hs0 : seg h0 None xs None) by (apply seg_upd; assumption).
  assert (Hl0 : h0 l = Some (Nd None None v)) by apply upd_same.
  destruct xs as [|[k u] xs].
  - cbn [firstp] in Hh. rewrite Hh. eexists _, _. split; [reflexivity|]. split.
    + repeat split; try reflexivity; [repeat constructor; intros []|cbn; rewrite Hc; reflexivity|cbn; exact Hl0].
    + unfold h0. fr.
  - cbn [firstp] in Hh. rewrite Hh.
    assert (Hk : h0 k = Some (Nd (firstp xs None) None u)) by (cbn in Hs0; tauto).
    assert (Hkl : l <> k) by (intros ->; apply Hn; now left).
    rewrite (put_prev_ok _ _ _ _ Hk). cbn [bind n_prev n_val n_next].
    erewrite put_next_ok by (rewrite upd_other by assumption; exact Hl0). cbn [bind n_prev n_val n_next].
    erewrite put_prev_ok by apply upd_same. cbn [bind n_prev n_val n_next].
    eexists _, _. split; [reflexivity|]. split.
    + split; [constructor; assumption|]. cbn [e_head e_tail e_count].
      split; [reflexivity|]. split; [rewrite Ht; reflexivity|]. split; [rewrite Hc; zl; lia|].
      cbn [seg]. split; [apply upd_same|]. split.
      * rewrite !upd_other by congruence. apply upd_same.
      * apply seg_upd; [intros Hi; apply Hn; now right|]. apply seg_upd; [intros Hi; apply Hn; now right|].
        apply seg_upd; [now inversion Hd|]. cbn in Hs0. tauto.
    + unfold h0. fr.
Qed.

Lemma ll_append_ok h m xs l v : dll h m xs -> h l = None ->
  exists h' m', ll_append h m l v = Ok (h', m') /\ dll h' m' (xs ++ [(l, v)]) /\ frame h h' (l :: locs xs).
Proof.
  intros D Hl. assert (Hn : ~ In l (locs xs)).
  { intros Hi. destruct D as (_ & _ & _ & _ & Hs). destruct (seg_live _ _ _ _ _ Hs Hi) as (n & E). congruence. }
  pose proof D as (Hd & Hh & Ht & Hc & Hs).
  unfold ll_append, elem_alloc. set (h0 := upd h l (Nd None None v)).
  assert (Hs0 : seg h0 None xs None) by (apply seg_upd; assumption).
  assert (Hl0 : h0 l = Some (Nd None None v)) by apply upd_same.
  destruct (split_last xs) as [->|(ys & k & u & ->)].
  - cbn [lastp] in Ht. rewrite Ht. eexists _, _. split; [reflexivity|]. split.
    + repeat split; try reflexivity; [repeat constructor; intros []|cbn; rewrite Hc; reflexivity|cbn; exact Hl0].
    + unfold h0. fr.
  - rewrite lastp_app in Ht. cbn in Ht. rewrite Ht.
    pose proof (seg_at _ _ _ _ _ _ _ Hs0) as Hk. cbn [firstp] in Hk.
    assert (Hkl : l <> k) by (intros ->; apply Hn; rewrite locs_app, in_app_iff; right; now left).
    rewrite (put_next_ok _ _ _ _ Hk). cbn [bind n_prev n_val n_next].
    erewrite put_next_ok by (rewrite upd_other by assumption; exact Hl0). cbn [bind n_prev n_val n_next].
    erewrite put_prev_ok by apply upd_same. cbn [bind n_prev n_val n_next].
    eexists _, _. split; [reflexivity|]. split.
    + split; [rewrite locs_app; cbn; apply nodup_app_swap; rewrite app_nil_r; assumption|].
      cbn [e_head e_tail e_count]. split; [rewrite Hh, !firstp_app; destruct ys as [|[]]; reflexivity|].
      split; [rewrite lastp_app; reflexivity|]. split; [rewrite Hc; zl; lia|].
      apply seg_app. split.
      * apply seg_upd; [assumption|]. apply seg_upd; [assumption|]. cbn [firstp]. eapply seg_next; eassumption.
      * rewrite lastp_app. cbn. split; [apply upd_same|exact I].
    + unfold h0. fr.
Qed.

Lemma ll_unlink_remove h m l : ll_unlink h m l =
  do ' (h', m') <- remove_atom h m l;
  do h' <- put_prev h' (Some l) None; do h' <- put_next h' (Some l) None; Ok (h', m').
Proof.
  unfold ll_unlink, remove_atom. destruct (get h (Some l)) as [n| |]; cbn [bind]; try reflexivity.
  destruct (match n_next n with None => Ok h | Some _ => _ end) as [h1| |]; cbn [bind]; try reflexivity.
  destruct (match n_prev n with None => Ok h1 | Some _ => _ end) as [h2| |]; cbn [bind]; try reflexivity.
  destruct (put_prev h2 (Some l) None) as [h3| |]; cbn [bind]; try reflexivity.
  destruct (put_next h3 (Some l) None) as [h4| |]; cbn [bind]; try reflexivity.
  unfold ptr_eqb. do 3 f_equal.
  - destruct (e_head m) as [x|]; [|reflexivity]. rewrite Z.eqb_sym. reflexivity.
  - destruct (e_tail m) as [x|]; [|reflexivity]. rewrite Z.eqb_sym. reflexivity.
Qed.

Lemma ll_unlink_ok h m xs l v ys : dll h m (xs ++ (l, v) :: ys) ->
  exists h' m', ll_unlink h m l = Ok (h', m') /\ dll h' m' (xs ++ ys) /\
    h' l = Some (Nd None None v) /\ frame h h' (locs (xs ++ (l, v) :: ys)).
Proof.
  intros D. rewrite ll_unlink_remove. destruct (remove_atom_ok _ _ _ _ _ _ D) as (h1 & m1 & R & D1 & L1 & F1).
  rewrite R. cbn [bind]. rewrite (put_prev_ok _ _ _ _ L1). cbn [bind n_next n_val].
  erewrite put_next_ok by apply upd_same. cbn [bind n_prev n_val].
  destruct D as (Hd & _). rewrite locs_app in Hd. cbn in Hd. apply NoDup_remove_2 in Hd.
  fold (locs ys) in Hd. rewrite <- locs_app in Hd.
  eexists _, _. split; [reflexivity|]. split; [|split].
  - eapply dll_same; [|exact D1]. intros x Hx. rewrite !upd_other; [reflexivity| |]; intros ->; contradiction.
  - apply upd_same.
  - intros x Hx. rewrite locs_app, in_app_iff in Hx. cbn in Hx.
    rewrite !upd_other by (intros ->; tauto). apply F1. rewrite locs_app, in_app_iff. fold (locs ys) in *. tauto.
Qed.

Lemma ll_pop_ok h m xs l v ys : dll h m (xs ++ (l, v) :: ys) ->
  exists h' m', ll_pop h m (Some l) = Ok (h', m', Some v) /\ dll h' m' (xs ++ ys) /\
    h' l = None /\ frame h h' (locs (xs ++ (l, v) :: ys)).
Proof.
  intros D. destruct (ll_unlink_ok _ _ _ _ _ _ D) as (h1 & m1 & R & D1 & L1 & F1).
  unfold ll_pop. rewrite R. cbn [bind]. rewrite (get_ok _ _ _ L1). cbn [bind].
  rewrite (free_ok _ _ _ L1). cbn [bind n_val].
  destruct D as (Hd & _). rewrite locs_app in Hd. cbn in Hd. apply NoDup_remove_2 in Hd.
  fold (locs ys) in Hd. rewrite <- locs_app in Hd.
  eexists _, _. split; [reflexivity|]. split; [|split].
  - eapply dll_same; [|exact D1]. intros x Hx. apply rel_other. intros ->. contradiction.
  - apply rel_same.
  - intros x Hx. rewrite rel_other; [now apply F1|]. intros ->. apply Hx. rewrite locs_app, in_app_iff. right. now left.
Qed.

Lemma seek_forward_ok h n : forall xs k prv i, seg h prv xs None -> (length xs < k)%nat -> i <= n ->
  seek_forward k h (firstp xs None) i n = Ok (option_map fst (nth_error xs (Z.to_nat (n - i)))).
Proof.
  induction xs as [|[l v] xs IH]; intros k prv i Hs Hk Hi; destruct k as [|k]; try (cbn in Hk; lia).
  - cbn [firstp seek_forward]. destruct (Z.to_nat (n - i)); reflexivity.
  - cbn [firstp seek_forward]. cbn [seg] in Hs. destruct Hs as [H1 H2].
    destruct (i =? n) eqn:E.
    + replace (Z.to_nat (n - i)) with O by lia. reflexivity.
    + rewrite (get_ok _ _ _ H1). cbn [bind n_next]. rewrite (IH k (Some l)); [|assumption|cbn in Hk; lia|lia].
      replace (Z.to_nat (n - i)) with (S (Z.to_nat (n - (i + 1)))) by lia. reflexivity.
Qed.

Lemma seek_backward_ok h n : forall xs k nxt, seg h None xs nxt -> (length xs < k)%nat ->
  seek_backward k h (lastp xs None) (zlen xs - 1) n =
  Ok (if (0 <=? n) && (n <? zlen xs) then option_map fst (nth_error xs (Z.to_nat n)) else None).
Proof.
  intros xs. induction xs as [|[l v] xs IH] using rev_ind; intros k nxt Hs Hk; destruct k as [|k]; try lia.
  - cbn [lastp seek_backward]. change (zlen (@nil (Z * V))) with 0. destruct (_ && _) eqn:E; [lia|reflexivity].
  - rewrite lastp_app. cbn [lastp seek_backward]. zl. rewrite app_length in Hk. cbn in Hk.
    pose proof (zlen_nonneg xs). replace (zlen xs + (1 + 0) - 1) with (zlen xs) by lia.
    destruct (zlen xs =? n) eqn:E.
    + assert (n = zlen xs) by lia. subst n.
      replace (0 <=? zlen xs) with true by lia. replace (zlen xs <? zlen xs + (1 + 0)) with true by lia. cbn [andb].
      rewrite nth_error_app2 by (unfold zlen; lia). unfold zlen. rewrite Nat2Z.id, Nat.sub_diag. reflexivity.
    + pose proof (seg_at _ _ _ _ _ _ _ Hs) as Hl. rewrite (get_ok _ _ _ Hl). cbn [bind n_prev].
      apply seg_app in Hs as [Hs _]. rewrite (IH k _ Hs) by lia. f_equal.
      destruct ((0 <=? n) && (n <? zlen xs)) eqn:E2.
      * replace ((0 <=? n) && (n <? zlen xs + (1 + 0))) with true by lia.
        rewrite nth_error_app1; [reflexivity|]. unfold zlen in E2. lia.
      * replace ((0 <=? n) && (n <? zlen xs + (1 + 0))) with false by lia. reflexivity.
Qed.

Lemma lastp_nth xs : lastp xs None = match xs with [] => None | _ => option_map fst (nth_error xs (length xs - 1)) end.
Proof.
  destruct (split_last xs) as [->|(ys & l & v & ->)]; [reflexivity|]. rewrite lastp_app. cbn [lastp].
  destruct (ys ++ [(l, v)]) eqn:E; [destruct ys; discriminate|]. rewrite <- E. rewrite app_length. cbn [length].
  replace (length ys + 1 - 1)%nat with (length ys) by lia. rewrite nth_error_app2, Nat.sub_diag by lia. reflexivity.
Qed.

(** What an index selects: the last element for -1. *)
Definition index_of (len n : Z) : option nat :=
  if (0 <=? n) && (n <? len) then Some (Z.to_nat n)
  else if (n =? -1) && (0 <? len) then Some (Z.to_nat (len - 1)) else None.

Lemma ll_nth_ok h m xs n : dll h m xs -> zlen xs < 2^31 -> - 2^31 <= n < 2^31 ->
  ll_nth h m n = Ok (match index_of (zlen xs) n with
                     | Some i => option_map fst (nth_error xs i)
                     | None => None
                     end).
Proof.
  intros (Hd & Hh & Ht & Hc & Hs) Hlen Hn. unfold ll_nth, index_of. rewrite Hc, Hh, Ht.
  pose proof (zlen_nonneg xs) as H0.
  destruct (n =? 0) eqn:E0.
  { assert (n = 0) by lia. subst n. destruct xs as [|[l v] xs]; [reflexivity|].
    assert (E1 : (0 <? zlen ((l, v) :: xs)) = true) by (zl; pose proof (zlen_nonneg xs); lia).
    rewrite E1. reflexivity. }
  assert (Hu : (u64 n =? u64 (zlen xs - 1)) = (n =? zlen xs - 1)).
  { unfold u64. destruct (n =? zlen xs - 1) eqn:E.
    - assert (n = zlen xs - 1) by lia. subst n. apply Z.eqb_refl.
    - apply Z.eqb_neq. intros Hm. apply Z.eqb_neq in E. apply E.
      Z.div_mod_to_equations. lia. }
  rewrite Hu. destruct ((n =? zlen xs - 1) || (n =? -1)) eqn:E1.
  - rewrite lastp_nth. destruct xs as [|x xs].
    + change (zlen (@nil (Z * V))) with 0 in *. replace ((0 <=? n) && (n <? 0)) with false by lia.
      replace ((n =? -1) && (0 <? 0)) with false by lia. reflexivity.
    + set (ys := x :: xs) in *. assert (Hp : 0 < zlen ys) by (unfold ys; zl; pose proof (zlen_nonneg xs); lia).
      destruct ((0 <=? n) && (n <? zlen ys)) eqn:E2.
      * do 2 f_equal. unfold zlen in *. f_equal. lia.
      * replace ((n =? -1) && (0 <? zlen ys)) with true by lia. do 2 f_equal. unfold zlen in *. f_equal. lia.
  - replace ((n =? -1) && (0 <? zlen xs)) with false by lia.
    destruct (u64 n <? zlen xs / 2) eqn:E3.
    + assert (Hpos : 0 <= n).
      { destruct (Z_lt_dec n 0); [|lia]. exfalso. unfold u64 in E3.
        replace (n mod 2^64) with (n + 2^64) in E3 by (symmetry; rewrite <- (Z.mod_small (n + 2^64) (2^64)) by lia; rewrite <- (Z_mod_plus_full n 1); f_equal; lia).
        Z.div_mod_to_equations. lia. }
      rewrite (seek_forward_ok h n xs _ None 0); [|assumption|unfold zlen; lia|assumption].
      unfold u64 in E3. rewrite Z.mod_small in E3 by lia.
      replace ((0 <=? n) && (n <? zlen xs)) with true by (Z.div_mod_to_equations; lia).
      rewrite Z.sub_0_r. reflexivity.
    + assert (Hs32 : s32 (zlen xs - 1) = zlen xs - 1).
      { unfold s32. rewrite Z.mod_small; lia. }
      rewrite Hs32. rewrite (seek_backward_ok h n xs _ None); [|assumption|unfold zlen; lia].
      destruct ((0 <=? n) && (n <? zlen xs)); reflexivity.
Qed.

Lemma index_of_lt len n i : 0 <= len -> index_of len n = Some i -> (Z.of_nat i < len).
Proof. unfold index_of. intros H. destruct ((0 <=? n) && (n <? len)) eqn:E; [|destruct ((n =? -1) && (0 <? len)) eqn:E2]; intros H1; try discriminate; assert (E3 := f_equal (fun o => match o with Some j => j | None => O end) H1); cbv beta iota in E3; lia. Qed.

Lemma ll_iterate_ok h : forall xs k prv i, seg h prv xs None -> (length xs <= k)%nat ->
  ll_iterate k h (firstp xs None) i = Ok (combine (map (fun j => i + Z.of_nat j) (seq 0 (length xs))) (map snd xs)).
Proof.
  induction xs as [|[l v] xs IH]; intros k prv i Hs Hk; [destruct k; reflexivity|].
  destruct k as [|k]; [cbn in Hk; lia|]. cbn [firstp ll_iterate]. cbn [seg] in Hs. destruct Hs as [H1 H2].
  rewrite (get_ok _ _ _ H1). cbn [bind n_next n_val]. rewrite (IH k (Some l)); [|assumption|cbn in Hk; lia].
  cbn [bind length seq map combine snd]. rewrite Z.add_0_r. do 3 f_equal.
  rewrite <- seq_shift, map_map. apply map_ext. intros j. lia.
Qed.

End Dll.
