(** Facts about the message list of an unserialized bundle. *)

From Coq Require Import ZArith List Bool Lia.
From Verif Require Import Base BaseProofs HeapModel HeapSpec HeapProofs HeapProps BundleUModel BundleUSpec.
Import ListNotations.
Open Scope Z_scope.

Lemma bytes_eqb_spec a b : bytes_eqb a b = true <-> a = b.
Proof. unfold bytes_eqb. destruct (list_eq_dec Z.eq_dec a b); split; congruence. Qed.

Section BundleList.
Context {A : Type}.
Notation msg := (message A).
Implicit Types (h : heap msg) (b : ends) (xs ys : list (Z * msg)).

Definition bdll h b xs (e : Z) : Prop :=
  NoDup (locs xs) /\ e_head b = firstp xs None /\
  (e_tail b = lastp xs None \/ e_tail b = None /\ (length xs <= 1)%nat) /\
  e_count b = zlen xs + e /\ seg h None xs None.

Lemma bdll_dll h b xs e : bdll h b xs e -> dll h (Ends (firstp xs None) (lastp xs None) (zlen xs)) xs.
Proof. intros (H1 & _ & _ & _ & H5). repeat split; assumption. Qed.

Lemma bdll_same h h' b xs e : (forall x, In x (locs xs) -> h' x = h x) -> bdll h b xs e -> bdll h' b xs e.
Proof. intros He (H1 & H2 & H3 & H4 & H5). repeat split; try assumption. eapply seg_same; eauto. Qed.

Lemma remove_msg_atom h b m :
  remove_msg h b m = do ' (h', b') <- remove_atom h b m; Ok (h', Ends (e_head b') (e_tail b') (e_count b)).
Proof.
  unfold remove_msg, remove_atom. destruct (get h (Some m)) as [n| |]; cbn [bind]; try reflexivity.
  destruct (match n_next n with None => Ok h | Some _ => _ end) as [h1| |]; cbn [bind]; try reflexivity.
  destruct (match n_prev n with None => Ok h1 | Some _ => _ end) as [h2| |]; cbn [bind]; reflexivity.
Qed.

(** The heap that remove_atom leaves does not depend on the ends. *)
Lemma remove_atom_ends h b b2 m h' b' : remove_atom h b m = Ok (h', b') ->
  exists n, get h (Some m) = Ok n /\
    remove_atom h b2 m = Ok (h', Ends (if ptr_eqb (Some m) (e_head b2) then n_next n else e_head b2)
                                      (if ptr_eqb (Some m) (e_tail b2) then n_prev n else e_tail b2) (e_count b2 - 1)).
Proof.
  unfold remove_atom. destruct (get h (Some m)) as [n| |]; cbn [bind]; try discriminate. intros R. exists n.
  split; [reflexivity|].
  destruct (match n_next n with None => Ok h | Some _ => _ end) as [h1| |]; cbn [bind] in *; try discriminate.
  destruct (match n_prev n with None => Ok h1 | Some _ => _ end) as [h2| |]; cbn [bind] in *; try discriminate.
  congruence.
Qed.

Lemma remove_msg_ok h b xs l v ys e : bdll h b (xs ++ (l, v) :: ys) e ->
  exists h' b', remove_msg h b l = Ok (h', b') /\ bdll h' b' (xs ++ ys) (e + 1) /\
    (exists p q, h' l = Some (Nd p q v)) /\ frame h h' (locs (xs ++ ys)).
Proof.
  intros D. pose proof (bdll_dll _ _ _ _ D) as D0.
  destruct (remove_atom_ok _ _ _ _ _ _ D0) as (h' & m' & R & D' & L & F).
  destruct D as (Hd & Hh & Ht & Hc & Hs).
  destruct (remove_atom_ends _ _ b _ _ _ R) as (n & Hg & Rb).
  rewrite remove_msg_atom, Rb. cbn [bind e_head e_tail].
  eexists _, _. split; [reflexivity|]. split; [|split; [eauto|assumption]].
  pose proof D' as (Hd' & Hh' & Ht' & _ & Hs').
  unfold remove_atom in R. rewrite Hg in R. cbn [bind] in R.
  destruct (match n_next n with None => Ok h | Some _ => _ end) as [h1| |]; cbn [bind] in R; try discriminate.
  destruct (match n_prev n with None => Ok h1 | Some _ => _ end) as [h2| |]; cbn [bind] in R; try discriminate.
  injection R as -> <-. cbn [e_head e_tail e_count] in *.
  split; [assumption|]. cbn [e_head e_tail e_count]. split; [rewrite Hh; exact Hh'|].
  split; [|split; [rewrite Hc; zl; lia|assumption]].
  destruct Ht as [Ht|[Ht Hl]].
  - left. rewrite Ht. exact Ht'.
  - right. rewrite Ht. cbn [ptr_eqb]. split; [reflexivity|]. rewrite app_length in *. cbn in Hl. lia.
Qed.

Lemma link_msg_ok h b xs a p q v e : bdll h b xs e -> h a = Some (Nd p q v) -> ~ In a (locs xs) ->
  exists h' b', link_msg h b a = Ok (h', b') /\ bdll h' b' (xs ++ [(a, v)]) e /\ frame h h' (a :: locs xs).
Proof.
  intros D Ha Hn. pose proof (bdll_dll _ _ _ _ D) as D0. pose proof D as (Hd & Hh & Ht & Hc & Hs).
  assert (Hd' : NoDup (locs (xs ++ [(a, v)]))).
  { rewrite locs_app. cbn. apply nodup_app_swap; rewrite app_nil_r; assumption. }
  unfold link_msg. destruct (split_last xs) as [->|(ys & l & w & ->)].
  - cbn [firstp] in Hh. rewrite Hh. rewrite (put_next_ok _ _ _ _ Ha). cbn [bind n_prev n_val n_next].
    erewrite put_prev_ok by apply upd_same. cbn [bind n_prev n_val n_next].
    eexists _, _. split; [reflexivity|]. split.
    + split; [assumption|]. split; [reflexivity|]. split; [right; split; [reflexivity|cbn; lia]|].
      split; [cbn [e_count]; rewrite Hc; zl; lia|]. cbn. split; [apply upd_same|exact I].
    + intros x Hx. cbn in Hx. rewrite !upd_other by (intros ->; tauto). reflexivity.
  - assert (Hl : h l = Some (Nd None (lastp ys None) w)) by (apply seg_at in Hs; exact Hs).
    assert (Hal : a <> l) by (intros ->; apply Hn; rewrite locs_app; apply in_app_iff; right; now left).
    assert (Hlast : lastp (ys ++ [(l, w)]) None = Some l) by (rewrite lastp_app; reflexivity).
    assert (Hz : exists z, e_head b = Some z) by (rewrite Hh; destruct ys as [|[]]; cbn; eauto).
    destruct Hz as (z & Hz).
    assert (G : forall h', h' l = Some (Nd (Some a) (lastp ys None) w) -> h' a = Some (Nd None (Some l) v) ->
      (forall x, x <> a -> x <> l -> h' x = h x) ->
      bdll h' (Ends (e_head b) (Some a) (e_count b + 1)) ((ys ++ [(l, w)]) ++ [(a, v)]) e /\
      frame h h' (a :: locs (ys ++ [(l, w)]))).
    { intros h' E1 E2 E3. split.
      - split; [assumption|]. cbn [e_head e_tail e_count]. split; [rewrite Hh; rewrite !firstp_app; destruct ys as [|[]]; reflexivity|].
        split; [left; rewrite lastp_app; reflexivity|]. split; [rewrite Hc; zl; lia|].
        apply seg_app. split; [|rewrite Hlast; cbn; split; [exact E2|exact I]].
        apply seg_app in Hs as [S1 S2]. apply seg_app. cbn [firstp] in *. split.
        + rewrite locs_app in Hd, Hn. cbn in Hd. apply NoDup_remove_2 in Hd. rewrite app_nil_r in Hd.
          eapply seg_same; [|exact S1]. intros x Hx. apply E3; intros ->; [|contradiction].
          apply Hn. apply in_app_iff. now left.
        + cbn. split; [exact E1|exact I].
      - intros x Hx. cbn in Hx. rewrite locs_app, in_app_iff in Hx. cbn in Hx. apply E3; intros ->; tauto. }
    rewrite Hz. destruct Ht as [Ht|[Ht Hle]].
    + rewrite Ht, Hlast.
      erewrite put_prev_ok by exact Ha. cbn [bind n_prev n_val n_next].
      erewrite put_next_ok by apply upd_same. cbn [bind n_prev n_val n_next].
      erewrite put_next_ok by (rewrite !upd_other by congruence; exact Hl). cbn [bind n_prev n_val n_next].
      eexists _, _. split; [reflexivity|]. rewrite Hz in G. apply G.
      * apply upd_same.
      * rewrite upd_other by congruence. apply upd_same.
      * intros x N1 N2. rewrite !upd_other by congruence. reflexivity.
    + destruct ys as [|y ys]; [|rewrite app_length in Hle; cbn in Hle; lia].
      cbn [app firstp] in Hh. rewrite Ht.
      assert (z = l) by congruence. subst z.
      erewrite put_next_ok by exact Hl. cbn [bind n_prev n_val n_next].
      erewrite put_prev_ok by (rewrite upd_other by congruence; exact Ha). cbn [bind n_prev n_val n_next].
      erewrite put_next_ok by apply upd_same. cbn [bind n_prev n_val n_next].
      eexists _, _. split; [reflexivity|]. rewrite Hz in G. apply G.
      * rewrite !upd_other by congruence. apply upd_same.
      * apply upd_same.
      * intros x N1 N2. rewrite !upd_other by congruence. reflexivity.
Qed.

(** What a removal loop has to bring about. *)
Definition removes (f : Z * msg -> bool) h b ds ts (e : Z) (r : res (heap msg * ends)) : Prop :=
  exists h' b', r = Ok (h', b') /\ bdll h' b' (ds ++ filter (fun x => negb (f x)) ts) e /\
    (forall x, In x (locs (filter f ts)) -> h' x = None) /\ frame h h' (locs (ds ++ ts)).

Lemma removes_skip f h b ds l v ts e r : f (l, v) = false ->
  removes f h b (ds ++ [(l, v)]) ts e r -> removes f h b ds ((l, v) :: ts) e r.
Proof.
  intros Hf (h' & b' & R & D & N & F). exists h', b'. cbn [filter]. rewrite Hf. cbn [negb].
  rewrite <- app_assoc in D, F. cbn [app] in D, F. auto.
Qed.

Lemma locs_filter_in f (ts : list (Z * msg)) x : In x (locs (filter f ts)) -> In x (locs ts).
Proof. intros H. apply in_locs in H as (v & H). apply filter_In in H as [H _]. apply in_map_iff. exists (x, v). auto. Qed.

Lemma removes_hit f h b ds l v ts e h1 b1 p q (step : heap msg -> res (heap msg * ends)) :
  f (l, v) = true -> bdll h b (ds ++ (l, v) :: ts) e ->
  bdll h1 b1 (ds ++ ts) (e + 1) -> h1 l = Some (Nd p q v) -> frame h h1 (locs (ds ++ ts)) ->
  (bdll (release h1 l) (drop_count b1) (ds ++ ts) e -> removes f (release h1 l) (drop_count b1) ds ts e (step (release h1 l))) ->
  removes f h b ds ((l, v) :: ts) e (do h2 <- free h1 (Some l); step h2).
Proof.
  intros Hf D D1 L1 F1 IH. rewrite (free_ok _ _ _ L1). cbn [bind].
  assert (Hn : ~ In l (locs (ds ++ ts))).
  { destruct D as (Hd & _). rewrite locs_app in Hd. cbn in Hd. apply NoDup_remove_2 in Hd. rewrite locs_app. exact Hd. }
  destruct IH as (h' & b' & R & D' & N & F).
  { destruct D1 as (Q1 & Q2 & Q3 & Q4 & Q5). split; [assumption|]. cbn [drop_count e_head e_tail e_count].
    split; [assumption|]. split; [assumption|]. split; [lia|]. apply seg_rel; assumption. }
  exists h', b'. cbn [filter]. rewrite Hf. cbn [negb]. split; [assumption|]. split; [assumption|]. split.
  - intros x [<-|Hx]; [|now apply N]. cbn. rewrite F by assumption. apply rel_same.
  - intros x Hx. rewrite locs_app, in_app_iff in Hx. cbn in Hx.
    rewrite F by (rewrite locs_app, in_app_iff; unfold locs in *; tauto).
    rewrite rel_other by (intros ->; tauto). apply F1. rewrite locs_app, in_app_iff. unfold locs in *. tauto.
Qed.

Lemma removes_nil f h b ds e : bdll h b ds e -> removes f h b ds [] e (Ok (h, b)).
Proof.
  intros D. exists h, b. cbn [filter]. rewrite app_nil_r. split; [reflexivity|]. split; [assumption|].
  split; [intros x []|]. intros x _. reflexivity.
Qed.

Lemma remove_dups_ok a : forall ts k h b ds e, bdll h b (ds ++ ts) e -> (length ts <= k)%nat ->
  removes (address_is a) h b ds ts e (remove_dups k h b (firstp ts None) a).
Proof.
  induction ts as [|[l v] ts IH]; intros k h b ds e D Hk.
  - rewrite app_nil_r in D. destruct k; now apply removes_nil.
  - destruct k as [|k]; [cbn in Hk; lia|]. cbn [firstp remove_dups].
    pose proof D as (_ & _ & _ & _ & Hs). apply seg_at in Hs. rewrite (get_ok _ _ _ Hs). cbn [bind n_val n_next].
    assert (Skip : address_is a (l, v) = false ->
      removes (address_is a) h b ds ((l, v) :: ts) e (remove_dups k h b (firstp ts None) a)).
    { intros Hf. apply removes_skip; [assumption|]. apply IH; [rewrite <- app_assoc; exact D|cbn in Hk; lia]. }
    unfold address_is in Skip at 1. cbn [snd] in Skip.
    destruct (m_address v) as [a'|] eqn:Ea; [|now apply Skip].
    destruct (bytes_eqb a a') eqn:Eb; [|now apply Skip].
    destruct (remove_msg_ok _ _ _ _ _ _ _ D) as (h1 & b1 & R1 & D1 & (p & q & L1) & F1). rewrite R1. cbn [bind].
    eapply (removes_hit (address_is a) h b ds l v ts e h1 b1 p q (fun h2 => remove_dups k h2 (drop_count b1) (firstp ts None) a));
      try eassumption; [unfold address_is; cbn [snd]; now rewrite Ea|].
    intros D2. apply IH; [assumption|cbn in Hk; lia].
Qed.

Lemma remove_message_ok a : forall ts k h b ds e, bdll h b (ds ++ ts) e -> (length ts <= k)%nat ->
  (forall x, In x ts -> m_address (snd x) <> None) ->
  removes (address_is a) h b ds ts e (remove_message k h b (firstp ts None) a).
Proof.
  induction ts as [|[l v] ts IH]; intros k h b ds e D Hk Ha.
  - rewrite app_nil_r in D. destruct k; now apply removes_nil.
  - destruct k as [|k]; [cbn in Hk; lia|]. cbn [firstp remove_message].
    pose proof D as (_ & _ & _ & _ & Hs). apply seg_at in Hs. rewrite (get_ok _ _ _ Hs). cbn [bind n_val n_next].
    pose proof (Ha (l, v) ltac:(now left)) as Hv. cbn [snd] in Hv.
    assert (Ha' : forall x, In x ts -> m_address (snd x) <> None) by (intros x Hx; apply Ha; now right).
    destruct (m_address v) as [a'|] eqn:Ea; [|contradiction].
    destruct (bytes_eqb a a') eqn:Eb.
    + destruct (remove_msg_ok _ _ _ _ _ _ _ D) as (h1 & b1 & R1 & D1 & (p & q & L1) & F1). rewrite R1. cbn [bind].
      eapply (removes_hit (address_is a) h b ds l v ts e h1 b1 p q (fun h2 => remove_message k h2 (drop_count b1) (firstp ts None) a));
        try eassumption; [unfold address_is; cbn [snd]; now rewrite Ea|].
      intros D2. apply IH; [assumption|cbn in Hk; lia|assumption].
    + apply removes_skip; [unfold address_is; cbn [snd]; now rewrite Ea|].
      apply IH; [rewrite <- app_assoc; exact D|cbn in Hk; lia|assumption].
Qed.

Lemma locs_replace f v : forall xs, locs (replace_first f v xs) = locs xs.
Proof. induction xs as [|[l w] xs IH]; [reflexivity|]. cbn. destruct (f (l, w)); cbn; [reflexivity|]. f_equal. exact IH. Qed.

Lemma firstp_locs xs ys nxt : locs xs = locs ys -> firstp xs nxt = firstp ys nxt.
Proof. destruct xs as [|[]], ys as [|[]]; cbn; congruence. Qed.

(** Replacing the first message with the address: either there is none, or the
    heap changes as it should. *)
Lemma replace_dup_ok a mm v : forall ts k h prv, seg h prv ts None -> NoDup (locs ts) -> (length ts <= k)%nat ->
  (forall x, In x ts -> m_address (snd x) <> None) -> ~ In mm (locs ts) -> h mm <> None ->
  if existsb (address_is a) ts then
    exists h' : heap msg, replace_dup k h (firstp ts None) a mm v = Ok (Some h') /\
      seg h' prv (replace_first (address_is a) v ts) None /\ h' mm = None /\ frame h h' (mm :: locs ts)
  else replace_dup k h (firstp ts None) a mm v = Ok None.
Proof.
  induction ts as [|[l w] ts IH]; intros k h prv Hs Hd Hk Ha Hm Hh.
  - destruct k; reflexivity.
  - destruct k as [|k]; [cbn in Hk; lia|]. cbn [firstp replace_dup].
    cbn [seg] in Hs. destruct Hs as [H1 H2]. rewrite (get_ok _ _ _ H1). cbn [bind n_val n_next n_prev].
    pose proof (Ha (l, w) ltac:(now left)) as Hw. cbn [snd] in Hw.
    assert (Ha' : forall x, In x ts -> m_address (snd x) <> None) by (intros x Hx; apply Ha; now right).
    cbn in Hd. inversion Hd as [|? ? N1 N2]; subst. fold (locs ts) in N1, N2.
    assert (Hml : mm <> l) by (intros ->; apply Hm; now left).
    assert (Hmt : ~ In mm (locs ts)) by (intros Hi; apply Hm; now right).
    destruct (m_address w) as [a'|] eqn:Ea; [|contradiction].
    assert (Ef : address_is a (l, w) = bytes_eqb a a') by (unfold address_is; cbn [snd]; now rewrite Ea).
    cbn [existsb replace_first]. rewrite Ef. cbn [fst].
    destruct (bytes_eqb a a') eqn:Eb; cbn [orb].
    + destruct (h mm) as [nm|] eqn:Em; [|contradiction].
      erewrite free_ok by (rewrite upd_other by assumption; exact Em). cbn [bind].
      eexists. split; [reflexivity|]. split; [|split; [apply rel_same|]].
      * cbn [seg]. split; [rewrite rel_other by congruence; apply upd_same|].
        apply seg_rel; [assumption|]. apply seg_upd; assumption.
      * intros x Hx. cbn in Hx. rewrite rel_other by (intros ->; tauto). apply upd_other. intros ->. tauto.
    + specialize (IH k h (Some l) H2 N2 ltac:(cbn in Hk; lia) Ha' Hmt Hh).
      destruct (existsb (address_is a) ts); [|exact IH].
      destruct IH as (h' & R & S' & M' & F'). exists h'. split; [assumption|]. split; [|split; [assumption|]].
      * cbn [seg]. split; [|assumption]. rewrite F' by (cbn; intuition congruence).
        rewrite H1. do 2 f_equal. symmetry. apply firstp_locs, locs_replace.
      * intros x Hx. apply F'. cbn in *. tauto.
Qed.

Lemma firstp_last_locs xs ys prv : locs xs = locs ys -> lastp xs prv = lastp ys prv.
Proof.
  revert ys prv. induction xs as [|[l v] xs IH]; intros [|[k u] ys] prv E; try discriminate; [reflexivity|].
  cbn in *. injection E as -> E. now apply IH.
Qed.

End BundleList.
