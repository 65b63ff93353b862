(** C26: the message list of an unserialized bundle, over all histories of
    operations. *)

From Coq Require Import ZArith List Bool Lia.
From Verif Require Import Base BaseProofs HeapModel HeapSpec HeapProofs HeapProps BundleUModel BundleUSpec BundleUProofs.
Import ListNotations.
Open Scope Z_scope.

Section Facts.
Context {A : Type}.
Notation msg := (message A).
Implicit Types (h : heap msg) (b : ends) (s : bundle_spec A).

(** A step of the code; the loops are given as much fuel as the count says,
    and the count is never too low. *)
Definition msg_step (k : nat) h b (o : msg_op A) : res (heap msg * ends) :=
  match o with
  | NewMsg l v => Ok (elem_alloc h l v, b)
  | Add l _ => add_msg h b l
  | AddNoDups l _ => add_msg_without_dups k h b l
  | Replace l _ => replace_message k h b l
  | RemoveAddress a => remove_message k h b (e_head b) a
  | RemoveMsg l => remove_msg h b l
  | FreeMsg l => do h <- free h (Some l); Ok (h, b)
  | ClearBundle => bundle_clear k h b
  end.

Definition binv h b s : Prop :=
  bdll h b (msgs s) (excess s) /\
  (forall l, ~ In l (locs (msgs s)) -> value h l = loose s l) /\
  (forall l, In l (locs (msgs s)) -> loose s l = None).

Lemma value_at_in (xs : list (Z * msg)) l v : NoDup (locs xs) -> In (l, v) xs -> value_at l xs = Some v.
Proof.
  induction xs as [|[k u] xs IH]; intros Hd Hi; [destruct Hi|]. cbn in *. inversion Hd as [|? ? N1 N2]; subst.
  destruct Hi as [[= -> ->]|Hi]; [now rewrite Z.eqb_refl|].
  destruct (l =? k) eqn:E; [|now apply IH]. exfalso. apply N1. assert (l = k) by lia. subst.
  apply in_map_iff. exists (k, v). auto.
Qed.
Lemma value_at_none (xs : list (Z * msg)) l : ~ In l (locs xs) -> value_at l xs = None.
Proof.
  induction xs as [|[k u] xs IH]; intros Hn; [reflexivity|]. cbn in *.
  destruct (l =? k) eqn:E; [exfalso; apply Hn; left; lia|]. apply IH. tauto.
Qed.

Lemma bdll_value h b xs e l v : bdll h b xs e -> In (l, v) xs -> value h l = Some v.
Proof. intros D. apply (dll_value _ _ _ _ _ (bdll_dll _ _ _ _ D)). Qed.

Lemma lastp_hd (xs : list (Z * msg)) : lastp xs None = hd_error (rev (locs xs)).
Proof. destruct (split_last xs) as [->|(ys & l & v & ->)]; [reflexivity|]. rewrite lastp_app, locs_app, rev_app_distr. reflexivity. Qed.

Lemma binv_holds h b s : binv h b s -> bundle_holds h b s.
Proof.
  intros (D & L1 & L2). pose proof D as (Hd & Hh & Ht & Hc & Hs). unfold bundle_holds.
  split; [assumption|]. split; [assumption|]. split; [rewrite Hh; eapply chain_next; exact Hs|].
  fold (locs (msgs s)).
  split; [rewrite <- lastp_hd; eapply chain_prev; exact Hs|]. split.
  - rewrite <- lastp_hd. destruct Ht as [Ht|[Ht Hl]]; [now left|right]. split; [assumption|]. unfold zlen. lia.
  - intros l. destruct (in_dec Z.eq_dec l (locs (msgs s))) as [Hi|Hn].
    + apply in_locs in Hi as (v & Hi). rewrite (value_at_in _ _ _ Hd Hi). eapply bdll_value; eassumption.
    + rewrite value_at_none by assumption. now apply L1.
Qed.

Lemma loose_node h b s l v : binv h b s -> loose s l = Some v ->
  ~ In l (locs (msgs s)) /\ exists p q, h l = Some (Nd p q v).
Proof.
  intros (D & L1 & L2) E. assert (Hn : ~ In l (locs (msgs s))) by (intros Hi; rewrite L2 in E by assumption; discriminate).
  split; [assumption|]. specialize (L1 l Hn). rewrite E in L1. unfold value in L1.
  destruct (h l) as [[p q w]|]; [|discriminate]. cbn in L1. injection L1 as ->. eauto.
Qed.

Lemma take_other l (f : Z -> option msg) x : x <> l -> take l f x = f x.
Proof. unfold take. intros H. destruct (x =? l) eqn:E; [lia|reflexivity]. Qed.
Lemma take_same l (f : Z -> option msg) : take l f l = None.
Proof. unfold take. now rewrite Z.eqb_refl. Qed.

(** Putting a loose message at the end. *)
Lemma link_inv h b s l v ms : binv h b s -> loose s l = Some v ->
  forall h1 b1, bdll h1 b1 ms (excess s) -> (forall x, In x (locs ms) -> In x (locs (msgs s))) ->
  (forall x, In x (locs (msgs s)) -> ~ In x (locs ms) -> h1 x = None) -> frame h h1 (locs (msgs s)) ->
  exists h' b', link_msg h1 b1 l = Ok (h', b') /\
    binv h' b' (Bndl (ms ++ [(l, v)]) (take l (loose s)) (excess s)).
Proof.
  intros I E h1 b1 D1 Hsub Hgone F1. destruct (loose_node _ _ _ _ _ I E) as (Hn & p & q & Hl).
  destruct I as (D & L1 & L2).
  assert (Hl1 : h1 l = Some (Nd p q v)) by (rewrite F1; assumption).
  assert (Hn1 : ~ In l (locs ms)) by (intros Hi; apply Hn, Hsub, Hi).
  destruct (link_msg_ok _ _ _ _ _ _ _ _ D1 Hl1 Hn1) as (h' & b' & R & D' & F'). exists h', b'.
  split; [exact R|]. split; [exact D'|]. cbn [msgs loose]. split.
  - intros x Hx. rewrite locs_app, in_app_iff in Hx. cbn in Hx.
    rewrite take_other by (intros ->; tauto). unfold value. rewrite F' by (cbn; tauto).
    destruct (in_dec Z.eq_dec x (locs (msgs s))) as [Hi|Hi].
    + rewrite (Hgone x Hi) by tauto. now rewrite L2.
    + rewrite F1 by assumption. apply L1. assumption.
  - intros x Hx. rewrite locs_app, in_app_iff in Hx. cbn in Hx. destruct Hx as [Hx|[<-|[]]]; [|apply take_same].
    unfold take. destruct (x =? l); [reflexivity|]. apply L2, Hsub, Hx.
Qed.

Lemma filter_split (f : Z * msg -> bool) xs x : In x (locs xs) ->
  In x (locs (filter f xs)) \/ In x (locs (filter (fun y => negb (f y)) xs)).
Proof.
  intros Hi. apply in_locs in Hi as (v & Hi). destruct (f (x, v)) eqn:E; [left|right];
  apply in_map_iff; exists (x, v); (split; [reflexivity|]); apply filter_In; rewrite ?E; auto.
Qed.

Lemma filter_const (f : Z * msg -> bool) xs : (forall x, f x = false) -> filter (fun x => negb (f x)) xs = xs.
Proof. intros H. induction xs as [|x xs IH]; [reflexivity|]. cbn. rewrite H, IH. reflexivity. Qed.

Lemma in_locs_filter_l (f : Z * msg -> bool) xs x : In x (locs (filter f xs)) -> In x (locs xs).
Proof. apply locs_filter_in. Qed.

Lemma msg_step_ok k h b s o : binv h b s -> msg_enabled h s o -> (length (msgs s) <= k)%nat ->
  exists h' b', msg_step k h b o = Ok (h', b') /\ binv h' b' (spec_msg s o).
Proof.
  intros I En Hk. pose proof I as (D & L1 & L2).
  destruct o as [l v|l v|l v|l v|a|l|l|]; cbn [msg_enabled msg_step spec_msg] in *.
  - (* NewMsg *)
    eexists _, _. split; [reflexivity|].
    assert (Hn : ~ In l (locs (msgs s))).
    { intros Hi. destruct D as (_ & _ & _ & _ & Hs). destruct (seg_live _ _ _ _ _ Hs Hi) as (n & E'). congruence. }
    split; [|split]; cbn [msgs loose excess].
    + eapply bdll_same; [|exact D]. intros x Hx. apply upd_other. intros ->. contradiction.
    + intros x Hx. unfold value, elem_alloc, upd, give. destruct (x =? l); [reflexivity|now apply L1].
    + intros x Hx. unfold give. destruct (x =? l) eqn:E; [|now apply L2]. exfalso. apply Hn. assert (x = l) by lia. now subst.
  - (* Add *)
    apply (link_inv h b s l v (msgs s) I En h b D); [auto|tauto|intros x _; reflexivity].
  - (* AddNoDups *)
    destruct (loose_node _ _ _ _ _ I En) as (Hn & p & q & Hl). unfold add_msg_without_dups.
    rewrite (get_ok _ _ _ Hl). cbn [bind n_val]. unfold same_address.
    destruct (m_address v) as [a|] eqn:Ea.
    + destruct (remove_dups_ok a (msgs s) k h b [] (excess s) D Hk) as (h1 & b1 & R & D1 & N1 & F1).
      cbn [app] in *. pose proof D as (_ & Hh & _). rewrite Hh, R. cbn [bind].
      apply (link_inv h b s l v _ I En h1 b1 D1).
      * intros x. apply locs_filter_in.
      * intros x Hi Hx. apply N1. destruct (filter_split (address_is a) _ _ Hi); tauto.
      * exact F1.
    + cbn [bind]. rewrite (filter_const (fun _ => false)) by reflexivity.
      apply (link_inv h b s l v (msgs s) I En h b D); [auto|tauto|intros x _; reflexivity].
  - (* Replace *)
    destruct En as [En Ha]. destruct (loose_node _ _ _ _ _ I En) as (Hn & p & q & Hl). unfold replace_message.
    rewrite (get_ok _ _ _ Hl). cbn [bind n_val].
    assert (Hadd : exists h' b', link_msg h b l = Ok (h', b') /\
       binv h' b' (Bndl (msgs s ++ [(l, v)]) (take l (loose s)) (excess s))).
    { apply (link_inv h b s l v (msgs s) I En h b D); [auto|tauto|intros x _; reflexivity]. }
    unfold same_address. destruct (m_address v) as [a|] eqn:Ea.
    + pose proof D as (Hd & Hh & Ht & Hc & Hs).
      pose proof (replace_dup_ok a l v (msgs s) k h None Hs Hd Hk (Ha ltac:(discriminate)) Hn ltac:(congruence)) as R.
      rewrite Hh. change (fun x : Z * msg => address_is a x) with (address_is (A := A) a).
      destruct (existsb (address_is a) (msgs s)).
      * destruct R as (h' & R & S' & M' & F'). rewrite R. cbn [bind]. exists h', b. split; [reflexivity|].
        assert (El : locs (replace_first (address_is a) v (msgs s)) = locs (msgs s)) by apply locs_replace.
        split; [|split]; cbn [msgs loose excess].
        -- split; [rewrite El; assumption|]. split; [rewrite Hh; symmetry; apply firstp_locs; exact El|].
           assert (Ln : length (replace_first (address_is a) v (msgs s)) = length (msgs s)).
           { apply (f_equal (@length Z)) in El. unfold locs in El. now rewrite !map_length in El. }
           split; [rewrite (firstp_last_locs _ (msgs s) None El), Ln; assumption|].
           split; [unfold zlen in *; rewrite Ln; assumption|]. exact S'.
        -- rewrite El. intros x Hx. destruct (Z.eq_dec x l) as [->|Nx].
           ++ unfold value. rewrite M', take_same. reflexivity.
           ++ rewrite take_other by assumption. unfold value. rewrite F' by (cbn; intuition congruence). now apply L1.
        -- rewrite El. intros x Hx. unfold take. destruct (x =? l); [reflexivity|]. now apply L2.
      * rewrite R. cbn [bind]. exact Hadd.
    + cbn [bind]. replace (existsb (fun _ : Z * msg => false) (msgs s)) with false; [exact Hadd|].
      clear. induction (msgs s) as [|x xs IH]; [reflexivity|exact IH].
  - (* RemoveAddress *)
    destruct (remove_message_ok a (msgs s) k h b [] (excess s) D Hk En) as (h1 & b1 & R & D1 & N1 & F1).
    cbn [app] in *. pose proof D as (_ & Hh & _). rewrite Hh, R. exists h1, b1. split; [reflexivity|].
    split; [exact D1|]. cbn [msgs loose]. split.
    + intros x Hx. unfold value. destruct (in_dec Z.eq_dec x (locs (msgs s))) as [Hi|Hi].
      * rewrite N1 by (destruct (filter_split (address_is a) _ _ Hi); tauto). now rewrite L2.
      * rewrite F1 by assumption. now apply L1.
    + intros x Hx. apply L2. eapply locs_filter_in. exact Hx.
  - (* RemoveMsg *)
    apply in_locs in En as (v & Hi). pose proof D as (Hd & _). rewrite (value_at_in _ _ _ Hd Hi).
    apply in_split in Hi as (xa & xb & E). rewrite E in *.
    destruct (remove_msg_ok _ _ _ _ _ _ _ D) as (h' & b' & R & D' & (p & q & Hl) & F). exists h', b'. split; [exact R|].
    rewrite filter_mid by assumption. split; [exact D'|]. cbn [msgs loose].
    assert (Hn : ~ In l (locs (xa ++ xb))).
    { rewrite locs_app in Hd. cbn in Hd. apply NoDup_remove_2 in Hd. rewrite locs_app. exact Hd. }
    split.
    + intros x Hx. unfold give. destruct (x =? l) eqn:Ex.
      * assert (x = l) by lia. subst. unfold value. rewrite Hl. reflexivity.
      * unfold value. rewrite F by assumption. apply L1. rewrite locs_app, in_app_iff in *. cbn. 
        intros [Hi|[Hi|Hi]]; [tauto|lia|apply Hx; now right].
    + intros x Hx. unfold give. destruct (x =? l) eqn:Ex; [exfalso; apply Hn; assert (x = l) by lia; now subst|].
      apply L2. rewrite locs_app, in_app_iff in *. cbn. destruct Hx; auto.
  - (* FreeMsg *)
    destruct (loose s l) as [v|] eqn:E; [|contradiction]. destruct (loose_node _ _ _ _ _ I E) as (Hn & p & q & Hl).
    rewrite (free_ok _ _ _ Hl). cbn [bind]. eexists _, _. split; [reflexivity|].
    split; [|split]; cbn [msgs loose excess].
    + eapply bdll_same; [|exact D]. intros x Hx. apply rel_other. intros ->. contradiction.
    + intros x Hx. unfold value, release, take. destruct (x =? l); [reflexivity|now apply L1].
    + intros x Hx. unfold take. destruct (x =? l); [reflexivity|now apply L2].
  - (* ClearBundle *)
    unfold bundle_clear. pose proof D as (Hd & Hh & Ht & Hc & Hs). rewrite Hh.
    destruct (free_chain_ok (msgs s) k h None Hd Hs Hk) as (h' & R & N & F).
    rewrite R. cbn [bind]. eexists _, _. split; [reflexivity|].
    split; [|split]; cbn [msgs loose excess].
    + repeat split; try reflexivity; [constructor|now left].
    + intros x _. unfold value. destruct (in_dec Z.eq_dec x (locs (msgs s))) as [Hi|Hi].
      * rewrite N by assumption. now rewrite L2.
      * rewrite F by assumption. now apply L1.
    + intros x [].
Qed.

(** The histories, from an empty bundle. *)
Inductive msg_history : list (msg_op A) -> heap msg -> ends -> bundle_spec A -> Prop :=
| msg_history_nil : msg_history [] (fun _ => None) (Ends None None 0) (Bndl [] (fun _ => None) 0)
| msg_history_snoc ops h b s o h' b' :
    msg_history ops h b s -> msg_enabled h s o ->
    msg_step (length (msgs s)) h b o = Ok (h', b') ->
    msg_history (ops ++ [o]) h' b' (spec_msg s o).

Lemma msg_history_inv ops h b s : msg_history ops h b s -> binv h b s.
Proof.
  induction 1 as [|ops h b s o h' b' _ IH En R].
  - split; [|split]; cbn; [|reflexivity|intros l []]. repeat split; try reflexivity; [constructor|now left].
  - destruct (msg_step_ok _ _ _ _ _ IH En (le_n _)) as (h1 & m1 & R1 & I1). rewrite R in R1. injection R1 as <- <-. exact I1.
Qed.

End Facts.

(** C26.  Whatever operations have been carried out, the bundle holds exactly the
    messages that the plain list operations give, in order, linked both ways;
    its count is their number (plus one for each call of osc_bundle_u_removeMsg
    since the last clear, see below); what has been released is exactly what
    should have been.  The next operation runs without undefined behaviour. *)
Theorem C26_history : forall A ops (h : heap (message A)) b s, msg_history ops h b s ->
  bundle_holds h b s /\
  forall o, msg_enabled h s o ->
    exists h' b', msg_step (length (msgs s)) h b o = Ok (h', b') /\
                  msg_history (ops ++ [o]) h' b' (spec_msg s o).
Proof.
  intros A ops h b s H. pose proof (msg_history_inv _ _ _ _ H) as I. split; [now apply binv_holds|].
  intros o En. destruct (msg_step_ok _ _ _ _ _ I En (le_n _)) as (h' & b' & R & _). exists h', b'.
  split; [exact R|]. econstructor; eassumption.
Qed.
Print Assumptions C26_history.

(** Without osc_bundle_u_removeMsg the count is the number of messages. *)
Theorem C26_count : forall A ops (h : heap (message A)) b s, msg_history ops h b s ->
  (forall l, ~ In (RemoveMsg l) ops) -> e_count b = zlen (msgs s).
Proof.
  intros A ops h b s H Hno.
  assert (E : excess s = 0).
  { clear - H Hno. induction H as [|ops h b s o h' b' H IH En R]; [reflexivity|].
    assert (Hno' : forall l, ~ In (RemoveMsg l) ops) by (intros l Hi; apply (Hno l), in_app_iff; now left).
    specialize (IH Hno'). destruct o as [l v|l v|l v|l v|a|l|l|]; cbn; try assumption.
    - destruct (existsb _ _); assumption.
    - exfalso. apply (Hno l), in_app_iff. right. now left.
    - reflexivity. }
  destruct (C26_history _ _ _ _ _ H) as [(Hc & _) _]. lia.
Qed.
Print Assumptions C26_count.

(** After osc_bundle_u_addMsgWithoutDups the message added is the only one with
    its address, and it is the last one; messages with other addresses stay, in
    order. *)
Theorem C26_no_duplicates : forall A ops (h : heap (message A)) b s l v a,
  msg_history ops h b s -> loose s l = Some v -> m_address v = Some a ->
  exists h' b' kept, add_msg_without_dups (length (msgs s)) h b l = Ok (h', b') /\
    msg_history (ops ++ [AddNoDups l v]) h' b' (spec_msg s (AddNoDups l v)) /\
    msgs (spec_msg s (AddNoDups l v)) = kept ++ [(l, v)] /\
    (forall x, In x kept -> m_address (snd x) <> Some a) /\
    (forall x, In x (msgs s) -> m_address (snd x) <> Some a -> In x kept).
Proof.
  intros A ops h b s l v a H Hl Ha. destruct (C26_history _ _ _ _ _ H) as [_ N].
  destruct (N (AddNoDups l v) Hl) as (h' & b' & R & H'). exists h', b'.
  exists (filter (fun x => negb (same_address v x)) (msgs s)). split; [exact R|]. split; [exact H'|].
  split; [reflexivity|]. unfold same_address, address_is. rewrite Ha. split.
  - intros x Hx E. apply filter_In in Hx as [_ Hx]. rewrite E in Hx.
    rewrite (proj2 (bytes_eqb_spec a a) eq_refl) in Hx. discriminate.
  - intros x Hx E. apply filter_In. split; [assumption|]. destruct (m_address (snd x)) as [c|]; [|reflexivity].
    destruct (bytes_eqb a c) eqn:Eb; [|reflexivity]. apply bytes_eqb_spec in Eb. congruence.
Qed.
Print Assumptions C26_no_duplicates.

Ltac playm H o :=
  let h := fresh "h" in let m := fresh "m" in let R := fresh "R" in let H' := fresh "H" in
  destruct (proj2 (C26_history _ _ _ _ _ H) o) as (h & m & R & H');
  [vm_compute; try solve [auto 9]; intuition (try discriminate; subst; cbn in *; try discriminate)|];
  vm_compute in R; injection R as <- <-; clear H; rename H' into H.

(** osc_bundle_u_removeMsg leaves the count as it was. *)
Theorem C26_remove_msg_count_refuted : exists ops h b s,
  @msg_history Z ops h b s /\ msgs s = [] /\ e_head b = None /\ e_count b = 1.
Proof.
  pose proof (@msg_history_nil Z) as H. playm H (NewMsg 10 (Msg (Some [47]) [1])).
  playm H (Add 10 (Msg (Some [47]) [1])). playm H (@RemoveMsg Z 10).
  do 4 eexists. split; [exact H|]. repeat split.
Qed.
Print Assumptions C26_remove_msg_count_refuted.

(** osc_bundle_u_replaceMessage and osc_bundle_u_removeMessage give a NULL pointer
    to strcmp if a message has no address. *)
Theorem C26_no_address_refuted : exists ops h b s,
  @msg_history Z ops h b s /\ length (msgs s) = 1%nat /\
  replace_message 1 h b 20 = Ub NullDeref /\ remove_message 1 h b (e_head b) [47] = Ub NullDeref.
Proof.
  pose proof (@msg_history_nil Z) as H. playm H (NewMsg 10 (Msg None [1])).
  playm H (NewMsg 20 (Msg (Some [47]) [1])). playm H (Add 10 (Msg None [1])).
  do 4 eexists. split; [exact H|]. repeat split.
Qed.
Print Assumptions C26_no_address_refuted.

(** osc_bundle_u_addMsgList drops the messages the bundle had: they stay
    allocated but the bundle no longer leads to them. *)
Theorem C26_add_list_refuted : exists ops h b s h' b',
  @msg_history Z ops h b s /\ map fst (msgs s) = [10] /\
  add_msg_list 1 h b (Some 20) = Ok (h', b') /\ chain n_next h' (e_head b') [20] /\ h' 10 <> None.
Proof.
  pose proof (@msg_history_nil Z) as H. playm H (NewMsg 10 (Msg (Some [47]) [1])).
  playm H (NewMsg 20 (Msg (Some [47; 48]) [2])). playm H (Add 10 (Msg (Some [47]) [1])).
  do 6 eexists. split; [exact H|]. split; [reflexivity|]. split; [reflexivity|].
  split; [|discriminate]. econstructor; [reflexivity|]. constructor.
Qed.
Print Assumptions C26_add_list_refuted.

(** A history: two messages with the same address, a third one added without
    duplicates, one replaced, one removed. *)
Example C26_example : exists ops h b s, @msg_history Z ops h b s /\
  length ops = 12%nat /\ map snd (msgs s) = [Msg (Some [47; 97]) [5]; Msg (Some [47; 98]) [4]] /\ e_count b = 2.
Proof.
  pose proof (@msg_history_nil Z) as H.
  playm H (NewMsg 10 (Msg (Some [47; 97]) [1])). playm H (NewMsg 20 (Msg (Some [47; 98]) [2])).
  playm H (NewMsg 30 (Msg (Some [47; 98]) [3])). playm H (NewMsg 40 (Msg (Some [47; 98]) [4])).
  playm H (NewMsg 50 (Msg (Some [47; 97]) [5])). playm H (NewMsg 60 (Msg (Some [47; 99]) [6])).
  playm H (Add 10 (Msg (Some [47; 97]) [1])). playm H (Add 20 (Msg (Some [47; 98]) [2])).
  playm H (Add 30 (Msg (Some [47; 98]) [3])). playm H (AddNoDups 40 (Msg (Some [47; 98]) [4])).
  playm H (Replace 50 (Msg (Some [47; 97]) [5])). playm H (@RemoveAddress Z [47; 99]).
  do 4 eexists. split; [exact H|]. repeat split.
Qed.
