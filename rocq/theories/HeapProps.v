(** C25 and C30: argument lists of messages and linked lists, over all histories
    of operations. *)

From Coq Require Import ZArith List Bool Lia.
From Verif Require Import Base BaseProofs HeapModel HeapSpec HeapProofs.
Import ListNotations.
Open Scope Z_scope.

Section Facts.
Context {V : Type}.
Implicit Types (h : heap V) (xs ys : list (Z * V)).

Lemma chain_next h : forall xs prv, seg h prv xs None -> chain n_next h (firstp xs None) (locs xs).
Proof.
  induction xs as [|[l v] xs IH]; intros prv Hs; [constructor|]. cbn [seg] in Hs. destruct Hs as [H1 H2].
  cbn. econstructor; [exact H1|]. cbn [n_next]. eapply IH. exact H2.
Qed.
Lemma chain_prev h : forall xs nxt, seg h None xs nxt -> chain n_prev h (lastp xs None) (rev (locs xs)).
Proof.
  intros xs. induction xs as [|[l v] xs IH] using rev_ind; intros nxt Hs; [constructor|].
  rewrite lastp_app, locs_app, rev_app_distr. cbn. econstructor; [eapply seg_at; exact Hs|]. cbn [n_prev].
  apply seg_app in Hs as [Hs _]. eapply IH. exact Hs.
Qed.

Definition value h (l : Z) : option V := option_map n_val (h l).

Lemma dll_value h m xs l v : dll h m xs -> In (l, v) xs -> value h l = Some v.
Proof.
  intros (_ & _ & _ & _ & Hs) Hi. apply in_split in Hi as (a & b & ->). apply seg_at in Hs.
  unfold value. rewrite Hs. reflexivity.
Qed.

Lemma in_locs xs l : In l (locs xs) -> exists v, In (l, v) xs.
Proof. unfold locs. intros H. apply in_map_iff in H as ([a b] & E & Hi). cbn in E. subst. eauto. Qed.

(** Values are kept when only links change. *)
Lemma values_kept h h' m m' xs ys ls : dll h m xs -> dll h' m' ys -> frame h h' ls ->
  (forall l, In l ls -> In l (locs ys)) ->
  (forall l v, In (l, v) ys -> value h l = Some v) ->
  forall l, value h' l = value h l.
Proof.
  intros D D' F Hls Hv l. destruct (in_dec Z.eq_dec l (locs ys)) as [Hi|Hn].
  - apply in_locs in Hi as (v & Hi). rewrite (dll_value _ _ _ _ _ D' Hi). symmetry. now apply Hv.
  - unfold value. rewrite F; [reflexivity|]. intros Hi. apply Hn, Hls, Hi.
Qed.

Lemma locs_insert pos l (v : V) : forall xs,
  locs (firstn pos xs ++ (l, v) :: skipn pos xs) = insert_at pos l (locs xs).
Proof.
  induction pos as [|pos IH]; intros xs; [destruct xs; reflexivity|].
  destruct xs as [|[k u] xs]; [reflexivity|]. cbn. f_equal. apply IH.
Qed.

Lemma remove_notin (l : Z) ls : ~ In l ls -> remove Z.eq_dec l ls = ls.
Proof. apply notin_remove. Qed.
Lemma remove_mid (l : Z) a b : ~ In l a -> ~ In l b -> remove Z.eq_dec l (a ++ l :: b) = a ++ b.
Proof.
  intros Ha Hb. rewrite remove_app. cbn. destruct (Z.eq_dec l l); [|contradiction].
  rewrite !remove_notin by assumption. reflexivity.
Qed.
Lemma nodup_mid (a b : list Z) l : NoDup (a ++ l :: b) -> ~ In l a /\ ~ In l b.
Proof. intros H. apply NoDup_remove_2 in H. rewrite in_app_iff in H. tauto. Qed.

(** A step of the code (osc_atom_u_alloc gives NULL links). *)
Definition arg_step h (m : ends) (o : arg_op V) : res (heap V * ends) :=
  match o with
  | New l v => Ok (elem_alloc h l v, m)
  | Append l => append_atom h m l
  | Prepend l => prepend_atom h m l
  | Insert front l pos => insert_atom front h m l pos
  | Remove l => remove_atom h m l
  | Free l => do h <- free h (Some l); Ok (h, m)
  | Clear => clear_args (Z.to_nat (e_count m)) h m
  end.

Definition inv h m (a : args_spec V) : Prop :=
  exists xs, dll h m xs /\ args a = locs xs /\ forall l, value h l = live a l.

Lemma inv_holds h m a : inv h m a -> holds h m a.
Proof.
  intros (xs & D & E & L). pose proof D as (Hd & Hh & Ht & Hc & Hs). unfold holds. rewrite E.
  split; [rewrite Hc; unfold zlen, locs; now rewrite map_length|]. split; [assumption|].
  split; [rewrite Hh; eapply chain_next; exact Hs|]. split; [rewrite Ht; eapply chain_prev; exact Hs|].
  exact L.
Qed.

Lemma in_values h m xs l v k u : dll h m xs -> value h l = Some v -> In (k, u) xs \/ (k, u) = (l, v) -> value h k = Some u.
Proof. intros D Hl [Hi|[= -> ->]]; [eapply dll_value; eassumption|assumption]. Qed.

Lemma arg_step_ok h m a o : inv h m a -> enabled h a o ->
  exists h' m', arg_step h m o = Ok (h', m') /\ inv h' m' (spec_op a o).
Proof.
  intros (xs & D & E & L) En. destruct o as [l v|l|l|front l pos|l|l|]; cbn [enabled arg_step spec_op] in *.
  - (* New *)
    eexists _, _. split; [reflexivity|]. exists xs. cbn [args live].
    assert (Hn : ~ In l (locs xs)).
    { intros Hi. destruct D as (_ & _ & _ & _ & Hs). destruct (seg_live _ _ _ _ _ Hs Hi) as (n & E'). congruence. }
    split; [|split; [assumption|]].
    + eapply dll_same; [|exact D]. intros x Hx. apply upd_other. intros ->. contradiction.
    + intros x. unfold value, elem_alloc, upd. destruct (x =? l); [reflexivity|apply L].
  - (* Append *)
    destruct En as [Hl Hn]. rewrite E in Hn. destruct (h l) as [[p q v]|] eqn:El; [|contradiction].
    destruct (append_atom_ok _ _ _ _ _ _ _ D El Hn) as (h' & m' & R & D' & F). exists h', m'. split; [exact R|].
    exists (xs ++ [(l, v)]). cbn [args live]. split; [assumption|]. split; [rewrite locs_app, E; reflexivity|].
    intros x. rewrite <- L. apply (values_kept _ _ _ _ _ _ _ D D' F).
    + intros y Hy. rewrite locs_app, in_app_iff. cbn in *. tauto.
    + intros k u Hi. eapply in_values; [exact D|unfold value; rewrite El; reflexivity|].
      apply in_app_iff in Hi as [Hi|[Hi|[]]]; [left|right]; auto.
  - (* Prepend *)
    destruct En as [Hl Hn]. rewrite E in Hn. destruct (h l) as [[p q v]|] eqn:El; [|contradiction].
    destruct (prepend_atom_ok _ _ _ _ _ _ _ D El Hn) as (h' & m' & R & D' & F). exists h', m'. split; [exact R|].
    exists ((l, v) :: xs). cbn [args live]. split; [assumption|]. split; [rewrite E; reflexivity|].
    intros x. rewrite <- L. apply (values_kept _ _ _ _ _ _ _ D D' F).
    + intros y Hy. exact Hy.
    + intros k u Hi. eapply in_values; [exact D|unfold value; rewrite El; reflexivity|].
      destruct Hi as [Hi|Hi]; [right|left]; auto.
  - (* Insert *)
    destruct En as (Hl & Hn & Hp & Hf). rewrite E in Hn, Hf. destruct (h l) as [[p q v]|] eqn:El; [|contradiction].
    destruct (insert_atom_ok front _ _ _ _ _ _ _ pos D El Hn Hp) as (h' & m' & R & D' & F).
    { intros Hx Hz. apply (Hf ltac:(destruct xs; [contradiction|discriminate])
        ltac:(unfold zlen, locs in *; rewrite map_length; assumption) (Nd p q v)). reflexivity. }
    exists h', m'. split; [exact R|]. eexists. cbn [args live]. split; [exact D'|].
    split; [rewrite locs_insert, E; reflexivity|].
    intros x. rewrite <- L. apply (values_kept _ _ _ _ _ _ _ D D' F).
    + intros y Hy. rewrite <- (firstn_skipn (Z.to_nat pos) xs) in Hy. unfold locs in *. cbn in Hy.
      rewrite !map_app, in_app_iff in *. cbn. tauto.
    + intros k u Hi. eapply in_values; [exact D|unfold value; rewrite El; reflexivity|].
      rewrite <- (firstn_skipn (Z.to_nat pos) xs). rewrite !in_app_iff in *. cbn in Hi.
      destruct Hi as [Hi|[Hi|Hi]]; auto.
  - (* Remove *)
    rewrite E in En. apply in_locs in En as (v & Hi). apply in_split in Hi as (xa & xb & ->).
    destruct (remove_atom_ok _ _ _ _ _ _ D) as (h' & m' & R & D' & Hl & F). exists h', m'. split; [exact R|].
    exists (xa ++ xb). cbn [args live]. split; [assumption|].
    assert (Hd : NoDup (locs xa ++ l :: locs xb)) by (destruct D as (Hd & _); rewrite locs_app in Hd; exact Hd).
    destruct (nodup_mid _ _ _ Hd) as [N1 N2].
    split; [rewrite E, !locs_app; cbn [locs map fst]; fold (locs xb); rewrite remove_mid by assumption; reflexivity|].
    intros x. rewrite <- L. apply (values_kept _ _ _ _ _ _ _ D D' F); [intros y Hy; exact Hy|].
    intros k u Hi. eapply dll_value; [exact D|]. rewrite in_app_iff in *. cbn. tauto.
  - (* Free *)
    destruct En as [Hl Hn]. rewrite E in Hn. destruct (h l) as [n|] eqn:El; [|contradiction].
    rewrite (free_ok _ _ _ El). cbn [bind]. eexists _, _. split; [reflexivity|].
    exists xs. cbn [args live]. split; [|split; [assumption|]].
    + eapply dll_same; [|exact D]. intros x Hx. apply rel_other. intros ->. contradiction.
    + intros x. unfold value, release. destruct (x =? l); [reflexivity|apply L].
  - (* Clear *)
    unfold clear_args. pose proof D as (Hd & Hh & Ht & Hc & Hs). rewrite Hh, Hc.
    destruct (free_chain_ok xs (Z.to_nat (zlen xs)) h None Hd Hs) as (h' & R & A & F); [unfold zlen; lia|].
    rewrite R. cbn [bind]. eexists _, _. split; [reflexivity|]. exists []. cbn [args live].
    split; [apply dll_nil|]. split; [reflexivity|].
    intros x. rewrite E. unfold value. destruct (in_dec Z.eq_dec x (locs xs)) as [Hi|Hi].
    + rewrite A by assumption. reflexivity.
    + rewrite F by assumption. apply L.
Qed.

(** The histories: each operation enabled, carried out by the code and,
    alongside, on the plain state. *)
Inductive history : list (arg_op V) -> heap V -> ends -> args_spec V -> Prop :=
| history_nil : history [] (fun _ => None) (Ends None None 0) (Args (fun _ => None) [])
| history_snoc ops h m a o h' m' :
    history ops h m a -> enabled h a o -> arg_step h m o = Ok (h', m') ->
    history (ops ++ [o]) h' m' (spec_op a o).

Lemma history_inv ops h m a : history ops h m a -> inv h m a.
Proof.
  induction 1 as [|ops h m a o h' m' _ IH En R].
  - exists []. split; [apply dll_nil|]. split; reflexivity.
  - destruct (arg_step_ok _ _ _ _ IH En) as (h1 & m1 & R1 & I1). rewrite R in R1. injection R1 as <- <-. exact I1.
Qed.

(** ** The linked list *)

Definition list_step h (ll : ends) (o : list_op V) : res (heap V * ends * option V) :=
  match o with
  | PushFront l v => do ' (h, ll) <- ll_prepend h ll l v; Ok (h, ll, None)
  | PushBack l v => do ' (h, ll) <- ll_append h ll l v; Ok (h, ll, None)
  | PopHead => ll_pop_head h ll
  | PopTail => ll_pop_tail h ll
  | PopNth n => ll_pop_nth h ll n
  | Unlink l => do ' (h, ll) <- ll_unlink h ll l; Ok (h, ll, None)
  | ClearList => do ' (h, ll) <- ll_clear (Z.to_nat (e_count ll)) h ll; Ok (h, ll, None)
  end.

Lemma delete_mid {A} (a : list A) x b : delete_at (length a) (a ++ x :: b) = a ++ b.
Proof. induction a as [|y a IH]; [reflexivity|]. cbn. now rewrite IH. Qed.

Lemma filter_mid (a b : list (Z * V)) l v : NoDup (locs (a ++ (l, v) :: b)) ->
  filter (fun x => negb (fst x =? l)) (a ++ (l, v) :: b) = a ++ b.
Proof.
  intros Hd. rewrite locs_app in Hd. cbn in Hd. apply nodup_mid in Hd as [N1 N2].
  assert (K : forall ys : list (Z * V), ~ In l (locs ys) -> filter (fun x => negb (fst x =? l)) ys = ys).
  { induction ys as [|[k u] ys IH]; intros Hn; [reflexivity|]. cbn in *.
    destruct (k =? l) eqn:E; [exfalso; apply Hn; left; lia|]. cbn. rewrite IH by tauto. reflexivity. }
  rewrite filter_app. cbn. rewrite Z.eqb_refl. cbn. rewrite !K by assumption. reflexivity.
Qed.

Lemma list_step_ok h ll xs o : dll h ll xs -> list_enabled h xs o ->
  exists h' ll', list_step h ll o = Ok (h', ll', spec_out xs o) /\ dll h' ll' (spec_list xs o).
Proof.
  intros D En. destruct o as [l v|l v| | |n|l|]; cbn [list_enabled list_step spec_list spec_out] in *.
  - destruct (ll_prepend_ok h ll xs l v D En) as (h' & m' & R & D' & _). rewrite R. cbn [bind]. eauto.
  - destruct (ll_append_ok h ll xs l v D En) as (h' & m' & R & D' & _). rewrite R. cbn [bind]. eauto.
  - unfold ll_pop_head. pose proof D as (_ & Hh & _). rewrite Hh. destruct xs as [|[l v] xs].
    + cbn. eauto.
    + destruct (ll_pop_ok h ll [] l v xs D) as (h' & m' & R & D' & _). cbn [firstp hd_error option_map snd tl]. eauto.
  - unfold ll_pop_tail. pose proof D as (_ & _ & Ht & _). rewrite Ht. destruct (split_last xs) as [->|(ys & l & v & ->)].
    + cbn. eauto.
    + destruct (ll_pop_ok h ll ys l v [] D) as (h' & m' & R & D' & _). rewrite app_nil_r in D'.
      rewrite lastp_app, removelast_last, rev_app_distr. cbn [lastp rev app hd_error option_map snd]. eauto.
  - unfold ll_pop_nth. rewrite (ll_nth_ok _ _ _ _ D) by tauto. cbn [bind].
    change (index_of (zlen xs) n) with (position (zlen xs) n).
    destruct (position (zlen xs) n) as [i|] eqn:Ei; [|cbn; eauto].
    apply index_of_lt in Ei; [|apply zlen_nonneg]. cbn [at_position without_position].
    destruct (nth_error xs i) as [[l v]|] eqn:En2; [|apply nth_error_None in En2; unfold zlen in Ei; lia].
    apply nth_error_split in En2 as (a & b & -> & <-). cbn [option_map fst snd]. rewrite delete_mid.
    destruct (ll_pop_ok h ll a l v b D) as (h' & m' & R & D' & _). eauto.
  - apply in_locs in En as (v & Hi). apply in_split in Hi as (a & b & ->).
    destruct (ll_unlink_ok h ll a l v b D) as (h' & m' & R & D' & _). rewrite R. cbn [bind].
    rewrite filter_mid by (destruct D as (Hd & _); exact Hd). eauto.
  - unfold ll_clear. pose proof D as (Hd & Hh & Ht & Hc & Hs). rewrite Hh, Hc.
    destruct (free_chain_ok xs (Z.to_nat (zlen xs)) h None Hd Hs) as (h' & R & A & F); [unfold zlen; lia|].
    rewrite R. cbn [bind]. eexists _, _. split; [reflexivity|]. apply dll_nil.
Qed.

Lemma dll_list_holds h m xs : dll h m xs -> list_holds h m xs.
Proof.
  intros D. pose proof D as (Hd & Hh & Ht & Hc & Hs). unfold list_holds. split; [assumption|].
  split; [assumption|]. split; [rewrite Hh; eapply chain_next; exact Hs|].
  split; [rewrite Ht; eapply chain_prev; exact Hs|]. intros l v Hi. eapply dll_value; eassumption.
Qed.

Inductive list_history : list (list_op V) -> heap V -> ends -> list (Z * V) -> Prop :=
| list_history_nil h0 : list_history [] h0 (Ends None None 0) []
| list_history_snoc ops h ll xs o h' ll' out :
    list_history ops h ll xs -> list_enabled h xs o -> list_step h ll o = Ok (h', ll', out) ->
    list_history (ops ++ [o]) h' ll' (spec_list xs o).

Lemma list_history_dll ops h ll xs : list_history ops h ll xs -> dll h ll xs.
Proof.
  induction 1 as [h0|ops h ll xs o h' ll' out _ IH En R]; [apply dll_nil|].
  destruct (list_step_ok _ _ _ _ IH En) as (h1 & m1 & R1 & I1). rewrite R in R1. injection R1 as <- <- _. exact I1.
Qed.
End Facts.

(** C25.  Whatever operations have been carried out on a message, it holds
    exactly the arguments that the plain list operations give: the count is
    their number, [next] links from the head pass them in order, [prev] links
    from the tail in reverse order, they are all allocated and distinct, and no
    atom has been lost or changed.  The next operation, if enabled, runs without
    undefined behaviour. *)
Theorem C25_history : forall V ops (h : heap V) m a, history ops h m a ->
  holds h m a /\
  forall o, enabled h a o ->
    exists h' m', arg_step h m o = Ok (h', m') /\ history (ops ++ [o]) h' m' (spec_op a o).
Proof.
  intros V ops h m a H. pose proof (history_inv _ _ _ _ H) as I. split; [now apply inv_holds|].
  intros o En. destruct (arg_step_ok _ _ _ _ I En) as (h' & m' & R & _). exists h', m'.
  split; [exact R|]. econstructor; eassumption.
Qed.
Print Assumptions C25_history.

(** osc_message_u_getArg gives the argument at each position, and NULL past the
    end. *)
Theorem C25_get_arg : forall V ops (h : heap V) m a n, history ops h m a -> 0 <= n ->
  get_atom h m n = Ok (nth_error (args a) (Z.to_nat n)).
Proof.
  intros V ops h m a n H Hn. destruct (history_inv _ _ _ _ H) as (xs & D & E & _).
  rewrite (get_atom_ok _ _ _ _ D Hn), E. unfold locs. f_equal. symmetry. apply nth_error_map.
Qed.
Print Assumptions C25_get_arg.

Ltac play H o :=
  let h := fresh "h" in let m := fresh "m" in let R := fresh "R" in let H' := fresh "H" in
  destruct (proj2 (C25_history _ _ _ _ _ H) o) as (h & m & R & H');
  [vm_compute; try solve [auto 9]; intuition discriminate|];
  cbn in R; injection R as <- <-; clear H; rename H' into H.

(** A history with every operation. *)
Definition ex_ops : list (arg_op Z) :=
  [New 100 7; New 200 8; New 300 9; Append 100; Insert true 200 0; Insert false 300 1; Remove 100;
   Prepend 100; Remove 300; Free 300].

Example C25_example : exists h m a, history ex_ops h m a /\ args a = [100; 200] /\ live a 200 = Some 8 /\ live a 300 = None.
Proof.
  pose proof (@history_nil Z) as H.
  play H (@New Z 100 7). play H (@New Z 200 8). play H (@New Z 300 9). play H (@Append Z 100).
  play H (@Insert Z true 200 0). play H (@Insert Z false 300 1). play H (@Remove Z 100).
  play H (@Prepend Z 100). play H (@Remove Z 300). play H (@Free Z 300).
  do 3 eexists. split; [exact H|]. repeat split.
Qed.

Lemma no_cycle V (h : heap V) a b na nb : h a = Some na -> h b = Some nb -> n_next na = Some b -> n_next nb = Some a ->
  forall ls, ~ chain n_next h (Some a) ls.
Proof.
  intros Ha Hb Na Nb ls. remember (length ls) as k eqn:E. revert ls E.
  induction k as [k IH] using lt_wf_ind. intros ls -> C.
  inversion C as [|? n1 ls1 E1 C1]; subst. rewrite Ha in E1. injection E1 as <-. rewrite Na in C1.
  inversion C1 as [|? n2 ls2 E2 C2]; subst. rewrite Hb in E2. injection E2 as <-. rewrite Nb in C2.
  eapply IH; [|reflexivity|exact C2]. cbn. lia.
Qed.

(** What the conditions of [enabled] keep out.  Inserting at a negative position
    counts an argument that cannot be reached from the head. *)
Theorem C25_negative_position_refuted : exists ops h m a h' m',
  history ops h m a /\ h 200 <> None /\ ~ In 200 (args a) /\
  @insert_atom Z true h m 200 (-1) = Ok (h', m') /\
  e_count m' = 2 /\ chain n_next h' (e_head m') [100].
Proof.
  pose proof (@history_nil Z) as H. play H (@New Z 100 7). play H (@New Z 200 8). play H (@Append Z 100).
  do 6 eexists. split; [exact H|]. split; [discriminate|]. split; [cbn; lia|]. split; [reflexivity|].
  split; [reflexivity|]. econstructor; [reflexivity|]. constructor.
Qed.
Print Assumptions C25_negative_position_refuted.

(** An atom that was taken out of a message keeps its links.  Putting it back at
    the end with osc_message_u_insertAtom makes the list go round in a circle. *)
Theorem C25_reinsert_at_end_refuted : exists ops h m a h' m',
  history ops h m a /\ h 100 <> None /\ ~ In 100 (args a) /\
  @insert_atom Z true h m 100 1 = Ok (h', m') /\
  forall ls, ~ chain n_next h' (e_head m') ls.
Proof.
  pose proof (@history_nil Z) as H. play H (@New Z 100 7). play H (@New Z 200 8). play H (@Append Z 100).
  play H (@Append Z 200). play H (@Remove Z 100).
  do 6 eexists. split; [exact H|]. split; [discriminate|]. split; [cbn; lia|]. split; [reflexivity|].
  eapply (no_cycle Z _ 200 100); reflexivity.
Qed.
Print Assumptions C25_reinsert_at_end_refuted.

(** osc_message_u_getArg with a negative index gives the first argument. *)
Theorem C25_negative_index_refuted : exists ops h m a,
  @history Z ops h m a /\ get_atom h m (-3) = Ok (Some 100) /\ args a = [100].
Proof.
  pose proof (@history_nil Z) as H. play H (@New Z 100 7). play H (@Append Z 100).
  do 4 eexists. split; [exact H|]. split; reflexivity.
Qed.
Print Assumptions C25_negative_index_refuted.

(** C30.  Whatever operations have been carried out on a linked list, it holds the
    elements that the plain operations give: count, [next] links from the head
    and [prev] links from the tail agree with the list, and each element has its
    data.  The next operation runs without undefined behaviour and returns what
    it should. *)
Theorem C30_history : forall V ops (h : heap V) ll xs, list_history ops h ll xs ->
  list_holds h ll xs /\
  forall o, list_enabled h xs o ->
    exists h' ll', list_step h ll o = Ok (h', ll', spec_out xs o) /\
                   list_history (ops ++ [o]) h' ll' (spec_list xs o).
Proof.
  intros V ops h ll xs H. pose proof (list_history_dll _ _ _ _ H) as D. split; [now apply dll_list_holds|].
  intros o En. destruct (list_step_ok _ _ _ _ D En) as (h' & ll' & R & _). exists h', ll'.
  split; [exact R|]. econstructor; eassumption.
Qed.
Print Assumptions C30_history.

(** peekNth, for every index that is an int. *)
Theorem C30_peek_nth : forall V ops (h : heap V) ll xs n, list_history ops h ll xs ->
  zlen xs < 2^31 -> - 2^31 <= n < 2^31 ->
  ll_peek_nth h ll n = Ok (option_map snd (at_position xs (position (zlen xs) n))).
Proof.
  intros V ops h ll xs n H Hl Hn. pose proof (list_history_dll _ _ _ _ H) as D. unfold ll_peek_nth.
  rewrite (ll_nth_ok _ _ _ _ D Hl Hn). cbn [bind]. change (index_of (zlen xs) n) with (position (zlen xs) n).
  destruct (position (zlen xs) n) as [i|] eqn:Ei; [|reflexivity]. cbn [at_position].
  destruct (nth_error xs i) as [[l v]|] eqn:En; [|reflexivity]. cbn [option_map fst snd peek].
  apply nth_error_split in En as (a & b & -> & _). destruct D as (_ & _ & _ & _ & Hs).
  apply seg_at in Hs. rewrite (get_ok _ _ _ Hs). reflexivity.
Qed.
Print Assumptions C30_peek_nth.

(** The callback of iterate is given every element, in order, with its index. *)
Theorem C30_iterate : forall V ops (h : heap V) ll xs, list_history ops h ll xs ->
  exists calls, ll_iterate (length xs) h (e_head ll) 0 = Ok calls /\
    length calls = length xs /\
    forall i, nth_error calls i = option_map (fun x => (Z.of_nat i, snd x)) (nth_error xs i).
Proof.
  intros V ops h ll xs H. pose proof (list_history_dll _ _ _ _ H) as (_ & Hh & _ & _ & Hs).
  rewrite Hh. rewrite (ll_iterate_ok h xs _ None 0 Hs) by lia. eexists. split; [reflexivity|].
  split; [rewrite combine_length, !map_length, seq_length; lia|].
  clear. intros i.
  assert (K : forall (ys : list (Z * V)) k i, nth_error (combine (map (fun j => 0 + Z.of_nat j) (seq k (length ys))) (map snd ys)) i
     = option_map (fun x => (Z.of_nat (k + i), snd x)) (nth_error ys i)).
  { induction ys as [|y ys IH]; intros k j; [destruct j; reflexivity|].
    cbn [length seq map combine]. destruct j as [|j]; cbn [nth_error option_map].
    - rewrite Nat.add_0_r. reflexivity.
    - rewrite IH. do 2 f_equal. rewrite Nat.add_succ_r. reflexivity. }
  apply (K xs 0%nat i).
Qed.
Print Assumptions C30_iterate.

Ltac playl H o :=
  let h := fresh "h" in let m := fresh "m" in let R := fresh "R" in let H' := fresh "H" in
  destruct (proj2 (C30_history _ _ _ _ _ H) o) as (h & m & R & H');
  [vm_compute; try solve [auto 9]; intuition discriminate|];
  cbn in R; injection R as <- <-; clear H; rename H' into H.

Example C30_example : exists h ll,
  list_history [PushBack 10 5; PushFront 20 6; PushBack 30 7; PushBack 40 8; PopNth 1; PopNth (-1); Unlink 20]
    h ll [(30, 7)] /\ ll_peek_nth h ll (-1) = Ok (Some 7) /\ ll_peek_nth h ll 1 = Ok None.
Proof.
  pose proof (@list_history_nil Z (fun _ => None)) as H.
  playl H (PushBack 10 5). playl H (PushFront 20 6). playl H (PushBack 30 7). playl H (PushBack 40 8).
  playl H (@PopNth Z 1). playl H (@PopNth Z (-1)). playl H (@Unlink Z 20).
  do 2 eexists. split; [exact H|]. split; reflexivity.
Qed.
