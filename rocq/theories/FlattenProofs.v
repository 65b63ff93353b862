(** Proofs for C40. *)

From Coq Require Import ZArith List Bool Lia Permutation.
From Verif Require Import Base BaseProofs Bytes UtilModel UtilProofs
  WireSpec SerialModel SerialSpec SerialProofs SerialProps AtomSModel WireModel WireProofs WireWalk
  ArgProofs DeserProofs DeserProps MatchModel MatchProps AtomUModel
  ExprModel ExprSpec ExprProps ExprListProofs FlattenModel FlattenSpec.
Import ListNotations.
Open Scope Z_scope.

(** * Shape of exploded bundles *)

Lemma leaf_or_node m : shaped m ->
  (exists a vs, m = M a vs /\ literal a /\ vs <> [] /\ Forall (fun v => ~ is_bundle v) vs) \/
  (exists a ms, m = M a [VBundle ms] /\ literal a /\ ms <> [] /\ shaped_all ms).
Proof.
  destruct m as [a vs]. intros H. cbn [shaped] in H. destruct H as [Ha H].
  destruct vs as [|v [|v' vs]]; [destruct H as [H _]; now destruct H| |].
  2:{ left. exists a, (v :: v' :: vs). split; [reflexivity|]. split; [exact Ha|]. destruct v; exact H. }
  destruct v; try (left; eexists; eexists; split; [reflexivity|]; split; [exact Ha|exact H]).
  match goal with |- context [VBundle ?x] => right; exists a, x end. split; [reflexivity|]. split; [exact Ha|]. destruct H as (H1 & H2 & H3).
  split; [exact H1|]. split; [exact H2|]. now apply all_Forall.
Qed.
Lemma shaped_leaf a vs : literal a -> vs <> [] -> Forall (fun v => ~ is_bundle v) vs -> shaped (M a vs).
Proof.
  intros Ha Hv Hb. cbn [shaped]. split; [exact Ha|].
  destruct vs as [|v [|v' vs]]; [now destruct Hv| |destruct v; now split].
  destruct v; try now split. pose proof (Forall_inv Hb) as X. now destruct X.
Qed.
Lemma shaped_node a ms : literal a -> ms <> [] -> shaped_all ms -> shaped (M a [VBundle ms]).
Proof.
  intros Ha Hm [H1 H2]. cbn [shaped]. split; [exact Ha|]. split; [exact Hm|]. split; [exact H1|]. now apply all_Forall.
Qed.

Lemma meaning_leaf p a vs : vs <> [] -> Forall (fun v => ~ is_bundle v) vs ->
  meaning p (M a vs) = [M (p ++ a) (map narrow vs)].
Proof.
  intros Hv Hb. destruct vs as [|v [|v' vs]]; [now destruct Hv| |destruct v; reflexivity].
  destruct v; try reflexivity. pose proof (Forall_inv Hb) as X. now destruct X.
Qed.

(** The literal parts. *)
Lemma literal_app a1 a2 : literal (a1 ++ a2) -> a1 <> [] -> literal a1.
Proof.
  intros [H1 H2] Hn. destruct a1; [now destruct Hn|]. apply Forall_app in H2. split; [exact H1|apply H2].
Qed.

(** narrow keeps the shape and the meaning. *)
Lemma narrow_bundle v : is_bundle (narrow v) <-> is_bundle v.
Proof. destruct v; cbn [narrow]; repeat destruct (_ || _); cbn; tauto. Qed.
Lemma addr_narrow m : address_of (narrow_msg m) = address_of m.
Proof. destruct m; reflexivity. Qed.

Lemma narrow_leaf vs : Forall (fun v => ~ is_bundle v) vs -> Forall (fun v => ~ is_bundle v) (map narrow vs).
Proof. intros H. rewrite Forall_map. eapply Forall_impl; [|exact H]. intros v Hv. now rewrite narrow_bundle. Qed.

Lemma shaped_ind (P : message -> Prop) :
  (forall a vs, literal a -> vs <> [] -> Forall (fun v => ~ is_bundle v) vs -> P (M a vs)) ->
  (forall a ms, literal a -> ms <> [] -> shaped_all ms -> Forall P ms -> P (M a [VBundle ms])) ->
  forall m, shaped m -> P m.
Proof.
  intros HL HN.
  apply (message_ind2 (fun v => match v with VBundle ms => Forall (fun m => shaped m -> P m) ms | _ => True end)
           (fun m => shaped m -> P m)).
  - intros v H. destruct v; try exact I. exact H.
  - intros a vs H Hs. destruct (leaf_or_node _ Hs) as [(a' & vs' & E & H1 & H2 & H3)|(a' & ms & E & H1 & H2 & H3)];
      inversion E; subst; [now apply HL|]. apply HN; try assumption.
    pose proof (Forall_inv H) as X. cbn beta iota in X. apply (Forall_mp shaped P); [exact X|exact (proj2 H3)].
Qed.

Lemma narrow_shape m : shaped m -> shaped (narrow_msg m) /\ forall p, meaning p (narrow_msg m) = meaning p m.
Proof.
  revert m. apply shaped_ind.
  - intros a vs Ha Hv Hb. cbn [narrow_msg].
    assert (Hv' : map narrow vs <> []) by (destruct vs; [now destruct Hv|discriminate]).
    split; [apply shaped_leaf; try assumption; now apply narrow_leaf|].
    intros p. rewrite !meaning_leaf by (try assumption; now apply narrow_leaf). f_equal. f_equal.
    rewrite map_map. apply map_ext. intros v. apply (proj1 narrow_idem).
  - intros a ms Ha Hm [Hd Hs] IH. cbn [narrow_msg map narrow]. split.
    + apply shaped_node; [exact Ha|destruct ms; [now destruct Hm|discriminate]|]. split.
      * rewrite map_map. rewrite (map_ext _ address_of) by apply addr_narrow. exact Hd.
      * rewrite Forall_map. eapply Forall_impl; [|exact IH]. intros m Hm'. apply Hm'.
    + intros p. cbn [meaning]. rewrite map_map. f_equal. apply map_ext_in. rewrite Forall_forall in IH.
      intros m Hin. apply (IH m Hin).
Qed.
Lemma narrow_shapes ms : shaped_all ms -> shaped_all (map narrow_msg ms) /\
  forall p, meanings p (map narrow_msg ms) = meanings p ms.
Proof.
  intros [Hd Hs]. split.
  - split.
    + rewrite map_map, (map_ext _ address_of) by apply addr_narrow. exact Hd.
    + rewrite Forall_map. eapply Forall_impl; [|exact Hs]. intros m Hm. now apply narrow_shape.
  - intros p. unfold meanings. rewrite map_map. f_equal. apply map_ext_in. rewrite Forall_forall in Hs.
    intros m Hm. now apply narrow_shape, Hs.
Qed.

(** What a shaped message means is not empty, and its addresses continue its own. *)
Lemma meaning_continues m : shaped m -> forall p,
  meaning p m <> [] /\ Forall (fun x => exists r, address_of x = p ++ address_of m ++ r /\ (r = [] \/ hd 0 r = 47)) (meaning p m).
Proof.
  revert m. apply (shaped_ind (fun m => forall p, meaning p m <> [] /\
    Forall (fun x => exists r, address_of x = p ++ address_of m ++ r /\ (r = [] \/ hd 0 r = 47)) (meaning p m))).
  - intros a vs Ha Hv Hb p. rewrite meaning_leaf by assumption. split; [discriminate|].
    constructor; [|constructor]. exists []. cbn [address_of]. rewrite app_nil_r. split; [reflexivity|now left].
  - intros a ms Ha Hm Hs IH p. cbn [meaning address_of]. split.
    + destruct ms as [|m ms]; [now destruct Hm|]. cbn [map concat].
      intros E. apply app_eq_nil in E. exact (proj1 (Forall_inv IH (p ++ a)) (proj1 E)).
    + apply Forall_concat. rewrite Forall_map. rewrite Forall_forall in *. intros m Hin.
      destruct (IH m Hin (p ++ a)) as [_ H]. eapply Forall_impl; [|exact H].
      intros x (r & E & _). exists (address_of m ++ r). split; [now rewrite E, <- app_assoc|].
      right. destruct Hs as [_ Hs]. rewrite Forall_forall in Hs. destruct m as [b vs].
      destruct (Hs _ Hin) as [[Hb _] _]. cbn [address_of]. destruct b; [discriminate Hb|exact Hb].
Qed.

Lemma meaning_prefix m : shaped m -> forall p q,
  meaning (p ++ q) m = map (fun x => match x with M a vs => M (p ++ a) vs end) (meaning q m).
Proof.
  revert m. apply (shaped_ind (fun m => forall p q,
    meaning (p ++ q) m = map (fun x => match x with M a vs => M (p ++ a) vs end) (meaning q m))).
  - intros a vs Ha Hv Hb p q. rewrite !meaning_leaf by assumption. cbn [map]. now rewrite <- app_assoc.
  - intros a ms Ha Hm Hs IH p q. cbn [meaning]. rewrite concat_map, map_map. f_equal. apply map_ext_in.
    rewrite Forall_forall in IH. intros m Hin. rewrite <- app_assoc. apply (IH m Hin).
Qed.
Lemma meanings_prefix ms : shaped_all ms -> forall p q,
  meanings (p ++ q) ms = map (fun x => match x with M a vs => M (p ++ a) vs end) (meanings q ms).
Proof.
  intros [_ Hs] p q. unfold meanings. rewrite concat_map, map_map. f_equal. apply map_ext_in.
  rewrite Forall_forall in Hs. intros m Hin. apply meaning_prefix. now apply Hs.
Qed.

(** * Messages that all have an address *)

Definition raw1 (u : umsg) : message :=
  M (match m_address u with Some a => a | None => [] end) (map raw_value (m_args u)).
Definition addressed (u : umsg) : Prop := m_address u <> None.
Definition good (u : umsg) : Prop := ok_msg u /\ addressed u /\ shaped (raw1 u) /\ std_message slash (raw1 u).

Lemma raw_one u : addressed u -> raw_msg u = [raw1 u].
Proof. destruct u as [[a|] args]; [reflexivity|intros H; now destruct H]. Qed.
Lemma raw_all us : Forall addressed us -> raw_msgs us = map raw1 us.
Proof.
  unfold raw_msgs. induction 1 as [|u us H _ IH]; [reflexivity|]. cbn [map concat].
  rewrite raw_one by exact H. cbn [app]. now f_equal.
Qed.
Lemma size_cons m ms : total_size (m :: ms) = zlen (enc_message m) + total_size ms.
Proof. unfold total_size, enc_bundle. cbn [map concat]. rewrite !zlen_app. lia. Qed.
Lemma size_nil : total_size [] = 16.
Proof. reflexivity. Qed.
Lemma size_app l1 l2 : total_size (l1 ++ l2) = total_size l1 + total_size l2 - 16.
Proof. induction l1 as [|m l1 IH]; [rewrite size_nil; cbn [app]; lia|]. cbn [app]. rewrite !size_cons. lia. Qed.
Lemma size_in m ms : In m ms -> zlen (enc_message m) + 16 <= total_size ms.
Proof.
  intros H. unfold total_size, enc_bundle. rewrite zlen_app. pose proof (enc_chunk enc_message ms m H).
  change (zlen empty_header) with 16. lia.
Qed.
Lemma size_ge ms : 16 <= total_size ms.
Proof. unfold total_size, enc_bundle. rewrite zlen_app. change (zlen empty_header) with 16. pose proof (zlen_nonneg (concat (map enc_message ms))). lia. Qed.
Lemma size_node a ms : zlen (enc_message (M a [VBundle ms])) = zlen (pad_str a) + 12 + total_size ms.
Proof.
  cbn [enc_message map concat vtag enc_value]. rewrite app_nil_r.
  rewrite zlen_sized', !zlen_app, zlen_sized'. change (zlen (pad_str [44; 46])) with 4. unfold total_size, enc_bundle.
  rewrite zlen_app. lia.
Qed.
Lemma size_leaf a vs : zlen (enc_message (M a vs)) =
  zlen (pad_str a) + (4 + zlen (pad_str (44 :: map vtag vs)) + zlen (concat (map enc_value vs))).
Proof. cbn [enc_message]. rewrite zlen_sized', !zlen_app. lia. Qed.

Lemma copy_bundle_is us : Forall ok_msg us -> Forall (std_message slash) (raw_msgs us) ->
  total_size (raw_msgs us) + 4 < 2^31 -> copy_bundle us = Ok (map umsg_of (raw_msgs us)).
Proof.
  unfold total_size. intros Hok Hs Hl. unfold copy_bundle. rewrite bundle_size_ok by exact Hok. cbn [bind].
  set (n := 16 + zlen (enc_umsgs us)).
  assert (Hn : n = zlen (enc_bundle empty_header (raw_msgs us))).
  { unfold enc_bundle. rewrite zlen_app, enc_umsgs_raw. reflexivity. }
  assert (Hj : zlen (enc_bundle empty_header (raw_msgs us)) <= zlen (repeat 0 (Z.to_nat n))).
  { rewrite <- Hn. unfold zlen. rewrite repeat_length. lia. }
  rewrite (C12_bundle_encoding us _ Hok Hj). cbn [bind]. unfold bundle_deserialize, enc_bundle in *.
  rewrite zlen_app in Hl.
  assert (Hin : forall m, In m (raw_msgs us) -> zlen (enc_message m) + 4 < 2^31).
  { intros m Hm. pose proof (enc_chunk enc_message (raw_msgs us) m Hm). pose proof (zlen_nonneg empty_header). lia. }
  pose proof (deser_bundle_of) as D. specialize (D [] empty_header (raw_msgs us) []).
  cbn [app] in D. rewrite app_nil_r in D. change (zlen (@nil Z)) with 0 in D.
  apply D; try assumption; try reflexivity; try (rewrite ?zlen_app; lia).
  - apply Forall_forall. intros m _. apply deser_all.
  - apply Forall_forall. intros m Hm. pose proof (proj2 depth_le m).
    pose proof (enc_chunk enc_message (raw_msgs us) m Hm).
    rewrite !app_length. unfold zlen in *. lia.
  - pose proof (zlen_nonneg empty_header). lia.
Qed.

Lemma good_of m : std_message slash m -> shaped m -> zlen (enc_message m) + 4 < 2^31 ->
  good (umsg_of m) /\ raw1 (umsg_of m) = narrow_msg m.
Proof.
  intros Hs Hsh Hl.
  assert (R : raw1 (umsg_of m) = narrow_msg m).
  { pose proof (proj2 raw_obj m Hs ltac:(lia)) as R. rewrite raw_one in R by (destruct m; discriminate). now inversion R. }
  split; [|exact R]. split; [now apply (proj2 ok_obj)|]. split; [destruct m; discriminate|]. rewrite R.
  split; [now apply narrow_shape|now apply (proj2 (proj2 narrow_same m))].
Qed.

(** The two kinds of objects. *)
Lemma node_object u a ms : good u -> raw1 u = M a [VBundle ms] ->
  exists w p, u = UMsg (Some a) [Atom 46 w p] /\ 0 <= w < 2^64 /\ Forall ok_msg (bundle_of (Atom 46 w p)) /\
    raw_msgs (bundle_of (Atom 46 w p)) = ms /\ Forall (std_message slash) ms /\ shaped_all ms /\ ms <> [].
Proof.
  intros (Hok & Had & Hsh & Hst) E. rewrite E in Hsh, Hst. destruct u as [[b|] args]; [|now destruct Had].
  unfold raw1 in E. cbn [m_address m_args] in E. injection E as <- E.
  destruct args as [|[tg w p] [|? ?]]; try discriminate E. apply (f_equal (hd (VFlag 0))) in E.
  change (raw_value (Atom tg w p) = VBundle ms) in E.
  cbn [ok_msg fold_right] in Hok. destruct Hok as (_ & _ & (Hw & Hp) & _).
  assert (X : tg = 46 /\ raw_msgs (bundle_of (Atom tg w p)) = ms /\ Forall ok_msg (bundle_of (Atom tg w p))).
  { cbn [raw_value] in E. destruct (existsb _ _); [discriminate E|]. destruct (existsb _ _); [discriminate E|].
    destruct (tg =? 116); [discriminate E|]. destruct p; try discriminate E.
    - destruct (tg =? 46) eqn:E46; [|discriminate E]. injection E as <-. apply Z.eqb_eq in E46.
      split; [exact E46|]. split; [reflexivity|constructor].
    - injection E as <-. split; [exact (proj1 Hp)|]. split; [reflexivity|]. now apply all_Forall. }
  destruct X as (-> & X1 & X2). exists w, p. split; [reflexivity|]. split; [exact Hw|]. split; [exact X2|].
  split; [exact X1|]. apply std_args in Hst as (_ & _ & _ & Hst). apply Forall_inv in Hst. apply std_bundle in Hst.
  split; [exact Hst|]. cbn [shaped] in Hsh. destruct Hsh as (_ & H1 & H2 & H3). split; [|exact H1].
  split; [exact H2|]. now apply all_Forall.
Qed.

Lemma leaf_tags u a vs : good u -> raw1 u = M a vs -> Forall (fun v => ~ is_bundle v) vs ->
  u = UMsg (Some a) (m_args u) /\ vs = map raw_value (m_args u) /\
  Forall (fun x => a_tt x <> 46 /\ copyable x) (m_args u).
Proof.
  intros (Hok & Had & _) E Hb. destruct u as [[b|] args]; [|now destruct Had].
  unfold raw1 in E. cbn [m_address m_args] in *. injection E as -> E. split; [reflexivity|]. split; [now symmetry|].
  subst vs. rewrite Forall_map in Hb. cbn [ok_msg] in Hok. destruct Hok as (_ & _ & Hok). apply all_Forall in Hok.
  rewrite Forall_forall in *. intros x Hx. specialize (Hb x Hx). specialize (Hok x Hx). split.
  - destruct x as [tg w p]. cbn [a_tt]. intros ->. apply Hb. cbn [ok_atom] in Hok. destruct Hok as [_ Hp].
    destruct p; [exact I| | |exact I]; destruct Hp as [H _]; discriminate H.
  - split; [exact Hok|]. destruct (raw_value x); try exact I. now destruct Hb.
Qed.

Lemma copies xs : Forall (fun x => copyable x) xs -> exists ys, map_res copy_atom xs = Ok ys /\ Forall2 copy_of xs ys.
Proof.
  induction 1 as [|x xs H _ IH]; [exists []; split; [reflexivity|constructor]|].
  destruct (copy_ok x H) as (y & E & C). destruct IH as (ys & E' & C'). exists (y :: ys).
  cbn [map_res]. rewrite E, E'. split; [reflexivity|now constructor].
Qed.

(** What a copy stands for. *)
Definition copied (m : message) : message :=
  match m with M a [VBundle ms] => M a [VBundle (map narrow_msg ms)] | _ => m end.
Lemma copied_leaf a vs : Forall (fun v => ~ is_bundle v) vs -> copied (M a vs) = M a vs.
Proof.
  intros H. destruct vs as [|v [|? ?]]; [reflexivity| |now destruct v].
  destruct v; try reflexivity. apply Forall_inv in H. now destruct H.
Qed.

Lemma copy_msg_ok u : good u -> zlen (enc_message (raw1 u)) < 2^31 ->
  exists c, copy_msg u = Ok c /\ good c /\ raw1 c = copied (raw1 u) /\
    match raw1 u with
    | M a [VBundle ms] => exists w, c = UMsg (Some a) [Atom 46 w (PBndl (map umsg_of ms))]
    | _ => True
    end.
Proof.
  intros G Hl. assert (G' := G). destruct G' as (Hok & Had & Hsh & Hst).
  destruct (leaf_or_node _ Hsh) as [(a & vs & E & Ha & Hv & Hb)|(a & ms & E & Ha & Hm & Hs)].
  - destruct (leaf_tags u a vs G E Hb) as (Eu & Ev & Ht).
    destruct (copies (m_args u)) as (ys & E1 & E2); [eapply Forall_impl; [|exact Ht]; intros x Hx; apply Hx|].
    exists (UMsg (Some a) ys). rewrite Eu. cbn [copy_msg m_args]. rewrite E1. cbn [bind]. split; [reflexivity|].
    assert (Er : map raw_value ys = map raw_value (m_args u)).
    { rewrite Ev, Forall_map in Hb. clear -Hb E2. induction E2 as [|x y xs ys [_ H] _ IH]; [reflexivity|].
      inversion Hb as [|? ? B1 B2]; subst. cbn [map]. f_equal; [|now apply IH].
      rewrite (proj2 H). destruct (raw_value x); try reflexivity. now destruct B1. }
    assert (R : raw1 (UMsg (Some a) ys) = raw1 u).
    { rewrite E. unfold raw1. cbn [m_address m_args]. now rewrite Er, <- Ev. }
    rewrite <- Eu. split; [|split].
    + split.
      * rewrite Eu in Hok. cbn [ok_msg] in *. destruct Hok as (H1 & H2 & _). split; [exact H1|].
        assert (L : length ys = length (m_args u)) by (rewrite <- (map_length raw_value ys), Er; apply map_length).
        split; [unfold zlen in *; rewrite L; exact H2|]. apply all_Forall.
        clear -E2. induction E2 as [|x y xs ys [[H _] _] _ IH]; constructor; assumption.
      * split; [discriminate|]. rewrite R. split; assumption.
    + rewrite R, E. symmetry. now apply copied_leaf.
    + rewrite E. destruct vs as [|v [|? ?]]; [exact I| |now destruct v]. destruct v; try exact I.
      apply Forall_inv in Hb. now destruct Hb.
  - destruct (node_object u a ms G E) as (w & p & -> & Hw & Hoku & Hraw & Hstd & _ & _).
    rewrite E in *. rewrite size_node in Hl.
    pose proof (zlen_nonneg (pad_str a)).
    assert (C : copy_bundle (match p with PBndl ms => ms | _ => [] end) = Ok (map umsg_of ms)).
    { change (match p with PBndl ms => ms | _ => [] end) with (bundle_of (Atom 46 w p)) in *. rewrite <- Hraw.
      apply copy_bundle_is; [exact Hoku|now rewrite Hraw|rewrite Hraw; lia]. }
    cbn [copy_msg map_res copy_atom Z.eqb Pos.eqb]. rewrite C. cbn [bind].
    eexists. split; [reflexivity|].
    assert (GG : Forall good (map umsg_of ms) /\ map raw1 (map umsg_of ms) = map narrow_msg ms).
    { assert (F : Forall (fun m => good (umsg_of m) /\ raw1 (umsg_of m) = narrow_msg m) ms).
      { destruct Hs as [_ Hs]. rewrite Forall_forall in *. intros m Hin. pose proof (size_in m ms Hin).
        apply good_of; [now apply Hstd|now apply Hs|lia]. }
      rewrite Forall_map, map_map. split; [eapply Forall_impl; [|exact F]; intros m X; apply X|].
      apply map_ext_in. rewrite Forall_forall in F. intros m Hin. apply (F m Hin). }
    destruct GG as [GG1 GG2].
    assert (RR : raw_msgs (map umsg_of ms) = map narrow_msg ms).
    { rewrite raw_all; [exact GG2|]. eapply Forall_impl; [|exact GG1]. intros x X. apply X. }
    assert (R : raw1 (UMsg (Some a) [Atom 46 w (PBndl (map umsg_of ms))]) = M a [VBundle (map narrow_msg ms)]).
    { unfold raw1. cbn [m_address m_args map].
      change (raw_value (Atom 46 w (PBndl (map umsg_of ms)))) with (VBundle (raw_msgs (map umsg_of ms))). now rewrite RR. }
    split; [|split; [exact R|now exists w]]. split.
    + cbn [ok_msg fold_right] in Hok |- *. destruct Hok as (H1 & H2 & _). split; [exact H1|]. split; [exact H2|].
      split; [|exact I]. cbn [ok_atom]. split; [exact Hw|]. split; [reflexivity|]. apply all_Forall.
      eapply Forall_impl; [|exact GG1]. intros x X. apply X.
    + split; [discriminate|]. rewrite R. pose proof (proj1 (narrow_shape _ Hsh)) as N.
      pose proof (proj2 (proj2 narrow_same (M a [VBundle ms])) Hst) as N'. split; [exact N|exact N'].
Qed.

Lemma copied_same m : shaped m -> shaped (copied m) /\ address_of (copied m) = address_of m /\
  zlen (enc_message (copied m)) = zlen (enc_message m) /\ (forall p, meaning p (copied m) = meaning p m).
Proof.
  intros Hsh. destruct (leaf_or_node _ Hsh) as [(a & vs & -> & Ha & Hv & Hb)|(a & ms & -> & Ha & Hm & Hs)].
  - rewrite copied_leaf by exact Hb. split; [exact Hsh|]. split; [reflexivity|]. split; reflexivity.
  - pose proof (narrow_shape _ Hsh) as [N1 N2]. split; [exact N1|]. split; [reflexivity|].
    split; [exact (proj1 (proj2 narrow_same (M a [VBundle ms])))|exact N2].
Qed.

(** * Looking up literal addresses *)

Lemma match_literal p a : literal p -> literal a -> exists r, osc_match p a = Ok r /\ (code r = 3 <-> p = a).
Proof.
  intros [H1 H2] [H3 H4]. apply C04_literal_match_is_equality; try assumption.
  eapply Forall_impl; [|exact H4]. intros c Hc X. apply Hc. cbn [In] in *. tauto.
Qed.
Lemma good_literal u : good u -> exists a, m_address u = Some a /\ literal a /\ address_of (raw1 u) = a.
Proof.
  intros (_ & Had & Hsh & _). destruct u as [[a|] args]; [|now destruct Had]. exists a.
  split; [reflexivity|]. split; [apply Hsh|reflexivity].
Qed.

Lemma exists_ok us a : Forall good us -> literal a ->
  exists b, address_exists us a = Ok b /\ (b = true <-> In a (map address_of (map raw1 us))).
Proof.
  intros Hg Ha. induction Hg as [|u us Hu _ IH].
  - exists false. split; [reflexivity|]. split; [discriminate|intros []].
  - destruct (good_literal u Hu) as (x & E1 & Hx & E2). cbn [address_exists map In]. rewrite E1, E2.
    destruct (match_literal a x Ha Hx) as (r & Er & Hr). rewrite Er. cbn [bind].
    destruct (code r =? 3) eqn:Ec.
    + exists true. split; [reflexivity|]. split; [intros _|reflexivity]. left. symmetry. apply Hr. lia.
    + destruct IH as (b & Eb & Hb). exists b. split; [exact Eb|]. rewrite Hb. split; [now right|].
      intros [X|X]; [|exact X]. symmetry in X. apply Hr in X. lia.
Qed.

Lemma lookup_ok us a : Forall good us -> literal a -> Forall (fun u => zlen (enc_message (raw1 u)) < 2^31) us ->
  forall l1 u l2, us = l1 ++ u :: l2 -> address_of (raw1 u) = a -> ~ In a (map address_of (map raw1 l1)) ->
  exists c r, lookup_address us a = Ok (c :: r) /\ copy_msg u = Ok c.
Proof.
  assert (T : forall us, Forall good us -> literal a -> Forall (fun u => zlen (enc_message (raw1 u)) < 2^31) us ->
    exists r, lookup_address us a = Ok r).
  { intros us0 Hg Ha Hl. induction Hg as [|u us0 Hu _ IH]; [now exists []|].
    inversion Hl as [|? ? L1 L2]; subst. destruct (IH L2) as (l & E).
    destruct (good_literal u Hu) as (x & E1 & Hx & E2). cbn [lookup_address]. rewrite E1.
    destruct (match_literal a x Ha Hx) as (r & Er & _). rewrite Er. cbn [bind].
    destruct (copy_msg_ok u Hu L1) as (c & Ec & _). rewrite Ec, E. cbn [bind].
    destruct (code r =? 3); eexists; reflexivity. }
  intros Hg Ha Hl l1 u l2 -> Eu Hn. induction l1 as [|v l1 IH].
  - cbn [app] in *. inversion Hg as [|? ? G1 G2]; subst. inversion Hl as [|? ? L1 L2]; subst.
    destruct (T l2 G2 Ha L2) as (l & E). destruct (good_literal u G1) as (x & E1 & Hx & E2). cbn [lookup_address].
    rewrite E1. rewrite E2 in *. destruct (match_literal x x Ha Hx) as (r & Er & Hr). rewrite Er. cbn [bind].
    rewrite (proj2 (Z.eqb_eq _ _) (proj2 Hr eq_refl)). destruct (copy_msg_ok u G1 L1) as (c & Ec & _).
    rewrite Ec, E. cbn [bind]. exists c, l. split; reflexivity.
  - cbn [app] in *. inversion Hg as [|? ? G1 G2]; subst. inversion Hl as [|? ? L1 L2]; subst.
    destruct (good_literal v G1) as (x & E1 & Hx & E2). cbn [lookup_address]. rewrite E1.
    destruct (match_literal (address_of (raw1 u)) x Ha Hx) as (r & Er & Hr). rewrite Er. cbn [bind].
    destruct (code r =? 3) eqn:Ec.
    + exfalso. apply Hn. cbn [map]. left. rewrite E2. symmetry. apply Hr. lia.
    + apply IH; try assumption. intros X. apply Hn. cbn [map]. now right.
Qed.

Lemma add_new us m a : m_address m = Some a -> ~ In a (map address_of (map raw1 us)) -> Forall good us ->
  add_nodups us m = us ++ [m].
Proof.
  intros E Hn Hg. unfold add_nodups. rewrite E. f_equal. induction Hg as [|u us Hu _ IH]; [reflexivity|].
  cbn [filter]. destruct (good_literal u Hu) as (x & E1 & Hx & E2). unfold same_address at 1. rewrite E1.
  destruct (list_eq_dec Z.eq_dec a x) as [->|Ne].
  - exfalso. apply Hn. cbn [map]. now left.
  - cbn [negb]. f_equal. apply IH. intros X. apply Hn. cbn [map]. now right.
Qed.
Lemma add_replace l1 u l2 m a : m_address m = Some a -> m_address u = Some a -> Forall good (l1 ++ u :: l2) ->
  NoDup (map address_of (map raw1 (l1 ++ u :: l2))) -> add_nodups (l1 ++ u :: l2) m = l1 ++ l2 ++ [m].
Proof.
  intros E Eu Hg Hd. rewrite !map_app in Hd. cbn [map] in Hd.
  apply Forall_app in Hg as [G1 G2]. inversion G2 as [|? ? Gu G3]; subst.
  destruct (good_literal u Gu) as (x & E1 & Hx & E2). rewrite E1 in Eu. injection Eu as ->. rewrite E2 in Hd.
  apply NoDup_remove_2 in Hd. rewrite in_app_iff in Hd.
  assert (K : forall l, Forall good l -> ~ In a (map address_of (map raw1 l)) -> filter (fun x => negb (same_address a x)) l = l).
  { intros l Hl Hn. pose proof (add_new l m a E Hn Hl) as A. unfold add_nodups in A. rewrite E in A.
    now apply app_inv_tail in A. }
  unfold add_nodups. rewrite E, filter_app, app_assoc. f_equal. cbn [filter]. unfold same_address at 2. rewrite E1.
  destruct (list_eq_dec Z.eq_dec a a); [|now destruct n]. cbn [negb]. f_equal; apply K; try assumption; tauto.
Qed.

(** * The first component *)

Lemma upto_split c l : let (p, q) := upto c l in l = p ++ q /\ ~ In c p /\ (q = [] \/ hd 0 q = c).
Proof.
  induction l as [|x l IH]; cbn [upto]; [repeat split; [intros []|now left]|].
  destruct (x =? c) eqn:E.
  - split; [reflexivity|]. split; [intros []|]. right. cbn [hd]. lia.
  - destruct (upto c l) as [p q]. destruct IH as (-> & H1 & H2). split; [reflexivity|]. split; [|exact H2].
    intros [->|X]; [lia|now apply H1].
Qed.
Lemma component_split a : literal a -> exists a1 rest, component 47 a = (a1, rest) /\ a = a1 ++ rest /\
  literal a1 /\ one_component a1 /\ (rest = [] \/ (literal rest /\ rest_address rest = rest)) /\ (1 <= length a1)%nat.
Proof.
  intros Ha. destruct a as [|x r]; [destruct Ha as [H _]; discriminate H|]. assert (Hx : x = 47) by apply Ha. subst x.
  cbn [component Z.eqb Pos.eqb]. destruct r as [|y r].
  - exists [47], []. split; [reflexivity|]. split; [reflexivity|]. split; [exact Ha|]. split; [intros []|]. split; [now left|cbn; lia].
  - pose proof (upto_split 47 r) as U. destruct (upto 47 r) as [p q]. destruct U as (-> & U1 & U2).
    exists (47 :: y :: p), q. split; [reflexivity|]. split; [reflexivity|].
    split; [now apply (literal_app (47 :: y :: p) q)|]. split; [exact U1|]. split; [|cbn; lia].
    destruct U2 as [->|U2]; [now left|right]. split.
    + split; [exact U2|]. destruct Ha as [_ Ha]. change (47 :: y :: p ++ q) with ((47 :: y :: p) ++ q) in Ha.
      apply Forall_app in Ha. apply Ha.
    + unfold rest_address. now rewrite U2.
Qed.

(** * Exploding one message *)

Definition inv (us : list umsg) : Prop := Forall good us /\ NoDup (map address_of (map raw1 us)).

Lemma all_one_node a ms : all_one (M a [VBundle ms]) <-> one_component a /\ Forall all_one ms.
Proof. cbn [all_one]. now rewrite all_Forall. Qed.
Lemma all_one_leaf a vs : Forall (fun v => ~ is_bundle v) vs -> one_component a -> all_one (M a vs).
Proof.
  intros H Ha. cbn [all_one]. split; [exact Ha|]. destruct vs as [|v [|? ?]]; [exact I| |now destruct v].
  destruct v; try exact I. apply Forall_inv in H. now destruct H.
Qed.
Lemma all_one_narrow m : shaped m -> all_one m -> all_one (narrow_msg m).
Proof.
  revert m. apply (shaped_ind (fun m => all_one m -> all_one (narrow_msg m))).
  - intros a vs Ha Hv Hb [H _]. cbn [narrow_msg]. apply all_one_leaf; [now apply narrow_leaf|exact H].
  - intros a ms Ha Hm Hs IH H. apply all_one_node in H as [H1 H2]. cbn [narrow_msg map narrow].
    apply all_one_node. split; [exact H1|]. rewrite Forall_map. now apply (Forall_mp all_one).
Qed.

Lemma meanings_app p l1 l2 : meanings p (l1 ++ l2) = meanings p l1 ++ meanings p l2.
Proof. unfold meanings. now rewrite map_app, concat_app. Qed.
Lemma meanings_one p m : meanings p [m] = meaning p m.
Proof. unfold meanings. cbn [map concat]. apply app_nil_r. Qed.

Lemma inv_shaped us : inv us -> shaped_all (map raw1 us).
Proof.
  intros [H1 H2]. split; [exact H2|]. rewrite Forall_map. eapply Forall_impl; [|exact H1]. intros u (_ & _ & H & _). exact H.
Qed.
Lemma inv_add us m : inv us -> good m -> ~ In (address_of (raw1 m)) (map address_of (map raw1 us)) -> inv (us ++ [m]).
Proof.
  intros [H1 H2] Hg Hn. split; [apply Forall_app; split; [exact H1|apply Forall_cons; [exact Hg|apply Forall_nil]]|].
  rewrite !map_app. cbn [map].
  refine (Permutation_NoDup (Permutation_cons_append _ _) _). now constructor.
Qed.

Lemma not_there us a : inv us -> Forall (fun x => independent (address_of x) a) (meanings [] (map raw1 us)) ->
  forall m, In m (map raw1 us) -> continues (address_of m) a -> False.
Proof.
  intros Hi Hf m Hm (r & Er & Hr). pose proof (inv_shaped us Hi) as [_ Hs]. rewrite Forall_forall in Hs.
  destruct (meaning_continues m (Hs m Hm) []) as [Hne Hc].
  destruct (meaning [] m) as [|x l] eqn:E; [now destruct Hne|].
  pose proof (Forall_inv Hc) as (r' & Ex & Hr'). cbn [app] in Ex.
  assert (Hx : In x (meanings [] (map raw1 us))).
  { unfold meanings. apply in_concat. exists (meaning [] m). split; [now apply in_map|]. rewrite E. now left. }
  rewrite Forall_forall in Hf. destruct (Hf x Hx) as [_ N]. apply N. exists (r ++ r'). rewrite Ex, Er. split; [now rewrite app_assoc|].
  destruct Hr as [->|Hr]; [exact Hr'|]. right. destruct r; [discriminate Hr|exact Hr].
Qed.

Lemma pad_mono a b : zlen a <= zlen b -> zlen (pad_str a) <= zlen (pad_str b).
Proof. intros H. rewrite !zlen_pad_str. pose proof (Z.div_le_mono (zlen a) (zlen b) 4 ltac:(lia) H). lia. Qed.
Lemma pad_bound a : zlen (pad_str a) <= zlen a + 4 /\ zlen a < zlen (pad_str a).
Proof. rewrite zlen_pad_str. pose proof (Z.div_mod (zlen a) 4 ltac:(lia)). pose proof (Z.mod_pos_bound (zlen a) 4 ltac:(lia)). lia. Qed.

Lemma continues_app p x y : continues (p ++ y) (p ++ x) <-> continues y x.
Proof.
  split; intros (r & E & Hr); exists r; (split; [|exact Hr]).
  - rewrite <- app_assoc in E. now apply app_inv_head in E.
  - rewrite E. apply app_assoc.
Qed.

Definition under (p : list Z) (x : message) : message := match x with M a vs => M (p ++ a) vs end.
Lemma meaning_node a ms : shaped_all ms -> meaning [] (M a [VBundle ms]) = map (under a) (meanings [] ms).
Proof.
  intros H. pose proof (meanings_prefix ms H a []) as E. rewrite app_nil_r in E. exact E.
Qed.

Lemma good_node a w us : 0 <= w < 2^64 -> literal a -> nonul a -> wf_bytes a -> zlen a + 4 < 2^32 -> inv us -> us <> [] ->
  good (UMsg (Some a) [Atom 46 w (PBndl us)]) /\
  raw1 (UMsg (Some a) [Atom 46 w (PBndl us)]) = M a [VBundle (map raw1 us)].
Proof.
  intros Hw Ha Hn Hwf Hl Hi Hne. assert (Hi' := Hi). destruct Hi' as [Hg _].
  assert (R : raw1 (UMsg (Some a) [Atom 46 w (PBndl us)]) = M a [VBundle (map raw1 us)]).
  { unfold raw1 at 1. cbn [m_address m_args map].
    change (raw_value (Atom 46 w (PBndl us))) with (VBundle (raw_msgs us)). rewrite raw_all; [reflexivity|].
    eapply Forall_impl; [|exact Hg]. intros x X. apply X. }
  split; [|exact R]. split.
  - cbn [ok_msg fold_right]. split; [split; [exact Hn|split; [exact Hwf|exact Hl]]|]. split; [change (1 + 5 < 2^32); lia|].
    split; [|exact I]. cbn [ok_atom]. split; [exact Hw|]. split; [reflexivity|]. apply all_Forall.
    eapply Forall_impl; [|exact Hg]. intros x X. apply X.
  - split; [discriminate|]. rewrite R. split.
    + apply shaped_node; [exact Ha|destruct us; [now destruct Hne|discriminate]|now apply inv_shaped].
    + apply std_args. split; [exact Hn|]. split; [exact Hwf|]. split; [exact (proj1 Ha)|].
      apply Forall_cons; [|apply Forall_nil]. apply std_bundle. rewrite Forall_map.
      eapply Forall_impl; [|exact Hg]. intros x X. apply X.
Qed.

Lemma snoc_ne {A} (l : list A) x : l ++ [x] <> [].
Proof. destruct l; discriminate. Qed.

Lemma explode_step : forall fuel maxl level dest a args,
  (length a < fuel)%nat -> good (UMsg (Some a) args) -> Forall (fun v => ~ is_bundle v) (map raw_value args) ->
  inv dest -> Forall (fun x => independent (address_of x) a) (meanings [] (map raw1 dest)) ->
  total_size (map raw1 dest) + zlen (enc_message (M a (map raw_value args))) + 40 * zlen a + 4 < 2^31 ->
  exists dest', explode_impl fuel 47 maxl level dest (UMsg (Some a) args) = Ok dest' /\ inv dest' /\ dest' <> [] /\
    Permutation (meanings [] (map raw1 dest')) (meanings [] (map raw1 dest) ++ [M a (map narrow (map raw_value args))]) /\
    total_size (map raw1 dest') <= total_size (map raw1 dest) + zlen (enc_message (M a (map raw_value args))) + 40 * zlen a /\
    (maxl < 0 -> Forall all_one (map raw1 dest) -> Forall all_one (map raw1 dest')).
Proof.
  induction fuel as [|fuel IH]; [intros; lia|].
  intros maxl level dest a args Hf Hg Hb Hi Hind Hsz. cbn [explode_impl].
  set (vs := map raw_value args) in *.
  assert (Hg' := Hg). destruct Hg' as (Hok & _ & Hsh & Hst).
  assert (Ha : literal a) by apply Hsh.
  assert (Hvs : vs <> []).
  { destruct (leaf_or_node _ Hsh) as [(a' & vs' & E & _ & H & _)|(a' & ms & E & _)].
    - change (M a vs = M a' vs') in E. congruence.
    - change (M a vs = M a' [VBundle ms]) in E. congruence. }
  pose proof (zlen_nonneg a) as La.
  assert (ADD : (maxl < 0 -> one_component a) -> inv (dest ++ [UMsg (Some a) args]) /\ dest ++ [UMsg (Some a) args] <> [] /\
    Permutation (meanings [] (map raw1 (dest ++ [UMsg (Some a) args]))) (meanings [] (map raw1 dest) ++ [M a (map narrow vs)]) /\
    total_size (map raw1 (dest ++ [UMsg (Some a) args])) <= total_size (map raw1 dest) + zlen (enc_message (M a vs)) + 40 * zlen a /\
    (maxl < 0 -> Forall all_one (map raw1 dest) -> Forall all_one (map raw1 (dest ++ [UMsg (Some a) args])))).
  { intros Hone. split.
    - apply inv_add; [exact Hi|exact Hg|]. intros X. apply in_map_iff in X as (m & Em & Hm).
      apply (not_there dest a Hi Hind m Hm). exists []. rewrite Em, app_nil_r. split; [reflexivity|now left].
    - split; [apply snoc_ne|]. rewrite map_app. cbn [map].
      change (raw1 (UMsg (Some a) args)) with (M a vs). rewrite meanings_app, meanings_one, meaning_leaf by assumption.
      split; [reflexivity|]. rewrite size_app, size_cons, size_nil. split; [lia|].
      intros Hm Ho. apply Forall_app. split; [exact Ho|]. apply Forall_cons; [|apply Forall_nil].
      apply all_one_leaf; [exact Hb|now apply Hone]. }
  destruct ((maxl <=? level) && (0 <=? maxl)) eqn:Elv.
  { eexists. split; [reflexivity|]. apply ADD. lia. }
  cbn [m_address]. destruct (component_split a Ha) as (a1 & rest & Ec & Eapp & Ha1 & Hone & Hrest & Hlen). rewrite Ec.
  destruct (exists_ok dest a1 (proj1 Hi) Ha1) as (ex & Eex & Hex). rewrite Eex. cbn [bind].
  destruct Hrest as [->|[Hrl Hra]].
  { rewrite app_nil_r in Eapp. subst a1.
    assert (ex = false).
    { destruct ex; [|reflexivity]. exfalso. pose proof (proj1 Hex eq_refl) as X. apply in_map_iff in X as (m & Em & Hm).
      apply (not_there dest a Hi Hind m Hm). exists []. rewrite Em, app_nil_r. split; [reflexivity|now left]. }
    subst ex. eexists. split; [reflexivity|]. now apply ADD. }
  clear ADD. destruct rest as [|c0 rest0]; [destruct Hrl as [X _]; discriminate X|].
  set (rest := c0 :: rest0) in *. rewrite Hra.
  assert (Ew : with_address (UMsg (Some a) args) rest = UMsg (Some rest) args).
  { cbn [with_address]. rewrite (proj1 Hrl). reflexivity. }
  rewrite Ew. apply std_args in Hst as (Hst1 & Hst2 & Hst3 & Hst4).
  assert (Hok' := Hok). cbn [ok_msg] in Hok'. destruct Hok' as ((N1 & N2 & N3) & N4 & N5).
  rewrite Eapp in N1, N2. apply Forall_app in N1 as [N1a N1b]. apply Forall_app in N2 as [N2a N2b].
  assert (Lz : zlen a = zlen a1 + zlen rest) by (rewrite Eapp at 1; apply zlen_app).
  pose proof (zlen_nonneg a1) as L1. pose proof (zlen_nonneg rest) as L2.
  assert (L1' : 1 <= zlen a1) by (unfold zlen; lia).
  assert (Hgr : good (UMsg (Some rest) args)).
  { split; [|split; [discriminate|split]].
    - cbn [ok_msg]. split; [|now split]. split; [exact N1b|]. split; [exact N2b|lia].
    - change (raw1 (UMsg (Some rest) args)) with (M rest vs). now apply shaped_leaf.
    - change (raw1 (UMsg (Some rest) args)) with (M rest vs). apply std_args.
      split; [exact N1b|]. split; [exact N2b|]. split; [exact (proj1 Hrl)|exact Hst4]. }
  assert (Hfr : (length rest < fuel)%nat) by (rewrite Eapp, app_length in Hf; lia).
  assert (Er : zlen (enc_message (M rest vs)) <= zlen (enc_message (M a vs))).
  { rewrite !size_leaf. pose proof (pad_mono rest a ltac:(lia)). lia. }
  pose proof (size_ge (map raw1 dest)) as Sd.
  assert (Emsg : under a1 (M rest (map narrow vs)) = M a (map narrow vs)) by (cbn [under]; now rewrite <- Eapp).
  pose proof (zlen_nonneg (enc_message (M rest vs))) as Ler. pose proof (pad_bound a1) as [Pb _].
  destruct ex.
  - (* there is such a message *)
    pose proof (proj1 Hex eq_refl) as X. apply in_map_iff in X as (m0 & Em0 & X). apply in_map_iff in X as (u & <- & Hu).
    clear Hex. apply in_split in Hu as (l1 & l2 & Edest).
    assert (Hgu : good u). { destruct Hi as [Hi _]. rewrite Edest in Hi. apply Forall_app in Hi as [_ Hi]. now inversion Hi. }
    assert (Hnd := proj2 Hi). rewrite Edest, !map_app in Hnd. cbn [map] in Hnd.
    assert (Hsm : forall v, In v dest -> zlen (enc_message (raw1 v)) < 2^31).
    { intros v Hv. pose proof (size_in (raw1 v) (map raw1 dest) (in_map raw1 dest v Hv)).
      pose proof (zlen_nonneg (enc_message (M a vs))). lia. }
    assert (Hu : In u dest) by (rewrite Edest; apply in_elt).
    destruct (lookup_ok dest a1 (proj1 Hi) Ha1 (proj2 (Forall_forall _ _) Hsm) l1 u l2 Edest Em0) as (c & rr & Elk & Ecu).
    { intros X. rewrite Em0 in Hnd. apply NoDup_remove_2 in Hnd. apply Hnd, in_or_app. now left. }
    fold rest. rewrite Elk. cbn [bind].
    destruct (copy_msg_ok u Hgu (Hsm u Hu)) as (c' & Ec' & Hgc & Rc & _). rewrite Ecu in Ec'. injection Ec' as <-.
    (* it is a bundle *)
    assert (Hshu : shaped (raw1 u)) by apply Hgu.
    destruct (leaf_or_node _ Hshu) as [(x & xs & E & _ & Hxs & Hxb)|(x & ms & E & _ & Hms & Hss)].
    { exfalso. rewrite E in Em0. cbn [address_of] in Em0. subst x. rewrite Forall_forall in Hind.
      assert (In (M a1 (map narrow xs)) (meanings [] (map raw1 dest))).
      { unfold meanings. apply in_concat. exists (meaning [] (raw1 u)). split; [now apply in_map, in_map|].
        rewrite E, meaning_leaf by assumption. now left. }
      destruct (Hind _ H) as [Hc _]. apply Hc. exists rest. split; [exact Eapp|]. right. exact (proj1 Hrl). }
    rewrite E in Em0. cbn [address_of] in Em0. subst x.
    assert (Euc : zlen (enc_message (raw1 c)) < 2^31).
    { rewrite Rc. rewrite (proj1 (proj2 (proj2 (copied_same _ Hshu)))). now apply Hsm. }
    destruct (copy_msg_ok c Hgc Euc) as (d & Ed & Hgd & Rd & Hd). rewrite Ed. cbn [bind].
    rewrite Rc, E in Hd. cbn [copied] in Hd. destruct Hd as (w & ->). cbn [m_args Z.eqb Pos.eqb].
    set (ms1 := map narrow_msg ms) in *.
    assert (Hss1 : shaped_all ms1) by apply (narrow_shapes ms Hss).
    assert (Rd' : raw1 (UMsg (Some a1) [Atom 46 w (PBndl (map umsg_of ms1))]) = M a1 [VBundle (map narrow_msg ms1)]).
    { rewrite Rd, Rc, E. reflexivity. }
    destruct (node_object _ _ _ Hgd Rd') as (w' & p' & E' & Hw & Hokd & Hrawd & Hstd & Hsd & Hned).
    injection E' as <- <-. cbn [bundle_of] in Hokd, Hrawd.
    set (ms2 := map narrow_msg ms1) in *.
    assert (S1 : total_size ms2 = total_size ms).
    { unfold total_size, ms2, ms1. now rewrite !enc_narrow. }
    pose proof (Hsm u Hu) as Su. rewrite E, size_node in Su. pose proof (pad_bound a1) as [_ Pb2].
    rewrite copy_bundle_is; [|exact Hokd|now rewrite Hrawd|rewrite Hrawd, S1; lia]. rewrite Hrawd. cbn [bind].
    assert (GG : Forall (fun m => good (umsg_of m) /\ raw1 (umsg_of m) = narrow_msg m) ms2).
    { destruct Hsd as [_ Hsd]. rewrite Forall_forall in *. intros m Hin. pose proof (size_in m ms2 Hin).
      apply good_of; [now apply Hstd|now apply Hsd|lia]. }
    assert (RR : map raw1 (map umsg_of ms2) = map narrow_msg ms2).
    { rewrite map_map. apply map_ext_in. rewrite Forall_forall in GG. intros m Hin. apply (GG m Hin). }
    assert (Hib : inv (map umsg_of ms2)).
    { split; [rewrite Forall_map; eapply Forall_impl; [|exact GG]; intros m Y; apply Y|]. rewrite RR.
      apply (narrow_shapes ms2 Hsd). }
    assert (MM : meanings [] (map raw1 (map umsg_of ms2)) = meanings [] ms).
    { rewrite RR, (proj2 (narrow_shapes ms2 Hsd)). unfold ms2.
      rewrite (proj2 (narrow_shapes ms1 Hss1)). apply (narrow_shapes ms Hss). }
    assert (SS : total_size (map raw1 (map umsg_of ms2)) = total_size ms).
    { rewrite RR. unfold total_size in *. now rewrite enc_narrow. }
    assert (Stot : total_size ms + zlen (pad_str a1) + 12 + 16 <= total_size (map raw1 dest)).
    { pose proof (size_in (raw1 u) (map raw1 dest) (in_map raw1 dest u Hu)) as Y. rewrite E, size_node in Y. lia. }
    destruct (IH maxl (level + 1) (map umsg_of ms2) rest args Hfr Hgr Hb Hib) as (b' & Eb' & Hib' & Hne' & Hp' & Hs' & Ho').
    { rewrite MM. rewrite Forall_forall in *. intros x Hx.
      assert (In (under a1 x) (meanings [] (map raw1 dest))).
      { unfold meanings. apply in_concat. exists (meaning [] (raw1 u)). split; [now apply in_map, in_map|].
        rewrite E, meaning_node by exact Hss. now apply in_map. }
      destruct (Hind _ H) as [Hc1 Hc2]. destruct x as [ax vx]. cbn [under address_of] in *.
      rewrite Eapp in Hc1, Hc2. rewrite continues_app in Hc1, Hc2. now split. }
    { rewrite SS. fold vs. pose proof (pad_bound a1). lia. }
    rewrite Eb'. cbn [bind m_address].
    destruct (good_node a1 0 b' ltac:(lia) Ha1 N1a N2a ltac:(lia) Hib' Hne') as [Gn Rn].
    change (set_bndl atom_fresh 0 b') with (Atom 46 0 (PBndl b')).
    set (nd := UMsg (Some a1) [Atom 46 0 (PBndl b')]) in *.
    assert (Eua : m_address u = Some a1).
    { destruct (good_literal u Hgu) as (y & Ey & _ & Ey'). rewrite E in Ey'. cbn [address_of] in Ey'. now subst y. }
    rewrite Edest. rewrite (add_replace l1 u l2 nd a1 eq_refl Eua) by (rewrite <- Edest; apply Hi).
    assert (Pu : Permutation (meanings [] (map raw1 dest)) (meanings [] (map raw1 (l1 ++ l2)) ++ map (under a1) (meanings [] ms))).
    { rewrite Edest, !map_app. cbn [map]. rewrite !meanings_app. unfold meanings at 2. cbn [map concat]. fold (meanings [] (map raw1 l2)).
      rewrite E, meaning_node by exact Hss. rewrite <- app_assoc. apply Permutation_app_head. apply Permutation_app_comm. }
    eexists. split; [reflexivity|]. rewrite app_assoc. split; [|split; [apply snoc_ne|split; [|split]]].
    + apply inv_add; [|exact Gn|].
      * split; [|rewrite !map_app; apply NoDup_remove_1 in Hnd; exact Hnd].
        destruct Hi as [Hi _]. rewrite Edest in Hi. apply Forall_app in Hi as [Hi1 Hi2]. inversion Hi2; subst.
        apply Forall_app. now split.
      * rewrite Rn. cbn [address_of]. rewrite !map_app. apply NoDup_remove_2 in Hnd. rewrite E in Hnd. exact Hnd.
    + rewrite (map_app raw1 (l1 ++ l2)), meanings_app. cbn [map]. rewrite meanings_one, Rn, meaning_node by now apply inv_shaped.
      transitivity (meanings [] (map raw1 (l1 ++ l2)) ++ map (under a1) (meanings [] ms ++ [M rest (map narrow vs)])).
      { apply Permutation_app_head, Permutation_map. rewrite MM in Hp'. exact Hp'. }
      rewrite (map_app (under a1)). cbn [map]. rewrite Emsg, app_assoc. apply Permutation_app_tail. symmetry. rewrite <- Edest. exact Pu.
    + rewrite (map_app raw1 (l1 ++ l2)), size_app. cbn [map]. rewrite size_cons, size_nil, Rn, size_node.
      rewrite SS in Hs'. fold vs in Hs'. rewrite !map_app. cbn [map]. rewrite !size_app, size_cons, E, size_node. lia.
    + intros Hm Ho. rewrite <- Edest in Ho. rewrite Edest, map_app in Ho. apply Forall_app in Ho as [O1 O2]. cbn [map] in O2.
      inversion O2 as [|? ? O3 O4]; subst x l.
      rewrite !map_app. apply Forall_app. split; [apply Forall_app; now split|]. apply Forall_cons; [|apply Forall_nil].
      rewrite Rn. apply all_one_node. split; [exact Hone|]. apply Ho'; [exact Hm|]. rewrite RR.
      rewrite E in O3. apply all_one_node in O3 as [_ O3].
      assert (NN : forall l, Forall shaped l -> Forall all_one l -> Forall all_one (map narrow_msg l)).
      { intros l Hl1 Hl2. rewrite Forall_map. rewrite Forall_forall in *. intros m Hin. apply all_one_narrow; [now apply Hl1|now apply Hl2]. }
      unfold ms2, ms1. apply NN; [exact (proj2 Hsd)|]. apply NN; [exact (proj2 Hss1)|]. apply NN; [exact (proj2 Hss)|exact O3].
  - (* there is none *)
    assert (Hnin : ~ In a1 (map address_of (map raw1 dest))) by (intros X; apply Hex in X; discriminate X).
    fold rest.
    destruct (IH maxl (level + 1) [] rest args Hfr Hgr Hb) as (b' & Eb' & Hib' & Hne' & Hp' & Hs' & Ho').
    { split; constructor. }
    { constructor. }
    { change (total_size (map raw1 [])) with 16. fold vs. lia. }
    rewrite Eb'. cbn [bind].
    destruct (good_node a1 0 b' ltac:(lia) Ha1 N1a N2a ltac:(lia) Hib' Hne') as [Gn Rn].
    change (set_bndl atom_fresh 0 b') with (Atom 46 0 (PBndl b')).
    assert (Ew1 : with_address (UMsg None [Atom 46 0 (PBndl b')]) a1 = UMsg (Some a1) [Atom 46 0 (PBndl b')]).
    { cbn [with_address]. rewrite (proj1 Ha1). reflexivity. }
    rewrite Ew1. set (nd := UMsg (Some a1) [Atom 46 0 (PBndl b')]) in *.
    rewrite (add_new dest nd a1 eq_refl Hnin (proj1 Hi)).
    eexists. split; [reflexivity|]. split; [|split; [apply snoc_ne|split; [|split]]].
    + apply inv_add; [exact Hi|exact Gn|]. rewrite Rn. exact Hnin.
    + rewrite map_app, meanings_app. cbn [map]. rewrite meanings_one, Rn, meaning_node by now apply inv_shaped.
      apply Permutation_app_head. rewrite Hp'. cbn [map meanings concat app]. fold vs. now rewrite Emsg.
    + rewrite map_app, size_app. cbn [map]. rewrite size_cons, size_nil, Rn, size_node.
      change (total_size (map raw1 [])) with 16 in Hs'. fold vs in Hs'. lia.
    + intros Hm Ho. rewrite map_app. apply Forall_app. split; [exact Ho|]. apply Forall_cons; [|apply Forall_nil].
      rewrite Rn. apply all_one_node. split; [exact Hone|]. apply Ho'; [exact Hm|constructor].
Qed.

(** * Exploding a bundle *)

Lemma costs_pos ms : 0 <= costs ms.
Proof.
  induction ms as [|[a vs] ms IH]; cbn [costs fold_right cost]; [lia|]. fold (costs ms).
  pose proof (zlen_nonneg (enc_message (M a vs))). pose proof (zlen_nonneg a). lia.
Qed.

Lemma explode_all fuel maxl sep : separator sep = 47 -> forall src dest,
  Forall good src -> Forall plain_message (map raw1 src) -> Forall (fun m => (length (address_of m) < fuel)%nat) (map raw1 src) ->
  inv dest ->
  ForallOrdPairs (fun x y => independent (address_of x) (address_of y)) (map raw1 src) ->
  Forall (fun x => Forall (fun y => independent (address_of x) (address_of y)) (map raw1 src)) (meanings [] (map raw1 dest)) ->
  total_size (map raw1 dest) + costs (map raw1 src) + 4 < 2^31 ->
  exists ex, explode fuel sep maxl dest src = Ok ex /\ inv ex /\
    Permutation (meanings [] (map raw1 ex)) (meanings [] (map raw1 dest) ++ map narrow_msg (map raw1 src)) /\
    total_size (map raw1 ex) <= total_size (map raw1 dest) + costs (map raw1 src) /\
    (maxl < 0 -> Forall all_one (map raw1 dest) -> Forall all_one (map raw1 ex)).
Proof.
  intros Esep. induction src as [|u src IH]; intros dest Hg Hp Hf Hi Hpw Hx Hsz.
  - exists dest. cbn [explode map costs fold_right]. split; [reflexivity|]. split; [exact Hi|].
    rewrite app_nil_r. split; [reflexivity|]. split; [lia|tauto].
  - cbn [map] in *. cbn [costs fold_right] in Hsz. fold (costs (map raw1 src)) in Hsz.
    pose proof (costs_pos (map raw1 src)) as Hc0. pose proof (size_ge (map raw1 dest)) as Sd.
    pose proof (Forall_inv Hg) as G1. pose proof (Forall_inv_tail Hg) as G2.
    pose proof (Forall_inv Hp) as P1. pose proof (Forall_inv_tail Hp) as P2.
    pose proof (Forall_inv Hf) as F1. pose proof (Forall_inv_tail Hf) as F2.
    inversion Hpw as [|? ? W1 W2]. subst a l.
    destruct (raw1 u) as [a vs] eqn:E. cbn [plain_message] in P1. destruct P1 as (Ha & Hv & Hb).
    cbn [cost] in Hsz. pose proof (zlen_nonneg a) as La.
    assert (G1' := G1). assert (Su : zlen (enc_message (raw1 u)) < 2^31) by (rewrite E; lia).
    destruct (copy_msg_ok u G1 Su) as (c & Ec & Gc & Rc & _). rewrite E, copied_leaf in Rc by exact Hb.
    cbn [explode msg_explode]. unfold msg_explode. rewrite Ec, Esep. cbn [bind].
    destruct (leaf_tags c a vs Gc Rc Hb) as (Eu & Ev & _).
    set (args := m_args c) in *. rewrite Eu in Gc |- *. rewrite Ev in *.
    destruct (explode_step fuel maxl 0 dest a args F1 Gc Hb Hi) as (dest1 & E1 & Hi1 & _ & Hp1 & Hs1 & Ho1).
    { eapply Forall_impl; [|exact Hx]. intros x X. exact (Forall_inv X). }
    { lia. }
    rewrite E1. cbn [bind].
    destruct (IH dest1 G2 P2 F2 Hi1 W2) as (ex & E2 & Hi2 & Hp2 & Hs2 & Ho2).
    { rewrite Forall_forall. intros x Hin. apply (Permutation_in _ Hp1) in Hin. apply in_app_or in Hin as [Hin|[<-|[]]].
      - rewrite Forall_forall in Hx. exact (Forall_inv_tail (Hx x Hin)).
      - exact W1. }
    { lia. }
    exists ex. split; [exact E2|]. split; [exact Hi2|]. split; [|split].
    + rewrite Hp2. cbn [narrow_msg]. rewrite Hp1, <- app_assoc. reflexivity.
    + cbn [costs fold_right cost]. fold (costs (map raw1 src)). lia.
    + intros Hm Ho. apply Ho2; [exact Hm|]. now apply Ho1.
Qed.

(** * Flattening *)

Definition atoms_loop (keeps : bool) (sep : list Z) (prefix address : option (list Z))
  (inner : option (list Z) -> list umsg -> list umsg -> res (list umsg)) :=
  fix atoms (args : list atom) (dest : list umsg) (kept : list atom) {struct args} : res (list umsg * list atom) :=
    match args with
    | [] => Ok (dest, kept)
    | a :: args' =>
        if a_tt a =? 46 then
          do pfx <- joined sep prefix address;
          do dest <- inner pfx dest (bundle_of a);
          if keeps then atoms args' dest kept else Ub Dangling
        else atoms args' dest (kept ++ [a])
    end.

Lemma flatten_nil keeps maxl sep rm fuel level prefix dest :
  flatten_impl keeps maxl sep rm (S fuel) level prefix dest [] = Ok dest.
Proof. reflexivity. Qed.
Lemma flatten_cons keeps maxl sep rm fuel level prefix dest m src :
  flatten_impl keeps maxl sep rm (S fuel) level prefix dest (m :: src) =
  do m <- copy_msg m;
  do ' (dest, kept) <-
    (if (level <? maxl) || (maxl <=? 0) then
       atoms_loop keeps sep prefix (m_address m) (flatten_impl keeps maxl sep rm fuel (level + 1)) (m_args m) dest []
     else Ok (dest, m_args m));
  if negb rm || (0 <? zlen kept) then
    do m <- match prefix with
            | None => Ok (UMsg (m_address m) kept)
            | Some _ =>
                do na <- joined sep prefix (m_address m);
                Ok (match na with Some a => with_address (UMsg (m_address m) kept) a
                             | None => UMsg (m_address m) kept end)
            end;
    flatten_impl keeps maxl sep rm (S fuel) level prefix (add_nodups dest m) src
  else flatten_impl keeps maxl sep rm (S fuel) level prefix dest src.
Proof. reflexivity. Qed.

Lemma atoms_leaf keeps sep prefix ad inner : forall args dest kept, Forall (fun x => a_tt x <> 46) args ->
  atoms_loop keeps sep prefix ad inner args dest kept = Ok (dest, kept ++ args).
Proof.
  induction args as [|x args IH]; intros dest kept H; cbn [atoms_loop]; [now rewrite app_nil_r|].
  inversion H as [|? ? H1 H2]; subst. rewrite (proj2 (Z.eqb_neq _ _) H1).
  fold (atoms_loop keeps sep prefix ad inner). rewrite IH by exact H2. now rewrite <- app_assoc.
Qed.

Lemma add_fresh us m a : m_address m = Some a -> ~ In (Some a) (map m_address us) -> add_nodups us m = us ++ [m].
Proof.
  intros E Hn. unfold add_nodups. rewrite E. f_equal. induction us as [|u us IH]; [reflexivity|].
  cbn [filter]. unfold same_address at 1. cbn [map In] in Hn. destruct (m_address u) as [x|].
  - destruct (list_eq_dec Z.eq_dec a x) as [->|Ne]; [exfalso; apply Hn; now left|]. cbn [negb]. f_equal. apply IH. tauto.
  - cbn [negb]. f_equal. apply IH. tauto.
Qed.
Lemma addressed_in us a : Forall addressed us -> In (Some a) (map m_address us) -> In a (map address_of (map raw1 us)).
Proof.
  intros H X. apply in_map_iff in X as (u & E & Hu). rewrite map_map. apply in_map_iff. exists u. split; [|exact Hu].
  unfold raw1. rewrite E. reflexivity.
Qed.

Lemma NoDup_mid {A} (l1 l2 l3 : list A) : NoDup (l1 ++ l2 ++ l3) -> NoDup (l1 ++ l2).
Proof.
  rewrite app_assoc. generalize (l1 ++ l2). intros l H. induction l as [|x l IH]; [constructor|].
  cbn [app] in H. inversion H as [|? ? H1 H2]; subst. constructor; [intros X; apply H1, in_or_app; now left|now apply IH].
Qed.
Lemma NoDup_out {A} (l1 l2 : list A) x : NoDup (l1 ++ x :: l2) -> ~ In x l1.
Proof. intros H X. apply NoDup_remove_2 in H. apply H, in_or_app. now left. Qed.

Lemma narrow_addresses ms : map address_of (map narrow_msg ms) = map address_of ms.
Proof. rewrite map_map. apply map_ext. apply addr_narrow. Qed.

Lemma flatten_all maxl : maxl <= 0 -> forall fuel level src pfx p dest,
  (pfx = None /\ p = [] \/ pfx = Some p /\ hd 0 p = 47) -> nonul p -> wf_bytes p ->
  inv src -> zlen p + total_size (map raw1 src) + 4 < 2^31 -> total_size (map raw1 src) <= Z.of_nat fuel ->
  Forall addressed dest -> Forall ok_msg dest ->
  NoDup (map address_of (map raw1 dest) ++ map address_of (meanings p (map raw1 src))) ->
  exists dest', flatten_impl true maxl [] true fuel level pfx dest src = Ok dest' /\
    Forall addressed dest' /\ Forall ok_msg dest' /\
    map narrow_msg (map raw1 dest') = map narrow_msg (map raw1 dest) ++ meanings p (map raw1 src).
Proof.
  intros Hml. induction fuel as [|fuel IHf]; intros level.
  { intros src pfx p dest _ _ _ _ _ H. pose proof (size_ge (map raw1 src)). lia. }
  induction src as [|u src IHs]; intros pfx p dest Hpfx Hn Hwf Hi Hsz Hfu Had Hok Hnd.
  { exists dest. rewrite flatten_nil. split; [reflexivity|]. split; [exact Had|]. split; [exact Hok|].
    unfold meanings. cbn [map concat]. now rewrite app_nil_r. }
  assert (Hi' := Hi). destruct Hi' as [Hg Hdist]. cbn [map] in *.
  pose proof (Forall_inv Hg) as G1. pose proof (Forall_inv_tail Hg) as G2.
  assert (Hi2 : inv src) by (split; [exact G2|]; now inversion Hdist).
  rewrite size_cons in Hsz, Hfu. pose proof (zlen_nonneg p) as Lp.
  pose proof (zlen_nonneg (enc_message (raw1 u))) as Lu. pose proof (size_ge (map raw1 src)) as Ls.
  destruct (copy_msg_ok u G1 ltac:(lia)) as (c & Ec & Gc & Rc & Hc).
  rewrite flatten_cons, Ec. cbn [bind].
  assert (El : (level <? maxl) || (maxl <=? 0) = true).
  { rewrite (proj2 (Z.leb_le _ _) Hml). apply orb_true_r. }
  rewrite El. clear El.
  assert (Hj : forall a, joined [] pfx (Some a) = Ok (Some (p ++ a))).
  { intros a. destruct Hpfx as [[-> ->]|[-> _]]; reflexivity. }
  assert (Hsh : shaped (raw1 u)) by apply G1.
  assert (Hms : meanings p (raw1 u :: map raw1 src) = meaning p (raw1 u) ++ meanings p (map raw1 src)) by reflexivity.
  rewrite Hms, map_app in Hnd. rewrite Hms. clear Hms.
  destruct (leaf_or_node _ Hsh) as [(a & vs & E & Ha & Hv & Hb)|(a & ms & E & Ha & Hm & Hs)].
  - (* data *)
    rewrite E, copied_leaf in Rc by exact Hb. destruct (leaf_tags c a vs Gc Rc Hb) as (Eu & Ev & Ht).
    rewrite atoms_leaf by (eapply Forall_impl; [|exact Ht]; intros x X; apply X). cbn [bind app].
    assert (Hne : 0 <? zlen (m_args c) = true).
    { destruct (m_args c); [subst vs; now destruct Hv|]. rewrite zlen_cons. pose proof (zlen_nonneg l). lia. }
    rewrite Hne. cbn [negb orb]. assert (Hac : m_address c = Some a) by (rewrite Eu; reflexivity). rewrite Hac.
    assert (Hmsg : (match pfx with
            | None => Ok (UMsg (Some a) (m_args c))
            | Some _ => do na <- joined [] pfx (Some a);
                Ok (match na with Some a0 => with_address (UMsg (Some a) (m_args c)) a0
                             | None => UMsg (Some a) (m_args c) end)
            end) = Ok (UMsg (Some (p ++ a)) (m_args c))).
    { rewrite Hj. cbn [bind]. destruct Hpfx as [[-> ->]|[-> Hp]]; [reflexivity|]. cbn [with_address].
      destruct p as [|x p]; [discriminate Hp|]. cbn [hd app] in *. subst x. reflexivity. }
    rewrite Hmsg. cbn [bind]. rewrite E, meaning_leaf in Hnd |- * by assumption. cbn [map app address_of] in Hnd.
    set (m' := UMsg (Some (p ++ a)) (m_args c)).
    assert (Rm : raw1 m' = M (p ++ a) vs) by (unfold raw1, m'; cbn [m_address m_args]; now rewrite <- Ev).
    rewrite (add_fresh dest m' (p ++ a) eq_refl).
    2:{ intros X. apply (NoDup_out _ _ _ Hnd). now apply addressed_in. }
    destruct (IHs pfx p (dest ++ [m']) Hpfx Hn Hwf Hi2 ltac:(lia) ltac:(lia)) as (out & E1 & H1 & H2 & H3).
    + apply Forall_app. split; [exact Had|]. apply Forall_cons; [discriminate|apply Forall_nil].
    + apply Forall_app. split; [exact Hok|]. apply Forall_cons; [|apply Forall_nil].
      destruct Gc as (Gok & _). rewrite Eu in Gok. cbn [ok_msg m'] in *. destruct Gok as ((O1 & O2 & O3) & O4 & O5).
      split; [|split; assumption]. split; [apply Forall_app; now split|]. split; [apply Forall_app; now split|].
      rewrite zlen_app. rewrite E, size_leaf in Hsz. pose proof (pad_bound a) as [_ Pb].
      pose proof (zlen_nonneg (pad_str (44 :: map vtag vs))). pose proof (zlen_nonneg (concat (map enc_value vs))). lia.
    + rewrite !map_app, <- app_assoc. cbn [map app]. rewrite Rm. exact Hnd.
    + exists out. split; [exact E1|]. split; [exact H1|]. split; [exact H2|]. rewrite H3, !map_app, <- app_assoc. cbn [map app].
      now rewrite Rm.
  - (* a nested bundle *)
    rewrite E in Hc. destruct Hc as (w & ->). rewrite E in Rc. cbn [copied] in Rc.
    cbn [m_args m_address atoms_loop a_tt Z.eqb Pos.eqb bundle_of]. rewrite Hj. cbn [bind].
    destruct (node_object _ _ _ Gc Rc) as (w' & p' & E' & _ & _ & Hraw & Hstd & Hsd & Hned). injection E' as <- <-.
    cbn [bundle_of] in Hraw. rewrite E, size_node in Hsz, Hfu. pose proof (pad_bound a) as [_ Pb]. pose proof (zlen_nonneg a) as La.
    pose proof (size_ge ms) as Lm.
    assert (Hstm : Forall (std_message slash) ms).
    { destruct (node_object _ _ _ G1 E) as (_ & _ & _ & _ & _ & _ & X & _). exact X. }
    assert (GG : Forall (fun m => good (umsg_of m) /\ raw1 (umsg_of m) = narrow_msg m) ms).
    { destruct Hs as [_ Hs]. rewrite Forall_forall in *. intros m Hin. pose proof (size_in m ms Hin).
      apply good_of; [now apply Hstm|now apply Hs|lia]. }
    assert (RR : map raw1 (map umsg_of ms) = map narrow_msg ms).
    { rewrite map_map. apply map_ext_in. rewrite Forall_forall in GG. intros m Hin. apply (GG m Hin). }
    assert (Hib : inv (map umsg_of ms)).
    { split; [rewrite Forall_map; eapply Forall_impl; [|exact GG]; intros m Y; apply Y|]. rewrite RR.
      apply (narrow_shapes ms Hs). }
    assert (MM : meanings (p ++ a) (map raw1 (map umsg_of ms)) = meaning p (raw1 u)).
    { rewrite RR, (proj2 (narrow_shapes ms Hs)), E. reflexivity. }
    assert (SS : total_size (map raw1 (map umsg_of ms)) = total_size ms).
    { rewrite RR. unfold total_size in *. now rewrite enc_narrow. }
    destruct G1 as (Gok & _ & _ & Gst). rewrite E in Gst. apply std_args in Gst as (St1 & St2 & St3 & _).
    destruct (IHf (level + 1) (map umsg_of ms) (Some (p ++ a)) (p ++ a) dest) as (d1 & E1 & A1 & O1 & C1).
    + right. split; [reflexivity|]. destruct p as [|x p]; [exact St3|]. cbn [app hd] in *.
      destruct Hpfx as [[_ X]|[_ X]]; [discriminate X|exact X].
    + apply Forall_app. now split.
    + apply Forall_app. now split.
    + exact Hib.
    + rewrite SS, zlen_app. lia.
    + rewrite SS. lia.
    + exact Had.
    + exact Hok.
    + rewrite MM. exact (NoDup_mid _ _ _ Hnd).
    + rewrite E1. cbn [bind]. change (0 <? zlen (@nil atom)) with false. cbn [negb orb].
      rewrite MM in C1.
      assert (Haddr : map address_of (map raw1 d1) = map address_of (map raw1 dest) ++ map address_of (meaning p (raw1 u))).
      { rewrite <- (narrow_addresses (map raw1 d1)), C1, map_app, narrow_addresses. reflexivity. }
      destruct (IHs pfx p d1 Hpfx Hn Hwf Hi2 ltac:(lia) ltac:(lia) A1 O1) as (out & E2 & A2 & O2 & C2).
      { rewrite Haddr, <- app_assoc. exact Hnd. }
      exists out. split; [exact E2|]. split; [exact A2|]. split; [exact O2|]. rewrite C2, C1. now rewrite <- app_assoc.
Qed.
