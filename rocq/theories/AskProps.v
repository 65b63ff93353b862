(** C94: questions to bundle objects. *)

From Coq Require Import String ZArith List Bool Lia.
From Verif Require Import Base BaseProofs Bytes Text MatchModel
  WireWalk WireSpec SerialModel SerialSpec SerialProofs SerialProps WireModel WireProofs ArgProofs DeserProofs WireProps
  AtomUModel ExprModel ExprSpec ExprListProofs FlattenModel FlattenSpec FlattenProofs FlattenProps TreeModel TreeProps
  BundleSModel BundleSProofs BundleSProps AskModel.
Import ListNotations.
Open Scope Z_scope.

(** The messages whose address the pattern selects, in order.  [selects] is explained by
    C20_full_matches and C20_partial_matches. *)
Definition chosen (fullmatch : bool) (pat : list Z) (b : list umsg) : list umsg :=
  filter (fun m => match m_address m with Some a => selects fullmatch pat a | None => false end) b.

Lemma hit_then {A} full pat a (k : bool -> res A) :
  (do r <- osc_match pat a; do h <- hit full pat r; k h) = k (selects full pat a).
Proof.
  pose proof (hit_selects full pat a) as H. destruct (osc_match pat a) as [r| |]; cbn [bind] in *; [|discriminate H..]. rewrite H. reflexivity.
Qed.

(** Does an address exist, is it bound, and to which message? *)
Theorem C94_exists full pat b : u_exists b pat full = Ok (match chosen full pat b with [] => false | _ => true end).
Proof.
  induction b as [|m b IH]; [reflexivity|]. cbn [u_exists chosen filter]. destruct (m_address m) as [a|]; [|exact IH].
  rewrite (hit_then full pat a (fun h => if h then Ok true else u_exists b pat full)). destruct (selects full pat a); [reflexivity|exact IH].
Qed.
Print Assumptions C94_exists.
Theorem C94_bound full pat b :
  u_bound b pat full = Ok (match chosen full pat b with [] => false | m :: _ => match m_args m with [] => false | _ => true end end).
Proof.
  induction b as [|m b IH]; [reflexivity|]. cbn [u_bound chosen filter]. destruct (m_address m) as [a|]; [|exact IH].
  rewrite (hit_then full pat a (fun h => if h then Ok (0 <? zlen (m_args m)) else u_bound b pat full)). destruct (selects full pat a); [|exact IH].
  destruct (m_args m); [reflexivity|]. rewrite zlen_cons. pose proof (zlen_nonneg l). f_equal. apply Z.ltb_lt. lia.
Qed.
Print Assumptions C94_bound.
Theorem C94_first pat b : u_first b pat = Ok (hd_error (chosen true pat b)).
Proof.
  induction b as [|m b IH]; [reflexivity|]. cbn [u_first chosen filter]. destruct (m_address m) as [a|]; [|exact IH].
  pose proof (hit_then true pat a (fun h => if h then Ok (Some m) else u_first b pat)) as K. cbn [hit] in K. cbn [bind] in K. rewrite K.
  destruct (selects true pat a); [reflexivity|exact IH].
Qed.
Print Assumptions C94_first.

(** * Copies *)
(** The same address and, one by one, copies of the arguments (ExprSpec.v). *)
Definition message_copy (m c : umsg) : Prop := m_address c = m_address m /\ Forall2 copy_of (m_args m) (m_args c).
Lemma copy_msg_is m : Forall copyable (m_args m) -> exists c, copy_msg m = Ok c /\ message_copy m c.
Proof.
  destruct m as [a args]. cbn [m_args]. intros H. destruct (copies args H) as (ys & E & C). exists (UMsg a ys). cbn [copy_msg]. rewrite E. split; [reflexivity|].
  split; [reflexivity|exact C].
Qed.
Lemma resize_more cs k n : zlen cs + Z.of_nat k <= n ->
  u_resize (cs ++ repeat blank k) n = cs ++ repeat blank (Z.to_nat n - length cs).
Proof.
  intros H. unfold u_resize. rewrite <- app_assoc, <- repeat_app, firstn_all2.
  - f_equal. f_equal. rewrite app_length, repeat_length. unfold zlen in H. lia.
  - rewrite app_length, !repeat_length, app_length, repeat_length. unfold zlen in H. lia.
Qed.
Lemma put_next cs k c : put (cs ++ repeat blank (S k)) (zlen cs) c = (cs ++ [c]) ++ repeat blank k.
Proof.
  unfold put. replace (Z.to_nat (zlen cs)) with (length cs) by (unfold zlen; lia). cbn [repeat].
  rewrite firstn_app, firstn_all, Nat.sub_diag. cbn [firstn]. rewrite app_nil_r, <- app_assoc. f_equal. cbn [app]. f_equal.
  replace (S (length cs)) with (length cs + 1)%nat by lia. rewrite skipn_app, skipn_all2 by lia. cbn [app].
  replace (length cs + 1 - length cs)%nat with 1%nat by lia. reflexivity.
Qed.
Lemma collect_ok full pat b : Forall (fun m => m_address m <> None /\ Forall copyable (m_args m)) b -> forall cs k,
  exists new k', u_collect b pat full (cs ++ repeat blank k) (zlen cs + Z.of_nat k) (zlen cs) =
    Ok ((cs ++ new) ++ repeat blank k', zlen (cs ++ new)) /\ Forall2 message_copy (chosen full pat b) new.
Proof.
  induction 1 as [|m b [Ha Hc] _ IH]; intros cs k.
  { exists [], k. rewrite app_nil_r. split; [reflexivity|constructor]. }
  cbn [u_collect chosen filter].
  assert (R : exists k', (0 < k')%nat /\ (if zlen cs >=? zlen cs + Z.of_nat k then (u_resize (cs ++ repeat blank k) (zlen cs + Z.of_nat k + 16), zlen cs + Z.of_nat k + 16)
     else (cs ++ repeat blank k, zlen cs + Z.of_nat k)) = (cs ++ repeat blank k', zlen cs + Z.of_nat k')).
  { destruct (Z.geb_spec (zlen cs) (zlen cs + Z.of_nat k)) as [L|L].
    - exists 16%nat. split; [lia|]. assert (k = 0%nat) as -> by lia. rewrite resize_more by lia. f_equal; [|lia]. f_equal. f_equal. unfold zlen. lia.
    - exists k. split; [lia|reflexivity]. }
  destruct R as (k' & Hk & ->). destruct (m_address m) as [a|] eqn:Ea; [|now elim Ha].
  rewrite (hit_then full pat a (fun h => if negb h then u_collect b pat full (cs ++ repeat blank k') (zlen cs + Z.of_nat k') (zlen cs) else
    do c <- copy_msg m; u_collect b pat full (if zlen (cs ++ repeat blank k') <=? zlen cs then cs ++ repeat blank k' else put (cs ++ repeat blank k') (zlen cs) c)
      (zlen cs + Z.of_nat k') (zlen cs + 1))).
  destruct (selects full pat a); cbn [negb]; [|exact (IH cs k')].
  destruct (copy_msg_is m Hc) as (c & -> & Cc). cbn [bind]. destruct k' as [|k']; [lia|].
  destruct (Z.leb_spec (zlen (cs ++ repeat blank (S k'))) (zlen cs)) as [L|L].
  { rewrite zlen_app in L. cbn [repeat] in L. rewrite zlen_cons in L. pose proof (zlen_nonneg (repeat blank k')). lia. }
  rewrite put_next. destruct (IH (cs ++ [c]) k') as (new & k2 & E & F). exists (c :: new), k2.
  rewrite zlen_app in E. change (zlen [c]) with 1 in E. replace (zlen cs + Z.of_nat (S k')) with (zlen cs + 1 + Z.of_nat k') by lia.
  rewrite E. rewrite <- !app_assoc. split; [reflexivity|]. constructor; [exact Cc|exact F].
Qed.

(** Looking up gives copies of the messages selected, in their order: one for each. *)
Theorem C94_lookup full pat b : Forall (fun m => m_address m <> None /\ Forall copyable (m_args m)) b ->
  exists cs, u_lookup b pat full = Ok cs /\ Forall2 message_copy (chosen full pat b) cs.
Proof.
  intros H. unfold u_lookup. destruct (collect_ok full pat b H [] 16) as (new & k & E & F). cbn [app] in E. change (zlen (@nil umsg) + Z.of_nat 16) with 16 in E.
  change (zlen (@nil umsg)) with 0 in E. rewrite E. cbn [bind]. exists new. split; [|exact F]. f_equal. unfold u_resize.
  replace (Z.to_nat (zlen new)) with (length new) by (unfold zlen; lia). rewrite <- app_assoc, firstn_app, firstn_all, Nat.sub_diag. cbn [firstn]. apply app_nil_r.
Qed.
Print Assumptions C94_lookup.
(** A message without an address, which the other questions pass over, is an error here. *)
Theorem C94_no_address_refuted full pat b1 args b2 :
  Forall (fun m => m_address m <> None /\ Forall copyable (m_args m)) b1 ->
  u_lookup (b1 ++ UMsg None args :: b2) pat full = Ub NullDeref /\
  u_exists (b1 ++ UMsg None args :: b2) pat full = u_exists (b1 ++ b2) pat full.
Proof.
  intros H. split.
  - unfold u_lookup. cut (forall cs k, u_collect (b1 ++ UMsg None args :: b2) pat full (cs ++ repeat blank k) (zlen cs + Z.of_nat k) (zlen cs) = Ub NullDeref).
    { intros K. specialize (K [] 16%nat). cbn [app] in K. change (zlen (@nil umsg) + Z.of_nat 16) with 16 in K. change (zlen (@nil umsg)) with 0 in K. rewrite K. reflexivity. }
    induction H as [|m b1 [Ha Hc] _ IH]; intros cs k.
    { cbn [app u_collect]. destruct (zlen cs >=? zlen cs + Z.of_nat k); reflexivity. }
    cbn [app u_collect].
    assert (R : exists k', (0 < k')%nat /\ (if zlen cs >=? zlen cs + Z.of_nat k then (u_resize (cs ++ repeat blank k) (zlen cs + Z.of_nat k + 16), zlen cs + Z.of_nat k + 16)
       else (cs ++ repeat blank k, zlen cs + Z.of_nat k)) = (cs ++ repeat blank k', zlen cs + Z.of_nat k')).
    { destruct (Z.geb_spec (zlen cs) (zlen cs + Z.of_nat k)) as [L|L].
      - exists 16%nat. split; [lia|]. assert (k = 0%nat) as -> by lia. rewrite resize_more by lia. f_equal; [|lia]. f_equal. f_equal. unfold zlen. lia.
      - exists k. split; [lia|reflexivity]. }
    destruct R as (k' & Hk & ->). destruct (m_address m) as [a|] eqn:Ea; [|now elim Ha].
    rewrite (hit_then full pat a (fun h => if negb h then u_collect (b1 ++ UMsg None args :: b2) pat full (cs ++ repeat blank k') (zlen cs + Z.of_nat k') (zlen cs) else
      do c <- copy_msg m; u_collect (b1 ++ UMsg None args :: b2) pat full (if zlen (cs ++ repeat blank k') <=? zlen cs then cs ++ repeat blank k' else put (cs ++ repeat blank k') (zlen cs) c)
        (zlen cs + Z.of_nat k') (zlen cs + 1))).
    destruct (selects full pat a); cbn [negb]; [|exact (IH cs k')].
    destruct (copy_msg_is m Hc) as (c & -> & Cc). cbn [bind]. destruct k' as [|k']; [lia|].
    destruct (Z.leb_spec (zlen (cs ++ repeat blank (S k'))) (zlen cs)) as [L|L].
    { rewrite zlen_app in L. cbn [repeat] in L. rewrite zlen_cons in L. pose proof (zlen_nonneg (repeat blank k')). lia. }
    rewrite put_next. specialize (IH (cs ++ [c]) k'). rewrite zlen_app in IH. change (zlen [c]) with 1 in IH.
    replace (zlen cs + Z.of_nat (S k')) with (zlen cs + 1 + Z.of_nat k') by lia. exact IH.
  - rewrite !C94_exists. unfold chosen. rewrite !filter_app. reflexivity.
Qed.
Print Assumptions C94_no_address_refuted.

(** * Adding copies *)
Theorem C94_add_array b ar : Forall (fun m => Forall copyable (m_args m)) ar ->
  exists cs, u_add_array_copy b ar = Ok (b ++ cs) /\ Forall2 message_copy ar cs.
Proof.
  intros H. revert b. induction H as [|m ar Hm _ IH]; intros b; [exists []; rewrite app_nil_r; split; [reflexivity|constructor]|].
  cbn [u_add_array_copy]. unfold u_add_copy. destruct (copy_msg_is m Hm) as (c & -> & C). cbn [bind]. unfold add_msg. destruct (IH (b ++ [c])) as (cs & E & F).
  exists (c :: cs). rewrite E, <- app_assoc. split; [reflexivity|now constructor].
Qed.
Print Assumptions C94_add_array.
(** A message added without duplicates replaces those with its address, and no others. *)
Theorem C94_add_nodups b m a : Forall copyable (m_args m) -> m_address m = Some a ->
  exists c b', u_add_nodups_copy b m = Ok (b' ++ [c]) /\ message_copy m c /\ b' = filter (fun x => match m_address x with Some y => negb (streq a y) | None => true end) b.
Proof.
  intros Hm Ha. unfold u_add_nodups_copy. destruct (copy_msg_is m Hm) as (c & -> & C). cbn [bind]. eexists c, _. split; [|split; [exact C|reflexivity]].
  unfold add_nodups. rewrite (proj1 C), Ha. f_equal. f_equal. apply filter_ext. intros x. unfold same_address, streq. destruct (m_address x); [|reflexivity].
  destruct (list_eq_dec Z.eq_dec a l); reflexivity.
Qed.
Print Assumptions C94_add_nodups.

(** * The same answers from the bytes *)
Lemma starts_split ws : forall p x w, In (x, w) (combine (starts p ws) ws) ->
  exists l1 l2, ws = l1 ++ w :: l2 /\ x = p + zlen (enc_wmsgs l1).
Proof.
  induction ws as [|w0 ws IH]; intros p x w H; [destruct H|]. cbn [starts combine] in H. destruct H as [H|H].
  - injection H as <- <-. exists [], ws. split; [reflexivity|]. change (zlen (enc_wmsgs [])) with 0. lia.
  - destruct (IH _ _ _ H) as (l1 & l2 & -> & ->). exists (w0 :: l1), l2. split; [reflexivity|]. rewrite enc_wmsgs_cons, zlen_app. lia.
Qed.
Lemma selected_chosen full pat b : Forall addressed b -> forall p,
  map snd (filter (fun pw => selects full pat (w_addr (snd pw))) (combine (starts p (map wm_of (map raw1 b))) (map wm_of (map raw1 b)))) =
  map (fun m => wm_of (raw1 m)) (chosen full pat b).
Proof.
  induction 1 as [|m b Hm _ IH]; intros p; [reflexivity|]. cbn [map starts combine filter snd chosen].
  destruct m as [[a|] args]; [|now elim Hm]. cbn [m_address raw1 wm_of w_addr].
  destruct (selects full pat a); cbn [map snd]; [f_equal|]; apply IH.
Qed.
Lemma map_empty {A B C} (f : A -> C) (g : B -> C) l l' : map f l = map g l' ->
  match l with [] => false | _ => true end = match l' with [] => false | _ => true end.
Proof. destruct l, l'; intros H; (reflexivity || discriminate H). Qed.
Lemma map_head {A B C} (f : A -> C) (g : B -> C) l l' : map f l = map g l' ->
  match hd_error l, hd_error l' with Some x, Some y => f x = g y | None, None => True | _, _ => False end.
Proof. destruct l, l'; intros H; try discriminate H; [exact I|]. cbn in *. now injection H. Qed.

(** Of a bundle and of its serialization the same addresses exist, the first full match is
    the same message, and looking up gives as many messages, the same ones. *)
Theorem C94_bytes fresh b full pat : blocks fresh -> Forall ok_msg b -> Forall FlattenProps.has_address b -> Forall (std_message any) (raw_msgs b) ->
  zlen (enc_bundle empty_header (raw_msgs b)) < 2^31 ->
  exists s, serialized fresh b = Ok s /\
    address_exists s (zlen s) pat full = u_exists b pat full /\
    (exists o, first_full_match s (zlen s) pat = Ok o /\
       match o with
       | None => u_first b pat = Ok None
       | Some p => exists m pre post, u_first b pat = Ok (Some m) /\ s = pre ++ enc_message (raw1 m) ++ post /\ zlen pre = p
       end) /\
    (exists o, lookup_address s (zlen s) pat full = Ok o /\
       Forall2 (fun m x => exists p, shows s m p (wm_of (raw1 x))) (match o with Some ar => ar | None => [] end) (chosen full pat b)).
Proof.
  intros Hf Hok Ha Hs Hl. apply has_addressed in Ha. rewrite raw_all in Hs, Hl by exact Ha.
  exists (enc_bundle empty_header (map raw1 b)). split; [rewrite (serialized_ok fresh b Hf Hok), raw_all by exact Ha; reflexivity|].
  assert (Hw : Forall wf_wmsg (map wm_of (map raw1 b))).
  { rewrite Forall_map. rewrite Forall_forall in *. intros m Hm. apply (std_wf any); [now apply Hs|].
    pose proof (size_in m (map raw1 b) Hm) as K. unfold total_size in K. lia. }
  set (ws := map wm_of (map raw1 b)) in *.
  assert (E : enc_bundle empty_header (map raw1 b) = empty_header ++ enc_wmsgs ws ++ []).
  { rewrite app_nil_r. unfold ws. rewrite map_wm_enc. reflexivity. }
  assert (L : zlen (enc_bundle empty_header (map raw1 b)) = zlen (empty_header ++ enc_wmsgs ws)) by (rewrite E, app_nil_r; reflexivity).
  assert (S : map snd (selected full pat ws) = map (fun m => wm_of (raw1 m)) (chosen full pat b)) by (now apply selected_chosen).
  assert (S1 : map snd (selected true pat ws) = map (fun m => wm_of (raw1 m)) (chosen true pat b)) by (now apply selected_chosen).
  rewrite L, E. split; [|split].
  - rewrite (C20_exists full pat empty_header ws [] eq_refl Hw), C94_exists. f_equal. exact (map_empty _ _ _ _ S).
  - eexists. split; [apply (C20_first pat empty_header ws [] eq_refl Hw)|]. rewrite C94_first.
    apply map_head in S1. destruct (hd_error (selected true pat ws)) as [[p w]|] eqn:Es; destruct (hd_error (chosen true pat b)) as [m|]; try contradiction S1;
      cbn [option_map fst]; [|reflexivity]. cbn [snd] in S1. pose proof (eq_sym S1) as Sw.
    assert (Hin : In (p, w) (combine (starts 16 ws) ws)).
    { assert (K : In (p, w) (selected true pat ws)) by (destruct (selected true pat ws); [discriminate Es|]; injection Es as ->; now left). unfold selected in K. apply filter_In in K as [K _]. exact K. }
    destruct (starts_split _ _ _ _ Hin) as (l1 & l2 & El & Ep). exists m, (empty_header ++ enc_wmsgs l1), (enc_wmsgs l2).
    split; [reflexivity|]. split; [|rewrite zlen_app; symmetry; exact Ep].
    rewrite El, app_nil_r, <- app_assoc, enc_message_wm, Sw. f_equal. unfold enc_wmsgs. rewrite map_app, concat_app. reflexivity.
  - destruct (C20_lookup full pat empty_header ws [] eq_refl Hw) as (r & Er & R). exists r. split; [exact Er|].
    assert (K : Forall2 (fun m pw => shows (empty_header ++ enc_wmsgs ws ++ []) m (fst pw) (snd pw)) (match r with Some ar => ar | None => [] end) (selected full pat ws)).
    { destruct r as [ar|]; [|rewrite R; constructor]. destruct R as [_ R]. clear -R. induction R as [|x y l l' [H _] _ IH]; constructor; assumption. }
    clear -K S. revert S. generalize (chosen full pat b). induction K as [|x y l l' H _ IH]; intros c S; destruct c as [|m c]; try discriminate S; constructor.
    + exists (fst y). pose proof (map_head _ _ (y :: l') (m :: c) S) as S0. cbn [hd_error] in S0. rewrite <- S0. exact H.
    + apply IH. exact (f_equal (@tl _) S).
Qed.
Print Assumptions C94_bytes.

(** Being bound is not the same question for the two: the object looks at the first match
    only, the bytes at all of them. *)
Theorem C94_bound_refuted fresh : blocks fresh ->
  let b := [UMsg (Some (str "/a")) []; UMsg (Some (str "/a")) [set_int32 atom_fresh 1]] in
  u_bound b (str "/a") true = Ok false /\
  exists s, serialized fresh b = Ok s /\ address_is_bound s (zlen s) (str "/a") true = Ok true.
Proof.
  intros Hf b. split; [vm_compute; reflexivity|]. exists (enc_bundle empty_header (raw_msgs b)). split; [|vm_compute; reflexivity].
  apply (serialized_ok fresh b Hf).
  unfold b. repeat constructor; cbn; try lia; try (split; lia); try discriminate; repeat constructor; discriminate.
Qed.
Print Assumptions C94_bound_refuted.

(** * Example *)
Definition three : list umsg :=
  [UMsg (Some (str "/a")) [set_int32 atom_fresh 1]; UMsg (Some (str "/b/c")) [set_true atom_fresh]; UMsg (Some (str "/ab")) []].
Example C94_hypotheses :
  Forall ok_msg three /\ Forall FlattenProps.has_address three /\ Forall (std_message any) (raw_msgs three) /\
  zlen (enc_bundle empty_header (raw_msgs three)) < 2^31 /\
  Forall (fun m => m_address m <> None /\ Forall copyable (m_args m)) three /\
  chosen true (str "/a*") three = [nth 0 three blank; nth 2 three blank].
Proof.
  split; [|split; [|split; [|split; [|split]]]].
  - unfold three. repeat constructor; cbn; try lia; try (split; lia); try discriminate.
  - unfold three. repeat constructor; eexists; eexists; reflexivity.
  - assert (L : forall s, forallb (fun c => (0 <? c) && (c <? 256)) s = true -> nonul s /\ wf_bytes s).
    { intros s H. rewrite forallb_forall in H. split; apply Forall_forall; intros c Hc; apply H in Hc; unfold is_byte; lia. }
    change (raw_msgs three) with [M (str "/a") [VNum32 105 1]; M (str "/b/c") [VFlag 84]; M (str "/ab") []].
    repeat apply Forall_cons; try apply Forall_nil; cbn [std_message fold_right std_value]; repeat match goal with |- _ /\ _ => split end;
      try exact I; try (apply L; reflexivity); try lia; cbn; tauto.
  - vm_compute. reflexivity.
  - unfold three. repeat constructor; try discriminate; cbn; lia.
  - vm_compute. reflexivity.
Qed.
Print Assumptions C94_hypotheses.
