(** Union and intersection of bundle objects (C54). *)

From Coq Require Import ZArith List Bool Lia.
From Verif Require Import Base BaseProofs Bytes Text
  WireSpec SerialModel SerialSpec SerialProofs WireModel WireProofs ArgProofs DeserProofs DeserProps MatchModel MatchProps
  AtomUModel ExprModel ExprSpec ExprListProofs FlattenModel FlattenSpec FlattenProofs FlattenProps.
Import ListNotations.
Open Scope Z_scope.

(** The first message of each address; those of [seen] are left out. *)
Fixpoint firsts (seen : list (list Z)) (ms : list message) : list message :=
  match ms with
  | [] => []
  | m :: ms' =>
      if in_dec (list_eq_dec Z.eq_dec) (address_of m) seen then firsts seen ms'
      else m :: firsts (address_of m :: seen) ms'
  end.
Definition occurs (ms : list message) (m : message) : bool :=
  if in_dec (list_eq_dec Z.eq_dec) (address_of m) (map address_of ms) then true else false.

(** Bundles the functions are asked about: every message has a literal address and
    representable size. *)
Definition has_literal (u : umsg) : Prop := exists a args, u = UMsg (Some a) args /\ literal a.
Definition proper (u : umsg) : Prop :=
  ok_msg u /\ has_literal u /\ Forall (fun m => std_message slash m /\ zlen (enc_message m) < 2^31) (raw_msg u).

Lemma copyables u : proper u -> Forall copyable (m_args u).
Proof.
  intros (Hok & (a & args & -> & Ha) & Hr). cbn [raw_msg m_args] in *. destruct (Forall_inv Hr) as [Hs Hl]. clear Hr.
  cbn [ok_msg] in Hok. destruct Hok as (_ & _ & Hok). apply all_Forall in Hok. apply std_args in Hs as (_ & _ & _ & Hs).
  rewrite size_leaf in Hl. pose proof (zlen_nonneg (pad_str a)). pose proof (zlen_nonneg (pad_str (44 :: map vtag (map raw_value args)))).
  rewrite Forall_map in Hs. rewrite Forall_forall in *. intros x Hx. split; [now apply Hok|].
  pose proof (enc_chunk enc_value (map raw_value args) (raw_value x) (in_map raw_value args x Hx)) as L.
  specialize (Hs x Hx). destruct (raw_value x) as [| | | | | |ms]; try exact I. apply std_bundle in Hs.
  split; [exact Hs|]. cbn [enc_value] in L. rewrite zlen_sized' in L. unfold enc_bundle. lia.
Qed.

Lemma narrow_copy x y : copy_of x y -> narrow (raw_value y) = narrow (raw_value x).
Proof.
  intros (_ & _ & E). rewrite E. destruct (raw_value x) as [| | | | | |ms]; try reflexivity. exact (proj1 narrow_idem (VBundle ms)).
Qed.
Lemma copy_proper u : proper u -> exists c, copy_msg u = Ok c /\ has_literal c /\ ok_msg c /\
  m_address c = m_address u /\ narrow_msg (raw1 c) = narrow_msg (raw1 u).
Proof.
  intros Hp. destruct (copies (m_args u) (copyables u Hp)) as (ys & E & C).
  destruct Hp as (Hok & (a & args & -> & Ha) & _). cbn [m_args copy_msg] in *. rewrite E. cbn [bind].
  eexists. split; [reflexivity|]. split; [now exists a, ys|].
  assert (L : length ys = length args) by (clear -C; induction C; cbn [length]; congruence).
  split; [|split; [reflexivity|]].
  - cbn [ok_msg] in *. destruct Hok as (H1 & H2 & _). split; [exact H1|]. split; [unfold zlen in *; now rewrite L|].
    apply all_Forall. clear -C. induction C as [|x y xs ys [[H _] _] _ IH]; constructor; assumption.
  - unfold raw1. cbn [m_address m_args narrow_msg]. f_equal. clear -C.
    induction C as [|x y xs ys H _ IH]; [reflexivity|]. cbn [map]. f_equal; [now apply narrow_copy|exact IH].
Qed.

Lemma lit_address u : has_literal u -> exists a, m_address u = Some a /\ literal a /\ address_of (raw1 u) = a.
Proof. intros (a & args & -> & Ha). now exists a. Qed.
Lemma lits_exist us a : Forall has_literal us -> literal a ->
  exists b, address_exists us a = Ok b /\ (b = true <-> In a (map address_of (map raw1 us))).
Proof.
  intros Hg Ha. induction Hg as [|u us Hu _ IH].
  - exists false. split; [reflexivity|]. split; [discriminate|intros []].
  - destruct (lit_address u Hu) as (x & E1 & Hx & E2). cbn [address_exists map In]. rewrite E1, E2.
    destruct (match_literal a x Ha Hx) as (r & Er & Hr). rewrite Er. cbn [bind].
    destruct (code r =? 3) eqn:Ec.
    + exists true. split; [reflexivity|]. split; [intros _|reflexivity]. left. symmetry. apply Hr. lia.
    + destruct IH as (b & Eb & Hb). exists b. split; [exact Eb|]. rewrite Hb. split; [now right|].
      intros [X|X]; [|exact X]. symmetry in X. apply Hr in X. lia.
Qed.

Lemma firsts_seen s1 s2 ms : (forall a, In a s1 <-> In a s2) -> firsts s1 ms = firsts s2 ms.
Proof.
  revert s1 s2. induction ms as [|m ms IH]; intros s1 s2 H; [reflexivity|]. cbn [firsts].
  destruct (in_dec _ (address_of m) s1) as [X|X], (in_dec _ (address_of m) s2) as [Y|Y];
    [now apply IH|apply H in X; contradiction|apply H in Y; contradiction|].
  f_equal. apply IH. intros a. cbn [In]. now rewrite H.
Qed.
Lemma firsts_app s l1 l2 : firsts s (l1 ++ l2) = firsts s l1 ++ firsts (map address_of (firsts s l1) ++ s) l2.
Proof.
  revert s. induction l1 as [|m l1 IH]; intros s; [reflexivity|]. cbn [app firsts].
  destruct (in_dec _ (address_of m) s); [apply IH|]. cbn [map app]. f_equal. rewrite IH. f_equal. apply firsts_seen.
  intros a. cbn [In]. rewrite !in_app_iff. cbn [In]. tauto.
Qed.

Definition narrows (us : list umsg) : list message := map narrow_msg (map raw1 us).
Lemma narrows_addresses us : map address_of (narrows us) = map address_of (map raw1 us).
Proof. apply narrow_addresses. Qed.
Lemma narrows_cons u us : narrows (u :: us) = narrow_msg (raw1 u) :: narrows us.
Proof. reflexivity. Qed.

Lemma union_into_ok : forall src out, Forall proper src -> Forall has_literal out -> Forall ok_msg out ->
  exists out', union_into out src = Ok out' /\ Forall has_literal out' /\ Forall ok_msg out' /\
    narrows out' = narrows out ++ firsts (map address_of (narrows out)) (narrows src).
Proof.
  induction src as [|u src IH]; intros out Hp Hl Hok.
  - exists out. split; [reflexivity|]. split; [exact Hl|]. split; [exact Hok|]. cbn [narrows map firsts]. now rewrite app_nil_r.
  - pose proof (Forall_inv Hp) as P1. pose proof (Forall_inv_tail Hp) as P2.
    destruct (lit_address u (proj1 (proj2 P1))) as (a & Ea & Ha & Er). cbn [union_into]. rewrite Ea. cbn [exists_for].
    destruct (lits_exist out a Hl Ha) as (b & Eb & Hb). rewrite Eb. cbn [bind].
    assert (An : address_of (narrow_msg (raw1 u)) = a) by now rewrite addr_narrow.
    rewrite <- narrows_addresses in Hb. rewrite narrows_cons. cbn [firsts]. rewrite An.
    destruct (in_dec _ a (map address_of (narrows out))) as [X|X].
    + rewrite (proj2 Hb X). exact (IH out P2 Hl Hok).
    + destruct b; [exfalso; apply X; now apply Hb|].
      destruct (copy_proper u P1) as (c & Ec & Lc & Oc & Ac & Nc). rewrite Ec. cbn [bind]. unfold add_msg.
      destruct (IH (out ++ [c]) P2) as (out' & E & L' & O' & N').
      * apply Forall_app. split; [exact Hl|]. apply Forall_cons; [exact Lc|apply Forall_nil].
      * apply Forall_app. split; [exact Hok|]. apply Forall_cons; [exact Oc|apply Forall_nil].
      * exists out'. split; [exact E|]. split; [exact L'|]. split; [exact O'|]. rewrite N'.
        unfold narrows at 1 2. rewrite !map_app. cbn [map]. rewrite Nc. fold (narrows out). rewrite <- app_assoc. cbn [app].
        f_equal. f_equal. apply firsts_seen. intros x. rewrite in_app_iff. cbn [map In]. rewrite An. tauto.
Qed.

Lemma proper_content us : Forall has_literal us -> content us = narrows us.
Proof.
  intros H. unfold content, narrows. rewrite raw_all; [reflexivity|]. eapply Forall_impl; [|exact H].
  intros u (a & args & -> & _). discriminate.
Qed.
Lemma proper_lits us : Forall proper us -> Forall has_literal us.
Proof. intros H. eapply Forall_impl; [|exact H]. intros u (_ & X & _). exact X. Qed.

(** C54: the union has the messages of both bundles in order, only the first for
    each address. *)
Theorem C54_union b1 b2 : Forall proper b1 -> Forall proper b2 ->
  exists out, union b1 b2 [] = Ok out /\ Forall ok_msg out /\ content out = firsts [] (content b1 ++ content b2).
Proof.
  intros H1 H2. unfold union.
  destruct (union_into_ok b1 [] H1) as (o1 & E1 & L1 & O1 & N1); [constructor|constructor|]. rewrite E1. cbn [bind].
  destruct (union_into_ok b2 o1 H2 L1 O1) as (o2 & E2 & L2 & O2 & N2). exists o2. split; [exact E2|]. split; [exact O2|].
  rewrite (proper_content o2 L2), !proper_content by now apply proper_lits.
  rewrite firsts_app, N2, N1. cbn [narrows map app]. now rewrite app_nil_r.
Qed.
Print Assumptions C54_union.

Lemma intersect_ok b2 : Forall has_literal b2 -> forall src out, Forall proper src -> Forall has_literal out -> Forall ok_msg out ->
  exists out', intersect_into out src b2 = Ok out' /\ Forall has_literal out' /\ Forall ok_msg out' /\
    narrows out' = narrows out ++ firsts (map address_of (narrows out)) (filter (occurs (narrows b2)) (narrows src)).
Proof.
  intros H2. induction src as [|u src IH]; intros out Hp Hl Hok.
  - exists out. split; [reflexivity|]. split; [exact Hl|]. split; [exact Hok|]. cbn [narrows map filter firsts]. now rewrite app_nil_r.
  - pose proof (Forall_inv Hp) as P1. pose proof (Forall_inv_tail Hp) as P2.
    destruct (lit_address u (proj1 (proj2 P1))) as (a & Ea & Ha & Er). cbn [intersect_into]. rewrite Ea. cbn [exists_for].
    destruct (lits_exist b2 a H2 Ha) as (b & Eb & Hb). rewrite Eb. cbn [bind].
    assert (An : address_of (narrow_msg (raw1 u)) = a) by now rewrite addr_narrow.
    rewrite <- narrows_addresses in Hb. rewrite narrows_cons. cbn [filter]. unfold occurs at 1. rewrite An.
    destruct (in_dec _ a (map address_of (narrows b2))) as [Y|Y].
    2:{ destruct b; [exfalso; apply Y; now apply Hb|]. exact (IH out P2 Hl Hok). }
    rewrite (proj2 Hb Y). cbn [firsts]. rewrite An.
    destruct (lits_exist out a Hl Ha) as (d & Ed & Hd). rewrite Ed. cbn [bind]. rewrite <- narrows_addresses in Hd.
    destruct (in_dec _ a (map address_of (narrows out))) as [X|X].
    + rewrite (proj2 Hd X). exact (IH out P2 Hl Hok).
    + destruct d; [exfalso; apply X; now apply Hd|].
      destruct (copy_proper u P1) as (c & Ec & Lc & Oc & Ac & Nc). rewrite Ec. cbn [bind]. unfold add_msg.
      destruct (IH (out ++ [c]) P2) as (out' & E & L' & O' & N').
      * apply Forall_app. split; [exact Hl|]. apply Forall_cons; [exact Lc|apply Forall_nil].
      * apply Forall_app. split; [exact Hok|]. apply Forall_cons; [exact Oc|apply Forall_nil].
      * exists out'. split; [exact E|]. split; [exact L'|]. split; [exact O'|]. rewrite N'.
        unfold narrows at 1 2. rewrite !map_app. cbn [map]. rewrite Nc. fold (narrows out). rewrite <- app_assoc. cbn [app].
        f_equal. f_equal. apply firsts_seen. intros x. rewrite in_app_iff. cbn [map In]. rewrite An. tauto.
Qed.

(** C54: the intersection has the messages of the first bundle whose address occurs
    in the second, in order, only the first for each address. *)
Theorem C54_intersection b1 b2 : Forall proper b1 -> Forall proper b2 ->
  exists out, intersection b1 b2 [] = Ok out /\ Forall ok_msg out /\
    content out = firsts [] (filter (occurs (content b2)) (content b1)).
Proof.
  intros H1 H2. assert (L2 := proper_lits b2 H2). rewrite !proper_content by now apply proper_lits.
  destruct (intersect_ok b2 L2 b1 [] H1) as (out & E & L & O & N); [constructor|constructor|].
  unfold intersection. destruct b1 as [|u b1].
  { exists []. split; [reflexivity|]. split; [constructor|reflexivity]. }
  destruct b2 as [|v b2].
  { exists []. split; [reflexivity|]. split; [constructor|]. change (content []) with (@nil message). change (narrows []) with (@nil message).
    generalize (narrows (u :: b1)). intros l. induction l as [|m l IH]; [reflexivity|]. exact IH. }
  exists out. split; [exact E|]. split; [exact O|]. now rewrite (proper_content out L).
Qed.
Print Assumptions C54_intersection.

(** What [firsts] keeps: one message per address that occurs, and the first of them. *)
Theorem C54_one_per_address ms :
  NoDup (map address_of (firsts [] ms)) /\
  (forall a, In a (map address_of ms) <-> In a (map address_of (firsts [] ms))) /\
  (forall l1 m l2, ms = l1 ++ m :: l2 -> ~ In (address_of m) (map address_of l1) -> In m (firsts [] ms)) /\
  (forall m, In m (firsts [] ms) -> exists l1 l2, ms = l1 ++ m :: l2 /\ ~ In (address_of m) (map address_of l1)).
Proof.
  assert (A : forall l s m, In m (firsts s l) -> In m l /\ ~ In (address_of m) s).
  { induction l as [|x l IH]; intros s m; cbn [firsts]; [intros []|]. destruct (in_dec _ (address_of x) s) as [X|X].
    - intros H. destruct (IH s m H). split; [now right|assumption].
    - intros [<-|H]; [split; [now left|assumption]|]. destruct (IH _ m H) as [H1 H2]. split; [now right|].
      intros Y. apply H2. now right. }
  assert (D : forall l s, NoDup (map address_of (firsts s l))).
  { induction l as [|x l IH]; intros s; cbn [firsts]; [constructor|]. destruct (in_dec _ (address_of x) s); [apply IH|].
    cbn [map]. constructor; [|apply IH]. intros Y. apply in_map_iff in Y as (m & E & Hm). apply A in Hm as [_ Hm].
    apply Hm. left. now symmetry. }
  assert (F : forall l1 s m l2, ~ In (address_of m) (map address_of l1) -> ~ In (address_of m) s ->
    In m (firsts s (l1 ++ m :: l2))).
  { induction l1 as [|x l1 IH]; intros s m l2 H1 H2; cbn [app firsts].
    - destruct (in_dec _ (address_of m) s); [contradiction|now left].
    - cbn [map In] in H1. destruct (in_dec _ (address_of x) s); [now apply IH; tauto|]. right. apply IH; [tauto|].
      cbn [In]. tauto. }
  assert (G : forall l s m, In m (firsts s l) -> exists l1 l2, l = l1 ++ m :: l2 /\ ~ In (address_of m) (map address_of l1)).
  { induction l as [|x l IH]; intros s m; cbn [firsts]; [intros []|]. destruct (in_dec _ (address_of x) s) as [X|X].
    - intros H. assert (N := proj2 (A _ _ _ H)). destruct (IH s m H) as (l1 & l2 & -> & H1). exists (x :: l1), l2.
      split; [reflexivity|]. cbn [map In]. intros [Y|Y]; [|now apply H1]. apply N. now rewrite <- Y.
    - intros [<-|H]; [exists [], l; split; [reflexivity|intros []]|].
      assert (N := proj2 (A _ _ _ H)). destruct (IH _ m H) as (l1 & l2 & -> & H1). exists (x :: l1), l2.
      split; [reflexivity|]. cbn [map In]. intros [Y|Y]; [|now apply H1]. apply N. now left. }
  split; [apply D|]. split; [|split].
  - intros a. split; intros H.
    + assert (K : exists l1 m l2, ms = l1 ++ m :: l2 /\ address_of m = a /\ ~ In a (map address_of l1)).
      { clear -H. induction ms as [|x ms IH]; [destruct H|]. cbn [map In] in H.
        destruct (list_eq_dec Z.eq_dec (address_of x) a) as [E|E]; [exists [], x, ms; split; [reflexivity|]; split; [exact E|intros []]|].
        destruct H as [H|H]; [contradiction|]. destruct (IH H) as (l1 & m & l2 & -> & E1 & E2).
        exists (x :: l1), m, l2. split; [reflexivity|]. split; [exact E1|]. cbn [map In]. tauto. }
      destruct K as (l1 & m & l2 & -> & <- & N). apply in_map. apply F; [exact N|intros []].
    + apply in_map_iff in H as (m & <- & Hm). apply in_map. now apply A in Hm.
  - intros l1 m l2 -> N. apply F; [exact N|intros []].
  - intros m Hm. now apply G in Hm.
Qed.
Print Assumptions C54_one_per_address.

(** The hypotheses hold of bundles that share an address; patterns are not literal
    addresses: a message whose address is a pattern is taken to be present as soon as
    the pattern matches. *)
Definition other : list umsg := [UMsg (Some (str "/q")) [num 9]; UMsg (Some (str "/x")) [num 8]].
Example sets_ok : Forall proper sample /\
  (exists out, union sample other [] = Ok out /\ map address_of (content out) =
     [str "/a/b/c"; str "/x"; str "/a/d"; str "/a/b/e"; str "/q"]) /\
  (exists out, intersection sample other [] = Ok out /\ map address_of (content out) = [str "/x"]).
Proof.
  split; [|split; (eexists; split; [vm_compute; reflexivity|vm_compute; reflexivity])].
  destruct sample_ok as (H1 & H2 & H3 & H4 & _ & H6).
  rewrite Forall_forall in *. intros u Hu. split; [now apply H1|].
  destruct (H2 u Hu) as (a & args & ->).
  assert (Hr : In (M a (map raw_value args)) (raw_msgs sample)).
  { unfold raw_msgs. apply in_concat. exists (raw_msg (UMsg (Some a) args)). split; [now apply in_map|now left]. }
  split; [exists a, args; split; [reflexivity|apply (H3 _ Hr)]|].
  apply Forall_cons; [|apply Forall_nil]. split; [now apply H4|].
  repeat (destruct Hu as [<-|Hu]; [vm_compute; reflexivity|] || (destruct Hu as [E|Hu]; [injection E as <- <-; vm_compute; reflexivity|])).
  destruct Hu.
Qed.
Theorem C54_pattern_refuted :
  exists out, union [UMsg (Some (str "/a")) [num 1]] [UMsg (Some (str "/*")) [num 2]] [] = Ok out /\
    content out = [M (str "/a") [VNum32 105 1]].
Proof. eexists. split; [vm_compute; reflexivity|vm_compute; reflexivity]. Qed.
Print Assumptions C54_pattern_refuted.
