(** Exploding and flattening bundle objects (C40). *)

From Coq Require Import ZArith List Bool Lia Permutation.
From Verif Require Import Base BaseProofs Bytes Text
  WireSpec SerialModel SerialSpec SerialProofs WireModel WireProofs ArgProofs DeserProofs
  AtomUModel ExprModel ExprSpec ExprListProofs FlattenModel FlattenSpec FlattenProofs.
Import ListNotations.
Open Scope Z_scope.

Definition has_address (u : umsg) : Prop := exists a args, u = UMsg (Some a) args.
Lemma has_addressed us : Forall has_address us -> Forall addressed us.
Proof. intros H. eapply Forall_impl; [|exact H]. intros u (a & args & ->). discriminate. Qed.

Lemma plain_shaped m : plain_message m -> shaped m.
Proof. destruct m as [a vs]. intros (H1 & H2 & H3). now apply shaped_leaf. Qed.

Lemma goods us : Forall ok_msg us -> Forall has_address us -> Forall shaped (raw_msgs us) ->
  Forall (std_message slash) (raw_msgs us) -> Forall good us /\ raw_msgs us = map raw1 us.
Proof.
  intros H1 H2 H3 H4. apply has_addressed in H2. rewrite raw_all in H3, H4 |- * by exact H2. split; [|reflexivity].
  rewrite Forall_map in H3, H4. rewrite Forall_forall in *. intros u Hu. split; [now apply H1|].
  split; [now apply H2|]. split; [now apply H3|now apply H4].
Qed.

Lemma ordpairs_map {A B} (f : A -> B) (R : B -> B -> Prop) l :
  ForallOrdPairs (fun x y => R (f x) (f y)) l -> ForallOrdPairs R (map f l).
Proof. induction 1; cbn [map]; constructor; [now rewrite Forall_map|assumption]. Qed.

Lemma independent_distinct ms : all_independent ms -> NoDup (map address_of ms).
Proof.
  induction 1 as [|m ms H _ IH]; cbn [map]; constructor; [|exact IH].
  intros X. apply in_map_iff in X as (m' & E & Hm). rewrite Forall_forall in H. destruct (H m' Hm) as [N _].
  apply N. exists []. rewrite E, app_nil_r. split; [reflexivity|now left].
Qed.

(** C40: what exploding means.  For a bundle of data messages with literal
    addresses none of which continues another, the nested bundle stands for exactly
    the messages of the source, in some order, whatever the nesting limit; in every
    bundle the addresses are distinct; without a limit every address at every depth
    has one component.  The bundle must be short enough for the sizes of the nested
    bundles to be representable. *)
Theorem C40_explode src sep maxlevel fuel :
  Forall ok_msg src -> Forall has_address src ->
  Forall plain_message (raw_msgs src) -> Forall (std_message slash) (raw_msgs src) ->
  all_independent (raw_msgs src) -> 16 + costs (raw_msgs src) + 4 < 2^31 ->
  (sep = None \/ hd 47 (match sep with Some s => s | None => [] end) = 47) ->
  2^31 <= Z.of_nat fuel ->
  exists ex, explode fuel sep maxlevel [] src = Ok ex /\ Forall ok_msg ex /\ Forall has_address ex /\
    Forall (std_message slash) (raw_msgs ex) /\
    shaped_all (raw_msgs ex) /\ Permutation (meanings [] (raw_msgs ex)) (content src) /\
    total_size (raw_msgs ex) <= 16 + costs (raw_msgs src) /\
    (maxlevel < 0 -> Forall all_one (raw_msgs ex)).
Proof.
  intros Hok Had Hp Hst Hind Hsz Hsep Hfuel.
  destruct (goods src Hok Had) as [Hg Er]; [eapply Forall_impl; [|exact Hp]; exact plain_shaped|exact Hst|].
  unfold content. rewrite Er in *.
  assert (Esep : separator sep = 47).
  { destruct Hsep as [->|H]; [reflexivity|]. destruct sep as [[|c s]|]; try reflexivity. exact H. }
  assert (Hlen : Forall (fun m => (length (address_of m) < fuel)%nat) (map raw1 src)).
  { clear -Hsz Hfuel. set (ms := map raw1 src) in *. clearbody ms. rewrite Forall_forall. intros m Hm.
    assert (40 * zlen (address_of m) <= costs ms).
    { induction ms as [|x ms IH]; [destruct Hm|]. cbn [costs fold_right] in *. fold (costs ms) in *.
      destruct x as [a vs]. cbn [cost] in *. pose proof (zlen_nonneg (enc_message (M a vs))). pose proof (zlen_nonneg a).
      pose proof (costs_pos ms). destruct Hm as [<-|Hm]; [cbn [address_of]; lia|]. specialize (IH ltac:(lia) Hm). lia. }
    unfold zlen in *. lia. }
  destruct (explode_all fuel maxlevel sep Esep src [] Hg Hp Hlen) as (ex & E & Hi & Hperm & Hsize & Hone).
  - split; constructor.
  - exact Hind.
  - constructor.
  - exact Hsz.
  - exists ex. split; [exact E|]. pose proof (inv_shaped ex Hi) as Hsh. destruct Hi as [Hgx _].
    assert (Hax : Forall addressed ex) by (eapply Forall_impl; [|exact Hgx]; intros u X; apply X).
    rewrite (raw_all ex Hax).
    split; [eapply Forall_impl; [|exact Hgx]; intros u X; apply X|].
    split; [eapply Forall_impl; [|exact Hax]; intros [[a|] args] X; [now exists a, args|now destruct X]|].
    split; [rewrite Forall_map; eapply Forall_impl; [|exact Hgx]; intros u X; apply X|].
    split; [exact Hsh|]. split; [exact Hperm|]. split; [exact Hsize|]. intros Hm. apply Hone; [exact Hm|constructor].
Qed.
Print Assumptions C40_explode.

(** C40: what flattening means.  The result of flattening a nested bundle whose data
    have distinct full addresses, without a limit and a separator and removing the
    emptied messages, are the messages it stands for, in order (if the memory of a
    freed argument is read as it was). *)
Theorem C40_flatten src sep maxlevel fuel :
  Forall ok_msg src -> Forall has_address src ->
  shaped_all (raw_msgs src) -> Forall (std_message slash) (raw_msgs src) ->
  NoDup (map address_of (meanings [] (raw_msgs src))) ->
  total_size (raw_msgs src) + 4 < 2^31 -> (sep = None \/ sep = Some []) -> maxlevel <= 0 ->
  2^31 <= Z.of_nat fuel ->
  exists out, flatten true fuel maxlevel sep true [] src = Ok out /\ Forall ok_msg out /\
    content out = meanings [] (raw_msgs src).
Proof.
  intros Hok Had [Hd Hsh] Hst Hnd Hsz Hsep Hml Hfuel.
  destruct (goods src Hok Had Hsh Hst) as [Hg Er]. rewrite Er in *.
  destruct (flatten_all maxlevel Hml fuel 0 src None [] []) as (out & E & Hao & Hoo & Hc).
  - left. now split.
  - constructor.
  - constructor.
  - now split.
  - change (zlen (@nil Z)) with 0. lia.
  - lia.
  - constructor.
  - constructor.
  - exact Hnd.
  - exists out. unfold flatten. split; [destruct Hsep as [-> | ->]; exact E|]. split; [exact Hoo|].
    unfold content. rewrite (raw_all out Hao). exact Hc.
Qed.
Print Assumptions C40_flatten.

(** C40: exploding and then flattening gives back the same messages. *)
Theorem C40_round_trip src sep maxlevel fuel :
  Forall ok_msg src -> Forall has_address src ->
  Forall plain_message (raw_msgs src) -> Forall (std_message slash) (raw_msgs src) ->
  all_independent (raw_msgs src) -> 16 + costs (raw_msgs src) + 4 < 2^31 ->
  (sep = None \/ hd 47 (match sep with Some s => s | None => [] end) = 47) ->
  2^31 <= Z.of_nat fuel ->
  exists ex out, explode fuel sep maxlevel [] src = Ok ex /\ flatten true fuel 0 None true [] ex = Ok out /\
    Forall ok_msg out /\ Permutation (content out) (content src).
Proof.
  intros Hok Had Hp Hst Hind Hsz Hsep Hfuel.
  destruct (C40_explode src sep maxlevel fuel Hok Had Hp Hst Hind Hsz Hsep Hfuel) as (ex & E & X1 & X2 & X3 & X4 & X5 & X6 & _).
  destruct (C40_flatten ex None 0 fuel X1 X2 X4 X3) as (out & E' & Y1 & Y2).
  - refine (Permutation_NoDup (Permutation_map address_of (Permutation_sym X5)) _).
    unfold content. rewrite narrow_addresses. now apply independent_distinct.
  - lia.
  - now left.
  - lia.
  - exact Hfuel.
  - exists ex, out. split; [exact E|]. split; [exact E'|]. split; [exact Y1|]. now rewrite Y2.
Qed.
Print Assumptions C40_round_trip.

(** The hypotheses hold of a bundle with three levels. *)
Definition num (n : Z) : atom := Atom 105 n PNone.
Definition sample : list umsg :=
  [UMsg (Some (str "/a/b/c")) [num 1]; UMsg (Some (str "/x")) [Atom 115 0 (PStr (str "hi")); num 7];
   UMsg (Some (str "/a/d")) [num 2]; UMsg (Some (str "/a/b/e")) [num 3]].

Example sample_ok :
  Forall ok_msg sample /\ Forall has_address sample /\ Forall plain_message (raw_msgs sample) /\
  Forall (std_message slash) (raw_msgs sample) /\ all_independent (raw_msgs sample) /\
  16 + costs (raw_msgs sample) + 4 < 2^31.
Proof.
  assert (B : forall s, Forall (fun c => c <> 0 /\ 0 <= c < 256) s -> nonul s /\ wf_bytes s).
  { intros s H. split; (eapply Forall_impl; [|exact H]); intros c [H1 H2]; assumption. }
  assert (L : forall s, forallb (fun c => (0 <? c) && (c <? 256)) s = true -> nonul s /\ wf_bytes s).
  { intros s H. apply B. rewrite forallb_forall in H. apply Forall_forall. intros c Hc. apply H in Hc. lia. }
  assert (Q : forall s, hd 0 s = 47 -> forallb (fun c => negb (existsb (Z.eqb c) [0; 42; 63; 91; 93; 123; 125])) s = true -> literal s).
  { intros s H1 H2. split; [exact H1|]. rewrite forallb_forall in H2. apply Forall_forall. intros c Hc X.
    apply H2 in Hc. apply negb_true_iff in Hc. rewrite <- not_true_iff_false, existsb_exists in Hc. apply Hc.
    exists c. split; [exact X|apply Z.eqb_refl]. }
  split; [|split; [|split; [|split; [|split]]]].
  - repeat apply Forall_cons; try apply Forall_nil;
      (cbn [ok_msg fold_right]; split; [destruct (L (str "/a/b/c") eq_refl), (L (str "/x") eq_refl), (L (str "/a/d") eq_refl), (L (str "/a/b/e") eq_refl); repeat split; try assumption; reflexivity|]);
      (split; [reflexivity|]); cbn [num ok_atom]; destruct (L (str "hi") eq_refl); repeat split; try assumption; try discriminate; reflexivity.
  - repeat apply Forall_cons; try apply Forall_nil; eexists; eexists; reflexivity.
  - repeat apply Forall_cons; try apply Forall_nil; (split; [apply Q; reflexivity|]); (split; [discriminate|]);
      repeat apply Forall_cons; try apply Forall_nil; intros [].
  - repeat apply Forall_cons; try apply Forall_nil; apply std_args;
      (split; [apply L; reflexivity|]); (split; [apply L; reflexivity|]); (split; [reflexivity|]);
      repeat apply Forall_cons; try apply Forall_nil; cbn [std_value raw_value num existsb Z.eqb Pos.eqb orb];
      try (apply L; reflexivity); (split; [cbn; tauto|vm_compute; split; [discriminate|reflexivity]]).
  - assert (N : forall x y, firstn (length x) y <> x -> ~ continues y x).
    { intros x y H (r & -> & _). apply H. rewrite firstn_app, firstn_all, Nat.sub_diag. cbn [firstn]. apply app_nil_r. }
    repeat apply FOP_cons; try apply FOP_nil; repeat apply Forall_cons; try apply Forall_nil;
      split; apply N; vm_compute; discriminate.
  - vm_compute. reflexivity.
Qed.
Example sample_runs : exists ex, explode 10 None (-1) [] sample = Ok ex /\
  map address_of (raw_msgs ex) = [str "/x"; str "/a"] /\
  exists out, flatten true 10 0 None true [] ex = Ok out /\
    map address_of (content out) = [str "/x"; str "/a/d"; str "/a/b/c"; str "/a/b/e"].
Proof. eexists. split; [vm_compute; reflexivity|]. split; [reflexivity|]. eexists. split; [vm_compute; reflexivity|vm_compute; reflexivity]. Qed.

(** * Where the code differs *)

(** Flattening reads the link of an argument after freeing it, whenever there is a
    nested bundle; whatever the separator and the flag. *)
Definition nested (m : message) : Prop := match m with M _ [VBundle _] => True | _ => False end.
Lemma leaf_not_nested a vs : Forall (fun v => ~ is_bundle v) vs -> ~ nested (M a vs).
Proof.
  intros H. destruct vs as [|v [|? ?]]; [exact (fun h => h)| |destruct v; exact (fun h => h)].
  destruct v; try exact (fun h => h). apply Forall_inv in H. now destruct H.
Qed.
Lemma freed maxl sep rm : maxl <= 0 -> forall fuel level src pfx dest, inv src -> total_size (map raw1 src) + 4 < 2^31 ->
  total_size (map raw1 src) <= Z.of_nat fuel ->
  (Exists nested (map raw1 src) -> flatten_impl false maxl sep rm fuel level pfx dest src = Ub Dangling) /\
  (~ Exists nested (map raw1 src) -> exists out, flatten_impl false maxl sep rm fuel level pfx dest src = Ok out).
Proof.
  intros Hml. induction fuel as [|fuel IHf]; intros level.
  { intros src pfx dest _ _ H. pose proof (size_ge (map raw1 src)). lia. }
  induction src as [|u src IHs]; intros pfx dest Hi Hsz Hfu.
  { rewrite flatten_nil. split; [intros H; inversion H|intros _; now exists dest]. }
  assert (Hi' := Hi). destruct Hi' as [Hg Hdist]. cbn [map] in *.
  pose proof (Forall_inv Hg) as G1. pose proof (Forall_inv_tail Hg) as G2.
  assert (Hi2 : inv src) by (split; [exact G2|]; now inversion Hdist).
  rewrite size_cons in Hsz, Hfu.
  pose proof (zlen_nonneg (enc_message (raw1 u))) as Lu. pose proof (size_ge (map raw1 src)) as Ls.
  destruct (copy_msg_ok u G1 ltac:(lia)) as (c & Ec & Gc & Rc & Hc).
  rewrite flatten_cons, Ec. cbn [bind].
  assert (El : (level <? maxl) || (maxl <=? 0) = true).
  { rewrite (proj2 (Z.leb_le _ _) Hml). apply orb_true_r. }
  rewrite El. clear El. assert (Hsh : shaped (raw1 u)) by apply G1.
  destruct (leaf_or_node _ Hsh) as [(a & vs & E & Ha & Hv & Hb)|(a & ms & E & Ha & Hm & Hs)].
  - rewrite E, copied_leaf in Rc by exact Hb. destruct (leaf_tags c a vs Gc Rc Hb) as (Eu & Ev & Ht).
    rewrite atoms_leaf by (eapply Forall_impl; [|exact Ht]; intros x X; apply X). cbn [bind app].
    assert (Hac : m_address c = Some a) by (rewrite Eu; reflexivity). rewrite Hac.
    assert (Hn : ~ nested (raw1 u)).
    { rewrite E. apply leaf_not_nested. exact Hb. }
    assert (X : (Exists nested (raw1 u :: map raw1 src) <-> Exists nested (map raw1 src))).
    { rewrite Exists_cons. tauto. }
    rewrite X. destruct (negb rm || _); [|apply IHs; try lia; exact Hi2].
    destruct pfx as [p|]; cbn [joined bind]; apply IHs; try lia; exact Hi2.
  - rewrite E in Hc. destruct Hc as (w & ->). rewrite E in Rc. cbn [copied] in Rc.
    cbn [m_args m_address atoms_loop a_tt Z.eqb Pos.eqb bundle_of].
    assert (Hj : exists q, joined sep pfx (Some a) = Ok q) by (destruct pfx; eexists; reflexivity).
    destruct Hj as (q & ->). cbn [bind]. rewrite E, size_node in Hsz, Hfu. pose proof (pad_bound a) as [_ Pb].
    pose proof (zlen_nonneg a) as La. pose proof (size_ge ms) as Lm.
    destruct (node_object _ _ _ G1 E) as (_ & _ & _ & _ & _ & _ & Hstm & _).
    assert (GG : Forall (fun m => good (umsg_of m) /\ raw1 (umsg_of m) = narrow_msg m) ms).
    { destruct Hs as [_ Hs]. rewrite Forall_forall in *. intros m Hin. pose proof (size_in m ms Hin).
      apply good_of; [now apply Hstm|now apply Hs|lia]. }
    assert (RR : map raw1 (map umsg_of ms) = map narrow_msg ms).
    { rewrite map_map. apply map_ext_in. rewrite Forall_forall in GG. intros m Hin. apply (GG m Hin). }
    assert (Hib : inv (map umsg_of ms)).
    { split; [rewrite Forall_map; eapply Forall_impl; [|exact GG]; intros m Y; apply Y|]. rewrite RR.
      apply (narrow_shapes ms Hs). }
    assert (SS : total_size (map raw1 (map umsg_of ms)) = total_size ms).
    { rewrite RR. unfold total_size in *. now rewrite enc_narrow. }
    split; [intros _|intros H; exfalso; apply H; left; rewrite E; exact I].
    destruct (IHf (level + 1) (map umsg_of ms) q dest Hib ltac:(lia) ltac:(lia)) as [F1 F2].
    assert (D : Exists nested (map raw1 (map umsg_of ms)) \/ ~ Exists nested (map raw1 (map umsg_of ms))).
    { assert (DD : forall l, Exists nested l \/ ~ Exists nested l).
      { induction l as [|m l IH]; [right; intros H; inversion H|]. rewrite Exists_cons.
        assert (nested m \/ ~ nested m) by (destruct m as [? [|[] [|? ?]]]; cbn; tauto). tauto. }
      apply DD. }
    destruct D as [D|D]; [now rewrite (F1 D)|]. destruct (F2 D) as (out & ->). reflexivity.
Qed.

Theorem C40_nested_flatten_refuted src sep maxlevel remove fuel dest :
  Forall ok_msg src -> Forall has_address src ->
  shaped_all (raw_msgs src) -> Forall (std_message slash) (raw_msgs src) ->
  total_size (raw_msgs src) + 4 < 2^31 -> maxlevel <= 0 -> 2^31 <= Z.of_nat fuel ->
  Exists nested (raw_msgs src) ->
  flatten false fuel maxlevel sep remove dest src = Ub Dangling.
Proof.
  intros Hok Had [Hd Hsh] Hst Hsz Hml Hfuel Hn. destruct (goods src Hok Had Hsh Hst) as [Hg Er]. rewrite Er in *.
  unfold flatten. apply freed; try assumption; try lia. now split.
Qed.
Print Assumptions C40_nested_flatten_refuted.

(** With another separator than the slash exploding recurses without end. *)
Lemma dot_forever args : forall fuel level, explode_impl fuel 46 (-1) level [] (UMsg (Some (str "/.b")) args) = Fuel.
Proof.
  induction fuel as [|fuel IH]; intros level; [reflexivity|].
  cbn [explode_impl]. rewrite andb_false_r. cbn [m_address].
  change (component 46 (str "/.b")) with (str "/", str ".b"). cbn [address_exists bind].
  change (with_address (UMsg (Some (str "/.b")) args) (rest_address (str ".b"))) with (UMsg (Some (str "/.b")) args).
  rewrite IH. reflexivity.
Qed.
Theorem C40_other_separator_refuted fuel n :
  explode fuel (Some (str ".")) (-1) [] [UMsg (Some (str "/a.b")) [num n]] = Fuel.
Proof.
  destruct fuel as [|fuel]; [reflexivity|].
  change (explode (S fuel) (Some (str ".")) (-1) [] [UMsg (Some (str "/a.b")) [num n]]) with
    (do dest <- (do b <- explode_impl fuel 46 (-1) 1 [] (UMsg (Some (str "/.b")) [num n]);
                 Ok (add_nodups [] (with_address (UMsg None [set_bndl atom_fresh 0 b]) (str "/a"))));
     Ok dest).
  rewrite dot_forever. reflexivity.
Qed.
Print Assumptions C40_other_separator_refuted.

(** If one address continues another, the data of one of the two messages is lost. *)
Theorem C40_continued_address_refuted :
  (exists ex, explode 10 None (-1) [] [UMsg (Some (str "/a")) [num 1]; UMsg (Some (str "/a/b")) [num 2]] = Ok ex /\
    meanings [] (raw_msgs ex) = [M (str "/a/b") [VNum32 105 2]]) /\
  (exists ex, explode 10 None (-1) [] [UMsg (Some (str "/a/b")) [num 2]; UMsg (Some (str "/a")) [num 1]] = Ok ex /\
    meanings [] (raw_msgs ex) = [M (str "/a") [VNum32 105 1]]).
Proof. split; eexists; (split; [vm_compute; reflexivity|vm_compute; reflexivity]). Qed.
Print Assumptions C40_continued_address_refuted.

(** Flattening with the slash as separator doubles the slashes. *)
Theorem C40_slash_separator_refuted :
  exists ex out, explode 10 (Some (str "/")) (-1) [] [UMsg (Some (str "/a/b")) [num 1]] = Ok ex /\
    flatten true 10 0 (Some (str "/")) true [] ex = Ok out /\ content out = [M (str "/a//b") [VNum32 105 1]].
Proof. eexists. eexists. split; [vm_compute; reflexivity|]. split; [vm_compute; reflexivity|vm_compute; reflexivity]. Qed.
Print Assumptions C40_slash_separator_refuted.

(** Without the flag the emptied messages stay, with it messages without data get
    lost. *)
Theorem C40_flag_refuted :
  (exists ex out, explode 10 None (-1) [] [UMsg (Some (str "/a/b")) [num 1]] = Ok ex /\
    flatten true 10 0 None false [] ex = Ok out /\ content out = [M (str "/a/b") [VNum32 105 1]; M (str "/a") []]) /\
  (exists ex out, explode 10 None (-1) [] [UMsg (Some (str "/a/b")) []] = Ok ex /\
    flatten true 10 0 None true [] ex = Ok out /\ content out = []).
Proof. split; (eexists; eexists; split; [vm_compute; reflexivity|split; [vm_compute; reflexivity|vm_compute; reflexivity]]). Qed.
Print Assumptions C40_flag_refuted.
