(** C55, C56: formatting OSC data as text. *)

From Coq Require Import ZArith List Bool Lia.
From Verif Require Import Base Text BaseProofs Bytes UtilModel UtilProofs WireSpec SerialModel SerialSpec
  SerialProofs SerialProps WireModel WireWalk ArgProofs DeserProofs DeserProps ExprModel
  AtomUModel AtomSpec StrfmtModel TextProps FormatModel FormatSpec FormatProofs.
Import ListNotations.
Open Scope Z_scope.

(** The announced size is [zlen t]; into any room [g] of more than that many
    bytes, wherever it lies, [t] and a terminator are written, and nothing
    outside the room; the formatting function returns [t] in a block of its own,
    terminated. *)
Definition formats (junk : bytes) (f : printer) (t : list Z) : Prop :=
  formatted_size f = Ok (zlen t) /\
  (forall p g q, zlen t < zlen g -> zlen g < 2^63 -> exists rest,
     f (Some (p ++ g ++ q)) (zlen p) (zlen g) = Ok (Some (p ++ (t ++ 0 :: rest) ++ q), zlen t) /\
     zlen (t ++ 0 :: rest) = zlen g) /\
  format_with junk f = Ok (t ++ [0]).

Lemma zlen_block (junk : bytes) len : 0 <= len ->
  zlen (firstn (Z.to_nat len) (junk ++ repeat 170 (Z.to_nat len))) = len.
Proof. intros H. unfold zlen. rewrite firstn_length, app_length, repeat_length. lia. Qed.

Lemma prints_formats junk f t : t <> [] -> zlen t < 2^31 -> prints f t -> formats junk f t.
Proof.
  intros Ht Hl [P1 P2].
  assert (R : forall p g q, zlen t < zlen g -> zlen g < 2^63 -> exists rest,
     f (Some (p ++ g ++ q)) (zlen p) (zlen g) = Ok (Some (p ++ (t ++ 0 :: rest) ++ q), zlen t) /\
     zlen (t ++ 0 :: rest) = zlen g).
  { intros p g q H1 H2. destruct (P2 p g q H1 H2) as (g' & E & El & [Hh|[Hn _]]); [|contradiction].
    destruct g' as [|c g']; [exfalso; change (zlen (@nil Z)) with 0 in El; lia|]. cbn [hd] in Hh. subst c.
    exists g'. split; [rewrite E, <- app_assoc; reflexivity|]. rewrite zlen_app. exact El. }
  split; [unfold formatted_size; rewrite P1; reflexivity|]. split; [exact R|].
  unfold format_with. rewrite P1. cbn [bind]. pose proof (zlen_nonneg t).
  set (g := firstn (Z.to_nat (zlen t + 1)) (junk ++ repeat 170 (Z.to_nat (zlen t + 1)))).
  assert (Hg : zlen g = zlen t + 1) by (apply zlen_block; lia).
  destruct (R [] g [] ltac:(lia) ltac:(lia)) as (rest & E & El).
  cbn [app] in E. rewrite !app_nil_r in E. change (zlen (@nil Z)) with 0 in E. rewrite <- Hg.
  unfold bytes in *. rewrite E. cbn [bind].
  rewrite zlen_app, zlen_cons in El. destruct rest as [|c rest]; [reflexivity|].
  rewrite zlen_cons in El. pose proof (zlen_nonneg rest). lia.
Qed.

Lemma show_message_nonempty rt m : (match m with M a _ => a end) <> [] -> show_message rt 0 m <> [].
Proof. destruct m as [[|c a] vs]; [easy|]. discriminate. Qed.
Lemma show_bundle_nonempty rt ms : ms <> [] -> Forall (fun m => (match m with M a _ => a end) <> []) ms ->
  show_bundle rt ms <> [].
Proof.
  unfold show_bundle. destruct ms as [|m ms]; [easy|]. intros _ H. inversion H; subst. cbn [map join].
  pose proof (show_message_nonempty rt m ltac:(assumption)) as K. destruct (map (show_message rt 0) ms).
  - exact K.
  - intros E. now apply app_eq_nil in E as [E _].
Qed.

(** * C55: objects *)

Section Results.
Context (rt : Z -> Z -> list Z) (junk : bytes).

(** An atom. *)
Theorem C55_atom a : ok_atom a -> whole_atom a -> std_value any (raw_value a) -> showable (raw_value a) ->
  show_value rt 0 (raw_value a) <> [] -> zlen (show_value rt 0 (raw_value a)) < 2^31 ->
  formats junk (fmt_atom_u rt junk 0 a) (show_value rt 0 (raw_value a)).
Proof.
  intros H1 H2 H3 H4 Hn H5. apply prints_formats; try assumption.
  now apply (proj1 (objects_print rt junk)).
Qed.

(** A message with its address [a] and its arguments. *)
Theorem C55_message a args : let m := M a (map raw_value args) in
  ok_msg (UMsg (Some a) args) -> whole_msg (UMsg (Some a) args) -> std_message any m -> showable_message m ->
  a <> [] -> zlen (show_message rt 0 m) < 2^31 ->
  formats junk (fmt_msg_u rt junk 0 (UMsg (Some a) args)) (show_message rt 0 m).
Proof.
  intros m H1 H2 H3 H4 Hn H5. apply prints_formats; try assumption; [now apply show_message_nonempty|].
  apply (proj2 (objects_print rt junk) (UMsg (Some a) args)); auto. lia.
Qed.

(** A bundle: its messages, nested bundles indented. *)
Theorem C55_bundle ms : let c := raw_msgs ms in
  Forall ok_msg ms -> Forall whole_msg ms -> Forall (std_message any) c -> Forall showable_message c ->
  Forall (fun m => (match m with M a _ => a end) <> []) c -> ms <> [] -> zlen (show_bundle rt c) < 2^31 ->
  formats junk (fmt_bundle_u rt junk 0 ms) (show_bundle rt c).
Proof.
  intros c H1 H2 H3 H4 H5 Hne Hl.
  assert (Hc : c <> []).
  { destruct ms as [|[[a|] args] ms]; [easy|discriminate|]. inversion H2 as [|? ? K _]; subst. destruct K as [K _]. easy. }
  apply prints_formats; [now apply show_bundle_nonempty|assumption|].
  assert (Hm : Forall (fun m => zlen (show_message rt 0 m) < 2^31) c).
  { apply Forall_forall. intros m Hin. unfold show_bundle in Hl.
    pose proof (zlen_join (str "," ++ newline) (map (show_message rt 0) c) (show_message rt 0 m) (in_map _ _ _ Hin)). lia. }
  assert (K := bundle_texts rt junk ms 0 ltac:(lia)
    (proj2 (Forall_forall _ _) (fun m _ => proj2 (objects_print rt junk) m)) H1 H2 H3 H4 Hm).
  unfold show_bundle. destruct ms as [|m ms]; [easy|]. unfold fmt_bundle_u.
  apply (prints_joined (fun n s => match fst s with None => true | Some _ => snd s <? n end));
    [apply (prints_put [44; 10])|exact K|reflexivity|]. intros n b o Ho. cbn [fst snd]. lia.
Qed.

(** The block for a bundle without messages is not written to: the returned
    text is whatever the allocated byte holds. *)
Theorem C55_empty_refuted : bundle_u_format rt junk [] = Ok [hd 170 junk].
Proof. unfold bundle_u_format, format_with. cbn. destruct junk; reflexivity. Qed.
End Results.
Print Assumptions C55_atom.
Print Assumptions C55_message.
Print Assumptions C55_bundle.
Print Assumptions C55_empty_refuted.

(** A bundle with strings, a blob, numbers and a bundle in a bundle. *)
Definition picture : list umsg :=
  [UMsg (Some (str "/a")) [Atom 105 4294967291 PNone; Atom 115 0 (PStr (str "x""y")); Atom 98 0 (PBlob [0; 0; 0; 2; 1; 255])];
   UMsg (Some (str "/b")) [Atom 46 0 (PBndl [UMsg (Some (str "/c")) [Atom 84 0 PNone]; UMsg (Some (str "/d")) []])]].

Definition picture_text : list Z :=
  str "/a : [-5, ""x\""y"", blob(1, -1)]," ++ [10] ++
  str "/b : {" ++ [10] ++ str "  /c : true," ++ [10] ++ str "  /d" ++ [10] ++ str "}".

Example C55_hypotheses rt : Forall ok_msg picture /\ Forall whole_msg picture /\
  Forall (std_message slash) (raw_msgs picture) /\ Forall showable_message (raw_msgs picture) /\
  Forall (fun m => (match m with M a _ => a end) <> []) (raw_msgs picture) /\
  zlen (enc_bundle empty_header (raw_msgs picture)) + 20 < 2^31 /\
  show_bundle rt (raw_msgs picture) = picture_text /\ zlen picture_text < 2^31.
Proof.
  assert (L : forall s, forallb (fun c => (0 <? c) && (c <? 256)) s = true -> nonul s /\ wf_bytes s).
  { intros s H. rewrite forallb_forall in H.
    split; apply Forall_forall; intros c Hc; apply H in Hc; try (split; lia). lia. }
  split; [|split; [|split; [|split; [|split; [|split; [|split]]]]]].
  - unfold picture. repeat apply Forall_cons; try apply Forall_nil; cbn;
      repeat match goal with |- _ /\ _ => split end; try exact I; try (apply L; reflexivity); try easy;
      unfold blob_ok; repeat match goal with |- _ /\ _ => split end; try easy;
      try (apply Forall_forall; intros c Hc; cbn in Hc; unfold is_byte; intuition lia).
  - unfold picture. repeat apply Forall_cons; try apply Forall_nil; cbn;
      repeat match goal with |- _ /\ _ => split end; try exact I; try easy; unfold is_byte; lia.
  - unfold picture. cbn. repeat apply Forall_cons; try apply Forall_nil; cbn;
      repeat match goal with |- _ /\ _ => split end; try exact I; try (apply L; reflexivity);
      try reflexivity; try lia; try tauto;
      try (apply Forall_forall; intros c Hc; cbn in Hc; unfold is_byte; intuition lia).
  - unfold picture. cbn. repeat apply Forall_cons; try apply Forall_nil; cbn; intuition easy.
  - unfold picture. cbn. repeat apply Forall_cons; try apply Forall_nil; discriminate.
  - reflexivity.
  - reflexivity.
  - reflexivity.
Qed.

(** * C56: serialized data *)

Section Wire.
Context (rt : Z -> Z -> list Z) (junk : bytes).

(** A value with its bytes anywhere in memory. *)
Theorem C56_atom v P post : let src := P ++ enc_value v ++ post in
  std_value slash v -> showable v -> zlen (enc_value v) + 4 < 2^31 ->
  show_value rt 0 v <> [] -> zlen (show_value rt 0 v) < 2^31 ->
  formats junk (fmt_atom_s rt junk (nested rt junk src) src 0 (AS (zlen P) (vtag v))) (show_value rt 0 v).
Proof.
  intros src H1 H2 H3 Hn H4. apply prints_formats; try assumption.
  apply (proj1 (data_prints rt junk)); try assumption; [lia|].
  pose proof (proj1 depth_le v). unfold src. rewrite !app_length. unfold zlen in *. lia.
Qed.

(** A message anywhere in memory. *)
Theorem C56_message m P post m0 : let src := P ++ enc_message m ++ post in
  std_message slash m -> showable_message m -> zlen (enc_message m) + 4 < 2^31 ->
  zlen (show_message rt 0 m) < 2^31 -> ms_cache_size m0 = 0 ->
  formats junk (fmt_msg_s rt junk (nested rt junk src) src 0 (wrapped m0 (zlen P) (wm_of m))) (show_message rt 0 m).
Proof.
  intros src H1 H2 H3 H4 Hc. apply prints_formats; try assumption.
  - apply show_message_nonempty. destruct m as [a vs]. apply std_args in H1 as (_ & _ & K & _).
    destruct a; [discriminate K|discriminate].
  - apply (proj2 (data_prints rt junk)); try assumption; [lia|].
    pose proof (proj2 depth_le m). unfold src. rewrite !app_length. unfold zlen in *. lia.
Qed.

Lemma slash_nonempty ms : Forall (std_message slash) ms -> Forall (fun m => (match m with M a _ => a end) <> []) ms.
Proof.
  intros H. eapply Forall_impl; [|exact H]. intros [a vs] K. apply std_args in K as (_ & _ & K & _). destruct a; [discriminate K|discriminate].
Qed.

(** A bundle anywhere in memory. *)
Theorem C56_bundle ms P post : let src := P ++ enc_bundle empty_header ms ++ post in
  Forall (std_message slash) ms -> Forall showable_message ms -> ms <> [] ->
  zlen (enc_bundle empty_header ms) + 20 < 2^31 -> zlen (show_bundle rt ms) < 2^31 ->
  formats junk (fmt_bundle_s rt junk 0 src (zlen P) (zlen (enc_bundle empty_header ms))) (show_bundle rt ms).
Proof.
  intros src H1 H2 Hne Hl Hs. apply prints_formats; [|assumption|].
  { apply show_bundle_nonempty; [assumption|now apply slash_nonempty]. }
  assert (Hm : Forall (fun m => zlen (show_message rt 0 m) < 2^31) ms).
  { apply Forall_forall. intros m Hin. unfold show_bundle in Hs.
    pose proof (zlen_join (str "," ++ newline) (map (show_message rt 0) ms) (show_message rt 0 m) (in_map _ _ _ Hin)). lia. }
  unfold enc_bundle in *. rewrite zlen_app in Hl. change (zlen empty_header) with 16 in Hl.
  apply (bundle_prints rt junk P empty_header ms post); try assumption; try reflexivity; try lia.
  - apply Forall_forall. intros m _. apply (proj2 (data_prints rt junk)).
  - apply Forall_forall. intros m Hin. pose proof (proj2 depth_le m). pose proof (enc_chunk enc_message ms m Hin).
    unfold src. rewrite !app_length. unfold zlen in *. lia.
Qed.

(** The text of an object is the text of its serialization. *)
Theorem C56_serialized ms block b : let c := raw_msgs ms in
  Forall ok_msg ms -> Forall whole_msg ms -> Forall (std_message slash) c -> Forall showable_message c -> ms <> [] ->
  zlen (enc_bundle empty_header c) + 20 < 2^31 -> zlen (show_bundle rt c) < 2^31 -> zlen (enc_bundle empty_header c) <= zlen block ->
  bundle_serialize block ms = Ok b ->
  bundle_s_format rt junk b = bundle_u_format rt junk ms /\ bundle_u_format rt junk ms = Ok (show_bundle rt c ++ [0]).
Proof.
  intros c H1 H2 H3 H4 Hne Hl Hs Hb E. rewrite C12_bundle_encoding in E by assumption. injection E as <-. fold c.
  assert (Hc : c <> []).
  { destruct ms as [|[[a|] args] ms]; [easy|discriminate|]. inversion H2 as [|? ? K _]; subst. destruct K as [K _]. easy. }
  destruct (C55_bundle rt junk ms H1 H2) as (_ & _ & E); try assumption.
  { eapply Forall_impl; [|exact H3]. intros m. apply (proj2 (std_any slash)). }
  { now apply slash_nonempty. }
  assert (K := C56_bundle c [] [] H3 H4 Hc Hl Hs). cbv zeta in K. rewrite app_nil_r in K. destruct K as (_ & _ & K).
  change (zlen (@nil Z)) with 0 in K. cbn [app] in K. unfold bundle_s_format. rewrite K. unfold bundle_u_format. rewrite E.
  split; reflexivity.
Qed.

(** And the text of data is the text of the objects it deserializes to. *)
Lemma whole_obj : (forall v, std_value slash v -> whole_atom (obj_of v)) /\
  (forall m, std_message slash m -> whole_msg (umsg_of m)).
Proof.
  assert (HM : forall a vs, Forall (fun v => std_value slash v -> whole_atom (obj_of v)) vs ->
    std_message slash (M a vs) -> whole_msg (umsg_of (M a vs))).
  { intros a vs H Hs. apply std_args in Hs as (_ & _ & _ & Hv). cbn [umsg_of whole_msg]. split; [discriminate|].
    apply all_Forall. apply Forall_map. rewrite Forall_forall in *. auto. }
  assert (HV : forall v, match v with VBundle ms => Forall (fun m => std_message slash m -> whole_msg (umsg_of m)) ms | _ => True end ->
    std_value slash v -> whole_atom (obj_of v)).
  { intros v Hsub Hs. destruct v as [t x|t x|s f|s|b|t|ms]; cbn [std_value obj_of whole_atom] in *;
      try (split; [unfold is_byte; cbn [In] in Hs; intuition lia|cbn [In] in Hs; intuition lia]).
    apply std_bundle in Hs. split; [unfold is_byte; lia|]. apply all_Forall. apply Forall_map.
    rewrite Forall_forall in *. auto. }
  split; [exact (value_ind2 _ _ HV HM) | exact (message_ind2 _ _ HV HM)].
Qed.

(** [narrow] does not change the text. *)
Definition same_text (v : value) : Prop := (forall d, show_value rt d (narrow v) = show_value rt d v) /\
  (showable v -> showable (narrow v)) /\ (std_value slash v -> std_value slash (narrow v)).
Definition same_message (m : message) : Prop := (forall d, show_message rt d (narrow_msg m) = show_message rt d m) /\
  (showable_message m -> showable_message (narrow_msg m)) /\ (std_message slash m -> std_message slash (narrow_msg m)).

Lemma two_narrow k x : two_complement k (x mod 2^k) = two_complement k x.
Proof. unfold two_complement. now rewrite Zmod_mod. Qed.

Lemma narrow_text : (forall v, same_text v) /\ (forall m, same_message m).
Proof.
  assert (HM : forall a vs, Forall same_text vs -> same_message (M a vs)).
  { intros a vs H. unfold same_message. cbn [narrow_msg]. split; [|split].
    - intros d. rewrite !show_message_eq. do 2 f_equal.
      assert (E : map (show_value rt d) (map narrow vs) = map (show_value rt d) vs).
      { rewrite map_map. apply map_ext_in. rewrite Forall_forall in H. intros v Hv. apply H; assumption. }
      destruct vs as [|v [|v2 vs]]; [reflexivity| |].
      + apply (f_equal (hd [])) in E. cbn [map hd] in E |- *. now rewrite E.
      + change (map narrow (v :: v2 :: vs)) with (narrow v :: narrow v2 :: map narrow vs) in *. cbv iota. now rewrite E.
    - intros Hs. apply showable_args in Hs. apply showable_args. apply Forall_map. rewrite Forall_forall in *.
      intros v Hv. apply H; auto.
    - intros Hs. apply std_args in Hs as (H1 & H2 & H3 & H4). cbn [std_message].
      split; [exact H1|]. split; [exact H2|]. split; [exact H3|]. apply all_Forall. apply Forall_map.
      rewrite Forall_forall in *. intros v Hv. apply H; auto. }
  assert (HV : forall v, match v with VBundle ms => Forall same_message ms | _ => True end -> same_text v).
  { intros v Hsub. destruct v as [t x|t x|s f|s|b|t|ms]; try (split; [reflexivity|]; split; intros K; exact K).
    - unfold same_text. cbn [narrow].
      assert (M16 : forall y, (y mod 2^16) mod 2^8 = y mod 2^8) by (intros y; apply (mod_pow rt y 8 16); lia).
      destruct ((t =? 99) || (t =? 67)) eqn:E1; [|destruct ((t =? 117) || (t =? 85)) eqn:E2].
      + split; [|split].
        * intros d. cbn [show_value]. rewrite E1. now rewrite Zmod_mod.
        * cbn [showable]. now rewrite Zmod_mod.
        * cbn [std_value]. intros [K1 K2]. split; [exact K1|].
          pose proof (Z.mod_pos_bound x (2^8) ltac:(lia)). lia.
      + split; [|split].
        * intros d. cbn [show_value]. rewrite E1. rewrite two_narrow, Zmod_mod. destruct (t =? 117); [reflexivity|].
          cbn [orb] in E2. rewrite E2. reflexivity.
        * cbn [showable]. now rewrite M16.
        * cbn [std_value]. intros [K1 K2]. split; [exact K1|].
          pose proof (Z.mod_pos_bound x (2^16) ltac:(lia)). lia.
      + split; [reflexivity|]. split; intros K; exact K.
    - unfold same_text. cbn [narrow]. split; [|split].
      + intros d. rewrite !show_bundle_eq. do 3 f_equal. rewrite map_map. apply map_ext_in.
        rewrite Forall_forall in Hsub. intros m Hm. apply Hsub; assumption.
      + intros Hs. apply showable_bundle in Hs. apply showable_bundle. apply Forall_map. rewrite Forall_forall in *.
        intros m Hm. apply Hsub; auto.
      + intros Hs. apply std_bundle in Hs. cbn [std_value]. apply all_Forall. apply Forall_map.
        rewrite Forall_forall in *. intros m Hm. apply Hsub; auto. }
  split; [exact (value_ind2 _ _ HV HM) | exact (message_ind2 _ _ HV HM)].
Qed.

Theorem C56_deserialized ms P post : let src := P ++ enc_bundle empty_header ms ++ post in
  Forall (std_message slash) ms -> Forall showable_message ms -> ms <> [] ->
  zlen (enc_bundle empty_header ms) + 20 < 2^31 -> zlen (show_bundle rt ms) < 2^31 ->
  exists ms', bundle_deserialize src (zlen P) (zlen (enc_bundle empty_header ms)) = Ok ms' /\
    bundle_u_format rt junk ms' = Ok (show_bundle rt ms ++ [0]).
Proof.
  intros src H1 H2 Hne Hl Hs.
  destruct (C13_deserialize P empty_header ms post eq_refl H1 ltac:(lia)) as (ms' & E & Hok & Hraw).
  exists ms'. split; [exact E|].
  assert (E' : ms' = map umsg_of ms).
  { assert (X : bundle_deserialize src (zlen P) (zlen (enc_bundle empty_header ms)) = Ok (map umsg_of ms)).
    { unfold bundle_deserialize, src, enc_bundle in *. rewrite zlen_app in Hl. change (zlen empty_header) with 16 in Hl.
      apply deser_bundle_of; try assumption; try reflexivity; try lia.
      + apply Forall_forall. intros m _. apply deser_all.
      + apply Forall_forall. intros m Hm. pose proof (proj2 depth_le m).
        pose proof (enc_chunk enc_message ms m Hm). rewrite !app_length. unfold zlen in *. lia. }
    fold src in E. rewrite E in X. injection X as X. exact X. }
  assert (Et : map (show_message rt 0) (map narrow_msg ms) = map (show_message rt 0) ms).
  { rewrite map_map. apply map_ext. intros m. apply (proj2 narrow_text m). }
  assert (Eb : show_bundle rt (map narrow_msg ms) = show_bundle rt ms) by (unfold show_bundle; now rewrite Et).
  assert (Hn : Forall (std_message slash) (map narrow_msg ms)).
  { apply Forall_map. eapply Forall_impl; [|exact H1]. intros m. apply (proj2 narrow_text m). }
  destruct (C55_bundle rt junk ms' Hok) as (_ & _ & K); rewrite ?Hraw.
  - rewrite E'. apply Forall_map. eapply Forall_impl; [|exact H1]. intros m. apply (proj2 whole_obj).
  - eapply Forall_impl; [|exact Hn]. intros m. apply (proj2 (std_any slash)).
  - apply Forall_map. eapply Forall_impl; [|exact H2]. intros m. apply (proj2 narrow_text m).
  - now apply slash_nonempty.
  - rewrite E'. intros X. apply map_eq_nil in X. contradiction.
  - rewrite Eb. exact Hs.
  - rewrite Hraw, Eb in K. exact K.
Qed.

(** The block for a bundle without messages is not written to, here neither. *)
Theorem C56_empty_refuted : bundle_s_format rt junk empty_header = Ok [hd 170 junk].
Proof. unfold bundle_s_format, format_with. cbn. destruct junk; reflexivity. Qed.
End Wire.
Print Assumptions C56_atom.
Print Assumptions C56_message.
Print Assumptions C56_bundle.
Print Assumptions C56_serialized.
Print Assumptions C56_deserialized.
Print Assumptions C56_empty_refuted.

Example C56_hypotheses rt junk : exists b,
  bundle_serialize (repeat 7 500) picture = Ok b /\ bundle_s_format rt junk b = Ok (picture_text ++ [0]) /\
  bundle_u_format rt junk picture = Ok (picture_text ++ [0]).
Proof.
  destruct (C55_hypotheses rt) as (H1 & H2 & H3 & H4 & H5 & H6 & H7 & H8).
  assert (Hb : zlen (enc_bundle empty_header (raw_msgs picture)) <= zlen (repeat 7 500)) by (vm_compute; discriminate).
  assert (Hne : picture <> []) by discriminate.
  rewrite <- H7 in H8. set (b := enc_bundle empty_header (raw_msgs picture)) in *.
  assert (E : bundle_serialize (repeat 7 500) picture = Ok b) by (apply C12_bundle_encoding; assumption).
  destruct (C56_serialized rt junk picture (repeat 7 500) b H1 H2 H3 H4 Hne H6 H8 Hb E) as [K1 K2].
  exists b. rewrite K1, K2, H7. split; [exact E|]. split; reflexivity.
Qed.

(** * What goes wrong *)

(** A room that is too short even for the address: the argument is written
    behind the end of the room. *)
Theorem C55_short_room_refuted rt junk a tg w p g :
  tg <> 46 -> (tg = 115 -> exists s, p = PStr s) -> 0 < zlen g < 2^63 -> zlen g < zlen a + 3 ->
  fmt_msg_u rt junk 0 (UMsg (Some a) [Atom tg w p]) (Some g) 0 (zlen g) = Ub OOB.
Proof.
  intros Ht Hp Hg Hl. unfold fmt_msg_u. fold (fmt_atom_u rt junk).
  change (tabs 0) with (Ok (@nil Z)). cbn [bind]. change (zlen [Atom tg w p]) with 1.
  change (msg_head [] a 1) with (a ++ str " : "). set (h := a ++ str " : ").
  assert (Hh : zlen g < zlen h) by (unfold h; rewrite zlen_app; change (zlen (str " : ")) with 3; lia).
  unfold step at 1. unfold put. rewrite Z.sub_0_r. rewrite u64_small by lia. unfold snprintf.
  rewrite (proj2 (Z.eqb_neq (zlen g) 0)) by lia.
  assert (W := write_app [] g (firstn (Z.to_nat (zlen g - 1)) h ++ [0]) []).
  set (g2 := firstn (Z.to_nat (zlen g - 1)) h ++ [0]) in *. rewrite !app_nil_r in W.
  change (zlen (@nil Z)) with 0 in W. rewrite Z.add_0_l. change ([] ++ g) with g in W. change ([] ++ g2) with g2 in W.
  assert (H2 : zlen g2 = zlen g).
  { unfold g2. rewrite zlen_app. change (zlen [0]) with 1. unfold zlen in *. rewrite firstn_length. lia. }
  rewrite W by (unfold zlen in H2; lia). cbn [bind joined]. unfold always at 1. cbn [negb]. unfold step at 1.
  rewrite Z.add_0_l. unfold fmt_atom_u.
  rewrite (proj2 (Z.eqb_neq tg 46) Ht).
  assert (A : forall f n, at_pos f (Some g2) (zlen h) n = Ub OOB).
  { intros f n. unfold at_pos. rewrite (proj2 (Z.ltb_lt (zlen g2) (zlen h))) by lia. now rewrite orb_true_r. }
  destruct (tg =? 115) eqn:E; [|now rewrite A]. destruct (Hp (proj1 (Z.eqb_eq _ _) E)) as [s ->]. now rewrite A.
Qed.
Print Assumptions C55_short_room_refuted.

(** 8-bit unsigned integers are announced as numbers and printed as characters. *)
Theorem C55_uint8_refuted rt : atom_u_format rt [] (Atom 67 65 PNone) = Ok (str "'A" ++ [0]) /\
  show_value rt 0 (raw_value (Atom 67 65 PNone)) = str "'A'".
Proof. split; reflexivity. Qed.
(** The last number of an empty blob is read outside of it. *)
Theorem C55_empty_blob_refuted rt junk : atom_u_format rt junk (Atom 98 0 (PBlob [0; 0; 0; 0])) = Ub OOB.
Proof. reflexivity. Qed.
(** A message without an address. *)
Theorem C55_no_address_refuted rt junk args : msg_u_format rt junk (UMsg None args) = Ub NullDeref.
Proof. reflexivity. Qed.
(** An address without a slash at its beginning: the object has a text, the
    serialized bundle none. *)
Theorem C56_no_slash_refuted rt : let ms := [UMsg (Some (str "a")) []] in
  bundle_u_format rt [7] ms = Ok (str "a" ++ [0]) /\
  bundle_s_format rt [7] (enc_bundle empty_header (raw_msgs ms)) = Ok [7].
Proof. split; reflexivity. Qed.
Print Assumptions C55_uint8_refuted.
Print Assumptions C55_empty_blob_refuted.
Print Assumptions C55_no_address_refuted.
Print Assumptions C56_no_slash_refuted.
