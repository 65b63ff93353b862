(** C35: the validator that is given one byte at a time. *)

From Coq Require Import ZArith List Bool Lia.
From Verif Require Import Base BaseProofs Bytes Text WireSpec WireWalk StreamModel StreamSpec StreamProofs StreamRun.
Import ListNotations.
Open Scope Z_scope.

Lemma feed_prefix : forall l1 l2 s s2, feed (l1 ++ l2) s = Ok (Some s2) -> exists s1, feed l1 s = Ok (Some s1).
Proof.
  induction l1 as [|x l1 IH]; intros l2 s s2 H; cbn [feed app] in *; [now exists s|].
  destruct (process_byte (s8 x) s) as [s'| |]; try discriminate. cbn [bind] in *. destruct (errorp s'); [discriminate|].
  now apply (IH l2 s' s2).
Qed.

Lemma feed_pump : forall l s s', errorp s = false -> feed l s = Ok (Some s') -> pump l s = Ok s' /\ errorp s' = false.
Proof.
  induction l as [|x l IH]; intros s s' He H; cbn [feed pump] in *.
  - injection H as <-. now split.
  - destruct (process_byte (s8 x) s) as [s1| |]; try discriminate. cbn [bind] in *. destruct (errorp s1) eqn:E1; [discriminate|].
    now apply IH.
Qed.

(** The initial state is 0.  No byte of a bundle of supported messages raises an
    error, and at the end the validator is ready for one more message. *)
Theorem C35_bundle_accepted tt ws : zlen tt = 8 -> Forall streamable ws ->
  (forall pre rest, pre ++ rest = bundle_id ++ tt ++ concat (map enc_wmsg ws) ->
     exists s, pump pre 0 = Ok s /\ errorp s = false) /\
  pump (bundle_id ++ tt ++ concat (map enc_wmsg ws)) 0 =
    Ok (match ws with [] => 0x0102000000000007 | _ => 0x0208000000000000 end).
Proof.
  intros Ht Hw.
  assert (E : feed (bundle_id ++ tt ++ concat (map enc_wmsg ws)) 0 = Ok (Some (if ws then mk 1 2 0 0 7 else mk 2 8 0 0 0))).
  { rewrite app_assoc, (feed_app _ _ _ _ (header_run tt Ht)). apply bundle_run; [exact Hw|now left]. }
  split.
  - intros pre rest Ep. rewrite <- Ep in E. destruct (feed_prefix _ _ _ _ E) as (s & Es). exists s.
    now apply feed_pump.
  - destruct (feed_pump _ _ _ (eq_refl : errorp 0 = false) E) as [-> _]. now destruct ws.
Qed.
Print Assumptions C35_bundle_accepted.

Definition one : wmsg := WM (str "/{a,b}/[0-9]*") (Some (str ",isT", [0; 0; 0; 7; 120; 0; 0; 0])).
Example one_streamable : streamable one.
Proof.
  exists (str "{a,b}/[0-9]*"), (str "isT"), [0; 0; 0; 7; 120; 0; 0; 0]. split; [reflexivity|].
  split; [repeat constructor; cbn; lia|]. split.
  - apply (acc_braces (str "a,b") (str "/[0-9]*")).
    + split; [cbn; repeat apply Forall_cons; try apply Forall_nil; cbn; intuition lia|vm_compute; lia].
    + cbn [str]. apply acc_char; [cbn; lia|]. apply (acc_brackets (str "0-9") (str "*")).
      * split; [cbn; repeat apply Forall_cons; try apply Forall_nil; cbn; intuition lia|vm_compute; lia].
      * apply acc_char; [cbn; lia|constructor].
  - split; [repeat apply Forall_cons; try apply Forall_nil; cbn; tauto|]. split; [discriminate|]. split; [repeat constructor; unfold is_byte; lia|].
    vm_compute. intuition discriminate.
Qed.
Example C35_bundle_accepted_holds : pump (bundle_id ++ repeat 0 8 ++ concat (map enc_wmsg [one; one])) 0 = Ok 0x0208000000000000.
Proof. refine (proj2 (C35_bundle_accepted (repeat 0 8) [one; one] eq_refl _)). repeat constructor; exact one_streamable. Qed.

(** A message without a bundle: nothing is asked of its size, and it need not
    have data. *)
Theorem C35_message_accepted a t d : let w := WM (47 :: a) (Some (44 :: t, d)) in
  Forall (fun c => 0 < c < 256) a -> accepted a -> Forall (fun c => In c supported_tags) t -> zlen (wbody w) < 2^32 ->
  forall pre rest, pre ++ rest = wbody w -> exists s, pump pre 0 = Ok s /\ errorp s = false.
Proof.
  cbn zeta. intros Ha Hacc Ht Hn pre rest Ep.
  pose proof (naked_run a t d _ Ha Hacc Ht eq_refl Hn) as E.
  change (pad_str (47 :: a) ++ pad_str (44 :: t) ++ d) with (wbody (WM (47 :: a) (Some (44 :: t, d)))) in E.
  rewrite <- Ep in E at 1. destruct (feed_prefix _ _ _ _ E) as (s & Es). exists s. now apply feed_pump.
Qed.
Print Assumptions C35_message_accepted.
Example C35_message_accepted_holds : pump (wbody one) 0 = Ok (mk 4 8 0 0 31).
Proof. reflexivity. Qed.

(** * What is rejected *)

Lemma opening_run tt ws n : zlen tt = 8 -> Forall streamable ws -> readable n ->
  feed (opening tt ws n) 0 = Ok (Some (mk 2 1 0 0 n)).
Proof.
  intros Ht Hw (H4 & Hn & Hl). unfold opening. rewrite app_assoc, (feed_app _ _ _ _ (header_run tt Ht)).
  rewrite (feed_app _ _ _ _ (bundle_run ws _ Hw (or_introl eq_refl))).
  rewrite be4_small by lia.
  assert (Hr : ready (if ws then mk 1 2 0 0 7 else mk 2 8 0 0 0)) by (destruct ws; [now left|now right]).
  rewrite (feed_one _ _ _ _ (ready_step _ Hr)) by (apply mk_ok; fit).
  now apply size_bytes.
Qed.

Lemma readable_4 n : readable n -> 4 <= n < 65536.
Proof. intros (H4 & Hn & Hl). Z.div_mod_to_equations. lia. Qed.

Lemma slash_run tt ws n : zlen tt = 8 -> Forall streamable ws -> readable n ->
  feed (opening tt ws n ++ [47]) 0 = Ok (Some (mk 2 2 0 0 (n - 1))).
Proof.
  intros Ht Hw Hn. rewrite (feed_app _ _ _ _ (opening_run tt ws n Ht Hw Hn)). pose proof (readable_4 n Hn). destruct Hn as (_ & _ & Hl).
  destruct (slash_step 47 n ltac:(lia) ltac:(lia) ltac:(lia)) as (s' & E & Hs). cbn [Z.eqb Pos.eqb] in Hs. subst s'.
  rewrite (feed_one _ _ _ _ E) by (apply mk_ok; fit). reflexivity.
Qed.

Lemma last_byte p x s : feed p 0 = Ok (Some s) -> forall s', process_byte (s8 x) s = Ok s' ->
  feed (p ++ [x]) 0 = Ok (if errorp s' then None else Some s').
Proof. intros E s' E'. rewrite (feed_app _ _ _ _ E). cbn [feed]. rewrite E'. cbn [bind]. now destruct (errorp s'). Qed.

(** The first byte of a message after its size: only a slash. *)
Theorem C35_slash_exact tt ws n x : zlen tt = 8 -> Forall streamable ws -> readable n -> is_byte x ->
  if x =? 47 then quiet (opening tt ws n ++ [x]) else loud (opening tt ws n ++ [x]).
Proof.
  intros Ht Hw Hn Hx. pose proof (readable_4 n Hn). pose proof (opening_run tt ws n Ht Hw Hn) as E. destruct Hn as (_ & _ & Hl).
  destruct (slash_step x n Hx ltac:(lia) ltac:(lia)) as (s' & E' & Hs).
  destruct (x =? 47); [exists s'|red]; rewrite (last_byte _ _ _ E _ E').
  - rewrite Hs, mk_ok by fit. reflexivity.
  - now rewrite Hs.
Qed.
Print Assumptions C35_slash_exact.

(** The address of a message in a bundle, up to and including the NUL that ends
    it, raises an error exactly if its brackets are wrong. *)
Theorem C35_address_exact tt ws n a : zlen tt = 8 -> Forall streamable ws -> readable n ->
  Forall (fun c => 0 < c < 256) a -> zlen a + 2 <= n ->
  (accepted a -> quiet (opening tt ws n ++ 47 :: a ++ [0])) /\
  (~ accepted a -> loud (opening tt ws n ++ 47 :: a ++ [0])).
Proof.
  intros Ht Hw Hn Ha Hl. pose proof (readable_4 n Hn). pose proof (zlen_nonneg a).
  replace (opening tt ws n ++ 47 :: a ++ [0]) with ((opening tt ws n ++ [47]) ++ a ++ [0]) by (now rewrite <- app_assoc).
  assert (Eb : feed a (mk 2 2 0 0 (n - 1)) = Ok (option_map (fun m' => mk 2 2 (micro_of m') 0 (n - 1 - zlen a)) (modes Out a))).
  { change (mk 2 2 0 0 (n - 1)) with (mk 2 2 (micro_of Out) 0 (n - 1)). apply bundle_address_run; [assumption|lia]. }
  unfold quiet, loud. rewrite (feed_app _ _ _ _ (slash_run tt ws n Ht Hw Hn)). split; intros Hacc.
  - rewrite (proj2 (modes_iff a) Hacc) in Eb. cbn [option_map] in Eb. rewrite (feed_app _ _ _ _ Eb).
    destruct (bundle_end Out (n - 1 - zlen a) ltac:(lia)) as (s' & E & ->). exists (mk 2 2 16 0 (n - 1 - zlen a - 1)).
    rewrite (feed_one _ _ _ _ E) by (apply mk_ok; fit). reflexivity.
  - destruct (modes Out a) as [m|] eqn:Em; cbn [option_map] in Eb.
    + rewrite (feed_app _ _ _ _ Eb). destruct (bundle_end m (n - 1 - zlen a) ltac:(lia)) as (s' & E & Hs).
      cbn [feed]. rewrite E. cbn [bind]. destruct m; try (now rewrite Hs). exfalso. apply Hacc, modes_iff, Em.
    + now apply feed_app_none.
Qed.
Print Assumptions C35_address_exact.
Example C35_address_exact_holds : quiet (opening (repeat 0 8) [one] 32 ++ str "/{a,b}" ++ [0]) /\
  loud (opening (repeat 0 8) [one] 32 ++ str "/{a[b}" ++ [0]) /\ loud (opening (repeat 0 8) [one] 32 ++ str "/{ab" ++ [0]).
Proof. split; [eexists; vm_compute; reflexivity|]. split; vm_compute; reflexivity. Qed.

Lemma padded_run tt ws n a i : zlen tt = 8 -> Forall streamable ws -> readable n ->
  Forall (fun c => 0 < c < 256) a -> accepted a -> zlen a + 6 <= n -> 0 <= i -> (zlen a + 2 + i - 1) / 4 = (zlen a + 1) / 4 ->
  feed (opening tt ws n ++ 47 :: a ++ 0 :: zeros i) 0 = Ok (Some (mk 2 2 16 0 (n - (zlen a + 2 + i)))).
Proof.
  intros Ht Hw Hn Ha Hacc Hl Hi Hq. pose proof (readable_4 n Hn). pose proof (zlen_nonneg a). destruct Hn as (H4 & Hn' & Hn'').
  assert (Hn : readable n) by now repeat split.
  replace (opening tt ws n ++ 47 :: a ++ 0 :: zeros i) with ((opening tt ws n ++ [47]) ++ a ++ 0 :: zeros i) by (now rewrite <- app_assoc).
  rewrite (feed_app _ _ _ _ (slash_run tt ws n Ht Hw Hn)).
  assert (Eb : feed a (mk 2 2 0 0 (n - 1)) = Ok (Some (mk 2 2 0 0 (n - 1 - zlen a)))).
  { change (mk 2 2 0 0 (n - 1)) with (mk 2 2 (micro_of Out) 0 (n - 1)). rewrite bundle_address_run by (assumption || lia).
    now rewrite (proj2 (modes_iff a) Hacc). }
  rewrite (feed_app _ _ _ _ Eb). destruct (bundle_end Out (n - 1 - zlen a) ltac:(lia)) as (s' & E & ->).
  change (micro_of Out) with 0 in E. rewrite (feed_one _ _ _ _ E) by (apply mk_ok; fit).
  assert (Hi3 : i <= 3) by (Z.div_mod_to_equations; lia).
  assert (Hrun : forall j k e, (j <= k)%nat -> e mod 4 = Z.of_nat k -> Z.of_nat k <= 3 -> 0 <= e < 2^32 ->
    feed (repeat 0 j) (mk 2 2 16 0 e) = Ok (Some (mk 2 2 16 0 (e - Z.of_nat j)))).
  { clear. induction j as [|j IH]; intros k e Hj Hm Hk He.
    - cbn [repeat feed]. now rewrite Z.sub_0_r.
    - cbn [repeat]. assert (E : process_byte (s8 0) (mk 2 2 16 0 e) = Ok (mk 2 2 16 0 (e - 1))).
      { rewrite pb_bundle_address by fit. f_equal. unfold bundle_address. fld. decide_consts.
        destruct (e mod 4 =? 0) eqn:E; [lia|]. change (s8 0 =? 0) with true. cbv iota. apply down; [fit|].
        Z.div_mod_to_equations. lia. }
      rewrite (feed_one _ _ _ _ E) by (apply mk_ok; Z.div_mod_to_equations; fit).
      rewrite (IH (k - 1)%nat) by (try (Z.div_mod_to_equations; lia); lia). do 3 f_equal. lia. }
  unfold zeros. rewrite (Hrun (Z.to_nat i) (Z.to_nat ((n - 1 - zlen a - 1) mod 4))) by (Z.div_mod_to_equations; lia).
  do 3 f_equal. lia.
Qed.

(** The padding of an address: NULs up to a multiple of four, and then a comma. *)
Theorem C35_padding_exact tt ws n a i x : zlen tt = 8 -> Forall streamable ws -> readable n ->
  Forall (fun c => 0 < c < 256) a -> accepted a -> zlen a + 6 <= n -> is_byte x ->
  0 <= i -> (zlen a + 2 + i - 1) / 4 = (zlen a + 1) / 4 ->
  let bs := opening tt ws n ++ 47 :: a ++ 0 :: zeros i ++ [x] in
  if x =? (if (zlen a + 2 + i) mod 4 =? 0 then 44 else 0) then quiet bs else loud bs.
Proof.
  intros Ht Hw Hn Ha Hacc Hl Hx Hi Hq. cbn zeta. pose proof (padded_run tt ws n a i Ht Hw Hn Ha Hacc Hl Hi Hq) as E.
  pose proof (readable_4 n Hn) as Hb. destruct Hn as (H4 & _ & _). pose proof (zlen_nonneg a).
  replace (opening tt ws n ++ 47 :: a ++ 0 :: zeros i ++ [x]) with ((opening tt ws n ++ 47 :: a ++ 0 :: zeros i) ++ [x])
    by (rewrite <- app_assoc; cbn [app]; now rewrite <- app_assoc).
  set (e := n - (zlen a + 2 + i)) in *.
  assert (He : 0 <= e < 2^32) by (unfold e; Z.div_mod_to_equations; lia).
  assert (Ep : process_byte (s8 x) (mk 2 2 16 0 e) = Ok (bundle_address (s8 x) (mk 2 2 16 0 e))) by (apply pb_bundle_address; fit).
  unfold quiet, loud. rewrite (last_byte _ _ _ E _ Ep). unfold bundle_address. fld. decide_consts.
  assert (Em : (e mod 4 =? 0) = ((zlen a + 2 + i) mod 4 =? 0)).
  { apply eq_true_iff_eq. rewrite !Z.eqb_eq. unfold e. Z.div_mod_to_equations. lia. }
  rewrite Em, !s8_eqb by (try exact Hx; lia).
  change E_BADALIGNMENT with (6 * 2^32). change E_NOTYPETAGS with (8 * 2^32).
  destruct ((zlen a + 2 + i) mod 4 =? 0) eqn:E0.
  - destruct (x =? 44).
    + change (BUNDLE_MESSAGE .| TYPETAGS) with (mk 2 4 0 0 0).
      assert (4 <= e) by (unfold e; Z.div_mod_to_equations; lia).
      rewrite u32_small, lor_count, mk_ok by fit. now eexists.
    + destruct (x =? 0); rewrite err_of by (try fit; lia); reflexivity.
  - destruct (x =? 0).
    + rewrite down, mk_ok by (try fit; Z.div_mod_to_equations; lia). now eexists.
    + rewrite err_of by (try fit; lia). reflexivity.
Qed.
Print Assumptions C35_padding_exact.
Example C35_padding_exact_holds : quiet (opening (repeat 0 8) [one] 32 ++ str "/ab" ++ [0] ++ str ",") /\
  loud (opening (repeat 0 8) [one] 32 ++ str "/ab" ++ [0; 0]) /\ loud (opening (repeat 0 8) [one] 32 ++ str "/a" ++ [0] ++ str ",").
Proof. split; [eexists; vm_compute; reflexivity|]. split; vm_compute; reflexivity. Qed.

(** The type tags of a message in a bundle: an error exactly if one is not
    supported. *)
Theorem C35_typetags_exact tt ws n a t : zlen tt = 8 -> Forall streamable ws -> readable n ->
  Forall (fun c => 0 < c < 256) a -> accepted a -> Forall (fun c => 0 < c < 256) t ->
  zlen (pad_str (47 :: a)) + zlen t + 1 <= n ->
  let bs := opening tt ws n ++ pad_str (47 :: a) ++ 44 :: t in
  (Forall (fun c => In c supported_tags) t -> quiet bs) /\
  (~ Forall (fun c => In c supported_tags) t -> loud bs).
Proof.
  intros Ht Hw Hn Ha Hacc Htr Hl. cbn zeta. pose proof (readable_4 n Hn) as Hb. pose proof (zlen_nonneg a). pose proof (zlen_nonneg t).
  unfold pad_str in *. set (j := 4 - zlen (47 :: a) mod 4) in *. rewrite zlen_app in Hl. 
  assert (Hj : 1 <= j <= 4) by (unfold j; Z.div_mod_to_equations; lia). rewrite zlen_zeros in Hl by lia.
  assert (Ej : (1 + zlen a + j) mod 4 = 0) by (unfold j; rewrite zlen_cons; Z.div_mod_to_equations; lia).
  rewrite zlen_cons in Hl.
  assert (E : feed (opening tt ws n ++ 47 :: a ++ 0 :: zeros (j - 1)) 0 = Ok (Some (mk 2 2 16 0 (n - (zlen a + 2 + (j - 1)))))).
  { destruct Hn as (Hn1 & Hn2 & Hn3). apply padded_run; try assumption; [now repeat split| |lia|].
    - Z.div_mod_to_equations. lia.
    - unfold j. rewrite zlen_cons. Z.div_mod_to_equations. lia. }
  replace (opening tt ws n ++ ((47 :: a) ++ zeros j) ++ 44 :: t) with ((opening tt ws n ++ 47 :: a ++ 0 :: zeros (j - 1)) ++ 44 :: t).
  2:{ rewrite (zeros_cons j) by lia. rewrite <- !app_assoc. cbn [app]. now rewrite <- app_assoc. }
  set (e := n - (zlen a + 2 + (j - 1))) in *.
  assert (Hm : e mod 4 = 0) by (destruct Hn as (H4 & _); unfold e; Z.div_mod_to_equations; lia).
  unfold quiet, loud. rewrite (feed_app _ _ _ _ E).
  rewrite (feed_one _ _ _ _ (comma e Hm ltac:(unfold e; lia))) by (apply mk_ok; unfold e; fit).
  destruct (tags_run t (e - 1) Htr ltac:(unfold e; lia)) as [H1 H2]. split; intros Hs.
  - eexists. now apply H1.
  - now apply H2.
Qed.
Print Assumptions C35_typetags_exact.
Example C35_typetags_exact_holds : quiet (opening (repeat 0 8) [one] 32 ++ str "/ab" ++ [0] ++ str ",ifs") /\
  loud (opening (repeat 0 8) [one] 32 ++ str "/ab" ++ [0] ++ str ",ib").
Proof. split; [eexists; vm_compute; reflexivity|]. vm_compute; reflexivity. Qed.

(** The first eight bytes: a bundle has its identifier, and everything else
    that does not start with a slash is rejected. *)
Theorem C35_header_exact id : zlen id = 8 -> Forall is_byte id -> hd 0 id <> 47 ->
  (id = bundle_id -> quiet id) /\ (id <> bundle_id -> loud id).
Proof.
  intros Hl Hb Hs. split; [intros ->; eexists; vm_compute; reflexivity|]. intros Hne. unfold loud.
  destruct id as [|x0 [|x1 [|x2 [|x3 [|x4 [|x5 [|x6 [|x7 [|? ?]]]]]]]]]; try (exfalso; unfold zlen in Hl; cbn [length] in Hl; lia).
  cbn [hd] in Hs. rewrite Forall_forall in Hb.
  assert (B0 := Hb x0). assert (B1 := Hb x1). assert (B2 := Hb x2). assert (B3 := Hb x3).
  assert (B4 := Hb x4). assert (B5 := Hb x5). assert (B6 := Hb x6). assert (B7 := Hb x7). clear Hb. cbn [In] in *.
  specialize (B0 ltac:(tauto)). specialize (B1 ltac:(tauto)). specialize (B2 ltac:(tauto)). specialize (B3 ltac:(tauto)).
  specialize (B4 ltac:(tauto)). specialize (B5 ltac:(tauto)). specialize (B6 ltac:(tauto)). specialize (B7 ltac:(tauto)).
  unfold is_byte in *.
  assert (E0 : process_byte (s8 x0) 0 = Ok (if x0 =? 35 then mk 1 1 0 0 0 else E_BADHEADER)).
  { unfold process_byte. change (Z.land 0 _ =? INIT) with true. cbv iota. rewrite !s8_eqb by lia.
    destruct (x0 =? 47) eqn:G; [lia|]. reflexivity. }
  assert (Ek : forall k x c, (k < 7)%nat -> 0 <= x < 256 -> nth k [98; 117; 110; 100; 108; 101; 0] 0 = c ->
    process_byte (s8 x) (mk 1 1 0 0 (Z.of_nat k)) = Ok (if x =? c then mk 1 1 0 0 (Z.of_nat k + 1) else mk 1 1 0 1 0)).
  { clear. intros k x c Hk Hx Hc. do 7 (destruct k as [|k]; [cbn [nth] in Hc; subst c; unfold process_byte; vm_compute Z.of_nat; fld; unfold header_id; fld;
      rewrite !s8_eqb by lia; cbn [Z.eqb Pos.eqb]; cbv zeta; rewrite ?s8_eqb by lia;
      match goal with |- context [x =? ?k] => destruct (x =? k) end; reflexivity|]). lia. }
  cbn [feed]. rewrite E0. cbn [bind]. destruct (x0 =? 35) eqn:G0; [|reflexivity]. rewrite mk_ok by fit.
  assert (Hst : forall k x c l, (k < 7)%nat -> 0 <= x < 256 -> nth k [98; 117; 110; 100; 108; 101; 0] 0 = c ->
    feed (x :: l) (mk 1 1 0 0 (Z.of_nat k)) = if x =? c then feed l (mk 1 1 0 0 (Z.of_nat (S k))) else Ok None).
  { intros k x c l Hk Hx Hc. cbn [feed]. rewrite (Ek k x c Hk Hx Hc). cbn [bind]. destruct (x =? c).
    - rewrite mk_ok by fit. now replace (Z.of_nat k + 1) with (Z.of_nat (S k)) by lia.
    - reflexivity. }
  change [x1; x2; x3; x4; x5; x6; x7] with (x1 :: [x2; x3; x4; x5; x6; x7]).
  change (feed (x1 :: [x2; x3; x4; x5; x6; x7]) (mk 1 1 0 0 (Z.of_nat 0)) = Ok None).
  rewrite (Hst 0%nat x1 98) by (reflexivity || lia). destruct (x1 =? 98) eqn:G1; [|reflexivity].
  rewrite (Hst 1%nat x2 117) by (reflexivity || lia). destruct (x2 =? 117) eqn:G2; [|reflexivity].
  rewrite (Hst 2%nat x3 110) by (reflexivity || lia). destruct (x3 =? 110) eqn:G3; [|reflexivity].
  rewrite (Hst 3%nat x4 100) by (reflexivity || lia). destruct (x4 =? 100) eqn:G4; [|reflexivity].
  rewrite (Hst 4%nat x5 108) by (reflexivity || lia). destruct (x5 =? 108) eqn:G5; [|reflexivity].
  rewrite (Hst 5%nat x6 101) by (reflexivity || lia). destruct (x6 =? 101) eqn:G6; [|reflexivity].
  rewrite (Hst 6%nat x7 0) by (reflexivity || lia). destruct (x7 =? 0) eqn:G7; [|reflexivity].
  exfalso. apply Hne. rewrite Z.eqb_eq in *. subst. reflexivity.
Qed.
Print Assumptions C35_header_exact.
