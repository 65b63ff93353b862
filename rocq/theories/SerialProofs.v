(** Proofs about serialization. *)

From Coq Require Import ZArith List Bool Lia.
From Verif Require Import Base BaseProofs Bytes UtilModel UtilProofs TimetagModel TimetagProofs
  WireSpec SerialModel SerialSpec.
Import ListNotations.
Open Scope Z_scope.
Ltac Zify.zify_post_hook ::= Z.div_mod_to_equations.

(** * Induction over objects *)
Section Ind.
  Context (P : atom -> Prop) (Q : umsg -> Prop).
  Let sub (p : payload) : Prop := match p with PBndl ms => Forall Q ms | _ => True end.
  Context (HA : forall tg w p, sub p -> P (Atom tg w p)).
  Context (HM : forall ad args, Forall P args -> Q (UMsg ad args)).
  Fixpoint atom_ind2 (a : atom) : P a :=
    match a with
    | Atom tg w p => HA tg w p
        match p return sub p with
        | PBndl ms =>
            (fix go l := match l return Forall Q l with
                         | [] => Forall_nil _
                         | m :: l' => @Forall_cons _ Q m l' (umsg_ind2 m) (go l')
                         end) ms
        | PNone => I | PStr _ => I | PBlob _ => I
        end
    end
  with umsg_ind2 (m : umsg) : Q m :=
    match m with
    | UMsg ad args => HM ad args
        ((fix go l := match l return Forall P l with
                      | [] => Forall_nil _
                      | a :: l' => @Forall_cons _ P a l' (atom_ind2 a) (go l')
                      end) args)
    end.
End Ind.

Lemma all_Forall {A} (P : A -> Prop) l : fold_right (fun m Q => P m /\ Q) True l <-> Forall P l.
Proof.
  induction l as [|x l IH]; cbn [fold_right]; split; intros H.
  - constructor.
  - exact I.
  - constructor; [apply H | apply IH, H].
  - inversion H; subst. split; [assumption | now apply IH].
Qed.

(** * Lengths *)
Lemma zlen_zeros n : 0 <= n -> zlen (zeros n) = n.
Proof. intros H. unfold zlen, zeros. rewrite repeat_length. lia. Qed.

Lemma zlen_pad_str s : zlen (pad_str s) = 4 * (zlen s / 4) + 4.
Proof.
  unfold pad_str. rewrite zlen_app, zlen_zeros; [|pose proof (zlen_nonneg s)]; lia.
Qed.

Lemma zlen_pad_blob s : zlen (pad_blob s) = 4 * ((zlen s + 3) / 4).
Proof.
  unfold pad_blob. rewrite zlen_app, zlen_zeros; [|pose proof (zlen_nonneg s)]; lia.
Qed.

Lemma padding_pad_str s : zlen s + 4 < 2^32 -> padding_for_nbytes (zlen s) = zlen (pad_str s).
Proof. intros H. pose proof (zlen_nonneg s). rewrite padding_for_nbytes_eq, zlen_pad_str; lia. Qed.

Lemma padded_pad_str s : zlen s + 4 < 2^32 -> padded_string_len (zlen s) = zlen (pad_str s).
Proof. intros H. pose proof (zlen_nonneg s). rewrite padded_string_len_eq, zlen_pad_str; lia. Qed.

Lemma wf_firstn n l : wf_bytes l -> wf_bytes (firstn n l).
Proof.
  unfold wf_bytes. rewrite !Forall_forall. intros H x Hx. apply H.
  rewrite <- (firstn_skipn n l). apply in_or_app. now left.
Qed.
Lemma wf_skipn n l : wf_bytes l -> wf_bytes (skipn n l).
Proof.
  unfold wf_bytes. rewrite !Forall_forall. intros H x Hx. apply H.
  rewrite <- (firstn_skipn n l). apply in_or_app. now right.
Qed.
Lemma wf_app l l' : wf_bytes l -> wf_bytes l' -> wf_bytes (l ++ l').
Proof. unfold wf_bytes. intros. now apply Forall_app. Qed.
Lemma wf_zeros n : wf_bytes (zeros n).
Proof.
  unfold wf_bytes, zeros. apply Forall_forall. intros x Hx. apply repeat_spec in Hx. subst.
  unfold is_byte. lia.
Qed.

Lemma zlen_firstn {A} n (l : list A) : 0 <= n <= zlen l -> zlen (firstn (Z.to_nat n) l) = n.
Proof. unfold zlen. intros H. rewrite firstn_length. lia. Qed.
Lemma zlen_skipn {A} n (l : list A) : 0 <= n <= zlen l -> zlen (skipn (Z.to_nat n) l) = zlen l - n.
Proof. unfold zlen. intros H. rewrite skipn_length. lia. Qed.

Lemma blob_facts b : blob_ok b ->
  exists d r, b = be_bytes 4 (zlen d) ++ d ++ r /\ blob_data b = d /\ zlen d + 8 < 2^31 /\
    wf_bytes d.
Proof.
  intros (Hwf & H4 & Hlt & Hle).
  assert (H4' : (4 <= length b)%nat) by (unfold zlen in H4; lia).
  assert (Hb4 : zlen (firstn 4 b) = 4) by (unfold zlen; rewrite firstn_length; lia).
  pose proof (of_be_bound (firstn 4 b) (wf_firstn 4 b Hwf)) as Hbd.
  set (n := of_be (firstn 4 b)) in *.
  exists (blob_data b), (skipn (Z.to_nat n) (skipn 4 b)).
  assert (Hd : zlen (blob_data b) = n).
  { unfold blob_data. fold n. apply zlen_firstn. unfold zlen in *. rewrite skipn_length. lia. }
  split; [|split; [reflexivity|split]].
  - rewrite Hd. unfold blob_data. fold n. rewrite firstn_skipn.
    replace (be_bytes 4 n) with (firstn 4 b); [symmetry; apply firstn_skipn|].
    unfold n. replace 4%nat with (length (firstn 4 b)) at 2; [|rewrite firstn_length; lia].
    symmetry. apply be_bytes_of_be. now apply wf_firstn.
  - lia.
  - unfold blob_data. apply wf_firstn. now apply wf_skipn.
Qed.

(** * Size pass *)
Definition asz (a : atom) : Z := zlen (enc_value (raw_value a)).
Definition enc_umsg (m : umsg) : bytes := concat (map enc_message (raw_msg m)).
Definition enc_args (l : list atom) : bytes := concat (map (fun a => enc_value (raw_value a)) l).
Definition enc_umsgs (l : list umsg) : bytes := concat (map enc_umsg l).

Lemma enc_umsgs_raw l : concat (map enc_message (raw_msgs l)) = enc_umsgs l.
Proof.
  unfold raw_msgs, enc_umsgs. induction l as [|m l IH]; [reflexivity|].
  cbn [map concat]. rewrite map_app, concat_app. f_equal. exact IH.
Qed.

Lemma enc_args_raw l : concat (map enc_value (map raw_value l)) = enc_args l.
Proof. unfold enc_args. now rewrite map_map. Qed.

Lemma enc_bundle_atom w ms :
  enc_value (raw_value (Atom 46 w (PBndl ms))) = sized (empty_header ++ enc_umsgs ms).
Proof. rewrite <- enc_umsgs_raw. reflexivity. Qed.

Lemma enc_umsg_some a args :
  enc_umsg (UMsg (Some a) args)
  = sized (pad_str a ++ pad_str (44 :: map vtag (map raw_value args)) ++ enc_args args).
Proof. rewrite <- enc_args_raw. unfold enc_umsg. cbn [raw_msg map concat]. now rewrite app_nil_r. Qed.

Lemma zlen_sized b : zlen (sized b) = 4 + zlen b.
Proof. unfold sized. rewrite zlen_app, zlen_be. lia. Qed.

Lemma loop_sum {A} (f : A -> res Z) (g : A -> bytes) l n :
  Forall (fun a => f a = Ok (zlen (g a))) l ->
  loop_list always (fun n a => do k <- f a; Ok (n + k)) l n = Ok (n + zlen (concat (map g l))).
Proof.
  intros H. revert n. induction H as [|a l Ha Hl IH]; intros n.
  - cbn. f_equal. unfold zlen. cbn. lia.
  - change (loop_list always (fun n a => do k <- f a; Ok (n + k)) (a :: l) n)
      with (do s' <- (do k <- f a; Ok (n + k));
            loop_list always (fun n a => do k <- f a; Ok (n + k)) l s').
    rewrite Ha. cbn [bind]. rewrite IH. cbn [map concat]. rewrite zlen_app. f_equal. lia.
Qed.

Lemma zlen_map {A B} (f : A -> B) l : zlen (map f l) = zlen l.
Proof. unfold zlen. now rewrite map_length. Qed.

Lemma Forall_mp {A} (P Q : A -> Prop) l : Forall (fun x => P x -> Q x) l -> Forall P l -> Forall Q l.
Proof. rewrite !Forall_forall. auto. Qed.

Lemma tags_len args : zlen (44 :: map vtag (map raw_value args)) = zlen args + 1.
Proof. rewrite zlen_cons, !zlen_map. lia. Qed.

Lemma s32_small n : 0 <= n < 2^31 -> s32 n = n.
Proof. intros H. unfold s32. lia. Qed.

Lemma rd32_blob d r : zlen d + 8 < 2^31 ->
  rd32 (be_bytes 4 (zlen d) ++ d ++ r) 0 = Ok (zlen d).
Proof.
  intros H. pose proof (zlen_nonneg d).
  change (be_bytes 4 (zlen d) ++ d ++ r) with ([] ++ be_bytes 4 (zlen d) ++ d ++ r).
  change 0 with (zlen (@nil Z)) at 1. rewrite rd32_be. unfold u32. f_equal. lia.
Qed.

(** Case analysis on the tag. *)
Ltac tag_case c :=
  match goal with
  | |- context [c] => destruct c eqn:?
  end.

Lemma size_ok :
  (forall a, ok_atom a -> atom_size a = Ok (zlen (enc_value (raw_value a)))) /\
  (forall m, ok_msg m -> msg_size m = Ok (zlen (enc_umsg m))).
Proof.
  assert (HA : forall tg w p,
    match p with
    | PBndl ms => Forall (fun m => ok_msg m -> msg_size m = Ok (zlen (enc_umsg m))) ms
    | _ => True
    end -> ok_atom (Atom tg w p) -> atom_size (Atom tg w p) = Ok (zlen (enc_value (raw_value (Atom tg w p))))).
  { intros tg w p Hp Hok.
    destruct p as [|s|b|ms].
    - cbn in Hok. destruct Hok as (_ & Hs & Hb). cbn [atom_size raw_value existsb].
      unfold is_int32_tag.
      repeat match goal with
      | |- context [if ?b then _ else _] => destruct b eqn:?
      | |- context [?a || ?b] => destruct a eqn:?; cbn [orb]
      end; try (cbn [orb] in *; lia); try congruence; try reflexivity.
    - cbn in Hok. destruct Hok as (_ & -> & Hn & Hwf & Hlt). cbn. f_equal. now apply padding_pad_str.
    - cbn in Hok. destruct Hok as (_ & -> & Hb).
      destruct (blob_facts b Hb) as (d & r & Hbe & Hdata & Hlt & _).
      change (atom_size (Atom 98 w (PBlob b))) with (do n <- rd32 b 0; Ok (blob_length (s32 n))).
      rewrite Hbe at 1. rewrite rd32_blob by assumption. cbn [bind].
      change (raw_value (Atom 98 w (PBlob b))) with (VBlob (blob_data b)). rewrite Hdata.
      pose proof (zlen_nonneg d). rewrite s32_small, blob_length_eq by lia.
      cbn [enc_value]. rewrite zlen_app, zlen_be, zlen_pad_blob. reflexivity.
    - cbn in Hok. destruct Hok as (_ & -> & Hms). rewrite all_Forall in Hms.
      rewrite enc_bundle_atom.
      change (atom_size (Atom 46 w (PBndl ms))) with
        (do len <- loop_list always (fun n m => do k <- msg_size m; Ok (n + k)) ms 16; Ok (len + 4)).
      rewrite (loop_sum msg_size enc_umsg) by (eapply Forall_mp; eassumption).
      cbn [bind]. rewrite zlen_sized, zlen_app. change (zlen empty_header) with 16.
      f_equal. unfold enc_umsgs. lia. }
  assert (HM : forall ad args,
    Forall (fun a => ok_atom a -> atom_size a = Ok (zlen (enc_value (raw_value a)))) args ->
    ok_msg (UMsg ad args) -> msg_size (UMsg ad args) = Ok (zlen (enc_umsg (UMsg ad args)))).
  { intros ad args Hargs Hok. destruct ad as [s|]; [|reflexivity].
    cbn in Hok. destruct Hok as ((Hn & Hwf & Hlt) & Hl & Hall). rewrite all_Forall in Hall.
    rewrite enc_umsg_some.
    change (msg_size (UMsg (Some s) args)) with
      (loop_list always (fun n a => do k <- atom_size a; Ok (n + k)) args
        (4 + padded_string_len (zlen s) + padding_for_nbytes (zlen args + 1))).
    rewrite (loop_sum atom_size (fun a => enc_value (raw_value a))) by (eapply Forall_mp; eassumption).
    rewrite padded_pad_str by lia. rewrite <- tags_len. rewrite padding_pad_str by (rewrite tags_len; lia).
    rewrite zlen_sized, !zlen_app. f_equal. unfold enc_args. lia. }
  split; [exact (atom_ind2 _ _ HA HM) | exact (umsg_ind2 _ _ HA HM)].
Qed.

Lemma bundle_size_ok ms : Forall ok_msg ms -> bundle_size ms = Ok (16 + zlen (enc_umsgs ms)).
Proof.
  intros H. unfold bundle_size. rewrite (loop_sum msg_size enc_umsg); [reflexivity|].
  eapply Forall_impl; [|exact H]. intros m. apply (proj2 size_ok).
Qed.

(** * Writing pass *)

(** [run] writes the bytes [e] at the front of any region that is large enough,
    and never touches anything outside the region. *)
Definition Wr (e : bytes) (run : bytes -> Z -> Z -> res (bytes * Z)) : Prop :=
  forall pre reg post, exists reg' k,
    run (pre ++ reg ++ post) (zlen pre) (zlen reg) = Ok (pre ++ reg' ++ post, k) /\
    zlen reg' = zlen reg /\ 0 <= k <= zlen reg /\
    (zlen e <= zlen reg -> k = zlen e /\ reg' = e ++ skipn (length e) reg).

Lemma Wr_else L e (w : bytes -> Z -> res (bytes * Z)) e' fb run :
  zlen e = L ->
  (forall pre r1 post, zlen r1 = L -> w (pre ++ r1 ++ post) (zlen pre) = Ok (pre ++ e ++ post, L)) ->
  Wr e' fb ->
  (forall buf off n, run buf off n = if n >=? L then w buf off else fb buf off n) ->
  Wr e run.
Proof.
  intros He Hw Hfb Hrun pre reg post. rewrite Hrun. pose proof (zlen_nonneg e). pose proof (zlen_nonneg reg).
  destruct (zlen reg >=? L) eqn:E.
  - assert (Hs : reg = firstn (length e) reg ++ skipn (length e) reg) by (symmetry; apply firstn_skipn).
    set (r1 := firstn (length e) reg) in *. set (r2 := skipn (length e) reg) in *.
    assert (Hr1 : zlen r1 = L).
    { subst r1. unfold zlen in *. rewrite firstn_length. lia. }
    exists (e ++ r2), L.
    assert (Hz : zlen (e ++ r2) = zlen reg).
    { rewrite Hs at 1. rewrite !zlen_app. lia. }
    rewrite Hs at 1. rewrite <- app_assoc. rewrite Hw by assumption.
    rewrite <- app_assoc.
    split; [reflexivity|split; [exact Hz|split; [lia|]]]. intros _. split; [lia|reflexivity].
  - destruct (Hfb pre reg post) as (reg' & k & Hr & Hz & Hk & _).
    exists reg', k. split; [exact Hr|split; [exact Hz|split; [lia|]]]. intros. lia.
Qed.

Lemma Wr_fits L e (w : bytes -> Z -> res bytes) run :
  zlen e = L ->
  (forall pre r1 post, zlen r1 = L -> w (pre ++ r1 ++ post) (zlen pre) = Ok (pre ++ e ++ post)) ->
  (forall buf off n, run buf off n = if n >=? L then do b <- w buf off; Ok (b, L) else Ok (buf, 0)) ->
  Wr e run.
Proof.
  intros He Hw Hrun pre reg post. rewrite Hrun. pose proof (zlen_nonneg e). pose proof (zlen_nonneg reg).
  destruct (zlen reg >=? L) eqn:E.
  - assert (Hs : reg = firstn (length e) reg ++ skipn (length e) reg) by (symmetry; apply firstn_skipn).
    set (r1 := firstn (length e) reg) in *. set (r2 := skipn (length e) reg) in *.
    assert (Hr1 : zlen r1 = L).
    { subst r1. unfold zlen in *. rewrite firstn_length. lia. }
    exists (e ++ r2), L.
    assert (Hz : zlen (e ++ r2) = zlen reg).
    { rewrite Hs at 1. rewrite !zlen_app. lia. }
    rewrite Hs at 1. rewrite <- app_assoc. rewrite Hw by assumption. cbn [bind].
    rewrite <- app_assoc.
    split; [reflexivity|split; [exact Hz|split; [lia|]]]. intros _. split; [lia|reflexivity].
  - exists reg, 0. split; [reflexivity|split; [reflexivity|split; [lia|]]]. intros. lia.
Qed.

Lemma Wr_nothing run : (forall buf off n, run buf off n = Ok (buf, 0)) -> Wr [] run.
Proof.
  intros H pre reg post. rewrite H. exists reg, 0. pose proof (zlen_nonneg reg).
  split; [reflexivity|split; [reflexivity|split; [lia|]]]. intros _. split; reflexivity.
Qed.

Lemma Wr_ext e run run' : (forall b o n, run b o n = run' b o n) -> Wr e run -> Wr e run'.
Proof. intros H Hw pre reg post. rewrite <- H. apply Hw. Qed.

Lemma repeat_zeros n : repeat 0 (Z.to_nat n) = zeros n.
Proof. reflexivity. Qed.

Lemma zeros_app a b : 0 <= a -> 0 <= b -> zeros (a + b) = zeros a ++ zeros b.
Proof. intros. unfold zeros. rewrite Z2Nat.inj_add by lia. apply repeat_app. Qed.

Lemma memset0_at pre r post n : zlen r = n ->
  memset0 (pre ++ r ++ post) (zlen pre) n = Ok (pre ++ zeros n ++ post).
Proof.
  intros H. unfold memset0. rewrite repeat_zeros. apply write_app.
  unfold zeros. rewrite repeat_length. unfold zlen in H. lia.
Qed.

Lemma write_zeros pre v n post : zlen v <= n ->
  write (pre ++ zeros n ++ post) (zlen pre) v = Ok (pre ++ (v ++ zeros (n - zlen v)) ++ post).
Proof.
  intros H. pose proof (zlen_nonneg v). replace n with (zlen v + (n - zlen v)) at 1 by lia.
  rewrite zeros_app, <- !app_assoc by lia. rewrite write_app; [reflexivity|].
  unfold zeros. rewrite repeat_length. unfold zlen. lia.
Qed.

Lemma tag_bundle_run w ms buf off n :
  ok_atom (Atom 46 w (PBndl ms)) ->
  atom_nser buf off n (Atom 46 w (PBndl ms))
  = do len <- bundle_size ms;
    if n >=? len + 4 then
      do b <- wr32 buf off len;
      do ' (b, k) <- bundle_nser b (off + 4) len ms;
      Ok (b, k + 4)
    else if n >=? 8 then
      do b <- tt_encode (TT (w mod 2^32) (w / 2^32 mod 2^32)) buf off; Ok (b, 8)
    else Ok (buf, 0).
Proof.
  intros Hok. cbn in Hok. destruct Hok as (_ & _ & Hms). rewrite all_Forall in Hms.
  change (atom_nser buf off n (Atom 46 w (PBndl ms))) with
    (do len <- bundle_size ms;
     if n >=? len + 4 then
       do b <- wr32 buf off len;
       if len <? 16 then Ok (b, 4) else
       do b <- write b (off + 4) osc_empty_header;
       do ' (b, k) <- loop_list (fun st => snd st <? len)
         (fun st m => do ' (b, k) <- msg_nser (fst st) (off + 4 + snd st) (len - snd st) m;
                      Ok (b, snd st + k)) ms (b, 16);
       Ok (b, k + 4)
     else if n >=? 8 then
       do b <- tt_encode (TT (w mod 2^32) (w / 2^32 mod 2^32)) buf off; Ok (b, 8)
     else Ok (buf, 0)).
  destruct (bundle_size ms) as [len| |]; cbn [bind]; try reflexivity.
  destruct (n >=? len + 4); [|reflexivity].
  destruct (wr32 buf off len) as [b| |]; cbn [bind]; try reflexivity.
  unfold bundle_nser. destruct (len <? 16); [reflexivity|].
  destruct (write b (off + 4) osc_empty_header); reflexivity.
Qed.

Lemma zlen_0 {A} (l : list A) : zlen l <= 0 -> l = [].
Proof. destruct l; [reflexivity|]. unfold zlen. cbn [length]. lia. Qed.

Lemma skipn_add {A} a b (l : list A) : skipn a (skipn b l) = skipn (b + a) l.
Proof.
  revert l. induction b as [|b IH]; intros l; [reflexivity|].
  destruct l as [|x l]; [now rewrite !skipn_nil|]. cbn [skipn Nat.add]. apply IH.
Qed.

(** The loop over the messages of a bundle, [d] being what is written so far. *)
Lemma msgs_loop ms : forall pre d r post,
  Forall (fun m => Wr (enc_umsg m) (fun b o n => msg_nser b o n m)) ms ->
  exists d' r' k,
    loop_list (fun st => snd st <? zlen (d ++ r))
      (fun st m => do ' (b, k) <- msg_nser (fst st) (zlen pre + snd st) (zlen (d ++ r) - snd st) m;
                   Ok (b, snd st + k)) ms (pre ++ (d ++ r) ++ post, zlen d)
    = Ok (pre ++ (d ++ d' ++ r') ++ post, zlen d + k) /\
    k = zlen d' /\ zlen d' + zlen r' = zlen r /\
    (zlen (enc_umsgs ms) <= zlen r ->
     d' = enc_umsgs ms /\ r' = skipn (length (enc_umsgs ms)) r).
Proof.
  induction ms as [|m ms IH]; intros pre d r post HF.
  - exists [], r, 0. cbn [loop_list app]. rewrite Z.add_0_r.
    split; [reflexivity|split; [reflexivity|split; [unfold zlen; cbn [length]; lia|]]].
    intros _. split; reflexivity.
  - inversion HF as [|? ? Hm Hms]; subst. cbn [loop_list snd fst].
    pose proof (zlen_nonneg r) as Hr. pose proof (zlen_nonneg (enc_umsg m)) as Hem.
    change (enc_umsgs (m :: ms)) with (enc_umsg m ++ enc_umsgs ms).
    pose proof (zlen_nonneg (enc_umsgs ms)) as Hems.
    destruct (zlen d <? zlen (d ++ r)) eqn:E; rewrite zlen_app in E.
    + destruct (Hm (pre ++ d) r post) as (reg' & k & Hrun & Hz & Hk & Hfit).
      replace (pre ++ (d ++ r) ++ post) with ((pre ++ d) ++ r ++ post) by (now rewrite <- !app_assoc).
      replace (zlen pre + zlen d) with (zlen (pre ++ d)) by (now rewrite zlen_app).
      replace (zlen (d ++ r) - zlen d) with (zlen r) by (rewrite zlen_app; lia).
      rewrite Hrun. cbn [bind fst snd].
      destruct (split_at reg' k) as (e1 & e2 & He & He1); [lia|]. subst reg'.
      replace ((pre ++ d) ++ (e1 ++ e2) ++ post) with (pre ++ ((d ++ e1) ++ e2) ++ post)
        by (now rewrite <- !app_assoc).
      replace (zlen d + k) with (zlen (d ++ e1)) by (rewrite zlen_app; lia).
      destruct (IH pre (d ++ e1) e2 post Hms) as (d' & r' & k' & Hrun' & Hk' & Hz' & Hfit').
      replace (zlen (d ++ r)) with (zlen ((d ++ e1) ++ e2)) by (rewrite !zlen_app in *; lia).
      exists (e1 ++ d'), r', (k + k').
      rewrite zlen_app in Hz.
      split; [|split; [|split]].
      * etransitivity; [exact Hrun'|]. rewrite <- !app_assoc. f_equal. f_equal. rewrite zlen_app. lia.
      * rewrite zlen_app. lia.
      * rewrite zlen_app. lia.
      * rewrite zlen_app. intros Hall. destruct Hfit as (Hk1 & Heq); [lia|].
        assert (He1' : e1 = enc_umsg m /\ e2 = skipn (length (enc_umsg m)) r).
        { assert (Hle : length e1 = length (enc_umsg m)) by (unfold zlen in *; lia).
          split.
          - apply (f_equal (firstn (length e1))) in Heq.
            rewrite firstn_app, Nat.sub_diag, firstn_all, firstn_O, app_nil_r in Heq.
            rewrite Hle, firstn_app, Nat.sub_diag, firstn_all, firstn_O, app_nil_r in Heq. exact Heq.
          - apply (f_equal (skipn (length e1))) in Heq.
            rewrite skipn_app, Nat.sub_diag, skipn_all, skipn_O in Heq.
            rewrite Hle, skipn_app, Nat.sub_diag, skipn_all, skipn_O in Heq. exact Heq. }
        destruct He1' as [-> He2]. destruct Hfit' as (Hd' & Hr'); [lia|].
        subst d' r'. split; [reflexivity|]. rewrite He2.
        rewrite skipn_add. f_equal. rewrite app_length. lia.
    + exists [], r, 0. cbn [app]. rewrite Z.add_0_r.
      split; [reflexivity|split; [reflexivity|split; [unfold zlen; cbn [length]; lia|]]].
      rewrite zlen_app. intros Hall.
      assert (H1 : enc_umsg m = []) by (apply zlen_0; lia).
      assert (H2 : enc_umsgs ms = []) by (apply zlen_0; lia).
      rewrite H1, H2. split; reflexivity.
Qed.

Lemma bundle_nser_ok ms :
  Forall (fun m => Wr (enc_umsg m) (fun b o n => msg_nser b o n m)) ms ->
  Wr (empty_header ++ enc_umsgs ms) (fun b o n => bundle_nser b o n ms).
Proof.
  intros HF pre reg post. unfold bundle_nser. pose proof (zlen_nonneg reg).
  pose proof (zlen_nonneg (enc_umsgs ms)).
  assert (Hhd : zlen empty_header = 16) by reflexivity.
  destruct (zlen reg <? 16) eqn:E.
  - exists reg, 0. split; [reflexivity|split; [reflexivity|split; [lia|]]].
    rewrite zlen_app. intros. lia.
  - destruct (split_at reg 16) as (h & r & -> & Hh); [lia|].
    rewrite <- app_assoc. change osc_empty_header with empty_header.
    rewrite write_app by (unfold zlen in *; lia). cbn [bind].
    replace (zlen (h ++ r)) with (zlen (empty_header ++ r)) by (rewrite !zlen_app; lia).
    destruct (msgs_loop ms pre empty_header r post HF) as (d' & r' & k & Hrun & Hk & Hz & Hfit).
    replace 16 with (zlen empty_header) by reflexivity.
    replace (pre ++ empty_header ++ r ++ post) with (pre ++ (empty_header ++ r) ++ post)
      by (now rewrite <- !app_assoc).
    exists (empty_header ++ d' ++ r'), (zlen empty_header + k).
    pose proof (zlen_nonneg d'). pose proof (zlen_nonneg r').
    split; [exact Hrun|split; [|split]].
    + rewrite !zlen_app. lia.
    + rewrite !zlen_app. lia.
    + rewrite !zlen_app. intros Hall. destruct Hfit as (-> & ->); [lia|].
      split; [lia|]. rewrite <- !app_assoc. f_equal. f_equal.
      rewrite app_length, skipn_app.
      replace (length empty_header + length (enc_umsgs ms) - length h)%nat
        with (length (enc_umsgs ms)) by (unfold zlen in *; lia).
      rewrite (skipn_all2 h) by (unfold zlen in *; lia). reflexivity.
Qed.

Lemma app_same_len {A} (a b c d : list A) : length a = length c -> a ++ b = c ++ d -> a = c /\ b = d.
Proof.
  intros Hl H. split.
  - apply (f_equal (firstn (length a))) in H.
    rewrite firstn_app, Nat.sub_diag, firstn_all, firstn_O, app_nil_r in H.
    rewrite Hl, firstn_app, Nat.sub_diag, firstn_all, firstn_O, app_nil_r in H. exact H.
  - apply (f_equal (skipn (length a))) in H.
    rewrite skipn_app, Nat.sub_diag, skipn_all, skipn_O in H.
    rewrite Hl, skipn_app, Nat.sub_diag, skipn_all, skipn_O in H. exact H.
Qed.

(** The loop over the arguments of a message.  [t]: the tags written so far with
    everything before them, [z]: the rest of the tag area, [d]: the data
    written so far, [r]: the rest of the region. *)
Lemma args_loop args : forall pre t z d r post,
  Forall (fun a => Wr (enc_value (raw_value a)) (fun b o n => atom_nser b o n a)) args ->
  zlen args < zlen z ->
  let n := zlen (t ++ z ++ d ++ r) in
  exists d' r' k,
    loop_list (fun st => let '(_, ttptr, _) := st in ttptr <? zlen pre + n)
      (fun st a =>
         let '(b, ttptr, n1) := st in
         do b <- write b ttptr [u8 (a_tt a)];
         if n1 <=? n then
           do ' (b, k) <- atom_nser b (zlen pre + n1) (n - n1) a; Ok (b, ttptr + 1, n1 + k)
         else Ok (b, ttptr + 1, n1))
      args (pre ++ (t ++ z ++ d ++ r) ++ post, zlen pre + zlen t, zlen (t ++ z ++ d))
    = Ok (pre ++ (t ++ (map (fun a => u8 (a_tt a)) args ++ skipn (length args) z) ++ d ++ d' ++ r') ++ post,
          zlen pre + zlen t + zlen args, zlen (t ++ z ++ d) + k) /\
    k = zlen d' /\ zlen d' + zlen r' = zlen r /\
    (zlen (enc_args args) <= zlen r ->
     d' = enc_args args /\ r' = skipn (length (enc_args args)) r).
Proof.
  induction args as [|a args IH]; intros pre t z d r post HF Hz n.
  - exists [], r, 0. cbn [loop_list app map length skipn]. rewrite !Z.add_0_r.
    split; [reflexivity|split; [reflexivity|split; [unfold zlen; cbn [length]; lia|]]].
    intros _. split; reflexivity.
  - inversion HF as [|? ? Ha Hargs]; subst. rewrite zlen_cons in Hz.
    pose proof (zlen_nonneg args) as Hargs0.
    destruct z as [|z0 z]; [unfold zlen in Hz; cbn [length] in Hz; lia|]. rewrite zlen_cons in Hz.
    pose proof (zlen_nonneg r) as Hr. pose proof (zlen_nonneg d) as Hd.
    pose proof (zlen_nonneg (enc_value (raw_value a))) as Hem.
    change (enc_args (a :: args)) with (enc_value (raw_value a) ++ enc_args args).
    pose proof (zlen_nonneg (enc_args args)) as Hems.
    assert (Hn : n = zlen t + (1 + zlen z) + zlen d + zlen r)
      by (unfold n; rewrite !zlen_app, zlen_cons; lia).
    cbn [loop_list]. replace (zlen pre + zlen t <? zlen pre + n) with true by lia.
    replace (pre ++ (t ++ (z0 :: z) ++ d ++ r) ++ post)
      with ((pre ++ t) ++ [z0] ++ (z ++ d ++ r ++ post)) by (now rewrite <- !app_assoc).
    rewrite <- zlen_app. rewrite write_app by reflexivity. cbn [bind].
    set (tb := u8 (a_tt a)).
    replace (zlen (t ++ (z0 :: z) ++ d) <=? n) with true
      by (rewrite !zlen_app, zlen_cons; lia).
    set (t' := t ++ [tb]).
    assert (Ht' : zlen t' = zlen t + 1) by (unfold t'; rewrite zlen_app; reflexivity).
    destruct (Ha (pre ++ t' ++ z ++ d) r post) as (reg' & k & Hrun & Hzr & Hk & Hfit).
    replace ((pre ++ t) ++ [tb] ++ z ++ d ++ r ++ post)
      with ((pre ++ t' ++ z ++ d) ++ r ++ post) by (unfold t'; now rewrite <- !app_assoc).
    replace (zlen pre + zlen (t ++ (z0 :: z) ++ d)) with (zlen (pre ++ t' ++ z ++ d))
      by (rewrite !zlen_app, zlen_cons; lia).
    replace (n - zlen (t ++ (z0 :: z) ++ d)) with (zlen r)
      by (rewrite !zlen_app, zlen_cons; lia).
    cbv beta in Hrun. rewrite Hrun. cbn [bind].
    destruct (split_at reg' k) as (e1 & e2 & He & He1); [lia|]. subst reg'.
    destruct (IH pre t' z (d ++ e1) e2 post Hargs ltac:(lia)) as (d' & r' & k' & Hrun' & Hk' & Hz' & Hfit').
    rewrite zlen_app in Hzr.
    assert (Hn' : zlen (t' ++ z ++ (d ++ e1) ++ e2) = n) by (rewrite !zlen_app; lia).
    rewrite Hn' in Hrun'.
    exists (e1 ++ d'), r', (k + k').
    split; [|split; [|split]].
    + replace ((pre ++ t' ++ z ++ d) ++ (e1 ++ e2) ++ post)
        with (pre ++ (t' ++ z ++ (d ++ e1) ++ e2) ++ post) by (now rewrite <- !app_assoc).
      replace (zlen (pre ++ t) + 1) with (zlen pre + zlen t') by (rewrite zlen_app; lia).
      replace (zlen (t ++ (z0 :: z) ++ d) + k) with (zlen (t' ++ z ++ d ++ e1))
        by (rewrite !zlen_app, zlen_cons; lia).
      etransitivity; [exact Hrun'|]. cbn [map length skipn]. unfold t', tb.
      rewrite <- !app_assoc. cbn [app].
      replace (zlen pre + zlen (t ++ [u8 (a_tt a)]) + zlen args)
        with (zlen (pre ++ t) + zlen (a :: args)) by (rewrite !zlen_app, !zlen_cons; change (zlen (@nil Z)) with 0; lia).
      replace (zlen (t ++ u8 (a_tt a) :: z ++ d ++ e1) + k')
        with (zlen (t ++ z0 :: z ++ d) + (k + k')) by (rewrite !zlen_app, !zlen_cons, !zlen_app; lia).
      reflexivity.
    + rewrite zlen_app. lia.
    + rewrite zlen_app. lia.
    + rewrite zlen_app. intros Hall. destruct Hfit as (Hk1 & Heq); [lia|].
      assert (Hle : length e1 = length (enc_value (raw_value a))) by (unfold zlen in *; lia).
      destruct (app_same_len _ _ _ _ Hle Heq) as [-> He2].
      destruct Hfit' as (Hd' & Hr'); [lia|].
      subst d' r'. split; [reflexivity|]. rewrite He2.
      rewrite skipn_add. f_equal. rewrite app_length. lia.
Qed.

Lemma tag_bytes args : Forall (fun a => u8 (a_tt a) = vtag (raw_value a)) args ->
  map (fun a => u8 (a_tt a)) args = map vtag (map raw_value args).
Proof. induction 1 as [|a l Ha _ IH]; [reflexivity|]. cbn [map]. now rewrite Ha, IH. Qed.

Lemma tag_of_ok a : ok_atom a -> u8 (a_tt a) = vtag (raw_value a).
Proof.
  destruct a as [tg w p]. cbn [ok_atom a_tt raw_value existsb]. intros [_ Hp]. unfold u8.
  destruct p as [|s|b|ms].
  2,3,4: destruct Hp as [-> _]; reflexivity.
  repeat match goal with
  | |- context [if ?b then _ else _] => destruct b eqn:?
  end; cbn [vtag]; try lia.
  all: repeat match goal with H : _ || _ = true |- _ => apply orb_true_iff in H; destruct H end; try congruence.
  all: match goal with H : (_ =? _) = true |- _ => apply Z.eqb_eq in H; subst; reflexivity end.
Qed.

Lemma Wr_time w : Wr (be_bytes 4 (w mod 2^32) ++ be_bytes 4 (w / 2^32 mod 2^32))
  (fun buf off n => if n >=? 8 then
     do b <- tt_encode (TT (w mod 2^32) (w / 2^32 mod 2^32)) buf off; Ok (b, 8)
   else Ok (buf, 0)).
Proof.
  apply (Wr_fits 8 _ (fun b o => tt_encode (TT (w mod 2^32) (w / 2^32 mod 2^32)) b o)).
  - rewrite zlen_app, !zlen_be. reflexivity.
  - intros pre r1 post Hr. rewrite tt_encode_at by (unfold zlen in *; lia). reflexivity.
  - reflexivity.
Qed.

Lemma wr_bundle e len pre r1 post
  (g : bytes -> Z -> Z -> res (bytes * Z)) :
  Wr e g -> zlen e = len -> zlen r1 = len + 4 ->
  (do b <- wr32 (pre ++ r1 ++ post) (zlen pre) len;
   do ' (b, k) <- g b (zlen pre + 4) len; Ok (b, k + 4))
  = Ok (pre ++ sized e ++ post, len + 4).
Proof.
  intros Hg He Hr. pose proof (zlen_nonneg e). destruct (split_at r1 4) as (s & r & -> & Hs); [lia|].
  rewrite zlen_app in Hr. rewrite <- app_assoc.
  rewrite wr32_at by (unfold zlen in *; lia). cbn [bind].
  destruct (Hg (pre ++ be_bytes 4 len) r post) as (r' & k & Hrun & Hz & Hk & Hfit).
  rewrite <- app_assoc in Hrun. rewrite zlen_app, zlen_be in Hrun. change (Z.of_nat 4) with 4 in Hrun.
  replace (zlen r) with len in Hrun by lia. rewrite Hrun. cbn [bind].
  destruct Hfit as (-> & ->); [lia|]. unfold sized. rewrite He, <- !app_assoc.
  rewrite skipn_all2 by (unfold zlen in *; lia). reflexivity.
Qed.

Lemma write_ok :
  (forall a, ok_atom a -> Wr (enc_value (raw_value a)) (fun b o n => atom_nser b o n a)) /\
  (forall m, ok_msg m -> Wr (enc_umsg m) (fun b o n => msg_nser b o n m)).
Proof.
  assert (HA : forall tg w p,
    match p with
    | PBndl ms => Forall (fun m => ok_msg m -> Wr (enc_umsg m) (fun b o n => msg_nser b o n m)) ms
    | _ => True
    end -> ok_atom (Atom tg w p) ->
    Wr (enc_value (raw_value (Atom tg w p))) (fun b o n => atom_nser b o n (Atom tg w p))).
  { intros tg w p Hp Hok.
    destruct p as [|s|b|ms].
    - destruct Hok as (_ & Hs & Hb).
      cbn [raw_value]. destruct (existsb (Z.eqb tg) [99; 67; 117; 85; 105; 73; 102]) eqn:E1.
      { apply (Wr_fits 4 _ (fun b o => wr32 b o (w mod 2^32))).
        - apply zlen_be.
        - intros. apply wr32_at. unfold zlen in *. lia.
        - intros. cbn [atom_nser]. unfold is_int32_tag. cbn [existsb] in E1.
          rewrite orb_false_r, !orb_assoc in E1. now rewrite E1. }
      assert (E1' : is_int32_tag tg || (tg =? 102) = false).
      { cbn [existsb] in E1. rewrite orb_false_r, !orb_assoc in E1. exact E1. }
      destruct (existsb (Z.eqb tg) [104; 72; 100]) eqn:E2.
      { apply (Wr_fits 8 _ (fun b o => wr64 b o (w mod 2^64))).
        - apply zlen_be.
        - intros. apply wr64_at. unfold zlen in *. lia.
        - intros. cbn [atom_nser]. rewrite E1'. cbn [existsb] in E2.
          rewrite orb_false_r, !orb_assoc in E2.
          destruct (tg =? 100) eqn:E3; [reflexivity|]. rewrite orb_false_r in E2. rewrite E2.
          destruct (tg =? 115) eqn:E4; [lia|]. destruct (tg =? 46) eqn:E5; [lia|].
          destruct (tg =? 116) eqn:E6; [lia|]. reflexivity. }
      cbn [existsb] in E2. rewrite orb_false_r, !orb_assoc in E2. apply orb_false_iff in E2.
      destruct E2 as [E2 E3].
      destruct (tg =? 116) eqn:E4.
      { eapply Wr_ext; [|apply Wr_time]. intros. cbn [atom_nser]. rewrite E1', E3, E4.
        destruct (tg =? 115) eqn:E5; [lia|]. destruct (tg =? 46) eqn:E6; [lia|]. reflexivity. }
      destruct (tg =? 46) eqn:E5.
      { change (enc_value (VBundle [])) with (sized empty_header).
        refine (Wr_else 20 _ (fun buf off => do b <- wr32 buf off 16;
          do ' (b, k) <- (fun b off n => do b <- write b off osc_empty_header; Ok (b, 16)) b (off + 4) 16;
          Ok (b, k + 4)) _ _ _ _ _ (Wr_time w) _).
        - reflexivity.
        - intros pre r1 post Hr.
          destruct (split_at r1 4) as (s4 & r & -> & Hs4); [lia|].
          rewrite zlen_app in Hr. rewrite <- app_assoc.
          rewrite wr32_at by (unfold zlen in *; lia). cbn [bind].
          replace (zlen pre + 4) with (zlen (pre ++ be_bytes 4 16)) by (rewrite zlen_app, zlen_be; lia).
          replace (pre ++ be_bytes 4 16 ++ r ++ post) with ((pre ++ be_bytes 4 16) ++ r ++ post)
            by (now rewrite <- app_assoc).
          change osc_empty_header with empty_header.
          rewrite write_app by (change (length empty_header) with 16%nat; unfold zlen in *; lia). cbn [bind].
          rewrite <- app_assoc. reflexivity.
        - intros. cbn [atom_nser]. rewrite E1', E3, E5.
          destruct (tg =? 115) eqn:E6; [lia|]. destruct (n >=? 20); [|reflexivity].
          destruct (wr32 buf off 16); cbn [bind]; try reflexivity.
          destruct (write a (off + 4) osc_empty_header); reflexivity. }
      apply Wr_nothing. intros. cbn [atom_nser]. rewrite E1', E3, E2, E4, E5.
      destruct (tg =? 115) eqn:E6; [lia|]. destruct (tg =? 98) eqn:E7; [lia|]. reflexivity.
    - destruct Hok as (_ & -> & Hn & Hwf & Hlt).
      change (raw_value (Atom 115 w (PStr s))) with (VStr s). cbn [enc_value].
      pose proof (padding_pad_str s Hlt) as Hpad. pose proof (zlen_nonneg s).
      apply (Wr_fits (padding_for_nbytes (zlen s)) _
        (fun buf off => do b <- memset0 buf off (padding_for_nbytes (zlen s)); write b off s)).
      + symmetry. exact Hpad.
      + intros pre r1 post Hr. rewrite memset0_at by assumption. cbn [bind].
        rewrite Hpad, zlen_pad_str, write_zeros by lia. unfold pad_str.
        replace (4 * (zlen s / 4) + 4 - zlen s) with (4 - zlen s mod 4) by lia. reflexivity.
      + intros. cbn [atom_nser Z.eqb Pos.eqb is_int32_tag orb].
        destruct (n >=? padding_for_nbytes (zlen s)); [|reflexivity].
        destruct (memset0 buf off (padding_for_nbytes (zlen s))); reflexivity.
    - destruct Hok as (_ & -> & Hb).
      destruct (blob_facts b Hb) as (d & r & Hbe & Hdata & Hlt & _).
      change (raw_value (Atom 98 w (PBlob b))) with (VBlob (blob_data b)). rewrite Hdata.
      cbn [enc_value]. pose proof (zlen_nonneg d).
      assert (Hbl : blob_length (zlen d) = zlen (be_bytes 4 (zlen d) ++ pad_blob d)).
      { rewrite blob_length_eq, zlen_app, zlen_be, zlen_pad_blob by lia. reflexivity. }
      apply (Wr_fits (blob_length (zlen d)) _
        (fun buf off => do b <- memset0 buf off (blob_length (zlen d));
                        write b off (be_bytes 4 (zlen d) ++ d))).
      + symmetry. exact Hbl.
      + intros pre r1 post Hr. rewrite memset0_at by assumption. cbn [bind].
        rewrite Hbl. rewrite zlen_app, zlen_be, zlen_pad_blob.
        rewrite write_zeros by (rewrite zlen_app, zlen_be; lia).
        rewrite zlen_app, zlen_be. unfold pad_blob.
        replace (Z.of_nat 4 + 4 * ((zlen d + 3) / 4) - (Z.of_nat 4 + zlen d)) with ((- zlen d) mod 4) by lia.
        now rewrite <- !app_assoc.
      + intros. change (atom_nser buf off n (Atom 98 w (PBlob b))) with
          (do nn <- rd32 b 0;
            let len := s32 nn in
            let plen := blob_length len in
            if n >=? plen then
              do b' <- memset0 buf off plen;
              do d <- slice b 0 (len + 4);
              do b' <- write b' off d; Ok (b', plen)
            else Ok (buf, 0)).
        rewrite Hbe. rewrite rd32_blob by assumption. cbn [bind]. cbv zeta.
        rewrite s32_small by lia.
        destruct (n >=? blob_length (zlen d)); [|reflexivity].
        destruct (memset0 buf off (blob_length (zlen d))) as [b'| |]; cbn [bind]; try reflexivity.
        assert (Hsl : slice (be_bytes 4 (zlen d) ++ d ++ r) 0 (zlen d + 4)
                      = Ok (be_bytes 4 (zlen d) ++ d)).
        { pose proof (slice_app [] (be_bytes 4 (zlen d) ++ d) r) as Hs. cbn [app] in Hs.
          rewrite <- app_assoc, zlen_app, zlen_be in Hs. change (zlen (@nil Z)) with 0 in Hs.
          rewrite Z.add_comm. exact Hs. }
        rewrite Hsl. reflexivity.
    - pose proof Hok as Hok'. destruct Hok' as (_ & -> & Hms). rewrite all_Forall in Hms.
      pose proof (Forall_mp _ _ _ Hp Hms) as HW. rewrite enc_bundle_atom.
      pose proof (bundle_nser_ok ms HW) as HB.
      set (len := 16 + zlen (enc_umsgs ms)).
      assert (Hlen : zlen (empty_header ++ enc_umsgs ms) = len)
        by (rewrite zlen_app; reflexivity).
      refine (Wr_else (len + 4) _ (fun buf off => do b <- wr32 buf off len;
          do ' (b, k) <- (fun b o n => bundle_nser b o n ms) b (off + 4) len; Ok (b, k + 4))
        _ _ _ _ _ (Wr_time w) _).
      + rewrite zlen_sized. lia.
      + intros pre r1 post Hr. exact (wr_bundle _ len pre r1 post _ HB Hlen Hr).
      + intros. rewrite tag_bundle_run by assumption. rewrite bundle_size_ok by assumption.
        reflexivity. }
  assert (HM : forall ad args,
    Forall (fun a => ok_atom a -> Wr (enc_value (raw_value a)) (fun b o n => atom_nser b o n a)) args ->
    ok_msg (UMsg ad args) -> Wr (enc_umsg (UMsg ad args)) (fun b o n => msg_nser b o n (UMsg ad args))).
  { intros ad args Hargs Hok. destruct ad as [s|]; [|apply Wr_nothing; reflexivity].
    cbn in Hok. destruct Hok as ((Hn & Hwf & Hlt) & Hl & Hall). rewrite all_Forall in Hall.
    pose proof (Forall_mp _ _ _ Hargs Hall) as HW. rewrite enc_umsg_some.
    intros pre reg post.
    set (tags := 44 :: map vtag (map raw_value args)).
    assert (Htags : zlen tags = zlen args + 1) by apply tags_len.
    assert (Htb : map (fun a => u8 (a_tt a)) args = map vtag (map raw_value args)).
    { apply tag_bytes. eapply Forall_impl; [|exact Hall]. exact tag_of_ok. }
    pose proof (padding_pad_str s Hlt) as Hpa.
    assert (Hpt : padding_for_nbytes (zlen args + 1) = zlen (pad_str tags))
      by (rewrite <- Htags; apply padding_pad_str; lia).
    set (before := 4 + zlen (pad_str s) + zlen (pad_str tags)).
    pose proof (zlen_nonneg s) as H0s. pose proof (zlen_nonneg args) as H0a.
    pose proof (zlen_nonneg reg) as H0r. pose proof (zlen_nonneg (enc_args args)) as H0e.
    assert (Hsz : zlen (sized (pad_str s ++ pad_str tags ++ enc_args args)) = before + zlen (enc_args args))
      by (rewrite zlen_sized, !zlen_app; unfold before; lia).
    change (msg_nser (pre ++ reg ++ post) (zlen pre) (zlen reg) (UMsg (Some s) args)) with
      (let addresslen := zlen s in
       let padded_address_len := padding_for_nbytes addresslen in
       let padded_typetag_len := padding_for_nbytes (zlen args + 1) in
       let before := 4 + padded_address_len + padded_typetag_len in
       if zlen reg <? before then Ok (pre ++ reg ++ post, 0) else
       do b <- memset0 (pre ++ reg ++ post) (zlen pre) before;
       do b <- write b (zlen pre + 4) s;
       let ttptr := zlen pre + 4 + padded_address_len in
       do b <- write b ttptr [44];
       do ' (b, _, n1) <- loop_list (fun st => let '(_, ttptr, _) := st in ttptr <? zlen pre + zlen reg)
         (fun st a =>
            let '(b, ttptr, n1) := st in
            do b <- write b ttptr [u8 (a_tt a)];
            if n1 <=? zlen reg then
              do ' (b, k) <- atom_nser b (zlen pre + n1) (zlen reg - n1) a; Ok (b, ttptr + 1, n1 + k)
            else Ok (b, ttptr + 1, n1))
         args (b, ttptr + 1, before);
       do b <- wr32 b (zlen pre) (n1 - 4);
       Ok (b, n1)).
    cbv zeta. rewrite Hpa, Hpt. fold before.
    assert (Hsp : 4 <= zlen (pad_str s)) by (rewrite zlen_pad_str; lia).
    assert (Htp : zlen tags < zlen (pad_str tags)) by (rewrite zlen_pad_str; lia).
    destruct (zlen reg <? before) eqn:E.
    { exists reg, 0. split; [reflexivity|split; [reflexivity|split; [lia|]]].
      rewrite Hsz. intros. lia. }
    destruct (split_at reg before) as (h & r & -> & Hh); [lia|].
    rewrite zlen_app in *. pose proof (zlen_nonneg r) as H0r'.
    rewrite <- app_assoc. rewrite memset0_at by assumption. cbn [bind].
    (* the address *)
    assert (Hz1 : zeros before = zeros 4 ++ zeros (zlen (pad_str s)) ++ zeros (zlen (pad_str tags))).
    { unfold before. rewrite !zeros_app, <- app_assoc by lia. reflexivity. }
    rewrite Hz1.
    replace (pre ++ (zeros 4 ++ zeros (zlen (pad_str s)) ++ zeros (zlen (pad_str tags))) ++ r ++ post)
      with ((pre ++ zeros 4) ++ zeros (zlen (pad_str s)) ++ (zeros (zlen (pad_str tags)) ++ r ++ post))
      by (now rewrite <- !app_assoc).
    replace (zlen pre + 4) with (zlen (pre ++ zeros 4)) by (rewrite zlen_app; reflexivity).
    rewrite write_zeros by (rewrite zlen_pad_str; lia). cbn [bind].
    replace (s ++ zeros (zlen (pad_str s) - zlen s)) with (pad_str s)
      by (unfold pad_str at 1; rewrite zlen_pad_str; f_equal; f_equal; lia).
    (* the comma *)
    replace ((pre ++ zeros 4) ++ pad_str s ++ zeros (zlen (pad_str tags)) ++ r ++ post)
      with (((pre ++ zeros 4) ++ pad_str s) ++ zeros (zlen (pad_str tags)) ++ r ++ post)
      by (now rewrite <- !app_assoc).
    rewrite <- zlen_app. rewrite write_zeros by (change (zlen [44]) with 1; lia). cbn [bind].
    change (zlen [44]) with 1.
    set (t := zeros 4 ++ pad_str s ++ [44]). set (z := zeros (zlen (pad_str tags) - 1)).
    assert (Ht : zlen t = 4 + zlen (pad_str s) + 1) by (unfold t; rewrite !zlen_app; change (zlen (zeros 4)) with 4; change (zlen [44]) with 1; lia).
    assert (Hz : zlen z = zlen (pad_str tags) - 1) by (apply zlen_zeros; lia).
    destruct (args_loop args pre t z [] r post HW ltac:(lia)) as (d' & r' & k & Hrun & Hk & Hzr & Hfit).
    cbn [app] in Hrun. rewrite app_nil_r in Hrun.
    assert (Hn1 : zlen (t ++ z ++ r) = before + zlen r) by (rewrite !zlen_app; unfold before; lia).
    assert (Hn2 : zlen (t ++ z) = before) by (rewrite !zlen_app; unfold before; lia).
    rewrite Hn1, Hn2 in Hrun. rewrite Hh.
    replace (((pre ++ zeros 4) ++ pad_str s) ++ ([44] ++ z) ++ r ++ post)
      with (pre ++ (t ++ z ++ r) ++ post) by (unfold t; now rewrite <- !app_assoc).
    replace (zlen ((pre ++ zeros 4) ++ pad_str s) + 1) with (zlen pre + zlen t)
      by (rewrite !zlen_app; change (zlen (zeros 4)) with 4; lia).
    match goal with |- context [bind (loop_list ?c ?f ?l ?s0) ?g] =>
      let Hx := fresh in
      assert (Hx : loop_list c f l s0 = Ok (pre ++
          (t ++ (map (fun a : atom => u8 (a_tt a)) args ++ skipn (length args) z) ++ d' ++ r') ++ post,
         zlen pre + zlen t + zlen args, before + k)) by exact Hrun;
      rewrite Hx; clear Hx end.
    cbn [bind].
    (* the size field *)
    assert (Hts : t ++ map (fun a : atom => u8 (a_tt a)) args ++ skipn (length args) z
                  = zeros 4 ++ pad_str s ++ pad_str tags).
    { unfold t. rewrite Htb, <- !app_assoc. f_equal. f_equal. unfold pad_str at 1. unfold tags at 1.
      cbn [app]. f_equal. f_equal. unfold z, zeros.
      assert (Hrep : forall m q, skipn m (repeat 0 q) = repeat 0 (q - m)).
      { clear. induction m as [|m IH]; intros q; [now rewrite Nat.sub_0_r|].
        destruct q; [reflexivity|]. cbn [repeat skipn Nat.sub]. apply IH. }
      rewrite Hrep. f_equal. rewrite zlen_pad_str, Htags. unfold zlen in *. lia. }
    replace (pre ++ (t ++ (map (fun a : atom => u8 (a_tt a)) args ++ skipn (length args) z) ++ d' ++ r') ++ post)
      with (pre ++ zeros 4 ++ (pad_str s ++ pad_str tags ++ d' ++ r' ++ post))
      by (transitivity (pre ++ (t ++ map (fun a : atom => u8 (a_tt a)) args ++ skipn (length args) z) ++ d' ++ r' ++ post);
          [rewrite Hts|]; now rewrite <- !app_assoc).
    rewrite wr32_at by reflexivity. cbn [bind].
    exists (be_bytes 4 (before + k - 4) ++ pad_str s ++ pad_str tags ++ d' ++ r'), (before + k).
    pose proof (zlen_nonneg d'). pose proof (zlen_nonneg r').
    split; [|split; [|split]].
    + now rewrite <- !app_assoc.
    + rewrite !zlen_app, zlen_be. unfold before. lia.
    + unfold before in *. lia.
    + rewrite Hsz. intros Hf. destruct Hfit as (-> & ->); [lia|].
      split; [lia|]. unfold sized. rewrite <- !app_assoc.
      rewrite skipn_app.
      assert (HL : Z.of_nat (length (sized (pad_str s ++ pad_str tags ++ enc_args args))) = before + zlen (enc_args args))
        by exact Hsz.
      unfold sized in HL.
      rewrite (skipn_all2 h) by (unfold zlen in Hh; unfold zlen at 1 in HL; unfold zlen in *; lia).
      cbn [app].
      replace (length (be_bytes 4 (zlen (pad_str s ++ pad_str tags ++ enc_args args)) ++ pad_str s ++ pad_str tags ++ enc_args args) - length h)%nat
        with (length (enc_args args)) by (unfold zlen in *; lia).
      f_equal. rewrite !zlen_app. unfold before. f_equal. lia. }
  split; [exact (atom_ind2 _ _ HA HM) | exact (umsg_ind2 _ _ HA HM)].
Qed.
