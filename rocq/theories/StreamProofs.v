(** Proofs about the byte-wise validator. *)

From Coq Require Import ZArith List Bool Lia.
From Verif Require Import Base BaseProofs Bytes Text WireSpec WireWalk StreamModel StreamSpec.
Import ListNotations.
Open Scope Z_scope.

(** * The fields of a state *)

Definition mk (a b c d e : Z) : Z := a * 2^56 + b * 2^48 + c * 2^40 + d * 2^32 + e.
Definition fits (a b c d e : Z) : Prop :=
  0 <= a < 256 /\ 0 <= b < 256 /\ 0 <= c < 256 /\ 0 <= d < 256 /\ 0 <= e < 2^32.

Lemma land_field x k n : 0 <= k -> 0 <= n -> Z.land x (Z.shiftl (Z.ones n) k) = x / 2^k mod 2^n * 2^k.
Proof.
  intros Hk Hn. rewrite <- Z.shiftr_div_pow2, <- Z.land_ones, <- Z.shiftl_mul_pow2 by assumption.
  rewrite Z.shiftl_land. apply Z.bits_inj'. intros i Hi. rewrite !Z.land_spec.
  destruct (Z.lt_ge_cases i k).
  - rewrite (Z.shiftl_spec (Z.ones n)) by assumption.
    rewrite (Z.testbit_neg_r (Z.ones n)) by lia. now rewrite !andb_false_r.
  - rewrite (Z.shiftl_spec (Z.shiftr x k)) by assumption. rewrite Z.shiftr_spec by lia.
    replace (i - k + k) with i by lia. reflexivity.
Qed.

Lemma f_macro a b c d e : fits a b c d e -> Z.land (mk a b c d e) 0xff00000000000000 = a * 2^56.
Proof.
  intros H. change 0xff00000000000000 with (Z.shiftl (Z.ones 8) 56). rewrite land_field by lia.
  unfold mk, fits in *. Z.div_mod_to_equations. lia.
Qed.
Lemma f_state a b c d e : fits a b c d e -> Z.land (mk a b c d e) 0x00ff000000000000 = b * 2^48.
Proof.
  intros H. change 0x00ff000000000000 with (Z.shiftl (Z.ones 8) 48). rewrite land_field by lia.
  unfold mk, fits in *. Z.div_mod_to_equations. lia.
Qed.
Lemma f_micro a b c d e : fits a b c d e -> Z.land (mk a b c d e) 0x0000ff0000000000 = c * 2^40.
Proof.
  intros H. change 0x0000ff0000000000 with (Z.shiftl (Z.ones 8) 40). rewrite land_field by lia.
  unfold mk, fits in *. Z.div_mod_to_equations. lia.
Qed.
Lemma f_error a b c d e : fits a b c d e -> Z.land (mk a b c d e) ERROR_MASK = d * 2^32.
Proof.
  intros H. change ERROR_MASK with (Z.shiftl (Z.ones 8) 32). rewrite land_field by lia.
  unfold mk, fits in *. Z.div_mod_to_equations. lia.
Qed.
Lemma f_count a b c d e : fits a b c d e -> Z.land (mk a b c d e) 0x00000000ffffffff = e.
Proof.
  intros H. change 0x00000000ffffffff with (Z.ones 32). rewrite Z.land_ones by lia.
  unfold mk, fits in *. Z.div_mod_to_equations. lia.
Qed.

Lemma errorp_mk a b c d e : fits a b c d e -> errorp (mk a b c d e) = negb (d =? 0).
Proof.
  intros H. unfold errorp. rewrite f_error by assumption. f_equal. destruct (d =? 0) eqn:E; lia.
Qed.

Lemma lor_disj k K x : 0 <= k -> 0 <= x < 2^k -> Z.lor (K * 2^k) x = K * 2^k + x.
Proof.
  intros Hk Hx. assert (H0 : Z.land (K * 2^k) x = 0).
  { apply Z.bits_inj'. intros i Hi. rewrite Z.land_spec, Z.bits_0. destruct (Z.lt_ge_cases i k).
    - rewrite Z.mul_pow2_bits_low by assumption. reflexivity.
    - rewrite <- (Z.mod_small x (2^k)) by assumption. rewrite Z.mod_pow2_bits_high by lia. apply andb_false_r. }
  rewrite <- Z.lxor_lor by exact H0. now rewrite <- Z.add_nocarry_lxor.
Qed.

Lemma lor_count a b c e : fits a b c 0 e -> Z.lor (mk a b c 0 0) e = mk a b c 0 e.
Proof.
  intros H. unfold fits in H. replace (mk a b c 0 0) with ((a * 2^24 + b * 2^16 + c * 2^8) * 2^32) by (unfold mk; lia).
  rewrite lor_disj by lia. unfold mk. lia.
Qed.
Lemma lor_error a b c d e : fits a b c d e -> Z.lor (mk a b c 0 e) (d * 2^32) = mk a b c d e.
Proof.
  intros H. pose proof H as H'. unfold fits in H. rewrite <- lor_count by (unfold fits; lia). rewrite <- Z.lor_assoc, (Z.lor_comm e).
  rewrite lor_disj by lia. replace (mk a b c 0 0) with ((a * 2^16 + b * 2^8 + c) * 2^40) by (unfold mk; lia).
  rewrite lor_disj by lia. unfold mk. lia.
Qed.
Lemma lor_micro a b c e : fits a b c 0 e -> Z.lor (mk a b 0 0 e) (c * 2^40) = mk a b c 0 e.
Proof.
  intros H. unfold fits in H. rewrite <- lor_count by (unfold fits; lia). rewrite <- Z.lor_assoc, (Z.lor_comm e).
  rewrite lor_disj by lia. replace (mk a b 0 0 0) with ((a * 2^8 + b) * 2^48) by (unfold mk; lia).
  rewrite lor_disj by lia. unfold mk. lia.
Qed.

Lemma down a b c e : fits a b c 0 e -> 1 <= e -> u64 (mk a b c 0 e - 1) = mk a b c 0 (e - 1).
Proof. intros H He. unfold u64, mk, fits in *. rewrite Z.mod_small by lia. lia. Qed.
Lemma up a b c e : fits a b c 0 e -> e + 1 < 2^32 -> u64 (mk a b c 0 e + 1) = mk a b c 0 (e + 1).
Proof. intros H He. unfold u64, mk, fits in *. rewrite Z.mod_small by lia. lia. Qed.
Lemma u32_small x : 0 <= x < 2^32 -> u32 x = x.
Proof. intros H. unfold u32. now apply Z.mod_small. Qed.

Lemma s8_eqb x k : 0 <= x < 256 -> 0 <= k < 128 -> (s8 x =? k) = (x =? k).
Proof.
  intros Hx Hk. unfold s8. destruct (Z.lt_ge_cases x 128).
  - rewrite Z.mod_small by lia. destruct (x =? k) eqn:E; lia.
  - assert (E : (x + 2^7) mod 2^8 = x - 128) by (Z.div_mod_to_equations; lia). rewrite E.
    destruct (x =? k) eqn:E2; lia.
Qed.

Ltac fit := unfold fits in *; lia.
Ltac fld := cbv zeta; rewrite ?f_macro, ?f_state, ?f_micro, ?f_count by fit.
Ltac decide_consts := repeat match goal with
  | |- context [Z.eqb (?a * 2^?n) ?y] =>
      let v := eval vm_compute in (Z.eqb (a * 2^n) y) in change (Z.eqb (a * 2^n) y) with v
  end; cbv iota.

(** * Addresses *)

Inductive mode := Out | Curly | CurlyComma | Square | SquareDash.
Definition micro_of (m : mode) : Z :=
  match m with Out => 0 | Curly => 1 | CurlyComma => 2 | Square => 4 | SquareDash => 8 end.

Definition mode_step (m : mode) (c : Z) : option mode :=
  match m with
  | Out => if c =? 91 then Some Square else if c =? 123 then Some Curly
           else if (c =? 93) || (c =? 125) then None else Some Out
  | Curly | CurlyComma =>
      if (c =? 91) || (c =? 93) || (c =? 123) || (c =? 42) || (c =? 63) then None
      else if c =? 44 then match m with Curly => Some CurlyComma | _ => None end
      else if c =? 125 then Some Out else Some m
  | Square | SquareDash =>
      if (c =? 123) || (c =? 125) || (c =? 91) || (c =? 42) || (c =? 63) then None
      else if c =? 45 then match m with Square => Some SquareDash | _ => None end
      else if c =? 93 then Some Out else Some m
  end.

Lemma pb_bundle_address b c e : fits 2 2 c 0 e -> process_byte b (mk 2 2 c 0 e) = Ok (bundle_address b (mk 2 2 c 0 e)).
Proof. intros H. unfold process_byte, bundle_message. fld. reflexivity. Qed.

Lemma err_of a b c d e : fits a b c d e -> d <> 0 -> errorp (Z.lor (mk a b c 0 e) (d * 2^32)) = true.
Proof. intros H Hd. rewrite lor_error by assumption. rewrite errorp_mk by assumption. destruct (d =? 0) eqn:E; [lia|reflexivity]. Qed.

Ltac tests x := repeat match goal with |- context [x =? ?k] => destruct (x =? k) eqn:?; try (exfalso; lia) end; cbn [orb].

Lemma bundle_step m x e : 0 < x < 256 -> 1 <= e < 2^32 ->
  exists s', process_byte (s8 x) (mk 2 2 (micro_of m) 0 e) = Ok s' /\
    match mode_step m x with
    | Some m' => s' = mk 2 2 (micro_of m') 0 (e - 1)
    | None => errorp s' = true
    end.
Proof.
  intros Hx He. rewrite pb_bundle_address by (destruct m; cbn [micro_of]; fit).
  eexists. split; [reflexivity|].
  unfold bundle_address, bundle_curly, bundle_square, mode_step.
  destruct m; cbn [micro_of]; fld; decide_consts; rewrite !s8_eqb by lia.
  - change (0x40000000000) with (4 * 2^40). change IN_SQUARE with (4 * 2^40). change IN_CURLY with (1 * 2^40).
    change E_RIGHTSQUARE with (14 * 2^32). change E_RIGHTCURLY with (12 * 2^32).
    tests x; rewrite ?lor_micro by fit; try (now rewrite down by fit); now apply err_of; [fit|].
  - change E_NESTEDBRACKETS with (4 * 2^32). change E_WILDCARD with (5 * 2^32). change E_LEFTCURLY with (mk 0 0 0 13 0).
    change (BUNDLE_MESSAGE .| ADDRESS .| IN_CURLY_COMMA) with (mk 2 2 2 0 0). change (BUNDLE_MESSAGE .| ADDRESS) with (mk 2 2 0 0 0).
    rewrite u32_small by lia.
    tests x; rewrite ?lor_count by fit; try reflexivity; try (now rewrite down by fit); now apply err_of; [fit|].
  - change E_NESTEDBRACKETS with (4 * 2^32). change E_WILDCARD with (5 * 2^32). change E_LEFTCURLY with (mk 0 0 0 13 0).
    change E_DOUBLECOMMA with (11 * 2^32).
    change (BUNDLE_MESSAGE .| ADDRESS .| IN_CURLY_COMMA) with (mk 2 2 2 0 0). change (BUNDLE_MESSAGE .| ADDRESS) with (mk 2 2 0 0 0).
    rewrite u32_small by lia.
    tests x; rewrite ?lor_count by fit; try reflexivity; try (now rewrite down by fit); now apply err_of; [fit|].
  - change E_NESTEDBRACKETS with (4 * 2^32). change E_WILDCARD with (5 * 2^32). change E_LEFTSQUARE with (mk 0 0 0 15 0).
    change (BUNDLE_MESSAGE .| ADDRESS .| IN_SQUARE_DASH) with (mk 2 2 8 0 0). change (BUNDLE_MESSAGE .| ADDRESS) with (mk 2 2 0 0 0).
    rewrite u32_small by lia.
    tests x; rewrite ?lor_count by fit; try reflexivity; try (now rewrite down by fit); now apply err_of; [fit|].
  - change E_NESTEDBRACKETS with (4 * 2^32). change E_WILDCARD with (5 * 2^32). change E_LEFTSQUARE with (mk 0 0 0 15 0).
    change E_DOUBLEDASH with (10 * 2^32).
    change (BUNDLE_MESSAGE .| ADDRESS .| IN_SQUARE_DASH) with (mk 2 2 8 0 0). change (BUNDLE_MESSAGE .| ADDRESS) with (mk 2 2 0 0 0).
    rewrite u32_small by lia.
    tests x; rewrite ?lor_count by fit; try reflexivity; try (now rewrite down by fit); now apply err_of; [fit|].
Qed.

Lemma bundle_end m e : 1 <= e < 2^32 ->
  exists s', process_byte (s8 0) (mk 2 2 (micro_of m) 0 e) = Ok s' /\
    match m with Out => s' = mk 2 2 16 0 (e - 1) | _ => errorp s' = true end.
Proof.
  intros He. rewrite pb_bundle_address by (destruct m; cbn [micro_of]; fit).
  eexists. split; [reflexivity|].
  unfold bundle_address, bundle_curly, bundle_square.
  destruct m; cbn [micro_of]; fld; decide_consts; try reflexivity.
  change (s8 0) with 0. change (0 =? 91) with false. change (0 =? 123) with false. change (0 =? 0) with true. cbv iota.
  change ADDRESS_PADDING with (16 * 2^40). rewrite lor_micro by fit. now rewrite down by fit.
Qed.

Fixpoint modes (m : mode) (l : list Z) : option mode :=
  match l with
  | [] => Some m
  | c :: l' => match mode_step m c with None => None | Some m' => modes m' l' end
  end.

Lemma mk_ok a b c e : fits a b c 0 e -> errorp (mk a b c 0 e) = false.
Proof. intros H. now rewrite errorp_mk by assumption. Qed.

Lemma feed_app : forall l1 l2 s s1, feed l1 s = Ok (Some s1) -> feed (l1 ++ l2) s = feed l2 s1.
Proof.
  induction l1 as [|x l1 IH]; intros l2 s s1 H; cbn [feed app] in *; [now injection H as <-|].
  destruct (process_byte (s8 x) s) as [s'| |]; try discriminate. cbn [bind] in *.
  destruct (errorp s'); [discriminate|]. now apply IH.
Qed.

Lemma feed_app_none : forall l1 l2 s, feed l1 s = Ok None -> feed (l1 ++ l2) s = Ok None.
Proof.
  induction l1 as [|x l1 IH]; intros l2 s H; cbn [feed app] in *; [discriminate|].
  destruct (process_byte (s8 x) s) as [s'| |]; try discriminate. cbn [bind] in *.
  destruct (errorp s'); [reflexivity|]. now apply IH.
Qed.

Lemma bundle_address_run : forall a m e, Forall (fun c => 0 < c < 256) a -> zlen a <= e < 2^32 ->
  feed a (mk 2 2 (micro_of m) 0 e) = Ok (option_map (fun m' => mk 2 2 (micro_of m') 0 (e - zlen a)) (modes m a)).
Proof.
  induction a as [|x a IH]; intros m e Ha He; cbn [feed modes].
  - cbn [option_map]. change (zlen (@nil Z)) with 0. now rewrite Z.sub_0_r.
  - pose proof (Forall_inv Ha) as Hx. cbn beta in Hx. rewrite zlen_cons in *. pose proof (zlen_nonneg a).
    destruct (bundle_step m x e Hx ltac:(lia)) as (s' & E & Hs). rewrite E. cbn [bind].
    destruct (mode_step m x) as [m'|].
    + subst s'. rewrite mk_ok by (destruct m'; cbn [micro_of]; fit).
      rewrite IH by (try exact (Forall_inv_tail Ha); lia). now replace (e - 1 - zlen a) with (e - (1 + zlen a)) by lia.
    + now rewrite Hs.
Qed.

(** The modes accept exactly the addresses of the specification. *)
Fixpoint inside_run (sep : Z) (used : bool) (x : list Z) : bool :=
  match x with
  | [] => true
  | c :: x' => negb (existsb (Z.eqb c) (str "[]{}*?")) &&
               (if c =? sep then negb used && inside_run sep true x' else inside_run sep used x')
  end.

Lemma existsb_in c l : existsb (Z.eqb c) l = false <-> ~ In c l.
Proof.
  split.
  - intros E Hi. assert (existsb (Z.eqb c) l = true) by (apply existsb_exists; exists c; split; [assumption|apply Z.eqb_refl]). congruence.
  - intros H. apply not_true_is_false. intros E. apply existsb_exists in E as (y & Hy & E). apply Z.eqb_eq in E. now subst.
Qed.

Lemma inside_run_spec sep x : forall used, inside_run sep used x = true <->
  Forall (fun c => ~ In c (str "[]{}*?")) x /\ (count_occ Z.eq_dec x sep + (if used then 1 else 0) <= 1)%nat.
Proof.
  induction x as [|c x IH]; intros used; cbn [inside_run].
  - cbn [count_occ]. split; [intros _; split; [constructor|destruct used; lia]|auto].
  - rewrite andb_true_iff, negb_true_iff, existsb_in. destruct (c =? sep) eqn:E.
    + apply Z.eqb_eq in E. subst c. rewrite count_occ_cons_eq by reflexivity. rewrite andb_true_iff, negb_true_iff, IH. split.
      * intros (Hc & Hu & Hf & Hn). subst used. split; [now constructor|lia].
      * intros (Hf & Hn). split; [exact (Forall_inv Hf)|]. destruct used; [lia|].
        split; [reflexivity|]. split; [exact (Forall_inv_tail Hf)|lia].
    + apply Z.eqb_neq in E. rewrite count_occ_cons_neq by exact E. rewrite IH. split.
      * intros (Hc & Hf & Hn). split; [now constructor|exact Hn].
      * intros (Hf & Hn). split; [exact (Forall_inv Hf)|]. split; [exact (Forall_inv_tail Hf)|exact Hn].
Qed.

Definition curly_of (used : bool) : mode := if used then CurlyComma else Curly.
Definition square_of (used : bool) : mode := if used then SquareDash else Square.

Lemma curly_run x l : forall used, inside_run 44 used x = true -> modes (curly_of used) (x ++ 125 :: l) = modes Out l.
Proof.
  induction x as [|c x IH]; intros used H; cbn [inside_run app modes] in *.
  - destruct used; reflexivity.
  - apply andb_true_iff in H as [Hc H]. apply negb_true_iff, existsb_in in Hc. unfold str in Hc. cbn in Hc.
    assert (Es : mode_step (curly_of used) c = if c =? 44 then (if used then None else Some CurlyComma) else Some (curly_of used)).
    { destruct used; cbn [curly_of mode_step]; tests c; try reflexivity; exfalso; lia. }
    rewrite Es. destruct (c =? 44).
    + apply andb_true_iff in H as [Hu H]. destruct used; [discriminate|]. exact (IH true H).
    + exact (IH used H).
Qed.
Lemma square_run x l : forall used, inside_run 45 used x = true -> modes (square_of used) (x ++ 93 :: l) = modes Out l.
Proof.
  induction x as [|c x IH]; intros used H; cbn [inside_run app modes] in *.
  - destruct used; reflexivity.
  - apply andb_true_iff in H as [Hc H]. apply negb_true_iff, existsb_in in Hc. unfold str in Hc. cbn in Hc.
    assert (Es : mode_step (square_of used) c = if c =? 45 then (if used then None else Some SquareDash) else Some (square_of used)).
    { destruct used; cbn [square_of mode_step]; tests c; try reflexivity; exfalso; lia. }
    rewrite Es. destruct (c =? 45).
    + apply andb_true_iff in H as [Hu H]. destruct used; [discriminate|]. exact (IH true H).
    + exact (IH used H).
Qed.

Lemma accepted_modes a : accepted a -> modes Out a = Some Out.
Proof.
  induction 1 as [|c l Hc _ IH|x l Hx _ IH|x l Hx _ IH].
  - reflexivity.
  - cbn [modes]. unfold str in Hc. cbn in Hc.
    assert (Es : mode_step Out c = Some Out) by (cbn [mode_step]; tests c; try reflexivity; exfalso; lia).
    now rewrite Es.
  - change (modes Out (123 :: x ++ 125 :: l)) with (modes (curly_of false) (x ++ 125 :: l)).
    rewrite curly_run; [exact IH|]. apply inside_run_spec. destruct Hx. split; [assumption|lia].
  - change (modes Out (91 :: x ++ 93 :: l)) with (modes (square_of false) (x ++ 93 :: l)).
    rewrite square_run; [exact IH|]. apply inside_run_spec. destruct Hx. split; [assumption|lia].
Qed.

(** Conversely, by the length of the address. *)
Lemma curly_split : forall l used, modes (curly_of used) l = Some Out ->
  exists x l', l = x ++ 125 :: l' /\ inside_run 44 used x = true /\ modes Out l' = Some Out.
Proof.
  induction l as [|c l IH]; intros used H; [destruct used; discriminate|]. cbn [modes] in H.
  destruct (mode_step (curly_of used) c) as [m'|] eqn:E; [|discriminate].
  assert (Hc : (c = 125 /\ m' = Out) \/ (~ In c (str "[]{}*?") /\
     ((c = 44 /\ used = false /\ m' = CurlyComma) \/ (c <> 44 /\ m' = curly_of used)))).
  { destruct used; cbn [curly_of mode_step] in E; revert E; tests c; intros E; try discriminate;
      injection E as <-; try (left; split; [lia|reflexivity]); right; (split; [unfold str; cbn; lia|]);
      (left; split; [lia|split; reflexivity]) || (right; split; [lia|reflexivity]). }
  destruct Hc as [(-> & ->)|(Hc & Hs)]; [exists [], l; repeat split; auto|].
  assert (Hn : negb (existsb (Z.eqb c) (str "[]{}*?")) = true) by (apply negb_true_iff, existsb_in; exact Hc).
  destruct Hs as [(-> & -> & ->)|(Hne & ->)].
  - destruct (IH true H) as (x & l' & -> & Hx & Hl). exists (44 :: x), l'. split; [reflexivity|]. split; [|exact Hl].
    cbn [inside_run]. rewrite Hn. change (44 =? 44) with true. cbn [andb negb]. exact Hx.
  - destruct (IH used H) as (x & l' & -> & Hx & Hl). exists (c :: x), l'. split; [reflexivity|]. split; [|exact Hl].
    cbn [inside_run]. rewrite Hn. destruct (c =? 44) eqn:E4; [lia|]. exact Hx.
Qed.
Lemma square_split : forall l used, modes (square_of used) l = Some Out ->
  exists x l', l = x ++ 93 :: l' /\ inside_run 45 used x = true /\ modes Out l' = Some Out.
Proof.
  induction l as [|c l IH]; intros used H; [destruct used; discriminate|]. cbn [modes] in H.
  destruct (mode_step (square_of used) c) as [m'|] eqn:E; [|discriminate].
  assert (Hc : (c = 93 /\ m' = Out) \/ (~ In c (str "[]{}*?") /\
     ((c = 45 /\ used = false /\ m' = SquareDash) \/ (c <> 45 /\ m' = square_of used)))).
  { destruct used; cbn [square_of mode_step] in E; revert E; tests c; intros E; try discriminate;
      injection E as <-; try (left; split; [lia|reflexivity]); right; (split; [unfold str; cbn; lia|]);
      (left; split; [lia|split; reflexivity]) || (right; split; [lia|reflexivity]). }
  destruct Hc as [(-> & ->)|(Hc & Hs)]; [exists [], l; repeat split; auto|].
  assert (Hn : negb (existsb (Z.eqb c) (str "[]{}*?")) = true) by (apply negb_true_iff, existsb_in; exact Hc).
  destruct Hs as [(-> & -> & ->)|(Hne & ->)].
  - destruct (IH true H) as (x & l' & -> & Hx & Hl). exists (45 :: x), l'. split; [reflexivity|]. split; [|exact Hl].
    cbn [inside_run]. rewrite Hn. change (45 =? 45) with true. cbn [andb negb]. exact Hx.
  - destruct (IH used H) as (x & l' & -> & Hx & Hl). exists (c :: x), l'. split; [reflexivity|]. split; [|exact Hl].
    cbn [inside_run]. rewrite Hn. destruct (c =? 45) eqn:E4; [lia|]. exact Hx.
Qed.

Lemma modes_accepted : forall n a, (length a <= n)%nat -> modes Out a = Some Out -> accepted a.
Proof.
  induction n as [|n IH]; intros a Hl H; (destruct a as [|c a]; [constructor|]); [cbn in Hl; lia|]. cbn [modes] in H.
  cbn [length] in Hl. destruct (mode_step Out c) as [m'|] eqn:E; [|discriminate]. cbn [mode_step] in E. revert E. tests c; intros E.
  - injection E as <-. destruct (square_split a false H) as (x & l & -> & Hx & Hs). apply Z.eqb_eq in Heqb. subst c.
    apply inside_run_spec in Hx. apply acc_brackets; [split; [apply Hx|destruct Hx; lia]|].
    apply IH; [|exact Hs]. rewrite app_length in Hl. cbn in Hl. lia.
  - injection E as <-. destruct (curly_split a false H) as (x & l & -> & Hx & Hs). apply Z.eqb_eq in Heqb0. subst c.
    apply inside_run_spec in Hx. apply acc_braces; [split; [apply Hx|destruct Hx; lia]|].
    apply IH; [|exact Hs]. rewrite app_length in Hl. cbn in Hl. lia.
  - discriminate.
  - discriminate.
  - injection E as <-. apply acc_char; [unfold str; cbn; lia|]. apply IH; [lia|exact H].
Qed.

Lemma modes_iff a : modes Out a = Some Out <-> accepted a.
Proof. split; [apply (modes_accepted (length a)); lia|apply accepted_modes]. Qed.

