(** Reading bundles from text: C81 to C84. *)

From Coq Require Import String ZArith List Bool Lia.
From Verif Require Import Base Text BaseProofs WireSpec WireModel WireWalk ArgProofs SerialProps TimetagModel SerialModel SerialSpec SerialProofs DeserProofs AtomSModel AtomSpec AtomProofs
  FormatModel FormatSpec FormatProofs FormatProps ScanModel ScanSpec ScanProofs ScanTokens ScanGrammar.
Import ListNotations.
Open Scope Z_scope.

Section Parse.
Context (strtod : list Z -> Z) (iso : list Z -> timetag) (junk : bytes).
Notation parse := (parse_string strtod iso junk).

Lemma messages_nonempty us ms : messages_of us ms -> ms <> [].
Proof. intros H. destruct H; discriminate. Qed.
Lemma bundle_total ts : exists code bndl, p_bundle ts = Ok (code, bndl) /\
  ((code = 0 /\ exists ms, bndl = Some ms /\ messages_of ts ms) \/
   (code = 1 /\ forall ms, bndl = Some ms -> exists us t vs, ts = us ++ t :: vs /\ messages_of us ms)).
Proof.
  unfold p_bundle. destruct (all_total (4 * length ts + 4)) as (T & _). destruct (T ts ltac:(lia)) as ([[ms rest]|] & E); rewrite E; cbn [bind].
  - destruct (proj1 (all_sound (4 * length ts + 4)) _ _ _ E) as (us & -> & H). destruct rest as [|t vs].
    + exists 0, (Some ms). split; [reflexivity|]. left. split; [reflexivity|]. exists ms. rewrite app_nil_r. now split.
    + exists 1, (Some ms). split; [reflexivity|]. right. split; [reflexivity|]. intros ms' [= <-]. now exists us, t, vs.
  - exists 1, None. split; [reflexivity|]. right. split; [reflexivity|]. discriminate.
Qed.
Lemma bundle_reads ts ms : messages_of ts ms -> p_bundle ts = Ok (0, Some ms).
Proof.
  intros H. unfold p_bundle. destruct all_complete as (_ & _ & _ & C). specialize (C ts ms H (4 * length ts + 4)%nat [] ltac:(lia)).
  rewrite app_nil_r in C. rewrite C; [reflexivity| |]; intros [us K]; discriminate.
Qed.
Lemma bundle_leaves us t vs ms : messages_of us ms -> t <> TChar 44 -> t <> TChar 58 -> p_bundle (us ++ t :: vs) = Ok (1, Some ms).
Proof.
  intros H N1 N2. unfold p_bundle. destruct all_complete as (_ & _ & _ & C).
  rewrite (C us ms H (4 * length (us ++ t :: vs) + 4)%nat (t :: vs)); [reflexivity| | |]; [rewrite app_length; lia| |]; now apply leads_no.
Qed.

(** ** C81: any text is read without undefined behaviour, and either it is a bundle
    with at least one message, all with an address, or the error is reported. *)
Theorem C81_total s rest : nonul s -> exists code bndl, parse (s ++ 0 :: rest) = Ok (code, bndl) /\
  ((code = 0 /\ exists ms, bndl = Some ms /\ ms <> [] /\ Forall (fun m => exists a l, m = UMsg (Some a) l) ms) \/ code = 4096).
Proof.
  intros Hs. unfold parse_string. pose proof (rdstr_at [] s rest Hs) as R. cbn [app] in R. change (zlen []) with 0 in R. rewrite R. cbn [bind].
  destruct (scan_total strtod iso junk (S (length s)) lexer_start s ltac:(lia) I) as (ts & ->). cbn [bind].
  destruct (bundle_total (until_end ts)) as (code & bndl & -> & K). cbn [bind]. cbv beta iota. eexists _, _. split; [reflexivity|].
  destruct K as [(-> & ms & -> & H)|(-> & _)]; [left|now right]. split; [reflexivity|]. exists ms. split; [reflexivity|].
  split; [now apply messages_nonempty in H|]. clear - H.
  induction H as [us m H|us m vs ms H _ IH]; (constructor; [destruct H; eexists _, _; reflexivity|]); [constructor|exact IH].
Qed.
(** The caller that looks at the bundle only. *)
Theorem C81_bundle s rest : nonul s -> exists bndl, parse_string_r strtod iso junk (s ++ 0 :: rest) = Ok bndl.
Proof. intros Hs. unfold parse_string_r. destruct (C81_total s rest Hs) as (code & bndl & -> & _). now eexists. Qed.

(** ** C82: a text that spells a bundle is read as this bundle. *)

Lemma spelled_nonul w must t : spelled strtod iso w must t -> nonul w.
Proof.
  assert (D : forall l, Forall is_digit_char l -> nonul l) by (intros l; apply Forall_impl; unfold is_digit_char; lia).
  assert (Hh : forall x s, In x (str "xX") -> Forall is_hex s -> nonul ([48; x] ++ s)).
  { intros x s Hx Hs. constructor; [lia|]. constructor; [destruct Hx as [<-|[<-|[]]]; discriminate|]. revert Hs. apply Forall_impl. unfold is_hex. lia. }
  intros H. destruct H as [c Hc| | | |c Hc H0 H10|s Hs|z|x s Hx Hn Hs Hl|x s Hx Hs Hl|w Hw|w Hw].
  - constructor; [|constructor]. cbn [In] in Hc. lia.
  - repeat constructor; discriminate.
  - repeat constructor; discriminate.
  - repeat constructor; discriminate.
  - repeat constructor; lia.
  - unfold literal. constructor; [lia|]. apply Forall_app. split; [|repeat constructor; lia].
    induction Hs as [|c s Hc _ IH]; [constructor|]. unfold escaped. cbn [flat_map]. apply Forall_app. split; [|exact IH].
    destruct (_ || _); repeat constructor; lia.
  - destruct (numeral_number strtod iso junk z) as [K _]. revert K. apply Forall_impl. unfold number_char. lia.
  - now apply Hh.
  - now apply Hh.
  - destruct Hw as [sign whole fraction exponent Hs Hw Hf He _]. apply Forall_app. split; [destruct Hs as [<-|[<-|[]]]; repeat constructor; lia|].
    apply Forall_app. split; [apply D, Hw|]. apply Forall_app. split.
    + destruct Hf as [-> |(f & -> & Hf)]; [constructor|]. constructor; [lia|now apply D].
    + destruct He as [-> |(s & d & -> & Hd & Hd')]; [constructor|]. constructor; [lia|]. apply Forall_app. split; [|apply D, Hd'].
      destruct Hd as [<-|[<-|[<-|[]]]]; repeat constructor; lia.
  - destruct Hw as [year month day hour minute second fraction zone Hl Hy Hmo Hda Hho Hmi Hse Hfr Hzo].
    repeat (apply Forall_app; split); try (apply D; first [exact Hy | apply (two_digits_digits strtod iso junk); lia]); try (repeat constructor; lia).
    + destruct Hfr as [-> |(f & -> & Hf)]; [constructor|]. constructor; [lia|apply D, Hf].
    + destruct Hzo as [<-|[<-|[]]]; repeat constructor; lia.
Qed.
Lemma written_nonul s ts : written strtod iso s ts -> nonul s.
Proof.
  induction 1 as [|c rest ts Hc _ IH|w must t rest ts Hw Hd _ IH|s rest ts Hs Hr _ IH].
  - constructor.
  - constructor; [|exact IH]. cbn [white In] in Hc. lia.
  - apply Forall_app. split; [now apply spelled_nonul in Hw|exact IH].
  - apply Forall_app. split; [|exact IH]. destruct Hs as (body & -> & _ & Hb & _). constructor; [lia|]. revert Hb. apply Forall_impl.
    intros c Hc ->. apply Hc. cbn. auto.
Qed.
Lemma written_tokens s ts : written strtod iso s ts -> until_end ts = ts.
Proof.
  induction 1 as [|c rest ts Hc _ IH|w must t rest ts Hw Hd _ IH|s rest ts Hs Hr _ IH]; cbn [until_end]; try reflexivity; try exact IH.
  - destruct Hw as [c Hc| | | | | | | | | | ]; cbn [until_end]; try (now rewrite IH).
    assert (c <=? 0 = false) as -> by (apply Z.leb_gt; cbn [In] in Hc; lia). now rewrite IH.
  - now rewrite IH.
Qed.
Lemma parse_written s ts rest : written strtod iso s ts ->
  parse (s ++ 0 :: rest) = do ' (ret, bndl) <- p_bundle ts; Ok (if negb (ret =? 0) then 4096 else 0, bndl).
Proof.
  intros H. unfold parse_string. pose proof (rdstr_at [] s rest (written_nonul _ _ H)) as R. cbn [app] in R. change (zlen []) with 0 in R.
  rewrite R. cbn [bind]. rewrite (scans_written strtod iso junk s ts H (S (length s))) by lia. cbn [bind]. now rewrite (written_tokens _ _ H).
Qed.

Theorem C82_reads s ts ms rest : written strtod iso s ts -> messages_of ts ms -> parse (s ++ 0 :: rest) = Ok (0, Some ms).
Proof. intros H1 H2. rewrite (parse_written s ts rest H1), (bundle_reads ts ms H2). reflexivity. Qed.
(** A sequence of tokens says one bundle only. *)
Theorem C82_unambiguous ts ms ms' : messages_of ts ms -> messages_of ts ms' -> ms = ms'.
Proof. intros H1 H2. apply bundle_reads in H1, H2. congruence. Qed.

(** ** C83: a text that spells no bundle is an error. *)
Theorem C83_rejects s ts rest : written strtod iso s ts -> (forall ms, ~ messages_of ts ms) ->
  exists bndl, parse (s ++ 0 :: rest) = Ok (4096, bndl) /\
    forall ms, bndl = Some ms -> exists us t vs, ts = us ++ t :: vs /\ messages_of us ms.
Proof.
  intros H1 H2. rewrite (parse_written s ts rest H1). destruct (bundle_total ts) as (code & bndl & -> & K). cbn [bind]. cbv beta iota.
  destruct K as [(_ & ms & _ & H)|(-> & H)]; [now apply H2 in H|]. exists bndl. now split.
Qed.
(** But a complete bundle before the error is delivered nevertheless. *)
Theorem C83_leftover s us t vs ms rest : written strtod iso s (us ++ t :: vs) -> messages_of us ms -> t <> TChar 44 -> t <> TChar 58 ->
  parse (s ++ 0 :: rest) = Ok (4096, Some ms) /\ parse_string_r strtod iso junk (s ++ 0 :: rest) = Ok (Some ms).
Proof.
  intros H1 H2 N1 N2. unfold parse_string_r. rewrite (parse_written s _ rest H1), (bundle_leaves us t vs ms H2 N1 N2). now split.
Qed.

(** ** C84: the text of a bundle is read back. *)
Section Round.
Context (rt : Z -> Z -> list Z).
Notation shown := (show_value rt).

(** What may follow a message. *)
Definition follows (rest : list Z) : Prop :=
  match rest with [] => True | c :: rest' => In c white \/ (c = 44 /\ exists r, rest' = 10 :: r) end.
Lemma follows_delimited rest : follows rest -> delimited rest.
Proof.
  destruct rest as [|c rest]; [exact (fun H => H)|]. cbn [follows delimited]. intros [H|[-> _]]; apply in_or_app; [now left|right; now left].
Qed.
Lemma w_whites l rest ts : Forall (fun c => In c white) l -> written strtod iso rest ts -> written strtod iso (l ++ rest) ts.
Proof. induction 1 as [|c l Hc _ IH]; intros H; [exact H|]. apply w_white; [exact Hc|now apply IH]. Qed.
Lemma spaces_white k : Forall (fun c => In c white) (spaces k).
Proof. unfold spaces. induction (Z.to_nat k) as [|n IH]; cbn [repeat]; constructor; [now left|exact IH]. Qed.
Lemma w_char c rest ts : In c [58; 123; 125; 44; 91; 93] -> written strtod iso rest ts -> written strtod iso (c :: rest) (TChar c :: ts).
Proof. intros Hc H. apply (w_token strtod iso [c] false (TChar c) rest ts); [now constructor|discriminate|exact H]. Qed.

Definition value_reads (v : value) : Prop := std_value any v -> readable rt v -> exists us a, datum_of us a /\ narrow (raw_value a) = read_back strtod iso rt v /\
  forall d rest ts, delimited rest -> written strtod iso rest ts -> written strtod iso (shown d v ++ rest) (us ++ ts).
Definition message_reads (m : message) : Prop := std_message any m -> readable_message rt m ->
  exists us m', message_of us m' /\ map narrow_msg (raw_msg m') = [read_back_message strtod iso rt m] /\
  forall d rest ts, follows rest -> written strtod iso rest ts -> written strtod iso (show_message rt d m ++ rest) (us ++ ts).

Lemma reads_token v w must t a : (forall d, shown d v = w) -> spelled strtod iso w must t -> t = TValue a ->
  narrow (raw_value a) = read_back strtod iso rt v ->
  exists us a, datum_of us a /\ narrow (raw_value a) = read_back strtod iso rt v /\
  forall d rest ts, delimited rest -> written strtod iso rest ts -> written strtod iso (shown d v ++ rest) (us ++ ts).
Proof.
  intros Hw Hs -> Hn. exists [TValue a], a. split; [constructor|]. split; [exact Hn|]. intros d rest ts Hd H. rewrite Hw. cbn [app].
  now apply (w_token strtod iso w must).
Qed.
Lemma raw32 t x : In t [99; 67; 117; 85; 105; 73; 102] -> raw_value (Atom t x PNone) = VNum32 t (x mod 2^32).
Proof. intros H. cbn [raw_value]. cbn [In] in H. decompose [or] H; subst; try reflexivity. contradiction. Qed.
Lemma store_0 k v : store k 0 v = v mod 2^k.
Proof. unfold store. rewrite Zmod_0_l. lia. Qed.
Lemma two_mod k x : 0 < k -> two_complement k x mod 2^k = x mod 2^k.
Proof.
  intros Hk. unfold two_complement. assert (0 < 2^k) by (apply Z.pow_pos_nonneg; lia). destruct (_ <? _); [now rewrite Zmod_mod|].
  rewrite Zminus_mod, Z_mod_same_full, Z.sub_0_r, !Zmod_mod. reflexivity.
Qed.
Lemma mod_small32 x : (x mod 2^32) mod 2^32 = x mod 2^32.
Proof. apply Zmod_mod. Qed.
Lemma int_back z : narrow (raw_value (set_int32 atom_fresh (two_complement 32 z))) = VNum32 105 (z mod 2^32).
Proof. cbn [set_int32 atom_fresh]. rewrite raw32 by (cbn; auto 10). rewrite store_0, mod_small32, two_mod by lia. reflexivity. Qed.
Lemma clamp_id z : - 2^63 <= z <= 2^63 - 1 -> Z.max (- 2^63) (Z.min z (2^63 - 1)) = z.
Proof. lia. Qed.
Lemma two_range k x : 0 < k -> - 2^(k - 1) <= two_complement k x <= 2^(k - 1) - 1.
Proof.
  intros Hk. unfold two_complement. assert (E : 2^k = 2 * 2^(k - 1)) by (rewrite <- Z.pow_succ_r by lia; f_equal; lia).
  assert (0 < 2^(k - 1)) by (apply Z.pow_pos_nonneg; lia). pose proof (Z.mod_pos_bound x (2^k) ltac:(lia)).
  destruct (_ <? _) eqn:L; [apply Z.ltb_lt in L|apply Z.ltb_ge in L]; lia.
Qed.

Lemma join_reads seps (ms : list message) : ms <> [] -> seps = str "," ++ newline ->
  Forall message_reads ms -> Forall (std_message any) ms -> Forall (readable_message rt) ms ->
  exists us ms', messages_of us ms' /\ map narrow_msg (raw_msgs ms') = map (read_back_message strtod iso rt) ms /\
  forall d rest ts, follows rest -> written strtod iso rest ts -> written strtod iso (join seps (map (show_message rt d) ms) ++ rest) (us ++ ts).
Proof.
  intros Hne -> HF HS HR. induction ms as [|m ms IH]; [contradiction|].
  inversion HF as [|? ? Fm Fms]; subst. inversion HS as [|? ? Sm Sms]; subst. inversion HR as [|? ? Rm Rms]; subst.
  destruct (Fm Sm Rm) as (us & m' & H1 & H2 & H3). destruct ms as [|m2 ms].
  - exists us, [m']. split; [now constructor|]. split; [unfold raw_msgs; cbn [map concat]; now rewrite app_nil_r|]. intros d rest ts Hf H. now apply H3.
  - destruct (IH ltac:(discriminate) Fms Sms Rms) as (vs & ms' & K1 & K2 & K3). exists (us ++ [TChar 44] ++ vs), (m' :: ms').
    split; [now constructor|]. split.
    + unfold raw_msgs in *. cbn [map concat]. rewrite map_app, H2. cbn [app map] in *. now rewrite K2.
    + intros d rest ts Hf H. specialize (K3 d rest ts Hf H).
      change (join (str "," ++ newline) (map (show_message rt d) (m :: m2 :: ms))) with
        (show_message rt d m ++ (str "," ++ newline) ++ join (str "," ++ newline) (map (show_message rt d) (m2 :: ms))).
      rewrite <- !app_assoc. apply H3; [right; split; [reflexivity|eexists; reflexivity]|].
      cbn [app]. apply w_char; [cbn; auto 10|]. apply (w_white strtod iso 10); [cbn; auto|]. exact K3.
Qed.
Lemma values_reads (vs : list value) : vs <> [] ->
  Forall value_reads vs -> Forall (std_value any) vs -> Forall (readable rt) vs ->
  exists us l, data_of us l /\ map narrow (map raw_value l) = map (read_back strtod iso rt) vs /\
  forall d rest ts, delimited rest -> written strtod iso rest ts -> written strtod iso (join (str ", ") (map (shown d) vs) ++ rest) (us ++ ts).
Proof.
  intros Hne HF HS HR. induction vs as [|v vs IH]; [contradiction|].
  inversion HF as [|? ? Fm Fms]; subst. inversion HS as [|? ? Sm Sms]; subst. inversion HR as [|? ? Rm Rms]; subst.
  destruct (Fm Sm Rm) as (us & a & H1 & H2 & H3). destruct vs as [|v2 vs].
  - exists us, [a]. split; [now constructor|]. split; [cbn [map]; now rewrite H2|]. intros d rest ts Hf H. now apply H3.
  - destruct (IH ltac:(discriminate) Fms Sms Rms) as (ws & l & K1 & K2 & K3). exists (us ++ [TChar 44] ++ ws), (a :: l).
    split; [now constructor|]. split; [cbn [map] in *; now rewrite H2, K2|].
    intros d rest ts Hf H. specialize (K3 d rest ts Hf H).
    change (join (str ", ") (map (shown d) (v :: v2 :: vs))) with (shown d v ++ str ", " ++ join (str ", ") (map (shown d) (v2 :: vs))).
    rewrite <- !app_assoc. apply H3; [apply in_or_app; right; now left|].
    cbn [app str]. apply w_char; [cbn; auto 10|]. apply (w_white strtod iso 32); [cbn; auto|]. exact K3.
Qed.

Lemma texts_read : (forall v, value_reads v) /\ (forall m, message_reads m).
Proof.
  assert (HM : forall a vs, Forall value_reads vs -> message_reads (M a vs)).
  { intros a vs HF HS HR. apply std_args in HS as (_ & _ & _ & HS). cbn [readable_message] in HR. destruct HR as [Ha HR]. apply all_Forall in HR.
    assert (A : forall d rest ts, (match rest with
        | [] => True
        | c :: rest' => In c (35 :: white) \/ (c = 44 /\ match rest' with [] => True | d :: _ => In d (35 :: white) end)
        end) -> written strtod iso rest ts -> written strtod iso (spaces (2 * d) ++ a ++ rest) (TAddress a :: ts)).
    { intros d rest ts Hr H. apply w_whites; [apply spaces_white|]. now apply w_address. }
    assert (Sp : forall rest, match 32 :: rest with
        | [] => True
        | c :: rest' => In c (35 :: white) \/ (c = 44 /\ match rest' with [] => True | d :: _ => In d (35 :: white) end)
        end) by (intros rest; left; right; now left).
    destruct vs as [|v [|v2 vs]].
    - exists [TAddress a], (UMsg (Some a) []). split; [constructor|]. split; [reflexivity|]. intros d rest ts Hf H.
      cbn [show_message]. rewrite <- !app_assoc. cbn [app]. apply A; [|exact H]. destruct rest as [|c rest]; [exact I|].
      destruct Hf as [Hf|[-> (r & ->)]]; [left; now right|]. right. split; [reflexivity|]. right. right. right. now left.
    - apply Forall_inv in HF, HS, HR. destruct (HF HS HR) as (us & x & H1 & H2 & H3).
      exists ([TAddress a; TChar 58] ++ us), (UMsg (Some a) [x]). split; [now constructor|]. split; [cbn [raw_msg map narrow_msg read_back_message]; now rewrite H2|].
      intros d rest ts Hf H. change (show_message rt d (M a [v])) with (spaces (2 * d) ++ a ++ str " : " ++ shown d v).
      rewrite <- !app_assoc. cbn [app str]. apply A; [apply Sp|]. apply (w_white strtod iso 32); [cbn; auto|]. apply w_char; [cbn; auto 10|].
      apply (w_white strtod iso 32); [cbn; auto|]. apply H3; [now apply follows_delimited|exact H].
    - destruct (values_reads (v :: v2 :: vs) ltac:(discriminate) HF HS HR) as (us & l & H1 & H2 & H3).
      exists ([TAddress a; TChar 58; TChar 91] ++ us ++ [TChar 93]), (UMsg (Some a) l). split; [now constructor|].
      split; [cbn [raw_msg map narrow_msg read_back_message]; f_equal; f_equal; exact H2|].
      intros d rest ts Hf H.
      change (show_message rt d (M a (v :: v2 :: vs))) with (spaces (2 * d) ++ a ++ str " : [" ++ join (str ", ") (map (shown d) (v :: v2 :: vs)) ++ str "]").
      rewrite <- !app_assoc. cbn [app str]. apply A; [apply Sp|]. apply (w_white strtod iso 32); [cbn; auto|]. apply w_char; [cbn; auto 10|].
      apply (w_white strtod iso 32); [cbn; auto|]. apply w_char; [cbn; auto 10|]. change (str "]" ++ rest) with (93 :: rest). apply H3; [apply in_or_app; right; cbn; auto|].
      apply w_char; [cbn; auto 10|exact H]. }
  assert (HV : forall v, match v with VBundle ms => Forall message_reads ms | _ => True end -> value_reads v).
  { intros v Hsub HS HR. destruct v as [t x|t x|s f|s|b|t|ms].
    - cbn [std_value] in HS. destruct HS as [Ht Hx]. cbn [readable] in HR. destruct HR as [R1 R2].
      assert (I : forall z y, (forall d, shown d (VNum32 t x) = numeral z) -> - 2^63 <= z <= 2^63 - 1 -> z mod 2^32 = y ->
        read_back strtod iso rt (VNum32 t x) = VNum32 105 y -> exists us a, datum_of us a /\ narrow (raw_value a) = read_back strtod iso rt (VNum32 t x) /\
        forall d rest ts, delimited rest -> written strtod iso rest ts -> written strtod iso (shown d (VNum32 t x) ++ rest) (us ++ ts)).
      { intros z y Hz Hr Hy Hb. eapply reads_token; [exact Hz|apply sp_integer|reflexivity|]. rewrite clamp_id by exact Hr. rewrite int_back, Hb. now f_equal. }
      assert (C : t = 99 \/ t = 67 -> exists us a, datum_of us a /\ narrow (raw_value a) = read_back strtod iso rt (VNum32 t x) /\
        forall d rest ts, delimited rest -> written strtod iso rest ts -> written strtod iso (shown d (VNum32 t x) ++ rest) (us ++ ts)).
      { intros Hc. destruct (R1 Hc) as [C1 C2]. pose proof (Z.mod_pos_bound x (2^8) ltac:(lia)) as Hb.
        eapply (reads_token (VNum32 t x) ([39] ++ [x mod 2^8] ++ [39])).
        - intros d. destruct Hc as [-> | ->]; reflexivity.
        - apply sp_char; [unfold is_byte; lia|exact C1|exact C2].
        - reflexivity.
        - cbn [set_int8 atom_fresh]. rewrite raw32 by (cbn; auto 10). rewrite store_0, two_mod by lia. rewrite Zmod_mod, (Z.mod_small (x mod 2^8) (2^32)) by lia.
          cbn [narrow]. change ((99 =? 99) || (99 =? 67)) with true. cbv iota. rewrite Zmod_mod. destruct Hc as [-> | ->]; reflexivity. }
      cbn [In] in Ht. destruct Ht as [<-|[<-|[<-|[<-|[<-|[<-|[<-|[]]]]]]]].
      + apply C. now left.
      + apply C. now right.
      + apply (I (two_complement 16 x) (two_complement 16 x mod 2^32)); try reflexivity. pose proof (two_range 16 x ltac:(lia)). lia.
      + pose proof (Z.mod_pos_bound x (2^16) ltac:(lia)). apply (I (x mod 2^16) (x mod 2^16)); try reflexivity; [lia|]. apply Z.mod_small. lia.
      + apply (I (two_complement 32 x) x); try reflexivity; [pose proof (two_range 32 x ltac:(lia)); lia|]. rewrite two_mod by lia. now apply Z.mod_small.
      + apply (I x x); try reflexivity; [lia|]. now apply Z.mod_small.
      + specialize (R2 eq_refl). eapply (reads_token (VNum32 102 x) (rt 102 x)); [reflexivity|now apply sp_double|reflexivity|].
        cbn [set_double atom_fresh]. rewrite store_0. cbn [raw_value existsb Z.eqb Pos.eqb orb narrow]. now rewrite Zmod_mod.
    - cbn [std_value] in HS. destruct HS as [Ht Hx]. cbn [readable] in HR. cbn [In] in Ht. destruct Ht as [<-|[<-|[<-|[]]]].
      + eapply (reads_token (VNum64 104 x) (numeral (two_complement 64 x))); [reflexivity|apply sp_integer|reflexivity|].
        rewrite clamp_id by (pose proof (two_range 64 x ltac:(lia)); lia). rewrite int_back. cbn [read_back Z.eqb Pos.eqb]. f_equal.
        pose proof (two_mod 64 x ltac:(lia)) as E. Z.div_mod_to_equations. lia.
      + eapply (reads_token (VNum64 72 x) (numeral x)); [reflexivity|apply sp_integer|reflexivity|].
        rewrite int_back. cbn [read_back Z.eqb Pos.eqb]. f_equal. f_equal. lia.
      + specialize (HR eq_refl). eapply (reads_token (VNum64 100 x) (rt 100 x)); [reflexivity|now apply sp_double|reflexivity|].
        cbn [set_double atom_fresh]. rewrite store_0. cbn [raw_value existsb Z.eqb Pos.eqb orb narrow]. now rewrite Zmod_mod.
    - cbn [readable] in HR. eapply (reads_token (VTime s f) (rt 116 (s * 2^32 + f))); [reflexivity|now apply sp_time|reflexivity|].
      cbn [set_timetag atom_fresh raw_value existsb Z.eqb Pos.eqb orb narrow read_back]. unfold u32. f_equal; Z.div_mod_to_equations; lia.
    - cbn [std_value] in HS. destruct HS as [Hn _]. eapply (reads_token (VStr s) (literal s)); [reflexivity|now apply sp_text|reflexivity|reflexivity].
    - destruct HR.
    - cbn [std_value In] in HS. destruct HS as [<-|[<-|[<-|[]]]].
      + eapply (reads_token (VFlag 84) (str "true")); [reflexivity|apply sp_true|reflexivity|reflexivity].
      + eapply (reads_token (VFlag 70) (str "false")); [reflexivity|apply sp_false|reflexivity|reflexivity].
      + eapply (reads_token (VFlag 78) (str "nil")); [reflexivity|apply sp_nil|reflexivity|reflexivity].
    - apply std_bundle in HS. cbn [readable] in HR. apply all_Forall in HR. destruct ms as [|m ms].
      + exists [TChar 123; TChar 125], (set_bndl atom_fresh 0 []). split; [constructor|]. split; [reflexivity|]. intros d rest ts Hd H.
        change (shown d (VBundle [])) with (str "{" ++ newline ++ newline ++ spaces (2 * d) ++ str "}").
        rewrite <- !app_assoc. cbn [app str newline]. apply w_char; [cbn; auto 10|]. do 2 (apply (w_white strtod iso 10); [cbn; auto|]).
        apply w_whites; [apply spaces_white|]. apply w_char; [cbn; auto 10|exact H].
      + destruct (join_reads (str "," ++ newline) (m :: ms) ltac:(discriminate) eq_refl Hsub HS HR) as (us & ms' & H1 & H2 & H3).
        exists ([TChar 123] ++ us ++ [TChar 125]), (set_bndl atom_fresh 0 ms'). split; [now constructor|].
        split; [cbn [set_bndl raw_value existsb Z.eqb Pos.eqb orb narrow read_back]; f_equal; exact H2|].
        intros d rest ts Hd H.
        change (shown d (VBundle (m :: ms))) with
          (str "{" ++ newline ++ join (str "," ++ newline) (map (show_message rt (d + 1)) (m :: ms)) ++ newline ++ spaces (2 * d) ++ str "}").
        rewrite <- !app_assoc. cbn [app str newline]. apply w_char; [cbn; auto 10|]. apply (w_white strtod iso 10); [cbn; auto|].
        apply H3; [left; cbn; auto|]. apply (w_white strtod iso 10); [cbn; auto|].
        apply w_whites; [apply spaces_white|]. cbn [app]. apply w_char; [cbn; auto 10|exact H]. }
  split; [exact (value_ind2 _ _ HV HM) | exact (message_ind2 _ _ HV HM)].
Qed.

(** The text written for standard messages is read, and says what [read_back] says. *)
Theorem C84_text ms rest : ms <> [] -> Forall (std_message any) ms -> Forall (readable_message rt) ms ->
  exists ms', parse (show_bundle rt ms ++ 0 :: rest) = Ok (0, Some ms') /\ content ms' = map (read_back_message strtod iso rt) ms.
Proof.
  intros Hne HS HR. destruct (join_reads (str "," ++ newline) ms Hne eq_refl) as (us & ms' & H1 & H2 & H3); try assumption.
  { apply Forall_forall. intros m _. apply texts_read. }
  exists ms'. split; [|exact H2]. specialize (H3 0 [] [] I (w_end strtod iso)). rewrite !app_nil_r in H3. unfold show_bundle. now apply (C82_reads _ us).
Qed.

(** Values that are kept. *)
Lemma kept_back : (forall v, std_value any v -> kept strtod iso rt v -> read_back strtod iso rt v = narrow v) /\
  (forall m, std_message any m -> kept_message strtod iso rt m -> read_back_message strtod iso rt m = narrow_msg m).
Proof.
  assert (HM : forall a vs, Forall (fun v => std_value any v -> kept strtod iso rt v -> read_back strtod iso rt v = narrow v) vs ->
    std_message any (M a vs) -> kept_message strtod iso rt (M a vs) -> read_back_message strtod iso rt (M a vs) = narrow_msg (M a vs)).
  { intros a vs HF HS HK. apply std_args in HS as (_ & _ & _ & HS). cbn [kept_message] in HK. apply all_Forall in HK.
    change (M a (map (read_back strtod iso rt) vs) = M a (map narrow vs)). f_equal. apply map_ext_in. intros v Hv.
    rewrite Forall_forall in HF, HS, HK. apply HF; [exact Hv|now apply HS|now apply HK]. }
  assert (HV : forall v, match v with VBundle ms => Forall (fun m => std_message any m -> kept_message strtod iso rt m ->
      read_back_message strtod iso rt m = narrow_msg m) ms | _ => True end ->
    std_value any v -> kept strtod iso rt v -> read_back strtod iso rt v = narrow v).
  { intros v Hsub HS HK. destruct v as [t x|t x|s f|s|b|t|ms]; try reflexivity.
    - cbn [kept] in HK. destruct HK as [-> | ->]; reflexivity.
    - cbn [kept std_value] in *. destruct HK as [-> HK]. cbn [read_back Z.eqb Pos.eqb narrow]. rewrite HK. f_equal. apply Z.mod_small. apply HS.
    - cbn [kept std_value] in *. cbn [read_back narrow]. rewrite HK. cbn [sec frac]. f_equal; apply Z.mod_small; apply HS.
    - apply std_bundle in HS. cbn [kept] in HK. apply all_Forall in HK. 
      change (VBundle (map (read_back_message strtod iso rt) ms) = VBundle (map narrow_msg ms)). f_equal. apply map_ext_in. intros m Hm.
      rewrite Forall_forall in Hsub, HS, HK. apply Hsub; [exact Hm|now apply HS|now apply HK]. }
  split; [exact (value_ind2 _ _ HV HM) | exact (message_ind2 _ _ HV HM)].
Qed.

(** Writing a bundle as text and reading the text gives the same content, for
    bundles of values that are kept. *)
Theorem C84_round_trip ms : let c := raw_msgs ms in
  Forall ok_msg ms -> Forall whole_msg ms -> Forall (std_message any) c -> Forall showable_message c ->
  Forall (fun m => (match m with M a _ => a end) <> []) c -> ms <> [] -> zlen (show_bundle rt c) < 2^31 ->
  Forall (readable_message rt) c -> Forall (kept_message strtod iso rt) c ->
  exists text ms', bundle_u_format rt junk ms = Ok text /\ parse text = Ok (0, Some ms') /\ content ms' = content ms.
Proof.
  intros c H1 H2 H3 H4 H5 Hne Hl HR HK.
  assert (Hc : c <> []).
  { destruct ms as [|[[a|] args] ms]; [contradiction|discriminate|]. inversion H2 as [|? ? K _]; subst. destruct K as [K _]. contradiction. }
  destruct (C55_bundle rt junk ms H1 H2 H3 H4 H5 Hne Hl) as (_ & _ & E). fold c in E.
  destruct (C84_text c [] Hc H3 HR) as (ms' & P & Ec).
  exists (show_bundle rt c ++ [0]), ms'. split; [unfold bundle_u_format; now rewrite E|]. split; [exact P|].
  rewrite Ec. unfold content. fold c. apply map_ext_in. intros m Hm. rewrite Forall_forall in *. apply kept_back; auto.
Qed.
End Round.
End Parse.

(** What is not kept: 64-bit integers, which come back with 32 bits, and blobs,
    whose text is an error. *)
Theorem C84_wide_refuted : exists m, std_message any m /\ (forall rt, showable_message m /\ readable_message rt m) /\
  forall strtod iso junk rt, exists ms', parse_string strtod iso junk (show_bundle rt [m] ++ [0]) = Ok (0, Some ms') /\ content ms' <> [m].
Proof.
  assert (S : std_message any (M (str "/a") [VNum64 104 4294967301])).
  { cbn. unfold any. repeat split; try lia; auto; repeat constructor; discriminate. }
  assert (R : forall rt, readable_message rt (M (str "/a") [VNum64 104 4294967301])).
  { intros rt. split; [|split; [discriminate|exact I]]. exists (str "a").
    split; [reflexivity|]. split; [discriminate|]. split; [|discriminate].
    constructor; [|constructor]. cbn. intros H. decompose [or] H; try discriminate; try contradiction. }
  exists (M (str "/a") [VNum64 104 4294967301]). split; [exact S|]. split; [intros rt; split; [now repeat split|apply R]|].
  intros strtod iso junk rt.
  destruct (C84_text strtod iso junk rt [M (str "/a") [VNum64 104 4294967301]] []) as (ms' & E & C); [discriminate|constructor; [exact S|constructor]|constructor; [apply R|constructor]|].
  exists ms'. split; [exact E|]. rewrite C. discriminate.
Qed.
Theorem C84_blob_refuted : exists m, std_message any m /\ showable_message m /\
  forall strtod iso junk rt, parse_string strtod iso junk (show_bundle rt [m] ++ [0]) = Ok (4096, None).
Proof.
  exists (M (str "/a") [VBlob [1]]). split; [|split].
  - cbn. unfold any. repeat split; repeat constructor; try discriminate; unfold is_byte; lia.
  - cbn. split; [discriminate|exact I].
  - intros strtod iso junk rt. reflexivity.
Qed.

Print Assumptions C81_total.
Print Assumptions C81_bundle.
Print Assumptions C82_reads.
Print Assumptions C82_unambiguous.
Print Assumptions C83_rejects.
Print Assumptions C83_leftover.
Print Assumptions C84_text.
Print Assumptions C84_round_trip.
Print Assumptions C84_wide_refuted.
Print Assumptions C84_blob_refuted.

(** A list of a number and a text with a quote, and a bundle in a bundle. *)
Definition spoken : list Z := str "/a : [-5, ""x\""""], /b : {/c : true}".
Definition spoken_tokens : list token :=
  [TAddress (str "/a"); TChar 58; TChar 91; TValue (set_int32 atom_fresh (-5)); TChar 44; TValue (set_string atom_fresh 0 (str "x""")); TChar 93;
   TChar 44; TAddress (str "/b"); TChar 58; TChar 123; TAddress (str "/c"); TChar 58; TValue (set_true atom_fresh); TChar 125].
Definition spoken_messages : list umsg :=
  [UMsg (Some (str "/a")) [set_int32 atom_fresh (-5); set_string atom_fresh 0 (str "x""")];
   UMsg (Some (str "/b")) [set_bndl atom_fresh 0 [UMsg (Some (str "/c")) [set_true atom_fresh]]]].
Lemma short_address c : In c [97; 98; 99] -> plain_address [47; c].
Proof.
  intros H. exists [c]. split; [reflexivity|]. split; [discriminate|]. cbn [In] in H.
  split; [constructor; [|constructor]; cbn; lia|cbn; lia].
Qed.
Example C82_hypotheses strtod iso : written strtod iso spoken spoken_tokens /\ messages_of spoken_tokens spoken_messages.
Proof.
  split.
  - unfold spoken_tokens. apply (w_address _ _ (str "/a") (str " : [-5, ""x\""""], /b : {/c : true}")); [apply short_address; cbn; auto|left; cbn; auto|].
    apply w_white; [cbn; auto|]. apply w_char; [cbn; auto 10|]. apply w_white; [cbn; auto|]. apply w_char; [cbn; auto 10|].
    apply (w_token _ _ (numeral (-5)) true _ (str ", ""x\""""], /b : {/c : true}")); [exact (sp_integer _ _ (-5))|intros _; cbn; auto 10|].
    apply w_char; [cbn; auto 10|]. apply w_white; [cbn; auto|].
    apply (w_token _ _ (literal (str "x""")) false _ (str "], /b : {/c : true}")); [constructor; repeat constructor; discriminate|discriminate|].
    apply w_char; [cbn; auto 10|]. apply w_char; [cbn; auto 10|]. apply w_white; [cbn; auto|].
    apply (w_address _ _ (str "/b") (str " : {/c : true}")); [apply short_address; cbn; auto|left; cbn; auto|].
    apply w_white; [cbn; auto|]. apply w_char; [cbn; auto 10|]. apply w_white; [cbn; auto|]. apply w_char; [cbn; auto 10|].
    apply (w_address _ _ (str "/c") (str " : true}")); [apply short_address; cbn; auto|left; cbn; auto|].
    apply w_white; [cbn; auto|]. apply w_char; [cbn; auto 10|]. apply w_white; [cbn; auto|].
    apply (w_token _ _ (str "true") false _ (str "}")); [constructor|discriminate|]. apply w_char; [cbn; auto 10|]. constructor.
  - apply (ms_more [TAddress (str "/a"); TChar 58; TChar 91; TValue (set_int32 atom_fresh (-5)); TChar 44; TValue (set_string atom_fresh 0 (str "x""")); TChar 93]
      _ [TAddress (str "/b"); TChar 58; TChar 123; TAddress (str "/c"); TChar 58; TValue (set_true atom_fresh); TChar 125]).
    + apply (m_list (str "/a") [TValue (set_int32 atom_fresh (-5)); TChar 44; TValue (set_string atom_fresh 0 (str "x"""))]).
      apply (data_more [TValue (set_int32 atom_fresh (-5))] _ [TValue (set_string atom_fresh 0 (str "x"""))]); repeat constructor.
    + constructor. apply (m_datum (str "/b") [TChar 123; TAddress (str "/c"); TChar 58; TValue (set_true atom_fresh); TChar 125]).
      apply (d_bundle [TAddress (str "/c"); TChar 58; TValue (set_true atom_fresh)]). constructor. apply (m_datum (str "/c") [TValue (set_true atom_fresh)]). constructor.
Qed.
(** Two values without brackets are an error; the first message is there. *)
Example C83_hypotheses strtod iso : exists s ts, written strtod iso s ts /\ (forall ms, ~ messages_of ts ms) /\
  exists us t vs ms, ts = us ++ t :: vs /\ messages_of us ms /\ t <> TChar 44 /\ t <> TChar 58.
Proof.
  exists (str "/a : true nil"), [TAddress (str "/a"); TChar 58; TValue (set_true atom_fresh); TValue (set_nil atom_fresh)]. split; [|split].
  - apply (w_address _ _ (str "/a") (str " : true nil")); [apply short_address; cbn; auto|left; cbn; auto|].
    apply w_white; [cbn; auto|]. apply w_char; [cbn; auto 10|]. apply w_white; [cbn; auto|].
    apply (w_token _ _ (str "true") false _ (str " nil")); [constructor|discriminate|]. apply w_white; [cbn; auto|].
    apply (w_token _ _ (str "nil") false _ []); [constructor|discriminate|constructor].
  - intros ms H. apply (bundle_reads strtod iso []) in H. discriminate H.
  - exists [TAddress (str "/a"); TChar 58; TValue (set_true atom_fresh)], (TValue (set_nil atom_fresh)), [], [UMsg (Some (str "/a")) [set_true atom_fresh]].
    split; [reflexivity|]. split; [|split; discriminate]. constructor. apply (m_datum (str "/a") [TValue (set_true atom_fresh)]). constructor.
Qed.
(** Numbers, texts with quotes and bundles in bundles are kept. *)
Definition letter : list umsg :=
  [UMsg (Some (str "/a")) [Atom 105 4294967291 PNone; Atom 115 0 (PStr (str "x""y")); Atom 99 65 PNone];
   UMsg (Some (str "/b")) [Atom 46 0 (PBndl [UMsg (Some (str "/c")) [Atom 84 0 PNone]; UMsg (Some (str "/d")) []])]].
Example C84_hypotheses strtod iso rt : Forall ok_msg letter /\ Forall whole_msg letter /\
  Forall (std_message any) (raw_msgs letter) /\ Forall showable_message (raw_msgs letter) /\
  Forall (fun m => (match m with M a _ => a end) <> []) (raw_msgs letter) /\ zlen (show_bundle rt (raw_msgs letter)) < 2^31 /\
  Forall (readable_message rt) (raw_msgs letter) /\ Forall (kept_message strtod iso rt) (raw_msgs letter).
Proof.
  assert (P : forall c, In c [97; 98; 99; 100] -> plain_address [47; c]).
  { intros c H. exists [c]. split; [reflexivity|]. split; [discriminate|]. cbn [In] in H. split; [constructor; [|constructor]; cbn; lia|cbn; lia]. }
  assert (N : forall x : list Z, forallb (fun c => negb (c =? 0)) x = true -> nonul x).
  { intros x H. apply Forall_forall. intros c Hc. rewrite forallb_forall in H. specialize (H c Hc). apply negb_true_iff in H. now apply Z.eqb_neq in H. }
  assert (B : forall x : list Z, forallb (fun c => (0 <=? c) && (c <? 256)) x = true -> wf_bytes x).
  { intros x H. apply Forall_forall. intros c Hc. rewrite forallb_forall in H. specialize (H c Hc). apply andb_true_iff in H as [H1 H2].
    unfold is_byte. apply Z.leb_le in H1. apply Z.ltb_lt in H2. lia. }
  assert (L : zlen (show_bundle rt (raw_msgs letter)) < 2^31) by reflexivity.
  split; [|split; [|split; [|split; [|split; [|split; [exact L|split]]]]]]; clear L; unfold letter;
    (constructor; [|constructor; [|constructor]]); cbn;
    repeat match goal with |- _ /\ _ => split end;
    try exact I; try lia; try discriminate; try (now apply N); try (now apply B); try (apply P; cbn; auto 10; fail); auto 20; unfold is_byte; try lia;
    intros; try lia.
Qed.
