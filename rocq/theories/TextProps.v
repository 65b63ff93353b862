(** C49: atoms as strings (osc_atom_u_getString, osc_atom_s_getString). *)

From Coq Require Import ZArith List Bool Lia.
From Verif Require Import Base Text BaseProofs Bytes UtilModel UtilProofs WireSpec WireModel SerialModel SerialSpec
  AtomSModel FloatModel AtomUModel AtomSpec AtomProofs ArgProps AtomProps StrfmtModel StrfmtProps.
Import ListNotations.
Open Scope Z_scope.

(** * Specification *)

(** The text of an integer: a character between apostrophes for 8 bits, a
    decimal numeral for the wider types. *)
Definition text (t : ity) (v : Z) : list Z :=
  match t with I8 | U8 => [39; v mod 2^8; 39] | _ => numeral v end.

(** The text of a blob: blob(b1, b2, ...) with the bytes as signed numbers. *)
Definition signed_byte (b : Z) : Z := if b <? 128 then b else b - 256.
Definition blob_text (d : bytes) : list Z :=
  [98; 108; 111; 98; 40] ++
  match d with
  | [] => []
  | b :: d' => numeral (signed_byte b) ++ flat_map (fun b => [44; 32] ++ numeral (signed_byte b)) d'
  end ++ [41].

(** * Lemmas *)

Lemma dec_digits_decimal f : forall n acc, dec_digits f n acc = decimal f n ++ acc.
Proof.
  induction f as [|f IH]; intros n acc; [reflexivity|]. cbn [dec_digits decimal].
  destruct (n <? 10); [reflexivity|]. rewrite IH. now rewrite <- app_assoc.
Qed.
Lemma fmt_int_numeral z : fmt_int z = numeral z.
Proof.
  assert (E : forall n, fmt_nat n = digit_string n).
  { intros n. unfold fmt_nat, digit_string. now rewrite dec_digits_decimal, app_nil_r. }
  unfold fmt_int, numeral. now rewrite !E.
Qed.

Lemma snprintf_at l1 b2 n txt : 0 < n -> Z.min n (zlen txt + 1) <= zlen b2 ->
  snprintf (l1 ++ b2) (zlen l1) n txt =
  Ok (l1 ++ firstn (Z.to_nat (n - 1)) txt ++ [0] ++ skipn (length (firstn (Z.to_nat (n - 1)) txt) + 1) b2).
Proof.
  intros Hn Hb. unfold snprintf. rewrite (proj2 (Z.eqb_neq n 0)) by lia.
  set (t := firstn (Z.to_nat (n - 1)) txt).
  assert (Ht : (length t + 1 <= length b2)%nat) by (unfold t, zlen in *; rewrite firstn_length; lia).
  rewrite <- (firstn_skipn (length t + 1) b2) at 1. rewrite write_app.
  - now rewrite <- app_assoc.
  - rewrite firstn_length, app_length. cbn [length]. lia.
Qed.
Lemma snprintf_front b n txt : 0 < n -> Z.min n (zlen txt + 1) <= zlen b ->
  snprintf b 0 n txt = Ok (firstn (Z.to_nat (n - 1)) txt ++ [0] ++ skipn (length (firstn (Z.to_nat (n - 1)) txt) + 1) b).
Proof. intros Hn Hb. exact (snprintf_at [] b n txt Hn Hb). Qed.

Lemma out_new junk k : 0 <= k -> exists b, out_buffer junk None 0 k = (b, k + 1) /\ zlen b = k + 1.
Proof.
  intros H. eexists. split; [reflexivity|]. unfold zlen. rewrite firstn_length, app_length, repeat_length. lia.
Qed.

Lemma string_len_int other t a v : in_type t v ->
  au_string_len other (set_u t a v) = Ok (match t with U8 => zlen (numeral v) | _ => zlen (text t v) end).
Proof.
  intros Hv. assert (E := get_set t t a v Hv). rewrite wrap_id in E by exact Hv.
  destruct a as [tg w p]. destruct t; cbn [set_u get_u] in *;
    unfold set_int8, set_int16, set_int32, set_int64, set_uint8, set_uint16, set_uint32, set_uint64,
      au_int8, au_int16, au_int32, au_int64, au_uint8, au_uint16, au_uint32, au_uint64, au_string_len in *;
    redtag; cbn -[Z.pow Z.modulo numeral] in E; injection E as E; rewrite ?fmt_int_numeral; try reflexivity.
  all: cbn [text]; do 3 f_equal.
  all: unfold w_c, w_u, w_i, w_h, w_C, w_U, w_I, w_H in *.
  all: refine (eq_trans _ E); wr; Z.div_mod_to_equations; lia.
Qed.

Lemma string_int other junk t a v n out : in_type t v ->
  au_string other junk (set_u t a v) n out =
  do k <- au_string_len other (set_u t a v);
  let (b, nn) := out_buffer junk out n k in
  do b <- snprintf b 0 nn (text t v); Ok (b, k).
Proof.
  intros Hv. assert (E := get_set t t a v Hv). rewrite wrap_id in E by exact Hv.
  unfold au_string. destruct (au_string_len other (set_u t a v)) as [k| |]; cbn [bind]; try reflexivity.
  destruct (out_buffer junk out n k) as [b nn].
  destruct a as [tg w p]. destruct t; cbn [set_u get_u] in *;
    unfold set_int8, set_int16, set_int32, set_int64, set_uint8, set_uint16, set_uint32, set_uint64,
      au_int8, au_int16, au_int32, au_int64, au_uint8, au_uint16, au_uint32, au_uint64 in *;
    redtag; cbn -[Z.pow Z.modulo numeral snprintf] in E; injection E as E; rewrite ?fmt_int_numeral.
  all: match goal with |- bind (snprintf _ _ _ ?x) _ = bind (snprintf _ _ _ ?y) _ => replace x with y; [reflexivity|] end.
  all: unfold text, quoted_char, fmt_char, w_c, w_u, w_i, w_h, w_C, w_U, w_I, w_H in *; cbn [app].
  1, 5: f_equal; f_equal; clear E; unfold store; wr; Z.div_mod_to_equations; lia.
  all: f_equal; refine (eq_trans (eq_sym E) _); wr; Z.div_mod_to_equations; lia.
Qed.

(** * Theorems *)

(** With no buffer given: a new one with the text; the value returned, which is
    that of osc_atom_u_getStringLen, is its length. *)
Theorem C49_integers other junk t a v : in_type t v -> t <> U8 \/ 100 <= v ->
  au_string_len other (set_u t a v) = Ok (zlen (text t v)) /\
  au_string other junk (set_u t a v) 0 None = Ok (text t v ++ [0], zlen (text t v)).
Proof.
  intros Hv Ht.
  assert (Hk : au_string_len other (set_u t a v) = Ok (zlen (text t v))).
  { rewrite string_len_int by exact Hv. destruct t; try reflexivity. destruct Ht as [Ht|Ht]; [easy|].
    f_equal. change (zlen (text U8 v)) with 3. unfold in_type in Hv. cbn in Hv.
    unfold numeral. rewrite (proj2 (Z.ltb_ge _ _)) by lia. unfold digit_string.
    assert (Hl : Z.log2 v = 6 \/ Z.log2 v = 7).
    { assert (6 <= Z.log2 v) by (change 6 with (Z.log2 100); apply Z.log2_le_mono; lia).
      assert (Z.log2 v <= 7) by (change 7 with (Z.log2 255); apply Z.log2_le_mono; lia). lia. }
    assert (H1 : v / 10 <? 10 = false) by (apply Z.ltb_ge; Z.div_mod_to_equations; lia).
    assert (H2 : v / 10 / 10 <? 10 = true) by (apply Z.ltb_lt; Z.div_mod_to_equations; lia).
    assert (H0 : v <? 10 = false) by (apply Z.ltb_ge; lia).
    destruct Hl as [-> | ->]; [change (Z.to_nat (1 + 6)) with 7%nat|change (Z.to_nat (1 + 7)) with 8%nat];
      cbn [decimal]; rewrite H0, H1, H2; rewrite !zlen_app; reflexivity. }
  split; [exact Hk|]. rewrite string_int, Hk by exact Hv. cbn [bind].
  destruct (out_new junk (zlen (text t v)) (zlen_nonneg _)) as (b & -> & Hb).
  pose proof (zlen_nonneg (text t v)). rewrite snprintf_front by lia. cbn [bind].
  rewrite firstn_all2 by (unfold zlen; lia). rewrite skipn_all2 by (unfold zlen in *; lia). reflexivity.
Qed.
Print Assumptions C49_integers.

(** Into a buffer of [n] bytes: as much of the text as fits, terminated; the
    bytes after it are left alone. *)
Theorem C49_integers_buffer other junk t a v n b : in_type t v -> 0 < n <= zlen b ->
  exists k, au_string_len other (set_u t a v) = Ok k /\
  let s := firstn (Z.to_nat (n - 1)) (text t v) in
  au_string other junk (set_u t a v) n (Some b) = Ok (s ++ [0] ++ skipn (length s + 1) b, k).
Proof.
  intros Hv Hn. eexists. split; [apply string_len_int; exact Hv|]. cbv zeta.
  rewrite string_int, string_len_int by exact Hv. cbn [bind out_buffer].
  rewrite snprintf_front by lia. reflexivity.
Qed.
Print Assumptions C49_integers_buffer.

(** Finding: for unsigned 8 bit numbers below 100 the size is that of the
    decimal numeral, and the text is cut off. *)
Theorem C49_uint8_refuted : exists other junk v, in_type U8 v /\
  au_string other junk (set_u U8 atom_fresh v) 0 None = Ok ([39; 0], 1) /\ text U8 v = [39; 5; 39].
Proof. exists (fun _ => []), [], 5. split; [vm_compute; easy|]. split; vm_compute; reflexivity. Qed.
Print Assumptions C49_uint8_refuted.

(** A number wider than 8 bits, made a string and put into a string atom, reads
    as the same number, in every type that has it. *)
Theorem C49_reads_back other junk t a v t' a' ptr s k :
  in_type t v -> t <> I8 -> t <> U8 -> in_type t' v -> t' <> I8 -> t' <> U8 ->
  au_string other junk (set_u t a v) 0 None = Ok (s ++ [0], k) ->
  get_u t' (set_string a' ptr s) = Ok v.
Proof.
  intros Hv H1 H2 Hv' H3 H4 E. rewrite (proj2 (C49_integers other junk t a v Hv (or_introl H2))) in E.
  injection E as E _. apply app_inj_tail in E. destruct E as [<- _].
  assert (Ht : text t v = numeral v) by (destruct t; easy). rewrite Ht.
  assert (Hl := strtol_numeral [] v [] (Forall_nil _) I). assert (Hu := strtoul_numeral [] v [] (Forall_nil _) I).
  cbn [app] in Hl, Hu. rewrite app_nil_r in Hl, Hu.
  assert (Hw := wrap_id t' v Hv'). unfold in_type in Hv'.
  change (8 - 1) with 7 in *. change (16 - 1) with 15 in *.
  unfold set_string. clear H1 H2 Hv Ht.
  destruct t'; try easy; cbn [get_u wrap signed width] in *; wr;
    unfold au_int16, au_int32, au_int64, au_uint16, au_uint32, au_uint64; redtag; cbn [of_string].
  all: match goal with
       | |- context [strtol] => rewrite Hl, Z.min_r, Z.max_r by lia
       | _ => rewrite Hu, Z.mod_small by lia
       end.
  all: f_equal; wr; Z.div_mod_to_equations; lia.
Qed.
Print Assumptions C49_reads_back.

(** Strings are themselves. *)
Theorem C49_strings other junk a ptr s :
  au_string_len other (set_string a ptr s) = Ok (zlen s) /\
  au_string other junk (set_string a ptr s) 0 None = Ok (s ++ [0], zlen s) /\
  (forall n b, zlen s < n <= zlen b ->
     au_string other junk (set_string a ptr s) n (Some b) =
     Ok (s ++ repeat 0 (Z.to_nat (n - zlen s)) ++ skipn (Z.to_nat n) b, zlen s)).
Proof.
  pose proof (zlen_nonneg s) as Hs.
  assert (P : forall n b, zlen s < n -> n <= zlen b ->
    strncpy b s n = Ok (s ++ repeat 0 (Z.to_nat (n - zlen s)) ++ skipn (Z.to_nat n) b)).
  { intros n b H1 H2. unfold strncpy.
    assert (F : firstn (Z.to_nat n) (s ++ repeat 0 (Z.to_nat n)) = s ++ repeat 0 (Z.to_nat (n - zlen s))).
    { rewrite firstn_app, firstn_all2 by (unfold zlen in *; lia). f_equal.
      replace (Z.to_nat n) with (Z.to_nat (n - zlen s) + length s)%nat at 2 by (unfold zlen in *; lia).
      rewrite repeat_app, firstn_app, firstn_all2 by (rewrite repeat_length; unfold zlen in *; lia).
      rewrite repeat_length. replace (Z.to_nat n - length s - Z.to_nat (n - zlen s))%nat with O by (unfold zlen in *; lia).
      now rewrite app_nil_r. }
    rewrite F, write_front.
    - rewrite <- app_assoc. do 4 f_equal. rewrite app_length, repeat_length. unfold zlen in *. lia.
    - rewrite zlen_app. unfold zlen at 2. rewrite repeat_length. lia. }
  split; [reflexivity|]. split.
  - unfold au_string. cbn [set_string au_string_len]. redtag. cbn [bind].
    destruct (out_new junk (zlen s) Hs) as (b & -> & Hb). rewrite P by lia. cbn [bind].
    rewrite (skipn_all2 b) by (unfold zlen in *; lia). replace (zlen s + 1 - zlen s) with 1 by lia. reflexivity.
  - intros n b Hn. unfold au_string. cbn [set_string au_string_len out_buffer]. redtag. cbn [bind out_buffer].
    now rewrite P by lia.
Qed.
Print Assumptions C49_strings.

(** Finding: a string that does not fit is not terminated. *)
Theorem C49_long_string_refuted : exists other junk s n b, n = zlen b /\
  au_string other junk (set_string atom_fresh 1 s) n (Some b) = Ok ([97; 98], 3) /\ s = [97; 98; 99].
Proof. exists (fun _ => []), [], [97; 98; 99], 2, [0; 0]. repeat split. Qed.
Print Assumptions C49_long_string_refuted.

(** true, false and nil. *)
Theorem C49_words other junk w p :
  (forall tg s, In (tg, s) [(84, [116; 114; 117; 101]); (70, [102; 97; 108; 115; 101]); (78, [110; 105; 108])] ->
    au_string_len other (Atom tg w p) = Ok (zlen s) /\
    au_string other junk (Atom tg w p) 0 None = Ok (s ++ [0], zlen s)).
Proof.
  intros tg s H. assert (Hk : au_string_len other (Atom tg w p) = Ok (zlen s)).
  { repeat destruct H as [H|H]; try easy; injection H as <- <-; reflexivity. }
  split; [exact Hk|]. unfold au_string. rewrite Hk. cbn [bind].
  destruct (out_new junk (zlen s) (zlen_nonneg _)) as (b & -> & Hb). pose proof (zlen_nonneg s).
  assert (P : snprintf b 0 (zlen s + 1) s = Ok (s ++ [0])).
  { rewrite snprintf_front by lia. rewrite firstn_all2 by (unfold zlen; lia).
    now rewrite skipn_all2 by (unfold zlen in *; lia). }
  repeat destruct H as [H|H]; try easy; injection H as <- <-; redtag; now rewrite P.
Qed.
Print Assumptions C49_words.

(** Blobs. *)
Lemma s8_signed b : is_byte b -> s8 b = signed_byte b.
Proof.
  unfold is_byte, signed_byte. intros H. destruct (b <? 128) eqn:E; [apply Z.ltb_lt in E|apply Z.ltb_ge in E];
    wr; Z.div_mod_to_equations; lia.
Qed.

Definition tail_text (d : bytes) : list Z := flat_map (fun b => [44; 32] ++ numeral (signed_byte b)) d.

Lemma blob_loop_size d : forall d1 n c, wf_bytes d ->
  blob_loop (length d) (d1 ++ d) (zlen d1) None n c = Ok (None, c + zlen (tail_text d)).
Proof.
  induction d as [|b d IH]; intros d1 n c Hd; cbn [length blob_loop].
  - change (zlen (tail_text [])) with 0. now rewrite Z.add_0_r.
  - inversion Hd; subst. rewrite rd_at. cbn [bind].
    replace (d1 ++ b :: d) with ((d1 ++ [b]) ++ d) by now rewrite <- app_assoc.
    replace (zlen d1 + 1) with (zlen (d1 ++ [b])) by (rewrite zlen_app; reflexivity).
    rewrite IH by assumption. rewrite s8_signed, fmt_int_numeral by assumption.
    f_equal. f_equal. unfold tail_text. cbn [flat_map]. rewrite !zlen_app, !zlen_cons. change (zlen (@nil Z)) with 0. lia.
Qed.
Lemma u64_small v : 0 <= v < 2^64 -> u64 v = v.
Proof. intros H. unfold u64. now apply Z.mod_small. Qed.

Lemma append_text l1 b2 n txt : zlen l1 + zlen txt < n -> n < 2^64 -> n <= zlen (l1 ++ b2) ->
  snprintf (l1 ++ b2) (zlen l1) (u64 (n - zlen l1)) txt =
  Ok ((l1 ++ txt) ++ [0] ++ skipn (length txt + 1) b2).
Proof.
  intros H1 H2 H3. pose proof (zlen_nonneg l1). pose proof (zlen_nonneg txt). rewrite zlen_app in H3.
  rewrite u64_small by lia. rewrite snprintf_at by lia. rewrite firstn_all2 by (unfold zlen in *; lia).
  now rewrite <- app_assoc.
Qed.

Lemma blob_loop_text d : forall d1 l1 b2 n, wf_bytes d ->
  zlen l1 + zlen (tail_text d) < n -> n < 2^64 -> n <= zlen (l1 ++ b2) ->
  exists b2', blob_loop (length d) (d1 ++ d) (zlen d1) (Some (l1 ++ b2)) n (zlen l1) =
    Ok (Some ((l1 ++ tail_text d) ++ b2'), zlen (l1 ++ tail_text d)) /\ 
    zlen ((l1 ++ tail_text d) ++ b2') = zlen (l1 ++ b2) /\
    (forall m, (Z.to_nat n <= m)%nat -> skipn m ((l1 ++ tail_text d) ++ b2') = skipn m (l1 ++ b2)).
Proof.
  induction d as [|b d IH]; intros d1 l1 b2 n Hd H1 H2 H3; cbn [length blob_loop].
  - exists b2. change (tail_text []) with (@nil Z). now rewrite app_nil_r.
  - inversion Hd; subst. rewrite rd_at. cbn [bind]. rewrite s8_signed, fmt_int_numeral by assumption.
    set (t := 44 :: 32 :: numeral (signed_byte b)).
    assert (Ht : tail_text (b :: d) = t ++ tail_text d) by reflexivity.
    rewrite Ht in *. rewrite zlen_app in H1. pose proof (zlen_nonneg (tail_text d)). pose proof (zlen_nonneg t).
    rewrite append_text by (try assumption; lia). cbn [bind].
    replace (d1 ++ b :: d) with ((d1 ++ [b]) ++ d) by now rewrite <- app_assoc.
    replace (zlen d1 + 1) with (zlen (d1 ++ [b])) by (rewrite zlen_app; reflexivity).
    assert (Hlen : zlen ((l1 ++ t) ++ [0] ++ skipn (length t + 1) b2) = zlen (l1 ++ b2)).
    { rewrite zlen_app in H3. rewrite !zlen_app. change (zlen [0]) with 1. unfold zlen in *. rewrite skipn_length. lia. }
    destruct (IH (d1 ++ [b]) (l1 ++ t) ([0] ++ skipn (length t + 1) b2) n) as (b2' & E & L & S).
    + assumption.
    + rewrite zlen_app. lia.
    + exact H2.
    + rewrite Hlen. exact H3.
    + exists b2'. rewrite (zlen_app l1 t) in E. unfold bytes in *. rewrite E. clear E. rewrite <- (app_assoc l1 t (tail_text d)) in *.
      split; [reflexivity|]. split; [rewrite L; exact Hlen|]. intros m Hm. rewrite S by exact Hm.
      rewrite (app_assoc (l1 ++ t) [0]).
      assert (Hm' : (length ((l1 ++ t) ++ [0%Z]) <= m)%nat).
      { rewrite !app_length. cbn [length]. unfold zlen in *. lia. }
      rewrite skipn_app, skipn_all2 by exact Hm'. cbn [app].
      rewrite (skipn_app m l1), (skipn_all2 l1) by (rewrite !app_length in Hm'; lia). cbn [app].
      rewrite !app_length in *. cbn [length] in *.
      replace (m - length l1)%nat with ((m - (length l1 + length t + 1)) + (length t + 1))%nat by lia.
      clear. generalize (length t + 1)%nat. generalize (m - (length l1 + length t + 1))%nat. intros j k. revert b2.
      induction k as [|k IH]; intros b2; [now rewrite Nat.add_0_r|].
      rewrite Nat.add_succ_r. destruct b2; cbn [skipn]; [now rewrite skipn_nil|apply IH].
Qed.

Lemma blob_head b d : is_byte b -> wf_bytes d -> zlen (b :: d) < 2^31 ->
  forall rest, exists l, be_bytes 4 (zlen (b :: d)) ++ (b :: d) ++ rest = l ++ d ++ rest /\ zlen l = 5 /\
  rd32 (be_bytes 4 (zlen (b :: d)) ++ (b :: d) ++ rest) 0 = Ok (zlen (b :: d)) /\
  rd (be_bytes 4 (zlen (b :: d)) ++ (b :: d) ++ rest) 4 = Ok b /\
  Z.to_nat (s32 (zlen (b :: d)) - 1) = length d.
Proof.
  intros Hb Hd Hl rest. set (h := be_bytes 4 (zlen (b :: d))).
  assert (Hh : zlen h = 4) by apply zlen_be. pose proof (zlen_nonneg d).
  exists (h ++ [b]). split; [now rewrite <- app_assoc|]. split; [rewrite zlen_app, Hh; reflexivity|].
  split; [|split].
  - assert (E := rd32_be [] (zlen (b :: d)) ((b :: d) ++ rest)). cbn [app] in E.
    change (zlen (@nil Z)) with 0 in E. unfold h. cbn [app]. rewrite E. f_equal. unfold u32. apply Z.mod_small.
    rewrite zlen_cons in *. lia.
  - rewrite <- Hh at 1. exact (rd_at h b (d ++ rest)).
  - rewrite s32_small by (rewrite zlen_cons in *; lia). rewrite zlen_cons. unfold zlen. lia.
Qed.

(** A serialized or unserialized blob that is not empty, with enough room. *)
Theorem C49_blobs b d n buf : is_byte b -> wf_bytes d -> zlen (b :: d) < 2^31 ->
  fmt_blob None n (be_bytes 4 (zlen (b :: d)) ++ b :: d) = Ok (None, zlen (blob_text (b :: d))) /\
  (zlen (blob_text (b :: d)) < n -> n < 2^64 -> n <= zlen buf ->
   exists rest, fmt_blob (Some buf) n (be_bytes 4 (zlen (b :: d)) ++ b :: d) =
     Ok (Some (blob_text (b :: d) ++ [0] ++ rest), zlen (blob_text (b :: d))) /\
     zlen (blob_text (b :: d) ++ [0] ++ rest) = zlen buf /\
     (forall m, (Z.to_nat n <= m)%nat -> skipn m (blob_text (b :: d) ++ [0] ++ rest) = skipn m buf)).
Proof.
  intros Hb Hd Hl. destruct (blob_head b d Hb Hd Hl []) as (l & E0 & Hl5 & E1 & E2 & E3).
  rewrite !app_nil_r in *. unfold fmt_blob.
  assert (Htx : blob_text (b :: d) = (([98; 108; 111; 98; 40] ++ numeral (signed_byte b)) ++ tail_text d) ++ [41]).
  { unfold blob_text, tail_text. now rewrite <- !app_assoc. }
  rewrite E1. cbn [bind]. rewrite E2. cbn [bind]. rewrite s8_signed, fmt_int_numeral by exact Hb.
  rewrite E3, E0. change 5 with (5 + 0). rewrite <- Hl5, Z.add_0_r.
  set (t := [98; 108; 111; 98; 40] ++ numeral (signed_byte b)) in *. rewrite Htx. split.
  - rewrite blob_loop_size by exact Hd. cbn [bind]. f_equal. f_equal. rewrite !zlen_app. reflexivity.
  - intros Hn Hn64 Hbuf. rewrite !zlen_app in Hn. change (zlen [41]) with 1 in Hn.
    pose proof (zlen_nonneg t). pose proof (zlen_nonneg (tail_text d)).
    rewrite snprintf_front by lia. cbn [bind]. rewrite firstn_all2 by (unfold zlen in *; lia).
    assert (Hlen : zlen (t ++ [0] ++ skipn (length t + 1) buf) = zlen buf).
    { rewrite !zlen_app. change (zlen [0]) with 1. unfold zlen in *. rewrite skipn_length. lia. }
    destruct (blob_loop_text d l t ([0] ++ skipn (length t + 1) buf) n Hd ltac:(lia) Hn64 ltac:(lia))
      as (b2 & E & L & HS).
    unfold bytes in *. rewrite E. clear E. cbn [bind]. rewrite append_text; [|rewrite zlen_app; change (zlen [41]) with 1; lia|exact Hn64|rewrite L; lia].
    cbn [bind]. exists (skipn (length [41] + 1) b2).
    split; [f_equal; f_equal; rewrite !zlen_app; reflexivity|].
    assert (Hb2 : (2 <= length b2)%nat).
    { rewrite Hlen, !zlen_app in L. unfold zlen in *. lia. }
    split.
    + rewrite Hlen in L. cbn [length Nat.add]. unfold zlen in *. rewrite ?app_length in *.
      rewrite skipn_length. cbn [length]. lia.
    + intros m Hm. specialize (HS m Hm). destruct b2 as [|x [|y b2]]; [cbn in Hb2; lia|cbn in Hb2; lia|].
      cbn [length Nat.add skipn]. rewrite <- app_assoc.
      rewrite skipn_app, skipn_all2 in HS by (rewrite app_length; unfold zlen in *; lia).
      rewrite skipn_app, skipn_all2 by (rewrite app_length; unfold zlen in *; lia). cbn [app] in *.
      assert (Hm2 : exists j, (m - length (t ++ tail_text d) = S (S j))%nat).
      { exists (m - length (t ++ tail_text d) - 2)%nat. rewrite app_length. unfold zlen in *. lia. }
      destruct Hm2 as (j & Hj). rewrite Hj in *. cbn [skipn] in *. rewrite HS.
      change (t ++ 0 :: skipn (length t + 1) buf) with (t ++ [0] ++ skipn (length t + 1) buf).
      rewrite app_assoc, skipn_app, skipn_all2 by (rewrite app_length; cbn [length]; unfold zlen in *; lia).
      cbn [app]. rewrite app_length. cbn [length].
      replace m with ((m - (length t + 1)) + (length t + 1))%nat at 2 by (unfold zlen in *; lia).
      clear. generalize (m - (length t + 1))%nat as i. generalize (length t + 1)%nat as k.
      intros k i. revert buf.
      induction k as [|k IH]; intros buf; [now rewrite Nat.add_0_r|].
      rewrite Nat.add_succ_r. destruct buf; cbn [skipn]; [now rewrite skipn_nil|apply IH].
Qed.
Print Assumptions C49_blobs.

(** Serialized atoms. *)
Theorem C49_serialized_integers other junk t a v buf x : in_type t v -> t <> U8 \/ 100 <= v ->
  shows_value buf x (raw_value (set_u t a v)) ->
  as_string_len other buf (as_tt x) (as_data x) = Ok (zlen (text t v)) /\
  as_string other junk buf (as_tt x) (as_data x) 0 None = Ok (text t v ++ [0], zlen (text t v)).
Proof.
  intros Hv Ht [Htt Hs]. destruct (raw_set t a v) as (n & E & Hn & Hw). rewrite E in Htt, Hs.
  destruct (slice_inv _ _ _ _ Hs) as (l1 & l2 & -> & <- & _).
  replace (as_tt x) with (tag_of t) by (rewrite Htt; now destruct t). rewrite (wrap_id t v Hv) in Hw.
  replace (enc_value (match esize t with 4%nat => VNum32 (tag_of t) n | _ => VNum64 (tag_of t) n end))
    with (be_bytes (esize t) n) by now destruct t.
  assert (H4 : esize t = 4%nat -> rd32 (l1 ++ be_bytes 4 n ++ l2) (zlen l1) = Ok n).
  { intros E'. rewrite rd32_be. f_equal. rewrite E' in Hn. apply Z.mod_small. exact Hn. }
  assert (H8 : esize t = 8%nat -> rd64 (l1 ++ be_bytes 8 n ++ l2) (zlen l1) = Ok n).
  { intros E'. rewrite rd64_be. f_equal. rewrite E' in Hn. apply Z.mod_small. exact Hn. }
  assert (Hk : as_string_len other (l1 ++ be_bytes (esize t) n ++ l2) (tag_of t) (zlen l1) =
    Ok (zlen (text t v))).
  { assert (HU : t = U8 -> zlen (numeral v) = 3).
    { intros ->. destruct Ht as [Ht|Ht]; [easy|].
      assert (Hx := string_len_int (fun _ => []) U8 atom_fresh v Hv).
      rewrite (proj1 (C49_integers (fun _ => []) [] U8 atom_fresh v Hv (or_intror Ht))) in Hx.
      injection Hx as Hx. rewrite <- Hx. reflexivity. }
    unfold as_string_len. destruct t; cbn [esize tag_of wrap] in *; redtag;
      (rewrite (H4 eq_refl) || rewrite (H8 eq_refl)); cbn [bind]; rewrite ?fmt_int_numeral; f_equal;
      cbn [text]; try reflexivity; try (rewrite Hw; reflexivity).
    - rewrite Hw. change (zlen [39; v mod 2 ^ 8; 39]) with 3. now apply HU.
    - do 2 f_equal. unfold in_type in *. cbn in Hn. revert Hw. unfold u32. intros <-. symmetry. now apply Z.mod_small.
    - do 2 f_equal. cbn in Hn. revert Hw. unfold u64. intros <-. symmetry. now apply Z.mod_small. }
  split; [exact Hk|]. unfold as_string. rewrite Hk. cbn [bind].
  destruct (out_new junk (zlen (text t v)) (zlen_nonneg _)) as (b & -> & Hb).
  pose proof (zlen_nonneg (text t v)).
  assert (P : snprintf b 0 (zlen (text t v) + 1) (text t v) = Ok (text t v ++ [0])).
  { rewrite snprintf_front by lia. rewrite firstn_all2 by (unfold zlen; lia).
    now rewrite skipn_all2 by (unfold zlen in *; lia). }
  destruct t; cbn [esize tag_of wrap] in *; redtag;
    (rewrite (H4 eq_refl) || rewrite (H8 eq_refl)); cbn [bind]; rewrite ?fmt_int_numeral;
    match goal with |- bind (snprintf _ _ _ ?y) _ = _ => match type of P with snprintf _ _ _ ?z = _ =>
      replace y with z; [rewrite P; reflexivity|] end end; cbn [text]; try (rewrite Hw; reflexivity).
  - rewrite <- Hw. unfold quoted_char, fmt_char. cbn [app]. f_equal. f_equal. wr. Z.div_mod_to_equations; lia.
  - f_equal. revert Hw. unfold u32. intros <-. now apply Z.mod_small.
Qed.
Print Assumptions C49_serialized_integers.

Theorem C49_serialized_strings other junk s buf x : nonul s ->
  shows_value buf x (VStr s) ->
  as_string_len other buf (as_tt x) (as_data x) = Ok (zlen s) /\
  as_string other junk buf (as_tt x) (as_data x) 0 None = Ok (s ++ [0], zlen s).
Proof.
  intros Hz [Htt Hx]. destruct (slice_inv _ _ _ _ Hx) as (l1 & l2 & Ebuf & El & _).
  assert (Hrd : rdstr buf (as_data x) = Ok s).
  { rewrite Ebuf, <- El. cbn [enc_value]. unfold pad_str.
    assert (Hp : 0 < 4 - zlen s mod 4) by (pose proof (Z.mod_pos_bound (zlen s) 4); lia).
    unfold zeros. destruct (Z.to_nat (4 - zlen s mod 4)) as [|k] eqn:Ek; [lia|].
    cbn [repeat]. rewrite <- app_assoc. cbn [app]. now apply rdstr_at. }
  cbn [vtag] in Htt. rewrite Htt.
  assert (Hk : as_string_len other buf 115 (as_data x) = Ok (zlen s)).
  { unfold as_string_len. redtag. rewrite Hrd. reflexivity. }
  split; [exact Hk|].
  destruct (C49_strings (fun _ => []) junk atom_fresh 1 s) as (_ & E & _).
  unfold as_string, au_string in *. rewrite Hk. cbn [bind].
  cbn [set_string atom_fresh au_string_len] in E. revert E. redtag.
  destruct (out_buffer junk None 0 (zlen s)) as [b nn]. rewrite Hrd. cbn [bind]. intros E. exact E.
Qed.
Print Assumptions C49_serialized_strings.

(** The hypotheses are met, and the texts are what one expects. *)
Example C49_hypotheses :
  in_type I16 (-12) /\ text I16 (-12) = str "-12" /\ text I8 97 = str "'a'" /\
  blob_text [1; 255; 16] = str "blob(1, -1, 16)" /\
  au_string (fun _ => []) [7; 7] (set_u I16 atom_fresh (-12)) 0 None = Ok (str "-12" ++ [0], 3) /\
  shows_value [9; 255; 255; 255; 244] (AS 1 117) (VNum32 117 4294967284) /\
  as_string (fun _ => []) [] [9; 255; 255; 255; 244] 117 1 0 None = Ok (str "-12" ++ [0], 3) /\
  fmt_blob (Some (repeat 7 20)) 20 [0; 0; 0; 3; 1; 255; 16] =
    Ok (Some (str "blob(1, -1, 16)" ++ [0] ++ [7; 7; 7; 7]), 15).
Proof. split; [cbn; lia|]. repeat split; vm_compute; reflexivity. Qed.
