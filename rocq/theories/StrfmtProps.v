(** C32: quoting. *)

From Coq Require Import ZArith List Bool Lia.
From Verif Require Import Base BaseProofs Bytes UtilModel StrfmtModel.
Import ListNotations.
Open Scope Z_scope.

(** * Specification *)

(** A string with a backslash before every double quote and backslash. *)
Definition quote (s : list Z) : list Z :=
  flat_map (fun c => if (c =? 34) || (c =? 92) then [92; c] else [c]) s.

(** Reading a string literal whose opening quote has been read: the characters
    up to the first quote that does not follow a backslash, with the
    backslashes removed, and what follows. *)
Fixpoint read_literal (l : list Z) : option (list Z * list Z) :=
  match l with
  | [] => None
  | c :: l1 =>
      if c =? 34 then Some ([], l1)
      else if c =? 92 then
        match l1 with
        | [] => None
        | d :: l2 => match read_literal l2 with Some (s, r) => Some (d :: s, r) | None => None end
        end
      else match read_literal l1 with Some (s, r) => Some (c :: s, r) | None => None end
  end.

(** * Lemmas *)

Ltac short H := exfalso; rewrite ?zlen_cons in H; change (zlen (@nil Z)) with 0 in H; lia.

Lemma is_meta_eq c : is_meta c = (c =? 34) || (c =? 92).
Proof. unfold is_meta, meta_chars. cbn [existsb]. now rewrite orb_false_r. Qed.

Fixpoint put_all (buf : bytes) (n i : Z) (l : list Z) : res bytes :=
  match l with
  | [] => Ok buf
  | c :: l' => do b <- put_if buf n i c; put_all b n (i + 1) l'
  end.

Lemma incr_ok i : i < 2^31 - 1 -> incr i = Ok (i + 1).
Proof. intros H. unfold incr. now rewrite (proj2 (Z.eqb_neq _ _)) by lia. Qed.

Lemma quote_cons c s : quote (c :: s) = (if is_meta c then [92; c] else [c]) ++ quote s.
Proof. unfold quote. cbn [flat_map]. now rewrite is_meta_eq. Qed.

Lemma quote_loop_put n s : forall buf i, i + zlen (quote s) < 2^31 ->
  quote_loop buf n s i = do b <- put_all buf n i (quote s); Ok (b, i + zlen (quote s)).
Proof.
  induction s as [|c s IH]; intros buf i Hi.
  - change (quote []) with (@nil Z). cbn [quote_loop put_all bind]. change (zlen (@nil Z)) with 0. now rewrite Z.add_0_r.
  - rewrite quote_cons in *. cbn [quote_loop]. pose proof (zlen_nonneg (quote s)).
    destruct (is_meta c).
    + rewrite zlen_app in Hi. change (zlen [92; c]) with 2 in Hi. cbn [app put_all].
      destruct (put_if buf n i 92) as [b| |] eqn:E1; cbn [bind]; try reflexivity.
      rewrite incr_ok by lia. cbn [bind].
      destruct (put_if b n (i + 1) c) as [b'| |]; cbn [bind]; try reflexivity.
      rewrite incr_ok by lia. cbn [bind]. rewrite IH by lia. rewrite !zlen_cons.
      destruct (put_all b' n (i + 1 + 1) (quote s)); cbn [bind]; try reflexivity. f_equal. f_equal. lia.
    + rewrite zlen_app in Hi. change (zlen [c]) with 1 in Hi. cbn [app put_all bind].
      destruct (put_if buf n i c) as [b| |]; cbn [bind]; try reflexivity.
      rewrite incr_ok by lia. cbn [bind]. rewrite IH by lia. rewrite !zlen_cons.
      destruct (put_all b n (i + 1) (quote s)); cbn [bind]; try reflexivity. f_equal. f_equal. lia.
Qed.

Lemma put_all_beyond n l : forall buf i, n <= i -> put_all buf n i l = Ok buf.
Proof.
  induction l as [|c l IH]; intros buf i Hi; cbn [put_all]; [reflexivity|].
  unfold put_if. rewrite (proj2 (Z.ltb_ge _ _)) by exact Hi. cbn [bind]. apply IH. lia.
Qed.
Lemma put_all_ok n l : forall b1 b2, zlen b1 + zlen l <= n -> n <= zlen b1 + zlen b2 ->
  put_all (b1 ++ b2) n (zlen b1) l = Ok (b1 ++ l ++ skipn (length l) b2).
Proof.
  induction l as [|c l IH]; intros b1 b2 H1 H2; cbn [put_all length app skipn]; [reflexivity|].
  rewrite zlen_cons in H1. pose proof (zlen_nonneg l). unfold put_if. rewrite (proj2 (Z.ltb_lt _ _)) by lia.
  destruct b2 as [|x b2]; [change (zlen (@nil Z)) with 0 in H2; lia|].
  change (b1 ++ x :: b2) with (b1 ++ [x] ++ b2). rewrite write_app by reflexivity. cbn [bind].
  rewrite app_assoc. rewrite zlen_cons in H2.
  replace (zlen b1 + 1) with (zlen (b1 ++ [c])) by (rewrite zlen_app; change (zlen [c]) with 1; lia).
  rewrite IH by (rewrite zlen_app; change (zlen [c]) with 1; lia).
  now rewrite <- app_assoc.
Qed.
Lemma put_all_app n l1 l2 : forall buf i,
  put_all buf n i (l1 ++ l2) = do b <- put_all buf n i l1; put_all b n (i + zlen l1) l2.
Proof.
  induction l1 as [|c l1 IH]; intros buf i; cbn [app put_all bind].
  - now rewrite zlen_nil, Z.add_0_r.
  - destruct (put_if buf n i c) as [b| |]; cbn [bind]; try reflexivity. rewrite IH, zlen_cons.
    now rewrite Z.add_assoc.
Qed.
(** What the loop leaves: the first [n] characters of the output. *)
Lemma put_all_0 buf n l : 0 <= n <= zlen buf ->
  put_all buf n 0 l = Ok (firstn (Z.to_nat n) l ++ skipn (length (firstn (Z.to_nat n) l)) buf).
Proof.
  intros Hn. rewrite <- (firstn_skipn (Z.to_nat n) l) at 1. rewrite put_all_app.
  set (l1 := firstn (Z.to_nat n) l).
  assert (H1 : zlen l1 <= n) by (unfold l1, zlen; rewrite firstn_length; lia).
  assert (E := put_all_ok n l1 [] buf). change (zlen (@nil Z)) with 0 in E. cbn [app] in E.
  rewrite E by (try exact H1; lia). cbn [bind].
  destruct (Z.le_gt_cases n (zlen l)) as [Hl|Hl].
  - assert (zlen l1 = n) by (unfold l1, zlen in *; rewrite firstn_length; lia).
    now rewrite put_all_beyond by lia.
  - rewrite (skipn_all2 l) by (unfold zlen in Hl; lia). reflexivity.
Qed.

Lemma count_meta_ok s : forall s1 s2 n,
  count_meta_loop (length s) (s1 ++ s ++ s2) (zlen s1) n = Ok (n + zlen (quote s) - zlen s).
Proof.
  induction s as [|c s IH]; intros s1 s2 n.
  - cbn [length count_meta_loop]. f_equal. change (zlen (quote [])) with 0. change (zlen (@nil Z)) with 0. lia.
  - cbn [length count_meta_loop app]. rewrite rd_at. cbn [bind].
    change (s1 ++ c :: s ++ s2) with (s1 ++ [c] ++ (s ++ s2)). rewrite app_assoc.
    replace (zlen s1 + 1) with (zlen (s1 ++ [c])) by (rewrite zlen_app; reflexivity).
    rewrite IH. f_equal. rewrite quote_cons, !zlen_app, zlen_cons.
    destruct (is_meta c); [change (zlen [92; c]) with 2|change (zlen [c]) with 1]; lia.
Qed.

Lemma quote_longer s : zlen s <= zlen (quote s).
Proof.
  induction s as [|c s IH]; [reflexivity|]. rewrite quote_cons, zlen_app, zlen_cons.
  destruct (is_meta c); [change (zlen [92; c]) with 2|change (zlen [c]) with 1]; lia.
Qed.
Lemma quote_nonul s : nonul s -> nonul (quote s).
Proof.
  induction 1 as [|c s Hc Hs IH]; [constructor|]. rewrite quote_cons. apply Forall_app. split; [|exact IH].
  destruct (is_meta c); repeat constructor; easy.
Qed.
Lemma s32_small v : 0 <= v < 2^31 -> s32 v = v.
Proof. intros H. unfold s32. rewrite Z.mod_small by lia. lia. Qed.

(** * Theorems *)

(** The quoted string between quotes reads back as the original. *)
Theorem C32_reads_back s rest : read_literal (quote s ++ 34 :: rest) = Some (s, rest).
Proof.
  induction s as [|c s IH]; [reflexivity|]. rewrite quote_cons.
  destruct (is_meta c) eqn:E; cbn [app read_literal].
  - cbn. now rewrite IH.
  - rewrite is_meta_eq in E. apply orb_false_iff in E. destruct E as [-> ->]. now rewrite IH.
Qed.
Print Assumptions C32_reads_back.

(** Without a buffer the size is returned. *)
Theorem C32_size n s : zlen (quote s) < 2^31 ->
  string_with_quoted_meta None n s = Ok (None, zlen (quote s)).
Proof.
  intros H. pose proof (quote_longer s). pose proof (zlen_nonneg s). unfold string_with_quoted_meta, count_meta.
  rewrite s32_small by lia.
  assert (E := count_meta_ok s [] [0] 0). cbn [app] in E. change (zlen (@nil Z)) with 0 in E.
  replace (Z.to_nat (zlen s)) with (length s) by (unfold zlen; lia). rewrite E. cbn [bind].
  rewrite s32_small by lia. f_equal. f_equal. lia.
Qed.
Print Assumptions C32_size.

Lemma quoted_meta_ok buf n s : 0 <= n <= zlen buf -> zlen (quote s) < 2^31 ->
  let l := firstn (Z.to_nat n) (quote s) in
  let i := zlen (quote s) in
  string_with_quoted_meta (Some buf) n s =
  do b <- write (l ++ skipn (length l) buf) (if i <? n then i else i - 1) [0]; Ok (Some b, i).
Proof.
  intros Hn Hq l i. unfold string_with_quoted_meta.
  rewrite quote_loop_put by (change (0 + zlen (quote s)) with (zlen (quote s)); exact Hq).
  rewrite put_all_0 by exact Hn. cbn [bind]. fold l. change (0 + zlen (quote s)) with i. now destruct (i <? n).
Qed.

(** With room for the terminator the buffer gets the quoted string, and the
    rest of it is left alone. *)
Theorem C32_fits buf n s : zlen (quote s) < n <= zlen buf -> zlen (quote s) < 2^31 ->
  string_with_quoted_meta (Some buf) n s =
  Ok (Some (quote s ++ [0] ++ skipn (length (quote s) + 1) buf), zlen (quote s)).
Proof.
  intros Hn Hq. pose proof (zlen_nonneg (quote s)). rewrite quoted_meta_ok by lia.
  rewrite (proj2 (Z.ltb_lt _ _)) by lia. rewrite firstn_all2 by (unfold zlen in *; lia).
  destruct (skipn (length (quote s)) buf) as [|x r] eqn:E.
  - assert (length (skipn (length (quote s)) buf) = 0%nat) by now rewrite E.
    rewrite skipn_length in H0. unfold zlen in *. lia.
  - change (x :: r) with ([x] ++ r). rewrite write_app by reflexivity. cbn [bind].
    replace (skipn (length (quote s) + 1) buf) with r; [reflexivity|].
    replace buf with (firstn (length (quote s)) buf ++ x :: r) by (rewrite <- E; apply firstn_skipn).
    rewrite skipn_app, skipn_all2 by (rewrite firstn_length; unfold zlen in *; lia).
    replace (length (quote s) + 1 - length (firstn (length (quote s)) buf))%nat with 1%nat;
      [reflexivity|rewrite firstn_length; unfold zlen in *; lia].
Qed.
Print Assumptions C32_fits.

(** Without room for the terminator only, the last character gives way. *)
Theorem C32_last_char buf s : s <> [] -> zlen (quote s) <= zlen buf -> zlen (quote s) < 2^31 ->
  string_with_quoted_meta (Some buf) (zlen (quote s)) s =
  Ok (Some (firstn (length (quote s) - 1) (quote s) ++ [0] ++ skipn (length (quote s)) buf), zlen (quote s)).
Proof.
  intros Hs Hb Hq. pose proof (zlen_nonneg (quote s)). rewrite quoted_meta_ok by lia.
  rewrite Z.ltb_irrefl. rewrite firstn_all2 by (unfold zlen in *; lia).
  assert (Hp : 0 < zlen (quote s)).
  { pose proof (quote_longer s). destruct s as [|c s]; [easy|]. rewrite zlen_cons in *. pose proof (zlen_nonneg s). lia. }
  destruct (exists_last (l := quote s)) as (q & c & E). { intros E. rewrite E in Hp. now cbn in Hp. }
  rewrite E. rewrite <- app_assoc.
  replace (zlen (q ++ [c]) - 1) with (zlen q) by (rewrite zlen_app; change (zlen [c]) with 1; lia).
  rewrite write_app by reflexivity. cbn [bind]. f_equal. f_equal.
  rewrite app_length. cbn [length]. replace (length q + 1 - 1)%nat with (length q) by lia.
  now rewrite firstn_app, Nat.sub_diag, firstn_all, app_nil_r.
Qed.
Print Assumptions C32_last_char.

(** In a buffer that is smaller than that, memory outside it is written to. *)
Theorem C32_too_small buf s : zlen (quote s) < 2^31 ->
  zlen buf < zlen (quote s) \/ zlen buf = 0 ->
  string_with_quoted_meta (Some buf) (zlen buf) s = Ub OOB.
Proof.
  intros Hq Hb. pose proof (zlen_nonneg buf). pose proof (zlen_nonneg (quote s)). rewrite quoted_meta_ok by lia.
  rewrite (proj2 (Z.ltb_ge _ _)) by lia. unfold write.
  set (l := firstn (Z.to_nat (zlen buf)) (quote s)).
  assert (zlen (l ++ skipn (length l) buf) = zlen buf).
  { rewrite zlen_app. unfold l, zlen in *. rewrite skipn_length, firstn_length. lia. }
  rewrite H1. change (zlen [0]) with 1.
  destruct (Z.eq_dec (zlen (quote s)) 0) as [E|E].
  - rewrite E. reflexivity.
  - rewrite (proj2 (Z.ltb_lt (zlen buf) _)) by lia. now rewrite orb_true_r.
Qed.
Print Assumptions C32_too_small.

(** With surrounding quotes: asked for the size first, and then given one byte
    more, it produces the literal.  Smaller buffers get a terminated prefix, as
    long as they hold the quoted characters. *)
Theorem C32_quoted_size tmp n s : zlen (quote s) < 2^31 ->
  quoted_string_with_quoted_meta tmp None n s = Ok (None, zlen (34 :: quote s ++ [34])).
Proof.
  intros H. unfold quoted_string_with_quoted_meta. rewrite C32_size by exact H. cbn [bind].
  rewrite zlen_cons, zlen_app. change (zlen [34]) with 1. f_equal. f_equal. lia.
Qed.
Print Assumptions C32_quoted_size.

Lemma rdstr_front s rest : nonul s -> rdstr (s ++ 0 :: rest) 0 = Ok s.
Proof.
  intros H. unfold rdstr. rewrite zlen_app, zlen_cons.
  pose proof (zlen_nonneg s). pose proof (zlen_nonneg rest).
  destruct (zlen s + (1 + zlen rest) <? 0) eqn:E; [apply Z.ltb_lt in E; lia|]. cbn [orb Z.ltb Z.compare].
  change (Z.to_nat 0) with 0%nat. cbn [skipn]. clear E.
  induction H as [|c s Hc Hs IH]; cbn [app cstr]; [reflexivity|].
  rewrite (proj2 (Z.eqb_neq c 0)) by exact Hc.
  rewrite zlen_cons in *. pose proof (zlen_nonneg s).
  destruct (cstr (s ++ 0 :: rest)) eqn:E; [|discriminate IH; lia].
  assert (Ok l = Ok s) by (apply IH; lia). congruence.
Qed.

Lemma write_front buf v : zlen v <= zlen buf -> write buf 0 v = Ok (v ++ skipn (length v) buf).
Proof.
  intros H. unfold write. cbn [Z.ltb Z.compare orb]. change (0 + zlen v) with (zlen v).
  rewrite (proj2 (Z.ltb_ge _ _)) by exact H. reflexivity.
Qed.

Theorem C32_quoted tmp buf n s : nonul s -> zlen (quote s) < 2^31 ->
  0 < n <= zlen buf -> zlen (quote s) <= n ->
  let text := firstn (Z.to_nat (n - 1)) (34 :: quote s ++ [34]) ++ [0] in
  quoted_string_with_quoted_meta tmp (Some buf) n s =
  Ok (Some (text ++ skipn (length text) buf), zlen (34 :: quote s ++ [34])).
Proof.
  intros Hs Hq Hn Hl text. unfold quoted_string_with_quoted_meta.
  rewrite (proj2 (Z.leb_gt _ _)) by lia.
  set (t := firstn (Z.to_nat n) (tmp ++ repeat 170 (Z.to_nat n))).
  assert (Ht : zlen t = n) by (unfold t, zlen; rewrite firstn_length, app_length, repeat_length; lia).
  assert (Hnn := quote_nonul s Hs).
  assert (Hk : zlen (34 :: quote s ++ [34]) = zlen (quote s) + 2).
  { rewrite zlen_cons, zlen_app. change (zlen [34]) with 1. lia. }
  assert (Hw : forall q, nonul q -> firstn (Z.to_nat (n - 1)) (34 :: q ++ [34]) = firstn (Z.to_nat (n - 1)) (34 :: quote s ++ [34]) ->
     (do t <- rdstr (q ++ 0 :: skipn (length (quote s) + 1) t) 0;
      do ' (b, _) <- quoted_string buf n t; Ok (Some b, zlen (quote s) + 2)) =
     Ok (Some (text ++ skipn (length text) buf), zlen (34 :: quote s ++ [34]))).
  { intros q Hqn Hf. rewrite rdstr_front by exact Hqn. cbn [bind]. unfold quoted_string, snprintf.
    rewrite (proj2 (Z.eqb_neq n 0)) by lia. rewrite Hf. fold text. rewrite write_front.
    2:{ unfold text. rewrite zlen_app. change (zlen [0]) with 1. unfold zlen at 1. rewrite firstn_length. lia. }
    cbn [bind]. now rewrite Hk. }
  destruct (Z.eq_dec (zlen (quote s)) n) as [E|E].
  - assert (Hse : s <> []) by (intros ->; cbn in E; lia).
    clearbody t. assert (L := C32_last_char t s Hse ltac:(lia) Hq). rewrite E in L at 1. rewrite L. cbn [bind]. clear L.
    change ([0] ++ skipn (length (quote s)) t) with (0 :: skipn (length (quote s)) t).
    rewrite (skipn_all2 t) by (unfold zlen in *; lia).
    assert (Hsk : skipn (length (quote s) + 1) t = []) by (apply skipn_all2; unfold zlen in *; lia).
    specialize (Hw (firstn (length (quote s) - 1) (quote s))). rewrite Hsk in Hw. apply Hw.
    + rewrite <- (firstn_skipn (length (quote s) - 1) (quote s)) in Hnn. now apply Forall_app in Hnn.
    + assert (E2 : Z.to_nat (n - 1) = (length (quote s) - 1)%nat) by (unfold zlen in E; lia). rewrite E2.
      destruct (length (quote s) - 1)%nat as [|k] eqn:Ek; [reflexivity|]. rewrite !firstn_cons. f_equal.
      rewrite !firstn_app, firstn_firstn. rewrite (Nat.min_l k (S k)) by lia.
      rewrite firstn_length. replace (k - Nat.min (S k) (length (quote s)))%nat with O by lia.
      replace (k - length (quote s))%nat with O by lia. reflexivity.
  - rewrite C32_fits by lia. cbn [bind]. now apply Hw.
Qed.
Print Assumptions C32_quoted.

Theorem C32_quoted_too_small tmp buf n s : zlen (quote s) < 2^31 -> 0 <= n < zlen (quote s) \/ n = 0 ->
  quoted_string_with_quoted_meta tmp (Some buf) n s = Ub OOB.
Proof.
  intros Hq Hn. unfold quoted_string_with_quoted_meta. destruct (n <=? 0) eqn:E; [reflexivity|]. apply Z.leb_gt in E.
  set (t := firstn (Z.to_nat n) (tmp ++ repeat 170 (Z.to_nat n))).
  assert (Ht : zlen t = n) by (unfold t, zlen; rewrite firstn_length, app_length, repeat_length; lia).
  rewrite <- Ht. now rewrite C32_too_small by lia.
Qed.
Print Assumptions C32_quoted_too_small.

(** osc_strfmt_addQuotesAndQuoteMeta: right when given a buffer with room for
    the terminator; the buffer it allocates itself never has it. *)
Lemma add_quotes_loop_ok s : forall b1 b2, zlen (quote s) <= zlen b2 ->
  add_quotes_loop (b1 ++ b2) s (zlen b1) =
  Ok (b1 ++ quote s ++ skipn (length (quote s)) b2, zlen b1 + zlen (quote s)).
Proof.
  induction s as [|c s IH]; intros b1 b2 H.
  - change (quote []) with (@nil Z). cbn [add_quotes_loop app skipn length]. change (zlen (@nil Z)) with 0.
    now rewrite Z.add_0_r.
  - rewrite quote_cons in *. cbn [add_quotes_loop]. pose proof (zlen_nonneg (quote s)).
    rewrite zlen_app in H. destruct (is_meta c).
    + change (zlen [92; c]) with 2 in H.
      destruct b2 as [|x [|y b2]]; [short H|short H|]. rewrite !zlen_cons in H.
      change (b1 ++ x :: y :: b2) with (b1 ++ [x] ++ (y :: b2)). rewrite write_app by reflexivity. cbn [bind].
      rewrite app_assoc. change (y :: b2) with ([y] ++ b2).
      replace (zlen b1 + 1) with (zlen (b1 ++ [92])) by (rewrite zlen_app; reflexivity).
      rewrite write_app by reflexivity. cbn [bind].
      replace (zlen (b1 ++ [92]) + 1) with (zlen (b1 ++ [92; c])) by (rewrite !zlen_app, ?zlen_cons; change (zlen (@nil Z)) with 0; lia).
      replace ((b1 ++ [92]) ++ [c] ++ b2) with ((b1 ++ [92; c]) ++ b2) by (now rewrite <- !app_assoc).
      rewrite IH by lia. rewrite !zlen_app, <- !app_assoc. cbn [length app Nat.add skipn]. f_equal. f_equal.
      rewrite ?zlen_cons. change (zlen (@nil Z)) with 0. lia.
    + change (zlen [c]) with 1 in H. destruct b2 as [|x b2]; [short H|]. rewrite zlen_cons in H. cbn [bind].
      change (b1 ++ x :: b2) with (b1 ++ [x] ++ b2). rewrite write_app by reflexivity. cbn [bind].
      replace (zlen b1 + 1) with (zlen (b1 ++ [c])) by (rewrite zlen_app; reflexivity).
      rewrite app_assoc, IH by lia. rewrite !zlen_app, <- !app_assoc. cbn [length app Nat.add skipn].
      f_equal. f_equal. rewrite ?zlen_cons. change (zlen (@nil Z)) with 0. lia.
Qed.

Lemma add_quotes_count s rest : count_meta (zlen s) (s ++ rest) = Ok (zlen (quote s) - zlen s).
Proof.
  unfold count_meta. replace (Z.to_nat (zlen s)) with (length s) by (unfold zlen; lia).
  assert (E := count_meta_ok s [] rest 0). cbn [app] in E. change (zlen (@nil Z)) with 0 in E. exact E.
Qed.

Theorem C32_add_quotes junk s rest out : zlen (34 :: quote s ++ [34; 0]) <= zlen out ->
  add_quotes_and_quote_meta junk (zlen s) (s ++ rest) (Some out) =
  Ok ((34 :: quote s ++ [34; 0]) ++ skipn (length (quote s) + 3) out, zlen (34 :: quote s ++ [34])).
Proof.
  intros H. unfold add_quotes_and_quote_meta. rewrite add_quotes_count. cbn [bind].
  rewrite zlen_cons, zlen_app in H. change (zlen [34; 0]) with 2 in H. pose proof (zlen_nonneg (quote s)).
  destruct out as [|x out]; [short H|]. rewrite zlen_cons in H.
  change (write (x :: out) 0 [34]) with (write ([] ++ [x] ++ out) (zlen (@nil Z)) [34]).
  rewrite write_app by reflexivity. cbn [bind].
  assert (Hsl := slice_app [] s rest). cbn [app] in Hsl. change (zlen (@nil Z)) with 0 in Hsl.
  rewrite Hsl. cbn [bind]. change ([] ++ [34] ++ out) with ([34] ++ out). change 1 with (zlen [34]) at 1.
  rewrite add_quotes_loop_ok by lia. cbn [bind].
  set (r := skipn (length (quote s)) out).
  assert (Hr : zlen r = zlen out - zlen (quote s)) by (unfold r, zlen in *; rewrite skipn_length; lia).
  assert (Hrs : skipn 2 r = skipn (length (quote s) + 3) (x :: out)).
  { replace (length (quote s) + 3)%nat with (S (length (quote s) + 2)) by lia. cbn [skipn].
    unfold r. clear. revert out. induction (length (quote s)) as [|k IH]; intros out; [reflexivity|].
    destruct out; cbn [skipn Nat.add]; [reflexivity|apply IH]. }
  rewrite <- Hrs. clearbody r. destruct r as [|y [|z r]]; [short Hr|short Hr|].
  replace ([34] ++ quote s ++ y :: z :: r) with (([34] ++ quote s) ++ [y] ++ (z :: r)) by now rewrite <- !app_assoc.
  replace (zlen [34] + zlen (quote s)) with (zlen ([34] ++ quote s)) by now rewrite zlen_app.
  rewrite write_app by reflexivity. cbn [bind].
  replace (([34] ++ quote s) ++ [34] ++ z :: r) with (([34] ++ quote s ++ [34]) ++ [z] ++ r) by now rewrite <- !app_assoc.
  replace (zlen ([34] ++ quote s) + 1) with (zlen ([34] ++ quote s ++ [34])) by (rewrite !zlen_app, ?zlen_cons; change (zlen (@nil Z)) with 0; lia).
  rewrite write_app by reflexivity. cbn [bind skipn]. f_equal. f_equal.
  - cbn [app]. rewrite <- !app_assoc. reflexivity.
  - rewrite zlen_cons, zlen_app. change (zlen [34]) with 1. lia.
Qed.
Print Assumptions C32_add_quotes.

Theorem C32_add_quotes_refuted junk s rest :
  add_quotes_and_quote_meta junk (zlen s) (s ++ rest) None = Ub OOB.
Proof.
  unfold add_quotes_and_quote_meta. rewrite add_quotes_count. cbn [bind].
  pose proof (zlen_nonneg (quote s)). pose proof (zlen_nonneg s).
  replace (zlen s + 2 + (zlen (quote s) - zlen s)) with (zlen (quote s) + 2) by lia.
  set (out := firstn (Z.to_nat (zlen (quote s) + 2)) (junk ++ repeat 170 (Z.to_nat (zlen (quote s) + 2)))).
  assert (Ho : zlen out = zlen (quote s) + 2) by (unfold out, zlen; rewrite firstn_length, app_length, repeat_length; lia).
  clearbody out. destruct out as [|x out]; [short Ho|]. rewrite zlen_cons in Ho.
  change (write (x :: out) 0 [34]) with (write ([] ++ [x] ++ out) (zlen (@nil Z)) [34]).
  rewrite write_app by reflexivity. cbn [bind].
  assert (Hsl := slice_app [] s rest). cbn [app] in Hsl. change (zlen (@nil Z)) with 0 in Hsl.
  rewrite Hsl. cbn [bind]. change ([] ++ [34] ++ out) with ([34] ++ out). change 1 with (zlen [34]) at 1.
  rewrite add_quotes_loop_ok by lia. cbn [bind].
  set (r := skipn (length (quote s)) out).
  assert (Hr : zlen r = 1) by (unfold r, zlen in *; rewrite skipn_length; lia).
  clearbody r. destruct r as [|y [|z r]]; [short Hr| |rewrite !zlen_cons in Hr; pose proof (zlen_nonneg r); lia].
  replace ([34] ++ quote s ++ [y]) with (([34] ++ quote s) ++ [y] ++ []) by now rewrite <- !app_assoc.
  replace (zlen [34] + zlen (quote s)) with (zlen ([34] ++ quote s)) by now rewrite zlen_app.
  rewrite write_app by reflexivity. cbn [bind]. unfold write at 1. rewrite !zlen_app.
  change (zlen [34]) with 1. change (zlen (@nil Z)) with 0. change (zlen [0]) with 1.
  rewrite (proj2 (Z.ltb_lt _ (1 + zlen (quote s) + 1 + 1))) by lia. now rewrite orb_true_r.
Qed.
Print Assumptions C32_add_quotes_refuted.

(** osc_strfmt_strlenPadded: room for the terminator, up to a multiple of four. *)
Theorem C05_strlen_padded s :
  strlen_padded s mod 4 = 0 /\ zlen s < strlen_padded s <= zlen s + 4.
Proof.
  unfold strlen_padded. pose proof (zlen_nonneg s). rewrite Z.rem_mod_nonneg by lia.
  destruct (zlen s mod 4 =? 0) eqn:E; [apply Z.eqb_eq in E|apply Z.eqb_neq in E]; Z.div_mod_to_equations; lia.
Qed.
Print Assumptions C05_strlen_padded.

(** a, quote, b, backslash: seven bytes hold the quoted string. *)
Example C32_hypotheses :
  quote [97; 34; 98; 92] = [97; 92; 34; 98; 92; 92] /\
  string_with_quoted_meta (Some (repeat 1 8)) 7 [97; 34; 98; 92] = Ok (Some [97; 92; 34; 98; 92; 92; 0; 1], 6) /\
  string_with_quoted_meta (Some (repeat 1 5)) 5 [97; 34; 98; 92] = Ub OOB /\
  quoted_string_with_quoted_meta [] (Some (repeat 1 9)) 9 [97; 34; 98; 92] = Ok (Some [34; 97; 92; 34; 98; 92; 92; 34; 0], 8).
Proof. repeat split; vm_compute; reflexivity. Qed.
