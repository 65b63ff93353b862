(** C101: tokenize. *)

From Coq Require Import String ZArith List Bool Lia.
From Verif Require Import Base Text BaseProofs SerialModel AtomUModel ExprModel ScanModel ExprParseModel ListTextModel TokenizeModel TokenizeSpec.
From Verif Require ScanProofs ExprParseProps ListTextSpec ListTextProps FnStrSpec FnStrProofs StrfmtProps.
Import ListNotations.
Open Scope Z_scope.

(** * The loop *)

(** Tokens as the scanner makes them. *)
Definition proper (t : etoken) : Prop := (exists a, valued t a) \/ (exists s, shown_as t s).

Lemma valued_atom t a : valued t a <-> token_atom t = Some a.
Proof.
  split.
  - intros H. destruct H; subst; reflexivity.
  - destruct t; cbn [token_atom]; try discriminate; intros H; injection H as <-; now constructor.
Qed.
Lemma shown_string t s : shown_as t s -> token_atom t = None /\ token_string t = s.
Proof.
  intros [| |s' t' Hn Hi]; [easy|easy|]. unfold symbols in Hi. cbn [In] in Hi.
  repeat (destruct Hi as [Hi|Hi]; [injection Hi as <- <-; try (exfalso; now apply Hn); split; reflexivity|]). easy.
Qed.

Lemma slot_done (done rest : list atom) : slot (done ++ rest) (zlen done) = match rest with [] => None | _ => Some (zlen done) end.
Proof.
  unfold slot. rewrite zlen_app. destruct rest as [|r rest].
  - change (zlen []) with 0. now rewrite (proj2 (Z.leb_le _ _)) by lia.
  - rewrite zlen_cons. pose proof (zlen_nonneg rest). now rewrite (proj2 (Z.leb_gt _ _)) by lia.
Qed.
Lemma set_done (done rest : list atom) x a : set_slot (done ++ x :: rest) (Some (zlen done)) a = Ok ((done ++ [a]) ++ rest).
Proof.
  unfold set_slot. rewrite zlen_app, zlen_cons. pose proof (zlen_nonneg rest). pose proof (zlen_nonneg done).
  rewrite (proj2 (Z.ltb_ge _ _)) by lia. rewrite (proj2 (Z.leb_gt _ _)) by lia. cbn [orb].
  f_equal. unfold zlen. rewrite Nat2Z.id. rewrite firstn_app, Nat.sub_diag, firstn_all. cbn [firstn]. rewrite app_nil_r.
  rewrite skipn_app, (skipn_all2 done) by lia. replace (length done + 1 - length done)%nat with 1%nat by lia. cbn [skipn app].
  now rewrite <- app_assoc.
Qed.
Lemma resize_done (done : list atom) k : resize (done ++ repeat atom_fresh k) (zlen done) = done.
Proof.
  unfold resize, zlen. rewrite Nat2Z.id, <- app_assoc, firstn_app, Nat.sub_diag, firstn_all. cbn [firstn]. apply app_nil_r.
Qed.
Lemma firstn_repeat {A} (x : A) : forall k n, (k <= n)%nat -> firstn k (repeat x n) = repeat x k.
Proof. induction k as [|k IH]; intros [|n] H; cbn; try reflexivity; try lia. now rewrite IH by lia. Qed.
Lemma resize_more (ar : list atom) : resize ar (zlen ar + 64) = ar ++ repeat atom_fresh 64.
Proof.
  unfold resize, zlen. rewrite firstn_app. rewrite firstn_all2 by lia. f_equal.
  replace (Z.to_nat (Z.of_nat (length ar) + 64) - length ar)%nat with 64%nat by lia. apply firstn_repeat; lia.
Qed.

Lemma loop_ok ts : Forall (fun x => proper (fst x)) ts ->
  forall done k m, zlen done + Z.of_nat k = 64 * m -> 1 <= m -> (done = [] /\ m = 1 \/ 64 * (m - 1) < zlen done) ->
  exists ms, lex_loop ts (done ++ repeat atom_fresh k) (64 * m) (zlen done) (slot (done ++ repeat atom_fresh k) (zlen done)) =
      Ok (done ++ ms) /\ length ms = length ts /\
    forall j x, nth_error ts j = Some x -> exists a, nth_error ms j = Some a /\ member_for (length done + j) x a.
Proof.
  induction 1 as [|[t own] ts Ht _ IH]; intros done k m Hk Hm Hd; cbn [lex_loop].
  - exists []. rewrite resize_done, app_nil_r. split; [reflexivity|]. split; [reflexivity|]. intros [|j] x Hj; discriminate.
  - cbn [fst] in Ht. rewrite slot_done.
    assert (D : exists a k' m', member_for (length done) (t, own) a /\
       zlen (done ++ [a]) + Z.of_nat k' = 64 * m' /\ 1 <= m' /\ 64 * (m' - 1) < zlen (done ++ [a]) /\
       (do ar <- match token_atom t with
                 | Some a => if own then Ok (done ++ repeat atom_fresh k)
                             else set_slot (done ++ repeat atom_fresh k) match repeat atom_fresh k with [] => None | _ => Some (zlen done) end a
                 | None => Ok (done ++ repeat atom_fresh k)
                 end;
        let '(ar, n) := if zlen done =? 64 * m then (resize ar (64 * m + 64), 64 * m + 64) else (ar, 64 * m) in
        do ar <- match token_atom t with
                 | Some _ => Ok ar
                 | None => set_slot ar (slot ar (zlen done)) (string_atom (token_string t))
                 end;
        lex_loop ts ar n (zlen done + 1) (slot ar (zlen done + 1))) =
       lex_loop ts ((done ++ [a]) ++ repeat atom_fresh k') (64 * m') (zlen (done ++ [a]))
         (slot ((done ++ [a]) ++ repeat atom_fresh k') (zlen (done ++ [a])))).
    { destruct k as [|k].
      - (* the array is full *)
        cbn [repeat]. rewrite app_nil_r. assert (E : zlen done = 64 * m) by lia. rewrite E, Z.eqb_refl.
        assert (R : resize done (64 * m + 64) = done ++ repeat atom_fresh 64) by (rewrite <- E; apply resize_more).
        assert (E' : 64 * (m + 1) = 64 * m + 64) by lia.
        assert (Hdr : dropped (length done) own) by (right; exists (Z.to_nat (m - 1)); unfold zlen in E; lia).
        destruct Ht as [(a & Va)|(s & Ss)].
        + exists atom_fresh, 63%nat, (m + 1). rewrite !zlen_app, E. change (zlen [atom_fresh]) with 1.
          split; [exact (member_dropped _ t own a Va Hdr)|]. split; [lia|]. split; [lia|]. split; [lia|].
          apply valued_atom in Va. rewrite Va. cbn [set_slot].
          replace (if own then Ok done else Ok done) with (@Ok (list atom) done) by now destruct own. cbn [bind].
          rewrite R, E', <- !app_assoc. cbn [app repeat]. reflexivity.
        + destruct (shown_string t s Ss) as [Es1 Es2].
          exists (string_atom s), 63%nat, (m + 1). rewrite !zlen_app, E. change (zlen [_]) with 1.
          split; [exact (member_symbol _ t own s Ss)|]. split; [lia|]. split; [lia|]. split; [lia|].
          rewrite Es1, Es2. cbn [bind]. rewrite R, E'. rewrite <- E at 1. rewrite slot_done. cbn [repeat]. rewrite set_done. reflexivity.
      - assert (E : zlen done < 64 * m) by lia. rewrite (proj2 (Z.eqb_neq _ _)) by lia.
        assert (Hnd : forall j, (length done <> 64 * (j + 1))%nat).
        { intros j Hj. destruct Hd as [[-> ->]|Hd]; [cbn in Hj; lia|]. unfold zlen in *. lia. }
        destruct Ht as [(a & Va)|(s & Ss)].
        + assert (Va' := Va). apply valued_atom in Va'. rewrite Va'. destruct own.
          * exists atom_fresh, k, m. rewrite !zlen_app. change (zlen [atom_fresh]) with 1.
            split; [apply (member_dropped _ t true a Va); now left|]. split; [lia|]. split; [lia|]. split; [destruct Hd as [[-> ->]|Hd]; [cbn; lia|lia]|].
            cbn [bind repeat]. rewrite <- app_assoc. reflexivity.
          * exists a, k, m. rewrite !zlen_app. change (zlen [a]) with 1.
            split; [apply (member_value _ t false a Va); intros [H|(j & H)]; [discriminate|exact (Hnd j H)]|].
            split; [lia|]. split; [lia|]. split; [destruct Hd as [[-> ->]|Hd]; [cbn; lia|lia]|].
            cbn [repeat]. rewrite set_done. cbn [bind]. reflexivity.
        + destruct (shown_string t s Ss) as [Es1 Es2]. exists (string_atom s), k, m. rewrite !zlen_app. change (zlen [_]) with 1.
          split; [exact (member_symbol _ t own s Ss)|]. split; [lia|]. split; [lia|]. split; [destruct Hd as [[-> ->]|Hd]; [cbn; lia|lia]|].
          rewrite Es1, Es2. cbn [bind]. rewrite slot_done. cbn [repeat]. rewrite set_done. reflexivity. }
    destruct D as (a & k' & m' & Da & D1 & D2 & D3 & ->).
    destruct (IH (done ++ [a]) k' m' D1 D2 (or_intror D3)) as (ms & -> & Lm & Hm').
    exists (a :: ms). split; [now rewrite <- app_assoc|]. split; [cbn [length]; lia|].
    intros [|j] x Hj; cbn [nth_error] in *.
    + injection Hj as <-. exists a. rewrite Nat.add_0_r. now split.
    + destruct (Hm' j x Hj) as (b & Hb & Mb). exists b. split; [exact Hb|]. rewrite app_length in Mb. cbn [length] in Mb.
      now replace (length done + S j)%nat with (length done + 1 + j)%nat by lia.
Qed.

(** * The scanner *)

Lemma pick_from {A} (rules : list (re * A)) s a n : pick rules s = Some (a, n) ->
  exists r, In (r, a) rules /\ longest r s = Some n.
Proof.
  induction rules as [|[r b] rules IH]; cbn [pick]; [discriminate|]. intros H.
  destruct (longest r s) as [k|] eqn:L.
  - destruct (pick rules s) as [[c m]|].
    + destruct (m <=? k)%nat.
      * injection H as <- <-. exists r. split; [now left|exact L].
      * destruct (IH H) as (r' & H1 & H2). exists r'. split; [now right|exact H2].
    + injection H as <- <-. exists r. split; [now left|exact L].
  - destruct (IH H) as (r' & H1 & H2). exists r'. split; [now right|exact H2].
Qed.

Section Scan.
Context (strtod : list Z -> Z) (junk : bytes).

(** The tokens are those of the scanner. *)
Lemma scan_same fuel : forall l s, e_scan strtod junk fuel l s = (do ts <- scan_own strtod junk fuel l s; Ok (map fst ts)).
Proof.
  induction fuel as [|fuel IH]; intros l [|c s]; cbn [e_scan scan_own bind map]; try reflexivity.
  destruct (pick _ _) as [[act n]|]; [|apply IH]. destruct (act _ l) as [[[l' r] k]| |]; cbn [bind]; try reflexivity.
  destruct r as [|t|]; cbn [bind map]; [apply IH| |reflexivity]. rewrite IH.
  destruct (scan_own _ _ _ _ _); reflexivity.
Qed.

Definition fine (act : eaction) : Prop := forall text l l' t k, act text l = Ok (l', Return t, k) -> proper t.
Lemma fine_returns t : (forall s, proper (t s)) -> fine (ereturns t).
Proof. intros H text l l' u k E. unfold ereturns in E. injection E as <- <- <-. apply H. Qed.
Lemma fine_skips : fine eskips.
Proof. intros text l l' t k E. discriminate. Qed.
Lemma fine_enters m : fine (enters m).
Proof. intros text l l' t k E. discriminate. Qed.
Lemma num_proper a : proper (TNum a).
Proof. left. eexists. constructor. Qed.
Lemma str_proper s : proper (TStr s).
Proof. left. eexists. now constructor. Qed.
Lemma symbols_proper : Forall (fun x => proper (snd x)) symbols.
Proof.
  apply Forall_forall. intros [s t] Hi. cbn [snd]. right.
  destruct t as [a|s1|s1|s1| |o|o|inc| | | | | | | | | | | | | | | | | |]; try (exists s; apply shown_symbol; [discriminate|exact Hi]).
  destruct o; try (exists s; apply shown_symbol; [discriminate|exact Hi]). exists (str "="). constructor.
Qed.
Lemma rules_fine m : Forall (fun x => fine (snd x)) (rules_of strtod junk m).
Proof.
  destruct m; cbn [rules_of].
  - unfold e_rules. apply Forall_app. split; [apply Forall_cons; [apply fine_skips|apply Forall_nil]|]. apply Forall_app. split.
    + apply Forall_forall. intros x Hx. apply in_map_iff in Hx. destruct Hx as ([s t] & <- & Hi). cbn [snd]. apply fine_returns.
      intros _. exact (proj1 (Forall_forall _ _) symbols_proper (s, t) Hi).
    + repeat apply Forall_cons; try apply Forall_nil; cbn [snd]; try apply fine_skips; try apply fine_enters;
        try (apply fine_returns; intros s; first [apply num_proper|apply str_proper]).
      * intros text l l' t k E. unfold act_letter in E. destruct (rd text 1); cbn [bind] in E; try discriminate.
        injection E as <- <- <-. apply num_proper.
      * apply fine_returns. intros _. right. eexists. constructor.
      * apply fine_returns. intros s. left. eexists. now constructor.
      * apply fine_returns. intros _. right. exists (str ";"). apply shown_symbol; [discriminate|]. unfold symbols. cbn [In]. tauto.
  - repeat apply Forall_cons; try apply Forall_nil; cbn [snd]; intros text l l' t k E.
    + unfold act_text in E. destruct (e_buf l); [|injection E as <- <- <-; apply str_proper].
      destruct (rdstr _ _); cbn [bind] in E; try discriminate. destruct (write _ _ _); cbn [bind] in E; discriminate.
    + unfold act_text_end in E. destruct (e_buf l); [|discriminate].
      destruct (rdstr _ _); cbn [bind] in E; try discriminate. injection E as <- <- <-. apply str_proper.
    + unfold act_text_escape in E. destruct (rd _ _); cbn [bind] in E; try discriminate.
      destruct (e_buf l); repeat (destruct (write _ _ _); cbn [bind] in E; try discriminate).
  - repeat apply Forall_cons; try apply Forall_nil; cbn [snd]; intros text l l' t k E.
    unfold act_quote in E. destruct (closing _ _ _ _); [|discriminate]. injection E as <- <- <-. left. eexists. now constructor.
Qed.

Lemma scan_proper fuel : forall l s ts, scan_own strtod junk fuel l s = Ok ts -> Forall (fun x => proper (fst x)) ts.
Proof.
  induction fuel as [|fuel IH]; intros l [|c s] ts; cbn [scan_own]; intros H;
    try (injection H as <-; apply Forall_nil); try discriminate.
  destruct (pick _ _) as [[act n]|] eqn:P; [|exact (IH _ _ _ H)]. destruct (pick_from _ _ _ _ P) as (r & Hr & _).
  destruct (act _ l) as [[[l' q] k]| |] eqn:A; cbn [bind] in H; try discriminate.
  destruct q as [|t|]; [exact (IH _ _ _ H)| |injection H as <-; apply Forall_nil].
  destruct (scan_own _ _ _ _ _) as [us| |] eqn:S; cbn [bind] in H; try discriminate. injection H as <-.
  apply Forall_cons; [|exact (IH _ _ _ S)]. cbn [fst].
  exact (proj1 (Forall_forall _ _) (rules_fine (e_mode l)) _ Hr _ _ _ _ _ A).
Qed.

(** Without a backslash the scanner makes no atom of its own. *)
Lemma scan_plain fuel : forall l s ts, wf_bytes s -> ~ In 92 s -> e_buf l = None -> scan_own strtod junk fuel l s = Ok ts ->
  Forall (fun x => snd x = false) ts.
Proof.
  induction fuel as [|fuel IH]; intros l [|c s] ts Hb Hn Hl; cbn [scan_own]; intros H;
    try (injection H as <-; apply Forall_nil); try discriminate.
  destruct (pick _ _) as [[act n]|] eqn:P.
  2: { apply (IH l s ts); [now inversion Hb|intros K; apply Hn; now right|exact Hl|exact H]. }
  destruct (pick_from _ _ _ _ P) as (r & Hr & Lr).
  assert (Keep : forall text l' q k, text = firstn n (c :: s) -> act text l = Ok (l', q, k) -> e_buf l' = None).
  { intros text l' q k -> A. destruct (e_mode l); cbn [rules_of] in Hr.
    - unfold e_rules in Hr. apply in_app_iff in Hr. destruct Hr as [Hr|Hr].
      { destruct Hr as [Hr|[]]. injection Hr as <- <-. unfold eskips in A. injection A as <- _ _. exact Hl. }
      apply in_app_iff in Hr. destruct Hr as [Hr|Hr].
      { apply in_map_iff in Hr. destruct Hr as ([s0 t0] & E0 & _). injection E0 as <- <-. unfold ereturns in A. injection A as <- _ _. exact Hl. }
      cbn [In] in Hr. repeat (destruct Hr as [Hr|Hr]; [injection Hr as <- <-;
        first [unfold ereturns in A; injection A as <- _ _; exact Hl | unfold eskips in A; injection A as <- _ _; exact Hl
              | unfold enters in A; injection A as <- _ _; exact Hl
              | unfold act_letter in A; destruct (rd _ _); cbn [bind] in A; try discriminate; injection A as <- _ _; exact Hl]|]).
      easy.
    - destruct Hr as [Hr|[Hr|[Hr|[]]]]; injection Hr as Er Ea.
      + subst act. unfold act_text in A. rewrite Hl in A. injection A as <- _ _. exact Hl.
      + subst act. unfold act_text_end in A. rewrite Hl in A. injection A as <- _ _. reflexivity.
      + exfalso. apply ScanProofs.longest_sound in Lr. destruct Lr as [Ln Lm]. rewrite <- Er in Lm.
        assert (Hw : wf_bytes (firstn n (c :: s))).
        { apply Forall_forall. intros x Hx. apply ScanProofs.firstn_in in Hx. exact (proj1 (Forall_forall _ _) Hb x Hx). }
        destruct (ScanProofs.needs_ok (Z.eqb 92) _ _ Lm Hw) as (x & Hx & Ex); [reflexivity|].
        apply Z.eqb_eq in Ex. subst x. apply Hn. exact (ScanProofs.firstn_in _ _ _ Hx).
    - destruct Hr as [Hr|[]]. injection Hr as Er Ea. subst act. unfold act_quote in A.
      destruct (closing _ _ _ _); injection A as <- _ _; exact Hl. }
  destruct (act _ l) as [[[l' q] k]| |] eqn:A; cbn [bind] in H; try discriminate.
  assert (Hl' : e_buf l' = None) by exact (Keep _ _ _ _ eq_refl A).
  assert (Hb' : wf_bytes (skipn k (c :: s))).
  { apply Forall_forall. intros x Hx. rewrite <- (firstn_skipn k (c :: s)) in Hb.
    apply (proj1 (Forall_forall _ _) Hb). apply in_or_app. now right. }
  assert (Hn' : ~ In 92 (skipn k (c :: s))).
  { intros K. apply Hn. rewrite <- (firstn_skipn k (c :: s)). apply in_or_app. now right. }
  destruct q as [|t|]; [exact (IH _ _ _ Hb' Hn' Hl' H)| |injection H as <-; apply Forall_nil].
  destruct (scan_own _ _ _ _ _) as [us| |] eqn:S; cbn [bind] in H; try discriminate. injection H as <-.
  apply Forall_cons; [|exact (IH _ _ _ Hb' Hn' Hl' S)]. cbn [snd]. unfold makes_own. rewrite Hl. now destruct (e_mode l).
Qed.
End Scan.

(** * Theorems *)

(** The member for each token: the number, the text, the address; the spelling of
    a symbol.  Exactly the texts with an escaped character and the numbers,
    texts and addresses at position 64, 128, ... are missing: there is an atom
    without type in their place. *)
Theorem C101_tokenize strtod junk s : exists ts ms,
  ExprParseProps.tokens strtod junk s (map fst ts) /\ lex strtod junk s = Ok ms /\ length ms = length ts /\
  forall k x, nth_error ts k = Some x -> exists a, nth_error ms k = Some a /\ member_for k x a.
Proof.
  destruct (ExprParseProps.C87_total strtod junk s) as (us & U). unfold ExprParseProps.tokens in *.
  pose proof (scan_same strtod junk (S (length s)) elexer_start s) as Q. rewrite U in Q.
  destruct (scan_own strtod junk (S (length s)) elexer_start s) as [ts| |] eqn:T; cbn [bind] in Q; try discriminate.
  injection Q as Q. subst us. pose proof (scan_proper _ _ _ _ _ _ T) as P.
  destruct (loop_ok ts P [] 64%nat 1) as (ms & E & L & M); [reflexivity|lia|left; split; reflexivity|].
  cbn [app] in E. change (zlen []) with 0 in E.
  exists ts, ms. split; [exact U|]. split; [unfold lex; rewrite T; cbn [bind]; exact E|]. split; [exact L|exact M].
Qed.
Print Assumptions C101_tokenize.

(** Without a backslash in the text: only the positions 64, 128, ... matter. *)
Theorem C101_plain strtod junk s ts : wf_bytes s -> ~ In 92 s -> ExprParseProps.tokens strtod junk s ts ->
  exists ms, lex strtod junk s = Ok ms /\ length ms = length ts /\
  forall k t, nth_error ts k = Some t -> exists a, nth_error ms k = Some a /\ member_for k (t, false) a.
Proof.
  intros Hb Hn U. unfold ExprParseProps.tokens in U.
  pose proof (scan_same strtod junk (S (length s)) elexer_start s) as Q. rewrite U in Q.
  destruct (scan_own strtod junk (S (length s)) elexer_start s) as [us| |] eqn:T; cbn [bind] in Q; try discriminate.
  injection Q as Q. subst ts. pose proof (scan_proper _ _ _ _ _ _ T) as P.
  pose proof (scan_plain strtod junk _ elexer_start s us Hb Hn eq_refl T) as F.
  destruct (loop_ok us P [] 64%nat 1) as (ms & E & L & M); [reflexivity|lia|left; split; reflexivity|].
  cbn [app] in E. change (zlen []) with 0 in E.
  exists ms. split; [unfold lex; rewrite T; cbn [bind]; exact E|]. split; [now rewrite map_length|].
  intros k t Hk. rewrite nth_error_map in Hk. destruct (nth_error us k) as [[t' own]|] eqn:K; [|discriminate].
  cbn [option_map fst] in Hk. injection Hk as ->. destruct (M k (t, own) K) as (a & H1 & H2). exists a. split; [exact H1|].
  pose proof (proj1 (Forall_forall _ _) F (t, own) (nth_error_In _ _ K)) as K2. cbn [snd] in K2. now subst own.
Qed.
Print Assumptions C101_plain.

(** Up to 64 tokens, no backslash: every token. *)
Theorem C101_all strtod junk s ts : wf_bytes s -> ~ In 92 s -> ExprParseProps.tokens strtod junk s ts -> (length ts <= 64)%nat ->
  exists ms, lex strtod junk s = Ok ms /\
  Forall2 (fun t a => valued t a \/ exists v, shown_as t v /\ a = Atom 115 0 (PStr v)) ts ms.
Proof.
  intros Hb Hn U Hl. destruct (C101_plain strtod junk s ts Hb Hn U) as (ms & E & L & M). exists ms. split; [exact E|].
  clear E U Hb Hn. assert (M' : forall k t, nth_error ts k = Some t -> exists a, nth_error ms k = Some a /\
    (valued t a \/ exists v, shown_as t v /\ a = Atom 115 0 (PStr v))).
  { intros k t Hk. destruct (M k t Hk) as (a & H1 & H2). exists a. split; [exact H1|].
    assert (Lk : (k < length ts)%nat) by (apply nth_error_Some; congruence).
    inversion H2 as [t' o a' V D|t' o a' V D|t' o v S]; subst.
    - now left.
    - exfalso. destruct D as [D|(j & D)]; [discriminate|lia].
    - right. now exists v. }
  clear M Hl. revert ms L M'. induction ts as [|t ts IH]; intros [|a ms] L M; try discriminate; [apply Forall2_nil|].
  apply Forall2_cons.
  - destruct (M O t eq_refl) as (b & H1 & H2). injection H1 as <-. exact H2.
  - apply IH; [now injection L|]. intros k u Hk. exact (M (S k) u Hk).
Qed.
Print Assumptions C101_all.

(** tokenize of one text, and of a list: of the texts with spaces (C100). *)
Theorem C101_one strtod junk other w s ms : lex strtod junk s = Ok ms ->
  fn_tokenize strtod junk other (Some [Atom 115 w (PStr s)]) = Ok (Some ms).
Proof. intros E. unfold fn_tokenize. cbn [bind]. now rewrite E. Qed.
Print Assumptions C101_one.
Theorem C101_list strtod junk other l ts ms : (forall w s, l <> [Atom 115 w (PStr s)]) ->
  ListTextProps.texts_of other (Some l) ts 256 -> ListTextSpec.enough (str " ") 256 0 ts = true ->
  lex strtod junk (ListTextSpec.joined (str " ") ts) = Ok ms ->
  fn_tokenize strtod junk other (Some l) = Ok (Some ms).
Proof.
  intros Hl Ht He E.
  destruct (ListTextProps.C100_joined other junk (Some l) None (Some (str " ")) ts Ht He) as (rest & J).
  assert (N : nonul (ListTextSpec.joined (str " ") ts)).
  { destruct Ht as (F & _). cbn [ExprProps.members] in F. clear He E J Hl. unfold ListTextSpec.joined.
    induction F as [|a t l' ts' Ha _ IH]; cbn [map concat]; [apply Forall_nil|].
    apply Forall_app. split; [|apply IH].
    apply Forall_app. split; [|apply Forall_cons; [discriminate|apply Forall_nil]].
    apply FnStrProofs.nonul_chars. 
    destruct (FnStrProofs.buffer_shown other [] a t Ha (FnStrProofs.shown_tag _ _ _ Ha)) as (k & _ & C). exact C. }
  assert (R : (do ' (buf, _) <- list_text other junk (Some l) 0 None (Some (str " ")); rdstr buf 0) = Ok (ListTextSpec.joined (str " ") ts)).
  { change (list_text other junk (Some l) 0 None (Some (str " "))) with
      (list_text other junk (Some l) (ListTextProps.size_of None) None (Some (str " "))). rewrite J. cbn [bind].
    now apply StrfmtProps.rdstr_front. }
  assert (D : match l with
              | [Atom 115 _ (PStr s)] => Ok s
              | [Atom 115 _ _] => Ub NullDeref
              | _ => do ' (buf, _) <- list_text other junk (Some l) 0 None (Some (str " ")); rdstr buf 0
              end = Ok (ListTextSpec.joined (str " ") ts)).
  { rewrite R. destruct l as [|[tg w p] [|b l]]; try reflexivity.
    - destruct Ht as (F & _). cbn [ExprProps.members] in F. inversion F as [|a t l' ts' Ha F']; subst.
      destruct (Z.eq_dec tg 115) as [->|Nt].
      + destruct p as [|s| |]; [| exfalso; exact (Hl w s eq_refl)| |]; exfalso;
          inversion Ha as [| ty a0 v0 Hv H1 H2 Ea| a0 v0 Hv H0 Ea| [? ? ?] Ea| [? ? ?] Ea| tg' w' p' Hi Hc]; try discriminate;
          try (destruct a0; destruct ty; discriminate); try (destruct a0; discriminate); try (cbn in Hi; lia).
      + destruct tg as [|q|q]; try reflexivity. do 7 (destruct q as [q|q|]; try reflexivity). exfalso; now apply Nt.
    - destruct tg as [|q|q]; try reflexivity. do 7 (destruct q as [q|q|]; try reflexivity); destruct p; reflexivity. }
  unfold fn_tokenize. rewrite D. cbn [bind]. now rewrite E.
Qed.
Print Assumptions C101_list.

(** Finding: any number, text or address that is the 65th token is lost. *)
Theorem C101_long_refuted t a before after : valued t a -> a <> atom_fresh -> length before = 64%nat ->
  Forall (fun x => proper (fst x)) before -> Forall (fun x => proper (fst x)) after ->
  exists ms, lex_tokens (before ++ (t, false) :: after) = Ok ms /\ nth_error ms 64 = Some atom_fresh.
Proof.
  intros V Na L Pb Pa.
  assert (P : Forall (fun x => proper (fst x)) (before ++ (t, false) :: after)).
  { apply Forall_app. split; [exact Pb|]. apply Forall_cons; [left; now exists a|exact Pa]. }
  destruct (loop_ok _ P [] 64%nat 1) as (ms & E & _ & M); [reflexivity|lia|left; split; reflexivity|].
  cbn [app] in E. change (zlen []) with 0 in E.
  exists ms. split; [exact E|]. destruct (M 64%nat (t, false)) as (b & Hb & Mb).
  - rewrite nth_error_app2 by lia. rewrite L. reflexivity.
  - rewrite Hb. f_equal. cbn [length Nat.add] in Mb. inversion Mb as [t' o a' V' D|t' o a' V' D|t' o v S]; subst.
    + exfalso. apply D. right. exists O. reflexivity.
    + reflexivity.
    + apply valued_atom in V. destruct (shown_string t v S) as [N _]. congruence.
Qed.
Print Assumptions C101_long_refuted.

(** Finding: a text with an escaped character is lost. *)
Theorem C101_escaped_refuted strtod :
  lex strtod [] (34 :: str "a\" ++ [34] ++ str "b" ++ [34]) = Ok [atom_fresh] /\
  ExprParseProps.tokens strtod [] (34 :: str "a\" ++ [34] ++ str "b" ++ [34]) [TStr (str "a" ++ [34] ++ str "b")].
Proof. split; reflexivity. Qed.
Print Assumptions C101_escaped_refuted.

(** An expression and its tokens. *)
Example C101_ex strtod : wf_bytes (str "/a == f(2)") /\ ~ In 92 (str "/a == f(2)") /\
  ExprParseProps.tokens strtod [] (str "/a == f(2)")
    [TAddr (str "/a"); TOp OEq; TStr (str "f"); TOpen; TNum (set_int32 atom_fresh 2); TClose] /\
  fn_tokenize strtod [] (fun _ => []) (Some [string_atom (str "/a == f(2)")]) =
    Ok (Some [string_atom (str "/a"); string_atom (str "="); string_atom (str "f"); string_atom (str "("); set_int32 atom_fresh 2;
              string_atom (str ")")]).
Proof.
  split; [apply Forall_forall; intros x Hx; cbn in Hx; unfold is_byte; lia|]. split; [cbn; lia|]. split; reflexivity.
Qed.
Example C101_ex_long : exists ms, lex_tokens (repeat (TOp OAdd, false) 64 ++ [(TNum (set_int32 atom_fresh 2), false)]) = Ok ms /\
  nth_error ms 64 = Some atom_fresh.
Proof.
  apply (C101_long_refuted (TNum (set_int32 atom_fresh 2)) (set_int32 atom_fresh 2)).
  - constructor.
  - discriminate.
  - reflexivity.
  - apply Forall_forall. intros x Hx. apply repeat_spec in Hx. subst x. right. exists (str "+"). apply shown_symbol; [discriminate|].
    now left.
  - apply Forall_nil.
Qed.
