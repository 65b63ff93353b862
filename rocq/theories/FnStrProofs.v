(** Lemmas about the string functions of the expression language. *)

From Coq Require Import String ZArith List Bool Lia.
From Verif Require Import Base Text BaseProofs Bytes UtilModel UtilProofs SerialModel WireModel AtomSModel FloatModel AtomUModel
  StrfmtModel FArithModel ExprModel ExprListModel StatModel FnStrModel AtomSpec AtomProofs RealSpec ExprSpec FnStrSpec
  StrfmtProps TextProps LogicProps CompareProofs ExprListProofs ExprProps ExprListProps StatProofs.
Import ListNotations.
Open Scope Z_scope.

Lemma nonul_chars s : characters s -> nonul s.
Proof. apply Forall_impl. intros c Hc. lia. Qed.
Lemma rdstr_text s r : nonul s -> rdstr (s ++ 0 :: r) 0 = Ok s.
Proof. intros H. exact (rdstr_at [] s r H). Qed.

Lemma print_new junk t : exists b nn, out_buffer junk None 0 (zlen t) = (b, nn) /\ snprintf b 0 nn t = Ok (t ++ [0]).
Proof.
  destruct (out_new junk (zlen t) (zlen_nonneg _)) as (b & Hb & Hl). exists b, (zlen t + 1). split; [exact Hb|].
  pose proof (zlen_nonneg t). rewrite snprintf_front by lia. rewrite firstn_all2 by (unfold zlen; lia).
  rewrite skipn_all2 by (unfold zlen in *; lia). reflexivity.
Qed.

Lemma decimal_chars f : forall n, 0 <= n -> characters (decimal f n).
Proof.
  unfold characters. induction f as [|f IH]; intros n Hn; cbn [decimal]; [apply Forall_nil|]. destruct (n <? 10) eqn:L.
  - apply Forall_cons; [lia|apply Forall_nil].
  - apply Forall_app. split; [apply IH; Z.div_mod_to_equations; lia|].
    apply Forall_cons; [Z.div_mod_to_equations; lia|apply Forall_nil].
Qed.
Lemma numeral_chars v : characters (numeral v).
Proof.
  unfold numeral, digit_string. destruct (v <? 0) eqn:L; [apply Z.ltb_lt in L; apply Forall_cons; [lia|]|apply Z.ltb_ge in L];
    apply decimal_chars; lia.
Qed.
Lemma chars_str s : forallb (fun c => (0 <? c) && (c <? 256)) s = true -> characters s.
Proof.
  intros H. apply Forall_forall. intros c Hc. pose proof (proj1 (forallb_forall _ _) H c Hc) as K. cbv beta in K.
  apply andb_prop in K. lia.
Qed.

(** The buffer made for an atom. *)
Lemma buffer_shown other junk a s : shown other a s -> a_tt a <> 67 ->
  exists k, au_string other junk a 0 None = Ok (s ++ [0], k) /\ characters s.
Proof.
  intros H. destruct H as [w s Hs|t a v Hv H1 H2|a v Hv H0|a|a|tg w p Htg Hs]; intros Htt.
  - exists (zlen s). split; [|exact Hs]. destruct (C49_strings other junk atom_fresh 0 s) as (_ & H & _).
    exact H.
  - exists (zlen (numeral v)). split; [|apply numeral_chars].
    destruct (C49_integers other junk t a v Hv (or_introl H2)) as (_ & H).
    assert (T : text t v = numeral v) by (destruct t; easy). now rewrite T in H.
  - exists 3. assert (N : I8 <> U8 \/ 100 <= v) by (left; discriminate).
    pose proof (proj2 (C49_integers other junk I8 a v Hv N)) as H.
    split; [exact H|]. unfold in_type in Hv. cbn in Hv. repeat apply Forall_cons; try apply Forall_nil; change (2^8) with 256;
      Z.div_mod_to_equations; lia.
  - exists 4. split; [|apply chars_str; reflexivity]. destruct a as [tg w q]. cbn [set_true].
    unfold au_string. cbn [au_string_len Z.eqb Pos.eqb bind]. destruct (print_new junk (str "true")) as (b & nn & E1 & E2).
    change [116; 114; 117; 101] with (str "true"). rewrite E1. rewrite E2. reflexivity.
  - exists 5. split; [|apply chars_str; reflexivity]. destruct a as [tg w q]. cbn [set_false].
    unfold au_string. cbn [au_string_len Z.eqb Pos.eqb bind]. destruct (print_new junk (str "false")) as (b & nn & E1 & E2).
    change [102; 97; 108; 115; 101] with (str "false"). rewrite E1. rewrite E2. reflexivity.
  - exists (zlen (other (Atom tg w p))). split; [|exact Hs].
    destruct (print_new junk (other (Atom tg w p))) as (b & nn & E1 & E2).
    unfold au_string.
    destruct Htg as [<-|[<-|[<-|[]]]]; cbn [au_string_len Z.eqb Pos.eqb bind]; rewrite E1; cbn [Z.eqb Pos.eqb]; rewrite E2; reflexivity.
Qed.
Lemma shown_tag other a s : shown other a s -> a_tt a <> 67.
Proof.
  intros H. destruct H as [w s Hs|t a v Hv H1 H2|a v Hv H0|a|a|tg w p Htg Hs].
  - discriminate.
  - rewrite tag_set. destruct t; easy.
  - rewrite tag_set. discriminate.
  - destruct a. discriminate.
  - destruct a. discriminate.
  - cbn [a_tt]. destruct Htg as [<-|[<-|[<-|[]]]]; discriminate.
Qed.
Lemma text_shown E a s : shown (e_text E) a s -> text_of E a = Ok s /\ characters s.
Proof.
  intros H. destruct (buffer_shown (e_text E) (e_junk E) a s H (shown_tag _ _ _ H)) as (k & E1 & Hc).
  split; [|exact Hc]. unfold text_of. rewrite E1. cbn [bind]. apply rdstr_text. now apply nonul_chars.
Qed.
Lemma first_member a x l : members a = x :: l -> aget a 0 = Ok (Some x).
Proof.
  destruct a as [m|]; cbn [members]; [intros ->|discriminate]. unfold aget. rewrite zlen_cons. pose proof (zlen_nonneg l).
  rewrite (proj2 (Z.leb_gt _ _)) by lia. reflexivity.
Qed.
Lemma first_none a : members a = [] -> aget a 0 = Ok None.
Proof. destruct a as [m|]; cbn [members]; [intros ->|]; reflexivity. Qed.
Lemma text_first E a x l s : members a = x :: l -> shown (e_text E) x s ->
  (do x0 <- aget a 0; text_at E x0) = Ok (Some s).
Proof.
  intros Ha Hs. rewrite (first_member a x l Ha). cbn [bind text_at]. now rewrite (proj1 (text_shown E x s Hs)).
Qed.

(** * Finding *)

Lemma starts_iff sub : forall s, starts_with sub s = true <-> exists y, s = sub ++ y.
Proof.
  induction sub as [|c sub IH]; intros s; cbn [starts_with app]; [split; [now exists s|easy]|].
  destruct s as [|d s]; [split; [easy|intros (y & H); discriminate]|].
  rewrite andb_true_iff, Z.eqb_eq, IH. split.
  - intros [-> (y & ->)]. now exists y.
  - intros (y & H). injection H as -> ->. split; [reflexivity|now exists y].
Qed.
Lemma strstr_some sub s : forall k, strstr sub s = Some k ->
  exists x y, s = x ++ sub ++ y /\ k = zlen x /\ forall x' y', s = x' ++ sub ++ y' -> zlen x <= zlen x'.
Proof.
  induction s as [|d s IH]; intros k; cbn [strstr]; destruct (starts_with sub _) eqn:S.
  - intros H. injection H as <-. apply starts_iff in S. destruct S as (y & ->). exists [], y.
    split; [reflexivity|]. split; [reflexivity|]. intros x' y' _. apply zlen_nonneg.
  - discriminate.
  - intros H. injection H as <-. apply starts_iff in S. destruct S as (y & E). exists [], y.
    split; [exact E|]. split; [reflexivity|]. intros x' y' _. apply zlen_nonneg.
  - destruct (strstr sub s) as [k'|] eqn:R; [|discriminate]. intros H. injection H as <-.
    destruct (IH k' eq_refl) as (x & y & -> & -> & Hm). exists (d :: x), y. split; [reflexivity|].
    rewrite zlen_cons. split; [lia|]. intros x' y' Hs. destruct x' as [|e x'].
    + exfalso. assert (starts_with sub (d :: x ++ sub ++ y) = true); [apply starts_iff; now exists y'|congruence].
    + cbn [app] in Hs. injection Hs as _ Hs. rewrite zlen_cons. specialize (Hm _ _ Hs). lia.
Qed.
Lemma strstr_none sub s : strstr sub s = None -> forall x y, s <> x ++ sub ++ y.
Proof.
  induction s as [|d s IH]; cbn [strstr]; destruct (starts_with sub _) eqn:S; try discriminate.
  - intros _ x y Hs. destruct x as [|e x]; [|discriminate]. cbn [app] in Hs.
    assert (starts_with sub [] = true); [apply starts_iff; now exists y|congruence].
  - destruct (strstr sub s) as [k'|] eqn:R; [discriminate|]. intros _ x y Hs. destruct x as [|e x].
    + assert (starts_with sub (d :: s) = true); [apply starts_iff; now exists y|congruence].
    + cbn [app] in Hs. injection Hs as _ Hs. now apply (IH eq_refl x y).
Qed.

Lemma zlen_inj_app {A} (x x' y y' : list A) : x ++ y = x' ++ y' -> zlen x <= zlen x' ->
  exists z, x' = x ++ z /\ y = z ++ y'.
Proof.
  revert x'. induction x as [|a x IH]; intros x' E L; [now exists x'|].
  destruct x' as [|b x']; [rewrite zlen_cons in L; change (zlen (@nil A)) with 0 in L; pose proof (zlen_nonneg x); lia|].
  cbn [app] in E. injection E as -> E. rewrite !zlen_cons in L. destruct (IH x' E ltac:(lia)) as (z & -> & ->).
  now exists z.
Qed.
Lemma skipn_pre {A} (x y : list A) : skipn (Z.to_nat (zlen x)) (x ++ y) = y.
Proof. unfold zlen. rewrite Nat2Z.id, skipn_app, skipn_all, Nat.sub_diag. reflexivity. Qed.

(** The members the loop puts in the array. *)
Definition places (ps : list Z) : list atom := map (fun p => set_u I64 atom_fresh p) ps.

Lemma find_loop_ok sub : sub <> [] -> forall fuel pre s done rest, (length s < fuel)%nat -> (length s <= length rest)%nat ->
  Forall (fun a => a = atom_fresh) rest ->
  exists ps rest', find_loop fuel sub (pre ++ s) (zlen pre) (zlen done) (Some (done ++ rest)) =
      Ok (zlen done + zlen ps, Some (done ++ places ps ++ rest')) /\
    (forall p, In p ps -> zlen pre <= p /\ exists x y, pre ++ s = x ++ sub ++ y /\ p = zlen x) /\
    (forall ps1 p q ps2, ps = ps1 ++ p :: q :: ps2 -> p + zlen sub <= q) /\
    (forall x y, pre ++ s = x ++ sub ++ y -> zlen pre <= zlen x -> exists q, In q ps /\ q <= zlen x < q + zlen sub).
Proof.
  intros Hsub fuel. assert (L1 : 1 <= zlen sub).
  { destruct sub as [|c sub']; [easy|]. rewrite zlen_cons. pose proof (zlen_nonneg sub'). lia. }
  induction fuel as [|f IH]; intros pre s done rest Hf Hr Hfr; [lia|].
  cbn [find_loop]. rewrite skipn_pre. destruct (strstr sub s) as [k|] eqn:R.
  - destruct (strstr_some sub s k R) as (x & y & -> & -> & Hm).
    destruct rest as [|r0 rest]; [cbn [length] in Hr; rewrite !app_length in Hr; unfold zlen in L1; lia|].
    inversion Hfr as [|? ? Hr0 Hfr']. subst r0.
    rewrite (aput_at done atom_fresh rest). cbn [bind].
    replace (zlen pre + zlen x + zlen sub) with (zlen (pre ++ x ++ sub)) by (rewrite !zlen_app; lia).
    replace (pre ++ x ++ sub ++ y) with ((pre ++ x ++ sub) ++ y) by (rewrite <- !app_assoc; reflexivity).
    set (a := set_int64 atom_fresh (zlen pre + zlen x)).
    replace (done ++ a :: rest) with ((done ++ [a]) ++ rest) by (rewrite <- app_assoc; reflexivity).
    replace (zlen done + 1) with (zlen (done ++ [a])) by (rewrite zlen_app; reflexivity).
    rewrite !app_length in Hf, Hr. cbn [length] in Hr. unfold zlen in L1.
    destruct (IH (pre ++ x ++ sub) y (done ++ [a]) rest ltac:(lia) ltac:(lia) Hfr') as (ps & rest' & E & P1 & P2 & P3).
    exists ((zlen pre + zlen x) :: ps), rest'.
    split; [|split; [|split]].
    + rewrite E. unfold places. cbn [map]. rewrite (zlen_cons _ ps), (zlen_app done [a]). f_equal. f_equal.
      { change (zlen [a]) with 1. lia. } now rewrite <- !app_assoc.
    + intros p [<-|Hp].
      * split; [pose proof (zlen_nonneg x); lia|]. exists (pre ++ x), y. split; [now rewrite <- !app_assoc|]. rewrite zlen_app. lia.
      * destruct (P1 p Hp) as (Hle & Hx). split; [|exact Hx]. rewrite !zlen_app in Hle. pose proof (zlen_nonneg x). unfold zlen in *. lia.
    + intros ps1 p q ps2 Hps. destruct ps1 as [|p1 ps1]; cbn [app] in Hps.
      * injection Hps as <- ->. destruct (P1 q (or_introl eq_refl)) as (Hle & _). rewrite !zlen_app in Hle. lia.
      * injection Hps as _ Hps. now apply (P2 ps1 p q ps2).
    + intros x' y' Hs Hx'. destruct (Z_lt_ge_dec (zlen x') (zlen (pre ++ x ++ sub))) as [L|L].
      * exists (zlen pre + zlen x). split; [now left|]. rewrite !zlen_app in L. split; [|lia].
        assert (Hpre := Hs). rewrite <- app_assoc in Hpre.
        destruct (zlen_inj_app pre x' _ _ Hpre Hx') as (z & -> & Hz). rewrite zlen_app.
        rewrite <- app_assoc in Hz. specialize (Hm z y' Hz). lia.
      * destruct (P3 x' y' Hs ltac:(lia)) as (q & Hq & Hl). exists q. split; [now right|exact Hl].
  - exists [], rest. rewrite zlen_nil || change (zlen (@nil Z)) with 0. rewrite Z.add_0_r. split; [reflexivity|].
    split; [easy|]. split; [intros [|? ?] p q ps2; discriminate|].
    intros x y Hs Hx. destruct (zlen_inj_app pre x _ _ Hs Hx) as (z & -> & Hz).
    exfalso. now apply (strstr_none sub s R z y).
Qed.

(** * Splitting *)

Lemma is_sep_iff sep c : is_sep sep c = true <-> In c sep.
Proof.
  unfold is_sep. rewrite existsb_exists. split.
  - intros (x & Hx & E). apply Z.eqb_eq in E. now subst.
  - intros H. exists c. split; [exact H|apply Z.eqb_refl].
Qed.
Lemma is_sep_not sep c : is_sep sep c = false <-> ~ In c sep.
Proof. rewrite <- is_sep_iff. destruct (is_sep sep c); split; congruence. Qed.
Lemma skip_ok sep s : exists g, s = g ++ skip_seps sep s /\ separators sep g /\
  match skip_seps sep s with [] => True | c :: _ => ~ In c sep end.
Proof.
  induction s as [|c s (g & E & Hg & Hh)]; cbn [skip_seps]; [exists []; split; [reflexivity|]; split; [apply Forall_nil|easy]|].
  destruct (is_sep sep c) eqn:C.
  - exists (c :: g). cbn [app]. rewrite <- E. split; [reflexivity|]. split; [|exact Hh].
    apply Forall_cons; [now apply is_sep_iff|exact Hg].
  - exists []. split; [reflexivity|]. split; [apply Forall_nil|]. now apply is_sep_not.
Qed.
Lemma token_ok sep s : let (t, r) := take_token sep s in
  Forall (fun c => ~ In c sep) t /\ (s = t /\ r = [] \/ exists c, s = t ++ c :: r /\ In c sep).
Proof.
  induction s as [|c s IH]; cbn [take_token]; [split; [apply Forall_nil|now left]|].
  destruct (is_sep sep c) eqn:C.
  - split; [apply Forall_nil|]. right. exists c. split; [reflexivity|now apply is_sep_iff].
  - destruct (take_token sep s) as [t r]. destruct IH as [Ht Hr]. split.
    + apply Forall_cons; [now apply is_sep_not|exact Ht].
    + destruct Hr as [[-> ->]|(d & -> & Hd)]; [now left|right; now exists d].
Qed.
Lemma strtok_none sep s : strtok sep s = None -> separators sep s.
Proof.
  unfold strtok. destruct (skip_ok sep s) as (g & E & Hg & _). destruct (skip_seps sep s); [|discriminate].
  intros _. rewrite app_nil_r in E. now subst.
Qed.
Lemma strtok_some sep s t r : strtok sep s = Some (t, r) -> exists g, separators sep g /\ piece sep t /\
  (s = g ++ t /\ r = [] \/ exists c, s = g ++ t ++ c :: r /\ In c sep).
Proof.
  unfold strtok. destruct (skip_ok sep s) as (g & E & Hg & Hh). destruct (skip_seps sep s) as [|c s']; [discriminate|].
  intros H. assert (H' : take_token sep (c :: s') = (t, r)) by (injection H; auto). clear H. rename H' into H.
  pose proof (token_ok sep (c :: s')) as K. rewrite H in K. destruct K as [Ht Hr].
  exists g. split; [exact Hg|]. split.
  - split; [|exact Ht]. cbn [take_token] in H. rewrite (proj2 (is_sep_not sep c) Hh) in H.
    destruct (take_token sep s') as [t' r']. injection H as <- _. discriminate.
  - rewrite E. destruct Hr as [[-> ->]|(d & -> & Hd)]; [now left|right; exists d; split; [reflexivity|exact Hd]].
Qed.
Lemma sep_left sep c s ts : In c sep -> pieces sep s ts -> pieces sep (c :: s) ts.
Proof.
  intros Hc H. destruct H as [g Hg|g t Hg Ht|g t d s ts Hg Ht Hd Hs].
  - apply pieces_none. now apply Forall_cons.
  - apply (pieces_last sep (c :: g) t); [now apply Forall_cons|exact Ht].
  - apply (pieces_more sep (c :: g) t d s ts); [now apply Forall_cons|exact Ht|exact Hd|exact Hs].
Qed.

Definition strings (ts : list (list Z)) : list atom := map (fun t => set_string atom_fresh 0 t) ts.
Lemma split_loop_ok sep : forall fuel s n done rest, (length s < fuel)%nat -> zlen done <= n -> n = zlen (done ++ rest) ->
  Forall (fun a => a = atom_fresh) rest ->
  exists ts rest', split_loop fuel sep s n (zlen done) (Some (done ++ rest)) =
    Ok (zlen done + zlen ts, Some (done ++ strings ts ++ rest')) /\ pieces sep s ts.
Proof.
  induction fuel as [|f IH]; intros s n done rest Hf Hd Hn Hr; [lia|].
  cbn [split_loop]. destruct (strtok sep s) as [[tok r]|] eqn:T.
  - destruct (strtok_some sep s tok r T) as (g & Hg & Ht & Hs).
    assert (Hlen : (length r < f)%nat).
    { destruct Ht as [Ht _]. destruct tok as [|c0 tok]; [easy|].
      destruct Hs as [[-> ->]|(c & -> & _)]; repeat (rewrite app_length in Hf || cbn [length] in Hf || cbn [length]); lia. }
    assert (Room : exists n' rest2, n' = zlen (done ++ atom_fresh :: rest2) /\ Forall (fun a => a = atom_fresh) rest2 /\
        if zlen done >=? n then n + 16 = n' /\ aresize (Some (done ++ rest)) (n + 16) = Some (done ++ atom_fresh :: rest2)
        else n = n' /\ rest = atom_fresh :: rest2).
    { rewrite Z.geb_leb. destruct (n <=? zlen done) eqn:L.
      - apply Z.leb_le in L. rewrite zlen_app in Hn. pose proof (zlen_nonneg rest).
        destruct rest as [|r0 rest]; [|rewrite zlen_cons in Hn; pose proof (zlen_nonneg rest); lia].
        rewrite app_nil_r. exists (n + 16), (repeat atom_fresh 15).
        change (zlen (@nil atom)) with 0 in Hn.
        split; [|split; [|split; [reflexivity|]]].
        + rewrite zlen_app. change (zlen (atom_fresh :: repeat atom_fresh 15)) with 16. lia.
        + apply Forall_forall. intros a Ha. now apply repeat_spec in Ha.
        + unfold aresize. f_equal. rewrite firstn_all2 by (unfold zlen in *; lia). f_equal.
          replace (Z.to_nat (n + 16) - length done)%nat with 16%nat; [reflexivity|].
          unfold zlen in *. lia.
      - apply Z.leb_gt in L. rewrite zlen_app in Hn. destruct rest as [|r0 rest]; [change (zlen (@nil atom)) with 0 in Hn; lia|].
        inversion Hr as [|? ? H1 H2]. subst r0. exists n, rest. split; [now rewrite zlen_app|]. split; [exact H2|split; reflexivity]. }
    destruct Room as (n' & rest2 & Hn' & Hr2 & Er).
    assert (C : exists ts rest', (do ar <- aput (Some (done ++ atom_fresh :: rest2)) (zlen done) (fun r => Ok (set_string r 0 tok));
        split_loop f sep r n' (zlen done + 1) ar) = Ok (zlen done + zlen ts, Some (done ++ strings ts ++ rest')) /\ pieces sep s ts).
    { rewrite (aput_at done atom_fresh rest2). cbn [bind]. set (a := set_string atom_fresh 0 tok).
    replace (done ++ a :: rest2) with ((done ++ [a]) ++ rest2) by (rewrite <- app_assoc; reflexivity).
    replace (zlen done + 1) with (zlen (done ++ [a])) by (rewrite zlen_app; reflexivity).
    destruct (IH r n' (done ++ [a]) rest2 Hlen) as (ts & rest' & E & Hp).
    + rewrite Hn', !zlen_app, (zlen_cons _ rest2). change (zlen [a]) with 1. pose proof (zlen_nonneg rest2). lia.
    + rewrite Hn', <- app_assoc, !zlen_app, (zlen_cons _ rest2). reflexivity.
    + exact Hr2.
    + exists (tok :: ts), rest'. split.
      * rewrite E. unfold strings. cbn [map]. rewrite (zlen_cons _ ts), (zlen_app done [a]). change (zlen [a]) with 1. f_equal. f_equal; [lia|].
        now rewrite <- !app_assoc.
      * destruct Hs as [[-> ->]|(c & -> & Hc)].
        -- inversion Hp as [g0 Hg0 E1 E2|g0 t0 Hg0 Ht0 E1 E2|g0 t0 c0 s0 ts0 Hg0 Ht0 Hc0 Hs0 E1 E2]; subst.
           ++ now apply pieces_last.
           ++ exfalso. apply app_eq_nil in E1. destruct E1 as [_ ->]. now destruct Ht0.
           ++ exfalso. apply app_eq_nil in E1. destruct E1 as [_ E1]. apply app_eq_nil in E1. now destruct E1.
        -- apply pieces_more; [exact Hg|exact Ht|exact Hc|]. now apply sep_left. }
    destruct (zlen done >=? n); destruct Er as [E1 E2]; clear Hn'; subst n'; [rewrite <- E2 in C|rewrite <- E2 in C]; exact C.
  - exists [], rest. change (zlen (@nil (list Z))) with 0. rewrite Z.add_0_r. split; [reflexivity|].
    apply pieces_none. now apply strtok_none.
Qed.

Lemma put_chars_ok s : forall done,
  put_chars s (zlen done) (Some (done ++ repeat atom_fresh (length s))) =
  Ok (Some (done ++ map (fun c => set_int8 atom_fresh (s8 c)) s)).
Proof.
  induction s as [|c s IH]; intros done; cbn [put_chars length repeat map]; [reflexivity|].
  rewrite (aput_at done atom_fresh (repeat atom_fresh (length s))). cbn [bind].
  set (a := set_int8 atom_fresh (s8 c)).
  replace (done ++ a :: repeat atom_fresh (length s)) with ((done ++ [a]) ++ repeat atom_fresh (length s)) by (rewrite <- app_assoc; reflexivity).
  replace (zlen done + 1) with (zlen (done ++ [a])) by (rewrite zlen_app; reflexivity).
  rewrite IH, <- app_assoc. reflexivity.
Qed.

(** What is left when the array is cut off. *)
Lemma resize_cut l r : aresize (Some (l ++ r)) (zlen l) = Some l.
Proof.
  unfold aresize, zlen. rewrite Nat2Z.id, firstn_app, firstn_all, Nat.sub_diag, app_length.
  replace (length l - (length l + length r))%nat with O by lia. cbn [firstn repeat]. now rewrite !app_nil_r.
Qed.

(** * Joining *)

Lemma join_text_ok E a s : joins (e_text E) a s -> join_text E a = Ok s /\ characters s.
Proof.
  intros H. unfold join_text. destruct H as [a s H1 H2 H|a v Hv H0|a v Hv H0].
  - destruct (buffer_shown (e_text E) (e_junk E) a s H H2) as (k & E1 & Hc). rewrite E1. cbn [bind].
    rewrite (proj2 (Z.eqb_neq _ _) H1), (proj2 (Z.eqb_neq _ _) H2). cbn [orb bind]. split; [|exact Hc].
    apply rdstr_text. now apply nonul_chars.
  - assert (N : I8 <> U8 \/ 100 <= v) by (left; discriminate).
    pose proof (proj2 (C49_integers (e_text E) (e_junk E) I8 a v Hv N)) as H.
    rewrite H. rewrite tag_set. cbn [bind text tag_of Z.eqb Pos.eqb orb].
    unfold in_type in Hv. cbn in Hv.
    assert (Hc : 0 < v mod 2^8 < 256) by (change (2^8) with 256; Z.div_mod_to_equations; lia).
    split; [|apply Forall_cons; [exact Hc|apply Forall_nil]].
    change (rd ([39; v mod 2 ^ 8; 39] ++ [0]) 1) with (Ok (v mod 2^8)). cbn [bind].
    change (write ([39; v mod 2 ^ 8; 39] ++ [0]) 0 [v mod 2^8]) with (Ok [v mod 2^8; v mod 2^8; 39; 0]). cbn [bind].
    change (write [v mod 2 ^ 8; v mod 2 ^ 8; 39; 0] 1 [0]) with (Ok ([v mod 2^8] ++ 0 :: [39; 0])). cbn [bind].
    apply rdstr_text. apply Forall_cons; [lia|apply Forall_nil].
  - unfold in_type in Hv. cbn in Hv.
    assert (B : exists r k, au_string (e_text E) (e_junk E) (set_u U8 a v) 0 None = Ok (39 :: v :: r, k)).
    { rewrite string_int, string_len_int by (unfold in_type; cbn; lia). cbn [bind].
      assert (L2 : 2 <= zlen (numeral v)).
      { unfold numeral. rewrite (proj2 (Z.ltb_ge _ _)) by lia. unfold digit_string.
        assert (3 <= Z.log2 v) by (change 3 with (Z.log2 8); apply Z.log2_le_mono; lia).
        replace (Z.to_nat (1 + Z.log2 v)) with (S (S (Z.to_nat (Z.log2 v - 1)))) by lia.
        cbn [decimal]. rewrite (proj2 (Z.ltb_ge v 10)) by lia. rewrite zlen_app. change (zlen [48 + v mod 10]) with 1.
        destruct (v / 10 <? 10); [change (zlen [48 + v / 10]) with 1; lia|].
        rewrite zlen_app. change (zlen [48 + v / 10 mod 10]) with 1.
        pose proof (zlen_nonneg (decimal (Z.to_nat (Z.log2 v - 1)) (v / 10 / 10))). lia. }
      destruct (out_new (e_junk E) (zlen (numeral v)) (zlen_nonneg _)) as (b & -> & Hb).
      rewrite snprintf_front by lia. cbn [bind]. cbn [text]. rewrite (Z.mod_small v (2^8)) by (change (2^8) with 256; lia).
      replace (Z.to_nat (zlen (numeral v) + 1 - 1)) with (S (S (Z.to_nat (zlen (numeral v) - 2)))) by lia.
      cbn [firstn app]. eexists. eexists. reflexivity. }
    destruct B as (r & k & B). rewrite B, tag_set. cbn [bind tag_of Z.eqb Pos.eqb orb].
    split; [|apply Forall_cons; [lia|apply Forall_nil]].
    assert (L : 0 <= zlen r) by apply zlen_nonneg.
    assert (R1 : rd (39 :: v :: r) 1 = Ok v) by exact (rd_at [39] v r). rewrite R1. cbn [bind].
    rewrite write_front by (rewrite !zlen_cons; change (zlen (@nil Z)) with 0; lia). cbn [bind length skipn app].
    assert (W : write (v :: v :: r) 1 [0] = Ok ([v] ++ 0 :: r)) by exact (write_app [v] [v] [0] r eq_refl).
    rewrite W. cbn [bind]. apply rdstr_text. apply Forall_cons; [lia|apply Forall_nil].
Qed.
Lemma join_texts_ok E l ts : Forall2 (joins (e_text E)) l ts -> join_texts E l = Ok ts /\ Forall characters ts.
Proof.
  induction 1 as [|a s l ts Ha _ [IH1 IH2]]; [split; [reflexivity|apply Forall_nil]|].
  destruct (join_text_ok E a s Ha) as [H1 H2]. cbn [join_texts]. rewrite H1. cbn [bind]. rewrite IH1. cbn [bind].
  split; [reflexivity|now apply Forall_cons].
Qed.
Lemma joined_chars sep ts : characters sep -> Forall characters ts -> characters (joined sep ts).
Proof.
  intros Hs. induction 1 as [|t ts Ht Hts IH]; [apply Forall_nil|]. destruct ts as [|t' ts]; [exact Ht|].
  change (joined sep (t :: t' :: ts)) with (t ++ sep ++ joined sep (t' :: ts)).
  apply Forall_app. split; [exact Ht|]. apply Forall_app. split; [exact Hs|exact IH].
Qed.
Definition room (sep : list Z) (ts : list (list Z)) : Z := fold_right (fun t n => zlen t + zlen sep + n) 0 ts.
Lemma room_nonneg sep ts : 0 <= room sep ts.
Proof. induction ts as [|t ts IH]; cbn [room fold_right]; [lia|]. fold (room sep ts). pose proof (zlen_nonneg t). pose proof (zlen_nonneg sep). lia. Qed.
Lemma joined_room sep ts : zlen (joined sep ts) <= room sep ts.
Proof.
  induction ts as [|t ts IH]; [unfold zlen; cbn; lia|]. cbn [room fold_right]. fold (room sep ts).
  pose proof (zlen_nonneg sep). destruct ts as [|t' ts].
  - cbn [joined]. pose proof (room_nonneg sep []). lia.
  - change (joined sep (t :: t' :: ts)) with (t ++ sep ++ joined sep (t' :: ts)). rewrite !zlen_app. lia.
Qed.
Lemma join_len_ok sep ts : forall len, 0 <= len -> len + room sep ts < 2^31 ->
  join_len (zlen sep) ts len = len + room sep ts.
Proof.
  induction ts as [|t ts IH]; intros len H0 Hl; cbn [join_len room fold_right] in *; [lia|]. fold (room sep ts) in *.
  pose proof (zlen_nonneg t). pose proof (zlen_nonneg sep). pose proof (room_nonneg sep ts).
  rewrite s32_small by lia. rewrite IH by lia. lia.
Qed.
Lemma join_print_ok sep ts : ts <> [] -> forall done rest, zlen (joined sep ts) < zlen rest ->
  exists rest', join_print sep ts (zlen done) (done ++ rest) = Ok (done ++ joined sep ts ++ 0 :: rest').
Proof.
  induction ts as [|t ts IH]; [easy|]. intros _ done rest Hr. cbn [join_print].
  set (u := match ts with [] => t | _ => t ++ sep end).
  assert (Hu : joined sep (t :: ts) = u ++ match ts with [] => [] | _ => joined sep ts end).
  { subst u. destruct ts as [|t' ts]; [now rewrite app_nil_r|]. now rewrite <- app_assoc. }
  clearbody u. rewrite Hu, zlen_app in Hr.
  assert (Hj : 0 <= zlen match ts with [] => [] | _ => joined sep ts end) by apply zlen_nonneg.
  assert (W : exists r2, write (done ++ rest) (zlen done) (u ++ [0]) = Ok (done ++ (u ++ [0]) ++ r2) /\ zlen rest = zlen u + 1 + zlen r2).
  { exists (skipn (length (u ++ [0])) rest).
    assert (Hl : (length (u ++ [0%Z]) <= length rest)%nat) by (rewrite app_length; change (length [0]) with 1%nat; unfold zlen in *; lia).
    split.
    - rewrite <- (firstn_skipn (length (u ++ [0])) rest) at 1. apply write_app. unfold zlen. rewrite firstn_length_le by exact Hl. reflexivity.
    - unfold zlen. rewrite skipn_length. rewrite app_length in Hl |- *. cbn [length] in Hl |- *. lia. }
  destruct W as (r2 & -> & Hr2). cbn [bind]. rewrite Hu.
  replace (done ++ (u ++ [0]) ++ r2) with ((done ++ u) ++ 0 :: r2) by (rewrite <- !app_assoc; reflexivity).
  replace (zlen done + zlen u) with (zlen (done ++ u)) by apply zlen_app.
  destruct ts as [|t' ts].
  - cbn [join_print]. exists r2. rewrite app_nil_r, <- app_assoc. reflexivity.
  - destruct (IH ltac:(discriminate) (done ++ u) (0 :: r2)) as (rest' & E).
    + rewrite zlen_cons. lia.
    + exists rest'. rewrite E. now rewrite <- !app_assoc.
Qed.
