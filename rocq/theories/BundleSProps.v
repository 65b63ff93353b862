(** Theorems about looking up, adding, removing, replacing and renaming
    messages of serialized bundles and about combining bundles: C19 to C24 and
    C41 to C43.

    A bundle is sixteen bytes of header and well-formed messages [ws]
    (WireSpec.v); [post] is whatever else the buffer holds behind it. *)

From Coq Require Import ZArith List Bool Lia.
From Verif Require Import Base BaseProofs Text Bytes UtilModel UtilProofs
  MatchModel MatchSpec MatchLang MatchFacts MatchProps
  WireSpec SerialModel SerialSpec SerialProofs WireModel WireProofs WireWalk WireProps
  BundleSModel BundleSProofs.
Import ListNotations.
Open Scope Z_scope.

(** * C19: renaming *)

(** What osc_error.h calls a valid address. *)
Definition valid_address (a : list Z) : Prop :=
  hd 0 a = 47 /\ 2 <= zlen a /\ ~ In 35 a /\ ~ In 32 a.

Lemma validate_iff a : validate_address (Some a) = 0 <-> valid_address a.
Proof.
  unfold validate_address, valid_address.
  destruct (hd 0 a =? 47) eqn:E1; destruct (zlen a <? 2) eqn:E2; cbn [negb orb];
    try (split; [discriminate|intros (? & ? & _); lia]).
  destruct (existsb _ a) eqn:E3.
  - split; [discriminate|]. intros (_ & _ & H1 & H2). apply existsb_exists in E3 as (c & Hc & Hor).
    apply orb_true_iff in Hor as [Hq|Hq]; apply Z.eqb_eq in Hq; subst c; contradiction.
  - split; [|reflexivity]. intros _. split; [lia|]. split; [lia|].
    assert (Hn : forall c, In c a -> (c =? 35) || (c =? 32) = false).
    { intros c Hc. destruct ((c =? 35) || (c =? 32)) eqn:E; [|reflexivity].
      assert (existsb (fun c => (c =? 35) || (c =? 32)) a = true) by (apply existsb_exists; eauto). congruence. }
    split; intros Hi; apply Hn in Hi; discriminate.
Qed.

(** The copy has the new address and the old type tags and data, and nothing
    behind it is touched. *)
Theorem C19_rename P a tags data post m0 m na dest :
  let w := WM a (Some (tags, data)) in
  let w' := WM na (Some (tags, data)) in
  let buf := P ++ enc_wmsg w ++ post in
  wf_wmsg w -> wf_wmsg w' -> valid_address na -> zlen (enc_wmsg w') <= zlen dest ->
  wrap m0 buf (zlen P) = Ok m ->
  rename_copy (Some dest) buf m (zlen na) (Some na)
  = Ok (zlen (wbody w'), Some (enc_wmsg w' ++ skipn (length (enc_wmsg w')) dest)).
Proof.
  intros w w' buf Hw Hw' Hv Hd Hwr. unfold buf in *. rewrite wrap_ok in Hwr by assumption.
  injection Hwr as <-. apply validate_iff in Hv. exact (rename_ok P a tags data post m0 na dest Hw Hw' Hv Hd).
Qed.
Print Assumptions C19_rename.

(** An invalid address is refused: nothing is written and 0 is returned. *)
Theorem C19_invalid_refused dest buf m n na :
  match na with Some a => ~ valid_address a | None => True end ->
  rename_copy dest buf m n na = Ok (0, dest).
Proof.
  intros H. unfold rename_copy. destruct dest as [d|]; [|reflexivity].
  destruct (validate_address na =? 0) eqn:E; [|reflexivity]. exfalso.
  apply Z.eqb_eq in E. destruct na as [a|]; [|discriminate]. apply H. now apply validate_iff.
Qed.
Print Assumptions C19_invalid_refused.

(** A message without type tags cannot be renamed: its type tag pointer is
    NULL and is read. *)
Theorem C19_no_typetags_refuted :
  let buf := enc_wmsg (WM (str "/a") None) in
  exists m, wrap init_msg buf 0 = Ok m /\
    rename_copy (Some (zeros 64)) buf m 2 (Some (str "/b")) = Ub NullDeref.
Proof. eexists. split; [vm_compute; reflexivity|]. vm_compute. reflexivity. Qed.
Print Assumptions C19_no_typetags_refuted.

Ltac wfw := split; [repeat constructor; discriminate|split; [|vm_compute; reflexivity]];
  cbn [w_args]; first [exact I | repeat constructor; discriminate].

Example C19_hypotheses :
  wf_wmsg (WM (str "/a") (Some (str ",i", [0; 0; 0; 1]))) /\
  wf_wmsg (WM (str "/bcdef") (Some (str ",i", [0; 0; 0; 1]))) /\ valid_address (str "/bcdef").
Proof.
  split; [wfw|]. split; [wfw|]. apply validate_iff. vm_compute. reflexivity.
Qed.

(** * C20: looking up *)

(** The messages that the matcher selects, with their positions, in order.
    [selects] reads the answer of the matcher: full matches have code 3; for
    partial matches see below. *)
Definition selected (fullmatch : bool) (pat : list Z) (ws : list wmsg) : list (Z * wmsg) :=
  filter (fun pw => selects fullmatch pat (w_addr (snd pw))) (combine (starts 16 ws) ws).

Theorem C20_lookup fullmatch pat hdr ws post :
  zlen hdr = 16 -> Forall wf_wmsg ws ->
  let buf := hdr ++ enc_wmsgs ws ++ post in
  exists r, lookup_address buf (zlen (hdr ++ enc_wmsgs ws)) pat fullmatch = Ok r /\
    match r with
    | None => selected fullmatch pat ws = []
    | Some ar => selected fullmatch pat ws <> [] /\
        Forall2 (fun m pw => shows buf m (fst pw) (snd pw) /\ ms_cache_size m = 0) ar
          (selected fullmatch pat ws)
    end.
Proof.
  intros Hh Hw buf. rewrite zlen_app, Hh. unfold buf at 1. rewrite lookup_ok by assumption.
  fold (selected fullmatch pat ws). unfold picked. fold (selected fullmatch pat ws).
  eexists. split; [reflexivity|].
  assert (HF : Forall2 (fun m pw => shows buf m (fst pw) (snd pw) /\ ms_cache_size m = 0)
     (map (fun pw => wrapped init_msg (fst pw) (snd pw)) (selected fullmatch pat ws)) (selected fullmatch pat ws)).
  { assert (Hall : Forall (fun pw => shows buf (wrapped init_msg (fst pw) (snd pw)) (fst pw) (snd pw))
                     (combine (starts 16 ws) ws)).
    { rewrite <- Hh. unfold buf. clear Hh. revert Hw. generalize hdr. induction ws as [|w ws IH]; intros h Hw; [constructor|].
      inversion Hw as [|? ? H1 H2]; subst x l. cbn [starts combine]. rewrite enc_wmsgs_cons. constructor.
      - cbn [fst snd]. rewrite <- app_assoc. now apply shows_wrapped.
      - rewrite <- zlen_app. specialize (IH (h ++ enc_wmsg w) H2). rewrite <- !app_assoc in *. exact IH. }
    unfold selected. induction Hall as [|x l Hx _ IH]; [constructor|]. cbn [filter].
    destruct (selects _ _ _); [|exact IH]. cbn [map]. constructor; [|exact IH]. split; [exact Hx|reflexivity]. }
  destruct (selected fullmatch pat ws) as [|x l]; [reflexivity|]. cbn [map] in *. split; [discriminate|exact HF].
Qed.
Print Assumptions C20_lookup.

Theorem C20_exists fullmatch pat hdr ws post :
  zlen hdr = 16 -> Forall wf_wmsg ws ->
  address_exists (hdr ++ enc_wmsgs ws ++ post) (zlen (hdr ++ enc_wmsgs ws)) pat fullmatch
  = Ok (match selected fullmatch pat ws with [] => false | _ => true end).
Proof.
  intros Hh Hw. rewrite zlen_app, Hh, address_exists_ok by assumption. f_equal. unfold selected.
  generalize 16. clear. induction ws as [|w ws IH]; intros p; [reflexivity|].
  cbn [existsb starts combine filter snd]. destruct (selects _ _ _); [reflexivity|]. apply IH.
Qed.
Print Assumptions C20_exists.

Theorem C20_first pat hdr ws post :
  zlen hdr = 16 -> Forall wf_wmsg ws ->
  first_full_match (hdr ++ enc_wmsgs ws ++ post) (zlen (hdr ++ enc_wmsgs ws)) pat
  = Ok (option_map fst (hd_error (selected true pat ws))).
Proof.
  intros Hh Hw. rewrite zlen_app, Hh, first_full_match_ok by assumption. f_equal. unfold found, selected.
  induction (combine (starts 16 ws) ws) as [|x l IH]; [reflexivity|]. cbn [find filter].
  destruct (selects _ _ _); [reflexivity|]. apply IH.
Qed.
Print Assumptions C20_first.

(** What is selected, for well-formed patterns and addresses within the
    matcher's backtrack limit: with [fullmatch] the addresses the pattern
    denotes, without it those where pattern and address agree as far as the
    shorter of the two goes. *)
Theorem C20_full_is_language : forall (p : pattern) (a : address),
  pattern_ok p -> address_ok a -> within_backtrack_limit p a ->
  selects true (pattern_text p) (address_text a) = true <-> Forall2 component_matches p a.
Proof.
  intros p a Hp Ha Hl. destruct (C02_match_decides_language p a Hp Ha Hl) as (r & Hr & H3 & _).
  unfold selects. rewrite Hr. rewrite <- H3. apply Z.eqb_eq.
Qed.
Print Assumptions C20_full_is_language.

Theorem C20_partial_is_language : forall (p : pattern) (a : address),
  pattern_ok p -> address_ok a -> within_backtrack_limit p a ->
  selects false (pattern_text p) (address_text a) = true <->
  exists p1 p2 a1 a2, p = p1 ++ p2 /\ a = a1 ++ a2 /\ Forall2 component_matches p1 a1 /\
                      (p2 = [] \/ a2 = []).
Proof.
  intros p a Hp Ha Hl. destruct (C02_match_decides_language p a Hp Ha Hl) as (r & Hr & H3 & H1 & H2 & Hc).
  assert (Hsel : selects false (pattern_text p) (address_text a) = true <-> code r = 1 \/ code r = 2 \/ code r = 3).
  { unfold selects. rewrite Hr. destruct Hc as [E|[E|[E|E]]]; rewrite E; cbn.
    - split; [discriminate|lia].
    - split; [auto|]. intros _.
      destruct (C03_match_offsets_are_component_boundaries p a r Hp Ha Hr ltac:(auto))
        as (p1 & p2 & a1 & a2 & Ep & _ & _ & Hpo & _ & Hp2 & _).
      rewrite Hpo, Ep. unfold pattern_text. rewrite map_app, concat_app.
      rewrite app_nth2 by (unfold zlen; lia). unfold zlen. rewrite Nat2Z.id, Nat.sub_diag.
      destruct p2 as [|t p2]; [exfalso; rewrite E in Hp2; destruct Hp2 as [Hp2 _]; specialize (Hp2 eq_refl); lia|].
      reflexivity.
    - split; auto.
    - split; auto. }
  rewrite Hsel. split.
  - intros [E|[E|E]].
    + apply H1 in E as (p1 & p2 & Ep & _ & HF). exists p1, p2, a, []. rewrite app_nil_r. auto.
    + apply H2 in E as (a1 & a2 & Ea & _ & HF). exists p, [], a1, a2. rewrite app_nil_r. auto.
    + apply H3 in E. exists p, [], a, []. rewrite !app_nil_r. auto.
  - intros (p1 & p2 & a1 & a2 & Ep & Ea & HF & [-> | ->]); rewrite app_nil_r in *; subst.
    + destruct a2 as [|x a2]; [right; right; apply H3; now rewrite app_nil_r|].
      right; left. apply H2. exists a1, (x :: a2). split; [reflexivity|]. split; [discriminate|assumption].
    + destruct p2 as [|x p2]; [right; right; apply H3; now rewrite app_nil_r|].
      left. apply H1. exists p1, (x :: p2). split; [reflexivity|]. split; [discriminate|assumption].
Qed.
Print Assumptions C20_partial_is_language.

(** A literal address selects the messages with exactly that address. *)
Definition literal_address (a : list Z) : Prop :=
  hd 0 a = 47 /\ Forall (fun c => ~ In c [0; 42; 63; 91; 93; 123; 125]) a.

Lemma selects_literal p a : literal_address p -> hd 0 a = 47 -> Forall (fun c => ~ In c [0; 42]) a ->
  selects true p a = true <-> p = a.
Proof.
  intros [Hp Hc] Ha Hac. destruct (C04_literal_match_is_equality p a Hp Ha Hc Hac) as (r & Hr & H3).
  unfold selects. rewrite Hr, <- H3. apply Z.eqb_eq.
Qed.

Theorem C20_literal pat ws :
  literal_address pat -> Forall (fun w => hd 0 (w_addr w) = 47 /\ Forall (fun c => ~ In c [0; 42]) (w_addr w)) ws ->
  forall p w, In (p, w) (selected true pat ws) <-> In (p, w) (combine (starts 16 ws) ws) /\ w_addr w = pat.
Proof.
  intros Hp Hw p w. unfold selected. rewrite filter_In. cbn [snd].
  split; intros [Hin Hs]; (split; [assumption|]).
  - rewrite Forall_forall in Hw. destruct (Hw w (in_combine_r _ _ _ _ Hin)) as [H1 H2].
    symmetry. now apply selects_literal.
  - rewrite Forall_forall in Hw. destruct (Hw w (in_combine_r _ _ _ _ Hin)) as [H1 H2].
    apply selects_literal; auto.
Qed.
Print Assumptions C20_literal.

(** Without [fullmatch], a pattern the matcher rejects with an error selects
    messages it has nothing to do with: the error code is taken for a partial
    match. *)
Theorem C20_malformed_pattern_refuted :
  let w := WM (str "/x") (Some (str ",", [])) in
  (exists r, osc_match (str "/{a") (str "/x") = Ok r /\ 3 < code r) /\
  selected false (str "/{a") [w] = [(16, w)].
Proof.
  split; [|vm_compute; reflexivity]. exists {| code := 768; poff := 0; aoff := 0 |}.
  split; vm_compute; reflexivity.
Qed.
Print Assumptions C20_malformed_pattern_refuted.

(** osc_bundle_s_getFirstEqualAddr (C42). *)
Theorem C42_first_equal_address adr hdr ws post :
  zlen hdr = 16 -> Forall wf_wmsg ws ->
  exists r, first_equal_addr (hdr ++ enc_wmsgs ws ++ post) (zlen (hdr ++ enc_wmsgs ws)) adr = Ok r /\
  match r with
  | None => ~ In adr (map w_addr ws)
  | Some p => exists ws1 w ws2, ws = ws1 ++ w :: ws2 /\ p = 16 + zlen (enc_wmsgs ws1) /\
                w_addr w = adr /\ ~ In adr (map w_addr ws1)
  end.
Proof.
  intros Hh Hw. rewrite zlen_app, Hh, first_equal_addr_ok by assumption. eexists. split; [reflexivity|].
  unfold found. generalize 16. clear. induction ws as [|w ws IH]; intros p; [intros []|].
  cbn [starts combine find snd]. destruct (streq adr (w_addr w)) eqn:E.
  - cbn [option_map fst]. apply streq_iff in E. exists [], w, ws. repeat split; auto. cbn. lia.
  - assert (Hne : w_addr w <> adr) by (intros H; rewrite (proj2 (streq_iff _ _) (eq_sym H)) in E; discriminate).
    specialize (IH (p + zlen (enc_wmsg w))).
    destruct (find _ _) as [[q w']|]; cbn [option_map fst] in *.
    + destruct IH as (ws1 & x & ws2 & -> & -> & Ha & Hn). exists (w :: ws1), x, ws2.
      split; [reflexivity|]. split; [rewrite enc_wmsgs_cons, zlen_app; lia|]. split; [assumption|].
      cbn [map]. intros [H|H]; contradiction.
    + cbn [map]. intros [H|H]; contradiction.
Qed.
Print Assumptions C42_first_equal_address.

(** * C41: addressIsBound *)

(** A message has an argument: a type tag behind the comma. *)
Definition has_argument (w : wmsg) : bool :=
  match w_args w with Some (_ :: _ :: _, _) => true | _ => false end.

Lemma bound_at P w post : wf_wmsg w ->
  let buf := P ++ enc_wmsg w ++ post in
  let tgs := zlen P + 4 + padded_string_len (zlen (w_addr w)) in
  (if negb (tgs - zlen P <? zlen (enc_wmsg w)) then Ok (Cont tt) else
    do c <- rd buf (tgs + 1);
    Ok (if negb (c =? 0) then Done true else Cont tt))
  = Ok (if has_argument w then @Done unit bool true else Cont tt).
Proof.
  intros Hw buf tgs. pose proof (zlen_nonneg P).
  assert (Hpl : padded_string_len (zlen (w_addr w)) = zlen (pad_str (w_addr w))).
  { destruct Hw as (_ & _ & Hl). unfold wbody in Hl. rewrite zlen_app in Hl.
    pose proof (zlen_nonneg (w_addr w)). pose proof (zlen_pad (w_addr w)).
    pose proof (zlen_nonneg (match w_args w with None => [] | Some (tags, data) => pad_str tags ++ data end)).
    rewrite padded_string_len_eq; [lia|]. Z.div_mod_to_equations. lia. }
  unfold has_argument. destruct w as [a [[tags data]|]]; cbn [w_addr w_args] in *.
  - unfold wf_wmsg in Hw. cbn [w_addr w_args] in Hw. destruct Hw as (Ha & Ht & _).
    assert (El : zlen (enc_wmsg (WM a (Some (tags, data)))) = 4 + zlen (pad_str a) + (zlen (pad_str tags) + zlen data)).
    { rewrite zlen_enc. unfold wbody. cbn [w_addr w_args]. rewrite !zlen_app. lia. }
    pose proof (zlen_pad a). pose proof (zlen_pad tags).
    assert (Htl : zlen tags < zlen (pad_str tags) /\ 4 <= zlen (pad_str tags)).
    { pose proof (zlen_nonneg tags). Z.div_mod_to_equations. lia. }
    replace (tgs - zlen P <? zlen (enc_wmsg (WM a (Some (tags, data))))) with true
      by (symmetry; apply Z.ltb_lt; rewrite El; unfold tgs; pose proof (zlen_nonneg data); lia).
    cbn [negb].
    assert (Er : rd buf (tgs + 1) = rd (pad_str tags ++ data ++ post) 1).
    { unfold buf, enc_wmsg, sized, wbody. cbn [w_addr w_args].
      rewrite <- !app_assoc. rewrite rd_app_r by (unfold tgs; pose proof (zlen_nonneg (pad_str a)); lia).
      rewrite rd_app_r by (rewrite zlen_be by lia; unfold tgs; pose proof (zlen_nonneg (pad_str a)); lia).
      rewrite zlen_be by lia.
      rewrite rd_app_r by (unfold tgs; lia). f_equal. unfold tgs. lia. }
    rewrite Er. unfold pad_str.
    destruct tags as [|c [|c' tags]].
    + reflexivity.
    + reflexivity.
    + cbn [app]. match goal with |- context [rd (c :: c' :: ?l) 1] => change (rd (c :: c' :: l) 1) with (if 1 <? 0 then Ub OOB else Ok c') end.
      change (1 <? 0) with false. cbn [bind]. destruct (c' =? 0) eqn:E; [|reflexivity].
      exfalso. apply Z.eqb_eq in E. subst c'. inversion Ht as [|? ? _ Ht2]; subst. inversion Ht2; subst. now apply H4.
  - assert (El : zlen (enc_wmsg (WM a None)) = 4 + zlen (pad_str a)).
    { rewrite zlen_enc. unfold wbody. cbn [w_addr w_args]. rewrite ?app_nil_r. lia. }
    pose proof (zlen_pad a).
    replace (tgs - zlen P <? zlen (enc_wmsg (WM a None))) with false
      by (symmetry; apply Z.ltb_ge; rewrite El; unfold tgs; lia).
    reflexivity.
Qed.

(** For a literal address and full matches: true exactly if a message with
    that address has arguments. *)
Theorem C41_address_is_bound_literal pat hdr ws post :
  zlen hdr = 16 -> Forall wf_wmsg ws -> literal_address pat ->
  Forall (fun w => hd 0 (w_addr w) = 47 /\ Forall (fun c => ~ In c [0; 42]) (w_addr w)) ws ->
  exists b, address_is_bound (hdr ++ enc_wmsgs ws ++ post) (zlen (hdr ++ enc_wmsgs ws)) pat true = Ok b /\
    (b = true <-> exists w, In w ws /\ w_addr w = pat /\ has_argument w = true).
Proof.
  intros Hh Hw Hp Ha. unfold address_is_bound. rewrite zlen_app, Hh.
  match goal with |- context [raw_loop _ _ _ ?b _] => set (body := b) end.
  rewrite (raw_walk hdr ws post body
    (fun (s : unit) p w => if selects true pat (w_addr w)
       then if streq (w_addr w) pat then Ok (if has_argument w then Done true else Cont tt) else body s p
       else Ok (Cont tt)));
    [|assumption|assumption|].
  2:{ intros s P w post' Hb Hwf. unfold body at 1. rewrite Hb, msg_size_at by assumption. cbn [bind].
      rewrite (match_hit _ true pat P w post'
        (fun h => if negb h then Ok (Cont tt) else
           do k <- add_int (s32 (zlen (wbody w))) 4;
           if negb (zlen P + 4 + padded_string_len (zlen pat) - zlen P <? k) then Ok (Cont tt) else
           do c <- rd (P ++ enc_wmsg w ++ post') (zlen P + 4 + padded_string_len (zlen pat) + 1);
           Ok (if negb (c =? 0) then Done true else Cont tt)) eq_refl Hwf).
      destruct (selects true pat (w_addr w)) eqn:Es; cbn [negb]; [|reflexivity].
      destruct (streq (w_addr w) pat) eqn:Eq.
      - apply streq_iff in Eq. subst pat. rewrite msg_step_at by assumption. cbn [bind]. now apply bound_at.
      - unfold body. rewrite Hb, msg_size_at by assumption. cbn [bind].
        rewrite (match_hit _ true pat P w post'
        (fun h => if negb h then Ok (Cont tt) else
           do k <- add_int (s32 (zlen (wbody w))) 4;
           if negb (zlen P + 4 + padded_string_len (zlen pat) - zlen P <? k) then Ok (Cont tt) else
           do c <- rd (P ++ enc_wmsg w ++ post') (zlen P + 4 + padded_string_len (zlen pat) + 1);
           Ok (if negb (c =? 0) then Done true else Cont tt)) eq_refl Hwf).
        now rewrite Es. }
  match goal with |- context [walk ?f tt 16 ws] => set (step := f) end.
  assert (H : forall p ws, Forall (fun w => hd 0 (w_addr w) = 47 /\ Forall (fun c => ~ In c [0; 42]) (w_addr w)) ws ->
            walk step tt p ws = Ok (if existsb (fun w => streq (w_addr w) pat && has_argument w) ws then Done true else Cont tt)).
  { intros p0 l Hl. revert p0. induction Hl as [|w l [H1 H2] _ IH]; intros p; [reflexivity|].
    cbn [walk existsb]. unfold step at 1.
    pose proof (selects_literal pat (w_addr w) Hp H1 H2) as Hsel. pose proof (streq_iff (w_addr w) pat) as Hst.
    destruct (selects true pat (w_addr w)), (streq (w_addr w) pat); cbn [bind andb orb].
    - destruct (has_argument w); [reflexivity|apply IH].
    - exfalso. assert (false = true) by (apply Hst; symmetry; now apply Hsel). discriminate.
    - exfalso. assert (false = true) by (apply Hsel; symmetry; now apply Hst). discriminate.
    - apply IH. }
  rewrite H by assumption. cbn [bind].
  exists (existsb (fun w => streq (w_addr w) pat && has_argument w) ws). split.
  - destruct (existsb _ ws); reflexivity.
  - rewrite existsb_exists. split; intros (w & Hi & Hx); exists w; (split; [assumption|]).
    + apply andb_true_iff in Hx as [E1 E2]. apply streq_iff in E1. auto.
    + destruct Hx as [E1 E2]. apply andb_true_iff. split; [now apply streq_iff|assumption].
Qed.
Print Assumptions C41_address_is_bound_literal.

(** For a pattern the answer is wrong both ways: the type tags are looked for
    where the padded pattern, not the padded address, would end. *)
Theorem C41_address_is_bound_pattern_refuted :
  let w1 := WM (str "/abcdefgh") (Some (str ",", [])) in
  let w2 := WM (str "/a") (Some (str ",i", [0; 0; 0; 1])) in
  let hdr := empty_header in
  has_argument w1 = false /\ has_argument w2 = true /\
  address_is_bound (hdr ++ enc_wmsgs [w1]) (zlen (hdr ++ enc_wmsgs [w1])) (str "/*") true = Ok true /\
  address_is_bound (hdr ++ enc_wmsgs [w2]) (zlen (hdr ++ enc_wmsgs [w2])) (str "/[abcdefg]") true = Ok false.
Proof. vm_compute. auto. Qed.
Print Assumptions C41_address_is_bound_pattern_refuted.

Example C41_hypotheses :
  let ws := [WM (str "/a") (Some (str ",i", [0; 0; 0; 1])); WM (str "/b") (Some (str ",", []))] in
  Forall wf_wmsg ws /\ literal_address (str "/a") /\
  Forall (fun w => hd 0 (w_addr w) = 47 /\ Forall (fun c => ~ In c [0; 42]) (w_addr w)) ws.
Proof.
  split; [repeat (constructor; [wfw|]); constructor|].
  split; [split; [reflexivity|]|]; repeat constructor; cbn; intuition discriminate.
Qed.

(** * C21: removing *)

Theorem C21_remove adr hdr ws post :
  zlen hdr = 16 -> Forall wf_wmsg ws ->
  let buf := hdr ++ enc_wmsgs ws ++ post in
  exists keep rest,
    keep = filter (fun w => if list_eq_dec Z.eq_dec (w_addr w) adr then false else true) ws /\
    remove_message adr (zlen (hdr ++ enc_wmsgs ws)) buf
    = Ok (zlen (hdr ++ enc_wmsgs keep), hdr ++ enc_wmsgs keep ++ rest) /\
    zlen (hdr ++ enc_wmsgs keep ++ rest) = zlen buf /\
    skipn (length (hdr ++ enc_wmsgs ws)) (hdr ++ enc_wmsgs keep ++ rest) = post.
Proof.
  intros Hh Hw buf. rewrite zlen_app, Hh. unfold buf. rewrite remove_ok by assumption.
  fold buf. assert (Ek : others adr ws = filter (fun w => if list_eq_dec Z.eq_dec (w_addr w) adr then false else true) ws).
  { unfold others, streq. clear. induction ws as [|w ws IH]; [reflexivity|]. cbn [filter].
    destruct (list_eq_dec _ _ _); cbn [negb]; [exact IH|now rewrite IH]. }
  set (v := hdr ++ enc_wmsgs (others adr ws)).
  exists (others adr ws), (skipn (length v) buf). split; [exact Ek|].
  assert (Ev : overlay buf v = hdr ++ enc_wmsgs (others adr ws) ++ skipn (length v) buf).
  { unfold overlay, v. now rewrite <- app_assoc. }
  assert (Hl : zlen v <= zlen (hdr ++ enc_wmsgs ws)).
  { unfold v. rewrite !zlen_app. unfold others. pose proof (zlen_filter_enc (fun w => negb (streq (w_addr w) adr)) ws). lia. }
  split; [now rewrite Ev|]. rewrite <- Ev. split.
  - apply zlen_overlay. unfold buf. rewrite app_assoc, (zlen_app (hdr ++ enc_wmsgs ws)). pose proof (zlen_nonneg post). lia.
  - unfold overlay. assert (Hn : (length v <= length (hdr ++ enc_wmsgs ws))%nat) by (unfold zlen in Hl; lia).
    rewrite skipn_app. rewrite (skipn_all2 v) by exact Hn. cbn [app]. rewrite <- skipn_add.
    replace (length v + (length (hdr ++ enc_wmsgs ws) - length v))%nat with (length (hdr ++ enc_wmsgs ws)) by lia.
    unfold buf. rewrite app_assoc. now apply skipn_exact.
Qed.
Print Assumptions C21_remove.

Example C21_example :
  let a := WM (str "/a") (Some (str ",i", [0; 0; 0; 1])) in
  let b := WM (str "/bcde") (Some (str ",", [])) in
  Forall wf_wmsg [a; b; a] /\
  match remove_message (str "/a") (zlen (empty_header ++ enc_wmsgs [a; b; a])) (empty_header ++ enc_wmsgs [a; b; a]) with
  | Ok (n, out) => firstn (Z.to_nat n) out = empty_header ++ enc_wmsgs [b]
  | _ => False
  end.
Proof. split; [repeat (constructor; [wfw|]); constructor|vm_compute; reflexivity]. Qed.

(** * C22: appending and replacing *)

(** [junk] is the contents of fresh memory and long enough. *)
Theorem C22_append junk hdr ws room mP w mpost m0 m :
  Forall wf_wmsg ws -> wf_wmsg w -> zlen (enc_wmsg w) <= zlen junk ->
  wrap m0 (mP ++ enc_wmsg w ++ mpost) (zlen mP) = Ok m ->
  append_message junk (zlen (hdr ++ enc_wmsgs ws)) (Some (hdr ++ enc_wmsgs ws ++ room))
    (mP ++ enc_wmsg w ++ mpost) (Some m)
  = Ok (zlen (hdr ++ enc_wmsgs (ws ++ [w])), Some (hdr ++ enc_wmsgs (ws ++ [w]))).
Proof.
  intros Hws Hw Hj Hm. rewrite wrap_ok in Hm by assumption. injection Hm as <-.
  rewrite enc_wmsgs_app, enc_wmsgs_one. rewrite !app_assoc. rewrite <- (app_assoc mP).
  now apply append_ok.
Qed.
Print Assumptions C22_append.

(** Appending to no bundle makes one with a zero time tag. *)
Theorem C22_append_creates junk len mP w mpost m0 m :
  wf_wmsg w -> 16 + zlen (enc_wmsg w) <= zlen junk ->
  wrap m0 (mP ++ enc_wmsg w ++ mpost) (zlen mP) = Ok m ->
  append_message junk len None (mP ++ enc_wmsg w ++ mpost) (Some m)
  = Ok (zlen (empty_header ++ enc_wmsgs [w]), Some (empty_header ++ enc_wmsgs [w])).
Proof.
  intros Hw Hj Hm. rewrite wrap_ok in Hm by assumption. injection Hm as <-.
  rewrite enc_wmsgs_one. now apply append_new_bundle.
Qed.
Print Assumptions C22_append_creates.

Theorem C22_append_nothing junk len bndl mbuf : append_message junk len bndl mbuf None = Ok (len, bndl).
Proof. reflexivity. Qed.
Print Assumptions C22_append_nothing.

(** The buffer has [buflen] bytes of which the bundle takes the first
    [bufpos]; the new message may be in any buffer, even this one. *)
Theorem C22_replace junk hdr ws1 old ws2 room nP new npost :
  Forall wf_wmsg ws1 -> wf_wmsg old -> wf_wmsg new ->
  let b := hdr ++ enc_wmsgs (ws1 ++ old :: ws2) in
  let b' := hdr ++ enc_wmsgs (ws1 ++ new :: ws2) in
  zlen b' <= zlen junk ->
  exists rest,
    replace_message junk (zlen (b ++ room)) (zlen b) (b ++ room) (zlen (hdr ++ enc_wmsgs ws1))
      (nP ++ enc_wmsg new ++ npost) (zlen nP)
    = Ok (0, Z.max (zlen (b ++ room)) (zlen b'), zlen b', b' ++ rest) /\
    zlen (b' ++ rest) = Z.max (zlen (b ++ room)) (zlen b').
Proof.
  intros Hw1 Ho Hn b b' Hj.
  assert (Eb : b = (hdr ++ enc_wmsgs ws1) ++ enc_wmsg old ++ enc_wmsgs ws2)
    by (unfold b; rewrite enc_wmsgs_app, enc_wmsgs_cons, <- !app_assoc; reflexivity).
  assert (Eb' : b' = (hdr ++ enc_wmsgs ws1) ++ enc_wmsg new ++ enc_wmsgs ws2)
    by (unfold b'; rewrite enc_wmsgs_app, enc_wmsgs_cons, <- !app_assoc; reflexivity).
  pose proof (replace_ok junk (zlen (b ++ room)) (hdr ++ enc_wmsgs ws1) old (enc_wmsgs ws2) room nP new npost Ho Hn) as H.
  rewrite Eb' in Hj. specialize (H ltac:(rewrite !(zlen_app (hdr ++ enc_wmsgs ws1)), (zlen_app (enc_wmsg new)) in Hj; lia)).
  cbv zeta in H. rewrite <- Eb, <- Eb' in H. rewrite <- Eb' in Hj.
  assert (Er : (hdr ++ enc_wmsgs ws1) ++ enc_wmsg old ++ enc_wmsgs ws2 ++ room = b ++ room)
    by (rewrite Eb, <- !app_assoc; reflexivity).
  rewrite Er in H. specialize (H eq_refl). rewrite H. destruct (zlen b' >? zlen (b ++ room)) eqn:E.
  - exists []. rewrite app_nil_r. split; [reflexivity|]. lia.
  - exists (skipn (length b') (b ++ room)). split; [reflexivity|].
    change (b' ++ skipn (length b') (b ++ room)) with (overlay (b ++ room) b').
    rewrite zlen_overlay by lia. lia.
Qed.
Print Assumptions C22_replace.

Example C22_example :
  let a := WM (str "/a") (Some (str ",i", [0; 0; 0; 1])) in
  let b := WM (str "/bcde") (Some (str ",", [])) in
  let buf := empty_header ++ enc_wmsgs [a; b; a] in
  Forall wf_wmsg [a; b; a] /\ zlen (empty_header ++ enc_wmsgs [b; b; a]) <= zlen (zeros 100) /\
  replace_message (zeros 100) (zlen buf) (zlen buf) buf 16 buf (zlen (empty_header ++ enc_wmsg a))
  = Ok (0, zlen buf, zlen (empty_header ++ enc_wmsgs [b; b; a]), empty_header ++ enc_wmsgs [b; b; a]) /\
  zlen (enc_wmsg a) = zlen (enc_wmsg b).
Proof.
  split; [repeat (constructor; [wfw|]); constructor|].
  split; [vm_compute; discriminate|]. split; vm_compute; reflexivity.
Qed.

(** * C23: set operations *)

(** Is there a message with the address [a]? *)
Definition has_address (a : list Z) (ws : list wmsg) : bool :=
  existsb (fun w => if list_eq_dec Z.eq_dec (w_addr w) a then true else false) ws.

Definition literal_bundle (ws : list wmsg) : Prop :=
  Forall wf_wmsg ws /\ Forall (fun w => literal_address (w_addr w)) ws /\ NoDup (map w_addr ws).

Lemma literal_weak a : literal_address a -> hd 0 a = 47 /\ Forall (fun c => ~ In c [0; 42]) a.
Proof.
  intros [H1 H2]. split; [assumption|]. eapply Forall_impl; [|exact H2]. intros c Hc Hi. apply Hc. cbn in Hi |- *. tauto.
Qed.

Lemma present_has a ws : literal_address a -> Forall (fun w => literal_address (w_addr w)) ws ->
  present a ws = has_address a ws.
Proof.
  intros Ha Hw. unfold present, has_address. induction Hw as [|w ws H _ IH]; [reflexivity|].
  cbn [existsb]. rewrite IH. f_equal. destruct (literal_weak _ H) as [H1 H2].
  pose proof (selects_literal a (w_addr w) Ha H1 H2) as Hs.
  destruct (list_eq_dec Z.eq_dec (w_addr w) a) as [E|E].
  - apply Hs. now symmetry.
  - destruct (selects true a (w_addr w)); [|reflexivity]. exfalso. apply E. symmetry. now apply Hs.
Qed.

Lemma has_in a ws : has_address a ws = true <-> In a (map w_addr ws).
Proof.
  unfold has_address. rewrite existsb_exists, in_map_iff. split; intros (w & H1 & H2); exists w.
  - destruct (list_eq_dec _ _ _); [auto|discriminate].
  - split; [assumption|]. destruct (list_eq_dec _ _ _); congruence.
Qed.

Lemma add_missing_literal q : forall ws acc,
  Forall (fun w => literal_address (w_addr w)) acc -> Forall (fun w => literal_address (w_addr w)) ws ->
  NoDup (map w_addr ws) ->
  add_missing q acc ws = acc ++ filter (fun w => q w && negb (has_address (w_addr w) acc)) ws.
Proof.
  induction ws as [|w ws IH]; intros acc Ha Hw Hd; [cbn; now rewrite app_nil_r|].
  inversion Hw as [|? ? H1 H2]; subst. inversion Hd as [|? ? Hn Hd']; subst.
  cbn [add_missing fold_left filter]. rewrite present_has by assumption.
  destruct (q w && negb (has_address (w_addr w) acc)) eqn:E.
  - fold (add_missing q (acc ++ [w]) ws). rewrite IH; [|apply Forall_app; auto|assumption|assumption].
    rewrite <- app_assoc. cbn [app]. do 2 f_equal.
    assert (Hx : forall x, In x ws -> w_addr x <> w_addr w)
      by (intros x Hx Hc; apply Hn; rewrite <- Hc; now apply in_map).
    apply filter_ext_in. intros x Hi. f_equal. f_equal. unfold has_address. rewrite existsb_app. cbn [existsb].
    destruct (list_eq_dec Z.eq_dec (w_addr w) (w_addr x)) as [Hc|_]; [exfalso; apply (Hx x Hi); now symmetry|].
    now rewrite !orb_false_r.
  - fold (add_missing q acc ws). now apply IH.
Qed.

(** The result is a buffer [out] whose first [n] bytes are the bundle. *)
Definition is_bundle (n : Z) (out hdr : bytes) (ws : list wmsg) : Prop :=
  n = zlen (hdr ++ enc_wmsgs ws) /\ exists rest, out = (hdr ++ enc_wmsgs ws) ++ rest.

Lemma is_bundle_overlay o hdr ws : is_bundle (zlen (hdr ++ enc_wmsgs ws)) (overlay o (hdr ++ enc_wmsgs ws)) hdr ws.
Proof. split; [reflexivity|]. eexists. reflexivity. Qed.

Theorem C23_union junk hdr1 ws1 post1 hdr2 ws2 post2 :
  zlen hdr1 = 16 -> zlen hdr2 = 16 -> literal_bundle ws1 -> literal_bundle ws2 ->
  ws1 <> [] \/ ws2 <> [] ->
  exists n out,
    bundle_union junk
      (Some (zlen (hdr1 ++ enc_wmsgs ws1), Some (hdr1 ++ enc_wmsgs ws1 ++ post1)))
      (Some (zlen (hdr2 ++ enc_wmsgs ws2), Some (hdr2 ++ enc_wmsgs ws2 ++ post2))) = Ok (Some (n, out)) /\
    is_bundle n out hdr1 (ws1 ++ filter (fun w => negb (has_address (w_addr w) ws1)) ws2).
Proof.
  intros H1 H2 (W1 & L1 & D1) (W2 & L2 & D2) Hne. rewrite !zlen_app, H1, H2.
  rewrite union_ok by assumption. do 2 eexists. split; [reflexivity|].
  rewrite add_missing_literal by assumption. apply is_bundle_overlay.
Qed.
Print Assumptions C23_union.

(** [out] is the caller's buffer, or NULL for a new one. *)
Theorem C23_intersection junk hdr1 ws1 post1 hdr2 ws2 post2 out :
  zlen hdr1 = 16 -> zlen hdr2 = 16 -> literal_bundle ws1 -> literal_bundle ws2 ->
  ws1 <> [] -> ws2 <> [] ->
  match out with Some b => zlen (hdr1 ++ enc_wmsgs ws1) <= zlen b | None => True end ->
  exists n out',
    bundle_intersection junk (zlen (hdr1 ++ enc_wmsgs ws1)) (hdr1 ++ enc_wmsgs ws1 ++ post1)
      (zlen (hdr2 ++ enc_wmsgs ws2)) (hdr2 ++ enc_wmsgs ws2 ++ post2) out = Ok (n, out') /\
    is_bundle n out' hdr1 (filter (fun w => has_address (w_addr w) ws2) ws1).
Proof.
  intros H1 H2 (W1 & L1 & D1) (W2 & L2 & D2) N1 N2 Ho. rewrite !zlen_app, H1, H2.
  rewrite intersection_ok; try assumption.
  2:{ destruct out as [b|]; [rewrite zlen_app, H1 in Ho; exact Ho|].
      cbn [out_buffer]. pose proof (zlen_nonneg (enc_wmsgs ws1)). pose proof (zlen_nonneg (enc_wmsgs ws2)).
      unfold zlen at 2. rewrite repeat_length. lia. }
  do 2 eexists. split; [reflexivity|].
  rewrite add_missing_literal by (try assumption; constructor). cbn [app].
  rewrite (filter_ext_in _ (fun w => has_address (w_addr w) ws2)); [apply is_bundle_overlay|].
  intros w Hi. cbn. rewrite andb_true_r. apply present_has; [|assumption].
  now apply (proj1 (Forall_forall _ _) L1 w Hi).
Qed.
Print Assumptions C23_intersection.

Theorem C23_difference junk hdr1 ws1 post1 hdr2 ws2 post2 out :
  zlen hdr1 = 16 -> zlen hdr2 = 16 -> literal_bundle ws1 -> literal_bundle ws2 ->
  ws1 <> [] \/ ws2 <> [] ->
  match out with Some b => zlen (hdr1 ++ enc_wmsgs ws1 ++ enc_wmsgs ws2) <= zlen b | None => True end ->
  exists n out',
    bundle_difference junk (zlen (hdr1 ++ enc_wmsgs ws1)) (hdr1 ++ enc_wmsgs ws1 ++ post1)
      (zlen (hdr2 ++ enc_wmsgs ws2)) (hdr2 ++ enc_wmsgs ws2 ++ post2) out = Ok (n, out') /\
    is_bundle n out' hdr1 (filter (fun w => negb (has_address (w_addr w) ws2)) ws1 ++
                           filter (fun w => negb (has_address (w_addr w) ws1)) ws2).
Proof.
  intros H1 H2 (W1 & L1 & D1) (W2 & L2 & D2) Hne Ho. rewrite !zlen_app, H1, H2.
  rewrite difference_ok; try assumption.
  2:{ pose proof (zlen_nonneg (enc_wmsgs ws1)). pose proof (zlen_nonneg (enc_wmsgs ws2)).
      destruct out as [b|]; [rewrite !zlen_app, H1 in Ho; cbn [out_buffer]; lia|].
      cbn [out_buffer]. unfold zlen at 3. rewrite repeat_length. lia. }
  do 2 eexists. split; [reflexivity|].
  rewrite (add_missing_literal _ ws1 []) by (try assumption; constructor). cbn [app].
  assert (E1 : filter (fun w => negb (present (w_addr w) ws2) && negb (has_address (w_addr w) [])) ws1
             = filter (fun w => negb (has_address (w_addr w) ws2)) ws1).
  { apply filter_ext_in. intros w Hi. cbn. rewrite andb_true_r. f_equal. apply present_has; [|assumption].
    now apply (proj1 (Forall_forall _ _) L1 w Hi). }
  rewrite E1. rewrite add_missing_literal; [|apply Forall_forall; intros w Hi; apply filter_In in Hi as [Hi _];
    now apply (proj1 (Forall_forall _ _) L1 w Hi)|assumption|assumption].
  rewrite (filter_ext_in _ (fun w => negb (has_address (w_addr w) ws1)) ws2); [apply is_bundle_overlay|].
  intros w Hi. rewrite present_has by (try assumption; now apply (proj1 (Forall_forall _ _) L2 w Hi)).
  destruct (has_address (w_addr w) ws1) eqn:E; [reflexivity|]. cbn [negb andb].
  destruct (has_address (w_addr w) (filter _ ws1)) eqn:E'; [|reflexivity]. exfalso.
  apply has_in, in_map_iff in E' as (x & Hx & Hf). apply filter_In in Hf as [Hf _].
  assert (has_address (w_addr w) ws1 = true) by (apply has_in; rewrite <- Hx; now apply in_map). congruence.
Qed.
Print Assumptions C23_difference.

(** Where the result has no messages because an operand has none, the
    identifier is written but the time tag is left as the memory was. *)
Theorem C23_empty_time_tag_refuted hdr1 hdr2 junk :
  zlen hdr1 = 16 -> zlen hdr2 = 16 -> zlen junk = 16 ->
  bundle_union junk (Some (16, Some hdr1)) (Some (16, Some hdr2))
  = Ok (Some (16, bundle_id ++ skipn 8 junk)) /\
  bundle_intersection junk 16 hdr1 16 hdr2 None = Ok (16, bundle_id ++ skipn 8 junk) /\
  bundle_difference junk 16 hdr1 16 hdr2 None = Ok (16, bundle_id ++ skipn 8 junk).
Proof.
  intros H1 H2 Hj. assert (Hs : set_bundle_id (firstn 16 junk) = Ok (bundle_id ++ skipn 8 junk)).
  { unfold zlen in Hj. rewrite firstn_all2 by lia.
    do 16 (destruct junk as [|? junk]; [cbn in Hj; lia|]). destruct junk; [|cbn in Hj; lia]. vm_compute. reflexivity. }
  unfold bundle_union, bundle_intersection, bundle_difference, out_header. cbn [Z.eqb andb orb].
  change (16 =? 16) with true. cbn [andb orb]. rewrite !orb_true_r. cbn [orb].
  rewrite Hs. cbn [bind]. auto.
Qed.
Print Assumptions C23_empty_time_tag_refuted.

(** With an address that is a pattern, messages with other addresses get
    lost: the union of a bundle with /a and one with /* has one message. *)
Theorem C23_pattern_address_refuted :
  let a := WM (str "/a") (Some (str ",", [])) in
  let b := WM (str "/*") (Some (str ",", [])) in
  let b1 := empty_header ++ enc_wmsgs [a] in
  let b2 := empty_header ++ enc_wmsgs [b] in
  exists out, bundle_union [] (Some (zlen b1, Some b1)) (Some (zlen b2, Some b2)) = Ok (Some (zlen b1, out)).
Proof. eexists. vm_compute. reflexivity. Qed.
Print Assumptions C23_pattern_address_refuted.

Example C23_hypotheses :
  let a := WM (str "/a") (Some (str ",i", [0; 0; 0; 1])) in
  let b := WM (str "/bcde") (Some (str ",", [])) in
  let c := WM (str "/c") None in
  literal_bundle [a; b] /\ literal_bundle [c; a] /\
  [a; b] ++ filter (fun w => negb (has_address (w_addr w) [a; b])) [c; a] = [a; b; c] /\
  filter (fun w => has_address (w_addr w) [c; a]) [a; b] = [a].
Proof.
  split; [split; [repeat (constructor; [wfw|]); constructor|]|
    split; [split; [repeat (constructor; [wfw|]); constructor|]|split; reflexivity]];
  (split; [repeat constructor; cbn; intuition discriminate|
   repeat constructor; cbn; intuition discriminate]).
Qed.

(** * C24: concatenation *)

Theorem C24_concat hdr1 ws1 post1 hdr2 ws2 post2 dest :
  zlen hdr1 = 16 -> zlen hdr2 = 16 ->
  zlen (hdr1 ++ enc_wmsgs (ws1 ++ ws2)) <= zlen dest -> zlen (hdr1 ++ enc_wmsgs (ws1 ++ ws2)) < 2^31 ->
  exists n out,
    bundle_concat (zlen (hdr1 ++ enc_wmsgs ws1)) (Some (hdr1 ++ enc_wmsgs ws1 ++ post1))
      (zlen (hdr2 ++ enc_wmsgs ws2)) (Some (hdr2 ++ enc_wmsgs ws2 ++ post2)) dest = Ok (n, out) /\
    is_bundle n out hdr1 (ws1 ++ ws2) /\
    skipn (Z.to_nat n) out = skipn (Z.to_nat n) dest.
Proof.
  intros H1 H2 Hd Hm. rewrite (zlen_app hdr1 (enc_wmsgs ws1)), (zlen_app hdr2), H1, H2.
  rewrite concat_ok by assumption. do 2 eexists. split; [reflexivity|].
  split; [apply is_bundle_overlay|].
  unfold overlay. replace (Z.to_nat (zlen (hdr1 ++ enc_wmsgs (ws1 ++ ws2)))) with (length (hdr1 ++ enc_wmsgs (ws1 ++ ws2)))
    by (unfold zlen; lia). now apply skipn_exact.
Qed.
Print Assumptions C24_concat.

(** With one operand NULL the other is copied; with both NULL nothing is. *)
Theorem C24_concat_null b post dest len1 len2 :
  zlen b <= zlen dest -> zlen b < 2^31 ->
  bundle_concat (zlen b) (Some (b ++ post)) len2 None dest = Ok (zlen b, b ++ skipn (length b) dest) /\
  bundle_concat len1 None (zlen b) (Some (b ++ post)) dest = Ok (zlen b, b ++ skipn (length b) dest) /\
  bundle_concat len1 None len2 None dest = Ok (0, dest).
Proof.
  intros Hd Hm. pose proof (zlen_nonneg b). unfold bundle_concat.
  rewrite memcpy_first, write_first by assumption. cbn [bind]. rewrite s32_id by lia. auto.
Qed.
Print Assumptions C24_concat_null.

Example C24_example :
  let a := WM (str "/a") (Some (str ",i", [0; 0; 0; 1])) in
  let b := WM (str "/bcde") (Some (str ",", [])) in
  let b1 := empty_header ++ enc_wmsgs [a; b] in let b2 := empty_header ++ enc_wmsgs [b] in
  bundle_concat (zlen b1) (Some b1) (zlen b2) (Some b2) (zeros 80)
  = Ok (zlen (empty_header ++ enc_wmsgs [a; b; b]), empty_header ++ enc_wmsgs [a; b; b] ++ zeros 16).
Proof. vm_compute. reflexivity. Qed.

(** * C43: wrapping a message into a bundle *)

(** osc_bundle_s_wrapMessage: the body [w] of a message becomes a bundle of
    that one message; the time tag is what was in memory before. *)
Theorem C43_wrap_message junk w (bndl : option bytes) post :
  wf_wmsg w ->
  let body := wbody w in
  let mem := match bndl with Some b => b | None => firstn (Z.to_nat (zlen body + 20)) junk end in
  zlen body + 20 <= zlen (match bndl with Some b => b | None => junk end) ->
  exists hdr out,
    wrap_message junk (zlen body) (body ++ post) bndl
    = Ok (zlen body + 20, out, match bndl with Some _ => false | None => true end) /\
    hdr = bundle_id ++ firstn 8 (skipn 8 mem) /\
    is_bundle (zlen body + 20) out hdr [w].
Proof.
  intros Hw body mem Hm. unfold wrap_message. unfold wf_wmsg in Hw. destruct Hw as (_ & _ & Hl).
  fold body in Hl. pose proof (zlen_nonneg body).
  assert (Hmem : zlen body + 20 <= zlen mem).
  { unfold mem. destruct bndl as [b|]; [assumption|]. unfold zlen at 2. rewrite firstn_length. unfold zlen in *. lia. }
  replace (zlen body + 16 + 4) with (zlen body + 20) by lia.
  destruct (split_at mem 8) as (m1 & r1 & E1 & L1); [lia|].
  assert (Lr1 : zlen r1 >= zlen body + 12) by (apply (f_equal zlen) in E1; rewrite zlen_app in E1; lia).
  destruct (split_at r1 8) as (m2 & r2 & E2 & L2); [lia|].
  assert (Lr2 : zlen r2 >= zlen body + 4) by (apply (f_equal zlen) in E2; rewrite zlen_app in E2; lia).
  destruct (split_at r2 4) as (m3 & r3 & E3 & L3); [lia|].
  assert (Lr3 : zlen r3 >= zlen body) by (apply (f_equal zlen) in E3; rewrite zlen_app in E3; lia).
  destruct (split_at r3 (zlen body)) as (m4 & r4 & E4 & L4); [lia|].
  exists (bundle_id ++ m2), ((bundle_id ++ m2) ++ enc_wmsgs [w] ++ r4).
  assert (Eh : firstn 8 (skipn 8 mem) = m2).
  { rewrite E1, E2. replace 8%nat with (length m1) at 2 by (unfold zlen in L1; lia). rewrite skipn_exact by reflexivity.
    replace 8%nat with (length m2) by (unfold zlen in L2; lia). now apply firstn_exact. }
  assert (Hrun : (do b <- set_bundle_id mem; do b <- wr32 b 16 (zlen body); memcpy b 20 (body ++ post) 0 (zlen body))
                 = Ok ((bundle_id ++ m2) ++ enc_wmsgs [w] ++ r4)).
  { rewrite E1, E2, E3, E4. unfold set_bundle_id.
    pose proof (write_app [] m1 osc_id (m2 ++ m3 ++ m4 ++ r4)) as W1. cbn [app] in W1.
    change (zlen (@nil Z)) with 0 in W1. rewrite W1 by (unfold zlen in L1; change (length osc_id) with 8%nat; lia).
    cbn [bind]. pose proof (wr32_at (osc_id ++ m2) m3 (m4 ++ r4) (zlen body)) as W2.
    rewrite zlen_app, L2 in W2. change (zlen osc_id + 8) with 16 in W2. rewrite <- !app_assoc in W2.
    rewrite W2 by (unfold zlen in L3; lia). cbn [bind]. rewrite memcpy_first.
    pose proof (write_app (osc_id ++ m2 ++ be_bytes 4 (zlen body)) m4 body r4) as W3.
    rewrite !zlen_app, L2, zlen_be in W3. change (zlen osc_id + (8 + Z.of_nat 4)) with 20 in W3.
    rewrite <- !app_assoc in W3. rewrite W3 by (unfold zlen in L4; lia).
    rewrite enc_wmsgs_one. unfold enc_wmsg, sized. fold body. rewrite <- !app_assoc. reflexivity. }
  split; [|split; [now rewrite Eh|]].
  - clear - Hrun. unfold mem in Hrun. clear mem. destruct bndl as [b|].
    + destruct (set_bundle_id b) as [x| |]; [|discriminate|discriminate]. cbn [bind] in *.
      destruct (wr32 x 16 (zlen body)) as [y| |]; [|discriminate|discriminate]. cbn [bind] in *. rewrite Hrun. reflexivity.
    + destruct (set_bundle_id _) as [x| |]; [|discriminate|discriminate]. cbn [bind] in *.
      destruct (wr32 x 16 (zlen body)) as [y| |]; [|discriminate|discriminate]. cbn [bind] in *. rewrite Hrun. reflexivity.
  - split; [|exists r4; now rewrite <- !app_assoc].
    rewrite enc_wmsgs_one, !zlen_app, L2, zlen_enc. change (zlen bundle_id) with 8. fold body. lia.
Qed.
Print Assumptions C43_wrap_message.

Example C43_example :
  let w := WM (str "/a") (Some (str ",i", [0; 0; 0; 1])) in
  wf_wmsg w /\
  wrap_message (zeros 64) (zlen (wbody w)) (wbody w) None
  = Ok (32, empty_header ++ enc_wmsgs [w], true).
Proof. split; [wfw|vm_compute; reflexivity]. Qed.
