(** Nested bundles are opened and put back (C91). *)

From Coq Require Import ZArith List Bool Lia.
From Verif Require Import Base BaseProofs Bytes Text UtilModel UtilProofs TimetagModel WireSpec SerialModel SerialSpec SerialProofs SerialProps
  AtomSModel AtomUModel AtomProps WireModel WireProofs WireProps BundleSModel BundleSProofs BundleSProps ArgProofs ExprModel ExprListModel ExprSpec
  ExprProps ExprListProofs ExprListProps FnCastModel DeserProofs DeserProps EvalModel EvalSpec EvalRep EvalBundle EvalProofs EvalSim EvalSteps
  MemberModel MemberSpec.
Import ListNotations.
Open Scope Z_scope.

Lemma header_zero : header (0, 0) = empty_header.
Proof. reflexivity. Qed.

Section Open.
Context (fresh : Z -> bytes) (Hfresh : forall n, 0 <= n -> zlen (fresh n) = n).

(** The first argument of a message. *)
Lemma first_arg buf m P a xs post : std_message slash (M a xs) -> zlen (enc_message (M a xs)) + 4 < 2^31 ->
  buf = P ++ enc_message (M a xs) ++ post -> shows buf m (zlen P) (wm_of (M a xs)) -> ms_cache_size m = 0 ->
  exists P0 post0, buf = P0 ++ concat (map enc_value xs) ++ post0 /\
    get_arg buf m 0 = Ok (match xs with [] => None | v :: _ => Some (AS (zlen P0) (vtag v)) end).
Proof.
  intros Hs Hl Hbuf (_ & _ & _ & _ & Hsh) Hc. cbn [wm_of w_args] in Hsh. destruct Hsh as (t & d & Ht & Htags & Hd & Hdata).
  apply std_args in Hs as (Ha & Hwa & Hsl & Hv).
  assert (Hlv' : zlen (concat (map enc_value xs)) + 4 < 2^31).
  { cbn [enc_message] in Hl. rewrite zlen_sized', !zlen_app in Hl.
    pose proof (zlen_nonneg (pad_str a)). pose proof (zlen_nonneg (pad_str (44 :: map vtag xs))). lia. }
  assert (Hn : zlen xs < 2^31).
  { cbn [enc_message] in Hl. rewrite zlen_sized', !zlen_app in Hl.
    pose proof (zlen_nonneg (pad_str a)). pose proof (zlen_nonneg (concat (map enc_value xs))).
    unfold pad_str at 2 in Hl. rewrite zlen_app, zlen_cons in Hl.
    match type of Hl with context [zlen (zeros ?b)] => pose proof (zlen_nonneg (zeros b)) end.
    assert (zlen (map vtag xs) = zlen xs) by (unfold zlen; now rewrite map_length). lia. }
  destruct (slice_inv _ _ _ _ Hdata) as (P0 & post0 & Hb0 & Hd0 & _).
  assert (Hany : Forall (std_value any) xs) by (eapply Forall_impl; [|exact Hv]; intros v; apply (proj1 (std_any slash))).
  exists P0, post0. split; [exact Hb0|].
  destruct xs as [|v xs]; [now apply (get_arg_out buf m t [])|].
  assert (Htag : forall n v', nth_error (v :: xs) n = Some v' -> rd buf (t + Z.of_nat n + 1) = Ok (vtag v')).
  { intros n v' Hnv. replace (t + Z.of_nat n + 1) with (t + Z.of_nat (S n)) by lia.
    apply (rdstr_nth fresh Hfresh buf t (44 :: map vtag (v :: xs)) Htags). cbn [nth_error]. now rewrite nth_error_map, Hnv. }
  pose proof (get_arg_in buf m t d (v :: xs) post0 Ht Hd Htags Htag P0 Hb0 (eq_sym Hd0)) as G.
  specialize (G Hany ltac:(lia) Hn 0%nat v Hc eq_refl). change (Z.of_nat 0) with 0 in G. rewrite G, <- Hd0. do 3 f_equal.
  change (off (v :: xs) 0) with 0. lia.
Qed.

Lemma open_atom st x l ms : stands x (VBundle ms) ->
  exists nst, open_bundle fresh st (Some (x :: l)) = Ok (Nested nst) /\ bundle_rep nst (inside ms).
Proof.
  intros ((Hok & Hc) & Hs & Hn & Ht). unfold open_bundle. rewrite aget_zero. cbn [hd_error bind]. rewrite Ht. cbn [vtag Z.eqb Pos.eqb].
  destruct x as [tg w p]. cbn [a_tt vtag] in Ht. subst tg.
  set (us := match p with PBndl us => us | _ => [] end).
  replace (match Atom 46 w p with Atom _ _ (PBndl ms0) => ms0 | _ => [] end) with us by (unfold us; destruct p; reflexivity).
  assert (K : Forall ok_msg us /\ raw_value (Atom 46 w p) = VBundle (raw_msgs us)).
  { cbn [ok_atom] in Hok. unfold us. destruct p as [|s|b|us'].
    - split; [constructor|reflexivity].
    - destruct Hok as (_ & K & _). discriminate K.
    - destruct Hok as (_ & K & _). discriminate K.
    - destruct Hok as (_ & _ & K). split; [|reflexivity]. clear -K. induction us'; constructor; [apply K|apply IHus', K]. }
  destruct K as (Ho & Er). rewrite Er in Hc, Hs, Hn. destruct Hc as (Hstd & Hl). cbn [narrow] in Hn. injection Hn as Hn.
  rewrite bundle_size_ok by exact Ho. cbn [bind].
  assert (L : 16 + zlen (enc_umsgs us) = zlen (enc_bundle empty_header (raw_msgs us))).
  { unfold enc_bundle. now rewrite enc_umsgs_raw, zlen_app. }
  rewrite L. rewrite C12_bundle_encoding; [|exact Ho|rewrite Hfresh; [lia|apply zlen_nonneg]]. cbn [bind].
  eexists. split; [reflexivity|]. exists (raw_msgs us), []. cbn [b_buf b_len inside time msgs fst snd]. rewrite header_zero, app_nil_r.
  fold (enc_bundle empty_header (raw_msgs us)). repeat split; auto; lia.
Qed.
Lemma bndl_copy_ok P0 ms more post : Forall (std_message slash) ms -> zlen (enc_bundle empty_header ms) < 2^31 ->
  bndl_copy (P0 ++ (enc_value (VBundle ms) ++ more) ++ post) (Some (AS (zlen P0) 46)) = Ok (Some (enc_bundle empty_header ms)).
Proof.
  intros Hs Hl. unfold bndl_copy. cbn [as_tt as_data Z.eqb Pos.eqb negb]. cbn [enc_value]. unfold sized. fold (enc_bundle empty_header ms).
  set (e := enc_bundle empty_header ms) in *. rewrite <- !app_assoc, rd32_be. cbn [bind].
  assert (16 <= zlen e) by (unfold e, enc_bundle; rewrite zlen_app; change (zlen empty_header) with 16; pose proof (zlen_nonneg (concat (map enc_message ms))); lia).
  unfold u32. rewrite Z.mod_small by lia. rewrite (proj2 (Z.eqb_neq _ _)) by lia.
  replace (zlen P0 + 4) with (zlen (P0 ++ be_bytes 4 (zlen e))) by (rewrite zlen_app, zlen_be; reflexivity).
  rewrite app_assoc, slice_app. reflexivity.
Qed.
Lemma narrow_bundle v ms : narrow v = VBundle ms -> exists ms0, v = VBundle ms0 /\ map narrow_msg ms0 = ms.
Proof. destruct v as [t x|t x| | | | |ms0]; cbn [narrow]; try discriminate; try (repeat destruct (_ =? _); discriminate). intros [=]. eauto. Qed.

Lemma open_string st w s x l : bundle_rep st w -> stands x (VStr s) ->
  match EvalSpec.lookup (selects true) w s with
  | None => open_bundle fresh st (Some (x :: l)) = Ok Missing
  | Some (VBundle ms :: _) => exists nst, open_bundle fresh st (Some (x :: l)) = Ok (Nested nst) /\ bundle_rep nst (inside ms)
  | Some _ => open_bundle fresh st (Some (x :: l)) = Ok NoBundle
  end.
Proof.
  intros Hrep Hx. apply stands_str in Hx as (Ht & Es & _). unfold open_bundle. rewrite aget_zero. cbn [hd_error bind]. rewrite Ht, Es.
  cbn [Z.eqb Pos.eqb bind]. destruct (first_rep st w s Hrep) as (r & -> & Hr). cbn [bind].
  destruct r as [ar|]; [|now rewrite Hr].
  destruct Hr as (m & more & rs1 & a & xs & rs2 & P & post & -> & Hh & _ & _ & _ & Hlk & Hby & HP & Hsh & Hc).
  change (rd (m :: more) 0) with (Ok m). cbn [bind]. rewrite Hlk.
  destruct Hh as (room & _ & _ & _ & _ & Hstd & Hlen).
  assert (Hs : std_message slash (M a xs)) by (rewrite Forall_forall in Hstd; apply Hstd; apply in_elt).
  assert (Hl : zlen (enc_message (M a xs)) + 4 < 2^31).
  { pose proof (enc_chunk enc_message (rs1 ++ M a xs :: rs2) (M a xs) (in_elt _ _ _)). rewrite zlen_app, zlen_header in Hlen. lia. }
  destruct (first_arg _ m P a xs post Hs Hl Hby Hsh Hc) as (P0 & post0 & Hb & Eg). rewrite Eg. cbn [bind].
  destruct xs as [|v xs]; [reflexivity|]. cbn [map].
  destruct (narrow v) as [t y|t y|s1 f1|s1|d1|t1|ms] eqn:En.
  all: try (assert (Hv : vtag v <> 46) by
    (rewrite <- (proj1 (proj2 (proj1 narrow_same v))); rewrite En; cbn [vtag]; apply std_args in Hs as (_ & _ & _ & Hs); inversion Hs as [|? ? Hs1 _]; subst;
     apply (proj1 narrow_same) in Hs1; rewrite En in Hs1; cbn in Hs1; intros Ev; try discriminate Ev; subst; intuition discriminate);
    unfold bndl_copy; cbn [as_tt]; rewrite (proj2 (Z.eqb_neq _ _) Hv); reflexivity).
  destruct (narrow_bundle v ms En) as (ms0 & -> & Hms). change (vtag (VBundle ms0)) with 46.
  assert (Hsm : Forall (std_message slash) ms0).
  { apply std_args in Hs as (_ & _ & _ & Hs). inversion Hs as [|? ? Hs1 _]; subst. cbn [std_value] in Hs1. now apply all_Forall. }
  assert (Hle : zlen (enc_bundle empty_header ms0) + 4 < 2^31).
  { cbn [enc_message map concat] in Hl. rewrite zlen_sized', !zlen_app in Hl. cbn [enc_value] in Hl. rewrite zlen_sized' in Hl.
    fold (enc_bundle empty_header ms0) in Hl. pose proof (zlen_nonneg (pad_str a)). pose proof (zlen_nonneg (concat (map enc_value xs))).
    match type of Hl with context [zlen (pad_str (?x :: ?y))] => pose proof (zlen_nonneg (pad_str (x :: y))) end. lia. }
  rewrite Hb. cbn [map concat]. rewrite bndl_copy_ok by (try assumption; lia). cbn [bind].
  eexists. split; [reflexivity|]. exists ms0, []. cbn [b_buf b_len inside time msgs fst snd]. rewrite header_zero, app_nil_r.
  fold (enc_bundle empty_header ms0). repeat split; auto; lia.
Qed.
Lemma open_other st x l v : stands x v -> match v with VBundle _ | VStr _ => False | _ => True end ->
  open_bundle fresh st (Some (x :: l)) = Ok NoBundle.
Proof.
  intros (_ & Hs & Hn & Ht) Hv. unfold open_bundle. rewrite aget_zero. cbn [hd_error bind]. rewrite Ht.
  assert (vtag v <> 115 /\ vtag v <> 46) as [H1 H2].
  { apply (proj1 narrow_same) in Hs. rewrite Hn in Hs. destruct v; cbn in Hs |- *; try contradiction; split; intros E; try discriminate E; subst; intuition discriminate. }
  now rewrite (proj2 (Z.eqb_neq _ _) H1), (proj2 (Z.eqb_neq _ _) H2).
Qed.
Lemma opens_rep st w l vs ms : bundle_rep st w -> Forall2 stands l vs -> opens (selects true) w vs ms ->
  exists nst, open_bundle fresh st (Some l) = Ok (Nested nst) /\ bundle_rep nst (inside ms).
Proof.
  intros Hw Hl Ho. destruct Ho as [ms more|s more ms rest Hs]; inversion Hl as [|x v l' vs' Hx _]; subst.
  - now apply open_atom.
  - pose proof (open_string st w s x l' Hw Hx) as K. now rewrite Hs in K.
Qed.

(** The changed bundle as an atom. *)
Lemma back_atom nst t ms x : bundle_rep nst (W t ms) ->
  exists y, set_bndl_s x (bytes_of nst) (b_len nst) = Ok y /\ stands y (VBundle ms).
Proof.
  intros (rs & room & Hb & Hl & _ & _ & Hs & Hm & Hlen). cbn [time msgs] in *. unfold set_bndl_s, bytes_of. rewrite Hb, Hl.
  destruct (C13_deserialize [] (header t) rs room (zlen_header t) Hs) as (us & E & Ho & Hr).
  { unfold enc_bundle. exact Hlen. }
  unfold enc_bundle in E. cbn [app] in E. rewrite <- app_assoc in E. change (zlen (@nil Z)) with 0 in E. rewrite E. cbn [bind].
  eexists. split; [reflexivity|]. rewrite Hm in Hr.
  assert (R : raw_value (set_bndl x 0 us) = VBundle ms) by (cbn [raw_value set_bndl existsb Z.eqb Pos.eqb orb]; f_equal; exact Hr).
  assert (Hsm : Forall (std_message slash) ms).
  { rewrite <- Hm. apply Forall_forall. intros m Hi. apply in_map_iff in Hi as (m0 & <- & Hi). rewrite Forall_forall in Hs.
    apply (proj2 (proj2 narrow_same m0)). auto. }
  split; [|split; [|split; [|reflexivity]]].
  - split; [|rewrite R].
    + cbn [ok_atom set_bndl]. split; [unfold u64; lia|]. split; [reflexivity|]. now apply all_Forall.
    + split; [exact Hsm|]. unfold enc_bundle. rewrite zlen_app. rewrite <- Hm, enc_len. rewrite zlen_app, zlen_header in Hlen.
      change (zlen empty_header) with 16. exact Hlen.
  - rewrite R. cbn [std_value]. now apply all_Forall.
  - rewrite R. cbn [narrow]. f_equal. rewrite <- Hm, map_map. apply map_ext. intros m. apply (proj2 narrow_idem).
Qed.

(** A message with an empty bundle. *)
Lemma empty_stands : exists y, copy_atom (set_bndl atom_fresh 0 []) = Ok y /\ stands y (VBundle []).
Proof.
  apply copy_stands. split; [|split; [exact I|split; reflexivity]]. split; [cbn; lia|]. cbn. split; [constructor|reflexivity].
Qed.
Lemma new_rep st w p : bundle_rep st w -> hd 0 p = 47 -> nonul p -> wf_bytes p -> zlen p + 4 < 2^32 ->
  fits (with_msgs w (msgs w ++ [M p [VBundle []]])) ->
  exists y st', new_member fresh st p = Ok (Some [y], st') /\ stands y (VBundle []) /\
    bundle_rep st' (with_msgs w (msgs w ++ [M p [VBundle []]])).
Proof.
  intros Hrep Hp Hn Hw Hl Hf. destruct empty_stands as (y & Ey & Sy).
  set (a := set_bndl atom_fresh 0 []) in *. set (r := M p [VBundle []]).
  assert (Hok : ok_msg (UMsg (Some p) [a])) by (cbn; repeat split; auto; lia).
  assert (Hs : std_message slash r) by (cbn; auto).
  unfold new_member. fold a. unfold set_address. rewrite Hp. cbn [Z.eqb Pos.eqb]. rewrite (proj2 size_ok _ Hok). cbn [bind].
  assert (Eu : enc_umsg (UMsg (Some p) [a]) = enc_message r) by (unfold enc_umsg; cbn [raw_msg map concat]; apply app_nil_r).
  rewrite Eu. rewrite (C12_message_encoding p [a]); [|exact Hok|change (map raw_value [a]) with [VBundle []]; fold r; rewrite Hfresh; [lia|apply zlen_nonneg]].
  change (map raw_value [a]) with [VBundle []]. fold r. cbn [bind].
  apply rep_holds in Hrep as (rs & Hh & Hm).
  destruct (append_rep fresh Hfresh st (time w) rs r Hh Hs) as (st' & E & Hh').
  { unfold fits in Hf. cbn [with_msgs msgs] in Hf. fold r in Hf. rewrite <- Hm in Hf. change [r] with (map narrow_msg [r]) in Hf.
    rewrite <- map_app, enc_len in Hf. exact Hf. }
  destruct (wrap init_msg (enc_message r) 0) as [mm| |]; [|discriminate E..]. cbn [bind] in E |- *.
  destruct (append_message _ _ _ _ _) as [[len b]| |]; [|discriminate E..]. cbn [bind] in E |- *. injection E as <-.
  rewrite Ey. cbn [bind]. exists y. eexists. split; [reflexivity|]. split; [exact Sy|].
  apply rep_holds. exists (rs ++ [r]). split; [exact Hh'|]. cbn [with_msgs msgs]. rewrite map_app, Hm. reflexivity.
Qed.
End Open.
