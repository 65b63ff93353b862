(** The evaluator's operations on the bundle (C57). *)

From Coq Require Import ZArith List Bool Lia.
From Verif Require Import Base BaseProofs Bytes UtilModel UtilProofs TimetagModel TimetagProofs
  WireSpec SerialModel SerialSpec SerialProofs SerialProps AtomSModel AtomUModel WireModel WireProofs WireWalk WireProps
  ArgProofs DeserProofs DeserProps ExprModel ExprListModel ExprSpec ExprProps ExprListProofs ExprListProps
  AtomProps BundleSModel BundleSProofs BundleSProps EvalModel EvalSpec EvalRep.
Import ListNotations.
Open Scope Z_scope.

Lemma same_streq a b : same_name a b = streq a b.
Proof. reflexivity. Qed.
Lemma enc_len rs : zlen (concat (map enc_message (map narrow_msg rs))) = zlen (concat (map enc_message rs)).
Proof.
  induction rs as [|r rs IH]; [reflexivity|]. cbn [map concat]. rewrite !zlen_app, IH.
  now rewrite (proj1 (proj2 narrow_same r)).
Qed.
Lemma narrow_msgs_app rs1 r rs2 : map narrow_msg (rs1 ++ r :: rs2) = map narrow_msg rs1 ++ narrow_msg r :: map narrow_msg rs2.
Proof. now rewrite map_app. Qed.

(** Bundles by their messages as serialized. *)
Definition holds (st : bst) (t : Z * Z) (rs : list message) : Prop :=
  exists room, b_buf st = Some (header t ++ concat (map enc_message rs) ++ room) /\
    b_len st = zlen (header t ++ concat (map enc_message rs)) /\
    0 <= fst t < 2^32 /\ 0 <= snd t < 2^32 /\ Forall (std_message slash) rs /\
    zlen (header t ++ concat (map enc_message rs)) + 4 < 2^31.
Lemma rep_holds st w : bundle_rep st w <-> exists rs, holds st (time w) rs /\ map narrow_msg rs = msgs w.
Proof.
  split.
  - intros (rs & room & H1 & H2 & H3 & H4 & H5 & H6 & H7). exists rs. split; [|exact H6]. exists room. tauto.
  - intros (rs & (room & H1 & H2 & H3 & H4 & H5 & H6) & H7). exists rs, room. tauto.
Qed.
Lemma holds_wf st t rs : holds st t rs -> Forall wf_wmsg (map wm_of rs).
Proof.
  intros (room & _ & _ & _ & _ & Hs & Hl). apply std_wfs; [exact Hs|]. rewrite zlen_app, zlen_header in Hl. lia.
Qed.
Lemma holds_buf st t rs : holds st t rs -> exists room,
  bytes_of st = header t ++ enc_wmsgs (map wm_of rs) ++ room /\ b_len st = zlen (header t ++ enc_wmsgs (map wm_of rs)) /\
  b_buf st = Some (header t ++ enc_wmsgs (map wm_of rs) ++ room).
Proof.
  intros (room & Hb & Hl & _). exists room. rewrite map_wm_enc. unfold bytes_of. rewrite Hb. auto.
Qed.

Section Bundles.
Context (fresh : Z -> bytes).
Context (Hfresh : forall n, 0 <= n -> zlen (fresh n) = n).
Notation matches := (selects true).

(** * A new message *)

Lemma make_rep a l vs : Forall2 stands l vs -> hd 0 a = 47 -> nonul a -> wf_bytes a -> zlen a + 4 < 2^32 ->
  zlen (enc_message (M a vs)) < 2^31 ->
  exists r, make_message fresh a l = Ok (enc_message r) /\ std_message slash r /\ narrow_msg r = M a vs.
Proof.
  intros Hst Ha Hn Hw Hl He. destruct (copy_list l vs Hst) as (ys & Hc & Hys).
  exists (M a (map raw_value ys)).
  assert (Hnar : map narrow (map raw_value ys) = vs).
  { clear - Hys. induction Hys as [|y v ys vs (_ & _ & Hy & _) _ IH]; [reflexivity|]. cbn [map]. now rewrite Hy, IH. }
  assert (Hs : std_message slash (M a (map raw_value ys))).
  { apply std_args. repeat split; try assumption.
    clear - Hys. induction Hys as [|y v ys vs (_ & Hy & _) _ IH]; constructor; assumption. }
  assert (He' : zlen (enc_message (M a (map raw_value ys))) = zlen (enc_message (M a vs))).
  { rewrite <- Hnar. symmetry. apply (proj1 (proj2 narrow_same (M a (map raw_value ys)))). }
  split; [|split; [exact Hs|cbn [narrow_msg]; now rewrite Hnar]].
  assert (Hok : ok_msg (UMsg (Some a) ys)).
  { cbn [ok_msg]. split; [auto|]. split.
    - rewrite <- He' in He. cbn [enc_message] in He. rewrite zlen_sized', !zlen_app in He.
      pose proof (zlen_nonneg (pad_str a)). pose proof (zlen_nonneg (concat (map enc_value (map raw_value ys)))).
      assert (zlen ys <= zlen (pad_str (44 :: map vtag (map raw_value ys)))).
      { unfold pad_str. rewrite zlen_app. zl. match goal with |- context [zlen (zeros ?b)] => pose proof (zlen_nonneg (zeros b)) end.
        unfold zlen at 1 2. rewrite !map_length. lia. }
      lia.
    - apply all_Forall. clear - Hys. induction Hys as [|y v ys vs ([Hy _] & _) _ IH]; constructor; assumption. }
  unfold make_message. rewrite Hc. cbn [bind]. unfold set_address. rewrite Ha. cbn [Z.eqb Pos.eqb].
  rewrite (proj2 size_ok _ Hok). cbn [bind].
  assert (Eu : enc_umsg (UMsg (Some a) ys) = enc_message (M a (map raw_value ys))).
  { unfold enc_umsg. cbn [raw_msg map concat]. apply app_nil_r. }
  rewrite Eu. apply C12_message_encoding; [exact Hok|]. rewrite Hfresh; [lia|apply zlen_nonneg].
Qed.

(** * Replacing and appending *)

Lemma replace_rep st t rs1 r0 rs2 r : holds st t (rs1 ++ r0 :: rs2) -> std_message slash r ->
  16 + zlen (concat (map enc_message (rs1 ++ r :: rs2))) + 4 < 2^31 ->
  exists st', replace_at fresh st (16 + zlen (concat (map enc_message rs1))) (enc_message r) = Ok st' /\
    holds st' t (rs1 ++ r :: rs2).
Proof.
  intros Hh Hr Hfit. pose proof (zlen_header t) as H16.
  destruct Hh as (room & Hb & Hl & Ht1 & Ht2 & Hs & Hlt).
  apply Forall_app in Hs as [Hs1 Hs2]. pose proof (Forall_inv Hs2) as Hs0. pose proof (Forall_inv_tail Hs2) as Hs3.
  rewrite piece in Hfit, Hlt, Hb, Hl.
  pose proof (zlen_nonneg (concat (map enc_message rs1))). pose proof (zlen_nonneg (concat (map enc_message rs2))).
  set (pre := header t ++ concat (map enc_message rs1)). set (post := concat (map enc_message rs2)).
  fold post in Hb, Hl, Hlt, Hfit, H0.
  assert (Hpre : zlen pre = 16 + zlen (concat (map enc_message rs1))) by (unfold pre; rewrite zlen_app; lia).
  assert (Hwf0 : wf_wmsg (wm_of r0)) by (apply (std_wf slash); [exact Hs0|]; rewrite !zlen_app in Hlt; lia).
  assert (Hwf : wf_wmsg (wm_of r)) by (apply (std_wf slash); [exact Hr|]; rewrite !zlen_app in Hfit; lia).
  rewrite <- Hpre. unfold replace_at, bytes_of. rewrite Hb.
  replace (header t ++ (concat (map enc_message rs1) ++ enc_message r0 ++ post) ++ room)
    with (pre ++ enc_message r0 ++ post ++ room) by (unfold pre; now rewrite <- !app_assoc).
  replace (header t ++ concat (map enc_message rs1) ++ enc_message r0 ++ post)
    with (pre ++ enc_message r0 ++ post) in Hl by (unfold pre; now rewrite <- !app_assoc).
  rewrite Hl. rewrite !enc_message_wm.
  pose proof (zlen_nonneg (enc_wmsg (wm_of r))). pose proof (zlen_nonneg (enc_wmsg (wm_of r0))). pose proof (zlen_nonneg room).
  pose proof (zlen_nonneg pre).
  pose proof (replace_le (fresh (zlen (pre ++ enc_wmsg (wm_of r0) ++ post) + zlen (enc_wmsg (wm_of r))))
    (zlen (pre ++ enc_wmsg (wm_of r0) ++ post)) pre (wm_of r0) post room [] (wm_of r) [] Hwf0 Hwf) as K.
  cbv zeta in K. cbn [app] in K. rewrite app_nil_r in K. change (zlen (@nil Z)) with 0 in K.
  rewrite K; clear K.
  - cbn [bind]. eexists. split; [reflexivity|].
    assert (Ev : header t ++ concat (map enc_message (rs1 ++ r :: rs2)) = pre ++ enc_wmsg (wm_of r) ++ post).
    { unfold pre. rewrite piece, <- enc_message_wm. now rewrite <- !app_assoc. }
    rewrite <- Ev. set (v := header t ++ concat (map enc_message (rs1 ++ r :: rs2))).
    match goal with |- holds (Bst _ (Some (if ?g then _ else overlay ?b _)) _) _ _ =>
      exists (if g then [] else skipn (length v) b) end.
    cbn [b_buf b_len]. rewrite app_assoc. fold v. repeat split; try lia.
    + destruct (_ >? _); [now rewrite app_nil_r|reflexivity].
    + apply Forall_app. split; [exact Hs1|]. now constructor.
    + unfold v. rewrite piece, !zlen_app. fold post. rewrite !zlen_app in Hfit. lia.
  - rewrite Hfresh; rewrite !zlen_app; lia.
  - rewrite !zlen_app. lia.
Qed.

Lemma append_rep st t rs r : holds st t rs -> std_message slash r ->
  16 + zlen (concat (map enc_message (rs ++ [r]))) + 4 < 2^31 ->
  exists st',
    (do m <- wrap init_msg (enc_message r) 0;
     do ' (len, b) <- append_message (fresh (zlen (enc_message r) + 16)) (b_len st) (b_buf st) (enc_message r) (Some m);
     Ok (Bst len b (S (b_moves st)))) = Ok st' /\ holds st' t (rs ++ [r]).
Proof.
  intros Hh Hr Hfit. pose proof (holds_wf _ _ _ Hh) as Hwfs. destruct (holds_buf _ _ _ Hh) as (room & _ & Hl & Hb).
  destruct Hh as (_ & _ & _ & Ht1 & Ht2 & Hs & _). pose proof (zlen_header t) as H16.
  rewrite map_app, concat_app in Hfit. cbn [map concat] in Hfit. rewrite app_nil_r, zlen_app in Hfit.
  pose proof (zlen_nonneg (concat (map enc_message rs))). pose proof (zlen_nonneg (enc_message r)).
  assert (Hwf : wf_wmsg (wm_of r)) by (apply (std_wf slash); [exact Hr|lia]).
  rewrite Hl, Hb.
  pose proof (wrap_ok [] (wm_of r) [] init_msg Hwf) as Hwr. cbn [app] in Hwr. rewrite app_nil_r in Hwr. change (zlen (@nil Z)) with 0 in Hwr.
  pose proof (C22_append (fresh (zlen (enc_message r) + 16)) (header t) (map wm_of rs) room [] (wm_of r) [] init_msg
                (wrapped init_msg 0 (wm_of r)) Hwfs Hwf) as K.
  cbn [app] in K. rewrite app_nil_r in K. change (zlen (@nil Z)) with 0 in K.
  rewrite enc_message_wm in K |- *. rewrite Hwr. cbn [bind]. rewrite K; [|rewrite Hfresh; rewrite <- enc_message_wm; lia|exact Hwr].
  cbn [bind]. eexists. split; [reflexivity|]. exists []. cbn [b_buf b_len].
  replace (map wm_of rs ++ [wm_of r]) with (map wm_of (rs ++ [r])) by now rewrite map_app.
  rewrite map_wm_enc, app_nil_r. repeat split; try lia.
  - apply Forall_app. split; [exact Hs|]. now constructor.
  - rewrite map_app, concat_app. cbn [map concat]. rewrite app_nil_r, !zlen_app. lia.
Qed.

(** * Storing a value *)

Lemma store_first s vs rs1 r0 rs2 : ~ In s (map addr rs1) -> addr r0 = s ->
  store s vs (rs1 ++ r0 :: rs2) = rs1 ++ M s vs :: rs2.
Proof.
  intros Hn Ha. induction rs1 as [|[a xs] rs1 IH]; cbn [app store].
  - destruct r0 as [a xs]. cbn [addr] in Ha. subst a. unfold same_name. now destruct (list_eq_dec _ _ _).
  - unfold same_name. destruct (list_eq_dec Z.eq_dec a s) as [->|]; [exfalso; apply Hn; now left|].
    rewrite IH; [reflexivity|]. intros Hi. apply Hn. now right.
Qed.
Lemma store_last s vs rs : ~ In s (map addr rs) -> store s vs rs = rs ++ [M s vs].
Proof.
  intros Hn. induction rs as [|[a xs] rs IH]; cbn [app store]; [reflexivity|].
  unfold same_name. destruct (list_eq_dec Z.eq_dec a s) as [->|]; [exfalso; apply Hn; now left|].
  rewrite IH; [reflexivity|]. intros Hi. apply Hn. now right.
Qed.
Lemma addrs_narrow rs : map addr (map narrow_msg rs) = map addr rs.
Proof. rewrite map_map. apply map_ext. intros r. apply addr_narrow. Qed.
Lemma addrs_wm rs : map w_addr (map wm_of rs) = map addr rs.
Proof. rewrite map_map. apply map_ext. intros r. apply addr_wm. Qed.

Lemma store_rep st w s vs r : bundle_rep st w -> std_message slash r -> narrow_msg r = M s vs ->
  fits (with_msgs w (store s vs (msgs w))) ->
  exists st', store_message fresh st s (enc_message r) = Ok st' /\ bundle_rep st' (with_msgs w (store s vs (msgs w))).
Proof.
  intros Hrep Hr Hn Hfit. apply rep_holds in Hrep as (rs & Hh & Hm).
  pose proof (holds_wf _ _ _ Hh) as Hwfs. destruct (holds_buf _ _ _ Hh) as (room & Hby & Hl & Hb).
  unfold store_message. rewrite Hby, Hl.
  destruct (C42_first_equal_address s (header (time w)) (map wm_of rs) room (zlen_header _) Hwfs) as (q & -> & Hq).
  cbn [bind]. unfold fits in Hfit. cbn [with_msgs msgs] in Hfit. rewrite <- Hm in Hfit |- *. destruct q as [p|].
  - destruct Hq as (ws1 & w0 & ws2 & Hws & -> & Hw0 & Hnot).
    apply map_eq_app in Hws as (rs1 & rs' & -> & <- & Hws).
    destruct rs' as [|r0 rs2]; [discriminate Hws|]. cbn [map] in Hws. injection Hws as <- <-.
    rewrite addr_wm in Hw0. rewrite addrs_wm in Hnot.
    assert (Est : store s vs (map narrow_msg (rs1 ++ r0 :: rs2)) = map narrow_msg (rs1 ++ r :: rs2)).
    { rewrite !narrow_msgs_app. rewrite store_first; [now rewrite Hn|now rewrite addrs_narrow|now rewrite addr_narrow]. }
    rewrite Est in Hfit |- *. rewrite enc_len in Hfit. rewrite map_wm_enc.
    destruct (replace_rep st (time w) rs1 r0 rs2 r Hh Hr Hfit) as (st' & E & Hh'). exists st'. split; [exact E|].
    apply rep_holds. exists (rs1 ++ r :: rs2). split; [exact Hh'|reflexivity].
  - rewrite addrs_wm in Hq.
    assert (Est : store s vs (map narrow_msg rs) = map narrow_msg (rs ++ [r])).
    { rewrite store_last by now rewrite addrs_narrow. rewrite map_app. cbn [map]. now rewrite Hn. }
    rewrite Est in Hfit |- *. rewrite enc_len in Hfit.
    destruct (append_rep st (time w) rs r Hh Hr Hfit) as (st' & E & Hh'). rewrite Hl in E.
    exists st'. split; [exact E|]. apply rep_holds. exists (rs ++ [r]). split; [exact Hh'|reflexivity].
Qed.

(** * Deleting *)

Lemma delete_rep st w s : bundle_rep st w ->
  exists st', delete_one st s = Ok st' /\ bundle_rep st' (with_msgs w (without [s] (msgs w))).
Proof.
  intros Hrep. apply rep_holds in Hrep as (rs & Hh & Hm).
  pose proof (holds_wf _ _ _ Hh) as Hwfs. destruct (holds_buf _ _ _ Hh) as (room & Hby & Hl & Hb).
  unfold delete_one. rewrite Hby, Hl.
  destruct (C21_remove s (header (time w)) (map wm_of rs) room (zlen_header _) Hwfs) as (kp & rest & Hk & -> & Hz & _).
  cbn [bind]. eexists. split; [reflexivity|].
  set (rs' := filter (fun r => negb (same_name (addr r) s)) rs).
  assert (Ek : kp = map wm_of rs').
  { rewrite Hk. unfold rs'. clear. induction rs as [|r rs IH]; [reflexivity|]. cbn [map filter]. rewrite addr_wm.
    unfold same_name. destruct (list_eq_dec Z.eq_dec (addr r) s); cbn [negb]; [exact IH|]. cbn [map]. now rewrite IH. }
  apply rep_holds. exists rs'. split.
  - destruct Hh as (_ & _ & _ & Ht1 & Ht2 & Hs & Hlt). exists rest. cbn [with_msgs time b_buf b_len].
    rewrite Ek, map_wm_enc. repeat split; try lia.
    + apply Forall_forall. intros r Hin. apply filter_In in Hin. rewrite Forall_forall in Hs. exact (Hs r (proj1 Hin)).
    + assert (zlen (concat (map enc_message rs')) <= zlen (concat (map enc_message rs))).
      { unfold rs'. clear. induction rs as [|r rs IH]; [apply Z.le_refl|]. cbn [filter map concat]. rewrite zlen_app.
        pose proof (zlen_nonneg (enc_message r)). destruct (negb _); cbn [map concat]; [rewrite zlen_app|]; lia. }
      rewrite zlen_app in Hlt |- *. lia.
  - cbn [with_msgs msgs]. rewrite <- Hm. unfold rs', without. clear.
    induction rs as [|[a xs] rs IH]; [reflexivity|]. cbn [filter map narrow_msg addr existsb]. rewrite orb_false_r.
    destruct (same_name a s); cbn [negb]; [exact IH|]. cbn [map narrow_msg]. now rewrite IH.
Qed.

(** * Looking up *)

Lemma selected_wm full p rs : selected full p (map wm_of rs) = [] <-> existsb (fun m => selects full p (addr m)) rs = false.
Proof.
  pose proof (selected_split full p rs) as H. pose proof (find_split (selects full p) rs) as Hf.
  destruct (find _ rs) as [m|].
  - destruct H as (rs1 & rs2 & l & -> & _ & ->). split; [discriminate|]. intros He. destruct Hf as (? & ? & _ & _ & Hq).
    rewrite existsb_app in He. cbn [existsb] in He. rewrite Hq in He. rewrite orb_true_r in He. discriminate He.
  - split; [intros _|intros _; exact H]. clear H.
    induction Hf as [|m rs Hm _ IH]; [reflexivity|]. cbn [existsb]. now rewrite Hm, IH.
Qed.

Lemma exists_rep st w p : bundle_rep st w -> address_exists (bytes_of st) (b_len st) p true = Ok (exists_in matches w p).
Proof.
  intros Hrep. apply rep_holds in Hrep as (rs & Hh & Hm).
  pose proof (holds_wf _ _ _ Hh) as Hwfs. destruct (holds_buf _ _ _ Hh) as (room & Hby & Hl & Hb).
  rewrite Hby, Hl, C20_exists by (assumption || apply zlen_header). f_equal.
  unfold exists_in. rewrite <- Hm.
  assert (E : existsb (fun '(M a _) => selects true p a) (map narrow_msg rs) = existsb (fun m => selects true p (addr m)) rs).
  { clear. induction rs as [|[a xs] rs IH]; [reflexivity|]. cbn [map existsb narrow_msg addr]. now rewrite IH. }
  rewrite E. pose proof (selected_wm true p rs) as [H1 H2].
  destruct (selected true p (map wm_of rs)) as [|x l]; [symmetry; now apply H1|].
  destruct (existsb _ rs); [reflexivity|]. discriminate (H2 eq_refl).
Qed.

Lemma bound_rep st w p : bundle_rep st w -> plain_name p -> Forall (fun '(M x _) => ~ In 42 x) (msgs w) ->
  address_is_bound (bytes_of st) (b_len st) p true = Ok (bound_in w p).
Proof.
  intros Hrep Hp Hst. apply rep_holds in Hrep as (rs & Hh & Hm).
  pose proof (holds_wf _ _ _ Hh) as Hwfs. destruct (holds_buf _ _ _ Hh) as (room & Hby & Hl & Hb).
  assert (Hs : Forall (std_message slash) rs) by (destruct Hh as (_ & _ & _ & _ & _ & Hs & _); exact Hs).
  rewrite Hby, Hl.
  destruct (C41_address_is_bound_literal p (header (time w)) (map wm_of rs) room (zlen_header _) Hwfs Hp) as (b & -> & Hiff).
  { rewrite Forall_map. apply Forall_forall. intros [a xs] Hin.
    assert (Hin' : In (narrow_msg (M a xs)) (msgs w)) by (rewrite <- Hm; now apply in_map).
    rewrite Forall_forall in Hst, Hs. specialize (Hs _ Hin). specialize (Hst _ Hin'). cbn [narrow_msg] in Hst.
    apply std_args in Hs as (Hn & _ & Hsl & _). cbn [wm_of w_addr]. split; [exact Hsl|].
    apply Forall_forall. intros c Hc [<-|[<-|[]]]; [|now apply Hst].
    unfold nonul in Hn. rewrite Forall_forall in Hn. now apply (Hn 0). }
  f_equal. unfold bound_in. rewrite <- Hm. apply Bool.eq_iff_eq_true. rewrite Hiff, existsb_exists. split.
  - intros (x & Hin & Ha & Hx). apply in_map_iff in Hin. destruct Hin as ([a xs] & <- & Hin).
    cbn [wm_of w_addr] in Ha. subst a. exists (narrow_msg (M p xs)). split; [now apply in_map|].
    cbn [narrow_msg]. unfold same_name. destruct (list_eq_dec _ _ _) as [_|n]; [|now destruct n].
    cbn [andb]. destruct xs; [discriminate Hx|reflexivity].
  - intros (x & Hin & Hx). apply in_map_iff in Hin. destruct Hin as ([a xs] & <- & Hin). cbn [narrow_msg] in Hx.
    unfold same_name in Hx. destruct (list_eq_dec _ _ _) as [->|]; [|discriminate Hx]. cbn [andb] in Hx.
    exists (wm_of (M p xs)). split; [now apply in_map|]. split; [reflexivity|]. destruct xs; [discriminate Hx|reflexivity].
Qed.

(** The first message that matches. *)
Lemma first_rep st w p : bundle_rep st w ->
  exists r, lookup_address (bytes_of st) (b_len st) p true = Ok r /\
    match r with
    | None => lookup matches w p = None
    | Some ar => exists m more rs1 a xs rs2 P post, ar = m :: more /\ holds st (time w) (rs1 ++ M a xs :: rs2) /\
        map narrow_msg (rs1 ++ M a xs :: rs2) = msgs w /\
        Forall (fun m => matches p (addr m) = false) rs1 /\ matches p a = true /\
        lookup matches w p = Some (map narrow xs) /\
        bytes_of st = P ++ enc_message (M a xs) ++ post /\ zlen P = 16 + zlen (concat (map enc_message rs1)) /\
        shows (bytes_of st) m (zlen P) (wm_of (M a xs)) /\ ms_cache_size m = 0
    end.
Proof.
  intros Hrep. apply rep_holds in Hrep as (rs & Hh & Hm).
  pose proof (holds_wf _ _ _ Hh) as Hwfs. destruct (holds_buf _ _ _ Hh) as (room & Hby & Hl & Hb).
  rewrite Hby, Hl.
  destruct (C20_lookup true p (header (time w)) (map wm_of rs) room (zlen_header _) Hwfs) as (r & -> & Hr).
  exists r. split; [reflexivity|].
  rewrite lookup_find, <- Hm, find_narrow. pose proof (selected_split true p rs) as Hsp.
  pose proof (find_split (matches p) rs) as Hf.
  destruct (find (fun m => matches p (addr m)) rs) as [[a xs]|].
  - destruct Hsp as (rs1 & rs2 & l & -> & H1 & Hsel). destruct Hf as (_ & _ & _ & _ & Hq). cbn [addr] in Hq. rewrite Hsel in Hr.
    destruct r as [ar|]; [|discriminate Hr]. destruct Hr as [_ Hr]. inversion Hr as [|m pw more l' [Hsh Hc] _]; subst.
    set (P := header (time w) ++ concat (map enc_message rs1)).
    assert (HP : zlen P = 16 + zlen (concat (map enc_message rs1))) by (unfold P; rewrite zlen_app, zlen_header; reflexivity).
    exists m, more, rs1, a, xs, rs2, P, (concat (map enc_message rs2) ++ room). cbn [fst snd] in Hsh. rewrite HP.
    repeat (split; [first [assumption|reflexivity]|]).
    split; [|split; [reflexivity|split; [exact Hsh|exact Hc]]].
    rewrite map_wm_enc, piece. unfold P. now rewrite <- !app_assoc.
  - rewrite Hsp in Hr. destruct r as [ar|]; [destruct Hr as [Hr _]; now destruct Hr|reflexivity].
Qed.


(** All arguments of a message by number. *)
Lemma rdstr_nth buf t s : rdstr buf t = Ok s -> forall n c, nth_error s n = Some c -> rd buf (t + Z.of_nat n) = Ok c.
Proof.
  unfold rdstr. destruct ((t <? 0) || (zlen buf <? t)) eqn:E; [discriminate|]. apply orb_false_iff in E as [E1 E2].
  apply Z.ltb_ge in E1, E2. destruct (cstr _) as [s'|] eqn:Ec; [|discriminate]. injection 1 as ->.
  intros n c Hn. unfold rd. rewrite (proj2 (Z.ltb_ge _ _)) by lia.
  replace (Z.to_nat (t + Z.of_nat n)) with (Z.to_nat t + n)%nat by lia.
  rewrite <- (firstn_skipn (Z.to_nat t) buf) at 1.
  rewrite nth_error_app2 by (rewrite firstn_length; unfold zlen in E2; lia).
  rewrite firstn_length_le by (unfold zlen in E2; lia). replace (Z.to_nat t + n - Z.to_nat t)%nat with n by lia.
  revert s n Ec Hn. induction (skipn (Z.to_nat t) buf) as [|b l IH]; intros s n Ec Hn; [discriminate Ec|].
  cbn [cstr] in Ec. destruct (b =? 0); [injection Ec as <-; now destruct n|].
  destruct (cstr l) as [s'|]; [|discriminate Ec]. injection Ec as <-. destruct n as [|n]; cbn [nth_error] in *.
  - now injection Hn as ->.
  - now apply (IH s' n).
Qed.

Lemma fetch_fill buf m t d post fuel P0 all : fuel = S (length buf) ->
  (forall n v, nth_error all n = Some v -> get_arg buf m (Z.of_nat n) = Ok (Some (AS (d + off all n) (vtag v)))) ->
  Forall (std_value slash) all -> zlen (concat (map enc_value all)) + 4 < 2^31 ->
  buf = P0 ++ concat (map enc_value all) ++ post -> d = zlen P0 -> ms_typetags m = Some t ->
  forall vs done rest, all = done ++ vs -> length rest = length vs ->
  fetch_args buf m (length vs) (zlen done) (Some (map obj_of done ++ rest)) = Ok (Some (map obj_of all)).
Proof.
  intros Hfuel Hget Hs Hl Hbuf Hd0 Ht vs. induction vs as [|v vs IH]; intros done rest Hall Hr; cbn [length fetch_args].
  - destruct rest; [|discriminate Hr]. now rewrite Hall, !app_nil_r.
  - destruct rest as [|z rest]; [discriminate Hr|]. injection Hr as Hr.
    assert (Hn : nth_error all (length done) = Some v) by (rewrite Hall; now rewrite nth_error_app2, Nat.sub_diag by lia).
    pose proof (Hget _ _ Hn) as Hg. change (Z.of_nat (length done)) with (zlen done) in Hg. rewrite Hg. cbn [bind].
    assert (Ho : off all (length done) = zlen (concat (map enc_value done))).
    { unfold off. rewrite Hall, firstn_exact by reflexivity. reflexivity. }
    rewrite Ho, Hd0.
    assert (Hb : buf = (P0 ++ concat (map enc_value done)) ++ enc_value v ++ concat (map enc_value vs) ++ post).
    { rewrite Hbuf, Hall. rewrite map_app, concat_app. cbn [map concat]. now rewrite <- !app_assoc. }
    assert (Hsv : std_value slash v) by (rewrite Hall in Hs; apply Forall_app in Hs as [_ Hs]; exact (Forall_inv Hs)).
    pose proof (depth_fuel all (S (length buf))) as Hdep.
    assert (Hv : (vdepth v <= S (length buf))%nat).
    { assert (Hz : zlen (concat (map enc_value all)) <= Z.of_nat (S (length buf)))
        by (rewrite Hbuf, !app_length; unfold zlen; lia).
      specialize (Hdep Hz). rewrite Forall_forall in Hdep. apply Hdep. rewrite Hall. apply in_or_app. right. now left. }
    assert (Hl' : zlen (enc_value v) + 4 < 2^31).
    { rewrite Hall, map_app, concat_app in Hl. cbn [map concat] in Hl. rewrite !zlen_app in Hl.
      pose proof (zlen_nonneg (concat (map enc_value done))). pose proof (zlen_nonneg (concat (map enc_value vs))). lia. }
    assert (H1 := proj1 deser_all v (P0 ++ concat (map enc_value done)) (concat (map enc_value vs) ++ post) (S (length buf)) Hsv).
    cbv zeta in H1. rewrite <- Hb in H1. rewrite zlen_app in H1.
    rewrite H1 by (try lia; assumption). cbn [bind].
    replace (zlen done) with (zlen (map obj_of done)) at 1 by (unfold zlen; now rewrite map_length).
    rewrite aput_at. cbn [bind].
    specialize (IH (done ++ [v]) rest). rewrite map_app in IH. cbn [map] in IH. rewrite zlen_app in IH. change (zlen [v]) with 1 in IH.
    rewrite <- !app_assoc in IH. cbn [app] in IH. apply IH; [exact Hall|exact Hr].
Qed.

Lemma fetch_rep buf m P a xs post : std_message slash (M a xs) -> zlen (enc_message (M a xs)) + 4 < 2^31 ->
  buf = P ++ enc_message (M a xs) ++ post -> shows buf m (zlen P) (wm_of (M a xs)) -> ms_cache_size m = 0 ->
  get_arg_count buf m = Ok (zlen xs) /\
  exists o, (do out <- aalloc (zlen xs); fetch_args buf m (Z.to_nat (zlen xs)) 0 out) = Ok o /\ result_rep o (Some (map narrow xs)).
Proof.
  intros Hs Hl Hbuf (_ & _ & _ & _ & Hsh) Hc. cbn [wm_of w_args] in Hsh. destruct Hsh as (t & d & Ht & Htags & Hd & Hdata).
  apply std_args in Hs as (Ha & Hwa & Hsl & Hv).
  assert (Hlv' : zlen (concat (map enc_value xs)) + 4 < 2^31).
  { cbn [enc_message] in Hl. rewrite zlen_sized', !zlen_app in Hl.
    pose proof (zlen_nonneg (pad_str a)). pose proof (zlen_nonneg (pad_str (44 :: map vtag xs))). lia. }
  assert (Hn : zlen xs < 2^31).
  { cbn [enc_message] in Hl. rewrite zlen_sized', !zlen_app in Hl.
    pose proof (zlen_nonneg (pad_str a)). pose proof (zlen_nonneg (concat (map enc_value xs))).
    unfold pad_str at 2 in Hl. rewrite zlen_app, zlen_cons in Hl.
    match type of Hl with context [zlen (zeros ?b)] => pose proof (zlen_nonneg (zeros b)) end.
    assert (zlen (map vtag xs) = zlen xs) by (unfold zlen; now rewrite map_length). lia. }
  destruct (slice_inv _ _ _ _ Hdata) as (P0 & post0 & Hb0 & Hd0 & _).
  assert (Hany : Forall (std_value any) xs) by (eapply Forall_impl; [|exact Hv]; intros v; apply (proj1 (std_any slash))).
  split; [now apply (arg_count buf m t xs)|]. rewrite aalloc_len. cbn [bind].
  exists (Some (map obj_of xs)). split; [|constructor; now apply stands_objs].
  unfold zlen at 1. rewrite Nat2Z.id.
  assert (Htag : forall n v, nth_error xs n = Some v -> rd buf (t + Z.of_nat n + 1) = Ok (vtag v)).
  { intros n v Hnv. replace (t + Z.of_nat n + 1) with (t + Z.of_nat (S n)) by lia.
    apply (rdstr_nth buf t (44 :: map vtag xs) Htags). cbn [nth_error]. now rewrite nth_error_map, Hnv. }
  apply (fetch_fill buf m t d post0 (S (length buf)) P0 xs eq_refl) with (done := []); try assumption; try reflexivity.
  - intros n v Hnv. apply (get_arg_in buf m t d xs post0 Ht Hd Htags Htag P0 Hb0 (eq_sym Hd0)); try assumption. lia.
  - symmetry. exact Hd0.
  - apply repeat_length.
Qed.

(** * Overwriting what an address matches *)

Lemma overwrite_first p vs rs1 a xs rs2 : Forall (fun m => matches p (addr m) = false) rs1 -> matches p a = true ->
  overwrite matches p vs (rs1 ++ M a xs :: rs2) = rs1 ++ M p vs :: rs2.
Proof.
  intros Hn Ha. induction Hn as [|[b ys] rs1 Hb _ IH]; cbn [app overwrite].
  - now rewrite Ha.
  - cbn [addr] in Hb. now rewrite Hb, IH.
Qed.

(** * Counting messages and their addresses *)

Lemma over_count ws : forall m p n, over (fun n (_ : msg_s) => Ok (@Cont Z unit (n + 1))) n (views m p ws) = Ok (Cont (n + zlen ws)).
Proof.
  induction ws as [|w ws IH]; intros m p n; cbn [views over].
  - change (zlen (@nil wmsg)) with 0. now rewrite Z.add_0_r.
  - cbn [bind]. rewrite IH, zlen_cons. do 2 f_equal. lia.
Qed.
Lemma loop_rep {S R} st w : bundle_rep st w -> exists rs room, holds st (time w) rs /\ map narrow_msg rs = msgs w /\
  bytes_of st = header (time w) ++ enc_wmsgs (map wm_of rs) ++ room /\
  (forall (body : S -> msg_s -> res (lres S R)) s,
   bundle_loop (bytes_of st) 0 (b_len st) body s = over body s (views init_msg 16 (map wm_of rs))).
Proof.
  intros Hrep. apply rep_holds in Hrep as (rs & Hh & Hm).
  pose proof (holds_wf _ _ _ Hh) as Hwfs. destruct (holds_buf _ _ _ Hh) as (room & Hby & Hl & Hb).
  exists rs, room. split; [exact Hh|]. split; [exact Hm|]. split; [exact Hby|]. intros body s.
  rewrite Hby, Hl, zlen_app, zlen_header.
  exact (bundle_loop_over body s [] (header (time w)) (map wm_of rs) room (zlen_header _) Hwfs).
Qed.
Lemma count_rep st w : bundle_rep st w ->
  bundle_loop (bytes_of st) 0 (b_len st) (fun n _ => Ok (@Cont Z unit (n + 1))) 0 = Ok (Cont (zlen (msgs w))) /\
  0 <= zlen (msgs w) < 2^31.
Proof.
  intros Hrep. destruct (@loop_rep Z unit st w Hrep) as (rs & room & Hh & Hm & _ & Hloop). rewrite Hloop, over_count.
  assert (E : zlen (map wm_of rs) = zlen (msgs w)) by (rewrite <- Hm; unfold zlen; now rewrite !map_length).
  rewrite E, Z.add_0_l. split; [reflexivity|]. split; [apply zlen_nonneg|].
  destruct Hh as (_ & _ & _ & _ & _ & _ & Hl). rewrite zlen_app, zlen_header in Hl. rewrite <- E. unfold zlen. rewrite map_length.
  assert (zlen rs <= zlen (concat (map enc_message rs))).
  { clear. induction rs as [|[a xs] rs IH]; [apply Z.le_refl|]. cbn [map concat]. rewrite zlen_cons, zlen_app.
    cbn [enc_message]. rewrite zlen_sized'. match goal with |- context [4 + zlen ?b] => pose proof (zlen_nonneg b) end. lia. }
  unfold zlen in H. unfold zlen in Hl. lia.
Qed.

Definition put_addr (buf : bytes) (s : Z * arr) (m : msg_s) : res (lres (Z * arr) unit) :=
  let (n, out) := s in
  match ms_address m with
  | None => Ok (Cont (n + 1, out))
  | Some p => do a <- rdstr buf p; do out <- aput out n (fun x => Ok (set_string x 0 a)); Ok (Cont (n + 1, out))
  end.
Definition addr_atom (r : message) : atom := Atom 115 0 (PStr (addr r)).
Lemma over_addrs buf : forall rs P post m done rest,
  buf = P ++ enc_wmsgs (map wm_of rs) ++ post -> Forall wf_wmsg (map wm_of rs) -> length rest = length rs ->
  over (put_addr buf) (zlen done, Some (done ++ rest)) (views m (zlen P) (map wm_of rs))
  = Ok (Cont (zlen (done ++ map addr_atom rs), Some (done ++ map addr_atom rs))).
Proof.
  induction rs as [|r rs IH]; intros P post m done rest Hbuf Hwf Hr; cbn [map views over].
  - destruct rest; [|discriminate Hr]. now rewrite app_nil_r.
  - destruct rest as [|z rest]; [discriminate Hr|]. injection Hr as Hr.
    cbn [map] in Hbuf. rewrite enc_wmsgs_cons, <- app_assoc in Hbuf.
    pose proof (shows_wrapped P (wm_of r) (enc_wmsgs (map wm_of rs) ++ post) m (Forall_inv Hwf)) as (_ & _ & _ & (ad & Had & Hrd) & _).
    rewrite <- Hbuf in Hrd. unfold put_addr at 1. rewrite Had, Hrd. cbn [bind]. rewrite aput_at. cbn [bind].
    rewrite addr_wm. unfold set_string. change (u64 0) with 0. fold (addr_atom r).
    specialize (IH (P ++ enc_wmsg (wm_of r)) post (wrapped m (zlen P) (wm_of r)) (done ++ [addr_atom r]) rest).
    rewrite <- !app_assoc in IH. cbn [app] in IH. rewrite zlen_app in IH. rewrite zlen_app in IH. change (zlen [addr_atom r]) with 1 in IH.
    apply IH; [exact Hbuf|exact (Forall_inv_tail Hwf)|exact Hr].
Qed.
Lemma addresses_rep st w : bundle_rep st w -> exists o, ev_addresses st [] = Ok (0, o, st) /\
  result_rep o (Some (map (fun '(M a _) => VStr a) (msgs w))).
Proof.
  intros Hrep. unfold ev_addresses. rewrite (proj1 (count_rep st w Hrep)). cbn [bind].
  destruct (@loop_rep (Z * arr) unit st w Hrep) as (rs & room & Hh & Hm & Hby & Hloop).
  assert (E : zlen (msgs w) = zlen rs) by (rewrite <- Hm; unfold zlen; now rewrite !map_length). rewrite E, aalloc_len. cbn [bind].
  rewrite Hloop. pose proof (over_addrs (bytes_of st) rs (header (time w)) room init_msg [] (repeat atom_fresh (length rs)) Hby
     (holds_wf _ _ _ Hh) (repeat_length _ _)) as K.
  cbn [app] in K. change (zlen (@nil atom)) with 0 in K. rewrite zlen_header in K.
  match goal with |- context [bind ?X _] => change X with (over (put_addr (bytes_of st)) (0, Some (repeat atom_fresh (length rs))) (views init_msg 16 (map wm_of rs))) end.
  rewrite K. cbn [bind].
  eexists. split; [reflexivity|]. constructor. rewrite <- Hm. destruct Hh as (_ & _ & _ & _ & _ & Hs & Hl).
  rewrite zlen_app, zlen_header in Hl. clear - Hs Hl. induction Hs as [|[a xs] rs Hr _ IH]; cbn [map]; constructor.
  - cbn [narrow_msg]. apply std_args in Hr as (Ha & Hwa & _). cbn [map concat enc_message] in Hl.
    rewrite zlen_app, zlen_sized', !zlen_app in Hl. unfold pad_str in Hl. rewrite !zlen_app in Hl.
    pose proof (zlen_nonneg (zeros (4 - zlen a mod 4))). pose proof (zlen_nonneg (zeros (4 - zlen (44 :: map vtag xs) mod 4))).
    pose proof (zlen_nonneg (concat (map enc_value xs))). pose proof (zlen_nonneg (44 :: map vtag xs)).
    pose proof (zlen_nonneg (concat (map enc_message rs))).
    split; [|split; [|split; [reflexivity|reflexivity]]].
    + split; [|exact I]. cbn [ok_atom addr_atom addr]. split; [lia|]. repeat split; try assumption. lia.
    + cbn. split; assumption.
  - apply IH. cbn [map concat] in Hl. rewrite zlen_app in Hl. pose proof (zlen_nonneg (enc_message (M a xs))). lia.
Qed.

(** * The time tag *)

Lemma header_split t more : header t ++ more = bundle_id ++ (be_bytes 4 (fst t) ++ be_bytes 4 (snd t)) ++ more.
Proof. unfold header. now rewrite <- !app_assoc. Qed.
Lemma get_time_rep st w : bundle_rep st w -> bundle_get_timetag (b_len st) (bytes_of st) = Ok (TT (fst (time w)) (snd (time w))).
Proof.
  intros (rs & room & Hb & Hl & Ht1 & Ht2 & _). unfold bundle_get_timetag, bytes_of. rewrite Hb, Hl.
  rewrite zlen_app, zlen_header. pose proof (zlen_nonneg (concat (map enc_message rs))).
  rewrite (proj2 (Z.ltb_ge _ _)) by lia. rewrite header_split. change 8 with (zlen bundle_id). rewrite tt_decode_at.
  unfold u32. now rewrite !Z.mod_small by lia.
Qed.
Lemma set_time_rep st w s f moves : bundle_rep st w -> 0 <= s < 2^32 -> 0 <= f < 2^32 ->
  exists b, bundle_set_timetag (b_len st) (bytes_of st) (TT s f) = Ok b /\
    bundle_rep (Bst (b_len st) (option_map (fun _ => b) (b_buf st)) moves) (W (s, f) (msgs w)).
Proof.
  intros (rs & room & Hb & Hl & Ht1 & Ht2 & Hs & Hm & Hlt) H1 H2. unfold bundle_set_timetag, bytes_of. rewrite Hb, Hl.
  rewrite zlen_app, zlen_header in Hlt |- *. pose proof (zlen_nonneg (concat (map enc_message rs))).
  rewrite (proj2 (Z.ltb_ge _ _)) by lia. rewrite header_split. change 8 with (zlen bundle_id). rewrite tt_encode_at by reflexivity.
  cbn [sec frac]. eexists. split; [reflexivity|]. exists rs, room. cbn [b_buf b_len time msgs option_map fst snd].
  rewrite zlen_app, !zlen_header. repeat split; try lia; try assumption.
Qed.

End Bundles.
