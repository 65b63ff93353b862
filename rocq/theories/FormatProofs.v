(** Lemmas about the formatting functions. *)

From Coq Require Import ZArith List Bool Lia.
From Verif Require Import Base Text BaseProofs Bytes UtilModel UtilProofs TimetagModel TimetagProofs
  WireSpec SerialModel SerialSpec SerialProofs SerialProps AtomSModel WireModel WireProofs WireWalk WireProps
  ArgProofs DeserProofs ExprModel
  FloatModel AtomUModel AtomSpec AtomProofs ArgProps AtomProps NumProps StrfmtModel StrfmtProps TextProps
  FormatModel FormatSpec.
Import ListNotations.
Open Scope Z_scope.

(** * Printers *)

(** What follows a printed text in the room [g]: a terminator, or, if nothing
    has been printed, what was there. *)
Definition ended (t g g' : list Z) : Prop := hd 0 g' = 0 \/ (t = [] /\ g' = g).

(** [f] prints [t] into any room longer than [t]. *)
Definition prints (f : printer) (t : list Z) : Prop :=
  (forall pos n, f None pos n = Ok (None, zlen t)) /\
  (forall p g q, zlen t < zlen g -> zlen g < 2^63 ->
   exists g', f (Some (p ++ g ++ q)) (zlen p) (zlen g) = Ok (Some (p ++ t ++ g' ++ q), zlen t) /\
     zlen t + zlen g' = zlen g /\ ended t g g').

(** A buffer in which [t] has been printed. *)
Definition at_text (p g q t : list Z) (s : option bytes * Z) : Prop :=
  exists g', s = (Some (p ++ t ++ g' ++ q), zlen t) /\ zlen t + zlen g' = zlen g /\ ended t g g'.

Lemma at_start p g q : at_text p g q [] (Some (p ++ g ++ q), 0).
Proof. exists g. split; [reflexivity|]. split; [reflexivity|]. now right. Qed.

Lemma step_none pos n f t o : prints f t -> step pos n f (None, o) = Ok (None, o + zlen t).
Proof. intros [H _]. unfold step. rewrite H. reflexivity. Qed.

Lemma step_at p g q t1 t2 f s : prints f t2 -> at_text p g q t1 s ->
  zlen (t1 ++ t2) < zlen g -> zlen g < 2^63 ->
  exists s', step (zlen p) (zlen g) f s = Ok s' /\ at_text p g q (t1 ++ t2) s'.
Proof.
  intros [_ H] (g' & -> & Hl & He) Hlt Hg. rewrite zlen_app in Hlt. unfold step.
  pose proof (zlen_nonneg t1). pose proof (zlen_nonneg t2).
  destruct (H (p ++ t1) g' q ltac:(lia) ltac:(lia)) as (g2 & E & Hl2 & He2).
  replace (zlen p + zlen t1) with (zlen (p ++ t1)) by (zl; lia).
  replace (zlen g - zlen t1) with (zlen g') by lia.
  replace (p ++ t1 ++ g' ++ q) with ((p ++ t1) ++ g' ++ q) by now rewrite <- app_assoc.
  unfold bytes in *. rewrite E. cbn [bind]. eexists. split; [reflexivity|]. exists g2.
  split; [rewrite <- !app_assoc; f_equal; zl; reflexivity|]. split; [zl; lia|].
  destruct He2 as [He2|[-> ->]]; [now left|]. destruct He as [He|[-> ->]]; [now left|]. now right.
Qed.

Lemma prints_put t : prints (put t) t.
Proof.
  split; [reflexivity|]. intros p g q Hl Hg. unfold put. pose proof (zlen_nonneg t).
  rewrite u64_small by lia. rewrite snprintf_at by (rewrite ?zlen_app; pose proof (zlen_nonneg q); lia).
  cbn [bind]. rewrite firstn_all2 by (unfold zlen in *; lia).
  exists (0 :: skipn (length t + 1) g). split; [|split; [|now left]].
  - f_equal. f_equal. f_equal. f_equal. f_equal. cbn [app]. f_equal.
    rewrite skipn_app. replace (length t + 1 - length g)%nat with O by (unfold zlen in *; lia). reflexivity.
  - zl. unfold zlen in *. rewrite skipn_length. lia.
Qed.

(** The loop with separators. *)
Lemma joined_none {X} cond pos n sep ts (f : X -> printer) l texts :
  prints sep ts -> Forall2 (fun x t => prints (f x) t) l texts -> (forall o, cond (None, o) = true) ->
  forall o, joined cond pos n sep f l (None, o) = Ok (None, o + zlen (join ts texts)).
Proof.
  intros Hs Hf Hc. induction Hf as [|x t l texts F1 F2 IH]; intros o; cbn [joined join].
  - change (zlen (@nil Z)) with 0. now rewrite Z.add_0_r.
  - rewrite Hc. cbn [negb]. rewrite (step_none _ _ _ _ _ F1). cbn [bind].
    destruct F2 as [|y t2 l texts F3 F4]; [reflexivity|]. rewrite (step_none _ _ _ _ _ Hs). cbn [bind].
    fold (@joined X cond pos n sep f). rewrite IH. f_equal. f_equal. rewrite !zlen_app. lia.
Qed.

Lemma joined_at {X} cond p g q sep ts (f : X -> printer) l texts :
  prints sep ts -> zlen g < 2^63 -> (forall b o, o < zlen g -> cond (Some b, o) = true) ->
  Forall2 (fun x t => prints (f x) t) l texts ->
  forall t s, at_text p g q t s -> zlen (t ++ join ts texts) < zlen g ->
  exists s', joined cond (zlen p) (zlen g) sep f l s = Ok s' /\ at_text p g q (t ++ join ts texts) s'.
Proof.
  intros Hs Hg Hc Hf. induction Hf as [|x tx l texts F1 F2 IH]; intros t s Ha Hlt; cbn [joined].
  - exists s. cbn [join]. now rewrite app_nil_r.
  - assert (Ec : cond s = true).
    { destruct Ha as (g' & -> & Hl & _). apply Hc. rewrite zlen_app in Hlt.
      pose proof (zlen_nonneg (join ts (tx :: texts))). lia. }
    rewrite Ec. cbn [negb]. destruct F2 as [|y ty l texts F3 F4].
    + destruct (step_at p g q t tx (f x) s F1 Ha Hlt Hg) as (s' & -> & Ha'). cbn [bind]. now exists s'.
    + change (join ts (tx :: ty :: texts)) with (tx ++ ts ++ join ts (ty :: texts)) in *.
      rewrite !zlen_app in Hlt. pose proof (zlen_nonneg ts). pose proof (zlen_nonneg (join ts (ty :: texts))).
      destruct (step_at p g q t tx (f x) s F1 Ha ltac:(rewrite zlen_app; lia) Hg) as (s' & -> & Ha'). cbn [bind].
      destruct (step_at p g q _ ts sep s' Hs Ha' ltac:(rewrite !zlen_app; lia) Hg) as (s2 & -> & Ha2). cbn [bind].
      fold (@joined X cond (zlen p) (zlen g) sep f).
      destruct (IH ((t ++ tx) ++ ts) s2 Ha2 ltac:(rewrite !zlen_app; lia)) as (s3 & E3 & Ha3).
      exists s3. split; [exact E3|]. now rewrite <- !app_assoc in Ha3.
Qed.

(** A whole buffer of it. *)
Lemma prints_state (f : printer) t :
  (forall pos n, f None pos n = Ok (None, zlen t)) ->
  (forall p g q, zlen t < zlen g -> zlen g < 2^63 ->
     exists s, f (Some (p ++ g ++ q)) (zlen p) (zlen g) = Ok s /\ at_text p g q t s) ->
  prints f t.
Proof.
  intros H1 H2. split; [exact H1|]. intros p g q Hl Hg.
  destruct (H2 p g q Hl Hg) as (s & E & g' & -> & K). now exists g'.
Qed.

Lemma prints_joined {X} (cond : Z -> option bytes * Z -> bool) sep ts (f : X -> printer) l texts :
  prints sep ts -> Forall2 (fun x t => prints (f x) t) l texts ->
  (forall n o, cond n (None, o) = true) -> (forall n b o, o < n -> cond n (Some b, o) = true) ->
  prints (fun buf pos n => joined (cond n) pos n sep f l (buf, 0)) (join ts texts).
Proof.
  intros Hs Hf H1 H2. apply prints_state.
  - intros pos n. rewrite (joined_none _ _ _ _ ts _ _ texts) by (try assumption; apply H1). reflexivity.
  - intros p g q Hl Hg. apply (joined_at _ p g q sep ts f l texts Hs Hg (H2 (zlen g)) Hf []); [apply at_start|exact Hl].
Qed.

(** A message. *)
Lemma show_message_eq rt d a vs : show_message rt d (M a vs) = spaces (2 * d) ++ a ++
  match vs with
  | [] => []
  | [v] => str " : " ++ show_value rt d v
  | _ => str " : [" ++ join (str ", ") (map (show_value rt d) vs) ++ str "]"
  end.
Proof. reflexivity. Qed.
Lemma show_bundle_eq rt d ms : show_value rt d (VBundle ms) =
  (str "{" ++ newline) ++ join (str "," ++ newline) (map (show_message rt (d + 1)) ms) ++
  (newline ++ spaces (2 * d) ++ str "}").
Proof. reflexivity. Qed.
Definition message_printer {X} (t a : list Z) (numargs : Z) (f : X -> printer) (args : list X) : printer :=
  fun buf pos n =>
  do s <- step pos n (put (msg_head t a numargs)) (buf, 0);
  do s <- joined always pos n (put (str ", ")) f args s;
  step pos n (msg_tail numargs) s.

Lemma prints_tail k : prints (msg_tail k) (if 1 <? k then str "]" else []).
Proof.
  unfold msg_tail. destruct (1 <? k); [apply prints_put|]. split; [reflexivity|].
  intros p g q _ _. exists g. split; [reflexivity|]. split; [reflexivity|]. now right.
Qed.

Lemma prints_message {X} rt d a vs (f : X -> printer) args :
  Forall2 (fun x v => prints (f x) (show_value rt d v)) args vs ->
  prints (message_printer (spaces (2 * d)) a (zlen vs) f args) (show_message rt d (M a vs)).
Proof.
  intros Hf. set (t := spaces (2 * d)). set (texts := map (show_value rt d) vs).
  assert (Hf' : Forall2 (fun x t => prints (f x) t) args texts).
  { unfold texts. clear -Hf. induction Hf; cbn [map]; constructor; assumption. }
  assert (Ht : show_message rt d (M a vs) =
    (msg_head t a (zlen vs) ++ join (str ", ") texts) ++ (if 1 <? zlen vs then str "]" else [])).
  { unfold texts, msg_head. rewrite show_message_eq. fold t. destruct vs as [|v [|v2 vs]].
    - change (zlen (@nil value)) with 0. change (0 =? 0) with true. change (1 <? 0) with false. cbn [negb map join]. now rewrite !app_nil_r.
    - change (zlen [v]) with 1. change (1 =? 0) with false. change (1 <? 1) with false. cbn [negb map join].
      rewrite app_nil_r. now rewrite <- !app_assoc.
    - rewrite !zlen_cons. pose proof (zlen_nonneg vs).
      rewrite (proj2 (Z.eqb_neq _ _)) by lia. rewrite (proj2 (Z.ltb_lt _ _)) by lia. cbn [negb]. now rewrite <- !app_assoc. }
  assert (Ha : forall s, @always (option bytes * Z) s = true) by reflexivity.
  rewrite Ht. clear Ht. unfold message_printer. apply prints_state.
  - intros pos n. rewrite (step_none _ _ _ _ _ (prints_put _)). cbn [bind].
    rewrite (joined_none always pos n _ (str ", ") f args texts) by (try assumption; try reflexivity; apply prints_put).
    cbn [bind]. rewrite (step_none _ _ _ _ _ (prints_tail _)). rewrite !zlen_app. do 2 f_equal; lia.
  - intros p g q Hl Hg. rewrite !zlen_app in Hl.
    set (h := msg_head t a (zlen vs)) in *. set (e := if 1 <? zlen vs then str "]" else []) in *.
    pose proof (zlen_nonneg h). pose proof (zlen_nonneg e). pose proof (zlen_nonneg (join (str ", ") texts)).
    destruct (step_at p g q [] h (put h) _ (prints_put h) (at_start p g q) ltac:(cbn [app]; lia) Hg) as (s1 & Ek1 & H1s); unfold bytes in *; rewrite Ek1; clear Ek1.
    cbn [bind app] in *.
    destruct (joined_at always p g q (put (str ", ")) (str ", ") f args texts (prints_put _) Hg (fun _ _ _ => eq_refl) Hf'
      h s1 H1s ltac:(rewrite zlen_app; lia)) as (s2 & Ek2 & H2s); unfold bytes in *; rewrite Ek2; clear Ek2. cbn [bind].
    apply (step_at p g q _ e _ s2 (prints_tail _) H2s); [rewrite !zlen_app; lia|exact Hg].
Qed.

(** Three parts. *)
Lemma prints_three f1 f2 f3 t1 t2 t3 : prints f1 t1 -> prints f2 t2 -> prints f3 t3 ->
  prints (fun buf pos n => do s <- step pos n f1 (buf, 0); do s <- step pos n f2 s; step pos n f3 s) (t1 ++ t2 ++ t3).
Proof.
  intros H1 H2 H3. apply prints_state.
  - intros pos n. rewrite (step_none _ _ _ _ _ H1). cbn [bind]. rewrite (step_none _ _ _ _ _ H2). cbn [bind].
    rewrite (step_none _ _ _ _ _ H3). rewrite !zlen_app. do 2 f_equal; lia.
  - intros p g q Hl Hg. rewrite !zlen_app in Hl.
    pose proof (zlen_nonneg t2). pose proof (zlen_nonneg t3).
    destruct (step_at p g q [] t1 f1 _ H1 (at_start p g q) ltac:(cbn [app]; lia) Hg) as (s1 & Ek3 & A1); unfold bytes in *; rewrite Ek3; clear Ek3. cbn [bind app] in *.
    destruct (step_at p g q t1 t2 f2 s1 H2 A1 ltac:(rewrite zlen_app; lia) Hg) as (s2 & Ek4 & A2); unfold bytes in *; rewrite Ek4; clear Ek4. cbn [bind].
    rewrite app_assoc. apply (step_at p g q (t1 ++ t2) t3 f3 s2 H3 A2); [rewrite !zlen_app; lia|exact Hg].
Qed.

Lemma prints_nothing : prints (fun buf pos n => Ok (buf, 0)) [].
Proof.
  split; [reflexivity|]. intros p g q _ _. exists g. split; [reflexivity|]. split; [reflexivity|]. now right.
Qed.

Lemma prints_ext f g t : (forall buf pos n, f buf pos n = g buf pos n) -> prints f t -> prints g t.
Proof.
  intros E [H1 H2]. split; [intros; rewrite <- E; apply H1|]. intros p x q Hl Hg. rewrite <- E. now apply H2.
Qed.

(** Functions given the place to write to. *)
Lemma prints_at_pos f t :
  (forall n, f None n = Ok (None, zlen t)) ->
  (forall g q, zlen t < zlen g -> zlen g < 2^63 -> exists g',
     f (Some (g ++ q)) (zlen g) = Ok (Some (t ++ g' ++ q), zlen t) /\
     zlen t + zlen g' = zlen g /\ ended t g g') ->
  prints (at_pos f) t.
Proof.
  intros H1 H2. split; [intros; apply H1|]. intros p g q Hl Hg. unfold at_pos.
  destruct ((zlen p <? 0) || (zlen (p ++ g ++ q) <? zlen p)) eqn:E.
  { rewrite zlen_app in E. pose proof (zlen_nonneg p). pose proof (zlen_nonneg (g ++ q)).
    apply orb_true_iff in E as [E|E]; apply Z.ltb_lt in E; lia. }
  replace (Z.to_nat (zlen p)) with (length p) by (unfold zlen; lia).
  rewrite (skipn_exact p (g ++ q)), (firstn_exact p (g ++ q)) by reflexivity.
  destruct (H2 g q Hl Hg) as (g' & -> & Hl' & He). cbn [bind]. now exists g'.
Qed.

(** One snprintf at the place. *)
Lemma snprintf_room t g q : zlen t < zlen g -> zlen g < 2^63 -> exists g',
  snprintf (g ++ q) 0 (u64 (zlen g)) t = Ok (t ++ g' ++ q) /\ zlen t + zlen g' = zlen g /\ ended t g g'.
Proof.
  intros Hl Hg. destruct (prints_put t) as [_ H]. destruct (H [] g q Hl Hg) as (g' & E & K).
  exists g'. split; [|exact K]. cbn [app] in E. change (zlen (@nil Z)) with 0 in E. unfold put in E.
  unfold bytes in *. destruct (snprintf (g ++ q) 0 (u64 (zlen g)) t) as [x|u|]; cbn [bind] in E; try discriminate E.
  injection E as ->. reflexivity.
Qed.

(** * Atoms *)

Lemma escaped_quote s : escaped s = quote s.
Proof. reflexivity. Qed.

Lemma prints_string tmp s : nonul s -> zlen (literal s) < 2^31 ->
  prints (at_pos (fun b n => quoted_string_with_quoted_meta tmp b n s)) (literal s).
Proof.
  intros Hs Hl. unfold literal in *. rewrite escaped_quote in *. cbn [app] in *.
  rewrite zlen_cons, zlen_app in Hl. change (zlen [34]) with 1 in Hl.
  apply prints_at_pos.
  - intros n. apply C32_quoted_size. lia.
  - intros g q Hlt Hg. pose proof (zlen_nonneg q).
    rewrite zlen_cons, zlen_app in Hlt. change (zlen [34]) with 1 in Hlt.
    rewrite C32_quoted; try assumption; try lia; [|rewrite ?zlen_app; pose proof (zlen_nonneg (quote s)); lia].
    cbv zeta. rewrite firstn_all2 by (cbn [length]; rewrite app_length; cbn [length]; unfold zlen in *; lia).
    exists (0 :: skipn (length (34 :: quote s ++ [34]) + 1) g). split; [|split; [|now left]].
    + f_equal. f_equal. f_equal. rewrite <- app_assoc. cbn [app]. f_equal. f_equal. f_equal.
      rewrite app_comm_cons, app_length. cbn [length].
      rewrite skipn_app.
      match goal with |- _ = skipn ?a g ++ q => assert (Ha : (a <= length g)%nat) end.
      { cbn [length]. rewrite app_length. cbn [length]. unfold zlen in *. lia. }
      match goal with |- _ ++ skipn ?c q = _ => replace c with O by lia end. reflexivity.
    + rewrite !zlen_cons, zlen_app. change (zlen [34]) with 1. unfold zlen in *. rewrite skipn_length.
      cbn [length]. rewrite app_length. cbn [length]. lia.
Qed.

Lemma s8_two b : is_byte b -> signed_byte b = two_complement 8 b.
Proof.
  unfold is_byte, signed_byte, two_complement. intros H. rewrite Z.mod_small by lia.
  change (2 ^ (8 - 1)) with 128. destruct (b <? 128); reflexivity.
Qed.

Lemma join_cons sep x l : join sep (x :: l) = x ++ flat_map (fun y => sep ++ y) l.
Proof.
  revert x. induction l as [|y l IH]; intros x; [cbn [join flat_map]; now rewrite app_nil_r|].
  change (join sep (x :: y :: l)) with (x ++ sep ++ join sep (y :: l)). rewrite IH. cbn [flat_map].
  now rewrite <- app_assoc.
Qed.

Lemma blob_text_literal d : wf_bytes d -> blob_text d = blob_literal d.
Proof.
  intros H. unfold blob_text, blob_literal. change (str "blob(") with [98; 108; 111; 98; 40].
  change (str ")") with [41]. destruct H as [|b d Hb Hd]; [reflexivity|]. cbn [map]. rewrite join_cons.
  rewrite s8_two by exact Hb. do 4 f_equal.
  induction Hd as [|c d Hc Hd IH]; [reflexivity|]. cbn [flat_map map]. rewrite s8_two by exact Hc.
  change (str ", ") with [44; 32] in *. now rewrite IH.
Qed.

(** Bytes behind a blob do not matter. *)
Lemma rd_app (buf post : bytes) i x : rd buf i = Ok x -> rd (buf ++ post) i = Ok x.
Proof.
  unfold rd. destruct (i <? 0); [discriminate|]. destruct (nth_error buf (Z.to_nat i)) eqn:E; [|discriminate].
  intros [= ->]. rewrite nth_error_app1, E by (apply nth_error_Some; congruence). reflexivity.
Qed.
Lemma blob_loop_app k : forall d post ptr out n c r,
  blob_loop k d ptr out n c = Ok r -> blob_loop k (d ++ post) ptr out n c = Ok r.
Proof.
  induction k as [|k IH]; intros d post ptr out n c r; cbn [blob_loop]; [easy|].
  destruct (rd d ptr) as [x| |] eqn:E; try discriminate. rewrite (rd_app _ post _ _ E). cbn [bind].
  destruct out as [b|]; cbn [bind].
  - destruct (snprintf _ _ _ _); try discriminate. cbn [bind]. apply IH.
  - apply IH.
Qed.
Lemma fmt_blob_app d post out n r : 4 <= zlen d -> fmt_blob out n d = Ok r -> fmt_blob out n (d ++ post) = Ok r.
Proof.
  intros H4. unfold fmt_blob.
  assert (E32 : rd32 (d ++ post) 0 = rd32 d 0).
  { destruct (split_at d 4) as (h & l & -> & Hh); [lia|]. unfold rd32, slice. rewrite !zlen_app.
    pose proof (zlen_nonneg l). pose proof (zlen_nonneg post).
    cbn [Z.ltb Z.compare orb]. destruct (zlen h + zlen l <? 0 + 4) eqn:E1; [lia|].
    destruct (zlen h + zlen l + zlen post <? 0 + 4) eqn:E2; [lia|].
    change (Z.to_nat 0) with 0%nat. change (Z.to_nat 4) with 4%nat. cbn [skipn].
    rewrite <- !app_assoc. now rewrite !firstn_exact by (unfold zlen in Hh; lia). }
  rewrite E32. destruct (rd32 d 0) as [len| |]; try discriminate. cbn [bind].
  destruct (rd d 4) as [x| |] eqn:E; try discriminate. rewrite (rd_app _ post _ _ E). cbn [bind].
  destruct out as [b|]; cbn [bind].
  - destruct (snprintf b 0 n _) as [b'| |]; try discriminate. cbn [bind].
    match goal with |- bind (blob_loop ?k d ?p ?o ?m ?c) _ = _ -> _ =>
      destruct (blob_loop k d p o m c) as [y| |] eqn:EL end; try discriminate.
    rewrite (blob_loop_app _ _ post _ _ _ _ _ EL). cbn [bind]. easy.
  - match goal with |- bind (blob_loop ?k d ?p ?o ?m ?c) _ = _ -> _ =>
      destruct (blob_loop k d p o m c) as [y| |] eqn:EL end; try discriminate.
    rewrite (blob_loop_app _ _ post _ _ _ _ _ EL). cbn [bind]. easy.
Qed.

(** A blob object or the serialized blob. *)
Lemma prints_blob d post : d <> [] -> wf_bytes d -> zlen d < 2^31 ->
  let x := be_bytes 4 (zlen d) ++ d ++ post in
  (forall n, fmt_blob None n x = Ok (None, zlen (blob_literal d))) /\
  (forall g q, zlen (blob_literal d) < zlen g -> zlen g < 2^63 -> exists g',
     fmt_blob (Some (g ++ q)) (zlen g) x = Ok (Some (blob_literal d ++ g' ++ q), zlen (blob_literal d)) /\
  zlen (blob_literal d) + zlen g' = zlen g /\ ended (blob_literal d) g g').
Proof.
  intros Hne Hd Hl x. destruct d as [|b d]; [easy|]. inversion Hd as [|? ? H1 H2]; subst x0 l.
  rewrite <- blob_text_literal by exact Hd.
  assert (Hx : x = (be_bytes 4 (zlen (b :: d)) ++ b :: d) ++ post) by (unfold x; now rewrite <- app_assoc).
  assert (H4 : 4 <= zlen (be_bytes 4 (zlen (b :: d)) ++ b :: d)).
  { rewrite zlen_app, zlen_be. pose proof (zlen_nonneg (b :: d)). lia. }
  split.
  - intros n. rewrite Hx. apply fmt_blob_app; [exact H4|]. now apply (C49_blobs b d n []).
  - intros g q Hlt Hg. pose proof (zlen_nonneg q).
    destruct (proj2 (C49_blobs b d (zlen g) (g ++ q) H1 H2 Hl) Hlt ltac:(lia) ltac:(zl; lia)) as (rest & E & HL & HS).
    set (t := blob_text (b :: d)) in *.
    specialize (HS (length g) ltac:(unfold zlen; lia)). rewrite (skipn_exact g q) in HS by reflexivity.
    cbn [app] in *. rewrite zlen_app, zlen_cons in HL. rewrite zlen_app in HL.
    rewrite skipn_app, skipn_all2 in HS by (unfold zlen in *; lia). cbn [app] in HS.
    set (k := (length g - length t)%nat) in *.
    exists (firstn k (0 :: rest)). split; [|split].
    + rewrite Hx. apply fmt_blob_app; [exact H4|]. rewrite E. f_equal. f_equal. f_equal. f_equal.
      rewrite <- HS. symmetry. apply firstn_skipn.
    + unfold zlen in *. rewrite firstn_length. cbn [length]. unfold k. lia.
    + left. assert (Hk : (0 < k)%nat) by (unfold k, zlen in *; lia). destruct k; [lia|]. reflexivity.
Qed.

(** Numbers and words: those types whose text goes through one snprintf. *)
Section Texts.
Context (rt : Z -> Z -> list Z) (junk : bytes).

Definition plain (v : value) : Prop :=
  match v with VStr _ | VBlob _ | VBundle _ => False | _ => True end.

Lemma s_two k x y : 0 < k -> two_complement k x = (x + 2^(k-1)) mod 2^k - 2^(k-1) -> y mod 2^k = x mod 2^k ->
  two_complement k y = (x + 2^(k-1)) mod 2^k - 2^(k-1).
Proof. intros Hk H E. rewrite <- H. unfold two_complement. now rewrite E. Qed.

Lemma two8 x : two_complement 8 x = s8 x.
Proof. unfold two_complement, s8. change (2^(8-1)) with 128. change (2^8) with 256.
  destruct (x mod 256 <? 128) eqn:E; Z.div_mod_to_equations; lia. Qed.
Lemma two16 x : two_complement 16 x = s16 x.
Proof. unfold two_complement, s16. change (2^(16-1)) with (2^15).
  destruct (x mod 2^16 <? 2^15) eqn:E; Z.div_mod_to_equations; lia. Qed.
Lemma two32 x : two_complement 32 x = s32 x.
Proof. unfold two_complement, s32. change (2^(32-1)) with (2^31).
  destruct (x mod 2^32 <? 2^31) eqn:E; Z.div_mod_to_equations; lia. Qed.
Lemma two64 x : two_complement 64 x = s64 x.
Proof. unfold two_complement, s64. change (2^(64-1)) with (2^63).
  destruct (x mod 2^64 <? 2^63) eqn:E; Z.div_mod_to_equations; lia. Qed.

Lemma mod_pow x j k : 0 <= j <= k -> (x mod 2^k) mod 2^j = x mod 2^j.
Proof.
  intros H. replace k with (j + (k - j)) by lia. rewrite Z.pow_add_r by lia.
  rewrite Z.rem_mul_r by lia.
  rewrite (Z.mul_comm (2^j)), Z.mod_add by lia. now rewrite Z.mod_mod by lia.
Qed.

Lemma chr_char x : quoted_char (s8 x) = str "'" ++ [x mod 2^8] ++ str "'".
Proof.
  unfold quoted_char, fmt_char. change (str "'") with [39]. cbn [app]. f_equal. f_equal. unfold s8, u8.
  Z.div_mod_to_equations; lia.
Qed.
Lemma chr_uchar x : quoted_char (u8 x) = str "'" ++ [x mod 2^8] ++ str "'".
Proof.
  unfold quoted_char, fmt_char. change (str "'") with [39]. cbn [app]. f_equal. f_equal. unfold u8.
  now rewrite Z.mod_mod by lia.
Qed.

Lemma three_digits v : 100 <= v < 2^8 -> zlen (numeral v) = 3.
Proof.
  intros H. assert (Hv : in_type U8 v) by (cbn; lia).
  assert (Hx := string_len_int (fun _ => []) U8 atom_fresh v Hv).
  rewrite (proj1 (C49_integers (fun _ => []) [] U8 atom_fresh v Hv (or_intror (proj1 H)))) in Hx.
  injection Hx as Hx. rewrite <- Hx. reflexivity.
Qed.

Ltac tagged H := repeat destruct H as [<-|H]; try destruct H.

Ltac done_u := match goal with |- au_string_len ?o ?a = Ok ?k /\ _ =>
  let E := fresh "E" in
  assert (E : au_string_len o a = Ok k);
    [unfold au_string_len; redtag|
     split; [exact E|]; intros b n; unfold au_string; rewrite E; cbn [bind out_buffer]; redtag; clear E] end.

(** The text printed for an atom object of a plain type. *)
Lemma plain_u Q d a : ok_atom a -> is_byte (match a with Atom tg _ _ => tg end) -> std_value Q (raw_value a) -> plain (raw_value a) -> showable (raw_value a) ->
  let t := show_value rt d (raw_value a) in
  match a with Atom tg _ _ => tg <> 46 /\ tg <> 115 end /\
  au_string_len (rt_u rt) a = Ok (zlen t) /\
  (forall b n, au_string (rt_u rt) junk a n (Some b) = do b <- snprintf b 0 n t; Ok (b, zlen t)).
Proof.
  destruct a as [tg w p]. intros [Hw Hp] Htg Hs Hpl Hsh. cbn [raw_value] in *.
  destruct (existsb (Z.eqb tg) [99; 67; 117; 85; 105; 73; 102]) eqn:E4.
  { cbn [std_value] in Hs. destruct Hs as [Ht _]. cbn [showable] in Hsh.
    assert (Hu8 : w mod 2^32 mod 2^8 = u8 w) by (unfold u8; apply mod_pow; lia).
    tagged Ht; cbn [show_value Z.eqb Pos.eqb orb]; (split; [lia|]); done_u; unfold rt_u; redtag;
      cbn [bind]; try reflexivity; unfold w_c, w_C, w_u, w_U, w_i, w_I.
    - now rewrite chr_char, mod_pow by lia.
    - rewrite fmt_int_numeral. specialize (Hsh eq_refl). rewrite Hu8 in *.
      rewrite three_digits by (unfold u8 in *; pose proof (Z.mod_pos_bound w (2^8)); lia). reflexivity.
    - rewrite chr_uchar, Hu8. unfold u8. reflexivity.
    - rewrite fmt_int_numeral, <- two16. unfold two_complement. now rewrite mod_pow by lia.
    - rewrite fmt_int_numeral, <- two16. unfold two_complement. now rewrite mod_pow by lia.
    - rewrite fmt_int_numeral. unfold u16. now rewrite mod_pow by lia.
    - rewrite fmt_int_numeral. unfold u16. now rewrite mod_pow by lia.
    - rewrite fmt_int_numeral, <- two32. unfold two_complement. now rewrite mod_pow by lia.
    - rewrite fmt_int_numeral, <- two32. unfold two_complement. now rewrite mod_pow by lia.
    - now rewrite fmt_int_numeral.
    - now rewrite fmt_int_numeral. }
  destruct (existsb (Z.eqb tg) [104; 72; 100]) eqn:E8.
  { cbn [std_value] in Hs. destruct Hs as [Ht _].
    tagged Ht; cbn [show_value Z.eqb Pos.eqb orb]; (split; [lia|]); done_u; unfold rt_u; redtag;
      cbn [bind]; try reflexivity; unfold w_h, w_H.
    - rewrite fmt_int_numeral, <- two64. unfold two_complement. now rewrite mod_pow by lia.
    - rewrite fmt_int_numeral, <- two64. unfold two_complement. now rewrite mod_pow by lia.
    - now rewrite fmt_int_numeral.
    - now rewrite fmt_int_numeral. }
  destruct (tg =? 116) eqn:E116.
  { apply Z.eqb_eq in E116 as ->. cbn [show_value]. split; [lia|]. done_u; unfold rt_u; redtag; cbn [bind]; reflexivity. }
  destruct p; try (now destruct Hpl). destruct (tg =? 46) eqn:E46; [now destruct Hpl|].
  cbn [std_value] in Hs. destruct Hp as [H1 H2].
  unfold is_byte in Htg. rewrite Z.mod_small in * by lia.
  tagged Hs; cbn [show_value Z.eqb Pos.eqb orb]; (split; [lia|]); done_u; cbn [bind]; reflexivity.
Qed.

Lemma prints_plain_u Q d a : ok_atom a -> is_byte (match a with Atom tg _ _ => tg end) ->
  std_value Q (raw_value a) -> plain (raw_value a) -> showable (raw_value a) ->
  prints (fmt_atom_u rt junk d a) (show_value rt d (raw_value a)).
Proof.
  intros Hok Htg Hs Hp Hsh. destruct (plain_u Q d a Hok Htg Hs Hp Hsh) as (Ht & Hk & Hb).
  destruct a as [tg w p]. destruct Ht as [H46 H115]. apply Z.eqb_neq in H46, H115.
  split.
  - intros pos n. cbn [fmt_atom_u]. rewrite H46, H115. cbn [at_pos]. rewrite Hk. reflexivity.
  - cbn [fmt_atom_u]. rewrite H46, H115. intros p0 g q Hl Hg.
    match goal with |- exists g', at_pos ?f _ _ _ = _ /\ _ =>
      assert (K : prints (at_pos f) (show_value rt d (raw_value (Atom tg w p)))) end.
    { apply prints_at_pos; [intros n; rewrite Hk; reflexivity|]. intros g1 q1 Hl1 Hg1. rewrite Hb.
      destruct (snprintf_room _ g1 q1 Hl1 Hg1) as (g' & E & K). unfold bytes in *. rewrite E. cbn [bind]. now exists g'. }
    now apply K.
Qed.

Lemma of_le_app l1 l2 : of_le (l1 ++ l2) = of_le l1 + 256 ^ zlen l1 * of_le l2.
Proof.
  induction l1 as [|b l1 IH]; cbn [app of_le].
  - change (zlen (@nil Z)) with 0. rewrite Z.pow_0_r. lia.
  - rewrite IH, zlen_cons, Z.pow_add_r by (pose proof (zlen_nonneg l1); lia). lia.
Qed.
Lemma be8_pair s f : 0 <= s < 2^32 -> 0 <= f < 2^32 -> be_bytes 8 (s * 2^32 + f) = be_bytes 4 s ++ be_bytes 4 f.
Proof.
  intros Hs Hf. set (l := be_bytes 4 s ++ be_bytes 4 f).
  assert (Hw : wf_bytes l) by (apply wf_app; apply be_bytes_wf).
  assert (Hl : length l = 8%nat) by (unfold l; now rewrite app_length, !be_bytes_length).
  assert (E := be_bytes_of_be l Hw). rewrite Hl in E. rewrite <- E. f_equal.
  unfold l, of_be. rewrite rev_app_distr, of_le_app.
  change (of_le (rev (be_bytes 4 f))) with (of_be (be_bytes 4 f)).
  change (of_le (rev (be_bytes 4 s))) with (of_be (be_bytes 4 s)).
  replace (zlen (rev (be_bytes 4 f))) with 4 by (unfold zlen; rewrite rev_length, be_bytes_length; reflexivity).
  rewrite !of_be_4, !u32_id by assumption. change (256^4) with (2^32). lia.
Qed.

Ltac done_s Hr := match goal with |- as_string_len ?o ?b ?tg ?p = Ok ?k /\ _ =>
  let E := fresh "E" in
  assert (E : as_string_len o b tg p = Ok k);
    [unfold as_string_len; redtag; try rewrite Hr; cbn [bind]|
     split; [exact E|]; intros b0 n0; unfold as_string; rewrite E; cbn [bind out_buffer]; redtag;
       try rewrite Hr; cbn [bind]; clear E] end.

(** And for a serialized one. *)
Lemma plain_s Q d v P post : std_value Q v -> plain v -> showable v ->
  let buf := P ++ enc_value v ++ post in
  let t := show_value rt d v in
  vtag v <> 46 /\ vtag v <> 115 /\
  as_string_len (rt (vtag v)) buf (vtag v) (zlen P) = Ok (zlen t) /\
  (forall b n, as_string (rt (vtag v)) junk buf (vtag v) (zlen P) n (Some b) = do b <- snprintf b 0 n t; Ok (b, zlen t)).
Proof.
  intros Hs Hpl Hsh buf t. destruct v; try (now destruct Hpl); cbn [vtag std_value enc_value] in *.
  - destruct Hs as [Ht Hx]. cbn [showable] in Hsh.
    assert (Hr : rd32 buf (zlen P) = Ok v) by (unfold buf; rewrite rd32_be; now rewrite u32_id).
    unfold t. tagged Ht; cbn [show_value Z.eqb Pos.eqb orb]; (split; [lia|]); (split; [lia|]); done_s Hr;
      try reflexivity.
    + now rewrite chr_char.
    + specialize (Hsh eq_refl). rewrite fmt_int_numeral.
      rewrite three_digits by (unfold u8; pose proof (Z.mod_pos_bound v (2^8)); lia). reflexivity.
    + now rewrite chr_uchar.
    + now rewrite fmt_int_numeral, two16.
    + now rewrite fmt_int_numeral, two16.
    + now rewrite fmt_int_numeral.
    + now rewrite fmt_int_numeral.
    + now rewrite fmt_int_numeral, two32.
    + now rewrite fmt_int_numeral, two32.
    + now rewrite fmt_int_numeral.
    + now rewrite fmt_int_numeral.
  - destruct Hs as [Ht Hx].
    assert (Hr : rd64 buf (zlen P) = Ok v) by (unfold buf; rewrite rd64_be; now rewrite u64_id).
    unfold t. tagged Ht; cbn [show_value Z.eqb Pos.eqb orb]; (split; [lia|]); (split; [lia|]); done_s Hr;
      try reflexivity.
    + now rewrite fmt_int_numeral, two64.
    + now rewrite fmt_int_numeral, two64.
    + now rewrite fmt_int_numeral.
    + now rewrite fmt_int_numeral.
  - destruct Hs as [H1 H2].
    assert (Hr : rd64 buf (zlen P) = Ok (sec * 2^32 + frac)).
    { unfold buf. assert (E := rd64_be P (sec * 2^32 + frac) post).
      replace (be_bytes 8 (sec * 2^32 + frac)) with (be_bytes 4 sec ++ be_bytes 4 frac) in E.
      - rewrite E. f_equal. apply u64_id. lia.
      - symmetry. apply be8_pair; assumption. }
    unfold t. cbn [show_value]. split; [lia|]. split; [lia|]. done_s Hr; reflexivity.
  - unfold t. tagged Hs; cbn [show_value Z.eqb Pos.eqb]; (split; [lia|]); (split; [lia|]);
      done_s (@eq_refl Z 0); reflexivity.
Qed.
End Texts.

(** * Objects *)

Lemma checked_ok n v : - 2^(n-1) <= v < 2^(n-1) -> checked n v = Ok v.
Proof.
  intros H. unfold checked.
  destruct ((- 2^(n-1) <=? v) && (v <? 2^(n-1))) eqn:E; [reflexivity|].
  apply andb_false_iff in E as [E|E]; [apply Z.leb_gt in E|apply Z.ltb_ge in E]; lia.
Qed.

Lemma tabs_ok d : 0 <= d -> 2 * d < 2^31 -> tabs d = Ok (spaces (2 * d)).
Proof.
  intros H1 H2. unfold tabs, spaces. rewrite checked_ok by (change (2^(32-1)) with (2^31); lia). cbn [bind].
  now rewrite (Z.mul_comm d 2).
Qed.

Lemma zlen_spaces d : 0 <= d -> zlen (spaces d) = d.
Proof. intros H. unfold spaces, zlen. rewrite repeat_length. lia. Qed.

Lemma zlen_join sep l x : In x l -> zlen x <= zlen (join sep l).
Proof.
  induction l as [|y l IH]; [easy|]. rewrite join_cons. rewrite zlen_app.
  pose proof (zlen_nonneg (flat_map (fun y => sep ++ y) l)). pose proof (zlen_nonneg y).
  intros [->|H1]; [lia|]. destruct l as [|z l]; [easy|]. specialize (IH H1). rewrite join_cons in IH.
  cbn [flat_map]. rewrite !zlen_app in *. pose proof (zlen_nonneg sep). lia.
Qed.

Lemma zlen_show_arg rt d a vs v : In v vs -> zlen (show_value rt d v) <= zlen (show_message rt d (M a vs)).
Proof.
  intros H. rewrite show_message_eq. rewrite !zlen_app.
  pose proof (zlen_nonneg (spaces (2 * d))). pose proof (zlen_nonneg a).
  destruct vs as [|x [|y vs]]; [easy| |].
  - destruct H as [->|[]]. rewrite zlen_app. pose proof (zlen_nonneg (str " : ")). lia.
  - rewrite !zlen_app. pose proof (zlen_join (str ", ") (map (show_value rt d) (x :: y :: vs)) _ (in_map _ _ _ H)).
    pose proof (zlen_nonneg (str " : [")). pose proof (zlen_nonneg (str "]")). lia.
Qed.
Lemma zlen_show_indent rt d m : 0 <= d -> 2 * d <= zlen (show_message rt d m).
Proof.
  intros H. destruct m as [a vs]. rewrite show_message_eq, zlen_app, zlen_spaces by lia.
  match goal with |- context [zlen (a ++ ?x)] => pose proof (zlen_nonneg (a ++ x)) end. lia.
Qed.
Lemma zlen_show_msg rt d ms m : In m ms -> zlen (show_message rt (d + 1) m) <= zlen (show_value rt d (VBundle ms)).
Proof.
  intros H. rewrite show_bundle_eq, !zlen_app.
  pose proof (zlen_join (str "," ++ newline) (map (show_message rt (d + 1)) ms) _ (in_map _ _ _ H)).
  pose proof (zlen_nonneg (str "{")). pose proof (zlen_nonneg newline). pose proof (zlen_nonneg (str "}")).
  pose proof (zlen_nonneg (spaces (2 * d))). lia.
Qed.
Lemma zlen_show_depth rt d ms : 0 <= d -> 2 * d < zlen (show_value rt d (VBundle ms)).
Proof.
  intros H. rewrite show_bundle_eq, !zlen_app, zlen_spaces by lia.
  pose proof (zlen_nonneg (join (str "," ++ newline) (map (show_message rt (d + 1)) ms))).
  change (zlen (str "{")) with 1. change (zlen newline) with 1. change (zlen (str "}")) with 1. lia.
Qed.

Lemma showable_args a vs : showable_message (M a vs) <-> Forall showable vs.
Proof. cbn [showable_message]. apply all_Forall. Qed.
Lemma showable_bundle ms : showable (VBundle ms) <-> Forall showable_message ms.
Proof. cbn [showable]. apply all_Forall. Qed.

Section Objects.
Context (rt : Z -> Z -> list Z) (junk : bytes).

Definition atom_prints (a : atom) : Prop := forall d, 0 <= d ->
  ok_atom a -> whole_atom a -> std_value any (raw_value a) -> showable (raw_value a) ->
  zlen (show_value rt d (raw_value a)) < 2^31 ->
  prints (fmt_atom_u rt junk d a) (show_value rt d (raw_value a)).
Definition msg_prints (m : umsg) : Prop := forall d a args, 0 <= d -> m = UMsg (Some a) args ->
  ok_msg m -> whole_msg m -> std_message any (M a (map raw_value args)) -> showable_message (M a (map raw_value args)) ->
  zlen (show_message rt d (M a (map raw_value args))) < 2^31 ->
  prints (fmt_msg_u rt junk d m) (show_message rt d (M a (map raw_value args))).

Lemma bundle_texts ms d : 0 <= d ->
  Forall msg_prints ms -> Forall ok_msg ms -> Forall whole_msg ms ->
  Forall (std_message any) (raw_msgs ms) -> Forall showable_message (raw_msgs ms) ->
  Forall (fun m => zlen (show_message rt d m) < 2^31) (raw_msgs ms) ->
  Forall2 (fun m t => prints (fmt_msg_u rt junk d m) t) ms (map (show_message rt d) (raw_msgs ms)).
Proof.
  intros Hd. induction ms as [|m ms IH]; intros H1 H2 H3 H4 H5 H6; [constructor|].
  inversion H1; inversion H2; inversion H3; subst. destruct m as [[a|] args].
  2:{ match goal with H : whole_msg (UMsg None _) |- _ => destruct H as [H _]; now destruct H end. }
  change (raw_msgs (UMsg (Some a) args :: ms)) with (M a (map raw_value args) :: raw_msgs ms) in *.
  inversion H4; inversion H5; inversion H6; subst. cbn [map]. constructor; [|now apply IH].
  match goal with H : msg_prints _ |- _ => apply H end; auto.
Qed.

Lemma objects_print : (forall a, atom_prints a) /\ (forall m, msg_prints m).
Proof.
  assert (HA : forall tg w p, match p with PBndl ms => Forall msg_prints ms | _ => True end -> atom_prints (Atom tg w p)).
  { intros tg w p Hsub d Hd Hok Hwh Hs Hsh Hl.
    destruct p as [|s|b|ms].
    - apply (prints_plain_u rt junk any d); try assumption; [apply Hwh|].
      destruct Hwh as [_ H46]. cbn [raw_value].
      destruct (existsb _ _); [exact I|]. destruct (existsb _ _); [exact I|]. destruct (tg =? 116); [exact I|].
      apply Z.eqb_neq in H46. now rewrite H46.
    - destruct Hok as (_ & -> & Hn & _ & _). cbn [raw_value] in *.
      change (existsb (Z.eqb 115) [99; 67; 117; 85; 105; 73; 102]) with false in *.
      change (existsb (Z.eqb 115) [104; 72; 100]) with false in *. change (115 =? 116) with false in *.
      cbv iota in *. apply (prints_string junk s Hn). exact Hl.
    - destruct Hok as (_ & -> & Hb). cbn [raw_value] in *.
      change (existsb (Z.eqb 98) [99; 67; 117; 85; 105; 73; 102]) with false in *.
      change (existsb (Z.eqb 98) [104; 72; 100]) with false in *. change (98 =? 116) with false in *.
      cbv iota in *. cbn [std_value showable] in *.
      change (show_value rt d (VBlob (blob_data b))) with (blob_literal (blob_data b)) in *.
      destruct Hb as (Hw & H4 & H8 & H9). set (k := of_be (firstn 4 b)) in *.
      destruct (split_at b 4) as (h & l & -> & Hh); [lia|].
      assert (Hh4 : length h = 4%nat) by (unfold zlen in Hh; lia).
      assert (Ek : k = of_be h) by (unfold k; now rewrite firstn_exact). 
      assert (Ed : blob_data (h ++ l) = firstn (Z.to_nat k) l).
      { unfold blob_data. fold k. now rewrite skipn_exact by exact Hh4. }
      assert (Hk0 : 0 <= k < 256 ^ 4).
      { rewrite Ek. change 4 with (Z.of_nat 4). rewrite <- Hh4. apply of_be_bound. apply Forall_app in Hw. apply Hw. }
      rewrite zlen_app in H9.
      assert (Hlk : zlen (blob_data (h ++ l)) = k).
      { rewrite Ed. unfold zlen in *. rewrite firstn_length. lia. }
      assert (Ex : h ++ l = be_bytes 4 (zlen (blob_data (h ++ l))) ++ blob_data (h ++ l) ++ skipn (Z.to_nat k) l).
      { rewrite Hlk, Ed. rewrite firstn_skipn. f_equal. rewrite Ek. rewrite <- Hh4.
        symmetry. apply be_bytes_of_be. apply Forall_app in Hw. apply Hw. }
      destruct (prints_blob (blob_data (h ++ l)) (skipn (Z.to_nat k) l) Hsh Hs ltac:(lia)) as [B1 B2].
      cbv zeta in B1, B2. rewrite <- Ex in B1, B2. cbn [fmt_atom_u]. change (98 =? 46) with false. change (98 =? 115) with false.
      cbv iota. apply prints_at_pos.
      + intros n. unfold au_string_len. redtag. rewrite B1. reflexivity.
      + intros g q Hlt Hg. destruct (B2 g q Hlt Hg) as (g' & E & K).
        unfold au_string, au_string_len, out_buffer. redtag. rewrite B1. cbn [bind].
        rewrite u64_small by (pose proof (zlen_nonneg g); lia). unfold bytes in *. rewrite E. cbn [bind]. exists g'. split; [reflexivity|exact K].
    - destruct Hok as (_ & -> & Hms). cbn [raw_value] in *.
      change (existsb (Z.eqb 46) [99; 67; 117; 85; 105; 73; 102]) with false in *.
      change (existsb (Z.eqb 46) [104; 72; 100]) with false in *. change (46 =? 116) with false in *.
      cbv iota in *. change (concat (map raw_msg ms)) with (raw_msgs ms) in *.
      destruct Hwh as [_ Hwh]. apply all_Forall in Hms, Hwh. apply std_bundle in Hs. apply showable_bundle in Hsh.
      pose proof (zlen_show_depth rt d (raw_msgs ms) Hd) as Hdep.
      assert (Hm : Forall (fun m => zlen (show_message rt (d + 1) m) < 2^31) (raw_msgs ms)).
      { apply Forall_forall. intros m Hin. pose proof (zlen_show_msg rt d (raw_msgs ms) m Hin). lia. }
      assert (K := bundle_texts ms (d + 1) ltac:(lia) Hsub Hms Hwh Hs Hsh Hm).
      rewrite show_bundle_eq. cbn [fmt_atom_u]. change (46 =? 46) with true. cbv iota.
      rewrite checked_ok by (change (2^(32-1)) with (2^31); lia). cbn [bind].
      rewrite (proj2 (Z.ltb_ge (d + 1) 1)) by lia. rewrite Z.add_simpl_r.
      rewrite tabs_ok by lia. cbn [bind].
      apply prints_three; [apply prints_put| |apply prints_put].
      destruct ms as [|m ms]; [apply prints_nothing|].
      apply (prints_joined (fun n s => match fst s with None => true | Some _ => snd s <? n end));
        [apply (prints_put [44; 10])|exact K|reflexivity|]. intros n b o Ho. now apply Z.ltb_lt. }
  assert (HM : forall ad args, Forall atom_prints args -> msg_prints (UMsg ad args)).
  { intros ad args Hsub d a args' Hd [= -> <-] Hok Hwh Hs Hsh Hl.
    pose proof (zlen_show_indent rt d (M a (map raw_value args)) Hd).
    cbn [fmt_msg_u]. rewrite tabs_ok by lia. cbn [bind].
    destruct Hok as (_ & _ & Hok). destruct Hwh as [_ Hwh]. apply all_Forall in Hok, Hwh.
    apply std_args in Hs as (_ & _ & _ & Hs). apply showable_args in Hsh.
    assert (K : Forall2 (fun x v => prints (fmt_atom_u rt junk d x) (show_value rt d v)) args (map raw_value args)).
    { assert (Hla : Forall (fun v => zlen (show_value rt d v) < 2^31) (map raw_value args)).
      { apply Forall_forall. intros v Hv. pose proof (zlen_show_arg rt d a _ v Hv). lia. }
      clear Hl H. induction args as [|x args IH]; cbn [map] in *; [constructor|].
      inversion Hsub; inversion Hok; inversion Hwh; inversion Hs; inversion Hsh; inversion Hla; subst.
      constructor; [|now apply IH].
      match goal with H : atom_prints x |- _ => apply H end; assumption. }
    assert (P := prints_message rt d a _ _ _ K). unfold message_printer in P.
    replace (zlen (map raw_value args)) with (zlen args) in P by (unfold zlen; now rewrite map_length). exact P. }
  split; [exact (atom_ind2 _ _ HA HM)|exact (umsg_ind2 _ _ HA HM)].
Qed.
End Objects.

(** * Serialized data *)

Lemma over_collect l : forall acc,
  over (fun acc (m : msg_s) => Ok (@Cont _ unit (acc ++ [m]))) acc l = Ok (Cont (acc ++ l)).
Proof.
  induction l as [|x l IH]; intros acc; cbn [over bind]; [now rewrite app_nil_r|]. rewrite IH. now rewrite <- app_assoc.
Qed.
Lemma over_atoms_collect l : forall acc,
  over_atoms (fun acc (m : atom_s) => Ok (@Cont _ unit (acc ++ [m]))) acc l = Ok (Cont (acc ++ l)).
Proof.
  induction l as [|x l IH]; intros acc; cbn [over_atoms bind]; [now rewrite app_nil_r|]. rewrite IH. now rewrite <- app_assoc.
Qed.

(** The message count of a bundle that is followed by other data. *)
Lemma msg_count_of ms post : Forall (std_message slash) ms -> zlen (concat (map enc_message ms)) + 20 < 2^31 ->
  get_msg_count (16 + zlen (concat (map enc_message ms)))
    (Some (empty_header ++ concat (map enc_message ms) ++ post)) = Ok (ERR_NONE, zlen ms).
Proof.
  intros Hs Hl. set (bs := map (fun m => wbody (wm_of m)) ms).
  assert (Ec : concat (map enc_message ms) = concat (map sized bs)).
  { unfold bs. rewrite map_map. f_equal. apply map_ext. intros m. rewrite enc_message_wm. reflexivity. }
  assert (Hg : Forall good_chunk bs).
  { unfold bs. apply Forall_map. eapply Forall_impl; [|exact Hs]. intros [a vs] H. apply std_args in H as (_ & _ & Hsl & _).
    unfold slash in Hsl. destruct a as [|c a]; [discriminate Hsl|]. cbn [hd] in Hsl. subst c.
    unfold good_chunk, wbody, wm_of. cbn [w_addr w_args]. split; [|reflexivity].
    zl. rewrite zlen_pad_str. zl. pose proof (zlen_nonneg (pad_str (44 :: map vtag vs))).
    pose proof (zlen_nonneg (concat (map enc_value vs))). pose proof (zlen_nonneg a). lia. }
  rewrite Ec in *. pose proof (zlen_nonneg (concat (map sized bs))).
  set (len := 16 + zlen (concat (map sized bs))) in *.
  set (buf := empty_header ++ concat (map sized bs) ++ post).
  assert (Hbs : Forall (fun b => zlen b + 4 < 2^31) bs).
  { eapply Forall_impl; [|apply (chunks_bound bs 20); lia]. intros x Hx. cbn beta in Hx |- *. lia. }
  assert (Hsane : bundle_sanity_check len (Some buf) = Ok ERR_NONE).
  { unfold bundle_sanity_check. destruct (len <? 16) eqn:E; [lia|].
    destruct (strncmp_spec osc_id buf 0) as (e & He & Hiff); [lia| |].
    { unfold buf. rewrite zlen_app. change (zlen osc_id) with 8. change (zlen empty_header) with 16.
      pose proof (zlen_nonneg (concat (map sized bs) ++ post)). lia. }
    rewrite He. cbn [bind]. assert (e = false) as -> by (apply Hiff; reflexivity).
    pose proof (raw_loop_visit (check_step buf len) 16 [] empty_header bs post eq_refl Hbs) as HL.
    cbn [app] in HL. fold buf in HL. fold len in HL. change (zlen (@nil Z)) with 0 in HL. unfold check_step at 1 in HL.
    rewrite HL. change (0 + 16) with (zlen empty_header). change 16 with (zlen empty_header) at 1.
    rewrite (check_visit buf len post bs empty_header); [reflexivity|reflexivity| | |assumption].
    - change (zlen empty_header) with 16. reflexivity.
    - unfold len. lia. }
  unfold get_msg_count. rewrite Hsane. cbn [bind]. change (negb (ERR_NONE =? 0)) with false. cbv iota.
  pose proof (raw_loop_visit (fun count (_ : Z) => Ok (@Cont Z unit (count + 1))) 0 [] empty_header bs post eq_refl Hbs) as HL.
  cbn [app] in HL. fold buf in HL. fold len in HL. change (zlen (@nil Z)) with 0 in HL. rewrite HL.
  rewrite count_visit. cbn [bind]. do 2 f_equal. unfold bs, zlen. now rewrite map_length.
Qed.

Section Serialized.
Context (rt : Z -> Z -> list Z) (junk : bytes).

Definition value_prints (v : value) : Prop := forall P post fuel d, 0 <= d ->
  std_value slash v -> showable v -> zlen (enc_value v) + 4 < 2^31 -> (vdepth v <= fuel)%nat ->
  zlen (show_value rt d v) < 2^31 ->
  let buf := P ++ enc_value v ++ post in
  prints (fmt_atom_s rt junk (fmt_nested_s rt junk fuel buf) buf d (AS (zlen P) (vtag v))) (show_value rt d v).

Definition message_prints (m : message) : Prop := forall P post m0 fuel d, 0 <= d ->
  std_message slash m -> showable_message m -> zlen (enc_message m) + 4 < 2^31 -> (mdepth m <= fuel)%nat ->
  zlen (show_message rt d m) < 2^31 -> ms_cache_size m0 = 0 ->
  let buf := P ++ enc_message m ++ post in
  prints (fmt_msg_s rt junk (fmt_nested_s rt junk fuel buf) buf d (wrapped m0 (zlen P) (wm_of m))) (show_message rt d m).

Lemma views_print buf post fuel d : 0 <= d -> forall ms P m0,
  Forall message_prints ms -> Forall (std_message slash) ms -> Forall showable_message ms ->
  Forall (fun m => (mdepth m <= fuel)%nat) ms -> Forall (fun m => zlen (show_message rt d m) < 2^31) ms ->
  zlen (concat (map enc_message ms)) + 4 < 2^31 -> ms_cache_size m0 = 0 ->
  buf = P ++ concat (map enc_message ms) ++ post ->
  Forall2 (fun m t => prints (fmt_msg_s rt junk (fmt_nested_s rt junk fuel buf) buf d m) t)
    (views m0 (zlen P) (map wm_of ms)) (map (show_message rt d) ms).
Proof.
  intros Hd. induction ms as [|m ms IH]; intros P m0 Hok Hstd Hsh Hdep Hsz Hlen Hc Hbuf; cbn [map views]; [constructor|].
  inversion Hok as [|? ? K1 K2]; subst x l. inversion Hstd as [|? ? S1 S2]; subst x l.
  inversion Hsh as [|? ? T1 T2]; subst x l. inversion Hsz as [|? ? Z1 Z2]; subst x l.
  inversion Hdep as [|? ? D1 D2]; subst x l. cbn [map concat] in Hlen, Hbuf. rewrite zlen_app in Hlen.
  pose proof (zlen_nonneg (enc_message m)). pose proof (zlen_nonneg (concat (map enc_message ms))).
  assert (H1 := K1 P (concat (map enc_message ms) ++ post) m0 fuel d Hd S1 T1 ltac:(lia) D1 Z1 Hc).
  cbv zeta in H1. rewrite app_assoc in Hbuf. rewrite app_assoc in H1.
  replace ((P ++ enc_message m) ++ concat (map enc_message ms) ++ post) with buf in H1
    by (rewrite Hbuf; now rewrite <- !app_assoc).
  constructor; [exact H1|]. rewrite <- enc_message_wm. rewrite <- zlen_app.
  apply IH; try assumption; try lia. rewrite Hbuf. now rewrite <- !app_assoc.
Qed.

Lemma atoms_print buf post fuel d P0 : 0 <= d -> forall vs done,
  let all := done ++ vs in
  Forall value_prints vs -> Forall (std_value slash) vs -> Forall showable vs ->
  Forall (fun v => (vdepth v <= fuel)%nat) vs -> Forall (fun v => zlen (show_value rt d v) < 2^31) vs ->
  zlen (concat (map enc_value all)) + 4 < 2^31 ->
  buf = P0 ++ concat (map enc_value all) ++ post ->
  Forall2 (fun a v => prints (fmt_atom_s rt junk (fmt_nested_s rt junk fuel buf) buf d a) (show_value rt d v))
    (map (fun n => AS (zlen P0 + off all n) (vtag (nth n all (VFlag 0)))) (seq (length done) (length vs))) vs.
Proof.
  intros Hd. induction vs as [|v vs IH]; intros done all Hok Hs Hsh Hdep Hsz Hl Hbuf; cbn [length seq map]; [constructor|].
  inversion Hok as [|? ? K1 K2]; subst x l. inversion Hs as [|? ? S1 S2]; subst x l.
  inversion Hsh as [|? ? T1 T2]; subst x l. inversion Hsz as [|? ? Z1 Z2]; subst x l.
  inversion Hdep as [|? ? D1 D2]; subst x l.
  assert (Hall : all = (done ++ [v]) ++ vs) by (unfold all; now rewrite <- app_assoc).
  assert (Hn : nth (length done) all (VFlag 0) = v) by (unfold all; now rewrite nth_middle).
  assert (Ho : off all (length done) = zlen (concat (map enc_value done))).
  { unfold off, all. rewrite firstn_exact by reflexivity. reflexivity. }
  rewrite Hn, Ho.
  assert (Hb : buf = (P0 ++ concat (map enc_value done)) ++ enc_value v ++ concat (map enc_value vs) ++ post).
  { rewrite Hbuf. unfold all. rewrite map_app, concat_app. cbn [map concat]. now rewrite <- !app_assoc. }
  assert (Hl' := Hl). unfold all in Hl'. rewrite map_app, concat_app in Hl'. cbn [map concat] in Hl'. rewrite !zlen_app in Hl'.
  pose proof (zlen_nonneg (concat (map enc_value done))). pose proof (zlen_nonneg (concat (map enc_value vs))).
  assert (H1 := K1 (P0 ++ concat (map enc_value done)) (concat (map enc_value vs) ++ post) fuel d Hd S1 T1 ltac:(lia) D1 Z1).
  cbv zeta in H1. rewrite <- Hb in H1. rewrite zlen_app in H1. constructor; [exact H1|].
  specialize (IH (done ++ [v])). cbv zeta in IH. rewrite <- Hall in IH.
  rewrite app_length, Nat.add_1_r in IH. apply IH; try assumption; reflexivity.
Qed.

Lemma bundle_prints P hdr ms post fuel d : hdr = empty_header -> 0 <= d ->
  Forall message_prints ms -> Forall (std_message slash) ms -> Forall showable_message ms ->
  Forall (fun m => (mdepth m <= fuel)%nat) ms -> Forall (fun m => zlen (show_message rt d m) < 2^31) ms ->
  zlen (concat (map enc_message ms)) + 20 < 2^31 ->
  let buf := P ++ (hdr ++ concat (map enc_message ms)) ++ post in
  prints (fmt_bundle_body rt junk (fmt_nested_s rt junk fuel buf) buf d (zlen P) (zlen (hdr ++ concat (map enc_message ms))))
    (join (str "," ++ newline) (map (show_message rt d) ms)).
Proof.
  intros -> Hd Hok Hs Hsh Hdep Hsz Hl buf. set (c := concat (map enc_message ms)) in *.
  assert (Eb : buf = P ++ (empty_header ++ c ++ post)) by (unfold buf; now rewrite <- app_assoc).
  assert (El : zlen (empty_header ++ c) = 16 + zlen c) by now rewrite zlen_app.
  assert (Esub : slice buf (zlen P) (zlen buf - zlen P) = Ok (empty_header ++ c ++ post)).
  { assert (E := slice_app P (empty_header ++ c ++ post) []). rewrite app_nil_r, <- Eb in E. rewrite <- E. f_equal.
    rewrite Eb, zlen_app. lia. }
  assert (Ecount := msg_count_of ms post Hs Hl). fold c in Ecount.
  assert (Eloop : bundle_loop buf (zlen P) (16 + zlen c) (fun acc m => Ok (@Cont _ unit (acc ++ [m]))) [] =
    Ok (Cont (views init_msg (zlen (P ++ empty_header)) (map wm_of ms)))).
  { assert (E := bundle_loop_over (fun acc m => Ok (@Cont _ unit (acc ++ [m]))) [] P empty_header (map wm_of ms) post
      eq_refl (std_wfs ms Hs ltac:(fold c; lia))). rewrite map_wm_enc in E. fold c in E. rewrite <- Eb in E.
    rewrite E. rewrite over_collect. cbn [app]. do 3 f_equal. zl. change (zlen empty_header) with 16. reflexivity. }
  apply (prints_ext (fun b pos n => if zlen ms =? 0 then Ok (b, 0) else
    joined always pos n (put [44; 10]) (fmt_msg_s rt junk (fmt_nested_s rt junk fuel buf) buf d)
      (views init_msg (zlen (P ++ empty_header)) (map wm_of ms)) (b, 0))).
  { intros b pos n. unfold fmt_bundle_body. rewrite Esub. cbn [bind]. unfold bytes in *. rewrite El, Ecount. cbn [bind].
    change (negb (ERR_NONE =? 0)) with false. cbv iota. rewrite Eloop. cbn [bind]. reflexivity. }
  destruct ms as [|m ms]; [apply prints_nothing|].
  rewrite (proj2 (Z.eqb_neq (zlen (m :: ms)) 0)) by (rewrite zlen_cons; pose proof (zlen_nonneg ms); lia).
  apply (prints_joined (fun _ => always)); [apply (prints_put [44; 10])| |reflexivity|reflexivity].
  apply (views_print buf post fuel d Hd (m :: ms) (P ++ empty_header) init_msg); try assumption; try reflexivity.
  - fold c. lia.
  - fold c. rewrite Eb. now rewrite <- !app_assoc.
Qed.

Lemma data_prints : (forall v, value_prints v) /\ (forall m, message_prints m).
Proof.
  assert (HV : forall v, match v with VBundle ms => Forall message_prints ms | _ => True end -> value_prints v).
  { intros v Hsub P post fuel d Hd Hs Hsh Hl Hdep Hsz buf.
    destruct v as [t x|t x|s f|s|b|t|ms];
      try match goal with |- prints _ (show_value rt d ?v) =>
        assert (Hpl : plain v) by exact I;
        destruct (plain_s rt junk slash d v P post Hs Hpl Hsh) as (H46 & H115 & Hk & Hb); fold buf in Hk, Hb;
        apply Z.eqb_neq in H46, H115; unfold fmt_atom_s; cbn [as_tt as_data]; rewrite H46, H115;
        apply prints_at_pos; [intros n; rewrite Hk; reflexivity|]; intros g q Hlt Hg; rewrite Hb;
        destruct (snprintf_room _ g q Hlt Hg) as (g' & E & K); unfold bytes in *; rewrite E; cbn [bind];
        exists g'; split; [reflexivity|exact K] end.
    - unfold fmt_atom_s. cbn [as_tt as_data vtag]. change (115 =? 46) with false. change (115 =? 115) with true. cbv iota.
      assert (Er : rdstr buf (zlen P) = Ok s) by (unfold buf; apply rdstr_pad; apply Hs).
      eapply prints_ext; [intros b pos n; rewrite Er; cbn [bind]; reflexivity|].
      apply (prints_string junk s); [apply Hs|exact Hsz].
    - unfold fmt_atom_s. cbn [as_tt as_data vtag]. change (98 =? 46) with false. change (98 =? 115) with false. cbv iota.
      cbn [std_value showable] in *. cbn [enc_value] in Hl. rewrite zlen_app, zlen_be, zlen_pad_blob in Hl.
      pose proof (zlen_nonneg b).
      destruct (prints_blob b (zeros (- zlen b mod 4) ++ post) Hsh Hs ltac:(Z.div_mod_to_equations; lia)) as [B1 B2].
      cbv zeta in B1, B2.
      assert (Eb : buf = P ++ (be_bytes 4 (zlen b) ++ b ++ zeros (- zlen b mod 4) ++ post)).
      { unfold buf. cbn [enc_value]. unfold pad_blob. now rewrite <- !app_assoc. }
      set (x := be_bytes 4 (zlen b) ++ b ++ zeros (- zlen b mod 4) ++ post) in *.
      assert (Ex : slice buf (zlen P) (zlen buf - zlen P) = Ok x).
      { assert (E := slice_app P x []). rewrite app_nil_r, <- Eb in E. rewrite <- E. f_equal. rewrite Eb, zlen_app. lia. }
      change (show_value rt d (VBlob b)) with (blob_literal b).
      apply prints_at_pos.
      + intros n. unfold as_string_len. redtag. rewrite Ex. cbn [bind]. rewrite B1. reflexivity.
      + intros g q Hlt Hg. destruct (B2 g q Hlt Hg) as (g' & E & K).
        unfold as_string, as_string_len, out_buffer. redtag. rewrite Ex. cbn [bind]. rewrite B1. cbn [bind].
        rewrite u64_small by (pose proof (zlen_nonneg g); lia). unfold bytes in *. rewrite E. cbn [bind].
        exists g'. split; [reflexivity|exact K].
    - unfold fmt_atom_s. cbn [as_tt as_data vtag]. change (46 =? 46) with true. cbv iota.
      cbn [enc_value] in *. set (b := empty_header ++ concat (map enc_message ms)) in *.
      rewrite zlen_sized' in Hl. assert (Er : rd32 buf (zlen P) = Ok (zlen b)) by (unfold buf; apply size_at; lia).
      rewrite Er. cbn [bind]. pose proof (zlen_show_depth rt d ms Hd) as Hdd.
      rewrite checked_ok by (change (2^(32-1)) with (2^31); lia). cbn [bind].
      apply std_bundle in Hs. apply showable_bundle in Hsh. cbn [vdepth] in Hdep.
      destruct fuel as [|fuel]; [lia|]. apply le_S_n in Hdep. apply max_le in Hdep.
      rewrite show_bundle_eq. cbn [fmt_nested_s].
      rewrite (proj2 (Z.ltb_ge (d + 1) 1)) by lia. rewrite Z.add_simpl_r. rewrite tabs_ok by lia. cbn [bind].
      apply prints_three; [apply prints_put| |apply prints_put].
      assert (Eb : buf = (P ++ be_bytes 4 (zlen b)) ++ b ++ post) by (unfold buf, sized; now rewrite <- !app_assoc).
      replace (zlen P + 4) with (zlen (P ++ be_bytes 4 (zlen b))) by (rewrite zlen_app, zlen_be; lia).
      assert (Hb : zlen b = 16 + zlen (concat (map enc_message ms))) by (unfold b; now rewrite zlen_app).
      assert (Hm : Forall (fun m => zlen (show_message rt (d + 1) m) < 2^31) ms).
      { apply Forall_forall. intros m Hin. pose proof (zlen_show_msg rt d ms m Hin). lia. }
      assert (K := bundle_prints (P ++ be_bytes 4 (zlen b)) empty_header ms post fuel (d + 1) eq_refl ltac:(lia)
        Hsub Hs Hsh Hdep Hm ltac:(lia)). cbv zeta in K. fold b in K. rewrite <- Eb in K. exact K. }
  assert (HM : forall a vs, Forall value_prints vs -> message_prints (M a vs)).
  { intros a vs Hsub P post m0 fuel d Hd Hs Hsh Hl Hdep Hsz Hc buf.
    assert (Hs' := Hs). apply std_args in Hs' as (Ha & Hwa & Hsl & Hv).
    assert (Hany : std_message any (M a vs)) by now apply (proj2 (std_any slash)).
    set (m := wrapped m0 (zlen P) (wm_of (M a vs))).
    destruct (wrapped_args P a vs post m0 Hany ltac:(lia)) as
      (t & P0 & Ht & Hd0 & Htags & Htag & Hbuf & Hstd & Hlv & Hn & Hfuel).
    fold buf in Htags, Htag, Hbuf, Hfuel. fold m in Ht, Hd0.
    assert (Hra : rdstr buf (zlen P + 4) = Ok a).
    { unfold buf. cbn [enc_message]. unfold sized. rewrite <- !app_assoc. rewrite app_assoc.
      match goal with |- rdstr ((P ++ ?sz) ++ _) _ = _ =>
        replace (zlen P + 4) with (zlen (P ++ sz)) by (rewrite zlen_app, zlen_be; lia) end.
      now apply rdstr_pad. }
    assert (Hcnt : get_arg_count buf m = Ok (zlen vs)) by (eapply arg_count; eassumption).
    pose proof (zlen_show_indent rt d (M a vs) Hd).
    assert (Hla : Forall (fun v => zlen (show_value rt d v) < 2^31) vs).
    { apply Forall_forall. intros v Hin. pose proof (zlen_show_arg rt d a vs v Hin). lia. }
    assert (Hlv' : zlen (concat (map enc_value vs)) + 4 < 2^31).
    { cbn [enc_message] in Hl. rewrite zlen_sized', !zlen_app in Hl.
      pose proof (zlen_nonneg (pad_str a)). pose proof (zlen_nonneg (pad_str (44 :: map vtag vs))). lia. }
    cbn [mdepth] in Hdep. apply max_le in Hdep. apply showable_args in Hsh.
    assert (K := atoms_print buf post fuel d P0 Hd vs [] Hsub Hv Hsh Hdep Hla Hlv' Hbuf).
    cbn [app length] in K.
    eapply prints_ext; [|exact (prints_message rt d a vs _ _ K)].
    intros b pos n. unfold fmt_msg_s, message_printer. rewrite Hcnt. cbn [bind].
    rewrite tabs_ok by lia. cbn [bind]. change (ms_address m) with (Some (zlen P + 4)). cbv iota.
    rewrite Hra. cbn [bind].
    rewrite (msg_loop_atoms buf m t (zlen P0) vs post Ht Hd0 Htags Htag P0 Hbuf eq_refl Hstd Hlv Hn m);
      try reflexivity; try assumption; [|left; exact Hc].
    rewrite over_atoms_collect. cbn [app]. reflexivity. }
  split; [exact (value_ind2 _ _ HV HM) | exact (message_ind2 _ _ HV HM)].
Qed.
End Serialized.
