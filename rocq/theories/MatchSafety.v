(** Termination and memory safety of the matcher model, for arbitrary strings. *)

From Coq Require Import ZArith List Bool Lia.
From Verif Require Import Base BaseProofs MatchModel.
Import ListNotations.
Open Scope Z_scope.

Ltac simpl_z := cbn [fst snd code poff aoff] in *.

Lemma rdc_ok s i : 0 <= i <= zlen s -> exists c, rdc s i = Ok c.
Proof.
  intros H. destruct (rd_ok (s ++ [0]) i) as [x [Hx _]].
  - zl. lia.
  - exists x. exact Hx.
Qed.

Lemma rdc_end s : rdc s (zlen s) = Ok 0.
Proof. unfold rdc. apply rd_at. Qed.

(** A nonzero character is inside the string: the next index is readable. *)
Lemma rdc_nonzero s i c : rdc s i = Ok c -> c <> 0 -> 0 <= i < zlen s.
Proof.
  intros H Hc. unfold rdc in H.
  destruct (Z_lt_le_dec i 0).
  { rewrite rd_oob in H by lia. discriminate. }
  destruct (Z_le_gt_dec (zlen s) i) as [Hle|]; [|lia].
  rewrite rd_app_r in H by lia.
  destruct (Z.eq_dec (i - zlen s) 0) as [E|E].
  - rewrite E in H. cbn in H. congruence.
  - rewrite rd_oob in H; [discriminate|]. zl. lia.
Qed.

Lemma rdc_range s i c : rdc s i = Ok c -> 0 <= i <= zlen s.
Proof.
  intros H. unfold rdc in H.
  destruct (Z_lt_le_dec i 0); [rewrite rd_oob in H by lia; discriminate|].
  destruct (Z_le_gt_dec i (zlen s)); [lia|].
  rewrite rd_oob in H; [discriminate|]. zl. lia.
Qed.

(** Scans that stop at the terminator always succeed. *)
Lemma scan_ok stop s : stop 0 = true ->
  forall fuel i, 0 <= i <= zlen s -> zlen s - i < Z.of_nat fuel ->
  exists q c, scan fuel stop s i = Ok q /\ i <= q <= zlen s /\ rdc s q = Ok c /\ stop c = true /\
              (forall j c', i <= j < q -> rdc s j = Ok c' -> stop c' = false).
Proof.
  intros H0 fuel. induction fuel as [|f IH]; intros i Hi Hf; [lia|].
  cbn [scan]. destruct (rdc_ok s i Hi) as [c Hc]. rewrite Hc. cbn [bind].
  destruct (stop c) eqn:E.
  - exists i, c. repeat split; try lia; auto.
  - assert (Hnz : c <> 0) by (intros ->; congruence).
    destruct (rdc_nonzero _ _ _ Hc Hnz).
    destruct (IH (i + 1)) as (q & c2 & Hq & Hb & Hr & Hs & Hall); try lia.
    exists q, c2. repeat split; try lia; auto.
    intros j c' Hj Hcj. destruct (Z.eq_dec j i) as [->|]; [congruence|].
    apply (Hall j c'); auto; lia.
Qed.

Lemma fuel_of_enough s i : 0 <= i -> zlen s - i < Z.of_nat (fuel_of s).
Proof. unfold fuel_of, zlen. lia. Qed.

Lemma not_star_0 : not_star 0 = true. Proof. reflexivity. Qed.
Lemma is_end_0 : is_end 0 = true. Proof. reflexivity. Qed.

Lemma strncmp_ok n : forall p i a j,
  0 <= i <= zlen p -> 0 <= j <= zlen a ->
  exists b, strncmp_eq n p i a j = Ok b.
Proof.
  induction n as [|n IH]; intros p i a j Hi Hj; cbn [strncmp_eq]; [eauto|].
  destruct (rdc_ok p i Hi) as [c1 H1]. destruct (rdc_ok a j Hj) as [c2 H2].
  rewrite H1, H2. cbn [bind]. destruct (c1 =? c2) eqn:E; [|eauto].
  destruct (c1 =? 0) eqn:E0; [eauto|].
  assert (c1 <> 0) by lia. assert (c2 <> 0) by lia.
  apply rdc_nonzero in H1; [|assumption]. apply rdc_nonzero in H2; [|assumption].
  apply IH; lia.
Qed.

(** If strncmp succeeded over [n] nonzero pattern characters then the address
    has [n] more characters. *)
Lemma strncmp_len n : forall p i a j,
  strncmp_eq n p i a j = Ok true -> 0 <= j <= zlen a ->
  (forall k c, i <= k < i + Z.of_nat n -> rdc p k = Ok c -> c <> 0) ->
  j + Z.of_nat n <= zlen a.
Proof.
  induction n as [|n IH]; intros p i a j H Hj Hnz; [lia|].
  cbn [strncmp_eq] in H.
  destruct (rdc p i) as [c1| |] eqn:H1; try discriminate. cbn [bind] in H.
  destruct (rdc a j) as [c2| |] eqn:H2; try discriminate. cbn [bind] in H.
  destruct (c1 =? c2) eqn:E; [|discriminate].
  assert (c1 <> 0) by (apply (Hnz i); [lia|assumption]).
  destruct (c1 =? 0) eqn:E0; [lia|].
  apply rdc_nonzero in H2; [|lia].
  assert (j + 1 + Z.of_nat n <= zlen a); [|lia].
  apply (IH p (i + 1) a (j + 1)); [assumption|lia|].
  intros k c Hk. apply Hnz. lia.
Qed.

(** ** The range test *)

Lemma range_loop_ok pat ach val : 0 <= val <= 1 ->
  forall fuel p, 0 <= p <= zlen pat -> zlen pat - p < Z.of_nat fuel ->
  exists r, range_loop fuel pat ach val p = Ok r /\ (r = 0 \/ r = 1 \/ r = ERR_UNMATCHED_LSB).
Proof.
  intros Hval fuel. induction fuel as [|f IH]; intros p Hp Hf; [lia|].
  cbn [range_loop]. destruct (rdc_ok pat p Hp) as [c Hc]. rewrite Hc. cbn [bind].
  destruct (c =? c_rbrack) eqn:E1.
  { eexists; split; [reflexivity|]. lia. }
  destruct (is_end c) eqn:E2.
  { eexists; split; [reflexivity|]. auto. }
  assert (Hnz : c <> 0) by (intros ->; discriminate).
  apply rdc_nonzero in Hc; [|assumption].
  destruct (rdc_ok pat (p + 1)) as [d Hd]; [lia|]. rewrite Hd. cbn [bind].
  assert (Hval' : val = 0 \/ val = 1 \/ val = ERR_UNMATCHED_LSB) by lia.
  destruct (d =? c_dash) eqn:E3.
  - assert (Hdnz : d <> 0) by (unfold c_dash in *; lia).
    apply rdc_nonzero in Hd; [|assumption].
    destruct (rdc_ok pat (p + 1 + 1)) as [c2 Hc2]; [lia|]. rewrite Hc2. cbn [bind].
    destruct (negb (is_end c2) && negb (c2 =? c_rbrack)) eqn:E4.
    + assert (c2 <> 0) by (intros ->; discriminate).
      apply rdc_nonzero in Hc2; [|assumption].
      destruct (_ || _); [eauto|]. apply IH; lia.
    + destruct (c =? ach); [eauto|]. apply IH; lia.
  - destruct (c =? ach); [eauto|]. apply IH; lia.
Qed.

Lemma osc_match_range_ok pat p adr a c :
  rdc pat p = Ok c -> c <> 0 -> 0 <= a <= zlen adr ->
  exists r, osc_match_range pat p adr a = Ok r /\ (r = 0 \/ r = 1 \/ r = ERR_UNMATCHED_LSB).
Proof.
  intros Hc Hnz Ha. apply rdc_nonzero in Hc; [|assumption].
  unfold osc_match_range.
  destruct (rdc_ok pat (p + 1)) as [d Hd]; [lia|]. rewrite Hd. cbn [bind].
  destruct (rdc_ok adr a Ha) as [ach Hach]. rewrite Hach. cbn [bind].
  set (p1 := if d =? c_bang then p + 2 else p + 1).
  assert (Hp1 : 0 <= p1 <= zlen pat).
  { unfold p1. destruct (d =? c_bang) eqn:E; [|lia].
    apply rdc_nonzero in Hd; [lia|]. unfold c_bang in *. lia. }
  destruct (rdc_ok pat p1 Hp1) as [e He]. rewrite He. cbn [bind].
  set (val := if d =? c_bang then 0 else 1).
  assert (0 <= val <= 1) by (unfold val; destruct (d =? c_bang); lia).
  destruct (_ && _).
  - eexists; split; [reflexivity|]. lia.
  - apply range_loop_ok; auto. now apply fuel_of_enough.
Qed.

(** ** Pushes *)

Section Safety.
Context (pat adr : list Z).
Let B := zlen pat + zlen adr + 3.

Definition valid (x : Z * Z) : Prop := 0 <= fst x <= zlen pat /\ 0 <= snd x <= zlen adr.
Definition rem (x : Z * Z) : Z := (zlen pat - fst x) + (zlen adr - snd x).
Definition wt (st : stack) : Z := fold_right (fun x acc => B ^ rem x + acc) 0 st.
Definition Inv (st : stack) : Prop := Forall valid st /\ (length st <= OSC_MATCH_BACKTRACK_LIMIT)%nat.

Lemma B_big : 3 <= B.
Proof. unfold B. pose proof (zlen_nonneg pat). pose proof (zlen_nonneg adr). lia. Qed.

Lemma wt_cons x st : wt (x :: st) = B ^ rem x + wt st.
Proof. reflexivity. Qed.

Lemma rem_nonneg x : valid x -> 0 <= rem x.
Proof. unfold valid, rem. lia. Qed.

Lemma pow_pos x : valid x -> 0 < B ^ rem x.
Proof. intros H. apply Z.pow_pos_nonneg; [pose proof B_big; lia | now apply rem_nonneg]. Qed.

Lemma wt_nonneg st : Forall valid st -> 0 <= wt st.
Proof.
  induction 1 as [|x st Hx Hst IH]; [cbn; lia|]. rewrite wt_cons. pose proof (pow_pos x Hx). lia.
Qed.

(** Weight of children: fewer than [B] states, each with a smaller remainder. *)
Lemma pow_children k r r' : 0 <= r' < r -> 0 <= k < B -> k * B ^ r' < B ^ r.
Proof.
  intros Hr Hk. pose proof B_big.
  assert (0 < B ^ r') by (apply Z.pow_pos_nonneg; lia).
  assert (B ^ (r' + 1) <= B ^ r) by (apply Z.pow_le_mono_r; lia).
  rewrite Z.pow_add_r, Z.pow_1_r in H1 by lia. nia.
Qed.

Lemma pow_one r r' : 0 <= r' < r -> B ^ r' < B ^ r.
Proof. intros H. pose proof (pow_children 1 r r' H). pose proof B_big. lia. Qed.

(** [push_many] states: all valid, with remainder at most [r']. *)
Lemma push_spec p a st :
  Inv st -> valid (p, a) ->
  match push p a st with
  | Some st' => st' = (p, a) :: st /\ Inv st'
  | None => True
  end.
Proof.
  intros [Hv Hl] Hx. unfold push. destruct (_ <=? _)%nat eqn:E; [trivial|].
  apply Nat.leb_gt in E. split; [reflexivity|]. split; [now constructor|].
  cbn [length]. lia.
Qed.

(** Alternation loop: pushes at most one state per index. *)
Lemma alt_loop_ok rest aa : 0 <= rest <= zlen pat -> 0 <= aa <= zlen adr ->
  forall fuel p1 p2 st,
  Inv st -> 0 <= p1 <= p2 -> p2 <= zlen pat -> p2 < rest ->
  (exists pe, rest = pe + 1 /\ p2 <= pe /\ rdc pat pe = Ok c_rbrace) ->
  (forall k c, p1 <= k < p2 -> rdc pat k = Ok c -> c <> 0) ->
  zlen pat - p2 < Z.of_nat fuel ->
  match alt_loop fuel pat adr rest aa p1 p2 st with
  | Ok (Some st') => exists cs, st' = cs ++ st /\ Inv st' /\
       (zlen cs <= rest - p2) /\ Forall (fun x => valid x /\ fst x = rest /\ aa <= snd x) cs
  | Ok None => True
  | _ => False
  end.
Proof.
  intros Hrest Haa fuel. induction fuel as [|f IH]; intros p1 p2 st HI H1 H2 H3 H4 H5 Hf; [lia|].
  cbn [alt_loop]. destruct (rdc_ok pat p2) as [c Hc]; [lia|]. rewrite Hc. cbn [bind].
  destruct (is_end c) eqn:Ee.
  { exists []. refine (conj eq_refl (conj HI (conj _ _))); [zl; lia|constructor]. }
  assert (Hnz : c <> 0) by (intros ->; discriminate).
  pose proof (rdc_nonzero _ _ _ Hc Hnz) as Hin.
  destruct H4 as (pe & Hpe & Hle & Hrb).
  destruct ((c =? c_comma) || (c =? c_rbrace)) eqn:Ec.
  - destruct (strncmp_ok (Z.to_nat (p2 - p1)) pat p1 adr aa) as [b Hb]; try lia.
    rewrite Hb. cbn [bind].
    assert (Hchild : b = true -> valid (rest, aa + (p2 - p1)) /\ aa <= aa + (p2 - p1)).
    { intros ->. apply strncmp_len in Hb; [|lia|].
      - unfold valid; simpl_z. lia.
      - intros k c' Hk. apply H5. lia. }
    destruct b.
    + destruct (Hchild eq_refl) as [Hv Hle2].
      pose proof (push_spec rest (aa + (p2 - p1)) st HI Hv) as Hp.
      destruct (push rest (aa + (p2 - p1)) st) as [st'|]; [|trivial].
      destruct Hp as [-> HI'].
      destruct (c =? c_rbrace) eqn:Er.
      * exists [(rest, aa + (p2 - p1))]. refine (conj eq_refl (conj HI' (conj _ _))).
        -- zl. lia.
        -- constructor; [|constructor]. simpl_z. split; [exact Hv|split; [reflexivity|lia]].
      * assert (p2 <> pe). { intros ->. rewrite Hc in Hrb. inversion Hrb. subst. discriminate. }
        specialize (IH (p2 + 1) (p2 + 1) ((rest, aa + (p2 - p1)) :: st) HI').
        destruct (alt_loop f pat adr rest aa (p2 + 1) (p2 + 1) _) as [[st'|]| |].
        -- destruct IH as (cs & -> & HI2 & Hcs & Hall); try lia.
           { exists pe. repeat split; try lia; auto. }
           exists (cs ++ [(rest, aa + (p2 - p1))]). rewrite <- app_assoc. refine (conj eq_refl (conj HI2 (conj _ _))).
           ++ zl. lia.
           ++ apply Forall_app; split; [assumption|]. constructor; [|constructor]. simpl_z. split; [exact Hv|split; [reflexivity|lia]].
        -- trivial.
        -- apply IH; try lia. exists pe. repeat split; try lia; auto.
        -- apply IH; try lia. exists pe. repeat split; try lia; auto.
    + destruct (c =? c_rbrace) eqn:Er.
      * exists []. refine (conj eq_refl (conj HI (conj _ _))); [zl; lia|constructor].
      * assert (p2 <> pe). { intros ->. rewrite Hc in Hrb. inversion Hrb. subst. discriminate. }
        specialize (IH (p2 + 1) (p2 + 1) st HI).
        destruct (alt_loop f pat adr rest aa (p2 + 1) (p2 + 1) st) as [[st'|]| |].
        -- destruct IH as (cs & -> & HI2 & Hcs & Hall); try lia.
           { exists pe. repeat split; try lia; auto. }
           exists cs. refine (conj eq_refl (conj HI2 (conj _ Hall))). lia.
        -- trivial.
        -- apply IH; try lia. exists pe. repeat split; try lia; auto.
        -- apply IH; try lia. exists pe. repeat split; try lia; auto.
  - assert (p2 <> pe).
    { intros ->. rewrite Hc in Hrb. inversion Hrb. subst. cbn in Ec. discriminate. }
    specialize (IH p1 (p2 + 1) st HI).
    assert (Hnz2 : forall k c0, p1 <= k < p2 + 1 -> rdc pat k = Ok c0 -> c0 <> 0).
    { intros k c0 Hk Hk2. destruct (Z.eq_dec k p2) as [->|]; [congruence|]. apply (H5 k); auto; lia. }
    destruct (alt_loop f pat adr rest aa p1 (p2 + 1) st) as [[st'|]| |].
    + destruct IH as (cs & -> & HI2 & Hcs & Hall); try lia; auto.
      { exists pe. repeat split; try lia; auto. }
      exists cs. refine (conj eq_refl (conj HI2 (conj _ Hall))). lia.
    + trivial.
    + apply IH; try lia; auto. exists pe. repeat split; try lia; auto.
    + apply IH; try lia; auto. exists pe. repeat split; try lia; auto.
Qed.

Lemma star_loop_ok pp here : 0 <= pp <= zlen pat -> 0 <= here ->
  forall fuel aa st, Inv st -> here <= aa <= zlen adr -> aa - here < Z.of_nat fuel ->
  match star_loop fuel pp aa here st with
  | Ok (Some st') => exists cs, st' = cs ++ st /\ Inv st' /\
       zlen cs = aa - here + 1 /\ Forall (fun x => valid x /\ fst x = pp /\ here <= snd x) cs
  | Ok None => True
  | _ => False
  end.
Proof.
  intros Hpp Hhere fuel. induction fuel as [|f IH]; intros aa st HI Haa Hf; [lia|].
  cbn [star_loop].
  assert (Hv : valid (pp, aa)) by (unfold valid; simpl_z; lia).
  pose proof (push_spec pp aa st HI Hv) as Hp.
  destruct (push pp aa st) as [st'|]; [|trivial]. destruct Hp as [-> HI'].
  destruct (aa =? here) eqn:E.
  - exists [(pp, aa)]. refine (conj eq_refl (conj HI' (conj _ _))).
    + zl. lia.
    + constructor; [|constructor]. simpl_z. split; [exact Hv|split; [reflexivity|lia]].
  - specialize (IH (aa - 1) ((pp, aa) :: st) HI').
    destruct (star_loop f pp (aa - 1) here ((pp, aa) :: st)) as [[st'|]| |].
    + destruct IH as (cs & -> & HI2 & Hcs & Hall); try lia.
      exists (cs ++ [(pp, aa)]). rewrite <- app_assoc. refine (conj eq_refl (conj HI2 (conj _ _))).
      * zl. lia.
      * apply Forall_app; split; [assumption|]. constructor; [|constructor]. simpl_z. split; [exact Hv|split; [reflexivity|lia]].
    + trivial.
    + apply IH; lia.
    + apply IH; lia.
Qed.

Lemma wt_app cs st : wt (cs ++ st) = wt cs + wt st.
Proof. induction cs as [|x cs IH]; cbn [app]; [cbn; lia|]. rewrite !wt_cons, IH. lia. Qed.

Lemma wt_children cs r' :
  Forall (fun x => valid x /\ rem x <= r') cs -> 0 <= r' -> wt cs <= zlen cs * B ^ r'.
Proof.
  pose proof B_big. intros HF Hr. induction HF as [|x cs [Hv Hx] _ IH].
  - zl. cbn. lia.
  - rewrite wt_cons, zlen_cons.
    assert (B ^ rem x <= B ^ r') by (apply Z.pow_le_mono_r; lia). lia.
Qed.

(** Codes the loop can return. *)
Definition loop_code (c : Z) : Prop :=
  0 <= c <= 3 \/ c = ERR_UNMATCHED_LSB \/ c = ERR_UNMATCHED_RSB \/ c = ERR_UNMATCHED_LCB
  \/ c = ERR_UNMATCHED_RCB \/ c = ERR_BACKTRACK.

Definition good_result (o : res mres) : Prop :=
  exists r, o = Ok r /\ loop_code (code r) /\ 0 <= poff r <= zlen pat /\ 0 <= aoff r <= zlen adr.

Definition step_post (s : stack) (l : lres stack (res mres)) : Prop :=
  match l with
  | Cont s' => Inv s' /\ wt s' < wt s
  | Done o => good_result o
  end.

Lemma post_fail s c : loop_code c -> step_post s (fail_with c).
Proof.
  intros H. cbn. eexists; split; [reflexivity|]. simpl_z.
  pose proof (zlen_nonneg pat). pose proof (zlen_nonneg adr). repeat split; auto; lia.
Qed.

Lemma post_ret s c p a : loop_code c -> valid (p, a) -> step_post s (ret_with c p a).
Proof.
  intros H [Hp Ha]. simpl_z. cbn. eexists; split; [reflexivity|]. simpl_z. auto.
Qed.

Lemma post_pop x st : Inv (x :: st) -> step_post (x :: st) (Cont st).
Proof.
  intros [Hv Hl]. inversion Hv; subst. cbn [step_post]. split.
  - split; [assumption|]. cbn [length] in Hl. lia.
  - rewrite wt_cons. pose proof (pow_pos x H1). lia.
Qed.

Lemma post_replace x st y : Inv (x :: st) -> valid y -> rem y < rem x ->
  step_post (x :: st) (Cont (y :: st)).
Proof.
  intros [Hv Hl] Hy Hr. inversion Hv; subst. cbn [step_post]. split.
  - split; [now constructor|]. cbn [length] in *. lia.
  - rewrite !wt_cons. pose proof (pow_one (rem x) (rem y)). pose proof (rem_nonneg y Hy). lia.
Qed.

Lemma post_children x st cs r' : Inv (x :: st) -> Inv (cs ++ st) ->
  zlen cs < B -> 0 <= r' < rem x -> Forall (fun y => valid y /\ rem y <= r') cs ->
  step_post (x :: st) (Cont (cs ++ st)).
Proof.
  intros [Hv Hl] HI Hcs Hr HF. cbn [step_post]. split; [assumption|].
  rewrite wt_cons, wt_app.
  pose proof (wt_children cs r' HF). pose proof (pow_children (zlen cs) (rem x) r' Hr).
  pose proof (zlen_nonneg cs). lia.
Qed.

Lemma codes_ok : loop_code 0 /\ loop_code 1 /\ loop_code 2 /\ loop_code 3 /\ loop_code ERR_UNMATCHED_LSB
  /\ loop_code ERR_UNMATCHED_RSB /\ loop_code ERR_UNMATCHED_LCB /\ loop_code ERR_UNMATCHED_RCB
  /\ loop_code ERR_BACKTRACK.
Proof. unfold loop_code. repeat split; lia. Qed.

Hint Resolve post_pop post_fail post_ret : core.

Lemma step_switch_post sp sa p a st :
  Inv ((sp, sa) :: st) -> rdc pat sp = Ok p -> rdc adr sa = Ok a -> is_end a = false ->
  step_post ((sp, sa) :: st) (step_switch pat adr sp sa p a st).
Proof.
  intros HI Hp Ha Hae. destruct codes_ok as (C0 & C1 & C2 & C3 & CL & CR & CLC & CRC & CB).
  assert (Hanz : a <> 0) by (intros ->; discriminate).
  pose proof (rdc_nonzero _ _ _ Ha Hanz) as Hsa.
  assert (Hst : Inv st).
  { destruct HI as [Hv Hl]. inversion Hv; subst. split; [assumption|]. cbn [length] in Hl. lia. }
  unfold step_switch. destruct (is_end p) eqn:Epe; [auto|].
  assert (Hpnz : p <> 0) by (intros ->; discriminate).
  pose proof (rdc_nonzero _ _ _ Hp Hpnz) as Hsp.
  destruct (p =? c_quest).
  { apply post_replace; auto; [unfold valid | unfold rem]; simpl_z; lia. }
  destruct (p =? c_lbrack) eqn:Elb.
  { destruct (osc_match_range_ok pat sp adr sa p Hp Hpnz) as (r & Hr & Hrc); [lia|].
    rewrite Hr. cbn [lift]. destruct (r =? 0) eqn:E0; [auto|].
    destruct (r =? 1) eqn:E1.
    - destruct (rdc_ok pat (sp + 1)) as [d Hd]; [lia|]. rewrite Hd. cbn [lift].
      set (sp' := if d =? c_rbrack then sp + 2 else sp).
      assert (Hsp' : sp <= sp' <= zlen pat).
      { unfold sp'. destruct (d =? c_rbrack) eqn:E; [|lia].
        apply rdc_nonzero in Hd; [lia|]. unfold c_rbrack in *; lia. }
      destruct (scan_ok (fun c => (c =? c_rbrack) || is_end c) pat eq_refl (fuel_of pat) sp')
        as (q & c & Hq & Hqb & Hrq & Hstop & _); [lia| apply fuel_of_enough; lia |].
      rewrite Hq. cbn [lift]. rewrite Hrq. cbn [lift].
      destruct (c =? c_rbrack) eqn:Erb; [|auto].
      apply rdc_nonzero in Hrq; [|unfold c_rbrack in *; lia].
      apply post_replace; auto; [unfold valid | unfold rem]; simpl_z; lia.
    - assert (r = ERR_UNMATCHED_LSB) by lia. subst r. auto. }
  destruct (p =? c_lbrace) eqn:Elc.
  { destruct (scan_ok (fun c => (c =? c_rbrace) || is_end c) pat eq_refl (fuel_of pat) sp)
      as (q & c & Hq & Hqb & Hrq & Hstop & Hbefore); [lia| apply fuel_of_enough; lia |].
    rewrite Hq. cbn [lift]. rewrite Hrq. cbn [lift].
    destruct (c =? c_rbrace) eqn:Erb; [|auto].
    assert (Hcz : c <> 0) by (unfold c_rbrace in *; lia).
    pose proof (rdc_nonzero _ _ _ Hrq Hcz) as Hqin.
    assert (sp <> q).
    { intros ->. rewrite Hrq in Hp. inversion Hp. unfold c_rbrace, c_lbrace in *. lia. }
    pose proof (alt_loop_ok (q + 1) sa) as Halt.
    specialize (Halt ltac:(lia) ltac:(lia) (fuel_of pat) (sp + 1) (sp + 1) st Hst).
    destruct (alt_loop (fuel_of pat) pat adr (q + 1) sa (sp + 1) (sp + 1) st) as [[st'|]| |].
    - destruct Halt as (cs & -> & HI2 & Hcs & Hall); try lia.
      { exists q. repeat split; try lia. rewrite Hrq. f_equal. lia. }
      { apply fuel_of_enough. lia. }
      cbn [lift]. apply (post_children _ _ _ (rem (sp, sa) - 1)); auto.
      + unfold B. pose proof (zlen_nonneg adr). lia.
      + unfold rem. simpl_z. lia.
      + eapply Forall_impl; [|exact Hall]. intros x (Hv & Hx1 & Hx2). split; [assumption|].
        unfold rem. simpl_z. lia.
    - cbn [lift]. apply post_ret; auto. unfold valid; simpl_z; lia.
    - exfalso. apply Halt; try lia.
      { exists q. repeat split; try lia. rewrite Hrq. f_equal. lia. }
      apply fuel_of_enough. lia.
    - exfalso. apply Halt; try lia.
      { exists q. repeat split; try lia. rewrite Hrq. f_equal. lia. }
      apply fuel_of_enough. lia. }
  destruct (p =? c_rbrace); [auto|]. destruct (p =? c_rbrack); [auto|].
  destruct (p =? c_star) eqn:Est.
  { destruct (scan_ok not_star pat not_star_0 (fuel_of pat) (sp + 1))
      as (pp & c & Hq & Hqb & Hrq & Hstop & _); [lia| apply fuel_of_enough; lia |].
    rewrite Hq. cbn [lift]. rewrite Hrq. cbn [lift].
    destruct (scan_ok is_end adr is_end_0 (fuel_of adr) sa)
      as (aend & ca & Hqa & Hab & Hra & Hsa2 & _); [lia| apply fuel_of_enough; lia |].
    rewrite Hqa. cbn [lift].
    assert (sa <> aend) by (intros ->; rewrite Hra in Ha; inversion Ha; subst; congruence).
    destruct (is_end c).
    - apply post_replace; auto; [unfold valid | unfold rem]; simpl_z; lia.
    - pose proof (star_loop_ok pp sa ltac:(lia) ltac:(lia) (fuel_of adr) (aend - 1) st Hst) as Hs.
      destruct (star_loop (fuel_of adr) pp (aend - 1) sa st) as [[st'|]| |].
      + destruct Hs as (cs & -> & HI2 & Hcs & Hall); try lia.
        { unfold fuel_of, zlen in *. lia. }
        cbn [lift]. apply (post_children _ _ _ (rem (sp, sa) - 1)); auto.
        * unfold B. pose proof (zlen_nonneg pat). lia.
        * unfold rem. simpl_z. lia.
        * eapply Forall_impl; [|exact Hall]. intros x (Hv & Hx1 & Hx2). split; [assumption|].
          unfold rem. simpl_z. lia.
      + cbn [lift]. apply post_ret; auto. unfold valid; simpl_z; lia.
      + exfalso. apply Hs; try lia. unfold fuel_of, zlen in *. lia.
      + exfalso. apply Hs; try lia. unfold fuel_of, zlen in *. lia. }
  destruct (p =? a); [|auto].
  apply post_replace; auto; [unfold valid | unfold rem]; simpl_z; lia.
Qed.

Lemma star_component_ok sa a : rdc adr sa = Ok a -> exists b, star_component adr sa a = Ok b.
Proof.
  intros H. unfold star_component. destruct ((a =? c_star) && (0 <? sa)) eqn:E; [|eauto].
  apply andb_true_iff in E as [E1 E2].
  assert (a <> 0) by (unfold c_star in *; lia). apply rdc_nonzero in H; [|assumption].
  destruct (rdc_ok adr (sa - 1)) as [b Hb]; [lia|]. rewrite Hb. cbn [bind].
  destruct (b =? c_slash); [|eauto].
  destruct (rdc_ok adr (sa + 1)) as [n Hn]; [lia|]. rewrite Hn. cbn [bind]. eauto.
Qed.

Lemma step_safe s : Inv s -> step_post s (step pat adr s).
Proof.
  intros HI. destruct codes_ok as (C0 & C1 & C2 & C3 & CL & CR & CLC & CRC & CB).
  destruct s as [|[sp sa] st]; [cbn [step]; auto|].
  assert (Hv : valid (sp, sa)) by (destruct HI as [HF _]; inversion HF; assumption).
  assert (Hst : Inv st).
  { destruct HI as [Hv' Hl]. inversion Hv'; subst. split; [assumption|]. cbn [length] in Hl. lia. }
  unfold valid in Hv; simpl_z. unfold step.
  destruct (rdc_ok pat sp) as [p Hp]; [lia|]. rewrite Hp. cbn [lift].
  destruct (rdc_ok adr sa) as [a Ha]; [lia|]. rewrite Ha. cbn [lift].
  destruct (a =? 0) eqn:Ea0.
  { destruct (scan_ok not_star pat not_star_0 (fuel_of pat) sp)
      as (q & c & Hq & Hqb & Hrq & Hstop & _); [lia| apply fuel_of_enough; lia |].
    rewrite Hq. cbn [lift]. rewrite Hrq. cbn [lift].
    destruct (c =? 0); [apply post_ret; [exact C3 | unfold valid; simpl_z; lia]|].
    destruct (c =? c_slash); [apply post_ret; [exact C1 | unfold valid; simpl_z; lia]|auto]. }
  assert (Hsa : 0 <= sa < zlen adr) by (apply (rdc_nonzero _ _ _ Ha); lia).
  destruct (a =? c_slash) eqn:Eas.
  { destruct (p =? c_slash) eqn:Eps.
    - assert (Hsp : 0 <= sp < zlen pat) by (apply (rdc_nonzero _ _ _ Hp); unfold c_slash in *; lia).
      cbn [step_post]. split.
      + split; [|cbn; unfold OSC_MATCH_BACKTRACK_LIMIT; lia].
        constructor; [|constructor]. unfold valid; simpl_z; lia.
      + rewrite !wt_cons. cbn [wt fold_right].
        pose proof (pow_one (rem (sp, sa)) (rem (sp + 1, sa + 1))).
        assert (0 <= wt st) by (apply wt_nonneg; apply Hst).
        unfold rem in *; simpl_z. lia.
    - destruct (p =? 0); [apply post_ret; [exact C2 | unfold valid; simpl_z; lia]|].
      destruct (p =? c_star) eqn:Est; [|auto].
      destruct (scan_ok not_star pat not_star_0 (fuel_of pat) sp)
        as (q & c & Hq & Hqb & Hrq & Hstop & _); [lia| apply fuel_of_enough; lia |].
      rewrite Hq. cbn [lift].
      assert (sp <> q).
      { intros ->. rewrite Hrq in Hp. inversion Hp; subst. unfold not_star in Hstop. rewrite Est in Hstop. discriminate. }
      apply post_replace; auto; [unfold valid | unfold rem]; simpl_z; lia. }
  assert (Hae : is_end a = false) by (unfold is_end; rewrite Eas, Ea0; reflexivity).
  destruct (star_component_ok sa a Ha) as [b Hb]. rewrite Hb. cbn [lift].
  destruct b; [|apply step_switch_post; auto].
  destruct (scan_ok is_end adr is_end_0 (fuel_of adr) sa)
    as (aend & ca & Hqa & Hab & Hra & Hsa2 & _); [lia| apply fuel_of_enough; lia |].
  rewrite Hqa. cbn [lift].
  assert (sa <> aend) by (intros ->; rewrite Hra in Ha; inversion Ha; subst; congruence).
  destruct (scan_ok is_end pat is_end_0 (fuel_of pat) sp)
    as (pend & cp & Hqp & Hpb & Hrp & Hsp2 & _); [lia| apply fuel_of_enough; lia |].
  rewrite Hqp. cbn [lift].
  apply post_replace; auto; [unfold valid | unfold rem]; simpl_z; lia.
Qed.

Lemma init_inv : Inv [(0, 0)].
Proof.
  split; [|cbn; unfold OSC_MATCH_BACKTRACK_LIMIT; lia].
  constructor; [|constructor]. unfold valid; simpl_z.
  pose proof (zlen_nonneg pat). pose proof (zlen_nonneg adr). lia.
Qed.

Lemma match_fuel_enough : wt [(0, 0)] < Zpos (match_fuel pat adr).
Proof.
  pose proof B_big. unfold match_fuel. fold B.
  pose proof (zlen_nonneg pat). pose proof (zlen_nonneg adr).
  rewrite Z2Pos.id by (pose proof (Z.pow_pos_nonneg B (zlen pat + zlen adr + 2)); lia).
  rewrite wt_cons. cbn [wt fold_right].
  assert (B ^ rem (0, 0) <= B ^ (zlen pat + zlen adr + 2)); [|lia].
  apply Z.pow_le_mono_r; unfold rem; simpl_z; lia.
Qed.

(** The main loop terminates normally, and its run is an unbounded run. *)
Lemma loop_safe : exists r,
  while (step pat adr) (match_fuel pat adr) [(0, 0)] = Ok r /\
  runs (step pat adr) [(0, 0)] (Ok r) /\
  loop_code (code r) /\ 0 <= poff r <= zlen pat /\ 0 <= aoff r <= zlen adr.
Proof.
  destruct (loopP_measure (step pat adr) Inv wt) with (n := match_fuel pat adr) (s := [(0, 0)])
    as (o & Ho & Hruns).
  - intros s [Hv _]. now apply wt_nonneg.
  - intros s s' HI Hs. pose proof (step_safe s HI) as Hp. rewrite Hs in Hp. exact Hp.
  - apply init_inv.
  - apply match_fuel_enough.
  - assert (Hg : good_result o).
    { eapply (runs_inv (step pat adr) Inv good_result); [| | exact Hruns | apply init_inv].
      - intros s s' HI Hs. pose proof (step_safe s HI) as Hp. rewrite Hs in Hp. apply Hp.
      - intros s r HI Hs. pose proof (step_safe s HI) as Hp. rewrite Hs in Hp. exact Hp. }
    destruct Hg as (r & -> & H1 & H2 & H3).
    exists r. unfold while. rewrite Ho. repeat split; auto; lia.
Qed.

End Safety.

Theorem osc_match_safe pat adr :
  exists r, osc_match pat adr = Ok r /\
    (loop_code (code r) \/ code r = ERR_PATTERN_NO_SLASH \/ code r = ERR_ADDRESS_NO_SLASH) /\
    0 <= poff r <= zlen pat /\ 0 <= aoff r <= zlen adr.
Proof.
  pose proof (zlen_nonneg pat). pose proof (zlen_nonneg adr).
  unfold osc_match. destruct (rdc_ok pat 0) as [p Hp]; [lia|]. rewrite Hp. cbn [bind].
  destruct (negb (p =? c_slash)).
  { eexists; split; [reflexivity|]. simpl_z. repeat split; auto; lia. }
  destruct (rdc_ok adr 0) as [a Ha]; [lia|]. rewrite Ha. cbn [bind].
  destruct (negb (a =? c_slash)).
  { eexists; split; [reflexivity|]. simpl_z. repeat split; auto; lia. }
  destruct (loop_safe pat adr) as (r & Hr & _ & Hc & H1 & H2).
  exists r. auto.
Qed.
