(** Arithmetic written in expressions (C89). *)

From Coq Require Import String ZArith List Bool Lia.
From Verif Require Import Base BaseProofs Bytes Text BundleSModel BundleSProofs WireSpec SerialModel SerialSpec ExprModel ExprSpec EvalModel EvalSpec EvalRep EvalSteps EvalProps EvalStdModel EvalStdSpec EvalStdProofs
  ExprParseModel ExprParseSpec ExprParseProofs ExprReads ExprMeaning ExprTextSpec AtomSpec AtomProofs ExprParseProps RunModel RunSpec RunProofs WireProofs.
Import ListNotations.
Open Scope Z_scope.

Fixpoint syn_of (e : sum) : syn :=
  match e with
  | Number n => SNum (set_int32 atom_fresh n)
  | Cell p => SAddr p
  | Binary l o r =>
      let part e x := match e with Binary _ _ _ => SPar x | _ => x end in
      SOp (part l (syn_of l)) o (part r (syn_of r))
  end.
Definition part (e : sum) : syn := match e with Binary _ _ _ => SPar (syn_of e) | _ => syn_of e end.
Lemma syn_binary l o r : syn_of (Binary l o r) = SOp (part l) o (part r).
Proof. reflexivity. Qed.

Lemma numeral_pos n : 0 <= n -> numeral n <> [] /\ Forall (fun c => 48 <= c <= 57) (numeral n).
Proof.
  intros H. unfold numeral. assert (E : n <? 0 = false) by (apply Z.ltb_ge; lia). rewrite E.
  destruct (digit_string_ok n H) as (H1 & _ & H2). split; [exact H2|].
  eapply Forall_impl; [|exact H1]. intros c Hc. unfold AtomSModel.is_digit in Hc. lia.
Qed.
Lemma nonblank_part read e v rest : value_of read e = Some v -> all_written e ->
  match parens e (text_of e) ++ rest with [] => False | c :: _ => ~ In c blanks end.
Proof.
  destruct e as [n|p|l o r]; cbn [value_of all_written parens text_of]; intros V W.
  - destruct ((0 <=? n) && (n <? 2^31)) eqn:E; [|discriminate]. apply andb_prop in E as [E1 _]. apply Z.leb_le in E1.
    destruct (numeral_pos n E1) as [H1 H2]. destruct (numeral n) as [|c l]; [contradiction|]. inversion H2; subst. cbn. lia.
  - destruct W as (s & -> & _). vm_compute. intuition discriminate.
  - vm_compute. intuition discriminate.
Qed.

Section Says.
Context (strtod : list Z -> Z).
Notation says := (says strtod).

Definition after (rest : list Z) : Prop := match rest with [] => True | c :: _ => c = 32 \/ c = 41 end.
Lemma says_space rest ts : match rest with [] => True | c :: _ => ~ In c blanks end -> says rest ts -> says (32 :: rest) ts.
Proof. intros H1 H2. apply (says_blank _ [32] rest ts); auto; [discriminate|]. constructor; [now left|constructor]. Qed.
Ltac no_sign := intros t' x; destruct t' as [?|?|?|?| |o|o|inc| | | | | | | | | | | | | | | | | | ]; try destruct o; try destruct inc; discriminate.
Lemma says_close rest ts : says rest ts -> says (41 :: rest) (TClose :: ts).
Proof.
  intros H. apply (says_token _ [41] TClose rest ts); [|exact H]. apply sp_sign; [reflexivity|]. destruct rest as [|c rest]; [exact I|].
  split; [no_sign|split; discriminate].
Qed.
Lemma says_open rest ts : says rest ts -> says (40 :: rest) (TOpen :: ts).
Proof.
  intros H. apply (says_token _ [40] TOpen rest ts); [|exact H]. apply sp_sign; [reflexivity|]. destruct rest as [|c rest]; [exact I|].
  split; [no_sign|split; discriminate].
Qed.
Lemma says_op o rest ts : number_op o <> None -> says rest ts -> match rest with [] => False | c :: _ => ~ In c blanks end ->
  says (spelling o ++ 32 :: rest) (TOp o :: ts).
Proof.
  intros Ho H Hr. apply says_token.
  - apply sp_sign; [now destruct o|]. destruct o; try (now elim Ho); (split; [no_sign|split; discriminate]).
  - apply says_space; [destruct rest; [contradiction|exact Hr]|exact H].
Qed.
Lemma says_equals rest ts : says rest ts -> match rest with [] => False | c :: _ => ~ In c blanks end -> says (str "= " ++ rest) (TAssign :: ts).
Proof.
  intros H Hr. apply (says_token _ (str "=") TAssign (32 :: rest)).
  - apply sp_sign; [reflexivity|]. split; [no_sign|split; discriminate].
  - apply says_space; [destruct rest; [contradiction|exact Hr]|exact H].
Qed.
Lemma says_number n rest ts : 0 <= n < 2^31 -> after rest -> says rest ts -> says (numeral n ++ rest) (TNum (set_int32 atom_fresh n) :: ts).
Proof.
  intros Hn Ha H. apply says_token; [|exact H]. pose proof (sp_number strtod n rest) as K. rewrite s32_id in K by lia. apply K; [lia|].
  destruct rest as [|c rest]; [exact I|]. unfold after in Ha. cbn [after_number].
  split; [|split; [lia|lia]]. destruct Ha as [-> | ->]; vm_compute; tauto.
Qed.
Lemma says_address p rest ts : written p -> after rest -> says rest ts -> says (p ++ rest) (TAddr p :: ts).
Proof.
  intros (s & -> & H1 & H2 & H3) Ha H. apply says_token; [|exact H]. apply sp_address; auto.
  destruct rest as [|c rest]; [exact I|]. destruct Ha as [-> | ->]; vm_compute; tauto.
Qed.
Lemma says_sum read e : all_written e -> forall v, value_of read e = Some v -> 
  (forall rest ts, after rest -> says rest ts -> says (text_of e ++ rest) (flat (syn_of e) ++ ts)) /\
  (forall rest ts, after rest -> says rest ts -> says (parens e (text_of e) ++ rest) (flat (part e) ++ ts)).
Proof.
  induction e as [n|p|l IHl o r IHr]; intros W v V.
  - cbn [value_of] in V. destruct ((0 <=? n) && (n <? 2^31)) eqn:E; [|discriminate]. apply andb_prop in E as [E1 E2]. apply Z.leb_le in E1. apply Z.ltb_lt in E2.
    split; intros rest ts A H; now apply says_number.
  - split; intros rest ts A H; now apply says_address.
  - cbn [value_of] in V. destruct (value_of read l) as [x|] eqn:El; [|discriminate]. destruct (number_op o) as [f|] eqn:Eo; [|discriminate].
    destruct (value_of read r) as [y|] eqn:Er; [|discriminate]. destruct W as [Wl Wr].
    destruct (IHl Wl x eq_refl) as [_ Pl]. destruct (IHr Wr y eq_refl) as [_ Pr].
    assert (A : forall rest ts, after rest -> says rest ts -> says (text_of (Binary l o r) ++ rest) (flat (syn_of (Binary l o r)) ++ ts)).
    { intros rest ts A H. rewrite syn_binary. cbn [flat text_of]. rewrite <- !app_assoc. apply Pl; [now left|].
      change (str " ") with [32]. cbn [app]. apply says_space; [destruct o; try discriminate Eo; vm_compute; intuition discriminate|].
      apply says_op; [congruence|now apply Pr|]. now apply (nonblank_part read r y). }
    split; [exact A|]. intros rest ts Hr H. cbn [parens part flat]. change (str "(") with [40]. change (str ")") with [41]. rewrite <- !app_assoc. cbn [app].
    rewrite <- app_assoc. apply says_open. apply A; [now right|]. cbn [app]. now apply says_close.
Qed.
End Says.

Lemma well_sum e : (well (syn_of e) = true /\ well (part e) = true) /\ (forall t, left_of t (part e) = true /\ right_of t (part e) = true).
Proof.
  induction e as [n|p|l [[_ Wl] Sl] o r [[_ Wr] Sr]]; [now repeat split|now repeat split|].
  assert (K : well (syn_of (Binary l o r)) = true).
  { rewrite syn_binary. cbn [well]. rewrite Wl, Wr. destruct (Sl (TOp o)) as [-> _]. destruct (Sr (TOp o)) as [_ ->]. reflexivity. }
  split; [|now repeat split]. split; [exact K|]. cbn [part well is_expr syn_of andb]. exact K.
Qed.
Lemma works_sum read e : all_written e -> forall v, value_of read e = Some v -> works (syn_of e) = true /\ works (part e) = true.
Proof.
  induction e as [n|p|l IHl o r IHr]; intros W v V; [now split| |].
  - destruct W as (s & -> & _). now split.
  - cbn [value_of] in V. destruct (value_of read l) as [x|] eqn:El; [|discriminate]. destruct (number_op o) as [f|] eqn:Eo; [|discriminate].
    destruct (value_of read r) as [y|] eqn:Er; [|discriminate]. destruct W as [Wl Wr].
    destruct (IHl Wl x eq_refl) as [_ Pl]. destruct (IHr Wr y eq_refl) as [_ Pr].
    assert (A : works (syn_of (Binary l o r)) = true) by (rewrite syn_binary; cbn [works]; rewrite Pl, Pr; destruct o; try discriminate Eo; reflexivity).
    split; exact A.
Qed.

Section Value.
Context (w : world).
Notation mt := (selects true).
Notation val := (value_of (cell mt w)).

Lemma cell_is p v : cell mt w p = Some v ->
  exists x, EvalSpec.lookup mt w p = Some [VNum32 105 x] /\ 0 <= x < 2^32 /\ v = if x <? 2^31 then x else x - 2^32.
Proof.
  unfold cell. destruct (EvalSpec.lookup mt w p) as [[|y l]|]; try discriminate. destruct l; [|destruct y as [tag x|? ?|? ?|?|?|?|?]; try discriminate; intros V].
  2: { exfalso. destruct tag as [|tag|tag]; try discriminate V. do 7 (destruct tag as [tag|tag|]; try discriminate V). }
  destruct y as [tag x|? ?|? ?|?|?|?|?]; try discriminate; intros V. destruct (Z.eq_dec tag 105) as [-> |Ne].
  - destruct ((0 <=? x) && (x <? 2^32)) eqn:E; [|discriminate]. exists x. injection V as <-. split; [reflexivity|]. split; [lia|reflexivity].
  - exfalso. apply Ne. destruct tag as [|tag|tag]; try discriminate V. do 7 (destruct tag as [tag|tag|]; try discriminate V). reflexivity.
Qed.
Lemma range_value e : forall v, val e = Some v -> - 2^31 <= v < 2^31.
Proof.
  induction e as [n|p|l IHl o r IHr]; intros v V; cbn [value_of] in V.
  - destruct ((0 <=? n) && (n <? 2^31)) eqn:E; [|discriminate]. injection V as <-. lia.
  - apply cell_is in V as (x & _ & Hx & ->). destruct (x <? 2^31) eqn:E; lia.
  - destruct (val l) as [x|]; [|discriminate]. destruct (number_op o) as [f|]; [|discriminate]. destruct (val r) as [y|]; [|discriminate].
    destruct (int32_range (f x y)) eqn:E; [|discriminate]. injection V as <-. unfold int32_range in E. lia.
Qed.

Lemma s32_int32 x : - 2^31 <= x < 2^31 -> s32 (x mod 2^32) = x.
Proof. intros H. rewrite <- (s32_id x H) at 2. unfold s32. Z.div_mod_to_equations. lia. Qed.
(** What the operand of an operation is for the evaluator. *)
Lemma sum_evals e : forall v, val e = Some v ->
  exists a y, meaning (syn_of e) = Some a /\ meaning (part e) = Some a /\ sense std_table a = Some y /\
    evals mt std_table std_sem no_variables w y 0 (Some [int32 v]) w.
Proof.
  induction e as [n|p|l IHl o r IHr]; intros v V.
  - cbn [value_of] in V. destruct ((0 <=? n) && (n <? 2^31)) eqn:E; [|discriminate]. injection V as <-.
    eexists _, (AAtom (int32 n)). repeat split; try reflexivity.
    + cbn [sense]. do 2 f_equal. exact (proj1 (proj2 (proj2 (stands_int32 n)))).
    + apply E_literal. exact I.
  - cbn [value_of] in V. apply cell_is in V as (x & L & Hx & ->).
    eexists _, _. repeat split; try reflexivity. apply E_address. rewrite L. f_equal. f_equal. unfold int32. f_equal.
    destruct (x <? 2^31) eqn:E2; [rewrite Z.mod_small by lia; reflexivity|].
    replace (x - 2^32) with (x + (-1) * 2^32) by lia. rewrite Z_mod_plus_full, Z.mod_small by lia. reflexivity.
  - pose proof (range_value _ v V) as R. cbn [value_of] in V. destruct (val l) as [x|] eqn:El; [|discriminate]. destruct (number_op o) as [f|] eqn:Eo; [|discriminate].
    destruct (val r) as [y|] eqn:Er; [|discriminate]. destruct (int32_range (f x y)) eqn:Ei; [|discriminate]. injection V as <-.
    destruct (IHl x eq_refl) as (a & ya & Ma & Pa & Sa & Va). destruct (IHr y eq_refl) as (b & yb & Mb & Pb & Sb & Vb).
    assert (M : meaning (syn_of (Binary l o r)) = Some (call (spelling o) [a; b])) by (rewrite syn_binary; cbn [meaning]; rewrite Pa, Pb; reflexivity).
    assert (T : std_table (spelling o) = Some (FCall (spelling o)) /\ number_fn (spelling o) = Some f)
      by (destruct o; try discriminate Eo; injection Eo as <-; split; reflexivity).
    destruct T as [T N].
    eexists _, (AExpr (Ex (FCall (spelling o)) [ya; yb])). split; [exact M|split; [exact M|split]].
    + unfold call. rewrite sense_expr, sense_call, T. cbn [each]. rewrite Sa, Sb. reflexivity.
    + apply E_expr. eapply R_call.
      * eapply A_cons; [exact Va|]. eapply A_cons; [exact Vb|]. apply A_nil.
      * unfold std_sem. change (negb (zlen (concat (map values [Some [int32 x]; Some [int32 y]])) <? 2^31)) with false. cbv iota. rewrite N.
        cbn [values int32s int32 option_map matched map forallb fst snd].
        rewrite !s32_int32 by (eapply range_value; eassumption). change (is_int32 (f x y)) with (int32_range (f x y)). rewrite Ei. reflexivity.
Qed.
End Value.

Lemma nonblank_text read e v : value_of read e = Some v -> all_written e -> match text_of e with [] => False | c :: _ => ~ In c blanks end.
Proof.
  intros V W. destruct e as [n|p|l o r].
  - pose proof (nonblank_part read (Number n) v [] V W) as K. rewrite app_nil_r in K. exact K.
  - pose proof (nonblank_part read (Cell p) v [] V W) as K. rewrite app_nil_r in K. exact K.
  - cbn [value_of] in V. destruct (value_of read l) as [x|] eqn:El; [|discriminate]. destruct W as [Wl _]. cbn [text_of].
    apply (nonblank_part read l x _ El Wl).
Qed.
Lemma nonul_text read e : forall v, value_of read e = Some v -> all_written e -> nonul (text_of e) /\ nonul (parens e (text_of e)).
Proof.
  induction e as [n|p|l IHl o r IHr]; intros v V W.
  - cbn [value_of] in V. destruct ((0 <=? n) && (n <? 2^31)) eqn:E; [|discriminate]. cbn [parens text_of].
    destruct (numeral_pos n ltac:(lia)) as [_ H]. assert (nonul (numeral n)); [|auto]. eapply Forall_impl; [|exact H]. cbn. lia.
  - destruct W as (s & -> & _ & N & _). assert (nonul (47 :: s)) by (constructor; [discriminate|exact N]). auto.
  - cbn [value_of] in V. destruct (value_of read l) as [x|] eqn:El; [|discriminate]. destruct (number_op o) as [f|] eqn:Eo; [|discriminate].
    destruct (value_of read r) as [y|] eqn:Er; [|discriminate]. destruct W as [Wl Wr].
    destruct (IHl x eq_refl Wl) as [_ Pl]. destruct (IHr y eq_refl Wr) as [_ Pr].
    assert (K : nonul (text_of (Binary l o r))).
    { cbn [text_of]. unfold nonul in *. rewrite !Forall_app. repeat split; auto; try (repeat constructor; discriminate).
      destruct o; try discriminate Eo; repeat constructor; discriminate. }
    split; [exact K|]. cbn [parens]. unfold nonul in *. rewrite !Forall_app. repeat split; auto; repeat constructor; discriminate.
Qed.
