(** The parser always comes to an end. *)

From Coq Require Import String ZArith List Bool Lia.
From Verif Require Import Base Text SerialModel BundleSModel ExprParseModel ExprParseSpec ExprParseProofs ExprReads ExprSound.
Import ListNotations.
Open Scope Z_scope.

Lemma try_fine_eq {A B} (m : res (option A)) (k : A -> res (option B)) :
  m <> Fuel -> (forall a, m = Ok (Some a) -> k a <> Fuel) -> try m k <> Fuel.
Proof. destruct m as [[a|]|u|]; cbn; auto; discriminate. Qed.
Lemma expect_fine t ts : expect t ts <> Fuel.
Proof. destruct ts; cbn [expect]; [discriminate|]. destruct (etoken_eqb _ _); discriminate. Qed.

Lemma flat_long e : (0 < length (flat e))%nat.
Proof. destruct (flat_head e) as (t & ts & -> & _). cbn [length]. lia. Qed.
Lemma arg_shorter f p ts a rest : 0 <= p < 11 -> p_arg f p ts = Ok (Some (a, rest)) -> (length rest < length ts)%nat.
Proof.
  intros P H. apply sound_all in H as (e & -> & _); [|exact P]. rewrite app_length. pose proof (flat_long e). lia.
Qed.
Lemma prim_shorter f ts a rest : p_primary f ts = Ok (Some (a, rest)) -> (length rest < length ts)%nat.
Proof.
  intros H. apply sound_all in H as (e & -> & _). rewrite app_length. pose proof (flat_long e). lia.
Qed.
Lemma args_shorter f ts l rest : p_args f ts = Ok (Some (l, rest)) -> (length rest < length ts)%nat.
Proof.
  intros H. apply sound_all in H as (es & -> & SO & _). rewrite app_length.
  destruct (sep_head es SO) as (t & us & -> & _). cbn [length]. lia.
Qed.
Lemma msgs_shorter f ts l rest : p_msgs f ts = Ok (Some (l, rest)) -> (length rest < length ts)%nat.
Proof.
  intros H. apply sound_all in H as (es & ls & -> & SO & _). rewrite app_length.
  destruct es as [|[q e] es]; [discriminate|]. destruct es; cbn [map sep message app length]; lia.
Qed.
Lemma head_shorter ts many params ts' : p_head ts = Some (many, params, ts') -> (length ts' < length ts)%nat.
Proof. intros H. apply head_inv in H as (b & _ & _ & ->). rewrite app_length. cbn [length]. lia. Qed.

Lemma primary_fine pa pargs pmsgs ts :
  (forall p ts', 0 <= p < 11 -> (length ts' < length ts)%nat -> pa p ts' <> Fuel) ->
  (forall ts', (length ts' < length ts)%nat -> pargs ts' <> Fuel) ->
  (forall ts', (length ts' < length ts)%nat -> pmsgs ts' <> Fuel) ->
  (forall p ts' a rest, 0 <= p < 11 -> pa p ts' = Ok (Some (a, rest)) -> (length rest < length ts')%nat) ->
  (forall ts' a rest, pargs ts' = Ok (Some (a, rest)) -> (length rest < length ts')%nat) ->
  (forall ts' a rest, pmsgs ts' = Ok (Some (a, rest)) -> (length rest < length ts')%nat) ->
  primary pa pargs pmsgs ts <> Fuel.
Proof.
  intros A S M LA LS LM.
  assert (P1 : 0 <= LEVEL_ASSIGN < 11) by (split; [discriminate|reflexivity]).
  assert (P2 : 0 <= LEVEL_PREFIX < 11) by (split; [discriminate|reflexivity]).
  assert (P3 : 0 <= 0 < 11) by lia.
  destruct ts as [|t ts]; [discriminate|]. cbn [length] in *.
  Ltac len := repeat match goal with
    | LA : (forall p ts' a rest, 0 <= p < 11 -> ?pa p ts' = _ -> _), H : ?pa _ _ = Ok (Some (_, _)) |- _ => apply LA in H; [|assumption]
    | LS : (forall ts' a rest, ?pa ts' = _ -> _), H : ?pa _ = Ok (Some (_, _)) |- _ => apply LS in H
    | H : expect _ _ = Ok (Some _) |- _ => apply expect_inv in H; subst
    | H : try _ _ = Ok (Some (_, _)) |- _ => apply try_inv in H as ([? ?] & ? & H)
    | H : Ok (Some (_, _)) = Ok (Some (_, _)) |- _ => injection H; clear H; intros; subst
    | H : p_head _ = _ |- _ => apply head_shorter in H
    end; cbn [length] in *; (discriminate || lia).
  Ltac fine1 := match goal with
    | |- try _ _ <> Fuel => apply try_fine_eq; [|let a := fresh "a" in intros a ?; try match type of a with prod _ _ => destruct a end]
    | |- expect _ _ <> Fuel => apply expect_fine
    | |- Ok _ <> Fuel => discriminate
    | A : (forall p ts', _ -> _ -> ?pa p ts' <> Fuel) |- ?pa _ _ <> Fuel => apply A; [assumption|len]
    | A : (forall ts', _ -> ?pa ts' <> Fuel) |- ?pa _ <> Fuel => apply A; len
    | |- bind (body_of ?m ?l) _ <> Fuel => let E := fresh in destruct (body_of m l) eqn:E; [discriminate|discriminate|now apply body_of_fine in E]
    | |- match ?x with _ => _ end <> Fuel => destruct x eqn:?; subst
    end.
  destruct t; try discriminate; cbn [primary]; repeat fine1.
  apply colon_inv in H1 as [(x & -> & H1)|H1]; (apply A; [assumption|len]).
Qed.

Lemma fine_all f :
  (forall p ts, 0 <= p < 11 -> (4 * length ts + 2 <= f)%nat -> p_arg f p ts <> Fuel) /\
  (forall p a ts, 0 <= p < 11 -> (4 * length ts + 1 <= f)%nat -> p_more f p a ts <> Fuel) /\
  (forall ts, (4 * length ts + 3 <= f)%nat -> p_args f ts <> Fuel) /\
  (forall ts, (4 * length ts + 3 <= f)%nat -> p_msgs f ts <> Fuel) /\
  (forall ts, (4 * length ts + 1 <= f)%nat -> p_primary f ts <> Fuel).
Proof.
  induction f as [|f (IA & IM & IS & IG & IP)]; [repeat split; intros; lia|].
  split; [|split; [|split; [|split]]].
  - intros p ts P N. cbn [p_arg]. apply try_fine_eq; [apply IP; lia|]. intros [a ts1] H.
    apply prim_shorter in H. apply IM; [exact P|lia].
  - intros p a ts P N. cbn [p_more]. destruct ts as [|[] ts]; try discriminate; cbn [length] in N.
    + destruct (shifted p (TOp o)); [|discriminate].
      assert (OL : 0 <= op_level o < 11) by (destruct o; cbn; lia).
      apply try_fine_eq; [apply IA; [exact OL|lia]|]. intros [b ts1] H. apply arg_shorter in H; [|exact OL].
      apply IM; [exact P|lia].
    + destruct (shifted p (TOpAssign o)); [|discriminate].
      assert (OL : 0 <= LEVEL_ASSIGN < 11) by now split.
      apply try_fine_eq; [apply IA; [exact OL|lia]|]. intros [b ts1] H. apply arg_shorter in H; [|exact OL].
      apply IM; [exact P|lia].
    + destruct (shifted p TQuest); [|discriminate].
      assert (OL : 0 <= LEVEL_TERNARY < 11) by now split.
      apply try_fine_eq; [apply IA; lia|]. intros [b ts1] H. apply arg_shorter in H; [|lia].
      apply try_fine_eq; [apply expect_fine|]. intros ts2 E. apply expect_inv in E as ->. cbn [length] in H.
      apply try_fine_eq; [apply IA; [exact OL|lia]|]. intros [c ts3] H1. apply arg_shorter in H1; [|exact OL].
      apply IM; [exact P|lia].
    + destruct (shifted p TOpenDbl); [|discriminate].
      apply try_fine_eq; [apply IS; lia|]. intros [b ts1] H. apply args_shorter in H.
      apply try_fine_eq; [apply expect_fine|]. intros ts2 E. apply expect_inv in E as ->. cbn [length] in H.
      apply IM; [exact P|lia].
  - intros ts N. cbn [p_args]. apply try_fine_eq; [apply IA; lia|]. intros [a ts1] H. apply arg_shorter in H; [|lia].
    destruct ts1 as [|[] ts1]; try discriminate. cbn [length] in H.
    apply try_fine_eq; [apply IS; lia|]. intros [l ts2] _. discriminate.
  - intros ts N. cbn [p_msgs]. destruct ts as [|[] [|[] ts]]; try discriminate. cbn [length] in N.
    apply try_fine_eq; [apply IA; lia|]. intros [a ts1] H. apply arg_shorter in H; [|lia].
    destruct ts1 as [|[] ts1]; try discriminate. cbn [length] in H.
    apply try_fine_eq; [apply IG; lia|]. intros [l ts2] _. discriminate.
  - intros ts N. rewrite primary_eq. apply primary_fine.
    + intros p ts' P L. apply IA; [exact P|lia].
    + intros ts' L. apply IS. lia.
    + intros ts' L. apply IG. lia.
    + intros p ts' a rest P. now apply arg_shorter.
    + apply args_shorter.
    + apply msgs_shorter.
Qed.

Lemma more_fuel_arg f g p ts : (f <= g)%nat -> p_arg f p ts <> Fuel -> p_arg g p ts = p_arg f p ts.
Proof.
  intros H F. induction H as [|g H IH]; [reflexivity|]. rewrite <- IH.
  destruct (more_fuel g) as (A & _). apply A. now rewrite IH.
Qed.
Lemma lim_arg f p ts r : 0 <= p < 11 -> (4 * length ts + 2 <= f)%nat -> Arg p ts r -> p_arg f p ts = r.
Proof.
  intros P F [f0 H]. rewrite <- (H (f + f0)%nat) by lia. symmetry.
  apply more_fuel_arg; [lia|]. now apply fine_all.
Qed.

(** * Whole texts *)

Lemma reads_whole e rest f : well e = true -> quiet rest = true ->
  (4 * length (flat e ++ rest) + 2 <= f)%nat -> p_arg f 0 (flat e ++ rest) = lift (build e) rest.
Proof. intros W Q F. apply lim_arg; [lia|exact F|]. now apply reads_any. Qed.
Lemma accepted f ts a rest : p_arg f 0 ts = Ok (Some (a, rest)) ->
  exists e, ts = flat e ++ rest /\ well e = true /\ build e = Ok (Some a).
Proof.
  intros H. apply sound_all in H as (e & -> & W & B & _); [|lia]. now exists e.
Qed.
