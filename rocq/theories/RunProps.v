(** Evaluating the text of expressions (C89). *)

From Coq Require Import String ZArith List Bool Lia.
From Verif Require Import Base BaseProofs Bytes Text BundleSModel BundleSProofs WireSpec SerialModel SerialSpec ExprModel ExprSpec EvalModel EvalSpec EvalRep EvalSteps EvalProps EvalStdModel EvalStdSpec EvalStdProofs
  ExprParseModel ExprParseSpec ExprParseProofs ExprReads ExprMeaning ExprTextSpec AtomSpec AtomProofs ExprParseProps RunModel RunSpec RunProofs WireProofs RunText.
Import ListNotations.
Open Scope Z_scope.

(** The expressions a text says are evaluated one after the other, up to the first that
    fails; its code is the result. *)
Theorem C89_text table plain sem fresh strtod junk s rest l es w c w' st :
  blocks fresh -> implements plain sem ->
  nonul s -> wf_bytes s -> zlen s + 4 < 2^32 ->
  says strtod s (program l) \/ says strtod s (TComma :: program l) -> some l = true ->
  forallb (fun e => well e && works e) l = true ->
  each (sense_of table) (snd (outcome l)) = Some es ->
  bundle_rep st w -> run_all (selects true) table sem w es c w' ->
  exists N st', (forall k, (N <= k)%nat ->
      eval_text table plain fresh strtod junk k st (s ++ 0 :: rest) = Ok (Some [set_int32 atom_fresh c], st')) /\
    bundle_rep st' w'.
Proof.
  intros Hf Hi Hs Hb Hl T SO W E Hw R.
  assert (G : Forall good (program l)).
  { destruct T as [T|T]; pose proof (says_good strtod s _ T (conj Hs (conj Hb Hl))) as G; [exact G|now inversion G]. }
  apply outcome_lits in G.
  assert (F : Forall2 (fun e e' => lits_of e /\ sense_of table e = Some e') (snd (outcome l)) es).
  { clear -G E. revert es E. induction G as [|x k L _ IH]; intros es E; cbn [each] in E; [injection E as <-; constructor|].
    destruct (sense_of table x) as [y|] eqn:Ey; [|discriminate]. fold (each (sense_of table)) in E.
    destruct (each (sense_of table) k) as [r|] eqn:Er; [|discriminate]. injection E as <-. constructor; [now split|now apply IH]. }
  destruct (each_runs table plain sem fresh Hf Hi (snd (outcome l)) es c w w' R st Hw F) as (N & st' & K & W').
  exists N, st'. split; [|exact W']. intros k Hk. unfold eval_text. rewrite (C85_reads strtod junk s rest l Hs T SO W). cbn [bind].
  destruct (outcome l) as [code fs]. cbn [snd] in K. rewrite (K k Hk). reflexivity.
Qed.
Print Assumptions C89_text.

(** Arithmetic on int32s: the value of what is written is what is stored. *)
Theorem C89_arithmetic E fresh strtod junk st w p e v rest :
  let s := p ++ str " = " ++ text_of e in
  blocks fresh -> bundle_rep st w ->
  written p -> all_written e -> wf_bytes s -> zlen s + 4 < 2^32 -> address_code p 0 ->
  value_of (cell (selects true) w) e = Some v ->
  fits (with_msgs w (EvalSpec.store p [int32 v] (msgs w))) ->
  exists N st', (forall k, (N <= k)%nat ->
      eval_text std_table (std_plain E) fresh strtod junk k st (s ++ 0 :: rest) = Ok (Some [set_int32 atom_fresh 0], st')) /\
    bundle_rep st' (with_msgs w (EvalSpec.store p [int32 v] (msgs w))).
Proof.
  intros s Hf Hw Hp He Hb Hl Ha V Ft.
  destruct (sum_evals w e v V) as (a & y & M & _ & Sa & Ev).
  destruct (says_sum strtod (cell (selects true) w) e He v V) as [T _]. specialize (T [] [] I (says_end strtod)). rewrite !app_nil_r in T.
  assert (T' : says strtod s (program [SAssign p (syn_of e)])).
  { unfold s, program. cbn [map sep flat]. rewrite ?app_nil_r. apply says_address; [exact Hp|now left|].
    change (str " = ") with (32 :: str "= "). cbn [app]. apply says_space; [vm_compute; intuition discriminate|].
    apply says_equals; [exact T|]. exact (nonblank_text _ e v V He). }
  assert (Wk : forallb (fun e => well e && works e) [SAssign p (syn_of e)] = true).
  { cbn [forallb well works]. destruct (well_sum e) as [[-> _] _]. destruct (works_sum _ e He v V) as [-> _].
    destruct Hp as (q & -> & _). destruct e as [?|?|l o ?]; [reflexivity|reflexivity|]. destruct l, o; reflexivity. }
  assert (Hs : nonul s).
  { destruct (nonul_text _ e v V He) as [N _]. destruct Hp as (q & -> & _ & Nq & _). unfold s, nonul in *. rewrite !Forall_app.
    repeat split; auto; [constructor; [discriminate|exact Nq]|repeat constructor; discriminate]. }
  assert (O : outcome [SAssign p (syn_of e)] = (0, [Call (str "assign") [PAddr p; a]])).
  { unfold outcome, item_meaning. cbn [item is_expr meaning]. rewrite M. reflexivity. }
  eapply (C89_text std_table (std_plain E) std_sem fresh strtod junk s rest [SAssign p (syn_of e)] [Ex FAssign [AAddr p; y]]);
    try eassumption; try reflexivity.
  - apply std_implements.
  - now left.
  - rewrite O. cbn [snd each]. rewrite sense_call. change (std_table (str "assign")) with (Some FAssign). cbn [each]. rewrite Sa. reflexivity.
  - eapply run_next; [|apply run_none]. apply (R_assign _ _ _ _ w (AAddr p) y [] p w (Some [int32 v]) w); auto. apply T_address.
Qed.
Print Assumptions C89_arithmetic.

(** The code of the parser is dropped: a text with a syntax error can give the code 0, and
    the expressions before the error have been evaluated. *)
Definition any_env : env := Env (fun _ => 0) (fun _ => []) [] (fun _ _ => 0) (fun _ => TimetagModel.TT 0 0) (fun _ => 0).
Definition run_st0 (s : String.string) : res (arr * bst) :=
  eval_text std_table (std_plain any_env) zero_blocks (fun _ => 0) [] 20 st0 (str s ++ [0]).
Theorem C89_syntax_error_refuted :
  parse_expr (fun _ => 0) [] (str "/a=1,)" ++ [0]) = Ok (1, [Call (str "assign") [PAddr (str "/a"); PAtom (set_int32 atom_fresh 1)]]) /\
  exists st', run_st0 "/a=1,)" = Ok (Some [set_int32 atom_fresh 0], st') /\
    b_buf st' = Some (header (1, 2) ++ concat (map enc_message [M (str "/x") [EvalProps.num 1; EvalProps.num 2; EvalProps.num 3]; M (str "/a") [EvalProps.num 1]])).
Proof. split; [vm_compute; reflexivity|]. eexists. split; vm_compute; reflexivity. Qed.

(** /m = (/n + 2) * 3 where /n is 5 *)
Definition wn : world := W (1, 2) [M (str "/n") [EvalProps.num 5]].
Definition stn : bst :=
  let b := header (1, 2) ++ concat (map enc_message (msgs wn)) in Bst (zlen b) (Some b) 0.
Lemma stn_rep : bundle_rep stn wn.
Proof.
  exists (msgs wn), []. split; [rewrite app_nil_r; reflexivity|]. split; [reflexivity|]. split; [split; vm_compute; congruence|].
  split; [split; vm_compute; congruence|]. split; [|split; [reflexivity|vm_compute; reflexivity]].
  constructor; [|constructor]. unfold std_message. repeat split; try (vm_compute; congruence).
  - unfold nonul. repeat constructor; vm_compute; congruence.
  - unfold wf_bytes, is_byte. repeat constructor; vm_compute; congruence.
  - cbn [In]. tauto.
Qed.
Definition by3 : sum := Binary (Binary (Cell (str "/n")) OAdd (Number 2)) OMul (Number 3).
Example by3_text : str "/m" ++ str " = " ++ text_of by3 = str "/m = (/n + 2) * 3".
Proof. vm_compute. reflexivity. Qed.
Lemma written_by (s : list Z) : s <> [] -> forallb (fun c => negb (existsb (Z.eqb c) (0 :: address_ends))) s = true -> written (47 :: s).
Proof.
  intros H F. exists s. split; [reflexivity|]. split; [exact H|]. rewrite forallb_forall in F. split; apply Forall_forall; intros c Hc; specialize (F c Hc);
    apply negb_true_iff in F; cbn [existsb] in F; apply orb_false_iff in F as [F1 F2].
  - now apply Z.eqb_neq.
  - intros I. assert (T : existsb (Z.eqb c) address_ends = true); [|congruence]. apply existsb_exists. exists c. split; [exact I|apply Z.eqb_refl].
Qed.
Example by3_runs E : exists N st', (forall k, (N <= k)%nat ->
    eval_text std_table (std_plain E) zero_blocks (fun _ => 0) [] k stn (str "/m = (/n + 2) * 3" ++ [0]) = Ok (Some [set_int32 atom_fresh 0], st')) /\
  bundle_rep st' (W (1, 2) [M (str "/n") [EvalProps.num 5]; M (str "/m") [EvalProps.num 21]]).
Proof.
  rewrite <- by3_text. apply (C89_arithmetic E zero_blocks (fun _ => 0) [] stn wn (str "/m") by3 21 []).
  - exact zero_blocks_ok.
  - exact stn_rep.
  - apply (written_by (str "m")); [discriminate|vm_compute; reflexivity].
  - repeat split. apply (written_by (str "n")); [discriminate|vm_compute; reflexivity].
  - rewrite by3_text. unfold wf_bytes, is_byte. repeat constructor; vm_compute; congruence.
  - vm_compute. reflexivity.
  - apply good_address; [reflexivity|vm_compute; congruence| |]; cbn; intuition discriminate.
  - vm_compute. reflexivity.
  - unfold fits. vm_compute. reflexivity.
Qed.
Print Assumptions C89_syntax_error_refuted.
