(** C91: members of nested bundles. *)

From Coq Require Import String ZArith List Bool Lia.
From Verif Require Import Base BaseProofs Bytes Text UtilModel TimetagModel WireSpec SerialModel SerialSpec
  AtomSModel AtomUModel WireModel BundleSModel BundleSProofs BundleSProps ExprModel ExprListModel ExprSpec
  ExprProps ExprListProofs ExprListProps FnCastModel EvalModel EvalSpec EvalRep EvalBundle EvalProofs EvalSim EvalSteps EvalProps
  EvalStdModel EvalStdSpec EvalStdProofs DeserProofs MemberModel MemberSpec MemberProofs.
Import ListNotations.
Open Scope Z_scope.

Section Follows.
Context (table : list Z -> option fn) (plain : list Z -> list arr -> res (Z * arr)) (sem : list Z -> list out -> option (Z * out)).
Context (fresh : Z -> bytes) (Hf : blocks fresh) (Hi : implements plain sem).
Notation matches := (selects true).
Notation rec := (eval_in table plain fresh).

(** A computation that depends on how much recursion is allowed comes to an end. *)
Definition settles (f : nat -> res (Z * arr * bst)) (c : Z) (o : out) (w : world) : Prop :=
  exists N o' st', (forall k, (N <= k)%nat -> f k = Ok (c, o', st')) /\ result_rep o' o /\ bundle_rep st' w.

Lemma arg_settles V w a c o w' : evals matches table sem V w a c o w' -> forall env st a', env_rep env V -> bundle_rep st w -> arg_rep a' a ->
  settles (fun k => eval_arg (rec k) env st a') c o w'.
Proof. intros H env st a' He Hw Ha. exact (proj1 (simulation table plain fresh sem Hf Hi) V w a c o w' H env st a' He Hw Ha). Qed.
Lemma run_settles V w e c o w' : runs matches table sem V w e c o w' -> forall env st e', env_rep env V -> bundle_rep st w -> expr_rep e' e ->
  settles (fun k => rec k env st e') c o w'.
Proof. intros H. exact (C57_agrees table plain sem fresh Hf Hi V w e c o w' H). Qed.
Lemma step_settles V w f args c o w' : runs matches table sem V w (Ex f args) c o w' -> forall env st args', env_rep env V -> bundle_rep st w ->
  Forall2 arg_rep args' args -> settles (fun k => ev_expr table plain fresh (rec k) env st (Ex f args')) c o w'.
Proof.
  intros H env st args' He Hw Ha. destruct (run_settles V w _ c o w' H env st (Ex f args') He Hw) as (N & o' & st' & E & R & B).
  { apply expr_rep_args. auto. }
  exists N, o', st'. split; [|auto]. intros k Hk. exact (E (S k) ltac:(lia)).
Qed.

Lemma named_settles V w a c s more w' q nst ms : evals matches table sem V w a c (Some (VStr s :: more)) w' -> q = s ->
  forall env st a', env_rep env V -> bundle_rep st w -> arg_rep a' a -> bundle_rep nst (inside ms) ->
  settles (fun k => get_named (rec k) env st nst (Some a')) (match EvalSpec.lookup matches (inside ms) q with Some _ => 0 | None => unbound end)
    (EvalSpec.lookup matches (inside ms) q) w'.
Proof.
  intros H -> env st a' He Hw Ha Hn. destruct (arg_settles V w a c _ w' H env st a' He Hw Ha) as (N & o' & st' & E & R & B).
  destruct (eval_addr_rep nst (inside ms) s Hn) as (o2 & E2 & R2). exists N, o2, st'. split; [|auto]. intros k Hk. unfold get_named. cbn [eval_opt].
  rewrite (E k Hk). cbn [bind]. rewrite (tag_zero _ _ R). apply rep_Some in R as (l & -> & Hl). cbn [values vtag bind Z.eqb Pos.eqb negb].
  rewrite (string_zero l s more Hl). cbn [bind]. rewrite E2. reflexivity.
Qed.
Lemma unnamed_settles V w a c w' : evals matches table sem V w a c None w' ->
  forall env st a' nst, env_rep env V -> bundle_rep st w -> arg_rep a' a ->
  settles (fun k => get_named (rec k) env st nst (Some a')) c None w'.
Proof.
  intros H env st a' nst He Hw Ha. destruct (arg_settles V w a c _ w' H env st a' He Hw Ha) as (N & o' & st' & E & R & B).
  apply rep_None in R as ->. exists N, None, st'. split; [|split; [constructor|exact B]]. intros k Hk. unfold get_named. cbn [eval_opt].
  rewrite (E k Hk). reflexivity.
Qed.

(** * Reading a member *)
Lemma get_rep V w args c o w' : gets matches table sem V w args c o w' -> forall env st args', env_rep env V -> bundle_rep st w ->
  Forall2 arg_rep args' args -> settles (fun k => get_member fresh (rec k) env st args') c o w'.
Proof.
  intros H env st args' He Hw Hr.
  destruct H as [a b rest c vs w1 ms q w2 H1 H2 H3|a b rest c vs w1 ms c2 w2 H1 H2 H3|a rest c w1 H1|a rest c s more w1 H1 H2|a rest c vs w1 H1 H2|a rest c s more xs w1 H1 H2 H3];
    inversion Hr as [|a' ? r' ? Ha Hr']; subst; destruct (arg_settles V w a c _ w1 H1 env st a' He Hw Ha) as (N & o1 & st1 & E & R & B);
    try (apply rep_Some in R as (l & -> & Hl)).
  - inversion Hr' as [|b' ? r'' ? Hb Hr'']; subst. destruct (opens_rep fresh Hf st1 w1 l vs ms B Hl H2) as (nst & En & Bn).
    assert (K : settles (fun k => match b' with
          | AExpr (Ex FValue vargs) => get_named (rec k) env st1 nst (nth_error vargs 0)
          | AExpr e => get_named (rec k) env st1 nst (Some (AExpr e))
          | AAtom x => get_named (rec k) env st1 nst (Some (AAtom x))
          | _ => do ' (c, o, _) <- eval_opt (rec k) env nst (Some b'); Ok (c, o, st1)
          end) (match EvalSpec.lookup matches (inside ms) q with Some _ => 0 | None => unbound end) (EvalSpec.lookup matches (inside ms) q) w2).
    { destruct H3 as [q|v c' s more w2 H3|x rest' c' s more w2 H3|f args c' s more w2 Hne H3].
      - destruct b' as [| | | |p|]; try contradiction Hb. destruct Hb as (-> & _).
        destruct (eval_addr_rep nst (inside ms) q Bn) as (o2 & E2 & R2). exists 0%nat, o2, st1. split; [|auto]. intros k _.
        cbn [eval_opt eval_arg]. rewrite E2. reflexivity.
      - destruct b' as [|x| | | |]; try contradiction Hb. now apply (named_settles V w1 (AAtom v) c' s more w2).
      - destruct b' as [| | |[f' args']| |]; try contradiction Hb. cbn [arg_rep] in Hb. apply expr_rep_args in Hb as (-> & Hb).
        inversion Hb as [|x' ? y' ? Hx Hy]; subst. cbn [nth_error]. now apply (named_settles V w1 x c' s more w2).
      - destruct b' as [| | |[f' args']| |]; try contradiction Hb. pose proof Hb as Hb0. cbn [arg_rep] in Hb. apply expr_rep_args in Hb as (-> & Hb).
        destruct (named_settles V w1 (AExpr (Ex f args)) c' s more w2 s nst ms H3 eq_refl env st1 (AExpr (Ex f args')) He B Hb0 Bn) as (N2 & o2 & st2 & E2 & R2 & B2).
        exists N2, o2, st2. split; [|auto]. intros k Hk. specialize (E2 k Hk). destruct f; try exact E2. now elim Hne. }
    destruct K as (N2 & o2 & st2 & E2 & R2 & B2). exists (Nat.max N N2), o2, st2. split; [|auto]. intros k Hk. unfold get_member. cbn [nth_error eval_opt].
    rewrite (E k) by lia. cbn [bind]. rewrite En. cbn [bind]. specialize (E2 k ltac:(lia)). destruct b' as [| | |[[]]| |]; exact E2.
  - inversion Hr' as [|b' ? r'' ? Hb Hr'']; subst. destruct (opens_rep fresh Hf st1 w1 l vs ms B Hl H2) as (nst & En & Bn).
    assert (K : settles (fun k => match b' with
          | AExpr (Ex FValue vargs) => get_named (rec k) env st1 nst (nth_error vargs 0)
          | AExpr e => get_named (rec k) env st1 nst (Some (AExpr e))
          | AAtom x => get_named (rec k) env st1 nst (Some (AAtom x))
          | _ => do ' (c, o, _) <- eval_opt (rec k) env nst (Some b'); Ok (c, o, st1)
          end) c2 None w2).
    { destruct H3 as [v c' w2 H3|x rest' c' w2 H3|f args c' w2 Hne H3].
      - destruct b' as [|x| | | |]; try contradiction Hb. now apply (unnamed_settles V w1 (AAtom v) c' w2).
      - destruct b' as [| | |[f' args']| |]; try contradiction Hb. cbn [arg_rep] in Hb. apply expr_rep_args in Hb as (-> & Hb).
        inversion Hb as [|x' ? y' ? Hx Hy]; subst. cbn [nth_error]. now apply (unnamed_settles V w1 x c' w2).
      - destruct b' as [| | |[f' args']| |]; try contradiction Hb. pose proof Hb as Hb0. cbn [arg_rep] in Hb. apply expr_rep_args in Hb as (-> & Hb).
        destruct (unnamed_settles V w1 (AExpr (Ex f args)) c' w2 H3 env st1 (AExpr (Ex f args')) nst He B Hb0) as (N2 & o2 & st2 & E2 & R2 & B2).
        exists N2, o2, st2. split; [|auto]. intros k Hk. specialize (E2 k Hk). destruct f; try exact E2. now elim Hne. }
    destruct K as (N2 & o2 & st2 & E2 & R2 & B2). exists (Nat.max N N2), o2, st2. split; [|auto]. intros k Hk. unfold get_member. cbn [nth_error eval_opt].
    rewrite (E k) by lia. cbn [bind]. rewrite En. cbn [bind]. specialize (E2 k ltac:(lia)). destruct b' as [| | |[[]]| |]; exact E2.
  - apply rep_None in R as ->. exists N, None, st1. split; [|split; [constructor|exact B]]. intros k Hk. unfold get_member. cbn [nth_error eval_opt].
    rewrite (E k Hk). reflexivity.
  - inversion Hl as [|x ? l' ? Hx _]; subst. pose proof (open_string fresh Hf st1 w1 s x l' B Hx) as K. rewrite H2 in K.
    exists N, None, st1. split; [|split; [constructor|exact B]]. intros k Hk. unfold get_member. cbn [nth_error eval_opt].
    rewrite (E k Hk). cbn [bind]. rewrite K. reflexivity.
  - assert (K : open_bundle fresh st1 (Some l) = Ok NoBundle).
    { destruct Hl as [|x v l vs Hx _]; [reflexivity|]. apply (open_other fresh st1 x l v Hx). destruct v; auto. }
    exists N, None, st1. split; [|split; [constructor|exact B]]. intros k Hk. unfold get_member. cbn [nth_error eval_opt].
    rewrite (E k Hk). cbn [bind]. rewrite K. reflexivity.
  - inversion Hl as [|x ? l' ? Hx _]; subst. pose proof (open_string fresh Hf st1 w1 s x l' B Hx) as K. rewrite H2 in K.
    exists N, None, st1. split; [|split; [constructor|exact B]]. intros k Hk. unfold get_member. cbn [nth_error eval_opt].
    rewrite (E k Hk). cbn [bind]. destruct xs as [|[] xs]; try contradiction H3; rewrite K; reflexivity.
Qed.

(** * Assigning to a member *)
Lemma is_nth_not f args : (forall l, Ex f args <> Ex (FCall nth_name) (l : list (arg value))) -> is_nth f = false.
Proof.
  intros H. destruct f; try reflexivity. cbn [is_nth]. destruct (streq name (str "nth")) eqn:E; [|reflexivity]. exfalso.
  apply (H args). unfold nth_name. apply same_name_iff in E. now rewrite E.
Qed.
Lemma back_rep V w vs ms a c o w' : puts_back matches table sem V w vs ms a c o w' -> vs <> [] ->
  forall env st a' l nst t, env_rep env V -> bundle_rep st w -> arg_rep a' a -> Forall2 stands l vs -> bundle_rep nst (W t ms) ->
  settles (fun k => put_back fresh (rec k) env st a' (Some l) nst) c o w'.
Proof.
  intros H Hvs env st a' l nst t He Hw Ha Hl Hn.
  destruct H as [x i rest c o w' Hx Hi' Hrun|e s more c o w' Hne Ev Hrun|e ms0 more Hne Ev|a c o w' Hne Hno Hrun].
  - destruct a' as [| | |[f' args']| |]; try contradiction Ha. cbn [arg_rep] in Ha. apply expr_rep_args in Ha as (-> & Ha).
    inversion Ha as [|x' ? l1 ? Rx Ha1]; subst. inversion Ha1 as [|i' ? l2 ? Ri Ha2]; subst.
    destruct (proj1 copy_rep_all x' x Rx Hx) as (x2 & Ex2 & Rx2). destruct (proj1 copy_rep_all i' i Ri Hi') as (i2 & Ei2 & Ri2).
    destruct (back_atom fresh Hf nst t ms atom_fresh Hn) as (y & Ey & Sy).
    destruct (step_settles V w _ _ c o w' Hrun env st [x2; i2; AAtom y] He Hw) as (N & o' & st' & E & R & B).
    { constructor; [exact Rx2|]. constructor; [exact Ri2|]. constructor; [exact Sy|constructor]. }
    exists N, o', st'. split; [|auto]. intros k Hk. unfold put_back. change (is_nth (FCall nth_name)) with true. cbn [bind].
    rewrite Ex2. cbn [bind]. rewrite Ei2. cbn [bind]. rewrite Ey. cbn [bind]. exact (E k Hk).
  - destruct a' as [| | |[f' args']| |]; try contradiction Ha. cbn [arg_rep] in Ha. destruct e as [f args]. apply expr_rep_args in Ha as (-> & Ha).
    subst vs. pose proof (string_zero l s more Hl) as Es. pose proof (tag_zero (Some l) (Some (VStr s :: more)) (rep_some _ _ Hl)) as Et. cbn [values vtag] in Et.
    destruct (back_atom fresh Hf nst t ms atom_fresh Hn) as (y & Ey & Sy). inversion Hl as [|x ? l' ? Hx _]; subst.
    destruct (stands_str x s Hx) as (_ & _ & Hs).
    destruct (step_settles V w _ _ c o w' Hrun env st [AAddr s; AAtom y] He Hw) as (N & o' & st' & E & R & B).
    { constructor; [split; [reflexivity|exact Hs]|]. constructor; [exact Sy|constructor]. }
    exists N, o', st'. split; [|auto]. intros k Hk. unfold put_back. rewrite (is_nth_not f args Hne). rewrite Et. cbn [bind Z.eqb Pos.eqb].
    rewrite Es. cbn [bind]. rewrite Ey. cbn [bind]. exact (E k Hk).
  - destruct a' as [| | |[f' args']| |]; try contradiction Ha. cbn [arg_rep] in Ha. destruct e as [f args]. apply expr_rep_args in Ha as (-> & Ha).
    subst vs. pose proof (tag_zero (Some l) (Some (VBundle ms0 :: more)) (rep_some _ _ Hl)) as Et. cbn [values vtag] in Et.
    exists 0%nat, None, st. split; [|split; [constructor|exact Hw]]. intros k _. unfold put_back. rewrite (is_nth_not f args Hne). rewrite Et. reflexivity.
  - destruct (proj1 copy_rep_all a' a Ha Hno) as (x2 & Ex2 & Rx2).
    destruct Hl as [|x v l vs Hx Hl]; [now elim Hvs|]. destruct (back_atom fresh Hf nst t ms x Hn) as (y & Ey & Sy).
    destruct (step_settles V w _ _ c o w' Hrun env st [x2; AList (Some (y :: l))] He Hw) as (N & o' & st' & E & R & B).
    { constructor; [exact Rx2|]. constructor; [|constructor]. cbn [arg_rep tl]. constructor. now constructor. }
    exists N, o', st'. split; [|auto]. intros k Hk.
    assert (Ap : aput (Some (x :: l)) 0 (fun x => set_bndl_s x (bytes_of nst) (b_len nst)) = Ok (Some (y :: l))).
    { pose proof (aput_at [] x l (fun x => set_bndl_s x (bytes_of nst) (b_len nst))) as K. cbn [app] in K. change (zlen (@nil atom)) with 0 in K.
      rewrite K, Ey. reflexivity. }
    assert (G : put_back fresh (rec k) env st a' (Some (x :: l)) nst =
      (do arg1 <- aput (Some (x :: l)) 0 (fun x => set_bndl_s x (bytes_of nst) (b_len nst));
       do x <- copy_arg a'; ev_assign fresh (rec k) env st [x; AList arg1])).
    { destruct a' as [| | |e| |]; try reflexivity. destruct a; try contradiction Ha. now elim (Hne e0). }
    rewrite G, Ap. cbn [bind]. rewrite Ex2. cbn [bind]. exact (E k Hk).
Qed.

(** What comes before the nested assignment. *)
Lemma holder_rep V w args vs w1 : holder matches table sem V w args vs w1 -> forall env st args', env_rep env V -> bundle_rep st w ->
  Forall2 arg_rep args' args ->
  exists N l st1, (forall k, (N <= k)%nat ->
    (do ' (c, arg1, st) <- eval_opt (rec k) env st (nth_error args' 0);
     match arg1, args' with
     | None, AAddr p :: AAddr _ :: _ :: _ => if c =? UNBOUND then new_member fresh st p else Ok (None, st)
     | _, _ => Ok (arg1, st)
     end) = Ok (Some l, st1)) /\ Forall2 stands l vs /\ bundle_rep st1 w1.
Proof.
  intros H env st args' He Hw Hr. destruct H as [a rest c vs w1 H1|p q x rest Hno Hp Hfit]; inversion Hr as [|a' ? r' ? Ha Hr']; subst.
  - destruct (arg_settles V w a c _ w1 H1 env st a' He Hw Ha) as (N & o1 & st1 & E & R & B). apply rep_Some in R as (l & -> & Hl).
    exists N, l, st1. split; [|auto]. intros k Hk. cbn [nth_error eval_opt]. rewrite (E k Hk). reflexivity.
  - inversion Hr' as [|q' ? r'' ? Hq Hr'']; subst. inversion Hr'' as [|x' ? r3 ? Hx Hr3]; subst.
    destruct a' as [| | | |p'|]; try contradiction Ha. destruct q' as [| | | |q'|]; try contradiction Hq. destruct Ha as (-> & H1 & H2 & H3).
    destruct (eval_addr_rep st w p Hw) as (o & E & R). rewrite Hno in E, R. apply rep_None in R as ->.
    destruct (new_rep fresh Hf st w p Hw Hp H1 H2 H3 Hfit) as (y & st' & En & Sy & Bn).
    exists 0%nat, [y], st'. split; [|split; [constructor; [exact Sy|constructor]|exact Bn]]. intros k _. cbn [nth_error eval_opt eval_arg].
    rewrite E. cbn [bind]. change (unbound =? UNBOUND) with true. cbn match. exact En.
Qed.
Lemma assigned_rep l xs : Forall2 stands l xs ->
  exists v, match l with [x] => do y <- copy_atom x; Ok (AAtom y) | _ => do y <- acopy (Some l); Ok (AList y) end = Ok v /\ arg_rep v (assigned xs).
Proof.
  intros H. assert (K : exists b, acopy (Some l) = Ok b /\ result_rep b (Some xs)) by (apply acopy_rep; now constructor).
  destruct K as (b & Eb & Rb). destruct H as [|x v l xs Hx Hl]; [rewrite Eb; exists (AList b); now split|].
  destruct Hl as [|y u l xs Hy Hl].
  - destruct (copy_stands x v Hx) as (z & Ez & Sz). rewrite Ez. exists (AAtom z). now split.
  - rewrite Eb. exists (AList b). now split.
Qed.
Lemma opens_some w vs ms : opens matches w vs ms -> vs <> [].
Proof. destruct 1; discriminate. Qed.
Lemma assign_rep V w args c o w' : assigns matches table sem V w args c o w' -> forall env st args', env_rep env V -> bundle_rep st w ->
  Forall2 arg_rep args' args -> settles (fun k => assign_member fresh (rec k) env st args') c o w'.
Proof.
  intros H env st args' He Hw Hr.
  destruct H as [a b x rest vs w1 ms c1 xs w2 o ms' t c o' w3 H1 H2 H3 H4 H5 H6|a b x rest vs w1 ms c1 xs w2 o w' c H1 H2 H3 H4 H5 H6|a b x rest vs w1 ms c1 w2 H1 H2 H3|a rest c vs w1 H1 H2|a rest c w1 H1 H2].
  4: { inversion Hr as [|a' ? r' ? Ha Hr']; subst. destruct (arg_settles V w a c _ w1 H1 env st a' He Hw Ha) as (N & o1 & st1 & E & R & B).
    apply rep_Some in R as (l & -> & Hl). exists N, None, st1. split; [|split; [constructor|exact B]]. intros k Hk. unfold assign_member. cbn [nth_error eval_opt].
    rewrite (E k Hk). cbn [bind].
    assert (K : exists f, open_bundle fresh st1 (Some l) = Ok f /\ forall s, f <> Nested s).
    { destruct Hl as [|y v l vs Hy Hl]; [exists NoBundle; split; [reflexivity|discriminate]|].
      assert (D : (exists m, v = VBundle m) \/ (exists s, v = VStr s) \/ match v with VBundle _ | VStr _ => False | _ => True end) by (destruct v; eauto; right; right; exact I).
      destruct D as [(m & ->)|[(s & ->)|D]].
      - elim (H2 m). constructor.
      - pose proof (open_string fresh Hf st1 w1 s y l B Hy) as K. destruct (EvalSpec.lookup matches w1 s) as [xs|] eqn:Es; [|exists Missing; split; [exact K|discriminate]].
        destruct xs as [|[] xs]; try (exists NoBundle; split; [exact K|discriminate]). elim (H2 ms). econstructor; exact Es.
      - exists NoBundle. split; [now apply (open_other fresh st1 y l v)|discriminate]. }
    destruct K as (f & Ef & Hnf). rewrite Ef. cbn [bind]. destruct f; try reflexivity. now elim (Hnf st0). }
  4: { inversion Hr as [|a' ? r' ? Ha Hr']; subst. destruct (arg_settles V w a c _ w1 H1 env st a' He Hw Ha) as (N & o1 & st1 & E & R & B).
    apply rep_None in R as ->. exists N, None, st1. split; [|split; [constructor|exact B]]. intros k Hk. unfold assign_member. cbn [nth_error eval_opt].
    rewrite (E k Hk). cbn [bind].
    destruct Hr' as [|b' b r1 rest1 Hb Hr1]; [destruct a'; reflexivity|].
    destruct Hr1 as [|x' x r2 rest2 Hx Hr2]; [destruct a'; try reflexivity; destruct b'; reflexivity|].
    destruct a' as [| | | |p|]; try reflexivity. destruct b' as [| | | |q|]; try reflexivity.
    destruct (Z.eqb_spec c UNBOUND) as [->|]; [|reflexivity]. exfalso.
    destruct a as [| | | |p1|]; try contradiction Ha. destruct b as [| | | |q1|]; try contradiction Hb. now apply (H2 eq_refl p1 q1 x rest2). }
  all: destruct (holder_rep V w _ vs w1 H1 env st args' He Hw Hr) as (N1 & l & st1 & E1 & Hl & B1);
    destruct (opens_rep fresh Hf st1 w1 l vs ms B1 Hl H2) as (nst & En & Bn);
    inversion Hr as [|a' ? r1 ? Ha Hr1]; subst; inversion Hr1 as [|b' ? r2 ? Hb Hr2]; subst; inversion Hr2 as [|x' ? r3 ? Hx Hr3]; subst;
    destruct (arg_settles V w1 x c1 _ w2 H3 env st1 x' He B1 Hx) as (N2 & o2 & st2 & E2 & R2 & B2).
  all: assert (G : forall k, (N1 <= k)%nat -> (N2 <= k)%nat -> assign_member fresh (rec k) env st (a' :: b' :: x' :: r3) =
      match o2 with
      | None => Ok (0, None, st2)
      | Some l2 =>
          do t <- copy_arg b';
          do v <- match l2 with [x] => do y <- copy_atom x; Ok (AAtom y) | _ => do y <- acopy (Some l2); Ok (AList y) end;
          do ' (c, _, nst) <- ev_assign fresh (rec k) env nst [t; v];
          if negb (c =? 0) then Ok (c, None, st2) else put_back fresh (rec k) env st2 a' (Some l) nst
      end) by
    (intros k K1 K2; unfold assign_member; specialize (E1 k K1); specialize (E2 k K2);
     destruct (eval_opt (rec k) env st (nth_error (a' :: b' :: x' :: r3) 0)) as [[[cc arg1] stt]| |]; [|discriminate E1..]; cbn [bind] in E1 |- *;
     rewrite E1; cbn [bind]; rewrite En; cbn [bind nth_error eval_opt]; rewrite E2; cbn [bind]; destruct o2; reflexivity).
  - apply rep_Some in R2 as (l2 & -> & Hl2). destruct (proj1 copy_rep_all b' b Hb H4) as (t' & Et & Rt).
    destruct (assigned_rep l2 xs Hl2) as (v & Ev & Rv).
    destruct (step_settles V (inside ms) _ _ 0 o (W t ms') H5 env nst [t'; v] He Bn) as (N3 & o3 & nst' & E3 & R3 & B3); [constructor; [exact Rt|]; constructor; [exact Rv|constructor]|].
    destruct (back_rep V w2 vs ms' a c o' w3 H6 (opens_some _ _ _ H2) env st2 a' l nst' t He B2 Ha Hl B3) as (N4 & o4 & st4 & E4 & R4 & B4).
    exists (Nat.max (Nat.max N1 N2) (Nat.max N3 N4)), o4, st4. split; [|auto]. intros k Hk. rewrite G by lia. rewrite Et. cbn [bind]. rewrite Ev. cbn [bind].
    specialize (E3 k ltac:(lia)). cbn [ev_expr] in E3. rewrite E3. cbn [bind Z.eqb negb]. apply E4. lia.
  - apply rep_Some in R2 as (l2 & -> & Hl2). destruct (proj1 copy_rep_all b' b Hb H4) as (t' & Et & Rt).
    destruct (assigned_rep l2 xs Hl2) as (v & Ev & Rv).
    destruct (step_settles V (inside ms) _ _ c o w' H5 env nst [t'; v] He Bn) as (N3 & o3 & nst' & E3 & R3 & B3); [constructor; [exact Rt|]; constructor; [exact Rv|constructor]|].
    exists (Nat.max (Nat.max N1 N2) N3), None, st2. split; [|split; [constructor|exact B2]]. intros k Hk. rewrite G by lia. rewrite Et. cbn [bind]. rewrite Ev. cbn [bind].
    specialize (E3 k ltac:(lia)). cbn [ev_expr] in E3. rewrite E3. cbn [bind]. now rewrite not_zero.
  - apply rep_None in R2 as ->. exists (Nat.max N1 N2), None, st2. split; [|split; [constructor|exact B2]]. intros k Hk. rewrite G by lia. reflexivity.
Qed.
End Follows.

(** * C91 *)

(** Reading a member does what the specification says. *)
Theorem C91_get table plain sem fresh : blocks fresh -> implements plain sem ->
  forall V w args c o w', gets (selects true) table sem V w args c o w' ->
  forall env st args', env_rep env V -> bundle_rep st w -> Forall2 arg_rep args' args ->
  exists N o' st', (forall k, (N <= k)%nat -> get_member fresh (eval_in table plain fresh k) env st args' = Ok (c, o', st')) /\
    result_rep o' o /\ bundle_rep st' w'.
Proof. intros Hf Hi V w args c o w' H env st args' He Hw Ha. exact (get_rep table plain sem fresh Hf Hi V w args c o w' H env st args' He Hw Ha). Qed.
Print Assumptions C91_get.

(** So does assigning to a member. *)
Theorem C91_assign table plain sem fresh : blocks fresh -> implements plain sem ->
  forall V w args c o w', assigns (selects true) table sem V w args c o w' ->
  forall env st args', env_rep env V -> bundle_rep st w -> Forall2 arg_rep args' args ->
  exists N o' st', (forall k, (N <= k)%nat -> assign_member fresh (eval_in table plain fresh k) env st args' = Ok (c, o', st')) /\
    result_rep o' o /\ bundle_rep st' w'.
Proof. intros Hf Hi V w args c o w' H env st args' He Hw Ha. exact (assign_rep table plain sem fresh Hf Hi V w args c o w' H env st args' He Hw Ha). Qed.
Print Assumptions C91_assign.

(** ** What that comes to for addresses without pattern characters *)
Definition ok_address (p : list Z) : Prop := plain_name p /\ address_code p 0 /\ wf_bytes p /\ zlen p + 4 < 2^32.
Lemma ok_addr_rep p : ok_address p -> arg_rep (AAddr p) (AAddr p).
Proof.
  intros ([_ Hp] & _ & Hwf & Hl). cbn [arg_rep]. split; [reflexivity|]. split; [|auto].
  unfold nonul. apply Forall_forall. intros c Hin Hz. rewrite Forall_forall in Hp. apply (Hp c Hin). left. symmetry. exact Hz.
Qed.
Lemma lookup_store t s vs p ms : plain_name s -> plain_name p -> all_plain (W t ms) ->
  EvalSpec.lookup (selects true) (W t (EvalSpec.store s vs ms)) p =
  if same_name p s then Some vs else EvalSpec.lookup (selects true) (W t ms) p.
Proof. intros Hs Hp Hms. unfold EvalSpec.lookup. cbn [msgs]. exact (find_store s vs p ms Hs Hp Hms). Qed.
(** The value is not a string that is the name of a variable. *)
Definition free_value (V : vars) (xs : list value) : Prop := match xs with [VStr s] => V s = None | _ => True end.
Lemma assigned_evals table sem V w xs : free_value V xs -> evals (selects true) table sem V w (assigned xs) 0 (Some xs) w.
Proof.
  intros H. destruct xs as [|v [|u xs]]; [apply E_list| |apply E_list]. cbn [assigned]. apply E_literal. destruct v; exact H || exact I.
Qed.

(** /p./q = x with /p bound to a bundle: afterwards /p./q reads as x, the other members
    of /p read as before, the other arguments of /p and the other messages are as the
    evaluation of x left them. *)
Theorem C91_set_then_get table plain sem fresh : blocks fresh -> implements plain sem ->
  forall V w p q x ms more c xs w1, ok_address p -> ok_address q -> free_value V xs ->
  EvalSpec.lookup (selects true) w p = Some (VBundle ms :: more) -> all_plain (inside ms) ->
  evals (selects true) table sem V w x c (Some xs) w1 -> all_plain w1 ->
  let ms' := EvalSpec.store q xs ms in
  let w2 := with_msgs w1 (EvalSpec.store p (VBundle ms' :: more) (msgs w1)) in
  fits (inside ms') -> fits w2 ->
  forall env st x', env_rep env V -> bundle_rep st w -> arg_rep x' x ->
  exists N o' st', (forall k, (N <= k)%nat ->
      assign_member fresh (eval_in table plain fresh k) env st [AAddr p; AAddr q; x'] = Ok (0, o', st')) /\
    result_rep o' (Some (VBundle ms' :: more)) /\ bundle_rep st' w2 /\
    (forall r, ok_address r -> let now := if same_name r q then Some xs else EvalSpec.lookup (selects true) (inside ms) r in
       exists N1 o1, (forall k, (N1 <= k)%nat ->
         get_member fresh (eval_in table plain fresh k) env st' [AAddr p; AAddr r] =
         Ok (match now with Some _ => 0 | None => unbound end, o1, st')) /\ result_rep o1 now) /\
    (forall r, ok_address r -> r <> p ->
       exists o1, eval_addr st' r = Ok (match EvalSpec.lookup (selects true) w1 r with Some _ => 0 | None => unbound end, o1) /\
         result_rep o1 (EvalSpec.lookup (selects true) w1 r)).
Proof.
  intros Hf Hi V w p q x ms more c xs w1 Hp Hq Hfree Hl Hpl Hx Hpw ms' w2 F1 F2 env st x' He Hw Ha.
  assert (H : assigns (selects true) table sem V w [AAddr p; AAddr q; x] 0 (Some (VBundle ms' :: more)) w2).
  { eapply (assign_done _ _ _ V w (AAddr p) (AAddr q) x [] (VBundle ms :: more) w ms c xs w1 (Some xs) ms' (0, 0)).
    - eapply holder_there. apply E_address. exact Hl.
    - constructor.
    - exact Hx.
    - reflexivity.
    - change (W (0, 0) ms') with (with_msgs (inside ms) (EvalSpec.store q (values (Some xs)) (msgs (inside ms)))).
      eapply R_assign; [apply T_address|apply Hq|now apply assigned_evals|exact F1].
    - apply back_whole; [discriminate|reflexivity|]. cbn [tl].
      change w2 with (with_msgs w1 (EvalSpec.store p (values (Some (VBundle ms' :: more))) (msgs w1))).
      eapply R_assign; [apply T_address|apply Hp|apply E_list|exact F2]. }
  destruct (C91_assign table plain sem fresh Hf Hi V w _ _ _ _ H env st [AAddr p; AAddr q; x'] He Hw) as (N & o' & st' & E & R & B).
  { constructor; [now apply ok_addr_rep|]. constructor; [now apply ok_addr_rep|]. constructor; [exact Ha|constructor]. }
  exists N, o', st'. split; [exact E|]. split; [exact R|]. split; [exact B|].
  assert (Hw2 : forall r, plain_name r -> EvalSpec.lookup (selects true) w2 r = if same_name r p then Some (VBundle ms' :: more) else EvalSpec.lookup (selects true) w1 r).
  { intros r Hr. destruct w1 as [t1 m1]. apply lookup_store; [apply Hp|exact Hr|exact Hpw]. }
  split.
  - intros r Hr now.
    assert (Hn : EvalSpec.lookup (selects true) (inside ms') r = now) by (apply lookup_store; [apply Hq|apply Hr|exact Hpl]).
    destruct (C91_get table plain sem fresh Hf Hi V w2 [AAddr p; AAddr r] (match now with Some _ => 0 | None => unbound end) now w2) with
      (env := env) (st := st') (args' := [AAddr p; AAddr r] : list (arg atom)) as (N1 & o1 & st1 & E1 & R1 & B1).
    + rewrite <- Hn. eapply (get_found _ _ _ V w2 (AAddr p) (AAddr r) [] 0 (VBundle ms' :: more) w2 ms' r w2).
      * apply E_address. rewrite Hw2 by apply Hp. now rewrite (proj2 (same_name_iff p p) eq_refl).
      * constructor.
      * constructor.
    + exact He.
    + exact B.
    + constructor; [now apply ok_addr_rep|]. constructor; [now apply ok_addr_rep|constructor].
    + exists N1, o1. split; [|exact R1]. intros k Hk. rewrite (E1 k Hk). 
      assert (S : st1 = st'); [|now rewrite S].
      specialize (E1 k Hk). unfold get_member in E1. cbn [nth_error eval_opt eval_arg] in E1.
      destruct (eval_addr st' p) as [[c1 a1]| |]; try discriminate E1. cbn [bind] in E1. destruct a1 as [a1|]; [|now injection E1].
      destruct (open_bundle fresh st' (Some a1)) as [f| |]; try discriminate E1. cbn [bind] in E1. destruct f; try now injection E1.
      destruct (eval_addr st0 r) as [[c2 a2]| |]; try discriminate E1. cbn [bind] in E1. now injection E1.
  - intros r Hr Hne. destruct (eval_addr_rep st' w2 r B) as (o1 & E1 & R1). rewrite Hw2 in E1, R1 by apply Hr.
    destruct (same_name r p) eqn:E2; [apply same_name_iff in E2; contradiction|]. now exists o1.
Qed.
Print Assumptions C91_set_then_get.

(** If /p is not bound, /p./q = v binds it to a bundle with that one message, after all
    the others. *)
Lemma store_last s vs old ms : plain_name s -> Forall (fun '(M a _) => hd 0 a = 47 /\ Forall (fun c => ~ In c [0; 42]) a) ms ->
  find (fun '(M a _) => selects true s a) ms = None -> EvalSpec.store s vs (ms ++ [M s old]) = ms ++ [M s vs].
Proof.
  intros Hs. pose proof (plain_parts s Hs) as [S1 S2]. induction ms as [|[a xs] ms IH]; intros Hms Hno.
  - cbn [app EvalSpec.store]. now rewrite (proj2 (same_name_iff s s) eq_refl).
  - inversion Hms as [|? ? HA Hms']; subst. destruct HA as [A1 A2]. cbn [find] in Hno. destruct (selects true s a) eqn:E; [discriminate Hno|].
    cbn [app EvalSpec.store]. destruct (same_name a s) eqn:Ea.
    + apply same_name_iff in Ea. subst a. rewrite (proj2 (selects_literal s s Hs S1 S2) eq_refl) in E. discriminate E.
    + now rewrite IH.
Qed.
Theorem C91_creates table plain sem fresh : blocks fresh -> implements plain sem ->
  forall V w p q v, ok_address p -> ok_address q -> free_value V [v] -> all_plain w ->
  EvalSpec.lookup (selects true) w p = None ->
  let w' := with_msgs w (msgs w ++ [M p [VBundle [M q [v]]]]) in
  fits (with_msgs w (msgs w ++ [M p [VBundle []]])) -> fits (inside [M q [v]]) -> fits w' ->
  forall env st x', env_rep env V -> bundle_rep st w -> stands x' v ->
  exists N o' st', (forall k, (N <= k)%nat ->
      assign_member fresh (eval_in table plain fresh k) env st [AAddr p; AAddr q; AAtom x'] = Ok (0, o', st')) /\
    result_rep o' (Some [VBundle [M q [v]]]) /\ bundle_rep st' w'.
Proof.
  intros Hf Hi V w p q v Hp Hq Hfree Hpl Hno w' F0 F1 F2 env st x' He Hw Ha.
  apply (C91_assign table plain sem fresh Hf Hi V w [AAddr p; AAddr q; AAtom v]); [|exact He|exact Hw|].
  2: { constructor; [now apply ok_addr_rep|]. constructor; [now apply ok_addr_rep|]. constructor; [exact Ha|constructor]. }
  eapply (assign_done _ _ _ V w (AAddr p) (AAddr q) (AAtom v) [] [VBundle []] _ [] 0 [v] _ (Some [v]) [M q [v]] (0, 0)).
  - apply holder_new; [exact Hno|apply Hp|exact F0].
  - constructor.
  - exact (assigned_evals table sem V _ [v] Hfree).
  - reflexivity.
  - change (W (0, 0) [M q [v]]) with (with_msgs (inside []) (EvalSpec.store q (values (Some [v])) (msgs (inside [])))).
    eapply R_assign; [apply T_address|apply Hq|now apply assigned_evals|exact F1].
  - apply back_whole; [discriminate|reflexivity|]. cbn [tl].
    assert (E : w' = with_msgs (with_msgs w (msgs w ++ [M p [VBundle []]]))
      (EvalSpec.store p (values (Some [VBundle [M q [v]]])) (msgs (with_msgs w (msgs w ++ [M p [VBundle []]]))))).
    { cbn [with_msgs msgs time values]. rewrite store_last; [reflexivity|apply Hp|exact Hpl|].
      unfold EvalSpec.lookup in Hno. destruct (find _ (msgs w)) as [[]|]; [discriminate Hno|reflexivity]. }
    rewrite E. eapply R_assign; [apply T_address|apply Hp|apply E_list|]. rewrite <- E. exact F2.
Qed.
Print Assumptions C91_creates.

(** ** What goes wrong *)

(** The assignment fails because /q is no address, and yet /p has been bound to an empty
    bundle. *)
Theorem C91_no_effect_of_failure_refuted table plain sem fresh : blocks fresh -> implements plain sem ->
  forall V w p q v c, ok_address p -> address_code q c -> c <> 0 -> free_value V [v] ->
  EvalSpec.lookup (selects true) w p = None ->
  let w' := with_msgs w (msgs w ++ [M p [VBundle []]]) in
  fits w' ->
  forall env st x', env_rep env V -> bundle_rep st w -> stands x' v -> arg_rep (AAddr q) (AAddr q) ->
  exists N st', (forall k, (N <= k)%nat ->
      assign_member fresh (eval_in table plain fresh k) env st [AAddr p; AAddr q; AAtom x'] = Ok (c, None, st')) /\ bundle_rep st' w'.
Proof.
  intros Hf Hi V w p q v c Hp Hq Hc Hfree Hno w' F env st x' He Hw Ha Hqr.
  destruct (C91_assign table plain sem fresh Hf Hi V w [AAddr p; AAddr q; AAtom v] c None w') with (env := env) (st := st) (args' := [AAddr p; AAddr q; AAtom x'])
    as (N & o' & st' & E & R & B); [|exact He|exact Hw| |].
  - eapply (assign_refused _ _ _ V w (AAddr p) (AAddr q) (AAtom v) [] [VBundle []] _ [] 0 [v] w' None).
    + apply holder_new; [exact Hno|apply Hp|exact F].
    + constructor.
    + exact (assigned_evals table sem V _ [v] Hfree).
    + reflexivity.
    + eapply R_assign_address; [apply T_address|exact Hq|exact Hc].
    + exact Hc.
  - constructor; [now apply ok_addr_rep|]. constructor; [exact Hqr|]. constructor; [exact Ha|constructor].
  - apply rep_None in R as ->. exists N, st'. now split.
Qed.
Print Assumptions C91_no_effect_of_failure_refuted.

(** A value that is a string and happens to be the name of a variable is evaluated once
    more: the member gets the values of the variable. *)
Theorem C91_value_refuted table plain sem fresh : blocks fresh -> implements plain sem ->
  forall V w p q x ms more c s ys w1, ok_address p -> ok_address q -> V s = Some ys ->
  EvalSpec.lookup (selects true) w p = Some (VBundle ms :: more) ->
  evals (selects true) table sem V w x c (Some [VStr s]) w1 ->
  let ms' := EvalSpec.store q ys ms in
  let w2 := with_msgs w1 (EvalSpec.store p (VBundle ms' :: more) (msgs w1)) in
  fits (inside ms') -> fits w2 ->
  forall env st x', env_rep env V -> bundle_rep st w -> arg_rep x' x ->
  exists N o' st', (forall k, (N <= k)%nat ->
      assign_member fresh (eval_in table plain fresh k) env st [AAddr p; AAddr q; x'] = Ok (0, o', st')) /\
    result_rep o' (Some (VBundle ms' :: more)) /\ bundle_rep st' w2.
Proof.
  intros Hf Hi V w p q x ms more c s ys w1 Hp Hq Hs Hl Hx ms' w2 F1 F2 env st x' He Hw Ha.
  apply (C91_assign table plain sem fresh Hf Hi V w [AAddr p; AAddr q; x]); [|exact He|exact Hw|].
  2: { constructor; [now apply ok_addr_rep|]. constructor; [now apply ok_addr_rep|]. constructor; [exact Ha|constructor]. }
  eapply (assign_done _ _ _ V w (AAddr p) (AAddr q) x [] (VBundle ms :: more) w ms c [VStr s] w1 (Some ys) ms' (0, 0)).
  - eapply holder_there. apply E_address. exact Hl.
  - constructor.
  - exact Hx.
  - reflexivity.
  - change (W (0, 0) ms') with (with_msgs (inside ms) (EvalSpec.store q (values (Some ys)) (msgs (inside ms)))).
    eapply R_assign; [apply T_address|apply Hq|apply E_variable; exact Hs|exact F1].
  - apply back_whole; [discriminate|reflexivity|]. cbn [tl].
    change w2 with (with_msgs w1 (EvalSpec.store p (values (Some (VBundle ms' :: more))) (msgs w1))).
    eapply R_assign; [apply T_address|apply Hp|apply E_list|exact F2].
Qed.
Print Assumptions C91_value_refuted.

(** If the bundle is named by an expression, the other arguments of its message are
    lost. *)
Theorem C91_rest_refuted table plain sem fresh : blocks fresh -> implements plain sem ->
  forall V w e p q x ms more names c1 c xs w1 w2, (forall args, e <> Ex (FCall nth_name) args) ->
  ok_address p -> ok_address q -> free_value V xs ->
  evals (selects true) table sem V w (AExpr e) c1 (Some (VStr p :: names)) w1 ->
  EvalSpec.lookup (selects true) w1 p = Some (VBundle ms :: more) ->
  evals (selects true) table sem V w1 x c (Some xs) w2 ->
  let ms' := EvalSpec.store q xs ms in
  let w3 := with_msgs w2 (EvalSpec.store p [VBundle ms'] (msgs w2)) in
  fits (inside ms') -> fits w3 ->
  forall env st e' x', env_rep env V -> bundle_rep st w -> expr_rep e' e -> arg_rep x' x ->
  exists N o' st', (forall k, (N <= k)%nat ->
      assign_member fresh (eval_in table plain fresh k) env st [AExpr e'; AAddr q; x'] = Ok (0, o', st')) /\
    result_rep o' (Some [VBundle ms']) /\ bundle_rep st' w3.
Proof.
  intros Hf Hi V w e p q x ms more names c1 c xs w1 w2 Hne Hp Hq Hfree H1 Hl Hx ms' w3 F1 F2 env st e' x' He Hw Hre Ha.
  apply (C91_assign table plain sem fresh Hf Hi V w [AExpr e; AAddr q; x]); [|exact He|exact Hw|].
  2: { constructor; [exact Hre|]. constructor; [now apply ok_addr_rep|]. constructor; [exact Ha|constructor]. }
  eapply (assign_done _ _ _ V w (AExpr e) (AAddr q) x [] (VStr p :: names) w1 ms c xs w2 (Some xs) ms' (0, 0)).
  - eapply holder_there. exact H1.
  - econstructor. exact Hl.
  - exact Hx.
  - reflexivity.
  - change (W (0, 0) ms') with (with_msgs (inside ms) (EvalSpec.store q (values (Some xs)) (msgs (inside ms)))).
    eapply R_assign; [apply T_address|apply Hq|now apply assigned_evals|exact F1].
  - eapply back_name; [exact Hne|reflexivity|].
    change w3 with (with_msgs w2 (EvalSpec.store p (values (Some [VBundle ms'])) (msgs w2))).
    eapply R_assign; [apply T_address|apply Hp|apply E_literal; exact I|exact F2].
Qed.
Print Assumptions C91_rest_refuted.

(** * Examples: the bundle with /x [1 2 3] and /b [{/y 7} 9] *)
Lemma ok_address_of p : hd 0 p = 47 -> 2 <= zlen p -> zlen p + 4 < 2^32 ->
  forallb (fun c => (0 <? c) && (c <? 256) && negb (existsb (Z.eqb c) [42; 63; 91; 93; 123; 125; 35; 32])) p = true -> ok_address p.
Proof.
  intros H1 H2 H3 H. rewrite forallb_forall in H.
  assert (K : forall c, In c p -> 0 < c < 256 /\ ~ In c [42; 63; 91; 93; 123; 125; 35; 32]).
  { intros c Hc. specialize (H c Hc). apply andb_prop in H as [H4 H5]. apply andb_prop in H4 as [H4 H6].
    apply Z.ltb_lt in H4, H6. split; [lia|]. intros Hin. apply negb_true_iff in H5.
    assert (existsb (Z.eqb c) [42; 63; 91; 93; 123; 125; 35; 32] = true) by (apply existsb_exists; exists c; split; [exact Hin|apply Z.eqb_refl]). congruence. }
  split; [|split; [|split; [|exact H3]]].
  - split; [exact H1|]. apply Forall_forall. intros c Hc. destruct (K c Hc) as [K1 K2]. cbn [In] in K2 |- *. intuition lia.
  - apply good_address; [exact H1|exact H2|intros Hc; apply (K 35 Hc)|intros Hc; apply (K 32 Hc)]; cbn [In]; tauto.
  - unfold wf_bytes, is_byte. apply Forall_forall. intros c Hc. specialize (K c Hc). lia.
Qed.
Ltac address := apply ok_address_of; [reflexivity|vm_compute; congruence|vm_compute; reflexivity|reflexivity].
Definition wb : world := W (1, 2) [M (str "/x") [num 1; num 2; num 3]; M (str "/b") [VBundle [M (str "/y") [num 7]]; num 9]].
Definition stb : bst :=
  let b := header (1, 2) ++ concat (map enc_message (msgs wb)) in Bst (zlen b) (Some b) 0.
Lemma stb_rep : bundle_rep stb wb.
Proof.
  exists (msgs wb), []. split; [rewrite app_nil_r; reflexivity|]. split; [reflexivity|]. split; [split; vm_compute; congruence|].
  split; [split; vm_compute; congruence|]. split; [|split; [reflexivity|vm_compute; reflexivity]].
  constructor; [|constructor; [|constructor]]; cbn [std_message std_value fold_right num]; repeat split; try (cbn [In]; tauto); try (vm_compute; congruence);
    try (unfold nonul; repeat constructor; vm_compute; congruence); unfold wf_bytes, is_byte; repeat constructor; vm_compute; congruence.
Qed.
Lemma plain_of w : forallb (fun '(M a _) => (hd 0 a =? 47) && forallb (fun c => negb (existsb (Z.eqb c) [0; 42])) a) (msgs w) = true -> all_plain w.
Proof.
  intros H. rewrite forallb_forall in H. apply Forall_forall. intros [a vs] Hin. specialize (H _ Hin). cbn beta iota in H. apply andb_prop in H as [H1 H2].
  apply Z.eqb_eq in H1. split; [exact H1|]. rewrite forallb_forall in H2. apply Forall_forall. intros c Hc Hx. specialize (H2 c Hc).
  apply negb_true_iff in H2. assert (existsb (Z.eqb c) [0; 42] = true) by (apply existsb_exists; exists c; split; [exact Hx|apply Z.eqb_refl]). congruence.
Qed.

(** /b./z = 8 where /b is bound: C91_set_then_get applies. *)
Example set_example E : exists N o' st', (forall k, (N <= k)%nat ->
    assign_member zero_blocks (eval_in std_table (std_plain E) zero_blocks k) None stb
      [AAddr (str "/b"); AAddr (str "/z"); AAtom (obj_of (num 8))] = Ok (0, o', st')) /\
  bundle_rep st' (W (1, 2) [M (str "/x") [num 1; num 2; num 3];
    M (str "/b") [VBundle [M (str "/y") [num 7]; M (str "/z") [num 8]]; num 9]]).
Proof.
  destruct (C91_set_then_get std_table (std_plain E) std_sem zero_blocks zero_blocks_ok (std_implements E) no_vars wb
    (str "/b") (str "/z") (AAtom (num 8)) [M (str "/y") [num 7]] [num 9] 0 [num 8] wb) with (env := None : lexenv) (st := stb) (x' := AAtom (obj_of (num 8)))
    as (N & o' & st' & H1 & _ & H2 & _).
  - address.
  - address.
  - exact I.
  - vm_compute. reflexivity.
  - apply plain_of. reflexivity.
  - apply E_literal. exact I.
  - apply plain_of. reflexivity.
  - vm_compute. reflexivity.
  - vm_compute. reflexivity.
  - exact no_vars_rep.
  - exact stb_rep.
  - cbn [arg_rep]. apply lit_num. lia.
  - exists N, o', st'. split; [exact H1|]. exact H2.
Qed.
(** /c./z = 8 where /c is not bound: C91_creates applies; with the member /z z, which is
    no address, C91_no_effect_of_failure_refuted does. *)
Example creates_example E : exists N o' st', (forall k, (N <= k)%nat ->
    assign_member zero_blocks (eval_in std_table (std_plain E) zero_blocks k) None st0
      [AAddr (str "/c"); AAddr (str "/z"); AAtom (obj_of (num 8))] = Ok (0, o', st')) /\
  bundle_rep st' (W (1, 2) [M (str "/x") [num 1; num 2; num 3]; M (str "/c") [VBundle [M (str "/z") [num 8]]]]).
Proof.
  destruct (C91_creates std_table (std_plain E) std_sem zero_blocks zero_blocks_ok (std_implements E) no_vars w0
    (str "/c") (str "/z") (num 8)) with (env := None : lexenv) (st := st0) (x' := obj_of (num 8))
    as (N & o' & st' & H1 & _ & H2).
  - address.
  - address.
  - exact I.
  - apply plain_of. reflexivity.
  - vm_compute. reflexivity.
  - vm_compute. reflexivity.
  - vm_compute. reflexivity.
  - vm_compute. reflexivity.
  - exact no_vars_rep.
  - exact st0_rep.
  - apply lit_num. lia.
  - exists N, o', st'. split; [exact H1|]. exact H2.
Qed.
Example failure_example E : exists N st', (forall k, (N <= k)%nat ->
    assign_member zero_blocks (eval_in std_table (std_plain E) zero_blocks k) None st0
      [AAddr (str "/c"); AAddr (str "/z z"); AAtom (obj_of (num 8))] = Ok (36, None, st')) /\
  bundle_rep st' (W (1, 2) [M (str "/x") [num 1; num 2; num 3]; M (str "/c") [VBundle []]]).
Proof.
  apply (C91_no_effect_of_failure_refuted std_table (std_plain E) std_sem zero_blocks zero_blocks_ok (std_implements E) no_vars w0
    (str "/c") (str "/z z") (num 8) 36).
  - address.
  - apply bad_char; [reflexivity|vm_compute; congruence|]. right. cbn. tauto.
  - discriminate.
  - exact I.
  - vm_compute. reflexivity.
  - vm_compute. reflexivity.
  - exact no_vars_rep.
  - exact st0_rep.
  - apply lit_num. lia.
  - apply addr_ok; reflexivity.
Qed.
(** With the variable x bound to 5, /b./z = quote("x") stores 5: C91_value_refuted. *)
Definition x_is_5 : vars := fun s => if same_name s (str "x") then Some [num 5] else None.
Lemma x_is_5_rep : env_rep (Some [(str "x", Some [obj_of (num 5)])]) x_is_5.
Proof.
  split; [cbn [names_once map fst]; constructor; [intros []|constructor]|]. intros s. unfold x_is_5, lookup_var, find_entry.
  cbn [find fst snd].
  destruct (same_name s (str "x")) eqn:E1.
  - apply same_name_iff in E1. subst s. vm_compute streq. cbn. constructor. constructor; [|constructor]. exact (lit_num 5 ltac:(lia)).
  - destruct (streq s (str "x")) eqn:E2; [apply streq_iff in E2; subst s; discriminate E1|]. constructor.
Qed.
Example value_example E : exists N o' st', (forall k, (N <= k)%nat ->
    assign_member zero_blocks (eval_in std_table (std_plain E) zero_blocks k) (Some [(str "x", Some [obj_of (num 5)])]) stb
      [AAddr (str "/b"); AAddr (str "/z"); AExpr (Ex FQuote [AAtom (obj_of (VStr (str "x")))])] = Ok (0, o', st')) /\
  bundle_rep st' (W (1, 2) [M (str "/x") [num 1; num 2; num 3];
    M (str "/b") [VBundle [M (str "/y") [num 7]; M (str "/z") [num 5]]; num 9]]).
Proof.
  destruct (C91_value_refuted std_table (std_plain E) std_sem zero_blocks zero_blocks_ok (std_implements E) x_is_5 wb
    (str "/b") (str "/z") (AExpr (Ex FQuote [AAtom (VStr (str "x"))])) [M (str "/y") [num 7]] [num 9] 0 (str "x") [num 5] wb)
    with (env := Some [(str "x", Some [obj_of (num 5)])] : lexenv) (st := stb) (x' := AExpr (Ex FQuote [AAtom (obj_of (VStr (str "x")))]))
    as (N & o' & st' & H1 & _ & H2).
  - address.
  - address.
  - reflexivity.
  - vm_compute. reflexivity.
  - apply E_expr. apply R_quote.
  - vm_compute. reflexivity.
  - vm_compute. reflexivity.
  - exact x_is_5_rep.
  - exact stb_rep.
  - cbn [arg_rep]. apply expr_rep_args. split; [reflexivity|]. constructor; [exact lit_x|constructor].
  - exists N, o', st'. split; [exact H1|]. exact H2.
Qed.
(** quote("/b")./z = 8 loses the 9: C91_rest_refuted. *)
Example rest_example E : exists N o' st', (forall k, (N <= k)%nat ->
    assign_member zero_blocks (eval_in std_table (std_plain E) zero_blocks k) None stb
      [AExpr (Ex FQuote [AAtom (obj_of (VStr (str "/b")))]); AAddr (str "/z"); AAtom (obj_of (num 8))] = Ok (0, o', st')) /\
  bundle_rep st' (W (1, 2) [M (str "/x") [num 1; num 2; num 3];
    M (str "/b") [VBundle [M (str "/y") [num 7]; M (str "/z") [num 8]]]]).
Proof.
  destruct (C91_rest_refuted std_table (std_plain E) std_sem zero_blocks zero_blocks_ok (std_implements E) no_vars wb
    (Ex FQuote [AAtom (VStr (str "/b"))]) (str "/b") (str "/z") (AAtom (num 8)) [M (str "/y") [num 7]] [num 9] [] 0 0 [num 8] wb wb)
    with (env := None : lexenv) (st := stb) (e' := Ex FQuote [AAtom (obj_of (VStr (str "/b")))]) (x' := AAtom (obj_of (num 8)))
    as (N & o' & st' & H1 & _ & H2).
  - discriminate.
  - address.
  - address.
  - exact I.
  - apply E_expr. apply R_quote.
  - vm_compute. reflexivity.
  - apply E_literal. exact I.
  - vm_compute. reflexivity.
  - vm_compute. reflexivity.
  - exact no_vars_rep.
  - exact stb_rep.
  - apply expr_rep_args. split; [reflexivity|]. constructor; [|constructor]. apply (stands_obj (VStr (str "/b"))); [|reflexivity]. cbn [std_value].
    split; [unfold nonul|unfold wf_bytes, is_byte]; repeat constructor; vm_compute; congruence.
  - cbn [arg_rep]. apply lit_num. lia.
  - exists N, o', st'. split; [exact H1|]. exact H2.
Qed.
