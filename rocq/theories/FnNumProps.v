(** C71-C75: further numeric functions of the expression language. *)

From Coq Require Import ZArith List Bool QArith Qabs Qround Lia Lqa.
From Verif Require Import Base BaseProofs Bytes UtilModel UtilProofs TypetagModel SerialModel WireModel AtomSModel FloatModel AtomUModel FArithModel
  ExprModel ExprListModel StatModel FnNumModel AtomSpec AtomProofs RoundSpec RealSpec ExprSpec StatSpec FnNumSpec NumProps
  FloatProofs RoundProofs RoundProps CompareProofs FArithProofs FArithProps ExprListProofs ExprProps ExprListProps
  StatProofs StatProps FnStrProps FnNumProofs.
Import ListNotations.
Open Scope Z_scope.

(** * C71: functions of the C library, member by member *)

Lemma choose_results f l (P : atom -> atom -> Prop) :
  Forall (fun a => exists y, f a atom_fresh = Ok y /\ P a y) l ->
  exists ys, Forall2 (fun a y => f a atom_fresh = Ok y) l ys /\ Forall2 P l ys.
Proof.
  induction 1 as [|a l (y & Hy & Py) _ (ys & H1 & H2)]; [exists []; split; constructor|].
  exists (y :: ys). split; constructor; assumption.
Qed.
Lemma each_all f l (P : atom -> atom -> Prop) : Forall (fun a => exists y, f a atom_fresh = Ok y /\ P a y) l ->
  exists ys, Forall2 P l ys /\ each f l 0 (Some (repeat atom_fresh (length l))) = Ok (Some ys).
Proof.
  intros H. destruct (choose_results f l P H) as (ys & H1 & H2). exists ys. split; [exact H2|].
  exact (each_ok f l ys H1 [] 0 eq_refl).
Qed.

(** sqrt, sin, log and the like: every member of the first argument is read as a
    double; the function's double for it is the member of the result. *)
Theorem C71_one_argument func E a more : members a <> [] -> Forall (fun m => exists x, number m x) (members a) ->
  exists rs, fn_1arg_dbl func E (a :: more) = Ok (0, Some rs) /\
    Forall2 (fun m r => exists x d, number m x /\ double_read m x d /\ r = set_double atom_fresh (func d)) (members a) rs.
Proof.
  intros Hne Hl. unfold fn_1arg_dbl. cbn [argv_at nth_error bind].
  destruct (alen a <? 1) eqn:L.
  { apply Z.ltb_lt in L. rewrite alen_members in L. destruct (members a); [congruence|]. rewrite zlen_cons in L.
    pose proof (zlen_nonneg l). lia. }
  rewrite aalloc_members. cbn [bind]. change (items a) with (members a).
  destruct (each_all (fun x r => do d <- au_double (e_double E) x; Ok (set_double r (func d))) (members a)
    (fun m r => exists x d, number m x /\ double_read m x d /\ r = set_double atom_fresh (func d))) as (ys & H1 & H2).
  { eapply Forall_impl; [|exact Hl]. intros m (x & N). destruct (double_read_ok (e_double E) m x N) as (d & Hd & R).
    exists (set_double atom_fresh (func d)). rewrite Hd. split; [reflexivity|]. exists x, d. split; [exact N|]. split; [exact R|reflexivity]. }
  exists ys. split; [|exact H1]. rewrite H2. reflexivity.
Qed.
Print Assumptions C71_one_argument.

(** An empty list is refused; without any argument the list that is not there is
    read (finding). *)
Theorem C71_one_argument_empty func E a more : members a = [] -> fn_1arg_dbl func E (a :: more) = Ok (1, None).
Proof. intros H. unfold fn_1arg_dbl. cbn [argv_at nth_error bind]. now rewrite alen_members, H. Qed.
Print Assumptions C71_one_argument_empty.
Theorem C71_no_argument_refuted func E : fn_1arg_dbl func E [] = Ub OOB.
Proof. reflexivity. Qed.
Print Assumptions C71_no_argument_refuted.

(** pow, atan2, fmod and the like work on the pairs of members (C39); a missing
    operand counts as 0. *)
Definition operands_numeric (p : option atom * option atom) : Prop :=
  forall m, fst p = Some m \/ snd p = Some m -> exists x, number m x.
Lemma given_ok E a : (forall m, a = Some m -> exists x, number m x) -> exists d, double_at E a = Ok d /\ double_given a d.
Proof.
  intros H. destruct a as [m|]; [|exists 0; split; reflexivity]. destruct (H m eq_refl) as (x & N).
  destruct (double_read_ok (e_double E) m x N) as (d & Hd & R). exists d. split; [exact Hd|]. exists x. split; assumption.
Qed.
Theorem C71_two_arguments func E a b : zlen (members a) < 2^31 -> zlen (members b) < 2^31 ->
  Forall operands_numeric (pairs (members a) (members b)) ->
  exists rs, fn_2arg_dbl func E [a; b] = Ok (0, Some rs) /\
    Forall2 (fun p r => exists d1 d2, double_given (fst p) d1 /\ double_given (snd p) d2 /\
      r = set_double atom_fresh (func d1 d2)) (pairs (members a) (members b)) rs.
Proof.
  intros La Lb H. unfold fn_2arg_dbl.
  assert (X : exists rs, Forall2 (fun p r => op_dbl func E (fst p) (snd p) atom_fresh = Ok (0, r)) (pairs (members a) (members b)) rs /\
    Forall2 (fun p r => exists d1 d2, double_given (fst p) d1 /\ double_given (snd p) d2 /\
      r = set_double atom_fresh (func d1 d2)) (pairs (members a) (members b)) rs).
  { induction H as [|p l Hp _ (rs & H1 & H2)]; [exists []; split; constructor|].
    destruct (given_ok E (fst p)) as (d1 & E1 & G1). { intros m Hm. apply Hp. now left. }
    destruct (given_ok E (snd p)) as (d2 & E2 & G2). { intros m Hm. apply Hp. now right. }
    exists (set_double atom_fresh (func d1 d2) :: rs). split; constructor; try assumption.
    - unfold op_dbl. rewrite E1, E2. reflexivity.
    - exists d1, d2. split; [exact G1|]. split; [exact G2|reflexivity]. }
  destruct X as (rs & H1 & H2). exists rs. split; [|exact H2]. exact (C39_elementwise E (op_dbl func) a b rs La Lb H1).
Qed.
Print Assumptions C71_two_arguments.
Theorem C71_two_arguments_arity func E argv : length argv <> 2%nat -> fn_2arg_dbl func E argv = Ok (1, None).
Proof. exact (C39_arity E (op_dbl func) argv). Qed.
Print Assumptions C71_two_arguments_arity.

(** ilogb gives int32s; jn and yn take the order from the first argument and the
    number from the second. *)
Theorem C71_ilogb ilogb E a : Forall (fun m => exists x, number m x) (members a) ->
  exists rs, fn_ilogb ilogb E [a] = Ok (0, Some rs) /\
    Forall2 (fun m r => exists x d, number m x /\ double_read m x d /\ r = set_u I32 atom_fresh (ilogb d)) (members a) rs.
Proof.
  intros Hl. unfold fn_ilogb. rewrite aalloc_members. cbn [bind]. change (items a) with (members a).
  destruct (each_all (fun x r => do d <- au_double (e_double E) x; Ok (set_int32 r (ilogb d))) (members a)
    (fun m r => exists x d, number m x /\ double_read m x d /\ r = set_u I32 atom_fresh (ilogb d))) as (ys & H1 & H2).
  { eapply Forall_impl; [|exact Hl]. intros m (x & N). destruct (double_read_ok (e_double E) m x N) as (d & Hd & R).
    exists (set_int32 atom_fresh (ilogb d)). rewrite Hd. split; [reflexivity|]. exists x, d. split; [exact N|]. split; [exact R|reflexivity]. }
  exists ys. split; [|exact H1]. rewrite H2. reflexivity.
Qed.
Print Assumptions C71_ilogb.
Theorem C71_order jn E a b n m ms k ks x : members a = n :: ms -> index n k -> members b = m :: ks -> number m x ->
  exists d, double_read m x d /\ fn_jn jn E [a; b] = Ok (0, Some [set_double atom_fresh (jn k d)]).
Proof.
  intros Ha (bb & t & Ho & Hk) Hb N. destruct (double_read_ok (e_double E) m x N) as (d & Hd & R). exists d. split; [exact R|].
  unfold fn_jn. rewrite aalloc_1. cbn [bind]. rewrite !aget_members by lia. rewrite Ha, Hb. cbn [Z.to_nat nth_error bind int32_at double_at].
  rewrite (operand_int32 _ _ _ _ Ho Hk), Hd. cbn [bind]. rewrite aput_1. reflexivity.
Qed.
Print Assumptions C71_order.
Theorem C71_arity f g E argv : (length argv <> 1%nat -> fn_ilogb f E argv = Ok (1, None)) /\
  (length argv <> 2%nat -> fn_jn g E argv = Ok (1, None)).
Proof. split; intros H; destruct argv as [|a [|b [|c l]]]; cbn in H; try reflexivity; congruence. Qed.
Print Assumptions C71_arity.

Definition a_double (bits : Z) : atom := set_double atom_fresh bits.
Example C71_case E func : exists r1 r2 d1,
  fn_1arg_dbl func E [Some [a_double (double_of_int 2); i32 3]] = Ok (0, Some [r1; r2]) /\
  r1 = set_double atom_fresh (func (double_of_int 2)) /\ real 52 11 d1 (Fin (inject_Z 3)) /\ r2 = set_double atom_fresh (func d1).
Proof.
  exists (set_double atom_fresh (func (double_of_int 2))), (set_double atom_fresh (func (double_of_int 3))), (double_of_int 3).
  split; [reflexivity|]. split; [reflexivity|]. split; [exact (real_int 3 ltac:(lia))|reflexivity].
Qed.
Example C71_hypotheses : Forall operands_numeric (pairs [a_double 0; i32 3] [i32 2]).
Proof.
  assert (N : forall z, in_type I32 z -> exists x, number (i32 z) x) by (intros z H; eexists; exact (i32_number z H)).
  assert (M : exists x, number (a_double 0) x) by (eexists; apply number_double; [lia|exact real_zero]).
  repeat constructor; intros m [H|H]; injection H as <-; try exact M; apply N; unfold in_type, width, signed; lia.
Qed.

(** * C72: sequences and running sums *)

(** The first member of a list. *)
Definition first (a : arr) (m : atom) : Prop := exists ms, members a = m :: ms.
Lemma first_get a m : first a m -> aget a 0 = Ok (Some m).
Proof. intros (ms & H). rewrite aget_members by lia. rewrite H. reflexivity. Qed.

(** The step: the third argument, if there is one, or one towards the end. *)
Definition step_given (more : list arr) (q0 q1 s : Q) : Prop :=
  match more with
  | [] => ((q0 < q1)%Q -> s = 1%Q) /\ ((q1 < q0)%Q -> s = (- (1))%Q)
  | a :: _ => exists m, first a m /\ number m (Fin s)
  end.
Definition third_floating (more : list arr) : bool :=
  match more with a :: _ => match members a with m :: _ => is_float (a_tt m) | [] => false end | [] => false end.

Lemma aseq_head E a0 a1 more m0 m1 q0 q1 s : nan_platform E -> first a0 m0 -> number m0 (Fin q0) ->
  first a1 m1 -> number m1 (Fin q1) -> ~ (q0 == q1)%Q -> step_given more q0 q1 s ->
  exists d0 ds dd, double_read m0 (Fin q0) d0 /\ real 52 11 ds (Fin s) /\ rounds 52 11 false (Qabs (q1 - q0)) dd /\
  fn_aseq E (a0 :: a1 :: more) =
    if Qlt_le_dec 0 (s * (q1 - q0)) then
      do q <- to_range (- 2^31) (2^31 - 1) (trunc64 (ddiv (e_nan E) dd (dfabs ds)));
      do n <- add_int q 1;
      do out <- aalloc n;
      do out <- (if is_float (a_tt m0) || is_float (a_tt m1) || third_floating more
                 then seq_double E (Z.to_nat n) 0 d0 ds out
                 else seq_int E (Z.to_nat n) 0 d0 ds out);
      Ok (0, out)
    else Ok (1, None).
Proof.
  intros Hn F0 N0 F1 N1 Ne St. unfold fn_aseq. rewrite (first_get _ _ F0), (first_get _ _ F1). cbn [bind].
  destruct (double_read_ok (e_double E) m0 _ N0) as (d0 & E0 & D0). destruct (double_read_ok (e_double E) m1 _ N1) as (d1 & E1 & D1).
  pose proof (proj1 D0) as R0. pose proof (proj1 D1) as R1.
  set (dir := dsign (dsub (e_nan E) d1 d0)).
  destruct (diff_sign (e_nan E) d0 d1 q0 q1 Hn R0 R1) as (Du & Dd). fold dir in Du, Dd.
  assert (Cases : (q0 < q1)%Q /\ dir = 1 \/ (q1 < q0)%Q /\ dir = -1).
  { destruct (Q_dec q0 q1) as [[L|L]|L]; [left|right|contradiction]; split; auto. }
  assert (X : exists x2 ds, match more with a2 :: _ => do x <- aget a2 0; Ok (Some x) | [] => Ok None end = Ok x2 /\
    match x2 with Some x2 => double_at E x2 | None => Ok (double_of_int dir) end = Ok ds /\ real 52 11 ds (Fin s) /\
    match x2 with Some x2 => is_float (tag_at x2) | None => false end = third_floating more).
  { destruct more as [|a2 more]; cbn [step_given] in St.
    - exists None, (double_of_int dir). split; [reflexivity|]. split; [reflexivity|]. split; [|reflexivity].
      destruct Cases as [(L & ->)|(L & ->)]; [rewrite (proj1 St L)|rewrite (proj2 St L)].
      + exact (real_int 1 ltac:(lia)).
      + exact (real_int (-1) ltac:(lia)).
    - destruct St as (m & F & N). destruct (double_read_ok (e_double E) m _ N) as (ds & Es & (Rs & _)).
      exists (Some (Some m)), ds. rewrite (first_get _ _ F). split; [reflexivity|]. split; [exact Es|]. split; [exact Rs|].
      destruct F as (ms & F). cbn [third_floating]. rewrite F. reflexivity. }
  destruct X as (x2 & ds & -> & Es & Rs & Tf). cbn [bind double_at tag_at]. rewrite E0, E1. cbn [bind].
  assert (De : deq d0 d1 = false).
  { destruct (deq d0 d1) eqn:De; [|reflexivity]. apply (deq_iff _ _ _ _ R0 R1) in De. contradiction. }
  rewrite De. fold dir. rewrite Es, Tf. cbn [bind].
  pose proof (dgt_iff _ _ _ _ R0 R1) as Dg. cbn [less] in Dg.
  assert (Y : exists dd, rounds 52 11 false (Qabs (q1 - q0)) dd /\
    dd = dsub (e_nan E) (if dgt d0 d1 then d0 else d1) (if dgt d0 d1 then d1 else d0)).
  { eexists. split; [|reflexivity]. destruct Cases as [(L & _)|(L & _)].
    - assert (dgt d0 d1 = false) as ->. { destruct (dgt d0 d1); [|reflexivity]. assert (q1 < q0)%Q by now apply Dg. lra. }
      destruct (sub_ok _ Hn _ _ _ _ R1 R0) as (sg & R). assert (sg = false) as ->.
      { destruct sg; [exfalso|reflexivity]. destruct R as (R & _). lra. }
      refine (rounds_ext _ _ _ _ _ _ _ R). rewrite Qabs_pos by lra. reflexivity.
    - assert (dgt d0 d1 = true) as -> by now apply Dg.
      destruct (sub_ok _ Hn _ _ _ _ R0 R1) as (sg & R). assert (sg = false) as ->.
      { destruct sg; [exfalso|reflexivity]. destruct R as (R & _). lra. }
      refine (rounds_ext _ _ _ _ _ _ _ R). rewrite Qabs_neg by lra. ring. }
  destruct Y as (dd & Rd & Ed). exists d0, ds, dd. split; [exact D0|]. split; [exact Rs|]. split; [exact Rd|]. rewrite <- Ed.
  destruct (dsign_ok ds s Rs) as (Z0 & Zm & Zp). pose proof (deq_iff _ _ _ _ Rs real_zero) as Dz. cbn [same] in Dz.
  destruct (Qlt_le_dec 0 (s * (q1 - q0))) as [L|L].
  - assert (K : dsign ds = dir /\ deq ds 0 = false).
    { destruct Cases as [(C & ->)|(C & ->)].
      - assert (P : (0 < s)%Q). { destruct (Qlt_le_dec 0 s) as [P|P]; [exact P|]. exfalso.
          assert (0 <= (- s) * (q1 - q0))%Q by (apply Qmult_le_0_compat; lra). lra. }
        split; [exact (Zp P)|]. destruct (deq ds 0); [|reflexivity]. assert (s == 0)%Q by now apply Dz. lra.
      - assert (P : (s < 0)%Q). { destruct (Qlt_le_dec s 0) as [P|P]; [exact P|]. exfalso.
          assert (0 <= s * (q0 - q1))%Q by (apply Qmult_le_0_compat; lra). lra. }
        split; [exact (Zm P)|]. destruct (deq ds 0); [|reflexivity]. assert (s == 0)%Q by now apply Dz. lra. }
    destruct K as (-> & ->). rewrite Z.eqb_refl. reflexivity.
  - destruct (deq ds 0) eqn:Dq; [reflexivity|].
    assert (K : dir =? dsign ds = false).
    { apply Z.eqb_neq. destruct Cases as [(C & ->)|(C & ->)]; intros K.
      - destruct (Q_dec s 0) as [[P|P]|P]; [rewrite (Zm P) in K; discriminate| |rewrite (Z0 P) in K; discriminate].
        assert (0 < s * (q1 - q0))%Q by (apply Qmult_lt_0_compat; lra). lra.
      - destruct (Q_dec s 0) as [[P|P]|P]; [|rewrite (Zp P) in K; discriminate|rewrite (Z0 P) in K; discriminate].
        assert (0 < (- s) * (q0 - q1))%Q by (apply Qmult_lt_0_compat; lra). lra. }
    rewrite K. reflexivity.
Qed.

(** Integers from the first argument's towards the second's in steps of the
    third's, or of one.  A step of 0 or in the wrong direction is refused; if
    there would be 2^31 members or more, the result is undefined. *)
Definition int_step (more : list arr) (v0 v1 s : Z) : Prop :=
  match more with [] => s = Z.sgn (v1 - v0) | a :: _ => exists m, first a m /\ index m s end.
Lemma index_number m v : index m v -> number m (Fin (inject_Z v)) /\ is_float (a_tt m) = false /\ Z.abs v <= 2^31.
Proof.
  intros (b & t & Ho & Hv). assert (B : Z.abs v <= 2^31) by (unfold in_type, signed, width in Hv; lia).
  split; [apply (number_int b t v m Ho); lia|]. split; [|exact B].
  rewrite (operand_tag _ _ _ _ Ho). destruct b; [destruct (v =? 0)|destruct t]; reflexivity.
Qed.
Theorem C72_sequence_integers E a0 a1 more m0 m1 v0 v1 s : nan_platform E ->
  first a0 m0 -> index m0 v0 -> first a1 m1 -> index m1 v1 -> v0 <> v1 -> int_step more v0 v1 s ->
  (Z.sgn s <> Z.sgn (v1 - v0) -> fn_aseq E (a0 :: a1 :: more) = Ok (1, None)) /\
  (Z.sgn s = Z.sgn (v1 - v0) -> Z.abs (v1 - v0) / Z.abs s + 1 < 2^31 -> exists zs,
     progression v0 s v1 zs /\ fn_aseq E (a0 :: a1 :: more) = Ok (0, Some (map (set_u I32 atom_fresh) zs))) /\
  (Z.sgn s = Z.sgn (v1 - v0) -> 2^31 <= Z.abs (v1 - v0) / Z.abs s + 1 -> fn_aseq E (a0 :: a1 :: more) = Ub Overflow).
Proof.
  intros Hn F0 I0 F1 I1 Ne St.
  destruct (index_number _ _ I0) as (N0 & T0 & B0). destruct (index_number _ _ I1) as (N1 & T1 & B1).
  assert (X : step_given more (inject_Z v0) (inject_Z v1) (inject_Z s) /\ third_floating more = false /\ Z.abs s <= 2^31).
  { destruct more as [|a more]; cbn [step_given int_step third_floating] in *.
    - subst s. split; [|split; [reflexivity|lia]]. split; intros L; rewrite <- Zlt_Qlt in L.
      + replace (Z.sgn (v1 - v0)) with 1 by lia. reflexivity.
      + replace (Z.sgn (v1 - v0)) with (-1) by lia. reflexivity.
    - destruct St as (m & F & I). destruct (index_number _ _ I) as (N & T & B). split; [exists m; now split|].
      destruct F as (ms & ->). split; [exact T|exact B]. }
  destruct X as (Sg & Tf & Bs).
  destruct (aseq_head E a0 a1 more m0 m1 (inject_Z v0) (inject_Z v1) (inject_Z s) Hn F0 N0 F1 N1) as
    (d0 & ds & dd & (R0 & _) & Rs & Rd & ->); [|exact Sg|].
  { intros K. exact (Ne (proj1 (inject_Z_injective v0 v1) K)). }
  assert (Sign : (0 < inject_Z s * (inject_Z v1 - inject_Z v0))%Q <-> 0 < s * (v1 - v0)).
  { setoid_replace (inject_Z s * (inject_Z v1 - inject_Z v0))%Q with (inject_Z (s * (v1 - v0))).
    - change 0%Q with (inject_Z 0). now rewrite <- Zlt_Qlt.
    - unfold Z.sub. rewrite inject_Z_mult, inject_Z_plus, inject_Z_opp. ring. }
  split; [|].
  { intros K. destruct (Qlt_le_dec _ _) as [L|L]; [exfalso|reflexivity]. apply Sign in L. apply K. nia. }
  assert (Hd : real 52 11 dd (Fin (inject_Z (Z.abs (v1 - v0))))).
  { apply (rounds_int false _ (Qabs (inject_Z v1 - inject_Z v0)) dd); [|lia|exact Rd].
    setoid_replace (inject_Z v1 - inject_Z v0)%Q with (inject_Z (v1 - v0))
      by (unfold Z.sub; rewrite inject_Z_plus, inject_Z_opp; ring).
    apply Qabs_case; intros L; change 0%Q with (inject_Z 0) in L; rewrite <- Zle_Qle in L.
    - now rewrite Z.abs_eq by lia.
    - rewrite Z.abs_neq by lia. now rewrite inject_Z_opp. }
  assert (Ha : real 52 11 (dfabs ds) (Fin (inject_Z (Z.abs s)))).
  { apply (real_same _ (Fin (Qabs (inject_Z s)))); [now apply dfabs_ok|]. cbn [same].
    apply Qabs_case; intros L; change 0%Q with (inject_Z 0) in L; rewrite <- Zle_Qle in L.
    - now rewrite Z.abs_eq by lia.
    - rewrite Z.abs_neq by lia. now rewrite inject_Z_opp. }
  assert (Main : Z.sgn s = Z.sgn (v1 - v0) -> 0 <= Z.abs (v1 - v0) / Z.abs s /\
    trunc64 (ddiv (e_nan E) dd (dfabs ds)) = Some (Z.abs (v1 - v0) / Z.abs s)).
  { intros K. assert (P : 0 <= Z.abs (v1 - v0) / Z.abs s) by (apply Z.div_pos; lia). split; [exact P|].
    destruct (div_floor (e_nan E) dd (dfabs ds) (Z.abs (v1 - v0)) (Z.abs s) Hn Hd Ha ltac:(lia) ltac:(lia)) as (q & Rq & Fl).
    destruct (real_trunc _ _ Rq) as (z & -> & T). f_equal.
    assert (Pq : (0 <= q)%Q). { eapply Qle_trans; [|exact (proj1 Fl)]. change 0%Q with (inject_Z 0). now rewrite <- Zle_Qle. }
    destruct T as (T & _). exact (floor_unique q _ _ (T Pq) Fl). }
  assert (Go : Z.sgn s = Z.sgn (v1 - v0) -> (0 < inject_Z s * (inject_Z v1 - inject_Z v0))%Q) by (intros K; apply Sign; nia).
  set (n := Z.abs (v1 - v0) / Z.abs s) in *. split; intros K L.
  - destruct (Qlt_le_dec _ _) as [G|G]; [|specialize (Go K); lra]. destruct (Main K) as (P & M). rewrite M.
    rewrite in_range by lia. cbn [bind]. unfold add_int.
    destruct (Z.leb_spec (- 2^31) (n + 1)); [|lia]. destruct (Z.ltb_spec (n + 1) (2^31)); [|lia]. cbn [andb bind].
    unfold aalloc. destruct (Z.ltb_spec (n + 1) 0); [lia|]. cbn [bind]. rewrite T0, T1, Tf. cbn [orb].
    pose proof (progression_ok v0 s v1 Ne ltac:(lia) ltac:(lia)) as Pr. fold n in Pr.
    exists (map (nth_term v0 s) (seq 0 (Z.to_nat (n + 1)))). split; [exact Pr|].
    pose proof (seq_int_ok E Hn ds s Rs Bs (Z.to_nat (n + 1)) 0 v0 d0 [] eq_refl R0) as Q. cbn [app] in Q.
    rewrite Q; [reflexivity|]. destruct Pr as (_ & Pr & _). eapply Forall_impl; [|exact Pr]. unfold between. intros z Hz.
    destruct I0 as (_ & _ & _ & I0), I1 as (_ & _ & _ & I1). unfold in_type, signed, width in I0, I1. lia.
  - destruct (Qlt_le_dec _ _) as [G|G]; [|specialize (Go K); lra]. destruct (Main K) as (P & M). rewrite M.
    destruct (Z.eq_dec n (2^31 - 1)) as [En|En].
    + rewrite En, in_range by lia. reflexivity.
    + rewrite above_range by lia. reflexivity.
Qed.
Print Assumptions C72_sequence_integers.

(** With a float or double among the three: the doubles got by adding the step
    again and again, one more of them than the whole steps between the ends. *)
Theorem C72_sequence E a0 a1 more m0 m1 q0 q1 s : nan_platform E ->
  first a0 m0 -> number m0 (Fin q0) -> first a1 m1 -> number m1 (Fin q1) -> ~ (q0 == q1)%Q -> step_given more q0 q1 s ->
  ((s * (q1 - q0) <= 0)%Q -> fn_aseq E (a0 :: a1 :: more) = Ok (1, None)) /\
  ((0 < s * (q1 - q0))%Q ->
   floating m0 \/ floating m1 \/ (exists a m, hd_error more = Some a /\ first a m /\ floating m) ->
   exists d0 dd xd dq, double_read m0 (Fin q0) d0 /\ rounds 52 11 false (Qabs (q1 - q0)) dd /\ real 52 11 dd xd /\
     quotient_is xd (Fin (Qabs s)) dq /\
     (forall q z, real 52 11 dq (Fin q) -> truncates_to q z -> z + 1 < 2^31 -> exists ds,
        steps (Fin s) d0 ds /\ zlen ds = z + 1 /\
        fn_aseq E (a0 :: a1 :: more) = Ok (0, Some (map (set_double atom_fresh) ds))) /\
     (forall q z, real 52 11 dq (Fin q) -> truncates_to q z -> 2^31 <= z + 1 -> fn_aseq E (a0 :: a1 :: more) = Ub Overflow) /\
     (dq = infinity 52 11 false -> fn_aseq E (a0 :: a1 :: more) = Ub Overflow)).
Proof.
  intros Hn F0 N0 F1 N1 Ne St.
  destruct (aseq_head E a0 a1 more m0 m1 q0 q1 s Hn F0 N0 F1 N1 Ne St) as (d0 & ds & dd & D0 & Rs & Rd & ->).
  split. { intros L. destruct (Qlt_le_dec _ _) as [G|G]; [lra|reflexivity]. }
  intros L Fl. assert (Ff : is_float (a_tt m0) || is_float (a_tt m1) || third_floating more = true).
  { destruct Fl as [Fl|[Fl|(a & m & H1 & (ms & H2) & Fl)]].
    - now rewrite (floating_tag _ Fl).
    - rewrite (floating_tag _ Fl). apply orb_true_iff. left. apply orb_true_r.
    - destruct more as [|a' more]; [discriminate|]. injection H1 as ->. cbn [third_floating]. rewrite H2, (floating_tag _ Fl). apply orb_true_r. }
  destruct (Qlt_le_dec _ _) as [G|G]; [|lra]. rewrite Ff.
  destruct (rounds_real _ _ _ Rd) as (xd & Rx). exists d0, dd, xd, (ddiv (e_nan E) dd (dfabs ds)).
  split; [exact D0|]. split; [exact Rd|]. split; [exact Rx|].
  split. { apply (div_ok _ Hn _ _ _ _ Rx (dfabs_ok _ _ Rs)). cbn [same]. intros Z0.
    assert (s == 0)%Q. { revert Z0. apply Qabs_case; intros; lra. } rewrite H in L. lra. }
  split; [|split].
  - intros q z Rq T B. destruct (real_trunc _ _ Rq) as (z' & -> & T'). rewrite (truncates_unique _ _ _ T T') in *. clear z T. rename z' into z.
    assert (Pz : 0 <= z).
    { (* the quotient of a positive number *)
      assert (Pq : (0 <= q)%Q).
      { apply (nonneg_quotient (e_nan E) Hn dd (dfabs ds) (Qabs (q1 - q0)) (Qabs s) q Rd).
        - revert Ne. apply Qabs_case; intros; lra.
        - apply dfabs_ok, Rs.
        - assert (~ (s == 0)%Q) by (intros Z0; rewrite Z0 in L; lra). revert H. apply Qabs_case; intros; lra.
        - exact Rq. }
      destruct T' as (T' & _). destruct (T' Pq) as (_ & T2). assert (X : (inject_Z 0 < inject_Z (z + 1))%Q) by (change (inject_Z 0) with 0%Q; lra).
      rewrite <- Zlt_Qlt in X. lia. }
    rewrite in_range by lia. cbn [bind]. unfold add_int.
    destruct (Z.leb_spec (- 2^31) (z + 1)); [|lia]. destruct (Z.ltb_spec (z + 1) (2^31)); [|lia]. cbn [andb bind].
    unfold aalloc. destruct (Z.ltb_spec (z + 1) 0); [lia|]. cbn [bind].
    destruct (seq_double_ok E Hn ds _ Rs (Z.to_nat (z + 1)) 0 d0 _ [] eq_refl (proj1 D0)) as (l & S1 & S2 & S3).
    exists l. split; [exact S1|]. split; [unfold zlen; rewrite S2; lia|]. cbn [app] in S3. rewrite S3. reflexivity.
  - intros q z Rq T B. destruct (real_trunc _ _ Rq) as (z' & -> & T'). rewrite (truncates_unique _ _ _ T T') in *.
    destruct (Z.eq_dec z' (2^31 - 1)) as [En|En].
    + rewrite En, in_range by lia. reflexivity.
    + rewrite above_range by lia. reflexivity.
  - intros Eq. rewrite Eq. reflexivity.
Qed.
Print Assumptions C72_sequence.

(** Equal ends give the first argument's first member, whatever the step. *)
Theorem C72_sequence_equal E a0 a1 more m0 m1 x0 x1 : first a0 m0 -> number m0 x0 -> first a1 m1 -> number m1 x1 -> same x0 x1 ->
  fn_aseq E (a0 :: a1 :: more) = Ok (0, Some [m0]).
Proof.
  intros F0 N0 F1 N1 Sm. unfold fn_aseq. rewrite (first_get _ _ F0), (first_get _ _ F1). cbn [bind].
  destruct (double_read_ok (e_double E) m0 _ N0) as (d0 & E0 & (R0 & _)). destruct (double_read_ok (e_double E) m1 _ N1) as (d1 & E1 & (R1 & _)).
  assert (X : exists x2, match more with a2 :: _ => do x <- aget a2 0; Ok (Some x) | [] => Ok None end = Ok x2).
  { destruct more as [|a2 more]; [now exists None|]. rewrite aget_members by lia. eexists. reflexivity. }
  destruct X as (x2 & ->). cbn [bind double_at]. rewrite E0, E1. cbn [bind].
  assert (deq d0 d1 = true) as -> by now apply (deq_iff _ _ _ _ R0 R1).
  rewrite aalloc_1. cbn [bind]. rewrite aput_1. cbn [copy_into]. rewrite (copy_number m0 x0 N0). reflexivity.
Qed.
Print Assumptions C72_sequence_equal.
Theorem C72_sequence_arity E argv : (length argv < 2)%nat -> fn_aseq E argv = Ok (1, None).
Proof. intros H. destruct argv as [|a [|b l]]; cbn in H; try reflexivity. lia. Qed.
Print Assumptions C72_sequence_arity.

Example C72_sequence_case E : nan_platform E -> fn_aseq E [Some [i32 10]; Some [i32 1]; Some [i32 (-4)]] =
  Ok (0, Some [i32 10; i32 6; i32 2]).
Proof.
  intros Hn. assert (I : forall z, in_type I32 z -> index (i32 z) z) by (intros z H; exists false, I32; split; [now constructor|exact H]).
  destruct (C72_sequence_integers E (Some [i32 10]) (Some [i32 1]) [Some [i32 (-4)]] (i32 10) (i32 1) 10 1 (-4)) as (_ & C & _);
    [exact Hn|now exists []|apply I; unfold in_type, signed, width; lia|now exists []|apply I; unfold in_type, signed, width; lia|lia| |].
  { exists (i32 (-4)). split; [now exists []|apply I; unfold in_type, signed, width; lia]. }
  destruct (C eq_refl eq_refl) as (zs & (P1 & P2 & P3) & R). refine (eq_trans R _). clear R.
  assert (L : zs = [10; 6; 2]); [|now rewrite L].
  destruct zs as [|a [|b [|c [|d zs]]]].
  - exfalso. apply P3. right. change (zlen []) with 0. lia.
  - exfalso. apply P3. right. change (zlen [a]) with 1. lia.
  - exfalso. apply P3. right. change (zlen [a; b]) with 2. lia.
  - rewrite (P1 0%nat a eq_refl), (P1 1%nat b eq_refl), (P1 2%nat c eq_refl). reflexivity.
  - exfalso. pose proof (P1 3%nat d eq_refl) as E3. rewrite Forall_forall in P2. specialize (P2 d ltac:(right; right; right; now left)).
    unfold between in P2. lia.
Qed.

(** ** cumsum *)

Lemma lens_value argv : forall acc, 0 <= acc -> acc + zlen (concat (map members argv)) < 2^31 ->
  int_lens acc argv = Ok (acc + zlen (concat (map members argv))).
Proof.
  induction argv as [|a argv IH]; intros acc H0 H; cbn [int_lens map concat].
  - change (zlen (@nil atom)) with 0. now rewrite Z.add_0_r.
  - cbn [map concat] in H. rewrite zlen_app in H |- *. pose proof (zlen_nonneg (members a)). pose proof (zlen_nonneg (concat (map members argv))).
    rewrite alen_members. unfold add_int.
    destruct (Z.leb_spec (- 2^31) (acc + zlen (members a))); [|lia]. destruct (Z.ltb_spec (acc + zlen (members a)) (2^31)); [|lia].
    cbn [andb bind]. rewrite IH by lia. f_equal. lia.
Qed.

Lemma pair_l {A B} (R : A -> B -> Prop) l l' a : Forall2 R l l' -> In a l -> exists b, In b l' /\ R a b.
Proof.
  induction 1 as [|x y l l' H _ IH]; [intros []|]. intros [<-|K]; [exists y; split; [now left|exact H]|].
  destruct (IH K) as (b & Hb & Rb). exists b. split; [now right|exact Rb].
Qed.
Lemma pair_impl {A B} (R R' : A -> B -> Prop) l l' : (forall a b, R a b -> R' a b) -> Forall2 R l l' -> Forall2 R' l l'.
Proof. intros H. induction 1; constructor; auto. Qed.
Lemma pair_r {A B} (R : A -> B -> Prop) l l' b : Forall2 R l l' -> In b l' -> exists a, In a l /\ R a b.
Proof.
  induction 1 as [|x y l l' H _ IH]; [intros []|]. intros [<-|K]; [exists x; split; [now left|exact H]|].
  destruct (IH K) as (a & Ha & Ra). exists a. split; [now right|exact Ra].
Qed.

(** The result of the running sum of [zs] in type [t]. *)
Definition running_sums (t : ity) (zs : list Z) (rs : list atom) : Prop :=
  length rs = length zs /\
  forall k r, nth_error rs k = Some r -> exists s, converted t (sum (firstn (S k) zs)) s /\ r = set_u t atom_fresh s.

(** The running sums of all members of all arguments have the largest of the
    types; they are modulo its size, but undefined if one is out of the range of
    int32 or int64. *)
Theorem C72_running_sums F E argv ps t : zlen (concat (map members argv)) < 2^31 ->
  Forall2 (fun m p => counted m (fst p) (snd p)) (concat (map members argv)) ps -> is_largest t (map fst ps) ->
  let zs := map snd ps in
  let sums_fit := forall k, (k < length zs)%nat -> in_type t (sum (firstn (S k) zs)) in
  ((traps t -> sums_fit) -> exists rs, fn_cumsum F E argv = Ok (0, Some rs) /\ running_sums t zs rs) /\
  (traps t -> ~ sums_fit -> fn_cumsum F E argv = Ub Overflow).
Proof.
  intros Hl Hc (Hin & Hmax) zs sums_fit. unfold fn_cumsum. change (concat (map items argv)) with (concat (map members argv)).
  set (l := concat (map members argv)) in *.
  rewrite lens_value by (try exact Hl; lia). fold l. cbn [bind Z.add]. rewrite aalloc_len. cbn [bind].
  assert (Code : largest_sum_type l 0 = sum_code t).
  { apply largest_sum_max.
    - intros a Ha. destruct (pair_l _ _ _ _ Hc Ha) as (p & Hp & C).
      rewrite (sum_type_counted _ _ _ C). apply sum_code_le, Hmax, in_map, Hp.
    - unfold sum_code. destruct t; cbn; lia.
    - right. apply in_map_iff in Hin. destruct Hin as (p & Ep & Hp). destruct (pair_r _ _ _ _ Hc Hp) as (a & Ha & C).
      exists a. split; [exact Ha|]. rewrite (sum_type_counted _ _ _ C). now rewrite Ep. }
  assert (Run : forall out, (if largest_sum_type l 0 =? 1 then running (plus au_int8 (fun v => Ok (s8 v))) set_int8 l 0 0 out
     else if largest_sum_type l 0 =? 2 then running (plus au_uint8 (fun v => Ok (u8 v))) set_uint8 l 0 0 out
     else if largest_sum_type l 0 =? 4 then running (plus au_int16 (fun v => Ok (s16 v))) set_int16 l 0 0 out
     else if largest_sum_type l 0 =? 8 then running (plus au_uint16 (fun v => Ok (u16 v))) set_uint16 l 0 0 out
     else if largest_sum_type l 0 =? 32 then running (plus au_uint32 (fun v => Ok (u32 v))) set_uint32 l 0 0 out
     else if largest_sum_type l 0 =? 64 then running (plus au_int64 (checked 64)) set_int64 l 0 0 out
     else if largest_sum_type l 0 =? 128 then running (plus au_uint64 (fun v => Ok (u64 v))) set_uint64 l 0 0 out
     else if largest_sum_type l 0 =? 256 then
       running (fun s a => do v <- au_float (s_float F) a; Ok (ieee_add 23 8 (s_nan F) s v)) set_float l 0 0 out
     else if largest_sum_type l 0 =? 512 then
       running (fun s a => do v <- au_double (e_double E) a; Ok (dadd (e_nan E) s v)) set_double l 0 0 out
     else running (plus au_int32 (checked 32)) set_int32 l 0 0 out) = running (plus (get_u t) (fin_sum t)) (set_u t) l 0 0 out).
  { intros out. rewrite Code. destruct t; reflexivity. }
  rewrite Run. clear Run Code.
  assert (Z0 : in_type t 0) by (destruct t; unfold in_type, signed, width; lia).
  assert (Hz : Forall2 (fun m z => get_u t m = Ok (wrap t z) /\ (traps t -> in_type t z)) l zs).
  { unfold zs. clear - Hc Hmax. induction Hc as [|a p l ps C _ IH]; constructor.
    - split; [exact (counted_get _ _ _ t C)|]. intros T.
      exact (in_larger (fst p) t (snd p) T (Hmax _ (or_introl eq_refl)) (counted_in _ _ _ C)).
    - apply IH. intros t' H. apply Hmax. now right. }
  split.
  - intros Fit.
    destruct (running_ok t l zs) with (done := @nil atom) (acc := 0) as (cs & H1 & H2 & H3).
    + refine (pair_impl _ _ _ _ _ Hz). intros m z (G & W). split; [exact G|]. intros T. apply wrap_id, W, T.
    + intros T. split; [exact Z0|]. intros k Hk. exact (Fit T k Hk).
    + rewrite (wrap_id t 0 Z0) in H1. cbn [app] in H1. change (zlen (@nil atom)) with 0 in H1.
      exists (map (set_u t atom_fresh) cs). rewrite H1. split; [reflexivity|]. split; [now rewrite map_length|].
      intros k r Hr. rewrite nth_error_map in Hr. destruct (nth_error cs k) as [s|] eqn:Es; [|discriminate]. injection Hr as <-.
      exists s. rewrite (H3 k s Es). split; [exact (converted_wrap t _)|reflexivity].
  - intros T Nf.
    assert (X : exists k, (k < length zs)%nat /\ ~ in_type t (sum (firstn (S k) zs))).
    { assert (D : forall n, (n <= length zs)%nat -> (forall k, (k < n)%nat -> in_type t (sum (firstn (S k) zs))) \/
        exists k, (k < length zs)%nat /\ ~ in_type t (sum (firstn (S k) zs))).
      { induction n as [|n IH]; intros Hn; [left; intros k Hk; lia|]. destruct (IH ltac:(lia)) as [H|H]; [|now right].
        assert (Dn : in_type t (sum (firstn (S n) zs)) \/ ~ in_type t (sum (firstn (S n) zs))) by (unfold in_type; destruct (signed t); lia).
        destruct Dn as [Dn|Dn]; [left|right; now exists n]. intros k Hk. destruct (Nat.eq_dec k n) as [->|]; [exact Dn|apply H; lia]. }
      destruct (D (length zs) (le_n _)) as [H|H]; [exfalso; exact (Nf H)|exact H]. }
    destruct X as (k & Hk & Nk).
    pose proof (running_over t l zs T) as R. specialize (R ltac:(refine (pair_impl _ _ _ _ _ Hz); intros m z (G & W); rewrite (wrap_id t z (W T)) in G; split; [exact G|exact (W T)])
      [] 0 k Z0 Hk Nk). cbn [app] in R. change (zlen (@nil atom)) with 0 in R. rewrite R. reflexivity.
Qed.
Print Assumptions C72_running_sums.

(** With a double among the members: sums in double precision. *)
Theorem C72_running_doubles F E argv xs : nan_platform E -> zlen (concat (map members argv)) < 2^31 ->
  Forall2 number (concat (map members argv)) xs -> Exists (fun m => a_tt m = 100) (concat (map members argv)) ->
  exists ds, fn_cumsum F E argv = Ok (0, Some (map (set_double atom_fresh) ds)) /\ double_sums 0 xs ds.
Proof.
  intros Hn Hl Hx He. unfold fn_cumsum. change (concat (map items argv)) with (concat (map members argv)).
  set (l := concat (map members argv)) in *.
  rewrite lens_value by (try exact Hl; lia). fold l. cbn [bind Z.add]. rewrite aalloc_len. cbn [bind].
  assert (Code : largest_sum_type l 0 = 512).
  { apply largest_sum_max; [|lia|].
    - intros a _. unfold sum_type. repeat (destruct (_ =? _); [lia|]). lia.
    - right. apply Exists_exists in He. destruct He as (a & Ha & T). exists a. split; [exact Ha|]. rewrite T. reflexivity. }
  rewrite Code. cbn [Z.eqb Pos.eqb].
  destruct (running_double E Hn l xs Hx [] 0 _ real_zero) as (ds & H1 & H2). exists ds. split; [|exact H2].
  cbn [app] in H1. change (zlen (@nil atom)) with 0 in H1. rewrite H1. reflexivity.
Qed.
Print Assumptions C72_running_doubles.
(** With a float and no double: sums in single precision. *)
Theorem C72_running_floats F E argv qs : zlen (concat (map members argv)) < 2^31 ->
  Forall2 single_number (concat (map members argv)) qs -> Exists (fun m => a_tt m = 102) (concat (map members argv)) ->
  exists ds, fn_cumsum F E argv = Ok (0, Some (map (set_float atom_fresh) ds)) /\ float_sums 0 qs ds.
Proof.
  intros Hl Hx He. unfold fn_cumsum. change (concat (map items argv)) with (concat (map members argv)).
  set (l := concat (map members argv)) in *.
  rewrite lens_value by (try exact Hl; lia). fold l. cbn [bind Z.add]. rewrite aalloc_len. cbn [bind].
  assert (Code : largest_sum_type l 0 = 256).
  { apply largest_sum_max; [|lia|].
    - clear - Hx. induction Hx as [|a q l qs Ha _ IH]; [intros b []|]. intros b [<-|Hb]; [|exact (IH b Hb)].
      destruct Ha as [b' t z a' Ho _|a' bits q' _ _].
      + rewrite (operand_tag _ _ _ _ Ho). destruct b'; [destruct (z =? 0)|destruct t]; cbn; lia.
      + destruct a'; cbn; lia.
    - right. apply Exists_exists in He. destruct He as (a & Ha & T). exists a. split; [exact Ha|]. rewrite T. reflexivity. }
  rewrite Code. cbn [Z.eqb Pos.eqb].
  destruct (running_float F l qs Hx [] 0) as (ds & H1 & H2). exists ds. split; [|exact H2].
  cbn [app] in H1. change (zlen (@nil atom)) with 0 in H1. rewrite H1. reflexivity.
Qed.
Print Assumptions C72_running_floats.
Theorem C72_running_empty F E argv : concat (map members argv) = [] -> fn_cumsum F E argv = Ok (0, Some []).
Proof.
  intros H. unfold fn_cumsum. change (concat (map items argv)) with (concat (map members argv)).
  rewrite lens_value by (rewrite ?H; cbn; lia). rewrite H. reflexivity.
Qed.
Print Assumptions C72_running_empty.

Example C72_sums_case F E : exists rs, fn_cumsum F E [Some [i32 4; set_u I8 atom_fresh (-7)]; Some [set_true atom_fresh]] = Ok (0, Some rs) /\
  running_sums I32 [4; -7; 1] rs.
Proof.
  apply (C72_running_sums F E [Some [i32 4; set_u I8 atom_fresh (-7)]; Some [set_true atom_fresh]] [(I32, 4); (I8, -7); (I32, 1)] I32).
  - cbn. lia.
  - cbn [map members concat app]. constructor; [|constructor; [|constructor; [|constructor]]]; cbn [fst snd].
    + left. constructor. unfold in_type, signed, width. lia.
    + left. constructor. unfold in_type, signed, width. lia.
    + right. split; [constructor|reflexivity].
  - split; [now left|]. intros t' [<-|[<-|[<-|[]]]]; cbn; lia.
  - intros _ k Hk. destruct k as [|[|[|k]]]; cbn in Hk |- *; try lia; unfold in_type, signed, width; lia.
Qed.
Example C72_sums_overflow F E : fn_cumsum F E [Some [i32 (2^31 - 1); i32 1]] = Ub Overflow.
Proof. reflexivity. Qed.

(** * C73: bits and bytes *)

(** An integer of type [t]. *)
Definition integer (m : atom) (t : ity) (v : Z) : Prop := operand false t v m.
Lemma integer_tag m t v : integer m t v -> a_tt m = tag_of t.
Proof. intros H. exact (operand_tag _ _ _ _ H). Qed.
Lemma integer_is m t v : integer m t v -> is_int_tag (a_tt m) = true.
Proof. intros H. rewrite (integer_tag _ _ _ H). destruct t; reflexivity. Qed.

(** The first members are combined; the result's type is the largest among all
    members of the two lists, except that what should be a uint8 is an int8
    (finding). *)
Lemma bits_ok op f a b x y ts t t1 v1 t2 v2 : bit_op op f -> first a x -> integer x t1 v1 -> first b y -> integer y t2 v2 ->
  Forall2 (fun m t => exists v, integer m t v) (members a ++ members b) ts -> is_largest t ts ->
  exists r, let t' := match t with U8 => I8 | _ => t end in
    bitwise f t' v1 v2 r /\ fn_bits op [a; b] = Ok (0, Some [set_u t' atom_fresh r]).
Proof.
  intros Hb Fa Ix Fb Iy Hts Hl. unfold fn_bits. rewrite (first_get _ _ Fa), (first_get _ _ Fb). cbn [bind].
  rewrite (integer_is _ _ _ Ix), (integer_is _ _ _ Iy). cbn [negb orb]. rewrite aalloc_1. cbn [bind].
  assert (L : largest_of [a; b] = Ok (tag_of t)).
  { unfold largest_of. apply (largest_int _ ts); [|exact Hl]. cbn [map concat]. rewrite app_nil_r.
    change (items a) with (members a). change (items b) with (members b). rewrite <- map_app. clear - Hts.
    induction Hts as [|m t l ts (v & H) _ IH]; constructor; [exact (integer_tag _ _ _ H)|exact IH]. }
  rewrite L. cbn [bind]. rewrite aput_1.
  pose proof (fun t => operand_get _ _ _ _ t Ix) as Gx. pose proof (fun t => operand_get _ _ _ _ t Iy) as Gy.
  assert (Step : forall t, bit_case op (get_u t) (set_u t) x y atom_fresh = Ok (set_u t atom_fresh (op (wrap t v1) (wrap t v2)))).
  { intros t0. unfold bit_case. rewrite Gx, Gy. reflexivity. }
  destruct t; cbv zeta.
  - pose proof (Step I8) as G. eexists. split; [exact (bit_op_ok op f I8 v1 v2 Hb)|]. cbn [tag_of Z.eqb Pos.eqb]. cbn [get_u set_u] in G. rewrite G. reflexivity.
  - pose proof (Step I16) as G. eexists. split; [exact (bit_op_ok op f I16 v1 v2 Hb)|]. cbn [tag_of Z.eqb Pos.eqb]. cbn [get_u set_u] in G. rewrite G. reflexivity.
  - pose proof (Step I32) as G. eexists. split; [exact (bit_op_ok op f I32 v1 v2 Hb)|]. cbn [tag_of Z.eqb Pos.eqb]. cbn [get_u set_u] in G. rewrite G. reflexivity.
  - pose proof (Step I64) as G. eexists. split; [exact (bit_op_ok op f I64 v1 v2 Hb)|]. cbn [tag_of Z.eqb Pos.eqb]. cbn [get_u set_u] in G. rewrite G. reflexivity.
  - exists (s8 (op (wrap U8 v1) (wrap U8 v2))). split.
    + destruct (bit_op_ok op f U8 v1 v2 Hb) as (_ & Bits). split; [exact (proj1 (converted_wrap I8 _))|].
      intros n Hn. rewrite <- (Bits n Hn). exact (bit_wrap I8 _ n Hn).
    + cbn [tag_of Z.eqb Pos.eqb]. unfold bit_case. pose proof (Gx U8) as G1. pose proof (Gy U8) as G2. cbn [get_u] in G1, G2.
      rewrite G1, G2. reflexivity.
  - pose proof (Step U16) as G. eexists. split; [exact (bit_op_ok op f U16 v1 v2 Hb)|]. cbn [tag_of Z.eqb Pos.eqb]. cbn [get_u set_u] in G. rewrite G. reflexivity.
  - pose proof (Step U32) as G. eexists. split; [exact (bit_op_ok op f U32 v1 v2 Hb)|]. cbn [tag_of Z.eqb Pos.eqb]. cbn [get_u set_u] in G. rewrite G. reflexivity.
  - pose proof (Step U64) as G. eexists. split; [exact (bit_op_ok op f U64 v1 v2 Hb)|]. cbn [tag_of Z.eqb Pos.eqb]. cbn [get_u set_u] in G. rewrite G. reflexivity.
Qed.
Theorem C73_and a b x y ts t t1 v1 t2 v2 : first a x -> integer x t1 v1 -> first b y -> integer y t2 v2 ->
  Forall2 (fun m t => exists v, integer m t v) (members a ++ members b) ts -> is_largest t ts ->
  exists r, let t' := match t with U8 => I8 | _ => t end in
    bitwise andb t' v1 v2 r /\ fn_bitand [a; b] = Ok (0, Some [set_u t' atom_fresh r]).
Proof. exact (bits_ok Z.land andb a b x y ts t t1 v1 t2 v2 and_bits). Qed.
Print Assumptions C73_and.
Theorem C73_or a b x y ts t t1 v1 t2 v2 : first a x -> integer x t1 v1 -> first b y -> integer y t2 v2 ->
  Forall2 (fun m t => exists v, integer m t v) (members a ++ members b) ts -> is_largest t ts ->
  exists r, let t' := match t with U8 => I8 | _ => t end in
    bitwise orb t' v1 v2 r /\ fn_bitor [a; b] = Ok (0, Some [set_u t' atom_fresh r]).
Proof. exact (bits_ok Z.lor orb a b x y ts t t1 v1 t2 v2 or_bits). Qed.
Print Assumptions C73_or.
(** Anything but two lists that begin with integers is refused. *)
Theorem C73_bits_refused op argv :
  ~ (exists a b x y, argv = [a; b] /\ first a x /\ first b y /\ is_int_tag (a_tt x) = true /\ is_int_tag (a_tt y) = true) ->
  fn_bits op argv = Ok (1, None).
Proof.
  intros H. unfold fn_bits. destruct argv as [|a [|b [|c l]]]; try reflexivity. rewrite !aget_members by lia.
  cbn [bind Z.to_nat]. destruct (members a) as [|x xs] eqn:Ea; [reflexivity|]. destruct (members b) as [|y ys] eqn:Eb; [reflexivity|].
  cbn [nth_error]. destruct (is_int_tag (a_tt x)) eqn:Tx; [|reflexivity]. destruct (is_int_tag (a_tt y)) eqn:Ty; [|reflexivity].
  exfalso. apply H. exists a, b, x, y. split; [reflexivity|]. split; [now exists xs|]. split; [now exists ys|]. split; assumption.
Qed.
Print Assumptions C73_bits_refused.
(** Findings: of two uint8 the result is a negative int8; a float among the
    members that are not looked at leaves the result without type. *)
Theorem C73_uint8_refuted :
  fn_bitand [Some [set_u U8 atom_fresh 200]; Some [set_u U8 atom_fresh 200]] = Ok (0, Some [set_u I8 atom_fresh (-56)]).
Proof. reflexivity. Qed.
Print Assumptions C73_uint8_refuted.
Theorem C73_ignored_member_refuted :
  fn_bitand [Some [i32 1; set_float atom_fresh 0]; Some [i32 3]] = Ok (0, Some [atom_fresh]).
Proof. reflexivity. Qed.
Print Assumptions C73_ignored_member_refuted.
Example C73_bits_case : exists r, bitwise andb I32 12 10 r /\ fn_bitand [Some [i32 12]; Some [i32 10]] = Ok (0, Some [i32 r]).
Proof.
  apply (C73_and (Some [i32 12]) (Some [i32 10]) (i32 12) (i32 10) [I32; I32] I32 I32 12 I32 10).
  - now exists [].
  - constructor. unfold in_type, signed, width. lia.
  - now exists [].
  - constructor. unfold in_type, signed, width. lia.
  - cbn [members app]. constructor; [|constructor; [|constructor]]; eexists; constructor; unfold in_type, signed, width.
    + lia.
    + lia.
  - split; [now left|]. intros t [<-|[<-|[]]]; cbn; lia.
Qed.

(** Byte order: each member, of at most 32 bits, becomes the int32 or uint32 with
    its bytes reversed. *)
Lemma from_all_ok f argv (P : atom -> atom -> Prop) : zlen (concat (map members argv)) < 2^31 ->
  Forall (fun a => exists y, f a atom_fresh = Ok y /\ P a y) (concat (map members argv)) ->
  exists rs, from_all f argv = Ok (0, Some rs) /\ Forall2 P (concat (map members argv)) rs.
Proof.
  intros Hl H. unfold from_all. change (concat (map items argv)) with (concat (map members argv)).
  set (l := concat (map members argv)) in *. rewrite lens_value by (try exact Hl; lia). fold l. cbn [bind Z.add].
  rewrite aalloc_len. cbn [bind]. destruct (each_all f l P H) as (ys & H1 & H2). exists ys. rewrite H2. split; [reflexivity|exact H1].
Qed.
Definition word32 (t : ity) : ity := if signed t then I32 else U32.
Definition word64 (t : ity) : ity := if signed t then I64 else U64.
Lemma swap32_one_ok m t v : integer m t v -> width t <= 32 ->
  exists r, swap32_one swap32 m atom_fresh = Ok (set_u (word32 t) atom_fresh r) /\ reversed (word32 t) v r.
Proof.
  intros I W. unfold swap32_one. rewrite (integer_tag _ _ _ I).
  pose proof (operand_get _ _ _ _ I32 I) as GI. pose proof (operand_get _ _ _ _ U32 I) as GU. cbn [get_u] in GI, GU.
  pose proof (reversed32 I32 v eq_refl) as RI. pose proof (reversed32 U32 v eq_refl) as RU.
  assert (K : u32 (wrap I32 v) = wrap U32 v).
  { apply (converted_unique U32 v); [|exact (converted_wrap U32 v)]. apply (converted_congr U32 (wrap I32 v)); [exact (converted_wrap U32 _)|].
    destruct (wrap_congr I32 v) as (k & ->). change (width I32) with 32. change (width U32) with 32.
    replace (v - (v + 2^32 * k)) with (- k * 2^32) by lia. now apply Z.mod_mul. }
  destruct t; cbn [width] in W; try lia; cbn [tag_of Z.eqb Pos.eqb orb]; rewrite ?GI, ?GU; cbn [bind]; rewrite ?K; eexists;
    (split; [reflexivity|]); first [exact RI|exact RU].
Qed.
Theorem C73_bytes32 argv : zlen (concat (map members argv)) < 2^31 ->
  Forall (fun m => exists t v, integer m t v /\ width t <= 32) (concat (map members argv)) ->
  exists rs, fn_hton32 argv = Ok (0, Some rs) /\ fn_ntoh32 argv = Ok (0, Some rs) /\
    Forall2 (fun m r => exists t v w, integer m t v /\ reversed (word32 t) v w /\ r = set_u (word32 t) atom_fresh w)
      (concat (map members argv)) rs.
Proof.
  intros Hl H. unfold fn_hton32, fn_ntoh32, hton32, ntoh32.
  destruct (from_all_ok (swap32_one swap32) argv
    (fun m r => exists t v w, integer m t v /\ reversed (word32 t) v w /\ r = set_u (word32 t) atom_fresh w) Hl) as (rs & H1 & H2).
  { eapply Forall_impl; [|exact H]. intros m (t & v & I & W). destruct (swap32_one_ok m t v I W) as (r & E & R).
    exists (set_u (word32 t) atom_fresh r). split; [exact E|]. exists t, v, r. split; [exact I|]. split; [exact R|reflexivity]. }
  exists rs. split; [exact H1|]. split; [exact H1|exact H2].
Qed.
Print Assumptions C73_bytes32.

Lemma to_host64 t v : width t = 64 -> reversed t v (wrap t (ntoh64 (wrap U64 v))).
Proof. exact (reversed64 t v). Qed.
Lemma to_network64 t v : width t = 64 -> reversed t v (wrap t (hton64 (wrap U64 v))).
Proof. exact (reversed64 t v). Qed.

(** 64 bits: ntoh64 keeps the sign, hton64 always gives a uint64 (finding). *)
Lemma swap64_u t m v : integer m t v -> au_uint64 m = Ok (wrap U64 v).
Proof. intros I. exact (operand_get _ _ _ _ U64 I). Qed.
Theorem C73_bytes64_to_network argv : zlen (concat (map members argv)) < 2^31 ->
  Forall (fun m => exists t v, integer m t v) (concat (map members argv)) ->
  exists rs, fn_hton64 argv = Ok (0, Some rs) /\
    Forall2 (fun m r => exists t v w, integer m t v /\ reversed U64 v w /\ r = set_u U64 atom_fresh w)
      (concat (map members argv)) rs.
Proof.
  intros Hl H. unfold fn_hton64. apply (from_all_ok hton64_one argv); [exact Hl|]. eapply Forall_impl; [|exact H]. intros m (t & v & I).
  exists (set_u U64 atom_fresh (wrap U64 (hton64 (wrap U64 v)))). split.
  - unfold hton64_one. rewrite (integer_tag _ _ _ I), (swap64_u t m v I). cbn [bind wrap].
    generalize (u64 (hton64 (u64 v))). intros x. destruct t; reflexivity.
  - exists t, v, (wrap U64 (hton64 (wrap U64 v))). split; [exact I|]. split; [exact (to_network64 U64 v eq_refl)|reflexivity].
Qed.
Print Assumptions C73_bytes64_to_network.
Lemma wrap_u64 v : u64 (s64 v) = u64 v.
Proof.
  apply (converted_unique U64 v); [|exact (converted_wrap U64 v)]. apply (converted_congr U64 (s64 v)); [exact (converted_wrap U64 _)|].
  destruct (wrap_congr I64 v) as (k & E). change (wrap I64 v) with (s64 v) in E. rewrite E. change (width I64) with 64. change (width U64) with 64.
  replace (v - (v + 2^64 * k)) with (- k * 2^64) by lia. now apply Z.mod_mul.
Qed.
Lemma ntoh64_one_ok m t v : integer m t v ->
  exists r, ntoh64_one m atom_fresh = Ok (set_u (word64 t) atom_fresh r) /\ reversed (word64 t) v r.
Proof.
  intros I. unfold ntoh64_one. rewrite (integer_tag _ _ _ I), (swap64_u t m v I).
  pose proof (operand_get _ _ _ _ I64 I) as GI. cbn [get_u wrap] in GI. rewrite GI. cbn [bind wrap]. rewrite wrap_u64.
  pose proof (to_host64 I64 v eq_refl) as RI. pose proof (to_host64 U64 v eq_refl) as RU. cbn [wrap] in RI, RU.
  revert RI RU. generalize (ntoh64 (u64 v)). intros x RI RU.
  destruct t; cbn [tag_of Z.eqb Pos.eqb orb];
    first [exists (s64 x); split; [reflexivity|exact RI]|exists (u64 x); split; [reflexivity|exact RU]].
Qed.
Theorem C73_bytes64_to_host argv : zlen (concat (map members argv)) < 2^31 ->
  Forall (fun m => exists t v, integer m t v) (concat (map members argv)) ->
  exists rs, fn_ntoh64 argv = Ok (0, Some rs) /\
    Forall2 (fun m r => exists t v w, integer m t v /\ reversed (word64 t) v w /\ r = set_u (word64 t) atom_fresh w)
      (concat (map members argv)) rs.
Proof.
  intros Hl H. unfold fn_ntoh64. apply (from_all_ok ntoh64_one argv); [exact Hl|]. eapply Forall_impl; [|exact H]. intros m (t & v & I).
  destruct (ntoh64_one_ok m t v I) as (r & E & R). exists (set_u (word64 t) atom_fresh r). split; [exact E|].
  exists t, v, r. split; [exact I|]. split; [exact R|reflexivity].
Qed.
Print Assumptions C73_bytes64_to_host.

(** There and back: the values return, with 32 bits in their type. *)
Theorem C73_there_and_back zs t : (t = I32 \/ t = U32) -> Forall (in_type t) zs -> zlen zs < 2^31 ->
  exists rs, fn_hton32 [Some (map (set_u t atom_fresh) zs)] = Ok (0, Some rs) /\
    fn_ntoh32 [Some rs] = Ok (0, Some (map (set_u t atom_fresh) zs)).
Proof.
  intros Ht Hz Hl. assert (W : word32 t = t) by (destruct Ht as [-> | ->]; reflexivity). assert (W32 : width t <= 32) by (destruct Ht as [-> | ->]; cbn; lia).
  assert (Cat : forall l, concat (map members [Some l]) = l) by (intros l; cbn [map members concat]; apply app_nil_r).
  assert (X : exists ws, Forall2 (fun z w => swap32_one swap32 (set_u t atom_fresh z) atom_fresh = Ok (set_u t atom_fresh w) /\
    swap32_one swap32 (set_u t atom_fresh w) atom_fresh = Ok (set_u t atom_fresh z)) zs ws).
  { clear Hl. induction Hz as [|z zs I _ (ws & IH)]; [exists []; constructor|].
    destruct (swap32_one_ok (set_u t atom_fresh z) t z (int_operand t z _ I) W32) as (w & E & R). rewrite W in E, R.
    destruct (swap32_one_ok (set_u t atom_fresh w) t w (int_operand t w _ (proj1 R)) W32) as (z' & E' & R'). rewrite W in E', R'.
    rewrite (reversed_twice t z w z' I R R') in E'. exists (w :: ws). constructor; [split; assumption|exact IH]. }
  destruct X as (ws & X). exists (map (set_u t atom_fresh) ws).
  assert (Lw : length ws = length zs) by (clear - X; induction X; cbn [length]; congruence).
  unfold fn_hton32, fn_ntoh32, hton32, ntoh32, from_all.
  assert (Go : forall us vs, Forall2 (fun u v => swap32_one swap32 (set_u t atom_fresh u) atom_fresh = Ok (set_u t atom_fresh v)) us vs ->
    zlen us < 2^31 ->
    (do n <- int_lens 0 [Some (map (set_u t atom_fresh) us)]; do out <- aalloc n;
     do out0 <- each (swap32_one swap32) (concat (map items [Some (map (set_u t atom_fresh) us)])) 0 out; Ok (0, out0)) =
    Ok (0, Some (map (set_u t atom_fresh) vs))).
  { intros us vs F L. assert (L' : zlen (map (set_u t atom_fresh) us) = zlen us) by (unfold zlen; now rewrite map_length).
    rewrite lens_value by (rewrite ?Cat, ?L'; lia). change (concat (map items ?x)) with (concat (map members x)). rewrite Cat.
    cbn [bind Z.add]. rewrite aalloc_len. cbn [bind].
    rewrite (each_ok (swap32_one swap32) (map (set_u t atom_fresh) us) (map (set_u t atom_fresh) vs)) with (done := @nil atom); [reflexivity| |reflexivity].
    clear - F. induction F; constructor; assumption. }
  split; apply Go.
  - clear - X. induction X as [|? ? ? ? (A & B)]; constructor; assumption.
  - exact Hl.
  - clear - X. induction X as [|? ? ? ? (A & B)]; constructor; assumption.
  - unfold zlen in *. rewrite Lw. exact Hl.
Qed.
Print Assumptions C73_there_and_back.
(** With 64 bits an int64 comes back as a uint64. *)
Theorem C73_there_and_back_refuted : exists rs, fn_hton64 [Some [set_u I64 atom_fresh (-1)]] = Ok (0, Some rs) /\
  fn_ntoh64 [Some rs] = Ok (0, Some [set_u U64 atom_fresh (2^64 - 1)]).
Proof. exists [set_u U64 atom_fresh (2^64 - 1)]. split; reflexivity. Qed.
Print Assumptions C73_there_and_back_refuted.
Example C73_bytes_case : fn_hton32 [Some [i32 1; i32 258]] = Ok (0, Some [i32 16777216; i32 33619968]).
Proof. reflexivity. Qed.

(** * C74: the remainder operator *)

Lemma remainder_mod v m : m <> 0 -> remainder v m (v mod Z.abs m).
Proof.
  intros H. split; [apply Z.mod_pos_bound; lia|].
  pose proof (Z.div_mod v (Z.abs m) ltac:(lia)) as D. destruct (Z.abs_eq_or_opp m) as [K|K]; rewrite K in *.
  - exists (v / m). lia.
  - exists (- (v / - m)). lia.
Qed.
Lemma remainder_unique v m z z' : remainder v m z -> remainder v m z' -> z = z'.
Proof.
  intros (B & k & E) (B' & k' & E'). assert (X : Z.abs ((k - k') * m) < Z.abs m) by lia.
  rewrite Z.abs_mul in X. assert (k = k') by nia. subst k'. lia.
Qed.

(** Integers and truth values: the remainder lies between 0 and the second
    operand's absolute value; it must be an int32. *)
Theorem C74_integers E b1 t1 v1 f1 b2 t2 v2 f2 r z : nan_platform E -> operand b1 t1 v1 f1 -> operand b2 t2 v2 f2 ->
  Z.abs v1 <= 2^50 -> 0 < Z.abs v2 <= 2^33 -> remainder v1 v2 z ->
  (z < 2^31 -> op_mod E (Some f1) (Some f2) r = Ok (0, set_u I32 r z)) /\
  (2^31 <= z -> op_mod E (Some f1) (Some f2) r = Ub Overflow).
Proof.
  intros Hn O1 O2 B1 B2 R. pose proof (remainder_unique _ _ _ _ R (remainder_mod v1 v2 ltac:(lia))) as Ez.
  destruct (double_read_ok (e_double E) f1 _ (number_int b1 t1 v1 f1 O1 ltac:(lia))) as (d1 & H1 & R1 & _).
  destruct (double_read_ok (e_double E) f2 _ (number_int b2 t2 v2 f2 O2 ltac:(lia))) as (d2 & H2 & R2 & _).
  unfold op_mod. rewrite H1, H2. cbn [bind]. destruct (operand_numeric _ _ _ _ O1) as (_ & -> & _). destruct (operand_numeric _ _ _ _ O2) as (_ & -> & _).
  cbn [orb]. assert (Nz : deq d2 0 = false).
  { destruct (deq d2 0) eqn:K; [exfalso|reflexivity]. apply (proj1 (deq_iff _ _ _ _ R2 real_zero)) in K. cbn [same] in K.
    change 0%Q with (inject_Z 0) in K. pose proof (proj1 (inject_Z_injective v2 0) K). lia. }
  rewrite Nz, (trunc_int _ _ (dfmod_int (e_nan E) d1 d2 v1 v2 Hn R1 R2 B1 B2)), <- Ez.
  destruct R as ((Z0 & _) & _). split; intros L.
  - rewrite in_range by lia. reflexivity.
  - rewrite above_range by lia. reflexivity.
Qed.
Print Assumptions C74_integers.

(** With a float or double among the operands the result is a double. *)
Theorem C74_reals E f1 f2 r q1 q2 : nan_platform E -> number f1 (Fin q1) -> number f2 (Fin q2) -> floating f1 \/ floating f2 ->
  ~ (q2 == 0)%Q -> exists d, double_remainder q1 q2 d /\ op_mod E (Some f1) (Some f2) r = Ok (0, set_double r d).
Proof.
  intros Hn N1 N2 Fl Nz.
  destruct (double_read_ok (e_double E) f1 _ N1) as (d1 & H1 & R1 & _).
  destruct (double_read_ok (e_double E) f2 _ N2) as (d2 & H2 & R2 & _).
  exists (dfmod (e_nan E) d1 d2). split.
  - exists (ddiv (e_nan E) d1 (dfabs d2)). pose proof (dfabs_ok _ _ R2) as Ra. split.
    + apply (div_ok _ Hn _ _ _ _ R1 Ra). cbn [same]. intros K. apply Nz. revert K. apply Qabs_case; intros; lra.
    + intros t Rt. pose proof (Qfloor_le t) as L; pose proof (Qlt_floor t) as U. exists (Qfloor t).
      pose proof (dfloor_ok _ _ _ Rt (conj L U)) as Rf. pose proof (times_sign (e_nan E) d2 q2 Hn R2) as Rm.
      pose proof (mul_ok _ Hn _ _ _ _ Rm Rf) as Pd. destruct (product_real _ _ _ Pd) as (x & Rx).
      eexists _, x. split; [exact (conj L U)|]. split; [exact Pd|]. split; [exact Rx|]. exact (sub_ok _ Hn _ _ _ _ R1 Rx).
  - unfold op_mod. rewrite H1, H2. cbn [bind]. assert (F : is_float (a_tt f1) || is_float (a_tt f2) = true).
    { destruct Fl as [Fl|Fl]; rewrite (floating_tag _ Fl); [reflexivity|apply orb_true_r]. }
    rewrite F. assert (K : deq d2 0 = false).
    { destruct (deq d2 0) eqn:K; [exfalso|reflexivity]. exact (Nz (proj1 (deq_iff _ _ _ _ R2 real_zero) K)). }
    now rewrite K.
Qed.
Print Assumptions C74_reals.

(** A second operand that is zero or missing leaves the first; with neither there
    is the int32 0. *)
Theorem C74_zero E f1 f2 r x1 x2 : number f1 x1 -> number f2 x2 -> same x2 (Fin 0) -> op_mod E (Some f1) (Some f2) r = Ok (0, f1).
Proof.
  intros N1 N2 Z. destruct (double_read_ok (e_double E) f1 _ N1) as (d1 & H1 & R1 & _).
  destruct (double_read_ok (e_double E) f2 _ N2) as (d2 & H2 & R2 & _).
  unfold op_mod. rewrite H1, H2. cbn [bind]. rewrite (proj2 (deq_iff _ _ _ _ R2 real_zero) Z).
  cbn [copy_into]. rewrite (copy_number _ _ N1). destruct (_ || _); reflexivity.
Qed.
Print Assumptions C74_zero.
Theorem C74_missing E f1 f2 r x1 : number f1 x1 -> op_mod E (Some f1) None r = Ok (0, f1) /\ op_mod E None f2 r = Ok (0, set_u I32 r 0).
Proof. intros N1. split; [cbn [op_mod copy_into]; now rewrite (copy_number _ _ N1)|reflexivity]. Qed.
Print Assumptions C74_missing.

(** Over lists: pair by pair, a single member going with every member of the other
    list. *)
Theorem C74_lists E a b zs : nan_platform E -> zlen (members a) < 2^31 -> zlen (members b) < 2^31 ->
  Forall2 (fun p z => exists m1 m2 v1 v2, p = (Some m1, Some m2) /\ index m1 v1 /\ index m2 v2 /\ v2 <> 0 /\ remainder v1 v2 z)
    (pairs (members a) (members b)) zs ->
  two_arg E op_mod [a; b] = Ok (0, Some (map (set_u I32 atom_fresh) zs)).
Proof.
  intros Hn La Lb H. apply C39_elementwise; [exact La|exact Lb|].
  induction H as [|p z ps zs (m1 & m2 & v1 & v2 & -> & (b1 & t1 & O1 & I1) & (b2 & t2 & O2 & I2) & Nz & R) _ IH]; cbn [map]; constructor; [|exact IH].
  unfold in_type, signed, width in I1, I2. cbn [fst snd].
  apply (proj1 (C74_integers E b1 t1 v1 m1 b2 t2 v2 m2 atom_fresh z Hn O1 O2 ltac:(lia) ltac:(lia) R)).
  destruct R as (R & _). lia.
Qed.
Print Assumptions C74_lists.
Example C74_case E : nan_platform E -> two_arg E op_mod [Some [i32 7; i32 (-7); i32 6]; Some [i32 (-3)]] = Ok (0, Some [i32 1; i32 2; i32 0]).
Proof.
  intros Hn. apply (C74_lists E _ _ [1; 2; 0] Hn); [reflexivity..|].
  assert (I : forall v, in_type I32 v -> index (i32 v) v) by (intros v Hv; exists false, I32; split; [apply (int_operand I32), Hv|exact Hv]).
  assert (X : forall v k z, in_type I32 v -> v = k * (-3) + z -> 0 <= z < 3 ->
    exists m1 m2 v1 v2, (Some (i32 v), Some (i32 (-3))) = (Some m1, Some m2) /\ index m1 v1 /\ index m2 v2 /\ v2 <> 0 /\ remainder v1 v2 z).
  { intros v k z Hv E1 B. exists (i32 v), (i32 (-3)), v, (-3). split; [reflexivity|]. split; [apply I, Hv|].
    split; [apply I; unfold in_type, signed, width; lia|]. split; [lia|]. split; [exact B|]. now exists k. }
  constructor; [apply (X 7 (-2) 1); unfold in_type, signed, width; lia|].
  constructor; [apply (X (-7) 3 2); unfold in_type, signed, width; lia|].
  constructor; [apply (X 6 (-2) 0); unfold in_type, signed, width; lia|constructor].
Qed.

(** * C75: one more and one less, cross product and scaling *)

(** Each member by itself: either all members have a result or one is undefined. *)
Lemma each_either f (P : atom -> atom -> Prop) (Q : atom -> Prop) l : 
  Forall (fun a => (exists y, f a atom_fresh = Ok y /\ P a y) \/ (f a atom_fresh = Ub Overflow /\ Q a)) l ->
  forall done i, i = zlen done ->
  (exists ys, each f l i (Some (done ++ repeat atom_fresh (length l))) = Ok (Some (done ++ ys)) /\ Forall2 P l ys) \/
  (each f l i (Some (done ++ repeat atom_fresh (length l))) = Ub Overflow /\ Exists Q l).
Proof.
  induction 1 as [|a l H _ IH]; intros done i ->.
  - left. exists []. split; [reflexivity|constructor].
  - cbn [each length repeat]. rewrite aput_at. destruct H as [(y & Hy & Py)|(Hy & Qa)]; rewrite Hy; cbn [bind].
    + destruct (IH (done ++ [y]) (zlen done + 1)) as [(ys & H1 & H2)|(H1 & H2)]; [rewrite zlen_app; reflexivity| |].
      * left. exists (y :: ys). rewrite <- !app_assoc in H1. split; [exact H1|now constructor].
      * right. rewrite <- !app_assoc in H1. split; [exact H1|now constructor 2].
    + right. split; [reflexivity|now constructor].
Qed.

Lemma bump_ok (F : single) (E : env) op fop k a : nan_platform E -> (k = 1 /\ op = Z.add /\ fop = ieee_add \/ k = -1 /\ op = Z.sub /\ fop = ieee_sub) ->
  (exists r, moved k a r) -> exists r, bump_one F E op fop a atom_fresh = Ok r /\ moved k a r.
Proof.
  intros Hn Hk (r & M).
  assert (Op : forall v, op v 1 = v + k) by (intros v; destruct Hk as [(-> & -> & _)|(-> & -> & _)]; lia).
  destruct M as [a v I I'|a v I|a v w I C|a bits q s d B R Rd|a bits x d B R Rd]; unfold bump_one.
  - rewrite tag_set. cbn [tag_of Z.eqb Pos.eqb]. change au_int32 with (get_u I32). rewrite (operand_get false I32 v _ I32 (int_operand I32 v a I)). cbn [bind].
    rewrite Op, (wrap_id I32 v I). rewrite checked_ok by exact I'. cbn [bind]. eexists. split; [reflexivity|]. now constructor.
  - rewrite tag_set. cbn [tag_of Z.eqb Pos.eqb]. change au_int64 with (get_u I64). rewrite (operand_get false U32 v _ I64 (int_operand U32 v a I)). cbn [bind].
    assert (I' : in_type I64 v) by (unfold in_type, signed, width in *; lia).
    rewrite Op, (wrap_id I64 v I'). rewrite checked_ok; [cbn [bind]; eexists; split; [reflexivity|]; now constructor|].
    unfold in_type, signed, width in I. change (2^(64 - 1)) with (2^63). destruct Hk as [(-> & _)|(-> & _)]; lia.
  - rewrite tag_set. cbn [tag_of Z.eqb Pos.eqb]. change au_uint64 with (get_u U64). rewrite (operand_get false U64 v _ U64 (int_operand U64 v a I)). cbn [bind].
    rewrite Op, (wrap_id U64 v I). exists (set_u U64 atom_fresh (wrap U64 (v + k))). split; [reflexivity|].
    constructor; [exact I|apply converted_wrap].
  - destruct (single_read (s_float F) (set_float a bits) q (single_float a bits q B R)) as (b & Hb & Rb).
    assert (T : a_tt (set_float a bits) = 102) by (destruct a; reflexivity). rewrite T. cbn [Z.eqb Pos.eqb].
    rewrite Hb. cbn [bind]. eexists. split; [reflexivity|].
    assert (R1 : real 23 8 (float_of_int 1) (Fin 1)). { destruct (float_of_int_exact 1 ltac:(lia)) as (v & Hv & Ev). exists v. split; [exact Hv|exact Ev]. }
    destruct (finite_sum 23 8 (s_nan F) b (float_of_int 1) q 1 float_fmt Rb R1) as ((s1 & P1) & (s2 & P2)).
    destruct Hk as [(-> & -> & ->)|(-> & -> & ->)]; [apply (moved_float 1 a bits q s1)|apply (moved_float (-1) a bits q s2)]; assumption.
  - destruct (double_read_ok (e_double E) (set_double a bits) x (number_double a bits x B R)) as (b & Hb & Rb & _).
    assert (T : a_tt (set_double a bits) = 100) by (destruct a; reflexivity). rewrite T. cbn [Z.eqb Pos.eqb].
    rewrite Hb. cbn [bind]. eexists. split; [reflexivity|].
    pose proof (real_int 1 ltac:(lia)) as R1. pose proof (add_ok _ Hn _ _ _ _ Rb R1) as P1. pose proof (sub_ok _ Hn _ _ _ _ Rb R1) as P2.
    destruct Hk as [(-> & -> & ->)|(-> & -> & ->)]; apply (moved_double _ a bits x); try assumption.
Qed.
(** Results are defined for int32 except at the end of the range, uint32, uint64,
    finite floats and doubles. *)
Theorem C75_one_more F E a more : nan_platform E -> Forall (fun m => exists r, moved 1 m r) (members a) ->
  exists rs, Forall2 (moved 1) (members a) rs /\ fn_plus1 F E (a :: more) = Ok (0, Some rs).
Proof.
  intros Hn H. destruct (each_all (bump_one F E Z.add ieee_add) (members a) (moved 1)) as (rs & H1 & H2).
  { eapply Forall_impl; [|exact H]. intros m. apply bump_ok; [exact Hn|]. left. auto. }
  exists rs. split; [exact H1|]. unfold fn_plus1. cbn [argv_at nth_error Z.to_nat Z.ltb Z.compare bind].
  rewrite aalloc_members. cbn [bind]. change (items a) with (members a). rewrite H2. reflexivity.
Qed.
Print Assumptions C75_one_more.
Theorem C75_one_less F E a more : nan_platform E -> Forall (fun m => exists r, moved (-1) m r) (members a) ->
  exists rs, Forall2 (moved (-1)) (members a) rs /\ fn_minus1 F E (a :: more) = Ok (0, Some rs).
Proof.
  intros Hn H. destruct (each_all (bump_one F E Z.sub ieee_sub) (members a) (moved (-1))) as (rs & H1 & H2).
  { eapply Forall_impl; [|exact H]. intros m. apply bump_ok; [exact Hn|]. right. auto. }
  exists rs. split; [exact H1|]. unfold fn_minus1. cbn [argv_at nth_error Z.to_nat Z.ltb Z.compare bind].
  rewrite aalloc_members. cbn [bind]. change (items a) with (members a). rewrite H2. reflexivity.
Qed.
Print Assumptions C75_one_less.
(** Findings: an int64 loses its upper half and its sign, smaller integers give an
    atom without type, and without argument a list that is not there is read. *)
Theorem C75_int64_refuted F E : fn_plus1 F E [Some [set_u I64 atom_fresh (2^40)]] = Ok (0, Some [set_u U32 atom_fresh 1]) /\
  fn_minus1 F E [Some [set_u I64 atom_fresh 0]] = Ok (0, Some [set_u U32 atom_fresh (2^32 - 1)]).
Proof. split; reflexivity. Qed.
Print Assumptions C75_int64_refuted.
Theorem C75_small_refuted F E t v : width t < 32 -> fn_plus1 F E [Some [set_u t atom_fresh v]] = Ok (0, Some [atom_fresh]) /\
  fn_minus1 F E [Some [set_u t atom_fresh v]] = Ok (0, Some [atom_fresh]).
Proof. destruct t; cbn [width]; intros H; try lia; split; reflexivity. Qed.
Print Assumptions C75_small_refuted.
Theorem C75_one_more_overflow F E : fn_plus1 F E [Some [i32 (2^31 - 1)]] = Ub Overflow /\ fn_minus1 F E [Some [i32 (- 2^31)]] = Ub Overflow /\
  fn_plus1 F E [] = Ub OOB /\ fn_minus1 F E [] = Ub OOB.
Proof. split; [reflexivity|]. split; [reflexivity|]. split; reflexivity. Qed.
Print Assumptions C75_one_more_overflow.
Example C75_one_more_case F E : nan_platform E -> exists rs, Forall2 (moved 1) [i32 4; set_u U64 atom_fresh (2^64 - 1)] rs /\
  fn_plus1 F E [Some [i32 4; set_u U64 atom_fresh (2^64 - 1)]] = Ok (0, Some rs).
Proof.
  intros Hn. apply (C75_one_more F E (Some _) [] Hn). cbn [members]. constructor; [|constructor; [|constructor]].
  - exists (i32 5). apply (moved_int 1 atom_fresh 4); unfold in_type, signed, width; lia.
  - exists (set_u U64 atom_fresh 0). apply (moved_long 1 atom_fresh (2^64 - 1) 0); [unfold in_type, signed, width; lia|].
    split; [unfold in_type, signed, width; lia|reflexivity].
Qed.

(** The cross product of integers that fit the largest type among them. *)
Theorem C75_cross F E a b u0 u1 u2 v0 v1 v2 p0 p1 p2 q0 q1 q2 ts t :
  members a = [u0; u1; u2] -> members b = [v0; v1; v2] ->
  Forall2 (fun m t => exists v, integer m t v) [u0; u1; u2; v0; v1; v2] ts -> is_largest t ts ->
  Forall2 (fun m v => exists t', integer m t' v /\ in_type t v) [u0; u1; u2; v0; v1; v2] [p0; p1; p2; q0; q1; q2] ->
  let ok := difference_ok t p1 q2 p2 q1 /\ difference_ok t p2 q0 p0 q2 /\ difference_ok t p0 q1 p1 q0 in
  (ok -> exists w0 w1 w2, converted t (p1 * q2 - p2 * q1) w0 /\ converted t (p2 * q0 - p0 * q2) w1 /\ converted t (p0 * q1 - p1 * q0) w2 /\
     fn_cross F E [a; b] = Ok (0, Some (map (set_u t atom_fresh) [w0; w1; w2]))) /\
  (~ ok -> fn_cross F E [a; b] = Ub Overflow).
Proof.
  intros Ha Hb Hts Hl Hv ok.
  assert (L : largest_of [a; b] = Ok (tag_of t)).
  { unfold largest_of. apply (largest_int _ ts); [|exact Hl]. cbn [map concat]. rewrite app_nil_r.
    change (items a) with (members a). change (items b) with (members b). rewrite Ha, Hb. rewrite <- map_app. cbn [app]. clear - Hts.
    induction Hts as [|m t l ts (v & H) _ IH]; constructor; [exact (integer_tag _ _ _ H)|exact IH]. }
  assert (G : forall m v, (exists t', integer m t' v /\ in_type t v) -> get_u t m = Ok v).
  { intros m v (t' & H & I). rewrite (operand_get _ _ _ _ t H). now rewrite wrap_id. }
  inversion_clear Hv as [|x y l l' H0 Hv']. inversion_clear Hv' as [|x y l l' H1 Hv'']. inversion_clear Hv'' as [|x y l l' H2 Hv''']. 
  inversion_clear Hv''' as [|x y l l' H3 Hv'']. inversion_clear Hv'' as [|x y l l' H4 Hv']. inversion_clear Hv' as [|x y l l' H5 _].
  apply G in H0, H1, H2, H3, H4, H5.
  assert (Run : fn_cross F E [a; b] = cross_case (get_u t) (minus_t t) (set_u t) [u0; u1; u2] [v0; v1; v2] (Some [atom_fresh; atom_fresh; atom_fresh])).
  { unfold fn_cross. rewrite !alen_members, Ha, Hb. cbn [zlen length Z.of_nat Pos.of_succ_nat Pos.succ Z.eqb Pos.eqb negb orb].
    change (aalloc 3) with (Ok (Some [atom_fresh; atom_fresh; atom_fresh])). cbn [bind]. rewrite L. cbn [bind].
    change (items a) with (members a). change (items b) with (members b). rewrite Ha, Hb. destruct t; reflexivity. }
  rewrite Run. unfold cross_case. rewrite H0, H1, H2, H3, H4, H5. cbn [bind].
  destruct (minus_t_ok t p1 q2 p2 q1) as (A0 & B0). destruct (minus_t_ok t p2 q0 p0 q2) as (A1 & B1). destruct (minus_t_ok t p0 q1 p1 q0) as (A2 & B2).
  pose proof (fun (x y z : atom) f => aput_at [] x [y; z] f) as P0. pose proof (fun (x y z : atom) f => aput_at [x] y [z] f) as P1.
  pose proof (fun (x y z : atom) f => aput_at [x; y] z [] f) as P2. cbn [app zlen length Z.of_nat Pos.of_succ_nat Pos.succ] in P0, P1, P2.
  assert (D : forall p q r s, difference_ok t p q r s \/ ~ difference_ok t p q r s).
  { intros p q r s. unfold difference_ok. set (c := if width t <? 32 then I32 else t).
    assert (X : forall x, in_type c x \/ ~ in_type c x) by (intros x; unfold in_type; destruct (signed c); lia).
    assert (Y : traps c \/ ~ traps c). { unfold traps. destruct (signed c); [|right; intros (K & _); discriminate]. destruct (Z_le_dec 32 (width c)); [left; auto|right; tauto]. }
    cbv zeta. destruct Y; [|tauto]. destruct (X (p * q)), (X (r * s)), (X (p * q - r * s)); tauto. }
  split.
  - intros (O0 & O1 & O2). rewrite P0, (A0 O0). cbn [bind app]. rewrite P1, (A1 O1). cbn [bind app]. rewrite P2, (A2 O2). cbn [bind app].
    eexists _, _, _. split; [apply converted_wrap|]. split; [apply converted_wrap|]. split; [apply converted_wrap|]. reflexivity.
  - intros N. destruct (D p1 q2 p2 q1) as [O0|O0]; [|rewrite P0, (B0 O0); reflexivity]. rewrite P0, (A0 O0). cbn [bind app].
    destruct (D p2 q0 p0 q2) as [O1|O1]; [|rewrite P1, (B1 O1); reflexivity]. rewrite P1, (A1 O1). cbn [bind app].
    destruct (D p0 q1 p1 q0) as [O2|O2]; [exfalso; apply N; split; [exact O0|split; assumption]|]. rewrite P2, (B2 O2). reflexivity.
Qed.
Print Assumptions C75_cross.
(** With a double among the members: in double precision. *)
Theorem C75_cross_doubles F E a b u0 u1 u2 v0 v1 v2 p0 p1 p2 q0 q1 q2 : nan_platform E ->
  members a = [u0; u1; u2] -> members b = [v0; v1; v2] ->
  Forall2 number [u0; u1; u2; v0; v1; v2] [p0; p1; p2; q0; q1; q2] -> Exists (fun m => a_tt m = 100) [u0; u1; u2; v0; v1; v2] ->
  exists d0 d1 d2, double_difference p1 q2 p2 q1 d0 /\ double_difference p2 q0 p0 q2 d1 /\ double_difference p0 q1 p1 q0 d2 /\
    fn_cross F E [a; b] = Ok (0, Some (map (set_double atom_fresh) [d0; d1; d2])).
Proof.
  intros Hn Ha Hb Hv He.
  assert (L : largest_of [a; b] = Ok 100).
  { unfold largest_of. assert (C : concat (map (fun a => map a_tt (items a)) [a; b]) = map a_tt [u0; u1; u2; v0; v1; v2]).
    { cbn [map concat]. change (items a) with (members a). change (items b) with (members b). now rewrite Ha, Hb. }
    apply largest_double; rewrite C.
    - apply Exists_exists in He. destruct He as (m & I & T). rewrite <- T. now apply in_map.
    - intros I. apply in_map_iff in I. destruct I as (m & T & I). destruct (pair_l _ _ _ m Hv I) as (x & _ & N).
      destruct N as [b0 t z a0 O _|a0 bits x _ _|a0 bits x _ _]; [|destruct a0; discriminate..].
      destruct (operand_numeric _ _ _ _ O) as (_ & _ & K & _). rewrite T in K. discriminate. }
  inversion_clear Hv as [|x y l l' H0 Hv']. inversion_clear Hv' as [|x y l l' H1 Hv'']. inversion_clear Hv'' as [|x y l l' H2 Hv''']. 
  inversion_clear Hv''' as [|x y l l' H3 Hv'']. inversion_clear Hv'' as [|x y l l' H4 Hv']. inversion_clear Hv' as [|x y l l' H5 _].
  pose proof (double_read_ok (e_double E)) as G.
  apply G in H0, H1, H2, H3, H4, H5. destruct H0 as (e0 & H0 & R0 & _). destruct H1 as (e1 & H1 & R1 & _). destruct H2 as (e2 & H2 & R2 & _).
  destruct H3 as (e3 & H3 & R3 & _). destruct H4 as (e4 & H4 & R4 & _). destruct H5 as (e5 & H5 & R5 & _).
  assert (D : forall a b c d p q r s, real 52 11 a p -> real 52 11 b q -> real 52 11 c r -> real 52 11 d s ->
    double_difference p q r s (ieee_sub 52 11 (e_nan E) (ieee_mul 52 11 (e_nan E) a b) (ieee_mul 52 11 (e_nan E) c d))).
  { intros a' b' c d p q r s Ra Rb Rc Rd. pose proof (mul_ok _ Hn _ _ _ _ Ra Rb) as M1. pose proof (mul_ok _ Hn _ _ _ _ Rc Rd) as M2.
    destruct (product_real _ _ _ M1) as (x1 & X1). destruct (product_real _ _ _ M2) as (x2 & X2).
    eexists _, _, x1, x2. split; [exact M1|]. split; [exact X1|]. split; [exact M2|]. split; [exact X2|]. exact (sub_ok _ Hn _ _ _ _ X1 X2). }
  eexists _, _, _. split; [exact (D _ _ _ _ _ _ _ _ R1 R5 R2 R4)|]. split; [exact (D _ _ _ _ _ _ _ _ R2 R3 R0 R5)|].
  split; [exact (D _ _ _ _ _ _ _ _ R0 R4 R1 R3)|].
  unfold fn_cross. rewrite !alen_members, Ha, Hb. cbn [zlen length Z.of_nat Pos.of_succ_nat Pos.succ Z.eqb Pos.eqb negb orb].
  change (aalloc 3) with (Ok (Some [atom_fresh; atom_fresh; atom_fresh])). cbn [bind]. rewrite L. cbn [bind].
  change (items a) with (members a). change (items b) with (members b). rewrite Ha, Hb. cbn [Z.eqb Pos.eqb]. unfold cross_case.
  rewrite H0, H1, H2, H3, H4, H5. cbn [bind]. unfold minus_real.
  pose proof (fun (x y z : atom) f => aput_at [] x [y; z] f) as P0. pose proof (fun (x y z : atom) f => aput_at [x] y [z] f) as P1.
  pose proof (fun (x y z : atom) f => aput_at [x; y] z [] f) as P2. cbn [app zlen length Z.of_nat Pos.of_succ_nat Pos.succ] in P0, P1, P2.
  rewrite P0. cbn [bind app]. rewrite P1. cbn [bind app]. rewrite P2. reflexivity.
Qed.
Print Assumptions C75_cross_doubles.
Theorem C75_cross_refused F E argv : ~ (exists a b, argv = [a; b] /\ zlen (members a) = 3 /\ zlen (members b) = 3) ->
  fn_cross F E argv = Ok (1, None).
Proof.
  intros H. destruct argv as [|a [|b [|c l]]]; try reflexivity. unfold fn_cross. rewrite !alen_members.
  destruct (Z.eqb_spec (zlen (members a)) 3) as [La|La]; [|reflexivity].
  destruct (Z.eqb_spec (zlen (members b)) 3) as [Lb|Lb]; [|reflexivity]. exfalso. apply H. exists a, b. auto.
Qed.
Print Assumptions C75_cross_refused.
Example C75_cross_case F E : fn_cross F E [Some [i32 1; i32 2; i32 3]; Some [i32 4; i32 5; i32 6]] = Ok (0, Some [i32 (-3); i32 6; i32 (-3)]).
Proof. reflexivity. Qed.
Example C75_cross_overflow F E : fn_cross F E [Some [i32 0; i32 65536; i32 0]; Some [i32 0; i32 0; i32 65536]] = Ub Overflow.
Proof. reflexivity. Qed.

(** Scaling: each member is put on the line through the two pairs of ends. *)
Lemma scale_one_ok E fl (ends : Prop) line read (on : ext -> Z -> Prop) a :
  (fl = true <-> ends) ->
  (forall x d, measured a x -> (read = true -> real 52 11 d x) -> on x (line d)) ->
  unscaled a \/ (exists x, measured a x) ->
  (exists y, scale_one E fl line read a atom_fresh = Ok y /\ scaled ends on a y) \/
  (scale_one E fl line read a atom_fresh = Ub Overflow /\ too_far ends on a).
Proof.
  intros Hfl Hon [U|(x & M)]; unfold scale_one.
  - left. exists a. split; [|left; split; [exact U|reflexivity]].
    assert (C : copy_into atom_fresh (Some a) = Ok a) by (destruct a as [tg w p]; unfold unscaled in U; cbn [a_tt] in U; destruct U as [-> |[-> | ->]]; reflexivity).
    rewrite C. destruct U as [-> |[-> | ->]]; reflexivity.
  - destruct M as (N & U).
    assert (T : (a_tt a =? 115) || (a_tt a =? 84) || (a_tt a =? 70) || (a_tt a =? 78) || (a_tt a =? 98) || (a_tt a =? 46) = false).
    { unfold unscaled in U. destruct N as [b t z a' O _|a' bits x _ _|a' bits x _ _]; [|destruct a'; reflexivity..].
      pose proof (operand_tag _ _ _ _ O) as Tg. destruct b; [|rewrite Tg; destruct t; reflexivity].
      exfalso. apply U. rewrite Tg. destruct (z =? 0); auto. }
    rewrite T. destruct (double_read_ok (e_double E) a x N) as (d & Hd & Rd & _).
    assert (X : exists d', (if read then au_double (e_double E) a else Ok 0) = Ok d' /\ (read = true -> real 52 11 d' x)).
    { destruct read; [exists d; split; [exact Hd|intros _; exact Rd]|]. exists 0. split; [reflexivity|]. intros K; discriminate K. }
    destruct X as (d' & -> & R'). cbn [bind]. specialize (Hon x d' (conj N U) R'). set (v := line d') in *.
    assert (Fl : fl || (a_tt a =? 100) || (a_tt a =? 102) = true <-> (ends \/ a_tt a = 102 \/ a_tt a = 100)).
    { rewrite !orb_true_iff, !Z.eqb_eq, Hfl. tauto. }
    destruct (fl || (a_tt a =? 100) || (a_tt a =? 102)) eqn:K.
    + left. eexists. split; [reflexivity|]. right. exists x, v. split; [split; assumption|]. split; [exact Hon|]. left. split; [now apply Fl|reflexivity].
    + assert (Nf : ~ (ends \/ a_tt a = 102 \/ a_tt a = 100)) by (intros C; apply Fl in C; discriminate). clear Fl.
      unfold to_range. destruct (trunc64 v) as [z|] eqn:Tv.
      * assert (Y : in_type I32 z \/ ~ in_type I32 z) by (unfold in_type, signed, width; lia).
        assert (Q : forall q z', real 52 11 v (Fin q) -> truncates_to q z' -> z' = z).
        { intros q z' Rq Tz. destruct (real_trunc _ _ Rq) as (z2 & T2 & Tr). rewrite Tv in T2. injection T2 as ->. exact (truncates_unique _ _ _ Tz Tr). }
        destruct Y as [Y|Y].
        -- assert (Y' := Y). unfold in_type, signed, width in Y'. destruct (Z.leb_spec (- 2^31) z); [|lia]. destruct (Z.leb_spec z (2^31 - 1)); [|lia].
           cbn [andb bind]. left. eexists. split; [reflexivity|]. right. exists x, v. split; [split; assumption|]. split; [exact Hon|]. right.
           split; [exact Nf|]. destruct (some_real v z Tv) as (q & Rq & Tq). exists q, z. split; [exact Rq|]. split; [exact Tq|]. split; [exact Y|reflexivity].
        -- unfold in_type, signed, width in Y. right. split.
           { destruct (Z.leb_spec (- 2^31) z); [|reflexivity]. destruct (Z.leb_spec z (2^31 - 1)); [lia|reflexivity]. }
           split; [exact Nf|]. exists x, v. split; [split; assumption|]. split; [exact Hon|]. intros q z' Rq Tz. rewrite (Q q z' Rq Tz). exact Y.
      * right. split; [reflexivity|]. split; [exact Nf|]. exists x, v. split; [split; assumption|]. split; [exact Hon|].
        intros q z' Rq Tz. destruct (real_trunc _ _ Rq) as (z2 & T2 & Tr). rewrite Tv in T2. discriminate.
Qed.
Definition any_floating (ms : list atom) : Prop := Exists floating ms.
Lemma ends_floating n1 n2 n3 n4 : is_float (a_tt n1) || is_float (a_tt n2) || is_float (a_tt n3) || is_float (a_tt n4) = true <-> any_floating [n1; n2; n3; n4].
Proof.
  assert (X : forall a, is_float (a_tt a) = true <-> floating a).
  { intros a. unfold is_float, floating. rewrite orb_true_iff, !Z.eqb_eq. tauto. }
  rewrite !orb_true_iff, !X. unfold any_floating. rewrite Exists_exists. split.
  - intros [[[H|H]|H]|H]; [exists n1|exists n2|exists n3|exists n4]; (split; [cbn; tauto|exact H]).
  - intros (m & [<-|[<-|[<-|[<-|[]]]]] & H); tauto.
Qed.
(** What [fn_scale] gives is either a list of scaled members, or undefined since a
    member is too far. *)
Definition scales (res : res (Z * arr)) (ends : Prop) (on : ext -> Z -> Prop) (l : list atom) : Prop :=
  (exists rs, res = Ok (0, Some rs) /\ Forall2 (scaled ends on) l rs) \/ (res = Ub Overflow /\ Exists (too_far ends on) l).
Lemma scale_each E fl (ends : Prop) line read (on : ext -> Z -> Prop) l : (fl = true <-> ends) ->
  (forall a x d, measured a x -> (read = true -> real 52 11 d x) -> on x (line d)) ->
  Forall (fun a => unscaled a \/ exists x, measured a x) l ->
  scales (do out <- each (scale_one E fl line read) l 0 (Some (repeat atom_fresh (length l))); Ok (0, out)) ends on l.
Proof.
  intros Hfl Hon H. destruct (each_either (scale_one E fl line read) (scaled ends on) (too_far ends on) l) with (done := @nil atom) (i := 0) as [(ys & H1 & H2)|(H1 & H2)].
  - eapply Forall_impl; [|exact H]. intros a Ha. apply scale_one_ok; [exact Hfl|apply Hon|exact Ha].
  - reflexivity.
  - left. exists ys. cbn [app] in H1. rewrite H1. split; [reflexivity|exact H2].
  - right. cbn [app] in H1. rewrite H1. split; [reflexivity|exact H2].
Qed.
Theorem C75_scale E a a1 a2 a3 a4 n1 n2 n3 n4 i1 i2 o1 o2 : nan_platform E ->
  first a1 n1 -> number n1 (Fin i1) -> first a2 n2 -> number n2 (Fin i2) -> ~ (i1 == i2)%Q ->
  first a3 n3 -> number n3 o1 -> first a4 n4 -> number n4 o2 -> ~ same o1 o2 ->
  Forall (fun m => unscaled m \/ exists x, measured m x) (members a) ->
  exists m b, line (Fin i1) (Fin i2) o1 o2 m b /\
    scales (fn_scale E [a; a1; a2; a3; a4]) (any_floating [n1; n2; n3; n4]) (on_line m b) (members a).
Proof.
  intros Hn F1 N1 F2 N2 Ni F3 N3 F4 N4 No Hl.
  destruct (double_read_ok (e_double E) n1 _ N1) as (d1 & H1 & R1 & _). destruct (double_read_ok (e_double E) n2 _ N2) as (d2 & H2 & R2 & _).
  destruct (double_read_ok (e_double E) n3 _ N3) as (d3 & H3 & R3 & _). destruct (double_read_ok (e_double E) n4 _ N4) as (d4 & H4 & R4 & _).
  pose proof (sub_ok _ Hn _ _ _ _ R4 R3) as So. destruct (sum_real _ _ _ So) as (xout & Ro).
  pose proof (sub_ok _ Hn _ _ _ _ R2 R1) as Si. destruct (sum_real _ _ _ Si) as (xin & Ri).
  pose proof (diff_nonzero _ _ _ _ _ _ Hn R1 R2 Ni Ri) as Nz.
  pose proof (div_ok _ Hn _ _ _ _ Ro Ri Nz) as Qm. destruct (quotient_real _ _ _ Qm Nz) as (m & Rm).
  pose proof (mul_ok _ Hn _ _ _ _ Rm R1) as Pp. destruct (product_real _ _ _ Pp) as (p & Rp).
  pose proof (sub_ok _ Hn _ _ _ _ R3 Rp) as Sb. destruct (sum_real _ _ _ Sb) as (b & Rb).
  exists m, b. split.
  { eexists _, xout, _, xin, _, _, p, _. split; [exact So|]. split; [exact Ro|]. split; [exact Si|]. split; [exact Ri|].
    split; [exact Qm|]. split; [exact Rm|]. split; [exact Pp|]. split; [exact Rp|]. split; [exact Sb|exact Rb]. }
  unfold fn_scale. rewrite (first_get _ _ F1), (first_get _ _ F2), (first_get _ _ F3), (first_get _ _ F4). cbn [bind double_at tag_at].
  rewrite H1, H2, H3, H4. cbn [bind]. rewrite aalloc_members. cbn [bind].
  assert (D : deq d4 d3 = false).
  { destruct (deq d4 d3) eqn:K; [exfalso|reflexivity]. apply (proj1 (deq_iff _ _ _ _ R4 R3)) in K. apply No. now apply same_sym. }
  rewrite D. change (items a) with (members a).
  apply scale_each; [apply ends_floating| |exact Hl].
  intros c x d _ R. specialize (R eq_refl). pose proof (mul_ok _ Hn _ _ _ _ Rm R) as P. destruct (product_real _ _ _ P) as (y & Ry).
  eexists _, y. split; [exact P|]. split; [exact Ry|]. exact (add_ok _ Hn _ _ _ _ Ry Rb).
Qed.
Print Assumptions C75_scale.
(** If the two ends of the output are equal every number becomes that end. *)
Theorem C75_scale_constant E a a1 a2 a3 a4 n1 n2 n3 n4 x1 x2 o1 o2 :
  first a1 n1 -> number n1 x1 -> first a2 n2 -> number n2 x2 ->
  first a3 n3 -> number n3 o1 -> first a4 n4 -> number n4 o2 -> same o1 o2 ->
  Forall (fun m => unscaled m \/ exists x, measured m x) (members a) ->
  scales (fn_scale E [a; a1; a2; a3; a4]) (any_floating [n1; n2; n3; n4]) (fun _ d => double_read n3 o1 d) (members a).
Proof.
  intros F1 N1 F2 N2 F3 N3 F4 N4 No Hl.
  destruct (double_read_ok (e_double E) n1 _ N1) as (d1 & H1 & R1 & _). destruct (double_read_ok (e_double E) n2 _ N2) as (d2 & H2 & R2 & _).
  destruct (double_read_ok (e_double E) n3 _ N3) as (d3 & H3 & R3). destruct (double_read_ok (e_double E) n4 _ N4) as (d4 & H4 & R4 & _).
  unfold fn_scale. rewrite (first_get _ _ F1), (first_get _ _ F2), (first_get _ _ F3), (first_get _ _ F4). cbn [bind double_at tag_at].
  rewrite H1, H2, H3, H4. cbn [bind]. rewrite aalloc_members. cbn [bind].
  rewrite (proj2 (deq_iff _ _ _ _ R4 (proj1 R3)) (same_sym _ _ No)). change (items a) with (members a).
  apply scale_each; [apply ends_floating| |exact Hl]. intros c x d _ _. exact R3.
Qed.
Print Assumptions C75_scale_constant.
Theorem C75_scale_arity E argv : length argv <> 5%nat -> fn_scale E argv = Ok (1, None).
Proof. destruct argv as [|a [|b [|c [|d [|e [|f l]]]]]]; intros H; try reflexivity. now destruct H. Qed.
Print Assumptions C75_scale_arity.
Example C75_scale_case E : fn_scale E [Some [i32 5; set_true atom_fresh; i32 (-3)]; Some [i32 0]; Some [i32 10]; Some [i32 0]; Some [i32 25]] =
  Ok (0, Some [i32 12; set_true atom_fresh; i32 (-7)]).
Proof. vm_compute. reflexivity. Qed.
Example C75_scale_far E : fn_scale E [Some [i32 (2^30)]; Some [i32 0]; Some [i32 1]; Some [i32 0]; Some [i32 2]] = Ub Overflow.
Proof. vm_compute. reflexivity. Qed.
Example C75_scale_hypotheses : number (i32 10) (Fin 10) /\ measured (i32 5) (Fin 5) /\ unscaled (set_true atom_fresh) /\ ~ (0 == 10)%Q.
Proof.
  assert (X : forall v, in_type I32 v -> Z.abs v <= 2^53 -> number (i32 v) (Fin (inject_Z v))).
  { intros v H B. apply (number_int false I32); [|exact B]. apply (int_operand I32), H. }
  split; [apply (X 10); unfold in_type, signed, width; lia|]. split; [|split; [left; reflexivity|discriminate]].
  split; [apply (X 5); unfold in_type, signed, width; lia|]. intros [K|[K|K]]; discriminate K.
Qed.
