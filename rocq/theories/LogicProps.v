(** C52 and C53: appending strings, and truth values in the expression language. *)

From Coq Require Import ZArith List Bool QArith Lia Lqa.
From Verif Require Import Base BaseProofs Text WireSpec SerialModel SerialSpec AtomUModel AtomSpec AtomProofs StrfmtModel TextProps NumProps
  RoundSpec FloatModel FloatProofs FArithModel ExprModel ExprListModel ExprSpec ExprProps ExprListProofs ExprListProps RealSpec CompareProofs
  LogicSpec.
Import ListNotations.
Open Scope Z_scope.

(** * C52 *)

(** Adding strings appends them. *)
Theorem C52_strings E a b p1 p2 s1 s2 r :
  op_add E (Some (set_string a p1 s1)) (Some (set_string b p2 s2)) r = Ok (0, set_string r 0 (s1 ++ s2)).
Proof. reflexivity. Qed.
Print Assumptions C52_strings.

Lemma decimal_nonul fuel : forall n, 0 <= n -> nonul (decimal fuel n).
Proof.
  induction fuel as [|f IH]; intros n Hn; cbn [decimal]; [apply Forall_nil|]. destruct (n <? 10) eqn:L.
  - apply Forall_cons; [lia|apply Forall_nil].
  - apply Forall_app. split; [apply IH; Z.div_mod_to_equations; lia|].
    apply Forall_cons; [Z.div_mod_to_equations; lia|apply Forall_nil].
Qed.
Lemma numeral_nonul v : nonul (numeral v).
Proof.
  unfold numeral, digit_string. destruct (v <? 0) eqn:L; [apply Z.ltb_lt in L; apply Forall_cons; [discriminate|]|apply Z.ltb_ge in L];
    apply decimal_nonul; lia.
Qed.

Lemma text_of_int E t a v : in_type t v -> t <> I8 -> t <> U8 -> text_of E (set_u t a v) = Ok (numeral v).
Proof.
  intros Hv H1 H2. unfold text_of. rewrite (proj2 (C49_integers (e_text E) (e_junk E) t a v Hv (or_introl H2))).
  cbn [bind]. assert (T : text t v = numeral v) by (destruct t; easy). rewrite T.
  change (numeral v ++ [0]) with ([] ++ numeral v ++ 0 :: []). change 0 with (zlen (@nil Z)) at 2.
  apply rdstr_at. apply numeral_nonul.
Qed.

(** Adding a number of 16 or more bits to a string appends its decimal numeral,
    adding a string to a number puts the numeral before the string; booleans are
    written out. *)
Theorem C52_numbers E a b p s t v r : in_type t v -> t <> I8 -> t <> U8 ->
  op_add E (Some (set_string a p s)) (Some (set_u t b v)) r = Ok (0, set_string r 0 (s ++ numeral v)) /\
  op_add E (Some (set_u t b v)) (Some (set_string a p s)) r = Ok (0, set_string r 0 (numeral v ++ s)).
Proof.
  intros Hv H1 H2. destruct (tag_numeric t) as [N _]. pose proof (tag_not t 115 ltac:(cbn; tauto)) as T.
  split; unfold op_add; cbn [set_string a_tt]; rewrite tag_set, N, T; cbn [Z.eqb Pos.eqb andb string_of bind];
    rewrite (text_of_int E t b v Hv H1 H2); reflexivity.
Qed.
Print Assumptions C52_numbers.

Theorem C52_booleans E a b p s r (c : bool) : let x := if c then set_true b else set_false b in
  let word := if c then str "true" else str "false" in
  op_add E (Some (set_string a p s)) (Some x) r = Ok (0, set_string r 0 (s ++ word)) /\
  op_add E (Some x) (Some (set_string a p s)) r = Ok (0, set_string r 0 (word ++ s)).
Proof.
  intros x word. assert (T : text_of E x = Ok word).
  { subst x word. destruct b as [tg w q]. destruct c; unfold text_of, au_string; cbn [set_true set_false au_string_len Z.eqb Pos.eqb bind];
      (destruct (out_buffer _ _ _ _) as [buf nn] eqn:Ob).
    - change (zlen [116; 114; 117; 101]) with 4 in *.
      destruct (out_new (e_junk E) 4 ltac:(lia)) as (b' & Hb & Hl). rewrite Ob in Hb. injection Hb as -> ->.
      change [116; 114; 117; 101] with (str "true"). rewrite snprintf_front by (try lia; change (zlen (str "true")) with 4; lia).
      cbn [bind]. change (firstn _ _) with (str "true"). 
      match goal with |- rdstr (?s ++ [0] ++ ?t) 0 = _ => exact (rdstr_at [] s t ltac:(repeat (apply Forall_cons; [discriminate|]); apply Forall_nil)) end.
    - change (zlen [102; 97; 108; 115; 101]) with 5 in *.
      destruct (out_new (e_junk E) 5 ltac:(lia)) as (b' & Hb & Hl). rewrite Ob in Hb. injection Hb as -> ->.
      change [102; 97; 108; 115; 101] with (str "false"). rewrite snprintf_front by (try lia; change (zlen (str "false")) with 5; lia).
      cbn [bind]. change (firstn _ _) with (str "false").
      match goal with |- rdstr (?s ++ [0] ++ ?t) 0 = _ => exact (rdstr_at [] s t ltac:(repeat (apply Forall_cons; [discriminate|]); apply Forall_nil)) end. }
  assert (N : is_numeric (a_tt x) = true /\ (a_tt x =? 115) = false) by (subst x; destruct b, c; split; reflexivity).
  destruct N as [N1 N2]. clearbody x word.
  split; unfold op_add; cbn [set_string a_tt]; rewrite N1, N2; cbn [Z.eqb Pos.eqb andb string_of bind]; rewrite T; reflexivity.
Qed.
Print Assumptions C52_booleans.

(** Beyond that adding a string to something is an error, and so is adding
    something else to a string. *)
Theorem C52_others E a p s x r : In (a_tt x) [78; 98; 46] ->
  op_add E (Some (set_string a p s)) (Some x) r = Ok (1, r) /\
  op_add E (Some x) (Some (set_string a p s)) r = Ok (1, r).
Proof.
  intros H. unfold op_add. cbn [set_string a_tt]. cbn [In] in H.
  destruct H as [<-|[<-|[<-|[]]]]; split; reflexivity.
Qed.
Print Assumptions C52_others.

Example C52_case E a b r : in_type I32 (-12) /\ numeral (-12) = str "-12" /\
  op_add E (Some (set_string a 0 (str "n"))) (Some (set_u I32 b (-12))) r = Ok (0, set_string r 0 (str "n-12")).
Proof.
  split; [unfold in_type; cbn; lia|]. split; [reflexivity|].
  apply (proj1 (C52_numbers E a b 0 (str "n") I32 (-12) r ltac:(unfold in_type; cbn; lia) ltac:(discriminate) ltac:(discriminate))).
Qed.

(** * C53 *)

Lemma truth_bool a c : truth a c -> au_bool a = c.
Proof.
  intros [b t z a' Ho|a' x c' Hn Hc|tg w p Ht].
  - destruct Ho as [t v a' Hv|a'|a']; [now apply C48_integers|destruct a'; reflexivity..].
  - assert (K : au_bool a' = true <-> ~ same x (Fin 0)).
    { destruct Hn as [b t z a' Ho _|a' bits x Hb Hr|a' bits x Hb Hr].
      - assert (B : au_bool a' = negb (z =? 0)).
        { destruct Ho as [t v a' Hv|a'|a']; [now apply C48_integers|destruct a'; reflexivity..]. }
        rewrite B, negb_true_iff, Z.eqb_neq. cbn [same]. change 0%Q with (inject_Z 0). now rewrite inject_Z_injective.
      - destruct (proj1 (C48_floats a' bits) Hb) as [-> _]. destruct x as [q|s|]; cbn [real same] in *.
        + destruct Hr as (v & Hv & E). unfold float_value. rewrite Hv. cbn [nonzero]. now rewrite E.
        + subst bits. destruct s; cbn; tauto.
        + unfold float_value, ieee_value. destruct Hr as [-> _]. rewrite Z.eqb_refl. cbn. tauto.
      - destruct (proj2 (C48_floats a' bits) Hb) as [-> _]. destruct x as [q|s|]; cbn [real same] in *.
        + destruct Hr as (v & Hv & E). unfold double_value. rewrite Hv. cbn [nonzero]. now rewrite E.
        + subst bits. destruct s; cbn; tauto.
        + unfold double_value, ieee_value. destruct Hr as [-> _]. rewrite Z.eqb_refl. cbn. tauto. }
    destruct (au_bool a'), c'; try reflexivity; exfalso; intuition congruence.
  - cbn [In] in Ht. destruct Ht as [<-|[<-|[<-|[<-|[<-|[]]]]]]; reflexivity.
Qed.

(** Conjunction and disjunction. *)
Theorem C53_and_or E a b c d : truth a c -> truth b d ->
  answers op_and E a b (c = true /\ d = true) /\ answers op_or E a b (c = true \/ d = true).
Proof.
  intros Ha Hb. apply truth_bool in Ha, Hb. split.
  - apply (answer_bool _ _ _ _ _ (c && d)); [|apply andb_true_iff]. intros r. unfold op_and. now rewrite Ha, Hb.
  - apply (answer_bool _ _ _ _ _ (c || d)); [|apply orb_true_iff]. intros r. unfold op_or. now rewrite Ha, Hb.
Qed.
Print Assumptions C53_and_or.
(** A missing operand is false. *)
Theorem C53_missing E a c r : truth a c ->
  op_and E (Some a) None r = Ok (0, set_false r) /\ op_and E None (Some a) r = Ok (0, set_false r) /\
  op_or E (Some a) None r = Ok (0, if c then set_true r else set_false r) /\
  op_or E None (Some a) r = Ok (0, if c then set_true r else set_false r).
Proof.
  intros H. apply truth_bool in H. unfold op_and, op_or. rewrite H, orb_false_r. cbn [orb]. unfold set_bool.
  repeat (split; [reflexivity|]). reflexivity.
Qed.
Print Assumptions C53_missing.

(** The members whose negation is right: booleans, nil, 32 bit integers, floats
    and doubles. *)
Definition negatable (a : atom) (c : bool) : Prop :=
  truth a c /\
  (In (a_tt a) [84; 70; 78] \/ (exists t z, (t = I32 \/ t = U32) /\ operand false t z a) \/
   (exists x, number a x /\ In (a_tt a) [102; 100])).

Lemma bool_double o a : In (a_tt a) [102; 100] -> (exists x, number a x) ->
  exists d, au_double o a = Ok d /\ (d mod 2^63 =? 0) = negb (au_bool a).
Proof.
  intros Ht [x Hn]. destruct (number_double_of o a x Hn) as (d & Hd & Hr & _). exists d. split; [exact Hd|].
  assert (Hz : (d mod 2^63 =? 0) = false <-> ~ same x (Fin 0)).
  { pose proof (nonzero_bits 52 11 d ltac:(split; lia)) as N. change (52 + 11) with 63 in N.
    rewrite negb_true_iff in N. rewrite N. fold (double_value d). destruct x as [q|s|]; cbn [real same] in *.
    - destruct Hr as (v & Hv & Ev). unfold double_value. rewrite Hv. cbn [nonzero]. now rewrite Ev.
    - subst d. destruct s; cbn; tauto.
    - unfold double_value, ieee_value. destruct Hr as [-> _]. rewrite Z.eqb_refl. cbn. tauto. }
  assert (Hb : truth a (negb (d mod 2^63 =? 0))).
  { apply (truth_number a x); [exact Hn|]. rewrite negb_true_iff. exact Hz. }
  apply truth_bool in Hb. rewrite Hb, negb_involutive. reflexivity.
Qed.

(** Negating a list negates its members. *)
Theorem C53_not E a more cs : Forall2 negatable (members a) cs ->
  exists ys, fn_not E (a :: more) = Ok (0, Some ys) /\
    Forall2 (fun c y => truth y (negb c) /\ In (a_tt y) [105; 84; 70]) cs ys.
Proof.
  intros H. unfold fn_not. cbn [argv_at nth_error bind]. rewrite alen_members, aalloc_len. cbn [bind].
  unfold zlen. rewrite Nat2Z.id.
  destruct (fill_new (fun x y => forall c, negatable x c -> truth y (negb c) /\ In (a_tt y) [105; 84; 70]) (not_one E)
    (fun i out => do x <- aget a i;
                  match x with Some x => aput out i (fun r => not_one E x r) | None => Ub NullDeref end) (members a))
    as (ys & Hr & Hys).
  - clear more. induction H as [|x c l cs Hx H IH]; [constructor|]. constructor; [|exact IH]. clear IH H.
    assert (One : forall (b c' : bool), c' = negb b -> truth (set_int32 atom_fresh (if b then 0 else 1)) c' /\
      In (a_tt (set_int32 atom_fresh (if b then 0 else 1))) [105; 84; 70]).
    { intros b c' ->. split; [|now left].
      destruct b; [apply (truth_int false I32 0), (int_operand I32 0)|apply (truth_int false I32 1), (int_operand I32 1)];
        unfold in_type; cbn; lia. }
    destruct Hx as [Tx K]. pose proof (truth_bool _ _ Tx) as B.
    destruct K as [K|[(t & z & Ht & Ho)|(q & Hn & K)]].
    + cbn [In] in K. destruct x as [tg w p]. cbn [a_tt] in K.
      destruct K as [<-|[<-|[<-|[]]]]; cbn in B; eexists; (split; [reflexivity|]); intros c' [T' _];
        apply truth_bool in T'; cbn in T'; subst c'; (split; [|cbn; tauto]).
      * apply (truth_int true I8 0). constructor.
      * apply (truth_int true I8 1). constructor.
      * apply (truth_int true I8 1). constructor.
    + assert (N : not_one E x atom_fresh = Ok (set_int32 atom_fresh (if au_bool x then 0 else 1))).
      { assert (B' : au_bool x = negb (z =? 0)) by exact (truth_bool _ _ (truth_int _ _ _ _ Ho)).
        unfold not_one. pose proof (operand_tag _ _ _ _ Ho) as Tg. cbn in Tg. pose proof (operand_get _ _ _ _ I32 Ho) as G.
        change (get_u I32 x) with (au_int32 x) in G. rewrite Tg, G, B'.
        pose proof (operand_in _ _ _ _ Ho) as Hz. assert (W : (wrap I32 z =? 0) = (z =? 0)).
        { destruct Ht; subst t; unfold in_type in Hz; cbn in Hz; cbn [wrap]; unfold s32;
            destruct (z =? 0) eqn:Z0; [apply Z.eqb_eq in Z0; subst z; reflexivity|apply Z.eqb_neq in Z0; apply Z.eqb_neq; Z.div_mod_to_equations; lia|
              apply Z.eqb_eq in Z0; subst z; reflexivity|apply Z.eqb_neq in Z0; apply Z.eqb_neq; Z.div_mod_to_equations; lia]. }
        cbn [bind]. rewrite W. destruct Ht; subst t; cbn [tag_of Z.eqb Pos.eqb orb bind]; destruct (z =? 0); reflexivity. }
      eexists. split; [exact N|]. intros c' [T' _]. apply One. now rewrite (truth_bool _ _ T').
    + destruct (bool_double (e_double E) x K (ex_intro _ q Hn)) as (d & Hd & Hb).
      assert (N : not_one E x atom_fresh = Ok (set_int32 atom_fresh (if au_bool x then 0 else 1))).
      { unfold not_one. rewrite Hd. cbn [bind]. rewrite Hb. cbn [In] in K. destruct K as [<-|[<-|[]]]; cbn [Z.eqb Pos.eqb orb bind];
          destruct (au_bool x); reflexivity. }
      eexists. split; [exact N|]. intros c' [T' _]. apply One. now rewrite (truth_bool _ _ T').
  - intros j x out Hx. rewrite aget_members, Nat2Z.id, Hx by lia. reflexivity.
  - exists ys. rewrite Hr. split; [reflexivity|]. clear Hr. revert ys Hys.
    induction H as [|x c l cs Hx H IH]; intros ys Hys; inversion Hys; subst; constructor; auto.
Qed.
Print Assumptions C53_not.

(** It does not negate 8 and 16 bit integers: not even 0 becomes true. *)
Theorem C53_not_narrow_refuted E a t v : t = I8 \/ t = U8 \/ t = I16 \/ t = U16 -> in_type t v ->
  fn_not E [Some [set_u t a v]] = Ok (0, Some [set_false atom_fresh]).
Proof. intros [->|[->|[->| ->]]] H; destruct a; reflexivity. Qed.
Print Assumptions C53_not_narrow_refuted.
(** Of 64 bit integers it looks at the low 32 bits only. *)
Theorem C53_not_wide E a t v : t = I64 \/ t = U64 -> in_type t v ->
  fn_not E [Some [set_u t a v]] = Ok (0, Some [set_int32 atom_fresh (if v mod 2^32 =? 0 then 1 else 0)]).
Proof.
  intros Ht H. pose proof (get_set t I32 a v H) as G. change (get_u I32 (set_u t a v)) with (au_int32 (set_u t a v)) in G.
  assert (N : not_one E (set_u t a v) atom_fresh = Ok (set_int32 atom_fresh (if v mod 2^32 =? 0 then 1 else 0))).
  { unfold not_one. rewrite G. cbn [bind wrap].
    assert (W : (s32 v =? 0) = (v mod 2^32 =? 0)).
    { unfold s32. destruct (v mod 2^32 =? 0) eqn:Z0; [apply Z.eqb_eq in Z0; apply Z.eqb_eq|apply Z.eqb_neq in Z0; apply Z.eqb_neq];
        Z.div_mod_to_equations; lia. }
    rewrite W. destruct Ht; subst t; destruct a; reflexivity. }
  unfold fn_not. cbn [argv_at nth_error bind alen]. change (zlen [set_u t a v]) with 1.
  change (aalloc 1) with (@Ok arr (Some [atom_fresh])). cbn [bind]. change (Z.to_nat 1) with 1%nat. cbn [forn].
  change (aget (Some [set_u t a v]) 0) with (Ok (Some (set_u t a v))). cbn [bind aput].
  change (zlen [atom_fresh] <=? 0) with false. change (0 <? 0) with false. cbn iota. change (Z.to_nat 0) with 0%nat. cbn [nth_error].
  rewrite N. reflexivity.
Qed.
Print Assumptions C53_not_wide.
Example C53_not_wide_refuted : exists v, in_type I64 v /\ truth (set_u I64 atom_fresh v) true /\ (v mod 2^32 =? 0) = true.
Proof.
  exists (2^32). assert (H : in_type I64 (2^32)) by (unfold in_type; cbn; lia). split; [exact H|]. split; [|reflexivity].
  exact (truth_int false I64 (2^32) _ (int_operand I64 (2^32) atom_fresh H)).
Qed.

(** The places of the true members. *)
Lemma nonzero_places l cs : Forall2 truth l cs -> forall k,
  nonzero_idxs (Z.of_nat k) l = map Z.of_nat (map (fun i => (k + i)%nat) (filter (fun i => nth i cs false) (seq 0 (length cs)))).
Proof.
  induction 1 as [|x c l cs Hx H IH]; intros k; [reflexivity|]. cbn [nonzero_idxs length seq filter nth].
  rewrite (truth_bool _ _ Hx). replace (Z.of_nat k + 1) with (Z.of_nat (S k)) by lia. rewrite IH.
  assert (Sq : forall n (f : nat -> bool), filter f (seq 1 n) = map S (filter (fun i => f (S i)) (seq 0 n))).
  { intros n f. rewrite <- seq_shift. clear. induction (seq 0 n) as [|i s IH']; [reflexivity|]. cbn [map filter].
    rewrite IH'. destruct (f (S i)); reflexivity. }
  rewrite Sq. cbn [nth].
  assert (M : forall s, map (fun i => (S k + i)%nat) s = map (fun i => (k + i)%nat) (map S s)).
  { intros s. rewrite map_map. apply map_ext. intros i. lia. }
  rewrite M. destruct c; [|reflexivity]. cbn [map]. rewrite Nat.add_0_r. reflexivity.
Qed.
Theorem C53_nonzero a more cs : Forall2 truth (members a) cs -> zlen (members a) < 2^31 ->
  fn_nonzero (a :: more) = Ok (0, Some (map (set_int32 atom_fresh) (places cs))).
Proof.
  intros H Hl. unfold fn_nonzero. cbn [argv_at nth_error bind].
  change (match a with Some l => l | None => [] end) with (members a).
  assert (N : nonzero_idxs 0 (members a) = places cs).
  { change 0 with (Z.of_nat 0). rewrite (nonzero_places _ _ H 0), map_map. reflexivity. }
  rewrite N.
  rewrite aalloc_len. cbn [bind].
  destruct (fill_new (fun n y => y = set_int32 atom_fresh n) (fun n x => Ok (set_int32 x (s32 n)))
    (fun i out => do n <- rd (places cs) i; aput out i (fun x => Ok (set_int32 x (s32 n)))) (places cs)) as (ys & Hr & Hys).
  - apply Forall_forall. intros n Hn. eexists. split; [reflexivity|]. f_equal. apply s32_small.
    unfold places in Hn. apply in_map_iff in Hn. destruct Hn as (i & <- & Hi). apply filter_In in Hi. destruct Hi as [Hi _].
    apply in_seq in Hi. assert (length (members a) = length cs) by (clear - H; induction H; cbn; congruence).
    unfold zlen in Hl. lia.
  - intros j n out Hn. assert (Hj : (j < length (places cs))%nat) by (apply nth_error_Some; congruence).
    unfold rd. rewrite (proj2 (Z.ltb_ge _ _)) by lia. rewrite Nat2Z.id, Hn. reflexivity.
  - rewrite Hr. cbn [bind]. do 3 f_equal. clear - Hys. induction Hys; cbn [map]; congruence.
Qed.
Print Assumptions C53_nonzero.

(** * Assigning to places of a list *)

Lemma zlen_same {A B} (R : A -> B -> Prop) l l' : Forall2 R l l' -> zlen l = zlen l'.
Proof. unfold zlen. induction 1; cbn [length]; lia. Qed.
Lemma set_nth_put l l' n d y : Forall2 copy_of l l' -> copy_of d y -> (n < length l)%nat ->
  Forall2 copy_of (firstn n l ++ d :: skipn (S n) l) (set_nth l' n y).
Proof.
  intros H Hd. revert n. induction H as [|a b l l' Ha H IH]; intros n Hn; [cbn in Hn; lia|].
  destruct n as [|n]; cbn [firstn skipn app set_nth].
  - constructor; assumption.
  - constructor; [assumption|]. apply IH. cbn in Hn. lia.
Qed.
Lemma put_len {A} (l : list A) i x : zlen (put l i x) = zlen l.
Proof.
  unfold put. destruct ((0 <=? i) && (i <? zlen l)) eqn:C; [|reflexivity].
  apply andb_true_iff in C. destruct C as [C1 C2]. apply Z.leb_le in C1. apply Z.ltb_lt in C2.
  unfold zlen in *. rewrite app_length, firstn_length. cbn [length]. rewrite skipn_length. lia.
Qed.
Lemma index_int a n : index a n -> au_int a = Ok n.
Proof.
  intros (b & t & v & Ho & Hc). rewrite (operand_int _ _ _ _ Ho). f_equal.
  exact (converted_unique I32 v _ _ (converted_wrap I32 v) Hc).
Qed.

Lemma assign_one_ok out outlen idx i data j l a n d : Forall2 copy_of l (members out) -> outlen = zlen l ->
  0 <= i -> nth_error (members idx) (Z.to_nat i) = Some a -> index a n ->
  0 <= j -> nth_error (members data) (Z.to_nat j) = Some d -> copyable d ->
  exists out', assign_one out outlen idx i data j = Ok ((0 <=? n) && (n <? zlen l), out') /\
    Forall2 copy_of (put l n d) (members out').
Proof.
  intros Hl -> Hi Ha Hn Hj Hd Hc. unfold assign_one, put. rewrite aget_members, Ha by exact Hi. cbn [bind int_at].
  rewrite (index_int _ _ Hn). cbn [bind].
  destruct (n >=? zlen l) eqn:C1; rewrite Z.geb_leb in C1; [apply Z.leb_le in C1|apply Z.leb_gt in C1].
  - cbn [orb]. rewrite (proj2 (Z.ltb_ge n _)) by lia. rewrite andb_false_r. exists out. split; [reflexivity|exact Hl].
  - destruct (n <? 0) eqn:C2; [apply Z.ltb_lt in C2|apply Z.ltb_ge in C2]; cbn [orb].
    + rewrite (proj2 (Z.leb_gt 0 n)) by lia. exists out. split; [reflexivity|exact Hl].
    + rewrite (proj2 (Z.leb_le 0 n)), (proj2 (Z.ltb_lt n _)) by lia. cbn [andb].
      destruct (copy_ok d Hc) as (y & Hy & Cy). rewrite (copy_member_some _ _ _ _ d Hj Hd).
      pose proof (zlen_same _ _ _ Hl) as Len.
      destruct out as [o|]; cbn [members] in *; [|change (zlen (@nil atom)) with 0 in Len; lia].
      exists (Some (set_nth o (Z.to_nat n) y)). split; [|apply set_nth_put; [exact Hl|exact Cy|unfold zlen in *; lia]].
      pose proof (aput_in o (Z.to_nat n) y ltac:(unfold zlen in *; lia)) as P. rewrite Z2Nat.id in P by lia.
      unfold aput in *. rewrite Hy. rewrite P. reflexivity.
Qed.

Lemma assign_loop outlen idx data (jd : Z -> Z) : forall (ps : list (Z * atom)) i0 out l,
  Forall2 copy_of l (members out) -> outlen = zlen l -> 0 <= i0 ->
  (forall j p, nth_error ps j = Some p -> exists a,
     nth_error (members idx) (Z.to_nat (i0 + Z.of_nat j)) = Some a /\ index a (fst p) /\
     0 <= jd (i0 + Z.of_nat j) /\ nth_error (members data) (Z.to_nat (jd (i0 + Z.of_nat j))) = Some (snd p) /\ copyable (snd p)) ->
  exists out', forn (length ps) i0 (fun i out => do ' (_, out) <- assign_one out outlen idx i data (jd i); Ok out) out = Ok out' /\
    Forall2 copy_of (put_all l (map fst ps) (map snd ps)) (members out').
Proof.
  induction ps as [|[n d] ps IH]; intros i0 out l Hl Ho Hi H; [exists out; split; [reflexivity|exact Hl]|].
  cbn [length forn map fst snd put_all].
  destruct (H 0%nat (n, d) eq_refl) as (a & Ha & Hn & Hj & Hd & Hc). rewrite Z.add_0_r in Ha, Hj, Hd. cbn [fst snd] in *.
  destruct (assign_one_ok out outlen idx i0 data (jd i0) l a n d Hl Ho Hi Ha Hn Hj Hd Hc) as (out1 & H1 & L1).
  rewrite H1. cbn [bind]. apply IH; [exact L1|rewrite put_len; exact Ho|lia|].
  intros j p Hp. destruct (H (S j) p Hp) as (a' & K). exists a'.
  replace (i0 + 1 + Z.of_nat j) with (i0 + Z.of_nat (S j)) by lia. exact K.
Qed.
Lemma put_all_combine {A} : forall ns (ds : list A) l,
  put_all l (map fst (combine ns ds)) (map snd (combine ns ds)) = put_all l ns ds.
Proof. induction ns as [|n ns IH]; intros [|d ds] l; cbn; auto. Qed.
Lemma nth_combine {A B} : forall (l : list A) (l' : list B) j p, nth_error (combine l l') j = Some p ->
  nth_error l j = Some (fst p) /\ nth_error l' j = Some (snd p).
Proof.
  induction l as [|a l IH]; intros [|b l'] [|j] p H; try discriminate H; cbn in *.
  - now injection H as <-.
  - now apply IH.
Qed.
Lemma Forall2_nth {A B} (R : A -> B -> Prop) l l' j b : Forall2 R l l' -> nth_error l' j = Some b ->
  exists a, nth_error l j = Some a /\ R a b.
Proof.
  intros H. revert j. induction H as [|x y l l' Hx H IH]; intros [|j] Hj; try discriminate Hj.
  - injection Hj as <-. exists x. split; [reflexivity|exact Hx].
  - apply IH. exact Hj.
Qed.
Lemma acopy_ok a : Forall copyable (members a) -> exists b, acopy a = Ok b /\ Forall2 copy_of (members a) (members b).
Proof.
  intros H. destruct a as [l|]; [|exists None; split; [reflexivity|constructor]].
  cbn [acopy members] in *. rewrite aalloc_len. cbn [bind].
  destruct (fill_all (fun i cp => copy_member cp i (Some l) i) l 0 H) as (ys & Hr & Hys).
  - intros j x out Hx. apply copy_member_some; [lia|]. cbn [members]. now rewrite Z.add_0_l, Nat2Z.id.
  - exists (Some ys). split; [exact Hr|exact Hys].
Qed.

(** [assign_to_index(list, indexes, data)] puts the data at the indexes, one
    after the other; a single datum is put at every index; indexes that are
    negative or too large are skipped.  It fails, without changing a member, if
    there is one index that is out of range but more than one datum. *)
Theorem C53_assign a0 idx data ns : Forall copyable (members a0) -> Forall copyable (members data) ->
  zlen (members a0) < 2^31 -> zlen (members idx) < 2^31 -> zlen (members data) < 2^31 ->
  Forall2 index (members idx) ns -> ns <> [] -> members data <> [] ->
  exists c out, fn_assign_to_index [a0; idx; data] = Ok (c, out) /\
    Forall2 copy_of
      (put_all (members a0) ns (match members data with [d] => repeat d (length ns) | ds => ds end)) (members out) /\
    (c = 1 <-> (1 < zlen (members data) /\ exists n, ns = [n] /\ (n < 0 \/ zlen (members a0) <= n))) /\
    (c = 0 \/ c = 1).
Proof.
  intros Hc Hd L0 L1 L2 Hi Hns Hds. unfold fn_assign_to_index.
  destruct (acopy_ok a0 Hc) as (cp & Hcp & Ccp). rewrite Hcp. cbn [bind]. rewrite !alen_members.
  pose proof (zlen_same _ _ _ Ccp) as Lc. pose proof (zlen_same _ _ _ Hi) as Li.
  pose proof (zlen_nonneg (members a0)). pose proof (zlen_nonneg (members idx)). pose proof (zlen_nonneg (members data)).
  rewrite !s32_small by lia.
  assert (N0 : zlen ns <> 0) by (destruct ns; [now destruct Hns|rewrite zlen_cons; pose proof (zlen_nonneg ns); lia]).
  assert (D0 : zlen (members data) <> 0)
    by (destruct (members data) as [|x xs]; [now destruct Hds|rewrite zlen_cons; pose proof (zlen_nonneg xs); lia]).
  rewrite (proj2 (Z.eqb_neq _ 0)) by lia. rewrite (proj2 (Z.eqb_neq _ 0)) by lia. cbn [orb].
  rewrite Z.gtb_ltb. rewrite Z.gtb_ltb.
  destruct (zlen (members idx) =? 1) eqn:C1; [apply Z.eqb_eq in C1|apply Z.eqb_neq in C1].
  - destruct ns as [|n [|n' ns]]; [now destruct Hns| |rewrite !zlen_cons in Li; pose proof (zlen_nonneg ns); lia].
    inversion Hi as [|a b li ? Ha Hr Ei]; subst. inversion Hr; subst.
    destruct (1 <? zlen (members data)) eqn:C2; [apply Z.ltb_lt in C2|apply Z.ltb_ge in C2]; cbn [andb].
    + destruct (members data) as [|d [|d' ds]] eqn:Ed; [now destruct Hds|change (zlen [d]) with 1 in C2; lia|].
      destruct (assign_one_ok cp (zlen (members cp)) idx 0 data 0 (members a0) a n d) as (out & Ho & Co);
        [exact Ccp|now rewrite Lc|lia|now rewrite <- Ei|exact Ha|lia|now rewrite Ed|exact (Forall_inv Hd)|].
      rewrite Ho. cbn [bind]. eexists. exists out. split; [reflexivity|]. split; [exact Co|]. split.
      * destruct ((0 <=? n) && (n <? zlen (members a0))) eqn:C3.
        -- apply andb_true_iff in C3. destruct C3 as [C3 C4]. apply Z.leb_le in C3. apply Z.ltb_lt in C4.
           split; [discriminate|]. intros (_ & m & E & K). injection E as <-. lia.
        -- split; [|reflexivity]. intros _. split; [exact C2|]. exists n. split; [reflexivity|].
           apply andb_false_iff in C3. destruct C3 as [C3|C3]; [apply Z.leb_gt in C3|apply Z.ltb_ge in C3]; lia.
      * destruct ((0 <=? n) && (n <? zlen (members a0))); [now left|now right].
    + destruct (members data) as [|d [|d' ds]] eqn:Ed; [now destruct Hds| |rewrite !zlen_cons in C2; pose proof (zlen_nonneg ds); lia].
      change (zlen [a]) with 1. change (1 <? 1) with false. cbn [andb]. change (zlen [d]) with 1. rewrite Z.ltb_irrefl.
      destruct (assign_loop (zlen (members cp)) idx data (fun i => i) [(n, d)] 0 cp (members a0)) as (out & Ho & Co);
        [exact Ccp|now rewrite Lc|lia| |].
      * intros [|j] p Hp; [|destruct j; discriminate Hp]. injection Hp as <-. exists a. cbn [fst snd].
        change (Z.to_nat (0 + Z.of_nat 0)) with 0%nat. rewrite Ed, <- Ei. split; [reflexivity|]. split; [exact Ha|].
        split; [lia|]. split; [reflexivity|exact (Forall_inv Hd)].
      * cbn [length] in Ho. change (Z.to_nat 1) with 1%nat. rewrite Ho. cbn [bind]. exists 0, out.
        split; [reflexivity|]. split; [exact Co|]. split; [|now left]. split; [discriminate|]. intros (K & _). lia.
  - cbn [andb]. assert (Nm : forall (P : Prop), (0 = 1 <-> (P /\ exists n, ns = [n] /\ (n < 0 \/ zlen (members a0) <= n)))).
    { intros P. split; [discriminate|]. intros (_ & n & -> & _). change (zlen [n]) with 1 in Li. lia. }
    rewrite (proj2 (Z.ltb_lt 1 _)) by lia. cbn [andb].
    destruct (zlen (members data) =? 1) eqn:C2; [apply Z.eqb_eq in C2|apply Z.eqb_neq in C2].
    + destruct (members data) as [|d [|d' ds]] eqn:Ed; [now destruct Hds| |rewrite !zlen_cons in C2; pose proof (zlen_nonneg ds); lia].
      destruct (assign_loop (zlen (members cp)) idx data (fun _ => 0) (combine ns (repeat d (length ns))) 0 cp (members a0))
        as (out & Ho & Co); [exact Ccp|now rewrite Lc|lia| |].
      * intros j p Hp. apply nth_combine in Hp. destruct Hp as [P1 P2].
        apply (Forall2_nth _ _ _ _ _ Hi) in P1. destruct P1 as (a & Pa & Pi). exists a. rewrite Z.add_0_l, Nat2Z.id.
        split; [exact Pa|]. split; [exact Pi|]. split; [lia|]. apply nth_error_In in P2. apply repeat_spec in P2. rewrite P2, Ed.
        split; [reflexivity|exact (Forall_inv Hd)].
      * rewrite combine_length, repeat_length, Nat.min_id in Ho. rewrite Li. unfold zlen at 1. rewrite Nat2Z.id.
        rewrite Ho. cbn [bind]. exists 0, out. split; [reflexivity|]. rewrite put_all_combine in Co.
        split; [exact Co|]. split; [apply Nm|now left].
    + replace (match members data with [d] => repeat d (length ns) | ds => ds end) with (members data)
        by (destruct (members data) as [|d [|d' ds]]; [reflexivity|now destruct C2|reflexivity]).
      destruct (assign_loop (zlen (members cp)) idx data (fun i => i) (combine ns (members data)) 0 cp (members a0))
        as (out & Ho & Co); [exact Ccp|now rewrite Lc|lia| |].
      * intros j p Hp. apply nth_combine in Hp. destruct Hp as [P1 P2].
        apply (Forall2_nth _ _ _ _ _ Hi) in P1. destruct P1 as (a & Pa & Pi). exists a. rewrite Z.add_0_l, Nat2Z.id.
        split; [exact Pa|]. split; [exact Pi|]. split; [lia|]. split; [exact P2|].
        rewrite Forall_forall in Hd. apply Hd. eapply nth_error_In. exact P2.
      * assert (Lm : length (combine ns (members data)) =
          Z.to_nat (if zlen (members data) <? zlen (members idx) then zlen (members data) else zlen (members idx))).
        { rewrite combine_length. destruct (zlen (members data) <? zlen (members idx)) eqn:C3;
            [apply Z.ltb_lt in C3|apply Z.ltb_ge in C3]; unfold zlen in *; lia. }
        rewrite <- Lm, Ho. cbn [bind]. exists 0, out. split; [reflexivity|]. rewrite put_all_combine in Co.
        split; [exact Co|]. split; [apply Nm|now left].
Qed.
Print Assumptions C53_assign.
(** Without indexes or data it fails, with a copy of the list. *)
Theorem C53_assign_nothing a0 idx data : Forall copyable (members a0) -> members idx = [] \/ members data = [] ->
  exists out, fn_assign_to_index [a0; idx; data] = Ok (1, out) /\ Forall2 copy_of (members a0) (members out).
Proof.
  intros Hc H. unfold fn_assign_to_index. destruct (acopy_ok a0 Hc) as (cp & Hcp & Ccp). rewrite Hcp. cbn [bind].
  exists cp. split; [|exact Ccp]. rewrite !alen_members. destruct H as [-> | ->]; [reflexivity|].
  change (s32 (zlen (@nil atom))) with 0. rewrite Z.eqb_refl, orb_true_r. reflexivity.
Qed.
Print Assumptions C53_assign_nothing.
Example C53_case E :
  negatable (set_u U32 atom_fresh 7) true /\ negatable (set_false atom_fresh) false /\
  index (set_u I64 atom_fresh (2^32 + 1)) 1 /\
  put_all [10; 20; 30] [2; 5; -1; 0] [7; 8; 9; 6] = [6; 20; 7] /\ places [true; false; true] = [0; 2] /\
  exists out, fn_assign_to_index
    [Some [set_int32 atom_fresh 10; set_int32 atom_fresh 20]; Some [set_int32 atom_fresh 1]; Some [set_int32 atom_fresh 5]] = Ok (0, out) /\
    out = Some [set_int32 atom_fresh 10; set_int32 atom_fresh 5] /\
    fn_not E [out] = Ok (0, Some [set_int32 atom_fresh 0; set_int32 atom_fresh 0]).
Proof.
  assert (Hu : operand false U32 7 (set_u U32 atom_fresh 7)) by (apply (int_operand U32 7); unfold in_type; cbn; lia).
  split; [split; [exact (truth_int _ _ _ _ Hu)|right; left; exists U32, 7; split; [now right|exact Hu]]|].
  split; [split; [apply (truth_int true I8 0); constructor|left; right; left; reflexivity]|].
  split.
  { exists false, I64, (2^32 + 1). split; [apply (int_operand I64); unfold in_type; cbn; lia|].
    exact (converted_wrap I32 (2^32 + 1)). }
  split; [reflexivity|]. split; [reflexivity|]. eexists. split; [reflexivity|]. split; reflexivity.
Qed.
