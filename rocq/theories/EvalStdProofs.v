(** The functions of EvalStdModel.v compute what EvalStdSpec.v says (C62). *)

From Coq Require Import String ZArith QArith List Bool Lia.
From Verif Require Import Base BaseProofs Text UtilModel WireSpec SerialModel SerialSpec AtomUModel AtomSpec AtomProofs
  WireModel WireProofs BundleSModel BundleSProofs ExprModel ExprListModel ExprSpec ExprProps ExprListProofs ExprListProps
  RealSpec CompareProofs CompareProps DeserProofs DeserProps EvalModel EvalSpec EvalRep EvalBundle EvalProofs EvalSim EvalSteps EvalStdModel EvalStdSpec.
Import ListNotations.
Open Scope Z_scope.

(** * Names *)

Lemma one_of_In name l : one_of name l = true -> exists s, In s l /\ name = str s.
Proof.
  intros H. apply existsb_exists in H as (x & Hx & Hn). apply in_map_iff in Hx as (s & <- & Hs). exists s. split; [exact Hs|].
  unfold same_name in Hn. destruct (list_eq_dec _ _ _); [assumption|discriminate].
Qed.
Ltac plain_name H := apply one_of_In in H as (s & Hin & ->); cbn [In] in Hin;
  repeat (destruct Hin as [<-|Hin]; [intros argv; reflexivity|]); contradiction.

(** * Integers *)

Definition is32 (a : atom) (x : Z) : Prop := exists v, stands a (VNum32 105 v) /\ s32 v = x.
Lemma int32s_rep : forall l vs xs, Forall2 stands l vs -> int32s vs = Some xs -> Forall2 is32 l xs.
Proof.
  intros l vs xs H. revert xs. induction H as [|a v l vs Ha Hl IH]; intros xs Hx; cbn [int32s] in Hx.
  - injection Hx as <-. constructor.
  - destruct v as [tg x| | | | | |]; try discriminate Hx. destruct (Z.eq_dec tg 105) as [->|Hn].
    + destruct (int32s vs) as [ys|]; [|discriminate Hx]. injection Hx as <-. constructor; [exists x; now split|]. now apply IH.
    + exfalso. repeat match type of Hx with context[match ?t with _ => _ end] => is_var t; destruct t; try discriminate Hx end. now destruct Hn.
Qed.
Lemma is32_operand a x : is32 a x -> operand false I32 x a.
Proof.
  intros (v & (Hc & Hs & Hn & Ht) & <-). destruct a as [tg w p]. cbn [a_tt vtag] in Ht. subst tg. destruct Hc as [Hok _].
  cbn [ok_atom] in Hok. destruct Hok as [Hw Hp].
  cbn [raw_value existsb Z.eqb Pos.eqb orb narrow] in Hn. injection Hn as <-.
  assert (p = PNone) by (destruct p; [reflexivity|destruct Hp; discriminate..]). subst p.
  assert (Ea : Atom 105 w PNone = set_u I32 (Atom 105 w PNone) (s32 (w mod 2^32))).
  { cbn [set_u]. unfold set_int32, SerialModel.store. f_equal. unfold s32. Z.div_mod_to_equations. lia. }
  rewrite Ea. apply int_operand. unfold in_type, s32. cbn [signed width]. Z.div_mod_to_equations. lia.
Qed.
Lemma stands_int32 z : stands (set_int32 atom_fresh z) (int32 z).
Proof.
  unfold set_int32, atom_fresh, int32, SerialModel.store. change (0 - 0 mod 2^32) with 0. rewrite Z.add_0_l.
  assert (0 <= z mod 2^32 < 2^32) by (apply Z.mod_pos_bound; lia).
  split; [split; [|exact I]|split; [|split; [|reflexivity]]].
  - cbn [ok_atom]. split; [lia|split; discriminate].
  - cbn [raw_value existsb Z.eqb Pos.eqb orb std_value]. split; [cbn [In]; tauto|]. rewrite Z.mod_mod by lia. assumption.
  - cbn [raw_value existsb Z.eqb Pos.eqb orb narrow]. now rewrite Z.mod_mod by lia.
Qed.
Lemma stands_bool b : stands (set_bool atom_fresh b) (truth b).
Proof. pose proof (rep_bool b) as H. inversion H as [|l vs Hl]; subst. inversion Hl; subst. assumption. Qed.
Lemma int32_mod x y : (x - y) mod 2^32 = 0 -> int32 x = int32 y.
Proof. intros H. unfold int32. f_equal. Z.div_mod_to_equations. lia. Qed.
Lemma converted_int32 x v : converted I32 x v -> int32 v = int32 x.
Proof. intros [_ H]. apply int32_mod. exact H. Qed.

Lemma pairs_matched la lb xs ys ps : Forall2 is32 la xs -> Forall2 is32 lb ys -> matched xs ys = Some ps ->
  Forall2 (fun q p => exists a b, q = (Some a, Some b) /\ is32 a (fst p) /\ is32 b (snd p)) (pairs la lb) ps.
Proof.
  intros Ha Hb Hm.
  assert (K1 : forall a x l zs, is32 a x -> Forall2 is32 l zs ->
    Forall2 (fun q p => exists a b, q = (Some a, Some b) /\ is32 a (fst p) /\ is32 b (snd p)) (map (fun y => (Some a, Some y)) l) (map (fun y => (x, y)) zs)).
  { intros a x l zs Hx. induction 1; cbn [map]; constructor; [|assumption]. eexists _, _. split; [reflexivity|]. now split. }
  assert (K2 : forall a x l zs, is32 a x -> Forall2 is32 l zs ->
    Forall2 (fun q p => exists a b, q = (Some a, Some b) /\ is32 a (fst p) /\ is32 b (snd p)) (map (fun y => (Some y, Some a)) l) (map (fun y => (y, x)) zs)).
  { intros a x l zs Hx. induction 1; cbn [map]; constructor; [|assumption]. eexists _, _. split; [reflexivity|]. now split. }
  assert (K3 : forall l zs, Forall2 is32 l zs -> forall l' zs', Forall2 is32 l' zs' ->
    Forall2 (fun q p => exists a b, q = (Some a, Some b) /\ is32 a (fst p) /\ is32 b (snd p))
      (map (fun '(x, y) => (Some x, Some y)) (combine l l')) (combine zs zs')).
  { induction 1 as [|a x l zs Hx Hl IH]; intros l' zs' H'; cbn [combine map]; [constructor|]. destruct H' as [|b y l' zs' Hy Hl']; cbn [combine map]; constructor.
    - eexists _, _. split; [reflexivity|]. now split.
    - now apply IH. }
  destruct Ha as [|a x la xs Hx Ha], Hb as [|b y lb ys Hy Hb].
  - injection Hm as <-. constructor.
  - destruct Hb as [|b' y' lb ys Hy' Hb]; cbn [matched] in Hm; [discriminate Hm|]. injection Hm as <-. constructor.
  - destruct Ha as [|a' x' la xs Hx' Ha]; cbn [matched] in Hm; [discriminate Hm|]. injection Hm as <-. constructor.
  - destruct Ha as [|a' x' la xs Hx' Ha]; cbn [matched] in Hm.
    + injection Hm as <-. cbn [pairs]. apply (K1 a x (b :: lb) (y :: ys) Hx). now constructor.
    + destruct Hb as [|b' y' lb ys Hy' Hb]; injection Hm as <-; cbn [pairs].
      * apply (K2 b y (a :: a' :: la) (x :: x' :: xs) Hy). repeat (constructor; try assumption).
      * apply (K3 (a :: a' :: la) (x :: x' :: xs) ltac:(repeat (constructor; try assumption)) (b :: b' :: lb) (y :: y' :: ys)). repeat (constructor; try assumption).
Qed.

(** An operator on lists, from what it does with two members. *)
Lemma elementwise E op (P : Z -> Z -> Prop) (g : Z -> Z -> value) a b va vb xs ys ps :
  (forall a b x y, is32 a x -> is32 b y -> P x y -> exists r, op E (Some a) (Some b) atom_fresh = Ok (0, r) /\ stands r (g x y)) ->
  result_rep a va -> result_rep b vb -> zlen (values va) < 2^31 -> zlen (values vb) < 2^31 ->
  int32s (values va) = Some xs -> int32s (values vb) = Some ys -> matched xs ys = Some ps ->
  Forall (fun p => P (fst p) (snd p)) ps ->
  exists o, two_arg E op [a; b] = Ok (0, o) /\ result_rep o (Some (map (fun p => g (fst p) (snd p)) ps)).
Proof.
  intros Hop Ha Hb Hla Hlb Hxs Hys Hm HP.
  assert (Ma : Forall2 stands (members a) (values va)) by (destruct Ha; [constructor|assumption]).
  assert (Mb : Forall2 stands (members b) (values vb)) by (destruct Hb; [constructor|assumption]).
  pose proof (pairs_matched _ _ _ _ _ (int32s_rep _ _ _ Ma Hxs) (int32s_rep _ _ _ Mb Hys) Hm) as Hp.
  assert (S : exists rs, Forall2 (fun p r => op E (fst p) (snd p) atom_fresh = Ok (0, r)) (pairs (members a) (members b)) rs /\
      Forall2 stands rs (map (fun p => g (fst p) (snd p)) ps)).
  { clear Hm. induction Hp as [|q p qs ps (x & y & -> & Hx & Hy) _ IH]; [exists []; split; constructor|].
    inversion HP as [|? ? HP1 HP2]; subst. destruct (IH HP2) as (rs & R1 & R2).
    destruct (Hop x y (fst p) (snd p) Hx Hy HP1) as (r & Er & Hr). exists (r :: rs). split; cbn [map]; constructor; assumption. }
  destruct S as (rs & R1 & R2). exists (Some rs). split; [|now constructor].
  apply C39_elementwise; [rewrite (Forall2_zlen _ _ _ Ma); assumption|rewrite (Forall2_zlen _ _ _ Mb); assumption|exact R1].
Qed.

(** * Operators *)

Lemma number_plain E name g : number_fn name = Some g -> exists op, (forall argv, std_plain E name argv = two_arg E op argv) /\
  (forall a b x y, is32 a x -> is32 b y -> is_int32 (g x y) = true ->
     exists r, op E (Some a) (Some b) atom_fresh = Ok (0, r) /\ stands r (int32 (g x y))).
Proof.
  unfold number_fn. intros H.
  assert (R : forall z, is_int32 z = true -> in_type I32 z).
  { intros z Hz. unfold is_int32 in Hz. apply andb_prop in Hz as [H1 H2]. unfold in_type. cbn [signed width]. lia. }
  destruct (one_of name ["+"; "+="; "add"]%string) eqn:E1; [|destruct (one_of name ["-"; "-="; "sub"]%string) eqn:E2;
    [|destruct (one_of name ["*"; "*="; "mul"]%string) eqn:E3; [|discriminate H]]]; injection H as <-.
  - exists op_add. split; [plain_name E1|]. intros a b x y Ha Hb Hr.
    destruct (C37_add E I32 I32 a b atom_fresh x y false false (is32_operand _ _ Ha) (is32_operand _ _ Hb) eq_refl) as (v & Ev & Hv).
    { intros _. exact (R _ Hr). }
    exists (set_int32 atom_fresh v). split; [exact Ev|]. rewrite <- (converted_int32 _ _ Hv). apply stands_int32.
  - exists op_subtract. split; [plain_name E2|]. intros a b x y Ha Hb Hr.
    assert (I : forall z, in_type I32 z -> converted I32 z z) by (intros z Hz; split; [exact Hz|now rewrite Z.sub_diag]).
    pose proof (is32_operand _ _ Ha) as Oa. pose proof (is32_operand _ _ Hb) as Ob.
    destruct (C37_subtract E I32 I32 a b atom_fresh x y false false x y Oa Ob eq_refl (I _ (operand_in _ _ _ _ Oa)) (I _ (operand_in _ _ _ _ Ob))) as [K _].
    destruct (K (R _ Hr)) as [Ek _]. eexists. split; [exact Ek|]. apply stands_int32.
  - exists op_multiply. split; [plain_name E3|]. intros a b x y Ha Hb Hr.
    destruct (C37_multiply E I32 I32 a b atom_fresh x y false false (is32_operand _ _ Ha) (is32_operand _ _ Hb) eq_refl) as (v & Ev & Hv).
    { split; [intros _; exact (R _ Hr)|discriminate]. }
    exists (set_int32 atom_fresh v). split; [exact Ev|]. rewrite <- (converted_int32 _ _ Hv). apply stands_int32.
Qed.

(** Comparisons give booleans. *)
Definition boolean (op : binop) : Prop := forall E a b r c r', op E (Some a) (Some b) r = Ok (c, r') -> c = 0 -> exists v, r' = set_bool r v.
Ltac boolean_tac H := repeat (match type of H with
  | (if ?t then _ else _) = _ => destruct t
  | bind ?m _ = _ => destruct m; cbn [bind] in H end; try discriminate H);
  injection H as <-; first [now exists true | now exists false | eexists; reflexivity].
Lemma boolean_order os sn od ot : boolean (op_order os sn od ot).
Proof. intros E a b r c r' H Hc. subst c. unfold op_order in H. boolean_tac H. Qed.
Lemma boolean_eq : boolean op_eq.
Proof. intros E a b r c r' H Hc. subst c. unfold op_eq in H. boolean_tac H. Qed.
Lemma boolean_neq : boolean op_neq.
Proof. intros E a b r c r' H Hc. subst c. unfold op_neq in H. boolean_tac H. Qed.
Lemma answer_stands op E a b P (v : bool) : boolean op -> answers op E a b P -> (v = true <-> P) ->
  exists r, op E (Some a) (Some b) atom_fresh = Ok (0, r) /\ stands r (truth v).
Proof.
  intros Hb Ha Hv. destruct (Ha atom_fresh) as (r & Er & H1 & H2). exists r. split; [exact Er|].
  destruct (Hb E a b atom_fresh 0 r Er eq_refl) as (u & ->). replace v with u; [apply stands_bool|].
  destruct v.
  - specialize (H1 (proj1 Hv eq_refl)). destruct u; [reflexivity|discriminate H1].
  - destruct u; [|reflexivity]. assert (N : ~ P) by (intros K; apply Hv in K; discriminate K). specialize (H2 N). discriminate H2.
Qed.
Lemma less_Z x y : less (Fin (inject_Z x)) (Fin (inject_Z y)) <-> x < y.
Proof. cbn [less]. rewrite <- Zlt_Qlt. reflexivity. Qed.
Lemma same_Z x y : same (Fin (inject_Z x)) (Fin (inject_Z y)) <-> x = y.
Proof. cbn [same]. split; [apply inject_Z_injective|now intros ->]. Qed.
Lemma test_plain E name g : test_fn name = Some g -> exists op, (forall argv, std_plain E name argv = two_arg E op argv) /\
  (forall a b x y, is32 a x -> is32 b y -> True -> exists r, op E (Some a) (Some b) atom_fresh = Ok (0, r) /\ stands r (truth (g x y))).
Proof.
  unfold test_fn. intros H.
  assert (N : forall a x, is32 a x -> number a (Fin (inject_Z x))).
  { intros a x Ha. pose proof (is32_operand _ _ Ha) as Oa. apply (number_int false I32 x a Oa).
    pose proof (operand_in _ _ _ _ Oa) as Hr. unfold in_type in Hr. cbn [signed width] in Hr. lia. }
  destruct (one_of name ["<"; "lt"]%string) eqn:E1; [|destruct (one_of name ["<="; "le"]%string) eqn:E2;
   [|destruct (one_of name [">"; "gt"]%string) eqn:E3; [|destruct (one_of name [">="; "ge"]%string) eqn:E4;
   [|destruct (one_of name ["=="; "eq"]%string) eqn:E5; [|destruct (one_of name ["!="; "ne"]%string) eqn:E6; [|discriminate H]]]]]]; injection H as <-.
  - exists op_lt. split; [plain_name E1|]. intros a b x y Ha Hb _. pose proof (C50_numbers E a b _ _ (N _ _ Ha) (N _ _ Hb)) as K.
    eapply answer_stands; [apply boolean_order|apply K|]. rewrite less_Z. apply Z.ltb_lt.
  - exists op_le. split; [plain_name E2|]. intros a b x y Ha Hb _. pose proof (C50_numbers E a b _ _ (N _ _ Ha) (N _ _ Hb)) as K.
    eapply answer_stands; [apply boolean_order|apply K|]. rewrite less_Z, same_Z, Z.leb_le. lia.
  - exists op_gt. split; [plain_name E3|]. intros a b x y Ha Hb _. pose proof (C50_numbers E a b _ _ (N _ _ Ha) (N _ _ Hb)) as K.
    eapply answer_stands; [apply boolean_order|apply K|]. rewrite less_Z, Z.gtb_ltb. apply Z.ltb_lt.
  - exists op_gte. split; [plain_name E4|]. intros a b x y Ha Hb _. pose proof (C50_numbers E a b _ _ (N _ _ Ha) (N _ _ Hb)) as K.
    eapply answer_stands; [apply boolean_order|apply K|]. rewrite less_Z, same_Z, Z.geb_leb, Z.leb_le. lia.
  - exists op_eq. split; [plain_name E5|]. intros a b x y Ha Hb _. pose proof (C50_numbers E a b _ _ (N _ _ Ha) (N _ _ Hb)) as K.
    eapply answer_stands; [apply boolean_eq|apply K|]. rewrite same_Z. apply Z.eqb_eq.
  - exists op_neq. split; [plain_name E6|]. intros a b x y Ha Hb _. pose proof (C50_numbers E a b _ _ (N _ _ Ha) (N _ _ Hb)) as K.
    eapply answer_stands; [apply boolean_neq|apply K|]. rewrite same_Z, negb_true_iff, Z.eqb_neq. reflexivity.
Qed.

(** * Lists *)

Lemma copy_of_stands a b v : stands a v -> copy_of a b -> stands b v.
Proof.
  intros (Hc & Hs & Hn & Ht) (Hb & Htag & Hr). split; [exact Hb|]. rewrite Htag, <- and_assoc. split; [|exact Ht].
  destruct (raw_value a) eqn:Er; rewrite Hr; try (split; [exact Hs|exact Hn]). split.
  - exact (proj2 (proj2 (proj1 narrow_same (VBundle ms))) Hs).
  - rewrite <- Hn. apply (proj1 narrow_idem (VBundle ms)).
Qed.
Lemma copies_stand l vs out : Forall2 stands l vs -> Forall2 copy_of l out -> Forall2 stands out vs.
Proof.
  intros H. revert out. induction H as [|a v l vs Ha _ IH]; intros out Hc; inversion Hc as [|? b ? out' Hb Hl]; subst; constructor.
  - exact (copy_of_stands a b v Ha Hb).
  - now apply IH.
Qed.
Lemma members_rep a o : result_rep a o -> Forall2 stands (members a) (values o).
Proof. intros []; [constructor|assumption]. Qed.
Lemma all_members_rep os os' : Forall2 result_rep os os' -> Forall2 stands (concat (map members os)) (concat (map values os')).
Proof. induction 1; cbn [map concat]; [constructor|]. apply Forall2_app; [now apply members_rep|assumption]. Qed.
Lemma stands_copyable l vs : Forall2 stands l vs -> Forall copyable l.
Proof. induction 1 as [|a v l vs (H & _) _ IH]; constructor; assumption. Qed.
Lemma Forall2_rev {A B} (R : A -> B -> Prop) l l' : Forall2 R l l' -> Forall2 R (rev l) (rev l').
Proof.
  induction 1 as [|x y l l' Hx _ IH]; cbn [rev]; [constructor|]. apply Forall2_app; [exact IH|]. constructor; [exact Hx|constructor].
Qed.
Lemma rev_case {A} (l : list A) : l = [] \/ exists l' x, l = l' ++ [x].
Proof. induction l using rev_ind; [now left|]. right. now exists l, x. Qed.
Lemma Forall2_snoc {A B} (R : A -> B -> Prop) l l' y : Forall2 R l (l' ++ [y]) -> exists k x, l = k ++ [x] /\ Forall2 R k l' /\ R x y.
Proof.
  intros H. apply Forall2_app_inv_r in H as (k & r & H1 & H2 & ->). inversion H2 as [|x ? ? ? Hx H3]; subst. inversion H3; subst.
  exists k, x. split; [reflexivity|]. split; assumption.
Qed.

Lemma list_plain E name g os os' o : list_fn name = Some g -> Forall2 result_rep os os' -> zlen (concat (map values os')) < 2^31 ->
  g os' = Some o -> exists o', std_plain E name os = Ok (0, o') /\ result_rep o' o.
Proof.
  unfold list_fn. intros H Hos Hlen Hg.
  assert (Hall := all_members_rep _ _ Hos). pose proof (Forall2_zlen _ _ _ Hall) as Hz.
  assert (Hhead : forall a oa l l', os = a :: l -> os' = oa :: l' -> zlen (members a) < 2^31).
  { intros a oa l l' -> ->. cbn [map concat] in Hlen. rewrite zlen_app in Hlen. inversion Hos; subst.
    rewrite (Forall2_zlen _ _ _ (members_rep _ _ H3)). pose proof (zlen_nonneg (concat (map values l'))). lia. }
  assert (Hm : forall a oa l l', os = a :: l -> os' = oa :: l' -> Forall2 stands (members a) (values oa)).
  { intros a oa l l' -> ->. inversion Hos; subst. now apply members_rep. }
  destruct (one_of name ["first"]%string) eqn:E1; [|destruct (one_of name ["last"]%string) eqn:E2;
    [|destruct (one_of name ["rest"]%string) eqn:E3; [|destruct (one_of name ["butlast"]%string) eqn:E4;
    [|destruct (one_of name ["reverse"; "rev"]%string) eqn:E5; [|destruct (one_of name ["list"]%string) eqn:E6;
    [|destruct (one_of name ["length"]%string) eqn:E7; [|discriminate H]]]]]]]; injection H as <-.
  - assert (P : forall argv, std_plain E name argv = fn_first argv) by plain_name E1. rewrite P.
    destruct Hos as [|a oa l l' _ _]; [discriminate Hg|]. injection Hg as <-. specialize (Hm a oa l l' eq_refl eq_refl).
    destruct (values oa) as [|v vs] eqn:Ev; inversion Hm as [|x ? k ? Hx Hk Ek]; subst.
    + exists None. split; [now apply C38_nothing|constructor].
    + destruct (C38_first a l x k (eq_sym Ek) (proj1 Hx)) as (y & Ey & Hy). eexists. split; [exact Ey|].
      constructor. constructor; [exact (copy_of_stands _ _ _ Hx Hy)|constructor].
  - assert (P : forall argv, std_plain E name argv = fn_last argv) by plain_name E2. rewrite P.
    destruct Hos as [|a oa l l' _ _]; [discriminate Hg|]. injection Hg as <-. specialize (Hm a oa l l' eq_refl eq_refl).
    specialize (Hhead a oa l l' eq_refl eq_refl). destruct (rev_case (values oa)) as [Ev|(vs & v & Ev)]; rewrite Ev in *.
    + inversion Hm as [Ek|]; subst. exists None. split; [now apply C38_nothing|constructor].
    + destruct (Forall2_snoc _ _ _ _ Hm) as (k & x & Ek & Hk & Hx). rewrite rev_unit.
      destruct (C38_last a l x k Ek (proj1 Hx) Hhead) as (y & Ey & Hy). eexists. split; [exact Ey|].
      constructor. constructor; [exact (copy_of_stands _ _ _ Hx Hy)|constructor].
  - assert (P : forall argv, std_plain E name argv = fn_rest argv) by plain_name E3. rewrite P.
    destruct Hos as [|a oa l l' _ _]; [discriminate Hg|]. injection Hg as <-. specialize (Hm a oa l l' eq_refl eq_refl).
    specialize (Hhead a oa l l' eq_refl eq_refl). destruct (values oa) as [|v vs] eqn:Ev; inversion Hm as [|x ? k ? Hx Hk Ek]; subst.
    + exists None. split; [now apply C38_nothing|constructor].
    + destruct (C38_rest a l x k (eq_sym Ek) (stands_copyable _ _ Hk) Hhead) as (ys & Ey & Hy). eexists. split; [exact Ey|].
      constructor. exact (copies_stand _ _ _ Hk Hy).
  - assert (P : forall argv, std_plain E name argv = fn_butlast argv) by plain_name E4. rewrite P.
    destruct Hos as [|a oa l l' _ _]; [discriminate Hg|]. injection Hg as <-. specialize (Hm a oa l l' eq_refl eq_refl).
    specialize (Hhead a oa l l' eq_refl eq_refl). destruct (rev_case (values oa)) as [Ev|(vs & v & Ev)]; rewrite Ev in *.
    + inversion Hm as [Ek|]; subst. exists None. split; [now apply C38_nothing|constructor].
    + destruct (Forall2_snoc _ _ _ _ Hm) as (k & x & Ek & Hk & Hx).
      destruct (C38_butlast a l x k Ek (stands_copyable _ _ Hk) Hhead) as (ys & Ey & Hy). eexists. split; [exact Ey|].
      match goal with |- result_rep _ ?t => assert (Et : t = Some vs) end.
      { clear. destruct vs as [|u vs]; [reflexivity|]. cbn [app]. f_equal. exact (removelast_last (u :: vs) v). }
      rewrite Et.
      constructor. exact (copies_stand _ _ _ Hk Hy).
  - assert (P : forall argv, std_plain E name argv = fn_reverse argv) by plain_name E5. rewrite P.
    destruct Hos as [|a oa l l' _ _]; [discriminate Hg|]. injection Hg as <-. specialize (Hm a oa l l' eq_refl eq_refl).
    destruct (C38_reverse a l (stands_copyable _ _ Hm)) as (ys & Ey & Hy). eexists. split; [exact Ey|].
    constructor. exact (copies_stand _ _ _ (Forall2_rev _ _ _ Hm) Hy).
  - assert (P : forall argv, std_plain E name argv = fn_list argv) by plain_name E6. rewrite P. injection Hg as <-.
    destruct (concat (map values os')) as [|v vs] eqn:Ev.
    + exists None. split; [|constructor]. apply C38_list_nothing. inversion Hall. reflexivity.
    + destruct (C38_list os (stands_copyable _ _ Hall)) as (ys & Ey & Hy); [rewrite Hz; exact Hlen|inversion Hall; discriminate|].
      eexists. split; [exact Ey|]. constructor. exact (copies_stand _ _ _ Hall Hy).
  - assert (P : forall argv, std_plain E name argv = fn_length argv) by plain_name E7. rewrite P. injection Hg as <-.
    eexists. split; [apply C38_length; rewrite Hz; exact Hlen|]. rewrite Hz. constructor. constructor; [apply stands_int32|constructor].
Qed.

Theorem std_implements E : implements (std_plain E) std_sem.
Proof.
  intros name os os' c o Hos Hs. unfold std_sem in Hs.
  destruct (zlen (concat (map values os')) <? 2^31) eqn:El; cbn [negb] in Hs; [|discriminate Hs]. apply Z.ltb_lt in El.
  destruct (number_fn name) as [g|] eqn:En; [|destruct (test_fn name) as [g|] eqn:Et; [|destruct (list_fn name) as [g|] eqn:Eg; [|discriminate Hs]]].
  - destruct (number_plain E name g En) as (op & Ep & Hop). rewrite Ep.
    assert (Har : length os' <> 2%nat -> Some (1, None) = Some (c, o) -> exists o', two_arg E op os = Ok (c, o') /\ result_rep o' o).
    { intros Hn Ho. injection Ho as <- <-. exists None. split; [|constructor]. apply C39_arity. now rewrite (Forall2_len _ _ _ Hos). }
    destruct os' as [|va [|vb [|vc l]]]; try (apply Har; [discriminate|exact Hs]).
    inversion Hos as [|a ? k ? Ha Hk]; subst. inversion Hk as [|b ? k2 ? Hb Hk2]; subst. inversion Hk2; subst.
    destruct (int32s (values va)) as [xs|] eqn:Ex; [|discriminate Hs]. destruct (int32s (values vb)) as [ys|] eqn:Ey; [|discriminate Hs].
    destruct (matched xs ys) as [ps|] eqn:Em; [|discriminate Hs]. destruct (forallb _ ps) eqn:Ef; [|discriminate Hs]. injection Hs as <- <-.
    cbn [map concat] in El. rewrite !zlen_app in El. change (zlen (@nil value)) with 0 in El.
    pose proof (zlen_nonneg (values va)). pose proof (zlen_nonneg (values vb)).
    apply (elementwise E op (fun x y => is_int32 (g x y) = true) (fun x y => int32 (g x y)) a b va vb xs ys ps Hop Ha Hb); try assumption; try lia.
    apply Forall_forall. now apply forallb_forall.
  - destruct (test_plain E name g Et) as (op & Ep & Hop). rewrite Ep.
    assert (Har : length os' <> 2%nat -> Some (1, None) = Some (c, o) -> exists o', two_arg E op os = Ok (c, o') /\ result_rep o' o).
    { intros Hn Ho. injection Ho as <- <-. exists None. split; [|constructor]. apply C39_arity. now rewrite (Forall2_len _ _ _ Hos). }
    destruct os' as [|va [|vb [|vc l]]]; try (apply Har; [discriminate|exact Hs]).
    inversion Hos as [|a ? k ? Ha Hk]; subst. inversion Hk as [|b ? k2 ? Hb Hk2]; subst. inversion Hk2; subst.
    destruct (int32s (values va)) as [xs|] eqn:Ex; [|discriminate Hs]. destruct (int32s (values vb)) as [ys|] eqn:Ey; [|discriminate Hs].
    destruct (matched xs ys) as [ps|] eqn:Em; [|discriminate Hs]. injection Hs as <- <-.
    cbn [map concat] in El. rewrite !zlen_app in El. change (zlen (@nil value)) with 0 in El.
    pose proof (zlen_nonneg (values va)). pose proof (zlen_nonneg (values vb)).
    apply (elementwise E op (fun x y => True) (fun x y => truth (g x y)) a b va vb xs ys ps Hop Ha Hb); try assumption; try lia.
    now apply Forall_forall.
  - destruct (g os') as [r|] eqn:Er; [|discriminate Hs]. injection Hs as <- <-. exact (list_plain E name g os os' r Eg Hos El Er).
Qed.
