(** C63-C66: sums and products, extremes, clipping and sorting in the expression
    language. *)

From Coq Require Import ZArith List Bool QArith Qabs Lia Lqa Permutation Sorted.
From Verif Require Import Base BaseProofs Bytes SerialModel WireModel AtomSModel FloatModel AtomUModel FArithModel ExprModel
  ExprListModel StatModel AtomSpec AtomProofs RoundSpec RealSpec ExprSpec StatSpec NumProps FloatProofs CompareProofs
  FArithProofs FArithProps ExprListProofs ExprProps ExprListProps StatProofs.
Import ListNotations.
Open Scope Z_scope.

(** * C63: sums and products *)

Lemma int_pairs l zs : Forall2 (fun a z => exists b t, operand b t z a /\ Z.abs z <= 2^53) l zs ->
  existsb (fun a => is_float (a_tt a)) l = false.
Proof.
  induction 1 as [|a z l zs (b & t & Ho & _) _ IH]; [reflexivity|]. cbn [existsb]. rewrite IH, orb_false_r.
  destruct Ho as [t v a' _|a'|a']; destruct a'; [destruct t|..]; reflexivity.
Qed.
Lemma sum_int nan d1 d2 z1 z2 : (forall a b, is_nan 52 11 (nan a b)) ->
  real 52 11 d1 (Fin (inject_Z z1)) -> real 52 11 d2 (Fin (inject_Z z2)) ->
  Z.abs (z1 + z2) <= 2^53 -> real 52 11 (dadd nan d1 d2) (Fin (inject_Z (z1 + z2))).
Proof.
  intros Hn H1 H2 Hb. destruct (add_ok nan Hn _ _ _ _ H1 H2) as (s & R).
  apply (rounds_int s _ (inject_Z z1 + inject_Z z2) _); [now rewrite inject_Z_plus|exact Hb|exact R].
Qed.
Lemma product_int nan d1 d2 z1 z2 : (forall a b, is_nan 52 11 (nan a b)) ->
  real 52 11 d1 (Fin (inject_Z z1)) -> real 52 11 d2 (Fin (inject_Z z2)) ->
  Z.abs (z1 * z2) <= 2^53 -> real 52 11 (dmul nan d1 d2) (Fin (inject_Z (z1 * z2))).
Proof.
  intros Hn H1 H2 Hb. destruct (mul_ok nan Hn _ _ _ _ H1 H2) as (s & R).
  apply (rounds_int s _ (inject_Z z1 * inject_Z z2) _); [now rewrite inject_Z_mult|exact Hb|exact R].
Qed.
Lemma fold_exact op zs : forall z, exact op z zs -> Z.abs (fold_left op zs z) <= 2^53.
Proof. induction zs as [|y zs IH]; intros z H; inversion H; subst; cbn [fold_left]; auto. Qed.

(** The sum of all members of all arguments, for integers: exact, in the smallest
    of the types int32, uint32 and int64.  A sum below -2^31 is undefined. *)
Theorem C63_sum_integers E argv zs : nan_platform E ->
  Forall2 (fun a z => exists b t, operand b t z a /\ Z.abs z <= 2^53) (concat (map members argv)) zs ->
  exact Z.add 0 zs ->
  let s := fold_left Z.add zs 0 in
  (- 2^31 <= s -> fn_sum E argv = Ok (0, Some [set_u (smallest_type s) atom_fresh s])) /\
  (s < - 2^31 -> fn_sum E argv = Ub Overflow).
Proof.
  intros Hn Hl Hx s. unfold fn_sum. rewrite aalloc_1. cbn [bind]. cbv zeta.
  change (concat (map items argv)) with (concat (map members argv)).
  destruct (gather_int E (dadd (e_nan E)) Z.add (fun d1 d2 z1 z2 => sum_int (e_nan E) d1 d2 z1 z2 Hn) _ _ Hl 0 0 Hx real_zero)
    as (d & G & Hr).
  rewrite G, (int_pairs _ _ Hl). cbn [bind]. fold s in Hr. split; intros Hs; rewrite aput_1.
  - rewrite (smallest_int atom_fresh d s Hr (fold_exact _ _ _ Hx) Hs). reflexivity.
  - rewrite (smallest_low atom_fresh d s Hr Hs). reflexivity.
Qed.
Print Assumptions C63_sum_integers.

(** The product likewise. *)
Theorem C63_product_integers E argv zs : nan_platform E ->
  Forall2 (fun a z => exists b t, operand b t z a /\ Z.abs z <= 2^53) (concat (map members argv)) zs ->
  exact Z.mul 1 zs ->
  let s := fold_left Z.mul zs 1 in
  (- 2^31 <= s -> fn_product E argv = Ok (0, Some [set_u (smallest_type s) atom_fresh s])) /\
  (s < - 2^31 -> fn_product E argv = Ub Overflow).
Proof.
  intros Hn Hl Hx s. unfold fn_product. rewrite aalloc_1. cbn [bind].
  change (concat (map items argv)) with (concat (map members argv)).
  destruct (gather_int E (dmul (e_nan E)) Z.mul (fun d1 d2 z1 z2 => product_int (e_nan E) d1 d2 z1 z2 Hn) _ _ Hl 1 _ Hx
    (real_int 1 ltac:(lia))) as (d & G & Hr).
  rewrite G. cbn [bind]. fold s in Hr. split; intros Hs; rewrite aput_1.
  - rewrite (smallest_int atom_fresh d s Hr (fold_exact _ _ _ Hx) Hs). reflexivity.
  - rewrite (smallest_low atom_fresh d s Hr Hs). reflexivity.
Qed.
Print Assumptions C63_product_integers.

(** With a float or double among the members the sum is the double got by adding
    one after the other from 0, rounding each time. *)
Theorem C63_sum E argv xs : nan_platform E -> Forall2 number (concat (map members argv)) xs ->
  Exists floating (concat (map members argv)) ->
  exists d, accumulated sum_is 0 xs d /\ fn_sum E argv = Ok (0, Some [set_double atom_fresh d]).
Proof.
  intros Hn Hl Hf. unfold fn_sum. rewrite aalloc_1. cbn [bind]. cbv zeta.
  change (concat (map items argv)) with (concat (map members argv)).
  destruct (gather_ok E (dadd (e_nan E)) sum_is (fun d1 d2 x y => add_ok (e_nan E) Hn d1 d2 x y) sum_real _ _ Hl 0 _ real_zero)
    as (d & x & G & T & _).
  exists d. split; [exact T|]. rewrite G. cbn [bind]. rewrite aput_1.
  assert (Hb : existsb (fun a => is_float (a_tt a)) (concat (map members argv)) = true).
  { apply existsb_exists. apply Exists_exists in Hf. destruct Hf as (a & Ha & Hfa). exists a. split; [exact Ha|].
    unfold is_float. destruct Hfa as [-> | ->]; reflexivity. }
  rewrite Hb. reflexivity.
Qed.
Print Assumptions C63_sum.

(** The product of any numbers: the double got by multiplying one after the other
    is stored in the smallest type even if there are floats. *)
Theorem C63_product E argv xs : nan_platform E -> Forall2 number (concat (map members argv)) xs ->
  exists d, accumulated product_is (double_of_int 1) xs d /\
  (forall q, real 52 11 d (Fin q) -> exists r, stored d q r /\ fn_product E argv = do a <- r; Ok (0, Some [a])) /\
  (real 52 11 d (Infinite false) \/ real 52 11 d NotANumber -> fn_product E argv = Ok (0, Some [set_double atom_fresh d])) /\
  (real 52 11 d (Infinite true) -> fn_product E argv = Ub Overflow).
Proof.
  intros Hn Hl. unfold fn_product. rewrite aalloc_1. cbn [bind].
  change (concat (map items argv)) with (concat (map members argv)).
  destruct (gather_ok E (dmul (e_nan E)) product_is (fun d1 d2 x y => mul_ok (e_nan E) Hn d1 d2 x y) product_real _ _ Hl _ _
    (real_int 1 ltac:(lia))) as (d & x & G & T & _).
  exists d. split; [exact T|]. rewrite G. cbn [bind]. rewrite aput_1. split; [|split].
  - intros q Hq. exists (set_smallest atom_fresh d). split; [exact (set_smallest_ok atom_fresh d q Hq)|].
    destruct (set_smallest atom_fresh d); reflexivity.
  - intros H. assert (B : forall b z, real 52 11 b (Fin z) -> dle d b = false).
    { intros b z Hb. destruct (dle d b) eqn:Eb; [|reflexivity]. exfalso.
      destruct H as [H|H]; apply (dle_iff _ _ _ _ H Hb) in Eb; cbn [less same] in Eb; intuition congruence. }
    unfold set_smallest. rewrite (B _ _ (real_int 2147483647 ltac:(lia))), (B _ _ (real_int 4294967295 ltac:(lia))).
    rewrite (B _ _ real_2_63), (B _ _ real_2_64). reflexivity.
  - intros H. unfold set_smallest.
    rewrite (proj2 (dle_iff _ _ _ _ H (real_int 2147483647 ltac:(lia))) (or_introl eq_refl)).
    rewrite H. reflexivity.
Qed.
Print Assumptions C63_product.

(** The mean of the first argument: the sum, divided by the number of members.
    The mean of no members is not a number. *)
Theorem C63_mean E a rest xs : nan_platform E -> Forall2 number (members a) xs -> zlen (members a) <= 2^53 ->
  exists s x d, accumulated sum_is 0 xs s /\ real 52 11 s x /\
    (members a <> [] -> quotient_is x (Fin (inject_Z (zlen (members a)))) d) /\
    (members a = [] -> is_nan 52 11 d) /\
    fn_mean E (a :: rest) = Ok (0, Some [set_double atom_fresh d]).
Proof.
  intros Hn Hl Hlen. unfold fn_mean. rewrite aalloc_1. cbn [bind argv_at nth_error].
  change (items a) with (members a).
  destruct (gather_ok E (dadd (e_nan E)) sum_is (fun d1 d2 x y => add_ok (e_nan E) Hn d1 d2 x y) sum_real _ _ Hl 0 _ real_zero)
    as (s & x & G & T & Hr).
  exists s, x, (ddiv (e_nan E) s (double_of_int (alen a))). rewrite alen_members.
  split; [exact T|]. split; [exact Hr|]. pose proof (zlen_nonneg (members a)).
  assert (Hz : real 52 11 (double_of_int (zlen (members a))) (Fin (inject_Z (zlen (members a))))) by (apply real_int; lia).
  split; [|split].
  - intros Hne. apply (div_ok (e_nan E) Hn _ _ _ _ Hr Hz). cbn [same].
    destruct (members a) as [|y l]; [congruence|]. rewrite zlen_cons in *. pose proof (zlen_nonneg l).
    change 0%Q with (inject_Z 0). rewrite inject_Z_injective. lia.
  - intros He. rewrite He in *. inversion Hl; subst. cbn [gather] in G. injection G as <-. exact (Hn _ _).
  - rewrite G. cbn [bind]. rewrite aput_1. reflexivity.
Qed.
Print Assumptions C63_mean.

Lemma dot_ok E l1 xs1 : nan_platform E -> Forall2 number l1 xs1 -> forall l2 xs2, Forall2 number l2 xs2 -> forall s x, real 52 11 s x ->
  exists s', dot_loop E l1 l2 s = Ok s' /\ total_products s (combine xs1 xs2) s'.
Proof.
  intros Hn. induction 1 as [|a x1 l1 xs1 Ha _ IH]; intros l2 xs2 H2 s x Hs.
  - exists s. split; [reflexivity|constructor].
  - destruct H2 as [|b x2 l2 xs2 Hb H2]; [exists s; split; [reflexivity|constructor]|].
    destruct (number_double_of (e_double E) a x1 Ha) as (d1 & Hd1 & R1 & _).
    destruct (number_double_of (e_double E) b x2 Hb) as (d2 & Hd2 & R2 & _).
    pose proof (mul_ok (e_nan E) Hn _ _ _ _ R1 R2) as P. destruct (product_real _ _ _ P) as (f0 & Hf).
    pose proof (add_ok (e_nan E) Hn _ _ _ _ Hs Hf) as Q. destruct (sum_real _ _ _ Q) as (s1 & Hs1).
    destruct (IH l2 xs2 H2 _ _ Hs1) as (s' & G & T). exists s'. split.
    + cbn [dot_loop]. rewrite Hd1, Hd2. cbn [bind]. exact G.
    + cbn [combine]. exact (products_cons _ _ _ _ _ _ _ _ _ P Hf Hs Q T).
Qed.
(** The dot product of the first two arguments, up to the shorter length. *)
Theorem C63_dot E a b rest xs ys : nan_platform E -> Forall2 number (members a) xs -> Forall2 number (members b) ys ->
  exists d, total_products 0 (combine xs ys) d /\ fn_dot E (a :: b :: rest) = Ok (0, Some [set_double atom_fresh d]).
Proof.
  intros Hn Ha Hb. destruct (dot_ok E _ _ Hn Ha _ _ Hb 0 _ real_zero) as (s & G & T). exists s. split; [exact T|].
  unfold fn_dot. rewrite aalloc_1. cbn [bind]. change (items a) with (members a). change (items b) with (members b).
  rewrite G. cbn [bind]. rewrite aput_1. reflexivity.
Qed.
Print Assumptions C63_dot.

(** * C64: extremes *)

Lemma aput_2 x y f g : (do o <- aput (Some [x; y]) 0 f; aput o 1 g) =
  do u <- f x; do v <- g y; Ok (Some [u; v]).
Proof.
  pose proof (aput_at [] x [y] f) as P. cbn [app] in P. change (zlen (@nil atom)) with 0 in P. rewrite P. destruct (f x) as [u| |]; cbn [bind]; try reflexivity.
Qed.

Section Extremes.
Context (E : env) (p : list (atom * ext)) (Hp : Forall (fun '(a, x) => number a x) p).
Lemma in_number a x : In (a, x) p -> number a x.
Proof. intros H. rewrite Forall_forall in Hp. exact (Hp (a, x) H). Qed.
Lemma extreme_number better a x : extreme better p a x -> number a x.
Proof. intros (p1 & p2 & E' & _). apply in_number. rewrite E'. apply in_elt. Qed.

Lemma min_found q : valued E q p -> (exists a x, In (a, x) p /\ x <> NotANumber /\ x <> Infinite false) ->
  exists a x m, pickm dle q dbl_max None = (m, Some a) /\ real 52 11 m x /\ extreme less p a x.
Proof.
  intros Hq (b & y & Hb & N & I). destruct (pick_min E q p Hq dbl_max _ None real_max) as [[_ Hall]|(a & x & m & G & Hr & _ & Hx)].
  - destruct (Hall b y Hb). exact (below_max b y (in_number b y Hb) N I).
  - now exists a, x, m.
Qed.
Lemma max_found q : valued E q p -> (exists a x, In (a, x) p /\ x <> NotANumber /\ x <> Infinite true) ->
  exists a x m, pickm dge q neg_dbl_max None = (m, Some a) /\ real 52 11 m x /\ extreme greater p a x.
Proof.
  intros Hq (b & y & Hb & N & I). destruct (pick_max E q p Hq neg_dbl_max _ None real_min) as [[_ Hall]|(a & x & m & G & Hr & _ & Hx)].
  - destruct (Hall b y Hb). exact (above_min b y (in_number b y Hb) N I).
  - now exists a, x, m.
Qed.

(** The least member of the first argument, the last one if there are several;
    members that are not a number are passed over.  There has to be a member that
    is neither NaN nor plus infinity. *)
Theorem C64_min rest : (exists a x, In (a, x) p /\ x <> NotANumber /\ x <> Infinite false) ->
  exists a x, extreme less p a x /\ fn_min E (Some (map fst p) :: rest) = Ok (0, Some [a]).
Proof.
  intros H. destruct (valued_of E p Hp) as (q & Hq). destruct (min_found q Hq H) as (a & x & m & G & _ & Hx).
  exists a, x. split; [exact Hx|]. unfold fn_min. rewrite aalloc_1. cbn [bind items].
  rewrite (pick_pickm E dle q p Hq), G. cbn [bind snd]. rewrite aput_1. cbn [copy_into].
  rewrite (copy_number a x (extreme_number _ _ _ Hx)). reflexivity.
Qed.
Theorem C64_max rest : (exists a x, In (a, x) p /\ x <> NotANumber /\ x <> Infinite true) ->
  exists a x, extreme greater p a x /\ fn_max E (Some (map fst p) :: rest) = Ok (0, Some [a]).
Proof.
  intros H. destruct (valued_of E p Hp) as (q & Hq). destruct (max_found q Hq H) as (a & x & m & G & _ & Hx).
  exists a, x. split; [exact Hx|]. unfold fn_max. rewrite aalloc_1. cbn [bind items].
  rewrite (pick_pickm E dge q p Hq), G. cbn [bind snd]. rewrite aput_1. cbn [copy_into].
  rewrite (copy_number a x (extreme_number _ _ _ Hx)). reflexivity.
Qed.
Theorem C64_extrema rest : (exists a x, In (a, x) p /\ x <> NotANumber /\ x <> Infinite false) ->
  (exists a x, In (a, x) p /\ x <> NotANumber /\ x <> Infinite true) ->
  exists a x b y, extreme less p a x /\ extreme greater p b y /\
    fn_extrema E (Some (map fst p) :: rest) = Ok (0, Some [a; b]).
Proof.
  intros H H'. destruct (valued_of E p Hp) as (q & Hq). destruct (min_found q Hq H) as (a & x & m & G & _ & Hx).
  destruct (max_found q Hq H') as (b & y & n & G' & _ & Hy).
  exists a, x, b, y. split; [exact Hx|]. split; [exact Hy|]. unfold fn_extrema.
  change (aalloc 2) with (Ok (Some [atom_fresh; atom_fresh])). cbn [bind items].
  rewrite (pick2_pickm E q p Hq), G, G'. cbn [bind fst snd].
  pose proof (aput_2 atom_fresh atom_fresh (fun o => copy_into o (Some a)) (fun o => copy_into o (Some b))) as P.
  cbn [copy_into] in P. rewrite (copy_number a x (extreme_number _ _ _ Hx)), (copy_number b y (extreme_number _ _ _ Hy)) in P.
  cbn [bind] in P. cbn [copy_into].
  rewrite (copy_number a x (extreme_number _ _ _ Hx)), (copy_number b y (extreme_number _ _ _ Hy)).
  destruct (aput (Some [atom_fresh; atom_fresh]) 0 (fun _ => Ok a)) as [o| |]; cbn [bind] in *; try discriminate.
  rewrite P. reflexivity.
Qed.
(** The difference of the greatest and the least member: a double if one of them
    is a float or double, else the difference read as an int32. *)
Theorem C64_range rest : nan_platform E -> (exists a x, In (a, x) p /\ x <> NotANumber /\ x <> Infinite false) ->
  (exists a x, In (a, x) p /\ x <> NotANumber /\ x <> Infinite true) ->
  exists a x b y d, extreme less p a x /\ extreme greater p b y /\ sum_is y (opposite x) d /\
    (floating a \/ floating b -> fn_range E (Some (map fst p) :: rest) = Ok (0, Some [set_double atom_fresh d])) /\
    (~ floating a -> ~ floating b -> exists r, reads_as I32 (double_value d) r /\
      fn_range E (Some (map fst p) :: rest) = do z <- r; Ok (0, Some [set_u I32 atom_fresh z])).
Proof.
  intros Hn H H'. destruct (valued_of E p Hp) as (q & Hq). destruct (min_found q Hq H) as (a & x & m & G & R & Hx).
  destruct (max_found q Hq H') as (b & y & n & G' & R' & Hy).
  exists a, x, b, y, (dsub (e_nan E) n m). split; [exact Hx|]. split; [exact Hy|].
  split; [exact (sub_ok (e_nan E) Hn _ _ _ _ R' R)|]. unfold fn_range. rewrite aalloc_1. cbn [bind items].
  rewrite (pick2_pickm E q p Hq), G, G'. cbn [bind fst snd tag_or_i]. rewrite aput_1. split.
  - intros F. assert (F' : is_float (a_tt a) || is_float (a_tt b) = true).
    { destruct F as [F|F]; rewrite (floating_tag _ F); [reflexivity|apply orb_true_r]. }
    rewrite F'. reflexivity.
  - intros F1 F2. assert (F' : forall c, ~ floating c -> is_float (a_tt c) = false).
    { intros c F. unfold is_float, floating in *. destruct (Z.eqb_spec (a_tt c) 102); [tauto|].
      destruct (Z.eqb_spec (a_tt c) 100); [tauto|reflexivity]. }
    rewrite (F' a F1), (F' b F2). cbn [orb].
    eexists. split; [apply (reads_as_intro 52 11 I32 (- 2^31) (2^31 - 1)); [lia|lia|intros z; unfold in_type; cbn; lia]|].
    unfold trunc64. destruct (to_range (- 2^31) (2^31 - 1) (ieee_trunc 52 11 (dsub (e_nan E) n m))); reflexivity.
Qed.
(** If there is no such member the result is a list of one atom without a type. *)
Theorem C64_min_none rest : (forall a x, In (a, x) p -> x = NotANumber \/ x = Infinite false) ->
  fn_min E (Some (map fst p) :: rest) = Ok (0, Some [atom_fresh]).
Proof.
  intros H. destruct (valued_of E p Hp) as (q & Hq). unfold fn_min. rewrite aalloc_1. cbn [bind items].
  rewrite (pick_pickm E dle q p Hq).
  destruct (pick_min E q p Hq dbl_max _ None real_max) as [[G _]|(a & x & m & _ & _ & Hw & p1 & p2 & Ep & N & _)].
  - rewrite G. cbn [bind snd]. rewrite aput_1. reflexivity.
  - exfalso. destruct (H a x) as [->| ->]; [rewrite Ep; apply in_elt|congruence|].
    generalize dependent huge. intros h [L|L]; cbn in L; [discriminate|exact L].
Qed.
Theorem C64_max_none rest : (forall a x, In (a, x) p -> x = NotANumber \/ x = Infinite true) ->
  fn_max E (Some (map fst p) :: rest) = Ok (0, Some [atom_fresh]).
Proof.
  intros H. destruct (valued_of E p Hp) as (q & Hq). unfold fn_max. rewrite aalloc_1. cbn [bind items].
  rewrite (pick_pickm E dge q p Hq).
  destruct (pick_max E q p Hq neg_dbl_max _ None real_min) as [[G _]|(a & x & m & _ & _ & Hw & p1 & p2 & Ep & N & _)].
  - rewrite G. cbn [bind snd]. rewrite aput_1. reflexivity.
  - exfalso. destruct (H a x) as [->| ->]; [rewrite Ep; apply in_elt|congruence|].
    generalize dependent huge. intros h [L|L]; cbn in L; [discriminate|exact L].
Qed.
End Extremes.
Print Assumptions C64_min.
Print Assumptions C64_max.
Print Assumptions C64_extrema.
Print Assumptions C64_range.
Print Assumptions C64_min_none.
Print Assumptions C64_max_none.

(** For integers the range is their exact difference if that is below 2^31. *)
Theorem C64_range_integers E l zs rest : nan_platform E -> l <> [] ->
  Forall2 (fun a z => exists b t, operand b t z a /\ Z.abs z <= 2^52) l zs ->
  exists lo hi, In lo zs /\ In hi zs /\ Forall (fun z => lo <= z <= hi) zs /\
    (hi - lo < 2^31 -> fn_range E (Some l :: rest) = Ok (0, Some [set_u I32 atom_fresh (hi - lo)])) /\
    (2^31 <= hi - lo -> fn_range E (Some l :: rest) = Ub Overflow).
Proof.
  intros Hn Hne Hl. set (p := map (fun '(a, z) => (a, Fin (inject_Z z))) (combine l zs)).
  assert (Pin : forall a x, In (a, x) p -> exists z b t, x = Fin (inject_Z z) /\ In z zs /\ operand b t z a /\ Z.abs z <= 2^52).
  { intros a x H. apply in_map_iff in H. destruct H as ([a' z] & H & Hc). injection H as <- <-.
    exists z. clear - Hl Hc. induction Hl as [|a z' l zs (b & t & H1 & H2) _ IH]; [destruct Hc|].
    destruct Hc as [Hc|Hc]; [injection Hc as <- <-; exists b, t; cbn [In]; auto|].
    destruct (IH Hc) as (b' & t' & I1 & I2 & I3 & I4). exists b', t'. cbn [In]. auto. }
  assert (Pz : forall z, In z zs -> exists a, In (a, Fin (inject_Z z)) p).
  { intros z Hz. subst p. clear - Hl Hz. induction Hl as [|a z' l zs _ _ IH]; [destruct Hz|]. cbn [combine map].
    destruct Hz as [->|Hz]; [exists a; now left|]. destruct (IH Hz) as (a' & Ha). exists a'. now right. }
  assert (Ep : map fst p = l).
  { subst p. rewrite map_map. clear - Hl. induction Hl as [|a z l zs _ _ IH]; [reflexivity|]. cbn [combine map fst]. now rewrite IH. }
  assert (Hp : Forall (fun '(a, x) => number a x) p).
  { apply Forall_forall. intros [a x] H. destruct (Pin a x H) as (z & b & t & -> & _ & Ho & Hz). apply (number_int b t); [exact Ho|lia]. }
  assert (W : exists z, In z zs) by (destruct Hl as [|a z l zs]; [congruence|exists z; now left]).
  destruct W as (z0 & Hz0). destruct (Pz z0 Hz0) as (a0 & Ha0).
  destruct (C64_range E p Hp rest Hn) as (a & x & b & y & d & Hx & Hy & Hs & _ & Hr).
  { exists a0, (Fin (inject_Z z0)). split; [exact Ha0|]. split; discriminate. }
  { exists a0, (Fin (inject_Z z0)). split; [exact Ha0|]. split; discriminate. }
  assert (Ix : In (a, x) p) by (destruct Hx as (p1 & p2 & -> & _); apply in_elt).
  assert (Iy : In (b, y) p) by (destruct Hy as (p1 & p2 & -> & _); apply in_elt).
  destruct (Pin a x Ix) as (lo & b1 & t1 & -> & Il & Ol & Bl). destruct (Pin b y Iy) as (hi & b2 & t2 & -> & Ih & Oh & Bh).
  assert (All : forall better c v, extreme better p c v -> (forall u, ~ better u u) -> forall c' v', In (c', v') p -> ~ better v' v).
  { intros better c v (p1 & p2 & Ep' & _ & A1 & A2) Irr c' v' H. rewrite Ep' in H. apply in_app_or in H.
    destruct H as [H|[H|H]]; [exact (A1 _ _ H)|injection H as <- <-; apply Irr|exact (proj1 (A2 _ _ H))]. }
  exists lo, hi. split; [exact Il|]. split; [exact Ih|]. split.
  { apply Forall_forall. intros z Hz. destruct (Pz z Hz) as (c & Hc).
    pose proof (All _ _ _ Hx less_irrefl _ _ Hc) as N1. pose proof (All _ _ _ Hy less_irrefl _ _ Hc) as N2.
    unfold greater in N2. cbn [less] in N1, N2. rewrite <- Zlt_Qlt in N1, N2. lia. }
  assert (NF : forall b t z c, operand b t z c -> ~ floating c).
  { intros b' t' z' c Ho F. apply floating_tag in F.
    assert (N : is_float (a_tt c) = false); [|congruence].
    destruct Ho as [t' v c' _|c'|c']; destruct c'; [destruct t'|..]; reflexivity. }
  destruct (Hr (NF _ _ _ _ Ol) (NF _ _ _ _ Oh)) as (r & Rr & G). rewrite Ep in G. rewrite G.
  assert (Rd : real 52 11 d (Fin (inject_Z (hi - lo)))).
  { destruct Hs as (s & R). apply (rounds_int s _ (inject_Z hi + - inject_Z lo) _); [|lia|exact R].
    rewrite <- inject_Z_opp, <- inject_Z_plus. now replace (hi + - lo) with (hi - lo) by lia. }
  destruct Rd as (v & Hv & Hq). unfold double_value in Rr. rewrite Hv in Rr. destruct Rr as (z & Tz & R1 & R2).
  assert (z = hi - lo).
  { apply (truncates_unique v); [exact Tz|]. split; rewrite Hq; intros _; rewrite <- Zle_Qle, <- Zlt_Qlt; lia. }
  subst z. assert (0 <= hi - lo).
  { pose proof (All _ _ _ Hx less_irrefl _ _ Iy) as N1. cbn [less] in N1. rewrite <- Zlt_Qlt in N1. lia. }
  split; intros B.
  - rewrite R1; [reflexivity|]. unfold in_type. cbn. lia.
  - rewrite R2; [reflexivity|]. unfold in_type. cbn. lia.
Qed.
Print Assumptions C64_range_integers.

(** Findings: the smallest number of a list of plus infinities is not found, and
    the range of an empty list is undefined. *)
Theorem C64_infinite_refuted E :
  exists a, number a (Infinite false) /\ fn_min E [Some [a]] = Ok (0, Some [atom_fresh]).
Proof.
  exists (set_double atom_fresh (infinity 52 11 false)).
  assert (H : number (set_double atom_fresh (infinity 52 11 false)) (Infinite false)) by (apply number_double; [split; vm_compute; [discriminate|reflexivity]|reflexivity]).
  split; [exact H|].
  apply (C64_min_none E [(_, Infinite false)]); [constructor; [exact H|constructor]|].
  intros a x [Hx|[]]. injection Hx as <- <-. now right.
Qed.
Theorem C64_empty_range_refuted E rest : fn_range E (Some [] :: rest) = Ub Overflow.
Proof. reflexivity. Qed.
Print Assumptions C64_infinite_refuted.
Print Assumptions C64_empty_range_refuted.

(** * C65: clipping and signs *)

(** The members that clipping leaves alone: strings, booleans, nil, blobs and
    bundles. *)
Definition kept (a : atom) : Prop := In (a_tt a) [115; 84; 70; 78; 98; 46].

Lemma clip_value lo hi dlo dhi x d : real 52 11 dlo lo -> real 52 11 dhi hi -> real 52 11 d x -> ~ less hi lo ->
  let v := if dlt d dlo then dlo else d in
  let v := if dgt v dhi then dhi else v in
  exists y, clipped lo hi x y /\ real 52 11 v y.
Proof.
  intros Hlo Hhi Hx Hle. cbv zeta. pose proof (dlt_iff _ _ _ _ Hx Hlo) as L. destruct (dlt d dlo).
  - pose proof (proj1 L eq_refl) as L'. pose proof (dgt_iff _ _ _ _ Hlo Hhi) as G. destruct (dgt dlo dhi); [tauto|].
    exists lo. split; [|exact Hlo]. split; [reflexivity|]. split; [|tauto].
    intros U. destruct Hle. exact (less_trans _ _ _ U L').
  - pose proof (dgt_iff _ _ _ _ Hx Hhi) as G. destruct (dgt d dhi).
    + pose proof (proj1 G eq_refl) as G'. exists hi. split; [|exact Hhi].
      split; [intros U; destruct Hle; exact (less_trans _ _ _ G' U)|]. split; [reflexivity|tauto].
    + exists x. split; [|exact Hx]. assert (~ less x lo) by (intros U; apply L in U; discriminate).
      assert (~ less hi x) by (intros U; apply G in U; discriminate). unfold clipped. tauto.
Qed.

(** Clipping to the interval from the first member of the second to that of the
    third argument: numbers are moved into the interval; the result is a double
    if the number or a bound is a float or double, else an int32, which has to
    have the value. *)
Theorem C65_clip E l b lo more c hi more' : number b lo -> number c hi -> ~ less hi lo ->
  (forall a, In a l -> kept a /\ copyable a \/
     ~ kept a /\ exists x, number a x /\
       (floating a \/ floating b \/ floating c \/
        forall y, clipped lo hi x y -> exists z, same y (Fin (inject_Z z)) /\ in_type I32 z)) ->
  exists out, fn_clip E [Some l; Some (b :: more); Some (c :: more')] = Ok (0, Some out) /\
  Forall2 (fun a r =>
    (kept a -> copy_of a r) /\
    (~ kept a -> forall x, number a x -> exists y, clipped lo hi x y /\
       (floating a \/ floating b \/ floating c -> exists d, real 52 11 d y /\ r = set_double atom_fresh d) /\
       (~ floating a -> ~ floating b -> ~ floating c ->
          exists z, same y (Fin (inject_Z z)) /\ in_type I32 z /\ r = set_u I32 atom_fresh z))) l out.
Proof.
  intros Hb Hc Hle Hl. unfold fn_clip.
  assert (A0 : forall y m, aget (Some (y :: m)) 0 = Ok (Some y)).
  { intros y m. cbn [aget]. rewrite zlen_cons. pose proof (zlen_nonneg m). rewrite (proj2 (Z.leb_gt _ _)) by lia. reflexivity. }
  rewrite !A0. cbn [bind double_at tag_at].
  destruct (number_double_of (e_double E) b lo Hb) as (dlo & Dlo & Rlo & _).
  destruct (number_double_of (e_double E) c hi Hc) as (dhi & Dhi & Rhi & _).
  rewrite Dlo, Dhi. cbn [bind alen items]. cbv zeta. set (fl := is_float (a_tt b) || is_float (a_tt c)).
  assert (NF : forall a, is_float (a_tt a) = false -> ~ floating a) by (intros a N F; apply floating_tag in F; congruence).
  assert (FF : forall a, is_float (a_tt a) = true -> floating a).
  { intros a. unfold is_float, floating. destruct (Z.eqb_spec (a_tt a) 102); [tauto|]. destruct (Z.eqb_spec (a_tt a) 100); [tauto|discriminate]. }
  assert (One : forall a, In a l -> exists r, clip_one E dlo dhi fl a atom_fresh = Ok r /\
    (kept a -> copy_of a r) /\
    (~ kept a -> forall x, number a x -> exists y, clipped lo hi x y /\
       (floating a \/ floating b \/ floating c -> exists d, real 52 11 d y /\ r = set_double atom_fresh d) /\
       (~ floating a -> ~ floating b -> ~ floating c ->
          exists z, same y (Fin (inject_Z z)) /\ in_type I32 z /\ r = set_u I32 atom_fresh z))).
  { intros a Ha. unfold clip_one. cbv zeta.
    set (k := (a_tt a =? 115) || (a_tt a =? 84) || (a_tt a =? 70) || (a_tt a =? 78) || (a_tt a =? 98) || (a_tt a =? 46)).
    assert (K : k = true <-> kept a).
    { unfold k, kept. cbn [In]. rewrite !orb_true_iff, !Z.eqb_eq. intuition. }
    destruct (Hl a Ha) as [[Hk Hcp]|[Hk (x & Hx & Hi)]].
    - rewrite (proj2 K Hk). destruct (copy_ok a Hcp) as (r & G & Cr). exists r. split; [exact G|]. tauto.
    - assert (Kf : k = false) by (destruct k; [destruct Hk; now apply K|reflexivity]). rewrite Kf.
      destruct (number_double_of (e_double E) a x Hx) as (d & Dd & Rd & _). rewrite Dd. cbn [bind].
      destruct (clip_value lo hi dlo dhi x d Rlo Rhi Rd Hle) as (y & Cy & Ry). cbv zeta in Ry.
      set (v := if dgt (if dlt d dlo then dlo else d) dhi then dhi else if dlt d dlo then dlo else d) in *.
      assert (Uniq : forall x', number a x' -> real 52 11 d x').
      { intros x' Hx'. destruct (number_double_of (e_double E) a x' Hx') as (d' & Dd' & Rd' & _). congruence. }
      assert (EF : (a_tt a =? 102) || (a_tt a =? 100) = is_float (a_tt a)) by reflexivity.
      rewrite EF. destruct (is_float (a_tt a) || fl) eqn:F.
      + exists (set_double atom_fresh v). split; [reflexivity|]. split; [tauto|]. intros _ x' Hx'.
        destruct (clip_value lo hi dlo dhi x' d Rlo Rhi (Uniq x' Hx') Hle) as (y' & Cy' & Ry'). cbv zeta in Ry'. fold v in Ry'.
        exists y'. split; [exact Cy'|]. split; [intros _; exists v; now split|]. intros N1 N2 N3. exfalso.
        apply orb_true_iff in F. destruct F as [F|F]; [exact (N1 (FF _ F))|]. apply orb_true_iff in F.
        destruct F as [F|F]; [exact (N2 (FF _ F))|exact (N3 (FF _ F))].
      + apply orb_false_iff in F. destruct F as [F1 F]. apply orb_false_iff in F. destruct F as [F2 F3].
        apply NF in F1. apply NF in F2. apply NF in F3.
        destruct Hi as [Hi|[Hi|[Hi|Hi]]]; [tauto..|]. destruct (Hi y Cy) as (z & Sz & Iz).
        rewrite (trunc_int v z (real_same _ _ _ Ry Sz)).
        rewrite in_range by (unfold in_type in Iz; cbn in Iz; lia). cbn [bind].
        exists (set_u I32 atom_fresh z). split; [reflexivity|]. split; [tauto|]. intros _ x' Hx'.
        destruct (clip_value lo hi dlo dhi x' d Rlo Rhi (Uniq x' Hx') Hle) as (y' & Cy' & Ry'). cbv zeta in Ry'. fold v in Ry'.
        exists y'. split; [exact Cy'|]. split; [tauto|]. intros _ _ _. exists z. split; [|split; [exact Iz|reflexivity]].
        apply same_sym. apply (real_unique v); [exact (real_same _ _ _ Ry Sz)|exact Ry'|discriminate]. }
  assert (Outs : exists out, Forall2 (fun a r => clip_one E dlo dhi fl a atom_fresh = Ok r /\
    (kept a -> copy_of a r) /\
    (~ kept a -> forall x, number a x -> exists y, clipped lo hi x y /\
       (floating a \/ floating b \/ floating c -> exists d, real 52 11 d y /\ r = set_double atom_fresh d) /\
       (~ floating a -> ~ floating b -> ~ floating c ->
          exists z, same y (Fin (inject_Z z)) /\ in_type I32 z /\ r = set_u I32 atom_fresh z))) l out).
  { clear Hl. induction l as [|a l IH]; [exists []; constructor|].
    destruct (One a (or_introl eq_refl)) as (r & Hr). destruct IH as (out & Ho); [intros a' Ha'; apply One; now right|].
    exists (r :: out). now constructor. }
  destruct Outs as (out & Ho). exists out.
  assert (F1 : Forall2 (fun a r => clip_one E dlo dhi fl a atom_fresh = Ok r) l out).
  { clear - Ho. induction Ho as [|a r l out (H & _) _ IH]; constructor; assumption. }
  split.
  - rewrite aalloc_len. cbn [bind]. pose proof (each_ok _ _ _ F1 [] 0 eq_refl) as G. cbn [app] in G. rewrite G. reflexivity.
  - clear - Ho. induction Ho as [|a r l out (_ & H) _ IH]; constructor; assumption.
Qed.
Print Assumptions C65_clip.

(** Any other number of arguments is an error. *)
Theorem C65_clip_arity E argv : length argv <> 3%nat -> fn_clip E argv = Ok (1, None).
Proof. destruct argv as [|a [|b [|c [|d l]]]]; intros H; try reflexivity. now destruct H. Qed.
Print Assumptions C65_clip_arity.

(** The sign of every member: -1, 0 or 1, and 1 for NaN. *)
Theorem C65_sign E p rest : Forall (fun '(a, x) => number a x) p ->
  exists zs, fn_sign E (Some (map fst p) :: rest) = Ok (0, Some (map (set_u I32 atom_fresh) zs)) /\
  Forall2 (fun '(a, x) z => (less x (Fin 0) -> z = -1) /\ (same x (Fin 0) -> z = 0) /\
     (less (Fin 0) x \/ x = NotANumber -> z = 1)) p zs.
Proof.
  intros Hp.
  assert (O : exists zs, Forall2 (fun '(a, x) z => sign_one E a atom_fresh = Ok (set_u I32 atom_fresh z) /\
     (less x (Fin 0) -> z = -1) /\ (same x (Fin 0) -> z = 0) /\ (less (Fin 0) x \/ x = NotANumber -> z = 1)) p zs).
  { induction Hp as [|[a x] p Ha _ (zs & IH)]; [exists []; constructor|].
    destruct (number_double_of (e_double E) a x Ha) as (d & Dd & Rd & _).
    exists ((if deq d 0 then 0 else if dlt d 0 then -1 else 1) :: zs). constructor; [|exact IH].
    unfold sign_one. rewrite Dd. cbn [bind]. split; [reflexivity|].
    pose proof (deq_iff _ _ _ _ Rd real_zero) as A1. pose proof (dlt_iff _ _ _ _ Rd real_zero) as A2.
    destruct (deq d 0).
    - pose proof (proj1 A1 eq_refl) as S0. split; [|split; [reflexivity|]].
      + intros L. destruct (less_irrefl x). exact (less_same _ _ _ L (same_sym _ _ S0)).
      + intros [L| ->]; [|destruct S0]. destruct (less_irrefl x). exact (same_less _ _ _ S0 L).
    - assert (N : ~ same x (Fin 0)) by (intros U; apply A1 in U; discriminate).
      destruct (dlt d 0).
      + pose proof (proj1 A2 eq_refl) as L. split; [reflexivity|]. split; [tauto|].
        intros [U| ->]; [|destruct L]. destruct (less_irrefl x). exact (less_trans _ _ _ L U).
      + assert (N2 : ~ less x (Fin 0)) by (intros U; apply A2 in U; discriminate).
        split; [tauto|]. split; [tauto|reflexivity]. }
  destruct O as (zs & O). exists zs. split.
  - unfold fn_sign. cbn [argv_at nth_error bind alen items]. rewrite aalloc_len. cbn [bind].
    assert (F : Forall2 (fun a y => sign_one E a atom_fresh = Ok y) (map fst p) (map (set_u I32 atom_fresh) zs)).
    { clear - O. induction O as [|[a x] z p zs (H & _) _ IH]; constructor; assumption. }
    pose proof (each_ok _ _ _ F [] 0 eq_refl) as G. cbn [app] in G. rewrite G. reflexivity.
  - clear - O. induction O as [|[a x] z p zs (_ & H) _ IH]; constructor; assumption.
Qed.
Print Assumptions C65_sign.

(** * C66: sorting *)

Lemma keys_ok E p : Forall (fun '(a, v) => sortable a v) p ->
  copy_all (map fst p) = Ok (map fst p) /\
  exists ks, keys_of E (map fst p) = Ok ks /\ Forall2 keyed ks (map snd p).
Proof.
  induction 1 as [|[a v] p Ha _ (C & ks & K & F)]; [split; [reflexivity|]; exists []; now split; [|constructor]|].
  destruct (sortable_ok E a v Ha) as (Ca & k & Ka & Kv). cbn [map fst snd]. split.
  - cbn [copy_all]. rewrite Ca, C. reflexivity.
  - exists (k :: ks). split; [|now constructor]. cbn [keys_of]. rewrite Ka, K. reflexivity.
Qed.
Lemma lens_ok argv : forall acc, 0 <= acc -> acc + zlen (concat (map members argv)) < 2^31 ->
  exists n, int_lens acc argv = Ok n.
Proof.
  induction argv as [|a argv IH]; intros acc H0 H; [now exists acc|].
  cbn [map concat] in H. rewrite zlen_app in H. pose proof (zlen_nonneg (members a)). pose proof (zlen_nonneg (concat (map members argv))).
  destruct (IH (acc + zlen (members a))) as (n & Hn); [lia|lia|]. exists n.
  cbn [int_lens]. rewrite alen_members. unfold add_int.
  rewrite (proj2 (Z.leb_le (- 2^31) _)), (proj2 (Z.ltb_lt _ (2^31))) by lia. exact Hn.
Qed.

(** The members of all arguments in increasing order, numbers before strings, if
    no two numbers are equal. *)
Theorem C66_sort qs E argv p : qsort_ok qs -> map fst p = concat (map members argv) -> zlen p < 2^31 ->
  Forall (fun '(a, v) => sortable a v) p -> ForallOrdPairs different (map snd p) ->
  exists p', Permutation p p' /\ StronglySorted in_order (map snd p') /\ fn_sort qs E argv = Ok (0, Some (map fst p')).
Proof.
  intros Hq Hm Hlen Hp Hd. destruct (keys_ok E p Hp) as (C & ks & K & F).
  assert (TT : exists T : list ((key * atom) * sval), map fst T = combine ks (map fst p) /\
    map (fun t => (snd (fst t), snd t)) T = p /\ Forall (fun t => keyed (fst (fst t)) (snd t)) T).
  { clear - F. revert ks F. induction p as [|[a v] p IH]; intros ks F; inversion F as [|k ? ks' ? Hk F']; subst.
    - exists []. now repeat split.
    - destruct (IH ks' F') as (T & E1 & E2 & E3). exists (((k, a), v) :: T). cbn [map fst snd combine].
      rewrite E1, E2. split; [reflexivity|]. split; [reflexivity|]. now constructor. }
  destruct TT as (T & E1 & E2 & E3).
  assert (Es : map snd T = map snd p) by (rewrite <- E2, map_map; reflexivity).
  assert (Dsym : forall v w, different v w -> different w v).
  { intros [x|s] [y|t]; cbn [different]; auto. intros N U. apply N. now apply same_sym. }
  destruct (sort_with (key * atom) sval (fun x y => qsortcb (fst x) (fst y)) (fun x v => keyed (fst x) v) different in_order
    Dsym (fun x y v w => cb_ok (fst x) (fst y) v w) (fun x y z v w u => in_order_trans (fst x) (fst y) (fst z) v w u)
    qs T Hq E3) as (T' & P & E4 & St); [rewrite Es; exact Hd|].
  exists (map (fun t => (snd (fst t), snd t)) T'). split; [rewrite <- E2; now apply Permutation_map|].
  split; [rewrite map_map; exact St|].
  unfold fn_sort. change (concat (map items argv)) with (concat (map members argv)). rewrite <- Hm.
  destruct (lens_ok argv 0) as (n & Hn); [lia|rewrite <- Hm; unfold zlen in *; rewrite map_length; lia|].
  rewrite Hn, C. cbn [bind]. rewrite K. cbn [bind]. rewrite <- E1, <- E4, !map_map. reflexivity.
Qed.
Print Assumptions C66_sort.

Lemma set_indexes_ok l : forall done i, i = zlen done ->
  set_indexes l i (Some (done ++ repeat atom_fresh (length l))) =
  Ok (Some (done ++ map (fun '(_, n) => set_int32 atom_fresh n) l)).
Proof.
  induction l as [|[k n] l IH]; intros done i ->; [reflexivity|].
  cbn [set_indexes length repeat]. rewrite (aput_at done atom_fresh (repeat atom_fresh (length l))). cbn [bind].
  replace (done ++ set_int32 atom_fresh n :: repeat atom_fresh (length l))
    with ((done ++ [set_int32 atom_fresh n]) ++ repeat atom_fresh (length l)) by (rewrite <- app_assoc; reflexivity).
  rewrite (IH (done ++ [set_int32 atom_fresh n])); [now rewrite <- app_assoc|].
  rewrite zlen_app, zlen_cons. change (zlen (@nil atom)) with 0. lia.
Qed.

(** The indexes that put the members of the first argument in order. *)
Theorem C66_sortidx qs E p rest : qsort_ok qs -> Forall (fun '(a, v) => sortable a v) p ->
  exists idx vs, Permutation (map Z.of_nat (seq 0 (length p))) idx /\
    Forall2 (fun i v => nth_error (map snd p) (Z.to_nat i) = Some v) idx vs /\ StronglySorted in_order vs /\
    fn_sortidx qs E (Some (map fst p) :: rest) = Ok (0, Some (map (set_u I32 atom_fresh) idx)).
Proof.
  intros Hq Hp. destruct (keys_ok E p Hp) as (C & ks & K & F).
  assert (TT : forall n, exists T : list ((key * Z) * sval), map fst T = number_from (Z.of_nat n) ks /\ length T = length p /\
    map (fun t => snd (fst t)) T = map Z.of_nat (seq n (length p)) /\
    Forall (fun t => keyed (fst (fst t)) (snd t)) T /\
    Forall (fun t => Z.of_nat n <= snd (fst t) /\ nth_error (map snd p) (Z.to_nat (snd (fst t)) - n) = Some (snd t)) T).
  { clear - F. revert ks F. induction p as [|[a v] p IH]; intros ks F n; inversion F as [|k ? ks' ? Hk F']; subst.
    - exists []. now repeat split.
    - destruct (IH ks' F' (S n)) as (T & E1 & E2 & E3 & E4 & E5). exists (((k, Z.of_nat n), v) :: T).
      cbn [map fst snd number_from length seq]. rewrite E1, E2, E3. rewrite Nat2Z.inj_succ. unfold Z.succ.
      split; [reflexivity|]. split; [reflexivity|]. split; [reflexivity|]. split; [now constructor|].
      constructor.
      + cbn [fst snd]. rewrite Nat2Z.id, Nat.sub_diag. split; [lia|reflexivity].
      + rewrite Forall_forall in *. intros t Ht. destruct (E5 t Ht) as (L & N). split; [lia|].
        replace (Z.to_nat (snd (fst t)) - n)%nat with (S (Z.to_nat (snd (fst t)) - S n)) by lia. exact N. }
  destruct (TT 0%nat) as (T & E1 & E2 & E3 & E4 & E5).
  assert (Td : forall l : list sval, ForallOrdPairs (fun _ _ => True) l).
  { induction l; constructor; [|assumption]. now apply Forall_forall. }
  destruct (sort_with (key * Z) sval (fun x y => qsort_index_cb (fst x) (fst y)) (fun x v => keyed (fst x) v) (fun _ _ => True) in_order
    (fun _ _ H => H) (fun x y v w => index_cb_ok (fst x) (fst y) v w) (fun x y z v w u => in_order_trans (fst x) (fst y) (fst z) v w u)
    qs T Hq E4) as (T' & P & E6 & St); [apply Td|].
  exists (map (fun t => snd (fst t)) T'), (map snd T').
  split; [rewrite <- E3; now apply Permutation_map|]. split.
  { pose proof (Permutation_Forall P E5) as E5'. clear - E5'. induction E5' as [|t T' (_ & N) _ IH]; constructor; [|exact IH].
    rewrite <- N. f_equal. lia. }
  split; [exact St|].
  unfold fn_sortidx. cbn [argv_at nth_error bind alen items]. rewrite aalloc_len. cbn [bind]. rewrite C. cbn [bind]. rewrite K. cbn [bind].
  change 0 with (Z.of_nat 0) at 1. rewrite <- E1, <- E6. change (Z.of_nat 0) with 0.
  assert (L : length (map fst p) = length (map fst T')) by (rewrite !map_length, <- E2; exact (Permutation_length P)).
  rewrite L. pose proof (set_indexes_ok (map fst T') [] 0 eq_refl) as G. cbn [app] in G. rewrite G. cbn [bind].
  rewrite !map_map. do 3 f_equal. apply map_ext. intros [[k i] v]. reflexivity.
Qed.
Print Assumptions C66_sortidx.

Lemma rd_nth (l : list Z) k x : nth_error l k = Some x -> rd l (Z.of_nat k) = Ok x.
Proof.
  intros H. destruct (nth_error_split _ _ H) as (l1 & l2 & -> & <-). exact (rd_at l1 x l2).
Qed.
Lemma double_array_ok E q p : valued E q p -> double_array E (map fst p) = Ok (map fst q).
Proof.
  induction 1 as [|[d a] [b x] q p (-> & Hd & _) _ IH]; [reflexivity|].
  cbn [map fst double_array]. rewrite Hd, IH. reflexivity.
Qed.
(** The median of the first argument: the member in the middle of those in order,
    or the mean of the two. *)
Theorem C66_median qs E p rest : qsort_ok qs -> nan_platform E ->
  Forall (fun '(a, x) => number a x /\ x <> NotANumber) p -> p <> [] ->
  exists ys d, Permutation (map snd p) ys /\ StronglySorted (fun x y => ~ less y x) ys /\
    (forall k, length p = (2 * k + 1)%nat -> exists y, nth_error ys k = Some y /\ real 52 11 d y) /\
    (forall k, length p = (2 * k + 2)%nat -> exists y1 y2 s x, nth_error ys k = Some y1 /\ nth_error ys (k + 1) = Some y2 /\
       sum_is y1 y2 s /\ real 52 11 s x /\ quotient_is x (Fin 2) d) /\
    fn_median qs E (Some (map fst p) :: rest) = Ok (0, Some [set_double atom_fresh d]).
Proof.
  intros Hq Hn Hp Hne.
  assert (Hnum : Forall (fun '(a, x) => number a x) p).
  { rewrite Forall_forall in *. intros [a x] H. exact (proj1 (Hp (a, x) H)). }
  destruct (valued_of E p Hnum) as (q & Vq).
  assert (TT : exists T : list (Z * ext), map fst T = map fst q /\ map snd T = map snd p /\
    Forall (fun t => real 52 11 (fst t) (snd t) /\ snd t <> NotANumber) T).
  { clear - Vq Hp. induction Vq as [|[d a] [b x] q p (-> & Hd & Hr) _ IH]; [exists []; now repeat split|].
    inversion Hp as [|? ? N Hp']; subst. destruct N as (_ & N). destruct (IH Hp') as (T & E1 & E2 & E3). exists ((d, x) :: T).
    cbn [map fst snd]. rewrite E1, E2. split; [reflexivity|]. split; [reflexivity|]. constructor; [now split|exact E3]. }
  destruct TT as (T & E1 & E2 & E3).
  assert (Td : forall l : list ext, ForallOrdPairs (fun _ _ => True) l).
  { induction l; constructor; [|assumption]. now apply Forall_forall. }
  destruct (sort_with Z ext comp (fun d x => real 52 11 d x /\ x <> NotANumber) (fun _ _ => True) (fun x y => ~ less y x)
    (fun _ _ H => H) comp_ok
    (fun x y z v w u _ K2 _ => not_less_trans v w u (proj2 K2)) qs T Hq E3) as (T' & P & E4 & St); [apply Td|].
  pose proof (Permutation_Forall P E3) as E3'.
  assert (L : length T' = length p) by (rewrite <- (Permutation_length P), <- (map_length snd T), E2; apply map_length).
  assert (At : forall k, (k < length p)%nat -> exists d y, nth_error (map fst T') k = Some d /\ nth_error (map snd T') k = Some y /\ real 52 11 d y).
  { intros k Hk. destruct (nth_error T' k) as [[d y]|] eqn:Ek; [|apply nth_error_None in Ek; lia].
    exists d, y. rewrite !nth_error_map, Ek. split; [reflexivity|]. split; [reflexivity|].
    rewrite Forall_forall in E3'. exact (proj1 (E3' (d, y) (nth_error_In _ _ Ek))). }
  assert (G : forall v, (forall k, length p = (2 * k + 1)%nat -> nth_error (map fst T') k = Some v) ->
     (forall k, length p = (2 * k + 2)%nat -> exists l r, nth_error (map fst T') k = Some l /\ nth_error (map fst T') (k + 1) = Some r /\
        v = ddiv (e_nan E) (dadd (e_nan E) l r) (double_of_int 2)) ->
     fn_median qs E (Some (map fst p) :: rest) = Ok (0, Some [set_double atom_fresh v])).
  { intros v H1 H2. unfold fn_median. rewrite aalloc_1. cbn [bind argv_at nth_error alen items].
    rewrite (double_array_ok E q p Vq). cbn [bind]. rewrite <- E1, <- E4.
    replace (zlen (map fst p)) with (Z.of_nat (length p)) by (unfold zlen; now rewrite map_length).
    destruct (Nat.Even_or_Odd (length p)) as [(k & Hk)|(k & Hk)].
    - destruct k as [|k]; [destruct p; [congruence|discriminate]|]. assert (Hk' : length p = (2 * k + 2)%nat) by lia.
      destruct (H2 k Hk') as (l & r & A1 & A2 & ->).
      replace (Z.of_nat (length p) mod 2) with 0 by (rewrite Hk'; Z.div_mod_to_equations; lia). cbn [Z.eqb].
      replace (Z.quot (Z.of_nat (length p) - 1) 2) with (Z.of_nat k)
        by (rewrite Hk', Z.quot_div_nonneg by lia; Z.div_mod_to_equations; lia).
      rewrite (rd_nth _ _ _ A1). cbn [bind]. replace (Z.of_nat k + 1) with (Z.of_nat (k + 1)) by lia.
      rewrite (rd_nth _ _ _ A2). cbn [bind]. rewrite aput_1. reflexivity.
    - replace (Z.of_nat (length p) mod 2) with 1 by (rewrite Hk; Z.div_mod_to_equations; lia). cbn [Z.eqb].
      replace (Z.quot (Z.of_nat (length p) - 1) 2) with (Z.of_nat k)
        by (rewrite Hk, Z.quot_div_nonneg by lia; Z.div_mod_to_equations; lia).
      rewrite (rd_nth _ _ _ (H1 k Hk)). cbn [bind]. rewrite aput_1. reflexivity. }
  exists (map snd T').
  assert (PP : Permutation (map snd p) (map snd T')) by (rewrite <- E2; now apply Permutation_map).
  destruct (Nat.Even_or_Odd (length p)) as [(k & Hk)|(k & Hk)].
  - destruct k as [|k]; [destruct p; [congruence|discriminate]|].
    destruct (At k ltac:(lia)) as (l & y1 & L1 & L2 & L3). destruct (At (k + 1)%nat ltac:(lia)) as (r & y2 & R1 & R2 & R3).
    pose proof (add_ok (e_nan E) Hn _ _ _ _ L3 R3) as Hs. destruct (sum_real _ _ _ Hs) as (x & Hx).
    exists (ddiv (e_nan E) (dadd (e_nan E) l r) (double_of_int 2)). split; [exact PP|]. split; [exact St|].
    split; [intros k' Hk'; lia|]. split.
    + intros k' Hk'. assert (k' = k) by lia. subst k'. exists y1, y2, (dadd (e_nan E) l r), x.
      split; [exact L2|]. split; [exact R2|]. split; [exact Hs|]. split; [exact Hx|].
      apply (div_ok (e_nan E) Hn _ _ _ _ Hx (real_int 2 ltac:(lia))). cbn [same]. discriminate.
    + apply G; [intros k' Hk'; lia|]. intros k' Hk'. assert (k' = k) by lia. subst k'. now exists l, r.
  - destruct (At k ltac:(lia)) as (d & y & D1 & D2 & D3). exists d. split; [exact PP|]. split; [exact St|].
    split; [|split].
    + intros k' Hk'. assert (k' = k) by lia. subst k'. now exists y.
    + intros k' Hk'. lia.
    + apply G; [|intros k' Hk'; lia]. intros k' Hk'. assert (k' = k) by lia. now subst k'.
Qed.
Print Assumptions C66_median.

(** Findings.  The comparison function of sort calls the first of two equal
    numbers the greater one either way: it is not consistent, and a qsort may do
    anything, here drop the members.  The median of an empty list reads outside
    its array. *)
Definition picky : qsort_t := fun A cmp l =>
  match l with
  | x :: y :: _ => if (0 <? cmp x y) && (0 <? cmp y x) then [] else isort A cmp l
  | _ => isort A cmp l
  end.
Lemma picky_ok : qsort_ok picky.
Proof.
  intros A cmp l C. destruct l as [|x [|y l]]; try exact (isort_ok A cmp _ C).
  unfold picky. pose proof (proj1 C x y l (Permutation_refl _)) as Sg.
  destruct (Z.ltb_spec 0 (cmp x y)), (Z.ltb_spec 0 (cmp y x)); cbn [andb]; try exact (isort_ok A cmp _ C). lia.
Qed.
Theorem C66_equal_refuted E : exists qs, qsort_ok qs /\ forall z, in_type I32 z ->
  fn_sort qs E [Some [set_u I32 atom_fresh z; set_u I32 atom_fresh z]] = Ok (0, Some []).
Proof.
  exists picky. split; [exact picky_ok|]. intros z Hz. unfold fn_sort.
  change (int_lens 0 [Some [set_u I32 atom_fresh z; set_u I32 atom_fresh z]]) with (Ok 2). cbn [bind map items concat app].
  set (a := set_u I32 atom_fresh z). assert (C : copy_into atom_fresh (Some a) = Ok a) by reflexivity.
  cbn [copy_all]. rewrite C. cbn [bind]. cbn [keys_of]. unfold key_of.
  rewrite (au_double_set (e_double E) I32 atom_fresh z Hz : au_double (e_double E) a = Ok (double_of_int z)).
  change (a_tt a =? 115) with false. cbn [bind combine]. unfold picky. cbn [fst qsortcb].
  assert (Ez : Z.abs z <= 2^53) by (unfold in_type in Hz; cbn in Hz; lia).
  destruct (dlt (double_of_int z) (double_of_int z)) eqn:L.
  - apply (dlt_iff _ _ _ _ (real_int z Ez) (real_int z Ez)) in L. destruct (less_irrefl _ L).
  - reflexivity.
Qed.
Theorem C66_empty_median_refuted qs E rest : qsort_ok qs -> fn_median qs E (Some [] :: rest) = Ub OOB.
Proof.
  intros Hq. unfold fn_median. rewrite aalloc_1. cbn [bind argv_at nth_error alen items double_array].
  destruct (Hq Z comp []) as (P & _).
  { split; intros; match goal with H : Permutation [] _ |- _ => apply Permutation_nil in H; discriminate end. }
  apply Permutation_nil in P. rewrite P. reflexivity.
Qed.
(** A product of floats loses its fraction: 0.5 * 3 gives the integer 1. *)
Theorem C63_fraction_refuted E : exists a b,
  number a (Fin (1 # 2)) /\ number b (Fin 3) /\ floating a /\ fn_product E [Some [a; b]] = Ok (0, Some [set_u I32 atom_fresh 1]).
Proof.
  exists (set_double atom_fresh 4602678819172646912), (set_u I32 atom_fresh 3). split; [|split; [|split]].
  - apply number_double; [split; vm_compute; [discriminate|reflexivity]|]. eexists. split; [vm_compute; reflexivity|reflexivity].
  - apply (number_int false I32 3); [constructor; unfold in_type; cbn; lia|lia].
  - now right.
  - vm_compute. reflexivity.
Qed.
Print Assumptions C66_equal_refuted.
Print Assumptions C66_empty_median_refuted.
Print Assumptions C63_fraction_refuted.

(** * Cases *)

Definition i32 (z : Z) : atom := set_u I32 atom_fresh z.
Lemma i32_operand z : in_type I32 z -> Z.abs z <= 2^53 -> exists b t, operand b t z (i32 z) /\ Z.abs z <= 2^53.
Proof. intros H1 H2. exists false, I32. split; [now constructor|exact H2]. Qed.
Lemma i32_number z : in_type I32 z -> number (i32 z) (Fin (inject_Z z)).
Proof. intros H. apply (number_int false I32); [now constructor|]. unfold in_type in H. cbn in H. lia. Qed.
Ltac small := unfold in_type; cbn; lia.
(** A qsort exists. *)
Example sorts : exists qs : qsort_t, qsort_ok qs.
Proof. exists isort. exact isort_ok. Qed.
Example sum_case E : nan_platform E -> fn_sum E [Some [i32 2000000000; i32 7]; None; Some [i32 2000000000]] =
  Ok (0, Some [set_u U32 atom_fresh 4000000007]).
Proof.
  intros Hn. apply (C63_sum_integers E _ [2000000000; 7; 2000000000] Hn).
  - repeat constructor; apply i32_operand; small.
  - repeat constructor; lia.
  - cbn. lia.
Qed.
Example product_case E : nan_platform E -> fn_product E [Some [i32 (-3); i32 7]; Some [i32 2]] = Ok (0, Some [i32 (-42)]).
Proof.
  intros Hn. apply (C63_product_integers E _ [-3; 7; 2] Hn).
  - repeat constructor; apply i32_operand; small.
  - repeat constructor; lia.
  - cbn. lia.
Qed.
Example min_case E : fn_min E [Some [i32 3; i32 (-5); i32 8]] = Ok (0, Some [i32 (-5)]).
Proof.
  destruct (C64_min E [(i32 3, Fin 3); (i32 (-5), Fin (-5)); (i32 8, Fin 8)]) with (rest := @nil arr) as (a & x & H & G).
  - repeat constructor; apply i32_number; small.
  - exists (i32 3), (Fin 3). split; [now left|]. split; discriminate.
  - exact eq_refl.
Qed.
Example sort_case E : exists p' : list (atom * sval), fn_sort isort E [Some [i32 3; Atom 115 0 (PStr [97])]; Some [i32 (-5)]] = Ok (0, Some (map fst p')) /\
  map fst p' = [i32 (-5); i32 3; Atom 115 0 (PStr [97])].
Proof. exists [(i32 (-5), SNum (Fin (-5))); (i32 3, SNum (Fin 3)); (Atom 115 0 (PStr [97]), SStr [97])]. split; reflexivity. Qed.
Example sort_inputs : let p := [(i32 3, SNum (Fin 3)); (Atom 115 0 (PStr [97]), SStr [97]); (i32 (-5), SNum (Fin (-5)))] in
  Forall (fun '(a, v) => sortable a v) p /\ ForallOrdPairs different (map snd p).
Proof.
  split.
  - constructor; [constructor; [apply i32_number; small|discriminate]|].
    constructor; [constructor; repeat constructor; lia|].
    constructor; [constructor; [apply i32_number; small|discriminate]|constructor].
  - repeat constructor; cbn; unfold Qeq; cbn; lia.
Qed.
Example clip_inputs E : exists out,
  fn_clip E [Some [i32 30; set_nil atom_fresh; i32 (-4)]; Some [i32 0]; Some [i32 10]] = Ok (0, Some out).
Proof.
  destruct (C65_clip E [i32 30; set_nil atom_fresh; i32 (-4)] (i32 0) (Fin 0) [] (i32 10) (Fin 10) []) as (out & G & _).
  - apply i32_number. small.
  - apply i32_number. small.
  - cbn. unfold Qlt. cbn. lia.
  - assert (B : forall z, in_type I32 z -> forall y, clipped (Fin 0) (Fin 10) (Fin (inject_Z z)) y ->
        exists z', same y (Fin (inject_Z z')) /\ in_type I32 z').
    { intros z Hz y (C1 & C2 & C3). destruct (Z.ltb_spec z 0) as [L|L]; [|destruct (Z.ltb_spec 10 z) as [L'|L']].
      - exists 0. rewrite C1 by (cbn; unfold Qlt; cbn; lia). split; [reflexivity|small].
      - exists 10. rewrite C2 by (cbn; unfold Qlt; cbn; lia). split; [reflexivity|small].
      - exists z. rewrite C3 by (cbn; unfold Qlt; cbn; lia). split; [reflexivity|exact Hz]. }
    intros a [<-|[<-|[<-|[]]]].
    + right. split; [intros H; cbn in H; lia|]. exists (Fin 30). split; [apply i32_number; small|].
      do 3 right. apply (B 30). small.
    + left. split; [cbn; tauto|]. split; [|exact I]. constructor; [lia|split; discriminate].
    + right. split; [intros H; cbn in H; lia|]. exists (Fin (-4)). split; [apply i32_number; small|].
      do 3 right. apply (B (-4)). small.
  - exists out. exact G.
Qed.
