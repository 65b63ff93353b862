(** Proofs about the numeric and statistical functions. *)

From Coq Require Import ZArith List Bool QArith Qabs Lia Lqa Permutation Sorted.
From Verif Require Import Base BaseProofs Bytes SerialModel AtomSModel FloatModel AtomUModel FArithModel ExprModel
  ExprListModel StatModel AtomSpec AtomProofs RoundSpec RealSpec ExprSpec StatSpec NumProps FloatProofs RoundProofs CompareProofs
  FArithProofs ExprListProofs ExprProps ExprListProps.
Import ListNotations.
Open Scope Z_scope.

(** * Numbers *)

Lemma rounds_real s q d : rounds 52 11 s q d -> exists z, real 52 11 d z.
Proof.
  intros (_ & _ & H1 & H2). destruct (Qlt_le_dec (Qabs q) (overflow_limit 52 11)) as [L|L].
  - destruct (H1 L) as (v & Hv & _). exists (Fin v), v. split; [exact Hv|reflexivity].
  - exists (Infinite s). exact (H2 L).
Qed.
Lemma sum_real x y d : sum_is x y d -> exists z, real 52 11 d z.
Proof.
  destruct x as [p|s|], y as [q|s'|]; cbn [sum_is]; intros H;
    try (now exists NotANumber).
  - destruct H as (s & H). exact (rounds_real _ _ _ H).
  - now exists (Infinite s').
  - now exists (Infinite s).
  - destruct (Bool.eqb s s'); [now exists (Infinite s)|now exists NotANumber].
Qed.
Lemma product_real x y d : product_is x y d -> exists z, real 52 11 d z.
Proof.
  assert (T : forall q s, ((q == 0)%Q -> is_nan 52 11 d) /\
      ((0 < q)%Q -> d = infinity 52 11 s) /\ ((q < 0)%Q -> d = infinity 52 11 (negb s)) -> exists z, real 52 11 d z).
  { intros q s (H0 & H1 & H2). destruct (Q_dec q 0) as [[L|L]|L].
    - exists (Infinite (negb s)). now apply H2.
    - exists (Infinite s). now apply H1.
    - exists NotANumber. now apply H0. }
  destruct x as [p|s|], y as [q|s'|]; cbn [product_is]; intros H;
    try (now exists NotANumber); try (exact (T _ _ H)).
  - destruct H as (s & H). exact (rounds_real _ _ _ H).
  - now exists (Infinite (xorb s s')).
Qed.

Lemma same_refl x : x <> NotANumber -> same x x.
Proof. destruct x; cbn; intros H; [reflexivity|reflexivity|congruence]. Qed.
Lemma same_sym x y : same x y -> same y x.
Proof. destruct x, y; cbn; intros H; try tauto; now symmetry. Qed.
Lemma less_trans x y z : less x y -> less y z -> less x z.
Proof.
  destruct x as [p|s|], y as [q|s'|], z as [r|s''|]; cbn; intros H1 H2; try tauto; try (intuition congruence).
  lra.
Qed.
Lemma less_irrefl x : ~ less x x.
Proof. destruct x; cbn; [lra|intuition congruence|tauto]. Qed.
(** Not less, backwards, composes among numbers. *)
Lemma less_or x y : x <> NotANumber -> y <> NotANumber -> less x y \/ same x y \/ less y x.
Proof.
  destruct x as [p|s|], y as [q|s'|]; cbn; intros H1 H2; try congruence.
  - destruct (Q_dec p q) as [[L|L]|L]; auto.
  - destruct s'; auto.
  - destruct s; auto.
  - destruct s, s'; auto.
Qed.
Lemma less_same x y z : less x y -> same y z -> less x z.
Proof. destruct x, y, z; cbn; intros; try tauto; try (intuition congruence). lra. Qed.
Lemma same_less x y z : same x y -> less y z -> less x z.
Proof. destruct x, y, z; cbn; intros; try tauto; try (intuition congruence). lra. Qed.
Lemma not_less_trans x y z : y <> NotANumber -> ~ less y x -> ~ less z y -> ~ less z x.
Proof.
  intros Hy H1 H2 H3.
  assert (Hx : x <> NotANumber) by (intros ->; destruct z; cbn in H3; tauto).
  assert (Hz : z <> NotANumber) by (intros ->; destruct x; cbn in H3; tauto).
  destruct (less_or x y Hx Hy) as [L|[L|L]]; [|exact (H2 (less_same _ _ _ H3 L))|tauto].
  exact (H2 (less_trans _ _ _ H3 L)).
Qed.

Section Compare.
Context (d1 d2 : Z) (x y : ext) (H1 : real 52 11 d1 x) (H2 : real 52 11 d2 y).
Lemma dlt_iff : dlt d1 d2 = true <-> less x y.
Proof.
  unfold dlt. pose proof (compare_real _ _ _ _ H1 H2) as C.
  destruct (ieee_compare 52 11 d1 d2) as [[| |]|]; split; try easy; tauto.
Qed.
Lemma dgt_iff : dgt d1 d2 = true <-> less y x.
Proof.
  unfold dgt. pose proof (compare_real _ _ _ _ H1 H2) as C.
  destruct (ieee_compare 52 11 d1 d2) as [[| |]|]; split; try easy; tauto.
Qed.
Lemma deq_iff : deq d1 d2 = true <-> same x y.
Proof.
  unfold deq. pose proof (compare_real _ _ _ _ H1 H2) as C.
  destruct (ieee_compare 52 11 d1 d2) as [[| |]|]; split; try easy; tauto.
Qed.
Lemma dle_iff : dle d1 d2 = true <-> less x y \/ same x y.
Proof.
  unfold dle. pose proof (compare_real _ _ _ _ H1 H2) as C.
  destruct (ieee_compare 52 11 d1 d2) as [[| |]|]; split; try easy; tauto.
Qed.
Lemma dge_iff : dge d1 d2 = true <-> less y x \/ same y x.
Proof.
  unfold dge. pose proof (compare_real _ _ _ _ H1 H2) as C.
  destruct (ieee_compare 52 11 d1 d2) as [[| |]|]; split; try easy; try tauto.
  - intros _. right. apply same_sym. tauto.
  - intros [L|L]; [tauto|]. apply same_sym in L. tauto.
  - intros [L|L]; [tauto|]. apply same_sym in L. tauto.
Qed.
End Compare.

(** Two patterns of the same number have the same order. *)
Lemma real_same d x y : real 52 11 d x -> same x y -> real 52 11 d y.
Proof.
  destruct x as [p|s|], y as [q|s'|]; cbn [real same]; intros H E; try tauto; [|congruence].
  destruct H as (v & Hv & Hq). exists v. split; [exact Hv|]. now rewrite Hq.
Qed.
Lemma real_unique d x y : real 52 11 d x -> real 52 11 d y -> x <> NotANumber -> same x y.
Proof.
  intros H1 H2 N. pose proof (compare_real _ _ _ _ H1 H2) as C.
  pose proof (compare_real _ _ _ _ H1 H1) as C0. pose proof (same_refl x N).
  destruct (ieee_compare 52 11 d d) as [[| |]|]; tauto.
Qed.

Lemma real_int z : Z.abs z <= 2^53 -> real 52 11 (double_of_int z) (Fin (inject_Z z)).
Proof. intros H. destruct (double_of_int_exact z H) as (q & Hq & E). exists q. now split. Qed.
Lemma real_zero : real 52 11 0 (Fin 0).
Proof. exact (real_int 0 ltac:(lia)). Qed.

(** An integer of at most 53 bits is its own rounding. *)
Lemma rounds_int s z q d : (q == inject_Z z)%Q -> Z.abs z <= 2^53 -> rounds 52 11 s q d -> real 52 11 d (Fin (inject_Z z)).
Proof.
  intros E Hz (_ & _ & H1 & _).
  assert (L : (Qabs q < overflow_limit 52 11)%Q).
  { rewrite E. apply wide_limit. assert (2^53 < 2^1023) by (apply Z.pow_lt_mono_r; lia). lia. }
  destruct (H1 L) as (v & Hv & N). exists v. split; [exact Hv|].
  destruct (double_of_int_exact z Hz) as (w & Hw & Ew).
  destruct (N _ _ Hw) as (N1 & _).
  assert (W : (Qabs (w - q) == 0)%Q).
  { rewrite Ew, E. setoid_replace (inject_Z z - inject_Z z)%Q with 0%Q by ring. reflexivity. }
  rewrite W in N1.
  assert (V : (v - q == 0)%Q) by (revert N1; apply Qabs_case; intros; lra).
  rewrite <- E. lra.
Qed.

(** The greatest finite doubles. *)
Definition huge : Q := (inject_Z (2^53 - 1) * (2#1)^971)%Q.
Lemma real_max : real 52 11 dbl_max (Fin huge).
Proof. eexists. split; [vm_compute; reflexivity|]. vm_compute. reflexivity. Qed.
Lemma real_min : real 52 11 neg_dbl_max (Fin (- huge)).
Proof. eexists. split; [vm_compute; reflexivity|]. vm_compute. reflexivity. Qed.
Lemma finite_bound d q : real 52 11 d (Fin q) -> (- huge <= q <= huge)%Q.
Proof.
  intros H. destruct (fin_fields d q H) as (_ & s & m & e & Hd & Hm & Hq).
  destruct (decode_bounds 52 11 d s m e double_fmt Hd) as (B1 & B2 & B3).
  assert (P : (0 < pow2Q e)%Q) by apply pow2Q_pos.
  assert (B : (inject_Z m * pow2Q e <= huge)%Q).
  { change huge with (inject_Z (2^53 - 1) * pow2Q 971)%Q. rewrite (unscale (2^53 - 1) 971 e) by lia.
    apply Qmult_le_compat_r; [|lra]. rewrite <- Zle_Qle.
    pose proof (Z.pow_pos_nonneg 2 (971 - e) ltac:(lia) ltac:(lia)).
    change (2^(52 + 1)) with (2^53) in B1. nia. }
  assert (B0 : (0 <= inject_Z m * pow2Q e)%Q).
  { apply Qmult_le_0_compat; [|lra]. change 0%Q with (inject_Z 0). now rewrite <- Zle_Qle. }
  generalize dependent huge. intros h B. rewrite Hq. destruct s; cbn [FArithModel.signed_of].
  - rewrite inject_Z_opp. lra.
  - lra.
Qed.

(** * Sums and products *)

Section Gather.
Context (E : env) (op : Z -> Z -> Z) (R : ext -> ext -> Z -> Prop)
  (Hop : forall d1 d2 x y, real 52 11 d1 x -> real 52 11 d2 y -> R x y (op d1 d2))
  (HR : forall x y d, R x y d -> exists z, real 52 11 d z).
Lemma gather_ok l xs : Forall2 number l xs -> forall d x, real 52 11 d x ->
  exists d' x', gather E op l d = Ok d' /\ accumulated R d xs d' /\ real 52 11 d' x'.
Proof.
  induction 1 as [|a y l xs Ha _ IH]; intros d x Hd.
  - exists d, x. split; [reflexivity|]. split; [constructor|exact Hd].
  - destruct (number_double_of (e_double E) a y Ha) as (e & He & Hre & _).
    pose proof (Hop _ _ _ _ Hd Hre) as Ho. destruct (HR _ _ _ Ho) as (z & Hz).
    destruct (IH _ _ Hz) as (d' & x' & G & T & Hr). exists d', x'. split; [|split; [|exact Hr]].
    + cbn [gather]. rewrite He. cbn [bind]. exact G.
    + exact (accumulated_cons R d x y xs _ d' Hd Ho T).
Qed.
End Gather.

(** Exact results. *)
Section GatherInt.
Context (E : env) (op : Z -> Z -> Z) (zop : Z -> Z -> Z)
  (Hop : forall d1 d2 z1 z2, real 52 11 d1 (Fin (inject_Z z1)) -> real 52 11 d2 (Fin (inject_Z z2)) ->
     Z.abs (zop z1 z2) <= 2^53 -> real 52 11 (op d1 d2) (Fin (inject_Z (zop z1 z2)))).
Lemma gather_int l zs : Forall2 (fun a z => exists b t, operand b t z a /\ Z.abs z <= 2^53) l zs ->
  forall z d, exact zop z zs -> real 52 11 d (Fin (inject_Z z)) ->
  exists d', gather E op l d = Ok d' /\ real 52 11 d' (Fin (inject_Z (fold_left zop zs z))).
Proof.
  induction 1 as [|a y l zs (b & t & Ho & Hy) _ IH]; intros z d X Hd.
  - exists d. split; [reflexivity|exact Hd].
  - inversion X as [|? ? ? Hz X']; subst.
    destruct (number_double_of (e_double E) a _ (number_int b t y a Ho Hy)) as (e & He & Hre & _).
    assert (Hb : Z.abs (zop z y) <= 2^53) by (inversion X'; assumption).
    destruct (IH (zop z y) (op d e) X' (Hop _ _ _ _ Hd Hre Hb)) as (d' & G & Hr).
    exists d'. split; [|exact Hr]. cbn [gather]. rewrite He. cbn [bind]. exact G.
Qed.
End GatherInt.

Lemma trunc_int d z : real 52 11 d (Fin (inject_Z z)) -> trunc64 d = Some z.
Proof.
  intros (v & Hv & Hq). pose proof (ieee_trunc_ok 52 11 d ltac:(lia) ltac:(lia)) as T. rewrite Hv in T.
  destruct T as (z' & Hz & T). unfold trunc64. rewrite Hz. f_equal.
  apply (truncates_unique v); [exact T|]. split; rewrite Hq; intros _; rewrite ?Zle_Qle, <- ?Zle_Qle, <- ?Zlt_Qlt; lia.
Qed.
Lemma dle_int d1 d2 z1 z2 : real 52 11 d1 (Fin (inject_Z z1)) -> real 52 11 d2 (Fin (inject_Z z2)) ->
  dle d1 d2 = (z1 <=? z2).
Proof.
  intros H1 H2. apply eq_true_iff_eq. rewrite (dle_iff _ _ _ _ H1 H2), Z.leb_le. cbn [less same].
  rewrite <- Zlt_Qlt, inject_Z_injective. lia.
Qed.

Lemma real_2_63 : real 52 11 (double_of_int 9223372036854775807) (Fin (inject_Z (2^63))).
Proof. eexists. split; [vm_compute; reflexivity|]. vm_compute. reflexivity. Qed.
(** The result for an integer. *)
Lemma smallest_int r d z : real 52 11 d (Fin (inject_Z z)) -> Z.abs z <= 2^53 -> - 2^31 <= z ->
  set_smallest r d = Ok (set_u (smallest_type z) r z).
Proof.
  intros H Hz Hl. unfold set_smallest.
  rewrite (dle_int _ _ _ _ H (real_int 2147483647 ltac:(lia))), (dle_int _ _ _ _ H (real_int 4294967295 ltac:(lia))).
  rewrite (dle_int _ _ _ _ H real_2_63), !(trunc_int d z H). unfold smallest_type, to_range.
  destruct (Z.leb_spec z 2147483647).
  - rewrite (proj2 (Z.ltb_lt z (2^31))) by lia.
    rewrite (proj2 (Z.leb_le (- 2^31) z)), (proj2 (Z.leb_le z (2^31 - 1))) by lia. reflexivity.
  - rewrite (proj2 (Z.ltb_ge z (2^31))) by lia. destruct (Z.leb_spec z 4294967295).
    + rewrite (proj2 (Z.ltb_lt z (2^32))) by lia.
      rewrite (proj2 (Z.leb_le 0 z)), (proj2 (Z.leb_le z (2^32 - 1))) by lia. reflexivity.
    + rewrite (proj2 (Z.ltb_ge z (2^32))) by lia. rewrite (proj2 (Z.leb_le z (2^63))) by lia.
      rewrite (proj2 (Z.leb_le (- 2^63) z)), (proj2 (Z.leb_le z (2^63 - 1))) by lia. reflexivity.
Qed.
Lemma smallest_low r d z : real 52 11 d (Fin (inject_Z z)) -> z < - 2^31 -> set_smallest r d = Ub Overflow.
Proof.
  intros H Hl. unfold set_smallest. rewrite (dle_int _ _ _ _ H (real_int 2147483647 ltac:(lia))).
  rewrite (proj2 (Z.leb_le z 2147483647)) by lia. rewrite (trunc_int d z H). unfold to_range.
  rewrite (proj2 (Z.leb_gt (- 2^31) z)) by lia. reflexivity.
Qed.

Lemma aalloc_1 : aalloc 1 = Ok (Some [atom_fresh]).
Proof. reflexivity. Qed.
Lemma aput_1 x f : aput (Some [x]) 0 f = do y <- f x; Ok (Some [y]).
Proof. exact (aput_at [] x [] f). Qed.

(** * Extremes *)

Fixpoint pickm (better : Z -> Z -> bool) (l : list (Z * atom)) (m : Z) (best : option atom) : Z * option atom :=
  match l with
  | [] => (m, best)
  | (f, a) :: l' => if better f m then pickm better l' f (Some a) else pickm better l' m best
  end.

(** The members with their doubles and numbers. *)
Definition valued (E : env) (q : list (Z * atom)) (p : list (atom * ext)) : Prop :=
  Forall2 (fun '(d, a) '(b, x) => a = b /\ au_double (e_double E) a = Ok d /\ real 52 11 d x) q p.
Lemma valued_of E p : Forall (fun '(a, x) => number a x) p -> exists q, valued E q p.
Proof.
  induction 1 as [|[a x] p Ha _ (q & IH)]; [exists []; constructor|].
  destruct (number_double_of (e_double E) a x Ha) as (d & Hd & Hr & _).
  exists ((d, a) :: q). constructor; [|exact IH]. now split.
Qed.
Lemma pick_pickm E better q p : valued E q p -> forall m best,
  pick E better (map fst p) m best = Ok (snd (pickm better q m best)).
Proof.
  induction 1 as [|[d a] [b x] q p (-> & Hd & _) _ IH]; intros m best; [reflexivity|].
  cbn [map fst pick pickm]. rewrite Hd. cbn [bind]. destruct (better d m); apply IH.
Qed.
Lemma pick2_pickm E q p : valued E q p -> forall m am n an,
  pick2 E (map fst p) (m, am, n, an) =
  Ok (fst (pickm dle q m am), snd (pickm dle q m am), fst (pickm dge q n an), snd (pickm dge q n an)).
Proof.
  induction 1 as [|[d a] [b x] q p (-> & Hd & _) _ IH]; intros m am n an; [reflexivity|].
  cbn [map fst pick2 pickm]. rewrite Hd. cbn [bind]. destruct (dle d m), (dge d n); apply IH.
Qed.

Section Pick.
Context (E : env) (better : Z -> Z -> bool) (B : ext -> ext -> Prop)
  (HB : forall d1 d2 x y, real 52 11 d1 x -> real 52 11 d2 y -> (better d1 d2 = true <-> B x y \/ same x y))
  (Btrans : forall x y z, B x y -> B y z -> B x z)
  (Birr : forall x, ~ B x x)
  (Bsame : forall x y z, B x y -> same y z -> B x z)
  (Bsame' : forall x y z, same x y -> B y z -> B x z)
  (Bnan : forall x y, B x y -> x <> NotANumber).
Lemma weak_nan x y : B x y \/ same x y -> x <> NotANumber.
Proof. intros [H|H]; [exact (Bnan _ _ H)|]. destruct x; [discriminate..|destruct y; contradiction]. Qed.
Lemma same_trans x y z : same x y -> same y z -> same x z.
Proof. destruct x, y, z; cbn; intros; try tauto; try congruence. lra. Qed.
Lemma weak_trans x y z : B x y \/ same x y -> B y z \/ same y z -> B x z \/ same x z.
Proof.
  intros [H1|H1] [H2|H2]; [left; exact (Btrans _ _ _ H1 H2)|left; exact (Bsame _ _ _ H1 H2)|
    left; exact (Bsame' _ _ _ H1 H2)|right; exact (same_trans _ _ _ H1 H2)].
Qed.
Lemma weak_not x y : B x y \/ same x y -> ~ B y x.
Proof.
  intros [H|H] U; [exact (Birr _ (Btrans _ _ _ U H))|exact (Birr _ (Bsame _ _ _ U H))].
Qed.
Lemma pickm_ok q p : valued E q p -> forall m xm best, real 52 11 m xm ->
  (pickm better q m best = (m, best) /\ forall b y, In (b, y) p -> ~ (B y xm \/ same y xm)) \/
  exists a x m', pickm better q m best = (m', Some a) /\ real 52 11 m' x /\ (B x xm \/ same x xm) /\ extreme B p a x.
Proof.
  induction 1 as [|[d a] [b x] q p (-> & Hd & Hr) _ IH]; intros m xm best Hm.
  - left. split; [reflexivity|]. intros b y [].
  - cbn [pickm]. pose proof (HB _ _ _ _ Hr Hm) as T. destruct (better d m) eqn:Eb.
    + right. pose proof (proj1 T eq_refl) as Bx.
      destruct (IH d x (Some b) Hr) as [[G Hall]|(a & x' & m' & G & Hr' & Hx & p1 & p2 & -> & N & A1 & A2)].
      * exists b, x, d. split; [exact G|]. split; [exact Hr|]. split; [exact Bx|]. exists [], p.
        split; [reflexivity|]. split; [exact (weak_nan _ _ Bx)|]. split; [now intros ? ? []|].
        intros c y Hc. specialize (Hall c y Hc). tauto.
      * exists a, x', m'. split; [exact G|]. split; [exact Hr'|]. split; [exact (weak_trans _ _ _ Hx Bx)|].
        exists ((b, x) :: p1), p2. split; [reflexivity|]. split; [exact N|]. split; [|exact A2].
        intros c y [Hc|Hc]; [|exact (A1 c y Hc)]. injection Hc as <- <-. exact (weak_not _ _ Hx).
    + assert (Nx : ~ (B x xm \/ same x xm)) by (intros U; apply T in U; discriminate).
      destruct (IH m xm best Hm) as [[G Hall]|(a & x' & m' & G & Hr' & Hx & p1 & p2 & -> & N & A1 & A2)].
      * left. split; [exact G|]. intros c y [Hc|Hc]; [|exact (Hall c y Hc)]. injection Hc as <- <-. exact Nx.
      * right. exists a, x', m'. split; [exact G|]. split; [exact Hr'|]. split; [exact Hx|].
        exists ((b, x) :: p1), p2. split; [reflexivity|]. split; [exact N|]. split; [|exact A2].
        intros c y [Hc|Hc]; [|exact (A1 c y Hc)]. injection Hc as <- <-. intros U. apply Nx.
        exact (weak_trans _ _ _ (or_introl U) Hx).
Qed.
End Pick.

Lemma less_nan x y : less x y -> x <> NotANumber.
Proof. intros H ->. destruct y; exact H. Qed.
Lemma greater_nan x y : greater x y -> x <> NotANumber.
Proof. intros H ->. destruct y; exact H. Qed.

Definition pick_min E q p := pickm_ok E dle less dle_iff less_trans less_irrefl less_same same_less less_nan q p.
Lemma dge_greater d1 d2 x y : real 52 11 d1 x -> real 52 11 d2 y -> (dge d1 d2 = true <-> greater x y \/ same x y).
Proof.
  intros H1 H2. rewrite (dge_iff _ _ _ _ H1 H2). unfold greater. split; (intros [H|H]; [now left|right; now apply same_sym]).
Qed.
Lemma greater_same x y z : greater x y -> same y z -> greater x z.
Proof. unfold greater. intros H1 H2. exact (same_less _ _ _ (same_sym _ _ H2) H1). Qed.
Lemma same_greater x y z : same x y -> greater y z -> greater x z.
Proof. unfold greater. intros H1 H2. exact (less_same _ _ _ H2 (same_sym _ _ H1)). Qed.
Lemma greater_trans x y z : greater x y -> greater y z -> greater x z.
Proof. unfold greater. intros H1 H2. exact (less_trans _ _ _ H2 H1). Qed.
Definition pick_max E q p :=
  pickm_ok E dge greater dge_greater greater_trans less_irrefl greater_same same_greater greater_nan q p.

(** Every number but the infinite one at the other end is reached from the
    starting value. *)
Lemma below_max a x : number a x -> x <> NotANumber -> x <> Infinite false -> less x (Fin huge) \/ same x (Fin huge).
Proof.
  intros Ha N I. destruct (number_double_of (fun _ => 0) a x Ha) as (d & _ & Hr & _).
  destruct x as [q|[]|]; cbn [less same]; try tauto; try congruence.
  destruct (finite_bound d q Hr) as (_ & L). generalize dependent huge. intros h L. apply Qle_lteq in L. exact L.
Qed.
Lemma above_min a x : number a x -> x <> NotANumber -> x <> Infinite true -> greater x (Fin (- huge)) \/ same x (Fin (- huge)).
Proof.
  intros Ha N I. destruct (number_double_of (fun _ => 0) a x Ha) as (d & _ & Hr & _). unfold greater.
  destruct x as [q|[]|]; cbn [less same]; try tauto; try congruence.
  destruct (finite_bound d q Hr) as (L & _). generalize dependent huge. intros h L. apply Qle_lteq in L.
  destruct L as [L|L]; [now left|right]. now symmetry.
Qed.

(** Atoms with a number are copied as they are. *)
Lemma copy_number a x : number a x -> copy_atom a = Ok a.
Proof.
  intros Ha. assert (T : (a_tt a =? 115) = false /\ (a_tt a =? 46) = false /\ (a_tt a =? 98) = false).
  { destruct (number_double_of (fun _ => 0) a x Ha) as (_ & _ & _ & N & _). revert N. unfold is_numeric, is_float.
    destruct (Z.eqb_spec (a_tt a) 115) as [->|]; [discriminate|].
    destruct (Z.eqb_spec (a_tt a) 46) as [->|]; [discriminate|].
    destruct (Z.eqb_spec (a_tt a) 98) as [->|]; [discriminate|]. auto. }
  destruct a as [tg w p]. cbn [a_tt] in T. destruct T as (T1 & T2 & T3). unfold copy_atom. now rewrite T1, T2, T3.
Qed.

(** * Member by member *)

Lemma each_ok f l ys : Forall2 (fun a y => f a atom_fresh = Ok y) l ys -> forall done i, i = zlen done ->
  each f l i (Some (done ++ repeat atom_fresh (length l))) = Ok (Some (done ++ ys)).
Proof.
  induction 1 as [|a y l ys Hy _ IH]; intros done i ->; [cbn [each length repeat]; reflexivity|].
  cbn [each length repeat]. rewrite (aput_at done atom_fresh (repeat atom_fresh (length l)) (f a)), Hy. cbn [bind].
  replace (done ++ y :: repeat atom_fresh (length l)) with ((done ++ [y]) ++ repeat atom_fresh (length l))
    by (rewrite <- app_assoc; reflexivity).
  rewrite (IH (done ++ [y])); [now rewrite <- app_assoc|]. rewrite zlen_app, zlen_cons. change (zlen (@nil atom)) with 0. lia.
Qed.

(** * Sorting *)

Lemma pairs_perm {A} (D : A -> A -> Prop) (Dsym : forall x y, D x y -> D y x) l l' :
  Permutation l l' -> ForallOrdPairs D l -> ForallOrdPairs D l'.
Proof.
  induction 1 as [|x l l' P IH|x y l|l1 l2 l3 _ IH1 _ IH2]; intros H; auto.
  - inversion H as [|? ? Hx Hl]; subst. constructor; [|auto]. exact (Permutation_Forall P Hx).
  - inversion H as [|? ? Hy Hl]; subst. inversion Hl as [|? ? Hx Hl']; subst. inversion Hy as [|? ? Hyx Hyl]; subst.
    constructor; [constructor; auto|constructor; assumption].
Qed.

Section SortWith.
Context (A V : Set) (cmp : A -> A -> Z) (K : A -> V -> Prop) (D O : V -> V -> Prop)
  (Dsym : forall v w, D v w -> D w v)
  (Hcmp : forall x y v w, K x v -> K y w -> D v w -> (cmp x y <= 0 <-> O v w) /\ Z.sgn (cmp x y) = - Z.sgn (cmp y x))
  (Otrans : forall x y z v w u, K x v -> K y w -> K z u -> O v w -> O w u -> O v u).
Definition keyed_pair (t : A * V) : Prop := K (fst t) (snd t).
Lemma sort_with_consistent T : Forall keyed_pair T -> ForallOrdPairs D (map snd T) -> consistent cmp (map fst T).
Proof.
  intros HK HD.
  assert (Lift : forall l, Permutation (map fst T) l -> exists T', l = map fst T' /\ Forall keyed_pair T' /\ ForallOrdPairs D (map snd T')).
  { intros l P. destruct (Permutation_map_inv _ _ (Permutation_sym P)) as (T' & E & P'). exists T'. split; [exact E|]. split.
    - exact (Permutation_Forall P' HK).
    - exact (pairs_perm D Dsym _ _ (Permutation_map snd P') HD). }
  split.
  - intros x y r P. destruct (Lift _ P) as ([|[x' v] [|[y' w] T']] & E & HK' & HD'); try discriminate.
    cbn [map fst] in E. injection E as <- <- _. inversion HK' as [|? ? Kx HK'']; subst. inversion HK'' as [|? ? Ky _]; subst.
    cbn [map snd] in HD'. inversion HD' as [|? ? Dx _]; subst. apply Forall_inv in Dx.
    exact (proj2 (Hcmp x y v w Kx Ky Dx)).
  - intros x y z r P H1 H2. destruct (Lift _ P) as ([|[x' v] [|[y' w] [|[z' u] T']]] & E & HK' & HD'); try discriminate.
    cbn [map fst] in E. injection E as <- <- <- _. inversion HK' as [|? ? Kx HK'']; subst. inversion HK'' as [|? ? Ky HK3]; subst.
    apply Forall_inv in HK3. rename HK3 into Kz.
    cbn [map snd] in HD'. inversion HD' as [|? ? Dx HD'']; subst. inversion HD'' as [|? ? Dy _]; subst.
    inversion Dx as [|? ? Dxy Dx']; subst. apply Forall_inv in Dx'. apply Forall_inv in Dy.
    apply (proj1 (Hcmp x z v u Kx Kz Dx')).
    apply (Otrans x y z v w u Kx Ky Kz).
    + exact (proj1 (proj1 (Hcmp x y v w Kx Ky Dxy)) H1).
    + exact (proj1 (proj1 (Hcmp y z w u Ky Kz Dy)) H2).
Qed.
Lemma sort_with qs T : qsort_ok qs -> Forall keyed_pair T -> ForallOrdPairs D (map snd T) ->
  exists T', Permutation T T' /\ map fst T' = qs A cmp (map fst T) /\ StronglySorted O (map snd T').
Proof.
  intros Hq HK HD. destruct (Hq A cmp (map fst T) (sort_with_consistent T HK HD)) as (P & S').
  destruct (Permutation_map_inv _ _ (Permutation_sym P)) as (T' & E & P').
  exists T'. split; [exact P'|]. split; [now symmetry|].
  rewrite E in S'. pose proof (Permutation_Forall P' HK) as HK'.
  pose proof (pairs_perm D Dsym _ _ (Permutation_map snd P') HD) as HD'.
  clear - S' HK' HD' Hcmp. induction T' as [|[x v] T' IH]; [constructor|].
  cbn [map fst snd] in *. inversion S' as [|? ? S1 S2]; subst. inversion HK' as [|? ? Kx HK2]; subst.
  inversion HD' as [|? ? Dx HD2]; subst. constructor; [now apply IH|].
  clear - S2 Kx HK2 Dx Hcmp. induction T' as [|[y w] T' IH]; [constructor|].
  cbn [map fst snd] in *. inversion S2; subst. inversion HK2 as [|? ? Ky ?]; subst. inversion Dx; subst.
  constructor; [|now apply IH]. now apply (Hcmp x y v w Kx Ky).
Qed.
End SortWith.

(** The order of strings. *)
Lemma precedes_iff c1 s1 c2 s2 : precedes (c1 :: s1) (c2 :: s2) <-> c1 < c2 \/ c1 = c2 /\ precedes s1 s2.
Proof.
  split.
  - intros ([|c p] & r1 & r2 & E1 & E2 & H).
    + cbn [app] in E1, E2. subst. now left.
    + cbn [app] in E1, E2. injection E1 as -> E1. injection E2 as -> E2. right. split; [reflexivity|].
      now exists p, r1, r2.
  - intros [H|[-> (p & r1 & r2 & E1 & E2 & H)]].
    + exists [], (c1 :: s1), (c2 :: s2). auto.
    + exists (c2 :: p), r1, r2. subst. auto.
Qed.
Lemma precedes_nil s : ~ precedes s [].
Proof.
  intros (p & r1 & r2 & E1 & E2 & H). destruct p; [|discriminate]. cbn [app] in E2. subst. destruct r1; exact H.
Qed.
Lemma nil_precedes c s : precedes [] (c :: s).
Proof. exists [], [], (c :: s). auto. Qed.
Lemma precedes_trans s1 : forall s2 s3, precedes s1 s2 -> precedes s2 s3 -> precedes s1 s3.
Proof.
  induction s1 as [|c1 s1 IH]; intros [|c2 s2] [|c3 s3] H1 H2;
    try (now apply precedes_nil in H1); try (now apply precedes_nil in H2); try apply nil_precedes.
  apply precedes_iff in H1. apply precedes_iff in H2. apply precedes_iff.
  destruct H1 as [H1|[-> H1]], H2 as [H2|[-> H2]]; [left; lia|now left|now left|].
  right. split; [reflexivity|exact (IH _ _ H1 H2)].
Qed.

(** Keys and what they stand for. *)
Definition keyed (k : key) (v : sval) : Prop :=
  match k, v with
  | KStr s, SStr t => s = t /\ characters s
  | KNum d, SNum x => real 52 11 d x /\ x <> NotANumber
  | _, _ => False
  end.
Lemma sortable_ok E a v : sortable a v -> copy_into atom_fresh (Some a) = Ok a /\ exists k, key_of E a = Ok k /\ keyed k v.
Proof.
  intros [a' x Ha N|w s Hs].
  - split; [exact (copy_number _ _ Ha)|]. destruct (number_double_of (e_double E) a' x Ha) as (d & Hd & Hr & _ & T).
    exists (KNum d). unfold key_of. rewrite T, Hd. split; [reflexivity|]. now split.
  - split; [reflexivity|]. exists (KStr s). split; [reflexivity|]. now split.
Qed.
Lemma in_order_trans k1 k2 k3 v w u : keyed k1 v -> keyed k2 w -> keyed k3 u -> in_order v w -> in_order w u -> in_order v u.
Proof.
  intros K1 K2 K3. destruct v as [x|s], w as [y|t], u as [z|r]; cbn [in_order]; try tauto.
  - destruct k2 as [|d2]; [destruct K2|]. destruct K2 as (_ & N). exact (not_less_trans x y z N).
  - intros [->|H1] [->|H2]; auto. right. exact (precedes_trans _ _ _ H1 H2).
Qed.
Lemma strcmp_int_ok s t : characters s -> characters t ->
  (strcmp_int s t <= 0 <-> s = t \/ precedes s t) /\ Z.sgn (strcmp_int s t) = - Z.sgn (strcmp_int t s).
Proof.
  intros Hs Ht. unfold strcmp_int. pose proof (strcmp_spec s t Hs Ht) as H1. pose proof (strcmp_spec t s Ht Hs) as H2.
  destruct (strcmp s t), (strcmp t s); subst; try tauto; try (now apply precedes_irrefl in H1); try (now apply precedes_irrefl in H2);
    try (now apply precedes_asym in H1).
  - split; [|reflexivity]. split; [now left|lia].
  - split; [|reflexivity]. split; [now right|lia].
  - split; [|reflexivity]. split; [lia|]. intros [->|H]; [now apply precedes_irrefl in H1|now apply precedes_asym in H1].
Qed.
Lemma index_cb_ok k1 k2 v w : keyed k1 v -> keyed k2 w -> True ->
  (qsort_index_cb k1 k2 <= 0 <-> in_order v w) /\ Z.sgn (qsort_index_cb k1 k2) = - Z.sgn (qsort_index_cb k2 k1).
Proof.
  intros K1 K2 _. destruct k1 as [s|d1], v as [x|s']; try contradiction; destruct k2 as [t|d2], w as [y|t']; try contradiction;
    cbn [qsort_index_cb in_order].
  - destruct K1 as (<- & K1), K2 as (<- & K2). now apply strcmp_int_ok.
  - split; [lia|reflexivity].
  - split; [|reflexivity]. split; [trivial|lia].
  - destruct K1 as (R1 & N1), K2 as (R2 & N2).
    pose proof (dlt_iff _ _ _ _ R1 R2) as A1. pose proof (dgt_iff _ _ _ _ R1 R2) as A2.
    pose proof (dlt_iff _ _ _ _ R2 R1) as A3. pose proof (dgt_iff _ _ _ _ R2 R1) as A4.
    pose proof (fun H1 H2 => less_irrefl x (less_trans x y x H1 H2)) as T.
    destruct (dlt d1 d2), (dgt d1 d2), (dlt d2 d1), (dgt d2 d1); intuition (try congruence); lia.
Qed.
Lemma cb_ok k1 k2 v w : keyed k1 v -> keyed k2 w -> different v w ->
  (qsortcb k1 k2 <= 0 <-> in_order v w) /\ Z.sgn (qsortcb k1 k2) = - Z.sgn (qsortcb k2 k1).
Proof.
  intros K1 K2 Hd. destruct k1 as [s|d1], v as [x|s']; try contradiction; destruct k2 as [t|d2], w as [y|t']; try contradiction;
    cbn [qsortcb in_order].
  - destruct K1 as (<- & K1), K2 as (<- & K2). now apply strcmp_int_ok.
  - split; [lia|reflexivity].
  - split; [|reflexivity]. split; [trivial|lia].
  - destruct K1 as (R1 & N1), K2 as (R2 & N2). cbn [different] in Hd.
    pose proof (dlt_iff _ _ _ _ R1 R2) as A1. pose proof (dlt_iff _ _ _ _ R2 R1) as A3.
    pose proof (fun H1 H2 => less_irrefl x (less_trans x y x H1 H2)) as T.
    pose proof (less_or x y N1 N2) as L.
    destruct (dlt d1 d2), (dlt d2 d1); intuition (try congruence); lia.
Qed.
Lemma comp_ok d1 d2 x y : real 52 11 d1 x /\ x <> NotANumber -> real 52 11 d2 y /\ y <> NotANumber -> True ->
  (comp d1 d2 <= 0 <-> ~ less y x) /\ Z.sgn (comp d1 d2) = - Z.sgn (comp d2 d1).
Proof.
  intros (R1 & N1) (R2 & N2) _. unfold comp.
  pose proof (dlt_iff _ _ _ _ R1 R2) as A1. pose proof (deq_iff _ _ _ _ R1 R2) as A2.
  pose proof (dlt_iff _ _ _ _ R2 R1) as A3. pose proof (deq_iff _ _ _ _ R2 R1) as A4.
  pose proof (fun H1 H2 => less_irrefl x (less_trans x y x H1 H2)) as T.
  pose proof (fun H1 H2 => less_irrefl x (less_same x y x H1 H2)) as T2.
  pose proof (fun H1 H2 => less_irrefl y (less_same y x y H1 H2)) as T3.
  pose proof (less_or x y N1 N2) as L. pose proof (same_sym x y) as Y1. pose proof (same_sym y x) as Y2.
  destruct (dlt d1 d2), (deq d1 d2), (dlt d2 d1), (deq d2 d1); intuition (try congruence); lia.
Qed.

(** Insertion sort is a qsort. *)
Section Insertion.
Context (A : Set) (cmp : A -> A -> Z).
Fixpoint ins (x : A) (l : list A) : list A :=
  match l with [] => [x] | y :: l' => if cmp x y <=? 0 then x :: l else y :: ins x l' end.
Fixpoint isort (l : list A) : list A := match l with [] => [] | x :: l' => ins x (isort l') end.
Lemma ins_perm x l : Permutation (x :: l) (ins x l).
Proof.
  induction l as [|y l IH]; [reflexivity|]. cbn [ins]. destruct (cmp x y <=? 0); [reflexivity|].
  rewrite perm_swap. now constructor.
Qed.
Lemma isort_perm l : Permutation l (isort l).
Proof. induction l as [|x l IH]; [reflexivity|]. cbn [isort]. rewrite <- ins_perm. now constructor. Qed.
Lemma consistent_perm (l l' : list A) : Permutation l l' -> consistent cmp l -> consistent cmp l'.
Proof.
  intros P (C1 & C2). split.
  - intros x y r P'. exact (C1 x y r (Permutation_trans P P')).
  - intros x y z r P'. exact (C2 x y z r (Permutation_trans P P')).
Qed.
Lemma consistent_tl x (l : list A) : consistent cmp (x :: l) -> consistent cmp l.
Proof.
  intros (C1 & C2). split.
  - intros y z r P. apply (C1 y z (x :: r)). rewrite P. rewrite (perm_swap y x). constructor. apply perm_swap.
  - intros y z u r P. apply (C2 y z u (x :: r)). rewrite P. rewrite (perm_swap y x). constructor.
    rewrite (perm_swap z x). constructor. apply perm_swap.
Qed.
Lemma ins_sorted x l : consistent cmp (x :: l) -> StronglySorted (fun x y => cmp x y <= 0) l ->
  StronglySorted (fun x y => cmp x y <= 0) (ins x l).
Proof.
  induction l as [|y l IH]; intros C HS; [repeat constructor|].
  inversion HS as [|? ? H1 H2]; subst. cbn [ins]. destruct (Z.leb_spec (cmp x y) 0) as [L|L].
  - constructor; [exact HS|]. constructor; [exact L|]. rewrite Forall_forall in *. intros z Hz.
    destruct (in_split _ _ Hz) as (l1 & l2 & ->).
    apply (proj2 C x y z (l1 ++ l2)); [|exact L|exact (H2 z Hz)].
    do 2 constructor. symmetry. apply Permutation_middle.
  - assert (Cy : consistent cmp (x :: l)).
    { apply (consistent_tl y). apply (consistent_perm (x :: y :: l)); [apply perm_swap|exact C]. }
    constructor; [exact (IH Cy H1)|]. apply (Permutation_Forall (ins_perm x l)). constructor; [|exact H2].
    pose proof (proj1 C x y l (Permutation_refl _)) as Sg. lia.
Qed.
Lemma isort_sorted l : consistent cmp l -> StronglySorted (fun x y => cmp x y <= 0) (isort l).
Proof.
  induction l as [|x l IH]; intros C; [constructor|]. cbn [isort]. apply ins_sorted; [|apply IH; exact (consistent_tl _ _ C)].
  apply (consistent_perm (x :: l)); [|exact C]. constructor. apply isort_perm.
Qed.
End Insertion.
Lemma isort_ok : qsort_ok isort.
Proof. intros A cmp l C. split; [apply isort_perm|now apply isort_sorted]. Qed.

(** Storing any finite number. *)
Lemma real_2_64 : real 52 11 (double_of_int 18446744073709551615) (Fin (inject_Z (2^64))).
Proof. eexists. split; [vm_compute; reflexivity|]. vm_compute. reflexivity. Qed.
Lemma dle_bound d q b z : real 52 11 d (Fin q) -> real 52 11 b (Fin (inject_Z z)) ->
  (dle d b = true <-> (q <= inject_Z z)%Q).
Proof.
  intros H1 H2. rewrite (dle_iff _ _ _ _ H1 H2). cbn [less same]. rewrite Qle_lteq. reflexivity.
Qed.
Lemma real_trunc d q : real 52 11 d (Fin q) -> exists z, trunc64 d = Some z /\ truncates_to q z.
Proof.
  intros (v & Hv & Hq). pose proof (ieee_trunc_ok 52 11 d ltac:(lia) ltac:(lia)) as T. rewrite Hv in T.
  destruct T as (z & Hz & T). exists z. split; [exact Hz|]. unfold truncates_to in *. rewrite <- Hq. exact T.
Qed.
(** Bounds of the integer part. *)
Lemma trunc_lt q z b : truncates_to q z -> 0 <= b -> (q < inject_Z b)%Q -> z < b \/ z <= 0.
Proof.
  intros (T1 & T2) Hb H. destruct (Qlt_le_dec q 0) as [L|L].
  - right. destruct (T2 (Qlt_le_weak _ _ L)) as (T & _). assert (U : (inject_Z (z - 1) < inject_Z 0)%Q) by (change (inject_Z 0) with 0%Q; lra).
    rewrite <- Zlt_Qlt in U. lia.
  - left. destruct (T1 L) as (T & _). assert (U : (inject_Z z < inject_Z b)%Q) by lra. now rewrite <- Zlt_Qlt in U.
Qed.
Lemma trunc_le q z b : truncates_to q z -> (q <= inject_Z b)%Q -> 0 <= b -> z <= b.
Proof.
  intros (T1 & T2) H Hb. destruct (Qlt_le_dec q 0) as [L|L].
  - destruct (T2 (Qlt_le_weak _ _ L)) as (T & _). assert (U : (inject_Z (z - 1) < inject_Z 0)%Q) by (change (inject_Z 0) with 0%Q; lra).
    rewrite <- Zlt_Qlt in U. lia.
  - destruct (T1 L) as (T & _). assert (U : (inject_Z z <= inject_Z b)%Q) by lra. now rewrite <- Zle_Qle in U.
Qed.
Lemma trunc_ge q z b : truncates_to q z -> (inject_Z b < q)%Q -> 0 <= b -> b <= z.
Proof.
  intros (T1 & T2) H Hb. assert (L : (0 <= q)%Q).
  { assert (U : (inject_Z 0 <= inject_Z b)%Q) by (now rewrite <- Zle_Qle). change (inject_Z 0) with 0%Q in U. lra. }
  destruct (T1 L) as (_ & T). assert (U : (inject_Z b < inject_Z (z + 1))%Q) by lra. rewrite <- Zlt_Qlt in U. lia.
Qed.
Lemma trunc_neg q z b : truncates_to q z -> (inject_Z (b - 1) < q)%Q -> b <= 0 -> b <= z.
Proof.
  intros (T1 & T2) H Hb. destruct (Qlt_le_dec q 0) as [L|L].
  - destruct (T2 (Qlt_le_weak _ _ L)) as (_ & T). assert (U : (inject_Z (b - 1) < inject_Z z)%Q) by lra.
    rewrite <- Zlt_Qlt in U. lia.
  - destruct (T1 L) as (_ & T). assert (U : (inject_Z 0 < inject_Z (z + 1))%Q) by (change (inject_Z 0) with 0%Q; lra).
    rewrite <- Zlt_Qlt in U. lia.
Qed.
Lemma trunc_low q z b : truncates_to q z -> (q <= inject_Z (b - 1))%Q -> b <= 0 -> z < b.
Proof.
  intros (T1 & T2) H Hb. assert (L : (q <= 0)%Q).
  { assert (U : (inject_Z (b - 1) <= inject_Z 0)%Q) by (rewrite <- Zle_Qle; lia). change (inject_Z 0) with 0%Q in U. lra. }
  destruct (T2 L) as (T & _). assert (U : (inject_Z (z - 1) < inject_Z (b - 1))%Q) by lra. rewrite <- Zlt_Qlt in U. lia.
Qed.
Lemma in_range lo hi z : lo <= z <= hi -> to_range lo hi (Some z) = Ok z.
Proof. intros H. unfold to_range. rewrite (proj2 (Z.leb_le lo z)), (proj2 (Z.leb_le z hi)) by lia. reflexivity. Qed.
Lemma below_range lo hi z : z < lo -> to_range lo hi (Some z) = Ub Overflow.
Proof. intros H. unfold to_range. now rewrite (proj2 (Z.leb_gt lo z)) by lia. Qed.
Lemma above_range lo hi z : hi < z -> to_range lo hi (Some z) = Ub Overflow.
Proof. intros H. unfold to_range. rewrite (proj2 (Z.leb_gt z hi)) by lia. now rewrite andb_false_r. Qed.

Lemma set_smallest_ok r d q : real 52 11 d (Fin q) -> stored d q (set_smallest r d).
Proof.
  intros H. destruct (real_trunc d q H) as (z & Hz & T).
  pose proof (dle_bound d q _ _ H (real_int 2147483647 ltac:(lia))) as B1.
  pose proof (dle_bound d q _ _ H (real_int 4294967295 ltac:(lia))) as B2.
  pose proof (dle_bound d q _ _ H real_2_63) as B3. pose proof (dle_bound d q _ _ H real_2_64) as B4.
  change 2147483647 with (2^31 - 1) in B1. change 4294967295 with (2^32 - 1) in B2.
  assert (N1 : (inject_Z (- 2^31 - 1) < inject_Z (2^31 - 1))%Q) by (rewrite <- Zlt_Qlt; lia).
  assert (N2 : (inject_Z (2^31 - 1) < inject_Z (2^32 - 1))%Q) by (rewrite <- Zlt_Qlt; lia).
  assert (N3 : (inject_Z (2^32 - 1) < inject_Z (2^63))%Q) by (rewrite <- Zlt_Qlt; lia).
  assert (N4 : (inject_Z (2^63) < inject_Z (2^64))%Q) by (rewrite <- Zlt_Qlt; lia).
  assert (F : forall (b : bool) (P : Prop), (b = true <-> P) -> ~ P -> b = false) by (intros []; intuition).
  unfold set_smallest. rewrite Hz. change 2147483647 with (2^31 - 1). change 4294967295 with (2^32 - 1).
  change 9223372036854775807 with (2^63 - 1) in *. change 18446744073709551615 with (2^64 - 1) in *.
  unfold stored, whole.
  repeat match goal with |- _ /\ _ => split end.
  - intros L. rewrite (proj2 B1) by lra. rewrite (below_range (- 2^31)); [reflexivity|].
    apply (trunc_low q z (- 2^31) T); [exact L|lia].
  - intros (L1 & L2). rewrite (proj2 B1) by lra. exists z, r. split; [exact T|].
    rewrite in_range; [reflexivity|]. split; [exact (trunc_neg q z (- 2^31) T L1 ltac:(lia))|exact (trunc_le q z _ T L2 ltac:(lia))].
  - intros (L1 & L2). rewrite (F _ _ B1) by lra. rewrite (proj2 B2) by lra. exists z, r. split; [exact T|].
    pose proof (trunc_ge q z _ T L1 ltac:(lia)). pose proof (trunc_le q z _ T L2 ltac:(lia)).
    rewrite in_range by lia. reflexivity.
  - intros (L1 & L2). rewrite (F _ _ B1), (F _ _ B2) by lra. rewrite (proj2 B3) by lra. exists z, r. split; [exact T|].
    pose proof (trunc_ge q z _ T L1 ltac:(lia)). pose proof (fun Hb => trunc_lt q z _ T Hb L2) as U; specialize (U ltac:(lia)).
    rewrite in_range by lia. reflexivity.
  - intros L1. rewrite (F _ _ B1), (F _ _ B2) by lra. rewrite (proj2 B3) by lra.
    assert (z = 2^63); [|subst; reflexivity].
    apply (truncates_unique q); [exact T|]. split; rewrite L1; intros _; rewrite <- Zle_Qle, <- Zlt_Qlt; lia.
  - intros (L1 & L2). rewrite (F _ _ B1), (F _ _ B2), (F _ _ B3) by lra. rewrite (proj2 B4) by lra. exists z, r. split; [exact T|].
    pose proof (trunc_ge q z _ T L1 ltac:(lia)). pose proof (fun Hb => trunc_lt q z _ T Hb L2) as U; specialize (U ltac:(lia)).
    rewrite in_range by lia. reflexivity.
  - intros L1. rewrite (F _ _ B1), (F _ _ B2), (F _ _ B3) by lra. rewrite (proj2 B4) by lra.
    assert (z = 2^64); [|subst; reflexivity].
    apply (truncates_unique q); [exact T|]. split; rewrite L1; intros _; rewrite <- Zle_Qle, <- Zlt_Qlt; lia.
  - intros L1. rewrite (F _ _ B1), (F _ _ B2), (F _ _ B3), (F _ _ B4) by lra. exists r. reflexivity.
Qed.
