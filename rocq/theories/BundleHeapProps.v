(** C97: the memory of bundle objects.  The statements use BundleHeapSpec.v only. *)

From Coq Require Import String ZArith List Bool Lia.
From Verif Require Import Base BaseProofs Text SerialModel BundleSModel BundleSProofs BundleHeapModel BundleHeapSpec BundleHeapProofs.
Import ListNotations.
Open Scope Z_scope.

(** Freeing a bundle frees each of its blocks once, bundles within it included, and no other
    block; the same for a message and for an argument. *)
Theorem C97_free s ms b F : bundle_at (fst s) ms b F -> NoDup F ->
  exists N s', (forall fuel, (N <= fuel)%nat -> bundle_free fuel s b = Ok s') /\ snd s' = snd s /\
    (forall x, In x F -> fst s' x = None) /\ (forall x, ~ In x F -> fst s' x = fst s x).
Proof.
  intros C ND. destruct (bundle_free_ok ms (proj2 (Forall_forall _ _) (fun m _ => proj2 free_all m)) s b F C ND) as (N & s' & E & R). now exists N, s'.
Qed.
Print Assumptions C97_free.
Theorem C97_free_message s m l next F : msg_at (fst s) m l next F -> NoDup F ->
  exists N s', (forall fuel, (N <= fuel)%nat -> msg_free fuel s l = Ok s') /\ snd s' = snd s /\
    (forall x, In x F -> fst s' x = None) /\ (forall x, ~ In x F -> fst s' x = fst s x).
Proof. intros C ND. destruct (proj2 free_all m s l next F C ND) as (N & s' & E & R). now exists N, s'. Qed.
Print Assumptions C97_free_message.

(** Clearing a bundle frees all but the bundle itself, which is then empty. *)
Theorem C97_clear s ms b F : bundle_at (fst s) ms b F -> NoDup F ->
  exists N s', (forall fuel, (N <= fuel)%nat -> bundle_clear fuel s b = Ok s') /\ bundle_at (fst s') [] b [b] /\ fst s' b = Some (HBundle 0 0 0) /\
    (forall x, In x F -> x <> b -> fst s' x = None) /\ (forall x, ~ In x F -> fst s' x = fst s x).
Proof.
  intros (hd & tl & F' & B & -> & C) ND. inversion_clear ND as [|? ? Hb N3].
  destruct (msgs_free_ok ms (proj2 (Forall_forall _ _) (fun m _ => proj2 free_all m)) s hd F' C N3) as (N & s1 & E1 & R1 & R2 & R3).
  assert (B1 : block (fst s1) b (HBundle (zlen ms) hd tl)) by (destruct B as [B0 B]; split; [exact B0|]; rewrite R3; assumption).
  exists N, (upd (fst s1) b (Some (HBundle 0 0 0)), snd s1). split; [|split; [|split; [cbn [fst]; apply upd_same|split]]].
  - intros f Hf. unfold bundle_clear. destruct (Z.eqb_spec b 0) as [E0|_]; [destruct B; contradiction|]. rewrite (bundle_block s b _ _ _ B). cbn [bind].
    rewrite (E1 f Hf). cbn [bind]. apply (put_block s1 b _ _ B1).
  - exists 0, 0, []. split; [split; [exact (proj1 B)|cbn [fst]; apply upd_same]|]. split; [reflexivity|now split].
  - intros x [<-|Hx] Hn; [contradiction|]. cbn [fst]. rewrite upd_other by exact Hn. now apply R2.
  - intros x Hx. cbn [fst]. rewrite upd_other by (intros ->; apply Hx; now left). apply R3. intros H. apply Hx. now right.
Qed.
Print Assumptions C97_clear.

(** Clearing the arguments of a message keeps its address. *)
Lemma clear_args_ok s address args m next F : msg_at (fst s) (TMsg address args) m next F -> NoDup F ->
  exists N s' F1, (forall fuel, (N <= fuel)%nat -> clear_args fuel s m = Ok s') /\ snd s' = snd s /\ msg_at (fst s') (TMsg address []) m next (m :: F1) /\ incl (m :: F1) F /\
    (forall x, In x F -> ~ In x (m :: F1) -> fst s' x = None) /\ (forall x, ~ In x F -> fst s' x = fst s x) /\
    (forall p c hd tl, block (fst s) m (HMsg p c hd tl next) -> block (fst s') m (HMsg p 0 0 0 next) /\ text_at (fst s') address p F1).
Proof.
  intros (p & hd & tl & F1 & F2 & B & -> & Ct & Ca) ND. inversion_clear ND as [|? ? Hm N3]. destruct (NoDup_split _ _ N3) as (N1 & N2 & D).
  destruct (args_free_ok args (proj2 (Forall_forall _ _) (fun a _ => proj1 free_all a)) s hd F2 Ca N2) as (N & s1 & E1 & R1 & R2 & R3).
  assert (HmF : ~ In m F2) by (intros H; apply Hm, in_or_app; now right).
  assert (B1 : block (fst s1) m (HMsg p (zlen args) hd tl next)) by (destruct B as [B0 B]; split; [exact B0|]; rewrite R3; assumption).
  set (s' := (upd (fst s1) m (Some (HMsg p 0 0 0 next)), snd s1) : mem).
  assert (B' : block (fst s') m (HMsg p 0 0 0 next)) by (split; [exact (proj1 B)|cbn [fst s']; apply upd_same]).
  assert (Ct' : text_at (fst s') address p F1).
  { apply (text_at_agree (fst s)); [|exact Ct]. intros y Hy. cbn [fst s']. rewrite upd_other by (intros ->; apply Hm, in_or_app; now left). apply R3. now apply D. }
  exists N, s', F1. split; [|split; [|split; [|split; [|split; [|split]]]]].
  - intros f Hf. unfold clear_args. destruct (Z.eqb_spec m 0) as [E0|_]; [destruct B; contradiction|]. rewrite (msg_block s m _ _ _ _ _ B). cbn [bind].
    rewrite (E1 f Hf). cbn [bind]. apply (put_block s1 m _ _ B1).
  - exact R1.
  - exists p, 0, 0, F1, []. split; [exact B'|]. split; [now rewrite app_nil_r|]. split; [exact Ct'|now split].
  - intros x [<-|Hx]; [now left|]. right. apply in_or_app. now left.
  - intros x [<-|Hx] Hn; [elim Hn; now left|]. cbn [fst s']. rewrite upd_other by (intros ->; apply Hn; now left). apply R2.
    apply in_app_or in Hx as [Hx|Hx]; [elim Hn; now right|exact Hx].
  - intros x Hx. cbn [fst s']. rewrite upd_other by (intros ->; apply Hx; now left). apply R3. intros H. apply Hx. right. apply in_or_app. now right.
  - intros p2 c hd2 tl2 [_ E]. destruct B as [_ B]. rewrite E in B. injection B as -> _ _ _. now split.
Qed.
Theorem C97_clear_args s address args m next F : msg_at (fst s) (TMsg address args) m next F -> NoDup F ->
  exists N s' F1, (forall fuel, (N <= fuel)%nat -> clear_args fuel s m = Ok s') /\ msg_at (fst s') (TMsg address []) m next F1 /\ tail_right (fst s') [] m /\ incl F1 F /\
    (forall x, In x F -> ~ In x F1 -> fst s' x = None) /\ (forall x, ~ In x F -> fst s' x = fst s x).
Proof.
  intros C ND. destruct (clear_args_ok s address args m next F C ND) as (N & s' & F1 & R1 & R2 & R3 & R4 & R5 & R6 & R7).
  destruct C as (p & hd & tl & G1 & G2 & B & _). destruct (R7 _ _ _ _ B) as [[_ B'] _].
  exists N, s', (m :: F1). split; [exact R1|]. split; [exact R3|]. split; [exists p, 0, 0, 0, next; split; [exact B'|now left]|]. now split.
Qed.
Print Assumptions C97_clear_args.

Section Copy.
Context (bundle_copy : mem -> Z -> res (Z * mem)).

(** The copy of a message without bundles among its arguments is the same message, in blocks
    that were not there before; all the blocks made belong to it, none twice, and no other
    block changes. *)
Theorem C97_copy s address args src next F : sound s -> flat args -> msg_at (fst s) (TMsg address args) src next F ->
  exists N m F' s', (forall fuel, (N <= fuel)%nat -> deep_copy bundle_copy fuel s 0 src = Ok (m, s')) /\ sound s' /\
    msg_at (fst s') (TMsg address args) m 0 F' /\ tail_right (fst s') args m /\ NoDup F' /\
    (forall x, In x F' -> fst s x = None) /\ (forall x, ~ In x F' -> fst s' x = fst s x).
Proof.
  intros Hs Hf C. pose proof (there_below s F Hs (proj2 (there_all _) _ _ _ _ C)) as T.
  set (d := snd s). set (s1 := (upd (fst s) d (Some (HMsg 0 0 0 0 0)), d + 1) : mem).
  assert (Hd : d <> 0) by (destruct Hs; unfold d; lia).
  assert (Hs1 : sound s1) by (now apply sound_alloc).
  assert (B : block (fst s1) d (HMsg 0 0 0 0 0)) by (split; [exact Hd|cbn [fst s1]; apply upd_same]).
  assert (Hdf : ~ In d F) by (intros H; destruct (T d H); unfold d in *; lia).
  assert (C1 : msg_at (fst s1) (TMsg address args) src next F).
  { apply (proj2 (frame (fst s) (fst s1))); [|exact C]. intros y Hy. cbn [fst s1]. apply upd_other. intros ->. contradiction. }
  destruct (deep_copy_ok bundle_copy s1 d 0 0 0 0 0 src next address args F Hs1 Hf C1 B Hdf (fun _ => eq_refl)) as (N & s' & G & E & Hs' & L & C' & [ND I] & O & TR).
  cbn [snd s1] in *. exists N, d, (d :: G), s'. split; [|split; [exact Hs'|split; [exact C'|split; [exact TR|split; [|split]]]]].
  - intros f Hf'. specialize (E f Hf'). unfold deep_copy in *. rewrite (proj2 (Z.eqb_neq d 0) Hd) in E. exact E.
  - constructor; [rewrite I; lia|exact ND].
  - intros x [<-|Hx]; apply Hs; [unfold d; lia|]. apply I in Hx. fold d. lia.
  - intros x Hx. assert (Hxd : x <> d) by (intros ->; apply Hx; now left). destruct (Z_lt_le_dec x (d + 1)) as [Hl|Hl].
    + rewrite O by (assumption || lia). cbn [fst s1]. now apply upd_other.
    + destruct (Z_lt_le_dec x (snd s')) as [Hl2|Hl2]; [elim Hx; right; apply I; lia|]. rewrite (proj2 Hs') by lia. symmetry. apply Hs. fold d. lia.
Qed.

(** Walking to the message that is replaced. *)
Lemma walk s msg addr r pre : Forall (fun m => exists t a, m = TMsg (Some t) a /\ t <> addr) pre -> forall mid v F N, segment (msg_at (fst s)) mid pre v F ->
  (forall f, (N <= f)%nat -> replace_loop bundle_copy f s mid msg addr = r) ->
  exists N', forall f, (N' <= f)%nat -> replace_loop bundle_copy f s v msg addr = r.
Proof.
  induction 1 as [|m pre (t & a & -> & Ht) _ IH]; intros mid v F N C E; cbn [segment] in C; [destruct C as [-> _]; now exists N|].
  destruct C as (n & F1 & F2 & -> & (p & hd & tl & G1 & G2 & B & -> & Ct & _) & C). destruct (IH mid n F2 N C E) as (N' & E'). exists (S N').
  intros [|f] Hf; [lia|]. cbn [replace_loop]. destruct (Z.eqb_spec v 0) as [E0|_]; [destruct B; contradiction|]. rewrite (msg_block s v _ _ _ _ _ B). cbn [bind].
  destruct Ct as [Ct _]. rewrite (text_block s p t Ct). cbn [bind]. destruct (streq addr t) eqn:Es; [apply streq_iff in Es; congruence|]. apply E'. lia.
Qed.
Lemma sound_frees s s' F : sound s -> frees s s' F -> sound s'.
Proof.
  intros [H1 H2] (A & B & C). split; [lia|]. rewrite A. intros l Hl. destruct (in_dec Z.eq_dec l F) as [Hi|Hi]; [now apply B|]. rewrite C by exact Hi. now apply H2.
Qed.

(** Replacing the message with an address: the bundle has the arguments of the message given,
    which is freed, and all the blocks of the bundle and of the message that are not the
    bundle's any more are freed, except for one: the text of the old address is lost. *)
Theorem C97_replace s pre address old post b F args msg next G : sound s ->
  bundle_at (fst s) (pre ++ TMsg (Some address) old :: post) b F -> msg_at (fst s) (TMsg (Some address) args) msg next G -> NoDup (F ++ G) -> flat args ->
  Forall (fun m => exists t a, m = TMsg (Some t) a /\ t <> address) pre ->
  exists N s' F' lost, (forall fuel, (N <= fuel)%nat -> replace bundle_copy fuel s b msg = Ok (Some s')) /\
    bundle_at (fst s') (pre ++ TMsg (Some address) args :: post) b F' /\ fst s' b = fst s b /\ NoDup F' /\
    (In lost F /\ ~ In lost F' /\ fst s' lost = Some (HText address)) /\
    (forall x, In x F \/ In x G -> ~ In x F' -> x <> lost -> fst s' x = None) /\
    (forall x, ~ In x F -> ~ In x G -> ~ In x F' -> fst s' x = fst s x).
Proof.
  intros Hs (hd & tl & FF & B & -> & C) CG ND Hf Hpre. destruct (NoDup_split _ _ ND) as (NDF & NDG & Dj). inversion_clear NDF as [|? ? Hb NFF].
  destruct (segment_split _ _ _ _ _ _ C) as (m & F1 & F23 & -> & C1 & C23). destruct (NoDup_split _ _ NFF) as (ND1 & ND23 & D1).
  destruct C23 as (n2 & F2 & F3 & -> & C2 & C3). destruct (NoDup_split _ _ ND23) as (ND2 & ND3 & D2).
  assert (TF : forall y, In y (F1 ++ F2 ++ F3) -> y <> 0 /\ y < snd s).
  { apply (there_below s _ Hs). apply there_app; [exact (msgs_there _ _ _ _ _ C1)|]. apply there_app; [exact (proj2 (there_all _) _ _ _ _ C2)|exact (msgs_there _ _ _ _ _ C3)]. }
  pose proof (there_below s G Hs (proj2 (there_all _) _ _ _ _ CG)) as TG.
  assert (Lb : b < snd s) by (apply below; [exact Hs|destruct B; congruence]).
  pose proof C2 as (p & mhd & mtl & Fp & Fa & Bm & EF2 & Ctm & Cam). destruct Ctm as [Bp ->].
  destruct (clear_args_ok s (Some address) old m n2 F2 C2 ND2) as (Na & s1 & Fp' & E1 & L1 & _ & I1 & R1 & O1 & K1).
  destruct (K1 _ _ _ _ Bm) as [Bm1 [Bp1 ->]]. clear K1.
  assert (HmF2 : In m F2) by (rewrite EF2; now left). assert (HpF2 : In p F2) by (rewrite EF2; right; now left).
  assert (Hmp : m <> p) by (rewrite EF2 in ND2; inversion_clear ND2 as [|? ? H _]; intros ->; apply H; now left).
  assert (GF : forall y, In y G -> ~ In y (b :: F1 ++ F2 ++ F3)) by (intros y Hy H; now apply (Dj y)).
  assert (GF2 : forall y, In y G -> ~ In y F2) by (intros y Hy H; apply (GF y Hy); right; apply in_or_app; right; apply in_or_app; now left).
  assert (Hs1 : sound s1).
  { destruct Hs as [Hs0 Hs']. split; [lia|]. rewrite L1. intros l Hl. rewrite O1; [now apply Hs'|]. intros H. destruct (TF l); [apply in_or_app; right; apply in_or_app; now left|lia]. }
  assert (CG1 : msg_at (fst s1) (TMsg (Some address) args) msg next G).
  { apply (proj2 (frame (fst s) (fst s1))); [|exact CG]. intros y Hy. apply O1. now apply GF2. }
  destruct (deep_copy_ok bundle_copy s1 m p 0 0 0 n2 msg next (Some address) args G Hs1 Hf CG1 Bm1) as (Nb & s2 & G2 & E2 & Hs2 & L2 & Cm2 & [NG2 IG2] & O2 & _).
  { intros H. now apply (GF2 m H). } { discriminate. }
  destruct Cm2 as (ap & hd2 & tl2 & T1 & T2 & Bm2 & EG & Ct2 & Ca2). injection EG as ->.
  set (s3 := (upd (fst s2) m (Some (HMsg ap (zlen args) hd2 tl2 n2)), snd s2) : mem).
  assert (Lm : m < snd s) by (apply TF, in_or_app; right; apply in_or_app; now left).
  assert (Bm3 : block (fst s3) m (HMsg ap (zlen args) hd2 tl2 n2)) by (split; [exact (proj1 Bm)|cbn [fst s3]; apply upd_same]).
  assert (O3 : forall y, y <> m -> fst s3 y = fst s2 y) by (intros y Hy; cbn [fst s3]; now apply upd_other).
  assert (CG3 : msg_at (fst s3) (TMsg (Some address) args) msg next G).
  { apply (proj2 (frame (fst s1) (fst s3))); [|exact CG1]. intros y Hy. assert (y <> m) by (intros ->; now apply (GF2 m Hy)). rewrite O3, O2; [reflexivity| |assumption|assumption].
    rewrite L1. now apply TG. }
  destruct (proj2 free_all _ s3 msg next G CG3 NDG) as (Nc & s4 & E4 & L4 & R4 & O4).
  assert (Cm4 : msg_at (fst s4) (TMsg (Some address) args) m n2 (m :: T1 ++ T2)).
  { assert (A : agree (fst s2) (fst s4) (T1 ++ T2)).
    { intros y Hy. apply IG2 in Hy. rewrite O4 by (intros H; apply TG in H; lia). apply O3. lia. }
    apply agree_app in A as [A1 A2]. exists ap, hd2, tl2, T1, T2. split; [split; [exact (proj1 Bm)|]|].
    - rewrite O4 by (intros H; now apply (GF2 m H)). exact (proj2 Bm3).
    - split; [reflexivity|]. split; [now apply (text_at_agree (fst s2))|now apply (args_frame (fst s2))]. }
  (* what has not changed *)
  assert (OO : forall y, y < snd s -> ~ In y F2 -> ~ In y G -> fst s4 y = fst s y).
  { intros y H1 H2 H3. assert (y <> m) by (intros ->; contradiction). rewrite O4, O3, O2, O1; try assumption; [reflexivity|lia]. }
  assert (A1 : agree (fst s) (fst s4) F1).
  { intros y Hy. apply OO; [apply TF, in_or_app; now left|intros H; apply (D1 y Hy), in_or_app; now left|]. intros H. apply (GF y H). right. apply in_or_app. now left. }
  assert (A3 : agree (fst s) (fst s4) F3).
  { intros y Hy. apply OO; [apply TF, in_or_app; right; apply in_or_app; now right|intros H; now apply (D2 y H)|]. intros H. apply (GF y H). right. apply in_or_app. right. apply in_or_app. now right. }
  assert (Bb4 : block (fst s4) b (HBundle (zlen (pre ++ TMsg (Some address) args :: post)) hd tl)).
  { split; [exact (proj1 B)|]. rewrite OO; [|exact Lb| |].
    - rewrite (proj2 B). unfold zlen. now rewrite !app_length.
    - intros H. apply Hb, in_or_app. right. apply in_or_app. now left.
    - intros H. apply (GF b H). now left. }
  set (F' := b :: F1 ++ (m :: T1 ++ T2) ++ F3).
  assert (Hm1 : ~ In m F1) by (intros H; apply (D1 m H), in_or_app; now left).
  assert (Hm3 : ~ In m F3) by (now apply D2).
  assert (NDF' : NoDup F').
  { assert (X : forall y, In y (T1 ++ T2) -> snd s <= y) by (intros y Hy; apply IG2 in Hy; lia).
    assert (NDm : NoDup (m :: T1 ++ T2)) by (constructor; [intros H; apply X in H; lia|exact NG2]).
    constructor.
    - rewrite !in_app_iff. cbn [In]. intros [H|[[H|H]|H]].
      + apply Hb, in_or_app. now left.
      + subst m. apply Hb, in_or_app. right. apply in_or_app. now left.
      + apply X in H. lia.
      + apply Hb, in_or_app. right. apply in_or_app. now right.
    - apply NoDup_both; [exact ND1| |].
      + apply NoDup_both; [exact NDm|exact ND3|]. intros y [<-|Hy] H; [contradiction|]. apply X in Hy. destruct (TF y); [apply in_or_app; right; apply in_or_app; now right|lia].
      + intros y Hy. assert (Ly : y < snd s) by (apply TF, in_or_app; now left). rewrite in_app_iff. cbn [In]. intros [[<-|H]|H]; [contradiction|apply X in H; lia|]. apply (D1 y Hy), in_or_app. now right. }
  assert (HpF' : ~ In p F').
  { assert (Lp : p < snd s) by (apply TF, in_or_app; right; apply in_or_app; now left).
    intros [<-|H]; [apply Hb, in_or_app; right; apply in_or_app; now left|]. rewrite !in_app_iff in H. cbn [In] in H. destruct H as [H|[[H|H]|H]].
    - apply (D1 p H), in_or_app. now left.
    - congruence.
    - apply IG2 in H. lia.
    - now apply (D2 p HpF2). }
  pose proof CG as (q & qhd & qtl & Fq & Fqa & Bq & _ & [Btq _] & _).
  assert (EL : exists N, forall f, (N <= f)%nat -> replace_loop bundle_copy f s m msg address = Ok (Some s4)).
  { exists (S (Nat.max Na (Nat.max Nb Nc))). intros [|f] Hff; [lia|]. cbn [replace_loop]. destruct (Z.eqb_spec m 0) as [E0|_]; [destruct Bm; contradiction|].
    rewrite (msg_block s m _ _ _ _ _ Bm). cbn [bind]. rewrite (text_block s p address Bp). cbn [bind]. rewrite (proj2 (streq_iff address address) eq_refl).
    rewrite (E1 f) by lia. cbn [bind]. rewrite (E2 f) by lia. cbn [bind]. rewrite (msg_block s2 m _ _ _ _ _ Bm2). cbn [bind].
    rewrite (put_block s2 m _ _ Bm2). cbn [bind]. fold s3. rewrite (E4 f) by lia. reflexivity. }
  destruct EL as (Nd & EL). destruct (walk s msg address _ pre Hpre m hd F1 Nd C1 EL) as (N & EW).
  exists N, s4, F', p. split; [|split; [|split; [|split; [exact NDF'|split; [|split]]]]].
  - intros f Hff. unfold replace. rewrite (msg_block s msg _ _ _ _ _ Bq). cbn [bind]. destruct (Z.eqb_spec q 0) as [E0|_]; [destruct Btq; contradiction|].
    rewrite (text_block s q address Btq). cbn [bind]. rewrite (bundle_block s b _ _ _ B). cbn [bind]. now apply EW.
  - exists hd, tl, (F1 ++ (m :: T1 ++ T2) ++ F3). split; [exact Bb4|]. split; [reflexivity|]. apply (segment_app _ m); [now apply (msgs_frame (fst s))|].
    exists n2, (m :: T1 ++ T2), F3. split; [reflexivity|]. split; [exact Cm4|now apply (msgs_frame (fst s))].
  - rewrite (proj2 Bb4), (proj2 B). unfold zlen. now rewrite !app_length.
  - split; [right; apply in_or_app; right; apply in_or_app; now left|]. split; [exact HpF'|].
    rewrite O4 by (intros H; now apply (GF2 p H)). rewrite O3 by congruence. rewrite O2; [exact (proj2 Bp1)| |congruence]. rewrite L1. apply TF, in_or_app. right. apply in_or_app. now left.
  - intros x Hx Hn Hl. destruct (in_dec Z.eq_dec x G) as [Hi|Hi]; [now apply R4|]. rewrite O4 by exact Hi. destruct Hx as [Hx|Hx]; [|contradiction].
    destruct Hx as [<-|Hx]; [elim Hn; now left|]. apply in_app_or in Hx as [Hx|Hx]; [elim Hn; right; apply in_or_app; now left|].
    apply in_app_or in Hx as [Hx|Hx]; [|elim Hn; right; apply in_or_app; right; apply in_or_app; now right].
    assert (Hxm : x <> m) by (intros ->; apply Hn; right; apply in_or_app; right; now left).
    rewrite O3 by exact Hxm. rewrite O2; [|rewrite L1; apply TF, in_or_app; right; apply in_or_app; now left|exact Hxm]. apply R1; [exact Hx|]. intros [H|[H|[]]]; congruence.
  - intros x H1 H2 H3. destruct (Z_lt_le_dec x (snd s)) as [Hl|Hl].
    + apply OO; [exact Hl| |exact H2]. intros H. apply H1. right. apply in_or_app. right. apply in_or_app. now left.
    + assert (Hxm : x <> m) by lia. rewrite O4 by exact H2. rewrite O3 by exact Hxm. destruct (Z_lt_le_dec x (snd s2)) as [Hl2|Hl2].
      * elim H3. right. apply in_or_app. right. apply in_or_app. left. right. apply IG2. lia.
      * rewrite (proj2 Hs2) by lia. symmetry. apply Hs. lia.
Qed.
Print Assumptions C97_replace.
End Copy.
Print Assumptions C97_copy.

(** Copying a message and freeing the copy leaves memory as it was. *)
Theorem C97_copy_freed bundle_copy s address args src next F : sound s -> flat args -> msg_at (fst s) (TMsg address args) src next F ->
  exists N s', (forall fuel, (N <= fuel)%nat -> (do ' (m, s1) <- deep_copy bundle_copy fuel s 0 src; msg_free fuel s1 m) = Ok s') /\
    forall x, fst s' x = fst s x.
Proof.
  intros Hs Hf C. destruct (C97_copy bundle_copy s address args src next F Hs Hf C) as (N & m & F' & s1 & E & _ & C' & _ & ND & Fr & O).
  destruct (C97_free_message s1 _ m 0 F' C' ND) as (N2 & s2 & E2 & _ & I & O2).
  exists (Nat.max N N2), s2. split; [intros f Hf'; rewrite (E f) by lia; cbn [bind]; apply E2; lia|].
  intros x. destruct (in_dec Z.eq_dec x F') as [Hi|Hi]; [rewrite I, Fr by exact Hi; reflexivity|]. rewrite O2 by exact Hi. now apply O.
Qed.
Print Assumptions C97_copy_freed.

(** The original can be freed without harm to the copy. *)
Theorem C97_original_freed bundle_copy s address args src next F : sound s -> flat args -> msg_at (fst s) (TMsg address args) src next F -> NoDup F ->
  exists N m F' s', (forall fuel, (N <= fuel)%nat -> (do ' (m, s1) <- deep_copy bundle_copy fuel s 0 src; do s2 <- msg_free fuel s1 src; Ok (m, s2)) = Ok (m, s')) /\
    msg_at (fst s') (TMsg address args) m 0 F' /\ (forall x, In x F -> fst s' x = None) /\ (forall x, ~ In x F -> ~ In x F' -> fst s' x = fst s x).
Proof.
  intros Hs Hf C NF. destruct (C97_copy bundle_copy s address args src next F Hs Hf C) as (N & m & F' & s1 & E & _ & C' & _ & ND & Fr & O).
  assert (Dj : forall y, In y F -> ~ In y F') by (intros y Hy Hy'; apply (proj2 (there_all _) _ _ _ _ C y Hy); now apply Fr).
  assert (C1 : msg_at (fst s1) (TMsg address args) src next F) by (apply (proj2 (frame (fst s) (fst s1))); [intros y Hy; apply O; now apply Dj|exact C]).
  destruct (C97_free_message s1 _ src next F C1 NF) as (N2 & s2 & E2 & _ & I & O2).
  exists (Nat.max N N2), m, F', s2. split; [intros f Hf'; rewrite (E f) by lia; cbn [bind]; rewrite (E2 f) by lia; reflexivity|]. split.
  - apply (proj2 (frame (fst s1) (fst s2))); [|exact C']. intros y Hy. apply O2. intros H. now apply (Dj y).
  - split; [exact I|]. intros x H1 H2. rewrite O2 by exact H1. now apply O.
Qed.
Print Assumptions C97_original_freed.

(** When no message of the bundle has the address, nothing is done (and the message is
    appended by the code that follows). *)
Theorem C97_replace_none bundle_copy s ms b F address args msg next G : bundle_at (fst s) ms b F -> msg_at (fst s) (TMsg (Some address) args) msg next G ->
  Forall (fun m => exists t a, m = TMsg (Some t) a /\ t <> address) ms ->
  exists N, forall fuel, (N <= fuel)%nat -> replace bundle_copy fuel s b msg = Ok None.
Proof.
  intros (hd & tl & F' & B & -> & C) (q & qhd & qtl & Fq & Fqa & Bq & _ & [Btq _] & _) H.
  destruct (walk bundle_copy s msg address (Ok None) ms H 0 hd F' 1 C) as (N & E).
  - intros [|f] Hf; [lia|reflexivity].
  - exists N. intros f Hf. unfold replace. rewrite (msg_block s msg _ _ _ _ _ Bq). cbn [bind]. destruct (Z.eqb_spec q 0) as [E0|_]; [destruct Btq; contradiction|].
    rewrite (text_block s q address Btq). cbn [bind]. rewrite (bundle_block s b _ _ _ B). cbn [bind]. now apply E.
Qed.
Print Assumptions C97_replace_none.

(** ** A memory: a bundle of /a 1 "x" and /b with a bundle, and a message /a with a blob *)
Definition example_old : tmsg := TMsg (Some (str "/a")) [TVal 105 1; TStr (str "x")].
Definition example_other : tmsg := TMsg (Some (str "/b")) [TBun [TMsg None [TVal 78 0]]].
Definition example_memory : mem :=
  ((fun x => match x with
    | 1 => Some (HBundle 2 2 7)
    | 2 => Some (HMsg 3 1 4 4 7) | 3 => Some (HText (str "/b")) | 4 => Some (HAtom 46 5 0) | 5 => Some (HBundle 1 6 6)
    | 6 => Some (HMsg 0 1 12 12 0) | 12 => Some (HAtom 78 0 0)
    | 7 => Some (HMsg 8 2 9 10 0) | 8 => Some (HText (str "/a")) | 9 => Some (HAtom 105 1 10) | 10 => Some (HAtom 115 11 0) | 11 => Some (HText (str "x"))
    | 13 => Some (HMsg 14 1 15 15 0) | 14 => Some (HText (str "/a")) | 15 => Some (HAtom 98 16 0) | 16 => Some (HBlob [1; 2])
    | _ => None end), 17).
Example example_sound : sound example_memory.
Proof.
  split; cbn [snd example_memory]; [lia|]. intros l Hl. cbn [fst example_memory].
  destruct l as [|p|p]; try lia. do 5 (destruct p as [p|p|]; try reflexivity; try lia).
Qed.
Definition example_blocks : list Z := [1; 2; 3; 4; 5; 6; 12; 7; 8; 9; 10; 11].
Example example_bundle : bundle_at (fst example_memory) [example_other; example_old] 1 example_blocks.
Proof.
  assert (B : forall l c, l <> 0 -> fst example_memory l = Some c -> block (fst example_memory) l c) by (intros; now split).
  exists 2, 7, [2; 3; 4; 5; 6; 12; 7; 8; 9; 10; 11]. split; [apply B; [lia|reflexivity]|]. split; [reflexivity|].
  exists 7, [2; 3; 4; 5; 6; 12], [7; 8; 9; 10; 11]. split; [reflexivity|]. split.
  - exists 3, 4, 4, [3], [4; 5; 6; 12]. split; [apply B; [lia|reflexivity]|]. split; [reflexivity|]. split; [split; [apply B; [lia|reflexivity]|reflexivity]|].
    exists 0, [4; 5; 6; 12], []. split; [reflexivity|]. split; [|now split]. exists 5, [5; 6; 12]. split; [apply B; [lia|reflexivity]|]. split; [reflexivity|].
    exists 6, 6, [6; 12]. split; [apply B; [lia|reflexivity]|]. split; [reflexivity|]. exists 0, [6; 12], []. split; [reflexivity|]. split; [|now split].
    exists 0, 12, 12, [], [12]. split; [apply B; [lia|reflexivity]|]. split; [reflexivity|]. split; [now split|].
    exists 0, [12], []. split; [reflexivity|]. split; [|now split]. split; [apply B; [lia|reflexivity]|]. repeat split; lia.
  - exists 0, [7; 8; 9; 10; 11], []. split; [reflexivity|]. split; [|now split].
    exists 8, 9, 10, [8], [9; 10; 11]. split; [apply B; [lia|reflexivity]|]. split; [reflexivity|]. split; [split; [apply B; [lia|reflexivity]|reflexivity]|].
    exists 10, [9], [10; 11]. split; [reflexivity|]. split; [split; [apply B; [lia|reflexivity]|]; repeat split; lia|].
    exists 0, [10; 11], []. split; [reflexivity|]. split; [|now split]. exists 11. split; [apply B; [lia|reflexivity]|]. split; [apply B; [lia|reflexivity]|reflexivity].
Qed.
Example example_msg : msg_at (fst example_memory) (TMsg (Some (str "/a")) [TBlob [1; 2]]) 13 0 [13; 14; 15; 16].
Proof.
  assert (B : forall l c, l <> 0 -> fst example_memory l = Some c -> block (fst example_memory) l c) by (intros; now split).
  exists 14, 15, 15, [14], [15; 16]. split; [apply B; [lia|reflexivity]|]. split; [reflexivity|]. split; [split; [apply B; [lia|reflexivity]|reflexivity]|].
  exists 0, [15; 16], []. split; [reflexivity|]. split; [|now split]. exists 16. split; [apply B; [lia|reflexivity]|]. split; [apply B; [lia|reflexivity]|reflexivity].
Qed.
Example example_once : NoDup (example_blocks ++ [13; 14; 15; 16]).
Proof. unfold example_blocks. cbn [app]. repeat constructor; cbn [In]; lia. Qed.
Example example_replaced bundle_copy : exists N s' F' lost, (forall fuel, (N <= fuel)%nat -> replace bundle_copy fuel example_memory 1 13 = Ok (Some s')) /\
  bundle_at (fst s') [example_other; TMsg (Some (str "/a")) [TBlob [1; 2]]] 1 F' /\ In lost example_blocks /\ ~ In lost F' /\ fst s' lost = Some (HText (str "/a")).
Proof.
  destruct (C97_replace bundle_copy example_memory [example_other] (str "/a") [TVal 105 1; TStr (str "x")] [] 1 example_blocks [TBlob [1; 2]] 13 0 [13; 14; 15; 16]
    example_sound example_bundle example_msg example_once) as (N & s' & F' & lost & E & C & _ & _ & L & _).
  - constructor; [exact I|constructor].
  - constructor; [|constructor]. eexists _, _. split; [reflexivity|discriminate].
  - exists N, s', F', lost. now split.
Qed.
(** The loss of the old address, as it stands: the claim that every block that the bundle
    and the message had and the bundle has no more is freed is refuted. *)
Theorem C97_replace_leak_refuted bundle_copy : ~ (forall s pre address old post b F args msg next G, sound s ->
  bundle_at (fst s) (pre ++ TMsg (Some address) old :: post) b F -> msg_at (fst s) (TMsg (Some address) args) msg next G -> NoDup (F ++ G) -> flat args ->
  Forall (fun m => exists t a, m = TMsg (Some t) a /\ t <> address) pre ->
  forall fuel s' F', replace bundle_copy fuel s b msg = Ok (Some s') -> bundle_at (fst s') (pre ++ TMsg (Some address) args :: post) b F' ->
    forall x, In x F \/ In x G -> ~ In x F' -> fst s' x = None).
Proof.
  intros H. destruct (example_replaced bundle_copy) as (N & s' & F' & lost & E & C & L1 & L2 & L3).
  assert (X : fst s' lost = None); [|congruence].
  apply (H example_memory [example_other] (str "/a") [TVal 105 1; TStr (str "x")] [] 1 example_blocks [TBlob [1; 2]] 13 0 [13; 14; 15; 16] example_sound example_bundle example_msg example_once) with (fuel := N) (F' := F').
  - constructor; [exact I|constructor].
  - constructor; [|constructor]. eexists _, _. split; [reflexivity|discriminate].
  - now apply E.
  - exact C.
  - now left.
  - exact L2.
Qed.
Print Assumptions C97_replace_leak_refuted.
