(** Proofs about the memory of bundle objects. *)

From Coq Require Import ZArith List Bool Lia.
From Verif Require Import Base BaseProofs SerialModel BundleSModel BundleSProofs BundleHeapModel BundleHeapSpec.
Import ListNotations.
Open Scope Z_scope.

(** * Induction over bundles *)
Section All.
Context (P : targ -> Prop) (Q : tmsg -> Prop).
Context (HV : forall tag w, P (TVal tag w)) (HS : forall t, P (TStr t)) (HB : forall b, P (TBlob b)).
Context (HN : forall ms, Forall Q ms -> P (TBun ms)) (HM : forall a args, Forall P args -> Q (TMsg a args)).
Fixpoint targ_all (a : targ) : P a :=
  match a with
  | TVal tag w => HV tag w
  | TStr t => HS t
  | TBlob b => HB b
  | TBun ms => HN ms ((fix go l := match l return Forall Q l with [] => Forall_nil _ | m :: r => Forall_cons m (tmsg_all m) (go r) end) ms)
  end
with tmsg_all (m : tmsg) : Q m :=
  match m with
  | TMsg a args => HM a args ((fix go l := match l return Forall P l with [] => Forall_nil _ | x :: r => Forall_cons x (targ_all x) (go r) end) args)
  end.
End All.

(** * Memory *)
Lemma fetch_block s l c : block (fst s) l c -> fetch s l = Ok c.
Proof. intros [H E]. unfold fetch. destruct (Z.eqb_spec l 0); [contradiction|]. now rewrite E. Qed.
Lemma put_block s l c c' : block (fst s) l c -> put_cell s l c' = Ok (upd (fst s) l (Some c'), snd s).
Proof. intros H. unfold put_cell. rewrite (fetch_block _ _ _ H). reflexivity. Qed.
Lemma drop_block s l c : block (fst s) l c -> drop s l = Ok (upd (fst s) l None, snd s).
Proof. intros H. unfold drop. destruct H as [H E]. destruct (Z.eqb_spec l 0); [contradiction|]. rewrite (fetch_block s l c) by (now split). reflexivity. Qed.
Lemma upd_same h l c : upd h l c l = c.
Proof. unfold upd. now rewrite Z.eqb_refl. Qed.
Lemma upd_other h l c x : x <> l -> upd h l c x = h x.
Proof. intros H. unfold upd. destruct (Z.eqb_spec x l); [contradiction|reflexivity]. Qed.
Lemma below s l : sound s -> fst s l <> None -> l < snd s.
Proof. intros [_ H] N. destruct (Z_lt_le_dec l (snd s)) as [|L]; [assumption|]. now elim N; apply H. Qed.
Lemma sound_upd s l c : sound s -> l < snd s -> sound (upd (fst s) l c, snd s).
Proof. intros [H1 H2] Hl. split; [exact H1|]. cbn [fst snd] in *. intros x Hx. rewrite upd_other by lia. now apply H2. Qed.
Lemma sound_alloc s c : sound s -> sound (upd (fst s) (snd s) (Some c), snd s + 1).
Proof. intros [H1 H2]. split; cbn [fst snd]; [lia|]. intros x Hx. rewrite upd_other by lia. apply H2. lia. Qed.

(** * Only the blocks of an expression matter *)
Definition agree (h h' : Z -> option cell) (F : list Z) : Prop := forall l, In l F -> h' l = h l.
Lemma agree_app h h' F G : agree h h' (F ++ G) -> agree h h' F /\ agree h h' G.
Proof. intros H. split; intros l Hl; apply H, in_or_app; auto. Qed.
Lemma block_agree h h' F l c : agree h h' F -> In l F -> block h l c -> block h' l c.
Proof. intros H Hin [H1 H2]. split; [exact H1|]. now rewrite H. Qed.
Lemma segment_agree {A} (P Q : A -> Z -> Z -> list Z -> Prop) h h' xs :
  Forall (fun x => forall l n F, agree h h' F -> P x l n F -> Q x l n F) xs ->
  forall stop l F, agree h h' F -> segment P stop xs l F -> segment Q stop xs l F.
Proof.
  induction 1 as [|x xs Hx _ IH]; intros stop l F Ha H; [exact H|]. cbn [segment] in *. destruct H as (n & F1 & F2 & -> & H1 & H2).
  apply agree_app in Ha as [A1 A2]. exists n, F1, F2. split; [reflexivity|]. split; [now apply Hx|now apply IH].
Qed.
Lemma atom_block s l t w x : block (fst s) l (HAtom t w x) -> get_atom s l = Ok (t, w, x).
Proof. intros H. unfold get_atom. rewrite (fetch_block _ _ _ H). reflexivity. Qed.
Lemma msg_block s l a c h t x : block (fst s) l (HMsg a c h t x) -> get_msg s l = Ok (a, c, h, t, x).
Proof. intros H. unfold get_msg. rewrite (fetch_block _ _ _ H). reflexivity. Qed.
Lemma bundle_block s l c h t : block (fst s) l (HBundle c h t) -> get_bundle s l = Ok (c, h, t).
Proof. intros H. unfold get_bundle. rewrite (fetch_block _ _ _ H). reflexivity. Qed.
Lemma text_block s l t : block (fst s) l (HText t) -> get_text s l = Ok t.
Proof. intros H. unfold get_text. rewrite (fetch_block _ _ _ H). reflexivity. Qed.
Lemma blob_block s l t : block (fst s) l (HBlob t) -> get_blob s l = Ok t.
Proof. intros H. unfold get_blob. rewrite (fetch_block _ _ _ H). reflexivity. Qed.
Lemma text_at_agree h h' o p F : agree h h' F -> text_at h o p F -> text_at h' o p F.
Proof.
  destruct o as [t|]; cbn [text_at]; [|auto]. intros A [B ->]. split; [|reflexivity]. apply (block_agree h h' [p]); [exact A|now left|exact B].
Qed.

(** Lists *)
Lemma segment_app {A} (P : A -> Z -> Z -> list Z -> Prop) mid stop xs ys : forall l F G, segment P mid xs l F -> segment P stop ys mid G ->
  segment P stop (xs ++ ys) l (F ++ G).
Proof.
  induction xs as [|x xs IH]; intros l F G H1 H2; cbn [segment app] in *; [now destruct H1 as [-> ->]|].
  destruct H1 as (n & F1 & F2 & -> & Hx & H1). exists n, F1, (F2 ++ G). split; [now rewrite app_assoc|]. split; [exact Hx|now apply IH].
Qed.
Lemma segment_split {A} (P : A -> Z -> Z -> list Z -> Prop) stop xs ys : forall l F, segment P stop (xs ++ ys) l F ->
  exists mid F1 F2, F = F1 ++ F2 /\ segment P mid xs l F1 /\ segment P stop ys mid F2.
Proof.
  induction xs as [|x xs IH]; intros l F H; cbn [segment app] in *; [exists l, [], F; now repeat split|].
  destruct H as (n & F1 & F2 & -> & Hx & H). destruct (IH n F2 H) as (mid & G1 & G2 & -> & H1 & H2).
  exists mid, (F1 ++ G1), G2. split; [now rewrite app_assoc|]. split; [|exact H2]. now exists n, F1, G1.
Qed.
Lemma segment_one {A} (P : A -> Z -> Z -> list Z -> Prop) stop x l F : P x l stop F -> segment P stop [x] l F.
Proof. intros H. exists stop, F, []. split; [now rewrite app_nil_r|]. split; [exact H|now split]. Qed.

Section Frame.
Context (h h' : Z -> option cell).
Lemma frame : (forall a l n F, agree h h' F -> arg_at h a l n F -> arg_at h' a l n F) /\
  (forall m l n F, agree h h' F -> msg_at h m l n F -> msg_at h' m l n F).
Proof.
  set (P := fun a => forall l n F, agree h h' F -> arg_at h a l n F -> arg_at h' a l n F).
  set (Q := fun m => forall l n F, agree h h' F -> msg_at h m l n F -> msg_at h' m l n F).
  assert (BA : forall F l c, agree h h' F -> In l F -> block h l c -> block h' l c) by (intros; eapply block_agree; eassumption).
  assert (K1 : forall t w, P (TVal t w)).
  { intros t w l n F A (B & H1 & H2 & H3 & ->). split; [apply (BA [l] l); [exact A|now left|exact B]|]. now repeat split. }
  assert (K2 : forall t, P (TStr t)).
  { intros t l n F A (p & B & C & ->). exists p. split; [apply (BA [l; p] l); [exact A|now left|exact B]|]. split; [|reflexivity]. apply (BA [l; p] p); [exact A|right; now left|exact C]. }
  assert (K3 : forall t, P (TBlob t)).
  { intros t l n F A (p & B & C & ->). exists p. split; [apply (BA [l; p] l); [exact A|now left|exact B]|]. split; [|reflexivity]. apply (BA [l; p] p); [exact A|right; now left|exact C]. }
  assert (K4 : forall ms, Forall Q ms -> P (TBun ms)).
  { intros ms Hm l n F A (p & F' & B & -> & hd & tl & F2 & C & -> & D). exists p, (p :: F2). split; [apply (BA _ l _ A); [now left|exact B]|]. split; [reflexivity|].
    exists hd, tl, F2. split; [apply (BA _ p _ A); [right; now left|exact C]|]. split; [reflexivity|].
    apply (segment_agree (msg_at h) (msg_at h') h h' ms Hm); [|exact D]. intros y Hy. apply A. right. now right. }
  assert (K5 : forall a args, Forall P args -> Q (TMsg a args)).
  { intros a args Ha l n F A (p & hd & tl & F1 & F2 & B & -> & C & D). exists p, hd, tl, F1, F2. split; [apply (BA _ l _ A); [now left|exact B]|]. split; [reflexivity|].
    split; [apply (text_at_agree h); [|exact C]; intros y Hy; apply A; right; apply in_or_app; now left|].
    apply (segment_agree (arg_at h) (arg_at h') h h' args Ha); [|exact D]. intros y Hy. apply A. right. apply in_or_app. now right. }
  split; [exact (targ_all P Q K1 K2 K3 K4 K5)|exact (tmsg_all P Q K1 K2 K3 K4 K5)].
Qed.
Lemma args_frame args stop l F : agree h h' F -> segment (arg_at h) stop args l F -> segment (arg_at h') stop args l F.
Proof. apply segment_agree. apply Forall_forall. intros a _. apply (proj1 frame). Qed.
Lemma msgs_frame ms stop l F : agree h h' F -> segment (msg_at h) stop ms l F -> segment (msg_at h') stop ms l F.
Proof. apply segment_agree. apply Forall_forall. intros a _. apply (proj2 frame). Qed.
End Frame.

(** * The blocks are there *)
Definition there (h : Z -> option cell) (F : list Z) : Prop := forall l, In l F -> l <> 0 /\ h l <> None.
Lemma there_app h F G : there h F -> there h G -> there h (F ++ G).
Proof. intros H1 H2 l Hl. apply in_app_or in Hl as [|]; auto. Qed.
Lemma there_cons h l c F : block h l c -> there h F -> there h (l :: F).
Proof. intros [H E] H2 x [<-|Hx]; [split; [exact H|congruence]|auto]. Qed.
Lemma segment_there {A} (P : A -> Z -> Z -> list Z -> Prop) h xs : Forall (fun x => forall l n F, P x l n F -> there h F) xs ->
  forall stop l F, segment P stop xs l F -> there h F.
Proof.
  induction 1 as [|x xs Hx _ IH]; intros stop l F H; cbn [segment] in H; [destruct H as [_ ->]; intros y []|].
  destruct H as (n & F1 & F2 & -> & H1 & H2). apply there_app; [now apply (Hx _ _ _ H1)|now apply (IH _ _ _ H2)].
Qed.
Section There.
Context (h : Z -> option cell).
Lemma there_all : (forall a l n F, arg_at h a l n F -> there h F) /\ (forall m l n F, msg_at h m l n F -> there h F).
Proof.
  set (P := fun a => forall l n F, arg_at h a l n F -> there h F). set (Q := fun m => forall l n F, msg_at h m l n F -> there h F).
  assert (K0 : there h []) by (intros y []).
  assert (K1 : forall t w, P (TVal t w)) by (intros t w l n F (B & _ & _ & _ & ->); now apply (there_cons h l _ [] B)).
  assert (K2 : forall t, P (TStr t)) by (intros t l n F (p & B & C & ->); apply (there_cons h l _ [p] B); now apply (there_cons h p _ [] C)).
  assert (K3 : forall t, P (TBlob t)) by (intros t l n F (p & B & C & ->); apply (there_cons h l _ [p] B); now apply (there_cons h p _ [] C)).
  assert (K4 : forall ms, Forall Q ms -> P (TBun ms)).
  { intros ms Hm l n F (p & F' & B & -> & hd & tl & F2 & C & -> & D). apply (there_cons h l _ _ B). apply (there_cons h p _ _ C).
    exact (segment_there (msg_at h) h ms Hm _ _ _ D). }
  assert (K5 : forall a args, Forall P args -> Q (TMsg a args)).
  { intros a args Ha l n F (p & hd & tl & F1 & F2 & B & -> & C & D). apply (there_cons h l _ _ B). apply there_app.
    - destruct a as [t|]; cbn [text_at] in C; [destruct C as [C ->]; now apply (there_cons h p _ [] C)|destruct C as [_ ->]; exact K0].
    - exact (segment_there (arg_at h) h args Ha _ _ _ D). }
  split; [exact (targ_all P Q K1 K2 K3 K4 K5)|exact (tmsg_all P Q K1 K2 K3 K4 K5)].
Qed.
Lemma args_there args stop l F : segment (arg_at h) stop args l F -> there h F.
Proof. apply segment_there. apply Forall_forall. intros a _. apply (proj1 there_all). Qed.
Lemma msgs_there ms stop l F : segment (msg_at h) stop ms l F -> there h F.
Proof. apply segment_there. apply Forall_forall. intros a _. apply (proj2 there_all). Qed.
End There.
Lemma there_below s F : sound s -> there (fst s) F -> forall l, In l F -> l <> 0 /\ l < snd s.
Proof. intros Hs H l Hl. destruct (H l Hl). split; [assumption|now apply below]. Qed.

(** * Freeing *)
Definition grows (s s' : mem) : Prop := snd s <= snd s' /\ forall l, l < snd s -> fst s' l = fst s l.
Definition fills (F : list Z) (lo hi : Z) : Prop := NoDup F /\ forall l, In l F <-> lo <= l < hi.
Lemma fills_nil n : fills [] n n.
Proof. split; [constructor|]. intros l. split; [intros []|lia]. Qed.
Lemma fills_cons F n m : n + 1 <= m -> fills F (n + 1) m -> fills (n :: F) n m.
Proof. intros H [N I]. split; [constructor; [rewrite I; lia|exact N]|]. intros l. cbn [In]. rewrite I. lia. Qed.
Lemma NoDup_both {A} (l1 l2 : list A) : NoDup l1 -> NoDup l2 -> (forall x, In x l1 -> ~ In x l2) -> NoDup (l1 ++ l2).
Proof.
  induction 1 as [|x l1 Hx _ IH]; intros H2 D; [exact H2|]. cbn [app]. constructor.
  - rewrite in_app_iff. intros [H|H]; [now apply Hx|]. apply (D x); [now left|exact H].
  - apply IH; [exact H2|]. intros y Hy. apply D. now right.
Qed.
Lemma fills_app F G a b c : a <= b -> b <= c -> fills F a b -> fills G b c -> fills (F ++ G) a c.
Proof.
  intros H1 H2 [N1 I1] [N2 I2]. split.
  - apply NoDup_both; [exact N1|exact N2|]. intros x. rewrite I1, I2. lia.
  - intros l. rewrite in_app_iff, I1, I2. lia.
Qed.
Lemma grows_trans s1 s2 s3 : grows s1 s2 -> grows s2 s3 -> grows s1 s3.
Proof. intros [A1 B1] [A2 B2]. split; [lia|]. intros l Hl. rewrite B2 by lia. now apply B1. Qed.

Definition frees (s s' : mem) (F : list Z) : Prop :=
  snd s' = snd s /\ (forall l, In l F -> fst s' l = None) /\ (forall l, ~ In l F -> fst s' l = fst s l).
Definition freeing (run : nat -> res mem) (s : mem) (F : list Z) : Prop :=
  exists N s', (forall f, (N <= f)%nat -> run f = Ok s') /\ frees s s' F.
Lemma frees_nil s : frees s s [].
Proof. repeat split; auto; intros l []. Qed.
Lemma frees_app s1 s2 s3 F G : (forall x, In x F -> ~ In x G) -> frees s1 s2 F -> frees s2 s3 G -> frees s1 s3 (F ++ G).
Proof.
  intros D (A1 & B1 & C1) (A2 & B2 & C2). split; [congruence|]. split; intros l Hl; rewrite in_app_iff in Hl.
  - destruct Hl as [Hl|Hl]; [rewrite C2; [now apply B1|now apply D]|now apply B2].
  - rewrite C2 by tauto. apply C1. tauto.
Qed.
Lemma frees_swap s s' F G : (forall x, In x F <-> In x G) -> frees s s' F -> frees s s' G.
Proof. intros H (A & B & C). split; [exact A|]. split; intros l Hl; [apply B|apply C]; rewrite H; assumption. Qed.
Lemma drop_frees s l c : block (fst s) l c -> exists s', drop s l = Ok s' /\ frees s s' [l].
Proof.
  intros B. exists (upd (fst s) l None, snd s). split; [now apply (drop_block s l c)|]. split; [reflexivity|]. cbn [fst In]. split; intros x Hx.
  - destruct Hx as [<-|[]]. apply upd_same.
  - apply upd_other. intros ->. apply Hx. now left.
Qed.
Lemma frees_agree s s' F G : frees s s' F -> (forall x, In x G -> ~ In x F) -> agree (fst s) (fst s') G.
Proof. intros (_ & _ & C) D l Hl. apply C. now apply D. Qed.
Lemma NoDup_split {A} (F G : list A) : NoDup (F ++ G) -> NoDup F /\ NoDup G /\ forall x, In x F -> ~ In x G.
Proof.
  induction F as [|y F IH]; cbn [app]; intros H; [split; [constructor|]; split; [exact H|intros x []]|]. inversion_clear H as [|? ? Hy HF].
  destruct (IH HF) as (I1 & I2 & I3). rewrite in_app_iff in Hy. split; [constructor; tauto|]. split; [exact I2|]. intros x [<-|Hx]; [tauto|now apply I3].
Qed.
Definition Pfree (a : targ) : Prop := forall s l n F, arg_at (fst s) a l n F -> NoDup F -> freeing (fun f => atom_free f s l) s F.
Definition Qfree (m : tmsg) : Prop := forall s l n F, msg_at (fst s) m l n F -> NoDup F -> freeing (fun f => msg_free f s l) s F.
Lemma arg_next h a l n F : arg_at h a l n F -> exists t w, block h l (HAtom t w n).
Proof.
  destruct a as [t w|t|b|ms]; cbn [arg_at].
  - intros (B & _). now exists t, w.
  - intros (p & B & _). now exists 115, p.
  - intros (p & B & _). now exists 98, p.
  - intros (p & F' & B & _). now exists 46, p.
Qed.
Lemma msg_next h m l n F : msg_at h m l n F -> exists a c hd tl, block h l (HMsg a c hd tl n).
Proof. destruct m as [a args]. intros (p & hd & tl & F1 & F2 & B & _). now exists p, (zlen args), hd, tl. Qed.
Lemma args_free_ok args : Forall Pfree args -> forall s v F, segment (arg_at (fst s)) 0 args v F -> NoDup F -> freeing (fun f => args_free f s v) s F.
Proof.
  induction 1 as [|x args Hx _ IH]; intros s v F C ND; cbn [segment] in C.
  { destruct C as [-> ->]. exists 1%nat, s. split; [intros [|f] Hf; [lia|reflexivity]|apply frees_nil]. }
  destruct C as (n & F1 & F2 & -> & C1 & C2). apply NoDup_split in ND as (N1 & N2 & D). destruct (arg_next _ _ _ _ _ C1) as (t & w & B).
  destruct (Hx s v n F1 C1 N1) as (Na & s1 & E1 & R1).
  destruct (IH s1 n F2) as (Nb & s3 & E3 & R3); [|exact N2|].
  { apply (args_frame (fst s)); [|exact C2]. apply (frees_agree _ _ _ _ R1). intros y Hy Hy2. now apply (D y). }
  exists (S (Nat.max Na Nb)), s3. split; [|now apply (frees_app s s1 s3)].
  intros [|f] Hf; [lia|]. cbn [args_free]. destruct (Z.eqb_spec v 0) as [E0|_]; [destruct B; contradiction|]. rewrite (atom_block s v t w n B). cbn [bind].
  rewrite (E1 f) by lia. cbn [bind]. apply E3. lia.
Qed.
Lemma msgs_free_ok ms : Forall Qfree ms -> forall s v F, segment (msg_at (fst s)) 0 ms v F -> NoDup F -> freeing (fun f => msgs_free f s v) s F.
Proof.
  induction 1 as [|x ms Hx _ IH]; intros s v F C ND; cbn [segment] in C.
  { destruct C as [-> ->]. exists 1%nat, s. split; [intros [|f] Hf; [lia|reflexivity]|apply frees_nil]. }
  destruct C as (n & F1 & F2 & -> & C1 & C2). apply NoDup_split in ND as (N1 & N2 & D). destruct (msg_next _ _ _ _ _ C1) as (a & c & hd & tl & B).
  destruct (Hx s v n F1 C1 N1) as (Na & s1 & E1 & R1).
  destruct (IH s1 n F2) as (Nb & s3 & E3 & R3); [|exact N2|].
  { apply (msgs_frame (fst s)); [|exact C2]. apply (frees_agree _ _ _ _ R1). intros y Hy Hy2. now apply (D y). }
  exists (S (Nat.max Na Nb)), s3. split; [|now apply (frees_app s s1 s3)].
  intros [|f] Hf; [lia|]. cbn [msgs_free]. destruct (Z.eqb_spec v 0) as [E0|_]; [destruct B; contradiction|]. rewrite (msg_block s v _ _ _ _ _ B). cbn [bind].
  rewrite (E1 f) by lia. cbn [bind]. apply E3. lia.
Qed.
(** A block and, before it, others that belong to it. *)
Lemma frees_with s s1 l c F : block (fst s) l c -> ~ In l F -> frees s s1 F -> exists s2, drop s1 l = Ok s2 /\ frees s s2 (l :: F).
Proof.
  intros B Hl R1. assert (B1 : block (fst s1) l c).
  { apply (block_agree (fst s) (fst s1) [l]); [|now left|exact B]. apply (frees_agree _ _ F [l] R1). intros y [<-|[]]. exact Hl. }
  destruct (drop_frees s1 l _ B1) as (s2 & E2 & R2). exists s2. split; [exact E2|].
  apply (frees_swap s s2 (F ++ [l])); [intros y; rewrite in_app_iff; cbn [In]; tauto|]. apply (frees_app s s1 s2); [|exact R1|exact R2]. intros y Hy [<-|[]]. now apply Hl.
Qed.
Lemma text_drop s o p F : text_at (fst s) o p F -> exists s', drop s p = Ok s' /\ frees s s' F.
Proof.
  destruct o as [t|]; cbn [text_at].
  - intros [B ->]. apply (drop_frees s p _ B).
  - intros [-> ->]. exists s. split; [reflexivity|apply frees_nil].
Qed.
Lemma bundle_free_ok ms : Forall Qfree ms -> forall s b F, bundle_at (fst s) ms b F -> NoDup F -> freeing (fun f => bundle_free f s b) s F.
Proof.
  intros Hm s b F (hd & tl & F' & B & -> & C) ND. inversion_clear ND as [|? ? Hb N3].
  destruct (msgs_free_ok ms Hm s hd F' C N3) as (N & s1 & E1 & R1). destruct (frees_with s s1 b _ F' B Hb R1) as (s2 & E2 & R2).
  exists (S N), s2. split; [|exact R2]. intros [|f] Hf; [lia|]. cbn [bundle_free]. destruct (Z.eqb_spec b 0) as [E0|_]; [destruct B; contradiction|].
  rewrite (bundle_block s b _ _ _ B). cbn [bind]. rewrite (E1 f) by lia. exact E2.
Qed.
Lemma free_all : (forall a, Pfree a) /\ (forall m, Qfree m).
Proof.
  assert (K1 : forall t w, Pfree (TVal t w)).
  { intros t w s l n F (B & H1 & H2 & H3 & ->) _. destruct (drop_frees s l _ B) as (s2 & E & R). exists 1%nat, s2. split; [|exact R].
    intros [|f] Hf; [lia|]. cbn [atom_free]. destruct (Z.eqb_spec l 0) as [E0|_]; [destruct B; contradiction|]. rewrite (atom_block s l _ _ _ B). cbn [bind].
    destruct (Z.eqb_spec t 115); [contradiction|]. destruct (Z.eqb_spec t 46); [contradiction|]. destruct (Z.eqb_spec t 98); [contradiction|]. exact E. }
  assert (K2 : forall t, Pfree (TStr t)).
  { intros t s l n F (p & B & C & ->) ND. inversion_clear ND as [|? ? Hl _]. destruct (drop_frees s p _ C) as (s1 & E1 & R1).
    destruct (frees_with s s1 l _ [p] B Hl R1) as (s2 & E2 & R2). exists 1%nat, s2. split; [|exact R2].
    intros [|f] Hf; [lia|]. cbn [atom_free]. destruct (Z.eqb_spec l 0) as [E0|_]; [destruct B; contradiction|]. rewrite (atom_block s l _ _ _ B). cbn [bind Z.eqb Pos.eqb].
    rewrite E1. exact E2. }
  assert (K3 : forall t, Pfree (TBlob t)).
  { intros t s l n F (p & B & C & ->) ND. inversion_clear ND as [|? ? Hl _]. destruct (drop_frees s p _ C) as (s1 & E1 & R1).
    destruct (frees_with s s1 l _ [p] B Hl R1) as (s2 & E2 & R2). exists 1%nat, s2. split; [|exact R2].
    intros [|f] Hf; [lia|]. cbn [atom_free]. destruct (Z.eqb_spec l 0) as [E0|_]; [destruct B; contradiction|]. rewrite (atom_block s l _ _ _ B). cbn [bind Z.eqb Pos.eqb].
    rewrite E1. exact E2. }
  assert (K4 : forall ms, Forall Qfree ms -> Pfree (TBun ms)).
  { intros ms Hm s l n F (p & F' & B & -> & C) ND. inversion_clear ND as [|? ? Hl N3]. destruct (bundle_free_ok ms Hm s p F' C N3) as (N & s1 & E1 & R1).
    destruct (frees_with s s1 l _ F' B Hl R1) as (s2 & E2 & R2). exists (S N), s2. split; [|exact R2].
    intros [|f] Hf; [lia|]. cbn [atom_free]. destruct (Z.eqb_spec l 0) as [E0|_]; [destruct B; contradiction|]. rewrite (atom_block s l _ _ _ B). cbn [bind Z.eqb Pos.eqb].
    rewrite (E1 f) by lia. exact E2. }
  assert (K5 : forall a args, Forall Pfree args -> Qfree (TMsg a args)).
  { intros a args Ha s l n F (p & hd & tl & F1 & F2 & B & -> & C & D) ND. inversion_clear ND as [|? ? Hl N3]. destruct (NoDup_split _ _ N3) as (N1 & N2 & Dj).
    destruct (text_drop s a p F1 C) as (s1 & E1 & R1).
    assert (D1 : segment (arg_at (fst s1)) 0 args hd F2).
    { apply (args_frame (fst s)); [|exact D]. apply (frees_agree _ _ _ _ R1). intros y Hy Hy2. now apply (Dj y). }
    destruct (args_free_ok args Ha s1 hd F2 D1 N2) as (N & s2 & E2 & R2).
    destruct (frees_with s s2 l _ (F1 ++ F2) B Hl (frees_app _ _ _ _ _ Dj R1 R2)) as (s3 & E3 & R3). exists (S N), s3. split; [|exact R3].
    intros [|f] Hf; [lia|]. cbn [msg_free]. destruct (Z.eqb_spec l 0) as [E0|_]; [destruct B; contradiction|]. rewrite (msg_block s l _ _ _ _ _ B). cbn [bind].
    rewrite E1. cbn [bind]. rewrite (E2 f) by lia. exact E3. }
  split; [exact (targ_all Pfree Qfree K1 K2 K3 K4 K5)|exact (tmsg_all Pfree Qfree K1 K2 K3 K4 K5)].
Qed.

(** * Copying *)
(** The block of an argument, and the argument when only its [next] is another. *)
Lemma arg_cell h a l n F : arg_at h a l n F -> NoDup F -> exists t w F', block h l (HAtom t w n) /\ F = l :: F' /\
  forall h' n', h' l = Some (HAtom t w n') -> agree h h' F' -> arg_at h' a l n' F.
Proof.
  intros H ND. destruct a as [t w|t|b|ms]; cbn [arg_at] in H.
  - destruct H as (B & H1 & H2 & H3 & ->). exists t, w, []. split; [exact B|]. split; [reflexivity|]. intros h' n' E _. split; [split; [exact (proj1 B)|exact E]|now repeat split].
  - destruct H as (p & B & C & ->). exists 115, p, [p]. split; [exact B|]. split; [reflexivity|]. intros h' n' E A. exists p. split; [split; [exact (proj1 B)|exact E]|].
    split; [|reflexivity]. apply (block_agree h h' [p]); [exact A|now left|exact C].
  - destruct H as (p & B & C & ->). exists 98, p, [p]. split; [exact B|]. split; [reflexivity|]. intros h' n' E A. exists p. split; [split; [exact (proj1 B)|exact E]|].
    split; [|reflexivity]. apply (block_agree h h' [p]); [exact A|now left|exact C].
  - destruct H as (p & F' & B & -> & hd & tl & F2 & C & -> & D). exists 46, p, (p :: F2). split; [exact B|]. split; [reflexivity|]. intros h' n' E A.
    exists p, (p :: F2). split; [split; [exact (proj1 B)|exact E]|]. split; [reflexivity|]. exists hd, tl, F2.
    split; [apply (block_agree h h' (p :: F2)); [exact A|now left|exact C]|]. split; [reflexivity|]. apply (msgs_frame h h'); [|exact D]. intros y Hy. apply A. now right.
Qed.

Section Copy.
Context (bundle_copy : mem -> Z -> res (Z * mem)).
Lemma atom_copy_ok s x a n F : sound s -> arg_at (fst s) x a n F -> match x with TBun _ => False | _ => True end ->
  exists d G s', atom_copy bundle_copy s a = Ok (d, s') /\ sound s' /\ grows s s' /\ arg_at (fst s') x d 0 G /\ fills G (snd s) (snd s').
Proof.
  intros Hs C Hf. pose proof (there_below s F Hs (proj1 (there_all (fst s)) _ _ _ _ C)) as T.
  set (d := snd s). assert (Hd : d <> 0) by (destruct Hs; unfold d; lia).
  assert (K : forall t w, block (fst s) a (HAtom t w n) -> t = 115 \/ t = 98 -> In w F -> forall c, block (fst s) w c ->
    (if t =? 115 then exists x, c = HText x else exists x, c = HBlob x) ->
    atom_copy bundle_copy s a = Ok (d, (upd (upd (upd (fst s) d (Some (HAtom t 0 0))) (d + 1) (Some c)) d (Some (HAtom t (d + 1) 0)), d + 1 + 1))).
  { intros t w B Ht Hw c Bc Hc. unfold atom_copy. destruct (Z.eqb_spec a 0) as [E0|_]; [destruct B; contradiction|]. rewrite (atom_block s a _ _ _ B). cbn [bind].
    unfold alloc at 1. fold d. set (s1 := (upd (fst s) d (Some (HAtom t 0 0)), d + 1) : mem).
    assert (Bc1 : block (fst s1) w c). { destruct Bc as [B0 Bc]. split; [exact B0|]. cbn [fst s1]. rewrite upd_other; [exact Bc|]. destruct (T w Hw). unfold d. lia. }
    set (s2 := (upd (fst s1) (d + 1) (Some c), d + 1 + 1) : mem).
    assert (Bd : block (fst s2) d (HAtom t 0 0)). { split; [exact Hd|]. cbn [fst s2]. rewrite upd_other by lia. cbn [fst s1]. apply upd_same. }
    destruct Ht as [-> | ->]; cbn [Z.eqb Pos.eqb] in *; destruct Hc as [y ->]; [rewrite (text_block s1 w y Bc1)|rewrite (blob_block s1 w y Bc1)]; cbn [bind]; unfold alloc;
      change (snd s1) with (d + 1); fold s2; rewrite (put_block s2 d _ _ Bd); reflexivity. }
  assert (K2 : forall t c, let h' := upd (upd (upd (fst s) d (Some (HAtom t 0 0))) (d + 1) (Some c)) d (Some (HAtom t (d + 1) 0)) in
    sound (h', d + 1 + 1) /\ grows s (h', d + 1 + 1) /\ block h' d (HAtom t (d + 1) 0) /\ block h' (d + 1) c /\ fills [d; d + 1] d (d + 1 + 1)).
  { intros t c h'. assert (Hs' : sound (h', d + 1 + 1)).
    { apply (sound_upd (upd (upd (fst s) d (Some (HAtom t 0 0))) (d + 1) (Some c), d + 1 + 1)); cbn [snd]; [|lia].
      apply (sound_alloc (upd (fst s) d (Some (HAtom t 0 0)), d + 1)). now apply (sound_alloc s). }
    split; [exact Hs'|]. split; [split; cbn [fst snd]; [fold d; lia|]; intros y Hy; unfold h'; rewrite !upd_other by (unfold d; lia); reflexivity|].
    split; [split; [exact Hd|unfold h'; apply upd_same]|]. split; [split; [destruct Hs; unfold d; lia|unfold h'; rewrite upd_other by lia; apply upd_same]|].
    apply fills_cons; [lia|]. apply fills_cons; [lia|]. apply fills_nil. }
  destruct x as [t w|t|b|ms]; [| | |contradiction].
  - destruct C as (B & H1 & H2 & H3 & ->).
    exists d, [d], (upd (upd (fst s) d (Some (HAtom t 0 0))) d (Some (HAtom t w 0)), d + 1). split.
    + unfold atom_copy. destruct (Z.eqb_spec a 0) as [E0|_]; [destruct B; contradiction|]. rewrite (atom_block s a _ _ _ B). cbn [bind]. unfold alloc. fold d.
      destruct (Z.eqb_spec t 115); [contradiction|]. destruct (Z.eqb_spec t 46); [contradiction|]. destruct (Z.eqb_spec t 98); [contradiction|]. cbn [bind].
      rewrite (put_block (upd (fst s) d (Some (HAtom t 0 0)), d + 1) d (HAtom t 0 0)); [reflexivity|]. split; [exact Hd|cbn [fst]; apply upd_same].
    + split; [apply (sound_upd (upd (fst s) d (Some (HAtom t 0 0)), d + 1)); [now apply (sound_alloc s)|cbn [snd]; lia]|].
      split; [split; cbn [fst snd]; [fold d; lia|intros y Hy; rewrite !upd_other by (unfold d; lia); reflexivity]|].
      split; [|cbn [snd]; apply fills_cons; [lia|apply fills_nil]].
      split; [split; [exact Hd|cbn [fst]; apply upd_same]|now repeat split].
  - destruct C as (p & B & C & ->). destruct (K2 115 (HText t)) as (R1 & R2 & R3 & R4 & R5).
    eexists d, [d; d + 1], _. split; [apply (K 115 p B); [now left|right; now left|exact C|cbn [Z.eqb Pos.eqb]; now exists t]|].
    split; [exact R1|]. split; [exact R2|]. split; [|exact R5]. exists (d + 1). now split.
  - destruct C as (p & B & C & ->). destruct (K2 98 (HBlob b)) as (R1 & R2 & R3 & R4 & R5).
    eexists d, [d; d + 1], _. split; [apply (K 98 p B); [now right|right; now left|exact C|cbn [Z.eqb Pos.eqb]; now exists b]|].
    split; [exact R1|]. split; [exact R2|]. split; [|exact R5]. exists (d + 1). now split.
Qed.

(** The arguments [args] of a message with these [arghead] and [argtail]. *)
Definition own (h : Z -> option cell) (args : list targ) (hd tl : Z) (D : list Z) : Prop :=
  (args = [] /\ hd = 0 /\ tl = 0 /\ D = []) \/
  exists init x Di Dx, args = init ++ [x] /\ D = Di ++ Dx /\ hd <> 0 /\ segment (arg_at h) tl init hd Di /\ arg_at h x tl 0 Dx.
Lemma own_segment h args hd tl D : own h args hd tl D -> segment (arg_at h) 0 args hd D.
Proof.
  intros [(-> & -> & -> & ->)|(init & x & Di & Dx & -> & -> & _ & H1 & H2)]; [now split|]. apply (segment_app _ tl); [exact H1|now apply segment_one].
Qed.
Lemma own_agree h h' args hd tl D : agree h h' D -> own h args hd tl D -> own h' args hd tl D.
Proof.
  intros A [H|(init & x & Di & Dx & -> & -> & Hh & H1 & H2)]; [now left|]. apply agree_app in A as [A1 A2]. right. exists init, x, Di, Dx.
  split; [reflexivity|]. split; [reflexivity|]. split; [exact Hh|]. split; [now apply (args_frame h)|now apply (proj1 (frame h h'))].
Qed.
Lemma append_ok s m ap c hd tl nx args D d x G : sound s -> block (fst s) m (HMsg ap c hd tl nx) -> own (fst s) args hd tl D -> arg_at (fst s) x d 0 G ->
  NoDup (m :: D ++ G) ->
  exists s' hd', append_atom s m d = Ok s' /\ sound s' /\ snd s' = snd s /\ block (fst s') m (HMsg ap (c + 1) hd' d nx) /\
    own (fst s') (args ++ [x]) hd' d (D ++ G) /\ forall y, y <> m -> ~ In y (D ++ G) -> fst s' y = fst s y.
Proof.
  intros Hs Bm Ho Hx ND. inversion_clear ND as [|? ? Hm ND']. destruct (NoDup_split _ _ ND') as (ND1 & ND2 & Dj).
  destruct (arg_cell _ _ _ _ _ Hx ND2) as (t & w & G' & Bd & -> & Kd).
  assert (Hmd : m <> d) by (intros ->; apply Hm, in_or_app; right; now left).
  assert (Lm : m < snd s) by (apply below; [exact Hs|destruct Bm; congruence]).
  assert (Ld : d < snd s) by (apply below; [exact Hs|destruct Bd; congruence]).
  set (s1 := (upd (fst s) d (Some (HAtom t w 0)), snd s) : mem).
  assert (Hs1 : sound s1) by (now apply sound_upd).
  assert (O1 : forall y, fst s1 y = fst s y).
  { intros y. cbn [fst s1]. destruct (Z.eq_dec y d) as [->|Hy]; [rewrite upd_same; now destruct Bd|now apply upd_other]. }
  assert (Bm1 : block (fst s1) m (HMsg ap c hd tl nx)) by (split; [exact (proj1 Bm)|rewrite O1; exact (proj2 Bm)]).
  unfold append_atom. rewrite (msg_block s m _ _ _ _ _ Bm). cbn [bind]. rewrite (atom_block s d _ _ _ Bd). cbn [bind]. rewrite (put_block s d _ _ Bd). cbn [bind]. fold s1.
  destruct Ho as [(-> & -> & -> & ->)|(init & z & Di & Dx & -> & -> & Hh & H1 & H2)].
  - cbn [Z.eqb]. rewrite (put_block s1 m _ _ Bm1). exists (upd (fst s1) m (Some (HMsg ap (c + 1) d d nx)), snd s1), d. split; [reflexivity|].
    split; [now apply sound_upd|]. split; [reflexivity|]. split; [split; [exact (proj1 Bm)|cbn [fst]; apply upd_same]|]. split.
    + right. exists [], x, [], (d :: G'). split; [reflexivity|]. split; [reflexivity|]. split; [exact (proj1 Bd)|]. split; [now split|].
      apply (proj1 (frame (fst s) _)) with (2 := Hx). intros y Hy. cbn [fst]. rewrite upd_other, O1; [reflexivity|]. intros ->. apply Hm, in_or_app. now right.
    + intros y Hy _. cbn [fst]. rewrite upd_other by exact Hy. apply O1.
  - destruct (Z.eqb_spec hd 0); [contradiction|]. destruct (NoDup_split _ _ ND1) as (NDi & NDx & Dj2).
    destruct (arg_cell _ _ _ _ _ H2 NDx) as (t2 & w2 & D' & Bt & -> & Kt).
    assert (Bt1 : block (fst s1) tl (HAtom t2 w2 0)) by (split; [exact (proj1 Bt)|rewrite O1; exact (proj2 Bt)]).
    rewrite (atom_block s1 tl _ _ _ Bt1). cbn [bind]. rewrite (put_block s1 tl _ _ Bt1). cbn [bind]. set (s2 := (upd (fst s1) tl (Some (HAtom t2 w2 d)), snd s1) : mem).
    assert (Hmt : m <> tl) by (intros ->; apply Hm, in_or_app; left; apply in_or_app; right; now left).
    assert (Hdt : d <> tl) by (intros ->; apply (Dj tl); [apply in_or_app; right; now left|now left]).
    assert (Bm2 : block (fst s2) m (HMsg ap c hd tl nx)) by (split; [exact (proj1 Bm)|cbn [fst s2]; rewrite upd_other by exact Hmt; exact (proj2 Bm1)]).
    assert (Hs2 : sound s2) by (apply sound_upd; [exact Hs1|apply below; [exact Hs1|destruct Bt1; congruence]]).
    rewrite (put_block s2 m _ _ Bm2). exists (upd (fst s2) m (Some (HMsg ap (c + 1) hd d nx)), snd s2), hd. split; [reflexivity|].
    split; [now apply sound_upd|]. split; [reflexivity|]. split; [split; [exact (proj1 Bm)|cbn [fst]; apply upd_same]|].
    assert (O3 : forall y, y <> m -> y <> tl -> fst (upd (fst s2) m (Some (HMsg ap (c + 1) hd d nx)), snd s2) y = fst s y).
    { intros y H3 H4. cbn [fst]. rewrite upd_other by exact H3. cbn [fst s2]. rewrite upd_other by exact H4. apply O1. }
    split.
    + right. exists (init ++ [z]), x, (Di ++ tl :: D'), (d :: G'). split; [reflexivity|]. split; [reflexivity|]. split; [exact Hh|]. split.
      * apply (segment_app _ tl).
        -- apply (args_frame (fst s)); [|exact H1]. intros y Hy. apply O3; [intros ->; apply Hm, in_or_app; left; apply in_or_app; now left|].
           intros ->. apply (Dj2 tl Hy). now left.
        -- apply segment_one. apply Kt; [cbn [fst]; rewrite upd_other by congruence; cbn [fst s2]; apply upd_same|].
           intros y Hy. apply O3; [intros ->; apply Hm, in_or_app; left; apply in_or_app; right; now right|]. intros ->. inversion_clear NDx. contradiction.
      * apply (proj1 (frame (fst s) _)) with (2 := Hx). intros y Hy. apply O3; [intros ->; apply Hm, in_or_app; now right|].
        intros ->. apply (Dj tl); [apply in_or_app; right; now left|exact Hy].
    + intros y Hy Hn. apply O3; [exact Hy|]. intros ->. apply Hn, in_or_app. left. apply in_or_app. right. now left.
Qed.
(** The loop over the arguments of the original. *)
Lemma copy_args_ok rest : flat rest -> forall s m a F ap c hd tl nx args D, sound s -> segment (arg_at (fst s)) 0 rest a F ->
  block (fst s) m (HMsg ap c hd tl nx) -> own (fst s) args hd tl D -> NoDup (m :: D) -> ~ In m F -> (forall y, In y D -> ~ In y F) -> (forall y, In y D -> y < snd s) ->
  exists N s' hd' tl' G, (forall f, (N <= f)%nat -> copy_args bundle_copy f s m a = Ok s') /\ sound s' /\ snd s <= snd s' /\
    block (fst s') m (HMsg ap (c + zlen rest) hd' tl' nx) /\ own (fst s') (args ++ rest) hd' tl' (D ++ G) /\ fills G (snd s) (snd s') /\
    forall y, y < snd s -> y <> m -> ~ In y D -> fst s' y = fst s y.
Proof.
  induction 1 as [|x rest Hx _ IH]; intros s m a F ap c hd tl nx args D Hs C Bm Ho ND Hm Dj LD; cbn [segment] in C.
  { destruct C as [-> ->]. exists 1%nat, s, hd, tl, []. split; [intros [|f] Hf; [lia|reflexivity]|]. split; [exact Hs|]. split; [lia|].
    split; [now rewrite Z.add_0_r|]. rewrite !app_nil_r. split; [exact Ho|]. split; [apply fills_nil|reflexivity]. }
  destruct C as (next & F1 & F2 & -> & C1 & C2).
  pose proof (there_below s F1 Hs (proj1 (there_all _) _ _ _ _ C1)) as T1. pose proof (there_below s F2 Hs (args_there _ _ _ _ _ C2)) as T2.
  destruct (arg_next _ _ _ _ _ C1) as (ta & wa & Ba).
  assert (Lm : m < snd s) by (apply below; [exact Hs|destruct Bm; congruence]).
  destruct (atom_copy_ok s x a next F1 Hs C1 Hx) as (d & Fd & s1 & E1 & Hs1 & [G1 G2] & Cd & [NDd I]).
  assert (Bm1 : block (fst s1) m (HMsg ap c hd tl nx)) by (destruct Bm as [B0 B]; split; [exact B0|]; rewrite G2; assumption).
  assert (Ho1 : own (fst s1) args hd tl D) by (apply (own_agree (fst s)); [|exact Ho]; intros y Hy; apply G2, LD, Hy).
  assert (NDn : NoDup (m :: D ++ Fd)).
  { inversion_clear ND as [|? ? HmD NDD]. constructor.
    - rewrite in_app_iff, I. intros [H|H]; [contradiction|lia].
    - apply NoDup_both; [exact NDD|exact NDd|]. intros y Hy. apply LD in Hy. rewrite I. lia. }
  destruct (append_ok s1 m ap c hd tl nx args D d x Fd Hs1 Bm1 Ho1 Cd NDn) as (s2 & hd2 & E2 & Hs2 & Ls2 & Bm2 & Ho2 & O2).
  assert (O12 : forall y, y < snd s -> y <> m -> ~ In y D -> fst s2 y = fst s y).
  { intros y H1 H2 H3. rewrite O2; [now apply G2|exact H2|]. rewrite in_app_iff, I. intros [H|H]; [contradiction|lia]. }
  destruct (IH s2 m next F2 ap (c + 1) hd2 d nx (args ++ [x]) (D ++ Fd) Hs2) as (N & s3 & hd3 & tl3 & G & E3 & Hs3 & L3 & B3 & Ho3 & Fi3 & O3).
  - apply (args_frame (fst s)); [|exact C2]. intros y Hy. apply O12; [now apply T2|intros ->; apply Hm, in_or_app; now right|]. intros Hy2. apply (Dj y Hy2), in_or_app. now right.
  - exact Bm2.
  - exact Ho2.
  - exact NDn.
  - intros H. apply Hm, in_or_app. now right.
  - intros y Hy Hy2. apply in_app_or in Hy as [Hy|Hy]; [apply (Dj y Hy), in_or_app; now right|]. apply I in Hy. apply T2 in Hy2. lia.
  - rewrite Ls2. intros y Hy. apply in_app_or in Hy as [Hy|Hy]; [apply LD in Hy; lia|]. apply I in Hy. lia.
  - exists (S N), s3, hd3, tl3, (Fd ++ G). split; [|split; [exact Hs3|split; [lia|split; [|split; [|split]]]]].
    + intros [|f] Hf; [lia|]. cbn [copy_args]. destruct (Z.eqb_spec a 0) as [E0|_]; [destruct Ba; contradiction|]. rewrite (atom_block s a _ _ _ Ba). cbn [bind].
      rewrite E1. cbn [bind]. rewrite E2. cbn [bind]. apply E3. lia.
    + rewrite zlen_cons. replace (c + (1 + zlen rest)) with (c + 1 + zlen rest) by lia. exact B3.
    + rewrite <- app_assoc in Ho3. cbn [app] in Ho3. rewrite <- app_assoc in Ho3. exact Ho3.
    + rewrite Ls2 in *. apply (fills_app _ _ _ (snd s1)); [lia|lia|now split|exact Fi3].
    + intros y H1 H2 H3. rewrite O3; [now apply O12|rewrite Ls2; lia|exact H2|]. rewrite in_app_iff, I. intros [H|H]; [contradiction|lia].
Qed.
(** A copy into a message that has no arguments any more. *)
Lemma deep_copy_ok s m old c hd tl nx src n ao args F : sound s -> flat args -> msg_at (fst s) (TMsg ao args) src n F ->
  block (fst s) m (HMsg old c hd tl nx) -> ~ In m F -> (ao = None -> old = 0) ->
  exists N s' G, (forall f, (N <= f)%nat -> deep_copy bundle_copy f s m src = Ok (m, s')) /\ sound s' /\ snd s <= snd s' /\
    msg_at (fst s') (TMsg ao args) m 0 (m :: G) /\ fills G (snd s) (snd s') /\ (forall y, y < snd s -> y <> m -> fst s' y = fst s y) /\ tail_right (fst s') args m.
Proof.
  intros Hs Hf C Bm Hm Hold. pose proof (there_below s F Hs (proj2 (there_all _) _ _ _ _ C)) as T.
  destruct C as (p & shd & stl & F1 & F2 & B & -> & Ct & Ca).
  assert (Lm : m < snd s) by (apply below; [exact Hs|destruct Bm; congruence]).
  assert (H0 : (m =? 0) = false) by (destruct (Z.eqb_spec m 0); [destruct Bm; contradiction|reflexivity]).
  (* the address *)
  assert (KA : exists ap T1 s1, (do ' (from, _, _, _, _) <- get_msg s src; if from =? 0 then Ok (old, s) else do x <- get_text s from; Ok (alloc s (HText x))) = Ok (ap, s1) /\
    sound s1 /\ snd s <= snd s1 /\ text_at (fst s1) ao ap T1 /\ fills T1 (snd s) (snd s1) /\ forall y, y < snd s -> fst s1 y = fst s y).
  { rewrite (msg_block s src _ _ _ _ _ B). cbn [bind]. destruct ao as [t|]; cbn [text_at] in Ct.
    - destruct Ct as [Ct ->]. destruct (Z.eqb_spec p 0) as [E|_]; [destruct Ct; contradiction|]. rewrite (text_block s p t Ct). cbn [bind]. unfold alloc.
      exists (snd s), [snd s], (upd (fst s) (snd s) (Some (HText t)), snd s + 1). split; [reflexivity|]. split; [now apply sound_alloc|]. split; [cbn [snd]; lia|].
      split; [split; [|reflexivity]; split; [destruct Hs; lia|cbn [fst]; apply upd_same]|]. split; [cbn [snd]; apply fills_cons; [lia|apply fills_nil]|].
      intros y Hy. cbn [fst]. apply upd_other. lia.
    - destruct Ct as [-> ->]. cbn [Z.eqb]. exists old, [], s. split; [reflexivity|]. split; [exact Hs|]. split; [lia|]. split; [split; [now apply Hold|reflexivity]|].
      split; [apply fills_nil|reflexivity]. }
  destruct KA as (ap & T1 & s1 & EA & Hs1 & L1 & Ct1 & [NT IT] & O1). rewrite (msg_block s src _ _ _ _ _ B) in EA. cbn [bind] in EA.
  assert (Bm1 : block (fst s1) m (HMsg old c hd tl nx)) by (destruct Bm as [B0 B']; split; [exact B0|]; rewrite O1; assumption).
  set (s2 := (upd (fst s1) m (Some (HMsg ap 0 0 0 nx)), snd s1) : mem).
  assert (Hs2 : sound s2) by (apply sound_upd; [exact Hs1|lia]).
  assert (O2 : forall y, y < snd s -> y <> m -> fst s2 y = fst s y) by (intros y H1 H2; cbn [fst s2]; rewrite upd_other by exact H2; now apply O1).
  assert (HmF : ~ In m F2) by (intros H; apply Hm; right; apply in_or_app; now right).
  assert (Bm2 : block (fst s2) m (HMsg ap 0 0 0 nx)) by (split; [exact (proj1 Bm)|cbn [fst s2]; apply upd_same]).
  destruct (copy_args_ok args Hf s2 m shd F2 ap 0 0 0 nx [] [] Hs2) as (N & s3 & hd3 & tl3 & G & E3 & Hs3 & L3 & B3 & Ho3 & [NG IG] & O3).
  - apply (args_frame (fst s)); [|exact Ca]. intros y Hy. apply O2; [|intros ->; contradiction]. apply T. right. apply in_or_app. now right.
  - exact Bm2.
  - now left.
  - constructor; [intros []|constructor].
  - exact HmF.
  - intros y [].
  - intros y [].
  - cbn [snd s2 app] in *. rewrite Z.add_0_l in B3.
    exists N, (upd (fst s3) m (Some (HMsg ap (zlen args) hd3 tl3 0)), snd s3), (T1 ++ G). split; [|split; [|split; [cbn [snd]; lia|split; [|split; [|split]]]]].
    + intros f Hf'. unfold deep_copy. rewrite H0. rewrite (msg_block s src _ _ _ _ _ B). cbn [bind]. rewrite (msg_block s m _ _ _ _ _ Bm). cbn [bind]. rewrite EA. cbn [bind].
      rewrite (put_block s1 m _ _ Bm1). cbn [bind]. fold s2. rewrite (E3 f) by lia. cbn [bind]. rewrite (msg_block s3 m _ _ _ _ _ B3). cbn [bind].
      rewrite (put_block s3 m _ _ B3). reflexivity.
    + apply sound_upd; [exact Hs3|lia].
    + exists ap, hd3, tl3, T1, G. split; [split; [exact (proj1 Bm)|cbn [fst]; apply upd_same]|]. split; [reflexivity|]. split.
      * apply (text_at_agree (fst s1)); [|exact Ct1]. intros y Hy. apply IT in Hy. cbn [fst]. rewrite upd_other by lia. rewrite O3; [cbn [fst s2]; apply upd_other|lia| |intros []]; lia.
      * apply (args_frame (fst s3)); [|now apply own_segment with (tl := tl3)]. intros y Hy. apply IG in Hy. cbn [fst]. apply upd_other. lia.
    + cbn [snd]. apply (fills_app _ _ _ (snd s1)); [lia|lia|now split|now split].
    + intros y H1 H2. cbn [fst]. rewrite upd_other by exact H2. rewrite O3; [now apply O2|lia|exact H2|intros []].
    + exists ap, (zlen args), hd3, tl3, 0. split; [cbn [fst]; apply upd_same|].
      assert (Ho4 : own (upd (fst s3) m (Some (HMsg ap (zlen args) hd3 tl3 0))) args hd3 tl3 G)
        by (apply (own_agree (fst s3)); [|exact Ho3]; intros y Hy; apply IG in Hy; apply upd_other; lia).
      destruct Ho4 as [(-> & _ & -> & _)|(init & x & Di & Dx & -> & _ & _ & X1 & X2)]; [now left|]. right. now exists init, x, Di, Dx.
Qed.
End Copy.
