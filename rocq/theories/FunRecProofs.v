(** Proofs about the memory of a record of a function. *)

From Coq Require Import ZArith List Bool Lia Permutation.
From Verif Require Import Base FunRecModel FunRecSpec.
Import ListNotations.
Open Scope Z_scope.

Definition opt (p : Z) : list Z := if p =? 0 then [] else [p].
Definition opts (ps : list Z) : list Z := flat_map opt ps.

Definition text_at (m : mem) (p : Z) (o : option (list Z)) : Prop :=
  match o with None => p = 0 | Some s => p <> 0 /\ m p = Some (OText s) end.
Definition types_at (m : mem) (p : Z) (o : option (list Z)) : Prop :=
  match o with None => p = 0 | Some s => p <> 0 /\ m p = Some (OTypes s) end.
Definition names_at (m : mem) (p num : Z) (o : option (list (option (list Z)))) (ps : list Z) : Prop :=
  match o with
  | None => p = 0 /\ ps = [] /\ num = 0
  | Some ns => p <> 0 /\ m p = Some (ONames ps) /\ num = zlen ns /\ Forall2 (text_at m) ps ns
  end.

Definition foot (m : mem) (n : Z) (F : list Z) : Prop :=
  NoDup F /\ Forall (fun a => 0 < a < n) F /\ (forall a, m a <> None <-> In a F) /\ 0 < n.

Definition fp (r : frec) (rps ops : list Z) : list Z :=
  opt (name r) ++ opt (sig r) ++ (opt (g_names (req r)) ++ opts rps) ++ (opt (g_names (optl r)) ++ opts ops) ++
  opt (g_types (req r)) ++ opt (g_types (optl r)).

Record inv (r : frec) (h : has) (lk rps ops : list Z) : Prop := Inv {
  i_name : text_at (mm r) (name r) (h_name h);
  i_sig : text_at (mm r) (sig r) (h_sig h);
  i_req : names_at (mm r) (g_names (req r)) (g_num (req r)) (h_req h) rps;
  i_opt : names_at (mm r) (g_names (optl r)) (g_num (optl r)) (h_opt h) ops;
  i_reqt : types_at (mm r) (g_types (req r)) (h_reqt h);
  i_optt : types_at (mm r) (g_types (optl r)) (h_optt h);
  i_foot : foot (mm r) (nxt r) (fp r rps ops ++ lk);
  i_rt : h_req h = None -> h_reqt h = None;
  i_ot : h_opt h = None -> h_optt h = None }.

Lemma upd_eq : forall m a o, upd m a o a = o.
Proof. intros. unfold upd. now rewrite Z.eqb_refl. Qed.
Lemma upd_ne : forall m a o b, b <> a -> upd m a o b = m b.
Proof. intros m a o b H. unfold upd. now rewrite (proj2 (Z.eqb_neq b a) H). Qed.
Lemma opt_ne : forall p, p <> 0 -> opt p = [p].
Proof. intros p H. unfold opt. now rewrite (proj2 (Z.eqb_neq p 0) H). Qed.
Lemma opt_in : forall p, p <> 0 -> In p (opt p).
Proof. intros p H. rewrite opt_ne by auto. now left. Qed.

Ltac perm := apply (Permutation_count_occ Z.eq_dec); intros ?x;
  repeat (progress (rewrite ?count_occ_app; cbn [count_occ app])); repeat (destruct (Z.eq_dec _ _)); lia.

Lemma foot_perm : forall m n F G, Permutation F G -> foot m n F -> foot m n G.
Proof.
  intros m n F G P (A & B & C & D). repeat split; auto.
  - eapply Permutation_NoDup; eauto.
  - eapply Permutation_Forall; eauto.
  - intros Ha. eapply Permutation_in; [exact P|]. now apply C.
  - intros Ha. apply C. eapply Permutation_in; [apply Permutation_sym; exact P|exact Ha].
Qed.

Lemma foot_upd : forall m n F a o, In a F -> foot m n F -> foot (upd m a (Some o)) n F.
Proof.
  intros m n F a o Ha (A & B & C & D). split; [exact A|]. split; [exact B|]. split; [|exact D].
  intros b. destruct (Z.eq_dec b a) as [->|N].
  - rewrite upd_eq. split; [auto|discriminate].
  - rewrite upd_ne by auto. apply C.
Qed.

Lemma foot_fresh : forall m n F, foot m n F -> ~ In n F.
Proof. intros m n F (A & B & C & D) H. rewrite Forall_forall in B. apply B in H. lia. Qed.

Lemma foot_alloc : forall m n F o, foot m n F -> foot (upd m n (Some o)) (n + 1) (n :: F).
Proof.
  intros m n F o H. pose proof (foot_fresh _ _ _ H) as Nf. destruct H as (A & B & C & D).
  split; [|split; [|split]].
  - now constructor.
  - constructor; [lia|]. eapply Forall_impl; [|exact B]. cbn. intros; lia.
  - intros a. destruct (Z.eq_dec a n) as [->|N].
    + rewrite upd_eq. split; [now left|discriminate].
    + rewrite upd_ne by auto. rewrite C. cbn. split; [auto|]. intros [E|E]; [congruence|exact E].
  - lia.
Qed.

(** What is said about a block depends on that block only. *)
Lemma text_same : forall m m' p o, (forall a, In a (opt p) -> m' a = m a) -> text_at m p o -> text_at m' p o.
Proof. intros m m' p [s|] H; cbn; auto. intros [A B]. split; auto. rewrite H; auto. now apply opt_in. Qed.
Lemma types_same : forall m m' p o, (forall a, In a (opt p) -> m' a = m a) -> types_at m p o -> types_at m' p o.
Proof. intros m m' p [s|] H; cbn; auto. intros [A B]. split; auto. rewrite H; auto. now apply opt_in. Qed.
Lemma texts_same : forall m m' ps ns, (forall a, In a (opts ps) -> m' a = m a) ->
  Forall2 (text_at m) ps ns -> Forall2 (text_at m') ps ns.
Proof.
  intros m m' ps ns H F. induction F as [|p o ps ns F1 F IH]; constructor.
  - eapply text_same; [|exact F1]. intros a Ha. apply H. apply in_or_app. now left.
  - apply IH. intros a Ha. apply H. apply in_or_app. now right.
Qed.
Lemma names_same : forall m m' p num o ps, (forall a, In a (opt p ++ opts ps) -> m' a = m a) ->
  names_at m p num o ps -> names_at m' p num o ps.
Proof.
  intros m m' p num [ns|] ps H; cbn; auto. intros (A & B & C & D). repeat split; auto.
  - rewrite H; auto. apply in_or_app. left. now apply opt_in.
  - eapply texts_same; [|exact D]. intros a Ha. apply H. apply in_or_app. now right.
Qed.

Lemma copy_ok : forall names m n F m' n' ps, foot m n F -> copy_names m n names = (m', n', ps) ->
  foot m' n' (opts ps ++ F) /\ Forall2 (text_at m') ps names /\ (forall a, In a F -> m' a = m a).
Proof.
  induction names as [|[s|] names IH]; intros m n F m' n' ps H E; cbn [copy_names] in E.
  - injection E as <- <- <-. split; [exact H|]. split; [constructor|auto].
  - destruct (copy_names _ (n + 1) names) as [[m1 n1] ps1] eqn:E1. injection E as <- <- <-.
    assert (NP : n <> 0) by (destruct H as (_ & _ & _ & H); lia).
    destruct (IH _ _ (n :: F) _ _ _ (foot_alloc _ _ _ (OText s) H) E1) as (A & B & C).
    split; [|split].
    + eapply foot_perm; [|exact A]. cbn [opts flat_map]. rewrite (opt_ne n NP). fold (opts ps1).
      cbn [app]. apply Permutation_sym, Permutation_middle.
    + constructor; auto. split; [exact NP|]. rewrite C by (now left). apply upd_eq.
    + intros a Ha. rewrite C by (now right). apply upd_ne. intros ->. now apply (foot_fresh _ _ _ H).
  - destruct (copy_names m n names) as [[m1 n1] ps1] eqn:E1. injection E as <- <- <-.
    destruct (IH _ _ F _ _ _ H E1) as (A & B & C). split; [exact A|]. split; [|exact C].
    constructor; [reflexivity|exact B].
Qed.

Lemma set_args_ok : forall m n g F names types m' n' g', foot m n F ->
  set_args m n g (Some names) types = (m', n', g') ->
  exists ps, names_at m' (g_names g') (g_num g') (Some names) ps /\
    (forall a, In a F -> m' a = m a) /\
    match types with
    | None => g_types g' = g_types g /\ foot m' n' ((opt (g_names g') ++ opts ps) ++ F)
    | Some ts => types_at m' (g_types g') (Some ts) /\
                 foot m' n' (opt (g_types g') ++ (opt (g_names g') ++ opts ps) ++ F)
    end.
Proof.
  intros m n g F names types m' n' g' H E. unfold set_args in E.
  destruct (copy_names _ (n + 1) names) as [[m1 n1] ps] eqn:E1.
  assert (NP : n <> 0) by (destruct H as (_ & _ & _ & H); lia).
  assert (H0 := foot_alloc _ _ _ (ONames []) H).
  destruct (copy_ok _ _ _ _ _ _ _ H0 E1) as (A & B & C).
  set (m2 := upd m1 n (Some (ONames ps))) in *.
  assert (IN : In n (opts ps ++ n :: F)) by (apply in_or_app; right; now left).
  assert (A2 : foot m2 n1 (opts ps ++ n :: F)) by (now apply foot_upd).
  assert (ND : ~ In n (opts ps) /\ ~ In n F).
  { destruct A as (ND & _). apply NoDup_remove_2 in ND. rewrite in_app_iff in ND. tauto. }
  assert (B2 : Forall2 (text_at m2) ps names).
  { eapply texts_same; [|exact B]. intros a Ha. apply upd_ne. intros ->. tauto. }
  assert (C2 : forall a, In a F -> m2 a = m a).
  { intros a Ha. unfold m2. rewrite upd_ne by (intros ->; tauto). rewrite C by (now right).
    apply upd_ne. intros ->. tauto. }
  exists ps. destruct types as [ts|]; injection E as <- <- <-; cbn [g_names g_num g_types].
  - assert (N1 : ~ In n1 (opts ps ++ n :: F)) by (exact (foot_fresh _ _ _ A2)).
    assert (NQ : n1 <> 0) by (destruct A2 as (_ & _ & _ & Q); lia).
    assert (S : forall a, In a (opts ps ++ n :: F) -> upd m2 n1 (Some (OTypes ts)) a = m2 a).
    { intros a Ha. apply upd_ne. intros ->. contradiction. }
    split; [|split; [|split]].
    + split; [exact NP|]. split; [rewrite S by exact IN; apply upd_eq|]. split; [reflexivity|].
      eapply texts_same; [|exact B2]. intros a Ha. apply S. apply in_or_app. now left.
    + intros a Ha. rewrite S; auto. apply in_or_app. right. now right.
    + split; [exact NQ|apply upd_eq].
    + eapply foot_perm; [|apply foot_alloc; exact A2].
      rewrite (opt_ne n NP), (opt_ne n1 NQ). perm.
  - split; [|split; [exact C2|split; [reflexivity|]]].
    + split; [exact NP|]. split; [apply upd_eq|]. split; [reflexivity|exact B2].
    + eapply foot_perm; [|exact A2]. rewrite (opt_ne n NP). perm.
Qed.

Lemma fp_in : forall r rps ops lk a,
  In a (opt (name r)) \/ In a (opt (sig r)) \/ In a (opt (g_names (req r)) ++ opts rps) \/
  In a (opt (g_names (optl r)) ++ opts ops) \/ In a (opt (g_types (req r))) \/ In a (opt (g_types (optl r))) ->
  In a (fp r rps ops ++ lk).
Proof. intros r rps ops lk a H. unfold fp. rewrite !in_app_iff in *. tauto. Qed.

Lemma names_none : forall m p num o ps, names_at m p num o ps -> is_some o = false -> opt p ++ opts ps = [].
Proof. intros m p num [ns|] ps H E; [discriminate|]. destruct H as (-> & -> & _). reflexivity. Qed.
Lemma names_some : forall m p num o ps, names_at m p num o ps -> is_some o = true -> opt p ++ opts ps <> [].
Proof. intros m p num [ns|] ps H E; [|discriminate]. destruct H as [H _]. rewrite opt_ne by auto. discriminate. Qed.
Lemma text_len : forall m p o, text_at m p o -> (opt p = [] <-> is_some o = false).
Proof. intros m p [s|] H; cbn in *; [destruct H as [H _]; rewrite opt_ne by auto; split; discriminate|subst p; split; reflexivity]. Qed.

Ltac same := intros ?a ?Ha; match goal with K : forall a, _ -> _ a = _ a |- _ => apply K end; apply fp_in; tauto.

Lemma app_nil : forall (A : Type) (l1 l2 : list A), l1 ++ l2 = [] <-> l1 = [] /\ l2 = [].
Proof. intros A [|x l1] l2; cbn; split; [auto|tauto|discriminate|intros [? _]; discriminate]. Qed.

Lemma step_ok : forall r h lk rps ops c, inv r h lk rps ops ->
  exists X rps' ops', inv (do_setting r c) (apply h c) (X ++ lk) rps' ops' /\
    (X = [] <-> overwrites h c = false) /\
    (forall a, In a (fp r rps ops ++ lk) -> mm (do_setting r c) a = mm r a).
Proof.
  intros r h lk rps ops c [I1 I2 I3 I4 I5 I6 IF IR IP].
  assert (NP : nxt r <> 0) by (destruct IF as (_ & _ & _ & Q); lia).
  assert (FR := foot_fresh _ _ _ IF).
  assert (K1 : forall o a, In a (fp r rps ops ++ lk) -> upd (mm r) (nxt r) (Some o) a = mm r a).
  { intros o a Ha. apply upd_ne. intros ->. contradiction. }
  destruct c as [s|s|names types|names types]; cbn [do_setting apply overwrites].
  - exists (opt (name r)), rps, ops. assert (K := K1 (OText s)). split; [|split; [|exact K]].
    + split; cbn [set_name mm name sig req optl nxt h_name h_sig h_req h_reqt h_opt h_optt].
      * split; [exact NP|apply upd_eq].
      * eapply text_same; [same|exact I2].
      * eapply names_same; [same|exact I3].
      * eapply names_same; [same|exact I4].
      * eapply types_same; [same|exact I5].
      * eapply types_same; [same|exact I6].
      * eapply foot_perm; [|apply foot_alloc; exact IF]. unfold fp. cbn [set_name name sig req optl].
        rewrite (opt_ne _ NP). perm.
      * exact IR.
      * exact IP.
    + rewrite (text_len _ _ _ I1). tauto.
  - exists (opt (sig r)), rps, ops. assert (K := K1 (OText s)). split; [|split; [|exact K]].
    + split; cbn [set_signature mm name sig req optl nxt h_name h_sig h_req h_reqt h_opt h_optt].
      * eapply text_same; [same|exact I1].
      * split; [exact NP|apply upd_eq].
      * eapply names_same; [same|exact I3].
      * eapply names_same; [same|exact I4].
      * eapply types_same; [same|exact I5].
      * eapply types_same; [same|exact I6].
      * eapply foot_perm; [|apply foot_alloc; exact IF]. unfold fp. cbn [set_signature name sig req optl].
        rewrite (opt_ne _ NP). perm.
      * exact IR.
      * exact IP.
    + rewrite (text_len _ _ _ I2). tauto.
  - destruct names as [names|].
    2:{ exists [], rps, ops. unfold set_required. cbn [set_args]. split; [split; auto|split; [tauto|auto]]. }
    unfold set_required. destruct (set_args (mm r) (nxt r) (req r) (Some names) types) as [[m' n'] g'] eqn:E.
    destruct (set_args_ok _ _ _ _ _ _ _ _ _ IF E) as (ps & N & K & T).
    exists ((opt (g_names (req r)) ++ opts rps) ++ (if is_some types then opt (g_types (req r)) else [])), ps, ops.
    split; [|split; [|exact K]].
    + rewrite <- app_assoc. split; cbn [mm name sig req optl nxt h_name h_sig h_req h_reqt h_opt h_optt].
      * eapply text_same; [same|exact I1].
      * eapply text_same; [same|exact I2].
      * exact N.
      * eapply names_same; [same|exact I4].
      * destruct types as [ts|]; cbn [or_else]; [apply T|].
        destruct T as [-> _]. eapply types_same; [same|exact I5].
      * eapply types_same; [same|exact I6].
      * unfold fp in *. cbn [name sig req optl] in *. destruct types as [ts|]; cbn [is_some]; destruct T as [T1 T2].
        -- eapply foot_perm; [|exact T2]. perm.
        -- rewrite T1. eapply foot_perm; [|exact T2]. perm.
      * discriminate.
      * exact IP.
    + destruct (is_some (h_req h)) eqn:S.
      * assert (Q := names_some _ _ _ _ _ I3 S). rewrite app_nil. split; [tauto|discriminate].
      * rewrite (names_none _ _ _ _ _ I3 S). cbn [app].
        assert (Q : h_req h = None) by (destruct (h_req h); [discriminate|reflexivity]).
        rewrite (IR Q) in I5. cbn in I5. rewrite I5. destruct (is_some types); cbn [opt Z.eqb app]; tauto.
  - destruct names as [names|].
    2:{ exists [], rps, ops. unfold set_optional. cbn [set_args]. split; [split; auto|split; [tauto|auto]]. }
    unfold set_optional. destruct (set_args (mm r) (nxt r) (optl r) (Some names) types) as [[m' n'] g'] eqn:E.
    destruct (set_args_ok _ _ _ _ _ _ _ _ _ IF E) as (ps & N & K & T).
    exists ((opt (g_names (optl r)) ++ opts ops) ++ (if is_some types then opt (g_types (optl r)) else [])), rps, ps.
    split; [|split; [|exact K]].
    + rewrite <- app_assoc. split; cbn [mm name sig req optl nxt h_name h_sig h_req h_reqt h_opt h_optt].
      * eapply text_same; [same|exact I1].
      * eapply text_same; [same|exact I2].
      * eapply names_same; [same|exact I3].
      * exact N.
      * eapply types_same; [same|exact I5].
      * destruct types as [ts|]; cbn [or_else]; [apply T|].
        destruct T as [-> _]. eapply types_same; [same|exact I6].
      * unfold fp in *. cbn [name sig req optl] in *. destruct types as [ts|]; cbn [is_some]; destruct T as [T1 T2].
        -- eapply foot_perm; [|exact T2]. perm.
        -- rewrite T1. eapply foot_perm; [|exact T2]. perm.
      * exact IR.
      * discriminate.
    + destruct (is_some (h_opt h)) eqn:S.
      * assert (Q := names_some _ _ _ _ _ I4 S). rewrite app_nil. split; [tauto|discriminate].
      * rewrite (names_none _ _ _ _ _ I4 S). cbn [app].
        assert (Q : h_opt h = None) by (destruct (h_opt h); [discriminate|reflexivity]).
        rewrite (IP Q) in I6. cbn in I6. rewrite I6. destruct (is_some types); cbn [opt Z.eqb app]; tauto.
Qed.

Lemma run_ok : forall cs r h lk rps ops, inv r h lk rps ops ->
  exists X rps' ops', inv (run r cs) (fold_left apply cs h) (X ++ lk) rps' ops' /\
    (X = [] <-> any_overwrites h cs = false) /\
    (forall a, In a (fp r rps ops ++ lk) -> mm (run r cs) a = mm r a).
Proof.
  induction cs as [|c cs IH]; intros r h lk rps ops H.
  - exists [], rps, ops. split; [exact H|]. cbn. tauto.
  - destruct (step_ok r h lk rps ops c H) as (X1 & r1 & o1 & H1 & E1 & K1).
    destruct (IH _ _ _ _ _ H1) as (X2 & r2 & o2 & H2 & E2 & K2).
    exists (X2 ++ X1), r2, o2. split; [rewrite <- app_assoc; exact H2|]. split.
    + rewrite app_nil, E2, E1. cbn [any_overwrites]. rewrite orb_false_iff. tauto.
    + intros a Ha. cbn [run]. rewrite K2; [now apply K1|].
      destruct H as [_ _ _ _ _ _ (_ & _ & A & _) _ _]. destruct H1 as [_ _ _ _ _ _ (_ & _ & B & _) _ _].
      apply B. rewrite K1 by exact Ha. now apply A.
Qed.

Lemma inv_start : inv rec_alloc nothing [] [] [].
Proof.
  split; cbn; auto. split; [constructor|]. split; [constructor|]. split; [|lia].
  intros a. cbn. split; [intros H; now elim H|tauto].
Qed.

(** Freeing. *)
Definition minus (m : mem) (F : list Z) (a : Z) : option obj := if in_dec Z.eq_dec a F then None else m a.

Lemma minus_in : forall m F a, In a F -> minus m F a = None.
Proof. intros m F a H. unfold minus. destruct (in_dec Z.eq_dec a F); tauto. Qed.
Lemma minus_out : forall m F a, ~ In a F -> minus m F a = m a.
Proof. intros m F a H. unfold minus. destruct (in_dec Z.eq_dec a F); tauto. Qed.

Lemma minus_app : forall m m1 F G a, (forall a, m1 a = minus m F a) -> minus m1 G a = minus m (F ++ G) a.
Proof.
  intros m m1 F G a H. unfold minus at 1. destruct (in_dec Z.eq_dec a G) as [A|A].
  - symmetry. apply minus_in. apply in_or_app. now right.
  - rewrite H. unfold minus. destruct (in_dec Z.eq_dec a F) as [B|B]; destruct (in_dec Z.eq_dec a (F ++ G)) as [C|C];
      auto; exfalso; rewrite in_app_iff in C; tauto.
Qed.

Lemma free_opt_ok : forall m p, (forall a, In a (opt p) -> m a <> None) ->
  exists m', free_opt m p = Ok m' /\ forall a, m' a = minus m (opt p) a.
Proof.
  intros m p H. unfold free_opt. destruct (Z.eq_dec p 0) as [->|N].
  - exists m. split; [reflexivity|]. intros a. reflexivity.
  - rewrite (proj2 (Z.eqb_neq p 0) N). specialize (H p (opt_in p N)).
    destruct (m p) as [o|]; [|now elim H]. eexists. split; [reflexivity|]. intros a. rewrite opt_ne by auto.
    destruct (Z.eq_dec a p) as [->|Na].
    + rewrite minus_in by (now left). apply upd_eq.
    + rewrite minus_out by (intros [E|[]]; congruence). now apply upd_ne.
Qed.

Lemma nodup_app : forall (A : Type) (p q : list A), NoDup (p ++ q) ->
  NoDup p /\ NoDup q /\ forall x, In x p -> ~ In x q.
Proof.
  intros A p. induction p as [|y p IH]; intros q H; cbn in H.
  - split; [constructor|]. split; [exact H|]. intros x [].
  - inversion H as [|? ? H1 H2]; subst. destruct (IH q H2) as (A1 & A2 & A3).
    split; [constructor; [|exact A1]; intros Hy; apply H1; apply in_or_app; now left|].
    split; [exact A2|]. intros x [->|Hx]; [|now apply A3]. intros Hq. apply H1. apply in_or_app. now right.
Qed.

Lemma free_names_ok : forall ps m, NoDup (opts ps) -> (forall a, In a (opts ps) -> m a <> None) ->
  exists m', free_names (length ps) m ps = Ok m' /\ forall a, m' a = minus m (opts ps) a.
Proof.
  induction ps as [|p ps IH]; intros m ND H.
  - exists m. split; [reflexivity|]. intros a. reflexivity.
  - cbn [opts flat_map] in *. fold (opts ps) in *. destruct (nodup_app _ _ _ ND) as (N1 & N2 & DJ).
    destruct (free_opt_ok m p) as (m1 & E1 & Q1); [intros a Ha; apply H; apply in_or_app; now left|].
    cbn [length free_names]. rewrite E1. cbn [bind].
    destruct (IH m1 N2) as (m2 & E2 & Q2).
    { intros a Ha. rewrite Q1, minus_out; [apply H; apply in_or_app; now right|]. intros Hp. now apply (DJ a Hp). }
    exists m2. split; [exact E2|]. intros a. rewrite Q2. now apply minus_app.
Qed.

Lemma free_group_ok : forall m g o ps, names_at m (g_names g) (g_num g) o ps ->
  NoDup (opt (g_names g) ++ opts ps) -> (forall a, In a (opt (g_names g) ++ opts ps) -> m a <> None) ->
  exists m', free_group m g = Ok m' /\ forall a, m' a = minus m (opt (g_names g) ++ opts ps) a.
Proof.
  intros m g [ns|] ps N ND H; cbn in N.
  - destruct N as (NZ & E & L & F). unfold free_group. rewrite (proj2 (Z.eqb_neq _ 0) NZ), E.
    assert (LE : Z.to_nat (g_num g) = length ps).
    { rewrite L. unfold zlen. rewrite Nat2Z.id. clear -F. induction F; cbn; auto. }
    rewrite LE. destruct (nodup_app _ _ _ ND) as (N1 & N2 & DJ).
    destruct (free_names_ok ps m N2) as (m1 & E1 & Q1); [intros a Ha; apply H; apply in_or_app; now right|].
    rewrite E1. cbn [bind].
    destruct (free_opt_ok m1 (g_names g)) as (m2 & E2 & Q2).
    { intros a Ha. rewrite Q1, minus_out by (now apply DJ). apply H. apply in_or_app. now left. }
    exists m2. split; [exact E2|]. intros a. rewrite Q2, (minus_app m m1 (opts ps)) by exact Q1.
    unfold minus. destruct (in_dec Z.eq_dec a (opts ps ++ opt (g_names g))) as [A|A];
      destruct (in_dec Z.eq_dec a (opt (g_names g) ++ opts ps)) as [B|B]; auto; exfalso; rewrite in_app_iff in A, B; tauto.
  - destruct N as (E & -> & _). unfold free_group. rewrite E. cbn [Z.eqb]. exists m. split; [reflexivity|]. intros a. reflexivity.
Qed.

Lemma rec_free_ok : forall r h lk rps ops, inv r h lk rps ops ->
  exists m', rec_free r = Ok m' /\ (forall a, m' a <> None <-> In a lk) /\ (forall a, In a lk -> m' a = mm r a).
Proof.
  intros r h lk rps ops [I1 I2 I3 I4 I5 I6 IF _ _]. destruct IF as (ND & _ & AL & _).
  destruct (nodup_app _ _ _ ND) as (ND0 & _ & DK).
  assert (AL' : forall a, In a (fp r rps ops) -> mm r a <> None) by (intros a Ha; apply AL; apply in_or_app; now left).
  unfold fp in *.
  set (A := opt (name r)) in *. set (B := opt (sig r)) in *. set (C := opt (g_names (req r)) ++ opts rps) in *.
  set (D := opt (g_names (optl r)) ++ opts ops) in *. set (E := opt (g_types (req r))) in *. set (G := opt (g_types (optl r))) in *.
  assert (STEP : forall P Q R m1, NoDup (P ++ Q ++ R) -> (forall a, In a (P ++ Q ++ R) -> mm r a <> None) ->
            (forall a, m1 a = minus (mm r) P a) ->
            (forall a, In a Q -> m1 a = mm r a) /\ (forall a, In a Q -> m1 a <> None) /\ NoDup Q).
  { intros P Q R m1 N L M. destruct (nodup_app _ _ _ N) as (_ & N2 & DJ). destruct (nodup_app _ _ _ N2) as (N3 & _ & _).
    assert (X : forall a, In a Q -> m1 a = mm r a).
    { intros a Ha. rewrite M. apply minus_out. intros Hp. apply (DJ a Hp). apply in_or_app. now left. }
    split; [exact X|]. split; [|exact N3]. intros a Ha. rewrite X by auto. apply L. rewrite !in_app_iff. tauto. }
  unfold rec_free.
  destruct (free_opt_ok (mm r) (name r)) as (m1 & E1 & Q1).
  { intros a Ha. apply AL'. apply in_or_app. now left. }
  rewrite E1. cbn [bind]. fold A in Q1.
  destruct (STEP A B (C ++ D ++ E ++ G) m1 ND0 AL' Q1) as (_ & L2 & _).
  destruct (free_opt_ok m1 (sig r)) as (m2 & E2 & Q2); [exact L2|]. rewrite E2. cbn [bind]. fold B in Q2.
  assert (R2 : forall a, m2 a = minus (mm r) (A ++ B) a) by (intros a; rewrite Q2; now apply minus_app).
  assert (N2 : NoDup ((A ++ B) ++ C ++ D ++ E ++ G)) by (now rewrite <- app_assoc).
  assert (AL2 : forall a, In a ((A ++ B) ++ C ++ D ++ E ++ G) -> mm r a <> None) by (rewrite <- app_assoc; exact AL').
  destruct (STEP (A ++ B) C (D ++ E ++ G) m2 N2 AL2 R2) as (S3 & L3 & N3).
  destruct (free_group_ok m2 (req r) (h_req h) rps) as (m3 & E3 & Q3);
    [eapply names_same; [exact S3|exact I3]|exact N3|exact L3|]. rewrite E3. cbn [bind]. fold C in Q3.
  assert (R3 : forall a, m3 a = minus (mm r) ((A ++ B) ++ C) a) by (intros a; rewrite Q3; now apply minus_app).
  assert (N3' : NoDup (((A ++ B) ++ C) ++ D ++ E ++ G)) by (now rewrite <- app_assoc).
  assert (AL3 : forall a, In a (((A ++ B) ++ C) ++ D ++ E ++ G) -> mm r a <> None) by (rewrite <- app_assoc; exact AL2).
  destruct (STEP ((A ++ B) ++ C) D (E ++ G) m3 N3' AL3 R3) as (S4 & L4 & N4).
  destruct (free_group_ok m3 (optl r) (h_opt h) ops) as (m4 & E4 & Q4);
    [eapply names_same; [exact S4|exact I4]|exact N4|exact L4|]. rewrite E4. cbn [bind]. fold D in Q4.
  assert (R4 : forall a, m4 a = minus (mm r) (((A ++ B) ++ C) ++ D) a) by (intros a; rewrite Q4; now apply minus_app).
  assert (N4' : NoDup ((((A ++ B) ++ C) ++ D) ++ E ++ G)) by (now rewrite <- app_assoc).
  assert (AL4 : forall a, In a ((((A ++ B) ++ C) ++ D) ++ E ++ G) -> mm r a <> None) by (rewrite <- app_assoc; exact AL3).
  destruct (STEP (((A ++ B) ++ C) ++ D) E G m4 N4' AL4 R4) as (_ & L5 & _).
  destruct (free_opt_ok m4 (g_types (req r))) as (m5 & E5 & Q5); [exact L5|]. rewrite E5. cbn [bind]. fold E in Q5.
  assert (R5 : forall a, m5 a = minus (mm r) ((((A ++ B) ++ C) ++ D) ++ E) a) by (intros a; rewrite Q5; now apply minus_app).
  assert (N5' : NoDup (((((A ++ B) ++ C) ++ D) ++ E) ++ G ++ [])) by (now rewrite app_nil_r, <- app_assoc).
  assert (AL5 : forall a, In a (((((A ++ B) ++ C) ++ D) ++ E) ++ G ++ []) -> mm r a <> None)
    by (rewrite app_nil_r, <- app_assoc; exact AL4).
  destruct (STEP ((((A ++ B) ++ C) ++ D) ++ E) G [] m5 N5' AL5 R5) as (_ & L6 & _).
  destruct (free_opt_ok m5 (g_types (optl r))) as (m6 & E6 & Q6); [exact L6|]. fold G in Q6.
  assert (R6 : forall a, m6 a = minus (mm r) (A ++ B ++ C ++ D ++ E ++ G) a)
    by (intros a; rewrite Q6, (minus_app _ _ _ _ _ R5), <- !app_assoc; reflexivity).
  exists m6. split; [exact E6|].
  split; [|intros a Ha; rewrite R6; apply minus_out; intros Y; exact (DK a Y Ha)].
  intros a. rewrite R6. unfold minus. destruct (in_dec Z.eq_dec a (A ++ B ++ C ++ D ++ E ++ G)) as [Y|Y].
  - split; [intros X; now elim X|]. intros X. exfalso. exact (DK a Y X).
  - rewrite AL, in_app_iff. tauto.
Qed.
