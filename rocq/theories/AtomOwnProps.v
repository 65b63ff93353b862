(** C99: what setting an atom again and again does to memory.  The statements use
    AtomOwnSpec.v only. *)

From Coq Require Import String ZArith List Bool Lia.
From Verif Require Import Base BaseProofs Text AtomOwnModel AtomOwnSpec.
Import ListNotations.
Open Scope Z_scope.

Lemma upd_same h l c : upd h l c l = c. Proof. unfold upd. now rewrite Z.eqb_refl. Qed.
Lemma upd_other h l c x : x <> l -> upd h l c x = h x.
Proof. intros H. unfold upd. destruct (Z.eqb_spec x l); [contradiction|reflexivity]. Qed.

Section History.
Context (s0 : mem) (S0 : sound s0).

(** The caller's blocks are as they were; the others are the lost ones and [own]. *)
Definition heap (s : mem) (lost : list Z) (own : option Z) : Prop :=
  snd s0 <= snd s /\ (forall x, snd s <= x -> fst s x = None) /\ (forall x, x < snd s0 -> fst s x = fst s0 x) /\ NoDup lost /\
  (forall x, snd s0 <= x -> fst s x <> None <-> In x lost \/ own = Some x) /\ (forall p, own = Some p -> snd s0 <= p /\ ~ In p lost) /\ (forall x, In x lost -> snd s0 <= x).
(** What the atom holds, at [p]. *)
Definition has (s : mem) (a : atom) (h : held) (p : Z) : Prop :=
  match h with
  | Nothing => w a = 0 \/ (tag a <> 115 /\ tag a <> 46 /\ tag a <> 98)
  | OwnString => tag a = 115 /\ w a = p /\ al a = true /\ p <> 0
  | OwnBundle => tag a = 46 /\ w a = p /\ p <> 0 /\ fst s p = Some ABun
  | OwnBlob => tag a = 98 /\ w a = p /\ al a = false /\ p <> 0
  | CallersString => tag a = 115 /\ w a = p /\ al a = false /\ p <> 0 /\ p < snd s0 /\ fst s0 p <> None
  | CallersBlob => tag a = 98 /\ w a = p /\ al a = false /\ p <> 0 /\ p < snd s0 /\ fst s0 p <> None
  end.
Definition owned (h : held) (p : Z) : option Z := match h with OwnString | OwnBundle | OwnBlob => Some p | _ => None end.
Definition inv (s : mem) (a : atom) (h : held) (p : Z) (lost : list Z) : Prop := heap s lost (owned h p) /\ has s a h p.

(** The block owned is freed, or lost. *)
Lemma heap_drop s lost p : heap s lost (Some p) -> heap (upd (fst s) p None, snd s) lost None.
Proof.
  intros (A & B & C & D & E & G & H). destruct (G p eq_refl) as [G1 G2]. split; [exact A|]. split; [|split; [|split; [exact D|split; [|split; [discriminate|exact H]]]]]; cbn [fst snd].
  - intros x Hx. destruct (Z.eq_dec x p) as [->|N]; [apply upd_same|rewrite upd_other by exact N; now apply B].
  - intros x Hx. rewrite upd_other by lia. now apply C.
  - intros x Hx. destruct (Z.eq_dec x p) as [->|N].
    + rewrite upd_same. split; [congruence|]. intros [Hi|Hi]; [contradiction|discriminate].
    + rewrite upd_other by exact N. rewrite (E x Hx). split; (intros [Hi|Hi]; [now left|]); [injection Hi as <-; contradiction|discriminate].
Qed.
Lemma heap_lose s lost p : heap s lost (Some p) -> heap s (p :: lost) None.
Proof.
  intros (A & B & C & D & E & G & H). destruct (G p eq_refl) as [G1 G2]. split; [exact A|]. split; [exact B|]. split; [exact C|]. split; [now constructor|]. split; [|split; [discriminate|]].
  - intros x Hx. rewrite (E x Hx). cbn [In]. split; [intros [Hi|Hi]; [left; now right|injection Hi as <-; left; now left]|intros [[<-|Hi]|Hi]; [now right|now left|discriminate]].
  - intros x [<-|Hx]; [exact G1|now apply H].
Qed.
Lemma heap_alloc s lost c : heap s lost None -> heap (upd (fst s) (snd s) (Some c), snd s + 1) lost (Some (snd s)).
Proof.
  intros (A & B & C & D & E & G & H). assert (N : ~ In (snd s) lost).
  { intros Hi. assert (X : fst s (snd s) <> None) by (apply E; [lia|now left]). rewrite B in X by lia. contradiction. }
  split; [cbn [snd]; lia|]. split; [|split; [|split; [exact D|split; [|split; [|exact H]]]]]; cbn [fst snd].
  - intros x Hx. rewrite upd_other by lia. apply B. lia.
  - intros x Hx. rewrite upd_other by lia. now apply C.
  - intros x Hx. destruct (Z.eq_dec x (snd s)) as [->|Nx]; [rewrite upd_same; split; [now right|discriminate]|]. rewrite upd_other by exact Nx. rewrite (E x Hx).
    split; (intros [Hi|Hi]; [now left|]); [discriminate|injection Hi as <-; contradiction].
  - intros p Hp. injection Hp as <-. split; [exact A|exact N].
Qed.
Lemma heap_write s lost p c : heap s lost (Some p) -> heap (upd (fst s) p (Some c), snd s) lost (Some p).
Proof.
  intros (A & B & C & D & E & G & H). destruct (G p eq_refl) as [G1 G2].
  assert (Lp : p < snd s) by (destruct (Z_lt_le_dec p (snd s)) as [L|L]; [exact L|]; assert (X : fst s p <> None) by (apply E; [exact G1|now right]); rewrite B in X by exact L; contradiction).
  split; [exact A|]. split; [|split; [|split; [exact D|split; [|split; [exact G|exact H]]]]]; cbn [fst snd].
  - intros x Hx. rewrite upd_other by lia. now apply B.
  - intros x Hx. rewrite upd_other by lia. now apply C.
  - intros x Hx. destruct (Z.eq_dec x p) as [->|N]; [rewrite upd_same; split; [now right|discriminate]|]. rewrite upd_other by exact N. now apply E.
Qed.
Lemma heap_there s lost p : heap s lost (Some p) -> fst s p <> None.
Proof. intros (_ & _ & _ & _ & E & G & _). destruct (G p eq_refl) as [G1 _]. apply E; [exact G1|now right]. Qed.
Lemma drop_ok s l : fst s l <> None -> drop s l = Ok (upd (fst s) l None, snd s).
Proof. intros H. unfold drop. now destruct (fst s l). Qed.

(** Clearing frees what is owned, but for blobs. *)
Lemma clear_ok s a h p lost : inv s a h p lost ->
  exists s' a', clear s a = Ok (s', a') /\ tag a' = tag a /\ al a' = false /\ heap s' (if match h with OwnBlob => true | _ => false end then p :: lost else lost) None /\
    (match h with OwnString | OwnBundle => w a' = 0 | _ => True end).
Proof.
  intros [H I]. destruct a as [t v l]. unfold clear. cbn [tag w al] in *. destruct h; cbn [has owned tag w al] in *.
  - destruct (Z.eqb_spec v 0) as [->|Nv].
    + cbn [negb]. rewrite !andb_false_r. destruct (t =? 46); cbn [bundle_free Z.eqb bind]; eexists _, _; (split; [reflexivity|]); (split; [reflexivity|]); (split; [reflexivity|now split]).
    + destruct I as [->|(I1 & I2 & I3)]; [contradiction|]. rewrite (proj2 (Z.eqb_neq t 115) I1), (proj2 (Z.eqb_neq t 46) I2), (proj2 (Z.eqb_neq t 98) I3), !andb_false_r. cbn [andb].
      eexists _, _. split; [reflexivity|]. split; [reflexivity|]. split; [reflexivity|now split].
  - destruct I as (-> & -> & -> & Np). rewrite (proj2 (Z.eqb_neq p 0) Np). cbn [Z.eqb Pos.eqb andb negb]. rewrite drop_ok by (now apply heap_there with lost). cbn [bind].
    eexists _, _. split; [reflexivity|]. split; [reflexivity|]. split; [reflexivity|]. split; [now apply heap_drop|reflexivity].
  - destruct I as (-> & -> & Np & Ep). cbn [Z.eqb Pos.eqb]. rewrite andb_false_r. cbn [andb]. unfold bundle_free. rewrite (proj2 (Z.eqb_neq p 0) Np), Ep. cbn [bind].
    eexists _, _. split; [reflexivity|]. split; [reflexivity|]. split; [reflexivity|]. split; [now apply heap_drop|reflexivity].
  - destruct I as (-> & -> & -> & Np). cbn [andb Z.eqb Pos.eqb]. eexists _, _. split; [reflexivity|]. split; [reflexivity|]. split; [reflexivity|]. split; [now apply heap_lose|exact I].
  - destruct I as (-> & -> & -> & _). cbn [andb Z.eqb Pos.eqb]. eexists _, _. split; [reflexivity|]. split; [reflexivity|]. split; [reflexivity|]. now split.
  - destruct I as (-> & -> & -> & _). cbn [andb Z.eqb Pos.eqb]. eexists _, _. split; [reflexivity|]. split; [reflexivity|]. split; [reflexivity|]. now split.
Qed.
(** A second time nothing is freed. *)
Lemma clear_again s a h p lost : inv s a h p lost -> exists s' a', (do ' (s, a) <- clear s a; clear s a) = Ok (s', a') /\ al a' = false /\
  heap s' (if match h with OwnBlob => true | _ => false end then p :: lost else lost) None.
Proof.
  intros H. destruct (clear_ok s a h p lost H) as (s1 & a1 & E1 & T1 & L1 & H1 & W1). rewrite E1. cbn [bind]. exists s1, (At (tag a1) (w a1) false).
  assert (X : clear s1 a1 = Ok (s1, At (tag a1) (w a1) false)).
  { unfold clear. rewrite L1. cbn [andb]. destruct (Z.eqb_spec (tag a1) 46) as [E|_]; [|reflexivity].
    assert (W : w a1 = 0).
    { destruct H as [_ I]. destruct a as [t v l]. cbn [tag] in T1. destruct h; cbn [has tag w al] in I; try exact W1; try (rewrite E in T1; subst t; intuition discriminate).
      destruct I as [->|I]; [|rewrite E in T1; subst t; intuition]. rewrite <- T1, E in E1. clear - E1. revert E1. unfold clear. cbn [tag w al Z.eqb Pos.eqb negb]. rewrite andb_false_r. cbn [andb bundle_free Z.eqb bind].
      intros X. injection X as <- <-. reflexivity. }
    rewrite W. reflexivity. }
  split; [exact X|]. split; [reflexivity|exact H1].
Qed.

Lemma has_any s a h p lost : inv s a h p lost -> heap s (match owned h p with Some q => q :: lost | None => lost end) None.
Proof. intros [H _]. destruct h; cbn [owned] in *; try exact H; now apply heap_lose. Qed.

(** One call. *)
Lemma step_ok s a h p lost o : proper s0 o -> inv s a h p lost ->
  exists s' a' p', step s a o = Ok (s', a') /\ inv s' a' (holds_after o) p' (if loses h o then p :: lost else lost) /\
    (match o with OStringPtr q | OBlobPtr q => p' = q | _ => True end).
Proof.
  intros Hp I. pose proof S0 as [B0 B1].
  assert (LB : loses h o = match h with OwnBlob => true | _ => false end \/ match o with OString _ _ | OStringNull | OBundleU | ORec _ => True | _ => False end) by (destruct h, o; cbn; tauto).
  destruct o as [t v|v|moves v| |q| | |b|q|r]; cbn [step holds_after proper] in *.
  - destruct LB as [->|[]]. unfold set_num. destruct (clear_ok _ _ _ _ _ I) as (s1 & a1 & E1 & _ & L1 & H1 & _). rewrite E1. cbn [bind].
    eexists _, _, 0. split; [reflexivity|]. split; [|exact Logic.I]. split; [exact H1|]. right. exact Hp.
  - destruct LB as [->|[]]. unfold set_bool. destruct (clear_again _ _ _ _ _ I) as (s1 & a1 & E1 & L1 & H1). destruct (clear s a) as [[s2 a2]| |]; cbn [bind] in E1 |- *; [|discriminate|discriminate]. rewrite E1. cbn [bind].
    eexists _, _, 0. split; [reflexivity|]. split; [|exact Logic.I]. split; [exact H1|]. right. cbn [tag]. destruct (v =? 0); repeat split; discriminate.
  - clear LB. unfold set_string. destruct (negb (w a =? 0) && (tag a =? 115) && al a) eqn:EC.
    + apply andb_true_iff in EC as [EC Ea]. apply andb_true_iff in EC as [Ew Et]. apply negb_true_iff, Z.eqb_neq in Ew. apply Z.eqb_eq in Et.
      assert (Eh : h = OwnString) by (destruct I as [_ I]; destruct h; cbn [has] in I; try reflexivity; exfalso; intuition congruence). subst h.
      destruct I as [H (_ & Ep & _ & Np)]. cbn [owned loses] in *. rewrite Ep. rewrite drop_ok by (now apply heap_there with lost). cbn [bind]. destruct moves.
      * unfold alloc. cbn [fst snd]. eexists _, _, (snd s). split; [reflexivity|]. split; [|exact Logic.I]. split; [exact (heap_alloc _ lost (AStr v) (heap_drop _ _ _ H))|].
        cbn [has tag w al]. repeat split; try assumption. destruct H as (A & _). lia.
      * eexists _, _, p. split; [reflexivity|]. split; [|exact Logic.I]. split; [now apply heap_write|]. cbn [has]. now repeat split.
    + assert (Ln : heap s (if loses h (OString moves v) then p :: lost else lost) None).
      { pose proof (has_any _ _ _ _ _ I) as X. destruct h; cbn [owned loses] in *; try exact X. exfalso. destruct I as [_ (E1 & E2 & E3 & E4)]. rewrite E1, E2, E3 in EC.
        rewrite (proj2 (Z.eqb_neq p 0) E4) in EC. discriminate EC. }
      unfold alloc. eexists _, _, (snd s). split; [reflexivity|]. split; [|exact Logic.I]. split; [now apply heap_alloc|]. cbn [has tag w al]. repeat split. destruct Ln as (A & _). lia.
  - clear LB. exists s, (At (tag a) 0 (al a)), 0. split; [unfold set_string_null; now destruct (negb (w a =? 0) && (tag a =? 115) && al a)|]. split; [|exact Logic.I].
    split; [|now left]. pose proof (has_any _ _ _ _ _ I) as X. destruct h; cbn [owned loses] in *; exact X.
  - destruct LB as [->|[]]. unfold set_string_ptr. destruct (clear_ok _ _ _ _ _ I) as (s1 & a1 & E1 & _ & L1 & H1 & _). rewrite E1. cbn [bind].
    eexists _, _, q. split; [reflexivity|]. split; [|reflexivity]. destruct (Z.eqb_spec q 0) as [->|Nq]; (split; [exact H1|]); [now left|]. destruct Hp as [->|[t Et]]; [contradiction|].
    cbn [has tag w al]. repeat split; try assumption; [|congruence]. destruct (Z_lt_le_dec q (snd s0)); [assumption|]. rewrite B1 in Et by assumption. discriminate.
  - clear LB. unfold set_bndl_u, alloc. assert (Ln : heap s (if loses h OBundleU then p :: lost else lost) None) by (pose proof (has_any _ _ _ _ _ I) as X; destruct h; cbn [owned loses] in *; exact X).
    eexists _, _, (snd s). split; [reflexivity|]. split; [|exact Logic.I]. split; [now apply heap_alloc|]. cbn [has tag w fst]. rewrite upd_same. repeat split. destruct Ln as (A & _). lia.
  - destruct LB as [->|[]]. unfold set_bndl_s. destruct (clear_ok _ _ _ _ _ I) as (s1 & a1 & E1 & _ & L1 & H1 & _). rewrite E1. cbn [bind]. unfold set_bndl_u, alloc.
    eexists _, _, (snd s1). split; [reflexivity|]. split; [|exact Logic.I]. split; [now apply heap_alloc|]. cbn [has tag w fst]. rewrite upd_same. repeat split. destruct H1 as (A & _). lia.
  - destruct LB as [->|[]]. unfold set_blob. destruct (clear_ok _ _ _ _ _ I) as (s1 & a1 & E1 & _ & L1 & H1 & _). rewrite E1. cbn [bind]. unfold alloc.
    eexists _, _, (snd s1). split; [reflexivity|]. split; [|exact Logic.I]. split; [now apply heap_alloc|]. cbn [has tag w al]. repeat split; [exact L1|]. destruct H1 as (A & _). lia.
  - destruct LB as [->|[]]. unfold set_blob_ptr. destruct (clear_ok _ _ _ _ _ I) as (s1 & a1 & E1 & _ & L1 & H1 & _). rewrite E1. cbn [bind].
    eexists _, _, q. split; [reflexivity|]. split; [|reflexivity]. destruct (Z.eqb_spec q 0) as [->|Nq]; (split; [exact H1|]); [now left|]. destruct Hp as [->|[t Et]]; [contradiction|].
    cbn [has tag w al]. repeat split; try assumption; [|congruence]. destruct (Z_lt_le_dec q (snd s0)); [assumption|]. rewrite B1 in Et by assumption. discriminate.
  - clear LB. exists s, (At 114 r (al a)), 0. split; [reflexivity|]. split; [|exact Logic.I].
    split; [|right; repeat split; discriminate]. pose proof (has_any _ _ _ _ _ I) as X. destruct h; cbn [owned loses] in *; exact X.
Qed.
Lemma run_ok ops : Forall (proper s0) ops -> forall s a h p lost, inv s a h p lost ->
  exists s' a' h' p' more, run s a ops = Ok (s', a') /\ inv s' a' h' p' (more ++ lost) /\ length more = losses h ops /\
    (ops = [] /\ h' = h /\ p' = p \/ ops <> [] /\ (match h' with CallersString | CallersBlob => borrowed ops = Some p' | _ => borrowed ops = None end)).
Proof.
  induction 1 as [|o ops Ho _ IH]; intros s a h p lost I.
  - exists s, a, h, p, []. split; [reflexivity|]. split; [exact I|]. split; [reflexivity|]. left. now split.
  - destruct (step_ok s a h p lost o Ho I) as (s1 & a1 & p1 & E1 & I1 & B1). destruct (IH _ _ _ _ _ I1) as (s2 & a2 & h2 & p2 & more & E2 & I2 & L2 & B2).
    exists s2, a2, h2, p2, (if loses h o then more ++ [p] else more). cbn [run]. rewrite E1. cbn [bind]. split; [exact E2|]. split.
    { destruct (loses h o); [rewrite <- app_assoc; exact I2|exact I2]. }
    split; [cbn [losses]; destruct (loses h o); [rewrite app_length; cbn [length]|]; lia|]. right.
    split; [discriminate|]. destruct B2 as [(-> & -> & ->)|[Nn B2]].
    + clear - B1. destruct o as [t v|v|moves v| |q| | |b|q|r]; cbn [holds_after borrowed] in *; try reflexivity; subst p1; destruct (Z.eqb_spec q 0) as [->|N]; reflexivity.
    + destruct ops as [|o2 ops]; [contradiction|]. destruct o; exact B2.
Qed.
End History.

(** After any history of calls, and freeing the atom, memory is as it was, except for the
    blocks lost on the way, as many as the calls that lose one, and for the caller's block
    that the atom holds at the end, which is freed. *)
Theorem C99_lifetime s ops : sound s -> Forall (proper s) ops ->
  exists s' lost, lifetime s ops = Ok s' /\ length lost = losses Nothing ops /\ NoDup lost /\
    (forall x, In x lost -> fst s x = None /\ fst s' x <> None) /\
    (forall x, borrowed ops = Some x -> fst s x <> None /\ fst s' x = None) /\
    (forall x, ~ In x lost -> borrowed ops <> Some x -> fst s' x = fst s x).
Proof.
  intros S0 HP. assert (I0 : inv s s (At 0 0 false) Nothing 0 []).
  { destruct S0 as [B0 B1]. split; [|now left]. cbn [owned]. split; [lia|]. split; [exact B1|]. split; [reflexivity|]. split; [constructor|]. split; [|split; [discriminate|intros x []]].
    intros x Hx. rewrite B1 by exact Hx. split; [congruence|]. intros [[]|H]; discriminate H. }
  destruct (run_ok s S0 ops HP s (At 0 0 false) Nothing 0 [] I0) as (s1 & a & h & p & lost & E & [H I] & L & B). rewrite app_nil_r in H.
  unfold lifetime. rewrite E. cbn [bind].
  assert (KB : match h with CallersString | CallersBlob => borrowed ops = Some p | _ => borrowed ops = None end) by (destruct B as [(-> & -> & ->)|[_ B]]; [reflexivity|exact B]).
  assert (Fin : forall s2, heap s s2 lost None -> borrowed ops = None ->
     (forall x, In x lost -> fst s x = None /\ fst s2 x <> None) /\ (forall x, borrowed ops = Some x -> fst s x <> None /\ fst s2 x = None) /\
     (forall x, ~ In x lost -> borrowed ops <> Some x -> fst s2 x = fst s x)).
  { intros s2 (A1 & A2 & A3 & A4 & A5 & A6 & A7) Bn. split; [|split].
    - intros x Hx. split; [now apply S0, A7|]. apply A5; [now apply A7|now left].
    - rewrite Bn. discriminate.
    - intros x Hx _. destruct (Z_lt_le_dec x (snd s)) as [Lx|Lx]; [now apply A3|]. rewrite (proj2 S0 x Lx). destruct (fst s2 x) eqn:Ex; [|reflexivity].
      exfalso. assert (X : fst s2 x <> None) by congruence. apply A5 in X; [|exact Lx]. destruct X as [X|X]; [contradiction|discriminate]. }
  assert (FinC : p <> 0 -> p < snd s -> fst s p <> None -> heap s s1 lost None -> borrowed ops = Some p ->
     drop s1 p = Ok (upd (fst s1) p None, snd s1) /\
     (forall x, In x lost -> fst s x = None /\ upd (fst s1) p None x <> None) /\ (forall x, borrowed ops = Some x -> fst s x <> None /\ upd (fst s1) p None x = None) /\
     (forall x, ~ In x lost -> borrowed ops <> Some x -> upd (fst s1) p None x = fst s x)).
  { intros Np Lp Ep (A1 & A2 & A3 & A4 & A5 & A6 & A7) Bp. split; [apply drop_ok; rewrite A3; assumption|]. split; [|split].
    - intros x Hx. pose proof (A7 x Hx) as Lx. split; [now apply S0|]. rewrite upd_other by lia. apply A5; [exact Lx|now left].
    - intros x Hx. rewrite Bp in Hx. injection Hx as <-. split; [exact Ep|apply upd_same].
    - intros x Hx Hn. assert (Nx : x <> p) by (intros ->; contradiction). rewrite upd_other by exact Nx. destruct (Z_lt_le_dec x (snd s)) as [Lx|Lx]; [now apply A3|].
      rewrite (proj2 S0 x Lx). destruct (fst s1 x) eqn:Ex; [|reflexivity].
      exfalso. assert (X : fst s1 x <> None) by congruence. apply A5 in X; [|exact Lx]. destruct X as [X|X]; [contradiction|discriminate]. }
  assert (ND : NoDup lost) by (now destruct H as (_ & _ & _ & ND & _)).
  unfold atom_free. destruct a as [t v l]. cbn [tag w]. destruct h; cbn [has owned tag w al] in *.
  - exists s1, lost. split; [|split; [exact L|split; [exact ND|now apply Fin]]]. destruct I as [->|(I1 & I2 & I3)].
    + cbn [Z.eqb bundle_free]. now destruct (t =? 115), (t =? 46), (t =? 98).
    + now rewrite (proj2 (Z.eqb_neq t 115) I1), (proj2 (Z.eqb_neq t 46) I2), (proj2 (Z.eqb_neq t 98) I3).
  - destruct I as (-> & -> & _ & Np). cbn [Z.eqb Pos.eqb]. rewrite (proj2 (Z.eqb_neq p 0) Np). rewrite drop_ok by (now apply heap_there with s lost).
    eexists _, lost. split; [reflexivity|]. split; [exact L|]. split; [exact ND|]. apply Fin; [now apply heap_drop|exact KB].
  - destruct I as (-> & -> & Np & Ep). cbn [Z.eqb Pos.eqb]. unfold bundle_free. rewrite (proj2 (Z.eqb_neq p 0) Np), Ep.
    eexists _, lost. split; [reflexivity|]. split; [exact L|]. split; [exact ND|]. apply Fin; [now apply heap_drop|exact KB].
  - destruct I as (-> & -> & _ & Np). cbn [Z.eqb Pos.eqb]. rewrite (proj2 (Z.eqb_neq p 0) Np). rewrite drop_ok by (now apply heap_there with s lost).
    eexists _, lost. split; [reflexivity|]. split; [exact L|]. split; [exact ND|]. apply Fin; [now apply heap_drop|exact KB].
  - destruct I as (-> & -> & _ & Np & Lp & Ep). cbn [Z.eqb Pos.eqb]. rewrite (proj2 (Z.eqb_neq p 0) Np). destruct (FinC Np Lp Ep H KB) as [-> FC].
    eexists _, lost. split; [reflexivity|]. split; [exact L|]. split; [exact ND|exact FC].
  - destruct I as (-> & -> & _ & Np & Lp & Ep). cbn [Z.eqb Pos.eqb]. rewrite (proj2 (Z.eqb_neq p 0) Np). destruct (FinC Np Lp Ep H KB) as [-> FC].
    eexists _, lost. split; [reflexivity|]. split; [exact L|]. split; [exact ND|exact FC].
Qed.
Print Assumptions C99_lifetime.

(** So a history without calls that lose a block, at whose end the atom does not hold a block
    of the caller, leaves memory as it was. *)
Theorem C99_clean s ops : sound s -> Forall (proper s) ops -> losses Nothing ops = O -> borrowed ops = None ->
  exists s', lifetime s ops = Ok s' /\ forall x, fst s' x = fst s x.
Proof.
  intros S0 HP L B. destruct (C99_lifetime s ops S0 HP) as (s' & lost & E & Ll & _ & _ & _ & O). exists s'. split; [exact E|].
  intros x. apply O; [|rewrite B; discriminate]. rewrite L in Ll. destruct lost; [intros []|discriminate].
Qed.
Print Assumptions C99_clean.
(** Strings, numbers and bundles given as bytes can follow each other as they please. *)
Theorem C99_clean_kinds ops : Forall (fun o => match o with ONum _ _ | OBool _ | OBundleS => True | _ => False end) ops -> forall v moves,
  losses Nothing (OString moves v :: ops) = O /\ losses Nothing ops = O /\ borrowed (OString moves v :: ops) = None.
Proof.
  intros H v moves.
  assert (X : forall h, match h with OwnBlob => False | _ => True end -> losses h ops = O).
  { induction H as [|o ops Ho _ IH]; intros h Hh; [reflexivity|]. cbn [losses]. destruct o; try contradiction; cbn [holds_after]; rewrite IH by exact I; destruct h; reflexivity || contradiction. }
  split; [cbn [losses loses holds_after]; now apply X|]. split; [now apply X|]. clear X. revert v moves. induction H as [|o ops Ho _ IH]; intros v moves; [reflexivity|].
  cbn [borrowed]. destruct o; try contradiction; destruct ops; try reflexivity; exact (IH v moves).
Qed.
Print Assumptions C99_clean_kinds.

(** ** The code refutes: setting an atom frees what it held, and only that *)
Definition example_memory : mem := ((fun x => if x =? 1 then Some (AStr (str "caller")) else None), 2).
Example example_sound : sound example_memory.
Proof. split; [cbn [snd example_memory]; lia|]. intros l Hl. cbn [fst snd example_memory] in *. destruct (Z.eqb_spec l 1); [lia|reflexivity]. Qed.
(** A blob that is replaced by a number, a bundle by a string, a string by NULL or a bundle
    object: each loses a block.  A string of the caller is freed with the atom. *)
Theorem C99_loss_refuted : Forall (fun ops => Forall (proper example_memory) ops /\ borrowed ops = None /\ exists s', lifetime example_memory ops = Ok s' /\ exists x, fst example_memory x = None /\ fst s' x <> None)
  [[OBlob [0; 0; 0; 0]; ONum 105 1]; [OBundleS; OString true (str "x")]; [OString true (str "x"); OStringNull]; [OString false (str "x"); OBundleU]; [OBundleU; OBundleU]; [OBundleS; ORec 5]].
Proof.
  repeat (constructor; [split; [repeat constructor; discriminate|]; split; [reflexivity|]; eexists; split; [reflexivity|]; exists 2; split; [reflexivity|discriminate]|]). constructor.
Qed.
Print Assumptions C99_loss_refuted.
Theorem C99_borrowed_refuted : exists s', lifetime example_memory [OString true (str "x"); ONum 102 0; OStringPtr 1] = Ok s' /\ fst example_memory 1 <> None /\ fst s' 1 = None.
Proof. eexists. split; [reflexivity|]. split; [discriminate|reflexivity]. Qed.
Print Assumptions C99_borrowed_refuted.
(** An atom that was told to free its blob frees it as a bundle. *)
Theorem C99_should_free_refuted s b p : fst s p = Some (ABlob b) -> p <> 0 -> forall o, match o with OString _ _ | OStringNull | OBundleU | ORec _ => False | _ => True end ->
  step s (set_should_free (At 98 p false) true) o = Ub Uninit.
Proof.
  intros E N o Ho. assert (X : clear s (At 98 p true) = Ub Uninit).
  { unfold clear. cbn [tag w al Z.eqb Pos.eqb andb]. unfold bundle_free. rewrite (proj2 (Z.eqb_neq p 0) N). cbn [negb]. now rewrite E. }
  destruct o; try contradiction; cbn [step]; unfold set_should_free, set_num, set_bool, set_string_ptr, set_bndl_s, set_blob, set_blob_ptr; cbn [tag w]; now rewrite X.
Qed.
Print Assumptions C99_should_free_refuted.
Example example_history : let ops := [OString true (str "x"); ONum 102 0; OStringPtr 1; OBundleS; OBool 1; OString false (str "y"); OString true (str "z")] in
  Forall (proper example_memory) ops /\ losses Nothing ops = O /\ borrowed ops = None.
Proof.
  cbn zeta. split; [|now split]. constructor; [exact I|]. constructor; [repeat split; discriminate|]. constructor; [right; now exists (str "caller")|]. now repeat constructor.
Qed.
