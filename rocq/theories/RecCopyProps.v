(** C106: a copy of a record of a function has what the source has but the types,
    and the two share nothing; if an optional argument has no name, the copy
    cannot be freed. *)

From Coq Require Import ZArith List Bool Lia Permutation.
From Verif Require Import Base FunRecModel FunRecSpec FunRecProofs FunRecProps RecCopyModel RecCopySpec.
Import ListNotations.
Open Scope Z_scope.

(** What the getters of a record give. *)
Definition gives (r : frec) (h : has) : Prop :=
  get_name r = Ok (h_name h) /\ get_signature r = Ok (h_sig h) /\
  get_num_required r = how_many (h_req h) /\ get_num_optional r = how_many (h_opt h) /\
  get_required_names r = Ok (h_req h) /\ get_optional_names r = Ok (h_opt h) /\
  get_required_types r = Ok (h_reqt h) /\ get_optional_types r = Ok (h_optt h).

Lemma inv_gives : forall r h lk rps ops, inv r h lk rps ops -> gives r h.
Proof.
  intros r h lk rps ops [I1 I2 I3 I4 I5 I6 _ _ _].
  destruct (read_names_ok _ _ _ _ I3) as [A1 A2]. destruct (read_names_ok _ _ _ _ I4) as [B1 B2].
  split; [now apply read_text_ok|]. split; [now apply read_text_ok|]. split; [exact A2|]. split; [exact B2|].
  split; [exact A1|]. split; [exact B1|]. split; now apply read_types_ok.
Qed.

Lemma names_eq : forall names m n, forallb is_some names = true -> copy_names_optional m n names = copy_names m n names.
Proof.
  induction names as [|[s|] names IH]; intros m n H; cbn in *; [reflexivity| |discriminate]. now rewrite IH.
Qed.

(** The calls that a copy amounts to. *)
Definition calls (h : has) : list setting :=
  (match h_name h with Some s => [Name s] | None => [] end) ++
  (match h_sig h with Some s => [Signature s] | None => [] end) ++ [Required (h_req h) None; Optional (h_opt h) None].

Definition start (m : mem) (n : Z) : frec := Rec m n 0 0 (Gr 0 0 0) (Gr 0 0 0).

Lemma calls_has : forall h, fold_left apply (calls h) nothing = copied h /\ any_overwrites nothing (calls h) = false.
Proof. intros [[a|] [b|] [c|] d [e|] f]; split; reflexivity. Qed.

Lemma copy_is : forall r h, gives r h -> all_named h = true -> rec_copy r = Ok (run (start (mm r) (nxt r)) (calls h)).
Proof.
  intros r h (G1 & G2 & G3 & G4 & G5 & G6 & _) H. unfold rec_copy. rewrite G1, G2, G5, G6. cbn [bind].
  unfold get_num_required in G3. unfold get_num_optional in G4. rewrite G3, G4. unfold calls.
  fold (start (mm r) (nxt r)). unfold all_named in H.
  set (c0 := start (mm r) (nxt r)).
  set (c2 := run c0 ((match h_name h with Some s => [Name s] | None => [] end) ++
                     (match h_sig h with Some s => [Signature s] | None => [] end))).
  assert (E2 : match h_sig h with Some g => set_signature (match h_name h with Some s => set_name c0 s | None => c0 end) g
               | None => match h_name h with Some s => set_name c0 s | None => c0 end end = c2)
    by (unfold c2; destruct (h_name h), (h_sig h); reflexivity).
  assert (RA : forall xs ys c, run c (xs ++ ys) = run (run c xs) ys) by (induction xs; cbn; auto).
  rewrite E2, app_assoc, RA. fold c2.
  assert (Q : req c2 = Gr 0 0 0 /\ optl c2 = Gr 0 0 0) by (unfold c2; destruct (h_name h), (h_sig h); split; reflexivity).
  clearbody c2. destruct c2 as [m n a b g1 g2]. cbn in Q. destruct Q as [-> ->].
  cbn [run do_setting]. unfold set_required, set_optional.
  destruct (h_req h) as [rn|]; destruct (h_opt h) as [on|]; cbn [set_args mm nxt name sig req optl g_types how_many copy_optional].
  - destruct (copy_names _ (n + 1) rn) as [[m1 n1] ps1]. cbn [mm nxt name sig req optl g_types copy_optional set_args].
    rewrite names_eq by exact H. destruct (copy_names _ (n1 + 1) on) as [[m2 n2] ps2]. reflexivity.
  - destruct (copy_names _ (n + 1) rn) as [[m1 n1] ps1]. reflexivity.
  - rewrite names_eq by exact H. destruct (copy_names _ (n + 1) on) as [[m2 n2] ps2]. reflexivity.
  - reflexivity.
Qed.

Lemma inv_in_memory : forall r h lk rps ops m n X, inv r h lk rps ops ->
  (forall a, In a (fp r rps ops ++ lk) -> m a = mm r a) -> foot m n (X ++ fp r rps ops ++ lk) ->
  inv (in_memory r m n) h (lk ++ X) rps ops.
Proof.
  intros r h lk rps ops m n X [I1 I2 I3 I4 I5 I6 IF IR IP] K F.
  split; cbn [in_memory mm nxt name sig req optl]; auto.
  - eapply text_same; [same|exact I1].
  - eapply text_same; [same|exact I2].
  - eapply names_same; [same|exact I3].
  - eapply names_same; [same|exact I4].
  - eapply types_same; [same|exact I5].
  - eapply types_same; [same|exact I6].
  - eapply foot_perm; [|exact F]. change (fp (in_memory r m n) rps ops) with (fp r rps ops).
    rewrite (app_assoc (fp r rps ops)). apply Permutation_app_comm.
Qed.

(** The copy of a record that any calls made, if all optional arguments have names:
    it has what the source has but the types, and the source has what it had.
    Whichever of the two is freed, the other still has what it had; and when both
    are freed, in either order, no block is freed twice. *)
Theorem C106_copy : forall cs, let r := run rec_alloc cs in let h := fold_left apply cs nothing in
  all_named h = true ->
  exists c, rec_copy r = Ok c /\ gives c (copied h) /\ gives (in_memory r (mm c) (nxt c)) h /\
    (exists m1, rec_free c = Ok m1 /\ gives (in_memory r m1 (nxt c)) h /\
       exists m2, rec_free (in_memory r m1 (nxt c)) = Ok m2 /\
         ((forall a, m2 a = None) <-> any_overwrites nothing cs = false)) /\
    (exists m1, rec_free (in_memory r (mm c) (nxt c)) = Ok m1 /\ gives (in_memory c m1 (nxt c)) (copied h) /\
       exists m2, rec_free (in_memory c m1 (nxt c)) = Ok m2 /\
         ((forall a, m2 a = None) <-> any_overwrites nothing cs = false)).
Proof.
  intros cs r h AN. destruct (run_ok cs _ _ _ _ _ inv_start) as (lk & rps & ops & I & EL & _).
  rewrite app_nil_r in I. fold r h in I. assert (G := inv_gives _ _ _ _ _ I).
  set (c := run (start (mm r) (nxt r)) (calls h)). exists c. split; [now apply copy_is|].
  assert (IS : inv (start (mm r) (nxt r)) nothing (fp r rps ops ++ lk) [] []).
  { split; cbn; auto. exact (i_foot _ _ _ _ _ I). }
  destruct (run_ok (calls h) _ _ _ _ _ IS) as (X & rp & op & IC & EX & KC).
  destruct (calls_has h) as [CH CO]. rewrite CH in IC. fold c in IC, KC.
  assert (X = []) by (now apply EX). subst X. cbn [app] in IC.
  assert (KC' : forall a, In a (fp r rps ops ++ lk) -> mm c a = mm r a) by (intros a Ha; apply KC; exact Ha).
  assert (FC := i_foot _ _ _ _ _ IC).
  assert (IR : inv (in_memory r (mm c) (nxt c)) h (lk ++ fp c rp op) rps ops).
  { apply inv_in_memory; auto. }
  assert (LAST : forall (m2 : mem) (l : list Z), (forall a, m2 a <> None <-> In a l) -> l = lk ->
            ((forall a : Z, m2 a = None) <-> any_overwrites nothing cs = false)).
  { intros m2 l Q ->. rewrite <- EL. split.
    - intros Z0. destruct lk as [|a lk']; [reflexivity|]. exfalso. apply (proj2 (Q a)); [now left|apply Z0].
    - intros -> a. destruct (m2 a) as [o|] eqn:Y; [|reflexivity]. exfalso. apply (proj1 (Q a)). rewrite Y. discriminate. }
  split; [exact (inv_gives _ _ _ _ _ IC)|]. split; [exact (inv_gives _ _ _ _ _ IR)|]. split.
  - destruct (rec_free_ok _ _ _ _ _ IC) as (m1 & F1 & Q1 & K1). exists m1. split; [exact F1|].
    assert (I1 : inv (in_memory r m1 (nxt c)) h (lk ++ []) rps ops).
    { apply inv_in_memory; auto; [intros a Ha; rewrite K1 by exact Ha; now apply KC'|]. cbn [app].
      destruct FC as (A & B & _ & D). destruct (nodup_app _ _ _ A) as (_ & A2 & _).
      split; [exact A2|]. split; [|split; [exact Q1|exact D]]. apply Forall_app in B. tauto. }
    rewrite app_nil_r in I1. split; [exact (inv_gives _ _ _ _ _ I1)|].
    destruct (rec_free_ok _ _ _ _ _ I1) as (m2 & F2 & Q2 & _). exists m2. split; [exact F2|]. now apply (LAST m2 lk).
  - destruct (rec_free_ok _ _ _ _ _ IR) as (m1 & F1 & Q1 & K1). exists m1. split; [exact F1|].
    assert (NF := i_foot _ _ _ _ _ IR). cbn [in_memory mm nxt] in NF, K1.
    assert (FM : foot m1 (nxt c) (fp c rp op ++ lk)).
    { eapply foot_perm; [apply (Permutation_app_comm lk)|].
      destruct NF as (A & B & _ & D). destruct (nodup_app _ _ _ A) as (_ & A2 & _).
      split; [exact A2|]. split; [|split; [exact Q1|exact D]]. apply Forall_app in B. tauto. }
    assert (I1 : inv (in_memory c m1 (nxt c)) (copied h) lk rp op).
    { destruct IC as [J1 J2 J3 J4 J5 J6 _ J7 J8].
      assert (K : forall a, In a (fp c rp op ++ lk) -> m1 a = mm c a).
      { intros a Ha. apply K1. rewrite in_app_iff in *. tauto. }
      split; cbn [in_memory mm nxt name sig req optl]; auto.
      - eapply text_same; [same|exact J1].
      - eapply text_same; [same|exact J2].
      - eapply names_same; [same|exact J3].
      - eapply names_same; [same|exact J4]. }
    split; [exact (inv_gives _ _ _ _ _ I1)|].
    destruct (rec_free_ok _ _ _ _ _ I1) as (m2 & F2 & Q2 & _). exists m2. split; [exact F2|]. now apply (LAST m2 lk).
Qed.
Print Assumptions C106_copy.

(** Freeing with a pointer that was never written. *)
Lemma names_optional_bad : forall names m n m' n' ps, 0 < n -> m (-1) = None ->
  copy_names_optional m n names = (m', n', ps) ->
  m' (-1) = None /\ length ps = length names /\ (forallb is_some names = false -> In (-1) ps).
Proof.
  induction names as [|[s|] names IH]; intros m n m' n' ps N H E; cbn in E.
  - injection E as <- <- <-. split; [exact H|]. split; [reflexivity|discriminate].
  - destruct (copy_names_optional _ (n + 1) names) as [[m1 n1] ps1] eqn:E1. injection E as <- <- <-.
    destruct (IH (upd m n (Some (OText s))) (n + 1) m1 n1 ps1) as (A & B & C);
      [lia|rewrite upd_ne by lia; exact H|exact E1|].
    split; [exact A|]. cbn. split; [now rewrite B|]. intros F. right. auto.
  - destruct (copy_names_optional _ n names) as [[m1 n1] ps1] eqn:E1. injection E as <- <- <-.
    destruct (IH _ _ _ _ _ N H E1) as (A & B & C). split; [exact A|]. cbn. split; [now rewrite B|]. auto.
Qed.

Definition bad (a : Z) (k : nat) (m : mem) : Prop :=
  m (-1) = None /\ forall ps, m a = Some (ONames ps) -> In (-1) ps /\ length ps = k.

Lemma free_opt_bad : forall a k m p m', bad a k m -> free_opt m p = Ok m' -> bad a k m'.
Proof.
  intros a k m p m' [B1 B2] E. unfold free_opt in E. destruct (p =? 0); [injection E as <-; now split|].
  destruct (m p); [|discriminate]. injection E as <-. split.
  - unfold upd. destruct (-1 =? p); auto.
  - intros ps. unfold upd. destruct (a =? p); [discriminate|apply B2].
Qed.

Lemma free_names_bad : forall a j k ps m m', bad a j m -> free_names k m ps = Ok m' -> bad a j m'.
Proof.
  intros a j. induction k as [|k IH]; intros ps m m' B E; cbn in E; [injection E as <-; exact B|].
  destruct ps as [|p ps]; [discriminate|]. destruct (free_opt m p) as [m1| |] eqn:E1; try discriminate. cbn in E.
  eapply IH; [|exact E]. eapply free_opt_bad; eauto.
Qed.

Lemma free_group_bad : forall a j m g m', bad a j m -> free_group m g = Ok m' -> bad a j m'.
Proof.
  intros a j m g m' B E. unfold free_group in E. destruct (g_names g =? 0); [injection E as <-; exact B|].
  destruct (m (g_names g)) as [[| |]|]; try discriminate.
  destruct (free_names _ m ps) as [m1| |] eqn:E1; try discriminate. cbn in E.
  eapply free_opt_bad; [|exact E]. eapply free_names_bad; eauto.
Qed.

Lemma free_names_stops : forall ps m m', m (-1) = None -> In (-1) ps -> free_names (length ps) m ps <> Ok m'.
Proof.
  induction ps as [|p ps IH]; intros m m' H I E; [destruct I|]. cbn in E.
  destruct (free_opt m p) as [m1| |] eqn:E1; try discriminate. cbn in E. destruct I as [->|I].
  - unfold free_opt in E1. cbn in E1. rewrite H in E1. discriminate.
  - revert E. apply IH; [|exact I]. unfold free_opt in E1. destruct (p =? 0); [injection E1 as <-; exact H|].
    destruct (m p); [|discriminate]. injection E1 as <-. unfold upd. destruct (-1 =? p); auto.
Qed.

Lemma free_stops : forall c m', g_names (optl c) <> 0 ->
  bad (g_names (optl c)) (Z.to_nat (g_num (optl c))) (mm c) -> rec_free c <> Ok m'.
Proof.
  intros c m' NZ B E. unfold rec_free in E.
  destruct (free_opt (mm c) (name c)) as [m1| |] eqn:E1; try discriminate. cbn [bind] in E.
  destruct (free_opt m1 (sig c)) as [m2| |] eqn:E2; try discriminate. cbn [bind] in E.
  destruct (free_group m2 (req c)) as [m3| |] eqn:E3; try discriminate. cbn [bind] in E.
  assert (B3 := free_group_bad _ _ _ _ _ (free_opt_bad _ _ _ _ _ (free_opt_bad _ _ _ _ _ B E1) E2) E3).
  destruct (free_group m3 (optl c)) as [m4| |] eqn:E4; try discriminate.
  unfold free_group in E4. rewrite (proj2 (Z.eqb_neq _ 0) NZ) in E4.
  destruct (m3 (g_names (optl c))) as [[| |]|] eqn:E5; try discriminate.
  destruct B3 as [B3 B4]. destruct (B4 _ E5) as [B5 B6]. rewrite <- B6 in E4.
  destruct (free_names (length ps) m3 ps) as [m5| |] eqn:E6; try discriminate.
  exact (free_names_stops _ _ _ B3 B5 E6).
Qed.

(** If an optional argument has no name, the copy has a pointer that was never
    written, and freeing the copy goes through it. *)
Theorem C106_unnamed : forall cs, let r := run rec_alloc cs in let h := fold_left apply cs nothing in
  all_named h = false ->
  exists c, rec_copy r = Ok c /\ forall m', rec_free c <> Ok m'.
Proof.
  intros cs r h AN. destruct (run_ok cs _ _ _ _ _ inv_start) as (lk & rps & ops & I & EL & _).
  rewrite app_nil_r in I. fold r h in I. destruct (inv_gives _ _ _ _ _ I) as (G1 & G2 & G3 & G4 & G5 & G6 & _).
  assert (IS : inv (start (mm r) (nxt r)) nothing (fp r rps ops ++ lk) [] []).
  { split; cbn; auto. exact (i_foot _ _ _ _ _ I). }
  unfold all_named in AN. destruct (h_opt h) as [on|] eqn:EO; [|discriminate].
  unfold rec_copy. rewrite G1, G2, G5, G6. cbn [bind]. fold (start (mm r) (nxt r)). set (c0 := start (mm r) (nxt r)) in *.
  set (l := (match h_name h with Some s => [Name s] | None => [] end) ++
            (match h_sig h with Some s => [Signature s] | None => [] end) ++ [Required (h_req h) None]).
  match goal with |- context [copy_optional ?x (Some on)] => set (c3 := x) end.
  assert (E3 : c3 = run c0 l) by (unfold c3, l; destruct (h_name h), (h_sig h); reflexivity).
  destruct (run_ok l _ _ _ _ _ IS) as (X & rp & op & IC & _ & _). rewrite <- E3 in IC.
  destruct (i_foot _ _ _ _ _ IC) as (_ & B & D & P). clearbody c3. clear E3.
  assert (H1 : mm c3 (-1) = None).
  { destruct (mm c3 (-1)) as [o|] eqn:Y; [|reflexivity]. exfalso.
    assert (Hin : In (-1) (fp c3 rp op ++ X ++ fp r rps ops ++ lk)) by (apply D; rewrite Y; discriminate).
    rewrite Forall_forall in B. specialize (B _ Hin). lia. }
  eexists. split; [reflexivity|]. intros m'. unfold copy_optional.
  destruct (copy_names_optional _ (nxt c3 + 1) on) as [[m1 n1] ps1] eqn:E1.
  destruct (names_optional_bad on (upd (mm c3) (nxt c3) (Some (ONames []))) (nxt c3 + 1) m1 n1 ps1) as (A1 & A2 & A3);
    [lia|rewrite upd_ne by lia; exact H1|exact E1|].
  apply free_stops; cbn [optl g_names g_num mm]; [lia|]. split; [rewrite upd_ne by lia; exact A1|].
  intros ps Q. rewrite upd_eq in Q. injection Q as <-. split; [now apply A3|].
  unfold get_num_optional in G4. rewrite G4. cbn. rewrite Nat2Z.id. exact A2.
Qed.
Print Assumptions C106_unnamed.

(** So a copy is not always as good as the source. *)
Theorem C106_copy_refuted : exists cs m1, rec_free (run rec_alloc cs) = Ok m1 /\
  exists c, rec_copy (run rec_alloc cs) = Ok c /\ (forall m', rec_free c <> Ok m').
Proof.
  exists [Optional (Some [Some [120]; None]) None].
  destruct (C105_free [Optional (Some [Some [120]; None]) None]) as (m1 & F & _). exists m1. split; [exact F|].
  now apply (C106_unnamed [Optional (Some [Some [120]; None]) None]).
Qed.
Print Assumptions C106_copy_refuted.

Example C106_demo : all_named (fold_left apply demo nothing) = true /\
  h_reqt (fold_left apply demo nothing) = Some [1; 2] /\ h_req (copied (fold_left apply demo nothing)) = Some [Some [120]; None].
Proof. repeat split. Qed.
