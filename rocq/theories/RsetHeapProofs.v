(** Proofs about the memory of a result set. *)

From Coq Require Import ZArith List Bool Lia Permutation.
From Verif Require Import Base RsetHeapModel RsetHeapSpec.
Import ListNotations.
Open Scope Z_scope.

(** Where a result and what it owns are. *)
Record own := Own { pa : Z; pk : Z; pc : Z; pp : Z }.
Definition opt (p : Z) : list Z := if p =? 0 then [] else [p].
Definition fp1 (o : own) : list Z := pa o :: pk o :: opt (pc o) ++ opt (pp o).
Definition fp (os : list own) : list Z := flat_map fp1 os.
Definition hdp (os : list own) (nx : Z) : Z := match os with [] => nx | o :: _ => pa o end.
Definition lastp (prv : Z) (os : list own) : Z := fold_left (fun _ o => pa o) os prv.

Fixpoint chain (m : mem) (prv : Z) (os : list own) (nx : Z) : Prop :=
  match os with
  | [] => True
  | o :: t => m (pa o) = Some (ORes (Cell (pk o) (pc o) (pp o) (hdp t nx) prv)) /\ chain m (pa o) t nx
  end.

Definition msgs_at (m : mem) (p : Z) (l : list bytes) : Prop :=
  match l with [] => p = 0 | _ => p <> 0 /\ m p = Some (OMsgs l) end.
Definition owns (m : mem) (o : own) (e : shown) : Prop :=
  m (pk o) = Some (OText (fst (fst e))) /\ msgs_at m (pc o) (snd (fst e)) /\ msgs_at m (pp o) (snd e).

Definition foot (m : mem) (n : Z) (F : list Z) : Prop :=
  NoDup F /\ Forall (fun a => 0 < a < n) F /\ (forall a, m a <> None -> In a F) /\ 0 < n.

Record inv (st : rset) (es : list shown) (um : list bytes) (os : list own) : Prop := Inv {
  i_sels : sels st = hdp os 0;
  i_chain : chain (mm st) 0 os 0;
  i_owns : Forall2 (owns (mm st)) os es;
  i_ht : ht st = map (fun o => (pk o, pa o)) os;
  i_num : num st = zlen os;
  i_foot : foot (mm st) (nxt st) (fp os ++ opt (unm st));
  i_unm : msgs_at (mm st) (unm st) um }.

Lemma upd_eq : forall m a o, upd m a o a = o.
Proof. intros. unfold upd. now rewrite Z.eqb_refl. Qed.
Lemma upd_ne : forall m a o b, b <> a -> upd m a o b = m b.
Proof. intros m a o b H. unfold upd. now rewrite (proj2 (Z.eqb_neq b a) H). Qed.

Lemma text_eqb_spec : forall a b, text_eqb a b = true <-> a = b.
Proof.
  induction a as [|x a IH]; intros [|y b]; cbn; split; intro H; try discriminate; auto.
  - apply andb_prop in H as [H1 H2]. apply Z.eqb_eq in H1. apply IH in H2. now subst.
  - injection H as -> ->. rewrite Z.eqb_refl. now apply IH.
Qed.

Lemma foot_perm : forall m n F G, Permutation F G -> foot m n F -> foot m n G.
Proof.
  intros m n F G P (A & B & C & D). repeat split; auto.
  - eapply Permutation_NoDup; eauto.
  - eapply Permutation_Forall; eauto.
  - intros a Ha. eapply Permutation_in; eauto.
Qed.

Lemma foot_upd : forall m n F a o, In a F -> foot m n F -> foot (upd m a o) n F.
Proof.
  intros m n F a o Ha (A & B & C & D). repeat split; auto.
  intros b Hb. destruct (Z.eq_dec b a) as [->|N]; auto. rewrite upd_ne in Hb by auto. auto.
Qed.

Lemma foot_fresh : forall m n F, foot m n F -> ~ In n F.
Proof. intros m n F (A & B & C & D) H. rewrite Forall_forall in B. apply B in H. lia. Qed.

Lemma foot_alloc : forall m n F o, foot m n F -> foot (upd m n o) (n + 1) (n :: F).
Proof.
  intros m n F o H. pose proof (foot_fresh _ _ _ H) as Nf. destruct H as (A & B & C & D).
  split; [|split; [|split]].
  - now constructor.
  - constructor; [lia|]. eapply Forall_impl; [|exact B]. cbn. intros; lia.
  - intros a Ha. destruct (Z.eq_dec a n) as [->|N]; [now left|right].
    rewrite upd_ne in Ha by auto. auto.
  - lia.
Qed.

Lemma foot_pos : forall m n F a, foot m n F -> In a F -> a <> 0.
Proof. intros m n F a (A & B & C & D) H. rewrite Forall_forall in B. apply B in H. lia. Qed.

Lemma fp_app : forall l1 l2, fp (l1 ++ l2) = fp l1 ++ fp l2.
Proof. intros. unfold fp. apply flat_map_app. Qed.

Lemma in_fp_pa : forall o os, In o os -> In (pa o) (fp os).
Proof. intros o os H. apply in_flat_map. exists o. split; auto. now left. Qed.

Lemma chain_app : forall m l1 prv l2 nx,
  chain m prv (l1 ++ l2) nx <-> chain m prv l1 (hdp l2 nx) /\ chain m (lastp prv l1) l2 nx.
Proof.
  induction l1 as [|o l1 IH]; intros prv l2 nx.
  - cbn. tauto.
  - cbn [app chain]. rewrite IH. unfold lastp. cbn [fold_left].
    assert (E : hdp (l1 ++ l2) nx = hdp l1 (hdp l2 nx)) by (destruct l1; reflexivity).
    rewrite E. tauto.
Qed.

Lemma chain_upd : forall m l prv nx a o, ~ In a (fp l) -> chain m prv l nx -> chain (upd m a o) prv l nx.
Proof.
  induction l as [|x l IH]; intros prv nx a o N H; auto.
  cbn [chain] in *. destruct H as [H1 H2]. split.
  - rewrite upd_ne; auto. intros E. apply N. rewrite <- E. now left.
  - apply IH; auto. intros HI. apply N. apply in_or_app. now right.
Qed.

Lemma msgs_upd : forall m p l a o, ~ In a (opt p) -> msgs_at m p l -> msgs_at (upd m a o) p l.
Proof.
  intros m p [|x l] a o N H; auto. cbn in *. destruct H as [H1 H2]. split; auto.
  rewrite upd_ne; auto. intros <-. apply N. unfold opt. rewrite (proj2 (Z.eqb_neq p 0) H1). now left.
Qed.

Lemma owns_upd : forall m x e a o,
  a <> pk x -> ~ In a (opt (pc x)) -> ~ In a (opt (pp x)) -> owns m x e -> owns (upd m a o) x e.
Proof.
  intros m x e a o A B C (H1 & H2 & H3). split; [|split].
  - rewrite upd_ne; auto.
  - now apply msgs_upd.
  - now apply msgs_upd.
Qed.

Lemma owns_all_upd : forall m os es a o,
  ~ In a (fp os) -> Forall2 (owns m) os es -> Forall2 (owns (upd m a o)) os es.
Proof.
  intros m os es a o N F. induction F as [|x e os es H F IH]; constructor.
  - apply owns_upd; auto.
    + intros ->. apply N. right. now left.
    + intros HI. apply N. do 2 right. apply in_or_app. left. apply in_or_app. now left.
    + intros HI. apply N. do 2 right. apply in_or_app. left. apply in_or_app. now right.
  - apply IH. intros HI. apply N. apply in_or_app. now right.
Qed.

Lemma nodup_mid : forall (A : Type) (l1 : list A) l2 l3 l4 a,
  NoDup ((l1 ++ l2 ++ l3) ++ l4) -> In a l2 -> ~ In a l1 /\ ~ In a l3 /\ ~ In a l4.
Proof.
  intros A l1 l2 l3 l4 a H Ha. rewrite <- !app_assoc in H.
  assert (N1 : forall x (p q : list A), NoDup (p ++ q) -> In x p -> ~ In x q).
  { intros x p. induction p as [|y p IH]; intros q Hn Hx; [destruct Hx|].
    cbn in Hn. inversion Hn as [|? ? Hy Hn']; subst. destruct Hx as [->|Hx]; [|now apply IH].
    intros Hq. apply Hy. apply in_or_app. now right. }
  split; [|split].
  - intros H1. apply (N1 a _ _ H H1). apply in_or_app. now left.
  - intros H3. assert (H' : NoDup (l2 ++ l3 ++ l4)).
    { clear -H. induction l1 as [|y l1 IH]; auto. cbn in H. inversion H; auto. }
    apply (N1 a _ _ H' Ha). apply in_or_app. now left.
  - intros H3. assert (H' : NoDup (l2 ++ l3 ++ l4)).
    { clear -H. induction l1 as [|y l1 IH]; auto. cbn in H. inversion H; auto. }
    apply (N1 a _ _ H' Ha). apply in_or_app. now right.
Qed.

Lemma nodup_app_r : forall (A : Type) (p q : list A), NoDup (p ++ q) -> NoDup q.
Proof. intros A p. induction p as [|y p IH]; intros q H; auto. cbn in H. inversion H; auto. Qed.
Lemma nodup_app_l : forall (A : Type) (p q : list A), NoDup (p ++ q) -> NoDup p.
Proof.
  intros A p. induction p as [|y p IH]; intros q H; [constructor|]. cbn in H. inversion H as [|? ? H1 H2]; subst.
  constructor; [|now apply IH in H2]. intros Hy. apply H1. apply in_or_app. now left.
Qed.

Lemma get_cell_ok : forall m p c, p <> 0 -> m p = Some (ORes c) -> get_cell m p = Ok c.
Proof. intros m p c H E. unfold get_cell. rewrite (proj2 (Z.eqb_neq p 0) H), E. reflexivity. Qed.
Lemma get_text_ok : forall m p s, p <> 0 -> m p = Some (OText s) -> get_text m p = Ok s.
Proof. intros m p c H E. unfold get_text. rewrite (proj2 (Z.eqb_neq p 0) H), E. reflexivity. Qed.

(** Looking a selector up. *)
Lemma lookup_none : forall m os es s, Forall2 (owns m) os es -> Forall (fun o => pk o <> 0) os ->
  ~ In s (map (fun e => fst (fst e)) es) -> ht_lookup m (map (fun o => (pk o, pa o)) os) s = Ok 0.
Proof.
  intros m os es s F. induction F as [|o e os es H F IH]; intros P N; [reflexivity|].
  inversion P as [|? ? P1 P2]; subst. cbn [map ht_lookup].
  rewrite (get_text_ok _ _ _ P1 (proj1 H)). cbn [bind].
  destruct (text_eqb (fst (fst e)) s) eqn:E.
  - exfalso. apply N. left. now apply text_eqb_spec.
  - apply IH; auto. intros HI. apply N. now right.
Qed.

Lemma lookup_some : forall m l1 o l2 e1 e e2 s,
  Forall2 (owns m) (l1 ++ o :: l2) (e1 ++ e :: e2) -> length l1 = length e1 ->
  Forall (fun o => pk o <> 0) (l1 ++ o :: l2) ->
  fst (fst e) = s -> ~ In s (map (fun e => fst (fst e)) e1) ->
  ht_lookup m (map (fun o => (pk o, pa o)) (l1 ++ o :: l2)) s = Ok (pa o).
Proof.
  intros m l1. induction l1 as [|x l1 IH]; intros o l2 [|y e1] e e2 s F L P E N; try discriminate.
  - cbn [app] in *. inversion F as [|? ? ? ? H F']; subst. inversion P as [|? ? P1 P2]; subst.
    cbn [map ht_lookup]. rewrite (get_text_ok _ _ _ P1 (proj1 H)). cbn [bind].
    now rewrite (proj2 (text_eqb_spec _ _) eq_refl).
  - cbn [app] in *. inversion F as [|? ? ? ? H F']; subst. inversion P as [|? ? P1 P2]; subst.
    cbn [map ht_lookup]. rewrite (get_text_ok _ _ _ P1 (proj1 H)). cbn [bind].
    destruct (text_eqb (fst (fst y)) (fst (fst e))) eqn:Q.
    + exfalso. apply N. left. now apply text_eqb_spec.
    + eapply IH; eauto. intros HI. apply N. now right.
Qed.

Lemma store_none : forall m os es s kp v, Forall2 (owns m) os es -> Forall (fun o => pk o <> 0) os ->
  ~ In s (map (fun e => fst (fst e)) es) ->
  ht_store m (map (fun o => (pk o, pa o)) os) s kp v = Ok (m, map (fun o => (pk o, pa o)) os ++ [(kp, v)]).
Proof.
  intros m os es s kp v F. induction F as [|o e os es H F IH]; intros P N; [reflexivity|].
  inversion P as [|? ? P1 P2]; subst. cbn [map ht_store].
  rewrite (get_text_ok _ _ _ P1 (proj1 H)). cbn [bind].
  destruct (text_eqb (fst (fst e)) s) eqn:E.
  - exfalso. apply N. left. now apply text_eqb_spec.
  - rewrite IH; auto. intros HI. apply N. now right.
Qed.

Lemma inv_pk : forall m n os u, foot m n (fp os ++ u) -> Forall (fun o => pk o <> 0) os.
Proof.
  intros m n os u H. rewrite Forall_forall. intros o Ho. eapply foot_pos; [exact H|].
  apply in_or_app. left. apply in_flat_map. exists o. split; auto. right. now left.
Qed.
Lemma inv_pa : forall m n os u, foot m n (fp os ++ u) -> Forall (fun o => pa o <> 0) os.
Proof.
  intros m n os u H. rewrite Forall_forall. intros o Ho. eapply foot_pos; [exact H|].
  apply in_or_app. left. now apply in_fp_pa.
Qed.

Lemma last_ok : forall m os o prv fuel, chain m prv (os ++ [o]) 0 -> Forall (fun o => pa o <> 0) (os ++ [o]) ->
  (length os < fuel)%nat -> last_result fuel m (hdp (os ++ [o]) 0) = Ok (pa o).
Proof.
  induction os as [|x os IH]; intros o prv fuel C P L; (destruct fuel as [|fuel]; [cbn in L; lia|]).
  - cbn in *. destruct C as [C _]. inversion P; subst. now rewrite (get_cell_ok _ _ _ H1 C).
  - cbn [app chain hdp last_result] in *. destruct C as [C C']. inversion P as [|? ? P1 P2]; subst.
    rewrite (get_cell_ok _ _ _ P1 C). cbn [bind c_next].
    assert (Z0 : hdp (os ++ [o]) 0 <> 0).
    { destruct os as [|y os]; cbn in P2 |- *; inversion P2; auto. }
    rewrite (proj2 (Z.eqb_neq _ 0) Z0). eapply IH; eauto. cbn in L. lia.
Qed.

(** A new result for a selector that has none. *)
Lemma append_ok : forall st es um os s st1 p,
  inv st es um os -> ~ In s (map (fun e => fst (fst e)) es) -> result_alloc st s = (st1, p) ->
  exists st', append_result st1 p = Ok st' /\
    inv st' (es ++ [(s, [], [])]) um (os ++ [Own p (nxt st) 0 0]) /\ cur st' = cur st.
Proof.
  intros st es um os s st1 p I N E. destruct I as [IS IC IO IH INU IF IU].
  unfold result_alloc, alloc in E. cbn in E. injection E as <- <-.
  set (n := nxt st) in *. set (m := mm st) in *.
  set (m1 := upd m n (Some (OText s))). set (m2 := upd m1 (n + 1) (Some (ORes (Cell n 0 0 0 0)))).
  pose proof (foot_alloc _ _ _ (Some (OText s)) IF) as F1. fold m1 in F1.
  pose proof (foot_alloc _ _ _ (Some (ORes (Cell n 0 0 0 0))) F1) as F2. fold m2 in F2.
  pose proof (foot_fresh _ _ _ IF) as X1. pose proof (foot_fresh _ _ _ F1) as X2.
  assert (Y1 : ~ In n (fp os)) by (intros H; apply X1; apply in_or_app; now left).
  assert (Y2 : ~ In (n + 1) (fp os)) by (intros H; apply X2; right; apply in_or_app; now left).
  assert (Z1 : ~ In n (opt (unm st))) by (intros H; apply X1; apply in_or_app; now right).
  assert (Z2 : ~ In (n + 1) (opt (unm st))) by (intros H; apply X2; right; apply in_or_app; now right).
  assert (NP : 0 < n) by apply IF.
  assert (C2 : chain m2 0 os 0) by (now repeat apply chain_upd).
  assert (O2 : Forall2 (owns m2) os es) by (now repeat apply owns_all_upd).
  assert (U2 : msgs_at m2 (unm st) um) by (now repeat apply msgs_upd).
  assert (T2 : m2 n = Some (OText s)) by (unfold m2, m1; rewrite upd_ne by lia; apply upd_eq).
  assert (K2 : m2 (n + 1) = Some (ORes (Cell n 0 0 0 0))) by (unfold m2; apply upd_eq).
  assert (PK := inv_pk _ _ _ _ IF). assert (PA := inv_pa _ _ _ _ IF).
  set (new := Own (n + 1) n 0 0).
  assert (FN : foot m2 (n + 1 + 1) (fp (os ++ [new]) ++ opt (unm st))).
  { eapply foot_perm; [|exact F2]. rewrite fp_app. cbn.
    rewrite <- app_assoc. cbn.
    etransitivity; [|apply Permutation_middle]. apply perm_skip. apply Permutation_middle. }
  unfold append_result. cbn [sels].
  destruct (rev os) as [|o r] eqn:R.
  - assert (os = []) as -> by (rewrite <- (rev_involutive os), R; reflexivity).
    inversion IO; subst. cbn in IS. rewrite IS. cbn [Z.eqb bind mm ht cur num unm nxt].
    fold m m1 m2. rewrite (get_cell_ok m2 (n + 1) (Cell n 0 0 0 0)) by (auto; lia). cbn [bind c_sel].
    rewrite (get_text_ok m2 n s) by (auto; lia). cbn [bind]. rewrite IH. cbn [map ht_store bind app].
    eexists. split; [reflexivity|]. split; [|reflexivity].
    split; cbn [mm ht cur num unm nxt sels]; auto.
    + cbn. auto.
    + constructor; [|constructor]. split; [exact T2|]. split; reflexivity.
    + rewrite INU. reflexivity.
  - assert (os = rev r ++ [o]) as Eo by (rewrite <- (rev_involutive os), R; reflexivity).
    set (l := rev r) in *. clearbody l. subst os. clear R r.
    assert (PO : pa o <> 0) by (apply Forall_app in PA as [_ PA]; inversion PA; auto).
    assert (S0 : sels st <> 0).
    { rewrite IS. clear -PA. destruct l as [|y l]; cbn in *; inversion PA; auto. }
    rewrite (proj2 (Z.eqb_neq _ 0) S0).
    cbn [mm ht cur num unm nxt sels]. fold m m1 m2.
    rewrite IS, (last_ok m2 l o 0) by
      (auto; rewrite INU; unfold zlen; rewrite app_length; cbn; lia). cbn [bind].
    assert (Co := C2). rewrite chain_app in Co. destruct Co as [Cl Co]. cbn [chain hdp] in Co. destruct Co as [Co _].
    rewrite (get_cell_ok _ _ _ PO Co). cbn [bind c_sel c_com c_par c_prev].
    set (prv := lastp 0 l) in *.
    set (m3 := upd m2 (pa o) _).
    assert (Na : pa o <> n + 1) by (intros H; apply Y2; rewrite <- H; apply in_fp_pa; apply in_or_app; right; now left).
    assert (Nn : pa o <> n) by (intros H; apply Y1; rewrite <- H; apply in_fp_pa; apply in_or_app; right; now left).
    assert (K3 : m3 (n + 1) = Some (ORes (Cell n 0 0 0 0))) by (unfold m3; rewrite upd_ne; auto).
    rewrite (get_cell_ok m3 (n + 1) _ ltac:(lia) K3). cbn [bind c_sel c_com c_par c_prev c_next].
    set (m4 := upd m3 (n + 1) _). unfold with_mem. cbn [mm ht cur num unm nxt sels].
    rewrite (get_cell_ok m4 (n + 1) (Cell n 0 0 0 (pa o))) by (try lia; unfold m4; apply upd_eq).
    cbn [bind c_sel].
    assert (T4 : m4 n = Some (OText s)) by (unfold m4, m3; rewrite !upd_ne by (auto; lia); exact T2).
    rewrite (get_text_ok m4 n s) by (auto; lia). cbn [bind]. rewrite IH.
    (* the footprint of what is before the last result *)
    assert (ND : NoDup ((fp l ++ fp1 o ++ []) ++ opt (unm st))).
    { replace (fp l ++ fp1 o ++ []) with (fp (l ++ [o])) by (rewrite fp_app; cbn; rewrite ?app_nil_r; reflexivity).
      apply IF. }
    destruct (nodup_mid _ _ _ _ _ (pa o) ND (or_introl eq_refl)) as (M1 & _ & M3).
    assert (Q : ~ In (pa o) (pk o :: opt (pc o) ++ opt (pp o))).
    { rewrite app_nil_r, <- app_assoc in ND. apply NoDup_remove_2 in ND. cbn. intros H. apply ND.
      apply in_or_app. right. cbn. destruct H as [H|H]; [now left|right].
      apply in_or_app. now left. }
    assert (O4 : Forall2 (owns m4) (l ++ [o]) es).
    { unfold m4. apply owns_all_upd; auto. unfold m3.
      apply Forall2_app_inv_l in O2 as (e1 & e2 & A & B & ->). apply Forall2_app.
      - apply owns_all_upd; auto.
      - inversion B as [|? ? ? ? B1 B2]; subst. inversion B2; subst. constructor; auto.
        apply owns_upd; auto.
        + intros H. apply Q. now left.
        + intros H. apply Q. right. apply in_or_app. now left.
        + intros H. apply Q. right. apply in_or_app. now right. }
    rewrite (store_none m4 _ es s n (n + 1)) by auto. cbn [bind].
    eexists. split; [reflexivity|]. split; [|reflexivity].
    split; cbn [mm ht cur num unm nxt sels].
    + clear. destruct l; reflexivity.
    + rewrite <- app_assoc. cbn [app]. apply chain_app. split.
      * cbn [hdp]. unfold m4, m3. apply chain_upd; [|apply chain_upd; auto].
        intros H. apply Y2. rewrite fp_app. apply in_or_app. now left.
      * cbn [chain hdp pa pk pc pp]. fold prv. split; [|split; [|exact Logic.I]].
        -- unfold m4. rewrite upd_ne by auto. unfold m3. apply upd_eq.
        -- unfold m4. apply upd_eq.
    + apply Forall2_app; [exact O4|]. constructor; [|constructor]. split; [exact T4|]. split; reflexivity.
    + rewrite !map_app. reflexivity.
    + rewrite INU. unfold zlen. rewrite !app_length. cbn. lia.
    + unfold m4, m3. apply foot_upd; [|apply foot_upd; auto].
      * apply in_or_app. left. rewrite fp_app. apply in_or_app. right. now left.
      * apply in_or_app. left. rewrite fp_app. apply in_or_app. left.
        apply in_fp_pa. apply in_or_app. right. now left.
    + unfold m4, m3. now repeat apply msgs_upd.
Qed.

(** One more message for a result. *)
Definition addto (partial : bool) (e : shown) (msg : bytes) : shown :=
  let '(s, c, q) := e in if partial then (s, c, q ++ [msg]) else (s, c ++ [msg], q).

Lemma append_b_null : forall st msg,
  append_b st 0 msg =
  Ok (Rset (upd (upd (mm st) (nxt st) (Some (OMsgs []))) (nxt st) (Some (OMsgs [msg])))
        (nxt st + 1) (ht st) (sels st) (cur st) (num st) (unm st), nxt st) \/ nxt st = 0.
Proof.
  intros st msg. destruct (Z.eq_dec (nxt st) 0) as [E|E]; [now right|left].
  unfold append_b. cbn [Z.eqb alloc fst snd]. unfold get_msgs. cbn [mm].
  rewrite (proj2 (Z.eqb_neq _ 0) E), upd_eq. reflexivity.
Qed.

Lemma append_b_some : forall st b l msg, b <> 0 -> mm st b = Some (OMsgs l) ->
  append_b st b msg = Ok (with_mem st (upd (mm st) b (Some (OMsgs (l ++ [msg])))), b).
Proof.
  intros st b l msg H E. unfold append_b, get_msgs.
  now rewrite (proj2 (Z.eqb_neq b 0) H), (proj2 (Z.eqb_neq b 0) H), E.
Qed.

Lemma msgs_at_cases : forall m p l, msgs_at m p l -> (p = 0 /\ l = []) \/ (p <> 0 /\ m p = Some (OMsgs l)).
Proof. intros m p [|x l] H; cbn in H; auto. Qed.

Lemma msgs_at_snoc : forall m p l x, p <> 0 -> m p = Some (OMsgs (l ++ [x])) -> msgs_at m p (l ++ [x]).
Proof. intros m p l x H E. destruct l; cbn in *; auto. Qed.

Lemma opt_ne : forall p, p <> 0 -> opt p = [p].
Proof. intros p H. unfold opt. now rewrite (proj2 (Z.eqb_neq p 0) H). Qed.

Lemma put_ok : forall partial st l1 o l2 e1 e e2 um msg,
  inv st (e1 ++ e :: e2) um (l1 ++ o :: l2) -> length l1 = length e1 ->
  exists st' o', result_add partial st (pa o) msg = Ok st' /\ pa o' = pa o /\
    inv st' (e1 ++ addto partial e msg :: e2) um (l1 ++ o' :: l2) /\ cur st' = cur st.
Proof.
  intros partial st l1 o l2 e1 e e2 um msg I L. destruct I as [IS IC IO IH INU IF IU].
  assert (PA := inv_pa _ _ _ _ IF).
  assert (PO : pa o <> 0) by (rewrite Forall_forall in PA; apply PA; apply in_or_app; right; now left).
  assert (IC' := IC). rewrite chain_app in IC'. destruct IC' as [C1 C2]. cbn [chain hdp] in C2. destruct C2 as [Co C2].
  set (prv := lastp 0 l1) in *.
  assert (IO1 : Forall2 (owns (mm st)) l1 e1 /\ owns (mm st) o e /\ Forall2 (owns (mm st)) l2 e2).
  { clear -IO L. revert e1 L IO. induction l1 as [|x l1 IHl]; intros [|y e1] L IO; try discriminate; cbn in IO.
    - inversion IO; subst. auto.
    - inversion IO; subst. destruct (IHl e1) as (A & B & C); auto. }
  destruct IO1 as (O1 & Oo & O2).
  assert (ND : NoDup ((fp l1 ++ fp1 o ++ fp l2) ++ opt (unm st))).
  { replace (fp l1 ++ fp1 o ++ fp l2) with (fp (l1 ++ o :: l2)) by (rewrite fp_app; reflexivity). apply IF. }
  assert (MID := fun a => nodup_mid _ _ _ _ _ a ND).
  assert (NDo : NoDup (fp1 o)).
  { rewrite <- !app_assoc in ND. apply nodup_app_r in ND. now apply nodup_app_l in ND. }
  assert (FR := foot_fresh _ _ _ IF).
  assert (NP : 0 < nxt st) by apply IF.
  unfold result_add. rewrite (get_cell_ok _ _ _ PO Co). cbn [bind c_sel c_com c_par c_next c_prev].
  set (b := if partial then pp o else pc o).
  destruct e as [[s cm] pm]. destruct Oo as (Ok1 & Ok2 & Ok3). cbn [fst snd] in *.
  assert (Hb : msgs_at (mm st) b (if partial then pm else cm)) by (destruct partial; auto).
  replace (if partial then pp o else pc o) with b by reflexivity.
  destruct (msgs_at_cases _ _ _ Hb) as [[B0 BL]|[B0 BL]].
  - (* a new bundle *)
    destruct (append_b_null st msg) as [AB|AB]; [|lia]. rewrite B0, AB. cbn [bind].
    set (n := nxt st) in *. set (m := mm st) in *.
    set (m1 := upd (upd m n (Some (OMsgs []))) n (Some (OMsgs [msg]))).
    unfold with_mem. cbn [mm ht cur num unm nxt sels].
    set (o' := if partial then Own (pa o) (pk o) (pc o) n else Own (pa o) (pk o) n (pp o)).
    exists (Rset (upd m1 (pa o) (Some (ORes (Cell (pk o') (pc o') (pp o') (hdp l2 0) prv)))) (n + 1)
             (ht st) (sels st) (cur st) (num st) (unm st)), o'.
    split; [destruct partial; reflexivity|].
    assert (E1 : pa o' = pa o) by (destruct partial; reflexivity).
    assert (E2 : pk o' = pk o) by (destruct partial; reflexivity).
    split; [exact E1|]. split; [|reflexivity].
    assert (PF : Permutation (n :: fp1 o) (fp1 o')).
    { unfold fp1, o', b in *. destruct partial; cbn [pa pk pc pp]; rewrite (opt_ne n) by lia; rewrite ?B0.
      - cbn [opt Z.eqb]. rewrite app_nil_r. etransitivity; [apply perm_swap|]. apply perm_skip.
        etransitivity; [apply perm_swap|]. apply perm_skip. apply Permutation_cons_append.
      - cbn [opt Z.eqb app]. etransitivity; [apply perm_swap|]. apply perm_skip. apply perm_swap. }
    assert (Nf : ~ In n (fp l1) /\ ~ In n (fp1 o) /\ ~ In n (fp l2) /\ ~ In n (opt (unm st))).
    { rewrite fp_app in FR. cbn [fp flat_map] in FR. fold (fp l2) in FR.
      repeat split; intros H; apply FR; rewrite !in_app_iff; tauto. }
    destruct Nf as (N1 & N2 & N3 & N4).
    destruct (MID (pa o) (or_introl eq_refl)) as (M1 & M2 & M3).
    assert (Na : pa o <> n) by (intros H; apply N2; rewrite <- H; now left).
    assert (Nk : pa o <> pk o).
    { unfold fp1 in NDo. inversion NDo as [|? ? X _]; subst. intros H. apply X. rewrite H. now left. }
    assert (Nc : ~ In (pa o) (opt (pc o)) /\ ~ In (pa o) (opt (pp o))).
    { unfold fp1 in NDo. inversion NDo as [|? ? X _]; subst.
      split; intros H; apply X; right; apply in_or_app; tauto. }
    assert (Nn : n <> pk o /\ ~ In n (opt (pc o)) /\ ~ In n (opt (pp o))).
    { unfold fp1 in N2. repeat split; intros H; apply N2; [right; now left|..]; do 2 right; apply in_or_app; tauto. }
    destruct Nc as [Nc1 Nc2]. destruct Nn as (Nn1 & Nn2 & Nn3).
    assert (Hn : upd m1 (pa o) (Some (ORes (Cell (pk o') (pc o') (pp o') (hdp l2 0) prv))) n = Some (OMsgs [msg])).
    { rewrite upd_ne by auto. apply upd_eq. }
    split; cbn [mm ht cur num unm nxt sels].
    + rewrite IS. destruct l1; cbn; auto.
    + apply chain_app. split.
      * cbn [hdp]. rewrite E1. unfold m1. now repeat apply chain_upd.
      * fold prv. cbn [chain]. split.
        -- rewrite E1. apply upd_eq.
        -- rewrite E1. unfold m1. now repeat apply chain_upd.
    + apply Forall2_app; [|constructor].
      * unfold m1. now repeat apply owns_all_upd.
      * split; [|split].
        -- rewrite E2, upd_ne by auto. unfold m1. rewrite !upd_ne by auto.
           destruct partial; exact Ok1.
        -- unfold o', b in *. destruct partial; cbn [addto fst snd pc].
           ++ unfold m1. now repeat apply msgs_upd.
           ++ subst cm. cbn [app msgs_at]. split; [lia|exact Hn].
        -- unfold o', b in *. destruct partial; cbn [addto fst snd pp].
           ++ subst pm. cbn [app msgs_at]. split; [lia|exact Hn].
           ++ unfold m1. now repeat apply msgs_upd.
      * unfold m1. now repeat apply owns_all_upd.
    + rewrite IH, !map_app. cbn [map]. now rewrite E1, E2.
    + rewrite INU. unfold zlen. rewrite !app_length. reflexivity.
    + apply foot_upd.
      * apply in_or_app. left. rewrite <- E1. apply in_fp_pa. apply in_or_app. right. now left.
      * unfold m1. apply foot_upd.
        -- apply in_or_app. left. rewrite fp_app. apply in_or_app. right. apply in_or_app. left.
           eapply Permutation_in; [exact PF|]. now left.
        -- eapply foot_perm; [|apply foot_alloc; exact IF].
           rewrite !fp_app. cbn [fp flat_map]. fold (fp l2).
           rewrite <- !app_assoc. etransitivity; [apply Permutation_middle|].
           apply Permutation_app_head. rewrite app_comm_cons. apply Permutation_app_tail. exact PF.
    + unfold m1. now repeat apply msgs_upd.
  - (* the bundle that is there *)
    rewrite (append_b_some _ _ _ msg B0 BL). cbn [bind]. unfold with_mem. cbn [mm ht cur num unm nxt sels].
    set (m := mm st) in *. set (m1 := upd m b (Some (OMsgs ((if partial then pm else cm) ++ [msg])))).
    exists (Rset (upd m1 (pa o) (Some (ORes (Cell (pk o) (pc o) (pp o) (hdp l2 0) prv)))) (nxt st)
             (ht st) (sels st) (cur st) (num st) (unm st)), o.
    split; [unfold b; destruct partial; reflexivity|]. split; [reflexivity|]. split; [|reflexivity].
    assert (IB : In b (fp1 o)).
    { unfold fp1, b in *. do 2 right. apply in_or_app.
      destruct partial; [right|left]; rewrite opt_ne by auto; now left. }
    destruct (MID (pa o) (or_introl eq_refl)) as (M1 & M2 & M3).
    destruct (MID b IB) as (Q1 & Q2 & Q3).
    assert (Nb : pa o <> b /\ pa o <> pk o /\ ~ In (pa o) (opt (pc o)) /\ ~ In (pa o) (opt (pp o))).
    { unfold fp1 in NDo. inversion NDo as [|? ? X _]; subst. repeat split; intros H; apply X.
      - rewrite H. unfold b in *. right. apply in_or_app.
        destruct partial; [right|left]; rewrite opt_ne by auto; now left.
      - rewrite H. now left.
      - right. apply in_or_app. now left.
      - right. apply in_or_app. now right. }
    destruct Nb as (Nb & Nk & Nc1 & Nc2).
    assert (Nk2 : b <> pk o).
    { unfold fp1 in NDo. inversion NDo as [|? ? _ X]; subst. inversion X as [|? ? X1 _]; subst.
      intros H. apply X1. rewrite <- H. unfold b in *. apply in_or_app.
      destruct partial; [right|left]; rewrite opt_ne by auto; now left. }
    assert (Nx : ~ In b (opt (if partial then pc o else pp o))).
    { unfold fp1 in NDo. inversion NDo as [|? ? _ X]; subst. inversion X as [|? ? _ X1]; subst.
      unfold b in *. destruct partial; intros H.
      - rewrite (opt_ne (pp o)) in X1 by auto. apply NoDup_remove_2 in X1. rewrite app_nil_r in X1. now apply X1.
      - rewrite (opt_ne (pc o)) in X1 by auto. cbn in X1. inversion X1; auto. }
    assert (Hn : upd m1 (pa o) (Some (ORes (Cell (pk o) (pc o) (pp o) (hdp l2 0) prv))) b
                 = Some (OMsgs ((if partial then pm else cm) ++ [msg]))).
    { rewrite upd_ne by auto. apply upd_eq. }
    split; cbn [mm ht cur num unm nxt sels]; auto.
    + apply chain_app. split.
      * unfold m1. now repeat apply chain_upd.
      * fold prv. cbn [chain]. split; [apply upd_eq|]. unfold m1. now repeat apply chain_upd.
    + apply Forall2_app; [|constructor].
      * unfold m1. now repeat apply owns_all_upd.
      * split; [|split].
        -- rewrite upd_ne by auto. unfold m1. rewrite upd_ne by auto. destruct partial; exact Ok1.
        -- unfold b in *. destruct partial; cbn [addto fst snd].
           ++ unfold m1. now repeat apply msgs_upd.
           ++ now apply msgs_at_snoc.
        -- unfold b in *. destruct partial; cbn [addto fst snd].
           ++ now apply msgs_at_snoc.
           ++ unfold m1. now repeat apply msgs_upd.
      * unfold m1. now repeat apply owns_all_upd.
    + apply foot_upd; [|apply foot_upd; auto].
      * apply in_or_app. left. apply in_fp_pa. apply in_or_app. right. now left.
      * apply in_or_app. left. rewrite fp_app. apply in_or_app. right. apply in_or_app. now left.
    + unfold m1. now repeat apply msgs_upd.
Qed.

(** One more message that nothing matched. *)
Lemma unmatched_ok : forall st es um os msg, inv st es um os ->
  exists st', add_unmatched st msg = Ok st' /\ inv st' es (um ++ [msg]) os /\ cur st' = cur st.
Proof.
  intros st es um os msg I. destruct I as [IS IC IO IH INU IF IU].
  assert (NP : 0 < nxt st) by apply IF. assert (FR := foot_fresh _ _ _ IF).
  unfold add_unmatched. destruct (msgs_at_cases _ _ _ IU) as [[B0 BL]|[B0 BL]].
  - destruct (append_b_null st msg) as [AB|AB]; [|lia]. rewrite B0, AB. cbn [bind mm ht cur num unm nxt sels].
    eexists. split; [reflexivity|]. split; [|reflexivity].
    rewrite B0 in IF, FR. cbn [opt Z.eqb] in IF, FR. rewrite app_nil_r in IF, FR.
    split; cbn [mm ht cur num unm nxt sels]; auto.
    + now repeat apply chain_upd.
    + now repeat apply owns_all_upd.
    + rewrite opt_ne by lia. apply foot_upd; [apply in_or_app; right; now left|].
      eapply foot_perm; [|apply foot_alloc; exact IF]. apply Permutation_cons_append.
    + subst um. cbn. split; [lia|]. apply upd_eq.
  - rewrite (append_b_some _ _ _ msg B0 BL). cbn [bind with_mem mm ht cur num unm nxt sels].
    eexists. split; [reflexivity|]. split; [|reflexivity].
    assert (NI : ~ In (unm st) (fp os)).
    { destruct IF as (ND & _). rewrite opt_ne in ND by auto. apply NoDup_remove_2 in ND.
      now rewrite app_nil_r in ND. }
    split; cbn [with_mem mm ht cur num unm nxt sels]; auto.
    + now apply chain_upd.
    + now apply owns_all_upd.
    + apply foot_upd; auto. rewrite opt_ne by auto. apply in_or_app. right. now left.
    + apply msgs_at_snoc; auto. apply upd_eq.
Qed.

(** The end of the set. *)
Lemma free_block_ok : forall m a, m a <> None -> free_block m a = Ok (upd m a None).
Proof. intros m a H. unfold free_block. destruct (m a); [reflexivity|now elim H]. Qed.

Lemma deep_free_ok : forall m p, (p <> 0 -> m p <> None) ->
  exists m', deep_free m p = Ok m' /\ forall a, m' a = if in_dec Z.eq_dec a (opt p) then None else m a.
Proof.
  intros m p H. unfold deep_free. destruct (Z.eq_dec p 0) as [->|N].
  - exists m. split; [reflexivity|]. intros a. reflexivity.
  - rewrite (proj2 (Z.eqb_neq p 0) N), free_block_ok by auto. eexists. split; [reflexivity|].
    intros a. rewrite opt_ne by auto. destruct (in_dec Z.eq_dec a [p]) as [[->|[]]|NI].
    + apply upd_eq.
    + apply upd_ne. intros ->. apply NI. now left.
Qed.

Lemma msgs_present : forall m p l, msgs_at m p l -> p <> 0 -> m p <> None.
Proof. intros m p [|x l] H N; cbn in H; [now elim N|]. destruct H as [_ ->]. discriminate. Qed.

Definition cell_at (m : mem) (o : own) : Prop :=
  exists x y, m (pa o) = Some (ORes (Cell (pk o) (pc o) (pp o) x y)).

Lemma result_free_ok : forall m o e, NoDup (fp1 o) -> Forall (fun a => a <> 0) (fp1 o) ->
  cell_at m o -> owns m o e ->
  exists m', dtor m (pk o) (pa o) = Ok m' /\ forall a, m' a = if in_dec Z.eq_dec a (fp1 o) then None else m a.
Proof.
  intros m o e ND NZ (x & y & C) (A1 & A2 & A3).
  assert (Z1 : pa o <> 0) by (inversion NZ; auto).
  assert (Z2 : pk o <> 0) by (inversion NZ as [|? ? _ NZ']; inversion NZ'; auto).
  unfold fp1 in ND. inversion ND as [|? ? N1 ND1]; subst. inversion ND1 as [|? ? N2 ND2]; subst.
  unfold dtor, result_free. rewrite (proj2 (Z.eqb_neq _ 0) Z2), (proj2 (Z.eqb_neq _ 0) Z1).
  rewrite (get_cell_ok _ _ _ Z1 C). cbn [bind c_sel c_com c_par].
  rewrite (proj2 (Z.eqb_neq _ 0) Z2), free_block_ok by (rewrite A1; discriminate). cbn [bind].
  destruct (deep_free_ok (upd m (pk o) None) (pc o)) as (m2 & E2 & P2).
  { intros H. rewrite upd_ne; [eapply msgs_present; eauto|]. intros E. apply N2. rewrite <- E.
    apply in_or_app. left. rewrite opt_ne by auto. now left. }
  rewrite E2. cbn [bind].
  destruct (deep_free_ok m2 (pp o)) as (m3 & E3 & P3).
  { intros H. rewrite P2. destruct (in_dec Z.eq_dec (pp o) (opt (pc o))) as [HI|HI].
    - exfalso. rewrite (opt_ne (pp o)) in ND2 by auto. apply NoDup_remove_2 in ND2.
      rewrite app_nil_r in ND2. now apply ND2.
    - rewrite upd_ne; [eapply msgs_present; eauto|]. intros E. apply N2. rewrite <- E.
      apply in_or_app. right. rewrite opt_ne by auto. now left. }
  rewrite E3. cbn [bind].
  rewrite free_block_ok.
  - eexists. split; [reflexivity|]. intros a. unfold upd at 1.
    destruct (in_dec Z.eq_dec a (fp1 o)) as [HI|HI].
    + destruct (Z.eqb_spec a (pa o)) as [|Na]; [reflexivity|]. rewrite P3.
      destruct (in_dec Z.eq_dec a (opt (pp o))) as [|Np]; [reflexivity|]. rewrite P2.
      destruct (in_dec Z.eq_dec a (opt (pc o))) as [|Nc]; [reflexivity|].
      destruct HI as [HI|[HI|HI]]; [congruence|subst a; apply upd_eq|]. apply in_app_or in HI. tauto.
    + destruct (Z.eqb_spec a (pa o)) as [->|Na]; [exfalso; apply HI; now left|]. rewrite P3.
      destruct (in_dec Z.eq_dec a (opt (pp o))) as [Q|_].
      { exfalso. apply HI. do 2 right. apply in_or_app. now right. }
      rewrite P2. destruct (in_dec Z.eq_dec a (opt (pc o))) as [Q|_].
      { exfalso. apply HI. do 2 right. apply in_or_app. now left. }
      apply upd_ne. intros ->. apply HI. right. now left.
  - rewrite P3. destruct (in_dec Z.eq_dec (pa o) (opt (pp o))) as [Q|_].
    { exfalso. apply N1. right. apply in_or_app. now right. }
    rewrite P2. destruct (in_dec Z.eq_dec (pa o) (opt (pc o))) as [Q|_].
    { exfalso. apply N1. right. apply in_or_app. now left. }
    rewrite upd_ne; [rewrite C; discriminate|]. intros E. apply N1. rewrite E. now left.
Qed.

Definition present (m : mem) (o : own) : Prop := cell_at m o /\ exists e, owns m o e.

Lemma present_ext : forall m m' o, (forall a, In a (fp1 o) -> m' a = m a) -> present m o -> present m' o.
Proof.
  intros m m' o H ((x & y & C) & e & A1 & A2 & A3). split.
  - exists x, y. rewrite H by (now left). exact C.
  - exists e. split; [rewrite H by (right; now left); exact A1|].
    assert (G : forall p l, (forall a, In a (opt p) -> In a (fp1 o)) -> msgs_at m p l -> msgs_at m' p l).
    { intros p [|q l] S M; auto. cbn in *. destruct M as [M1 M2]. split; auto. rewrite H; auto.
      apply S. rewrite opt_ne by auto. now left. }
    split; apply G; auto; intros a Ha; do 2 right; apply in_or_app; tauto.
Qed.

Lemma clear_ok : forall os m, NoDup (fp os) -> Forall (fun a => a <> 0) (fp os) -> Forall (present m) os ->
  exists m', clear m (map (fun o => (pk o, pa o)) os) = Ok m' /\
    forall a, m' a = if in_dec Z.eq_dec a (fp os) then None else m a.
Proof.
  induction os as [|o os IH]; intros m ND NZ P.
  - exists m. split; reflexivity.
  - cbn [fp flat_map] in *. fold (fp os) in *. inversion P as [|? ? P1 P2]; subst.
    apply Forall_app in NZ as [NZ1 NZ2].
    destruct P1 as [C (e & O)].
    destruct (result_free_ok m o e (nodup_app_l _ _ _ ND) NZ1 C O) as (m1 & E1 & Q1).
    assert (DJ : forall a, In a (fp1 o) -> ~ In a (fp os)).
    { intros a Ha. assert (ND' : NoDup (([] ++ fp1 o ++ fp os) ++ [])) by (now rewrite app_nil_r).
      now apply (nodup_mid _ _ _ _ _ a ND' Ha). }
    cbn [map clear]. rewrite E1. cbn [bind].
    destruct (IH m1 (nodup_app_r _ _ _ ND) NZ2) as (m2 & E2 & Q2).
    { rewrite Forall_forall in *. intros x Hx. eapply present_ext; [|apply P2; exact Hx].
      intros a Ha. rewrite Q1. destruct (in_dec Z.eq_dec a (fp1 o)) as [HI|]; [|reflexivity].
      exfalso. apply (DJ a HI). apply in_flat_map. now exists x. }
    exists m2. split; [exact E2|]. intros a. rewrite Q2, Q1.
    destruct (in_dec Z.eq_dec a (fp os)) as [A|A]; destruct (in_dec Z.eq_dec a (fp1 o)) as [B|B];
      destruct (in_dec Z.eq_dec a (fp1 o ++ fp os)) as [D|D]; auto; exfalso; rewrite in_app_iff in D; tauto.
Qed.

Lemma chain_cells : forall m os prv nx, chain m prv os nx -> Forall (cell_at m) os.
Proof.
  induction os as [|o os IH]; intros prv nx H; constructor.
  - exists (hdp os nx), prv. apply H.
  - eapply IH. apply H.
Qed.

Lemma free_ok : forall st es um os order, inv st es um os -> Permutation order (ht st) ->
  exists m, rset_free order st = Ok m /\ forall a, m a = None.
Proof.
  intros st es um os order I P. destruct I as [IS IC IO IH INU IF IU].
  rewrite IH in P. apply Permutation_map_inv in P as (os' & -> & P).
  assert (PF : Permutation (fp os) (fp os')).
  { unfold fp. clear -P. induction P; cbn [flat_map]; auto.
    - now apply Permutation_app_head.
    - rewrite !app_assoc. apply Permutation_app_tail. apply Permutation_app_comm.
    - etransitivity; eauto. }
  assert (IF' := IF). destruct IF' as (ND & NZ & CL & _).
  assert (ND' : NoDup (fp os')) by (eapply Permutation_NoDup; [exact PF|]; eapply nodup_app_l; exact ND).
  assert (NZ' : Forall (fun a => a <> 0) (fp os')).
  { eapply Permutation_Forall; [exact PF|]. apply Forall_app in NZ as [NZ _].
    eapply Forall_impl; [|exact NZ]. cbn. intros; lia. }
  destruct (clear_ok os' (mm st) ND' NZ') as (m1 & E1 & Q1).
  { eapply Permutation_Forall; [exact P|]. apply chain_cells in IC. clear -IC IO.
    induction IO; inversion IC; subst; constructor; auto. split; eauto. }
  unfold rset_free. rewrite E1. cbn [bind].
  assert (IN : forall a, In a (fp os') -> In a (fp os)) by (intros a; apply Permutation_in; now apply Permutation_sym).
  destruct (deep_free_ok m1 (unm st)) as (m2 & E2 & Q2).
  { intros H. rewrite Q1. destruct (in_dec Z.eq_dec (unm st) (fp os')) as [HI|_].
    - exfalso. rewrite opt_ne in ND by auto. apply NoDup_remove_2 in ND. rewrite app_nil_r in ND. auto.
    - eapply msgs_present; eauto. }
  exists m2. split; [exact E2|]. intros a. rewrite Q2.
  destruct (in_dec Z.eq_dec a (opt (unm st))) as [|N1]; auto. rewrite Q1.
  destruct (in_dec Z.eq_dec a (fp os')) as [|N2]; auto.
  destruct (mm st a) eqn:E; auto. exfalso.
  assert (H : In a (fp os ++ opt (unm st))) by (apply CL; congruence).
  apply in_app_or in H as [H|H]; auto. apply N2. eapply Permutation_in; [exact PF|exact H].
Qed.

(** What the calls have added, seen from the specification. *)
Definition sel_dec := in_dec (list_eq_dec Z.eq_dec).

Lemma firsts_app : forall l seen s,
  firsts seen (l ++ [s]) = firsts seen l ++ (if sel_dec s (seen ++ l) then [] else [s]).
Proof.
  unfold sel_dec. induction l as [|x l IH]; intros seen s.
  - cbn. rewrite app_nil_r. destruct (in_dec _ s seen); reflexivity.
  - cbn [app firsts]. destruct (in_dec (list_eq_dec Z.eq_dec) x seen) as [Hx|Hx].
    + rewrite IH. f_equal.
      destruct (in_dec _ s (seen ++ l)) as [A|A]; destruct (in_dec _ s (seen ++ x :: l)) as [B|B]; auto; exfalso.
      * apply B. rewrite in_app_iff in *. cbn. tauto.
      * apply A. rewrite in_app_iff in *. cbn in B. destruct B as [B|[->|B]]; tauto.
    + cbn. f_equal. rewrite IH. f_equal.
      destruct (in_dec _ s ((x :: seen) ++ l)) as [A|A]; destruct (in_dec _ s (seen ++ x :: l)) as [B|B]; auto; exfalso.
      * apply B. cbn in A. rewrite in_app_iff in *. cbn. tauto.
      * apply A. cbn. rewrite in_app_iff in *. cbn in B. tauto.
Qed.

Lemma firsts_in : forall l seen s, In s (firsts seen l) <-> In s l /\ ~ In s seen.
Proof.
  induction l as [|x l IH]; intros seen s; [cbn; tauto|].
  cbn. destruct (in_dec (list_eq_dec Z.eq_dec) x seen) as [Hx|Hx].
  - rewrite IH. split; [tauto|]. intros [[->|H] N]; tauto.
  - cbn. rewrite IH. cbn. split.
    + intros [->|[H N]]; [tauto|]. split; [tauto|]. intros H'. apply N. now right.
    + intros [[->|H] N]; [now left|]. destruct (list_eq_dec Z.eq_dec x s) as [->|Ne]; [now left|].
      right. split; auto. intros [E|E]; auto.
Qed.

Lemma firsts_nodup : forall l seen, NoDup (firsts seen l).
Proof.
  induction l as [|x l IH]; intros seen; [constructor|]. cbn.
  destruct (in_dec (list_eq_dec Z.eq_dec) x seen) as [Hx|Hx]; auto. constructor; auto.
  rewrite firsts_in. intros [_ N]. apply N. now left.
Qed.

Lemma selectors_nodup : forall cs, NoDup (selectors cs).
Proof. intros. apply firsts_nodup. Qed.

Lemma selectors_snoc : forall cs c, selectors (cs ++ [c]) =
  selectors cs ++ match c_selector c with [s] => if sel_dec s (selectors cs) then [] else [s] | _ => [] end.
Proof.
  intros cs c. unfold selectors. rewrite flat_map_app. cbn [flat_map]. rewrite app_nil_r.
  assert (G : forall s, firsts [] (flat_map c_selector cs ++ [s]) =
    firsts [] (flat_map c_selector cs) ++ (if sel_dec s (firsts [] (flat_map c_selector cs)) then [] else [s])).
  { intros s. rewrite firsts_app. cbn [app]. f_equal.
    destruct (sel_dec s (flat_map c_selector cs)) as [A|A];
      destruct (sel_dec s (firsts [] (flat_map c_selector cs))) as [B|B]; auto; exfalso; rewrite firsts_in in B.
    - apply B. split; auto.
    - tauto. }
  destruct c; cbn [c_selector]; try apply G. now rewrite !app_nil_r.
Qed.

Lemma none_of : forall cs s, ~ In s (selectors cs) -> completes s cs = [] /\ partials s cs = [].
Proof.
  intros cs s N. assert (N' : ~ In s (flat_map c_selector cs)).
  { intros H. apply N. apply firsts_in. split; auto. }
  clear N. induction cs as [|c cs IH]; [split; reflexivity|].
  cbn [flat_map] in N'. rewrite in_app_iff in N'.
  destruct IH as [I1 I2]; [tauto|]. unfold completes, partials in *. cbn [flat_map]. rewrite I1, I2.
  destruct c as [t m|t m|m]; cbn in *; try (destruct (list_eq_dec Z.eq_dec t s); [tauto|]); auto.
Qed.

Lemma result_set_sels : forall cs, map (fun e : shown => fst (fst e)) (result_set cs) = selectors cs.
Proof. intros. unfold result_set. rewrite map_map. apply map_id. Qed.

Definition call_of (partial : bool) (s : list Z) (msg : bytes) : call :=
  if partial then Partial s msg else Complete s msg.

Lemma completes_snoc : forall s cs c, completes s (cs ++ [c]) = completes s cs ++ completes s [c].
Proof. intros. unfold completes. apply flat_map_app. Qed.
Lemma partials_snoc : forall s cs c, partials s (cs ++ [c]) = partials s cs ++ partials s [c].
Proof. intros. unfold partials. apply flat_map_app. Qed.

Definition show (cs : list call) (s : list Z) : shown := (s, completes s cs, partials s cs).

Lemma show_other : forall b s msg cs t, t <> s -> show (cs ++ [call_of b s msg]) t = show cs t.
Proof.
  intros b s msg cs t N. unfold show. rewrite completes_snoc, partials_snoc.
  destruct b; cbn; destruct (list_eq_dec Z.eq_dec s t); try congruence; cbn; now rewrite !app_nil_r.
Qed.
Lemma show_same : forall b s msg cs, show (cs ++ [call_of b s msg]) s = addto b (show cs s) msg.
Proof.
  intros b s msg cs. unfold show. rewrite completes_snoc, partials_snoc.
  destruct b; cbn; destruct (list_eq_dec Z.eq_dec s s); try congruence; cbn; now rewrite ?app_nil_r.
Qed.

Lemma set_old : forall b s msg cs s1 s2, selectors cs = s1 ++ s :: s2 ->
  result_set cs = map (show cs) s1 ++ show cs s :: map (show cs) s2 /\
  result_set (cs ++ [call_of b s msg]) =
    map (show cs) s1 ++ addto b (show cs s) msg :: map (show cs) s2.
Proof.
  intros b s msg cs s1 s2 E. unfold result_set. fold (show cs).
  assert (ND := selectors_nodup cs). rewrite E in ND. apply NoDup_remove_2 in ND.
  split; [rewrite E, map_app; reflexivity|].
  rewrite selectors_snoc.
  replace (c_selector (call_of b s msg)) with [s] by (destruct b; reflexivity).
  destruct (sel_dec s (selectors cs)) as [_|N].
  2:{ exfalso. apply N. rewrite E. apply in_or_app. right. now left. }
  rewrite app_nil_r, E, map_app. cbn [map]. fold (show (cs ++ [call_of b s msg]) s).
  rewrite show_same. apply f_equal2; [|apply f_equal2; [reflexivity|]].
  - apply map_ext_in. intros t Ht. apply (show_other b s msg cs t). intros ->. apply ND. apply in_or_app. now left.
  - apply map_ext_in. intros t Ht. apply (show_other b s msg cs t). intros ->. apply ND. apply in_or_app. now right.
Qed.

Lemma set_new : forall b s msg cs, ~ In s (selectors cs) ->
  result_set (cs ++ [call_of b s msg]) = result_set cs ++ [addto b (s, [], []) msg].
Proof.
  intros b s msg cs N. unfold result_set. rewrite selectors_snoc.
  replace (c_selector (call_of b s msg)) with [s] by (destruct b; reflexivity).
  destruct (sel_dec s (selectors cs)) as [Y|_]; [tauto|].
  rewrite map_app. cbn [map]. fold (show (cs ++ [call_of b s msg]) s). rewrite show_same. apply f_equal2; [|apply f_equal2; [|reflexivity]].
  - apply map_ext_in. intros t Ht. apply (show_other b s msg cs t). intros ->. tauto.
  - destruct (none_of cs s N) as [A B]. unfold show. now rewrite A, B.
Qed.

Lemma match_ok : forall b st cs um os s msg, inv st (result_set cs) um os ->
  exists st' os', add_match b st s msg = Ok st' /\ inv st' (result_set (cs ++ [call_of b s msg])) um os' /\
    cur st' = cur st /\ exists l, map pa os' = map pa os ++ l.
Proof.
  intros b st cs um os s msg I.
  assert (PK := inv_pk _ _ _ _ (i_foot _ _ _ _ I)).
  unfold add_match, rset_select. destruct (sel_dec s (selectors cs)) as [Y|N].
  - apply in_split in Y as (s1 & s2 & E). destruct (set_old b s msg cs s1 s2 E) as [E1 E2].
    rewrite E1 in I. rewrite E2.
    assert (D : exists l1 o l2, os = l1 ++ o :: l2 /\ length l1 = length (map (show cs) s1)).
    { assert (IO := i_owns _ _ _ _ I). apply Forall2_app_inv_r in IO as (l1 & l2 & A & B & ->).
      inversion B as [|o x l2' y B1 B2]; subst. exists l1, o, l2'. split; auto.
      clear -A. induction A; cbn; auto. }
    destruct D as (l1 & o & l2 & -> & L).
    rewrite (i_ht _ _ _ _ I).
    rewrite (lookup_some _ l1 o l2 _ _ _ s (i_owns _ _ _ _ I) L PK eq_refl).
    2:{ rewrite map_map. cbn. rewrite map_id. assert (ND := selectors_nodup cs). rewrite E in ND.
        apply NoDup_remove_2 in ND. intros H. apply ND. apply in_or_app. now left. }
    cbn [bind]. assert (PA := inv_pa _ _ _ _ (i_foot _ _ _ _ I)).
    assert (PO : pa o <> 0) by (rewrite Forall_forall in PA; apply PA; apply in_or_app; right; now left).
    rewrite (proj2 (Z.eqb_neq _ 0) PO). cbn [bind].
    destruct (put_ok b st l1 o l2 _ _ _ um msg I L) as (st' & o' & R & P & I' & C).
    exists st', (l1 ++ o' :: l2). split; [auto|split; [auto|split; [auto|]]]. exists []. rewrite app_nil_r, !map_app. cbn. now rewrite P.
  - rewrite (set_new b s msg cs N). rewrite <- result_set_sels in N.
    rewrite (i_ht _ _ _ _ I), (lookup_none _ _ _ s (i_owns _ _ _ _ I) PK N). cbn [bind Z.eqb].
    destruct (result_alloc st s) as [st1 p] eqn:RA.
    destruct (append_ok st _ um os s st1 p I N RA) as (st2 & A & I2 & C2). rewrite A. cbn [bind].
    destruct (put_ok b st2 os _ [] _ _ [] um msg I2) as (st' & o' & R & P & I' & C).
    { assert (IO := i_owns _ _ _ _ I). clear -IO. induction IO; cbn; auto. }
    cbn [pa] in R, P. exists st', (os ++ [o']). rewrite R. split; [auto|split; [auto|split; [congruence|]]].
    exists [p]. rewrite map_app. cbn. now rewrite P.
Qed.

(** The calls of a user. *)
Definition do_call (st : rset) (c : call) : res rset :=
  match c with
  | Complete s m => add_match false st s m
  | Partial s m => add_match true st s m
  | Unmatched m => add_unmatched st m
  end.
Fixpoint run (st : rset) (cs : list call) : res rset :=
  match cs with [] => Ok st | c :: cs => do st <- do_call st c; run st cs end.

Lemma unm_snoc : forall cs m, result_set (cs ++ [Unmatched m]) = result_set cs.
Proof.
  intros. unfold result_set. rewrite selectors_snoc. cbn [c_selector]. rewrite app_nil_r.
  apply map_ext. intros s. rewrite completes_snoc, partials_snoc. cbn. now rewrite !app_nil_r.
Qed.

Lemma run_inv : forall more cs st os, inv st (result_set cs) (unmatcheds cs) os ->
  exists st' os', run st more = Ok st' /\ inv st' (result_set (cs ++ more)) (unmatcheds (cs ++ more)) os' /\
    cur st' = cur st /\ exists l, map pa os' = map pa os ++ l.
Proof.
  induction more as [|c more IH]; intros cs st os I.
  - exists st, os. rewrite !app_nil_r. split; [auto|split; [auto|split; [auto|]]]. exists []. now rewrite app_nil_r.
  - replace (cs ++ c :: more) with ((cs ++ [c]) ++ more) by (rewrite <- app_assoc; reflexivity).
    assert (S : exists st1 os1, do_call st c = Ok st1 /\ inv st1 (result_set (cs ++ [c])) (unmatcheds (cs ++ [c])) os1 /\
      cur st1 = cur st /\ exists l, map pa os1 = map pa os ++ l).
    { destruct c as [s m|s m|m]; cbn [do_call].
      - destruct (match_ok false st cs _ os s m I) as (st1 & os1 & A & B & C). exists st1, os1.
        replace (unmatcheds (cs ++ [Complete s m])) with (unmatcheds cs); [auto|].
        unfold unmatcheds. rewrite flat_map_app. cbn. now rewrite app_nil_r.
      - destruct (match_ok true st cs _ os s m I) as (st1 & os1 & A & B & C). exists st1, os1.
        replace (unmatcheds (cs ++ [Partial s m])) with (unmatcheds cs); [auto|].
        unfold unmatcheds. rewrite flat_map_app. cbn. now rewrite app_nil_r.
      - destruct (unmatched_ok st _ _ os m I) as (st1 & A & B & C). exists st1, os.
        rewrite unm_snoc. replace (unmatcheds (cs ++ [Unmatched m])) with (unmatcheds cs ++ [m]).
        + split; [auto|split; [auto|split; [auto|]]]. exists []. now rewrite app_nil_r.
        + unfold unmatcheds. now rewrite flat_map_app. }
    destruct S as (st1 & os1 & E1 & I1 & C1 & l1 & L1). cbn [run]. rewrite E1. cbn [bind].
    destruct (IH _ _ _ I1) as (st2 & os2 & E2 & I2 & C2 & l2 & L2).
    exists st2, os2. split; [auto|split; [auto|split; [congruence|]]].
    exists (l1 ++ l2). now rewrite L2, L1, app_assoc.
Qed.

Lemma inv_empty : inv rset_alloc (result_set []) (unmatcheds []) [].
Proof.
  split; try reflexivity; cbn; auto.
  split; [constructor|]. split; [constructor|]. split; [|lia]. intros a H. now elim H.
Qed.
