(** C102: a result set gives each selector's matches once, in order, forwards
    and backwards, and freeing it frees everything exactly once. *)

From Coq Require Import ZArith List Bool Lia Permutation.
From Verif Require Import Base RsetHeapModel RsetHeapSpec RsetHeapProofs.
Import ListNotations.
Open Scope Z_scope.

(** What a user does with a result set.  The calls, one after the other, are
    [run] (RsetHeapProofs.v): each [Complete], [Partial] or [Unmatched] is a call
    of osc_rset_addCompleteMatch, osc_rset_addPartialMatch or
    osc_rset_addUnmatched. *)

(** A bundle through a pointer that may be NULL. *)
Definition read_msgs (m : mem) (p : Z) : res (list bytes) := if p =? 0 then Ok [] else get_msgs m p.
(** A result through its getters. *)
Definition read_result (m : mem) (p : Z) : res shown :=
  do c <- get_cell m p;
  do s <- get_text m (c_sel c);
  do a <- read_msgs m (c_com c);
  do b <- read_msgs m (c_par c);
  Ok (s, a, b).

(** while(osc_rset_hasNext(rset)){ read(osc_rset_next(rset)); }, [n] times at most;
    also the last result that was read. *)
Fixpoint forwards (n : nat) (st : rset) (lst : Z) : res (list shown * Z) :=
  if has_next st then
    match n with
    | O => Fuel
    | S n =>
        do ' (st, p) <- rset_next st;
        do r <- read_result (mm st) p;
        do ' (rs, lst) <- forwards n st p; Ok (r :: rs, lst)
    end
  else Ok ([], lst).

(** for(r = last; r; r = osc_rset_result_getPrev(r)){ read(r); } *)
Fixpoint backwards (n : nat) (m : mem) (p : Z) : res (list shown) :=
  if p =? 0 then Ok [] else
  match n with
  | O => Fuel
  | S n => do r <- read_result m p; do c <- get_cell m p; do rs <- backwards n m (c_prev c); Ok (r :: rs)
  end.

Lemma read_msgs_ok : forall m p l, msgs_at m p l -> read_msgs m p = Ok l.
Proof.
  intros m p l H. apply msgs_at_cases in H as [[-> ->]|[N E]]; [reflexivity|].
  unfold read_msgs, get_msgs. now rewrite (proj2 (Z.eqb_neq _ 0) N), E.
Qed.

Lemma read_ok : forall m o e, pa o <> 0 -> pk o <> 0 -> cell_at m o -> owns m o e -> read_result m (pa o) = Ok e.
Proof.
  intros m o [[s a] b] Z1 Z2 (x & y & C) (A1 & A2 & A3). cbn [fst snd] in *.
  unfold read_result. rewrite (get_cell_ok _ _ _ Z1 C). cbn [bind c_sel c_com c_par].
  rewrite (get_text_ok _ _ _ Z2 A1). cbn [bind].
  rewrite (read_msgs_ok _ _ _ A2). cbn [bind]. rewrite (read_msgs_ok _ _ _ A3). reflexivity.
Qed.

Lemma forwards_ok : forall os es st prv n lst,
  chain (mm st) prv os 0 -> Forall2 (owns (mm st)) os es ->
  Forall (fun o => pa o <> 0) os -> Forall (fun o => pk o <> 0) os ->
  cur st = hdp os 0 -> (length os <= n)%nat -> forwards n st lst = Ok (es, lastp lst os).
Proof.
  induction os as [|o os IH]; intros es st prv n lst C F P K E L; inversion F as [|? e ? es' F1 F2]; subst.
  - cbn in E. destruct n; cbn [forwards]; unfold has_next; rewrite E; reflexivity.
  - destruct n as [|n]; [cbn in L; lia|]. cbn [hdp] in E.
    inversion P as [|? ? P1 P2]; subst. inversion K as [|? ? K1 K2]; subst.
    cbn [forwards]. unfold has_next, rset_next. rewrite E, (proj2 (Z.eqb_neq _ 0) P1). cbn [negb].
    assert (CE := proj1 C). rewrite (get_cell_ok _ _ _ P1 CE). cbn [bind c_next mm].
    rewrite (read_ok (mm st) o e P1 K1 (ex_intro _ _ (ex_intro _ _ CE)) F1). cbn [bind].
    rewrite (IH es' _ (pa o)); auto; [apply C|cbn in L; lia].
Qed.

Lemma backwards_ok : forall os es m n,
  chain m 0 os 0 \/ (exists x, chain m 0 os x) -> Forall2 (owns m) os es ->
  Forall (fun o => pa o <> 0) os -> Forall (fun o => pk o <> 0) os ->
  (length os <= n)%nat -> backwards n m (lastp 0 os) = Ok (rev es).
Proof.
  induction os as [|o os IH] using rev_ind; intros es m n C F P K L.
  - inversion F; subst. destruct n; reflexivity.
  - assert (C' : exists x, chain m 0 (os ++ [o]) x) by (destruct C; eauto). clear C. destruct C' as [x C].
    apply Forall2_app_inv_l in F as (e1 & e2 & F1 & F2 & ->). inversion F2 as [|? e ? z F3 F4]; subst.
    inversion F4; subst. apply Forall_app in P as [P1 P2]. apply Forall_app in K as [K1 K2].
    inversion P2 as [|? ? P3 _]; subst. inversion K2 as [|? ? K3 _]; subst.
    rewrite app_length in L. cbn in L. destruct n as [|n]; [lia|].
    apply chain_app in C as [C1 [C2 _]]. unfold lastp. rewrite fold_left_app. cbn [fold_left backwards].
    rewrite (proj2 (Z.eqb_neq _ 0) P3).
    rewrite (read_ok m o e P3 K3 (ex_intro _ _ (ex_intro _ _ C2)) F3). cbn [bind].
    rewrite (get_cell_ok _ _ _ P3 C2). cbn [bind c_prev]. rewrite (IH e1); auto; [|right; eauto|lia].
    rewrite rev_app_distr. reflexivity.
Qed.

Lemma run_ok : forall cs, exists st os, run rset_alloc cs = Ok st /\ inv st (result_set cs) (unmatcheds cs) os /\
  cur st = 0.
Proof.
  intros cs. destruct (run_inv cs [] _ _ inv_empty) as (st & os & A & B & C & _). exists st, os. auto.
Qed.

Lemma inv_len : forall st es um os, inv st es um os -> length os = length es.
Proof. intros st es um os I. assert (F := i_owns _ _ _ _ I). clear -F. induction F; cbn; auto. Qed.

(** After any calls, going through the set with the iterator gives one result
    for each selector, in the order of first use, with the complete and partial
    matches in the order in which they were added; and following the previous
    results back from the last one gives the same in reverse. *)
Theorem C102_iterate : forall cs, exists st lst,
  run rset_alloc cs = Ok st /\ num st = zlen (selectors cs) /\
  forwards (length (selectors cs)) (init_iterator st) 0 = Ok (result_set cs, lst) /\
  backwards (length (selectors cs)) (mm st) lst = Ok (rev (result_set cs)).
Proof.
  intros cs. destruct (run_ok cs) as (st & os & R & I & C). exists st, (lastp 0 os).
  assert (L := inv_len _ _ _ _ I). unfold result_set in L. rewrite map_length in L.
  assert (PA := inv_pa _ _ _ _ (i_foot _ _ _ _ I)). assert (PK := inv_pk _ _ _ _ (i_foot _ _ _ _ I)).
  split; [exact R|]. split; [|split].
  - rewrite (i_num _ _ _ _ I). unfold zlen. now rewrite L.
  - eapply (forwards_ok os (result_set cs) _ 0); auto; try apply I. lia.
  - apply backwards_ok; auto; try apply I; [left; apply I|lia].
Qed.
Print Assumptions C102_iterate.

(** A selector is found if and only if something was added for it, and then the
    result shows what was added. *)
Theorem C102_select : forall cs sel, exists st,
  run rset_alloc cs = Ok st /\
  (In sel (selectors cs) -> exists p, rset_select st sel = Ok p /\ p <> 0 /\
     read_result (mm st) p = Ok (sel, completes sel cs, partials sel cs)) /\
  (~ In sel (selectors cs) -> rset_select st sel = Ok 0).
Proof.
  intros cs sel. destruct (run_ok cs) as (st & os & R & I & C). exists st. split; [exact R|].
  assert (PA := inv_pa _ _ _ _ (i_foot _ _ _ _ I)). assert (PK := inv_pk _ _ _ _ (i_foot _ _ _ _ I)).
  unfold rset_select. rewrite (i_ht _ _ _ _ I). split; intros H.
  - apply in_split in H as (s1 & s2 & E). destruct (set_old false sel [] cs s1 s2 E) as [E1 _].
    assert (IO := i_owns _ _ _ _ I). rewrite E1 in IO.
    assert (IO' := IO). apply Forall2_app_inv_r in IO' as (l1 & l2 & A & B & ->).
    inversion B as [|o x l2' y B1 B2]; subst. exists (pa o). split; [|split].
    + eapply lookup_some; [exact IO| |exact PK|reflexivity|].
      * clear -A. induction A; cbn; auto.
      * rewrite map_map. cbn. rewrite map_id. assert (ND := selectors_nodup cs). rewrite E in ND.
        apply NoDup_remove_2 in ND. intros H. apply ND. apply in_or_app. now left.
    + rewrite Forall_forall in PA. apply PA. apply in_or_app. right. now left.
    + apply read_ok; auto.
      * rewrite Forall_forall in PA. apply PA. apply in_or_app. right. now left.
      * rewrite Forall_forall in PK. apply PK. apply in_or_app. right. now left.
      * assert (CC := chain_cells _ _ _ _ (i_chain _ _ _ _ I)). rewrite Forall_forall in CC. apply CC.
        apply in_or_app. right. now left.
  - eapply lookup_none; [apply I|exact PK|]. now rewrite result_set_sels.
Qed.
Print Assumptions C102_select.

(** What nothing matched is there in order; the pointer is NULL if there is none. *)
Theorem C102_unmatched : forall cs, exists st,
  run rset_alloc cs = Ok st /\ read_msgs (mm st) (unm st) = Ok (unmatcheds cs) /\
  (unm st = 0 <-> unmatcheds cs = []).
Proof.
  intros cs. destruct (run_ok cs) as (st & os & R & I & C). exists st. split; [exact R|].
  assert (U := i_unm _ _ _ _ I). split; [now apply read_msgs_ok|].
  apply msgs_at_cases in U as [[-> ->]|[N E]]; [tauto|]. split; [tauto|]. intros Z.
  assert (U := i_unm _ _ _ _ I). rewrite Z in U. cbn in U. auto.
Qed.
Print Assumptions C102_unmatched.

(** Freeing the set, in whatever order the table is gone through, frees every
    block that the set made, each exactly once. *)
Theorem C102_free : forall cs, exists st,
  run rset_alloc cs = Ok st /\
  forall order, Permutation order (ht st) ->
    exists m, rset_free order st = Ok m /\ forall a, m a = None.
Proof.
  intros cs. destruct (run_ok cs) as (st & os & R & I & C). exists st. split; [exact R|].
  intros order P. eapply free_ok; eauto.
Qed.
Print Assumptions C102_free.

(** Adding while iterating: if the iterator stands before the [k]-th result, the
    loop goes on with that result, as it is after the additions, and ends with
    the new selectors. *)
Fixpoint steps (k : nat) (st : rset) : res rset :=
  match k with O => Ok st | S k => do ' (st, _) <- rset_next st; steps k st end.

Lemma steps_ok : forall k os st prv um es, chain (mm st) prv os 0 -> Forall (fun o => pa o <> 0) os ->
  cur st = hdp os 0 -> (k < length os)%nat -> (forall c os0, inv st es um os0 ->
    inv (Rset (mm st) (nxt st) (ht st) (sels st) c (num st) (unm st)) es um os0) ->
  steps k st = Ok (Rset (mm st) (nxt st) (ht st) (sels st) (hdp (skipn k os) 0) (num st) (unm st)).
Proof.
  induction k as [|k IH]; intros os st prv um es C P E L HI.
  - cbn. rewrite <- E. destruct st; reflexivity.
  - destruct os as [|o os]; [cbn in L; lia|]. cbn [hdp] in E. inversion P as [|? ? P1 P2]; subst.
    cbn [steps]. unfold rset_next. rewrite E, (proj2 (Z.eqb_neq _ 0) P1).
    rewrite (get_cell_ok _ _ _ P1 (proj1 C)). cbn [bind c_next].
    destruct os as [|o2 os]; [cbn in L; lia|].
    rewrite (IH (o2 :: os) _ (pa o) um es); auto; try apply C.
    + cbn in L |- *. lia.
    + intros c os0 [H1 H2 H3 H4 H5 H6 H7]. split; auto.
Qed.

Theorem C102_add_while_iterating : forall cs more k, (k < length (selectors cs))%nat ->
  exists st0 st1 st lst,
    run rset_alloc cs = Ok st0 /\ steps k (init_iterator st0) = Ok st1 /\ run st1 more = Ok st /\
    forwards (length (selectors (cs ++ more)) - k) st 0 = Ok (skipn k (result_set (cs ++ more)), lst).
Proof.
  intros cs more k HK. destruct (run_ok cs) as (st0 & os & R & I & C).
  assert (L := inv_len _ _ _ _ I). unfold result_set in L. rewrite map_length in L.
  assert (I1 : forall c, inv (Rset (mm st0) (nxt st0) (ht st0) (sels st0) c (num st0) (unm st0))
                 (result_set cs) (unmatcheds cs) os).
  { intros c. destruct I. split; auto. }
  assert (ST : steps k (init_iterator st0) =
    Ok (Rset (mm st0) (nxt st0) (ht st0) (sels st0) (hdp (skipn k os) 0) (num st0) (unm st0))).
  { apply (steps_ok k os (init_iterator st0) 0 [] []); try apply I.
    - exact (inv_pa _ _ _ _ (i_foot _ _ _ _ I)).
    - lia.
    - intros c os0 [H1 H2 H3 H4 H5 H6 H7]. split; auto. }
  destruct (run_inv more cs _ os (I1 (hdp (skipn k os) 0))) as (st & os' & R2 & I2 & C2 & l & PL).
  exists st0, (Rset (mm st0) (nxt st0) (ht st0) (sels st0) (hdp (skipn k os) 0) (num st0) (unm st0)), st, (lastp 0 (skipn k os')).
  split; [exact R|]. split; [exact ST|]. split; [exact R2|].
  assert (L2 := inv_len _ _ _ _ I2). unfold result_set in L2. rewrite map_length in L2.
  assert (PA := inv_pa _ _ _ _ (i_foot _ _ _ _ I2)). assert (PK := inv_pk _ _ _ _ (i_foot _ _ _ _ I2)).
  assert (IC := i_chain _ _ _ _ I2). assert (IO := i_owns _ _ _ _ I2).
  rewrite <- (firstn_skipn k os') in IC, PA, PK.
  apply chain_app in IC as [_ IC]. apply Forall_app in PA as [_ PA]. apply Forall_app in PK as [_ PK].
  eapply forwards_ok; [exact IC| |exact PA|exact PK| |].
  - clear -IO. revert k. induction IO as [|o e os es H F IHF]; intros [|k]; cbn; auto; constructor; auto.
  - rewrite C2. cbn [cur].
    assert (H : forall a, hdp a 0 = hd 0 (map pa a)) by (intros [|x a]; reflexivity).
    rewrite !H, <- !(@skipn_map _ _ pa), PL, skipn_app. rewrite map_length.
    replace (k - length os)%nat with 0%nat by lia.
    assert (SK : skipn k (map pa os) <> []).
    { intros E. apply (f_equal (@length Z)) in E. rewrite skipn_length, map_length in E. cbn in E. lia. }
    destruct (skipn k (map pa os)); [now elim SK|reflexivity].
  - rewrite skipn_length. lia.
Qed.
Print Assumptions C102_add_while_iterating.

(** osc_rset_appendResult is declared for users as well.  Appending a result that
    the set already has runs the destructor on it, since the key is in the table:
    the set keeps a freed result. *)
Theorem C102_append_again_refuted : exists cs st p st',
  run rset_alloc cs = Ok st /\ rset_select st [47; 97] = Ok p /\ p <> 0 /\
  append_result st p = Ok st' /\ mm st' p = None /\
  forwards 1 (init_iterator st') 0 = Ub Dangling /\
  rset_free (ht st') st' = Ub Dangling.
Proof.
  set (cs := [Complete [47; 97] [1]; Complete [47; 98] [1]]).
  assert (W : match run rset_alloc cs with
              | Ok st =>
                  rset_select st [47; 97] = Ok 2 /\
                  match append_result st 2 with
                  | Ok st' => mm st' 2 = None /\ forwards 1 (init_iterator st') 0 = Ub Dangling /\
                              rset_free (ht st') st' = Ub Dangling
                  | _ => False
                  end
              | _ => False
              end) by (vm_compute; auto).
  destruct (run rset_alloc cs) as [st| |] eqn:E; [|now elim W..]. destruct W as [W1 W].
  destruct (append_result st 2) as [st'| |] eqn:E2; [|now elim W..]. destruct W as (W2 & W3 & W4).
  exists cs, st, 2, st'. split; [exact E|]. split; [exact W1|]. split; [discriminate|].
  split; [exact E2|]. auto.
Qed.
Print Assumptions C102_append_again_refuted.

(** Selectors that come back, both kinds of match, and unmatched messages. *)
Example C102_example :
  result_set [Complete [47; 97] [1]; Partial [47; 98] [2]; Unmatched [3]; Complete [47; 97] [4]; Partial [47; 97] [5]] =
  [([47; 97], [[1]; [4]], [[5]]); ([47; 98], [], [[2]])].
Proof. reflexivity. Qed.
Example C102_example_during : lt 1 (length (selectors [Complete [47; 97] [1]; Partial [47; 98] [2]])).
Proof. cbn. lia. Qed.
Example C102_example_order : exists st, run rset_alloc [Complete [47; 97] [1]; Partial [47; 98] [2]] = Ok st /\
  length (ht st) = 2%nat /\ Permutation (rev (ht st)) (ht st).
Proof.
  destruct (run_ok [Complete [47; 97] [1]; Partial [47; 98] [2]]) as (st & os & R & I & _).
  exists st. split; [exact R|]. split; [|apply Permutation_sym, Permutation_rev].
  rewrite (i_ht _ _ _ _ I), map_length. exact (inv_len _ _ _ _ I).
Qed.
