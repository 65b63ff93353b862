(** Facts about the hash table. *)

From Coq Require Import ZArith List Bool Lia Permutation.
From Verif Require Import Base BaseProofs BundleUModel BundleUProofs HashModel HashSpec.
Import ListNotations.
Open Scope Z_scope.

Lemma bytes_eqb_refl a : bytes_eqb a a = true. Proof. now apply bytes_eqb_spec. Qed.
Lemma bytes_eqb_sym a b : bytes_eqb a b = bytes_eqb b a.
Proof.
  destruct (bytes_eqb a b) eqn:E1, (bytes_eqb b a) eqn:E2; try reflexivity.
  - apply bytes_eqb_spec in E1. subst. rewrite bytes_eqb_refl in E2. discriminate.
  - apply bytes_eqb_spec in E2. subst. rewrite bytes_eqb_refl in E1. discriminate.
Qed.
Lemma bytes_eqb_neq a b : a <> b -> bytes_eqb a b = false.
Proof. intros H. destruct (bytes_eqb a b) eqn:E; [|reflexivity]. apply bytes_eqb_spec in E. contradiction. Qed.

Lemma hash_loop_ok : forall k i key h, 0 <= i -> i + Z.of_nat k <= zlen key + 1 -> exists h', hash_loop k i key h = Ok h'.
Proof.
  induction k as [|k IH]; intros i key h Hi Hl; [eexists; reflexivity|]. cbn [hash_loop]. unfold rdc.
  destruct (rd (key ++ [0]) i) as [c| |] eqn:E.
  - cbn [bind]. apply IH; lia.
  - exfalso. unfold rd in E. destruct (i <? 0) eqn:E0; [lia|].
    destruct (nth_error (key ++ [0]) (Z.to_nat i)) eqn:En; [discriminate|].
    apply nth_error_None in En. rewrite app_length in En. cbn in En. unfold zlen in Hl. lia.
  - exfalso. unfold rd in E. destruct (i <? 0); [discriminate|]. destruct (nth_error _ _); discriminate.
Qed.

Lemma osc_hash_ok len key : 0 <= len < 2^31 -> len <= zlen key + 1 -> exists h, osc_hash len key = Ok h /\ 0 <= h < 2^32.
Proof.
  intros H1 H2. unfold osc_hash. replace (u64 len) with len by (unfold u64; rewrite Z.mod_small; lia).
  destruct (hash_loop_ok (Z.to_nat len) 0 key 0) as (h & ->); [lia|lia|]. cbn [bind].
  exists (u32 h). split; [reflexivity|]. unfold u32. apply Z.mod_pos_bound. lia.
Qed.

Section Table.
Context {V : Type}.
Implicit Types (m c : list (bytes * V)).
Definition keys m : list bytes := map fst m.

Lemma keys_app a b : keys (a ++ b) = keys a ++ keys b. Proof. apply map_app. Qed.

Lemma assoc_none k m : ~ In k (keys m) <-> assoc k m = None.
Proof.
  induction m as [|[k' v] m IH]; cbn; [tauto|]. destruct (bytes_eqb k' k) eqn:E.
  - apply bytes_eqb_spec in E. split; [tauto|discriminate].
  - assert (k' <> k) by (intros ->; rewrite bytes_eqb_refl in E; discriminate). unfold keys in IH. tauto.
Qed.

Lemma assoc_mid k v a b : ~ In k (keys a) -> assoc k (a ++ (k, v) :: b) = Some v.
Proof.
  induction a as [|[k' w] a IH]; cbn; intros H; [now rewrite bytes_eqb_refl|].
  rewrite bytes_eqb_neq by tauto. apply IH. tauto.
Qed.

Lemma assoc_some k v m : assoc k m = Some v -> exists a b, m = a ++ (k, v) :: b /\ ~ In k (keys a).
Proof.
  induction m as [|[k' w] m IH]; cbn; [discriminate|]. destruct (bytes_eqb k' k) eqn:E.
  - apply bytes_eqb_spec in E. intros [= ->]. subst. exists [], m. cbn. tauto.
  - intros H. destruct (IH H) as (a & b & -> & N). exists ((k', w) :: a), b. split; [reflexivity|].
    cbn. intros [->|Hi]; [|contradiction]. rewrite bytes_eqb_refl in E. discriminate.
Qed.

Lemma without_notin k m : ~ In k (keys m) -> without k m = m.
Proof.
  unfold without. induction m as [|[k' w] m IH]; cbn; intros H; [reflexivity|].
  rewrite bytes_eqb_neq by tauto. cbn. rewrite IH by tauto. reflexivity.
Qed.
Lemma without_mid k v a b : ~ In k (keys a) -> ~ In k (keys b) -> without k (a ++ (k, v) :: b) = a ++ b.
Proof.
  intros Ha Hb. unfold without. rewrite filter_app. cbn. rewrite bytes_eqb_refl. cbn.
  fold (without k a) (without k b). now rewrite !without_notin.
Qed.
Lemma perm_filter {A} (f : A -> bool) l l' : Permutation l l' -> Permutation (filter f l) (filter f l').
Proof.
  induction 1 as [|x l l' _ IH|x y l|l1 l2 l3 _ IH1 _ IH2]; cbn; [constructor| | |].
  - destruct (f x); [now constructor|assumption].
  - destruct (f x), (f y); try reflexivity. apply perm_swap.
  - etransitivity; eassumption.
Qed.
Lemma perm_without k m m' : Permutation m m' -> Permutation (without k m) (without k m').
Proof. apply perm_filter. Qed.

Lemma nodup_mid_keys k (v : V) a b : NoDup (keys (a ++ (k, v) :: b)) -> ~ In k (keys a) /\ ~ In k (keys b).
Proof. rewrite keys_app. cbn. intros H. apply NoDup_remove_2 in H. rewrite in_app_iff in H. tauto. Qed.

Lemma assoc_perm k m m' : NoDup (keys m) -> Permutation m m' -> assoc k m = assoc k m'.
Proof.
  intros Hd Hp. assert (Hd' : NoDup (keys m')) by (eapply Permutation_NoDup; [apply Permutation_map; exact Hp|exact Hd]).
  destruct (assoc k m') as [v|] eqn:E.
  - apply assoc_some in E as (a & b & -> & N).
    assert (Hi : In (k, v) m) by (eapply Permutation_in; [symmetry; exact Hp|]; apply in_app_iff; right; now left).
    apply in_split in Hi as (x & y & ->). apply assoc_mid. now apply nodup_mid_keys in Hd.
  - apply assoc_none. apply assoc_none in E. intros Hi. apply E. eapply Permutation_in; [|exact Hi].
    apply Permutation_map. exact Hp.
Qed.

Lemma overwrite_some k v c c' old : overwrite k v c = Some (c', old) ->
  exists a b w, c = a ++ (k, w) :: b /\ c' = a ++ (k, v) :: b /\ old = (k, w).
Proof.
  revert c' old. induction c as [|[k' w] c IH]; cbn; intros c' old H; [discriminate|].
  destruct (bytes_eqb k' k) eqn:E.
  - apply bytes_eqb_spec in E. injection H as <- <-. subst. exists [], c, w. auto.
  - destruct (overwrite k v c) as [[c1 o1]|]; [|discriminate]. injection H as <- <-.
    destruct (IH c1 o1 eq_refl) as (a & b & w' & -> & -> & ->). exists ((k', w) :: a), b, w'. auto.
Qed.
Lemma overwrite_none k v c : overwrite k v c = None -> ~ In k (keys c).
Proof.
  induction c as [|[k' w] c IH]; cbn; intros H; [tauto|]. destruct (bytes_eqb k' k) eqn:E; [discriminate|].
  destruct (overwrite k v c) as [[]|]; [discriminate|]. intros [->|Hi]; [rewrite bytes_eqb_refl in E; discriminate|].
  now apply IH.
Qed.

Lemma find_assoc k c : option_map snd (find (fun e => bytes_eqb (fst e) k) c) = assoc k c.
Proof. induction c as [|[k' w] c IH]; [reflexivity|]. cbn. destruct (bytes_eqb k' k); [reflexivity|exact IH]. Qed.

Lemma existsb_assoc k c : existsb (fun e => bytes_eqb (fst e) k) c = match assoc k c with Some _ => true | None => false end.
Proof. induction c as [|[k' w] c IH]; [reflexivity|]. cbn. destruct (bytes_eqb k' k); [reflexivity|exact IH]. Qed.

Lemma remove_loop_ok k dtor : forall c kept n calls,
  remove_loop k dtor kept c n calls =
  (rev kept ++ without k c, n - (zlen c - zlen (without k c)),
   calls ++ if dtor then filter (fun e => bytes_eqb (fst e) k) c else []).
Proof.
  induction c as [|[k' w] c IH]; intros kept n calls; cbn [remove_loop].
  - cbn. rewrite app_nil_r. f_equal; [f_equal; lia|]. destruct dtor; now rewrite app_nil_r.
  - unfold without. cbn [fst filter]. rewrite (bytes_eqb_sym k k'). destruct (bytes_eqb k' k) eqn:E; cbn [negb].
    + rewrite IH. fold (without k c). f_equal; [f_equal; zl; lia|]. destruct dtor; [|reflexivity].
      rewrite <- app_assoc. reflexivity.
    + rewrite IH. fold (without k c). cbn [rev]. rewrite <- app_assoc. cbn [app]. do 2 f_equal. zl. lia.
Qed.

Lemma filter_mid_key k (v : V) a b : ~ In k (keys a) -> ~ In k (keys b) ->
  filter (fun e => bytes_eqb (fst e) k) (a ++ (k, v) :: b) = [(k, v)].
Proof.
  intros Ha Hb.
  assert (K : forall m, ~ In k (keys m) -> filter (fun e => bytes_eqb (fst e) k) m = []).
  { induction m as [|[k' w] m IH]; cbn; intros H; [reflexivity|]. rewrite bytes_eqb_neq by tauto. apply IH. tauto. }
  rewrite filter_app. cbn. rewrite bytes_eqb_refl, !K by assumption. reflexivity.
Qed.

Lemma concat_repeat_nil {A} n : concat (repeat (@nil A) n) = [].
Proof. induction n; [reflexivity|exact IHn]. Qed.

(** * The table *)

Variable keylen : bytes -> Z.
Hypothesis Hlen : forall k, 0 <= keylen k < 2^31 /\ keylen k <= zlen k + 1.

Definition hash_of (k : bytes) : Z := match osc_hash (keylen k) k with Ok h => h | _ => 0 end.
Lemma hash_of_ok k : osc_hash (keylen k) k = Ok (hash_of k) /\ 0 <= hash_of k.
Proof using Hlen. destruct (Hlen k) as [H1 H2]. destruct (osc_hash_ok _ _ H1 H2) as (h & E & B). unfold hash_of. rewrite E. split; [reflexivity|lia]. Qed.

Definition tinv (ht : table V) m : Prop :=
  0 < zlen (t_slots ht) /\
  (forall i c k, nth_error (t_slots ht) i = Some c -> In k (keys c) -> hash_of k mod zlen (t_slots ht) = Z.of_nat i) /\
  NoDup (keys (concat (t_slots ht))) /\ Permutation (concat (t_slots ht)) m /\ t_count ht = zlen m.

Lemma tinv_nodup ht m : tinv ht m -> NoDup (keys m).
Proof. intros (_ & _ & H & P & _). eapply Permutation_NoDup; [apply Permutation_map; exact P|exact H]. Qed.

(** The slot of a key, and the rest, where the key does not occur. *)
Lemma slot_split ht m k : tinv ht m -> exists a c b,
  t_slots ht = a ++ c :: b /\ slot_of ht (hash_of k) = zlen a /\ rd (t_slots ht) (zlen a) = Ok c /\
  ~ In k (keys (concat a)) /\ ~ In k (keys (concat b)).
Proof using Hlen.
  intros (Hn & Hs & _). pose proof (hash_of_ok k) as [_ Hk]. unfold slot_of.
  pose proof (Z.mod_pos_bound (hash_of k) (zlen (t_slots ht)) Hn) as Hb.
  destruct (split_at (t_slots ht) (hash_of k mod zlen (t_slots ht))) as (a & b & E & L); [lia|].
  destruct b as [|c b]; [exfalso; rewrite app_nil_r in E; rewrite <- E in L; lia|].
  exists a, c, b. split; [assumption|]. split; [now symmetry|]. split; [rewrite E; apply rd_at|].
  assert (K : forall i ci, nth_error (t_slots ht) i = Some ci -> i <> length a -> ~ In k (keys ci)).
  { intros i ci Hi Hne Hin. specialize (Hs i ci k Hi Hin). rewrite Hs in L. unfold zlen in L. lia. }
  unfold keys in *. split; intros Hi; rewrite in_map_iff in Hi; destruct Hi as ([k' v] & Ek & Hi); cbn in Ek; subst k';
  apply in_concat in Hi as (ci & Hc & Hi); apply In_nth_error in Hc as (j & Hj).
  - assert (Hlt : (j < length a)%nat) by (apply nth_error_Some; congruence).
    apply (K j ci); [rewrite E, nth_error_app1 by assumption; exact Hj|lia|].
    apply in_map_iff. exists (k, v). auto.
  - apply (K (length a + S j)%nat ci); [rewrite E, nth_error_app2 by lia; replace (length a + S j - length a)%nat with (S j) by lia; exact Hj|lia|].
    apply in_map_iff. exists (k, v). auto.
Qed.

Lemma put_slot_split ht a c b c' n : t_slots ht = a ++ c :: b ->
  put_slot ht (zlen a) c' n = Tab (a ++ c' :: b) n (t_dtor ht).
Proof.
  intros E. unfold put_slot. rewrite E. f_equal. unfold zlen. rewrite Nat2Z.id. f_equal.
  - rewrite firstn_app, Nat.sub_diag, firstn_all. cbn. apply app_nil_r.
  - f_equal. rewrite skipn_app. rewrite skipn_all2 by lia. replace (S (length a) - length a)%nat with 1%nat by lia. reflexivity.
Qed.

Lemma concat_split {A} (a : list (list A)) (c : list A) b : concat (a ++ c :: b) = concat a ++ c ++ concat b.
Proof. rewrite concat_app. reflexivity. Qed.

(** Changing one slot. *)
Lemma tinv_slot ht m m' a c b c' n : tinv ht m -> t_slots ht = a ++ c :: b ->
  (forall k, In k (keys c') -> In k (keys c) \/ hash_of k mod zlen (t_slots ht) = zlen a) ->
  NoDup (keys (concat a ++ c' ++ concat b)) -> Permutation (concat a ++ c' ++ concat b) m' -> n = zlen m' ->
  tinv (Tab (a ++ c' :: b) n (t_dtor ht)) m'.
Proof.
  intros (Hn & Hs & _ & _ & _) E Hk Hd Hp En. unfold tinv. cbn [t_slots t_count].
  assert (El : zlen (a ++ c' :: b) = zlen (t_slots ht)) by (rewrite E; zl; lia). rewrite El.
  rewrite concat_split. split; [assumption|]. split; [|auto].
  intros i ci k Hi Hin. destruct (Nat.eq_dec i (length a)) as [->|Ne].
  - rewrite nth_error_app2, Nat.sub_diag in Hi by lia. cbn in Hi. injection Hi as <-.
    destruct (Hk k Hin) as [Hc|Hc]; [|exact Hc]. apply (Hs (length a) c); [|assumption].
    rewrite E, nth_error_app2, Nat.sub_diag by lia. reflexivity.
  - apply (Hs i ci); [|assumption]. rewrite E.
    destruct (Nat.lt_ge_cases i (length a)).
    + rewrite nth_error_app1 in * by assumption. assumption.
    + rewrite nth_error_app2 in * by assumption. destruct (i - length a)%nat eqn:Ei; [lia|]. exact Hi.
Qed.

Lemma perm_mid {A} (x y z : list A) e : Permutation (x ++ (y ++ e :: z)) (e :: x ++ y ++ z).
Proof. rewrite app_assoc. rewrite (app_assoc x y z). symmetry. apply Permutation_middle. Qed.

Lemma assoc_slot ht m k a c b : tinv ht m -> t_slots ht = a ++ c :: b ->
  ~ In k (keys (concat a)) -> ~ In k (keys (concat b)) -> assoc k m = assoc k c.
Proof.
  intros (_ & _ & Hd & Hp & _) E Na Nb. rewrite <- (assoc_perm k _ _ Hd Hp). rewrite E, concat_split.
  assert (K : forall x y, ~ In k (keys x) -> assoc k (x ++ y) = assoc k y).
  { induction x as [|[k' v] x IH]; cbn; intros y H; [reflexivity|]. rewrite bytes_eqb_neq by tauto. apply IH. tauto. }
  rewrite K by assumption. clear - Nb. induction c as [|[k' v] c IH]; cbn; [now apply assoc_none|].
  destruct (bytes_eqb k' k); [reflexivity|exact IH].
Qed.

Lemma lookup_ok ht m k : tinv ht m -> tab_lookup ht (keylen k) k = Ok (assoc k m).
Proof using Hlen.
  intros I. unfold tab_lookup. rewrite (proj1 (hash_of_ok k)). cbn [bind].
  destruct (slot_split ht m k I) as (a & c & b & E & -> & Er & Na & Nb). rewrite Er. cbn [bind].
  rewrite find_assoc. f_equal. symmetry. eapply assoc_slot; eassumption.
Qed.

Lemma store_new ht m k v a c b : tinv ht m -> t_slots ht = a ++ c :: b -> slot_of ht (hash_of k) = zlen a ->
  ~ In k (keys (concat a)) -> ~ In k (keys (concat b)) -> ~ In k (keys c) ->
  tinv (Tab (a ++ ((k, v) :: c) :: b) (t_count ht + 1) (t_dtor ht)) ((k, v) :: m).
Proof.
  intros I E Es Na Nb Nc. pose proof I as (Hn & Hs & Hd & Hp & Hc). rewrite E, concat_split in Hd, Hp.
  apply (tinv_slot ht m _ a c b _ _ I E).
  - intros k' [<-|Hi]; [right; exact Es|now left].
  - rewrite keys_app in *. cbn. apply (NoDup_Add (Add_app k _ _)). rewrite keys_app in *. split; [exact Hd|].
    rewrite !in_app_iff. tauto.
  - cbn [app]. rewrite <- Hp. symmetry. apply Permutation_middle.
  - zl. lia.
Qed.

Lemma tab_step_ok ht m o : tinv ht m ->
  exists ht' calls, tab_step keylen ht o = Ok (ht', calls) /\ tinv ht' (map_op m o) /\
    Permutation calls (destroyed (t_dtor ht) m o) /\ t_dtor ht' = t_dtor ht.
Proof using Hlen.
  intros I. pose proof (tinv_nodup _ _ I) as Hdm. pose proof I as (Hn & Hs & Hd & Hp & Hc).
  destruct o as [k v|k v|k d|]; cbn [tab_step map_op destroyed].
  - unfold tab_store. rewrite (proj1 (hash_of_ok k)). cbn [bind].
    destruct (slot_split ht m k I) as (a & c & b & E & Es & Er & Na & Nb). rewrite Es, Er. cbn [bind].
    rewrite (assoc_slot ht m k a c b I E Na Nb). destruct (overwrite k v c) as [[c' old]|] eqn:Eo.
    + apply overwrite_some in Eo as (c1 & c2 & w & -> & -> & ->). rewrite (put_slot_split ht a _ b _ _ E).
      eexists _, _. split; [reflexivity|].
      rewrite E, concat_split in Hd, Hp.
      assert (Re : forall x, concat a ++ (c1 ++ x :: c2) ++ concat b = (concat a ++ c1) ++ x :: c2 ++ concat b)
        by (intros x; rewrite <- !app_assoc; reflexivity).
      rewrite Re in Hd, Hp. pose proof Hd as Hd2.
      destruct (nodup_mid_keys _ _ _ _ Hd2) as [N1 N2].
      assert (Hm : Permutation (without k m) (concat a ++ c1 ++ c2 ++ concat b)).
      { rewrite <- (perm_without k _ _ Hp).
        rewrite without_mid by assumption. rewrite <- app_assoc. reflexivity. }
      split; [|split; [|reflexivity]].
      * apply (tinv_slot ht m _ a _ b _ _ I E).
        -- intros k' Hi. left. rewrite keys_app in *. exact Hi.
        -- rewrite Re. rewrite !keys_app in *. exact Hd.
        -- rewrite Hm, Re. rewrite (app_assoc (concat a) c1). symmetry. apply Permutation_middle.
        -- rewrite Hc. apply Permutation_length in Hm. apply Permutation_length in Hp. unfold zlen. cbn [length].
           rewrite !app_length in *. cbn [length] in Hp. rewrite app_length in Hp. lia.
      * rewrite assoc_mid by (rewrite keys_app, in_app_iff in N1; tauto). destruct (t_dtor ht); reflexivity.
    + apply overwrite_none in Eo. rewrite (put_slot_split ht a c b _ _ E). eexists _, _. split; [reflexivity|].
      rewrite (proj1 (assoc_none k c) Eo). split; [|split; [destruct (t_dtor ht); reflexivity|reflexivity]].
      rewrite without_notin; [now apply store_new|].
      apply assoc_none. rewrite (assoc_slot ht m k a c b I E Na Nb). now apply assoc_none.
  - unfold tab_store_safe. rewrite (proj1 (hash_of_ok k)). cbn [bind].
    destruct (slot_split ht m k I) as (a & c & b & E & Es & Er & Na & Nb). rewrite Es, Er. cbn [bind].
    rewrite existsb_assoc, (assoc_slot ht m k a c b I E Na Nb). destruct (assoc k c) as [w|] eqn:Ec.
    + exists ht, []. auto.
    + rewrite (put_slot_split ht a c b _ _ E). eexists _, _. split; [reflexivity|].
      split; [|auto]. apply store_new; try assumption. now apply assoc_none.
  - unfold tab_remove. rewrite (proj1 (hash_of_ok k)). cbn [bind].
    destruct (slot_split ht m k I) as (a & c & b & E & Es & Er & Na & Nb). rewrite Es, Er. cbn [bind].
    rewrite remove_loop_ok. cbn [rev app]. rewrite (put_slot_split ht a c b _ _ E). eexists _, _. split; [reflexivity|].
    rewrite (assoc_slot ht m k a c b I E Na Nb).
    rewrite E, concat_split in Hd, Hp.
    assert (Hm : Permutation (without k m) (concat a ++ without k c ++ concat b)).
    { rewrite <- (perm_without k _ _ Hp). unfold without at 1. rewrite !filter_app.
      fold (without k (concat a)) (without k c) (without k (concat b)).
      rewrite (without_notin k (concat a)), (without_notin k (concat b)) by assumption. reflexivity. }
    split; [|split; [|reflexivity]].
    + apply (tinv_slot ht m _ a c b _ _ I E).
      * intros k' Hi. left. unfold keys in *. rewrite in_map_iff in *. destruct Hi as (e & Ee & Hi).
        apply filter_In in Hi as [Hi _]. eauto.
      * assert (Hdw : NoDup (keys (without k (concat a ++ c ++ concat b)))).
        { clear - Hd. unfold keys, without in *. induction (concat a ++ c ++ concat b) as [|e l IH]; [constructor|].
          cbn in *. inversion Hd as [|? ? N1 N2]; subst. destruct (negb _); [|now apply IH].
          cbn. constructor; [|now apply IH]. intros Hi. apply N1. rewrite in_map_iff in *.
          destruct Hi as (x & Ex & Hi). apply filter_In in Hi as [Hi _]. eauto. }
        unfold without in Hdw. rewrite !filter_app in Hdw.
        fold (without k (concat a)) (without k c) (without k (concat b)) in Hdw.
        rewrite (without_notin k (concat a)), (without_notin k (concat b)) in Hdw by assumption. exact Hdw.
      * symmetry. exact Hm.
      * rewrite Hc. apply Permutation_length in Hm. apply Permutation_length in Hp.
        unfold zlen. rewrite Hm, <- Hp. rewrite !app_length. lia.
    + destruct d; [|reflexivity]. destruct (assoc k c) as [w|] eqn:Ec.
      * apply assoc_some in Ec as (c1 & c2 & -> & N1).
        assert (Hd2 : NoDup (keys (c1 ++ (k, w) :: c2))).
        { rewrite !keys_app in Hd. clear - Hd.
          assert (G : forall x y : list bytes, NoDup (x ++ y) -> NoDup y).
          { induction x as [|e x IH]; intros y H; [exact H|]. cbn in H. inversion H; subst. now apply IH. }
          assert (G' : forall x y : list bytes, NoDup (x ++ y) -> NoDup x).
          { induction x as [|e x IH]; intros y H; [constructor|]. cbn in H. inversion H as [|? ? A1 A2]; subst.
            constructor; [|now apply (IH y)]. intros Hi. apply A1, in_app_iff. now left. }
          apply G in Hd. apply G' in Hd. rewrite keys_app. exact Hd. }
        destruct (nodup_mid_keys _ _ _ _ Hd2) as [_ N2]. rewrite filter_mid_key by assumption. reflexivity.
      * apply assoc_none in Ec. clear - Ec. 
        replace (filter (fun e : bytes * V => bytes_eqb (fst e) k) c) with (@nil (bytes * V)); [reflexivity|].
        induction c as [|[k' w] c IH]; [reflexivity|]. cbn in *. rewrite bytes_eqb_neq by tauto. apply IH. tauto.
  - eexists _, _. split; [reflexivity|]. split; [|split; [|reflexivity]].
    + unfold tinv. cbn [t_slots t_count]. rewrite concat_repeat_nil.
      assert (El : zlen (repeat (@nil (bytes * V)) (length (t_slots ht))) = zlen (t_slots ht)) by (unfold zlen; now rewrite repeat_length).
      rewrite El. split; [assumption|]. split; [|split; [constructor|split; reflexivity]].
      intros i c k Hi Hin. apply nth_error_In in Hi. apply repeat_spec in Hi. subst. destruct Hin.
    + cbn. destruct (t_dtor ht); [assumption|reflexivity].
Qed.

Lemma tab_run_ok : forall ops ht m, tinv ht m ->
  exists ht' calls, tab_run keylen ht ops = Ok (ht', calls) /\ tinv ht' (fold_left map_op ops m) /\
    Permutation calls (all_destroyed (t_dtor ht) m ops).
Proof using Hlen.
  induction ops as [|o ops IH]; intros ht m I; [exists ht, []; auto|].
  cbn [tab_run fold_left all_destroyed]. destruct (tab_step_ok ht m o I) as (h1 & c1 & R1 & I1 & P1 & E1).
  rewrite R1. cbn [bind]. destruct (IH h1 _ I1) as (h2 & c2 & R2 & I2 & P2). rewrite R2. cbn [bind].
  exists h2, (c1 ++ c2). split; [reflexivity|]. split; [assumption|]. rewrite P1, P2, E1. reflexivity.
Qed.

End Table.

Lemma new_ok V n d : n < 152287 -> -2^31 <= n -> exists ht, @tab_new V n d = Ok ht /\ t_dtor ht = d /\
  forall keylen, tinv keylen ht [].
Proof.
  intros Hn Hn2. unfold tab_new, get_prime.
  assert (Hu : 0 < u32 (if n <=? 0 then 541 else n) < 152287).
  { unfold u32. destruct (n <=? 0) eqn:E; rewrite Z.mod_small by lia; lia. }
  destruct (find (fun p => u32 (if n <=? 0 then 541 else n) <? p) primes) as [p|] eqn:E.
  - cbn [bind]. eexists. split; [reflexivity|]. split; [reflexivity|]. intros keylen.
    assert (Hp : 0 < p).
    { apply find_some in E as [Hi _]. cbn in Hi. lia. }
    unfold tinv. cbn [t_slots t_count]. rewrite concat_repeat_nil. split; [unfold zlen; rewrite repeat_length; lia|].
    split; [|split; [constructor|split; reflexivity]].
    intros i c k Hi Hin. apply nth_error_In in Hi. apply repeat_spec in Hi. subst. destruct Hin.
  - exfalso. apply find_none with (x := 152287) in E; [lia|]. cbn. intuition.
Qed.
