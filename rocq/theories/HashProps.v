(** C29: the hash table is a finite map. *)

From Coq Require Import ZArith List Bool Lia Permutation.
From Verif Require Import Base BaseProofs Text BundleUModel HashModel HashSpec HashProofs.
Import ListNotations.
Open Scope Z_scope.

(** Whatever operations have been carried out on a new table, lookup finds for
    every key what a plain map holds, the count is the number of its keys, the
    callback of foreach is given every entry once, and the destructor has been
    given exactly the entries that were dropped.  The length that goes with a
    key may be any length inside the string (its terminator included), as long
    as it is always the same for the same key. *)
Theorem C29_map : forall V keylen nslots dtor,
  (forall k, 0 <= keylen k < 2^31 /\ keylen k <= zlen k + 1) ->
  -2^31 <= nslots < 152287 ->
  exists ht0, @tab_new V nslots dtor = Ok ht0 /\
  forall ops, exists ht calls, tab_run keylen ht0 ops = Ok (ht, calls) /\
    let m := fold_left map_op ops [] in
    (forall k, tab_lookup ht (keylen k) k = Ok (assoc k m)) /\
    NoDup (map fst m) /\ t_count ht = zlen m /\
    Permutation (tab_foreach ht) m /\
    Permutation calls (all_destroyed dtor [] ops).
Proof.
  intros V keylen nslots dtor Hk Hn. destruct (new_ok V nslots dtor) as (ht0 & E & Ed & I0); [lia|lia|].
  exists ht0. split; [exact E|]. intros ops.
  destruct (tab_run_ok keylen Hk ops ht0 [] (I0 keylen)) as (ht & calls & R & I & P). exists ht, calls.
  split; [exact R|]. cbv zeta. split; [intros k; now apply lookup_ok|].
  split; [eapply tinv_nodup; exact I|]. destruct I as (_ & _ & _ & Hp & Hc).
  split; [assumption|]. split; [assumption|]. rewrite <- Ed. exact P.
Qed.
Print Assumptions C29_map.

(** The plain map, read by key: what was stored last is there; storeSafe keeps
    what is there; a key removed is gone; other keys are not affected. *)
Theorem C29_map_laws : forall V (m : list (bytes * V)) k v k' d, NoDup (map fst m) ->
  assoc k' (map_op m (Store k v)) = (if bytes_eqb k k' then Some v else assoc k' m) /\
  assoc k' (map_op m (StoreSafe k v)) =
    (if bytes_eqb k k' then match assoc k m with Some w => Some w | None => Some v end else assoc k' m) /\
  assoc k' (map_op m (Delete k d)) = (if bytes_eqb k k' then None else assoc k' m) /\
  assoc k' (map_op m ClearTab) = None.
Proof.
  intros V m k v k' d _. unfold map_op.
  assert (Hw : assoc k' (without k m) = if bytes_eqb k k' then None else assoc k' m).
  { unfold without. induction m as [|[k1 w] m IH]; [cbn; now destruct (bytes_eqb k k')|].
    cbn [filter fst]. destruct (bytes_eqb k1 k) eqn:E1; cbn [negb assoc].
    - apply BundleUProofs.bytes_eqb_spec in E1. subst k1. rewrite IH. now destruct (bytes_eqb k k').
    - rewrite IH. destruct (bytes_eqb k k') eqn:E2; [|reflexivity].
      apply BundleUProofs.bytes_eqb_spec in E2. subst k'. now rewrite E1. }
  split; [cbn [assoc]; now rewrite Hw; destruct (bytes_eqb k k')|].
  split; [|split; [exact Hw|reflexivity]].
  destruct (bytes_eqb k k') eqn:E2.
  - apply BundleUProofs.bytes_eqb_spec in E2. subst k'. destruct (assoc k m) as [w|] eqn:Em; [exact Em|].
    cbn. now rewrite bytes_eqb_refl.
  - destruct (assoc k m); [reflexivity|]. cbn. now rewrite E2.
Qed.
Print Assumptions C29_map_laws.

(** The prime table is read past its end for 152287 slots or more. *)
Theorem C29_too_many_slots_refuted : forall V dtor nslots, 152287 <= nslots < 2^31 -> @tab_new V nslots dtor = Ub OOB.
Proof.
  intros V dtor n Hn. unfold tab_new, get_prime. destruct (n <=? 0) eqn:E; [lia|].
  replace (u32 n) with n by (unfold u32; rewrite Z.mod_small; lia).
  destruct (find (fun p => n <? p) primes) as [p|] eqn:Ef; [|reflexivity].
  exfalso. apply find_some in Ef as [Hi Hp]. cbn in Hi. lia.
Qed.
Print Assumptions C29_too_many_slots_refuted.

(** The same key with another length is not found. *)
Theorem C29_other_length_refuted : exists ht0 ht calls,
  @tab_new Z 0 false = Ok ht0 /\ tab_store ht0 2 (str "ab") 7 = Ok (ht, calls) /\
  tab_lookup ht 2 (str "ab") = Ok (Some 7) /\ tab_lookup ht 1 (str "ab") = Ok None.
Proof.
  destruct (@tab_new Z 0 false) as [ht0| |] eqn:E; [|discriminate|discriminate]. exists ht0.
  injection E as <-. do 2 eexists. split; [reflexivity|]. split; [vm_compute; reflexivity|].
  split; vm_compute; reflexivity.
Qed.
Print Assumptions C29_other_length_refuted.

(** A table with collisions (all keys in the slot 0: the length given is 0) and
    with a destructor. *)
Example C29_example : exists ht0 ht, @tab_new Z 1 true = Ok ht0 /\
  tab_run (fun _ => 0) ht0 [Store (str "/a") 1; Store (str "/b") 2; StoreSafe (str "/a") 3; Store (str "/b") 4;
                            Store (str "/c") 5; Delete (str "/c") true] = Ok (ht, [(str "/b", 2); (str "/c", 5)]) /\
  tab_lookup ht 0 (str "/a") = Ok (Some 1) /\ tab_lookup ht 0 (str "/b") = Ok (Some 4) /\ t_count ht = 2.
Proof.
  do 2 eexists. split; [reflexivity|]. split; [vm_compute; reflexivity|]. repeat split; vm_compute; reflexivity.
Qed.
(** strlen (an int) will do as the length. *)
Example C29_strlen : forall k : bytes,
  0 <= Z.min (zlen k) (2^31 - 1) < 2^31 /\ Z.min (zlen k) (2^31 - 1) <= zlen k + 1.
Proof. intros k. unfold zlen. lia. Qed.
