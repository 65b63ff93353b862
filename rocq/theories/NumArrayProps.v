(** C107: the numbers of an array of atoms as an array of numbers. *)

From Coq Require Import ZArith List Bool Lia.
From Verif Require Import Base SerialModel AtomUModel NumArrayModel NumArraySpec.
Import ListNotations.
Open Scope Z_scope.

Lemma store_ok : forall pre x post v, store_at (pre ++ x :: post) (length pre) v = Ok (pre ++ v :: post).
Proof. induction pre as [|y pre IH]; intros x post v; cbn; [reflexivity|]. now rewrite IH. Qed.
Lemma store_oob : forall out v, store_at out (length out) v = Ub OOB.
Proof. induction out as [|y out IH]; intros v; cbn; [reflexivity|]. now rewrite IH. Qed.

Lemma reads_length : forall (get : atom -> res Z) ar vs, reads get ar = Ok vs -> length vs = length ar.
Proof.
  induction ar as [|a ar IH]; intros vs H; cbn in H; [now injection H as <-|].
  destruct (get a); try discriminate. cbn in H. destruct (reads get ar) as [ws| |]; try discriminate. cbn in H.
  injection H as <-. cbn. now rewrite (IH ws).
Qed.

Lemma fill_ok : forall get ar vs pre out, reads get ar = Ok vs -> zlen pre + zlen ar <= 2 ^ 31 - 1 ->
  (length ar <= length out)%nat ->
  fill get ar (length pre) (pre ++ out) = Ok (pre ++ vs ++ skipn (length vs) out).
Proof.
  induction ar as [|a ar IH]; intros vs pre out H L B; cbn in H.
  - injection H as <-. reflexivity.
  - destruct (get a) as [v| |] eqn:G; try discriminate. cbn in H.
    destruct (reads get ar) as [ws| |] eqn:R; try discriminate. cbn in H. injection H as <-.
    destruct out as [|x out]; [cbn in B; lia|]. cbn [fill]. rewrite G. cbn [bind]. rewrite store_ok. cbn [bind].
    unfold zlen in L. cbn [length] in L. rewrite (proj2 (Z.leb_gt _ _)) by lia.
    replace (S (length pre)) with (length (pre ++ [v])) by (rewrite app_length; cbn; lia).
    replace (pre ++ v :: out) with ((pre ++ [v]) ++ out) by (now rewrite <- app_assoc).
    rewrite (IH ws); [|reflexivity|unfold zlen; rewrite app_length; cbn [length]; lia|cbn in B; lia].
    rewrite <- app_assoc. reflexivity.
Qed.

Lemma fill_short : forall get ar vs pre out, reads get ar = Ok vs -> zlen pre + zlen ar <= 2 ^ 31 - 1 ->
  (length out < length ar)%nat -> fill get ar (length pre) (pre ++ out) = Ub OOB.
Proof.
  induction ar as [|a ar IH]; intros vs pre out H L B; cbn in H; [cbn in B; lia|].
  destruct (get a) as [v| |] eqn:G; try discriminate. cbn in H.
  destruct (reads get ar) as [ws| |] eqn:R; try discriminate.
  cbn [fill]. rewrite G. cbn [bind]. destruct out as [|x out].
  - rewrite app_nil_r, store_oob. reflexivity.
  - rewrite store_ok. cbn [bind]. unfold zlen in L. cbn [length] in L. rewrite (proj2 (Z.leb_gt _ _)) by lia.
    replace (S (length pre)) with (length (pre ++ [v])) by (rewrite app_length; cbn; lia).
    replace (pre ++ v :: out) with ((pre ++ [v]) ++ out) by (now rewrite <- app_assoc).
    apply (IH ws); [reflexivity|unfold zlen; rewrite app_length; cbn [length]; lia|cbn in B; lia].
Qed.

Lemma get_array_puts : forall junk get, puts get (get_array junk get).
Proof.
  intros junk get ar vs R L. assert (N := reads_length _ _ _ R). split; [|split].
  - unfold get_array. assert (Q := fill_ok get ar vs [] (repeat junk (length ar)) R L). cbn [app length] in Q.
    rewrite Q by (rewrite repeat_length; lia). rewrite skipn_all2 by (rewrite repeat_length; lia). now rewrite app_nil_r.
  - intros out B. exists (vs ++ skipn (length vs) out). split; [exact (fill_ok get ar vs [] out R L B)|]. split.
    + rewrite app_length, skipn_length. lia.
    + intros i. destruct (Nat.ltb_spec i (length vs)) as [H|H].
      * now apply nth_error_app1.
      * rewrite nth_error_app2 by lia. rewrite <- (firstn_skipn (length vs) out) at 2.
        rewrite nth_error_app2; rewrite firstn_length_le by lia; [reflexivity|lia].
  - intros out B. exact (fill_short get ar vs [] out R L B).
Qed.

(** Each of the functions puts, in order, what the getter of its type gives. *)
Theorem C107_arrays : forall junk other,
  puts (au_double other) (double_array junk other) /\ puts (au_float other) (float_array junk other) /\
  puts au_int32 (int32_array junk) /\ puts au_int64 (int64_array junk) /\
  puts au_uint32 (uint32_array junk) /\ puts au_uint64 (uint64_array junk) /\
  puts (fun a => Ok (if au_bool a then 1 else 0)) (bool_array junk).
Proof. intros junk other. do 6 (split; [apply get_array_puts|]). apply get_array_puts. Qed.
Print Assumptions C107_arrays.

(** With more members than an int can count, each is undefined. *)
Theorem C107_too_long : forall junk get ar vs out, reads get ar = Ok vs -> 2 ^ 31 - 1 < zlen ar ->
  forall r, get_array junk get ar out <> Ok r.
Proof.
  intros junk get. assert (W : forall ar i out, 2 ^ 31 - 1 < Z.of_nat i + zlen ar -> ar <> [] ->
            forall r, fill get ar i out <> Ok r).
  { induction ar as [|a ar IH]; intros i out L NE r E; [congruence|]. cbn [fill] in E.
    destruct (get a); try discriminate. cbn [bind] in E. destruct (store_at out i a0) as [o| |]; try discriminate.
    cbn [bind] in E. destruct (2 ^ 31 - 1 <=? Z.of_nat i) eqn:C; [discriminate|]. apply Z.leb_gt in C.
    unfold zlen in L. cbn [length] in L. destruct ar as [|b ar]; [cbn [length] in L; lia|].
    revert E. apply IH; [unfold zlen; lia|discriminate]. }
  intros ar vs out _ L r. unfold get_array. apply W; [lia|]. intros ->. unfold zlen in L. cbn in L. lia.
Qed.
Print Assumptions C107_too_long.

Example C107_demo : int32_array 9 [Atom 105 7 PNone; Atom 84 0 PNone] (Some [1; 2; 3]) = Ok [7; 1; 3].
Proof. reflexivity. Qed.
