(** Machine words in memory (little-endian host) and on the wire. *)

From Coq Require Import ZArith List Bool Lia.
From Verif Require Import Base BaseProofs.
Import ListNotations.
Open Scope Z_scope.

(** The [n] bytes of a word as a little-endian machine stores them. *)
Fixpoint le_bytes (n : nat) (v : Z) : bytes :=
  match n with
  | O => []
  | S m => v mod 256 :: le_bytes m (v / 256)
  end.

(** The value a little-endian machine reads from memory. *)
Fixpoint of_le (l : bytes) : Z :=
  match l with
  | [] => 0
  | b :: l' => b + 256 * of_le l'
  end.

(** Network byte order: most significant byte first. *)
Definition be_bytes (n : nat) (v : Z) : bytes := rev (le_bytes n v).
Definition of_be (l : bytes) : Z := of_le (rev l).

Lemma le_bytes_length n v : length (le_bytes n v) = n.
Proof. revert v. induction n; intros; cbn; auto. Qed.

Lemma be_bytes_length n v : length (be_bytes n v) = n.
Proof. unfold be_bytes. rewrite rev_length. apply le_bytes_length. Qed.

Lemma zlen_be n v : zlen (be_bytes n v) = Z.of_nat n.
Proof. unfold zlen. now rewrite be_bytes_length. Qed.

Lemma le_bytes_wf n v : wf_bytes (le_bytes n v).
Proof.
  revert v. induction n; intros; cbn; constructor.
  - unfold is_byte. apply Z.mod_pos_bound. lia.
  - apply IHn.
Qed.

Lemma wf_bytes_rev l : wf_bytes l -> wf_bytes (rev l).
Proof.
  unfold wf_bytes. rewrite !Forall_forall. intros H x Hx. apply H. now apply in_rev.
Qed.

Lemma be_bytes_wf n v : wf_bytes (be_bytes n v).
Proof. apply wf_bytes_rev, le_bytes_wf. Qed.

Lemma of_le_bound l : wf_bytes l -> 0 <= of_le l < 256 ^ zlen l.
Proof.
  induction 1 as [|b l Hb Hl IH]; [cbn; lia|].
  cbn [of_le]. rewrite zlen_cons, Z.pow_add_r, Z.pow_1_r by (try apply zlen_nonneg; lia).
  unfold is_byte in Hb. nia.
Qed.

Lemma of_le_bytes n v : of_le (le_bytes n v) = v mod 256 ^ Z.of_nat n.
Proof.
  revert v. induction n as [|n IH]; intros v.
  - cbn. now rewrite Z.mod_1_r.
  - cbn [le_bytes of_le]. rewrite IH.
    rewrite Nat2Z.inj_succ, Z.pow_succ_r by lia.
    rewrite Z.rem_mul_r by lia. lia.
Qed.

Lemma le_bytes_of_le l : wf_bytes l -> le_bytes (length l) (of_le l) = l.
Proof.
  induction 1 as [|b l Hb Hl IH]; [reflexivity|]. cbn [length le_bytes of_le].
  unfold is_byte in Hb.
  replace ((b + 256 * of_le l) mod 256) with b.
  - replace ((b + 256 * of_le l) / 256) with (of_le l); [now rewrite IH|].
    rewrite Z.mul_comm, Z.div_add by lia. rewrite Z.div_small by lia. lia.
  - rewrite Z.mul_comm, Z.mod_add by lia. now rewrite Z.mod_small by lia.
Qed.

Lemma of_be_bytes n v : of_be (be_bytes n v) = v mod 256 ^ Z.of_nat n.
Proof. unfold of_be, be_bytes. rewrite rev_involutive. apply of_le_bytes. Qed.

Lemma be_bytes_of_be l : wf_bytes l -> be_bytes (length l) (of_be l) = l.
Proof.
  intros H. unfold be_bytes, of_be. rewrite <- (rev_length l).
  rewrite le_bytes_of_le by (now apply wf_bytes_rev). apply rev_involutive.
Qed.

Lemma of_be_bound l : wf_bytes l -> 0 <= of_be l < 256 ^ zlen l.
Proof. intros H. unfold of_be. rewrite <- zlen_rev. apply of_le_bound. now apply wf_bytes_rev. Qed.

Lemma le_bytes_mod n v : le_bytes n (v mod 256 ^ Z.of_nat n) = le_bytes n v.
Proof.
  rewrite <- of_le_bytes. rewrite <- (le_bytes_length n v) at 1.
  apply le_bytes_of_le, le_bytes_wf.
Qed.

Lemma be_bytes_mod n v : be_bytes n (v mod 256 ^ Z.of_nat n) = be_bytes n v.
Proof. unfold be_bytes. now rewrite le_bytes_mod. Qed.

Lemma of_be_4 v : of_be (be_bytes 4 v) = u32 v.
Proof. rewrite of_be_bytes. reflexivity. Qed.
Lemma of_be_8 v : of_be (be_bytes 8 v) = u64 v.
Proof. rewrite of_be_bytes. reflexivity. Qed.
Lemma be_bytes_u32 v : be_bytes 4 (u32 v) = be_bytes 4 v.
Proof. apply (be_bytes_mod 4). Qed.
Lemma be_bytes_u64 v : be_bytes 8 (u64 v) = be_bytes 8 v.
Proof. apply (be_bytes_mod 8). Qed.

Lemma be_bytes_inj n v w : be_bytes n v = be_bytes n w ->
  v mod 256 ^ Z.of_nat n = w mod 256 ^ Z.of_nat n.
Proof. intros H. rewrite <- !of_be_bytes. now rewrite H. Qed.
