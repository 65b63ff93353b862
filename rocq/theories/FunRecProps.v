(** C105: a record of a function gives back what was set last, and freeing it
    frees everything exactly if no call overwrote what an earlier one had set. *)

From Coq Require Import ZArith List Bool Lia.
From Verif Require Import Base FunRecModel FunRecSpec FunRecProofs.
Import ListNotations.
Open Scope Z_scope.

Lemma read_text_ok : forall m p o, text_at m p o -> read_text m p = Ok o.
Proof.
  intros m p [s|] H; cbn in H; unfold read_text.
  - destruct H as [H E]. now rewrite (proj2 (Z.eqb_neq p 0) H), E.
  - now subst p.
Qed.
Lemma read_types_ok : forall m p o, types_at m p o -> read_types m p = Ok o.
Proof.
  intros m p [s|] H; cbn in H; unfold read_types.
  - destruct H as [H E]. now rewrite (proj2 (Z.eqb_neq p 0) H), E.
  - now subst p.
Qed.
Lemma read_texts_ok : forall m ps ns, Forall2 (text_at m) ps ns -> read_texts (length ns) m ps = Ok ns.
Proof.
  intros m ps ns H. induction H as [|p o ps ns H1 H2 IH]; [reflexivity|].
  cbn [length read_texts]. now rewrite (read_text_ok _ _ _ H1), IH.
Qed.
Lemma read_names_ok : forall m g o ps, names_at m (g_names g) (g_num g) o ps ->
  read_names m g = Ok o /\ g_num g = how_many o.
Proof.
  intros m g [ns|] ps H; cbn in H; unfold read_names.
  - destruct H as (H & E & L & F). rewrite (proj2 (Z.eqb_neq _ 0) H), E, L. unfold zlen. rewrite Nat2Z.id.
    now rewrite (read_texts_ok _ _ _ F).
  - destruct H as (-> & _ & ->). split; reflexivity.
Qed.

(** After any calls the getters give what the calls set last. *)
Theorem C105_get : forall cs,
  let r := run rec_alloc cs in
  let h := fold_left apply cs nothing in
  get_name r = Ok (h_name h) /\ get_signature r = Ok (h_sig h) /\
  get_num_required r = how_many (h_req h) /\ get_num_optional r = how_many (h_opt h) /\
  get_required_names r = Ok (h_req h) /\ get_optional_names r = Ok (h_opt h) /\
  get_required_types r = Ok (h_reqt h) /\ get_optional_types r = Ok (h_optt h).
Proof.
  intros cs r h. destruct (run_ok cs _ _ _ _ _ inv_start) as (lk & rps & ops & [I1 I2 I3 I4 I5 I6 _ _ _] & _ & _).
  fold r h in I1, I2, I3, I4, I5, I6.
  destruct (read_names_ok _ _ _ _ I3) as [A1 A2]. destruct (read_names_ok _ _ _ _ I4) as [B1 B2].
  split; [now apply read_text_ok|]. split; [now apply read_text_ok|]. split; [exact A2|]. split; [exact B2|].
  split; [exact A1|]. split; [exact B1|]. split; now apply read_types_ok.
Qed.
Print Assumptions C105_get.

(** After any calls freeing the record never frees a block twice; nothing is left
    exactly if no call overwrote what an earlier one had set. *)
Theorem C105_free : forall cs, exists m', rec_free (run rec_alloc cs) = Ok m' /\
  ((forall a, m' a = None) <-> any_overwrites nothing cs = false).
Proof.
  intros cs. destruct (run_ok cs _ _ _ _ _ inv_start) as (lk & rps & ops & I & E & _).
  rewrite app_nil_r in I. destruct (rec_free_ok _ _ _ _ _ I) as (m' & F & Q & _). exists m'. split; [exact F|].
  transitivity (lk = []); [|rewrite E; tauto]. split.
  - intros H. destruct lk as [|a lk]; [reflexivity|]. exfalso. apply (proj2 (Q a)); [now left|apply H].
  - intros -> a. destruct (m' a) as [o|] eqn:X; [|reflexivity]. exfalso. apply (proj1 (Q a)). rewrite X. discriminate.
Qed.
Print Assumptions C105_free.

(** So it is not true that freeing always frees everything: a name set twice. *)
Theorem C105_no_leak_refuted : exists cs m' a, rec_free (run rec_alloc cs) = Ok m' /\ m' a <> None.
Proof.
  exists [Name [97]; Name [98]].
  destruct (rec_free (run rec_alloc [Name [97]; Name [98]])) as [m'|u|] eqn:E; try (vm_compute in E; discriminate).
  exists m', 1. split; [reflexivity|]. vm_compute in E. injection E as <-. vm_compute. discriminate.
Qed.
Print Assumptions C105_no_leak_refuted.

(** A call about arguments without names does nothing, even if it has types. *)
Theorem C105_types_without_names : forall r t, run r [Required None t] = r /\ run r [Optional None t] = r.
Proof. intros [m n a b [g1 g2 g3] [k1 k2 k3]] t. split; reflexivity. Qed.
Print Assumptions C105_types_without_names.

Definition demo := [Name [102]; Required (Some [Some [120]; None]) (Some [1; 2]); Optional (Some [Some [121]]) None; Signature [103]].
Example C105_demo_get :
  get_name (run rec_alloc demo) = Ok (Some [102]) /\ get_required_names (run rec_alloc demo) = Ok (Some [Some [120]; None]) /\
  get_optional_types (run rec_alloc demo) = Ok None /\ get_num_required (run rec_alloc demo) = 2.
Proof. repeat split. Qed.
Example C105_demo_free : any_overwrites nothing demo = false /\ any_overwrites nothing (demo ++ [Required (Some []) None]) = true.
Proof. split; reflexivity. Qed.
