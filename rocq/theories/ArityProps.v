(** C85: which calls the parser takes.  AritySpec.v says how many arguments functions take. *)

From Coq Require Import String ZArith List Bool Lia.
From Verif Require Import Base Text BundleSModel BundleSProofs ExprParseModel ExprParseSpec ExprMeaning AritySpec.
Import ListNotations.
Open Scope Z_scope.

(** The rows of the table, as AritySpec.v has them. *)
Definition rows : list (list Z * (Z * Z)) :=
  map (fun f => (f, (0, 0))) constants ++ map (fun f => (f, (0, 1))) up_to_one ++ map (fun f => (f, (0, -1))) any_number ++
  map (fun f => (f, (1, 0))) one ++ map (fun f => (f, (1, 1))) one_or_two ++ map (fun f => (f, (1, -1))) one_or_more ++
  map (fun f => (f, (2, 0))) two ++ map (fun f => (f, (2, 1))) two_or_three ++ map (fun f => (f, (2, -1))) two_or_more ++
  map (fun f => (f, (3, 0))) three ++ map (fun f => (f, (5, 0))) five.
Definition row_eqb (r r' : list Z * (Z * Z)) : bool :=
  streq (fst r) (fst r') && (fst (snd r) =? fst (snd r')) && (snd (snd r) =? snd (snd r')).
Definition among (l l' : list (list Z * (Z * Z))) : bool := forallb (fun r => existsb (row_eqb r) l') l.
Lemma row_eqb_eq r r' : row_eqb r r' = true -> r = r'.
Proof.
  destruct r as [f [a b]], r' as [f' [a' b']]. unfold row_eqb. cbn [fst snd]. rewrite !andb_true_iff, !Z.eqb_eq.
  intros [[H ->] ->]. apply streq_iff in H. now subst.
Qed.
Lemma among_in l l' : among l l' = true -> forall r, In r l -> In r l'.
Proof.
  unfold among. rewrite forallb_forall. intros H r Hr. apply H, existsb_exists in Hr as (r' & Hr' & E). apply row_eqb_eq in E. now subst.
Qed.
Lemma rows_functions r : In r rows <-> In r functions.
Proof. split; apply among_in; vm_compute; reflexivity. Qed.
Lemma known_rows f n : known f n = true <-> exists req opt, In (f, (req, opt)) rows /\ req <= n /\ (opt < 0 \/ n <= req + opt).
Proof.
  unfold known. rewrite existsb_exists. split.
  - intros ([f' [req opt]] & Hin & H). rewrite !andb_true_iff, orb_true_iff, Z.leb_le, Z.ltb_lt, Z.leb_le in H. destruct H as [[E H1] H2].
    apply streq_iff in E as <-. exists req, opt. now rewrite rows_functions.
  - intros (req & opt & Hin & H1 & H2). exists (f, (req, opt)). split; [now apply rows_functions|].
    rewrite !andb_true_iff, orb_true_iff, Z.leb_le, Z.ltb_lt, Z.leb_le. repeat split; [now apply streq_iff|assumption|assumption].
Qed.
Lemma in_group f (l : list (list Z)) (r r0 : Z * Z) : In (f, r) (map (fun f => (f, r0)) l) <-> In f l /\ r = r0.
Proof.
  rewrite in_map_iff. split; [intros (x & E & H); now inversion E; subst|]. intros [H ->]. now exists f.
Qed.
Lemma known_takes f n : known f n = true <-> takes f n.
Proof.
  rewrite known_rows. unfold rows, takes. split.
  - intros (req & opt & Hin & H1 & H2). rewrite !in_app_iff, !in_group in Hin.
    repeat (destruct Hin as [Hin|Hin]); destruct Hin as [Hin E]; injection E as -> ->;
      [left|right; left|do 2 right; left|do 3 right; left|do 4 right; left|do 5 right; left|do 6 right; left|do 7 right; left|do 8 right; left|do 9 right; left|do 10 right]; (split; [exact Hin|lia]).
  - intros H. assert (K : forall req opt, In (f, (req, opt)) rows /\ req <= n /\ (opt < 0 \/ n <= req + opt) ->
      exists req opt, In (f, (req, opt)) rows /\ req <= n /\ (opt < 0 \/ n <= req + opt)) by (intros req opt ?; now exists req, opt).
    unfold rows in K.
    repeat (destruct H as [H|H]); destruct H as [Hin E];
      [apply (K 0 0)|apply (K 0 1)|apply (K 0 (-1))|apply (K 1 0)|apply (K 1 1)|apply (K 1 (-1))|apply (K 2 0)|apply (K 2 1)|apply (K 2 (-1))|apply (K 3 0)|apply (K 5 0)];
      (split; [rewrite !in_app_iff, !in_group; tauto|lia]).
Qed.

(** A call by name is taken if a function of the name takes that many arguments, and no
    other call is. *)
Theorem C85_arity f args : (takes f (zlen args) -> reduce_prefix f args = Some (Call f args)) /\
  (~ takes f (zlen args) -> reduce_prefix f args = None).
Proof.
  rewrite reduce_known, <- known_takes. destruct (known f (zlen args)); split; intros H; [reflexivity|now elim H|discriminate|reflexivity].
Qed.
Print Assumptions C85_arity.
(** No name has two entries, so that a function takes the numbers of one group. *)
Definition distinct (l : list (list Z)) : bool :=
  (fix go l := match l with [] => true | x :: l' => negb (existsb (streq x) l') && go l' end) l.
Lemma distinct_NoDup l : distinct l = true -> NoDup l.
Proof.
  induction l as [|x l IH]; intros H; [constructor|]. cbn in H. apply andb_true_iff in H as [H1 H2]. constructor; [|now apply IH].
  intros Hin. apply negb_true_iff in H1. assert (existsb (streq x) l = true) by (apply existsb_exists; exists x; split; [exact Hin|now apply streq_iff]). congruence.
Qed.
Theorem C85_names : NoDup names.
Proof. apply distinct_NoDup. vm_compute. reflexivity. Qed.
Print Assumptions C85_names.
Example C85_arity_example : takes (str "nfill") 2 /\ ~ takes (str "nfill") 3 /\ takes (str "clip") 3.
Proof.
  assert (K1 : known (str "nfill") 2 = true) by (vm_compute; reflexivity). assert (K2 : known (str "nfill") 3 = false) by (vm_compute; reflexivity).
  assert (K3 : known (str "clip") 3 = true) by (vm_compute; reflexivity). split; [now apply known_takes|]. split; [rewrite <- known_takes; congruence|now apply known_takes].
Qed.
