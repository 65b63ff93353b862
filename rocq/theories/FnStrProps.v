(** C67-C70: the string functions of the expression language. *)

From Coq Require Import String ZArith List Bool Lia.
From Verif Require Import Base Text BaseProofs Bytes UtilModel UtilProofs SerialModel WireModel AtomSModel FloatModel AtomUModel
  StrfmtModel FArithModel ExprModel ExprListModel StatModel FnStrModel AtomSpec AtomProofs RealSpec ExprSpec FnStrSpec
  StrfmtProps TextProps LogicProps CompareProofs ExprListProofs ExprProps ExprListProps StatProofs FnStrProofs.
Import ListNotations.
Open Scope Z_scope.

Lemma aalloc_members a : aalloc (alen a) = Ok (Some (repeat atom_fresh (length (members a)))).
Proof. destruct a as [l|]; [exact (aalloc_len l)|reflexivity]. Qed.

(** * C67: strlen, strcmp, strchar and typetags *)

(** The length of the text of each member, a 64 bit integer. *)
Theorem C67_strlen E a more ss : Forall2 (shown (e_text E)) (members a) ss ->
  fn_strlen E (a :: more) = Ok (0, Some (map (fun s => set_u I64 atom_fresh (zlen s)) ss)).
Proof.
  intros H. cbn [fn_strlen]. rewrite aalloc_members. cbn [bind]. change (items a) with (members a).
  rewrite (each_ok _ (members a) (map (fun s => set_u I64 atom_fresh (zlen s)) ss)) with (done := []); [reflexivity| |reflexivity].
  induction H as [|x s l ss Hx _ IH]; [apply Forall2_nil|]. cbn [map]. apply Forall2_cons; [|exact IH].
  unfold text_must, text_at. rewrite (proj1 (text_shown E x s Hx)). reflexivity.
Qed.
Print Assumptions C67_strlen.

(** What the C library promises. *)
Definition library (L : libc) : Prop :=
  (forall s1 s2, characters s1 -> characters s2 -> compares s1 s2 (c_strcmp L s1 s2)) /\
  (forall s1 s2 n, characters s1 -> characters s2 -> 0 <= n ->
     compares (firstn (Z.to_nat n) s1) (firstn (Z.to_nat n) s2) (c_strncmp L s1 s2 n)).

(** Two arguments, or more than three: the texts of the first members compared. *)
Theorem C67_strcmp E L a0 a1 more x0 l0 x1 l1 s0 s1 : library L ->
  members a0 = x0 :: l0 -> members a1 = x1 :: l1 -> shown (e_text E) x0 s0 -> shown (e_text E) x1 s1 -> length more <> 1%nat ->
  exists r, fn_strcmp E L (a0 :: a1 :: more) = Ok (0, Some [set_u I32 atom_fresh r]) /\ compares s0 s1 r.
Proof.
  intros [HL _] H0 H1 S0 S1 Hm. exists (c_strcmp L s0 s1). cbn [fn_strcmp].
  rewrite (first_member a0 x0 l0 H0), (first_member a1 x1 l1 H1). cbn [bind].
  destruct (text_shown E x0 s0 S0) as [T0 C0]. destruct (text_shown E x1 s1 S1) as [T1 C1].
  unfold text_at. rewrite T0, T1. cbn [bind]. split; [|apply HL; assumption].
  destruct more as [|a2 [|a3 more]]; [|easy|]; cbn [bind]; rewrite aalloc_1; cbn [bind]; rewrite aput_1; reflexivity.
Qed.
Print Assumptions C67_strcmp.

(** Three arguments: at most so many characters are compared; all for a negative
    number. *)
Theorem C67_strncmp E L a0 a1 a2 x0 l0 x1 l1 x2 l2 s0 s1 b t n : library L ->
  members a0 = x0 :: l0 -> members a1 = x1 :: l1 -> members a2 = x2 :: l2 ->
  shown (e_text E) x0 s0 -> shown (e_text E) x1 s1 -> zlen s0 < 2^31 -> zlen s1 < 2^31 ->
  operand b t n x2 -> in_type I32 n ->
  exists r, fn_strcmp E L [a0; a1; a2] = Ok (0, Some [set_u I32 atom_fresh r]) /\
    if n <? 0 then compares s0 s1 r else compares (firstn (Z.to_nat n) s0) (firstn (Z.to_nat n) s1) r.
Proof.
  intros [_ HL] H0 H1 H2 S0 S1 L0 L1 Ho Hn. exists (c_strncmp L s0 s1 (u64 n)). cbn [fn_strcmp].
  rewrite (first_member a0 x0 l0 H0), (first_member a1 x1 l1 H1), (first_member a2 x2 l2 H2). cbn [bind].
  destruct (text_shown E x0 s0 S0) as [T0 C0]. destruct (text_shown E x1 s1 S1) as [T1 C1].
  unfold text_at, int_at. rewrite T0, T1. cbn [bind]. rewrite (operand_int b t n x2 Ho). cbn [bind].
  assert (R := wrap_id I32 n Hn). cbn [wrap signed width] in R.
  assert (R' : s32 n = n) by exact R. rewrite R'. unfold in_type in Hn. cbn in Hn.
  split; [rewrite aalloc_1; cbn [bind]; rewrite aput_1; reflexivity|].
  destruct (n <? 0) eqn:N.
  - apply Z.ltb_lt in N. assert (U : u64 n = n + 2^64).
    { unfold u64. Z.div_mod_to_equations; lia. }
    rewrite U. pose proof (HL s0 s1 (n + 2^64) C0 C1 ltac:(lia)) as K.
    rewrite !firstn_all2 in K by (unfold zlen in *; lia). exact K.
  - apply Z.ltb_ge in N. assert (U : u64 n = n) by (unfold u64; apply Z.mod_small; lia). rewrite U. apply HL; assumption.
Qed.
Print Assumptions C67_strncmp.

(** Finding: an argument without members is a NULL pointer for strcmp. *)
Theorem C67_strcmp_nothing_refuted E L a0 a1 x1 l1 s1 : members a0 = [] -> members a1 = x1 :: l1 -> shown (e_text E) x1 s1 ->
  fn_strcmp E L [a0; a1] = Ub NullDeref.
Proof.
  intros H0 H1 S1. cbn [fn_strcmp]. rewrite (first_none a0 H0), (first_member a1 x1 l1 H1). cbn [bind text_at].
  rewrite (proj1 (text_shown E x1 s1 S1)). reflexivity.
Qed.
Print Assumptions C67_strcmp_nothing_refuted.

Lemma operand_int32 b t v f : operand b t v f -> in_type I32 v -> au_int32 f = Ok v.
Proof. intros Ho Hv. change (au_int32 f) with (get_u I32 f). rewrite (operand_get b t v f I32 Ho). now rewrite (wrap_id I32 v Hv). Qed.

Definition index (a : atom) (n : Z) : Prop := exists b t, operand b t n a /\ in_type I32 n.
Lemma chars_at_ok s idx ns : Forall2 index idx ns ->
  chars_at s idx = Ok (if forallb (fun n => (0 <=? n) && (n <? zlen s)) ns
                       then Some (map (fun n => nth (Z.to_nat n) s 0) ns) else None).
Proof.
  induction 1 as [|x n idx ns (b & t & Ho & Hn) _ IH]; [reflexivity|].
  cbn [chars_at forallb map]. rewrite (operand_int32 b t n x Ho Hn). cbn [bind]. rewrite Z.geb_leb.
  destruct ((0 <=? n) && (n <? zlen s)) eqn:B; [|reflexivity]. cbn [andb].
  apply andb_prop in B. destruct B as [B1 B2]. apply Z.leb_le in B1. apply Z.ltb_lt in B2.
  assert (R : rd s n = Ok (nth (Z.to_nat n) s 0)).
  { unfold rd. rewrite (proj2 (Z.ltb_ge _ _)) by lia. rewrite (nth_error_nth' s 0); [reflexivity|unfold zlen in B2; lia]. }
  rewrite R. cbn [bind]. rewrite IH. cbn [bind]. destruct (forallb _ ns); reflexivity.
Qed.
Definition inside (ns : list Z) (s : list Z) : Prop := forall n, In n ns -> 0 <= n < zlen s.
Lemma inside_iff ns s : forallb (fun n => (0 <=? n) && (n <? zlen s)) ns = true <-> inside ns s.
Proof.
  rewrite forallb_forall. unfold inside. split; intros H n Hn; specialize (H n Hn).
  - apply andb_prop in H. lia.
  - apply andb_true_intro. lia.
Qed.
Lemma strchar_loop_ok E idx ns : Forall2 index idx ns -> forall l ss done, Forall2 (shown (e_text E)) l ss ->
  exists out, strchar_loop E idx l (zlen done) (Some (done ++ repeat atom_fresh (length l))) =
    Ok (forallb (fun s => forallb (fun n => (0 <=? n) && (n <? zlen s)) ns) ss, out) /\
  ((forall s, In s ss -> inside ns s) ->
   out = Some (done ++ map (fun s => set_string atom_fresh 0 (map (fun n => nth (Z.to_nat n) s 0) ns)) ss)).
Proof.
  intros Hi l ss done H. revert done. induction H as [|x s l ss Hx _ IH]; intros done.
  - exists (Some (done ++ [])). split; [reflexivity|]. intros _. reflexivity.
  - cbn [strchar_loop length repeat forallb map]. unfold text_must, text_at. rewrite (proj1 (text_shown E x s Hx)). cbn [bind].
    rewrite (chars_at_ok s idx ns Hi). cbn [bind].
    destruct (forallb (fun n => (0 <=? n) && (n <? zlen s)) ns) eqn:B.
    + rewrite (aput_at done atom_fresh (repeat atom_fresh (length l))). cbn [bind andb].
      set (a := set_string atom_fresh 0 (map (fun n => nth (Z.to_nat n) s 0) ns)).
      destruct (IH (done ++ [a])) as (out & E1 & Ho). exists out. split.
      * replace (zlen done + 1) with (zlen (done ++ [a])) by (rewrite zlen_app; reflexivity).
        replace (done ++ a :: repeat atom_fresh (length l)) with ((done ++ [a]) ++ repeat atom_fresh (length l))
          by (rewrite <- app_assoc; reflexivity). exact E1.
      * intros Hall. rewrite Ho by (intros s' Hs'; apply Hall; now right). now rewrite <- app_assoc.
    + eexists. split; [reflexivity|]. intros Hall. exfalso.
      rewrite (proj2 (inside_iff ns s) (Hall s (or_introl eq_refl))) in B. discriminate.
Qed.

(** The characters at the positions of the first argument, of each string of the
    second.  A position outside one of the strings is an error. *)
Theorem C67_strchar E a0 a1 ns ss : Forall2 index (members a0) ns -> Forall2 (shown (e_text E)) (members a1) ss ->
  ((forall s, In s ss -> inside ns s) ->
   fn_strchar E [a0; a1] =
   Ok (0, Some (map (fun s => set_string atom_fresh 0 (map (fun n => nth (Z.to_nat n) s 0) ns)) ss))) /\
  (~ (forall s, In s ss -> inside ns s) -> exists out, fn_strchar E [a0; a1] = Ok (1, out)).
Proof.
  intros Hi Hs. cbn [fn_strchar]. rewrite aalloc_members. cbn [bind].
  change (items a0) with (members a0). change (items a1) with (members a1).
  destruct (strchar_loop_ok E _ _ Hi _ _ [] Hs) as (out & E1 & Ho).
  match goal with |- context [strchar_loop ?e ?i ?l ?p ?o] =>
    change (strchar_loop e i l p o) with (strchar_loop e i l (zlen (@nil atom)) (Some ([] ++ repeat atom_fresh (length (members a1))))) end.
  rewrite E1. cbn [bind]. split; intros H.
  - assert (B : forallb (fun s => forallb (fun n => (0 <=? n) && (n <? zlen s)) ns) ss = true).
    { apply forallb_forall. intros s Hin. apply inside_iff. now apply H. }
    rewrite B, (Ho H). reflexivity.
  - exists out. assert (B : forallb (fun s => forallb (fun n => (0 <=? n) && (n <? zlen s)) ns) ss = false).
    { apply not_true_iff_false. intros B. apply H. intros s Hin. apply inside_iff. rewrite forallb_forall in B. now apply B. }
    now rewrite B.
Qed.
Print Assumptions C67_strchar.

(** The type tag of each member, as a character. *)
Theorem C67_typetags a more :
  fn_typetags (a :: more) = Ok (0, Some (map (fun x => set_u I8 atom_fresh (a_tt x)) (members a))).
Proof.
  cbn [fn_typetags]. rewrite aalloc_members. cbn [bind]. change (items a) with (members a).
  rewrite (each_ok _ (members a) (map (fun x => set_u I8 atom_fresh (a_tt x)) (members a))) with (done := []); [reflexivity| |reflexivity].
  induction (members a) as [|x l IH]; [apply Forall2_nil|]. cbn [map]. apply Forall2_cons; [reflexivity|exact IH].
Qed.
Print Assumptions C67_typetags.

(** Calls with a wrong number of arguments are errors. *)
Theorem C67_arity E L argv :
  (argv = [] -> fn_strlen E argv = Ok (1, None)) /\
  ((length argv < 2)%nat -> fn_strcmp E L argv = Ok (1, None) /\ fn_join E argv = Ok (1, None)) /\
  (length argv <> 2%nat -> fn_strchar E argv = Ok (1, None) /\ fn_strfind E argv = Ok (1, None) /\ fn_split E argv = Ok (1, None)).
Proof.
  split; [intros ->; reflexivity|]. split.
  - destruct argv as [|a [|b argv]]; cbn [length]; intros H; [easy|easy|lia].
  - destruct argv as [|a [|b [|c argv]]]; cbn [length]; intros H; easy.
Qed.
Print Assumptions C67_arity.

(** A library that behaves: -1, 0 and 1. *)
Definition simple_libc : libc :=
  Libc strcmp_int (fun s1 s2 n => strcmp_int (firstn (Z.to_nat n) s1) (firstn (Z.to_nat n) s2)).
Lemma compares_strcmp s1 s2 : characters s1 -> characters s2 -> compares s1 s2 (strcmp_int s1 s2).
Proof.
  intros H1 H2. pose proof (strcmp_spec s1 s2 H1 H2) as K. unfold compares, strcmp_int.
  assert (I : forall r, -1 <= r <= 1 -> in_type I32 r) by (intros r Hr; unfold in_type; cbn; lia).
  destruct (strcmp s1 s2); (split; [apply I; lia|]).
  - subst s2. split; [split; [lia|intros P; now apply precedes_irrefl in P]|].
    split; [split; [lia|intros P; now apply precedes_irrefl in P]|]. split; auto.
  - split; [split; [auto|lia]|]. split; [split; [lia|intros P; now apply precedes_asym in P]|].
    split; [lia|intros ->; now apply precedes_irrefl in K].
  - split; [split; [lia|intros P; now apply precedes_asym in P]|]. split; [split; [auto|lia]|].
    split; [lia|intros ->; now apply precedes_irrefl in K].
Qed.
Lemma firstn_chars s : forall n, characters s -> characters (firstn n s).
Proof.
  induction s as [|c s IH]; intros [|n] H; try apply Forall_nil. cbn [firstn]. inversion H; subst.
  apply Forall_cons; [assumption|now apply IH].
Qed.
Example simple_library : library simple_libc.
Proof.
  split; intros s1 s2.
  - apply compares_strcmp.
  - intros n H1 H2 _. apply compares_strcmp; now apply firstn_chars.
Qed.
(** A string and a number compared. *)
Example compared (E : env) : exists r,
  fn_strcmp E simple_libc [Some [set_string atom_fresh 0 (str "124")]; Some [set_u I32 atom_fresh 123]; Some [set_u I32 atom_fresh 2]] =
  Ok (0, Some [set_u I32 atom_fresh r]) /\ r = 0.
Proof.
  assert (N : numeral 123 = str "123") by (vm_compute; reflexivity).
  destruct (C67_strncmp E simple_libc (Some [set_string atom_fresh 0 (str "124")]) (Some [set_u I32 atom_fresh 123]) (Some [set_u I32 atom_fresh 2])
    (set_string atom_fresh 0 (str "124")) [] (set_u I32 atom_fresh 123) [] (set_u I32 atom_fresh 2) [] (str "124") (str "123") false I32 2
    simple_library eq_refl eq_refl eq_refl) as (r & H1 & H2).
  - apply shown_string. apply chars_str. reflexivity.
  - rewrite <- N. apply shown_int; [vm_compute; easy|discriminate|discriminate].
  - vm_compute. reflexivity.
  - vm_compute. reflexivity.
  - apply int_operand. vm_compute. easy.
  - vm_compute. easy.
  - exists r. split; [exact H1|]. cbn [Z.ltb Z.compare] in H2. destruct H2 as (_ & _ & _ & H2). apply H2. reflexivity.
Qed.
Example characters_picked E :
  fn_strchar E [Some [set_u I32 atom_fresh 2; set_u I64 atom_fresh 0]; Some [set_string atom_fresh 0 (str "abc"); set_string atom_fresh 0 (str "xyz")]] =
  Ok (0, Some [set_string atom_fresh 0 (str "ca"); set_string atom_fresh 0 (str "zx")]).
Proof.
  apply (C67_strchar E _ _ [2; 0] [str "abc"; str "xyz"]).
  - repeat apply Forall2_cons; [..|apply Forall2_nil].
    + exists false, I32. split; [apply int_operand|]; vm_compute; easy.
    + exists false, I64. split; [apply int_operand|]; vm_compute; easy.
  - repeat apply Forall2_cons; [..|apply Forall2_nil]; apply shown_string; apply chars_str; reflexivity.
  - intros s [<-|[<-|[]]] n [<-|[<-|[]]]; vm_compute; split; easy.
Qed.

(** * C68: strfind *)

Lemma places_sorted (sub ps : list Z) : (forall ps1 p q ps2, ps = ps1 ++ p :: q :: ps2 -> p + zlen sub <= q) ->
  forall p ps', ps = p :: ps' -> forall q, In q ps' -> p + zlen sub <= q.
Proof.
  intros H p ps' ->. revert p H. induction ps' as [|r ps' IH]; intros p H q Hq; [easy|].
  assert (L : p + zlen sub <= r) by exact (H [] p r ps' eq_refl). destruct Hq as [<-|Hq]; [exact L|].
  pose proof (zlen_nonneg sub). enough (r + zlen sub <= q) by lia. apply IH; [|exact Hq].
  intros ps1 p' q' ps2 E. apply (H (p :: ps1) p' q' ps2). cbn [app]. now rewrite E.
Qed.

(** The places where the first argument is found in the second, from left to
    right and without overlap. *)
Theorem C68_strfind E a0 a1 x0 l0 x1 l1 sub s : members a0 = x0 :: l0 -> members a1 = x1 :: l1 ->
  shown (e_text E) x0 sub -> shown (e_text E) x1 s -> sub <> [] ->
  exists ps, disjoint_places sub s ps /\
    fn_strfind E [a0; a1] = Ok (0, Some (map (fun p => set_u I64 atom_fresh p) ps)).
Proof.
  intros H0 H1 S0 S1 Hsub. cbn [fn_strfind].
  rewrite (first_member a0 x0 l0 H0), (first_member a1 x1 l1 H1). cbn [bind]. unfold text_at.
  rewrite (proj1 (text_shown E x0 sub S0)), (proj1 (text_shown E x1 s S1)). cbn [bind].
  assert (L : (zlen sub =? 0) = false).
  { apply Z.eqb_neq. destruct sub as [|c sub]; [easy|]. rewrite zlen_cons. pose proof (zlen_nonneg sub). lia. }
  rewrite L, aalloc_len. cbn [bind].
  destruct (find_loop_ok sub Hsub (S (length s)) [] s [] (repeat atom_fresh (length s))) as (ps & rest & E1 & P1 & P2 & P3).
  - lia.
  - rewrite repeat_length. lia.
  - apply Forall_forall. intros a Ha. now apply repeat_spec in Ha.
  - exists ps. split.
    + split; [|split; [exact P2|]].
      * intros p Hp. exact (proj2 (P1 p Hp)).
      * intros p (x & y & Hs & ->). apply (P3 x y Hs). apply zlen_nonneg.
    + match goal with |- context [find_loop ?f ?u ?v ?p ?i ?o] =>
        change (find_loop f u v p i o) with (find_loop f u ([] ++ s) (zlen (@nil Z)) (zlen (@nil atom)) (Some ([] ++ repeat atom_fresh (length s)))) end.
      rewrite E1. cbn [bind]. f_equal. f_equal.
      change ([] ++ places ps ++ rest) with (places ps ++ rest).
      replace (zlen (@nil atom) + zlen ps) with (zlen (places ps)); [apply resize_cut|].
      unfold zlen, places. rewrite map_length. reflexivity.
Qed.
Print Assumptions C68_strfind.

(** There is only one such list of places. *)
Theorem C68_unique sub s ps ps' : sub <> [] -> disjoint_places sub s ps -> disjoint_places sub s ps' -> ps = ps'.
Proof.
  intros Hsub. assert (L1 : 1 <= zlen sub).
  { destruct sub as [|c sub']; [easy|]. rewrite zlen_cons. pose proof (zlen_nonneg sub'). lia. }
  assert (G : forall ps ps' lo, (forall p, In p ps -> occurs sub s p /\ lo <= p) -> (forall p, In p ps' -> occurs sub s p /\ lo <= p) ->
    (forall ps1 p q ps2, ps = ps1 ++ p :: q :: ps2 -> p + zlen sub <= q) ->
    (forall ps1 p q ps2, ps' = ps1 ++ p :: q :: ps2 -> p + zlen sub <= q) ->
    (forall p, occurs sub s p -> lo <= p -> exists q, In q ps /\ q <= p < q + zlen sub) ->
    (forall p, occurs sub s p -> lo <= p -> exists q, In q ps' /\ q <= p < q + zlen sub) -> ps = ps').
  { clear ps ps'. induction ps as [|p ps IH]; intros ps' lo A A' B B' C C'.
    - destruct ps' as [|p' ps']; [reflexivity|]. destruct (A' p' (or_introl eq_refl)) as [O L].
      destruct (C p' O L) as (q & [] & _).
    - destruct (A p (or_introl eq_refl)) as [O L]. destruct (C' p O L) as (q & Hq & Hl).
      destruct ps' as [|p' ps']; [destruct Hq|].
      pose proof (places_sorted sub _ B p ps eq_refl) as M. pose proof (places_sorted sub _ B' p' ps' eq_refl) as M'.
      destruct (A' p' (or_introl eq_refl)) as [O' L']. destruct (C p' O' L') as (r & Hr & Hl').
      assert (E : p = p').
      { destruct Hr as [<-|Hr]; destruct Hq as [<-|Hq]; try (specialize (M _ Hr)); try (specialize (M' _ Hq)); lia. }
      subst p'. f_equal. apply (IH ps' (p + zlen sub)).
      + intros x Hx. split; [apply A; now right|now apply M].
      + intros x Hx. split; [apply A'; now right|now apply M'].
      + intros q1 x y q2 Ex. apply (B (p :: q1) x y q2). cbn [app]. now rewrite Ex.
      + intros q1 x y q2 Ex. apply (B' (p :: q1) x y q2). cbn [app]. now rewrite Ex.
      + intros x Ox Lx. destruct (C x Ox ltac:(lia)) as (y & [<-|Hy] & Hyl); [lia|now exists y].
      + intros x Ox Lx. destruct (C' x Ox ltac:(lia)) as (y & [<-|Hy] & Hyl); [lia|now exists y]. }
  intros (A & B & C) (A' & B' & C').
  assert (Z0 : forall p, occurs sub s p -> 0 <= p) by (intros p (x & y & _ & ->); apply zlen_nonneg).
  apply (G ps ps' 0); auto.
Qed.
Print Assumptions C68_unique.

(** Looking for the empty string gives nothing at all, and so does an argument
    without members, which is an error. *)
Theorem C68_empty E a0 a1 x0 l0 x1 l1 s : members a0 = x0 :: l0 -> members a1 = x1 :: l1 ->
  shown (e_text E) x0 [] -> shown (e_text E) x1 s -> fn_strfind E [a0; a1] = Ok (0, None).
Proof.
  intros H0 H1 S0 S1. cbn [fn_strfind].
  rewrite (first_member a0 x0 l0 H0), (first_member a1 x1 l1 H1). cbn [bind]. unfold text_at.
  now rewrite (proj1 (text_shown E x0 [] S0)), (proj1 (text_shown E x1 s S1)).
Qed.
Print Assumptions C68_empty.
Theorem C68_nothing E a0 a1 : Forall (fun a => members a = [] \/ exists x l s, members a = x :: l /\ shown (e_text E) x s) [a0; a1] ->
  members a0 = [] \/ members a1 = [] ->
  fn_strfind E [a0; a1] = Ok (1, None) /\ fn_split E [a0; a1] = Ok (1, None).
Proof.
  intros Hf He. inversion Hf as [|? ? F0 Hf1]. inversion Hf1 as [|? ? F1 _]. subst. cbn [fn_strfind fn_split].
  assert (T : forall a, (members a = [] \/ exists x l s, members a = x :: l /\ shown (e_text E) x s) ->
    exists x t, aget a 0 = Ok x /\ text_at E x = Ok t /\ (members a = [] -> t = None)).
  { intros a [Ha|(x & l & s & Ha & Hs)].
    - exists None, None. split; [now apply first_none|]. split; reflexivity.
    - exists (Some x), (Some s). split; [now apply (first_member a x l)|]. split; [|now rewrite Ha].
      cbn [text_at]. now rewrite (proj1 (text_shown E x s Hs)). }
  destruct (T a0 F0) as (y0 & t0 & -> & E0 & N0). destruct (T a1 F1) as (y1 & t1 & -> & E1 & N1).
  cbn [bind]. rewrite E1. cbn [bind]. rewrite E0. cbn [bind].
  destruct He as [He|He]; [rewrite (N0 He)|rewrite (N1 He)]; [split; reflexivity|]. destruct t0; split; reflexivity.
Qed.
Print Assumptions C68_nothing.

(** The second occurrence overlaps the first. *)
Example found E : fn_strfind E [Some [set_string atom_fresh 0 (str "aa")]; Some [set_string atom_fresh 0 (str "baaab/aa")]] =
  Ok (0, Some [set_u I64 atom_fresh 1; set_u I64 atom_fresh 6]).
Proof.
  destruct (C68_strfind E (Some [set_string atom_fresh 0 (str "aa")]) (Some [set_string atom_fresh 0 (str "baaab/aa")])
    (set_string atom_fresh 0 (str "aa")) [] (set_string atom_fresh 0 (str "baaab/aa")) [] (str "aa") (str "baaab/aa") eq_refl eq_refl)
    as (ps & Hp & R).
  - apply shown_string. apply chars_str. reflexivity.
  - apply shown_string. apply chars_str. reflexivity.
  - discriminate.
  - refine (eq_trans R _). clear R. assert (D : disjoint_places (str "aa") (str "baaab/aa") [1; 6]).
    { split; [|split].
      - intros p [<-|[<-|[]]]; [exists (str "b"), (str "ab/aa")|exists (str "baaab/"), []]; split; reflexivity.
      - intros ps1 p q ps2 H. destruct ps1 as [|u [|v ps1]]; [|discriminate|destruct ps1; discriminate].
        injection H as <- <- _. vm_compute. discriminate.
      - intros p (x & y & H & ->).
        assert (P : starts_with (str "aa") (skipn (length x) (str "baaab/aa")) = true).
        { apply starts_iff. exists y. rewrite H, skipn_app, skipn_all, Nat.sub_diag. reflexivity. }
        assert (L : (length x <= 6)%nat).
        { apply (f_equal (@length Z)) in H. rewrite !app_length in H. change (length (str "baaab/aa")) with 8%nat in H.
          change (length (str "aa")) with 2%nat in H. lia. }
        unfold zlen. clear H. revert P L. generalize (length x). intros n P L.
        do 7 (destruct n as [|n]; [first [discriminate P|exists 1; split; [now left|vm_compute; easy]|
          exists 6; split; [right; now left|vm_compute; easy]]|]). lia. }
    assert (N : str "aa" <> []) by discriminate. now rewrite (C68_unique _ _ _ _ N Hp D).
Qed.

(** * C69: split *)

(** The second argument, cut at the characters of the first. *)
Theorem C69_split E a0 a1 x0 l0 x1 l1 sep s : members a0 = x0 :: l0 -> members a1 = x1 :: l1 ->
  shown (e_text E) x0 sep -> shown (e_text E) x1 s -> sep <> [] ->
  exists ts, pieces sep s ts /\ fn_split E [a0; a1] = Ok (0, Some (map (fun t => set_string atom_fresh 0 t) ts)).
Proof.
  intros H0 H1 S0 S1 Hsub. cbn [fn_split].
  rewrite (first_member a0 x0 l0 H0), (first_member a1 x1 l1 H1). cbn [bind]. unfold text_at.
  rewrite (proj1 (text_shown E x0 sep S0)), (proj1 (text_shown E x1 s S1)). cbn [bind].
  assert (L : (zlen sep =? 0) = false).
  { apply Z.eqb_neq. destruct sep as [|c sep]; [easy|]. rewrite zlen_cons. pose proof (zlen_nonneg sep). lia. }
  rewrite L. change (aalloc 16) with (Ok (Some (repeat atom_fresh 16))). cbn [bind].
  destruct (split_loop_ok sep (S (length s)) s 16 [] (repeat atom_fresh 16)) as (ts & rest & E1 & P).
  - lia.
  - vm_compute. discriminate.
  - reflexivity.
  - apply Forall_forall. intros a Ha. now apply repeat_spec in Ha.
  - exists ts. split; [exact P|].
    match goal with |- context [split_loop ?f ?u ?v ?n ?i ?o] =>
        change (split_loop f u v n i o) with (split_loop f u v n (zlen (@nil atom)) (Some ([] ++ repeat atom_fresh 16))) end.
    rewrite E1. cbn [bind]. f_equal. f_equal.
    change ([] ++ strings ts ++ rest) with (strings ts ++ rest).
    replace (zlen (@nil atom) + zlen ts) with (zlen (strings ts)); [apply resize_cut|].
    unfold zlen, strings. rewrite map_length. reflexivity.
Qed.
Print Assumptions C69_split.

Lemma seps_then {sep g t g' t'} : separators sep g -> piece sep t -> separators sep g' -> piece sep t' ->
  forall r r', g ++ t ++ r = g' ++ t' ++ r' -> g = g' /\ t ++ r = t' ++ r'.
Proof.
  intros Hg [Ht1 Ht2] Hg' [Ht1' Ht2'] r r'. revert g' Hg'. induction Hg as [|c g Hc Hg IH]; intros g' Hg' E.
  - destruct g' as [|c' g']; [now split|]. destruct t as [|d t]; [easy|]. cbn [app] in E. injection E as -> _.
    inversion Ht2; subst. inversion Hg'; subst. contradiction.
  - destruct g' as [|c' g'].
    + destruct t' as [|d t']; [easy|]. cbn [app] in E. injection E as -> _. inversion Ht2'; subst. contradiction.
    + cbn [app] in E. injection E as -> E. inversion Hg'; subst. destruct (IH g' ltac:(assumption) E) as [-> K]. now split.
Qed.
Lemma token_end {sep t t' r r'} : piece sep t -> piece sep t' ->
  (r = [] \/ exists c s, r = c :: s /\ In c sep) -> (r' = [] \/ exists c s, r' = c :: s /\ In c sep) ->
  t ++ r = t' ++ r' -> t = t' /\ r = r'.
Proof.
  intros [_ Ht] [_ Ht'] Hr Hr'. revert t' Ht'. induction Ht as [|c t Hc Ht IH]; intros t' Ht' E.
  - destruct t' as [|c' t']; [now split|]. cbn [app] in E. inversion Ht'; subst.
    destruct Hr as [Hr|(d & s & Hr & Hd)]; [discriminate|]. injection Hr as -> _. contradiction.
  - destruct t' as [|c' t'].
    + cbn [app] in E. subst r'. destruct Hr' as [Hr'|(d & s & Hr' & Hd)]; [discriminate|]. injection Hr' as -> _. contradiction.
    + cbn [app] in E. injection E as -> E. inversion Ht'; subst. destruct (IH t' ltac:(assumption) E) as [-> ->]. now split.
Qed.
Lemma no_piece {sep t g r} : piece sep t -> separators sep (g ++ t ++ r) -> False.
Proof.
  intros [Ht1 Ht2] H. apply Forall_app in H. destruct H as [_ H]. apply Forall_app in H. destruct H as [H _].
  destruct t as [|c t]; [easy|]. inversion Ht2; subst. inversion H; subst. contradiction.
Qed.
(** The pieces are determined. *)
Theorem C69_unique sep s ts ts' : pieces sep s ts -> pieces sep s ts' -> ts = ts'.
Proof.
  intros H. revert ts'. induction H as [g Hg|g t Hg Ht|g t c s ts Hg Ht Hc Hs IH]; intros ts' H'.
  - remember g as s0. destruct H' as [g' Hg'|g' t' Hg' Ht'|g' t' c' s' ts' Hg' Ht' Hc' Hs']; [reflexivity|exfalso; subst..].
    + apply (@no_piece sep t' g' [] Ht'). now rewrite app_nil_r.
    + exact (no_piece Ht' Hg).
  - remember (g ++ t) as s0 eqn:E. destruct H' as [g' Hg'|g' t' Hg' Ht'|g' t' c' s' ts' Hg' Ht' Hc' Hs'].
    + exfalso. subst. apply (@no_piece sep t g [] Ht). now rewrite app_nil_r.
    + destruct (seps_then Hg' Ht' Hg Ht [] [] ltac:(rewrite !app_nil_r; exact E)) as [_ K].
      rewrite !app_nil_r in K. now subst.
    + exfalso. destruct (seps_then Hg' Ht' Hg Ht (c' :: s') [] ltac:(rewrite app_nil_r; exact E)) as [_ K].
      destruct (token_end Ht' Ht (or_intror (ex_intro _ c' (ex_intro _ s' (conj eq_refl Hc')))) (or_introl eq_refl) K) as [_ K']. discriminate.
  - remember (g ++ t ++ c :: s) as s0 eqn:E. destruct H' as [g' Hg'|g' t' Hg' Ht'|g' t' c' s' ts' Hg' Ht' Hc' Hs'].
    + exfalso. subst. exact (no_piece Ht Hg').
    + exfalso. destruct (seps_then Hg' Ht' Hg Ht [] (c :: s) ltac:(rewrite app_nil_r; exact E)) as [_ K].
      destruct (token_end Ht' Ht (or_introl eq_refl) (or_intror (ex_intro _ c (ex_intro _ s (conj eq_refl Hc)))) K) as [_ K']. discriminate.
    + destruct (seps_then Hg' Ht' Hg Ht (c' :: s') (c :: s) E) as [_ K].
      destruct (token_end Ht' Ht (or_intror (ex_intro _ c' (ex_intro _ s' (conj eq_refl Hc'))))
        (or_intror (ex_intro _ c (ex_intro _ s (conj eq_refl Hc)))) K) as [-> K']. injection K' as -> ->.
      f_equal. now apply IH.
Qed.
Print Assumptions C69_unique.

(** With an empty separator: the characters. *)
Theorem C69_characters E a0 a1 x0 l0 x1 l1 s : members a0 = x0 :: l0 -> members a1 = x1 :: l1 ->
  shown (e_text E) x0 [] -> shown (e_text E) x1 s ->
  fn_split E [a0; a1] = Ok (0, Some (map (fun c => set_u I8 atom_fresh (if c <? 128 then c else c - 256)) s)).
Proof.
  intros H0 H1 S0 S1. cbn [fn_split].
  rewrite (first_member a0 x0 l0 H0), (first_member a1 x1 l1 H1). cbn [bind]. unfold text_at.
  destruct (text_shown E x1 s S1) as [T1 C1].
  rewrite (proj1 (text_shown E x0 [] S0)), T1. cbn [bind]. change (zlen [] =? 0) with true. cbv iota.
  rewrite aalloc_len. cbn [bind].
  pose proof (put_chars_ok s []) as K. cbn [app] in K. change (zlen (@nil atom)) with 0 in K. rewrite K. cbn [bind].
  do 3 f_equal. apply map_ext_in. intros c Hc. pose proof (proj1 (Forall_forall _ _) C1 c Hc) as R. cbv beta in R.
  cbn [set_u]. f_equal. unfold s8. destruct (c <? 128) eqn:B; Z.div_mod_to_equations; lia.
Qed.
Print Assumptions C69_characters.

Example pieces_of : pieces (str ", ") (str "  ab, c,") [str "ab"; str "c"].
Proof.
  apply (pieces_more (str ", ") (str "  ") (str "ab") 44 (str " c,")).
  - repeat apply Forall_cons; try apply Forall_nil; cbn; auto.
  - split; [discriminate|]. repeat apply Forall_cons; try apply Forall_nil; cbn; intros [H|[H|[]]]; discriminate.
  - now left.
  - apply (pieces_more (str ", ") (str ", ") (str "c") 44 []).
    + repeat apply Forall_cons; try apply Forall_nil; cbn; auto.
    + split; [discriminate|]. repeat apply Forall_cons; try apply Forall_nil; cbn; intros [H|[H|[]]]; discriminate.
    + now left.
    + apply pieces_none. repeat apply Forall_cons; try apply Forall_nil; cbn; auto.
Qed.
(** More than 16 pieces. *)
Example many_pieces E : exists ts, length ts = 20%nat /\
  fn_split E [Some [set_string atom_fresh 0 [44]]; Some [set_string atom_fresh 0 (concat (repeat [97; 44] 20))]] = Ok (0, Some (strings ts)).
Proof.
  destruct (C69_split E (Some [set_string atom_fresh 0 [44]]) (Some [set_string atom_fresh 0 (concat (repeat [97; 44] 20))])
    (set_string atom_fresh 0 [44]) [] (set_string atom_fresh 0 (concat (repeat [97; 44] 20))) [] [44] (concat (repeat [97; 44] 20))
    eq_refl eq_refl) as (ts & P & R).
  - apply shown_string. apply chars_str. reflexivity.
  - apply shown_string. apply chars_str. reflexivity.
  - discriminate.
  - exists ts. split; [|exact R].
    assert (G : forall n, pieces [44] (44 :: concat (repeat [97; 44] n)) (repeat [97] n)).
    { induction n as [|n IH]; [apply pieces_none; apply Forall_cons; [now left|apply Forall_nil]|].
      apply (pieces_more [44] [44] [97] 44 (concat (repeat [97; 44] n)) (repeat [97] n)).
      - apply Forall_cons; [now left|apply Forall_nil].
      - split; [discriminate|]. apply Forall_cons; [intros [H|[]]; discriminate|apply Forall_nil].
      - now left.
      - exact IH. }
    pose proof (sep_left [44] 44 _ _ (or_introl eq_refl) P) as P'.
    rewrite (C69_unique _ _ _ _ P' (G 20%nat)). apply repeat_length.
Qed.

(** * C70: join *)

(** The texts of all members of the other arguments, the first argument
    between them. *)
Theorem C70_join E a0 x0 l0 sep more ts : members a0 = x0 :: l0 -> shown (e_text E) x0 sep ->
  Forall2 (joins (e_text E)) (concat (map members more)) ts -> ts <> [] ->
  fold_right (fun t n => zlen t + zlen sep + n) 0 ts < 2^31 - 1 ->
  fn_join E (a0 :: more) = Ok (0, Some [set_string atom_fresh 0 (joined sep ts)]).
Proof.
  intros H0 S0 Hts Hne Hl. change (room sep ts < 2^31 - 1) in Hl.
  destruct more as [|a1 more]; [cbn in Hts; inversion Hts; subst; easy|].
  cbn [fn_join]. change (concat (map items (a1 :: more))) with (concat (map members (a1 :: more))).
  rewrite (first_member a0 x0 l0 H0). cbn [bind]. unfold text_at.
  destruct (text_shown E x0 sep S0) as [T0 C0]. rewrite T0. cbn [bind].
  destruct (join_texts_ok E _ _ Hts) as [J1 J2]. rewrite J1. cbn [bind].
  pose proof (room_nonneg sep ts) as Hr. rewrite join_len_ok by lia. rewrite Z.add_0_l. unfold incr.
  rewrite (proj2 (Z.eqb_neq _ _)) by lia. cbn [bind]. rewrite (proj2 (Z.ltb_ge _ _)) by lia.
  set (buf := firstn _ _). assert (Hb : zlen buf = room sep ts + 1).
  { subst buf. unfold zlen. rewrite firstn_length_le; [lia|]. rewrite app_length, repeat_length. lia. }
  destruct (join_print_ok sep ts Hne [] buf) as (rest & P); [pose proof (joined_room sep ts); lia|].
  cbn [app] in P. change (zlen (@nil Z)) with 0 in P.
  destruct ts as [|t ts]; [easy|]. rewrite P. cbn [bind].
  rewrite rdstr_text by (apply nonul_chars; now apply joined_chars). cbn [bind].
  rewrite aalloc_1. cbn [bind]. rewrite aput_1. reflexivity.
Qed.
Print Assumptions C70_join.

Lemma pieces_joined c ts : ts <> [] -> Forall (piece [c]) ts -> pieces [c] (joined [c] ts) ts.
Proof.
  intros Hne H. induction H as [|t ts Ht Hts IH]; [easy|]. destruct ts as [|t' ts].
  - apply (pieces_last [c] [] t); [apply Forall_nil|exact Ht].
  - change (joined [c] (t :: t' :: ts)) with ([] ++ t ++ c :: joined [c] (t' :: ts)).
    apply pieces_more; [apply Forall_nil|exact Ht|now left|]. apply sep_left; [now left|]. apply IH. discriminate.
Qed.
(** Splitting what was joined, at a separator of one character that is in none
    of the strings, gives the strings back. *)
Theorem C70_split_join E a0 w0 l0 c more ts j : members a0 = Atom 115 w0 (PStr [c]) :: l0 -> 0 < c < 256 ->
  Forall2 (joins (e_text E)) (concat (map members more)) ts -> ts <> [] ->
  Forall (fun t => t <> [] /\ ~ In c t) ts ->
  fold_right (fun t n => zlen t + 1 + n) 0 ts < 2^31 - 1 ->
  fn_join E (a0 :: more) = Ok (0, Some [j]) ->
  fn_split E [a0; Some [j]] = Ok (0, Some (map (fun t => set_string atom_fresh 0 t) ts)).
Proof.
  intros H0 Hc Hts Hne Hin Hl J.
  assert (S0 : shown (e_text E) (Atom 115 w0 (PStr [c])) [c]) by (apply shown_string; apply Forall_cons; [exact Hc|apply Forall_nil]).
  rewrite (C70_join E a0 _ l0 [c] more ts H0 S0 Hts Hne Hl) in J. injection J as <-.
  destruct (join_texts_ok E _ _ Hts) as [_ Hch].
  assert (Cj : characters (joined [c] ts)) by (apply joined_chars; [apply Forall_cons; [exact Hc|apply Forall_nil]|exact Hch]).
  destruct (C69_split E a0 (Some [set_string atom_fresh 0 (joined [c] ts)]) _ l0 (set_string atom_fresh 0 (joined [c] ts)) [] [c] (joined [c] ts)
    H0 eq_refl S0 (shown_string _ _ _ Cj) ltac:(discriminate)) as (ts' & P & R).
  refine (eq_trans R _). do 4 f_equal. apply (C69_unique [c] (joined [c] ts)); [exact P|]. apply pieces_joined; [exact Hne|].
  apply Forall_forall. intros t Ht. pose proof (proj1 (Forall_forall _ _) Hin t Ht) as [N1 N2]. split; [exact N1|].
  apply Forall_forall. intros d Hd [->|[]]. contradiction.
Qed.
Print Assumptions C70_split_join.

(** Findings: without a member in the first argument a string literal is
    released, without members in the others the result is not initialised, and a
    uint8 below 10 is lost. *)
Theorem C70_no_separator_refuted E a0 more ts : members a0 = [] ->
  Forall2 (joins (e_text E)) (concat (map members more)) ts -> ts <> [] ->
  fold_right (fun t n => zlen t + n) 0 ts < 2^31 - 1 ->
  fn_join E (a0 :: more) = Ub Dangling.
Proof.
  intros H0 Hts Hne Hl0.
  assert (Hl : room [] ts < 2^31 - 1).
  { assert (G : forall ts, room [] ts = fold_right (fun t n => zlen t + n) 0 ts).
    { intros us. induction us as [|u us IH]; cbn [room fold_right]; [reflexivity|]. fold (room [] us). rewrite IH.
      change (zlen (@nil Z)) with 0. lia. }
    now rewrite G. }
  destruct more as [|a1 more]; [cbn in Hts; inversion Hts; subst; easy|].
  cbn [fn_join]. change (concat (map items (a1 :: more))) with (concat (map members (a1 :: more))).
  rewrite (first_none a0 H0). cbn [bind text_at].
  destruct (join_texts_ok E _ _ Hts) as [J1 J2]. rewrite J1. cbn [bind].
  pose proof (room_nonneg [] ts) as Hr. rewrite join_len_ok by lia. rewrite Z.add_0_l. unfold incr.
  rewrite (proj2 (Z.eqb_neq _ _)) by lia. cbn [bind]. rewrite (proj2 (Z.ltb_ge _ _)) by lia.
  set (buf := firstn _ _). assert (Hb : zlen buf = room [] ts + 1).
  { subst buf. unfold zlen. rewrite firstn_length_le; [lia|]. rewrite app_length, repeat_length. lia. }
  destruct (join_print_ok [] ts Hne [] buf) as (rest & P); [pose proof (joined_room [] ts); lia|].
  cbn [app] in P. change (zlen (@nil Z)) with 0 in P.
  destruct ts as [|t ts]; [easy|]. rewrite P. cbn [bind].
  rewrite rdstr_text by (apply nonul_chars; apply joined_chars; [apply Forall_nil|exact J2]). cbn [bind].
  rewrite aalloc_1. cbn [bind]. rewrite aput_1. reflexivity.
Qed.
Print Assumptions C70_no_separator_refuted.
Theorem C70_no_strings_refuted E a0 x0 l0 sep a1 more : members a0 = x0 :: l0 -> shown (e_text E) x0 sep ->
  concat (map members (a1 :: more)) = [] -> fn_join E (a0 :: a1 :: more) = Ub Uninit.
Proof.
  intros H0 S0 He. cbn [fn_join]. change (concat (map items (a1 :: more))) with (concat (map members (a1 :: more))).
  rewrite He, (first_member a0 x0 l0 H0). cbn [bind]. unfold text_at. rewrite (proj1 (text_shown E x0 sep S0)). reflexivity.
Qed.
Print Assumptions C70_no_strings_refuted.
Theorem C70_uint8_refuted E a v : 0 <= v < 10 -> join_text E (set_u U8 a v) = Ok [].
Proof.
  intros Hv. unfold join_text. rewrite string_int, string_len_int by (unfold in_type; cbn; lia). cbn [bind].
  assert (L : zlen (numeral v) = 1).
  { unfold numeral. rewrite (proj2 (Z.ltb_ge _ _)) by lia. unfold digit_string.
    replace (Z.to_nat (1 + Z.log2 v)) with (S (Z.to_nat (Z.log2 v))) by (pose proof (Z.log2_nonneg v); lia).
    cbn [decimal]. rewrite (proj2 (Z.ltb_lt v 10)) by lia. reflexivity. }
  rewrite L. destruct (out_new (e_junk E) 1 ltac:(lia)) as (b & -> & Hb).
  rewrite snprintf_front by lia. cbn [bind text]. change (Z.to_nat (1 + 1 - 1)) with 1%nat. cbn [firstn app].
  rewrite skipn_all2 by (unfold zlen in Hb; cbn [length]; lia). rewrite tag_set. reflexivity.
Qed.
Print Assumptions C70_uint8_refuted.

Example joined_example E :
  fn_join E [Some [set_string atom_fresh 0 (str ", ")]; Some [set_string atom_fresh 0 (str "ab"); set_u I32 atom_fresh (-12)];
             Some [set_u I8 atom_fresh 99; set_true atom_fresh]] =
  Ok (0, Some [set_string atom_fresh 0 (str "ab, -12, c, true")]).
Proof.
  assert (N : numeral (-12) = str "-12") by (vm_compute; reflexivity).
  refine (eq_trans (C70_join E _ (set_string atom_fresh 0 (str ", ")) [] (str ", ") _ [str "ab"; numeral (-12); [99]; str "true"] _ _ _ _ _) _);
    [reflexivity|..].
  - apply shown_string. apply chars_str. reflexivity.
  - repeat apply Forall2_cons; [..|apply Forall2_nil].
    + apply joins_shown; [discriminate|discriminate|]. apply shown_string. apply chars_str. reflexivity.
    + apply joins_shown; [rewrite tag_set; discriminate|rewrite tag_set; discriminate|].
      apply shown_int; [vm_compute; easy|discriminate|discriminate].
    + apply (joins_char _ atom_fresh 99); [vm_compute; easy|discriminate].
    + apply joins_shown; [discriminate|discriminate|]. apply shown_true.
  - discriminate.
  - rewrite N. vm_compute. reflexivity.
  - rewrite N. reflexivity.
Qed.
