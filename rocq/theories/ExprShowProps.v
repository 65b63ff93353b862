(** C93: listing a program. *)

From Coq Require Import String ZArith List Bool Lia.
From Verif Require Import Base BaseProofs Text WireSpec SerialModel SerialSpec FormatModel FormatSpec FormatProofs FormatProps
  ExprParseModel RunProofs ExprShowModel ExprShowSpec.
Import ListNotations.
Open Scope Z_scope.

(** * Writing on *)
Lemma write_on b0 pos t u : 0 <= pos ->
  (do b <- write b0 pos (t ++ [0]); write b (pos + zlen t) (u ++ [0])) = write b0 pos (t ++ u ++ [0]).
Proof.
  intros Hp. unfold write at 1 3. pose proof (zlen_nonneg u). rewrite !zlen_app. change (zlen [0]) with 1.
  destruct (Z.ltb_spec pos 0) as [|_]; [lia|]. cbn [orb].
  destruct (Z.ltb_spec (zlen b0) (pos + (zlen t + 1))) as [L|L]; cbn [bind].
  - destruct (Z.ltb_spec (zlen b0) (pos + (zlen t + (zlen u + 1)))); [reflexivity|lia].
  - set (pre := firstn (Z.to_nat pos) b0). set (post := skipn (Z.to_nat pos + length (t ++ [0])) b0).
    assert (Hpre : zlen pre = pos) by (unfold pre, zlen in *; rewrite firstn_length; lia).
    assert (Hpost : zlen post = zlen b0 - pos - zlen t - 1) by (unfold post, zlen in *; rewrite skipn_length, app_length; cbn [length]; lia).
    assert (Hb : zlen (pre ++ (t ++ [0]) ++ post) = zlen b0) by (rewrite !zlen_app; change (zlen [0]) with 1; lia).
    unfold write. rewrite Hb, zlen_app. change (zlen [0]) with 1. pose proof (zlen_nonneg t).
    destruct (Z.ltb_spec (pos + zlen t) 0) as [|_]; [lia|]. cbn [orb].
    destruct (Z.ltb_spec (zlen b0) (pos + zlen t + (zlen u + 1))) as [L2|L2]; destruct (Z.ltb_spec (zlen b0) (pos + (zlen t + (zlen u + 1)))) as [L3|L3]; try lia; [reflexivity|].
    f_equal.
    replace (Z.to_nat (pos + zlen t)) with (length (pre ++ t)) by (rewrite app_length; unfold zlen in *; lia).
    rewrite <- !app_assoc. rewrite (app_assoc pre t). rewrite firstn_app, firstn_all, Nat.sub_diag. cbn [firstn]. rewrite app_nil_r, <- app_assoc.
    f_equal. f_equal. f_equal. f_equal.
    rewrite skipn_app, skipn_all2 by lia. cbn [app].
    replace (length (pre ++ t) + length (u ++ [0%Z]) - length (pre ++ t))%nat with (S (length u)) by (rewrite !app_length; cbn [length]; lia).
    cbn [app skipn]. unfold post. rewrite !app_length. cbn [length].
    assert (SK : forall (l : bytes) a c, skipn a (skipn c l) = skipn (c + a) l).
    { intros l a c. revert l. induction c as [|c IH]; intros l; [reflexivity|]. destruct l; [now rewrite !skipn_nil|]. cbn [skipn Nat.add]. apply IH. }
    rewrite SK. f_equal. lia.
Qed.
(** The buffer after the text [t] has been printed at [pos]. *)
Definition after (b0 : bytes) (pos : Z) (t : list Z) : res out := do b <- write b0 pos (t ++ [0]); Ok (b, pos + zlen t).
(** [f] prints [u] after whatever was printed. *)
Definition prints_on (f : out -> res out) (u : list Z) : Prop :=
  forall b0 pos t, 0 <= pos -> (do s <- after b0 pos t; f s) = after b0 pos (t ++ u).
Lemma sprint_on u : prints_on (sprint u) u.
Proof.
  intros b0 pos t Hp. unfold after, sprint. rewrite <- app_assoc, <- (write_on b0 pos t u Hp).
  destruct (write b0 pos (t ++ [0])) as [b|x|]; [|reflexivity..]. cbn [bind fst snd]. rewrite zlen_app, Z.add_assoc. reflexivity.
Qed.
Lemma bind_assoc {A B C} (m : res A) (f : A -> res B) (g : B -> res C) : (do y <- (do x <- m; f x); g y) = (do x <- m; do y <- f x; g y).
Proof. destruct m; reflexivity. Qed.
Lemma both_on f g u v : prints_on f u -> prints_on g v -> prints_on (fun s => do s <- f s; g s) (u ++ v).
Proof. intros F G b0 pos t Hp. rewrite <- bind_assoc, (F b0 pos t Hp), (G b0 pos (t ++ u) Hp), app_assoc. reflexivity. Qed.
Lemma none_on : prints_on (fun s => Ok s) [].
Proof. intros b0 pos t _. rewrite app_nil_r. destruct (after b0 pos t); reflexivity. Qed.
Lemma turn_on {A} (f : A -> out -> res out) (text : A -> list Z) l : Forall (fun x => prints_on (f x) (text x)) l ->
  prints_on (in_turn f l) (concat (map text l)).
Proof.
  induction 1 as [|x l Hx _ IH]; [exact none_on|]. cbn [map concat]. exact (both_on _ _ _ _ Hx IH).
Qed.
Lemma params_on l : prints_on (print_params l) (show_params l).
Proof.
  induction l as [|x l IH]; [exact none_on|]. destruct l as [|y l]; [exact (sprint_on (x ++ str ") "))|].
  pose proof (both_on _ _ _ _ (sprint_on (x ++ str ", ")) IH) as K. unfold show_params in *. cbn [join] in *. rewrite <- !app_assoc in *. exact K.
Qed.
Lemma write_over b0 pos x y : 0 <= pos -> zlen x <= zlen y -> (do b <- write b0 pos x; write b pos y) = write b0 pos y.
Proof.
  intros Hp Hxy. unfold write at 1 3. destruct (Z.ltb_spec pos 0) as [|_]; [lia|]. cbn [orb].
  destruct (Z.ltb_spec (zlen b0) (pos + zlen x)) as [L|L]; cbn [bind].
  - destruct (Z.ltb_spec (zlen b0) (pos + zlen y)); [reflexivity|lia].
  - set (pre := firstn (Z.to_nat pos) b0).
    assert (Hpre : length pre = Z.to_nat pos) by (unfold pre; rewrite firstn_length; pose proof (zlen_nonneg x); unfold zlen in *; lia).
    unfold write. assert (Hb : zlen (pre ++ x ++ skipn (Z.to_nat pos + length x) b0) = zlen b0).
    { unfold zlen in *. rewrite !app_length, Hpre, skipn_length. lia. }
    rewrite Hb. destruct (Z.ltb_spec pos 0) as [|_]; [lia|]. cbn [orb]. destruct (Z.ltb_spec (zlen b0) (pos + zlen y)); [reflexivity|].
    rewrite <- Hpre. f_equal. rewrite firstn_app, firstn_all, Nat.sub_diag. cbn [firstn]. rewrite app_nil_r. f_equal. f_equal.
    rewrite skipn_app, skipn_all2 by lia. cbn [app]. replace (length pre + length y - length pre)%nat with (length y) by lia.
    rewrite skipn_app, skipn_all2 by (unfold zlen in *; lia). cbn [app].
    assert (SK : forall (l : bytes) a c, skipn a (skipn c l) = skipn (c + a) l).
    { intros l a c. revert l. induction c as [|c IH]; intros l; [reflexivity|]. destruct l; [now rewrite !skipn_nil|]. cbn [skipn Nat.add]. apply IH. }
    rewrite SK. f_equal. unfold zlen in *. lia.
Qed.
(** The last blank is taken back. *)
Lemma back_on f u v : 1 <= zlen v -> prints_on f (u ++ [32]) -> prints_on (fun s => do s <- f s; sprint v (fst s, snd s - 1)) (u ++ v).
Proof.
  intros Hv F b0 pos t Hp. rewrite <- bind_assoc, (F b0 pos t Hp). unfold after, sprint.
  rewrite (app_assoc t u [32]). set (w := t ++ u). rewrite (app_assoc t u v). fold w.
  rewrite <- (app_assoc w [32] [0]), <- (app_assoc w v [0]).
  rewrite <- (write_on b0 pos w [32] Hp), <- (write_on b0 pos w v Hp). rewrite !bind_assoc.
  destruct (write b0 pos (w ++ [0])) as [b| |] eqn:E; [|reflexivity..]. cbn [bind].
  assert (Hw : 0 <= pos + zlen w) by (pose proof (zlen_nonneg w); lia).
  rewrite <- (write_over b (pos + zlen w) ([32] ++ [0]) (v ++ [0]) Hw) by (rewrite !zlen_app; change (zlen [32]) with 1; lia).
  destruct (write b (pos + zlen w) ([32] ++ [0])) as [b1| |]; [|reflexivity..]. cbn [bind fst snd].
  rewrite !zlen_app. change (zlen [32]) with 1. replace (pos + (zlen w + 1) - 1) with (pos + zlen w) by lia.
  destruct (write b1 (pos + zlen w) (v ++ [0])); [|reflexivity..]. cbn [bind]. now rewrite Z.add_assoc.
Qed.

(** * Expressions *)
Section Print.
Context (rt : Z -> Z -> list Z) (junk : bytes) (fresh : Z -> bytes) (Hf : forall n, 0 <= n -> zlen (fresh n) = n).

Lemma cstr_text t : nonul t -> cstr (t ++ [0]) = Some t.
Proof.
  induction 1 as [|c t Hc _ IH]; [reflexivity|]. cbn [app cstr]. destruct (Z.eqb_spec c 0); [contradiction|]. now rewrite IH.
Qed.
Lemma atom_text_ok a : printable rt a -> atom_text rt junk a = Ok (show_value rt 0 (raw_value a)).
Proof.
  intros (H1 & H2 & H3 & H4 & H5 & H6 & H7). unfold atom_text.
  destruct (C55_atom rt junk a H1 H2 H3 H4 H5 H6) as (_ & _ & E). rewrite E. cbn [bind]. unfold rdstr.
  pose proof (zlen_nonneg (show_value rt 0 (raw_value a) ++ [0])). destruct (Z.ltb_spec (zlen (show_value rt 0 (raw_value a) ++ [0])) 0); [lia|]. cbn [Z.ltb Z.compare orb Z.to_nat skipn].
  now rewrite cstr_text.
Qed.
Lemma on_ext f g u : (forall s, f s = g s) -> prints_on g u -> prints_on f u.
Proof. intros E G b0 pos t Hp. rewrite <- (G b0 pos t Hp). destruct (after b0 pos t) as [s| |]; [apply E|reflexivity..]. Qed.
Lemma words_spaced n l : join (str " ") (n :: l) ++ str " " = n ++ str " " ++ concat (map (fun w => w ++ str " ") l).
Proof.
  revert n. induction l as [|x l IH]; intros n; [cbn [join map concat]; now rewrite app_nil_r|].
  change (join (str " ") (n :: x :: l)) with (n ++ str " " ++ join (str " ") (x :: l)). rewrite <- !app_assoc, IH. cbn [map concat]. now rewrite <- !app_assoc.
Qed.
Definition spaced (l : list (list Z)) : list Z := concat (map (fun w => w ++ str " ") l).
Lemma spaced_concat l : concat (map spaced l) = spaced (concat l).
Proof. unfold spaced. induction l as [|x l IH]; [reflexivity|]. cbn [map concat]. now rewrite IH, map_app, concat_app. Qed.
Lemma each_all {A} (P : A -> Prop) l : fold_right (fun x Q => P x /\ Q) True l -> Forall P l.
Proof. induction l as [|x l IH]; [constructor|]. intros [H1 H2]. constructor; auto. Qed.

Lemma print_on : (forall a, printable_arg rt a -> prints_on (print_arg rt junk a) (spaced (show_arg rt a))) /\
  (forall e, printable_expr rt e -> prints_on (print_expr rt junk e) (show_expr rt e ++ str " ")).
Proof.
  set (P := fun a => printable_arg rt a -> prints_on (print_arg rt junk a) (spaced (show_arg rt a))).
  set (Q := fun e => printable_expr rt e -> prints_on (print_expr rt junk e) (show_expr rt e ++ str " ")).
  assert (HA : forall x, P (PAtom x)).
  { intros x Hx. cbn [printable_arg print_arg show_arg] in *. unfold spaced. cbn [map concat]. rewrite app_nil_r.
    eapply on_ext; [|apply sprint_on]. intros s. cbn [print_arg]. rewrite atom_text_ok by exact Hx. reflexivity. }
  assert (HP : forall p, P (PAddr p)).
  { intros p _. cbn [show_arg]. unfold spaced. cbn [map concat]. rewrite app_nil_r. exact (sprint_on (p ++ str " ")). }
  assert (HN : P (PExpr None)) by (intros _; exact none_on).
  assert (HE : forall e, Q e -> P (PExpr (Some e))).
  { intros e He H. cbn [show_arg]. unfold spaced. cbn [map concat]. rewrite app_nil_r. exact (He H). }
  assert (HF : forall ps body, Forall Q body -> P (PFun ps body)).
  { intros ps body Hb H. cbn [printable_arg] in H. apply each_all in H. cbn [show_arg]. unfold spaced. cbn [map concat]. rewrite app_nil_r.
    assert (B : prints_on (in_turn (print_expr rt junk) body) (concat (map (fun e => show_expr rt e ++ str " ") body))).
    { apply turn_on. rewrite Forall_forall in *. intros e Hin. now apply Hb, H. }
    pose proof (both_on _ _ _ _ (sprint_on (str "(lambda (")) (both_on _ _ _ _ (params_on ps) (both_on _ _ _ _ B (sprint_on (str ") "))))) as K.
    rewrite <- !app_assoc. exact K. }
  assert (HC : forall f args, Forall P args -> Q (Call f args)).
  { intros f args Ha H. cbn [printable_expr] in H. apply each_all in H.
    change (show_expr rt (Call f args)) with (str "(" ++ join (str " ") (f :: concat (map (show_arg rt) args)) ++ str ")").
    assert (B : prints_on (in_turn (print_arg rt junk) args) (concat (map (fun a => spaced (show_arg rt a)) args))).
    { apply turn_on. rewrite Forall_forall in *. intros a Hin. now apply Ha, H. }
    rewrite <- (map_map (show_arg rt) spaced), spaced_concat in B.
    pose proof (both_on _ _ _ _ (sprint_on (str "(" ++ f ++ str " ")) B) as K. unfold spaced in K.
    assert (E : (str "(" ++ f ++ str " ") ++ concat (map (fun w => w ++ str " ") (concat (map (show_arg rt) args))) =
      (str "(" ++ join (str " ") (f :: concat (map (show_arg rt) args))) ++ [32]).
    { rewrite <- !app_assoc. f_equal. symmetry. apply words_spaced. }
    rewrite E in K. apply (back_on _ _ (str ") ") ltac:(vm_compute; congruence)) in K.
    replace ((str "(" ++ join (str " ") (f :: concat (map (show_arg rt) args)) ++ str ")") ++ str " ")
      with ((str "(" ++ join (str " ") (f :: concat (map (show_arg rt) args))) ++ str ") ") by (rewrite <- !app_assoc; reflexivity).
    eapply on_ext; [|exact K]. intros s. cbn [print_expr]. now rewrite bind_assoc. }
  split; [exact (parg_all P Q HA HP HN HE HF HC)|exact (pexpr_all P Q HA HP HN HE HF HC)].
Qed.

(** * Lines *)
Lemma expr_at e b pos : printable_expr rt e -> 0 <= pos -> print_expr rt junk e (b, pos) = after b pos (show_expr rt e ++ str " ").
Proof.
  intros He Hp. pose proof (proj2 print_on e He b pos [] Hp) as K. cbn [app] in K. rewrite <- K. clear K. destruct e as [f args]. cbn [print_expr]. unfold after. rewrite bind_assoc.
  cbn [app bind]. change (zlen (@nil Z)) with 0. rewrite Z.add_0_r.
  unfold sprint at 1. cbn [fst snd]. rewrite <- (write_over b pos [0] ((str "(" ++ f ++ str " ") ++ [0]) Hp)
    by (rewrite zlen_app; change (zlen [0]) with 1; pose proof (zlen_nonneg (str "(" ++ f ++ str " ")); lia).
  destruct (write b pos [0]); reflexivity.
Qed.
Lemma line_at e b pos : printable_expr rt e -> 0 <= pos ->
  (do s <- print_expr rt junk e (b, pos); sprint [10] s) = after b pos (line rt e).
Proof.
  intros He Hp. rewrite (expr_at e b pos He Hp), (sprint_on [10] b pos _ Hp). unfold line. now rewrite <- app_assoc.
Qed.
Lemma lines_at es : Forall (printable_expr rt) es -> forall size done rest, zlen (done ++ rest) <= size ->
  if fits_from size (zlen (done ++ rest)) (zlen done) (map (line rt) es)
  then exists r, print_lines rt junk fresh size es (done ++ rest, zlen done) = Ok (done ++ listing rt es ++ r, zlen (done ++ listing rt es)) /\
         (es <> [] -> exists r', r = 0 :: r')
  else print_lines rt junk fresh size es (done ++ rest, zlen done) = Ub OOB.
Proof.
  induction 1 as [|e es He _ IH]; intros size done rest Hs.
  { cbn. exists rest. rewrite app_nil_r. split; [reflexivity|]. intros K. now contradict K. }
  cbn [map fits_from print_lines fst snd]. set (room := if zlen done <? 256 then size + 256 else zlen (done ++ rest)).
  assert (B : exists rest', (if zlen done <? 256 then (done ++ rest) ++ fresh (size + 256 - zlen (done ++ rest)) else done ++ rest) = done ++ rest' /\ zlen (done ++ rest') = room).
  { unfold room. destruct (zlen done <? 256); [|eauto]. exists (rest ++ fresh (size + 256 - zlen (done ++ rest))). split; [now rewrite app_assoc|].
    rewrite app_assoc, zlen_app, Hf; lia. }
  destruct B as (rest' & -> & Hr). assert (Hroom : room <= size + 256) by (unfold room; destruct (zlen done <? 256); lia). clearbody room.
  rewrite <- bind_assoc, (line_at e _ _ He (zlen_nonneg done)). unfold after. rewrite bind_assoc.
  destruct (Z.leb_spec (zlen done + zlen (line rt e) + 1) room) as [L|L]; cbn [andb].
  - destruct (split_at rest' (zlen (line rt e) + 1)) as (x & r' & Er & Hx).
    { rewrite zlen_app in Hr. pose proof (zlen_nonneg (line rt e)). lia. }
    subst rest'.
    rewrite (write_app done x (line rt e ++ [0]) r') by (rewrite app_length; cbn [length]; unfold zlen in *; lia).
    cbn [bind]. replace (done ++ (line rt e ++ [0]) ++ r') with ((done ++ line rt e) ++ 0 :: r') by (now rewrite <- !app_assoc).
    rewrite <- zlen_app.
    assert (Hz : zlen ((done ++ line rt e) ++ 0 :: r') = room).
    { rewrite <- Hr, !zlen_app, zlen_cons, Hx. lia. }
    specialize (IH (size + 256) (done ++ line rt e) (0 :: r') ltac:(lia)). rewrite Hz in IH.
    destruct (fits_from (size + 256) room (zlen (done ++ line rt e)) (map (line rt) es)).
    + destruct IH as (r & E & Hn). destruct es as [|e2 es].
      * exists (0 :: r'). cbn [listing map concat print_lines]. unfold listing. cbn [map concat]. rewrite app_nil_r, <- app_assoc. split; [reflexivity|eauto].
      * exists r. split; [etransitivity; [exact E|]|intros _; apply Hn; discriminate].
        unfold listing. cbn [map concat]. rewrite <- !app_assoc. reflexivity.
    + exact IH.
  - unfold write. destruct (Z.ltb_spec (zlen (done ++ rest')) (zlen done + zlen (line rt e ++ [0]))) as [_|K]; [rewrite orb_true_r; reflexivity|].
    rewrite zlen_app in K. change (zlen [0]) with 1 in K. lia.
Qed.

(** * C93 *)
(** A program that fits is listed: each expression on a line of its own, in prefix form,
    every argument in place, and the length returned is that of the text. *)
Theorem C93_format es : Forall (printable_expr rt) es -> es <> [] -> room_for (map (line rt) es) = true ->
  exists rest, expr_format rt junk fresh es = Ok (listing rt es ++ 0 :: rest, zlen (listing rt es)).
Proof.
  intros He Hn Hfit. pose proof (lines_at es He 512 [] (fresh 512)) as K. cbn [app] in K. rewrite Hf in K by lia.
  unfold room_for in Hfit. change (zlen (@nil Z)) with 0 in K. rewrite Hfit in K. destruct (K ltac:(lia)) as (r & E & Hr).
  destruct (Hr Hn) as [r' ->]. exists r'. exact E.
Qed.
(** One that does not fit is written past the end of the block. *)
Theorem C93_overflow es : Forall (printable_expr rt) es -> room_for (map (line rt) es) = false ->
  expr_format rt junk fresh es = Ub OOB.
Proof.
  intros He Hfit. pose proof (lines_at es He 512 [] (fresh 512)) as K. cbn [app] in K. rewrite Hf in K by lia.
  unfold room_for in Hfit. change (zlen (@nil Z)) with 0 in K. rewrite Hfit in K. exact (K ltac:(lia)).
Qed.
End Print.
Print Assumptions C93_format.
Print Assumptions C93_overflow.

(** * What fits *)
Lemma listing_lines lines : forall size room pos, 768 <= room -> room <= size ->
  0 <= pos -> pos + zlen (concat lines) < 768 -> fits_from size room pos lines = true.
Proof.
  induction lines as [|l r IH]; intros size room pos Hr Hs Hp Hl; [reflexivity|]. cbn [fits_from concat] in *. rewrite zlen_app in Hl.
  pose proof (zlen_nonneg l). pose proof (zlen_nonneg (concat r)).
  set (room' := if pos <? 256 then size + 256 else room). assert (room <= room' <= size + 256) by (unfold room'; destruct (pos <? 256); lia). clearbody room'.
  destruct (Z.leb_spec (pos + zlen l + 1) room'); [|lia]. cbn [andb]. apply IH; lia.
Qed.
(** A listing of less than 768 characters always fits. *)
Theorem C93_short lines : zlen (concat lines) < 768 -> room_for lines = true.
Proof.
  intros H. destruct lines as [|l r]; [reflexivity|]. unfold room_for. cbn [fits_from concat] in *. rewrite zlen_app in H.
  change (0 <? 256) with true. cbv iota. pose proof (zlen_nonneg l). pose proof (zlen_nonneg (concat r)).
  destruct (Z.leb_spec (0 + zlen l + 1) (512 + 256)); [|lia]. cbn [andb]. apply listing_lines; lia.
Qed.
Print Assumptions C93_short.
(** However many lines there are, there is never room for more than 512 bytes and 256 for
    each, nor for a first line of 768 characters. *)
Lemma fits_bound lines : forall size room pos, room <= size -> fits_from size room pos lines = true ->
  pos + zlen (concat lines) + 1 <= Z.max (pos + 1) (size + 256 * zlen lines).
Proof.
  induction lines as [|l r IH]; intros size room pos Hs F; [cbn; lia|]. cbn [fits_from concat] in *. rewrite zlen_app, zlen_cons.
  set (room' := if pos <? 256 then size + 256 else room) in *. assert (room' <= size + 256) by (unfold room'; destruct (pos <? 256); lia). clearbody room'.
  apply andb_true_iff in F. destruct F as [F1 F2]. apply Z.leb_le in F1. apply IH in F2; [|lia]. pose proof (zlen_nonneg r). lia.
Qed.
Theorem C93_long lines l : room_for (l :: lines) = true -> zlen l < 768 /\ zlen (l ++ concat lines) < 768 + 256 * zlen lines.
Proof.
  intros F. pose proof (fits_bound (l :: lines) 512 512 0 ltac:(lia) F) as B. unfold room_for in F. cbn [fits_from] in F.
  apply andb_true_iff in F. destruct F as [F _]. apply Z.leb_le in F. change (0 <? 256) with true in F. cbv iota in F. cbn [concat] in B. rewrite zlen_cons in B.
  pose proof (zlen_nonneg lines). pose proof (zlen_nonneg (l ++ concat lines)). lia.
Qed.
Print Assumptions C93_long.

(** * Examples *)
(** [/a = if(x, map(lambda([v, w], v + w), /b), 12)] *)
Definition sample : pexpr :=
  Call (str "=") [PAddr (str "/a");
    PExpr (Some (Call (str "if") [PAddr (str "x");
      PExpr (Some (Call (str "map") [PFun [str "v"; str "w"] [Call (str "+") [PAddr (str "v"); PAddr (str "w")]]; PAddr (str "/b")]));
      PAtom (set_int32 atom_fresh 12)]))].
Definition sample_text : list Z := str "(= /a (if x (map (lambda (v, w) (+ v w) ) /b) 12)) ".
Lemma sample_atom rt : printable rt (set_int32 atom_fresh 12).
Proof.
  unfold printable. cbn. repeat match goal with |- _ /\ _ => split end; try exact I; try discriminate; try (unfold is_byte; lia).
  - reflexivity.
  - change (AtomSpec.decimal (Pos.to_nat 4) 12) with [49; 50]. repeat constructor; discriminate.
Qed.
Example C93_hypotheses rt : Forall (printable_expr rt) [sample; sample] /\ room_for (map (line rt) [sample; sample]) = true /\
  listing rt [sample; sample] = sample_text ++ [10] ++ sample_text ++ [10].
Proof.
  split; [|split; reflexivity].
  assert (K : printable_expr rt sample) by (cbn -[printable]; pose proof (sample_atom rt); tauto).
  constructor; [exact K|constructor; [exact K|constructor]].
Qed.
Print Assumptions C93_hypotheses.
(** A function without parameters keeps its parenthesis open, and an expression of one
    address of 758 characters is written past the end of the block. *)
Theorem C93_unbalanced_refuted rt :
  show_expr rt (Call (str "f") [PFun [] [Call (str "g") []]]) = str "(f (lambda ((g) ))".
Proof. reflexivity. Qed.
Print Assumptions C93_unbalanced_refuted.
Theorem C93_overflow_refuted rt junk fresh a : (forall n, 0 <= n -> zlen (fresh n) = n) -> 758 <= zlen a ->
  expr_format rt junk fresh [Call (str "value") [PAddr a]] = Ub OOB.
Proof.
  intros Hf Ha. apply C93_overflow; [exact Hf|repeat constructor|].
  destruct (room_for (map (line rt) [Call (str "value") [PAddr a]])) eqn:E; [|reflexivity].
  apply C93_long in E. destruct E as [E _]. unfold line in E. cbn [show_expr map show_arg concat app join] in E. rewrite !zlen_app in E.
  change (zlen (str "(")) with 1 in E. change (zlen (str "value")) with 5 in E. change (zlen (str " ")) with 1 in E. change (zlen (str ")")) with 1 in E. change (zlen [32; 10]) with 2 in E. lia.
Qed.
Print Assumptions C93_overflow_refuted.
