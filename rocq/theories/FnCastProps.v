(** C76-C80: the casts of the expression language and the functions readstring,
    match and bundle. *)

From Coq Require Import String ZArith List Bool QArith Lia.
From Verif Require Import Base Text BaseProofs Bytes UtilModel UtilProofs TimetagModel MatchModel SerialModel WireModel AtomSModel FloatModel
  AtomUModel StrfmtModel FArithModel ExprModel ExprListModel StatModel FnStrModel FnNumModel FnCastModel
  WireSpec SerialSpec AtomSpec AtomProofs RealSpec ExprSpec RoundSpec LogicSpec FnStrSpec FnNumSpec MatchSpec FnCastSpec
  SerialProofs SerialProps DeserProofs DeserProps
  FloatProofs StrfmtProps TextProps NumProps RoundProps LogicProps CompareProofs ExprListProofs ExprProps ExprListProps StatProofs FnStrProofs
  FnStrProps FnNumProofs FnNumProps MatchFacts MatchProps FnCastProofs.
Import ListNotations.
Open Scope Z_scope.

(** * C76: casts to numbers and truth values *)

(** Each member of the first argument becomes an integer of the type; other
    arguments are not looked at. *)
Theorem C76_integers t a more : Forall (fun m => exists v, reads t m v) (members a) ->
  exists rs, fn_cast (int_cast t) (a :: more) = Ok (0, Some rs) /\
    Forall2 (fun m r => exists v, reads t m v /\ r = set_u t atom_fresh v) (members a) rs.
Proof.
  intros H. apply cast_all. eapply Forall_impl; [|exact H]. intros m (v & Hv). exists (set_u t atom_fresh v).
  rewrite int_cast_eq, (reads_get t m v Hv). split; [reflexivity|]. now exists v.
Qed.
Print Assumptions C76_integers.
(** The number is the only one it can be. *)
Theorem C76_integers_unique t m v v' : reads t m v -> reads t m v' -> v = v' /\ in_type t v.
Proof.
  intros H H'. pose proof (reads_get t m v H) as E. rewrite (reads_get t m v' H') in E. injection E as ->.
  split; [reflexivity|exact (reads_in t m v H)].
Qed.
Print Assumptions C76_integers_unique.
(** A float or double beyond the type, an infinity or NaN is undefined behaviour
    (finding). *)
Theorem C76_out_of_range t a more l x l' : members a = l ++ x :: l' ->
  Forall (fun m => exists v, reads t m v) l -> out_of_range t x -> fn_cast (int_cast t) (a :: more) = Ub Overflow.
Proof.
  intros E H Hx. apply (cast_fails _ a more l x l' _ E).
  - eapply Forall_impl; [|exact H]. intros m (v & Hv). exists (set_u t atom_fresh v). now rewrite int_cast_eq, (reads_get t m v Hv).
  - rewrite int_cast_eq, (out_get t x Hx). reflexivity.
Qed.
Print Assumptions C76_out_of_range.
Theorem C76_singles F a more : Forall (fun m => exists d, reads_single m d) (members a) ->
  exists rs, fn_cast (cast_float32 F) (a :: more) = Ok (0, Some rs) /\
    Forall2 (fun m r => exists d, reads_single m d /\ r = set_float atom_fresh d) (members a) rs.
Proof.
  intros H. apply cast_all. eapply Forall_impl; [|exact H]. intros m (d & Hd).
  destruct (single_ok (s_float F) m d Hd) as (d' & H1 & H2). exists (set_float atom_fresh d').
  unfold cast_float32, cast_to. rewrite H1. split; [reflexivity|]. now exists d'.
Qed.
Print Assumptions C76_singles.
Theorem C76_doubles E a more : Forall (fun m => exists d, reads_double_as m d) (members a) ->
  exists rs, fn_cast (cast_float64 E) (a :: more) = Ok (0, Some rs) /\
    Forall2 (fun m r => exists d, reads_double_as m d /\ r = set_double atom_fresh d) (members a) rs.
Proof.
  intros H. apply cast_all. eapply Forall_impl; [|exact H]. intros m (d & Hd).
  destruct (double_ok (e_double E) m d Hd) as (d' & H1 & H2). exists (set_double atom_fresh d').
  unfold cast_float64, cast_to. rewrite H1. split; [reflexivity|]. now exists d'.
Qed.
Print Assumptions C76_doubles.
(** Numbers other than zero are true; texts, blobs, time tags, bundles and nil are
    false. *)
Theorem C76_truth a more : Forall (fun m => exists c, truth m c) (members a) ->
  exists rs, fn_cast cast_bool (a :: more) = Ok (0, Some rs) /\
    Forall2 (fun m r => exists c : bool, truth m c /\ r = if c then set_true atom_fresh else set_false atom_fresh) (members a) rs.
Proof.
  intros H. apply cast_all. eapply Forall_impl; [|exact H]. intros m (c & Hc).
  exists (set_bool atom_fresh c). unfold cast_bool, cast_to. cbn [bind]. rewrite (truth_bool m c Hc). split; [reflexivity|].
  exists c. split; [exact Hc|]. now destruct c.
Qed.
Print Assumptions C76_truth.
(** Without argument nothing is done. *)
Theorem C76_no_argument f : fn_cast f [] = Ok (0, None).
Proof. reflexivity. Qed.
Print Assumptions C76_no_argument.

Example C76_hypotheses :
  Forall (fun m => exists v, reads U8 m v)
    [set_int32 atom_fresh (-1); set_float atom_fresh 1075838976; set_string atom_fresh 0 (str "A"); set_true atom_fresh] /\
  fn_cast (int_cast U8) [Some [set_int32 atom_fresh (-1); set_float atom_fresh 1075838976; set_string atom_fresh 0 (str "A"); set_true atom_fresh]] =
  Ok (0, Some (map (set_uint8 atom_fresh) [255; 2; 65; 1])) /\
  reads I16 (set_string atom_fresh 0 (str " -37 m")) (-37) /\ out_of_range U8 (set_float atom_fresh 3223322624).
Proof.
  split; [|split; [|split]].
  - constructor; [|constructor; [|constructor; [|constructor; [|constructor]]]].
    + exists 255. apply (reads_int U8 false I32 (-1)).
      * apply (int_operand I32 (-1) atom_fresh). unfold in_type, signed, width. lia.
      * split; [unfold in_type, signed, width; lia|reflexivity].
    + exists 2. eapply reads_float; [lia|vm_compute; reflexivity| |unfold in_type, signed, width; lia].
      split; intros K; [split; vm_compute; [discriminate|reflexivity]|vm_compute in K; exfalso; apply K; reflexivity].
    + exists 65. apply (reads_character U8 0 65 []); [reflexivity|]. split; [unfold in_type, signed, width; lia|reflexivity].
    + exists 1. apply (reads_int U8 true I8 1); [constructor|]. split; [unfold in_type, signed, width; lia|reflexivity].
  - vm_compute. reflexivity.
  - apply (reads_text I16 0 (str " ") (-37) (str " m")); [reflexivity|repeat constructor|reflexivity|unfold in_type, signed, width; lia].
  - constructor; [lia|]. intros q z Hq Hz. vm_compute in Hq. injection Hq as <-. unfold in_type, signed, width.
    assert (K : z = -2); [|lia]. refine (truncates_unique _ _ _ Hz _).
    split; intros H; [vm_compute in H; exfalso; apply H; reflexivity|]. split; vm_compute; [reflexivity|discriminate].
Qed.

(** * C77: casts to texts and blobs *)

Theorem C77_texts E a more : Forall (fun m => exists s, reads_text_as (e_text E) m s) (members a) ->
  exists rs, fn_cast (cast_string E) (a :: more) = Ok (0, Some rs) /\
    Forall2 (fun m r => exists s, reads_text_as (e_text E) m s /\ r = set_string atom_fresh 0 s) (members a) rs.
Proof.
  intros H. apply cast_all. eapply Forall_impl; [|exact H]. intros m (s & Hs). exists (set_string atom_fresh 0 s).
  rewrite (cast_string_ok E m s atom_fresh Hs). split; [reflexivity|]. now exists s.
Qed.
Print Assumptions C77_texts.
(** A character of -100 or less loses its last digit (finding): -128 and -120 give
    the same text. *)
Theorem C77_small_character E a v : -128 <= v <= -100 ->
  fn_cast (cast_string E) [Some [set_u I8 a v]] = Ok (0, Some [set_string atom_fresh 0 (45 :: firstn 2 (numeral (- v)))]).
Proof.
  intros Hv. assert (I : in_type I8 v) by (unfold in_type, signed, width; lia).
  assert (G : au_int8 (set_u I8 a v) = Ok v).
  { change (get_u I8 (set_u I8 a v) = Ok v). rewrite get_set by assumption. f_equal. now apply (wrap_id I8). }
  cbn [fn_cast alen]. change (aalloc (zlen [set_u I8 a v])) with (Ok (Some [atom_fresh]) : res arr). cbn [bind items cast_loop].
  change (aget (Some [atom_fresh]) 0) with (Ok (Some atom_fresh) : res (option atom)). cbn [bind].
  unfold cast_string at 1. rewrite tag_set. cbn [tag_of Z.eqb Pos.eqb]. rewrite G. cbn [bind].
  rewrite (proj2 (Z.leb_gt 32 v)) by lia. cbn [andb].
  rewrite fmt_int_numeral. unfold numeral at 1. rewrite (proj2 (Z.ltb_lt v 0)) by lia.
  assert (N : numeral (- v) = digit_string (- v)) by (unfold numeral; now rewrite (proj2 (Z.ltb_ge (- v) 0)) by lia).
  rewrite N. reflexivity.
Qed.
Print Assumptions C77_small_character.
Theorem C77_characters_refuted E : fn_cast (cast_string E) [Some [set_u I8 atom_fresh (-128)]] = fn_cast (cast_string E) [Some [set_u I8 atom_fresh (-120)]].
Proof. rewrite !C77_small_character by lia. reflexivity. Qed.
Print Assumptions C77_characters_refuted.
(** A list becomes one blob of as many bytes as it has members. *)
Theorem C77_bytes E a more vs : Forall2 (reads I8) (members a) vs -> (forall m, members a = [m] -> a_tt m <> 46) -> zlen vs < 2^31 ->
  fn_cast_blob E (a :: more) = Ok (0, Some [Atom 98 0 (PBlob (be_bytes 4 (zlen vs) ++ map (fun v => v mod 2^8) vs))]).
Proof.
  intros H Hb Hn. pose proof (zlen_nonneg vs) as Hz.
  assert (L : zlen (members a) = zlen vs) by (unfold zlen; f_equal; clear - H; induction H; cbn [length]; congruence).
  cbn [fn_cast_blob]. rewrite alen_members, L, aget_members by lia. change (Z.to_nat 0) with 0%nat. cbn [bind].
  set (junk := firstn (Z.to_nat (zlen vs + 4)) (e_junk E ++ repeat 170 (Z.to_nat (zlen vs + 4)))).
  assert (J : zlen junk = zlen vs + 4).
  { unfold junk, zlen. rewrite firstn_length, app_length, repeat_length. lia. }
  assert (D : exists pre rest, junk = pre ++ rest /\ length pre = 4%nat /\ zlen rest = zlen vs).
  { exists (firstn 4 junk), (skipn 4 junk). split; [symmetry; apply firstn_skipn|]. unfold zlen in J |- *.
    rewrite firstn_length, skipn_length. split; lia. }
  destruct D as (pre & rest & Ej & Lp & Lr).
  assert (W : forall l v, wr32 (pre ++ l) 0 v = Ok (be_bytes 4 v ++ l)).
  { intros l v. exact (wr32_at [] pre l v Lp). }
  destruct (nth_error (members a) 0) as [x|] eqn:Ex.
  - assert (C : (zlen vs =? 1) && (a_tt x =? 46) = false).
    { destruct (zlen vs =? 1) eqn:E1; [|reflexivity]. apply Z.eqb_eq in E1. cbn [andb]. apply Z.eqb_neq. apply Hb.
      destruct (members a) as [|y [|z l]]; [discriminate Ex|injection Ex as ->; reflexivity|].
      rewrite <- L, !zlen_cons in E1. pose proof (zlen_nonneg l). lia. }
    rewrite C. change (items a) with (members a). rewrite Ej.
    pose proof (byte_loop_ok (members a) vs H pre [] rest 0) as B. cbn [app] in B.
    rewrite B; [|unfold zlen; lia|reflexivity|lia]. cbn [bind]. rewrite W. reflexivity.
  - assert (E0 : vs = []).
    { destruct (members a); [|discriminate Ex]. inversion H. reflexivity. }
    subst vs. change (zlen (@nil Z)) with 0 in *. unfold junk in Ej. change (Z.to_nat (0 + 4)) with 4%nat in Ej.
    rewrite Ej. assert (rest = []) by (destruct rest; [reflexivity|rewrite zlen_cons in Lr; pose proof (zlen_nonneg rest); lia]). subst rest.
    rewrite W. reflexivity.
Qed.
Print Assumptions C77_bytes.
(** Such a blob of bytes that are not zero is no text: the read runs past its end
    (finding). *)
Theorem C77_unterminated E w size cs : zlen size = 4 -> nonul cs ->
  fn_cast (cast_string E) [Some [Atom 98 w (PBlob (size ++ cs))]] = Ub OOB.
Proof.
  intros Hz Hc. apply (cast_fails _ _ [] [] (Atom 98 w (PBlob (size ++ cs))) []); [reflexivity|constructor|].
  unfold cast_string. cbn [a_tt Z.eqb Pos.eqb].
  assert (R : rdstr (size ++ cs) 4 = Ub OOB).
  { unfold rdstr. rewrite zlen_app. pose proof (zlen_nonneg cs). rewrite (proj2 (Z.ltb_ge _ 4)) by lia. cbn [Z.ltb Z.compare orb].
    replace (Z.to_nat 4) with (length size) by (unfold zlen in Hz; lia). rewrite skipn_app, skipn_all, Nat.sub_diag. cbn [app skipn].
    assert (C : cstr cs = None); [|now rewrite C].
    clear - Hc. induction Hc as [|c cs H _ IH]; [reflexivity|]. cbn [cstr]. apply Z.eqb_neq in H. now rewrite H, IH. }
  rewrite R. reflexivity.
Qed.
Print Assumptions C77_unterminated.
(** A bundle becomes the blob of its serialized form. *)
Theorem C77_bundle E ptr b ms more : Forall ok_msg ms -> zlen (enc_bundle empty_header (raw_msgs ms)) + 8 < 2^31 ->
  exists blob, fn_cast_blob E (Some [set_bndl b ptr ms] :: more) = Ok (0, Some [Atom 98 0 (PBlob blob)]) /\
    holds blob (enc_bundle empty_header (raw_msgs ms)).
Proof.
  intros Hok Hl. set (enc := enc_bundle empty_header (raw_msgs ms)) in *. pose proof (zlen_nonneg enc) as Hz.
  assert (S1 : bundle_size ms = Ok (zlen enc)).
  { rewrite bundle_size_ok by exact Hok. f_equal. unfold enc, enc_bundle. rewrite zlen_app, enc_umsgs_raw. reflexivity. }
  assert (S2 : s32 (zlen enc) = zlen enc) by (apply (wrap_id I32); unfold in_type, signed, width; lia).
  assert (S3 : bundle_serialize (repeat 0 (Z.to_nat (zlen enc))) ms = Ok enc).
  { apply C12_bundle_encoding; [exact Hok|]. fold enc. unfold zlen at 2. rewrite repeat_length. lia. }
  assert (K : exists n pad, au_blob_copy E (set_bndl b ptr ms) = Ok (n, be_bytes 4 (zlen enc) ++ enc ++ pad)).
  { unfold set_bndl, au_blob_copy. cbn [au_blob_len Z.eqb Pos.eqb]. rewrite S1. cbn [bind]. rewrite S2.
    set (bl := 4 * ((zlen enc + 1 + 3) / 4) + 4).
    assert (Hb : zlen enc + 4 < bl) by (unfold bl; Z.div_mod_to_equations; lia).
    rewrite (proj2 (Z.ltb_ge bl 0)) by lia. cbn [bind orb]. rewrite S3. cbn [bind].
    replace (repeat 0 (Z.to_nat bl)) with ([0; 0; 0; 0] ++ repeat 0 (length enc) ++ repeat 0 (Z.to_nat (bl - zlen enc - 4))).
    2: { change [0; 0; 0; 0] with (repeat 0 4). rewrite <- !repeat_app. f_equal. unfold zlen in *. lia. }
    rewrite head32. cbn [bind]. rewrite next_bytes by now rewrite repeat_length. cbn [bind]. now eexists _, _. }
  destruct K as (n & pad & K). exists (be_bytes 4 (zlen enc) ++ enc ++ repeat 0 (Z.to_nat (4 * ((zlen enc + 1 + 3) / 4) + 4 - (zlen enc + 4)))).
  split; [|eexists; reflexivity].
  cbn [fn_cast_blob alen]. change (aget (Some [set_bndl b ptr ms]) 0) with (Ok (Some (set_bndl b ptr ms)) : res (option atom)).
  cbn [bind]. assert (T : a_tt (set_bndl b ptr ms) = 46) by now destruct b. rewrite T. change ((zlen [set_bndl b ptr ms] =? 1) && (46 =? 46)) with true.
  cbv iota. rewrite aalloc_1. cbn [bind]. rewrite K. cbn [bind]. rewrite aput_1.
  assert (B : set_blob atom_fresh 0 (be_bytes 4 (zlen enc) ++ enc ++ pad) 0 =
    Ok (Atom 98 0 (PBlob (be_bytes 4 (zlen enc) ++ enc ++ repeat 0 (Z.to_nat (4 * ((zlen enc + 1 + 3) / 4) + 4 - (zlen enc + 4))))))).
  { unfold set_blob. pose proof (rd32_be [] (zlen enc) (enc ++ pad)) as R. change (zlen (@nil Z)) with 0 in R. cbn [app] in R.
    assert (U : u32 (zlen enc) = zlen enc) by (apply Z.mod_small; lia). rewrite U in R. rewrite R. cbn [bind]. rewrite S2.
    rewrite (proj2 (Z.ltb_ge (zlen enc) 0)), (proj2 (Z.leb_gt (2^31) _)) by lia. cbn [orb].
    pose proof (slice_app [] (be_bytes 4 (zlen enc) ++ enc) pad) as Sl. change (zlen (@nil Z)) with 0 in Sl. cbn [app] in Sl.
    rewrite <- app_assoc, zlen_app, zlen_be in Sl. change (Z.of_nat 4) with 4 in Sl.
    replace (zlen enc + 4) with (4 + zlen enc) at 1 by lia. rewrite Sl. cbn [bind]. rewrite <- app_assoc. reflexivity. }
  rewrite B. reflexivity.
Qed.
Print Assumptions C77_bundle.

Definition sample_env : env := Env (fun _ => 0) (fun _ => []) [] (fun _ _ => 0) (fun _ => TT 0 0) (fun _ => 0).
Example C77_hypotheses : let E := sample_env in
  fn_cast (cast_string E) [Some [set_int32 atom_fresh (-12); set_u I8 atom_fresh 65; set_u U8 atom_fresh 200; set_string atom_fresh 0 (str "x");
     Atom 98 0 (PBlob [0; 0; 0; 2; 104; 105; 0; 0])]] =
  Ok (0, Some (map (set_string atom_fresh 0) [str "-12"; str "A"; str "200"; str "x"; str "hi"])) /\
  reads_text_as (e_text E) (Atom 98 0 (PBlob [0; 0; 0; 2; 104; 105; 0; 0])) (str "hi") /\
  fn_cast_blob E [Some [set_int32 atom_fresh 300; set_int32 atom_fresh (-1)]] = Ok (0, Some [Atom 98 0 (PBlob [0; 0; 0; 2; 44; 255])]) /\
  Forall2 (reads I8) [set_int32 atom_fresh 300; set_int32 atom_fresh (-1)] [44; -1].
Proof.
  intros E. split; [vm_compute; reflexivity|]. split; [|split].
  - apply (text_blob (e_text E) 0 [0; 0; 0; 2] (str "hi") [0]); [reflexivity|]. repeat (constructor; try discriminate).
  - vm_compute. reflexivity.
  - constructor; [|constructor; [|constructor]].
    + apply (reads_int I8 false I32 300); [apply (int_operand I32 300 atom_fresh)|split; [|reflexivity]]; unfold in_type, signed, width; lia.
    + apply (reads_int I8 false I32 (-1)); [apply (int_operand I32 (-1) atom_fresh)|split; [|reflexivity]]; unfold in_type, signed, width; lia.
Qed.

(** * C78: casts by type tag *)

Lemma char_at_types a tys k : Forall2 (reads I8) (members a) tys -> char_at a (Z.of_nat k) = Ok (nth k tys 0).
Proof.
  intros H. unfold char_at. rewrite aget_members by lia. rewrite Nat2Z.id. cbn [bind]. revert k.
  induction H as [|m ty l tys Hm _ IH]; intros k; [destruct k; reflexivity|].
  destruct k as [|k]; [|apply IH]. cbn [nth_error nth]. exact (reads_get I8 m ty Hm).
Qed.
(** The first argument has the type tags, the second the members. *)
Theorem C78_dynamic F E ts a more given types : Forall2 (reads I8) (members ts) given ->
  types_for (length (members a)) given types -> Forall2 (fun m ty => exists r, typed (e_text E) ty m r) (members a) types ->
  exists rs, fn_cast_dynamic F E (ts :: a :: more) = Ok (0, Some rs) /\
    Forall2 (fun x r => typed (e_text E) (snd x) (fst x) r) (combine (members a) types) rs.
Proof.
  intros Hg Ht H. cbn [fn_cast_dynamic].
  assert (L : alen ts = zlen given).
  { rewrite alen_members. unfold zlen. f_equal. clear - Hg. induction Hg; cbn [length]; congruence. }
  rewrite L.
  assert (K : exists tts, (if (alen a >? 1) && (zlen given =? 1) then do tt <- char_at ts 0; Ok (fun _ : Z => Ok tt) else Ok (char_at ts)) = Ok tts /\
    forall k ty, nth_error types k = Some ty -> tts (Z.of_nat k) = Ok ty).
  { destruct Ht as [(tt & -> & ->)|(Hn & ->)].
    - change (zlen [tt] =? 1) with true. rewrite andb_true_r. destruct (alen a >? 1) eqn:El.
      + exists (fun _ => Ok tt). split; [|].
        * pose proof (char_at_types ts [tt] 0 Hg) as C. change (Z.of_nat 0) with 0 in C. now rewrite C.
        * intros k ty Hk. apply nth_error_In in Hk. apply repeat_spec in Hk. now subst ty.
      + exists (char_at ts). split; [reflexivity|]. intros k ty Hk. rewrite (char_at_types ts [tt] k Hg).
        rewrite Z.gtb_ltb in El. apply Z.ltb_ge in El. rewrite alen_members in El. unfold zlen in El.
        assert (Hlt : (k < length (repeat tt (length (members a))))%nat) by (apply nth_error_Some; congruence).
        rewrite repeat_length in Hlt. assert (k = 0%nat) by lia. subst k. apply nth_error_In in Hk. apply repeat_spec in Hk. now subst ty.
    - rewrite (proj2 (Z.eqb_neq _ _) Hn), andb_false_r. exists (char_at ts). split; [reflexivity|]. intros k ty Hk.
      rewrite (char_at_types ts given k Hg). f_equal.
      assert (Hk' : nth_error (given ++ repeat 0 (length (members a))) k = Some ty).
      { rewrite <- (firstn_skipn (length (members a)) (given ++ repeat 0 (length (members a)))). rewrite nth_error_app1; [exact Hk|].
        apply nth_error_Some. congruence. }
      destruct (Nat.lt_ge_cases k (length given)) as [Q|Q].
      + rewrite nth_error_app1 in Hk' by exact Q. now apply nth_error_nth with (d := 0) in Hk'.
      + rewrite nth_error_app2 in Hk' by exact Q. apply nth_error_In in Hk'. apply repeat_spec in Hk'. subst ty. now apply nth_overflow. }
  destruct K as (tts & K1 & K2). rewrite K1. cbn [bind]. rewrite aalloc_members. cbn [bind]. change (items a) with (members a).
  destruct (dynamic_ok F E tts (members a) types H []) as (rs & R1 & R2).
  - intros k ty Hk. exact (K2 k ty Hk).
  - exists rs. split; [|exact R2]. change (zlen (@nil atom)) with 0 in R1. cbn [app] in R1.
    refine (eq_trans (f_equal (fun x => do out <- x; Ok (0, out)) R1) _). reflexivity.
Qed.
Print Assumptions C78_dynamic.
Theorem C78_arity F E argv : zlen argv <= 1 -> fn_cast_dynamic F E argv = Ok (1, None).
Proof.
  destruct argv as [|a [|b argv]]; [reflexivity..|]. rewrite !zlen_cons. pose proof (zlen_nonneg argv). lia.
Qed.
Print Assumptions C78_arity.
(** The cast of a text to a blob always writes past the end of the new block
    (finding). *)
Theorem C78_text_blob F E ts a p s : members ts = [set_u I8 atom_fresh 98] -> zlen s + 8 < 2^31 ->
  fn_cast_dynamic F E [ts; Some [set_string a p s]] = Ub OOB.
Proof.
  intros Hts Hs. cbn [fn_cast_dynamic]. change (alen (Some [set_string a p s]) >? 1) with false. cbn [andb bind].
  change (aalloc (alen (Some [set_string a p s]))) with (Ok (Some [atom_fresh]) : res arr). cbn [bind items dynamic_loop].
  assert (C : char_at ts 0 = Ok 98).
  { unfold char_at. rewrite (aget_first ts _ [] Hts). reflexivity. }
  rewrite C. cbn [bind]. change (cast_as F E 98) with (cast_blob E). rewrite aput_1.
  assert (B : au_blob_copy E (set_string a p s) = Ub OOB).
  { pose proof (zlen_nonneg s) as Hz. unfold au_blob_copy. destruct a as [tg w q]. cbn [set_string au_blob_len Z.eqb Pos.eqb bind].
    rewrite (wrap_id I32 (zlen s) ltac:(unfold in_type, signed, width; lia) : s32 (zlen s) = zlen s).
    set (bl := 4 * ((zlen s + 1 + 3) / 4) + 4).
    assert (Hb : zlen s + 4 < bl) by (unfold bl; Z.div_mod_to_equations; lia).
    rewrite (proj2 (Z.ltb_ge bl 0)) by lia. cbn [bind orb].
    replace (repeat 0 (Z.to_nat bl)) with ([0; 0; 0; 0] ++ repeat 0 (Z.to_nat (bl - 4))).
    2: { change [0; 0; 0; 0] with (repeat 0 4). rewrite <- repeat_app. f_equal. lia. }
    rewrite head32. cbn [bind].
    change (skipn 4 (be_bytes 4 (bl - 4) ++ repeat 0 (Z.to_nat (bl - 4)))) with (repeat 0 (Z.to_nat (bl - 4))).
    assert (L : zlen (repeat 0 (Z.to_nat (bl - 4))) = bl - 4) by (unfold zlen; rewrite repeat_length; lia).
    unfold au_string. rewrite (proj1 (C49_strings (e_text E) (e_junk E) (Atom tg w q) p s)). cbn [bind].
    change (out_buffer (e_junk E) (Some (repeat 0 (Z.to_nat (bl - 4)))) bl (zlen s)) with (repeat 0 (Z.to_nat (bl - 4)), bl).
    cbv iota. unfold set_string. cbn [Z.eqb Pos.eqb]. unfold strncpy, write.
    assert (N : zlen (firstn (Z.to_nat bl) (s ++ repeat 0 (Z.to_nat bl))) = bl).
    { unfold zlen. rewrite firstn_length, app_length, repeat_length. unfold zlen in Hb. lia. }
    rewrite N, L. cbn [Z.ltb Z.compare orb]. rewrite (proj2 (Z.ltb_lt _ _)) by lia. reflexivity. }
  unfold cast_blob. rewrite B. reflexivity.
Qed.
Print Assumptions C78_text_blob.
(** The blob of a 64 bit integer has only its lower half (finding). *)
Theorem C78_long_refuted F E : exists b, fn_cast_dynamic F E [Some [set_u I8 atom_fresh 98]; Some [set_u I64 atom_fresh (2^40 + 3)]] =
  Ok (0, Some [Atom 98 0 (PBlob b)]) /\ holds b (be_bytes 8 3) /\ ~ holds b (be_bytes 8 (2^40 + 3)).
Proof.
  exists (be_bytes 4 8 ++ be_bytes 8 3 ++ [0; 0; 0; 0]). split; [vm_compute; reflexivity|]. split; [now exists [0; 0; 0; 0]|].
  intros (pad & H). vm_compute in H. discriminate H.
Qed.
Print Assumptions C78_long_refuted.

Example C78_hypotheses : let F := Single (fun _ => 0) (fun _ _ => 0) in
  let ts := Some [set_string atom_fresh 0 (str "h"); set_string atom_fresh 0 (str "b")] in
  let a := Some [set_int32 atom_fresh (-3); set_int32 atom_fresh 7; set_true atom_fresh] in
  types_for 3 [104; 98] [104; 98; 0] /\ Forall2 (reads I8) (members ts) [104; 98] /\
  Forall2 (fun m ty => exists r, typed (e_text sample_env) ty m r) (members a) [104; 98; 0] /\
  fn_cast_dynamic F sample_env [ts; a] = Ok (0, Some [set_int64 atom_fresh (-3); Atom 98 0 (PBlob [0; 0; 0; 4; 0; 0; 0; 7; 0; 0; 0; 0]); atom_fresh]).
Proof.
  intros F ts a. split; [right; split; [discriminate|reflexivity]|]. split; [|split; [|vm_compute; reflexivity]].
  - constructor; [|constructor; [|constructor]].
    + apply (reads_character I8 0 104 []); [reflexivity|]. split; [unfold in_type, signed, width; lia|reflexivity].
    + apply (reads_character I8 0 98 []); [reflexivity|]. split; [unfold in_type, signed, width; lia|reflexivity].
  - constructor; [|constructor; [|constructor; [|constructor]]].
    + exists (set_u I64 atom_fresh (-3)). apply (typed_int _ I64). apply (reads_int I64 false I32 (-3)).
      * apply (int_operand I32 (-3) atom_fresh). unfold in_type, signed, width. lia.
      * split; [unfold in_type, signed, width; lia|reflexivity].
    + exists (Atom 98 0 (PBlob [0; 0; 0; 4; 0; 0; 0; 7; 0; 0; 0; 0])).
      apply (typed_bytes _ I32 atom_fresh 7); [unfold in_type, signed, width; lia|reflexivity|]. now exists [0; 0; 0; 0].
    + exists atom_fresh. apply typed_unknown. cbn. lia.
Qed.

(** * C79: match *)

(** Every pattern gets a bundle that tells of each address, in the order given,
    whether the pattern matches it in full, in part or not at all. *)
Theorem C79_match pa aa more (ps : list pattern) (addresses : list address) :
  Forall2 is_string (members pa) (map pattern_text ps) -> strings_of (members aa) (map address_text addresses) ->
  Forall pattern_ok ps -> Forall address_ok addresses -> (forall p a, In p ps -> In a addresses -> within_backtrack_limit p a) ->
  exists rs, fn_match (pa :: aa :: more) = Ok (0, Some rs) /\
    Forall2 (fun p r => exists full partial unmatched,
      chosen (whole p) addresses full /\ chosen (begun p) addresses partial /\
      chosen (fun a => ~ whole p a /\ ~ begun p a) addresses unmatched /\
      r = report (pattern_text p) (map address_text full) (map address_text partial) (map address_text unmatched)) ps rs.
Proof.
  intros Hp Ha Op Oa Hl.
  assert (FM : forall (g : list Z -> bool) l, filter g (map address_text l) = map address_text (filter (fun a => g (address_text a)) l)).
  { intros g l. induction l as [|x l IH]; [reflexivity|]. cbn [map filter]. destruct (g (address_text x)); cbn [map]; now rewrite IH. }
  set (tell := fun p => report (pattern_text p) (filter (fun a => kind (pattern_text p) a =? 0) (map address_text addresses))
     (filter (fun a => kind (pattern_text p) a =? 1) (map address_text addresses))
     (filter (fun a => kind (pattern_text p) a =? 2) (map address_text addresses))).
  exists (map tell ps). split.
  - unfold fn_match. cbn [argv_at nth_error bind]. rewrite aalloc_members. cbn [bind].
    change (items pa) with (members pa). change (items aa) with (members aa).
    pose proof (each_ok (match_one (members aa)) (members pa) (map tell ps)) as K.
    specialize (fun H => K H [] 0 eq_refl). cbn [app] in K.
    refine (eq_trans (f_equal (fun x => do out <- x; Ok (0, out)) (K _)) _); [|reflexivity].
    clear K Op Hl. revert ps Hp. induction (members pa) as [|m l IH]; intros ps Hp.
    + inversion Hp as [E|]; subst. destruct ps; [constructor|discriminate].
    + destruct ps as [|p ps]; [inversion Hp|]. cbn [map] in Hp. inversion Hp as [|? ? ? ? Hm Hr]; subst. constructor; [|now apply IH].
      exact (proj1 (match_one_ok (members aa) _ m Ha) _ Hm).
  - clear Hp. induction ps as [|p ps IH]; [constructor|]. inversion Op as [|? ? Hp Hps]; subst. cbn [map]. constructor.
    + unfold tell. rewrite !FM.
      assert (K : forall a, In a addresses ->
        (kind (pattern_text p) (address_text a) = 0 <-> whole p a) /\ (kind (pattern_text p) (address_text a) = 1 <-> begun p a) /\
        (kind (pattern_text p) (address_text a) = 2 <-> ~ whole p a /\ ~ begun p a)).
      { intros a Hi. apply kind_language; [exact Hp| |now apply Hl; [left|]]. exact (proj1 (Forall_forall _ _) Oa a Hi). }
      eexists _, _, _. split; [|split; [|split; [|reflexivity]]]; apply chosen_filter; intros a Hi; destruct (K a Hi) as (K0 & K1 & K2);
        rewrite Z.eqb_eq; assumption.
    + apply IH; [exact Hps|]. intros q a Hq. apply Hl. now right.
Qed.
Print Assumptions C79_match.
(** No address is in two of the lists. *)
Theorem C79_disjoint p a : pattern_ok p -> address_ok a -> whole p a -> ~ begun p a.
Proof.
  intros _ _ H (p1 & p2 & -> & Hn & H'). unfold whole in H.
  assert (L : forall (x : list component) (y : list (list Z)), Forall2 component_matches x y -> length x = length y)
    by (induction 1; cbn [length]; congruence).
  pose proof (L _ _ H) as L1. pose proof (L _ _ H') as L2. rewrite app_length in L1. destruct p2; [congruence|]. cbn [length] in L1. lia.
Qed.
Print Assumptions C79_disjoint.
(** For any texts at all, well-formed or not, and members of any kind: each text
    of the second argument is in exactly one of the three lists. *)
Theorem C79_partition pa aa more ss : Forall (fun m => a_tt m <> 115 \/ exists s, is_string m s) (members pa) ->
  strings_of (members aa) ss ->
  exists rs, fn_match (pa :: aa :: more) = Ok (0, Some rs) /\
    Forall2 (fun m r => (a_tt m <> 115 /\ r = atom_fresh) \/
      exists p (place : list Z -> Z), is_string m p /\ (forall s, In (place s) [0; 1; 2]) /\
        r = report p (filter (fun s => place s =? 0) ss) (filter (fun s => place s =? 1) ss) (filter (fun s => place s =? 2) ss)) (members pa) rs.
Proof.
  intros Hp Ha.
  destruct (each_all (match_one (members aa)) (members pa) (fun m r => (a_tt m <> 115 /\ r = atom_fresh) \/
      exists p (place : list Z -> Z), is_string m p /\ (forall s, In (place s) [0; 1; 2]) /\
        r = report p (filter (fun s => place s =? 0) ss) (filter (fun s => place s =? 1) ss) (filter (fun s => place s =? 2) ss))) as (rs & R1 & R2).
  { eapply Forall_impl; [|exact Hp]. intros m [Hm|(s & Hs)].
    - exists atom_fresh. split; [exact (proj2 (match_one_ok (members aa) ss m Ha) Hm)|]. left. now split.
    - eexists. split; [exact (proj1 (match_one_ok (members aa) ss m Ha) s Hs)|]. right. exists s, (kind s). split; [exact Hs|].
      split; [|reflexivity]. intros x. destruct (kind_cases s x) as [-> | [-> | ->]]; cbn; tauto. }
  exists rs. split; [|exact R1]. unfold fn_match. cbn [argv_at nth_error bind]. rewrite aalloc_members. cbn [bind].
  change (items pa) with (members pa). change (items aa) with (members aa).
  refine (eq_trans (f_equal (fun x => do out <- x; Ok (0, out)) R2) _). reflexivity.
Qed.
Print Assumptions C79_partition.
(** One argument is reported, but the second one is read nevertheless (finding). *)
Theorem C79_one_argument pa : fn_match [pa] = Ub OOB.
Proof. reflexivity. Qed.
Print Assumptions C79_one_argument.

Example C79_hypotheses :
  let p : pattern := [[TChar 97; TStar]; [TChar 98]] in
  pattern_ok p /\ pattern_text p = str "/a*/b" /\
  fn_match [Some [set_string atom_fresh 0 (str "/a*/b")];
            Some (map (set_string atom_fresh 0) [str "/ax/b"; str "/c"; str "/a"; str "/a/b/c"] ++ [set_int32 atom_fresh 1])] =
  Ok (0, Some [report (str "/a*/b") [str "/ax/b"] [str "/a"] [str "/c"; str "/a/b/c"]]) /\
  whole p [str "ax"; str "b"] /\ begun p [str "a"].
Proof.
  intros p. split; [|split; [reflexivity|split; [vm_compute; reflexivity|]]].
  - split; [discriminate|]. constructor; [|constructor; [|constructor]]; (constructor; [|constructor; [|constructor]] || constructor; [|constructor]); cbn; unfold plain_char; cbn; repeat split; lia.
  - split.
    + constructor; [|constructor; [|constructor]]; right.
      * apply (TSM_cons (TChar 97) _ [97] [120]); [constructor|]. apply (TSM_cons TStar _ [120] []); [constructor|constructor].
      * apply (TSM_cons (TChar 98) _ [98] []); constructor.
    + exists [[TChar 97; TStar]], [[TChar 98]]. split; [reflexivity|]. split; [discriminate|]. constructor; [|constructor]. right.
      apply (TSM_cons (TChar 97) _ [97] []); [constructor|]. apply (TSM_cons TStar _ [] []); constructor.
Qed.

(** * C80: bundle and readstring *)

(** Addresses and values in turn: one message for each address. *)
Theorem C80_messages E argv ps : zlen argv <> 1 -> alternating argv ps -> Forall (fun x => Forall copyable (snd x)) ps ->
  exists ms, fn_bundle E argv = Ok (0, Some [set_bndl atom_fresh 0 ms]) /\ Forall2 built ps ms.
Proof.
  intros Hn Ha Hc. destruct (message_loop_ok argv ps Ha Hc []) as (ms & M1 & M2). exists ms. split; [|exact M2].
  unfold fn_bundle. rewrite aalloc_1. cbn [bind]. cbn [app] in M1.
  destruct argv as [|a [|b argv]]; [|exfalso; apply Hn; reflexivity|]; rewrite M1; reflexivity.
Qed.
Print Assumptions C80_messages.
(** An address that is no string: the whole bundle is given up. *)
Theorem C80_bad_address E argv1 ps a argv2 : zlen (argv1 ++ a :: argv2) <> 1 -> Z.of_nat (length argv1) mod 2 = 0 ->
  alternating argv1 ps -> Forall (fun x => Forall copyable (snd x)) ps -> (forall m l, members a = m :: l -> a_tt m <> 115) ->
  fn_bundle E (argv1 ++ a :: argv2) = Ok (1, None).
Proof.
  intros Hn He Ha Hc Hm.
  assert (K : forall done, message_loop (argv1 ++ a :: argv2) done = Ok None).
  { clear Hn. induction Ha as [|b m l s Hb Hs|b m l s c args ps Hb Hs Ha IH]; intros done.
    - cbn [app message_loop]. rewrite aget_members by lia. change (Z.to_nat 0) with 0%nat. cbn [bind].
      destruct (members a) as [|x l]; cbn [nth_error]; [reflexivity|].
      rewrite (proj2 (Z.eqb_neq _ _) (Hm x l eq_refl)). reflexivity.
    - cbn [length] in He. discriminate He.
    - inversion Hc as [|? ? Hx Hc']; subst. cbn [snd] in Hx. destruct (copy_args_ok _ Hx) as (ys & Y1 & _). destruct Hs as (w & ->).
      cbn [app message_loop]. rewrite (aget_first _ _ _ Hb). cbn [bind a_tt Z.eqb Pos.eqb negb string_ptr].
      change (items c) with (members c). rewrite Y1. cbn [bind]. apply IH; [|exact Hc'].
      cbn [length] in He. rewrite !Nat2Z.inj_succ in He. Z.div_mod_to_equations; lia. }
  unfold fn_bundle. rewrite aalloc_1. cbn [bind].
  destruct (argv1 ++ a :: argv2) as [|x [|y l]]; [|exfalso; apply Hn; reflexivity|]; rewrite K; reflexivity.
Qed.
Print Assumptions C80_bad_address.
(** A single text is the address of a message without values. *)
Theorem C80_address E a m s : members a = [m] -> is_string m s ->
  exists o, fn_bundle E [a] = Ok (0, Some [set_bndl atom_fresh 0 [UMsg o []]]) /\ address_given s o.
Proof.
  intros Hm (w & ->). exists (set_address s). split; [|apply address_set].
  unfold fn_bundle. rewrite aalloc_1. cbn [bind]. rewrite alen_members, Hm. change (zlen _ =? 1) with true. cbv iota.
  rewrite (aget_first _ _ _ Hm). reflexivity.
Qed.
Print Assumptions C80_address.
(** A list of the bytes of a serialized bundle is that bundle. *)
Theorem C80_bytes E a hdr ms : zlen hdr = 16 -> Forall (std_message slash) ms ->
  zlen (enc_bundle hdr ms) + 4 < 2^31 ->
  Forall2 (fun m c => exists v, reads I32 m v /\ c = v mod 2^8) (members a) (enc_bundle hdr ms) ->
  exists ms', fn_bundle E [a] = Ok (0, Some [set_bndl atom_fresh 0 ms']) /\ Forall ok_msg ms' /\ raw_msgs ms' = map narrow_msg ms.
Proof.
  intros Hh Hs Hl Hb.
  assert (H4 : zlen (enc_bundle hdr ms) mod 4 = 0).
  { unfold enc_bundle. rewrite zlen_app, Hh.
    assert (H4 : zlen (concat (map enc_message ms)) mod 4 = 0)
      by (apply concat_mod4, Forall_forall; intros m _; apply enc_mod4).
    rewrite Z.add_mod, H4 by lia. reflexivity. }
  set (enc := enc_bundle hdr ms) in *.
  assert (L : zlen (members a) = zlen enc) by (unfold zlen; f_equal; clear - Hb; induction Hb; cbn [length]; congruence).
  assert (L16 : 16 <= zlen enc) by (unfold enc, enc_bundle; rewrite zlen_app, Hh; pose proof (zlen_nonneg (concat (map enc_message ms))); lia).
  destruct (C13_deserialize [] hdr ms [] Hh Hs Hl) as (ms' & D1 & D2 & D3). exists ms'. split; [|now split].
  change (zlen (@nil Z)) with 0 in D1. rewrite app_nil_l, app_nil_r in D1. fold enc in D1.
  unfold fn_bundle. rewrite aalloc_1. cbn [bind]. rewrite alen_members, L, (proj2 (Z.eqb_neq _ 1)) by lia.
  assert (N : 4 * ((zlen enc + 3) / 4) = zlen enc) by (Z.div_mod_to_equations; lia). rewrite N.
  change (items a) with (members a).
  pose proof (bytes_loop_ok (members a) enc Hb [] (repeat 0 (Z.to_nat (zlen enc))) [] 0 eq_refl) as B.
  rewrite repeat_length, !app_nil_r in B. cbn [app] in B. rewrite B by (unfold zlen in *; lia). cbn [bind].
  rewrite aput_1. unfold set_bndl_s. rewrite D1. reflexivity.
Qed.
Print Assumptions C80_bytes.
(** The bytes of the blob of a bundle (C77) give the bundle again, but the blob
    itself gives a bundle with one message too many (finding). *)
Theorem C80_blob_refuted : let ms := [UMsg (Some (str "/a")) [set_int32 atom_fresh 5]] in
  Forall ok_msg ms /\ exists blob, fn_cast_blob sample_env [Some [set_bndl atom_fresh 0 ms]] = Ok (0, blob) /\
    fn_bundle sample_env [blob] = Ok (0, Some [set_bndl atom_fresh 0 (UMsg None [] :: ms)]).
Proof.
  intros ms. split.
  - constructor; [|constructor]. cbn [ok_msg ok_atom fold_right set_int32 atom_fresh]. okdec.
  - eexists. split; [vm_compute; reflexivity|vm_compute; reflexivity].
Qed.
Print Assumptions C80_blob_refuted.
(** Other single values are refused. *)
Theorem C80_refused E a m : members a = [m] -> a_tt m <> 98 -> a_tt m <> 115 -> fn_bundle E [a] = Ok (1, Some [atom_fresh]).
Proof.
  intros Hm H1 H2. unfold fn_bundle. rewrite aalloc_1. cbn [bind]. rewrite alen_members, Hm. change (zlen _ =? 1) with true. cbv iota.
  rewrite (aget_first _ _ _ Hm). cbn [bind]. now rewrite (proj2 (Z.eqb_neq _ _) H1), (proj2 (Z.eqb_neq _ _) H2).
Qed.
Print Assumptions C80_refused.
(** readstring: a single text is copied, anything else refused; without argument
    the list that is not there is read (finding). *)
Theorem C80_readstring a m s : members a = [m] -> is_string m s -> fn_readstring [a] = Ok (0, Some [set_string atom_fresh 0 s]).
Proof.
  intros Hm (w & ->). unfold fn_readstring. rewrite alen_members, Hm. change (zlen _ >? 1) with false. cbv iota.
  rewrite (aget_first _ _ _ Hm). reflexivity.
Qed.
Print Assumptions C80_readstring.
Theorem C80_readstring_refused argv : (zlen argv > 1 \/ exists a, argv = [a] /\ (zlen (members a) <> 1 \/ exists m, members a = [m] /\ a_tt m <> 115)) ->
  fn_readstring argv = Ok (1, None).
Proof.
  intros [H|(a & -> & H)].
  - destruct argv as [|a [|b argv]]; [discriminate H..|reflexivity].
  - unfold fn_readstring. rewrite alen_members. destruct (members a) as [|m [|m' l]] eqn:Em.
    + change (zlen (@nil atom) >? 1) with false. cbv iota. rewrite aget_members by lia. rewrite Em. reflexivity.
    + change (zlen [m] >? 1) with false. cbv iota. rewrite (aget_first _ _ _ Em). cbn [bind].
      assert (Hm : a_tt m <> 115) by (destruct H as [H|(m' & [= <-] & H)]; [exfalso; apply H; reflexivity|exact H]).
      destruct m as [tg w p]. cbn [a_tt] in Hm. destruct tg as [|t|t]; try reflexivity.
      do 7 (destruct t as [t|t|]; try reflexivity). exfalso. apply Hm. reflexivity.
    + rewrite !zlen_cons. pose proof (zlen_nonneg l). rewrite Z.gtb_ltb, (proj2 (Z.ltb_lt _ _)) by lia. reflexivity.
Qed.
Print Assumptions C80_readstring_refused.
Theorem C80_readstring_no_argument : fn_readstring [] = Ub OOB.
Proof. reflexivity. Qed.
Print Assumptions C80_readstring_no_argument.

Example C80_hypotheses :
  let argv := [Some [set_string atom_fresh 0 (str "/a")]; Some [set_int32 atom_fresh 1; set_int32 atom_fresh 2];
               Some [set_string atom_fresh 0 (str "b")]] in
  alternating argv [(str "/a", [set_int32 atom_fresh 1; set_int32 atom_fresh 2]); (str "b", [])] /\
  fn_bundle sample_env argv = Ok (0, Some [set_bndl atom_fresh 0 [UMsg (Some (str "/a")) [set_int32 atom_fresh 1; set_int32 atom_fresh 2]; UMsg None []]]) /\
  fn_bundle sample_env [Some (map (set_int32 atom_fresh) (enc_bundle empty_header [M (str "/a") [VNum32 105 5]]))] =
  Ok (0, Some [set_bndl atom_fresh 0 [UMsg (Some (str "/a")) [set_int32 atom_fresh 5]]]).
Proof.
  intros argv. split; [|split; vm_compute; reflexivity].
  eapply (alternating_more _ _ _ (str "/a") (Some [set_int32 atom_fresh 1; set_int32 atom_fresh 2])); [reflexivity|now exists 0|].
  eapply alternating_last; [reflexivity|now exists 0].
Qed.
