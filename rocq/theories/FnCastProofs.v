(** Lemmas about the casts and the functions match and bundle (C76-C80). *)

From Coq Require Import String ZArith List Bool QArith Lia.
From Verif Require Import Base Text BaseProofs Bytes UtilModel UtilProofs TimetagModel MatchModel SerialModel WireModel AtomSModel FloatModel
  AtomUModel StrfmtModel FArithModel ExprModel ExprListModel StatModel FnStrModel FnNumModel FnCastModel
  AtomSpec AtomProofs RealSpec ExprSpec RoundSpec LogicSpec FnStrSpec FnNumSpec MatchSpec FnCastSpec
  FloatProofs StrfmtProps TextProps NumProps RoundProps LogicProps CompareProofs ExprListProofs ExprProps ExprListProps StatProofs FnStrProofs
  FnStrProps FnNumProofs FnNumProps MatchFacts MatchProps.
Import ListNotations.
Open Scope Z_scope.

(** * The loop over the members *)

Lemma cast_loop_ok f l rs : Forall2 (fun a r => f a atom_fresh = Ok (0, r)) l rs -> forall done,
  cast_loop f l (zlen done) (Some (done ++ repeat atom_fresh (length l))) = Ok (0, Some (done ++ rs)).
Proof.
  induction 1 as [|a r l rs Hr _ IH]; intros done; [reflexivity|].
  cbn [cast_loop length repeat]. rewrite (aget_at done atom_fresh). cbn [bind]. rewrite Hr. cbn [bind].
  rewrite (aput_at done atom_fresh). cbn [bind Z.eqb negb].
  replace (done ++ r :: repeat atom_fresh (length l)) with ((done ++ [r]) ++ repeat atom_fresh (length l))
    by (rewrite <- app_assoc; reflexivity).
  replace (zlen done + 1) with (zlen (done ++ [r])) by (rewrite zlen_app; reflexivity).
  rewrite IH. now rewrite <- app_assoc.
Qed.
Lemma cast_loop_ub f l rs a more u : Forall2 (fun a r => f a atom_fresh = Ok (0, r)) l rs -> f a atom_fresh = Ub u -> forall done,
  cast_loop f (l ++ a :: more) (zlen done) (Some (done ++ repeat atom_fresh (length (l ++ a :: more)))) = Ub u.
Proof.
  induction 1 as [|x r l rs Hr _ IH]; intros Hu done.
  - cbn [cast_loop app length repeat]. rewrite (aget_at done atom_fresh). cbn [bind]. rewrite Hu. reflexivity.
  - cbn [cast_loop app length repeat]. rewrite (aget_at done atom_fresh). cbn [bind]. rewrite Hr. cbn [bind].
    rewrite (aput_at done atom_fresh). cbn [bind Z.eqb negb].
    replace (done ++ r :: repeat atom_fresh (length (l ++ a :: more))) with ((done ++ [r]) ++ repeat atom_fresh (length (l ++ a :: more)))
      by (rewrite <- app_assoc; reflexivity).
    replace (zlen done + 1) with (zlen (done ++ [r])) by (rewrite zlen_app; reflexivity).
    now apply IH.
Qed.
Lemma cast_choose (f : cast1) l (P : atom -> atom -> Prop) : Forall (fun a => exists r, f a atom_fresh = Ok (0, r) /\ P a r) l ->
  exists rs, Forall2 (fun a r => f a atom_fresh = Ok (0, r)) l rs /\ Forall2 P l rs.
Proof.
  induction 1 as [|a l (r & Hr & Pr) _ (rs & IH1 & IH2)]; [exists []; split; constructor|].
  exists (r :: rs). split; constructor; assumption.
Qed.
Lemma cast_all (f : cast1) a more (P : atom -> atom -> Prop) :
  Forall (fun m => exists r, f m atom_fresh = Ok (0, r) /\ P m r) (members a) ->
  exists rs, fn_cast f (a :: more) = Ok (0, Some rs) /\ Forall2 P (members a) rs.
Proof.
  intros H. destruct (cast_choose f _ P H) as (rs & H1 & H2). exists rs. split; [|exact H2].
  cbn [fn_cast]. rewrite aalloc_members. cbn [bind]. exact (cast_loop_ok f _ rs H1 []).
Qed.
Lemma cast_fails (f : cast1) a more l x l' u : members a = l ++ x :: l' ->
  Forall (fun m => exists r, f m atom_fresh = Ok (0, r)) l -> f x atom_fresh = Ub u -> fn_cast f (a :: more) = Ub u.
Proof.
  intros E H Hu. destruct (cast_choose f l (fun _ _ => True)) as (rs & H1 & _).
  { eapply Forall_impl; [|exact H]. intros m (r & Hr). exists r. now split. }
  cbn [fn_cast]. rewrite aalloc_members. cbn [bind]. change (items a) with (members a). rewrite E.
  exact (cast_loop_ub f l rs x l' u H1 Hu []).
Qed.

(** * Reading numbers *)

Lemma reads_get t a v : reads t a v -> get_u t a = Ok v.
Proof.
  intros [b t' n a' r Ho Hc|a' bits q z Hb Hq Hz Hi|a' bits q z Hb Hq Hz Hi|w sp z rest Ht Hs Hr Hi|w c s r Ht Hc|w p].
  - rewrite (operand_get _ _ _ _ t Ho). f_equal. exact (converted_unique t n _ _ (converted_wrap t n) Hc).
  - pose proof (proj1 (C45_unserialized t a' bits) Hb) as R. rewrite Hq in R. destruct R as (z' & Z1 & Z2 & _).
    assert (z' = z) by exact (truncates_unique _ _ _ Z1 Hz). subst z'. exact (Z2 Hi).
  - pose proof (proj1 (proj2 (C45_unserialized t a' bits)) Hb) as R. rewrite Hq in R. destruct R as (z' & Z1 & Z2 & _).
    assert (z' = z) by exact (truncates_unique _ _ _ Z1 Hz). subst z'. exact (Z2 Hi).
  - destruct (C46_unserialized t w sp z rest Hs Hr) as (S1 & U1 & _).
    assert (K : exists r, get_u t (Atom 115 w (PStr (sp ++ numeral z ++ rest))) = Ok r /\ converted t z r).
    { destruct t; cbn [width] in Ht; try lia.
      all: first
        [apply U1; [tauto|unfold in_type, signed, width in Hi; lia]
        |assert (Em : Z.max (- 2 ^ 63) (Z.min (2 ^ 63 - 1) z) = z) by (unfold in_type, signed, width in Hi; lia);
         rewrite Em in S1; apply S1; tauto]. }
    destruct K as (r & Hr1 & Hr2). rewrite Hr1. f_equal. apply (converted_unique t z); [exact Hr2|].
    split; [exact Hi|]. rewrite Z.sub_diag. reflexivity.
  - assert (K : get_u t (Atom 115 w (PStr (c :: s))) = Ok (wrap t c)).
    { destruct t; cbn [width] in Ht; try lia; reflexivity. }
    rewrite K. f_equal. exact (converted_unique t c _ _ (converted_wrap t c) Hc).
  - destruct t; reflexivity.
Qed.
Lemma reads_in t a v : reads t a v -> in_type t v.
Proof.
  intros [b t' n a' r Ho Hc|a' bits q z Hb Hq Hz Hi|a' bits q z Hb Hq Hz Hi|w sp z rest Ht Hs Hr Hi|w c s r Ht Hc|w p]; try assumption.
  - exact (proj1 Hc).
  - exact (proj1 Hc).
  - destruct t; unfold in_type, signed, width; lia.
Qed.
Lemma out_get t a : out_of_range t a -> get_u t a = Ub Overflow.
Proof.
  intros [a' bits Hb Hn|a' bits Hb Hn].
  - pose proof (proj1 (C45_unserialized t a' bits) Hb) as R. destruct (float_value bits) as [q|] eqn:Eq; [|exact R].
    destruct R as (z & Z1 & _ & Z3). apply Z3. exact (Hn q z eq_refl Z1).
  - pose proof (proj1 (proj2 (C45_unserialized t a' bits)) Hb) as R. destruct (double_value bits) as [q|] eqn:Eq; [|exact R].
    destruct R as (z & Z1 & _ & Z3). apply Z3. exact (Hn q z eq_refl Z1).
Qed.
Lemma single_ok o a d : reads_single a d -> exists d', au_float o a = Ok d' /\ reads_single a d'.
Proof.
  intros [b t v a' d' Ho Hr|a' bits Hb|a' bits d' Hb Ha].
  - exists (float_of_int v). split.
    + destruct Ho as [t v a'' Hin|a''|a'']; [now apply au_float_set|destruct a''; reflexivity..].
    + apply (single_of_int b t v a' _ Ho). apply int_rounds. split; lia.
  - exists bits. split; [|now constructor]. exact (proj1 (C44_floats o (fun _ => 0) a' bits Hb)).
  - destruct (proj1 (C44_doubles_rounded o (fun _ => 0) a' bits Hb)) as (r & H1 & H2). exists r. split; [exact H1|]. now constructor.
Qed.
Lemma double_ok o a d : reads_double_as a d -> exists d', au_double o a = Ok d' /\ reads_double_as a d'.
Proof.
  intros [b t v a' d' Ho Hr|a' bits x d' Hb Ha Hx|a' bits Hb].
  - exists (double_of_int v). split.
    + destruct Ho as [t v a'' Hin|a''|a'']; [now apply au_double_set|destruct a''; reflexivity..].
    + apply (double_of_int_as b t v a' _ Ho). apply int_rounds. split; lia.
  - destruct (number_double_of o _ x (number_float a' bits x Hb Ha)) as (e & H1 & H2 & _).
    exists e. split; [exact H1|]. exact (double_of_single a' bits x e Hb Ha H2).
  - exists bits. split; [|now constructor]. exact (proj1 (C44_doubles o (fun _ => 0) a' bits Hb)).
Qed.

(** * Reading texts *)

Lemma numeral_3 v : -100 < v < 256 -> firstn 3 (numeral v) = numeral v.
Proof.
  intros H. apply firstn_all2.
  assert (F : forallb (fun n => (length (numeral (Z.of_nat n - 99)) <=? 3)%nat) (seq 0 355) = true) by (vm_compute; reflexivity).
  rewrite forallb_forall in F. assert (I : In (Z.to_nat (v + 99)) (seq 0 355)) by (apply in_seq; lia).
  specialize (F _ I). apply Nat.leb_le in F. rewrite Z2Nat.id in F by lia. replace (v + 99 - 99) with v in F by lia. exact F.
Qed.

Lemma cast_string_ok E a s r : reads_text_as (e_text E) a s -> cast_string E a r = Ok (0, set_string r 0 s).
Proof.
  intros [a' s' Hs Ht|t a' v Ht Hv|t a' v Ht Hv Hn Hl|w size s' rest Hz Hs].
  - assert (H98 : a_tt a' <> 98).
    { destruct Hs as [w t' Hs|t b v Hv H1 H2|b v Hv H0|b|b|tg w p Htg Hs]; try discriminate; try (destruct b; discriminate).
      - rewrite tag_set. destruct t; easy.
      - cbn [a_tt]. destruct Htg as [<-|[<-|[<-|[]]]]; discriminate. }
    unfold cast_string. rewrite (proj2 (Z.eqb_neq _ _) H98), (proj2 (Z.eqb_neq _ _) Ht),
      (proj2 (Z.eqb_neq _ _) (shown_tag _ _ _ Hs)). now rewrite (proj1 (text_shown E a' s' Hs)).
  - assert (G : au_int8 (set_u t a' v) = Ok v).
    { change (get_u I8 (set_u t a' v) = Ok v). rewrite get_set by (destruct Ht as [-> | ->]; unfold in_type, signed, width; lia).
      f_equal. apply (wrap_id I8). unfold in_type, signed, width. lia. }
    assert (L : (32 <=? v) && (v <? 127) = true) by (apply andb_true_intro; split; [apply Z.leb_le|apply Z.ltb_lt]; lia).
    unfold cast_string. rewrite tag_set, G. destruct Ht as [-> | ->]; cbn [tag_of Z.eqb Pos.eqb bind].
    + rewrite L. reflexivity.
    + rewrite (wrap_id U8 v ltac:(unfold in_type, signed, width; lia) : u8 v = v), L. reflexivity.
  - assert (L : (32 <=? v) && (v <? 127) = false).
    { destruct ((32 <=? v) && (v <? 127)) eqn:K; [|reflexivity]. apply andb_prop in K as [K1 K2].
      apply Z.leb_le in K1. apply Z.ltb_lt in K2. exfalso. lia. }
    unfold cast_string. rewrite tag_set. destruct Ht as [-> | ->]; cbn [tag_of Z.eqb Pos.eqb].
    + assert (G : au_int8 (set_u I8 a' v) = Ok v).
      { change (get_u I8 (set_u I8 a' v) = Ok v). rewrite get_set by assumption. f_equal. now apply (wrap_id I8). }
      rewrite G. cbn [bind]. rewrite L, fmt_int_numeral, numeral_3; [reflexivity|]. unfold in_type, signed, width in Hv. lia.
    + assert (G : au_int8 (set_u U8 a' v) = Ok (s8 v)).
      { change (get_u I8 (set_u U8 a' v) = Ok (wrap I8 v)). now rewrite get_set by assumption. }
      rewrite G. cbn [bind]. assert (W : u8 (s8 v) = v).
      { unfold in_type, signed, width in Hv. wr. Z.div_mod_to_equations. lia. }
      rewrite W, L, fmt_int_numeral, numeral_3; [reflexivity|]. unfold in_type, signed, width in Hv. lia.
  - unfold cast_string. cbn [a_tt Z.eqb Pos.eqb].
    pose proof (rdstr_at size s' rest Hs) as R. rewrite Hz in R. rewrite R. reflexivity.
Qed.

(** * Blobs *)

Lemma byte_loop_ok l vs : Forall2 (reads I8) l vs -> forall pre done rest i, zlen pre = 4 -> i = zlen done -> zlen rest = zlen l ->
  byte_loop l i (pre ++ done ++ rest) = Ok (pre ++ done ++ map u8 vs).
Proof.
  induction 1 as [|a v l vs Hr _ IH]; intros pre done rest i Hp -> Hl.
  - destruct rest; [reflexivity|]. rewrite zlen_cons in Hl. change (zlen (@nil atom)) with 0 in Hl. pose proof (zlen_nonneg rest). lia.
  - destruct rest as [|c rest]; [rewrite zlen_cons in Hl; change (zlen (@nil Z)) with 0 in Hl; pose proof (zlen_nonneg l); lia|].
    rewrite !zlen_cons in Hl. cbn [byte_loop]. change (au_int8 a) with (get_u I8 a). rewrite (reads_get I8 a v Hr). cbn [bind].
    replace (pre ++ done ++ c :: rest) with ((pre ++ done) ++ [c] ++ rest) by (rewrite <- app_assoc; reflexivity).
    replace (zlen done + 4) with (zlen (pre ++ done)) by (rewrite zlen_app; lia).
    rewrite write_app by reflexivity. cbn [bind map].
    replace ((pre ++ done) ++ [u8 v] ++ rest) with (pre ++ (done ++ [u8 v]) ++ rest) by (rewrite <- !app_assoc; reflexivity).
    rewrite (IH pre (done ++ [u8 v])); [|assumption|rewrite zlen_app; reflexivity|lia].
    rewrite <- !app_assoc. reflexivity.
Qed.

Lemma head32 l v : wr32 ([0; 0; 0; 0] ++ l) 0 v = Ok (be_bytes 4 v ++ l).
Proof. exact (wr32_at [] [0; 0; 0; 0] l v eq_refl). Qed.
Lemma next32 c l v : wr32 (be_bytes 4 c ++ [0; 0; 0; 0] ++ l) 4 v = Ok (be_bytes 4 c ++ be_bytes 4 v ++ l).
Proof. exact (wr32_at (be_bytes 4 c) [0; 0; 0; 0] l v eq_refl). Qed.
Lemma next64 c l v : wr64 (be_bytes 4 c ++ [0; 0; 0; 0; 0; 0; 0; 0] ++ l) 4 v = Ok (be_bytes 4 c ++ be_bytes 8 v ++ l).
Proof. exact (wr64_at (be_bytes 4 c) [0; 0; 0; 0; 0; 0; 0; 0] l v eq_refl). Qed.
Lemma next_bytes c v' v l : length v' = length v -> write (be_bytes 4 c ++ v' ++ l) 4 v = Ok (be_bytes 4 c ++ v ++ l).
Proof. exact (write_app (be_bytes 4 c) v' v l). Qed.

Lemma numbers_blob E t a v : in_type t v -> width t < 64 ->
  exists n b, au_blob_copy E (set_u t a v) = Ok (n, b) /\ holds b (be_bytes (Z.to_nat (width t / 8)) (v mod 2^width t)).
Proof.
  intros Hv Ht. destruct a as [tg w p].
  assert (G1 : forall z, u8 (w_c (store 8 w z)) = z mod 2^8) by (intros z; unfold w_c, store; wr; Z.div_mod_to_equations; lia).
  assert (G2 : forall z, u16 (w_u (store 16 w z)) = z mod 2^16) by (intros z; unfold w_u, store; wr; Z.div_mod_to_equations; lia).
  assert (G4 : forall z, u32 (w_i (store 32 w z)) = z mod 2^32) by (intros z; unfold w_i, store; wr; Z.div_mod_to_equations; lia).
  assert (K1 : forall tt q, tt = 99 \/ tt = 67 -> au_blob_copy E (Atom tt (store 8 w v) q) =
    Ok (12, be_bytes 4 1 ++ [v mod 2^8] ++ [0; 0; 0; 0; 0; 0; 0])).
  { intros tt q [-> | ->].
    all: unfold au_blob_copy; cbn [au_blob_len Z.eqb Pos.eqb].
    all: change (osc_sizeof _ _ _) with (Ok 4 : res Z); cbn [bind]; change (4 * ((s32 4 + 1 + 3) / 4) + 4) with 12;
      cbn [Z.ltb Z.compare orb]; change (repeat 0 (Z.to_nat 12)) with ([0; 0; 0; 0] ++ [0] ++ [0; 0; 0; 0; 0; 0; 0]);
      rewrite head32; cbn [bind].
    all: rewrite G1, next_bytes by reflexivity; reflexivity. }
  assert (K2 : forall tt q, tt = 117 \/ tt = 85 -> au_blob_copy E (Atom tt (store 16 w v) q) =
    Ok (12, be_bytes 4 2 ++ be_bytes 2 (v mod 2^16) ++ [0; 0; 0; 0; 0; 0])).
  { intros tt q [-> | ->].
    all: unfold au_blob_copy; cbn [au_blob_len Z.eqb Pos.eqb].
    all: change (osc_sizeof _ _ _) with (Ok 4 : res Z); cbn [bind]; change (4 * ((s32 4 + 1 + 3) / 4) + 4) with 12;
      cbn [Z.ltb Z.compare orb]; change (repeat 0 (Z.to_nat 12)) with ([0; 0; 0; 0] ++ [0; 0] ++ [0; 0; 0; 0; 0; 0]);
      rewrite head32; cbn [bind].
    all: unfold hton16; rewrite swap16_bytes, G2, next_bytes by reflexivity; reflexivity. }
  assert (K4 : forall tt q, tt = 105 \/ tt = 73 -> au_blob_copy E (Atom tt (store 32 w v) q) =
    Ok (12, be_bytes 4 4 ++ be_bytes 4 (v mod 2^32) ++ [0; 0; 0; 0])).
  { intros tt q [-> | ->].
    all: unfold au_blob_copy; cbn [au_blob_len Z.eqb Pos.eqb].
    all: change (osc_sizeof _ _ _) with (Ok 4 : res Z); cbn [bind]; change (4 * ((s32 4 + 1 + 3) / 4) + 4) with 12;
      cbn [Z.ltb Z.compare orb]; change (repeat 0 (Z.to_nat 12)) with ([0; 0; 0; 0] ++ [0; 0; 0; 0] ++ [0; 0; 0; 0]);
      rewrite head32; cbn [bind].
    all: rewrite next32, <- (be_bytes_u32 (w_i _)), G4; reflexivity. }
  destruct t; cbn [width] in Ht; try lia; cbn [width].
  all: cbn [set_u set_int8 set_uint8 set_int16 set_uint16 set_int32 set_uint32]; exists 12; eexists; split;
    [first [apply K1; tauto|apply K2; tauto|apply K4; tauto]|]; eexists; f_equal.
  all: change (be_bytes (Z.to_nat (8 / 8)) (v mod 2^8)) with [(v mod 2^8) mod 2^8]; rewrite Zmod_mod; reflexivity.
Qed.
Lemma float_blob E a bits : 0 <= bits < 2^32 ->
  exists n b, au_blob_copy E (set_float a bits) = Ok (n, b) /\ holds b (be_bytes 4 bits).
Proof.
  intros Hb. destruct a as [tg w p]. cbn [set_float].
  assert (G : w_f (store 32 w bits) = bits) by (unfold w_f, store; wr; Z.div_mod_to_equations; lia).
  unfold au_blob_copy; cbn [au_blob_len Z.eqb Pos.eqb].
  change (osc_sizeof _ _ _) with (Ok 4 : res Z); cbn [bind]; change (4 * ((s32 4 + 1 + 3) / 4) + 4) with 12.
  cbn [Z.ltb Z.compare orb]; change (repeat 0 (Z.to_nat 12)) with ([0; 0; 0; 0] ++ [0; 0; 0; 0] ++ [0; 0; 0; 0]).
  rewrite head32; cbn [bind]. rewrite next32, G. cbn [bind]. exists 12. eexists. split; [reflexivity|]. eexists. f_equal.
Qed.
Lemma double_blob E a bits : 0 <= bits < 2^64 ->
  exists n b, au_blob_copy E (set_double a bits) = Ok (n, b) /\ holds b (be_bytes 8 bits).
Proof.
  intros Hb. destruct a as [tg w p]. cbn [set_double].
  assert (G : w_d (store 64 w bits) = bits) by (unfold w_d, store; wr; Z.div_mod_to_equations; lia).
  unfold au_blob_copy; cbn [au_blob_len Z.eqb Pos.eqb].
  change (osc_sizeof _ _ _) with (Ok 8 : res Z); cbn [bind]; change (4 * ((s32 8 + 1 + 3) / 4) + 4) with 16.
  cbn [Z.ltb Z.compare orb].
  change (repeat 0 (Z.to_nat 16)) with ([0; 0; 0; 0] ++ [0; 0; 0; 0; 0; 0; 0; 0] ++ [0; 0; 0; 0]).
  rewrite head32; cbn [bind]. rewrite next64, G. cbn [bind]. exists 16. eexists. split; [reflexivity|]. eexists. f_equal.
Qed.
Lemma same_blob E w data pad : 0 < zlen pad <= 4 -> (zlen data + zlen pad) mod 4 = 0 -> zlen data + 8 < 2^31 ->
  au_blob_copy E (Atom 98 w (PBlob (be_bytes 4 (zlen data) ++ data ++ pad))) =
  Ok (zlen data + zlen pad + 4, be_bytes 4 (zlen data) ++ data ++ pad).
Proof.
  intros Hp Hm Hd. pose proof (zlen_nonneg data) as Hz. unfold au_blob_copy. cbn [au_blob_len Z.eqb Pos.eqb].
  assert (R : rd32 (be_bytes 4 (zlen data) ++ data ++ pad) 0 = Ok (zlen data)).
  { refine (eq_trans (rd32_be [] (zlen data) (data ++ pad)) _). f_equal. apply Z.mod_small. lia. }
  rewrite R. cbn [bind]. rewrite (wrap_id I32 (zlen data) ltac:(unfold in_type, signed, width; lia) : s32 (zlen data) = zlen data).
  assert (B : 4 * ((zlen data + 1 + 3) / 4) + 4 = zlen data + zlen pad + 4) by (Z.div_mod_to_equations; lia).
  rewrite B, (proj2 (Z.ltb_ge _ _)) by lia.
  set (b := be_bytes 4 (zlen data) ++ data ++ pad).
  assert (L : zlen data + zlen pad + 4 = zlen b) by (unfold b; rewrite !zlen_app, zlen_be; lia).
  pose proof (slice_app [] b []) as S'. rewrite app_nil_l, app_nil_r in S'. change (zlen (@nil Z)) with 0 in S'.
  rewrite L, S'. reflexivity.
Qed.

(** * The casts by type *)

Definition int_cast (t : ity) : cast1 :=
  match t with
  | I8 => cast_int8 | I16 => cast_int16 | I32 => cast_int32 | I64 => cast_int64
  | U8 => cast_uint8 | U16 => cast_uint16 | U32 => cast_uint32 | U64 => cast_uint64
  end.
Lemma int_cast_eq t a r : int_cast t a r = do v <- get_u t a; Ok (0, set_u t r v).
Proof. destruct t; reflexivity. Qed.
Lemma cast_as_int F E t : cast_as F E (tag_of t) = int_cast t.
Proof. destruct t; reflexivity. Qed.
(** Which of the rounded numbers is chosen is left open by [reads_single] only
    where there are several. *)
Lemma cast_as_ok F E tt a r : typed (e_text E) tt a r -> exists r', cast_as F E tt a atom_fresh = Ok (0, r') /\ typed (e_text E) tt a r'.
Proof.
  intros [t a' v H|a' d H|a' d H|a' s H|t a' v b Hv Ht H|a' bits b Hb H|a' bits b Hb H|w size data pad -> Hp Hm Hd|tt' a' H].
  - exists (set_u t atom_fresh v). split; [|now constructor]. now rewrite cast_as_int, int_cast_eq, (reads_get t a' v H).
  - destruct (single_ok (s_float F) a' d H) as (d' & H1 & H2). exists (set_float atom_fresh d'). split; [|now constructor].
    change (cast_as F E 102 a' atom_fresh) with (do v <- au_float (s_float F) a'; Ok (0, set_float atom_fresh v)). now rewrite H1.
  - destruct (double_ok (e_double E) a' d H) as (d' & H1 & H2). exists (set_double atom_fresh d'). split; [|now constructor].
    change (cast_as F E 100 a' atom_fresh) with (do v <- au_double (e_double E) a'; Ok (0, set_double atom_fresh v)). now rewrite H1.
  - exists (set_string atom_fresh 0 s). split; [|now constructor]. exact (cast_string_ok E a' s atom_fresh H).
  - destruct (numbers_blob E t a' v Hv Ht) as (n & b' & H1 & H2). exists (Atom 98 0 (PBlob b')). split; [|now constructor].
    change (cast_as F E 98) with (cast_blob E). unfold cast_blob. now rewrite H1.
  - destruct (float_blob E a' bits Hb) as (n & b' & H1 & H2). exists (Atom 98 0 (PBlob b')). split; [|now constructor].
    change (cast_as F E 98) with (cast_blob E). unfold cast_blob. now rewrite H1.
  - destruct (double_blob E a' bits Hb) as (n & b' & H1 & H2). exists (Atom 98 0 (PBlob b')). split; [|now constructor].
    change (cast_as F E 98) with (cast_blob E). unfold cast_blob. now rewrite H1.
  - exists (Atom 98 0 (PBlob (be_bytes 4 (zlen data) ++ data ++ pad))). split; [|now constructor].
    change (cast_as F E 98) with (cast_blob E). unfold cast_blob. now rewrite (same_blob E w data pad Hp Hm Hd).
  - exists atom_fresh. split; [|now constructor]. unfold cast_as.
    assert (K : forall k, In k [99; 67; 117; 85; 105; 73; 104; 72; 102; 100; 115; 98] -> (tt' =? k) = false).
    { intros k Hk. apply Z.eqb_neq. intros ->. exact (H Hk). }
    now rewrite !K by (cbn; tauto).
Qed.
Lemma dynamic_ok F E tts l tys : Forall2 (fun a ty => exists r, typed (e_text E) ty a r) l tys ->
  forall done, (forall k ty, nth_error tys k = Some ty -> tts (zlen done + Z.of_nat k) = Ok ty) ->
  exists rs, dynamic_loop F E tts l (zlen done) (Some (done ++ repeat atom_fresh (length l))) = Ok (Some (done ++ rs)) /\
    Forall2 (fun x r => typed (e_text E) (snd x) (fst x) r) (combine l tys) rs.
Proof.
  induction 1 as [|a ty l tys (r0 & Hr) _ IH]; intros done Hk.
  - exists []. split; [cbn [dynamic_loop length repeat]; reflexivity|constructor].
  - cbn [dynamic_loop length repeat]. pose proof (Hk 0%nat ty eq_refl) as Ht. change (Z.of_nat 0) with 0 in Ht. rewrite Z.add_0_r in Ht.
    rewrite Ht. cbn [bind].
    destruct (cast_as_ok F E ty a r0 Hr) as (r & Hc & Hty).
    rewrite (aput_at done atom_fresh (repeat atom_fresh (length l))), Hc. cbn [bind].
    replace (done ++ r :: repeat atom_fresh (length l)) with ((done ++ [r]) ++ repeat atom_fresh (length l))
      by (rewrite <- app_assoc; reflexivity).
    replace (zlen done + 1) with (zlen (done ++ [r])) by (rewrite zlen_app; reflexivity).
    destruct (IH (done ++ [r])) as (rs & H1 & H2).
    + intros k ty' Hn. pose proof (Hk (S k) ty' Hn) as Q. rewrite zlen_app. change (zlen [r]) with 1.
      replace (zlen done + 1 + Z.of_nat k) with (zlen done + Z.of_nat (S k)) by lia. exact Q.
    + exists (r :: rs). split; [rewrite H1, <- app_assoc; reflexivity|]. cbn [combine]. constructor; [exact Hty|exact H2].
Qed.

(** * Matching *)

(** 0: a full, 1: a partial match, 2: none. *)
Definition kind (p s : list Z) : Z :=
  match osc_match p s with
  | Ok r => if Z.odd (code r) && Z.odd (code r / 2) then 0
            else if (poff r >? 0) && (match rdc p (poff r) with Ok c => c =? 47 | _ => false end) then 1 else 2
  | _ => 2
  end.
Lemma kind_cases p s : kind p s = 0 \/ kind p s = 1 \/ kind p s = 2.
Proof. unfold kind. destruct (osc_match p s); [|tauto..]. destruct (_ && _); [tauto|]. destruct (_ && _); tauto. Qed.
Definition flag (p : list Z) (a : atom) : bool :=
  match a with Atom 115 _ (PStr s) => kind p s <? 2 | _ => false end.
Lemma flag_other p a : a_tt a <> 115 -> flag p a = false.
Proof.
  destruct a as [tg w q]. cbn [a_tt]. intros H. unfold flag. destruct tg as [|t|t]; try reflexivity.
  do 7 (destruct t as [t|t|]; try reflexivity). exfalso. apply H. reflexivity.
Qed.

Lemma match_loop_ok p l ss : strings_of l ss -> forall full partial ms,
  match_loop p l full partial ms =
  Ok (full ++ texts (filter (fun s => kind p s =? 0) ss), partial ++ texts (filter (fun s => kind p s =? 1) ss), ms ++ map (flag p) l).
Proof.
  induction 1 as [|a s l ss (w & ->) _ IH|a l ss Ha _ IH]; intros full partial ms.
  - cbn [match_loop filter texts map]. now rewrite !app_nil_r.
  - cbn [match_loop a_tt Z.eqb Pos.eqb negb string_ptr bind].
    destruct (C01_match_total_and_in_bounds p s) as (r & Hr & _ & Hp & _). rewrite Hr. cbn [bind].
    assert (Hf : flag p (Atom 115 w (PStr s)) = (kind p s <? 2)) by reflexivity.
    assert (Hk : kind p s = if Z.odd (code r) && Z.odd (code r / 2) then 0
      else if (poff r >? 0) && (match rdc p (poff r) with Ok c => c =? 47 | _ => false end) then 1 else 2) by (unfold kind; now rewrite Hr).
    cbn [map filter]. rewrite Hf, Hk. clear Hk Hf.
    destruct (Z.odd (code r) && Z.odd (code r / 2)).
    + cbn [Z.eqb Z.ltb Z.compare Pos.compare]. rewrite IH. cbn [texts map]. rewrite <- !app_assoc. reflexivity.
    + destruct (poff r >? 0) eqn:Eo.
      * apply Z.gtb_lt in Eo. unfold rdc. destruct (rd_ok (p ++ [0]) (poff r)) as (c & Hc & _);
          [rewrite zlen_app; change (zlen [0]) with 1; lia|]. rewrite Hc. cbn [bind andb].
        destruct (c =? 47); cbn [Z.eqb Pos.eqb Z.ltb Z.compare Pos.compare Pos.compare_cont]; rewrite IH; cbn [texts map];
          rewrite <- !app_assoc; reflexivity.
      * cbn [bind andb Z.eqb Pos.eqb Z.ltb Z.compare Pos.compare Pos.compare_cont]. rewrite IH. rewrite <- !app_assoc. reflexivity.
  - cbn [match_loop]. rewrite (proj2 (Z.eqb_neq _ _) Ha). cbn [negb]. rewrite IH. cbn [map]. rewrite (flag_other p a Ha).
    now rewrite <- app_assoc.
Qed.
Lemma unmatched_ok p l ss : strings_of l ss -> forall un,
  unmatched_loop l (map (flag p) l) un = Ok (un ++ texts (filter (fun s => kind p s =? 2) ss)).
Proof.
  induction 1 as [|a s l ss (w & ->) _ IH|a l ss Ha _ IH]; intros un.
  - cbn [unmatched_loop filter texts map]. now rewrite app_nil_r.
  - cbn [map unmatched_loop filter]. change (flag p (Atom 115 w (PStr s))) with (kind p s <? 2).
    cbn [a_tt Z.eqb Pos.eqb negb string_ptr bind].
    destruct (kind_cases p s) as [-> | [-> | ->]]; cbn [Z.eqb Pos.eqb Z.ltb Z.compare Pos.compare Pos.compare_cont]; rewrite IH;
      [reflexivity..|]. cbn [texts map]. now rewrite <- app_assoc.
  - cbn [map unmatched_loop]. rewrite (flag_other p a Ha), (proj2 (Z.eqb_neq _ _) Ha). cbn [negb]. apply IH.
Qed.
Lemma match_one_ok addresses ss p : strings_of addresses ss ->
  (forall s, is_string p s -> match_one addresses p atom_fresh =
     Ok (report s (filter (fun a => kind s a =? 0) ss) (filter (fun a => kind s a =? 1) ss) (filter (fun a => kind s a =? 2) ss))) /\
  (a_tt p <> 115 -> match_one addresses p atom_fresh = Ok atom_fresh).
Proof.
  intros H. split.
  - intros s (w & ->). unfold match_one. cbn [a_tt Z.eqb Pos.eqb negb string_ptr bind].
    rewrite (match_loop_ok s addresses ss H). cbn [bind app]. rewrite (unmatched_ok s addresses ss H). reflexivity.
  - intros Hp. unfold match_one. rewrite (proj2 (Z.eqb_neq _ _) Hp). reflexivity.
Qed.

Lemma chosen_filter {A} (P : A -> Prop) f l : (forall x, In x l -> (f x = true <-> P x)) -> chosen P l (filter f l).
Proof.
  induction l as [|x l IH]; intros H; [constructor|]. cbn [filter].
  assert (H' : forall y, In y l -> (f y = true <-> P y)) by (intros y Hy; apply H; now right).
  pose proof (H x (or_introl eq_refl)) as Hx. destruct (f x).
  - constructor; [tauto|now apply IH].
  - constructor; [intuition discriminate|now apply IH].
Qed.
Lemma kind_language p a : pattern_ok p -> address_ok a -> within_backtrack_limit p a ->
  (kind (pattern_text p) (address_text a) = 0 <-> whole p a) /\
  (kind (pattern_text p) (address_text a) = 1 <-> begun p a) /\
  (kind (pattern_text p) (address_text a) = 2 <-> ~ whole p a /\ ~ begun p a).
Proof.
  intros Hp Ha Hl. destruct (C02_match_decides_language p a Hp Ha Hl) as (r & Hr & H3 & H1 & H2 & Hc).
  fold (whole p a) in H3. fold (begun p a) in H1.
  assert (K : kind (pattern_text p) (address_text a) = if code r =? 3 then 0 else if code r =? 1 then 1 else 2).
  { unfold kind. rewrite Hr. destruct Hc as [C|[C|[C|C]]]; rewrite C; cbn [Z.eqb Pos.eqb].
    - change (Z.odd 0 && Z.odd (0 / 2)) with false. cbv iota.
      destruct (osc_match_offsets _ _ _ Hr) as (_ & _ & _ & H0). destruct H0 as [H0 _]; [rewrite C; discriminate..|].
      rewrite H0. reflexivity.
    - change (Z.odd 1 && Z.odd (1 / 2)) with false. cbv iota.
      destruct (C03_match_offsets_are_component_boundaries p a r Hp Ha Hr (or_introl C)) as (p1 & p2 & a1 & a2 & -> & -> & F & O1 & _ & P2 & A2).
      assert (a2 = []) by (apply A2; tauto). subst a2. rewrite app_nil_r in *.
      assert (Hp2 : p2 <> []) by (intros E; apply P2 in E; rewrite C in E; lia).
      assert (Hp1 : p1 <> []) by (intros ->; inversion F; subst; apply (proj1 Ha); reflexivity).
      destruct p1 as [|x p1]; [congruence|]. destruct p2 as [|y p2]; [congruence|].
      unfold rdc. rewrite O1. unfold pattern_text. rewrite map_app, concat_app, <- app_assoc. cbn [map concat].
      set (u := concat (map (fun ts => 47 :: component_text ts) p2)).
      change (((47 :: component_text y) ++ u) ++ [0]) with (47 :: (component_text y ++ u) ++ [0]).
      rewrite (rd_at _ 47). rewrite zlen_app, zlen_cons.
      pose proof (zlen_nonneg (component_text x)). pose proof (zlen_nonneg (concat (map (fun ts => 47 :: component_text ts) p1))).
      rewrite Z.gtb_ltb, (proj2 (Z.ltb_lt _ _)) by lia. reflexivity.
    - change (Z.odd 2 && Z.odd (2 / 2)) with false. cbv iota.
      destruct (C03_match_offsets_are_component_boundaries p a r Hp Ha Hr (or_intror (or_introl C))) as (p1 & p2 & a1 & a2 & -> & -> & F & O1 & _ & P2 & A2).
      assert (p2 = []) by (apply P2; tauto). subst p2. rewrite app_nil_r in *.
      unfold rdc. rewrite O1, (rd_at _ 0). now rewrite andb_false_r.
    - reflexivity. }
  rewrite K. destruct Hc as [C|[C|[C|C]]]; rewrite C in *; cbn [Z.eqb Pos.eqb]; intuition (try discriminate; try lia).
Qed.

(** * Bundles *)

Lemma address_set s : address_given s (set_address s).
Proof.
  unfold set_address. destruct s as [|c s].
  - right. split; [discriminate|reflexivity].
  - cbn [hd]. destruct (c =? 47) eqn:E; [apply Z.eqb_eq in E; subst c|apply Z.eqb_neq in E].
    + left. exists s. now split.
    + right. split; [intros s' [= -> _]; congruence|reflexivity].
Qed.
Lemma copy_args_ok l : Forall copyable l -> exists ys, copy_args l = Ok ys /\ Forall2 copy_of l ys.
Proof.
  induction 1 as [|a l Ha _ (ys & IH1 & IH2)]; [exists []; split; [reflexivity|constructor]|].
  destruct (copy_ok a Ha) as (y & H1 & H2). exists (y :: ys). split; [|now constructor].
  cbn [copy_args]. rewrite H1. cbn [bind]. rewrite IH1. reflexivity.
Qed.
Lemma aget_first a m l : members a = m :: l -> aget a 0 = Ok (Some m).
Proof. intros H. rewrite aget_members by lia. now rewrite H. Qed.
Lemma message_loop_ok args ps : alternating args ps -> Forall (fun x => Forall copyable (snd x)) ps -> forall done,
  exists ms, message_loop args done = Ok (Some (done ++ ms)) /\ Forall2 built ps ms.
Proof.
  induction 1 as [|a m l s Hm Hs|a m l s b args ps Hm Hs _ IH]; intros Hc done.
  - exists []. split; [cbn [message_loop]; now rewrite app_nil_r|constructor].
  - exists [UMsg (set_address s) []]. destruct Hs as (w & ->). split.
    + cbn [message_loop]. rewrite (aget_first _ _ _ Hm). reflexivity.
    + constructor; [|constructor]. exists (set_address s), []. split; [reflexivity|]. split; [apply address_set|constructor].
  - inversion Hc as [|? ? Hb Hc']; subst. cbn [snd] in Hb. destruct (copy_args_ok _ Hb) as (ys & Y1 & Y2). destruct Hs as (w & ->).
    destruct (IH Hc' (done ++ [UMsg (set_address s) ys])) as (ms & M1 & M2). exists (UMsg (set_address s) ys :: ms). split.
    + cbn [message_loop]. rewrite (aget_first _ _ _ Hm). cbn [bind a_tt Z.eqb Pos.eqb negb string_ptr].
      change (items b) with (members b). rewrite Y1. cbn [bind]. rewrite M1. now rewrite <- app_assoc.
    + constructor; [|exact M2]. exists (set_address s), ys. split; [reflexivity|]. split; [apply address_set|exact Y2].
Qed.
Lemma bytes_loop_ok l cs : Forall2 (fun a c => exists v, reads I32 a v /\ c = v mod 2^8) l cs -> forall done old rest i,
  i = zlen done -> length old = length l -> bytes_loop l i (done ++ old ++ rest) = Ok (done ++ cs ++ rest).
Proof.
  induction 1 as [|a c l cs (v & Hr & ->) _ IH]; intros done old rest i -> Hl.
  - destruct old; [reflexivity|discriminate].
  - destruct old as [|o old]; [discriminate|]. injection Hl as Hl. cbn [bytes_loop].
    change (au_int32 a) with (get_u I32 a). rewrite (reads_get I32 a v Hr). cbn [bind].
    change ((o :: old) ++ rest) with ([o] ++ old ++ rest). rewrite (write_app done [o] [u8 v]) by reflexivity. cbn [bind].
    replace (done ++ [u8 v] ++ old ++ rest) with ((done ++ [u8 v]) ++ old ++ rest) by (rewrite <- app_assoc; reflexivity).
    rewrite (IH (done ++ [u8 v]) old rest); [|rewrite zlen_app; reflexivity|exact Hl].
    rewrite <- !app_assoc. reflexivity.
Qed.
