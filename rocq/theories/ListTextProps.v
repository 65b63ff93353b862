(** C100: the members of a list as one text. *)

From Coq Require Import String ZArith List Bool Lia.
From Verif Require Import Base Text BaseProofs Bytes UtilModel UtilProofs SerialModel WireModel AtomSModel FloatModel AtomUModel
  StrfmtModel FArithModel ExprModel ExprListModel StatModel FnStrModel AtomSpec AtomProofs RealSpec ExprSpec FnStrSpec
  StrfmtProps TextProps LogicProps CompareProofs ExprListProofs ExprProps ExprListProps StatProofs FnStrProofs
  ListTextModel ListTextSpec.
Import ListNotations.
Open Scope Z_scope.

(** * One text *)

Lemma zlen_firstn' {A} k (l : list A) : 0 <= k <= zlen l -> zlen (firstn (Z.to_nat k) l) = k.
Proof. unfold zlen. rewrite firstn_length. lia. Qed.

Lemma print_into b s (k : Z) : zlen s <= zlen b ->
  exists b', (do b <- snprintf b 0 (zlen b) s; Ok (b, k)) = Ok (b', k) /\ zlen b' = zlen b /\
    (zlen s < zlen b -> exists rest, b' = s ++ rest).
Proof.
  intros H. pose proof (zlen_nonneg s). destruct (Z.eq_dec (zlen b) 0) as [Z0|Z0].
  - exists b. unfold snprintf. rewrite Z0. cbn [Z.eqb bind]. repeat split; auto; lia.
  - rewrite snprintf_front by lia. eexists. split; [cbn [bind]; reflexivity|]. split.
    + unfold zlen in *. rewrite !app_length, skipn_length, firstn_length. cbn [length]. lia.
    + intros L. rewrite firstn_all2 by (unfold zlen in *; lia). eexists. reflexivity.
Qed.

Lemma text_into other junk a s b : shown other a s -> zlen s <= zlen b ->
  au_string_len other a = Ok (zlen s) /\
  exists b', au_string other junk a (zlen b) (Some b) = Ok (b', zlen s) /\ zlen b' = zlen b /\
    (zlen s < zlen b -> exists rest, b' = s ++ rest).
Proof.
  intros H Hl. destruct H as [w s Hs|t a v Hv H1 H2|a v Hv H0|a|a|tg w p Htg Hs].
  - split; [reflexivity|]. unfold au_string. cbn [au_string_len Z.eqb Pos.eqb bind out_buffer]. unfold strncpy.
    assert (Lw : zlen (firstn (Z.to_nat (zlen b)) (s ++ repeat 0 (Z.to_nat (zlen b)))) = zlen b).
    { unfold zlen. rewrite firstn_length, app_length, repeat_length. lia. }
    rewrite write_front by lia. cbn [bind]. eexists. split; [reflexivity|]. split.
    + unfold zlen in *. rewrite app_length, skipn_length. lia.
    + intros L. eexists. rewrite firstn_app. rewrite (firstn_all2 s) by (unfold zlen in *; lia). rewrite <- app_assoc. reflexivity.
  - assert (T : text t v = numeral v) by (destruct t; easy).
    destruct (C49_integers other junk t a v Hv (or_introl H2)) as (L & _). rewrite T in L. split; [exact L|].
    rewrite string_int, L by exact Hv. cbn [bind out_buffer]. rewrite T. now apply print_into.
  - assert (N : I8 <> U8 \/ 100 <= v) by (left; discriminate).
    destruct (C49_integers other junk I8 a v Hv N) as (L & _). split; [exact L|].
    rewrite string_int, L by exact Hv. cbn [bind out_buffer]. now apply print_into.
  - destruct a as [tg w q]. split; [reflexivity|]. unfold au_string. cbn [set_true au_string_len Z.eqb Pos.eqb bind out_buffer].
    now apply (print_into b (str "true")).
  - destruct a as [tg w q]. split; [reflexivity|]. unfold au_string. cbn [set_false au_string_len Z.eqb Pos.eqb bind out_buffer].
    now apply (print_into b (str "false")).
  - split; [destruct Htg as [<-|[<-|[<-|[]]]]; reflexivity|]. unfold au_string.
    destruct Htg as [<-|[<-|[<-|[]]]]; cbn [au_string_len Z.eqb Pos.eqb bind out_buffer]; now apply print_into.
Qed.

(** * The loop *)

Definition sep_text (sep : option (list Z)) : list Z := match sep with Some s => s | None => [] end.

Lemma new_bytes_len junk n : 0 <= n -> zlen (new_bytes junk n) = n.
Proof. intros H. unfold new_bytes, zlen. rewrite firstn_length, app_length, repeat_length. lia. Qed.

Lemma make_room_ok junk buf pos t l : 0 <= pos <= zlen buf -> zlen t * (1 + zlen l) + 1 < 2^31 ->
  exists buf', make_room junk buf (zlen buf) pos (zlen t) (1 + zlen l) = (buf', zlen buf') /\
    zlen buf' = grown (zlen buf) pos t l /\ pos + zlen t <= zlen buf' /\ exists x, buf' = buf ++ x.
Proof.
  intros Hp Hb. unfold make_room, grown. pose proof (zlen_nonneg t). pose proof (zlen_nonneg l).
  assert (0 <= zlen t * (1 + zlen l)) by nia. assert (zlen t <= zlen t * (1 + zlen l)) by nia.
  destruct (zlen buf - pos <? zlen t) eqn:E.
  - rewrite s32_small by lia. cbv zeta. eexists. split.
    + f_equal. rewrite zlen_app, new_bytes_len by lia. reflexivity.
    + rewrite zlen_app, new_bytes_len by lia. repeat split; try lia. eexists. reflexivity.
  - apply Z.ltb_ge in E. exists buf. repeat split; try lia. exists []. now rewrite app_nil_r.
Qed.

Lemma write_mid l1 b2 v : zlen v <= zlen b2 -> write (l1 ++ b2) (zlen l1) v = Ok (l1 ++ v ++ skipn (length v) b2).
Proof.
  intros H. rewrite <- (firstn_skipn (length v) b2) at 1. apply write_app. unfold zlen in *. rewrite firstn_length. lia.
Qed.
Lemma write_out l i v : zlen l < i + zlen v -> write l i v = Ub OOB.
Proof. intros H. unfold write. rewrite (proj2 (Z.ltb_lt (zlen l) (i + zlen v))) by lia. now rewrite orb_true_r. Qed.

Lemma split_at l1 (b2 : bytes) : firstn (Z.to_nat (zlen l1)) (l1 ++ b2) = l1 /\ skipn (Z.to_nat (zlen l1)) (l1 ++ b2) = b2.
Proof.
  unfold zlen. rewrite Nat2Z.id. split; [rewrite firstn_app, firstn_all2, Nat.sub_diag by lia; cbn; apply app_nil_r|].
  rewrite skipn_app, skipn_all2, Nat.sub_diag by lia. reflexivity.
Qed.

(** One turn. *)
Lemma text_at_ok other junk l1 b2 a t : shown other a t -> zlen t <= zlen b2 -> zlen (l1 ++ b2) < 2^31 ->
  exists b', text_at_pos other junk (l1 ++ b2) (zlen (l1 ++ b2)) (zlen l1) a = Ok (l1 ++ b', zlen l1 + zlen t) /\
    zlen b' = zlen b2 /\ (zlen t < zlen b2 -> exists rest, b' = t ++ rest).
Proof.
  intros H Hl Hb. destruct (text_into other junk a t b2 H Hl) as (_ & b' & E & Lb & Hr).
  exists b'. split; [|now split]. unfold text_at_pos. rewrite zlen_app in *. pose proof (zlen_nonneg l1). pose proof (zlen_nonneg b2).
  replace (zlen l1 + zlen b2 - zlen l1) with (zlen b2) by lia. rewrite (proj2 (Z.ltb_ge _ _)) by lia.
  rewrite (proj2 (Z.leb_gt _ _)) by lia. cbn [orb]. rewrite (proj2 (Z.ltb_ge _ _)) by lia.
  destruct (split_at l1 b2) as [-> ->]. rewrite E. reflexivity.
Qed.

Section Loop.
Context (other : atom -> list Z) (junk : bytes) (sep : option (list Z)) (M N : Z).
Context (HM : 0 <= M) (HN : 0 <= N).

(** Enough room: the text, and the block as large as said. *)
Lemma loop_ok l ts : Forall2 (shown other) l ts -> Forall (fun t => zlen t <= M) ts -> zlen ts <= N ->
  forall l1 b2, zlen (l1 ++ b2) + zlen ts * (N * M + 1) < 2^31 ->
  enough (sep_text sep) (zlen (l1 ++ b2)) (zlen l1) ts = true ->
  exists b3, list_text_loop other junk sep l (l1 ++ b2) (zlen (l1 ++ b2)) (zlen l1) =
    Ok (l1 ++ joined (sep_text sep) ts ++ b3, zlen (l1 ++ joined (sep_text sep) ts)) /\ 0 < zlen b3.
Proof.
  intros H. induction H as [|a t l ts Ha Hl IH]; intros HF HL l1 b2 HB HE; cbn [list_text_loop enough] in *.
  - exists b2. split; [now rewrite app_nil_r|]. rewrite zlen_app in HE. apply Z.ltb_lt in HE. lia.
  - apply Forall_cons_iff in HF. destruct HF as [Ht HF]. rewrite zlen_cons in HL, HB.
    apply andb_prop in HE. destruct HE as [E1 E2]. apply Z.ltb_lt in E1.
    assert (K := Forall2_len _ _ _ Hl). 
    pose proof (zlen_nonneg t). pose proof (zlen_nonneg ts). pose proof (zlen_nonneg l1). pose proof (zlen_nonneg b2).
    pose proof (zlen_nonneg (sep_text sep)).
    assert (Q : zlen t * (1 + zlen ts) <= N * M) by nia.
    rewrite zlen_cons. replace (zlen l) with (zlen ts) by (unfold zlen; lia).
    assert (Hp : 0 <= zlen l1 <= zlen (l1 ++ b2)) by (rewrite zlen_app; lia).
    assert (Q0 : 0 <= N * M) by nia. assert (Q1 : 0 <= zlen ts * (N * M + 1)) by nia.
    pose proof (zlen_nonneg (l1 ++ b2)).
    destruct (make_room_ok junk (l1 ++ b2) (zlen l1) t ts Hp) as (buf & Em & Lm & Rm & x & ->); [nia|].
    rewrite <- app_assoc in *.
    assert (Lb : zlen t <= zlen (b2 ++ x)) by (rewrite zlen_app in Rm; lia).
    assert (Hg : zlen (l1 ++ b2 ++ x) <= zlen (l1 ++ b2) + (N * M + 1)).
    { rewrite Lm. unfold grown. destruct (_ <? _); lia. }
    destruct (text_into other junk a t (b2 ++ x) Ha Lb) as [-> _]. cbn [bind].
    replace (zlen ts + 1) with (1 + zlen ts) by lia. rewrite Em.
    destruct (text_at_ok other junk l1 (b2 ++ x) a t Ha Lb) as (b' & -> & Lb' & Hr); [nia|]. cbn [bind].
    rewrite <- Lm in E1, E2.
    destruct Hr as (rest & ->); [rewrite zlen_app in E1; lia|].
    assert (P : exists b4, put_sep (l1 ++ t ++ rest) (zlen l1 + zlen t) sep =
       Ok ((l1 ++ t ++ sep_text sep) ++ b4, zlen (l1 ++ t ++ sep_text sep)) /\
       zlen ((l1 ++ t ++ sep_text sep) ++ b4) = zlen (l1 ++ b2 ++ x)).
    { rewrite zlen_app in Lb', E1. rewrite !zlen_app in *.
      destruct sep as [s|]; cbn [put_sep sep_text] in *.
      - rewrite app_assoc, <- zlen_app. rewrite write_mid.
        + cbn [bind]. eexists. rewrite <- !app_assoc. cbn [app]. split; [rewrite !zlen_app; do 2 f_equal; try lia; reflexivity|].
          unfold zlen in *. rewrite ?app_length in *. cbn [length] in *. rewrite ?skipn_length, ?app_length in *. cbn [length] in *. lia.
        + rewrite zlen_app. change (zlen [0]) with 1. lia.
      - exists rest. change (zlen []) with 0 in *. rewrite app_nil_r, <- app_assoc. rewrite Z.add_0_r in *. split; [reflexivity|].
        rewrite !zlen_app. lia. }
    destruct P as (b4 & -> & L4). cbn [bind].
    rewrite <- L4 in *.
    destruct (IH HF ltac:(lia) (l1 ++ t ++ sep_text sep) b4) as (b3 & -> & Hz).
    + lia.
    + rewrite !(zlen_app _ (t ++ _)), (zlen_app t) in *. rewrite Z.add_assoc in *. exact E2.
    + exists b3. split; [|exact Hz]. unfold joined. cbn [map concat]. fold (joined (sep_text sep) ts).
      rewrite <- !app_assoc. reflexivity.
Qed.

(** Not enough: the write of a separator, or of the terminator, goes past the
    end. *)
Lemma loop_out l ts s : sep = Some s -> Forall2 (shown other) l ts -> Forall (fun t => zlen t <= M) ts -> zlen ts <= N ->
  forall l1 b2, zlen (l1 ++ b2) + zlen ts * (N * M + 1) < 2^31 ->
  enough s (zlen (l1 ++ b2)) (zlen l1) ts = false ->
  (do ' (buf, pos) <- list_text_loop other junk sep l (l1 ++ b2) (zlen (l1 ++ b2)) (zlen l1);
   do buf <- write buf pos [0]; Ok (buf, pos + 1)) = Ub OOB.
Proof.
  intros Es H. induction H as [|a t l ts Ha Hl IH]; intros HF HL l1 b2 HB HE; cbn [list_text_loop enough] in *.
  - apply Z.ltb_ge in HE. cbn [bind]. rewrite write_out by (change (zlen [0]) with 1; lia). reflexivity.
  - apply Forall_cons_iff in HF. destruct HF as [Ht HF]. rewrite zlen_cons in HL, HB.
    assert (K := Forall2_len _ _ _ Hl). 
    pose proof (zlen_nonneg t). pose proof (zlen_nonneg ts). pose proof (zlen_nonneg l1). pose proof (zlen_nonneg b2).
    pose proof (zlen_nonneg s).
    assert (Q : zlen t * (1 + zlen ts) <= N * M) by nia.
    rewrite zlen_cons. replace (zlen l) with (zlen ts) by (unfold zlen; lia).
    assert (Hp : 0 <= zlen l1 <= zlen (l1 ++ b2)) by (rewrite zlen_app; lia).
    assert (Q0 : 0 <= N * M) by nia. assert (Q1 : 0 <= zlen ts * (N * M + 1)) by nia.
    pose proof (zlen_nonneg (l1 ++ b2)).
    destruct (make_room_ok junk (l1 ++ b2) (zlen l1) t ts Hp) as (buf & Em & Lm & Rm & x & ->); [nia|].
    rewrite <- app_assoc in *.
    assert (Lb : zlen t <= zlen (b2 ++ x)) by (rewrite zlen_app in Rm; lia).
    assert (Hg : zlen (l1 ++ b2 ++ x) <= zlen (l1 ++ b2) + (N * M + 1)).
    { rewrite Lm. unfold grown. destruct (zlen (l1 ++ b2) - zlen l1 <? zlen t). idtac. lia. lia. }
    destruct (text_into other junk a t (b2 ++ x) Ha Lb) as [-> _]. cbn [bind].
    replace (zlen ts + 1) with (1 + zlen ts) by lia. rewrite Em.
    destruct (text_at_ok other junk l1 (b2 ++ x) a t Ha Lb) as (b' & -> & Lb' & Hr); [nia|]. cbn [bind].
    rewrite <- Lm in HE. subst sep. cbn [put_sep].
    destruct (zlen l1 + zlen t + zlen s <? zlen (l1 ++ b2 ++ x)) eqn:E1.
    + apply Z.ltb_lt in E1. cbn [andb] in HE. destruct Hr as (rest & ->); [rewrite zlen_app in E1; lia|].
      rewrite zlen_app in Lb'.
      rewrite app_assoc, <- zlen_app. rewrite write_mid.
      2: { rewrite !zlen_app in *. change (zlen [0]) with 1. lia. }
      cbn [bind]. 
      assert (L4 : zlen ((l1 ++ t ++ s) ++ 0 :: skipn (length (s ++ [0])) rest) = zlen (l1 ++ b2 ++ x)).
      { rewrite !zlen_app in *. unfold zlen in *. rewrite ?app_length in *. cbn [length] in *. rewrite ?skipn_length, ?app_length in *.
        cbn [length] in *. lia. }
      replace ((l1 ++ t) ++ (s ++ [0]) ++ skipn (length (s ++ [0])) rest)
        with ((l1 ++ t ++ s) ++ 0 :: skipn (length (s ++ [0])) rest) by (rewrite <- !app_assoc; reflexivity).
      replace (zlen (l1 ++ t) + zlen s) with (zlen (l1 ++ t ++ s)) by (rewrite !zlen_app; lia).
      rewrite <- L4 in *. apply IH; [exact HF|lia|lia|].
      rewrite !(zlen_app _ (t ++ _)), (zlen_app t) in *. rewrite Z.add_assoc in *. exact HE.
    + apply Z.ltb_ge in E1. rewrite write_out; [reflexivity|]. rewrite !zlen_app in *. change (zlen [0]) with 1. lia.
Qed.
End Loop.

(** * Theorems *)

(** The texts of the members [ts], none longer than [M]; the sizes are ints. *)
Definition texts_of (other : atom -> list Z) (ar : arr) (ts : list (list Z)) (size : Z) : Prop :=
  Forall2 (shown other) (members ar) ts /\
  exists M, 0 <= M /\ Forall (fun t => zlen t <= M) ts /\ size + zlen ts * (zlen ts * M + 1) < 2^31.

(** The buffer there is to begin with: the caller's of [len] bytes, or 256. *)
Definition size_of (out : option bytes) : Z := match out with Some b => zlen b | None => 256 end.

(** With enough room: the texts with the separator after each, terminated, and
    their length with the terminator. *)
Theorem C100_joined other junk ar out sep ts : texts_of other ar ts (size_of out) ->
  enough (sep_text sep) (size_of out) 0 ts = true ->
  exists rest, list_text other junk ar (size_of out) out sep =
    Ok (joined (sep_text sep) ts ++ 0 :: rest, zlen (joined (sep_text sep) ts) + 1).
Proof.
  intros (HF & M & HM & Hts & HB) HE. unfold list_text. change (items ar) with (members ar).
  set (buf := match out with Some b => b | None => new_bytes junk 256 end).
  assert (Eb : match out with None => (new_bytes junk 256, 256) | Some b => (b, size_of out) end = (buf, zlen buf)).
  { destruct out; [reflexivity|]. unfold buf. now rewrite new_bytes_len by lia. }
  assert (Es : size_of out = zlen buf) by (destruct out; [reflexivity|unfold buf; now rewrite new_bytes_len by lia]).
  rewrite Eb. rewrite Es in HE, HB.
  destruct (loop_ok other junk sep M (zlen ts) HM (zlen_nonneg ts) (members ar) ts HF Hts ltac:(lia) [] buf HB HE) as (b3 & E & H3).
  cbn [app] in E. change (zlen []) with 0 in E. rewrite E. cbn [bind].
  destruct b3 as [|c b3]; [cbn in H3; lia|]. rewrite write_mid by (change (zlen [0]) with 1; lia).
  cbn [bind]. exists b3. reflexivity.
Qed.
Print Assumptions C100_joined.

(** All fits into the buffer there is: then that is enough. *)
Theorem C100_fits sep ts : forall size used, 0 <= used -> used + zlen (joined sep ts) < size -> enough sep size used ts = true.
Proof.
  induction ts as [|t ts IH]; intros size used Hu H; cbn [enough].
  - cbn in H. apply Z.ltb_lt. lia.
  - unfold joined in H. cbn [map concat] in H. fold (joined sep ts) in H. rewrite !zlen_app in H.
    pose proof (zlen_nonneg t). pose proof (zlen_nonneg sep). pose proof (zlen_nonneg (joined sep ts)).
    unfold grown. rewrite (proj2 (Z.ltb_ge (size - used) (zlen t))) by lia.
    rewrite (proj2 (Z.ltb_lt (used + zlen t + zlen sep) size)) by lia. apply IH; lia.
Qed.
Print Assumptions C100_fits.

(** Finding: without, and with a separator, the write goes past the end. *)
Theorem C100_overflow_refuted other junk ar out s ts : texts_of other ar ts (size_of out) ->
  enough s (size_of out) 0 ts = false ->
  list_text other junk ar (size_of out) out (Some s) = Ub OOB.
Proof.
  intros (HF & M & HM & Hts & HB) HE. unfold list_text. change (items ar) with (members ar).
  set (buf := match out with Some b => b | None => new_bytes junk 256 end).
  assert (Eb : match out with None => (new_bytes junk 256, 256) | Some b => (b, size_of out) end = (buf, zlen buf)).
  { destruct out; [reflexivity|]. unfold buf. now rewrite new_bytes_len by lia. }
  assert (Es : size_of out = zlen buf) by (destruct out; [reflexivity|unfold buf; now rewrite new_bytes_len by lia]).
  rewrite Eb. rewrite Es in HE, HB.
  exact (loop_out other junk (Some s) M (zlen ts) HM (zlen_nonneg ts) (members ar) ts s eq_refl HF Hts ltac:(lia) [] buf HB HE).
Qed.
Print Assumptions C100_overflow_refuted.

(** One text, a space after it, and no buffer given: wrong for exactly two
    lengths. *)
Theorem C100_one t : enough [32] 256 0 [t] = false <-> zlen t = 255 \/ zlen t = 256.
Proof.
  cbn [enough]. unfold grown. change (zlen [32]) with 1. change (zlen []) with 0. pose proof (zlen_nonneg t).
  destruct (256 - 0 <? zlen t) eqn:E.
  - apply Z.ltb_lt in E. rewrite !(proj2 (Z.ltb_lt (0 + zlen t + 1) _)) by lia. split; [discriminate|lia].
  - apply Z.ltb_ge in E. destruct (0 + zlen t + 1 <? 256) eqn:F; cbn [andb]; [apply Z.ltb_lt in F|apply Z.ltb_ge in F]; split; intros; try easy; lia.
Qed.
Print Assumptions C100_one.

(** Texts of one character each: right for up to 127, past the end for more. *)
Lemma short_used ts : Forall (fun t => zlen t = 1) ts -> forall m, 0 <= 2 * m < 256 ->
  enough [32] 256 (2 * m) ts = (2 * m + 2 * zlen ts <? 256).
Proof.
  induction 1 as [|t ts Ht _ IH]; intros m Hm; cbn [enough].
  - change (zlen []) with 0. f_equal. lia.
  - change (zlen [32]) with 1. unfold grown. rewrite Ht, zlen_cons. rewrite (proj2 (Z.ltb_ge (256 - 2 * m) 1)) by lia.
    pose proof (zlen_nonneg ts).
    destruct (2 * m + 1 + 1 <? 256) eqn:E; cbn [andb].
    + apply Z.ltb_lt in E. replace (2 * m + 1 + 1) with (2 * (m + 1)) by lia. rewrite IH by lia. f_equal. lia.
    + apply Z.ltb_ge in E. symmetry. apply Z.ltb_ge. lia.
Qed.
Theorem C100_short ts : Forall (fun t => zlen t = 1) ts -> enough [32] 256 0 ts = (zlen ts <=? 127).
Proof.
  intros H. change 0 with (2 * 0) at 1. rewrite (short_used ts H 0) by lia. destruct (zlen ts <=? 127) eqn:E;
    [apply Z.leb_le in E; apply Z.ltb_lt|apply Z.leb_gt in E; apply Z.ltb_ge]; lia.
Qed.
Print Assumptions C100_short.

(** Finding: without a separator, a number that fills what is left loses its last
    character: 42 and 7 in a buffer of two characters. *)
Theorem C100_cut_refuted other : list_text other [] (Some [set_u I32 atom_fresh 42; set_u I32 atom_fresh 7]) 2 (Some [1; 1]) None =
  Ok ([52; 0; 55; 0], 4).
Proof. reflexivity. Qed.
Print Assumptions C100_cut_refuted.

(** A list of a word, a number and a truth value; 128 letters are too many. *)
Definition ex_list : arr := Some [Atom 115 0 (PStr (str "cue")); set_u I32 atom_fresh (-42); set_true atom_fresh].
Example C100_ex : exists rest, list_text (fun _ => []) [] ex_list 256 None (Some (str " ")) =
  Ok (str "cue -42 true " ++ 0 :: rest, 14).
Proof.
  destruct (C100_joined (fun _ => []) [] ex_list None (Some (str " ")) [str "cue"; str "-42"; str "true"]) as (rest & E).
  - split.
    + apply Forall2_cons; [apply shown_string; apply chars_str; reflexivity|].
      apply Forall2_cons; [apply (shown_int _ I32 atom_fresh (-42)); [now split|discriminate|discriminate]|].
      apply Forall2_cons; [apply shown_true|apply Forall2_nil].
    + exists 10. split; [lia|]. split; [repeat apply Forall_cons; try apply Forall_nil; cbn; lia|reflexivity].
  - reflexivity.
  - exists rest. exact E.
Qed.
Example C100_ex_letters : list_text (fun _ => []) [] (Some (repeat (Atom 115 0 (PStr [97])) 128)) 256 None (Some [32]) = Ub OOB.
Proof.
  apply (C100_overflow_refuted _ _ _ None [32] (repeat [97] 128)).
  - split.
    + cbn [members]. generalize 128%nat; intros n; induction n as [|k IH]; [apply Forall2_nil|]. apply Forall2_cons; [|exact IH].
      apply shown_string, chars_str. reflexivity.
    + exists 1. split; [lia|]. split; [|reflexivity]. apply Forall_forall. intros t Ht. apply repeat_spec in Ht. subst t. cbn. lia.
  - apply C100_short. apply Forall_forall. intros t Ht. apply repeat_spec in Ht. now subst t.
Qed.
