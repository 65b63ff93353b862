(** How values, variables and bundles are represented, and the evaluator's
    elementary operations on them (C57). *)

From Coq Require Import ZArith List Bool Lia.
From Verif Require Import Base BaseProofs Bytes UtilModel UtilProofs TimetagModel TimetagProofs
  WireSpec SerialModel SerialSpec SerialProofs SerialProps AtomSModel AtomUModel WireModel WireProofs WireWalk WireProps
  ArgProofs DeserProofs DeserProps ExprModel ExprListModel ExprSpec ExprProps ExprListProofs ExprListProps
  BundleSModel BundleSProofs BundleSProps EvalModel EvalSpec.
Import ListNotations.
Open Scope Z_scope.

(** An atom stands for a value: it can be copied, what it holds is one of libo's
    values, read with its own type it is [v], and it has the type tag of [v]. *)
Definition stands (a : atom) (v : value) : Prop :=
  copyable a /\ std_value slash (raw_value a) /\ narrow (raw_value a) = v /\ a_tt a = vtag v.
Inductive result_rep : arr -> out -> Prop :=
| rep_none : result_rep None None
| rep_some l vs : Forall2 stands l vs -> result_rep (Some l) (Some vs).

(** The same expression with atoms as literals; strings in it are C strings. *)
Fixpoint arg_rep (a : arg atom) (a' : arg value) {struct a} : Prop :=
  match a, a' with
  | AUnset, AUnset => True
  | AAtom x, AAtom v => stands x v
  | AList l, AList l' => result_rep l l'
  | AExpr e, AExpr e' => expr_rep e e'
  | AAddr p, AAddr p' => p = p' /\ nonul p /\ wf_bytes p /\ zlen p + 4 < 2^32
  | AFun ps body, AFun ps' body' =>
      ps = ps' /\
      (fix all l l' := match l, l' with
                       | [], [] => True
                       | e :: l, e' :: l' => expr_rep e e' /\ all l l'
                       | _, _ => False
                       end) body body'
  | _, _ => False
  end
with expr_rep (e : expr atom) (e' : expr value) {struct e} : Prop :=
  match e, e' with
  | Ex f args, Ex f' args' =>
      f = f' /\
      (fix all l l' := match l, l' with
                       | [], [] => True
                       | a :: l, a' :: l' => arg_rep a a' /\ all l l'
                       | _, _ => False
                       end) args args'
  end.

Lemma all_Forall2 {A B} (R : A -> B -> Prop) l : forall l',
  (fix all l l' := match l, l' with
                   | [], [] => True
                   | x :: l, x' :: l' => R x x' /\ all l l'
                   | _, _ => False
                   end) l l' <-> Forall2 R l l'.
Proof.
  induction l as [|x l IH]; intros [|y l']; split; intros H; try contradiction; try (inversion H; fail);
    [constructor|exact I| |].
  - destruct H as [H1 H2]. constructor; [exact H1|]. now apply IH.
  - inversion H as [|? ? ? ? H1 H2]; subst. split; [exact H1|]. now apply IH.
Qed.
Lemma expr_rep_args f args f' args' : expr_rep (Ex f args) (Ex f' args') <-> f = f' /\ Forall2 arg_rep args args'.
Proof. cbn [expr_rep]. now rewrite all_Forall2. Qed.
Lemma arg_rep_fun ps body ps' body' : arg_rep (AFun ps body) (AFun ps' body') <-> ps = ps' /\ Forall2 expr_rep body body'.
Proof. cbn [arg_rep]. now rewrite all_Forall2. Qed.

(** Variables. *)
Definition names_once (e : lexenv) : Prop := match e with Some l => NoDup (map fst l) | None => True end.
Definition env_rep (e : lexenv) (V : vars) : Prop := names_once e /\ forall x, result_rep (lookup_var e x) (V x).

(** A bundle: the header with its time tag, the messages and perhaps more bytes. *)
Definition header (t : Z * Z) : bytes := bundle_id ++ be_bytes 4 (fst t) ++ be_bytes 4 (snd t).
Definition bundle_rep (st : bst) (w : world) : Prop :=
  exists rs room,
    b_buf st = Some (header (time w) ++ concat (map enc_message rs) ++ room) /\
    b_len st = zlen (header (time w) ++ concat (map enc_message rs)) /\
    0 <= fst (time w) < 2^32 /\ 0 <= snd (time w) < 2^32 /\
    Forall (std_message slash) rs /\ map narrow_msg rs = msgs w /\
    zlen (header (time w) ++ concat (map enc_message rs)) + 4 < 2^31.

(** * Atoms *)

Lemma copy_stands a v : stands a v -> exists b, copy_atom a = Ok b /\ stands b v.
Proof.
  intros (Hc & Hs & Hn & Ht). destruct (copy_ok a Hc) as (b & E & Hb & Hbt & Hr). exists b. split; [exact E|].
  split; [exact Hb|]. rewrite Hbt, <- and_assoc. split; [|exact Ht].
  destruct (raw_value a) eqn:Er; rewrite Hr; try (split; [exact Hs|exact Hn]).
  split.
  - exact (proj2 (proj2 (proj1 narrow_same (VBundle ms))) Hs).
  - rewrite <- Hn. apply (proj1 narrow_idem (VBundle ms)).
Qed.
Lemma copy_list l vs : Forall2 stands l vs -> exists ys, map_list copy_atom l = Ok ys /\ Forall2 stands ys vs.
Proof.
  induction 1 as [|a v l vs Ha _ IH]; [exists []; split; [reflexivity|constructor]|].
  destruct (copy_stands a v Ha) as (b & E & C). destruct IH as (ys & E' & C'). exists (b :: ys).
  split; [|now constructor]. cbn [map_list]. rewrite E. cbn [bind]. rewrite E'. reflexivity.
Qed.
Lemma fill_stands f xs vs : Forall2 stands xs vs -> forall i0 done news rest,
  length news = length xs ->
  (forall j x out, nth_error xs j = Some x ->
     f (i0 + Z.of_nat j) out = aput out (zlen done + Z.of_nat j) (fun _ => copy_atom x)) ->
  exists ys, forn (length xs) i0 f (Some (done ++ news ++ rest)) = Ok (Some (done ++ ys ++ rest)) /\
    Forall2 stands ys vs.
Proof.
  induction 1 as [|x v xs vs Hx _ IH]; intros i0 done news rest Hl Hf.
  - destruct news; [|discriminate Hl]. exists []. split; [reflexivity|constructor].
  - destruct news as [|z news]; [discriminate Hl|]. cbn [length forn].
    pose proof (Hf 0%nat x (Some (done ++ (z :: news) ++ rest)) eq_refl) as H0. rewrite !Z.add_0_r in H0.
    rewrite H0. cbn [app]. rewrite aput_at.
    destruct (copy_stands x v Hx) as (y & Hy & Cy). rewrite Hy. cbn [bind].
    destruct (IH (i0 + 1) (done ++ [y]) news rest) as (ys & Hr & Hys).
    + now inversion Hl.
    + intros j x' out Hx'. pose proof (Hf (S j) x' out Hx') as H1.
      replace (i0 + 1 + Z.of_nat j) with (i0 + Z.of_nat (S j)) by lia.
      rewrite zlen_app, zlen_cons. change (zlen (@nil atom)) with 0.
      replace (zlen done + (1 + 0) + Z.of_nat j) with (zlen done + Z.of_nat (S j)) by lia. exact H1.
    + exists (y :: ys). split; [|now constructor].
      rewrite <- !app_assoc in Hr. exact Hr.
Qed.
Lemma acopy_rep a o : result_rep a o -> exists b, acopy a = Ok b /\ result_rep b o.
Proof.
  intros [|l vs H]; [exists None; split; [reflexivity|constructor]|].
  cbn [acopy]. rewrite aalloc_len. cbn [bind].
  destruct (fill_stands (fun i cp => copy_member cp i (Some l) i) l vs H 0 [] (repeat atom_fresh (length l)) []) as (ys & Hr & Hys).
  - apply repeat_length.
  - intros j x out Hx. apply copy_member_some; [lia|]. cbn [members]. now rewrite Z.add_0_l, Nat2Z.id.
  - rewrite !app_nil_r in Hr. cbn [app] in Hr. exists (Some ys). split; [exact Hr|]. now constructor.
Qed.
Lemma acopy_into_rep s vs done news rest : Forall2 stands s vs -> length news = length s ->
  exists ys, acopy_into (Some (done ++ news ++ rest)) (Some s) (zlen done) = Ok (Some (done ++ ys ++ rest)) /\
    Forall2 stands ys vs.
Proof.
  intros H Hl. cbn [acopy_into]. rewrite (proj2 (Z.ltb_ge _ _)).
  - cbn [bind]. apply fill_stands; [exact H|exact Hl|]. intros j x out Hx. rewrite Z.add_0_l.
    rewrite (copy_member_some out _ (Some s) (Z.of_nat j) x); [f_equal; lia|lia|]. now rewrite Nat2Z.id.
  - unfold zlen. rewrite !app_length, Hl. lia.
Qed.
Lemma Forall2_len {A B} (R : A -> B -> Prop) l l' : Forall2 R l l' -> length l = length l'.
Proof. induction 1; cbn; congruence. Qed.
Lemma Forall2_zlen {A B} (R : A -> B -> Prop) l l' : Forall2 R l l' -> zlen l = zlen l'.
Proof. intros H. unfold zlen. now rewrite (Forall2_len R l l' H). Qed.
Lemma rep_len a o : result_rep a o -> alen a = zlen (values o).
Proof. intros [|l vs H]; [reflexivity|]. cbn [alen values]. exact (Forall2_zlen _ _ _ H). Qed.
Lemma aget_zero l : aget (Some l) 0 = Ok (hd_error l).
Proof.
  cbn [aget]. destruct l as [|x l]; [reflexivity|]. cbn [hd_error]. rewrite zlen_cons. pose proof (zlen_nonneg l).
  destruct (1 + zlen l <=? 0) eqn:E; [apply Z.leb_le in E; lia|]. reflexivity.
Qed.
Lemma tag_zero a o : result_rep a o -> tag0 a = Ok (match values o with v :: _ => vtag v | [] => 0 end).
Proof.
  intros [|l vs H]; [reflexivity|]. unfold tag0. rewrite aget_zero. cbn [bind values].
  destruct H as [|x v l vs Hx _]; [reflexivity|]. cbn [hd_error]. now rewrite (proj2 (proj2 (proj2 Hx))).
Qed.

(** Strings. *)
Lemma std_tag_str v : vtag v = 115 -> std_value slash v -> exists s, v = VStr s.
Proof.
  destruct v; cbn [vtag std_value]; intros E H; try discriminate E; subst.
  - destruct H as [H _]. cbn [In] in H. exfalso. intuition discriminate.
  - destruct H as [H _]. cbn [In] in H. exfalso. intuition discriminate.
  - eauto.
  - cbn [In] in H. exfalso. intuition discriminate.
Qed.
Lemma stands_std a v : stands a v -> std_value slash v.
Proof. intros (_ & Hs & <- & _). now apply (proj1 narrow_same). Qed.
Lemma stands_str a s : stands a (VStr s) -> a_tt a = 115 /\ string_in a = Ok s /\ nonul s /\ wf_bytes s /\ zlen s + 4 < 2^32.
Proof.
  intros H. pose proof (stands_std _ _ H) as Hs. destruct H as ([Hok _] & _ & Hn & Ht). cbn [vtag] in Ht.
  destruct a as [tg w p]. cbn [a_tt] in Ht. subst tg. cbn [ok_atom] in Hok. destruct Hok as [_ Hp].
  destruct p as [|t|b|ms]; try (destruct Hp as [Hp _]; try discriminate Hp; now destruct Hp).
  cbn in Hn. injection Hn as ->. destruct Hp as (_ & H1 & H2 & H3). repeat split; assumption.
Qed.
Lemma is_string v : std_value slash v -> (exists s, v = VStr s) \/ (vtag v =? 115) = false.
Proof.
  intros H. destruct (vtag v =? 115) eqn:E; [left; apply Z.eqb_eq in E; now apply std_tag_str|now right].
Qed.
Lemma string_zero l s vs : Forall2 stands l (VStr s :: vs) -> string0 (Some l) = Ok s.
Proof.
  intros H. inversion H as [|x v l' vs' Hx _]; subst. unfold string0. rewrite aget_zero. cbn [bind hd_error].
  exact (proj1 (proj2 (stands_str x s Hx))).
Qed.
Lemma result_std a o : result_rep a o -> Forall (std_value slash) (values o).
Proof.
  intros [|l vs H]; [constructor|]. cbn [values]. induction H as [|x v l vs Hx _ IH]; constructor; [exact (stands_std _ _ Hx)|exact IH].
Qed.

(** Integers. *)
Ltac Zify.zify_post_hook ::= Z.div_mod_to_equations.
Lemma whole_cases v n : whole v = Some n ->
  (exists x, (v = VNum32 99 x /\ n = s8 x) \/ (v = VNum32 67 x /\ n = u8 x) \/ (v = VNum32 117 x /\ n = s16 x) \/
             (v = VNum32 85 x /\ n = u16 x) \/ (v = VNum32 105 x /\ n = s32 x) \/ (v = VNum32 73 x /\ n = s32 x) \/
             (v = VNum64 104 x /\ n = s32 x) \/ (v = VNum64 72 x /\ n = s32 x)) \/
  (v = VFlag 84 /\ n = 1) \/ (v = VFlag 70 /\ n = 0).
Proof.
  destruct v as [t x|t x|? ?|?|?|t|?]; cbn [whole]; try discriminate; (destruct t as [|p|p]; try discriminate);
    do 7 (destruct p as [p|p|]; try discriminate); intros E; injection E as <-;
    try (left; exists x; tauto); tauto.
Qed.
Lemma narrow_tag_num v t x : narrow v = VNum32 t x -> exists y, v = VNum32 t y.
Proof.
  destruct v as [t' y| | | | | |]; cbn [narrow]; try discriminate.
  destruct ((t' =? 99) || (t' =? 67)); [|destruct ((t' =? 117) || (t' =? 85))]; injection 1 as -> _; eauto.
Qed.
Lemma stands_whole a v n : stands a v -> whole v = Some n -> au_int a = Ok n /\ au_int32 a = Ok n.
Proof.
  intros (Hok & Hs & Hn & Ht) Hw. destruct a as [tg w p]. cbn [a_tt] in Ht. subst tg.
  apply whole_cases in Hw.
  destruct Hw as [(x & K)|K]; [destruct K as [K|[K|[K|[K|[K|[K|[K|K]]]]]]]|destruct K as [K|K]];
    destruct K as [-> ->]; cbn [vtag] in *.
  1-8: (apply (f_equal (fun v => match v with VNum32 _ x => x | VNum64 _ x => x | _ => 0 end)) in Hn; cbn [raw_value narrow existsb Z.eqb Pos.eqb orb] in Hn; subst x;
    unfold au_int, au_int32; cbn [Z.eqb Pos.eqb]; unfold w_c, w_C, w_u, w_U, w_i, w_I, w_h, w_H, s8, u8, s16, u16, s32, s64, u64, u32;
    split; f_equal; lia).
  1-2: (split; reflexivity).
Qed.

(** What deserialization builds. *)
Lemma stands_obj v : std_value slash v -> zlen (enc_value v) + 4 < 2^31 -> stands (obj_of v) (narrow v).
Proof.
  intros Hs Hl. pose proof (proj1 raw_obj v Hs ltac:(lia)) as Hr. pose proof (proj1 ok_obj v Hs Hl) as Hok.
  split; [|split; [|split]].
  - split; [exact Hok|]. rewrite Hr. destruct v; cbn [narrow]; try exact I.
    + destruct (_ || _); [exact I|]. destruct (_ || _); exact I.
    + cbn [std_value] in Hs. apply all_Forall in Hs. split.
      * rewrite Forall_map. eapply Forall_impl; [|exact Hs]. intros m. apply (proj2 (proj2 narrow_same m)).
      * rewrite enc_narrow. cbn [enc_value] in Hl. rewrite zlen_sized' in Hl. unfold enc_bundle. lia.
  - rewrite Hr. now apply (proj1 narrow_same).
  - rewrite Hr. apply (proj1 narrow_idem).
  - rewrite (proj1 (proj2 (proj1 narrow_same v))). destruct v; reflexivity.
Qed.
Lemma stands_objs vs : Forall (std_value slash) vs -> zlen (concat (map enc_value vs)) + 4 < 2^31 ->
  Forall2 stands (map obj_of vs) (map narrow vs).
Proof.
  induction vs as [|v vs IH]; intros Hs Hl; cbn [map]; constructor; cbn [map concat] in Hl; rewrite zlen_app in Hl;
    pose proof (zlen_nonneg (enc_value v)); pose proof (zlen_nonneg (concat (map enc_value vs))).
  - apply stands_obj; [exact (Forall_inv Hs)|lia].
  - apply IH; [exact (Forall_inv_tail Hs)|lia].
Qed.

Lemma over_atoms_fill buf post fuel d P0 : forall vs done rest,
  let all := done ++ vs in
  Forall (std_value slash) vs -> length rest = length vs ->
  Forall (fun v => (vdepth v <= fuel)%nat) vs ->
  zlen (concat (map enc_value all)) + 4 < 2^31 ->
  buf = P0 ++ concat (map enc_value all) ++ post -> d = zlen P0 ->
  over_atoms (fun (s : Z * arr) a =>
            let (i, out) := s in
            do x <- deser_atom (deser_bundle fuel buf) buf a;
            do out <- aput out i (fun _ => Ok x);
            Ok (@Cont _ unit (i + 1, out)))
    (zlen done, Some (map obj_of done ++ rest))
    (map (fun n => AS (d + off all n) (vtag (nth n all (VFlag 0)))) (seq (length done) (length vs)))
  = Ok (Cont (zlen all, Some (map obj_of all))).
Proof.
  induction vs as [|v vs IH]; intros done rest all Hs Hr Hd Hl Hbuf Hd0; cbn [length seq map over_atoms].
  - destruct rest; [|discriminate Hr]. unfold all. now rewrite !app_nil_r.
  - destruct rest as [|z rest]; [discriminate Hr|]. injection Hr as Hr.
    pose proof (proj1 deser_all v) as K1. inversion Hs as [|? ? S1 S2]; subst x l.
    inversion Hd as [|? ? D1 D2]; subst x l.
    assert (Hall : all = (done ++ [v]) ++ vs) by (unfold all; now rewrite <- app_assoc).
    assert (Hn : nth (length done) all (VFlag 0) = v) by (unfold all; now rewrite nth_middle).
    assert (Ho : off all (length done) = zlen (concat (map enc_value done))).
    { unfold off, all. rewrite firstn_exact by reflexivity. reflexivity. }
    rewrite Hn, Ho.
    assert (Hb : buf = (P0 ++ concat (map enc_value done)) ++ enc_value v ++ concat (map enc_value vs) ++ post).
    { rewrite Hbuf. unfold all. rewrite map_app, concat_app. cbn [map concat]. now rewrite <- !app_assoc. }
    assert (H1 := K1 (P0 ++ concat (map enc_value done)) (concat (map enc_value vs) ++ post) fuel S1).
    cbv zeta in H1. rewrite <- Hb in H1. rewrite zlen_app in H1. rewrite Hd0.
    unfold all in Hl. rewrite map_app, concat_app in Hl. cbn [map concat] in Hl. rewrite !zlen_app in Hl.
    pose proof (zlen_nonneg (concat (map enc_value done))). pose proof (zlen_nonneg (concat (map enc_value vs))).
    rewrite H1 by (try lia; assumption). cbn [bind].
    replace (zlen done) with (zlen (map obj_of done)) at 1 by (unfold zlen; now rewrite map_length).
    rewrite aput_at. cbn [bind].
    specialize (IH (done ++ [v]) rest). cbv zeta in IH. rewrite <- Hall in IH.
    rewrite app_length, Nat.add_1_r, map_app in IH. cbn [map] in IH. rewrite zlen_app in IH. change (zlen [v]) with 1 in IH.
    rewrite Hd0 in IH. rewrite <- app_assoc in IH. cbn [app] in IH.
    replace (zlen (map obj_of done)) with (zlen done) by (unfold zlen; now rewrite map_length).
    apply IH; try assumption; try reflexivity.
    rewrite Hall, map_app, concat_app, map_app, concat_app. cbn [map concat]. rewrite !zlen_app.
    change (zlen (@nil Z)) with 0. lia.
Qed.

Lemma depth_fuel (vs : list value) n : zlen (concat (map enc_value vs)) <= Z.of_nat n -> Forall (fun v => (vdepth v <= n)%nat) vs.
Proof.
  intros Hn. apply Forall_forall. intros v Hv. pose proof (enc_chunk enc_value vs v Hv).
  pose proof (proj1 depth_le v). lia.
Qed.

Lemma msg_atoms_ok P a vs post : std_message slash (M a vs) -> zlen (enc_message (M a vs)) + 4 < 2^31 ->
  let buf := P ++ enc_message (M a vs) ++ post in
  msg_atoms buf (wrapped init_msg (zlen P) (wm_of (M a vs))) = Ok (Some (map obj_of vs)).
Proof.
  intros Hs Hl buf. assert (Hs' := Hs). apply std_args in Hs' as (Ha & Hwa & Hsl & Hv).
  assert (Hany : std_message any (M a vs)) by now apply (proj2 (std_any slash)).
  set (m := wrapped init_msg (zlen P) (wm_of (M a vs))).
  destruct (wrapped_args P a vs post init_msg Hany ltac:(lia)) as
    (t & P0 & Ht & Hd0 & Htags & Htag & Hbuf & Hstd & Hlv & Hn & Hfuel).
  fold buf in Htags, Htag, Hbuf, Hfuel. fold m in Ht, Hd0.
  assert (Hlv' : zlen (concat (map enc_value vs)) + 4 < 2^31).
  { cbn [enc_message] in Hl. rewrite zlen_sized', !zlen_app in Hl.
    pose proof (zlen_nonneg (pad_str a)). pose proof (zlen_nonneg (pad_str (44 :: map vtag vs))). lia. }
  unfold msg_atoms. rewrite (arg_count buf m t vs Ht Htags Hn). cbn [bind]. rewrite aalloc_len. cbn [bind].
  rewrite (msg_loop_atoms buf m t (zlen P0) vs post Ht Hd0 Htags Htag P0 Hbuf eq_refl Hstd Hlv Hn m);
    try reflexivity; try assumption; [|left; reflexivity].
  pose proof (over_atoms_fill buf post (S (length buf)) (zlen P0) P0 vs [] (repeat atom_fresh (length vs)) Hv) as Ho.
  cbv zeta in Ho. cbn [app map length] in Ho. change (zlen (@nil value)) with 0 in Ho.
  unfold atoms. match goal with |- bind ?X _ = _ => assert (E : X = Ok (Cont (zlen vs, Some (map obj_of vs)))) end.
  { apply Ho; [apply repeat_length| |exact Hlv'|exact Hbuf|reflexivity].
    apply depth_fuel. rewrite Hbuf, !app_length. unfold zlen. lia. }
  rewrite E. reflexivity.
Qed.

(** * Bundles *)

Lemma zlen_header t : zlen (header t) = 16.
Proof. unfold header. rewrite !zlen_app, !zlen_be. reflexivity. Qed.

Definition addr (m : message) : list Z := match m with M a _ => a end.
Definition vals (m : message) : list value := match m with M _ vs => vs end.
Lemma addr_narrow m : addr (narrow_msg m) = addr m.
Proof. now destruct m. Qed.
Lemma addr_wm m : w_addr (wm_of m) = addr m.
Proof. now destruct m. Qed.

(** The first message whose address has a property. *)
Lemma find_split (q : list Z -> bool) rs :
  match find (fun m => q (addr m)) rs with
  | None => Forall (fun m => q (addr m) = false) rs
  | Some m => exists rs1 rs2, rs = rs1 ++ m :: rs2 /\ Forall (fun m => q (addr m) = false) rs1 /\ q (addr m) = true
  end.
Proof.
  induction rs as [|r rs IH]; cbn [find]; [constructor|]. destruct (q (addr r)) eqn:E.
  - exists [], rs. repeat split; [constructor|exact E].
  - destruct (find _ rs) as [m|].
    + destruct IH as (rs1 & rs2 & -> & H1 & H2). exists (r :: rs1), rs2. repeat split; [now constructor|exact H2].
    + now constructor.
Qed.
Lemma starts_app p ws1 ws2 : starts p (ws1 ++ ws2) = starts p ws1 ++ starts (p + zlen (enc_wmsgs ws1)) ws2.
Proof.
  revert p. induction ws1 as [|w ws1 IH]; intros p; cbn [app starts].
  - unfold enc_wmsgs. cbn [map concat]. change (zlen (@nil Z)) with 0. now rewrite Z.add_0_r.
  - rewrite IH, enc_wmsgs_cons, zlen_app. f_equal. f_equal. f_equal. lia.
Qed.
Lemma starts_len p ws : length (starts p ws) = length ws.
Proof. revert p. induction ws as [|w ws IH]; intros p; cbn [starts length]; [reflexivity|now rewrite IH]. Qed.
Lemma combine_app {A B} (l1 l2 : list A) (r1 r2 : list B) : length l1 = length r1 ->
  combine (l1 ++ l2) (r1 ++ r2) = combine l1 r1 ++ combine l2 r2.
Proof. revert r1. induction l1 as [|x l1 IH]; intros [|y r1] H; try discriminate H; [reflexivity|]. cbn. f_equal. apply IH. now injection H. Qed.
Lemma filter_none {A} (f : A -> bool) l : Forall (fun x => f x = false) l -> filter f l = [].
Proof. induction 1 as [|x l H _ IH]; [reflexivity|]. cbn [filter]. now rewrite H. Qed.

Lemma selected_split full p rs :
  match find (fun m => selects full p (addr m)) rs with
  | None => selected full p (map wm_of rs) = []
  | Some m => exists rs1 rs2 l, rs = rs1 ++ m :: rs2 /\ Forall (fun m => selects full p (addr m) = false) rs1 /\
      selected full p (map wm_of rs) = (16 + zlen (concat (map enc_message rs1)), wm_of m) :: l
  end.
Proof.
  pose proof (find_split (selects full p) rs) as H. destruct (find _ rs) as [m|].
  - destruct H as (rs1 & rs2 & -> & H1 & H2). exists rs1, rs2.
    unfold selected. rewrite map_app. cbn [map]. rewrite starts_app, combine_app by (now rewrite starts_len).
    rewrite filter_app. rewrite filter_none.
    + cbn [app starts combine filter snd]. rewrite addr_wm, H2, map_wm_enc. eexists. split; [reflexivity|]. split; [exact H1|reflexivity].
    + apply Forall_forall. intros [x y] Hin. apply in_combine_r in Hin. apply in_map_iff in Hin. destruct Hin as (r & <- & Hr).
      cbn [snd]. rewrite addr_wm. rewrite Forall_forall in H1. now apply H1.
  - unfold selected. apply filter_none. apply Forall_forall. intros [x y] Hin. apply in_combine_r in Hin.
    apply in_map_iff in Hin. destruct Hin as (r & <- & Hr). cbn [snd]. rewrite addr_wm. rewrite Forall_forall in H. now apply H.
Qed.

Lemma find_narrow (q : list Z -> bool) rs :
  find (fun m => q (addr m)) (map narrow_msg rs) = option_map narrow_msg (find (fun m => q (addr m)) rs).
Proof.
  induction rs as [|r rs IH]; [reflexivity|]. cbn [map find]. rewrite addr_narrow. destruct (q (addr r)); [reflexivity|exact IH].
Qed.
Lemma lookup_find matches w p : lookup matches w p = option_map vals (find (fun m => matches p (addr m)) (msgs w)).
Proof.
  unfold lookup. replace (find (fun '(M a _) => matches p a) (msgs w)) with (find (fun m => matches p (addr m)) (msgs w)); [|].
  - now destruct (find _ (msgs w)) as [[a vs]|].
  - induction (msgs w) as [|[a vs] ms IH]; [reflexivity|]. cbn [find addr]. destruct (matches p a); [reflexivity|exact IH].
Qed.

Section Bundles.
Context (fresh : Z -> bytes).
Context (Hfresh : forall n, 0 <= n -> zlen (fresh n) = n).
Notation find_match := (lookup (selects true)).

Lemma piece rs1 m rs2 : concat (map enc_message (rs1 ++ m :: rs2)) =
  concat (map enc_message rs1) ++ enc_message m ++ concat (map enc_message rs2).
Proof. now rewrite map_app, concat_app. Qed.

(** An address. *)
Lemma eval_addr_rep st w p : bundle_rep st w ->
  exists o, eval_addr st p = Ok (match find_match w p with Some _ => 0 | None => unbound end, o) /\
    result_rep o (find_match w p).
Proof.
  intros (rs & room & Hb & Hlen & Ht1 & Ht2 & Hs & Hm & Hfit). unfold eval_addr. rewrite Hb.
  pose proof (zlen_header (time w)) as Hh. rewrite lookup_find, <- Hm, find_narrow.
  rewrite zlen_app, Hh in Hlen. rewrite zlen_app, Hh in Hfit.
  assert (Hw : Forall wf_wmsg (map wm_of rs)) by (apply std_wfs; [exact Hs|lia]).
  destruct (b_len st <=? 16) eqn:El.
  { apply Z.leb_le in El. assert (E : rs = []).
    { destruct rs as [|[a vs] rs]; [reflexivity|]. cbn [map concat] in Hlen. rewrite zlen_app in Hlen.
      cbn [enc_message] in Hlen. rewrite zlen_sized' in Hlen. pose proof (zlen_nonneg (concat (map enc_message rs))).
      match type of Hlen with context [4 + zlen ?b] => pose proof (zlen_nonneg b) end. lia. }
    subst rs. exists None. split; [reflexivity|constructor]. }
  rewrite Hlen. rewrite <- Hh. rewrite <- zlen_app. rewrite <- map_wm_enc. rewrite C20_first by (assumption || exact Hw).
  cbn [bind]. pose proof (selected_split true p rs) as Hsp.
  destruct (find (fun m => selects true p (addr m)) rs) as [[a vs]|].
  - destruct Hsp as (rs1 & rs2 & l & -> & H1 & ->). cbn [hd_error option_map fst narrow_msg vals].
    apply Forall_app in Hs. destruct Hs as [Hs1 Hs2]. pose proof (Forall_inv Hs2) as Hsm.
    assert (Hl : zlen (enc_message (M a vs)) + 4 < 2^31).
    { rewrite piece, !zlen_app in Hfit. pose proof (zlen_nonneg (concat (map enc_message rs1))).
      pose proof (zlen_nonneg (concat (map enc_message rs2))). lia. }
    rewrite map_wm_enc, piece. rewrite <- Hh, <- zlen_app.
    replace (header (time w) ++ (concat (map enc_message rs1) ++ enc_message (M a vs) ++ concat (map enc_message rs2)) ++ room)
      with ((header (time w) ++ concat (map enc_message rs1)) ++ enc_message (M a vs) ++ (concat (map enc_message rs2) ++ room))
      by now rewrite <- !app_assoc.
    rewrite (enc_message_wm (M a vs)), wrap_ok by (apply (std_wf slash); [exact Hsm|lia]). cbn [bind].
    rewrite <- (enc_message_wm (M a vs)). rewrite msg_atoms_ok by assumption. cbn [bind].
    eexists. split; [reflexivity|]. constructor. apply std_args in Hsm as (_ & _ & _ & Hv).
    apply stands_objs; [exact Hv|]. cbn [enc_message] in Hl. rewrite zlen_sized', !zlen_app in Hl.
    pose proof (zlen_nonneg (pad_str a)). pose proof (zlen_nonneg (pad_str (44 :: map vtag vs))). lia.
  - rewrite Hsp. cbn [hd_error option_map]. exists None. split; [reflexivity|constructor].
Qed.
End Bundles.
