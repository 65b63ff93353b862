(** Proofs about copies of atoms and the loops of the list functions (C38). *)

From Coq Require Import ZArith List Bool Lia.
From Verif Require Import Base BaseProofs Bytes UtilModel UtilProofs TimetagModel
  WireSpec SerialModel SerialSpec SerialProofs SerialProps AtomSModel WireModel WireProofs WireWalk
  ArgProofs DeserProofs DeserProps AtomUModel AtomSpec AtomProofs ExprModel ExprListModel ExprSpec ExprProps.
Import ListNotations.
Open Scope Z_scope.

(** * Copies *)

Lemma narrow_same :
  (forall v, zlen (enc_value (narrow v)) = zlen (enc_value v) /\ vtag (narrow v) = vtag v /\
     (std_value slash v -> std_value slash (narrow v))) /\
  (forall m, zlen (enc_message (narrow_msg m)) = zlen (enc_message m) /\
     (std_message slash m -> std_message slash (narrow_msg m))).
Proof.
  assert (SUM : forall A (e : A -> bytes) (f : A -> A) l, Forall (fun x => zlen (e (f x)) = zlen (e x)) l ->
    zlen (concat (map e (map f l))) = zlen (concat (map e l))).
  { intros A e f l H. induction H as [|x l Hx _ IH]; [reflexivity|].
    cbn [map concat]. rewrite !zlen_app. lia. }
  assert (HV : forall v,
    match v with VBundle ms => Forall (fun m => zlen (enc_message (narrow_msg m)) = zlen (enc_message m) /\
      (std_message slash m -> std_message slash (narrow_msg m))) ms | _ => True end ->
    zlen (enc_value (narrow v)) = zlen (enc_value v) /\ vtag (narrow v) = vtag v /\
     (std_value slash v -> std_value slash (narrow v))).
  { intros v H. destruct v; try (split; [reflexivity|split; [reflexivity|exact (fun h => h)]]).
    - cbn [narrow]. assert (L : forall a b, zlen (be_bytes 4 a) = zlen (be_bytes 4 b)) by (intros; now rewrite !zlen_be).
      destruct ((tag =? 99) || (tag =? 67)) eqn:E1; [|destruct ((tag =? 117) || (tag =? 85)) eqn:E2];
        (split; [apply L|split; [reflexivity|]]); cbn [std_value]; intros [H1 H2]; (split; [exact H1|]);
        pose proof (Z.mod_pos_bound v (2^8) eq_refl); pose proof (Z.mod_pos_bound v (2^16) eq_refl); lia.
    - cbn [narrow]. split; [|split; [reflexivity|]].
      + cbn [enc_value]. rewrite !zlen_sized', !zlen_app. f_equal. f_equal. apply SUM.
        eapply Forall_impl; [|exact H]. intros m Hm. apply Hm.
      + cbn [std_value]. intros Hs. apply all_Forall in Hs. apply all_Forall. rewrite Forall_map.
        eapply Forall_mp; [|exact Hs]. eapply Forall_impl; [|exact H]. intros m Hm. apply Hm. }
  assert (HM : forall a vs, Forall (fun v => zlen (enc_value (narrow v)) = zlen (enc_value v) /\ vtag (narrow v) = vtag v /\
     (std_value slash v -> std_value slash (narrow v))) vs ->
     zlen (enc_message (narrow_msg (M a vs))) = zlen (enc_message (M a vs)) /\
     (std_message slash (M a vs) -> std_message slash (narrow_msg (M a vs)))).
  { intros a vs H. cbn [narrow_msg]. split.
    - cbn [enc_message]. rewrite !zlen_sized', !zlen_app.
      rewrite (SUM _ enc_value narrow) by (eapply Forall_impl; [|exact H]; intros v Hv; apply Hv).
      replace (map vtag (map narrow vs)) with (map vtag vs); [reflexivity|].
      rewrite map_map. apply map_ext_in. rewrite Forall_forall in H. intros v Hv. symmetry. apply (H v Hv).
    - cbn [std_message]. intros (H1 & H2 & H3 & H4). split; [exact H1|]. split; [exact H2|]. split; [exact H3|].
      apply all_Forall in H4. apply all_Forall. rewrite Forall_map.
      eapply Forall_mp; [|exact H4]. eapply Forall_impl; [|exact H]. intros v Hv. apply Hv. }
  split; [exact (value_ind2 _ _ HV HM) | exact (message_ind2 _ _ HV HM)].
Qed.

Lemma enc_narrow ms : zlen (enc_bundle empty_header (map narrow_msg ms)) = zlen (enc_bundle empty_header ms).
Proof.
  unfold enc_bundle. rewrite !zlen_app. f_equal. induction ms as [|m ms IH]; [reflexivity|].
  cbn [map concat]. rewrite !zlen_app. rewrite (proj1 (proj2 narrow_same m)). lia.
Qed.

Lemma copy_bundle_ok ms : Forall ok_msg ms -> Forall (std_message slash) (raw_msgs ms) ->
  zlen (enc_bundle empty_header (raw_msgs ms)) + 4 < 2^31 ->
  exists ms', copy_bundle ms = Ok ms' /\ Forall ok_msg ms' /\ raw_msgs ms' = map narrow_msg (raw_msgs ms).
Proof.
  intros Hok Hs Hl. unfold copy_bundle. rewrite bundle_size_ok by exact Hok. cbn [bind].
  set (n := 16 + zlen (enc_umsgs ms)).
  assert (Hn : n = zlen (enc_bundle empty_header (raw_msgs ms))).
  { unfold enc_bundle. rewrite zlen_app, enc_umsgs_raw. reflexivity. }
  assert (Hj : zlen (enc_bundle empty_header (raw_msgs ms)) <= zlen (repeat 0 (Z.to_nat n))).
  { rewrite <- Hn. unfold zlen. rewrite repeat_length. lia. }
  assert (Hser := C12_bundle_encoding ms _ Hok Hj). rewrite Hser. cbn [bind].
  destruct (C13_round_trip ms _ _ Hok Hs Hj Hser Hl) as (ms' & H1 & H2 & H3 & _).
  exists ms'. split; [exact H1|]. split; [exact H2|]. exact H3.
Qed.

Lemma copy_value a : copyable a -> exists b, copy_atom a = Ok b /\ copyable b /\
  raw_value b = match raw_value a with VBundle ms => VBundle (map narrow_msg ms) | v => v end.
Proof.
  intros [Hok Hr]. destruct a as [tg w p]. cbn [ok_atom] in Hok. destruct Hok as [Hw Hp].
  destruct p as [|s|b|ms]; cbn [copy_atom].
  - destruct Hp as [H1 H2]. rewrite (proj2 (Z.eqb_neq _ _) H1). destruct (tg =? 46) eqn:E46.
    + apply Z.eqb_eq in E46. subst tg.
      destruct (copy_bundle_ok []) as (ms' & -> & Hms & Hraw); [constructor|constructor|vm_compute; reflexivity|].
      cbn [bind]. eexists. split; [reflexivity|].
      assert (Hv : raw_value (Atom 46 w (PBndl ms')) = VBundle []).
      { change (raw_value (Atom 46 w (PBndl ms'))) with (VBundle (raw_msgs ms')). now rewrite Hraw. }
      split; [|exact Hv]. split.
      * cbn [ok_atom]. split; [exact Hw|]. split; [reflexivity|]. apply all_Forall. exact Hms.
      * rewrite Hv. split; [constructor|vm_compute; reflexivity].
    + rewrite (proj2 (Z.eqb_neq _ _) H2). eexists. split; [reflexivity|]. split.
      * split; [split; [exact Hw|split; assumption]|exact Hr].
      * clear Hr. cbn [raw_value]. destruct (existsb _ _); [reflexivity|]. destruct (existsb _ _); [reflexivity|].
        destruct (tg =? 116); [reflexivity|]. now rewrite E46.
  - destruct Hp as (-> & Hp). cbn [Z.eqb Pos.eqb]. eexists. split; [reflexivity|]. split; [|reflexivity].
    split; [split; [exact Hw|split; [reflexivity|exact Hp]]|exact Hr].
  - destruct Hp as (-> & Hb). cbn [Z.eqb Pos.eqb].
    destruct (blob_facts b Hb) as (d & r & Eb & Ed & Hd & Hwf).
    assert (Hn : rd32 b 0 = Ok (zlen d)).
    { rewrite Eb. refine (eq_trans (rd32_be [] (zlen d) (d ++ r)) _). f_equal. pose proof (zlen_nonneg d). unfold u32. apply Z.mod_small. lia. }
    assert (Hsl : slice b 0 (zlen d + 4) = Ok (be_bytes 4 (zlen d) ++ d)).
    { rewrite Eb. replace (zlen d + 4) with (zlen (be_bytes 4 (zlen d) ++ d)) by (rewrite zlen_app, zlen_be; lia).
      rewrite app_assoc. apply (slice_app [] (be_bytes 4 (zlen d) ++ d) r). }
    pose proof (zlen_nonneg d).
    assert (U : u32 (zlen d) = zlen d) by (unfold u32; apply Z.mod_small; lia).
    rewrite Hn. cbn [bind]. replace (s32 (zlen d)) with (zlen d) by (symmetry; apply (wrap_id I32); unfold in_type; cbn [signed width]; lia).
    rewrite (proj2 (Z.ltb_ge _ _)) by lia. rewrite Hsl. cbn [bind].
    eexists. split; [reflexivity|].
    assert (Bd : blob_data (be_bytes 4 (zlen d) ++ d) = d).
    { unfold blob_data. rewrite firstn_app, skipn_app.
      assert (L4 : length (be_bytes 4 (zlen d)) = 4%nat) by apply be_bytes_length.
      rewrite L4, Nat.sub_diag. rewrite (firstn_all2 (n := 4)) by lia. rewrite (skipn_all2 (n := 4)) by lia.
      change (firstn 0 d) with (@nil Z). change (skipn 0 d) with d. rewrite app_nil_r. cbn [app].
      rewrite of_be_4, U. unfold zlen. rewrite Nat2Z.id. apply firstn_all. }
    split.
    + split; [|exact I]. cbn [ok_atom]. split; [exact Hw|]. split; [reflexivity|].
      unfold blob_ok. split; [|].
      * apply Forall_app. split; [apply be_bytes_wf|exact Hwf].
      * assert (F4 : of_be (firstn 4 (be_bytes 4 (zlen d) ++ d)) = zlen d).
        { rewrite firstn_app. assert (L4 : length (be_bytes 4 (zlen d)) = 4%nat) by apply be_bytes_length.
          rewrite L4, Nat.sub_diag. rewrite (firstn_all2 (n := 4)) by lia. change (firstn 0 d) with (@nil Z). rewrite app_nil_r. now rewrite of_be_4. }
        rewrite F4, zlen_app, zlen_be. lia.
    + change (raw_value (Atom 98 w (PBlob b))) with (VBlob (blob_data b)).
      change (raw_value (Atom 98 w (PBlob (be_bytes 4 (zlen d) ++ d)))) with (VBlob (blob_data (be_bytes 4 (zlen d) ++ d))).
      now rewrite Bd, Ed.
  - destruct Hp as (-> & Hms). cbn [Z.eqb Pos.eqb]. apply all_Forall in Hms.
    change (raw_value (Atom 46 w (PBndl ms))) with (VBundle (raw_msgs ms)) in Hr. destruct Hr as [Hs Hl].
    destruct (copy_bundle_ok ms Hms Hs Hl) as (ms' & -> & Hms' & Hraw). cbn [bind].
    eexists. split; [reflexivity|].
    assert (Hv : raw_value (Atom 46 w (PBndl ms')) = VBundle (map narrow_msg (raw_msgs ms))).
    { change (raw_value (Atom 46 w (PBndl ms'))) with (VBundle (raw_msgs ms')). now rewrite Hraw. }
    split; [|exact Hv]. split.
    + cbn [ok_atom]. split; [exact Hw|]. split; [reflexivity|]. apply all_Forall. exact Hms'.
    + rewrite Hv. split; [|now rewrite enc_narrow].
      rewrite Forall_map. eapply Forall_impl; [|exact Hs]. intros m. apply (proj2 (proj2 narrow_same m)).
Qed.
Lemma copy_tag a b : copy_atom a = Ok b -> a_tt b = a_tt a.
Proof.
  destruct a as [tg w p]. cbn [copy_atom a_tt].
  destruct (tg =? 115); [destruct p; try discriminate; now injection 1 as <-|].
  destruct (tg =? 46).
  { destruct (copy_bundle _); cbn [bind]; try discriminate. now injection 1 as <-. }
  destruct (tg =? 98); [|now injection 1 as <-].
  destruct p as [|s|b'|ms]; try discriminate. destruct (rd32 b' 0); cbn [bind]; try discriminate.
  destruct (_ <? 0); [discriminate|]. destruct (slice _ _ _); cbn [bind]; try discriminate. now injection 1 as <-.
Qed.
Lemma copy_ok a : copyable a -> exists b, copy_atom a = Ok b /\ copy_of a b.
Proof.
  intros H. destruct (copy_value a H) as (b & E & H1 & H2). exists b. split; [exact E|]. split; [exact H1|].
  split; [exact (copy_tag a b E)|exact H2].
Qed.

(** * Loops *)

Lemma aput_mid done x rest i f : i = zlen done ->
  aput (Some (done ++ x :: rest)) i f = do y <- f x; Ok (Some (done ++ y :: rest)).
Proof. intros ->. apply aput_at. Qed.

(** A loop that writes copies of [xs] one after the other. *)
Lemma fill f xs : forall i0 done news rest,
  length news = length xs -> Forall copyable xs ->
  (forall j x out, nth_error xs j = Some x ->
     f (i0 + Z.of_nat j) out = aput out (zlen done + Z.of_nat j) (fun _ => copy_atom x)) ->
  exists ys, forn (length xs) i0 f (Some (done ++ news ++ rest)) = Ok (Some (done ++ ys ++ rest)) /\
    Forall2 copy_of xs ys.
Proof.
  induction xs as [|x xs IH]; intros i0 done news rest Hl Hc Hf.
  - destruct news; [|discriminate Hl]. exists []. split; [reflexivity|constructor].
  - destruct news as [|z news]; [discriminate Hl|]. cbn [length forn].
    pose proof (Hf 0%nat x (Some (done ++ (z :: news) ++ rest)) eq_refl) as H0. rewrite !Z.add_0_r in H0.
    rewrite H0. cbn [app]. rewrite aput_at.
    destruct (copy_ok x (Forall_inv Hc)) as (y & Hy & Cy). rewrite Hy. cbn [bind].
    destruct (IH (i0 + 1) (done ++ [y]) news rest) as (ys & Hr & Hys).
    + now inversion Hl.
    + exact (Forall_inv_tail Hc).
    + intros j x' out Hx. pose proof (Hf (S j) x' out Hx) as H1.
      replace (i0 + 1 + Z.of_nat j) with (i0 + Z.of_nat (S j)) by lia.
      rewrite zlen_app, zlen_cons. change (zlen (@nil atom)) with 0.
      replace (zlen done + (1 + 0) + Z.of_nat j) with (zlen done + Z.of_nat (S j)) by lia. exact H1.
    + exists (y :: ys). split; [|now constructor].
      rewrite <- !app_assoc in Hr. exact Hr.
Qed.

Lemma copy_member_some out i src j x : 0 <= j -> nth_error (members src) (Z.to_nat j) = Some x ->
  copy_member out i src j = aput out i (fun _ => copy_atom x).
Proof. intros Hj Hx. unfold copy_member. rewrite aget_members, Hx by exact Hj. reflexivity. Qed.

Lemma aalloc_len {A} (l : list A) : aalloc (zlen l) = Ok (Some (repeat atom_fresh (length l))).
Proof.
  unfold aalloc. pose proof (zlen_nonneg l). rewrite (proj2 (Z.ltb_ge _ _)) by lia. unfold zlen. now rewrite Nat2Z.id.
Qed.

(** Filling a whole fresh array. *)
Lemma fill_all f xs i0 : Forall copyable xs ->
  (forall j x out, nth_error xs j = Some x -> f (i0 + Z.of_nat j) out = aput out (Z.of_nat j) (fun _ => copy_atom x)) ->
  exists ys, forn (length xs) i0 f (Some (repeat atom_fresh (length xs))) = Ok (Some ys) /\ Forall2 copy_of xs ys.
Proof.
  intros Hc Hf. destruct (fill f xs i0 [] (repeat atom_fresh (length xs)) []) as (ys & H1 & H2).
  - apply repeat_length.
  - exact Hc.
  - exact Hf.
  - rewrite !app_nil_r in H1. exists ys. split; assumption.
Qed.

Lemma acopy_into_ok s done news rest : length news = length s -> Forall copyable s ->
  exists ys, acopy_into (Some (done ++ news ++ rest)) (Some s) (zlen done) = Ok (Some (done ++ ys ++ rest)) /\
    Forall2 copy_of s ys.
Proof.
  intros Hl Hc. cbn [acopy_into]. rewrite (proj2 (Z.ltb_ge _ _)).
  - cbn [bind]. apply fill; [exact Hl|exact Hc|]. intros j x out Hx. rewrite Z.add_0_l.
    rewrite (copy_member_some out _ (Some s) (Z.of_nat j) x); [f_equal; lia|lia|]. now rewrite Nat2Z.id.
  - unfold zlen. rewrite !app_length, Hl. lia.
Qed.

Lemma add_int_ok a b : - 2^31 <= a + b < 2^31 -> add_int a b = Ok (a + b).
Proof.
  intros H. unfold add_int. now rewrite (proj2 (Z.leb_le _ _)), (proj2 (Z.ltb_lt _ _)) by lia.
Qed.

Definition total (argv : list arr) : Z := zlen (concat (map members argv)).

Lemma total_cons a argv : total (a :: argv) = zlen (members a) + total argv.
Proof. unfold total. cbn [map concat]. apply zlen_app. Qed.
Lemma total_nonneg argv : 0 <= total argv.
Proof. apply zlen_nonneg. Qed.

Lemma int_lens_ok argv : forall acc, 0 <= acc -> acc + total argv < 2^31 -> int_lens acc argv = Ok (acc + total argv).
Proof.
  induction argv as [|a argv IH]; intros acc Ha Hl; cbn [int_lens].
  - f_equal. unfold total. change (zlen _) with 0. lia.
  - rewrite total_cons in *. pose proof (total_nonneg argv). pose proof (zlen_nonneg (members a)).
    rewrite alen_members, add_int_ok by lia. cbn [bind]. rewrite IH by lia. f_equal. lia.
Qed.

(** A loop that writes what [g] makes of each of [xs] into a fresh array. *)
Lemma fill_fun {X} (R : X -> atom -> Prop) (g : X -> atom -> res atom) f (xs : list X) : forall i0 done,
  Forall (fun x => exists y, g x atom_fresh = Ok y /\ R x y) xs ->
  (forall j x out, nth_error xs j = Some x -> f (i0 + Z.of_nat j) out = aput out (zlen done + Z.of_nat j) (g x)) ->
  exists ys, forn (length xs) i0 f (Some (done ++ repeat atom_fresh (length xs))) = Ok (Some (done ++ ys)) /\ Forall2 R xs ys.
Proof.
  induction xs as [|x xs IH]; intros i0 done Hg Hf.
  - exists []. split; [reflexivity|constructor].
  - cbn [length forn repeat].
    pose proof (Hf 0%nat x (Some (done ++ atom_fresh :: repeat atom_fresh (length xs))) eq_refl) as H0. rewrite !Z.add_0_r in H0.
    rewrite H0. rewrite aput_at. destruct (Forall_inv Hg) as (y & Hy & Ry). rewrite Hy. cbn [bind].
    destruct (IH (i0 + 1) (done ++ [y])) as (ys & Hr & Hys).
    + exact (Forall_inv_tail Hg).
    + intros j x' out Hx. pose proof (Hf (S j) x' out Hx) as H1.
      replace (i0 + 1 + Z.of_nat j) with (i0 + Z.of_nat (S j)) by lia.
      rewrite zlen_app, zlen_cons. change (zlen (@nil atom)) with 0.
      replace (zlen done + (1 + 0) + Z.of_nat j) with (zlen done + Z.of_nat (S j)) by lia. exact H1.
    + exists (y :: ys). split; [|now constructor]. rewrite <- !app_assoc in Hr. exact Hr.
Qed.
Lemma fill_new {X} (R : X -> atom -> Prop) (g : X -> atom -> res atom) f (xs : list X) :
  Forall (fun x => exists y, g x atom_fresh = Ok y /\ R x y) xs ->
  (forall j x out, nth_error xs j = Some x -> f (Z.of_nat j) out = aput out (Z.of_nat j) (g x)) ->
  exists ys, forn (length xs) 0 f (Some (repeat atom_fresh (length xs))) = Ok (Some ys) /\ Forall2 R xs ys.
Proof. intros Hg Hf. exact (fill_fun R g f xs 0 [] Hg Hf). Qed.
