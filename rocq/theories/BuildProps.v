(** Messages built argument by argument (C90). *)

From Coq Require Import String ZArith List Bool Lia.
From Verif Require Import Base Text BaseProofs Bytes UtilModel UtilProofs TimetagModel SerialModel WireModel FnCastModel
  WireSpec SerialSpec ExprSpec WireProofs SerialProofs SerialProps DeserProofs DeserProps HeapModel HeapSpec HeapProofs HeapProps BuildModel BuildSpec.
Import ListNotations.
Open Scope Z_scope.

Lemma length_be v : length (be_bytes 4 v) = 4%nat.
Proof. pose proof (zlen_be 4 v) as K. unfold zlen in K. lia. Qed.
Lemma firstn_be v l : firstn 4 (be_bytes 4 v ++ l) = be_bytes 4 v.
Proof. rewrite firstn_app, length_be, Nat.sub_diag, firstn_O, app_nil_r, <- (length_be v) at 1. apply firstn_all. Qed.
Lemma skipn_be v l : skipn 4 (be_bytes 4 v ++ l) = l.
Proof. rewrite skipn_app, length_be, Nat.sub_diag, <- (length_be v) at 1. now rewrite skipn_all. Qed.
Lemma set_blob_ok p d rest : wf_bytes d -> zlen d + 8 < 2^31 ->
  exists a, set_blob atom_fresh p (be_bytes 4 (zlen d) ++ d ++ rest) 0 = Ok a /\ ok_atom a /\ raw_value a = VBlob d.
Proof.
  intros B L. pose proof (zlen_nonneg d) as N. set (z := repeat 0 (Z.to_nat (4 * ((zlen d + 1 + 3) / 4) + 4 - (zlen d + 4)))).
  exists (Atom 98 (u64 p) (PBlob ((be_bytes 4 (zlen d) ++ d) ++ z))).
  split; [|split].
  - unfold set_blob. pose proof (rd32_be [] (zlen d) (d ++ rest)) as R. change (zlen (@nil Z)) with 0 in R. cbn [app] in R.
    assert (U : u32 (zlen d) = zlen d) by (apply Z.mod_small; lia). rewrite U in R. rewrite R. cbn [bind]. rewrite s32_id by lia.
    rewrite (proj2 (Z.ltb_ge (zlen d) 0)), (proj2 (Z.leb_gt (2^31) _)) by lia. cbn [orb].
    pose proof (slice_app [] (be_bytes 4 (zlen d) ++ d) rest) as Sl. change (zlen (@nil Z)) with 0 in Sl. cbn [app] in Sl.
    rewrite <- app_assoc, zlen_app, zlen_be in Sl. change (Z.of_nat 4) with 4 in Sl.
    replace (zlen d + 4) with (4 + zlen d) at 1 by lia. rewrite Sl. reflexivity.
  - cbn [ok_atom]. split; [unfold u64; apply Z.mod_pos_bound; lia|]. split; [reflexivity|].
    assert (F : firstn 4 ((be_bytes 4 (zlen d) ++ d) ++ z) = be_bytes 4 (zlen d)).
    { rewrite <- app_assoc. apply firstn_be. }
    unfold blob_ok. rewrite F, of_be_4. assert (U : u32 (zlen d) = zlen d) by (apply Z.mod_small; lia). rewrite U.
    pose proof (zlen_nonneg z). rewrite !zlen_app, zlen_be. change (Z.of_nat 4) with 4. split; [|lia].
    apply Forall_app. split; [apply Forall_app; split; [apply be_bytes_wf|exact B]|].
    unfold z. apply Forall_forall. intros x Hx. apply repeat_spec in Hx. subst x. unfold is_byte. lia.
  - cbn [raw_value existsb Z.eqb Pos.eqb orb]. f_equal. unfold blob_data. rewrite <- app_assoc. rewrite firstn_be, skipn_be, of_be_4.
    assert (U : u32 (zlen d) = zlen d) by (apply Z.mod_small; lia). rewrite U. unfold zlen. rewrite Nat2Z.id, firstn_app, Nat.sub_diag, firstn_O, app_nil_r.
    apply firstn_all.
Qed.

(** The atom of a typed call holds the value. *)
Lemma typed_ok t v : sends t v -> exists a, typed_atom t = Ok a /\ ok_atom a /\ raw_value a = v.
Proof.
  assert (W : forall n x, 0 <= n <= 64 -> 0 <= SerialModel.store n 0 x < 2^64).
  { intros n x Hn. unfold SerialModel.store. rewrite Z.mod_0_l by lia. pose proof (Z.mod_pos_bound x (2^n) ltac:(lia)).
    assert (2^n <= 2^64) by (apply Z.pow_le_mono_r; lia). lia. }
  assert (P : forall n, 0 <= u64 n < 2^64) by (intros n; unfold u64; apply Z.mod_pos_bound; lia).
  assert (N : forall hdr ms rest, zlen hdr = 16 -> Forall (std_message slash) ms -> zlen (enc_bundle hdr ms) + 4 < 2^31 ->
    exists a, set_bndl_s atom_fresh (enc_bundle hdr ms ++ rest) (zlen (enc_bundle hdr ms)) = Ok a /\ ok_atom a /\ raw_value a = VBundle (map narrow_msg ms)).
  { intros hdr ms rest H1 H2 H3. destruct (C13_deserialize [] hdr ms rest H1 H2 H3) as (ms' & E & O & R). cbn [app] in E. change (zlen (@nil Z)) with 0 in E.
    unfold set_bndl_s. rewrite E. cbn [bind]. eexists. split; [reflexivity|]. split.
    - cbn [ok_atom set_bndl]. split; [apply P|]. split; [reflexivity|]. clear -O. induction O; cbn; auto.
    - cbn [raw_value set_bndl existsb Z.eqb Pos.eqb orb]. f_equal. exact R. }
  intros H. pose proof C12_setters as C.
  destruct H as [v|v|v|v|v|v|v|v|v|v|p s|p s|v| | | |hdr ms rest|hdr ms rest|p ms|x f|p d rest]; cbn [typed_atom];
    try (specialize (C v); decompose [and] C; clear C; eexists; split; [reflexivity|]; split; [|assumption];
         cbn [ok_atom set_int8 set_int16 set_int32 set_int64 set_uint8 set_uint16 set_uint32 set_uint64 set_float set_double atom_fresh];
         split; [apply W; lia|split; discriminate]).
  - eexists. split; [reflexivity|]. split; [|reflexivity]. cbn [ok_atom set_string]. split; [apply P|]. auto.
  - eexists. split; [reflexivity|]. split; [|reflexivity]. cbn [ok_atom set_string]. split; [apply P|]. auto.
  - eexists. split; [reflexivity|]. destruct (v =? 0); (split; [|reflexivity]); cbn; repeat split; try lia; discriminate.
  - eexists. split; [reflexivity|]. split; [|reflexivity]. cbn. repeat split; try lia; discriminate.
  - eexists. split; [reflexivity|]. split; [|reflexivity]. cbn. repeat split; try lia; discriminate.
  - eexists. split; [reflexivity|]. split; [|reflexivity]. cbn. repeat split; try lia; discriminate.
  - now apply N.
  - now apply N.
  - eexists. split; [reflexivity|]. split; [|reflexivity]. cbn [ok_atom set_bndl]. split; [apply P|]. split; [reflexivity|]. clear -H. induction H; cbn; auto.
  - eexists. split; [reflexivity|]. split; [|]. 
    + cbn [ok_atom set_timetag atom_fresh sec frac]. split; [|split; discriminate]. unfold u32. pose proof (Z.mod_pos_bound x (2^32)). pose proof (Z.mod_pos_bound f (2^32)). lia.
    + specialize (C x). decompose [and] C. auto.
  - now apply set_blob_ok.
Qed.

(** The atoms of the message in order hold the values. *)
Definition carries (a : args_spec atom) (vs : list WireSpec.value) : Prop :=
  Forall2 (fun l v => exists x, live a l = Some x /\ ok_atom x /\ raw_value x = v) (args a) vs.

Lemma insert_forall2 {A B} (R : A -> B -> Prop) n x y l k : R x y -> Forall2 R l k -> Forall2 R (insert_at n x l) (insert_at n y k).
Proof.
  intros H F. revert n. induction F as [|a b l k Hab F IH]; intros [|n]; cbn; auto.
Qed.
(* where an atom goes *)
Definition op_at (p : place) (loc : Z) : arg_op atom :=
  match p with AtEnd => Append loc | AtFront => Prepend loc | At f pos => Insert f loc pos end.
Lemma place_ok h m a vs loc p x v : inv h m a -> carries a vs -> h loc = None -> position_ok p -> ok_atom x -> raw_value x = v ->
  exists h' m' a', arg_step (elem_alloc h loc x) m (op_at p loc) = Ok (h', m') /\ inv h' m' a' /\ carries a' (placed p v vs) /\
    (forall l, h' l = None <-> (h l = None /\ l <> loc)).
Proof.
  intros I C Hl Hp Ox Rx.
  destruct (arg_step_ok h m a (New loc x) I Hl) as (h1 & m1 & E1 & I1). cbn [arg_step] in E1. injection E1 as <- <-. cbn [spec_op] in I1.
  pose proof I as (xs & D & Ea & Lv).
  assert (NI : ~ In loc (args a)).
  { intros Hi. assert (K : forall l, In l (args a) -> live a l <> None).
    { intros l Hi'. destruct (In_nth_error _ _ Hi') as (n & Hn). clear -C Hn. unfold carries in C. revert n Hn. generalize (args a), vs, C.
      intros ls ws F. induction F as [|y w ls ws (z & Hz & _) F IH]; intros [|n] Hn; try discriminate; cbn in Hn; [injection Hn as <-; congruence|eauto]. }
    apply (K loc Hi). rewrite <- Lv. unfold HeapProps.value. now rewrite Hl. }
  assert (Hx : elem_alloc h loc x loc <> None) by (unfold elem_alloc, upd; rewrite Z.eqb_refl; discriminate).
  set (a1 := Args (fun y => if y =? loc then Some x else live a y) (args a)) in *.
  assert (C1 : Forall2 (fun l w => exists y, live a1 l = Some y /\ ok_atom y /\ raw_value y = w) (args a) vs).
  { clear -C NI. unfold carries in C. revert C NI. generalize (args a). intros ls F. induction F as [|y w ls ws (z & Hz & Hr) F IH]; intros NI; constructor.
    - exists z. unfold a1. cbn [live]. destruct (y =? loc) eqn:E; [|auto]. apply Z.eqb_eq in E. subst y. elim NI. now left.
    - apply IH. intros Hi. apply NI. now right. }
  assert (X1 : exists y, live a1 loc = Some y /\ ok_atom y /\ raw_value y = v).
  { exists x. unfold a1. cbn [live]. rewrite Z.eqb_refl. auto. }
  set (o := op_at p loc).
  assert (En : enabled (elem_alloc h loc x) a1 o).
  { unfold o, op_at. destruct p as [| |f pos]; cbn [enabled]; unfold a1; cbn [args]; auto.
    repeat split; auto. intros _ _ n Hn. unfold elem_alloc, upd in Hn. rewrite Z.eqb_refl in Hn. now injection Hn as <-. }
  destruct (arg_step_ok _ _ a1 o I1 En) as (h2 & m2 & E2 & I2). exists h2, m2, (spec_op a1 o).
  split; [exact E2|]. split; [exact I2|]. split.
  - unfold carries, o, op_at. destruct p as [| |f pos]; cbn [spec_op args placed live].
    + apply Forall2_app; [exact C1|]. constructor; [exact X1|constructor].
    + constructor; [exact X1|exact C1].
    + apply insert_forall2; [exact X1|exact C1].
  - intros l. destruct I2 as (_ & _ & _ & Lv2). assert (K : h2 l = None <-> live (spec_op a1 o) l = None).
    { rewrite <- Lv2. unfold HeapProps.value. destruct (h2 l); cbn; split; congruence. }
    rewrite K. assert (Q : live (spec_op a1 o) l = live a1 l) by (unfold o, op_at; destruct p; reflexivity). rewrite Q. unfold a1. cbn [live].
    destruct (l =? loc) eqn:E; [apply Z.eqb_eq in E; subst l; intuition congruence|]. apply Z.eqb_neq in E. rewrite <- Lv. unfold HeapProps.value.
    destruct (h l); cbn; intuition congruence.
Qed.
Lemma put_ok h m a vs loc p t v : inv h m a -> carries a vs -> h loc = None -> position_ok p -> sends t v ->
  exists h' m' a', put h m (Put loc p t) = Ok (h', m') /\ inv h' m' a' /\ carries a' (placed p v vs) /\
    (forall l, h' l = None <-> (h l = None /\ l <> loc)).
Proof.
  intros I C Hl Hp S. destruct (typed_ok t v S) as (x & Ex & Ox & Rx). unfold put. rewrite Ex. cbn [bind].
  destruct (place_ok h m a vs loc p x v I C Hl Hp Ox Rx) as (h' & m' & a' & E & K). exists h', m', a'. split; [|exact K].
  destruct p; exact E.
Qed.
Lemma puts_ok vs l ws : built vs l ws -> forall h m a, inv h m a -> carries a vs ->
  NoDup (locations l) -> (forall x, In x (locations l) -> h x = None) ->
  exists h' m' a', puts h m l = Ok (h', m') /\ inv h' m' a' /\ carries a' ws /\ forall x, h' x = None <-> (h x = None /\ ~ In x (locations l)).
Proof.
  induction 1 as [vs|vs loc p t v l ws Hp Hs _ IH]; intros h m a I C N F.
  - exists h, m, a. cbn. repeat split; auto; tauto.
  - cbn [locations map] in N, F. inversion N as [|? ? N1 N2]; subst.
    destruct (put_ok h m a vs loc p t v I C (F loc (or_introl eq_refl)) Hp Hs) as (h1 & m1 & a1 & E1 & I1 & C1 & F1).
    destruct (IH h1 m1 a1 I1 C1 N2) as (h2 & m2 & a2 & E2 & I2 & C2 & F2).
    { intros x Hx. apply F1. split; [apply F; now right|]. intros ->. contradiction. }
    exists h2, m2, a2. cbn [puts]. rewrite E1. cbn [bind]. split; [exact E2|]. split; [exact I2|]. split; [exact C2|].
    intros x. rewrite F2, F1. cbn [locations map In]. fold (locations l). intuition congruence.
Qed.

Lemma iterate_ok h ls : forall p, chain n_next h p ls -> forall atoms, Forall2 (fun l x => option_map n_val (h l) = Some x) ls atoms ->
  forall k, (length ls <= k)%nat -> iterate k h p = Ok atoms.
Proof.
  induction 1 as [|l n ls E _ IH]; intros atoms F k K; inversion F as [|? x ? r Hx F']; subst; [now destruct k|].
  cbn [length] in K. destruct k as [|k]; [lia|]. cbn [iterate get]. rewrite E in *. cbn in Hx. injection Hx as <-. cbn [bind].
  rewrite (IH r F' k) by lia. reflexivity.
Qed.
Lemma inv_atoms h m a vs : inv h m a -> carries a vs ->
  exists atoms, arg_array h m = Ok atoms /\ Forall ok_atom atoms /\ map raw_value atoms = vs /\ zlen vs = e_count m.
Proof.
  intros I C. apply inv_holds in I as (Hc & _ & Hn & _ & Lv).
  assert (K : exists atoms, Forall2 (fun l x => option_map n_val (h l) = Some x) (args a) atoms /\ Forall ok_atom atoms /\ map raw_value atoms = vs).
  { clear Hc Hn. unfold carries in C. induction C as [|l v ls ws (x & Hx & Ox & <-) C IH]; [exists []; repeat constructor|].
    destruct IH as (atoms & F & O & <-). exists (x :: atoms). repeat constructor; auto. now rewrite Lv. }
  destruct K as (atoms & F & O & R). exists atoms. split; [|split; [exact O|split; [exact R|]]].
  - unfold arg_array. apply (iterate_ok h (args a) _ Hn atoms F). rewrite Hc. unfold zlen. lia.
  - rewrite Hc, <- R. unfold zlen. rewrite map_length. f_equal. symmetry. clear -F. induction F; cbn; auto.
Qed.

(** Whatever typed calls are made on an empty message, each argument is where it was put,
    and the iterator gives the arguments in order. *)
Theorem C90_built l vs : built [] l vs -> NoDup (locations l) ->
  exists h m atoms, puts (fun _ => None) no_args l = Ok (h, m) /\ arg_array h m = Ok atoms /\
    map raw_value atoms = vs /\ e_count m = zlen vs.
Proof.
  intros B N. destruct (puts_ok [] l vs B (fun _ => None) no_args (Args (fun _ => None) [])) as (h & m & a & E & I & C & _); auto.
  - exists []. split; [apply dll_nil|]. split; reflexivity.
  - constructor.
  - destruct (inv_atoms h m a vs I C) as (atoms & K1 & K2 & K3 & K4). exists h, m, atoms. auto.
Qed.
Print Assumptions C90_built.
(** Serialized, the message is the OSC encoding of these values. *)
Theorem C90_wire l vs address junk : built [] l vs -> NoDup (locations l) ->
  nonul address -> wf_bytes address -> zlen address + 4 < 2^32 -> zlen vs + 5 < 2^32 ->
  zlen (enc_message (M address vs)) <= zlen junk ->
  exists h m u, puts (fun _ => None) no_args l = Ok (h, m) /\ message_of address h m = Ok u /\
    msg_serialize junk u = Ok (enc_message (M address vs)).
Proof.
  intros B N A1 A2 A3 L J. destruct (puts_ok [] l vs B (fun _ => None) no_args (Args (fun _ => None) [])) as (h & m & a & E & I & C & _); auto.
  - exists []. split; [apply dll_nil|]. split; reflexivity.
  - constructor.
  - destruct (inv_atoms h m a vs I C) as (atoms & K1 & K2 & K3 & K4). exists h, m, (UMsg (Some address) atoms).
    split; [exact E|]. split; [unfold message_of; now rewrite K1|]. rewrite <- K3 in *. apply C12_message_encoding; [|exact J].
    cbn [ok_msg]. split; [auto|]. unfold zlen in L |- *. rewrite map_length in L. split; [exact L|]. clear -K2. induction K2; cbn; auto.
Qed.
Print Assumptions C90_wire.

Lemma set_array_ok l : forall h m a vs, inv h m a -> carries a vs -> Forall ok_atom (map snd l) -> NoDup (map fst l) ->
  (forall x, In x (map fst l) -> h x = None) ->
  exists h' m' a', set_arg_array h m l = Ok (h', m') /\ inv h' m' a' /\ carries a' (vs ++ map raw_value (map snd l)).
Proof.
  induction l as [|[loc x] l IH]; intros h m a vs I C O N F; cbn [map fst snd set_arg_array] in *.
  - exists h, m, a. rewrite app_nil_r. auto.
  - inversion O; subst. inversion N as [|? ? N1 N2]; subst.
    destruct (place_ok h m a vs loc AtEnd x (raw_value x) I C (F loc (or_introl eq_refl)) Logic.I) as (h1 & m1 & a1 & E & I1 & C1 & F1); auto.
    cbn [arg_step op_at] in E. rewrite E. cbn [bind placed] in *.
    destruct (IH h1 m1 a1 _ I1 C1) as (h2 & m2 & a2 & E2 & I2 & C2); auto.
    { intros y Hy. apply F1. split; [apply F; now right|]. intros ->. contradiction. }
    exists h2, m2, a2. rewrite <- app_assoc in C2. auto.
Qed.
(** The array of one message's arguments given to another: they go behind the arguments
    that are there. *)
Theorem C90_arrays l vs l' ws : built [] l vs -> NoDup (locations l) -> built [] l' ws -> NoDup (locations l') ->
  exists h m h1 m1 copies, puts (fun _ => None) no_args l = Ok (h, m) /\ puts (fun _ => None) no_args l' = Ok (h1, m1) /\
    arg_array h1 m1 = Ok copies /\ length copies = length ws /\
    forall locs, length locs = length ws -> NoDup locs -> (forall x, In x locs -> ~ In x (locations l)) ->
    exists h2 m2 atoms, set_arg_array h m (combine locs copies) = Ok (h2, m2) /\ arg_array h2 m2 = Ok atoms /\
      map raw_value atoms = vs ++ ws /\ e_count m2 = zlen vs + zlen ws.
Proof.
  assert (S : inv (fun _ => None) no_args (Args (fun _ => @None atom) [])) by (exists []; split; [apply dll_nil|split; reflexivity]).
  assert (S0 : carries (Args (fun _ => None) []) []) by constructor.
  intros B N B' N'. destruct (puts_ok [] l vs B _ _ _ S S0 N) as (h & m & a & E & I & C & F); [auto|].
  destruct (puts_ok [] l' ws B' _ _ _ S S0 N') as (h1 & m1 & a1 & E1 & I1 & C1 & _); [auto|].
  destruct (inv_atoms h1 m1 a1 ws I1 C1) as (copies & K1 & K2 & K3 & K4). exists h, m, h1, m1, copies.
  assert (L : length copies = length ws) by (rewrite <- K3; now rewrite map_length).
  split; [exact E|]. split; [exact E1|]. split; [exact K1|]. split; [exact L|]. intros locs Hl Nl D.
  assert (M1 : map fst (combine locs copies) = locs).
  { assert (Q : length locs = length copies) by lia. clear -Q. revert copies Q. induction locs; intros [|c cs] Q; try discriminate; cbn; [auto|]. f_equal. apply IHlocs. now injection Q. }
  assert (M2 : map snd (combine locs copies) = copies).
  { assert (Q : length locs = length copies) by lia. clear -Q. revert copies Q. induction locs; intros [|c cs] Q; try discriminate; cbn; [auto|]. f_equal. apply IHlocs. now injection Q. }
  destruct (set_array_ok (combine locs copies) h m a vs I C) as (h2 & m2 & a2 & E2 & I2 & C2); rewrite ?M1, ?M2; auto.
  { intros x Hx. apply F. auto. }
  rewrite M2, K3 in C2. destruct (inv_atoms h2 m2 a2 _ I2 C2) as (atoms & Q1 & Q2 & Q3 & Q4).
  exists h2, m2, atoms. rewrite zlen_app in Q4. auto.
Qed.
Print Assumptions C90_arrays.
(** A message allocated with one argument has that argument. *)
Theorem C90_alloc_with loc t v : sends t v ->
  exists h m x, alloc_with (fun _ => None) loc t = Ok (h, m) /\ arg_array h m = Ok [x] /\ raw_value x = v.
Proof.
  intros S. destruct (C90_built [Put loc AtEnd t] [v]) as (h & m & atoms & E & A & R & _).
  - apply built_cons with v; [exact Logic.I|exact S|constructor].
  - cbn. constructor; [intros []|constructor].
  - destruct atoms as [|x [|]]; try discriminate. injection R as R. exists h, m, x. cbn [puts] in E. unfold alloc_with.
    destruct (put _ _ _) as [[? ?]| |]; [|discriminate..]. auto.
Qed.
Print Assumptions C90_alloc_with.

(** An int, a string in front of it, and a blob between the two. *)
Definition demo : list call :=
  [Put 10 AtEnd (GInt32 (-1)); Put 20 AtFront (GString 500 [104; 105]);
   Put 30 (At true 1) (GBlob 600 (be_bytes 4 3 ++ [1; 2; 3] ++ [0; 0]))].
Example demo_built : built [] demo [VStr [104; 105]; VBlob [1; 2; 3]; VNum32 105 (2^32 - 1)] /\ NoDup (locations demo).
Proof.
  split; [|repeat constructor; cbn; intuition discriminate].
  unfold demo. eapply built_cons; [exact Logic.I|apply s_int32|].
  eapply built_cons; [exact Logic.I|apply s_string; [repeat constructor; discriminate|repeat constructor; discriminate|reflexivity]|].
  eapply built_cons; [cbn; discriminate|apply s_blob with (d := [1; 2; 3]); [repeat constructor; discriminate|reflexivity]|].
  apply built_nil.
Qed.
(** What it is on the wire, by the specification. *)
Example demo_wire : enc_message (M [47; 97] [VStr [104; 105]; VBlob [1; 2; 3]; VNum32 105 (2^32 - 1)]) =
  [0; 0; 0; 28; 47; 97; 0; 0; 44; 115; 98; 105; 0; 0; 0; 0; 104; 105; 0; 0; 0; 0; 0; 3; 1; 2; 3; 0; 255; 255; 255; 255].
Proof. reflexivity. Qed.
