(** Walking a serialized bundle: both of the library's loops visit the
    messages one after the other. *)

From Coq Require Import ZArith List Bool Lia.
From Verif Require Import Base BaseProofs Bytes UtilModel UtilProofs TimetagModel
  WireSpec SerialModel SerialSpec SerialProofs WireModel.
Import ListNotations.
Open Scope Z_scope.

(** Apply [body] to the positions of consecutive sized chunks. *)
Fixpoint visit {S R} (body : S -> Z -> res (lres S R)) (s : S) (p : Z) (bs : list bytes)
  : res (lres S R) :=
  match bs with
  | [] => Ok (Cont s)
  | b :: bs' =>
      do r <- body s p;
      match r with
      | Cont s' => visit body s' (p + 4 + zlen b) bs'
      | Done x => Ok (Done x)
      end
  end.

Lemma zlen_sized' b : zlen (sized b) = 4 + zlen b.
Proof. unfold sized. zl. unfold zlen at 1. rewrite be_bytes_length. lia. Qed.

Lemma chunks_len bs : zlen bs * 4 <= zlen (concat (map sized bs)).
Proof.
  induction bs as [|b bs IH]; [reflexivity|]. cbn [map concat]. zl. rewrite zlen_sized'.
  pose proof (zlen_nonneg b). lia.
Qed.

Lemma size_at P b l : zlen b < 2^31 -> rd32 (P ++ sized b ++ l) (zlen P) = Ok (zlen b).
Proof.
  intros H. pose proof (zlen_nonneg b). unfold sized. rewrite <- app_assoc. rewrite rd32_be.
  unfold u32. rewrite Z.mod_small by lia. reflexivity.
Qed.

Lemma s32_id v : - 2^31 <= v < 2^31 -> s32 v = v.
Proof. intros. unfold s32. rewrite Z.mod_small by lia. lia. Qed.

Lemma add_int_ok a b : - 2^31 <= a + b < 2^31 -> add_int a b = Ok (a + b).
Proof.
  intros H. unfold add_int. destruct (- 2^31 <=? a + b) eqn:E1; [|lia].
  destruct (a + b <? 2^31) eqn:E2; [|lia]. reflexivity.
Qed.

(** The raw walk. *)
Lemma raw_steps {S R} buf base len post (body : S -> Z -> res (lres S R)) : forall bs P s,
  buf = P ++ concat (map sized bs) ++ post ->
  base + len = zlen P + zlen (concat (map sized bs)) ->
  Forall (fun b => zlen b + 4 < 2^31) bs ->
  loopn (fun st : Z * S =>
           let (p, s) := st in
           run (if negb (p - base <? len) then Ok (Done (Cont s)) else
                do r <- body s p;
                match r with
                | Done x => Ok (Done (Done x))
                | Cont s' =>
                    do n <- rd32 buf p;
                    do k <- add_int (s32 n) 4;
                    Ok (Cont (p + k, s'))
                end)) (Datatypes.S (length bs)) (zlen P, s)
  = Done (visit body s (zlen P) bs).
Proof.
  induction bs as [|b bs IH]; intros P s Hbuf Hlen Hb.
  - cbn [map concat] in Hlen. zl. cbn [length loopn visit].
    destruct (zlen P - base <? len) eqn:E; [lia|]. reflexivity.
  - cbn [map concat] in Hbuf, Hlen. zl. rewrite zlen_sized' in Hlen.
    inversion Hb as [|? ? Hb1 Hb2]; subst. pose proof (zlen_nonneg b).
    pose proof (zlen_nonneg (concat (map sized bs))).
    change (length (b :: bs)) with (Datatypes.S (length bs)).
    remember (Datatypes.S (length bs)) as n eqn:En. cbn [loopn visit].
    destruct (zlen P - base <? len) eqn:E; [|lia]. cbn [negb].
    destruct (body s (zlen P)) as [[s'|x]|u|]; cbn [bind run]; try reflexivity.
    rewrite <- app_assoc. rewrite size_at by lia. cbn [bind]. rewrite s32_id by lia.
    rewrite add_int_ok by lia. cbn [bind run].
    specialize (IH (P ++ sized b) s'). rewrite zlen_app, zlen_sized' in IH.
    replace (zlen P + (4 + zlen b)) with (zlen P + 4 + zlen b) in IH by lia.
    replace (zlen P + (zlen b + 4)) with (zlen P + 4 + zlen b) by lia. subst n.
    rewrite <- IH; [| now rewrite <- !app_assoc | lia | assumption ].
    rewrite <- ?app_assoc. reflexivity.
Qed.

Theorem raw_loop_visit {S R} (body : S -> Z -> res (lres S R)) s P hdr bs post :
  zlen hdr = 16 -> Forall (fun b => zlen b + 4 < 2^31) bs ->
  raw_loop (P ++ hdr ++ concat (map sized bs) ++ post) (zlen P)
    (16 + zlen (concat (map sized bs))) body s
  = visit body s (zlen P + 16) bs.
Proof.
  intros Hh Hb. unfold raw_loop.
  eapply while_loopn.
  - replace (zlen P + 16) with (zlen (P ++ hdr)) by (zl; lia).
    apply (raw_steps _ (zlen P) (16 + zlen (concat (map sized bs))) post body bs (P ++ hdr) s).
    + now rewrite <- app_assoc.
    + zl. lia.
    + assumption.
  - unfold walk_fuel. rewrite Z2Pos.id by lia. pose proof (chunks_len bs). unfold zlen in *. lia.
Qed.

(** The iterator: the message structure is rewrapped at each position. *)
Definition iter_body {S R} (buf : bytes) (body : S -> msg_s -> res (lres S R))
  (st : msg_s * S) (p : Z) : res (lres (msg_s * S) R) :=
  do m <- wrap (fst st) buf p;
  do r <- body (snd st) m;
  match r with Cont s' => Ok (Cont (m, s')) | Done x => Ok (Done x) end.

Definition drop_msg {S R} (r : res (lres (msg_s * S) R)) : res (lres S R) :=
  do x <- r; match x with Cont st => Ok (Cont (snd st)) | Done x => Ok (Done x) end.

Lemma wrap_size m buf p m' : wrap m buf p = Ok m' -> ms_size m' = Some p.
Proof.
  unfold wrap. destruct (rd32 buf p) as [n|u|]; try discriminate. cbn [bind].
  destruct (rdstr buf (p + 4)) as [a|u|]; try discriminate. cbn [bind].
  destruct (_ >? _).
  - now intros [= <-].
  - destruct (rdstr buf _) as [t|u|]; try discriminate. cbn [bind]. now intros [= <-].
Qed.

Lemma iter_steps {S R} buf base len post (body : S -> msg_s -> res (lres S R)) :
  forall bs P0 b0 s m,
  buf = P0 ++ sized b0 ++ concat (map sized bs) ++ post ->
  base + 16 <= zlen P0 ->
  base + len = zlen P0 + zlen (sized b0) + zlen (concat (map sized bs)) ->
  zlen b0 + 4 < 2^31 -> Forall (fun b => zlen b + 4 < 2^31) bs ->
  ms_size m = Some (zlen P0) ->
  loopn (fun st : bit * S =>
           let (it, s) := st in
           run (do more <- bit_has_next buf it;
                if negb more then Ok (Done (Cont s)) else
                do it' <- bit_next buf it;
                do r <- body s (it_msg it');
                match r with Cont s' => Ok (Cont (it', s')) | Done x => Ok (Done (Done x)) end))
    (Datatypes.S (length bs)) (BIT len base (zlen P0) m, s)
  = Done (drop_msg (visit (iter_body buf body) (m, s) (zlen P0 + 4 + zlen b0) bs)).
Proof.
  induction bs as [|b bs IH]; intros P0 b0 s m Hbuf Hbase Hlen Hb0 Hb Hm.
  - cbn [map concat] in *. zl. rewrite zlen_sized' in Hlen. pose proof (zlen_nonneg b0).
    cbn [length loopn visit]. unfold bit_has_next. cbn [it_msgptr it_bndl it_len it_msg].
    destruct (zlen P0 - base >=? len) eqn:E1; [lia|].
    destruct (len =? 16) eqn:E2; [lia|]. cbn [orb].
    destruct (zlen P0 =? base) eqn:E3; [lia|]. cbn [andb].
    unfold get_size. rewrite Hm. rewrite Hbuf at 1. rewrite size_at by lia. cbn [bind].
    rewrite s32_id by lia. rewrite add_int_ok by lia. cbn [bind].
    destruct (zlen P0 + (zlen b0 + 4) - base >=? len) eqn:E4; [|lia]. reflexivity.
  - cbn [map concat] in *. zl. rewrite !zlen_sized' in Hlen. pose proof (zlen_nonneg b0).
    pose proof (zlen_nonneg b). pose proof (zlen_nonneg (concat (map sized bs))).
    inversion Hb as [|? ? Hb1 Hb2]; subst x l.
    change (length (b :: bs)) with (Datatypes.S (length bs)).
    remember (Datatypes.S (length bs)) as n eqn:En. cbn [loopn visit].
    unfold bit_has_next, bit_next. cbn [it_msgptr it_bndl it_len it_msg].
    destruct (zlen P0 - base >=? len) eqn:E1; [lia|].
    destruct (len =? 16) eqn:E2; [lia|]. cbn [orb].
    destruct (zlen P0 =? base) eqn:E3; [lia|]. cbn [andb].
    assert (Hsz : get_size buf m = Ok (zlen b0)).
    { unfold get_size. rewrite Hm. rewrite Hbuf. rewrite size_at by lia. cbn [bind].
      now rewrite s32_id by lia. }
    rewrite Hsz. cbn [bind]. rewrite add_int_ok by lia. cbn [bind].
    destruct (zlen P0 + (zlen b0 + 4) - base >=? len) eqn:E4; [lia|]. cbn [negb].
    destruct (zlen P0 - base <? len) eqn:E5; [|lia].
    destruct (zlen P0 + (zlen b0 + 4) - base <? len) eqn:E6; [|lia].
    replace (zlen P0 + (zlen b0 + 4)) with (zlen P0 + 4 + zlen b0) by lia.
    unfold iter_body at 1. cbn [fst snd].
    destruct (wrap m buf (zlen P0 + 4 + zlen b0)) as [m'|u|] eqn:Ew; cbn [bind run]; try reflexivity.
    cbn [it_msg].
    destruct (body s m') as [[s'|x]|u|]; cbn [bind run]; try reflexivity.
    specialize (IH (P0 ++ sized b0) b s' m'). rewrite zlen_app, zlen_sized' in IH.
    replace (zlen P0 + (4 + zlen b0)) with (zlen P0 + 4 + zlen b0) in IH by lia. subst n.
    apply IH; try assumption; try lia.
    + rewrite Hbuf. now rewrite <- !app_assoc.
    + rewrite zlen_sized'. lia.
    + now apply wrap_size in Ew.
Qed.

Theorem bundle_loop_visit {S R} (body : S -> msg_s -> res (lres S R)) s P hdr bs post :
  zlen hdr = 16 -> Forall (fun b => zlen b + 4 < 2^31) bs ->
  let buf := P ++ hdr ++ concat (map sized bs) ++ post in
  bundle_loop buf (zlen P) (16 + zlen (concat (map sized bs))) body s
  = drop_msg (visit (iter_body buf body) (init_msg, s) (zlen P + 16) bs).
Proof.
  intros Hh Hb buf. unfold bundle_loop.
  apply (while_loopn _ _ (Datatypes.S (length bs))).
  - destruct bs as [|b bs].
    + cbn [map concat length loopn visit]. change (zlen (@nil Z)) with 0.
      unfold bit_has_next, bit_get. cbn [it_msgptr it_bndl it_len it_msg].
      destruct (zlen P - zlen P >=? 16 + 0) eqn:E1; [lia|]. reflexivity.
    + inversion Hb as [|? ? Hb1 Hb2]; subst x l.
      change (length (b :: bs)) with (Datatypes.S (length bs)).
      remember (Datatypes.S (length bs)) as n eqn:En. cbn [loopn visit].
      cbn [map concat]. zl. rewrite zlen_sized'.
      pose proof (zlen_nonneg b). pose proof (zlen_nonneg (concat (map sized bs))).
      set (len := 16 + (4 + zlen b + zlen (concat (map sized bs)))).
      unfold bit_has_next, bit_next, bit_get. cbn [it_msgptr it_bndl it_len it_msg].
      destruct (zlen P - zlen P >=? len) eqn:E1; [lia|].
      destruct (len =? 16) eqn:E2; [lia|]. cbn [orb].
      rewrite Z.eqb_refl. destruct (len >? 16) eqn:E3; [|lia]. cbn [andb bind negb].
      unfold iter_body at 1. cbn [fst snd].
      destruct (wrap init_msg buf (zlen P + 16)) as [m'|u|] eqn:Ew; cbn [bind run]; try reflexivity.
      cbn [it_msg]. destruct (body s m') as [[s'|x]|u|]; cbn [bind run]; try reflexivity.
      subst n. replace (zlen P + 16) with (zlen (P ++ hdr)) by (zl; lia).
      apply iter_steps with (post := post); try assumption.
      * unfold buf. cbn [map concat]. now rewrite <- !app_assoc.
      * zl. lia.
      * zl. rewrite zlen_sized'. unfold len. lia.
      * apply wrap_size in Ew. rewrite Ew. zl. now rewrite Hh.
  - clearbody buf. unfold walk_fuel. rewrite Z2Pos.id by lia. pose proof (chunks_len bs) as Hc.
    unfold zlen at 1 in Hc. pose proof (zlen_nonneg (concat (map sized bs))).
    rewrite Nat2Z.inj_succ. change (@length (list Z) bs) with (@length bytes bs). lia.
Qed.
