(** C34: tables of methods and dispatching. *)

From Coq Require Import ZArith List Bool Lia.
From Verif Require Import Base BaseProofs Bytes Text MatchModel MatchSpec MatchLang MatchFacts MatchProps.
From Verif Require Import WireSpec WireModel WireWalk BundleSModel BundleSProofs BundleSProps.
From Verif Require Import HashModel QueryModel QuerySpec QueryProofs QueryProps DispatchModel DispatchSpec DispatchProofs.
Import ListNotations.
Open Scope Z_scope.

(** * The table *)

(** Every history of operations on a new table: either it has exactly the
    entries and the error codes of the plain list, entries are found by index
    and by selector as they are in the list (where they can be found at all),
    or the history uses an entry through a pointer that dangles. *)
Theorem C34_table n ops : -2^31 <= n < 152287 -> Forall (fun o => zlen (op_selector o) < 2^31) ops ->
  exists vt0, vt_alloc n = Ok vt0 /\
  match apply_all (Reg [] (Z.max n 0)) ops with
  | None => vt_ops vt0 ops = Ub Dangling
  | Some (g, codes) => exists vt, vt_ops vt0 ops = Ok (vt, codes) /\
      vt_entries vt = map fst (g_entries g) /\ vt_slots vt = g_slots g /\ vt_deleg vt = None /\
      (forall i, vt_by_index vt (Z.of_nat i) = Ok (if (i <? length (g_entries g))%nat then Some i else None)) /\
      (forall s, zlen s < 2^31 -> forall part compl,
         vt_call vt s part compl = match lookup s (g_entries g) with
                                   | None => Ok (1, [])
                                   | Some (e, true) => Ok (0, [Called e part compl])
                                   | Some (_, false) => Ub Dangling
                                   end)
  end.
Proof.
  intros Hn Hs. destruct (vt_alloc_ok n Hn) as (vt0 & E & H & D). exists vt0. split; [exact E|].
  pose proof (vt_ops_ok ops vt0 _ H Hs) as Ho. destruct (apply_all _ ops) as [[g cs]|]; [|exact Ho].
  destruct Ho as (vt & Eo & Hv & Dv). exists vt. split; [exact Eo|]. pose proof Hv as (He & Hsl & _).
  split; [exact He|]. split; [exact Hsl|]. split; [congruence|]. split.
  - intros i. unfold vt_by_index. rewrite He. unfold zlen. rewrite map_length. rewrite Z.geb_leb.
    destruct (i <? length (g_entries g))%nat eqn:Ei.
    + apply Nat.ltb_lt in Ei. replace (Z.of_nat (length (g_entries g)) <=? Z.of_nat i) with false by (symmetry; apply Z.leb_gt; lia).
      replace (Z.of_nat i <? 0) with false by (symmetry; apply Z.ltb_ge; lia). now rewrite Nat2Z.id.
    + apply Nat.ltb_ge in Ei. now replace (Z.of_nat (length (g_entries g)) <=? Z.of_nat i) with true by (symmetry; apply Z.leb_le; lia).
  - intros s Hsl' part compl. unfold vt_call.
    destruct (by_selector_ok vt g s Hv Hsl') as [(El & Hni & Eb)|(k & i & e & b & El & Eb & Hnth & Es & Hb)]; rewrite Eb, El; cbn [bind]; [reflexivity|].
    unfold deref. cbn [fst snd]. rewrite <- Hb. destruct b; cbn [negb bind]; [|reflexivity].
    rewrite He. erewrite map_nth_error by exact Hnth. reflexivity.
Qed.
Print Assumptions C34_table.

Lemma apply_within g o : Forall (fun e => snd e = true) (g_entries g) ->
  (is_add o = true -> zlen (g_entries g) < g_slots g) ->
  exists l c, apply g o = Some (Reg l (g_slots g), c) /\ map fst l = bind_op (map fst (g_entries g)) o /\
    Forall (fun e => snd e = true) l /\ zlen l <= zlen (g_entries g) + (if is_add o then 1 else 0).
Proof.
  intros Ht Hr.
  assert (Hex : forall s, existsb (fun e => eqs (ve_selector e) s) (map fst (g_entries g)) =
                          match lookup s (g_entries g) with Some _ => true | None => false end).
  { intros s. unfold lookup, has. clear. induction (g_entries g) as [|e l IH]; [reflexivity|]. cbn [map existsb find].
    destruct (eqs (ve_selector (fst e)) s); [reflexivity|]. exact IH. }
  assert (Hfl : forall s e b, lookup s (g_entries g) = Some (e, b) -> b = true).
  { intros s e b El. unfold lookup in El. apply find_some in El as [Hi _]. rewrite Forall_forall in Ht. exact (Ht _ Hi). }
  assert (Hmap : forall s f, map fst (change s f (g_entries g)) = map (fun e => if eqs (ve_selector e) s then f e else e) (map fst (g_entries g))).
  { intros s f. unfold change. rewrite !map_map. apply map_ext. intros e. unfold has. now destruct (eqs (ve_selector (fst e)) s). }
  assert (Hchf : forall s f, Forall (fun e => snd e = true) (change s f (g_entries g))).
  { intros s f. unfold change. apply Forall_map. eapply Forall_impl; [|exact Ht]. intros e He. cbn. now destruct (has s e). }
  assert (Hlen : forall s f, zlen (change s f (g_entries g)) = zlen (g_entries g)).
  { intros s f. unfold change, zlen. now rewrite map_length. }
  assert (Hnone : forall s f, lookup s (g_entries g) = None ->
     map (fun e => if eqs (ve_selector e) s then f e else e) (map fst (g_entries g)) = map fst (g_entries g)).
  { intros s f El. rewrite map_map. apply map_ext_in. intros e Hi. unfold lookup in El.
    pose proof (find_none _ _ El e Hi) as Hf. unfold has in Hf. now rewrite Hf. }
  assert (Hch : forall s f, exists l c, changed s f g = Some (Reg l (g_slots g), c) /\
     map fst l = map (fun e => if eqs (ve_selector e) s then f e else e) (map fst (g_entries g)) /\
     Forall (fun e => snd e = true) l /\ zlen l = zlen (g_entries g)).
  { intros s f. unfold changed. destruct (lookup s (g_entries g)) as [[e b]|] eqn:El.
    - rewrite (Hfl s e b El). eexists _, _. split; [reflexivity|]. rewrite Hmap, Hlen. auto.
    - exists (g_entries g), 32. rewrite (Hnone s f El). destruct g. auto. }
  destruct o as [s m c|s m|s m c]; cbn [apply bind_op is_add].
  - unfold make_room. destruct (zlen (g_entries g) <? g_slots g) eqn:Eb.
    2:{ apply Z.ltb_ge in Eb. specialize (Hr eq_refl). lia. }
    rewrite Hex. destruct (lookup s (g_entries g)) as [[e b]|] eqn:El.
    + destruct (Hch s (set_both m c)) as (l & c' & Ec & Em & Hf & Hl). exists l, c'. rewrite Ec. repeat split; auto. lia.
    + eexists _, _. split; [reflexivity|]. rewrite map_app. cbn [map fst]. split; [reflexivity|]. split.
      * apply Forall_app. split; [exact Ht|]. repeat constructor.
      * zl. lia.
  - destruct (Hch s (set_method m)) as (l & c' & Ec & Em & Hf & Hl). exists l, c'. rewrite Ec. repeat split; auto. lia.
  - destruct (Hch s (set_both m c)) as (l & c' & Ec & Em & Hf & Hl). exists l, c'. rewrite Ec. repeat split; auto. lia.
Qed.

Definition adds (ops : list vop) : Z := zlen (filter is_add ops).

Lemma apply_all_within : forall ops g, Forall (fun e => snd e = true) (g_entries g) ->
  zlen (g_entries g) + adds ops <= g_slots g ->
  exists l cs, apply_all g ops = Some (Reg l (g_slots g), cs) /\
    map fst l = fold_left bind_op ops (map fst (g_entries g)) /\ Forall (fun e => snd e = true) l.
Proof.
  induction ops as [|o ops IH]; intros g Ht Hr; cbn [apply_all fold_left].
  - exists (g_entries g), []. destruct g. auto.
  - unfold adds in *. cbn [filter] in Hr.
    assert (Hr' : zlen (g_entries g) + (if is_add o then 1 else 0) + zlen (filter is_add ops) <= g_slots g).
    { destruct (is_add o); rewrite ?zlen_cons in Hr; lia. }
    pose proof (zlen_nonneg (filter is_add ops)).
    destruct (apply_within g o Ht) as (l & c & E & Em & Hf & Hl).
    { intros Ea. rewrite Ea in Hr'. lia. }
    rewrite E. destruct (IH (Reg l (g_slots g)) Hf) as (l2 & cs & E2 & Em2 & Hf2); cbn [g_entries g_slots] in *; [lia|].
    rewrite E2. exists l2, (c :: cs). rewrite <- Em. auto.
Qed.

(** As long as no more entries are added than the table was created for, it is
    an ordered list of bindings, and every entry is found by its selector. *)
Theorem C34_table_within n ops : n < 152287 -> Forall (fun o => zlen (op_selector o) < 2^31) ops ->
  zlen (filter is_add ops) <= n ->
  exists vt0 vt codes, vt_alloc n = Ok vt0 /\ vt_ops vt0 ops = Ok (vt, codes) /\ vt_entries vt = bindings ops /\
    (forall s, zlen s < 2^31 -> forall part compl,
       vt_call vt s part compl = Ok match find (fun e => eqs (ve_selector e) s) (bindings ops) with
                                    | None => (1, [])
                                    | Some e => (0, [Called e part compl])
                                    end).
Proof.
  intros Hn Hs Ha. pose proof (zlen_nonneg (filter is_add ops)) as Hz.
  destruct (C34_table n ops) as (vt0 & E0 & H); [lia|exact Hs|].
  destruct (apply_all_within ops (Reg [] (Z.max n 0))) as (l & cs & E & Em & Hf).
  { constructor. }
  { cbn [g_entries g_slots]. unfold adds. change (zlen (@nil (ventry * bool))) with 0. lia. }
  rewrite E in H. destruct H as (vt & Eo & He & _ & _ & _ & Hc). cbn [g_entries] in *.
  exists vt0, vt, cs. split; [exact E0|]. split; [exact Eo|]. split; [rewrite He, Em; reflexivity|].
  intros s Hl part compl. rewrite (Hc s Hl). unfold bindings. cbn [map] in Em. rewrite <- Em.
  clear - Hf. unfold lookup, has. induction l as [|[e b] l IH]; [reflexivity|]. cbn [find map fst].
  pose proof (Forall_inv Hf) as Hb. cbn in Hb. subst b.
  destruct (eqs (ve_selector e) s); [reflexivity|]. apply IH. exact (Forall_inv_tail Hf).
Qed.
Print Assumptions C34_table_within.

(** A table that grows loses its entries: the array of entries is reallocated,
    but the hash table still points into the old one. *)
Theorem C34_growing_table_refuted : exists vt0, vt_alloc 1 = Ok vt0 /\
  exists vt, vt_ops vt0 [Add (str "/a") 1 10; Add (str "/b") 2 20] = Ok (vt, [0; 0]) /\
  vt_entries vt = [VE (str "/a") 1 10; VE (str "/b") 2 20] /\
  vt_call vt (str "/b") None None = Ok (0, [Called (VE (str "/b") 2 20) None None]) /\
  vt_call vt (str "/a") None None = Ub Dangling.
Proof.
  destruct (C34_table 1 [Add (str "/a") 1 10; Add (str "/b") 2 20]) as (vt0 & E & H); [lia|repeat constructor|].
  exists vt0. split; [exact E|].
  assert (Ea : apply_all (Reg [] (Z.max 1 0)) [Add (str "/a") 1 10; Add (str "/b") 2 20] =
     Some (Reg [(VE (str "/a") 1 10, false); (VE (str "/b") 2 20, true)] 2, [0; 0])) by reflexivity.
  rewrite Ea in H. destruct H as (vt & Eo & He & _ & _ & _ & Hc). exists vt. split; [exact Eo|]. split; [exact He|].
  split; rewrite Hc by reflexivity; reflexivity.
Qed.
Print Assumptions C34_growing_table_refuted.

(** * Dispatching *)

(** Every dispatch of a bundle with messages: the messages for no entry are
    given to the delegation method if there are any; then each entry of the
    table is called once, in the order of the table, with the bundle of the
    messages that extend its selector and the bundle of those that match it,
    both in the order of the bundle. *)
Theorem C34_dispatch junk stale vt hdr ws post strip :
  zlen hdr = 16 -> ws <> [] -> deliverable strip (vt_entries vt) ws ->
  Forall (fun w => 16 + zlen (enc_wmsg w) <= zlen junk) ws ->
  (undelivered (vt_entries vt) ws <> [] -> vt_deleg vt <> None) ->
  dispatch junk stale vt (16 + zlen (concat (map enc_wmsg ws))) (Some (hdr ++ concat (map enc_wmsg ws) ++ post)) strip
  = Ok (0, delegation (vt_deleg vt) (undelivered (vt_entries vt) ws) ++ map (call_of strip ws) (vt_entries vt)).
Proof.
  intros Hh Hne Hd Hj Hdl. fold (enc_wmsgs ws). unfold dispatch.
  pose proof (enc_nonempty ws Hne). destruct (16 + zlen (enc_wmsgs ws) =? 16) eqn:E; [lia|].
  rewrite impl_ok by assumption. cbn [bind]. rewrite delegate_ok.
  - cbn [bind]. do 3 f_equal. rewrite combine_map, map_map. reflexivity.
  - destruct (undelivered (vt_entries vt) ws); [now left|right]. now apply Hdl.
Qed.
Print Assumptions C34_dispatch.

(** Dispatching to some selectors: only the entries of these are called, in
    the order of the selectors and once for each time one is given. *)
Theorem C34_dispatch_selectors junk stale n ops d ss hdr ws post strip vt0 vt codes :
  n < 152287 -> Forall (fun o => zlen (op_selector o) < 2^31) ops -> zlen (filter is_add ops) <= n ->
  vt_alloc n = Ok vt0 -> vt_ops vt0 ops = Ok (vt, codes) ->
  let es := bindings ops in
  zlen hdr = 16 -> ws <> [] -> deliverable strip es ws ->
  Forall (fun w => 16 + zlen (enc_wmsg w) <= zlen junk) ws -> Forall (fun s => zlen s < 2^31) ss ->
  dispatch_selectors junk stale (vt_set_delegation vt (fst d) (snd d)) ss
    (16 + zlen (concat (map enc_wmsg ws))) (Some (hdr ++ concat (map enc_wmsg ws) ++ post)) strip
  = Ok (0, delegation (Some d) (undelivered es ws) ++
           flat_map (fun s => match find (fun e => eqs (ve_selector e) s) es with
                              | Some e => [call_of strip ws e] | None => [] end) ss).
Proof.
  intros Hn Hs Ha E0 Eo es Hh Hne Hd Hj Hss. pose proof (zlen_nonneg (filter is_add ops)) as Hz.
  destruct (vt_alloc_ok n) as (vt0' & E0' & H0 & D0); [lia|]. rewrite E0 in E0'. injection E0' as <-.
  pose proof (vt_ops_ok ops vt0 _ H0 Hs) as Ho.
  destruct (apply_all_within ops (Reg [] (Z.max n 0))) as (l & cs & E & Em & Hf).
  { constructor. }
  { cbn [g_entries g_slots]. unfold adds. change (zlen (@nil (ventry * bool))) with 0. lia. }
  rewrite E in Ho. destruct Ho as (vt' & Eo' & Hv & Dv). rewrite Eo in Eo'. injection Eo' as <- <-.
  set (vt1 := vt_set_delegation vt (fst d) (snd d)).
  assert (Hv1 : vholds vt1 (Reg l (g_slots (Reg [] (Z.max n 0))))) by exact Hv.
  assert (He : vt_entries vt1 = es).
  { destruct Hv1 as (He & _). rewrite He. cbn [g_entries]. unfold es, bindings. rewrite Em. reflexivity. }
  fold (enc_wmsgs ws). unfold dispatch_selectors.
  pose proof (enc_nonempty ws Hne). destruct (16 + zlen (enc_wmsgs ws) =? 16) eqn:E16; [lia|].
  rewrite He. rewrite impl_ok by assumption. cbn [bind]. rewrite delegate_ok by (right; discriminate). cbn [bind].
  assert (Ec : call_selectors vt1 (map (fun e => got strip (ve_selector e) ws) es) ss =
    Ok (flat_map (fun s => match find (fun e => eqs (ve_selector e) s) es with
                              | Some e => [call_of strip ws e] | None => [] end) ss)).
  { rewrite <- He. rewrite (call_selectors_ok vt1 _ (fun e => got strip (ve_selector e) ws) Hv1).
    - f_equal. apply flat_map_ext. intros s. cbn [g_entries]. destruct Hv1 as (He1 & _). rewrite He1. cbn [g_entries].
      unfold lookup, has. clear. induction l as [|[e b] l IH]; [reflexivity|]. cbn [find map fst].
      destruct (eqs (ve_selector e) s); [reflexivity|]. exact IH.
    - eapply Forall_impl; [|exact Hss]. intros s Hsl. split; [exact Hsl|]. intros e b El. cbn [g_entries] in El.
      unfold lookup in El. apply find_some in El as [Hi _]. rewrite Forall_forall in Hf. exact (Hf _ Hi). }
  rewrite Ec. cbn [bind]. do 3 f_equal. unfold vt1, vt_set_delegation. cbn [vt_deleg]. now destruct d.
Qed.
Print Assumptions C34_dispatch_selectors.

(** A bundle without messages is itself given to the delegation method and no
    entry is called; no bundle is an error.  Without a delegation method the
    program jumps through a NULL pointer. *)
Theorem C34_dispatch_no_messages junk stale vt buf strip m c :
  dispatch junk stale vt 16 None strip = Ok (16, []) /\
  (vt_deleg vt = Some (m, c) ->
   dispatch junk stale vt 16 (Some buf) strip = Ok (0, [Delegated m c (Some (16, Some buf))])) /\
  (vt_deleg vt = None -> dispatch junk stale vt 16 (Some buf) strip = Ub NullDeref).
Proof.
  split; [reflexivity|]. unfold dispatch, delegate. change (16 =? 16) with true. split; intros ->; reflexivity.
Qed.
Print Assumptions C34_dispatch_no_messages.

Theorem C34_no_delegation_method_refuted junk stale vt hdr ws post strip :
  zlen hdr = 16 -> ws <> [] -> deliverable strip (vt_entries vt) ws ->
  Forall (fun w => 16 + zlen (enc_wmsg w) <= zlen junk) ws ->
  undelivered (vt_entries vt) ws <> [] -> vt_deleg vt = None ->
  dispatch junk stale vt (16 + zlen (concat (map enc_wmsg ws))) (Some (hdr ++ concat (map enc_wmsg ws) ++ post)) strip
  = Ub NullDeref.
Proof.
  intros Hh Hne Hd Hj Hu Hdl. fold (enc_wmsgs ws). unfold dispatch.
  pose proof (enc_nonempty ws Hne). destruct (16 + zlen (enc_wmsgs ws) =? 16) eqn:E; [lia|].
  rewrite impl_ok by assumption. cbn [bind]. destruct (undelivered (vt_entries vt) ws) as [|u us]; [congruence|].
  cbn [bundle_of]. unfold delegate. now rewrite Hdl.
Qed.
Print Assumptions C34_no_delegation_method_refuted.

Lemma literal_app_inv x : forall p1 p2, literal x = p1 ++ p2 -> exists a1, p1 = literal a1.
Proof.
  induction x as [|c x IH]; intros [|d p1] p2 E; cbn [literal map app] in E; try discriminate; try (now exists []).
  injection E as <- E. destruct (IH p1 p2 E) as (a1 & ->). now exists (c :: a1).
Qed.

(** Stripping removes exactly the part of the address that matched the
    selector when the address of the message has no pattern characters and the
    selector no component that is a star. *)
Theorem C34_strip_plain x a n : address_ok x -> Forall (Forall plain_char) x -> address_ok a -> Forall (fun w => w <> [42]) a ->
  related (address_text x) (address_text a) = Extends n ->
  n = zlen (address_text a) /\ firstn (Z.to_nat n) (address_text x) = address_text a.
Proof.
  intros Hx Hp Ha Hs Hr. rewrite <- literal_text in Hr.
  destruct (C33_related (literal x) a (literal_ok x Hx Hp) Ha) as (_ & Hex & _).
  { apply literal_fits. }
  apply Hex in Hr as (p1 & p2 & Ep & _ & Hf & ->). pose proof Ep as Ep0.
  destruct (literal_app_inv x p1 p2 Ep) as (a1 & ->).
  apply (proj1 (literal_full a1 a Hs)) in Hf. subst a1. rewrite literal_text. split; [reflexivity|].
  rewrite <- (literal_text x), Ep0. unfold pattern_text. rewrite map_app, concat_app.
  change (concat (map (fun c => 47 :: component_text c) (literal a))) with (pattern_text (literal a)).
  rewrite literal_text. unfold zlen. rewrite Nat2Z.id. rewrite firstn_app, Nat.sub_diag, firstn_all. now rewrite app_nil_r.
Qed.
Print Assumptions C34_strip_plain.

(** With a pattern in the address of the message the wrong number of characters
    is removed: /*/b/c dispatched to /abc arrives as /c instead of /b/c, *)
Theorem C34_strip_pattern_refuted :
  let vt := VT [VE (str "/abc") 1 0] 1 0 (Tab [] 0 false) None in
  let w := WM (str "/*/b/c") (Some (str ",i", [0; 0; 0; 1])) in
  related (w_addr w) (str "/abc") = Extends 2 /\ strip_addr 2 w = WM (str "/b/c") (w_args w) /\
  forall junk stale, 200 <= zlen junk ->
  dispatch junk stale vt (16 + zlen (concat (map enc_wmsg [w]))) (Some (empty_header ++ concat (map enc_wmsg [w]) ++ [])) true
  = Ok (0, [Called (VE (str "/abc") 1 0) (bundle_of [WM (str "/c") (w_args w)]) None]).
Proof.
  intros vt w. split; [vm_compute; reflexivity|]. split; [reflexivity|]. intros junk stale Hj.
  assert (Hu : undelivered (vt_entries vt) [w] = []) by (vm_compute; reflexivity).
  rewrite C34_dispatch.
  - rewrite Hu. cbn [app map vt vt_entries delegation]. unfold call_of. cbn [ve_selector].
    assert (Epa : partials true (str "/abc") [w] = [WM (str "/c") (w_args w)]) by (vm_compute; reflexivity).
    assert (Eco : completes (str "/abc") [w] = []) by (vm_compute; reflexivity).
    rewrite Epa, Eco. reflexivity.
  - reflexivity.
  - discriminate.
  - split.
    + repeat constructor; try (cbn; exact I); discriminate.
    + intros w' e' [<-|[]] [<-|[]]. split; [repeat constructor; discriminate|]. split.
      * eexists; split; [vm_compute; reflexivity|discriminate].
      * intros _ k Hk. split; [discriminate|]. apply validate_iff. vm_compute. reflexivity.
  - constructor; [|constructor]. change (zlen (enc_wmsg w)) with 20. lia.
  - rewrite Hu. congruence.
Qed.
Print Assumptions C34_strip_pattern_refuted.

(** and reading can leave the address: /*/c dispatched to /abcdef. *)
Theorem C34_strip_out_of_bounds_refuted : forall junk stale, zlen junk = 200 ->
  let vt := VT [VE (str "/abcdef") 1 0] 1 0 (Tab [] 0 false) None in
  let w := WM (str "/*/c") (Some (str ",i", [0; 0; 0; 1])) in
  dispatch junk stale vt (16 + zlen (concat (map enc_wmsg [w]))) (Some (empty_header ++ concat (map enc_wmsg [w]))) true
  = Ub OOB.
Proof. intros junk stale Hj vt w. vm_compute. reflexivity. Qed.
Print Assumptions C34_strip_out_of_bounds_refuted.

Definition ex_ws : list wmsg :=
  [WM (str "/a/b") (Some (str ",i", [0; 0; 0; 1])); WM (str "/c") None; WM (str "/a") (Some (str ",i", [0; 0; 0; 2]));
   WM (str "/{x,b}") (Some (str ",", []))].
Definition ex_es : list ventry := [VE (str "/b") 1 10; VE (str "/a") 2 20; VE (str "/d") 3 30].
Example C34_hypotheses : deliverable true ex_es ex_ws /\ undelivered ex_es ex_ws = [WM (str "/c") None].
Proof.
  split; [|vm_compute; reflexivity]. split; [repeat constructor; try (cbn; exact I); discriminate|].
  intros w e Hw He. cbn in Hw, He.
  destruct Hw as [<-|[<-|[<-|[<-|[]]]]]; destruct He as [<-|[<-|[<-|[]]]];
    (split; [repeat constructor; discriminate|]; split; [eexists; split; [vm_compute; reflexivity|discriminate]|]);
    intros _ n Hr; vm_compute in Hr; try discriminate;
    (split; [discriminate|apply validate_iff; vm_compute; reflexivity]).
Qed.
Example C34_example : map (call_of true ex_ws) ex_es =
  [Called (VE (str "/b") 1 10) None (bundle_of [WM (str "/{x,b}") (Some (str ",", []))]);
   Called (VE (str "/a") 2 20) (bundle_of [WM (str "/b") (Some (str ",i", [0; 0; 0; 1]))])
     (bundle_of [WM (str "/a") (Some (str ",i", [0; 0; 0; 2]))]);
   Called (VE (str "/d") 3 30) None None].
Proof. vm_compute. reflexivity. Qed.
Example C34_bindings : bindings [Add (str "/a") 1 10; Add (str "/b") 2 20; Rebind (str "/a") 3; Add (str "/b") 4 40;
                                 Rebind (str "/c") 5; RebindContext (str "/a") 6 60]
  = [VE (str "/a") 6 60; VE (str "/b") 4 40].
Proof. reflexivity. Qed.
