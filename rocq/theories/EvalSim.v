(** The evaluator follows the semantics (C57). *)

From Coq Require Import ZArith List Bool Lia.
From Verif Require Import Base BaseProofs Bytes UtilModel TimetagModel WireSpec SerialModel SerialSpec AtomSModel
  AtomUModel WireModel WireProofs WireProps BundleSModel BundleSProofs BundleSProps ExprModel ExprListModel ExprSpec
  ExprProps ExprListProofs ExprListProps DeserProofs DeserProps EvalModel EvalSpec EvalRep EvalBundle EvalProofs.
Import ListNotations.
Open Scope Z_scope.

(** * Results *)

Lemma rep_None a : result_rep a None -> a = None.
Proof. intros H. now inversion H. Qed.
Lemma rep_Some a vs : result_rep a (Some vs) -> exists l, a = Some l /\ Forall2 stands l vs.
Proof. intros H. inversion H; subst. eauto. Qed.
Lemma rep_bool b : result_rep (one_bool b) (Some [truth b]).
Proof.
  constructor. constructor; [|constructor]. destruct b; (split; [split; [cbn; split; [lia|split; discriminate]|exact I]|]);
    (split; [cbn; tauto|split; reflexivity]).
Qed.
Lemma stands_tag a v : stands a v -> a_tt a = vtag v.
Proof. intros (_ & _ & _ & H). exact H. Qed.
Lemma not_unbound c : c <> unbound -> (c =? UNBOUND) = false.
Proof. intros H. now apply Z.eqb_neq. Qed.
Lemma not_zero c : c <> 0 -> negb (c =? 0) = true.
Proof. intros H. apply negb_true_iff. now apply Z.eqb_neq. Qed.
Lemma aget_nth l i x : nth_error l i = Some x -> aget (Some l) (Z.of_nat i) = Ok (Some x).
Proof.
  intros H. cbn [aget]. assert (Hi : (i < length l)%nat) by (apply nth_error_Some; congruence).
  rewrite (proj2 (Z.leb_gt _ _)) by (unfold zlen; lia). rewrite (proj2 (Z.ltb_ge _ _)) by lia. now rewrite Nat2Z.id, H.
Qed.
Lemma Forall2_nth_r {A B} (R : A -> B -> Prop) l l' i y : Forall2 R l l' -> nth_error l' i = Some y ->
  exists x, nth_error l i = Some x /\ R x y.
Proof.
  intros H. revert i. induction H as [|a b l l' Hab _ IH]; intros [|i] E; try discriminate E.
  - injection E as <-. exists a. split; [reflexivity|exact Hab].
  - exact (IH i E).
Qed.
Lemma atom_values x v rest vs l : Forall2 stands l (v :: vs) -> l = x :: rest -> stands x v.
Proof. intros H ->. now inversion H. Qed.
Lemma copy_alloc b o : result_rep b o -> exists r, (do out <- aalloc (alen b); acopy_into out b 0) = Ok r /\ result_rep r (Some (values o)).
Proof.
  intros [|l vs H]; [exists (Some []); split; [reflexivity|constructor; constructor]|].
  cbn [alen values]. rewrite aalloc_len. cbn [bind].
  destruct (acopy_into_rep l vs [] (repeat atom_fresh (length l)) [] H (repeat_length _ _)) as (ys & E & Hy).
  rewrite !app_nil_r in E. cbn [app] in E. change (zlen (@nil atom)) with 0 in E. rewrite E. exists (Some ys). split; [reflexivity|now constructor].
Qed.

(** * Joining results *)

Lemma join_rep : forall outs outs', Forall2 result_rep outs outs' -> forall done rest,
  length rest = length (concat (map values outs')) ->
  exists ys, join_outputs outs (zlen done) (Some (done ++ rest)) = Ok (Some (done ++ ys)) /\
    Forall2 stands ys (concat (map values outs')).
Proof.
  induction 1 as [|o o' outs outs' Ho _ IH]; intros done rest Hl; cbn [join_outputs map concat] in *.
  - destruct rest; [|discriminate Hl]. exists []. split; [reflexivity|constructor].
  - destruct Ho as [|l vs H]; cbn [values alen] in *.
    + cbn [acopy_into bind]. rewrite Z.add_0_r. exact (IH done rest Hl).
    + rewrite app_length in Hl. rewrite <- (firstn_skipn (length vs) rest).
      set (r1 := firstn (length vs) rest). set (r2 := skipn (length vs) rest).
      assert (H1 : length r1 = length l) by (unfold r1; rewrite firstn_length, (Forall2_len _ _ _ H); lia).
      assert (H2 : length r2 = length (concat (map values outs'))) by (unfold r2; rewrite skipn_length; lia).
      destruct (acopy_into_rep l vs done r1 r2 H H1) as (ys & E & Hy). rewrite E. cbn [bind].
      destruct (IH (done ++ ys) r2 H2) as (zs & E' & Hz). exists (ys ++ zs).
      assert (Hzl : zlen (done ++ ys) = zlen done + zlen l).
      { rewrite zlen_app. f_equal. rewrite (Forall2_zlen _ _ _ Hy). symmetry. exact (Forall2_zlen _ _ _ H). }
      rewrite Hzl, <- !app_assoc in E'. split; [exact E'|]. now apply Forall2_app.
Qed.
Lemma total_len outs outs' : Forall2 result_rep outs outs' -> forall n,
  fold_left (fun n o => n + alen o) outs n = n + zlen (concat (map values outs')).
Proof.
  induction 1 as [|o o' outs outs' Ho _ IH]; intros n; cbn [fold_left map concat].
  - change (zlen (@nil value)) with 0. lia.
  - rewrite IH, zlen_app, (rep_len _ _ Ho). lia.
Qed.

(** * Rows *)

Lemma min_short os os' : Forall2 result_rep os os' -> Forall (fun o => zlen (values o) < 2^31) os' -> os <> [] ->
  Z.to_nat (min_len os) = shortest (map values os') /\ Forall (fun l => (shortest (map values os') <= length l)%nat) (map values os').
Proof.
  intros H Hb Hne. destruct H as [|o o' os os' Ho H]; [now destruct Hne|]. unfold min_len. cbn [fold_left map shortest].
  rewrite (rep_len _ _ Ho). pose proof (Forall_inv Hb) as Hb1. apply Forall_inv_tail in Hb. cbv beta in Hb1.
  assert (E0 : zlen (values o') <? 2^32 - 1 = true) by (apply Z.ltb_lt; lia). rewrite E0.
  change (zlen (values o')) with (Z.of_nat (length (values o'))). clear Ho Hne E0 Hb1.
  assert (K : forall n0, Z.to_nat (fold_left (fun min o => if alen o <? min then alen o else min) os (Z.of_nat n0)) =
      fold_left (fun n l => Nat.min n (length l)) (map values os') n0 /\
      Forall (fun l => (fold_left (fun n l => Nat.min n (length l)) (map values os') n0 <= length l)%nat) (map values os') /\
      (fold_left (fun n l => Nat.min n (length l)) (map values os') n0 <= n0)%nat).
  { induction H as [|u u' os os' Hu _ IH]; intros n0; cbn [fold_left map].
    - rewrite Nat2Z.id. repeat split; [constructor|lia].
    - rewrite (rep_len _ _ Hu). unfold zlen. specialize (IH (Forall_inv_tail Hb) (Nat.min n0 (length (values u')))).
      destruct IH as (I1 & I2 & I3). split; [|split; [constructor; [lia|exact I2]|lia]].
      rewrite <- I1. do 2 f_equal. destruct (Z.of_nat (length (values u')) <? Z.of_nat n0) eqn:E; [apply Z.ltb_lt in E|apply Z.ltb_ge in E]; lia. }
  destruct (K (length (values o'))) as (K1 & K2 & K3). split; [exact K1|]. constructor; [exact K3|exact K2].
Qed.
Definition nth_row (ls : list (list value)) (i : nat) : list value := map (fun l => nth i l (VFlag 78)) ls.
Lemma row_rep os os' i : Forall2 result_rep os os' -> Forall (fun l => (i < length l)%nat) (map values os') ->
  exists l, row os (Z.of_nat i) = Ok l /\ Forall2 arg_rep l (map AAtom (nth_row (map values os') i)).
Proof.
  induction 1 as [|o o' os os' Ho _ IH]; intros Hi; cbn [row map nth_row].
  - exists []. split; [reflexivity|constructor].
  - cbn [map] in Hi. pose proof (Forall_inv Hi) as Hi1. destruct (IH (Forall_inv_tail Hi)) as (r & Er & Hr).
    destruct Ho as [|l vs H]; cbn [values] in Hi1 |- *; [cbn [length] in Hi1; lia|].
    destruct (Forall2_nth_r stands l vs i (nth i vs (VFlag 78)) H (nth_error_nth' vs (VFlag 78) Hi1)) as (x & Ex1 & Hx).
    rewrite (aget_nth l i x Ex1). cbn [bind]. rewrite Er. cbn [bind]. exists (AAtom x :: r). split; [reflexivity|].
    constructor; [exact Hx|exact Hr].
Qed.

(** * Deleting *)

Lemma without_nil ms : without [] ms = ms.
Proof. unfold without. induction ms as [|[a vs] ms IH]; [reflexivity|]. cbn [filter]. rewrite IH. reflexivity. Qed.
Lemma without_app n1 n2 ms : without (n1 ++ n2) ms = without n2 (without n1 ms).
Proof.
  unfold without. induction ms as [|[a vs] ms IH]; [reflexivity|]. cbn [filter]. rewrite existsb_app.
  destruct (existsb (same_name a) n1) eqn:E1; cbn [orb negb]; [exact IH|].
  cbn [filter]. destruct (existsb (same_name a) n2); cbn [negb]; [exact IH|now rewrite IH].
Qed.
Lemma delete_all_rep : forall args args', Forall2 arg_rep args args' -> forall st w, bundle_rep st w ->
  exists st', delete_all st args = Ok st' /\ bundle_rep st' (with_msgs w (without (names_of args') (msgs w))).
Proof.
  assert (Hw : forall w, with_msgs w (msgs w) = w) by now intros [].
  induction 1 as [|a a' args args' Ha _ IH]; intros st w Hrep.
  - exists st. split; [reflexivity|]. unfold names_of. cbn [flat_map]. now rewrite without_nil, Hw.
  - assert (Hone : forall s, names_of [a'] = [s] -> exists st', delete_one st s = Ok st' /\
        bundle_rep st' (with_msgs w (without (names_of [a']) (msgs w)))).
    { intros s ->. now apply delete_rep. }
    assert (Hsplit : names_of (a' :: args') = names_of [a'] ++ names_of args').
    { unfold names_of. cbn [flat_map]. now rewrite app_nil_r. }
    rewrite Hsplit, without_app.
    assert (Hgo : forall st1, bundle_rep st1 (with_msgs w (without (names_of [a']) (msgs w))) ->
       exists st', delete_all st1 args = Ok st' /\ bundle_rep st' (with_msgs w (without (names_of args') (without (names_of [a']) (msgs w))))).
    { intros st1 H1. exact (IH st1 _ H1). }
    assert (Hkeep : names_of [a'] = [] -> bundle_rep st (with_msgs w (without (names_of [a']) (msgs w)))).
    { intros ->. now rewrite without_nil, Hw. }
    destruct a, a'; try contradiction; cbn [delete_all].
    + exact (Hgo st (Hkeep eq_refl)).
    + cbn [arg_rep] in Ha. rewrite (stands_tag _ _ Ha). destruct (is_string a0 (stands_std _ _ Ha)) as [(s & ->)|E].
      * cbn [vtag Z.eqb Pos.eqb]. rewrite (proj1 (proj2 (stands_str _ _ Ha))). cbn [bind].
        destruct (Hone s eq_refl) as (st1 & E1 & H1). rewrite E1. exact (Hgo st1 H1).
      * rewrite E. apply Hgo, Hkeep. destruct a0; try reflexivity. cbn in E. discriminate E.
    + exact (Hgo st (Hkeep eq_refl)).
    + exact (Hgo st (Hkeep eq_refl)).
    + destruct Ha as (<- & _). destruct (Hone p eq_refl) as (st1 & E1 & H1). rewrite E1. exact (Hgo st1 H1).
    + exact (Hgo st (Hkeep eq_refl)).
Qed.

(** * Assigning to places *)

Lemma at_place_out {A} (l : list A) i x : ~ (0 <= i < zlen l) -> at_place l i x = l.
Proof.
  intros H. unfold at_place. destruct ((0 <=? i) && (i <? zlen l)) eqn:E; [|reflexivity].
  apply andb_true_iff in E as [E1 E2]. apply Z.leb_le in E1. apply Z.ltb_lt in E2. lia.
Qed.
Lemma at_place_len {A} (l : list A) i x : zlen (at_place l i x) = zlen l.
Proof.
  unfold at_place. destruct ((0 <=? i) && (i <? zlen l)) eqn:C; [|reflexivity].
  apply andb_true_iff in C. destruct C as [C1 C2]. apply Z.leb_le in C1. apply Z.ltb_lt in C2.
  unfold zlen in *. rewrite app_length, firstn_length. cbn [length]. rewrite skipn_length. lia.
Qed.
Lemma set_nth_stands l vs n x v : Forall2 stands l vs -> stands x v -> (n < length l)%nat ->
  Forall2 stands (set_nth l n x) (firstn n vs ++ v :: skipn (S n) vs).
Proof.
  intros H Hx. revert n. induction H as [|a b l vs Ha H IH]; intros n Hn; [cbn in Hn; lia|].
  destruct n as [|n]; cbn [firstn skipn app set_nth].
  - constructor; assumption.
  - constructor; [assumption|]. apply IH. cbn in Hn. lia.
Qed.
Lemma put_index_rep l old idx i x n data j d dv : Forall2 stands l old ->
  nth_error idx i = Some x -> au_int x = Ok n -> nth_error data j = Some d -> stands d dv ->
  exists r, put_index (Some l) (zlen old) (Some idx) (Z.of_nat i) (Some data) (Z.of_nat j) = Ok r /\
    (exists l', match r with Some out => out | None => Some l end = Some l' /\ Forall2 stands l' (at_place old n dv)) /\
    (0 <= n < zlen old -> r <> None).
Proof.
  intros Hl Hi Hx Hj Hd. unfold put_index. rewrite (aget_nth idx i x Hi). cbn [bind int_at]. rewrite Hx. cbn [bind].
  destruct ((n >=? zlen old) || (n <? 0)) eqn:E.
  - exists None. split; [reflexivity|].
    assert (Hout : ~ (0 <= n < zlen old)).
    { apply orb_true_iff in E as [E|E]; [rewrite Z.geb_leb in E; apply Z.leb_le in E; lia|apply Z.ltb_lt in E; lia]. }
    split; [|contradiction]. exists l. split; [reflexivity|]. now rewrite at_place_out.
  - apply orb_false_iff in E as [E1 E2]. rewrite Z.geb_leb in E1. apply Z.leb_gt in E1. apply Z.ltb_ge in E2.
    unfold copy_member. rewrite (aget_nth data j d Hj). cbn [bind].
    destruct (copy_stands d dv Hd) as (y & Ey & Hy).
    pose proof (Forall2_zlen _ _ _ Hl) as Hlen.
    assert (Ep : aput (Some l) n (fun d0 => copy_into d0 (Some d)) = Ok (Some (set_nth l (Z.to_nat n) y))).
    { cbn [aput]. rewrite (proj2 (Z.leb_gt _ _)) by lia. rewrite (proj2 (Z.ltb_ge _ _)) by lia.
      destruct (nth_error l (Z.to_nat n)) eqn:En; [|apply nth_error_None in En; unfold zlen in *; lia].
      cbn [copy_into]. rewrite Ey. reflexivity. }
    rewrite Ep. cbn [bind]. eexists. split; [reflexivity|]. split; [|discriminate].
    eexists. split; [reflexivity|]. unfold at_place.
    rewrite (proj2 (Z.leb_le _ _)) by lia. rewrite (proj2 (Z.ltb_lt _ _)) by lia. cbn [andb].
    apply set_nth_stands; [exact Hl|exact Hy|]. unfold zlen in *. lia.
Qed.
Lemma put_indexes_rep idx data (jd : Z -> Z) outlen : forall (ps : list (Z * value)) i0 l old, Forall2 stands l old -> outlen = zlen old ->
  (forall j n dv, nth_error ps j = Some (n, dv) -> exists x d, nth_error idx (i0 + j) = Some x /\ au_int x = Ok n /\
     0 <= jd (Z.of_nat (i0 + j)) /\ nth_error data (Z.to_nat (jd (Z.of_nat (i0 + j)))) = Some d /\ stands d dv) ->
  exists l', forn (length ps) (Z.of_nat i0) (fun i out =>
      do o <- put_index out outlen (Some idx) i (Some data) (jd i); Ok (match o with Some out => out | None => out end)) (Some l) = Ok (Some l') /\
    Forall2 stands l' (at_places old (map fst ps) (map snd ps)).
Proof.
  induction ps as [|[n dv] ps IH]; intros i0 l old Hl Hout Hps; cbn [length forn map at_places fst snd].
  - exists l. split; [reflexivity|exact Hl].
  - destruct (Hps 0%nat n dv eq_refl) as (x & d & Hx & Hn & Hj & Hd & Hdv). rewrite Nat.add_0_r in Hx, Hj, Hd.
    destruct (put_index_rep l old idx i0 x n data (Z.to_nat (jd (Z.of_nat i0))) d dv Hl Hx Hn Hd Hdv) as (r & Er & (l1 & El1 & Hl1) & _).
    rewrite Z2Nat.id in Er by exact Hj. rewrite Hout, Er. cbn [bind].
    replace (match r with Some out0 => out0 | None => Some l end) with (Some l1).
    destruct (IH (S i0) l1 (at_place old n dv) Hl1) as (l' & El' & Hl').
    + now rewrite at_place_len.
    + intros j n' dv' Hj'. destruct (Hps (S j) n' dv' Hj') as (x' & d' & K). exists x', d'.
      replace (S i0 + j)%nat with (i0 + S j)%nat by lia. exact K.
    + exists l'. split; [|exact Hl']. rewrite Nat2Z.inj_succ in El'. rewrite <- Z.add_1_r in El'. rewrite <- Hout. exact El'.
Qed.
Lemma at_places_combine {A} : forall ns (ds : list A) l,
  at_places l (map fst (combine ns ds)) (map snd (combine ns ds)) = at_places l ns ds.
Proof. induction ns as [|n ns IH]; intros [|d ds] l; cbn; auto. Qed.
Lemma nth_comb {A B} : forall (l : list A) (l' : list B) j x y, nth_error (combine l l') j = Some (x, y) ->
  nth_error l j = Some x /\ nth_error l' j = Some y.
Proof.
  induction l as [|a l IH]; intros [|b l'] [|j] x y H; try discriminate H; cbn in *.
  - now injection H as <- <-.
  - now apply IH.
Qed.
Lemma whole_ints idx is ns : Forall2 stands idx is -> map whole is = map Some ns ->
  forall j n, nth_error ns j = Some n -> exists x, nth_error idx j = Some x /\ au_int x = Ok n.
Proof.
  intros H Hw j n Hj. assert (E : nth_error (map whole is) j = Some (Some n)) by (rewrite Hw, nth_error_map, Hj; reflexivity).
  rewrite nth_error_map in E. destruct (nth_error is j) as [v|] eqn:Ev; [|discriminate E]. cbn [option_map] in E. injection E as E.
  destruct (Forall2_nth_r stands idx is j v H Ev) as (x & Ex1 & Hx). exists x. split; [exact Ex1|]. exact (proj1 (stands_whole x v n Hx E)).
Qed.
(** The three cases of osc_expr_specFunc_assigntoindex. *)
Lemma put_cases l old idx is ns data ds : Forall2 stands l old -> Forall2 stands idx is -> map whole is = map Some ns ->
  Forall2 stands data ds -> ns <> [] -> ds <> [] -> (1 < zlen ds -> forall n, ns = [n] -> 0 <= n < zlen old) ->
  let nidx := zlen idx in
  let ndata := zlen data in
  exists l', (if (nidx =? 1) && (1 <? ndata) then put_index (Some l) (zlen old) (Some idx) 0 (Some data) 0
              else if (1 <? nidx) && (ndata =? 1) then
                do out <- put_indexes nidx (Some l) (zlen old) (Some idx) (Some data) (fun _ => 0); Ok (Some out)
              else
                do out <- put_indexes (if ndata <? nidx then ndata else nidx) (Some l) (zlen old) (Some idx) (Some data) (fun i => i);
                Ok (Some out)) = Ok (Some (Some l')) /\
    Forall2 stands l' (at_places old ns (match ds with [d] => repeat d (length ns) | _ => ds end)).
Proof.
  intros Hl Hi Hw Hd Hne Hde Hone nidx ndata.
  assert (Hlen : length idx = length ns).
  { rewrite (Forall2_len _ _ _ Hi). rewrite <- (map_length whole is), Hw, map_length. reflexivity. }
  pose proof (Forall2_len _ _ _ Hd) as Hdl.
  assert (Hget := whole_ints idx is ns Hi Hw).
  destruct ((nidx =? 1) && (1 <? ndata)) eqn:C1.
  - apply andb_true_iff in C1 as [C1 C2]. apply Z.eqb_eq in C1. apply Z.ltb_lt in C2. unfold nidx, ndata, zlen in C1, C2.
    destruct ns as [|n [|? ?]]; [now destruct Hne| |cbn [length] in Hlen; lia].
    destruct ds as [|d [|d' ds]]; [now destruct Hde|cbn [length] in Hdl; lia|].
    assert (Hr : 0 <= n < zlen old) by (apply Hone; [rewrite !zlen_cons; pose proof (zlen_nonneg ds); lia|reflexivity]).
    destruct (Hget 0%nat n eq_refl) as (x & Ex1 & Hx).
    destruct (Forall2_nth_r stands data _ 0 d Hd eq_refl) as (y & Ey & Hy).
    destruct (put_index_rep l old idx 0 x n data 0 y d Hl Ex1 Hx Ey Hy) as (r & Er & (l1 & El1 & Hl1) & Hnn).
    change (Z.of_nat 0) with 0 in Er. rewrite Er. destruct r as [o|]; [|exfalso; exact (Hnn Hr eq_refl)]. subst o.
    exists l1. split; [reflexivity|exact Hl1].
  - destruct ((1 <? nidx) && (ndata =? 1)) eqn:C2.
    + apply andb_true_iff in C2 as [C2 C3]. apply Z.eqb_eq in C3. unfold ndata, zlen in C3.
      destruct ds as [|d [|d' ds]]; [now destruct Hde| |cbn [length] in Hdl; lia].
      destruct (Forall2_nth_r stands data _ 0 d Hd eq_refl) as (y & Ey & Hy).
      destruct (put_indexes_rep idx data (fun _ => 0) (zlen old) (combine ns (repeat d (length ns))) 0 l old Hl eq_refl) as (l' & E & Hl').
      * intros j n dv Hj. apply nth_comb in Hj as [Hj1 Hj2]. destruct (Hget j n Hj1) as (x & Ex1 & Hx).
        exists x, y. cbn [Nat.add]. split; [exact Ex1|]. split; [exact Hx|]. split; [lia|]. split; [exact Ey|].
        apply nth_error_In, repeat_spec in Hj2. now subst dv.
      * rewrite combine_length, repeat_length, Nat.min_id in E. unfold put_indexes. unfold nidx at 1, zlen at 1.
        rewrite Nat2Z.id, Hlen. change (Z.of_nat 0) with 0 in E. rewrite E. cbn [bind]. exists l'. split; [reflexivity|].
        now rewrite at_places_combine in Hl'.
    + assert (Ed : at_places old ns (match ds with [d] => repeat d (length ns) | _ => ds end) = at_places old ns ds).
      { destruct ds as [|d [|d' ds]]; try reflexivity. destruct ns as [|n [|n' ns]]; try reflexivity. exfalso.
        cbn [length] in Hdl, Hlen. unfold nidx, ndata, zlen in C2. rewrite Hdl, Hlen in C2.
        apply andb_false_iff in C2 as [C2|C2]; [apply Z.ltb_ge in C2; lia|discriminate C2]. }
      rewrite Ed.
      destruct (put_indexes_rep idx data (fun i => i) (zlen old) (combine ns ds) 0 l old Hl eq_refl) as (l' & E & Hl').
      * intros j n dv Hj. apply nth_comb in Hj as [Hj1 Hj2]. destruct (Hget j n Hj1) as (x & Ex1 & Hx).
        destruct (Forall2_nth_r stands data ds j dv Hd Hj2) as (y & Ey & Hy).
        exists x, y. cbn [Nat.add]. rewrite Nat2Z.id. split; [exact Ex1|]. split; [exact Hx|]. split; [lia|]. split; [exact Ey|exact Hy].
      * rewrite combine_length in E. unfold put_indexes.
        replace (Z.to_nat (if ndata <? nidx then ndata else nidx)) with (Nat.min (length ns) (length ds)).
        -- change (Z.of_nat 0) with 0 in E. rewrite E. cbn [bind]. exists l'. split; [reflexivity|].
           now rewrite at_places_combine in Hl'.
        -- unfold ndata, nidx, zlen. rewrite Hdl, Hlen. destruct (Z.of_nat (length ds) <? Z.of_nat (length ns)) eqn:El; [apply Z.ltb_lt in El|apply Z.ltb_ge in El]; lia.
Qed.

(** * Addresses *)

Lemma address_validate s c : address_code s c -> validate_address (Some s) = c.
Proof.
  intros [H1 H2 H3 H4|H|H1 H2 H]; cbn [validate_address].
  - apply (proj2 (validate_iff s)). unfold valid_address. auto.
  - replace (negb (hd 0 s =? 47) || (zlen s <? 2)) with true; [reflexivity|]. symmetry. apply orb_true_iff.
    destruct H as [H|H]; [left; apply negb_true_iff; now apply Z.eqb_neq|right; now apply Z.ltb_lt].
  - rewrite (proj2 (Z.eqb_eq _ _) H1). rewrite (proj2 (Z.ltb_ge _ _) H2). cbn [negb orb].
    replace (existsb _ s) with true; [reflexivity|]. symmetry. apply existsb_exists.
    destruct H as [H|H]; [exists 35|exists 32]; (split; [exact H|reflexivity]).
Qed.
Definition c_string (s : list Z) : Prop := nonul s /\ wf_bytes s /\ zlen s + 4 < 2^32.
Lemma in_store s vs ms : In (M s vs) (store s vs ms).
Proof.
  induction ms as [|[a xs] ms IH]; cbn [store]; [now left|]. destruct (same_name a s); [now left|right; exact IH].
Qed.
Lemma in_fits w m : fits w -> In m (msgs w) -> zlen (enc_message m) < 2^31.
Proof. intros H Hin. unfold fits in H. pose proof (enc_chunk enc_message (msgs w) m Hin) as K. unfold zlen in *. lia. Qed.
