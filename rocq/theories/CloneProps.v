(** C104: a clone of a linked list has the copies in order and shares nothing
    with the list. *)

From Coq Require Import ZArith List Bool Lia.
From Verif Require Import Base BaseProofs HeapModel HeapSpec HeapProofs HeapProps CloneModel CloneSpec.
Import ListNotations.
Open Scope Z_scope.

Section Facts.
Context {V : Type}.
Implicit Types (h : heap V) (xs ys zs : list (Z * V)).

Lemma dll_alloc h ll xs x : dll h ll xs -> In x (locs xs) -> h x <> None.
Proof.
  intros (_ & _ & _ & _ & Hs) Hi. apply in_map_iff in Hi as ([l v] & <- & Hi). cbn.
  apply in_split in Hi as (a & b & ->). apply seg_at in Hs. rewrite Hs. discriminate.
Qed.

Lemma dll_same h h' ll xs : dll h ll xs -> (forall x, In x (locs xs) -> h' x = h x) -> dll h' ll xs.
Proof.
  intros (A & B & C & D & E) H. repeat split; auto. eapply seg_same; eauto.
Qed.

(** The loop, with [ys] still to be copied and [zs] copied already. *)
Lemma clone_loop_ok copy : forall ys k h prv c zs news,
  seg h prv ys None -> dll h c zs -> (forall x, In x (locs ys) -> ~ In x (locs zs)) ->
  NoDup news -> (forall l, In l news -> h l = None) -> (length ys <= length news)%nat -> (length ys <= k)%nat ->
  exists h' c' zs', clone_loop k h (firstp ys None) c copy news = Ok (h', c') /\
    dll h' c' (zs ++ zs') /\ map snd zs' = copies copy (map snd ys) /\
    (forall l, In l (locs zs') -> In l news) /\
    (forall l, h l <> None -> ~ In l (locs zs) -> h' l = h l).
Proof.
  induction ys as [|[l v] ys IH]; intros k h prv c zs news S D J ND F L1 L2.
  - exists h, c, []. cbn [firstp]. rewrite app_nil_r. split; [destruct k; reflexivity|].
    split; [exact D|]. split; [reflexivity|]. split; [intros ? []|auto].
  - destruct k as [|k]; [cbn in L2; lia|]. cbn [firstp clone_loop]. cbn [seg] in S. destruct S as [S1 S2].
    rewrite (get_ok _ _ _ S1). cbn [bind n_val n_next map snd copies].
    destruct (copy v) as [w|].
    + destruct news as [|a news]; [cbn in L1; lia|]. inversion ND as [|? ? N1 N2]; subst.
      assert (Ha : h a = None) by (apply F; now left).
      destruct (ll_append_ok h c zs a w D Ha) as (h1 & c1 & R & D1 & Fr). rewrite R. cbn [bind].
      assert (NY : forall x, In x (locs ys) -> h x <> None).
      { intros x Hx. apply in_map_iff in Hx as ([p q] & <- & Hx). cbn.
        apply in_split in Hx as (u & t & ->). apply seg_at in S2. rewrite S2. discriminate. }
      assert (KY : forall x, In x (locs ys) -> h1 x = h x).
      { intros x Hx. apply Fr. intros [E|E].
        - subst x. now apply (NY a).
        - apply (J x); [now right|exact E]. }
      destruct (IH k h1 (Some l) c1 (zs ++ [(a, w)]) news) as (h2 & c2 & zs2 & R2 & D2 & M2 & I2 & K2).
      * eapply seg_same; [exact KY|exact S2].
      * exact D1.
      * intros x Hx Hz. rewrite locs_app in Hz. apply in_app_or in Hz as [Hz|[Hz|[]]].
        -- apply (J x); [now right|exact Hz].
        -- cbn in Hz. subst x. now apply (NY a).
      * exact N2.
      * intros b Hb. rewrite Fr; [apply F; now right|]. intros [E|E].
        -- subst b. contradiction.
        -- apply (dll_alloc _ _ _ _ D E). apply F. now right.
      * cbn in L1. lia.
      * cbn in L2. lia.
      * exists h2, c2, ((a, w) :: zs2). split; [exact R2|]. rewrite <- app_assoc in D2. split; [exact D2|].
        split; [cbn; now rewrite M2|]. split.
        -- intros b [Hb|Hb]; [now left|right; now apply I2].
        -- intros b Hb Hz. rewrite K2.
           ++ apply Fr. intros [E|E]; [subst b; now rewrite Ha in Hb|contradiction].
           ++ rewrite Fr; auto. intros [E|E]; [subst b; now rewrite Ha in Hb|contradiction].
           ++ rewrite locs_app. intros E. apply in_app_or in E as [E|[E|[]]]; [contradiction|].
              cbn in E. subst b. now rewrite Ha in Hb.
    + destruct (IH k h (Some l) c zs news S2 D) as (h2 & c2 & zs2 & R2 & D2 & M2 & I2 & K2); auto.
      * intros x Hx. apply J. now right.
      * cbn in L1. lia.
      * cbn in L2. lia.
      * exists h2, c2, zs2. auto.
Qed.

(** An operation on a list leaves the rest of memory, and takes no place that is
    in use. *)
Lemma step_frame h ll xs o : dll h ll xs -> list_enabled h xs o ->
  exists h' ll', list_step h ll o = Ok (h', ll', spec_out xs o) /\ dll h' ll' (spec_list xs o) /\
    (forall x, ~ In x (locs xs) -> h x <> None -> h' x = h x) /\
    (forall x, In x (locs (spec_list xs o)) -> In x (locs xs) \/ h x = None).
Proof.
  intros D En. destruct (list_step_ok h ll xs o D En) as (h' & ll' & R & D').
  exists h', ll'. split; [exact R|]. split; [exact D'|].
  assert (POP : forall p h2 l2 o2, ll_pop h ll p = Ok (h2, l2, o2) ->
            (p = None \/ exists l, p = Some l /\ In l (locs xs)) ->
            forall x, ~ In x (locs xs) -> h x <> None -> h2 x = h x).
  { intros p h2 l2 o2 E [->|(l & -> & Hl)] x Nx Hx.
    - cbn in E. injection E as <- _ _. reflexivity.
    - apply in_locs in Hl as (v & Hi). apply in_split in Hi as (a & b & ->).
      destruct (ll_pop_ok h ll a l v b D) as (h3 & m3 & R3 & _ & _ & F3). rewrite R3 in E. injection E as <- _ _.
      now apply F3. }
  split.
  - intros x Nx Hx. destruct o as [l v|l v| | |n|l|]; cbn [list_enabled list_step spec_list spec_out] in *.
    + destruct (ll_prepend_ok h ll xs l v D En) as (h2 & m2 & R2 & _ & F2). rewrite R2 in R. injection R as <- _.
      apply F2. intros [E|E]; [subst x; contradiction|contradiction].
    + destruct (ll_append_ok h ll xs l v D En) as (h2 & m2 & R2 & _ & F2). rewrite R2 in R. injection R as <- _.
      apply F2. intros [E|E]; [subst x; contradiction|contradiction].
    + eapply POP; [exact R| |exact Nx|exact Hx]. pose proof D as (_ & Hh & _). rewrite Hh.
      destruct xs as [|[l v] xs]; [now left|right; exists l; split; [reflexivity|now left]].
    + eapply POP; [exact R| |exact Nx|exact Hx]. pose proof D as (_ & _ & Ht & _). rewrite Ht.
      destruct (split_last xs) as [->|(ys & l & v & ->)]; [now left|right].
      exists l. rewrite lastp_app. split; [reflexivity|]. rewrite locs_app. apply in_or_app. right. now left.
    + unfold ll_pop_nth in R. rewrite (ll_nth_ok _ _ _ _ D) in R by tauto. cbn [bind] in R.
      eapply POP; [exact R| |exact Nx|exact Hx].
      destruct (index_of (zlen xs) n) as [i|]; [|now left].
      destruct (nth_error xs i) as [[l v]|] eqn:E; [right|now left].
      exists l. split; [reflexivity|]. apply nth_error_In in E. apply in_map_iff. now exists (l, v).
    + apply in_locs in En as (v & Hi). apply in_split in Hi as (a & b & ->).
      destruct (ll_unlink_ok h ll a l v b D) as (h2 & m2 & R2 & _ & _ & F2). rewrite R2 in R. injection R as <- _.
      now apply F2.
    + unfold ll_clear in R. pose proof D as (Hd & Hh & Ht & Hc & Hs). rewrite Hh, Hc in R.
      destruct (free_chain_ok xs (Z.to_nat (zlen xs)) h None Hd Hs) as (h2 & R2 & _ & F2); [unfold zlen; lia|].
      rewrite R2 in R. cbn [bind] in R. injection R as <- _. now apply F2.
  - intros x Hx. apply in_map_iff in Hx as ([y v] & <- & Hx). cbn [fst].
    assert (IN : In (y, v) xs -> In y (locs xs)) by (intros Hi; apply in_map_iff; now exists (y, v)).
    destruct o as [l w|l w| | |n|l|]; cbn [list_enabled spec_list] in *.
    + destruct Hx as [E|Hx]; [injection E as <- _; now right|left; auto].
    + apply in_app_or in Hx as [Hx|[E|[]]]; [left; auto|injection E as <- _; now right].
    + left. apply IN. destruct xs; [destruct Hx|now right].
    + left. apply IN. destruct (split_last xs) as [->|(ys & l & u & ->)]; [destruct Hx|].
      rewrite removelast_last in Hx. apply in_or_app. now left.
    + left. apply IN. revert Hx. destruct (position (zlen xs) n) as [i|]; cbn [without_position]; [|auto].
      clear. revert i. induction xs as [|z xs IH]; intros [|i] Hx; cbn in *; auto.
      destruct Hx as [->|Hx]; [now left|right; eauto].
    + left. apply IN. apply filter_In in Hx. tauto.
    + destruct Hx.
Qed.

Inductive two_history : heap V -> ends -> ends -> list (Z * V) * list (Z * V) ->
  list (bool * list_op V) -> heap V -> ends -> ends -> Prop :=
| two_nil h a b s : two_history h a b s [] h a b
| two_first h a b s o os h1 a1 h' a' b' out :
    list_enabled h (fst s) o -> list_step h a o = Ok (h1, a1, out) ->
    two_history h1 a1 b (spec_two s (true, o)) os h' a' b' -> two_history h a b s ((true, o) :: os) h' a' b'
| two_second h a b s o os h1 b1 h' a' b' out :
    list_enabled h (snd s) o -> list_step h b o = Ok (h1, b1, out) ->
    two_history h1 a b1 (spec_two s (false, o)) os h' a' b' -> two_history h a b s ((false, o) :: os) h' a' b'.

Definition apart xs ys : Prop := forall x, In x (locs xs) -> ~ In x (locs ys).

Lemma apart_step h ll ll2 xs ys o : dll h ll xs -> dll h ll2 ys -> apart xs ys -> list_enabled h xs o ->
  exists h' ll', list_step h ll o = Ok (h', ll', spec_out xs o) /\
    dll h' ll' (spec_list xs o) /\ dll h' ll2 ys /\ apart (spec_list xs o) ys.
Proof.
  intros D1 D2 A En. destruct (step_frame h ll xs o D1 En) as (h' & ll' & R & D & F & N).
  exists h', ll'. split; [exact R|]. split; [exact D|]. split.
  - eapply dll_same; [exact D2|]. intros x Hx. apply F.
    + intros Hi. exact (A x Hi Hx).
    + exact (dll_alloc _ _ _ _ D2 Hx).
  - intros x Hx Hy. destruct (N x Hx) as [Hi|Hi]; [exact (A x Hi Hy)|exact (dll_alloc _ _ _ _ D2 Hy Hi)].
Qed.

Lemma two_dll h a b s os h' a' b' : two_history h a b s os h' a' b' ->
  dll h a (fst s) -> dll h b (snd s) -> apart (fst s) (snd s) ->
  dll h' a' (fst (fold_left spec_two os s)) /\ dll h' b' (snd (fold_left spec_two os s)).
Proof.
  induction 1 as [h a b s|h a b s o os h1 a1 h' a' b' out En R _ IH|h a b s o os h1 b1 h' a' b' out En R _ IH];
    intros D1 D2 A; [auto| |].
  - destruct (apart_step h a b _ _ o D1 D2 A En) as (h2 & a2 & R2 & E1 & E2 & E3).
    rewrite R in R2. injection R2 as <- <- _. cbn [fold_left]. now apply IH.
  - assert (A' : apart (snd s) (fst s)) by (intros x Hx Hy; exact (A x Hy Hx)).
    destruct (apart_step h b a _ _ o D2 D1 A' En) as (h2 & a2 & R2 & E1 & E2 & E3).
    rewrite R in R2. injection R2 as <- <- _. cbn [fold_left]. apply IH; auto.
    intros x Hx Hy. exact (E3 x Hy Hx).
Qed.

Lemma clone_dll copy ops h ll xs news : list_history ops h ll xs ->
  NoDup news -> (forall l, In l news -> h l = None) -> (length xs <= length news)%nat ->
  exists h' c zs, ll_clone (length xs) h (Some ll) copy news = Ok (h', c) /\
    dll h' c zs /\ dll h' ll xs /\ apart xs zs /\ map snd zs = copies copy (map snd xs) /\
    (forall l, In l (locs zs) -> In l news) /\ (forall l, h l <> None -> h' l = h l).
Proof.
  intros H ND F L. pose proof (list_history_dll _ _ _ _ H) as D. pose proof D as (_ & Hh & _ & _ & Hs).
  cbn [ll_clone]. rewrite Hh.
  destruct (clone_loop_ok copy xs (length xs) h None (Ends None None 0) [] news Hs (dll_nil h)) as
    (h' & c & zs & R & D' & M & I & K); auto.
  exists h', c, zs. split; [exact R|]. split; [exact D'|].
  assert (K' : forall l, h l <> None -> h' l = h l) by (intros l Hl; apply K; auto).
  split; [|split; [|auto]].
  - eapply dll_same; [exact D|]. intros x Hx. apply K'. exact (dll_alloc _ _ _ _ D Hx).
  - intros x Hx Hz. apply (dll_alloc _ _ _ _ D Hx). auto.
Qed.
End Facts.

(** Cloning a list, whatever operations made it: the clone holds the copies of
    the data in order, without those the copying function left NULL; the list is
    what it was; nothing that was allocated has changed, and all elements of the
    clone are new. *)
Theorem C104_clone : forall V copy ops (h : heap V) ll xs news,
  list_history ops h ll xs ->
  NoDup news -> (forall l, In l news -> h l = None) -> (length xs <= length news)%nat ->
  exists h' c zs, ll_clone (length xs) h (Some ll) copy news = Ok (h', c) /\
    list_holds h' c zs /\ map snd zs = copies copy (map snd xs) /\
    list_holds h' ll xs /\
    (forall l, In l (map fst zs) -> h l = None) /\ (forall l, h l <> None -> h' l = h l).
Proof.
  intros V copy ops h ll xs news H ND F L.
  destruct (clone_dll copy ops h ll xs news H ND F L) as (h' & c & zs & R & D1 & D2 & _ & M & I & K).
  exists h', c, zs. split; [exact R|]. split; [now apply dll_list_holds|]. split; [exact M|].
  split; [now apply dll_list_holds|]. split; [intros l Hl; apply F; now apply I|exact K].
Qed.
Print Assumptions C104_clone.

(** Afterwards the two can be used in any way, in turn: each is what its own
    operations make of it, and the next operation on either runs without
    undefined behaviour. *)
Theorem C104_independent : forall V copy ops (h : heap V) ll xs news,
  list_history ops h ll xs ->
  NoDup news -> (forall l, In l news -> h l = None) -> (length xs <= length news)%nat ->
  exists h' c zs, ll_clone (length xs) h (Some ll) copy news = Ok (h', c) /\
    forall os h2 ll2 c2, two_history h' ll c (xs, zs) os h2 ll2 c2 ->
      list_holds h2 ll2 (fold_left spec_list (map snd (filter fst os)) xs) /\
      list_holds h2 c2 (fold_left spec_list (map snd (filter (fun o => negb (fst o)) os)) zs) /\
      forall b o, two_enabled h2 (fold_left spec_two os (xs, zs)) (b, o) ->
        exists h3 l3 out, list_step h2 (if b : bool then ll2 else c2) o = Ok (h3, l3, out).
Proof.
  intros V copy ops h ll xs news H ND F L.
  destruct (clone_dll copy ops h ll xs news H ND F L) as (h' & c & zs & R & D1 & D2 & A & _).
  exists h', c, zs. split; [exact R|]. intros os h2 ll2 c2 T.
  destruct (two_dll _ _ _ _ _ _ _ _ T D2 D1 A) as [E1 E2].
  assert (G : forall os (s : list (Z * V) * list (Z * V)), fold_left spec_two os s =
    (fold_left spec_list (map snd (filter fst os)) (fst s),
     fold_left spec_list (map snd (filter (fun o => negb (fst o)) os)) (snd s))).
  { clear. induction os as [|[[|] o] os IH]; intros [x y]; cbn [fold_left]; [reflexivity|..]; rewrite IH; reflexivity. }
  rewrite G in E1, E2 |- *. cbn [fst snd] in *.
  split; [now apply dll_list_holds|]. split; [now apply dll_list_holds|].
  intros [|] o En; unfold two_enabled in En; cbn [fst snd] in En.
  - destruct (list_step_ok _ _ _ _ E1 En) as (h3 & l3 & R3 & _). eauto.
  - destruct (list_step_ok _ _ _ _ E2 En) as (h3 & l3 & R3 & _). eauto.
Qed.
Print Assumptions C104_independent.

(** The other functions take NULL for a list; this one reads through it. *)
Theorem C104_null_refuted : forall V k (h : heap V) copy news, ll_clone k h None copy news = Ub NullDeref.
Proof. reflexivity. Qed.
Print Assumptions C104_null_refuted.

(** A list of three, one of whose data cannot be copied. *)
Example C104_example : exists (h : heap Z) ll,
  list_history [PushBack 1 10; PushBack 2 20; PushBack 3 30] h ll [(1, 10); (2, 20); (3, 30)] /\
  NoDup [4; 5; 6] /\ (forall l, In l [4; 5; 6] -> h l = None) /\
  copies (fun v => if v =? 20 then None else Some (v + 1)) [10; 20; 30] = [11; 31].
Proof.
  do 2 eexists. split; [|split; [|split; [|reflexivity]]].
  - refine (list_history_snoc [_; _] _ _ [_; _] (PushBack 3 30) _ _ _ _ _ _).
    + refine (list_history_snoc [_] _ _ [_] (PushBack 2 20) _ _ _ _ _ _).
      * refine (list_history_snoc [] (fun _ => None) _ [] (PushBack 1 10) _ _ _ _ _ _);
          [apply list_history_nil|reflexivity|reflexivity].
      * reflexivity.
      * reflexivity.
    + reflexivity.
    + reflexivity.
  - repeat constructor; cbn; intuition discriminate.
  - intros l [<-|[<-|[<-|[]]]]; reflexivity.
Qed.
