(** Every well formed expression is read as what its parts are read as. *)

From Coq Require Import String ZArith List Bool Lia.
From Verif Require Import Base Text SerialModel BundleSModel ExprParseModel ExprParseSpec ExprParseProofs.
Import ListNotations.
Open Scope Z_scope.

(** * The outcome with enough fuel *)

Definition Lim {A} (g : nat -> res A) (r : res A) : Prop := exists f0, forall f, (f0 <= f)%nat -> g f = r.
Definition Arg p ts := Lim (fun f => p_arg f p ts).
Definition More p a ts := Lim (fun f => p_more f p a ts).
Definition Args ts := Lim (fun f => p_args f ts).
Definition Msgs ts := Lim (fun f => p_msgs f ts).
Definition Prim ts := Lim (fun f => p_primary f ts).

Definition lift {A} (m : res (option A)) (rest : list etoken) : res (option (A * list etoken)) :=
  match m with
  | Ok (Some a) => Ok (Some (a, rest))
  | Ok None => Ok None
  | Ub u => Ub u
  | Fuel => Fuel
  end.

(** Tokens that extend an address or a name before them. *)
Definition glue (t : etoken) : bool :=
  match t with TOpen | TDot | TStep _ | TAssign | TElse | TElseAssign => true | _ => false end.
Definition operator (t : etoken) : bool :=
  match t with TOp _ | TOpAssign _ | TQuest | TOpenDbl => true | _ => false end.
Definition no_glue (rest : list etoken) : bool := match rest with t :: _ => negb (glue t) | [] => true end.
Definition quiet (rest : list etoken) : bool :=
  match rest with t :: _ => negb (glue t) && negb (operator t) | [] => true end.
Definition stops (p : Z) (rest : list etoken) : bool :=
  match rest with t :: _ => negb (shifted p t) | [] => true end.
Definition calm (e : syn) (rest : list etoken) : bool :=
  no_glue rest && forallb (fun t => stops (rank t) rest) (rights e) &&
  match e, rest with SAddr _, TOpenDbl :: _ => false | _, _ => true end.

Lemma quiet_stops rest p : quiet rest = true -> stops p rest = true.
Proof. destruct rest as [|t rest]; [reflexivity|]. destruct t; cbn; (reflexivity || discriminate). Qed.
Lemma quiet_calm rest e : quiet rest = true -> calm e rest = true.
Proof.
  intros H. unfold calm. apply andb_true_iff; split; [apply andb_true_iff; split|].
  - destruct rest as [|t rest]; [reflexivity|]. cbn in *. now apply andb_true_iff in H as [H _].
  - apply forallb_forall; intros t _. now apply quiet_stops.
  - destruct e; try reflexivity. destruct rest as [|[]]; (reflexivity || discriminate).
Qed.

(** Shifting is what [first] says. *)
Lemma shifted_first t u : operator u = true -> 0 < rank t -> shifted (rank t) u = negb (first t u).
Proof.
  intros U T. unfold first, to_the_right. destruct u as [| | | | |o| | | | | | | | | | | | | | | | | | | | ]; try discriminate U;
    destruct t as [| | | | |o'| | | | | | | | | | | | | | | | | | | | ]; cbn in T; try lia;
    repeat match goal with o : op |- _ => destruct o end; reflexivity.
Qed.

(** * How the parser goes on *)

Definition After {A B} (m : res (option A)) (K : A -> res (option B) -> Prop) (r : res (option B)) : Prop :=
  match m with
  | Ok (Some a) => K a r
  | Ok None => r = Ok None
  | Ub u => r = Ub u
  | Fuel => False
  end.

Lemma lim_S {A} (g : nat -> res A) r : Lim (fun f => g (S f)) r -> Lim g r.
Proof. intros [f0 H]. exists (S f0). intros f Hf. destruct f as [|f]; [lia|]. apply H. lia. Qed.
Lemma lim_ret {A} (r : res A) : Lim (fun _ => r) r.
Proof. now exists 0%nat. Qed.
Lemma lim_try {A B} (g : nat -> res (option (A * list etoken))) (h : nat -> A * list etoken -> res (option B)) m rest r :
  Lim g (lift m rest) -> After m (fun a => Lim (fun f => h f (a, rest))) r -> Lim (fun f => try (g f) (h f)) r.
Proof.
  intros [f1 H1] H. destruct m as [[b|]|u|]; [destruct H as [f2 H2]| | |contradiction].
  - exists (f1 + f2)%nat. intros f Hf. rewrite H1 by lia. cbn [lift try]. apply H2. lia.
  - exists f1. intros f Hf. rewrite H1 by lia. now subst.
  - exists f1. intros f Hf. rewrite H1 by lia. now subst.
Qed.
Lemma lim_ext {A} (g h : nat -> res A) r : (forall f, g f = h f) -> Lim h r -> Lim g r.
Proof. intros E [f0 H]. exists f0. intros f Hf. rewrite E. now apply H. Qed.
Lemma lim_eq {A} (r r' : res A) : r = r' -> Lim (fun _ => r) r'.
Proof. intros ->. apply lim_ret. Qed.

Lemma after_lift {A B} (m : res (option A)) (K : A -> res (option (B * list etoken)) -> Prop) k rest :
  m <> Fuel -> (forall a, m = Ok (Some a) -> K a (lift (k a) rest)) -> After m K (lift (try m k) rest).
Proof. intros F H. destruct m as [[a|]|u|]; cbn; auto. Qed.
Lemma after_try {A B C} (m : res (option A)) (k : A -> res (option B)) (K : A -> res (option C) -> Prop) L r :
  After (try m k) L r -> (forall a, m = Ok (Some a) -> After (k a) L r -> K a r) -> After m K r.
Proof. intros F H. destruct m as [[a|]|u|]; cbn in *; auto. Qed.

Lemma more_stop p a rest : stops p rest = true -> More p a rest (Ok (Some (a, rest))).
Proof.
  intros H. apply lim_S. apply (lim_ext _ (fun _ => Ok (Some (a, rest)))); [|apply lim_ret]. intros f. cbn [p_more].
  destruct rest as [|t rest]; [reflexivity|]. cbn [stops] in H. apply negb_true_iff in H.
  destruct t; try reflexivity; now rewrite H.
Qed.

Lemma arg_prim p ts m rest r : Prim ts (lift m rest) -> After m (fun a => More p a rest) r -> Arg p ts r.
Proof.
  intros H1 H. apply lim_S. cbn [p_arg].
  eapply lim_try; [exact H1|]. exact H.
Qed.

(** * The expression is read *)

Lemma try_fine {A B} (m : res (option A)) (k : A -> res (option B)) :
  m <> Fuel -> (forall a, k a <> Fuel) -> try m k <> Fuel.
Proof. destruct m as [[a|]|u|]; cbn; auto; discriminate. Qed.
Lemma all_of_fine {A B} (f : A -> res (option B)) l : (forall x, In x l -> f x <> Fuel) -> all_of f l <> Fuel.
Proof.
  induction l as [|x l IH]; intros H; [discriminate|]. cbn [all_of].
  apply try_fine; [apply H; now left|]. intros a. apply try_fine; [apply IH; intros y Y; apply H; now right|].
  discriminate.
Qed.
Lemma append_fine l e : append_expr l e <> Fuel.
Proof. destruct l, e; discriminate. Qed.
Lemma body_fine m l args : body_rest m l args <> Fuel.
Proof.
  revert l; induction args as [|a args IH]; intros l; [discriminate|].
  destruct a; cbn [body_rest];
    repeat match goal with
    | |- (if ?b then _ else _) <> _ => destruct b; [discriminate|]
    | |- context [append_expr ?l ?e] => let E := fresh in destruct (append_expr l e) eqn:E; cbn [bind]; [apply IH|discriminate|now apply append_fine in E]
    end.
Qed.
Lemma body_of_fine m args : body_of m args <> Fuel.
Proof. destruct args as [|[] args]; [discriminate|..]; apply body_fine. Qed.
Lemma must_fine e : must e <> Fuel.
Proof. destruct e; discriminate. Qed.

Definition size (e : syn) : nat := length (flat e).

Lemma sep_in x l : In x l -> (length x <= length (sep l))%nat.
Proof.
  induction l as [|y l IH]; intros H; [destruct H|]. destruct H as [-> |H].
  - destruct l; cbn [sep]; [lia|]. rewrite app_length. lia.
  - specialize (IH H). destruct l as [|z l]; [destruct H|]. cbn [sep] in *. rewrite app_length. cbn [length]. lia.
Qed.
Lemma size_in e l : In e l -> (size e <= length (sep (map flat l)))%nat.
Proof. intros H. apply sep_in. now apply in_map. Qed.
Lemma size_in_pair p e (l : list (list Z * syn)) : In (p, e) l ->
  (size e < length (sep (map (fun '(p, e) => TAddr p :: TColon :: flat e) l)))%nat.
Proof.
  intros H. apply Nat.lt_le_trans with (length (TAddr p :: TColon :: flat e)); [cbn [length]; unfold size; lia|].
  apply sep_in. change (TAddr p :: TColon :: flat e) with ((fun '(p, e) => TAddr p :: TColon :: flat e) (p, e)).
  now apply in_map.
Qed.

Ltac sizes := unfold size in *; cbn [flat length] in *; repeat rewrite ?app_length in *; cbn [length] in *;
  repeat rewrite ?app_length in *; cbn [length] in *; repeat rewrite ?app_length in *; cbn [length] in *.

Lemma build_fine_n n : forall e, (size e < n)%nat -> build e <> Fuel.
Proof.
  induction n as [|n IH]; intros e H; [lia|].
  assert (L : forall l, (length (sep (map flat l)) < n)%nat -> all_of build l <> Fuel).
  { intros l Hl. apply all_of_fine. intros x X. apply IH. apply size_in in X. lia. }
  destruct e; cbn [build];
    repeat match goal with
    | |- try _ _ <> Fuel => apply try_fine; [|intros ?]
    | |- build _ <> Fuel => apply IH; sizes; lia
    | |- all_of build _ <> Fuel => apply L; sizes; lia
    | |- ret _ <> Fuel => discriminate
    | |- Ok _ <> Fuel => discriminate
    | |- must _ <> Fuel => apply must_fine
    | |- (if ?b then _ else _) <> Fuel => destruct b
    | |- match ?s with Some _ => _ | None => _ end <> Fuel => destruct s eqn:?; subst
    end.
  - destruct (body_of _ a) eqn:E; [discriminate|discriminate|now apply body_of_fine in E].
  - apply all_of_fine. intros [p e] X. apply try_fine; [|discriminate]. apply IH. apply size_in_pair in X. sizes. lia.
Qed.
Lemma build_fine e : build e <> Fuel.
Proof. apply (build_fine_n (S (size e))). lia. Qed.
Lemma builds_fine l : all_of build l <> Fuel.
Proof. apply all_of_fine. intros; apply build_fine. Qed.

Definition starter (t : etoken) : bool :=
  match t with
  | TNum _ | TStr _ | TAddr _ | TQuoted _ | TLambda | TOp OSub | TStep _ | TNot | TTick | TOpen | TOpenSq | TOpenBr => true
  | _ => false
  end.
Lemma flat_head e : exists t ts, flat e = t :: ts /\ starter t = true.
Proof.
  induction e; cbn [flat];
    try match goal with
    | IH : exists t ts, flat ?e = _ /\ _ |- exists t ts, flat ?e ++ _ = _ /\ _ =>
        destruct IH as (t & ts & -> & H); exists t; eexists; split; [reflexivity|exact H]
    end; eexists; eexists; (split; [reflexivity|reflexivity]).
Qed.
Lemma sep_head l : some l = true -> exists t ts, sep (map flat l) = t :: ts /\ starter t = true.
Proof.
  destruct l as [|e l]; [discriminate|]; intros _. destruct (flat_head e) as (t & ts & E & H).
  cbn [map]. destruct (map flat l) as [|x l']; cbn [sep]; rewrite E; [now exists t, ts|].
  exists t; eexists; split; [reflexivity|exact H].
Qed.

Lemma lefts_operator e u : In u (lefts e) -> operator u = true.
Proof. induction e; cbn [lefts In]; intros H; try contradiction; destruct H as [<- |H]; auto. Qed.
Lemma rights_rank e t : In t (rights e) -> 0 < rank t < 11.
Proof.
  induction e; cbn [rights In]; intros H; try contradiction; destruct H as [<- |H]; auto;
    cbn; try lia; destruct o; lia.
Qed.
Lemma shifted_zero e u : In u (lefts e) -> shifted 0 u = true.
Proof.
  intros H. apply lefts_operator in H. destruct u; try discriminate H; try reflexivity. destruct o; reflexivity.
Qed.
Lemma right_shifts t e : 0 < rank t -> right_of t e = true -> forall u, In u (lefts e) -> shifted (rank t) u = true.
Proof.
  intros R H u U. unfold right_of in H. rewrite forallb_forall in H. specialize (H u U). cbn beta in H.
  rewrite shifted_first; auto. now apply lefts_operator in U.
Qed.
Lemma left_calm t e ts : operator t = true -> left_of t e = true ->
  (match e, t with SAddr _, TOpenDbl => false | _, _ => true end) = true -> calm e (t :: ts) = true.
Proof.
  intros O H E. unfold calm. apply andb_true_iff; split; [apply andb_true_iff; split|].
  - destruct t; (reflexivity || discriminate O).
  - apply forallb_forall. intros u U. cbn [stops]. unfold left_of in H. rewrite forallb_forall in H.
    rewrite shifted_first, H by (auto; apply rights_rank in U; lia). reflexivity.
  - destruct e; try reflexivity. destruct t; (reflexivity || discriminate E).
Qed.
Lemma right_calm t e rest : 0 < rank t < 11 -> no_glue rest = true -> stops (rank t) rest = true ->
  forallb (fun t => stops (rank t) rest) (rights e) = true -> calm e rest = true.
Proof.
  intros R G S H. unfold calm. rewrite G, H. cbn [andb]. destruct e; try reflexivity.
  destruct rest as [|[]]; try reflexivity. exfalso. cbn [stops shifted] in S.
  assert (L : rank t <? 11 = true) by (apply Z.ltb_lt; lia). rewrite L in S. discriminate S.
Qed.
Lemma calm_parts e rest : calm e rest = true ->
  no_glue rest = true /\ forallb (fun t => stops (rank t) rest) (rights e) = true.
Proof. unfold calm. rewrite !andb_true_iff. tauto. Qed.

Definition ends (rest : list etoken) : bool :=
  match rest with TComma :: _ => false | _ => quiet rest end.
Lemma ends_quiet rest : ends rest = true -> quiet rest = true.
Proof. destruct rest as [|[]]; (reflexivity || discriminate). Qed.

(** What is read is an expression where one was written. *)
Lemma build_kind e a : well e = true -> build e = Ok (Some a) -> is_pexpr a = is_expr e.
Proof.
  induction e; intros W H; cbn [build is_expr] in *;
    repeat match type of H with
    | try ?m _ = _ => destruct m as [[]| |] eqn:?; cbn [try] in H; try discriminate H
    | (if ?b then _ else _) = _ => destruct b; try discriminate H
    | must ?m = _ => destruct m; cbn [must] in H; try discriminate H
    | bind ?m _ = _ => destruct m; cbn [bind] in H; try discriminate H
    | match ?m with Some _ => _ | None => _ end = _ => destruct m; try discriminate H
    end; try (injection H as <-; reflexivity).
  cbn [well] in W. apply andb_true_iff in W as [W1 W2]. rewrite <- W1. auto.
Qed.

Lemma build_fun f a : match f with SFun _ _ _ => true | _ => false end = true -> build f = Ok (Some a) ->
  exists ps b, a = PFun ps b.
Proof.
  destruct f; try discriminate; intros _. cbn [build].
  destruct (all_of _ _) as [[l|]| |]; try discriminate. cbn [try]. destruct (body_of _ _); try discriminate.
  cbn [bind]. intros H. injection H as <-. eauto.
Qed.

Section Main.
Context (n : nat).
Context (IH : forall e, (size e < n)%nat -> well e = true -> forall p rest r,
  (forall u, In u (lefts e) -> shifted p u = true) -> calm e rest = true ->
  After (build e) (fun a => More p a rest) r -> Arg p (flat e ++ rest) r).

Lemma read_arg e p rest : (size e < n)%nat -> well e = true ->
  (forall u, In u (lefts e) -> shifted p u = true) -> calm e rest = true -> stops p rest = true ->
  Arg p (flat e ++ rest) (lift (build e) rest).
Proof.
  intros N W L C T. apply IH; auto. pose proof (build_fine e) as F.
  destruct (build e) as [[a|]|u|]; cbn; [|reflexivity|reflexivity|contradiction]. now apply more_stop.
Qed.
Lemma read_any e rest : (size e < n)%nat -> well e = true -> quiet rest = true ->
  Arg 0 (flat e ++ rest) (lift (build e) rest).
Proof.
  intros N W Q. apply read_arg; auto.
  - intros u U. now apply shifted_zero with e.
  - now apply quiet_calm.
  - now apply quiet_stops.
Qed.
Lemma read_right t e rest : (size e < n)%nat -> well e = true -> 0 < rank t < 11 -> right_of t e = true ->
  no_glue rest = true -> stops (rank t) rest = true ->
  forallb (fun t => stops (rank t) rest) (rights e) = true ->
  Arg (rank t) (flat e ++ rest) (lift (build e) rest).
Proof.
  intros N W R T G S H. apply read_arg; auto.
  - apply right_shifts; [lia|exact T].
  - now apply right_calm with t.
Qed.

Ltac fine := first [apply build_fine | apply builds_fine].
Ltac next H := eapply lim_try; [exact H|]; apply after_lift; [fine|intros ? _]; cbn beta iota.

Lemma read_args l rest : some l = true -> forallb well l = true ->
  (forall e, In e l -> (size e < n)%nat) -> ends rest = true ->
  Args (sep (map flat l) ++ rest) (lift (all_of build l) rest).
Proof.
  induction l as [|e l IHl]; intros S W N Q; [discriminate|]. cbn [forallb] in W.
  apply andb_true_iff in W as [W Ws]. destruct l as [|e' l].
  - cbn [map sep]. apply lim_S. cbn [p_args].
    next (read_any e rest (N e (or_introl eq_refl)) W (ends_quiet rest Q)).
    cbn [all_of try lift]. apply (lim_ext _ (fun _ => Ok (Some ([a], rest)))); [|apply lim_ret].
    intros f. destruct rest as [|[]]; (reflexivity || discriminate Q).
  - replace (sep (map flat (e :: e' :: l)) ++ rest) with (flat e ++ TComma :: (sep (map flat (e' :: l)) ++ rest))
      by (cbn [map sep]; now rewrite <- app_assoc).
    specialize (IHl eq_refl Ws (fun x X => N x (or_intror X)) Q).
    apply lim_S. cbn [p_args].
    pose proof (read_any e (TComma :: (sep (map flat (e' :: l)) ++ rest)) (N e (or_introl eq_refl)) W eq_refl) as H.
    change (all_of build (e :: e' :: l)) with (try (build e) (fun y => try (all_of build (e' :: l)) (fun r => Ok (Some (y :: r))))).
    next H. next IHl. apply lim_ret.
Qed.
Definition message (pe : list Z * syn) : list etoken := let '(p, e) := pe in TAddr p :: TColon :: flat e.
Definition build_message (pe : list Z * syn) : res (option (list parg)) :=
  let '(p, e) := pe in try (build e) (fun a => Ok (Some [PAtom (set_string atom_fresh 0 p); a])).
Lemma try_try {A B C} (m : res (option A)) (k : A -> res (option B)) (j : B -> res (option C)) :
  try (try m k) j = try m (fun x => try (k x) j).
Proof. destruct m as [[a|]|u|]; reflexivity. Qed.
Lemma messages_fine l : all_of build_message l <> Fuel.
Proof. apply all_of_fine. intros [p e] _. apply try_fine; [apply build_fine|discriminate]. Qed.
Lemma read_msgs l rest : some l = true -> forallb (fun '(_, e) => well e) l = true ->
  (forall p e, In (p, e) l -> (size e < n)%nat) -> ends rest = true ->
  Msgs (sep (map message l) ++ rest) (lift (try (all_of build_message l) (fun l => Ok (Some (concat l)))) rest).
Proof.
  induction l as [|[p e] l IHl]; intros S W N Q; [discriminate|]. cbn [forallb] in W.
  apply andb_true_iff in W as [W Ws].
  change (all_of build_message ((p, e) :: l)) with
    (try (build_message (p, e)) (fun y => try (all_of build_message l) (fun r => Ok (Some (y :: r))))).
  rewrite try_try. cbn [build_message]. rewrite try_try.
  destruct l as [|pe' l].
  - cbn [map sep message app]. apply lim_S. cbn [p_msgs].
    next (read_any e rest (N p e (or_introl eq_refl)) W (ends_quiet rest Q)).
    cbn [all_of try lift concat app].
    apply (lim_ext _ (fun _ => Ok (Some ([PAtom (set_string atom_fresh 0 p); a], rest)))); [|apply lim_ret].
    intros f. destruct rest as [|[]]; (reflexivity || discriminate Q).
  - replace (sep (map message ((p, e) :: pe' :: l)) ++ rest) with
      (TAddr p :: TColon :: flat e ++ TComma :: (sep (map message (pe' :: l)) ++ rest))
      by (cbn [map sep message app]; now rewrite <- app_assoc).
    specialize (IHl eq_refl Ws (fun p x X => N p x (or_intror X)) Q).
    apply lim_S. cbn [p_msgs].
    pose proof (read_any e (TComma :: (sep (map message (pe' :: l)) ++ rest)) (N p e (or_introl eq_refl)) W eq_refl) as H.
    next H. cbn [try].
    eapply lim_try; [exact IHl|].
    pose proof (messages_fine (pe' :: l)) as F.
    destruct (all_of build_message (pe' :: l)) as [[ls|]|u|]; cbn; [apply lim_ret|reflexivity|reflexivity|contradiction].
Qed.

Definition opened (ts : list etoken) : bool := match ts with t :: _ => starter t | [] => false end.
Lemma opened_args l ts : some l = true -> opened (sep (map flat l) ++ ts) = true.
Proof. intros H. destruct (sep_head l H) as (t & us & -> & T). exact T. Qed.
Lemma prim_call f s ts : opened ts = true -> p_primary (S f) (TStr s :: TOpen :: ts) =
  get ' (l, ts) <- p_args f ts;
  get ' ts <- expect TClose ts;
  match reduce_prefix s l with Some e => Ok (Some (PExpr (Some e), ts)) | None => Ok None end.
Proof. destruct ts as [|[]]; (discriminate || reflexivity). Qed.
Lemma prim_apply f s ts : opened ts = true -> p_primary (S f) (TAddr s :: TOpen :: ts) =
  get ' (l, ts) <- p_args f ts;
  get ' ts <- expect TClose ts;
  Ok (Some (PExpr (Some (Call (str "apply") (PAddr s :: l))), ts)).
Proof. destruct ts as [|[]]; (discriminate || reflexivity). Qed.
Lemma prim_list f ts : opened ts = true -> p_primary (S f) (TOpenSq :: ts) =
  get ' (l, ts) <- p_args f ts;
  get ' ts <- expect TCloseSq ts;
  Ok (Some (PExpr (reduce_prefix (str "list") l), ts)).
Proof. destruct ts as [|[]]; (discriminate || reflexivity). Qed.

Lemma head_one s ts : p_head (TStr s :: TComma :: ts) = Some (false, [s], ts).
Proof. reflexivity. Qed.
Lemma params_read l ts : some l = true -> p_params (names l ++ TCloseSq :: ts) = Some (l, ts).
Proof.
  induction l as [|s l IHl]; intros H; [discriminate|]. destruct l as [|s' l]; [reflexivity|].
  change (names (s :: s' :: l)) with (TStr s :: TComma :: names (s' :: l)). cbn [app p_params].
  now rewrite IHl.
Qed.
Lemma head_read params brackets ts : brackets || (zlen params =? 1) = true ->
  p_head ((if brackets then TOpenSq :: names params ++ [TCloseSq] else names params) ++ TComma :: ts) =
  Some (brackets && some params, params, ts).
Proof.
  destruct brackets; cbn [orb andb]; intros H.
  - destruct params as [|s params]; [reflexivity|]. cbn [app]. rewrite <- app_assoc. cbn [app].
    pose proof (params_read (s :: params) (TComma :: ts) eq_refl) as P.
    destruct params as [|s' params]; unfold p_head; cbn [names map sep app] in *; rewrite ?P; try reflexivity.
  - destruct params as [|s [|s' params]]; [discriminate|reflexivity|].
    exfalso. unfold zlen in H. cbn [length] in H. apply Z.eqb_eq in H. lia.
Qed.

(** The rest of [e ... ]]] after an address. *)
Lemma read_index l rest (h : nat -> list parg -> list etoken -> res (option (parg * list etoken))) r :
  some l = true -> forallb well l = true -> (forall e, In e l -> (size e < n)%nat) ->
  After (all_of build l) (fun l => Lim (fun f => h f l rest)) r ->
  forall (k : nat -> parg -> list etoken -> res (option (parg * list etoken))),
  Lim (fun f =>
    get ' (a, ts) <- p_arg f 0 (sep (map flat l) ++ TCloseDbl :: rest);
    match ts with
    | TColon :: ts => k f a ts
    | _ =>
        get ' (l, ts) <-
          match ts with
          | TComma :: ts => get ' (l, ts) <- p_args f ts; Ok (Some (a :: l, ts))
          | _ => Ok (Some ([a], ts))
          end;
        get ' ts <- expect TCloseDbl ts;
        h f l ts
    end) r.
Proof.
  intros S W N H k. destruct l as [|e l]; [discriminate|]. cbn [forallb] in W. apply andb_true_iff in W as [W Ws].
  destruct l as [|e' l].
  - cbn [map sep]. eapply lim_try; [apply read_any; auto; apply N; now left|]. cbn beta iota.
    eapply after_try; [exact H|]. intros a _ K. cbn [all_of try After expect etoken_eqb] in *. exact K.
  - replace (sep (map flat (e :: e' :: l)) ++ TCloseDbl :: rest) with
      (flat e ++ TComma :: (sep (map flat (e' :: l)) ++ TCloseDbl :: rest))
      by (cbn [map sep]; now rewrite <- app_assoc).
    eapply lim_try; [apply read_any; auto; apply N; now left|]. cbn beta iota.
    change (all_of build (e :: e' :: l)) with (try (build e) (fun y => try (all_of build (e' :: l)) (fun r => Ok (Some (y :: r))))) in H.
    eapply after_try; [exact H|]. intros a _ K.
    apply (lim_ext _ (fun f => get ' (l, ts) <- p_args f (sep (map flat (e' :: l)) ++ TCloseDbl :: rest);
       get ' ts <- expect TCloseDbl ts; h f (a :: l) ts)).
    { intros f. rewrite try_try. unfold try. destruct (p_args _ _) as [[[] |]| |]; reflexivity. }
    eapply lim_try; [apply read_args; auto; intros x X; apply N; now right|]. cbn beta iota.
    eapply after_try; [exact K|]. intros b _ J. exact J.
Qed.

Ltac split_well W := cbn [well] in W; repeat rewrite ?andb_true_iff in W;
  repeat match type of W with _ /\ _ => let W' := fresh "W" in destruct W as [W W'] end.
Ltac norm := cbn [flat]; repeat (rewrite <- app_assoc || rewrite <- app_comm_cons); cbn [app].

(** What does not begin with an operand. *)
Definition headed (e : syn) : bool :=
  match e with SOp _ _ _ | SOpAssign _ _ _ | SIf _ _ _ => false | SIndex (SAddr _) _ => true | SIndex _ _ => false | _ => true end.
Lemma lift_try {A B} (m : res (option A)) (k : A -> res (option B)) rest :
  lift (try m k) rest = try m (fun a => lift (k a) rest).
Proof. destruct m as [[a|]|u|]; reflexivity. Qed.
Lemma lift_must e rest : lift (must e) rest =
  match e with Some e => Ok (Some (PExpr (Some e), rest)) | None => Ok None end.
Proof. destruct e; reflexivity. Qed.

Ltac at_once := exists 0%nat; intros ? _; reflexivity.
Lemma prim_read e rest : (size e < S n)%nat -> well e = true -> headed e = true -> calm e rest = true ->
  Prim (flat e ++ rest) (lift (build e) rest).
Proof.
  intros N W Hd C. pose proof C as C0. apply calm_parts in C as [G R].
  assert (AL : forall l, (length (sep (map flat l)) < n)%nat -> forall x, In x l -> (size x < n)%nat)
    by (intros l L x X; apply size_in in X; lia).
  destruct e; try discriminate Hd; split_well W; apply lim_S.
  - norm. cbn [p_primary]. at_once.
  - norm. apply (lim_ext _ (fun _ => lift (build (SText s)) rest)); [|at_once]. intros f.
    destruct rest as [|[]]; (discriminate G || reflexivity).
  - norm. apply (lim_ext _ (fun _ => lift (build (SAddr p)) rest)); [|at_once]. intros f.
    destruct rest as [|[]]; (discriminate G || discriminate C0 || reflexivity).
  - (* lambda *) norm. cbn [p_primary]. cbn [build].
    eapply lim_ext. { intros f. rewrite head_read by exact W. cbn beta iota. reflexivity. }
    next (read_args body (TClose :: rest) W1 W0 (AL body ltac:(sizes; lia)) eq_refl).
    cbn [expect etoken_eqb try].
    destruct (body_of _ _); cbn [bind lift]; at_once.
  - (* (e) *) norm. cbn [p_primary build].
    eapply lim_try; [apply (read_any e (TClose :: rest)); auto; sizes; lia|].
    pose proof (build_fine e) as F. pose proof (build_kind e) as K.
    destruct (build e) as [[a|]|u|]; [|reflexivity|reflexivity|contradiction].
    cbn [After lift]. specialize (K a W0 eq_refl). rewrite W in K. destruct a; try discriminate K.
    cbn [expect etoken_eqb try]. at_once.
  - (* bundle *) norm. cbn [build]. destruct l as [|pe l]; [at_once|].
    change (map (fun '(p, e) => TAddr p :: TColon :: flat e) (pe :: l)) with (map message (pe :: l)).
    apply (lim_ext _ (fun f => get ' (l, ts) <- p_msgs f (sep (map message (pe :: l)) ++ TCloseBr :: rest);
      get ' ts <- expect TCloseBr ts; Ok (Some (PExpr (reduce_prefix (str "bundle") l), ts)))).
    { intros f. destruct pe as [q e]. destruct l; reflexivity. }
    assert (M : forall p e, In (p, e) (pe :: l) -> (size e < n)%nat)
      by (intros q e X; apply size_in_pair in X; sizes; lia).
    eapply lim_try; [apply (read_msgs (pe :: l) (TCloseBr :: rest) eq_refl W M eq_refl)|].
    change (all_of (fun '(p, e) => try (build e) (fun a => Ok (Some [PAtom (set_string atom_fresh 0 p); a]))) (pe :: l))
      with (all_of build_message (pe :: l)).
    pose proof (messages_fine (pe :: l)) as F.
    destruct (all_of build_message (pe :: l)) as [[ls|]|u|]; [at_once|reflexivity|reflexivity|contradiction].
  - (* f(...) *) norm. cbn [build]. destruct args as [|e args].
    + cbn [map sep app p_primary all_of try]. apply lim_eq. now rewrite lift_must.
    + eapply lim_ext. { intros f'. apply prim_call. now apply opened_args. }
      next (read_args (e :: args) (TClose :: rest) eq_refl W (AL (e :: args) ltac:(sizes; lia)) eq_refl).
      cbn [expect etoken_eqb try]. apply lim_eq. now rewrite lift_must.
  - norm. at_once.
  - (* /f(...) *) norm. cbn [build]. destruct args as [|e args].
    + at_once.
    + eapply lim_ext. { intros f'. apply prim_apply. now apply opened_args. }
      next (read_args (e :: args) (TClose :: rest) eq_refl W (AL (e :: args) ltac:(sizes; lia)) eq_refl).
      cbn [expect etoken_eqb try]. at_once.
  - (* (lambda, ...) *) norm. cbn [p_primary build].
    assert (LF : (size e < n)%nat) by (sizes; lia).
    pose proof (read_any e (TComma :: sep (map flat args) ++ TClose :: rest) LF W2 eq_refl) as E.
    eapply lim_try; [exact E|]. apply after_lift; [fine|]. intros a Ea. cbn beta iota.
    destruct (build_fun e a W Ea) as (ps & b & ->).
    cbn [expect etoken_eqb try].
    next (read_args args (TClose :: rest) W1 W0 (AL args ltac:(sizes; lia)) eq_refl). at_once.
  - (* index *) destruct e; try discriminate Hd. norm. cbn [p_primary].
    eapply (read_index args rest _ _ W2 W1 (AL args ltac:(sizes; lia))).
    cbn [build try]. apply after_lift; [fine|]. intros l _.
    destruct rest as [|[]]; (discriminate G || at_once).
  - norm. cbn [p_primary]. destruct rest as [|[]]; (discriminate G || at_once).
  - norm. cbn [p_primary]. at_once.
  - (* ! *) norm. cbn [p_primary build].
    cbn [rights forallb] in R. apply andb_true_iff in R as [R1 R2].
    next (read_right TNot e rest ltac:(sizes; lia) W ltac:(cbn; lia) W0 G R1 R2). at_once.
  - norm. cbn [p_primary build].
    cbn [rights forallb] in R. apply andb_true_iff in R as [R1 R2].
    next (read_right TNot e rest ltac:(sizes; lia) W ltac:(cbn; lia) W0 G R1 R2). at_once.
  - norm. cbn [p_primary build]. apply lim_eq. now rewrite lift_must.
  - norm. cbn [p_primary build]. apply lim_eq. now rewrite lift_must.
  - norm. cbn [p_primary build].
    cbn [rights forallb] in R. apply andb_true_iff in R as [R1 R2].
    next (read_right TAssign e rest ltac:(sizes; lia) W ltac:(cbn; lia) W0 G R1 R2).
    apply lim_eq. destruct (negb _); reflexivity.
  - (* p[[..]] = e *) norm. cbn [p_primary].
    cbn [rights forallb] in R. apply andb_true_iff in R as [R1 R2].
    eapply (read_index args _ _ _ W W2 (AL args ltac:(sizes; lia))).
    cbn [build try]. apply after_lift; [fine|]. intros l _. cbn beta iota.
    next (read_right TAssign e rest ltac:(sizes; lia) W1 ltac:(cbn; lia) W0 G R1 R2).
    apply lim_eq. destruct (negb _); reflexivity.
  - (* range *) cbn [rights forallb] in R. apply andb_true_iff in R as [R1 R2].
    assert (SE : (size e3 < n)%nat) by (destruct step; sizes; lia).
    assert (SB : (size e2 < n)%nat) by (destruct step; sizes; lia).
    assert (SA : (size e1 < n)%nat) by (destruct step; sizes; lia).
    pose proof (read_right TAssign e3 rest SE W1 ltac:(cbn; lia) W0 G R1 R2) as RE.
    destruct step as [st|]; norm; cbn [p_primary build].
    + assert (SS : (size st < n)%nat) by (sizes; lia).
      next (read_any e1 (TColon :: flat st ++ TColon :: flat e2 ++ TCloseDbl :: TAssign :: flat e3 ++ rest) SA W eq_refl).
      next (read_any st (TColon :: flat e2 ++ TCloseDbl :: TAssign :: flat e3 ++ rest) SS W3 eq_refl).
      eapply lim_ext. { intros f. rewrite try_try. reflexivity. }
      next (read_any e2 (TCloseDbl :: TAssign :: flat e3 ++ rest) SB W2 eq_refl).
      cbn [try expect etoken_eqb]. next RE. apply lim_eq. destruct (negb _); reflexivity.
    + next (read_any e1 (TColon :: flat e2 ++ TCloseDbl :: TAssign :: flat e3 ++ rest) SA W eq_refl).
      next (read_any e2 (TCloseDbl :: TAssign :: flat e3 ++ rest) SB W2 eq_refl).
      cbn [try expect etoken_eqb]. next RE. apply lim_eq. destruct (negb _); reflexivity.
  - norm. cbn [p_primary build]. cbn [rights forallb] in R. apply andb_true_iff in R as [R1 R2].
    next (read_right TAssign e rest ltac:(sizes; lia) W ltac:(cbn; lia) W0 G R1 R2). at_once.
  - norm. cbn [p_primary build]. cbn [rights forallb] in R. apply andb_true_iff in R as [R1 R2].
    next (read_right TElse e rest ltac:(sizes; lia) W ltac:(cbn; lia) W0 G R1 R2). at_once.
  - norm. cbn [p_primary build]. cbn [rights forallb] in R. apply andb_true_iff in R as [R1 R2].
    next (read_right TElseAssign e rest ltac:(sizes; lia) W ltac:(cbn; lia) W0 G R1 R2).
    apply lim_eq. destruct (reduce_null_coalescing _ _); reflexivity.
  - norm. cbn [build]. destruct args as [|e args].
    + at_once.
    + eapply lim_ext. { intros f'. apply prim_list. now apply opened_args. }
      next (read_args (e :: args) (TCloseSq :: rest) eq_refl W (AL (e :: args) ltac:(sizes; lia)) eq_refl).
      cbn [expect etoken_eqb try]. at_once.
  - norm. at_once.
  - norm. at_once.
Qed.
End Main.

(** * The main lemma *)

Ltac split_well W := cbn [well] in W; repeat rewrite ?andb_true_iff in W;
  repeat match type of W with _ /\ _ => let W' := fresh "W" in destruct W as [W W'] end.
Ltac norm := cbn [flat]; repeat (rewrite <- app_assoc || rewrite <- app_comm_cons); cbn [app].

Lemma reads_n n : forall e, (size e < n)%nat -> well e = true -> forall p rest r,
  (forall u, In u (lefts e) -> shifted p u = true) -> calm e rest = true ->
  After (build e) (fun a => More p a rest) r -> Arg p (flat e ++ rest) r.
Proof.
  induction n as [|n IH]; intros e N W p rest r L C A; [lia|].
  destruct (headed e) eqn:Hd.
  { eapply arg_prim; [|exact A]. now apply (prim_read n IH). }
  pose proof (calm_parts _ _ C) as [G R].
  destruct e; try discriminate Hd; split_well W; cbn [lefts In] in L; cbn [rights forallb] in R; cbn [build] in A.
  - norm. apply andb_true_iff in R as [R1 R2].
    assert (RK : 0 < rank (TOp o) < 11) by (destruct o; cbn; lia).
    apply IH; [sizes; lia|exact W|intros u U; apply L; now right| |].
    { apply left_calm; auto. now destruct e1. }
    eapply after_try; [exact A|]. intros a _ A1. apply lim_S. cbn [p_more].
    rewrite (L (TOp o) (or_introl eq_refl)).
    replace (op_level o) with (rank (TOp o)) by (destruct o; reflexivity).
    eapply lim_try; [apply (read_right n IH (TOp o) e2 rest); auto; sizes; lia|]. cbn beta iota.
    eapply after_try; [exact A1|]. intros b _ A2. exact A2.
  - norm. apply andb_true_iff in R as [R1 R2].
    assert (RK : 0 < rank (TOpAssign o) < 11) by (cbn; lia).
    apply IH; [sizes; lia|exact W|intros u U; apply L; now right| |].
    { apply left_calm; auto. now destruct e1. }
    eapply after_try; [exact A|]. intros a _ A1. apply lim_S. cbn [p_more].
    rewrite (L (TOpAssign o) (or_introl eq_refl)).
    change LEVEL_ASSIGN with (rank (TOpAssign o)).
    eapply lim_try; [apply (read_right n IH (TOpAssign o) e2 rest); auto; sizes; lia|]. cbn beta iota.
    eapply after_try; [exact A1|]. intros b _ A2. exact A2.
  - norm. apply andb_true_iff in R as [R1 R2].
    assert (RK : 0 < rank TQuest < 11) by (cbn; lia).
    apply IH; [sizes; lia|exact W|intros u U; apply L; now right| |].
    { apply left_calm; auto. now destruct e1. }
    eapply after_try; [exact A|]. intros a _ A1. apply lim_S. cbn [p_more].
    rewrite (L TQuest (or_introl eq_refl)).
    eapply lim_try; [apply (read_any n IH e2 (TColon :: flat e3 ++ rest)); auto; sizes; lia|]. cbn beta iota.
    eapply after_try; [exact A1|]. intros b _ A2. cbn [expect etoken_eqb try].
    change LEVEL_TERNARY with (rank TQuest).
    eapply lim_try; [apply (read_right n IH TQuest e3 rest); auto; sizes; lia|]. cbn beta iota.
    eapply after_try; [exact A2|]. intros c _ A3. exact A3.
  - norm.
    apply IH; [sizes; lia|exact W|intros u U; apply L; now right| |].
    { apply left_calm; auto. destruct e; try reflexivity. discriminate Hd. }
    eapply after_try; [exact A|]. intros a _ A1. apply lim_S. cbn [p_more].
    rewrite (L TOpenDbl (or_introl eq_refl)).
    eapply lim_try; [apply (read_args n IH args (TCloseDbl :: rest)); auto; intros x X; apply size_in in X; sizes; lia|].
    cbn beta iota. eapply after_try; [exact A1|]. intros l _ A2. exact A2.
Qed.

Theorem reads e rest p : well e = true -> (forall u, In u (lefts e) -> shifted p u = true) ->
  calm e rest = true -> stops p rest = true -> Arg p (flat e ++ rest) (lift (build e) rest).
Proof. intros. apply (read_arg (S (size e)) (reads_n (S (size e)))); auto. Qed.
Theorem reads_any e rest : well e = true -> quiet rest = true -> Arg 0 (flat e ++ rest) (lift (build e) rest).
Proof. intros. apply (read_any (S (size e)) (reads_n (S (size e)))); auto. Qed.
