(** What the parser accepts is a well formed expression. *)

From Coq Require Import String ZArith List Bool Lia.
From Verif Require Import Base Text SerialModel BundleSModel ExprParseModel ExprParseSpec ExprParseProofs ExprReads.
Import ListNotations.
Open Scope Z_scope.

Definition stopped (e : syn) (rest : list etoken) : Prop := forall t, In t (rights e) -> stops (rank t) rest = true.
Definition reaches (p : Z) (e : syn) : Prop := forall u, In u (lefts e) -> shifted p u = true.

Definition ArgS p ts a rest : Prop := exists e,
  ts = flat e ++ rest /\ well e = true /\ build e = Ok (Some a) /\ reaches p e /\ stopped e rest /\ stops p rest = true.
Definition PrimS ts a rest : Prop := exists e,
  ts = flat e ++ rest /\ well e = true /\ build e = Ok (Some a) /\ (forall u, In u (lefts e) -> u = TOpenDbl) /\ stopped e rest.
Definition ArgsS ts l rest : Prop := exists es,
  ts = sep (map flat es) ++ rest /\ some es = true /\ forallb well es = true /\ all_of build es = Ok (Some l).
Definition MsgsS ts l rest : Prop := exists es ls,
  ts = sep (map message es) ++ rest /\ some es = true /\ forallb (fun '(_, e) => well e) es = true /\
  all_of build_message es = Ok (Some ls) /\ concat ls = l.
Definition MoreS p a ts a' rest : Prop := forall e0,
  well e0 = true -> build e0 = Ok (Some a) -> reaches p e0 -> stopped e0 ts -> exists e,
  flat e0 ++ ts = flat e ++ rest /\ well e = true /\ build e = Ok (Some a') /\ reaches p e /\ stopped e rest /\ stops p rest = true.

Lemma try_inv {A B} (m : res (option A)) (k : A -> res (option B)) b :
  try m k = Ok (Some b) -> exists a, m = Ok (Some a) /\ k a = Ok (Some b).
Proof. destruct m as [[a|]|u|]; cbn; try discriminate. eauto. Qed.
Lemma expect_inv t ts ts' : expect t ts = Ok (Some ts') -> ts = t :: ts'.
Proof.
  destruct ts as [|u ts]; [discriminate|]. cbn [expect]. destruct (etoken_eqb t u) eqn:E; [|discriminate].
  intros H. injection H as ->. destruct t, u; (discriminate || reflexivity).
Qed.
Lemma colon_inv {B} ts (k1 : list etoken -> B) (k2 : B) r :
  match ts with TColon :: ts => k1 ts | _ => k2 end = r -> (exists ts', ts = TColon :: ts' /\ k1 ts' = r) \/ k2 = r.
Proof. destruct ts as [|[]]; eauto. Qed.
Lemma comma_inv {B} ts (k1 : list etoken -> B) (k2 : B) r :
  match ts with TComma :: ts => k1 ts | _ => k2 end = r -> (exists ts', ts = TComma :: ts' /\ k1 ts' = r) \/ k2 = r.
Proof. destruct ts as [|[]]; eauto. Qed.
Lemma assign_inv {B} ts (k1 : list etoken -> B) (k2 : B) r :
  match ts with TAssign :: ts => k1 ts | _ => k2 end = r -> (exists ts', ts = TAssign :: ts' /\ k1 ts' = r) \/ k2 = r.
Proof. destruct ts as [|[]]; eauto. Qed.

Lemma stopped_left t e ts : operator t = true -> stopped e (t :: ts) -> left_of t e = true.
Proof.
  intros O H. apply forallb_forall. intros u U. specialize (H u U). cbn [stops] in H.
  pose proof (rights_rank e u U). rewrite shifted_first in H by (auto; lia). now rewrite negb_involutive in H.
Qed.
Lemma reaches_right t e : 0 < rank t -> reaches (rank t) e -> right_of t e = true.
Proof.
  intros R H. apply forallb_forall. intros u U. rewrite <- shifted_first; [now apply H| |exact R].
  now apply lefts_operator in U.
Qed.
Lemma stopped_cons t e rest e' : rights e' = t :: rights e -> stops (rank t) rest = true -> stopped e rest -> stopped e' rest.
Proof. intros E H1 H2 u U. rewrite E in U. destruct U as [<- |U]; auto. Qed.

Ltac inv1 :=
  match goal with
  | H : try _ _ = Ok (Some _) |- _ => apply try_inv in H as ([] & ? & H) 
  | H : try (expect _ _) _ = Ok (Some _) |- _ => apply try_inv in H as (? & ? & H)
  | H : expect _ _ = Ok (Some _) |- _ => apply expect_inv in H; subst
  | H : Ok (Some _) = Ok (Some _) |- _ => injection H; clear H; intros; subst
  end.
Ltac norm := cbn [flat]; repeat (rewrite <- app_assoc || rewrite <- app_comm_cons); cbn [app].

Lemma more_sound f :
  (forall p ts a rest, 0 <= p < 11 -> p_arg f p ts = Ok (Some (a, rest)) -> ArgS p ts a rest) ->
  (forall p a ts a' rest, 0 <= p < 11 -> p_more f p a ts = Ok (Some (a', rest)) -> MoreS p a ts a' rest) ->
  (forall ts l rest, p_args f ts = Ok (Some (l, rest)) -> ArgsS ts l rest) ->
  forall p a ts a' rest, 0 <= p < 11 -> p_more (S f) p a ts = Ok (Some (a', rest)) -> MoreS p a ts a' rest.
Proof.
  intros IA IM IS p a ts a' rest P H e0 W0 B0 L0 R0. cbn [p_more] in H.
  assert (Stop : stops p ts = true -> (a, ts) = (a', rest) -> exists e, flat e0 ++ ts = flat e ++ rest /\ well e = true /\
    build e = Ok (Some a') /\ reaches p e /\ stopped e rest /\ stops p rest = true).
  { intros HS E. injection E as <- <-. exists e0. repeat split; assumption. }
  destruct ts as [|t ts]; [apply Stop; [reflexivity|congruence]|].
  destruct t; try (apply Stop; [reflexivity|congruence]).
  - destruct (shifted p (TOp o)) eqn:SH; [|apply Stop; [cbn [stops]; now rewrite SH|congruence]].
    apply try_inv in H as ([b ts'] & HA & H).
    replace (op_level o) with (rank (TOp o)) in HA by (destruct o; reflexivity).
    apply IA in HA as (e2 & -> & W2 & B2 & L2 & R2 & T2); [|destruct o; cbn; lia].
    eapply IM in H; [|exact P]. edestruct (H (SOp e0 o e2)) as (e & E & K).
    + cbn [well]. rewrite W0, W2, (stopped_left (TOp o) _ _ eq_refl R0), (reaches_right (TOp o)); auto. destruct o; cbn; lia.
    + cbn [build]. now rewrite B0, B2.
    + intros u [<- |U]; auto.
    + now apply (stopped_cons (TOp o) e2).
    + exists e. split; [|exact K]. rewrite <- E. norm. reflexivity.
  - destruct (shifted p (TOpAssign o)) eqn:SH; [|apply Stop; [cbn [stops]; now rewrite SH|congruence]].
    apply try_inv in H as ([b ts'] & HA & H).
    change LEVEL_ASSIGN with (rank (TOpAssign o)) in HA.
    apply IA in HA as (e2 & -> & W2 & B2 & L2 & R2 & T2); [|cbn; lia].
    eapply IM in H; [|exact P]. edestruct (H (SOpAssign e0 o e2)) as (e & E & K).
    + cbn [well]. rewrite W0, W2, (stopped_left (TOpAssign o) _ _ eq_refl R0), (reaches_right (TOpAssign o)); auto. cbn; lia.
    + cbn [build]. now rewrite B0, B2.
    + intros u [<- |U]; auto.
    + now apply (stopped_cons (TOpAssign o) e2).
    + exists e. split; [|exact K]. rewrite <- E. norm. reflexivity.
  - destruct (shifted p TQuest) eqn:SH; [|apply Stop; [cbn [stops]; now rewrite SH|congruence]].
    apply try_inv in H as ([b ts'] & HA & H).
    apply IA in HA as (e2 & -> & W2 & B2 & _); [|lia].
    apply try_inv in H as (ts1 & E1 & H). apply expect_inv in E1 as ->.
    apply try_inv in H as ([c ts2] & HA & H).
    change LEVEL_TERNARY with (rank TQuest) in HA.
    apply IA in HA as (e3 & -> & W3 & B3 & L3 & R3 & T3); [|cbn; lia].
    eapply IM in H; [|exact P]. edestruct (H (SIf e0 e2 e3)) as (e & E & K).
    + cbn [well]. rewrite W0, W2, W3, (stopped_left TQuest _ _ eq_refl R0), (reaches_right TQuest); auto. cbn; lia.
    + cbn [build]. now rewrite B0, B2, B3.
    + intros u [<- |U]; auto.
    + now apply (stopped_cons TQuest e3).
    + exists e. split; [|exact K]. rewrite <- E. norm. reflexivity.
  - destruct (shifted p TOpenDbl) eqn:SH; [|apply Stop; [cbn [stops]; now rewrite SH|congruence]].
    apply try_inv in H as ([l ts'] & HA & H).
    apply IS in HA as (es & -> & SO & WS & BS).
    apply try_inv in H as (ts1 & E1 & H). apply expect_inv in E1 as ->.
    eapply IM in H; [|exact P]. edestruct (H (SIndex e0 es)) as (e & E & K).
    + cbn [well]. now rewrite W0, SO, WS, (stopped_left TOpenDbl _ _ eq_refl R0).
    + cbn [build]. now rewrite B0, BS.
    + intros u [<- |U]; auto.
    + intros u [].
    + exists e. split; [|exact K]. rewrite <- E. norm. reflexivity.
Qed.

Lemma sep_cons x l ts : some l = true -> sep (x :: l) ++ ts = x ++ TComma :: sep l ++ ts.
Proof. destruct l; [discriminate|]. intros _. cbn [sep]. now rewrite <- app_assoc. Qed.
Lemma some_map {A B} (f : A -> B) l : some (map f l) = some l.
Proof. now destruct l. Qed.
Lemma build_fun_inv e a ps b : build e = Ok (Some a) -> well e = true -> a = PFun ps b ->
  match e with SFun _ _ _ => true | _ => false end = true.
Proof.
  intros B W ->. pose proof (build_kind e _ W B) as K. cbn [is_pexpr] in K.
  destruct e; try discriminate K; (reflexivity || discriminate B).
Qed.

Lemma params_inv ts : forall n l ts', (length ts < n)%nat -> p_params ts = Some (l, ts') ->
  some l = true /\ ts = names l ++ TCloseSq :: ts'.
Proof.
  intros n; revert ts; induction n as [|n IH]; intros ts l ts' N H; [lia|].
  destruct ts as [|[] [|[] ts]]; try discriminate H; cbn [p_params] in H.
  - destruct (p_params ts) as [[l' us]|] eqn:E; [|discriminate]. injection H as <- <-.
    cbn [length] in N. apply IH in E as [SO ->]; [|lia]. split; [reflexivity|].
    unfold names in *. cbn [map]. rewrite sep_cons by now rewrite some_map. reflexivity.
  - injection H as <- <-. split; reflexivity.
Qed.
Lemma head_inv ts many params ts' : p_head ts = Some (many, params, ts') -> exists brackets,
  brackets || (zlen params =? 1) = true /\ many = brackets && some params /\
  ts = (if brackets then TOpenSq :: names params ++ [TCloseSq] else names params) ++ TComma :: ts'.
Proof.
  intros H.
  assert (K : forall us, ts = TOpenSq :: us ->
    match p_params us with Some (l, TComma :: ts) => Some (true, l, ts) | _ => None end = Some (many, params, ts') ->
    exists brackets, brackets || (zlen params =? 1) = true /\ many = brackets && some params /\
    ts = (if brackets then TOpenSq :: names params ++ [TCloseSq] else names params) ++ TComma :: ts').
  { intros us -> E. destruct (p_params us) as [[l [|[] vs]]|] eqn:P; try discriminate E. injection E as <- <- <-.
    apply (params_inv _ (S (length us))) in P as [SO ->]; [|lia].
    exists true. cbn [andb orb app]. rewrite SO. repeat split. now rewrite <- app_assoc. }
  destruct ts as [|[] ts]; try discriminate H.
  - destruct ts as [|[] ts]; try discriminate H. injection H as <- <- <-. exists false. repeat split.
  - destruct ts as [|[] ts]; try (apply (K _ eq_refl); exact H).
    destruct ts as [|[] ts]; try discriminate H. injection H as <- <- <-. exists true. repeat split.
Qed.

Lemma args_sound f :
  (forall p ts a rest, 0 <= p < 11 -> p_arg f p ts = Ok (Some (a, rest)) -> ArgS p ts a rest) ->
  (forall ts l rest, p_args f ts = Ok (Some (l, rest)) -> ArgsS ts l rest) ->
  forall ts l rest, p_args (S f) ts = Ok (Some (l, rest)) -> ArgsS ts l rest.
Proof.
  intros IA IS ts l rest H. cbn [p_args] in H. apply try_inv in H as ([a ts1] & HA & H).
  apply IA in HA as (e & -> & W & B & _); [|lia].
  apply comma_inv in H as [(ts2 & -> & H)|H].
  - apply try_inv in H as ([l' ts3] & HS & H). injection H as <- <-.
    apply IS in HS as (es & -> & SO & WS & BS). exists (e :: es). cbn [map forallb].
    rewrite sep_cons by now rewrite some_map. repeat split; [now rewrite W|].
    change (try (build e) (fun y => try (all_of build es) (fun r => Ok (Some (y :: r)))) = Ok (Some (a :: l'))).
    now rewrite B, BS.
  - injection H as <- <-. exists [e]. cbn [map forallb sep all_of]. rewrite W, B. repeat split.
Qed.
Lemma msgs_sound f :
  (forall p ts a rest, 0 <= p < 11 -> p_arg f p ts = Ok (Some (a, rest)) -> ArgS p ts a rest) ->
  (forall ts l rest, p_msgs f ts = Ok (Some (l, rest)) -> MsgsS ts l rest) ->
  forall ts l rest, p_msgs (S f) ts = Ok (Some (l, rest)) -> MsgsS ts l rest.
Proof.
  intros IA IS ts l rest H. cbn [p_msgs] in H. destruct ts as [|[] [|[] ts]]; try discriminate H.
  apply try_inv in H as ([a ts1] & HA & H).
  apply IA in HA as (e & -> & W & B & _); [|lia].
  apply comma_inv in H as [(ts2 & -> & H)|H].
  - apply try_inv in H as ([l' ts3] & HS & H). injection H as <- <-.
    apply IS in HS as (es & ls & -> & SO & WS & BS & <-).
    exists ((s, e) :: es), ([PAtom (set_string atom_fresh 0 s); a] :: ls). cbn [map forallb message].
    rewrite sep_cons by now rewrite some_map. repeat split; [now rewrite W|].
    change (try (build_message (s, e)) (fun y => try (all_of build_message es) (fun r => Ok (Some (y :: r)))) =
      Ok (Some ([PAtom (set_string atom_fresh 0 s); a] :: ls))).
    cbn [build_message]. now rewrite B, BS.
  - injection H as <- <-. exists [(s, e)], [[PAtom (set_string atom_fresh 0 s); a]].
    cbn [map forallb sep all_of build_message message concat app]. rewrite W, B. repeat split.
Qed.

Ltac one e0 := exists e0; norm; cbn [rights lefts In];
  repeat split; try reflexivity; try (intros ? []); try assumption.
Lemma stopped_nil e rest : rights e = [] -> stopped e rest.
Proof. intros E u U. rewrite E in U. destruct U. Qed.
Lemma none_left e : lefts e = [] -> forall u, In u (lefts e) -> u = TOpenDbl.
Proof. intros E u U. rewrite E in U. destruct U. Qed.

(** One step of [p_primary] over any way to read arguments. *)
Definition primary (pa : Z -> list etoken -> res (option (parg * list etoken)))
  (pargs pmsgs : list etoken -> res (option (list parg * list etoken))) (ts : list etoken)
  : res (option (parg * list etoken)) :=
  match ts with
  | TNum a :: ts => Ok (Some (PAtom a, ts))
  | TStr s :: TOpen :: TClose :: ts =>
      match reduce_prefix s [] with Some e => Ok (Some (PExpr (Some e), ts)) | None => Ok None end
  | TStr s :: TOpen :: ts =>
      get ' (l, ts) <- pargs ts;
      get ' ts <- expect TClose ts;
      match reduce_prefix s l with Some e => Ok (Some (PExpr (Some e), ts)) | None => Ok None end
  | TStr s :: TDot :: TAddr q :: ts =>
      Ok (Some (PExpr (reduce_infix (str ".") (PAtom (set_string atom_fresh 0 s)) (PAddr q)), ts))
  | TStr _ :: TDot :: _ => Ok None
  | TStr _ :: TStep _ :: _ => Ok None
  | TStr s :: ts => Ok (Some (PAtom (set_string atom_fresh 0 s), ts))
  | TAddr s :: TOpen :: TClose :: ts => Ok (Some (PExpr (Some (Call (str "apply") [PAddr s])), ts))
  | TAddr s :: TOpen :: ts =>
      get ' (l, ts) <- pargs ts;
      get ' ts <- expect TClose ts;
      Ok (Some (PExpr (Some (Call (str "apply") (PAddr s :: l))), ts))
  | TAddr s :: TDot :: TAddr q :: TAssign :: ts =>
      get ' (a, ts) <- pa LEVEL_ASSIGN ts;
      Ok (Some (PExpr (reduce_prefix (str "assigntobundlemember") [PAddr s; PAddr q; a]), ts))
  | TAddr s :: TDot :: TAddr q :: ts =>
      Ok (Some (PExpr (reduce_infix (str ".") (PAddr s) (PAddr q)), ts))
  | TAddr _ :: TDot :: _ => Ok None
  | TAddr s :: TStep inc :: ts =>
      match reduce_postfix_unary s (step_name inc) with
      | Some e => Ok (Some (PExpr (Some e), ts))
      | None => Ok None
      end
  | TAddr s :: TAssign :: ts =>
      get ' (a, ts) <- pa LEVEL_ASSIGN ts;
      if negb (hd 0 s =? 47) then Ok None else
      Ok (Some (PExpr (reduce_infix (str "assign") (PAddr s) a), ts))
  | TAddr s :: TElse :: ts =>
      get ' (a, ts) <- pa LEVEL_PREFIX ts;
      Ok (Some (PExpr (reduce_null_coalescing s a), ts))
  | TAddr s :: TElseAssign :: ts =>
      get ' (a, ts) <- pa LEVEL_PREFIX ts;
      match reduce_null_coalescing s a with
      | None => Ok None
      | Some e => Ok (Some (PExpr (reduce_infix (str "=") (PAddr s) (PExpr (Some e))), ts))
      end
  | TAddr s :: TOpenDbl :: ts =>
      get ' (a, ts) <- pa 0 ts;
      match ts with
      | TColon :: ts =>
          get ' (b, ts) <- pa 0 ts;
          get ' (l, ts) <-
            match ts with
            | TColon :: ts => get ' (c, ts) <- pa 0 ts; Ok (Some ([a; c; b], ts))
            | _ => Ok (Some ([a; b], ts))
            end;
          get ' ts <- expect TCloseDbl ts;
          get ' ts <- expect TAssign ts;
          get ' (v, ts) <- pa LEVEL_ASSIGN ts;
          if negb (hd 0 s =? 47) then Ok None else
          Ok (Some (PExpr (reduce_prefix (str "assign_to_index")
                             [PAddr s; PExpr (reduce_prefix (str "aseq") l); v]), ts))
      | _ =>
          get ' (l, ts) <-
            match ts with
            | TComma :: ts => get ' (l, ts) <- pargs ts; Ok (Some (a :: l, ts))
            | _ => Ok (Some ([a], ts))
            end;
          get ' ts <- expect TCloseDbl ts;
          match ts with
          | TAssign :: ts =>
              get ' (v, ts) <- pa LEVEL_ASSIGN ts;
              if negb (hd 0 s =? 47) then Ok None else
              let indexes := match l with [i] => i | _ => PExpr (reduce_prefix (str "list") l) end in
              Ok (Some (PExpr (reduce_prefix (str "assign_to_index") [PAddr s; indexes; v]), ts))
          | _ => Ok (Some (PExpr (reduce_prefix (str "nth") (PAddr s :: l)), ts))
          end
      end
  | TAddr s :: ts => Ok (Some (PAddr s, ts))
  | TQuoted s :: ts =>
      Ok (Some (PExpr (reduce_prefix (str "quote") [PAtom (set_string atom_fresh 0 s)]), ts))
  | TLambda :: TOpen :: ts =>
      match p_head ts with
      | None => Ok None
      | Some (many, params, ts) =>
          get ' (l, ts) <- pargs ts;
          get ' ts <- expect TClose ts;
          do body <- body_of many l;
          Ok (Some (PFun params body, ts))
      end
  | TOpen :: ts =>
      get ' (a, ts) <- pa 0 ts;
      match a with
      | PExpr e => get ' ts <- expect TClose ts; Ok (Some (PExpr e, ts))
      | PFun _ _ =>
          get ' ts <- expect TComma ts;
          get ' (l, ts) <- pargs ts;
          get ' ts <- expect TClose ts;
          Ok (Some (PExpr (reduce_prefix (str "apply") (a :: l)), ts))
      | _ => Ok None
      end
  | TOpenBr :: TCloseBr :: ts => Ok (Some (PExpr (reduce_prefix (str "bundle") []), ts))
  | TOpenBr :: ts =>
      get ' (l, ts) <- pmsgs ts;
      get ' ts <- expect TCloseBr ts;
      Ok (Some (PExpr (reduce_prefix (str "bundle") l), ts))
  | TNot :: ts =>
      get ' (a, ts) <- pa LEVEL_PREFIX ts;
      Ok (Some (PExpr (Some (Call (str "!") [a])), ts))
  | TOp OSub :: ts =>
      get ' (a, ts) <- pa LEVEL_PREFIX ts;
      Ok (Some (PExpr (Some (Call (str "-") [PAtom (set_int32 atom_fresh 0); a])), ts))
  | TStep inc :: TAddr s :: ts =>
      match reduce_prefix_unary s (step_name inc) with
      | Some e => Ok (Some (PExpr (Some e), ts))
      | None => Ok None
      end
  | TOpenSq :: TCloseSq :: ts => Ok (Some (PExpr (reduce_prefix (str "list") []), ts))
  | TOpenSq :: ts =>
      get ' (l, ts) <- pargs ts;
      get ' ts <- expect TCloseSq ts;
      Ok (Some (PExpr (reduce_prefix (str "list") l), ts))
  | TTick :: TStr s :: TTick :: ts =>
      Ok (Some (PExpr (reduce_prefix (str "value") [PAtom (set_string atom_fresh 0 s)]), ts))
  | TTick :: TAddr s :: TTick :: ts =>
      Ok (Some (PExpr (reduce_prefix (str "value") [PAddr s]), ts))
  | _ => Ok None
  end.
Lemma primary_eq f ts : p_primary (S f) ts = primary (p_arg f) (p_args f) (p_msgs f) ts.
Proof. reflexivity. Qed.

Lemma prim_sound pa pargs pmsgs :
  (forall p ts a rest, 0 <= p < 11 -> pa p ts = Ok (Some (a, rest)) -> ArgS p ts a rest) ->
  (forall ts l rest, pargs ts = Ok (Some (l, rest)) -> ArgsS ts l rest) ->
  (forall ts l rest, pmsgs ts = Ok (Some (l, rest)) -> MsgsS ts l rest) ->
  forall ts a rest, primary pa pargs pmsgs ts = Ok (Some (a, rest)) -> PrimS ts a rest.
Proof.
  intros IA IS IG ts a rest H.
  destruct ts as [|t ts]; [discriminate H|]. destruct t; try discriminate H.
  - (* number *) injection H as <- <-. one (SNum a0).
  - (* text *)
    destruct ts as [|[] ts]; try discriminate H; try (injection H as <- <-; one (SText s)).
    + destruct ts as [|[] ts]; try discriminate H. injection H as <- <-. one (STextMember s s0).
    + assert (C : (exists ts', ts = TClose :: ts' /\
        match reduce_prefix s [] with Some e => Ok (Some (PExpr (Some e), ts')) | None => Ok None end = Ok (Some (a, rest))) \/
        (get ' (l, ts) <- pargs ts;
         get ' ts <- expect TClose ts;
         match reduce_prefix s l with Some e => Ok (Some (PExpr (Some e), ts)) | None => Ok None end) = Ok (Some (a, rest)))
        by (destruct ts as [|[] ts]; eauto).
      clear H. destruct C as [(ts' & -> & H)|H].
      * destruct (reduce_prefix s []) eqn:E; [|discriminate H]. injection H as <- <-. one (SCall s []).
        cbn [build all_of try]. now rewrite E.
      * apply try_inv in H as ([l ts1] & HS & H). apply IS in HS as (es & -> & SO & WS & BS).
        apply try_inv in H as (ts2 & E2 & H). apply expect_inv in E2 as ->.
        destruct (reduce_prefix s l) eqn:E; [|discriminate H]. injection H as <- <-. one (SCall s es).
        cbn [build]. rewrite BS. cbn [try]. now rewrite E.
  - (* address *)
    destruct ts as [|t ts]; [injection H as <- <-; one (SAddr s)|].
    destruct t; try discriminate H; try (injection H as <- <-; one (SAddr s)).
    + destruct (reduce_postfix_unary s (step_name inc)) eqn:E; cbn [primary] in H; rewrite E in H; [|discriminate H].
      injection H as <- <-. one (SPost s inc). cbn [build]. now rewrite E.
    + cbn [primary] in H. apply try_inv in H as ([v ts1] & HA & H).
      apply IA in HA as (e & -> & W & B & L & R & T); [|now split].
      destruct (negb (hd 0 s =? 47)) eqn:E; [discriminate H|]. injection H as <- <-. exists (SAssign s e).
      norm. cbn [well build]. rewrite B, W, (reaches_right TAssign) by (auto; cbn; lia). cbn [try]. rewrite E.
      repeat split; [intros ? []|]. now apply (stopped_cons TAssign e).
    + cbn [primary] in H. apply try_inv in H as ([v ts1] & HA & H).
      apply IA in HA as (e & -> & W & B & L & R & T); [|now split].
      injection H as <- <-. exists (SElse s e).
      norm. cbn [well build]. rewrite B, W, (reaches_right TElse) by (auto; cbn; lia). cbn [try].
      repeat split; [intros ? []|]. now apply (stopped_cons TElse e).
    + cbn [primary] in H. apply try_inv in H as ([v ts1] & HA & H).
      apply IA in HA as (e & -> & W & B & L & R & T); [|now split].
      destruct (reduce_null_coalescing s v) eqn:E; [|discriminate H].
      injection H as <- <-. exists (SElseAssign s e).
      norm. cbn [well build]. rewrite B, W, (reaches_right TElseAssign) by (auto; cbn; lia). cbn [try]. rewrite E.
      repeat split; [intros ? []|]. now apply (stopped_cons TElseAssign e).
    + destruct ts as [|[] ts]; try discriminate H. cbn [primary] in H.
      apply assign_inv in H as [(ts' & -> & H)|H].
      * apply try_inv in H as ([v ts1] & HA & H).
        apply IA in HA as (e & -> & W & B & L & R & T); [|now split].
        injection H as <- <-. exists (SAssignMember s s0 e).
        norm. cbn [well build]. rewrite B, W, (reaches_right TAssign) by (auto; cbn; lia). cbn [try].
        repeat split; [intros ? []|]. now apply (stopped_cons TAssign e).
      * injection H as <- <-. one (SMember s s0).
    + assert (C : (exists ts', ts = TClose :: ts' /\
        Ok (Some (PExpr (Some (Call (str "apply") [PAddr s])), ts')) = Ok (Some (a, rest))) \/
        (get ' (l, ts) <- pargs ts;
         get ' ts <- expect TClose ts;
         Ok (Some (PExpr (Some (Call (str "apply") (PAddr s :: l))), ts))) = Ok (Some (a, rest)))
        by (destruct ts as [|[] ts]; eauto).
      clear H. destruct C as [(ts' & -> & H)|H].
      * injection H as <- <-. one (SApply s []).
      * apply try_inv in H as ([l ts1] & HS & H). apply IS in HS as (es & -> & SO & WS & BS).
        apply try_inv in H as (ts2 & E2 & H). apply expect_inv in E2 as ->.
        injection H as <- <-. one (SApply s es). cbn [build]. now rewrite BS.
    + cbn [primary] in H. apply try_inv in H as ([a1 ts1] & HA & H).
      apply IA in HA as (e1 & -> & W1 & B1 & _); [|lia].
      apply colon_inv in H as [(ts' & -> & H)|H].
      * apply try_inv in H as ([a2 ts2] & HA & H).
        apply IA in HA as (e2 & -> & W2 & B2 & _); [|lia].
        apply try_inv in H as ([l ts3] & HC & H).
        apply try_inv in H as (ts4 & E2 & H). apply expect_inv in E2 as ->.
        apply try_inv in H as (ts5 & E2 & H). apply expect_inv in E2 as ->.
        apply try_inv in H as ([v ts6] & HA & H).
        apply IA in HA as (e & -> & W & B & L & R & T); [|now split].
        destruct (negb (hd 0 s =? 47)) eqn:E; [discriminate H|]. injection H as <- <-.
        apply colon_inv in HC as [(ts7 & -> & HC)|HC].
        -- apply try_inv in HC as ([a3 ts8] & HA & HC).
           apply IA in HA as (e3 & -> & W3 & B3 & _); [|lia]. injection HC as <- ->.
           exists (SAssignRange s e1 (Some e2) e3 e). norm. cbn [well build].
           rewrite W1, W2, W3, W, (reaches_right TAssign) by (auto; cbn; lia).
           rewrite B1, B2, B3, B. cbn [try]. rewrite E.
           repeat split; [intros ? []|]. now apply (stopped_cons TAssign e).
        -- injection HC as <- ->.
           exists (SAssignRange s e1 None e2 e). norm. cbn [well build].
           rewrite W1, W2, W, (reaches_right TAssign) by (auto; cbn; lia).
           rewrite B1, B2, B. cbn [try]. rewrite E.
           repeat split; [intros ? []|]. now apply (stopped_cons TAssign e).
      * apply try_inv in H as ([l ts3] & HC & H).
        apply try_inv in H as (ts4 & E2 & H). apply expect_inv in E2 as ->.
        assert (K : exists es, flat e1 ++ ts1 = sep (map flat es) ++ TCloseDbl :: ts4 /\ some es = true /\
          forallb well es = true /\ all_of build es = Ok (Some l)).
        { apply comma_inv in HC as [(ts7 & -> & HC)|HC].
          - apply try_inv in HC as ([l' ts8] & HS & HC). apply IS in HS as (es & -> & SO & WS & BS).
            injection HC as <- ->. exists (e1 :: es). cbn [map forallb]. rewrite sep_cons by now rewrite some_map.
            rewrite W1, WS. repeat split.
            change (try (build e1) (fun y => try (all_of build es) (fun r => Ok (Some (y :: r)))) = Ok (Some (a1 :: l'))).
            now rewrite B1, BS.
          - injection HC as <- ->. exists [e1]. cbn [map forallb sep all_of]. rewrite W1, B1. repeat split. }
        destruct K as (es & -> & SO & WS & BS).
        apply assign_inv in H as [(ts' & -> & H)|H].
        -- apply try_inv in H as ([v ts5] & HA & H).
           apply IA in HA as (e & -> & W & B & L & R & T); [|now split].
           destruct (negb (hd 0 s =? 47)) eqn:E; [discriminate H|]. injection H as <- <-.
           exists (SAssignAt s es e). norm. cbn [well build].
           rewrite SO, WS, W, (reaches_right TAssign) by (auto; cbn; lia).
           rewrite BS, B. cbn [try]. rewrite E.
           repeat split; [intros ? []|]. now apply (stopped_cons TAssign e).
        -- injection H as <- <-. exists (SIndex (SAddr s) es). norm. cbn [well build]. rewrite SO, WS, BS.
           repeat split; [intros u [<- |[]]; reflexivity|intros u []].
  - (* quote *) injection H as <- <-. one (SQuote s).
  - (* lambda *) destruct ts as [|[] ts]; try discriminate H. cbn [primary] in H.
    destruct (p_head ts) as [[[many params] ts1]|] eqn:HH; [|discriminate H].
    apply head_inv in HH as (brackets & HB & -> & ->).
    apply try_inv in H as ([l ts2] & HS & H). apply IS in HS as (es & -> & SO & WS & BS).
    apply try_inv in H as (ts3 & E2 & H). apply expect_inv in E2 as ->.
    destruct (body_of _ l) as [b| |] eqn:E; try discriminate H. cbn [bind] in H. injection H as <- <-.
    exists (SFun params brackets es). norm. cbn [well build]. rewrite HB, SO, WS, BS. cbn [try]. rewrite E.
    repeat split; intros u [].
  - (* minus *) destruct o; try discriminate H. cbn [primary] in H. apply try_inv in H as ([v ts1] & HA & H).
    change LEVEL_PREFIX with (rank TNot) in HA.
    apply IA in HA as (e & -> & W & B & L & R & T); [|now split].
    injection H as <- <-. exists (SNeg e).
    norm. cbn [well build]. rewrite B, W, (reaches_right TNot) by (auto; cbn; lia). cbn [try].
    repeat split; [intros ? []|]. now apply (stopped_cons TNot e).
  - (* step *) destruct ts as [|[] ts]; try discriminate H. cbn [primary] in H.
    destruct (reduce_prefix_unary s (step_name inc)) eqn:E; [|discriminate H].
    injection H as <- <-. one (SPre inc s). cbn [build]. now rewrite E.
  - (* not *) cbn [primary] in H. apply try_inv in H as ([v ts1] & HA & H).
    change LEVEL_PREFIX with (rank TNot) in HA.
    apply IA in HA as (e & -> & W & B & L & R & T); [|now split].
    injection H as <- <-. exists (SNot e).
    norm. cbn [well build]. rewrite B, W, (reaches_right TNot) by (auto; cbn; lia). cbn [try].
    repeat split; [intros ? []|]. now apply (stopped_cons TNot e).
  - (* ticks *) destruct ts as [|[] [|[] ts]]; try discriminate H; injection H as <- <-; [one (STick s)|one (STickAddr s)].
  - (* parentheses *) cbn [primary] in H. apply try_inv in H as ([v ts1] & HA & H).
    apply IA in HA as (e & -> & W & B & _); [|lia].
    pose proof (build_kind e v W B) as K. destruct v; try discriminate H.
    + apply try_inv in H as (ts3 & E2 & H). apply expect_inv in E2 as ->.
      injection H as <- <-. exists (SPar e). norm. cbn [well build]. cbn [is_pexpr] in K. rewrite <- K, W, B.
      repeat split; intros u [].
    + apply try_inv in H as (ts3 & E2 & H). apply expect_inv in E2 as ->.
      apply try_inv in H as ([l ts4] & HS & H). apply IS in HS as (es & -> & SO & WS & BS).
      apply try_inv in H as (ts5 & E2 & H). apply expect_inv in E2 as ->.
      injection H as <- <-. exists (SApplyFun e es). norm. cbn [well build].
      rewrite (build_fun_inv e _ _ _ B W eq_refl), W, SO, WS, B, BS. repeat split; intros u [].
  - (* list *)
    assert (C : (exists ts', ts = TCloseSq :: ts' /\
      Ok (Some (PExpr (reduce_prefix (str "list") []), ts')) = Ok (Some (a, rest))) \/
      (get ' (l, ts) <- pargs ts;
       get ' ts <- expect TCloseSq ts;
       Ok (Some (PExpr (reduce_prefix (str "list") l), ts))) = Ok (Some (a, rest)))
      by (destruct ts as [|[] ts]; eauto).
    clear H. destruct C as [(ts' & -> & H)|H].
    + injection H as <- <-. one (SList []).
    + apply try_inv in H as ([l ts1] & HS & H). apply IS in HS as (es & -> & SO & WS & BS).
      apply try_inv in H as (ts2 & E2 & H). apply expect_inv in E2 as ->.
      injection H as <- <-. one (SList es). cbn [build]. now rewrite BS.
  - (* bundle *)
    assert (C : (exists ts', ts = TCloseBr :: ts' /\
      Ok (Some (PExpr (reduce_prefix (str "bundle") []), ts')) = Ok (Some (a, rest))) \/
      (get ' (l, ts) <- pmsgs ts;
       get ' ts <- expect TCloseBr ts;
       Ok (Some (PExpr (reduce_prefix (str "bundle") l), ts))) = Ok (Some (a, rest)))
      by (destruct ts as [|[] ts]; eauto).
    clear H. destruct C as [(ts' & -> & H)|H].
    + injection H as <- <-. one (SBundle []).
    + apply try_inv in H as ([l ts1] & HS & H). apply IG in HS as (es & ls & -> & SO & WS & BS & <-).
      apply try_inv in H as (ts2 & E2 & H). apply expect_inv in E2 as ->.
      injection H as <- <-. exists (SBundle es). norm. cbn [well build].
      change (all_of (fun '(p, e) => try (build e) (fun a => Ok (Some [PAtom (set_string atom_fresh 0 p); a]))) es)
        with (all_of build_message es).
      rewrite BS. repeat split; [exact WS|intros u []|intros u []].
Qed.

Lemma sound_all f :
  (forall p ts a rest, 0 <= p < 11 -> p_arg f p ts = Ok (Some (a, rest)) -> ArgS p ts a rest) /\
  (forall p a ts a' rest, 0 <= p < 11 -> p_more f p a ts = Ok (Some (a', rest)) -> MoreS p a ts a' rest) /\
  (forall ts l rest, p_args f ts = Ok (Some (l, rest)) -> ArgsS ts l rest) /\
  (forall ts l rest, p_msgs f ts = Ok (Some (l, rest)) -> MsgsS ts l rest) /\
  (forall ts a rest, p_primary f ts = Ok (Some (a, rest)) -> PrimS ts a rest).
Proof.
  induction f as [|f (IA & IM & IS & IG & IP)]; [repeat split; intros; discriminate|].
  split; [|split; [|split; [|split]]].
  - intros p ts a rest P H. cbn [p_arg] in H. apply try_inv in H as ([b ts1] & HP & H).
    apply IP in HP as (e & -> & W & B & L & R). eapply IM in H; [|exact P]. apply H; auto.
    intros u U. rewrite (L u U). cbn [shifted]. apply Z.ltb_lt. lia.
  - now apply more_sound.
  - now apply args_sound.
  - now apply msgs_sound.
  - intros ts a rest H. rewrite primary_eq in H. eapply prim_sound; [..|exact H]; assumption.
Qed.
