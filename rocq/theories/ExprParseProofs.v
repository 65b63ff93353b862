(** The parser of expressions: it reads what is well formed, and nothing else. *)

From Coq Require Import String ZArith List Bool Lia.
From Verif Require Import Base Text SerialModel BundleSModel ExprParseModel ExprParseSpec.
Import ListNotations.
Open Scope Z_scope.

(** * What the actions do, along the expression *)

Definition all_of {A B} (f : A -> res (option B)) : list A -> res (option (list B)) :=
  fix go l :=
    match l with
    | [] => Ok (Some [])
    | x :: l' => try (f x) (fun y => try (go l') (fun r => Ok (Some (y :: r))))
    end.
Definition ret (e : option pexpr) : res (option parg) := Ok (Some (PExpr e)).
Definition must (e : option pexpr) : res (option parg) :=
  match e with Some e => Ok (Some (PExpr (Some e))) | None => Ok None end.

Fixpoint build (e : syn) : res (option parg) :=
  match e with
  | SNum a => Ok (Some (PAtom a))
  | SText s => Ok (Some (PAtom (set_string atom_fresh 0 s)))
  | SAddr p => Ok (Some (PAddr p))
  | SFun params brackets body =>
      try (all_of build body) (fun l =>
        do b <- body_of (brackets && some params) l; Ok (Some (PFun params b)))
  | SPar e => build e
  | SBundle l =>
      try (all_of (fun '(p, e) => try (build e) (fun a => Ok (Some [PAtom (set_string atom_fresh 0 p); a]))) l)
        (fun l => ret (reduce_prefix (str "bundle") (concat l)))
  | SCall f args => try (all_of build args) (fun l => must (reduce_prefix f l))
  | SQuote s => ret (reduce_prefix (str "quote") [PAtom (set_string atom_fresh 0 s)])
  | SApply p args => try (all_of build args) (fun l => ret (Some (Call (str "apply") (PAddr p :: l))))
  | SApplyFun f args =>
      try (build f) (fun f => try (all_of build args) (fun l => ret (reduce_prefix (str "apply") (f :: l))))
  | SOp l o r => try (build l) (fun a => try (build r) (fun b => ret (reduce_infix (op_name o) a b)))
  | SOpAssign l o r => try (build l) (fun a => try (build r) (fun b => ret (reduce_infix_assign (op_name o) a b)))
  | SIf a b c =>
      try (build a) (fun a => try (build b) (fun b => try (build c) (fun c =>
        ret (reduce_prefix (str "if") [a; b; c]))))
  | SIndex e args =>
      try (build e) (fun a => try (all_of build args) (fun l => ret (reduce_prefix (str "nth") (a :: l))))
  | SMember p q => ret (reduce_infix (str ".") (PAddr p) (PAddr q))
  | STextMember s q => ret (reduce_infix (str ".") (PAtom (set_string atom_fresh 0 s)) (PAddr q))
  | SNot e => try (build e) (fun a => ret (Some (Call (str "!") [a])))
  | SNeg e => try (build e) (fun a => ret (Some (Call (str "-") [PAtom (set_int32 atom_fresh 0); a])))
  | SPre inc p => must (reduce_prefix_unary p (step_name inc))
  | SPost p inc => must (reduce_postfix_unary p (step_name inc))
  | SAssign p e =>
      try (build e) (fun a => if negb (hd 0 p =? 47) then Ok None else ret (reduce_infix (str "assign") (PAddr p) a))
  | SAssignAt p args e =>
      try (all_of build args) (fun l => try (build e) (fun v =>
        if negb (hd 0 p =? 47) then Ok None else
        ret (reduce_prefix (str "assign_to_index")
               [PAddr p; match l with [i] => i | _ => PExpr (reduce_prefix (str "list") l) end; v])))
  | SAssignRange p a step b e =>
      try (build a) (fun a =>
      match step with
      | None => try (build b) (fun b => try (build e) (fun v =>
          if negb (hd 0 p =? 47) then Ok None else
          ret (reduce_prefix (str "assign_to_index") [PAddr p; PExpr (reduce_prefix (str "aseq") [a; b]); v])))
      | Some s => try (build s) (fun s => try (build b) (fun b => try (build e) (fun v =>
          if negb (hd 0 p =? 47) then Ok None else
          ret (reduce_prefix (str "assign_to_index") [PAddr p; PExpr (reduce_prefix (str "aseq") [a; b; s]); v]))))
      end)
  | SAssignMember p q e =>
      try (build e) (fun a => ret (reduce_prefix (str "assigntobundlemember") [PAddr p; PAddr q; a]))
  | SElse p e => try (build e) (fun a => ret (reduce_null_coalescing p a))
  | SElseAssign p e =>
      try (build e) (fun a =>
        match reduce_null_coalescing p a with
        | None => Ok None
        | Some e => ret (reduce_infix (str "=") (PAddr p) (PExpr (Some e)))
        end)
  | SList args => try (all_of build args) (fun l => ret (reduce_prefix (str "list") l))
  | STick s => ret (reduce_prefix (str "value") [PAtom (set_string atom_fresh 0 s)])
  | STickAddr p => ret (reduce_prefix (str "value") [PAddr p])
  end.

(** * More fuel changes nothing *)

Definition keeps {A} (m m' : res A) : Prop := m <> Fuel -> m' = m.

Lemma keeps_refl {A} (m : res A) : keeps m m.
Proof. intros _; reflexivity. Qed.
Lemma keeps_try {A B} (m m' : res (option A)) (k k' : A -> res (option B)) :
  keeps m m' -> (forall x, keeps (k x) (k' x)) -> keeps (try m k) (try m' k').
Proof.
  unfold keeps. intros H1 H2 H. unfold try in *. destruct m as [[x|]|u|].
  - rewrite H1 by discriminate. now apply H2.
  - now rewrite H1 by discriminate.
  - now rewrite H1 by discriminate.
  - contradiction.
Qed.

Ltac grow :=
  repeat first
    [ apply keeps_refl
    | apply keeps_try; [|let x := fresh "x" in intros x; try destruct x]
    | match goal with
      | H : _ |- _ => solve [apply H]
      end
    | progress cbn beta iota
    | match goal with |- keeps match ?x with _ => _ end _ => destruct x end ].

Lemma more_fuel f :
  (forall p ts, keeps (p_arg f p ts) (p_arg (S f) p ts)) /\
  (forall p a ts, keeps (p_more f p a ts) (p_more (S f) p a ts)) /\
  (forall ts, keeps (p_args f ts) (p_args (S f) ts)) /\
  (forall ts, keeps (p_msgs f ts) (p_msgs (S f) ts)) /\
  (forall ts, keeps (p_primary f ts) (p_primary (S f) ts)).
Proof.
  induction f as [|f (IA & IM & IS & IG & IP)].
  - split; [|split; [|split; [|split]]]; intros; intros H; contradiction H; reflexivity.
  - split; [|split; [|split; [|split]]]; intros.
    + set (g := S f) in *; cbn [p_arg]; subst g; cbn [p_arg]. grow.
    + set (g := S f) in *; change (keeps (p_more (S f) p a ts) (p_more (S g) p a ts)); cbn [p_more].
      grow.
    + set (g := S f) in *; change (keeps (p_args (S f) ts) (p_args (S g) ts)); cbn [p_args]. grow.
    + set (g := S f) in *; change (keeps (p_msgs (S f) ts) (p_msgs (S g) ts)); cbn [p_msgs]. grow.
    + set (g := S f) in *; change (keeps (p_primary (S f) ts) (p_primary (S g) ts)); cbn [p_primary].
      time grow.
Qed.
