(** Expressions as one writes them: what can be written, how it is spelled as a
    sequence of tokens, which operators are applied first, and what it stands for. *)

From Coq Require Import String ZArith List Bool.
From Verif Require Import Base Text SerialModel BundleSModel ExprParseModel.
Import ListNotations.
Open Scope Z_scope.

(** * What can be written *)

Inductive syn : Type :=
| SNum (a : atom)                                       (* 1   2.5   0xff   'c'   true *)
| SText (s : list Z)                                    (* "text"   name *)
| SAddr (p : list Z)                                    (* /address *)
| SFun (params : list (list Z)) (brackets : bool) (body : list syn)
                                                        (* lambda([x, y], e, ...)   lambda(x, e, ...) *)
| SPar (e : syn)                                        (* (e) *)
| SBundle (l : list (list Z * syn))                     (* {/address : e, ...} *)
| SCall (f : list Z) (args : list syn)                  (* f(e, ...) *)
| SQuote (s : list Z)                                   (* quote(...) *)
| SApply (p : list Z) (args : list syn)                 (* /address(e, ...) *)
| SApplyFun (f : syn) (args : list syn)                 (* (lambda(...), e, ...) *)
| SOp (l : syn) (o : op) (r : syn)                      (* e + e *)
| SOpAssign (l : syn) (o : op) (r : syn)                (* e += e *)
| SIf (a b c : syn)                                     (* e ? e : e *)
| SIndex (e : syn) (args : list syn)                    (* e[[e, ...]] *)
| SMember (p q : list Z)                                (* /address./address *)
| STextMember (s q : list Z)                            (* name./address *)
| SNot (e : syn)                                        (* !e *)
| SNeg (e : syn)                                        (* -e *)
| SPre (inc : bool) (p : list Z)                        (* ++/address   --/address *)
| SPost (p : list Z) (inc : bool)                       (* /address++   /address-- *)
| SAssign (p : list Z) (e : syn)                        (* /address = e *)
| SAssignAt (p : list Z) (args : list syn) (e : syn)    (* /address[[e, ...]] = e *)
| SAssignRange (p : list Z) (a : syn) (step : option syn) (b e : syn)
                                                        (* /address[[e : e]] = e   /address[[e : e : e]] = e *)
| SAssignMember (p q : list Z) (e : syn)                (* /address./address = e *)
| SElse (p : list Z) (e : syn)                          (* /address ?? e *)
| SElseAssign (p : list Z) (e : syn)                    (* /address ??= e *)
| SList (args : list syn)                               (* [e, ...] *)
| STick (s : list Z)                                    (* `name` *)
| STickAddr (p : list Z).                               (* `/address` *)

Fixpoint sep (l : list (list etoken)) : list etoken :=
  match l with
  | [] => []
  | [x] => x
  | x :: l' => x ++ TComma :: sep l'
  end.
Definition names (l : list (list Z)) : list etoken := sep (map (fun s => [TStr s]) l).

(** The tokens of an expression. *)
Fixpoint flat (e : syn) : list etoken :=
  match e with
  | SNum a => [TNum a]
  | SText s => [TStr s]
  | SAddr p => [TAddr p]
  | SFun params brackets body =>
      TLambda :: TOpen ::
      (if brackets then TOpenSq :: names params ++ [TCloseSq] else names params) ++
      TComma :: sep (map flat body) ++ [TClose]
  | SPar e => TOpen :: flat e ++ [TClose]
  | SBundle l => TOpenBr :: sep (map (fun '(p, e) => TAddr p :: TColon :: flat e) l) ++ [TCloseBr]
  | SCall f args => TStr f :: TOpen :: sep (map flat args) ++ [TClose]
  | SQuote s => [TQuoted s]
  | SApply p args => TAddr p :: TOpen :: sep (map flat args) ++ [TClose]
  | SApplyFun f args => TOpen :: flat f ++ TComma :: sep (map flat args) ++ [TClose]
  | SOp l o r => flat l ++ TOp o :: flat r
  | SOpAssign l o r => flat l ++ TOpAssign o :: flat r
  | SIf a b c => flat a ++ TQuest :: flat b ++ TColon :: flat c
  | SIndex e args => flat e ++ TOpenDbl :: sep (map flat args) ++ [TCloseDbl]
  | SMember p q => [TAddr p; TDot; TAddr q]
  | STextMember s q => [TStr s; TDot; TAddr q]
  | SNot e => TNot :: flat e
  | SNeg e => TOp OSub :: flat e
  | SPre inc p => [TStep inc; TAddr p]
  | SPost p inc => [TAddr p; TStep inc]
  | SAssign p e => TAddr p :: TAssign :: flat e
  | SAssignAt p args e => TAddr p :: TOpenDbl :: sep (map flat args) ++ TCloseDbl :: TAssign :: flat e
  | SAssignRange p a step b e =>
      TAddr p :: TOpenDbl :: flat a ++ TColon ::
      match step with Some s => flat s ++ TColon :: flat b | None => flat b end ++ TCloseDbl :: TAssign :: flat e
  | SAssignMember p q e => TAddr p :: TDot :: TAddr q :: TAssign :: flat e
  | SElse p e => TAddr p :: TElse :: flat e
  | SElseAssign p e => TAddr p :: TElseAssign :: flat e
  | SList args => TOpenSq :: sep (map flat args) ++ [TCloseSq]
  | STick s => [TTick; TStr s; TTick]
  | STickAddr p => [TTick; TAddr p; TTick]
  end.

(** * Which operator is applied first *)

(** The operators, from weak to strong; assignments, the conditional and the prefix
    operators group to the right, the others to the left. *)
Definition rank (t : etoken) : Z :=
  match t with
  | TAssign | TOpAssign _ => 1
  | TQuest => 2
  | TOp (OOr | OOror) => 3
  | TOp (OAnd | OAndand) => 4
  | TOp (OEq | ONeq) => 5
  | TOp (OLt | OGt | OLe | OGe) => 6
  | TOp (OAdd | OSub) => 7
  | TOp (OMul | ODiv | OMod) => 8
  | TOp OPow => 9
  | TNot | TElse | TElseAssign => 10
  | TOpenDbl => 11
  | _ => 0
  end.
Definition to_the_right (n : Z) : bool := (n =? 1) || (n =? 2) || (n =? 10).
(** In [x t y u z], is [t] applied first? *)
Definition first (t u : etoken) : bool :=
  (rank u <? rank t) || ((rank u =? rank t) && negb (to_the_right (rank t))).

(** The operators that have their left operand at the left end of an expression, and
    those that have their right operand at its right end. *)
Fixpoint lefts (e : syn) : list etoken :=
  match e with
  | SOp l o _ => TOp o :: lefts l
  | SOpAssign l o _ => TOpAssign o :: lefts l
  | SIf a _ _ => TQuest :: lefts a
  | SIndex e _ => TOpenDbl :: lefts e
  | _ => []
  end.
Fixpoint rights (e : syn) : list etoken :=
  match e with
  | SOp _ o r => TOp o :: rights r
  | SOpAssign _ o r => TOpAssign o :: rights r
  | SIf _ _ c => TQuest :: rights c
  | SNot e | SNeg e => TNot :: rights e
  | SAssign _ e | SAssignAt _ _ e | SAssignRange _ _ _ _ e | SAssignMember _ _ e => TAssign :: rights e
  | SElse _ e => TElse :: rights e
  | SElseAssign _ e => TElseAssign :: rights e
  | _ => []
  end.
Definition left_of (t : etoken) (e : syn) : bool := forallb (fun u => first u t) (rights e).
Definition right_of (t : etoken) (e : syn) : bool := forallb (fun u => negb (first t u)) (lefts e).

Definition is_expr (e : syn) : bool :=
  match e with SNum _ | SText _ | SAddr _ | SFun _ _ _ => false | _ => true end.
Definition some {A} (l : list A) : bool := match l with [] => false | _ => true end.

(** An expression is well formed if each operand is either in parentheses or holds
    together more strongly than the operator it belongs to.  Only what is more than a
    number, a text, an address or a function can be put in parentheses. *)
Fixpoint well (e : syn) : bool :=
  match e with
  | SNum _ | SText _ | SAddr _ | SQuote _ | SMember _ _ | STextMember _ _ | SPre _ _ | SPost _ _
  | STick _ | STickAddr _ => true
  | SFun params brackets body => (brackets || (zlen params =? 1)) && some body && forallb well body
  | SPar e => is_expr e && well e
  | SBundle l => forallb (fun '(_, e) => well e) l
  | SCall _ args | SApply _ args | SList args => forallb well args
  | SApplyFun f args =>
      match f with SFun _ _ _ => true | _ => false end && well f && some args && forallb well args
  | SOp l o r => well l && well r && left_of (TOp o) l && right_of (TOp o) r
  | SOpAssign l o r => well l && well r && left_of (TOpAssign o) l && right_of (TOpAssign o) r
  | SIf a b c => well a && well b && well c && left_of TQuest a && right_of TQuest c
  | SIndex e args => well e && some args && forallb well args && left_of TOpenDbl e
  | SNot e | SNeg e => well e && right_of TNot e
  | SAssign _ e | SAssignMember _ _ e => well e && right_of TAssign e
  | SAssignAt _ args e => some args && forallb well args && well e && right_of TAssign e
  | SAssignRange _ a step b e =>
      well a && match step with Some s => well s | None => true end && well b && well e && right_of TAssign e
  | SElse _ e => well e && right_of TElse e
  | SElseAssign _ e => well e && right_of TElseAssign e
  end.

(** * What it stands for *)

(** Is there a function of this name that takes [n] arguments? *)
Definition known (f : list Z) (n : Z) : bool :=
  existsb (fun '(name, (req, optional)) =>
             streq f name && (req <=? n) && ((optional <? 0) || (n <=? req + optional))) functions.

Definition spelling (o : op) : list Z :=
  match o with
  | OAdd => str "+" | OSub => str "-" | OMul => str "*" | ODiv => str "/" | OMod => str "%" | OPow => str "^"
  | OEq => str "==" | ONeq => str "!=" | OLt => str "<" | OLe => str "<=" | OGt => str ">" | OGe => str ">="
  | OAnd => str "&" | OAndand => str "&&" | OOr => str "|" | OOror => str "||"
  end.

Definition lit_text (s : list Z) : parg := PAtom (set_string atom_fresh 0 s).
Definition call (f : list Z) (args : list parg) : parg := PExpr (Some (Call f args)).
(** The expressions of the body of a function. *)
Definition in_body (a : parg) : list pexpr :=
  match a with PExpr (Some e) => [e] | PExpr None => [] | _ => [Call (str "prog1") [a]] end.
Definition each {A B} (f : A -> option B) : list A -> option (list B) :=
  fix go l :=
    match l with
    | [] => Some []
    | x :: l' => match f x, go l' with Some y, Some r => Some (y :: r) | _, _ => None end
    end.
Definition opt_map {A B} (f : A -> B) (o : option A) : option B :=
  match o with Some x => Some (f x) | None => None end.
Definition opt_map2 {A B C} (f : A -> B -> C) (o : option A) (o' : option B) : option C :=
  match o, o' with Some x, Some y => Some (f x y) | _, _ => None end.

(** The function to call and its arguments; None if a function is unknown or gets a
    wrong number of arguments. *)
Fixpoint meaning (e : syn) : option parg :=
  match e with
  | SNum a => Some (PAtom a)
  | SText s => Some (lit_text s)
  | SAddr p => Some (PAddr p)
  | SFun params _ body => opt_map (fun l => PFun params (flat_map in_body l)) (each meaning body)
  | SPar e => meaning e
  | SBundle l =>
      opt_map (fun l => call (str "bundle") (concat l))
        (each (fun '(p, e) => opt_map (fun a => [lit_text p; a]) (meaning e)) l)
  | SCall f args =>
      match each meaning args with
      | Some l => if known f (zlen l) then Some (call f l) else None
      | None => None
      end
  | SQuote s => Some (call (str "quote") [lit_text s])
  | SApply p args => opt_map (fun l => call (str "apply") (PAddr p :: l)) (each meaning args)
  | SApplyFun f args => opt_map2 (fun f l => call (str "apply") (f :: l)) (meaning f) (each meaning args)
  | SOp l o r => opt_map2 (fun a b => call (spelling o) [a; b]) (meaning l) (meaning r)
  | SOpAssign l o r =>
      opt_map2 (fun a b => call (str "assign") [a; call (spelling o) [a; b]]) (meaning l) (meaning r)
  | SIf a b c =>
      match meaning a, meaning b, meaning c with
      | Some a, Some b, Some c => Some (call (str "if") [a; b; c])
      | _, _, _ => None
      end
  | SIndex e args => opt_map2 (fun a l => call (str "nth") (a :: l)) (meaning e) (each meaning args)
  | SMember p q => Some (call (str "getbundlemember") [PAddr p; PAddr q])
  | STextMember s q => Some (call (str "getbundlemember") [lit_text s; PAddr q])
  | SNot e => opt_map (fun a => call (str "!") [a]) (meaning e)
  | SNeg e => opt_map (fun a => call (str "-") [PAtom (set_int32 atom_fresh 0); a]) (meaning e)
  | SPre inc p =>
      Some (call (str "assign") [PAddr p; call (if inc then str "plus1" else str "minus1") [PAddr p]])
  | SPost p inc =>
      Some (call (str "prog1")
              [PAddr p; call (str "assign") [PAddr p; call (if inc then str "plus1" else str "minus1") [PAddr p]]])
  | SAssign p e => opt_map (fun a => call (str "assign") [PAddr p; a]) (meaning e)
  | SAssignAt p args e =>
      opt_map2 (fun l a => call (str "assign_to_index")
                             [PAddr p; match l with [i] => i | _ => call (str "list") l end; a])
        (each meaning args) (meaning e)
  | SAssignRange p a step b e =>
      match meaning a, match step with Some s => opt_map (fun x => [x]) (meaning s) | None => Some [] end,
            meaning b, meaning e with
      | Some a, Some s, Some b, Some v =>
          Some (call (str "assign_to_index") [PAddr p; call (str "aseq") (a :: b :: s); v])
      | _, _, _, _ => None
      end
  | SAssignMember p q e => opt_map (fun a => call (str "assigntobundlemember") [PAddr p; PAddr q; a]) (meaning e)
  | SElse p e =>
      opt_map (fun a => call (str "if") [call (str "bound") [PAddr p]; PAddr p; a]) (meaning e)
  | SElseAssign p e =>
      opt_map (fun a => call (str "=") [PAddr p; call (str "if") [call (str "bound") [PAddr p]; PAddr p; a]])
        (meaning e)
  | SList args => opt_map (fun l => call (str "list") l) (each meaning args)
  | STick s => Some (call (str "value") [lit_text s])
  | STickAddr p => Some (call (str "value") [PAddr p])
  end.

(** What works as intended.  Not: the operator ^ and access to the member of a
    bundle, which call functions that are not in the table, and a number, text, address or
    function in the middle of the body of a function with parameters in brackets. *)
Definition works_op (o : op) : bool := match o with OPow => false | _ => true end.
Definition addr (p : list Z) : bool := hd 0 p =? 47.
Fixpoint works (e : syn) : bool :=
  match e with
  | SNum _ | SText _ | SQuote _ | STick _ => true
  | SAddr p | SPre _ p | SPost p _ | STickAddr p => addr p
  | SFun params brackets body =>
      forallb works body && (negb (brackets && some params) || forallb is_expr (tl (removelast body)))
  | SPar e | SNot e | SNeg e => works e
  | SBundle l => forallb (fun '(p, e) => addr p && works e) l
  | SCall _ args | SList args => forallb works args
  | SApply p args => addr p && forallb works args
  | SApplyFun f args => works f && forallb works args
  | SOp l o r | SOpAssign l o r => works l && works_op o && works r
  | SIf a b c => works a && works b && works c
  | SIndex e args => works e && forallb works args
  | SMember _ _ | STextMember _ _ => false
  | SAssign p e | SElse p e | SElseAssign p e => addr p && works e
  | SAssignMember p q e => addr p && addr q && works e
  | SAssignAt p args e => addr p && forallb works args && works e
  | SAssignRange p a step b e =>
      addr p && works a && match step with Some s => works s | None => true end && works b && works e
  end.

(** A text is a list of expressions, addresses and numbers separated by commas. *)
Definition item (e : syn) : bool :=
  match e with SNum _ | SAddr _ => true | _ => is_expr e end.
Definition program (l : list syn) : list etoken := sep (map flat l).
Definition item_meaning (e : syn) : option pexpr :=
  if item e then
    match meaning e with
    | Some (PExpr (Some e)) => Some e
    | Some a => Some (Call (str "progn") [a])
    | None => None
    end
  else None.
(** The code, 0 or 1, and the expressions up to the first that is an error. *)
Fixpoint outcome (l : list syn) : Z * list pexpr :=
  match l with
  | [] => (0, [])
  | e :: l' =>
      match item_meaning e with
      | Some x => (fst (outcome l'), x :: snd (outcome l'))
      | None => (1, [])
      end
  end.

(** Tokens without ^, without members of bundles and without functions that have
    parameters in brackets. *)
Definition plain_token (t : etoken) : bool :=
  match t with TDot | TOp OPow | TOpAssign OPow => false | TAddr p => addr p | _ => true end.
Definition plain (ts : list etoken) : Prop :=
  forallb plain_token ts = true /\
  forall s pre post, ts <> pre ++ TLambda :: TOpen :: TOpenSq :: TStr s :: post.
