(** What expressions mean: a big-step semantics in terms of values, messages and
    variables (C57).  Only the syntax of expressions is shared with the model. *)

From Coq Require Import ZArith List Bool.
From Verif Require Import Base WireSpec EvalModel.
Import ListNotations.
Open Scope Z_scope.

(** The bundle an expression works on, and what the variables in scope stand for. *)
Record world := W { time : Z * Z; msgs : list message }.
Definition vars := list Z -> option (list value).

(** A result is a code, zero for success, and perhaps a list of values. *)
Definition out := option (list value).
Definition values (o : out) : list value := match o with Some l => l | None => [] end.
(** 258, the code for an address that is not bound, is treated specially. *)
Definition unbound : Z := 258.

Definition same_name (a b : list Z) : bool := if list_eq_dec Z.eq_dec a b then true else false.
(** An address without pattern characters. *)
Definition plain_name (a : list Z) : Prop := hd 0 a = 47 /\ Forall (fun c => ~ In c [0; 42; 63; 91; 93; 123; 125]) a.

Definition truth (b : bool) : value := VFlag (if b then 84 else 70).

(** The integer a value stands for, as an int; for the integer types and
    booleans. *)
Definition whole (v : value) : option Z :=
  match v with
  | VNum32 99 x => Some (s8 x)
  | VNum32 67 x => Some (u8 x)
  | VNum32 117 x => Some (s16 x)
  | VNum32 85 x => Some (u16 x)
  | VNum32 105 x | VNum32 73 x => Some (s32 x)
  | VNum64 104 x | VNum64 72 x => Some (s32 x)
  | VFlag 84 => Some 1
  | VFlag 70 => Some 0
  | _ => None
  end.

(** * Bundles *)

Section Bundles.
(** Does an address pattern match an address? *)
Context (matches : list Z -> list Z -> bool).

(** The first message an address or pattern matches. *)
Definition lookup (w : world) (p : list Z) : option (list value) :=
  option_map (fun '(M _ vs) => vs) (find (fun '(M a _) => matches p a) (msgs w)).
Definition exists_in (w : world) (p : list Z) : bool := existsb (fun '(M a _) => matches p a) (msgs w).

(** Is there a message with this address that has arguments? *)
Definition bound_in (w : world) (p : list Z) : bool :=
  existsb (fun '(M a vs) => same_name a p && match vs with [] => false | _ => true end) (msgs w).

(** Give the address [s] the values [vs]: in the first message with that address,
    or else in a new message at the end. *)
Fixpoint store (s : list Z) (vs : list value) (ms : list message) : list message :=
  match ms with
  | [] => [M s vs]
  | M a xs :: ms' => if same_name a s then M s vs :: ms' else M a xs :: store s vs ms'
  end.
(** Replace the first message that [p] matches by one with the address [p]. *)
Fixpoint overwrite (p : list Z) (vs : list value) (ms : list message) : list message :=
  match ms with
  | [] => []
  | M a xs :: ms' => if matches p a then M p vs :: ms' else M a xs :: overwrite p vs ms'
  end.
Definition without (names : list (list Z)) (ms : list message) : list message :=
  filter (fun '(M a _) => negb (existsb (same_name a) names)) ms.
End Bundles.
Definition with_msgs (w : world) (ms : list message) : world := W (time w) ms.

(** The serialized bundle stays below 2^31 bytes. *)
Definition fits (w : world) : Prop := 16 + zlen (concat (map enc_message (msgs w))) + 4 < 2^31.

(** An address assignments accept, and the code for others. *)
Inductive address_code (s : list Z) : Z -> Prop :=
| good_address : hd 0 s = 47 -> 2 <= zlen s -> ~ In 35 s -> ~ In 32 s -> address_code s 0
| malformed : hd 0 s <> 47 \/ zlen s < 2 -> address_code s 8
| bad_char : hd 0 s = 47 -> 2 <= zlen s -> In 35 s \/ In 32 s -> address_code s 36.

(** * Lists *)

(** Put data at places, one after the other: LogicSpec.v. *)
Definition at_place {A} (l : list A) (i : Z) (x : A) : list A :=
  if (0 <=? i) && (i <? zlen l) then firstn (Z.to_nat i) l ++ x :: skipn (S (Z.to_nat i)) l else l.
Fixpoint at_places {A} (l : list A) (is : list Z) (xs : list A) : list A :=
  match is, xs with
  | i :: is', x :: xs' => at_places (at_place l i x) is' xs'
  | _, _ => l
  end.

(** The first members of all lists, the second members of all lists, and so on, as
    far as the shortest list goes. *)
Definition shortest (ls : list (list value)) : nat :=
  match ls with [] => O | l :: ls' => fold_left (fun n l => Nat.min n (length l)) ls' (length l) end.
Definition rows (ls : list (list value)) : list (list value) :=
  map (fun i => map (fun l => nth i l (VFlag 78)) ls) (seq 0 (shortest ls)).

(** * Syntax *)

Section Syntax.
Context {A : Type}.
(** No list literal in it. *)
Fixpoint no_list (a : arg A) : bool :=
  match a with
  | AList _ => false
  | AExpr e => no_list_expr e
  | AFun _ body => forallb no_list_expr body
  | _ => true
  end
with no_list_expr (e : expr A) : bool := match e with Ex _ args => forallb no_list args end.

(** Expressions that cannot change the bundle: none of the functions that do, and
    only function literals are applied. *)
Fixpoint quiet (a : arg A) : bool :=
  match a with
  | AExpr e => quiet_expr e
  | AFun _ body => forallb quiet_expr body
  | _ => true
  end
with quiet_expr (e : expr A) : bool :=
  match e with
  | Ex f args =>
      match f with
      | FAssign | FAssignIndex | FDelete | FSetTime => false
      | FApply | FMap | FLreduce | FRreduce => match args with AFun _ _ :: _ => true | _ => false end
      | _ => true
      end && forallb quiet args
  end.
End Syntax.

(** Deleting considers the address and string literals among the arguments. *)
Definition names_of (args : list (arg value)) : list (list Z) :=
  flat_map (fun a => match a with AAddr p => [p] | AAtom (VStr s) => [s] | _ => [] end) args.

(** Functions that need a certain number of arguments. *)
Definition bad_count (f : fn) (n : nat) : Prop :=
  match f with
  | FApply | FDelete => n = 0
  | FMap | FLreduce | FRreduce => n < 2
  | FIf => n < 2 \/ n > 3
  | FAssignIndex => n <> 3
  | FAndalso | FOrelse => n <> 2
  | _ => False
  end%nat.

(** Bind the parameters to the results, from left to right. *)
Definition bind_one (V : vars) (x : list Z) (o : out) : vars := fun y => if same_name y x then o else V y.
Fixpoint bind_all (V : vars) (params : list (list Z)) (os : list out) : vars :=
  match params, os with
  | x :: params', o :: os' => bind_all (bind_one V x o) params' os'
  | _, _ => V
  end.

(** The order in which a reduction meets the members and the order of the
    arguments of the function: the value so far comes first on the left, last on
    the right. *)
Definition met (right : bool) (l : list value) : list value := if right then rev l else l.
Definition operands (right : bool) (acc x : value) : list (arg value) :=
  if right then [AAtom x; AAtom acc] else [AAtom acc; AAtom x].
Definition reducer (right : bool) : fn := if right then FRreduce else FLreduce.

(** * Semantics *)

Section Semantics.
Context (matches : list Z -> list Z -> bool).
(** The functions that can be applied by name, and what ordinary functions give. *)
Context (table : list Z -> option fn).
Context (sem : list Z -> list out -> option (Z * out)).

(** An expression as first argument of an assignment other than value(/p). *)
Definition indirect (a : arg value) : Prop :=
  match a with AAddr _ | AExpr (Ex FValue (AAddr _ :: _)) => False | _ => True end.
(** An argument of apply that is evaluated. *)
Definition computed (a : arg value) : Prop := match a with AAddr _ | AExpr _ => True | _ => False end.

(** [evals V w a c o w']: with the variables [V] and the bundle [w] the argument
    [a] gives the code [c], the result [o] and the bundle [w']. *)
Inductive evals : vars -> world -> arg value -> Z -> out -> world -> Prop :=
| E_variable V w x vs : V x = Some vs -> evals V w (AAtom (VStr x)) 0 (Some vs) w
| E_literal V w v : match v with VStr x => V x = None | _ => True end -> evals V w (AAtom v) 0 (Some [v]) w
| E_list V w l : evals V w (AList l) 0 l w
| E_address V w p vs : lookup matches w p = Some vs -> evals V w (AAddr p) 0 (Some vs) w
| E_address_unbound V w p : lookup matches w p = None -> evals V w (AAddr p) unbound None w
| E_expr V w e c o w' : runs V w e c o w' -> evals V w (AExpr e) c o w'

(** Arguments of ordinary functions: left to right up to the first failure. *)
with evals_all : vars -> world -> list (arg value) -> Z -> list out -> world -> Prop :=
| A_nil V w : evals_all V w [] 0 [] w
| A_cons V w a o w1 args c os w2 : evals V w a 0 o w1 -> evals_all V w1 args c os w2 ->
    evals_all V w (a :: args) c (o :: os) w2
| A_stop V w a c o w1 args : evals V w a c o w1 -> c <> 0 -> evals_all V w (a :: args) c [] w1

(** Arguments of applied functions and of map: only an unbound address is a
    failure; the results of other failures are used. *)
with collects : vars -> world -> list (arg value) -> Z -> list out -> world -> Prop :=
| L_nil V w : collects V w [] 0 [] w
| L_cons V w a c o w1 args d os w2 : evals V w a c o w1 -> c <> unbound -> collects V w1 args d os w2 ->
    collects V w (a :: args) d (o :: os) w2
| L_stop V w a o w1 args : evals V w a unbound o w1 -> collects V w (a :: args) unbound [] w1

(** The expressions of a function: the last one gives the result, a failure ends
    it. *)
with sequence : vars -> world -> list (expr value) -> Z -> out -> world -> Prop :=
| S_nil V w : sequence V w [] 0 None w
| S_last V w e c o w1 : runs V w e c o w1 -> sequence V w [e] c o w1
| S_next V w e o w1 e' body c o' w2 : runs V w e 0 o w1 -> sequence V w1 (e' :: body) c o' w2 ->
    sequence V w (e :: e' :: body) c o' w2
| S_fail V w e c o w1 e' body : runs V w e c o w1 -> c <> 0 -> sequence V w (e :: e' :: body) c None w1

(** A function applied to each row. *)
with maps : vars -> world -> arg value -> list (list value) -> list out -> world -> Prop :=
| M_nil V w f : maps V w f [] [] w
| M_cons V w f r rs c o w1 os w2 : runs V w (Ex FApply (f :: map AAtom r)) c o w1 -> maps V w1 f rs os w2 ->
    maps V w f (r :: rs) (o :: os) w2

(** A function applied to the first value of the result so far and the next
    member. *)
with folds : bool -> vars -> world -> arg value -> out -> list value -> out -> world -> Prop :=
| F_nil right V w f o : folds right V w f o [] o w
| F_cons right V w f a more x xs c o w1 o' w2 : runs V w (Ex FApply (f :: operands right a x)) c o w1 ->
    folds right V w1 f o xs o' w2 -> folds right V w f (Some (a :: more)) (x :: xs) o' w2

(** The address an assignment goes to. *)
with target : vars -> world -> arg value -> list Z -> world -> Prop :=
| T_address V w p : target V w (AAddr p) p w
| T_value V w p more s vs : lookup matches w p = Some (VStr s :: vs) ->
    target V w (AExpr (Ex FValue (AAddr p :: more))) s w
| T_other V w a c s vs w1 : indirect a -> evals V w a c (Some (VStr s :: vs)) w1 -> c <> unbound ->
    target V w a s w1

(** The address whose existence is asked for. *)
with asked : vars -> world -> arg value -> list Z -> world -> Prop :=
| Q_address V w p : asked V w (AAddr p) p w
| Q_string V w x c s vs w1 : evals V w (AAtom (VStr x)) c (Some (VStr s :: vs)) w1 -> asked V w (AAtom (VStr x)) s w1
| Q_expr V w e s w1 : runs V w e 0 (Some [VStr s]) w1 -> hd 0 s = 47 -> asked V w (AExpr e) s w1

(** [runs V w e c o w']: the same for an expression. *)
with runs : vars -> world -> expr value -> Z -> out -> world -> Prop :=
| R_count V w f args : bad_count f (length args) -> runs V w (Ex f args) 1 None w
| R_call V w name args os w1 c o : evals_all V w args 0 os w1 -> sem name os = Some (c, o) ->
    runs V w (Ex (FCall name) args) c o w1
| R_call_fails V w name args c os w1 : evals_all V w args c os w1 -> c <> 0 ->
    runs V w (Ex (FCall name) args) c None w1
(* apply *)
| R_apply V w params body args os w1 c o w2 : collects V w (firstn (length params) args) 0 os w1 ->
    sequence (bind_all V params os) w1 body c o w2 -> runs V w (Ex FApply (AFun params body :: args)) c o w2
| R_apply_unbound V w params body args os w1 : collects V w (firstn (length params) args) unbound os w1 ->
    runs V w (Ex FApply (AFun params body :: args)) unbound None w1
| R_apply_name V w s f args c o w1 : table s = Some f -> runs V w (Ex f args) c o w1 ->
    runs V w (Ex FApply (AAtom (VStr s) :: args)) c o w1
| R_apply_computed V w a c0 s w1 f args c o w2 : computed a -> evals V w a c0 (Some [VStr s]) w1 -> c0 <> unbound ->
    table s = Some f -> runs V w1 (Ex f args) c o w2 -> runs V w (Ex FApply (a :: args)) c o w2
(* map *)
| R_map V w f a args os w1 outs w2 : no_list f = true -> collects V w (a :: args) 0 os w1 ->
    Forall (fun o => zlen (values o) < 2^31) os -> maps V w1 f (rows (map values os)) outs w2 ->
    runs V w (Ex FMap (f :: a :: args)) 0 (Some (concat (map values outs))) w2
| R_map_unbound V w f a args os w1 : collects V w (a :: args) unbound os w1 ->
    runs V w (Ex FMap (f :: a :: args)) unbound None w1
(* lreduce and rreduce *)
| R_reduce right V w f a c0 l w1 x y xs c o w2 o' w3 : no_list f = true -> evals V w a c0 (Some l) w1 -> c0 <> unbound ->
    met right l = x :: y :: xs -> runs V w1 (Ex FApply (f :: operands right x y)) c o w2 ->
    folds right V w2 f o xs o' w3 -> runs V w (Ex (reducer right) [f; a]) 0 o' w3
| R_reduce_one right V w f a c0 x w1 : no_list f = true -> evals V w a c0 (Some [x]) w1 -> c0 <> unbound ->
    runs V w (Ex (reducer right) [f; a]) 0 (Some [x]) w1
| R_reduce_from right V w f a b c0 l w1 x xs c1 v vs w2 c o w3 o' w4 : no_list f = true ->
    evals V w a c0 (Some l) w1 -> c0 <> unbound -> met right l = x :: xs ->
    evals V w1 b c1 (Some (v :: vs)) w2 -> c1 <> unbound ->
    runs V w2 (Ex FApply (f :: operands right v x)) c o w3 -> folds right V w3 f o xs o' w4 ->
    runs V w (Ex (reducer right) [f; a; b]) 0 o' w4
| R_reduce_unbound right V w f a args o w1 : no_list f = true -> evals V w a unbound o w1 ->
    runs V w (Ex (reducer right) (f :: a :: args)) unbound None w1
(* assign *)
| R_assign V w a b more s w1 o w2 : target V w a s w1 -> address_code s 0 -> evals V w1 b 0 o w2 ->
    fits (with_msgs w2 (store s (values o) (msgs w2))) ->
    runs V w (Ex FAssign (a :: b :: more)) 0 o (with_msgs w2 (store s (values o) (msgs w2)))
| R_assign_address V w a b more s w1 c : target V w a s w1 -> address_code s c -> c <> 0 ->
    runs V w (Ex FAssign (a :: b :: more)) c None w1
| R_assign_fails V w a b more s w1 c o w2 : target V w a s w1 -> address_code s 0 -> evals V w1 b c o w2 -> c <> 0 ->
    runs V w (Ex FAssign (a :: b :: more)) c o w2
| R_assign_unbound V w p more args : lookup matches w p = None ->
    runs V w (Ex FAssign (AExpr (Ex FValue (AAddr p :: more)) :: args)) unbound None w
(* assign to an index; the indexes and data do not change the bundle *)
| R_index V w p i d old c1 is ns c2 ds : quiet i = true -> quiet d = true -> hd 0 p = 47 ->
    lookup matches w p = Some old ->
    evals V w i c1 (Some is) w -> c1 <> unbound -> evals V w d c2 (Some ds) w -> c2 <> unbound ->
    map whole is = map Some ns -> ns <> [] -> ds <> [] ->
    (1 < zlen ds -> forall n, ns = [n] -> 0 <= n < zlen old) ->
    let new := at_places old ns (match ds with [d] => repeat d (length ns) | _ => ds end) in
    fits (with_msgs w (overwrite matches p new (msgs w))) ->
    runs V w (Ex FAssignIndex [AAddr p; i; d]) 0 (Some new) (with_msgs w (overwrite matches p new (msgs w)))
| R_index_none V w p i d : lookup matches w p = None -> runs V w (Ex FAssignIndex [AAddr p; i; d]) 1 None w
(* if *)
| R_if V w test yes no t ts n w1 c o w2 : evals V w test 0 (Some (t :: ts)) w1 -> whole t = Some n ->
    evals V w1 (if n =? 0 then no else yes) c o w2 ->
    runs V w (Ex FIf [test; yes; no]) c (if c =? 0 then Some (values o) else None) w2
| R_if_only V w test yes t ts n w1 c o w2 : evals V w test 0 (Some (t :: ts)) w1 -> whole t = Some n -> n <> 0 ->
    evals V w1 yes c o w2 -> runs V w (Ex FIf [test; yes]) c (if c =? 0 then Some (values o) else None) w2
| R_if_not V w test yes t ts w1 : evals V w test 0 (Some (t :: ts)) w1 -> whole t = Some 0 ->
    runs V w (Ex FIf [test; yes]) 0 (Some []) w1
| R_if_fails V w test yes no c o w1 : (length no <= 1)%nat -> evals V w test c o w1 -> c <> 0 ->
    runs V w (Ex FIf (test :: yes :: no)) c None w1
(* andalso and orelse *)
| R_andalso_false V w a b vs w1 : evals V w a 0 (Some (truth false :: vs)) w1 ->
    runs V w (Ex FAndalso [a; b]) 0 (Some [truth false]) w1
| R_andalso V w a b vs w1 r vs' w2 : evals V w a 0 (Some (truth true :: vs)) w1 ->
    evals V w1 b 0 (Some (truth r :: vs')) w2 -> runs V w (Ex FAndalso [a; b]) 0 (Some [truth r]) w2
| R_orelse_true V w a b vs w1 : evals V w a 0 (Some (truth true :: vs)) w1 ->
    runs V w (Ex FOrelse [a; b]) 0 (Some [truth true]) w1
| R_orelse V w a b vs w1 r vs' w2 : evals V w a 0 (Some (truth false :: vs)) w1 ->
    evals V w1 b 0 (Some (truth r :: vs')) w2 -> runs V w (Ex FOrelse [a; b]) 0 (Some [truth r]) w2
| R_shortcut_fails V w f a b c o w1 : f = FAndalso \/ f = FOrelse -> evals V w a c o w1 -> c <> 0 ->
    runs V w (Ex f [a; b]) c None w1
| R_shortcut_not_bool V w f a b v vs w1 : f = FAndalso \/ f = FOrelse -> evals V w a 0 (Some (v :: vs)) w1 ->
    v <> truth true -> v <> truth false -> runs V w (Ex f [a; b]) 1 None w1
(* questions about the bundle *)
| R_empty V w : runs V w (Ex FEmpty []) 0 (Some [truth (match msgs w with [] => true | _ => false end)]) w
| R_exists V w a more s w1 : asked V w a s w1 ->
    runs V w (Ex FExists (a :: more)) 0 (Some [truth (exists_in matches w1 s)]) w1
| R_bound V w a more s w1 : asked V w a s w1 ->
    plain_name s -> Forall (fun '(M x _) => ~ In 42 x) (msgs w1) ->
    runs V w (Ex FBound (a :: more)) 0 (Some [truth (bound_in w1 s)]) w1
| R_addresses V w : runs V w (Ex FAddresses []) 0 (Some (map (fun '(M a _) => VStr a) (msgs w))) w
| R_count_messages V w args : runs V w (Ex FCount args) 0 (Some [VNum32 105 (zlen (msgs w))]) w
| R_value V w a more c s vs w1 : evals V w a c (Some (VStr s :: vs)) w1 -> c <> unbound ->
    runs V w (Ex FValue (a :: more)) 0 (lookup matches w1 s) w1
| R_value_other V w a more c o w1 : evals V w a c o w1 -> c <> unbound -> (forall s vs, o <> Some (VStr s :: vs)) ->
    runs V w (Ex FValue (a :: more)) 0 None w1
| R_value_unbound V w a more o w1 : evals V w a unbound o w1 -> runs V w (Ex FValue (a :: more)) unbound None w1
| R_delete V w a args :
    runs V w (Ex FDelete (a :: args)) 0 None (with_msgs w (without (names_of (a :: args)) (msgs w)))
| R_quote V w v more : runs V w (Ex FQuote (AAtom v :: more)) 0 (Some [v]) w
(* the time tag *)
| R_get_time V w args : runs V w (Ex FGetTime args) 0 (Some [VTime (fst (time w)) (snd (time w))]) w
| R_set_time V w a more v vs w1 : evals V w a 0 (Some (v :: vs)) w1 ->
    runs V w (Ex FSetTime (a :: more)) 0 None
      (W (match v with VTime s f => (s, f) | _ => (0, 0) end) (msgs w1))
| R_set_time_fails V w a more c o w1 : evals V w a c o w1 -> c <> 0 \/ values o = [] ->
    runs V w (Ex FSetTime (a :: more)) 1 None w1.

End Semantics.
