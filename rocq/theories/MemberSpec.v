(** What /a./b and /a./b = x mean (C91), in terms of the semantics of expressions
    (EvalSpec.v). *)

From Coq Require Import ZArith List Bool String.
From Verif Require Import Base Text WireSpec EvalModel EvalSpec.
Import ListNotations.
Open Scope Z_scope.

(** A nested bundle has no time tag of its own. *)
Definition inside (ms : list message) : world := W (0, 0) ms.

Section Members.
Context (matches : list Z -> list Z -> bool).
Context (table : list Z -> option fn).
Context (sem : list Z -> list out -> option (Z * out)).
Notation evals := (evals matches table sem).
Notation runs := (runs matches table sem).
Notation lookup := (EvalSpec.lookup matches).

(** The bundle a result names: it is the bundle, or the address of a message whose first
    argument is the bundle. *)
Inductive opens (w : world) : list value -> list message -> Prop :=
| opens_bundle ms more : opens w (VBundle ms :: more) ms
| opens_name s more ms rest : lookup w s = Some (VBundle ms :: rest) -> opens w (VStr s :: more) ms.

(** The name of a member: an address, or else a string computed in the enclosing bundle;
    of value(x) it is the string x stands for. *)
Inductive member_name (V : vars) (w : world) : arg value -> list Z -> world -> Prop :=
| name_address q : member_name V w (AAddr q) q w
| name_literal v c s more w' : evals V w (AAtom v) c (Some (VStr s :: more)) w' -> member_name V w (AAtom v) s w'
| name_value x rest c s more w' : evals V w x c (Some (VStr s :: more)) w' ->
    member_name V w (AExpr (Ex FValue (x :: rest))) s w'
| name_expr f args c s more w' : f <> FValue -> evals V w (AExpr (Ex f args)) c (Some (VStr s :: more)) w' ->
    member_name V w (AExpr (Ex f args)) s w'.
(** The name has no value, for the reason [c]. *)
Inductive no_name (V : vars) (w : world) : arg value -> Z -> world -> Prop :=
| no_literal v c w' : evals V w (AAtom v) c None w' -> no_name V w (AAtom v) c w'
| no_value x rest c w' : evals V w x c None w' -> no_name V w (AExpr (Ex FValue (x :: rest))) c w'
| no_expr f args c w' : f <> FValue -> evals V w (AExpr (Ex f args)) c None w' -> no_name V w (AExpr (Ex f args)) c w'.

Inductive gets (V : vars) (w : world) : list (arg value) -> Z -> out -> world -> Prop :=
| get_found a b rest c vs w1 ms q w2 : evals V w a c (Some vs) w1 -> opens w1 vs ms -> member_name V w1 b q w2 ->
    gets V w (a :: b :: rest) (match lookup (inside ms) q with Some _ => 0 | None => unbound end)
      (lookup (inside ms) q) w2
| get_no_name a b rest c vs w1 ms c2 w2 : evals V w a c (Some vs) w1 -> opens w1 vs ms -> no_name V w1 b c2 w2 ->
    gets V w (a :: b :: rest) c2 None w2
| get_fails a rest c w1 : evals V w a c None w1 -> gets V w (a :: rest) 1 None w1
| get_unbound a rest c s more w1 : evals V w a c (Some (VStr s :: more)) w1 -> lookup w1 s = None ->
    gets V w (a :: rest) unbound None w1
| get_not_bundle a rest c vs w1 : evals V w a c (Some vs) w1 ->
    match vs with VBundle _ :: _ | VStr _ :: _ => False | _ => True end -> gets V w (a :: rest) 1 None w1
| get_no_bundle a rest c s more xs w1 : evals V w a c (Some (VStr s :: more)) w1 -> lookup w1 s = Some xs ->
    match xs with VBundle _ :: _ => False | _ => True end -> gets V w (a :: rest) 1 None w1.

(** What holds the bundle that is changed.  An address that is not bound is bound to an
    empty bundle first. *)
Inductive holder (V : vars) (w : world) : list (arg value) -> list value -> world -> Prop :=
| holder_there a rest c vs w1 : evals V w a c (Some vs) w1 -> holder V w (a :: rest) vs w1
| holder_new p q x rest : lookup w p = None -> hd 0 p = 47 -> fits (with_msgs w (msgs w ++ [M p [VBundle []]])) ->
    holder V w (AAddr p :: AAddr q :: x :: rest) [VBundle []] (with_msgs w (msgs w ++ [M p [VBundle []]])).

(** One value is assigned as a literal, several as a list. *)
Definition assigned (vs : list value) : arg value := match vs with [v] => AAtom v | _ => AList (Some vs) end.
Definition nth_name : list Z := str "nth".

(** How the changed bundle is put back, by what the first argument is. *)
Inductive puts_back (V : vars) (w : world) (vs : list value) (ms : list message) : arg value -> Z -> out -> world -> Prop :=
| back_nth x i rest c o w' : no_list x = true -> no_list i = true ->
    runs V w (Ex FAssignIndex [x; i; AAtom (VBundle ms)]) c o w' ->
    puts_back V w vs ms (AExpr (Ex (FCall nth_name) (x :: i :: rest))) c o w'
| back_name e s more c o w' : (forall args, e <> Ex (FCall nth_name) args) -> vs = VStr s :: more ->
    runs V w (Ex FAssign [AAddr s; AAtom (VBundle ms)]) c o w' -> puts_back V w vs ms (AExpr e) c o w'
| back_not e ms0 more : (forall args, e <> Ex (FCall nth_name) args) -> vs = VBundle ms0 :: more ->
    puts_back V w vs ms (AExpr e) 1 None w
| back_whole a c o w' : (forall e, a <> AExpr e) -> no_list a = true ->
    runs V w (Ex FAssign [a; AList (Some (VBundle ms :: tl vs))]) c o w' -> puts_back V w vs ms a c o w'.

Inductive assigns (V : vars) (w : world) : list (arg value) -> Z -> out -> world -> Prop :=
| assign_done a b x rest vs w1 ms c1 xs w2 o ms' t c o' w3 : holder V w (a :: b :: x :: rest) vs w1 -> opens w1 vs ms ->
    evals V w1 x c1 (Some xs) w2 -> no_list b = true ->
    runs V (inside ms) (Ex FAssign [b; assigned xs]) 0 o (W t ms') ->
    puts_back V w2 vs ms' a c o' w3 -> assigns V w (a :: b :: x :: rest) c o' w3
| assign_refused a b x rest vs w1 ms c1 xs w2 o w' c : holder V w (a :: b :: x :: rest) vs w1 -> opens w1 vs ms ->
    evals V w1 x c1 (Some xs) w2 -> no_list b = true ->
    runs V (inside ms) (Ex FAssign [b; assigned xs]) c o w' -> c <> 0 -> assigns V w (a :: b :: x :: rest) c None w2
| assign_no_value a b x rest vs w1 ms c1 w2 : holder V w (a :: b :: x :: rest) vs w1 -> opens w1 vs ms ->
    evals V w1 x c1 None w2 -> assigns V w (a :: b :: x :: rest) 0 None w2
| assign_not_bundle a rest c vs w1 : evals V w a c (Some vs) w1 -> (forall ms, ~ opens w1 vs ms) ->
    assigns V w (a :: rest) 1 None w1
| assign_fails a rest c w1 : evals V w a c None w1 ->
    (c = unbound -> forall p q x more, a :: rest <> AAddr p :: AAddr q :: x :: more) ->
    assigns V w (a :: rest) 1 None w1.

End Members.
