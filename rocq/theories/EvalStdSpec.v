(** What some of the ordinary functions compute: arithmetic and comparison of
    int32 lists and functions on lists of any values (C62). *)

From Coq Require Import String ZArith List Bool.
From Verif Require Import Base WireSpec EvalModel EvalSpec Text.
Import ListNotations.
Open Scope Z_scope.

Definition one_of (name : list Z) (l : list String.string) : bool := existsb (same_name name) (map str l).

(** The integers of a list of int32s. *)
Fixpoint int32s (l : list value) : option (list Z) :=
  match l with
  | [] => Some []
  | VNum32 105 x :: l' => option_map (cons (s32 x)) (int32s l')
  | _ => None
  end.
Definition int32 (x : Z) : value := VNum32 105 (x mod 2^32).
Definition is_int32 (x : Z) : bool := (- 2^31 <=? x) && (x <? 2^31).

(** Member by member up to the shorter length, or a single member with every
    member of the other list. *)
Definition matched (xs ys : list Z) : option (list (Z * Z)) :=
  match xs, ys with
  | [_], [] | [], [_] => None
  | [x], _ => Some (map (fun y => (x, y)) ys)
  | _, [y] => Some (map (fun x => (x, y)) xs)
  | _, _ => Some (combine xs ys)
  end.

Definition number_fn (name : list Z) : option (Z -> Z -> Z) :=
  if one_of name ["+"; "+="; "add"]%string then Some Z.add
  else if one_of name ["-"; "-="; "sub"]%string then Some Z.sub
  else if one_of name ["*"; "*="; "mul"]%string then Some Z.mul
  else None.
Definition test_fn (name : list Z) : option (Z -> Z -> bool) :=
  if one_of name ["<"; "lt"]%string then Some Z.ltb
  else if one_of name ["<="; "le"]%string then Some Z.leb
  else if one_of name [">"; "gt"]%string then Some Z.gtb
  else if one_of name [">="; "ge"]%string then Some Z.geb
  else if one_of name ["=="; "eq"]%string then Some Z.eqb
  else if one_of name ["!="; "ne"]%string then Some (fun x y => negb (x =? y))
  else None.
(** The functions on lists; lists without members give no result. *)
Definition list_fn (name : list Z) : option (list out -> option out) :=
  if one_of name ["first"]%string then
    Some (fun os => match os with o :: _ => Some (match values o with [] => None | x :: _ => Some [x] end) | [] => None end)
  else if one_of name ["last"]%string then
    Some (fun os => match os with o :: _ => Some (match rev (values o) with [] => None | x :: _ => Some [x] end) | [] => None end)
  else if one_of name ["rest"]%string then
    Some (fun os => match os with o :: _ => Some (match values o with [] => None | _ :: l => Some l end) | [] => None end)
  else if one_of name ["butlast"]%string then
    Some (fun os => match os with o :: _ => Some (match values o with [] => None | l => Some (removelast l) end) | [] => None end)
  else if one_of name ["reverse"; "rev"]%string then
    Some (fun os => match os with o :: _ => Some (Some (rev (values o))) | [] => None end)
  else if one_of name ["list"]%string then
    Some (fun os => Some (match concat (map values os) with [] => None | l => Some l end))
  else if one_of name ["length"]%string then
    Some (fun os => Some (Some [int32 (zlen (concat (map values os)))]))
  else None.

(** The code and the result of a call; [None] if this says nothing about it, as
    for sums that are out of range. *)
Definition std_sem (name : list Z) (os : list out) : option (Z * out) :=
  if negb (zlen (concat (map values os)) <? 2^31) then None else
  match number_fn name with
  | Some g =>
      match os with
      | [a; b] =>
          match int32s (values a), int32s (values b) with
          | Some xs, Some ys =>
              match matched xs ys with
              | Some ps =>
                  if forallb (fun p => is_int32 (g (fst p) (snd p))) ps
                  then Some (0, Some (map (fun p => int32 (g (fst p) (snd p))) ps)) else None
              | None => None
              end
          | _, _ => None
          end
      | _ => Some (1, None)
      end
  | None =>
  match test_fn name with
  | Some g =>
      match os with
      | [a; b] =>
          match int32s (values a), int32s (values b) with
          | Some xs, Some ys =>
              match matched xs ys with
              | Some ps => Some (0, Some (map (fun p => truth (g (fst p) (snd p))) ps))
              | None => None
              end
          | _, _ => None
          end
      | _ => Some (1, None)
      end
  | None =>
  match list_fn name with
  | Some g => option_map (fun o => (0, o)) (g os)
  | None => None
  end end end.

(** The functions about the bundle and about functions by their names; the names
    of the functions above stand for themselves. *)
Definition meaning (name : list Z) : option fn :=
  if one_of name ["&&"; "andalso"]%string then Some FAndalso
  else if one_of name ["||"; "orelse"]%string then Some FOrelse
  else if one_of name ["="; "assign"]%string then Some FAssign
  else if one_of name ["assign_to_index"]%string then Some FAssignIndex
  else if one_of name ["if"]%string then Some FIf
  else if one_of name ["bound"]%string then Some FBound
  else if one_of name ["exists"]%string then Some FExists
  else if one_of name ["emptybundle"]%string then Some FEmpty
  else if one_of name ["getaddresses"]%string then Some FAddresses
  else if one_of name ["delete"]%string then Some FDelete
  else if one_of name ["getmsgcount"]%string then Some FCount
  else if one_of name ["apply"]%string then Some FApply
  else if one_of name ["map"]%string then Some FMap
  else if one_of name ["lreduce"]%string then Some FLreduce
  else if one_of name ["rreduce"]%string then Some FRreduce
  else if one_of name ["quote"]%string then Some FQuote
  else if one_of name ["value"]%string then Some FValue
  else if one_of name ["gettimetag"]%string then Some FGetTime
  else if one_of name ["settimetag"]%string then Some FSetTime
  else match number_fn name, test_fn name, list_fn name with
       | None, None, None => None
       | _, _, _ => Some (FCall name)
       end.
