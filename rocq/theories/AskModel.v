(** Model of the questions that are asked of a bundle object: osc_bundle_u.c:134-248, and
    of the functions that add copies to it, osc_bundle_u.c:336-374.

    A bundle object is the list of its messages, in the order of its iterator
    (osc_bundle_iterator_u.c:36-86: from [msghead] along [next]); the links themselves are
    in BundleUModel.v.  [hit] is the condition the functions share with those of
    osc_bundle_s.c; [pat] is the argument [address], a C string. *)

From Coq Require Import ZArith List Bool.
From Verif Require Import Base MatchModel SerialModel AtomUModel ExprModel FlattenModel BundleSModel.
Import ListNotations.
Open Scope Z_scope.

(** osc_bundle_u.c:134-160 osc_bundle_u_addressExists: [*res]. *)
Fixpoint u_exists (b : list umsg) (pat : list Z) (fullmatch : bool) : res bool :=
  match b with
  | [] => Ok false
  | m :: b' =>
      match m_address m with
      | None => u_exists b' pat fullmatch
      | Some a =>
          do r <- osc_match pat a;
          do h <- hit fullmatch pat r;
          if h then Ok true else u_exists b' pat fullmatch
      end
  end.

(** osc_bundle_u.c:162-188 osc_bundle_u_addressIsBound: [*res]. *)
Fixpoint u_bound (b : list umsg) (pat : list Z) (fullmatch : bool) : res bool :=
  match b with
  | [] => Ok false
  | m :: b' =>
      match m_address m with
      | None => u_bound b' pat fullmatch
      | Some a =>
          do r <- osc_match pat a;
          do h <- hit fullmatch pat r;
          if h then Ok (0 <? zlen (m_args m)) else u_bound b' pat fullmatch
      end
  end.

(** osc_bundle_u.c:190-209 osc_bundle_u_getFirstFullMatch. *)
Fixpoint u_first (b : list umsg) (pat : list Z) : res (option umsg) :=
  match b with
  | [] => Ok None
  | m :: b' =>
      match m_address m with
      | None => u_first b' pat
      | Some a => do r <- osc_match pat a; if code r =? 3 then Ok (Some m) else u_first b' pat
      end
  end.

(** A cleared element, and osc_array.c:123-146 osc_array_resize of an array of messages
    (the new part is cleared, osc.h:55). *)
Definition blank : umsg := UMsg None [].
Definition u_resize (ar : list umsg) (n : Z) : list umsg :=
  firstn (Z.to_nat n) (ar ++ repeat blank (Z.to_nat n - length ar)).

(** osc_bundle_u.c:219-245: the loop, with the array, its size and the number of matches.
    The array grows before a message is looked at, whether it matches or not.  For an
    element that is not there (osc_array_get returns NULL) the copy is lost.  An address
    that is NULL is given to the matcher, which reads it. *)
Fixpoint u_collect (b : list umsg) (pat : list Z) (fullmatch : bool) (ar : list umsg) (matchbuflen n : Z)
  : res (list umsg * Z) :=
  match b with
  | [] => Ok (ar, n)
  | m :: b' =>
      let '(ar, matchbuflen) :=
        if n >=? matchbuflen then (u_resize ar (matchbuflen + 16), matchbuflen + 16) else (ar, matchbuflen) in
      match m_address m with
      | None => Ub NullDeref
      | Some a =>
          do r <- osc_match pat a;
          do h <- hit fullmatch pat r;
          if negb h then u_collect b' pat fullmatch ar matchbuflen n else
          do c <- copy_msg m;
          u_collect b' pat fullmatch (if zlen ar <=? n then ar else put ar n c) matchbuflen (n + 1)
      end
  end.
(** osc_bundle_u.c:211-248 osc_bundle_u_lookupAddress. *)
Definition u_lookup (b : list umsg) (pat : list Z) (fullmatch : bool) : res (list umsg) :=
  do ' (ar, n) <- u_collect b pat fullmatch (repeat blank 16) 16 0;
  Ok (u_resize ar n).

(** osc_bundle_u.c:336-345 osc_bundle_u_addMsgCopy, 347-356
    osc_bundle_u_addMsgWithoutDupsCopy and 358-374 osc_bundle_u_addMsgArrayCopy. *)
Definition u_add_copy (b : list umsg) (m : umsg) : res (list umsg) := do c <- copy_msg m; Ok (add_msg b c).
Definition u_add_nodups_copy (b : list umsg) (m : umsg) : res (list umsg) := do c <- copy_msg m; Ok (add_nodups b c).
Fixpoint u_add_array_copy (b ar : list umsg) : res (list umsg) :=
  match ar with [] => Ok b | m :: ar' => do b <- u_add_copy b m; u_add_array_copy b ar' end.
