(** Model of osc_bundle_u_explode and osc_bundle_u_flatten, and of the set
    operations on bundle objects: osc_bundle_u.c, osc_message_u.c.  A bundle is
    the list of its messages; that the linked lists behave as lists is C26.
    Leaks are not modelled. *)

From Coq Require Import ZArith List Bool.
From Verif Require Import Base Bytes SerialModel WireModel MatchModel AtomUModel ExprModel.
Import ListNotations.
Open Scope Z_scope.

Definition m_address (m : umsg) : option (list Z) := match m with UMsg a _ => a end.
Definition m_args (m : umsg) : list atom := match m with UMsg _ l => l end.

(** The same function on each member of a list, in order. *)
Fixpoint map_res {A B} (f : A -> res B) (l : list A) : res (list B) :=
  match l with [] => Ok [] | x :: l' => do y <- f x; do r <- map_res f l'; Ok (y :: r) end.

(** osc_message_u.c:103-130 osc_message_u_deepCopy. *)
Definition copy_msg (m : umsg) : res umsg :=
  match m with UMsg ad args => do args <- map_res copy_atom args; Ok (UMsg ad args) end.

(** osc_message_u.c:168-193 osc_message_u_setAddress: an address without a slash
    is refused. *)
Definition with_address (m : umsg) (a : list Z) : umsg :=
  match m with UMsg old args => UMsg (if hd 0 a =? 47 then Some a else old) args end.

(** osc_bundle_u.c:134-160 osc_bundle_u_addressExists with fullmatch. *)
Fixpoint address_exists (b : list umsg) (a : list Z) : res bool :=
  match b with
  | [] => Ok false
  | m :: b' =>
      match m_address m with
      | None => address_exists b' a
      | Some x => do r <- osc_match a x; if code r =? 3 then Ok true else address_exists b' a
      end
  end.

(** osc_bundle_u.c:211-248 osc_bundle_u_lookupAddress with fullmatch: copies of
    the matching messages. *)
Fixpoint lookup_address (b : list umsg) (a : list Z) : res (list umsg) :=
  match b with
  | [] => Ok []
  | m :: b' =>
      match m_address m with
      | None => Ub NullDeref
      | Some x =>
          do r <- osc_match a x;
          if code r =? 3 then do c <- copy_msg m; do l <- lookup_address b' a; Ok (c :: l)
          else lookup_address b' a
      end
  end.

(** osc_bundle_u.c:250-318 osc_bundle_u_addMsg_impl with remove_dups = 0 and 1. *)
Definition add_msg (b : list umsg) (m : umsg) : list umsg := b ++ [m].
Definition same_address (a : list Z) (m : umsg) : bool :=
  match m_address m with Some x => if list_eq_dec Z.eq_dec a x then true else false | None => false end.
Definition add_nodups (b : list umsg) (m : umsg) : list umsg :=
  match m_address m with
  | Some a => filter (fun x => negb (same_address a x)) b ++ [m]
  | None => b ++ [m]
  end.

(** osc_message_u.c:852-866: the first component of an address, up to the next
    separator [c], and the rest.  A separator in front belongs to the component,
    and the character after it (or the first one) is not looked at. *)
Fixpoint upto (c : Z) (l : list Z) : list Z * list Z :=
  match l with
  | [] => ([], [])
  | x :: r => if x =? c then ([], l) else let (p, q) := upto c r in (x :: p, q)
  end.
Definition component (c : Z) (a : list Z) : list Z * list Z :=
  match a with
  | [] => ([], [])
  | x :: r =>
      if x =? c then
        match r with [] => ([x], []) | y :: r' => let (p, q) := upto c r' in (x :: y :: p, q) end
      else let (p, q) := upto c r in (x :: p, q)
  end.

(** osc_message_u.c:903-913, 938-948: the address of the rest. *)
Definition rest_address (rest : list Z) : list Z :=
  if hd 0 rest =? 47 then rest
  else match rest with
       | _ :: (x :: _) as r => if x =? 47 then tl rest else 47 :: rest
       | _ => 47 :: rest
       end.

(** osc_message_u.c:845-959 osc_message_u_explode_impl with the separator [c]:
    the new contents of [dest].  Each turn of the recursion takes one unit of
    fuel. *)
Fixpoint explode_impl (fuel : nat) (c maxlevel level : Z) (dest : list umsg) (msg : umsg) : res (list umsg) :=
  match fuel with
  | O => Fuel
  | S fuel =>
      if (maxlevel <=? level) && (0 <=? maxlevel) then Ok (add_msg dest msg) else
      match m_address msg with
      | None => Ub NullDeref
      | Some a =>
          let (a1, rest) := component c a in
          do ex <- address_exists dest a1;
          if ex : bool then
            match rest with
            | [] => Ok (add_nodups dest msg)
            | _ =>
                do ar <- lookup_address dest a1;
                match ar with
                | [] => Ub NullDeref
                | m0 :: _ =>
                    do m <- copy_msg m0;
                    do b <- match m_args m with
                            | [Atom tg _ p] =>
                                if tg =? 46 then copy_bundle (match p with PBndl ms => ms | _ => [] end) else Ok []
                            | _ => Ok []
                            end;
                    do b <- explode_impl fuel c maxlevel (level + 1) b (with_address msg (rest_address rest));
                    Ok (add_nodups dest (UMsg (m_address m) [set_bndl atom_fresh 0 b]))
                end
            end
          else
            match rest with
            | [] => Ok (add_msg dest msg)
            | _ =>
                do b <- explode_impl fuel c maxlevel (level + 1) [] (with_address msg (rest_address rest));
                Ok (add_nodups dest (with_address (UMsg None [set_bndl atom_fresh 0 b]) a1))
            end
      end
  end.

(** osc_message_u.c:851: the first character of the separator, a slash by
    default. *)
Definition separator (sep : option (list Z)) : Z := match sep with Some (c :: _) => c | _ => 47 end.

(** osc_message_u.c:961-967 osc_message_u_explode, osc_bundle_u.c:518-539
    osc_bundle_u_explode. *)
Definition msg_explode (fuel : nat) (sep : option (list Z)) (maxlevel : Z) (dest : list umsg) (m : umsg) : res (list umsg) :=
  do m <- copy_msg m; explode_impl fuel (separator sep) maxlevel 0 dest m.
Fixpoint explode (fuel : nat) (sep : option (list Z)) (maxlevel : Z) (dest src : list umsg) : res (list umsg) :=
  match src with
  | [] => Ok dest
  | m :: src' => do dest <- msg_explode fuel sep maxlevel dest m; explode fuel sep maxlevel dest src'
  end.

(** osc_bundle_u.c:432-507 osc_bundle_u_flatten_impl: the new contents of [dest].
    The argument is freed before the iterator reads its link to the next one
    (488 and 453), which is undefined; with [keeps] the freed memory is taken to
    be unchanged.  The arguments of the copy are in [args]; those kept are
    collected in [kept]. *)
Section flatten.
Variables (keeps : bool) (maxlevel : Z) (sep : list Z) (remove : bool).

Definition joined (prefix : option (list Z)) (a : option (list Z)) : res (option (list Z)) :=
  match prefix with
  | None => Ok a
  | Some p => match a with None => Ub NullDeref | Some a => Ok (Some (p ++ sep ++ a)) end
  end.

Fixpoint flatten_impl (fuel : nat) (level : Z) (prefix : option (list Z)) (dest src : list umsg) : res (list umsg) :=
  match fuel with
  | O => Fuel
  | S fuel =>
      (fix msgs (src : list umsg) (dest : list umsg) {struct src} : res (list umsg) :=
         match src with
         | [] => Ok dest
         | m :: src' =>
             do m <- copy_msg m;
             do ' (dest, kept) <-
               (if (level <? maxlevel) || (maxlevel <=? 0) then
                  (fix atoms (args : list atom) (dest : list umsg) (kept : list atom) {struct args} :=
                     match args with
                     | [] => Ok (dest, kept)
                     | a :: args' =>
                         if a_tt a =? 46 then
                           do pfx <- joined prefix (m_address m);
                           do dest <- flatten_impl fuel (level + 1) pfx dest (bundle_of a);
                           if keeps then atoms args' dest kept else Ub Dangling
                         else atoms args' dest (kept ++ [a])
                     end) (m_args m) dest []
                else Ok (dest, m_args m));
             if negb remove || (0 <? zlen kept) then
               do m <- match prefix with
                       | None => Ok (UMsg (m_address m) kept)
                       | Some _ =>
                           do na <- joined prefix (m_address m);
                           Ok (match na with Some a => with_address (UMsg (m_address m) kept) a
                                        | None => UMsg (m_address m) kept end)
                       end;
               msgs src' (add_nodups dest m)
             else msgs src' dest
         end) src dest
  end.
End flatten.

(** osc_bundle_u.c:509-516 osc_bundle_u_flatten. *)
Definition flatten (keeps : bool) (fuel : nat) (maxlevel : Z) (sep : option (list Z)) (remove : bool)
  (dest src : list umsg) : res (list umsg) :=
  flatten_impl keeps maxlevel (match sep with Some s => s | None => [] end) remove fuel 0 None dest src.

(** osc_bundle_u.c:541-598 osc_bundle_u_union and osc_bundle_u_intersection into
    an existing bundle [out]; the address of a message without one is NULL, which
    osc_match reads unless the bundle searched has no addresses. *)
Definition exists_for (b : list umsg) (a : option (list Z)) : res bool :=
  match a with
  | Some a => address_exists b a
  | None => if existsb (fun m => match m_address m with Some _ => true | None => false end) b
            then Ub NullDeref else Ok false
  end.
Fixpoint union_into (out src : list umsg) : res (list umsg) :=
  match src with
  | [] => Ok out
  | m :: src' =>
      do ex <- exists_for out (m_address m);
      if ex : bool then union_into out src'
      else do c <- copy_msg m; union_into (add_msg out c) src'
  end.
Definition union (b1 b2 out : list umsg) : res (list umsg) :=
  do out <- union_into out b1; union_into out b2.
Fixpoint intersect_into (out src b2 : list umsg) : res (list umsg) :=
  match src with
  | [] => Ok out
  | m :: src' =>
      do ex <- exists_for b2 (m_address m);
      if ex : bool then
        do dup <- exists_for out (m_address m);
        if dup : bool then intersect_into out src' b2
        else do c <- copy_msg m; intersect_into (add_msg out c) src' b2
      else intersect_into out src' b2
  end.
Definition intersection (b1 b2 out : list umsg) : res (list umsg) :=
  match b1, b2 with
  | [], _ | _, [] => Ok out
  | _, _ => intersect_into out b1 b2
  end.
