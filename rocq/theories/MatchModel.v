(** Model of osc_match.c / osc_match.h: the OSC address pattern matcher.

    Strings are lists of (nonzero) signed [char] values; the terminating NUL
    is readable, any further read is the outcome [Ub OOB] (see [rdc]). *)

From Coq Require Import ZArith List Bool.
From Verif Require Import Base.
Import ListNotations.
Open Scope Z_scope.

(** ASCII codes of the characters the matcher treats specially. *)
Definition c_bang   : Z := 33.   (* ! *)
Definition c_star   : Z := 42.   (* * *)
Definition c_comma  : Z := 44.   (* , *)
Definition c_dash   : Z := 45.   (* - *)
Definition c_slash  : Z := 47.   (* / *)
Definition c_quest  : Z := 63.   (* ? *)
Definition c_lbrack : Z := 91.   (* [ *)
Definition c_rbrack : Z := 93.   (* ] *)
Definition c_lbrace : Z := 123.  (* { *)
Definition c_rbrace : Z := 125.  (* } *)

(** osc_match.h:30-71 return codes. *)
Definition OSC_MATCH_BACKTRACK_LIMIT : nat := 1000.
Definition OSC_MATCH_NOMATCH : Z := 0.
Definition OSC_MATCH_ADDRESS_COMPLETE : Z := 1.
Definition OSC_MATCH_PATTERN_COMPLETE : Z := 2.
Definition ERR_UNMATCHED_LSB : Z := 256.        (* 0x100 *)
Definition ERR_UNMATCHED_RSB : Z := 512.        (* 0x200 *)
Definition ERR_UNMATCHED_LCB : Z := 768.        (* 0x300 *)
Definition ERR_UNMATCHED_RCB : Z := 1024.       (* 0x400 *)
Definition ERR_PATTERN_NO_SLASH : Z := 1280.    (* 0x500 *)
Definition ERR_ADDRESS_NO_SLASH : Z := 1536.    (* 0x600 *)
Definition ERR_BACKTRACK : Z := 2048.           (* 0x800 *)

(** What a call of osc_match leaves behind: return value and the two
    offsets stored through the pointer arguments. *)
Record mres : Type := MRes { code : Z; poff : Z; aoff : Z }.

(** A scanning loop [while(!stop(s[i])) i++;] as used throughout osc_match
    (lines 178-180, 204-206, 215-220, 253-260, 272-277, 307-310, 313-315,
    321-323). *)
Fixpoint scan (fuel : nat) (stop : Z -> bool) (s : list Z) (i : Z) : res Z :=
  match fuel with
  | O => Fuel
  | S f => do c <- rdc s i;
           if stop c then Ok i else scan f stop s (i + 1)
  end.

(** Enough iterations for any scan of [s] that starts at a valid index. *)
Definition fuel_of (s : list Z) : nat := S (S (length s)).

Definition is_end (c : Z) : bool := (c =? c_slash) || (c =? 0).
Definition not_star (c : Z) : bool := negb (c =? c_star).

(** strncmp(p + i, a + j, n) == 0, reading both strings (C library). *)
Fixpoint strncmp_eq (n : nat) (p : list Z) (i : Z) (a : list Z) (j : Z) : res bool :=
  match n with
  | O => Ok true
  | S m => do c1 <- rdc p i;
           do c2 <- rdc a j;
           if c1 =? c2
           then if c1 =? 0 then Ok true else strncmp_eq m p (i + 1) a (j + 1)
           else Ok false
  end.

(** osc_match.c:364-392, the loop of osc_match_range. [p] is the current
    index in the pattern, [ach] the address character, [val] is 1, or 0 after
    a leading '!'. Returns 0/1 or an error code. *)
Fixpoint range_loop (fuel : nat) (pat : list Z) (ach : Z) (val : Z) (p : Z) : res Z :=
  match fuel with
  | O => Fuel
  | S f =>
    do c <- rdc pat p;
    if c =? c_rbrack then Ok (1 - val)                  (* 364, 392 *)
    else if is_end c then Ok ERR_UNMATCHED_LSB          (* 366-368 *)
    else
      let p := p + 1 in
      do d <- rdc pat p;
      if d =? c_dash then                               (* 369 *)
        do c2 <- rdc pat (p + 1);
        if negb (is_end c2) && negb (c2 =? c_rbrack)    (* 370 *)
        then if ((c <=? ach) && (ach <=? c2)) || ((ach <=? c) && (c2 <=? ach))
             then Ok val                                (* 374, 381 *)
             else range_loop f pat ach val (p + 2)      (* 384 *)
        else if c =? ach then Ok val else range_loop f pat ach val p
      else if c =? ach then Ok val                      (* 387-390 *)
      else range_loop f pat ach val p
  end.

(** osc_match.c:346-393 osc_match_range(pattern + p, address + a). *)
Definition osc_match_range (pat : list Z) (p : Z) (adr : list Z) (a : Z) : res Z :=
  do c <- rdc pat (p + 1);
  let val := if c =? c_bang then 0 else 1 in            (* 350-354 *)
  let p1 := if c =? c_bang then p + 2 else p + 1 in
  do ach <- rdc adr a;
  do d <- rdc pat p1;
  if (d =? c_rbrack) && (d =? ach) then Ok val          (* 359-363 *)
  else range_loop (fuel_of pat) pat ach val p1.

(** The backtrack stack, top first; the C pointer difference [sp - stack] is
    the length minus one. *)
Definition stack := list (Z * Z).

(** osc_match.c:123-130 OSC_MATCH_PUSH: [None] is the early return with
    OSC_MATCH_ERROR_BACKTRACK_LIMIT_EXCEEDED. *)
Definition push (p a : Z) (st : stack) : option stack :=
  if (OSC_MATCH_BACKTRACK_LIMIT <=? length st)%nat then None
  else Some ((p, a) :: st).

(** osc_match.c:284-298, the loop over the alternatives of a curly brace
    expression: [p1] is the start of the current alternative, [p2] runs. *)
Fixpoint alt_loop (fuel : nat) (pat adr : list Z) (rest aa p1 p2 : Z) (st : stack)
  : res (option stack) :=
  match fuel with
  | O => Fuel
  | S f =>
    do c <- rdc pat p2;
    if is_end c then Ok (Some st)                                   (* 284 *)
    else if (c =? c_comma) || (c =? c_rbrace) then                  (* 287 *)
      do eq <- strncmp_eq (Z.to_nat (p2 - p1)) pat p1 adr aa;       (* 288 *)
      match (if eq then push rest (aa + (p2 - p1)) st else Some st) with
      | None => Ok None                                             (* 290 *)
      | Some st' =>
        if c =? c_rbrace then Ok (Some st')                         (* 294-296 *)
        else alt_loop f pat adr rest aa (p2 + 1) (p2 + 1) st'       (* 292, 297 *)
      end
    else alt_loop f pat adr rest aa p1 (p2 + 1) st
  end.

(** osc_match.c:325-329: push (pp, aa) for aa going down to [here]. *)
Fixpoint star_loop (fuel : nat) (pp aa here : Z) (st : stack) : res (option stack) :=
  match fuel with
  | O => Fuel
  | S f =>
    match push pp aa st with
    | None => Ok None
    | Some st' => if aa =? here then Ok (Some st')
                  else star_loop f pp (aa - 1) here st'
    end
  end.

(** Shorthands for the ways an iteration ends: OSC_MATCH_RETURN_FAILURE
    (line 132) zeroes the offsets, OSC_MATCH_RETURN_SUCCESS (131) and the
    early return of PUSH leave them as they are. *)
Definition fail_with (c : Z) : lres stack (res mres) := Done (Ok (MRes c 0 0)).
Definition ret_with (c po ao : Z) : lres stack (res mres) := Done (Ok (MRes c po ao)).

Definition lift {A} (m : res A) (k : A -> lres stack (res mres)) : lres stack (res mres) :=
  match m with
  | Ok x => k x
  | Ub u => Done (Ub u)
  | Fuel => Done Fuel
  end.

(** osc_match.c:225-341, the switch on the pattern character when the
    address character [a] is neither '/' nor NUL. [(sp, sa)] is the popped top
    of the stack and [st] the stack below it. *)
Definition step_switch (pat adr : list Z) (sp sa p a : Z) (st : stack)
  : lres stack (res mres) :=
  if is_end p then Cont st                                          (* 226-233 *)
  else if p =? c_quest then Cont ((sp + 1, sa + 1) :: st)           (* 234-237 *)
  else if p =? c_lbrack then                                        (* 238-268 *)
    lift (osc_match_range pat sp adr sa) (fun r =>
    if r =? 0 then Cont st
    else if r =? 1 then
      lift (rdc pat (sp + 1)) (fun d =>
      let sp' := if d =? c_rbrack then sp + 2 else sp in            (* 250-252 *)
      lift (scan (fuel_of pat) (fun c => (c =? c_rbrack) || is_end c) pat sp') (fun q =>
      lift (rdc pat q) (fun c =>
      if c =? c_rbrack then Cont ((q + 1, sa + 1) :: st)
      else fail_with ERR_UNMATCHED_LSB)))                           (* 256-258 *)
    else fail_with r)                                               (* 265 *)
  else if p =? c_lbrace then                                        (* 269-300 *)
    lift (scan (fuel_of pat) (fun c => (c =? c_rbrace) || is_end c) pat sp) (fun q =>
    lift (rdc pat q) (fun c =>
    if c =? c_rbrace then
      lift (alt_loop (fuel_of pat) pat adr (q + 1) sa (sp + 1) (sp + 1) st) (fun o =>
      match o with
      | Some st' => Cont st'
      | None => ret_with ERR_BACKTRACK sp sa
      end)
    else fail_with ERR_UNMATCHED_LCB))                              (* 273-275 *)
  else if p =? c_rbrace then fail_with ERR_UNMATCHED_RCB            (* 301-302 *)
  else if p =? c_rbrack then fail_with ERR_UNMATCHED_RSB            (* 303-304 *)
  else if p =? c_star then                                          (* 305-332 *)
    lift (scan (fuel_of pat) not_star pat (sp + 1)) (fun pp =>      (* 307-310 *)
    lift (rdc pat pp) (fun c =>
    lift (scan (fuel_of adr) is_end adr sa) (fun aend =>            (* 313-315, 321-323 *)
    if is_end c then Cont ((pp, aend) :: st)                        (* 311-315 *)
    else
      lift (star_loop (fuel_of adr) pp (aend - 1) sa st) (fun o =>  (* 317-329 *)
      match o with
      | Some st' => Cont st'
      | None => ret_with ERR_BACKTRACK sp sa
      end))))
  else if p =? a then Cont ((sp + 1, sa + 1) :: st)                 (* 333-339 *)
  else Cont st.

(** osc_match.c:214: does the address have a component that is just "*"
    starting at [sa]? *)
Definition star_component (adr : list Z) (sa a : Z) : res bool :=
  if (a =? c_star) && (0 <? sa) then
    do b <- rdc adr (sa - 1);
    if b =? c_slash then
      do n <- rdc adr (sa + 1);
      Ok (is_end n)
    else Ok false
  else Ok false.

(** osc_match.c:156-342, one iteration of the main loop. *)
Definition step (pat adr : list Z) (s : stack) : lres stack (res mres) :=
  match s with
  | [] => fail_with OSC_MATCH_NOMATCH                               (* 160-165 *)
  | (sp, sa) :: st =>
    lift (rdc pat sp) (fun p =>
    lift (rdc adr sa) (fun a =>
    if a =? 0 then                                                  (* 177-192 *)
      lift (scan (fuel_of pat) not_star pat sp) (fun q =>
      lift (rdc pat q) (fun p =>
      if p =? 0 then ret_with (OSC_MATCH_PATTERN_COMPLETE + OSC_MATCH_ADDRESS_COMPLETE) q sa
      else if p =? c_slash then ret_with OSC_MATCH_ADDRESS_COMPLETE q sa
      else Cont st))
    else if a =? c_slash then                                       (* 193-212 *)
      if p =? c_slash then Cont [(sp + 1, sa + 1)]
      else if p =? 0 then ret_with OSC_MATCH_PATTERN_COMPLETE sp sa
      else if p =? c_star then
        lift (scan (fuel_of pat) not_star pat sp) (fun q => Cont ((q, sa) :: st))
      else Cont st
    else
      lift (star_component adr sa a) (fun sc =>
      if sc then                                                    (* 214-222 *)
        lift (scan (fuel_of adr) is_end adr sa) (fun aend =>
        lift (scan (fuel_of pat) is_end pat sp) (fun pend =>
        Cont ((pend, aend) :: st)))
      else step_switch pat adr sp sa p a st)))
  end.

(** Fuel for the main loop: one more than the weight of the initial stack
    used in the termination proof. *)
Definition match_fuel (pat adr : list Z) : positive :=
  Z.to_pos ((zlen pat + zlen adr + 3) ^ (zlen pat + zlen adr + 2) + 1).

(** osc_match.c:136-344 osc_match. *)
Definition osc_match (pat adr : list Z) : res mres :=
  do p0 <- rdc pat 0;
  if negb (p0 =? c_slash) then Ok (MRes ERR_PATTERN_NO_SLASH 0 0)
  else
    do a0 <- rdc adr 0;
    if negb (a0 =? c_slash) then Ok (MRes ERR_ADDRESS_NO_SLASH 0 0)
    else while (step pat adr) (match_fuel pat adr) [(0, 0)].
