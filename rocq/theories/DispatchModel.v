(** Model of osc_vtable.c and osc_dispatch.c (without NEST, which is not
    defined, and without osc_vtable_renameEntry, which is in VtRenameModel.v, and
    osc_vtable_free).

    The hash table of a vtable holds pointers into the array of entries.  The
    array moves when it grows (osc_mem_resize), so such a pointer is a pair of
    the generation of the array and an index; it dangles if the generation is
    not the current one.  Methods and contexts are numbers; calling a method is
    recorded in a list of calls, and methods do not touch the vtable.
    Allocation succeeds. *)

From Coq Require Import ZArith List Bool.
From Verif Require Import Base Bytes UtilModel MatchModel WireModel BundleSModel HashModel QueryModel.
Import ListNotations.
Open Scope Z_scope.

(** * osc_vtable.c *)

(** osc_vtable.r:37-42. *)
Record ventry := VE { ve_selector : list Z; ve_method : Z; ve_context : Z }.

(** osc_vtable.r:44-51. *)
Record vtable := VT {
  vt_entries : list ventry;
  vt_slots : Z;
  vt_gen : nat;
  vt_ht : @table (nat * nat);
  vt_deleg : option (Z * Z)
}.

(** osc_vtable.c:38-52 osc_vtable_alloc. *)
Definition vt_alloc (num_entries : Z) : res vtable :=
  do ht <- tab_new num_entries false;
  Ok (VT [] (if num_entries >? 0 then num_entries else 0) 0 ht None).

(** osc_vtable.c:70-76 osc_vtable_setDelegationMethod. *)
Definition vt_set_delegation (vt : vtable) (method context : Z) : vtable :=
  VT (vt_entries vt) (vt_slots vt) (vt_gen vt) (vt_ht vt) (Some (method, context)).

(** osc_vtable.c:132-134 osc_vtable_getEntryBySelector: a pointer, not read. *)
Definition vt_by_selector (vt : vtable) (sel : list Z) : res (option (nat * nat)) :=
  tab_lookup (vt_ht vt) (s32 (zlen sel)) sel.

(** osc_vtable.c:125-130 osc_vtable_getEntryByIndex; a negative index is not
    refused. *)
Definition vt_by_index (vt : vtable) (index : Z) : res (option nat) :=
  if index >=? zlen (vt_entries vt) then Ok None
  else if index <? 0 then Ub OOB
  else Ok (Some (Z.to_nat index)).

(** The entry a pointer points to, and writing to it. *)
Definition deref (vt : vtable) (p : nat * nat) : res ventry :=
  if negb (Nat.eqb (fst p) (vt_gen vt)) then Ub Dangling
  else match nth_error (vt_entries vt) (snd p) with Some e => Ok e | None => Ub OOB end.
Definition set_entry (vt : vtable) (p : nat * nat) (f : ventry -> ventry) : res vtable :=
  do e <- deref vt p;
  Ok (VT (firstn (snd p) (vt_entries vt) ++ f e :: skipn (S (snd p)) (vt_entries vt))
        (vt_slots vt) (vt_gen vt) (vt_ht vt) (vt_deleg vt)).

(** osc_vtable.c:136-141 osc_vtable_getIndexForEntry: a difference of pointers,
    meaningless if they are not into the same array. *)
Definition vt_index (vt : vtable) (p : option (nat * nat)) : res Z :=
  match p with
  | None => Ok (-1)
  | Some p => if negb (Nat.eqb (fst p) (vt_gen vt)) then Ub Dangling else Ok (Z.of_nat (snd p))
  end.
(** osc_vtable.c:143-146 osc_vtable_getIndexForSelector. *)
Definition vt_index_for (vt : vtable) (sel : list Z) : res Z :=
  do p <- vt_by_selector vt sel; vt_index vt p.

(** osc_vtable.c:78-115 osc_vtable_addEntry.  The selector is copied. *)
Definition vt_add (vt : vtable) (sel : list Z) (method context : Z) : res vtable :=
  let vt :=
    if zlen (vt_entries vt) >=? vt_slots vt
    then VT (vt_entries vt) (vt_slots vt + 1) (S (vt_gen vt)) (vt_ht vt) (vt_deleg vt) else vt in
  do p <- vt_by_selector vt sel;
  match p with
  | Some p => set_entry vt p (fun e => VE (ve_selector e) method context)
  | None =>
      let i := length (vt_entries vt) in
      do ' (ht, _) <- tab_store (vt_ht vt) (s32 (zlen sel)) sel (vt_gen vt, i);
      Ok (VT (vt_entries vt ++ [VE sel method context]) (vt_slots vt) (vt_gen vt) ht (vt_deleg vt))
  end.

(** osc_error.h:62; osc_vtable.c:152-159 osc_vtable_rebindSelector and 161-173
    osc_vtable_rebindSelectorWithContext: the error code. *)
Definition ERR_INVAL : Z := 32.
Definition vt_rebind (vt : vtable) (sel : list Z) (method : Z) : res (vtable * Z) :=
  do p <- vt_by_selector vt sel;
  match p with
  | None => Ok (vt, ERR_INVAL)
  | Some p => do vt <- set_entry vt p (fun e => VE (ve_selector e) method (ve_context e)); Ok (vt, ERR_NONE)
  end.
Definition vt_rebind_context (vt : vtable) (sel : list Z) (method context : Z) : res (vtable * Z) :=
  do p <- vt_by_selector vt sel;
  match p with
  | None => Ok (vt, ERR_INVAL)
  | Some p => do vt <- set_entry vt p (fun e => VE (ve_selector e) method context); Ok (vt, ERR_NONE)
  end.

(** * osc_dispatch.c *)

(** A call of a method of the user: the delegation method with the unmatched
    messages, or the method of an entry with its partial and its complete
    matches.  All are also given the bundle that is dispatched. *)
Inductive call :=
| Delegated (method context : Z) (unmatched : bndl_s)
| Called (entry : ventry) (partial complete : bndl_s).

(** osc_vtable.c:191-200 osc_vtable_callWithEntry and 202-214 osc_vtable_call:
    the return value and the calls made. *)
Definition vt_call (vt : vtable) (sel : list Z) (partial complete : bndl_s) : res (Z * list call) :=
  do p <- vt_by_selector vt sel;
  match p with
  | None => Ok (1, [])
  | Some p => do e <- deref vt p; Ok (0, [Called e partial complete])
  end.

(** osc_dispatch.c:61-131 osc_dispatch_msg: the two bundles of the entry with
    the selector [sel] and whether there was a match.  Stripping uses the
    offset in the selector ([aoff]) as an offset in the address. *)
Definition dispatch_msg (junk : bytes) (stale : msg_s) (strip : bool) (buf : bytes) (m : msg_s) (addr : list Z)
  (sel : list Z) (b : bndl_s * bndl_s) : res ((bndl_s * bndl_s) * bool) :=
  let '(part, compl) := b in
  do r <- osc_match addr sel;
  let po := poff r in
  let ao := aoff r in
  do c <- rdc addr po;
  do star_at_end <- (if c =? 42 then do c1 <- rdc addr (po + 1); Ok (c1 =? 0) else Ok false);
  if negb (Z.land (code r) 1 =? 0) && negb (Z.land (code r) 2 =? 0) then
    do compl <- append_b junk compl buf (Some m); Ok ((part, compl), true)
  else if (po >? 0) && ((c =? 47) || star_at_end) then
    if strip then
      if ao >? zlen addr then Ub OOB else
      do ' (d, m') <- stripped junk stale buf m addr ao;
      do part <- append_b junk part d (Some m'); Ok ((part, compl), true)
    else
      do part <- append_b junk part buf (Some m); Ok ((part, compl), true)
  else Ok ((part, compl), false).

(** osc_dispatch.c:167-175, the loop over the entries. *)
Fixpoint dispatch_each (junk : bytes) (stale : msg_s) (strip : bool) (buf : bytes) (m : msg_s) (addr : list Z)
  (es : list ventry) (bs : list (bndl_s * bndl_s)) : res (list (bndl_s * bndl_s) * bool) :=
  match es, bs with
  | e :: es', b :: bs' =>
      do ' (b, x) <- dispatch_msg junk stale strip buf m addr (ve_selector e) b;
      do ' (bs', y) <- dispatch_each junk stale strip buf m addr es' bs';
      Ok (b :: bs', x || y)
  | [], [] => Ok ([], false)
  | _, _ => Ub OOB
  end.

(** osc_dispatch.c:153-182 osc_dispatch_impl. *)
Definition dispatch_impl (junk : bytes) (stale : msg_s) (es : list ventry) (len : Z) (buf : bytes) (strip : bool)
  (bs : list (bndl_s * bndl_s)) : res (list (bndl_s * bndl_s) * bndl_s) :=
  do r <- bundle_loop buf 0 len (fun (st : list (bndl_s * bndl_s) * bndl_s) m =>
    let '(bs, un) := st in
    match ms_address m with
    | None => Ub NullDeref
    | Some ap =>
        do addr <- rdstr buf ap;
        do ' (bs, matched) <- dispatch_each junk stale strip buf m addr es bs;
        if matched then Ok (@Cont _ unit (bs, un)) else
        do un <- append_b junk un buf (Some m); Ok (Cont (bs, un))
    end) (bs, None);
  match r with Cont st => Ok st | Done _ => Ok (bs, None) end.

(** osc_vtable.c:216-219 osc_vtable_delegate. *)
Definition delegate (vt : vtable) (un : bndl_s) : res (list call) :=
  match vt_deleg vt with
  | None => Ub NullDeref
  | Some (m, c) => Ok [Delegated m c un]
  end.

(** osc_dispatch.c:184-235 osc_dispatch. *)
Definition dispatch (junk : bytes) (stale : msg_s) (vt : vtable) (len : Z) (bndl : option bytes) (strip : bool)
  : res (Z * list call) :=
  match bndl with
  | None => Ok (ERR_NOBUNDLE, [])
  | Some buf =>
      if len =? 16 then do d <- delegate vt (Some (len, Some buf)); Ok (ERR_NONE, d) else
      let es := vt_entries vt in
      do ' (bs, un) <- dispatch_impl junk stale es len buf strip (repeat (None, None) (length es));
      do d <- match un with Some _ => delegate vt un | None => Ok [] end;
      Ok (ERR_NONE, d ++ map (fun x => Called (fst x) (fst (snd x)) (snd (snd x))) (combine es bs))
  end.

(** osc_dispatch.c:279-286: the entries of the selectors given. *)
Fixpoint call_selectors (vt : vtable) (bs : list (bndl_s * bndl_s)) (sels : list (list Z)) : res (list call) :=
  match sels with
  | [] => Ok []
  | sel :: sels' =>
      do p <- vt_by_selector vt sel;
      do cs <- match p with
               | None => Ok []
               | Some p =>
                   do i <- vt_index vt (Some p);
                   do b <- rd bs i;
                   do e <- deref vt p;
                   Ok [Called e (fst b) (snd b)]
               end;
      do cs' <- call_selectors vt bs sels';
      Ok (cs ++ cs')
  end.

(** osc_dispatch.c:237-297 osc_dispatch_selectors. *)
Definition dispatch_selectors (junk : bytes) (stale : msg_s) (vt : vtable) (sels : list (list Z)) (len : Z)
  (bndl : option bytes) (strip : bool) : res (Z * list call) :=
  match bndl with
  | None => Ok (ERR_NOBUNDLE, [])
  | Some buf =>
      if len =? 16 then do d <- delegate vt (Some (len, Some buf)); Ok (ERR_NONE, d) else
      let es := vt_entries vt in
      do ' (bs, un) <- dispatch_impl junk stale es len buf strip (repeat (None, None) (length es));
      do d <- match un with Some _ => delegate vt un | None => Ok [] end;
      do cs <- call_selectors vt bs sels;
      Ok (ERR_NONE, d ++ cs)
  end.
