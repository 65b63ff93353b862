(** Model of osc_query.c (osc_query_select, without NEST, which is not defined)
    and of the result set it fills, osc_rset.c.

    A result set owns a hash table from selectors to results and a linked list
    of the same results.  Here the list is the Coq list [rs_results] and the
    table holds positions in it; nothing ever removes a result before
    osc_rset_free, which is not modelled.  A t_osc_bndl_s is its length and its
    pointer.  Allocation succeeds; fresh memory has the contents [junk]. *)

From Coq Require Import ZArith List Bool.
From Verif Require Import Base Bytes UtilModel MatchModel WireModel BundleSModel HashModel.
Import ListNotations.
Open Scope Z_scope.

(** A t_osc_bndl_s pointer: NULL or a length and a pointer (osc_bundle_s.r:39-42). *)
Definition bndl_s : Type := option (Z * option bytes).

(** osc_rset.r:36-42 struct _osc_rset_result (without the links). *)
Record result := Res { r_selector : list Z; r_complete : bndl_s; r_partial : bndl_s }.

(** osc_rset.r:44-50 struct _osc_rset (without the iterator). *)
Record rset := RSet { rs_ht : @table nat; rs_results : list result; rs_unmatched : bndl_s }.

(** osc_bundle_s.c:479-485 osc_bundle_s_appendMessage_b. *)
Definition append_b (junk : bytes) (b : bndl_s) (mbuf : bytes) (m : option msg_s) : res bndl_s :=
  let '(len, ptr) := match b with Some x => x | None => (0, None) end in
  do x <- append_message junk len ptr mbuf m; Ok (Some x).

(** osc_rset.c:50-61 osc_rset_alloc. *)
Definition rset_alloc : res rset :=
  do ht <- tab_new 0 true; Ok (RSet ht [] None).

(** osc_rset.c:125-132 osc_rset_select, for a selector that is not NULL: the
    position of the result.  strlen is converted to int. *)
Definition rset_find (rs : rset) (sel : list Z) : res (option nat) :=
  tab_lookup (rs_ht rs) (s32 (zlen sel)) sel.
Definition rset_select (rs : rset) (sel : list Z) : res (option result) :=
  do o <- rset_find rs sel;
  match o with
  | None => Ok None
  | Some i => match nth_error (rs_results rs) i with Some r => Ok (Some r) | None => Ub Dangling end
  end.

(** osc_rset.c:237-249 osc_rset_result_alloc and 107-123 osc_rset_appendResult:
    a new result for [sel] at the end of the list and in the table. *)
Definition rset_new_result (rs : rset) (sel : list Z) : res (rset * nat) :=
  let i := length (rs_results rs) in
  do ' (ht, _) <- tab_store (rs_ht rs) (s32 (zlen sel)) sel i;
  Ok (RSet ht (rs_results rs ++ [Res sel None None]) (rs_unmatched rs), i).

(** The result for [sel], made if there is none (osc_rset.c:137-141, 152-156). *)
Definition rset_get (rs : rset) (sel : list Z) : res (rset * nat) :=
  do o <- rset_find rs sel;
  match o with Some i => Ok (rs, i) | None => rset_new_result rs sel end.

(** Change the result at position [i]. *)
Definition rset_update (rs : rset) (i : nat) (f : result -> res result) : res rset :=
  match nth_error (rs_results rs) i with
  | None => Ub Dangling
  | Some r =>
      do r' <- f r;
      Ok (RSet (rs_ht rs) (firstn i (rs_results rs) ++ r' :: skipn (S i) (rs_results rs)) (rs_unmatched rs))
  end.

(** osc_rset.c:134-147 osc_rset_addCompleteMatch (and 267-275). *)
Definition add_complete (junk : bytes) (rs : rset) (sel : list Z) (mbuf : bytes) (m : msg_s) : res rset :=
  do ' (rs, i) <- rset_get rs sel;
  rset_update rs i (fun r =>
    do b <- append_b junk (r_complete r) mbuf (Some m); Ok (Res (r_selector r) b (r_partial r))).

(** osc_rset.c:149-162 osc_rset_addPartialMatch (and 277-285). *)
Definition add_partial (junk : bytes) (rs : rset) (sel : list Z) (mbuf : bytes) (m : msg_s) : res rset :=
  do ' (rs, i) <- rset_get rs sel;
  rset_update rs i (fun r =>
    do b <- append_b junk (r_partial r) mbuf (Some m); Ok (Res (r_selector r) (r_complete r) b)).

(** osc_rset.c:164-172 osc_rset_addUnmatched. *)
Definition add_unmatched (junk : bytes) (rs : rset) (mbuf : bytes) (m : option msg_s) : res rset :=
  do b <- append_b junk (rs_unmatched rs) mbuf m; Ok (RSet (rs_ht rs) (rs_results rs) b).

(** osc_query.c:117-125: the message renamed to the part of its address from
    [po] on, in an uninitialised array of the size of the message.  If
    osc_message_s_renameCopy refuses the address (it returns 0), the array is
    read although nothing was written to it.  [stale] is the content of the
    message structure on the stack. *)
Definition stripped (junk : bytes) (stale : msg_s) (buf : bytes) (m : msg_s) (addr : list Z) (po : Z)
  : res (bytes * msg_s) :=
  do sz <- get_size buf m;
  do k <- add_int sz 4;
  let tmp := firstn (Z.to_nat k) junk in
  do ' (n, d) <- rename_copy (Some tmp) buf m (s32 (zlen addr - po)) (Some (skipn (Z.to_nat po) addr));
  match d with
  | None => Ub NullDeref
  | Some d =>
      if n =? 0 then Ub Uninit else
      do m' <- wrap stale d 0; Ok (d, m')
  end.

(** osc_query.c:68-134, one selector for the message [m] with the address
    [addr]: the result set and whether it matched. *)
Definition select_one (junk : bytes) (stale : msg_s) (strip : bool) (buf : bytes) (m : msg_s) (addr : list Z)
  (rs : rset) (sel : list Z) : res (rset * bool) :=
  do r <- osc_match addr sel;
  let po := poff r in
  do c <- rdc addr po;
  do star_at_end <- (if c =? 42 then do c1 <- rdc addr (po + 1); Ok (c1 =? 0) else Ok false);
  if negb (Z.land (code r) 1 =? 0) && negb (Z.land (code r) 2 =? 0) then
    do rs <- add_complete junk rs sel buf m; Ok (rs, true)
  else if (po >? 0) && ((c =? 47) || star_at_end) then
    if strip then
      do ' (d, m') <- stripped junk stale buf m addr po;
      do rs <- add_partial junk rs sel d m'; Ok (rs, true)
    else
      do rs <- add_partial junk rs sel buf m; Ok (rs, true)
  else Ok (rs, false).

(** osc_query.c:62-135, the loop over the selectors; NULL ones are skipped. *)
Fixpoint select_each (junk : bytes) (stale : msg_s) (strip : bool) (buf : bytes) (m : msg_s) (addr : list Z)
  (rs : rset) (sels : list (option (list Z))) (matched : bool) : res (rset * bool) :=
  match sels with
  | [] => Ok (rs, matched)
  | None :: sels' => select_each junk stale strip buf m addr rs sels' matched
  | Some sel :: sels' =>
      do ' (rs, b) <- select_one junk stale strip buf m addr rs sel;
      select_each junk stale strip buf m addr rs sels' (matched || b)
  end.

(** osc_query.c:49-147 osc_query_select_impl with a NULL rec_selector. *)
Definition query_impl (junk : bytes) (stale : msg_s) (sels : list (option (list Z))) (len : Z) (buf : bytes)
  (strip : bool) (rs : rset) : res rset :=
  do r <- bundle_loop buf 0 len (fun rs m =>
    match ms_address m with
    | None => Ub NullDeref
    | Some ap =>
        do addr <- rdstr buf ap;
        do ' (rs, matched) <- select_each junk stale strip buf m addr rs sels false;
        if matched then Ok (@Cont _ unit rs) else
        do rs <- add_unmatched junk rs buf (Some m); Ok (Cont rs)
    end) rs;
  match r with Cont rs => Ok rs | Done _ => Ok rs end.

(** osc_query.c:149-175 osc_query_select: the error code and [*rset]. *)
Definition query_select (junk : bytes) (stale : msg_s) (sels : list (option (list Z))) (len : Z)
  (bndl : option bytes) (strip : bool) (rs : option rset) : res (Z * option rset) :=
  match bndl with
  | None => Ok (ERR_NOBUNDLE, rs)
  | Some buf =>
      do rs <- match rs with Some rs => Ok rs | None => rset_alloc end;
      if len =? 16 then
        do rs <- add_unmatched junk rs [] None; Ok (ERR_NONE, Some rs)
      else
        do rs <- query_impl junk stale sels len buf strip rs; Ok (ERR_NONE, Some rs)
  end.
