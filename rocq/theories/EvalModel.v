(** Model of the evaluator of the expression language, osc_expr.c:107-1517,
    1700-1737 and 2896-3013.

    An expression is a function with a list of arguments.  Its evaluation reads
    and changes the serialized bundle at [*oscbndl], whose length is [*len]; the
    pointers [len] and [oscbndl] themselves are not NULL.  It gives a code,
    [*out], which is NULL before, and the new bundle.  Arrays are taken to have
    fewer than 2^31 members.  Allocation succeeds: [fresh n] are the contents of
    [n] new bytes.  Error reports are not modelled, nor is memory released.

    Not modelled: eval, tokenize, compile, getbundlemember, assigntobundlemember,
    emptybundle and getaddresses with an argument, calling a function that is the
    value of a variable, and apply of a string that has to be parsed.  There the
    model gives no answer ([Fuel]). *)

From Coq Require Import ZArith List Bool.
From Verif Require Import Base Bytes UtilModel TimetagModel SerialModel WireModel AtomSModel AtomUModel
  BundleSModel ExprModel ExprListModel.
Import ListNotations.
Open Scope Z_scope.

(** * Expressions *)

(** The functions osc_expr_evalInLexEnv treats specially, osc_expr.c:124-173, and
    all others by name. *)
Inductive fn :=
| FApply | FMap | FLreduce | FRreduce | FAssign | FAssignIndex | FIf | FEmpty | FBound | FExists
| FAddresses | FDelete | FCount | FValue | FQuote | FGetTime | FSetTime | FAndalso | FOrelse
| FCall (name : list Z).

(** osc_expr.r, osc_expr_func.h:44-52: arguments and expressions over literals of
    type [A]; here atoms.  [AUnset] is an argument whose type was not set. *)
Inductive arg (A : Type) : Type :=
| AUnset
| AAtom (a : A)
| AList (l : option (list A))
| AExpr (e : expr A)
| AAddr (p : list Z)
| AFun (params : list (list Z)) (body : list (expr A))
with expr (A : Type) : Type :=
| Ex (f : fn) (args : list (arg A)).
Arguments AUnset {A}.
Arguments AAtom {A} a.
Arguments AList {A} l.
Arguments AExpr {A} e.
Arguments AAddr {A} p.
Arguments AFun {A} params body.
Arguments Ex {A} f args.

Definition map_list {A B} (f : A -> res B) : list A -> res (list B) :=
  fix go l := match l with [] => Ok [] | x :: l' => do y <- f x; do r <- go l'; Ok (y :: r) end.

(** osc_expr.c:6798-6831 osc_expr_arg_copy, 6476-6503 osc_expr_copy and
    6505-6521 osc_expr_copyAllLinked, osc_expr_rec.c:67-118 osc_expr_rec_copy: the
    list of a list argument is not copied. *)
Fixpoint copy_arg (a : arg atom) : res (arg atom) :=
  match a with
  | AUnset => Ok AUnset
  | AAtom x => do y <- copy_atom x; Ok (AAtom y)
  | AList _ => Ok (AList None)
  | AExpr e => do e <- copy_expr e; Ok (AExpr e)
  | AAddr p => Ok (AAddr p)
  | AFun params body => do body <- map_list copy_expr body; Ok (AFun params body)
  end
with copy_expr (e : expr atom) : res (expr atom) :=
  match e with Ex f args => do args <- map_list copy_arg args; Ok (Ex f args) end.

(** * Variables *)

(** osc_expr.c:2118-2174: the lexical environment is a hash table (HashModel.v),
    here the list of its entries; [None] is NULL. *)
Definition entries := list (list Z * arr).
Definition lexenv := option entries.
(** osc_expr_lookupBindingInLexenv, 2168-2174. *)
Fixpoint find_entry (e : entries) (x : list Z) : arr :=
  match e with
  | [] => None
  | (y, v) :: e' => if streq x y then v else find_entry e' x
  end.
Definition lookup_var (e : lexenv) (x : list Z) : arr :=
  match e with None => None | Some l => find_entry l x end.
(** osc_expr_bindVarInLexenv, 2158-2166. *)
Definition bind_var (e : entries) (x : list Z) (v : arr) : entries :=
  (x, v) :: filter (fun '(y, _) => negb (streq x y)) e.
(** osc_expr_copyLexenv and its callback, 2138-2156: NULL values are left out. *)
Fixpoint copy_entries (e : entries) : res entries :=
  match e with
  | [] => Ok []
  | (_, None) :: e' => copy_entries e'
  | (x, v) :: e' => do v <- acopy v; do e' <- copy_entries e'; Ok ((x, v) :: e')
  end.

(** * The bundle *)

(** [*len], [*oscbndl] and how often the buffer has been reallocated. *)
Record bst := Bst { b_len : Z; b_buf : option bytes; b_moves : nat }.
(** The bytes at [*oscbndl]; none may be read if it is NULL. *)
Definition bytes_of (st : bst) : bytes := match b_buf st with Some b => b | None => [] end.

(** osc_error.h:69 OSC_ERR_EXPR_ADDRESSUNBOUND. *)
Definition UNBOUND : Z := 258.

(** The arguments of a message as an array: osc_expr.c:263-276. *)
Definition msg_atoms (buf : bytes) (m : msg_s) : res arr :=
  do n <- get_arg_count buf m;
  do out <- aalloc n;
  do r <- msg_loop buf m (fun (s : Z * arr) a =>
            let (i, out) := s in
            do x <- deser_atom (deser_bundle (S (length buf)) buf) buf a;
            do out <- aput out i (fun _ => Ok x);
            Ok (@Cont _ unit (i + 1, out))) (0, out);
  match r with Cont (_, out) => Ok out | Done _ => Ub NullDeref end.

(** osc_expr.c:248-282, an address: the arguments of the first message it
    matches. *)
Definition eval_addr (st : bst) (p : list Z) : res (Z * arr) :=
  match b_buf st with
  | None => Ok (UNBOUND, None)
  | Some buf =>
      if b_len st <=? 16 then Ok (UNBOUND, None) else
      do r <- first_full_match buf (b_len st) p;
      match r with
      | None => Ok (UNBOUND, None)
      | Some q => do m <- wrap init_msg buf q; do out <- msg_atoms buf m; Ok (0, out)
      end
  end.

(** The typetag of member 0 of an array, 0 if there is none, and the string
    in it. *)
Definition tag0 (a : arr) : res Z :=
  do x <- aget a 0; Ok (match x with Some x => a_tt x | None => 0 end).
Definition string_in (a : atom) : res (list Z) :=
  match a with Atom _ _ (PStr s) => Ok s | _ => Ub NullDeref end.
Definition string0 (a : arr) : res (list Z) :=
  do x <- aget a 0; match x with Some x => string_in x | None => Ub NullDeref end.

(** An array with one boolean. *)
Definition one_bool (b : bool) : arr := Some [set_bool atom_fresh b].

Section Evaluator.
Context (table : list Z -> option fn).          (* osc_expr_lookupFunction, 2176-2187 *)
Context (plain : list Z -> list arr -> res (Z * arr)).  (* the other functions *)
Context (fresh : Z -> bytes).

(** osc_expr.c:839-866 (and 1009-1021): the message with the address and copies
    of the atoms [l], serialized. *)
Definition make_message (address : list Z) (l : list atom) : res bytes :=
  do args <- map_list copy_atom l;
  let m := UMsg (set_address address) args in
  do n <- msg_size m;
  msg_serialize (fresh n) m.

(** osc_bundle_s_replaceMessage(len, len, oscbndl, the message at [om], [mb]); the
    block is reallocated if the bundle grows. *)
Definition replace_at (st : bst) (om : Z) (mb : bytes) : res bst :=
  let len := b_len st in
  do ' (_, _, pos, b) <- replace_message (fresh (len + zlen mb)) len len (bytes_of st) om mb 0;
  Ok (Bst pos (Some b) (if pos >? len then S (b_moves st) else b_moves st)).

(** osc_expr.c:869-881: replace the first message with this address or append. *)
Definition store_message (st : bst) (address : list Z) (mb : bytes) : res bst :=
  do r <- first_equal_addr (bytes_of st) (b_len st) address;
  match r with
  | Some p => replace_at st p mb
  | None =>
      do m <- wrap init_msg mb 0;
      do ' (len, b) <- append_message (fresh (zlen mb + 16)) (b_len st) (b_buf st) mb (Some m);
      Ok (Bst len b (S (b_moves st)))
  end.

(** The evaluator of expressions, osc_expr_evalInLexEnv. *)
Context (rec : lexenv -> bst -> expr atom -> res (Z * arr * bst)).

(** osc_expr.c:215-331 osc_expr_evalArgInLexEnv.  Of a function that is a value
    only the type tag is kept. *)
Definition eval_arg (env : lexenv) (st : bst) (a : arg atom) : res (Z * arr * bst) :=
  match a with
  | AUnset => Ok (ERR_INVAL, None, st)
  | AAtom x =>
      do v <- (if a_tt x =? 115 then do s <- string_in x; Ok (lookup_var env s) else Ok None);
      match v with
      | Some _ => do o <- acopy v; Ok (0, o, st)
      | None => do y <- copy_atom x; Ok (0, Some [y], st)
      end
  | AList l => do o <- acopy l; Ok (0, o, st)
  | AExpr e => rec env st e
  | AAddr p => do ' (c, o) <- eval_addr st p; Ok (c, o, st)
  | AFun _ _ => Ok (0, Some [Atom 114 0 PNone], st)
  end.
(** 222-224: a missing argument. *)
Definition eval_opt (env : lexenv) (st : bst) (a : option (arg atom)) : res (Z * arr * bst) :=
  match a with Some a => eval_arg env st a | None => Ok (1, None, st) end.

(** osc_expr.c:179-211, the arguments of an ordinary function: the first error
    ends it. *)
Fixpoint eval_args (env : lexenv) (st : bst) (args : list (arg atom)) : res (Z * list arr * bst) :=
  match args with
  | [] => Ok (0, [], st)
  | a :: args' =>
      do ' (c, o, st) <- eval_arg env st a;
      if negb (c =? 0) then Ok (c, [], st) else
      do ' (c, os, st) <- eval_args env st args';
      Ok (c, o :: os, st)
  end.
Definition ev_call (env : lexenv) (st : bst) (name : list Z) (args : list (arg atom)) :=
  do ' (c, os, st) <- eval_args env st args;
  if negb (c =? 0) then Ok (c, None, st) else
  do ' (c, o) <- plain name os;
  Ok (c, o, st).

(** osc_expr.c:378-389: the arguments are evaluated outside the function. *)
Fixpoint bind_params (env : lexenv) (st : bst) (params : list (list Z)) (args : list (arg atom))
  (inner : entries) : res (Z * entries * bst) :=
  match params, args with
  | x :: params', a :: args' =>
      do ' (c, o, st) <- eval_arg env st a;
      if c =? UNBOUND then Ok (c, inner, st) else
      bind_params env st params' args' (bind_var inner x o)
  | _, _ => Ok (0, inner, st)
  end.
(** osc_expr.c:390-404, the expressions of the function. *)
Fixpoint eval_body (env : lexenv) (st : bst) (body : list (expr atom)) : res (Z * arr * bst) :=
  match body with
  | [] => Ok (0, None, st)
  | e :: body' =>
      do ' (c, o, st) <- rec env st e;
      let o := match body' with [] => o | _ => None end in
      if negb (c =? 0) then Ok (c, o, st) else
      match body' with [] => Ok (0, o, st) | _ => eval_body env st body' end
  end.

(** osc_expr.c:339-515 osc_expr_specFunc_apply. *)
Definition apply_name (env : lexenv) (st : bst) (s : list Z) (rest : list (arg atom)) : option (res (Z * arr * bst)) :=
  option_map (fun f => rec env st (Ex f rest)) (table s).
Definition ev_apply (env : lexenv) (st : bst) (args : list (arg atom)) : res (Z * arr * bst) :=
  match args with
  | AFun params body :: rest =>
      do inner <- match env with Some e => copy_entries e | None => Ok [] end;
      do ' (c, inner, st) <- bind_params env st params rest inner;
      if c =? UNBOUND then Ok (c, None, st) else eval_body (Some inner) st body
  | AAtom x :: rest =>
      if negb (a_tt x =? 115) then Ok (1, None, st) else
      do s <- string_in x;
      match apply_name env st s rest with
      | Some r => r
      | None => do t <- tag0 (lookup_var env s); if t =? 114 then Fuel else Ok (1, None, st)
      end
  | (AExpr _ | AAddr _) as a :: rest =>
      do ' (c, ar, st) <- eval_arg env st a;
      if c =? UNBOUND then Ok (c, None, st) else
      match ar with
      | None => Ok (1, None, st)
      | Some _ =>
          if negb (alen ar =? 1) then Ok (1, None, st) else
          do t <- tag0 ar;
          if negb (t =? 115) then Ok (1, None, st) else
          do s <- string0 ar;
          match apply_name env st s rest with Some r => r | None => Fuel end
      end
  | _ => Ok (1, None, st)
  end.

(** osc_expr.c:539-562 of osc_expr_specFunc_map: only an unbound address ends
    it. *)
Fixpoint collect (env : lexenv) (st : bst) (args : list (arg atom)) : res (Z * list arr * bst) :=
  match args with
  | [] => Ok (0, [], st)
  | a :: args' =>
      do ' (c, o, st) <- eval_arg env st a;
      if c =? UNBOUND then Ok (c, [], st) else
      do ' (c, os, st) <- collect env st args';
      Ok (c, o :: os, st)
  end.
(** [min], a uint32 that is ~0 at first. *)
Definition min_len (os : list arr) : Z :=
  fold_left (fun min o => if alen o <? min then alen o else min) os (2^32 - 1).
(** osc_atom_array_u_get(args[j], i) for all [j], as arguments. *)
Fixpoint row (os : list arr) (i : Z) : res (list (arg atom)) :=
  match os with
  | [] => Ok []
  | o :: os' =>
      do x <- aget o i;
      do r <- row os' i;
      Ok (AAtom (match x with Some x => x | None => atom_fresh end) :: r)
  end.
(** 575-583: [k] calls from index [i] on; their codes are ignored. *)
Fixpoint map_calls (env : lexenv) (f : arg atom) (os : list arr) (k : nat) (i : Z) (st : bst) :
  res (list arr * bst) :=
  match k with
  | O => Ok ([], st)
  | S k' =>
      do args <- row os i;
      do ' (_, o, st) <- rec env st (Ex FApply (f :: args));
      do ' (outs, st) <- map_calls env f os k' (i + 1) st;
      Ok (o :: outs, st)
  end.
(** 584-589: the outputs one after the other. *)
Fixpoint join_outputs (outs : list arr) (pos : Z) (out : arr) : res arr :=
  match outs with
  | [] => Ok out
  | o :: outs' => do out <- acopy_into out o pos; join_outputs outs' (pos + alen o) out
  end.
(** osc_expr.c:517-613 osc_expr_specFunc_map. *)
Definition ev_map (env : lexenv) (st : bst) (args : list (arg atom)) : res (Z * arr * bst) :=
  match args with
  | f :: (_ :: _) as lists =>
      do ' (c, os, st) <- collect env st lists;
      if c =? UNBOUND then Ok (c, None, st) else
      do f <- copy_arg f;
      do ' (outs, st) <- map_calls env f os (Z.to_nat (min_len os)) 0 st;
      do out <- aalloc (fold_left (fun n o => n + alen o) outs 0);
      do out <- join_outputs outs 0 out;
      Ok (0, out, st)
  | _ => Ok (1, None, st)
  end.

(** The two arguments of the function that osc_expr_specFunc_reduce applies:
    [arg0] holds the value so far, [arg1] the next member, osc_expr.c:656-663. *)
Definition two_args (right : bool) (acc x : arg atom) : list (arg atom) :=
  if right then [x; acc] else [acc; x].
(** 726-739: the rest of the members, in order of use.  A member that is not there
    is NULL and evaluates to a cleared atom. *)
Fixpoint reduce_loop (env : lexenv) (right : bool) (f : arg atom) (xs : list atom) (o : arr) (st : bst) :
  res (arr * bst) :=
  match xs with
  | [] => Ok (o, st)
  | x :: xs' =>
      do a <- aget o 0;
      do a <- copy_into atom_fresh a;
      do x <- copy_atom x;
      do ' (_, o, st) <- rec env st (Ex FApply (f :: two_args right (AAtom a) (AAtom x)));
      reduce_loop env right f xs' o st
  end.
(** osc_expr.c:615-758 osc_expr_specFunc_reduce. *)
Definition ev_reduce (right : bool) (env : lexenv) (st : bst) (args : list (arg atom)) : res (Z * arr * bst) :=
  match args with
  | f :: a :: more =>
      do f <- copy_arg f;
      do ' (c, ar, st) <- eval_arg env st a;
      if c =? UNBOUND then Ok (c, None, st) else
      let l := match ar with Some l => l | None => [] end in
      match (if right then rev l else l), more with
      | [], _ =>
          do ' (_, o, st) <- rec env st (Ex FApply [f; AUnset; AUnset]);
          Ok (0, o, st)
      | [_], [] => Ok (0, ar, st)
      | x :: xs, [b] =>
          do ' (c, sc, st) <- eval_arg env st b;
          if c =? UNBOUND then Ok (c, None, st) else
          match sc with
          | None => Ok (1, None, st)
          | Some _ =>
              do s <- aget sc 0;
              do s <- copy_into atom_fresh s;
              do ' (_, o, st) <- rec env st (Ex FApply (f :: two_args right (AAtom s) (AAtom x)));
              do ' (o, st) <- reduce_loop env right f xs o st;
              Ok (0, o, st)
          end
      | x :: y :: xs, _ =>
          do ' (_, o, st) <- rec env st (Ex FApply (f :: two_args right (AAtom x) (AAtom y)));
          do ' (o, st) <- reduce_loop env right f xs o st;
          Ok (0, o, st)
      | [x], _ =>
          do ' (_, o, st) <- rec env st (Ex FApply (f :: two_args right (AAtom x) (AAtom atom_fresh)));
          Ok (0, o, st)
      end
  | _ => Ok (1, None, st)
  end.

(** osc_expr.c:774-826: the address to assign to, or a code. *)
Definition target (env : lexenv) (st : bst) (a : option (arg atom)) : res ((Z + list Z) * bst) :=
  match a with
  | Some (AAddr p) => Ok (inr p, st)
  | _ =>
      do ' (c, ar, st) <-
        match a with
        | Some (AExpr (Ex FValue (AAddr p :: _))) =>
            do ' (c, ar) <- eval_addr st p;
            match ar with Some _ => Ok (c, ar, st) | None => eval_opt env st a end
        | _ => eval_opt env st a
        end;
      if c =? UNBOUND then Ok (inl c, st) else
      match ar with
      | None => Ok (inl 1, st)
      | Some _ =>
          do t <- tag0 ar;
          if negb (t =? 115) then Ok (inl 1, st) else
          do s <- string0 ar;
          Ok (inr s, st)
      end
  end.
(** osc_expr.c:760-915 osc_expr_specFunc_assign. *)
Definition ev_assign (env : lexenv) (st : bst) (args : list (arg atom)) : res (Z * arr * bst) :=
  do ' (t, st) <- target env st (nth_error args 0);
  match t with
  | inl c => Ok (c, None, st)
  | inr address =>
      let err := validate_address (Some address) in
      if negb (err =? 0) then Ok (err, None, st) else
      do ' (c, o, st) <- eval_opt env st (nth_error args 1);
      if negb (c =? 0) then Ok (c, o, st) else
      do mb <- make_message address (match o with Some l => l | None => [] end);
      do st <- store_message st address mb;
      Ok (0, o, st)
  end.

(** One assignment of osc_expr.c:974-1008: [None] if the index is out of range. *)
Definition put_index (out : arr) (outlen : Z) (idx : arr) (i : Z) (data : arr) (j : Z) : res (option arr) :=
  do x <- aget idx i;
  do n <- int_at x;
  if (n >=? outlen) || (n <? 0) then Ok None
  else do out <- copy_member out n data j; Ok (Some out).
(** Those that are out of range are skipped: 985-994, 1001-1008. *)
Definition put_indexes (n : Z) (out : arr) (outlen : Z) (idx data : arr) (j : Z -> Z) : res arr :=
  forn (Z.to_nat n) 0 (fun i out =>
    do o <- put_index out outlen idx i data (j i);
    Ok (match o with Some out => out | None => out end)) out.
(** osc_expr.c:917-1040 osc_expr_specFunc_assigntoindex.  The pointer to the
    message is taken before the indexes and the data are evaluated. *)
Definition ev_assign_index (env : lexenv) (st : bst) (args : list (arg atom)) : res (Z * arr * bst) :=
  match args with
  | [a; i; d] =>
      match a with
      | AAddr p =>
          do r <- lookup_address (bytes_of st) (b_len st) p true;
          match r with
          | None => Ok (1, None, st)
          | Some ar =>
              do m <- rd ar 0;
              let moves := b_moves st in
              do ' (c, out) <- eval_addr st p;
              if c =? UNBOUND then Ok (c, out, st) else
              let outlen := alen out in
              do ' (c, idx, st) <- eval_arg env st i;
              if c =? UNBOUND then Ok (c, out, st) else
              do ' (c, data, st) <- eval_arg env st d;
              if c =? UNBOUND then Ok (c, out, st) else
              let nidx := alen idx in
              let ndata := alen data in
              if (nidx =? 0) || (ndata =? 0) then Ok (1, out, st) else
              do o <-
                (if (nidx =? 1) && (1 <? ndata) then put_index out outlen idx 0 data 0
                 else if (1 <? nidx) && (ndata =? 1) then
                   do out <- put_indexes nidx out outlen idx data (fun _ => 0); Ok (Some out)
                 else
                   do out <- put_indexes (if ndata <? nidx then ndata else nidx) out outlen idx data (fun i => i);
                   Ok (Some out));
              match o with
              | None => Ok (1, out, st)
              | Some out =>
                  do mb <- make_message p (match out with Some l => l | None => [] end);
                  match ms_size m with
                  | None => Ub NullDeref
                  | Some om =>
                      if Nat.eqb (b_moves st) moves then do st <- replace_at st om mb; Ok (0, out, st)
                      else Ub Dangling
                  end
              end
          end
      | _ => Ub Dangling  (* the union does not hold an address *)
      end
  | _ => Ok (1, None, st)
  end.

(** osc_expr.c:1042-1153 osc_expr_specFunc_if.  The array boolvec has as many
    members as the list that is the test; the result of the branch goes to its
    first member. *)
Definition ev_branch (env : lexenv) (st : bst) (n : Z) (a : arg atom) : res (Z * arr * bst) :=
  if n =? 0 then Ub OOB else
  do ' (c, b, st) <- eval_arg env st a;
  if negb (c =? 0) then Ok (c, None, st) else
  do out <- aalloc (alen b);
  do out <- acopy_into out b 0;
  Ok (0, out, st).
Definition ev_if (env : lexenv) (st : bst) (args : list (arg atom)) : res (Z * arr * bst) :=
  let go test yes no :=
    do ' (c, t, st) <- eval_arg env st test;
    if negb (c =? 0) then Ok (c, None, st) else
    do x <- aget t 0;
    do i <- int32_at x;
    if negb (i =? 0) then ev_branch env st (alen t) yes
    else match no with
         | Some no => ev_branch env st (alen t) no
         | None => do out <- aalloc 0; Ok (0, out, st)
         end in
  match args with
  | [test; yes] => go test yes None
  | [test; yes; no] => go test yes (Some no)
  | _ => Ok (1, None, st)
  end.

(** osc_expr.c:1155-1198 osc_expr_specFunc_emptybundle without argument. *)
Definition ev_empty (st : bst) (args : list (arg atom)) : res (Z * arr * bst) :=
  match args with
  | [] => Ok (0, one_bool (b_len st =? 16), st)
  | _ => Fuel
  end.

(** osc_expr.c:1200-1303 osc_expr_specFunc_existsorbound, without the branch for
    members of bundles. *)
Definition ev_exists (func : bytes -> Z -> list Z -> bool -> res bool) (env : lexenv) (st : bst)
  (args : list (arg atom)) : res (Z * arr * bst) :=
  do ' (address, st) <-
    match args with
    | AAtom x :: _ =>
        if negb (a_tt x =? 115) then Ok (None, st) else
        do ' (_, ar, st) <- eval_arg env st (AAtom x);
        do t <- tag0 ar;
        if t =? 115 then do s <- string0 ar; Ok (Some s, st) else Ok (None, st)
    | AAddr p :: _ => Ok (Some p, st)
    | AExpr e :: _ =>
        do ' (c, ar, st) <- rec env st e;
        match ar with
        | None => Ok (None, st)
        | Some _ =>
            if negb (c =? 0) then Ok (None, st) else
            if negb (alen ar =? 1) then Ok (None, st) else
            do t <- tag0 ar;
            if negb (t =? 115) then Ok (None, st) else
            do s <- string0 ar;
            if hd 0 s =? 47 then Ok (Some s, st) else Ok (None, st)
        end
    | _ => Ok (None, st)
    end;
  match address with
  | None => Ok (1, None, st)
  | Some s => do b <- func (bytes_of st) (b_len st) s true; Ok (0, one_bool b, st)
  end.

(** osc_expr.c:1325-1381 osc_expr_specFunc_getaddresses without argument. *)
Definition ev_addresses (st : bst) (args : list (arg atom)) : res (Z * arr * bst) :=
  match args with
  | [] =>
      let buf := bytes_of st in
      do r <- bundle_loop buf 0 (b_len st) (fun n _ => Ok (@Cont Z unit (n + 1))) 0;
      do n <- match r with Cont n => Ok n | Done _ => Ub NullDeref end;
      do out <- aalloc n;
      do r <- bundle_loop buf 0 (b_len st) (fun (s : Z * arr) m =>
                let (n, out) := s in
                match ms_address m with
                | None => Ok (Cont (n + 1, out))
                | Some p =>
                    do a <- rdstr buf p;
                    do out <- aput out n (fun x => Ok (set_string x 0 a));
                    Ok (@Cont _ unit (n + 1, out))
                end) (0, out);
      match r with Cont (_, out) => Ok (0, out, st) | Done _ => Ub NullDeref end
  | _ => Fuel
  end.

(** osc_expr.c:1383-1412 osc_expr_specFunc_delete. *)
Definition delete_one (st : bst) (s : list Z) : res bst :=
  do ' (len, b) <- remove_message s (b_len st) (bytes_of st);
  Ok (Bst len (Some b) (b_moves st)).
Fixpoint delete_all (st : bst) (args : list (arg atom)) : res bst :=
  match args with
  | [] => Ok st
  | a :: args' =>
      do st <- match a with
               | AAddr p => delete_one st p
               | AAtom x => if a_tt x =? 115 then do s <- string_in x; delete_one st s else Ok st
               | _ => Ok st
               end;
      delete_all st args'
  end.
Definition ev_delete (st : bst) (args : list (arg atom)) : res (Z * arr * bst) :=
  match args with
  | [] => Ok (1, None, st)
  | _ => do st <- delete_all st args; Ok (0, None, st)
  end.

(** osc_expr.c:1414-1434 osc_expr_specFunc_getmsgcount. *)
Definition ev_count (st : bst) : res (Z * arr * bst) :=
  do r <- bundle_loop (bytes_of st) 0 (b_len st) (fun n _ => Ok (@Cont Z unit (n + 1))) 0;
  match r with
  | Cont n => Ok (0, Some [set_int32 atom_fresh n], st)
  | Done _ => Ub NullDeref
  end.

(** osc_expr.c:1460-1482: all arguments of a message by number. *)
Fixpoint fetch_args (buf : bytes) (m : msg_s) (k : nat) (i : Z) (out : arr) : res arr :=
  match k with
  | O => Ok out
  | S k' =>
      do a <- get_arg buf m i;
      match a with
      | None => Ub Uninit
      | Some a =>
          do x <- deser_atom (deser_bundle (S (length buf)) buf) buf a;
          do out <- aput out i (fun _ => Ok x);
          fetch_args buf m k' (i + 1) out
      end
  end.
(** osc_expr.c:1436-1492 osc_expr_specFunc_value. *)
Definition ev_value (env : lexenv) (st : bst) (args : list (arg atom)) : res (Z * arr * bst) :=
  do ' (c, ar, st) <- eval_opt env st (nth_error args 0);
  if c =? UNBOUND then Ok (c, None, st) else
  do t <- tag0 ar;
  if negb (t =? 115) then Ok (0, None, st) else
  do s <- string0 ar;
  let buf := bytes_of st in
  do r <- lookup_address buf (b_len st) s true;
  match r with
  | None => Ok (0, None, st)
  | Some ms =>
      do m <- rd ms 0;
      do n <- get_arg_count buf m;
      do out <- aalloc n;
      do out <- fetch_args buf m (Z.to_nat n) 0 out;
      Ok (0, out, st)
  end.

(** osc_expr.c:1494-1517 osc_expr_specFunc_quote. *)
Definition ev_quote (st : bst) (args : list (arg atom)) : res (Z * arr * bst) :=
  match args with
  | [] => Ub NullDeref
  | AAtom x :: _ => do y <- copy_atom x; Ok (0, Some [y], st)
  | _ => Ok (0, None, st)
  end.

(** osc_expr.c:1700-1711 and 1713-1737, the time tag of the bundle. *)
Definition ev_get_time (st : bst) : res (Z * arr * bst) :=
  do t <- bundle_get_timetag (b_len st) (bytes_of st);
  Ok (0, Some [set_timetag atom_fresh t], st).
Definition ev_set_time (env : lexenv) (st : bst) (args : list (arg atom)) : res (Z * arr * bst) :=
  do ' (c, ar, st) <- eval_opt env st (nth_error args 0);
  if negb (c =? 0) then Ok (1, None, st) else
  do x <- aget ar 0;
  match x with
  | None => Ok (1, None, st)
  | Some x =>
      do b <- bundle_set_timetag (b_len st) (bytes_of st) (au_timetag x);
      Ok (0, None, Bst (b_len st) (option_map (fun _ => b) (b_buf st)) (b_moves st))
  end.

(** osc_expr.c:2899-2955 osc_expr_specFunc_andalso and 2957-3013
    osc_expr_specFunc_orelse; [stop] is the type tag that decides without the
    second argument. *)
Definition ev_shortcut (stop : Z) (env : lexenv) (st : bst) (args : list (arg atom)) : res (Z * arr * bst) :=
  match args with
  | [a; b] =>
      do ' (c, l, st) <- eval_arg env st a;
      match l with
      | None => Ok (c, None, st)
      | Some _ =>
          if negb (c =? 0) then Ok (c, None, st) else
          do t <- tag0 l;
          if negb ((t =? 84) || (t =? 70)) then Ok (1, None, st)
          else if t =? stop then Ok (0, one_bool (t =? 84), st)
          else
            do ' (c, r, st) <- eval_arg env st b;
            match r with
            | None => Ok (c, None, st)
            | Some _ =>
                if negb (c =? 0) then Ok (c, None, st) else
                do t <- tag0 r;
                if negb ((t =? 84) || (t =? 70)) then Ok (1, None, st)
                else Ok (0, one_bool (negb (t =? 70)), st)
            end
      end
  | _ => Ok (1, None, st)
  end.

(** osc_expr.c:113-213 osc_expr_evalInLexEnv. *)
Definition ev_expr (env : lexenv) (st : bst) (e : expr atom) : res (Z * arr * bst) :=
  match e with
  | Ex f args =>
      match f with
      | FApply => ev_apply env st args
      | FMap => ev_map env st args
      | FLreduce => ev_reduce false env st args
      | FRreduce => ev_reduce true env st args
      | FAssign => ev_assign env st args
      | FAssignIndex => ev_assign_index env st args
      | FIf => ev_if env st args
      | FEmpty => ev_empty st args
      | FBound => ev_exists address_is_bound env st args
      | FExists => ev_exists address_exists env st args
      | FAddresses => ev_addresses st args
      | FDelete => ev_delete st args
      | FCount => ev_count st
      | FValue => ev_value env st args
      | FQuote => ev_quote st args
      | FGetTime => ev_get_time st
      | FSetTime => ev_set_time env st args
      | FAndalso => ev_shortcut 70 env st args
      | FOrelse => ev_shortcut 84 env st args
      | FCall name => ev_call env st name args
      end
  end.

End Evaluator.

(** Recursion is bounded by [fuel]. *)
Fixpoint eval_in table plain fresh (fuel : nat) (env : lexenv) (st : bst) (e : expr atom) {struct fuel} :
  res (Z * arr * bst) :=
  match fuel with
  | O => Fuel
  | S k => ev_expr table plain fresh (eval_in table plain fresh k) env st e
  end.

(** osc_expr.c:107-111 osc_expr_eval. *)
Definition osc_expr_eval table plain fresh (fuel : nat) (st : bst) (e : expr atom) : res (Z * arr * bst) :=
  eval_in table plain fresh fuel None st e.
