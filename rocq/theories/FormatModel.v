(** Formatting atoms, messages and bundles as text. *)

From Coq Require Import ZArith List Bool.
From Verif Require Import Base Text Bytes UtilModel SerialModel WireModel StrfmtModel ExprModel.
Import ListNotations.
Open Scope Z_scope.

(** The formatting functions take a destination and return the number of
    characters.  The destination is NULL, then they only count, or the position
    [pos] of a block, of which the caller says that [n] bytes may be used. *)
Definition printer := option bytes -> Z -> Z -> res (option bytes * Z).

(** [snprintf(buf + offset, n - offset, ...)] of a given text; the difference,
    a long, is converted to size_t. *)
Definition put (text : list Z) : printer := fun buf pos n =>
  match buf with
  | None => Ok (None, zlen text)
  | Some b => do b <- snprintf b pos (u64 n) text; Ok (Some b, zlen text)
  end.

(** [offset += f(buf + offset, n - offset, ...)]; with NULL, [n] is 0 at every
    call and not looked at. *)
Definition step (pos n : Z) (f : printer) (s : option bytes * Z) : res (option bytes * Z) :=
  let (b, o) := s in
  do ' (b, k) <- f b (pos + o) (n - o);
  Ok (b, o + k).

(** A call of a function that is given the address of its destination: the
    bytes from there on. *)
Definition at_pos (f : option bytes -> Z -> res (option bytes * Z)) : printer := fun buf pos n =>
  match buf with
  | None => f None n
  | Some b =>
      if (pos <? 0) || (zlen b <? pos) then Ub OOB else
      do ' (c, k) <- f (Some (skipn (Z.to_nat pos) b)) n;
      match c with
      | Some c => Ok (Some (firstn (Z.to_nat pos) b ++ c), k)
      | None => Ub NullDeref
      end
  end.

(** [while(hasNext(it)){ x = next(it); offset += f(x); if(hasNext(it)) offset += sep; }];
    [cond] is what the loop tests besides. *)
Definition joined {X} (cond : option bytes * Z -> bool) (pos n : Z) (sep : printer) (f : X -> printer) :
  list X -> option bytes * Z -> res (option bytes * Z) :=
  fix loop l s :=
    match l with
    | [] => Ok s
    | x :: l' =>
        if negb (cond s) then Ok s else
        do s <- step pos n (f x) s;
        match l' with
        | [] => Ok s
        | _ :: _ => do s <- step pos n sep s; loop l' s
        end
    end.

(** The local array [tabs]: osc.h:66 OSC_SUBBUNDLE_INDENT is 2. *)
Definition tabs (nindent : Z) : res (list Z) :=
  do k <- checked 32 (nindent * 2); Ok (repeat 32 (Z.to_nat k)).

(** What a message begins with: osc_message_u.c:1067-1087, osc_message_s.c:306-328. *)
Definition msg_head (tabs address : list Z) (numargs : Z) : list Z :=
  if negb (numargs =? 0) then
    if 1 <? numargs then tabs ++ address ++ str " : [" else tabs ++ address ++ str " : "
  else tabs ++ address.
Definition msg_tail (numargs : Z) : printer := fun buf pos n =>
  if 1 <? numargs then put (str "]") buf pos n else Ok (buf, 0).

(** The texts of floats, doubles and time tags are not modelled: [rt tag bits].
    A time tag's bits are seconds and fraction, seconds first. *)
Section Format.
Context (rt : Z -> Z -> list Z).
(** Uninitialised local arrays and allocated blocks. *)
Context (junk : bytes).

Definition rt_u (a : atom) : list Z :=
  match a with
  | Atom tg w _ =>
      if tg =? 102 then rt tg (u32 w)
      else if tg =? 116 then rt tg (u32 w * 2^32 + u32 (w / 2^32))
      else rt tg (u64 w)
  end.

(** * Objects *)

(** osc_atom_u.c:1453-1492 osc_atom_u_nformat with osc_bundle_u.c:684-709
    osc_bundle_u_nformatNestedBndl and osc_bundle_u.c:658-682
    osc_bundle_u_nformat, osc_message_u.c:1063-1118 osc_message_u_nformat. *)
Fixpoint fmt_atom_u (nindent : Z) (a : atom) (buf : option bytes) (pos n : Z) : res (option bytes * Z) :=
  match a with
  | Atom tg w p =>
      if tg =? 46 then
        do nindent <- checked 32 (nindent + 1);
        match p with
        | PBndl ms =>
            if nindent <? 1 then Ok (buf, 0) else
            do t <- tabs (nindent - 1);
            do s <- step pos n (put (str "{" ++ [10])) (buf, 0);
            do s <- step pos n (fun buf pos n =>
                      match ms with
                      | [] => Ok (buf, 0)
                      | _ :: _ =>
                          joined (fun s => match fst s with None => true | Some _ => snd s <? n end) pos n
                            (put ([44; 10])) (fun m => fmt_msg_u nindent m) ms (buf, 0)
                      end) s;
            step pos n (put ([10] ++ t ++ str "}")) s
        | _ => Ok (buf, 0)
        end
      else if tg =? 115 then
        match p with
        | PStr s => at_pos (fun b n => quoted_string_with_quoted_meta junk b n s) buf pos n
        | _ => Ub NullDeref
        end
      else at_pos (fun b n => match b with
                              | None => do k <- au_string_len rt_u a; Ok (None, k)
                              | Some b => do ' (b, k) <- au_string rt_u junk a (u64 n) (Some b); Ok (Some b, k)
                              end) buf pos n
  end
with fmt_msg_u (nindent : Z) (m : umsg) (buf : option bytes) (pos n : Z) : res (option bytes * Z) :=
  match m with
  | UMsg address args =>
      do t <- tabs nindent;
      match address with
      | None => Ub NullDeref
      | Some address =>
          let numargs := zlen args in
          do s <- step pos n (put (msg_head t address numargs)) (buf, 0);
          do s <- joined always pos n (put (str ", ")) (fun a => fmt_atom_u nindent a) args s;
          step pos n (msg_tail numargs) s
      end
  end.

(** osc_bundle_u.c:658-682 osc_bundle_u_nformat. *)
Definition fmt_bundle_u (nindent : Z) (ms : list umsg) : printer := fun buf pos n =>
  match ms with
  | [] => Ok (buf, 0)
  | _ :: _ =>
      joined (fun s => match fst s with None => true | Some _ => snd s <? n end) pos n
        (put ([44; 10])) (fun m => fmt_msg_u nindent m) ms (buf, 0)
  end.

(** osc_atom_u.c:1458-1469 osc_atom_u_format, osc_message_u.c:1050-1061
    osc_message_u_format, osc_bundle_u.c:647-656 osc_bundle_u_format and their
    serialized counterparts osc_atom_s.c:1023-1032, osc_message_s.c:291-300,
    osc_bundle_s.c:611-620: ask for the size, allocate one byte more and print. *)
Definition format_with (f : printer) : res bytes :=
  do ' (_, k) <- f None 0 0;
  let len := k + 1 in
  let b := firstn (Z.to_nat len) (junk ++ repeat 170 (Z.to_nat len)) in
  do ' (b, _) <- f (Some b) 0 len;
  match b with Some b => Ok b | None => Ub NullDeref end.

(** osc_atom_u.c:1453-1456, osc_message_u.c:1045-1048, osc_bundle_u.c:642-645,
    osc_atom_s.c:1018-1021, osc_message_s.c:286-289, osc_bundle_s.c:606-609:
    getFormattedSize. *)
Definition formatted_size (f : printer) : res Z := do ' (_, k) <- f None 0 0; Ok k.

Definition atom_u_format (a : atom) : res bytes := format_with (fmt_atom_u 0 a).
Definition msg_u_format (m : umsg) : res bytes := format_with (fmt_msg_u 0 m).
Definition bundle_u_format (ms : list umsg) : res bytes := format_with (fmt_bundle_u 0 ms).

(** * Serialized data *)

(** osc_atom_s.c:1034-1059 osc_atom_s_nformat; [rec] is
    osc_bundle_s_nformatNestedBndl. *)
Definition fmt_atom_s (rec : Z -> Z -> Z -> printer) (src : bytes) (nindent : Z) (a : atom_s) : printer :=
  fun buf pos n =>
  let tg := as_tt a in
  let p := as_data a in
  if tg =? 46 then
    do len <- rd32 src p;
    do nindent <- checked 32 (nindent + 1);
    rec nindent (p + 4) len buf pos n
  else if tg =? 115 then
    do s <- rdstr src p;
    at_pos (fun b n => quoted_string_with_quoted_meta junk b n s) buf pos n
  else at_pos (fun b n => match b with
                          | None => do k <- as_string_len (rt tg) src tg p; Ok (None, k)
                          | Some b => do ' (b, k) <- as_string (rt tg) junk src tg p (u64 n) (Some b); Ok (Some b, k)
                          end) buf pos n.

(** osc_message_s.c:302-371 osc_message_s_nformat.  The iterator is not
    affected by what is printed: its atoms are collected first. *)
Definition fmt_msg_s (rec : Z -> Z -> Z -> printer) (src : bytes) (nindent : Z) (m : msg_s) : printer :=
  fun buf pos n =>
  do numargs <- get_arg_count src m;
  do t <- tabs nindent;
  match ms_address m with
  | None => Ub NullDeref
  | Some p =>
      do address <- rdstr src p;
      do s <- step pos n (put (msg_head t address numargs)) (buf, 0);
      do r <- msg_loop src m (fun acc a => Ok (@Cont _ unit (acc ++ [a]))) [];
      match r with
      | Done _ => Ub NullDeref
      | Cont args =>
          do s <- joined always pos n (put (str ", ")) (fmt_atom_s rec src nindent) args s;
          step pos n (msg_tail numargs) s
      end
  end.

(** osc_bundle_s.c:627-661 osc_bundle_s_nformat of the [len] bytes at [base]. *)
Definition fmt_bundle_body (rec : Z -> Z -> Z -> printer) (src : bytes) (nindent base len : Z) : printer :=
  fun buf pos n =>
  do sub <- slice src base (zlen src - base);
  do ' (e, msgcount) <- get_msg_count len (Some sub);
  if negb (e =? 0) then Ok (buf, 0) else
  if msgcount =? 0 then Ok (buf, 0) else
  do r <- bundle_loop src base len (fun acc m => Ok (@Cont _ unit (acc ++ [m]))) [];
  match r with
  | Done _ => Ub NullDeref
  | Cont ms => joined always pos n (put ([44; 10])) (fmt_msg_s rec src nindent) ms (buf, 0)
  end.

(** osc_bundle_s.c:663-684 osc_bundle_s_nformatNestedBndl; [fuel] bounds the
    nesting depth. *)
Fixpoint fmt_nested_s (fuel : nat) (src : bytes) (nindent base len : Z) (buf : option bytes) (pos n : Z)
  : res (option bytes * Z) :=
  match fuel with
  | O => Fuel
  | S fuel' =>
      if nindent <? 1 then Ok (buf, 0) else
      do t <- tabs (nindent - 1);
      do s <- step pos n (put (str "{" ++ [10])) (buf, 0);
      do s <- step pos n (fmt_bundle_body (fmt_nested_s fuel' src) src nindent base len) s;
      step pos n (put ([10] ++ t ++ str "}")) s
  end.

(** Nesting cannot be deeper than the buffer is long. *)
Definition nested (src : bytes) := fmt_nested_s (S (length src)) src.
Definition fmt_bundle_s (nindent : Z) (src : bytes) (base len : Z) : printer :=
  fmt_bundle_body (nested src) src nindent base len.

Definition atom_s_format (src : bytes) (a : atom_s) : res bytes :=
  format_with (fmt_atom_s (nested src) src 0 a).
Definition msg_s_format (src : bytes) (m : msg_s) : res bytes :=
  format_with (fmt_msg_s (nested src) src 0 m).
(** osc_bundle_s.c:611-625 osc_bundle_s_format and osc_bundle_s_pformat. *)
Definition bundle_s_format (src : bytes) : res bytes :=
  format_with (fmt_bundle_s 0 src 0 (zlen src)).

End Format.
