(** Model of the memory of bundle objects: what osc_atom_u_free, osc_message_u_free,
    osc_message_u_clearArgs, osc_bundle_u_free and osc_bundle_u_clear give back, and what
    osc_atom_u_copy, osc_message_u_deepCopy and osc_bundle_u_replaceMessage take.

    Memory is a map from addresses to blocks; NULL is 0.  malloc gives an address that was
    never given before, so that every use of a block that was freed is seen.  The [prev]
    pointers are written but not read by these functions and are left out; the links
    themselves are in HeapModel.v and BundleUModel.v. *)

From Coq Require Import ZArith List Bool.
From Verif Require Import Base SerialModel BundleSModel.
Import ListNotations.
Open Scope Z_scope.

(** osc_bundle_u.r: msgcount, msghead, msgtail; osc_message_u.r: address, argc, arghead,
    argtail, next ([size] is left out); osc_atom_u.r: typetag, w, next; the characters of a
    string and the bytes of a blob.  [w] is a pointer or the bits of a number. *)
Inductive cell : Type :=
| HBundle (count head tail : Z)
| HMsg (address argc head tail next : Z)
| HAtom (tag w next : Z)
| HText (t : list Z)
| HBlob (b : list Z).
Definition mem := ((Z -> option cell) * Z)%type.

Definition upd (h : Z -> option cell) (l : Z) (c : option cell) : Z -> option cell := fun x => if x =? l then c else h x.
Definition alloc (s : mem) (c : cell) : Z * mem := (snd s, (upd (fst s) (snd s) (Some c), snd s + 1)).
Definition fetch (s : mem) (l : Z) : res cell :=
  if l =? 0 then Ub NullDeref else match fst s l with Some c => Ok c | None => Ub Dangling end.
Definition put_cell (s : mem) (l : Z) (c : cell) : res mem := do _ <- fetch s l; Ok (upd (fst s) l (Some c), snd s).
(** osc_mem_free; free(NULL) does nothing. *)
Definition drop (s : mem) (l : Z) : res mem :=
  if l =? 0 then Ok s else do _ <- fetch s l; Ok (upd (fst s) l None, snd s).

(** Blocks of the wrong type are not met. *)
Definition get_atom (s : mem) (l : Z) : res (Z * Z * Z) :=
  do c <- fetch s l; match c with HAtom t w x => Ok (t, w, x) | _ => Ub Uninit end.
Definition get_msg (s : mem) (l : Z) : res (Z * Z * Z * Z * Z) :=
  do c <- fetch s l; match c with HMsg a c h t x => Ok (a, c, h, t, x) | _ => Ub Uninit end.
Definition get_bundle (s : mem) (l : Z) : res (Z * Z * Z) :=
  do c <- fetch s l; match c with HBundle c h t => Ok (c, h, t) | _ => Ub Uninit end.
Definition get_text (s : mem) (l : Z) : res (list Z) :=
  do c <- fetch s l; match c with HText t => Ok t | _ => Ub Uninit end.
Definition get_blob (s : mem) (l : Z) : res (list Z) :=
  do c <- fetch s l; match c with HBlob b => Ok b | _ => Ub Uninit end.

(** * Freeing *)
(** osc_atom_u.c:50-71 osc_atom_u_free. *)
Fixpoint atom_free (fuel : nat) (s : mem) (a : Z) {struct fuel} : res mem :=
  match fuel with
  | O => Fuel
  | S f =>
      if a =? 0 then Ok s else
      do ' (t, w, _) <- get_atom s a;
      do s <- (if t =? 115 then drop s w
               else if t =? 46 then bundle_free f s w
               else if t =? 98 then drop s w
               else Ok s);
      drop s a
  end
(** osc_message_u.c:60-65 and 85-90: the loop over the arguments. *)
with args_free (fuel : nat) (s : mem) (a : Z) {struct fuel} : res mem :=
  match fuel with
  | O => Fuel
  | S f =>
      if a =? 0 then Ok s else
      do ' (_, _, next) <- get_atom s a;
      do s <- atom_free f s a;
      args_free f s next
  end
(** osc_message_u.c:52-67 osc_message_u_free. *)
with msg_free (fuel : nat) (s : mem) (m : Z) {struct fuel} : res mem :=
  match fuel with
  | O => Fuel
  | S f =>
      if m =? 0 then Ok s else
      do ' (address, _, head, _, _) <- get_msg s m;
      do s <- drop s address;
      do s <- args_free f s head;
      drop s m
  end
(** osc_bundle_u.c:58-63 and 74-79: the loop over the messages. *)
with msgs_free (fuel : nat) (s : mem) (m : Z) {struct fuel} : res mem :=
  match fuel with
  | O => Fuel
  | S f =>
      if m =? 0 then Ok s else
      do ' (_, _, _, _, next) <- get_msg s m;
      do s <- msg_free f s m;
      msgs_free f s next
  end
(** osc_bundle_u.c:53-65 osc_bundle_u_free. *)
with bundle_free (fuel : nat) (s : mem) (b : Z) {struct fuel} : res mem :=
  match fuel with
  | O => Fuel
  | S f =>
      if b =? 0 then Ok s else
      do ' (_, head, _) <- get_bundle s b;
      do s <- msgs_free f s head;
      drop s b
  end.
(** osc_bundle_u.c:67-82 osc_bundle_u_clear. *)
Definition bundle_clear (fuel : nat) (s : mem) (b : Z) : res mem :=
  if b =? 0 then Ok s else
  do ' (_, head, _) <- get_bundle s b;
  do s <- msgs_free fuel s head;
  put_cell s b (HBundle 0 0 0).
(** osc_message_u.c:77-92 osc_message_u_clearArgs. *)
Definition clear_args (fuel : nat) (s : mem) (m : Z) : res mem :=
  if m =? 0 then Ok s else
  do ' (address, _, head, _, next) <- get_msg s m;
  do s <- args_free fuel s head;
  put_cell s m (HMsg address 0 0 0 next).

(** * Copying *)
Section Copy.
(** osc_bundle_u.c:83-89 osc_bundle_u_copy goes by way of the bytes (SerialModel.v,
    FlattenModel.v); what it makes of memory is left open. *)
Context (bundle_copy : mem -> Z -> res (Z * mem)).

(** osc_atom_u.c:73-116 osc_atom_u_copy.  The memory of a string or a blob is as long as it
    is in the original. *)
Definition atom_copy (s : mem) (a : Z) : res (Z * mem) :=
  if a =? 0 then Ok (0, s) else
  do ' (t, w, _) <- get_atom s a;
  let '(d, s) := alloc s (HAtom t 0 0) in
  do ' (w, s) <- (if t =? 115 then do x <- get_text s w; Ok (alloc s (HText x))
                  else if t =? 46 then bundle_copy s w
                  else if t =? 98 then do x <- get_blob s w; Ok (alloc s (HBlob x))
                  else Ok (w, s));
  do s <- put_cell s d (HAtom t w 0);
  Ok (d, s).
(** osc_message_u.c:245-259 osc_message_u_appendAtom. *)
Definition append_atom (s : mem) (m a : Z) : res mem :=
  do ' (address, argc, head, tail, next) <- get_msg s m;
  do ' (t, w, _) <- get_atom s a;
  do s <- put_cell s a (HAtom t w 0);
  if head =? 0 then put_cell s m (HMsg address (argc + 1) a a next) else
  do ' (t, w, _) <- get_atom s tail;
  do s <- put_cell s tail (HAtom t w a);
  put_cell s m (HMsg address (argc + 1) head a next).
(** osc_message_u.c:122-126: the loop over the arguments of the original. *)
Fixpoint copy_args (fuel : nat) (s : mem) (m a : Z) : res mem :=
  match fuel with
  | O => Fuel
  | S f =>
      if a =? 0 then Ok s else
      do ' (_, _, next) <- get_atom s a;
      do ' (d, s) <- atom_copy s a;
      do s <- append_atom s m d;
      copy_args f s m next
  end.
(** osc_message_u.c:105-131 osc_message_u_deepCopy, for [src] not NULL: the address of the
    copy. *)
Definition deep_copy (fuel : nat) (s : mem) (dest src : Z) : res (Z * mem) :=
  let '(dest, s) := if dest =? 0 then alloc s (HMsg 0 0 0 0 0) else (dest, s) in
  do ' (from, _, head, _, _) <- get_msg s src;
  do ' (old, _, _, _, next) <- get_msg s dest;
  do ' (address, s) <- (if from =? 0 then Ok (old, s) else do x <- get_text s from; Ok (alloc s (HText x)));
  do s <- put_cell s dest (HMsg address 0 0 0 next);
  do s <- copy_args fuel s dest head;
  do ' (address, argc, head, tail, _) <- get_msg s dest;
  do s <- put_cell s dest (HMsg address argc head tail 0);
  Ok (dest, s).

(** osc_bundle_u.c:274-301, the loop of osc_bundle_u_replaceMessage, for a message [msg] with
    address [address]: None if no message has the address (then [msg] is added). *)
Fixpoint replace_loop (fuel : nat) (s : mem) (m msg : Z) (address : list Z) : res (option mem) :=
  match fuel with
  | O => Fuel
  | S f =>
      if m =? 0 then Ok None else
      do ' (a, _, _, _, next) <- get_msg s m;
      do t <- get_text s a;
      if streq address t then
        do s <- clear_args f s m;
        do ' (_, s) <- deep_copy f s m msg;
        do ' (a, argc, head, tail, _) <- get_msg s m;
        do s <- put_cell s m (HMsg a argc head tail next);
        do s <- msg_free f s msg;
        Ok (Some s)
      else replace_loop f s next msg address
  end.
Definition replace (fuel : nat) (s : mem) (b msg : Z) : res (option mem) :=
  do ' (a, _, _, _, _) <- get_msg s msg;
  if a =? 0 then Ok None else
  do address <- get_text s a;
  do ' (_, head, _) <- get_bundle s b;
  replace_loop fuel s head msg address.
End Copy.
