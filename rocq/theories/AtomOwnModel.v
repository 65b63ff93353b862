(** Model of who owns what an atom object holds: osc_atom_u_clear, osc_atom_u_free and the
    functions that set an atom (osc_atom_u.c:50-71, 118-141, 1010-1258).

    Memory is a map from addresses to blocks; NULL is 0; malloc gives an address that was
    never given before.  A bundle is one block here (its parts are in BundleHeapModel.v), and
    the atom itself is not in the map. *)

From Coq Require Import ZArith List Bool.
From Verif Require Import Base.
Import ListNotations.
Open Scope Z_scope.

Inductive cell : Type := AStr (t : list Z) | ABlob (b : list Z) | ABun.
Definition mem := ((Z -> option cell) * Z)%type.
Definition upd (h : Z -> option cell) (l : Z) (c : option cell) : Z -> option cell := fun x => if x =? l then c else h x.
Definition alloc (s : mem) (c : cell) : Z * mem := (snd s, (upd (fst s) (snd s) (Some c), snd s + 1)).
(** osc_mem_free of a block that is not NULL. *)
Definition drop (s : mem) (l : Z) : res mem :=
  match fst s l with Some _ => Ok (upd (fst s) l None, snd s) | None => Ub Dangling end.
(** osc_bundle_u_free (osc_bundle_u.c:53-65): what it is given must be a bundle. *)
Definition bundle_free (s : mem) (l : Z) : res mem :=
  if l =? 0 then Ok s else
  match fst s l with Some ABun => Ok (upd (fst s) l None, snd s) | Some _ => Ub Uninit | None => Ub Dangling end.

(** osc_atom_u.r: typetag, w (a pointer or the bits of a number) and alloc.  's' is 115, the
    typetag of bundles 46 and 'b' 98. *)
Record atom := At { tag : Z; w : Z; al : bool }.

(** osc_atom_u.c:50-71 osc_atom_u_free. *)
Definition atom_free (s : mem) (a : atom) : res mem :=
  if tag a =? 115 then (if w a =? 0 then Ok s else drop s (w a))
  else if tag a =? 46 then bundle_free s (w a)
  else if tag a =? 98 then (if w a =? 0 then Ok s else drop s (w a))
  else Ok s.
(** osc_atom_u.c:125-141 osc_atom_u_clear. *)
Definition clear (s : mem) (a : atom) : res (mem * atom) :=
  if al a && (tag a =? 115) && negb (w a =? 0) then do s <- drop s (w a); Ok (s, At (tag a) 0 false)
  else if tag a =? 46 then do s <- bundle_free s (w a); Ok (s, At (tag a) 0 false)
  else if al a && (tag a =? 98) && negb (w a =? 0) then do s <- bundle_free s (w a); Ok (s, At (tag a) 0 false)
  else Ok (s, At (tag a) (w a) false).

(** osc_atom_u.c:1010-1108, 1158-1183, 1214-1222: setFloat to setUInt64, setTrue, setFalse,
    setNil and setTimetag clear the atom and set [w] and the typetag ([v] is [w] after that;
    for setTrue, setFalse and setNil it is what clearing leaves). *)
Definition set_num (s : mem) (a : atom) (t v : Z) : res (mem * atom) :=
  do ' (s, a) <- clear s a; Ok (s, At t v (al a)).
(** osc_atom_u.c:1145-1156 osc_atom_u_setBool. *)
Definition set_bool (s : mem) (a : atom) (v : Z) : res (mem * atom) :=
  do ' (s, a) <- clear s a; do ' (s, a) <- clear s a; Ok (s, At (if v =? 0 then 70 else 84) (w a) (al a)).
(** osc_atom_u.c:1110-1133 osc_atom_u_setString, of a string and of NULL; [moves]: whether
    realloc moves the string the atom has.  The string given is not the one it has. *)
Definition set_string (moves : bool) (s : mem) (a : atom) (v : list Z) : res (mem * atom) :=
  if negb (w a =? 0) && (tag a =? 115) && al a then
    do s0 <- drop s (w a);
    if moves then let '(p, s1) := alloc s0 (AStr v) in Ok (s1, At (tag a) p (al a))
    else Ok ((upd (fst s) (w a) (Some (AStr v)), snd s), a)
  else let '(p, s) := alloc s (AStr v) in Ok (s, At 115 p true).
Definition set_string_null (s : mem) (a : atom) : res (mem * atom) :=
  if negb (w a =? 0) && (tag a =? 115) && al a then Ok (s, At (tag a) 0 (al a)) else Ok (s, At (tag a) 0 (al a)).
(** osc_atom_u.c:1135-1143 osc_atom_u_setStringPtr. *)
Definition set_string_ptr (s : mem) (a : atom) (p : Z) : res (mem * atom) :=
  do ' (s, a) <- clear s a; Ok (s, At 115 p (al a)).
(** osc_atom_u.c:1208-1212 osc_atom_u_setBndl_u, of a bundle that was made for it. *)
Definition set_bndl_u (s : mem) (a : atom) : res (mem * atom) :=
  let '(p, s) := alloc s ABun in Ok (s, At 46 p (al a)).
(** osc_atom_u.c:1190-1206 osc_atom_u_setBndl_s. *)
Definition set_bndl_s (s : mem) (a : atom) : res (mem * atom) :=
  do ' (s, a) <- clear s a; set_bndl_u s a.
(** osc_atom_u.c:1224-1240 osc_atom_u_setBlob; [b] is the copy with its padding. *)
Definition set_blob (s : mem) (a : atom) (b : list Z) : res (mem * atom) :=
  do ' (s, a) <- clear s a; let '(p, s) := alloc s (ABlob b) in Ok (s, At 98 p (al a)).
(** osc_atom_u.c:1242-1250 osc_atom_u_setBlobPtr. *)
Definition set_blob_ptr (s : mem) (a : atom) (p : Z) : res (mem * atom) :=
  do ' (s, a) <- clear s a; Ok (s, At 98 p (al a)).
(** osc_atom_u.c:1252-1258 osc_atom_u_setRec. *)
Definition set_rec (s : mem) (a : atom) (r : Z) : res (mem * atom) := Ok (s, At 114 r (al a)).
(** osc_atom_u.c:118-123 osc_atom_u_setShouldFreePtr. *)
Definition set_should_free (a : atom) (b : bool) : atom := At (tag a) (w a) b.

(** A history of calls. *)
Inductive op : Type :=
| ONum (t v : Z) | OBool (v : Z) | OString (moves : bool) (v : list Z) | OStringNull | OStringPtr (p : Z)
| OBundleU | OBundleS | OBlob (b : list Z) | OBlobPtr (p : Z) | ORec (r : Z).
Definition step (s : mem) (a : atom) (o : op) : res (mem * atom) :=
  match o with
  | ONum t v => set_num s a t v
  | OBool v => set_bool s a v
  | OString moves v => set_string moves s a v
  | OStringNull => set_string_null s a
  | OStringPtr p => set_string_ptr s a p
  | OBundleU => set_bndl_u s a
  | OBundleS => set_bndl_s s a
  | OBlob b => set_blob s a b
  | OBlobPtr p => set_blob_ptr s a p
  | ORec r => set_rec s a r
  end.
Fixpoint run (s : mem) (a : atom) (ops : list op) : res (mem * atom) :=
  match ops with [] => Ok (s, a) | o :: ops' => do ' (s, a) <- step s a o; run s a ops' end.
(** osc_atom_u.c:38-43 osc_atom_u_alloc, a history, osc_atom_u_free. *)
Definition lifetime (s : mem) (ops : list op) : res mem :=
  do ' (s, a) <- run s (At 0 0 false) ops; atom_free s a.
