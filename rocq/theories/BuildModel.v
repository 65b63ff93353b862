(** Building messages argument by argument: the typed functions of osc_message_u.c and
    the iterator of osc_message_iterator_u.c, on the heap of HeapModel.v. *)

From Coq Require Import ZArith List Bool.
From Verif Require Import Base SerialModel TimetagModel WireModel FnCastModel HeapModel.
Import ListNotations.
Open Scope Z_scope.

(** The value a typed function is called with.  [ptr] is the address of the copy. *)
Inductive typed :=
| GInt8 (v : Z) | GInt16 (v : Z) | GInt32 (v : Z) | GInt64 (v : Z)
| GUInt8 (v : Z) | GUInt16 (v : Z) | GUInt32 (v : Z) | GUInt64 (v : Z)
| GFloat (bits : Z) | GDouble (bits : Z)
| GStringPtr (ptr : Z) (s : list Z) | GString (ptr : Z) (s : list Z)
| GBool (v : Z) | GTrue | GFalse | GNil
| GBndl (len : Z) (b : bytes) | GBndl_s (len : Z) (b : bytes) | GBndl_u (ptr : Z) (ms : list umsg)
| GTimetag (t : timetag) | GBlob (ptr : Z) (b : bytes).

(** The atom: osc_atom_u_alloc and the setter.
    osc_message_u.c:338-505 (append), 507-674 (prepend) and 676-843 (insert) differ only
    in where the atom goes.  insertStringPtr (756) copies the string as insertString
    does; who owns the bytes is not modelled. *)
Definition typed_atom (t : typed) : res atom :=
  let a := atom_fresh in
  match t with
  | GInt8 v => Ok (set_int8 a v)                  (* 338, 507, 676 *)
  | GInt16 v => Ok (set_int16 a v)                (* 346, 515, 684 *)
  | GInt32 v => Ok (set_int32 a v)                (* 354, 523, 692 *)
  | GInt64 v => Ok (set_int64 a v)                (* 362, 531, 700 *)
  | GUInt8 v => Ok (set_uint8 a v)                (* 370, 539, 708 *)
  | GUInt16 v => Ok (set_uint16 a v)              (* 378, 547, 716 *)
  | GUInt32 v => Ok (set_uint32 a v)              (* 386, 555, 724 *)
  | GUInt64 v => Ok (set_uint64 a v)              (* 394, 563, 732 *)
  | GFloat v => Ok (set_float a v)                (* 402, 571, 740 *)
  | GDouble v => Ok (set_double a v)              (* 410, 579, 748 *)
  | GStringPtr ptr s => Ok (set_string a ptr s)   (* 418, 587, 756 *)
  | GString ptr s => Ok (set_string a ptr s)      (* 426, 595, 764 *)
  | GBool v => Ok (if v =? 0 then set_false a else set_true a)  (* 437, 606, 775 *)
  | GTrue => Ok (set_true a)                      (* 446, 615, 784 *)
  | GFalse => Ok (set_false a)                    (* 454, 623, 792 *)
  | GNil => Ok (set_nil a)                        (* 462, 631, 800 *)
  | GBndl len b | GBndl_s len b => set_bndl_s a b len  (* 470-481, 639-650, 808-819 *)
  | GBndl_u ptr ms => Ok (set_bndl a ptr ms)      (* 483, 652, 821 *)
  | GTimetag t => Ok (set_timetag a t)            (* 491, 660, 829 *)
  | GBlob ptr b => set_blob a ptr b 0             (* 499, 668, 837 *)
  end.

(** Where it goes.  [front] is as in [insert_atom]. *)
Inductive place := AtEnd | AtFront | At (front : bool) (pos : Z).
(** A call of one of the functions; malloc returned [loc] for the atom. *)
Inductive call := Put (loc : Z) (p : place) (t : typed).

Definition put (h : heap atom) (m : ends) (c : call) : res (heap atom * ends) :=
  match c with
  | Put l p t =>
      do a <- typed_atom t;
      let h := elem_alloc h l a in
      match p with
      | AtEnd => append_atom h m l
      | AtFront => prepend_atom h m l
      | At front pos => insert_atom front h m l pos
      end
  end.
Fixpoint puts (h : heap atom) (m : ends) (l : list call) : res (heap atom * ends) :=
  match l with
  | [] => Ok (h, m)
  | c :: l' => do ' (h, m) <- put h m c; puts h m l'
  end.

(** osc_message_u.c:69-75 osc_message_u_initMsg: a message without arguments. *)
Definition no_args : ends := Ends None None 0.

(** osc_message_iterator_u.c:35-63: the loop [while(hasNext(it)){ a = next(it); ... }];
    [p] is the [next] link of the atom the iterator is at. *)
Fixpoint iterate (k : nat) (h : heap atom) (p : ptr) : res (list atom) :=
  match p with
  | None => Ok []
  | Some _ =>
      match k with
      | O => Fuel
      | S k' => do n <- get h p; do l <- iterate k' h (n_next n); Ok (n_val n :: l)
      end
  end.

(** osc_message_u.c:1200-1207 osc_message_u_allocWithAddress and, with one typed function
    appended, 1209-1270 osc_message_u_allocWithFloat, allocWithString, allocWithTimetag,
    allocWithBlob, allocWithDouble and allocWithInt. *)
Definition alloc_with (h : heap atom) (loc : Z) (t : typed) : res (heap atom * ends) :=
  put h no_args (Put loc AtEnd t).

(** osc_message_u.c:1172-1185 osc_message_u_getArgArrayCopy: what the atoms of the array
    hold; a copy holds the same. *)
Definition arg_array (h : heap atom) (m : ends) : res (list atom) := iterate (Z.to_nat (e_count m)) h (e_head m).
(** osc_message_u.c:1187-1198 osc_message_u_setArgArrayCopy: copies are appended; the
    arguments that are there stay.  malloc returned [locs]. *)
Fixpoint set_arg_array (h : heap atom) (m : ends) (l : list (Z * atom)) : res (heap atom * ends) :=
  match l with
  | [] => Ok (h, m)
  | (loc, a) :: l' => do ' (h, m) <- append_atom (elem_alloc h loc a) m loc; set_arg_array h m l'
  end.

(** A message in the heap as the value the serializer works on: it goes through the
    arguments with the iterator, osc_message_u.c:978-1028. *)
Definition message_of (address : list Z) (h : heap atom) (m : ends) : res umsg :=
  do l <- arg_array h m; Ok (UMsg (Some address) l).
