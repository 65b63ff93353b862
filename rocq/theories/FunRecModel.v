(** Model of the records of functions, osc_expr_rec.c: making, filling and
    freeing one, with its memory.

    Memory maps addresses to blocks; address 0 is NULL.  A block is a text, an
    array of pointers to texts, or an array of ints.  The record itself is a
    value here; its own block, the documentation (which has no setter), the
    categories (which are never freed), the function and the extra field are left
    out.  Allocation succeeds and never gives an address twice. *)

From Coq Require Import ZArith List Bool.
From Verif Require Import Base.
Import ListNotations.
Open Scope Z_scope.

Inductive obj := OText (s : list Z) | ONames (ps : list Z) | OTypes (ts : list Z).
Definition mem := Z -> option obj.
(** A store to, or the end of, the block at [a]. *)
Definition upd (m : mem) (a : Z) (o : option obj) : mem := fun b => if b =? a then o else m b.

(** osc_expr_rec.r: the number, names and types of the required or of the
    optional arguments. *)
Record group := Gr { g_num : Z; g_names : Z; g_types : Z }.
(** osc_expr_rec.r struct _osc_expr_rec; with the memory and the next address
    malloc gives. *)
Record frec := Rec { mm : mem; nxt : Z; name : Z; sig : Z; req : group; optl : group }.

(** osc_expr_rec.c:8-13 osc_expr_rec_alloc, in memory where nothing else is. *)
Definition rec_alloc : frec := Rec (fun _ => None) 1 0 0 (Gr 0 0 0) (Gr 0 0 0).

(** osc_expr_rec.c:122-131 osc_expr_rec_setName: the old pointer is overwritten. *)
Definition set_name (r : frec) (s : list Z) : frec :=
  Rec (upd (mm r) (nxt r) (Some (OText s))) (nxt r + 1) (nxt r) (sig r) (req r) (optl r).

(** osc_expr_rec.c:133-142 osc_expr_rec_setSignature. *)
Definition set_signature (r : frec) (s : list Z) : frec :=
  Rec (upd (mm r) (nxt r) (Some (OText s))) (nxt r + 1) (name r) (nxt r) (req r) (optl r).

(** osc_expr_rec.c:157-165, the loop that copies the names: [None] is a NULL. *)
Fixpoint copy_names (m : mem) (n : Z) (names : list (option (list Z))) : mem * Z * list Z :=
  match names with
  | [] => (m, n, [])
  | None :: names => let '(m, n, ps) := copy_names m n names in (m, n, 0 :: ps)
  | Some s :: names =>
      let '(m', n', ps) := copy_names (upd m n (Some (OText s))) (n + 1) names in (m', n', n :: ps)
  end.

(** osc_expr_rec.c:144-173 osc_expr_rec_setArgs, [names] having as many members
    as num_args says: nothing at all happens without names; without types the old
    ones stay.  The array is filled at the end here. *)
Definition set_args (m : mem) (n : Z) (g : group) (names : option (list (option (list Z)))) (types : option (list Z))
  : mem * Z * group :=
  match names with
  | None => (m, n, g)
  | Some names =>
      let a := n in
      let '(m, n, ps) := copy_names (upd m a (Some (ONames []))) (n + 1) names in
      let m := upd m a (Some (ONames ps)) in
      match types with
      | None => (m, n, Gr (zlen names) a (g_types g))
      | Some ts => (upd m n (Some (OTypes ts)), n + 1, Gr (zlen names) a n)
      end
  end.

(** osc_expr_rec.c:175-186 osc_expr_rec_setRequiredArgs, 188-199
    osc_expr_rec_setOptionalArgs. *)
Definition set_required (r : frec) names types : frec :=
  let '(m, n, g) := set_args (mm r) (nxt r) (req r) names types in Rec m n (name r) (sig r) g (optl r).
Definition set_optional (r : frec) names types : frec :=
  let '(m, n, g) := set_args (mm r) (nxt r) (optl r) names types in Rec m n (name r) (sig r) (req r) g.

(** osc_mem_free of a pointer, if it is not NULL: a block that is not there any
    more is a double free. *)
Definition free_opt (m : mem) (p : Z) : res mem :=
  if p =? 0 then Ok m else match m p with Some _ => Ok (upd m p None) | None => Ub Dangling end.

(** osc_expr_rec.c:27-31, 35-39, the loop over the first [k] names. *)
Fixpoint free_names (k : nat) (m : mem) (ps : list Z) : res mem :=
  match k with
  | O => Ok m
  | S k => match ps with [] => Ub OOB | p :: ps => do m <- free_opt m p; free_names k m ps end
  end.

(** osc_expr_rec.c:26-33, 34-41: the names of a group. *)
Definition free_group (m : mem) (g : group) : res mem :=
  if g_names g =? 0 then Ok m else
  match m (g_names g) with
  | Some (ONames ps) => do m <- free_names (Z.to_nat (g_num g)) m ps; free_opt m (g_names g)
  | _ => Ub Dangling
  end.

(** osc_expr_rec.c:15-65 osc_expr_rec_free: the memory afterwards. *)
Definition rec_free (r : frec) : res mem :=
  do m <- free_opt (mm r) (name r);
  do m <- free_opt m (sig r);
  do m <- free_group m (req r);
  do m <- free_group m (optl r);
  do m <- free_opt m (g_types (req r));
  free_opt m (g_types (optl r)).

(** What a user reads at a pointer a getter gave: nothing if it is NULL; a block
    that is not there, or of another kind, is undefined. *)
Definition read_text (m : mem) (p : Z) : res (option (list Z)) :=
  if p =? 0 then Ok None else match m p with Some (OText s) => Ok (Some s) | _ => Ub Dangling end.
Definition read_types (m : mem) (p : Z) : res (option (list Z)) :=
  if p =? 0 then Ok None else match m p with Some (OTypes ts) => Ok (Some ts) | _ => Ub Dangling end.
Fixpoint read_texts (k : nat) (m : mem) (ps : list Z) : res (list (option (list Z))) :=
  match k with
  | O => Ok []
  | S k => match ps with
           | [] => Ub OOB
           | p :: ps => do s <- read_text m p; do ss <- read_texts k m ps; Ok (s :: ss)
           end
  end.
Definition read_names (m : mem) (g : group) : res (option (list (option (list Z)))) :=
  if g_names g =? 0 then Ok None else
  match m (g_names g) with
  | Some (ONames ps) => do ss <- read_texts (Z.to_nat (g_num g)) m ps; Ok (Some ss)
  | _ => Ub Dangling
  end.

(** osc_expr_rec.c:218-224 osc_expr_rec_getName, 226-232 getSignature, 234-240
    getNumRequiredArgs, 242-248 getNumOptionalArgs, 250-256
    getRequiredArgsNames, 258-264 getOptionalArgsNames, 266-272
    getRequiredArgsTypes, 274-280 getOptionalArgsTypes; of the arrays of names a
    user reads as many members as the number says. *)
Definition get_name (r : frec) := read_text (mm r) (name r).
Definition get_signature (r : frec) := read_text (mm r) (sig r).
Definition get_num_required (r : frec) : Z := g_num (req r).
Definition get_num_optional (r : frec) : Z := g_num (optl r).
Definition get_required_names (r : frec) := read_names (mm r) (req r).
Definition get_optional_names (r : frec) := read_names (mm r) (optl r).
Definition get_required_types (r : frec) := read_types (mm r) (g_types (req r)).
Definition get_optional_types (r : frec) := read_types (mm r) (g_types (optl r)).

(** The calls of a user, osc_expr_rec.c:122-199, and a history of them. *)
Inductive setting :=
| Name (s : list Z)
| Signature (s : list Z)
| Required (names : option (list (option (list Z)))) (types : option (list Z))
| Optional (names : option (list (option (list Z)))) (types : option (list Z)).

Definition do_setting (r : frec) (c : setting) : frec :=
  match c with
  | Name s => set_name r s
  | Signature s => set_signature r s
  | Required n t => set_required r n t
  | Optional n t => set_optional r n t
  end.

Fixpoint run (r : frec) (cs : list setting) : frec :=
  match cs with [] => r | c :: cs => run (do_setting r c) cs end.
