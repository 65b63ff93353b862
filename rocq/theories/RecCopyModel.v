(** Model of osc_expr_rec_copy, into a new record.

    Simplifications: those of FunRecModel.v; source and copy are in one memory,
    which both records carry.  The pointers of an array that were never written
    are the address -1, where no block ever is. *)

From Coq Require Import ZArith List Bool.
From Verif Require Import Base FunRecModel.
Import ListNotations.
Open Scope Z_scope.

(** osc_expr_rec.c:103-110, the loop over the optional names: for a NULL the
    member is not written. *)
Fixpoint copy_names_optional (m : mem) (n : Z) (names : list (option (list Z))) : mem * Z * list Z :=
  match names with
  | [] => (m, n, [])
  | None :: names => let '(m, n, ps) := copy_names_optional m n names in (m, n, -1 :: ps)
  | Some s :: names =>
      let '(m', n', ps) := copy_names_optional (upd m n (Some (OText s))) (n + 1) names in (m', n', n :: ps)
  end.

(** osc_expr_rec.c:101-111. *)
Definition copy_optional (c : frec) (names : option (list (option (list Z)))) : frec :=
  match names with
  | None => c
  | Some names =>
      let a := nxt c in
      let '(m, n, ps) := copy_names_optional (upd (mm c) a (Some (ONames []))) (a + 1) names in
      Rec (upd m a (Some (ONames ps))) n (name c) (sig c) (req c) (Gr (g_num (optl c)) a (g_types (optl c)))
  end.

(** osc_expr_rec.c:67-118 osc_expr_rec_copy with *dest NULL: lines 76-80 are as in
    setName, 81-85 as in setSignature, 91-100 as the loop of setArgs.  What the
    source has is read at the beginning here.  The types are not copied. *)
Definition rec_copy (r : frec) : res frec :=
  do s <- get_name r;
  do g <- get_signature r;
  do rn <- get_required_names r;
  do on <- get_optional_names r;
  let c := Rec (mm r) (nxt r) 0 0 (Gr 0 0 0) (Gr 0 0 0) in
  let c := match s with Some s => set_name c s | None => c end in
  let c := match g with Some g => set_signature c g | None => c end in
  let c := set_required c rn None in
  let c := copy_optional c on in
  Ok (Rec (mm c) (nxt c) (name c) (sig c) (Gr (g_num (req r)) (g_names (req c)) (g_types (req c)))
          (Gr (g_num (optl r)) (g_names (optl c)) (g_types (optl c)))).

(** The source, once the copy has changed memory. *)
Definition in_memory (r : frec) (m : mem) (n : Z) : frec := Rec m n (name r) (sig r) (req r) (optl r).
