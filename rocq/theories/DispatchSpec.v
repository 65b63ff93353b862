(** What a table of methods holds and what a dispatch calls, as plain lists. *)

From Coq Require Import ZArith List Bool.
From Verif Require Import Base Bytes MatchModel WireSpec QueryModel QuerySpec DispatchModel.
Import ListNotations.
Open Scope Z_scope.

(** * The table *)

Inductive vop :=
| Add (sel : list Z) (method context : Z)
| Rebind (sel : list Z) (method : Z)
| RebindContext (sel : list Z) (method context : Z).

(** A table is a list of entries in the order in which they were added.  The
    flag says that the entry can be found by its selector; it is lost when the
    array of entries moves. *)
Record registry := Reg { g_entries : list (ventry * bool); g_slots : Z }.

Definition has (sel : list Z) (e : ventry * bool) : bool := eqs (ve_selector (fst e)) sel.
Definition lookup (sel : list Z) (l : list (ventry * bool)) : option (ventry * bool) := find (has sel) l.
Definition change (sel : list Z) (f : ventry -> ventry) (l : list (ventry * bool)) : list (ventry * bool) :=
  map (fun e => if has sel e then (f (fst e), snd e) else e) l.
Definition set_method (m : Z) (e : ventry) : ventry := VE (ve_selector e) m (ve_context e).
Definition set_both (m c : Z) (e : ventry) : ventry := VE (ve_selector e) m c.

(** Changing the entry of a selector: 32 (OSC_ERR_INVAL) if there is none, and
    undefined if the entry cannot be found any more. *)
Definition changed (sel : list Z) (f : ventry -> ventry) (g : registry) : option (registry * Z) :=
  match lookup sel (g_entries g) with
  | None => Some (g, 32)
  | Some (_, false) => None
  | Some (_, true) => Some (Reg (change sel f (g_entries g)) (g_slots g), 0)
  end.

(** The array moves when an entry is added to a full table, even if there
    already is an entry for the selector. *)
Definition make_room (g : registry) : registry :=
  if zlen (g_entries g) <? g_slots g then g
  else Reg (map (fun e => (fst e, false)) (g_entries g)) (g_slots g + 1).

Definition apply (g : registry) (o : vop) : option (registry * Z) :=
  match o with
  | Add sel m c =>
      let g := make_room g in
      match lookup sel (g_entries g) with
      | None => Some (Reg (g_entries g ++ [(VE sel m c, true)]) (g_slots g), 0)
      | Some _ => changed sel (set_both m c) g
      end
  | Rebind sel m => changed sel (set_method m) g
  | RebindContext sel m c => changed sel (set_both m c) g
  end.
Fixpoint apply_all (g : registry) (ops : list vop) : option (registry * list Z) :=
  match ops with
  | [] => Some (g, [])
  | o :: ops' =>
      match apply g o with
      | None => None
      | Some (g, c) => match apply_all g ops' with None => None | Some (g, cs) => Some (g, c :: cs) end
      end
  end.

Definition op_selector (o : vop) : list Z :=
  match o with Add s _ _ | Rebind s _ | RebindContext s _ _ => s end.
Definition is_add (o : vop) : bool := match o with Add _ _ _ => true | _ => false end.

(** A table that is never filled beyond the size it was created with is an
    ordered list of bindings. *)
Definition bind_op (l : list ventry) (o : vop) : list ventry :=
  let on sel f := map (fun e => if eqs (ve_selector e) sel then f e else e) l in
  match o with
  | Add sel m c => if existsb (fun e => eqs (ve_selector e) sel) l then on sel (set_both m c) else l ++ [VE sel m c]
  | Rebind sel m => on sel (set_method m)
  | RebindContext sel m c => on sel (set_both m c)
  end.
Definition bindings (ops : list vop) : list ventry := fold_left bind_op ops [].

(** One operation on the table: its result and its error code. *)
Definition vt_op (vt : vtable) (o : vop) : res (vtable * Z) :=
  match o with
  | Add s m c => do vt <- vt_add vt s m c; Ok (vt, 0)
  | Rebind s m => vt_rebind vt s m
  | RebindContext s m c => vt_rebind_context vt s m c
  end.

Fixpoint vt_ops (vt : vtable) (ops : list vop) : res (vtable * list Z) :=
  match ops with
  | [] => Ok (vt, [])
  | o :: ops' => do ' (vt, c) <- vt_op vt o; do ' (vt, cs) <- vt_ops vt ops'; Ok (vt, c :: cs)
  end.

(** * Dispatching *)

(** The messages an entry with the selector [sel] is called with: those that
    match it, *)
Definition completes (sel : list Z) (ws : list wmsg) : list wmsg :=
  filter (fun w => match related (w_addr w) sel with Full => true | _ => false end) ws.
(** and those that extend it; stripping removes as many characters as the
    selector has. *)
Definition partials (strip : bool) (sel : list Z) (ws : list wmsg) : list wmsg :=
  flat_map (fun w => match related (w_addr w) sel with
                     | Extends _ => [if strip then strip_addr (zlen sel) w else w] | _ => [] end) ws.
(** The messages for no entry. *)
Definition undelivered (es : list ventry) (ws : list wmsg) : list wmsg :=
  filter (fun w => forallb (fun e => match related (w_addr w) (ve_selector e) with Neither => true | _ => false end) es) ws.

Definition call_of (strip : bool) (ws : list wmsg) (e : ventry) : call :=
  Called e (bundle_of (partials strip (ve_selector e) ws)) (bundle_of (completes (ve_selector e) ws)).
Definition delegation (d : option (Z * Z)) (ws : list wmsg) : list call :=
  match ws, d with
  | [], _ => []
  | _, Some (m, c) => [Delegated m c (bundle_of ws)]
  | _, None => []
  end.

(** The dispatch can be carried out: the matcher does not give up and a message
    that is stripped has type tags and what is left of its address is an
    address again. *)
Definition deliverable (strip : bool) (es : list ventry) (ws : list wmsg) : Prop :=
  Forall wf_wmsg ws /\
  (forall w e, In w ws -> In e es ->
     nonul (ve_selector e) /\
     (exists r, osc_match (w_addr w) (ve_selector e) = Ok r /\ code r <> 2048) /\
     (strip = true -> forall n, related (w_addr w) (ve_selector e) = Extends n ->
        w_args w <> None /\ addressable (skipn (Z.to_nat (zlen (ve_selector e))) (w_addr w)))).
