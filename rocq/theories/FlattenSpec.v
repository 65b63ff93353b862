(** What exploded and flat bundles mean (C40). *)

From Coq Require Import ZArith List Bool.
From Verif Require Import Base Bytes WireSpec SerialSpec.
Import ListNotations.
Open Scope Z_scope.

(** Addresses without any character that is special in patterns. *)
Definition literal (a : list Z) : Prop :=
  hd 0 a = 47 /\ Forall (fun c => ~ In c [0; 42; 63; 91; 93; 123; 125]) a.

Definition is_bundle (v : value) : Prop := match v with VBundle _ => True | _ => False end.
Definition address_of (m : message) : list Z := match m with M a _ => a end.

(** A message that carries data. *)
Definition plain_message (m : message) : Prop :=
  match m with M a vs => literal a /\ vs <> [] /\ Forall (fun v => ~ is_bundle v) vs end.

(** One address continues another: it is equal or goes on with a slash. *)
Definition continues (y x : list Z) : Prop := exists r, y = x ++ r /\ (r = [] \/ hd 0 r = 47).
Definition independent (x y : list Z) : Prop := ~ continues y x /\ ~ continues x y.

(** The plain messages a nested bundle stands for: the address of an enclosing
    message is put in front of the addresses inside. *)
Fixpoint meaning (prefix : list Z) (m : message) : list message :=
  match m with
  | M a vs =>
      match vs with
      | [VBundle ms] => concat (map (meaning (prefix ++ a)) ms)
      | _ => [M (prefix ++ a) (map narrow vs)]
      end
  end.
Definition meanings (prefix : list Z) (ms : list message) : list message := concat (map (meaning prefix) ms).

(** Nested bundles of data: every message has either data or one nested bundle
    that is not empty, and no two messages of a bundle have the same address. *)
Fixpoint shaped (m : message) : Prop :=
  match m with
  | M a vs =>
      literal a /\
      match vs with
      | [VBundle ms] => ms <> [] /\ NoDup (map address_of ms) /\ fold_right (fun m P => shaped m /\ P) True ms
      | _ => vs <> [] /\ Forall (fun v => ~ is_bundle v) vs
      end
  end.
Definition shaped_all (ms : list message) : Prop := NoDup (map address_of ms) /\ Forall shaped ms.

(** Nothing but the first two characters is a slash. *)
Definition one_component (a : list Z) : Prop := ~ In 47 (skipn 2 a).
(** Every address at every depth has one component. *)
Fixpoint all_one (m : message) : Prop :=
  match m with
  | M a vs =>
      one_component a /\
      match vs with [VBundle ms] => fold_right (fun m P => all_one m /\ P) True ms | _ => True end
  end.

(** No address of the list continues another. *)
Definition all_independent (ms : list message) : Prop :=
  ForallOrdPairs (fun x y => independent (address_of x) (address_of y)) ms.

(** The size of a serialized bundle, and a bound for the growth by nesting. *)
Definition total_size (ms : list message) : Z := zlen (enc_bundle empty_header ms).
Definition cost (m : message) : Z := match m with M a _ => zlen (enc_message m) + 40 * zlen a end.
Definition costs (ms : list message) : Z := fold_right (fun m n => cost m + n) 0 ms.
