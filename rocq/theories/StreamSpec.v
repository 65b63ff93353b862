(** The streams that the byte-wise validator takes. *)

From Coq Require Import ZArith List Bool.
From Verif Require Import Base Bytes Text WireSpec StreamModel.
Import ListNotations.
Open Scope Z_scope.

(** Feeding bytes to the validator, stopping at the first error: the state, or
    nothing if there was an error. *)
Fixpoint feed (bs : bytes) (s : Z) : res (option Z) :=
  match bs with
  | [] => Ok (Some s)
  | x :: bs' => do s' <- process_byte (s8 x) s; if errorp s' then Ok None else feed bs' s'
  end.

(** Feeding bytes to the validator, whatever it says. *)
Fixpoint pump (bs : bytes) (s : Z) : res Z :=
  match bs with
  | [] => Ok s
  | x :: bs' => do s' <- process_byte (s8 x) s; pump bs' s'
  end.

(** Inside a pair of braces or brackets: no brackets, no wildcards, and the
    separator at most once. *)
Definition inside (sep : Z) (x : list Z) : Prop :=
  Forall (fun c => ~ In c (str "[]{}*?")) x /\ (count_occ Z.eq_dec x sep <= 1)%nat.

(** Addresses (after the first slash): brackets and braces are balanced and not
    nested. *)
Inductive accepted : list Z -> Prop :=
| acc_end : accepted []
| acc_char c l : ~ In c (str "[]{}") -> accepted l -> accepted (c :: l)
| acc_braces x l : inside 44 x -> accepted l -> accepted (123 :: x ++ 125 :: l)
| acc_brackets x l : inside 45 x -> accepted l -> accepted (91 :: x ++ 93 :: l).

Definition supported_tags : list Z := str "cCuUiIhHfdsTFNt.".

(** A message that the validator can follow: it has type tags, all supported,
    and data; its size is a multiple of four below 65536, and the lowest byte
    of the size is from 4 to 127. *)
Definition streamable (w : wmsg) : Prop :=
  exists a t d, w = WM (47 :: a) (Some (44 :: t, d)) /\
    Forall (fun c => 0 < c < 256) a /\ accepted a /\ Forall (fun c => In c supported_tags) t /\
    d <> [] /\ Forall is_byte d /\
    let n := zlen (wbody w) in n mod 4 = 0 /\ n < 65536 /\ 4 <= n mod 256 < 128.

Definition bundle_id : bytes := str "#bundle" ++ [0].

(** The sizes that the validator can read. *)
Definition readable (n : Z) : Prop := n mod 4 = 0 /\ 0 <= n < 65536 /\ 4 <= n mod 256 < 128.

(** A bundle up to and including the size of one more message. *)
Definition opening (tt : bytes) (ws : list wmsg) (n : Z) : bytes :=
  bundle_id ++ tt ++ concat (map enc_wmsg ws) ++ be_bytes 4 n.

(** No error so far. *)
Definition quiet (bs : bytes) : Prop := exists s, feed bs 0 = Ok (Some s).
Definition loud (bs : bytes) : Prop := feed bs 0 = Ok None.
