(** Flattening and exploding serialized bundles: osc_bundle_s.c:541-591, with the
    functions on bundle objects of FlattenModel.v. *)

From Coq Require Import ZArith List Bool.
From Verif Require Import Base SerialModel WireModel FlattenModel.
Import ListNotations.
Open Scope Z_scope.

Section Tree.
Context (fresh : Z -> bytes).   (* the block malloc returns for a size *)

(** osc_bundle_u.c:605-615 osc_bundle_u_serialize with its allocation; also
    osc_bundle_s.c:577-581, where the two passes are called one after the other. *)
Definition serialized (ms : list umsg) : res bytes :=
  do n <- bundle_size ms; bundle_serialize (fresh n) ms.

(** osc_bundle_s.c:541-562 osc_bundle_s_flatten of the bundle with the bytes [src]: the
    bytes of the new bundle.  The code of osc_bundle_u_flatten is dropped; it is always
    OSC_ERR_NONE. *)
Definition s_flatten (keeps : bool) (fuel : nat) (maxlevel : Z) (sep : option (list Z)) (remove : bool)
  (src : bytes) : res bytes :=
  do bu <- bundle_deserialize src 0 (zlen src);
  do flat <- flatten keeps fuel maxlevel sep remove [] bu;
  serialized flat.

(** osc_bundle_s.c:564-591 osc_bundle_s_explode: the bytes of the new bundle, whether
    [dest] is given or not.  What [dest] had is not freed. *)
Definition s_explode (fuel : nat) (sep : option (list Z)) (maxlevel : Z) (src : bytes) : res bytes :=
  do bu <- bundle_deserialize src 0 (zlen src);
  do ex <- explode fuel sep maxlevel [] bu;
  serialized ex.
End Tree.
