(** Model of osc_typetag.c. *)

From Coq Require Import ZArith List Bool.
From Verif Require Import Base.
Import ListNotations.
Open Scope Z_scope.

(** osc_typetag.c:28 osc_typetag_typetags: N T F c C u U i I h H f d s. *)
Definition typetags : list Z := [78; 84; 70; 99; 67; 117; 85; 105; 73; 104; 72; 102; 100; 115].

(** osc_typetag.c:30 osc_typetag_indexes, 128 entries. *)
Definition typetag_indexes : list Z :=
  repeat 0 67 ++ [4; 0; 0; 2; 0; 10; 8] ++ repeat 0 10 ++ [1; 6] ++ repeat 0 13 ++
  [3; 12; 0; 11; 0; 9; 7] ++ repeat 0 9 ++ [13; 0; 5] ++ repeat 0 10.

(** osc_typetag.c:39-48 osc_typetag_compare (char is signed). *)
Definition typetag_compare (t1 t2 : Z) : res Z :=
  if t1 =? t2 then Ok 0 else
  do i1 <- rd typetag_indexes t1;
  do i2 <- rd typetag_indexes t2;
  if i1 <? i2 then Ok (-1) else Ok 1.

(** osc_typetag.c:56-123: the index the switch of
    osc_typetag_getLargestType assigns to a type tag. *)
Definition largest_index (tt : Z) : Z :=
  if tt =? 78 then 0
  else if (tt =? 84) || (tt =? 70) then 1
  else if tt =? 99 then 3
  else if tt =? 67 then 4
  else if tt =? 117 then 5
  else if tt =? 85 then 6
  else if tt =? 73 then 8
  else if tt =? 104 then 9
  else if tt =? 72 then 10
  else if tt =? 102 then 11
  else if tt =? 100 then 12
  else if tt =? 115 then 13
  else 7.

(** osc_typetag.c:50-128 osc_typetag_getLargestType on the type tags of the
    atoms of the argument arrays. *)
Definition get_largest_type (argv : list (list Z)) : res Z :=
  let idx := fold_left (fun m args =>
               fold_left (fun m t => if largest_index t >? m then largest_index t else m) args m) argv 0 in
  rd typetags idx.
