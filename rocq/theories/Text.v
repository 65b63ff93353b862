(** ASCII text as character codes; used in examples only. *)

From Coq Require Import ZArith List String Ascii.

Definition str (s : string) : list Z :=
  List.map (fun c => Z.of_nat (nat_of_ascii c)) (list_ascii_of_string s).
Arguments str s%string_scope.
Export String.StringSyntax.
