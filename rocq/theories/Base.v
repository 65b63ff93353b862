(** Common vocabulary of the model: outcomes, C integers, byte buffers,
    C strings and a loop combinator.  Nothing here is specific to libo. *)

From Coq Require Import ZArith List Bool Lia.
Import ListNotations.
Open Scope Z_scope.

(** * Outcomes *)

(** Kinds of undefined behaviour the model makes visible. *)
Inductive ub : Type :=
| OOB          (* read or write outside an object *)
| NullDeref    (* dereference of a null pointer *)
| Dangling     (* use of freed memory *)
| Uninit       (* use of an indeterminate value *)
| Overflow.    (* signed overflow / division trap *)

(** Result of running a piece of C: a value, undefined behaviour, or the
    model's fuel ran out (theorems exclude the latter). *)
Inductive res (A : Type) : Type :=
| Ok (a : A)
| Ub (u : ub)
| Fuel.
Arguments Ok {A} a.
Arguments Ub {A} u.
Arguments Fuel {A}.

Definition bind {A B} (m : res A) (f : A -> res B) : res B :=
  match m with
  | Ok a => f a
  | Ub u => Ub u
  | Fuel => Fuel
  end.

Notation "'do' x <- m ; k" := (bind m (fun x => k))
  (at level 200, x name, m at level 100, k at level 200, right associativity).
Notation "'do' ' p <- m ; k" := (bind m (fun p => k))
  (at level 200, p strict pattern, m at level 100, k at level 200, right associativity).

(** * C integers *)

Definition u8  (z : Z) : Z := z mod 2^8.
Definition u16 (z : Z) : Z := z mod 2^16.
Definition u32 (z : Z) : Z := z mod 2^32.
Definition u64 (z : Z) : Z := z mod 2^64.
Definition s8  (z : Z) : Z := (z + 2^7)  mod 2^8  - 2^7.
Definition s16 (z : Z) : Z := (z + 2^15) mod 2^16 - 2^15.
Definition s32 (z : Z) : Z := (z + 2^31) mod 2^32 - 2^31.
Definition s64 (z : Z) : Z := (z + 2^63) mod 2^64 - 2^63.

Definition is_byte (b : Z) : Prop := 0 <= b < 256.
Definition bytes := list Z.
Definition wf_bytes (l : bytes) : Prop := Forall is_byte l.

(** Length as a [Z]. *)
Definition zlen {A} (l : list A) : Z := Z.of_nat (length l).

(** * Reading buffers and strings *)

(** Element [i] of a buffer; out of bounds is undefined behaviour. *)
Definition rd {A} (l : list A) (i : Z) : res A :=
  if (i <? 0) then Ub OOB
  else match nth_error l (Z.to_nat i) with
       | Some x => Ok x
       | None => Ub OOB
       end.

(** Character [i] of a NUL-terminated string given by its characters: the
    terminator is readable, anything beyond is out of bounds. *)
Definition rdc (s : list Z) (i : Z) : res Z := rd (s ++ [0]) i.

(** [n] bytes starting at [i]. *)
Definition slice (l : bytes) (i n : Z) : res bytes :=
  if (i <? 0) || (n <? 0) || (zlen l <? i + n) then Ub OOB
  else Ok (firstn (Z.to_nat n) (skipn (Z.to_nat i) l)).

(** Overwrite the bytes at [i] with [v]. *)
Definition write (l : bytes) (i : Z) (v : bytes) : res bytes :=
  if (i <? 0) || (zlen l <? i + zlen v) then Ub OOB
  else Ok (firstn (Z.to_nat i) l ++ v ++ skipn (Z.to_nat i + length v) l).

(** Characters before the first NUL, if there is one. *)
Fixpoint cstr (l : bytes) : option (list Z) :=
  match l with
  | [] => None
  | b :: l' => if b =? 0 then Some []
               else match cstr l' with
                    | Some s => Some (b :: s)
                    | None => None
                    end
  end.

(** The C string starting at offset [i] of a buffer; running off the end of
    the buffer is out of bounds (what [strlen] would do). *)
Definition rdstr (l : bytes) (i : Z) : res (list Z) :=
  if (i <? 0) || (zlen l <? i) then Ub OOB
  else match cstr (skipn (Z.to_nat i) l) with
       | Some s => Ok s
       | None => Ub OOB
       end.

(** A list of characters that can be a C string. *)
Definition nonul (s : list Z) : Prop := Forall (fun c => c <> 0) s.

(** * Loops *)

(** One iteration of a C loop either continues with a new state or is done. *)
Inductive lres (S R : Type) : Type :=
| Cont (s : S)
| Done (r : R).
Arguments Cont {S R} s.
Arguments Done {S R} r.

(** [loopP step n s] performs at most [n] iterations (binary fuel, stops at
    the first [Done]). *)
Fixpoint loopP {S R} (step : S -> lres S R) (n : positive) (s : S) : lres S R :=
  match n with
  | xH => step s
  | xO q => match loopP step q s with
            | Cont s' => loopP step q s'
            | Done r => Done r
            end
  | xI q => match step s with
            | Cont s' => match loopP step q s' with
                         | Cont s'' => loopP step q s''
                         | Done r => Done r
                         end
            | Done r => Done r
            end
  end.

(** [while step n s]: run the loop with fuel [n]. *)
Definition while {S R} (step : S -> lres S (res R)) (n : positive) (s : S) : res R :=
  match loopP step n s with
  | Done r => r
  | Cont _ => Fuel
  end.
