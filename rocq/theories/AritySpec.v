(** How many arguments the functions take, written down apart from the table of
    ExprParseModel.v: the names from the documentation, grouped by the numbers of
    arguments they can be called with. *)

From Coq Require Import String ZArith List Bool.
From Verif Require Import Base Text.
Import ListNotations.
Open Scope Z_scope.

Definition any_number : list (list Z) :=
  [str "list"; str "bundle"].
Definition constants : list (list Z) :=
  [str "getmsgcount"; str "lambda"; str "gettimetag"; str "pi"; str "twopi"; str "halfpi"; str
   "quarterpi"; str "oneoverpi"; str "twooverpi"; str "degtorad"; str "radtodeg"; str "e"; str
   "lntwo"; str "lnten"; str "logtwoe"; str "logtene"; str "sqrttwo"; str "sqrthalf"; str "phi"; str
   "twelfth_root_of_2"; str "thirteenth_root_of_3"].
Definition up_to_one : list (list Z) :=
  [str "emptybundle"; str "getaddresses"].
Definition one_or_more : list (list Z) :=
  [str "sort"; str "det"; str "delete"; str "prog1"; str "prog2"; str "progn"].
Definition one : list (list Z) :=
  [str "++"; str "--"; str "plus1"; str "minus1"; str "abs"; str "acos"; str "asin"; str "atan"; str
   "ceil"; str "cos"; str "cosh"; str "exp"; str "floor"; str "log"; str "log10"; str "sin"; str
   "sinh"; str "sqrt"; str "tan"; str "tanh"; str "erf"; str "erfc"; str "gamma"; str "j0"; str
   "j1"; str "lgamma"; str "y0"; str "y1"; str "acosh"; str "asinh"; str "atanh"; str "cbrt"; str
   "expm1"; str "ilogb"; str "logb"; str "nextafter"; str "round"; str "product"; str "sum"; str
   "cumsum"; str "length"; str "avg"; str "mean"; str "median"; str "reverse"; str "rev"; str
   "sortidx"; str "nonzero"; str "first"; str "last"; str "rest"; str "butlast"; str "!"; str "not";
   str "l2norm"; str "min"; str "max"; str "range"; str "extrema"; str "sign"; str "strlen"; str
   "bound"; str "exists"; str "identity"; str "eval"; str "tokenize"; str "quote"; str "value"; str
   "settimetag"; str "float32"; str "float64"; str "int8"; str "char"; str "int16"; str "int32"; str
   "int64"; str "uint8"; str "uint16"; str "uint32"; str "uint64"; str "bool"; str "string"; str
   "blob"; str "typetags"; str "hton32"; str "ntoh32"; str "hton64"; str "ntoh64"; str "readstring";
   str "strtotime"; str "floattotime"].
Definition one_or_two : list (list Z) :=
  [str "nfill"; str "mtof"; str "ftom"; str "quickhull"].
Definition two_or_more : list (list Z) :=
  [str "nth"; str "interleave"; str "join"; str "apply"; str "map"].
Definition two : list (list Z) :=
  [str "+"; str "-"; str "*"; str "/"; str "<"; str "<="; str ">"; str ">="; str "=="; str "!="; str
   "&"; str "|"; str "&&"; str "||"; str "%"; str "="; str "+="; str "-="; str "*="; str "/="; str
   "%="; str "??"; str "add"; str "sub"; str "mul"; str "div"; str "lt"; str "le"; str "gt"; str
   "ge"; str "eq"; str "ne"; str "and"; str "or"; str "andalso"; str "orelse"; str "mod"; str
   "assign"; str "atan2"; str "fmod"; str "pow"; str "hypot"; str "jn"; str "yn"; str "remainder";
   str "dot"; str "cross"; str "strchar"; str "strfind"; str "split"; str "getbundlemember"; str
   "bitand"; str "bitor"; str "cast"; str "match"].
Definition two_or_three : list (list Z) :=
  [str "aseq"; str "if"; str "strcmp"; str "lreduce"; str "rreduce"].
Definition three : list (list Z) :=
  [str "assign_to_index"; str "clip"; str "assigntobundlemember"].
Definition five : list (list Z) :=
  [str "scale"].

(** [f] can be called with [n] arguments. *)
Definition takes (f : list Z) (n : Z) : Prop :=
  (In f constants /\ n = 0) \/ (In f up_to_one /\ 0 <= n <= 1) \/ (In f any_number /\ 0 <= n) \/
  (In f one /\ n = 1) \/ (In f one_or_two /\ 1 <= n <= 2) \/ (In f one_or_more /\ 1 <= n) \/
  (In f two /\ n = 2) \/ (In f two_or_three /\ 2 <= n <= 3) \/ (In f two_or_more /\ 2 <= n) \/
  (In f three /\ n = 3) \/ (In f five /\ n = 5).
(** The names, each once. *)
Definition names : list (list Z) :=
  constants ++ up_to_one ++ any_number ++ one ++ one_or_two ++ one_or_more ++ two ++ two_or_three ++ two_or_more ++ three ++ five.
