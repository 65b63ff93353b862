(** Model of the table of functions, osc_expr_func.h:205-2759, and of
    osc_expr.c:2176-2187 osc_expr_lookupFunction.

    [specials] are the functions osc_expr_evalInLexEnv treats specially,
    [ordinary] the others for which there is a model, [unmodelled] the rest: calls
    of these have no answer. *)

From Coq Require Import String ZArith List Bool.
From Verif Require Import Base ExprModel ExprListModel BundleSModel Text EvalModel.
Import ListNotations.
Open Scope Z_scope.

Definition specials : list (list Z * fn) :=
  [(str "&&", FAndalso); (str "||", FOrelse); (str "=", FAssign); (str "andalso", FAndalso);
   (str "orelse", FOrelse); (str "assign", FAssign); (str "assign_to_index", FAssignIndex); (str "if", FIf);
   (str "bound", FBound); (str "exists", FExists); (str "emptybundle", FEmpty);
   (str "getaddresses", FAddresses); (str "delete", FDelete); (str "getmsgcount", FCount);
   (str "apply", FApply); (str "map", FMap); (str "lreduce", FLreduce); (str "rreduce", FRreduce);
   (str "quote", FQuote); (str "value", FValue); (str "gettimetag", FGetTime); (str "settimetag", FSetTime)].
Definition ordinary (E : env) : list (list Z * (list arr -> res (Z * arr))) :=
  [(str "+", two_arg E op_add); (str "-", two_arg E op_subtract); (str "*", two_arg E op_multiply);
   (str "/", two_arg E op_divide); (str "<", two_arg E op_lt); (str "<=", two_arg E op_le);
   (str ">", two_arg E op_gt); (str ">=", two_arg E op_gte); (str "==", two_arg E op_eq);
   (str "!=", two_arg E op_neq); (str "&", two_arg E op_and); (str "|", two_arg E op_or);
   (str "+=", two_arg E op_add); (str "-=", two_arg E op_subtract); (str "*=", two_arg E op_multiply);
   (str "/=", two_arg E op_divide); (str "add", two_arg E op_add); (str "sub", two_arg E op_subtract);
   (str "mul", two_arg E op_multiply); (str "div", two_arg E op_divide); (str "lt", two_arg E op_lt);
   (str "le", two_arg E op_le); (str "gt", two_arg E op_gt); (str "ge", two_arg E op_gte);
   (str "eq", two_arg E op_eq); (str "ne", two_arg E op_neq); (str "and", two_arg E op_and);
   (str "or", two_arg E op_or); (str "nth", fn_nth); (str "length", fn_length); (str "reverse", fn_reverse);
   (str "rev", fn_reverse); (str "nonzero", fn_nonzero); (str "list", fn_list); (str "nfill", fn_nfill);
   (str "interleave", fn_interleave); (str "first", fn_first); (str "last", fn_last); (str "rest", fn_rest);
   (str "butlast", fn_butlast); (str "!", fn_not E); (str "not", fn_not E)].
Definition unmodelled : list (list Z) := map str (
  ["%"; "++"; "--"; "%="; "??"; "mod"; "plus1"; "minus1"; "abs"; "acos"; "asin"; "atan"; "atan2"; "ceil"; "cos";
   "cosh"; "exp"; "floor"; "fmod"; "log"; "log10"; "pow"; "sin"; "sinh"; "sqrt"; "tan"; "tanh"; "erf"; "erfc";
   "gamma"; "hypot"; "j0"; "j1"; "jn"; "lgamma"; "y0"; "y1"; "yn"; "acosh"; "asinh"; "atanh"; "cbrt"; "expm1";
   "ilogb"; "logb"; "nextafter"; "remainder"; "round"; "product"; "sum"; "cumsum"; "avg"; "mean"; "median";
   "sort"; "sortidx"; "aseq"; "dot"; "cross"; "det"; "l2norm"; "min"; "max"; "range"; "extrema"; "clip";
   "scale"; "mtof"; "ftom"; "sign"; "strlen"; "strchar"; "strfind"; "strcmp"; "split"; "join"; "identity";
   "eval"; "tokenize"; "prog1"; "prog2"; "progn"; "lambda"; "getbundlemember"; "assigntobundlemember";
   "bitand"; "bitor"; "pi"; "twopi"; "halfpi"; "quarterpi"; "oneoverpi"; "twooverpi"; "degtorad"; "radtodeg";
   "e"; "lntwo"; "lnten"; "logtwoe"; "logtene"; "sqrttwo"; "sqrthalf"; "float32"; "float64"; "int8"; "char";
   "int16"; "int32"; "int64"; "uint8"; "uint16"; "uint32"; "uint64"; "bool"; "string"; "blob"; "cast";
   "typetags"; "hton32"; "ntoh32"; "hton64"; "ntoh64"; "readstring"; "strtotime"; "floattotime"; "match";
   "quickhull"; "bundle"; "phi"; "twelfth_root_of_2"; "thirteenth_root_of_3"])%string.

Definition named {B} (name : list Z) (l : list (list Z * B)) : option B :=
  option_map snd (find (fun p => streq name (fst p)) l).

(** The function of a call of an ordinary function. *)
Definition std_plain (E : env) (name : list Z) (argv : list arr) : res (Z * arr) :=
  match named name (ordinary E) with Some f => f argv | None => Fuel end.
(** osc_expr.c:2176-2187; no name occurs twice. *)
Definition std_table (name : list Z) : option fn :=
  match named name specials with
  | Some f => Some f
  | None =>
      if existsb (streq name) (map fst (ordinary (Env (fun _ => 0) (fun _ => []) [] (fun _ _ => 0) (fun _ => TimetagModel.TT 0 0) (fun _ => 0)))
                               ++ unmodelled)
      then Some (FCall name) else None
  end.
