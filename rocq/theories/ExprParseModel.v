(** Reading expressions from text: the scanner osc_expr_scanner.l and the parser
    osc_expr_parser.y.  Regular expressions and what flex does with them are those of
    ScanModel.v; the grammar is modelled by one function per group of productions.

    The grammar of osc_expr_parser.y is ambiguous; bison decides by the precedences
    declared in lines 629-663.  The decision is between reducing a production that
    ends with an argument and shifting an operator that may follow an argument, and
    it is made by comparing the level of the production with that of the operator;
    all other tokens that can follow leave no choice.  So [p_arg] gets the level of
    the production it reads the last argument of (0 if there is none to reduce) and
    takes operators as long as they are to be shifted. *)

From Coq Require Import String ZArith List Bool.
From Verif Require Import Base Text TimetagModel SerialModel AtomSModel BundleSModel EvalModel ScanModel.
Import ListNotations.
Open Scope Z_scope.

(** * Tokens *)

(** The infix operators of osc_expr_parser.y:1248-1295. *)
Inductive op :=
| OAdd | OSub | OMul | ODiv | OMod | OPow | OEq | ONeq | OLt | OLe | OGt | OGe | OAnd | OAndand | OOr | OOror.
(** The tokens, osc_expr_parser.y:629-665.  [TOpAssign] are the tokens
    OSC_EXPR_PLUSEQ and so on, [TStep] OSC_EXPR_INC and OSC_EXPR_DEC. *)
Inductive etoken :=
| TNum (a : atom)
| TStr (s : list Z)
| TAddr (s : list Z)
| TQuoted (s : list Z)
| TLambda
| TOp (o : op)
| TOpAssign (o : op)
| TStep (inc : bool)
| TNot | TAssign | TQuest | TColon | TElse | TElseAssign | TComma | TDot | TTick | TSemi
| TOpen | TClose | TOpenSq | TCloseSq | TOpenDbl | TCloseDbl | TOpenBr | TCloseBr.

(** * osc_expr_scanner.l *)

(** osc_expr_scanner.l:81-143, 323-326: the tokens that are always spelled the same. *)
Definition symbols : list (list Z * etoken) :=
  [(str "+", TOp OAdd); (str "-", TOp OSub); (str "*", TOp OMul); (str "/", TOp ODiv); (str "%", TOp OMod);
   (str "^", TOp OPow); (str "!", TNot); (str "=", TAssign); (str "[", TOpenSq); (str "]", TCloseSq);
   (str ":", TColon); (str "?", TQuest); (str "<", TOp OLt); (str ">", TOp OGt); (str "`", TTick);
   (str ".", TDot); (str "&", TOp OAnd); (str "|", TOp OOr);
   (str "<=", TOp OLe); (str ">=", TOp OGe); (str "!=", TOp ONeq); (str "==", TOp OEq);
   (str "&&", TOp OAndand); (str "||", TOp OOror); (str "++", TStep true); (str "--", TStep false);
   (str "+=", TOpAssign OAdd); (str "-=", TOpAssign OSub); (str "*=", TOpAssign OMul);
   (str "/=", TOpAssign ODiv); (str "%=", TOpAssign OMod); (str "^=", TOpAssign OPow);
   (str "??", TElse); (str "??=", TElseAssign);
   (str ",", TComma); (str ";", TSemi); (str "(", TOpen); (str ")", TClose); (str "{", TOpenBr); (str "}", TCloseBr);
   (str "[[", TOpenDbl); (str "]]", TCloseDbl)].

(** The start conditions, osc_expr_scanner.l:69. *)
Inductive mode := Initial | InText | InQuote.
Record elexer := ELexer { e_mode : mode; e_buf : option bytes; e_buflen : Z }.
Definition elexer_start : elexer := ELexer Initial None 0.

(** osc_expr_scanner.l:238. *)
Definition natural_re : re := Alt (Cat (range 49 57) (Star digit)) (lit 48).
(** osc_expr_scanner.l:306. *)
Definition eaddress_re : re := Cat (lit 47) (plus (none_of (str ".+-*%^!=[]:;,?<>&|\{}() `" ++ [10; 9]))).
(** osc_expr_scanner.l:314. *)
Definition not_in_name : list Z := 39 :: 34 :: str "+-*/%^!=[]:;,?<>&|\{}() `." ++ [10; 9].
Definition name_re : re := Cat (none_of (not_in_name ++ str "0123456789")) (Star (none_of not_in_name)).
(** [:space:] *)
Definition space : re := one_of [32; 9; 10; 11; 12; 13].

Section EScan.
(** strtod and what new memory holds. *)
Context (strtod : list Z -> Z) (junk : bytes).

(** What the scanner does after an action: it goes on, it returns a token, or it
    returns 0, the end of the text. *)
Inductive result := Continue | Return (t : etoken) | Finish.
(** An action gets [yytext]; it says also how many characters were consumed. *)
Definition eaction := list Z -> elexer -> res (elexer * result * nat).
Definition ereturns (t : list Z -> etoken) : eaction := fun text l => Ok (l, Return (t text), length text).
Definition eskips : eaction := fun text l => Ok (l, Continue, length text).
Definition enters (m : mode) : eaction := fun text l => Ok (ELexer m (e_buf l) (e_buflen l), Continue, length text).

(** osc_expr_scanner.l:152-160: the characters up to the parenthesis that closes, if
    there is one.  [prev] is the character before; it is in the buffer of the scanner. *)
Fixpoint closing (np : Z) (prev : Z) (s : list Z) (k : nat) : option nat :=
  if np =? 0 then Some k else
  match s with
  | [] => None
  | c :: s' =>
      closing (if (c =? 41) && negb (prev =? 92) then np - 1
               else if (c =? 40) && negb (prev =? 92) then np + 1 else np) c s' (S k)
  end.
(** osc_expr_scanner.l:149-176. *)
Definition act_quote : eaction := fun text l =>
  match closing 1 40 text 0 with
  | None => Ok (l, Finish, length text)
  | Some k => Ok (ELexer Initial (e_buf l) (e_buflen l), Return (TQuoted (firstn (k - 1) text)), k)
  end.
(** osc_expr_scanner.l:182-198. *)
Definition act_text : eaction := fun text l =>
  match e_buf l with
  | Some b =>
      let b := grown junk b (e_buflen l + zlen text + 1) in
      let buflen := e_buflen l + zlen text + 1 in
      do s <- rdstr b 0;
      do b <- write b (zlen s) (text ++ [0]);
      Ok (ELexer (e_mode l) (Some b) buflen, Continue, length text)
  | None => Ok (l, Return (TStr text), length text)
  end.
(** osc_expr_scanner.l:200-212. *)
Definition act_text_end : eaction := fun text l =>
  match e_buf l with
  | Some b => do s <- rdstr b 0; Ok (ELexer Initial None 0, Return (TStr s), length text)
  | None => Ok (ELexer Initial None (e_buflen l), Continue, length text)
  end.
(** osc_expr_scanner.l:214-228. *)
Definition act_text_escape : eaction := fun text l =>
  let yyleng := zlen text in
  do last <- rd text (yyleng - 1);
  match e_buf l with
  | Some b =>
      let b := grown junk b (e_buflen l + yyleng) in
      do b <- write b (e_buflen l) (firstn (Z.to_nat (yyleng - 1)) text);
      let buflen := e_buflen l + (yyleng - 1) in
      do b <- write b (buflen - 1) [last];
      do b <- write b buflen [0];
      Ok (ELexer (e_mode l) (Some b) buflen, Continue, length text)
  | None =>
      let b := grown junk [] yyleng in
      do b <- write b 0 (firstn (Z.to_nat (yyleng - 1)) text);
      let buflen := yyleng - 1 in
      do b <- write b (buflen - 1) [last];
      do b <- write b buflen [0];
      Ok (ELexer (e_mode l) (Some b) buflen, Continue, length text)
  end.
(** osc_expr_scanner.l:273-279. *)
Definition act_letter : eaction := fun text l =>
  do c <- rd text 1; Ok (l, Return (TNum (set_int8 atom_fresh (s8 c))), length text).

(** osc_expr_scanner.l:79-341, the rules of the start condition INITIAL in their
    order.  In line 81 the ^ is not at the beginning of the rule and so an ordinary
    character. *)
Definition e_rules : list (re * eaction) :=
  [(Cat (lit 35) (Star dot), eskips)] ++
  map (fun '(s, t) => (word s, ereturns (fun _ => t))) symbols ++
  [ (seq [word (str "quote"); Star space; lit 40], enters InQuote);
    (lit 34, enters InText);
    (word [34; 34], ereturns (fun _ => TStr []));
    (natural_re, ereturns (fun s => TNum (set_int32 atom_fresh (s32 (strtol s)))));
    (hex_re, ereturns (fun s => TNum (hex_atom s)));
    (c99_floating_point_constant, ereturns (fun s => TNum (set_double atom_fresh (strtod s))));
    (seq [lit 39; dot; lit 39], act_letter);
    (any_of [word (str "true"); word (str "True"); word (str "TRUE")], ereturns (fun _ => TNum (set_true atom_fresh)));
    (any_of [word (str "false"); word (str "False"); word (str "FALSE")], ereturns (fun _ => TNum (set_false atom_fresh)));
    (any_of [word (str "nil"); word (str "Nil"); word (str "NIL")], ereturns (fun _ => TNum (set_nil atom_fresh)));
    (word (str "lambda"), ereturns (fun _ => TLambda));
    (eaddress_re, ereturns TAddr);
    (name_re, ereturns TStr);
    (Alt (plus (lit 59)) (plus (Cat (lit 59) (Star space))), ereturns (fun _ => TSemi));
    (plus (one_of [32; 9; 10]), eskips) ].
Definition text_rules : list (re * eaction) :=
  [ (plus (none_of [34]), act_text);
    (lit 34, act_text_end);
    (seq [Star quoted_string_re; lit 92; dot], act_text_escape) ].
Definition quote_fn_rules : list (re * eaction) := [(Star (Alt dot (lit 10)), act_quote)].
Definition rules_of (m : mode) : list (re * eaction) :=
  match m with Initial => e_rules | InText => text_rules | InQuote => quote_fn_rules end.

(** All tokens of a text.  Where no rule matches flex prints the character and goes
    on.  [fuel] bounds the number of matches. *)
Fixpoint e_scan (fuel : nat) (l : elexer) (s : list Z) : res (list etoken) :=
  match s with
  | [] => Ok []
  | _ :: s' =>
      match fuel with
      | O => Fuel
      | S fuel' =>
          match pick (rules_of (e_mode l)) s with
          | None => e_scan fuel' l s'
          | Some (act, n) =>
              do ' (l, r, k) <- act (firstn n s) l;
              match r with
              | Finish => Ok []
              | Continue => e_scan fuel' l (skipn k s)
              | Return t => do ts <- e_scan fuel' l (skipn k s); Ok (t :: ts)
              end
          end
      end
  end.
End EScan.

(** * osc_expr_parser.y: expressions *)

(** Expressions as the parser builds them, t_osc_expr and t_osc_expr_arg.  The
    function is given by its name in the table.  The expression of an argument may be
    NULL; the expressions of a function are a list linked by [next], NULL if empty. *)
Inductive parg : Type :=
| PAtom (a : atom)
| PAddr (p : list Z)
| PExpr (e : option pexpr)
| PFun (params : list (list Z)) (body : list pexpr)
with pexpr : Type :=
| Call (name : list Z) (args : list parg).

(** osc_expr_func.h:205-2759: name, number of required and of optional arguments. *)
Definition functions : list (list Z * (Z * Z)) :=
  [(str "+", (2, 0)); (str "-", (2, 0)); (str "*", (2, 0)); (str "/", (2, 0)); (str "<", (2, 0));
   (str "<=", (2, 0)); (str ">", (2, 0)); (str ">=", (2, 0)); (str "==", (2, 0)); (str "!=", (2, 0));
   (str "&", (2, 0)); (str "|", (2, 0)); (str "&&", (2, 0)); (str "||", (2, 0)); (str "%", (2, 0));
   (str "=", (2, 0)); (str "++", (1, 0)); (str "--", (1, 0)); (str "+=", (2, 0)); (str "-=", (2, 0));
   (str "*=", (2, 0)); (str "/=", (2, 0)); (str "%=", (2, 0)); (str "??", (2, 0)); (str "add", (2, 0));
   (str "sub", (2, 0)); (str "mul", (2, 0)); (str "div", (2, 0)); (str "lt", (2, 0)); (str "le", (2, 0));
   (str "gt", (2, 0)); (str "ge", (2, 0)); (str "eq", (2, 0)); (str "ne", (2, 0)); (str "and", (2, 0));
   (str "or", (2, 0)); (str "andalso", (2, 0)); (str "orelse", (2, 0)); (str "mod", (2, 0));
   (str "assign", (2, 0)); (str "plus1", (1, 0)); (str "minus1", (1, 0)); (str "abs", (1, 0));
   (str "acos", (1, 0)); (str "asin", (1, 0)); (str "atan", (1, 0)); (str "atan2", (2, 0));
   (str "ceil", (1, 0)); (str "cos", (1, 0)); (str "cosh", (1, 0)); (str "exp", (1, 0)); (str "floor", (1, 0));
   (str "fmod", (2, 0)); (str "log", (1, 0)); (str "log10", (1, 0)); (str "pow", (2, 0)); (str "sin", (1, 0));
   (str "sinh", (1, 0)); (str "sqrt", (1, 0)); (str "tan", (1, 0)); (str "tanh", (1, 0)); (str "erf", (1, 0));
   (str "erfc", (1, 0)); (str "gamma", (1, 0)); (str "hypot", (2, 0)); (str "j0", (1, 0)); (str "j1", (1, 0));
   (str "jn", (2, 0)); (str "lgamma", (1, 0)); (str "y0", (1, 0)); (str "y1", (1, 0)); (str "yn", (2, 0));
   (str "acosh", (1, 0)); (str "asinh", (1, 0)); (str "atanh", (1, 0)); (str "cbrt", (1, 0));
   (str "expm1", (1, 0)); (str "ilogb", (1, 0)); (str "logb", (1, 0)); (str "nextafter", (1, 0));
   (str "remainder", (2, 0)); (str "round", (1, 0)); (str "nth", (2, -1)); (str "assign_to_index", (3, 0));
   (str "product", (1, 0)); (str "sum", (1, 0)); (str "cumsum", (1, 0)); (str "length", (1, 0));
   (str "avg", (1, 0)); (str "mean", (1, 0)); (str "median", (1, 0)); (str "reverse", (1, 0));
   (str "rev", (1, 0)); (str "sort", (1, -1)); (str "sortidx", (1, 0)); (str "nonzero", (1, 0));
   (str "list", (0, -1)); (str "nfill", (1, 1)); (str "aseq", (2, 1)); (str "interleave", (2, -1));
   (str "first", (1, 0)); (str "last", (1, 0)); (str "rest", (1, 0)); (str "butlast", (1, 0));
   (str "!", (1, 0)); (str "not", (1, 0)); (str "dot", (2, 0)); (str "cross", (2, 0)); (str "det", (1, -1));
   (str "l2norm", (1, 0)); (str "min", (1, 0)); (str "max", (1, 0)); (str "range", (1, 0));
   (str "extrema", (1, 0)); (str "clip", (3, 0)); (str "scale", (5, 0)); (str "mtof", (1, 1));
   (str "ftom", (1, 1)); (str "sign", (1, 0)); (str "if", (2, 1)); (str "strlen", (1, 0));
   (str "strchar", (2, 0)); (str "strfind", (2, 0)); (str "strcmp", (2, 1)); (str "split", (2, 0));
   (str "join", (2, -1)); (str "bound", (1, 0)); (str "exists", (1, 0)); (str "emptybundle", (0, 1));
   (str "getaddresses", (0, 1)); (str "delete", (1, -1)); (str "getmsgcount", (0, 0)); (str "identity", (1, 0));
   (str "eval", (1, 0)); (str "tokenize", (1, 0)); (str "prog1", (1, -1)); (str "prog2", (1, -1));
   (str "progn", (1, -1)); (str "apply", (2, -1)); (str "map", (2, -1)); (str "lreduce", (2, 1));
   (str "rreduce", (2, 1)); (str "quote", (1, 0)); (str "value", (1, 0)); (str "lambda", (0, 0));
   (str "gettimetag", (0, 0)); (str "settimetag", (1, 0)); (str "getbundlemember", (2, 0));
   (str "assigntobundlemember", (3, 0)); (str "bitand", (2, 0)); (str "bitor", (2, 0)); (str "pi", (0, 0));
   (str "twopi", (0, 0)); (str "halfpi", (0, 0)); (str "quarterpi", (0, 0)); (str "oneoverpi", (0, 0));
   (str "twooverpi", (0, 0)); (str "degtorad", (0, 0)); (str "radtodeg", (0, 0)); (str "e", (0, 0));
   (str "lntwo", (0, 0)); (str "lnten", (0, 0)); (str "logtwoe", (0, 0)); (str "logtene", (0, 0));
   (str "sqrttwo", (0, 0)); (str "sqrthalf", (0, 0)); (str "float32", (1, 0)); (str "float64", (1, 0));
   (str "int8", (1, 0)); (str "char", (1, 0)); (str "int16", (1, 0)); (str "int32", (1, 0));
   (str "int64", (1, 0)); (str "uint8", (1, 0)); (str "uint16", (1, 0)); (str "uint32", (1, 0));
   (str "uint64", (1, 0)); (str "bool", (1, 0)); (str "string", (1, 0)); (str "blob", (1, 0));
   (str "cast", (2, 0)); (str "typetags", (1, 0)); (str "hton32", (1, 0)); (str "ntoh32", (1, 0));
   (str "hton64", (1, 0)); (str "ntoh64", (1, 0)); (str "readstring", (1, 0)); (str "strtotime", (1, 0));
   (str "floattotime", (1, 0)); (str "match", (2, 0)); (str "quickhull", (1, 1)); (str "bundle", (0, -1));
   (str "phi", (0, 0)); (str "twelfth_root_of_2", (0, 0)); (str "thirteenth_root_of_3", (0, 0))].
(** osc_expr.c:2176-2187 osc_expr_lookupFunction. *)
Definition lookup (name : list Z) : option (Z * Z) :=
  option_map snd (find (fun p => streq name (fst p)) functions).

(** osc_expr_parser.y:329-385 osc_expr_parser_checkArity: is the number of arguments
    allowed? *)
Definition check_arity (r : Z * Z) (n : Z) : bool :=
  let '(req, optional) := r in
  if n =? req then true
  else if n <? req then false
  else if optional <? 0 then true
  else negb ((optional =? 0) || (optional <? n - req)).

(** osc_expr_parser.y:461-483 osc_expr_parser_reduce_PrefixFunction; NULL is None. *)
Definition reduce_prefix (name : list Z) (args : list parg) : option pexpr :=
  match lookup name with
  | None => None
  | Some r => if check_arity r (zlen args) then Some (Call name args) else None
  end.
(** osc_expr_parser.y:424-441 osc_expr_parser_reduce_InfixOperator. *)
Definition reduce_infix (name : list Z) (left right : parg) : option pexpr :=
  match lookup name with
  | None => None
  | Some _ => Some (Call name [left; right])
  end.
(** osc_expr_parser.y:443-459 osc_expr_parser_reduce_InfixAssignmentOperator.  Copies
    made by osc_expr_arg_copy are the same: atoms are numbers or texts here. *)
Definition reduce_infix_assign (name : list Z) (left right : parg) : option pexpr :=
  reduce_prefix (str "assign") [left; PExpr (reduce_infix name left right)].
(** osc_expr_parser.y:485-515 osc_expr_parser_reduce_PrefixUnaryOperator. *)
Definition reduce_prefix_unary (address op : list Z) : option pexpr :=
  if negb (hd 0 address =? 47) then None else
  reduce_prefix (str "assign") [PAddr address; PExpr (reduce_prefix op [PAddr address])].
(** osc_expr_parser.y:517-537 osc_expr_parser_reduce_PostfixUnaryOperator. *)
Definition reduce_postfix_unary (address op : list Z) : option pexpr :=
  match reduce_prefix_unary address op with
  | None => None
  | Some e => reduce_prefix (str "prog1") [PAddr address; PExpr (Some e)]
  end.
(** osc_expr_parser.y:539-570 osc_expr_parser_reduce_NullCoalescingOperator. *)
Definition reduce_null_coalescing (address : list Z) (other : parg) : option pexpr :=
  if negb (hd 0 address =? 47) then None else
  reduce_prefix (str "if") [PExpr (Some (Call (str "bound") [PAddr address])); PAddr address; other].

(** osc_expr.c:6523-6537 osc_expr_appendExpr. *)
Definition append_expr (l : list pexpr) (e : option pexpr) : res (list pexpr) :=
  match l with
  | [] => Ok []
  | _ => match e with Some e => Ok (l ++ [e]) | None => Ub NullDeref end
  end.
(** The list of expressions of a function, osc_expr_parser.y:820-873, 940-996 and
    1042-1098: arguments that are not expressions are put into prog1.  [many]
    is set for the first of these three passages.  There (857-862) the argument
    is not taken out of the list of arguments when it becomes an argument of prog1,
    and the ones after it are freed or used a second time; the model ends with
    [Ub Dangling] here although the parser itself runs on. *)
Fixpoint body_rest (many : bool) (body : list pexpr) (args : list parg) : res (list pexpr) :=
  match args with
  | [] => Ok body
  | PExpr e :: args' => do body <- append_expr body e; body_rest many body args'
  | a :: args' =>
      if many && negb (match args' with [] => true | _ => false end) then Ub Dangling else
      do body <- append_expr body (Some (Call (str "prog1") [a])); body_rest many body args'
  end.
Definition body_of (many : bool) (args : list parg) : res (list pexpr) :=
  match args with
  | [] => Ok []
  | PExpr e :: args' => body_rest many (match e with Some e => [e] | None => [] end) args'
  | a :: args' => body_rest many [Call (str "prog1") [a]] args'
  end.

(** osc_expr_parser.y:629-663: the levels, from low to high. *)
Definition op_level (o : op) : Z :=
  match o with
  | OOr | OOror => 3
  | OAnd | OAndand => 4
  | OEq | ONeq => 5
  | OLt | OGt | OLe | OGe => 6
  | OAdd | OSub => 7
  | OMul | ODiv | OMod => 8
  | OPow => 9
  end.
Definition op_name (o : op) : list Z :=
  match o with
  | OAdd => str "+" | OSub => str "-" | OMul => str "*" | ODiv => str "/" | OMod => str "%" | OPow => str "^"
  | OEq => str "==" | ONeq => str "!=" | OLt => str "<" | OLe => str "<=" | OGt => str ">" | OGe => str ">="
  | OAnd => str "&" | OAndand => str "&&" | OOr => str "|" | OOror => str "||"
  end.
(** Is the operator shifted rather than a production of level [p] reduced? *)
Definition shifted (p : Z) (t : etoken) : bool :=
  match t with
  | TOp o => p <? op_level o           (* %left *)
  | TOpAssign _ => p <=? 1             (* %right *)
  | TQuest => p <=? 2                  (* %right *)
  | TOpenDbl => p <? 11                (* %left *)
  | _ => false
  end.
Definition LEVEL_ASSIGN : Z := 1.
Definition LEVEL_TERNARY : Z := 2.
Definition LEVEL_PREFIX : Z := 10.
Definition step_name (inc : bool) : list Z := if inc then str "plus1" else str "minus1".

(** The outcome of reading: None is an error, after which the parser returns 1. *)
Definition try {A B} (m : res (option A)) (k : A -> res (option B)) : res (option B) :=
  match m with
  | Ok (Some x) => k x
  | Ok None => Ok None
  | Ub u => Ub u
  | Fuel => Fuel
  end.
Notation "'get' ' p <- m ; k" := (try m (fun p => k)) (at level 200, p pattern, m at level 100, k at level 200).

(** A token that must come next. *)
Definition etoken_eqb (t u : etoken) : bool :=
  match t, u with
  | TComma, TComma | TColon, TColon | TClose, TClose | TCloseSq, TCloseSq | TCloseDbl, TCloseDbl
  | TCloseBr, TCloseBr | TOpen, TOpen | TAssign, TAssign => true
  | _, _ => false
  end.
Definition expect (t : etoken) (ts : list etoken) : res (option (list etoken)) :=
  match ts with
  | u :: ts' => if etoken_eqb t u then Ok (Some ts') else Ok None
  | [] => Ok None
  end.

(** osc_expr_parser.y:1132-1156 parameters and parameter: the rest of [parameters ']']. *)
Fixpoint p_params (ts : list etoken) : option (list (list Z) * list etoken) :=
  match ts with
  | TStr s :: TCloseSq :: ts => Some ([s], ts)
  | TStr s :: TComma :: ts =>
      match p_params ts with Some (l, ts) => Some (s :: l, ts) | None => None end
  | _ => None
  end.
(** osc_expr_parser.y:784-1130 function: the parameters with the comma after them. *)
Definition p_head (ts : list etoken) : option (bool * list (list Z) * list etoken) :=
  match ts with
  | TOpenSq :: TCloseSq :: TComma :: ts => Some (false, [], ts)
  | TStr s :: TComma :: ts => Some (false, [s], ts)
  | TOpenSq :: ts =>
      match p_params ts with Some (l, TComma :: ts) => Some (true, l, ts) | _ => None end
  | _ => None
  end.

Definition is_pexpr (a : parg) : bool := match a with PExpr _ => true | _ => false end.
Definition fn_arg (address : list Z) (args : list parg) : list parg := PAddr address :: args.

(** osc_expr_parser.y:724-782 args and arg, 1158-1181 msg, msgs and bundle, 1183-1648 expr.
    [fuel] bounds the depth of the recursion; bison's stack is not modelled. *)
Fixpoint p_arg (fuel : nat) (p : Z) (ts : list etoken) : res (option (parg * list etoken)) :=
  match fuel with
  | O => Fuel
  | S fuel' => get ' (a, ts) <- p_primary fuel' ts; p_more fuel' p a ts
  end
(** The operators after an argument, 1248-1313, 1557-1562 and 1592-1595.  After an
    address the token [[ belongs to another production, 1596-1605, see below. *)
with p_more (fuel : nat) (p : Z) (a : parg) (ts : list etoken) : res (option (parg * list etoken)) :=
  match fuel with
  | O => Fuel
  | S fuel' =>
      match ts with
      | TOp o :: ts' =>
          if shifted p (TOp o) then
            get ' (b, ts') <- p_arg fuel' (op_level o) ts';
            p_more fuel' p (PExpr (reduce_infix (op_name o) a b)) ts'
          else Ok (Some (a, ts))
      | TOpAssign o :: ts' =>
          if shifted p (TOpAssign o) then
            get ' (b, ts') <- p_arg fuel' LEVEL_ASSIGN ts';
            p_more fuel' p (PExpr (reduce_infix_assign (op_name o) a b)) ts'
          else Ok (Some (a, ts))
      | TQuest :: ts' =>
          if shifted p TQuest then
            get ' (b, ts') <- p_arg fuel' 0 ts';
            get ' ts' <- expect TColon ts';
            get ' (c, ts') <- p_arg fuel' LEVEL_TERNARY ts';
            p_more fuel' p (PExpr (reduce_prefix (str "if") [a; b; c])) ts'
          else Ok (Some (a, ts))
      | TOpenDbl :: ts' =>
          if shifted p TOpenDbl then
            get ' (l, ts') <- p_args fuel' ts';
            get ' ts' <- expect TCloseDbl ts';
            p_more fuel' p (PExpr (reduce_prefix (str "nth") (a :: l))) ts'
          else Ok (Some (a, ts))
      | _ => Ok (Some (a, ts))
      end
  end
with p_args (fuel : nat) (ts : list etoken) : res (option (list parg * list etoken)) :=
  match fuel with
  | O => Fuel
  | S fuel' =>
      get ' (a, ts) <- p_arg fuel' 0 ts;
      match ts with
      | TComma :: ts' => get ' (l, ts') <- p_args fuel' ts'; Ok (Some (a :: l, ts'))
      | _ => Ok (Some ([a], ts))
      end
  end
with p_msgs (fuel : nat) (ts : list etoken) : res (option (list parg * list etoken)) :=
  match fuel with
  | O => Fuel
  | S fuel' =>
      match ts with
      | TAddr s :: TColon :: ts =>
          get ' (a, ts) <- p_arg fuel' 0 ts;
          match ts with
          | TComma :: ts' =>
              get ' (l, ts') <- p_msgs fuel' ts'; Ok (Some (PAtom (set_string atom_fresh 0 s) :: a :: l, ts'))
          | _ => Ok (Some ([PAtom (set_string atom_fresh 0 s); a], ts))
          end
      | _ => Ok None
      end
  end
(** What does not begin with an argument.  An unknown function or a wrong number of
    arguments is an error in 1189-1247 and 1360-1408, but not elsewhere. *)
with p_primary (fuel : nat) (ts : list etoken) : res (option (parg * list etoken)) :=
  match fuel with
  | O => Fuel
  | S fuel' =>
      match ts with
      | TNum a :: ts => Ok (Some (PAtom a, ts))
      | TStr s :: TOpen :: TClose :: ts =>
          match reduce_prefix s [] with Some e => Ok (Some (PExpr (Some e), ts)) | None => Ok None end
      | TStr s :: TOpen :: ts =>
          get ' (l, ts) <- p_args fuel' ts;
          get ' ts <- expect TClose ts;
          match reduce_prefix s l with Some e => Ok (Some (PExpr (Some e), ts)) | None => Ok None end
      | TStr s :: TDot :: TAddr q :: ts =>
          Ok (Some (PExpr (reduce_infix (str ".") (PAtom (set_string atom_fresh 0 s)) (PAddr q)), ts))
      | TStr _ :: TDot :: _ => Ok None
      | TStr _ :: TStep _ :: _ => Ok None
      | TStr s :: ts => Ok (Some (PAtom (set_string atom_fresh 0 s), ts))
      | TAddr s :: TOpen :: TClose :: ts => Ok (Some (PExpr (Some (Call (str "apply") [PAddr s])), ts))
      | TAddr s :: TOpen :: ts =>
          get ' (l, ts) <- p_args fuel' ts;
          get ' ts <- expect TClose ts;
          Ok (Some (PExpr (Some (Call (str "apply") (PAddr s :: l))), ts))
      | TAddr s :: TDot :: TAddr q :: TAssign :: ts =>
          get ' (a, ts) <- p_arg fuel' LEVEL_ASSIGN ts;
          Ok (Some (PExpr (reduce_prefix (str "assigntobundlemember") [PAddr s; PAddr q; a]), ts))
      | TAddr s :: TDot :: TAddr q :: ts =>
          Ok (Some (PExpr (reduce_infix (str ".") (PAddr s) (PAddr q)), ts))
      | TAddr _ :: TDot :: _ => Ok None
      | TAddr s :: TStep inc :: ts =>
          match reduce_postfix_unary s (step_name inc) with
          | Some e => Ok (Some (PExpr (Some e), ts))
          | None => Ok None
          end
      | TAddr s :: TAssign :: ts =>
          get ' (a, ts) <- p_arg fuel' LEVEL_ASSIGN ts;
          if negb (hd 0 s =? 47) then Ok None else
          Ok (Some (PExpr (reduce_infix (str "assign") (PAddr s) a), ts))
      | TAddr s :: TElse :: ts =>
          get ' (a, ts) <- p_arg fuel' LEVEL_PREFIX ts;
          Ok (Some (PExpr (reduce_null_coalescing s a), ts))
      | TAddr s :: TElseAssign :: ts =>
          get ' (a, ts) <- p_arg fuel' LEVEL_PREFIX ts;
          match reduce_null_coalescing s a with
          | None => Ok None
          | Some e => Ok (Some (PExpr (reduce_infix (str "=") (PAddr s) (PExpr (Some e))), ts))
          end
      | TAddr s :: TOpenDbl :: ts =>
          get ' (a, ts) <- p_arg fuel' 0 ts;
          match ts with
          | TColon :: ts =>
              get ' (b, ts) <- p_arg fuel' 0 ts;
              get ' (l, ts) <-
                match ts with
                | TColon :: ts => get ' (c, ts) <- p_arg fuel' 0 ts; Ok (Some ([a; c; b], ts))
                | _ => Ok (Some ([a; b], ts))
                end;
              get ' ts <- expect TCloseDbl ts;
              get ' ts <- expect TAssign ts;
              get ' (v, ts) <- p_arg fuel' LEVEL_ASSIGN ts;
              if negb (hd 0 s =? 47) then Ok None else
              Ok (Some (PExpr (reduce_prefix (str "assign_to_index")
                                 [PAddr s; PExpr (reduce_prefix (str "aseq") l); v]), ts))
          | _ =>
              get ' (l, ts) <-
                match ts with
                | TComma :: ts => get ' (l, ts) <- p_args fuel' ts; Ok (Some (a :: l, ts))
                | _ => Ok (Some ([a], ts))
                end;
              get ' ts <- expect TCloseDbl ts;
              match ts with
              | TAssign :: ts =>
                  get ' (v, ts) <- p_arg fuel' LEVEL_ASSIGN ts;
                  if negb (hd 0 s =? 47) then Ok None else
                  let indexes := match l with [i] => i | _ => PExpr (reduce_prefix (str "list") l) end in
                  Ok (Some (PExpr (reduce_prefix (str "assign_to_index") [PAddr s; indexes; v]), ts))
              | _ => Ok (Some (PExpr (reduce_prefix (str "nth") (PAddr s :: l)), ts))
              end
          end
      | TAddr s :: ts => Ok (Some (PAddr s, ts))
      | TQuoted s :: ts =>
          Ok (Some (PExpr (reduce_prefix (str "quote") [PAtom (set_string atom_fresh 0 s)]), ts))
      | TLambda :: TOpen :: ts =>
          match p_head ts with
          | None => Ok None
          | Some (many, params, ts) =>
              get ' (l, ts) <- p_args fuel' ts;
              get ' ts <- expect TClose ts;
              do body <- body_of many l;
              Ok (Some (PFun params body, ts))
          end
      | TOpen :: ts =>
          get ' (a, ts) <- p_arg fuel' 0 ts;
          match a with
          | PExpr e => get ' ts <- expect TClose ts; Ok (Some (PExpr e, ts))
          | PFun _ _ =>
              get ' ts <- expect TComma ts;
              get ' (l, ts) <- p_args fuel' ts;
              get ' ts <- expect TClose ts;
              Ok (Some (PExpr (reduce_prefix (str "apply") (a :: l)), ts))
          | _ => Ok None
          end
      | TOpenBr :: TCloseBr :: ts => Ok (Some (PExpr (reduce_prefix (str "bundle") []), ts))
      | TOpenBr :: ts =>
          get ' (l, ts) <- p_msgs fuel' ts;
          get ' ts <- expect TCloseBr ts;
          Ok (Some (PExpr (reduce_prefix (str "bundle") l), ts))
      | TNot :: ts =>
          get ' (a, ts) <- p_arg fuel' LEVEL_PREFIX ts;
          Ok (Some (PExpr (Some (Call (str "!") [a])), ts))
      | TOp OSub :: ts =>
          get ' (a, ts) <- p_arg fuel' LEVEL_PREFIX ts;
          Ok (Some (PExpr (Some (Call (str "-") [PAtom (set_int32 atom_fresh 0); a])), ts))
      | TStep inc :: TAddr s :: ts =>
          match reduce_prefix_unary s (step_name inc) with
          | Some e => Ok (Some (PExpr (Some e), ts))
          | None => Ok None
          end
      | TOpenSq :: TCloseSq :: ts => Ok (Some (PExpr (reduce_prefix (str "list") []), ts))
      | TOpenSq :: ts =>
          get ' (l, ts) <- p_args fuel' ts;
          get ' ts <- expect TCloseSq ts;
          Ok (Some (PExpr (reduce_prefix (str "list") l), ts))
      | TTick :: TStr s :: TTick :: ts =>
          Ok (Some (PExpr (reduce_prefix (str "value") [PAtom (set_string atom_fresh 0 s)]), ts))
      | TTick :: TAddr s :: TTick :: ts =>
          Ok (Some (PExpr (reduce_prefix (str "value") [PAddr s]), ts))
      | _ => Ok None
      end
  end.

(** One of the expressions separated by commas, osc_expr_parser.y:685-715: an
    expression, an address or a number with a comma or the end after it.
    osc_expr_parser_reduce_Value, 572-591. *)
Definition p_item (fuel : nat) (ts : list etoken) : res (option (option pexpr * list etoken)) :=
  get ' (a, ts') <- p_arg fuel 0 ts;
  match ts' with
  | [] | TComma :: _ =>
      match a, ts with
      | PExpr e, _ => Ok (Some (e, ts'))
      | PAddr _, _ | PAtom _, TNum _ :: _ => Ok (Some (reduce_prefix (str "progn") [a], ts'))
      | _, _ => Ok None
      end
  | _ => Ok None
  end.
(** [*tmp_exprstack]: the first expression or one more. *)
Definition push (tmp : list pexpr) (e : option pexpr) : res (list pexpr) :=
  match tmp with
  | [] => Ok (match e with Some e => [e] | None => [] end)
  | _ => append_expr tmp e
  end.
(** osc_expr_parser.y:670-715 expns, from a place where an expression has to come.
    The value is that of the parser with the list of expressions so far. *)
Fixpoint p_items (fuel : nat) (tmp : list pexpr) (ts : list etoken) : res (Z * list pexpr) :=
  match fuel with
  | O => Fuel
  | S fuel' =>
      do r <- p_item fuel' ts;
      match r with
      | None => Ok (1, tmp)
      | Some (e, ts) =>
          do tmp <- push tmp e;
          match ts with
          | [] => Ok (0, tmp)
          | _ :: ts => p_items fuel' tmp ts
          end
      end
  end.
Definition enough (ts : list etoken) : nat := 4 * length ts + 4.
(** Nothing at all may stand at the beginning. *)
Definition p_expns (ts : list etoken) : res (Z * list pexpr) :=
  match ts with
  | [] => Ok (0, [])
  | TComma :: ts => p_items (enough ts) [] ts
  | _ => p_items (enough ts) [] ts
  end.

Section Parse.
Context (strtod : list Z -> Z) (junk : bytes).
(** osc_expr_parser.y:162-209 osc_expr_parser_parseExpr: the code and [*f], also
    after an error. *)
Definition parse_expr (ptr : bytes) : res (Z * list pexpr) :=
  do s <- rdstr ptr 0;
  do ts <- e_scan strtod junk (S (length s)) elexer_start s;
  p_expns ts.
(** osc_expr_parser.y:211-220 osc_expr_parser_parseExpr_r. *)
Definition parse_expr_r (ptr : bytes) : res (list pexpr) :=
  do ' (ret, f) <- parse_expr ptr; Ok (if ret =? 0 then f else []).
(** osc_expr_parser.y:222-241 osc_expr_parser_parseFunction with [*f] NULL before: the
    code and the function.  After an error [*f] may be a part of the text; this is left
    open. *)
Definition parse_function (ptr : bytes) : res (option (list (list Z) * list pexpr)) :=
  do s <- rdstr ptr 0;
  do ts <- e_scan strtod junk (S (length s)) elexer_start s;
  match ts with
  | TLambda :: _ =>
      do r <- p_primary (enough ts) ts;
      match r with Some (PFun params body, []) => Ok (Some (params, body)) | _ => Ok None end
  | _ => Ok None
  end.
End Parse.
