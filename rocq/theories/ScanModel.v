(** Reading a bundle from text: the scanner osc_scanner.l and the parser
    osc_parser.y.  Both are written for generators, flex and bison; the model has
    the regular expressions, rules, productions and actions of these files, and
    says itself what the generated code does with them.  Characters are their
    codes 0..255. *)

From Coq Require Import String ZArith List Bool.
From Verif Require Import Base Text TimetagModel SerialModel AtomSModel.
Import ListNotations.
Open Scope Z_scope.

(** * flex *)

(** Regular expressions.  [Void] matches nothing at all. *)
Inductive re : Type :=
| Void
| Eps
| Cls (f : Z -> bool)
| Cat (r s : re)
| Alt (r s : re)
| Star (r : re).

Fixpoint nullable (r : re) : bool :=
  match r with
  | Void | Cls _ => false
  | Eps | Star _ => true
  | Cat r s => nullable r && nullable s
  | Alt r s => nullable r || nullable s
  end.
Definition cat (r s : re) : re :=
  match r with Void => Void | Eps => s | _ => Cat r s end.
Definition alt (r s : re) : re :=
  match r, s with Void, _ => s | _, Void => r | _, _ => Alt r s end.
(** What is left to match after the character [c]. *)
Fixpoint deriv (c : Z) (r : re) : re :=
  match r with
  | Void | Eps => Void
  | Cls f => if f c then Eps else Void
  | Cat r s => if nullable r then alt (cat (deriv c r) s) (deriv c s) else cat (deriv c r) s
  | Alt r s => alt (deriv c r) (deriv c s)
  | Star r => cat (deriv c r) (Star r)
  end.
(** The length of the longest beginning of [s] that matches. *)
Fixpoint longest (r : re) (s : list Z) : option nat :=
  let here := if nullable r then Some O else None in
  match s with
  | [] => here
  | c :: s' => match longest (deriv c r) s' with Some n => Some (S n) | None => here end
  end.
(** The rule with the longest match, the first of them if there are several. *)
Fixpoint pick {A} (rules : list (re * A)) (s : list Z) : option (A * nat) :=
  match rules with
  | [] => None
  | (r, a) :: rules' =>
      match longest r s, pick rules' s with
      | Some n, Some (b, m) => if (m <=? n)%nat then Some (a, n) else Some (b, m)
      | Some n, None => Some (a, n)
      | None, x => x
      end
  end.

(** Notation of flex. *)
Definition lit (c : Z) : re := Cls (Z.eqb c).
Definition word (s : list Z) : re := fold_right (fun c r => Cat (lit c) r) Eps s.
Definition one_of (s : list Z) : re := Cls (fun c => existsb (Z.eqb c) s).
Definition none_of (s : list Z) : re := Cls (fun c => negb (existsb (Z.eqb c) s)).
Definition range (a b : Z) : re := Cls (fun c => (a <=? c) && (c <=? b)).
Definition opt (r : re) : re := Alt r Eps.
Definition plus (r : re) : re := Cat r (Star r).
Definition seq (l : list re) : re := fold_right Cat Eps l.
Definition any_of (l : list re) : re := fold_right Alt Void l.
(** The dot: any character but newline. *)
Definition dot : re := none_of [10].

(** * osc_scanner.l *)

(** osc_scanner.l:39-56. *)
Definition digit : re := range 48 57.
Definition xdigit_char (c : Z) : bool :=
  ((48 <=? c) && (c <=? 57)) || ((65 <=? c) && (c <=? 70)) || ((97 <=? c) && (c <=? 102)).
Definition xdigit : re := Cls xdigit_char.
Definition dseq : re := plus digit.
Definition dseq_opt : re := Star digit.
Definition frac_re : re := Alt (seq [dseq_opt; lit 46; dseq]) (Cat dseq (lit 46)).
Definition exp_re : re := seq [one_of (str "eE"); opt (one_of (str "+-")); dseq].
Definition exp_opt : re := opt exp_re.
Definition fsuff_opt : re := opt (one_of (str "flFL")).
Definition hpref : re := Cat (lit 48) (one_of (str "xX")).
Definition hdseq : re := plus xdigit.
Definition hdseq_opt : re := Star xdigit.
Definition hfrac : re := Alt (seq [hdseq_opt; lit 46; hdseq]) (Cat hdseq (lit 46)).
Definition bexp : re := seq [one_of (str "pP"); opt (one_of (str "+-")); dseq].
Definition dfc : re := Alt (seq [frac_re; exp_opt; fsuff_opt]) (seq [dseq; exp_re; fsuff_opt]).
Definition hfc : re := Alt (seq [hpref; hfrac; bexp; fsuff_opt]) (seq [hpref; hdseq; bexp; fsuff_opt]).
Definition c99_floating_point_constant : re := Alt dfc hfc.
Definition quoted_string_re : re := none_of [34; 92].

(** osc_scanner.l:153. *)
Definition integer_re : re := Alt (seq [opt (lit 45); range 49 57; Star digit]) (lit 48).
(** osc_scanner.l:159. *)
Definition hex_re : re := seq [lit 48; one_of (str "xX"); plus xdigit].
(** osc_scanner.l:173. *)
Definition address_re : re := Cat (lit 47) (plus (none_of [32; 9; 10; 35])).
(** osc_scanner.l:181. *)
Definition iso_re : re :=
  seq [opt (lit 45); opt (Cat (range 49 57) (Star digit)); digit; digit; digit; digit; lit 45;
       Alt (Cat (lit 49) (range 48 50)) (Cat (lit 48) (range 49 57)); lit 45;
       opt (any_of [Cat (lit 51) (range 48 49); Cat (lit 48) (range 49 57); Cat (range 49 50) digit]); lit 84;
       Alt (Cat (lit 50) (range 48 51)) (Cat (range 48 49) digit); lit 58;
       range 48 53; digit; lit 58; range 48 53; digit;
       opt (opt (Cat (lit 46) (plus digit)));
       opt (Alt (lit 90) (seq [one_of (str "+-"); Alt (Cat (lit 50) (range 48 51)) (Cat (range 48 49) digit); lit 58; range 48 53; digit]))].

(** The tokens OSCADDRESS and OSCVALUE with their atoms, and characters. *)
Inductive token : Type :=
| TAddress (s : list Z)
| TValue (a : atom)
| TChar (c : Z).

(** The start condition, [*buf] and [*buflen]. *)
Record lexer := Lexer { quoting : bool; l_buf : option bytes; l_buflen : Z }.
Definition lexer_start : lexer := Lexer false None 0.

(** strtoull with base 16 of a text beginning with 0x. *)
Definition hex_digit (c : Z) : Z :=
  if c <=? 57 then c - 48 else if c <=? 70 then c - 55 else c - 87.
Definition hex_value (s : list Z) : Z :=
  Z.min (2^64 - 1) (fold_left (fun n c => 16 * n + hex_digit c) (skipn 2 s) 0).

Section Scan.
(** strtod and osc_timetag_fromISO8601. *)
Context (strtod : list Z -> Z) (iso : list Z -> timetag).
(** What new memory holds. *)
Context (junk : bytes).

(** An action gets [yytext]; it returns the token, if any, and the number of
    characters consumed. *)
Definition action := list Z -> lexer -> res (lexer * option token * nat).
Definition returns (t : list Z -> token) : action :=
  fun text l => Ok (l, Some (t text), length text).
Definition skips : action := fun text l => Ok (l, None, length text).

(** osc_mem_resize of the block [b]. *)
Definition grown (b : bytes) (n : Z) : bytes :=
  firstn (Z.to_nat n) (b ++ junk ++ repeat 170 (Z.to_nat n)).

(** osc_scanner.l:68-70. *)
Definition act_open : action := fun text l => Ok (Lexer true (l_buf l) (l_buflen l), None, length text).
(** osc_scanner.l:72-81. *)
Definition act_quoted : action := fun text l =>
  match l_buf l with
  | Some b =>
      let b := grown b (l_buflen l + zlen text + 1) in
      let buflen := l_buflen l + zlen text + 1 in
      do s <- rdstr b 0;
      do b <- write b (zlen s) (text ++ [0]);
      Ok (Lexer (quoting l) (Some b) buflen, None, length text)
  | None => Ok (l, Some (TValue (set_string atom_fresh 0 text)), length text)
  end.
(** osc_scanner.l:83-91. *)
Definition act_close : action := fun text l =>
  match l_buf l with
  | Some b => do s <- rdstr b 0; Ok (Lexer false None 0, Some (TValue (set_string atom_fresh 0 s)), length text)
  | None => Ok (Lexer false None (l_buflen l), None, length text)
  end.
(** osc_scanner.l:93-107. *)
Definition act_escape : action := fun text l =>
  let yyleng := zlen text in
  do last <- rd text (yyleng - 1);
  match l_buf l with
  | Some b =>
      let b := grown b (l_buflen l + yyleng) in
      do b <- write b (l_buflen l) (firstn (Z.to_nat (yyleng - 1)) text);
      let buflen := l_buflen l + (yyleng - 1) in
      do b <- write b (buflen - 1) [last];
      do b <- write b buflen [0];
      Ok (Lexer (quoting l) (Some b) buflen, None, length text)
  | None =>
      let b := grown [] yyleng in
      do b <- write b 0 (firstn (Z.to_nat (yyleng - 1)) text);
      let buflen := yyleng - 1 in
      do b <- write b (buflen - 1) [last];
      do b <- write b buflen [0];
      Ok (Lexer (quoting l) (Some b) buflen, None, length text)
  end.
(** osc_scanner.l:147-151. *)
Definition act_char : action := fun text l =>
  do c <- rd text 1; Ok (l, Some (TValue (set_int8 atom_fresh (s8 c))), length text).
(** osc_scanner.l:159-171: more than ten characters are 64 bit. *)
Definition hex_atom (text : list Z) : atom :=
  if 10 <? zlen text then set_uint64 atom_fresh (hex_value text)
  else set_uint32 atom_fresh (hex_value text).
(** osc_scanner.l:173-179. *)
Definition act_address : action := fun text l =>
  do last <- rd text (zlen text - 1);
  let text := if last =? 44 then firstn (length text - 1) text else text in
  Ok (l, Some (TAddress text), length text).

(** osc_scanner.l:68-190, the rules of the start condition INITIAL. *)
Definition initial_rules : list (re * action) :=
  [ (lit 34, act_open);
    (word [34; 34], returns (fun _ => TValue (set_string atom_fresh 0 [])));
    (Cat (opt (lit 45)) c99_floating_point_constant, returns (fun s => TValue (set_double atom_fresh (strtod s))));
    (word (str "true"), returns (fun _ => TValue (set_true atom_fresh)));
    (word (str "false"), returns (fun _ => TValue (set_false atom_fresh)));
    (word (str "nil"), returns (fun _ => TValue (set_nil atom_fresh)));
    (any_of [lit 58; lit 123; lit 125; lit 44], returns (fun s => TChar (s8 (hd 0 s))));
    (Alt (lit 91) (lit 93), returns (fun s => TChar (s8 (hd 0 s))));
    (seq [lit 39; dot; lit 39], act_char);
    (integer_re, returns (fun s => TValue (set_int32 atom_fresh (s32 (strtol s)))));
    (hex_re, returns (fun s => TValue (hex_atom s)));
    (address_re, act_address);
    (iso_re, returns (fun s => TValue (set_timetag atom_fresh (iso s))));
    (plus (one_of [32; 9; 10]), skips);
    (dot, returns (fun s => TChar (s8 (hd 0 s)))) ].
(** The rules of the exclusive start condition quote. *)
Definition quote_rules : list (re * action) :=
  [ (plus quoted_string_re, act_quoted);
    (lit 34, act_close);
    (seq [Star quoted_string_re; lit 92; dot], act_escape) ].

(** All tokens of a text.  Where no rule matches flex prints the character and
    goes on.  The parser may not want all of the tokens; the actions have no effect
    it could see.  [fuel] bounds the number of matches. *)
Fixpoint scan (fuel : nat) (l : lexer) (s : list Z) : res (list token) :=
  match s with
  | [] => Ok []
  | _ :: s' =>
      match fuel with
      | O => Fuel
      | S fuel' =>
          match pick (if quoting l then quote_rules else initial_rules) s with
          | None => scan fuel' l s'
          | Some (act, n) =>
              do ' (l, t, k) <- act (firstn n s) l;
              do ts <- scan fuel' l (skipn k s);
              Ok (match t with Some t => t :: ts | None => ts end)
          end
      end
  end.

(** * osc_parser.y *)

(** The productions, from left to right.  The result is None for a syntax error,
    otherwise the value and the tokens left.  The size of bison's stack, which
    limits the nesting of bundles to some thousands, is not modelled.  [fuel]
    bounds the number of productions. *)

(** osc_parser.y:203-243 messages and message: at least one message; what follows an
    address. *)
Fixpoint p_messages (fuel : nat) (ts : list token) : res (option (list umsg * list token)) :=
  match fuel with
  | O => Fuel
  | S fuel' =>
      match ts with
      | TAddress a :: ts =>
          do r <- p_args fuel' ts;
          match r with
          | None => Ok None
          | Some (args, ts) =>
              let m := UMsg (Some a) args in
              match ts with
              | TChar 44 :: ts =>
                  do r <- p_messages fuel' ts;
                  match r with
                  | None => Ok None
                  | Some (ms, ts) => Ok (Some (m :: ms, ts))
                  end
              | _ => Ok (Some ([m], ts))
              end
          end
      | _ => Ok None
      end
  end
with p_args (fuel : nat) (ts : list token) : res (option (list atom * list token)) :=
  match fuel with
  | O => Fuel
  | S fuel' =>
      match ts with
      | TChar 58 :: TChar 91 :: ts => p_data fuel' ts
      | TChar 58 :: ts =>
          do r <- p_datum fuel' ts;
          match r with
          | None => Ok None
          | Some (a, ts) => Ok (Some ([a], ts))
          end
      | _ => Ok (Some ([], ts))
      end
  end
(** osc_parser.y:245-251 data and 264-268 list: the rest of a list. *)
with p_data (fuel : nat) (ts : list token) : res (option (list atom * list token)) :=
  match fuel with
  | O => Fuel
  | S fuel' =>
      do r <- p_datum fuel' ts;
      match r with
      | None => Ok None
      | Some (a, ts) =>
          match ts with
          | TChar 44 :: ts =>
              do r <- p_data fuel' ts;
              match r with
              | None => Ok None
              | Some (l, ts) => Ok (Some (a :: l, ts))
              end
          | TChar 93 :: ts => Ok (Some ([a], ts))
          | _ => Ok None
          end
      end
  end
(** osc_parser.y:254-262 datum and 190-201 subbundle. *)
with p_datum (fuel : nat) (ts : list token) : res (option (atom * list token)) :=
  match fuel with
  | O => Fuel
  | S fuel' =>
      match ts with
      | TAddress s :: ts => Ok (Some (set_string atom_fresh 0 s, ts))
      | TValue a :: ts => Ok (Some (a, ts))
      | TChar 123 :: TChar 125 :: ts => Ok (Some (set_bndl atom_fresh 0 [], ts))
      | TChar 123 :: ts =>
          do r <- p_messages fuel' ts;
          match r with
          | Some (ms, TChar 125 :: ts) => Ok (Some (set_bndl atom_fresh 0 ms, ts))
          | _ => Ok None
          end
      | _ => Ok None
      end
  end.

(** A character of 128 or more is a token of negative number, which bison takes for
    the end of the text. *)
Fixpoint until_end (ts : list token) : list token :=
  match ts with
  | TChar c :: ts' => if c <=? 0 then [] else TChar c :: until_end ts'
  | t :: ts' => t :: until_end ts'
  | [] => []
  end.

(** osc_parser.y:180-188 bundle with the end of the text: [*bndl] is set when the
    messages are complete, before it is seen what follows. *)
Definition p_bundle (ts : list token) : res (Z * option (list umsg)) :=
  do r <- p_messages (4 * length ts + 4) ts;
  match r with
  | None => Ok (1, None)
  | Some (ms, []) => Ok (0, Some ms)
  | Some (ms, _ :: _) => Ok (1, Some ms)
  end.

(** osc_parser.y:107-136 osc_parser_parseString with [*bndl] NULL before: the code
    and [*bndl]; osc_error.h:73 OSC_ERR_PARSER.  [ptr] is the text. *)
Definition parse_string (ptr : bytes) : res (Z * option (list umsg)) :=
  do s <- rdstr ptr 0;
  do ts <- scan (S (length s)) lexer_start s;
  do ' (ret, bndl) <- p_bundle (until_end ts);
  Ok (if negb (ret =? 0) then 4096 else 0, bndl).
(** osc_parser.y:138-143 osc_parser_parseString_r. *)
Definition parse_string_r (ptr : bytes) : res (option (list umsg)) :=
  do ' (_, bndl) <- parse_string ptr; Ok bndl.

End Scan.
