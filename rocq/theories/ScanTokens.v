(** Proofs about the scanner: one token at a time. *)

From Coq Require Import String ZArith List Bool Lia.
From Verif Require Import Base Text BaseProofs WireSpec TimetagModel SerialModel SerialSpec AtomSModel AtomSpec AtomProofs FormatSpec
  ScanModel ScanSpec ScanProofs.
Import ListNotations.
Open Scope Z_scope.

Lemma longest_cat_cls f r c s : longest (Cat (Cls f) r) (c :: s) = if f c then option_map S (longest r s) else None.
Proof.
  cbn [longest nullable andb deriv]. destruct (f c); cbn [cat].
  - destruct (longest r s); reflexivity.
  - now rewrite longest_void.
Qed.
Lemma longest_word w rest : longest (word w) (w ++ rest) = Some (length w).
Proof.
  induction w as [|c w IH]; [apply longest_eps|]. change (word (c :: w)) with (Cat (Cls (Z.eqb c)) (word w)). cbn [app length].
  rewrite longest_cat_cls, Z.eqb_refl. now rewrite IH.
Qed.
Lemma longest_two r c d s : nullable r = false -> nullable (deriv c r) = false ->
  longest r (c :: d :: s) = option_map (fun n => S (S n)) (longest (deriv d (deriv c r)) s).
Proof. intros H1 H2. cbn [longest]. rewrite H1, H2. destruct (longest _ s); reflexivity. Qed.

Section Tokens.
Context (strtod : list Z -> Z) (iso : list Z -> timetag) (junk : bytes).

Definition scans (l : lexer) (s : list Z) (ts : list token) : Prop :=
  forall k, (length s <= k)%nat -> scan strtod iso junk k l s = Ok ts.

Lemma scans_nil l : scans l [] [].
Proof. intros k _. now destruct k. Qed.
Lemma scans_step l s act n l' t k ts : s <> [] ->
  pick (if quoting l then quote_rules junk else initial_rules strtod iso) s = Some (act, n) ->
  act (firstn n s) l = Ok (l', t, k) -> (0 < k)%nat -> scans l' (skipn k s) ts ->
  scans l s (match t with Some t => t :: ts | None => ts end).
Proof.
  intros Hs Hp Ha Hk H f Hf. destruct s as [|c s]; [contradiction|]. destruct f as [|f]; [cbn [length] in Hf; lia|].
  cbn [scan]. rewrite Hp, Ha. cbn [bind]. cbv beta iota.
  rewrite H; [reflexivity|]. rewrite skipn_length. cbn [length] in Hf |- *. lia.
Qed.

(** A token of a rule that returns. *)
Lemma scans_rule i r f w rest ts : nth_error (initial_rules strtod iso) i = Some (r, returns f) -> w <> [] ->
  longest r (w ++ rest) = Some (length w) ->
  Forall (below (w ++ rest) (length w)) (firstn i (initial_rules strtod iso)) ->
  Forall (upto (w ++ rest) (length w)) (skipn (S i) (initial_rules strtod iso)) ->
  scans lexer_start rest ts -> scans lexer_start (w ++ rest) (f w :: ts).
Proof.
  intros Hi Hw L Hb Ha H.
  pose proof (pick_nth _ _ _ _ _ _ Hi L Hb Ha) as P.
  assert (F : firstn (length w) (w ++ rest) = w) by (rewrite firstn_app, Nat.sub_diag, firstn_all, firstn_O; apply app_nil_r).
  assert (K : skipn (length w) (w ++ rest) = rest) by (rewrite skipn_app, Nat.sub_diag, skipn_all; reflexivity).
  apply (scans_step lexer_start (w ++ rest) (returns f) (length w) lexer_start (Some (f w)) (length w) ts).
  - destruct w; [contradiction|discriminate].
  - exact P.
  - rewrite F. reflexivity.
  - clear P Hb Ha L. destruct w; [contradiction|cbn [length]; lia].
  - now rewrite K.
Qed.

Lemma below_none {A} s n (x : re * A) : longest (fst x) s = None -> below s n x.
Proof. intros H m E. congruence. Qed.
Lemma upto_none {A} s n (x : re * A) : longest (fst x) s = None -> upto s n x.
Proof. intros H m E. congruence. Qed.
Lemma upto_dot {A} c s n (a : A) : (1 <= n)%nat -> upto (c :: s) n (dot, a).
Proof. intros H m. cbn [fst]. unfold dot, none_of. rewrite longest_cls. destruct (negb _); [|discriminate]. intros [= <-]. exact H. Qed.

(** Rules that cannot begin with the first character. *)
Ltac dead := first [apply below_none | apply upto_none]; cbn [fst app]; refine (longest_first _ _ _ _ _); reflexivity.
Ltac rules_list := cbn [firstn skipn initial_rules]; repeat first [apply Forall_nil | apply Forall_cons].

Lemma scans_punctuation c rest ts : In c [58; 123; 125; 44; 91; 93] -> scans lexer_start rest ts ->
  scans lexer_start ([c] ++ rest) (TChar c :: ts).
Proof.
  intros H Hr.
  assert (K : forall i r, nth_error (initial_rules strtod iso) i = Some (r, returns (fun s => TChar (s8 (hd 0 s)))) ->
     longest r ([c] ++ rest) = Some (length [c]) ->
     Forall (below ([c] ++ rest) (length [c])) (firstn i (initial_rules strtod iso)) ->
     Forall (upto ([c] ++ rest) (length [c])) (skipn (S i) (initial_rules strtod iso)) ->
     s8 c = c -> scans lexer_start ([c] ++ rest) (TChar c :: ts)).
  { intros i r Hi L Hb Ha E. rewrite <- E at 2. exact (scans_rule i r _ [c] rest ts Hi ltac:(discriminate) L Hb Ha Hr). }
  cbn [In] in H. destruct H as [<-|[<-|[<-|[<-|[<-|[<-|[]]]]]]].
  1-4: apply (K 6%nat _ eq_refl); [|rules_list; dead| |reflexivity].
  9-10: apply (K 7%nat _ eq_refl); [|rules_list; dead| |reflexivity].
  all: try (cbn [app longest any_of fold_right deriv lit alt nullable orb Z.eqb Pos.eqb]; now rewrite ?longest_eps).
  all: rules_list; try dead; cbn [app length]; apply upto_dot; lia.
Qed.
Lemma scans_word i f w rest ts : nth_error (initial_rules strtod iso) i = Some (word w, returns f) -> In w [str "true"; str "false"; str "nil"] ->
  (i = 3 \/ i = 4 \/ i = 5)%nat ->
  scans lexer_start rest ts -> scans lexer_start (w ++ rest) (f w :: ts).
Proof.
  intros Hi Hw Hn Hr. apply (scans_rule i (word w)); try assumption.
  - destruct Hw as [<-|[<-|[<-|[]]]]; discriminate.
  - apply longest_word.
  - destruct Hw as [<-|[<-|[<-|[]]]]; destruct Hn as [-> |[-> | ->]]; try discriminate Hi; rules_list; dead.
  - destruct Hw as [<-|[<-|[<-|[]]]]; destruct Hn as [-> |[-> | ->]]; try discriminate Hi; rules_list; try dead; apply upto_dot; cbn; lia.
Qed.

(** Words before a delimiter. *)
Lemma longest_delimited r w rest : bounded_re r = true -> delimited rest -> matches r w -> longest r (w ++ rest) = Some (length w).
Proof. intros Hr Hd H. apply longest_is; [exact H|]. intros n. now apply bounded. Qed.
Lemma upto_bounded {A} r w rest (a : A) : bounded_re r = true -> delimited rest -> upto (w ++ rest) (length w) (r, a).
Proof. intros Hr Hd m. cbn [fst]. now apply bounded. Qed.
Lemma upto_dot_word {A} w rest (a : A) : w <> [] -> upto (w ++ rest) (length w) (dot, a).
Proof. intros H. destruct w as [|c w]; [contradiction|]. cbn [app length]. apply upto_dot. lia. Qed.
Lemma below_lacking {A} f r w rest n (a : A) : bounded_re r = true -> delimited rest -> wf_bytes w -> needs r f = true ->
  Forall (fun c => f c = false) w -> below (w ++ rest) n (r, a).
Proof. intros Hr Hd Hb Hn Hf. apply below_none. cbn [fst]. now apply (lacking f). Qed.
Lemma upto_lacking {A} f r w rest n (a : A) : bounded_re r = true -> delimited rest -> wf_bytes w -> needs r f = true ->
  Forall (fun c => f c = false) w -> upto (w ++ rest) n (r, a).
Proof. intros Hr Hd Hb Hn Hf. apply upto_none. cbn [fst]. now apply (lacking f). Qed.

(** The first character of a word. *)
Definition firsts (r : re) (w : list Z) : Prop := match w with [] => False | c :: _ => first r c = false end.
Lemma below_firsts {A} r w rest n (a : A) : nullable r = false -> firsts r w -> below (w ++ rest) n (r, a).
Proof. intros Hn H. destruct w as [|c w]; [contradiction|]. apply below_none. cbn [app fst]. now apply longest_first. Qed.
Lemma upto_firsts {A} r w rest n (a : A) : nullable r = false -> firsts r w -> upto (w ++ rest) n (r, a).
Proof. intros Hn H. destruct w as [|c w]; [contradiction|]. apply upto_none. cbn [app fst]. now apply longest_first. Qed.

(** Numbers begin with a minus sign or a digit. *)
Definition number_char (c : Z) : Prop := c = 45 \/ 48 <= c <= 57.
Definition number_chars : list Z := [45; 48; 49; 50; 51; 52; 53; 54; 55; 56; 57].
Lemma number_char_in c : number_char c -> In c number_chars.
Proof. unfold number_char. intros H. cbn [number_chars In]. lia. Qed.
Definition numeric (w : list Z) : Prop := match w with [] => False | c :: _ => number_char c end.
Lemma numeric_firsts r w : forallb (fun c => negb (first r c)) number_chars = true -> numeric w -> firsts r w.
Proof.
  intros H Hw. destruct w as [|c w]; [contradiction|]. cbn [numeric firsts] in *. rewrite forallb_forall in H.
  specialize (H c (number_char_in c Hw)). now apply negb_true_iff in H.
Qed.
Ltac not_number := first [apply below_firsts | apply upto_firsts]; [reflexivity|apply numeric_firsts; [reflexivity|assumption]].

(** *** Integers *)

Lemma decimal_head f : forall n, 1 <= n < 2^Z.of_nat f ->
  exists d ds, decimal f n = d :: ds /\ 49 <= d <= 57 /\ Forall is_digit_char ds.
Proof.
  induction f as [|f IH]; intros n Hn; [cbn in Hn; lia|]. cbn [decimal]. destruct (n <? 10) eqn:E.
  - apply Z.ltb_lt in E. exists (48 + n), []. repeat split; [lia|lia|constructor].
  - apply Z.ltb_ge in E. rewrite Nat2Z.inj_succ, Z.pow_succ_r in Hn by lia.
    destruct (IH (n / 10)) as (d & ds & -> & Hd & Hds); [Z.div_mod_to_equations; lia|].
    exists d, (ds ++ [48 + n mod 10]). split; [reflexivity|]. split; [exact Hd|]. apply Forall_app. split; [exact Hds|].
    constructor; [unfold is_digit_char; Z.div_mod_to_equations; lia|constructor].
Qed.
Lemma digit_string_head n : 1 <= n -> exists d ds, digit_string n = d :: ds /\ 49 <= d <= 57 /\ Forall is_digit_char ds.
Proof.
  intros Hn. unfold digit_string. apply decimal_head. pose proof (Z.log2_nonneg n). rewrite Z2Nat.id by lia. split; [exact Hn|].
  replace (1 + Z.log2 n) with (Z.succ (Z.log2 n)) by lia. apply Z.log2_spec. lia.
Qed.
Lemma numeral_shape z : numeral z = [48] \/ exists sign d ds, In sign [[]; [45]] /\ numeral z = sign ++ d :: ds /\ 49 <= d <= 57 /\ Forall is_digit_char ds.
Proof.
  unfold numeral. destruct (z <? 0) eqn:E; [apply Z.ltb_lt in E|apply Z.ltb_ge in E].
  - right. destruct (digit_string_head (- z)) as (d & ds & -> & H); [lia|]. exists [45], d, ds. split; [right; now left|]. now split.
  - destruct (Z.eq_dec z 0) as [-> |N]; [now left|]. right. destruct (digit_string_head z) as (d & ds & -> & H); [lia|].
    exists [], d, ds. split; [now left|]. now split.
Qed.
Lemma numeral_in_re z : matches integer_re (numeral z).
Proof.
  destruct (numeral_shape z) as [-> |(sign & d & ds & Hs & -> & Hd & Hds)].
  - apply M_right, matches_lit.
  - apply M_left. apply M_cat.
    + destruct Hs as [<-|[<-|[]]]; [apply matches_none|apply matches_some, matches_lit].
    + apply (M_cat _ _ [d] ds); [apply matches_range; lia|]. apply matches_last. now apply matches_dseq_opt.
Qed.
Lemma numeral_number z : Forall number_char (numeral z) /\ numeric (numeral z).
Proof.
  assert (D : forall l, Forall is_digit_char l -> Forall number_char l) by (intros l; apply Forall_impl; intros c H; now right).
  destruct (numeral_shape z) as [-> |(sign & d & ds & Hs & -> & Hd & Hds)].
  - split; [constructor; [right; lia|constructor]|right; lia].
  - destruct Hs as [<-|[<-|[]]]; cbn [app numeric]; (split; [|first [now left|right; lia]]).
    + constructor; [right; lia|now apply D].
    + constructor; [now left|]. constructor; [right; lia|now apply D].
Qed.
Lemma number_bytes w : Forall number_char w -> wf_bytes w.
Proof. apply Forall_impl. intros c [-> |H]; unfold is_byte; lia. Qed.
Lemma number_lacks f w : forallb (fun c => negb (f c)) number_chars = true -> Forall number_char w -> Forall (fun c => f c = false) w.
Proof.
  intros H. apply Forall_impl. intros c Hc. rewrite forallb_forall in H. specialize (H c (number_char_in c Hc)). now apply negb_true_iff in H.
Qed.
Lemma scans_integer z rest ts : delimited rest -> scans lexer_start rest ts ->
  scans lexer_start (numeral z ++ rest) (TValue (set_int32 atom_fresh (two_complement 32 (Z.max (- 2^63) (Z.min z (2^63 - 1))))) :: ts).
Proof.
  intros Hd Hr. destruct (numeral_number z) as [Hc Hh].
  assert (Hn : numeral z <> []) by (intros E; rewrite E in Hh; exact Hh).
  assert (E : s32 (strtol (numeral z)) = two_complement 32 (Z.max (- 2^63) (Z.min z (2^63 - 1)))).
  { pose proof (strtol_numeral [] z []) as S. cbn [app] in S. rewrite app_nil_r in S. rewrite S; [|constructor|exact I].
    rewrite Z.min_comm. unfold two_complement, s32. change (2^(32-1)) with (2^31).
    destruct (_ mod _ <? _) eqn:L; [apply Z.ltb_lt in L|apply Z.ltb_ge in L]; Z.div_mod_to_equations; lia. }
  rewrite <- E.
  pose proof (number_bytes _ Hc) as Hb.
  apply (scans_rule 9 integer_re (fun s => TValue (set_int32 atom_fresh (s32 (strtol s)))) (numeral z) rest ts eq_refl Hn).
  - apply longest_delimited; [reflexivity|exact Hd|apply numeral_in_re].
  - rules_list; try not_number.
    apply (below_lacking (fun c => existsb (Z.eqb c) [46; 101; 69; 112; 80])); try assumption; try reflexivity.
    now apply number_lacks.
  - rules_list; try not_number.
    + apply (upto_lacking (fun c => existsb (Z.eqb c) [120; 88])); try assumption; try reflexivity. now apply number_lacks.
    + apply (upto_lacking (fun c => c =? 84)); try assumption; try reflexivity. now apply number_lacks.
    + now apply upto_dot_word.
  - exact Hr.
Qed.

(** *** Decimal constants *)

Lemma digit_text_head w : digit_text w -> exists d ds, w = d :: ds /\ is_digit_char d /\ Forall is_digit_char ds.
Proof. intros [H1 H2]. destruct H2 as [|d ds Hd Hds]; [contradiction|]. now exists d, ds. Qed.
Lemma matches_exp s d : In s [[]; [43]; [45]] -> digit_text d -> matches exp_re (101 :: s ++ d).
Proof.
  intros Hs Hd. apply (M_cat _ _ [101] (s ++ d)); [apply matches_one_of; now left|]. apply M_cat.
  - destruct Hs as [<-|[<-|[<-|[]]]]; [apply matches_none| |]; apply matches_some, matches_one_of; cbn; auto.
  - apply matches_last. now apply matches_dseq.
Qed.
Lemma matches_decimal w : decimal_constant w -> matches (Cat (opt (lit 45)) c99_floating_point_constant) w.
Proof.
  intros [sign whole fraction exponent Hs Hw Hf He Hfe]. apply M_cat.
  { destruct Hs as [<-|[<-|[]]]; [apply matches_none|apply matches_some, matches_lit]. }
  apply M_left.
  assert (Se : matches (Cat fsuff_opt Eps) []) by (apply matches_last, matches_none).
  destruct Hf as [-> |(f & -> & Hf)].
  - destruct He as [-> |(s & d & -> & H1 & H2)]; [destruct Hfe; contradiction|]. apply M_right. apply M_cat; [now apply matches_dseq|].
    cbn [app]. change (101 :: s ++ d) with ((101 :: s ++ d) : list Z).
    rewrite <- (app_nil_r (101 :: s ++ d)). apply M_cat; [now apply matches_exp|exact Se].
  - apply M_left. rewrite app_assoc. apply M_cat.
    + destruct f as [|c f].
      * apply M_right. apply M_cat; [now apply matches_dseq|apply matches_lit].
      * apply M_left. apply M_cat; [apply matches_dseq_opt; apply Hw|]. apply (M_cat _ _ [46] (c :: f)); [apply matches_lit|].
        apply matches_last. now apply matches_dseq.
    + rewrite <- (app_nil_r exponent). apply M_cat; [|exact Se].
      destruct He as [-> |(s & d & -> & H1 & H2)]; [apply matches_none|apply matches_some; now apply matches_exp].
Qed.
Lemma decimal_numeric w : decimal_constant w -> numeric w.
Proof.
  intros [sign whole fraction exponent Hs Hw _ _ _]. destruct (digit_text_head _ Hw) as (d & ds & -> & Hd & _).
  destruct Hs as [<-|[<-|[]]]; cbn [app numeric]; [now right|now left].
Qed.
Lemma scans_double w rest ts : decimal_constant w -> delimited rest -> scans lexer_start rest ts ->
  scans lexer_start (w ++ rest) (TValue (set_double atom_fresh (strtod w)) :: ts).
Proof.
  intros Hw Hd Hr. pose proof (decimal_numeric w Hw) as Hh.
  assert (Hn : w <> []) by (intros E; rewrite E in Hh; exact Hh).
  apply (scans_rule 2 _ (fun s => TValue (set_double atom_fresh (strtod s))) w rest ts eq_refl Hn).
  - apply longest_delimited; [reflexivity|exact Hd|now apply matches_decimal].
  - rules_list; not_number.
  - rules_list; try not_number.
    + now apply upto_bounded.
    + now apply upto_bounded.
    + now apply upto_bounded.
    + now apply upto_dot_word.
  - exact Hr.
Qed.

(** *** Hexadecimal numbers *)

Definition hex_chars : list Z := number_chars ++ [65; 66; 67; 68; 69; 70; 97; 98; 99; 100; 101; 102].
Lemma is_hex_in c : is_hex c -> In c hex_chars.
Proof. unfold is_hex. intros H. cbn [hex_chars number_chars app In]. lia. Qed.
Lemma hex_lacks f w : forallb (fun c => negb (f c)) hex_chars = true -> Forall is_hex w -> Forall (fun c => f c = false) w.
Proof.
  intros H. apply Forall_impl. intros c Hc. rewrite forallb_forall in H. specialize (H c (is_hex_in c Hc)). now apply negb_true_iff in H.
Qed.
Lemma hex_bytes w : Forall is_hex w -> wf_bytes w.
Proof. apply Forall_impl. intros c H. unfold is_hex in H. unfold is_byte. lia. Qed.
Lemma xdigit_ok c : is_hex c -> xdigit_char c = true.
Proof. unfold is_hex, xdigit_char. intros H. rewrite !orb_true_iff, !andb_true_iff, !Z.leb_le. lia. Qed.
Lemma hex_number_ok s : Forall is_hex s -> forall n, fold_left (fun n c => 16 * n + hex_digit c) s n =
  fold_left (fun n c => 16 * n + (if c <=? 57 then c - 48 else if c <=? 70 then c - 65 + 10 else c - 97 + 10)) s n.
Proof.
  induction 1 as [|c s Hc _ IH]; intros n; cbn [fold_left]; [reflexivity|]. rewrite IH. f_equal. f_equal. unfold hex_digit.
  destruct (c <=? 57); [reflexivity|]. destruct (c <=? 70); lia.
Qed.
Lemma scans_hex x s rest ts : In x (str "xX") -> s <> [] -> Forall is_hex s -> delimited rest -> scans lexer_start rest ts ->
  scans lexer_start (([48; x] ++ s) ++ rest) (TValue (hex_atom ([48; x] ++ s)) :: ts).
Proof.
  intros Hx Hs Hh Hd Hr. set (w := [48; x] ++ s).
  assert (Hw : numeric w) by (right; lia).
  assert (Hn : w <> []) by discriminate.
  assert (Hb : wf_bytes w).
  { apply Forall_app. split; [|now apply hex_bytes]. destruct Hx as [<-|[<-|[]]]; repeat constructor; unfold is_byte; lia. }
  apply (scans_rule 10 _ (fun s => TValue (hex_atom s)) w rest ts eq_refl Hn).
  - apply longest_delimited; [reflexivity|exact Hd|]. apply (M_cat _ _ [48] (x :: s)); [apply matches_lit|].
    apply (M_cat _ _ [x] s); [now apply matches_one_of|]. apply matches_last. apply matches_plus; [exact Hs|].
    revert Hh. apply Forall_impl. exact xdigit_ok.
  - rules_list; try not_number.
    + apply below_none. cbn [fst w app].
      destruct Hx as [<-|[<-|[]]]; (rewrite longest_two by reflexivity);
        (rewrite (lacking (fun c => existsb (Z.eqb c) [112; 80]));
          [reflexivity|reflexivity|exact Hd|now apply hex_bytes|reflexivity|now apply hex_lacks]).
    + intros m. cbn [fst w app]. intros E. assert (m <= 1)%nat.
      { apply (longest_stops integer_re [48] x (s ++ rest) m); [|exact E]. destruct Hx as [<-|[<-|[]]]; reflexivity. }
      cbn [length]. lia.
  - rules_list; try not_number.
    + apply (upto_lacking (fun c => c =? 84)); try assumption; try reflexivity. unfold w. apply Forall_app. split; [|now apply hex_lacks].
      destruct Hx as [<-|[<-|[]]]; repeat constructor.
    + now apply upto_dot_word.
  - exact Hr.
Qed.
Lemma hex_atom_32 x s : Forall is_hex s -> zlen s <= 8 -> hex_atom ([48; x] ++ s) = set_uint32 atom_fresh (hex_number s).
Proof.
  intros Hh L. unfold hex_atom. rewrite zlen_app. change (zlen [48; x]) with 2. rewrite (proj2 (Z.ltb_ge _ _)) by lia.
  f_equal. unfold hex_value. cbn [app skipn]. rewrite (hex_number_ok s Hh). fold (hex_number s). apply Z.min_r.
  assert (K : forall s n, Forall is_hex s -> 0 <= n ->
    fold_left (fun n c => 16 * n + (if c <=? 57 then c - 48 else if c <=? 70 then c - 65 + 10 else c - 97 + 10)) s n + 1 <= (n + 1) * 16^zlen s).
  { clear. induction s as [|c s IH]; intros n H Hn; cbn [fold_left]; [change (zlen (@nil Z)) with 0; lia|]. inversion H as [|? ? Hc Hs]; subst.
    set (m := if c <=? 57 then c - 48 else if c <=? 70 then c - 65 + 10 else c - 97 + 10).
    assert (Hm : 0 <= m <= 15).
    { unfold m, is_hex in *. destruct (c <=? 57) eqn:E1; [apply Z.leb_le in E1; lia|apply Z.leb_gt in E1].
      destruct (c <=? 70) eqn:E2; [apply Z.leb_le in E2; lia|apply Z.leb_gt in E2; lia]. }
    specialize (IH (16 * n + m) Hs ltac:(lia)). rewrite zlen_cons, Z.pow_add_r by (try apply zlen_nonneg; lia). change (16^1) with 16.
    assert (0 <= 16^zlen s) by (apply Z.pow_nonneg; lia). nia. }
  specialize (K s 0 Hh ltac:(lia)). fold (hex_number s) in K. rewrite Z.mul_1_l in K.
  assert (16^zlen s <= 16^8) by (apply Z.pow_le_mono_r; lia). change (16^8) with (2^32) in *. lia.
Qed.
Lemma hex_atom_64 x s : Forall is_hex s -> 8 < zlen s -> hex_atom ([48; x] ++ s) = set_uint64 atom_fresh (Z.min (2^64 - 1) (hex_number s)).
Proof.
  intros Hh L. unfold hex_atom. rewrite zlen_app. change (zlen [48; x]) with 2. rewrite (proj2 (Z.ltb_lt _ _)) by lia.
  f_equal. unfold hex_value. cbn [app skipn]. now rewrite (hex_number_ok s Hh).
Qed.

(** *** Times *)

Lemma two_digits_digits n : 0 <= n <= 99 -> Forall is_digit_char (two_digits n).
Proof. intros H. unfold two_digits, is_digit_char. repeat constructor; Z.div_mod_to_equations; lia. Qed.
Lemma m2 r s a b w : matches r [a] -> matches s [b] -> w = [a; b] -> matches (Cat r s) w.
Proof. intros H1 H2 ->. exact (M_cat _ _ [a] [b] H1 H2). Qed.
Lemma matches_digit c : is_digit_char c -> matches digit [c].
Proof. intros H. now apply matches_range. Qed.
Ltac dm := Z.div_mod_to_equations; lia.
Lemma matches_month n : 1 <= n <= 12 -> matches (Alt (Cat (lit 49) (range 48 50)) (Cat (lit 48) (range 49 57))) (two_digits n).
Proof.
  intros H. destruct (Z_lt_le_dec n 10).
  - apply M_right, (m2 _ _ 48 (48 + n)); [apply matches_lit|apply matches_range; lia|]. unfold two_digits. f_equal; [dm|]. f_equal. dm.
  - apply M_left, (m2 _ _ 49 (48 + (n - 10))); [apply matches_lit|apply matches_range; lia|]. unfold two_digits. f_equal; [dm|]. f_equal. dm.
Qed.
Lemma matches_day n : 1 <= n <= 31 ->
  matches (any_of [Cat (lit 51) (range 48 49); Cat (lit 48) (range 49 57); Cat (range 49 50) digit]) (two_digits n).
Proof.
  intros H. destruct (Z_lt_le_dec n 10); [|destruct (Z_lt_le_dec n 30)].
  - apply M_right, M_left, (m2 _ _ 48 (48 + n)); [apply matches_lit|apply matches_range; lia|]. unfold two_digits. f_equal; [dm|]. f_equal. dm.
  - apply M_right, M_right, M_left, (m2 _ _ (48 + n / 10) (48 + n mod 10)); [apply matches_range; dm|apply matches_range; dm|reflexivity].
  - apply M_left, (m2 _ _ 51 (48 + (n - 30))); [apply matches_lit|apply matches_range; lia|]. unfold two_digits. f_equal; [dm|]. f_equal. dm.
Qed.
Lemma matches_hour n : 0 <= n <= 23 -> matches (Alt (Cat (lit 50) (range 48 51)) (Cat (range 48 49) digit)) (two_digits n).
Proof.
  intros H. destruct (Z_lt_le_dec n 20).
  - apply M_right, (m2 _ _ (48 + n / 10) (48 + n mod 10)); [apply matches_range; dm|apply matches_range; dm|reflexivity].
  - apply M_left, (m2 _ _ 50 (48 + (n - 20))); [apply matches_lit|apply matches_range; lia|]. unfold two_digits. f_equal; [dm|]. f_equal. dm.
Qed.
Lemma matches_iso w : iso_time w -> matches iso_re w.
Proof.
  intros [year month day hour minute second fraction zone Hl Hy Hmo Hda Hho Hmi Hse Hfr Hzo].
  destruct year as [|y1 [|y2 [|y3 [|y4 [|? ?]]]]]; try discriminate Hl.
  apply Forall_inv_tail in Hy as Hy2. apply Forall_inv_tail in Hy2 as Hy3. apply Forall_inv_tail in Hy3 as Hy4.
  apply Forall_inv in Hy, Hy2, Hy3, Hy4.
  apply (M_cat _ _ []); [apply matches_none|]. apply (M_cat _ _ []); [apply matches_none|].
  apply (M_cat _ _ [y1]); [now apply matches_digit|]. apply (M_cat _ _ [y2]); [now apply matches_digit|].
  apply (M_cat _ _ [y3]); [now apply matches_digit|]. apply (M_cat _ _ [y4]); [now apply matches_digit|].
  apply (M_cat _ _ [45]); [apply matches_lit|]. apply (M_cat _ _ (two_digits month)); [now apply matches_month|].
  apply (M_cat _ _ [45]); [apply matches_lit|]. apply (M_cat _ _ (two_digits day)); [now apply matches_some, matches_day|].
  apply (M_cat _ _ [84]); [apply matches_lit|]. apply (M_cat _ _ (two_digits hour)); [now apply matches_hour|].
  apply (M_cat _ _ [58]); [apply matches_lit|].
  apply (M_cat _ _ [48 + minute / 10]); [apply matches_range; dm|]. apply (M_cat _ _ [48 + minute mod 10]); [apply matches_range; dm|].
  apply (M_cat _ _ [58]); [apply matches_lit|].
  apply (M_cat _ _ [48 + second / 10]); [apply matches_range; dm|]. apply (M_cat _ _ [48 + second mod 10]); [apply matches_range; dm|].
  apply M_cat.
  - destruct Hfr as [-> |(f & -> & Hf)]; [apply matches_none|]. apply matches_some, matches_some.
    apply (M_cat _ _ [46] f); [apply matches_lit|now apply matches_dseq].
  - apply matches_last. destruct Hzo as [<-|[<-|[]]]; [apply matches_none|apply matches_some, M_left, matches_lit].
Qed.
Lemma scans_time w rest ts : iso_time w -> delimited rest -> scans lexer_start rest ts ->
  scans lexer_start (w ++ rest) (TValue (set_timetag atom_fresh (iso w)) :: ts).
Proof.
  intros Hw Hd Hr. pose proof (matches_iso w Hw) as Hm.
  assert (K : numeric w /\ exists u v, w = u ++ 84 :: v /\ length u = 10%nat).
  { destruct Hw as [year month day hour minute second fraction zone Hl Hy Hmo Hda Hho Hmi Hse Hfr Hzo].
    destruct year as [|y1 [|y2 [|y3 [|y4 [|? ?]]]]]; try discriminate Hl. split; [cbn [app numeric]; right; now apply Forall_inv in Hy|].
    exists ([y1; y2; y3; y4] ++ [45] ++ two_digits month ++ [45] ++ two_digits day).
    eexists. split; [rewrite <- !app_assoc; reflexivity|reflexivity]. }
  destruct K as [Hh (u & v & Ew & Hu)].
  assert (Hn : w <> []) by (intros E; rewrite E in Hh; exact Hh).
  assert (Hlen : (10 < length w)%nat) by (rewrite Ew, app_length; cbn [length]; lia).
  assert (B : forall r (a : action), alphabet r 84 = false -> below (w ++ rest) (length w) (r, a)).
  { intros r a H m. cbn [fst]. intros E. assert (m <= length u)%nat; [|lia].
    apply (longest_stops r u 84 (v ++ rest) m H). rewrite Ew, <- app_assoc in E. exact E. }
  apply (scans_rule 12 _ (fun s => TValue (set_timetag atom_fresh (iso s))) w rest ts eq_refl Hn).
  - now apply longest_delimited.
  - rules_list; try not_number; apply B; reflexivity.
  - rules_list; try not_number. now apply upto_dot_word.
  - exact Hr.
Qed.

(** *** Characters, addresses and white space *)

Lemma firstn_word {A} (w rest : list A) : firstn (length w) (w ++ rest) = w.
Proof. rewrite firstn_app, Nat.sub_diag, firstn_all, firstn_O. apply app_nil_r. Qed.
Lemma skipn_word {A} (w rest : list A) : skipn (length w) (w ++ rest) = rest.
Proof. rewrite skipn_app, Nat.sub_diag, skipn_all. reflexivity. Qed.

Lemma scans_char c rest ts : c <> 10 -> scans lexer_start rest ts ->
  scans lexer_start (([39] ++ [c] ++ [39]) ++ rest) (TValue (set_int8 atom_fresh (s8 c)) :: ts).
Proof.
  intros Hc Hr. set (w := [39] ++ [c] ++ [39]).
  assert (L : longest (Cat (lit 39) (Cat dot (Cat (lit 39) Eps))) (w ++ rest) = Some (length w)).
  { unfold w, lit, dot, none_of. cbn [app]. rewrite !longest_cat_cls. cbn [existsb].
    rewrite (proj2 (Z.eqb_neq c 10) Hc). cbn [orb negb Z.eqb Pos.eqb]. rewrite longest_eps. reflexivity. }
  apply (scans_step lexer_start (w ++ rest) act_char (length w) lexer_start (Some (TValue (set_int8 atom_fresh (s8 c)))) (length w) ts).
  - discriminate.
  - apply (pick_nth (initial_rules strtod iso) 8 _ _ _ _ eq_refl L).
    + rules_list; unfold w; dead.
    + rules_list; unfold w; try dead. apply upto_dot. cbn; lia.
  - rewrite firstn_word. reflexivity.
  - cbn; lia.
  - now rewrite skipn_word.
Qed.

Lemma alphabet_address c : In c [32; 9; 10; 35] -> alphabet address_re c = false.
Proof. intros [<-|[<-|[<-|[<-|[]]]]]; reflexivity. Qed.
Lemma matches_address body : body <> [] -> Forall (fun c => ~ In c [32; 9; 10; 35]) body -> matches address_re (47 :: body).
Proof.
  intros Hn Hb. apply (M_cat _ _ [47] body); [apply matches_lit|]. apply matches_plus; [exact Hn|]. revert Hb. apply Forall_impl. intros c Hc.
  apply negb_true_iff. destruct (existsb (Z.eqb c) [32; 9; 10; 35]) eqn:E; [|reflexivity]. apply existsb_exists in E as (d & Hd & E).
  apply Z.eqb_eq in E. subst. contradiction.
Qed.
Lemma address_longest w rest : matches address_re w -> match rest with [] => True | c :: _ => In c [32; 9; 10; 35] end ->
  longest address_re (w ++ rest) = Some (length w).
Proof.
  intros H Hr. apply longest_is; [exact H|]. intros n. destruct rest as [|c rest]; [apply longest_ends|].
  apply longest_stops. now apply alphabet_address.
Qed.
Lemma address_pick body rest : matches address_re (47 :: body) -> match rest with [] => True | c :: _ => In c [32; 9; 10; 35] end ->
  pick (initial_rules strtod iso) ((47 :: body) ++ rest) = Some (act_address, length (47 :: body)).
Proof.
  intros H Hr. apply (pick_nth (initial_rules strtod iso) 11 _ _ _ _ eq_refl (address_longest _ _ H Hr)).
  - rules_list; dead.
  - rules_list; try dead. cbn [app]. apply upto_dot. cbn [length]; lia.
Qed.
Lemma last_rd (w : list Z) : w <> [] -> rd w (zlen w - 1) = Ok (last w 0).
Proof.
  intros H. destruct (exists_last H) as (u & c & ->). rewrite last_last, zlen_app. change (zlen [c]) with 1.
  replace (zlen u + 1 - 1) with (zlen u) by lia. apply rd_at.
Qed.
Lemma scans_address s rest ts : plain_address s ->
  match rest with
  | [] => True
  | c :: rest' => In c (35 :: white) \/ (c = 44 /\ match rest' with [] => True | d :: _ => In d (35 :: white) end)
  end -> scans lexer_start rest ts -> scans lexer_start (s ++ rest) (TAddress s :: ts).
Proof.
  intros (body & -> & Hn & Hb & Hl) Hr H.
  assert (Hb' : Forall (fun c => ~ In c [32; 9; 10; 35]) body).
  { revert Hb. apply Forall_impl. intros c Hc K. apply Hc. cbn in *. tauto. }
  assert (W : forall c, In c (35 :: white) -> In c [32; 9; 10; 35]) by (intros c K; cbn in *; tauto).
  assert (Hlast : last (47 :: body) 0 = last body 0) by (destruct body; [contradiction|reflexivity]).
  assert (D : match rest with [] => True | c :: _ => In c [32; 9; 10; 35] end \/
    exists rest', rest = 44 :: rest' /\ match rest' with [] => True | c :: _ => In c [32; 9; 10; 35] end).
  { destruct rest as [|c rest]; [now left|]. destruct Hr as [Hr|[-> Hr]]; [left; now apply W|]. right. exists rest. split; [reflexivity|].
    destruct rest as [|d rest]; [exact I|]. now apply W. }
  destruct D as [D|(rest' & -> & D)].
  - apply (scans_step lexer_start _ act_address (length (47 :: body)) lexer_start (Some (TAddress (47 :: body))) (length (47 :: body)) ts).
    + discriminate.
    + apply address_pick; [now apply matches_address|exact D].
    + rewrite firstn_word. unfold act_address. rewrite last_rd by discriminate. cbn [bind]. rewrite Hlast.
      rewrite (proj2 (Z.eqb_neq _ 44) Hl). reflexivity.
    + cbn [length]; lia.
    + now rewrite skipn_word.
  - apply (scans_step lexer_start _ act_address (length (47 :: body ++ [44])) lexer_start (Some (TAddress (47 :: body))) (length (47 :: body)) ts).
    + discriminate.
    + replace ((47 :: body) ++ 44 :: rest') with ((47 :: body ++ [44]) ++ rest') by (cbn [app]; now rewrite <- app_assoc).
      apply address_pick; [|exact D]. apply matches_address; [destruct body; discriminate|]. apply Forall_app. split; [exact Hb'|].
      constructor; [|constructor]. cbn [In]. lia.
    + replace ((47 :: body) ++ 44 :: rest') with ((47 :: body ++ [44]) ++ rest') by (cbn [app]; now rewrite <- app_assoc).
      rewrite firstn_word. unfold act_address. rewrite last_rd by discriminate. cbn [bind].
      change (47 :: body ++ [44]) with ((47 :: body) ++ [44]). rewrite last_last. cbn [Z.eqb Pos.eqb].
      assert (F : firstn (length ((47 :: body) ++ [44]) - 1) ((47 :: body) ++ [44]) = 47 :: body).
      { rewrite app_length. cbn [length]. replace (S (length body) + 1 - 1)%nat with (length (47 :: body)) by (cbn [length]; lia). apply firstn_word. }
      now rewrite F.
    + cbn [length]; lia.
    + now rewrite skipn_word.
Qed.

Definition space_re : re := one_of [32; 9; 10].
Definition is_white (c : Z) : bool := existsb (Z.eqb c) [32; 9; 10].
Fixpoint run (s : list Z) : nat := match s with [] => O | c :: s' => if is_white c then S (run s') else O end.
Lemma run_longest s : longest (Star space_re) s = Some (run s).
Proof.
  induction s as [|c s IH]; [reflexivity|]. cbn [longest nullable deriv space_re one_of run]. fold (is_white c). destruct (is_white c); cbn [cat].
  - fold (one_of [32; 9; 10]). fold space_re. now rewrite IH.
  - now rewrite longest_void.
Qed.
Lemma plus_longest c s : is_white c = true -> longest (plus space_re) (c :: s) = Some (S (run s)).
Proof. intros H. unfold plus. unfold space_re at 1, one_of. rewrite longest_cat_cls. fold (is_white c). now rewrite H, run_longest. Qed.
Lemma white_in c : In c white -> is_white c = true.
Proof. intros [<-|[<-|[<-|[]]]]; reflexivity. Qed.
Lemma is_white_in c : is_white c = true -> In c white.
Proof. intros H. apply existsb_exists in H as (d & Hd & E). apply Z.eqb_eq in E. now subst. Qed.
Lemma white_pick c s : is_white c = true -> pick (initial_rules strtod iso) (c :: s) = Some (skips, S (run s)).
Proof.
  intros H. apply (pick_nth (initial_rules strtod iso) 13 _ _ _ _ eq_refl (plus_longest c s H)).
  - apply is_white_in in H. destruct H as [<-|[<-|[<-|[]]]]; rules_list; dead.
  - rules_list. apply upto_dot. lia.
Qed.
Lemma run_le s : (run s <= length s)%nat.
Proof. induction s as [|c s IH]; cbn [run length]; [lia|]. destruct (is_white c); lia. Qed.
Lemma scans_run s ts : scans lexer_start (skipn (run s) s) ts -> scans lexer_start s ts.
Proof.
  destruct s as [|c s]; [exact (fun H => H)|]. cbn [run]. destruct (is_white c) eqn:E; [|exact (fun H => H)]. intros H.
  apply (scans_step lexer_start (c :: s) skips (S (run s)) lexer_start None (S (run s)) ts).
  - discriminate.
  - now apply white_pick.
  - unfold skips. rewrite firstn_length. cbn [length]. rewrite Nat.min_l; [reflexivity|]. pose proof (run_le s). lia.
  - lia.
  - exact H.
Qed.

(** *** Strings *)

Definition inside : re := Cat (Star quoted_string_re) (Cat (lit 92) (Cat dot Eps)).
Definition plain (u : list Z) : Prop := Forall (fun c => c <> 34 /\ c <> 92) u.
Lemma plain_class u : plain u -> Forall (fun c => negb (existsb (Z.eqb c) [34; 92]) = true) u.
Proof.
  apply Forall_impl. intros c [H1 H2]. cbn [existsb]. rewrite (proj2 (Z.eqb_neq c 34) H1), (proj2 (Z.eqb_neq c 92) H2). reflexivity.
Qed.
Lemma longest_inside u q s : plain u -> q <> 10 -> longest inside (u ++ 92 :: q :: s) = Some (length u + 2)%nat.
Proof.
  intros Hu Hq. induction Hu as [|c u [H1 H2] _ IH]; cbn [app length Nat.add].
  - rewrite longest_two by reflexivity.
    assert (D : deriv q (deriv 92 inside) = Eps).
    { cbn. rewrite (proj2 (Z.eqb_neq q 10) Hq). reflexivity. }
    rewrite D, longest_eps. reflexivity.
  - assert (D : deriv c inside = inside).
    { unfold inside, quoted_string_re, none_of. cbn [deriv nullable lit]. cbn [existsb].
      rewrite (proj2 (Z.eqb_neq c 34) H1), (proj2 (Z.eqb_neq c 92) H2), (proj2 (Z.eqb_neq 92 c)) by congruence. reflexivity. }
    cbn [longest]. rewrite D, IH. reflexivity.
Qed.
Lemma inside_none u s : plain u -> longest inside (u ++ 34 :: s) = None.
Proof.
  intros Hu. induction Hu as [|c u [H1 H2] _ IH]; cbn [app].
  - apply longest_first; reflexivity.
  - assert (D : deriv c inside = inside).
    { unfold inside, quoted_string_re, none_of. cbn [deriv nullable lit]. cbn [existsb].
      rewrite (proj2 (Z.eqb_neq c 34) H1), (proj2 (Z.eqb_neq c 92) H2), (proj2 (Z.eqb_neq 92 c)) by congruence. reflexivity. }
    cbn [longest]. rewrite D, IH. reflexivity.
Qed.
Lemma pick_escape u q s : plain u -> q <> 10 -> pick (quote_rules junk) (u ++ 92 :: q :: s) = Some (act_escape junk, length u + 2)%nat.
Proof.
  intros Hu Hq. apply (pick_nth (quote_rules junk) 2 inside _ _ _ eq_refl (longest_inside u q s Hu Hq)); [|constructor].
  constructor; [|constructor; [|constructor]].
  - intros m. cbn [fst]. intros E. apply longest_stops in E; [lia|reflexivity].
  - apply below_none. cbn [fst]. destruct u as [|c u]; cbn [app]; apply longest_first; try reflexivity.
    apply Forall_inv in Hu. cbn [first lit]. apply Z.eqb_neq. lia.
Qed.
Lemma pick_quoted u s : plain u -> u <> [] -> pick (quote_rules junk) (u ++ 34 :: s) = Some (act_quoted junk, length u).
Proof.
  intros Hu Hn. apply (pick_nth (quote_rules junk) 0 (plus quoted_string_re) _ _ _ eq_refl); [|constructor|].
  - apply longest_is; [apply matches_plus; [exact Hn|now apply plain_class]|]. intros n. apply longest_stops. reflexivity.
  - constructor; [|constructor; [|constructor]]; apply upto_none; cbn [fst]; [|now apply inside_none].
    destruct u as [|c u]; [contradiction|]. cbn [app]. apply longest_first; [reflexivity|]. apply Forall_inv in Hu. cbn [first lit]. apply Z.eqb_neq. lia.
Qed.
Lemma pick_close s : pick (quote_rules junk) (34 :: s) = Some (act_close, 1%nat).
Proof.
  apply (pick_nth (quote_rules junk) 1 (lit 34) _ _ _ eq_refl).
  - unfold lit. rewrite longest_cls. reflexivity.
  - constructor; [|constructor]. apply below_none. apply longest_first; reflexivity.
  - constructor; [|constructor]. apply upto_none. apply longest_first; reflexivity.
Qed.

(** The buffer holds [p] with its terminator, or nothing yet. *)
Definition holds (l : lexer) (p : list Z) : Prop :=
  (p = [] /\ l = Lexer true None 0) \/ l = Lexer true (Some (p ++ [0])) (zlen p).

Lemma grown_length b n : 0 <= n -> zlen (grown junk b n) = n.
Proof. intros H. unfold grown. unfold zlen. rewrite firstn_length, !app_length, repeat_length. lia. Qed.
Lemma grown_tail b n : 0 <= n -> exists t, grown junk b (zlen b + n) = b ++ t /\ zlen t = n.
Proof.
  intros H. exists (skipn (length b) (grown junk b (zlen b + n))).
  assert (E : firstn (length b) (grown junk b (zlen b + n)) = b).
  { unfold grown. rewrite firstn_firstn, Nat.min_l by (unfold zlen; lia). apply firstn_word. }
  split; [pose proof (firstn_skipn (length b) (grown junk b (zlen b + n))) as K; rewrite E in K; now symmetry|].
  pose proof (grown_length b (zlen b + n) ltac:(pose proof (zlen_nonneg b); lia)) as L. unfold zlen in *. rewrite skipn_length. lia.
Qed.
Lemma split_tail (t : bytes) n : 0 <= n <= zlen t -> exists a b, t = a ++ b /\ zlen a = n.
Proof.
  intros H. exists (firstn (Z.to_nat n) t), (skipn (Z.to_nat n) t). split; [symmetry; apply firstn_skipn|].
  unfold zlen in *. rewrite firstn_length. lia.
Qed.

(** The three writes of the escape action. *)
Lemma escape_writes p u q b : zlen b = zlen u + 2 ->
  (do b <- write (p ++ b) (zlen p) (u ++ [92]);
   do b <- write b (zlen p + (zlen u + 1) - 1) [q];
   write b (zlen p + (zlen u + 1)) [0]) = Ok (p ++ u ++ [q; 0]).
Proof.
  intros H. destruct (split_tail b (zlen u + 1)) as (b1 & b2 & -> & L1); [pose proof (zlen_nonneg u); lia|]. rewrite zlen_app in H.
  rewrite (write_app p b1 (u ++ [92]) b2) by (unfold zlen in *; rewrite app_length; cbn [length]; lia). cbn [bind].
  replace (p ++ (u ++ [92]) ++ b2) with ((p ++ u) ++ [92] ++ b2) by (rewrite <- !app_assoc; reflexivity).
  replace (zlen p + (zlen u + 1) - 1) with (zlen (p ++ u)) by (rewrite zlen_app; lia).
  rewrite (write_app (p ++ u) [92] [q] b2) by reflexivity. cbn [bind].
  replace ((p ++ u) ++ [q] ++ b2) with ((p ++ u ++ [q]) ++ b2 ++ []) by (rewrite app_nil_r, <- !app_assoc; reflexivity).
  replace (zlen p + (zlen u + 1)) with (zlen (p ++ u ++ [q])) by (rewrite !zlen_app; change (zlen [q]) with 1; lia).
  rewrite (write_app (p ++ u ++ [q]) b2 [0] []) by (unfold zlen in *; cbn [length]; lia).
  now rewrite <- !app_assoc.
Qed.
Lemma escape_does l p u q : holds l p ->
  act_escape junk (u ++ [92; q]) l = Ok (Lexer true (Some ((p ++ u ++ [q]) ++ [0])) (zlen (p ++ u ++ [q])), None, (length u + 2)%nat).
Proof.
  intros H. unfold act_escape.
  assert (Lz : zlen (u ++ [92; q]) = zlen u + 2) by (rewrite zlen_app; reflexivity).
  assert (Fz : firstn (Z.to_nat (zlen u + 2 - 1)) (u ++ [92; q]) = u ++ [92]).
  { replace (u ++ [92; q]) with ((u ++ [92]) ++ [q]) by (rewrite <- app_assoc; reflexivity).
    replace (Z.to_nat (zlen u + 2 - 1)) with (length (u ++ [92])) by (rewrite app_length; unfold zlen; cbn [length]; lia). apply firstn_word. }
  assert (Rz : rd (u ++ [92; q]) (zlen (u ++ [92; q]) - 1) = Ok q).
  { rewrite last_rd by (destruct u; discriminate). replace (u ++ [92; q]) with ((u ++ [92]) ++ [q]) by (rewrite <- app_assoc; reflexivity).
    now rewrite last_last. }
  assert (Gz : length (u ++ [92; q]) = (length u + 2)%nat) by (rewrite app_length; reflexivity).
  assert (Pz : zlen (p ++ u ++ [q]) = zlen p + (zlen u + 1)) by (rewrite !zlen_app; reflexivity).
  rewrite Rz. cbn [bind]. rewrite Lz, Fz, Gz, Pz. replace (zlen u + 2 - 1) with (zlen u + 1) by lia.
  destruct H as [[-> ->]| ->]; cbn [l_buf l_buflen quoting].
  - destruct (grown_tail [] (zlen u + 2)) as (t & Et & Lt); [pose proof (zlen_nonneg u); lia|]. change (zlen [] + (zlen u + 2)) with (zlen u + 2) in Et.
    rewrite Et. pose proof (escape_writes [] u q t Lt) as E. change (zlen []) with 0 in *. rewrite !Z.add_0_l in *.
    cbn [app] in *.
    destruct (write t 0 (u ++ [92])) as [b1| |]; cbn [bind] in *; try discriminate E.
    destruct (write b1 (zlen u + 1 - 1) [q]) as [b2| |]; cbn [bind] in *; try discriminate E.
    rewrite E. cbn [bind]. now rewrite <- app_assoc.
  - replace (zlen p + (zlen u + 2)) with (zlen (p ++ [0]) + (zlen u + 1)) by (rewrite zlen_app; change (zlen [0]) with 1; lia).
    destruct (grown_tail (p ++ [0]) (zlen u + 1)) as (t & Et & Lt); [pose proof (zlen_nonneg u); lia|]. rewrite Et, <- app_assoc.
    assert (Lt' : zlen ([0] ++ t) = zlen u + 2) by (rewrite zlen_app, Lt; change (zlen [0]) with 1; lia).
    pose proof (escape_writes p u q ([0] ++ t) Lt') as E.
    destruct (write (p ++ [0] ++ t) (zlen p) (u ++ [92])) as [b1| |]; cbn [bind] in *; try discriminate E.
    destruct (write b1 (zlen p + (zlen u + 1) - 1) [q]) as [b2| |]; cbn [bind] in *; try discriminate E.
    rewrite E. cbn [bind]. now rewrite <- !app_assoc.
Qed.
Lemma quoted_does p u : nonul p ->
  exists n, act_quoted junk u (Lexer true (Some (p ++ [0])) (zlen p)) = Ok (Lexer true (Some ((p ++ u) ++ [0])) n, None, length u).
Proof.
  intros Hp. unfold act_quoted. cbn [l_buf l_buflen quoting].
  replace (zlen p + zlen u + 1) with (zlen (p ++ [0]) + zlen u) by (rewrite zlen_app; change (zlen [0]) with 1; lia).
  destruct (grown_tail (p ++ [0]) (zlen u) (zlen_nonneg u)) as (t & -> & Lt).
  pose proof (rdstr_at [] p t Hp) as R. cbn [app] in R. change (zlen []) with 0 in R.
  rewrite <- app_assoc. cbn [app]. rewrite R. cbn [bind].
  replace (p ++ 0 :: t) with (p ++ (0 :: t) ++ []) by now rewrite app_nil_r.
  rewrite write_app by (rewrite app_length; unfold zlen in Lt; cbn [length]; lia). cbn [bind]. rewrite app_nil_r, app_assoc. now eexists.
Qed.
Lemma close_does p n : nonul p ->
  act_close [34] (Lexer true (Some (p ++ [0])) n) = Ok (Lexer false None 0, Some (TValue (set_string atom_fresh 0 p)), 1%nat).
Proof.
  intros Hp. unfold act_close. cbn [l_buf]. pose proof (rdstr_at [] p [] Hp) as R. cbn [app] in R. change (zlen []) with 0 in R.
  now rewrite R.
Qed.

(** A text is a plain beginning, and then nothing or a character that is escaped. *)
Lemma plain_split s : exists u v, s = u ++ v /\ plain u /\ match v with [] => True | q :: _ => q = 34 \/ q = 92 end.
Proof.
  induction s as [|c s (u & v & -> & Hu & Hv)]; [exists [], []; repeat constructor|].
  destruct (Z.eq_dec c 34) as [E|N1]; [|destruct (Z.eq_dec c 92) as [E|N2]].
  - exists [], (c :: u ++ v). split; [reflexivity|]. split; [constructor|now left].
  - exists [], (c :: u ++ v). split; [reflexivity|]. split; [constructor|now right].
  - exists (c :: u), v. split; [reflexivity|]. split; [now constructor|exact Hv].
Qed.
Lemma escaped_plain u : plain u -> escaped u = u.
Proof.
  unfold escaped. induction 1 as [|c u [H1 H2] _ IH]; [reflexivity|]. cbn [flat_map].
  rewrite (proj2 (Z.eqb_neq c 34) H1), (proj2 (Z.eqb_neq c 92) H2), IH. reflexivity.
Qed.
Lemma escaped_app u v : escaped (u ++ v) = escaped u ++ escaped v.
Proof. unfold escaped. apply flat_map_app. Qed.

Lemma scans_quoted n : forall s l p rest ts, (length s <= n)%nat -> holds l p -> (s <> [] \/ p <> []) -> nonul s -> nonul p ->
  scans lexer_start rest ts -> scans l (escaped s ++ 34 :: rest) (TValue (set_string atom_fresh 0 (p ++ s)) :: ts).
Proof.
  induction n as [|n IH]; intros s l p rest ts Hn Hl Hne Hs Hp Hr.
  - destruct s as [|c s]; [|cbn [length] in Hn; lia]. destruct Hne as [Hne|Hne]; [contradiction|].
    destruct Hl as [[-> _]| ->]; [contradiction|]. cbn [escaped flat_map app]. rewrite app_nil_r.
    apply (scans_step _ (34 :: rest) act_close 1 lexer_start (Some (TValue (set_string atom_fresh 0 p))) 1 ts);
      [discriminate|apply pick_close|now apply close_does|lia|exact Hr].
  - destruct (plain_split s) as (u & v & -> & Hu & Hv). apply Forall_app in Hs as [Hsu Hsv].
    rewrite escaped_app, (escaped_plain u Hu). destruct v as [|q v].
    + rewrite !app_nil_r in *. cbn [escaped flat_map] in *. rewrite ?app_nil_r. destruct u as [|c u].
      * destruct Hne as [Hne|Hne]; [contradiction|]. destruct Hl as [[-> _]| ->]; [contradiction|]. cbn [app]. rewrite app_nil_r.
        apply (scans_step _ (34 :: rest) act_close 1 lexer_start (Some (TValue (set_string atom_fresh 0 p))) 1 ts);
          [discriminate|apply pick_close|now apply close_does|lia|exact Hr].
      * set (w := c :: u) in *. destruct Hl as [[-> ->]| ->].
        -- apply (scans_step (Lexer true None 0) (w ++ 34 :: rest) (act_quoted junk) (length w) (Lexer true None 0)
             (Some (TValue (set_string atom_fresh 0 w))) (length w) ts).
           ++ discriminate.
           ++ apply pick_quoted; [exact Hu|discriminate].
           ++ rewrite firstn_word. reflexivity.
           ++ cbn; lia.
           ++ rewrite skipn_word.
              apply (scans_step (Lexer true None 0) (34 :: rest) act_close 1 lexer_start None 1 ts);
                [discriminate|apply pick_close|reflexivity|lia|exact Hr].
        -- destruct (quoted_does p w Hp) as (m & Em).
           apply (scans_step (Lexer true (Some (p ++ [0])) (zlen p)) (w ++ 34 :: rest) (act_quoted junk) (length w)
             (Lexer true (Some ((p ++ w) ++ [0])) m) None (length w)).
           ++ discriminate.
           ++ apply pick_quoted; [exact Hu|discriminate].
           ++ rewrite firstn_word. exact Em.
           ++ cbn; lia.
           ++ rewrite skipn_word.
              apply (scans_step _ (34 :: rest) act_close 1 lexer_start (Some (TValue (set_string atom_fresh 0 (p ++ w)))) 1 ts);
                [discriminate|apply pick_close|apply close_does; now apply Forall_app|lia|exact Hr].
    + assert (Hq : q <> 10) by (destruct Hv; lia).
      assert (Ee : escaped (q :: v) = [92; q] ++ escaped v) by (unfold escaped; cbn [flat_map]; destruct Hv as [-> | ->]; reflexivity).
      rewrite Ee. replace ((u ++ [92; q] ++ escaped v) ++ 34 :: rest) with ((u ++ [92; q]) ++ escaped v ++ 34 :: rest)
        by (rewrite <- !app_assoc; reflexivity).
      assert (Lw : (length u + 2)%nat = length (u ++ [92; q])) by (rewrite app_length; reflexivity).
      assert (Hq0 : nonul [q]) by (constructor; [now apply Forall_inv in Hsv|constructor]).
      apply (scans_step l _ (act_escape junk) (length u + 2) (Lexer true (Some ((p ++ u ++ [q]) ++ [0])) (zlen (p ++ u ++ [q]))) None (length u + 2)).
      * destruct u; discriminate.
      * assert (quoting l = true) as -> by (destruct Hl as [[_ ->]| ->]; reflexivity).
        rewrite <- app_assoc. cbn [app]. now apply pick_escape.
      * rewrite Lw, firstn_word, <- Lw. now apply escape_does.
      * lia.
      * rewrite Lw, skipn_word. replace (p ++ u ++ q :: v) with ((p ++ u ++ [q]) ++ v) by (rewrite <- !app_assoc; reflexivity).
        apply IH.
        -- rewrite app_length in Hn. cbn [length] in Hn. lia.
        -- now right.
        -- right. destruct p; [destruct u|]; discriminate.
        -- now apply Forall_inv_tail in Hsv.
        -- apply Forall_app. split; [exact Hp|]. now apply Forall_app.
        -- exact Hr.
Qed.
Lemma scans_text s rest ts : nonul s -> scans lexer_start rest ts ->
  scans lexer_start (literal s ++ rest) (TValue (set_string atom_fresh 0 s) :: ts).
Proof.
  intros Hs Hr. destruct s as [|c s].
  - apply (scans_rule 1 (word [34; 34]) (fun _ => TValue (set_string atom_fresh 0 [])) (literal []) rest ts eq_refl); try discriminate; try assumption.
    + apply (longest_word [34; 34]).
    + rules_list. intros m. cbn [fst]. unfold lit. cbn [literal escaped flat_map app]. rewrite longest_cls. cbn. intros [= <-]. lia.
    + rules_list; try (unfold literal; cbn [escaped flat_map]; dead). cbn [literal escaped flat_map app]. apply upto_dot. cbn; lia.
  - set (w := c :: s) in *. unfold literal. rewrite <- !app_assoc. cbn [app].
    apply (scans_step lexer_start (34 :: escaped w ++ 34 :: rest) act_open 1 (Lexer true None 0) None 1).
    + discriminate.
    + apply (pick_nth (initial_rules strtod iso) 0 (lit 34) _ _ _ eq_refl).
      * unfold lit. rewrite longest_cls. reflexivity.
      * constructor.
      * rules_list; try dead; [|apply upto_dot; lia].
        apply upto_none. cbn [fst]. unfold word, lit. cbn [fold_right]. rewrite longest_cat_cls. cbn [Z.eqb Pos.eqb].
        assert (H : exists d e, escaped w ++ 34 :: rest = d :: e /\ d <> 34).
        { unfold w, escaped. cbn [flat_map]. destruct ((c =? 34) || (c =? 92)) eqn:E; cbn [app].
          - eexists _, _. split; [reflexivity|lia].
          - eexists _, _. split; [reflexivity|]. apply orb_false_iff in E as [E _]. now apply Z.eqb_neq in E. }
        destruct H as (d & e & -> & Hd). rewrite longest_cat_cls, (proj2 (Z.eqb_neq 34 d)) by congruence. reflexivity.
    + reflexivity.
    + lia.
    + cbn [skipn]. apply (scans_quoted (length w) w (Lexer true None 0) [] rest ts); try assumption; try constructor.
      * now split.
      * discriminate.
Qed.

(** ** Texts *)

Theorem scans_written s ts : written strtod iso s ts -> scans lexer_start s ts.
Proof.
  intros H. apply scans_run.
  assert (N : forall w rest us, scans lexer_start (w ++ rest) us -> match w with [] => False | c :: _ => is_white c = false end ->
    scans lexer_start (skipn (run (w ++ rest)) (w ++ rest)) us).
  { intros w rest us Hw Hf. destruct w as [|c w]; [contradiction|]. cbn [app run]. now rewrite Hf. }
  assert (M : forall w, numeric w -> match w with [] => False | c :: _ => is_white c = false end).
  { intros [|c w]; [intros []|]. cbn [numeric]. intros Hc. pose proof (number_char_in c Hc) as K.
    cbn [number_chars In] in K. decompose [or] K; subst; try reflexivity. contradiction. }
  induction H as [|c rest ts Hc _ IH|w must t rest ts Hw Hd _ IH|s rest ts Hs Hr _ IH].
  - apply scans_nil.
  - cbn [run]. now rewrite (white_in c Hc).
  - apply scans_run in IH. destruct Hw as [c Hc| | | |c Hc H0 H10|s Hs|z|x s Hx Hn Hh Hl|x s Hx Hh Hl|w Hw|w Hw].
    + apply N; [now apply scans_punctuation|]. cbn [In] in Hc. decompose [or] Hc; subst; try reflexivity. contradiction.
    + apply N; [|reflexivity]. apply (scans_word 3 (fun _ => TValue (set_true atom_fresh)) _ _ _ eq_refl); auto. now left.
    + apply N; [|reflexivity]. apply (scans_word 4 (fun _ => TValue (set_false atom_fresh)) _ _ _ eq_refl); auto. right; now left.
    + apply N; [|reflexivity]. apply (scans_word 5 (fun _ => TValue (set_nil atom_fresh)) _ _ _ eq_refl); auto. right; right; now left.
    + apply N; [|reflexivity]. replace (two_complement 8 c) with (s8 c); [now apply scans_char|].
      unfold two_complement, s8. change (2^(8-1)) with 128. change (2^8) with 256. change (2^7) with 128.
      destruct (_ mod _ <? _) eqn:L; [apply Z.ltb_lt in L|apply Z.ltb_ge in L]; Z.div_mod_to_equations; lia.
    + apply N; [|reflexivity]. now apply scans_text.
    + apply N; [|apply M; apply numeral_number]. apply scans_integer; auto.
    + apply N; [|reflexivity]. rewrite <- (hex_atom_32 x s Hh Hl). apply scans_hex; auto.
    + apply N; [|reflexivity]. rewrite <- (hex_atom_64 x s Hh Hl). apply scans_hex; auto. intros ->. change (zlen []) with 0 in Hl. lia.
    + apply N; [|apply M; now apply decimal_numeric]. apply scans_double; auto.
    + apply N; [apply scans_time; auto|]. destruct Hw as [year ? ? ? ? ? ? ? Hl Hy]. destruct year as [|y ?]; [discriminate|]. apply Forall_inv in Hy.
      apply (M [y]). now right.
  - apply scans_run in IH. apply N; [now apply scans_address|]. destruct Hs as (body & -> & _). reflexivity.
Qed.
End Tokens.
