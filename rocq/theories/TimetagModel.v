(** Model of osc_timetag.c (NTP format) and of the time tag accessors of
    osc_bundle_s.c. *)

From Coq Require Import ZArith List Bool.
From Verif Require Import Base Bytes UtilModel.
Import ListNotations.
Open Scope Z_scope.

(** osc_timetag.h: t_osc_timetag, two uint32 fields. *)
Record timetag := TT { sec : Z; frac : Z }.

(** osc_timetag.h: OSC_TIMETAG_NULL, OSC_TIMETAG_IMMEDIATE. *)
Definition tt_null := TT 0 0.
Definition tt_immediate := TT 0 1.

(** osc_timetag.c:42-57 osc_timetag_add. *)
Definition tt_add (t1 t2 : timetag) : timetag :=
  let rs := u32 (sec t1 + sec t2) in
  let rf := u32 (frac t1 + frac t2) in
  if rf <? frac t1 then TT (u32 (rs + 1)) rf else TT rs rf.

(** osc_timetag.c:59-90 osc_timetag_subtract. *)
Definition tt_sub (t1 t2 : timetag) : timetag :=
  if (sec t1 >? sec t2) || ((sec t1 =? sec t2) && (frac t1 >=? frac t2)) then
    let rs := u32 (sec t1 - sec t2) in
    if frac t1 >=? frac t2 then TT rs (u32 (frac t1 - frac t2))
    else if rs =? 0 then TT rs (u32 (frac t2 - frac t1))
    else TT (u32 (rs - 1)) (u32 (frac t1 - frac t2))
  else
    let rs := u32 (sec t2 - sec t1) in
    if frac t1 >=? frac t2 then TT rs (u32 (frac t1 - frac t2))
    else TT rs (u32 (frac t2 - frac t1)).

(** osc_timetag.c:92-108 osc_timetag_compare. *)
Definition tt_compare (t1 t2 : timetag) : Z :=
  if (sec t1 <? sec t2) || ((sec t1 =? sec t2) && (frac t1 <? frac t2)) then -1
  else if (sec t1 >? sec t2) || ((sec t1 =? sec t2) && (frac t1 >? frac t2)) then 1
  else 0.

(** osc_timetag.c:110-118 osc_timetag_isImmediate. *)
Definition tt_is_immediate (t : timetag) : bool := (sec t =? 0) && (frac t =? 1).

(** osc_timetag.c:644-660 osc_timetag_decodeFromHeader at offset [i]. *)
Definition tt_decode (buf : bytes) (i : Z) : res timetag :=
  do s <- rd32 buf i; do f <- rd32 buf (i + 4); Ok (TT s f).

(** osc_timetag.c:662-677 osc_timetag_encodeForHeader at offset [i]. *)
Definition tt_encode (t : timetag) (buf : bytes) (i : Z) : res bytes :=
  do b1 <- wr32 buf i (sec t); wr32 b1 (i + 4) (frac t).

(** osc_bundle_s.c:525-531 osc_bundle_s_getTimetag. *)
Definition bundle_get_timetag (len : Z) (buf : bytes) : res timetag :=
  if len <? 16 then Ok tt_null else tt_decode buf 8.

(** osc_bundle_s.c:533-539 osc_bundle_s_setTimetag. *)
Definition bundle_set_timetag (len : Z) (buf : bytes) (t : timetag) : res bytes :=
  if len <? 16 then Ok buf else tt_encode t buf 8.

(** * ISO 8601 *)

(** [while(y > 0){ y -= k; }] of osc_timetag.c:188-190, 197-199, 202-204. *)
Definition down (k y : Z) : res Z :=
  while (fun y => if y >? 0 then Cont (s16 (y - k)) else Done (Ok y)) 32768 y.

(** osc_timetag.c:181-212 osc_timetag_isleap; the test variable is a signed
    short. *)
Definition isleap (year : Z) : res Z :=
  do a <- down 400 (s16 year);
  if a =? 0 then Ok 1 else
  do b <- down 4 (s16 year);
  if b =? 0 then
    do c <- down 100 (s16 year);
    if c <? 0 then Ok 1 else Ok 0
  else Ok 0.

(** osc_timetag.c:216-304 osc_timetag_getmonth for [leap] 0 or 1: the month
    and the day of the month ([*day] on return).  All values are unsigned
    short. *)
Definition getmonth (day leap : Z) : Z * Z :=
  let feb := 59 + leap in let mar := 90 + leap in let apr := 120 + leap in
  let may := 151 + leap in let jun := 181 + leap in let jul := 212 + leap in
  let aug := 243 + leap in let sep := 273 + leap in let oct := 304 + leap in
  let nov := 334 + leap in let dec := 365 + leap in
  if day <=? 31 then (1, day)
  else if day <=? feb then (2, u16 (day - 31))
  else if day <=? mar then (3, u16 (day - feb))
  else if day <=? apr then (4, u16 (day - mar))
  else if day <=? may then (5, u16 (day - apr))
  else if day <=? jun then (6, u16 (day - may))
  else if day <=? jul then (7, u16 (day - jun))
  else if day <=? aug then (8, u16 (day - jul))
  else if day <=? sep then (9, u16 (day - aug))
  else if day <=? oct then (10, u16 (day - sep))
  else if day <=? nov then (11, u16 (day - oct))
  else if day <=? dec then (12, u16 (day - nov))
  else (0, day).

(** The counting loops of osc_timetag.c:346-354:
    [for(c = start; secs >= k; c++) secs -= k;]. *)
Definition count_loop (k start secs : Z) : res (Z * Z) :=
  while (fun '(c, s) => if s >=? k then Cont (u16 (c + 1), u32 (s - k)) else Done (Ok (c, s)))
        65536 (start, secs).

(** One turn of the year loop, osc_timetag.c:326-331.  [secs] is a uint32, so
    the second subtraction can wrap around. *)
Definition year_step (st : Z * Z) : lres (Z * Z) (res (Z * Z)) :=
  let '(year, secs) := st in
  if secs >=? 31536000 then
    let secs1 := u32 (secs - 31536000) in
    match isleap year with
    | Ok l => Cont (u16 (year + 1), if l =? 0 then secs1 else u32 (secs1 - 86400))
    | Ub u => Done (Ub u)
    | Fuel => Done Fuel
    end
  else Done (Ok (year, secs)).

Record fields := F { fyear : Z; fmonth : Z; fday : Z; fhour : Z; fmin : Z; fsec : Z }.

(** osc_timetag.c:314-363: the calendar fields osc_timetag_toISO8601 prints. *)
Definition iso_fields (secs : Z) : res fields :=
  do ' (year0, secs1) <- while year_step 65536 (0, secs);
  let year := u16 (year0 + 1900) in
  do leap <- isleap year;
  do ' (day, secs2) <- count_loop 86400 1 secs1;
  do ' (hour, secs3) <- count_loop 3600 0 secs2;
  do ' (minute, secs4) <- count_loop 60 0 secs3;
  let '(month, mday) := getmonth day leap in
  Ok (F year month mday hour minute secs4).

(** Decimal digits, as printf's %u. *)
Fixpoint digits (fuel : nat) (v : Z) : list Z :=
  match fuel with
  | O => []
  | S f => if v <? 10 then [48 + v] else digits f (v / 10) ++ [48 + v mod 10]
  end.

(** [snprintf(b, cap, "%0<w>u", v)]. *)
Definition print_u (w cap : nat) (v : Z) : list Z :=
  let d := digits 10 v in
  firstn (cap - 1) (repeat 48 (w - length d) ++ d).

(** osc_timetag.c:366-424: the nineteen characters before the fraction.  The
    fraction itself, a double printed with %f, is not modelled. *)
Definition iso_text (f : fields) : list Z :=
  print_u 4 5 (fyear f) ++ [45] ++ print_u 2 3 (fmonth f) ++ [45] ++ print_u 2 3 (fday f) ++ [84] ++
  print_u 2 3 (fhour f) ++ [58] ++ print_u 2 3 (fmin f) ++ [58] ++ print_u 2 3 (fsec f).

Definition to_iso8601 (t : timetag) : res (list Z) :=
  do f <- iso_fields (sec t); Ok (iso_text f).

(** strptime(s, "%Y-%m-%dT%H:%M:%S", &t) on text of that exact fixed-width
    shape (osc_timetag.c:486); [None]: not of the shape, not modelled.
    Characters after the nineteenth are not looked at. *)
Definition dig (c : Z) : option Z := if (48 <=? c) && (c <=? 57) then Some (c - 48) else None.
Definition num2 (a b : Z) : option Z :=
  match dig a, dig b with Some x, Some y => Some (10 * x + y) | _, _ => None end.
Definition within (lo hi : Z) (v : option Z) : option Z :=
  match v with Some x => if (lo <=? x) && (x <=? hi) then Some x else None | None => None end.
Definition strptime (s : list Z) : option fields :=
  match s with
  | y1 :: y2 :: y3 :: y4 :: c1 :: m1 :: m2 :: c2 :: d1 :: d2 :: t ::
    h1 :: h2 :: c3 :: i1 :: i2 :: c4 :: s1 :: s2 :: _ =>
      if (c1 =? 45) && (c2 =? 45) && (t =? 84) && (c3 =? 58) && (c4 =? 58) then
        match num2 y1 y2, num2 y3 y4, within 1 12 (num2 m1 m2), within 1 31 (num2 d1 d2),
              within 0 23 (num2 h1 h2), within 0 59 (num2 i1 i2), within 0 61 (num2 s1 s2) with
        | Some ya, Some yb, Some m, Some d, Some h, Some i, Some x =>
            Some (F (100 * ya + yb) m d h i x)
        | _, _, _, _, _, _, _ => None
        end
      else None
  | _ => None
  end.

(** osc_timetag.c:495-501: the seconds of the years before [1900 + n]. *)
Fixpoint year_secs (n : nat) : res Z :=
  match n with
  | O => Ok 0
  | S m => do a <- year_secs m;
           do l <- isleap (Z.of_nat m + 1900);
           let b := u32 (a + 31536000) in
           Ok (if l =? 0 then b else u32 (b + 86400))
  end.

(** osc_timetag.c:504 days_in_months. *)
Definition days_in_months : list Z := [0; 31; 59; 90; 120; 151; 181; 212; 243; 273; 304; 334; 365].

(** osc_timetag.c:495-513 osc_timetag_fromISO8601: the seconds field, from the
    broken-down time (tm_year = year - 1900, tm_mon = month - 1). *)
Definition from_fields (f : fields) : res Z :=
  do s0 <- year_secs (Z.to_nat (fyear f - 1900));
  do leap <- isleap (u16 (fyear f));
  do dm <- rd days_in_months (fmonth f - 1);
  let offset := if negb (leap =? 0) && (fmonth f - 1 >? 1) then 1 else 0 in
  let s1 := u32 (s0 + (dm + offset + (fday f - 1)) * 86400) in
  let s2 := u32 (s1 + fhour f * 3600) in
  let s3 := u32 (s2 + fmin f * 60) in
  Ok (u32 (s3 + fsec f)).

Definition from_iso8601 (s : list Z) : option (res Z) :=
  match strptime s with Some f => Some (from_fields f) | None => None end.
