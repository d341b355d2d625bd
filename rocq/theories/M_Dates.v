(** Model of src/dates/mod.rs and src/dates/datetime.rs. *)
From Coq Require Import ZArith List String Ascii Bool.
From Verif Require Import Prelude.
Import ListNotations.
Open Scope Z_scope.

(** dates/mod.rs:58 [struct Date(i32)]: the truncated Julian day number.  i32 is modelled by Z;
    the [_checked] variants below make i32 overflow visible. *)
Definition date := Z.

(** dates/mod.rs:244-251 [truncated_julian_from_ymd].  Rust's [/] on i32 truncates: [Z.quot]. *)
Definition truncated_julian_from_ymd (year month day : Z) : Z :=
  let year_month := Z.quot (month - 14) 12 in
  let julian := day - 32075
    + Z.quot (1461 * (year + 4800 + year_month)) 4
    + Z.quot (367 * (month - 2 - year_month * 12)) 12
    - Z.quot (3 * (Z.quot (year + 4900 + year_month) 100)) 4 in
  julian - 2440000.

(** dates/mod.rs:255-269 [ymd_from_truncated_julian]. *)
Definition ymd_from_truncated_julian (truncated_julian : Z) : Z * Z * Z :=
  let julian := truncated_julian + 2440000 in
  let l1 := julian + 68569 in
  let n := Z.quot (4 * l1) 146097 in
  let l2 := l1 - Z.quot (146097 * n + 3) 4 in
  let i1 := Z.quot (4000 * (l2 + 1)) 1461001 in
  let l3 := l2 - Z.quot (1461 * i1) 4 + 31 in
  let j1 := Z.quot (80 * l3) 2447 in
  let k1 := l3 - Z.quot (2447 * j1) 80 in
  let l4 := Z.quot j1 11 in
  let j2 := j1 + 2 - 12 * l4 in
  let i2 := 100 * (n - 49) + i1 + l4 in
  (i2, j2, k1).

(** dates/mod.rs:197-199 [Date::from_nil]. *)
Definition from_nil : date := 0.
(** dates/mod.rs:211-214 [Date::from_ymd]. *)
Definition from_ymd (year month day : Z) : date := truncated_julian_from_ymd year month day.
(** dates/mod.rs:217-219 [Date::ymd]. *)
Definition ymd (d : date) : Z * Z * Z := ymd_from_truncated_julian d.

(** dates/mod.rs:229-232 [Date::is_valid]. *)
Definition is_valid (d : date) : bool := (0 <? d) && (d <? 200 * 365).

(** dates/mod.rs:236-239 [Date::day_of_week]. *)
Definition day_of_week (d : date) : res Z :=
  if is_valid d then Ok (Z.rem (d + 3) 7) else Panic "assertion failed: self.is_valid()".

(** ** i32 arithmetic with overflow checks (debug builds panic on overflow) *)

Definition in_i32 (z : Z) : bool := (- 2147483648 <=? z) && (z <=? 2147483647).
Definition i32 (z : Z) : res Z := if in_i32 z then Ok z else Panic "attempt to overflow".
Definition cadd (a b : Z) := i32 (a + b).
Definition csub (a b : Z) := i32 (a - b).
Definition cmul (a b : Z) := i32 (a * b).
Definition cdiv (a b : Z) := i32 (Z.quot a b).

(** dates/mod.rs:244-251, every i32 operation checked, in evaluation order. *)
Definition truncated_julian_from_ymd_checked (year month day : Z) : res Z :=
  let* a := csub month 14 in
  let* year_month := cdiv a 12 in
  let* t0 := csub day 32075 in
  let* b := cadd year 4800 in
  let* b := cadd b year_month in
  let* b := cmul 1461 b in
  let* b := cdiv b 4 in
  let* t1 := cadd t0 b in
  let* c := csub month 2 in
  let* c' := cmul year_month 12 in
  let* c := csub c c' in
  let* c := cmul 367 c in
  let* c := cdiv c 12 in
  let* t2 := cadd t1 c in
  let* e := cadd year 4900 in
  let* e := cadd e year_month in
  let* e := cdiv e 100 in
  let* e := cmul 3 e in
  let* e := cdiv e 4 in
  let* julian := csub t2 e in
  csub julian 2440000.

(** dates/mod.rs:255-269, every i32 operation checked, in evaluation order. *)
Definition ymd_from_truncated_julian_checked (truncated_julian : Z) : res (Z * Z * Z) :=
  let* julian := cadd truncated_julian 2440000 in
  let* l1 := cadd julian 68569 in
  let* a := cmul 4 l1 in
  let* n := cdiv a 146097 in
  let* b := cmul 146097 n in
  let* b := cadd b 3 in
  let* b := cdiv b 4 in
  let* l2 := csub l1 b in
  let* c := cadd l2 1 in
  let* c := cmul 4000 c in
  let* i1 := cdiv c 1461001 in
  let* e := cmul 1461 i1 in
  let* e := cdiv e 4 in
  let* l3 := csub l2 e in
  let* l3 := cadd l3 31 in
  let* g := cmul 80 l3 in
  let* j1 := cdiv g 2447 in
  let* h := cmul 2447 j1 in
  let* h := cdiv h 80 in
  let* k1 := csub l3 h in
  let* l4 := cdiv j1 11 in
  let* o := cadd j1 2 in
  let* o' := cmul 12 l4 in
  let* j2 := csub o o' in
  let* q := csub n 49 in
  let* q := cmul 100 q in
  let* q := cadd q i1 in
  let* i2 := cadd q l4 in
  Ok (i2, j2, k1).

(** ** Text *)

Definition digit (z : Z) : ascii := ascii_of_nat (48 + Z.to_nat z).

(** Decimal digits of a non-negative number, most significant first; [fuel] bounds the number of digits. *)
Fixpoint digits (fuel : nat) (z : Z) (acc : string) : string :=
  match fuel with
  | O => acc
  | S f => let acc' := String (digit (z mod 10)) acc in
           if z / 10 =? 0 then acc' else digits f (z / 10) acc'
  end.

Fixpoint zeros (n : nat) : string :=
  match n with O => EmptyString | S k => String "0" (zeros k) end.

(** Rust's [{:0w}] formatting of an i32 (at most 10 digits): sign, zero padding to width w, digits. *)
Definition fmt_pad (w : nat) (z : Z) : string :=
  let ds := digits 10 (Z.abs z) "" in
  if z <? 0 then String "-" (append (zeros (w - 1 - String.length ds)) ds)
  else append (zeros (w - String.length ds)) ds.

(** dates/mod.rs:155-160 [impl Display for Date]. *)
Definition to_string (d : date) : string :=
  let '(y, m, dd) := ymd d in
  append (fmt_pad 4 y) (String "-" (append (fmt_pad 2 m) (String "-" (fmt_pad 2 dd)))).

(** [str::split("-")]: always at least one field. *)
Fixpoint split_dash (s : string) : list string :=
  match s with
  | EmptyString => [EmptyString]
  | String c s' =>
      if Ascii.eqb c "-" then EmptyString :: split_dash s'
      else match split_dash s' with
           | [] => [String c EmptyString]
           | f :: fs => String c f :: fs
           end
  end.

Definition is_digit (c : ascii) : bool :=
  let n := Z.of_nat (nat_of_ascii c) in (48 <=? n) && (n <=? 57).

Fixpoint parse_digits (s : string) (acc : Z) : option Z :=
  match s with
  | EmptyString => Some acc
  | String c s' =>
      if is_digit c then parse_digits s' (acc * 10 + (Z.of_nat (nat_of_ascii c) - 48)) else None
  end.

(** [str::parse::<i32>]: optional sign, at least one digit, value in the i32 range. *)
Definition parse_i32 (s : string) : option Z :=
  let chk o := match o with Some z => if in_i32 z then Some z else None | None => None end in
  match s with
  | EmptyString => None
  | String c s' =>
      if Ascii.eqb c "-" then
        match s' with EmptyString => None | _ => chk (option_map Z.opp (parse_digits s' 0)) end
      else if Ascii.eqb c "+" then
        match s' with EmptyString => None | _ => chk (parse_digits s' 0) end
      else chk (parse_digits s 0)
  end.

(** dates/mod.rs:98-126 [Date::from_str].  The loop reads [ymd[i]] for i = 0, 1, 2: a missing field is an index
    panic, but only after all earlier fields have parsed.  i32 overflow inside [from_ymd] is the debug-build panic. *)
Definition nth_field (fields : list string) (i : nat) : res string :=
  match nth_error fields i with
  | Some f => Ok f
  | None => Panic "index out of bounds"
  end.
Definition parse_field (s : string) (fields : list string) (i : nat) : res Z :=
  let* f := nth_field fields i in
  match parse_i32 f with Some z => Ok z | None => Err s end.
Definition from_str (s : string) : res date :=
  let fields := split_dash s in
  let* y := parse_field s fields 0 in
  let* m := parse_field s fields 1 in
  let* d := parse_field s fields 2 in
  let* result := truncated_julian_from_ymd_checked y m d in
  if is_valid result then Ok result else Err s.

(** ** Times of day *)

(** dates/datetime.rs:21-26 [TimeOfDay]; the derived order is the declaration order. *)
Inductive time_of_day := Open_ | EDSP | Close_.
Definition tod_rank (t : time_of_day) : Z := match t with Open_ => 0 | EDSP => 1 | Close_ => 2 end.

(** dates/datetime.rs:41-45 [DateTime], with the derived lexicographic order. *)
Record datetime := mkDT { dt_date : date; dt_tod : time_of_day }.
Definition tod_eqb (a b : time_of_day) : bool := tod_rank a =? tod_rank b.
Definition dt_eqb (a b : datetime) : bool :=
  (dt_date a =? dt_date b) && tod_eqb (dt_tod a) (dt_tod b).
Definition dt_ltb (a b : datetime) : bool :=
  (dt_date a <? dt_date b)
  || ((dt_date a =? dt_date b) && (tod_rank (dt_tod a) <? tod_rank (dt_tod b))).
Definition dt_leb (a b : datetime) : bool := negb (dt_ltb b a).
