(** The texts of times and steps that are no numbers: time.Parse(time.RFC3339Nano, _) of the Go standard library and
    model.ParseDuration of prometheus/common, as internal/promql/parsing.go:26-43 calls them.  Neither is in /repo: they are
    transcribed from the versions of 2018 (Go 1.12, time/format.go and time/time.go; prometheus/common model/time.go). *)
From Coq Require Import Ascii String.
From stdpp Require Import prelude list.
From Verif.Base Require Import GoInt Str Dec.
Local Open Scope string_scope.
Local Open Scope Z_scope.

(** ** time/format.go *)
(** getnum: two digits, or one unless [fixed] *)
Definition getnum (fixed : bool) (s : string) : option (Z * string) :=
  match s with
  | String c s1 =>
      if is_digit c then
        match s1 with
        | String c2 s2 => if is_digit c2 then Some (digit_val c * 10 + digit_val c2, s2)
                          else if fixed then None else Some (digit_val c, s1)
        | EmptyString => if fixed then None else Some (digit_val c, s1)
        end
      else None
  | EmptyString => None
  end.
(** the case stdLongYear: four bytes, the first a digit, through atoi *)
Definition get_year (s : string) : option (Z * string) :=
  match s with
  | String a (String b (String c (String d r))) =>
      if is_digit a && is_digit b && is_digit c && is_digit d
      then Some (((digit_val a * 10 + digit_val b) * 10 + digit_val c) * 10 + digit_val d, r) else None
  | _ => None
  end.
(** skip, for a prefix of one byte *)
Definition skip_byte (p : ascii) (s : string) : option string :=
  match s with String c r => if ceqb c p then Some r else None | EmptyString => None end.
(** the case stdFracSecond9 with parseNanoseconds: up to nine digits after a point; without a point and a digit, none *)
Fixpoint nanoseconds (left : nat) (acc : Z) (s : string) : Z * string :=
  match left, s with
  | S l, String c r => if is_digit c then nanoseconds l (acc * 10 + digit_val c) r else (acc * 10 ^ Z.of_nat left, s)
  | _, _ => (acc * 10 ^ Z.of_nat left, s)
  end.
Definition get_frac (s : string) : Z * string :=
  match s with
  | String p (String c r) => if ceqb p "." && is_digit c then nanoseconds 9 0 (String c r) else (0, s)
  | _ => (0, s)
  end.
(** time.atoi on two bytes: it takes a sign *)
Definition atoi2 (a b : ascii) : option Z :=
  if ceqb a "-" then (if is_digit b then Some (- digit_val b) else None)
  else if ceqb a "+" then (if is_digit b then Some (digit_val b) else None)
  else if is_digit a && is_digit b then Some (digit_val a * 10 + digit_val b) else None.
(** the case stdISO8601ColonTZ: seconds east of UTC *)
Definition get_zone (s : string) : option (Z * string) :=
  match s with
  | EmptyString => None
  | String sign r =>
      if ceqb sign "Z" then Some (0, r)
      else match r with
           | String a (String b (String p (String c (String d r')))) =>
               if ceqb p ":" then
                 hr ← atoi2 a b; mm ← atoi2 c d;
                 let off := (hr * 60 + mm) * 60 in
                 if ceqb sign "+" then Some (off, r') else if ceqb sign "-" then Some (- off, r') else None
               else None
           | _ => None
           end
  end.

(** ** time/time.go *)
(** isLeap, daysBefore, daysIn *)
Definition is_leap (y : Z) : bool := (y mod 4 =? 0) && (negb (y mod 100 =? 0) || (y mod 400 =? 0)).
Definition days_before (m : Z) : Z :=
  nth (Z.to_nat m) [0; 31; 59; 90; 120; 151; 181; 212; 243; 273; 304; 334; 365] 0.
Definition days_in (m y : Z) : Z := if (m =? 2) && is_leap y then 29 else days_before m - days_before (m - 1).
(** Date, the days since the absolute zero year; and in seconds of Unix time.  For years of four digits no uint64 overflows. *)
Definition absolute_zero_year : Z := -292277022399.
Definition abs_days (y m d : Z) : Z :=
  let y0 := y - absolute_zero_year in
  let n := y0 / 400 in let y1 := y0 - 400 * n in let d1 := 146097 * n in
  let n := y1 / 100 in let y2 := y1 - 100 * n in let d2 := d1 + 36524 * n in
  let n := y2 / 4 in let y3 := y2 - 4 * n in let d3 := d2 + 1461 * n in
  let d4 := d3 + 365 * y3 in
  let d5 := d4 + days_before (m - 1) in
  let d6 := if is_leap y && (3 <=? m) then d5 + 1 else d5 in
  d6 + (d - 1).
(** absoluteToInternal = (absoluteZeroYear - 1) * 365.2425 days; internalToUnix: the days from year 1 to 1970 *)
Definition abs_to_unix : Z := ((absolute_zero_year - 1) / 400 * 146097 - (1969 * 365 + 1969 / 4 - 1969 / 100 + 1969 / 400)) * 86400.
Definition unix_seconds (y m d h mi s : Z) : Z := abs_days y m d * 86400 + (h * 3600 + mi * 60 + s) + abs_to_unix.

(** time.Parse(RFC3339Nano, s), in nanoseconds since 1970 (a time.Time holds seconds and nanoseconds: these are not bounded) *)
Definition rfc3339_text (s : string) : option Z :=
  '(y, s) ← get_year s; s ← skip_byte "-" s;
  '(m, s) ← getnum true s; if negb ((1 <=? m) && (m <=? 12)) then None else
  s ← skip_byte "-" s;
  '(d, s) ← getnum true s;
  s ← skip_byte "T" s;
  '(h, s) ← getnum false s; if 24 <=? h then None else
  s ← skip_byte ":" s;
  '(mi, s) ← getnum true s; if 60 <=? mi then None else
  s ← skip_byte ":" s;
  '(se, s) ← getnum true s; if 60 <=? se then None else
  let '(ns, s) := get_frac s in
  '(off, s) ← get_zone s;
  match s with
  | EmptyString => if (d <? 1) || (days_in m y <? d) then None
                   else Some ((unix_seconds y m d h mi se - off) * 1000000000 + ns)
  | String _ _ => None
  end.

(** ** prometheus/common model/time.go *)
(** the two groups of ^([0-9]+)(y|w|d|h|m|s|ms)$ : the value of the first, through strconv.Atoi, whose error is ignored *)
Fixpoint take_digits (acc : Z) (s : string) : Z * string :=
  match s with
  | String c r => if is_digit c then take_digits (acc * 10 + digit_val c) r else (acc, s)
  | EmptyString => (acc, s)
  end.
Definition atoi (n : Z) : Z := if n <? 2^63 then n else 2^63 - 1.
(** the switch of ParseDuration: what the milliseconds are multiplied by *)
Definition per_unit (u : string) : option Z :=
  if String.eqb u "y" then Some (1000 * 60 * 60 * 24 * 365)
  else if String.eqb u "w" then Some (1000 * 60 * 60 * 24 * 7)
  else if String.eqb u "d" then Some (1000 * 60 * 60 * 24)
  else if String.eqb u "h" then Some (1000 * 60 * 60)
  else if String.eqb u "m" then Some (1000 * 60)
  else if String.eqb u "s" then Some 1000
  else if String.eqb u "ms" then Some 1
  else None.
(** ParseDuration, in nanoseconds *)
Definition duration_text (s : string) : option Z :=
  match s with
  | String c _ =>
      if is_digit c then
        let '(n, u) := take_digits 0 s in
        k ← per_unit u;
        Some (wrap64 (wrap64 (atoi n * 1000000) * k))
      else None
  | EmptyString => None
  end.
