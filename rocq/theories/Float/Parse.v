(** The text of numbers in query results: strconv.ParseFloat, strconv.FormatFloat(_, 'f', -1, 64) and fmt.Sprintf("%.3f", _), as
    pkg/marshaler/marshaler.go uses them (lines 201-209, 417-432).  The packages are Go's and not in the repository; transcribed from the
    published source by what they compute.  Left out of ParseFloat: hexadecimal numbers and underscores, which are errors here. *)
From Coq Require Import Ascii String.
From stdpp Require Import prelude strings.
From Verif.Base Require Import Envelope Str Dec.
From Verif.Auth Require Import Docs.
From Verif.Json Require Import Text Pb.
From Verif.Marshaler Require Import Model.
From Verif.Float Require Import Model.
Open Scope string_scope.
Open Scope Z_scope.

(** float64, all NaNs being one *)
Inductive go_float :=
  | NotANumber
  | Infinite (neg : bool)
  | Finite (neg : bool) (b : { b : Z | bool_decide (0 <= b < inf) }).
Definition finite_of (neg : bool) (b : Z) : option go_float :=
  match decide (bool_decide (0 <= b < inf)) with left H => Some (Finite neg (exist _ b H)) | right _ => None end.

(** strconv/atof.go readFloat: digits, a point anywhere or nowhere, an exponent.  (The exponent counts only to 10000 there, which is out
    of reach of either notation unless there are thousands of digits.) *)
Definition go_exponent (s : string) : option Z :=
  match s with
  | EmptyString => Some 0
  | String c r =>
      if ceqb c "e" || ceqb c "E" then
        match r with
        | String g r' => if ceqb g "-" then Z.opp <$> digits r' else if ceqb g "+" then digits r' else digits r
        | EmptyString => None
        end
      else None
  end.
Definition go_decimal (s : string) : option (Z * Z) :=
  let '(m, r) := span_digits 0 s in
  match r with
  | String c r' =>
      if ceqb c "." then
        let '(m', r'') := span_digits m r' in
        if bool_decide (String.length s = 1 + String.length r'')%nat then None
        else x ← go_exponent r''; Some (m', x - Z.of_nat (String.length r' - String.length r''))
      else if bool_decide (String.length s = String.length r) then None else x ← go_exponent r; Some (m, x)
  | EmptyString => match s with EmptyString => None | _ => Some (m, 0) end
  end.
Fixpoint lowered (s : string) : string :=
  match s with
  | EmptyString => ""
  | String c r => String (if (65 <=? nat_of_ascii c)%nat && (nat_of_ascii c <=? 90)%nat then ascii_of_nat (nat_of_ascii c + 32) else c) (lowered r)
  end.
(** strconv/atof.go ParseFloat, special; a number out of range is an error *)
Definition parse_unsigned (neg : bool) (s : string) : option go_float :=
  if bool_decide (lowered s = "inf") || bool_decide (lowered s = "infinity") then Some (Infinite neg)
  else '(m, k) ← go_decimal s; b ← read_decimal m k; finite_of neg b.
Definition parse_go (s : string) : option go_float :=
  match s with
  | String c r =>
      if ceqb c "-" then parse_unsigned true r
      else if ceqb c "+" then parse_unsigned false r
      else if bool_decide (lowered s = "nan") then Some NotANumber
      else parse_unsigned false s
  | EmptyString => None
  end.

Definition signed (neg : bool) (s : string) : string := if neg then String "-" s else s.
(** strconv.FormatFloat(_, 'f', -1, 64) *)
Definition short_go (f : go_float) : string :=
  match f with
  | NotANumber => "NaN"
  | Infinite neg => if neg then "-Inf" else "+Inf"
  | Finite neg b => signed neg (if proj1_sig b =? 0 then "0" else let '(m, k) := shortest (proj1_sig b) in write_f m k)
  end.
(** fmt.Sprintf("%.3f", _): the nearest thousandth, of two as near the even one *)
Definition thousandths (b : Z) : Z :=
  let p := 1000 * (mantissa b * 2 ^ (exponent b + 1074)) in
  let d := p / 2 ^ 1074 in
  let r := p mod 2 ^ 1074 in
  if (2 ^ 1074 <? 2 * r) || ((2 * r =? 2 ^ 1074) && Z.odd d) then d + 1 else d.
Definition three_go (f : go_float) : string :=
  match f with
  | NotANumber => "NaN"
  | Infinite neg => if neg then "-Inf" else "+Inf"
  | Finite neg b => signed neg (write_f (thousandths (proj1_sig b)) 3)
  end.

(** what the marshaler uses *)
Definition go_marshal : lib :=
  Lib go_float parse_go (fun f => match f with Finite _ _ => true | _ => false end) three_go short_go utf8_clean.
