(** The text of a float64 in JSON, as encoding/json writes it (floatEncoder, with strconv.AppendFloat and the shortest precision) and
    as strconv.ParseFloat reads it.  The gateway writes gauges this way and the client reads them (internal/gateway/gateway.go:126-128,
    pkg/client/client.go:147, both through jsonpb, see Json/Pb.v); the packages are Go's and not in the repository.
    Transcribed from the published source of Go 1.12 to 1.16 by what its functions compute, not by how: strconv's fast paths are left
    out.  A float64 is its bit pattern (Base/Envelope.v). *)
From Coq Require Import Ascii String.
From stdpp Require Import prelude strings.
From Verif.Base Require Import Envelope Str Dec.
From Verif.Auth Require Import Docs.
From Verif.Json Require Import Pb.
Open Scope string_scope.
Open Scope Z_scope.

(** ** Reading *)
(** strconv/decimal.go floatBits: the bits of n * 2^e; that n has one bit more than it should after rounding up is made good by the carry *)
Definition float_bits (n e : Z) : Z := n + (e + 1074) * 2^52.
(** m * 10^k, not negative: None if it is out of range *)
Definition read_decimal (m k : Z) : option f64 :=
  if m =? 0 then Some 0 else '(n, e) ← nearest_float (m * 10 ^ Z.max k 0) (10 ^ Z.max (- k) 0); Some (float_bits n e).
(** strconv.ParseFloat(_, 64) of a number of JSON *)
Definition read_go (t : string) : option f64 :=
  match t with
  | String c r =>
      if ceqb c "-" then (let '(m, k) := decimal_of r in f ← read_decimal m k; Some (2^63 + f))
      else (let '(m, k) := decimal_of t in read_decimal m k)
  | EmptyString => None
  end.

(** ** Writing *)
(** strconv/ftoa.go:62-90: mantissa and exponent of a finite float64 without its sign: n * 2^e *)
Definition mantissa (b : Z) : Z := if b <? 2^52 then b else 2^52 + b mod 2^52.
Definition exponent (b : Z) : Z := if b <? 2^52 then -1074 else b / 2^52 - 1075.

(** all the digits of a number *)
Definition decimal (n : Z) : string := format_digits (Z.to_nat (Z.log2 n)) n "".
Definition digit_count (n : Z) : Z := Z.of_nat (String.length (decimal n)).
(** p/q lies between 10^_ and ten times that *)
Definition log10 (p q : Z) : Z := if q <=? p then digit_count (p / q) - 1 else - digit_count ((q - 1) / p).
(** strconv/decimal.go trim: m / 10^k without zeros at the end of m *)
Fixpoint trim_zeros (fuel : nat) (m k : Z) : Z * Z :=
  match fuel with
  | O => (m, k)
  | S fuel' => if m mod 10 =? 0 then trim_zeros fuel' (m / 10) (k - 1) else (m, k)
  end.
Definition trimmed (m k : Z) : Z * Z := trim_zeros (Z.to_nat (Z.log2 m)) m k.
(** m / 10^k is read as b *)
Definition reads_as (b : Z) (d : Z * Z) : bool := bool_decide (read_decimal d.1 (- d.2) = Some b).
(** strconv/ftoa.go roundShortest: with n digits, the number below and the one above; both are right: the nearer one, of two as near
    the even one *)
Definition with_digits (b p q n : Z) : option (Z * Z) :=
  let k := n - 1 - log10 p q in
  let p' := p * 10 ^ Z.max k 0 in
  let q' := q * 10 ^ Z.max (- k) 0 in
  let lo := p' / q' in
  let r := p' mod q' in
  let down := trimmed lo k in
  let up := trimmed (lo + 1) k in
  match reads_as b down, reads_as b up with
  | true, true => Some (if (2 * r <? q') || ((2 * r =? q') && Z.even lo) then down else up)
  | true, false => Some down
  | false, true => Some up
  | false, false => None
  end.
(** The first number of digits that is enough.  17 always are; the exact value stands for the case that they were not. *)
Fixpoint first_enough (b p q n : Z) (fuel : nat) (exact : Z * Z) : Z * Z :=
  match fuel with
  | O => exact
  | S fuel' => match with_digits b p q n with Some d => d | None => first_enough b p q (n + 1) fuel' exact end
  end.
(** b > 0 is what m / 10^k stands for *)
Definition shortest (b : Z) : Z * Z :=
  let n := mantissa b in
  let e := exponent b in
  first_enough b (n * 2 ^ Z.max e 0) (2 ^ Z.max (- e) 0) 1 17
    (trimmed (n * 2 ^ Z.max e 0 * 5 ^ Z.max (- e) 0) (Z.max (- e) 0)).

(** strconv/ftoa.go fmtF *)
Fixpoint padded (k : nat) (n : Z) (rest : string) : string :=
  match k with O => rest | S k' => padded k' (n / 10) (String (digit_char (n mod 10)) rest) end.
Definition write_f (m k : Z) : string :=
  if k <=? 0 then decimal (m * 10 ^ (- k))
  else append (decimal (m / 10 ^ k)) (String "." (padded (Z.to_nat k) (m mod 10 ^ k) "")).
(** strconv/ftoa.go fmtE; encoding/json/encode.go floatEncoder.encode takes the zero from exponents like e-09, and no exponent that
    it writes with a plus has one digit *)
Definition write_e (m k : Z) : string :=
  match decimal m with
  | String c r =>
      let x := Z.of_nat (String.length r) - k in
      append (String c (match r with EmptyString => "" | _ => String "." r end))
        (String "e" (if x <? 0 then String "-" (decimal (- x)) else String "+" (decimal x)))
  | EmptyString => ""
  end.
(** encoding/json/encode.go floatEncoder.encode: below 1e-6 and from 1e21 on with an exponent *)
Definition write_positive (b : Z) : string :=
  let '(m, k) := shortest b in
  if (b <? default 0 (read_decimal 1 (-6))) || (default 0 (read_decimal 1 21) <=? b) then write_e m k else write_f m k.
Definition write_unsigned (b : Z) : string := if b =? 0 then "0" else write_positive b.
Definition write_go (f : f64) : string :=
  if 2^63 <=? f then String "-" (write_unsigned (f - 2^63)) else write_unsigned f.

Definition go_floats : floats := Floats write_go read_go.
