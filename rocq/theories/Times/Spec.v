(** Vocabulary for the times of PromQL queries. *)
From Coq Require Import Ascii String ZArith Reals.
From Flocq Require Import Core BinarySingleNaN.
From Verif.Base Require Import Dec.
From Verif.Prune Require Import Model.
From Verif.Times Require Import Model.
Open Scope Z_scope.

(** [decimal s n k]: s is a decimal number with k digits after the point, of
    value n / 10^k. *)
Inductive unsigned : string -> Z -> Z -> Prop :=
| dec_whole a n : numeral a n -> unsigned a n 0
| dec_point a b n m : numeral a n -> numeral b m ->
    unsigned (append a (String "." b)) (n * 10 ^ Z.of_nat (String.length b) + m) (Z.of_nat (String.length b)).
Inductive decimal : string -> Z -> Z -> Prop :=
| dec_plain s n k : unsigned s n k -> decimal s n k
| dec_minus s n k : unsigned s n k -> decimal (String "-" s) (- n) k.

(** [nearest x v]: the float64 x is finite and no float64 is closer to v; of two
    equally close ones it has the even mantissa. *)
Definition nearest (x : f64) (v : R) : Prop :=
  is_finite x = true /\ B2R x = round radix2 (FLT_exp (-1074) 53) ZnearestE v.

(** What strconv.ParseFloat promises, for decimals of up to 15 digits after the
    point and a number of at most 2^53 without it. *)
Definition reads_decimals (L : parsers) : Prop := forall s n k,
  decimal s n k -> Z.abs n <= 2 ^ 53 -> k <= 15 ->
  exists x, parse_float L s = Some x /\ nearest x (IZR n / IZR (10 ^ k)).
