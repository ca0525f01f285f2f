(** The value of a gauge in a syslog message. *)
From Coq Require Import Ascii String.
From stdpp Require Import prelude strings.
From Verif.Base Require Import Envelope.
From Verif.Json Require Import Pb.
From Verif.Float Require Import Model Parse.
Open Scope Z_scope.

(** the bits of a float64, math.Float64bits; strconv's NaN is math.NaN() *)
Definition bits_of (f : go_float) : f64 :=
  match f with
  | NotANumber => 9221120237041090561 (* 0x7FF8000000000001 *)
  | Infinite neg => if neg then minus_inf else inf
  | Finite neg b => if neg then 2^63 + proj1_sig b else proj1_sig b
  end.
(** internal/syslog/server.go:246 strconv.ParseFloat(msg["value"], 64); as in Float/Parse.v, hexadecimal numbers and underscores are errors *)
Definition gauge_float (s : string) : option f64 := bits_of <$> parse_go s.
