(** Vocabulary: which number a float64 is, and which float64 is nearest to a number. *)
From Coq Require Import Ascii String.
From stdpp Require Import prelude strings.
From Verif.Base Require Import Envelope.
From Verif.Json Require Import Pb.
Open Scope Z_scope.

(** The bits of a finite float64 that is not negative *)
Definition magnitude (b : f64) : Prop := 0 <= b < inf.
(** IEEE 754, binary64: the number is [units b] times 2^-1074, the least positive float64 *)
Definition units (b : f64) : Z := if b <? 2^52 then b else (2^52 + b mod 2^52) * 2 ^ (b / 2^52 - 1).
(** how far p/q is from b, in units and times q *)
Definition distance (p q : Z) (b : f64) : Z := Z.abs (p * 2^1074 - units b * q).
(** b is nearest to p/q; where two are as near, it is the one with the even mantissa *)
Definition nearest (p q : Z) (b : f64) : Prop :=
  magnitude b /\ forall g, magnitude g -> distance p q b <= distance p q g /\ (distance p q b = distance p q g -> g <> b -> Z.even b = true).
(** p/q is at least half a step above the greatest float64 *)
Definition out_of_range (p q : Z) : Prop := (2^1024 - 2^970) * q <= p.
(** p/q is no farther from b than p'/q' *)
Definition no_farther (p q p' q' : Z) (b : f64) : Prop := distance p q b * q' <= distance p' q' b * q.
(** p/q is a decimal of n significant digits *)
Definition digits (p q n : Z) : Prop := exists m k, 0 <= m < 10 ^ n /\ p * 10 ^ Z.max (- k) 0 = m * 10 ^ Z.max k 0 * q.
