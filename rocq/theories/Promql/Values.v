(** The number a sample holds. *)
From Coq Require Import ZArith Reals Lra.
From Flocq Require Import Core BinarySingleNaN.
From stdpp Require Import prelude gmap strings list.
From Verif.Base Require Import GoInt Envelope.
From Verif.Prune Require Import Model.
From Verif.Promql Require Import Model.
Open Scope Z_scope.

(** promql.go:358 float64(total) of a uint64, promql.go:373 float64(stop - start) of an int64; the value of
    a gauge (promql.go:363-366) is a float64 already and copied: None. *)
Definition number (s : sample) : option (binary_float 53 1024) :=
  match s with
  | FromCounter t => Some (of_int t)
  | FromTimer d => Some (of_int d)
  | FromGauge _ => None
  end.

(** x is finite and no finite double is closer to z; it is z if z is at most 2^53 either way. *)
Definition nearest (x : binary_float 53 1024) (z : Z) : Prop :=
  is_finite x = true ∧
  (∀ y : binary_float 53 1024, is_finite y = true -> (Rabs (B2R x - IZR z) <= Rabs (B2R y - IZR z))%R) ∧
  (Z.abs z <= 2 ^ 53 -> B2R x = IZR z).
