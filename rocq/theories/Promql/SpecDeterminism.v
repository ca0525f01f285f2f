(** Vocabulary of the property that the same query over the same data has the same answer. *)
From Coq Require Import Ascii String.
From stdpp Require Import prelude gmap strings list.
From Verif.Base Require Import GoInt Envelope Str.
From Verif.Promql Require Import Model Spec.

(** The message offers at most one value for any metric name: no two of a gauge's values have names that
    become the same metric name. *)
Definition one_value (m : message) : Prop := ∀ metric v v', offers metric m v -> offers metric m v' -> v = v'.
