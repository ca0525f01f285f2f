(** Where the envelopes of an answer come from. *)
From stdpp Require Import prelude.
From Verif.Base Require Import Envelope.
From Verif.Store Require Import Model Spec.

(** [drawn q l out]: each envelope of out presents one of l which the query selects, and none of l is presented more often
    than it occurs there. *)
Definition drawn (q : query) (l out : list envelope) : Prop := ∃ sub, sub ⊆+ l ∧ Forall2 (selected q) sub out.
