(** Vocabulary for the properties of a running cluster. *)
From stdpp Require Import prelude strings list.
From Verif.Base Require Import Envelope.
From Verif.Routing Require Import Model Spec.
From Verif.Whole Require Import Model.

(** The envelopes of a source that clients have sent to the cluster, with repetitions. *)
Definition sent_to (src : string) (tr : list event) : list envelope :=
  ev ← tr; match ev with VSend _ r => of_source src (get_batch r) | _ => [] end.

(** No table ever gives a node two shares of the same hash. *)
Definition no_double_share (tr : list event) : Prop := ∀ i t h, VTable i t ∈ tr -> NoDup (lookup h t).
