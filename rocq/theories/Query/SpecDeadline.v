(** Vocabulary for reads that run out of time. *)
From stdpp Require Import prelude list.
From Verif.Promql Require Import Model.
From Verif.Query Require Import Model.

(** The reads of a query, in order, with the error each ended with *)
Definition reads (evs : list event) : list (data_read * option error) :=
  omap (fun ev => match ev with EvRead r o => Some (r, o) | EvSelect _ _ _ => None end) evs.
