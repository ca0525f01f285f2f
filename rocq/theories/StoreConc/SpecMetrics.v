(** Vocabulary for the properties of the store's metrics. *)
From stdpp Require Import prelude gmap strings.
From Verif.Base Require Import GoInt Envelope.
From Verif.Store Require Import Model.
From Verif.StoreConc Require Import Model Spec Metrics.
Open Scope Z_scope.

(** The store's own part of a schedule *)
Definition store_labels (ls : list mlabel) : list label :=
  ls ≫= (fun l => match l with MStore x => [x] | _ => [] end).
(** The Puts called in a schedule, whatever the source *)
Definition puts_called (ls : list label) : list envelope :=
  ls ≫= (fun l => match l with LCall (CPut e _) => [e] | _ => [] end).
(** The Puts that have made their first step *)
Definition put_begun (th : thread) : bool :=
  match th with PInit _ _ | PMiss _ _ | PWait _ _ _ | PIn _ _ _ | PRoom _ _ _ | PDone _ _ => true | _ => false end.
(** Everything that the Gets that have returned gave to their callers *)
Definition given_out (c : config) : list envelope :=
  cf_threads c ≫= (fun th => match th with GDone _ _ res => res | _ => [] end).
(** Every call has returned: none is left with its gauge update half done *)
Definition at_rest (c : mconfig) : Prop := quiescent (mc_cfg c) ∧ mc_pend c = ∅.
(** The gauge updates do not overlap with other changes of the size counter: whenever a step changes the counter,
    no gauge update is half done *)
Definition one_at_a_time (m : Z) (ls : list mlabel) : Prop :=
  ∀ l1 l l2 c c', ls = l1 ++ l :: l2 -> mrun (minitial m) l1 = Some c -> mstep c l = Some c' ->
    sh_count (cf_sh (mc_cfg c')) ≠ sh_count (cf_sh (mc_cfg c)) -> mc_pend c = ∅.
