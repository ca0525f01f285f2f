(** C146: the number of a sample is the number of the envelope.  Vocabulary: Promql/Values.v (nearest). *)
From Coq Require Import ZArith Reals Lra.
From Coq Require Import Ascii String.
From Flocq Require Import Core BinarySingleNaN.
From stdpp Require Import prelude gmap strings list.
From Verif.Base Require Import GoInt Envelope.
From Verif.Prune Require Import Model Proofs.
From Verif.Promql Require Import Model Values ProofsValues.
Open Scope Z_scope.

(** A counter's sample is the double nearest to its total, exactly the total up to 2^53; of two totals the
    larger never has the smaller sample. *)
Theorem C146_counter : ∀ order metric n d t s,
  0 <= t < 2 ^ 64 -> value_of order metric (MCounter n d t) = Some s ->
  ∃ x, number s = Some x ∧ nearest x t.
Proof.
  intros order metric n d t s Ht. cbn [value_of]. destruct (bool_decide _); [|done]. intros [= <-].
  exists (of_int t). split; [done|]. apply of_int_nearest. lia.
Qed.
Print Assumptions C146_counter.
Theorem C146_growing : ∀ order metric n d t n' d' t' s s',
  0 <= t < 2 ^ 64 -> 0 <= t' < 2 ^ 64 ->
  value_of order metric (MCounter n d t) = Some s -> value_of order metric (MCounter n' d' t') = Some s' ->
  t <= t' -> ∃ x x', number s = Some x ∧ number s' = Some x' ∧ (B2R x <= B2R x')%R.
Proof.
  intros order metric n d t n' d' t' s s' Ht Ht'. cbn [value_of].
  destruct (bool_decide (sanitize n = metric)); [|done]. intros [= <-].
  destruct (bool_decide (sanitize n' = metric)); [|done]. intros [= <-] Hle.
  exists (of_int t), (of_int t'). split; [done|]. split; [done|]. apply of_int_mono; lia.
Qed.
Print Assumptions C146_growing.

(** A timer that lasts longer than int64 can say (292 years) has a negative duration. *)
Theorem C146_timer_refuted : ∃ order metric n start stop s x, in64 start ∧ in64 stop ∧ start <= stop ∧
  value_of order metric (MTimer n start stop) = Some s ∧ number s = Some x ∧ (B2R x < 0)%R.
Proof.
  exists map_to_list, "t"%string, "t"%string, (-2 ^ 63), (2 ^ 63 - 1), (FromTimer (-1)), (of_int (-1)).
  split; [split; vm_compute; done|]. split; [split; vm_compute; done|]. split; [vm_compute; done|].
  split; [vm_compute; reflexivity|]. split; [done|].
  destruct (of_int_spec (-1) ltac:(vm_compute; done)) as [_ ->]. rewrite rnd_int by (vm_compute; done). lra.
Qed.
Print Assumptions C146_timer_refuted.
(** All others have the double nearest to their duration in nanoseconds, exactly that up to 2^53 (104 days). *)
Theorem C146_timer_partial : ∀ order metric n start stop s,
  in64 (stop - start) -> value_of order metric (MTimer n start stop) = Some s ->
  ∃ x, number s = Some x ∧ nearest x (stop - start).
Proof.
  intros order metric n start stop s Hd. cbn [value_of]. destruct (bool_decide _); [|done]. intros [= <-].
  exists (of_int (stop - start)). cbn [number]. rewrite wrap64_id by done. split; [done|].
  apply of_int_nearest. unfold in64 in Hd. lia.
Qed.
Print Assumptions C146_timer_partial.

(** 2^53 + 1 has no double of its own. *)
Example C146_case :
  value_of map_to_list "req_total" (MCounter "req.total" 1 (2 ^ 53 + 1)) = Some (FromCounter (2 ^ 53 + 1)) ∧
  B2SF (of_int (2 ^ 53 + 1)) = B2SF (of_int (2 ^ 53)) ∧
  value_of map_to_list "t" (MTimer "t" 5 1000) = Some (FromTimer 995) ∧ in64 (1000 - 5).
Proof.
  split; [vm_compute; reflexivity|]. split; [vm_compute; reflexivity|]. split; [vm_compute; reflexivity|].
  split; vm_compute; done.
Qed.
