(** C137: queries at a node whose cache fails or is slow.  Vocabulary: Query/Spec.v, Query/SpecDeadline.v. *)
From Coq Require Import Ascii String ZArith.
From stdpp Require Import prelude gmap strings list.
From Verif.Base Require Import GoInt Envelope.
From Verif.Client Require Import Walk WalkSpec.
From Verif.Promql Require Import Model Spec.
From Verif.Query Require Import Model Spec Proofs SpecDeadline ProofsDeadline.
From Verif.Props Require Import QueryProps.
Open Scope Z_scope.

(** ** C137 *)
(** A cache that is down: every read of it fails.  The walk gives up after five tries and the query is answered as if there
    were no data, and no failure is counted. *)
Definition down (i : nat) (src : string) (j : nat) (r : walk_read) : answer := mk_answer None false 2000000000000.
Theorem C137_down_refuted : ∃ fmt L order oids oser now time query evs out,
  iterates_ids oids ∧
  (∀ m, (5 <= m)%nat -> instant_query fmt L (node_reader down (fun _ => false) m) order oids oser now time query = (evs, 0, Answered out)) ∧
  length (reads evs) = 3%nat.
Proof.
  exists (fun _ => ""), (toy sel_a sel_bc), try_order, try_ids, try_series, 7777777777, "1000", "sum".
  eexists _, _. split; [intros x; done|]. split.
  - intros m Hm. rewrite (instant_ext _ (fun _ _ => inl [])).
    + vm_compute. reflexivity.
    + intros i q. unfold node_reader, walking_read. do 5 (destruct m as [|m]; [lia|]). vm_compute. reflexivity.
  - vm_compute. reflexivity.
Qed.
Print Assumptions C137_down_refuted.

(** A read that ran out of time is a failure of the query, counted once; the only failures are those and selectors without a source. *)
Theorem C137_deadline_partial : ∀ fmt L cache ctx_done m order oids oser now time query evs n out,
  iterates_ids oids ->
  instant_query fmt L (node_reader cache ctx_done m) order oids oser now time query = (evs, n, out) ->
  (∀ j, (j < length (reads evs))%nat -> ctx_done j = true -> n = 1 ∧ ∃ e, out = Failed e ∧
     (e = "context deadline exceeded" ∨ ∃ ms, sourceless evs ms ∧ e = no_source_id (sel_metric ms))) ∧
  (n ≠ 0 -> (∃ j, (j < length (reads evs))%nat ∧ ctx_done j = true) ∨ ∃ ms, sourceless evs ms).
Proof.
  intros fmt L cache ctx_done m order oids oser now time query evs n out Ho H.
  destruct (C101_instant _ _ _ _ _ _ _ _ _ _ _ _ Ho H) as [H1 H2]. eapply deadline; [by eapply instant_exec|done..].
Qed.
Print Assumptions C137_deadline_partial.
Theorem C137_deadline_range_partial : ∀ fmt L cache ctx_done m order oids oser start stop step query evs n out,
  iterates_ids oids ->
  range_query fmt L (node_reader cache ctx_done m) order oids oser start stop step query = (evs, n, out) ->
  (∀ j, (j < length (reads evs))%nat -> ctx_done j = true -> n = 1 ∧ ∃ e, out = Failed e ∧
     (e = "context deadline exceeded" ∨ ∃ ms, sourceless evs ms ∧ e = no_source_id (sel_metric ms))) ∧
  (n ≠ 0 -> (∃ j, (j < length (reads evs))%nat ∧ ctx_done j = true) ∨ ∃ ms, sourceless evs ms).
Proof.
  intros fmt L cache ctx_done m order oids oser start stop step query evs n out Ho H.
  destruct (C101_range _ _ _ _ _ _ _ _ _ _ _ _ _ Ho H) as [H1 H2]. eapply deadline; [by eapply range_exec|done..].
Qed.
Print Assumptions C137_deadline_range_partial.
(** the second of three reads runs out of time *)
Example C137_case : ∃ evs, instant_query (fun _ => "") (toy sel_a sel_bc) (node_reader down (fun j => (j =? 1)%nat) 9) try_order try_ids try_series
    7777777777 "1000" "sum" = (evs, 1, Failed "context deadline exceeded") ∧ length (reads evs) = 2%nat.
Proof. eexists. split; vm_compute; reflexivity. Qed.
