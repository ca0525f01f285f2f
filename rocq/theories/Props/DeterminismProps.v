(** C144: the same query over the same data has the same answer. *)
From Coq Require Import Ascii String.
From stdpp Require Import prelude gmap strings list.
From Verif.Base Require Import GoInt Envelope Str.
From Verif.Promql Require Import Model Spec Proofs ProofsSelect SpecDeterminism ProofsDeterminism.
From Verif.Props Require Import PromqlProps.
Open Scope Z_scope.

(** A gauge two of whose names become the same metric name: which value is the sample depends on Go's
    iteration over the map. *)
Definition amb_gauge : gmap string gauge_value := {["cpu.load" := mk_gv "" 1; "cpu_load" := mk_gv "" 2]}.
Definition amb_env : envelope := mk_env 5000000000 "app" "" ∅ ∅ (MGauge amb_gauge).
Definition amb_reader (id : string) : option (list envelope) := Some [amb_env].
Definition amb_ms : list matcher := [mk_matcher "__name__" MatchEqual "cpu_load"; mk_matcher "source_id" MatchEqual "app"].
Definition forth (m : gmap string gauge_value) : list (string * gauge_value) := map_to_list m.
Definition back (m : gmap string gauge_value) : list (string * gauge_value) := reverse (map_to_list m).
Lemma ambiguous : iterates forth ∧ iterates back ∧ iterates_ids elements ∧
  select amb_reader forth elements amb_ms ≠ select amb_reader back elements amb_ms.
Proof.
  split; [intros m; done|]. split; [intros m; apply reverse_Permutation|]. split; [intros x; done|].
  apply (bool_decide_eq_false_1 _). vm_compute. reflexivity.
Qed.
Theorem C144_same_answer_refuted : ∃ reader o1 o2 ids ms, iterates o1 ∧ iterates o2 ∧ iterates_ids ids ∧
  (∀ id es, reader id = Some es -> Forall (fun e => e_source e = "app" ∧ e_tags e = ∅) es) ∧
  select reader o1 ids ms ≠ select reader o2 ids ms.
Proof.
  exists amb_reader, forth, back, elements, amb_ms. destruct ambiguous as (H1 & H2 & H3 & H4).
  split; [done|]. split; [done|]. split; [done|]. split; [|done]. intros id es [= <-]. by constructor.
Qed.
Print Assumptions C144_same_answer_refuted.

(** Two sources whose labels share a series key (C58): the labels and the order of the points of the series
    depend on Go's iteration over the set of source ids. *)
Definition col_env1 : envelope := mk_env 5000000000 "a-zone-b" "" ∅ ∅ (MTimer "m" 0 1).
Definition col_env2 : envelope := mk_env 7000000000 "a" "" ∅ {["zone" := "b"]} (MTimer "m" 0 2).
Definition col_reader (id : string) : option (list envelope) :=
  if bool_decide (id = "a") then Some [col_env2] else if bool_decide (id = "a-zone-b") then Some [col_env1] else Some [].
Definition col_ms : list matcher := [mk_matcher "__name__" MatchEqual "m"; mk_matcher "source_id" MatchRegexp "a|a-zone-b"].
Definition ids_back (x : gset string) : list string := reverse (elements x).
Theorem C144_source_order_refuted : ∃ reader o ids1 ids2 ms, iterates o ∧ iterates_ids ids1 ∧ iterates_ids ids2 ∧
  (∀ id es, reader id = Some es -> Forall (fun e => e_source e = id ∧ one_value (e_msg e)) es) ∧
  select reader o ids1 ms ≠ select reader o ids2 ms.
Proof.
  exists col_reader, forth, elements, ids_back, col_ms.
  split; [intros m; done|]. split; [intros m; done|]. split; [intros x; apply reverse_Permutation|].
  split; [|apply (bool_decide_eq_false_1 _); vm_compute; reflexivity].
  unfold col_reader. intros id es. destruct (bool_decide_reflect (id = "a")) as [->|_].
  - intros [= <-]. constructor; [|done]. split; [done|]. intros metric v v' H H'. inversion H; subst. inversion H'; subst. done.
  - destruct (bool_decide_reflect (id = "a-zone-b")) as [->|_]; intros [= <-]; [|constructor].
    constructor; [|done]. split; [done|]. intros metric v v' H H'. inversion H; subst. inversion H'; subst. done.
Qed.
Print Assumptions C144_source_order_refuted.

(** If no gauge offers two values for a metric name and the labels' keys cannot be confused, the answer is
    the same whatever the iteration orders: the same error, or the same series with the same points in the
    same order. *)
Theorem C144_same_answer_partial : ∀ names reader o1 o2 ids1 ids2 ms,
  iterates o1 -> iterates o2 -> iterates_ids ids1 -> iterates_ids ids2 ->
  (∀ id es, reader id = Some es -> Forall (fun e => e_source e = id ∧ one_value (e_msg e)) es) ->
  (∀ id es e l, reader id = Some es -> e ∈ es -> labels_of e l -> clear_labels names l) ->
  select reader o1 ids1 ms = select reader o2 ids2 ms.
Proof. exact select_same. Qed.
Print Assumptions C144_same_answer_partial.

Definition det_env (ts : Z) (src : string) : envelope := mk_env ts src "0" ∅ {["job" := "web"]} (MGauge {["cpu.load" := mk_gv "" ts; "mem" := mk_gv "" 2]}).
Definition det_reader (id : string) : option (list envelope) :=
  Some [det_env 5000000000 id; det_env 7000000000 id].
Definition det_reader' (id : string) : option (list envelope) :=
  if bool_decide (id = "9c5d-44e1") || bool_decide (id = "7a5d-99e1") then det_reader id else None.
Definition det_ms : list matcher := [mk_matcher "__name__" MatchEqual "cpu_load"; mk_matcher "source_id" MatchRegexp "9c5d-44e1|7a5d-99e1"].
Example C144_case :
  (∀ id es, det_reader' id = Some es -> Forall (fun e => e_source e = id ∧ one_value (e_msg e)) es) ∧
  (∀ id es e l, det_reader' id = Some es -> e ∈ es -> labels_of e l -> clear_labels gnames l) ∧
  (∃ b, select det_reader' forth elements det_ms = Some b ∧ size b = 2%nat) ∧
  forth amb_gauge ≠ back amb_gauge ∧
  elements (id_set (selector_ids det_ms)) ≠ ids_back (id_set (selector_ids det_ms)).
Proof.
  assert (Hone : ∀ ts src, one_value (e_msg (det_env ts src))).
  { intros ts src metric v v' H H'. cbn in H, H'. inversion H as [| |? n w Hn Hs]; subst. inversion H' as [| |? n' w' Hn' Hs']; subst.
    apply lookup_insert_Some in Hn as [[<- <-]|[_ Hn]]; apply lookup_insert_Some in Hn' as [[<- <-]|[_ Hn']]; try done.
    - apply lookup_singleton_Some in Hn' as [<- <-]. vm_compute in Hs'. discriminate.
    - apply lookup_singleton_Some in Hn as [<- <-]. vm_compute in Hs'. discriminate.
    - apply lookup_singleton_Some in Hn as [<- <-]. apply lookup_singleton_Some in Hn' as [<- <-]. done. }
  split; [|split; [|split; [|split]]].
  - intros id es. unfold det_reader'. destruct (_ || _); [|done]. intros [= <-].
    repeat (constructor; [split; [done|apply Hone]|]). constructor.
  - intros id es e l. unfold det_reader'. destruct (bool_decide_reflect (id = "9c5d-44e1")) as [->|_];
      [|destruct (bool_decide_reflect (id = "7a5d-99e1")) as [->|_]; [|done]]; cbn [orb]; intros [= <-] He Hl;
      apply labels_of_eq in Hl as ->; repeat (apply elem_of_cons in He as [->|He]; [apply clear_b_ok; vm_compute; reflexivity|]);
      by apply elem_of_nil in He.
  - eexists. split; [vm_compute; reflexivity|vm_compute; reflexivity].
  - apply (bool_decide_eq_false_1 _). vm_compute. reflexivity.
  - apply (bool_decide_eq_false_1 _). vm_compute. reflexivity.
Qed.
