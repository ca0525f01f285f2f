(** Properties of a running cluster (C122, C123): what a reader is given was written, once, by someone who meant it for
    that source.
    Vocabulary: Whole/Spec.v, Store/SpecFrom.v, Store/Spec.v, Routing/Spec.v.  Runs: Whole/Model.v. *)
From Coq Require Import Ascii String.
From stdpp Require Import prelude gmap strings list.
From Verif.Base Require Import GoInt Envelope Str Url.
From Verif.Store Require Import Model Spec SpecFrom ProofsFrom Witness.
From Verif.Routing Require Import Model Spec ProofsRanges ProofsTable ProofsProxy.
From Verif.Whole Require Import Model Spec Proofs Witness.
Open Scope Z_scope.

(** ** C122 *)
(** Whatever has happened to a store: an answer presents envelopes put under that source, none more often than it was put. *)
Theorem C122_written : ∀ m ops s src q res,
  1 <= m -> run (new_store m) ops = Some s -> get_env src q s = Some res -> drawn q (puts_to src ops) res.
Proof. exact get_written. Qed.
Print Assumptions C122_written.
(** a store that overflows, is pruned and has two envelopes at one instant *)
Example C122_example :
  let ops := [putA 1; putA 5; putB 5; OPut (log_at 5 "b") "b" 100; putA 7; OTruncate 1 [] 120; putA 7] in
  match run (new_store 3) ops with
  | Some s => get_env "a" (everything 10) s = Some [log_at 5 "1"; log_at 7 "0"; log_at 7 "0"] ∧
              puts_to "a" ops = [log_at 1 "0"; log_at 5 "0"; log_at 5 "1"; log_at 7 "0"; log_at 7 "0"]
  | None => False end.
Proof. vm_compute. done. Qed.

(** ** C123 *)
(** The same for a cluster: envelopes take their time, arrive out of order and in other batches or not at all, tables change,
    nodes are pruned and restart; whichever node answers, what it gives out was sent before, for that source. *)
Lemma resolved_query compile now rq q : to_query compile now rq = Some q ->
  resolved compile now rq q ∧ ∀ e, wanted_type (q_types q) e ↔ requested_type (rr_types rq) e.
Proof.
  intros H. pose proof (to_query_spec compile now rq) as HS. pose proof (to_query_types compile now rq) as HT.
  rewrite H in HS. destruct HS as (_ & Hr & _). split; [done|]. intros e. by apply HT.
Qed.
Theorem C123_written : ∀ hash compile ms tr k rq now es post c,
  Forall (fun m => 1 <= m) ms -> runs hash compile (start ms) (tr ++ VRead k rq now (ReadOk es) :: post) c ->
  ∃ q, resolved compile now rq q ∧ (∀ e, wanted_type (q_types q) e ↔ requested_type (rr_types rq) e) ∧
    ∀ e', e' ∈ es -> ∃ e, e ∈ sent_to (rr_source rq) tr ∧ selected q e e'.
Proof.
  intros hash compile ms tr k rq now es post c Hms Hr. destruct (answered_sent _ _ _ _ _ _ _ _ _ _ Hms Hr) as (q & Hq & H).
  exists q. destruct (resolved_query _ _ _ _ Hq). done.
Qed.
Print Assumptions C123_written.

(** two nodes; the first owns the hashes below 10 *)
Definition toy_hash (src : string) : Z := if bool_decide (src = "a") then 5 else 50.
Definition lower : range := mk_range 0 9.
Definition upper : range := mk_range 10 max_uint64.
Definition split_table : list rinfo := [mk_ri lower 0; mk_ri upper 1].
Definition late_table : list rinfo := [mk_ri lower 1; mk_ri upper 0].
Definition e_b : envelope := mk_env 6 "b" "0" ∅ ∅ (MLog "y" false).
Definition ask_a : read_request := mk_rr "a" 0 0 0 [] false "".
Definition busy : list todo :=
  [ Do (VTable 0 split_table); Do (VTable 1 split_table);
    Do (VSend 1 (mk_send false (Some [log_at 5 "0"; e_b; log_at 5 "1"; log_at 8 "0"])));
    Do (VArrive 0 [log_at 5 "1"; log_at 5 "0"]); Do (VLose 0 (log_at 8 "0"));
    Do (VTable 1 late_table); Do (VSend 1 (mk_send false (Some [log_at 9 "0"]))); Do (VArrive 1 [e_b; log_at 9 "0"]);
    Do (VPrune 0 1 []); Ask 0 ask_a 100; Ask 1 ask_a 100; Do (VRestart 0 3) ].
Definition reads_are (l : list (list envelope)) (tr : list event) : bool :=
  bool_decide (omap (fun ev => match ev with VRead _ _ _ (ReadOk es) => Some es | _ => None end) tr = l).
Example C123_example : ∃ tr c, runs toy_hash (fun _ => None) (start [3; 3]) tr c ∧
  reads_are [[log_at 5 "0"]; [log_at 9 "0"]] tr = true.
Proof. apply (played _ _ _ busy). vm_compute. done. Qed.

(** Not more often than it was sent?  Not if a table gives a node the same hashes twice, which SetRanges does not prevent:
    then one envelope is stored and answered twice. *)
Definition doubled : list rinfo := [mk_ri lower 0; mk_ri lower 0].
Definition twice : list todo :=
  [ Do (VTable 0 doubled); Do (VSend 0 (mk_send false (Some [log_at 5 "0"]))); Do (VArrive 0 [log_at 5 "0"; log_at 5 "0"]);
    Ask 0 ask_a 100 ].
Lemma doubled_installed : set_ranges ["n0"] [] {["n0" := [lower; lower]]} doubled.
Proof.
  exists [("n0", [lower; lower])]. split; [by rewrite map_to_list_singleton|]. split; [done|].
  intros i j a b Hij Ha Hb. apply elem_of_list_lookup_2 in Ha, Hb. unfold doubled in Ha, Hb.
  rewrite !elem_of_cons, elem_of_nil in Ha. rewrite !elem_of_cons, elem_of_nil in Hb.
  destruct Ha as [->|[->|[]]], Hb as [->|[->|[]]]; done.
Qed.
Theorem C123_once_refuted : ∃ hash compile ms addrs req t tr0 tr k rq now es c,
  Forall (fun m => 1 <= m) ms ∧ set_ranges addrs [] req t ∧ tr = VTable 0 t :: tr0 ∧ (∀ i t', VTable i t' ∉ tr0) ∧
  runs hash compile (start ms) (tr ++ [VRead k rq now (ReadOk es)]) c ∧ ∀ q, ¬ drawn q (sent_to (rr_source rq) tr) es.
Proof.
  set (tr0 := [VSend 0 (mk_send false (Some [log_at 5 "0"])); VArrive 0 [log_at 5 "0"; log_at 5 "0"]]).
  destruct (play toy_hash (fun _ => None) [] (start [3]) twice) as [[tr' c]|] eqn:E; [|exfalso; by vm_compute in E].
  assert (Htr : tr' = (VTable 0 doubled :: tr0) ++ [VRead 0 ask_a 100 (ReadOk [log_at 5 "0"; log_at 5 "0"])]).
  { vm_compute in E. by injection E as <- _. }
  subst tr'. exists toy_hash, (fun _ => None), [3], ["n0"], {["n0" := [lower; lower]]}, doubled, tr0, (VTable 0 doubled :: tr0).
  exists 0%nat, ask_a, 100, [log_at 5 "0"; log_at 5 "0"], c.
  split; [by constructor|]. split; [apply doubled_installed|]. split; [done|]. split.
  { intros i t'. unfold tr0. rewrite !elem_of_cons, elem_of_nil. naive_solver. }
  split; [eapply play_ok; [apply runs_nil|exact E]|].
  intros q (sub & Hsub & HF). apply submseteq_length in Hsub. apply Forall2_length in HF.
  cbn in HF. rewrite HF in Hsub. revert Hsub. vm_compute. lia.
Qed.
Print Assumptions C123_once_refuted.
(** Nor if tables never do: then no envelope is answered more often than it was sent. *)
Theorem C123_once_partial : ∀ hash compile ms tr k rq now es post c,
  Forall (fun m => 1 <= m) ms -> no_double_share tr ->
  runs hash compile (start ms) (tr ++ VRead k rq now (ReadOk es) :: post) c ->
  ∃ q, resolved compile now rq q ∧ (∀ e, wanted_type (q_types q) e ↔ requested_type (rr_types rq) e) ∧
    drawn q (sent_to (rr_source rq) tr) es.
Proof.
  intros hash compile ms tr k rq now es post c Hms Hnd Hr.
  destruct (answered_once _ _ _ _ _ _ _ _ _ _ Hms Hnd Hr) as (q & Hq & H).
  exists q. destruct (resolved_query _ _ _ _ Hq). done.
Qed.
Print Assumptions C123_once_partial.
(** Tables do not if they come from an assignment that gives no address overlapping ranges. *)
Theorem C123_tables_fine : ∀ addrs tr,
  NoDup addrs ->
  (∀ i t, VTable i t ∈ tr -> ∃ old req, known_addrs addrs req ∧ no_overlap req ∧ set_ranges addrs old req t) ->
  no_double_share tr.
Proof.
  intros addrs tr Hnd H i t h Hin. destruct (H i t Hin) as (old & req & Hk & Hno & Hs). by eapply ProofsCluster.lookup_nodup.
Qed.
Print Assumptions C123_tables_fine.
Lemma split_installed : set_ranges ["n0"; "n1"] [] {["n0" := [lower]; "n1" := [upper]]} split_table.
Proof.
  exists [("n0", [lower]); ("n1", [upper])]. split.
  { rewrite map_to_list_insert by done. by rewrite map_to_list_singleton. }
  split; [done|]. intros i j a b Hij Ha Hb.
  destruct i as [|[|i]], j as [|[|j]]; cbn in Ha, Hb; try done; try lia. by injection Ha as <-; injection Hb as <-.
Qed.
Example C123_fine_example : NoDup ["n0"; "n1"] ∧ known_addrs ["n0"; "n1"] {["n0" := [lower]; "n1" := [upper]]} ∧
  no_overlap {["n0" := [lower]; "n1" := [upper]]}.
Proof.
  split; [by apply (bool_decide_eq_true_1 _); vm_compute|]. split.
  - intros a [rs H]. apply lookup_insert_Some in H as [[<- _]|[_ H]]; [left|].
    apply lookup_singleton_Some in H as [<- _]. right. left.
  - intros a rs H h i j r r' Hi Hj. assert (Hl : length rs = 1%nat).
    { apply lookup_insert_Some in H as [[_ <-]|[_ H]]; [done|]. by apply lookup_singleton_Some in H as [_ <-]. }
    apply lookup_lt_Some in Hi, Hj. intros _ _. lia.
Qed.
