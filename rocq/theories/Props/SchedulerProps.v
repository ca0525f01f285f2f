(** Properties of the scheduler and of the nodes it directs (C116-C121). *)
From stdpp Require Import prelude gmap strings list.
From Verif.Base Require Import GoInt Envelope.
From Verif.Routing Require Import Model Spec ProofsTable ProofsRanges ProofsCluster ProofsProxy.
From Verif.Scheduler Require Import Model Spec Proofs Witness.
Open Scope Z_scope.

(** ** A history used as an example *)
Definition lo : range := mk_range 0 9223372036854775807.
Definition hi : range := mk_range 9223372036854775808 18446744073709551615.
Definition xy : list string := ["x"; "y"].
Definition up : gmap string snode := {["x" := fresh_node; "y" := fresh_node]}.
Definition ws1 : list (string * list range) := [("x", [lo]); ("y", [hi])].
Definition ws2 : list (string * list range) := [("x", [hi]); ("y", [lo])].
Definition table_of (ws : list (string * list range)) : list rinfo :=
  isort (table_entries xy (map_to_list (convert_worker_state ws))).

(** Scheduler 0 is elected, gives [lo] to x and [hi] to y, asks both, and sends out the tables *)
Definition good : list label :=
  [LElect (Some 0%nat); LIssue 0 (OpAdd "x" lo); LIssue 0 (OpAdd "y" hi); LAsk 0 1 true; LAsk 0 0 true;
   LCall 0 0 (OpAdd "x" lo) [] Arrived; LCall 0 1 (OpAdd "y" hi) [] Arrived;
   LIssue 0 (OpList "x"); LIssue 0 (OpList "y");
   LCall 0 2 (OpList "x") [lo] Arrived; LCall 0 3 (OpList "y") [hi] Arrived].
Definition after_decision : list label :=
  [LPublish 0 "x" (convert_worker_state ws1) Arrived; LPublish 0 "y" (convert_worker_state ws1) Arrived].

(** ** C116: only a leader changes anything *)
Theorem C116_leader_only : ∀ addrs clients nodes k ls s,
  runs addrs clients (boot nodes k) ls s ->
  (∀ l1 i j o rep oc l2, ls = l1 ++ LCall i j o rep oc :: l2 -> changes o ->
     ∃ p q, l1 = p ++ LAsk i j true :: q ∧ elected p = Some i ∧ ∀ o' rep' oc', LCall i j o' rep' oc' ∉ q) ∧
  (∀ l1 i a m oc l2, ls = l1 ++ LPublish i a m oc :: l2 ->
     ∃ p ws q, l1 = p ++ LDecide i ws true :: q ∧ elected p = Some i ∧ m = convert_worker_state ws ∧ no_decision i q).
Proof. exact leader_only. Qed.
Print Assumptions C116_leader_only.

Theorem C116_never_leader : ∀ addrs clients nodes k ls s i,
  runs addrs clients (boot nodes k) ls s -> LElect (Some i) ∉ ls ->
  (∀ j o rep oc, LCall i j o rep oc ∈ ls -> ¬ changes o) ∧ sent i ls = [].
Proof. exact never_leader. Qed.
Print Assumptions C116_never_leader.

Theorem C116_no_leader_no_change : ∀ addrs clients nodes k ls s a,
  runs addrs clients (boot nodes k) ls s -> (∀ i, LElect (Some i) ∉ ls) ->
  sy_nodes s !! a = nodes !! a ∨ (LRestart a ∈ ls ∧ sy_nodes s !! a = Some fresh_node).
Proof. exact no_leader. Qed.
Print Assumptions C116_no_leader_no_change.

(** Scheduler 0 is the leader and works; scheduler 1 is refused; then nobody is the leader any more. *)
Definition rivals : list label :=
  good ++ [LIssue 1 (OpAdd "x" hi); LAsk 1 0 false; LDecide 1 [] false; LDecide 0 ws1 true] ++
  after_decision ++ [LElect None; LIssue 0 (OpRemove "x" lo); LAsk 0 4 false].
Example C116_example : ∃ s, runs xy xy (boot up 2) rivals s ∧
  bool_decide (sn_ranges <$> sy_nodes s !! "x" = Some [lo]) && bool_decide (sn_ranges <$> sy_nodes s !! "y" = Some [hi]) &&
  bool_decide (sent 0 rivals = [("x", convert_worker_state ws1); ("y", convert_worker_state ws1)]) &&
  bool_decide (sent 1 rivals = []) = true.
Proof. apply (runs_f_check _ _ _ _ (fun s => _)). by vm_compute. Qed.

(** ** C117: one decision, one table, every node once *)
Theorem C117_sent_once : ∀ addrs clients s l1 i ws b l2 ws' b' l3 s',
  runs addrs clients s (l1 ++ LDecide i ws b :: l2 ++ LDecide i ws' b' :: l3) s' -> no_decision i l2 ->
  sent i l2 = if b then (fun a => (a, convert_worker_state ws)) <$> clients else [].
Proof. exact sent_once. Qed.
Print Assumptions C117_sent_once.

Theorem C117_sent_prefix : ∀ addrs clients s l1 i ws b l2 s',
  runs addrs clients s (l1 ++ LDecide i ws b :: l2) s' -> no_decision i l2 ->
  ∃ todo, (fun a => (a, convert_worker_state ws)) <$> (if b then clients else []) =
          sent i l2 ++ ((fun a => (a, convert_worker_state ws)) <$> todo).
Proof. exact sent_prefix. Qed.
Print Assumptions C117_sent_prefix.

(** Also when the first node cannot be reached. *)
Example C117_example : ∃ s, runs xy xy (boot up 1)
  ([LElect (Some 0%nat)] ++ LDecide 0 ws1 true ::
   [LPublish 0 "x" (convert_worker_state ws1) FailedBefore; LPublish 0 "y" (convert_worker_state ws1) Arrived] ++
   LDecide 0 ws2 false :: []) s ∧ bool_decide (node_lookup s "x" 5 = Some []) && bool_decide (node_lookup s "y" 5 = Some [0%nat]) = true.
Proof. apply (runs_f_check _ _ _ _ (fun s => _)). by vm_compute. Qed.

(** ** C118: the nodes agree *)
Theorem C118_agreement : ∀ addrs clients s l1 i ws b l2 s',
  runs addrs clients s (l1 ++ LDecide i ws b :: l2) s' -> no_decision i l2 -> sole_publisher i l2 ->
  ∀ a1 m1 a2 m2, LPublish i a1 m1 Arrived ∈ l2 -> LPublish i a2 m2 Arrived ∈ l2 ->
  LRestart a1 ∉ l2 -> LRestart a2 ∉ l2 ->
  ∀ h, ∃ is, node_lookup s' a1 h = Some is ∧ node_lookup s' a2 h = Some is.
Proof. exact agreement. Qed.
Print Assumptions C118_agreement.

Example C118_example : ∃ s, runs xy xy (boot up 2) (good ++ LDecide 0 ws1 true :: after_decision) s ∧
  bool_decide (node_lookup s "x" 5 = Some [0%nat]) && bool_decide (node_lookup s "y" 5 = Some [0%nat]) &&
  bool_decide (node_lookup s "x" (2^63) = Some [1%nat]) && bool_decide (node_lookup s "y" (2^63) = Some [1%nat]) = true.
Proof. apply (runs_f_check _ _ _ _ (fun s => _)). by vm_compute. Qed.
Example C118_example_alone : no_decision 0 after_decision ∧ sole_publisher 0 after_decision ∧
  LRestart "x" ∉ after_decision ∧ LRestart "y" ∉ after_decision.
Proof.
  assert (H : ∀ l, l ∈ after_decision -> ∃ a, l = LPublish 0 a (convert_worker_state ws1) Arrived).
  { unfold after_decision. intros l Hl. rewrite !elem_of_cons, elem_of_nil in Hl. naive_solver. }
  unfold no_decision, sole_publisher. split_and!; naive_solver.
Qed.

(** ** C119: does at most one leader at a time suffice?  No. *)
(** Scheduler 0 loses the lead between its two calls; scheduler 1 overtakes it. *)
Definition overtaken : list label :=
  [LElect (Some 0%nat); LDecide 0 ws1 true; LPublish 0 "x" (convert_worker_state ws1) Arrived;
   LElect (Some 1%nat); LDecide 1 ws2 true; LPublish 1 "x" (convert_worker_state ws2) Arrived;
   LPublish 1 "y" (convert_worker_state ws2) Arrived;
   LPublish 0 "y" (convert_worker_state ws1) Arrived].
Lemma overtaken_smooth : smooth overtaken.
Proof.
  unfold smooth, overtaken. intros l Hl. rewrite !elem_of_cons, elem_of_nil in Hl.
  destruct Hl as [->|[->|[->|[->|[->|[->|[->|[->|[]]]]]]]]]; done.
Qed.
Theorem C119_one_leader_refuted : ∃ addrs clients nodes k ls s a b h,
  NoDup addrs ∧ clients = addrs ∧ runs addrs clients (boot nodes k) ls s ∧ smooth ls ∧ at_rest s ∧
  a ∈ clients ∧ b ∈ clients ∧
  (∃ la lb, node_lookup s a h = Some la ∧ node_lookup s b h = Some lb ∧ la ≠ lb).
Proof.
  destruct (runs_f_check xy xy (boot up 2) overtaken (fun s => at_rest_b s &&
    bool_decide (node_lookup s "x" 5 = Some [1%nat]) && bool_decide (node_lookup s "y" 5 = Some [0%nat]))) as (s & Hr & Hc);
    [by vm_compute|].
  apply andb_prop in Hc as [[H1 H2%bool_decide_eq_true]%andb_prop H3%bool_decide_eq_true].
  exists xy, xy, up, 2%nat, overtaken, s, "x", "y", 5. split; [by apply (bool_decide_eq_true_1 _); vm_compute|].
  split; [done|]. split; [done|]. split; [apply overtaken_smooth|]. split; [by apply at_rest_b_ok|].
  split; [left|]. split; [right; left|]. exists [1%nat], [0%nat]. done.
Qed.
Print Assumptions C119_one_leader_refuted.

(** What does suffice: the decisions that send tables do not overlap in time.  From the last decision on
    nobody else sends, and every node is reached. *)
Theorem C119_no_overlap_partial : ∀ addrs clients s l1 i ws l2 s',
  runs addrs clients s (l1 ++ LDecide i ws true :: l2) s' -> no_decision i l2 -> sole_publisher i l2 -> smooth l2 ->
  at_rest s' ->
  ∀ a b h, a ∈ clients -> b ∈ clients -> ∃ is, node_lookup s' a h = Some is ∧ node_lookup s' b h = Some is.
Proof.
  intros addrs clients s l1 i ws l2 s' Hr Hno Hs Hsm Hrest a b h Ha Hb.
  assert (Hall : ∀ x, x ∈ clients -> LPublish i x (convert_worker_state ws) Arrived ∈ l2 ∧ LRestart x ∉ l2).
  { intros x Hx. split; [|intros H; exact (Hsm _ H)].
    assert (Hsent : sent i l2 = (fun a => (a, convert_worker_state ws)) <$> clients) by exact (sent_all _ _ _ _ _ _ true _ _ Hr Hno Hrest).
    assert (Hin : (x, convert_worker_state ws) ∈ sent i l2).
    { rewrite Hsent. apply elem_of_list_fmap. by exists x. }
    apply elem_of_list_omap in Hin as (l & Hl & Hm). destruct l as [| | | | | |i' a' m' oc]; try done.
    case_decide; [|done]. simplify_eq. pose proof (Hsm _ Hl) as Hoc. cbn in Hoc. by subst oc. }
  destruct (Hall a Ha) as [Ha1 Ha2]. destruct (Hall b Hb) as [Hb1 Hb2]. by eapply agreement.
Qed.
Print Assumptions C119_no_overlap_partial.
Example C119_example : ∃ s, runs xy xy (boot up 2) (good ++ LDecide 0 ws1 true :: after_decision) s ∧ at_rest_b s = true.
Proof. apply (runs_f_check _ _ _ _ at_rest_b). by vm_compute. Qed.
Example C119_example_smooth : smooth after_decision.
Proof.
  intros l Hl. unfold after_decision in Hl. rewrite !elem_of_cons, elem_of_nil in Hl.
  destruct Hl as [->|[->|[]]]; done.
Qed.

(** ** C120: a node that has restarted *)
Theorem C120_restart_blank : ∀ addrs clients s l1 a l2 s',
  runs addrs clients s (l1 ++ LRestart a :: l2) s' -> (∀ i m oc, LPublish i a m oc ∈ l2 -> oc = FailedBefore) ->
  ∀ h, node_lookup s' a h = Some [].
Proof.
  intros addrs clients s l1 a l2 s' Hr Hp h. destruct (blank_after _ _ _ _ _ _ _ Hr Hp) as (n & Hn & Ht).
  unfold node_lookup. rewrite Hn. cbn. by rewrite Ht.
Qed.
Print Assumptions C120_restart_blank.
Example C120_example : ∃ s, runs xy xy (boot up 2)
  ((good ++ LDecide 0 ws1 true :: after_decision) ++ LRestart "x" ::
   [LIssue 0 (OpAdd "x" lo); LAsk 0 4 true; LCall 0 4 (OpAdd "x" lo) [] Arrived]) s ∧
  bool_decide (node_lookup s "x" 5 = Some []) && bool_decide (sn_ranges <$> sy_nodes s !! "x" = Some [lo]) &&
  bool_decide (node_lookup s "y" 5 = Some [0%nat]) = true.
Proof. apply (runs_f_check _ _ _ _ (fun s => _)). by vm_compute. Qed.

(** An accepted write is handed to some node: not at a node without a table. *)
Lemma blank_accepts hash n localIdx batch :
  send_calls (fun src => Model.lookup (hash src) []) n localIdx (mk_send false (Some batch)) (Some []).
Proof.
  exists []. cbn. assert (H : ∀ l, foldl (group_one (fun src => Model.lookup (hash src) [])) ∅ l = ∅).
  { intros l. induction l as [|e l IH]; [done|]. cbn. done. }
  unfold envelopes_by_node. rewrite H, map_to_list_empty. done.
Qed.
Theorem C120_accepted_write_refuted : ∃ addrs clients nodes k ls s a n hash batch e calls,
  runs addrs clients (boot nodes k) ls s ∧ sy_nodes s !! a = Some n ∧ a ∈ addrs ∧
  send_calls (fun src => Model.lookup (hash src) (sn_table n)) (length addrs) 0 (mk_send false (Some batch)) (Some calls) ∧
  e ∈ batch ∧ ∀ i, e ∉ delivered i calls.
Proof.
  exists xy, xy, up, 1%nat, [], (boot up 1), "x", fresh_node, (fun _ => 5).
  exists [mk_env 1 "app" "" ∅ ∅ (MLog "p" false)], (mk_env 1 "app" "" ∅ ∅ (MLog "p" false)), [].
  split; [constructor|]. split; [done|]. split; [left|]. split; [apply blank_accepts|]. split; [left|].
  intros i H. by inversion H.
Qed.
Print Assumptions C120_accepted_write_refuted.

(** At a node with a table in which every source of the batch has an owner it is. *)
Theorem C120_accepted_write_partial : ∀ addrs old req t (hash : string -> Z) localIdx batch out,
  NoDup addrs -> known_addrs addrs req -> set_ranges addrs old req t ->
  (∀ e, e ∈ batch -> ∃ i, owns addrs req (hash (e_source e)) i) ->
  send_calls (fun src => Model.lookup (hash src) t) (length addrs) localIdx (mk_send false (Some batch)) out ->
  ∃ calls, out = Some calls ∧
    ∀ e, e ∈ batch -> ∃ i a, addrs !! i = Some a ∧ owns addrs req (hash (e_source e)) i ∧ e ∈ delivered i calls.
Proof.
  intros addrs old req t hash localIdx batch out Hnd Hk Hs Hown Hsend.
  assert (Hlk : ∀ src i, i ∈ Model.lookup (hash src) t <-> owns addrs req (hash src) i).
  { intros src i. by eapply lookup_owns. }
  destruct (send_spec (fun src => Model.lookup (hash src) t) (length addrs) localIdx (mk_send false (Some batch)) batch out eq_refl eq_refl)
    as (calls & H1 & H2 & H3 & H4); [|done|].
  { intros e i He Hi. apply Hlk in Hi as (a & rs & r & Ha & _). by eapply lookup_lt_Some. }
  exists calls. split; [done|]. intros e He. destruct (Hown e He) as (i & Hi).
  pose proof Hi as (a & rs & r & Ha & _). exists i, a. split; [done|]. split; [done|].
  rewrite H4. apply elem_of_list_bind. exists e. split; [|done]. apply elem_of_replicate.
  split; [done|]. apply Hlk in Hi. unfold times. intros H0.
  apply length_zero_iff_nil in H0.
  assert (Hi' : i ∈ filter (fun j => j = i) (Model.lookup (hash (e_source e)) t)) by by apply elem_of_list_filter.
  rewrite H0 in Hi'. by inversion Hi'.
Qed.
Print Assumptions C120_accepted_write_partial.

(** ** C121: what is published is what the nodes said *)
Theorem C121_published_listings : ∀ addrs clients s l1 i ws b l2 s' a m,
  runs addrs clients s (l1 ++ LDecide i ws b :: l2) s' -> no_decision i l2 -> sole_publisher i l2 -> LRestart a ∉ l2 ->
  LPublish i a m Arrived ∈ l2 -> NoDup addrs -> NoDup ws.*1 -> honest i ws l1 -> (∀ w, w ∈ ws.*1 -> w ∈ addrs) ->
  ∀ h, ∃ is, node_lookup s' a h = Some is ∧
    ∀ x, x ∈ is <-> ∃ w rs r, addrs !! x = Some w ∧ last_listing i w l1 = Some rs ∧ r ∈ rs ∧ covers r h.
Proof. exact published_listings. Qed.
Print Assumptions C121_published_listings.

Theorem C121_listing_true : ∀ addrs clients s ls s' i w rs,
  runs addrs clients s ls s' -> last_listing i w ls = Some rs ->
  ∃ p j q mid n, ls = p ++ LCall i j (OpList w) rs Arrived :: q ∧ runs addrs clients s p mid ∧
    sy_nodes mid !! w = Some n ∧ rs = sn_ranges n.
Proof. exact listing_true. Qed.
Print Assumptions C121_listing_true.

(** What a node holds is what it was told since it last started. *)
Theorem C121_node_holds : ∀ addrs clients a ls s s' n,
  runs addrs clients s ls s' -> sy_nodes s !! a = Some n ->
  ∃ n', sy_nodes s' !! a = Some n' ∧ sn_ranges n' = told a ls (sn_ranges n).
Proof. exact node_told. Qed.
Print Assumptions C121_node_holds.
Example C121_example_holds : told "x" (rivals ++ [LRestart "y"]) [] = [lo] ∧ told "y" (rivals ++ [LRestart "y"]) [] = [] ∧
  told "y" (rivals ++ [LCall 0 4 (OpRemove "y" hi) [] FailedAfter]) [] = [].
Proof. by vm_compute. Qed.

(** If every range the scheduler cut the hash space into was in some node's answer, every source id has
    an owner afterwards. *)
Theorem C121_every_hash_owned : ∀ addrs clients s l1 i ws b l2 s' a m n rs,
  runs addrs clients s (l1 ++ LDecide i ws b :: l2) s' -> no_decision i l2 -> sole_publisher i l2 -> LRestart a ∉ l2 ->
  LPublish i a m Arrived ∈ l2 -> NoDup addrs -> NoDup ws.*1 -> honest i ws l1 -> (∀ w, w ∈ ws.*1 -> w ∈ addrs) ->
  1 <= n <= 2 ^ 32 -> sched_ranges n = Some rs ->
  (∀ r, r ∈ rs -> ∃ w held, last_listing i w l1 = Some held ∧ r ∈ held) ->
  ∀ h, is_hash h -> ∃ x is, node_lookup s' a h = Some is ∧ x ∈ is.
Proof.
  intros addrs clients s l1 i ws b l2 s' a m n rs Hr Hno Hsole Hre Hin Hnd Hndw Hon Hkn Hn Hrs Hheld h Hh.
  destruct (published_listings _ _ _ _ _ _ _ _ _ _ _ Hr Hno Hsole Hre Hin Hnd Hndw Hon Hkn h) as (is & His & Hx).
  destruct (sched_partition n rs Hn Hrs) as (_ & _ & Hpart). destruct (Hpart h Hh) as (k & r & Hk & Hc & _).
  destruct (Hheld r) as (w & held & Hw & Hr'); [by eapply elem_of_list_lookup_2|].
  assert (Hwa : w ∈ addrs). { apply Hkn, elem_of_list_fmap. exists (w, held). split; [done|]. by apply Hon. }
  apply elem_of_list_lookup in Hwa as (x & Hxw). exists x, is. split; [done|]. apply Hx. eauto 10.
Qed.
Print Assumptions C121_every_hash_owned.

Example C121_example : honest 0 ws1 good ∧ NoDup ws1.*1 ∧ sched_ranges 2 = Some [lo; hi] ∧
  last_listing 0 "x" good = Some [lo] ∧ last_listing 0 "y" good = Some [hi].
Proof.
  split; [|split; [by apply (bool_decide_eq_true_1 _); vm_compute|]; split; [by vm_compute|]; split; by vm_compute].
  intros w rs. unfold ws1. rewrite !elem_of_cons, elem_of_nil.
  destruct (decide (w = "x")) as [->|Hx]; [|destruct (decide (w = "y")) as [->|Hy]].
  - replace (last_listing 0 "x" good) with (Some [lo]) by (by vm_compute). naive_solver.
  - replace (last_listing 0 "y" good) with (Some [hi]) by (by vm_compute). naive_solver.
  - replace (last_listing 0 w good) with (@None (list range)); [naive_solver|].
    unfold last_listing, good. cbn [foldl]. rewrite !decide_False by naive_solver. done.
Qed.
