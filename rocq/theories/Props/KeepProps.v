(** Properties of a running cluster (C130, C131, C132): what a node still has of a source and gives out, that nothing sent is
    unaccounted for, and that all of it can be read through any node.
    Vocabulary: Whole/SpecFull.v, Whole/Spec.v, Store/Spec.v, Routing/Spec.v.  Runs: Whole/Model.v. *)
From Coq Require Import Ascii String.
From stdpp Require Import prelude gmap strings list.
From Verif.Base Require Import GoInt Envelope Str Url.
From Verif.Store Require Import Model Spec Witness.
From Verif.Routing Require Import Model Spec.
From Verif.Whole Require Import Model Spec SpecFull Proofs ProofsFull Witness.
From Verif.Props Require Import WholeProps.
Open Scope Z_scope.

(** ** C130 *)
(** Whatever has happened in the cluster: an answer is the first [limit] of exactly those envelopes the request asks for,
    among the ones the node holds of the source, in time order.  It holds what arrived since it last started, except for the
    earliest ones, which make room when there are more than its bound and which pruning takes. *)
Theorem C130_answer : ∀ hash compile ms tr k rq now out post c,
  Forall (fun m => 1 <= m) ms -> runs hash compile (start ms) (tr ++ VRead k rq now (ReadOk out) :: post) c ->
  enum_types (rr_types rq) -> distinct_times (arrived k (rr_source rq) (life k tr)) ->
  ∃ q l all, resolved compile now rq q ∧ (∀ e, wanted_type (q_types q) e ↔ requested_type (rr_types rq) e) ∧
    holds ms k (rr_source rq) tr l ∧ answers q (if q_desc q then reverse l else l) all ∧
    out = take (Z.to_nat (q_limit q)) all.
Proof. exact answer_held. Qed.
Print Assumptions C130_answer.

(** As long as no more of the source has arrived than the bound and the node was not pruned, nothing is missing. *)
Theorem C130_nothing_missing : ∀ hash compile ms tr k rq now out post c,
  Forall (fun m => 1 <= m) ms -> runs hash compile (start ms) (tr ++ VRead k rq now (ReadOk out) :: post) c ->
  enum_types (rr_types rq) -> distinct_times (arrived k (rr_source rq) (life k tr)) ->
  (∀ n pri, VPrune k n pri ∉ life k tr) ->
  Z.of_nat (length (arrived k (rr_source rq) (life k tr))) <= bound ms k tr ->
  ∃ q l all, resolved compile now rq q ∧ (∀ e, wanted_type (q_types q) e ↔ requested_type (rr_types rq) e) ∧
    l ≡ₚ arrived k (rr_source rq) (life k tr) ∧ time_sorted l ∧
    answers q (if q_desc q then reverse l else l) all ∧ out = take (Z.to_nat (q_limit q)) all.
Proof.
  intros hash compile ms tr k rq now out post c Hms Hr Hen D Hp Hb.
  destruct (answer_held _ _ _ _ _ _ _ _ _ _ Hms Hr Hen D) as (q & l & all & H1 & H2 & H3 & H4 & H5).
  exists q, l, all. split; [done|]. split; [done|]. split; [by eapply holds_all|]. split; [by eapply holds_sorted|]. done.
Qed.
Print Assumptions C130_nothing_missing.

(** out of order arrivals at a node with room for three, then a fourth, a prune, and a restart *)
Definition ask_rev : read_request := mk_rr "a" 2 0 2 [T_LOG] true "".
Definition filling : list todo :=
  [ Do (VTable 0 split_table);
    Do (VSend 0 (mk_send false (Some [log_at 7 "0"; log_at 3 "0"; log_at 5 "0"])));
    Do (VArrive 0 [log_at 7 "0"; log_at 3 "0"]); Do (VArrive 0 [log_at 5 "0"]); Ask 0 ask_a 100; Ask 0 ask_rev 100;
    Do (VSend 0 (mk_send false (Some [log_at 1 "0"]))); Do (VArrive 0 [log_at 1 "0"]); Ask 0 ask_a 100;
    Do (VPrune 0 1 []); Ask 0 ask_a 100; Do (VRestart 0 2); Ask 0 ask_a 100 ].
Example C130_example : ∃ tr c, runs toy_hash (fun _ => None) (start [3; 3]) tr c ∧
  reads_are [[log_at 3 "0"; log_at 5 "0"; log_at 7 "0"]; [log_at 7 "0"; log_at 5 "0"];
             [log_at 1 "0"; log_at 5 "0"; log_at 7 "0"]; [log_at 5 "0"; log_at 7 "0"]; []] tr = true.
Proof. apply (played _ _ _ filling). vm_compute. done. Qed.
(** the hypotheses of both theorems hold at the first two reads *)
Definition filled : list event :=
  [ VTable 0 split_table; VSend 0 (mk_send false (Some [log_at 7 "0"; log_at 3 "0"; log_at 5 "0"]));
    VArrive 0 [log_at 7 "0"; log_at 3 "0"]; VArrive 0 [log_at 5 "0"] ].
Example C130_hypotheses :
  (∃ c, runs toy_hash (fun _ => None) (start [3; 3])
     (filled ++ VRead 0 ask_a 100 (ReadOk [log_at 3 "0"; log_at 5 "0"; log_at 7 "0"]) :: []) c) ∧
  enum_types (rr_types ask_a) ∧ distinct_times (arrived 0 "a" (life 0 filled)) ∧
  (∀ n pri, VPrune 0 n pri ∉ life 0 filled) ∧ Z.of_nat (length (arrived 0 "a" (life 0 filled))) <= bound [3; 3] 0 filled.
Proof.
  split.
  { destruct (play toy_hash (fun _ => None) [] (start [3; 3]) (take 5 filling)) as [[tr c]|] eqn:E; [|exfalso; by vm_compute in E].
    exists c. assert (Htr : tr = filled ++ VRead 0 ask_a 100 (ReadOk [log_at 3 "0"; log_at 5 "0"; log_at 7 "0"]) :: []).
    { vm_compute in E. by injection E as <- _. }
    rewrite <-Htr. eapply play_ok; [apply runs_nil|exact E]. }
  split; [by intros t n ?%elem_of_nil|]. split.
  { split; [by apply (bool_decide_eq_true_1 _); vm_compute|by apply (bool_decide_eq_true_1 _); vm_compute]. }
  split; [|by vm_compute].
  intros n pri. change (life 0 filled) with filled. unfold filled. rewrite !elem_of_cons, elem_of_nil. naive_solver.
Qed.

(** ** C131 *)
(** As long as the nodes that are given envelopes of a source find the same owner for it, or are it: everything sent of it has arrived
    at the owner, or was lost on the way there, or is still on its way there; no other node has been given any. *)
Theorem C131_accounted : ∀ hash compile ms tr c k src,
  runs hash compile (start ms) tr c -> routed hash k src tr ->
  sent_to src tr ≡ₚ arrived k src tr ++ lost src tr ++ of_source src (c_flight c).*2 ∧
  (∀ j e, (j, e) ∈ c_flight c -> e_source e = src -> j = k) ∧ (∀ j, j ≠ k -> arrived j src tr = []).
Proof.
  intros hash compile ms tr c k src Hr Hro. destruct (conserved _ _ _ _ _ _ _ Hr Hro) as (Ho & Hj & Hc).
  rewrite (only_of_source _ _ _ Ho). done.
Qed.
Print Assumptions C131_accounted.
(** sent through two nodes; one has arrived, one is lost and one is on its way *)
Definition moving : list todo :=
  [ Do (VTable 0 split_table); Do (VTable 1 split_table);
    Do (VSend 1 (mk_send false (Some [log_at 5 "0"; e_b]))); Do (VSend 0 (mk_send false (Some [log_at 6 "0"; log_at 7 "0"])));
    Do (VArrive 0 [log_at 6 "0"]); Do (VLose 0 (log_at 5 "0")) ].
(** a decision procedure for [routed], for the examples *)
Fixpoint routed_b (k : nat) (src : string) (h : Z) (done_ tr : list event) : bool :=
  match tr with
  | [] => true
  | ev :: tr' =>
      match ev with
      | VSend i r => bool_decide (of_source src (get_batch r) = [])
                     || (if sr_local_only r then bool_decide (i = k) else bool_decide (lookup h (table_of i done_) = [k]))
      | _ => true end && routed_b k src h (done_ ++ [ev]) tr'
  end.
Lemma routed_b_ok hash k src tr : routed_b k src (hash src) [] tr = true -> routed hash k src tr.
Proof.
  intros H. assert (G : ∀ done_ tr, routed_b k src (hash src) done_ tr = true -> ∀ pre i r post, tr = pre ++ VSend i r :: post ->
    of_source src (get_batch r) ≠ [] -> if sr_local_only r then i = k else lookup (hash src) (table_of i (done_ ++ pre)) = [k]).
  { clear. intros done_ tr. revert done_. induction tr as [|ev tr IH]; intros done_ H pre i r post E Hne; [by destruct pre|].
    cbn [routed_b] in H. apply andb_true_iff in H as [H1 H2]. destruct pre as [|ev' pre]; cbn in E.
    - injection E as -> ->. rewrite app_nil_r. apply orb_true_iff in H1 as [H1|H1].
      + by apply bool_decide_eq_true in H1.
      + destruct (sr_local_only r); by apply bool_decide_eq_true in H1.
    - injection E as <- ->. pose proof (IH _ H2 pre i r post eq_refl Hne) as G1. by rewrite <-app_assoc in G1. }
  intros pre i r post E Hne. apply (G [] tr H pre i r post E Hne).
Qed.
Example C131_example : ∃ tr c, runs toy_hash (fun _ => None) (start [3; 3]) tr c ∧
  routed_b 0 "a" 5 [] tr && bool_decide (arrived 0 "a" tr = [log_at 6 "0"] ∧ lost "a" tr = [log_at 5 "0"]) = true.
Proof. apply (played _ _ _ moving). vm_compute. done. Qed.

(** ** C132 *)
(** Once everything sent of a source has arrived, it can all be read, through any node that knows the owner, in time order:
    the answer is the first [limit] of exactly those envelopes the request asks for. *)
Theorem C132_all_readable : ∀ hash compile ms tr c k j m rq now rnds fuel,
  Forall (fun m => 1 <= m) ms -> runs hash compile (start ms) tr c -> routed hash k (rr_source rq) tr ->
  ms !! k = Some m -> (j < length ms)%nat ->
  (∀ m', VRestart k m' ∉ tr) -> (∀ n pri, VPrune k n pri ∉ tr) ->
  lost (rr_source rq) tr = [] -> of_source (rr_source rq) (c_flight c).*2 = [] ->
  distinct_times (sent_to (rr_source rq) tr) -> Z.of_nat (length (sent_to (rr_source rq) tr)) <= m ->
  lookup (hash (rr_source rq)) (table_of k tr) = [k] -> lookup (hash (rr_source rq)) (table_of j tr) = [k] ->
  acceptable compile rq -> enum_types (rr_types rq) -> (2 <= fuel)%nat ->
  ∃ q l all hops, resolved compile now rq q ∧ (∀ e, wanted_type (q_types q) e ↔ requested_type (rr_types rq) e) ∧
    l ≡ₚ sent_to (rr_source rq) tr ∧ time_sorted l ∧ answers q (if q_desc q then reverse l else l) all ∧ (hops <= 1)%nat ∧
    cluster_read fuel hash compile now rnds j rq (c_nodes c) = Some (CServed k (ReadOk (take (Z.to_nat (q_limit q)) all)), hops).
Proof. exact all_readable. Qed.
Print Assumptions C132_all_readable.
(** sent through two nodes, restarted and pruned elsewhere, read through the other node *)
Definition settled : list todo :=
  [ Do (VTable 0 split_table); Do (VTable 1 split_table);
    Do (VSend 1 (mk_send false (Some [log_at 5 "0"; e_b]))); Do (VSend 0 (mk_send false (Some [log_at 7 "0"; log_at 6 "0"])));
    Do (VArrive 0 [log_at 7 "0"; log_at 6 "0"]); Do (VRestart 1 3); Do (VTable 1 split_table); Do (VPrune 1 5 []);
    Do (VArrive 0 [log_at 5 "0"]) ].
Example C132_example :
  match play toy_hash (fun _ => None) [] (start [3; 3]) settled with
  | Some (tr, c) =>
      runs toy_hash (fun _ => None) (start [3; 3]) tr c ∧ routed toy_hash 0 "a" tr ∧
      lost "a" tr = [] ∧ of_source "a" (c_flight c).*2 = [] ∧ distinct_times (sent_to "a" tr) ∧
      Z.of_nat (length (sent_to "a" tr)) <= 3 ∧ lookup 5 (table_of 0 tr) = [0%nat] ∧ lookup 5 (table_of 1 tr) = [0%nat] ∧
      acceptable (fun _ => None) ask_a ∧
      cluster_read 2 toy_hash (fun _ => None) 100 (fun _ => 0%nat) 1 ask_a (c_nodes c)
        = Some (CServed 0 (ReadOk [log_at 5 "0"; log_at 6 "0"; log_at 7 "0"]), 1%nat)
  | None => False end.
Proof.
  destruct (play toy_hash (fun _ => None) [] (start [3; 3]) settled) as [[tr c]|] eqn:E; [|by vm_compute in E].
  assert (Htr : routed_b 0 "a" 5 [] tr = true ∧ lost "a" tr = [] ∧ of_source "a" (c_flight c).*2 = [] ∧
    sent_to "a" tr = [log_at 5 "0"; log_at 7 "0"; log_at 6 "0"] ∧ lookup 5 (table_of 0 tr) = [0%nat] ∧ lookup 5 (table_of 1 tr) = [0%nat] ∧
    cluster_read 2 toy_hash (fun _ => None) 100 (fun _ => 0%nat) 1 ask_a (c_nodes c)
        = Some (CServed 0 (ReadOk [log_at 5 "0"; log_at 6 "0"; log_at 7 "0"]), 1%nat)).
  { vm_compute in E. injection E as <- <-. vm_compute. done. }
  destruct Htr as (H1 & H2 & H3 & H4 & H5 & H6 & H7).
  split; [eapply play_ok; [apply runs_nil|exact E]|]. split; [by apply routed_b_ok|]. split; [done|]. split; [done|].
  rewrite H4. split. { split; by apply (bool_decide_eq_true_1 _); vm_compute. }
  split; [done|]. split; [done|]. split; [done|]. split; [|done]. split; [by left|]. split; [by vm_compute|by left].
Qed.
