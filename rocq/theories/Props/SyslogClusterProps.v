(** C154: what the syslog server receives can be read from the cluster it feeds.  Vocabulary: Whole/SpecSyslog.v (calls_made,
    syslog_calls, bringing), Syslog/SpecServer.v (received), Whole/SpecFull.v. *)
From Coq Require Import Ascii String NArith.
From stdpp Require Import prelude gmap strings list.
From Verif.Base Require Import GoInt Envelope.
From Verif.Store Require Import Model Spec Witness.
From Verif.Routing Require Import Model Spec.
From Verif.Nozzle Require Spec Model Proofs.
From Verif.Syslog Require Server SpecServer ProofsServer.
From Verif.Whole Require Import Model Spec SpecFull SpecSyslog Proofs ProofsFull Witness.
From Verif.Props Require Import WholeProps KeepProps.
From Verif.Props Require SyslogServerProps.
Open Scope Z_scope.

Lemma calls_split tr : ∀ pre i r post, tr = pre ++ VSend i r :: post -> (i, r) ∈ calls_made tr.
Proof.
  intros pre i r post ->. unfold calls_made. apply elem_of_list_omap. exists (VSend i r). split; [|done].
  apply elem_of_app. right. by left.
Qed.
Lemma sent_to_calls src tr : sent_to src tr = (x ← bringing src (calls_made tr); of_source src (get_batch x.2)).
Proof.
  unfold sent_to, calls_made, bringing. induction tr as [|ev tr IH]; [done|]. cbn [mbind list_bind omap list_omap].
  fold (omap (fun ev => match ev with VSend i r => Some (i, r) | _ => None end) tr).
  destruct ev; cbn [app]; try exact IH. rewrite filter_cons. cbn [snd].
  destruct (decide _) as [H|H]; cbn [mbind list_bind]; [by f_equal|].
  destruct (of_source src (get_batch r)) eqn:E; [exact IH|]. exfalso. by apply H.
Qed.
Lemma syslog_sent src i s : (x ← bringing src (syslog_calls i s); of_source src (get_batch x.2)) = of_source src (SpecServer.requested s).
Proof.
  unfold bringing, syslog_calls, SpecServer.requested. induction (Nozzle.Model.b_reqs (Server.s_client s)) as [|r l IH]; [done|].
  cbn [fmap list_fmap map concat]. rewrite of_source_app, filter_cons. cbn [snd get_batch sr_envelopes default id].
  destruct (decide _) as [H|H]; cbn [mbind list_bind]; [by f_equal|].
  apply dec_stable in H. rewrite <-IH.
  assert (of_source src (Nozzle.Model.pr_envs r) = []) as ->; [exact H|done].
Qed.

(** every request of the syslog server asks the node to keep the envelopes itself (batched_ingress_client.go:79-83) *)
Lemma syslog_local pf idle t0 str s : Server.runs pf idle (Server.srv0 t0) str s ->
  Forall (fun r => Nozzle.Model.pr_local r = true) (Nozzle.Model.b_reqs (Server.s_client s)).
Proof.
  intros H. induction H as [|tr s1 ev s2 H IH Hs]; [by constructor|].
  destruct Hs; cbn in *; try done; try (by destruct trailing).
  assert (Hw : ∀ (b : Nozzle.Model.bic envelope) ok, Forall (fun r => Nozzle.Model.pr_local r = true) (Nozzle.Model.b_reqs b) ->
    Forall (fun r => Nozzle.Model.pr_local r = true) (Nozzle.Model.b_reqs (Nozzle.Model.write_batch b ok))).
  { intros b o Hb. unfold Nozzle.Model.write_batch. destruct (Nozzle.Model.b_batch b); [done|]. cbn. apply Forall_app.
    split; [done|]. by repeat constructor. }
  unfold Nozzle.Model.bic_loop. destruct (Nozzle.Model.diode_try _ _) as [[d [e|]] a].
  - destruct (decide _); [by apply Hw|]. destruct lapsed; [by apply Hw|done].
  - destruct lapsed; [by apply Hw|done].
Qed.

Lemma syslog_routed hash pf idle t0 str s src i tr : Server.runs pf idle (Server.srv0 t0) str s ->
  bringing src (calls_made tr) = bringing src (syslog_calls i s) -> routed hash i src tr.
Proof.
  intros Hs Hb pre i' r post E Hne. pose proof (syslog_local _ _ _ _ _ Hs) as Hl. rewrite Forall_forall in Hl.
  assert (Hin : (i', r) ∈ bringing src (calls_made tr)).
  { apply elem_of_list_filter. split; [done|]. by eapply calls_split. }
  rewrite Hb in Hin. apply elem_of_list_filter in Hin as [_ Hin]. apply elem_of_list_fmap in Hin as (p & [= -> ->] & Hp).
  cbn [sr_local_only]. by rewrite (Hl p Hp).
Qed.

(** ** What goes wrong *)
(** The requests of the syslog server are to be kept by the node they are sent to.  As long as only the syslog server
    sends something of a source, and its node is not the one that has the source, nothing of it can ever be read,
    through whatever node that knows who has it. *)
Theorem C154_misplaced : ∀ pf idle t0 str s hash compile ms tr c i k j rq now rnds fuel,
  Server.runs pf idle (Server.srv0 t0) str s ->
  Forall (fun m => 1 <= m) ms -> runs hash compile (start ms) tr c ->
  bringing (rr_source rq) (calls_made tr) = bringing (rr_source rq) (syslog_calls i s) ->
  i ≠ k -> (k < length ms)%nat -> (j < length ms)%nat ->
  lookup (hash (rr_source rq)) (table_of k tr) = [k] -> lookup (hash (rr_source rq)) (table_of j tr) = [k] ->
  acceptable compile rq -> enum_types (rr_types rq) -> (2 <= fuel)%nat ->
  ∃ hops, cluster_read fuel hash compile now rnds j rq (c_nodes c) = Some (CServed k (ReadOk []), hops).
Proof.
  intros pf idle t0 str s hash compile ms tr c i k j rq now rnds fuel Hs Hms Hr Hb Hik Hk Hj Htk Htj Hacc Hen Hf.
  pose proof (syslog_routed hash _ _ _ _ _ _ _ _ Hs Hb) as Hro.
  destruct (conserved _ _ _ _ _ _ _ Hr Hro) as (_ & Hn & _). specialize (Hn k ltac:(done)).
  assert (Hlens : length (c_nodes c) = length ms).
  { clear -Hr. induction Hr as [|tr c1 ev c2 Hr IH Hs]; [cbn; by rewrite fmap_length|].
    destruct Hs; cbn [c_nodes] in *; rewrite ?insert_length; done. }
  destruct (lookup_lt_is_Some_2 (c_nodes c) k) as [nk Hnk]; [lia|].
  destruct (lookup_lt_is_Some_2 (c_nodes c) j) as [nj Hnj]; [lia|].
  destruct (node_runs _ _ _ (rr_source rq) _ _ _ Hms Hr nk Hnk) as (Hi & _ & H).
  assert (Hlife : arrived k (rr_source rq) (life k tr) = []).
  { clear -Hn. induction tr as [|ev tr IH] using rev_ind; [done|]. rewrite arrived_snoc in Hn. apply app_eq_nil in Hn as [H1 H2].
    specialize (IH H1). rewrite life_snoc. destruct ev; try (by rewrite arrived_snoc, IH, H2).
    destruct (decide _); [done|]. by rewrite arrived_snoc, IH, H2. }
  rewrite Hlife in H. destruct H as (l & _ & El & Hl). { split; [by constructor|]. apply NoDup_nil_2. }
  assert (l = []) as ->. { by apply submseteq_nil_r in Hl. }
  destruct (local_read_keyed compile now rq _ _ Hi El Hacc Hen) as (q & all & Hq & Hty & Ha & E').
  destruct (read_from hash compile now rnds k j rq (c_nodes c) fuel nk nj Hnk Hnj) as (hops & Hh & Hread); [..|done|].
  { by rewrite (table_runs _ _ _ _ _ k nk Hr Hnk). } { by rewrite (table_runs _ _ _ _ _ j nj Hr Hnj). }
  exists hops. rewrite Hread, E'. do 4 f_equal.
  assert (all = []) as ->; [|by rewrite take_nil]. clear -Ha. destruct (q_desc q); cbn in Ha; by inversion Ha.
Qed.
Print Assumptions C154_misplaced.

(** So it is false that what the server has received and sent on can be read once it has arrived: one connection, one
    message, sent on and arrived; the syslog server was given the address of node 0, and both nodes know that the
    source is node 1's. *)
Definition misplacing : list todo :=
  [ Do (VTable 0 late_table); Do (VTable 1 late_table);
    Do (VSend 0 (mk_send true (Some [SyslogServerProps.hello_env "a"]))); Do (VArrive 0 [SyslogServerProps.hello_env "a"]) ].
Lemma misplaced_run : ∃ tr c, runs toy_hash (fun _ => None) (start [3; 3]) tr c ∧
  calls_made tr = [(0%nat, mk_send true (Some [SyslogServerProps.hello_env "a"]))] ∧ (∀ src, lost src tr = []) ∧ c_flight c = [] ∧
  table_of 0 tr = late_table ∧ table_of 1 tr = late_table.
Proof.
  destruct (play toy_hash (fun _ => None) [] (start [3; 3]) misplacing) as [[tr c]|] eqn:E; [|exfalso; by vm_compute in E].
  exists tr, c. split; [eapply play_ok; [apply runs_nil|exact E]|].
  vm_compute in E. injection E as <- <-. done.
Qed.
Lemma ask_a_ok : acceptable (fun _ => None) ask_a ∧ enum_types (rr_types ask_a).
Proof. split; [|by intros t n ?%elem_of_nil]. split; [by left|]. split; [by vm_compute|by left]. Qed.
Theorem C154_cluster_refuted : ∀ pf, ∃ str s e hash compile tr c rq,
  Server.runs pf 100 (Server.srv0 0) str s ∧ SpecServer.received str = [e] ∧ SpecServer.requested s = [e] ∧ e_source e = rr_source rq ∧
  runs hash compile (start [3; 3]) tr c ∧ calls_made tr = syslog_calls 0 s ∧ lost (rr_source rq) tr = [] ∧ c_flight c = [] ∧
  table_of 0 tr = table_of 1 tr ∧ acceptable compile rq ∧ enum_types (rr_types rq) ∧
  ∀ now rnds j, (j < 2)%nat ->
    ∃ hops, cluster_read 2 hash compile now rnds j rq (c_nodes c) = Some (CServed 1 (ReadOk []), hops).
Proof.
  intros pf. destruct (SyslogServerProps.plain_runs pf 100) as (s & Hs & _ & _ & _ & _ & _ & Hq & _); [lia|].
  destruct misplaced_run as (tr & c & Hr & Hc & Hl & Hf & H0 & H1). destruct ask_a_ok as [Ha He].
  assert (Hcalls : calls_made tr = syslog_calls 0 s). { unfold syslog_calls. by rewrite Hc, Hq. }
  exists SyslogServerProps.plain, s, (SyslogServerProps.hello_env "a"), toy_hash, (fun _ => None), tr, c, ask_a.
  split_and!; try done; [unfold SpecServer.requested; by rewrite Hq|congruence|].
  intros now rnds j Hj.
  eapply (C154_misplaced pf 100 0 SyslogServerProps.plain s toy_hash (fun _ => None) [3; 3] tr c 0 1 j ask_a); try done; cbn [length]; try lia.
  - by repeat constructor.
  - by rewrite Hcalls.
  - rewrite H1. by vm_compute.
  - destruct j as [|[|j]]; [rewrite H0|rewrite H1|lia]; by vm_compute.
Qed.
Print Assumptions C154_cluster_refuted.

(** ** What holds *)
(** If the syslog server was given the address of the node that has the source, what it received of the source can be
    read through every node that knows that: provided messages came in turn, none was dropped or waits, the requests
    arrived, and the source is within the node's bound.  Missing: all other nodes. *)
Theorem C154_readable_partial : ∀ pf idle t0 str s hash compile ms tr c k j m rq now rnds fuel,
  Server.runs pf idle (Server.srv0 t0) str s -> (SpecServer.accepts str <= 1)%nat ->
  SpecServer.entering s = [] -> (Nozzle.Model.diode_try Server.ring_size (Server.ring s)).1.2 = None ->
  Nozzle.Model.b_batch (Server.s_client s) = [] -> Nozzle.Model.b_dropped (Server.s_client s) = 0%N ->
  Forall (fun m => 1 <= m) ms -> runs hash compile (start ms) tr c ->
  bringing (rr_source rq) (calls_made tr) = bringing (rr_source rq) (syslog_calls k s) ->
  ms !! k = Some m -> (j < length ms)%nat ->
  (∀ m', VRestart k m' ∉ tr) -> (∀ n pri, VPrune k n pri ∉ tr) ->
  lost (rr_source rq) tr = [] -> of_source (rr_source rq) (c_flight c).*2 = [] ->
  distinct_times (of_source (rr_source rq) (SpecServer.received str)) ->
  Z.of_nat (length (of_source (rr_source rq) (SpecServer.received str))) <= m ->
  lookup (hash (rr_source rq)) (table_of k tr) = [k] -> lookup (hash (rr_source rq)) (table_of j tr) = [k] ->
  acceptable compile rq -> enum_types (rr_types rq) -> (2 <= fuel)%nat ->
  ∃ q l all hops, resolved compile now rq q ∧ (∀ e, wanted_type (q_types q) e ↔ requested_type (rr_types rq) e) ∧
    l ≡ₚ of_source (rr_source rq) (SpecServer.received str) ∧ time_sorted l ∧
    answers q (if q_desc q then reverse l else l) all ∧ (hops <= 1)%nat ∧
    cluster_read fuel hash compile now rnds j rq (c_nodes c) = Some (CServed k (ReadOk (take (Z.to_nat (q_limit q)) all)), hops).
Proof.
  intros pf idle t0 str s hash compile ms tr c k j m rq now rnds fuel Hs Hone He Hd Hba Hdr Hms Hr Hb Hm Hj Hnr Hnp Hl Hf D Hlen Htk Htj Hacc Hen Hfu.
  destruct (ProofsServer.one_at_a_time pf idle t0 str s Hs) as (seen & waiting & os & E1 & E2 & E3 & E4 & _ & E6); [|done|].
  { by eapply (ProofsServer.one_connection pf idle t0 str s). }
  apply E3 in Hd. subst waiting. rewrite app_nil_r in E1. rewrite Hba, app_nil_r in E4.
  assert (Hgot : Nozzle.Spec.got os = seen).
  { rewrite Hdr in E6. clear -E2 E6. induction E2 as [|x xs os H IH|ys n xs os Hn H IH]; cbn in *; [done|by rewrite IH|].
    destruct ys; [|cbn in Hn; lia]. apply IH. lia. }
  assert (Hsent : sent_to (rr_source rq) tr = of_source (rr_source rq) (SpecServer.received str)).
  { rewrite sent_to_calls, Hb, syslog_sent. congruence. }
  rewrite <-Hsent in *. eapply all_readable; try done. by eapply syslog_routed.
Qed.
Print Assumptions C154_readable_partial.

(** the same message with the address of node 0 when the source is node 0's *)
Definition placing : list todo :=
  [ Do (VTable 0 split_table); Do (VTable 1 split_table);
    Do (VSend 0 (mk_send true (Some [SyslogServerProps.hello_env "a"]))); Do (VArrive 0 [SyslogServerProps.hello_env "a"]) ].
Example C154_example : ∀ pf, ∃ s tr c,
  Server.runs pf 100 (Server.srv0 0) SyslogServerProps.plain s ∧ (SpecServer.accepts SyslogServerProps.plain <= 1)%nat ∧
  SpecServer.entering s = [] ∧ (Nozzle.Model.diode_try Server.ring_size (Server.ring s)).1.2 = None ∧
  Nozzle.Model.b_batch (Server.s_client s) = [] ∧ Nozzle.Model.b_dropped (Server.s_client s) = 0%N ∧
  runs toy_hash (fun _ => None) (start [3; 3]) tr c ∧ calls_made tr = syslog_calls 0 s ∧
  (∀ m', VRestart 0 m' ∉ tr) ∧ (∀ n pri, VPrune 0 n pri ∉ tr) ∧ lost "a" tr = [] ∧ c_flight c = [] ∧
  distinct_times (of_source "a" (SpecServer.received SyslogServerProps.plain)) ∧
  lookup (toy_hash "a") (table_of 0 tr) = [0%nat] ∧ lookup (toy_hash "a") (table_of 1 tr) = [0%nat] ∧
  acceptable (fun _ => None) ask_a ∧ enum_types (rr_types ask_a) ∧
  cluster_read 2 toy_hash (fun _ => None) 100 (fun _ => 0%nat) 1 ask_a (c_nodes c)
    = Some (CServed 0 (ReadOk [SyslogServerProps.hello_env "a"]), 1%nat).
Proof.
  intros pf. destruct (SyslogServerProps.plain_runs pf 100) as (s & Hs & _ & _ & _ & He & _ & Hq & Hd & Hb & Hdr); [lia|].
  destruct (play toy_hash (fun _ => None) [] (start [3; 3]) placing) as [[tr c]|] eqn:E; [|exfalso; by vm_compute in E].
  exists s, tr, c. assert (Hr : runs toy_hash (fun _ => None) (start [3; 3]) tr c) by (eapply play_ok; [apply runs_nil|exact E]).
  destruct ask_a_ok as [Ha Hen]. unfold syslog_calls. rewrite Hq. vm_compute in E. injection E as <- <-.
  split_and!; try done.
  - intros m'. rewrite !elem_of_cons, elem_of_nil. naive_solver.
  - intros n pri. rewrite !elem_of_cons, elem_of_nil. naive_solver.
  - by apply (bool_decide_eq_true_1 _); vm_compute.
Qed.
