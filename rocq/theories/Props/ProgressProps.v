(** C147 (what the nozzle asks for) and C148 (the batching client comes to rest).  Vocabulary:
    Nozzle/Spec.v, Nozzle/Observe.v (accepted). *)
From Coq Require Import NArith String.
From stdpp Require Import prelude gmap strings.
From Verif.Nozzle Require Import Spec Model Observe Proofs ProofsNozzle ProofsProgress.
Open Scope string_scope.
Open Scope list_scope.
Open Scope nat_scope.

(** ** C147 *)
(** The names of the envelope types, as documented *)
Definition name_of (t : selector) : string :=
  match t with SelLog => "log" | SelGauge => "gauge" | SelCounter => "counter" | SelTimer => "timer" | SelEvent => "event" end.
(** A misspelt name is not refused: the request has a hole where its selector should be. *)
Theorem C147_unknown_refuted : exists names, "log" ∈ names /\ None ∈ br_selectors (build_batch_req "log-cache" names).
Proof. exists ["log"; "gauges"]. split; [left|]. right. left. Qed.
Print Assumptions C147_unknown_refuted.
(** If every configured name is the name of a type: the request asks for exactly the configured types, under
    the configured shard, and has no hole. *)
Lemma selector_name x : (exists t, x = name_of t) -> exists t, x = name_of t /\ selector_types x = Some t.
Proof. intros [t ->]. exists t. split; [done|]. by destruct t. Qed.
Lemma selector_types_name x t : selector_types x = Some t -> x = name_of t.
Proof.
  unfold selector_types. intros H.
  repeat match type of H with context [if String.eqb x ?y then _ else _] =>
    destruct (String.eqb_spec x y) as [Hx|_]; [injection H as <-; exact Hx|] end.
  discriminate H.
Qed.
Theorem C147_types_partial : forall shard names,
  (forall x, x ∈ names -> exists t, x = name_of t) ->
  let r := build_batch_req shard names in
  br_shard r = shard /\ br_preferred r = true /\ None ∉ br_selectors r /\ forall t, Some t ∈ br_selectors r <-> name_of t ∈ names.
Proof.
  intros shard names Hn. cbn. split; [done|]. split; [done|]. split.
  - intros H. apply elem_of_list_fmap in H as (x & E & Hx). destruct (selector_name x (Hn x Hx)) as (t & _ & E'). congruence.
  - intros t. split.
    + intros H. apply elem_of_list_fmap in H as (x & E & Hx). symmetry in E. apply selector_types_name in E. by subst x.
    + intros H. apply elem_of_list_fmap. exists (name_of t). split; [by destruct t|done].
Qed.
Print Assumptions C147_types_partial.
Example C147_case : forall x, x ∈ ["log"; "counter"; "gauge"; "timer"; "event"] -> exists t, x = name_of t.
Proof.
  intros x H. repeat (apply elem_of_cons in H as [->|H]; [first [by exists SelLog|by exists SelCounter|by exists SelGauge|by exists SelTimer|by exists SelEvent]|]).
  by apply elem_of_nil in H.
Qed.

(** ** C148 *)
(** Whatever happened before, once no envelope is accepted any more the client needs no more turns of its loop
    than envelopes were accepted, and one after its interval has lapsed, to have sent every accepted envelope
    to the peer, in order, except those counted as dropped; nothing waits in the buffer or the batch. *)
Theorem C148_rest : forall {E} (n : N) size (ls : list (blabel E)) (turns : list (bool * bool)) ok,
  (0 < n)%N -> 0 < size -> length (accepted ls) <= length turns ->
  let s := brun n size (ls ++ map (fun x => BLoop x.1 x.2) turns ++ [BLoop true ok]) in
  b_batch s = [] /\ (diode_try n (b_ring s)).1.2 = None /\
  exists os, explains (accepted ls) os /\ got os = concat (map pr_envs (b_reqs s)) /\ b_dropped s = dropped os.
Proof. exact @client_rests. Qed.
Print Assumptions C148_rest.
Example C148_case :
  let s := brun 10000 100 ([BSend [1; 2; 3]; BLoop false true; BSend [4]] ++
             map (fun x => BLoop x.1 x.2) (replicate 4 (false, true)) ++ [BLoop true true]) in
  b_reqs s = [PeerReq true [1; 2; 3; 4] true].
Proof. vm_compute. reflexivity. Qed.
