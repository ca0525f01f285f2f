(** A node behind its port, whatever bytes it is sent: C168. *)
From Coq Require Import Ascii String.
From stdpp Require Import prelude strings list gmap.
From Verif.Base Require Import GoInt Envelope.
From Verif.Store Require Import Avl Model Spec SpecFrom.
From Verif.Routing Require Import Model Spec.
From Verif.Whole Require Import Model Spec SpecFull Proofs.
From Verif.Gateway Require Import Model.
From Verif.Http Require Import Model.
From Verif.Wire Require Import Format Model Spec Received Node SpecNode NodeProofs.
Open Scope string_scope.
Open Scope list_scope.
Open Scope Z_scope.

(** ** C168 *)
(** The empty message, sent to Ingress.Send, takes the node down, whatever state it is in; so does a read that names a type which the API
    does not have, as soon as it meets an envelope. *)
Definition one_log : envelope := mk_env 5 "a" "0" ∅ ∅ (MLog "hi" false).
Definition up_with_one : list call :=
  match marshal_send (mk_send false (Some [one_log])) with Some b => [CallSend 7 b] | None => [] end.
Theorem C168_crash_refuted :
  (forall compile mine now s, node_call compile mine (CallSend now "") s = None) /\
  (exists b s, unmarshal_read b = Some (mk_rr "a" 0 9 10 [T_UNKNOWN 6] false "") /\
     node_run (fun _ => None) (fun _ => true) up_with_one (new_store 3) = Some s /\
     node_call (fun _ => None) (fun _ => true) (CallRead 8 b) s = None).
Proof.
  split.
  - intros compile mine now s. apply node_send_no_batch. by exists now, "".
  - destruct (marshal_read (mk_rr "a" 0 9 10 [T_UNKNOWN 6] false "")) as [b|] eqn:E; [|by vm_compute in E].
    destruct (node_run (fun _ => None) (fun _ => true) up_with_one (new_store 3)) as [s|] eqn:Er; [|by vm_compute in Er].
    exists b, s. split; [|split; [done|]].
    + vm_compute in E. injection E as <-. by vm_compute.
    + vm_compute in E. injection E as <-. vm_compute in Er. injection Er as <-. by vm_compute.
Qed.
Print Assumptions C168_crash_refuted.
(** Nothing else does: whatever else it is sent - valid, malformed or meaningless - the node goes on, as long as the envelopes of a source
    are not crowded (C04, C16). *)
Theorem C168_up_partial : forall compile mine m cs, 1 <= m -> spread m (brought_all mine cs) ->
  Z.of_nat (length cs + length (brought_all mine cs)) < 2^63 -> Forall (fun c => ~ no_batch c /\ ~ odd_type c) cs ->
  exists s, node_run compile mine cs (new_store m) = Some s.
Proof. exact node_up. Qed.
Print Assumptions C168_up_partial.
(** Bytes that are no message are refused and change nothing. *)
Theorem C168_garbage : forall compile mine now b s,
  (unmarshal_send b = None -> node_call compile mine (CallSend now b) s = Some (s, None)) /\
  (unmarshal_read b = None -> node_call compile mine (CallRead now b) s = Some (s, None)) /\
  (unmarshal_meta b = None -> node_call compile mine (CallMeta b) s = Some (s, None)).
Proof.
  intros compile mine now b s. cbn [node_call]. unfold node_send, node_read, node_meta. by repeat split; intros ->.
Qed.
Print Assumptions C168_garbage.
(** A source that is not this node's is not read here. *)
Theorem C168_elsewhere : forall compile mine now b rq s, unmarshal_read b = Some rq -> mine (rr_source rq) = false ->
  node_call compile mine (CallRead now b) s = Some (s, None).
Proof. intros compile mine now b rq s E Hm. cbn [node_call]. unfold node_read. rewrite E, route_alone, Hm. done. Qed.
Print Assumptions C168_elsewhere.
(** Every answer to a read can be encoded, and its receiver decodes nothing but envelopes that were sent under that source id, none of them
    more often than it was sent, each as the request selects it.  A request is refused only if its window, its limit or its pattern is bad. *)
Theorem C168_answer : forall compile mine m cs s now b rq s' a,
  1 <= m -> node_run compile mine cs (new_store m) = Some s -> unmarshal_read b = Some rq -> mine (rr_source rq) = true ->
  node_call compile mine (CallRead now b) s = Some (s', a) ->
  (a = None /\ ~ acceptable compile rq) \/
  exists q es b', a = Some b' /\ resolved compile now rq q /\ (forall e, wanted_type (q_types q) e <-> requested_type (rr_types rq) e) /\
    drawn q (sent_for mine (rr_source rq) cs) es /\ (fits b' -> unmarshal_read_response b' = Some (Some es)).
Proof.
  intros compile mine m cs s now b rq s' a Hm Hr Eb Hmine Hc.
  destruct (node_answer _ _ _ _ _ _ _ _ _ _ Hm Hr Eb Hmine Hc) as [H|(q & es & b' & H1 & H2 & H3 & H4 & _ & H5)]; [by left|right].
  by exists q, es, b'.
Qed.
Print Assumptions C168_answer.
(** If the timestamps of the source differ, the answer is exactly what the node holds of it and the request selects. *)
Theorem C168_exact : forall compile mine m cs s now b rq, 1 <= m -> node_run compile mine cs (new_store m) = Some s ->
  unmarshal_read b = Some rq -> mine (rr_source rq) = true -> acceptable compile rq -> enum_types (rr_types rq) ->
  distinct_times (sent_for mine (rr_source rq) cs) ->
  exists l q all s' b', may_hold mine m (rr_source rq) cs l /\ resolved compile now rq q /\
    (forall e, wanted_type (q_types q) e <-> requested_type (rr_types rq) e) /\
    Store.Spec.answers q (if q_desc q then reverse l else l) all /\
    node_call compile mine (CallRead now b) s = Some (s', Some b') /\
    (fits b' -> unmarshal_read_response b' = Some (Some (take (Z.to_nat (q_limit q)) all))).
Proof. exact node_exact. Qed.
Print Assumptions C168_exact.
(** Meta is always answered, and its receiver decodes the counts of the store. *)
Theorem C168_meta : forall compile mine m cs s b, 1 <= m -> node_run compile mine cs (new_store m) = Some s ->
  spread m (brought_all mine cs) -> Z.of_nat (length cs + length (brought_all mine cs)) < 2^63 -> Forall (fun c => ~ odd_type c) cs ->
  is_Some (unmarshal_meta b) ->
  exists b', node_call compile mine (CallMeta b) s = Some (s, Some b') /\
    (fits b' -> unmarshal_meta_response b' = Some (to_info <$> Store.Model.meta s)).
Proof. exact node_meta_ok. Qed.
Print Assumptions C168_meta.
(** The same in a cluster: if what its clients sent it arrived as bytes, whatever happens to nodes, tables and messages, every answer to a
    read can be encoded and is received as it is. *)
Theorem C168_cluster : forall hash compile ms tr k rq now es post c, Forall (fun m => 1 <= m) ms ->
  (forall i r, VSend i r ∈ tr -> exists b, unmarshal_send b = Some r) ->
  Whole.Model.runs hash compile (start ms) (tr ++ VRead k rq now (ReadOk es) :: post) c ->
  exists b', marshal_read_response (Some es) = Some b' /\ (fits b' -> unmarshal_read_response b' = Some (Some es)).
Proof.
  intros hash compile ms tr k rq now es post c Hms Hb Hr. destruct (answered_sent _ _ _ _ _ _ _ _ _ _ Hms Hr) as (q & _ & H).
  apply answer_encodes. intros e' He'. destruct (H e' He') as (e & He & _ & Hp & _). eapply projected_good; [exact Hp|].
  unfold sent_to in He. apply elem_of_list_bind in He as (ev & He & Hev). destruct ev as [i r| | | | | |]; try by apply elem_of_nil in He.
  apply of_source_elem in He as [_ He]. destruct (Hb i r Hev) as [b Eb]. apply send_good in Eb. rewrite Forall_forall in Eb. by apply Eb.
Qed.
Print Assumptions C168_cluster.

(** A node that was sent rubbish, then a log, then asked for it and for its meta information *)
Example C168_case : exists b b' s s' out out',
  marshal_read (mk_rr "a" 0 9 10 [] false "") = Some b /\ marshal_meta (MetaReq true) = Some b' /\
  node_run (fun _ => None) (fun _ => true) (CallSend 6 "rubbish" :: up_with_one) (new_store 3) = Some s /\
  spread 3 (brought_all (fun _ => true) (CallSend 6 "rubbish" :: up_with_one)) /\
  Forall (fun c => ~ no_batch c /\ ~ odd_type c) (CallSend 6 "rubbish" :: up_with_one) /\
  distinct_times (sent_for (fun _ => true) "a" (CallSend 6 "rubbish" :: up_with_one)) /\
  node_call (fun _ => None) (fun _ => true) (CallRead 8 b) s = Some (s', Some out) /\ unmarshal_read_response out = Some (Some [one_log]) /\
  node_call (fun _ => None) (fun _ => true) (CallMeta b') s = Some (s, Some out').
Proof.
  destruct (marshal_read (mk_rr "a" 0 9 10 [] false "")) as [b|] eqn:E; [|by vm_compute in E].
  destruct (marshal_meta (MetaReq true)) as [b'|] eqn:E'; [|by vm_compute in E'].
  destruct (node_run (fun _ => None) (fun _ => true) (CallSend 6 "rubbish" :: up_with_one) (new_store 3)) as [s|] eqn:Er; [|by vm_compute in Er].
  destruct (node_call (fun _ => None) (fun _ => true) (CallRead 8 b) s) as [[s' [out|]]|] eqn:Ec.
  2,3: vm_compute in E; injection E as <-; vm_compute in Er; injection Er as <-; by vm_compute in Ec.
  destruct (node_call (fun _ => None) (fun _ => true) (CallMeta b') s) as [[s2 [out'|]]|] eqn:Em.
  2,3: vm_compute in E'; injection E' as <-; vm_compute in Er; injection Er as <-; by vm_compute in Em.
  exists b, b', s, s', out, out'. split; [done|]. split; [done|]. split; [done|]. split; [by left|]. split; [|split; [|split; [done|split]]].
  - repeat constructor.
    1,3: intros (now & x & [= <- <-] & H); by vm_compute in H.
    all: by intros (now & x & r & n & ? & _).
  - replace (sent_for (fun _ => true) "a" (CallSend 6 "rubbish" :: up_with_one)) with [one_log] by (by vm_compute).
    split; [by repeat constructor|]. apply NoDup_singleton.
  - vm_compute in E; injection E as <-; vm_compute in Er; injection Er as <-; vm_compute in Ec; injection Ec as <- <-. by vm_compute.
  - rewrite Em. cbn [node_call] in Em. unfold node_meta in Em. destruct (unmarshal_meta b'); injection Em as <- Hm; done.
Qed.
