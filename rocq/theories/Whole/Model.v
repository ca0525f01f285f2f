(** A running cluster: nodes that route and store, calls between them that take their time or are lost, tables that are
    replaced while this goes on, nodes that come back empty, and reads answered in between. *)
From stdpp Require Import prelude gmap strings list.
From Verif.Base Require Import GoInt Envelope.
From Verif.Store Require Import Model.
From Verif.Routing Require Import Model.
Open Scope Z_scope.

(** The nodes, and the envelopes handed to a client for a node which have not arrived there
    (log_cache.go:195-228).  A remote client collects envelopes of several calls into batches of its own and drops some
    when it cannot keep up (batched_ingress_client.go:52-105, see Client/Model.v), so single envelopes are on their way,
    in no order.  The local client stores at once; having its envelopes wait like all others only adds behaviours. *)
Record cluster := mk_cluster { c_nodes : list node; c_flight : list (nat * envelope) }.

(** the calls of one Send, envelope by envelope *)
Definition flights (calls : list (nat * send_request)) : list (nat * envelope) :=
  c ← calls; pair c.1 <$> get_batch c.2.

Inductive event :=
| VSend (i : nat) (r : send_request)          (* a client calls Send on node i *)
| VArrive (j : nat) (es : list envelope)      (* these arrive at node j, which stores them *)
| VLose (j : nat) (e : envelope)              (* this one never arrives *)
| VTable (i : nat) (t : list rinfo)           (* SetRanges: node i routes by this table from now on *)
| VPrune (i : nat) (n : Z) (pri : list string)(* a tick of node i's truncation loop *)
| VRestart (i : nat) (m : Z)                  (* node i comes back with an empty store and no table *)
| VRead (k : nat) (rq : read_request) (now : Z) (a : read_outcome). (* node k answers a read from its store *)

(** One step.  [hash] is crc64 of the source id, [compile] is regexp.Compile. *)
Inductive step (hash : string -> Z) (compile : string -> option (string -> bool)) : cluster -> event -> cluster -> Prop :=
(** ingress_reverse_proxy.go:41-69 Send *)
| step_send i r calls nd ns fl :
    ns !! i = Some nd ->
    send_calls (fun src => lookup (hash src) (n_table nd)) (length ns) i r (Some calls) ->
    step hash compile (mk_cluster ns fl) (VSend i r) (mk_cluster ns (flights calls ++ fl))
(** log_cache.go:220-226: every envelope is stored under its own source id *)
| step_arrive j es now nd s ns fl fl' :
    ns !! j = Some nd -> fl ≡ₚ (pair j <$> es) ++ fl' -> put_all now es (n_store nd) = Some s ->
    step hash compile (mk_cluster ns fl) (VArrive j es) (mk_cluster (<[j := mk_node (n_table nd) s]> ns) fl')
(** batched_ingress_client.go:52-105: overflow, or the call fails *)
| step_lose j e ns fl fl' :
    fl ≡ₚ (j, e) :: fl' -> step hash compile (mk_cluster ns fl) (VLose j e) (mk_cluster ns fl')
(** orchestrator.go:68-79, routing_table.go:77-97: any table *)
| step_table i t nd ns fl :
    ns !! i = Some nd -> step hash compile (mk_cluster ns fl) (VTable i t) (mk_cluster (<[i := mk_node t (n_store nd)]> ns) fl)
(** store.go:166-179 *)
| step_prune i n pri now nd s ns fl :
    ns !! i = Some nd -> truncate n pri now (n_store nd) = Some s ->
    step hash compile (mk_cluster ns fl) (VPrune i n pri) (mk_cluster (<[i := mk_node (n_table nd) s]> ns) fl)
(** log_cache.go:165-252: nothing survives in the process; what is on its way to it may still arrive *)
| step_restart i m nd ns fl :
    ns !! i = Some nd -> 1 <= m ->
    step hash compile (mk_cluster ns fl) (VRestart i m) (mk_cluster (<[i := mk_node [] (new_store m)]> ns) fl)
(** local_store_reader.go:46-98, wherever the request came in and however it was forwarded; the answer is counted
    (store.go Get) *)
| step_read k rq now nd ns fl :
    ns !! k = Some nd ->
    step hash compile (mk_cluster ns fl) (VRead k rq now (local_read compile now rq (n_store nd)))
      (mk_cluster (<[k := mk_node (n_table nd)
                          (match local_read compile now rq (n_store nd) with
                           | ReadOk es => add_egress (Z.of_nat (length es)) (n_store nd) | _ => n_store nd end)]> ns) fl).

Inductive runs (hash : string -> Z) (compile : string -> option (string -> bool)) (c : cluster)
  : list event -> cluster -> Prop :=
| runs_nil : runs hash compile c [] c
| runs_snoc tr c1 ev c2 : runs hash compile c tr c1 -> step hash compile c1 ev c2 -> runs hash compile c (tr ++ [ev]) c2.

(** log_cache.go:165-252: nodes start empty and without a table; [ms] are their stores' bounds per source *)
Definition start (ms : list Z) : cluster := mk_cluster ((fun m => mk_node [] (new_store m)) <$> ms) [].
