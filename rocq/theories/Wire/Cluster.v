(** A running cluster whose nodes talk in bytes: what a client or another node sends is a gRPC message of at most the size
    that the receiver takes, is decoded there, and what a node passes on it encodes again.  Whole/Model.v has the same
    cluster with messages in place of bytes. *)
From Coq Require Import Ascii String.
From stdpp Require Import prelude strings list gmap.
From Verif.Base Require Import GoInt Envelope.
From Verif.Store Require Import Model.
From Verif.Routing Require Import Model.
From Verif.Whole Require Import Model.
From Verif.Wire Require Import Format Model Frame Control.
Open Scope Z_scope.

(** A read that was begun and not yet answered.  [Asked path i b]: the bytes b are sent to node i; [Replied path a]: a is sent
    back, None for an error.  [path]: the nodes that wait for the answer, the last one asked first; when it is empty the
    client waits. *)
Inductive rcall := Asked (path : list nat) (i : nat) (b : string) | Replied (path : list nat) (a : option string).

(** the nodes with what is on its way between them, and the reads that are under way *)
Record bcluster := mk_b { b_cluster : cluster; b_calls : gmap nat rcall }.

Inductive bevent :=
| BSend (i : nat) (b : string)               (* these bytes of a client's Send are sent to node i *)
| BKeep (j : nat) (es : list envelope)       (* node j's client for itself stores these *)
| BPass (j : nat) (es : list envelope)       (* a node's client for node j sends it these *)
| BDrop (j : nat) (e : envelope)             (* this one never arrives at node j *)
| BTable (i : nat) (b : string) (t : list rinfo) (* bytes of a SetRanges reach node i, which routes by t from now on *)
| BPrune (i : nat) (n : Z) (pri : list string)
| BRestart (i : nat) (m : Z)
| BAsk (n : nat) (i : nat) (b : string)      (* a client's read, the n-th call, is sent to node i *)
| BHop (n : nat)                             (* a node passes it on *)
| BServe (n : nat) (k : nat) (rq : read_request) (now : Z) (a : read_outcome) (* node k answers it from its store *)
| BFail (n : nat)                            (* it goes wrong where it is *)
| BBack (n : nat)                            (* a node that waited passes the answer back *)
| BGive (n : nat) (a : option string).       (* the client has its answer, None for an error *)

(** One step.  [hash] is crc64 of the source id, [compile] is regexp.Compile, [addrs] are the configured node addresses; [grow] and
    [nils] as in Wire/Control.v.  A node that panics is one that restarts. *)
Inductive bstep (grow : nat -> nat) (nils : bool) (addrs : list string) (hash : string -> Z) (compile : string -> option (string -> bool))
  : bcluster -> bevent -> bcluster -> Prop :=
(** ingress_grpc.pb.go _Ingress_Send_Handler, ingress_reverse_proxy.go:41-69 *)
| b_send i b b' r calls nd ns fl cs :
    carried b = Some b' -> unmarshal_send b' = Some r -> ns !! i = Some nd ->
    send_calls (fun src => lookup (hash src) (n_table nd)) (length ns) i r (Some calls) ->
    bstep grow nils addrs hash compile (mk_b (mk_cluster ns fl) cs) (BSend i b) (mk_b (mk_cluster ns (flights calls ++ fl)) cs)
| b_send_refused i b c cs :
    carried b ≫= unmarshal_send = None -> bstep grow nils addrs hash compile (mk_b c cs) (BSend i b) (mk_b c cs)
(** log_cache.go:219-225: the client a node has for itself stores without a connection; which node handed an envelope over is not
    recorded, so that others may be stored this way too *)
| b_keep j es now nd s ns fl fl' cs :
    ns !! j = Some nd -> fl ≡ₚ (pair j <$> es) ++ fl' -> put_all now es (n_store nd) = Some s ->
    bstep grow nils addrs hash compile (mk_b (mk_cluster ns fl) cs) (BKeep j es) (mk_b (mk_cluster (<[j := mk_node (n_table nd) s]> ns) fl') cs)
(** batched_ingress_client.go:80-96 write; the node it reaches has Send called with what it decodes, and is its own client *)
| b_pass j es b b' r calls now nd ns ns' fl fl' cs :
    fl ≡ₚ (pair j <$> es) ++ fl' -> marshal_send (mk_send true (Some es)) = Some b -> carried b = Some b' -> unmarshal_send b' = Some r ->
    ns !! j = Some nd -> send_calls (fun src => lookup (hash src) (n_table nd)) (length ns) j r (Some calls) ->
    deliver now calls ns = Some ns' ->
    bstep grow nils addrs hash compile (mk_b (mk_cluster ns fl) cs) (BPass j es) (mk_b (mk_cluster ns' fl') cs)
(** batched_ingress_client.go:52-105: overflow, a batch that is too large or cannot be encoded, or the call fails *)
| b_drop j e ns fl fl' cs :
    fl ≡ₚ (j, e) :: fl' -> bstep grow nils addrs hash compile (mk_b (mk_cluster ns fl) cs) (BDrop j e) (mk_b (mk_cluster ns fl') cs)
(** orchestration.pb.go _Orchestration_SetRanges_Handler, orchestrator.go:68-79, routing_table.go:77-97 *)
| b_table i b b' t o l nd ns fl cs :
    ns !! i = Some nd -> carried b = Some b' ->
    control_call grow nils addrs (CallSet b') (mk_agent o (n_table nd) l) (Some (mk_agent o t l, Done)) ->
    bstep grow nils addrs hash compile (mk_b (mk_cluster ns fl) cs) (BTable i b t) (mk_b (mk_cluster (<[i := mk_node t (n_store nd)]> ns) fl) cs)
(** store.go:166-179 *)
| b_prune i n pri now nd s ns fl cs :
    ns !! i = Some nd -> truncate n pri now (n_store nd) = Some s ->
    bstep grow nils addrs hash compile (mk_b (mk_cluster ns fl) cs) (BPrune i n pri) (mk_b (mk_cluster (<[i := mk_node (n_table nd) s]> ns) fl) cs)
(** log_cache.go:165-252 *)
| b_restart i m nd ns fl cs :
    ns !! i = Some nd -> 1 <= m ->
    bstep grow nils addrs hash compile (mk_b (mk_cluster ns fl) cs) (BRestart i m) (mk_b (mk_cluster (<[i := mk_node [] (new_store m)]> ns) fl) cs)
| b_ask n i b c cs :
    cs !! n = None -> bstep grow nils addrs hash compile (mk_b c cs) (BAsk n i b) (mk_b c (<[n := Asked [] i b]> cs))
(** egress_grpc.pb.go _Egress_Read_Handler, egress_reverse_proxy.go:54-65: another node has the source *)
| b_hop n path i b b' rq rnd j b2 nd ns fl cs :
    cs !! n = Some (Asked path i b) -> carried b = Some b' -> unmarshal_read b' = Some rq -> ns !! i = Some nd ->
    read_route_of (lookup (hash (rr_source rq)) (n_table nd)) (length ns) i rnd = Some (CallNode j) -> j ≠ i ->
    marshal_read rq = Some b2 ->
    bstep grow nils addrs hash compile (mk_b (mk_cluster ns fl) cs) (BHop n) (mk_b (mk_cluster ns fl) (<[n := Asked (i :: path) j b2]> cs))
(** local_store_reader.go:46-98; the answer is counted (store.go Get) *)
| b_serve n path k b b' rq rnd now nd ns fl cs :
    cs !! n = Some (Asked path k b) -> carried b = Some b' -> unmarshal_read b' = Some rq -> ns !! k = Some nd ->
    read_route_of (lookup (hash (rr_source rq)) (n_table nd)) (length ns) k rnd = Some (CallNode k) ->
    bstep grow nils addrs hash compile (mk_b (mk_cluster ns fl) cs) (BServe n k rq now (local_read compile now rq (n_store nd)))
      (mk_b (mk_cluster (<[k := mk_node (n_table nd)
                                (match local_read compile now rq (n_store nd) with
                                 | ReadOk es => add_egress (Z.of_nat (length es)) (n_store nd) | _ => n_store nd end)]> ns) fl)
            (<[n := Replied path (match local_read compile now rq (n_store nd) with
                                  | ReadOk es => marshal_read_response (Some es) | _ => None end)]> cs))
(** no route, a message that is too large or not a message, a connection that breaks, a context that ends.  That the node asked goes on
    and counts an answer which nobody gets is left out. *)
| b_fail_asked n path i b c cs :
    cs !! n = Some (Asked path i b) -> bstep grow nils addrs hash compile (mk_b c cs) (BFail n) (mk_b c (<[n := Replied path None]> cs))
| b_fail_replied n path a c cs :
    cs !! n = Some (Replied path a) -> bstep grow nils addrs hash compile (mk_b c cs) (BFail n) (mk_b c (<[n := Replied path None]> cs))
(** egress_grpc.pb.go egressClient.Read: what comes back is decoded, is what Read returns, and is encoded again *)
| b_back n i path x x' batch c cs :
    cs !! n = Some (Replied (i :: path) (Some x)) -> carried x = Some x' -> unmarshal_read_response x' = Some batch ->
    bstep grow nils addrs hash compile (mk_b c cs) (BBack n) (mk_b c (<[n := Replied path (marshal_read_response batch)]> cs))
| b_back_error n i path c cs :
    cs !! n = Some (Replied (i :: path) None) -> bstep grow nils addrs hash compile (mk_b c cs) (BBack n) (mk_b c (<[n := Replied path None]> cs))
| b_give n a c cs :
    cs !! n = Some (Replied [] a) -> bstep grow nils addrs hash compile (mk_b c cs) (BGive n (a ≫= carried)) (mk_b c (delete n cs)).

Inductive bruns (grow : nat -> nat) (nils : bool) (addrs : list string) (hash : string -> Z) (compile : string -> option (string -> bool))
    (c : bcluster) : list bevent -> bcluster -> Prop :=
| bruns_nil : bruns grow nils addrs hash compile c [] c
| bruns_snoc tr c1 ev c2 : bruns grow nils addrs hash compile c tr c1 -> bstep grow nils addrs hash compile c1 ev c2 ->
    bruns grow nils addrs hash compile c (tr ++ [ev]) c2.

(** log_cache.go:165-252 *)
Definition bstart (ms : list Z) : bcluster := mk_b (start ms) ∅.
