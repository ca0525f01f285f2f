(** A node on its own behind its gRPC port: requests are bytes, whoever wrote them, and so are its answers. *)
From Coq Require Import Ascii String.
From stdpp Require Import prelude strings list gmap.
From Verif.Base Require Import Envelope.
From Verif.Store Require Import Model.
From Verif.Routing Require Import Model.
From Verif.Http Require Import Model.
From Verif.Wire Require Import Format Model.
Open Scope Z_scope.

(** What reaches the node.  [now] is its clock at that time; [Tick] is a round of the truncation loop for which n envelopes are to go
    (store.go:166-179). *)
Inductive call :=
| CallSend (now : Z) (b : string)
| CallRead (now : Z) (b : string)
| CallMeta (b : string)
| Tick (now : Z) (n : Z) (pri : list string).

(** routing_table.go:44-60 Lookup when the cluster is this node alone: [mine] says which source ids fall into its ranges *)
Definition alone (mine : string -> bool) (src : string) : list nat := if mine src then [0%nat] else [].

(** pkg/rpc/logcache_v1/ingress_grpc.pb.go _Ingress_Send_Handler: what cannot be decoded is refused, the rest goes to
    ingress_reverse_proxy.go:41-69, whose only client is the local one (log_cache.go:220-226); SendResponse has no fields.
    None: the process panics (no interceptor of the server recovers, log_cache.go:247). *)
Definition node_send (mine : string -> bool) (now : Z) (b : string) (s : store) : option (store * option string) :=
  match unmarshal_send b with
  | None => Some (s, None)
  | Some r =>
      calls ← send_with (alone mine) 1 0 r (map_to_list (envelopes_by_node (alone mine) (get_batch r)));
      ns ← deliver now calls [mk_node [] s];
      n ← ns !! 0%nat;
      Some (n_store n, Some "")
  end.
(** egress_grpc.pb.go _Egress_Read_Handler, egress_reverse_proxy.go:46-69, local_store_reader.go:46-98; the store counts what it
    gives out (store.go:320) *)
Definition node_read (compile : string -> option (string -> bool)) (mine : string -> bool) (now : Z) (b : string) (s : store)
  : option (store * option string) :=
  match unmarshal_read b with
  | None => Some (s, None)
  | Some rq =>
      route ← read_route_of (alone mine (rr_source rq)) 1 0 0;
      match route with
      | Unavailable => Some (s, None)
      | CallNode _ =>
          match local_read compile now rq s with
          | ReadPanic => None
          | ReadError => Some (s, None)
          | ReadOk es => Some (add_egress (Z.of_nat (length es)) s, marshal_read_response (Some es))
          end
      end
  end.
(** local_store_reader.go:100-115 Meta: MetaInfo is passed on as it is (the proxy's cache of the answer is left to Routing.Model) *)
Definition to_info (i : Store.Model.meta_info) : Http.Model.meta_info := MetaInfo (m_count i) (m_expired i) (m_oldest i) (m_newest i).
Definition node_meta (b : string) (s : store) : option (store * option string) :=
  match unmarshal_meta b with
  | None => Some (s, None)
  | Some _ => Some (s, marshal_meta_response (to_info <$> Store.Model.meta s))
  end.

(** one call: the store afterwards, and the answer, None for an error; None altogether: the node is gone *)
Definition node_call (compile : string -> option (string -> bool)) (mine : string -> bool) (c : call) (s : store)
  : option (store * option string) :=
  match c with
  | CallSend now b => node_send mine now b s
  | CallRead now b => node_read compile mine now b s
  | CallMeta b => node_meta b s
  | Tick now n pri => s' ← truncate n pri now s; Some (s', None)
  end.
Fixpoint node_run (compile : string -> option (string -> bool)) (mine : string -> bool) (cs : list call) (s : store) : option store :=
  match cs with
  | [] => Some s
  | c :: cs' => '(s', _) ← node_call compile mine c s; node_run compile mine cs' s'
  end.
