(** The Go client that is given a gRPC connection, and the node that answers it: a unary call sends one message and gets one
    back, or an error.  (grpc-go is not modelled further: any error of the connection, of a codec or of the peer is [None].) *)
From Coq Require Import Ascii String.
From stdpp Require Import prelude strings list gmap.
From Verif.Base Require Import Envelope.
From Verif.Routing Require Import Model.
From Verif.Marshaler Require Import Model.
From Verif.Gateway Require Import Model.
From Verif.Http Require Import Model.
From Verif.Wire Require Import Format Model Result.
Open Scope Z_scope.

(** How a call of the client ends: it returns a value or an error, or its goroutine panics *)
Inductive ended (A : Type) := Got (a : A) | Failed | Crashed.
Arguments Got {A} _.
Arguments Failed {A}.
Arguments Crashed {A}.

(** pkg/rpc/logcache_v1/*.pb.go, the generated clients (cc.Invoke): the request is encoded, the peer answers, the answer is
    decoded *)
Definition unary {A} (req : option string) (peer : string -> option string) (dec : string -> option A) : option A :=
  b ← req; b' ← peer b; dec b'.

(** client.go:200-239 grpcRead: resp.Envelopes.Batch, where Envelopes may be nil *)
Definition client_read (peer : string -> option string) (source : string) (start : Z) (opts : list option_) : ended (list envelope) :=
  match unary (marshal_read (grpc_read source start opts)) peer unmarshal_read_response with
  | None => Failed
  | Some None => Crashed
  | Some (Some es) => Got es
  end.
(** client.go:282-289 grpcMeta *)
Definition client_meta (peer : string -> option string) : ended (gmap string meta_info) :=
  match unary (marshal_meta (MetaReq false)) peer unmarshal_meta_response with None => Failed | Some m => Got m end.
(** client.go:618-639 grpcPromQL, :477-506 grpcPromQLRange *)
Definition client_instant (D : codec) (L : lib) (of_bits : Z -> flt L) (peer : string -> option string) (query : string)
    (opts : list promql_option) : ended (query_result L) :=
  match unary (marshal_instant (grpc_instant D query opts)) peer (unmarshal_result L of_bits) with None => Failed | Some r => Got r end.
Definition client_range (D : codec) (L : lib) (of_bits : Z -> flt L) (peer : string -> option string) (query : string)
    (opts : list promql_option) : ended (query_result L) :=
  match unary (marshal_range_query (grpc_range D query opts)) peer (unmarshal_range_result L of_bits) with None => Failed | Some r => Got r end.

(** A node: the generated handlers decode the request, call the service and encode what it returns.
    local_store_reader.go:91-95: Envelopes is always set in the answer to a read. *)
Definition serve_read (h : read_request -> option (list envelope)) (b : string) : option string :=
  r ← unmarshal_read b; es ← h r; marshal_read_response (Some es).
Definition serve_meta (h : meta_request -> option (gmap string meta_info)) (b : string) : option string :=
  r ← unmarshal_meta b; m ← h r; marshal_meta_response m.
Definition serve_instant (L : lib) (bits : flt L -> Z) (of_bits : Z -> flt L) (h : instant_request -> option Query.Model.result)
    (b : string) : option string :=
  r ← unmarshal_instant b; q ← h r; marshal_result L bits (Some (message_of L of_bits q)).
(** a range query is answered with a matrix, in a PromQL_RangeQueryResult (promql.go:229-275) *)
Definition serve_range (L : lib) (bits : flt L -> Z) (of_bits : Z -> flt L) (h : range_request -> option Query.Model.result)
    (b : string) : option string :=
  r ← unmarshal_range_query b; q ← h r;
  match message_of L of_bits q with RMatrix m => marshal_range_result L bits m | _ => None end.
