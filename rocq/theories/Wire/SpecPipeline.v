(** Vocabulary for the way of an envelope from a sender to a client of the gateway. *)
From Coq Require Import Ascii String.
From stdpp Require Import prelude strings list gmap.
From Verif.Base Require Import Envelope.
From Verif.Store Require Import Model.
From Verif.Routing Require Import Model Spec.
From Verif.Http Require Import Model.
From Verif.Wire Require Import Format Model Node SpecNode Frame SpecFrame.
Open Scope Z_scope.

(** [collected mine src cs es]: among the calls of a node's port are those of a sender that sends es, in batches; the others bring nothing of
    this source, and no round of truncation takes anything. *)
Inductive collected (mine : string -> bool) (src : string) : list call -> list envelope -> Prop :=
| col_end : collected mine src [] []
| col_batch now lo batch b cs es : marshal_send (mk_send lo (Some batch)) = Some b -> takes b -> collected mine src cs es ->
    collected mine src (CallSend now b :: cs) (batch ++ es)
| col_other c cs es : (forall now n pri, c <> Tick now n pri) -> of_source src (brought mine c) = [] -> collected mine src cs es ->
    collected mine src (c :: cs) es.

(** The backend of a gateway that has a connection to a node: what it makes of a read *)
Inductive from_node (compile : string -> option (string -> bool)) (mine : string -> bool) (s : store) (now : Z) (rq : read_request)
  : outcome (list envelope) -> Prop :=
| node_gives b s' b' batch : marshal_read rq = Some b -> port_call compile mine (CallRead now b) s = Some (s', Some b') ->
    unmarshal_read_response b' = Some batch -> from_node compile mine s now rq (Done (default [] batch))
| node_garbles b s' b' code msg : marshal_read rq = Some b -> port_call compile mine (CallRead now b) s = Some (s', Some b') ->
    unmarshal_read_response b' = None -> from_node compile mine s now rq (Failed code msg)
| node_refuses b s' code msg : marshal_read rq = Some b -> port_call compile mine (CallRead now b) s = Some (s', None) ->
    from_node compile mine s now rq (Failed code msg)
| node_gone b code msg : marshal_read rq = Some b -> port_call compile mine (CallRead now b) s = None ->
    from_node compile mine s now rq (Failed code msg)
| not_asked code msg : marshal_read rq = None -> from_node compile mine s now rq (Failed code msg).

(** The answer to a read is more than a connection takes *)
Definition too_large (l : list envelope) : Prop := forall b, marshal_read_response (Some l) = Some b -> ~ takes b.
