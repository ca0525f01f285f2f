(** Vocabulary for the way of an envelope through a cluster, from a sender of batches to a client of a gateway. *)
From Coq Require Import Ascii String.
From stdpp Require Import prelude strings list gmap.
From Verif.Base Require Import Envelope.
From Verif.Store Require Import Model.
From Verif.Routing Require Import Model Spec.
From Verif.Whole Require Import Model Spec SpecFull.
From Verif.Http Require Import Model.
From Verif.Wire Require Import Format Model Frame SpecFrame Cluster SpecCluster.
Open Scope Z_scope.

(** [gathered src tr es]: a sender sends es in batches, each to any of the nodes; what else happens brings nothing of this source *)
Inductive gathered (src : string) : list bevent -> list envelope -> Prop :=
| gat_end : gathered src [] []
| gat_batch i lo batch b tr es : marshal_send (mk_send lo (Some batch)) = Some b -> takes b -> gathered src tr es ->
    gathered src (BSend i b :: tr) (batch ++ es)
| gat_other ev tr es : sent_to src (message_of ev) = [] -> gathered src tr es -> gathered src (ev :: tr) es.

(** What was sent of a source went to node k, which has been up all the time and has had no reason to prune, and all of it is there:
    nothing was lost and nothing is on its way. *)
Record settled (hash : string -> Z) (k : nat) (src : string) (tr : list bevent) (c : bcluster) : Prop := mk_settled {
  se_routed : routed hash k src (messages tr);
  se_up : forall m, BRestart k m ∉ tr;
  se_kept : forall d pri, BPrune k d pri ∉ tr;
  se_lost : lost src (messages tr) = [];
  se_arrived : of_source src (c_flight (b_cluster c)).*2 = [] }.

(** While the n-th call is under way, which node i was asked: nothing of the source is sent, i and k know that k has it, k is up and
    does not prune, and the clock that answers show is past t0. *)
Record undisturbed (hash : string -> Z) (k i : nat) (src : string) (t0 : Z) (pre : list bevent) (n : nat) (mid : list bevent) : Prop := mk_undisturbed {
  un_once : no_ask n mid;
  un_known : steady hash k i src pre mid;
  un_up : forall m, BRestart k m ∉ mid;
  un_kept : forall d pri, BPrune k d pri ∉ mid;
  un_sent : sent_to src (messages mid) = [];
  un_clock : forall n' k' rq now a, BServe n' k' rq now a ∈ mid -> t0 < now }.

(** The backend of a gateway whose connection leads to node i: what it makes of a read *)
Inductive from_cluster (grow : nat -> nat) (nils : bool) (addrs : list string) (hash : string -> Z) (compile : string -> option (string -> bool))
    (ms : list Z) (pre : list bevent) (k i : nat) (t0 : Z) (rq : read_request) : outcome (list envelope) -> Prop :=
| cluster_gives n b mid x batch c : marshal_read rq = Some b ->
    bruns grow nils addrs hash compile (bstart ms) (pre ++ BAsk n i b :: mid ++ [BGive n (Some x)]) c ->
    undisturbed hash k i (rr_source rq) t0 pre n mid -> unmarshal_read_response x = Some batch ->
    from_cluster grow nils addrs hash compile ms pre k i t0 rq (Done (default [] batch))
| cluster_fails code msg : from_cluster grow nils addrs hash compile ms pre k i t0 rq (Failed code msg).
