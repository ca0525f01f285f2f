(** Vocabulary: what the bytes of a cluster stand for. *)
From Coq Require Import Ascii String.
From stdpp Require Import prelude strings list gmap.
From Verif.Base Require Import Envelope.
From Verif.Routing Require Import Model.
From Verif.Whole Require Import Model SpecFull.
From Verif.Wire Require Import Format Model Frame SpecFrame Cluster.
Open Scope Z_scope.

(** The message that a Send of a client brings, if it is one and not too large *)
Definition said (b : string) : option send_request := if decide (takes b) then unmarshal_send b else None.

(** What happens to the cluster of messages when this happens to the cluster of bytes *)
Definition message_of (ev : bevent) : list event :=
  match ev with
  | BSend i b => match said b with Some r => [VSend i r] | None => [] end
  | BKeep j es | BPass j es => [VArrive j es]
  | BDrop j e => [VLose j e]
  | BTable i _ t => [VTable i t]
  | BPrune i n pri => [VPrune i n pri]
  | BRestart i m => [VRestart i m]
  | BServe _ k rq now a => [VRead k rq now a]
  | BAsk _ _ _ | BHop _ | BFail _ | BBack _ | BGive _ _ => []
  end.
Definition messages (tr : list bevent) : list event := tr ≫= message_of.

(** Where the n-th call begins: no later call has this number *)
Definition no_ask (n : nat) (mid : list bevent) : Prop := forall i b, BAsk n i b ∉ mid.
(** The nodes i and k know when the client asks that k has the source, and they go on knowing it *)
Definition steady (hash : string -> Z) (k i : nat) (src : string) (pre mid : list bevent) : Prop :=
  forall j, j = i \/ j = k ->
    lookup (hash src) (table_of j (messages pre)) = [k] /\ (forall b t, BTable j b t ∉ mid) /\ (forall m, BRestart j m ∉ mid).
