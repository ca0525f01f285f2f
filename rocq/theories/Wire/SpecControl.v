(** Vocabulary: what was asked of a node's orchestration service. *)
From Coq Require Import Ascii String.
From stdpp Require Import prelude strings list gmap.
From Verif.Base Require Import Envelope.
From Verif.Routing Require Import Model Spec.
From Verif.Scheduler Require Import Model.
From Verif.Wire Require Import Format Model Spec Control.
Open Scope Z_scope.

(** the additions and removals among the calls; bytes that are no request ask for nothing *)
Definition asks (c : control) : list orch_op :=
  match c with
  | CallAdd b => match unmarshal_range b with Some x => [AddRange x] | None => [] end
  | CallRemove b => match unmarshal_range b with Some x => [RemoveRange x] | None => [] end
  | _ => []
  end.
Definition asked (tr : list (control * reply)) : list orch_op := tr ≫= fun ca => asks ca.1.
(** A request that can be decoded says which range, and a table says which ranges each address has. *)
Definition complete (nils : bool) (c : control) : Prop :=
  match c with
  | CallAdd b | CallRemove b => unmarshal_range b <> Some None
  | CallSet b => forall m a, unmarshal_assignment nils b = Some m -> m !! a <> Some None
  | CallList _ | Encode _ => True
  end.
Definition removes (c : control) : Prop := match c with CallRemove _ => True | _ => False end.
(** a range that some AddRange brought *)
Definition added (tr : list (control * reply)) (r : range) : Prop := AddRange (Some r) ∈ asked tr.

(** The bytes the scheduler sends for a request (scheduler.go:162-174, 205-268). *)
Definition request_bytes (q : request) : option control :=
  match q with
  | RqList => Some (CallList EmptyString)
  | RqAdd r => CallAdd <$> marshal_range (Some r)
  | RqRemove r => CallRemove <$> marshal_range (Some r)
  | RqSet m => CallSet <$> marshal_table m
  end.
Definition call_bytes (c : control) : string :=
  match c with CallAdd b | CallRemove b | CallList b | CallSet b => b | Encode _ => EmptyString end.
(** the node as the scheduler sees it *)
Definition seen (s : agent) : list (option range) * list rinfo :=
  (slice_read (o_mem (ag_orch s)) (list_ranges (ag_orch s)), ag_table s).
(** the ranges of a request are pairs of 64-bit numbers *)
Definition sized_request (q : request) : Prop :=
  match q with RqList => True | RqAdd r | RqRemove r => sized_range r | RqSet m => forall k rs, m !! k = Some rs -> Forall sized_range rs end.
