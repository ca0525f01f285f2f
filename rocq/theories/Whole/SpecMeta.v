(** Vocabulary for what a running cluster says about its sources. *)
From stdpp Require Import prelude gmap strings list.
From Verif.Base Require Import GoInt Envelope.
From Verif.Store Require Import Model Spec.
From Verif.Routing Require Import Model.
From Verif.Whole Require Import Model SpecFull.
Open Scope Z_scope.

(** [mi] is true of source [src] at node k after these events: so many are held, the oldest is the first of them, none is
    newer than the newest, which has arrived, and no more are held or gone than have arrived; exactly these if node k was not
    pruned since it started.  (Pruning may make a node forget a source; its numbers start again from nothing.) *)
Definition describes (ms : list Z) (k : nat) (src : string) (tr : list event) (mi : meta_info) : Prop :=
  ∃ l, holds ms k src tr l ∧
    m_count mi = Z.of_nat (length l) ∧ (∃ e l', l = e :: l' ∧ m_oldest mi = e_ts e) ∧
    Forall (fun e => e_ts e <= m_newest mi) l ∧
    m_newest mi <= newest_of (arrived k src (life k tr)) ∧
    m_count mi + m_expired mi <= Z.of_nat (length (arrived k src (life k tr))) ∧
    ((∀ n pri, VPrune k n pri ∉ life k tr) ->
       m_newest mi = newest_of (arrived k src (life k tr)) ∧
       m_count mi + m_expired mi = Z.of_nat (length (arrived k src (life k tr)))).

(** What the nodes answer when asked for their sources: each that answers does so from its store as it was at some moment,
    that is after some of the events. *)
Definition asked_nodes (hash : string -> Z) (compile : string -> option (string -> bool)) (ms : list Z) (tr : list event)
    (answers : list (option (gmap string meta_info))) : Prop :=
  ∀ k a, answers !! k = Some (Some a) ->
    ∃ pre post c nd, tr = pre ++ post ∧ runs hash compile (start ms) pre c ∧ c_nodes c !! k = Some nd ∧ a = meta (n_store nd).
