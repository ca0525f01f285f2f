(** Reads answered by the local store. *)
From stdpp Require Import prelude gmap strings list.
From Verif.Base Require Import GoInt Envelope.
From Verif.Store Require Import Model Spec ProofsAcct ProofsGet.
From Verif.Routing Require Import Model Spec ProofsProxy.
Open Scope Z_scope.

Lemma read_types_sound compile now rq s es :
  local_read compile now rq s = ReadOk es -> ∀ e, e ∈ es -> requested_type (rr_types rq) e.
Proof.
  unfold local_read. destruct (to_query compile now rq) as [q|] eqn:Eq; [|done].
  destruct (get_env (rr_source rq) q s) as [res|] eqn:Eg; [|done]. intros [= <-] e He.
  destruct (get_sound _ _ _ _ Eg) as (sub & _ & HF).
  apply (to_query_types compile now rq q e Eq).
  apply elem_of_list_lookup in He as [i Hi].
  destruct (Forall2_lookup_r _ _ _ _ _ HF Hi) as (p & _ & (_ & _ & Hw)). done.
Qed.
Lemma read_exact compile now rq m ops s es :
  1 <= m -> run (new_store m) ops = Some s ->
  (∀ x, Forall (fun e => in64 (e_ts e)) (puts_to x ops)) ->
  (∀ x, NoDup (e_ts <$> puts_to x ops)) ->
  enum_types (rr_types rq) -> local_read compile now rq s = ReadOk es ->
  ∃ q all, resolved compile now rq q ∧
    (∀ e, wanted_type (q_types q) e ↔ requested_type (rr_types rq) e) ∧
    answers q (if q_desc q then reverse (stored s (rr_source rq)).*2 else (stored s (rr_source rq)).*2) all ∧
    es = take (Z.to_nat (q_limit q)) all.
Proof.
  intros Hm Hrun H1 H2 Hen Hread.
  pose proof (to_query_spec compile now rq) as HS. unfold local_read in Hread.
  destruct (to_query compile now rq) as [q|] eqn:Eq; [|done].
  destruct (get_env (rr_source rq) q s) as [res|] eqn:Eg; [|done]. injection Hread as <-.
  destruct HS as (_ & Hr & Hl & Ht).
  destruct (get_exact_answers m ops s (rr_source rq) q res Hm Hrun H1 H2) as (all & Ha & ->); [|lia|done|].
  - rewrite Ht. unfold known_types.
    destruct (filter _ _) as [|t0 ts] eqn:Ef; [done|]. apply Forall_forall. intros t Hin n.
    apply Hen. rewrite <-Ef in Hin. by apply elem_of_list_filter in Hin as [_ ?].
  - exists q, all. split; [done|]. split; [intros e; by apply (to_query_types compile now)|]. done.
Qed.
