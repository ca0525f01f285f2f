(** Lemmas about the walking data reader. *)
From stdpp Require Import prelude gmap strings list.
From Verif.Base Require Import GoInt Envelope.
From Verif.Client Require Import Walk WalkSpec WalkProofs WalkProofs2.
From Verif.Promql Require Import Model Spec.
From Verif.Props Require Import ClientProps.
Open Scope Z_scope.

(** without failed reads a retry-on-error back-off gives up at the first empty answer *)
Lemma walk_loop_no_error m c reader visitor n : forall i b start re del,
  (forall i start, not_after_end c start -> is_Some (a_batch (reader i (read_of c start)))) ->
  not_after_end c start ->
  walk_loop (retry_backoff m true) c reader visitor n i b start re del =
  walk_loop always_done c reader visitor n i () start re del.
Proof.
  induction n as [|n IH]; intros i b start re del Hok Hs; [done|]. cbn [walk_loop].
  destruct (Hok i start Hs) as [es0 Ees]. rewrite Ees.
  set (es := usable c re _ es0). destruct (last es) as [l|]; [|done].
  cbn [b_reset retry_backoff always_done].
  destruct (negb (visitor del es)); [done|].
  destruct (match w_end c with Some t => t <=? wrap64 (e_ts l + 1) | None => false end) eqn:E; [done|].
  rewrite (IH _ _ (wrap64 (e_ts l + 1))); [done|done|].
  unfold not_after_end. destruct (w_end c) as [t|]; [|done]. apply Z.leb_gt in E. lia.
Qed.

Lemma walking_read_complete reader start stop limit types content horizon clock n :
  let c := walking_config start stop limit types in
  ascending content -> Forall sane_time content -> start <= stop ->
  serves c content horizon clock reader ->
  (forall i e, e ∈ filter (in_window c) content -> e_ts e <= wrap64 (clock i - 1000000000)) ->
  (length (filter (in_window c) content) < n)%nat ->
  walking_read reader start stop limit types false n = Some (filter (in_window c) content).
Proof.
  intros c H1 H2 H3 H4 H5 H6. unfold walking_read. f_equal. fold c. unfold walk.
  rewrite walk_loop_no_error; [|intros i s Hs; destruct (H4 i s Hs) as (_ & k & _ & ->); eauto|exact H3].
  apply (walk_complete c reader content horizon clock n H1 H2 H3 H4); [|exact H6].
  intros i e He. split; [by eapply H5|done].
Qed.
