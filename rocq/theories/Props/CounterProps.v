(** C157: the metrics of a node account for its history. *)
From stdpp Require Import prelude gmap strings.
From Verif.Base Require Import GoInt Envelope.
From Verif.Store Require Import Model.
From Verif.StoreConc Require Import Model Spec Witness Metrics SpecMetrics ProofsMetrics WitnessMetrics.
Open Scope Z_scope.

(** The ingress counter, whatever the interleaving: at every moment it is the number of Puts that have begun,
    and when all calls have returned, the number of Puts made. *)
Theorem C157_ingress : ∀ m ls c,
  crun (initial m) ls = Some c ->
  (¬ crashed c -> sh_ingress (cf_sh c) = Z.of_nat (length (filter (fun th => put_begun th = true) (cf_threads c)))) ∧
  (quiescent c -> sh_ingress (cf_sh c) = Z.of_nat (length (puts_called ls))).
Proof. intros m ls c H. split; [by eapply ingress_any|by eapply ingress_quiescent]. Qed.
Print Assumptions C157_ingress.

(** ... and the books balance: what came in is stored or was counted as expired. *)
Theorem C157_balance : ∀ m ls c,
  1 <= m -> spread m ls -> crun (initial m) ls = Some c -> quiescent c ->
  sh_ingress (cf_sh c) = Z.of_nat (length (all_held c)) + sh_expired (cf_sh c).
Proof. exact ingress_balance. Qed.
Print Assumptions C157_balance.

(** The egress counter: at every moment the number of envelopes that Gets have given to their callers. *)
Theorem C157_egress : ∀ m ls c,
  mrun (minitial m) ls = Some c -> mc_egress c = Z.of_nat (length (given_out (mc_cfg c))).
Proof. exact egress_any. Qed.
Print Assumptions C157_egress.

(** The size gauge (refuted): two Puts have returned, two envelopes are stored and can be read, nothing is under way,
    and the gauge says one.  Reading does not correct it. *)
Theorem C157_size_refuted : ∃ m ls c,
  1 <= m ∧ spread m (store_labels ls) ∧ truncation_free (store_labels ls) ∧ mrun (minitial m) ls = Some c ∧ at_rest c ∧
  length (puts_called (store_labels ls)) = 2%nat ∧ length (all_visible (mc_cfg c)) = 2%nat ∧ sh_count (cf_sh (mc_cfg c)) = 2 ∧
  mc_size c = 1.
Proof.
  assert (Hq : match mrun (minitial 10) late_read with
    | None => false
    | Some c => forallb (fun th => finished th) (cf_threads (mc_cfg c)) && (size (mc_pend c) =? 0)%nat &&
        (length (all_visible (mc_cfg c)) =? 2)%nat && (sh_count (cf_sh (mc_cfg c)) =? 2) && (mc_size c =? 1)
    end = true) by (by vm_compute).
  destruct (mrun (minitial 10) late_read) as [c|] eqn:E; [|discriminate Hq].
  exists 10, late_read, c. split; [done|]. split; [by left|].
  assert (Ht : forallb (fun l => match l with LCall CTruncate => false | _ => true end) (store_labels late_read) = true) by (by vm_compute).
  split; [intros Hin; rewrite forallb_forall in Ht; by specialize (Ht _ (proj1 (elem_of_list_In _ _) Hin))|].
  split; [done|]. repeat (apply andb_prop in Hq as [Hq ?]).
  repeat match goal with H : (_ =? _)%nat = true |- _ => apply Nat.eqb_eq in H | H : (_ =? _)%Z = true |- _ => apply Z.eqb_eq in H end.
  split.
  { split; [|by apply map_size_empty_iff]. intros th Hin. rewrite forallb_forall in Hq. apply Hq. by apply elem_of_list_In. }
  split; [by vm_compute|]. clear E Ht Hq. split; [exact H1|]. split; [exact H0|exact H].
Qed.
Print Assumptions C157_size_refuted.

(** What does hold: when gauge updates do not overlap with other changes of the number stored, the gauge is exact
    whenever no call is under way; and even when they do, it never shows a number that was not once right. *)
Theorem C157_size_partial : ∀ m ls c,
  1 <= m -> spread m (store_labels ls) -> mrun (minitial m) ls = Some c ->
  (one_at_a_time m ls -> at_rest c -> mc_size c = wrap64 (Z.of_nat (length (all_held (mc_cfg c))))) ∧
  (∃ l1 l2 c1, ls = l1 ++ l2 ∧ mrun (minitial m) l1 = Some c1 ∧ mc_size c = sh_count (cf_sh (mc_cfg c1))).
Proof. intros m ls c Hm Hsp H. split; [intros; by eapply gauge_exact|by eapply gauge_past]. Qed.
Print Assumptions C157_size_partial.

(** Met by: the schedule [tidy] (Puts, a Get and a Meta interleaved with a truncation), each gauge update finished at
    once: four Puts, three envelopes given out, two expired, two stored and the gauge says two. *)
Example C157_case : ∃ c, let ls := promptly (minitial 10) tidy in
  spread 10 (store_labels ls) ∧ one_at_a_time 10 ls ∧ mrun (minitial 10) ls = Some c ∧ at_rest c ∧
  store_labels ls = tidy ∧ sh_ingress (cf_sh (mc_cfg c)) = 4 ∧ sh_expired (cf_sh (mc_cfg c)) = 2 ∧ mc_size c = 2 ∧
  0 < mc_egress c.
Proof.
  assert (Hq : match mrun (minitial 10) (promptly (minitial 10) tidy) with
    | None => false
    | Some c => forallb (fun th => finished th) (cf_threads (mc_cfg c)) && (size (mc_pend c) =? 0)%nat &&
        (sh_ingress (cf_sh (mc_cfg c)) =? 4) && (sh_expired (cf_sh (mc_cfg c)) =? 2) && (mc_size c =? 2) && (0 <? mc_egress c)
    end = true) by (by vm_compute).
  destruct (mrun (minitial 10) (promptly (minitial 10) tidy)) as [c|] eqn:E; [|discriminate Hq].
  exists c. cbv zeta. split; [by left|]. split; [apply aloneb_sound; by vm_compute|]. split; [exact E|].
  repeat (apply andb_prop in Hq as [Hq ?]).
  repeat match goal with H : (_ =? _)%nat = true |- _ => apply Nat.eqb_eq in H | H : (_ =? _)%Z = true |- _ => apply Z.eqb_eq in H end.
  split.
  { split; [|by apply map_size_empty_iff]. intros th Hin. rewrite forallb_forall in Hq. apply Hq. by apply elem_of_list_In. }
  split; [by vm_compute|]. clear E Hq. split; [assumption|]. split; [assumption|]. split; [assumption|]. by apply Z.ltb_lt.
Qed.
