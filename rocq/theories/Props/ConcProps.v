(** Properties C20-C24, C75 and C76: the store used by any number of goroutines at the same time.
    A schedule is a list of events: a call is made, or a call in progress makes a step
    (StoreConc/Model.v).  The vocabulary is in StoreConc/Spec.v. *)
From stdpp Require Import prelude gmap strings.
From Verif.Base Require Import GoInt Envelope.
From Verif.Store Require Import Avl AvlProofs GoHeap Model Spec.
From Verif.StoreConc Require Import Model Spec ProofsLin ProofsLive ProofsFinal ProofsOrderly ProofsBooks SpecStays Witness WitnessStays Refuted.
Open Scope Z_scope.

(** C20.  [sh_heap] has every storage ever made, including those dropped from the index. *)
Theorem C20_capacity_concurrent : ∀ m ls c a sg,
  1 <= m -> crun (initial m) ls = Some c -> sh_heap (cf_sh c) !! a = Some sg ->
  Z.of_nat (length (held sg)) <= m ∧ av_size (cs_tree sg) = Z.of_nat (length (held sg)).
Proof. exact conc_capacity. Qed.
Print Assumptions C20_capacity_concurrent.
Example C20_example : match crun (initial 2) busy with
  | Some c => match sh_heap (cf_sh c) !! 0%nat with Some sg => (held sg).*1 = [20; 30] | None => False end
  | None => False end.
Proof. vm_compute. done. Qed.

(** C21 *)
Theorem C21_no_panic_without_truncation : ∀ m ls c,
  1 <= m -> truncation_free ls -> known_types ls -> crun (initial m) ls = Some c -> ¬ crashed c.
Proof. exact no_crash. Qed.
Print Assumptions C21_no_panic_without_truncation.
Theorem C21_no_write_lost : ∀ m ls c src,
  1 <= m -> spread m ls -> truncation_free ls -> crun (initial m) ls = Some c -> settled c src ->
  ∃ expired, written_to src c ≡ₚ expired ++ visible_to c src ∧ Z.of_nat (length expired) = visible_expired c src.
Proof. exact source_accounting. Qed.
Print Assumptions C21_no_write_lost.
(** The size counter (which holds an int64), also when truncations have run *)
Theorem C21_count_exact : ∀ m ls c,
  1 <= m -> spread m ls -> crun (initial m) ls = Some c -> quiescent c ->
  sh_count (cf_sh c) = wrap64 (Z.of_nat (length (all_held c))).
Proof. exact count_exact. Qed.
Print Assumptions C21_count_exact.
(** ... where, without truncation, what is held is held by a storage some source leads to *)
Theorem C21_all_visible : ∀ m ls c a,
  1 <= m -> truncation_free ls -> crun (initial m) ls = Some c ->
  is_Some (sh_heap (cf_sh c) !! a) -> ∃ src, sh_index (cf_sh c) !! src = Some a.
Proof. exact all_indexed. Qed.
Print Assumptions C21_all_visible.
Example C21_example : match crun (initial 2) busy with
  | Some c => forallb finished (cf_threads c) = true ∧ e_ts <$> written_to "a" c = [10; 20; 30] ∧
      e_ts <$> visible_to c "a" = [20; 30] ∧ visible_expired c "a" = 1 ∧ sh_count (cf_sh c) = 2
  | None => False end.
Proof. vm_compute. done. Qed.
Example C21_example_hypotheses : spread 2 busy ∧ truncation_free busy ∧ known_types busy.
Proof.
  split; [left; lia|]. split.
  - vm_compute. intros H. repeat (apply elem_of_cons in H as [H|H]; [discriminate H|]). by inversion H.
  - intros src q ts t H. vm_compute in H. repeat (apply elem_of_cons in H as [H|H]; [by inversion H|]). by inversion H.
Qed.

(** C22 (refuted): two Puts return, one envelope was expired, and none is visible. *)
Theorem C22_write_lost_refuted : ∃ m ls c src,
  1 <= m ∧ spread m ls ∧ known_types ls ∧ fair_prune (initial m) ls = true ∧
  crun (initial m) ls = Some c ∧ quiescent c ∧ (∀ x, x ≠ src -> written_to x c = []) ∧
  visible_expired c src + Z.of_nat (length (visible_to c src)) < Z.of_nat (length (written_to src c)) ∧
  sh_expired (cf_sh c) + Z.of_nat (length (visible_to c src)) < Z.of_nat (length (written_to src c)).
Proof. exact write_lost. Qed.
Print Assumptions C22_write_lost_refuted.
(** What does hold with truncation: every written envelope is in some storage or was counted as
    expired.  Missing: that the storage can be reached from the index. *)
Theorem C22_conservation_partial : ∀ m ls c,
  1 <= m -> spread m ls -> crun (initial m) ls = Some c -> quiescent c ->
  ∃ gone, all_written c ≡ₚ gone ++ all_held c ∧ Z.of_nat (length gone) = sh_expired (cf_sh c).
Proof. exact conservation_conc. Qed.
Print Assumptions C22_conservation_partial.
(** And with truncations that keep out of the way of first Puts and Metas ([orderly_run]), nothing is
    lost: what was written is visible or was counted as expired, whatever else ran meanwhile. *)
Theorem C22_no_loss_orderly_partial : ∀ m ls c,
  1 <= m -> spread m ls -> known_types ls -> orderly_run m ls -> crun (initial m) ls = Some c ->
  (∀ th, th ∈ cf_threads c -> working th = false) ->
  (∀ src, visible_to c src ⊆+ written_to src c) ∧
  ∃ expired, all_written c ≡ₚ expired ++ all_visible c ∧ Z.of_nat (length expired) = sh_expired (cf_sh c).
Proof. exact orderly_no_loss. Qed.
Print Assumptions C22_no_loss_orderly_partial.
(** And for a source that is not dropped meanwhile, whatever the truncations, Puts, Gets and Metas of the schedule: what was
    written to it is what it shows plus as many envelopes as its expired count says. *)
Theorem C22_no_loss_stays_partial : ∀ m ls c src,
  1 <= m -> spread m ls -> stays m ls src -> crun (initial m) ls = Some c ->
  (∀ th, th ∈ cf_threads c -> dropping th = false) ->
  ∃ expired, written_to src c ≡ₚ expired ++ visible_to c src ∧ Z.of_nat (length expired) = visible_expired c src.
Proof. exact stays_accounting. Qed.
Print Assumptions C22_no_loss_stays_partial.
Example C22_example_stays : spread 10 tidy ∧ stays 10 tidy "a" ∧ ¬ stays 10 tidy "b" ∧
  match crun (initial 10) tidy with
  | Some c => forallb (fun th => negb (dropping th)) (cf_threads c) = true ∧ e_ts <$> written_to "a" c = [10; 20; 30] ∧
      e_ts <$> visible_to c "a" = [20; 30] ∧ visible_expired c "a" = 1
  | None => False end.
Proof.
  split; [left; lia|]. split; [apply stays_check_ok; vm_compute; reflexivity|]. split.
  - intros H. specialize (H (take 30 tidy) (drop 30 tidy) []). rewrite app_nil_r, take_drop in H.
    destruct (crun (initial 10) (take 30 tidy)) as [c1|] eqn:E1; [|vm_compute in E1; discriminate E1].
    destruct (crun (initial 10) tidy) as [c2|] eqn:E2; [|vm_compute in E2; discriminate E2].
    specialize (H c1 c2 eq_refl eq_refl eq_refl).
    assert (K1 : bool_decide (is_Some (sh_index (cf_sh c1) !! "b"%string)) = true) by (vm_compute in E1; injection E1 as <-; by vm_compute).
    assert (K2 : bool_decide (is_Some (sh_index (cf_sh c2) !! "b"%string)) = false) by (vm_compute in E2; injection E2 as <-; by vm_compute).
    apply bool_decide_eq_true in K1. apply bool_decide_eq_false in K2. by apply K2, H.
  - vm_compute. done.
Qed.
Theorem C22_count_orderly_partial : ∀ m ls c,
  1 <= m -> spread m ls -> known_types ls -> orderly_run m ls -> crun (initial m) ls = Some c -> quiescent c ->
  sh_count (cf_sh c) = wrap64 (Z.of_nat (length (all_visible c))).
Proof. exact orderly_count. Qed.
Print Assumptions C22_count_orderly_partial.
Example C22_example_orderly : orderly_run 10 tidy ∧ spread 10 tidy ∧
  match crun (initial 10) tidy with
  | Some c => forallb finished (cf_threads c) = true ∧ e_ts <$> all_written c = [10; 20; 5; 30] ∧
      e_ts <$> all_visible c = [20; 30] ∧ sh_expired (cf_sh c) = 2 ∧ sh_count (cf_sh c) = 2 ∧
      match cf_threads c !! 6%nat with Some (MDone rep) => rep !! "b"%string = None ∧ is_Some (rep !! "a"%string) | _ => False end
  | None => False end.
Proof.
  split; [apply orderly_check_ok; vm_compute; reflexivity|]. split; [left; lia|].
  vm_compute. repeat (split; [done|]). eauto.
Qed.
Example C22_example : match crun (initial 10) lost_write with
  | Some c => forallb finished (cf_threads c) = true ∧ e_ts <$> all_written c = [10; 20] ∧
      e_ts <$> all_held c = [20] ∧ sh_expired (cf_sh c) = 1 ∧ visible_to c "a" = []
  | None => False end.
Proof. vm_compute. done. Qed.

(** C23 (refuted, three ways) *)
Theorem C23_new_storage_refuted : ∃ m ls c, 1 <= m ∧ spread m ls ∧ known_types ls ∧ fair_prune (initial m) ls = true ∧
  LCall CMeta ∉ ls ∧ crun (initial m) ls = Some c ∧ crashed c.
Proof. exact truncate_meets_new_storage. Qed.
Print Assumptions C23_new_storage_refuted.
Theorem C23_runs_dry_refuted : ∃ m ls c, 1 <= m ∧ spread m ls ∧ known_types ls ∧ fair_prune (initial m) ls = true ∧
  crun (initial m) ls = Some c ∧ crashed c.
Proof. exact truncate_runs_dry. Qed.
Print Assumptions C23_runs_dry_refuted.
Theorem C23_meta_race_refuted : ∃ m ls c, 1 <= m ∧ spread m ls ∧ known_types ls ∧ fair_prune (initial m) ls = true ∧
  crun (initial m) ls = Some c ∧ crashed c ∧ ∃ tid ch c1, last ls = Some (LStep tid ch) ∧
  crun (initial m) (take (length ls - 1) ls) = Some c1 ∧ ∃ todo rep, cf_threads c1 !! tid = Some (MFill todo rep).
Proof. exact meta_meets_truncation. Qed.
Print Assumptions C23_meta_race_refuted.
(** What does hold: C21_no_panic_without_truncation. *)
Theorem C23_no_panic_partial : ∀ m ls c,
  1 <= m -> truncation_free ls -> known_types ls -> crun (initial m) ls = Some c -> ¬ crashed c.
Proof. exact no_crash. Qed.
Print Assumptions C23_no_panic_partial.

(** It also holds with truncations that keep out of the way ([orderly_run]): each of the three ways
    above needs a Put to a source with nothing stored, or a Meta, during a truncation. *)
Theorem C23_no_panic_orderly_partial : ∀ m ls c,
  1 <= m -> spread m ls -> known_types ls -> orderly_run m ls -> crun (initial m) ls = Some c -> ¬ crashed c.
Proof. exact orderly_no_crash. Qed.
Print Assumptions C23_no_panic_orderly_partial.
Example C23_example_orderly : orderly_run 10 tidy ∧ known_types tidy ∧ LCall CTruncate ∈ tidy ∧
  is_Some (crun (initial 10) tidy).
Proof.
  split; [apply orderly_check_ok; vm_compute; reflexivity|]. split; [|split].
  - intros src q ts t H. vm_compute in H. repeat (apply elem_of_cons in H as [H|H]; [by inversion H|]). by inversion H.
  - unfold tidy. rewrite !elem_of_app. do 6 right. left. constructor.
  - vm_compute. eauto.
Qed.
(** ... and the schedules of the refutations are not orderly *)
Example C23_example_not_orderly :
  forallb (fun ls => negb (orderly_check (initial 10) ls)) [lost_write; heap_exhausted; empty_storage; meta_race] = true.
Proof. vm_compute. done. Qed.

(** C24.  The call's first step looks the source up ([c1]: the state at that moment); its answer is what
    any sequential store answers whose storage for the source has the content that storage has just
    before the call's last step ([c2]). *)
Theorem C24_get_atomic : ∀ m ls tid ch c src q res,
  crun (initial m) (ls ++ [LStep tid ch]) = Some c -> cf_threads c !! tid = Some (GDone src q res) ->
  ∃ l1 l2 c1, ls = l1 ++ l2 ∧ crun (initial m) l1 = Some c1 ∧ cf_threads c1 !! tid = Some (GStart src q) ∧
    match sh_index (cf_sh c1) !! src with
    | None => res = []
    | Some a => ∃ c2 sg, crun (initial m) ls = Some c2 ∧ sh_heap (cf_sh c2) !! a = Some sg ∧
        ∀ st g, st_index st !! src = Some g -> sg_tree g = cs_tree sg -> get_env src q st = Some res
    end.
Proof. exact get_atomic. Qed.
Print Assumptions C24_get_atomic.
Example C24_example : match crun (initial 2) busy with
  | Some c => match cf_threads c !! 2%nat with Some (GDone "a" _ res) => e_ts <$> res = [20] | _ => False end
  | None => False end.
Proof. vm_compute. done. Qed.

(** C75 *)
Theorem C75_no_deadlock : ∀ m ls c,
  crun (initial m) ls = Some c -> ¬ crashed c -> ¬ quiescent c -> ∃ tid ch, is_Some (cstep c (LStep tid ch)).
Proof. exact no_deadlock. Qed.
Print Assumptions C75_no_deadlock.
(** A Put waits for a storage another Put has locked: only the second one can go on. *)
Example C75_example :
  let ls := [LCall (CPut (env "a" 10) "a"); LCall (CPut (env "a" 20) "a")] ++ goes 0 5 ++ goes 1 2 in
  match crun (initial 2) ls with
  | Some c => cstep c (go 1) = None ∧ is_Some (cstep c (go 0))
  | None => False end.
Proof. vm_compute. split; [done|eauto]. Qed.

(** C76.  [returns] lists the calls in the order in which they return.  A Get answers as the
    sequential store that has executed, one after the other, the calls that returned before it ... *)
Theorem C76_get_linearizable : ∀ m ls tid ch c src q res,
  1 <= m -> truncation_free ls ->
  crun (initial m) (ls ++ [LStep tid ch]) = Some c -> cf_threads c !! tid = Some (GDone src q res) ->
  ∃ st, run (new_store m) (returns (initial m) ls) = Some st ∧ get_env src q st = Some res.
Proof. exact get_linear. Qed.
Print Assumptions C76_get_linearizable.
(** ... and a source with no Put in progress holds what that sequential store holds. *)
Theorem C76_content_linearizable : ∀ m ls c,
  1 <= m -> truncation_free ls -> crun (initial m) ls = Some c ->
  ∃ st, run (new_store m) (returns (initial m) ls) = Some st ∧
    ∀ src, settled c src ->
      visible_to c src = (stored st src).*2 ∧
      visible_expired c src = match meta st !! src with Some mi => m_expired mi | None => 0 end.
Proof. exact visible_linear. Qed.
Print Assumptions C76_content_linearizable.
Example C76_example :
  match returns (initial 2) busy with
  | [OPut e1 "a" _; OGet "a" _; OPut e2 "a" _; OPut e3 "a" _] => e_ts <$> [e1; e2; e3] = [20; 10; 30]
  | _ => False end.
Proof. vm_compute. done. Qed.
