(** The schedules of Witness.v as refutations. *)
From stdpp Require Import prelude gmap strings.
From Verif.Base Require Import GoInt Envelope.
From Verif.Store Require Import Avl GoHeap Model Spec.
From Verif.StoreConc Require Import Model Spec Witness.
Open Scope Z_scope.

Lemma opt_witness {A} (o : option A) (f : A -> bool) :
  (match o with Some a => f a | None => false end) = true -> ∃ a, o = Some a ∧ f a = true.
Proof. destruct o as [a|]; [|done]. intros H. by exists a. Qed.

Lemma only_to src c : forallb (fun th => match th with PDone _ s => bool_decide (s = src) | _ => true end) (cf_threads c) = true ->
  ∀ x, x ≠ src -> written_to x c = [].
Proof.
  unfold written_to. intros H x Hx. induction (cf_threads c) as [|th ths IH]; [done|]. cbn in H. apply andb_prop in H as [H1 H2].
  cbn. rewrite IH by done. rewrite app_nil_r. destruct th; cbn; try done. apply bool_decide_eq_true in H1 as ->. by rewrite decide_False.
Qed.
Lemma quiescent_check c : forallb finished (cf_threads c) = true -> quiescent c.
Proof. intros H th Hin. rewrite forallb_forall in H. apply H. by apply elem_of_list_In. Qed.
Lemma crashed_check c : existsb is_panicked (cf_threads c) = true -> crashed c.
Proof. intros H. apply existsb_exists in H as (th & Hin & Hp). destruct th; try discriminate Hp. by apply elem_of_list_In. Qed.
Lemma no_gets ls : forallb (fun l => match l with LCall (CGet _ _) => false | _ => true end) ls = true -> known_types ls.
Proof. intros H src q ts t Hin. rewrite forallb_forall in H. apply elem_of_list_In, H in Hin. done. Qed.

Theorem write_lost : ∃ m ls c src,
  1 <= m ∧ spread m ls ∧ known_types ls ∧ fair_prune (initial m) ls = true ∧
  crun (initial m) ls = Some c ∧ quiescent c ∧ (∀ x, x ≠ src -> written_to x c = []) ∧
  visible_expired c src + Z.of_nat (length (visible_to c src)) < Z.of_nat (length (written_to src c)) ∧
  sh_expired (cf_sh c) + Z.of_nat (length (visible_to c src)) < Z.of_nat (length (written_to src c)).
Proof.
  destruct (opt_witness (crun (initial 10) lost_write) (fun c =>
    forallb finished (cf_threads c) && forallb (fun th => match th with PDone _ s => bool_decide (s = "a"%string) | _ => true end) (cf_threads c) &&
    (visible_expired c "a" + Z.of_nat (length (visible_to c "a")) <? Z.of_nat (length (written_to "a" c))) &&
    (sh_expired (cf_sh c) + Z.of_nat (length (visible_to c "a")) <? Z.of_nat (length (written_to "a" c))))) as (c & Hc & Hf).
  { vm_compute. reflexivity. }
  apply andb_prop in Hf as [Hf H4]. apply andb_prop in Hf as [Hf H3]. apply andb_prop in Hf as [H1 H2].
  exists 10, lost_write, c, "a"%string. split; [lia|]. split; [left; lia|]. split; [by apply no_gets|].
  split; [vm_compute; reflexivity|]. split; [done|]. split; [by apply quiescent_check|]. split; [by apply only_to|].
  split; by apply Z.ltb_lt.
Qed.

Lemma crash_by ls : (match crun (initial 10) ls with Some c => existsb is_panicked (cf_threads c) | None => false end) = true ->
  forallb (fun l => match l with LCall (CGet _ _) => false | _ => true end) ls = true ->
  fair_prune (initial 10) ls = true ->
  ∃ c, 1 <= 10 ∧ spread 10 ls ∧ known_types ls ∧ fair_prune (initial 10) ls = true ∧ crun (initial 10) ls = Some c ∧ crashed c.
Proof.
  intros H Hg Hf. destruct (opt_witness _ (fun c => existsb is_panicked (cf_threads c)) H) as (c & Hc & Hp).
  exists c. split; [lia|]. split; [left; lia|]. split; [by apply no_gets|]. split; [done|]. split; [done|]. by apply crashed_check.
Qed.

Theorem truncate_meets_new_storage : ∃ m ls c, 1 <= m ∧ spread m ls ∧ known_types ls ∧ fair_prune (initial m) ls = true ∧
  LCall CMeta ∉ ls ∧ crun (initial m) ls = Some c ∧ crashed c.
Proof.
  destruct (crash_by empty_storage) as (c & H1 & H2 & H3 & H4 & H5 & H6); [vm_compute; reflexivity..|].
  exists 10, empty_storage, c. repeat split; try done. vm_compute. intros H.
  repeat (apply elem_of_cons in H as [H|H]; [discriminate H|]). by inversion H.
Qed.
Theorem truncate_runs_dry : ∃ m ls c, 1 <= m ∧ spread m ls ∧ known_types ls ∧ fair_prune (initial m) ls = true ∧
  crun (initial m) ls = Some c ∧ crashed c.
Proof.
  destruct (crash_by heap_exhausted) as (c & H); [vm_compute; reflexivity..|]. by exists 10, heap_exhausted, c.
Qed.
Theorem meta_meets_truncation : ∃ m ls c, 1 <= m ∧ spread m ls ∧ known_types ls ∧ fair_prune (initial m) ls = true ∧
  crun (initial m) ls = Some c ∧ crashed c ∧ ∃ tid ch c1, last ls = Some (LStep tid ch) ∧
  crun (initial m) (take (length ls - 1) ls) = Some c1 ∧ ∃ todo rep, cf_threads c1 !! tid = Some (MFill todo rep).
Proof.
  destruct (crash_by meta_race) as (c & H1 & H2 & H3 & H4 & H5 & H6); [vm_compute; reflexivity..|].
  destruct (opt_witness (crun (initial 10) (take (length meta_race - 1) meta_race))
              (fun c1 => match cf_threads c1 !! 1%nat with Some (MFill _ _) => true | _ => false end)) as (c1 & Hc1 & Hf).
  { vm_compute. reflexivity. }
  exists 10, meta_race, c. repeat (split; [done|]). exists 1%nat, (mk_choice None 0 []), c1. split; [done|]. split; [done|].
  destruct (cf_threads c1 !! 1%nat) as [[]|]; try discriminate Hf. eauto.
Qed.
