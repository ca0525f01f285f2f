(** Where source ids fall in the hash space: C174. *)
From Coq Require Import Ascii String NArith.
From stdpp Require Import prelude strings list.
From Verif.Base Require Import GoInt.
From Verif.Routing Require Import Model Spec ProofsRanges.
From Verif.Scheduler Require Import Model Spec.
From Verif.Hash Require Import Model Spec Proofs ProofsShare.
From Verif.Props Require Import SchedulerProps.
Open Scope Z_scope.

(** ** C174 *)
(** The hash is the CRC-64 of the standard, so it depends on the bytes of the id alone, and nodes and tools that compute it
    differently, but rightly, agree *)
Theorem C174_crc : ∀ s h, crc_of s h ↔ hasher s = Z.of_N h.
Proof. intros s h. rewrite checksum_crc. unfold hasher. split; [by intros ->|lia]. Qed.
Print Assumptions C174_crc.
(** Whatever the id, it falls into exactly one of the ranges which the scheduler hands out *)
Theorem C174_owned : ∀ n rs s, 1 <= n <= 2 ^ 32 → sched_ranges n = Some rs →
  ∃ i r, rs !! i = Some r ∧ covers r (hasher s) ∧ ∀ j r', rs !! j = Some r' → covers r' (hasher s) → j = i.
Proof. intros n rs s Hn Hrs. destruct (sched_partition n rs Hn Hrs) as (_ & _ & H). apply H, hasher_hash. Qed.
Print Assumptions C174_owned.
(** ... so that once the scheduler has published what the nodes hold, every node knows an owner for it *)
Theorem C174_known : ∀ addrs clients s l1 i ws b l2 s' a m n rs src,
  runs addrs clients s (l1 ++ LDecide i ws b :: l2) s' → no_decision i l2 → sole_publisher i l2 → LRestart a ∉ l2 →
  LPublish i a m Arrived ∈ l2 → NoDup addrs → NoDup ws.*1 → honest i ws l1 → (∀ w, w ∈ ws.*1 → w ∈ addrs) →
  1 <= n <= 2 ^ 32 → sched_ranges n = Some rs → (∀ r, r ∈ rs → ∃ w held, last_listing i w l1 = Some held ∧ r ∈ held) →
  ∃ x is, node_lookup s' a (hasher src) = Some is ∧ x ∈ is.
Proof. intros. eapply C121_every_hash_owned; eauto. apply hasher_hash. Qed.
Print Assumptions C174_known.
(** Two ids of one length that differ within eight bytes in a row have different hashes *)
Theorem C174_near : ∀ p a b t, String.length a = String.length b → (String.length a <= 8)%nat → a ≠ b → hasher (p +:+ a +:+ t) ≠ hasher (p +:+ b +:+ t).
Proof. intros p a b t Hl H8 Hne E. apply (checksum_near p a b t Hl H8 Hne). unfold hasher in E. lia. Qed.
Print Assumptions C174_near.
(** Every place of the hash space is reached, by exactly one of the ids that continue a text by eight bytes *)
Theorem C174_reached : ∀ p h, is_hash h → ∃ w, String.length w = 8%nat ∧ hasher (p +:+ w) = h ∧ ∀ w', String.length w' = 8%nat → hasher (p +:+ w') = h → w' = w.
Proof.
  intros p h Hh. exists (tail_for p (Z.to_N h)). split; [apply tail_length|]. split; [unfold is_hash in Hh; unfold hasher; rewrite tail_hash; lia|].
  intros w' Hl E. rewrite <- (tail_unique p w' Hl). f_equal. unfold hasher in E. lia.
Qed.
Print Assumptions C174_reached.
(** ... and these ids are spread evenly: of the n ranges of the scheduler each has a share of 2^64 / n, up to n *)
Theorem C174_share : ∀ n rs r p, 1 <= n <= 2 ^ 32 → sched_ranges n = Some rs → r ∈ rs →
  ∃ l, NoDup l ∧ (∀ w, w ∈ l ↔ String.length w = 8%nat ∧ covers r (hasher (p +:+ w))) ∧ 2^64 / n - n <= Z.of_nat (length l) <= 2^64 / n + 1.
Proof.
  intros n rs r p Hn Hrs Hr. destruct (sched_width n rs r Hn Hrs Hr) as (H0 & H1 & H2 & H3). destruct (share p (r_start r) (r_end r) H0 H1 H2) as (l & Hl & Hw & E).
  exists l. split; [done|]. split; [exact Hw|]. by rewrite E.
Qed.
Print Assumptions C174_share.
(** A hash is no identity: whatever two texts begin with, they can be continued so that they share one *)
Theorem C174_shared : ∀ p q h, is_hash h → ∃ v w, hasher (p +:+ v) = h ∧ hasher (q +:+ w) = h ∧ String.length v = 8%nat ∧ String.length w = 8%nat.
Proof. intros p q h Hh. destruct (C174_reached p h Hh) as (v & ? & ? & _), (C174_reached q h Hh) as (w & ? & ? & _). by exists v, w. Qed.
Print Assumptions C174_shared.

(** The check value of the catalogue *)
Example C174_check : hasher "123456789" = 0x995DC9BBDF1939FA.
Proof. by vm_compute. Qed.
Example C174_near_ex : hasher "app-1/0" ≠ hasher "app-2/0".
Proof. exact (C174_near "app-" "1" "2" "/0" eq_refl ltac:(cbn; lia) ltac:(done)). Qed.
Example C174_owned_ex : sched_ranges 3 = Some
  [mk_range 0 6148914691236517205; mk_range 6148914691236517206 12297829382473034411; mk_range 12297829382473034412 18446744073709551615] ∧
  covers (mk_range 6148914691236517206 12297829382473034411) (hasher "123456789").
Proof. by vm_compute. Qed.
