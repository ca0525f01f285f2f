From Coq Require Import Ascii String NArith.
From stdpp Require Import prelude strings list list_numbers.
From Verif.Base Require Import GoInt.
From Verif.Routing Require Import Model Spec ProofsRanges.
From Verif.Hash Require Import Model Spec Proofs.
Open Scope Z_scope.

Lemma hasher_hash s : is_hash (hasher s).
Proof. unfold is_hash, hasher. pose proof (checksum_word s) as H. split; [lia|]. apply N2Z.inj_lt in H. exact H. Qed.
(** the eight bytes after p that lead to h *)
Definition tail_for (p : string) (h : N) : string := text_of 8 (N.lxor (update (complement 0) p) (backs 64 (complement h))).
Lemma tail_length p h : String.length (tail_for p h) = 8%nat.
Proof. apply text_length. Qed.
Lemma tail_hash p h : (h < 2^64)%N -> checksum (p +:+ tail_for p h) = h.
Proof.
  intros H. unfold tail_for. unfold checksum. rewrite update_app. assert (Hx : (update (complement 0) p < 2^64)%N) by (by apply update_word, complement_word).
  revert Hx. generalize (update (complement 0) p) as x. intros x Hx. rewrite update_number, text_length, number_text.
  - rewrite <- N.lxor_assoc, N.lxor_nilpotent, N.lxor_0_l. change (8 * 8)%nat with 64%nat. rewrite steps_backs by (by apply complement_word). apply complement_twice.
  - apply word_lxor; [done|]. by apply backs_word, complement_word.
Qed.
Lemma tail_unique p w : String.length w = 8%nat -> tail_for p (checksum (p +:+ w)) = w.
Proof.
  intros Hl. destruct (decide (tail_for p (checksum (p +:+ w)) = w)) as [E|Hne]; [done|exfalso].
  pose proof (checksum_near p _ w "" ltac:(by rewrite tail_length) ltac:(rewrite tail_length; lia) Hne) as H. apply H.
  assert (A : forall s, s +:+ "" = s) by (intros s; induction s as [|c s IH]; [reflexivity|]; change (String c s +:+ "") with (String c (s +:+ "")); by rewrite IH). rewrite !A. apply tail_hash, checksum_word.
Qed.
Lemma share p a b : 0 <= a -> a <= b -> b < 2^64 -> exists l, NoDup l /\ (forall w, w ∈ l <-> String.length w = 8%nat /\ a <= hasher (p +:+ w) <= b) /\ Z.of_nat (length l) = b - a + 1.
Proof.
  intros Ha Hab Hb. exists ((fun h => tail_for p (Z.to_N h)) <$> seqZ a (b - a + 1)).
  assert (Hw : forall h, h ∈ seqZ a (b - a + 1) -> (Z.to_N h < 2^64)%N /\ 0 <= h) by (intros h Hh; apply elem_of_seqZ in Hh; lia).
  split; [|split].
  - apply NoDup_fmap_2_strong; [|apply NoDup_seqZ]. intros h1 h2 H1 H2 E. apply Hw in H1 as [H1 ?], H2 as [H2 ?].
    apply (f_equal (fun t => checksum (p +:+ t))) in E. rewrite !tail_hash in E by done. lia.
  - intros w. rewrite elem_of_list_fmap. split.
    + intros (h & -> & Hh). pose proof (Hw h Hh) as [H1 H2]. split; [apply tail_length|]. unfold hasher. rewrite tail_hash by done. apply elem_of_seqZ in Hh. lia.
    + intros [Hl Hh]. exists (hasher (p +:+ w)). split; [unfold hasher; by rewrite N2Z.id, tail_unique|]. apply elem_of_seqZ. lia.
  - rewrite fmap_length, seqZ_length. lia.
Qed.
Lemma sched_width n rs r : 1 <= n <= 2^32 -> sched_ranges n = Some rs -> r ∈ rs ->
  0 <= r_start r /\ r_start r <= r_end r /\ r_end r < 2^64 /\ 2^64 / n - n <= r_end r - r_start r + 1 <= 2^64 / n + 1.
Proof.
  intros Hn Hrs Hr. destruct (sched_ranges_spec n rs ltac:(lia) Hrs) as [Hl H]. apply elem_of_list_lookup in Hr as [i Hi].
  pose proof (lookup_lt_Some _ _ _ Hi) as Hlt. destruct (H i r Hi) as [H1 H2]. cbv zeta in *. unfold max_uint64 in *.
  assert (Hx : 0 <= (2^64 - 1) / n /\ n * ((2^64 - 1) / n) <= 2^64 - 1 < n * ((2^64 - 1) / n) + n).
  { pose proof (Z.div_mod (2^64 - 1) n ltac:(lia)). pose proof (Z.mod_pos_bound (2^64 - 1) n ltac:(lia)). split; [apply Z.div_pos; lia|]. lia. }
  assert (Hq : n * (2^64 / n) <= 2^64 < n * (2^64 / n) + n).
  { pose proof (Z.div_mod (2^64) n ltac:(lia)). pose proof (Z.mod_pos_bound (2^64) n ltac:(lia)). lia. }
  set (x := (2^64 - 1) / n) in *. set (q := 2^64 / n) in *. clearbody x q.
  assert (Hi' : 0 <= Z.of_nat i <= n - 1) by lia. set (k := Z.of_nat i) in *. clearbody k.
  assert (Hnx : (n - 1) * (x + 1) <= 2^64 - 1) by nia.
  rewrite wrapu64_id in H1 by (unfold inu64; nia). destruct (decide (k = n - 1)) as [->|Hk].
  - rewrite H1, H2. nia.
  - rewrite wrapu64_id in H2 by (unfold inu64; rewrite H1; nia). rewrite H2, H1. nia.
Qed.
