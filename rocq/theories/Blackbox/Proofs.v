(** Proofs about the blackbox. *)
From Coq Require Import ZArith Reals Lra Lia Psatz.
From Coq Require Import Ascii String.
From Flocq Require Import Core BinarySingleNaN Relative.
From stdpp Require Import prelude gmap strings list.
From Verif.Base Require Import GoInt Envelope.
From Verif.Prune Require Import Model Proofs.
From Verif.Times Require Proofs.
From Verif.Query Require Import Model.
From Verif.Blackbox Require Import Model Spec.
Open Scope Z_scope.

(** ** Test metrics *)
Lemma truncate_spec t d : 0 < d -> (truncate t d + year_one) mod d = 0 /\ truncate t d <= t < truncate t d + d.
Proof.
  intros Hd. unfold truncate. destruct (Z.leb_spec d 0); [lia|]. pose proof (Z.mod_pos_bound (t + year_one) d Hd) as Hm.
  split; [|lia]. replace (t - (t + year_one) mod d + year_one) with (d * ((t + year_one) / d)).
  - rewrite Z.mul_comm. apply Z.mod_mul. lia.
  - pose proof (Z.div_mod (t + year_one) d ltac:(lia)). lia.
Qed.
Lemma send_all n ok : forall i batch, exists k, send_retrying n ok i batch = replicate k batch /\ (k <= n)%nat /\
  (1 <= n -> 1 <= k)%nat /\ (forall j, (S j < k)%nat -> ok (i + j)%nat = false) /\ (k < n -> ok (i + (k - 1)) = true)%nat.
Proof.
  induction n as [|n IH]; intros i batch; cbn.
  { exists 0%nat. cbn. repeat split; lia. }
  destruct (ok i) eqn:E.
  - exists 1%nat. cbn. split; [done|]. split; [lia|]. split; [lia|]. split; [lia|]. intros _. by rewrite Nat.add_0_r.
  - destruct (IH (S i) batch) as (k & Hk & H1 & H2 & H3 & H4). rewrite Hk. exists (S k). cbn [replicate]. split; [done|].
    split; [lia|]. split; [lia|]. split.
    + intros [|j] Hj; [by rewrite Nat.add_0_r|]. rewrite Nat.add_succ_r. change (S (i + j)) with (S i + j)%nat. apply H3. lia.
    + intros Hlt. destruct k as [|k].
      * exfalso. destruct n; [lia|]. cbn in Hk. destruct (ok (S i)); done.
      * specialize (H4 ltac:(lia)). replace (i + (S (S k) - 1))%nat with (S i + (S k - 1))%nat by lia. done.
Qed.

(** ** Seconds *)
Lemma seconds_whole s : 0 <= s <= 2 ^ 53 -> is_finite (seconds (s * 1000000000)) = true /\ B2R (seconds (s * 1000000000)) = IZR s.
Proof.
  intros Hs. unfold seconds. rewrite Z.quot_mul, Z.rem_mul by lia.
  destruct (of_int_exact s ltac:(lia)) as [F1 E1].
  destruct (Times.Proofs.fdiv_int 0 1000000000 ltac:(lia) ltac:(lia)) as (F2 & E2 & _).
  assert (E2' : B2R (fdiv (of_int 0) (of_int 1000000000)) = 0%R).
  { rewrite E2. rewrite (round_0 radix2 fexp ZnearestE). unfold Rdiv. rewrite Rmult_0_l. apply (round_0 radix2 fexp ZnearestE). }
  pose proof (Bplus_correct 53 1024 prec_gt_0_53 prec_lt_emax_53 mode_NE (of_int s) (fdiv (of_int 0) (of_int 1000000000)) F1 F2) as H.
  rewrite E1, E2', Rplus_0_r in H.
  assert (Er : rnd (IZR s) = IZR s) by (apply rnd_int; lia). cbn [round_mode] in H. rewrite Er in H.
  rewrite Rlt_bool_true in H.
  - destruct H as (H1 & H2 & _). unfold fadd. split; [exact H2|exact H1].
  - rewrite Rabs_pos_eq by (apply IZR_le; lia). apply Rle_lt_trans with (IZR (2 ^ 53)); [apply IZR_le; lia|].
    change (IZR (2 ^ 53)) with (bpow radix2 53). apply bpow_lt. lia.
Qed.

Lemma div_spec (x y : f64) a b : is_finite x = true -> is_finite y = true -> B2R x = IZR a -> B2R y = IZR b ->
  0 <= a <= 2 ^ 53 -> 1 <= b <= 2 ^ 53 -> is_finite (fdiv x y) = true /\ B2R (fdiv x y) = rnd (IZR a / IZR b).
Proof.
  intros F1 F2 E1 E2 Ha Hb. unfold fdiv.
  pose proof (Bdiv_correct 53 1024 prec_gt_0_53 prec_lt_emax_53 mode_NE x y) as H.
  assert (Hb1 : (1 <= IZR b)%R) by (apply IZR_le; lia). assert (Ha1 : (0 <= IZR a)%R) by (apply IZR_le; lia).
  rewrite E1, E2 in H. specialize (H ltac:(lra)).
  assert (Hq : (Rabs (IZR a / IZR b) <= bpow radix2 53)%R).
  { change (bpow radix2 53) with (IZR (2 ^ 53)). rewrite Rabs_pos_eq.
    - apply Rle_trans with (IZR a); [|apply IZR_le; lia]. unfold Rdiv. rewrite <-(Rmult_1_r (IZR a)) at 2.
      apply Rmult_le_compat_l; [lra|]. rewrite <-Rinv_1. apply Rinv_le; lra.
    - apply Rmult_le_pos; [lra|]. apply Rlt_le, Rinv_0_lt_compat. lra. }
  cbn [round_mode] in H. destruct (rnd_bound _ 53 ltac:(lia) Hq) as [_ Hlt].
  rewrite Rlt_bool_true in H by exact Hlt. destruct H as (H1 & H2 & _). rewrite H2. split; [exact F1|exact H1].
Qed.

Lemma quotient_floor w e : 0 <= w <= 2 ^ 40 -> 1 <= e <= 2 ^ 40 ->
  (IZR (w / e) <= rnd (IZR w / IZR e) < IZR (w / e + 1))%R.
Proof.
  intros Hw He. set (k := w / e).
  assert (Hk0 : 0 <= k) by (apply Z.div_pos; lia).
  assert (Hkw : k <= w) by (apply Z.div_le_upper_bound; nia).
  assert (H1 : e * k <= w) by (apply Z.mul_div_le; lia).
  assert (H2 : w + 1 <= e * (k + 1)) by (pose proof (Z.mul_succ_div_gt w e ltac:(lia)); unfold k; lia).
  assert (He1 : (1 <= IZR e)%R) by (apply IZR_le; lia).
  assert (Hle : (IZR k <= IZR w / IZR e)%R).
  { apply Rmult_le_reg_r with (IZR e); [lra|]. unfold Rdiv. rewrite Rmult_assoc, Rinv_l, Rmult_1_r by lra.
    rewrite <-mult_IZR. apply IZR_le. lia. }
  split.
  { apply rnd_ge_format; [apply format_int; lia|exact Hle]. }
  assert (Hlt : (IZR w / IZR e + / IZR e <= IZR (k + 1))%R).
  { apply Rmult_le_reg_r with (IZR e); [lra|]. rewrite Rmult_plus_distr_r. unfold Rdiv. rewrite Rmult_assoc, Rinv_l, Rmult_1_r by lra.
    rewrite <-mult_IZR, <-plus_IZR. apply IZR_le. lia. }
  pose proof (rnd_error (IZR w / IZR e)) as Herr.
  assert (Hpos : (0 <= IZR w / IZR e)%R) by (apply Rle_trans with (IZR k); [apply IZR_le; lia|exact Hle]).
  rewrite (Rabs_pos_eq (IZR w / IZR e)) in Herr by exact Hpos.
  apply Rabs_le_inv in Herr. destruct Herr as [_ Herr].
  enough (Hs : (u * (IZR w / IZR e) + eta < / IZR e)%R) by lra.
  apply Rmult_lt_reg_r with (IZR e); [lra|]. rewrite Rinv_l by lra.
  replace ((u * (IZR w / IZR e) + eta) * IZR e)%R with (u * IZR w + eta * IZR e)%R by (field; lra).
  assert (B1 : (u * IZR w <= bpow radix2 (-13))%R).
  { unfold u. replace (-13) with (-53 + 40) by lia. rewrite bpow_plus. apply Rmult_le_compat_l; [apply bpow_ge_0|].
    change (bpow radix2 40) with (IZR (2 ^ 40)). apply IZR_le. lia. }
  assert (B2 : (eta * IZR e <= bpow radix2 (-13))%R).
  { apply Rle_trans with (bpow radix2 (-1075 + 40)); [|apply bpow_le; lia]. rewrite bpow_plus. unfold eta.
    apply Rmult_le_compat_l; [apply bpow_ge_0|]. change (bpow radix2 40) with (IZR (2 ^ 40)). apply IZR_le. lia. }
  assert (B3 : (bpow radix2 (-13) < / 2)%R) by (change (/ 2)%R with (bpow radix2 (-1)); apply bpow_lt; lia).
  lra.
Qed.

Lemma expected_whole w e : 0 <= w <= 2 ^ 40 -> 1 <= e <= 2 ^ 40 ->
  to_int (expected_samples (w * 1000000000) (e * 1000000000)) = Some (w / e).
Proof.
  intros Hw He. unfold expected_samples.
  destruct (seconds_whole w ltac:(lia)) as [F1 E1]. destruct (seconds_whole e ltac:(lia)) as [F2 E2].
  destruct (div_spec _ _ w e F1 F2 E1 E2 ltac:(lia) ltac:(lia)) as [F3 E3].
  destruct (quotient_floor w e Hw He) as [L1 L2].
  assert (Hk0 : 0 <= w / e) by (apply Z.div_pos; lia).
  assert (Hkw : w / e <= w) by (apply Z.div_le_upper_bound; nia).
  assert (Hp : (0 <= rnd (IZR w / IZR e))%R) by (eapply Rle_trans; [|exact L1]; apply IZR_le; lia).
  rewrite (Times.Proofs.to_int_trunc _ F3).
  - f_equal. rewrite E3, Ztrunc_floor by exact Hp. apply Zfloor_imp. split; [exact L1|exact L2].
  - rewrite E3, Rabs_pos_eq by exact Hp. eapply Rlt_le_trans; [exact L2|]. apply IZR_le. lia.
Qed.
Lemma query_whole w : 0 <= w <= 2 ^ 40 -> query_seconds (w * 1000000000) = w.
Proof.
  intros Hw. unfold query_seconds. destruct (seconds_whole w ltac:(lia)) as [F E].
  rewrite Times.Proofs.trunc_Ztrunc.
  pose proof (Bnearbyint_correct 53 1024 prec_lt_emax_53 mode_NE (seconds (w * 1000000000))) as (H1 & _ & _).
  rewrite H1, E. cbn [round_mode].
  rewrite round_generic; [apply Ztrunc_IZR|typeclasses eauto|].
  apply generic_format_FIX. exists (Float radix2 w 0); [|done]. unfold F2R. cbn. lra.
Qed.

(** The reported number. *)
Lemma ratio_spec n k : 0 <= n <= 2 ^ 53 -> 1 <= k <= 2 ^ 53 ->
  is_finite (fdiv (of_int n) (of_int k)) = true /\ B2R (fdiv (of_int n) (of_int k)) = rnd (IZR n / IZR k).
Proof.
  intros Hn Hk. destruct (of_int_exact n ltac:(lia)) as [F1 E1]. destruct (of_int_exact k ltac:(lia)) as [F2 E2].
  by apply div_spec.
Qed.
Lemma div_le_1 n k : 0 <= n <= k -> 1 <= k -> (0 <= IZR n / IZR k <= 1)%R.
Proof.
  intros Hn Hk. assert ((1 <= IZR k)%R) by (apply IZR_le; lia). assert ((0 <= IZR n <= IZR k)%R) by (split; apply IZR_le; lia).
  split; [apply Rmult_le_pos; [lra|]; apply Rlt_le, Rinv_0_lt_compat; lra|].
  apply Rmult_le_reg_r with (IZR k); [lra|]. unfold Rdiv. rewrite Rmult_assoc, Rinv_l; lra.
Qed.
Lemma rnd_1 : rnd 1 = 1%R. Proof. apply (rnd_int 1). lia. Qed.
Lemma rnd_0 : rnd 0 = 0%R. Proof. apply (rnd_int 0). lia. Qed.
(** less than all received: reported as less than 1, and the other way round *)
Lemma ratio_lt n k : 0 <= n < k -> k <= 2 ^ 52 -> (rnd (IZR n / IZR k) < 1)%R.
Proof.
  intros Hn Hk. pose proof (rnd_error (IZR n / IZR k)) as Herr.
  assert (Hq := div_le_1 n k ltac:(lia) ltac:(lia)). rewrite (Rabs_pos_eq (IZR n / IZR k)) in Herr by lra.
  apply Rabs_le_inv in Herr.
  assert (K1 : (1 <= IZR k)%R) by (apply IZR_le; lia).
  assert (Hk' : (IZR n / IZR k <= 1 - / IZR k)%R).
  { apply Rmult_le_reg_r with (IZR k); [lra|]. rewrite Rmult_minus_distr_r. unfold Rdiv. rewrite Rmult_assoc, Rinv_l, Rmult_1_r, Rmult_1_l by lra.
    replace 1%R with (IZR 1) by done. rewrite <-minus_IZR. apply IZR_le. lia. }
  assert (Hi : (2 * u <= / IZR k)%R).
  { apply Rmult_le_reg_r with (IZR k); [lra|]. rewrite Rinv_l by lra. unfold u.
    apply Rle_trans with (2 * bpow radix2 (-53) * bpow radix2 52)%R.
    - apply Rmult_le_compat_l; [apply Rmult_le_pos; [lra|apply bpow_ge_0]|]. change (bpow radix2 52) with (IZR (2 ^ 52)). apply IZR_le. lia.
    - rewrite Rmult_assoc, <-bpow_plus. change (bpow radix2 (-53 + 52)) with (/ 2)%R. lra. }
  assert (Hu : (0 < u)%R) by apply bpow_gt_0.
  assert (Heta : (eta < u)%R) by (apply bpow_lt; lia).
  assert ((u * (IZR n / IZR k) <= u)%R) by (rewrite <-(Rmult_1_r u) at 2; apply Rmult_le_compat_l; lra).
  lra.
Qed.
Lemma ratio_gt n k : 1 <= k < n -> n <= 2 ^ 52 -> (1 < rnd (IZR n / IZR k))%R.
Proof.
  intros Hk Hn. assert (K1 : (1 <= IZR k)%R) by (apply IZR_le; lia).
  (* the next number after 1 is 1 + 2u, and n / k is no less *)
  assert (Hq : (1 + 2 * u <= IZR n / IZR k)%R).
  { apply Rmult_le_reg_r with (IZR k); [lra|]. unfold Rdiv. rewrite Rmult_assoc, Rinv_l, Rmult_1_r by lra.
    assert (2 * u * IZR k <= 1)%R.
    { apply Rle_trans with (2 * u * bpow radix2 52)%R.
      - apply Rmult_le_compat_l; [apply Rmult_le_pos; [lra|apply bpow_ge_0]|]. change (bpow radix2 52) with (IZR (2 ^ 52)). apply IZR_le. lia.
      - unfold u. rewrite Rmult_assoc, <-bpow_plus. change (bpow radix2 (-53 + 52)) with (/ 2)%R. lra. }
    assert (IZR k + 1 <= IZR n)%R by (replace 1%R with (IZR 1) by done; rewrite <-plus_IZR; apply IZR_le; lia). lra. }
  apply Rlt_le_trans with (1 + 2 * u)%R; [assert (0 < u)%R by apply bpow_gt_0; lra|].
  apply rnd_ge_format; [|exact Hq].
  replace (1 + 2 * u)%R with (F2R (Float radix2 (2 ^ 52 + 1) (-52))).
  - apply generic_format_FLT. exists (Float radix2 (2 ^ 52 + 1) (-52)); [reflexivity|vm_compute; reflexivity|vm_compute; discriminate].
  - unfold F2R. cbn [Fnum Fexp]. rewrite plus_IZR, Rmult_plus_distr_r, Rmult_1_l.
    replace (IZR (2 ^ 52)) with (bpow radix2 52) by done. rewrite <-bpow_plus. unfold u. replace (-52) with (-53 + 1) by lia. rewrite !bpow_plus. rewrite <-!bpow_plus. change (bpow radix2 (52 + (-53 + 1))) with 1%R. rewrite bpow_plus. change (bpow radix2 1) with 2%R. lra.
Qed.
Lemma ratio_one n k : 0 <= n <= 2 ^ 52 -> 1 <= k <= 2 ^ 52 -> rnd (IZR n / IZR k) = 1%R <-> n = k.
Proof.
  intros Hn Hk. split.
  - intros H. destruct (Z.lt_trichotomy n k) as [?|[?|?]]; [|done|].
    + pose proof (ratio_lt n k ltac:(lia) ltac:(lia)). lra.
    + pose proof (ratio_gt n k ltac:(lia) ltac:(lia)). lra.
  - intros ->. unfold Rdiv. rewrite Rinv_r; [apply rnd_1|]. apply IZR_neq. lia.
Qed.

(** ** Slots *)
Lemma slot_truncate d t : 0 < d -> slot d t (truncate t d).
Proof. intros Hd. destruct (truncate_spec t d Hd) as [H1 H2]. split; [|done]. apply Z.mod_divide in H1; [done|lia]. Qed.
Lemma slot_unique d t a b : slot d t a -> slot d t b -> a = b.
Proof.
  intros [[x Ha] H1] [[y Hb] H2]. assert (d * (x - y) = a - b) by lia. assert (x - y = 0) by nia. nia.
Qed.
Lemma due_window d a k : 0 < d -> 0 <= k -> exists l, due d a (k * d) l /\ length l = Z.to_nat k.
Proof.
  intros Hd Hk. destruct (slot_truncate d (a + d - 1) Hd) as [[x Hx] Hf]. set (f := truncate (a + d - 1) d) in *.
  exists ((fun i : nat => f + Z.of_nat i * d) <$> seq 0 (Z.to_nat k)).
  split; [|by rewrite fmap_length, seq_length]. split.
  - apply NoDup_fmap_2_strong; [|apply NoDup_seq]. intros i j _ _ E. nia.
  - intros ts. rewrite elem_of_list_fmap. split.
    + intros (i & -> & Hi). apply elem_of_seq in Hi. split; [|nia]. exists (x + Z.of_nat i). lia.
    + intros [[y Hy] Hts]. exists (Z.to_nat (y - x)). assert (d * (y - x) = ts - f) by lia.
      assert (0 <= y - x) by nia. assert (y - x < k) by nia. split; [rewrite Z2Nat.id by lia; lia|]. apply elem_of_seq. lia.
Qed.

Lemma emitting_spec src d ok : 0 < d -> forall nows last j0,
  length (emitting src d ok last j0 nows) = length nows /\
  forall j now sends warned, nows !! j = Some now -> emitting src d ok last j0 nows !! j = Some (sends, warned) ->
    sends = send_retrying 5 (ok (j0 + j)%nat) 0 (test_batch src (truncate now d)) /\
    (warned = true <-> match j with
                       | O => exists l, last = Some l /\ l + d <> truncate now d
                       | S i => exists prev, nows !! i = Some prev /\ truncate prev d + d <> truncate now d
                       end).
Proof.
  intros Hd. induction nows as [|now nows IH]; intros last j0; [done|]. cbn [emitting length].
  destruct (IH (Some (truncate now d)) (S j0)) as [IH1 IH2]. split; [by rewrite IH1|].
  intros [|j] now' sends warned H1 H2; cbn in H1, H2.
  - injection H1 as ->. injection H2 as <- <-. rewrite Nat.add_0_r. split; [done|]. destruct last as [l|].
    + rewrite negb_true_iff, Z.eqb_neq. split; [eauto|]. by intros (l' & [= ->] & ?).
    + split; [done|]. by intros (l & ? & _).
  - destruct (IH2 j now' sends warned H1 H2) as [H3 H4]. rewrite Nat.add_succ_r. change (S (j0 + j)) with (S j0 + j)%nat.
    split; [exact H3|]. rewrite H4. destruct j as [|i]; cbn.
    + split; [intros (l & [= <-] & ?); eauto|]. intros (p & [= ->] & ?). eauto.
    + done.
Qed.
