(** Proofs about the prune consultant. *)
From Coq Require Import ZArith Reals Lra Lia Psatz.
From Flocq Require Import Core BinarySingleNaN Relative.
From Verif.Prune Require Import Model.
Open Scope Z_scope.

Notation fexp := (SpecFloat.fexp 53 1024).
Notation rnd := (round radix2 fexp ZnearestE).
Notation B2R' := (@B2R 53 1024).

#[local] Instance fexp_valid : Valid_exp fexp := fexp_correct 53 1024 prec_gt_0_53.

Lemma bpow_lt_emax k : k < 1024 -> (bpow radix2 k < bpow radix2 1024)%R.
Proof. apply bpow_lt. Qed.

Lemma format_bpow k : -1074 <= k -> generic_format radix2 fexp (bpow radix2 k).
Proof.
  intros Hk. apply generic_format_bpow. unfold SpecFloat.fexp, SpecFloat.emin. lia.
Qed.

Lemma rnd_bound x k : -1074 <= k < 1024 -> (Rabs x <= bpow radix2 k)%R ->
  (Rabs (rnd x) <= bpow radix2 k)%R /\ (Rabs (rnd x) < bpow radix2 1024)%R.
Proof.
  intros Hk Hx.
  assert (H : (Rabs (rnd x) <= bpow radix2 k)%R).
  { apply abs_round_le_generic; auto with typeclass_instances. apply format_bpow; lia. }
  split; [exact H|]. eapply Rle_lt_trans; [exact H|]. apply bpow_lt_emax. lia.
Qed.

Lemma rnd_nonneg x : (0 <= x)%R -> (0 <= rnd x)%R.
Proof.
  intros H. rewrite <- (round_0 radix2 fexp ZnearestE).
  apply round_le; auto with typeclass_instances.
Qed.

Lemma rnd_le_format x y : generic_format radix2 fexp y -> (x <= y)%R -> (rnd x <= y)%R.
Proof. intros Hy Hx. apply round_le_generic; auto with typeclass_instances. Qed.
Lemma rnd_ge_format x y : generic_format radix2 fexp y -> (y <= x)%R -> (y <= rnd x)%R.
Proof. intros Hy Hx. apply round_ge_generic; auto with typeclass_instances. Qed.

Lemma format_int z : Z.abs z <= 2 ^ 53 -> generic_format radix2 fexp (IZR z).
Proof.
  intros Hz. destruct (Z.eq_dec (Z.abs z) (2 ^ 53)) as [He|Hne].
  - assert (H : generic_format radix2 fexp (IZR (Z.abs z))).
    { rewrite He. change (IZR (2 ^ 53)) with (IZR (Zpower radix2 53)).
      rewrite IZR_Zpower by lia. apply format_bpow. lia. }
    destruct (Z.abs_eq_or_opp z) as [E|E]; rewrite E in H; [exact H|].
    rewrite opp_IZR in H. apply generic_format_opp in H. rewrite Ropp_involutive in H. exact H.
  - apply generic_format_FLT. apply FLT_spec with (Float radix2 z 0).
    + unfold F2R; cbn. lra.
    + cbn [Fnum]. change (radix2 ^ 53) with (2 ^ 53). lia.
    + cbn. lia.
Qed.

Lemma rnd_int z : Z.abs z <= 2 ^ 53 -> rnd (IZR z) = IZR z.
Proof. intros H. apply round_generic; auto with typeclass_instances. apply format_int; exact H. Qed.

Lemma of_int_spec z : Z.abs z <= 2 ^ 64 ->
  is_finite (of_int z) = true /\ B2R (of_int z) = rnd (IZR z).
Proof.
  intros Hz. unfold of_int.
  pose proof (binary_normalize_correct 53 1024 prec_gt_0_53 prec_lt_emax_53 mode_NE z 0 false) as H.
  cbv zeta in H. replace (F2R (Float radix2 z 0)) with (IZR z) in H by (unfold F2R; cbn; lra).
  rewrite Rlt_bool_true in H.
  - destruct H as (H1 & H2 & _). split; [exact H2|exact H1].
  - cbn [round_mode]. apply (rnd_bound _ 64); [lia|]. rewrite <- abs_IZR.
    change (bpow radix2 64) with (IZR (2 ^ 64)). apply IZR_le. exact Hz.
Qed.

Lemma rnd_int_ge1 t : 1 <= t -> (1 <= rnd (IZR t))%R.
Proof.
  intros Ht. apply rnd_ge_format; [|apply IZR_le; exact Ht].
  apply (format_int 1). cbn. lia.
Qed.

(** heapPercentage is finite and not negative when total is not 0. *)
Lemma hp_spec heap total : 0 <= heap < 2 ^ 64 -> 1 <= total < 2 ^ 64 ->
  is_finite (heap_percentage heap total) = true /\
  B2R (heap_percentage heap total) = rnd (rnd (IZR (mul_u64 heap 100)) / rnd (IZR total)) /\
  (0 <= B2R (heap_percentage heap total))%R.
Proof.
  intros Hh Ht. unfold heap_percentage, fdiv.
  assert (Hm : 0 <= mul_u64 heap 100 < 2 ^ 64) by (unfold mul_u64; apply Z.mod_pos_bound; lia).
  destruct (of_int_spec (mul_u64 heap 100) ltac:(lia)) as [F1 E1].
  destruct (of_int_spec total ltac:(lia)) as [F2 E2].
  pose proof (rnd_int_ge1 total ltac:(lia)) as Hge1.
  pose proof (Bdiv_correct 53 1024 prec_gt_0_53 prec_lt_emax_53 mode_NE
    (of_int (mul_u64 heap 100)) (of_int total)) as H.
  rewrite E1, E2 in H. specialize (H ltac:(lra)).
  assert (Hn : (0 <= rnd (IZR (mul_u64 heap 100)))%R) by (apply rnd_nonneg, IZR_le; lia).
  assert (Hle : (rnd (IZR (mul_u64 heap 100)) <= bpow radix2 64)%R).
  { apply rnd_le_format; [apply format_bpow; lia|].
    change (bpow radix2 64) with (IZR (2 ^ 64)). apply IZR_le. lia. }
  assert (Hq : (0 <= rnd (IZR (mul_u64 heap 100)) / rnd (IZR total))%R).
  { apply Rmult_le_pos; [exact Hn|]. apply Rlt_le, Rinv_0_lt_compat. lra. }
  assert (Hq2 : (rnd (IZR (mul_u64 heap 100)) / rnd (IZR total) <= bpow radix2 64)%R).
  { apply Rle_trans with (rnd (IZR (mul_u64 heap 100)) / 1)%R; [|lra].
    apply Rmult_le_compat_l; [exact Hn|]. apply Rinv_le; lra. }
  rewrite Rlt_bool_true in H.
  - destruct H as (H1 & H2 & _). rewrite H2, H1. split; [exact F1|]. split; [reflexivity|].
    apply rnd_nonneg; exact Hq.
  - cbn [round_mode]. apply (rnd_bound _ 64); [lia|]. rewrite Rabs_pos_eq by exact Hq. exact Hq2.
Qed.

Lemma fgt_spec x y : is_finite x = true -> is_finite y = true ->
  fgt x y = Rlt_bool (B2R y) (B2R x).
Proof. intros. unfold fgt. apply Bltb_correct; assumption. Qed.

(** The fraction to prune lies between 0 and 1. *)
Section Fraction.
Variables (hp pct : f64).
Hypothesis Fh : is_finite hp = true.
Hypothesis Fp : is_finite pct = true.
Hypothesis Pp : (0 <= B2R pct)%R.
Hypothesis Hgt : (B2R pct < B2R hp)%R.

Lemma fsub_spec : is_finite (fsub hp pct) = true /\
  B2R (fsub hp pct) = rnd (B2R hp - B2R pct) /\ (0 <= B2R (fsub hp pct) <= B2R hp)%R.
Proof.
  unfold fsub.
  pose proof (Bminus_correct 53 1024 prec_gt_0_53 prec_lt_emax_53 mode_NE hp pct Fh Fp) as H.
  assert (Hr : (0 <= rnd (B2R hp - B2R pct) <= B2R hp)%R).
  { split; [apply rnd_nonneg; lra|]. apply rnd_le_format; [apply generic_format_B2R|lra]. }
  rewrite Rlt_bool_true in H.
  - destruct H as (H1 & H2 & _). cbn [round_mode] in H1. rewrite H1. auto.
  - cbn [round_mode]. rewrite Rabs_pos_eq by lra.
    apply Rle_lt_trans with (B2R hp); [lra|].
    eapply Rle_lt_trans; [apply Rle_abs|]. apply abs_B2R_lt_emax.
Qed.

Lemma ffrac_spec : is_finite (fdiv (fsub hp pct) hp) = true /\
  B2R (fdiv (fsub hp pct) hp) = rnd (B2R (fsub hp pct) / B2R hp) /\
  (0 <= B2R (fdiv (fsub hp pct) hp) <= 1)%R /\
  (0 <= B2R (fsub hp pct) / B2R hp <= 1)%R.
Proof.
  destruct fsub_spec as (F1 & _ & Hb). unfold fdiv.
  pose proof (Bdiv_correct 53 1024 prec_gt_0_53 prec_lt_emax_53 mode_NE (fsub hp pct) hp) as H.
  specialize (H ltac:(lra)).
  assert (Hq : (0 <= B2R (fsub hp pct) / B2R hp <= 1)%R).
  { split.
    - apply Rmult_le_pos; [lra|]. apply Rlt_le, Rinv_0_lt_compat. lra.
    - apply Rmult_le_reg_r with (B2R hp); [lra|]. unfold Rdiv.
      rewrite Rmult_assoc, Rinv_l by lra. lra. }
  assert (Hr : (0 <= rnd (B2R (fsub hp pct) / B2R hp) <= 1)%R).
  { split; [apply rnd_nonneg; lra|]. apply rnd_le_format; [apply (format_int 1); cbn; lia|lra]. }
  rewrite Rlt_bool_true in H.
  - destruct H as (H1 & H2 & _). cbn [round_mode] in H1. rewrite H2, H1. auto.
  - cbn [round_mode]. rewrite Rabs_pos_eq by lra.
    apply Rle_lt_trans with 1%R; [lra|]. apply (bpow_lt radix2 0 1024). lia.
Qed.

Lemma fquant_spec count : 0 <= count <= 2 ^ 53 ->
  let r := fmul (of_int count) (fdiv (fsub hp pct) hp) in
  is_finite r = true /\
  B2R r = rnd (IZR count * B2R (fdiv (fsub hp pct) hp)) /\ (0 <= B2R r <= IZR count)%R.
Proof.
  intros Hc. cbv zeta. destruct ffrac_spec as (F1 & _ & Hb & _). unfold fmul.
  destruct (of_int_spec count ltac:(lia)) as [F2 E2]. rewrite rnd_int in E2 by lia.
  pose proof (Bmult_correct 53 1024 prec_gt_0_53 prec_lt_emax_53 mode_NE (of_int count)
    (fdiv (fsub hp pct) hp)) as H.
  rewrite E2 in H.
  assert (H0 : (0 <= IZR count)%R) by (apply IZR_le; lia).
  assert (Hr : (0 <= rnd (IZR count * B2R (fdiv (fsub hp pct) hp)) <= IZR count)%R).
  { split; [apply rnd_nonneg, Rmult_le_pos; lra|].
    apply rnd_le_format; [apply format_int; lia|].
    rewrite <- (Rmult_1_r (IZR count)) at 2. apply Rmult_le_compat_l; lra. }
  rewrite Rlt_bool_true in H.
  - destruct H as (H1 & H2 & _). cbn [round_mode] in H1. rewrite H2, H1, F1, F2. auto.
  - cbn [round_mode]. rewrite Rabs_pos_eq by lra.
    apply Rle_lt_trans with (IZR (2 ^ 53)); [apply Rle_trans with (IZR count); [lra|apply IZR_le; lia]|].
    apply (bpow_lt radix2 53 1024). lia.
Qed.
End Fraction.

Lemma trunc_spec (x : f64) : (0 <= B2R x)%R -> Btrunc x = Zfloor (B2R x).
Proof.
  intros H. apply eq_IZR. rewrite Btrunc_correct; [|exact prec_lt_emax_53].
  unfold round, F2R, scaled_mantissa, cexp, FIX_exp. cbn. rewrite !Rmult_1_r.
  rewrite Ztrunc_floor by exact H. reflexivity.
Qed.

Lemma to_int_spec (x : f64) (n : Z) : is_finite x = true -> (0 <= B2R x <= IZR n)%R -> n < 2 ^ 63 ->
  exists q, to_int x = Some q /\ 0 <= q <= n /\ (IZR q <= B2R x < IZR q + 1)%R.
Proof.
  intros F H Hn. exists (Zfloor (B2R x)).
  assert (H1 : 0 <= Zfloor (B2R x)) by (apply Zfloor_lub; lra).
  assert (H2 : Zfloor (B2R x) <= n).
  { rewrite <- (Zfloor_IZR n). apply Zfloor_le. lra. }
  unfold to_int. rewrite F, trunc_spec by lra.
  rewrite (proj2 (Z.leb_le _ _)), (proj2 (Z.ltb_lt _ _)) by lia. cbn.
  split; [reflexivity|]. split; [lia|]. split; [apply Zfloor_lb|apply Zfloor_ub].
Qed.

Lemma quantity_bounded heap total pct count :
  0 <= heap < 2 ^ 64 -> 1 <= total < 2 ^ 64 ->
  is_finite pct = true -> (0 <= B2R pct)%R -> 0 <= count <= 2 ^ 53 ->
  exists q, quantity_to_prune heap total pct count = Some q /\ 0 <= q <= count.
Proof.
  intros Hh Ht Fp Pp Hc. unfold quantity_to_prune.
  destruct (hp_spec heap total Hh Ht) as (Fh & _ & _).
  rewrite fgt_spec by assumption. case Rlt_bool_spec; intros Hlt; [|exists 0; split; [reflexivity|lia]].
  destruct (fquant_spec _ pct Fh Fp Pp Hlt count Hc) as (F & _ & Hb).
  destruct (to_int_spec _ count F Hb ltac:(lia)) as (q & Hq & Hq' & _).
  exists q. auto.
Qed.

Lemma quantity_zero heap total pct count :
  0 <= heap -> heap * 100 <= 2 ^ 53 -> 1 <= total <= 2 ^ 53 ->
  is_finite pct = true -> (IZR (100 * heap) / IZR total <= B2R pct)%R ->
  quantity_to_prune heap total pct count = Some 0.
Proof.
  intros Hh Hh' Ht Fp Hle. unfold quantity_to_prune.
  destruct (hp_spec heap total ltac:(lia) ltac:(lia)) as (Fh & Eh & _).
  rewrite fgt_spec by assumption. rewrite Rlt_bool_false; [reflexivity|].
  rewrite Eh. unfold mul_u64. rewrite Z.mod_small by lia.
  rewrite !rnd_int by lia. rewrite Z.mul_comm.
  apply rnd_le_format; [apply generic_format_B2R|exact Hle].
Qed.

(** ** Accuracy *)
Definition u := bpow radix2 (-53).
Definition eta := bpow radix2 (-1075).

Lemma rnd_error x : (Rabs (rnd x - x) <= u * Rabs x + eta)%R.
Proof.
  destruct (error_N_FLT radix2 (-1074) 53 ltac:(lia) (fun z => negb (Z.even z)) x)
    as (eps & et & He & Ht & _ & Hx).
  change (rnd x) with (round radix2 (FLT_exp (-1074) 53) (Znearest (fun z => negb (Z.even z))) x).
  rewrite Hx. replace (x * (1 + eps) + et - x)%R with (eps * x + et)%R by ring.
  eapply Rle_trans; [apply Rabs_triang|]. rewrite Rabs_mult.
  apply Rplus_le_compat.
  - apply Rmult_le_compat_r; [apply Rabs_pos|]. eapply Rle_trans; [exact He|].
    unfold u.
    change (- (53) + 1) with (-53 + 1). rewrite (bpow_plus radix2 (-53) 1). change (bpow radix2 1) with 2%R. lra.
  - eapply Rle_trans; [exact Ht|]. unfold eta.
    replace (-1075) with (-1 + -1074) by lia. rewrite (bpow_plus radix2 (-1)).
    change (bpow radix2 (-1)) with (/ 2)%R. lra.
Qed.

Lemma accuracy_abs (H P hp d q' r c ka : R) :
  (0 <= P -> P < hp -> 0 < H -> 0 <= c ->
   Rabs (hp - H) <= u * H + eta -> 0 <= d <= hp ->
   Rabs (d - (hp - P)) <= u * (hp - P) + eta ->
   Rabs (q' - d / hp) <= u * (d / hp) + eta -> 0 <= q' <= 1 ->
   Rabs (r - c * q') <= u * (c * q') + eta ->
   eta <= ka * H -> eta <= ka * hp ->
   Rabs (r - c * ((H - P) / H)) <= c * (4 * u + 2 * ka + eta) + eta)%R.
Proof.
  intros HP HPh HH Hc E1 Hd E2 E3 Hq E4 K1 K2.
  assert (Hu : (0 < u)%R) by apply bpow_gt_0.
  assert (He : (0 < eta)%R) by apply bpow_gt_0.
  assert (Hhp : (0 < hp)%R) by lra.
  assert (Hdh : (0 <= d / hp <= 1)%R).
  { split.
    - apply Rmult_le_pos; [lra|]. apply Rlt_le, Rinv_0_lt_compat. lra.
    - apply Rmult_le_reg_r with hp; [lra|]. unfold Rdiv. rewrite Rmult_assoc, Rinv_l by lra. lra. }
  assert (A1 : (Rabs ((hp - P) / hp - (H - P) / H) <= u + ka)%R).
  { replace ((hp - P) / hp - (H - P) / H)%R with ((P / hp) * ((hp - H) / H))%R by (field; lra).
    rewrite Rabs_mult.
    assert (B1 : (0 <= P / hp <= 1)%R).
    { split.
      - apply Rmult_le_pos; [lra|]. apply Rlt_le, Rinv_0_lt_compat. lra.
      - apply Rmult_le_reg_r with hp; [lra|]. unfold Rdiv. rewrite Rmult_assoc, Rinv_l by lra. lra. }
    assert (B2 : (Rabs ((hp - H) / H) <= u + ka)%R).
    { unfold Rdiv. rewrite Rabs_mult, (Rabs_pos_eq (/ H)) by (apply Rlt_le, Rinv_0_lt_compat; lra).
      apply Rmult_le_reg_r with H; [lra|]. rewrite Rmult_assoc, Rinv_l, Rmult_1_r by lra. lra. }
    rewrite (Rabs_pos_eq (P / hp)) by lra.
    apply Rle_trans with (1 * (u + ka))%R; [|lra].
    apply Rmult_le_compat; try lra. apply Rabs_pos. }
  assert (A2 : (Rabs (d / hp - (hp - P) / hp) <= u + ka)%R).
  { replace (d / hp - (hp - P) / hp)%R with ((d - (hp - P)) / hp)%R by (field; lra).
    unfold Rdiv. rewrite Rabs_mult, (Rabs_pos_eq (/ hp)) by (apply Rlt_le, Rinv_0_lt_compat; lra).
    apply Rmult_le_reg_r with hp; [lra|]. rewrite Rmult_assoc, Rinv_l, Rmult_1_r by lra.
    assert (u * (hp - P) <= u * hp)%R by (apply Rmult_le_compat_l; lra). lra. }
  assert (A3 : (Rabs (q' - d / hp) <= u + eta)%R).
  { assert (u * (d / hp) <= u * 1)%R by (apply Rmult_le_compat_l; lra). lra. }
  assert (A4 : (Rabs (q' - (H - P) / H) <= 3 * u + 2 * ka + eta)%R).
  { replace (q' - (H - P) / H)%R
      with ((q' - d / hp) + ((d / hp - (hp - P) / hp) + ((hp - P) / hp - (H - P) / H)))%R by ring.
    eapply Rle_trans; [apply Rabs_triang|].
    pose proof (Rabs_triang (d / hp - (hp - P) / hp) ((hp - P) / hp - (H - P) / H)). lra. }
  assert (A5 : (Rabs (r - c * q') <= u * c + eta)%R).
  { assert (u * (c * q') <= u * (c * 1))%R by (apply Rmult_le_compat_l; [lra|]; apply Rmult_le_compat_l; lra). lra. }
  replace (r - c * ((H - P) / H))%R with ((r - c * q') + c * (q' - (H - P) / H))%R by ring.
  eapply Rle_trans; [apply Rabs_triang|]. rewrite Rabs_mult, (Rabs_pos_eq c) by lra.
  assert (c * Rabs (q' - (H - P) / H) <= c * (3 * u + 2 * ka + eta))%R by (apply Rmult_le_compat_l; lra).
  lra.
Qed.

Lemma quantity_accurate heap total pct count :
  0 <= heap -> heap * 100 <= 2 ^ 53 -> 1 <= total <= 2 ^ 53 ->
  is_finite pct = true -> (0 <= B2R pct)%R -> 0 <= count <= 2 ^ 50 ->
  let exact := (IZR (100 * heap) / IZR total)%R in
  (B2R pct < exact)%R ->
  exists q, quantity_to_prune heap total pct count = Some q /\
    (Rabs (IZR q - IZR count * ((exact - B2R pct) / exact)) < 2)%R.
Proof.
  intros Hh Hh' Ht Fp Pp Hc exact Hex. unfold quantity_to_prune.
  destruct (hp_spec heap total ltac:(lia) ltac:(lia)) as (Fh & Eh & _).
  assert (Eh' : B2R (heap_percentage heap total) = rnd exact).
  { rewrite Eh. unfold mul_u64. rewrite Z.mod_small by lia. rewrite !rnd_int by lia.
    unfold exact. rewrite (Z.mul_comm heap). reflexivity. }
  assert (Ht0 : (1 <= IZR total)%R) by (apply IZR_le; lia).
  assert (Ht1 : (IZR total <= bpow radix2 53)%R).
  { change (bpow radix2 53) with (IZR (2 ^ 53)). apply IZR_le. lia. }
  assert (Hpos : (0 < exact)%R) by lra.
  assert (Hh1 : 1 <= 100 * heap).
  { destruct (Z.eq_dec heap 0) as [->|Hne]; [|lia].
    unfold exact in Hpos. rewrite Z.mul_0_r in Hpos. unfold Rdiv in Hpos. rewrite Rmult_0_l in Hpos. lra. }
  assert (Hu : (0 < u)%R) by apply bpow_gt_0.
  assert (He : (0 < eta)%R) by apply bpow_gt_0.
  assert (Hmin : (u <= exact)%R).
  { unfold exact. apply Rle_trans with (1 / IZR total)%R.
    - unfold u. change (-53) with (- (53)). rewrite bpow_opp. unfold Rdiv. rewrite Rmult_1_l.
      apply Rinv_le; lra.
    - apply Rmult_le_compat_r; [apply Rlt_le, Rinv_0_lt_compat; lra|]. apply IZR_le. lia. }
  assert (Hmin' : (u <= B2R (heap_percentage heap total))%R).
  { rewrite Eh'. apply rnd_ge_format; [apply format_bpow; lia|exact Hmin]. }
  set (ka := bpow radix2 (-1022)).
  assert (Hka : (eta = ka * u)%R) by (unfold eta, ka, u; rewrite <- bpow_plus; reflexivity).
  assert (Hk0 : (0 < ka)%R) by apply bpow_gt_0.
  assert (K1 : (eta <= ka * exact)%R) by (rewrite Hka; apply Rmult_le_compat_l; lra).
  assert (K2 : (eta <= ka * B2R (heap_percentage heap total))%R) by (rewrite Hka; apply Rmult_le_compat_l; lra).
  assert (Hc0 : (0 <= IZR count)%R) by (apply IZR_le; lia).
  assert (Hcu : (IZR count * u <= / 8)%R).
  { apply Rle_trans with (bpow radix2 50 * u)%R.
    - apply Rmult_le_compat_r; [lra|]. change (bpow radix2 50) with (IZR (2 ^ 50)). apply IZR_le. lia.
    - unfold u. rewrite <- bpow_plus. change (bpow radix2 (50 + -53)) with (/ 8)%R. lra. }
  assert (Hkau : (ka <= u * / 8)%R).
  { unfold ka, u. change (/ 8)%R with (bpow radix2 (-3)). rewrite <- bpow_plus. apply bpow_le. lia. }
  assert (Heu : (eta <= u * / 8)%R).
  { unfold eta, u. change (/ 8)%R with (bpow radix2 (-3)). rewrite <- bpow_plus. apply bpow_le. lia. }
  assert (Hu1 : (u <= / 8)%R) by (change (/ 8)%R with (bpow radix2 (-3)); apply bpow_le; lia).
  assert (Hck : (IZR count * ka <= / 8 * / 8)%R).
  { apply Rle_trans with (IZR count * (u * / 8))%R; [apply Rmult_le_compat_l; lra|lra]. }
  assert (Hce : (IZR count * eta <= / 8 * / 8)%R).
  { apply Rle_trans with (IZR count * (u * / 8))%R; [apply Rmult_le_compat_l; lra|lra]. }
  assert (Herr : (Rabs (B2R (heap_percentage heap total) - exact) <= u * exact + eta)%R).
  { rewrite Eh'. rewrite <- (Rabs_pos_eq exact) at 3 by lra. apply rnd_error. }
  rewrite fgt_spec by assumption. case Rlt_bool_spec; intros Hlt.
  - destruct (fsub_spec _ pct Fh Fp Pp Hlt) as (F1 & E1 & B1).
    destruct (ffrac_spec _ pct Fh Fp Pp Hlt) as (F2 & E2 & B2 & B2').
    destruct (fquant_spec _ pct Fh Fp Pp Hlt count ltac:(lia)) as (F3 & E3 & B3).
    destruct (to_int_spec _ count F3 B3 ltac:(lia)) as (q & Hq & _ & Hq').
    exists q. split; [exact Hq|].
    set (r := B2R (fmul (of_int count) (fdiv (fsub (heap_percentage heap total) pct) (heap_percentage heap total)))) in *.
    assert (Hacc : (Rabs (r - IZR count * ((exact - B2R pct) / exact)) <=
      IZR count * (4 * u + 2 * ka + eta) + eta)%R).
    { apply (accuracy_abs exact (B2R pct) (B2R (heap_percentage heap total))
        (B2R (fsub (heap_percentage heap total) pct))
        (B2R (fdiv (fsub (heap_percentage heap total) pct) (heap_percentage heap total))));
        try assumption.
      - rewrite E1. rewrite <- (Rabs_pos_eq (B2R (heap_percentage heap total) - B2R pct)) at 3 by lra.
        apply rnd_error.
      - rewrite E2 at 1. rewrite <- (Rabs_pos_eq (B2R (fsub (heap_percentage heap total) pct) / B2R (heap_percentage heap total))) at 3 by lra.
        apply rnd_error.
      - rewrite E3. rewrite <- (Rabs_pos_eq (IZR count * _)) at 3 by (apply Rmult_le_pos; lra).
        apply rnd_error. }
    apply Rabs_le_inv in Hacc. apply Rabs_lt. lra.
  - exists 0. split; [reflexivity|].
    apply Rabs_le_inv in Herr.
    assert (Hv : (0 <= (exact - B2R pct) / exact <= u + ka)%R).
    { split; [apply Rmult_le_pos; [lra|apply Rlt_le, Rinv_0_lt_compat; lra]|].
      apply Rmult_le_reg_r with exact; [lra|]. unfold Rdiv. rewrite Rmult_assoc, Rinv_l by lra. lra. }
    assert (Hcv : (0 <= IZR count * ((exact - B2R pct) / exact) <= IZR count * (u + ka))%R).
    { split; [apply Rmult_le_pos; lra|apply Rmult_le_compat_l; lra]. }
    apply Rabs_lt. lra.
Qed.

(** ** Witnesses *)
Lemma of_int_exact z : 0 <= z <= 2 ^ 53 -> is_finite (of_int z) = true /\ B2R (of_int z) = IZR z.
Proof.
  intros H. destruct (of_int_spec z ltac:(lia)) as [H1 H2]. split; [exact H1|].
  rewrite H2. apply rnd_int. lia.
Qed.

(** No memory total: the quotient of two infinities is not a number. *)
Lemma no_total : exists heap total (pct : f64) count,
  0 <= heap < 2 ^ 64 /\ 0 <= total < 2 ^ 64 /\ is_finite pct = true /\ (0 <= B2R pct <= 100)%R /\
  0 <= count < 2 ^ 63 /\ quantity_to_prune heap total pct count = None.
Proof.
  exists 1, 0, (of_int 50), 1000. destruct (of_int_exact 50 ltac:(lia)) as [H1 H2].
  split; [lia|]. split; [lia|]. split; [exact H1|]. split; [rewrite H2; lra|]. split; [lia|].
  vm_compute. reflexivity.
Qed.

(** More than 2^53 envelopes: more than are stored. *)
Lemma too_many : exists heap total (pct : f64) count q,
  0 <= heap < 2 ^ 64 /\ 1 <= total < 2 ^ 64 /\ is_finite pct = true /\ (0 <= B2R pct <= 100)%R /\
  0 <= count < 2 ^ 63 /\ quantity_to_prune heap total pct count = Some q /\ count < q.
Proof.
  exists 1, 1, (of_int 0), (2 ^ 53 + 3), (2 ^ 53 + 4). destruct (of_int_exact 0 ltac:(lia)) as [H1 H2].
  split; [lia|]. split; [lia|]. split; [exact H1|]. split; [rewrite H2; lra|]. split; [lia|].
  split; [vm_compute; reflexivity|lia].
Qed.

(** Memory beyond 2^53 bytes: at the limit, yet something is pruned. *)
Lemma not_zero : exists heap total (pct : f64) count q,
  0 <= heap < 2 ^ 64 /\ heap * 100 < 2 ^ 64 /\ 1 <= total < 2 ^ 64 /\ is_finite pct = true /\
  (0 <= B2R pct <= 100)%R /\ 0 <= count < 2 ^ 63 /\
  (IZR (100 * heap) / IZR total <= B2R pct)%R /\
  quantity_to_prune heap total pct count = Some q /\ 0 < q.
Proof.
  exists (2 ^ 53 + 1), (2 ^ 53 + 1), (of_int 100), (2 ^ 60), 163.
  destruct (of_int_exact 100 ltac:(lia)) as [H1 H2].
  split; [lia|]. split; [lia|]. split; [lia|]. split; [exact H1|]. split; [rewrite H2; lra|].
  split; [lia|]. split; [rewrite H2, mult_IZR; unfold Rdiv; rewrite Rmult_assoc, Rinv_r; [lra|]|].
  { apply not_0_IZR. lia. }
  split; [vm_compute; reflexivity|lia].
Qed.

(** A heap so large that the multiplication wraps: nothing is pruned although the
    heap fills the memory. *)
Lemma wraps : exists heap total (pct : f64) count,
  0 <= heap < 2 ^ 64 /\ 1 <= total < 2 ^ 64 /\ is_finite pct = true /\ (0 <= B2R pct <= 50)%R /\
  (IZR (100 * heap) / IZR total = 100)%R /\ count = 1000 /\
  quantity_to_prune heap total pct count = Some 0.
Proof.
  exists (2 ^ 62), (2 ^ 62), (of_int 50), 1000.
  destruct (of_int_exact 50 ltac:(lia)) as [H1 H2].
  split; [lia|]. split; [lia|]. split; [exact H1|]. split; [rewrite H2; lra|].
  split; [rewrite mult_IZR; unfold Rdiv; rewrite Rmult_assoc, Rinv_r; [lra|]; apply not_0_IZR; lia|].
  split; [reflexivity|]. vm_compute. reflexivity.
Qed.
