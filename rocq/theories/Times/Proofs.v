(** Lemmas about the times of PromQL queries. *)
From Coq Require Import Ascii String ZArith Reals Lra Lia Psatz.
From Flocq Require Import Core BinarySingleNaN Relative.
From Verif.Base Require Import GoInt Dec.
From Verif.Prune Require Import Model Proofs.
From Verif.Times Require Import Model Spec.
Open Scope Z_scope.

#[local] Instance fexp_valid : Valid_exp fexp := fexp_correct 53 1024 prec_gt_0_53.

(** * Texts *)
Lemma numeral3 a b c : 0 <= a < 10 -> 0 <= b < 10 -> 0 <= c < 10 ->
  numeral (String (digit_char a) (String (digit_char b) (String (digit_char c) EmptyString))) (100 * a + 10 * b + c).
Proof.
  intros Ha Hb Hc.
  destruct (digit_char_ok a Ha) as [A1 A2], (digit_char_ok b Hb) as [B1 B2], (digit_char_ok c Hc) as [C1 C2].
  replace (100 * a + 10 * b + c) with (10 * (10 * digit_val (digit_char a) + digit_val (digit_char b)) + digit_val (digit_char c)) by lia.
  change (String (digit_char a) (String (digit_char b) (String (digit_char c) EmptyString)))
    with (append (append (String (digit_char a) EmptyString) (String (digit_char b) EmptyString)) (String (digit_char c) EmptyString)).
  constructor; [|exact C1]. constructor; [|exact B1]. constructor. exact A1.
Qed.

Lemma print3_decimal neg n : 0 <= n < 2 ^ 64 -> decimal (print3 neg n) (if neg then - n else n) 3.
Proof.
  intros Hn. unfold print3.
  assert (H : unsigned (append (format_uint (n / 1000))
       (String "." (String (digit_char (n mod 1000 / 100))
          (String (digit_char (n mod 100 / 10)) (String (digit_char (n mod 10)) EmptyString))))) n 3).
  { assert (E : n = n / 1000 * 10 ^ 3 + (100 * (n mod 1000 / 100) + 10 * (n mod 100 / 10) + n mod 10)).
    { change (10 ^ 3) with 1000.
      pose proof (Z.div_mod n 1000 ltac:(lia)). pose proof (Z.div_mod (n mod 1000) 100 ltac:(lia)).
      pose proof (Z.div_mod (n mod 100) 10 ltac:(lia)).
      rewrite <- (Znumtheory.Zmod_div_mod 100 1000 n) in H0 by (try lia; exists 10; reflexivity).
      rewrite <- (Znumtheory.Zmod_div_mod 10 100 n) in H1 by (try lia; exists 10; reflexivity). lia. }
    rewrite E at 5.
    apply (dec_point (format_uint (n / 1000))
      (String (digit_char (n mod 1000 / 100)) (String (digit_char (n mod 100 / 10)) (String (digit_char (n mod 10)) EmptyString)))
      (n / 1000)).
    - apply format_uint_numeral. unfold inu64. split; [apply Z.div_pos; lia|]. apply Z.div_lt_upper_bound; lia.
    - apply numeral3.
      + split; [apply Z.div_pos; [apply Z.mod_pos_bound|]; lia|]. apply Z.div_lt_upper_bound; [lia|].
        pose proof (Z.mod_pos_bound n 1000). lia.
      + split; [apply Z.div_pos; [apply Z.mod_pos_bound|]; lia|]. apply Z.div_lt_upper_bound; [lia|].
        pose proof (Z.mod_pos_bound n 100). lia.
      + apply Z.mod_pos_bound. lia. }
  destruct neg; [apply dec_minus|apply dec_plain]; exact H.
Qed.

(** * Arithmetic *)
Lemma rnd_flt v : round radix2 (FLT_exp (-1074) 53) ZnearestE v = rnd v.
Proof. reflexivity. Qed.

Lemma of_int_sign z : Z.abs z <= 2 ^ 64 -> Bsign (of_int z) = (z <? 0).
Proof.
  intros Hz. unfold of_int.
  pose proof (binary_normalize_correct 53 1024 prec_gt_0_53 prec_lt_emax_53 mode_NE z 0 false) as H.
  cbv zeta in H. replace (F2R (Float radix2 z 0)) with (IZR z) in H by (unfold F2R; cbn; lra).
  rewrite Rlt_bool_true in H.
  - destruct H as (_ & _ & H3). rewrite H3.
    destruct (Z.ltb_spec z 0).
    + rewrite Rcompare_Lt; [reflexivity|]. apply (IZR_lt z 0). lia.
    + destruct (Z.eq_dec z 0) as [->|Hne]; [rewrite Rcompare_Eq; reflexivity|].
      rewrite Rcompare_Gt; [reflexivity|]. apply (IZR_lt 0 z). lia.
  - cbn [round_mode]. apply (rnd_bound _ 64); [lia|]. rewrite <- abs_IZR.
    change (bpow radix2 64) with (IZR (2 ^ 64)). apply IZR_le. exact Hz.
Qed.

(** Division of a number by an exact constant. *)
Lemma fdiv_int z d : Z.abs z <= 2 ^ 63 -> 1 <= d <= 2 ^ 53 ->
  is_finite (fdiv (of_int z) (of_int d)) = true /\
  B2R (fdiv (of_int z) (of_int d)) = rnd (rnd (IZR z) / IZR d) /\
  Bsign (fdiv (of_int z) (of_int d)) = (z <? 0).
Proof.
  intros Hz Hd. unfold fdiv.
  destruct (of_int_spec z ltac:(lia)) as [F1 E1]. destruct (of_int_exact d ltac:(lia)) as [F2 E2].
  pose proof (Bdiv_correct 53 1024 prec_gt_0_53 prec_lt_emax_53 mode_NE (of_int z) (of_int d)) as H.
  assert (Hd1 : (1 <= IZR d)%R) by (apply IZR_le; lia).
  rewrite E1, E2 in H. specialize (H ltac:(lra)).
  assert (Hb : (Rabs (rnd (IZR z) / IZR d) <= bpow radix2 63)%R).
  { unfold Rdiv. rewrite Rabs_mult, (Rabs_pos_eq (/ IZR d)) by (apply Rlt_le, Rinv_0_lt_compat; lra).
    assert (Hi : (0 < / IZR d <= 1)%R).
    { split; [apply Rinv_0_lt_compat; lra|]. rewrite <- Rinv_1. apply Rinv_le; lra. }
    assert (Hr : (Rabs (rnd (IZR z)) <= bpow radix2 63)%R).
    { apply (rnd_bound _ 63); [lia|]. rewrite <- abs_IZR. change (bpow radix2 63) with (IZR (2 ^ 63)). apply IZR_le. exact Hz. }
    eapply Rle_trans; [|exact Hr]. rewrite <- (Rmult_1_r (Rabs (rnd (IZR z)))) at 2.
    apply Rmult_le_compat_l; [apply Rabs_pos|apply Hi]. }
  rewrite Rlt_bool_true in H.
  - destruct H as (H1 & H2 & H3). rewrite H2. split; [exact F1|]. split; [exact H1|].
    rewrite H3.
    + rewrite (of_int_sign z), (of_int_sign d) by lia. destruct (Z.ltb_spec d 0); [lia|]. destruct (z <? 0); reflexivity.
    + pose proof H2 as H2'. rewrite F1 in H2'. destruct (Bdiv mode_NE (of_int z) (of_int d)); [reflexivity..|discriminate|reflexivity].
  - cbn [round_mode]. apply (rnd_bound _ 63); [lia|exact Hb].
Qed.

Lemma abs_u x a : (Rabs x <= a)%R -> (Rabs (rnd x - x) <= a / 9007199254740992 + / 1000000000000)%R.
Proof.
  intros Hx. eapply Rle_trans; [apply rnd_error|].
  assert (Hu : u = (/ 9007199254740992)%R) by (unfold u; cbn; reflexivity).
  assert (He : (eta <= / 1000000000000)%R).
  { unfold eta. apply Rle_trans with (bpow radix2 (-40)); [apply bpow_le; lia|].
    change (bpow radix2 (-40)) with (/ 1099511627776)%R. lra. }
  rewrite Hu. unfold Rdiv. lra.
Qed.

Lemma nearest_abs x n : (Rabs (1000 * x - IZR n) < / 2)%R -> ZnearestE (1000 * Rabs x) = Z.abs n.
Proof.
  intros H. apply Znearest_imp. rewrite abs_IZR.
  replace (1000 * Rabs x)%R with (Rabs (1000 * x))%R by (rewrite Rabs_mult, (Rabs_pos_eq 1000); lra).
  eapply Rle_lt_trans; [apply Rabs_triang_inv2|exact H].
Qed.

(** A quotient close to n thousandths is printed as n thousandths. *)
Lemma fixed3_int z d n : Z.abs z <= 2 ^ 63 -> 1 <= d <= 2 ^ 53 -> Z.abs n < 2 ^ 64 -> (n < 0 <-> z < 0) ->
  (Rabs (1000 * B2R (fdiv (of_int z) (of_int d)) - IZR n) < / 2)%R ->
  decimal (fixed3 (fdiv (of_int z) (of_int d))) n 3.
Proof.
  intros Hz Hd Hn Hs H. unfold fixed3. destruct (fdiv_int z d Hz Hd) as (_ & _ & ->).
  rewrite (nearest_abs _ n) by exact H.
  pose proof (print3_decimal (z <? 0) (Z.abs n) ltac:(lia)) as P.
  replace (if z <? 0 then - Z.abs n else Z.abs n) with n in P; [exact P|].
  destruct (Z.ltb_spec z 0); lia.
Qed.

(** C98 *)
Lemma promql_time_exact ms : Z.abs ms <= 4 * 10 ^ 15 -> decimal (format_promql_time ms) ms 3.
Proof.
  intros H. unfold format_promql_time. apply fixed3_int; [lia|lia|lia|tauto|].
  destruct (fdiv_int ms 1000 ltac:(lia) ltac:(lia)) as (_ & -> & _). rewrite rnd_int by lia.
  assert (Hq : (Rabs (IZR ms / 1000) <= 4000000000000)%R).
  { unfold Rdiv. rewrite Rabs_mult, <- abs_IZR, (Rabs_pos_eq (/ 1000)) by lra.
    assert (Hm : (IZR (Z.abs ms) <= 4000000000000000)%R) by (apply (IZR_le _ 4000000000000000); lia). lra. }
  pose proof (abs_u _ _ Hq) as He.
  replace (1000 * rnd (IZR ms / 1000) - IZR ms)%R with (1000 * (rnd (IZR ms / 1000) - IZR ms / 1000))%R by field.
  rewrite Rabs_mult, (Rabs_pos_eq 1000) by lra. lra.
Qed.

(** * From texts to times *)
Lemma trunc_Ztrunc (x : f64) : Btrunc x = Ztrunc (B2R x).
Proof.
  apply eq_IZR. rewrite Btrunc_correct; [|exact prec_lt_emax_53].
  unfold round, F2R, scaled_mantissa, cexp, FIX_exp. cbn. rewrite !Rmult_1_r. reflexivity.
Qed.

Lemma Ztrunc_close r : (Rabs (IZR (Ztrunc r) - r) < 1)%R.
Proof.
  unfold Ztrunc. destruct (Rlt_bool_spec r 0).
  - pose proof (Zceil_ub r). pose proof (Zceil_lb r). apply Rabs_def1; lra.
  - pose proof (Zfloor_lb r). pose proof (Zfloor_ub r). apply Rabs_def1; lra.
Qed.

Lemma to_int_trunc (x : f64) : is_finite x = true -> (Rabs (B2R x) < 9223372036854775807)%R ->
  to_int x = Some (Ztrunc (B2R x)).
Proof.
  intros F H. unfold to_int. rewrite F, trunc_Ztrunc.
  pose proof (Ztrunc_close (B2R x)) as Hc.
  apply Rabs_def2 in H as [H1 H2]. apply Rabs_def2 in Hc as [H3 H4].
  assert (L1 : Ztrunc (B2R x) < 2 ^ 63) by (apply lt_IZR; change (IZR (2 ^ 63)) with 9223372036854775808%R; lra).
  assert (L2 : - 2 ^ 63 <= Ztrunc (B2R x)) by (apply le_IZR; change (IZR (- 2 ^ 63)) with (-9223372036854775808)%R; lra).
  rewrite (proj2 (Z.leb_le _ _) L2), (proj2 (Z.ltb_lt _ _) L1). reflexivity.
Qed.

Lemma fmul_1e9 (x : f64) : is_finite x = true -> (Rabs (B2R x) <= 10000000000)%R ->
  is_finite (fmul x (of_int 1000000000)) = true /\ B2R (fmul x (of_int 1000000000)) = rnd (B2R x * 1000000000).
Proof.
  intros F H. unfold fmul. destruct (of_int_exact 1000000000 ltac:(lia)) as [F2 E2].
  pose proof (Bmult_correct 53 1024 prec_gt_0_53 prec_lt_emax_53 mode_NE x (of_int 1000000000)) as M.
  rewrite E2 in M. rewrite Rlt_bool_true in M.
  - destruct M as (M1 & M2 & _). rewrite M2, F, F2. split; [reflexivity|exact M1].
  - cbn [round_mode]. apply (rnd_bound _ 64); [lia|]. rewrite Rabs_mult, (Rabs_pos_eq 1000000000) by lra.
    change (bpow radix2 64) with 18446744073709551616%R. lra.
Qed.

(** A number of seconds v read as a float64 and converted to nanoseconds. *)
Lemma nanos_close x v : nearest x v -> (Rabs v <= 9000000000)%R ->
  exists t, to_int (fmul x (of_int 1000000000)) = Some t /\
    (Rabs (IZR t - v * 1000000000) <= 2100)%R /\
    (Rabs (B2R (fmul x (of_int 1000000000))) < 9223372036854775807)%R /\
    is_finite (fmul x (of_int 1000000000)) = true.
Proof.
  intros [F E] Hv. rewrite rnd_flt in E.
  pose proof (abs_u _ _ Hv) as E1. rewrite <- E in E1.
  assert (Hx : (Rabs (B2R x) <= 9000000001)%R).
  { replace (B2R x) with (v + (B2R x - v))%R by lra. eapply Rle_trans; [apply Rabs_triang|]. lra. }
  destruct (fmul_1e9 x F ltac:(lra)) as [F2 E2].
  assert (Hp : (Rabs (B2R x * 1000000000) <= 9000000001000000000)%R).
  { rewrite Rabs_mult, (Rabs_pos_eq 1000000000); lra. }
  pose proof (abs_u _ _ Hp) as E3. rewrite <- E2 in E3.
  set (p := B2R (fmul x (of_int 1000000000))) in *.
  assert (Hpp : (Rabs p < 9223372036854775807)%R).
  { replace p with (B2R x * 1000000000 + (p - B2R x * 1000000000))%R by lra.
    eapply Rle_lt_trans; [apply Rabs_triang|]. lra. }
  exists (Ztrunc p). split; [apply to_int_trunc; assumption|].
  split; [|split; [exact Hpp|exact F2]].
  pose proof (Ztrunc_close p) as Hc.
  replace (IZR (Ztrunc p) - v * 1000000000)%R with
    ((IZR (Ztrunc p) - p) + ((p - B2R x * 1000000000) + (B2R x - v) * 1000000000))%R by ring.
  eapply Rle_trans; [apply Rabs_triang|].
  eapply Rle_trans; [apply Rplus_le_compat_l, Rabs_triang|].
  rewrite (Rabs_mult (B2R x - v)), (Rabs_pos_eq 1000000000) by lra. lra.
Qed.

Lemma max_float : B2R (of_int (2 ^ 63 - 1)) = 9223372036854775808%R.
Proof.
  rewrite <- SF2R_B2SF.
  assert (E : B2SF (of_int (2 ^ 63 - 1)) = SpecFloat.S754_finite false 4503599627370496 11) by (vm_compute; reflexivity).
  rewrite E. unfold SF2R, F2R, cond_Zopp, Fnum, Fexp. change (bpow radix2 11) with 2048%R. lra.
Qed.
Lemma min_float : B2R (of_int (- 2 ^ 63)) = (-9223372036854775808)%R.
Proof.
  rewrite <- SF2R_B2SF.
  assert (E : B2SF (of_int (- 2 ^ 63)) = SpecFloat.S754_finite true 4503599627370496 11) by (vm_compute; reflexivity).
  rewrite E. unfold SF2R, F2R, cond_Zopp, Fnum, Fexp. change (bpow radix2 11) with 2048%R. rewrite opp_IZR. lra.
Qed.

Lemma time_close L s n k : reads_decimals L -> decimal s n k -> Z.abs n <= 2 ^ 53 -> k <= 15 ->
  (Rabs (IZR n / IZR (10 ^ k)) <= 9000000000)%R ->
  exists t, parse_time L s = Accepted (Some t) /\ parse_step L s = Accepted (Some t) /\
    (Rabs (IZR t - IZR n / IZR (10 ^ k) * 1000000000) <= 2100)%R.
Proof.
  intros HL Hs Hn Hk Hv. destruct (HL s n k Hs Hn Hk) as (x & Ex & Hx).
  destruct (nanos_close x _ Hx Hv) as (t & Et & Hc & Hb & Hf). exists t.
  unfold parse_time, parse_step. rewrite Ex. cbv zeta. rewrite Et. split; [reflexivity|]. split; [|exact Hc].
  destruct (of_int_spec (2 ^ 63 - 1) ltac:(lia)) as [F1 E1]. destruct (of_int_spec (- 2 ^ 63) ltac:(lia)) as [F2 E2].
  rewrite !fgt_spec by assumption. rewrite E1, E2. apply Rabs_def2 in Hb as [B1 B2].
  assert (G1 : (9223372036854775807 <= rnd (IZR (2 ^ 63 - 1)))%R).
  { apply Rle_trans with 9223372036854775808%R; [lra|].
    pose proof (abs_u (IZR (2 ^ 63 - 1)) 9223372036854775807) as Hu.
    assert (HB : B2R (of_int (2 ^ 63 - 1)) = 9223372036854775808%R).
    { apply max_float. }
    rewrite <- E1, HB. lra. }
  assert (G2 : rnd (IZR (- 2 ^ 63)) = (-9223372036854775808)%R).
  { rewrite <- E2. apply min_float. }
  rewrite (Rlt_bool_false (rnd (IZR (2 ^ 63 - 1)))), (Rlt_bool_false _ (rnd (IZR (- 2 ^ 63)))) by lra. reflexivity.
Qed.

(** * From the client to the engine *)
Lemma decimal_time_quotient ns : Z.abs ns <= 9 * 10 ^ 18 ->
  (Rabs (B2R (fdiv (of_int ns) (of_int 1000000000)) - IZR ns / 1000000000) <= / 450000)%R.
Proof.
  intros H. destruct (fdiv_int ns 1000000000 ltac:(lia) ltac:(lia)) as (_ & -> & _).
  assert (Hn : (Rabs (IZR ns) <= 9000000000000000000)%R).
  { rewrite <- abs_IZR. apply (IZR_le _ 9000000000000000000). lia. }
  pose proof (abs_u _ _ Hn) as E1. set (a := rnd (IZR ns)) in *.
  assert (Ha : (Rabs (a / 1000000000) <= 9000000001)%R).
  { unfold Rdiv. rewrite Rabs_mult, (Rabs_pos_eq (/ 1000000000)) by lra.
    assert (Rabs a <= 9000000000000001000)%R; [|lra].
    replace a with (IZR ns + (a - IZR ns))%R by lra. eapply Rle_trans; [apply Rabs_triang|]. lra. }
  pose proof (abs_u _ _ Ha) as E2.
  replace (rnd (a / 1000000000) - IZR ns / 1000000000)%R
    with ((rnd (a / 1000000000) - a / 1000000000) + (a - IZR ns) * / 1000000000)%R by (unfold Rdiv; ring).
  eapply Rle_trans; [apply Rabs_triang|]. rewrite (Rabs_mult (a - IZR ns)), (Rabs_pos_eq (/ 1000000000)) by lra. lra.
Qed.

(** The text for a whole number of milliseconds. *)
Lemma decimal_time_exact ms : Z.abs ms <= 9 * 10 ^ 12 -> decimal (format_decimal_time (ms * 1000000)) ms 3.
Proof.
  intros H. unfold format_decimal_time. apply fixed3_int; [lia|lia|lia|lia|].
  pose proof (decimal_time_quotient (ms * 1000000) ltac:(lia)) as Hq. rewrite mult_IZR in Hq.
  set (x := B2R (fdiv (of_int (ms * 1000000)) (of_int 1000000000))) in *.
  replace (1000 * x - IZR ms)%R with (1000 * (x - IZR ms * 1000000 / 1000000000))%R by field.
  rewrite Rabs_mult, (Rabs_pos_eq 1000) by lra. lra.
Qed.

(** The text for any time. *)
Lemma decimal_time_text ns : Z.abs ns <= 9 * 10 ^ 18 ->
  exists n, decimal (format_decimal_time ns) n 3 /\ Z.abs n <= 9 * 10 ^ 12 /\
    (Rabs (IZR n / 1000 - IZR ns / 1000000000) <= / 2000 + / 450000)%R.
Proof.
  intros H. unfold format_decimal_time, fixed3.
  pose proof (decimal_time_quotient ns H) as Hq.
  destruct (fdiv_int ns 1000000000 ltac:(lia) ltac:(lia)) as (_ & Ex & Hs). rewrite Hs.
  set (x := B2R (fdiv (of_int ns) (of_int 1000000000))) in *.
  set (m := ZnearestE (1000 * Rabs x)).
  assert (Hm : (Rabs (1000 * Rabs x - IZR m) <= / 2)%R) by apply Znearest_half.
  assert (Hm0 : 0 <= m).
  { assert (Hle : ZnearestE (IZR 0) <= m).
    { unfold m. apply Zrnd_le; [apply valid_rnd_N|]. pose proof (Rabs_pos x). lra. }
    rewrite Zrnd_IZR in Hle by apply valid_rnd_N. exact Hle. }
  assert (Hns : (Rabs (IZR ns) <= 9000000000000000000)%R).
  { rewrite <- abs_IZR. apply (IZR_le _ 9000000000000000000). lia. }
  assert (Hx : (Rabs x <= 9000000000 + / 450000)%R).
  { replace x with (IZR ns / 1000000000 + (x - IZR ns / 1000000000))%R by lra.
    eapply Rle_trans; [apply Rabs_triang|].
    unfold Rdiv at 1. rewrite (Rabs_mult (IZR ns)), (Rabs_pos_eq (/ 1000000000)) by lra. lra. }
  assert (Hm1 : m <= 9 * 10 ^ 12).
  { apply Z.lt_succ_r, lt_IZR. change (IZR (Z.succ (9 * 10 ^ 12))) with 9000000000001%R.
    apply Rabs_le_inv in Hm. lra. }
  exists (if ns <? 0 then - m else m). split; [apply print3_decimal; lia|].
  split; [destruct (ns <? 0); lia|].
  assert (Hx0 : (if ns <? 0 then x <= 0 else 0 <= x)%R).
  { rewrite Ex. destruct (Z.ltb_spec ns 0) as [Hlt|Hge].
    - rewrite <- (round_0 radix2 fexp ZnearestE). apply round_le; auto with typeclass_instances.
      assert (rnd (IZR ns) <= 0)%R; [|lra].
      rewrite <- (round_0 radix2 fexp ZnearestE). apply round_le; auto with typeclass_instances. apply IZR_le. lia.
    - apply rnd_nonneg. assert (0 <= rnd (IZR ns))%R; [|lra]. apply rnd_nonneg, IZR_le. lia. }
  assert (Hd : (Rabs (IZR (if ns <? 0 then - m else m) / 1000 - x) <= / 2000)%R).
  { apply Rabs_le_inv in Hm. destruct (ns <? 0).
    - rewrite Rabs_left1 in Hm by exact Hx0. rewrite opp_IZR. apply Rabs_le. lra.
    - rewrite Rabs_pos_eq in Hm by exact Hx0. apply Rabs_le. lra. }
  set (n := if ns <? 0 then - m else m) in *.
  replace (IZR n / 1000 - IZR ns / 1000000000)%R with ((IZR n / 1000 - x) + (x - IZR ns / 1000000000))%R by ring.
  eapply Rle_trans; [apply Rabs_triang|]. lra.
Qed.

Lemma seconds_bound n : Z.abs n <= 9 * 10 ^ 12 -> (Rabs (IZR n / IZR (10 ^ 3)) <= 9000000000)%R.
Proof.
  intros H. change (IZR (10 ^ 3)) with 1000%R. unfold Rdiv. rewrite Rabs_mult, <- abs_IZR, (Rabs_pos_eq (/ 1000)) by lra.
  assert (IZR (Z.abs n) <= 9000000000000)%R by (apply (IZR_le _ 9000000000000); lia). lra.
Qed.

Lemma client_time_close L ns : reads_decimals L -> Z.abs ns <= 9 * 10 ^ 18 ->
  exists t, parse_time L (format_decimal_time ns) = Accepted (Some t) /\ Z.abs (t - ns) <= 505000.
Proof.
  intros HL H. destruct (decimal_time_text ns H) as (n & Hd & Hn & Hc).
  destruct (time_close L _ n 3 HL Hd ltac:(lia) ltac:(lia) (seconds_bound n Hn)) as (t & Et & _ & Ht).
  exists t. split; [exact Et|]. apply le_IZR. rewrite abs_IZR, minus_IZR.
  change (IZR (10 ^ 3)) with 1000%R in Ht.
  replace (IZR t - IZR ns)%R with ((IZR t - IZR n / 1000 * 1000000000) + (IZR n / 1000 - IZR ns / 1000000000) * 1000000000)%R by field.
  eapply Rle_trans; [apply Rabs_triang|].
  rewrite (Rabs_mult (IZR n / 1000 - IZR ns / 1000000000)), (Rabs_pos_eq 1000000000) by lra. lra.
Qed.

Lemma client_millis_close L ms : reads_decimals L -> Z.abs ms <= 9 * 10 ^ 12 ->
  exists t, parse_time L (format_decimal_time (ms * 1000000)) = Accepted (Some t) /\
    Z.abs (t - ms * 1000000) <= 2100 /\ ms - 1 <= from_time t <= ms.
Proof.
  intros HL H.
  destruct (time_close L _ ms 3 HL (decimal_time_exact ms H) ltac:(lia) ltac:(lia) (seconds_bound ms H)) as (t & Et & _ & Ht).
  exists t. split; [exact Et|].
  assert (Hz : Z.abs (t - ms * 1000000) <= 2100).
  { apply le_IZR. rewrite abs_IZR, minus_IZR, mult_IZR. change (IZR (10 ^ 3)) with 1000%R in Ht.
    replace (IZR t - IZR ms * 1000000)%R with (IZR t - IZR ms / 1000 * 1000000000)%R by field. exact Ht. }
  split; [exact Hz|]. unfold from_time. split.
  - apply Z.div_le_lower_bound; lia.
  - apply Z.lt_succ_r, Z.div_lt_upper_bound; lia.
Qed.

Lemma client_seconds_exact L sec : reads_decimals L -> Z.abs sec < 2 ^ 32 ->
  parse_time L (format_decimal_time (sec * 1000000000)) = Accepted (Some (sec * 1000000000)).
Proof.
  intros HL H. replace (sec * 1000000000) with ((sec * 1000) * 1000000) by lia.
  pose proof (decimal_time_exact (sec * 1000) ltac:(lia)) as Hd.
  destruct (HL _ _ _ Hd ltac:(lia) ltac:(lia)) as (x & Ex & F & E).
  unfold parse_time. rewrite Ex. change (IZR (10 ^ 3)) with 1000%R in E. rewrite mult_IZR in E.
  replace (IZR sec * 1000 / 1000)%R with (IZR sec) in E by field. rewrite rnd_flt, rnd_int in E by lia.
  assert (Hs : (Rabs (IZR sec) <= 4294967296)%R) by (rewrite <- abs_IZR; apply (IZR_le _ 4294967296); lia).
  destruct (fmul_1e9 x F) as [F2 E2]; [rewrite E; lra|]. rewrite E in E2.
  assert (G : rnd (IZR sec * 1000000000) = IZR (sec * 1000000000)).
  { rewrite mult_IZR. apply round_generic; auto with typeclass_instances.
    apply generic_format_FLT. apply FLT_spec with (Float radix2 (sec * 1953125) 9).
    - unfold F2R; cbn [Fnum Fexp]. change (bpow radix2 9) with 512%R. rewrite mult_IZR. lra.
    - cbn [Fnum]. change (radix2 ^ 53) with (2 ^ 53). lia.
    - cbn [Fexp]. unfold SpecFloat.emin. lia. }
  rewrite G in E2. rewrite to_int_trunc.
  - rewrite E2, Ztrunc_IZR. do 2 f_equal. lia.
  - exact F2.
  - rewrite E2, <- abs_IZR. apply (IZR_lt _ 9223372036854775807). lia.
Qed.

(** * Examples *)
Lemma nearest_div x n d : 0 < n <= 2 ^ 53 -> 1 <= d <= 2 ^ 53 -> nearest x (IZR n / IZR d) ->
  x = fdiv (of_int n) (of_int d).
Proof.
  intros Hn Hd [F E]. rewrite rnd_flt in E. destruct (fdiv_int n d ltac:(lia) Hd) as (F2 & E2 & _).
  rewrite rnd_int in E2 by lia.
  assert (Hp : (0 < rnd (IZR n / IZR d))%R).
  { apply Rlt_le_trans with (bpow radix2 (-60)); [apply bpow_gt_0|]. apply rnd_ge_format; [apply format_bpow; lia|].
    apply Rle_trans with (1 / IZR d)%R.
    - unfold Rdiv. rewrite Rmult_1_l. change (bpow radix2 (-60)) with (/ IZR (2 ^ 60))%R.
      apply Rinv_le; [apply (IZR_lt 0); lia|]. apply IZR_le. lia.
    - apply Rmult_le_compat_r; [apply Rlt_le, Rinv_0_lt_compat, (IZR_lt 0); lia|]. apply (IZR_le 1). lia. }
  apply B2R_inj; [apply is_finite_strict_B2R; lra|apply is_finite_strict_B2R; lra|congruence].
Qed.

Lemma client_drifts : exists ms, 0 <= ms <= 9 * 10 ^ 12 /\ forall L, reads_decimals L ->
  exists t, parse_time L (format_decimal_time (ms * 1000000)) = Accepted (Some t) /\ from_time t = ms - 1.
Proof.
  exists 1500000000123. split; [lia|]. intros L HL.
  pose proof (decimal_time_exact 1500000000123 ltac:(lia)) as Hd.
  destruct (HL _ _ _ Hd ltac:(lia) ltac:(lia)) as (x & Ex & Hx).
  apply (nearest_div x 1500000000123 1000) in Hx; [|lia|lia].
  unfold parse_time. rewrite Ex, Hx. eexists. split; [vm_compute; reflexivity|]. vm_compute. reflexivity.
Qed.
