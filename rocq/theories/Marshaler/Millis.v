(** Printing a float64 with three decimals, reading the text back as the nearest
    float64 and printing that with three decimals gives the same text.

    The text with three decimals stands for an integer number of thousandths:
    the nearest, ties to even (strconv.FormatFloat(t, 'f', 3, 64) rounds the
    exact value).  Reading a decimal gives the nearest float64, ties to even
    (strconv.ParseFloat). *)
From Coq Require Import ZArith Reals Lra Lia Znumtheory Zpow_facts.
From Flocq Require Import Core.
Open Scope Z_scope.

(** float64: 53 bits, smallest exponent -1074. *)
Notation fmt64 := (generic_format radix2 (FLT_exp (-1074) 53)).
Notation nearest64 := (round radix2 (FLT_exp (-1074) 53) ZnearestE).

(** The number of thousandths printed for [t], and the number read back. *)
Definition thousandths (t : R) : Z := ZnearestE (1000 * t).
Definition read_thousandths (n : Z) : R := nearest64 (IZR n / 1000).

#[local] Instance prec53 : Prec_gt_0 53 := eq_refl.

Lemma dyadic_16 z k : fmt64 z -> (2000 * z = IZR k)%R -> exists j, (16 * z = IZR j)%R.
Proof.
  intros Hf Hk. apply FLT_format_generic in Hf; [|exact prec53].
  destruct Hf as [[M e] Hz _ _]. subst z. unfold F2R in *. cbn [Fnum Fexp] in *.
  destruct (Z_le_gt_dec (-4) e) as [He|He].
  - exists (M * 2 ^ (e + 4)).
    rewrite mult_IZR. change 2 with (radix_val radix2). rewrite IZR_Zpower by lia.
    rewrite bpow_plus. change (bpow radix2 4) with 16%R. ring.
  - set (n := - e - 4).
    assert (Hn : 0 < n) by (unfold n; lia).
    assert (He' : e = - n + - 4) by (unfold n; lia).
    assert (H16 : (16 * bpow radix2 e = bpow radix2 (- n))%R).
    { rewrite He', bpow_plus. change (bpow radix2 (-4)) with (/ 16)%R. field. }
    assert (Hint : 125 * M = k * 2 ^ n).
    { apply eq_IZR. rewrite !mult_IZR. change 2 with (radix_val radix2). rewrite IZR_Zpower by lia.
      rewrite <- Hk.
      replace (2000 * (IZR M * bpow radix2 e))%R with (125 * IZR M * (16 * bpow radix2 e))%R by ring.
      rewrite H16, bpow_opp. field. apply Rgt_not_eq, bpow_gt_0. }
    assert (Hdiv : (2 ^ n | M)).
    { apply Gauss with 125; [exists k; lia|].
      apply rel_prime_sym. apply rel_prime_Zpower_r; [lia|].
      apply Zgcd_1_rel_prime. reflexivity. }
    destruct Hdiv as [j Hj]. exists j.
    replace (16 * (IZR M * bpow radix2 e))%R with (IZR M * (16 * bpow radix2 e))%R by ring.
    rewrite H16, Hj, mult_IZR. change 2 with (radix_val radix2). rewrite IZR_Zpower by lia.
    rewrite bpow_opp. field. apply Rgt_not_eq, bpow_gt_0.
Qed.

Lemma two_halves_not_near y t a b :
  fmt64 y -> fmt64 t -> (2000 * y = IZR a)%R -> (2000 * t = IZR b)%R ->
  (y - t = 1 / 1000 \/ t - y = 1 / 1000)%R -> False.
Proof.
  intros Hy Ht Ha Hb Hd.
  destruct (dyadic_16 y a Hy Ha) as [i Hi]. destruct (dyadic_16 t b Ht Hb) as [j Hj].
  destruct Hd as [Hd|Hd].
  - assert (H : (IZR ((i - j) * 1000) = IZR 16)%R) by (rewrite mult_IZR, minus_IZR, <- Hi, <- Hj; lra).
    apply eq_IZR in H. lia.
  - assert (H : (IZR ((j - i) * 1000) = IZR 16)%R) by (rewrite mult_IZR, minus_IZR, <- Hi, <- Hj; lra).
    apply eq_IZR in H. lia.
Qed.

Lemma millis_stable t : fmt64 t -> thousandths (read_thousandths (thousandths t)) = thousandths t.
Proof.
  intros Ht. unfold read_thousandths. set (N := thousandths t). set (x := (IZR N / 1000)%R).
  set (y := nearest64 x).
  assert (Hnear : (Rabs (1000 * t - IZR N) <= / 2)%R) by (apply Znearest_half).
  assert (Htx : (Rabs (t - x) <= / 2000)%R).
  { apply Rabs_le_inv in Hnear. apply Rabs_le. unfold x. lra. }
  assert (Hyf : fmt64 y) by (apply generic_format_round; auto with typeclass_instances).
  assert (Hyx : (Rabs (y - x) <= Rabs (t - x))%R).
  { destruct (round_N_pt radix2 (FLT_exp (-1074) 53) (fun z => negb (Z.even z)) x) as [_ Hmin].
    apply Hmin. exact Ht. }
  assert (Hyx' : (Rabs (y - x) <= / 2000)%R) by lra.
  unfold thousandths at 1.
  destruct (Rle_lt_or_eq_dec _ _ Hyx') as [Hlt|Heq].
  - apply Znearest_imp. apply Rabs_lt_inv in Hlt || idtac.
    apply Rabs_def2 in Hlt || idtac. unfold x in Hlt. apply Rabs_def1; lra.
  - assert (Heq2 : (Rabs (t - x) = / 2000)%R) by lra.
    assert (Hcase : y = t \/ (y - t = 1 / 1000 \/ t - y = 1 / 1000)%R).
    { unfold Rabs in Heq, Heq2. destruct (Rcase_abs (y - x)), (Rcase_abs (t - x)); [left|right|right|left]; lra. }
    destruct Hcase as [->|Hbad]; [reflexivity|]. exfalso.
    assert (Hodd : forall z, (Rabs (z - x) = / 2000)%R -> exists k, (2000 * z = IZR k)%R).
    { intros z Hz. unfold Rabs in Hz. destruct (Rcase_abs (z - x)).
      - exists (2 * N - 1). rewrite minus_IZR, mult_IZR. unfold x in *. lra.
      - exists (2 * N + 1). rewrite plus_IZR, mult_IZR. unfold x in *. lra. }
    destruct (Hodd y Heq) as [a Ha]. destruct (Hodd t Heq2) as [b Hb].
    exact (two_halves_not_near y t a b Hyf Ht Ha Hb Hbad).
Qed.

