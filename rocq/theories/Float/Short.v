(** What is written is the shortest that is read back, and of the shortest the nearest. *)
From Coq Require Import Ascii String.
From stdpp Require Import prelude strings.
From Verif.Base Require Import Envelope Str Dec.
From Verif.Auth Require Import Docs SpecDocs DocsMore.
From Verif.Json Require Import Pb.
From Verif.Float Require Import Model Spec Proofs Nearest.
Open Scope Z_scope.

Definition reads (p q : Z) (b : f64) : Prop := nearest p q b /\ ~ out_of_range p q.

(** ** Nearest is one, and what lies between is read the same *)
Lemma nearest_one p q b c : 0 < q -> nearest p q b -> nearest p q c -> b = c.
Proof.
  intros Hq. assert (W : forall b c, b < c -> nearest p q b -> nearest p q c -> False).
  { clear b c. intros b c Hlt [Mb Hb] [Mc Hc]. destruct (Hb c Mc) as [L1 T1], (Hc b Mb) as [L2 T2]. assert (E : distance p q b = distance p q c) by lia.
    specialize (T1 E ltac:(lia)). specialize (T2 (eq_sym E) ltac:(lia)). unfold magnitude in *.
    destruct (Z.eq_dec c (b + 1)) as [->|Hne]. { rewrite Z.add_1_r, Z.even_succ, <-Z.negb_even, T1 in T2. done. }
    destruct (Hb (b + 1) ltac:(unfold magnitude; lia)) as [L3 _]. pose proof (units_mono b (b + 1) ltac:(lia)) as M1. pose proof (units_mono (b + 1) c ltac:(lia)) as M2.
    unfold distance in *. set (x := p * 2 ^ 1074) in *. clearbody x. assert (N1 : units b * q < units (b + 1) * q) by nia. assert (N2 : units (b + 1) * q < units c * q) by nia. lia. }
  intros Hb Hc. destruct (Z.lt_trichotomy b c) as [L|[L|L]]; [|done|]; exfalso; eauto.
Qed.
Lemma reads_between p1 q1 p2 q2 b : 0 < q1 -> 0 < q2 -> reads p1 q1 b ->
  (p1 * q2 <= p2 * q1 /\ p2 * 2 ^ 1074 <= units b * q2) \/ (p2 * q1 <= p1 * q2 /\ units b * q2 <= p2 * 2 ^ 1074) \/ p1 * q2 = p2 * q1 -> reads p2 q2 b.
Proof.
  intros Hq1 Hq2 [[Mb Hn] Ho] Hc. split.
  - split; [done|]. intros g Hg. destruct (Hn g Hg) as [H1 H2]. unfold distance in *.
    assert (I : g <> b -> units g <> units b) by (intros Hne E; apply Hne, units_inj; [destruct Hg; lia|destruct Mb; lia|done]).
    assert (HK : 0 < 2 ^ 1074) by done. set (K := 2 ^ 1074) in *. clearbody K. set (ub := units b) in *. set (ug := units g) in *. clearbody ub ug.
    set (X := p1 * K * q2). set (Y := p2 * K * q1). set (V := ub * q1 * q2). set (G := ug * q1 * q2).
    assert (EX : forall u, Z.abs (X - u * q1 * q2) = Z.abs (p1 * K - u * q1) * q2) by (intros u; unfold X; rewrite <-Z.mul_sub_distr_r, Z.abs_mul, (Z.abs_eq q2) by lia; done).
    assert (EY : forall u, Z.abs (Y - u * q1 * q2) = Z.abs (p2 * K - u * q2) * q1).
    { intros u. unfold Y. replace (p2 * K * q1 - u * q1 * q2) with ((p2 * K - u * q2) * q1) by ring. rewrite Z.abs_mul, (Z.abs_eq q1) by lia. done. }
    pose proof (EX ub) as X1. pose proof (EX ug) as X2. pose proof (EY ub) as Y1. pose proof (EY ug) as Y2. fold V in X1, Y1. fold G in X2, Y2.
    assert (A1 : Z.abs (X - V) <= Z.abs (X - G)) by (rewrite X1, X2; apply Z.mul_le_mono_nonneg_r; [lia|done]).
    assert (A2 : Z.abs (X - V) = Z.abs (X - G) -> g <> b -> Z.even b = true) by (rewrite X1, X2; intros E; apply H2; eapply Z.mul_cancel_r; [|exact E]; lia).
    assert (A3 : g <> b -> G <> V). { intros Hne E. apply (I Hne). unfold G, V in E. assert (Hqq : q1 * q2 <> 0) by (clear - Hq1 Hq2; nia). rewrite <-!Z.mul_assoc in E. by apply Z.mul_cancel_r in E. }
    assert (A4 : (X <= Y /\ Y <= V) \/ (Y <= X /\ V <= Y) \/ X = Y).
    { unfold X, Y, V. destruct Hc as [[C1 C2]|[[C1 C2]|C1]]; [left|right; left|right; right]; [split..|].
      - replace (p1 * K * q2) with (p1 * q2 * K) by ring. replace (p2 * K * q1) with (p2 * q1 * K) by ring. apply Z.mul_le_mono_nonneg_r; [lia|done].
      - replace (ub * q1 * q2) with (ub * q2 * q1) by ring. apply Z.mul_le_mono_nonneg_r; [lia|done].
      - replace (p1 * K * q2) with (p1 * q2 * K) by ring. replace (p2 * K * q1) with (p2 * q1 * K) by ring. apply Z.mul_le_mono_nonneg_r; [lia|done].
      - replace (ub * q1 * q2) with (ub * q2 * q1) by ring. apply Z.mul_le_mono_nonneg_r; [lia|done].
      - replace (p1 * K * q2) with (p1 * q2 * K) by ring. replace (p2 * K * q1) with (p2 * q1 * K) by ring. by rewrite C1. }
    assert (A5 : Z.abs (Y - V) <= Z.abs (Y - G) /\ (Z.abs (Y - V) = Z.abs (Y - G) -> g <> b -> Z.even b = true)).
    { clear - A1 A2 A3 A4. split; [lia|]. intros E Hne. apply A2; [|done]. specialize (A3 Hne). lia. }
    rewrite Y1, Y2 in A5. destruct A5 as [A5 A6]. split; [eapply Z.mul_le_mono_pos_r; [|exact A5]; lia|]. intros E. apply A6. by rewrite E.
  - unfold out_of_range in *. intros H. destruct Hc as [[_ C]|[[C _]|C]].
    + assert (U : units b <= (2 ^ 1024 - 2 ^ 971) * 2 ^ 1074).
      { destruct (Z.eq_dec b (inf - 1)) as [->|]; [by vm_compute|]. assert (units b < units (inf - 1)) by (apply units_mono; unfold magnitude in Mb; lia).
        assert (E : units (inf - 1) = (2 ^ 1024 - 2 ^ 971) * 2 ^ 1074) by (by vm_compute). lia. }
      assert (HK : 0 < 2 ^ 1074) by done. set (K := 2 ^ 1074) in *. clearbody K. assert (H971 : 2 ^ 970 < 2 ^ 971) by done. set (z := 2 ^ 971) in *. set (y := 2 ^ 970) in *. set (w := 2 ^ 1024) in *. clearbody z y w.
      assert (E : (w - y) * K * q2 <= (w - z) * K * q2). { apply Z.le_trans with (p2 * K); [nia|]. apply Z.le_trans with (units b * q2); [done|]. apply Z.mul_le_mono_nonneg_r; [lia|done]. }
      assert (0 < K * q2) by nia. nia.
    + apply Ho. set (w := 2 ^ 1024 - 2 ^ 970) in *. clearbody w. eapply (Z.mul_le_mono_pos_r _ _ q2); [done|]. apply Z.le_trans with (p2 * q1); [nia|done].
    + apply Ho. set (w := 2 ^ 1024 - 2 ^ 970) in *. clearbody w. eapply (Z.mul_le_mono_pos_r _ _ q2); [done|]. rewrite C. nia.
Qed.
(** m * 10^k as a fraction *)
Notation num m k := (m * 10 ^ Z.max k 0) (only parsing).
Notation den k := (10 ^ Z.max (- k) 0) (only parsing).
Lemma den_pos k : 0 < 10 ^ Z.max k 0. Proof. apply pow_pos; lia. Qed.
Lemma read_iff m k b : 0 <= m -> read_decimal m k = Some b <-> reads (num m k) (den k) b.
Proof.
  intros Hm. pose proof (read_decimal_ok m k Hm) as H1. pose proof (read_in_range m k Hm) as H2. split.
  - intros E. rewrite E in H1. split; [done|]. intros H3. apply H2 in H3. congruence.
  - intros [Hn Ho]. destruct (read_decimal m k) as [c|]; [|exfalso; by apply Ho, H2]. f_equal. eapply nearest_one; [apply den_pos|done|done].
Qed.
Lemma trimmed_reads b a k : 0 <= a -> reads_as b (trimmed a k) = true <-> reads (num a (- k)) (den (- k)) b.
Proof.
  intros Ha. unfold reads_as. rewrite bool_decide_eq_true. rewrite read_iff by (by apply trimmed_nonneg).
  destruct (trimmed_eq a k) as (j & Hj & E1 & E2). pose proof (den_pos (- (trimmed a k).2)). pose proof (den_pos (- - (trimmed a k).2)). pose proof (den_pos (- k)). pose proof (den_pos (- - k)).
  assert (E : num (trimmed a k).1 (- (trimmed a k).2) * den (- k) = num a (- k) * den (- (trimmed a k).2)).
  { clear - E1 E2 Hj. destruct (trimmed a k) as [t1 t2]. cbn [fst snd] in *. subst a t2. replace (t1 * 10 ^ j * 10 ^ Z.max (- k) 0 * 10 ^ Z.max (- - (k - j)) 0) with (t1 * (10 ^ j * 10 ^ Z.max (- k) 0 * 10 ^ Z.max (- - (k - j)) 0)) by ring.
    rewrite <-Z.mul_assoc. f_equal. rewrite <-!Z.pow_add_r by lia. f_equal. lia. }
  split; intros H3; (eapply reads_between; [| |exact H3|]); try done; right; right; [exact E|symmetry; exact E].
Qed.

(** ** Counting digits *)
Lemma count_loop fuel : forall n rest, 1 <= n < 10 ^ (Z.of_nat fuel + 1) -> exists d, Z.of_nat (String.length (format_digits fuel n rest)) = d + Z.of_nat (String.length rest) /\ 1 <= d /\ 10 ^ (d - 1) <= n < 10 ^ d.
Proof.
  induction fuel as [|fuel IH]; intros n rest H; cbn [format_digits].
  - change (10 ^ (Z.of_nat 0 + 1)) with 10 in H. exists 1. cbn [String.length]. split; [lia|]. split; [lia|]. change (10 ^ (1 - 1)) with 1. lia.
  - destruct (Z.ltb_spec n 10) as [H1|H1].
    + exists 1. cbn [String.length]. split; [lia|]. split; [lia|]. change (10 ^ (1 - 1)) with 1. lia.
    + destruct (IH (n / 10) (String (digit_char (n mod 10)) rest)) as (d & E & Hd & Hn).
      { split; [apply Z.div_le_lower_bound; lia|]. apply Z.div_lt_upper_bound; [lia|].
        replace (Z.of_nat (S fuel) + 1) with (Z.succ (Z.of_nat fuel + 1)) in H by lia. rewrite Z.pow_succ_r in H by lia. lia. }
      exists (d + 1). rewrite E. cbn [String.length]. split; [lia|]. split; [lia|]. replace (d + 1 - 1) with (Z.succ (d - 1)) by lia. rewrite Z.add_1_r, !Z.pow_succ_r by lia.
      pose proof (Z.div_mod n 10 ltac:(lia)). pose proof (Z.mod_pos_bound n 10 ltac:(lia)). lia.
Qed.
Lemma digit_count_spec n : 1 <= n -> 1 <= digit_count n /\ 10 ^ (digit_count n - 1) <= n < 10 ^ digit_count n.
Proof.
  intros H. destruct (count_loop (Z.to_nat (Z.log2 n)) n "") as (d & E & H1 & H2). { split; [done|]. apply log_fuel. lia. }
  unfold digit_count, decimal. rewrite E. cbn [String.length]. replace (d + Z.of_nat 0) with d by lia. done.
Qed.
Lemma log10_spec p q : 0 < p -> 0 < q -> let L := log10 p q in
  10 ^ Z.max L 0 * q <= p * 10 ^ Z.max (- L) 0 /\ p * 10 ^ Z.max (- (L + 1)) 0 < 10 ^ Z.max (L + 1) 0 * q.
Proof.
  intros Hp Hq L. unfold L, log10. destruct (Z.leb_spec q p) as [H|H].
  - assert (Hd : 1 <= p / q) by (apply Z.div_le_lower_bound; lia). destruct (digit_count_spec _ Hd) as [H1 [H2 H3]]. set (D := digit_count (p / q)) in *.
    rewrite (Z.max_l (D - 1) 0), (Z.max_r (- (D - 1)) 0), (Z.max_r (- (D - 1 + 1)) 0), (Z.max_l (D - 1 + 1) 0) by lia. replace (D - 1 + 1) with D by lia. cbn [Z.pow Z.pow_pos]. rewrite !Z.mul_1_r.
    pose proof (Z.div_mod p q ltac:(lia)). pose proof (Z.mod_pos_bound p q Hq). set (d := p / q) in *. set (x := 10 ^ (D - 1)) in *. set (y := 10 ^ D) in *. clearbody x y d. nia.
  - assert (Hd : 1 <= (q - 1) / p) by (apply Z.div_le_lower_bound; lia). destruct (digit_count_spec _ Hd) as [H1 [H2 H3]]. set (D := digit_count ((q - 1) / p)) in *.
    rewrite (Z.max_r (- D) 0), (Z.max_l (- - D) 0), (Z.max_l (- (- D + 1)) 0), (Z.max_r (- D + 1) 0) by lia. replace (- (- D + 1)) with (D - 1) by lia. rewrite Z.opp_involutive. cbn [Z.pow Z.pow_pos]. rewrite !Z.mul_1_l.
    pose proof (Z.div_mod (q - 1) p ltac:(lia)). pose proof (Z.mod_pos_bound (q - 1) p Hp). set (d := (q - 1) / p) in *. set (x := 10 ^ (D - 1)) in *. set (y := 10 ^ D) in *. clearbody x y d. nia.
Qed.

(** ** The gap between two float64 *)
Lemma gap b g : magnitude b -> 0 < b -> magnitude g -> g <> b -> units b <= Z.abs (units g - units b) * 2 ^ 53.
Proof.
  intros Mb Hb Mg Hne. destruct (bits_split b Mb Hb) as (Hm & He & Eb & Hn). set (m := mantissa b) in *. set (e := exponent b) in *.
  assert (Ub : units b = m * 2 ^ (e + 1074)) by (rewrite <-Eb; apply units_bits; [lia|lia|]; destruct Hn; [left; lia|by right]).
  pose proof (pow_pos 2 (e + 1074) ltac:(lia) ltac:(lia)) as HE. unfold magnitude in *.
  destruct (Z.lt_ge_cases b g) as [H|H].
  - assert (Eb1 : b + 1 = float_bits (m + 1) e) by (rewrite <-Eb; unfold float_bits; lia).
    assert (U1 : units (b + 1) = (m + 1) * 2 ^ (e + 1074)) by (rewrite Eb1; apply units_bits; [lia|lia|]; destruct Hn; [left; lia|by right]).
    assert (G : units (b + 1) <= units g) by (destruct (Z.eq_dec g (b + 1)) as [->|]; [lia|]; apply Z.lt_le_incl, units_mono; lia).
    rewrite U1 in G. rewrite Ub. set (x := 2 ^ (e + 1074)) in *. clearbody x. rewrite Z.abs_eq by lia. nia.
  - assert (G : units g <= units (b - 1)) by (destruct (Z.eq_dec g (b - 1)) as [->|]; [lia|]; apply Z.lt_le_incl, units_mono; lia).
    assert (C : (2 ^ 52 <= m - 1 \/ e = -1074) \/ (m = 2 ^ 52 /\ -1074 < e)) by (destruct Hn; lia). destruct C as [C|[C1 C2]].
    + assert (Eb1 : b - 1 = float_bits (m - 1) e) by (rewrite <-Eb; unfold float_bits; lia).
      assert (U1 : units (b - 1) = (m - 1) * 2 ^ (e + 1074)) by (rewrite Eb1; apply units_bits; [lia|lia|done]).
      rewrite U1 in G. rewrite Ub. set (x := 2 ^ (e + 1074)) in *. clearbody x. rewrite Z.abs_neq by lia. nia.
    + assert (Eb1 : b - 1 = float_bits (2 ^ 53 - 1) (e - 1)) by (rewrite <-Eb, C1; unfold float_bits; lia).
      assert (U1 : units (b - 1) = (2 ^ 53 - 1) * 2 ^ (e - 1 + 1074)) by (rewrite Eb1; apply units_bits; [lia|lia|]; left; lia).
      replace (e + 1074) with (Z.succ (e - 1 + 1074)) in Ub by lia. rewrite Z.pow_succ_r in Ub by lia. rewrite U1 in G. rewrite Ub, C1.
      pose proof (pow_pos 2 (e - 1 + 1074) ltac:(lia) ltac:(lia)) as HE'. set (x := 2 ^ (e - 1 + 1074)) in *. clearbody x. rewrite Z.abs_neq by lia. lia.
Qed.
Lemma units_top b : magnitude b -> units b <= (2 ^ 1024 - 2 ^ 971) * 2 ^ 1074.
Proof.
  intros Mb. destruct (Z.eq_dec b (inf - 1)) as [->|]; [by vm_compute|]. assert (units b < units (inf - 1)) by (apply units_mono; unfold magnitude in Mb; lia).
  assert (E : units (inf - 1) = (2 ^ 1024 - 2 ^ 971) * 2 ^ 1074) by (by vm_compute). lia.
Qed.

Lemma trim_cross t j k : 0 <= j -> t * 10 ^ Z.max (- (k - j)) 0 * 10 ^ Z.max k 0 = t * 10 ^ j * 10 ^ Z.max (- k) 0 * 10 ^ Z.max (- - (k - j)) 0.
Proof. intros Hj. rewrite <-!(Z.mul_assoc t). f_equal. rewrite <-!Z.pow_add_r by lia. f_equal. lia. Qed.

(** ** The two candidates with n digits *)
Section cands.
Context (b p q n : Z) (Mb : magnitude b) (Hb : 0 < b) (Hp : 0 < p) (Hq : 0 < q) (EV : p * 2 ^ 1074 = units b * q) (Hn : 1 <= n).
Let k := n - 1 - log10 p q.
Let A := 10 ^ Z.max (- k) 0.
Let B := 10 ^ Z.max k 0.
Let P := p * B.
Let Q := q * A.
Let lo := P / Q.
Lemma cand_A : 0 < A.
Proof. apply den_pos. Qed.
Lemma cand_B : 0 < B.
Proof. apply den_pos. Qed.
Lemma cand_Q : 0 < Q.
Proof. apply Z.mul_pos_pos; [exact Hq|apply cand_A]. Qed.

Lemma cand_low : 10 ^ (n - 1) * Q <= P.
Proof.
  pose proof cand_A as HA. pose proof cand_B as HB. pose proof cand_Q as HQ. 
  destruct (log10_spec p q Hp Hq) as [H _]. cbn zeta in H. set (L := log10 p q) in *. pose proof (den_pos (- L)) as HL. apply (Z.mul_le_mono_pos_r _ _ (10 ^ Z.max (- L) 0)); [done|].
  assert (E : 10 ^ (n - 1) * A * 10 ^ Z.max (- L) 0 = 10 ^ Z.max L 0 * B) by (unfold A, B; rewrite <-!Z.pow_add_r by lia; f_equal; unfold k; fold L; lia).
  unfold P, Q. replace (10 ^ (n - 1) * (q * A) * 10 ^ Z.max (- L) 0) with (q * (10 ^ (n - 1) * A * 10 ^ Z.max (- L) 0)) by ring. rewrite E.
  replace (q * (10 ^ Z.max L 0 * B)) with (10 ^ Z.max L 0 * q * B) by ring. replace (p * B * 10 ^ Z.max (- L) 0) with (p * 10 ^ Z.max (- L) 0 * B) by ring. apply Z.mul_le_mono_nonneg_r; [lia|done].
Qed.
Lemma cand_high : P < 10 ^ n * Q.
Proof.
  pose proof cand_A as HA. pose proof cand_B as HB. pose proof cand_Q as HQ. 
  destruct (log10_spec p q Hp Hq) as [_ H]. cbn zeta in H. set (L := log10 p q) in *. pose proof (den_pos (- (L + 1))) as HL. apply (Z.mul_lt_mono_pos_r (10 ^ Z.max (- (L + 1)) 0)); [done|].
  assert (E : 10 ^ n * A * 10 ^ Z.max (- (L + 1)) 0 = 10 ^ Z.max (L + 1) 0 * B) by (unfold A, B; rewrite <-!Z.pow_add_r by lia; f_equal; unfold k; fold L; lia).
  unfold P, Q. replace (10 ^ n * (q * A) * 10 ^ Z.max (- (L + 1)) 0) with (q * (10 ^ n * A * 10 ^ Z.max (- (L + 1)) 0)) by ring. rewrite E.
  replace (q * (10 ^ Z.max (L + 1) 0 * B)) with (10 ^ Z.max (L + 1) 0 * q * B) by ring. replace (p * B * 10 ^ Z.max (- (L + 1)) 0) with (p * 10 ^ Z.max (- (L + 1)) 0 * B) by ring. apply Z.mul_lt_mono_pos_r; done.
Qed.
Lemma lo_range : 10 ^ (n - 1) <= lo < 10 ^ n.
Proof. pose proof cand_A as HA. pose proof cand_B as HB. pose proof cand_Q as HQ. pose proof cand_low. pose proof cand_high. split; [apply Z.div_le_lower_bound; lia|apply Z.div_lt_upper_bound; lia]. Qed.
Lemma lo_pos : 0 < lo.
Proof. pose proof cand_A as HA. pose proof cand_B as HB. pose proof cand_Q as HQ. pose proof lo_range. pose proof (pow_pos 10 (n - 1) ltac:(lia) ltac:(lia)). lia. Qed.
Lemma lo_split : P = lo * Q + P mod Q /\ 0 <= P mod Q < Q.
Proof. pose proof cand_A as HA. pose proof cand_B as HB. pose proof cand_Q as HQ. split; [pose proof (Z.div_mod P Q ltac:(lia)); unfold lo; lia|apply Z.mod_pos_bound; done]. Qed.

(** on which side of b a candidate is *)
Lemma cand_side a : (a * Q <= P -> a * A * 2 ^ 1074 <= units b * B) /\ (P <= a * Q -> units b * B <= a * A * 2 ^ 1074).
Proof.
  pose proof cand_A as HA. pose proof cand_B as HB. pose proof cand_Q as HQ. 
  assert (HK : 0 < 2 ^ 1074) by done. set (K := 2 ^ 1074) in *. clearbody K.
  assert (E1 : a * A * K * q = a * Q * K) by (unfold Q; ring). assert (E2 : units b * B * q = P * K) by (unfold P; replace (units b * B * q) with (units b * q * B) by ring; rewrite <-EV; ring).
  split; intros H; (eapply (Z.mul_le_mono_pos_r _ _ q); [done|]); rewrite E1, E2; apply Z.mul_le_mono_nonneg_r; lia.
Qed.
(** how far *)
Lemma cand_dist a : distance (a * A) B b * q = Z.abs (a * Q - P) * 2 ^ 1074.
Proof.
  pose proof cand_A as HA. pose proof cand_B as HB. pose proof cand_Q as HQ. 
  unfold distance. assert (HK : 0 < 2 ^ 1074) by done. set (K := 2 ^ 1074) in *. clearbody K. rewrite <-(Z.abs_eq q) at 1 by lia. rewrite <-(Z.abs_eq K) at 2 by lia. rewrite <-!Z.abs_mul. f_equal.
  unfold P, Q. replace ((a * A * K - units b * B) * q) with (a * A * K * q - units b * q * B) by ring. rewrite <-EV. ring.
Qed.

(** any decimal with n digits that is read as b is beyond one of the candidates *)
Lemma beyond m' k' : 0 < m' < 10 ^ n -> let N := m' * 10 ^ Z.max k' 0 in let c := 10 ^ Z.max (- k') 0 in
  (N * q <= p * c -> N * B <= lo * A * c) /\ (p * c < N * q -> (lo + 1) * A * c <= N * B).
Proof.
  pose proof cand_A as HA. pose proof cand_B as HB. pose proof cand_Q as HQ. 
  intros Hm N c. assert (Hc : 0 < c) by apply den_pos. destruct (Z.le_gt_cases 0 (k' + k)) as [H|H].
  - set (j := m' * 10 ^ (k' + k)). assert (EN : N * B = j * A * c).
    { unfold N, B, j, A, c. rewrite <-!Z.mul_assoc. f_equal. rewrite <-!Z.pow_add_r by lia. f_equal. lia. }
    rewrite EN. assert (EP : p * c * B = P * c) by (unfold P; ring). assert (ENq : N * q * B = j * Q * c) by (replace (N * q * B) with (N * B * q) by ring; rewrite EN; unfold Q; ring).
    clearbody N B c. split; intros H1.
    + assert (H2 : j * Q <= P). { eapply (Z.mul_le_mono_pos_r _ _ c); [done|]. rewrite <-ENq, <-EP. apply Z.mul_le_mono_nonneg_r; lia. }
      assert (H3 : j <= lo) by (apply Z.div_le_lower_bound; lia). apply Z.mul_le_mono_nonneg_r; [lia|]. apply Z.mul_le_mono_nonneg_r; lia.
    + assert (H2 : P < j * Q). { eapply (Z.mul_lt_mono_pos_r c); [done|]. rewrite <-ENq, <-EP. apply Z.mul_lt_mono_pos_r; done. }
      assert (H3 : lo < j) by (apply Z.div_lt_upper_bound; lia). apply Z.mul_le_mono_nonneg_r; [lia|]. apply Z.mul_le_mono_nonneg_r; lia.
  - pose proof lo_range as [HL _]. pose proof (pow_pos 10 (n - 1) ltac:(lia) ltac:(lia)) as Hpow.
    assert (X : N * B < 10 ^ (n - 1) * A * c).
    { apply Z.lt_le_trans with (10 ^ n * 10 ^ Z.max k' 0 * B).
      - unfold N. apply Z.mul_lt_mono_pos_r; [done|]. apply Z.mul_lt_mono_pos_r; [apply den_pos|lia].
      - unfold A, B, c. rewrite <-!Z.pow_add_r by lia. apply Z.pow_le_mono_r; lia. }
    assert (Y : 10 ^ (n - 1) * A * c <= lo * A * c) by (apply Z.mul_le_mono_nonneg_r; [lia|]; apply Z.mul_le_mono_nonneg_r; lia).
    split; [lia|]. intros H1. exfalso. pose proof cand_low as CL. unfold Q, P in CL.
    assert (H2 : N * q * B < p * c * B).
    { apply Z.lt_le_trans with (10 ^ (n - 1) * A * c * q); [replace (N * q * B) with (N * B * q) by ring; apply Z.mul_lt_mono_pos_r; done|].
      replace (10 ^ (n - 1) * A * c * q) with (10 ^ (n - 1) * (q * A) * c) by ring. replace (p * c * B) with (p * B * c) by ring. apply Z.mul_le_mono_nonneg_r; lia. }
    apply Z.mul_lt_mono_pos_r in H2; [lia|done].
Qed.
Lemma beyond_reads m' k' : 0 < m' < 10 ^ n -> reads (m' * 10 ^ Z.max k' 0) (10 ^ Z.max (- k') 0) b ->
  let N := m' * 10 ^ Z.max k' 0 in let c := 10 ^ Z.max (- k') 0 in
  (N * q <= p * c -> reads (lo * A) B b) /\ (p * c < N * q -> reads ((lo + 1) * A) B b).
Proof.
  pose proof cand_A as HA. pose proof cand_B as HB. pose proof cand_Q as HQ. 
  intros Hm Hr N c. assert (Hc : 0 < c) by apply den_pos. destruct (beyond m' k' Hm) as [H1 H2]. fold N c in Hr, H1, H2. destruct lo_split as [S1 S2]. split; intros H.
  - eapply reads_between; [exact Hc|exact HB|exact Hr|]. left. split; [by apply H1|]. apply cand_side. lia.
  - eapply reads_between; [exact Hc|exact HB|exact Hr|]. right. left. split; [by apply H2|]. apply cand_side. lia.
Qed.
(** and farther *)
Lemma beyond_farther m' k' a : 0 < m' < 10 ^ n -> let N := m' * 10 ^ Z.max k' 0 in let c := 10 ^ Z.max (- k') 0 in
  (N * q <= p * c -> Z.abs (a * Q - P) <= P mod Q) -> (p * c < N * q -> Z.abs (a * Q - P) <= Q - P mod Q) ->
  no_farther (a * A) B N c b.
Proof.
  pose proof cand_A as HA. pose proof cand_B as HB. pose proof cand_Q as HQ. 
  intros Hm N c F1 F2. assert (Hc : 0 < c) by apply den_pos. destruct (beyond m' k' Hm) as [H1 H2]. fold N c in H1, H2. destruct lo_split as [S1 S2].
  unfold no_farther. eapply (Z.mul_le_mono_pos_r _ _ q); [done|]. replace (distance (a * A) B b * c * q) with (distance (a * A) B b * q * c) by ring. rewrite cand_dist.
  assert (ED : distance N c b * B * q = Z.abs (N * B * q - P * c) * 2 ^ 1074).
  { unfold distance. assert (HK : 0 < 2 ^ 1074) by done. set (K := 2 ^ 1074) in *. clearbody K. clearbody N c. rewrite <-(Z.abs_eq q) at 1 by lia. rewrite <-(Z.abs_eq B) at 1 by lia. rewrite <-(Z.abs_eq K) at 2 by lia.
    rewrite <-!Z.abs_mul. f_equal. unfold P. replace ((N * K - units b * c) * B * q) with (N * K * B * q - units b * q * c * B) by ring. rewrite <-EV. ring. }
  rewrite ED. assert (HK : 0 < 2 ^ 1074) by done. set (K := 2 ^ 1074) in *. clearbody K. replace (Z.abs (a * Q - P) * K * c) with (Z.abs (a * Q - P) * c * K) by ring. apply Z.mul_le_mono_nonneg_r; [lia|].
  destruct (Z.le_gt_cases (N * q) (p * c)) as [H|H].
  - specialize (H1 H). specialize (F1 H). apply Z.le_trans with (P mod Q * c); [apply Z.mul_le_mono_nonneg_r; lia|].
    assert (X : N * B * q <= lo * Q * c). { replace (lo * Q * c) with (lo * A * c * q) by (unfold Q; ring). apply Z.mul_le_mono_nonneg_r; lia. }
    assert (S3 : P mod Q * c = P * c - lo * Q * c) by (clear - S1; rewrite <-Z.mul_sub_distr_r; f_equal; clearbody lo; lia). rewrite S3. clear - X. revert X. generalize (N * B * q) (lo * Q * c) (P * c). lia.
  - specialize (H2 H). specialize (F2 H). apply Z.le_trans with ((Q - P mod Q) * c); [apply Z.mul_le_mono_nonneg_r; lia|].
    assert (X : (lo + 1) * Q * c <= N * B * q). { replace ((lo + 1) * Q * c) with ((lo + 1) * A * c * q) by (unfold Q; ring). apply Z.mul_le_mono_nonneg_r; lia. }
    assert (S3 : (Q - P mod Q) * c = (lo + 1) * Q * c - P * c) by (clear - S1; rewrite <-Z.mul_sub_distr_r; f_equal; clearbody lo; lia). rewrite S3. clear - X. revert X. generalize (N * B * q) ((lo + 1) * Q * c) (P * c). lia.
Qed.

(** ** 17 digits are enough *)
Lemma seventeen a : n = 17 -> 0 <= a -> 2 * Z.abs (a * Q - P) <= Q -> reads (a * A) B b.
Proof.
  pose proof cand_A as HA. pose proof cand_B as HB. pose proof cand_Q as HQ. 
  intros E17 Ha Hd. pose proof cand_low as CL. rewrite E17 in CL. change (17 - 1) with 16 in CL.
  assert (D : 2 * 10 ^ 16 * distance (a * A) B b <= units b * B).
  { eapply (Z.mul_le_mono_pos_r _ _ q); [done|]. replace (2 * 10 ^ 16 * distance (a * A) B b * q) with (2 * 10 ^ 16 * (distance (a * A) B b * q)) by ring. rewrite cand_dist.
    replace (units b * B * q) with (units b * q * B) by ring. rewrite <-EV. replace (p * 2 ^ 1074 * B) with (P * 2 ^ 1074) by (unfold P; ring). rewrite Z.mul_assoc.
    apply Z.mul_le_mono_nonneg_r; [done|]. lia. }
  split.
  - split; [done|]. intros g Hg. destruct (Z.eq_dec g b) as [->|Hne]; [split; [lia|intros _ Hx; by destruct Hx]|]. pose proof (gap b g Mb Hb Hg Hne) as G.
    assert (X : distance (a * A) B b < distance (a * A) B g); [|split; [lia|]; intros; lia].
    unfold distance in *. set (V := a * A * 2 ^ 1074) in *. clearbody V. set (ub := units b) in *. set (ug := units g) in *.
    assert (Hub : 0 < ub). { change 0 with (units 0). apply units_mono. lia. }
    assert (T : Z.abs (ug - ub) * B <= Z.abs (V - ub * B) + Z.abs (V - ug * B)).
    { rewrite <-(Z.abs_eq B) at 1 by lia. rewrite <-Z.abs_mul. replace ((ug - ub) * B) with (ug * B - ub * B) by ring. lia. }
    assert (G2 : ub * B <= Z.abs (ug - ub) * B * 2 ^ 53) by (replace (Z.abs (ug - ub) * B * 2 ^ 53) with (Z.abs (ug - ub) * 2 ^ 53 * B) by ring; apply Z.mul_le_mono_nonneg_r; [lia|done]).
    assert (0 < ub * B) by (apply Z.mul_pos_pos; done). clear - D T G2 H. set (x := ub * B) in *. set (y := Z.abs (ug - ub) * B) in *. set (z := Z.abs (V - x)) in *. set (w := Z.abs (V - ug * B)) in *. clearbody x y w.
    assert (0 <= z) by (unfold z; lia). clearbody z. change (10 ^ 16) with 10000000000000000 in D. change (2 ^ 53) with 9007199254740992 in G2. lia.
  - unfold out_of_range. intros Ho. pose proof (units_top b Mb) as U.
    assert (Hpq : p <= (2 ^ 1024 - 2 ^ 971) * q).
    { apply (Z.mul_le_mono_pos_r _ _ (2 ^ 1074)); [done|]. rewrite EV. replace ((2 ^ 1024 - 2 ^ 971) * q * 2 ^ 1074) with ((2 ^ 1024 - 2 ^ 971) * 2 ^ 1074 * q) by (set (x := 2 ^ 1024); set (y := 2 ^ 971); set (z := 2 ^ 1074); ring). apply Z.mul_le_mono_nonneg_r; [lia|done]. }
    change (2 ^ 971) with (2 * 2 ^ 970) in Hpq. change (2 ^ 1024) with (18014398509481984 * 2 ^ 970) in Ho, Hpq. assert (Hz : 0 < 2 ^ 970) by done. set (z := 2 ^ 970) in *. clearbody z.
    assert (H1 : 20000000000000000 * (a * Q) <= 20000000000000001 * P) by (change (10 ^ 16) with 10000000000000000 in CL; lia).
    assert (H2 : (18014398509481984 * z - z) * B * q <= a * Q) by (replace (a * Q) with (a * A * q) by (unfold Q; ring); apply Z.mul_le_mono_nonneg_r; lia).
    assert (H3 : P <= (18014398509481984 * z - 2 * z) * q * B) by (unfold P; apply Z.mul_le_mono_nonneg_r; lia).
    assert (H4 : 0 < z * q * B) by (apply Z.mul_pos_pos; [apply Z.mul_pos_pos|]; done).
    replace ((18014398509481984 * z - z) * B * q) with (18014398509481983 * (z * q * B)) in H2 by ring. replace ((18014398509481984 * z - 2 * z) * q * B) with (18014398509481982 * (z * q * B)) in H3 by ring. lia.
Qed.

(** ** The choice *)
Lemma with_some d : with_digits b p q n = Some d ->
  exists a, d = trimmed a k /\ 0 < a <= 10 ^ n /\ reads (a * A) B b /\
    (a = lo /\ (reads ((lo + 1) * A) B b -> 2 * (P mod Q) <= Q) \/ a = lo + 1 /\ (reads (lo * A) B b -> Q <= 2 * (P mod Q))).
Proof.
  pose proof cand_A as HA. pose proof cand_B as HB. pose proof cand_Q as HQ. 
  pose proof lo_pos as L0. pose proof lo_range as L1.
  assert (E : with_digits b p q n = match reads_as b (trimmed lo k), reads_as b (trimmed (lo + 1) k) with
    | true, true => Some (if (2 * (P mod Q) <? Q) || ((2 * (P mod Q) =? Q) && Z.even lo) then trimmed lo k else trimmed (lo + 1) k)
    | true, false => Some (trimmed lo k) | false, true => Some (trimmed (lo + 1) k) | false, false => None end) by done.
  rewrite E. clear E. pose proof (trimmed_reads b lo k ltac:(lia)) as R1. pose proof (trimmed_reads b (lo + 1) k ltac:(lia)) as R2. rewrite Z.opp_involutive in R1, R2. fold A B in R1, R2.
  destruct (reads_as b (trimmed lo k)), (reads_as b (trimmed (lo + 1) k)); intros [= <-].
  - apply proj1 in R1, R2. specialize (R1 eq_refl). specialize (R2 eq_refl).
    destruct (Z.ltb_spec (2 * (P mod Q)) Q) as [H1|H1]; cbn [orb]; [exists lo; split; [done|]; split; [lia|]; split; [done|]; left; split; [done|]; intros _; lia|].
    destruct (Z.eqb_spec (2 * (P mod Q)) Q) as [H2|H2]; cbn [andb]; [destruct (Z.even lo)|].
    + exists lo. split; [done|]. split; [lia|]. split; [done|]. left. split; [done|]. intros _. lia.
    + exists (lo + 1). split; [done|]. split; [lia|]. split; [done|]. right. split; [done|]. intros _. lia.
    + exists (lo + 1). split; [done|]. split; [lia|]. split; [done|]. right. split; [done|]. intros _. lia.
  - exists lo. split; [done|]. split; [lia|]. split; [by apply R1|]. left. split; [done|]. intros H. by apply R2 in H.
  - exists (lo + 1). split; [done|]. split; [lia|]. split; [by apply R2|]. right. split; [done|]. intros H. by apply R1 in H.
Qed.
Lemma with_none : with_digits b p q n = None -> ~ reads (lo * A) B b /\ ~ reads ((lo + 1) * A) B b.
Proof.
  pose proof cand_A as HA. pose proof cand_B as HB. pose proof cand_Q as HQ. 
  pose proof lo_pos as L0.
  assert (E : with_digits b p q n = match reads_as b (trimmed lo k), reads_as b (trimmed (lo + 1) k) with
    | true, true => Some (if (2 * (P mod Q) <? Q) || ((2 * (P mod Q) =? Q) && Z.even lo) then trimmed lo k else trimmed (lo + 1) k)
    | true, false => Some (trimmed lo k) | false, true => Some (trimmed (lo + 1) k) | false, false => None end) by done.
  rewrite E. clear E. pose proof (trimmed_reads b lo k ltac:(lia)) as R1. pose proof (trimmed_reads b (lo + 1) k ltac:(lia)) as R2. rewrite Z.opp_involutive in R1, R2. fold A B in R1, R2.
  destruct (reads_as b (trimmed lo k)), (reads_as b (trimmed (lo + 1) k)); try done. intros _. split; intros H; [by apply R1 in H|by apply R2 in H].
Qed.
Lemma none_short m' k' : with_digits b p q n = None -> 0 < m' < 10 ^ n -> ~ reads (m' * 10 ^ Z.max k' 0) (10 ^ Z.max (- k') 0) b.
Proof.
  pose proof cand_A as HA. pose proof cand_B as HB. pose proof cand_Q as HQ. 
  intros Hw Hm Hr. destruct (with_none Hw) as [N1 N2]. destruct (beyond_reads m' k' Hm Hr) as [B1 B2].
  destruct (Z.le_gt_cases (m' * 10 ^ Z.max k' 0 * q) (p * 10 ^ Z.max (- k') 0)) as [H|H]; [by apply N1, B1|by apply N2, B2].
Qed.
Lemma some_nearest d m' k' : with_digits b p q n = Some d -> 0 < m' < 10 ^ n -> reads (m' * 10 ^ Z.max k' 0) (10 ^ Z.max (- k') 0) b ->
  no_farther (d.1 * 10 ^ Z.max (- d.2) 0) (10 ^ Z.max (- - d.2) 0) (m' * 10 ^ Z.max k' 0) (10 ^ Z.max (- k') 0) b.
Proof.
  pose proof cand_A as HA. pose proof cand_B as HB. pose proof cand_Q as HQ. 
  intros Hw Hm Hr. destruct (with_some d Hw) as (a & -> & Ha & Hra & Hc). destruct lo_split as [S1 S2].
  destruct (beyond_reads m' k' Hm Hr) as [B1 B2].
  assert (HF : no_farther (a * A) B (m' * 10 ^ Z.max k' 0) (10 ^ Z.max (- k') 0) b).
  { apply beyond_farther; [done|intros H; specialize (B1 H)|intros H; specialize (B2 H)]; destruct Hc as [[-> Hc]|[-> Hc]].
    - rewrite Z.abs_neq by lia. lia.
    - specialize (Hc B1). rewrite Z.abs_eq by lia. lia.
    - specialize (Hc B2). rewrite Z.abs_neq by lia. lia.
    - rewrite Z.abs_eq by lia. lia. }
  destruct (trimmed_eq a k) as (j & Hj & E1 & E2). set (t1 := (trimmed a k).1) in *. set (t2 := (trimmed a k).2) in *. clearbody t1 t2.
  set (A' := 10 ^ Z.max (- t2) 0). set (B' := 10 ^ Z.max (- - t2) 0). assert (HB' : 0 < B') by apply den_pos.
  assert (EX : t1 * A' * B = a * A * B').
  { rewrite E1. unfold A, B, A', B'. rewrite E2. by apply trim_cross. }
  unfold no_farther in *. set (N := m' * 10 ^ Z.max k' 0) in *. set (c := 10 ^ Z.max (- k') 0) in *. clearbody N c A' B'.
  assert (ED : distance (t1 * A') B' b * B = distance (a * A) B b * B').
  { unfold distance. set (K := 2 ^ 1074). rewrite <-(Z.abs_eq B) at 1 by lia. rewrite <-(Z.abs_eq B') at 2 by lia. rewrite <-!Z.abs_mul. f_equal.
    replace ((t1 * A' * K - units b * B') * B) with (t1 * A' * B * K - units b * B' * B) by ring. rewrite EX. ring. }
  eapply (Z.mul_le_mono_pos_r _ _ B); [exact HB|]. replace (distance (t1 * A') B' b * c * B) with (distance (t1 * A') B' b * B * c) by ring. rewrite ED.
  replace (distance (a * A) B b * B' * c) with (distance (a * A) B b * c * B') by ring. replace (distance N c b * B' * B) with (distance N c b * B * B') by ring. apply Z.mul_le_mono_nonneg_r; [lia|done].
Qed.
Lemma trimmed_lt a : 0 < a <= 10 ^ n -> (trimmed a k).1 < 10 ^ n.
Proof.
  pose proof cand_A as HA. pose proof cand_B as HB. pose proof cand_Q as HQ. 
  intros Ha. destruct (Z.eq_dec a (10 ^ n)) as [E|Hne].
  - unfold trimmed. assert (Hl : (1 <= Z.to_nat (Z.log2 a))%nat).
    { assert (1 <= Z.log2 a); [|lia]. apply (Z.log2_le_pow2 a 1); [lia|]. rewrite E. apply Z.le_trans with (10 ^ 1); [lia|]. apply Z.pow_le_mono_r; lia. }
    destruct (Z.to_nat (Z.log2 a)) as [|f]; [lia|]. cbn [trim_zeros].
    assert (Ea : a = 10 ^ (n - 1) * 10) by (rewrite E, Z.mul_comm, <-Z.pow_succ_r by lia; f_equal; lia).
    replace (a mod 10) with 0 by (rewrite Ea, Z.mod_mul; lia). replace (0 =? 0) with true by done. cbn match.
    replace (a / 10) with (10 ^ (n - 1)) by (rewrite Ea, Z.div_mul; lia).
    destruct (trim_zeros_eq f (10 ^ (n - 1)) (k - 1)) as (j & Hj & E1 & _). set (t := (trim_zeros f (10 ^ (n - 1)) (k - 1)).1) in *. clearbody t.
    pose proof (pow_pos 10 j ltac:(lia) Hj). pose proof (pow_pos 10 (n - 1) ltac:(lia) ltac:(lia)). assert (t <= 10 ^ (n - 1)) by (rewrite E1; nia). lia.
  - destruct (trimmed_eq a k) as (j & Hj & E1 & _). set (t := (trimmed a k).1) in *. clearbody t. pose proof (pow_pos 10 j ltac:(lia) Hj). assert (t <= a) by (rewrite E1; nia). lia.
Qed.
Lemma some_digits d : with_digits b p q n = Some d -> 0 < d.1 < 10 ^ n.
Proof. pose proof cand_A as HA. pose proof cand_B as HB. pose proof cand_Q as HQ. intros Hw. destruct (with_some d Hw) as (a & -> & Ha & _). split; [apply trimmed_pos; lia|by apply trimmed_lt]. Qed.
Lemma not_none : n = 17 -> with_digits b p q n <> None.
Proof.
  pose proof cand_A as HA. pose proof cand_B as HB. pose proof cand_Q as HQ. 
  intros E Hw. destruct (with_none Hw) as [N1 N2]. destruct lo_split as [S1 S2]. pose proof lo_pos.
  destruct (Z.le_gt_cases (2 * (P mod Q)) Q) as [H1|H1]; [apply N1|apply N2]; (apply seventeen; [done|lia|]); [rewrite Z.abs_neq by lia; lia|rewrite Z.abs_eq by lia; lia].
Qed.
End cands.

(** ** The whole *)
Lemma first_found b p q exact fuel : forall n, (exists n0, n <= n0 < n + Z.of_nat fuel /\ with_digits b p q n0 <> None) ->
  exists n0, n <= n0 < n + Z.of_nat fuel /\ with_digits b p q n0 = Some (first_enough b p q n fuel exact) /\ forall i, n <= i < n0 -> with_digits b p q i = None.
Proof.
  induction fuel as [|fuel IH]; intros n (n0 & H1 & H2); [lia|]. cbn [first_enough]. destruct (with_digits b p q n) as [d|] eqn:E.
  - exists n. split; [lia|]. split; [done|]. intros i Hi. lia.
  - destruct (IH (n + 1)) as (n1 & H3 & H4 & H5). { exists n0. split; [|done]. destruct (Z.eq_dec n0 n) as [->|]; [congruence|lia]. }
    exists n1. split; [lia|]. split; [done|]. intros i Hi. destruct (Z.eq_dec i n) as [->|]; [done|]. apply H5. lia.
Qed.
Lemma shortest_short b : magnitude b -> 0 < b -> exists n, 1 <= n <= 17 /\ 0 < (shortest b).1 < 10 ^ n /\
  forall n' m' k', 0 <= m' < 10 ^ n' -> reads (m' * 10 ^ Z.max k' 0) (10 ^ Z.max (- k') 0) b -> n <= n' /\
    (n = n' -> no_farther ((shortest b).1 * 10 ^ Z.max (- (shortest b).2) 0) (10 ^ Z.max (- - (shortest b).2) 0) (m' * 10 ^ Z.max k' 0) (10 ^ Z.max (- k') 0) b).
Proof.
  intros Mb Hb. destruct (bits_split b Mb Hb) as (Hm & He & Eb & Hn). unfold shortest. set (m := mantissa b) in *. set (e := exponent b) in *.
  set (p := m * 2 ^ Z.max e 0). set (q := 2 ^ Z.max (- e) 0). set (ex := trimmed _ _).
  assert (Hp : 0 < p) by (apply Z.mul_pos_pos; [lia|apply pow_pos; lia]). assert (Hq : 0 < q) by (apply pow_pos; lia).
  assert (EV : p * 2 ^ 1074 = units b * q).
  { assert (Ub : units b = m * 2 ^ (e + 1074)) by (rewrite <-Eb; apply units_bits; [lia|lia|]; destruct Hn; [left; lia|by right]).
    rewrite Ub. unfold p, q. rewrite <-!Z.mul_assoc. f_equal. rewrite <-!Z.pow_add_r by lia. f_equal. lia. }
  destruct (first_found b p q ex 17 1) as (n & H1 & H2 & H3). { exists 17. split; [lia|]. apply not_none; (done || lia). }
  set (d := first_enough b p q 1 17 ex) in *. exists n. split; [lia|]. split; [eapply (some_digits b p q n); [done|done|lia|exact H2]|].
  intros n' m' k' Hm' Hr. assert (Hm0 : 0 < m').
  { destruct (Z.eq_dec m' 0) as [->|]; [|lia]. exfalso. apply read_iff in Hr; [|lia]. injection Hr as Hr. lia. }
  assert (Hn' : 1 <= n'). { destruct (Z.le_gt_cases 1 n') as [|Hlt]; [done|]. exfalso. destruct (Z.eq_dec n' 0) as [->|]; [rewrite Z.pow_0_r in Hm'; lia|]. rewrite Z.pow_neg_r in Hm' by lia. lia. }
  destruct (Z.le_gt_cases n n') as [Hle|Hgt].
  - split; [done|]. intros <-. exact (some_nearest b p q n Hp Hq EV Hn' d m' k' H2 (conj Hm0 (proj2 Hm')) Hr).
  - exfalso. exact (none_short b p q n' Hp Hq EV Hn' m' k' (H3 n' (conj Hn' Hgt)) (conj Hm0 (proj2 Hm')) Hr).
Qed.

Lemma dist_cross p1 q1 p2 q2 b : 0 < q1 -> 0 < q2 -> p1 * q2 = p2 * q1 -> distance p1 q1 b * q2 = distance p2 q2 b * q1.
Proof.
  intros H1 H2 E. unfold distance. set (K := 2 ^ 1074). clearbody K. rewrite <-(Z.abs_eq q2) at 1 by lia. rewrite <-(Z.abs_eq q1) at 2 by lia. rewrite <-!Z.abs_mul. f_equal.
  replace ((p1 * K - units b * q1) * q2) with (p1 * q2 * K - units b * q1 * q2) by ring. rewrite E. ring.
Qed.
Lemma farther_cross p q p' q' p1 q1 p1' q1' b : 0 < q -> 0 < q' -> 0 < q1 -> 0 < q1' -> p * q1 = p1 * q -> p' * q1' = p1' * q' ->
  no_farther p1 q1 p1' q1' b -> no_farther p q p' q' b.
Proof.
  intros Hq Hq' Hq1 Hq1' E E' H. unfold no_farther in *. pose proof (dist_cross _ _ _ _ b Hq Hq1 E) as D. pose proof (dist_cross _ _ _ _ b Hq' Hq1' E') as D'.
  set (x := distance p q b) in *. set (x1 := distance p1 q1 b) in *. set (x' := distance p' q' b) in *. set (x1' := distance p1' q1' b) in *. clearbody x x1 x' x1'.
  eapply (Z.mul_le_mono_pos_r _ _ (q1 * q1')); [by apply Z.mul_pos_pos|].
  replace (x * q' * (q1 * q1')) with (x * q1 * (q' * q1')) by ring. rewrite D. replace (x' * q * (q1 * q1')) with (x' * q1' * (q * q1)) by ring. rewrite D'.
  replace (x1 * q * (q' * q1')) with (x1 * q1' * (q * q')) by ring. replace (x1' * q' * (q * q1)) with (x1' * q1 * (q * q')) by ring. apply Z.mul_le_mono_nonneg_r; [|done]. apply Z.lt_le_incl. by apply Z.mul_pos_pos.
Qed.
Lemma write_short b : magnitude b -> 0 < b -> exists m k n, stands_for (write_go b) m k /\ n <= 17 /\
  digits (m * 10 ^ Z.max k 0) (10 ^ Z.max (- k) 0) n /\
  forall t m' k' n', stands_for t m' k' -> digits (m' * 10 ^ Z.max k' 0) (10 ^ Z.max (- k') 0) n' -> read_go t = Some b ->
    n <= n' /\ (n = n' -> no_farther (m * 10 ^ Z.max k 0) (10 ^ Z.max (- k) 0) (m' * 10 ^ Z.max k' 0) (10 ^ Z.max (- k') 0) b).
Proof.
  intros Mb Hb. assert (Ew : write_go b = write_unsigned b) by (unfold write_go; destruct (Z.leb_spec (2 ^ 63) b); [unfold magnitude, inf in Mb; lia|done]). rewrite Ew.
  destruct (write_unsigned_ok b Mb) as [_ (m & k & S1 & S2 & S3)]. specialize (S3 Hb). destruct (shortest_short b Mb Hb) as (n & N1 & N2 & N3). destruct (shortest b) as [s1 s2]. cbn [fst snd] in *.
  exists m, k, n. split; [done|]. split; [lia|]. split; [exists s1, (- s2); split; [lia|done]|].
  intros t m' k' n' T1 (m1 & k1 & D1 & D2) T2. rewrite (read_unsigned _ _ _ T1) in T2. assert (Hm' : 0 <= m') by (by apply number_first in T1 as (? & ? & _ & _ & ?)).
  apply (proj1 (read_iff _ _ _ Hm')) in T2. destruct (N3 n' m1 k1 D1) as [L1 L2].
  { eapply reads_between; [apply den_pos|apply den_pos|exact T2|]. right. right. exact D2. }
  split; [done|]. intros En. eapply (farther_cross _ _ _ _ _ _ _ _ b); [..|exact (L2 En)]; try apply den_pos; [exact S3|exact D2].
Qed.
Lemma write_sign b : magnitude b -> write_go (2 ^ 63 + b) = String "-" (write_go b).
Proof.
  unfold magnitude, inf. intros H. unfold write_go. destruct (Z.leb_spec (2 ^ 63) (2 ^ 63 + b)); [|lia]. destruct (Z.leb_spec (2 ^ 63) b); [lia|]. f_equal. f_equal. lia.
Qed.
