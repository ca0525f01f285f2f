(** Decimals of up to fifteen digits come out as they went in. *)
From Coq Require Import Ascii String.
From stdpp Require Import prelude strings.
From Verif.Base Require Import Envelope Str Dec.
From Verif.Auth Require Import Docs SpecDocs DocsMore.
From Verif.Json Require Import Pb.
From Verif.Marshaler Require Import Model.
From Verif.Float Require Import Model Spec Proofs Nearest Short Parse ParseProofs SpecDigits.
Open Scope Z_scope.

(** what is read as b is at most half a step from it *)
Lemma half_step p q b : 0 < q -> magnitude b -> 2 ^ 52 <= b -> reads p q b -> 2 * Z.abs (p * 2 ^ 1074 - units b * q) <= 2 ^ (exponent b + 1074) * q /\ 2 ^ 52 * 2 ^ (exponent b + 1074) <= units b.
Proof.
  intros Hq Mb Hb [[_ Hn] Ho]. destruct (bits_split b Mb ltac:(lia)) as (Hm & He & Eb & Hd). set (m := mantissa b) in *. set (e := exponent b) in *.
  assert (Hm2 : 2 ^ 52 <= m) by (unfold m, mantissa; destruct (Z.ltb_spec b (2 ^ 52)); [lia|]; pose proof (Z.mod_pos_bound b (2 ^ 52)); lia).
  assert (Ub : units b = m * 2 ^ (e + 1074)) by (rewrite <-Eb; apply units_bits; [lia|lia|by left]).
  pose proof (pow_pos 2 (e + 1074) ltac:(lia) ltac:(lia)) as HS.
  assert (Hup : 2 * (p * 2 ^ 1074 - units b * q) <= 2 ^ (e + 1074) * q).
  { destruct (Z.eq_dec b (inf - 1)) as [E|E].
    - unfold out_of_range in Ho. assert (Ee : e = 971) by (unfold e; rewrite E; by vm_compute). assert (EU : units b = (2 ^ 1024 - 2 ^ 971) * 2 ^ 1074) by (rewrite E; by vm_compute).
      rewrite Ee, EU. change (2 ^ (971 + 1074)) with (2 * 2 ^ 970 * 2 ^ 1074). change (2 ^ 971) with (2 * 2 ^ 970). assert (HK : 0 < 2 ^ 1074) by done.
      set (K := 2 ^ 1074) in *. set (W := 2 ^ 1024) in *. set (z := 2 ^ 970) in *. clearbody K W z. replace ((W - 2 * z) * K * q) with ((W - 2 * z) * q * K) by ring.
      assert (X : p <= (W - z) * q) by lia. assert (Y : p * K <= (W - z) * q * K) by (apply Z.mul_le_mono_nonneg_r; lia). lia.
    - assert (Mg : magnitude (b + 1)) by (unfold magnitude in *; lia). destruct (Hn (b + 1) Mg) as [H1 _].
      assert (Ug : units (b + 1) = (m + 1) * 2 ^ (e + 1074)). { replace (b + 1) with (float_bits (m + 1) e) by (rewrite <-Eb; unfold float_bits; lia). apply units_bits; [lia|lia|left; lia]. }
      unfold distance in H1. rewrite Ug in H1. rewrite Ub in *. set (S := 2 ^ (e + 1074)) in *. replace ((m + 1) * S * q) with (m * S * q + S * q) in H1 by ring.
      set (x := p * 2 ^ 1074) in *. set (y := m * S * q) in *. assert (0 < S * q) by (apply Z.mul_pos_pos; done). set (z := S * q) in *. clearbody x y z. lia. }
  assert (Hdown : 2 * (units b * q - p * 2 ^ 1074) <= 2 ^ (e + 1074) * q).
  { assert (Mg : magnitude (b - 1)) by (unfold magnitude in *; lia). destruct (Hn (b - 1) Mg) as [H1 _].
    assert (Ug : exists G, units (b - 1) = units b - G /\ 0 < G <= 2 ^ (e + 1074)).
    { destruct (Z.eq_dec m (2 ^ 52)) as [Em|Em].
      - destruct (Z.eq_dec e (-1074)) as [E0|E0].
        + exists (2 ^ (e + 1074)). split; [|lia]. replace (b - 1) with (float_bits (m - 1) e) by (rewrite <-Eb; unfold float_bits; lia). rewrite units_bits by lia. rewrite Ub. lia.
        + exists (2 ^ (e - 1 + 1074)). pose proof (pow_pos 2 (e - 1 + 1074) ltac:(lia) ltac:(lia)) as HS'. replace (e + 1074) with (Z.succ (e - 1 + 1074)) in Ub |- * by lia. rewrite Z.pow_succ_r in Ub |- * by lia. split; [|lia].
          replace (b - 1) with (float_bits (2 ^ 53 - 1) (e - 1)) by (rewrite <-Eb, Em; unfold float_bits; lia). rewrite units_bits by lia. rewrite Ub, Em. lia.
      - exists (2 ^ (e + 1074)). split; [|lia]. replace (b - 1) with (float_bits (m - 1) e) by (rewrite <-Eb; unfold float_bits; lia). rewrite units_bits by lia. rewrite Ub. lia. }
    destruct Ug as (G & EG & HG). unfold distance in H1. rewrite EG in H1. rewrite Z.mul_sub_distr_r in H1. assert (G * q <= 2 ^ (e + 1074) * q) by (apply Z.mul_le_mono_nonneg_r; lia). assert (0 < G * q) by (apply Z.mul_pos_pos; lia).
    set (x := p * 2 ^ 1074) in *. set (y := units b * q) in *. set (z := 2 ^ (e + 1074) * q) in *. set (w := G * q) in *. clearbody x y z w. lia. }
  split; [lia|]. rewrite Ub. apply Z.mul_le_mono_nonneg_r; lia.
Qed.

Lemma fifteen_le m1 k1 m2 k2 b : k1 <= k2 -> 0 <= m1 < 10 ^ 15 -> 0 <= m2 -> magnitude b -> 2 ^ 52 <= b ->
  reads (m1 * 10 ^ Z.max k1 0) (10 ^ Z.max (- k1) 0) b -> reads (m2 * 10 ^ Z.max k2 0) (10 ^ Z.max (- k2) 0) b ->
  m1 * 10 ^ Z.max k1 0 * 10 ^ Z.max (- k2) 0 = m2 * 10 ^ Z.max k2 0 * 10 ^ Z.max (- k1) 0.
Proof.
  intros Hk Hm1 Hm2 Mb Hb R1 R2. set (j := m2 * 10 ^ (k2 - k1)). set (A := 10 ^ Z.max k1 0) in *. set (B := 10 ^ Z.max (- k1) 0) in *.
  assert (HA : 0 < A) by apply den_pos. assert (HB : 0 < B) by apply den_pos.
  assert (E : m2 * 10 ^ Z.max k2 0 * B = j * A * 10 ^ Z.max (- k2) 0).
  { unfold j, A, B. replace (m2 * 10 ^ (k2 - k1) * 10 ^ Z.max k1 0 * 10 ^ Z.max (- k2) 0) with (m2 * (10 ^ (k2 - k1) * 10 ^ Z.max k1 0 * 10 ^ Z.max (- k2) 0)) by ring. rewrite <-Z.mul_assoc. f_equal. rewrite <-!Z.pow_add_r by lia. f_equal. lia. }
  assert (R3 : reads (j * A) B b) by (eapply reads_between; [apply den_pos|exact HB|exact R2|]; right; right; exact E).
  destruct (half_step _ _ _ HB Mb Hb R1) as [H1 HU]. destruct (half_step _ _ _ HB Mb Hb R3) as [H3 _]. rewrite E.
  destruct (Z.eq_dec m1 j) as [->|Hne]; [done|]. exfalso.
  assert (HK : 0 < 2 ^ 1074) by done. assert (HS : 0 < 2 ^ (exponent b + 1074)) by (apply pow_pos; [lia|]; destruct (units_form b ltac:(destruct Mb; lia)); lia).
  set (K := 2 ^ 1074) in *. set (S := 2 ^ (exponent b + 1074)) in *. clearbody K S A B j. set (X := A * K). assert (HX : 0 < X) by (apply Z.mul_pos_pos; done).
  replace (m1 * A * K) with (m1 * X) in H1 by (unfold X; ring). replace (j * A * K) with (j * X) in H3 by (unfold X; ring). clearbody X.
  assert (HUB : 2 ^ 52 * (S * B) <= units b * B) by (rewrite Z.mul_assoc; apply Z.mul_le_mono_nonneg_r; lia). set (V := units b * B) in *. assert (0 < S * B) by (apply Z.mul_pos_pos; done). set (Y := S * B) in *. clearbody V Y.
  assert (XY : X <= Y). { assert (X <= Z.abs (m1 - j) * X) by nia. assert (Z.abs (m1 - j) * X = Z.abs (m1 * X - j * X)) by (rewrite <-Z.mul_sub_distr_r, Z.abs_mul, (Z.abs_eq X) by lia; done). lia. }
  assert (m1 * X <= 10 ^ 15 * X) by (apply Z.mul_le_mono_nonneg_r; lia). change (10 ^ 15) with 1000000000000000 in *. change (2 ^ 52) with 4503599627370496 in *. lia.
Qed.
Lemma fifteen_eq m1 k1 m2 k2 b : 0 <= m1 < 10 ^ 15 -> 0 <= m2 < 10 ^ 15 -> magnitude b -> 2 ^ 52 <= b ->
  reads (m1 * 10 ^ Z.max k1 0) (10 ^ Z.max (- k1) 0) b -> reads (m2 * 10 ^ Z.max k2 0) (10 ^ Z.max (- k2) 0) b ->
  m1 * 10 ^ Z.max k1 0 * 10 ^ Z.max (- k2) 0 = m2 * 10 ^ Z.max k2 0 * 10 ^ Z.max (- k1) 0.
Proof.
  intros H1 H2 Mb Hb R1 R2. destruct (Z.le_ge_cases k1 k2) as [H|H]; [by apply (fifteen_le m1 k1 m2 k2 b); try lia|symmetry; by apply (fifteen_le m2 k2 m1 k1 b); try lia].
Qed.
(** 2^-1022 and more is read as a normal number *)
Lemma normal_read p q b : 0 < q -> q <= p * 2 ^ 1022 -> nearest p q b -> 2 ^ 52 <= b.
Proof.
  intros Hq Hp [Mb Hn]. destruct (Z.le_gt_cases (2 ^ 52) b) as [|H]; [done|]. exfalso. destruct (Hn (2 ^ 52)) as [H1 _]; [by vm_compute|]. unfold distance in H1. change (units (2 ^ 52)) with (2 ^ 52) in H1.
  assert (E : units b = b) by (unfold units; destruct (Z.ltb_spec b (2 ^ 52)); [done|lia]). rewrite E in H1. change (2 ^ 1074) with (2 ^ 1022 * 2 ^ 52) in H1. replace (p * (2 ^ 1022 * 2 ^ 52)) with (p * 2 ^ 1022 * 2 ^ 52) in H1 by (set (x := 2 ^ 1022); set (y := 2 ^ 52); ring).
  set (x := p * 2 ^ 1022) in *. assert (2 ^ 52 * q <= x * 2 ^ 52) by lia. assert (b * q < 2 ^ 52 * q) by (apply Z.mul_lt_mono_pos_r; done). clearbody x. destruct Mb. lia.
Qed.
Lemma cross_trans N1 d1 N2 d2 N3 d3 : 0 < d2 -> N1 * d2 = N2 * d1 -> N2 * d3 = N3 * d2 -> N1 * d3 = N3 * d1.
Proof.
  intros H E1 E2. apply (Z.mul_cancel_r _ _ d2); [lia|]. replace (N1 * d3 * d2) with (N1 * d2 * d3) by ring. rewrite E1. replace (N2 * d1 * d3) with (N2 * d3 * d1) by ring. rewrite E2. ring.
Qed.
(** the shortest decimal that is read as what a decimal of fifteen digits is read as, is that decimal *)
Lemma fifteen m k b : digits (m * 10 ^ Z.max k 0) (10 ^ Z.max (- k) 0) 15 -> 10 ^ Z.max (- k) 0 <= m * 10 ^ Z.max k 0 * 2 ^ 1022 ->
  reads (m * 10 ^ Z.max k 0) (10 ^ Z.max (- k) 0) b ->
  0 < b /\ m * 10 ^ Z.max k 0 * 10 ^ Z.max (- - (shortest b).2) 0 = (shortest b).1 * 10 ^ Z.max (- (shortest b).2) 0 * 10 ^ Z.max (- k) 0.
Proof.
  intros (m1 & k1 & E1 & E2) Hmin Hr. assert (Hb : 2 ^ 52 <= b) by (eapply normal_read; [apply den_pos|exact Hmin|apply Hr]). assert (Mb : magnitude b) by apply Hr.
  assert (H0 : 0 < b) by (clear - Hb; lia). split; [done|]. clear Hmin.
  assert (R1 : reads (m1 * 10 ^ Z.max k1 0) (10 ^ Z.max (- k1) 0) b) by (eapply reads_between; [apply den_pos|apply den_pos|exact Hr|]; right; right; exact E2).
  destruct (shortest_short b Mb H0) as (n & N1 & N2 & N3). destruct (N3 15 m1 k1 E1 R1) as [Hn _]. destruct (shortest_reads b Mb H0) as [S1 S2]. destruct (shortest b) as [s1 s2]. cbn [fst snd] in *.
  assert (Hs : 0 <= s1 < 10 ^ 15). { assert (10 ^ n <= 10 ^ 15) by (apply Z.pow_le_mono_r; lia). clear - N2 H S2. lia. }
  assert (R2 : reads (s1 * 10 ^ Z.max (- s2) 0) (10 ^ Z.max (- - s2) 0) b) by (apply (read_iff _ _ _ (proj1 Hs)); exact S1).
  eapply cross_trans; [apply (den_pos (- k1))|exact E2|]. exact (fifteen_eq m1 k1 s1 (- s2) b E1 Hs Mb Hb R1 R2).
Qed.

(** ** Texts *)
Lemma stands_unique t m k m' k' : stands_for t m k -> stands_for t m' k' -> m = m' /\ k = k'.
Proof. intros H H'. apply stands_parses in H, H'. rewrite H in H'. by injection H' as -> ->. Qed.
Lemma fifteen_text t : up_to 15 t -> not_huge t -> not_tiny t -> exists m k b, stands_for t m k /\ read_decimal m k = Some b /\ magnitude b /\ 0 < b /\
  m * 10 ^ Z.max k 0 * 10 ^ Z.max (- - (shortest b).2) 0 = (shortest b).1 * 10 ^ Z.max (- (shortest b).2) 0 * 10 ^ Z.max (- k) 0.
Proof.
  intros (m & k & T & D) (m1 & k1 & T1 & Hh) (m2 & k2 & T2 & Ht). destruct (stands_unique _ _ _ _ _ T T1) as [<- <-], (stands_unique _ _ _ _ _ T T2) as [<- <-].
  assert (Hm : 0 <= m) by (by apply number_first in T as (? & ? & _ & _ & ?)). destruct (read_decimal m k) as [b|] eqn:Er; [|by destruct Hh; apply read_in_range].
  exists m, k, b. pose proof (proj1 (read_iff _ _ _ Hm) Er) as Er'. destruct (fifteen m k b D Ht Er'). split; [done|]. split; [done|]. split; [apply Er'|done].
Qed.
Lemma fifteen_short t : up_to 15 t -> not_huge t -> not_tiny t -> exists m k b, stands_for t m k /\ read_decimal m k = Some b /\ magnitude b /\ 0 < b /\
  same_number t (write_go b) /\ same_number t (let '(m, k) := shortest b in write_f m k).
Proof.
  intros H1 H2 H3. destruct (fifteen_text t H1 H2 H3) as (m & k & b & T & R & Mb & Hb & E). exists m, k, b. do 4 (split; [done|]). split.
  - assert (Ew : write_go b = write_unsigned b) by (unfold write_go; destruct (Z.leb_spec (2 ^ 63) b); [unfold magnitude, inf in Mb; lia|done]). rewrite Ew.
    destruct (write_unsigned_ok b Mb) as [_ (m' & k' & S1 & S2 & S3)]. specialize (S3 Hb). exists m, k, m', k'. split; [done|]. split; [done|].
    eapply cross_trans; [|exact E|symmetry; exact S3]. apply den_pos.
  - destruct (shortest_reads b Mb Hb) as [_ S2]. destruct (shortest b) as [s1 s2]. cbn [fst snd] in *. destruct (write_f_stands s1 s2 S2) as (m' & k' & S1 & _ & S3).
    exists m, k, m', k'. split; [done|]. split; [done|]. eapply cross_trans; [|exact E|symmetry; exact S3]. apply den_pos.
Qed.
