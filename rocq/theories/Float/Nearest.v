(** What is read is the nearest float64. *)
From Coq Require Import Ascii String.
From stdpp Require Import prelude strings.
From Verif.Base Require Import Envelope Str Dec.
From Verif.Auth Require Import Docs SpecDocs DocsMore.
From Verif.Json Require Import Pb.
From Verif.Float Require Import Model Spec Proofs.
Open Scope Z_scope.

(** ** Bits and units *)
Lemma units_form b : 0 <= b -> units b = mantissa b * 2 ^ (exponent b + 1074) /\ 0 <= mantissa b < 2^53 /\ -1074 <= exponent b.
Proof.
  intros H. unfold units, mantissa, exponent. destruct (Z.ltb_spec b (2^52)); [change (-1074 + 1074) with 0; lia|].
  replace (b / 2 ^ 52 - 1075 + 1074) with (b / 2 ^ 52 - 1) by lia. split; [done|]. pose proof (Z.mod_pos_bound b (2^52) ltac:(lia)).
  assert (1 <= b / 2 ^ 52) by (apply Z.div_le_lower_bound; lia). lia.
Qed.
Lemma units_bits n e : 0 <= n <= 2^53 -> -1074 <= e -> 2^52 <= n \/ e = -1074 -> units (float_bits n e) = n * 2 ^ (e + 1074).
Proof.
  intros Hn He Hd. unfold units, float_bits. set (E := e + 1074). assert (HE : 0 <= E) by lia.
  destruct (Z.ltb_spec (n + E * 2 ^ 52) (2 ^ 52)) as [H|H].
  { assert (E = 0) by lia. rewrite H0. cbn [Z.pow]. lia. }
  destruct (Z.eq_dec n (2^53)) as [->|Hne].
  - replace (2 ^ 53 + E * 2 ^ 52) with ((E + 2) * 2 ^ 52) by lia. rewrite Z.mod_mul, Z.div_mul by lia. replace (E + 2 - 1) with (Z.succ E) by lia. rewrite Z.pow_succ_r by done. lia.
  - assert (Hn' : 2^52 <= n < 2^53) by lia. assert (E1 : (n + E * 2 ^ 52) / 2 ^ 52 = E + 1) by (symmetry; apply (Z.div_unique _ _ _ (n - 2^52)); lia).
    assert (E2 : (n + E * 2 ^ 52) mod 2 ^ 52 = n - 2^52) by (symmetry; apply (Z.mod_unique _ _ (E + 1)); lia). rewrite E1, E2. replace (E + 1 - 1) with E by lia. lia.
Qed.
Lemma units_mono b b' : 0 <= b < b' -> units b < units b'.
Proof.
  intros H. unfold units. destruct (Z.ltb_spec b (2^52)) as [H1|H1], (Z.ltb_spec b' (2^52)) as [H2|H2]; try lia.
  - pose proof (Z.mod_pos_bound b' (2^52) ltac:(lia)). assert (1 <= b' / 2 ^ 52) by (apply Z.div_le_lower_bound; lia).
    pose proof (pow_pos 2 (b' / 2 ^ 52 - 1) ltac:(lia) ltac:(lia)). nia.
  - pose proof (Z.mod_pos_bound b (2^52) ltac:(lia)) as M1. pose proof (Z.mod_pos_bound b' (2^52) ltac:(lia)) as M2.
    pose proof (Z.div_mod b (2^52) ltac:(lia)) as D1. pose proof (Z.div_mod b' (2^52) ltac:(lia)) as D2.
    assert (G1 : 1 <= b / 2 ^ 52) by (apply Z.div_le_lower_bound; lia). set (x := b / 2 ^ 52) in *. set (y := b' / 2 ^ 52) in *. assert (Hxy : x <= y) by lia.
    destruct (Z.eq_dec x y) as [E|E].
    + rewrite <-E in *. pose proof (pow_pos 2 (x - 1) ltac:(lia) ltac:(lia)). apply Z.mul_lt_mono_pos_r; [done|]. lia.
    + assert (P : 2 ^ (x - 1) * 2 <= 2 ^ (y - 1)) by (rewrite Z.mul_comm, <-Z.pow_succ_r by lia; apply Z.pow_le_mono_r; lia).
      pose proof (pow_pos 2 (x - 1) ltac:(lia) ltac:(lia)). nia.
Qed.
Lemma units_inj b b' : 0 <= b -> 0 <= b' -> units b = units b' -> b = b'.
Proof.
  intros H H' E. destruct (Z.lt_trichotomy b b') as [L|[L|L]]; [|done|]; [pose proof (units_mono b b' (conj H L))|pose proof (units_mono b' b (conj H' L))]; lia.
Qed.

(** ** Rounding *)
Definition rounded (P Q : Z) : Z :=
  let d := P / Q in let r := P mod Q in if (Q <? 2 * r) || ((2 * r =? Q) && Z.odd d) then d + 1 else d.
Lemma rounded_spec P Q : 0 < Q -> forall j, Z.abs (P - rounded P Q * Q) <= Z.abs (P - j * Q) /\
  (Z.abs (P - rounded P Q * Q) = Z.abs (P - j * Q) -> j <> rounded P Q -> Z.even (rounded P Q) = true).
Proof.
  intros HQ j. unfold rounded. cbn zeta. pose proof (Z.div_mod P Q ltac:(lia)) as D. pose proof (Z.mod_pos_bound P Q HQ) as M. set (d := P / Q) in *. set (r := P mod Q) in *.
  assert (A : j <= d -> Z.abs (P - j * Q) = (d - j) * Q + r) by (intros; rewrite Z.abs_eq by nia; nia).
  assert (B : d + 1 <= j -> Z.abs (P - j * Q) = (j - d - 1) * Q + (Q - r)) by (intros; rewrite Z.abs_neq by nia; nia).
  assert (A0 : Z.abs (P - d * Q) = r) by (rewrite Z.abs_eq by nia; nia). assert (B0 : Z.abs (P - (d + 1) * Q) = Q - r) by (rewrite Z.abs_neq by nia; nia).
  destruct (Z.ltb_spec Q (2 * r)) as [H1|H1]; cbn [orb].
  - rewrite B0. destruct (Z.le_gt_cases j d) as [H|H]; [rewrite (A H)|rewrite (B ltac:(lia))]; (split; [nia|]); intros E Hne; exfalso; nia.
  - destruct (Z.eqb_spec (2 * r) Q) as [H2|H2]; cbn [andb].
    + destruct (Z.odd d) eqn:Ho.
      * rewrite B0. split; [destruct (Z.le_gt_cases j d) as [H|H]; [rewrite (A H)|rewrite (B ltac:(lia))]; nia|]. intros _ _. rewrite Z.add_1_r, Z.even_succ. done.
      * rewrite A0. split; [destruct (Z.le_gt_cases j d) as [H|H]; [rewrite (A H)|rewrite (B ltac:(lia))]; nia|]. intros _ _. rewrite <-Z.negb_odd, Ho. done.
    + rewrite A0. destruct (Z.le_gt_cases j d) as [H|H]; [rewrite (A H)|rewrite (B ltac:(lia))]; (split; [nia|]); intros E Hne; exfalso; nia.
Qed.
Lemma rounded_bounds P Q a b : 0 < Q -> a * Q <= P -> P <= b * Q -> a <= rounded P Q <= b.
Proof.
  intros HQ Ha Hb. unfold rounded. cbn zeta. pose proof (Z.div_mod P Q ltac:(lia)) as D. pose proof (Z.mod_pos_bound P Q HQ) as M. set (d := P / Q) in *. set (r := P mod Q) in *.
  destruct (Z.ltb_spec Q (2 * r)) as [H1|H1]; cbn [orb]; [nia|]. destruct (Z.eqb_spec (2 * r) Q); cbn [andb]; [|nia]. destruct (Z.odd d); nia.
Qed.

(** ** The exponent *)
Definition scale (p q : Z) : Z :=
  let l := Z.log2 p - Z.log2 q in
  let l := if q * 2 ^ Z.max l 0 <=? p * 2 ^ Z.max (- l) 0 then l else l - 1 in
  Z.max (l - 52) (-1074).
Lemma nearest_float_eq p q : nearest_float p q =
  let e := scale p q in let n := rounded (p * 2 ^ Z.max (- e) 0) (q * 2 ^ Z.max e 0) in if 2 ^ 1024 <=? n * 2 ^ Z.max e 0 then None else Some (n, e).
Proof. done. Qed.
Lemma scale_bounds p q : 0 < p -> 0 < q -> let e := scale p q in let P := p * 2 ^ Z.max (- e) 0 in let Q := q * 2 ^ Z.max e 0 in
  0 < P /\ 0 < Q /\ -1074 <= e /\ P < 2^53 * Q /\ (2^52 * Q <= P \/ e = -1074).
Proof.
  intros Hp Hq e P Q.
  set (l := if q * 2 ^ Z.max (Z.log2 p - Z.log2 q) 0 <=? p * 2 ^ Z.max (- (Z.log2 p - Z.log2 q)) 0 then Z.log2 p - Z.log2 q else Z.log2 p - Z.log2 q - 1).
  assert (Ee : e = Z.max (l - 52) (-1074)) by done. destruct (ilog_bounds p q l Hp Hq eq_refl) as [Hl1 Hl2]. clearbody l.
  pose proof (pow_pos 2 (Z.max e 0) ltac:(lia) ltac:(lia)) as P1. pose proof (pow_pos 2 (Z.max (- e) 0) ltac:(lia) ltac:(lia)) as P2. clearbody e.
  split; [unfold P; nia|]. split; [unfold Q; nia|]. split; [lia|]. split.
  - assert (X : 2 ^ Z.max (l + 1) 0 * 2 ^ Z.max (- e) 0 <= 2^53 * 2 ^ Z.max e 0 * 2 ^ Z.max (- (l + 1)) 0) by (rewrite <-!Z.pow_add_r by lia; apply Z.pow_le_mono_r; lia).
    pose proof (pow_pos 2 (Z.max (- (l + 1)) 0) ltac:(lia) ltac:(lia)) as P3. unfold P, Q. apply (Z.mul_lt_mono_pos_r (2 ^ Z.max (- (l + 1)) 0)); [done|].
    apply Z.lt_le_trans with (q * (2 ^ Z.max (l + 1) 0 * 2 ^ Z.max (- e) 0)); [nia|]. apply Z.le_trans with (q * (2 ^ 53 * 2 ^ Z.max e 0 * 2 ^ Z.max (- (l + 1)) 0)); [nia|lia].
  - destruct (Z.eq_dec e (-1074)) as [|Hne]; [by right|left]. assert (El : e = l - 52) by lia.
    assert (X : 2^52 * 2 ^ Z.max e 0 * 2 ^ Z.max (- l) 0 = 2 ^ Z.max l 0 * 2 ^ Z.max (- e) 0) by (rewrite <-!Z.pow_add_r by lia; f_equal; lia).
    pose proof (pow_pos 2 (Z.max (- l) 0) ltac:(lia) ltac:(lia)) as P3. unfold P, Q. apply (Z.mul_le_mono_pos_r _ _ (2 ^ Z.max (- l) 0)); [done|].
    apply Z.le_trans with (q * (2 ^ Z.max l 0 * 2 ^ Z.max (- e) 0)); [rewrite <-X; lia|nia].
Qed.

Lemma even_bits n e : -1074 <= e -> Z.even (float_bits n e) = Z.even n.
Proof. intros H. unfold float_bits. rewrite Z.even_add, Z.even_mul. change (Z.even (2 ^ 52)) with true. rewrite orb_true_r. by destruct (Z.even n). Qed.

Lemma nearest_ok p q : 0 < p -> 0 < q ->
  match nearest_float p q with Some (n, e) => nearest p q (float_bits n e) /\ ~ out_of_range p q | None => out_of_range p q end.
Proof.
  intros Hp Hq. rewrite nearest_float_eq. cbn zeta. destruct (scale_bounds p q Hp Hq) as (HP & HQ & He & Hu & Hl). set (e := scale p q) in *. clearbody e.
  set (P := p * 2 ^ Z.max (- e) 0) in *. set (Q := q * 2 ^ Z.max e 0) in *. set (n := rounded P Q) in *.
  pose proof (rounded_spec P Q HQ) as HR. fold n in HR.
  assert (Hn0 : 0 <= n <= 2^53) by (apply rounded_bounds; lia).
  assert (Hnl : 2^52 <= n \/ e = -1074) by (destruct Hl as [Hl|]; [left|by right]; eapply (rounded_bounds P Q (2^52) (2^53)); lia).
  destruct (Z.leb_spec (2 ^ 1024) (n * 2 ^ Z.max e 0)) as [Hov|Hov].
  - (* too large *)
    destruct (Z.le_gt_cases e 970) as [H1|H1].
    { exfalso. assert (2 ^ Z.max e 0 <= 2 ^ 970) by (apply Z.pow_le_mono_r; lia). assert (X : 2 ^ 53 * 2 ^ 970 < 2 ^ 1024) by done. nia. }
    assert (EP : P = p) by (unfold P; rewrite (Z.max_r (- e) 0), Z.pow_0_r by lia; lia). assert (EQ : Q = q * 2 ^ e) by (unfold Q; rewrite (Z.max_l e 0) by lia; done).
    unfold out_of_range. destruct (Z.eq_dec e 971) as [E|E].
    + assert (Hn : n = 2^53). { rewrite E in Hov. change (2 ^ 1024) with (2 ^ 53 * 2 ^ Z.max 971 0) in Hov. assert (2^53 <= n); [|lia]. eapply (Z.mul_le_mono_pos_r _ _ (2 ^ Z.max 971 0)); [done|exact Hov]. }
      destruct (HR (2^53 - 1)) as [HR1 _]. rewrite Hn in HR1. rewrite (Z.abs_neq (P - 2^53 * Q)), (Z.abs_eq (P - (2 ^ 53 - 1) * Q)) in HR1 by (try lia).
      rewrite EP, EQ, E in HR1. change (2 ^ 971) with (2 * 2 ^ 970) in HR1. change (2 ^ 1024) with (2 ^ 54 * 2 ^ 970). set (z := 2 ^ 970) in *. lia.
    + destruct Hl as [Hl|]; [|lia]. rewrite EP, EQ in Hl. assert (2 ^ 972 <= 2 ^ e) by (apply Z.pow_le_mono_r; lia). assert (X : 2 ^ 52 * 2 ^ 972 = 2 ^ 1024) by done.
      assert (0 <= 2 ^ 970) by done. nia.
  - assert (He2 : e <= 971).
    { destruct (Z.le_gt_cases e 971) as [|H1]; [done|]. exfalso. destruct Hnl as [Hnl|]; [|lia]. assert (2 ^ 972 <= 2 ^ Z.max e 0) by (apply Z.pow_le_mono_r; lia).
      assert (X : 2 ^ 52 * 2 ^ 972 = 2 ^ 1024) by done. nia. }
    assert (Hn9 : e = 971 -> n < 2^53).
    { intros ->. change (2 ^ 1024) with (2 ^ 53 * 2 ^ Z.max 971 0) in Hov. eapply (Z.mul_lt_mono_pos_r (2 ^ Z.max 971 0)); [done|exact Hov]. }
    assert (Hmag : magnitude (float_bits n e)).
    { unfold magnitude, float_bits, inf. split; [lia|]. destruct (Z.eq_dec e 971) as [E|E]; [specialize (Hn9 E); lia|lia]. }
    set (C := 2 ^ (1074 - Z.max (- e) 0)). assert (HC : 0 < C) by (apply pow_pos; lia).
    assert (EV : p * 2 ^ 1074 = P * C) by (unfold P, C; rewrite <-Z.mul_assoc, <-Z.pow_add_r by lia; f_equal; f_equal; lia).
    assert (ES : 2 ^ (e + 1074) * q = Q * C) by (unfold Q, C; rewrite <-Z.mul_assoc, <-Z.pow_add_r by lia; rewrite Z.mul_comm; f_equal; f_equal; lia).
    assert (DJ : forall j, Z.abs (p * 2 ^ 1074 - j * 2 ^ (e + 1074) * q) = Z.abs (P - j * Q) * C).
    { intros j. rewrite EV. replace (P * C - j * 2 ^ (e + 1074) * q) with ((P - j * Q) * C) by (rewrite <-Z.mul_assoc, ES; ring). rewrite Z.abs_mul, (Z.abs_eq C) by lia. done. }
    pose proof (units_bits n e Hn0 He Hnl) as EU.
    split.
    + split; [exact Hmag|]. intros g Hg. unfold distance. rewrite EU, DJ, even_bits by done. destruct (units_form g) as (G1 & G2 & G3); [destruct Hg; lia|].
      destruct (Z.le_gt_cases e (exponent g)) as [Hge|Hlt].
      * set (j := mantissa g * 2 ^ (exponent g - e)). assert (EG : units g = j * 2 ^ (e + 1074)).
        { rewrite G1. unfold j. rewrite <-Z.mul_assoc, <-Z.pow_add_r by lia. f_equal. f_equal. lia. }
        rewrite EG, DJ. destruct (HR j) as [R1 R2]. split; [apply Z.mul_le_mono_nonneg_r; [lia|done]|]. intros E Hne. apply R2; [eapply Z.mul_cancel_r; [|exact E]; lia|]. intros Ej. apply Hne, units_inj; [destruct Hg; lia|destruct Hmag; lia|]. by rewrite EU, EG, Ej.
      * destruct Hl as [Hl|]; [|lia]. destruct (HR (2^52)) as [R1 _]. assert (G4 : units g < 2 ^ 52 * 2 ^ (e + 1074)).
        { rewrite G1. assert (2 ^ (exponent g + 1074) * 2 <= 2 ^ (e + 1074)) by (rewrite Z.mul_comm, <-Z.pow_succ_r by lia; apply Z.pow_le_mono_r; lia).
          pose proof (pow_pos 2 (exponent g + 1074) ltac:(lia) ltac:(lia)). clear - H H0 G2. set (x := 2 ^ (exponent g + 1074)) in *. set (y := 2 ^ (e + 1074)) in *. clearbody x y. nia. }
        assert (G5 : Z.abs (P - 2 ^ 52 * Q) * C < Z.abs (p * 2 ^ 1074 - units g * q)).
        { rewrite <-DJ. rewrite (Z.abs_eq (p * 2 ^ 1074 - 2 ^ 52 * 2 ^ (e + 1074) * q)) by (rewrite EV, <-Z.mul_assoc, ES; clear - Hl HC; nia).
          assert (G6 : units g * q < 2 ^ 52 * 2 ^ (e + 1074) * q) by (apply Z.mul_lt_mono_pos_r; done).
          assert (G7 : 2 ^ 52 * 2 ^ (e + 1074) * q <= p * 2 ^ 1074) by (rewrite EV, <-Z.mul_assoc, ES; clear - Hl HC; nia).
          clear - G6 G7. set (x := p * 2 ^ 1074) in *. set (y := 2 ^ 52 * 2 ^ (e + 1074) * q) in *. clearbody x y. lia. }
        assert (R3 : Z.abs (P - n * Q) * C <= Z.abs (P - 2 ^ 52 * Q) * C) by (apply Z.mul_le_mono_nonneg_r; [lia|done]). clear - R3 G5. split; [lia|]. intros E. lia.
    + unfold out_of_range. intros Hout. destruct (Z.eq_dec e 971) as [E|E].
      * assert (EP : P = p) by (unfold P; rewrite E; change (2 ^ Z.max (- (971)) 0) with 1; lia). assert (EQ : Q = q * 2 ^ 971) by (unfold Q; by rewrite E). specialize (Hn9 E).
        assert (Hh : (2^54 - 1) * Q <= 2 * P). { rewrite EP, EQ. change (2 ^ 971) with (2 * 2 ^ 970). change (2 ^ 1024) with (2 ^ 54 * 2 ^ 970) in Hout. set (z := 2 ^ 970) in *. lia. }
        destruct (HR (2^53)) as [R1 R2]. assert (n = 2^53 - 1). { assert (2^53 - 1 <= n); [|lia]. eapply (rounded_bounds P Q (2^53 - 1) (2^53)); lia. }
        rewrite H in *. rewrite (Z.abs_eq (P - (2 ^ 53 - 1) * Q)), (Z.abs_neq (P - 2^53 * Q)) in R1 by lia. rewrite (Z.abs_eq (P - (2 ^ 53 - 1) * Q)), (Z.abs_neq (P - 2^53 * Q)) in R2 by lia.
        specialize (R2 ltac:(lia) ltac:(lia)). done.
      * assert (X : 2 ^ Z.max e 0 <= 2 ^ 970) by (apply Z.pow_le_mono_r; lia). assert (Y : p <= P) by (unfold P; pose proof (pow_pos 2 (Z.max (- e) 0) ltac:(lia) ltac:(lia)); nia).
        assert (W : Q <= q * 2 ^ 970) by (unfold Q; nia). assert (V : 2 ^ 53 * 2 ^ 970 < 2 ^ 1024 - 2 ^ 970) by done. set (z := 2 ^ 970) in *. set (y := 2 ^ 1024) in *. nia.
Qed.

(** ** Texts *)
Lemma read_decimal_ok m k : 0 <= m ->
  match read_decimal m k with Some b => nearest (m * 10 ^ Z.max k 0) (10 ^ Z.max (- k) 0) b | None => out_of_range (m * 10 ^ Z.max k 0) (10 ^ Z.max (- k) 0) end.
Proof.
  intros Hm. unfold read_decimal. pose proof (pow_pos 10 (Z.max k 0) ltac:(lia) ltac:(lia)) as P1. pose proof (pow_pos 10 (Z.max (- k) 0) ltac:(lia) ltac:(lia)) as P2.
  destruct (Z.eqb_spec m 0) as [->|Hne].
  - split; [unfold magnitude, inf; lia|]. intros g Hg. unfold distance. rewrite Z.mul_0_l. change (units 0) with 0.
    split; [lia|]. done.
  - pose proof (nearest_ok (m * 10 ^ Z.max k 0) (10 ^ Z.max (- k) 0) ltac:(nia) P2) as H. destruct (nearest_float _ _) as [[n e]|]; cbn [mbind option_bind]; [by destruct H|done].
Qed.
Lemma read_in_range m k : 0 <= m -> read_decimal m k = None <-> out_of_range (m * 10 ^ Z.max k 0) (10 ^ Z.max (- k) 0).
Proof.
  intros Hm. pose proof (pow_pos 10 (Z.max k 0) ltac:(lia) ltac:(lia)) as P1. pose proof (pow_pos 10 (Z.max (- k) 0) ltac:(lia) ltac:(lia)) as P2. unfold read_decimal.
  destruct (Z.eqb_spec m 0) as [->|Hne].
  - split; [done|]. unfold out_of_range. rewrite Z.mul_0_l. intros H. assert (0 < 2 ^ 1024 - 2 ^ 970) by done. nia.
  - pose proof (nearest_ok (m * 10 ^ Z.max k 0) (10 ^ Z.max (- k) 0) ltac:(nia) P2) as H. destruct (nearest_float _ _) as [[n e]|]; cbn [mbind option_bind]; [|done].
    split; [done|]. by destruct H.
Qed.
