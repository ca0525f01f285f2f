(** What is written is read. *)
From Coq Require Import Ascii String.
From stdpp Require Import prelude strings.
From Verif.Base Require Import Envelope Str Dec.
From Verif.Auth Require Import Docs SpecDocs DocsMore.
From Verif.Json Require Import Text Spec ValueProofs Pb SpecPb PbProofs.
From Verif.Float Require Import Model Spec.
Open Scope string_scope.
Open Scope Z_scope.
#[local] Arguments String.append : simpl nomatch.

Lemma pow_pos a k : 0 < a -> 0 <= k -> 0 < a ^ k.
Proof. intros. by apply Z.pow_pos_nonneg. Qed.

(** ** Digits *)
Lemma log_fuel n : 0 <= n -> 0 <= n < 10 ^ (Z.of_nat (Z.to_nat (Z.log2 n)) + 1).
Proof.
  intros H. pose proof (Z.log2_nonneg n). rewrite Z2Nat.id by done. split; [done|]. destruct (Z.eq_dec n 0) as [->|]; [by cbn|].
  pose proof (log2_pos_bounds n ltac:(lia)) as [_ H2]. eapply Z.lt_le_trans; [exact H2|]. apply Z.pow_le_mono_l. lia.
Qed.
Lemma decimal_numeral n : 0 <= n -> numeral (decimal n) n.
Proof. intros H. destruct (format_digits_numeral _ n "" (log_fuel n H)) as (s & E & Hs). unfold decimal. rewrite E, append_nil_r. done. Qed.
Lemma decimal_run n : 0 <= n -> digit_run (decimal n) /\ (1 <= n -> forall x, decimal n <> String "0" x) /\ (n = 0 -> decimal n = "0").
Proof. intros H. destruct (format_run _ n "" (log_fuel n H)) as (s & E & Hs). unfold decimal. rewrite E, append_nil_r. done. Qed.
Lemma padded_app k : forall n rest, padded k n rest = append (padded k n "") rest.
Proof.
  induction k as [|k IH]; intros n rest; [done|]. cbn [padded]. rewrite IH, (IH _ (String _ "")), append_assoc'. done.
Qed.
Lemma padded_length k : forall n, String.length (padded k n "") = k.
Proof. induction k as [|k IH]; intros n; [done|]. cbn [padded]. rewrite padded_app, append_length, IH. cbn. lia. Qed.
Lemma numeral_padded k : forall s i n, numeral s i -> 0 <= n < 10 ^ Z.of_nat k -> numeral (append s (padded k n "")) (i * 10 ^ Z.of_nat k + n).
Proof.
  induction k as [|k IH]; intros s i n Hs Hn.
  { cbn [padded]. rewrite append_nil_r. change (10 ^ Z.of_nat 0) with 1 in *. by replace (i * 1 + n) with i by lia. }
  cbn [padded]. rewrite padded_app. rewrite <-append_assoc'. rewrite Nat2Z.inj_succ, Z.pow_succ_r in * by lia.
  pose proof (Z.div_mod n 10 ltac:(lia)) as Hd. pose proof (Z.mod_pos_bound n 10 ltac:(lia)) as Hm. destruct (digit_char_ok _ Hm) as [D1 D2].
  assert (Hq : 0 <= n / 10 < 10 ^ Z.of_nat k) by (split; [apply Z.div_pos; lia|apply Z.div_lt_upper_bound; lia]).
  pose proof (num_more _ _ _ (IH s i (n / 10) Hs Hq) D1) as H. rewrite D2 in H. replace (i * (10 * 10 ^ Z.of_nat k) + n) with (10 * (i * 10 ^ Z.of_nat k + n / 10) + n mod 10) by nia. exact H.
Qed.
Lemma padded_run k : forall n, (0 < k)%nat -> digit_run (padded k n "").
Proof.
  destruct k as [|k]; [lia|]. intros n _. revert n. induction k as [|k IH]; intros n.
  - cbn [padded]. constructor. apply digit_range, digit_char_ok, Z.mod_pos_bound. lia.
  - change (padded (S (S k)) n "") with (padded (S k) (n / 10) (String (digit_char (n mod 10)) "")). rewrite padded_app. apply run_snoc; [apply IH|].
    apply digit_range, digit_char_ok, Z.mod_pos_bound. lia.
Qed.
Lemma run_numeral' s : digit_run s -> exists n, numeral s n.
Proof. apply run_numeral. Qed.

(** ** Zeros at the end *)
Lemma trim_zeros_eq fuel : forall m k, exists j, 0 <= j /\ m = (trim_zeros fuel m k).1 * 10 ^ j /\ (trim_zeros fuel m k).2 = k - j.
Proof.
  induction fuel as [|fuel IH]; intros m k; [exists 0; cbn; lia|]. cbn [trim_zeros]. destruct (Z.eqb_spec (m mod 10) 0) as [E|E]; [|exists 0; cbn; lia].
  destruct (IH (m / 10) (k - 1)) as (j & H1 & H2 & H3). exists (j + 1). split; [lia|]. rewrite Z.pow_add_r by lia. split; [|lia].
  pose proof (Z.div_mod m 10 ltac:(lia)). nia.
Qed.
Lemma trimmed_eq m k : exists j, 0 <= j /\ m = (trimmed m k).1 * 10 ^ j /\ (trimmed m k).2 = k - j.
Proof. apply trim_zeros_eq. Qed.
Lemma trimmed_pos m k : 0 < m -> 0 < (trimmed m k).1.
Proof. intros H. destruct (trimmed_eq m k) as (j & H1 & H2 & _). pose proof (pow_pos 10 j ltac:(lia) H1). nia. Qed.
Lemma trimmed_nonneg m k : 0 <= m -> 0 <= (trimmed m k).1.
Proof. intros H. destruct (trimmed_eq m k) as (j & H1 & H2 & _). pose proof (pow_pos 10 j ltac:(lia) H1). nia. Qed.

(** ** A number that is a float64 is read as it *)
Lemma bits_split b : magnitude b -> 0 < b -> 0 < mantissa b < 2^53 /\ -1074 <= exponent b <= 971 /\ float_bits (mantissa b) (exponent b) = b /\
  (2^52 <= mantissa b \/ exponent b = -1074).
Proof.
  intros [H1 H2] H0. unfold mantissa, exponent, float_bits, inf in *. destruct (Z.ltb_spec b (2^52)) as [H|H]; [split; [lia|]; split; [lia|]; split; [lia|by right]|].
  pose proof (Z.mod_pos_bound b (2^52) ltac:(lia)) as Hm. pose proof (Z.div_mod b (2^52) ltac:(lia)) as Hd.
  assert (1 <= b / 2^52 < 2047) by (split; [apply Z.div_le_lower_bound; lia|apply Z.div_lt_upper_bound; lia]). split; [lia|]. split; [lia|]. split; [lia|left; lia].
Qed.
Lemma max_split a k : 0 < a -> a ^ Z.max k 0 = 1 \/ a ^ Z.max (- k) 0 = 1.
Proof. intros H. destruct (Z.le_gt_cases k 0); [left|right]; rewrite Z.max_r by lia; apply Z.pow_0_r. Qed.

(** exponents of either sign: x * 2^e *)
Lemma pow_cmp e d : 0 <= d -> 2 ^ Z.max (e + d) 0 * 2 ^ Z.max (- e) 0 = 2 ^ d * (2 ^ Z.max e 0 * 2 ^ Z.max (- (e + d)) 0).
Proof. intros H. rewrite <-!Z.pow_add_r by lia. f_equal. lia. Qed.
Lemma nearest_exact p q n e : 0 < p -> 0 < q -> 0 < n < 2^53 -> -1074 <= e <= 971 -> 2^52 <= n \/ e = -1074 ->
  p * 2 ^ Z.max (- e) 0 = n * 2 ^ Z.max e 0 * q -> nearest_float p q = Some (n, e).
Proof.
  intros Hp Hq Hn He Hd E. unfold nearest_float. cbn zeta.
  set (l := if q * 2 ^ Z.max (Z.log2 p - Z.log2 q) 0 <=? p * 2 ^ Z.max (- (Z.log2 p - Z.log2 q)) 0 then Z.log2 p - Z.log2 q else Z.log2 p - Z.log2 q - 1).
  destruct (ilog_bounds p q l Hp Hq eq_refl) as [Hl1 Hl2]. clearbody l.
  pose proof (pow_pos 2 (Z.max e 0) ltac:(lia) ltac:(lia)) as P1. pose proof (pow_pos 2 (Z.max (- e) 0) ltac:(lia) ltac:(lia)) as P2.
  (* 2^l <= n 2^e < 2^(l+1) *)
  assert (B1 : 2 ^ Z.max l 0 * 2 ^ Z.max (- e) 0 <= n * (2 ^ Z.max e 0 * 2 ^ Z.max (- l) 0)).
  { pose proof (pow_pos 2 (Z.max (- l) 0) ltac:(lia) ltac:(lia)). apply (Z.mul_le_mono_pos_l _ _ q Hq). nia. }
  assert (B2 : n * (2 ^ Z.max e 0 * 2 ^ Z.max (- (l + 1)) 0) < 2 ^ Z.max (l + 1) 0 * 2 ^ Z.max (- e) 0).
  { pose proof (pow_pos 2 (Z.max (- (l + 1)) 0) ltac:(lia) ltac:(lia)). apply (Z.mul_lt_mono_pos_l q _ _ Hq). nia. }
  assert (L1 : l <= e + 52).
  { destruct (Z.le_gt_cases l (e + 52)) as [|Hgt]; [done|]. exfalso. replace l with (e + (l - e)) in B1 by lia. rewrite pow_cmp in B1 by lia.
    replace (e + (l - e)) with l in B1 by lia. assert (2 ^ 53 <= 2 ^ (l - e)) by (apply Z.pow_le_mono_r; lia).
    pose proof (pow_pos 2 (Z.max (- l) 0) ltac:(lia) ltac:(lia)). nia. }
  assert (L2 : Z.max (l - 52) (-1074) = e).
  { destruct Hd as [Hd| ->]; [|lia]. assert (l = e + 52); [|lia]. destruct (Z.le_gt_cases (e + 52) l) as [|Hlt]; [lia|]. exfalso.
    assert (X : 2 ^ Z.max e 0 * 2 ^ Z.max (- (l + 1)) 0 * 2 ^ 52 >= 2 ^ Z.max (l + 1) 0 * 2 ^ Z.max (- e) 0).
    { rewrite <-!Z.pow_add_r by lia. apply Z.le_ge, Z.pow_le_mono_r; lia. }
    nia. }
  rewrite L2. replace (p * 2 ^ Z.max (- e) 0) with (n * (q * 2 ^ Z.max e 0)) by nia.
  rewrite Z.div_mul by nia. rewrite Z.mod_mul by nia.
  replace (q * 2 ^ Z.max e 0 <? 2 * 0) with false by (symmetry; apply Z.ltb_ge; nia).
  replace (2 * 0 =? q * 2 ^ Z.max e 0) with false by (symmetry; apply Z.eqb_neq; nia). cbn [orb andb].
  assert (n * 2 ^ Z.max e 0 < 2 ^ 1024).
  { change (2 ^ 1024) with (2 ^ 53 * 2 ^ 971). assert (2 ^ Z.max e 0 <= 2 ^ 971) by (apply Z.pow_le_mono_r; lia). nia. }
  destruct (Z.leb_spec (2 ^ 1024) (n * 2 ^ Z.max e 0)); [lia|done].
Qed.
Lemma read_exact b m k : magnitude b -> 0 < b -> 0 < m ->
  m * 10 ^ Z.max k 0 * 2 ^ Z.max (- exponent b) 0 = mantissa b * 2 ^ Z.max (exponent b) 0 * 10 ^ Z.max (- k) 0 -> read_decimal m k = Some b.
Proof.
  intros Hb H0 Hm E. destruct (bits_split b Hb H0) as (H1 & H2 & H3 & H4). unfold read_decimal. destruct (Z.eqb_spec m 0); [lia|].
  pose proof (pow_pos 10 (Z.max k 0) ltac:(lia) ltac:(lia)). pose proof (pow_pos 10 (Z.max (- k) 0) ltac:(lia) ltac:(lia)).
  rewrite (nearest_exact _ _ (mantissa b) (exponent b)) by (done || nia). cbn [mbind option_bind]. by rewrite H3.
Qed.

(** ** The digits chosen *)
Lemma first_reads b p q n fuel exact : 0 < b -> 0 <= p -> 0 < q -> reads_as b exact = true -> 0 < exact.1 ->
  reads_as b (first_enough b p q n fuel exact) = true /\ 0 < (first_enough b p q n fuel exact).1.
Proof.
  intros Hb Hp Hq He Hx. revert n. induction fuel as [|fuel IH]; intros n; [done|]. cbn [first_enough].
  assert (P : forall d, reads_as b d = true -> 0 <= d.1 -> 0 < d.1).
  { intros [m k] H Hd. cbn in *. apply bool_decide_eq_true in H. destruct (Z.eq_dec m 0) as [->|]; [|lia]. injection H as H. lia. }
  unfold with_digits. cbn zeta. set (k := n - 1 - log10 p q). set (lo := _ / _).
  assert (Hlo : 0 <= lo).
  { apply Z.div_pos; [|].
    - pose proof (pow_pos 10 (Z.max k 0) ltac:(lia) ltac:(lia)). nia. - pose proof (pow_pos 10 (Z.max (- k) 0) ltac:(lia) ltac:(lia)). nia. }
  destruct (reads_as b (trimmed lo k)) eqn:E1, (reads_as b (trimmed (lo + 1) k)) eqn:E2; [|..|by apply IH].
  - destruct (_ || _); (split; [done|]); apply P; try done; apply trimmed_nonneg; lia.
  - split; [done|]. apply P; [done|]. apply trimmed_nonneg; lia.
  - split; [done|]. apply P; [done|]. apply trimmed_nonneg; lia.
Qed.
Lemma pow_10 j : 0 <= j -> 10 ^ j = 2 ^ j * 5 ^ j.
Proof. intros H. by rewrite <-Z.pow_mul_l. Qed.
Lemma pow_diff a x y : 0 < a -> a ^ Z.max (x - y) 0 * a ^ Z.max (- x) 0 * a ^ Z.max y 0  = a ^ Z.max x 0 * a ^ Z.max (- (x - y)) 0 * a ^ Z.max (- y) 0.
Proof. intros H. rewrite <-!Z.pow_add_r by lia. f_equal. lia. Qed.
Lemma exact_reads b : magnitude b -> 0 < b ->
  let d := trimmed (mantissa b * 2 ^ Z.max (exponent b) 0 * 5 ^ Z.max (- exponent b) 0) (Z.max (- exponent b) 0) in reads_as b d = true /\ 0 < d.1.
Proof.
  intros Hb H0 d. destruct (bits_split b Hb H0) as (H1 & H2 & H3 & H4).
  set (m := mantissa b * 2 ^ Z.max (exponent b) 0 * 5 ^ Z.max (- exponent b) 0) in *. set (e := exponent b) in *. set (k := Z.max (- e) 0) in *.
  assert (Hk : 0 <= k) by lia.
  pose proof (pow_pos 2 (Z.max e 0) ltac:(lia) ltac:(lia)) as P1. pose proof (pow_pos 5 k ltac:(lia) Hk) as P2. assert (Hm : 0 < m) by (unfold m; nia).
  destruct (trimmed_eq m k) as (j & Hj & E1 & E2). fold d in E1, E2. assert (Hd : 0 < d.1) by (by apply trimmed_pos). split; [|done].
  apply bool_decide_eq_true. apply read_exact; [done|done|done|]. rewrite E2. fold e. change (Z.max (- e) 0) with k.
  assert (X : 10 ^ Z.max (- (k - j)) 0 * 10 ^ k = 10 ^ Z.max (- - (k - j)) 0 * 10 ^ j) by (rewrite <-!Z.pow_add_r by lia; f_equal; lia).
  apply (Z.mul_reg_r _ _ (10 ^ j)); [pose proof (pow_pos 10 j ltac:(lia) Hj); lia|].
  replace (d.1 * 10 ^ Z.max (- (k - j)) 0 * 2 ^ k * 10 ^ j) with (m * 2 ^ k * 10 ^ Z.max (- (k - j)) 0) by (rewrite E1; ring).
  unfold m. replace (mantissa b * 2 ^ Z.max e 0 * 5 ^ k * 2 ^ k * 10 ^ Z.max (- (k - j)) 0) with (mantissa b * 2 ^ Z.max e 0 * (10 ^ Z.max (- (k - j)) 0 * 10 ^ k)) by (rewrite (pow_10 k Hk); ring).
  rewrite X. ring.
Qed.
Lemma shortest_reads b : magnitude b -> 0 < b -> read_decimal (shortest b).1 (- (shortest b).2) = Some b /\ 0 < (shortest b).1.
Proof.
  intros Hb H0. destruct (bits_split b Hb H0) as (H1 & H2 & H3 & H4). destruct (exact_reads b Hb H0) as [X1 X2]. unfold shortest. cbn zeta.
  pose proof (pow_pos 2 (Z.max (exponent b) 0) ltac:(lia) ltac:(lia)) as P1. pose proof (pow_pos 2 (Z.max (- exponent b) 0) ltac:(lia) ltac:(lia)) as P2.
  destruct (first_reads b (mantissa b * 2 ^ Z.max (exponent b) 0) (2 ^ Z.max (- exponent b) 0) 1 17 _ H0 ltac:(nia) P2 X1 X2) as [Y1 Y2].
  split; [|exact Y2]. by apply bool_decide_eq_true in Y1.
Qed.

(** ** The text *)
Lemma write_f_stands m k : 0 < m -> exists m' k', stands_for (write_f m k) m' k' /\ read_decimal m' k' = read_decimal m (- k) /\
  m' * 10 ^ Z.max k' 0 * 10 ^ Z.max (- - k) 0 = m * 10 ^ Z.max (- k) 0 * 10 ^ Z.max (- k') 0.
Proof.
  intros Hm. unfold write_f. destruct (Z.leb_spec k 0) as [Hk|Hk].
  - pose proof (pow_pos 10 (- k) ltac:(lia) ltac:(lia)). exists (m * 10 ^ (- k)), (- 0). split; [constructor; constructor; apply decimal_numeral; nia|].
    split; [|change (Z.max (- 0) 0) with 0; change (Z.max (- - 0) 0) with 0; rewrite (Z.max_l (- k) 0), (Z.max_r (- - k) 0) by lia; by rewrite !Z.pow_0_r, !Z.mul_1_r].
    unfold read_decimal. destruct (Z.eqb_spec (m * 10 ^ - k) 0); [nia|]. destruct (Z.eqb_spec m 0); [lia|]. change (Z.max (- 0) 0) with 0. change (Z.max (- - 0) 0) with 0.
    rewrite (Z.max_l (- k) 0) by lia. rewrite (Z.max_r (- - k) 0) by lia. by rewrite Z.pow_0_r, Z.mul_1_r.
  - exists m, (- k). split; [|by split]. pose proof (pow_pos 10 k ltac:(lia) ltac:(lia)) as HP.
    assert (Hq : 0 <= m / 10 ^ k) by (apply Z.div_pos; lia). pose proof (Z.mod_pos_bound m (10 ^ k) HP) as Hr.
    set (w := decimal (m / 10 ^ k)). set (f := padded (Z.to_nat k) (m mod 10 ^ k) ""). assert (EK : Z.of_nat (String.length f) = k) by (unfold f; rewrite padded_length; lia).
    replace (- k) with (- Z.of_nat (String.length f)) by lia. constructor. pose proof (numeral_padded (Z.to_nat k) w (m / 10 ^ k) (m mod 10 ^ k) (decimal_numeral _ Hq)) as HN.
    rewrite Z2Nat.id in HN by lia. specialize (HN Hr). fold f in HN. replace (m / 10 ^ k * 10 ^ k + m mod 10 ^ k) with m in HN by (pose proof (Z.div_mod m (10 ^ k)); lia).
    destruct (run_numeral' f) as [x Hx]; [apply padded_run; lia|]. eapply dt_point; [by apply decimal_numeral|exact Hx|exact HN].
Qed.
Lemma write_e_stands m k : 0 < m -> stands_for (write_e m k) m (- k).
Proof.
  intros Hm. unfold write_e. pose proof (decimal_numeral m ltac:(lia)) as HN. destruct (decimal m) as [|c r] eqn:E; [by apply numeral_nonempty in HN|].
  set (x := Z.of_nat (String.length r) - k).
  assert (D : decimal_text (String c (match r with EmptyString => "" | _ => String "." r end)) m (Z.of_nat (String.length r))).
  { destruct r as [|c' r]; [by constructor|]. assert (Hc : numeral (String c "") (digit_val c)) by (constructor; by eapply numeral_head).
    assert (Hr : digit_run (String c' r)).
    { destruct (decimal_run m ltac:(lia)) as [R _]. rewrite E in R. inversion R; subst; done. }
    apply run_numeral' in Hr as [y Hy]. exact (dt_point (String c "") (String c' r) m _ y Hc Hy HN). }
  destruct (Z.ltb_spec x 0) as [Hx|Hx].
  - replace (- k) with (- (- x) - Z.of_nat (String.length r)) by lia. apply nt_minus; [exact D|by left|apply decimal_numeral; lia].
  - replace (- k) with (x - Z.of_nat (String.length r)) by lia. apply nt_plus; [exact D|by left|apply decimal_numeral; lia].
Qed.
Lemma write_f_number m k : 0 < m -> exists whole frac, write_f m k = append whole (append frac "") /\ digit_run whole /\ (forall s, whole = String "0" s -> s = "") /\ fraction_text frac.
Proof.
  intros Hm. unfold write_f. destruct (Z.leb_spec k 0) as [Hk|Hk].
  - pose proof (pow_pos 10 (- k) ltac:(lia) ltac:(lia)). destruct (decimal_run (m * 10 ^ - k) ltac:(nia)) as (R1 & R2 & _).
    exists (decimal (m * 10 ^ (- k))), "". cbn [append]. rewrite append_nil_r. split; [done|]. split; [done|]. split; [|constructor]. intros s Es. by destruct (R2 ltac:(nia) s).
  - pose proof (pow_pos 10 k ltac:(lia) ltac:(lia)) as HP. assert (Hq : 0 <= m / 10 ^ k) by (apply Z.div_pos; lia).
    destruct (decimal_run _ Hq) as (R1 & R2 & R3). exists (decimal (m / 10 ^ k)), (String "." (padded (Z.to_nat k) (m mod 10 ^ k) "")). rewrite append_nil_r.
    split; [done|]. split; [done|]. split; [|apply (frac_some (padded _ _ _)), padded_run; lia].
    intros s Es. destruct (Z.eq_dec (m / 10 ^ k) 0) as [Ez|]; [rewrite (R3 Ez) in Es; by injection Es as <-|by destruct (R2 ltac:(lia) s)].
Qed.
Lemma write_e_number m k : 0 < m -> exists whole frac exp, write_e m k = append whole (append frac exp) /\ digit_run whole /\ (forall s, whole = String "0" s -> s = "") /\ fraction_text frac /\ exponent_text exp.
Proof.
  intros Hm. unfold write_e. destruct (decimal_run m ltac:(lia)) as (R & _ & _). destruct (decimal m) as [|c r] eqn:E; [inversion R|]. set (x := Z.of_nat (String.length r) - k).
  assert (Hc : range 48 57 c) by (by inversion R).
  exists (String c ""), (match r with EmptyString => "" | _ => String "." r end), (String "e" (if x <? 0 then String "-" (decimal (- x)) else String "+" (decimal x))).
  split; [done|]. split; [by constructor|]. split; [by intros s [= _ <-]|]. split.
  { destruct r as [|c' r]; [constructor|]. apply (frac_some (String c' r)). inversion R; subst; done. }
  destruct (Z.ltb_spec x 0) as [Hx|Hx].
  - apply (exp_some "e" "-"); [by left|set_solver|]. apply decimal_run. lia.
  - apply (exp_some "e" "+"); [by left|set_solver|]. apply decimal_run. lia.
Qed.

Lemma write_unsigned_ok b : magnitude b -> (forall sign, sign ∈ [""; "-"] -> number_text (append sign (write_unsigned b))) /\
  exists m k, stands_for (write_unsigned b) m k /\ read_decimal m k = Some b /\
    (0 < b -> m * 10 ^ Z.max k 0 * 10 ^ Z.max (- - (shortest b).2) 0 = (shortest b).1 * 10 ^ Z.max (- (shortest b).2) 0 * 10 ^ Z.max (- k) 0).
Proof.
  intros Hb. unfold write_unsigned. destruct (Z.eqb_spec b 0) as [->|Hne].
  - split.
    + intros sign Hs. apply (number_intro sign "0" "" ""); [done|constructor; by apply digit_range|by intros s [= <-]|constructor|constructor].
    + exists 0, (- 0). split; [|split; [done|lia]]. constructor. constructor. by apply (num_one "0").
  - assert (H0 : 0 < b) by (destruct Hb; lia). destruct (shortest_reads b Hb H0) as [S1 S2]. unfold write_positive. destruct (shortest b) as [m k]. cbn [fst snd] in *.
    destruct (_ || _).
    + split; [|exists m, (- k); split; [by apply write_e_stands|by split]]. intros sign Hs. destruct (write_e_number m k S2) as (w & f & x & -> & W1 & W2 & W3 & W4). by constructor.
    + split.
      * intros sign Hs. destruct (write_f_number m k S2) as (w & f & -> & W1 & W2 & W3). constructor; try done. constructor.
      * destruct (write_f_stands m k S2) as (m' & k' & X1 & X2 & X3). exists m', k'. split; [done|]. split; [by rewrite X2|done].
Qed.
Lemma read_unsigned t m k : stands_for t m k -> read_go t = read_decimal m k.
Proof.
  intros H. pose proof (number_decimal _ _ _ H) as E. apply number_first in H as (c & r & -> & Hc & _). unfold read_go.
  replace (ceqb c "-") with false by (symmetry; apply bool_decide_eq_false; intros ->; done). by rewrite E.
Qed.
Lemma read_signed t m k : stands_for t m k -> read_go (String "-" t) = f ← read_decimal m k; Some (2^63 + f).
Proof. intros H. cbn [read_go]. replace (ceqb "-" "-") with true by done. by rewrite (number_decimal _ _ _ H). Qed.
Lemma go_exact : exact_floats go_floats.
Proof.
  intros f Hf Hn Hi Hmi. cbn [write_float read_float go_floats]. unfold write_go. unfold is_nan in Hn. apply Z.ltb_ge in Hn.
  destruct (Z.leb_spec (2^63) f) as [H|H].
  - assert (E : f mod 2^63 = f - 2^63) by (symmetry; apply (Z.mod_unique _ _ 1); lia). rewrite E in Hn.
    assert (Hb : magnitude (f - 2^63)) by (unfold magnitude, minus_inf in *; lia). destruct (write_unsigned_ok _ Hb) as (W1 & m & k & W2 & W3 & _).
    split; [apply (W1 "-"); set_solver|]. rewrite (read_signed _ _ _ W2), W3. cbn. f_equal. lia.
  - rewrite Z.mod_small in Hn by lia. assert (Hb : magnitude f) by (unfold magnitude in *; lia). destruct (write_unsigned_ok _ Hb) as (W1 & m & k & W2 & W3 & _).
    split; [apply (W1 ""); set_solver|]. by rewrite (read_unsigned _ _ _ W2).
Qed.
