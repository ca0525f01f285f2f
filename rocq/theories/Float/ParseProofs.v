(** The library of the marshaler, written out, does what is asked of it. *)
From Coq Require Import Ascii String.
From stdpp Require Import prelude strings.
From Verif.Base Require Import Envelope Str Dec.
From Verif.Auth Require Import Docs SpecDocs DocsMore.
From Verif.Marshaler Require Import Model.
From Verif.Marshaler Require Spec.
From Verif.Json Require Import Text Spec TextProofs ValueProofs Pb SpecPb PbProofs.
From Verif.Float Require Import Model Spec Proofs Nearest Short Parse.
Open Scope string_scope.
Open Scope Z_scope.
#[local] Arguments String.append : simpl nomatch.

(** ** Texts that are read *)
Lemma decimal_parses s n k rest : decimal_text s n k -> rest = "" \/ (exists e r, rest = String e r /\ (e = "e"%char \/ e = "E"%char)) ->
  go_decimal (append s rest) = x ← go_exponent rest; Some (n, x - k).
Proof.
  intros H Hr. assert (Hd : starts_digit rest = false) by (destruct Hr as [->|(e & r & -> & [->| ->])]; done).
  destruct H as [s n H|s f n i x Hi Hx Hn]; unfold go_decimal.
  - rewrite (span_numeral _ _ _ H Hd). destruct s as [|c s]; [by apply numeral_nonempty in H|]. destruct Hr as [->|(e & r & -> & He)].
    + cbn. repeat f_equal; lia.
    + replace (ceqb e ".") with false by (destruct He as [->| ->]; done). rewrite bool_decide_eq_false_2; [|rewrite append_length; cbn [String.length]; lia].
      destruct (go_exponent _); [|done]. cbn. do 2 f_equal. lia.
  - rewrite append_assoc'. change (append (String "." f) rest) with (String "." (append f rest)).
    rewrite (span_numeral s i); [|done|done]. replace (ceqb "." ".") with true by done.
    apply numeral_from in Hn. rewrite digits_from_app, (numeral_from _ _ Hi) in Hn. cbn [mbind option_bind] in Hn.
    rewrite (span_digits_app f rest Hd i n Hn). destruct s as [|c s]; [by apply numeral_nonempty in Hi|].
    rewrite bool_decide_eq_false_2; [|rewrite append_length; cbn [String.length]; rewrite append_length; lia].
    destruct (go_exponent _); [|done]. cbn. do 2 f_equal. rewrite append_length. lia.
Qed.
Lemma stands_parses t n k : stands_for t n k -> go_decimal t = Some (n, k).
Proof.
  intros [s n' k' H|s n' k' e x v H He Hx|s n' k' e x v H He Hx|s n' k' e x v H He Hx].
  - rewrite <- (append_nil_r s). rewrite (decimal_parses _ _ _ "" H); [done|by left].
  - rewrite (decimal_parses _ _ _ _ H); [|right; eauto]. cbn [go_exponent]. replace (ceqb e "e" || ceqb e "E") with true by (by destruct He as [->| ->]).
    destruct x as [|g x']; [by apply numeral_nonempty in Hx|]. pose proof (numeral_head _ _ _ Hx) as Hg.
    replace (ceqb g "-") with false by (symmetry; apply bool_decide_eq_false; intros ->; done).
    replace (ceqb g "+") with false by (symmetry; apply bool_decide_eq_false; intros ->; done). by rewrite (numeral_digits _ _ Hx).
  - rewrite (decimal_parses _ _ _ _ H); [|right; eauto]. cbn [go_exponent]. replace (ceqb e "e" || ceqb e "E") with true by (by destruct He as [->| ->]).
    replace (ceqb "+" "-") with false by done. replace (ceqb "+" "+") with true by done. by rewrite (numeral_digits _ _ Hx).
  - rewrite (decimal_parses _ _ _ _ H); [|right; eauto]. cbn [go_exponent]. replace (ceqb e "e" || ceqb e "E") with true by (by destruct He as [->| ->]).
    replace (ceqb "-" "-") with true by done. by rewrite (numeral_digits _ _ Hx).
Qed.
Lemma digit_lowered c r x : is_digit c = true -> lowered (String c r) = x -> exists c' r', x = String c' r' /\ is_digit c' = true.
Proof.
  intros Hd <-. cbn [lowered]. eexists _, _. split; [reflexivity|]. unfold is_digit in *. apply andb_prop in Hd as [E1 E2]. apply Nat.leb_le in E1, E2.
  destruct (Nat.leb_spec 65 (nat_of_ascii c)); [lia|]. cbn [andb]. apply andb_true_intro. split; by apply Nat.leb_le.
Qed.
Lemma stands_unsigned neg t n k : stands_for t n k -> parse_unsigned neg t = b ← read_decimal n k; finite_of neg b.
Proof.
  intros H. unfold parse_unsigned. rewrite (stands_parses _ _ _ H). apply number_first in H as (c & r & -> & Hc & _).
  rewrite !bool_decide_eq_false_2; [done| |]; intros E; apply digit_lowered in E as (c' & r' & [= <- _] & E); done.
Qed.
Lemma stands_signed neg t n k : stands_for t n k -> parse_go (signed neg t) = b ← read_decimal n k; finite_of neg b.
Proof.
  intros H. pose proof (stands_unsigned neg t n k H) as E. pose proof (number_first _ _ _ H) as (c & r & -> & Hc & _). destruct neg; cbn [signed parse_go].
  - replace (ceqb "-" "-") with true by done. exact E.
  - replace (ceqb c "-") with false by (symmetry; apply bool_decide_eq_false; intros ->; done).
    replace (ceqb c "+") with false by (symmetry; apply bool_decide_eq_false; intros ->; done).
    rewrite bool_decide_eq_false_2; [exact E|]. intros E'. apply digit_lowered in E' as (c' & r' & [= <- _] & E'); done.
Qed.
Lemma finite_sig neg (b : { b : Z | bool_decide (0 <= b < inf) }) : finite_of neg (proj1_sig b) = Some (Finite neg b).
Proof.
  destruct b as [b Hb]. unfold finite_of. cbn [proj1_sig]. destruct (decide _) as [H|H]; [|done]. do 2 f_equal. f_equal. apply proof_irrel.
Qed.
Lemma sig_magnitude (b : { b : Z | bool_decide (0 <= b < inf) }) : magnitude (proj1_sig b).
Proof. destruct b as [b Hb]. exact (bool_decide_unpack _ Hb). Qed.

(** ** The shortest text *)
Lemma short_stands b : magnitude b -> exists m k, stands_for (if b =? 0 then "0" else let '(m, k) := shortest b in write_f m k) m k /\ read_decimal m k = Some b.
Proof.
  intros Hb. destruct (Z.eqb_spec b 0) as [->|Hne].
  - exists 0, (- 0). split; [|done]. constructor. constructor. by apply (num_one "0").
  - assert (H0 : 0 < b) by (destruct Hb; lia). destruct (shortest_reads b Hb H0) as [S1 S2]. destruct (shortest b) as [m k]. cbn [fst snd] in *.
    destruct (write_f_stands m k S2) as (m' & k' & X1 & X2 & _). exists m', k'. split; [done|]. by rewrite X2.
Qed.
Lemma short_exact : Spec.exact_short go_marshal.
Proof.
  intros [|neg|neg b]; cbn [parse_float fmt_short go_marshal short_go].
  - by vm_compute.
  - by destruct neg; vm_compute.
  - destruct (short_stands _ (sig_magnitude b)) as (m & k & H1 & H2). rewrite (stands_signed neg _ _ _ H1), H2. apply finite_sig.
Qed.

(** ** Three decimals *)
Lemma write_f_point m k : 0 <= m -> 0 < k -> stands_for (write_f m k) m (- k).
Proof.
  intros Hm Hk. unfold write_f. destruct (Z.leb_spec k 0) as [|_]; [lia|]. pose proof (pow_pos 10 k ltac:(lia) ltac:(lia)) as HP.
  assert (Hq : 0 <= m / 10 ^ k) by (apply Z.div_pos; lia). pose proof (Z.mod_pos_bound m (10 ^ k) HP) as Hr.
  set (w := decimal (m / 10 ^ k)). set (f := padded (Z.to_nat k) (m mod 10 ^ k) ""). assert (EK : Z.of_nat (String.length f) = k) by (unfold f; rewrite padded_length; lia).
  replace (- k) with (- Z.of_nat (String.length f)) by lia. constructor. pose proof (numeral_padded (Z.to_nat k) w (m / 10 ^ k) (m mod 10 ^ k) (decimal_numeral _ Hq)) as HN.
  rewrite Z2Nat.id in HN by lia. specialize (HN Hr). fold f in HN. replace (m / 10 ^ k * 10 ^ k + m mod 10 ^ k) with m in HN by (pose proof (Z.div_mod m (10 ^ k)); lia).
  destruct (run_numeral' f) as [x Hx]; [apply padded_run; lia|]. eapply dt_point; [by apply decimal_numeral|exact Hx|exact HN].
Qed.
Lemma write_f_point_number neg m k : 0 <= m -> 0 < k -> number_text (signed neg (write_f m k)).
Proof.
  intros Hm Hk. replace (signed neg (write_f m k)) with (append (if neg then "-" else "") (write_f m k)) by (by destruct neg). unfold write_f. destruct (Z.leb_spec k 0) as [|_]; [lia|]. pose proof (pow_pos 10 k ltac:(lia) ltac:(lia)) as HP.
  assert (Hq : 0 <= m / 10 ^ k) by (apply Z.div_pos; lia). destruct (decimal_run _ Hq) as (R1 & R2 & R3).
  rewrite <-(append_nil_r (String "." _)). apply number_intro; [destruct neg; set_solver|done| |apply (frac_some (padded _ _ _)), padded_run; lia|constructor].
  intros s Es. destruct (Z.eq_dec (m / 10 ^ k) 0) as [Ez|]; [rewrite (R3 Ez) in Es; by injection Es as <-|by destruct (R2 ltac:(lia) s)].
Qed.
Lemma thousandths_rounded b : 0 <= b -> thousandths b = rounded (1000 * units b) (2 ^ 1074).
Proof. intros H. destruct (units_form b H) as (E & _). unfold thousandths. rewrite <-E. done. Qed.
Lemma rounded_half P Q : 0 < Q -> 2 * Z.abs (P - rounded P Q * Q) <= Q /\ (2 * Z.abs (P - rounded P Q * Q) = Q -> Z.even (rounded P Q) = true).
Proof.
  intros HQ. pose proof (rounded_spec P Q HQ) as H. set (n := rounded P Q) in *. destruct (H (n + 1)) as [A1 A2], (H (n - 1)) as [B1 B2].
  replace (P - (n + 1) * Q) with (P - n * Q - Q) in * by ring. replace (P - (n - 1) * Q) with (P - n * Q + Q) in * by ring. set (x := P - n * Q) in *. clearbody x. clear H.
  split; [lia|]. intros E. destruct (Z.le_gt_cases 0 x); [apply A2; lia|apply B2; lia].
Qed.
Lemma rounded_unique P Q n : 0 < Q -> 2 * Z.abs (P - n * Q) <= Q -> (2 * Z.abs (P - n * Q) = Q -> Z.even n = true) -> rounded P Q = n.
Proof.
  intros HQ H1 H2. destruct (rounded_half P Q HQ) as [A1 A2]. set (r := rounded P Q) in *. clearbody r. destruct (Z.eq_dec r n) as [|Hne]; [done|]. exfalso.
  assert (E : r = n + 1 \/ r = n - 1) by nia. destruct E as [-> | ->].
  - replace (P - (n + 1) * Q) with (P - n * Q - Q) in * by ring. set (x := P - n * Q) in *. clearbody x. specialize (H2 ltac:(lia)). specialize (A2 ltac:(lia)). rewrite Z.add_1_r, Z.even_succ, <-Z.negb_even, H2 in A2. done.
  - replace (P - (n - 1) * Q) with (P - n * Q + Q) in * by ring. set (x := P - n * Q) in *. clearbody x. specialize (H2 ltac:(lia)). specialize (A2 ltac:(lia)). rewrite Z.sub_1_r, Z.even_pred, <-Z.negb_even, H2 in A2. done.
Qed.
Lemma three_again b : magnitude b -> 0 <= thousandths b /\ exists c, read_decimal (thousandths b) (- 3) = Some c /\ magnitude c /\ thousandths c = thousandths b.
Proof.
  intros Mb. assert (H0 : 0 <= b) by (destruct Mb; lia). rewrite (thousandths_rounded b H0). set (n := rounded (1000 * units b) (2 ^ 1074)).
  assert (HK : 0 < 2 ^ 1074) by done. destruct (rounded_half (1000 * units b) (2 ^ 1074) HK) as [R1 R2]. fold n in R1, R2.
  assert (U0 : 0 <= units b). { destruct (units_form b H0) as (-> & ? & ?). pose proof (pow_pos 2 (exponent b + 1074) ltac:(lia) ltac:(lia)). nia. }
  assert (Hn : 0 <= n). { set (K := 2 ^ 1074) in *. clearbody K. clearbody n. nia. } split; [done|].
  pose proof (read_decimal_ok n (- 3) Hn) as HR. pose proof (read_in_range n (- 3) Hn) as HI. change (10 ^ Z.max (- 3) 0) with 1 in *. change (10 ^ Z.max (- - 3) 0) with 1000 in *. rewrite Z.mul_1_r in *.
  destruct (read_decimal n (- 3)) as [c|].
  - exists c. split; [done|]. destruct HR as [Mc HN]. split; [done|]. destruct (HN b Mb) as [HD _]. assert (Hc : 0 <= c) by (destruct Mc; lia). rewrite (thousandths_rounded c Hc).
    apply rounded_unique; [done| |]; unfold distance in HD; set (K := 2 ^ 1074) in *; clearbody K; clearbody n; [lia|]. intros E. apply R2. lia.
  - exfalso. unfold out_of_range in HR. pose proof (units_top b Mb) as UT. assert (HZ : 0 < 2 ^ 970) by done. change (2 ^ 971) with (2 * 2 ^ 970) in UT. set (K := 2 ^ 1074) in *. set (W := 2 ^ 1024) in *. set (z := 2 ^ 970) in *. clearbody K W z n. nia.
Qed.
Lemma three_stable : Spec.stable3 go_marshal.
Proof.
  intros [|neg|neg b] Hf; try done. cbn [parse_float fmt3 go_marshal three_go]. destruct (three_again _ (sig_magnitude b)) as (Hn & c & Hr & Mc & Ec).
  rewrite (stands_signed neg _ _ _ (write_f_point _ 3 Hn ltac:(lia))). change (Z.opp 3) with (-3). rewrite Hr. cbn [mbind option_bind]. unfold finite_of. destruct (decide _) as [H|H].
  - eexists. split; [done|]. cbn [three_go proj1_sig]. by rewrite Ec.
  - destruct H. by apply bool_decide_pack.
Qed.
Lemma write_f_number_signed neg m k : 0 < m -> number_text (signed neg (write_f m k)).
Proof.
  intros Hm. replace (signed neg (write_f m k)) with (append (if neg then "-" else "") (write_f m k)) by (by destruct neg). destruct (write_f_number m k Hm) as (w & f & -> & W1 & W2 & W3). constructor; try done; [destruct neg; set_solver|constructor].
Qed.
Lemma marshal_go_lib : go_lib go_marshal.
Proof.
  split; [done|]. split.
  - intros [|neg|neg b] Hf; try done. cbn [fmt3 go_marshal three_go]. apply write_f_point_number; [apply three_again, sig_magnitude|lia].
  - intros [|neg|neg b]; cbn [fmt_short go_marshal short_go]; [by apply utf8_iff|destruct neg; by apply utf8_iff|].
    destruct (Z.eqb_spec (proj1_sig b) 0) as [E|E]; [destruct neg; by apply utf8_iff|]. pose proof (sig_magnitude b) as Mb.
    destruct (shortest_reads _ Mb ltac:(destruct Mb; lia)) as [_ S2]. destruct (shortest (proj1_sig b)) as [m k]. apply number_utf8, write_f_number_signed. done.
Qed.
