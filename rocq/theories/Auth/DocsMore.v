(** More about the documents: numbers, where what is read comes from, values of the wrong kind. *)
From Coq Require Import Ascii String.
From stdpp Require Import prelude gmap strings list.
From Verif.Base Require Import Str Url Dec.
From Verif.Marshaler Require Import Model.
From Verif.Json Require Import Text.
From Verif.Auth Require Import Model System Spec Local Docs SpecDocs DocsProofs.
Open Scope string_scope.
Open Scope list_scope.
Open Scope Z_scope.
#[local] Arguments String.append : simpl nomatch.

(** ** Numbers *)
Lemma span_digits_app s rest : starts_digit rest = false -> forall acc n, digits_from acc s = Some n ->
  span_digits acc (append s rest) = (n, rest).
Proof.
  intros Hr. induction s as [|c s IH]; intros acc n H; simpl in *.
  - injection H as <-. destruct rest as [|c r]; [done|]. simpl in *. by rewrite Hr.
  - destruct (is_digit c) eqn:Ed; [|done]. rewrite <- (IH (acc * 10 + digit_val c) n H). f_equal. unfold digit_val, is_digit in *.
    apply andb_prop in Ed as [E1 E2]. apply Nat.leb_le in E1, E2. lia.
Qed.
Lemma numeral_from s n : numeral s n -> digits_from 0 s = Some n.
Proof. intros H. apply numeral_digits in H. unfold digits in H. by destruct s. Qed.
Lemma append_nil_r s : append s "" = s.
Proof. induction s as [|c s IH]; simpl; [done|]. by rewrite IH. Qed.
Lemma append_assoc' a b c : append (append a b) c = append a (append b c).
Proof. induction a as [|x a IH]; simpl; [done|]. by rewrite IH. Qed.
Lemma append_length a b : String.length (append a b) = (String.length a + String.length b)%nat.
Proof. induction a as [|x a IH]; simpl; [done|]. by rewrite IH. Qed.
Lemma span_numeral s n rest : numeral s n -> starts_digit rest = false -> span_digits 0 (append s rest) = (n, rest).
Proof. intros H Hr. apply span_digits_app; [done|]. by apply numeral_from. Qed.
Lemma span_numeral' s n : numeral s n -> span_digits 0 s = (n, "").
Proof. intros H. rewrite <- (append_nil_r s) at 1. by apply span_numeral. Qed.
Lemma decimal_reads s n k rest : decimal_text s n k -> rest = "" \/ (exists e r, rest = String e r /\ (e = "e"%char \/ e = "E"%char)) ->
  decimal_of (append s rest) = (n, exponent_of rest - k).
Proof.
  intros H Hr. assert (Hd : starts_digit rest = false) by (destruct Hr as [->|(e & r & -> & [->| ->])]; done).
  destruct H as [s n H|s f n i x Hi Hx Hn]; unfold decimal_of.
  - rewrite (span_numeral _ _ _ H Hd). destruct Hr as [->|(e & r & -> & He)]; [done|].
    replace (ceqb e ".") with false by (destruct He as [->| ->]; done). f_equal. lia.
  - rewrite append_assoc'. change (append (String "." f) rest) with (String "." (append f rest)).
    rewrite (span_numeral s i); [|done|done]. replace (ceqb "." ".") with true by done.
    apply numeral_from in Hn. rewrite digits_from_app, (numeral_from _ _ Hi) in Hn. cbn [mbind option_bind] in Hn.
    rewrite (span_digits_app f rest Hd i n Hn). f_equal. rewrite append_length. lia.
Qed.
Lemma number_decimal t n k : stands_for t n k -> decimal_of t = (n, k).
Proof.
  intros [s n' k' H|s n' k' e x v H He Hx|s n' k' e x v H He Hx|s n' k' e x v H He Hx].
  - rewrite <- (append_nil_r s). rewrite (decimal_reads _ _ _ "" H); [done|by left].
  - rewrite (decimal_reads _ _ _ _ H); [|right; eauto]. f_equal. f_equal. cbn [exponent_of].
    destruct x as [|g x']; [by apply numeral_nonempty in Hx|]. pose proof (numeral_head _ _ _ Hx) as Hg.
    replace (ceqb g "-") with false by (symmetry; apply bool_decide_eq_false; intros ->; done).
    replace (ceqb g "+") with false by (symmetry; apply bool_decide_eq_false; intros ->; done).
    by rewrite (span_numeral' _ _ Hx).
  - rewrite (decimal_reads _ _ _ _ H); [|right; eauto]. f_equal. f_equal. cbn [exponent_of].
    replace (ceqb "+" "-") with false by done. replace (ceqb "+" "+") with true by done. by rewrite (span_numeral' _ _ Hx).
  - rewrite (decimal_reads _ _ _ _ H); [|right; eauto]. f_equal. f_equal. cbn [exponent_of].
    replace (ceqb "-" "-") with true by done. by rewrite (span_numeral' _ _ Hx).
Qed.
Lemma decimal_first s n k : decimal_text s n k -> exists c r, s = String c r /\ is_digit c = true /\ 0 <= n.
Proof.
  intros [s' n' H|s' f n' i x Hi Hx Hn].
  - destruct s' as [|c r]; [by apply numeral_nonempty in H|]. exists c, r. split; [done|]. split; [by eapply numeral_head|by eapply numeral_nonneg].
  - destruct s' as [|c r]; [by apply numeral_nonempty in Hi|]. exists c, (append r (String "." f)). split; [done|].
    split; [by eapply numeral_head|by eapply numeral_nonneg].
Qed.
Lemma number_first t n k : stands_for t n k -> exists c r, t = String c r /\ is_digit c = true /\ 0 <= n.
Proof.
  intros [s n' k' H|s n' k' e x v H He Hx|s n' k' e x v H He Hx|s n' k' e x v H He Hx];
    apply decimal_first in H as (c & r & -> & Hc & Hn); eauto.
  all: eexists c, _; split; [reflexivity|done].
Qed.
Lemma log2_pos_bounds p : 0 < p -> 2 ^ Z.log2 p <= p < 2 ^ (Z.log2 p + 1).
Proof. intros H. apply Z.log2_spec in H. by rewrite Z.add_1_r. Qed.
(** floor(log2(p/q)) *)
Lemma ilog_bounds p q l : 0 < p -> 0 < q ->
  l = (let l := Z.log2 p - Z.log2 q in if q * 2 ^ Z.max l 0 <=? p * 2 ^ Z.max (- l) 0 then l else l - 1) ->
  q * 2 ^ Z.max l 0 <= p * 2 ^ Z.max (- l) 0 /\ p * 2 ^ Z.max (- (l + 1)) 0 < q * 2 ^ Z.max (l + 1) 0.
Proof.
  intros Hp Hq. cbn zeta. set (l0 := Z.log2 p - Z.log2 q).
  pose proof (log2_pos_bounds p Hp) as [Hp1 Hp2]. pose proof (log2_pos_bounds q Hq) as [Hq1 Hq2].
  pose proof (Z.log2_nonneg p) as Lp. pose proof (Z.log2_nonneg q) as Lq.
  assert (Hup : p * 2 ^ Z.max (- (l0 + 1)) 0 < q * 2 ^ Z.max (l0 + 1) 0).
  { apply Z.lt_le_trans with (2 ^ (Z.log2 p + 1) * 2 ^ Z.max (- (l0 + 1)) 0).
    { apply Z.mul_lt_mono_pos_r; [apply Z.pow_pos_nonneg; lia|done]. }
    apply Z.le_trans with (2 ^ Z.log2 q * 2 ^ Z.max (l0 + 1) 0).
    2:{ apply Z.mul_le_mono_nonneg_r; [apply Z.pow_nonneg; lia|done]. }
    rewrite <- !Z.pow_add_r by lia. apply Z.pow_le_mono_r; lia. }
  assert (Hlow : q * 2 ^ Z.max (l0 - 1) 0 <= p * 2 ^ Z.max (- (l0 - 1)) 0).
  { apply Z.le_trans with (2 ^ (Z.log2 q + 1) * 2 ^ Z.max (l0 - 1) 0).
    { apply Z.mul_le_mono_nonneg_r; [apply Z.pow_nonneg; lia|lia]. }
    apply Z.le_trans with (2 ^ Z.log2 p * 2 ^ Z.max (- (l0 - 1)) 0).
    2:{ apply Z.mul_le_mono_nonneg_r; [apply Z.pow_nonneg; lia|done]. }
    rewrite <- !Z.pow_add_r by lia. apply Z.pow_le_mono_r; lia. }
  destruct (Z.leb_spec (q * 2 ^ Z.max l0 0) (p * 2 ^ Z.max (- l0) 0)) as [H|H]; intros ->; [done|].
  split; [done|]. replace (l0 - 1 + 1) with l0 by lia. done.
Qed.
Lemma nearest_small p q : 0 < p -> 0 < q -> p < 2 ^ 53 * q ->
  exists n e, nearest_float p q = Some (n, e) /\ e <= 0 /\ p * 2 ^ (- e) / q <= n /\ (n - 1) * q < p * 2 ^ (- e).
Proof.
  intros Hp Hq Hpq. unfold nearest_float. cbn zeta.
  set (l := if q * 2 ^ Z.max (Z.log2 p - Z.log2 q) 0 <=? p * 2 ^ Z.max (- (Z.log2 p - Z.log2 q)) 0 then Z.log2 p - Z.log2 q else Z.log2 p - Z.log2 q - 1).
  destruct (ilog_bounds p q l Hp Hq eq_refl) as [Hl1 Hl2]. clearbody l.
  assert (Hl : l <= 52).
  { destruct (Z.le_gt_cases l 52) as [|Hgt]; [done|]. exfalso.
    replace (Z.max (- l) 0) with 0 in Hl1 by lia. replace (Z.max l 0) with l in Hl1 by lia.
    assert (2 ^ 53 <= 2 ^ l) by (apply Z.pow_le_mono_r; lia). nia. }
  set (e := Z.max (l - 52) (-1074)). assert (He : e <= 0) by lia.
  replace (Z.max e 0) with 0 by lia. replace (Z.max (- e) 0) with (- e) by lia. rewrite Z.pow_0_r, !Z.mul_1_r.
  set (P := p * 2 ^ (- e)). assert (HK : 0 < 2 ^ (- e)) by (apply Z.pow_pos_nonneg; lia).
  assert (HP : 0 < P) by (unfold P; nia).
  pose proof (Z.div_mod P q ltac:(lia)) as Hdm. pose proof (Z.mod_pos_bound P q Hq) as Hm.
  set (d := P / q) in *. set (r := P mod q) in *.
  assert (HPu : P < q * 2 ^ 54).
  { assert (Hx : P * 2 ^ Z.max (- (l + 1)) 0 < q * 2 ^ Z.max (l + 1) 0 * 2 ^ (- e)).
    { unfold P. replace (p * 2 ^ (- e) * 2 ^ Z.max (- (l + 1)) 0) with (p * 2 ^ Z.max (- (l + 1)) 0 * 2 ^ (- e)) by ring.
      apply Z.mul_lt_mono_pos_r; done. }
    rewrite <- Z.mul_assoc, <- Z.pow_add_r in Hx by lia.
    assert (Hy : 2 ^ (Z.max (l + 1) 0 + - e) <= 2 ^ 54 * 2 ^ Z.max (- (l + 1)) 0).
    { rewrite <- Z.pow_add_r by lia. apply Z.pow_le_mono_r; lia. }
    assert (0 < 2 ^ Z.max (- (l + 1)) 0) by (apply Z.pow_pos_nonneg; lia). nia. }
  assert (Hd : d < 2 ^ 54) by nia.
  set (n := if (q <? 2 * r) || ((2 * r =? q) && Z.odd d) then d + 1 else d).
  assert (Hn : d <= n <= d + 1 /\ (n = d + 1 -> 0 < r)).
  { unfold n. destruct (_ || _) eqn:E; [|lia]. split; [lia|]. intros _.
    apply orb_prop in E as [E|E]; [apply Z.ltb_lt in E; lia|]. apply andb_prop in E as [E _]. apply Z.eqb_eq in E. lia. }
  clearbody n. destruct (Z.leb_spec (2 ^ 1024) n) as [H|H].
  { exfalso. assert (2 ^ 55 <= 2 ^ 1024) by (apply Z.pow_le_mono_r; lia). lia. }
  exists n, e. split; [done|]. split; [done|]. change (p * 2 ^ (- e)) with P. fold d. split; [lia|]. destruct Hn as [Hn1 Hn2].
  destruct (Z.eq_dec n (d + 1)) as [E|E].
  - specialize (Hn2 E). subst n. nia.
  - assert (n = d) as -> by lia. nia.
Qed.
Lemma seconds_close t n k : stands_for t n k -> n * 10 ^ Z.max k 0 < 2 ^ 53 * 10 ^ Z.max (- k) 0 ->
  exists z, seconds_of t = Some z /\ close_to z n k.
Proof.
  intros Ht Hb. destruct (number_first _ _ _ Ht) as (c & r & -> & Hc & Hn). unfold seconds_of.
  replace (ceqb c "-") with false by (symmetry; apply bool_decide_eq_false; intros ->; done).
  rewrite (number_decimal _ _ _ Ht).
  assert (H1 : 0 < 10 ^ Z.max k 0) by (apply Z.pow_pos_nonneg; lia).
  assert (H2 : 0 < 10 ^ Z.max (- k) 0) by (apply Z.pow_pos_nonneg; lia).
  unfold close_to. destruct (Z.eqb_spec n 0) as [->|Hn0]; [exists 0; split; [done|lia]|].
  set (p := n * 10 ^ Z.max k 0) in *. set (q := 10 ^ Z.max (- k) 0) in *. assert (Hp : 0 < p) by (unfold p; nia).
  destruct (nearest_small p q Hp H2 Hb) as (m & e & E & He & Hlow & Hup). rewrite E. cbn [mbind option_bind].
  exists (truncated false m e). split; [done|]. unfold truncated. cbn zeta.
  replace (Z.max e 0) with 0 by lia. replace (Z.max (- e) 0) with (- e) by lia. rewrite Z.pow_0_r, Z.mul_1_r.
  set (K := 2 ^ (- e)) in *. assert (HK : 0 < K) by (apply Z.pow_pos_nonneg; lia).
  pose proof (Z.div_mod m K ltac:(lia)) as Hdm. pose proof (Z.mod_pos_bound m K HK) as Hm.
  pose proof (Z.div_mod (p * K) q ltac:(lia)) as Hdm'. pose proof (Z.mod_pos_bound (p * K) q H2) as Hm'.
  set (z := m / K) in *. set (d := p * K / q) in *.
  assert (Hzl : (z - 1) * q < p).
  { apply (Z.mul_lt_mono_pos_r K); [done|]. assert (z * K <= m) by nia.
    destruct (Z.le_gt_cases z 0); [nia|]. nia. }
  assert (Hzu : p < (z + 1) * q).
  { apply (Z.mul_lt_mono_pos_r K); [done|]. assert (m + 1 <= (z + 1) * K) by nia. nia. }
  assert (Hz0 : 0 <= z) by (apply Z.div_pos; [|done]; assert (0 <= d) by (apply Z.div_pos; nia); lia).
  assert (Hz53 : z <= 2 ^ 53) by nia.
  unfold to_int64. replace ((- 2 ^ 63 <=? z) && (z <? 2 ^ 63)) with true; [done|].
  symmetry. apply andb_true_intro. rewrite Z.leb_le, Z.ltb_lt. lia.
Qed.
Lemma seconds_whole n k z : close_to z n k -> (exists w, n * 10 ^ Z.max k 0 = w * 10 ^ Z.max (- k) 0 /\ z = w) \/
  (forall w, n * 10 ^ Z.max k 0 <> w * 10 ^ Z.max (- k) 0).
Proof.
  intros [H1 H2]. assert (H : 0 < 10 ^ Z.max (- k) 0) by (apply Z.pow_pos_nonneg; lia).
  destruct (Z.eq_dec (n * 10 ^ Z.max k 0) (z * 10 ^ Z.max (- k) 0)) as [E|E]; [left; by exists z|].
  right. intros w Hw. apply E. rewrite Hw in *. assert (z - 1 < w < z + 1) by nia. f_equal. lia.
Qed.
Lemma seconds_exact t n : numeral t n -> n < 2 ^ 53 -> seconds_of t = Some n.
Proof.
  intros H Hn. destruct (seconds_close t n (- 0)) as (z & E & H1 & H2).
  { apply nt_plain. by apply dt_whole. }
  { change (Z.max (- 0) 0) with 0. change (Z.max (- - 0) 0) with 0. lia. }
  rewrite E. f_equal. change (Z.max (- 0) 0) with 0 in *. change (Z.max (- - 0) 0) with 0 in *. lia.
Qed.

(** ** The numbers that are read *)
From Verif.Json Require Import Spec TextProofs ValueProofs.
Lemma value_numeric n : (forall s j r, value n s = Some (j, r) -> numeric j) /\
  (forall s l r, elements n s = Some (l, r) -> Forall numeric l) /\
  (forall s l r, members n s = Some (l, r) -> Forall (fun kj => numeric kj.2) l).
Proof.
  induction n as [|n (IHv & IHe & IHm)]; [by split_and!|]. split_and!.
  - intros s j r H. cbn [value] in H. destruct (skip s) as [|c t]; [done|].
    destruct (ceqb c dquote). { destruct (read_string t) as [[x y]|]; cbn in H; [|done]. injection H as <- <-. constructor. }
    destruct (ceqb c "[").
    { destruct (skip t) as [|d t']; [done|]. destruct (ceqb d "]"); [injection H as <- <-; by repeat constructor|].
      destruct (elements n t) as [[l y]|] eqn:E; cbn in H; [|done]. injection H as <- <-. constructor. by eapply IHe. }
    destruct (ceqb c "{").
    { destruct (skip t) as [|d t']; [done|]. destruct (ceqb d "}"); [injection H as <- <-; by repeat constructor|].
      destruct (members n t) as [[l y]|] eqn:E; cbn in H; [|done]. injection H as <- <-. constructor. by eapply IHm. }
    destruct (number_char c).
    { destruct (span_number (String c t)) as [x y]. destruct (is_number x) eqn:E; [|done]. injection H as <- <-. constructor. by apply number_iff. }
    destruct (strip_prefix "null" _); [injection H as <- <-; constructor|].
    destruct (strip_prefix "true" _); [injection H as <- <-; constructor|].
    destruct (strip_prefix "false" _); [injection H as <- <-; constructor|done].
  - intros s l r H. cbn [elements] in H. destruct (value n s) as [[j t]|] eqn:E; cbn in H; [|done].
    destruct (skip t) as [|c t']; [done|]. destruct (ceqb c ",").
    + destruct (elements n t') as [[l' y]|] eqn:E'; cbn in H; [|done]. injection H as <- <-. constructor; [by eapply IHv|by eapply IHe].
    + destruct (ceqb c "]"); [|done]. injection H as <- <-. constructor; [by eapply IHv|constructor].
  - intros s l r H. cbn [members] in H. destruct (skip s) as [|q t]; [done|]. destruct (ceqb q dquote); [|done].
    destruct (read_string t) as [[k t1]|]; cbn in H; [|done]. destruct (skip t1) as [|c t2]; [done|]. destruct (ceqb c ":"); [|done].
    destruct (value n t2) as [[j t3]|] eqn:E; cbn in H; [|done]. destruct (skip t3) as [|c' t4]; [done|]. destruct (ceqb c' ",").
    + destruct (members n t4) as [[l' y]|] eqn:E'; cbn in H; [|done]. injection H as <- <-. constructor; [by eapply IHv|by eapply IHm].
    + destruct (ceqb c' "}"); [|done]. injection H as <- <-. constructor; [by eapply IHv|constructor].
Qed.
Lemma first_numeric s j : read_first s = Some j -> numeric j.
Proof.
  unfold read_first. destruct (value (enough s) s) as [[j' r]|] eqn:E; [|done]. intros [= <-]. by eapply (proj1 (value_numeric _)).
Qed.
Lemma run_numeral s : digit_run s -> exists n, numeral s n.
Proof.
  intros H. assert (E : exists n, digits s = Some n).
  { assert (D : forall acc, exists n, digits_from acc s = Some n).
    { induction H as [c Hc|c s Hc _ IH]; intros acc; cbn; rewrite (proj2 (digit_range c) Hc); [by eexists|apply IH]. }
    unfold digits. destruct s; [inversion H|apply D]. }
  destruct E as [n E]. exists n. by apply digits_numeral.
Qed.
Lemma run_app a b : digit_run a -> digit_run b -> digit_run (append a b).
Proof. induction 1 as [c Hc|c s Hc _ IH]; intros Hb; simpl; constructor; auto. Qed.
Lemma number_stands t : number_text t -> (exists n k, stands_for t n k) \/ (exists t' n k, t = String "-" t' /\ stands_for t' n k).
Proof.
  intros [sign w f e Hs Hw _ Hf He].
  assert (Hd : exists n k, decimal_text (append w f) n k).
  { destruct Hf as [|a Ha].
    - rewrite append_nil_r. destruct (run_numeral w Hw) as [n Hn]. exists n, 0. by constructor.
    - destruct (run_numeral w Hw) as [i Hi]. destruct (run_numeral a Ha) as [x Hx]. destruct (run_numeral _ (run_app _ _ Hw Ha)) as [n Hn].
      exists n, (Z.of_nat (String.length a)). change (append "." a) with (String "." a). by eapply dt_point. }
  assert (Hm : exists n k, stands_for (append w (append f e)) n k).
  { destruct Hd as (n & k & Hd). rewrite <- append_assoc'. destruct He as [|c sg s Hc Hg Hr].
    - rewrite append_nil_r. exists n, (- k). by apply nt_plain.
    - destruct (run_numeral s Hr) as [v Hv]. rewrite !elem_of_cons, elem_of_nil in Hc. rewrite !elem_of_cons, elem_of_nil in Hg.
      assert (E : exists c', c = String c' "" /\ (c' = "e"%char \/ c' = "E"%char)) by (destruct Hc as [->|[->|[]]]; eauto).
      destruct E as (c' & -> & Hc'). change (append (String c' "") (append sg s)) with (String c' (append sg s)).
      destruct Hg as [->|[->|[->|[]]]].
      + exists n, (v - k). by apply nt_exp.
      + exists n, (v - k). by apply nt_plus.
      + exists n, (- v - k). by apply nt_minus. }
  rewrite !elem_of_cons, elem_of_nil in Hs. destruct Hs as [->|[->|[]]]; [by left|right].
  destruct Hm as (n & k & Hm). by exists (append w (append f e)), n, k.
Qed.
(** a negative number is no later than the epoch *)
Lemma seconds_negative t z : seconds_of (String "-" t) = Some z -> (exists n k, stands_for t n k) -> z <= 0.
Proof.
  intros H (n & k & Hs). unfold seconds_of in H. replace (ceqb "-" "-") with true in H by done.
  rewrite (number_decimal _ _ _ Hs) in H. destruct (number_first _ _ _ Hs) as (_ & _ & _ & _ & Hn).
  destruct (Z.eqb_spec n 0) as [->|Hn0]; [injection H as <-; lia|].
  destruct (nearest_float _ _) as [[m e]|] eqn:E; cbn [mbind option_bind] in H; [|done]. injection H as <-.
  unfold truncated. cbn zeta. unfold nearest_float in E. cbn zeta in E.
  assert (Hm : 0 <= m).
  { assert (H1 : 0 < 10 ^ Z.max k 0) by (apply Z.pow_pos_nonneg; lia).
    assert (H2 : 0 < 10 ^ Z.max (- k) 0) by (apply Z.pow_pos_nonneg; lia).
    match type of E with (if ?b then _ else _) = _ => destruct b; [done|] end. injection E as <- <-.
    match goal with |- context [Z.max ?x (-1074)] => generalize (Z.max x (-1074)) end. intros e.
    assert (H3 : 0 < 2 ^ Z.max (- e) 0) by (apply Z.pow_pos_nonneg; lia).
    assert (H4 : 0 < 2 ^ Z.max e 0) by (apply Z.pow_pos_nonneg; lia).
    set (d := n * 10 ^ Z.max k 0 * 2 ^ Z.max (- e) 0 / (10 ^ Z.max (- k) 0 * 2 ^ Z.max e 0)).
    assert (0 <= d) by (apply Z.div_pos; [apply Z.mul_nonneg_nonneg; [apply Z.mul_nonneg_nonneg; lia|lia]|apply Z.mul_pos_pos; lia]).
    destruct (_ || _); lia. }
  assert (Ha : 0 <= m * 2 ^ Z.max e 0 / 2 ^ Z.max (- e) 0).
  { apply Z.div_pos; [|apply Z.pow_pos_nonneg; lia]. apply Z.mul_nonneg_nonneg; [done|apply Z.pow_nonneg; lia]. }
  set (a := m * 2 ^ Z.max e 0 / 2 ^ Z.max (- e) 0) in *. clearbody a. clear -Ha. unfold to_int64. destruct (_ && _); [lia|]. by vm_compute.
Qed.
