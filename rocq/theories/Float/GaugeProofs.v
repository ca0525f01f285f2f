(** The texts that are read as the value of a gauge, and as what. *)
From Coq Require Import Ascii String.
From stdpp Require Import prelude strings.
From Verif.Base Require Import Envelope Str Dec.
From Verif.Auth Require Import Docs SpecDocs DocsMore.
From Verif.Marshaler Require Import Model.
From Verif.Json Require Import Text Spec Pb.
From Verif.Float Require Import Model Spec Proofs Nearest Short Parse ParseProofs SpecDigits Gauge.
Open Scope string_scope.
Open Scope Z_scope.
#[local] Arguments String.append : simpl nomatch.

(** ** Words *)
Lemma lowered_case s : any_case (lowered s) s.
Proof.
  induction s as [|c s IH]; [constructor|]. cbn [lowered]. destruct (Nat.leb_spec 65 (nat_of_ascii c)), (Nat.leb_spec (nat_of_ascii c) 90); cbn [andb]; try (by apply case_small).
  assert (E : nat_of_ascii (ascii_of_nat (nat_of_ascii c + 32)) = (nat_of_ascii c + 32)%nat) by (apply nat_ascii_embedding; lia). apply case_capital; [rewrite E; lia|done|done].
Qed.
Lemma case_lowered w s : any_case w s -> Forall (fun c => (97 <= nat_of_ascii c <= 122)%nat) (list_ascii_of_string w) -> lowered s = w.
Proof.
  induction 1 as [|c w s H IH|c c' w s H1 H2 H IH]; intros F; [done|..]; cbn [list_ascii_of_string] in F; inversion_clear F as [|? ? F1 F2]; cbn [lowered]; rewrite (IH F2); f_equal.
  - destruct (Nat.leb_spec (nat_of_ascii c) 90); [lia|]. by rewrite andb_false_r.
  - destruct (Nat.leb_spec 65 (nat_of_ascii c')), (Nat.leb_spec (nat_of_ascii c') 90); try lia. cbn [andb]. rewrite <-H2. apply ascii_nat_embedding.
Qed.
Lemma word_lowered w s : w ∈ ["inf"; "infinity"; "nan"] -> any_case w s <-> lowered s = w.
Proof.
  intros Hw. split; [|intros <-; apply lowered_case]. intros Hc. apply (case_lowered w s Hc).
  repeat (apply elem_of_cons in Hw as [->|Hw]; [cbn [list_ascii_of_string]; repeat (apply Forall_cons; split; [split; apply Nat.leb_le; by vm_compute|]); by apply Forall_nil|]). by apply elem_of_nil in Hw.
Qed.

(** ** Decimals *)
Lemma span_split s : forall acc m r, span_digits acc s = (m, r) -> exists d, s = append d r /\ digits_from acc d = Some m /\ starts_digit r = false.
Proof.
  induction s as [|c s IH]; intros acc m r H; cbn in H; [injection H as <- <-; by exists ""|]. destruct (is_digit c) eqn:Ec.
  - destruct (IH _ _ _ H) as (d & -> & Hd & Hr). exists (String c d). split; [done|]. split; [|done]. cbn [digits_from]. rewrite Ec. rewrite <-Hd. f_equal.
    unfold digit_val, is_digit in *. apply andb_prop in Ec as [E1 E2]. apply Nat.leb_le in E1, E2. lia.
  - injection H as <- <-. exists "". split; [done|]. split; [done|]. done.
Qed.
Lemma digits_some s n : s <> "" -> digits_from 0 s = Some n -> numeral s n.
Proof. intros Hs H. apply digits_numeral. unfold Dec.digits. by destruct s. Qed.
Lemma exponent_iff e x : go_exponent e = Some x <-> go_exponent_text e x.
Proof.
  split.
  - destruct e as [|c r]; cbn [go_exponent]; [intros [= <-]; constructor|]. destruct (ceqb c "e" || ceqb c "E") eqn:Ec; [|done].
    assert (Hc : String c "" ∈ ["e"; "E"]) by (apply orb_prop in Ec as [Ec|Ec]; apply bool_decide_eq_true in Ec as ->; set_solver).
    destruct r as [|g r']; [done|]. destruct (ceqb g "-") eqn:Em; [|destruct (ceqb g "+") eqn:Ep].
    + apply bool_decide_eq_true in Em as ->. destruct (Dec.digits r') as [v|] eqn:Ev; [|done]. intros [= <-]. apply (ge_minus (String c "") r' v); [done|by apply digits_numeral].
    + apply bool_decide_eq_true in Ep as ->. intros Ev. apply (ge_some (String c "") "+" r' x); [done|set_solver|by apply digits_numeral].
    + intros Ev. apply (ge_some (String c "") "" (String g r') x); [done|set_solver|by apply digits_numeral].
  - intros [|c sign s v Hc Hs Hn|c s v Hc Hn]; [done|..].
    + assert (Eq : go_exponent (append c (append sign s)) = match append sign s with String g r' => if ceqb g "-" then Z.opp <$> Dec.digits r' else if ceqb g "+" then Dec.digits r' else Dec.digits (append sign s) | EmptyString => None end).
      { apply elem_of_cons in Hc as [->|Hc]; [done|]. apply elem_of_list_singleton in Hc as ->. done. }
      rewrite Eq. apply elem_of_cons in Hs as [->|Hs]; [|apply elem_of_list_singleton in Hs as ->; cbn; by apply numeral_digits].
      cbn [append]. destruct s as [|g s]; [by apply numeral_nonempty in Hn|]. pose proof (numeral_head _ _ _ Hn) as Hg.
      replace (ceqb g "-") with false by (symmetry; apply bool_decide_eq_false; intros ->; done).
      replace (ceqb g "+") with false by (symmetry; apply bool_decide_eq_false; intros ->; done). by apply numeral_digits.
    + apply elem_of_cons in Hc as [->|Hc]; [|apply elem_of_list_singleton in Hc as ->]; cbn; by rewrite (numeral_digits _ _ Hn).
Qed.
Lemma exponent_start e x : go_exponent_text e x -> starts_digit e = false /\ (e = "" \/ exists c r, e = String c r /\ c <> "."%char).
Proof.
  intros [|c sign s v Hc Hs Hn|c s v Hc Hn]; [by split; [|left]|..]; (apply elem_of_cons in Hc as [->|Hc]; [|apply elem_of_list_singleton in Hc as ->]); (split; [done|right; eexists _, _; split; [reflexivity|done]]).
Qed.
Lemma decimal_iff s n k : go_decimal s = Some (n, k) <-> go_number s n k.
Proof.
  split.
  - unfold go_decimal. destruct (span_digits 0 s) as [m r] eqn:Es. apply span_split in Es as (d & -> & Hd & Hr). destruct r as [|c r'].
    + rewrite DocsMore.append_nil_r. destruct d as [|c d]; [done|]. intros [= <- <-]. rewrite <-(DocsMore.append_nil_r (String c d)). apply gn_whole; [by apply digits_some|constructor].
    + destruct (ceqb c ".") eqn:Ec.
      * apply bool_decide_eq_true in Ec as ->. destruct (span_digits m r') as [m' r''] eqn:Es'. apply span_split in Es' as (f & -> & Hf & Hr'').
        case_bool_decide as Hl; [done|]. destruct (go_exponent r'') as [x|] eqn:Ex; [|done]. intros [= <- <-]. apply exponent_iff in Ex.
        replace (String.length (append f r'') - String.length r'')%nat with (String.length f) by (rewrite append_length; lia).
        apply (gn_point d f r'' m' x); [|done]. apply digits_some; [|rewrite digits_from_app, Hd; exact Hf].
        intros E. apply Hl. destruct d; [|done]. destruct f; [|done]. done.
      * case_bool_decide as Hl; [done|]. destruct (go_exponent (String c r')) as [x|] eqn:Ex; [|done]. intros [= <- <-]. apply exponent_iff in Ex.
        apply gn_whole; [|done]. apply digits_some; [|done]. intros ->. by apply Hl.
  - intros [i e n' x Hi He|i f e n' x Hi He].
    + destruct (exponent_start _ _ He) as [Hs Hc]. apply exponent_iff in He. unfold go_decimal. rewrite (span_numeral _ _ _ Hi Hs). destruct i as [|a i]; [by apply numeral_nonempty in Hi|].
      destruct Hc as [->|(c & r & -> & Hc)]; [by injection He as <-|]. replace (ceqb c ".") with false by (symmetry; by apply bool_decide_eq_false).
      rewrite bool_decide_eq_false_2; [by rewrite He|]. rewrite append_length. cbn [String.length]. lia.
    + destruct (exponent_start _ _ He) as [Hs _]. apply exponent_iff in He. pose proof (numeral_nonempty _ _ Hi) as Hne. apply numeral_from in Hi. rewrite digits_from_app in Hi. destruct (digits_from 0 i) as [a|] eqn:Ea; [|done]. cbn in Hi.
      unfold go_decimal. change (append "." (append f e)) with (String "." (append f e)). rewrite (span_digits_app i (String "." (append f e)) eq_refl 0 a Ea). replace (ceqb "." ".") with true by done.
      rewrite (span_digits_app f e Hs a n' Hi). rewrite bool_decide_eq_false_2.
      * rewrite He. cbn. do 2 f_equal. rewrite append_length. lia.
      * rewrite append_length. cbn [String.length]. rewrite append_length. destruct i; [|cbn [String.length]; lia]. destruct f; [done|cbn [String.length]; lia].
Qed.
Lemma number_start t n k : go_number t n k -> exists c r, t = String c r /\ (is_digit c = true \/ c = "."%char) /\ 0 <= n.
Proof.
  intros [i e n' x Hi He|i f e n' x Hi He]; (assert (Hn : 0 <= n') by (clear - Hi; induction Hi as [c H|s n c _ IH H]; unfold digit_val, is_digit in *; apply andb_prop in H as [H _]; apply Nat.leb_le in H; lia)).
  - destruct i as [|c i]; [by apply numeral_nonempty in Hi|]. exists c, (append i e). split; [done|]. split; [left; by apply numeral_head in Hi|done].
  - destruct i as [|c i]; [exists "."%char, (append f e); split; [done|]; split; [by right|done]|]. eexists c, _. split; [reflexivity|]. split; [left; by apply numeral_head in Hi|done].
Qed.

(** ** Texts *)
Lemma unsigned_iff neg t f : parse_unsigned neg t = Some f <->
  ((exists w, w ∈ ["inf"; "infinity"] /\ any_case w t) /\ f = Infinite neg) \/
  (exists n k b, go_number t n k /\ nearest (n * 10 ^ Z.max k 0) (10 ^ Z.max (- k) 0) (proj1_sig b) /\ ~ out_of_range (n * 10 ^ Z.max k 0) (10 ^ Z.max (- k) 0) /\ f = Finite neg b).
Proof.
  assert (W : (exists w, w ∈ ["inf"; "infinity"] /\ any_case w t) <-> bool_decide (lowered t = "inf") || bool_decide (lowered t = "infinity") = true).
  { split.
    - intros (w & Hw & Hc). apply orb_true_iff. apply elem_of_cons in Hw as [->|Hw]; [left|apply elem_of_list_singleton in Hw as ->; right]; apply bool_decide_eq_true_2; apply word_lowered; (done || set_solver).
    - intros H. apply orb_true_iff in H as [H|H]; apply bool_decide_eq_true_1 in H; [exists "inf"|exists "infinity"]; (split; [set_solver|]); apply word_lowered; (done || set_solver). }
  unfold parse_unsigned. destruct (bool_decide (lowered t = "inf") || bool_decide (lowered t = "infinity")) eqn:E.
  - split.
    + intros [= <-]. left. split; [by apply W|done].
    + intros [[_ ->]|(n & k & b & Hg & _)]; [done|]. exfalso. apply number_start in Hg as (c & r & -> & Hc & _). apply orb_true_iff in E as [E|E]; apply bool_decide_eq_true_1 in E;
        (destruct Hc as [Hc|Hc]; [apply digit_lowered in E as (c' & r' & [= <- _] & E); done|subst c; discriminate E]).
  - split.
    + destruct (go_decimal t) as [[n k]|] eqn:Eg; [|done]. apply decimal_iff in Eg. cbn [mbind option_bind]. destruct (number_start _ _ _ Eg) as (_ & _ & _ & _ & Hn).
      destruct (read_decimal n k) as [b|] eqn:Er; [|done]. cbn [mbind option_bind]. unfold finite_of. destruct (decide _) as [Hb|]; [|done]. intros [= <-]. right. apply (read_iff _ _ _ Hn) in Er as [R1 R2].
      exists n, k, (exist _ b Hb). done.
    + intros [[H _]|(n & k & b & Hg & R1 & R2 & ->)]; [apply W in H; congruence|]. destruct (number_start _ _ _ Hg) as (_ & _ & _ & _ & Hn). rewrite (proj2 (decimal_iff _ _ _) Hg). cbn [mbind option_bind].
      rewrite (proj2 (read_iff n k (proj1_sig b) Hn)) by (split; done). apply finite_sig.
Qed.
Lemma word_start w t c r : w ∈ ["inf"; "infinity"; "nan"] -> any_case w t -> t = String c r -> c <> "-"%char /\ c <> "+"%char.
Proof.
  intros Hw Hc ->. apply (word_lowered w _ Hw) in Hc. split; intros ->; cbn in Hc; subst w; repeat (apply elem_of_cons in Hw as [Hw|Hw]; [discriminate Hw|]); by apply elem_of_nil in Hw.
Qed.
Lemma nearest_magnitude p q b : nearest p q b -> bool_decide (0 <= b < inf).
Proof. intros [H _]. by apply bool_decide_pack. Qed.
Lemma nan_bits : bits_of NotANumber = nan.
Proof. by vm_compute. Qed.
Lemma go_value_iff s v : gauge_float s = Some v <-> go_value s v.
Proof.
  assert (S1 : ("", false) ∈ [("", false); ("+", false); ("-", true)]) by set_solver. assert (S2 : ("+", false) ∈ [("", false); ("+", false); ("-", true)]) by set_solver. assert (S3 : ("-", true) ∈ [("", false); ("+", false); ("-", true)]) by set_solver.
  assert (U : forall sign neg t f, (sign, neg) ∈ [("", false); ("+", false); ("-", true)] -> parse_unsigned neg t = Some f -> go_value (append sign t) (bits_of f)).
  { intros sign neg t f Hs H. apply unsigned_iff in H as [[(w & Hw & Hc) ->]|(n & k & b & Hg & R1 & R2 & ->)]; [by eapply (gv_infinite sign neg w)|by eapply (gv_number sign neg t n k)]. }
  split.
  - unfold gauge_float. destruct (parse_go s) as [f|] eqn:E; [|done]. intros [= <-]. destruct s as [|c r]; [done|]. cbn [parse_go] in E. destruct (ceqb c "-") eqn:Em; [|destruct (ceqb c "+") eqn:Ep].
    + apply bool_decide_eq_true in Em as ->. by apply (U "-" true).
    + apply bool_decide_eq_true in Ep as ->. by apply (U "+" false).
    + case_bool_decide as En; [|by apply (U "" false)]. injection E as <-. match goal with |- go_value _ ?x => replace x with nan by (by vm_compute) end. apply gv_nan. apply word_lowered; [set_solver|done].
  - intros H. assert (P : forall sign neg t f, (sign, neg) ∈ [("", false); ("+", false); ("-", true)] -> parse_unsigned neg t = Some f -> parse_go (append sign t) = Some f).
    { intros sign neg t f Hs Hu. pose proof Hu as Hu'. apply unsigned_iff in Hu'. apply elem_of_cons in Hs as [[= -> ->]|Hs]; [|apply elem_of_cons in Hs as [[= -> ->]|Hs]; [done|apply elem_of_list_singleton in Hs as [= -> ->]; done]].
      change (append "" t) with t. destruct t as [|c r]; [done|]. cbn [parse_go].
      assert (Hc : c <> "-"%char /\ c <> "+"%char /\ lowered (String c r) <> "nan").
      { destruct Hu' as [[(w & Hw & Hc) _]|(n & k & b & Hg & _)].
        - assert (Hw' : w ∈ ["inf"; "infinity"; "nan"]) by set_solver. destruct (word_start w _ c r Hw' Hc eq_refl) as [? ?]. split; [done|]. split; [done|]. apply (word_lowered w _ Hw') in Hc. rewrite Hc. intros ->. set_solver.
        - apply number_start in Hg as (c' & r' & [= <- <-] & Hc & _). split; [intros ->; by destruct Hc|]. split; [intros ->; by destruct Hc|]. intros E. destruct Hc as [Hc|Hc]; [apply digit_lowered in E as (? & ? & [= <- _] & E); done|subst c; discriminate E]. }
      destruct Hc as (H1 & H2 & H3). replace (ceqb c "-") with false by (symmetry; by apply bool_decide_eq_false). replace (ceqb c "+") with false by (symmetry; by apply bool_decide_eq_false). by rewrite bool_decide_eq_false_2. }
    unfold gauge_float. destruct H as [sign neg t n k b Hs Hg R1 R2|sign neg w t Hs Hw Hc|t Hc].
    + rewrite (P sign neg t (Finite neg (exist _ b (nearest_magnitude _ _ _ R1))) Hs); [done|]. apply unsigned_iff. right. by exists n, k, (exist _ b (nearest_magnitude _ _ _ R1)).
    + rewrite (P sign neg t (Infinite neg) Hs); [done|]. apply unsigned_iff. left. split; [by exists w|done].
    + assert (Hw : "nan" ∈ ["inf"; "infinity"; "nan"]) by set_solver. destruct t as [|c r]; [by apply (word_lowered "nan" _ Hw) in Hc|]. destruct (word_start _ _ c r Hw Hc eq_refl) as [H1 H2].
      cbn [parse_go]. replace (ceqb c "-") with false by (symmetry; by apply bool_decide_eq_false). replace (ceqb c "+") with false by (symmetry; by apply bool_decide_eq_false).
      rewrite bool_decide_eq_true_2 by (by apply word_lowered). by vm_compute.
Qed.
