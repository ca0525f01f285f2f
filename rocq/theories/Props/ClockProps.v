(** The times and steps of queries as texts: C179. *)
From Coq Require Import Ascii String.
From stdpp Require Import prelude list.
From Verif.Base Require Import GoInt Str Dec.
From Verif.Prune Require Import Model.
From Verif.Times Require Import Model Spec Strict Texts SpecTexts Calendar TextsProofs Library.
Local Open Scope string_scope.
Local Open Scope Z_scope.
Local Arguments String.append !_ _ / : simpl nomatch.

(** ** C179 *)
(** strconv.ParseFloat takes nothing but numbers: digits, signs, points and exponents, or words without digits (inf, NaN). *)
Definition numbers_only (pf : string -> option f64) : Prop := forall s x, pf s = Some x ->
  (forall c, has_char c s = true -> is_digit c = true \/ c ∈ ["+"; "-"; "."; "e"; "E"]%char) \/
  (forall c, has_char c s = true -> is_digit c = false).

Lemma has_app c a b : has_char c (a ++ b) = has_char c a || has_char c b.
Proof. unfold has_char. induction a as [|x a IH]; [done|]. cbn. by rewrite IH, orb_assoc. Qed.
Lemma has_here c s : has_char c (String c s) = true.
Proof. unfold has_char. cbn. unfold ceqb. by rewrite bool_decide_eq_true_2. Qed.
Lemma has_there c d s : has_char c s = true -> has_char c (String d s) = true.
Proof. unfold has_char. cbn. intros ->. apply orb_true_r. Qed.
(** a text that begins with a digit and holds something that is in no number *)
Lemma no_number pf s d c : numbers_only pf -> has_char d s = true -> is_digit d = true ->
  has_char c s = true -> is_digit c = false -> c ∉ ["+"; "-"; "."; "e"; "E"]%char -> pf s = None.
Proof.
  intros Hp Hd Hdd Hc Hcd Hcc. destruct (pf s) as [x|] eqn:E; [|done]. exfalso. destruct (Hp _ _ E) as [H|H].
  - destruct (H c Hc) as [?|?]; [congruence|done].
  - specialize (H d Hd). congruence.
Qed.
Lemma moment_no_number pf h P s t : numbers_only pf -> moment h P s t -> pf s = None.
Proof.
  intros Hp H. inversion H as [Y M D hh mi se f z y mo d ho mn sc ns off n HY]; subst.
  apply four_iff in HY as (a & b & c & e & -> & Ha & _). apply (no_number pf _ a "T"); [done| |done| |done|set_solver].
  - cbn [String.append]. apply has_here.
  - rewrite !has_app. change (has_char "T" "T") with true. by rewrite ?orb_true_r.
Qed.

(** What RFC 3339 says a time is, is what the query is evaluated at: the date in the calendar, the time of day, the part of
    a second and the zone. *)
Theorem C179_time : forall pf s t, numbers_only pf -> rfc3339 s t -> parse_time (with_texts pf) s = Accepted (Some t).
Proof.
  intros pf s t Hp Ht. unfold parse_time. cbn [with_texts parse_float parse_rfc3339].
  rewrite (moment_no_number _ _ _ _ _ Hp Ht). apply strict_loose, text_iff in Ht. by rewrite Ht.
Qed.
Print Assumptions C179_time.
(** Every date of the calendar is a number of days before or after 1 January 1970, and only one. *)
Theorem C179_calendar : forall x, real x -> exists n, forall n', dated n' x <-> n' = n.
Proof. intros x Hx. exists (day_no x). intros n'. by apply dated_iff. Qed.
Print Assumptions C179_calendar.
(** Exactly which texts are taken for times, and what for. *)
Theorem C179_time_exact : forall s t, rfc3339_text s = Some t <-> loose3339 s t.
Proof. exact text_iff. Qed.
Print Assumptions C179_time_exact.
(** False: that every text that is taken for a time is one of RFC 3339.  The hour may have one digit, the zone may be off by 99
    hours, and may have a sign within. *)
Lemma chars2 s : String.length s = 2%nat -> exists a b, s = String a (String b "").
Proof. destruct s as [|a [|b [|c s]]]; try done. by exists a, b. Qed.
Lemma not_strict s t : rfc3339 s t -> exists a1 a2 a3 a4 b1 b2 c1 c2 d1 d2 e1 e2 g1 g2 f z off,
  s = String a1 (String a2 (String a3 (String a4 (String "-" (String b1 (String b2 (String "-" (String c1 (String c2 (String "T"
      (String d1 (String d2 (String ":" (String e1 (String e2 (String ":" (String g1 (String g2 (f ++ z)))))))))))))))))))  /\
  is_digit d2 = true /\ (exists ns, fraction f ns) /\ zone (fun s n => digits_of 2 s n /\ n < 60) z off.
Proof.
  intros H. inversion H as [Y M D hh mi se f z y mo d ho mn sc ns off n HY HM HD Hh Hmi Hse Hr Hn H24 Hm60 Hs60 Hf Hz]; subst.
  apply four_iff in HY as (a1 & a2 & a3 & a4 & -> & _). apply two_iff in HM as (b1 & b2 & -> & _). apply two_iff in HD as (c1 & c2 & -> & _).
  apply two_iff in Hh as (d1 & d2 & -> & _ & Hd2 & _). apply two_iff in Hmi as (e1 & e2 & -> & _). apply two_iff in Hse as (g1 & g2 & -> & _).
  exists a1, a2, a3, a4, b1, b2, c1, c2, d1, d2, e1, e2, g1, g2, f, z, off. split; [done|]. split; [done|]. split; [by eexists|done].
Qed.
Lemma not_zone f z ns off p q a b c d r : fraction f ns -> zone (fun s n => digits_of 2 s n /\ n < 60) z off ->
  f ++ z = String p (String a (String b (String q (String c (String d r))))) -> p = "+"%char ->
  is_digit a = true /\ is_digit b = true /\ is_digit c = true /\ is_digit d = true /\ digit_val a * 10 + digit_val b < 60.
Proof.
  intros Hf Hz E ->. destruct Hf as [|k g n Hg Hk]; [|done]. cbn in E.
  destruct Hz as [|x y h m [(x1 & x2 & -> & H1 & H2 & ->)%two_iff Hx] [(y1 & y2 & -> & H3 & H4 & ->)%two_iff Hy]|x y h m _ _]; [done| |done].
  cbn in E. injection E as -> -> _ -> -> _. done.
Qed.
Theorem C179_taken_refuted : forall pf s, numbers_only pf -> s ∈ ["2015-07-01T2:10:30Z"; "2015-07-01T20:10:30+99:99"; "2015-07-01T20:10:30+-5:30"] ->
  (exists t, parse_time (with_texts pf) s = Accepted (Some t)) /\ forall t, ~ rfc3339 s t.
Proof.
  intros pf s Hp Hs. split.
  - unfold parse_time. cbn [with_texts parse_float parse_rfc3339].
    rewrite (no_number pf s "2" "T"); [|done| |done| |done|set_solver].
    + repeat (apply elem_of_cons in Hs as [->|Hs]; [eexists; vm_compute; reflexivity|]). by apply elem_of_nil in Hs.
    + repeat (apply elem_of_cons in Hs as [->|Hs]; [reflexivity|]). by apply elem_of_nil in Hs.
    + repeat (apply elem_of_cons in Hs as [->|Hs]; [reflexivity|]). by apply elem_of_nil in Hs.
  - intros t H. apply not_strict in H as (a1 & a2 & a3 & a4 & b1 & b2 & c1 & c2 & d1 & d2 & e1 & e2 & g1 & g2 & f & z & off & E & Hd & [ns Hf] & Hz).
    apply elem_of_cons in Hs as [->|Hs]; [|apply elem_of_cons in Hs as [->|Hs]; [|apply elem_of_cons in Hs as [->|Hs]; [|by apply elem_of_nil in Hs]]].
    + injection E as <- <- <- <- <- <- <- <- <- <- E. done.
    + injection E as <- <- <- <- <- <- <- <- <- <- <- <- <- <- E. symmetry in E. apply (not_zone _ _ _ _ _ _ _ _ _ _ _ Hf Hz) in E; [|done].
      destruct E as (_ & _ & _ & _ & E). vm_compute in E. done.
    + injection E as <- <- <- <- <- <- <- <- <- <- <- <- <- <- E. symmetry in E. apply (not_zone _ _ _ _ _ _ _ _ _ _ _ Hf Hz) in E; [|done].
      by destruct E as (E & _).
Qed.
Print Assumptions C179_taken_refuted.
(** False: that every time of RFC 3339 is taken.  A leap second, small letters and ten digits after the point are refused. *)
Theorem C179_leap_refuted : forall pf s, numbers_only pf ->
  s ∈ ["1990-12-31T23:59:60Z"; "2015-07-01t20:10:30z"; "2015-07-01T20:10:30.0123456789Z"] -> parse_time (with_texts pf) s = Refused.
Proof.
  intros pf s Hp Hs. unfold parse_time. cbn [with_texts parse_float parse_rfc3339].
  rewrite (no_number pf s "1" ":"); [|done| |done| |done|set_solver].
  all: repeat (apply elem_of_cons in Hs as [->|Hs]; [vm_compute; reflexivity|]); by apply elem_of_nil in Hs.
Qed.
Print Assumptions C179_leap_refuted.

Lemma unit_letter u unit : (u, unit) ∈ prometheus_units -> exists c, has_char c u = true /\ is_digit c = false /\ c ∉ ["+"; "-"; "."; "e"; "E"]%char.
Proof.
  unfold prometheus_units. intros Hu.
  repeat (apply elem_of_cons in Hu as [E|Hu]; [injection E as -> _; match goal with |- context [has_char _ (String ?x _)] => exists x end;
    split; [reflexivity|split; [reflexivity|set_solver]]|]). by apply elem_of_nil in Hu.
Qed.
Lemma duration_no_number pf s n unit : numbers_only pf -> duration_of s n unit -> pf s = None.
Proof.
  intros Hp (d & u & Hn & Hu & ->). destruct d as [|x d]; [by apply numeral_nonempty in Hn|]. pose proof (numeral_head _ _ _ Hn) as Hx.
  destruct (unit_letter _ _ Hu) as (c & H1 & H2 & H3). cbn [String.append].
  apply (no_number pf _ x c); try done; [apply has_here|]. apply has_there. by rewrite has_app, H1, orb_true_r.
Qed.
(** A step that is a whole number of units is taken for that long, if and only if that fits 63 bits (292 years). *)
Lemma duration_step pf s n unit d : numbers_only pf -> duration_of s n unit -> duration_text s = Some d -> parse_step (with_texts pf) s = Accepted (Some d).
Proof.
  intros Hp Hd Ht. unfold parse_step. cbn [with_texts parse_float parse_duration]. by rewrite (duration_no_number _ _ _ _ Hp Hd), Ht.
Qed.
Theorem C179_step_partial : forall pf s n unit, numbers_only pf -> duration_of s n unit ->
  parse_step (with_texts pf) s = Accepted (Some (n * unit)) <-> n * unit < 2^63.
Proof.
  intros pf s n unit Hp Hd. pose proof Hd as (a & u & Hn & Hu & _). apply numeral_nonneg in Hn. destruct (units_form _ _ Hu) as (_ & k & _ & Hpos).
  split.
  - unfold parse_step. cbn [with_texts parse_float parse_duration]. rewrite (duration_no_number _ _ _ _ Hp Hd).
    destruct (duration_text s) as [d|] eqn:E; [|done]. intros H. injection H as ->. apply duration_iff in E as (n' & unit' & _ & H & _).
    unfold in64 in H. lia.
  - intros Hlt. eapply duration_step; [done|done|]. apply duration_iff. exists n, unit. split; [done|]. unfold in64. split; [nia|].
    rewrite Z.min_l by nia. exists 0. lia.
Qed.
Print Assumptions C179_step_partial.
(** Exactly which texts are taken for durations, and what for: what does not fit wraps round. *)
Theorem C179_step_exact : forall s d, duration_text s = Some d <->
  exists n unit, duration_of s n unit /\ in64 d /\ (2^64 | Z.min n (2^63 - 1) * unit - d).
Proof. exact duration_iff. Qed.
Print Assumptions C179_step_exact.
(** False: that a step which does not fit is refused.  Three hundred years are taken for a negative step, six hundred for
    fifteen years, and every number of milliseconds from 2^63 on for minus one. *)
Theorem C179_step_refuted : forall pf, numbers_only pf ->
  duration_of "300y" 300 (365 * 24 * 3600 * second) /\ (exists d, parse_step (with_texts pf) "300y" = Accepted (Some d) /\ d < 0) /\
  (exists d, parse_step (with_texts pf) "600y" = Accepted (Some d) /\ 0 < d < 16 * 365 * 24 * 3600 * second) /\
  forall s n, duration_of s n 1000000 -> 2^63 <= n -> parse_step (with_texts pf) s = Accepted (Some (-1000000)).
Proof.
  intros pf Hp.
  assert (Hy : forall s n, digits s = Some n -> duration_of (s ++ "y") n (365 * 24 * 3600 * second)).
  { intros s n H. exists s, "y". split; [by apply digits_numeral|]. split; [|done]. unfold prometheus_units. set_solver. }
  split; [by apply (Hy "300")|]. split; [|split].
  - eexists. split; [eapply duration_step; [done|by apply (Hy "300")|vm_compute; reflexivity]|]. lia.
  - eexists. split; [eapply duration_step; [done|by apply (Hy "600")|vm_compute; reflexivity]|]. unfold second. lia.
  - intros s n Hd Hn. eapply duration_step; [done|done|]. apply duration_iff. exists n, 1000000. split; [done|]. unfold in64. split; [lia|].
    rewrite Z.min_r by lia. exists 500000. lia.
Qed.
Print Assumptions C179_step_refuted.

(** The test's time: 1 July 2015, 20:10:30.781, six hours behind UTC; and a week *)
Lemma only_strict : numbers_only (parse_float strict).
Proof.
  assert (Hf : forall s acc k r, scan_frac acc k s = Some r -> forall c, has_char c s = true -> is_digit c = true).
  { induction s as [|x s IH]; intros acc k r H c Hc; [done|]. cbn in H. destruct (is_digit x) eqn:Ex; [|done].
    unfold has_char in Hc. cbn in Hc. apply orb_true_iff in Hc as [Hq%ceqb_iff|Hc]; [subst c; done|]. by eapply IH. }
  assert (Hi : forall s acc r, scan_int acc s = Some r -> forall c, has_char c s = true -> is_digit c = true \/ c = "."%char).
  { induction s as [|x s IH]; intros acc r H c Hc; [done|]. cbn in H. unfold has_char in Hc. cbn in Hc.
    destruct (is_digit x) eqn:Ex; [apply orb_true_iff in Hc as [Hq%ceqb_iff|Hc]; [subst c; by left|by eapply IH]|].
    destruct (Ascii.eqb_spec x ".") as [->|]; [|done]. apply orb_true_iff in Hc as [Hq%ceqb_iff|Hc]; [subst c; by right|]. left. by eapply Hf. }
  intros s x H. cbn [strict parse_float] in H. destruct (String.eqb_spec s "NaN") as [->|_].
  { right. intros c Hc. unfold has_char in Hc. cbn in Hc.
    repeat (apply orb_true_iff in Hc as [Hq%ceqb_iff|Hc]; [subst c; reflexivity|]). done. }
  left. intros c Hc. unfold strict_float in H. destruct (scan s) as [r|] eqn:E; [|done]. unfold scan in E. destruct s as [|y s]; [done|].
  assert (y = "-"%char \/ scan_int 0 (String y s) = Some r) as [->|Hs].
  { destruct y as [[] [] [] [] [] [] [] []]; by first [left; reflexivity|right]. }
  - unfold has_char in Hc. cbn in Hc. apply orb_true_iff in Hc as [Hq%ceqb_iff|Hc]; [subst c; right; set_solver|].
    destruct (scan_int 0 s) as [[n k]|] eqn:Es; [|done]. destruct (Hi _ _ _ Es c Hc) as [?| ->]; [by left|right; set_solver].
  - destruct (Hi _ _ _ Hs c Hc) as [?| ->]; [by left|right; set_solver].
Qed.
Example C179_case : numbers_only (parse_float strict) /\ rfc3339 "2015-07-01T20:10:30.781-06:00" 1435803030781000000 /\
  rfc3339 "1960-02-29T23:59:59Z" (-310435201000000000) /\ duration_of "1w" 1 (7 * 24 * 3600 * second).
Proof.
  assert (Hd : forall k s n, digits s = Some n -> String.length s = k -> digits_of k s n) by (intros; by apply digits_of_iff).
  split; [exact only_strict|]. split; [|split].
  - assert (Hr : real (2015, 7, 1)) by (apply real_iff; vm_compute; intuition discriminate).
    replace 1435803030781000000 with ((16617 * 86400 + 20 * 3600 + 10 * 60 + 30 - (- (6 * 3600 + 0 * 60))) * 1000000000 + 781 * 10 ^ (9 - Z.of_nat 3)) by reflexivity.
    apply (at_moment _ _ "2015" "07" "01" "20" "10" "30" ".781" "-06:00" 2015 7 1 20 10 30); try (by apply Hd); try done.
    + by apply dated_iff.
    + apply part; [by apply Hd|lia].
    + apply (west _ "06" "00" 6 0); (split; [by apply Hd|lia]).
  - assert (Hr : real (1960, 2, 29)) by (apply real_iff; vm_compute; intuition discriminate).
    replace (-310435201000000000) with (((-3594) * 86400 + 23 * 3600 + 59 * 60 + 59 - 0) * 1000000000 + 0) by reflexivity.
    apply (at_moment _ _ "1960" "02" "29" "23" "59" "59" "" "Z" 1960 2 29 23 59 59); try (by apply Hd); try done; try constructor.
    by apply dated_iff.
  - exists "1", "w". split; [by apply digits_numeral|]. split; [|done]. unfold prometheus_units. set_solver.
Qed.
