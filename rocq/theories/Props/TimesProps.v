(** C98-C100: times and steps of PromQL queries.  Vocabulary: Times/Spec.v. *)
From Coq Require Import Ascii String ZArith Reals Lra Lia.
From Flocq Require Import Core BinarySingleNaN.
From Verif.Base Require Import Dec.
From Verif.Prune Require Import Model Proofs.
From Verif.Times Require Import Model Spec Proofs Strict.
Open Scope Z_scope.

(** * C98: the time of a point in an answer, a number of milliseconds, is written
      exactly, with three decimals.  (Times that int64 nanoseconds can express
      are below 10^13 milliseconds.) *)
Theorem C98_exact : forall ms, Z.abs ms <= 4 * 10 ^ 15 -> decimal (format_promql_time ms) ms 3.
Proof. exact promql_time_exact. Qed.
Print Assumptions C98_exact.
Example C98_case : Z.abs (-1500000000123) <= 4 * 10 ^ 15 /\ decimal "-1500000000.123" (-1500000000123) 3.
Proof.
  split; [lia|]. change (-1500000000123) with (- (1500000000123)). apply dec_minus. apply (dec_point "1500000000" "123" 1500000000 123); apply digits_numeral; reflexivity.
Qed.

(** * C99: a query is evaluated at the instant the client asked for *)
(** False: a whole number of milliseconds reaches the engine as the millisecond
    before it, however the text is read, as long as it is read correctly. *)
Theorem C99_millisecond_refuted : exists ms, 0 <= ms <= 9 * 10 ^ 12 /\ forall L, reads_decimals L ->
  exists t, parse_time L (format_decimal_time (ms * 1000000)) = Accepted (Some t) /\ from_time t = ms - 1.
Proof. exact client_drifts. Qed.
Print Assumptions C99_millisecond_refuted.
(** Every time within about 285 years of 1970 reaches the server within 0.505
    milliseconds (the text has three decimals)... *)
Theorem C99_close_partial : forall L ns, reads_decimals L -> Z.abs ns <= 9 * 10 ^ 18 ->
  exists t, parse_time L (format_decimal_time ns) = Accepted (Some t) /\ Z.abs (t - ns) <= 505000.
Proof. exact client_time_close. Qed.
Print Assumptions C99_close_partial.
(** ...a whole number of milliseconds within 2100 nanoseconds, so that the engine
    takes that millisecond or the one before... *)
Theorem C99_millis_partial : forall L ms, reads_decimals L -> Z.abs ms <= 9 * 10 ^ 12 ->
  exists t, parse_time L (format_decimal_time (ms * 1000000)) = Accepted (Some t) /\
    Z.abs (t - ms * 1000000) <= 2100 /\ ms - 1 <= from_time t <= ms.
Proof. exact client_millis_close. Qed.
Print Assumptions C99_millis_partial.
(** ...and a whole number of seconds exactly, from 1834 to 2106. *)
Theorem C99_seconds_partial : forall L sec, reads_decimals L -> Z.abs sec < 2 ^ 32 ->
  parse_time L (format_decimal_time (sec * 1000000000)) = Accepted (Some (sec * 1000000000)).
Proof. exact client_seconds_exact. Qed.
Print Assumptions C99_seconds_partial.
Example C99_case : reads_decimals strict /\
  parse_time strict "1500000000.123" = Accepted (Some 1500000000122999808) /\
  parse_time strict "1500000000.000" = Accepted (Some 1500000000000000000).
Proof. split; [exact strict_reads|]. split; vm_compute; reflexivity. Qed.

(** * C100: numbers given as times and steps mean what they say or are refused *)
(** False: a time too large for nanoseconds, and the step NaN, are accepted and
    the conversion to an integer is left open by the language. *)
Lemma open_conversion : forall L, reads_decimals L -> parse_float L "NaN" = Some B754_nan ->
  parse_time L "9300000000" = Accepted None /\ parse_step L "9300000000" = Refused /\
  parse_time L "NaN" = Accepted None /\ parse_step L "NaN" = Accepted None.
Proof.
  intros L HL HN.
  assert (Hd : decimal "9300000000" 9300000000 0) by (apply dec_plain, dec_whole, digits_numeral; reflexivity).
  destruct (HL _ _ _ Hd ltac:(lia) ltac:(lia)) as (x & Ex & Hx).
  change (10 ^ 0) with 1 in Hx. apply (nearest_div x 9300000000 1) in Hx; [|lia|lia].
  unfold parse_time, parse_step. rewrite Ex, HN, Hx. repeat split; vm_compute; reflexivity.
Qed.
Theorem C100_open_refuted : forall L, reads_decimals L -> parse_float L "NaN" = Some B754_nan ->
  parse_time L "9300000000" = Accepted None /\ parse_step L "9300000000" = Refused /\
  parse_time L "NaN" = Accepted None /\ parse_step L "NaN" = Accepted None.
Proof. exact open_conversion. Qed.
Print Assumptions C100_open_refuted.
(** False: steps of zero and less are accepted. *)
Lemma any_sign : forall L, reads_decimals L ->
  parse_step L "0" = Accepted (Some 0) /\ exists d, parse_step L "-5" = Accepted (Some d) /\ d < 0.
Proof.
  intros L HL.
  assert (H0 : decimal "0" 0 0) by (apply dec_plain, dec_whole, digits_numeral; reflexivity).
  assert (H5 : decimal "-5" (- (5)) 0) by (apply dec_minus, dec_whole, digits_numeral; reflexivity).
  destruct (time_close L _ _ _ HL H0 ltac:(lia) ltac:(lia)) as (t0 & _ & E0 & C0).
  { change (IZR (10 ^ 0)) with 1%R. rewrite Rabs_pos_eq; lra. }
  destruct (time_close L _ _ _ HL H5 ltac:(lia) ltac:(lia)) as (t5 & _ & E5 & C5).
  { change (IZR (10 ^ 0)) with 1%R. rewrite opp_IZR. rewrite Rabs_left1; lra. }
  split.
  - destruct (HL _ _ _ H0 ltac:(lia) ltac:(lia)) as (x & Ex & [F E]).
    change (IZR (10 ^ 0)) with 1%R in E. replace (0 / 1)%R with 0%R in E by lra. rewrite rnd_flt, rnd_int in E by lia.
    rewrite E0. do 2 f_equal.
    unfold parse_step in E0. rewrite Ex in E0. cbv zeta in E0.
    destruct (fmul_1e9 x F) as [F2 E2]; [rewrite E, Rabs_R0; lra|].
    rewrite E, Rmult_0_l in E2. change 0%R with (IZR 0) in E2 at 1. rewrite rnd_int in E2 by lia.
    assert (T : to_int (fmul x (of_int 1000000000)) = Some 0).
    { rewrite to_int_trunc; [rewrite E2, Ztrunc_IZR; reflexivity|exact F2|rewrite E2, Rabs_R0; lra]. }
    rewrite T in E0. destruct (orb _ _); [discriminate|]. congruence.
  - exists t5. split; [exact E5|]. apply lt_IZR. change (IZR (10 ^ 0)) with 1%R in C5. rewrite opp_IZR in C5.
    apply Rabs_le_inv in C5. lra.
Qed.
Theorem C100_step_refuted : forall L, reads_decimals L ->
  parse_step L "0" = Accepted (Some 0) /\ exists d, parse_step L "-5" = Accepted (Some d) /\ d < 0.
Proof. exact any_sign. Qed.
Print Assumptions C100_step_refuted.
(** A decimal number of seconds up to 9 * 10^9, with at most 15 digits after the
    point and a value of at most 2^53 without it, is accepted as a time and as a
    step, and taken for that many seconds within 2100 nanoseconds. *)
Theorem C100_decimal_partial : forall L s n k, reads_decimals L -> decimal s n k -> Z.abs n <= 2 ^ 53 -> k <= 15 ->
  (Rabs (IZR n / IZR (10 ^ k)) <= 9000000000)%R ->
  exists t, parse_time L s = Accepted (Some t) /\ parse_step L s = Accepted (Some t) /\
    (Rabs (IZR t - IZR n / IZR (10 ^ k) * 1000000000) <= 2100)%R.
Proof. exact time_close. Qed.
Print Assumptions C100_decimal_partial.
(** A text that no parser takes is refused. *)
Theorem C100_refused : forall L s, parse_float L s = None ->
  (parse_rfc3339 L s = None -> parse_time L s = Refused) /\ (parse_duration L s = None -> parse_step L s = Refused).
Proof. intros L s H. unfold parse_time, parse_step. rewrite H. split; intros ->; reflexivity. Qed.
Print Assumptions C100_refused.
Example C100_case : decimal "1435781430.781" 1435781430781 3 /\
  (Rabs (IZR 1435781430781 / IZR (10 ^ 3)) <= 9000000000)%R /\
  reads_decimals strict /\ parse_float strict "NaN" = Some B754_nan /\ parse_time strict "yesterday" = Refused.
Proof.
  split; [apply dec_plain, (dec_point "1435781430" "781" 1435781430 781); apply digits_numeral; reflexivity|].
  split; [change (IZR (10 ^ 3)) with 1000%R; rewrite Rabs_pos_eq; lra|].
  split; [exact strict_reads|]. split; reflexivity.
Qed.
