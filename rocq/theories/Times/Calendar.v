(** The days of the calendar. *)
From Coq Require Import Ascii String.
From stdpp Require Import prelude list.
From Verif.Base Require Import GoInt Str Dec.
From Verif.Times Require Import Texts SpecTexts.
Local Open Scope Z_scope.

Definition shift : Z := (absolute_zero_year - 1) / 400 * 146097 - (1969 * 365 + 1969 / 4 - 1969 / 100 + 1969 / 400).
Definition day_no (x : date) : Z := let '(y, m, d) := x in abs_days y m d + shift.
Lemma abs_to_unix_shift : abs_to_unix = shift * 86400.
Proof. reflexivity. Qed.

Lemma leap_iff y : is_leap y = true <-> leap y.
Proof.
  unfold is_leap, leap. rewrite andb_true_iff, orb_true_iff, negb_true_iff, Z.eqb_neq, !Z.eqb_eq.
  rewrite !Z.mod_divide by lia. done.
Qed.
Lemma leap_shift y a : is_leap (y + 400 * a) = is_leap y.
Proof.
  unfold is_leap. replace (y + 400 * a) with (y + (100 * a) * 4) at 1 by ring. rewrite Z.mod_add by lia.
  replace (y + 400 * a) with (y + (4 * a) * 100) at 1 by ring. rewrite Z.mod_add by lia.
  replace (y + 400 * a) with (y + a * 400) by ring. by rewrite Z.mod_add by lia.
Qed.
Lemma length_iff y m n : month_length y m n <-> 1 <= m <= 12 /\ n = days_in m y.
Proof.
  assert (H : 1 <= m <= 12 -> month_length y m (days_in m y)).
  { intros Hm. assert (m = 1 \/ m = 2 \/ m = 3 \/ m = 4 \/ m = 5 \/ m = 6 \/ m = 7 \/ m = 8 \/ m = 9 \/ m = 10 \/ m = 11 \/ m = 12) as Hc by lia.
    unfold days_in. destruct (is_leap y) eqn:E; [apply leap_iff in E|rewrite <-not_true_iff_false, leap_iff in E];
    repeat destruct Hc as [->|Hc]; try subst m; cbn; by first [apply long; set_solver|apply short; set_solver|apply february|apply leap_february]. }
  split; [|intros [Hm ->]; by apply H].
  intros Hl. inversion Hl as [m' Hm|m' Hm|Hn|Hn]; subst.
  - repeat (apply elem_of_cons in Hm as [->|Hm]; [split; [lia|]; unfold days_in; reflexivity|]). by apply elem_of_nil in Hm.
  - repeat (apply elem_of_cons in Hm as [->|Hm]; [split; [lia|]; unfold days_in; reflexivity|]). by apply elem_of_nil in Hm.
  - split; [lia|]. unfold days_in. destruct (is_leap y) eqn:E; [by apply leap_iff in E|done].
  - split; [lia|]. unfold days_in. apply leap_iff in Hn. by rewrite Hn.
Qed.
Lemma real_iff y m d : real (y, m, d) <-> 1 <= m <= 12 /\ 1 <= d <= days_in m y.
Proof.
  unfold real. split.
  - intros (n & Hl & Hd). apply length_iff in Hl as [? ->]. done.
  - intros [Hm Hd]. exists (days_in m y). rewrite length_iff. done.
Qed.

(** the days before a year *)
Definition before_year (y0 : Z) : Z :=
  146097 * (y0 / 400) + 36524 * (y0 mod 400 / 100) + 1461 * (y0 mod 400 mod 100 / 4) + 365 * (y0 mod 400 mod 100 mod 4).
Lemma abs_days_year y m d : abs_days y m d =
  before_year (y - absolute_zero_year) + days_before (m - 1) + (if is_leap y && (3 <=? m) then 1 else 0) + (d - 1).
Proof.
  unfold abs_days, before_year. set (y0 := y - absolute_zero_year).
  assert (E1 : y0 - 400 * (y0 / 400) = y0 mod 400) by (rewrite Z.mod_eq; lia).
  cbv zeta. rewrite E1. set (a := y0 mod 400).
  assert (E2 : a - 100 * (a / 100) = a mod 100) by (rewrite Z.mod_eq; lia). rewrite E2. set (b := a mod 100).
  assert (E3 : b - 4 * (b / 4) = b mod 4) by (rewrite Z.mod_eq; lia). rewrite E3.
  destruct (is_leap y && (3 <=? m)); lia.
Qed.
Lemma year_table : forallb (fun b => let b := Z.of_nat b in
  before_year (b + 1) =? before_year b + 365 + (if is_leap (b + 1) then 1 else 0)) (seq 0 400) = true.
Proof. vm_compute. reflexivity. Qed.
Lemma before_shift a b : before_year (b + 400 * a) = before_year b + 146097 * a.
Proof.
  unfold before_year. replace (b + 400 * a) with (b + a * 400) by ring. rewrite Z.div_add, Z.mod_add by lia. lia.
Qed.
Lemma zero_year_form : exists k, absolute_zero_year = 1 - 400 * k.
Proof. exists 730692556. reflexivity. Qed.
Lemma year_step y : before_year (y + 1 - absolute_zero_year) = before_year (y - absolute_zero_year) + 365 + (if is_leap y then 1 else 0).
Proof.
  destruct zero_year_form as [k E]. pose proof (Z.div_mod (y - absolute_zero_year) 400 ltac:(lia)) as Hd.
  pose proof (Z.mod_pos_bound (y - absolute_zero_year) 400 ltac:(lia)) as Hb.
  set (a := (y - absolute_zero_year) / 400) in *. set (b := (y - absolute_zero_year) mod 400) in *.
  replace (y + 1 - absolute_zero_year) with ((b + 1) + 400 * a) by lia.
  replace (y - absolute_zero_year) with (b + 400 * a) by lia. rewrite !before_shift.
  replace y with ((b + 1) + 400 * (a - k)) by lia. rewrite leap_shift.
  pose proof year_table as Ht. rewrite forallb_forall in Ht. specialize (Ht (Z.to_nat b)).
  rewrite Z2Nat.id in Ht by lia. assert (Hin : In (Z.to_nat b) (seq 0 400)) by (apply in_seq; lia).
  specialize (Ht Hin). apply Z.eqb_eq in Ht. cbv zeta in Ht. lia.
Qed.
Ltac tables := repeat match goal with
  | |- context [days_before ?t] => let v := eval vm_compute in (days_before t) in change (days_before t) with v
  | |- context [?a =? 2] => let v := eval vm_compute in (a =? 2) in change (a =? 2) with v
  | |- context [3 <=? ?a] => let v := eval vm_compute in (3 <=? a) in change (3 <=? a) with v
  end; cbn [andb].
Lemma month_step y m : 1 <= m < 12 -> abs_days y (m + 1) 1 = abs_days y m (days_in m y) + 1.
Proof.
  intros Hm. rewrite !abs_days_year. generalize (before_year (y - absolute_zero_year)). intros z.
  assert (m = 1 \/ m = 2 \/ m = 3 \/ m = 4 \/ m = 5 \/ m = 6 \/ m = 7 \/ m = 8 \/ m = 9 \/ m = 10 \/ m = 11) as Hc by lia.
  unfold days_in. destruct (is_leap y); repeat destruct Hc as [->|Hc]; try subst m; tables; lia.
Qed.
Lemma next_no x y : next_day x y -> day_no y = day_no x + 1.
Proof.
  intros H. inversion H as [y' m d n Hl Hd|y' m n Hl Hm|y']; subst; unfold day_no.
  - rewrite !abs_days_year. lia.
  - apply length_iff in Hl as [_ ->]. rewrite month_step by done. lia.
  - rewrite !abs_days_year, year_step. cbn [Z.leb Z.sub]. change (3 <=? 1) with false. change (3 <=? 12) with true. rewrite andb_false_r, andb_true_r.
    change (days_before (1 - 1)) with 0. change (days_before (12 - 1)) with 334. destruct (is_leap y'); lia.
Qed.
Lemma dated_no n x : dated n x -> n = day_no x.
Proof.
  induction 1 as [|n x y _ IH Hn|n x y _ IH Hn]; [reflexivity| |].
  - rewrite (next_no _ _ Hn). lia.
  - pose proof (next_no _ _ Hn). lia.
Qed.
(** every real date is dated *)
Definition known (x : date) : Prop := dated (day_no x) x.
Lemma known_next x y : next_day x y -> known x <-> known y.
Proof.
  intros H. unfold known. pose proof (next_no _ _ H) as E. split; intros Hk.
  - rewrite E. by eapply later.
  - replace (day_no x) with (day_no y - 1) by lia. by eapply earlier.
Qed.
Lemma known_day y m d : 1 <= m <= 12 -> 1 <= d <= days_in m y -> known (y, m, d) <-> known (y, m, 1).
Proof.
  intros Hm Hd. assert (H : forall k : nat, 1 + Z.of_nat k <= days_in m y -> known (y, m, 1 + Z.of_nat k) <-> known (y, m, 1)).
  { induction k as [|k IH]; intros Hk; [done|]. rewrite <-IH by lia. replace (1 + Z.of_nat (S k)) with (1 + Z.of_nat k + 1) by lia.
    symmetry. apply known_next. eapply within; [apply length_iff; by split|]. lia. }
  specialize (H (Z.to_nat (d - 1))). rewrite Z2Nat.id in H by lia. replace (1 + (d - 1)) with d in H by lia. apply H. lia.
Qed.
Lemma days_in_pos m y : 1 <= m <= 12 -> 28 <= days_in m y.
Proof.
  intros Hm. assert (m = 1 \/ m = 2 \/ m = 3 \/ m = 4 \/ m = 5 \/ m = 6 \/ m = 7 \/ m = 8 \/ m = 9 \/ m = 10 \/ m = 11 \/ m = 12) as Hc by lia.
  unfold days_in. destruct (is_leap y); repeat destruct Hc as [->|Hc]; try subst m; tables; lia.
Qed.
Lemma known_month y m : 1 <= m <= 12 -> known (y, m, 1) <-> known (y, 1, 1).
Proof.
  intros Hm. assert (H : forall k : nat, 1 + Z.of_nat k <= 12 -> known (y, 1 + Z.of_nat k, 1) <-> known (y, 1, 1)).
  { induction k as [|k IH]; intros Hk; [done|]. rewrite <-IH by lia. replace (1 + Z.of_nat (S k)) with (1 + Z.of_nat k + 1) by lia.
    pose proof (days_in_pos (1 + Z.of_nat k) y ltac:(lia)).
    rewrite <-(known_day y (1 + Z.of_nat k) (days_in (1 + Z.of_nat k) y)) by lia.
    symmetry. apply known_next. eapply new_month; [apply length_iff; split; [lia|done]|]. lia. }
  specialize (H (Z.to_nat (m - 1))). rewrite Z2Nat.id in H by lia. replace (1 + (m - 1)) with m in H by lia. apply H. lia.
Qed.
Lemma known_year_step y : known (y, 1, 1) <-> known (y + 1, 1, 1).
Proof.
  rewrite <-(known_month y 12) by lia. rewrite <-(known_day y 12 31) by (change (days_in 12 y) with 31; lia). apply known_next. constructor.
Qed.
Lemma known_year y : known (y, 1, 1).
Proof.
  assert (H0 : known (1970, 1, 1)) by apply epoch.
  assert (Hu : forall k : nat, known (1970 + Z.of_nat k, 1, 1)).
  { induction k as [|k IH]; [done|]. replace (1970 + Z.of_nat (S k)) with (1970 + Z.of_nat k + 1) by lia. by rewrite <-known_year_step. }
  assert (Hd : forall k : nat, known (1970 - Z.of_nat k, 1, 1)).
  { induction k as [|k IH]; [done|]. rewrite known_year_step. by replace (1970 - Z.of_nat (S k) + 1) with (1970 - Z.of_nat k) by lia. }
  destruct (Z.le_ge_cases 1970 y).
  - specialize (Hu (Z.to_nat (y - 1970))). rewrite Z2Nat.id in Hu by lia. by replace (1970 + (y - 1970)) with y in Hu by lia.
  - specialize (Hd (Z.to_nat (1970 - y))). rewrite Z2Nat.id in Hd by lia. by replace (1970 - (1970 - y)) with y in Hd by lia.
Qed.
Lemma real_known x : real x -> known x.
Proof.
  destruct x as [[y m] d]. intros [Hm Hd]%real_iff. rewrite known_day by done. rewrite known_month by done. apply known_year.
Qed.
Lemma dated_iff n x : real x -> dated n x <-> n = day_no x.
Proof. intros Hr. split; [apply dated_no|]. intros ->. by apply real_known. Qed.
