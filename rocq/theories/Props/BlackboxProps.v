(** C138-C140: the blackbox.  Vocabulary: Blackbox/Spec.v. *)
From Coq Require Import ZArith Reals Lra Lia.
From Coq Require Import Ascii String.
From Flocq Require Import Core BinarySingleNaN.
From Flocq Require Bits Binary.
From stdpp Require Import prelude gmap strings list pretty.
From Verif.Base Require Import GoInt Envelope.
From Verif.Prune Require Import Model Proofs.
From Verif.Query Require Import Model.
From Verif.Blackbox Require Import Model Spec Proofs.
Open Scope string_scope.
Open Scope list_scope.
Open Scope Z_scope.

(** ** C138 *)
Definition ten_bits : Envelope.f64 := 0x4024000000000000. (* 10, as a binary64 *)
Example ten_is_ten : Binary.B2R 53 1024 (Bits.b64_of_bits ten_bits) = 10%R.
Proof. cbv -[Rmult Rplus Ropp IZR Rinv]. lra. Qed.
(** Every tick sends one gauge, with the timestamp of the interval it falls in, once to five times: until an attempt
    succeeds; and warns exactly if the tick before it was not in the interval before. *)
Theorem C138_ticks_partial : ∀ src interval ok nows,
  0 < interval ->
  let ticks := emitting src interval ok None 0 nows in
  length ticks = length nows ∧
  ∀ j now sends warned, nows !! j = Some now -> ticks !! j = Some (sends, warned) -> ∃ ts k,
    slot interval now ts ∧
    sends = replicate k [mk_env ts src "" ∅ ∅ (MGauge {[ "blackbox_test_metric" := mk_gv "ms" ten_bits ]})] ∧
    (1 <= k <= 5)%nat ∧ (∀ i, (S i < k)%nat -> ok j i = false) ∧ (k < 5 -> ok j (k - 1) = true)%nat ∧
    (warned = true <-> ∃ i prev before, j = S i ∧ nows !! i = Some prev ∧ slot interval prev before ∧ before + interval ≠ ts).
Proof.
  intros src d ok nows Hd ticks. destruct (emitting_spec src d ok Hd nows None 0%nat) as [Hl Hs]. split; [exact Hl|].
  intros j now sends warned H1 H2. destruct (Hs _ _ _ _ H1 H2) as [-> Hw]. cbn [Nat.add] in *.
  destruct (send_all 5 (ok j) 0%nat (test_batch src (truncate now d))) as (k & Hk & K1 & K2 & K3 & K4).
  exists (truncate now d), k. split; [by apply slot_truncate|]. split; [exact Hk|]. split; [split; [apply K2; lia|exact K1]|].
  split; [exact K3|]. split; [exact K4|]. rewrite Hw. destruct j as [|i].
  - split; [by intros (l & ? & _)|]. by intros (i & p & b & ? & _).
  - split.
    + intros (p & ? & ?). exists i, p, (truncate p d). split_and!; [done..| |done]. by apply slot_truncate.
    + intros (i' & p & b & [= <-] & Hp & Hb & Hne). exists p. split; [done|].
      rewrite (slot_unique d p (truncate p d) b); [done| |done]. by apply slot_truncate.
Qed.
Print Assumptions C138_ticks_partial.
(** ten seconds, the interval missed in between, the third send failing twice *)
Example C138_case : let e ts := [mk_env ts "bb" "" ∅ ∅ (MGauge {[ "blackbox_test_metric" := mk_gv "ms" ten_bits ]})] in
  emitting "bb" (10 * second) (fun j i => (j <? 2)%nat || (2 <=? i)%nat) None 0 [12 * second; 21 * second; 45 * second]
  = [([e (10 * second)], false); ([e (20 * second)], false); ([e (40 * second); e (40 * second); e (40 * second)], true)].
Proof. reflexivity. Qed.

(** A test metric that could not be sent is not logged. *)
Theorem C138_logged_refuted : ¬ (∀ src ok ts sends logged,
  emit src ok ts = (sends, logged) -> (∀ i, (i < 5)%nat -> ok i = false) -> logged ≠ []).
Proof. intros H. by eapply (H "bb" (fun _ => false) 0 _ _ eq_refl). Qed.
Print Assumptions C138_logged_refuted.

(** ** C139 *)
(** Not configured to use the proxy: the first sample that is measured ends the process. *)
Theorem C139_panic_refuted : ∀ v http up, tick false (inl v) http up = Panicked.
Proof. intros v http up. unfold tick, emit_measured. by rewrite bool_decide_eq_false_2 by apply map_non_empty_singleton. Qed.
Print Assumptions C139_panic_refuted.
(** Configured to: what was measured is reported, in one envelope, unless the VM is known to be up for less than ten minutes. *)
Theorem C139_report_partial : ∀ grpc http up,
  tick true grpc http up ≠ Panicked ∧
  (∀ m, tick true grpc http up = Reported m ->
     (∀ v, m !! "blackbox.grpc_reliability" = Some v <-> grpc = inl v) ∧
     (∀ v, m !! "blackbox.http_reliability" = Some v <-> http = inl v) ∧
     (∀ k, is_Some (m !! k) -> k = "blackbox.grpc_reliability" ∨ k = "blackbox.http_reliability")) ∧
  (tick true grpc http up = NothingSent <-> ((∃ e, grpc = inr e) ∧ (∃ e, http = inr e)) ∨ 0 <= up < 600).
Proof.
  intros grpc http up. unfold tick, emit_measured.
  set (m := match http with inl v => <[_ := v]> _ | inr _ => _ end).
  assert (Hm : (∀ v, m !! "blackbox.grpc_reliability" = Some v <-> grpc = inl v) ∧
     (∀ v, m !! "blackbox.http_reliability" = Some v <-> http = inl v) ∧
     (∀ k, is_Some (m !! k) -> k = "blackbox.grpc_reliability" ∨ k = "blackbox.http_reliability")).
  { subst m. destruct grpc as [g|e1], http as [h|e2].
    - split_and!.
      + intros v. rewrite lookup_insert_ne, lookup_singleton by done. split; by intros [= ->].
      + intros v. rewrite lookup_insert. split; by intros [= ->].
      + intros k [v Hk]. apply lookup_insert_Some in Hk as [[<- _]|[_ Hk]]; [by right|]. apply lookup_singleton_Some in Hk as [<- _]. by left.
    - split_and!.
      + intros v. rewrite lookup_singleton. split; by intros [= ->].
      + intros v. rewrite lookup_singleton_ne by done. done.
      + intros k [v Hk]. apply lookup_singleton_Some in Hk as [<- _]. by left.
    - split_and!.
      + intros v. rewrite lookup_insert_ne, lookup_empty by done. done.
      + intros v. rewrite lookup_insert. split; by intros [= ->].
      + intros k [v Hk]. apply lookup_insert_Some in Hk as [[<- _]|[_ Hk]]; [by right|]. by rewrite lookup_empty in Hk.
    - split_and!; [intros v; by rewrite lookup_empty..|]. intros k [v Hk]. by rewrite lookup_empty in Hk. }
  assert (He : m = ∅ <-> (∃ e, grpc = inr e) ∧ (∃ e, http = inr e)).
  { subst m. destruct grpc as [g|e1], http as [h|e2].
    - split; [intros E; by apply insert_non_empty in E|intros [[? ?] _]; done].
    - split; [intros E; by apply map_non_empty_singleton in E|intros [[? ?] _]; done].
    - split; [intros E; by apply insert_non_empty in E|intros [_ [? ?]]; done].
    - split; [by eauto|done]. }
  clearbody m. case_bool_decide as Hb.
  - split; [done|]. split; [done|]. split; [|done]. intros _. left. by apply He.
  - destruct ((0 <=? up) && (up <? 600)) eqn:E.
    + split; [done|]. split; [done|]. split; [|done]. intros _. right. apply andb_true_iff in E as [?%Z.leb_le ?%Z.ltb_lt]. lia.
    + split; [done|]. split; [by intros ? [= <-]|]. split; [done|]. intros [H|H]; [by apply He in H|].
      apply andb_false_iff in E as [?%Z.leb_gt|?%Z.ltb_ge]; lia.
Qed.
Print Assumptions C139_report_partial.
Example C139_case : ∀ g h, tick true (inl g) (inl h) 600 = Reported {[ "blackbox.http_reliability" := h; "blackbox.grpc_reliability" := g ]}
  ∧ tick true (inl g) (inr "timeout") (-1) = Reported {[ "blackbox.grpc_reliability" := g ]} ∧ tick true (inl g) (inl h) 599 = NothingSent.
Proof. intros g h. unfold tick, emit_measured. rewrite !bool_decide_eq_false_2; [done|apply map_non_empty_singleton|apply insert_non_empty..]. Qed.

(** ** C140 *)
(** Windows and intervals of whole seconds: the query asks for the window, as many points are expected as whole intervals fit
    in; and if the interval divides the window, that is how many are due in any time as long as the window. *)
Theorem C140_expected_partial : ∀ src w i,
  0 <= w <= 2 ^ 40 -> 1 <= i <= 2 ^ 40 ->
  query_text src (w * second) = ("blackbox_test_metric{source_id=""" +:+ src +:+ """}[" +:+ pretty w +:+ "s]")%string ∧
  to_int (expected_samples (w * second) (i * second)) = Some (w / i) ∧
  ((i | w) -> ∀ start, ∃ l, due (i * second) start (w * second) l ∧ Z.of_nat (length l) = w / i).
Proof.
  intros src w i Hw Hi. split; [|split].
  - unfold query_text. unfold second. by rewrite query_whole.
  - by apply expected_whole.
  - intros [k ->] start. assert (0 <= k) by nia. rewrite Z.div_mul by lia.
    destruct (due_window (i * second) start k) as (l & Hl & E); [unfold second; lia|lia|].
    exists l. split; [|lia]. replace (k * i * second) with (k * (i * second)) by lia. exact Hl.
Qed.
Print Assumptions C140_expected_partial.
(** What is reported is the number of points received by the number expected, rounded; it is 1 exactly if these are the same,
    less if less were received, more if more.  Without a series there is an error instead. *)
Theorem C140_value_partial : ∀ w i labels points rest,
  0 <= w <= 2 ^ 40 -> 1 <= i <= w -> Z.of_nat (length points) <= 2 ^ 52 ->
  ∃ v, calculate (w * second) (i * second) (inl (Some (RMatrix ((labels, points) :: rest)))) = Some (inl v) ∧
  let n := Z.of_nat (length points) in
  is_finite v = true ∧ B2R v = rnd (IZR n / IZR (w / i)) ∧ (0 <= B2R v)%R ∧
  (B2R v = 1%R <-> n = w / i) ∧ ((B2R v < 1)%R <-> n < w / i) ∧ ((1 < B2R v)%R <-> w / i < n).
Proof.
  intros w i labels points rest Hw Hi Hn. unfold calculate, second. cbn [count_points].
  rewrite (expected_whole w i Hw ltac:(lia)). eexists. split; [reflexivity|]. cbn zeta.
  assert (Hk : 1 <= w / i) by (apply Z.div_le_lower_bound; lia).
  assert (Hk2 : w / i <= w) by (apply Z.div_le_upper_bound; nia).
  set (n := Z.of_nat (length points)) in *. assert (Hn0 : 0 <= n) by lia. clearbody n.
  destruct (ratio_spec n (w / i) ltac:(lia) ltac:(lia)) as [F E]. rewrite E.
  pose proof (ratio_one n (w / i) ltac:(lia) ltac:(lia)) as H1.
  assert (L : n < w / i -> (rnd (IZR n / IZR (w / i)) < 1)%R) by (intros; apply ratio_lt; lia).
  assert (G : w / i < n -> (1 < rnd (IZR n / IZR (w / i)))%R) by (intros; apply ratio_gt; lia).
  split; [exact F|]. split; [done|]. split.
  - apply rnd_ge_format; [apply (format_int 0); lia|]. apply Rmult_le_pos; [apply IZR_le; lia|].
    apply Rlt_le, Rinv_0_lt_compat, IZR_lt. lia.
  - split; [exact H1|]. destruct (Z.lt_trichotomy n (w / i)) as [Hlt|[Heq|Hgt]].
    + specialize (L Hlt). split; split; intros; try done; try lra; lia.
    + apply H1 in Heq as Heq'. rewrite Heq'. split; split; intros; try lra; lia.
    + specialize (G Hgt). split; split; intros; try done; try lra; lia.
Qed.
Print Assumptions C140_value_partial.
Theorem C140_error_partial : ∀ w i answer,
  (∀ labels points rest, answer ≠ inl (Some (RMatrix ((labels, points) :: rest)))) ->
  ∃ e, calculate w i answer = Some (inr e).
Proof.
  intros w i answer H. unfold calculate. destruct answer as [[[| |l]|]|e]; cbn; eauto.
  destruct l as [|[ls ps] r]; cbn; eauto. by destruct (H ls ps r).
Qed.
Print Assumptions C140_error_partial.
(** ten minutes at ten seconds: 60 expected; 59 received are 0.98333..., 60 are 1 *)
Example C140_case : to_int (expected_samples (600 * second) (10 * second)) = Some 60.
Proof. vm_compute. reflexivity. Qed.

(** Parts of seconds: the query asks for another window than points are expected for; all that are due in it, and no more, are
    reported as more than all. *)
Theorem C140_parts_refuted : ∃ window interval start l labels points v,
  0 < interval ∧ (interval | window) ∧
  due interval start (query_seconds window * second) l ∧ length points = length l ∧
  calculate window interval (inl (Some (RMatrix [(labels, points)]))) = Some (inl v) ∧ is_finite v = true ∧ (1 < B2R v)%R.
Proof.
  destruct (due_window 500000000 0 4 ltac:(lia) ltac:(lia)) as (l & Hl & E).
  exists 1500000000, 500000000, 0, l, ∅, (replicate 4 (mk_pp "0" 0)).
  assert (Hc : to_int (expected_samples 1500000000 500000000) = Some 3) by (vm_compute; reflexivity).
  destruct (ratio_spec 4 3 ltac:(lia) ltac:(lia)) as [F R].
  eexists. split; [lia|]. split; [by exists 3|]. split.
  { replace (query_seconds 1500000000 * second) with (4 * 500000000) by (vm_compute; reflexivity). exact Hl. }
  split; [by rewrite E|]. unfold calculate. cbn [count_points]. rewrite Hc. split; [reflexivity|].
  split; [exact F|]. change (Z.of_nat (length (replicate 4 _))) with 4. rewrite R. apply ratio_gt; lia.
Qed.
Print Assumptions C140_parts_refuted.
(** An interval longer than the window: a point that is received makes the reliability infinite. *)
Theorem C140_short_refuted : ∀ w i labels points rest v, 0 <= w < i -> i <= 2 ^ 40 -> 1 <= Z.of_nat (length points) <= 2 ^ 52 ->
  calculate (w * second) (i * second) (inl (Some (RMatrix ((labels, points) :: rest)))) = Some (inl v) -> is_finite v = false.
Proof.
  intros w i labels points rest v Hw Hi Hn. unfold calculate, second. cbn [count_points].
  rewrite (expected_whole w i ltac:(lia) ltac:(lia)), Z.div_small by lia. intros [= <-].
  destruct (of_int_exact (Z.of_nat (length points)) ltac:(lia)) as [F E].
  unfold fdiv. change (of_int 0) with (B754_zero false : f64). destruct (of_int (Z.of_nat (length points))); reflexivity.
Qed.
Print Assumptions C140_short_refuted.
