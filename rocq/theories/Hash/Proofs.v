From Coq Require Import Ascii String NArith.
From stdpp Require Import prelude strings list.
From Verif.Hash Require Import Model Spec.
Open Scope N_scope.

Notation word := (fun x : N => x < 2^64).
Lemma word_bits x : x < 2^64 <-> forall i, 64 <= i -> N.testbit x i = false.
Proof.
  split.
  - intros H i Hi. destruct (N.eq_dec x 0) as [->|Hx]; [apply N.bits_0|]. apply N.bits_above_log2. apply N.log2_lt_pow2 in H; lia.
  - intros H. destruct (N.lt_ge_cases x (2^64)) as [Hl|Hl]; [done|]. exfalso. assert (Hp : 0 < x) by lia.
    apply N.log2_le_pow2 in Hl; [|done]. pose proof (H (N.log2 x) Hl) as Hb. rewrite N.bit_log2 in Hb by lia. done.
Qed.
Lemma word_lxor a b : a < 2^64 -> b < 2^64 -> N.lxor a b < 2^64.
Proof. rewrite !word_bits. intros Ha Hb i Hi. by rewrite N.lxor_spec, Ha, Hb. Qed.
Lemma word_shiftr a k : a < 2^64 -> N.shiftr a k < 2^64.
Proof. rewrite !word_bits. intros Ha i Hi. rewrite N.shiftr_spec by lia. apply Ha. lia. Qed.
Lemma ecma_word : ecma < 2^64. Proof. reflexivity. Qed.

(** bit steps *)
Lemma bit_step_alt x : bit_step x = N.lxor (N.shiftr x 1) (if N.testbit x 0 then ecma else 0).
Proof. unfold bit_step. destruct (N.testbit x 0); [done|by rewrite N.lxor_0_r]. Qed.
Lemma bit_step_word x : x < 2^64 -> bit_step x < 2^64.
Proof. intros H. rewrite bit_step_alt. apply word_lxor; [by apply word_shiftr|]. by destruct (N.testbit x 0). Qed.
Lemma bit_step_lxor a b : bit_step (N.lxor a b) = N.lxor (bit_step a) (bit_step b).
Proof.
  rewrite !bit_step_alt, N.lxor_spec, N.shiftr_lxor. destruct (N.testbit a 0), (N.testbit b 0); cbn [xorb]; apply N.bits_inj; intros i;
  rewrite !N.lxor_spec; destruct (N.testbit (N.shiftr a 1) i), (N.testbit (N.shiftr b 1) i), (N.testbit ecma i); rewrite ?N.bits_0; done.
Qed.
Lemma bit_step_double x : bit_step (N.shiftl x 1) = x.
Proof. unfold bit_step. rewrite N.shiftl_spec_low by lia. rewrite N.shiftr_shiftl_l by lia. apply N.shiftl_0_r. Qed.
Lemma steps_word n x : x < 2^64 -> steps n x < 2^64.
Proof. revert x. induction n as [|n IH]; intros x H; [done|]. cbn [steps]. by apply IH, bit_step_word. Qed.
Lemma steps_lxor n a b : steps n (N.lxor a b) = N.lxor (steps n a) (steps n b).
Proof. revert a b. induction n as [|n IH]; intros a b; [done|]. cbn [steps]. by rewrite bit_step_lxor, IH. Qed.
Lemma steps_shiftl n x : steps n (N.shiftl x (N.of_nat n)) = x.
Proof.
  induction n as [|n IH]; [apply N.shiftl_0_r|]. cbn [steps]. rewrite <- IH at 2. f_equal.
  rewrite <- (bit_step_double (N.shiftl x (N.of_nat n))). f_equal. rewrite N.shiftl_shiftl. f_equal. lia.
Qed.
Lemma steps_add n m x : steps (n + m) x = steps m (steps n x).
Proof. revert x. induction n as [|n IH]; intros x; [done|]. cbn [Nat.add steps]. apply IH. Qed.

(** the step backwards *)
Definition back (y : N) : N := if N.testbit y 63 then N.lxor (N.shiftl (N.lxor y ecma) 1) 1 else N.shiftl y 1.
Lemma top_ecma : N.testbit ecma 63 = true. Proof. reflexivity. Qed.
Lemma bit_step_top x : x < 2^64 -> N.testbit (bit_step x) 63 = N.testbit x 0.
Proof.
  intros H. rewrite word_bits in H. rewrite bit_step_alt, N.lxor_spec, N.shiftr_spec by lia. rewrite (H (63 + 1)) by lia.
  destruct (N.testbit x 0); [rewrite top_ecma|rewrite N.bits_0]; done.
Qed.
Lemma shift_back x : N.lxor (N.shiftl (N.shiftr x 1) 1) (if N.testbit x 0 then 1 else 0) = x.
Proof.
  apply N.bits_inj. intros i. rewrite N.lxor_spec. destruct (N.eq_dec i 0) as [->|Hi].
  - rewrite N.shiftl_spec_low by lia. destruct (N.testbit x 0); done.
  - rewrite N.shiftl_spec_high by lia. rewrite N.shiftr_spec by lia. replace (i - 1 + 1) with i by lia.
    replace (N.testbit (if N.testbit x 0 then 1 else 0) i) with false; [by rewrite xorb_false_r|].
    destruct (N.testbit x 0); [|by rewrite N.bits_0]. symmetry. apply N.bits_above_log2. cbn. lia.
Qed.
Lemma back_step x : x < 2^64 -> back (bit_step x) = x.
Proof.
  intros H. unfold back. rewrite bit_step_top by done. pose proof (shift_back x) as E. rewrite bit_step_alt. destruct (N.testbit x 0).
  - by rewrite N.lxor_assoc, N.lxor_nilpotent, N.lxor_0_r.
  - rewrite N.lxor_0_r in *. done.
Qed.
Lemma back_word y : y < 2^64 -> back y < 2^64.
Proof.
  intros H. unfold back. assert (Hs : forall z, z < 2^64 -> N.testbit z 63 = false -> N.shiftl z 1 < 2^64).
  { intros z Hz Ht. rewrite word_bits in Hz |- *. intros i Hi. rewrite N.shiftl_spec_high by lia. destruct (N.eq_dec i 64) as [->|Hne]; [done|]. apply Hz. lia. }
  destruct (N.testbit y 63) eqn:E; [|by apply Hs]. apply word_lxor; [|done]. apply Hs; [by apply word_lxor|]. by rewrite N.lxor_spec, E, top_ecma.
Qed.
Lemma step_back y : y < 2^64 -> bit_step (back y) = y.
Proof.
  intros H. unfold back. destruct (N.testbit y 63) eqn:E; [|apply bit_step_double].
  rewrite bit_step_lxor, bit_step_double. change (bit_step 1) with ecma. by rewrite N.lxor_assoc, N.lxor_nilpotent, N.lxor_0_r.
Qed.
Fixpoint backs (n : nat) (y : N) : N := match n with O => y | S n => back (backs n y) end.
Lemma backs_word n y : y < 2^64 -> backs n y < 2^64.
Proof. induction n as [|n IH]; intros H; [done|]. cbn. by apply back_word, IH. Qed.
Lemma steps_backs n y : y < 2^64 -> steps n (backs n y) = y.
Proof. intros H. induction n as [|n IH]; [done|]. cbn [steps backs]. rewrite step_back by (by apply backs_word). apply IH. Qed.
Lemma backs_steps n x : x < 2^64 -> backs n (steps n x) = x.
Proof. revert x. induction n as [|n IH]; intros x H; [done|]. cbn [steps backs]. rewrite IH by (by apply bit_step_word). by apply back_step. Qed.
Lemma steps_inj n a b : a < 2^64 -> b < 2^64 -> steps n a = steps n b -> a = b.
Proof. intros Ha Hb E. rewrite <- (backs_steps n a), <- (backs_steps n b) by done. by rewrite E. Qed.

(** bytes *)
Lemma byte_word c : N_of_ascii c < 256.
Proof. apply N_ascii_bounded. Qed.
Lemma split_byte x : N.lxor (x mod 256) (N.shiftl (N.shiftr x 8) 8) = x.
Proof.
  change 256 with (2^8). apply N.bits_inj. intros i. rewrite N.lxor_spec. destruct (N.lt_ge_cases i 8) as [H|H].
  - rewrite N.mod_pow2_bits_low, N.shiftl_spec_low by lia. apply xorb_false_r.
  - rewrite N.mod_pow2_bits_high, N.shiftl_spec_high by lia. rewrite N.shiftr_spec by lia. rewrite xorb_false_l. f_equal. lia.
Qed.
Lemma byte_step_steps x c : byte_step x c = steps 8 (N.lxor x (N_of_ascii c)).
Proof.
  unfold byte_step, table.
  assert (E : N.lxor x (N_of_ascii c) = N.lxor (N.lxor (x mod 256) (N_of_ascii c)) (N.shiftl (N.shiftr x 8) 8)).
  { rewrite <- (split_byte x) at 1. rewrite !N.lxor_assoc. f_equal. apply N.lxor_comm. }
  rewrite E, (steps_lxor 8 (N.lxor _ _) _). f_equal. symmetry. apply (steps_shiftl 8).
Qed.
Lemma byte_step_word x c : x < 2^64 -> byte_step x c < 2^64.
Proof. intros H. rewrite byte_step_steps. apply steps_word, word_lxor; [done|]. pose proof (byte_word c). lia. Qed.
Lemma update_word s x : x < 2^64 -> update x s < 2^64.
Proof. revert x. induction s as [|c s IH]; intros x H; [done|]. cbn [update]. by apply IH, byte_step_word. Qed.
Lemma complement_word x : x < 2^64 -> complement x < 2^64.
Proof. intros H. by apply word_lxor. Qed.
Lemma complement_twice x : complement (complement x) = x.
Proof. unfold complement. by rewrite N.lxor_assoc, N.lxor_nilpotent, N.lxor_0_r. Qed.
Lemma checksum_word s : checksum s < 2^64.
Proof. apply complement_word, update_word, complement_word. done. Qed.
Lemma update_app s t x : update x (s +:+ t) = update (update x s) t.
Proof. revert x. induction s as [|c s IH]; intros x; [done|]. cbn [update append]. exact (IH _). Qed.
Lemma update_inj s a b : a < 2^64 -> b < 2^64 -> update a s = update b s -> a = b.
Proof.
  revert a b. induction s as [|c s IH]; intros a b Ha Hb E; [done|]. cbn [update] in E. apply IH in E; [|by apply byte_step_word..].
  rewrite !byte_step_steps in E. assert (Hc : N_of_ascii c < 2^64) by (pose proof (byte_word c); lia).
  apply steps_inj in E; [|by apply word_lxor..]. apply (f_equal (fun z => N.lxor z (N_of_ascii c))) in E. by rewrite !N.lxor_assoc, N.lxor_nilpotent, !N.lxor_0_r in E.
Qed.

(** eight bytes are one number, its lowest byte first *)
Fixpoint number_of (s : string) : N := match s with EmptyString => 0 | String c s => N.lxor (N_of_ascii c) (N.shiftl (number_of s) 8) end.
Fixpoint text_of (n : nat) (v : N) : string := match n with O => EmptyString | S n => String (ascii_of_N (v mod 256)) (text_of n (N.shiftr v 8)) end.
Lemma update_number s x : update x s = steps (8 * String.length s) (N.lxor x (number_of s)).
Proof.
  revert x. induction s as [|c s IH]; intros x; [cbn; by rewrite N.lxor_0_r|]. cbn [update number_of String.length].
  rewrite IH, byte_step_steps. replace (8 * S (String.length s))%nat with (8 + 8 * String.length s)%nat by lia. rewrite steps_add. f_equal.
  rewrite <- (N.lxor_assoc x), (steps_lxor 8 _ (N.shiftl _ 8)). f_equal. symmetry. apply (steps_shiftl 8).
Qed.
Lemma byte_below x : x < 256 -> forall i, 8 <= i -> N.testbit x i = false.
Proof. intros H i Hi. destruct (N.eq_dec x 0) as [->|Hx]; [apply N.bits_0|]. apply N.bits_above_log2. change 256 with (2^8) in H. apply N.log2_lt_pow2 in H; lia. Qed.
Lemma number_cons c s : number_of (String c s) mod 256 = N_of_ascii c /\ N.shiftr (number_of (String c s)) 8 = number_of s.
Proof.
  cbn [number_of]. pose proof (byte_below _ (byte_word c)) as Hb. split; apply N.bits_inj; intros i.
  - change 256 with (2^8). destruct (N.lt_ge_cases i 8) as [H|H].
    + rewrite N.mod_pow2_bits_low, N.lxor_spec, N.shiftl_spec_low by lia. apply xorb_false_r.
    + rewrite N.mod_pow2_bits_high by done. by rewrite Hb.
  - rewrite N.shiftr_spec, N.lxor_spec by lia. rewrite Hb by lia. rewrite N.shiftl_spec_high by lia. rewrite xorb_false_l. f_equal. lia.
Qed.
Lemma text_number s : text_of (String.length s) (number_of s) = s.
Proof.
  induction s as [|c s IH]; [done|]. destruct (number_cons c s) as [H1 H2]. cbn [String.length text_of]. rewrite H1, H2, IH. by rewrite ascii_N_embedding.
Qed.
Lemma text_length n v : String.length (text_of n v) = n.
Proof. revert v. induction n as [|n IH]; intros v; [done|]. cbn. by rewrite IH. Qed.
Lemma number_text n v : v < 2^(8 * N.of_nat n) -> number_of (text_of n v) = v.
Proof.
  revert v. induction n as [|n IH]; intros v H; [cbn in *; lia|]. cbn [text_of number_of]. rewrite N_ascii_embedding by (by apply N.mod_lt).
  rewrite IH; [apply split_byte|]. rewrite N.shiftr_div_pow2. apply N.div_lt_upper_bound; [done|]. rewrite <- N.pow_add_r. replace (8 + 8 * N.of_nat n) with (8 * N.of_nat (S n)) by lia. done.
Qed.
Lemma number_bound s : number_of s < 2^(8 * N.of_nat (String.length s)).
Proof.
  induction s as [|c s IH]; [done|]. cbn [String.length]. destruct (number_cons c s) as [H1 H2]. pose proof (N.div_mod' (number_of (String c s)) 256) as E.
  rewrite H1 in E. rewrite N.shiftr_div_pow2 in H2. change (2^8) with 256 in H2. rewrite H2 in E. rewrite E. pose proof (byte_word c).
  replace (8 * N.of_nat (S (String.length s))) with (8 + 8 * N.of_nat (String.length s)) by lia. rewrite N.pow_add_r. change (2^8) with 256. nia.
Qed.
Lemma number_word s : (String.length s <= 8)%nat -> number_of s < 2^64.
Proof. intros H. eapply N.lt_le_trans; [apply number_bound|]. apply N.pow_le_mono_r; [done|]. lia. Qed.
Lemma number_inj s t : String.length s = String.length t -> number_of s = number_of t -> s = t.
Proof. intros Hl E. rewrite <- (text_number s), <- (text_number t). by rewrite Hl, E. Qed.

Lemma lxor_inj_l a b c : N.lxor a b = N.lxor a c -> b = c.
Proof. intros E. apply (f_equal (N.lxor a)) in E. by rewrite <- !N.lxor_assoc, !N.lxor_nilpotent, !N.lxor_0_l in E. Qed.

(** changes within eight bytes always show *)
Lemma checksum_near p a b t : String.length a = String.length b -> (String.length a <= 8)%nat -> a <> b -> checksum (p +:+ a +:+ t) <> checksum (p +:+ b +:+ t).
Proof.
  intros Hl H8 Hne E. apply Hne. unfold checksum in E. apply (f_equal complement) in E. rewrite !complement_twice, !update_app in E.
  assert (Hp : update (complement 0) p < 2^64) by (by apply update_word, complement_word).
  apply update_inj in E; [|by apply update_word..]. revert E Hp. generalize (update (complement 0) p) as x. intros x E Hp. rewrite !update_number, <- Hl in E.
  apply steps_inj in E; [|apply word_lxor; [done|apply number_word; lia]..]. apply lxor_inj_l in E. by apply number_inj.
Qed.
(** every value is reached, whatever comes before *)
Lemma checksum_reach p h : h < 2^64 -> exists w, String.length w = 8%nat /\ checksum (p +:+ w) = h.
Proof.
  intros H. set (x := update (complement 0) p). assert (Hx : x < 2^64) by (by apply update_word, complement_word).
  exists (text_of 8 (N.lxor x (backs 64 (complement h)))). split; [apply text_length|]. unfold checksum. rewrite update_app. fold x. clearbody x.
  rewrite update_number, text_length, number_text.
  - rewrite <- N.lxor_assoc, N.lxor_nilpotent, N.lxor_0_l. change (8 * 8)%nat with 64%nat. rewrite steps_backs by (by apply complement_word). apply complement_twice.
  - apply word_lxor; [done|]. by apply backs_word, complement_word.
Qed.

(** the register of the standard is the mirror image *)
Definition mirror (x r : N) : Prop := forall i, i < 64 -> N.testbit x i = N.testbit r (63 - i).
Lemma ecma_mirror : mirror ecma polynomial.
Proof.
  intros i Hi. assert (Hin : i ∈ (N.of_nat <$> seq 0 64)) by (apply elem_of_list_fmap; exists (N.to_nat i); split; [lia|apply elem_of_seq; lia]).
  assert (F : forallb (fun i => eqb (N.testbit ecma i) (N.testbit polynomial (63 - i))) (N.of_nat <$> seq 0 64) = true) by (vm_compute; reflexivity).
  rewrite forallb_forall in F. apply eqb_prop, F. by apply elem_of_list_In.
Qed.
Definition b2n (b : bool) : N := if b then 1 else 0.
Lemma mirror_bit x r b : x < 2^64 -> mirror x r -> mirror (bit_step (N.lxor x (b2n b))) (shift_in r b).
Proof.
  intros Hx H i Hi. rewrite bit_step_alt, N.lxor_spec, N.shiftr_spec, N.lxor_spec by lia.
  assert (Hb : forall k, 0 < k -> N.testbit (b2n b) k = false) by (intros k Hk; destruct b; [apply N.bits_above_log2; cbn; lia|apply N.bits_0]).
  rewrite (Hb (i + 1)) by lia. rewrite xorb_false_r. rewrite N.lxor_spec. replace (N.testbit (b2n b) 0) with b by (by destruct b).
  rewrite (H 0) by lia. change (63 - 0) with 63. unfold shift_in.
  assert (Ht : N.testbit x (i + 1) = N.testbit ((2 * r) mod 2^64) (63 - i)).
  { rewrite N.mod_pow2_bits_low by lia. destruct (N.eq_dec i 63) as [->|Hn].
    - change (63 - 63) with 0. rewrite N.testbit_even_0. rewrite word_bits in Hx. by apply Hx.
    - rewrite (H (i + 1)) by lia. replace (63 - i) with (N.succ (63 - (i + 1))) by lia. by rewrite N.testbit_even_succ by lia. }
  rewrite Ht. destruct (xorb (N.testbit r 63) b); [|by rewrite N.bits_0, xorb_false_r]. rewrite N.lxor_spec. f_equal. by apply ecma_mirror.
Qed.
Lemma byte_bits x c : x < 2^64 -> byte_step x c = foldl (fun x b => bit_step (N.lxor x (b2n b))) x (bits_of c).
Proof.
  intros _. rewrite byte_step_steps.
  assert (G : forall (l : list bool) x, steps (length l) (N.lxor x (foldr (fun b n => N.lxor (b2n b) (N.shiftl n 1)) 0 l)) = foldl (fun x b => bit_step (N.lxor x (b2n b))) x l).
  { induction l as [|b l IH]; intros y; [cbn; by rewrite N.lxor_0_r|]. cbn [length steps foldr foldl]. rewrite <- IH. f_equal.
    rewrite <- N.lxor_assoc, bit_step_lxor, bit_step_double. done. }
  rewrite <- (G (bits_of c)). destruct c as [[] [] [] [] [] [] [] []]; reflexivity.
Qed.
Lemma bits_word l x : x < 2^64 -> foldl (fun x b => bit_step (N.lxor x (b2n b))) x l < 2^64.
Proof. revert x. induction l as [|b l IH]; intros x H; [done|]. cbn. apply IH, bit_step_word, word_lxor; [done|by destruct b]. Qed.
Lemma mirror_bits l x r : x < 2^64 -> mirror x r -> mirror (foldl (fun x b => bit_step (N.lxor x (b2n b))) x l) (foldl shift_in r l).
Proof. revert x r. induction l as [|b l IH]; intros x r Hx H; [done|]. cbn. apply IH; [apply bit_step_word, word_lxor; [done|by destruct b]|by apply mirror_bit]. Qed.
Lemma mirror_update s x r : x < 2^64 -> mirror x r -> mirror (update x s) (foldl shift_in r (message_bits s)).
Proof.
  revert x r. induction s as [|c s IH]; intros x r Hx H; [done|]. cbn [update message_bits]. rewrite foldl_app. rewrite byte_bits by done.
  apply IH; [by apply bits_word|by apply mirror_bits].
Qed.
Lemma ones_bit i : i < 64 -> N.testbit (2^64 - 1) i = true.
Proof. intros H. change (2^64 - 1) with (N.ones 64). by apply N.ones_spec_low. Qed.
Lemma checksum_crc s h : crc_of s h <-> checksum s = h.
Proof.
  assert (M : mirror (update (complement 0) s) (foldl shift_in (2^64 - 1) (message_bits s))).
  { apply mirror_update; [by apply complement_word|]. intros i Hi. change (complement 0) with (2^64 - 1). rewrite !ones_bit by lia. done. }
  assert (C : forall i, i < 64 -> N.testbit (checksum s) i = negb (N.testbit (foldl shift_in (2^64 - 1) (message_bits s)) (63 - i))).
  { intros i Hi. unfold checksum, complement at 1. rewrite N.lxor_spec, ones_bit, (M i Hi) by done. by rewrite xorb_true_r. }
  split; [|intros <-; split; [apply checksum_word|exact C]]. intros [Hh Hb]. apply N.bits_inj. intros i. destruct (N.lt_ge_cases i 64) as [Hi|Hi].
  - by rewrite C, Hb.
  - pose proof (checksum_word s) as Hw. rewrite word_bits in Hw, Hh. by rewrite Hw, Hh.
Qed.
