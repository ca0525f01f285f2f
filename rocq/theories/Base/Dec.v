(** Decimal numbers as Go's strconv reads and writes them. *)
From Coq Require Import Ascii String.
From stdpp Require Import prelude strings.
From Verif.Base Require Import GoInt Str.
Open Scope Z_scope.

Definition is_digit (c : ascii) : bool := let n := nat_of_ascii c in (48 <=? n)%nat && (n <=? 57)%nat.
Definition digit_val (c : ascii) : Z := Z.of_nat (nat_of_ascii c) - 48.
Definition digit_char (d : Z) : ascii := ascii_of_nat (Z.to_nat (d + 48)).

(** The value of a string of digits, continuing from acc; None on any other byte *)
Fixpoint digits_from (acc : Z) (s : string) : option Z :=
  match s with
  | EmptyString => Some acc
  | String c s' => if is_digit c then digits_from (acc * 10 + digit_val c) s' else None
  end.
Definition digits (s : string) : option Z :=
  match s with EmptyString => None | _ => digits_from 0 s end.

(** strconv.ParseUint(s, 10, 64): syntax and range errors are not told apart *)
Definition parse_uint (s : string) : option Z :=
  n ← digits s; if n <? 2^64 then Some n else None.
(** strconv.ParseInt(s, 10, 64) *)
Definition parse_int (s : string) : option Z :=
  match s with
  | EmptyString => None
  | String c s' =>
      if ceqb c "-" then (n ← parse_uint s'; if 2^63 <? n then None else Some (- n))
      else n ← parse_uint (if ceqb c "+" then s' else s); if 2^63 <=? n then None else Some n
  end.

(** strconv.FormatUint(n, 10); twenty digits are enough for 64 bits *)
Fixpoint format_digits (fuel : nat) (n : Z) (rest : string) : string :=
  let s := String (digit_char (n mod 10)) rest in
  match fuel with
  | O => s
  | S fuel' => if n <? 10 then s else format_digits fuel' (n / 10) s
  end.
Definition format_uint (n : Z) : string := format_digits 20 n EmptyString.
(** strconv.FormatInt(n, 10), strconv.Itoa *)
Definition format_int (n : Z) : string :=
  if n <? 0 then String "-" (format_uint (- n)) else format_uint n.

(** Vocabulary: [numeral s n]: s is a non-empty string of decimal digits with value n. *)
Inductive numeral : string -> Z -> Prop :=
| num_one c : is_digit c = true -> numeral (String c EmptyString) (digit_val c)
| num_more s n c : numeral s n -> is_digit c = true ->
    numeral (append s (String c EmptyString)) (10 * n + digit_val c).
Definition signed_numeral (s : string) (n : Z) : Prop :=
  numeral s n ∨ (∃ s', s = String "+" s' ∧ numeral s' n) ∨ (∃ s', s = String "-" s' ∧ numeral s' (- n)).

(** ** Lemmas *)
#[local] Arguments String.append : simpl nomatch.
Lemma digits_from_app acc s t : digits_from acc (append s t) = n ← digits_from acc s; digits_from n t.
Proof.
  revert acc. induction s as [|c s IH]; intros acc; simpl; [done|]. destruct (is_digit c); [apply IH|done].
Qed.
Lemma numeral_nonempty s n : numeral s n -> s <> EmptyString.
Proof. intros [c Hc|s' n' c H Hc]; [done|]. by destruct s'. Qed.
Lemma numeral_digits s n : numeral s n -> digits s = Some n.
Proof.
  intros H. assert (E : digits_from 0 s = Some n).
  { induction H as [c Hc|s n c H IH Hc]; simpl; [by rewrite Hc|].
    rewrite digits_from_app, IH. simpl. rewrite Hc. f_equal. lia. }
  unfold digits. destruct s; [by apply numeral_nonempty in H|done].
Qed.
Lemma digits_numeral_from s : forall acc t n, numeral t acc -> digits_from acc s = Some n -> numeral (append t s) n.
Proof.
  induction s as [|c s IH]; intros acc t n Ht H; simpl in H.
  - injection H as <-. replace (append t EmptyString) with t; [done|]. clear. induction t as [|c t IH]; simpl; [done|]. by rewrite <-IH.
  - destruct (is_digit c) eqn:Hc; [|done].
    replace (append t (String c s)) with (append (append t (String c EmptyString)) s).
    + eapply IH; [|exact H]. rewrite Z.mul_comm. by constructor.
    + clear. induction t as [|d t IH]; simpl; [done|]. by rewrite IH.
Qed.
Lemma digits_numeral s n : digits s = Some n -> numeral s n.
Proof.
  unfold digits. destruct s as [|c s]; [done|]. simpl. destruct (is_digit c) eqn:Hc; [|done].
  intros H. apply (digits_numeral_from s (digit_val c) (String c EmptyString)); [by constructor|done].
Qed.
Lemma digits_from_ge s : forall acc n, 0 <= acc -> digits_from acc s = Some n -> 0 <= n.
Proof.
  induction s as [|c s IH]; intros acc n Ha H; simpl in H; [injection H as <-; done|].
  destruct (is_digit c) eqn:Hc; [|done]. eapply IH; [|exact H].
  unfold is_digit in Hc. apply andb_prop in Hc as [H1 H2]. apply Nat.leb_le in H1. unfold digit_val. lia.
Qed.
Lemma numeral_nonneg s n : numeral s n -> 0 <= n.
Proof.
  intros H. apply numeral_digits in H. unfold digits in H. destruct s; [done|]. eapply digits_from_ge; [|exact H]. lia.
Qed.

Lemma parse_uint_spec s n : parse_uint s = Some n <-> numeral s n /\ n < 2^64.
Proof.
  unfold parse_uint. split.
  - intros H. destruct (digits s) as [m|] eqn:E; [|done]. cbn in H.
    destruct (Z.ltb_spec m (2^64)); [|done]. injection H as ->. split; [by apply digits_numeral|done].
  - intros [H Hn]. rewrite (numeral_digits _ _ H). cbn. destruct (Z.ltb_spec n (2^64)); [done|lia].
Qed.
Lemma numeral_head c s n : numeral (String c s) n -> is_digit c = true.
Proof. intros H. apply numeral_digits in H. unfold digits in H. simpl in H. by destruct (is_digit c). Qed.
Lemma parse_int_spec s n : parse_int s = Some n <-> signed_numeral s n /\ in64 n.
Proof.
  unfold parse_int, signed_numeral, in64. destruct s as [|c s].
  { split; [done|]. intros [[H|[(s1 & E1 & _)|(? & ? & _)]] _]; [by apply numeral_nonempty in H|done|done]. }
  unfold ceqb. case_bool_decide as Hm; [subst c|case_bool_decide as Hp; [subst c|]].
  - split.
    + intros H. destruct (parse_uint s) as [m|] eqn:E; [|done]. cbn in H. apply parse_uint_spec in E as [E _].
      pose proof (numeral_nonneg _ _ E).
      destruct (Z.ltb_spec (2^63) m); [done|]. injection H as <-. split; [|lia].
      right. right. exists s. split; [done|]. by rewrite Z.opp_involutive.
    + intros [[H|[(s1 & E1 & _)|(s' & [= <-] & H)]] Hn]; [by apply numeral_head in H|done|].
      rewrite (proj2 (parse_uint_spec s (- n))); [|split; [done|lia]]. cbn.
      destruct (Z.ltb_spec (2^63) (- n)); [lia|]. f_equal. lia.
  - split.
    + intros H. destruct (parse_uint s) as [m|] eqn:E; [|done]. cbn in H. apply parse_uint_spec in E as [E _].
      pose proof (numeral_nonneg _ _ E).
      destruct (Z.leb_spec (2^63) m); [done|]. injection H as <-. split; [|lia]. right. left. eauto.
    + intros [[H|[(s' & [= <-] & H)|(s1 & E1 & H)]] Hn]; [by apply numeral_head in H| |done].
      rewrite (proj2 (parse_uint_spec s n)); [|split; [done|lia]]. cbn.
      destruct (Z.leb_spec (2^63) n); [lia|done].
  - split.
    + intros H. destruct (parse_uint (String c s)) as [m|] eqn:E; [|done]. cbn in H. apply parse_uint_spec in E as [E _].
      pose proof (numeral_nonneg _ _ E).
      destruct (Z.leb_spec (2^63) m); [done|]. injection H as <-. split; [|lia]. by left.
    + intros [[H|[(s1 & E1 & H)|(s1 & E1 & H)]] Hn]; [|by injection E1|by injection E1].
      rewrite (proj2 (parse_uint_spec (String c s) n)); [|split; [done|lia]]. cbn.
      destruct (Z.leb_spec (2^63) n); [lia|done].
Qed.

Lemma digit_char_ok d : 0 <= d < 10 -> is_digit (digit_char d) = true /\ digit_val (digit_char d) = d.
Proof.
  intros H. unfold digit_char, is_digit, digit_val. rewrite nat_ascii_embedding by lia.
  rewrite andb_true_iff, !Nat.leb_le. lia.
Qed.
Lemma format_digits_numeral fuel : forall n rest,
  0 <= n < 10 ^ (Z.of_nat fuel + 1) -> exists s, format_digits fuel n rest = append s rest /\ numeral s n.
Proof.
  induction fuel as [|fuel IH]; intros n rest H.
  - change (10 ^ (Z.of_nat 0 + 1)) with 10 in H. cbn [format_digits]. rewrite Z.mod_small by lia.
    destruct (digit_char_ok n H) as [H1 H2]. eexists (String (digit_char n) EmptyString). split; [done|]. rewrite <-H2 at 2. by constructor.
  - cbn [format_digits]. destruct (Z.ltb_spec n 10).
    + rewrite Z.mod_small by lia. destruct (digit_char_ok n ltac:(lia)) as [H1 H2].
      exists (String (digit_char n) EmptyString). split; [done|]. rewrite <-H2 at 2. by constructor.
    + destruct (IH (n / 10) (String (digit_char (n mod 10)) rest)) as (s & -> & Hs).
      { split; [apply Z.div_pos; lia|]. apply Z.div_lt_upper_bound; [lia|].
        replace (Z.of_nat (S fuel) + 1) with (Z.succ (Z.of_nat fuel + 1)) in H by lia. rewrite Z.pow_succ_r in H by lia. lia. }
      destruct (digit_char_ok (n mod 10)) as [H1 H2]; [apply Z.mod_pos_bound; lia|].
      exists (append s (String (digit_char (n mod 10)) EmptyString)). split.
      * clear. induction s as [|c s IH]; simpl; [done|]. by rewrite IH.
      * replace n with (10 * (n / 10) + digit_val (digit_char (n mod 10))) at 2; [by constructor|].
        rewrite H2. symmetry. apply Z.div_mod. lia.
Qed.
Lemma append_empty_r s : append s EmptyString = s.
Proof. induction s as [|c s IH]; simpl; [done|]. by rewrite IH. Qed.
Lemma format_uint_numeral n : inu64 n -> numeral (format_uint n) n.
Proof.
  intros H. unfold format_uint. destruct (format_digits_numeral 20 n EmptyString) as (s & -> & Hs).
  - unfold inu64 in H. change (10 ^ (Z.of_nat 20 + 1)) with 1000000000000000000000. lia.
  - by rewrite append_empty_r.
Qed.
Lemma parse_format_uint n : inu64 n -> parse_uint (format_uint n) = Some n.
Proof. intros H. apply parse_uint_spec. split; [by apply format_uint_numeral|apply H]. Qed.
Lemma parse_format_int n : in64 n -> parse_int (format_int n) = Some n.
Proof.
  intros H. apply parse_int_spec. split; [|done]. unfold format_int, in64, signed_numeral in *. destruct (Z.ltb_spec n 0).
  - right. right. eexists. split; [done|]. apply format_uint_numeral. unfold inu64. lia.
  - left. apply format_uint_numeral. unfold inu64. lia.
Qed.
