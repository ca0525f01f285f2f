(** A parser that meets [reads_decimals]: for the numbers it promises to read,
    dividing two exact float64s gives the nearest one. *)
From Coq Require Import Ascii String ZArith Reals Lra Lia.
From Flocq Require Import Core BinarySingleNaN.
From Verif.Base Require Import Dec.
From Verif.Prune Require Import Model Proofs.
From Verif.Times Require Import Model Spec Proofs.
Open Scope Z_scope.

Fixpoint scan_frac (acc k : Z) (s : string) : option (Z * Z) :=
  match s with
  | EmptyString => Some (acc, k)
  | String c s' => if is_digit c then scan_frac (acc * 10 + digit_val c) (k + 1) s' else None
  end.
Fixpoint scan_int (acc : Z) (s : string) : option (Z * Z) :=
  match s with
  | EmptyString => Some (acc, 0)
  | String c s' =>
      if is_digit c then scan_int (acc * 10 + digit_val c) s'
      else if Ascii.eqb c "." then scan_frac acc 0 s' else None
  end.
Definition scan (s : string) : option (Z * Z) :=
  match s with
  | String "-" s' => match scan_int 0 s' with Some (n, k) => Some (- n, k) | None => None end
  | EmptyString => None
  | _ => scan_int 0 s
  end.
Definition strict_float (s : string) : option f64 :=
  match scan s with Some (n, k) => Some (fdiv (of_int n) (of_int (10 ^ k))) | None => None end.
Definition strict : parsers := {|
  parse_float := fun s => if String.eqb s "NaN" then Some B754_nan else strict_float s;
  parse_duration := fun _ => None; parse_rfc3339 := fun _ => None |}.

Lemma scan_frac_ok b : forall acc k m0 m, digits_from m0 b = Some m ->
  scan_frac acc k b = Some ((acc - m0) * 10 ^ Z.of_nat (String.length b) + m, k + Z.of_nat (String.length b)).
Proof.
  induction b as [|c b IH]; intros acc k m0 m H; cbn [digits_from scan_frac String.length] in *.
  - injection H as <-. change (10 ^ Z.of_nat 0) with 1. do 2 f_equal; lia.
  - destruct (is_digit c); [|discriminate]. rewrite (IH _ _ _ _ H).
    rewrite Nat2Z.inj_succ, Z.pow_succ_r by lia. do 2 f_equal; [ring|lia].
Qed.
Lemma scan_int_ok a t : forall acc n, digits_from acc a = Some n -> scan_int acc (append a t) = scan_int n t.
Proof.
  induction a as [|c a IH]; intros acc n H; cbn [digits_from] in H.
  - injection H as <-. reflexivity.
  - change (append (String c a) t) with (String c (append a t)). cbn [scan_int].
    destruct (is_digit c); [|discriminate]. apply IH. exact H.
Qed.
Lemma numeral_from s n : numeral s n -> digits_from 0 s = Some n.
Proof. intros H. apply numeral_digits in H. unfold digits in H. destruct s; [discriminate|exact H]. Qed.
Lemma unsigned_scan s n k : unsigned s n k -> scan_int 0 s = Some (n, k).
Proof.
  intros [a n' H|a b n' m Ha Hb].
  - rewrite <- (append_empty_r a). rewrite (scan_int_ok a "" 0 n' (numeral_from _ _ H)). reflexivity.
  - rewrite (scan_int_ok a _ 0 n' (numeral_from _ _ Ha)). cbn [scan_int]. change (is_digit ".") with false. cbn [Ascii.eqb].
    change (Ascii.eqb "." ".") with true. cbv iota. rewrite (scan_frac_ok b n' 0 0 m (numeral_from _ _ Hb)). replace ((n' - 0) * 10 ^ Z.of_nat (String.length b) + m) with (n' * 10 ^ Z.of_nat (String.length b) + m) by ring. reflexivity.
Qed.
Lemma unsigned_head c s n k : unsigned (String c s) n k -> is_digit c = true.
Proof.
  intros H. inversion H as [a n' Hn E1|a b n' m Ha Hb E1].
  - subst. apply numeral_head in Hn. exact Hn.
  - destruct a as [|d a]; [apply numeral_nonempty in Ha; congruence|].
    change (append (String d a) (String "." b)) with (String d (append a (String "." b))) in E1.
    injection E1 as -> _. apply numeral_head in Ha. exact Ha.
Qed.
Lemma decimal_scan s n k : decimal s n k -> scan s = Some (n, k).
Proof.
  intros [s' n' k' H|s' n' k' H].
  - pose proof (unsigned_scan _ _ _ H) as E. destruct s' as [|c s'].
    + exfalso. inversion H as [a n'' Hn E1|a b n'' m Ha Hb E1]; [apply numeral_nonempty in Hn; congruence|].
      destruct a; discriminate.
    + pose proof (unsigned_head _ _ _ _ H) as Hc. unfold scan.
      destruct c as [[] [] [] [] [] [] [] []]; try exact E. discriminate.
  - cbn [scan]. rewrite (unsigned_scan _ _ _ H). reflexivity.
Qed.
Lemma unsigned_k s n k : unsigned s n k -> 0 <= k.
Proof. intros [|]; lia. Qed.
Lemma decimal_k s n k : decimal s n k -> 0 <= k.
Proof. intros [? ? ? H|? ? ? H]; apply unsigned_k in H; exact H. Qed.

Lemma strict_reads : reads_decimals strict.
Proof.
  intros s n k Hd Hn Hk. pose proof (decimal_k _ _ _ Hd) as Hk0.
  unfold strict, parse_float. destruct (String.eqb_spec s "NaN") as [->|_].
  { apply decimal_scan in Hd. discriminate. }
  unfold strict_float. rewrite (decimal_scan _ _ _ Hd). eexists. split; [reflexivity|].
  assert (Hp : 1 <= 10 ^ k <= 2 ^ 53).
  { split; [apply (Z.pow_le_mono_r 10 0 k); lia|]. apply Z.le_trans with (10 ^ 15); [apply Z.pow_le_mono_r; lia|lia]. }
  destruct (fdiv_int n (10 ^ k) ltac:(lia) Hp) as (F & E & _). split; [exact F|].
  rewrite rnd_flt, E, (rnd_int n) by lia. reflexivity.
Qed.
