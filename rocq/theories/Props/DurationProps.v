(** Durations among the settings (C171), followed by a case.  Vocabulary: Setup/SpecDuration.v (spells), Setup/SpecFraction.v (mixed), Setup/Spec.v (says).
    Program: Setup/Duration.v. *)
From Coq Require Import Ascii String.
From stdpp Require Import prelude list.
From Verif.Base Require Import GoInt Str Dec.
From Verif.Setup Require Import Model Spec Duration SpecDuration DurationProofs SpecFraction FractionProofs.
Local Open Scope string_scope.
Open Scope Z_scope.

(** ** C171 *)
(** A text without fractions is taken as a duration exactly if it spells one that can be represented, and for that one. *)
Theorem C171_duration : forall portion s n, has_char "." s = false ->
  says (parse_duration portion) KDuration s (SInt n) <-> spells s n /\ - 2^63 < n < 2^63.
Proof. intros portion s n H. apply (duration_iff portion s n H). Qed.
Print Assumptions C171_duration.
(** and no text spells two *)
Theorem C171_duration_one : forall s n n', spells s n -> spells s n' -> - 2^63 < n < 2^63 -> - 2^63 < n' < 2^63 -> n = n'.
Proof.
  assert (D : forall s n, spells s n -> has_char "." s = false).
  { assert (A : forall s n, amounts s n -> has_char "." s = false).
    { unfold has_char. assert (N : forall d k, numeral d k -> str_any (ceqb ".") d = false).
      { assert (Q : forall c, is_digit c = true -> ceqb "." c = false).
        { intros c Hc. apply bool_decide_eq_false_2. intros <-. done. }
        induction 1 as [c Hc|d k c Hd IH Hc]; [cbn; by rewrite (Q c Hc)|]. rewrite any_app, IH. cbn. by rewrite (Q c Hc). }
      assert (U : forall u n, (u, n) ∈ units -> str_any (ceqb ".") u = false).
      { intros u n Hu. assert (F : Forall (fun p : string * Z => str_any (ceqb ".") p.1 = false) units) by (repeat constructor).
        rewrite Forall_forall in F. exact (F _ Hu). }
      induction 1 as [d k u n Hd Hu|d k u n s t Hd Hu H IH]; rewrite !any_app, (N _ _ Hd), (U _ _ Hu); done. }
    destruct 1 as [s n H|s n H|s n H|s [-> |[-> | ->]]]; [by eapply A|apply A in H; unfold has_char in *; cbn [str_any]; by rewrite H..|done|done|done]. }
  intros s n n' H H' R R'. pose proof (D _ _ H) as Hd.
  pose proof (proj2 (duration_iff (fun _ _ _ => 0) s n Hd) (conj H R)) as E.
  pose proof (proj2 (duration_iff (fun _ _ _ => 0) s n' Hd) (conj H' R')) as E'. congruence.
Qed.
Print Assumptions C171_duration_one.
(** With fractions: amounts one after the other, each a whole number of units or one with digits after a point, are read
    as their sum, whatever the rounding of a fraction is, as long as it is not negative. *)
Theorem C171_fraction : forall portion s n, (forall x k unit : Z, 0 <= x -> 0 < unit -> 0 <= portion x k unit) ->
  mixed portion s n -> (n < 2^63)%Z ->
  says (parse_duration portion) KDuration s (SInt n) /\
  says (parse_duration portion) KDuration (String "+" s) (SInt n) /\
  says (parse_duration portion) KDuration (String "-" s) (SInt (- n)).
Proof. intros portion s n Hp H Hn. exact (mixed_parse portion Hp s n H Hn). Qed.
Print Assumptions C171_fraction.
Example C171_fraction_case : mixed (fun x k unit => x * unit / 10 ^ k) ".5m1.25s" 31250000000.
Proof.
  apply (mx_more _ ".5m" 30000000000 "1.25s" 1250000000).
  - eapply (am_point (fun x k unit => x * unit / 10 ^ k) "" 0 "5" 5 "m" (60 * 1000000000)); [by left| |cbn; lia|repeat ((by left) || right)].
    change 5 with (digit_val "5"). by constructor.
  - apply mx_one. apply (am_point (fun x k unit => x * unit / 10 ^ k) "1" 1 "25" 25 "s" 1000000000); [right| |cbn; lia|repeat ((by left) || right)].
    + change 1 with (digit_val "1"). by constructor.
    + change 25 with (10 * digit_val "2" + digit_val "5"). apply (num_more "2" _ "5"); by constructor.
Qed.
Example C171_duration_case :
  spells "-1h15m30s" (- 4530000000000) /\
  parse_duration (fun _ _ _ => 0) "-1h15m30s" = Some (- 4530000000000) /\
  parse_duration (fun _ _ _ => 0) "5" = None /\ parse_duration (fun _ _ _ => 0) "5 s" = None /\
  parse_duration (fun _ _ _ => 0) "9223372036854775807ns" = Some (2^63 - 1) /\
  parse_duration (fun _ _ _ => 0) "9223372036854775807ns1ns" = None /\
  parse_duration (fun _ _ _ => 0) "2562048h" = None /\
  parse_duration (fun x k unit => x * unit / 10 ^ k) ".5m1.25s" = Some 31250000000.
Proof.
  split; [|repeat split; vm_compute; reflexivity].
  change (- 4530000000000) with (- (1 * (3600 * 1000000000) + (15 * (60 * 1000000000) + 30 * 1000000000))). apply sp_minus.
  apply (am_more "1" 1 "h" (3600 * 1000000000) "15m30s").
  - change 1 with (digit_val "1"). by constructor.
  - repeat ((by left) || right).
  - apply (am_more "15" 15 "m" (60 * 1000000000) "30s").
    + change 15 with (10 * digit_val "1" + digit_val "5"). apply (num_more "1" _ "5"); by constructor.
    + repeat ((by left) || right).
    + apply (am_one "30" 30 "s").
      * change 30 with (10 * digit_val "3" + digit_val "0"). apply (num_more "3" _ "0"); by constructor.
      * repeat ((by left) || right).
Qed.
