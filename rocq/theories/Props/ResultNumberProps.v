(** C186: the numbers of query results over HTTP, with strconv and fmt written out (Float/Parse.v): C62 and C129 without assumptions
    about them.  Vocabulary: Float/Spec.v (which number a float64 is), Auth/SpecDocs.v (stands_for), Marshaler/Spec.v, Http/Spec.v. *)
From Coq Require Import Ascii String.
From stdpp Require Import prelude strings gmap list.
From Verif.Base Require Import GoInt Envelope Str Url Dec.
From Verif.Routing Require Import Model.
From Verif.Gateway Require Import Model Spec.
From Verif.Marshaler Require Import Model Spec.
From Verif.Http Require Import Model Spec Semver.
From Verif.Json Require Import Text Spec Pb SpecPb Codec.
From Verif.Auth Require Import SpecDocs DocsMore.
From Verif.Float Require Import Model Spec Proofs Nearest Short Parse ParseProofs.
From Verif.Props Require Import MarshalerProps HttpProps JsonProps.
Local Open Scope string_scope.
Local Open Scope Z_scope.

(** ** C186 *)
(** A value is read as it was written, to the bit: also zeros with a sign, infinities, and NaN. *)
Theorem C186_value : forall f : go_float, parse_go (short_go f) = Some f.
Proof. exact short_exact. Qed.
Print Assumptions C186_value.

(** It is written with as few digits as one that is read as this value can have, never more than 17; and no other text with as few digits that is
    read as this value is nearer to it. *)
Theorem C186_shortest : forall neg b, 0 < proj1_sig b -> exists t m k n, short_go (Finite neg b) = signed neg t /\ stands_for t m k /\ n <= 17 /\
  Spec.digits (m * 10 ^ Z.max k 0) (10 ^ Z.max (- k) 0) n /\
  forall t' m' k' n', stands_for t' m' k' -> Spec.digits (m' * 10 ^ Z.max k' 0) (10 ^ Z.max (- k') 0) n' -> parse_go (signed neg t') = Some (Finite neg b) ->
    n <= n' /\ (n = n' -> no_farther (m * 10 ^ Z.max k 0) (10 ^ Z.max (- k) 0) (m' * 10 ^ Z.max k' 0) (10 ^ Z.max (- k') 0) (proj1_sig b)).
Proof.
  intros neg b Hb. pose proof (sig_magnitude b) as Mb. destruct (shortest_short _ Mb Hb) as (n & N1 & N2 & N3). destruct (shortest_reads _ Mb Hb) as [_ S0]. cbn [short_go].
  replace (proj1_sig b =? 0) with false by (symmetry; apply Z.eqb_neq; lia). destruct (shortest (proj1_sig b)) as [s1 s2]. cbn [fst snd] in *. destruct (write_f_stands s1 s2 S0) as (m & k & S1 & _ & S3).
  exists (write_f s1 s2), m, k, n. split; [done|]. split; [done|]. split; [lia|]. split; [exists s1, (- s2); split; [lia|done]|].
  intros t' m' k' n' T1 (m1 & k1 & D1 & D2) T2. assert (Hm' : 0 <= m') by (by apply number_first in T1 as (? & ? & _ & _ & ?)).
  rewrite (stands_signed neg _ _ _ T1) in T2. destruct (read_decimal m' k') as [c|] eqn:Er; [|done]. cbn [mbind option_bind] in T2. unfold finite_of in T2. destruct (decide _); [|done]. injection T2 as <-. cbn [proj1_sig] in *.
  apply (proj1 (read_iff _ _ _ Hm')) in Er. destruct (N3 n' m1 k1 D1) as [L1 L2]. { eapply reads_between; [apply den_pos|apply den_pos|exact Er|]. right. right. exact D2. }
  split; [done|]. intros En. eapply (farther_cross _ _ _ _ _ _ _ _ c); [..|exact (L2 En)]; try apply den_pos; [exact S3|exact D2].
Qed.
Print Assumptions C186_shortest.

(** A time is written as the nearest thousandth, of two as near the even one. *)
Theorem C186_time : forall neg b, exists t n, three_go (Finite neg b) = signed neg t /\ stands_for t n (-3) /\ 0 <= n /\
  2 * Z.abs (1000 * units (proj1_sig b) - n * 2 ^ 1074) <= 2 ^ 1074 /\
  (2 * Z.abs (1000 * units (proj1_sig b) - n * 2 ^ 1074) = 2 ^ 1074 -> Z.even n = true).
Proof.
  intros neg b. pose proof (sig_magnitude b) as Mb. exists (write_f (thousandths (proj1_sig b)) 3), (thousandths (proj1_sig b)).
  assert (Hn : 0 <= thousandths (proj1_sig b)) by (by apply three_again). split; [done|]. split; [by apply (write_f_point _ 3)|]. split; [done|].
  rewrite thousandths_rounded by (destruct Mb; lia). by apply rounded_half.
Qed.
Print Assumptions C186_time.
(** And once it has three decimals it stays as it is, however often it is read and written. *)
Theorem C186_stable : forall f, finite go_marshal f = true -> exists f', parse_go (three_go f) = Some f' /\ three_go f' = three_go f.
Proof. exact three_stable. Qed.
Print Assumptions C186_stable.

(** What is read from any decimal is the nearest float64, with its sign; if it is out of range it is an error. *)
Theorem C186_parse : forall neg t m k, stands_for t m k ->
  let p := m * 10 ^ Z.max k 0 in let q := 10 ^ Z.max (- k) 0 in
  match parse_go (signed neg t) with
  | Some f => exists b, f = Finite neg b /\ nearest p q (proj1_sig b) /\ ~ out_of_range p q
  | None => out_of_range p q
  end.
Proof.
  intros neg t m k H p q. rewrite (stands_signed neg t m k H). assert (Hm : 0 <= m) by (by apply number_first in H as (? & ? & _ & _ & ?)).
  pose proof (read_decimal_ok m k Hm) as H1. pose proof (read_in_range m k Hm) as H2. fold p q in H1, H2.
  destruct (read_decimal m k) as [b|]; [|done]. cbn [mbind option_bind]. unfold finite_of. destruct (decide _) as [Hb|Hb].
  - eexists. split; [done|]. split; [done|]. intros H3. apply H2 in H3. done.
  - destruct Hb. apply bool_decide_pack. by destruct H1.
Qed.
Print Assumptions C186_parse.

(** So a result that is written is read as the same result: C62_round_trip_partial ... *)
Theorem C186_round_trip : forall (r : result go_marshal) j, clean_result go_marshal r -> marshal go_marshal (Some r) = Some j ->
  exists r', unmarshal go_marshal false j = Some (Some r') /\ same_result go_marshal r r' /\
    (unmarshal go_marshal true j = match r with RMatrix _ => Some (Some r') | _ => None end).
Proof. exact (C62_round_trip_partial go_marshal short_exact three_stable). Qed.
Print Assumptions C186_round_trip.
(** ... and what HTTP clients get for a query says what the node answered: C129_instant_json_partial and C129_range_json_partial. *)
Theorem C186_instant : forall F time W query opts tr r,
  (forall a, b_instant W (asked_instant (go_codec F time) query opts) (Done (Some a)) -> utf8_result go_marshal a) ->
  talks (answers (go_codec F time) go_marshal W) (promql (go_codec F time) go_marshal query opts) tr r ->
  (is_err r /\ lost tr) \/ exists out, b_instant W (asked_instant (go_codec F time) query opts) out /\
    match out with
    | Done (Some a) => match r with Ok x => exists a', x = Some a' /\ same_result go_marshal a a' | Err _ => ~ good_result go_marshal a end
    | _ => is_err r
    end.
Proof. intros F time W. exact (C129_instant_json_partial F time go_marshal W marshal_go_lib short_exact three_stable). Qed.
Print Assumptions C186_instant.
Theorem C186_range : forall F time W query opts tr r,
  (forall a, b_range W (asked_range (go_codec F time) query opts) (Done (Some a)) -> utf8_result go_marshal a) ->
  talks (answers (go_codec F time) go_marshal W) (promql_range (go_codec F time) go_marshal query opts) tr r ->
  (is_err r /\ lost tr) \/ exists out, b_range W (asked_range (go_codec F time) query opts) out /\
    match out with
    | Done (Some a) => match r with
                       | Ok x => exists a', x = Some a' /\ same_result go_marshal a a'
                       | Err _ => ~ good_result go_marshal a \/ forall m, a <> RMatrix m
                       end
    | _ => is_err r
    end.
Proof. intros F time W. exact (C129_range_json_partial F time go_marshal W marshal_go_lib short_exact three_stable). Qed.
Print Assumptions C186_range.

(** Met by: a time just below half a thousandth, one at the half, a tenth, the least float64, minus zero, NaN; the text of a result. *)
Definition fin (neg : bool) (b : Z) : go_float := default NotANumber (finite_of neg b).
Definition some_vector : query_result go_marshal :=
  Some (RVector (Some [Some (Sample (Some {[ "job" := "a" ]}) (Some (@Point go_marshal "1600000000.0005" (fin false 4591870180066957722))))])).
Example C186_case :
  (three_go <$> parse_go "1600000000.0005") = Some "1600000000.000" /\ (three_go <$> parse_go "0.0625") = Some "0.062" /\ (three_go <$> parse_go "-.0004") = Some "-0.000" /\
  (short_go <$> parse_go "+0.10") = Some "0.1" /\ (short_go <$> parse_go "1E21") = Some "1000000000000000000000" /\ (short_go <$> parse_go "-0") = Some "-0" /\
  (short_go <$> parse_go "-infinity") = Some "-Inf" /\ (short_go <$> parse_go "nan") = Some "NaN" /\
  parse_go "" = None /\ parse_go "." = None /\ parse_go "1e" = None /\ parse_go "1e400" = None /\ parse_go "12 " = None /\
  clean_result go_marshal (RVector (Some [Some (Sample (Some {[ "job" := "a" ]}) (Some (@Point go_marshal "1600000000.0005" (fin false 4591870180066957722))))])) /\
  (write <$> marshal go_marshal some_vector) =
    Some "{""status"":""success"",""data"":{""resultType"":""vector"",""result"":[{""metric"":{""job"":""a""},""value"":[1600000000.000,""0.1""]}]}}".
Proof.
  do 13 (split; [vm_compute; reflexivity|]). split; [|vm_compute; reflexivity].
  generalize (fin false 4591870180066957722). intros f. cbn [clean_result default]. intros s ->%elem_of_list_singleton. intros k v Hk. cbn in Hk. apply lookup_singleton_Some in Hk as [<- <-]. split; vm_compute; reflexivity.
Qed.
