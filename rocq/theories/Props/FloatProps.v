(** C185: the text of a number over HTTP.  Vocabulary: Float/Spec.v (which number a float64 is), Auth/SpecDocs.v (stands_for: which number a
    text is), Json/Spec.v (number_text), Json/SpecPb.v (exact_floats), Http/Spec.v. *)
From Coq Require Import Ascii String.
From stdpp Require Import prelude strings gmap list.
From Verif.Base Require Import GoInt Envelope Str Url Dec.
From Verif.Routing Require Import Model.
From Verif.Gateway Require Import Model Spec.
From Verif.Marshaler Require Import Model Spec.
From Verif.Http Require Import Model Spec Semver.
From Verif.Json Require Import Text Spec Pb SpecPb Codec Shape SpecShape.
From Verif.Auth Require Import SpecDocs DocsMore.
From Verif.Float Require Import Model Spec Proofs Nearest Short.
From Verif.Props Require Import JsonProps ShapeProps.
Local Open Scope string_scope.
Local Open Scope Z_scope.

(** ** C185 *)
(** Every finite float64 is written as a number of JSON, and what is read from it is that float64, to the bit. *)
Theorem C185_back : forall f, 0 <= f < 2^64 -> is_nan f = false -> f <> inf -> f <> minus_inf ->
  number_text (write_go f) /\ read_go (write_go f) = Some f.
Proof. exact go_exact. Qed.
Print Assumptions C185_back.

(** What is read from any decimal is the float64 nearest to it, of two as near the even one; and nothing is read exactly if the number is
    half a step or more above the greatest float64. *)
Theorem C185_nearest : forall t m k, stands_for t m k ->
  let p := m * 10 ^ Z.max k 0 in let q := 10 ^ Z.max (- k) 0 in
  match read_go t with Some b => nearest p q b /\ ~ out_of_range p q | None => out_of_range p q end.
Proof.
  intros t m k H p q. rewrite (read_unsigned t m k H). assert (Hm : 0 <= m) by (by apply number_first in H as (? & ? & _ & _ & ?)).
  pose proof (read_decimal_ok m k Hm) as H1. pose proof (read_in_range m k Hm) as H2. fold p q in H1, H2.
  destruct (read_decimal m k) as [b|]; [|done]. split; [done|]. intros H3. apply H2 in H3. done.
Qed.
Print Assumptions C185_nearest.
(** and with a minus, the same with the sign *)
Theorem C185_negative : forall t m k, stands_for t m k -> read_go (String "-" t) = (fun b => 2^63 + b) <$> read_go t.
Proof. intros t m k H. rewrite (read_unsigned t m k H), (read_signed t m k H). by destruct (read_decimal m k). Qed.
Print Assumptions C185_negative.

(** The text has as few digits as one that is read as this float64 can have, never more than 17; and no other text with as few digits that is
    read as this float64 is nearer to it. *)
Theorem C185_shortest : forall b, magnitude b -> 0 < b -> exists m k n, stands_for (write_go b) m k /\ n <= 17 /\
  digits (m * 10 ^ Z.max k 0) (10 ^ Z.max (- k) 0) n /\
  forall t m' k' n', stands_for t m' k' -> digits (m' * 10 ^ Z.max k' 0) (10 ^ Z.max (- k') 0) n' -> read_go t = Some b ->
    n <= n' /\ (n = n' -> no_farther (m * 10 ^ Z.max k 0) (10 ^ Z.max (- k) 0) (m' * 10 ^ Z.max k' 0) (10 ^ Z.max (- k') 0) b).
Proof. exact write_short. Qed.
Print Assumptions C185_shortest.
(** and with the sign, the same with a minus *)
Theorem C185_sign : forall b, magnitude b -> write_go (2^63 + b) = String "-" (write_go b).
Proof. exact write_sign. Qed.
Print Assumptions C185_sign.

(** So what a client reads over HTTP is what the node answered: C155 without an assumption about strconv ... *)
Theorem C185_http : forall time L W, (forall u, g_uptime W u -> int64 u) ->
  forall v source start opts tr r,
  version_text (g_version W) v -> since_2_0_0 v ->
  int64 start -> Forall option_in64 opts -> Forall known_types opts -> carried source ->
  (forall l, b_read W (asked source start opts) (Done l) -> Forall sendable l) ->
  talks (answers (go_codec go_floats time) L W) (read (go_codec go_floats time) source start opts) tr r ->
  (is_err r /\ lost tr) \/ exists out, b_read W (asked source start opts) out /\
    match out with Done l => r = Ok l | Failed _ _ => is_err r end.
Proof. intros time L W HU v source start opts tr r. apply (C155_read go_floats time L W go_exact HU). Qed.
Print Assumptions C185_http.
(** ... and every answer is a document of the documented shape: C160 likewise. *)
Theorem C185_shape : forall time L W r body,
  (forall q l, b_read W q (Done l) -> Forall sendable l) ->
  (forall a, serves (g_lib W) r.1 r.2 a -> exists q, a = AskRead q) ->
  answers (go_codec go_floats time) L W r (Some (200, body)) ->
  exists q l batch, serves (g_lib W) r.1 r.2 (AskRead q) /\ b_read W q (Done l) /\
    read_whole body = Some (JObj [("envelopes", JObj [("batch", JArr batch)])]) /\ Forall2 (envelope_shape go_floats) l batch.
Proof. intros time L W r body. apply (C160_read go_floats time L W r body go_exact). Qed.
Print Assumptions C185_shape.

(** Met by: a tenth, the least and the greatest float64, minus zero, the limits of the two notations, a half that is rounded to even, and
    numbers out of range. *)
Definition plain_gauge : envelope := mk_env 7 "a" "0" ∅ ∅ (MGauge {[ "cpu" := mk_gv "percentage" 4591870180066957722 ]}).
Example C185_case :
  write_go 4591870180066957722 = "0.1" /\ write_go 1 = "5e-324" /\ write_go (inf - 1) = "1.7976931348623157e+308" /\
  write_go (2^63) = "-0" /\ write_go 4517329193108106637 = "0.000001" /\ write_go 4517329193108106636 = "9.999999999999997e-7" /\
  write_go 4921056587992461136 = "1e+21" /\ write_go 4599075939470750516 = "0.30000000000000004" /\
  read_go "9007199254740993" = read_go "9007199254740992" /\ read_go "9007199254740995" = read_go "9007199254740996" /\
  read_go "1e309" = None /\ read_go "-1.7976931348623158e308" = Some (2^63 + inf - 1) /\
  write_response go_floats gateway_style [plain_gauge] =
    "{""envelopes"":{""batch"":[{""timestamp"":""7"",""source_id"":""a"",""instance_id"":""0"",""deprecated_tags"":{},""tags"":{},""gauge"":{""metrics"":{""cpu"":{""unit"":""percentage"",""value"":0.1}}}}]}}".
Proof. vm_compute. repeat split. Qed.
