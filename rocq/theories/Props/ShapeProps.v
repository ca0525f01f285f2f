(** C160: any program can read the envelopes.  C161: the list of sources has the documented shape.
    Vocabulary: Json/SpecShape.v (the documented JSON), Json/SpecBase64.v (RFC 4648), Json/SpecPb.v. *)
From Coq Require Import Ascii String.
From stdpp Require Import prelude strings gmap list.
From Verif.Base Require Import Envelope Str Url Dec.
From Verif.Routing Require Import Model.
From Verif.Gateway Require Import Model Spec.
From Verif.Marshaler Require Import Model Spec.
From Verif.Http Require Import Model Spec.
From Verif.Json Require Import Text Spec TextProofs Pb SpecPb SpecBase64 Base64 SpecShape Shape Codec.
From Verif.Props Require Import MarshalerProps GatewayProps HttpProps JsonProps.
Open Scope string_scope.
Open Scope list_scope.
Open Scope Z_scope.

(** * C160 *)
(** Every answer with status 200 to a read is a JSON document of the documented shape, with one object of the
    documented shape per envelope which the node answered, in the node's order. *)
Theorem C160_read : forall F time L W r body, exact_floats F ->
  (forall q l, b_read W q (Done l) -> Forall sendable l) ->
  (forall a, serves (g_lib W) r.1 r.2 a -> exists q, a = AskRead q) ->
  answers (go_codec F time) L W r (Some (200, body)) ->
  exists q l batch, serves (g_lib W) r.1 r.2 (AskRead q) /\ b_read W q (Done l) /\
    read_whole body = Some (JObj [("envelopes", JObj [("batch", JArr batch)])]) /\ Forall2 (envelope_shape F) l batch.
Proof.
  intros F time L W r body HF Hl Hr H. inversion H as [| | | | |q l Hs Hb|q code msg resp Hs Hb Hc He| | | | | | | |]; subst;
    try match goal with Hs : serves _ _ _ _ |- _ => destruct (Hr _ Hs) as [? ?]; discriminate end.
  - destruct (shape_read F l HF (Hl _ _ Hb)) as (batch & Hw & Hb2). by exists q, l, batch.
  - destruct He as [He _]. cbn in He. by apply (CodecProofs.status_errors F time) in Hc.
Qed.
Print Assumptions C160_read.
(** A payload is in the text as RFC 4648 has it. *)
Theorem C160_base64 : forall s, base64_text s (encode64 s).
Proof. exact encode64_rfc. Qed.
Print Assumptions C160_base64.
(** which is one text only *)
Theorem C160_base64_one : forall s t t', base64_text s t -> base64_text s t' -> t = t'.
Proof. exact base64_one. Qed.
Print Assumptions C160_base64_one.
(** Met by: a log with a payload that is no text, a gauge that is no number. *)
Example C160_case : exact_floats bit_floats /\ Forall sendable [odd_log; odd_gauge] /\
  exists batch, read_whole (write_response bit_floats gateway_style [odd_log; odd_gauge]) = Some (JObj [("envelopes", JObj [("batch", JArr batch)])]) /\
  Forall2 (envelope_shape bit_floats) [odd_log; odd_gauge] batch.
Proof.
  split; [apply bit_exact|].
  pose proof (proj1 C155_case) as H.
  split; [exact H|]. by apply shape_read; [apply bit_exact|].
Qed.
(** * C161 *)
(** The gateway's own list of sources has other names than the documented ones and writes zeros. *)
Theorem C161_gateway_refuted : exists m, sendable_meta m /\ m <> ∅ /\
  ~ exists rows, read_whole (write_meta_response gateway_style m) = Some (JObj [("meta", rows)]) /\ mapped info_shape m rows.
Proof.
  exists {[ "a" := MetaInfo 3 0 (-1) 7 ]}. split.
  { intros k i Hi. apply lookup_singleton_Some in Hi as [<- <-]. split; [by apply utf8_iff|]. unfold int64. cbn. lia. }
  split; [done|]. intros (rows & Hr & (l & -> & _ & _ & Hl)).
  assert (E : read_whole (write_meta_response gateway_style {[ "a" := MetaInfo 3 0 (-1) 7 ]}) =
    Some (JObj [("meta", JObj [("a", JObj [("count", JStr "3"); ("expired", JStr "0"); ("oldest_timestamp", JStr "-1"); ("newest_timestamp", JStr "7")])])]))
    by (vm_compute; reflexivity).
  rewrite E in Hr. injection Hr as <-. destruct (Hl "a" _ ltac:(by left)) as (i & Hi & _ & _ & Ho & _).
  apply lookup_singleton_Some in Hi as [_ <-]. destruct Ho as [[? _]|(_ & v & (l & [= <-] & _ & Hin) & _)]; [done|].
  rewrite !elem_of_cons, elem_of_nil in Hin. naive_solver.
Qed.
Print Assumptions C161_gateway_refuted.
(** Through the proxy the list is as documented, a number that is zero being left out; if there is no source,
    "meta" is left out too. *)
Theorem C161_proxy_partial : forall m, sendable_meta m ->
  (m = ∅ /\ read_whole (write_meta_response proxy_style m) = Some (JObj [])) \/
  (m <> ∅ /\ exists rows, read_whole (write_meta_response proxy_style m) = Some (JObj [("meta", rows)]) /\ mapped info_shape m rows).
Proof. exact shape_meta. Qed.
Print Assumptions C161_proxy_partial.
(** From the gateway directly: names with underscores, all numbers written. *)
Theorem C161_gateway_partial : forall m, sendable_meta m -> exists rows,
  read_whole (write_meta_response gateway_style m) = Some (JObj [("meta", rows)]) /\ mapped info_shape' m rows.
Proof. exact shape_meta'. Qed.
Print Assumptions C161_gateway_partial.
