(** C155, C156 and C126-C129 with the libraries of the client and the gateway written out: encoding/json, base64,
    jsonpb (Json/Text.v, Json/Pb.v, Json/Codec.v).  Vocabulary: Json/SpecStatus.v, Json/Spec.v (UTF-8, JSON numbers), Json/SpecPb.v
    (what can be sent), Http/Spec.v. *)
From Coq Require Import Ascii String.
From stdpp Require Import prelude strings gmap list.
From Verif.Base Require Import GoInt Envelope Str Url Dec.
From Verif.Routing Require Import Model.
From Verif.Gateway Require Import Model Spec.
From Verif.Marshaler Require Import Model Spec.
From Verif.Http Require Import Model Spec Semver Proofs Proofs2 Proofs3.
From Verif.Json Require Import Text Spec TextProofs ValueProofs Pb SpecPb PbProofs MessageProofs Codec CodecProofs SpecStatus StatusProofs.
From Verif.Props Require Import MarshalerProps GatewayProps HttpProps.
Open Scope string_scope.
Open Scope list_scope.
Open Scope Z_scope.

(** * C155: what is read over HTTP is what the node answered *)
(** Every field of every envelope arrives as it was: payloads of any bytes, 64-bit numbers, NaN and infinities. *)
Theorem C155_read : forall F time L W, exact_floats F -> (forall u, g_uptime W u -> int64 u) ->
  forall v source start opts tr r,
  version_text (g_version W) v -> since_2_0_0 v ->
  int64 start -> Forall option_in64 opts -> Forall known_types opts -> carried source ->
  (forall l, b_read W (asked source start opts) (Done l) -> Forall sendable l) ->
  talks (answers (go_codec F time) L W) (read (go_codec F time) source start opts) tr r ->
  (is_err r /\ lost tr) \/ exists out, b_read W (asked source start opts) out /\
    match out with Done l => r = Ok l | Failed _ _ => is_err r end.
Proof.
  intros F time L W HF HU v source start opts tr r Hv H2 Hs Ho Hk Hc Hl Ht.
  eapply (C126_gateway_partial (go_codec F time) L W (reads_two F time) HU (status_errors F time)); try done.
  intros l Hb. apply envelopes_back; [done|by apply Hl].
Qed.
Print Assumptions C155_read.
Theorem C155_meta : forall F time L W, (forall u, g_uptime W u -> int64 u) ->
  forall v tr r, version_text (g_version W) v -> since_2_0_0 v ->
  (forall m, b_meta W (MetaReq false) (Done m) -> sendable_meta m) ->
  talks (answers (go_codec F time) L W) (meta (go_codec F time)) tr r ->
  (is_err r /\ lost tr) \/ exists out, b_meta W (MetaReq false) out /\
    match out with Done m => r = Ok m | Failed _ _ => is_err r end.
Proof.
  intros F time L W HU v tr r Hv H2 Hm Ht.
  eapply (C126_gateway_meta_partial (go_codec F time) L W (reads_two F time) HU (status_errors F time)); try done.
  intros m Hb. by apply meta_back, Hm.
Qed.
Print Assumptions C155_meta.
(** The metadata is the same whichever way it was written: by the gateway, or by the proxy, which uses JSON's names
    and leaves out zeros; and whatever follows the document. *)
Theorem C155_meta_styles : forall st m rest, sendable_meta m -> ends rest ->
  read_meta_response (append (write_meta_response st m) rest) = Some m.
Proof. exact read_write_meta. Qed.
Print Assumptions C155_meta_styles.
(** Envelopes with either names of the fields. *)
Theorem C155_envelope_names : forall F orig l rest, exact_floats F -> Forall sendable l -> ends rest ->
  read_response F (append (write_response F (Style orig true) l) rest) = Some l.
Proof. exact read_write_response. Qed.
Print Assumptions C155_envelope_names.

(** Floats by their bits; an envelope with a payload that is not UTF-8, a gauge with a NaN and an infinity, a tag
    with a quote, an ampersand and an o with diaeresis; metadata; and the text of the first. *)
Definition bit_floats : floats := Floats format_uint parse_uint.
Lemma bit_exact : exact_floats bit_floats.
Proof. intros f Hf _ _ _. split; [by apply uint_number|]. by apply parse_format_uint. Qed.
Definition odd_log : envelope :=
  mk_env 1600000000000000007 "a" "" ∅ {[ "k" := String (ascii_of_nat 34) (String "&" (String (ascii_of_nat 195) (String (ascii_of_nat 182) ""))) ]}
    (MLog (String (ascii_of_nat 255) (String (ascii_of_nat 0) "x")) true).
Definition odd_gauge : envelope :=
  mk_env (-3) "a" "7" {[ "old" := "tag" ]} ∅ (MGauge {[ "n" := mk_gv "" nan; "i" := mk_gv "u" minus_inf; "one" := mk_gv "" 5 ]}).
Example C155_case : Forall sendable [odd_log; odd_gauge] /\
  write_response bit_floats gateway_style [odd_log] =
    "{""envelopes"":{""batch"":[{""timestamp"":""1600000000000000007"",""source_id"":""a"",""instance_id"":"""",""deprecated_tags"":{},""tags"":{""k"":""\""\u0026ö""},""log"":{""payload"":""/wB4"",""type"":""ERR""}}]}}" /\
  read_response bit_floats (write_response bit_floats gateway_style [odd_log; odd_gauge]) = Some [odd_log; odd_gauge] /\
  write_meta_response proxy_style {[ "a" := MetaInfo 3 0 (-1) 7 ]} = "{""meta"":{""a"":{""count"":""3"",""oldestTimestamp"":""-1"",""newestTimestamp"":""7""}}}".
Proof.
  assert (H : Forall sendable [odd_log; odd_gauge]).
  { assert (He : text_map ∅) by (intros k x Hk; by rewrite lookup_empty in Hk).
    assert (Ho : forall k x, utf8 k -> utf8 x -> text_map {[ k := x ]}).
    { intros k x H1 H2 k' x' Hk. by apply lookup_singleton_Some in Hk as [<- <-]. }
    constructor; [|constructor; [|constructor]]; unfold sendable, odd_log, odd_gauge;
      cbn [e_ts e_source e_instance e_deprecated_tags e_tags e_msg sendable_message].
    - split; [unfold int64; lia|]. split; [by apply utf8_iff|]. split; [by apply utf8_iff|]. split; [exact He|]. split; [|done].
      apply Ho; by apply utf8_iff.
    - split; [unfold int64; lia|]. split; [by apply utf8_iff|]. split; [by apply utf8_iff|]. split; [apply Ho; by apply utf8_iff|].
      split; [exact He|]. intros k g Hk. rewrite !lookup_insert_Some, lookup_singleton_Some in Hk.
      destruct Hk as [[<- <-]|[_ [[<- <-]|[_ [<- <-]]]]]; cbn [gv_unit gv_value]; (split; [by apply utf8_iff|]; split; [by apply utf8_iff|]);
        (split; [vm_compute; split; congruence|vm_compute; congruence]). }
  split; [exact H|]. split; [vm_compute; reflexivity|]. split; [|vm_compute; reflexivity].
  rewrite <-(append_nil (write_response _ _ _)). apply read_write_response; [apply bit_exact|exact H|done].
Qed.

Lemma known_member names l (k : string) (j : json) : known names l = true -> (k, j) ∈ l -> k ∈ names.
Proof.
  intros H Hk. unfold known in H. rewrite forallb_forall in H. apply elem_of_list_In in Hk. apply H in Hk. by apply bool_decide_eq_true in Hk.
Qed.
Lemma talks_answers {A} srv (c : talk A) tr a : talks srv c tr a -> forall req o, (req, o) ∈ tr -> srv req o.
Proof. induction 1 as [|r k o tr a Hr Ht IH]; intros req o' Hin; [by apply elem_of_nil in Hin|]. apply elem_of_cons in Hin as [[= -> ->]|Hin]; auto. Qed.
Lemma fails_on D (srv : request -> option response -> Prop) source start opts tr r body : (forall req o, srv req o -> req <> ("/api/v1/info", "") -> o = Some (200, body)) ->
  read_envelopes D body = None -> talks srv (read D source start opts) tr r -> is_err r.
Proof.
  intros Hsrv Hb Ht. pose proof (talks_answers _ _ _ _ Ht) as Hin. destruct (C126_read _ _ _ _ _ _ _ Ht) as [(o & _ & _ & He)|(resp & base & o & -> & Hbase & Hd)]; [done|].
  destruct r as [a|e]; [|by eexists]. exfalso. destruct Hd as [Hd _]. destruct (proj1 (Hd a) eq_refl) as (b & Ho & Hr).
  assert (o = Some (200, body)) as Ho'.
  { apply (Hsrv (http_read base source start opts)); [apply Hin; by right; left|].
    unfold http_read. intros [= E _]. destruct Hbase; discriminate E. }
  rewrite Ho' in Ho. injection Ho as <-. by rewrite Hb in Hr.
Qed.
(** * C156: clients read the answers of newer servers *)
(** False: an answer with one field the client does not know cannot be read, whatever else is in it ... *)
Theorem C156_unknown_refuted : forall F time body l k j, read_first body = Some (JObj l) -> (k, j) ∈ l -> k <> "envelopes" ->
  forall (srv : request -> option response -> Prop) source start opts tr r,
  (forall req o, srv req o -> req <> ("/api/v1/info", "") -> o = Some (200, body)) ->
  talks srv (read (go_codec F time) source start opts) tr r -> is_err r.
Proof.
  intros F time body l k j Hb Hk Hn srv source start opts tr r Hsrv Ht. eapply fails_on; [exact Hsrv| |exact Ht].
  cbn [read_envelopes go_codec]. unfold read_response. rewrite Hb. cbn. destruct (known ["envelopes"] l) eqn:E; [|done]. exfalso.
  apply (known_member _ _ _ _ E) in Hk. set_solver.
Qed.
Print Assumptions C156_unknown_refuted.
(** ... and also if it is a field of an envelope. *)
Definition envelope_names : list string :=
  ["timestamp"; "source_id"; "sourceId"; "instance_id"; "instanceId"; "deprecated_tags"; "deprecatedTags"; "tags"; "log"; "counter"; "gauge"; "timer"; "event"].
Theorem C156_unknown_inside_refuted : forall F time body js l k j,
  read_first body = Some (JObj [("envelopes", JObj [("batch", JArr js)])]) -> JObj l ∈ js -> (k, j) ∈ l -> k ∉ envelope_names ->
  forall (srv : request -> option response -> Prop) source start opts tr r,
  (forall req o, srv req o -> req <> ("/api/v1/info", "") -> o = Some (200, body)) ->
  talks srv (read (go_codec F time) source start opts) tr r -> is_err r.
Proof.
  intros F time body js l k j Hb Hl Hk Hn srv source start opts tr r Hsrv Ht. eapply fails_on; [exact Hsrv| |exact Ht].
  cbn [read_envelopes go_codec]. unfold read_response. rewrite Hb.
  change (mapM (dec_envelope F) js = None). apply mapM_None_2, Exists_exists. exists (JObj l). split; [done|].
  unfold dec_envelope, with_object. destruct (known _ l) eqn:E; [|done]. exfalso. apply (known_member _ _ _ _ E) in Hk. by apply Hn.
Qed.
Print Assumptions C156_unknown_inside_refuted.
(** Of the fields it knows it takes either name, and what follows the document is not looked at; C155_meta_styles
    is the same for Meta. *)
Theorem C156_known_partial : forall F time orig l rest, exact_floats F -> Forall sendable l -> ends rest ->
  forall (srv : request -> option response -> Prop) v source start opts tr r,
  (forall o, srv ("/api/v1/info", "") o -> exists resp, o = Some resp /\ says_version (go_codec F time) resp v) -> since_2_0_0 v ->
  (forall req o, srv req o -> req <> ("/api/v1/info", "") -> o = Some (200, append (write_response F (Style orig true) l) rest)) ->
  talks srv (read (go_codec F time) source start opts) tr r -> r = Ok l.
Proof.
  intros F time orig l rest HF Hl He srv v source start opts tr r Hi Hv Hsrv Ht. pose proof (talks_answers _ _ _ _ Ht) as Hin.
  destruct (C126_read _ _ _ _ _ _ _ Ht) as [(o & -> & Hno & _)|(resp & base & o & -> & Hbase & Hd)].
  - destruct (Hi o) as (resp & -> & Hs); [apply Hin; by left|]. exfalso. eapply Hno; [done|]. by eapply base_new.
  - assert (o = Some (200, append (write_response F (Style orig true) l) rest)) as ->.
    { apply (Hsrv (http_read base source start opts)); [apply Hin; by right; left|].
      unfold http_read. intros [= E _]. destruct Hbase; discriminate E. }
    apply (proj1 Hd). eexists. split; [done|]. by apply read_write_response.
Qed.
Print Assumptions C156_known_partial.
(** The document of C155_case with one more field, and a server that answers it. *)
Definition newer_text : string :=
  "{""envelopes"":{""batch"":[{""timestamp"":""5"",""sourceId"":""a"",""log"":{""payload"":""aGk=""},""priority"":3}]}}".
Definition known_text : string :=
  "{""envelopes"":{""batch"":[{""timestamp"":""5"",""sourceId"":""a"",""log"":{""payload"":""aGk=""}}]}}".
Definition info_text : string := "{""version"":""2.9.0"",""vm_uptime"":""5""}".
Definition answering (body : string) (req : request) (o : option response) : Prop :=
  o = Some (200, if bool_decide (req = ("/api/v1/info", "")) then info_text else body).
Example C156_case :
  read_response bit_floats known_text = Some [mk_env 5 "a" "" ∅ ∅ (MLog "hi" false)] /\ read_response bit_floats newer_text = None /\
  says_version (go_codec bit_floats format_int) (200, info_text) (Version 2 9 0 []) /\
  (exists tr, talks (answering known_text) (read (go_codec bit_floats format_int) "a" 0 []) tr (Ok [mk_env 5 "a" "" ∅ ∅ (MLog "hi" false)])) /\
  (exists tr e, talks (answering newer_text) (read (go_codec bit_floats format_int) "a" 0 []) tr (Err e)).
Proof.
  split; [vm_compute; reflexivity|]. split; [vm_compute; reflexivity|]. split.
  { exists "2.9.0". split; [done|]. split; [|by apply semver_iff]. eexists. split; [vm_compute; reflexivity|done]. }
  assert (Hq : forall body x, read_response bit_floats body = x -> exists tr r, talks (answering body) (read (go_codec bit_floats format_int) "a" 0 []) tr r /\
            match x with Some l => r = Ok l | None => is_err r end).
  { intros body x Hx. eexists. eexists. split.
    - eapply talks_get; [by unfold answering|]. rewrite bool_decide_true by done.
      replace (version_of (go_codec bit_floats format_int) (Some (200, info_text))) with (Ok (Version 2 9 0 [])) by (vm_compute; reflexivity).
      eapply talks_get; [by unfold answering|]. rewrite bool_decide_false by done. constructor.
    - cbn [read_envelopes go_codec]. cbn [on_200]. change (negb (200 =? 200)) with false. cbn iota. rewrite Hx. destruct x; [done|by eexists]. }
  split.
  - destruct (Hq known_text _ eq_refl) as (tr & r & Ht & Hr). vm_compute in Hr. subst r. by exists tr.
  - destruct (Hq newer_text _ eq_refl) as (tr & r & Ht & Hr). vm_compute in Hr. destruct Hr as [e ->]. by exists tr, e.
Qed.

(** * C126-C129 with these libraries: the hypotheses about JSON and status codes are gone *)
Theorem C127_uptime_json : forall F time L W, (forall u, g_uptime W u -> int64 u) ->
  forall tr r, plain (g_version W) -> talks (answers (go_codec F time) L W) (vm_uptime (go_codec F time)) tr r ->
  (is_err r /\ lost tr) \/ exists u, g_uptime W u /\ r = Ok u.
Proof. intros F time L W HU. apply C127_uptime; [apply reads_two|exact HU]. Qed.
Print Assumptions C127_uptime_json.
Theorem C128_instant_json : forall F time L W, go_lib L -> forall query opts tr r,
  talks (answers (go_codec F time) L W) (promql_raw (go_codec F time) "/api/v1/query" query opts) tr r ->
  (is_err r /\ lost tr) \/ exists out, b_instant W (asked_instant (go_codec F time) query opts) out /\ raw_verdict (go_codec F time) L out r.
Proof. intros F time L W HL. apply C128_instant; [by apply reads_all|apply status_errors]. Qed.
Print Assumptions C128_instant_json.
Theorem C128_range_json : forall F time L W, go_lib L -> forall query opts tr r,
  talks (answers (go_codec F time) L W) (promql_raw (go_codec F time) "/api/v1/query_range" query opts) tr r ->
  (is_err r /\ lost tr) \/ exists out, b_range W (asked_range (go_codec F time) query opts) out /\ raw_verdict (go_codec F time) L out r.
Proof. intros F time L W HL. apply C128_range; [by apply reads_all|apply status_errors]. Qed.
Print Assumptions C128_range_json.
(** Of a failing query the caller is told the reason exactly if its gRPC code is Unknown (2), InvalidArgument (3),
    FailedPrecondition (9), OutOfRange (11), Internal (13), DataLoss (15) or none of gRPC's; of the message what is
    UTF-8 in it. *)
Theorem C128_reason_json : forall F time L W code msg, go_lib L -> code <> 0 -> forall query opts tr r,
  b_instant W (asked_instant (go_codec F time) query opts) (Failed code msg) ->
  (forall out, b_instant W (asked_instant (go_codec F time) query opts) out -> out = Failed code msg) ->
  talks (answers (go_codec F time) L W) (promql_raw (go_codec F time) "/api/v1/query" query opts) tr r ->
  r = Err Unreachable \/
  if decide (code ∈ [1; 4; 5; 6; 7; 8; 10; 12; 14; 16]) then exists status, documented code status /\ r = Err (BadStatus status)
  else r = Ok (Raw "error" "" None "internal" (utf8_clean msg)).
Proof.
  intros F time L W code msg HL Hc query opts tr r _ Hout Ht.
  pose proof (C128_reason_partial (go_codec F time) L W code msg (reads_all L HL F time) (status_errors F time)) as Hp.
  destruct (decide _) as [Hi|Hi].
  - destruct (raw_talks _ _ _ _ _ _ _ Ht) as (o & -> & _ & Er).
    destruct (C128_instant_json F time L W HL query opts _ r Ht) as [[He [q Hlost]]|(out & Hb & Hv)].
    + left. apply elem_of_list_singleton in Hlost as [= _ <-]. by rewrite Er.
    + rewrite (Hout _ Hb) in Hv. cbn in Hv. destruct Hv as [_ Hv]. right. unfold told in Hv.
      rewrite !elem_of_cons, elem_of_nil in Hi.
      destruct Hi as [->|[->|[->|[->|[->|[->|[->|[->|[->|[->|[]]]]]]]]]]]; (rewrite decide_False in Hv by (cbn; lia)); cbn in Hv; eexists; (split; [|exact Hv]); by apply status_documented.
  - assert (Hs : http_status (go_codec F time) code = 400 \/ http_status (go_codec F time) code = 500).
    { cbn. unfold status_of. rewrite !elem_of_cons, elem_of_nil in Hi.
      repeat (match goal with |- context [if ?b then _ else _] => destruct b eqn:?; [first [by auto|lia]|] end). by right. }
    destruct (Hp Hs query opts tr r Hout Ht) as [-> | ->]; [by left|]. right. by rewrite (proj1 HL).
Qed.
Print Assumptions C128_reason_json.
(** Labels are UTF-8, as in what protobuf carries *)
Definition utf8_labels (m : option (gmap string string)) : Prop := forall k x, default ∅ m !! k = Some x -> utf8 k /\ utf8 x.
Definition utf8_result (L : lib) (a : result L) : Prop :=
  match a with
  | RScalar _ => True
  | RVector v => forall s, s ∈ default [] v -> utf8_labels (s ≫= s_metric)
  | RMatrix m => forall s, s ∈ default [] m -> utf8_labels (s ≫= r_metric)
  end.
Lemma utf8_clean_result L a : go_lib L -> utf8_result L a -> clean_result L a.
Proof.
  intros HL. assert (H : forall m, utf8_labels m -> clean_map L m).
  { intros m Hm k x Hk. destruct (Hm k x Hk) as [H1 H2]. rewrite !(proj1 HL). split; by apply utf8_iff. }
  destruct a; cbn; auto.
Qed.
Theorem C129_instant_json_partial : forall F time L W, go_lib L -> exact_short L -> stable3 L ->
  forall query opts tr r,
  (forall a, b_instant W (asked_instant (go_codec F time) query opts) (Done (Some a)) -> utf8_result L a) ->
  talks (answers (go_codec F time) L W) (promql (go_codec F time) L query opts) tr r ->
  (is_err r /\ lost tr) \/ exists out, b_instant W (asked_instant (go_codec F time) query opts) out /\
    match out with
    | Done (Some a) => match r with Ok x => exists a', x = Some a' /\ same_result L a a' | Err _ => ~ good_result L a end
    | _ => is_err r
    end.
Proof.
  intros F time L W HL Hs H3 query opts tr r Hu. apply C129_instant_answer_partial; try done; [by apply reads_all|apply status_errors|].
  intros a Ha. apply utf8_clean_result; [done|]. by apply Hu.
Qed.
Print Assumptions C129_instant_json_partial.
Theorem C129_range_json_partial : forall F time L W, go_lib L -> exact_short L -> stable3 L ->
  forall query opts tr r,
  (forall a, b_range W (asked_range (go_codec F time) query opts) (Done (Some a)) -> utf8_result L a) ->
  talks (answers (go_codec F time) L W) (promql_range (go_codec F time) L query opts) tr r ->
  (is_err r /\ lost tr) \/ exists out, b_range W (asked_range (go_codec F time) query opts) out /\
    match out with
    | Done (Some a) => match r with
                       | Ok x => exists a', x = Some a' /\ same_result L a a'
                       | Err _ => ~ good_result L a \/ forall m, a <> RMatrix m
                       end
    | _ => is_err r
    end.
Proof.
  intros F time L W HL Hs H3 query opts tr r Hu. apply C129_range_answer_partial; try done; [by apply reads_all|apply status_errors|].
  intros a Ha. apply utf8_clean_result; [done|]. by apply Hu.
Qed.
Print Assumptions C129_range_json_partial.
(** Such a library, with the numbers zero and one; and the text of a result, read back. *)
Definition two_lib : lib := Lib bool (fun s => if bool_decide (s ∈ ["0"; "0.000"]) then Some false else if bool_decide (s ∈ ["1"; "1.000"]) then Some true else None)
  (fun _ => true) (fun b => if b then "1.000" else "0.000") (fun b => if b then "1" else "0") utf8_clean.
Definition two_result : query_result two_lib :=
  Some (RVector (Some [Some (Sample (Some {[ "job" := "a\""b" ]}) (Some (@Point two_lib "1" false)))])).
Example C129_json_case : go_lib two_lib /\ exact_short two_lib /\ stable3 two_lib /\
  (exists j, marshal two_lib two_result = Some j /\
    write j = "{""status"":""success"",""data"":{""resultType"":""vector"",""result"":[{""metric"":{""job"":""a\\\""b""},""value"":[1.000,""0""]}]}}" /\
    read_first (write j) = Some j).
Proof.
  split; [|split; [|split]].
  - split; [done|]. split; intros [] *; try (intros _; by apply number_iff); by apply utf8_iff.
  - intros []; vm_compute; reflexivity.
  - intros [] _; eexists; (split; [vm_compute; reflexivity|vm_compute; reflexivity]).
  - eexists. split; [vm_compute; reflexivity|]. split; vm_compute; reflexivity.
Qed.
