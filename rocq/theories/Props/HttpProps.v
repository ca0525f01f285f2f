(** C126-C129: the client library over HTTP.  Vocabulary: Http/Spec.v (semantic versions, the info page,
    what a caller asks for and is told) and Gateway/Spec.v (asked, carried). *)
From Coq Require Import Ascii String.
From stdpp Require Import prelude strings gmap list.
From Verif.Base Require Import GoInt Envelope Str Url Dec.
From Verif.Routing Require Import Model.
From Verif.Gateway Require Import Model Spec.
From Verif.Marshaler Require Import Model Spec.
From Verif.Http Require Import Model Spec Semver Proofs Proofs2 Proofs3 Witness.
From Verif.Props Require Import MarshalerProps GatewayProps.
Open Scope string_scope.
Open Scope list_scope.
Open Scope Z_scope.

(** * C126: the client finds the API *)
(** Whatever the server answers: Read asks for the info page first; then for the envelopes, under the path
    of the API of the server's version, or gives up when the info page does not tell; and it returns
    envelopes only if they are in a 200. *)
Theorem C126_read : forall D srv source start opts tr r, talks srv (read D source start opts) tr r ->
  (exists o, tr = [(("/api/v1/info", ""), o)] /\ (forall resp base, o = Some resp -> ~ api_base D resp base) /\ is_err r) \/
  (exists resp base o, tr = [(("/api/v1/info", ""), Some resp); (http_read base source start opts, o)] /\
     api_base D resp base /\ delivered (read_envelopes D) o r).
Proof. intros D srv source start opts tr r H. exact (with_base_asks D srv _ _ tr r H). Qed.
Print Assumptions C126_read.
Theorem C126_meta : forall D srv tr r, talks srv (meta D) tr r ->
  (exists o, tr = [(("/api/v1/info", ""), o)] /\ (forall resp base, o = Some resp -> ~ api_base D resp base) /\ is_err r) \/
  (exists resp base o, tr = [(("/api/v1/info", ""), Some resp); ((append base "/meta", ""), o)] /\
     api_base D resp base /\ delivered (read_meta D) o r).
Proof. intros D srv tr r H. exact (with_base_asks D srv _ _ tr r H). Qed.
Print Assumptions C126_meta.

(** Of a gateway that was built without a version nothing can be read: every Read fails after the info
    page.  (cmd/gateway's version is empty unless the linker sets it.) *)
Theorem C126_unversioned_refuted : forall D L W, reads_info D -> (forall u, g_uptime W u -> - 2^63 <= u < 2^63) ->
  g_version W = "" -> forall source start opts tr r,
  talks (answers D L W) (read D source start opts) tr r -> is_err r /\ length tr = 1%nat.
Proof.
  intros D L W HI HU Hv source start opts tr r. apply unversioned_fails; [done|done|..]; rewrite Hv.
  - by intros [] ? ?.
  - intros v H. apply semver_iff in H. done.
Qed.
Print Assumptions C126_unversioned_refuted.
(** Of a gateway whose version is a prerelease of 2.0.0 neither: the client asks under the old path. *)
Theorem C126_prerelease_refuted : forall D L W, reads_info D -> (forall u, g_uptime W u -> - 2^63 <= u < 2^63) ->
  g_version W = "2.0.0-rc.1" -> forall start opts tr r,
  talks (answers D L W) (read D "a" start opts) tr r -> is_err r.
Proof.
  intros D L W HI HU Hv start opts tr r. assert (Ht : version_text "2.0.0-rc.1" (Version 2 0 0 ["rc"; "1"])) by (by apply semver_iff).
  rewrite <-Hv in Ht. apply (old_path_fails D L W HI HU (Version 2 0 0 ["rc"; "1"])); [done|].
  unfold since_2_0_0. cbn. naive_solver lia.
Qed.
Print Assumptions C126_prerelease_refuted.
(** Through a gateway of version 2.0.0 or later, Read returns what the backend answers to the request the
    caller asked for, and an error if the backend fails or an exchange does.  Missing: other versions, and
    what C47 excludes. *)
Theorem C126_gateway_partial : forall D L W, reads_info D -> (forall u, g_uptime W u -> - 2^63 <= u < 2^63) -> errors_not_200 D ->
  forall v source start opts tr r,
  version_text (g_version W) v -> since_2_0_0 v ->
  - 2^63 <= start < 2^63 -> Forall option_in64 opts -> Forall known_types opts -> carried source ->
  (forall l, b_read W (asked source start opts) (Done l) -> read_envelopes D (write_envelopes D l) = Some l) ->
  talks (answers D L W) (read D source start opts) tr r ->
  (is_err r /\ lost tr) \/ exists out, b_read W (asked source start opts) out /\
    match out with Done l => r = Ok l | Failed _ _ => is_err r end.
Proof. exact read_through. Qed.
Print Assumptions C126_gateway_partial.
(** The same for Meta. *)
Theorem C126_gateway_meta_partial : forall D L W, reads_info D -> (forall u, g_uptime W u -> - 2^63 <= u < 2^63) -> errors_not_200 D ->
  forall v tr r, version_text (g_version W) v -> since_2_0_0 v ->
  (forall m, b_meta W (MetaReq false) (Done m) -> read_meta D (write_meta D m) = Some m) ->
  talks (answers D L W) (meta D) tr r ->
  (is_err r /\ lost tr) \/ exists out, b_meta W (MetaReq false) out /\
    match out with Done m => r = Ok m | Failed _ _ => is_err r end.
Proof. exact meta_through. Qed.
Print Assumptions C126_gateway_meta_partial.

(** An envelope, a version with everything in it, a gateway, and a Read that returns the envelope. *)
Definition one_envelope : envelope := mk_env 5 "a" "0" ∅ ∅ (MLog "hi" false).
Definition some_version : string := "2.11.4-beta.7.x-y+build.007".
Definition some_gateway (version : string) : gateway example_lib :=
  Gateway example_lib (gw true true) version (fun u => u = 77)
    (fun r out => r = asked "a" 0 [WithLimit 3] /\ out = Done [one_envelope])
    (fun _ out => out = Failed 14 "no node")
    (fun r out => r = Instant "up" "5" /\ out = Done (Some (RScalar (Some (@Point example_lib "IIIII" 3%nat)))))
    (fun _ out => out = Failed 2 "bad step").
Definition some_codec : codec := toy_codec [one_envelope] ∅.
Lemma some_info version : answers some_codec example_lib (some_gateway version) info_request (Some (200, info_doc version 77)).
Proof. apply (an_info some_codec example_lib (some_gateway version) info_request 77); [|done]. eexists. split; [reflexivity|]. done. Qed.
Example C126_case : version_text some_version (Version 2 11 4 ["beta"; "7"; "x-y"]) /\
  since_2_0_0 (Version 2 11 4 ["beta"; "7"; "x-y"]) /\
  reads_info some_codec /\ errors_not_200 some_codec /\ carried "a" /\
  (exists tr, talks (answers some_codec example_lib (some_gateway some_version)) (read some_codec "a" 0 [WithLimit 3]) tr (Ok [one_envelope])) /\
  (exists tr, talks (answers some_codec example_lib (some_gateway "")) (read some_codec "a" 0 [WithLimit 3]) tr (Err BadVersion)).
Proof.
  split; [by apply semver_iff|]. split; [unfold since_2_0_0; cbn; lia|]. split; [apply toy_reads_info|]. split; [apply toy_errors|].
  assert (Hc : carried "a").
  { constructor; try done; intros [|? []] b [=]. }
  split; [exact Hc|]. split.
  - eexists. eapply talks_get; [apply some_info|].
    replace (version_of some_codec (Some (200, info_doc some_version 77))) with (Ok (Version 2 11 4 ["beta"; "7"; "x-y"]))
      by (vm_compute; reflexivity).
    eapply talks_get.
    + eapply (an_read some_codec example_lib (some_gateway some_version) _ (asked "a" 0 [WithLimit 3]) [one_envelope]); [|by split].
      destruct (C47_options_partial (gw true true) "a" 0 [WithLimit 3] _ _ ltac:(lia) ltac:(repeat constructor; cbn; lia) ltac:(repeat constructor) Hc eq_refl) as [_ E].
      by apply E.
    + cbn. apply talks_ret.
  - eexists. eapply talks_get; [apply some_info|].
    replace (version_of some_codec (Some (200, info_doc "" 77))) with (@Err version BadVersion) by (vm_compute; reflexivity). constructor.
Qed.

(** * C127: the uptime is the gateway's *)
Theorem C127_uptime : forall D L W, reads_info D -> (forall u, g_uptime W u -> - 2^63 <= u < 2^63) ->
  forall tr r, plain (g_version W) -> talks (answers D L W) (vm_uptime D) tr r ->
  (is_err r /\ lost tr) \/ exists u, g_uptime W u /\ r = Ok u.
Proof. exact uptime_through. Qed.
Print Assumptions C127_uptime.
(** Whatever the server: a number is returned exactly if the info page says it, in a 200. *)
Theorem C127_any_server : forall D srv tr r, talks srv (vm_uptime D) tr r ->
  exists o, tr = [(("/api/v1/info", ""), o)] /\ srv ("/api/v1/info", "") o /\
  forall u, r = Ok u <-> exists body s, o = Some (200, body) /\ doc_says D body "vm_uptime" s /\ signed_numeral s u /\ - 2^63 <= u < 2^63.
Proof. exact uptime_talks. Qed.
Print Assumptions C127_any_server.
Example C127_case : reads_info some_codec /\ plain some_version /\
  exists tr, talks (answers some_codec example_lib (some_gateway some_version)) (vm_uptime some_codec) tr (Ok 77).
Proof.
  split; [apply toy_reads_info|]. split; [eapply version_plain, semver_iff; reflexivity|].
  eexists. eapply talks_get; [apply some_info|].
  match goal with |- talks _ (Ret ?x) _ _ => replace x with (@Ok Z 77) by (vm_compute; reflexivity) end. constructor.
Qed.

(** * C128: failing queries are reported as failing, with the reason *)
(** A query is reported as successful only if the backend answered it and the answer could be written, and
    what is shown is that answer; everything else is an error or a report of one. *)
Theorem C128_instant : forall D L W, reads_results D L -> errors_not_200 D -> forall query opts tr r,
  talks (answers D L W) (promql_raw D "/api/v1/query" query opts) tr r ->
  (is_err r /\ lost tr) \/ exists out, b_instant W (asked_instant D query opts) out /\ raw_verdict D L out r.
Proof. exact raw_instant_through. Qed.
Print Assumptions C128_instant.
Theorem C128_range : forall D L W, reads_results D L -> errors_not_200 D -> forall query opts tr r,
  talks (answers D L W) (promql_raw D "/api/v1/query_range" query opts) tr r ->
  (is_err r /\ lost tr) \/ exists out, b_range W (asked_range D query opts) out /\ raw_verdict D L out r.
Proof. exact raw_range_through. Qed.
Print Assumptions C128_range.
(** The reason is lost unless its code is one of those that become 400 or 500: of a node that cannot be
    reached (Unavailable, 503) the caller is not told the backend's message. *)
Theorem C128_reason_refuted : forall D L W msg, reads_results D L -> errors_not_200 D -> http_status D 14 = 503 ->
  forall query opts tr r, (forall out, b_instant W (asked_instant D query opts) out -> out = Failed 14 msg) ->
  talks (answers D L W) (promql_raw D "/api/v1/query" query opts) tr r -> r = Err Unreachable \/ r = Err (BadStatus 503).
Proof.
  intros D L W msg HR HS H5 query opts tr r Hb Ht.
  destruct (raw_talks D _ _ _ _ _ _ Ht) as (o & -> & _ & ->).
  destruct (raw_instant_through D L W HR HS query opts _ _ Ht) as [[_ [q Hl]]|(out & Ho & Hv)].
  - apply elem_of_list_singleton in Hl as [= _ <-]. by left.
  - apply Hb in Ho as ->. destruct Hv as [_ Hv]. unfold told in Hv. rewrite H5 in Hv. rewrite decide_False in Hv by lia. by right.
Qed.
Print Assumptions C128_reason_refuted.
(** With a code that becomes 400 or 500 (an error of the query engine has the code Unknown, 500) the caller
    is told the backend's message, invalid UTF-8 being replaced. *)
Theorem C128_reason_partial : forall D L W code msg, reads_results D L -> errors_not_200 D ->
  http_status D code = 400 \/ http_status D code = 500 ->
  forall query opts tr r, (forall out, b_instant W (asked_instant D query opts) out -> out = Failed code msg) ->
  talks (answers D L W) (promql_raw D "/api/v1/query" query opts) tr r ->
  r = Err Unreachable \/ r = Ok (Raw "error" "" None "internal" (clean L msg)).
Proof.
  intros D L W code msg HR HS H5 query opts tr r Hb Ht.
  destruct (raw_talks D _ _ _ _ _ _ Ht) as (o & -> & _ & ->).
  destruct (raw_instant_through D L W HR HS query opts _ _ Ht) as [[_ [q Hl]]|(out & Ho & Hv)].
  - apply elem_of_list_singleton in Hl as [= _ <-]. by left.
  - apply Hb in Ho as ->. destruct Hv as [_ Hv]. unfold told in Hv. rewrite decide_True in Hv by done.
    destruct Hv as (q & -> & Hq). right. by f_equal.
Qed.
Print Assumptions C128_reason_partial.
Example C128_case : reads_results some_codec example_lib /\ errors_not_200 some_codec /\
  http_status some_codec 14 = 503 /\ http_status some_codec 2 = 500 /\
  (exists tr, talks (answers some_codec example_lib (some_gateway "")) (promql_raw some_codec "/api/v1/query" "up" [PTime 5]) tr
     (Ok (Raw "success" "scalar" (Some (JArr [JNum "IIII"; JStr "III"])) "" ""))) /\
  (exists tr, talks (answers some_codec example_lib (some_gateway "")) (promql_raw some_codec "/api/v1/query_range" "up" [PStep "0"]) tr
     (Ok (Raw "error" "" None "internal" "bad step"))).
Proof.
  split; [apply toy_reads_results|]. split; [apply toy_errors|]. split; [done|]. split; [done|]. split.
  - eexists. eapply talks_get.
    + eapply (an_instant some_codec example_lib (some_gateway "") _ (Instant "up" "5")); [by apply instant_serves|by split|reflexivity].
    + match goal with |- talks _ (Ret ?x) _ _ => replace x with (Ok (Raw "success" "scalar" (Some (JArr [JNum "IIII"; JStr "III"])) "" ""))
        by (vm_compute; reflexivity) end. constructor.
  - eexists. eapply talks_get.
    + eapply (an_range_failed some_codec example_lib (some_gateway "") _ _ 2 "bad step" (500, _)); [by apply range_serves|done|done|].
      split; [done|]. by intros _.
    + match goal with |- talks _ (Ret ?x) _ _ => replace x with (Ok (Raw "error" "" None "internal" "bad step"))
        by (vm_compute; reflexivity) end. constructor.
Qed.

(** * C129: a query means and yields the same over gRPC and over HTTP *)
(** The request that reaches the backend is the same, whatever the options, in whatever order. *)
Theorem C129_instant_request : forall D G query opts,
  grpc_instant D query opts = asked_instant D query opts /\
  forall o, serves G "/api/v1/query" (http_query D "/api/v1/query" query opts).2 o <-> o = AskInstant (asked_instant D query opts).
Proof. intros D G query opts. split; [apply grpc_instant_asked|intros o; apply instant_serves]. Qed.
Print Assumptions C129_instant_request.
Theorem C129_range_request : forall D G query opts,
  grpc_range D query opts = asked_range D query opts /\
  forall o, serves G "/api/v1/query_range" (http_query D "/api/v1/query_range" query opts).2 o <-> o = AskRange (asked_range D query opts).
Proof. intros D G query opts. split; [apply grpc_range_asked|intros o; apply range_serves]. Qed.
Print Assumptions C129_range_request.
(** The answer over HTTP says the same as the backend's (which gRPC returns as it is), times being written
    with three decimals; there is an error only if an exchange or the backend fails, or the answer has a
    point without a finite time.  Missing: answers without a result (C62_unset_refuted) and labels that
    are not UTF-8. *)
Theorem C129_instant_answer_partial : forall D L W, reads_results D L -> errors_not_200 D -> exact_short L -> stable3 L ->
  forall query opts tr r,
  (forall a, b_instant W (asked_instant D query opts) (Done (Some a)) -> clean_result L a) ->
  talks (answers D L W) (promql D L query opts) tr r ->
  (is_err r /\ lost tr) \/ exists out, b_instant W (asked_instant D query opts) out /\
    match out with
    | Done (Some a) => match r with Ok x => exists a', x = Some a' /\ same_result L a a' | Err _ => ~ good_result L a end
    | _ => is_err r
    end.
Proof. exact promql_through. Qed.
Print Assumptions C129_instant_answer_partial.
Theorem C129_range_answer_partial : forall D L W, reads_results D L -> errors_not_200 D -> exact_short L -> stable3 L ->
  forall query opts tr r,
  (forall a, b_range W (asked_range D query opts) (Done (Some a)) -> clean_result L a) ->
  talks (answers D L W) (promql_range D L query opts) tr r ->
  (is_err r /\ lost tr) \/ exists out, b_range W (asked_range D query opts) out /\
    match out with
    | Done (Some a) => match r with
                       | Ok x => exists a', x = Some a' /\ same_result L a a'
                       | Err _ => ~ good_result L a \/ forall m, a <> RMatrix m
                       end
    | _ => is_err r
    end.
Proof. exact promql_range_through. Qed.
Print Assumptions C129_range_answer_partial.
Example C129_case : exact_short example_lib /\ stable3 example_lib /\
  asked_range some_codec "up" [PStep "1"; PEnd 9; PTime 4; PStart 3; PStep "2m"] = Range "up" "3" "9" "2m" /\
  (exists tr, talks (answers some_codec example_lib (some_gateway "")) (promql some_codec example_lib "up" [PStart 3; PTime 5]) tr
     (Ok (Some (RScalar (Some (@Point example_lib "IIII" 3%nat)))))).
Proof.
  destruct C62_example_lib as [H1 H2]. split; [exact H1|]. split; [exact H2|]. split; [reflexivity|].
  eexists. eapply talks_get.
  - eapply (an_instant some_codec example_lib (some_gateway "") _ (Instant "up" "5")); [by apply instant_serves|by split|reflexivity].
  - match goal with |- talks _ (Ret ?x) _ _ => replace x with (@Ok (query_result example_lib) (Some (RScalar (Some (@Point example_lib "IIII" 3%nat)))))
      by (vm_compute; reflexivity) end. constructor.
Qed.
