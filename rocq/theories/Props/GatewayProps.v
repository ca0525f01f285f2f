(** Properties of the HTTP gateway behind the authorisation proxy, and of the client's read options
    (C47, C51, C93-C95, C97), each followed by a case meeting its hypotheses.
    Vocabulary: Gateway/Spec.v, Auth/Spec.v.  Functions: Gateway/Model.v.  Executions: Auth/System.v. *)
From Coq Require Import Ascii String.
From stdpp Require Import prelude gmap strings list.
From Verif.Base Require Import GoInt Envelope Str Url UrlProofs Dec.
From Verif.Promql Require Import Model Spec.
From Verif.Routing Require Import Model.
From Verif.Auth Require Import Model System Spec Trace Local Global Safety Run.
From Verif.Gateway Require Import Model Spec Proofs Decode Route Exact Queries.
From Verif.Props Require Import AuthProps.
Open Scope string_scope.
Open Scope list_scope.
Open Scope Z_scope.

(** libraries which differ in the choices of [gwlib] *)
Definition gw (json brackets : bool) : gwlib :=
  GwLib json brackets false false Some (fun _ r => r) (fun _ r => r) (fun _ r => r) (fun _ r => r).

(** ** C51 *)
(** With a library that also finds fields under their JSON names, a read of one's own source with the
    parameter sourceId=secret passes the proxy and reads "secret", which CAPI never listed. *)
Definition json_request : request := Request "/api/v1/read/app-b" "sourceId=secret" "Bearer good".
Definition json_script : list (choice toy) :=
  startup ++ [Arrive (KServe json_request)] ++ go 2 ([◦; at_time 101; ◦] ++ listing 102 ++ [at_time 103]).
Lemma json_door : exists G L C clock i r p q s rr,
  json_names G = true /\ bracket_keys G = false /\ raw_fields G = false /\
  rq_path r = append "/api/v1/read/" "app-b" /\ finishes L C clock i (KServe r) (RHttp (Forward p q)) s /\
  serves G p q (AskRead rr) /\
  (forall c, vouched L (s_log s) i (rq_auth r) c -> ~ admin c) /\
  ~ authorised L C (s_log s) i (rq_auth r) (rr_source rr).
Proof.
  destruct (scripted_finishes toy_config 100 json_script (Step 2 ◦) 2 (KServe json_request)
              (fun o s => forwards "/api/v1/read/app-b" "sourceId=secret" o && never_lists "secret" (s_log s))) as (o & s & Hf & Ht).
  { vm_compute. reflexivity. }
  apply andb_prop in Ht as [Ho Hn]. destruct o as [[| | |p q|]| | |]; try done. cbn in Ho. apply andb_prop in Ho as [E1 E2].
  apply bool_decide_eq_true in E1 as ->. apply bool_decide_eq_true in E2 as ->.
  exists (gw true false), toy, toy_config, 100, 2%nat, json_request, "/api/v1/read/app-b", "sourceId=secret", s.
  exists (mk_rr "secret" 0 0 0 [] false ""). split; [done|]. split; [done|]. split; [done|]. split; [done|]. split; [exact Hf|]. split.
  { exists [("sourceId", ["secret"])]. split; [|vm_compute; reflexivity].
    assert (E : parse_query "sourceId=secret" = {["sourceId" := ["secret"]]}).
    { apply (bool_decide_eq_true_1 (parse_query "sourceId=secret" = {["sourceId" := ["secret"]]})). vm_compute. reflexivity. }
    rewrite E. by rewrite map_to_list_singleton. }
  split; [intros c; apply toy_user|by apply never_authorised].
Qed.
Theorem C51_json_name_refuted : exists G L C clock i r p q s rr,
  json_names G = true /\ bracket_keys G = false /\ raw_fields G = false /\
  rq_path r = append "/api/v1/read/" "app-b" /\ finishes L C clock i (KServe r) (RHttp (Forward p q)) s /\
  serves G p q (AskRead rr) /\
  (forall c, vouched L (s_log s) i (rq_auth r) c -> ~ admin c) /\
  ~ authorised L C (s_log s) i (rq_auth r) (rr_source rr).
Proof. exact json_door. Qed.
Print Assumptions C51_json_name_refuted.
(** For every library without JSON names, and for requests without a parameter spelling sourceId for every
    other: what the backend is asked to read through proxy and gateway is the source id in the path, for a
    token that is vouched for and whose owner is an admin or authorised for it.  (A source id that ends in
    a colon is left out, see C95; so is the spelling of protobuf's hidden field.) *)
Theorem C51_source_partial : forall G L C clock i r p q s rr id,
  rq_path r = append "/api/v1/read/" id -> has_char newline id = false -> (forall x, id <> append x ":") ->
  finishes L C clock i (KServe r) (RHttp (Forward p q)) s ->
  serves G p q (AskRead rr) ->
  (json_names G = true -> forall k, is_Some (parse_query (rq_query r) !! k) -> ~ spells k "sourceId") ->
  (raw_fields G = true -> forall k, is_Some (parse_query (rq_query r) !! k) -> ~ spells k "XXX_unrecognized") ->
  rr_source rr = id /\
  exists c, vouched L (s_log s) i (rq_auth r) c /\ (admin c \/ authorised L C (s_log s) i (rq_auth r) (rr_source rr)).
Proof.
  intros G L C clock i r p q s rr id Hp Hn Hc Hf (kvs & Hperm & Hs) Hj Hx.
  destruct (C48_read L C clock i r p q s id Hp Hn Hf) as (-> & -> & c & Hv & Ha).
  rewrite Hp in Hs. apply served_path_id in Hs; [|done].
  assert (E : rr_source rr = id).
  { eapply request_read_source; [| |exact Hs].
    - intros Hg k vs Hin. apply (params_elem (parse_query (rq_query r))) in Hin; [|done]. apply (Hj Hg). by eexists.
    - intros Hg k vs Hin. apply (params_elem (parse_query (rq_query r))) in Hin; [|done]. apply (Hx Hg). by eexists. }
  split; [done|]. rewrite E. by exists c.
Qed.
Print Assumptions C51_source_partial.
(** someone tries source_id=secret; the gateway takes no notice *)
Definition plain_request : request := Request "/api/v1/read/app-b" "limit=5&source_id=secret" "Bearer good".
Definition plain_script : list (choice toy) :=
  startup ++ [Arrive (KServe plain_request)] ++ go 2 ([◦; at_time 101; ◦] ++ listing 102 ++ [at_time 103]).
Lemma plain_params : parse_query "limit=5&source_id=secret" = {["limit" := ["5"]; "source_id" := ["secret"]]}.
Proof.
  apply (bool_decide_eq_true_1 (parse_query "limit=5&source_id=secret" = {["limit" := ["5"]; "source_id" := ["secret"]]})).
  vm_compute. reflexivity.
Qed.
Example C51_case : exists s,
  finishes toy toy_config 100 2 (KServe plain_request) (RHttp (Forward "/api/v1/read/app-b" "limit=5&source_id=secret")) s /\
  serves (gw true true) "/api/v1/read/app-b" "limit=5&source_id=secret" (AskRead (mk_rr "app-b" 0 0 5 [] false "")) /\
  forall k, is_Some (parse_query (rq_query plain_request) !! k) -> ~ spells k "sourceId" /\ ~ spells k "XXX_unrecognized".
Proof.
  destruct (scripted_finishes toy_config 100 plain_script (Step 2 ◦) 2 (KServe plain_request)
              (fun o _ => forwards "/api/v1/read/app-b" "limit=5&source_id=secret" o)) as (o & s & Hf & Ho).
  { vm_compute. reflexivity. }
  exists s. destruct o as [[| | |p q|]| | |]; try done. cbn in Ho. apply andb_prop in Ho as [E1 E2].
  apply bool_decide_eq_true in E1 as ->. apply bool_decide_eq_true in E2 as ->. split; [exact Hf|]. split.
  - exists [("limit", ["5"]); ("source_id", ["secret"])]. split; [|vm_compute; reflexivity].
    rewrite plain_params. rewrite map_to_list_insert by done. by rewrite map_to_list_singleton.
  - cbn [rq_query plain_request]. rewrite plain_params. intros k [vs Hk].
    apply lookup_insert_Some in Hk as [[<- _]|[_ Hk]]; [|apply lookup_singleton_Some in Hk as [<- _]];
      (split; intros [E|[x E]]; done).
Qed.

(** ** C93 *)
(** With a library that understands name[x]=y, a query whose text passes the proxy carries another one,
    query[=secret]=..., and the gateway may run that: here the backend is asked for "secret". *)
Definition bracket_request : request := Request "/api/v1/query" "query=%3Da&query%5B%3Dsecret%5D=x" "Bearer good".
Definition bracket_script : list (choice toy) :=
  startup ++ [Arrive (KServe bracket_request)] ++
  go 2 ([◦; ◦; at_time 101] ++ page 102 "apps1" ++ [◦] ++ page 102 "none" ++
        [◦] ++ listing 103 ++ [at_time 103; ◦] ++ [◦; at_time 104] ++ listing 104 ++ [at_time 105]).
Definition bracket_query : string := "query=%3Dapp-a&query%5B%3Dsecret%5D=x".
Lemma bracket_params : parse_query bracket_query = {["query" := ["=app-a"]; "query[=secret]" := ["x"]]}.
Proof.
  apply (bool_decide_eq_true_1 (parse_query bracket_query = {["query" := ["=app-a"]; "query[=secret]" := ["x"]]})).
  vm_compute. reflexivity.
Qed.
Lemma bracket_door : exists G L C clock i r p q s o text e ms id,
  json_names G = false /\ bracket_keys G = true /\ raw_fields G = false /\
  rq_path r = "/api/v1/query" /\ finishes L C clock i (KServe r) (RHttp (Forward p q)) s /\
  serves G p q o /\ query_text o = Some text /\ promql_parse L text = Some e /\
  (forall c, vouched L (s_log s) i (rq_auth r) c -> ~ admin c) /\
  selector_of e ms /\ asks ms id /\ ~ authorised L C (s_log s) i (rq_auth r) id.
Proof.
  destruct (scripted_finishes toy_config 100 bracket_script (Step 2 ◦) 2 (KServe bracket_request)
              (fun o s => forwards "/api/v1/query" bracket_query o && never_lists "secret" (s_log s))) as (o & s & Hf & Ht).
  { vm_compute. reflexivity. }
  apply andb_prop in Ht as [Ho Hn]. destruct o as [[| | |p q|]| | |]; try done. cbn in Ho. apply andb_prop in Ho as [E1 E2].
  apply bool_decide_eq_true in E1 as ->. apply bool_decide_eq_true in E2 as ->.
  exists (gw false true), toy, toy_config, 100, 2%nat, bracket_request, "/api/v1/query", bracket_query, s.
  exists (AskInstant (Instant "=secret" "")), "=secret", (ESelector false "" [mk_matcher "source_id" MatchEqual "secret"]).
  exists [mk_matcher "source_id" MatchEqual "secret"], "secret".
  do 4 (split; [done|]). split; [exact Hf|]. split.
  { exists [("query", ["=app-a"]); ("query[=secret]", ["x"])]. split; [|vm_compute; reflexivity].
    rewrite bracket_params. rewrite map_to_list_insert by done. by rewrite map_to_list_singleton. }
  split; [done|]. split; [done|]. split; [intros c; apply toy_user|]. split; [constructor|].
  split; [|by apply never_authorised].
  eexists. split; [left|]. split; [done|]. by left.
Qed.
Theorem C93_bracket_refuted : exists G L C clock i r p q s o text e ms id,
  json_names G = false /\ bracket_keys G = true /\ raw_fields G = false /\
  rq_path r = "/api/v1/query" /\ finishes L C clock i (KServe r) (RHttp (Forward p q)) s /\
  serves G p q o /\ query_text o = Some text /\ promql_parse L text = Some e /\
  (forall c, vouched L (s_log s) i (rq_auth r) c -> ~ admin c) /\
  selector_of e ms /\ asks ms id /\ ~ authorised L C (s_log s) i (rq_auth r) id.
Proof. exact bracket_door. Qed.
Print Assumptions C93_bracket_refuted.
(** For every library without bracketed names, and for requests without a parameter query[...] for every
    other: under the conditions of C49 the query which the backend is asked to run through proxy and
    gateway asks, for a token that is vouched for, only for source ids its owner is authorised for unless
    they are an admin. *)
Theorem C93_query_partial : forall G L C clock i r p q s o text e,
  (forall text e sets e', promql_parse L text = Some e -> promql_parse L (promql_print L (replace_ids sets e)) = Some e' ->
     e' = replace_ids sets e) ->
  (forall j u tok body rs href x, (j, ACapi u tok (Some (Reply 200 body))) ∈ s_log s ->
     json_page L body = Some (rs, href) -> x ∈ rs_guid <$> rs -> has_char "|" x = false) ->
  rq_path r ∈ ["/api/v1/query"; "/api/v1/query_range"] ->
  finishes L C clock i (KServe r) (RHttp (Forward p q)) s ->
  serves G p q o -> query_text o = Some text ->
  (bracket_keys G = true -> forall k, is_Some (parse_query (rq_query r) !! k) -> k <> "query" -> ~ spells k "query") ->
  (raw_fields G = true -> forall k, is_Some (parse_query (rq_query r) !! k) -> ~ spells k "XXX_unrecognized") ->
  promql_parse L text = Some e ->
  exists c, vouched L (s_log s) i (rq_auth r) c /\
    (admin c \/ forall ms id, selector_of e ms -> asks ms id -> authorised L C (s_log s) i (rq_auth r) id).
Proof.
  intros G L C clock i r p q s o text e Hrt Hbar Hpath Hf (kvs & Hp & Hs) Ho Hb Hx He.
  assert (Hreq : forall k, p = rq_path r /\ (k <> "query" -> parse_query q !! k = parse_query (rq_query r) !! k)).
  { intros k. destruct (query_forward clock i r p q s Hpath Hf) as [-> H]. split; [done|apply H]. }
  destruct (Hreq "") as [-> _].
  assert (Hk : forall k, is_Some (parse_query q !! k) -> k <> "query" -> is_Some (parse_query (rq_query r) !! k)).
  { intros k H Hne. destruct (Hreq k) as [_ E]. by rewrite <-E. }
  assert (Hb' : bracket_keys G = true -> forall k vs, parse_query q !! k = Some vs -> k <> "query" -> ~ spells k "query").
  { intros Hg k vs H Hne. apply (Hb Hg); [|done]. apply Hk; [by eexists|done]. }
  assert (Hx' : raw_fields G = true -> unspelled kvs "XXX_unrecognized").
  { intros Hg k vs Hin. apply (params_elem (parse_query q)) in Hin; [|done]. intros Hsp.
    eapply (Hx Hg k); [|done]. apply Hk; [by eexists|]. intros ->. by destruct Hsp as [E|[x E]]. }
  assert (Et : text = vget "query" (parse_query q)).
  { rewrite !elem_of_cons, elem_of_nil in Hpath. destruct Hpath as [E|[E|[]]]; rewrite E in Hs.
    - apply served_query in Hs. subst o. unfold or_invalid in Ho. destruct (request_instant G kvs) as [x|] eqn:Ei; [|done].
      injection Ho as <-. by eapply request_instant_get.
    - apply served_range in Hs. subst o. unfold or_invalid in Ho. destruct (request_range G kvs) as [x|] eqn:Ei; [|done].
      injection Ho as <-. by eapply request_range_get. }
  subst text. destruct (C49_query_partial L C clock i r (rq_path r) q s e Hrt Hbar Hpath Hf He) as (_ & _ & _ & H). exact H.
Qed.
Print Assumptions C93_query_partial.
(** the query of C49's case, with a time parameter, reaches the backend as checked *)
Example C93_case : exists s,
  finishes toy toy_config 100 2 (KServe (Request "/api/v1/query" "query=%3Da&time=7" "Bearer good"))
    (RHttp (Forward "/api/v1/query" "query=%3Dapp-a&time=7")) s /\ no_bars (s_log s) = true /\
  serves (gw true true) "/api/v1/query" "query=%3Dapp-a&time=7" (AskInstant (Instant "=app-a" "7")) /\
  forall k, is_Some (parse_query "query=%3Da&time=7" !! k) ->
    (k <> "query" -> ~ spells k "query") /\ ~ spells k "XXX_unrecognized".
Proof.
  destruct C49_case as (s & Hf & Hn & _). exists s. split; [exact Hf|]. split; [exact Hn|]. split.
  - exists [("query", ["=app-a"]); ("time", ["7"])]. split; [|vm_compute; reflexivity].
    assert (E : parse_query "query=%3Dapp-a&time=7" = {["query" := ["=app-a"]; "time" := ["7"]]}).
    { apply (bool_decide_eq_true_1 (parse_query "query=%3Dapp-a&time=7" = {["query" := ["=app-a"]; "time" := ["7"]]})).
      vm_compute. reflexivity. }
    rewrite E, map_to_list_insert by done. by rewrite map_to_list_singleton.
  - assert (E : parse_query "query=%3Da&time=7" = {["query" := ["=a"]; "time" := ["7"]]}).
    { apply (bool_decide_eq_true_1 (parse_query "query=%3Da&time=7" = {["query" := ["=a"]; "time" := ["7"]]})).
      vm_compute. reflexivity. }
    rewrite E. intros k [vs Hk].
    apply lookup_insert_Some in Hk as [[<- _]|[_ Hk]]; [|apply lookup_singleton_Some in Hk as [<- _]];
      (split; [intros ?|]; [try done|]); intros [E'|[x E']]; done.
Qed.

(** ** C94 *)
(** A limit of 010 is taken as octal: the backend is asked for 8 envelopes. *)
Theorem C94_octal_refuted : forall G, exists q r,
  parse_query q = {["limit" := ["010"]]} /\ serves G "/api/v1/read/a" q (AskRead r) /\ rr_limit r = 8 /\
  ~ read_says (parse_query q) "a" r.
Proof.
  intros G. exists "limit=010", (mk_rr "a" 0 0 8 [] false "").
  assert (E : parse_query "limit=010" = {["limit" := ["010"]]}).
  { apply (bool_decide_eq_true_1 (parse_query "limit=010" = {["limit" := ["010"]]})). vm_compute. reflexivity. }
  split; [done|]. split.
  { exists [("limit", ["010"])]. split; [by rewrite E, map_to_list_singleton|].
    destruct G as [[] [] [] [] b w1 w2 w3 w4]; vm_compute; reflexivity. }
  split; [done|]. intros (_ & _ & _ & Hl & _). unfold int_given in Hl. rewrite E, lookup_singleton in Hl.
  destruct Hl as (x & rest & [= <- <-] & Hn & H64). cbn in Hn, H64.
  assert (P : parse_int "010" = Some 8) by (by apply parse_int_spec). vm_compute in P. discriminate.
Qed.
Print Assumptions C94_octal_refuted.
(** With the documented parameters only and no number with a superfluous leading zero, the gateway asks
    the backend for exactly what the parameters of the request say, whatever the library's choices, and
    asks for nothing when they say nothing. *)
Theorem C94_read_partial : forall G id q r, carried id ->
  (forall k, is_Some (parse_query q !! k) -> k ∈ documented) ->
  (forall k x rest, k ∈ ["start_time"; "end_time"; "limit"] -> parse_query q !! k = Some (x :: rest) -> ~ zero_led x) ->
  serves G (append "/api/v1/read/" id) q (AskRead r) <-> read_says (parse_query q) id r.
Proof. exact read_exact. Qed.
Print Assumptions C94_read_partial.
(** one case that says something and one that says nothing *)
Example C94_case : exists q q',
  parse_query q = {["limit" := ["10"]; "envelope_types" := ["LOG"; "3"]; "descending" := ["true"]]} /\
  serves (gw true true) "/api/v1/read/a/b" q (AskRead (mk_rr "a/b" 0 0 10 [T_LOG; T_GAUGE] true "")) /\
  parse_query q' = {["limit" := ["ten"]]} /\ serves (gw true true) "/api/v1/read/a/b" q' Invalid.
Proof.
  exists "limit=10&envelope_types=LOG&envelope_types=3&descending=true", "limit=ten".
  assert (E : parse_query "limit=10&envelope_types=LOG&envelope_types=3&descending=true" =
              {["limit" := ["10"]; "envelope_types" := ["LOG"; "3"]; "descending" := ["true"]]}).
  { apply (bool_decide_eq_true_1 (parse_query "limit=10&envelope_types=LOG&envelope_types=3&descending=true" = _)).
    vm_compute. reflexivity. }
  assert (E' : parse_query "limit=ten" = {["limit" := ["ten"]]}).
  { apply (bool_decide_eq_true_1 (parse_query "limit=ten" = _)). vm_compute. reflexivity. }
  split; [done|]. split; [|split; [done|]].
  - exists [("limit", ["10"]); ("envelope_types", ["LOG"; "3"]); ("descending", ["true"])]. split; [|vm_compute; reflexivity].
    rewrite E, map_to_list_insert by done. rewrite map_to_list_insert by done. by rewrite map_to_list_singleton.
  - exists [("limit", ["ten"])]. split; [by rewrite E', map_to_list_singleton|vm_compute; reflexivity].
Qed.
Example C94_carried : carried "a/b" /\ ~ zero_led "10" /\ ~ zero_led "0" /\ ~ zero_led "-5".
Proof.
  split.
  { apply (carried_more "a" "b"); try done.
    - intros [|? [|? ?]] ?; done.
    - apply carried_last; try done; intros [|? [|? ?]] ?; done. }
  assert (Hz : forall s, zero_led s -> forall a b, s = String a b -> (a = "0"%char /\ b <> "") \/ a = "+"%char \/ (a = "-"%char /\ exists c, b = String "0" c)).
  { intros s (sg & s' & Hin & -> & Hne) a b E. rewrite !elem_of_cons, elem_of_nil in Hin.
    destruct Hin as [->|[->|[->|[]]]]; injection E as <- <-; [by left|by right; left|right; right]. split; [done|]. by exists s'. }
  split; [|split]; intros H; destruct (Hz _ H _ _ eq_refl) as [[E Hne]|[E|[E [c Ec]]]]; try discriminate; by apply Hne.
Qed.

(** ** C95 *)
(** No path reads the source "a:": asked for it, the gateway reads "a", whatever the library's choices.
    With a library that gives a verb after a colon precedence, "a:b" is not found. *)
Theorem C95_colon_refuted :
  (forall G, exists r, serves G "/api/v1/read/a:" "" (AskRead r) /\ rr_source r = "a") /\
  (forall G, colon_in_id G = false -> serves G "/api/v1/read/a:b" "" NoRoute).
Proof.
  split.
  - intros G. exists (mk_rr "a" 0 0 0 [] false ""). split; [|done]. exists []. split; [done|].
    destruct G as [[] [] [] [] b w1 w2 w3 w4]; vm_compute; reflexivity.
  - intros G Hc. exists []. split; [done|].
    destruct G as [[] [] [] [] b w1 w2 w3 w4]; cbn in Hc; try done; vm_compute; reflexivity.
Qed.
Print Assumptions C95_colon_refuted.
(** Every source id whose parts between slashes are not empty, "." or ".." and whose last part has no
    colon is read under its own name. *)
Theorem C95_carried_partial : forall G id, carried id ->
  serves G (append "/api/v1/read/" id) "" (AskRead (mk_rr id 0 0 0 [] false "")) /\
  forall o, serves G (append "/api/v1/read/" id) "" o -> o = AskRead (mk_rr id 0 0 0 [] false "").
Proof.
  intros G id Hc.
  assert (E : forall o, serves G (append "/api/v1/read/" id) "" o <-> o = or_invalid AskRead (request_read G id [])).
  { intros o. assert (Ep : parse_query "" = ∅) by done. split.
    - intros (kvs & Hp & <-). rewrite Ep, map_to_list_empty in Hp. apply Permutation_nil_r in Hp as ->. by rewrite serve_carried.
    - intros ->. exists []. rewrite Ep, map_to_list_empty. split; [done|]. by rewrite serve_carried. }
  assert (Er : request_read G id [] = Some (mk_rr id 0 0 0 [] false "")) by done.
  rewrite Er in E. cbn in E. split; [by apply E|]. intros o. apply E.
Qed.
Print Assumptions C95_carried_partial.
Example C95_case : carried "a/b".
Proof. exact (proj1 C94_carried). Qed.

(** ** C47 *)
(** An envelope type the API does not define: over gRPC the request goes out for any type, over HTTP the
    gateway refuses it. *)
Theorem C47_unknown_refuted : forall G, exists opts p q,
  Forall option_in64 opts /\ grpc_read "a" 0 opts = mk_rr "a" 0 0 0 [T_ANY] false "" /\
  http_read "/api/v1" "a" 0 opts = (p, q) /\ serves G p q Invalid.
Proof.
  intros G. exists [WithEnvelopeTypes [T_UNKNOWN 9]], "/api/v1/read/a", "envelope_types=9&start_time=0".
  split; [by repeat constructor|]. split; [vm_compute; reflexivity|]. split; [vm_compute; reflexivity|].
  assert (E : parse_query "envelope_types=9&start_time=0" = {["envelope_types" := ["9"]; "start_time" := ["0"]]}).
  { apply (bool_decide_eq_true_1 (parse_query "envelope_types=9&start_time=0" = _)). vm_compute. reflexivity. }
  exists [("envelope_types", ["9"]); ("start_time", ["0"])]. split.
  { rewrite E, map_to_list_insert by done. by rewrite map_to_list_singleton. }
  destruct G as [[] [] [] [] b w1 w2 w3 w4]; vm_compute; reflexivity.
Qed.
Print Assumptions C47_unknown_refuted.
(** With envelope types the API defines, and a source id a path can carry, the options mean the same
    over both transports: the request asked for reaches the backend. *)
Theorem C47_options_partial : forall G source start opts p q,
  - 2^63 <= start < 2^63 -> Forall option_in64 opts -> Forall known_types opts -> carried source ->
  http_read "/api/v1" source start opts = (p, q) ->
  grpc_read source start opts = asked source start opts /\
  forall o, serves G p q o <-> o = AskRead (asked source start opts).
Proof.
  intros G source start opts p q Hs H64 Hk Hc Hr. split; [by apply grpc_asked|]. intros o. split.
  - by apply http_asked.
  - intros ->. destruct (serve G p (map_to_list (parse_query q))) eqn:E;
      (assert (H : serves G p q (serve G p (map_to_list (parse_query q)))) by (eexists; split; [done|reflexivity]));
      pose proof (http_asked G source start opts p q _ Hs H64 Hk Hc Hr H) as <-; done.
Qed.
Print Assumptions C47_options_partial.
Example C47_case :
  let opts := [WithLimit 10; WithEnvelopeTypes [T_LOG]; WithEndTime 7; WithEnvelopeTypes [T_GAUGE]; WithDescending; WithLimit 20; WithNameFilter "c&p u"] in
  Forall option_in64 opts /\ Forall known_types opts /\ carried "a/b" /\
  asked "a/b" (-3) opts = mk_rr "a/b" (-3) 7 20 [T_LOG; T_GAUGE] true "c&p u".
Proof. cbn. split; [repeat constructor; lia|]. split; [repeat constructor; done|]. split; [exact (proj1 C94_carried)|done]. Qed.

(** ** C97 *)
(** With the documented parameters only, queries and the list of sources are asked for exactly as the
    request says, whatever the library's choices: texts are passed on unchanged, and a local_only that is
    not a boolean is refused. *)
Theorem C97_instant : forall G q o, (forall k, is_Some (parse_query q !! k) -> k ∈ ["query"; "time"]) ->
  serves G "/api/v1/query" q o <->
  exists text time, text_given (parse_query q) "query" text /\ text_given (parse_query q) "time" time /\
    o = AskInstant (Instant text time).
Proof.
  intros G q o H. rewrite (instant_exact G q o H). split.
  - intros ->. do 2 eexists. do 2 (split; [apply text_given_vget; reflexivity|]). done.
  - intros (text & time & H1 & H2 & ->). apply text_given_vget in H1, H2. by subst.
Qed.
Print Assumptions C97_instant.
Theorem C97_range : forall G q o, (forall k, is_Some (parse_query q !! k) -> k ∈ ["query"; "start"; "end"; "step"]) ->
  serves G "/api/v1/query_range" q o <->
  exists text start stop step, text_given (parse_query q) "query" text /\ text_given (parse_query q) "start" start /\
    text_given (parse_query q) "end" stop /\ text_given (parse_query q) "step" step /\ o = AskRange (Range text start stop step).
Proof.
  intros G q o H. rewrite (range_exact G q o H). split.
  - intros ->. do 4 eexists. do 4 (split; [apply text_given_vget; reflexivity|]). done.
  - intros (text & start & stop & step & H1 & H2 & H3 & H4 & ->). apply text_given_vget in H1, H2, H3, H4. by subst.
Qed.
Print Assumptions C97_range.
Theorem C97_meta : forall G q b, (forall k, is_Some (parse_query q !! k) -> k = "local_only") ->
  serves G "/api/v1/meta" q (AskMeta (MetaReq b)) <-> bool_given (parse_query q) "local_only" b.
Proof. exact meta_exact. Qed.
Print Assumptions C97_meta.
Example C97_case : forall G,
  serves G "/api/v1/query_range" "query=a%2Bb&step=1m&query=c" (AskRange (Range "a+b" "" "" "1m")) /\
  serves G "/api/v1/meta" "local_only=true" (AskMeta (MetaReq true)).
Proof.
  intros G. split.
  - assert (E : parse_query "query=a%2Bb&step=1m&query=c" = {["query" := ["a+b"; "c"]; "step" := ["1m"]]}).
    { apply (bool_decide_eq_true_1 (parse_query "query=a%2Bb&step=1m&query=c" = _)). vm_compute. reflexivity. }
    apply C97_range.
    + rewrite E. intros k [vs Hk]. apply lookup_insert_Some in Hk as [[<- _]|[_ Hk]]; [left|].
      apply lookup_singleton_Some in Hk as [<- _]. do 3 right. left.
    + do 4 eexists. rewrite E. split; [by exists ["c"]|]. split; [done|]. split; [done|]. split; [by exists []|done].
  - assert (E : parse_query "local_only=true" = {["local_only" := ["true"]]}).
    { apply (bool_decide_eq_true_1 (parse_query "local_only=true" = _)). vm_compute. reflexivity. }
    apply C97_meta.
    + rewrite E. intros k [vs Hk]. by apply lookup_singleton_Some in Hk as [<- _].
    + rewrite E. exists "true", []. split; [done|]. left. split; [done|]. do 4 right. left.
Qed.
