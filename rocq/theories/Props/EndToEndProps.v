(** Properties of the system from the authorisation proxy to the stores (C124, C125).
    Vocabulary: Auth/Spec.v, Whole/Spec.v, Promql/Spec.v, Gateway/Spec.v.  Executions: Auth/System.v, Gateway/Model.v,
    Whole/Model.v, Query/Model.v. *)
From Coq Require Import Ascii String.
From stdpp Require Import prelude gmap strings list.
From Verif.Base Require Import GoInt Envelope Str Url UrlProofs Dec.
From Verif.Store Require Import Model Spec.
From Verif.Routing Require Import Model Spec.
From Verif.Promql Require Import Model Spec.
From Verif.Whole Require Model Spec Proofs Witness.
From Verif.Query Require Model Spec Proofs.
From Verif.Auth Require Import Model System Spec Trace Local Global Safety Run.
From Verif.Gateway Require Import Model Spec Proofs Decode Route Exact Queries.
From Verif.Props Require AuthProps GatewayProps WholeProps QueryProps.
Open Scope string_scope.
Open Scope list_scope.
Open Scope Z_scope.
Import Whole.Model Whole.Spec.

Lemma projects_source nf e e' : projects nf e e' -> e_source e' = e_source e.
Proof. by destruct 1. Qed.

(** ** C124 *)
(** Whoever reads a source through the proxy and the gateway from a running cluster: the token they showed is vouched for,
    they are an admin or CAPI listed that source for them, and every envelope they are given was sent to the cluster under
    that source id.  (The conditions are those of C51, where they are shown to be needed.) *)
Theorem C124_read_partial : ∀ G L C clock i r p q s rr id hash compile ms tr k now es post c,
  rq_path r = append "/api/v1/read/" id -> has_char newline id = false -> (∀ x, id ≠ append x ":") ->
  finishes L C clock i (KServe r) (RHttp (Forward p q)) s ->
  serves G p q (AskRead rr) ->
  (json_names G = true -> ∀ k, is_Some (parse_query (rq_query r) !! k) -> ¬ spells k "sourceId") ->
  (raw_fields G = true -> ∀ k, is_Some (parse_query (rq_query r) !! k) -> ¬ spells k "XXX_unrecognized") ->
  Forall (fun m => 1 <= m) ms ->
  Whole.Model.runs hash compile (start ms) (tr ++ VRead k rr now (ReadOk es) :: post) c ->
  (∃ cl, vouched L (s_log s) i (rq_auth r) cl ∧ (admin cl ∨ authorised L C (s_log s) i (rq_auth r) id)) ∧
  ∀ e', e' ∈ es -> e_source e' = id ∧ ∃ e, e ∈ sent_to id tr ∧ projects (if bool_decide (rr_name rr = "") then None else compile (rr_name rr)) e e'.
Proof.
  intros G L C clock i r p q s rr id hash compile ms tr k now es post c Hp Hn Hc Hf Hs Hj Hx Hms Hr.
  destruct (GatewayProps.C51_source_partial G L C clock i r p q s rr id Hp Hn Hc Hf Hs Hj Hx) as (<- & Ha).
  split; [done|]. intros e' He'.
  destruct (WholeProps.C123_written _ _ _ _ _ _ _ _ _ _ Hms Hr) as (qq & Hres & _ & H).
  destruct (H e' He') as (e & He & _ & Hpr & _).
  split.
  - rewrite (projects_source _ _ _ Hpr). unfold sent_to in He. apply elem_of_list_bind in He as (ev & He & _).
    destruct ev; try by apply elem_of_nil in He. by apply Whole.Proofs.of_source_elem in He as [? _].
  - exists e. split; [done|]. destruct (Routing.Spec.rs_name _ _ _ _ Hres) as [H1 H2]. case_bool_decide as E.
    + by rewrite <-(H1 E).
    + by rewrite <-(H2 E).
Qed.
Print Assumptions C124_read_partial.
(** C51's reader of app-b, and a cluster of two nodes with envelopes of app-b and of "secret"; the request is passed on to
    the node that stores app-b *)
Definition log_of (src : string) (ts : Z) : envelope := mk_env ts src "0" ∅ ∅ (MLog "x" false).
Definition asked_b : Routing.Model.read_request := mk_rr "app-b" 0 0 5 [] false "".
Definition its_cluster : list Witness.todo :=
  [ Witness.Do (VTable 0 WholeProps.split_table); Witness.Do (VTable 1 WholeProps.split_table);
    Witness.Do (VSend 0 (mk_send false (Some [log_of "app-b" 5; log_of "secret" 6; log_of "app-b" 7])));
    Witness.Do (VArrive 1 [log_of "app-b" 7; log_of "secret" 6]);
    Witness.Ask 1 asked_b 100 ].
Example C124_example : ∃ tr c, Whole.Model.runs WholeProps.toy_hash (fun _ => None) (start [3; 3]) tr c ∧
  WholeProps.reads_are [[log_of "app-b" 7]] tr = true.
Proof. apply (Witness.played _ _ _ its_cluster). vm_compute. done. Qed.
Example C124_case : ∃ s,
  finishes Auth.Run.toy Auth.Run.toy_config 100 2 (KServe GatewayProps.plain_request) (RHttp (Forward "/api/v1/read/app-b" "limit=5&source_id=secret")) s ∧
  serves (GatewayProps.gw true true) "/api/v1/read/app-b" "limit=5&source_id=secret" (AskRead asked_b) ∧
  ∀ k, is_Some (parse_query (rq_query GatewayProps.plain_request) !! k) -> ¬ spells k "sourceId" ∧ ¬ spells k "XXX_unrecognized".
Proof. exact GatewayProps.C51_case. Qed.

(** ** C125 *)
(** Whoever runs a PromQL query through the proxy and the gateway: every read the evaluation makes of the cluster is for a
    source the user is authorised for, or the user is an admin.  [Q] are the cache's libraries, whose engine selects only by
    the selectors of the expression that the same text is parsed to in the proxy.  (The other conditions are those of C93,
    where they are shown to be needed, and of C49.) *)
Lemma authorised_ids L C s i tok text e cl x ids :
  vouched L (s_log s) i tok cl -> promql_parse L text = Some e ->
  (admin cl ∨ ∀ ms id, selector_of e ms -> asks ms id -> authorised L C (s_log s) i tok id) ->
  x ∈ id_set ids -> ids = expr_ids e ->
  admin cl ∨ authorised L C (s_log s) i tok x.
Proof.
  intros _ _ [Ha|H] Hx ->; [by left|right]. unfold id_set in Hx. apply elem_of_list_to_set, ProofsSelect.expr_ids_spec in Hx as (ms & H1 & H2).
  by eapply H.
Qed.
Theorem C125_instant_partial : ∀ G L C clock i r p q s iq fmt Q reader order oids oser now evs n out rd f,
  (∀ text e sets e', promql_parse L text = Some e -> promql_parse L (promql_print L (replace_ids sets e)) = Some e' ->
     e' = replace_ids sets e) ->
  (∀ j u tok body rs href x, (j, ACapi u tok (Some (Reply 200 body))) ∈ s_log s ->
     json_page L body = Some (rs, href) -> x ∈ rs_guid <$> rs -> has_char "|" x = false) ->
  rq_path r = "/api/v1/query" -> finishes L C clock i (KServe r) (RHttp (Forward p q)) s ->
  serves G p q (AskInstant iq) ->
  (bracket_keys G = true -> ∀ k, is_Some (parse_query (rq_query r) !! k) -> k ≠ "query" -> ¬ spells k "query") ->
  (raw_fields G = true -> ∀ k, is_Some (parse_query (rq_query r) !! k) -> ¬ spells k "XXX_unrecognized") ->
  Promql.Spec.iterates_ids oids ->
  (∀ t eng, Query.Model.lib_instant Q (iq_query iq) t = inl eng ->
     ∃ e, promql_parse L (iq_query iq) = Some e ∧ Query.Spec.selects_only (selector_of e) eng) ->
  Query.Model.instant_query fmt Q reader order oids oser now (iq_time iq) (iq_query iq) = (evs, n, out) ->
  Query.Model.EvRead rd f ∈ evs ->
  ∃ cl, vouched L (s_log s) i (rq_auth r) cl ∧ (admin cl ∨ authorised L C (s_log s) i (rq_auth r) (dr_source rd)).
Proof.
  intros G L C clock i r p q s iq fmt Q reader order oids oser now evs n out rd f Hrt Hbar Hpath Hf Hs Hb Hx Ho HQ H Hin.
  assert (He : ∃ e, promql_parse L (iq_query iq) = Some e ∧
    ∀ t eng, Query.Model.lib_instant Q (iq_query iq) t = inl eng -> Query.Spec.selects_only (selector_of e) eng).
  { destruct (QueryProps.of_instant _ _ _ _ _ _ _ _ _ _ _ _ _ H Hin) as (eng & cc & v & t & Hl & _).
    destruct (HQ _ _ Hl) as (e & He & _). exists e. split; [done|]. intros t' eng' Hl'. destruct (HQ _ _ Hl') as (e' & He' & Hsel).
    rewrite He in He'. by injection He' as <-. }
  destruct He as (e & He & Hsel).
  destruct (GatewayProps.C93_query_partial G L C clock i r p q s (AskInstant iq) (iq_query iq) e) as (cl & Hv & Ha); try done.
  { rewrite Hpath. left. }
  exists cl. split; [done|]. pose proof (QueryProps.C102_authorised _ _ _ _ _ _ _ _ _ _ _ _ _ _ _ Ho Hsel H Hin) as Hid.
  by eapply authorised_ids.
Qed.
Print Assumptions C125_instant_partial.
Theorem C125_range_partial : ∀ G L C clock i r p q s rg fmt Q reader order oids oser evs n out rd f,
  (∀ text e sets e', promql_parse L text = Some e -> promql_parse L (promql_print L (replace_ids sets e)) = Some e' ->
     e' = replace_ids sets e) ->
  (∀ j u tok body rs href x, (j, ACapi u tok (Some (Reply 200 body))) ∈ s_log s ->
     json_page L body = Some (rs, href) -> x ∈ rs_guid <$> rs -> has_char "|" x = false) ->
  rq_path r = "/api/v1/query_range" -> finishes L C clock i (KServe r) (RHttp (Forward p q)) s ->
  serves G p q (AskRange rg) ->
  (bracket_keys G = true -> ∀ k, is_Some (parse_query (rq_query r) !! k) -> k ≠ "query" -> ¬ spells k "query") ->
  (raw_fields G = true -> ∀ k, is_Some (parse_query (rq_query r) !! k) -> ¬ spells k "XXX_unrecognized") ->
  Promql.Spec.iterates_ids oids ->
  (∀ a b d eng, Query.Model.lib_range Q (rg_query rg) a b d = inl eng ->
     ∃ e, promql_parse L (rg_query rg) = Some e ∧ Query.Spec.selects_only (selector_of e) eng) ->
  Query.Model.range_query fmt Q reader order oids oser (rg_start rg) (rg_end rg) (rg_step rg) (rg_query rg) = (evs, n, out) ->
  Query.Model.EvRead rd f ∈ evs ->
  ∃ cl, vouched L (s_log s) i (rq_auth r) cl ∧ (admin cl ∨ authorised L C (s_log s) i (rq_auth r) (dr_source rd)).
Proof.
  intros G L C clock i r p q s rg fmt Q reader order oids oser evs n out rd f Hrt Hbar Hpath Hf Hs Hb Hx Ho HQ H Hin.
  assert (He : ∃ e, promql_parse L (rg_query rg) = Some e ∧
    ∀ a b d eng, Query.Model.lib_range Q (rg_query rg) a b d = inl eng -> Query.Spec.selects_only (selector_of e) eng).
  { destruct (QueryProps.of_range _ _ _ _ _ _ _ _ _ _ _ _ _ _ H Hin) as (eng & cc & v & x & y & d & Hl & _).
    destruct (HQ _ _ _ _ Hl) as (e & He & _). exists e. split; [done|]. intros a b d' eng' Hl'. destruct (HQ _ _ _ _ Hl') as (e' & He' & Hsel).
    rewrite He in He'. by injection He' as <-. }
  destruct He as (e & He & Hsel).
  destruct (GatewayProps.C93_query_partial G L C clock i r p q s (AskRange rg) (rg_query rg) e) as (cl & Hv & Ha); try done.
  { rewrite Hpath. right. left. }
  exists cl. split; [done|]. pose proof (QueryProps.C102_authorised_range _ _ _ _ _ _ _ _ _ _ _ _ _ _ _ _ Ho Hsel H Hin) as Hid.
  by eapply authorised_ids.
Qed.
Print Assumptions C125_range_partial.
(** C93's query with an engine that evaluates it; the two reads it causes *)
Definition its_selector : list matcher := [mk_matcher "source_id" MatchEqual "app-a"].
Definition its_engine : Query.Model.libraries := Query.Model.mk_libs (fun _ => inl 7000000000) (fun _ => inr "")
  (fun text t => inl (Query.Model.CallSelect 1 2 its_selector (fun x => Query.Model.CallSelect 3 4 its_selector (fun y =>
                   Query.Model.Return (inl (Query.Model.VScalar t 1)))))) (fun _ _ _ _ => inr "").
Example C125_case : (∃ s,
  finishes Auth.Run.toy Auth.Run.toy_config 100 2 (KServe (Request "/api/v1/query" "query=%3Da&time=7" "Bearer good"))
    (RHttp (Forward "/api/v1/query" "query=%3Dapp-a&time=7")) s ∧ AuthProps.no_bars (s_log s) = true ∧
  serves (GatewayProps.gw true true) "/api/v1/query" "query=%3Dapp-a&time=7" (AskInstant (Instant "=app-a" "7")) ∧
  ∀ k, is_Some (parse_query "query=%3Da&time=7" !! k) -> (k ≠ "query" -> ¬ spells k "query") ∧ ¬ spells k "XXX_unrecognized").
Proof. exact GatewayProps.C93_case. Qed.
Example C125_engine :
  (∀ t eng, Query.Model.lib_instant its_engine "=app-a" t = inl eng ->
     ∃ e, promql_parse Auth.Run.toy "=app-a" = Some e ∧ Query.Spec.selects_only (selector_of e) eng) ∧
  omap (fun ev => match ev with Query.Model.EvRead rd _ => Some (dr_source rd) | _ => None end)
    (Query.Model.instant_query (fun _ => "") its_engine (fun _ _ => inl []) map_to_list elements (fun b => (map_to_list b).*2) 0 "7" "=app-a").1.1
    = ["app-a"; "app-a"].
Proof.
  split; [|vm_compute; done]. intros t eng [= <-]. eexists. split; [vm_compute; reflexivity|].
  constructor; [constructor|]. intros x. constructor; [constructor|]. intros y. constructor.
Qed.
