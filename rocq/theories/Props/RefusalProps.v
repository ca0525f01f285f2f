(** Properties of what the authorisation proxy refuses and leaves out (C107, C108), each followed by a case
    meeting its hypotheses.  Vocabulary: Auth/Spec.v.  Programs: Auth/Model.v.  Executions: Auth/System.v. *)
From Coq Require Import Ascii String.
From stdpp Require Import prelude gmap strings list.
From Verif.Base Require Import Str Url.
From Verif.Promql Require Import Model Spec.
From Verif.Auth Require Import Model System Spec Global Complete Run.
From Verif.Props Require Import AuthProps.
Open Scope string_scope.
Open Scope list_scope.
Open Scope Z_scope.

(** ** C107 *)
(** IsAuthorized says no only if the user's list, as CAPI gave it, does not have the source id.  If it says
    so from memory, the lifetime of that list is not over and the list had been asked for four times. *)
Theorem C107_authorize : forall L C clock i id tok s,
  finishes L C clock i (KAuthorize id tok) (RBool false) s -> refused L C (s_log s) i tok id.
Proof. intros L C. exact authorize_no. Qed.
Print Assumptions C107_authorize.
(** A read is answered with 404 only if it carries no token, one there is reason to doubt, or that of a
    user who is no admin and whose list does not have the source id. *)
Theorem C107_read : forall L C clock i r s id,
  rq_path r = append "/api/v1/read/" id -> has_char newline id = false ->
  finishes L C clock i (KServe r) (RHttp (Status 404)) s ->
  rq_auth r = "" \/ doubted L (s_log s) i (rq_auth r) \/
  exists c, vouched L (s_log s) i (rq_auth r) c /\ ~ admin c /\ refused L C (s_log s) i (rq_auth r) id.
Proof. intros L C. exact read_no. Qed.
Print Assumptions C107_read.
(** a source id the list does not have *)
Definition denied_script : list (choice toy) :=
  startup ++ [Arrive (KServe (read_request "app-z" "Bearer good"))] ++
  go 2 ([◦; at_time 101; ◦] ++ listing 102 ++ [at_time 103]).
Example C107_case : exists s,
  finishes toy toy_config 100 2 (KServe (read_request "app-z" "Bearer good")) (RHttp (Status 404)) s.
Proof.
  destruct (scripted_finishes toy_config 100 denied_script (Step 2 ◦) 2 (KServe (read_request "app-z" "Bearer good"))
              (fun o _ => match o with RHttp (Status c) => bool_decide (c = 404) | _ => false end)) as (o & s & Hf & Ht).
  { vm_compute. reflexivity. }
  exists s. destruct o as [[c| | |p q|]| | |]; try done. by apply bool_decide_eq_true in Ht as ->.
Qed.
(** a fifth call, answered from memory after four listings *)
Definition fifth_script : list (choice toy) :=
  [Arrive (KAuthorize "app-z" "Bearer good")] ++ go 2 ([◦] ++ listing 101 ++ [at_time 102; ◦]) ++
  [Arrive (KAuthorize "app-z" "Bearer good")] ++ go 3 ([◦; at_time 103] ++ listing 103 ++ [at_time 103; ◦]) ++
  [Arrive (KAuthorize "app-z" "Bearer good")] ++ go 4 ([◦; at_time 104] ++ listing 104 ++ [at_time 104; ◦]) ++
  [Arrive (KAuthorize "app-z" "Bearer good")] ++ go 5 ([◦; at_time 105] ++ listing 105 ++ [at_time 105; ◦]) ++
  [Arrive (KAuthorize "app-z" "Bearer good")] ++ go 6 [◦].
Example C107_fifth : exists s,
  finishes toy toy_config 100 6 (KAuthorize "app-z" "Bearer good") (RBool false) s /\
  calls (own 6 (s_log s)) = [] /\ times_listed toy toy_config (s_log s) "Bearer good" = 4%nat.
Proof.
  destruct (scripted_finishes toy_config 100 fifth_script (Step 6 (at_time 106)) 6 (KAuthorize "app-z" "Bearer good")
              (fun o s => says false o && bool_decide (calls (own 6 (s_log s)) = []) &&
                          bool_decide (times_listed toy toy_config (s_log s) "Bearer good" = 4%nat))) as (o & s & Hf & Ht).
  { vm_compute. reflexivity. }
  apply andb_prop in Ht as [Ht Hl]. apply andb_prop in Ht as [Ho Hc]. apply bool_decide_eq_true in Hl, Hc.
  destruct o as [|[]| |]; try done. by exists s.
Qed.

(** ** C108 *)
(** An app whose source id contains a bar is left out even of an admin's query for its name. *)
Definition bar_script : list (choice toy) :=
  startup ++ [Arrive (KServe (Request "/api/v1/query" "query=%3Dx" "Bearer root"))] ++
  go 2 ([◦; ◦; at_time 101; at_time 102; ok "pipe"]).
Definition saw_pipe (h : list (nat * act toy)) : bool :=
  existsb (fun x => match x with
                    | (2%nat, ACapi _ tok (Some r)) => bool_decide (tok = "Bearer root") && bool_decide (r = Reply 200 "pipe")
                    | _ => false end) h.
Theorem C108_bar_refuted : exists L C clock i r p q s e ms e' ms' n x u body rs href,
  (forall text e sets e', promql_parse L text = Some e -> promql_parse L (promql_print L (replace_ids sets e)) = Some e' ->
     e' = replace_ids sets e) /\
  rq_path r = "/api/v1/query" /\ finishes L C clock i (KServe r) (RHttp (Forward p q)) s /\
  promql_parse L (vget "query" (parse_query (rq_query r))) = Some e /\ e = ESelector false "" ms /\ asks ms n /\
  promql_parse L (vget "query" (parse_query q)) = Some e' /\ e' = ESelector false "" ms' /\
  (i, ACapi u (rq_auth r) (Some (Reply 200 body))) ∈ s_log s /\ json_page L body = Some (rs, href) /\ Resource x n ∈ rs /\
  ~ asks ms' x.
Proof.
  destruct (scripted_finishes toy_config 100 bar_script (Step 2 (at_time 103)) 2 (KServe (Request "/api/v1/query" "query=%3Dx" "Bearer root"))
              (fun o s => forwards "/api/v1/query" "query=~x%7Csecret%7Cy%7Cx" o && saw_pipe (s_log s))) as (o & s & Hf & Ht).
  { vm_compute. reflexivity. }
  apply andb_prop in Ht as [Ho Hn]. destruct o as [[| | |p q|]| | |]; try done. cbn in Ho. apply andb_prop in Ho as [E1 E2].
  apply bool_decide_eq_true in E1 as ->. apply bool_decide_eq_true in E2 as ->.
  apply existsb_exists in Hn as (y & Hy & Hn). apply elem_of_list_In in Hy.
  destruct y as [[|[|[|?]]] y]; try done. destruct y as [| |u tok [r|]| | | | | | | | | | | | |]; try done.
  apply andb_prop in Hn as [E1 E2]. apply bool_decide_eq_true in E1 as ->. apply bool_decide_eq_true in E2 as ->.
  exists toy, toy_config, 100, 2%nat, (Request "/api/v1/query" "query=%3Dx" "Bearer root"), "/api/v1/query", "query=~x%7Csecret%7Cy%7Cx", s.
  exists (ESelector false "" [mk_matcher "source_id" MatchEqual "x"]), [mk_matcher "source_id" MatchEqual "x"].
  exists (ESelector false "" [mk_matcher "source_id" MatchRegexp "x|secret|y|x"]), [mk_matcher "source_id" MatchRegexp "x|secret|y|x"].
  exists "x", "x|secret", u, "pipe", [Resource "x|secret" "x"; Resource "y" "x"], "".
  split; [exact toy_round_trip|]. split; [done|]. split; [exact Hf|]. split.
  { assert (E : vget "query" (parse_query "query=%3Dx") = "=x") by (vm_compute; reflexivity). cbn [rq_query]. rewrite E. vm_compute. reflexivity. }
  split; [done|]. split. { eexists. split; [left|]. split; [done|]. by left. }
  split. { assert (E : vget "query" (parse_query "query=~x%7Csecret%7Cy%7Cx") = "~x|secret|y|x") by (vm_compute; reflexivity).
           rewrite E. vm_compute. reflexivity. }
  split; [done|]. split; [done|]. split; [done|]. split; [left|].
  intros (m & Hm & _ & Ha). apply elem_of_list_singleton in Hm as ->. destruct Ha as [[? _]|[_ Ha]]; [done|].
  inversion Ha as [pat id ids _ Hall Hin]; subst.
  rewrite Forall_forall in Hall. by apply Hall in Hin.
Qed.
Print Assumptions C108_bar_refuted.
(** If the PromQL printer writes what the parser reads back, CAPI lists no source id with a bar and the query
    asks for none: in the query passed on, every selector asks for what it asked for before and for the
    apps CAPI lists under these names, all of them, except those refused to a user who is no admin; its
    other matchers, and everything else about the query, are unchanged. *)
Theorem C108_expanded_partial : forall L C clock i r p q s e',
  (forall text e sets e', promql_parse L text = Some e -> promql_parse L (promql_print L (replace_ids sets e)) = Some e' ->
     e' = replace_ids sets e) ->
  (forall j u tok body rs href x, (j, ACapi u tok (Some (Reply 200 body))) ∈ s_log s ->
     json_page L body = Some (rs, href) -> x ∈ rs_guid <$> rs -> has_char "|" x = false) ->
  rq_path r ∈ ["/api/v1/query"; "/api/v1/query_range"] ->
  finishes L C clock i (KServe r) (RHttp (Forward p q)) s ->
  promql_parse L (vget "query" (parse_query q)) = Some e' ->
  exists e names before cs after rs c,
    promql_parse L (vget "query" (parse_query (rq_query r))) = Some e /\
    vouched L (s_log s) i (rq_auth r) c /\
    (forall n, n ∈ names <-> exists ms, selector_of e ms /\ asks ms n) /\
    calls (own i (s_log s)) = before ++ cs ++ after /\ apps_named L C (rq_auth r) names cs rs /\
    ((forall n, n ∈ names -> has_char "|" n = false) ->
     rewritten (fun ms ms' =>
       filter (fun m => lm_name m <> "source_id") ms' = filter (fun m => lm_name m <> "source_id") ms /\
       (forall x, asks ms' x -> exists n, asks ms n /\ (x = n \/ Resource x n ∈ rs)) /\
       (forall n x, asks ms n -> x = n \/ Resource x n ∈ rs ->
          asks ms' x \/ (~ admin c /\ refused L C (s_log s) i (rq_auth r) x))) e e').
Proof. intros L C. exact query_expanded. Qed.
Print Assumptions C108_expanded_partial.
(** an admin's query for the name b: the app of that name is asked for as well *)
Definition named_script : list (choice toy) :=
  startup ++ [Arrive (KServe (Request "/api/v1/query" "query=%3Db&time=7" "Bearer root"))] ++
  go 2 ([◦; ◦; at_time 101] ++ page 102 "apps1" ++ [◦; at_time 102; ok "apps2"]).
Example C108_case : exists s,
  finishes toy toy_config 100 2 (KServe (Request "/api/v1/query" "query=%3Db&time=7" "Bearer root"))
    (RHttp (Forward "/api/v1/query" "query=~app-b%7Cb&time=7")) s /\ no_bars (s_log s) = true /\
  promql_parse toy (vget "query" (parse_query "query=%3Db&time=7")) =
    Some (ESelector false "" [mk_matcher "source_id" MatchEqual "b"]) /\
  promql_parse toy (vget "query" (parse_query "query=~app-b%7Cb&time=7")) =
    Some (ESelector false "" [mk_matcher "source_id" MatchRegexp "app-b|b"]).
Proof.
  destruct (scripted_finishes toy_config 100 named_script (Step 2 (at_time 103)) 2 (KServe (Request "/api/v1/query" "query=%3Db&time=7" "Bearer root"))
              (fun o s => forwards "/api/v1/query" "query=~app-b%7Cb&time=7" o && no_bars (s_log s))) as (o & s & Hf & Ht).
  { vm_compute. reflexivity. }
  apply andb_prop in Ht as [Ho Hn]. destruct o as [[| | |p q|]| | |]; try done. cbn in Ho. apply andb_prop in Ho as [E1 E2].
  apply bool_decide_eq_true in E1 as ->. apply bool_decide_eq_true in E2 as ->. exists s. split; [done|]. split; [done|].
  assert (E : vget "query" (parse_query "query=%3Db&time=7") = "=b") by (vm_compute; reflexivity).
  assert (E' : vget "query" (parse_query "query=~app-b%7Cb&time=7") = "~app-b|b") by (vm_compute; reflexivity).
  rewrite E, E'. vm_compute. done.
Qed.
