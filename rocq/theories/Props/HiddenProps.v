(** C158: those who may not see anything are told nothing.  Vocabulary: Auth/SpecHidden.v. *)
From Coq Require Import Ascii String.
From stdpp Require Import prelude gmap strings list.
From Verif.Base Require Import Str Url.
From Verif.Promql Require Import Model Spec.
From Verif.Auth Require Import Model System Spec SpecHidden Global Decide Hidden Run.
From Verif.Props Require Import AuthProps RefusalProps.
Open Scope string_scope.
Open Scope list_scope.
Open Scope Z_scope.

(** ** C158 *)
(** Without a token that UAA vouches for, the answer follows from the request alone, whatever is stored, listed or
    going on; and neither CAPI nor Log Cache is asked for anything. *)
Theorem C158_stranger : forall L C clock i r o s,
  clean_path L (rq_path r) = rq_path r -> rq_path r <> "/api/v1/info" ->
  finishes L C clock i (KServe r) (RHttp o) s -> stranger L (s_log s) i r ->
  told_nothing L r o /\ asked_nobody L (s_log s) i.
Proof. intros L C. exact stranger_told. Qed.
Print Assumptions C158_stranger.
(** So two worlds answer a stranger alike. *)
Theorem C158_alike : forall L C C' clock clock' i i' r o o' s s',
  clean_path L (rq_path r) = rq_path r -> rq_path r <> "/api/v1/info" ->
  finishes L C clock i (KServe r) (RHttp o) s -> stranger L (s_log s) i r ->
  finishes L C' clock' i' (KServe r) (RHttp o') s' -> stranger L (s_log s') i' r ->
  o = o'.
Proof.
  intros L C C' clock clock' i i' r o o' s s' Hc Hi H1 S1 H2 S2.
  destruct (stranger_told _ _ _ _ _ Hc Hi H1 S1) as [[[Ha ->]|[Ha ->]] _], (stranger_told _ _ _ _ _ Hc Hi H2 S2) as [[[Hb ->]|[Hb ->]] _]; done.
Qed.
Print Assumptions C158_alike.
(** A user is answered 404 for every source they may not read, whether it exists or not. *)
Theorem C158_hidden : forall L C clock i r o s id,
  clean_path L (rq_path r) = rq_path r -> rq_path r = append "/api/v1/read/" id -> has_char newline id = false ->
  finishes L C clock i (KServe r) (RHttp o) s ->
  (forall c, vouched L (s_log s) i (rq_auth r) c -> ~ admin c) -> ~ authorised L C (s_log s) i (rq_auth r) id ->
  o = Status 404.
Proof. intros L C. exact hidden_read. Qed.
Print Assumptions C158_hidden.
(** The proxy itself answers with no other status than 404 and 502, and with 502 only someone whose token is vouched
    for, when Log Cache could not be asked for its sources. *)
Theorem C158_status : forall L C clock i r code s,
  finishes L C clock i (KServe r) (RHttp (Status code)) s ->
  code = 404 \/
  (code = 502 /\ rq_path r = "/api/v1/meta" /\ (i, AMeta None) ∈ s_log s /\ exists c, vouched L (s_log s) i (rq_auth r) c).
Proof. intros L C. exact statuses. Qed.
Print Assumptions C158_status.

(** Met by: a stranger who asks for a query without any sense, ... *)
Lemma toy_stranger h i r : jose_headers toy (trim_bearer (rq_auth r)) = None -> stranger toy h i r.
Proof.
  intros H c (token & kid & k & payload & t & Hca & Hh & _). apply carries_fun in Hca. subst token. congruence.
Qed.
Example C158_senseless : exists s, let r := Request "/api/v1/query" "query=7" "Bearer fake" in
  finishes toy toy_config 100 2 (KServe r) (RHttp BadData) s /\ stranger toy (s_log s) 2 r /\ senseless toy r.
Proof.
  set (r := Request "/api/v1/query" "query=7" "Bearer fake").
  assert (E : match script toy_config 100 startup (Arrive (KServe r)) with
              | Some (s0, s) => match stage_of s0 2, s_threads s !! 2%nat with
                                | Absent, Some (kd, Ret (RHttp BadData)) => bool_decide (kd = KServe r)
                                | _, _ => false end
              | None => false end = true) by (by vm_compute).
  destruct (script _ _ _ _) as [[s0 s]|] eqn:Es; [|done]. exists s. split.
  - unfold script in Es. destruct (exec _ _ startup) as [s1|] eqn:E0; [|done].
    destruct (exec1 _ s1 _) as [s2|] eqn:E1; [|done]. injection Es as -> ->. split.
    + destruct (stage_of s0 2); try done. destruct (s_threads s !! 2%nat) as [[kd [[[]| | |]| | |]]|]; try done.
      by apply bool_decide_eq_true in E as ->.
    + exists s0. split; [eapply exec_reachable; [constructor|done]|]. split; [by eapply exec1_step|].
      intros H. unfold stage_of in E. by rewrite H in E.
  - split; [apply toy_stranger; by vm_compute|]. split; [by left|]. split; [done|]. intros e He. by vm_compute in He.
Qed.
(** ... a user who asks for a source they may not read, ... *)
Example C158_denied : exists s, let r := read_request "app-z" "Bearer good" in
  finishes toy toy_config 100 2 (KServe r) (RHttp (Status 404)) s /\
  (forall c, vouched toy (s_log s) 2 (rq_auth r) c -> ~ admin c) /\ ~ authorised toy toy_config (s_log s) 2 (rq_auth r) "app-z".
Proof.
  set (r := read_request "app-z" "Bearer good").
  destruct (scripted_finishes toy_config 100 denied_script (Step 2 ◦) 2 (KServe r)
              (fun o s => match o with RHttp (Status c) => bool_decide (c = 404) && never_lists "app-z" (s_log s) | _ => false end))
    as (o & s & Hf & Ht).
  { vm_compute. reflexivity. }
  exists s. destruct o as [[c| | |p q|]| | |]; try done. apply andb_true_iff in Ht as [Ht Hn].
  apply bool_decide_eq_true in Ht as ->. split; [done|]. split; [intros c; apply toy_user|by apply never_authorised].
Qed.
(** ... and a user who asks for the sources while Log Cache is away. *)
Example C158_away : exists s, finishes toy toy_config 100 2 (KServe (Request "/api/v1/meta" "" "Bearer good")) (RHttp (Status 502)) s.
Proof.
  set (r := Request "/api/v1/meta" "" "Bearer good").
  destruct (scripted_finishes toy_config 100 (startup ++ [Arrive (KServe r)] ++ go 2 [◦; at_time 101]) (Step 2 (XMeta (L:=toy) None)) 2 (KServe r)
              (fun o s => match o with RHttp (Status c) => bool_decide (c = 502) | _ => false end)) as (o & s & Hf & Ht).
  { vm_compute. reflexivity. }
  exists s. destruct o as [[c| | |p q|]| | |]; try done. by apply bool_decide_eq_true in Ht as ->.
Qed.
