(** Properties of the proxy process (C133 to C136), each followed by a case meeting its hypotheses.
    Vocabulary: AccessLog/Spec.v, Proxy/Spec.v.  Functions: Proxy/Model.v. *)
From Coq Require Import Ascii String.
From stdpp Require Import prelude gmap strings list.
From Verif.Base Require Import Str Url.
From Verif.AccessLog Require Import Spec Model.
From Verif.Auth Require Import Model System Run Global.
From Verif.Proxy Require Import Model Spec Proofs Proofs2.
From Verif.Props Require AccessProps AuthProps.
Open Scope string_scope.
Open Scope list_scope.
Open Scope Z_scope.

(** ** C133 *)
(** At every moment: whatever request is being authorised, or has been, a Write was made for it, and just one. *)
Theorem C133_logged_first : forall L C lg clock x i r q,
  preachable L C lg clock x -> s_threads (x_sys x) !! i = Some (KServe r, q) ->
  exists n p t w ok,
    x_reqs x !! n = Some (p, Some i) /\ r = Request (a_path (p_log p)) (a_query (p_log p)) (p_auth p) /\
    wrote lg (p_log p) t w ok /\
    forall e, e ∈ x_writes x /\ w_req e = n <-> e = Wrote n t w ok.
Proof.
  intros L C lg clock x i r q Hx Hi. destruct (pinv_reachable L C lg clock x Hx) as [H1 H2 H3 H4 H5 H6].
  destruct (H1 _ _ _ Hi) as (n & p & Hn & <-). assert (Hin : n ∈ w_req <$> x_writes x) by (apply H5; eauto).
  apply elem_of_list_fmap in Hin as ([n' t w ok] & -> & Hin). exists n', p, t, w, ok.
  split; [done|]. split; [done|]. split; [exact (H6 _ _ _ Hin Hn)|]. intros e. split; [|by intros ->].
  intros [He E]. apply elem_of_list_lookup in He as [a Ha]. apply elem_of_list_lookup in Hin as [b Hb].
  assert (Eab : a = b).
  { eapply NoDup_lookup; [exact H4| |].
    - rewrite list_lookup_fmap, Ha. cbn. by rewrite E.
    - rewrite list_lookup_fmap, Hb. done. }
  subst b. rewrite Ha in Hb. by injection Hb.
Qed.
Print Assumptions C133_logged_first.
(** If no Write failed, the file holds the records of the requests that came past the log, each once, and nothing else. *)
Theorem C133_file : forall L C host port clock x,
  preachable L C (Some (host, port)) clock x -> Forall (fun e => w_ok e = true) (x_writes x) ->
  exists l : list (areq * Z), l.*1 ≡ₚ passed_on (x_reqs x) /\
    file (x_writes x) = concat_text ((fun y => log_access y.1 y.2 host port) <$> l).
Proof.
  intros L C host port clock x Hx Hok. destruct (records L C _ clock x Hx) as (l & Hl & Hp).
  exists l. split; [done|]. by apply records_written.
Qed.
Print Assumptions C133_file.

(** A request for app-b's logs, passed on to the gateway, with its record in the file *)
Definition served_ok (o : Auth.System.result toy) (s : sys toy) : bool :=
  AuthProps.forwards "/api/v1/read/app-b" "limit=5" o &&
  forallb (fun th : thread toy => match th.1 with KServe r => bool_decide (r = read_request "app-b" "Bearer good") | _ => true end)
    (s_threads s).
Lemma served (lg : logging) ok : (ok = false -> lg <> None) ->
  exists x, preachable toy toy_config lg 100 x /\
    s_threads (x_sys x) !! 2%nat = Some (KServe (read_request "app-b" "Bearer good"), Ret (RHttp (Forward "/api/v1/read/app-b" "limit=5"))) /\
    Forall (fun e => w_ok e = ok /\ (ok = false -> w_text e = "")) (x_writes x) /\
    Forall (fun y => y.1 = request_of (read_request "app-b" "Bearer good") /\ is_Some y.2) (x_reqs x) /\ x_reqs x <> [].
Proof.
  intros Hok.
  destruct (scripted_finishes toy_config 100 AuthProps.read_script (Step 2 ◦) 2 (KServe (read_request "app-b" "Bearer good"))
              served_ok) as (o & s & [Hi (s0 & Hs0 & Hs & _)] & Ht).
  { vm_compute. reflexivity. }
  unfold served_ok in Ht. apply andb_prop in Ht as [Ht Hall].
  assert (Ho : o = RHttp (Forward "/api/v1/read/app-b" "limit=5")).
  { destruct o as [[| | |p q|]| | |]; try done. cbn in Ht. apply andb_prop in Ht as [E1 E2].
    apply bool_decide_eq_true in E1 as ->. by apply bool_decide_eq_true in E2 as ->. }
  subst o. assert (Hr : reachable toy toy_config 100 s) by (by eapply reach_step).
  destruct (lift toy toy_config lg 100 s ok Hok Hr) as (x & Hx & Ex & Hw & Hq). exists x. subst s.
  destruct (pinv_reachable _ _ _ _ _ Hx) as [H1 H2 _ _ _ _].
  split; [done|]. split; [done|]. split; [done|]. split.
  - apply Forall_forall. intros [p o] Hy. destruct (proj1 (Forall_forall _ _) Hq _ Hy) as [E [i Ei]]. cbn in E, Ei. subst o.
    apply elem_of_list_lookup in Hy as [n Hn]. destruct (H2 _ _ _ Hn) as [q Hi'].
    apply elem_of_list_lookup_2 in Hi'. apply elem_of_list_In in Hi'. rewrite forallb_forall in Hall. apply Hall in Hi'.
    cbn in Hi'. apply bool_decide_eq_true in Hi'. cbn. split; [|by eexists]. by rewrite E, Hi'.
  - intros E. destruct (H1 _ _ _ Hi) as (n & p & Hn & _). by rewrite E in Hn.
Qed.
Example C133_case : exists x, preachable toy toy_config (Some ("10.0.0.2", "8083")) 100 x /\
  s_threads (x_sys x) !! 2%nat = Some (KServe (read_request "app-b" "Bearer good"), Ret (RHttp (Forward "/api/v1/read/app-b" "limit=5"))) /\
  Forall (fun e => w_ok e = true) (x_writes x).
Proof.
  destruct (served (Some ("10.0.0.2", "8083")) true) as (x & Hx & Hi & Hw & _); [done|]. exists x. split; [done|]. split; [done|].
  eapply Forall_impl; [exact Hw|]. by intros e [? _].
Qed.

(** ** C134 *)
(** One line per request: not so.  One request alone puts any number of lines in the file, with what looks like the record
    of a request that was never made (C56). *)
Theorem C134_lines_refuted : exists L C host port clock x r, preachable L C (Some (host, port)) clock x /\
  passed_on (x_reqs x) = [r] /\ clean_headers r host port /\ Forall (fun e => w_ok e = true) (x_writes x) /\
  lines (file (x_writes x)) = 7%nat /\
  exists r' now before after, a_remote r' <> a_remote r /\
    file (x_writes x) = append before (String (ascii_of_nat 10) (append (log_access r' now host port) after)).
Proof.
  exists toy, toy_config, "10.0.0.2", "8083", 100.
  set (p := PReq AccessProps.forger "").
  exists (Proxy [(p, Some 2%nat)] [Wrote 0 2000000 (log_access AccessProps.forger 2000000 "10.0.0.2" "8083") true]
    (Sys (Mem ∅ 0 ∅ 100) ([(KRefresh, System.start toy toy_config KRefresh); (KPrune, System.start toy toy_config KPrune)] ++
       [(KServe (handed p), System.start toy toy_config (KServe (handed p)))]) [])), AccessProps.forger.
  split.
  { eapply preach_step; [eapply preach_step; [apply preach_init|apply (pstep_arrive _ _ _ p)]|].
    exact (pstep_log toy toy_config (Some ("10.0.0.2", "8083")) 0 p 2000000 _ true [(p, None)] [] (Mem ∅ 0 ∅ 100)
      [(KRefresh, System.start toy toy_config KRefresh); (KPrune, System.start toy toy_config KPrune)] [] eq_refl eq_refl). }
  split; [done|]. split; [by repeat constructor|]. split; [by repeat constructor|]. split; [vm_compute; reflexivity|].
  exists AccessProps.victim, 1000000, (append "CEF:0|cloud_foundry|log_cache|1.0|GET /x" ""). eexists.
  split; [done|]. vm_compute. reflexivity.
Qed.
Print Assumptions C134_lines_refuted.
(** If no request has a newline in its decoded path there are as many lines as requests that came past the log. *)
Theorem C134_lines_partial : forall L C host port clock x,
  preachable L C (Some (host, port)) clock x -> Forall (fun e => w_ok e = true) (x_writes x) ->
  Forall (fun r => clean_headers r host port /\ lines (a_path r) = 0%nat) (passed_on (x_reqs x)) ->
  lines (file (x_writes x)) = length (passed_on (x_reqs x)).
Proof.
  intros L C host port clock x Hx Hok Hc. destruct (C133_file L C host port clock x Hx Hok) as (l & Hp & ->).
  rewrite lines_of; [|exact (passed_forall (fun r => one_line r host port) l (x_reqs x) Hp Hc)]. rewrite <-Hp. by rewrite fmap_length.
Qed.
Print Assumptions C134_lines_partial.
(** And a request that is passed on to the gateway always has a line of its own, whatever others send: it starts where a
    line starts, and it is a single one. *)
Theorem C134_passed_on : forall L C host port clock x i r path query,
  preachable L C (Some (host, port)) clock x -> Forall (fun e => w_ok e = true) (x_writes x) ->
  s_threads (x_sys x) !! i = Some (KServe r, Ret (RHttp (Forward path query))) ->
  exists n p, x_reqs x !! n = Some (p, Some i) /\ r = Request (a_path (p_log p)) (a_query (p_log p)) (p_auth p) /\
    (clean_headers (p_log p) host port ->
     exists t before after, (before = "" \/ exists b, before = append b (String (ascii_of_nat 10) "")) /\
       file (x_writes x) = append before (append (log_access (p_log p) t host port) after) /\
       lines (log_access (p_log p) t host port) = 1%nat).
Proof.
  intros L C host port clock x i r path query Hx Hok Hi.
  destruct (pinv_reachable L C _ clock x Hx) as [H1 _ _ _ _ _]. destruct (H1 _ _ _ Hi) as (n & p & Hn & <-).
  exists n, p. split; [done|]. split; [done|]. intros Hc.
  destruct (at_line L C clock host port x n p i Hx Hok Hn) as (t & before & after & Hb & E).
  exists t, before, after. split; [exact Hb|]. split; [exact E|].
  destruct (finished L C clock (x_sys x) (reachable_sys _ _ _ _ _ Hx) i _ _ Hi) as [s' Hf].
  apply forward_routes, route_lines in Hf as [Hl _]. change (lines (a_path (p_log p)) = 0%nat) in Hl. rewrite AccessLog.Proofs.log_lines by exact Hc. by rewrite Hl.
Qed.
Print Assumptions C134_passed_on.
Example C134_case : exists x, preachable toy toy_config (Some ("10.0.0.2", "8083")) 100 x /\
  Forall (fun e => w_ok e = true) (x_writes x) /\ x_reqs x <> [] /\
  s_threads (x_sys x) !! 2%nat = Some (KServe (read_request "app-b" "Bearer good"), Ret (RHttp (Forward "/api/v1/read/app-b" "limit=5"))) /\
  Forall (fun r => clean_headers r "10.0.0.2" "8083" /\ lines (a_path r) = 0%nat) (passed_on (x_reqs x)).
Proof.
  destruct (served (Some ("10.0.0.2", "8083")) true) as (x & Hx & Hi & Hw & Hq & Hne); [done|]. exists x. split; [done|].
  split; [eapply Forall_impl; [exact Hw|]; by intros e [? _]|]. split; [done|]. split; [done|].
  apply Forall_forall. intros r Hr. apply elem_of_list_omap in Hr as ([p o] & Hin & E).
  destruct (proj1 (Forall_forall _ _) Hq _ Hin) as [Ep _]. cbn in Ep, E. destruct o; [|done]. injection E as <-. rewrite Ep.
  split; [by repeat constructor|done].
Qed.

(** ** C135 *)
(** What clients are answered, and what is asked of UAA, CAPI and the backend, is the same whether the log is written,
    cannot be written, or is not configured: every behaviour is possible with every Write failing, with every Write
    succeeding and without a log, and the log adds none. *)
Theorem C135_indifferent : forall L C lg clock s,
  reachable L C clock s <-> exists x, preachable L C lg clock x /\ x_sys x = s.
Proof.
  intros L C lg clock s. split.
  - intros H. destruct (lift L C lg clock s true) as (x & Hx & E & _); [done|done|]. eauto.
  - intros (x & Hx & <-). by eapply reachable_sys.
Qed.
Print Assumptions C135_indifferent.
Theorem C135_failing : forall L C host port clock s, reachable L C clock s ->
  exists x, preachable L C (Some (host, port)) clock x /\ x_sys x = s /\
    Forall (fun e => w_ok e = false) (x_writes x) /\ file (x_writes x) = "".
Proof.
  intros L C host port clock s H. destruct (lift L C (Some (host, port)) clock s false) as (x & Hx & E & Hw & _); [done|done|].
  exists x. split; [done|]. split; [done|]. split; [eapply Forall_impl; [exact Hw|]; by intros e [? _]|].
  clear -Hw. induction Hw as [|w ws [_ H] _ IH]; [done|]. change (file (w :: ws)) with (append (w_text w) (file ws)).
  by rewrite H, IH.
Qed.
Print Assumptions C135_failing.
Example C135_case : exists x, preachable toy toy_config (Some ("10.0.0.2", "8083")) 100 x /\ x_reqs x <> [] /\
  s_threads (x_sys x) !! 2%nat = Some (KServe (read_request "app-b" "Bearer good"), Ret (RHttp (Forward "/api/v1/read/app-b" "limit=5"))) /\
  Forall (fun e => w_ok e = false) (x_writes x).
Proof.
  destruct (served (Some ("10.0.0.2", "8083")) false) as (x & Hx & Hi & Hw & _ & Hne); [done|]. exists x.
  split; [done|]. split; [done|]. split; [done|]. eapply Forall_impl; [exact Hw|]. by intros e [? _].
Qed.

(** ** C136 *)
(** The gateway is asked for the path the client asked for, and for the query the middleware decided on, when it is
    configured by scheme and host, with or without a closing slash. *)
Theorem C136_gateway_asked : forall L C lg clock x i r path query gateway,
  preachable L C lg clock x -> s_threads (x_sys x) !! i = Some (KServe r, Ret (RHttp (Forward path query))) ->
  gateway = "" \/ gateway = "/" ->
  director gateway "" path query = (rq_path r, query).
Proof.
  intros L C lg clock x i r path query gateway Hx Hi Hg.
  destruct (finished L C clock (x_sys x) (reachable_sys _ _ _ _ _ Hx) i _ _ Hi) as [s' Hf].
  pose proof (forward_path L C _ _ _ _ _ _ Hf) as ->. apply forward_routes, route_lines in Hf as [_ (rest & E & _)].
  by eapply director_plain.
Qed.
Print Assumptions C136_gateway_asked.
Example C136_case : director "/" "" "/api/v1/read/app-b" "limit=5" = ("/api/v1/read/app-b", "limit=5") /\
  director "/cache/" "" "/api/v1/read/app-b" "limit=5" = ("/cache/api/v1/read/app-b", "limit=5").
Proof. done. Qed.
