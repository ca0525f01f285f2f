(** C145: an outage of CAPI does not outlast itself.  Vocabulary: Auth/Spec.v, and refused_by_list in
    Auth/Outage.v. *)
From Coq Require Import Ascii String.
From stdpp Require Import prelude gmap strings list.
From Verif.Base Require Import Str Url.
From Verif.Promql Require Import Model Spec.
From Verif.Auth Require Import Model System Spec Global Complete Run Outage.
From Verif.Props Require Import AuthProps RefusalProps.
Open Scope string_scope.
Open Scope list_scope.
Open Scope Z_scope.

(** A user is refused a source without CAPI being asked, although the complete list CAPI gave for their token
    has it, that list is not older than the cache lifetime, and CAPI never gave another: all requests after
    it failed. *)
Definition down (t : Z) : list (answer toy) := [at_time t; XReply None; at_time t].
Definition before_outage : list (choice toy) :=
  [Arrive (KAuthorize "app-a" "Bearer good")] ++ go 2 ([◦] ++ listing 101 ++ [at_time 102; ◦]).
Definition outage (t : Z) : list (choice toy) :=
  [Arrive (KAuthorize "app-z" "Bearer good")] ++ go 3 ([◦; at_time t] ++ down t ++ [at_time t; ◦]) ++
  [Arrive (KAuthorize "app-a" "Bearer good")] ++ go 4 ([◦; at_time t] ++ down t ++ [at_time t; ◦]) ++
  [Arrive (KAuthorize "app-a" "Bearer good")] ++ go 5 ([◦; at_time t] ++ down t ++ [at_time t; ◦]).
Definition outage_script : list (choice toy) :=
  before_outage ++ outage 105 ++ [Arrive (KAuthorize "app-a" "Bearer good")] ++ go 6 [◦].
Definition capi_url (p : string) : url := Url "https" "capi" p "".
Definition log_upto : list (nat * act toy) :=
  [(2%nat, ACacheLoad "Bearer good" None); (2%nat, ANow 101);
   (2%nat, ACapi (capi_url "https://capi/v3/apps") "Bearer good" (Some (Reply 200 "apps1")));
   (2%nat, ANow 101); (2%nat, ANow 101);
   (2%nat, ACapi (capi_url "http://elsewhere/p2") "Bearer good" (Some (Reply 200 "apps2")));
   (2%nat, ANow 101); (2%nat, ANow 101);
   (2%nat, ACapi (capi_url "https://capi/v3/service_instances") "Bearer good" (Some (Reply 200 "services")));
   (2%nat, ANow 101)].
Definition failed (x : nat * act toy) : bool :=
  match x.2 with ACapi _ _ (Some _) => false | _ => true end.
Theorem C145_outage_refuted : exists L C clock i id tok s j h1 ts h2,
  finishes L C clock i (KAuthorize id tok) (RBool false) s /\ s_log s = h1 ++ (j, ANow ts) :: h2 /\
  (exists ids, listed L C tok (calls (own j h1)) ids /\ id ∈ ids) /\
  (forall x, x ∈ own i (s_log s) -> exists t, x = ANow t /\ t < ts + cf_cache C \/ exists e, x = ACacheLoad tok e) /\
  (exists t, (i, ANow t) ∈ h2) /\
  (forall k u t r, (k, ACapi u t r) ∈ h2 -> r = None) /\ calls (own i (s_log s)) = [].
Proof.
  destruct (scripted_finishes toy_config 100 outage_script (Step 6 (at_time 106)) 6 (KAuthorize "app-a" "Bearer good")
              (fun o s => says false o && bool_decide (take 11 (s_log s) = log_upto ++ [(2%nat, ANow 102)]) &&
                 forallb failed (drop 11 (s_log s)) &&
                 bool_decide (own 6 (drop 11 (s_log s)) = [ACacheLoad "Bearer good" (Some (Entry [] 3 135)); ANow 106])))
    as (o & s & Hf & Ht).
  { vm_compute. reflexivity. }
  apply andb_prop in Ht as [Ht Hown]. apply andb_prop in Ht as [Ht Hall]. apply andb_prop in Ht as [Ho Htake].
  apply bool_decide_eq_true in Htake, Hown. destruct o as [|[]| |]; try done.
  set (rest := drop 11 (s_log s)) in *.
  assert (E : s_log s = log_upto ++ (2%nat, ANow 102) :: rest).
  { rewrite <- (take_drop 11 (s_log s)), Htake, <- app_assoc. done. }
  assert (Eo : own 6 (s_log s) = [ACacheLoad "Bearer good" (Some (Entry [] 3 135)); ANow 106]).
  { rewrite E, <- Hown. unfold own. by rewrite filter_app, fmap_app. }
  exists toy, toy_config, 100, 6%nat, "app-a", "Bearer good", s, 2%nat, log_upto, 102, rest.
  split; [done|]. split; [done|]. split; [|split; [|split; [|split]]].
  - exists ["app-a"; "app-b"; "svc-c"]. split; [|left].
    exists (capi_url "https://capi/v3/apps"), (capi_url "https://capi/v3/service_instances").
    exists [(capi_url "https://capi/v3/apps", "Bearer good", Some (Reply 200 "apps1"));
            (capi_url "http://elsewhere/p2", "Bearer good", Some (Reply 200 "apps2"))],
           [(capi_url "https://capi/v3/service_instances", "Bearer good", Some (Reply 200 "services"))].
    exists ([Resource "app-a" "a"] ++ [Resource "app-b" "b"]), [Resource "svc-c" "c"].
    split; [done|]. split; [done|]. split; [vm_compute; reflexivity|]. split; [|split; [|vm_compute; reflexivity]].
    + eapply (pages_more _ _ _ _ _ "http://elsewhere/p2" (capi_url "http://elsewhere/p2")); [vm_compute; reflexivity|done|done|].
      apply pages_last. vm_compute. reflexivity.
    + apply pages_last. vm_compute. reflexivity.
  - intros x. rewrite Eo. intros [->|[->|Hx]%elem_of_cons]%elem_of_cons; [| |by apply elem_of_nil in Hx].
    + exists 0. right. eauto.
    + exists 106. left. done.
  - exists 106. apply own_elem. rewrite Hown. right. left.
  - intros k u t r Hin. rewrite forallb_forall in Hall. apply elem_of_list_In in Hin. specialize (Hall _ Hin). by destruct r.
  - by rewrite Eo.
Qed.
Print Assumptions C145_outage_refuted.

(** If CAPI's address is a URL: a user asking when the cache lifetime has passed since the last goroutine that
    saw a request for their token fail looked at the clock, and whose own requests do not fail, is refused
    only on the strength of a complete list CAPI gave. *)
Theorem C145_recovered_partial : forall L C clock i id tok s T,
  url_parse L (append (cf_capi C) "/v3/apps") <> None ->
  url_parse L (append (cf_capi C) "/v3/service_instances") <> None ->
  finishes L C clock i (KAuthorize id tok) (RBool false) s ->
  (forall j u r, (j, ACapi u tok r) ∈ s_log s -> bad_answer L r -> j <> i /\ forall t, (j, ANow t) ∈ s_log s -> t <= T) ->
  (forall t, (i, ANow t) ∈ s_log s -> T + cf_cache C <= t) ->
  refused_by_list (C := C) (s_log s) i tok id.
Proof. intros L C clock i id tok s T Hu Hv Hf Hb Hi. eapply refused_recovered; eauto. by eapply authorize_no. Qed.
Print Assumptions C145_recovered_partial.
Theorem C145_read_partial : forall L C clock i r s id T,
  url_parse L (append (cf_capi C) "/v3/apps") <> None ->
  url_parse L (append (cf_capi C) "/v3/service_instances") <> None ->
  rq_path r = append "/api/v1/read/" id -> has_char newline id = false ->
  finishes L C clock i (KServe r) (RHttp (Status 404)) s ->
  (forall j u a, (j, ACapi u (rq_auth r) a) ∈ s_log s -> bad_answer L a -> j <> i /\ forall t, (j, ANow t) ∈ s_log s -> t <= T) ->
  (forall t, (i, ANow t) ∈ s_log s -> T + cf_cache C <= t) ->
  rq_auth r = "" \/ doubted L (s_log s) i (rq_auth r) \/
  exists c, vouched L (s_log s) i (rq_auth r) c /\ ~ admin c /\ refused_by_list (C := C) (s_log s) i (rq_auth r) id.
Proof.
  intros L C clock i r s id T Hu Hv Hp Hn Hf Hb Hi.
  destruct (read_no _ _ _ _ _ Hp Hn Hf) as [?|[?|(c & Hc & Ha & Hr)]]; [by left|right; by left|right; right].
  exists c. split; [done|]. split; [done|]. eapply refused_recovered; eauto.
Qed.
Print Assumptions C145_read_partial.
(** the outage above, and a request for a source the user may not see when it is over *)
Definition recovered_script : list (choice toy) :=
  before_outage ++ outage 105 ++ [Arrive (KAuthorize "app-z" "Bearer good")] ++
  go 6 ([◦; at_time 140] ++ listing 141 ++ [at_time 141]).
Definition recovered_ok (i : nat) (T : Z) (life : Z) (tok : string) (h : list (nat * act toy)) : bool :=
  forallb (fun x => match x with
                    | (j, ACapi _ _ None) => negb (bool_decide (j = i)) &&
                        forallb (fun y => match y with (k, ANow t) => negb (bool_decide (k = j)) || bool_decide (t <= T) | _ => true end) h
                    | (j, ACapi _ _ (Some (Reply 200 b))) => existsb (String.eqb b) ["apps1"; "apps2"; "services"]
                    | (j, ACapi _ _ _) => false
                    | (k, ANow t) => negb (bool_decide (k = i)) || bool_decide (T + life <= t)
                    | _ => true
                    end) h.
Example C145_case : exists s,
  finishes toy toy_config 100 6 (KAuthorize "app-z" "Bearer good") (RBool false) s /\
  (forall j u r, (j, ACapi u "Bearer good" r) ∈ s_log s -> bad_answer toy r -> j <> 6%nat /\ forall t, (j, ANow t) ∈ s_log s -> t <= 105) /\
  (forall t, (6%nat, ANow t) ∈ s_log s -> 105 + cf_cache toy_config <= t) /\
  exists j u, (j, ACapi u "Bearer good" None) ∈ s_log s.
Proof.
  destruct (scripted_finishes toy_config 100 recovered_script (Step 6 ◦) 6 (KAuthorize "app-z" "Bearer good")
              (fun o s => says false o && recovered_ok 6 105 30 "Bearer good" (s_log s) &&
                          bool_decide ((3%nat, ACapi (capi_url "https://capi/v3/apps") "Bearer good" None) ∈ s_log s)))
    as (o & s & Hf & Ht).
  { vm_compute. reflexivity. }
  apply andb_prop in Ht as [Ht Hin]. apply bool_decide_eq_true in Hin. apply andb_prop in Ht as [Ho Hok].
  destruct o as [|[]| |]; try done. exists s. split; [done|]. unfold recovered_ok in Hok. rewrite forallb_forall in Hok.
  split; [|split; [|by eauto]].
  - intros j u r Hr Hb. apply elem_of_list_In in Hr. specialize (Hok _ Hr). cbn in Hok. destruct r as [[st b]|].
    + exfalso. destruct (decide (st = 200)) as [->|Hne].
      * cbn in Hok. assert (Hb' : b = "apps1" \/ b = "apps2" \/ b = "services").
        { rewrite !orb_true_iff, !String.eqb_eq in Hok. destruct Hok as [H1|[H1|[H1|H1]]]; [auto|auto|auto|done]. }
        destruct Hb as [Hb|[Hb|(rs & href & Hj & Hne & Hp)]]; [done| |done].
        cbn [r_body] in Hb. destruct Hb' as [-> | [-> | ->]]; vm_compute in Hb; done.
      * destruct st as [|st|st]; try done.
        repeat (destruct st as [st|st|]; try done).
    + apply andb_prop in Hok as [Hj Hall]. apply negb_true_iff, bool_decide_eq_false in Hj. split; [done|].
      intros t Ht. rewrite forallb_forall in Hall. apply elem_of_list_In in Ht. specialize (Hall _ Ht). cbn in Hall.
      rewrite bool_decide_true in Hall by done. by apply bool_decide_eq_true in Hall.
  - intros t Ht. apply elem_of_list_In in Ht. specialize (Hok _ Ht). cbn in Hok. by apply bool_decide_eq_true in Hok.
Qed.
