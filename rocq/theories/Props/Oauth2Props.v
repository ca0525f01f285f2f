(** Properties of the HTTP client that adds an Authorization header. *)
From Coq Require Import Ascii String Lia.
From stdpp Require Import prelude gmap strings list.
From Verif.Base Require Import Str Url.
From Verif.Oauth2 Require Import Model Spec Proofs.
Open Scope string_scope.
Open Scope list_scope.
Open Scope Z_scope.

(** ** Runs for the examples: an OAuth2 server that answers with the access token alone *)
Definition bearer (body : string) : option (string * string) := Some ("bearer", body).
Definition some_config : config := Config true "cf client" "s&cret" "" "".
Definition user_config : config := Config true "cf" "" "me" "p=w&d".
Notation run := (rtc (step bearer some_config)).

(** A call, at index i, that asks for a token, is sent and is answered r *)
Definition fetching (token : string) (r : response) : list act :=
  [AOther; ALoad ""; APost (request_for some_config) (Some (200, token));
   AStore (append "bearer " token); ALoad (append "bearer " token); AOther;
   ASend (Some [append "bearer " token]) r] ++ if rejects r then [AStore ""] else [].

Ltac mv1 i t := eapply rtc_l; [eapply (step_move _ _ _ _ _ i); [reflexivity|t] |];
             cbn [insert list_insert app m_token m_locked].
Ltac call := eapply rtc_l; [apply (step_call _ _ _ _ _ None)|]; cbn [app].

(** A refused call followed by another *)
Definition two_calls : sys :=
  Sys (Mem false "bearer b") [(None, Done (Some (404, "")));  (None, Done (Some (200, "ok")))]
    ((pair 0%nat <$> fetching "a" (Some (404, ""))) ++ (pair 1%nat <$> fetching "b" (Some (200, "ok")))).
Lemma two_calls_reachable : reachable bearer some_config two_calls.
Proof.
  unfold reachable, initial, two_calls. call.
  mv1 0%nat ltac:(apply m_lock). mv1 0%nat ltac:(by apply m_have_not).
  mv1 0%nat ltac:(apply (m_post _ _ (Some (200, "a"))); reflexivity). mv1 0%nat ltac:(apply m_store).
  mv1 0%nat ltac:(apply m_load). mv1 0%nat ltac:(apply m_unlock). mv1 0%nat ltac:(apply (m_send _ _ _ (Some (404, "")))).
  mv1 0%nat ltac:(apply m_clear). call.
  mv1 1%nat ltac:(apply m_lock). mv1 1%nat ltac:(by apply m_have_not).
  mv1 1%nat ltac:(apply (m_post _ _ (Some (200, "b"))); reflexivity). mv1 1%nat ltac:(apply m_store).
  mv1 1%nat ltac:(apply m_load). mv1 1%nat ltac:(apply m_unlock). mv1 1%nat ltac:(apply (m_send _ _ _ (Some (200, "ok")))).
  apply rtc_refl.
Qed.

(** A call that sends an empty header: call 0's refusal makes the client forget the token between the two times
    call 1 reads it *)
Definition empty_header : sys :=
  Sys (Mem false "") [(None, Done (Some (401, ""))); (None, Done (Some (200, "ok")))]
    [(0%nat, AOther); (0%nat, ALoad ""); (0%nat, APost (request_for some_config) (Some (200, "a")));
     (0%nat, AStore "bearer a"); (0%nat, ALoad "bearer a"); (0%nat, AOther);
     (1%nat, AOther); (1%nat, ALoad "bearer a");
     (0%nat, ASend (Some ["bearer a"]) (Some (401, ""))); (0%nat, AStore "");
     (1%nat, ALoad ""); (1%nat, AOther); (1%nat, ASend (Some [""]) (Some (200, "ok")))].
Lemma empty_header_reachable : reachable bearer some_config empty_header.
Proof.
  unfold reachable, initial, empty_header. call. call.
  mv1 0%nat ltac:(apply m_lock). mv1 0%nat ltac:(by apply m_have_not).
  mv1 0%nat ltac:(apply (m_post _ _ (Some (200, "a"))); reflexivity). mv1 0%nat ltac:(apply m_store).
  mv1 0%nat ltac:(apply m_load). mv1 0%nat ltac:(apply m_unlock).
  mv1 1%nat ltac:(apply m_lock). mv1 1%nat ltac:(by apply m_have).
  mv1 0%nat ltac:(apply (m_send _ _ _ (Some (401, "")))). mv1 0%nat ltac:(apply m_clear).
  mv1 1%nat ltac:(apply m_load). mv1 1%nat ltac:(apply m_unlock). mv1 1%nat ltac:(apply (m_send _ _ _ (Some (200, "ok")))).
  apply rtc_refl.
Qed.

(** ** C109: what a call of Do sends *)
(** A request that has an Authorization header is sent once, as it is; nothing else is asked of anyone, and the
    answer to it is what Do returns *)
Theorem C109_given json_token C s i header r :
  reachable json_token C s -> s_calls s !! i = Some (Some header, Done r) ->
  requests i s = [ASend (Some header) r].
Proof. apply given_requests. Qed.
Print Assumptions C109_given.

(** Otherwise at most one token is asked for, the request is sent at most once and after that, and Do returns
    the answer to it; it is not sent, and Do returns an error, only if a token was needed and not given *)
Theorem C109_sent json_token C s i r :
  reachable json_token C s -> s_calls s !! i = Some (None, Done r) ->
  (cf_addr_ok C = false /\ r = None /\ requests i s = []) \/
  (exists q r0, (~ exists t, gives json_token r0 t) /\ r = None /\ requests i s = [APost q r0]) \/
  (exists t, requests i s = [ASend (Some [t]) r]) \/
  (exists q r0 t0 t, gives json_token r0 t0 /\ requests i s = [APost q r0; ASend (Some [t]) r]).
Proof. intros R E. destruct (own_requests _ _ _ _ _ R E) as [?|[(? & ? & ? & ?)|[?|(? & ? & ? & ? & ?)]]]; eauto 12. Qed.
Print Assumptions C109_sent.

Example C109_case :
  reachable bearer some_config two_calls /\
  requests 0 two_calls = [APost (request_for some_config) (Some (200, "a")); ASend (Some ["bearer a"]) (Some (404, ""))] /\
  s_calls two_calls !! 0%nat = Some (None, Done (Some (404, ""))).
Proof. split; [apply two_calls_reachable|]. split; reflexivity. Qed.

(** ** C110: the header that is sent *)
(** Not every header the client adds is a token the OAuth2 server gave: it can be empty *)
Theorem C110_header_refuted :
  ~ forall json_token C s i t r, reachable json_token C s -> needs_token s i ->
      (i, ASend (Some [t]) r) ∈ s_log s -> issued json_token (s_log s) t.
Proof.
  intros H. destruct (H bearer some_config empty_header 1%nat "" (Some (200, "ok"))) as (j & q & r & _ & G).
  - apply empty_header_reachable.
  - by eexists.
  - cbn. repeat (left || right).
  - destruct G as (b & ty & ac & _ & _ & T). by destruct ty.
Qed.
Print Assumptions C110_header_refuted.

(** It is one the OAuth2 server gave before, or empty and then the refusal of another call's token made the
    client forget its token while this call was under way *)
Theorem C110_header_partial json_token C s h i t r h' :
  reachable json_token C s -> needs_token s i -> s_log s = h ++ (i, ASend (Some [t]) r) :: h' ->
  issued json_token h t \/ (t = "" /\ interfered i h).
Proof. intros R N L. by eapply sent_header. Qed.
Print Assumptions C110_header_partial.

Example C110_case : issued bearer (s_log two_calls) "bearer b" /\ interfered 1 (s_log empty_header).
Proof.
  split.
  - exists 1%nat, (request_for some_config), (Some (200, "b")). split.
    + cbn. repeat (left || right).
    + by exists "b", "bearer", "b".
  - eexists (take 6 (s_log empty_header)), AOther, [_; _], 0%nat, _. split; [reflexivity|]. split; [done|].
    exists "bearer a", (Some (401, "")). split.
    + cbn. repeat (left || right).
    + exists 401, "". split; [done|lia].
Qed.

(** ** C111: how many tokens are asked for *)
(** However many calls there are and however they interleave, the OAuth2 server gives at most one token more
    than the number of requests whose token was refused *)
Theorem C111_tokens json_token C s :
  reachable json_token C s -> (tokens_given json_token s <= 1 + rejections s)%nat.
Proof. apply tokens_bound. Qed.
Print Assumptions C111_tokens.

Example C111_case : tokens_given bearer two_calls = 2%nat /\ rejections two_calls = 1%nat.
Proof. split; reflexivity. Qed.

(** ** C115: when a new token is asked for *)
(** A new token is not only asked for after a 401 *)
Theorem C115_unauthorized_refuted :
  ~ forall json_token C s, reachable json_token C s ->
      (forall i header status rest, (i, ASend header (Some (status, rest))) ∈ s_log s -> status <> 401) ->
      (tokens_given json_token s <= 1)%nat.
Proof.
  intros H. specialize (H bearer some_config two_calls two_calls_reachable). cbn in H.
  assert (2 <= 1)%nat; [|lia]. apply H. intros i header status rest X.
  repeat (apply elem_of_cons in X as [X|X]; [try done; injection X; intros; subst; done|]). by apply elem_of_nil in X.
Qed.
Print Assumptions C115_unauthorized_refuted.

(** The OAuth2 server gives a second token only after a request that carried a token was refused *)
Theorem C115_refused_partial json_token C s :
  reachable json_token C s -> (2 <= tokens_given json_token s)%nat ->
  exists i header r, (i, ASend header r) ∈ s_log s /\ needs_token s i /\ rejected r.
Proof.
  intros R T. pose proof (tokens_bound _ _ _ R) as B. unfold rejections in B.
  destruct (filter _ (s_log s)) as [|[i a] l] eqn:E; [cbn in B; lia|].
  assert (X : (i, a) ∈ filter (fun x => rejection s x = true) (s_log s)) by (rewrite E; left).
  apply elem_of_list_filter in X as [X L]. unfold rejection in X. cbn in X. destruct a; try done.
  destruct (s_calls s !! i) as [[[|] p]|] eqn:Q; try done. apply bool_decide_eq_true in X.
  exists i, header, r. split; [done|]. split; [by exists p|done].
Qed.
Print Assumptions C115_refused_partial.

(** ** C112: a refused token is given up *)
(** Once a call whose token was refused has ended, calls made later only use tokens obtained by calls that had
    not ended by then (or the empty header of C110) *)
Theorem C112_given_up json_token C s s1 s' i p header r j p' t r' :
  reachable json_token C s -> step json_token C s s1 ->
  s_calls s !! i = Some (None, p) -> ~ over s i -> over s1 i ->
  (i, ASend header r) ∈ s_log s1 -> rejected r ->
  rtc (step json_token C) s1 s' -> (length (s_calls s1) <= j)%nat -> s_calls s' !! j = Some (None, p') ->
  (j, ASend (Some [t]) r') ∈ s_log s' -> t <> "" ->
  exists k q r0, ~ over s1 k /\ (k, APost q r0) ∈ s_log s' /\ gives json_token r0 t.
Proof. intros. edestruct given_up as (k & r0 & ?); [done..|]. eauto. Qed.
Print Assumptions C112_given_up.

(** The two steps of [two_calls] at which call 0 ends *)
Example C112_case : exists s s1,
  reachable bearer some_config s /\ step bearer some_config s s1 /\ run s1 two_calls /\
  s_calls s !! 0%nat = Some (None, Clear (Some (404, ""))) /\ ~ over s 0 /\ over s1 0 /\
  (0%nat, ASend (Some ["bearer a"]) (Some (404, ""))) ∈ s_log s1 /\ rejected (Some (404, "")) /\
  (length (s_calls s1) <= 1)%nat.
Proof.
  set (h := pair 0%nat <$> take 7 (fetching "a" (Some (404, "")))).
  exists (Sys (Mem false "bearer a") [(None, Clear (Some (404, "")))] h),
         (Sys (Mem false "") [(None, Done (Some (404, "")))] (h ++ [(0%nat, AStore "")])).
  unfold h. cbn. split_and!.
  - unfold reachable, initial. call.
    mv1 0%nat ltac:(apply m_lock). mv1 0%nat ltac:(by apply m_have_not).
    mv1 0%nat ltac:(apply (m_post _ _ (Some (200, "a"))); reflexivity). mv1 0%nat ltac:(apply m_store).
    mv1 0%nat ltac:(apply m_load). mv1 0%nat ltac:(apply m_unlock). mv1 0%nat ltac:(apply (m_send _ _ _ (Some (404, "")))).
    apply rtc_refl.
  - apply (step_move bearer some_config (Mem false "bearer a") [(None, Clear (Some (404, "")))] h 0%nat None
             (Clear (Some (404, ""))) (AStore "") (Done (Some (404, ""))) (Mem false "")); [reflexivity|].
    apply (m_clear _ _ _ (Mem false "bearer a")).
  - unfold two_calls. call.
    mv1 1%nat ltac:(apply m_lock). mv1 1%nat ltac:(by apply m_have_not).
    mv1 1%nat ltac:(apply (m_post _ _ (Some (200, "b"))); reflexivity). mv1 1%nat ltac:(apply m_store).
    mv1 1%nat ltac:(apply m_load). mv1 1%nat ltac:(apply m_unlock). mv1 1%nat ltac:(apply (m_send _ _ _ (Some (200, "ok")))).
    apply rtc_refl.
  - done.
  - by intros (? & ? & [=]).
  - by eexists _, _.
  - repeat (left || right).
  - exists 404, "". split; [done|lia].
  - lia.
Qed.

(** ** C113: calls do not block each other for ever *)
(** While a call is not over, some call that is not over can go on, and each call takes at most eight steps *)
Theorem C113_progress json_token C s i :
  reachable json_token C s -> (i < length (s_calls s))%nat -> ~ over s i ->
  exists k a m' cs', ~ over s k /\ step json_token C s (Sys m' cs' (s_log s ++ [(k, a)])).
Proof. apply progress. Qed.
Print Assumptions C113_progress.
Theorem C113_bounded json_token C s i : reachable json_token C s -> (length (own i (s_log s)) <= 8)%nat.
Proof. apply bounded. Qed.
Print Assumptions C113_bounded.

(** Call 1 waits for call 0, which holds the lock *)
Example C113_case : exists s,
  reachable bearer some_config s /\ m_locked (s_mem s) = true /\ ~ over s 1 /\ (1 < length (s_calls s))%nat /\
  length (own 0 (s_log two_calls)) = 8%nat.
Proof.
  exists (Sys (Mem true "") [(None, Test); (None, Start None)] [(0%nat, AOther)]). split_and!.
  - unfold reachable, initial. call. call. mv1 0%nat ltac:(apply m_lock). apply rtc_refl.
  - done.
  - by intros (? & ? & [=]).
  - cbn. lia.
  - reflexivity.
Qed.

(** ** C114: the credentials that are presented *)
(** Every request for a token carries, whatever characters they contain, exactly the credentials configured *)
Theorem C114_credentials json_token C s i q r :
  reachable json_token C s -> (i, APost q r) ∈ s_log s -> presents C q.
Proof. apply posts_present. Qed.
Print Assumptions C114_credentials.

Example C114_case :
  tr_form (request_for some_config) = "client_id=cf+client&grant_type=client_credentials" /\
  tr_form (request_for user_config) = "client_id=cf&client_secret=&grant_type=password&password=p%3Dw%26d&username=me".
Proof. split; vm_compute; reflexivity. Qed.
