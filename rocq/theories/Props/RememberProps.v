(** What the proxy remembers (C90), followed by a case meeting the hypotheses.  Vocabulary: Auth/Spec.v,
    Auth/SpecRemember.v.  Programs: Auth/Model.v.  Executions: Auth/System.v. *)
From Coq Require Import Ascii String.
From stdpp Require Import prelude gmap strings list.
From Verif.Base Require Import Str Url.
From Verif.Promql Require Import Model Spec.
From Verif.Auth Require Import Model System Spec SpecRemember Trace Local Global Complete Run Remember.
Open Scope string_scope.
Open Scope list_scope.
Open Scope Z_scope.

(** ** C90, over the whole history *)
(** Goroutine j obtained the complete list of the sources of a token and finished; it looked at the clock last
    at ts.  Goroutine i arrives later and asks about a source on that list with the same token, and looks at no
    clock that is a lifetime past ts.  No other goroutine has asked CAPI about this token.  Then, whatever all
    the others do - reads with other tokens, key refreshes, the pruner - i does not ask CAPI, and the source is
    not refused. *)
Theorem C90_remembered_partial : forall L C clock s0 j kd0 id0 tok o0 ids h1 ts h2 s i kd id o,
  reachable L C clock s0 -> asks_source kd0 id0 tok -> s_threads s0 !! j = Some (kd0, Ret o0) ->
  listed L C tok (calls (own j (s_log s0))) ids -> id ∈ ids ->
  s_log s0 = h1 ++ (j, ANow ts) :: h2 -> (forall t, (j, ANow t) ∉ h2) ->
  rtc (step L C) s0 s -> (length (s_threads s0) <= i)%nat -> asks_source kd id tok -> s_threads s !! i = Some (kd, Ret o) ->
  (forall k u r, (k, ACapi u tok r) ∈ s_log s -> k = j \/ k = i) ->
  (forall t, (i, ANow t) ∈ s_log s -> t < ts + cf_cache C) ->
  calls (own i (s_log s)) = [] /\ o <> RBool false.
Proof. intros L C. exact remembered. Qed.
Print Assumptions C90_remembered_partial.
(** One user's list is fetched; the pruner runs and another user's list is fetched; then the first user reads *)
Lemma exec_rtc {L : lib} (C : config) cs : forall s s' : sys L, exec C s cs = Some s' -> rtc (step L C) s s'.
Proof.
  induction cs as [|c cs IH]; intros s s'; cbn; [intros [= <-]; apply rtc_refl|].
  destruct (exec1 C s c) as [s1|] eqn:E; [|done]. intros H. eapply rtc_l; [by eapply exec1_step|]. by apply IH.
Qed.
Definition first_part : list (choice toy) :=
  startup ++ [Arrive (KAuthorize "nothing" "Bearer good")] ++ go 2 ([◦] ++ listing 101 ++ [at_time 102; ◦]).
Definition second_part : list (choice toy) :=
  go 1 [at_time 110; ◦] ++
  [Arrive (KAuthorize "app-a" "Bearer else")] ++ go 3 ([◦; at_time 111; XReply None; at_time 111; at_time 112; ◦]) ++
  [Arrive (KServe (read_request "svc-c" "Bearer good"))] ++ go 4 [◦; at_time 120; ◦; at_time 131].
Definition at_capi (p : string) : url := Url "https" "capi" p "".
Definition full : entry := Entry ["app-a"; "app-b"; "svc-c"] 0 132.
Definition log1 : list (nat * act toy) :=
  (pair 0%nat <$> ([ALastLoad 0; ANow 100; ANow 100; ALastCas 0 100 true; AUaa (Some (Reply 200 "k1")); AKeyRange []; @AKeyStore toy "k1" "K1"] : list (act toy))) ++
  (pair 2%nat <$> ([ACacheLoad "Bearer good" None;
    ANow 101; ACapi (at_capi "https://capi/v3/apps") "Bearer good" (Some (Reply 200 "apps1")); ANow 101;
    ANow 101; ACapi (at_capi "http://elsewhere/p2") "Bearer good" (Some (Reply 200 "apps2")); ANow 101;
    ANow 101; ACapi (at_capi "https://capi/v3/service_instances") "Bearer good" (Some (Reply 200 "services")); ANow 101] : list (act toy))).
Definition log2 : list (nat * act toy) :=
  (pair 1%nat <$> ([ANow 110; ACacheRange [("Bearer good", full)]] : list (act toy))) ++
  (pair 3%nat <$> ([ACacheLoad "Bearer else" None; ANow 111; ACapi (at_capi "https://capi/v3/apps") "Bearer else" None; ANow 111; ANow 112;
                ACacheStore "Bearer else" (Entry [] 0 142)] : list (act toy))) ++
  (pair 4%nat <$> ([@AKeyLoad toy "k1" (Some "K1"); ANow 120; ACacheLoad "Bearer good" (Some full); ANow 131] : list (act toy))).
Definition log12 : list (nat * act toy) := log1 ++ [(2%nat, ANow 102); (2%nat, ACacheStore "Bearer good" full)].
Definition said (s : sys toy) (i : nat) (kd : kind) (test : result toy -> bool) : bool :=
  bool_decide (kind_of s i = Some kd) && match stage_of s i with Done o => test o | _ => false end.
Lemma said_ok s i kd test : said s i kd test = true -> exists o, s_threads s !! i = Some (kd, Ret o) /\ test o = true.
Proof.
  unfold said, kind_of, stage_of. intros H. apply andb_prop in H as [H1 H2]. apply bool_decide_eq_true in H1.
  destruct (s_threads s !! i) as [[kd' []]|]; try done. injection H1 as ->. eauto.
Qed.
Example C90_history : exists s0 s o,
  reachable toy toy_config 100 s0 /\ s_threads s0 !! 2%nat = Some (KAuthorize "nothing" "Bearer good", Ret (RBool false)) /\
  listed toy toy_config "Bearer good" (calls (own 2 (s_log s0))) ["app-a"; "app-b"; "svc-c"] /\
  s_log s0 = log1 ++ (2%nat, ANow 102) :: [(2%nat, ACacheStore "Bearer good" full)] /\
  rtc (step toy toy_config) s0 s /\ length (s_threads s0) = 3%nat /\
  s_threads s !! 4%nat = Some (KServe (read_request "svc-c" "Bearer good"), Ret o) /\ o = RHttp (Forward "/api/v1/read/svc-c" "limit=5") /\
  (forall k u r, (k, ACapi u "Bearer good" r) ∈ s_log s -> k = 2%nat) /\
  (forall t, (4%nat, ANow t) ∈ s_log s -> t < 102 + cf_cache toy_config) /\ (4%nat, ANow 131) ∈ s_log s.
Proof.
  set (test := match exec toy_config (initial toy toy_config 100) first_part with
    | Some s0 => match exec toy_config s0 second_part with
      | Some s => bool_decide (s_log s0 = log12) && bool_decide (length (s_threads s0) = 3%nat) && bool_decide (s_log s = log12 ++ log2) &&
          said s0 2 (KAuthorize "nothing" "Bearer good") (fun o => match o with RBool false => true | _ => false end) &&
          said s 4 (KServe (read_request "svc-c" "Bearer good")) (fun o => match o with
            RHttp (Forward p q) => bool_decide (p = "/api/v1/read/svc-c") && bool_decide (q = "limit=5") | _ => false end)
      | None => false end
    | None => false end).
  assert (Ht : test = true) by (vm_compute; reflexivity). unfold test in Ht. clear test.
  destruct (exec toy_config (initial toy toy_config 100) first_part) as [s0|] eqn:E0; [|done].
  destruct (exec toy_config s0 second_part) as [s|] eqn:E1; [|done].
  apply andb_prop in Ht as [Ht H5]. apply andb_prop in Ht as [Ht H4]. apply andb_prop in Ht as [Ht H3]. apply andb_prop in Ht as [H1 H2].
  apply bool_decide_eq_true in H1, H2, H3. apply said_ok in H4 as (o1 & H4 & Ho1), H5 as (o2 & H5 & Ho2).
  exists s0, s, o2. split; [eapply exec_reachable; [constructor|exact E0]|].
  split. { destruct o1 as [|[]| |]; try discriminate Ho1. exact H4. }
  split.
  { rewrite H1. exists (at_capi "https://capi/v3/apps"), (at_capi "https://capi/v3/service_instances"),
      [(at_capi "https://capi/v3/apps", "Bearer good", Some (Reply 200 "apps1")); (at_capi "http://elsewhere/p2", "Bearer good", Some (Reply 200 "apps2"))],
      [(at_capi "https://capi/v3/service_instances", "Bearer good", Some (Reply 200 "services"))],
      ([Resource "app-a" "a"] ++ [Resource "app-b" "b"]), [Resource "svc-c" "c"].
    split; [done|]. split; [done|]. split; [vm_compute; reflexivity|]. split; [|split; [|done]].
    - eapply (pages_more _ _ _ _ _ "http://elsewhere/p2"); [vm_compute; reflexivity|done|reflexivity|].
      apply (pages_last toy "Bearer good" (at_capi "http://elsewhere/p2")). vm_compute; reflexivity.
    - apply pages_last. vm_compute; reflexivity. }
  split. { rewrite H1. unfold log12. done. }
  split; [eapply exec_rtc; exact E1|]. split; [exact H2|]. split; [exact H5|]. clear E0 E1 H1 H2 H4 H5.
  split. { destruct o2 as [[| | |p q|]| | |]; try discriminate Ho2. apply andb_prop in Ho2 as [Hp Hq]. apply bool_decide_eq_true in Hp, Hq. by subst. }
  rewrite H3. split; [|split].
  - intros k u r Hin. unfold log12, log1, log2 in Hin. cbn [fmap list_fmap app] in Hin.
    repeat (apply elem_of_cons in Hin as [Hin|Hin]; [try discriminate Hin; try (injection Hin; congruence)|]). by apply elem_of_nil in Hin.
  - intros t Hin. unfold log12, log1, log2 in Hin. cbn [fmap list_fmap app] in Hin.
    repeat (apply elem_of_cons in Hin as [Hin|Hin]; [try discriminate Hin; try (injection Hin as ->; cbn; lia)|]). by apply elem_of_nil in Hin.
  - unfold log2. rewrite !elem_of_app. right. right. right. cbn. rewrite !elem_of_cons. auto.
Qed.

(** The pruner decides with what it saw and deletes what is there by then.  At s0 every goroutine but the
    pruner has finished; j listed the sources of the token last; nobody but i asks CAPI about it afterwards.
    Still i may ask although j's list is fresh: the pruner had seen the outdated entry that j replaced, and
    deletes j's. *)
Definition settled {L : lib} (s : sys L) : bool :=
  forallb (fun th : kind * prog L (result L) => match th with (KPrune, _) => true | (_, Ret _) => true | _ => false end) (s_threads s).
Definition race_before : list (choice toy) :=
  startup ++ [Arrive (KAuthorize "nothing" "Bearer good")] ++ go 2 ([◦] ++ listing 101 ++ [at_time 102; ◦]) ++
  go 1 [at_time 140; ◦] ++
  [Arrive (KAuthorize "nothing" "Bearer good")] ++ go 3 ([◦; at_time 141] ++ listing 142 ++ [at_time 150; ◦]).
Definition race_after : list (choice toy) :=
  go 1 [◦] ++ [Arrive (KAuthorize "svc-c" "Bearer good")] ++ go 4 ([◦] ++ listing 151 ++ [at_time 152; ◦]).
Definition race_log : list (nat * act toy) :=
  [(1%nat, @ACacheDelete toy "Bearer good")] ++
  (pair 4%nat <$> ([ACacheLoad "Bearer good" None;
    ANow 151; ACapi (at_capi "https://capi/v3/apps") "Bearer good" (Some (Reply 200 "apps1")); ANow 151;
    ANow 151; ACapi (at_capi "http://elsewhere/p2") "Bearer good" (Some (Reply 200 "apps2")); ANow 151;
    ANow 151; ACapi (at_capi "https://capi/v3/service_instances") "Bearer good" (Some (Reply 200 "services")); ANow 151;
    ANow 152; ACacheStore "Bearer good" (Entry ["app-a"; "app-b"; "svc-c"] 0 182)] : list (act toy))).
Definition three_calls : list (url * string * option reply) :=
  [(at_capi "https://capi/v3/apps", "Bearer good", Some (Reply 200 "apps1")); (at_capi "http://elsewhere/p2", "Bearer good", Some (Reply 200 "apps2"));
   (at_capi "https://capi/v3/service_instances", "Bearer good", Some (Reply 200 "services"))].
Definition race_end : list (nat * act toy) := [(3%nat, ANow 150); (3%nat, ACacheStore "Bearer good" (Entry ["app-a"; "app-b"; "svc-c"] 0 180))].
Theorem C90_pruned_refuted : ~ (forall L C clock s0 j kd0 id0 tok o0 ids h1 ts h2 s h3 i kd id o,
  reachable L C clock s0 -> (forall k kd p, s_threads s0 !! k = Some (kd, p) -> kd = KPrune \/ exists o, p = Ret o) ->
  asks_source kd0 id0 tok -> s_threads s0 !! j = Some (kd0, Ret o0) ->
  listed L C tok (calls (own j (s_log s0))) ids -> id ∈ ids ->
  s_log s0 = h1 ++ (j, ANow ts) :: h2 -> (forall k t, (k, ANow t) ∉ h2) ->
  rtc (step L C) s0 s -> (length (s_threads s0) <= i)%nat -> asks_source kd id tok -> s_threads s !! i = Some (kd, Ret o) ->
  s_log s = s_log s0 ++ h3 -> (forall k u r, (k, ACapi u tok r) ∈ h3 -> k = i) ->
  (forall t, (i, ANow t) ∈ s_log s -> t < ts + cf_cache C) ->
  calls (own i (s_log s)) = []).
Proof.
  intros Hno.
  set (test := match exec toy_config (initial toy toy_config 100) race_before with
    | Some s0 => match exec toy_config s0 race_after with
      | Some s => settled s0 && bool_decide (calls (own 3 (s_log s0)) = three_calls) && bool_decide (own 4 (s_log s0) = []) &&
          bool_decide (drop (length (s_log s0) - 2) (s_log s0) = race_end) &&
          bool_decide (length (s_threads s0) = 4%nat) && bool_decide (drop (length (s_log s0)) (s_log s) = race_log) &&
          bool_decide (take (length (s_log s0)) (s_log s) = s_log s0) &&
          said s0 3 (KAuthorize "nothing" "Bearer good") (fun o => true) &&
          said s 4 (KAuthorize "svc-c" "Bearer good") (fun o => true)
      | None => false end
    | None => false end).
  assert (Ht : test = true) by (vm_compute; reflexivity). unfold test in Ht. clear test.
  destruct (exec toy_config (initial toy toy_config 100) race_before) as [s0|] eqn:E0; [|discriminate Ht].
  destruct (exec toy_config s0 race_after) as [s|] eqn:E1; [|discriminate Ht].
  apply exec_rtc in E1. assert (R : reachable toy toy_config 100 s0) by (eapply exec_reachable; [constructor|exact E0]). clear E0.
  apply andb_prop in Ht as [Ht H9]. apply andb_prop in Ht as [Ht H8]. apply andb_prop in Ht as [Ht H7]. apply andb_prop in Ht as [Ht H6].
  apply andb_prop in Ht as [Ht H5]. apply andb_prop in Ht as [Ht H4]. apply andb_prop in Ht as [Ht H3]. apply andb_prop in Ht as [H1 H2].
  apply bool_decide_eq_true in H2, H3, H4, H5, H6, H7. apply said_ok in H8 as (o1 & H8 & _), H9 as (o2 & H9 & _).
  set (log0 := s_log s0) in *.
  assert (Elog : s_log s = log0 ++ race_log) by (rewrite <-(take_drop (length log0) (s_log s)), H6, H7; reflexivity).
  assert (E : calls (own 4 (s_log s)) = []); [|rewrite Elog in E; rewrite own_app in E].
  { eapply (Hno toy toy_config 100 s0 3%nat _ "nothing" "Bearer good" o1 ["app-a"; "app-b"; "svc-c"]
      (take (length log0 - 2) log0) 150 _ s race_log 4%nat _ "svc-c" o2); [exact R| |by left|exact H8| | | | |exact E1|lia|by left|exact H9|exact Elog| |].
    - intros k kd p Hk. unfold settled in H1. rewrite forallb_forall in H1.
      specialize (H1 (kd, p) (proj1 (elem_of_list_In _ _) (elem_of_list_lookup_2 _ _ _ Hk))). cbn in H1.
      destruct kd; try (by left); right; destruct p; try discriminate H1; eauto.
    - fold log0. rewrite H2. exists (at_capi "https://capi/v3/apps"), (at_capi "https://capi/v3/service_instances"),
        (take 2 three_calls), (drop 2 three_calls), ([Resource "app-a" "a"] ++ [Resource "app-b" "b"]), [Resource "svc-c" "c"].
      split; [done|]. split; [done|]. split; [vm_compute; reflexivity|]. split; [|split; [|done]].
      + eapply (pages_more _ _ _ _ _ "http://elsewhere/p2"); [vm_compute; reflexivity|done|reflexivity|].
        apply (pages_last toy "Bearer good" (at_capi "http://elsewhere/p2")). vm_compute; reflexivity.
      + apply pages_last. vm_compute; reflexivity.
    - rewrite !elem_of_cons. auto.
    - fold log0. rewrite <-(take_drop (length log0 - 2) log0) at 1. rewrite H4. reflexivity.
    - intros k t Hin. apply elem_of_list_singleton in Hin. discriminate Hin.
    - intros k u r Hin. unfold race_log in Hin. cbn [fmap list_fmap app] in Hin.
      repeat (apply elem_of_cons in Hin as [Hin|Hin]; [try discriminate Hin; try (injection Hin; congruence)|]). by apply elem_of_nil in Hin.
    - intros t Hin. rewrite Elog in Hin. apply elem_of_app in Hin as [Hin|Hin].
      + exfalso. assert (Hx : ANow t ∈ own 4 log0) by (apply own_elem; exact Hin). rewrite H3 in Hx. by apply elem_of_nil in Hx.
      + unfold race_log in Hin. cbn [fmap list_fmap app] in Hin.
        repeat (apply elem_of_cons in Hin as [Hin|Hin]; [try discriminate Hin; try (injection Hin as ->; cbn; lia)|]). by apply elem_of_nil in Hin. }
  rewrite H3 in E. vm_compute in E. discriminate E.
Qed.
Print Assumptions C90_pruned_refuted.
