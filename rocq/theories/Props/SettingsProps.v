(** C171: what each command needs to start, and what it uses when it is told nothing. *)
From Coq Require Import Ascii String.
From stdpp Require Import prelude gmap strings list.
From Verif.Base Require Import GoInt Envelope Str Dec UrlProofs.
From Verif.Setup Require Import Model Spec ProofsEnv.
Local Open Scope string_scope.
Local Open Scope list_scope.
Local Open Scope Z_scope.

(** the value of a setting in what was loaded *)
Definition loaded_as (fs : list field) (l : list setting) (n : string) (v : setting) : Prop :=
  exists i f, fs !! i = Some f /\ f_name f = n /\ l !! i = Some v.

Definition numeric (k : kind) : bool := match k with KInt | KUint | KDuration => true | _ => false end.
Lemma says_something duration k s : numeric k = false -> exists v, says duration k s v.
Proof. intros Hk. destruct (read_setting duration k s) as [v|] eqn:E; [exists v; by apply says_iff|by destruct k]. Qed.
Lemma starts fs needed numbers :
  needed = f_name <$> filter (fun f => f_required f = true) fs -> numbers = (fun f => (f_name f, f_kind f)) <$> filter (fun f => numeric (f_kind f) = true) fs ->
  forall duration env, (exists l, load duration fs env = Loaded l) <->
    Forall (fun n => env n <> "") needed /\ Forall (fun nk => some_setting duration env nk.2 nk.1) numbers.
Proof.
  intros -> -> duration env. setoid_rewrite loaded_iff. split.
  - intros [l Hl]. rewrite !Forall_fmap, !Forall_forall. split.
    + intros f [Hr [i Hi]%elem_of_list_lookup]%elem_of_list_filter. destruct (Forall2_lookup_l _ _ _ _ _ Hl Hi) as (v & _ & [[H _]|(_ & H & _)]); [done|congruence].
    + intros f [Hr [i Hi]%elem_of_list_lookup]%elem_of_list_filter. destruct (Forall2_lookup_l _ _ _ _ _ Hl Hi) as (v & _ & Hv). cbn.
      by apply given_sensible in Hv as [Hv _].
  - rewrite !Forall_fmap, !Forall_forall. intros [H1 H2].
    assert (H : forall f, f ∈ fs -> exists v, given duration env f v).
    { intros f Hf. destruct (decide (env (f_name f) = "")) as [E|E].
      - destruct (f_required f) eqn:Er; [|exists (f_default f); by right]. exfalso. by apply (H1 f); [apply elem_of_list_filter|].
      - assert (exists v, says duration (f_kind f) (env (f_name f)) v) as [v Hv]; [|exists v; by left].
        destruct (numeric (f_kind f)) eqn:En; [|by apply says_something]. apply (H2 f); [by apply elem_of_list_filter|done]. }
    clear H1 H2. induction fs as [|f fs IH]; [by exists []|]. destruct (H f ltac:(left)) as [v Hv]. destruct IH as [l Hl]; [intros g Hg; apply H; by right|].
    exists (v :: l). by constructor.
Qed.
(** Each of the seven commands starts exactly if the variables it needs are set, and its numbers and durations, if they are set, are numbers
    and durations. *)
Theorem C171_starts : Forall (fun p : list field * list string * list (string * kind) => forall duration env,
    (exists l, load duration p.1.1 env = Loaded l) <->
    Forall (fun n => env n <> "") p.1.2 /\ Forall (fun nk => some_setting duration env nk.2 nk.1) p.2)
  [(log_cache_fields, ["ADDR"; "CA_PATH"; "CERT_PATH"; "KEY_PATH"],
     [("HEALTH_PORT", KInt); ("QUERY_TIMEOUT", KDuration); ("MEMORY_LIMIT_PERCENT", KUint); ("MAX_PER_SOURCE", KInt); ("NODE_INDEX", KInt)]);
   (scheduler_fields, ["CA_PATH"; "CERT_PATH"; "KEY_PATH"], [("HEALTH_PORT", KInt); ("INTERVAL", KDuration); ("COUNT", KInt); ("REPLICATION_FACTOR", KInt)]);
   (gateway_fields, ["ADDR"; "LOG_CACHE_ADDR"; "PROXY_CERT_PATH"; "PROXY_KEY_PATH"; "CA_PATH"; "CERT_PATH"; "KEY_PATH"], [("HEALTH_PORT", KInt)]);
   (nozzle_fields, ["LOGS_PROVIDER_ADDR"; "LOGS_PROVIDER_CA_FILE_PATH"; "LOGS_PROVIDER_CERT_FILE_PATH"; "LOGS_PROVIDER_KEY_FILE_PATH";
      "LOG_CACHE_ADDR"; "SHARD_ID"; "SELECTORS"; "CA_PATH"; "CERT_PATH"; "KEY_PATH"], [("HEALTH_PORT", KInt)]);
   (syslog_server_fields, ["LOG_CACHE_ADDR"; "SYSLOG_PORT"; "CA_PATH"; "CERT_PATH"; "KEY_PATH"; "SYSLOG_TLS_CERT_PATH"; "SYSLOG_TLS_KEY_PATH"],
      [("SYSLOG_PORT", KInt); ("HEALTH_PORT", KInt); ("SYSLOG_IDLE_TIMEOUT", KDuration)]);
   (cf_auth_proxy_fields, ["LOG_CACHE_GATEWAY_ADDR"; "ADDR"; "EXTERNAL_CERT"; "EXTERNAL_KEY"; "PROXY_CA_PATH"; "CAPI_ADDR"; "CAPI_CA_PATH";
      "CAPI_COMMON_NAME"; "UAA_CLIENT_ID"; "UAA_CLIENT_SECRET"; "UAA_ADDR"; "UAA_CA_PATH"],
      [("HEALTH_PORT", KInt); ("TOKEN_PRUNING_INTERVAL", KDuration); ("CACHE_EXPIRATION_INTERVAL", KDuration)]);
   (blackbox_fields, ["EMISSION_INTERVAL"; "SAMPLE_INTERVAL"; "WINDOW_INTERVAL"; "WINDOW_LAG"; "SOURCE_ID"; "CA_PATH"; "CERT_PATH"; "KEY_PATH"],
      [("EMISSION_INTERVAL", KDuration); ("SAMPLE_INTERVAL", KDuration); ("WINDOW_INTERVAL", KDuration); ("WINDOW_LAG", KDuration)])].
Proof. repeat (apply Forall_cons_2; [apply starts; by vm_compute|]). constructor. Qed.
Print Assumptions C171_starts.
(** What each command uses when a variable is not set. *)
Theorem C171_defaults : Forall (fun p : list field * list (string * setting) => forall duration env l, load duration p.1 env = Loaded l ->
    Forall (fun nv => env nv.1 = "" -> loaded_as p.1 l nv.1 nv.2) p.2)
  [(log_cache_fields, [("HEALTH_PORT", SInt 6060); ("QUERY_TIMEOUT", SInt (10 * second)); ("MEMORY_LIMIT_PERCENT", SInt 50); ("MAX_PER_SOURCE", SInt 100000);
      ("NODE_INDEX", SInt 0); ("NODE_ADDRS", SList [])]);
   (scheduler_fields, [("HEALTH_PORT", SInt 6064); ("INTERVAL", SInt (60 * second)); ("COUNT", SInt 100); ("REPLICATION_FACTOR", SInt 1); ("NODE_ADDRS", SList []);
      ("LEADER_ELECTION_ENDPOINT", SText "")]);
   (gateway_fields, [("HEALTH_PORT", SInt 6063)]);
   (nozzle_fields, [("HEALTH_PORT", SInt 6061)]);
   (syslog_server_fields, [("HEALTH_PORT", SInt 6061); ("SYSLOG_IDLE_TIMEOUT", SInt (120 * second))]);
   (cf_auth_proxy_fields, [("INTERNAL_IP", SText "0.0.0.0"); ("HEALTH_PORT", SInt 6065); ("SKIP_CERT_VERIFY", SBool false); ("SECURITY_EVENT_LOG", SText "");
      ("TOKEN_PRUNING_INTERVAL", SInt (60 * second)); ("CACHE_EXPIRATION_INTERVAL", SInt (60 * second))]);
   (blackbox_fields, [("CF_BLACKBOX_ENABLED", SBool false); ("DATA_SOURCE_HTTP_ADDR", SText ""); ("UAA_ADDR", SText ""); ("CLIENT_ID", SText "");
      ("CLIENT_SECRET", SText ""); ("SKIP_TLS_VERIFY", SBool false); ("DATA_SOURCE_GRPC_ADDR", SText "localhost:8080")])].
Proof.
  assert (H : forall fs table, Forall (fun nv : string * setting => exists i f, fs !! i = Some f /\ f_name f = nv.1 /\ f_default f = nv.2) table ->
    forall duration env l, load duration fs env = Loaded l -> Forall (fun nv => env nv.1 = "" -> loaded_as fs l nv.1 nv.2) table).
  { intros fs table Ht duration env l Hl. apply loaded_iff in Hl. eapply Forall_impl; [exact Ht|]. intros [n v] (i & f & Hi & Hn & Hv) He. cbn [fst snd] in *.
    destruct (Forall2_lookup_l _ _ _ _ _ Hl Hi) as (w & Hw & [[Hne _]|(_ & _ & ->)]); [by rewrite Hn in Hne|]. exists i, f. rewrite <-Hv. done. }
  repeat (apply Forall_cons_2; [apply H; repeat (apply Forall_cons_2;
    [first [by exists 0%nat; eexists|by exists 1%nat; eexists|by exists 2%nat; eexists|by exists 3%nat; eexists|by exists 4%nat; eexists|by exists 5%nat; eexists
           |by exists 6%nat; eexists|by exists 7%nat; eexists|by exists 8%nat; eexists|by exists 9%nat; eexists|by exists 10%nat; eexists|by exists 11%nat; eexists]|]); constructor|]). constructor.
Qed.
Print Assumptions C171_defaults.
(** The node with nothing but what it needs. *)
Example C171_bare : forall duration, exists l, load duration log_cache_fields
  (fun n => if bool_decide (n ∈ ["ADDR"; "CA_PATH"; "CERT_PATH"; "KEY_PATH"]) then "x" else "") = Loaded l.
Proof. intros duration. eexists. by vm_compute. Qed.
