(** C171, C172: what the processes make of their environment, and nodes that are wired by it. *)
From Coq Require Import Ascii String.
From stdpp Require Import prelude gmap strings list.
From Verif.Base Require Import GoInt Envelope Str Dec UrlProofs.
From Verif.Store Require Import Model Spec.
From Verif.Routing Require Import Model Spec ProofsCluster.
From Verif.Setup Require Import Model Spec ProofsEnv Proofs.
Open Scope string_scope.
Open Scope list_scope.
Open Scope Z_scope.

(** ** C171: settings *)
(** A process gets its configuration exactly when every field is given by its variable or may be left out *)
Theorem C171_loaded : ∀ duration fs env l, load duration fs env = Loaded l ↔ Forall2 (given duration env) fs l.
Proof. exact loaded_iff. Qed.
Print Assumptions C171_loaded.
(** ... it names all the variables that are missing, and only them *)
Theorem C171_missing : ∀ duration fs env names, load duration fs env = Missing names ↔
  names ≠ [] ∧ names = f_name <$> filter (lacks env) fs ∧ Forall (sensible duration env) fs.
Proof. exact missing_iff. Qed.
Print Assumptions C171_missing.
(** ... and the first variable whose text says nothing *)
Theorem C171_invalid : ∀ duration fs env name, load duration fs env = Invalid name ↔
  ∃ l1 f l2, fs = l1 ++ f :: l2 ∧ name = f_name f ∧ Forall (sensible duration env) l1 ∧ ¬ sensible duration env f.
Proof. exact invalid_iff. Qed.
Print Assumptions C171_invalid.
(** The variables without which each of the seven commands does not start *)
Theorem C171_required : Forall (λ p : list field * list string, ∀ duration env l, load duration p.1 env = Loaded l → Forall (λ n, env n ≠ "") p.2)
  [(log_cache_fields, ["ADDR"; "CA_PATH"; "CERT_PATH"; "KEY_PATH"]);
   (scheduler_fields, ["CA_PATH"; "CERT_PATH"; "KEY_PATH"]);
   (gateway_fields, ["ADDR"; "LOG_CACHE_ADDR"; "PROXY_CERT_PATH"; "PROXY_KEY_PATH"; "CA_PATH"; "CERT_PATH"; "KEY_PATH"]);
   (nozzle_fields, ["LOGS_PROVIDER_ADDR"; "LOGS_PROVIDER_CA_FILE_PATH"; "LOGS_PROVIDER_CERT_FILE_PATH"; "LOGS_PROVIDER_KEY_FILE_PATH";
      "LOG_CACHE_ADDR"; "SHARD_ID"; "SELECTORS"; "CA_PATH"; "CERT_PATH"; "KEY_PATH"]);
   (syslog_server_fields, ["LOG_CACHE_ADDR"; "SYSLOG_PORT"; "CA_PATH"; "CERT_PATH"; "KEY_PATH"; "SYSLOG_TLS_CERT_PATH"; "SYSLOG_TLS_KEY_PATH"]);
   (cf_auth_proxy_fields, ["LOG_CACHE_GATEWAY_ADDR"; "ADDR"; "EXTERNAL_CERT"; "EXTERNAL_KEY"; "PROXY_CA_PATH"; "CAPI_ADDR"; "CAPI_CA_PATH";
      "CAPI_COMMON_NAME"; "UAA_CLIENT_ID"; "UAA_CLIENT_SECRET"; "UAA_ADDR"; "UAA_CA_PATH"]);
   (blackbox_fields, ["EMISSION_INTERVAL"; "SAMPLE_INTERVAL"; "WINDOW_INTERVAL"; "WINDOW_LAG"; "SOURCE_ID"; "CA_PATH"; "CERT_PATH"; "KEY_PATH"])].
Proof.
  assert (H : ∀ fs names, forallb (λ n, existsb (λ f, bool_decide (f_name f = n) && f_required f) fs) names = true →
    ∀ duration env l, load duration fs env = Loaded l → Forall (λ n, env n ≠ "") names).
  { intros fs names Hn duration env l Hl. apply loaded_iff in Hl. apply Forall_forall. intros n Hin. rewrite forallb_forall in Hn.
    apply elem_of_list_In in Hin. specialize (Hn n Hin). apply existsb_exists in Hn as (f & Hf & Hb). apply andb_true_iff in Hb as [Hb Hr].
    apply bool_decide_eq_true in Hb as <-. apply elem_of_list_In, elem_of_list_lookup in Hf as [i Hf].
    destruct (Forall2_lookup_l _ _ _ _ _ Hl Hf) as (v & _ & [[Hv _]|(_ & Hr' & _)]); [done|congruence]. }
  repeat (apply Forall_cons_2; [apply H; by vm_compute|]). constructor.
Qed.
Print Assumptions C171_required.
Ltac field_out H :=
  let v := fresh "v" in let r := fresh "r" in let Hv := fresh "Hv" in let Hr := fresh "Hr" in
  inversion H as [|? v ? r Hv Hr]; subst; clear H; rename Hr into H.
Lemma given_text duration env n r dflt v : given duration env (mk_field n r KText (SText dflt)) v ->
  v = SText (if bool_decide (env n = "") then dflt else env n) /\ (r = true -> env n <> "").
Proof.
  intros [[H1 H2]|(H1 & H2 & ->)]; cbn in *.
  - rewrite bool_decide_false by done. destruct v; try done. by rewrite H2.
  - rewrite bool_decide_true by done. split; [done|]. congruence.
Qed.
Lemma text_given duration env n r dflt : (r = true -> env n <> "") ->
  given duration env (mk_field n r KText (SText dflt)) (SText (if bool_decide (env n = "") then dflt else env n)).
Proof. intros H. case_bool_decide; [right|left]; cbn; [|done]. split; [done|]. split; [|done]. destruct r; [by destruct H|done]. Qed.
Lemma given_int duration env n dflt v : given duration env (mk_field n false KInt (SInt dflt)) v <-> exists z, v = SInt z /\ optional env n int_text dflt z.
Proof.
  unfold optional, int_text. split.
  - intros [[H1 H2]|(H1 & _ & ->)]; cbn in *; [destruct v as [|z| |]; try done; exists z; split; [done|]; by right|]. exists dflt. split; [done|by left].
  - intros (z & -> & [[H1 ->]|[H1 H2]]); [by right|by left].
Qed.
Lemma given_list duration env n v : given duration env (mk_field n false KList (SList [])) v <-> exists l, v = SList l /\ optional env n listed [] l.
Proof.
  unfold optional. split.
  - intros [[H1 H2]|(H1 & _ & ->)]; cbn in *; [destruct v as [| | |l]; try done; exists l; split; [done|]; by right|]. exists []. split; [done|by left].
  - intros (z & -> & [[H1 ->]|[H1 H2]]); [by right|by left].
Qed.
Lemma given_dur duration env n dflt v : given duration env (mk_field n false KDuration (SInt dflt)) v <-> exists z, v = SInt z /\ optional env n (fun s z => duration s = Some z) dflt z.
Proof.
  unfold optional. split.
  - intros [[H1 H2]|(H1 & _ & ->)]; cbn in *; [destruct v as [|z| |]; try done; exists z; split; [done|]; by right|]. exists dflt. split; [done|by left].
  - intros (z & -> & [[H1 ->]|[H1 H2]]); [by right|by left].
Qed.
Lemma given_some duration env n k dflt : (exists v, given duration env (mk_field n false k dflt) v) <-> some_setting duration env k n.
Proof.
  unfold some_setting. split.
  - intros (v & [[H1 H2]|(H1 & _ & ->)]) H; [by exists v|done].
  - intros H. destruct (decide (env n = "")) as [E|E]; [exists dflt; by right|]. destruct (H E) as [v Hv]. exists v. by left.
Qed.
Lemma listed_nonempty s l : listed s l -> l <> [].
Proof. intros (parts & Hne & _ & _ & Hl) ->. inversion Hl. by subst. Qed.
(** What a node is built from: its address, its limit, its index and the addresses of the cluster *)
Theorem C171_node : ∀ duration env c, node_settings duration env = Some c ↔
  Forall (λ n, env n ≠ "") ["ADDR"; "CA_PATH"; "CERT_PATH"; "KEY_PATH"] ∧
  some_setting duration env KInt "HEALTH_PORT" ∧ some_setting duration env KDuration "QUERY_TIMEOUT" ∧ some_setting duration env KUint "MEMORY_LIMIT_PERCENT" ∧
  nc_addr c = env "ADDR" ∧
  optional env "MAX_PER_SOURCE" int_text 100000 (nc_max c) ∧
  optional env "NODE_INDEX" int_text 0 (nc_index c) ∧
  optional env "NODE_ADDRS" listed [env "ADDR"] (nc_addrs c).
Proof.
  intros duration env c. unfold node_settings. split.
  - destruct (load duration log_cache_fields env) as [|ms|l] eqn:El; [done|done|]. apply loaded_iff in El.
    do 10 field_out El. inversion El; subst; clear El.
    apply given_text in Hv as [-> Ha]. apply given_int in Hv3 as (most & -> & Hmost). apply given_int in Hv4 as (index & -> & Hindex).
    apply given_list in Hv5 as (addrs & -> & Haddrs). apply given_text in Hv6 as [-> H6], Hv7 as [-> H7], Hv8 as [-> H8].
    specialize (Ha eq_refl). rewrite bool_decide_false by done. intros [= <-]. cbn.
    split; [repeat constructor; auto|]. split; [apply given_some with (SInt 6060); by eexists|]. split; [apply given_some with (SInt (10 * second)); by eexists|].
    split; [apply given_some with (SInt 50); by eexists|]. split; [done|]. split; [done|]. split; [done|].
    destruct Haddrs as [[E ->]|[E Hl]]; [by left|right]. split; [done|]. destruct addrs; [by apply listed_nonempty in Hl|done].
  - intros (Hreq & H1 & H2 & H3 & Ha & Hm & Hi & Hl). inversion Hreq as [|? ? R1 Hr1]; subst. inversion Hr1 as [|? ? R2 Hr2]; subst. inversion Hr2 as [|? ? R3 Hr3]; subst.
    inversion Hr3 as [|? ? R4 _]; subst. clear Hr1 Hr2 Hr3 Hreq.
    apply given_some with (dflt := SInt 6060) in H1 as [v1 H1]. apply given_some with (dflt := SInt (10 * second)) in H2 as [v2 H2]. apply given_some with (dflt := SInt 50) in H3 as [v3 H3].
    assert (Hl' : exists l0, optional env "NODE_ADDRS" listed [] l0 /\ nc_addrs c = match l0 with [] => [env "ADDR"] | _ => l0 end).
    { destruct Hl as [[E El]|[E Hl]]; [exists []; split; [by left|done]|]. exists (nc_addrs c). split; [by right|]. by destruct (nc_addrs c); [apply listed_nonempty in Hl|]. }
    destruct Hl' as (l0 & Hl0 & El0).
    assert (HL : load duration log_cache_fields env = Loaded
      [SText (env "ADDR"); v1; v2; v3; SInt (nc_max c); SInt (nc_index c); SList l0; SText (env "CA_PATH"); SText (env "CERT_PATH"); SText (env "KEY_PATH")]).
    { apply loaded_iff. assert (T : ∀ n dflt, env n ≠ "" → given duration env (mk_field n true KText (SText dflt)) (SText (env n))) by (intros; by left).
      repeat (apply Forall2_cons; split || constructor); try (by apply T); try done.
      - apply given_int. by eexists.
      - apply given_int. by eexists.
      - apply given_list. by eexists. }
    rewrite HL. rewrite <- El0, <- Ha. by destruct c.
Qed.
Print Assumptions C171_node.
(** What the scheduler is built from *)
Theorem C171_scheduler : ∀ duration env c, scheduler_settings duration env = Some c ↔
  Forall (λ n, env n ≠ "") ["CA_PATH"; "CERT_PATH"; "KEY_PATH"] ∧ some_setting duration env KInt "HEALTH_PORT" ∧
  optional env "INTERVAL" (λ s n, duration s = Some n) (60 * second) (sc_interval c) ∧
  optional env "COUNT" int_text 100 (sc_count c) ∧
  optional env "REPLICATION_FACTOR" int_text 1 (sc_replicas c) ∧
  optional env "NODE_ADDRS" listed [] (sc_addrs c) ∧
  sc_endpoint c = env "LEADER_ELECTION_ENDPOINT".
Proof.
  intros duration env c. unfold scheduler_settings. split.
  - destruct (load duration scheduler_fields env) as [|ms|l] eqn:El; [done|done|]. apply loaded_iff in El.
    do 9 field_out El. inversion El; subst; clear El.
    apply given_dur in Hv0 as (iv & -> & Hiv). apply given_int in Hv1 as (cn & -> & Hcn). apply given_int in Hv2 as (rf & -> & Hrf).
    apply given_list in Hv3 as (l & -> & Hl). apply given_text in Hv4 as [-> _], Hv5 as [-> H5], Hv6 as [-> H6], Hv7 as [-> H7].
    intros [= <-]. cbn. split; [repeat constructor; auto|]. split; [apply given_some with (SInt 6064); by eexists|].
    repeat (split; [done|]). by case_bool_decide.
  - intros (Hreq & H1 & Hiv & Hcn & Hrf & Hl & He). inversion Hreq as [|? ? R1 Hr1]; subst. inversion Hr1 as [|? ? R2 Hr2]; subst. inversion Hr2 as [|? ? R3 _]; subst.
    clear Hr1 Hr2 Hreq. apply given_some with (dflt := SInt 6064) in H1 as [v1 H1].
    assert (HL : load duration scheduler_fields env = Loaded
      [v1; SInt (sc_interval c); SInt (sc_count c); SInt (sc_replicas c); SList (sc_addrs c); SText (env "LEADER_ELECTION_ENDPOINT"); SText (env "CA_PATH"); SText (env "CERT_PATH"); SText (env "KEY_PATH")]).
    { apply loaded_iff. assert (T : ∀ n dflt, env n ≠ "" → given duration env (mk_field n true KText (SText dflt)) (SText (env n))) by (intros; by left).
      repeat (apply Forall2_cons; split || constructor); try (by apply T); try done.
      - apply given_dur. by eexists.
      - apply given_int. by eexists.
      - apply given_int. by eexists.
      - apply given_list. by eexists.
      - destruct (decide (env "LEADER_ELECTION_ENDPOINT" = "")) as [E|E]; [right; cbn; by rewrite E|by left]. }
    rewrite HL. rewrite <- He. destruct c. done.
Qed.
Print Assumptions C171_scheduler.
(** Addresses separated by commas come in as they are *)
Theorem C171_addresses : ∀ l, l ≠ [] → Forall (λ a, has_char "," a = false ∧ trimmed a a) l → ∀ l', listed (join "," l) l' ↔ l' = l.
Proof.
  intros l Hne Hl l'. rewrite listed_iff. unfold split. rewrite split_join; [|done|done|].
  - replace (trim <$> l) with l; [done|]. clear Hne. induction Hl as [|a l [_ Ha] _ IH]; [done|]. cbn. apply trim_iff in Ha. by rewrite Ha, <- IH.
  - eapply Forall_impl; [exact Hl|]. by intros a [Ha _].
Qed.
Print Assumptions C171_addresses.

Definition no_duration (s : string) : option Z := None.
(** a small environment *)
Definition env_of (l : list (string * string)) : environment := λ n, match find (λ p, bool_decide (p.1 = n)) l with Some p => p.2 | None => "" end.
Definition tls_paths : list (string * string) := [("CA_PATH", "/ca"); ("CERT_PATH", "/crt"); ("KEY_PATH", "/key")].
Example C171_case_node : node_settings no_duration (env_of ([("ADDR", ":8080"); ("MAX_PER_SOURCE", "+2000"); ("NODE_INDEX", "1"); ("NODE_ADDRS", "10.0.0.1:8080, 10.0.0.2:8080")] ++ tls_paths)) =
  Some (mk_config ":8080" ["10.0.0.1:8080"; "10.0.0.2:8080"] 1 2000) ∧
  node_settings no_duration (env_of ([("ADDR", ":8080")] ++ tls_paths)) = Some (mk_config ":8080" [":8080"] 0 100000) ∧
  load no_duration log_cache_fields (env_of [("CA_PATH", "/ca"); ("NODE_INDEX", "2")]) = Missing ["ADDR"; "CERT_PATH"; "KEY_PATH"] ∧
  load no_duration log_cache_fields (env_of [("NODE_INDEX", "two")]) = Invalid "NODE_INDEX" ∧
  load no_duration log_cache_fields (env_of [("MAX_PER_SOURCE", "9223372036854775808")]) = Invalid "MAX_PER_SOURCE".
Proof. repeat split; by vm_compute. Qed.
Example C171_case_scheduler : scheduler_settings no_duration (env_of (("NODE_ADDRS", "a,b") :: tls_paths)) = Some (mk_sconfig 100 1 60000000000 ["a"; "b"] "").
Proof. by vm_compute. Qed.
Example C171_case_addresses : Forall (λ a, has_char "," a = false ∧ trimmed a a) ["10.0.0.1:8080"; "10.0.0.2:8080"].
Proof. repeat (apply Forall_cons_2; [split; [by vm_compute|by apply trim_iff]|]). constructor. Qed.

(** ** C172: nodes wired by their settings *)
(** Nodes that were given the same addresses and each its own position are wired as the addresses say ... *)
Theorem C172_wired_partial : ∀ duration dial addrs w, NoDup addrs → (∀ a, dial a = true) →
  (∀ k a, addrs !! k = Some a → ∃ env c, node_settings duration env = Some c ∧ env "NODE_ADDRS" ≠ "" ∧ listed (env "NODE_ADDRS") addrs ∧
     env "NODE_INDEX" ≠ "" ∧ int_text (env "NODE_INDEX") (Z.of_nat k) ∧ w_nodes w !! a = Some (start dial c)) →
  wired addrs w.
Proof.
  intros duration dial addrs w Hnd Hdial H. split; [done|]. intros k a Hk. destruct (H k a Hk) as (env & c & Hc & Hne & Hl & Hni & Hi & Hw).
  exists (start dial c). split; [done|]. apply C171_node in Hc as (_ & _ & _ & _ & Ha & Hm & Hix & Hls).
  destruct Hls as [[? _]|[_ Hls]]; [done|]. destruct Hix as [[? _]|[_ Hix]]; [done|].
  apply listed_iff in Hl, Hls. rewrite <- Hl in Hls.
  assert (nc_index c = Z.of_nat k) as Ei.
  { destruct Hix as [Hx Hxr], Hi as [Hy Hyr]. assert (E1 : says duration KInt (env "NODE_INDEX") (SInt (nc_index c))) by done.
    assert (E2 : says duration KInt (env "NODE_INDEX") (SInt (Z.of_nat k))) by done. apply says_iff in E1, E2. congruence. }
  pose proof (start_wired dial addrs k (nc_max c) a Hdial Hk) as Hs. destruct c as [ca cl ci cm]. cbn in *. subst cl ci. exact Hs.
Qed.
Print Assumptions C172_wired_partial.
(** ... and stay so, whatever is sent, arrives or is set *)
Theorem C172_stays_partial : ∀ hash addrs w w', rtc (net_step hash) w w' → wired addrs w → wired addrs w'.
Proof. exact steps_wired. Qed.
Print Assumptions C172_stays_partial.
(** A batch sent to any of them leads to that many messages as there are other nodes concerned, and no more ... *)
Theorem C172_settles_partial : ∀ hash now addrs i a batch order w w1 ks w2 d, wired addrs w → w_wire w = [] → addrs !! i = Some a → w_nodes w !! a = Some d →
  order ≡ₚ map_to_list (envelopes_by_node (λ src, Model.lookup (hash src) (l_table d)) batch) →
  send_at hash now a (mk_send false (Some batch)) order w = Some w1 → arrivals hash now ks w1 = Some w2 → w_wire w2 = [] → length ks = length (w_wire w1).
Proof.
  intros hash now addrs i a batch order w w1 ks w2 d Hw He Ha Hd Ho H1 H2 He2. destruct (cluster_exists _ _ Hw) as [c Hc].
  by destruct (write_wired _ _ _ _ _ _ _ _ _ _ _ _ _ Hw Hc He Ha Hd Ho H1 H2 He2) as (_ & _ & _ & _ & _ & _ & H).
Qed.
Print Assumptions C172_settles_partial.
(** ... and what was written through one is read through any other *)
Theorem C172_read_your_writes_partial : ∀ hash compile now rnds addrs req i a j b batch order w w1 ks w2 d rq fuel,
  wired addrs w → w_wire w = [] → known_addrs addrs req → no_overlap req →
  (∀ x dx, x ∈ addrs → w_nodes w !! x = Some dx → ∃ old, set_ranges addrs old req (l_table dx)) →
  addrs !! i = Some a → addrs !! j = Some b → (2 <= fuel)%nat → w_nodes w !! a = Some d →
  order ≡ₚ map_to_list (envelopes_by_node (λ src, Model.lookup (hash src) (l_table d)) batch) →
  send_at hash now a (mk_send false (Some batch)) order w = Some w1 → arrivals hash now ks w1 = Some w2 → w_wire w2 = [] →
  let h := hash (rr_source rq) in
  (net_read fuel hash compile now rnds b rq w2 = Some NUnavailable ∧ ∀ k, ¬ owns addrs req h k) ∨
  ∃ k ak es dk dk', addrs !! k = Some ak ∧ owns addrs req h k ∧ w_nodes w !! ak = Some dk ∧ w_nodes w2 !! ak = Some dk' ∧
    net_read fuel hash compile now rnds b rq w2 = Some (NServed ak (local_read compile now rq (l_store dk'))) ∧
    run (l_store dk) (writes now es) = Some (l_store dk') ∧ of_source (rr_source rq) es = of_source (rr_source rq) batch.
Proof. exact wired_ryw. Qed.
Print Assumptions C172_read_your_writes_partial.
(** A node whose index is not a position in its list of addresses never stores anything and never answers a read, whatever happens *)
Theorem C172_outside : ∀ duration dial env c hash w w' b, node_settings duration env = Some c →
  ¬ (0 <= nc_index c < Z.of_nat (length (nc_addrs c))) → w_nodes w !! b = Some (start dial c) → rtc (net_step hash) w w' →
  (∃ d, w_nodes w' !! b = Some d ∧ l_store d = new_store (nc_max c)) ∧
  ∀ fuel compile now rnds a rq o, net_read fuel hash compile now rnds a rq w' ≠ Some (NServed b o).
Proof.
  intros duration dial env c hash w w' b _ Hi Hb H. pose proof (start_outside dial c Hi) as Hn.
  destruct (steps_outside _ _ _ _ _ H Hn Hb) as [t Ht]. split; [by eexists|]. intros. by eapply read_outside.
Qed.
Print Assumptions C172_outside.
(** The general form: nodes whose settings are accepted keep what they are sent and answer.  They need not. *)
(** One node with a NODE_INDEX of 1 and no NODE_ADDRS: what it accepts goes from it to itself for ever, and a read never ends *)
Theorem C172_circulates_refuted : ∃ env c, (∀ duration, node_settings duration env = Some c) ∧
  ∀ hash dial compile now rnds batch rq, (∀ s, 0 <= hash s <= max_uint64) → (∀ a, dial a = true) → batch ≠ [] →
  let d := mk_live (l_peers (start dial c)) (l_local (start dial c)) [mk_ri (mk_range 0 max_uint64) 0] (l_store (start dial c)) in
  let w := mk_net {[ nc_addr c := d ]} [] in
  ∃ w1, send_at hash now (nc_addr c) (mk_send false (Some batch)) [(0%nat, batch)] w = Some w1 ∧
    [(0%nat, batch)] ≡ₚ map_to_list (envelopes_by_node (λ src, Model.lookup (hash src) (l_table d)) batch) ∧
    w_nodes w1 = w_nodes w ∧ w_wire w1 = [(nc_addr c, batch)] ∧
    (∀ n, arrivals hash now (repeat 0%nat n) w1 = Some w1) ∧
    ∀ fuel, net_read fuel hash compile now rnds (nc_addr c) rq w1 = None.
Proof.
  exists (env_of ([("ADDR", ":8080"); ("NODE_INDEX", "1")] ++ tls_paths)), (mk_config ":8080" [":8080"] 1 100000).
  split; [intros duration; by vm_compute|]. intros hash dial compile now rnds batch rq Hh Hdial Hne. cbn [start nc_addr nc_index nc_addrs nc_max l_peers l_local l_store].
  assert (Hl : ∀ s, Model.lookup (hash s) [mk_ri (mk_range 0 max_uint64) 0] = [0%nat]).
  { intros s. specialize (Hh s). unfold Model.lookup. cbn [omap list_omap ri_range ri_idx]. unfold in_range. cbn [r_start r_end].
    destruct (Z.ltb_spec (hash s) 0); [lia|]. destruct (Z.ltb_spec max_uint64 (hash s)); [lia|]. done. }
  assert (Hp : peers dial 1 0 [":8080"] = [There ":8080"]). { cbn [peers]. cbn [Z.eqb]. by rewrite Hdial. } rewrite Hp.
  change (local_index 1 [":8080"]) with 0%nat. set (d := mk_live _ _ _ _). set (w := mk_net {[ ":8080" := d ]} []).
  exists (mk_net (w_nodes w) [(":8080", batch)]). cbn [w_nodes w_wire].
  assert (Hd0 : w_nodes w !! ":8080" = Some d) by apply lookup_singleton.
  assert (Hw : ∀ wr r order, send_with (λ src, Model.lookup (hash src) (l_table d)) 1 0 r order = Some [(0%nat, mk_send true (Some batch))] →
    send_at hash now ":8080" r order (mk_net (w_nodes w) wr) = Some (mk_net (w_nodes w) (wr ++ [(":8080", batch)]))).
  { intros wr r order Hs. unfold send_at. cbn [w_nodes w_wire]. rewrite Hd0. cbn [mbind option_bind].
    change (length (l_peers d)) with 1%nat. change (l_local d) with 0%nat. rewrite Hs. cbn [mbind option_bind carry]. change (l_peers d !! 0%nat) with (Some (There ":8080")).
    cbn [mbind option_bind get_batch sr_envelopes default]. do 2 f_equal. unfold w. cbn [w_nodes]. by rewrite insert_singleton. }
  split; [by apply (Hw [])|]. split.
  { replace (envelopes_by_node _ batch) with ({[ 0%nat := batch ]} : gmap nat (list envelope)); [by rewrite map_to_list_singleton|].
    unfold envelopes_by_node. symmetry. destruct batch as [|e batch]; [done|]. cbn [foldl].
    assert (G : ∀ m e0, group_one (λ src, Model.lookup (hash src) (l_table d)) m e0 = <[0%nat := default [] (m !! 0%nat) ++ [e0]]> m).
    { intros m e0. unfold group_one. cbn [l_table d]. by rewrite Hl. }
    assert (L : ∀ b l, foldl (group_one (λ src, Model.lookup (hash src) (l_table d))) {[ 0%nat := l ]} b = {[ 0%nat := l ++ b ]}).
    { induction b as [|e' b IH]; intros l; cbn [foldl]; [by rewrite app_nil_r|]. rewrite G, lookup_singleton, insert_singleton. rewrite IH. cbn. by rewrite <- app_assoc. }
    etransitivity; [|apply (L batch [e])]. f_equal. rewrite G, lookup_empty. apply insert_empty. }
  split; [done|]. split; [done|]. split.
  - induction n as [|n IH]; [done|]. cbn [repeat arrivals]. assert (E : arrive hash now 0 (mk_net (w_nodes w) [(":8080", batch)]) = Some (mk_net (w_nodes w) [(":8080", batch)])).
    { unfold arrive. cbn [w_wire w_nodes]. change ([(":8080", batch)] !! 0%nat) with (Some (":8080", batch)). cbn [mbind option_bind take drop app].
      rewrite Hd0. by apply (Hw []). }
    rewrite E. cbn [mbind option_bind]. exact IH.
  - apply (read_loops _ _ _ _ _ _ _ d 0); [exact Hd0| |done]. intros rnd. cbn [l_table d]. rewrite Hl. done.
Qed.
Print Assumptions C172_circulates_refuted.
(** Two nodes with each other's NODE_INDEX: what is sent to the first is not found through the second, and reads through the first never end *)
Definition swapped (d : list (string * string)) : environment := env_of (("ADDR", ":8080") :: ("NODE_ADDRS", "x,y") :: ("MAX_PER_SOURCE", "5") :: d ++ tls_paths).
Theorem C172_swapped_refuted : ∃ cx cy, (∀ duration, node_settings duration (swapped [("NODE_INDEX", "1")]) = Some cx ∧ node_settings duration (swapped [("NODE_INDEX", "0")]) = Some cy) ∧
  let with_table d := mk_live (l_peers d) (l_local d) [mk_ri (mk_range 0 max_uint64) 0] (l_store d) in
  let w := mk_net {[ "x" := with_table (start (λ _, true) cx); "y" := with_table (start (λ _, true) cy) ]} [] in
  let rq := mk_rr "abc" 0 0 0 [] false "" in
  let e := mk_env 1 "abc" "" ∅ ∅ (MLog "p" false) in
  ∃ w1 w2, send_at (λ _, 7) 9 "x" (mk_send false (Some [e])) [(0%nat, [e])] w = Some w1 ∧ w_wire w1 = [("x", [e])] ∧ arrivals (λ _, 7) 9 [0%nat] w1 = Some w2 ∧ w_wire w2 = [] ∧
    (∀ rnds, net_read 2 (λ _, 7) (λ _, None) 9 rnds "y" rq w2 = Some (NServed "y" (ReadOk []))) ∧
    ∀ fuel rnds, net_read fuel (λ _, 7) (λ _, None) 9 rnds "x" rq w2 = None.
Proof.
  exists (mk_config ":8080" ["x"; "y"] 1 5), (mk_config ":8080" ["x"; "y"] 0 5). split; [intros duration; split; by vm_compute|]. intros with_table w rq e.
  set (dx := with_table (start (λ _, true) (mk_config ":8080" ["x"; "y"] 1 5))) in *. set (dy := with_table (start (λ _, true) (mk_config ":8080" ["x"; "y"] 0 5))) in *.
  assert (Hx : w_nodes w !! "x" = Some dx) by (unfold w; cbn [w_nodes]; by rewrite lookup_insert).
  assert (Hy : w_nodes w !! "y" = Some dy) by (unfold w; cbn [w_nodes]; rewrite lookup_insert_ne by done; by rewrite lookup_singleton).
  destruct (put_all 9 [e] (l_store dx)) as [s|] eqn:Es; [|by vm_compute in Es].
  exists (mk_net (<["x" := dx]> (w_nodes w)) [("x", [e])]), (mk_net (<["x" := mk_live (l_peers dx) (l_local dx) (l_table dx) s]> (<["x" := dx]> (w_nodes w))) []).
  split. { unfold send_at. rewrite Hx. reflexivity. }
  split; [done|]. split.
  { cbn [arrivals]. unfold arrive. cbn [w_wire w_nodes]. change ([("x", [e])] !! 0%nat) with (Some ("x", [e])). cbn [mbind option_bind]. rewrite lookup_insert. cbn [take drop app].
    unfold send_at. cbn [w_nodes w_wire]. rewrite lookup_insert. cbn [mbind option_bind].
    change (send_with _ _ _ _ []) with (Some [(1%nat, mk_send true (Some [e]))]). cbn [mbind option_bind carry]. change (l_peers dx !! 1%nat) with (Some Here).
    change (put_all 9 _ _) with (put_all 9 [e] (l_store dx)). rewrite Es. done. }
  split; [done|]. split.
  - intros rnds. cbn [net_read w_nodes]. rewrite insert_insert, lookup_insert_ne by done. rewrite Hy. reflexivity.
  - intros fuel rnds. apply (read_loops _ _ _ _ _ _ _ (mk_live (l_peers dx) (l_local dx) (l_table dx) s) 0); [cbn; by rewrite lookup_insert| |done].
    intros rnd. unfold read_route_of. cbn [l_table l_peers l_local]. change (Model.lookup _ _) with [0%nat]. cbn [existsb]. change (l_local dx) with 1%nat. cbn [Nat.eqb orb length].
    rewrite Nat.mod_1_r. done.
Qed.
Print Assumptions C172_swapped_refuted.
(** A node that could not reach for the address before its own calls its clients by the wrong positions: the first envelope for it takes it down *)
Theorem C172_dial_refuted : ∃ c, (∀ duration, node_settings duration (swapped [("NODE_INDEX", "1")]) = Some c) ∧
  ∀ hash now batch w, w_nodes w !! "y" = Some (start (λ a, negb (bool_decide (a = "x"))) c) → send_at hash now "y" (mk_send true (Some batch)) [] w = None.
Proof.
  exists (mk_config ":8080" ["x"; "y"] 1 5). split; [intros duration; by vm_compute|]. intros hash now batch w Hw. unfold send_at. rewrite Hw. done.
Qed.
Print Assumptions C172_dial_refuted.
(** A limit of no envelopes, and a scheduler of no ranges, are accepted; the first write, and the scheduler's start, panic *)
Theorem C172_zero_refuted : ∃ c, (∀ duration, node_settings duration (env_of ([("ADDR", ":8080"); ("MAX_PER_SOURCE", "0")] ++ tls_paths)) = Some c) ∧
  ∀ dial e src now, put_env e src now (l_store (start dial c)) = None.
Proof. exists (mk_config ":8080" [":8080"] 0 0). split; [intros duration; by vm_compute|]. done. Qed.
Print Assumptions C172_zero_refuted.
Theorem C172_count_refuted : ∃ c, (∀ duration, scheduler_settings duration (env_of (("NODE_ADDRS", "a,b") :: ("COUNT", "0") :: tls_paths)) = Some c) ∧ sched_ranges (sc_count c) = None.
Proof. exists (mk_sconfig 0 1 60000000000 ["a"; "b"] ""). split; [intros duration; by vm_compute|]. done. Qed.
Print Assumptions C172_count_refuted.
(** two nodes with an index each: the batch sent to y is stored by x after one message, and read through either *)
Definition right_x : node_config := mk_config ":8080" ["x"; "y"] 0 5.
Definition right_y : node_config := mk_config ":8080" ["x"; "y"] 1 5.
Definition full_table (d : live) : live := mk_live (l_peers d) (l_local d) [mk_ri (mk_range 0 max_uint64) 0] (l_store d).
Definition right_net : net := mk_net {[ "x" := full_table (start (λ _, true) right_x); "y" := full_table (start (λ _, true) right_y) ]} [].
Definition a_log : envelope := mk_env 1 "abc" "" ∅ ∅ (MLog "p" false).
Example C172_case_settings : node_settings no_duration (swapped [("NODE_INDEX", "0")]) = Some right_x ∧ node_settings no_duration (swapped [("NODE_INDEX", "1")]) = Some right_y ∧
  listed (swapped [] "NODE_ADDRS") ["x"; "y"] ∧ int_text (swapped [("NODE_INDEX", "1")] "NODE_INDEX") 1.
Proof.
  split; [by vm_compute|]. split; [by vm_compute|]. split; [by apply listed_iff; vm_compute|].
  change (says no_duration KInt "1" (SInt 1)). apply says_iff. by vm_compute.
Qed.
Example C172_case_wired : wired ["x"; "y"] right_net.
Proof.
  split; [by apply (bool_decide_unpack _); vm_compute|]. intros [|[|k]] a Ha; [| |done]; injection Ha as <-.
  - exists (full_table (start (λ _, true) right_x)). split; [by vm_compute|]. split; [done|]. split; [done|]. intros [|[|j]] b Hb; [| |done]; by injection Hb as <-.
  - exists (full_table (start (λ _, true) right_y)). split; [by vm_compute|]. split; [done|]. split; [done|]. intros [|[|j]] b Hb; [| |done]; by injection Hb as <-.
Qed.
Example C172_case_written : ∃ w1 w2, send_at (λ _, 7) 9 "y" (mk_send false (Some [a_log])) [(0%nat, [a_log])] right_net = Some w1 ∧ w_wire w1 = [("x", [a_log])] ∧
  arrivals (λ _, 7) 9 [0%nat] w1 = Some w2 ∧ w_wire w2 = [] ∧
  ∀ b, b ∈ ["x"; "y"] → net_read 2 (λ _, 7) (λ _, None) 9 (λ _, 0%nat) b (mk_rr "abc" 0 0 0 [] false "") w2 = Some (NServed "x" (ReadOk [a_log])).
Proof.
  destruct (send_at (λ _, 7) 9 "y" (mk_send false (Some [a_log])) [(0%nat, [a_log])] right_net) as [w1|] eqn:E1; [|by vm_compute in E1].
  destruct (arrivals (λ _, 7) 9 [0%nat] w1) as [w2|] eqn:E2; [|exfalso; injection E1 as <-; by vm_compute in E2].
  exists w1, w2. split; [done|]. injection E1 as <-. split; [done|]. split; [done|]. injection E2 as <-. split; [by vm_compute|].
  intros b Hb. rewrite !elem_of_cons, elem_of_nil in Hb. destruct Hb as [->|[->|[]]]; by vm_compute.
Qed.
Example C172_case_outside : ¬ (0 <= nc_index (mk_config ":8080" [":8080"] 1 100000) < Z.of_nat (length (nc_addrs (mk_config ":8080" [":8080"] 1 100000)))).
Proof. cbn. lia. Qed.
