(** The whole way through a cluster (C184): the bytes of a syslog connection, batches to any of the nodes, a node passing them on to the one that has
    the source, a gateway asking any node for an HTTP client, and the client's result.  Each theorem is followed by a case meeting its hypotheses.
    Vocabulary: Wire/SpecPipelineCluster.v (gathered, settled, undisturbed, from_cluster), Wire/SpecCluster.v, Whole/SpecFull.v (routed, lost), and that of
    Props/PipelineProps.v.  Programs: those of Props/PipelineProps.v and Wire/Cluster.v. *)
From Coq Require Import Ascii String.
From stdpp Require Import prelude strings list gmap.
From Verif.Base Require Import GoInt Envelope Str Url Dec.
From Verif.Store Require Import Model Spec.
From Verif.Json Require Import Text Spec Pb SpecPb Codec.
From Verif.Routing Require Import Model Spec.
From Verif.Whole Require Import Model SpecFull.
From Verif.Client Require Import WalkStore.
From Verif.Wire Require Import Format Model Frame SpecFrame FrameProofs SpecPipeline PipelineProofs PipelineSyslog Control Cluster SpecCluster ClusterProofs ClusterOwner
  ClusterWitness.
From Verif.Gateway Require Import Model Spec.
From Verif.Marshaler Require Import Model Spec.
From Verif.Http Require Import Model Spec Semver.
From Verif.Syslog Require Import Model Spec Octet SpecOctet Message SpecMessage.
From Verif.Props Require Import WholeProps KeepProps MarshalerProps GatewayProps HttpProps JsonProps SyslogProps OctetProps MessageTextProps ClusterBytesProps PipelineProps.
From Verif.Wire Require Import SpecPipelineCluster PipelineCluster.
Local Open Scope string_scope.
Local Open Scope Z_scope.
Local Arguments String.append !_ _ / : simpl nomatch.

Notation lost_exchange := Verif.Http.Spec.lost.

(** ** C184 *)
(** Envelopes sent in batches to any of the nodes come out of a read by name over HTTP through any node that knows who has the source:
    those of that source that the options ask for, in time order; or the client has an error, because an exchange is lost or a node's call failed. *)
Theorem C184_read : forall F time L W v, exact_floats F -> (forall u, g_uptime W u -> int64 u) -> version_text (g_version W) v -> since_2_0_0 v ->
  forall grow nils addrs hash compile ms m pre c k i t0 es source start opts tr r,
  Forall (fun m => 1 <= m) ms -> ms !! k = Some m -> bruns grow nils addrs hash compile (bstart ms) pre c ->
  settled hash k source pre c -> gathered source pre es -> Forall sendable es ->
  distinct_times (of_source source es) -> Z.of_nat (length (of_source source es)) <= m ->
  int64 start -> Forall option_in64 opts -> Forall known_types opts -> source_carried source -> utf8 source -> utf8 (last_name opts) ->
  bytes source + bytes (last_name opts) + 10 * Z.of_nat (length (all_types opts)) + 140 <= 4194304 ->
  (forall out, b_read W (asked source start opts) out -> from_cluster grow nils addrs hash compile ms pre k i t0 (asked source start opts) out) ->
  talks (http_answers (go_codec F time) L W) (client_read (go_codec F time) source start opts) tr r ->
  (is_err r /\ (lost_exchange tr \/ exists code msg, b_read W (asked source start opts) (Failed code msg))) \/
  exists now l q all, t0 < now /\ l ≡ₚ of_source source es /\ time_sorted l /\ resolved compile now (asked source start opts) q /\
    (forall e, wanted_type (q_types q) e <-> requested_type (all_types opts) e) /\
    Store.Spec.answers q (if q_desc q then reverse l else l) all /\ r = Ok (take (Z.to_nat (q_limit q)) all).
Proof.
  intros F time L W v HF HU Hv H2 grow nils addrs hash compile ms m pre c k i t0 es source start opts tr r Hms Hm Hr Hse Hg Hs D Hlen Hst Ho Hk Hca U1 U2 Hsz Hb Ht.
  assert (B : forall x, b_read W (asked source start opts) (Done x) -> _) by
    (intros x Hx; exact (cluster_backend _ _ _ _ _ _ _ _ _ _ _ _ _ _ _ _ _ Hms Hm Hr Hse Hg Hs D Hlen Hst Ho Hk U1 U2 Hsz (Hb _ Hx))).
  destruct (C155_read F time L W HF HU v source start opts tr r) as [[? ?]|(out & Hout & Hr')]; try done.
  { intros l Hl. destruct (B _ Hl) as (now & l0 & q & all & _ & _ & _ & _ & _ & _ & Hall & ->). by apply Forall_take. }
  { left. split; [done|]. by left. }
  destruct out as [x|code msg]; [|left; split; [done|]; right; by exists code, msg].
  right. destruct (B _ Hout) as (now & l & q & all & H3 & H4 & H5 & H6 & H7 & H8 & _ & ->). by exists now, l, q, all.
Qed.
Print Assumptions C184_read.

(** Without options, up to a hundred of them that are younger than the start: all of them. *)
Theorem C184_all : forall F time L W v, exact_floats F -> (forall u, g_uptime W u -> int64 u) -> version_text (g_version W) v -> since_2_0_0 v ->
  forall grow nils addrs hash compile ms m pre c k i t0 es source start tr r,
  Forall (fun m => 1 <= m) ms -> ms !! k = Some m -> bruns grow nils addrs hash compile (bstart ms) pre c ->
  settled hash k source pre c -> gathered source pre es -> Forall sendable es ->
  distinct_times (of_source source es) -> Z.of_nat (length (of_source source es)) <= Z.min m 100 ->
  int64 start -> source_carried source -> utf8 source -> bytes source <= 4000000 ->
  Forall (fun e => start <= e_ts e <= t0) (of_source source es) ->
  (forall out, b_read W (asked source start []) out -> from_cluster grow nils addrs hash compile ms pre k i t0 (asked source start []) out) ->
  talks (http_answers (go_codec F time) L W) (client_read (go_codec F time) source start []) tr r ->
  (is_err r /\ (lost_exchange tr \/ exists code msg, b_read W (asked source start []) (Failed code msg))) \/
  exists l, r = Ok l /\ l ≡ₚ of_source source es /\ time_sorted l.
Proof.
  intros F time L W v HF HU Hv H2 grow nils addrs hash compile ms m pre c k i t0 es source start tr r Hms Hm Hr Hse Hg Hs D Hlen Hst Hca U1 Hsz Hin Hb Ht.
  destruct (C184_read F time L W v HF HU Hv H2 grow nils addrs hash compile ms m pre c k i t0 es source start [] tr r) as [?|(now & l & q & all & H0 & H3 & H4 & H5 & H6 & H7 & H8)]; try done; try lia; try (by constructor); try (by change (last_name []) with ""; constructor).
  { change (last_name []) with "". change (all_types []) with (@nil etype). unfold bytes in *. cbn [length String.length]. lia. }
  right. exists l. split; [|done].
  destruct H5 as [Q1 [_ Q2] [_ Q3] Q4 [Q5 _]]. rewrite (Q3 eq_refl) in H8. change (rr_desc (asked source start [])) with false in Q4. rewrite Q4 in H7.
  assert (E : all = l).
  { eapply answers_unique; [exact H7|]. assert (Hf : Forall (fun e => start <= e_ts e <= t0) l) by (by rewrite H3). clear -Hf Q1 Q2 Q5 H6 H0. induction Hf as [|e l He _ IH]; constructor; [|done].
    split; [rewrite Q1, (Q2 eq_refl); split; [exact (proj1 He)|lia]|]. split; [rewrite (Q5 eq_refl); constructor|]. apply H6. left. intros t Ht. by apply elem_of_nil in Ht. }
  subst all. rewrite take_ge in H8; [done|]. rewrite H3. lia.
Qed.
Print Assumptions C184_all.

(** One log line of a syslog connection.  Whatever host it comes from, whichever node it is sent to and whichever is asked, and whatever else happens in
    the cluster, the client is given the text without the white space around it, under the application's name, with its time: or an error. *)
Theorem C184_log : forall F time L W v, exact_floats F -> (forall u, g_uptime W u -> int64 u) -> version_text (g_version W) v -> since_2_0_0 v ->
  forall pf order send_ok size closed pri p tm t host app pid ty inst mid tx payload f,
  any_order order -> Z.of_nat size < 2^63 ->
  priority pri p -> stamp tm t -> in64 t -> word 255 host -> word 48 app -> app <> "-" -> word 128 pid -> pid <> "-" ->
  process_id pid ty inst -> word 32 mid -> utf8 tx -> tx <> "" -> trimmed tx payload ->
  SpecOctet.frame (log_line pri tm host app pid mid tx) f -> (String.length (log_line pri tm host app pid mid tx) <= size)%nat ->
  forall grow nils addrs hash compile ms m pre c k i t0 start tr r,
  Forall (fun m => 1 <= m) ms -> ms !! k = Some m -> bruns grow nils addrs hash compile (bstart ms) pre c ->
  settled hash k app pre c -> gathered app pre (sv_sent (serve pf order send_ok (octets size parse_message closed f).1)) ->
  source_carried app -> int64 start -> start <= t <= t0 ->
  (forall out, b_read W (asked app start []) out -> from_cluster grow nils addrs hash compile ms pre k i t0 (asked app start []) out) ->
  talks (http_answers (go_codec F time) L W) (client_read (go_codec F time) app start []) tr r ->
  (is_err r /\ (lost_exchange tr \/ exists code msg, b_read W (asked app start []) (Failed code msg))) \/
  r = Ok [mk_env t app inst ∅ {["source_type" := ty]} (MLog payload (bool_decide (p = 11)))].
Proof.
  intros F time L W v HF HU Hv H2 pf order send_ok size closed pri p tm t host app pid ty inst mid tx payload f Ho Hsz Hp Ht Hin Hh Ha Hna Hq Hnq Hpid Hi Hu Hne Htr Hf Hl.
  rewrite (C181_log pf order send_ok size closed pri p tm t host app pid ty inst mid tx payload f) by done. set (e := mk_env _ _ _ _ _ _).
  intros grow nils addrs hash compile ms m pre c k i t0 start tr r Hms Hm Hr Hse Hg Hca Hst Hn Hb Hta.
  destruct (process_utf8 _ _ _ (proj1 Hq) Hpid) as [U1 U2]. pose proof (printable_utf8 _ (proj1 Ha)) as U3.
  assert (E : of_source app [e] = [e]) by (unfold of_source; rewrite filter_cons, decide_True by done; done).
  assert (Hs : sendable e).
  { split; [exact Hin|]. split; [done|]. split; [done|]. split; [intros k' y Hk; unfold e in Hk; cbn [e_deprecated_tags] in Hk; by rewrite lookup_empty in Hk|]. split; [|done].
    unfold e. cbn [e_tags]. intros k' y [<- <-]%lookup_singleton_Some. split; [by apply printable_utf8; repeat constructor; unfold printable, Json.Spec.range; cbn; lia|done]. }
  destruct (C184_all F time L W v HF HU Hv H2 grow nils addrs hash compile ms m pre c k i t0 [e] app start tr r) as [?|(l & H3 & H4 & H5)]; try done.
  - by constructor.
  - rewrite E. split; [by constructor|apply NoDup_singleton].
  - rewrite E. rewrite Forall_forall in Hms. apply elem_of_list_lookup_2, Hms in Hm. cbn in Hm |- *. lia.
  - destruct Ha as [_ Ha]. unfold bytes. lia.
  - rewrite E. by constructor.
  - by left.
  - right. rewrite E in H4. apply Permutation_singleton_r in H4 as ->. done.
Qed.
Print Assumptions C184_log.

(** And such an answer there is, through any node that knows who has the source, unless it is too large. *)
Theorem C184_reaches : forall grow nils addrs hash compile ms m pre c k i t0 es source start opts,
  Forall (fun m => 1 <= m) ms -> ms !! k = Some m -> (i < length ms)%nat -> bruns grow nils addrs hash compile (bstart ms) pre c ->
  lookup (hash source) (table_of i (messages pre)) = [k] -> lookup (hash source) (table_of k (messages pre)) = [k] ->
  settled hash k source pre c -> gathered source pre es -> Forall sendable es ->
  distinct_times (of_source source es) -> Z.of_nat (length (of_source source es)) <= m ->
  int64 start -> Forall option_in64 opts -> Forall known_types opts -> utf8 source -> utf8 (last_name opts) ->
  bytes source + bytes (last_name opts) + 10 * Z.of_nat (length (all_types opts)) + 140 <= 4194304 ->
  acceptable compile (asked source start opts) ->
  forall now, t0 < now -> exists l q all, l ≡ₚ of_source source es /\ time_sorted l /\ resolved compile now (asked source start opts) q /\
    (forall e, wanted_type (q_types q) e <-> requested_type (all_types opts) e) /\
    Store.Spec.answers q (if q_desc q then reverse l else l) all /\
    (too_large (take (Z.to_nat (q_limit q)) all) \/
     from_cluster grow nils addrs hash compile ms pre k i t0 (asked source start opts) (Done (take (Z.to_nat (q_limit q)) all))).
Proof. exact cluster_reaches. Qed.
Print Assumptions C184_reaches.

(** The line of C181_case, sent to the node that does not have its source, which passes it on; and a gateway that asks the same node. *)
Definition line_bytes : string := bytes_of (marshal_send (mk_send false (Some [the_line]))).
Definition line_before : list btodo := [PTable 0 ranges_bytes; PTable 1 ranges_bytes; PSend 0 line_bytes; PPass 1 [the_line]].
Definition line_ask : string := bytes_of (marshal_read (asked "test-app-id" 0 [])).
Definition line_waiting : list btodo := [PMove 7 99999999; PSend 0 other_bytes; PMove 7 99999999; PBack 7].
Definition line_pre : list bevent := [BTable 0 ranges_bytes split_table; BTable 1 ranges_bytes split_table; BSend 0 line_bytes; BPass 1 [the_line]].
Definition line_mid : list bevent := [BHop 7; BSend 0 other_bytes; BServe 7 1 (asked "test-app-id" 0 []) 99999999 (ReadOk [the_line]); BBack 7].
Definition line_answer : string := bytes_of (marshal_read_response (Some [the_line])).
Lemma line_played : fst <$> played_b line_before = Some line_pre /\ (fun r => of_source "test-app-id" (c_flight (b_cluster r.2)).*2) <$> played_b line_before = Some [].
Proof. split; vm_compute; reflexivity. Qed.
Lemma line_asked : fst <$> played_b (line_before ++ PAsk 7 0 line_ask :: line_waiting ++ [PGive 7])%list = Some (line_pre ++ BAsk 7 0 line_ask :: line_mid ++ [BGive 7 (Some line_answer)])%list.
Proof. vm_compute. reflexivity. Qed.
Lemma line_messages : messages line_pre = [VTable 0 split_table; VTable 1 split_table; VSend 0 (mk_send false (Some [the_line])); VArrive 1 [the_line]].
Proof. vm_compute. reflexivity. Qed.
Lemma line_mid_messages : messages line_mid = [VSend 0 (mk_send true (Some [e_b])); VRead 1 (asked "test-app-id" 0 []) 99999999 (ReadOk [the_line])].
Proof. vm_compute. reflexivity. Qed.
Definition line_cluster : read_request -> outcome (list envelope) -> Prop := from_cluster id true ["n0"; "n1"] toy_hash no_pattern [3; 3] line_pre 1 0 12345000.
Definition line_gateway : gateway example_lib :=
  Gateway example_lib (gw true true) "2.9.0" (fun u => u = 5) line_cluster (fun _ _ => False) (fun _ _ => False) (fun _ _ => False).
Lemma line_given : line_cluster (asked "test-app-id" 0 []) (Done [the_line]).
Proof.
  destruct (played_runs _ _ line_asked) as (c & _ & R1). apply (cluster_gives _ _ _ _ _ _ _ _ _ _ _ 7 line_ask line_mid line_answer (Some [the_line]) c); [by vm_compute|exact R1| |by vm_compute].
  split.
  - intros ? ?. nowhere.
  - intros j [-> | ->]; rewrite line_messages; (split; [by vm_compute|]); split; intros; nowhere.
  - intros; nowhere.
  - intros; nowhere.
  - rewrite line_mid_messages. by vm_compute.
  - intros n' k' rq now a H. repeat (apply elem_of_cons in H as [H|H]; [try discriminate H|]); [|by apply elem_of_nil in H]. injection H as _ _ _ -> _. lia.
Qed.
Lemma line_carried : source_carried "test-app-id".
Proof. apply carried_last; try done; intros a b' E; clear -E; do 12 (destruct a as [|? a]; cbn in E; [discriminate E|try discriminate E; injection E as _ E]). Qed.
Example C184_case : exists f c,
  SpecOctet.frame a_line f /\ bruns id true ["n0"; "n1"] toy_hash no_pattern (bstart [3; 3]) line_pre c /\ settled toy_hash 1 "test-app-id" line_pre c /\
  gathered "test-app-id" line_pre (sv_sent (serve no_float in_order (fun _ _ => true) (octets 4096 parse_message true f).1)) /\
  lookup (toy_hash "test-app-id") (table_of 0 (messages line_pre)) = [1%nat] /\ lookup (toy_hash "test-app-id") (table_of 1 (messages line_pre)) = [1%nat] /\
  version_text "2.9.0" (Version 2 9 0 []) /\ source_carried "test-app-id" /\
  (forall out, b_read line_gateway (asked "test-app-id" 0 []) out -> from_cluster id true ["n0"; "n1"] toy_hash no_pattern [3; 3] line_pre 1 0 12345000 (asked "test-app-id" 0 []) out) /\
  exists tr, talks (http_answers (go_codec bit_floats format_int) example_lib line_gateway) (client_read (go_codec bit_floats format_int) "test-app-id" 0 []) tr (Ok [the_line]).
Proof.
  destruct line_played as [F0 G0]. destruct (played_runs _ _ F0) as (c & E0 & R0). rewrite E0 in G0. injection G0 as G0. clear E0 F0.
  pose proof line_carried as Hc.
  exists ("89 " ++ a_line), c. split; [exists "89"; split; [|reflexivity]; split; [|done]; apply digits_numeral; vm_compute; reflexivity|].
  split; [exact R0|]. split; [|split; [|split; [|split; [|split; [|split; [exact Hc|]]]]]].
  - split; [|intros; nowhere|intros; nowhere| |exact G0]; rewrite line_messages; [apply routed_b_ok; by vm_compute|by vm_compute].
  - replace (sv_sent _) with ([the_line] ++ [])%list by (vm_compute; reflexivity). apply gat_other; [done|]. apply gat_other; [done|].
    apply (gat_batch _ 0 false [the_line] line_bytes); [by vm_compute| |]. { vm_compute. discriminate. } apply gat_other; [done|]. constructor.
  - rewrite line_messages. by vm_compute.
  - rewrite line_messages. by vm_compute.
  - by apply semver_iff.
  - split; [done|]. eexists. eapply talks_get.
    + apply (an_info _ _ line_gateway _ 5); [|done]. eexists. split; [reflexivity|]. done.
    + replace (version_of _ _) with (Ok (Version 2 9 0 [])) by (vm_compute; reflexivity). eapply talks_get.
      * eapply (an_read _ _ line_gateway _ (asked "test-app-id" 0 []) [the_line]); [|exact line_given].
        destruct (C47_options_partial (gw true true) "test-app-id" 0 [] _ _ ltac:(lia) ltac:(constructor) ltac:(constructor) Hc eq_refl) as [_ E]. by apply E.
      * match goal with |- talks _ (Ret ?x) _ _ => replace x with (@Ok (list envelope) [the_line]) by (vm_compute; reflexivity) end. constructor.
Qed.
