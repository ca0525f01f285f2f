(** C188: a metric of a syslog line on the whole way through a cluster (as C184 for log lines), with ParseFloat and the texts of numbers
    written out: in particular what becomes of the number that is a gauge's value.  Vocabulary: that of Props/PipelineClusterProps.v, and
    Float/Spec.v (nearest, out_of_range), Float/SpecDigits.v.  Programs: those of Props/PipelineClusterProps.v, Float/Model.v, Float/Gauge.v. *)
From Coq Require Import Ascii String.
From stdpp Require Import prelude strings list gmap.
From Verif.Base Require Import GoInt Envelope Str Url Dec.
From Verif.Store Require Import Model Spec.
From Verif.Auth Require Import SpecDocs DocsMore.
From Verif.Json Require Import Text Spec Pb SpecPb Codec.
From Verif.Routing Require Import Model Spec.
From Verif.Whole Require Import Model SpecFull.
From Verif.Client Require Import WalkStore.
From Verif.Float Require Import Model Spec Proofs Nearest Short Parse ParseProofs SpecDigits Gauge Fifteen.
From Verif.Wire Require Import Format Model Frame SpecFrame FrameProofs SpecPipeline PipelineProofs PipelineSyslog Control Cluster SpecCluster ClusterProofs ClusterOwner
  ClusterWitness.
From Verif.Gateway Require Import Model Spec.
From Verif.Marshaler Require Import Model Spec.
From Verif.Http Require Import Model Spec Semver.
From Verif.Syslog Require Import Model Spec Octet SpecOctet Message SpecMessage.
From Verif.Props Require Import WholeProps KeepProps MarshalerProps GatewayProps HttpProps JsonProps SyslogProps OctetProps MessageTextProps ClusterBytesProps PipelineProps
  DigitsProps PipelineClusterProps.
From Verif.Wire Require Import SpecPipelineCluster PipelineCluster.
Local Open Scope string_scope.
Local Open Scope Z_scope.
Local Arguments String.append !_ _ / : simpl nomatch.

Lemma name_utf8 s : name s -> utf8 s.
Proof. intros [H _]. apply printable_utf8. induction H as [|c s [H _] _ IH]; by constructor. Qed.
Lemma param_utf8 m k : text_map m -> utf8 (param m k).
Proof. intros H. unfold param. destruct (m !! k) as [x|] eqn:E; [by apply H in E as [_ E]|constructor]. Qed.
Lemma bits_double f : double (bits_of f).
Proof.
  destruct f as [|[]|neg b]; [by vm_compute..|]. pose proof (sig_magnitude b) as Mb. unfold magnitude in Mb. assert (Hi : inf < 2 ^ 63) by done. cbn [bits_of]. set (x := proj1_sig b) in *. clearbody x.
  assert (E : is_nan (if neg then 2 ^ 63 + x else x) = false).
  { unfold is_nan. apply Z.ltb_ge. destruct neg; [|rewrite Z.mod_small by lia; lia]. replace (2 ^ 63 + x) with (x + 1 * 2 ^ 63) by lia. rewrite Z.mod_add by done. rewrite Z.mod_small by lia. lia. }
  split; [|by rewrite E]. change (2 ^ 64) with (2 * 2 ^ 63). destruct neg; lia.
Qed.
Lemma numeral_nonneg s n : numeral s n -> 0 <= n.
Proof. induction 1 as [c H|s n c _ IH H]; unfold digit_val, is_digit in *; apply andb_prop in H as [H _]; apply Nat.leb_le in H; lia. Qed.
Lemma says_sendable m kind body : text_map m -> says gauge_float m kind body -> sendable_message body.
Proof.
  intros Hm H. pose proof (fun k => param_utf8 m k Hm) as U. destruct H as [suffix d t H1 H2 H3 H4|suffix u v H1 H2|suffix|suffix a b H1 H2 H3 H4]; cbn [sendable_message].
  - split; [done|]. apply numeral_nonneg in H1, H3. by split.
  - intros k g [<- <-]%lookup_singleton_Some. split; [done|]. split; [by apply Hm in H1 as [_ H1]|]. cbn [gv_value]. unfold gauge_float in H2. destruct (parse_go _) as [f|]; [|done]. injection H2 as <-. apply bits_double.
  - done.
  - done.
Qed.

(** ** C188 *)
(** One metric of a syslog connection, a counter, gauge, event or timer.  Whichever node it is sent to and whichever is asked, and whatever else
    happens in the cluster, the client is given what the line says, under the application's name, with its time: or an error. *)
Theorem C188_metric : forall time L W v, (forall u, g_uptime W u -> int64 u) -> version_text (g_version W) v -> since_2_0_0 v ->
  forall order send_ok size closed pri p tm t host app pid ty inst mid kind ps tx x body f,
  any_order order -> Z.of_nat size < 2^63 ->
  priority pri p -> stamp tm t -> in64 t -> word 255 host -> word 48 app -> app <> "-" -> word 128 pid -> pid <> "-" ->
  process_id pid ty inst -> word 32 mid -> text tx x ->
  name kind -> Forall (fun nv => name nv.1 /\ utf8 nv.2) ps -> says gauge_float (list_to_map (reverse ps)) kind body ->
  SpecOctet.frame (metric_line pri tm host app pid mid kind ps tx) f -> (String.length (metric_line pri tm host app pid mid kind ps tx) <= size)%nat ->
  forall grow nils addrs hash compile ms m pre c k i t0 start tr r,
  Forall (fun m => 1 <= m) ms -> ms !! k = Some m -> bruns grow nils addrs hash compile (bstart ms) pre c ->
  settled hash k app pre c -> gathered app pre (sv_sent (serve gauge_float order send_ok (octets size parse_message closed f).1)) ->
  source_carried app -> int64 start -> start <= t <= t0 ->
  (forall out, b_read W (asked app start []) out -> from_cluster grow nils addrs hash compile ms pre k i t0 (asked app start []) out) ->
  talks (http_answers (go_codec go_floats time) L W) (client_read (go_codec go_floats time) app start []) tr r ->
  (is_err r /\ (lost_exchange tr \/ exists code msg, b_read W (asked app start []) (Failed code msg))) \/
  r = Ok [mk_env t app inst ∅ ∅ body].
Proof.
  intros time L W v HU Hv H2 order send_ok size closed pri p tm t host app pid ty inst mid kind ps tx x body f Ho Hsz Hp Ht Hin Hh Ha Hna Hq Hnq Hpid Hi Hx Hkn Hps Hsay Hf Hl.
  rewrite (C181_metric gauge_float order send_ok size closed pri p tm t host app pid ty inst mid kind ps tx x body f) by done. set (e := mk_env _ _ _ _ _ _).
  intros grow nils addrs hash compile ms m pre c k i t0 start tr r Hms Hm Hr Hse Hg Hca Hst Hn Hb Hta.
  destruct (process_utf8 _ _ _ (proj1 Hq) Hpid) as [U1 U2]. pose proof (printable_utf8 _ (proj1 Ha)) as U3.
  assert (E : of_source app [e] = [e]) by (unfold of_source; rewrite filter_cons, decide_True by done; done).
  assert (Hs : sendable e).
  { split; [exact Hin|]. split; [done|]. split; [done|]. split; [intros k' y Hk; unfold e in Hk; cbn [e_deprecated_tags] in Hk; by rewrite lookup_empty in Hk|].
    split; [intros k' y Hk; unfold e in Hk; cbn [e_tags] in Hk; by rewrite lookup_empty in Hk|]. unfold e. cbn [e_msg]. eapply says_sendable; [|exact Hsay].
    intros k' y Hk. apply elem_of_list_to_map_2 in Hk. rewrite elem_of_reverse in Hk. rewrite Forall_forall in Hps. destruct (Hps _ Hk) as [N U]. cbn [fst snd] in *. split; [|done].
    by apply name_utf8. }
  destruct (C184_all go_floats time L W v go_exact HU Hv H2 grow nils addrs hash compile ms m pre c k i t0 [e] app start tr r) as [?|(l & H3 & H4 & H5)]; try done.
  - by constructor.
  - rewrite E. split; [by constructor|apply NoDup_singleton].
  - rewrite E. rewrite Forall_forall in Hms. apply elem_of_list_lookup_2, Hms in Hm. cbn in Hm |- *. lia.
  - destruct Ha as [_ Ha]. unfold bytes. lia.
  - rewrite E. by constructor.
  - by left.
  - right. rewrite E in H4. apply Permutation_singleton_r in H4 as ->. done.
Qed.
Print Assumptions C188_metric.

(** A gauge whose value is any decimal number: the client is given the float64 nearest to that number, of two as near the even one, with its sign.
    And if the number has up to fifteen digits, what is written of it in JSON is that number. *)
Theorem C188_gauge : forall time L W v, (forall u, g_uptime W u -> int64 u) -> version_text (g_version W) v -> since_2_0_0 v ->
  forall order send_ok size closed pri p tm t host app pid ty inst mid suffix nm unit neg d n x tx xx f,
  let ps := [("name", nm); ("unit", unit); ("value", signed neg d)] in
  let num := n * 10 ^ Z.max x 0 in let den := 10 ^ Z.max (- x) 0 in
  any_order order -> Z.of_nat size < 2^63 ->
  priority pri p -> stamp tm t -> in64 t -> word 255 host -> word 48 app -> app <> "-" -> word 128 pid -> pid <> "-" ->
  process_id pid ty inst -> word 32 mid -> text tx xx ->
  name ("gauge" ++ suffix) -> utf8 nm -> utf8 unit -> stands_for d n x -> ~ out_of_range num den ->
  SpecOctet.frame (metric_line pri tm host app pid mid ("gauge" ++ suffix) ps tx) f ->
  (String.length (metric_line pri tm host app pid mid ("gauge" ++ suffix) ps tx) <= size)%nat ->
  forall grow nils addrs hash compile ms m pre c k i t0 start tr r,
  Forall (fun m => 1 <= m) ms -> ms !! k = Some m -> bruns grow nils addrs hash compile (bstart ms) pre c ->
  settled hash k app pre c -> gathered app pre (sv_sent (serve gauge_float order send_ok (octets size parse_message closed f).1)) ->
  source_carried app -> int64 start -> start <= t <= t0 ->
  (forall out, b_read W (asked app start []) out -> from_cluster grow nils addrs hash compile ms pre k i t0 (asked app start []) out) ->
  talks (http_answers (go_codec go_floats time) L W) (client_read (go_codec go_floats time) app start []) tr r ->
  (is_err r /\ (lost_exchange tr \/ exists code msg, b_read W (asked app start []) (Failed code msg))) \/
  exists b, nearest num den b /\
    r = Ok [mk_env t app inst ∅ ∅ (MGauge {[ nm := mk_gv unit (if neg then 2^63 + b else b) ]})] /\
    (up_to 15 d -> not_tiny d -> exists d', write_go (if neg then 2^63 + b else b) = signed neg d' /\ same_number d d').
Proof.
  intros time L W v HU Hv H2 order send_ok size closed pri p tm t host app pid ty inst mid suffix nm unit neg d n x tx xx f ps num den Ho Hsz Hp Ht Hin Hh Ha Hna Hq Hnq Hpid Hi Hx Hkn Hnm Hu Hd Hor Hf Hl
    grow nils addrs hash compile ms m pre c k i t0 start tr r Hms Hm Hr Hse Hg Hca Hst Hn Hb Hta.
  assert (H0 : 0 <= n) by (by apply number_first in Hd as (? & ? & _ & _ & ?)).
  pose proof (read_decimal_ok n x H0) as R1. pose proof (read_in_range n x H0) as R2. fold num den in R1, R2.
  destruct (read_decimal n x) as [b|] eqn:Er; [|by destruct Hor].
  assert (Eg : gauge_float (signed neg d) = Some (if neg then 2^63 + b else b)).
  { unfold gauge_float. rewrite (stands_signed neg d n x Hd), Er. cbn [mbind option_bind]. unfold finite_of. destruct (decide _) as [H|H]; [done|]. by destruct H; apply bool_decide_pack, R1. }
  destruct (C188_metric time L W v HU Hv H2 order send_ok size closed pri p tm t host app pid ty inst mid ("gauge" ++ suffix) ps tx xx
    (MGauge {[ nm := mk_gv unit (if neg then 2^63 + b else b) ]}) f) with (grow := grow) (nils := nils) (addrs := addrs) (hash := hash) (compile := compile) (ms := ms)
    (m := m) (pre := pre) (c := c) (k := k) (i := i) (t0 := t0) (start := start) (tr := tr) (r := r) as [?|Hok]; try done.
  - assert (Hv' : utf8 (signed neg d)). { apply ascii_utf8. pose proof (ascii_number _ _ _ Hd). destruct neg; [split; [by apply Nat.ltb_lt|done]|done]. }
    pose proof gauge_names as Hnn.
    inversion_clear Hnn as [|? ? N1 Hn']. inversion_clear Hn' as [|? ? N2 Hn'']. inversion_clear Hn'' as [|? ? N3 _]. repeat (apply Forall_cons; split; [done|]). apply Forall_nil. done.
  - match goal with |- says _ ?Q _ _ => change Q with (<["value" := signed neg d]> (<["unit" := unit]> {["name" := nm]}) : gmap string string) end.
    set (M := <["value" := signed neg d]> (<["unit" := unit]> {["name" := nm]})).
    assert (En : nm = param M "name") by (unfold param, M; rewrite !lookup_insert_ne by done; by rewrite lookup_singleton).
    assert (Eq : forall g, MGauge {[nm := g]} = MGauge {[param M "name" := g]}) by (intros g; by rewrite <-En).
    rewrite Eq. apply says_gauge; [unfold M; rewrite lookup_insert_ne by done; by rewrite lookup_insert|]. unfold param, M. by rewrite lookup_insert.
  - by left.
  - right. exists b. split; [done|]. split; [done|]. intros U T. destruct (C187_value_partial neg d U) as (b' & d' & E1 & E2 & E3); [by exists n, x|done|].
    rewrite Eg in E1. injection E1 as <-. by exists d'.
Qed.
Print Assumptions C188_gauge.

(** The line of C187_case, sent to the node that does not have its source, which passes it on; a gateway that asks the same node; and the client that
    is given the float64 nearest to -0.100, which is written as -0.1. *)
Definition the_gauge : envelope := mk_env 12345000 "test-app-id" "1" ∅ ∅ (MGauge {["t" := mk_gv "C" 13815242216921733530]}).
Definition gauge_bytes : string := bytes_of (marshal_send (mk_send false (Some [the_gauge]))).
Definition gauge_before : list btodo := [PTable 0 ranges_bytes; PTable 1 ranges_bytes; PSend 0 gauge_bytes; PPass 1 [the_gauge]].
Definition gauge_ask : string := bytes_of (marshal_read (asked "test-app-id" 0 [])).
Definition gauge_waiting : list btodo := [PMove 7 99999999; PSend 0 other_bytes; PMove 7 99999999; PBack 7].
Definition gauge_pre : list bevent := [BTable 0 ranges_bytes split_table; BTable 1 ranges_bytes split_table; BSend 0 gauge_bytes; BPass 1 [the_gauge]].
Definition gauge_mid : list bevent := [BHop 7; BSend 0 other_bytes; BServe 7 1 (asked "test-app-id" 0 []) 99999999 (ReadOk [the_gauge]); BBack 7].
Definition gauge_answer : string := bytes_of (marshal_read_response (Some [the_gauge])).
Lemma gauge_played : fst <$> played_b gauge_before = Some gauge_pre /\ (fun r => of_source "test-app-id" (c_flight (b_cluster r.2)).*2) <$> played_b gauge_before = Some [].
Proof. split; vm_compute; reflexivity. Qed.
Lemma gauge_asked : fst <$> played_b (gauge_before ++ PAsk 7 0 gauge_ask :: gauge_waiting ++ [PGive 7])%list = Some (gauge_pre ++ BAsk 7 0 gauge_ask :: gauge_mid ++ [BGive 7 (Some gauge_answer)])%list.
Proof. vm_compute. reflexivity. Qed.
Lemma gauge_messages : messages gauge_pre = [VTable 0 split_table; VTable 1 split_table; VSend 0 (mk_send false (Some [the_gauge])); VArrive 1 [the_gauge]].
Proof. vm_compute. reflexivity. Qed.
Lemma gauge_mid_messages : messages gauge_mid = [VSend 0 (mk_send true (Some [e_b])); VRead 1 (asked "test-app-id" 0 []) 99999999 (ReadOk [the_gauge])].
Proof. vm_compute. reflexivity. Qed.
Definition gauge_cluster : read_request -> outcome (list envelope) -> Prop := from_cluster id true ["n0"; "n1"] toy_hash no_pattern [3; 3] gauge_pre 1 0 12345000.
Definition gauge_gateway : gateway example_lib :=
  Gateway example_lib (gw true true) "2.9.0" (fun u => u = 5) gauge_cluster (fun _ _ => False) (fun _ _ => False) (fun _ _ => False).
Lemma gauge_given : gauge_cluster (asked "test-app-id" 0 []) (Done [the_gauge]).
Proof.
  destruct (played_runs _ _ gauge_asked) as (c & _ & R1). apply (cluster_gives _ _ _ _ _ _ _ _ _ _ _ 7 gauge_ask gauge_mid gauge_answer (Some [the_gauge]) c); [by vm_compute|exact R1| |by vm_compute].
  split.
  - intros ? ?. nowhere.
  - intros j [-> | ->]; rewrite gauge_messages; (split; [by vm_compute|]); split; intros; nowhere.
  - intros; nowhere.
  - intros; nowhere.
  - rewrite gauge_mid_messages. by vm_compute.
  - intros n' k' rq now a H. repeat (apply elem_of_cons in H as [H|H]; [try discriminate H|]); [|by apply elem_of_nil in H]. injection H as _ _ _ -> _. lia.
Qed.
Example C188_case : stands_for "0.100" 100 (-3) /\ ~ out_of_range (100 * 10 ^ Z.max (-3) 0) (10 ^ Z.max (- -3) 0) /\ write_go 13815242216921733530 = "-0.1" /\ exists f c,
  SpecOctet.frame a_gauge f /\ bruns id true ["n0"; "n1"] toy_hash no_pattern (bstart [3; 3]) gauge_pre c /\ settled toy_hash 1 "test-app-id" gauge_pre c /\
  gathered "test-app-id" gauge_pre (sv_sent (serve gauge_float in_order (fun _ _ => true) (octets 4096 parse_message true f).1)) /\
  lookup (toy_hash "test-app-id") (table_of 0 (messages gauge_pre)) = [1%nat] /\ lookup (toy_hash "test-app-id") (table_of 1 (messages gauge_pre)) = [1%nat] /\
  version_text "2.9.0" (Version 2 9 0 []) /\ source_carried "test-app-id" /\
  (forall out, b_read gauge_gateway (asked "test-app-id" 0 []) out -> from_cluster id true ["n0"; "n1"] toy_hash no_pattern [3; 3] gauge_pre 1 0 12345000 (asked "test-app-id" 0 []) out) /\
  exists tr, talks (http_answers (go_codec go_floats format_int) example_lib gauge_gateway) (client_read (go_codec go_floats format_int) "test-app-id" 0 []) tr (Ok [the_gauge]).
Proof.
  split. { apply (nt_plain "0.100" 100 3), (dt_point "0" "100" 100 0 100); apply digits_numeral; by vm_compute. }
  split. { unfold out_of_range. apply Z.lt_nge. by vm_compute. }
  split; [by vm_compute|].
  destruct gauge_played as [F0 G0]. destruct (played_runs _ _ F0) as (c & E0 & R0). rewrite E0 in G0. injection G0 as G0. clear E0 F0.
  pose proof line_carried as Hc.
  exists ("117 " ++ a_gauge), c. split; [exists "117"; split; [|reflexivity]; split; [|done]; apply digits_numeral; vm_compute; reflexivity|].
  split; [exact R0|]. split; [|split; [|split; [|split; [|split; [|split; [exact Hc|]]]]]].
  - split; [|intros; nowhere|intros; nowhere| |exact G0]; rewrite gauge_messages; [apply routed_b_ok; by vm_compute|by vm_compute].
  - replace (sv_sent _) with ([the_gauge] ++ [])%list by (vm_compute; reflexivity). apply gat_other; [done|]. apply gat_other; [done|].
    apply (gat_batch _ 0 false [the_gauge] gauge_bytes); [by vm_compute| |]. { vm_compute. discriminate. } apply gat_other; [done|]. constructor.
  - rewrite gauge_messages. by vm_compute.
  - rewrite gauge_messages. by vm_compute.
  - by apply semver_iff.
  - split; [done|]. eexists. eapply talks_get.
    + apply (an_info _ _ gauge_gateway _ 5); [|done]. eexists. split; [reflexivity|]. done.
    + replace (version_of _ _) with (Ok (Version 2 9 0 [])) by (vm_compute; reflexivity). eapply talks_get.
      * eapply (an_read _ _ gauge_gateway _ (asked "test-app-id" 0 []) [the_gauge]); [|exact gauge_given].
        destruct (C47_options_partial (gw true true) "test-app-id" 0 [] _ _ ltac:(lia) ltac:(constructor) ltac:(constructor) Hc eq_refl) as [_ E]. by apply E.
      * match goal with |- talks _ (Ret ?x) _ _ => replace x with (@Ok (list envelope) [the_gauge]) by (vm_compute; reflexivity) end. constructor.
Qed.
