(** The whole way (C182): the bytes of a syslog connection, the batches on a node's port, the node's answer to the gateway, the
    gateway's JSON and the client's result.  Each theorem is followed by a case meeting its hypotheses.
    Vocabulary: Wire/SpecPipeline.v (collected, from_node, too_large), Wire/SpecFrame.v (takes, bytes), Syslog/SpecMessage.v (rfc5424, stamp,
    word), Syslog/SpecOctet.v (frame, stream), Syslog/Spec.v (means), Gateway/Spec.v (asked, carried), Http/Spec.v (lost), Routing/Spec.v (acceptable,
    resolved, requested_type), Store/Spec.v (answers, time_sorted).  Programs: Syslog/Message.v, Octet.v, Model.v; Wire/Model.v, Frame.v, Node.v;
    Http/Model.v, Json/Codec.v. *)
From Coq Require Import Ascii String.
From stdpp Require Import prelude strings list gmap.
From Verif.Base Require Import GoInt Envelope Str Url Dec.
From Verif.Store Require Import Model Spec.
From Verif.Json Require Import Text Spec Pb SpecPb Codec.
From Verif.Routing Require Import Model Spec.
From Verif.Whole Require Import SpecFull.
From Verif.Client Require Import WalkStore.
From Verif.Wire Require Import Format Model Node SpecNode Frame SpecFrame FrameProofs SpecPipeline PipelineProofs PipelineSyslog.
From Verif.Gateway Require Import Model Spec.
From Verif.Marshaler Require Import Model Spec.
From Verif.Http Require Import Model Spec Semver.
From Verif.Syslog Require Import Model Spec Octet SpecOctet Message SpecMessage.
From Verif.Props Require Import MarshalerProps GatewayProps HttpProps JsonProps SyslogProps OctetProps MessageTextProps.
Local Open Scope string_scope.
Local Open Scope Z_scope.
Local Arguments String.append !_ _ / : simpl nomatch.

Notation source_carried := Verif.Gateway.Spec.carried.
Notation client_read := Verif.Http.Model.read.
Notation http_answers := Verif.Http.Model.answers.

Section Client.
Context (F : floats) (time : Z -> string) (L : lib) (W : gateway L) (v : Verif.Http.Model.version).
Context (HF : exact_floats F) (HU : forall u, g_uptime W u -> int64 u) (Hv : version_text (g_version W) v) (H2 : since_2_0_0 v).
Lemma through compile mine m cs s es now source start opts tr r : 1 <= m -> mine source = true ->
  port_run compile mine cs (new_store m) = Some s -> collected mine source cs es -> Forall sendable es ->
  distinct_times (of_source source es) -> Z.of_nat (length (of_source source es)) <= m ->
  int64 start -> Forall option_in64 opts -> Forall known_types opts -> source_carried source -> utf8 source -> utf8 (last_name opts) ->
  bytes source + bytes (last_name opts) + 10 * Z.of_nat (length (all_types opts)) + 140 <= 4194304 ->
  acceptable compile (asked source start opts) ->
  (forall out, b_read W (asked source start opts) out -> from_node compile mine s now (asked source start opts) out) ->
  talks (http_answers (go_codec F time) L W) (client_read (go_codec F time) source start opts) tr r ->
  (is_err r /\ lost tr) \/
  exists l q all, l ≡ₚ of_source source es /\ time_sorted l /\ resolved compile now (asked source start opts) q /\
    (forall e, wanted_type (q_types q) e <-> requested_type (all_types opts) e) /\
    Store.Spec.answers q (if q_desc q then reverse l else l) all /\
    (r = Ok (take (Z.to_nat (q_limit q)) all) \/ is_err r /\ too_large (take (Z.to_nat (q_limit q)) all)).
Proof.
  intros Hm Hmine Hr Hc Hs D Hlen Hst Ho Hk Hca U1 U2 Hsz Hacc Hb Ht.
  assert (B : forall out, b_read W (asked source start opts) out -> _) by (intros out Hout; exact (backend _ _ _ _ _ _ _ _ _ _ _ Hm Hmine Hr Hc Hs D Hlen Hst Ho Hk U1 U2 Hsz Hacc (Hb _ Hout))).
  destruct (C155_read F time L W HF HU v source start opts tr r) as [?|(out & Hout & Hr')]; try done.
  { intros l Hl. destruct (B _ Hl) as (l0 & q & all & _ & _ & _ & _ & _ & Hall & ->). by apply Forall_take. }
  { by left. }
  right. destruct (B _ Hout) as (l & q & all & H3 & H4 & H5 & H6 & H7 & _ & H8). exists l, q, all. do 5 (split; [done|]).
  destruct out as [x|code msg]; [left; by subst|right; by split].
Qed.
Lemma in_full compile mine m cs s es now source start tr r : 1 <= m -> mine source = true ->
  port_run compile mine cs (new_store m) = Some s -> collected mine source cs es -> Forall sendable es ->
  distinct_times (of_source source es) -> Z.of_nat (length (of_source source es)) <= Z.min m 100 ->
  int64 start -> source_carried source -> utf8 source -> bytes source <= 4000000 ->
  Forall (fun e => start <= e_ts e < now) (of_source source es) ->
  (forall out, b_read W (asked source start []) out -> from_node compile mine s now (asked source start []) out) ->
  talks (http_answers (go_codec F time) L W) (client_read (go_codec F time) source start []) tr r ->
  (is_err r /\ lost tr) \/
  exists l, l ≡ₚ of_source source es /\ time_sorted l /\ (r = Ok l \/ is_err r /\ too_large l).
Proof.
  intros Hm Hmine Hr Hc Hs D Hlen Hst Hca U1 Hsz Hin Hb Ht.
  destruct (through compile mine m cs s es now source start [] tr r) as [?|(l & q & all & H3 & H4 & H5 & H6 & H7 & H8)]; try done; try lia; try (by constructor); try (by change (last_name []) with ""; constructor).
  { change (last_name []) with "". change (all_types []) with (@nil etype). unfold bytes in *. cbn [length String.length]. lia. }
  { split; [by left|]. split; [cbn; lia|by left]. }
  right. exists l. split; [done|]. split; [done|].
  destruct H5 as [Q1 [_ Q2] [_ Q3] Q4 [Q5 _]]. rewrite (Q3 eq_refl) in H8. change (rr_desc (asked source start [])) with false in Q4. rewrite Q4 in H7.
  assert (E : all = l).
  { eapply answers_unique; [exact H7|]. assert (Hf : Forall (fun e => start <= e_ts e < now) l) by (by rewrite H3). clear -Hf Q1 Q2 Q5 H6. induction Hf as [|e l He _ IH]; constructor; [|done].
    split; [rewrite Q1, (Q2 eq_refl); exact He|]. split; [rewrite (Q5 eq_refl); constructor|]. apply H6. left. intros t Ht. by apply elem_of_nil in Ht. }
  subst all. rewrite take_ge in H8; [done|]. rewrite H3. lia.
Qed.
End Client.

(** ** C182 *)
(** Messages in frames on a connection of the syslog server, sent on in whatever batches, come out of a read by name over HTTP: those of that
    source that the options ask for, in time order, each with what its message says; unless an exchange is lost, or the answer is
    more than a connection takes. *)
Theorem C182_read : forall F time L W v, exact_floats F -> (forall u, g_uptime W u -> int64 u) -> version_text (g_version W) v -> since_2_0_0 v ->
  forall pf order send_ok size closed ms es t,
  (forall x f, pf x = Some f -> double f) -> any_order order -> Z.of_nat size < 2^63 -> stream SpecOctet.frame ms t -> ms <> [] ->
  Forall2 (fun m e => (String.length m <= size)%nat /\ exists msg, rfc5424 m msg /\ means pf msg e /\
                      forall d, sm_data msg = Some d -> (base.size d <= 1)%nat) ms es ->
  forall compile mine m cs s now source start opts tr r,
  1 <= m -> mine source = true -> port_run compile mine cs (new_store m) = Some s ->
  collected mine source cs (sv_sent (serve pf order send_ok (octets size parse_message closed t).1)) ->
  distinct_times (of_source source es) -> Z.of_nat (length (of_source source es)) <= m ->
  int64 start -> Forall option_in64 opts -> Forall known_types opts -> source_carried source -> utf8 source -> utf8 (last_name opts) ->
  bytes source + bytes (last_name opts) + 10 * Z.of_nat (length (all_types opts)) + 140 <= 4194304 ->
  acceptable compile (asked source start opts) ->
  (forall out, b_read W (asked source start opts) out -> from_node compile mine s now (asked source start opts) out) ->
  talks (http_answers (go_codec F time) L W) (client_read (go_codec F time) source start opts) tr r ->
  (is_err r /\ lost tr) \/
  exists l q all, l ≡ₚ of_source source es /\ time_sorted l /\ resolved compile now (asked source start opts) q /\
    (forall e, wanted_type (q_types q) e <-> requested_type (all_types opts) e) /\
    Store.Spec.answers q (if q_desc q then reverse l else l) all /\
    (r = Ok (take (Z.to_nat (q_limit q)) all) \/ is_err r /\ too_large (take (Z.to_nat (q_limit q)) all)).
Proof.
  intros F time L W v HF HU Hv H2 pf order send_ok size closed ms es t Hpf Ho Hsz Hst Hne Hms.
  destruct (C181_server pf order send_ok size closed ms es t Ho Hsz Hst Hne Hms) as (_ & E & _). cbv zeta in E. rewrite E.
  intros compile mine m cs s now source start opts tr r Hm Hmine Hr Hc. eapply (through F time L W v); try done.
  clear -Hms Hpf. induction Hms as [|x e ms es (_ & msg & H1 & H2 & _) _ IH]; constructor; [by eapply means_sendable|done].
Qed.
Print Assumptions C182_read.

(** Without options, up to a hundred of them that are younger than the start: all of them. *)
Theorem C182_all : forall F time L W v, exact_floats F -> (forall u, g_uptime W u -> int64 u) -> version_text (g_version W) v -> since_2_0_0 v ->
  forall pf order send_ok size closed ms es t,
  (forall x f, pf x = Some f -> double f) -> any_order order -> Z.of_nat size < 2^63 -> stream SpecOctet.frame ms t -> ms <> [] ->
  Forall2 (fun m e => (String.length m <= size)%nat /\ exists msg, rfc5424 m msg /\ means pf msg e /\
                      forall d, sm_data msg = Some d -> (base.size d <= 1)%nat) ms es ->
  forall compile mine m cs s now source start tr r,
  1 <= m -> mine source = true -> port_run compile mine cs (new_store m) = Some s ->
  collected mine source cs (sv_sent (serve pf order send_ok (octets size parse_message closed t).1)) ->
  distinct_times (of_source source es) -> Z.of_nat (length (of_source source es)) <= Z.min m 100 ->
  int64 start -> source_carried source -> utf8 source -> bytes source <= 4000000 ->
  Forall (fun e => start <= e_ts e < now) (of_source source es) ->
  (forall out, b_read W (asked source start []) out -> from_node compile mine s now (asked source start []) out) ->
  talks (http_answers (go_codec F time) L W) (client_read (go_codec F time) source start []) tr r ->
  (is_err r /\ lost tr) \/
  exists l, l ≡ₚ of_source source es /\ time_sorted l /\ (r = Ok l \/ is_err r /\ too_large l).
Proof.
  intros F time L W v HF HU Hv H2 pf order send_ok size closed ms es t Hpf Ho Hsz Hst Hne Hms.
  destruct (C181_server pf order send_ok size closed ms es t Ho Hsz Hst Hne Hms) as (_ & E & _). cbv zeta in E. rewrite E.
  intros compile mine m cs s now source start tr r Hm Hmine Hr Hc. eapply (in_full F time L W v); try done.
  clear -Hms Hpf. induction Hms as [|x e ms es (_ & msg & H1 & H2 & _) _ IH]; constructor; [by eapply means_sendable|done].
Qed.
Print Assumptions C182_all.

(** One log line.  Whatever host it comes from and whatever else happens on the node's port, the client is given the text without the
    white space around it, under the application's name, with its time: or an exchange is lost. *)
Lemma sent_alone mine src cs e es : collected mine src cs es -> es = [e] -> exists lo b, marshal_send (mk_send lo (Some [e])) = Some b /\ takes b.
Proof.
  induction 1 as [|now lo batch b cs es Hb Ht _ IH|c cs es _ _ _ IH]; intros E; [done| |by apply IH]. destruct batch as [|x batch]; [by apply IH|].
  injection E as -> E. apply app_nil in E as [-> ->]. by exists lo, b.
Qed.
Theorem C182_log : forall F time L W v, exact_floats F -> (forall u, g_uptime W u -> int64 u) -> version_text (g_version W) v -> since_2_0_0 v ->
  forall pf order send_ok size closed pri p tm t host app pid ty inst mid tx payload f,
  any_order order -> Z.of_nat size < 2^63 ->
  priority pri p -> stamp tm t -> in64 t -> word 255 host -> word 48 app -> app <> "-" -> word 128 pid -> pid <> "-" ->
  process_id pid ty inst -> word 32 mid -> utf8 tx -> tx <> "" -> trimmed tx payload ->
  SpecOctet.frame (log_line pri tm host app pid mid tx) f -> (String.length (log_line pri tm host app pid mid tx) <= size)%nat ->
  forall compile mine m cs s now start tr r,
  1 <= m -> mine app = true -> port_run compile mine cs (new_store m) = Some s ->
  collected mine app cs (sv_sent (serve pf order send_ok (octets size parse_message closed f).1)) ->
  source_carried app -> int64 start -> start <= t < now ->
  (forall out, b_read W (asked app start []) out -> from_node compile mine s now (asked app start []) out) ->
  talks (http_answers (go_codec F time) L W) (client_read (go_codec F time) app start []) tr r ->
  (is_err r /\ lost tr) \/
  r = Ok [mk_env t app inst ∅ {["source_type" := ty]} (MLog payload (bool_decide (p = 11)))].
Proof.
  intros F time L W v HF HU Hv H2 pf order send_ok size closed pri p tm t host app pid ty inst mid tx payload f Ho Hsz Hp Ht Hin Hh Ha Hna Hq Hnq Hpid Hi Hu Hne Htr Hf Hl.
  rewrite (C181_log pf order send_ok size closed pri p tm t host app pid ty inst mid tx payload f) by done. set (e := mk_env _ _ _ _ _ _).
  intros compile mine m cs s now start tr r Hm Hmine Hr Hc Hca Hst Hn Hb Hta.
  destruct (process_utf8 _ _ _ (proj1 Hq) Hpid) as [U1 U2]. pose proof (printable_utf8 _ (proj1 Ha)) as U3.
  assert (E : of_source app [e] = [e]) by (unfold of_source; rewrite filter_cons, decide_True by done; done).
  assert (Hs : sendable e).
  { split; [exact Hin|]. split; [done|]. split; [done|]. split; [intros k y Hk; unfold e in Hk; cbn [e_deprecated_tags] in Hk; by rewrite lookup_empty in Hk|]. split; [|done].
    unfold e. cbn [e_tags]. intros k y [<- <-]%lookup_singleton_Some. split; [by apply printable_utf8; repeat constructor; unfold printable, Json.Spec.range; cbn; lia|done]. }
  destruct (in_full F time L W v HF HU Hv H2 compile mine m cs s [e] now app start tr r) as [?|(l & H3 & H4 & H5)]; try done.
  - by constructor.
  - rewrite E. split; [by constructor|apply NoDup_singleton].
  - rewrite E. cbn. lia.
  - destruct Ha as [_ Ha]. unfold bytes. lia.
  - rewrite E. by constructor.
  - by left.
  - right. rewrite E in H3. apply Permutation_singleton_r in H3 as ->. destruct H5 as [?|[_ Hbig]]; [done|]. exfalso.
    destruct (sent_alone _ _ _ _ _ Hc eq_refl) as (lo & b & Eb & Tb).
    assert (Er : exists b', marshal_read_response (Some [e]) = Some b').
    { apply Verif.Wire.Proofs.marshal_inv in Eb as [V _]. cbn [sr_envelopes] in V. unfold marshal_read_response, Verif.Wire.Model.marshal. rewrite V. by eexists. }
    destruct Er as [b' Er]. apply (Hbig b' Er). by eapply same_batch.
Qed.
Print Assumptions C182_log.

(** The line of C181_case, on its way. *)
Definition the_line : envelope := mk_env 12345000 "test-app-id" "2" ∅ {["source_type" := "APP"]} (MLog "just a test" true).
Definition the_request : option string := marshal_send (mk_send true (Some [the_line])).
Definition no_pattern (x : string) : option (string -> bool) := None.
Definition every (x : string) : bool := true.
Definition the_node : option store := b ← the_request; port_run no_pattern every [CallMeta ""; CallSend 5 b] (new_store 3).
Definition the_gateway (s : store) : gateway example_lib :=
  Gateway example_lib (gw true true) "2.9.0" (fun u => u = 5) (from_node no_pattern every s 99999999) (fun _ _ => False) (fun _ _ => False) (fun _ _ => False).
Lemma the_answer : (s ← the_node; b ← marshal_read (asked "test-app-id" 0 []); '(_, a) ← port_call no_pattern every (CallRead 99999999 b) s; b' ← a; unmarshal_read_response b') =
  Some (Some [the_line]).
Proof. vm_compute. reflexivity. Qed.
Example C182_case : exists f b s,
  SpecOctet.frame a_line f /\ the_request = Some b /\ the_node = Some s /\
  collected every "test-app-id" [CallMeta ""; CallSend 5 b] (sv_sent (serve no_float in_order (fun _ _ => true) (octets 4096 parse_message true f).1)) /\
  version_text "2.9.0" (Version 2 9 0 []) /\ source_carried "test-app-id" /\
  (forall out, b_read (the_gateway s) (asked "test-app-id" 0 []) out -> from_node no_pattern every s 99999999 (asked "test-app-id" 0 []) out) /\
  exists tr, talks (http_answers (go_codec bit_floats format_int) example_lib (the_gateway s)) (client_read (go_codec bit_floats format_int) "test-app-id" 0 []) tr (Ok [the_line]).
Proof.
  destruct the_request as [b|] eqn:Eb; [|by vm_compute in Eb]. destruct the_node as [s|] eqn:Es; [|by vm_compute in Es].
  assert (Hc : source_carried "test-app-id").
  { apply carried_last; try done; intros a b' E; clear -E; do 12 (destruct a as [|? a]; cbn in E; [discriminate E|try discriminate E; injection E as _ E]). }
  exists ("89 " ++ a_line), b, s. split_and!; try done.
  - exists "89". split; [|reflexivity]. split; [|done]. apply digits_numeral. vm_compute. reflexivity.
  - replace (sv_sent _) with [the_line] by (vm_compute; reflexivity). apply col_other; [done|done|]. apply (col_batch _ _ 5 true [the_line] b [] []); [exact Eb| |constructor].
    unfold the_request in Eb. vm_compute in Eb. injection Eb as <-. unfold takes, bytes. cbn. lia.
  - by apply semver_iff.
  - eexists. eapply talks_get.
    + apply (an_info _ _ (the_gateway s) _ 5); [|done]. eexists. split; [reflexivity|]. done.
    + replace (version_of _ _) with (Ok (Version 2 9 0 [])) by (vm_compute; reflexivity). eapply talks_get.
      * eapply (an_read _ _ (the_gateway s) _ (asked "test-app-id" 0 []) [the_line]).
        -- destruct (C47_options_partial (gw true true) "test-app-id" 0 [] _ _ ltac:(lia) ltac:(constructor) ltac:(constructor) Hc eq_refl) as [_ E]. by apply E.
        -- pose proof the_answer as A. rewrite Es in A. cbn [mbind option_bind] in A. destruct (marshal_read (asked "test-app-id" 0 [])) as [rb|] eqn:Er; [|done]. cbn [mbind option_bind] in A.
           destruct (port_call no_pattern every (CallRead 99999999 rb) s) as [[s' [b'|]]|] eqn:Ec; [|done..]. cbn [mbind option_bind] in A.
           exact (node_gives no_pattern every s 99999999 _ rb s' b' _ Er Ec A).
      * match goal with |- talks _ (Ret ?x) _ _ => replace x with (@Ok (list envelope) [the_line]) by (vm_compute; reflexivity) end. constructor.
Qed.
