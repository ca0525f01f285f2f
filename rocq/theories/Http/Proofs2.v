(** The client library and the gateway together. *)
From Coq Require Import Ascii String.
From stdpp Require Import prelude strings gmap list.
From Verif.Base Require Import GoInt Envelope Str Url UrlProofs Dec.
From Verif.Routing Require Import Model.
From Verif.Gateway Require Import Model Spec Proofs Decode Route Queries.
From Verif.Marshaler Require Import Model Spec Proofs.
From Verif.Http Require Import Model Spec Semver Proofs.
Open Scope string_scope.
Open Scope list_scope.
Open Scope Z_scope.

Lemma plain_all (p : ascii -> bool) x : (forall c, p c = true ->
    (32 <= nat_of_ascii c <= 126)%nat /\ nat_of_ascii c <> 34%nat /\ nat_of_ascii c <> 92%nat) -> str_all p x = true -> plain x.
Proof. intros Hp Hx a c b E. apply Hp. eapply str_all_iff; [exact Hx|exact E]. Qed.
Definition numeric (c : ascii) : bool := is_digit c || ceqb c "-".
Lemma plain_int u : - 2^63 <= u < 2^63 -> plain (format_int u).
Proof.
  intros H. apply (plain_all numeric).
  { intros c. unfold numeric. rewrite orb_true_iff, ceqb_true. unfold is_digit. rewrite andb_true_iff, !Nat.leb_le.
    intros [?| ->]; [lia|]. change (nat_of_ascii "-"%char) with 45%nat. lia. }
  assert (F : forall n, 0 <= n < 2^64 -> str_all numeric (format_uint n) = true).
  { intros n Hn. assert (G : str_all is_digit (format_uint n) = true).
    { eapply numeral_all, format_uint_numeral. unfold inu64. lia. }
    induction (format_uint n) as [|c s IH]; [done|]. cbn in *. apply andb_true_iff in G as [G1 G2]. rewrite IH by done.
    unfold numeric. by rewrite G1. }
  unfold format_int. destruct (Z.ltb_spec u 0); [cbn; apply F; lia|apply F; lia].
Qed.
Lemma plain_names s : s = "version" \/ s = "vm_uptime" -> plain s.
Proof.
  intros H. apply (plain_all (fun c => (95 <=? nat_of_ascii c)%nat && (nat_of_ascii c <=? 122)%nat)).
  - intros c. rewrite andb_true_iff, !Nat.leb_le. lia.
  - by destruct H as [-> | ->].
Qed.
Lemma quoted_app x r : append (quoted x) r = String (ascii_of_nat 34) (append x (String (ascii_of_nat 34) r)).
Proof.
  unfold quoted. change (append (String (ascii_of_nat 34) (append x (String (ascii_of_nat 34) ""))) r) with
    (String (ascii_of_nat 34) (append (append x (String (ascii_of_nat 34) "")) r)). by rewrite append_assoc.
Qed.
Definition five : list string := ["query"; "time"; "start"; "end"; "step"].
Lemma skip_field {M} G (field : string -> option (list string -> M -> option M)) n kvs vs m :
  has_char "[" n = false -> has_char "." n = false -> field n = None ->
  populate G (fun _ => false) field ((n, vs) :: kvs) m = populate G (fun _ => false) field kvs m.
Proof. intros H1 H2 E. cbn [populate]. by rewrite populate1_plain, E. Qed.
Lemma instant_skip G n : n ∈ ["start"; "end"; "step"] -> instant_field G n = None.
Proof.
  intros H. rewrite !elem_of_cons, elem_of_nil in H. destruct G as [[] ? ? [] ? ? ? ? ?]. all: destruct H as [->|[->|[->|[]]]]; reflexivity.
Qed.
Lemma range_skip G : range_field G "time" = None.
Proof. destruct G as [[] ? ? [] ? ? ? ? ?]; reflexivity. Qed.
Lemma five_plain n : n ∈ five -> has_char "[" n = false /\ has_char "." n = false.
Proof. unfold five. rewrite !elem_of_cons, elem_of_nil. by intros [->|[->|[->|[->|[->|[]]]]]]. Qed.

Lemma populate_instant5 G kvs : NoDup (kvs.*1) -> Forall (fun kv => kv.1 ∈ five /\ kv.2 <> []) kvs -> forall a b,
  populate G (fun _ => false) (instant_field G) kvs (Instant a b, "") = Some (Instant (get kvs "query" a) (get kvs "time" b), "").
Proof.
  induction kvs as [|[k vs] kvs IH]; intros Hnd Hk a b; [done|].
  apply Forall_cons in Hk as [[Hk Hne] Hks]. cbn [fst snd fmap list_fmap] in *. apply NoDup_cons in Hnd as [Hf Hnd].
  destruct vs as [|v vs]; [done|]. specialize (IH Hnd Hks). pose proof (five_plain _ Hk) as [P1 P2].
  unfold five in Hk. rewrite !elem_of_cons, elem_of_nil in Hk. destruct Hk as [->|[->|Hk]].
  - erewrite plain_field; [|done|done|unfold instant_field; by rewrite is_field_own]. cbn. rewrite IH.
    rewrite get_cons_eq, (get_cons_ne "time"), (get_fresh "query") by done. done.
  - erewrite plain_field; [|done|done|unfold instant_field; destruct G as [[] ? ? ? ? ? ? ? ?]; reflexivity]. cbn. rewrite IH.
    rewrite get_cons_eq, (get_cons_ne "query"), (get_fresh "time") by done. done.
  - rewrite skip_field; [|done|done|apply instant_skip; set_solver]. rewrite IH.
    rewrite !get_cons_ne; [done|..]; by destruct Hk as [->|[->|[->|[]]]].
Qed.
Lemma populate_range5 G kvs : NoDup (kvs.*1) -> Forall (fun kv => kv.1 ∈ five /\ kv.2 <> []) kvs -> forall a b c d,
  populate G (fun _ => false) (range_field G) kvs (Range a b c d, "") =
    Some (Range (get kvs "query" a) (get kvs "start" b) (get kvs "end" c) (get kvs "step" d), "").
Proof.
  induction kvs as [|[k vs] kvs IH]; intros Hnd Hk a b c d; [done|].
  apply Forall_cons in Hk as [[Hk Hne] Hks]. cbn [fst snd fmap list_fmap] in *. apply NoDup_cons in Hnd as [Hf Hnd].
  destruct vs as [|v vs]; [done|]. specialize (IH Hnd Hks). unfold five in Hk. rewrite !elem_of_cons, elem_of_nil in Hk.
  destruct Hk as [->|[->|[->|[->|[->|[]]]]]].
  - erewrite plain_field; [|done|done|unfold range_field; by rewrite is_field_own]. cbn. rewrite IH.
    rewrite get_cons_eq, !(get_cons_ne _ "query"), (get_fresh "query") by done. done.
  - rewrite skip_field; [|done|done|apply range_skip]. rewrite IH. by rewrite !get_cons_ne.
  - erewrite plain_field; [|done|done|unfold range_field; destruct G as [[] ? ? ? ? ? ? ? ?]; reflexivity]. cbn. rewrite IH.
    rewrite get_cons_eq, !(get_cons_ne _ "start"), (get_fresh "start") by done. done.
  - erewrite plain_field; [|done|done|unfold range_field; destruct G as [[] ? ? ? ? ? ? ? ?]; reflexivity]. cbn. rewrite IH.
    rewrite get_cons_eq, !(get_cons_ne _ "end"), (get_fresh "end") by done. done.
  - erewrite plain_field; [|done|done|unfold range_field; destruct G as [[] ? ? ? ? ? ? ? ?]; reflexivity]. cbn. rewrite IH.
    rewrite get_cons_eq, !(get_cons_ne _ "step"), (get_fresh "step") by done. done.
Qed.

Section Queries.
Context (D : codec).
Lemma instant_serves G query opts o :
  serves G "/api/v1/query" (http_query D "/api/v1/query" query opts).2 o <-> o = AskInstant (asked_instant D query opts).
Proof.
  set (q := (http_query D "/api/v1/query" query opts).2).
  assert (Hq : parse_query q = query_values D query opts) by apply query_parse.
  assert (H : forall kvs, kvs ≡ₚ map_to_list (parse_query q) -> request_instant G kvs = Some (asked_instant D query opts)).
  { intros kvs Hp. unfold request_instant. destruct (params_map _ _ Hp) as [Hnd _].
    rewrite populate_instant5; [|done|].
    - rewrite !(get_vget q kvs Hp), Hq, query_values_query, query_values_get by done. cbn. f_equal. apply (grpc_instant_asked D query opts).
    - apply (kvs_shape q kvs Hp). intros k. rewrite Hq. apply query_values_keys. }
  split.
  - intros (kvs & Hp & Hs). apply served_query in Hs. by rewrite H in Hs.
  - intros ->. exists (map_to_list (parse_query q)). split; [done|]. rewrite (served_query G _ _ eq_refl). by rewrite H.
Qed.
Lemma range_serves G query opts o :
  serves G "/api/v1/query_range" (http_query D "/api/v1/query_range" query opts).2 o <-> o = AskRange (asked_range D query opts).
Proof.
  set (q := (http_query D "/api/v1/query_range" query opts).2).
  assert (Hq : parse_query q = query_values D query opts) by apply query_parse.
  assert (H : forall kvs, kvs ≡ₚ map_to_list (parse_query q) -> request_range G kvs = Some (asked_range D query opts)).
  { intros kvs Hp. unfold request_range. destruct (params_map _ _ Hp) as [Hnd _].
    rewrite populate_range5; [|done|].
    - rewrite !(get_vget q kvs Hp), Hq, query_values_query, !query_values_get by done. cbn. f_equal. apply (grpc_range_asked D query opts).
    - apply (kvs_shape q kvs Hp). intros k. rewrite Hq. apply query_values_keys. }
  split.
  - intros (kvs & Hp & Hs). apply served_range in Hs. by rewrite H in Hs.
  - intros ->. exists (map_to_list (parse_query q)). split; [done|]. rewrite (served_range G _ _ eq_refl). by rewrite H.
Qed.
End Queries.

(** ** The gateway as the server *)
Section Gateway.
Context (D : codec) (L : lib) (W : gateway L).

Lemma serves_info G o : serves G "/api/v1/info" "" o -> o = InfoPage.
Proof. intros (kvs & _ & <-). reflexivity. Qed.
(** the answers to a request which the gateway understands in one way only *)
Lemma answers_info o : answers D L W info_request o ->
  o = None \/ exists u, g_uptime W u /\ o = Some (200, info_doc (g_version W) u).
Proof.
  intros H. destruct H; try (apply serves_info in H; discriminate); eauto.
Qed.
Lemma answers_read r q o : (forall s, serves (g_lib W) r.1 r.2 s -> s = AskRead q) -> answers D L W r o ->
  o = None \/ exists out, b_read W q out /\
    match out with
    | Done l => o = Some (200, write_envelopes D l)
    | Failed code msg => code <> 0 /\ exists body, o = Some (http_status D code, body)
    end.
Proof.
  intros Hq H. destruct H; [by left|..]; match goal with H : serves _ _ _ _ |- _ => apply Hq in H end; simplify_eq.
  - right. by exists (Done l).
  - right. exists (Failed code msg). split; [done|]. split; [done|]. match goal with H : error_answer _ _ _ _ _ _ |- _ => destruct H as [E _] end.
    destruct resp as [st body]. cbn in E. subst. by exists body.
Qed.
Lemma answers_meta r q o : (forall s, serves (g_lib W) r.1 r.2 s -> s = AskMeta q) -> answers D L W r o ->
  o = None \/ exists out, b_meta W q out /\
    match out with
    | Done l => o = Some (200, write_meta D l)
    | Failed code msg => code <> 0 /\ exists body, o = Some (http_status D code, body)
    end.
Proof.
  intros Hq H. destruct H; [by left|..]; match goal with H : serves _ _ _ _ |- _ => apply Hq in H end; simplify_eq.
  - right. by exists (Done m).
  - right. exists (Failed code msg). split; [done|]. split; [done|]. match goal with H : error_answer _ _ _ _ _ _ |- _ => destruct H as [E _] end.
    destruct resp as [st body]. cbn in E. subst. by exists body.
Qed.
(** what is answered to a query, whatever it asks the backend *)
Definition query_answer (out : outcome (query_result L)) (o : option response) : Prop :=
  match out with
  | Done a => match marshal L a with
              | Some j => o = Some (200, write_json D j)
              | None => exists msg, o = Some (http_status D 2, write_json D (error_doc L msg))
              end
  | Failed code msg => code <> 0 /\ o = Some (http_status D code, write_json D (error_doc L msg))
  end.
Lemma error_query path code msg resp : path = "/api/v1/query" \/ path = "/api/v1/query_range" ->
  error_answer D L path code msg resp -> resp = (http_status D code, write_json D (error_doc L msg)).
Proof. intros Hp [E1 E2]. destruct resp as [st body]. cbn in *. by rewrite E1, E2. Qed.
Lemma answers_instant r q o : r.1 = "/api/v1/query" -> (forall s, serves (g_lib W) r.1 r.2 s -> s = AskInstant q) -> answers D L W r o ->
  o = None \/ exists out, b_instant W q out /\ query_answer out o.
Proof.
  intros Hr Hq H. destruct H; [by left|..]; match goal with H : serves _ _ _ _ |- _ => apply Hq in H end; simplify_eq.
  - right. exists (Done a). split; [done|]. cbn. by simplify_option_eq.
  - right. exists (Done a). split; [done|]. cbn. simplify_option_eq. apply error_query in H2; [|by left]. subst. eauto.
  - right. exists (Failed code msg). split; [done|]. split; [done|]. apply error_query in H2; [|by left]. by subst.
Qed.
Lemma answers_range r q o : r.1 = "/api/v1/query_range" -> (forall s, serves (g_lib W) r.1 r.2 s -> s = AskRange q) -> answers D L W r o ->
  o = None \/ exists out, b_range W q out /\ query_answer out o.
Proof.
  intros Hr Hq H. destruct H; [by left|..]; match goal with H : serves _ _ _ _ |- _ => apply Hq in H end; simplify_eq.
  - right. exists (Done a). split; [done|]. cbn. by simplify_option_eq.
  - right. exists (Done a). split; [done|]. cbn. simplify_option_eq. apply error_query in H2; [|by right]. subst. eauto.
  - right. exists (Failed code msg). split; [done|]. split; [done|]. apply error_query in H2; [|by right]. by subst.
Qed.

Hypothesis HR : reads_info D.
Hypothesis HU : forall u, g_uptime W u -> - 2^63 <= u < 2^63.
Hypothesis HS : errors_not_200 D.

Lemma HI v u : plain v -> - 2^63 <= u < 2^63 ->
  first_json D (info_doc v u) = Some (JObj [("version", JStr v); ("vm_uptime", JStr (format_int u))]).
Proof.
  intros Hv Hu. rewrite <-HR; [|apply plain_names; by left|done|apply plain_names; by right|by apply plain_int]. f_equal.
  unfold two_strings. rewrite !quoted_app. reflexivity.
Qed.
(** Read and Meta *)
Lemma info_version o : plain (g_version W) -> answers D L W info_request o ->
  o = None \/ exists resp, o = Some resp /\ version_of D o = match semver_parse (g_version W) with Some v => Ok v | None => Err BadVersion end.
Proof.
  intros Hp [->|(u & Hu & ->)]%answers_info; [by left|right]. eexists. split; [done|]. cbn [version_of]. change (200 =? 404) with false.
  change (negb (200 =? 200)) with false. cbn iota. rewrite HI by auto. reflexivity.
Qed.

Lemma read_through v source start opts tr r :
  version_text (g_version W) v -> since_2_0_0 v ->
  - 2^63 <= start < 2^63 -> Forall option_in64 opts -> Forall known_types opts -> carried source ->
  (forall l, b_read W (asked source start opts) (Done l) -> read_envelopes D (write_envelopes D l) = Some l) ->
  talks (answers D L W) (read D source start opts) tr r ->
  (is_err r /\ lost tr) \/ exists out, b_read W (asked source start opts) out /\
    match out with Done l => r = Ok l | Failed _ _ => is_err r end.
Proof.
  intros Hv Hs Hst H64 Hk Hc Hrt [(o & -> & Ho & [e He] & Hr)|(o & v' & o2 & -> & Ho & Ho2 & Hov & ->)]%with_base_talks.
  - left. split; [done|]. apply info_version in Ho as [->|(resp & -> & E)]; [|rewrite (proj2 (semver_iff _ _) Hv) in E; congruence|by eapply version_plain].
    exists info_request. left.
  - apply info_version in Ho as [->|(resp & -> & E)]; [done| |by eapply version_plain].
    rewrite (proj2 (semver_iff _ _) Hv), Hov in E. injection E as ->. rewrite (proj2 (gte_iff _ _ Hv) Hs) in Ho2 |- *.
    destruct (http_read "/api/v1" source start opts) as [p q] eqn:Er.
    apply (answers_read _ (asked source start opts)) in Ho2; [|intros s; by eapply http_asked].
    destruct Ho2 as [->|(out & Hb & Ho2)].
    + left. split; [by eexists|]. eexists. right. left.
    + right. exists out. split; [done|]. destruct out as [l|code msg].
      * subst o2. cbn. by rewrite Hrt.
      * destruct Ho2 as [Hne [body ->]]. unfold on_200. apply HS in Hne. destruct (Z.eqb_spec (http_status D code) 200); [done|]. by eexists.
Qed.
Lemma serves_meta G o : serves G "/api/v1/meta" "" o -> o = AskMeta (MetaReq false).
Proof. intros (kvs & Hp & <-). change (parse_query "") with (∅ : values) in Hp. rewrite map_to_list_empty in Hp. symmetry in Hp. apply Permutation_nil in Hp as ->. reflexivity. Qed.
Lemma meta_through v tr r :
  version_text (g_version W) v -> since_2_0_0 v ->
  (forall m, b_meta W (MetaReq false) (Done m) -> read_meta D (write_meta D m) = Some m) ->
  talks (answers D L W) (meta D) tr r ->
  (is_err r /\ lost tr) \/ exists out, b_meta W (MetaReq false) out /\
    match out with Done m => r = Ok m | Failed _ _ => is_err r end.
Proof.
  intros Hv Hs Hrt [(o & -> & Ho & [e He] & Hr)|(o & v' & o2 & -> & Ho & Ho2 & Hov & ->)]%with_base_talks.
  - left. split; [done|]. apply info_version in Ho as [->|(resp & -> & E)]; [|rewrite (proj2 (semver_iff _ _) Hv) in E; congruence|by eapply version_plain].
    exists info_request. left.
  - apply info_version in Ho as [->|(resp & -> & E)]; [done| |by eapply version_plain].
    rewrite (proj2 (semver_iff _ _) Hv), Hov in E. injection E as ->. rewrite (proj2 (gte_iff _ _ Hv) Hs) in Ho2 |- *.
    apply (answers_meta _ (MetaReq false)) in Ho2; [|intros s; apply serves_meta].
    destruct Ho2 as [->|(out & Hb & Ho2)].
    + left. split; [by eexists|]. eexists. right. left.
    + right. exists out. split; [done|]. destruct out as [l|code msg].
      * subst o2. cbn. by rewrite Hrt.
      * destruct Ho2 as [Hne [body ->]]. unfold on_200. apply HS in Hne. destruct (Z.eqb_spec (http_status D code) 200); [done|]. by eexists.
Qed.
Lemma unversioned_fails source start opts tr r : plain (g_version W) -> (forall v, ~ version_text (g_version W) v) ->
  talks (answers D L W) (read D source start opts) tr r -> is_err r /\ length tr = 1%nat.
Proof.
  intros Hp Hv [(o & -> & _ & _ & Hr)|(o & v & o2 & -> & Ho & _ & Hov & ->)]%with_base_talks; [done|].
  apply info_version in Ho as [->|(resp & -> & E)]; [done| |done]. rewrite Hov in E.
  destruct (semver_parse (g_version W)) as [v'|] eqn:Es; [|done]. apply semver_iff in Es. by apply Hv in Es.
Qed.
Lemma old_path_fails v start opts tr r : version_text (g_version W) v -> ~ since_2_0_0 v ->
  talks (answers D L W) (read D "a" start opts) tr r -> is_err r.
Proof.
  intros Hv Hs [(o & -> & _ & _ & Hr)|(o & v' & o2 & -> & Ho & Ho2 & Hov & ->)]%with_base_talks; [done|].
  apply info_version in Ho as [->|(resp & -> & E)]; [done| |by eapply version_plain].
  rewrite (proj2 (semver_iff _ _) Hv), Hov in E. injection E as ->.
  destruct (gte_2_0_0 v) eqn:Eg; [by apply (gte_iff _ _ Hv) in Eg|].
  assert (Hn : forall s, serves (g_lib W) (http_read "/v1" "a" start opts).1 (http_read "/v1" "a" start opts).2 s -> s = NoRoute).
  { intros s (kvs & _ & <-). reflexivity. }
  destruct Ho2; [by eexists|..]; match goal with H : serves _ _ _ _ |- _ => apply Hn in H; try discriminate end. by eexists.
Qed.

(** LogCacheVMUptime *)
Lemma uptime_through tr r : plain (g_version W) -> talks (answers D L W) (vm_uptime D) tr r ->
  (is_err r /\ lost tr) \/ exists u, g_uptime W u /\ r = Ok u.
Proof.
  intros Hp (o & -> & [->|(u & Hu & ->)]%answers_info & Hr)%uptime_talks.
  - left. split; [|eexists; left]. destruct r as [u|e]; [|by eexists]. by destruct (proj1 (Hr u) eq_refl) as (? & ? & ? & _).
  - right. exists u. split; [done|]. apply Hr. eexists _, (format_int u). split; [done|]. specialize (HU _ Hu).
    split; [|apply parse_int_spec; by apply parse_format_int]. eexists. split; [by apply HI|]. done.
Qed.
End Gateway.
