(** Property of the messages on a syslog connection (C181), each theorem followed by a case meeting its hypotheses.
    Vocabulary: Syslog/SpecMessage.v (rfc5424: a text is a message, and what the message says; stamp, word, name, escaped),
    Syslog/SpecOctet.v (frame, stream), Syslog/Spec.v (means, complete, process_id, trimmed).  Programs: Syslog/Message.v
    (parse_message), Syslog/Octet.v (octets), Syslog/Model.v (serve). *)
From Coq Require Import Ascii String.
From stdpp Require Import prelude gmap strings list.
From Verif.Base Require Import GoInt Envelope Str Dec.
From Verif.Json Require Import Spec.
From Verif.Times Require Import Texts SpecTexts Calendar TextsProofs.
From Verif.Syslog Require Import Model Spec Proofs Octet SpecOctet OctetProofs Message SpecMessage MessageProofs MessageMore.
From Verif.Props Require Import SyslogProps OctetProps.
Local Open Scope string_scope.
Local Open Scope Z_scope.
Local Arguments String.append !_ _ / : simpl nomatch.

(** ** C181 *)
(** The texts that are accepted are the messages of the grammar, and what is handed on is what they say. *)
Theorem C181_grammar : forall s m, parse_message s = Some m <-> rfc5424 s m.
Proof. exact parse_iff. Qed.
Print Assumptions C181_grammar.

(** The bytes of a connection: messages in frames arrive as the envelopes that say the same, in order. *)
Theorem C181_server : forall pf order send_ok size closed ms es t,
  any_order order -> Z.of_nat size < 2^63 -> stream frame ms t -> ms <> [] ->
  Forall2 (fun m e => (String.length m <= size)%nat /\ exists msg, rfc5424 m msg /\ means pf msg e /\
                      forall d, sm_data msg = Some d -> (base.size d <= 1)%nat) ms es ->
  let s := serve pf order send_ok (octets size parse_message closed t).1 in
  sv_alive s = true /\ sv_sent s = es /\ sv_invalid s = 0%nat /\ (sv_ingress s + sv_dropped s = length ms)%nat.
Proof.
  intros pf order send_ok size closed ms es t Ho Hsz Hs Hne H. apply C177_server; try done.
  eapply Forall2_impl; [exact H|]. cbn. intros m e (Hl & msg & Hm & Hr). split; [done|]. exists msg. split; [by apply parse_iff|done].
Qed.
Print Assumptions C181_server.

Lemma read_all size closed ms t : Z.of_nat size < 2^63 -> stream frame ms t -> ms <> [] ->
  Forall (fun m => (String.length m <= size)%nat /\ is_Some (parse_message m)) ms -> (octets size parse_message closed t).1 = map parse_message ms.
Proof.
  intros Hsz Hs Hne H. destruct (C177_delivered _ size parse_message closed ms t Hsz Hs H) as (_ & E1 & E2).
  destruct closed; [by rewrite (E2 Hne)|by rewrite E1].
Qed.
Lemma stream_one m f : frame m f -> stream frame [m] f.
Proof. intros H. rewrite <-(tapp_nil f). repeat constructor. done. Qed.
Lemma one_server pf order send_ok size closed m msg e f : any_order order -> Z.of_nat size < 2^63 -> frame m f -> (String.length m <= size)%nat ->
  rfc5424 m msg -> means pf msg e -> (forall d, sm_data msg = Some d -> (base.size d <= 1)%nat) ->
  sv_sent (serve pf order send_ok (octets size parse_message closed f).1) = [e].
Proof.
  intros Ho Hsz Hf Hl Hm He Hd. apply (C181_server pf order send_ok size closed [m] [e] f); try done; [by apply stream_one|].
  constructor; [|constructor]. split; [done|]. by exists msg.
Qed.
Lemma a_field n s : word n s -> s <> "-" -> field n s (Some s).
Proof. intros H1 H2. by constructor. Qed.
Lemma any_field n s : word n s -> exists o, field n s o.
Proof. intros H. destruct (decide (s = "-")) as [->|Hne]; [exists None; constructor|exists (Some s); by apply a_field]. Qed.

(** A log line.  From any host, of any application and process id (that is not a hyphen, which stands for none), its text
    arrives without the white space around it, with its time, to the microsecond it is given in. *)
Definition log_line (pri tm host app pid mid tx : string) : string :=
  "<" ++ pri ++ ">1 " ++ tm ++ " " ++ host ++ " " ++ app ++ " " ++ pid ++ " " ++ mid ++ " - " ++ tx.
Theorem C181_log : forall pf order send_ok size closed pri p tm t host app pid ty inst mid tx payload f,
  any_order order -> Z.of_nat size < 2^63 ->
  priority pri p -> stamp tm t -> in64 t -> word 255 host -> word 48 app -> app <> "-" -> word 128 pid -> pid <> "-" ->
  process_id pid ty inst -> word 32 mid -> utf8 tx -> tx <> "" -> trimmed tx payload ->
  frame (log_line pri tm host app pid mid tx) f -> (String.length (log_line pri tm host app pid mid tx) <= size)%nat ->
  sv_sent (serve pf order send_ok (octets size parse_message closed f).1) =
    [mk_env t app inst ∅ {["source_type" := ty]} (MLog payload (bool_decide (p = 11)))].
Proof.
  intros pf order send_ok size closed pri p tm t host app pid ty inst mid tx payload f Ho Hsz Hp Ht Hin Hh Ha Hna Hq Hnq Hpid Hi Hu Hne Htr Hf Hl.
  destruct (any_field _ _ Hh) as [h Hh']. destruct (any_field _ _ Hi) as [i Hi'].
  assert (Hst : tm <> "-") by (intros ->; apply datetime_to in Ht; done).
  apply (one_server pf order send_ok size closed (log_line pri tm host app pid mid tx) (mk_smsg (Some p) (Some t) (Some app) (Some pid) (Some tx) None)); try done.
  - unfold log_line. refine (a_message pri "1" tm host app pid mid "-" (" " ++ tx) p (Some t) h (Some app) (Some pid) i None (Some tx) Hp _ _ Hh' _ _ Hi' _ _).
    + split; [exists 1; by apply (num_one "1")|]. split; [cbn; lia|done].
    + by constructor.
    + by apply a_field.
    + by apply a_field.
    + constructor.
    + by constructor.
  - eapply means_log; try reflexivity; try done; [by left|]. by rewrite wrap64_id.
Qed.
Print Assumptions C181_log.

(** A counter, a gauge: whatever characters its name has, quotes, brackets and backslashes among them. *)
Definition metric_line (pri tm host app pid mid element : string) (ps : list (string * string)) (tx : string) : string :=
  "<" ++ pri ++ ">1 " ++ tm ++ " " ++ host ++ " " ++ app ++ " " ++ pid ++ " " ++ mid ++ " [" ++ element ++ params_text ps ++ "]" ++ tx.
Theorem C181_metric : forall pf order send_ok size closed pri p tm t host app pid ty inst mid kind ps tx x body f,
  any_order order -> Z.of_nat size < 2^63 ->
  priority pri p -> stamp tm t -> in64 t -> word 255 host -> word 48 app -> app <> "-" -> word 128 pid -> pid <> "-" ->
  process_id pid ty inst -> word 32 mid -> text tx x ->
  name kind -> Forall (fun nv => name nv.1 /\ utf8 nv.2) ps -> says pf (list_to_map (reverse ps)) kind body ->
  frame (metric_line pri tm host app pid mid kind ps tx) f -> (String.length (metric_line pri tm host app pid mid kind ps tx) <= size)%nat ->
  sv_sent (serve pf order send_ok (octets size parse_message closed f).1) = [mk_env t app inst ∅ ∅ body].
Proof.
  intros pf order send_ok size closed pri p tm t host app pid ty inst mid kind ps tx x body f Ho Hsz Hp Ht Hin Hh Ha Hna Hq Hnq Hpid Hi Hx Hk Hps Hsay Hf Hl.
  destruct (any_field _ _ Hh) as [h Hh']. destruct (any_field _ _ Hi) as [i Hi'].
  assert (Hst : tm <> "-") by (intros ->; apply datetime_to in Ht; done).
  apply (one_server pf order send_ok size closed (metric_line pri tm host app pid mid kind ps tx)
    (mk_smsg (Some p) (Some t) (Some app) (Some pid) x (Some (data_of [(kind, ps)])))); try done.
  - unfold metric_line.
    assert (E : forall a, " [" ++ kind ++ params_text ps ++ "]" ++ a = " " ++ elements_text [(kind, ps)] ++ a).
    { intros a. cbn. rewrite !tapp_assoc. done. }
    rewrite (E tx).
    refine (a_message pri "1" tm host app pid mid (elements_text [(kind, ps)]) tx p (Some t) h (Some app) (Some pid) i _ x Hp _ _ Hh' _ _ Hi' _ Hx).
    + split; [exists 1; by apply (num_one "1")|]. split; [cbn; lia|done].
    + by constructor.
    + by apply a_field.
    + by apply a_field.
    + constructor. split; [done|]. split; [apply NoDup_singleton|]. by apply Forall_singleton.
  - apply (means_data _ _ _ pid app t ty inst (data_of [(kind, ps)]) kind (list_to_map (reverse ps)) body); try done; [apply lookup_insert|by rewrite wrap64_id].
  - cbn. intros d H. injection H as <-. unfold data_of. cbn. rewrite insert_empty, map_size_singleton. done.
Qed.
Print Assumptions C181_metric.

(** What is accepted is limited: names of applications to 48 characters, process ids to 128, times to microseconds, text to
    UTF-8. *)
Theorem C181_limits : forall s m, parse_message s = Some m ->
  (exists p, sm_priority m = Some p /\ 0 <= p <= 191) /\
  (forall t, sm_time m = Some t -> (1000 | t)) /\
  (forall a, sm_app m = Some a -> word 48 a /\ a <> "-") /\
  (forall q, sm_proc m = Some q -> word 128 q /\ q <> "-") /\
  (forall x, sm_text m = Some x -> utf8 x /\ x <> "") /\
  (forall d, sm_data m = Some d -> d <> ∅ /\ forall k ps, d !! k = Some ps -> name k /\ forall n v, ps !! n = Some v -> name n /\ utf8 v).
Proof.
  intros s m [pri ver tm host app proc mid sd tx p t h a q i d x Hp Hver Htm Hh Ha Hq Hi Hd Hx]%parse_iff. cbn. split_and!.
  - destruct Hp as (Hn & Hp & _). exists p. split; [done|]. apply numeral_nonneg in Hn. lia.
  - intros t' ->. inversion Htm as [|s' t'' _ Hs]; subst.
    inversion Hs as [Y M D hh mi se f z y mo d' ho mn sc ns off n _ _ _ _ _ _ _ _ _ _ _ [Hf Hl] _]; subst.
    apply Z.divide_add_r; [exists ((n * 86400 + ho * 3600 + mn * 60 + sc - off) * 1000000); ring|].
    destruct Hf as [|k f n' [_ Hk] _]; [by exists 0|]. cbn in Hl. exists (n' * 10 ^ (6 - Z.of_nat k)).
    replace (9 - Z.of_nat k) with ((6 - Z.of_nat k) + 3) by lia. rewrite Z.pow_add_r by lia. change (10 ^ 3) with 1000. ring.
  - intros a' ->. inversion Ha as [|s' a'' Hne [-> Hw]]; subst. done.
  - intros q' ->. inversion Hq as [|s' a'' Hne [-> Hw]]; subst. done.
  - intros x' ->. inversion Hx; subst. done.
  - intros d' ->. inversion Hd as [|es (Hne & Hnd & Hok)]; subst. split.
    + destruct es as [|[k ps] es]; [done|]. unfold data_of. cbn. apply insert_non_empty.
    + intros k ps Hk. apply elem_of_list_to_map_2 in Hk. apply elem_of_list_fmap in Hk as ([k' ps'] & [= -> ->] & Hin).
      rewrite Forall_forall in Hok. destruct (Hok _ Hin) as [Hk Hps]. split; [done|].
      intros n v Hv. apply elem_of_list_to_map_2 in Hv. rewrite elem_of_reverse in Hv. rewrite Forall_forall in Hps. by apply (Hps _ Hv).
Qed.
Print Assumptions C181_limits.

(** So a log line of an application whose name is longer is lost, and so is one whose time is given to the nanosecond; with
    everything behind it on its connection (C177_ends). *)
Theorem C181_names_refuted : ~ forall app, bytes_all printable app -> app <> "" ->
  is_Some (parse_message (log_line "14" "2018-11-16T16:00:00Z" "host" app "[APP/0]" "-" "hello")).
Proof.
  intros H. specialize (H "a-name-of-49-characters-is-one-character-too-long"). destruct H as [m H].
  - repeat (constructor; [by apply (between_range 33 126)|]). constructor.
  - done.
  - vm_compute in H. discriminate.
Qed.
Print Assumptions C181_names_refuted.
Theorem C181_nanos_refuted : ~ forall tm t, rfc3339 tm t -> is_Some (parse_message (log_line "14" tm "host" "app" "[APP/0]" "-" "hello")).
Proof.
  intros H. assert (R : exists t, rfc3339 "2018-11-16T16:00:00.123456789Z" t).
  { eexists. apply (at_moment _ _ "2018" "11" "16" "16" "00" "00" ".123456789" "Z" 2018 11 16 16 0 0 123456789 0 (day_no (2018, 11, 16))).
    1: by apply four_iff; eexists _, _, _, _.
    1-5: by apply two_iff; eexists _, _.
    1: apply real_iff; vm_compute; split; split; discriminate.
    1: apply dated_iff; [apply real_iff; vm_compute; split; split; discriminate|done].
    1-3: done.
    - apply (part 9 "123456789" 123456789); [|lia]. by apply digits_of_iff.
    - constructor. }
  destruct R as [t R]. destruct (H _ _ R) as [m Hm]. vm_compute in Hm. discriminate.
Qed.
Print Assumptions C181_nanos_refuted.
(** And a time after 2262 is taken for another one. *)
Theorem C181_years_refuted : ~ forall pf order send_ok tm t f e, any_order order -> stamp tm t ->
  frame (log_line "14" tm "host" "app" "[APP/0]" "-" "hello") f ->
  e ∈ sv_sent (serve pf order send_ok (octets 4096 parse_message true f).1) -> e_ts e = t.
Proof.
  intros H.
  specialize (H no_float in_order (fun _ _ => true) "2262-11-16T16:00:00Z" 9242265600000000000 "53 <14>1 2262-11-16T16:00:00Z host app [APP/0] - - hello").
  specialize (H (mk_env (-9204478473709551616) "app" "0" ∅ {["source_type" := "APP"]} (MLog "hello" false))).
  enough (E : -9204478473709551616 = 9242265600000000000) by discriminate. apply H.
  - intros d. reflexivity.
  - apply stamp_iff. split; vm_compute; reflexivity.
  - exists "53". split; [|reflexivity]. split; [|done]. apply digits_numeral. vm_compute. reflexivity.
  - assert (E : sv_sent (serve no_float in_order (fun _ _ => true) (octets 4096 parse_message true "53 <14>1 2262-11-16T16:00:00Z host app [APP/0] - - hello").1) =
      [mk_env (-9204478473709551616) "app" "0" ∅ {["source_type" := "APP"]} (MLog "hello" false)]) by (vm_compute; reflexivity).
    rewrite E. left.
Qed.
Print Assumptions C181_years_refuted.

(** A few bytes that are a message end the process: one without a time, an application, a process id or a text.  Exactly
    these do. *)
Theorem C181_crash_refuted : ~ forall pf order send_ok m msg f, any_order order -> rfc5424 m msg -> frame m f ->
  sv_alive (serve pf order send_ok (octets 4096 parse_message false f).1) = true.
Proof.
  intros H. specialize (H no_float in_order (fun _ _ => true) "<14>1 - - - - - -").
  enough (E : sv_alive (serve no_float in_order (fun _ _ => true) (octets 4096 parse_message false "17 <14>1 - - - - - -").1) = true) by (vm_compute in E; discriminate).
  eapply H; [intros d; reflexivity| |].
  - apply parse_iff. vm_compute. reflexivity.
  - exists "17". split; [|reflexivity]. split; [|done]. apply digits_numeral. vm_compute. reflexivity.
Qed.
Print Assumptions C181_crash_refuted.
Local Instance complete_dec msg : Decision (complete msg).
Proof. unfold complete, no_data. apply _. Defined.
Theorem C181_alive_partial : forall pf order send_ok size closed ms msgs t,
  any_order order -> Z.of_nat size < 2^63 -> stream frame ms t -> ms <> [] -> Forall (fun m => (String.length m <= size)%nat) ms ->
  Forall2 rfc5424 ms msgs ->
  sv_alive (serve pf order send_ok (octets size parse_message closed t).1) = true <-> Forall complete msgs.
Proof.
  intros pf order send_ok size closed ms msgs t Ho Hsz Hs Hne Hl H. rewrite (read_all size closed ms t Hsz Hs Hne).
  2:{ clear -Hl H. induction H as [|m msg ms msgs Hm H IH]; [constructor|]. apply Forall_cons in Hl as [Hl1 Hl].
      constructor; [|by apply IH]. split; [done|]. exists msg. by apply parse_iff. }
  assert (E : map parse_message ms = Some <$> msgs).
  { clear -H. induction H as [|m msg ms msgs Hm H IH]; [done|]. cbn. rewrite IH. f_equal. by apply parse_iff. }
  rewrite E. clear -Ho. split.
  - unfold serve. generalize (mk_server 0 0 0 [] true) as s0.
    induction msgs as [|m msgs IH]; intros s0 Ha; [constructor|]. cbn in Ha.
    assert (Ha1 : sv_alive (listen pf order send_ok s0 (Some m)) = true).
    { destruct (sv_alive (listen pf order send_ok s0 (Some m))) eqn:E; [done|]. rewrite listen_dead in Ha by done. congruence. }
    constructor; [|by apply (IH _ Ha)]. assert (Hs0 : sv_alive s0 = true).
    { destruct (sv_alive s0) eqn:E; [done|]. unfold listen in Ha1. rewrite E in Ha1. cbn in Ha1. congruence. }
    unfold listen in Ha1. rewrite Hs0 in Ha1. cbn in Ha1.
    assert (Hc : convert pf order m <> Crash) by (intros E; rewrite E in Ha1; done).
    destruct (decide (complete m)) as [?|Hn]; [done|]. exfalso. apply Hc. by apply convert_crash.
  - intros Hc. apply serve_alive; [done|]. clear -Hc. induction Hc; [constructor|]. cbn. by constructor.
Qed.
Print Assumptions C181_alive_partial.

(** The two lines of the server's own tests, the second with a name that must be escaped, meet the hypotheses of C181_log and
    C181_metric; and what becomes of them. *)
Definition a_line : string := log_line "11" "1970-01-01T00:00:00.012345+00:00" "test-hostname" "test-app-id" "[APP/2]" "-" ("just a test" ++ String "010" "").
Definition a_name : string := "c\p[""u""]".
Definition a_metric : string :=
  metric_line "14" "1970-01-01T00:00:00.012345+00:00" "test-hostname" "test-app-id" "[1]" "-" "counter@47450" [("name", "x"); ("name", a_name); ("total", "99"); ("delta", "1")] "".
Example C181_case :
  (priority "11" 11 /\ stamp "1970-01-01T00:00:00.012345+00:00" 12345000 /\ word 48 "test-app-id" /\ word 128 "[APP/2]" /\
   name "counter@47450" /\ utf8 a_name /\ says no_float (list_to_map (reverse [("name", "x"); ("name", a_name); ("total", "99"); ("delta", "1")])) "counter@47450" (MCounter a_name 1 99)) /\
  (exists f g, frame a_line f /\ frame a_metric g /\
   sv_sent (serve no_float in_order (fun _ _ => true) (octets 4096 parse_message true (f ++ g)).1) =
     [mk_env 12345000 "test-app-id" "2" ∅ {["source_type" := "APP"]} (MLog "just a test" true);
      mk_env 12345000 "test-app-id" "1" ∅ ∅ (MCounter a_name 1 99)]) /\
  a_metric = "<14>1 1970-01-01T00:00:00.012345+00:00 test-hostname test-app-id [1] - [counter@47450 name=""x"" name=""c\\p[\""u\""\]"" total=""99"" delta=""1""]".
Proof.
  split; [|split].
  - split_and!.
    + split; [by apply digits_numeral|]. split; [lia|]. right. done.
    + apply stamp_iff. split; vm_compute; reflexivity.
    + split; [|cbn; lia]. repeat (constructor; [by apply (between_range 33 126)|]). constructor.
    + split; [|cbn; lia]. repeat (constructor; [by apply (between_range 33 126)|]). constructor.
    + split; [|cbn; lia]. by apply (bytes_all_iff name_byte); [apply name_byte_iff|].
    + by apply utf8_ok_iff.
    + match goal with |- says _ ?m _ _ => assert (E : MCounter a_name 1 99 = MCounter (param m "name") 1 99) by (vm_compute; reflexivity) end.
      rewrite E. apply (says_counter _ _ "@47450" 1 99); try done; apply digits_numeral; vm_compute; reflexivity.
  - exists ("89 " ++ a_line), ("136 " ++ a_metric). split_and!.
    + exists "89". split; [|reflexivity]. split; [|done]. apply digits_numeral. vm_compute. reflexivity.
    + exists "136". split; [|reflexivity]. split; [|done]. apply digits_numeral. vm_compute. reflexivity.
    + vm_compute. reflexivity.
  - vm_compute. reflexivity.
Qed.
