(** C190: metrics that the syslog server cannot read, on a connection with other messages.  Vocabulary: that of Props/MessageTextProps.v and
    Float/SpecDigits.v (go_value), and refused below.  Programs: Syslog/Octet.v, Syslog/Message.v, Syslog/Model.v, Float/Gauge.v. *)
From Coq Require Import Ascii String.
From stdpp Require Import prelude strings list gmap.
From Verif.Base Require Import GoInt Envelope Str Dec.
From Verif.Auth Require Import SpecDocs DocsMore.
From Verif.Json Require Import Text Spec Pb SpecPb.
From Verif.Float Require Import Model Spec Parse SpecDigits Gauge GaugeProofs.
From Verif.Times Require Import Texts SpecTexts Calendar TextsProofs.
From Verif.Syslog Require Import Model Spec Proofs Octet SpecOctet OctetProofs Message SpecMessage MessageProofs MessageMore.
From Verif.Props Require Import SyslogProps OctetProps MessageTextProps DigitsProps.
Local Open Scope string_scope.
Local Open Scope Z_scope.
Local Arguments String.append !_ _ / : simpl nomatch.

(** a message with structured data that says nothing the server knows: of no known kind, without a unit, or with what is no number *)
Definition refused (pf : string -> option f64) (msg : smessage) : Prop :=
  is_Some (sm_proc msg) /\ is_Some (sm_app msg) /\ is_Some (sm_time msg) /\
  exists d kind m, sm_data msg = Some d /\ d !! kind = Some m /\ forall body, ~ says pf m kind body.

Lemma refused_invalid pf order msg : any_order order -> (forall d, sm_data msg = Some d -> (base.size d <= 1)%nat) -> refused pf msg -> convert pf order msg = Invalid.
Proof.
  intros Ho Hs ([pid Hp] & [app Ha] & [t Ht] & d & kind & m & Hd & Hk & Hn). unfold convert. rewrite Hp, Ha, Ht, Hd. destruct (source_type_inst pid) as [ty inst]. cbn [mbind option_bind].
  assert (E : order d = [(kind, m)]).
  { specialize (Hs d Hd). pose proof (Ho d) as P. assert (H : (kind, m) ∈ order d) by (rewrite P; by apply elem_of_map_to_list).
    assert (L : length (order d) = base.size d) by (by rewrite P). destruct (order d) as [|x [|y l]]; [by apply elem_of_nil in H| |cbn in L; lia]. by apply elem_of_list_singleton in H as <-. }
  rewrite E. cbn. destruct (convert_data _ _ _ _) as [e|] eqn:Ec; [|done]. apply convert_data_says in Ec as (body & Hb & _). by apply Hn in Hb.
Qed.

(** ** C190 *)
(** Whatever messages a connection carries, those that can be read arrive, all of them and in order; each of the others is counted as invalid,
    sends nothing, and ends neither the connection nor the server. *)
Theorem C190_server : forall pf order send_ok size closed ms os t,
  any_order order -> Z.of_nat size < 2^63 -> stream frame ms t -> ms <> [] ->
  Forall2 (fun m o => (String.length m <= size)%nat /\ exists msg, rfc5424 m msg /\ (forall d, sm_data msg = Some d -> (base.size d <= 1)%nat) /\
                      match o with Some e => means pf msg e | None => refused pf msg end) ms os ->
  let s := serve pf order send_ok (octets size parse_message closed t).1 in
  sv_alive s = true /\ sv_sent s = omap id os /\ (sv_invalid s + length (omap id os) = length ms)%nat /\ (sv_ingress s + sv_dropped s = length (omap id os))%nat.
Proof.
  intros pf order send_ok size closed ms os t Ho Hsz Hst Hne H.
  rewrite (read_all size closed ms t Hsz Hst Hne).
  2:{ clear -H. induction H as [|m o ms os (Hl & msg & Hm & _) _ IH]; constructor; [|done]. split; [done|]. apply parse_iff in Hm. rewrite Hm. eauto. }
  clear Hst Hne t.
  assert (G : forall s0, sv_alive s0 = true -> let s := foldl (listen pf order send_ok) s0 (map parse_message ms) in
    sv_alive s = true /\ sv_sent s = (sv_sent s0 ++ omap id os)%list /\ (sv_invalid s + length (omap id os) = sv_invalid s0 + length ms)%nat /\
    (sv_ingress s + sv_dropped s = sv_ingress s0 + sv_dropped s0 + length (omap id os))%nat).
  { induction H as [|m o ms os (Hl & msg & Hm & Hd & Hr) H IH]; intros s0 Hal; cbn.
    - rewrite app_nil_r. split_and!; try done; lia.
    - apply parse_iff in Hm. rewrite Hm. destruct o as [e|]; cbn [id].
      + assert (Hc : convert pf order msg = Converted e) by (by apply convert_meaning).
        assert (El : exists a b, listen pf order send_ok s0 (Some msg) = mk_server (sv_ingress s0 + a) (sv_invalid s0) (sv_dropped s0 + b) (sv_sent s0 ++ [e]) true /\ (a + b = 1)%nat).
        { unfold listen. rewrite Hal, Hc. cbn. destruct (send_ok _ e); [exists 1%nat, 0%nat|exists 0%nat, 1%nat]; rewrite ?Nat.add_1_r, ?Nat.add_0_r; done. }
        destruct El as (a & b & -> & Hab). destruct (IH (mk_server (sv_ingress s0 + a) (sv_invalid s0) (sv_dropped s0 + b) (sv_sent s0 ++ [e]) true) eq_refl) as (H1 & H2 & H3 & H4).
        cbn in H2, H3, H4. rewrite <-app_assoc in H2. split_and!; [done|done|cbn; lia|cbn; lia].
      + assert (El : listen pf order send_ok s0 (Some msg) = mk_server (sv_ingress s0) (S (sv_invalid s0)) (sv_dropped s0) (sv_sent s0) true).
        { unfold listen. rewrite Hal, (refused_invalid pf order msg Ho Hd Hr). done. }
        rewrite El. destruct (IH (mk_server (sv_ingress s0) (S (sv_invalid s0)) (sv_dropped s0) (sv_sent s0) true) eq_refl) as (H1 & H2 & H3 & H4).
        cbn in H2, H3, H4. split_and!; [done|done|lia|lia]. }
  exact (G (mk_server 0 0 0 [] true) eq_refl).
Qed.
Print Assumptions C190_server.

Lemma metric_reads pri p tm t host app pid mid kind ps tx x :
  priority pri p -> stamp tm t -> word 255 host -> word 48 app -> app <> "-" -> word 128 pid -> pid <> "-" -> word 32 mid -> text tx x ->
  name kind -> Forall (fun nv => name nv.1 /\ utf8 nv.2) ps ->
  rfc5424 (metric_line pri tm host app pid mid kind ps tx) (mk_smsg (Some p) (Some t) (Some app) (Some pid) x (Some (data_of [(kind, ps)]))).
Proof.
  intros Hp Ht Hh Ha Hna Hq Hnq Hi Hx Hk Hps.
  destruct (any_field _ _ Hh) as [h Hh']. destruct (any_field _ _ Hi) as [i Hi'].
  assert (Hst : tm <> "-") by (intros ->; apply datetime_to in Ht; done).
  unfold metric_line.
  assert (E : forall a, " [" ++ kind ++ params_text ps ++ "]" ++ a = " " ++ elements_text [(kind, ps)] ++ a).
  { intros a. cbn. rewrite !tapp_assoc. done. }
  rewrite (E tx).
  refine (a_message pri "1" tm host app pid mid (elements_text [(kind, ps)]) tx p (Some t) h (Some app) (Some pid) i _ x Hp _ _ Hh' _ _ Hi' _ Hx).
  - split; [exists 1; by apply (num_one "1")|]. split; [cbn; lia|done].
  - by constructor.
  - by apply a_field.
  - by apply a_field.
  - constructor. split; [done|]. split; [apply NoDup_singleton|]. by apply Forall_singleton.
Qed.

(** A line with a metric: either it says something, and that is sent; or nothing is sent, and it is counted as invalid. *)
Theorem C190_metric : forall pf order send_ok size closed pri p tm t host app pid ty inst mid kind ps tx x f,
  any_order order -> Z.of_nat size < 2^63 ->
  priority pri p -> stamp tm t -> in64 t -> word 255 host -> word 48 app -> app <> "-" -> word 128 pid -> pid <> "-" ->
  process_id pid ty inst -> word 32 mid -> text tx x ->
  name kind -> Forall (fun nv => name nv.1 /\ utf8 nv.2) ps ->
  frame (metric_line pri tm host app pid mid kind ps tx) f -> (String.length (metric_line pri tm host app pid mid kind ps tx) <= size)%nat ->
  let s := serve pf order send_ok (octets size parse_message closed f).1 in
  sv_alive s = true /\
  ((exists body, says pf (list_to_map (reverse ps)) kind body /\ sv_sent s = [mk_env t app inst ∅ ∅ body] /\ sv_invalid s = 0%nat) \/
   ((forall body, ~ says pf (list_to_map (reverse ps)) kind body) /\ sv_sent s = [] /\ sv_invalid s = 1%nat)).
Proof.
  intros pf order send_ok size closed pri p tm t host app pid ty inst mid kind ps tx x f Ho Hsz Hp Ht Hin Hh Ha Hna Hq Hnq Hpid Hi Hx Hk Hps Hf Hl.
  pose proof (metric_reads pri p tm t host app pid mid kind ps tx x Hp Ht Hh Ha Hna Hq Hnq Hi Hx Hk Hps) as Hr.
  assert (Hd : forall d, sm_data (mk_smsg (Some p) (Some t) (Some app) (Some pid) x (Some (data_of [(kind, ps)]))) = Some d -> (base.size d <= 1)%nat).
  { cbn. intros d H. injection H as <-. unfold data_of. cbn. rewrite insert_empty, map_size_singleton. done. }
  destruct (convert_data pf (mk_env t app inst ∅ ∅ MNone) kind (list_to_map (reverse ps))) as [e|] eqn:Ec.
  - apply convert_data_says in Ec as (body & Hb & _).
    destruct (C190_server pf order send_ok size closed [metric_line pri tm host app pid mid kind ps tx] [Some (mk_env t app inst ∅ ∅ body)] f) as (H1 & H2 & H3 & _); try done.
    + by apply stream_one.
    + constructor; [|constructor]. split; [done|]. eexists. split; [exact Hr|]. split; [done|].
      apply (means_data _ _ _ pid app t ty inst (data_of [(kind, ps)]) kind (list_to_map (reverse ps)) body); try done; [apply lookup_insert|by rewrite wrap64_id].
    + split; [done|]. left. exists body. split; [done|]. split; [done|]. set (k := sv_invalid _) in H3 |- *. clearbody k. cbn in H3. lia.
  - assert (Hn : forall body, ~ says pf (list_to_map (reverse ps)) kind body).
    { intros body Hb. apply (says_convert_data pf (mk_env t app inst ∅ ∅ MNone)) in Hb. congruence. }
    destruct (C190_server pf order send_ok size closed [metric_line pri tm host app pid mid kind ps tx] [None] f) as (H1 & H2 & H3 & _); try done.
    + by apply stream_one.
    + constructor; [|constructor]. split; [done|]. eexists. split; [exact Hr|]. split; [done|].
      split; [by eexists|]. split; [by eexists|]. split; [by eexists|]. exists (data_of [(kind, ps)]), kind, (list_to_map (reverse ps)). split; [done|]. split; [apply lookup_insert|done].
    + split; [done|]. right. split; [done|]. split; [done|]. set (k := sv_invalid _) in H3 |- *. clearbody k. cbn in H3. lia.
Qed.
Print Assumptions C190_metric.

(** A gauge: it arrives exactly if its value is a number in range, infinite or NaN, and then with that value; there is no other value that is sent
    in its place. *)
Theorem C190_gauge : forall order send_ok size closed pri p tm t host app pid ty inst mid suffix nm unit v tx x f,
  let ps := [("name", nm); ("unit", unit); ("value", v)] in
  any_order order -> Z.of_nat size < 2^63 ->
  priority pri p -> stamp tm t -> in64 t -> word 255 host -> word 48 app -> app <> "-" -> word 128 pid -> pid <> "-" ->
  process_id pid ty inst -> word 32 mid -> text tx x -> name ("gauge" ++ suffix) -> utf8 nm -> utf8 unit -> utf8 v ->
  frame (metric_line pri tm host app pid mid ("gauge" ++ suffix) ps tx) f ->
  (String.length (metric_line pri tm host app pid mid ("gauge" ++ suffix) ps tx) <= size)%nat ->
  let s := serve gauge_float order send_ok (octets size parse_message closed f).1 in
  sv_alive s = true /\
  (forall b, go_value v b -> sv_sent s = [mk_env t app inst ∅ ∅ (MGauge {[ nm := mk_gv unit b ]})] /\ sv_invalid s = 0%nat) /\
  ((forall b, ~ go_value v b) -> sv_sent s = [] /\ sv_invalid s = 1%nat).
Proof.
  intros order send_ok size closed pri p tm t host app pid ty inst mid suffix nm unit v tx x f ps Ho Hsz Hp Ht Hin Hh Ha Hna Hq Hnq Hpid Hi Hx Hk Hnm Hu Hv Hf Hl s.
  assert (Hps : Forall (fun nv => name nv.1 /\ utf8 nv.2) ps).
  { pose proof gauge_names as Hn. inversion_clear Hn as [|? ? N1 Hn']. inversion_clear Hn' as [|? ? N2 Hn'']. inversion_clear Hn'' as [|? ? N3 _].
    repeat (apply Forall_cons; split; [done|]). apply Forall_nil. done. }
  destruct (C190_metric gauge_float order send_ok size closed pri p tm t host app pid ty inst mid ("gauge" ++ suffix) ps tx x f) as (H1 & H2); try done.
  fold s in H1, H2. split; [done|].
  assert (Em : list_to_map (reverse ps) = (<["value" := v]> (<["unit" := unit]> {["name" := nm]}) : gmap string string)) by done. rewrite Em in H2. clear Em.
  set (M := <["value" := v]> (<["unit" := unit]> {["name" := nm]})) in H2.
  assert (En : param M "name" = nm) by (unfold param, M; rewrite !lookup_insert_ne by done; by rewrite lookup_singleton).
  assert (Eu : M !! "unit" = Some unit) by (unfold M; rewrite lookup_insert_ne by done; by rewrite lookup_insert).
  assert (Ev : param M "value" = v) by (unfold param, M; by rewrite lookup_insert).
  assert (Sy : forall b, gauge_float v = Some b -> says gauge_float M ("gauge" ++ suffix) (MGauge {[ nm := mk_gv unit b ]})).
  { intros b Hb. pose proof (says_gauge gauge_float M suffix unit b Eu) as S. rewrite Ev, En in S. by apply S. }
  split.
  - intros b Hb. apply go_value_iff in Hb. destruct H2 as [(body & Hs & E & E')|(Hn & _)]; [|by destruct (Hn _ (Sy b Hb))].
    split; [|done]. rewrite E. do 3 f_equal.
    apply (says_convert_data gauge_float (mk_env t app inst ∅ ∅ MNone)) in Hs. specialize (Sy b Hb). apply (says_convert_data gauge_float (mk_env t app inst ∅ ∅ MNone)) in Sy.
    rewrite Hs in Sy. by injection Sy as ->.
  - intros Hn. destruct H2 as [(body & Hs & _)|(_ & ? & ?)]; [|done]. exfalso.
    apply (says_convert_data gauge_float (mk_env t app inst ∅ ∅ MNone)) in Hs. unfold convert_data in Hs.
    change (has_prefix "counter" ("gauge" ++ suffix)) with false in Hs. cbv iota in Hs.
    destruct (has_prefix "gauge" ("gauge" ++ suffix)) eqn:Eg.
    + unfold convert_gauge in Hs. rewrite Eu, Ev in Hs. cbn [mbind option_bind] in Hs. destruct (gauge_float v) as [b|] eqn:Eb; [|done]. apply go_value_iff in Eb. by apply Hn in Eb.
    + assert (exists r, ("gauge" ++ suffix)%string = ("gauge" ++ r)%string) as Hx' by eauto. apply prefix_iff in Hx'. congruence.
Qed.
Print Assumptions C190_gauge.

(** Met by: a gauge of 1_000 degrees between a log line and a gauge that can be read. *)
Definition a_text : string := log_line "11" "1970-01-01T00:00:00.012345+00:00" "test-hostname" "test-app-id" "[APP/2]" "-" " hello ".
Definition bad_gauge : string :=
  metric_line "14" "1970-01-01T00:00:00.012345+00:00" "test-hostname" "test-app-id" "[1]" "-" "gauge@47450" [("name", "t"); ("unit", "C"); ("value", "1_000")] "".
Definition a_text_env : envelope := mk_env 12345000 "test-app-id" "2" ∅ {["source_type" := "APP"]} (MLog "hello" true).
Definition a_gauge_env : envelope := mk_env 12345000 "test-app-id" "1" ∅ ∅ (MGauge {["t" := mk_gv "C" 13815242216921733530]}).
Example C190_case :
  (forall b, ~ go_value "1_000" b) /\
  exists f1 f2 f3, frame a_text f1 /\ frame bad_gauge f2 /\ frame a_gauge f3 /\ stream frame [a_text; bad_gauge; a_gauge] (f1 ++ f2 ++ f3) /\
  (exists msg, rfc5424 bad_gauge msg /\ refused gauge_float msg) /\
  let s := serve gauge_float in_order (fun _ _ => true) (octets 4096 parse_message true (f1 ++ f2 ++ f3)).1 in
  sv_alive s = true /\ sv_sent s = [a_text_env; a_gauge_env] /\ sv_invalid s = 1%nat /\ sv_ingress s = 2%nat.
Proof.
  assert (B : forall b, ~ go_value "1_000" b) by (intros b H; apply go_value_iff in H; vm_compute in H; discriminate H).
  split; [exact B|].
  exists ("84 " ++ a_text), ("116 " ++ bad_gauge), ("117 " ++ a_gauge).
  assert (F1 : frame a_text ("84 " ++ a_text)) by (exists "84"; split; [|reflexivity]; split; [|done]; apply digits_numeral; vm_compute; reflexivity).
  assert (F2 : frame bad_gauge ("116 " ++ bad_gauge)) by (exists "116"; split; [|reflexivity]; split; [|done]; apply digits_numeral; vm_compute; reflexivity).
  assert (F3 : frame a_gauge ("117 " ++ a_gauge)) by (exists "117"; split; [|reflexivity]; split; [|done]; apply digits_numeral; vm_compute; reflexivity).
  split; [exact F1|]. split; [exact F2|]. split; [exact F3|]. split; [|split].
  - rewrite <-(tapp_nil ("117 " ++ a_gauge)) at 1. repeat (constructor; [done|]). constructor.
  - destruct (parse_message bad_gauge) as [msg|] eqn:E; [|vm_compute in E; discriminate E]. exists msg. split; [by apply parse_iff|]. vm_compute in E. injection E as <-.
    split; [by eexists|]. split; [by eexists|]. split; [by eexists|]. eexists _, "gauge@47450", (<["value" := "1_000"]> (<["unit" := "C"]> {["name" := "t"]})).
    split; [reflexivity|]. split; [vm_compute; reflexivity|]. intros body Hs.
    apply (says_convert_data gauge_float (mk_env 0 "" "" ∅ ∅ MNone)) in Hs. vm_compute in Hs. discriminate Hs.
  - vm_compute. split_and!; reflexivity.
Qed.
