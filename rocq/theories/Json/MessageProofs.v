(** What jsonpb writes it reads: proofs about the messages of Json/Pb.v. *)
From Coq Require Import Ascii String.
From stdpp Require Import prelude strings list gmap.
From Verif.Base Require Import GoInt Envelope Str UrlProofs Dec.
From Verif.Marshaler Require Import Model.
From Verif.Http Require Import Model.
From Verif.Json Require Import Text Spec TextProofs ValueProofs Pb SpecPb PbProofs.
Open Scope string_scope.
Open Scope list_scope.
Open Scope Z_scope.
#[local] Arguments String.append : simpl nomatch.

(** ** Messages *)
Section Messages.
Context (st : style).
Lemma omit_int o c n : omitted st (int_field o c n) = true -> n = 0.
Proof. unfold omitted. cbn. intros H. apply andb_prop in H as [H _]. by apply Z.eqb_eq. Qed.
Lemma omit_uint o c n : omitted st (uint_field o c n) = true -> n = 0.
Proof. apply (omit_int o c). Qed.
Lemma omit_str o c s : omitted st (str_field o c s) = true -> s = "".
Proof. unfold omitted. cbn. intros H. apply andb_prop in H as [H _]. by apply bool_decide_eq_true in H. Qed.
Lemma omit_bytes o c s : omitted st (bytes_field o c s) = true -> s = "".
Proof. apply (omit_str o c). Qed.
Lemma omit_map {A} o c (f : A -> json) m : omitted st (map_field o c f m) = true -> m = ∅.
Proof. unfold omitted. cbn. intros H. apply andb_prop in H as [H _]. apply bool_decide_eq_true in H. by apply map_to_list_empty_iff. Qed.
Lemma get_int fs o c n : apart fs = true -> int_field o c n ∈ fs -> int64 n -> get o c (enc_fields st fs) 0 dec_int = Some n.
Proof. intros Ha Hf Hn. eapply get_enc; [done|exact Hf|done|done|apply omit_int|intros _; by apply dec_enc_int|done]. Qed.
Lemma get_uint fs o c n : apart fs = true -> uint_field o c n ∈ fs -> uint64 n -> get o c (enc_fields st fs) 0 dec_uint = Some n.
Proof. intros Ha Hf Hn. eapply get_enc; [done|exact Hf|done|done|apply omit_uint|intros _; by apply dec_enc_uint|done]. Qed.
Lemma get_str fs o c s : apart fs = true -> str_field o c s ∈ fs -> get o c (enc_fields st fs) "" dec_str = Some s.
Proof. intros Ha Hf. eapply get_enc; [done|exact Hf|done|done|apply omit_str|done|done]. Qed.
Lemma get_bytes fs o c s : apart fs = true -> bytes_field o c s ∈ fs -> get o c (enc_fields st fs) "" dec_bytes = Some s.
Proof.
  intros Ha Hf. eapply get_enc; [done|exact Hf|done|done|apply omit_bytes| |].
  - destruct s; [by intros H|]. intros _. apply decode_encode.
  - by destruct s.
Qed.
Lemma get_map {A} fs o c (enc : A -> json) dec m : apart fs = true -> map_field o c enc m ∈ fs -> (forall k a, m !! k = Some a -> dec (enc a) = Some a) ->
  get o c (enc_fields st fs) ∅ (dec_map dec) = Some m.
Proof. intros Ha Hf Hm. eapply get_enc; [done|exact Hf|done|done|apply omit_map|intros _; by apply dec_enc_map|done]. Qed.

Lemma writable_int o c n : int64 n -> writable (f_json (int_field o c n)).
Proof. intros H. constructor. by apply number_utf8, int_number. Qed.
Lemma writable_uint o c n : uint64 n -> writable (f_json (uint_field o c n)).
Proof. intros H. constructor. by apply number_utf8, uint_number. Qed.
Lemma writable_bytes o c s : writable (f_json (bytes_field o c s)).
Proof. destruct s as [|x s]; [constructor|]. constructor. apply encode64_utf8. Qed.

Ltac names := split; [by apply utf8_iff|split; [by apply utf8_iff|]].
Lemma dec_enc_meta_info i : int64 (mi_count i) -> int64 (mi_expired i) -> int64 (mi_oldest i) -> int64 (mi_newest i) ->
  dec_meta_info (enc_meta_info st i) = Some i /\ writable (enc_meta_info st i).
Proof.
  intros Hc Hx Ho Hn. split.
  - unfold dec_meta_info, enc_meta_info. unfold enc_object at 1. 
    change (JObj (enc_fields st ?x)) with (enc_object st x). rewrite with_enc by done.
    rewrite (get_int _ "count" "count" (mi_count i)); [|done|by apply (elem_of_list_lookup_2 _ 0%nat)|done]. cbn [mbind option_bind].
    rewrite (get_int _ "expired" "expired" (mi_expired i)); [|done|by apply (elem_of_list_lookup_2 _ 1%nat)|done]. cbn [mbind option_bind].
    rewrite (get_int _ "oldest_timestamp" "oldestTimestamp" (mi_oldest i)); [|done|by apply (elem_of_list_lookup_2 _ 2%nat)|done]. cbn [mbind option_bind].
    rewrite (get_int _ "newest_timestamp" "newestTimestamp" (mi_newest i)); [|done|by apply (elem_of_list_lookup_2 _ 3%nat)|done]. cbn [mbind option_bind]. by destruct i.
  - apply writable_fields. repeat (constructor; [names; by apply writable_int|]). constructor.
Qed.
Lemma dec_enc_meta m : sendable_meta m -> dec_meta (enc_meta st m) = Some m /\ writable (enc_meta st m).
Proof.
  intros Hm. split.
  - unfold dec_meta, enc_meta. rewrite with_enc by done. rewrite (get_map _ _ _ (enc_meta_info st) _ m); [done|done|set_solver|].
    intros k i Hk. destruct (Hm k i Hk) as (_ & H1 & H2 & H3 & H4). by apply dec_enc_meta_info.
  - apply writable_fields. constructor; [|done]. names. apply writable_map. intros k i Hk. destruct (Hm k i Hk) as (Hu & H1 & H2 & H3 & H4).
    split; [done|]. by apply dec_enc_meta_info.
Qed.
Context (F : floats) (HF : exact_floats F).
Lemma dec_enc_float f : double f -> dec_float F (enc_float F f) = Some f /\ writable (enc_float F f).
Proof.
  intros [Hr Hn]. unfold enc_float. destruct (is_nan f) eqn:En.
  { rewrite (Hn eq_refl). split; [done|]. constructor. by apply utf8_iff. }
  destruct (Z.eqb_spec f inf) as [->|Hi]. { split; [done|]. constructor. by apply utf8_iff. }
  destruct (Z.eqb_spec f minus_inf) as [->|Hm]. { split; [done|]. constructor. by apply utf8_iff. }
  destruct (HF f Hr En Hi Hm) as [H1 H2]. split; [done|by constructor].
Qed.
Lemma dec_enc_gauge g : emit_defaults st = true -> utf8 (gv_unit g) -> double (gv_value g) ->
  dec_gauge F (enc_gauge F st g) = Some g /\ writable (enc_gauge F st g).
Proof.
  intros He Hu Hv. destruct (dec_enc_float _ Hv) as [Hd Hw]. split.
  - unfold dec_gauge, enc_gauge. rewrite with_enc by done. rewrite (get_str _ _ _ (gv_unit g)) by (done || set_solver). cbn [mbind option_bind].
    rewrite (get_enc st (float_field F "value" "value" (gv_value g)) _ 0 (gv_value g)); [by destruct g|done|set_solver|done|done| |done|].
    + unfold omitted. rewrite He, andb_false_r. done.
    + cbn. unfold enc_float. destruct (is_nan _); [done|]. destruct (gv_value g =? inf); [done|]. by destruct (gv_value g =? minus_inf).
  - apply writable_fields. repeat constructor; try (by apply utf8_iff); done.
Qed.
Lemma dec_one l k d j : (k, d) ∈ [("log", dec_log); ("counter", dec_counter); ("gauge", dec_gauges F); ("timer", dec_timer); ("event", dec_event)] ->
  (forall k', k' ∈ ["log"; "counter"; "gauge"; "timer"; "event"] -> look k' k' l = if String.eqb k k' then Some j else None) ->
  j <> JNull -> dec_message F l = d j.
Proof.
  intros Hk Hl Hj. unfold dec_message. cbn [omap list_omap fst snd].
  assert (Hl' : look "log" "log" l = (if String.eqb k "log" then Some j else None) /\ look "counter" "counter" l = (if String.eqb k "counter" then Some j else None) /\
    look "gauge" "gauge" l = (if String.eqb k "gauge" then Some j else None) /\ look "timer" "timer" l = (if String.eqb k "timer" then Some j else None) /\
    look "event" "event" l = (if String.eqb k "event" then Some j else None)).
  { repeat split; apply Hl; rewrite !elem_of_cons; tauto. }
  clear Hl. destruct Hl' as (-> & -> & -> & -> & ->).
  rewrite !elem_of_cons, elem_of_nil in Hk. revert Hk. generalize dec_log dec_counter (dec_gauges F) dec_timer dec_event. intros d1 d2 d3 d4 d5 Hk.
  destruct Hk as [[= -> ->]|[[= -> ->]|[[= -> ->]|[[= -> ->]|[[= -> ->]|[]]]]]]; cbn; by destruct j.
Qed.
Lemma look_one fs f k' : (forall f k, f ∈ fs -> k ∈ ["log"; "counter"; "gauge"; "timer"; "event"] -> k ∉ names_of f) ->
  f_orig f = f_camel f -> f_zero f = false -> k' ∈ ["log"; "counter"; "gauge"; "timer"; "event"] ->
  look k' k' (enc_fields st (fs ++ [f])) = if String.eqb (f_orig f) k' then Some (f_json f) else None.
Proof.
  intros Hfs Hn Hz Hk. unfold look, enc_fields. rewrite fmap_app, concat_app. fold (enc_fields st fs).
  rewrite field_app, (field_none st k' fs) by (intros g Hg; by apply Hfs). cbn. unfold enc_field, omitted. rewrite Hz, <-Hn. cbn.
  assert ((if orig_name st then f_orig f else f_orig f) = f_orig f) as -> by (by destruct (orig_name st)).
  destruct (String.eqb_spec (f_orig f) k'), (decide (f_orig f = k')); done.
Qed.
Lemma dec_enc_message m fs : emit_defaults st = true -> sendable_message m ->
  (forall f k, f ∈ fs -> k ∈ ["log"; "counter"; "gauge"; "timer"; "event"] -> k ∉ names_of f) ->
  dec_message F (enc_fields st (fs ++ message_fields F st m)) = Some m /\ Forall (fun f => utf8 (f_orig f) /\ utf8 (f_camel f) /\ writable (f_json f)) (message_fields F st m).
Proof.
  intros He Hm Hfs. destruct m as [p e|n d t|ms|n a b|t b|]; cbn [message_fields]; cbn [sendable_message] in Hm.
  - split.
    + rewrite (dec_one _ "log" dec_log (enc_object st [bytes_field "payload" "payload" p; Fld "type" "type" (negb e) (JStr (if e then "ERR" else "OUT"))]));
        [|set_solver|intros k' Hk; by apply look_one|done].
      unfold dec_log. rewrite with_enc by done. rewrite (get_bytes _ _ _ p) by (done || set_solver). cbn [mbind option_bind].
      rewrite (get_enc st (Fld "type" "type" (negb e) (JStr (if e then "ERR" else "OUT"))) _ false e); try done; [set_solver| |by destruct e].
      unfold omitted. by rewrite He, andb_false_r.
    + constructor; [|done]. names. apply writable_fields. constructor; [names; apply writable_bytes|]. constructor; [|done]. names. constructor. by destruct e; apply utf8_iff.
  - destruct Hm as (Hn & Hd & Ht). split.
    + rewrite (dec_one _ "counter" dec_counter (enc_object st [str_field "name" "name" n; uint_field "delta" "delta" d; uint_field "total" "total" t]));
        [|set_solver|intros k' Hk; by apply look_one|done].
      unfold dec_counter. rewrite with_enc by done. rewrite (get_str _ "name" "name" n) by (done || set_solver). cbn [mbind option_bind].
      rewrite (get_uint _ "delta" "delta" d) by (done || set_solver). cbn [mbind option_bind]. by rewrite (get_uint _ "total" "total" t) by (done || set_solver).
    + constructor; [|done]. names. apply writable_fields. repeat (constructor; [names|]); [by constructor|by apply writable_uint|by apply writable_uint|constructor].
  - split.
    + rewrite (dec_one _ "gauge" (dec_gauges F) (enc_object st [map_field "metrics" "metrics" (enc_gauge F st) ms]));
        [|set_solver|intros k' Hk; by apply look_one|done].
      unfold dec_gauges. rewrite with_enc by done. rewrite (get_map _ _ _ (enc_gauge F st) _ ms); [done|done|set_solver|].
      intros k g Hg. destruct (Hm k g Hg) as (H1 & H2 & H3). by apply dec_enc_gauge.
    + constructor; [|done]. names. apply writable_fields. constructor; [|constructor]. names. apply writable_map.
      intros k g Hg. destruct (Hm k g Hg) as (H1 & H2 & H3). split; [done|]. by apply dec_enc_gauge.
  - destruct Hm as (Hn & Hd & Ht). split.
    + rewrite (dec_one _ "timer" dec_timer (enc_object st [str_field "name" "name" n; int_field "start" "start" a; int_field "stop" "stop" b]));
        [|set_solver|intros k' Hk; by apply look_one|done].
      unfold dec_timer. rewrite with_enc by done. rewrite (get_str _ "name" "name" n) by (done || set_solver). cbn [mbind option_bind].
      rewrite (get_int _ "start" "start" a) by (done || set_solver). cbn [mbind option_bind]. by rewrite (get_int _ "stop" "stop" b) by (done || set_solver).
    + constructor; [|done]. names. apply writable_fields. repeat (constructor; [names|]); [by constructor|by apply writable_int|by apply writable_int|constructor].
  - destruct Hm as (Hn & Hd). split.
    + rewrite (dec_one _ "event" dec_event (enc_object st [str_field "title" "title" t; str_field "body" "body" b]));
        [|set_solver|intros k' Hk; by apply look_one|done].
      unfold dec_event. rewrite with_enc by done. rewrite (get_str _ "title" "title" t) by (done || set_solver). cbn [mbind option_bind].
      by rewrite (get_str _ "body" "body" b) by (done || set_solver).
    + constructor; [|done]. names. apply writable_fields. repeat (constructor; [names|]); [by constructor|by constructor|constructor].
  - split; [|constructor]. rewrite app_nil_r. unfold dec_message. cbn [omap list_omap fst snd].
    rewrite !look_absent by (intros f Hf; apply Hfs; [done|set_solver]). done.
Qed.
Lemma dec_enc_value s : utf8 s -> dec_value (enc_value s) = Some s /\ writable (enc_value s).
Proof. intros H. split; [done|]. constructor. constructor; [|done]. split; [by apply utf8_iff|by constructor]. Qed.
Definition head_fields (e : envelope) : list pbfield :=
  [int_field "timestamp" "timestamp" (e_ts e); str_field "source_id" "sourceId" (e_source e);
   str_field "instance_id" "instanceId" (e_instance e);
   map_field "deprecated_tags" "deprecatedTags" enc_value (e_deprecated_tags e); map_field "tags" "tags" JStr (e_tags e)].
Lemma dec_enc_envelope e : emit_defaults st = true -> sendable e ->
  dec_envelope F (enc_envelope F st e) = Some e /\ writable (enc_envelope F st e).
Proof.
  intros He (Ht & Hs & Hi & Hd & Hg & Hm).
  destruct (dec_enc_message (e_msg e) (head_fields e) He Hm) as [Hdm Hwm].
  { intros f k Hf Hk. unfold head_fields in Hf. rewrite !elem_of_cons, elem_of_nil in Hf. rewrite !elem_of_cons, elem_of_nil in Hk.
    unfold names_of. rewrite !elem_of_cons, elem_of_nil.
    destruct Hf as [->|[->|[->|[->|[->|[]]]]]]; destruct Hk as [->|[->|[->|[->|[->|[]]]]]]; cbn; intros [H|[H|[]]]; discriminate H. }
  assert (Ha : apart (envelope_fields F st e) = true) by (unfold envelope_fields; by destruct (e_msg e)).
  split.
  - unfold dec_envelope, enc_envelope. change (enc_object st ?x) with (enc_object st x). unfold enc_object at 1.
    change (JObj (enc_fields st (envelope_fields F st e))) with (enc_object st (envelope_fields F st e)).
    rewrite with_enc by (unfold envelope_fields; by destruct (e_msg e)).
    rewrite (get_int _ "timestamp" "timestamp" (e_ts e)) by (done || (unfold envelope_fields; set_solver)). cbn [mbind option_bind].
    rewrite (get_str _ "source_id" "sourceId" (e_source e)) by (done || (unfold envelope_fields; set_solver)). cbn [mbind option_bind].
    rewrite (get_str _ "instance_id" "instanceId" (e_instance e)) by (done || (unfold envelope_fields; set_solver)). cbn [mbind option_bind].
    rewrite (get_map _ "deprecated_tags" "deprecatedTags" enc_value _ (e_deprecated_tags e)); [|done|unfold envelope_fields; set_solver|intros k a Hk; by apply dec_enc_value, (Hd k)].
    cbn [mbind option_bind].
    rewrite (get_map _ "tags" "tags" JStr _ (e_tags e)); [|done|unfold envelope_fields; set_solver|done]. cbn [mbind option_bind].
    change (envelope_fields F st e) with (head_fields e ++ message_fields F st (e_msg e)). rewrite Hdm. cbn [mbind option_bind]. by destruct e.
  - apply writable_fields. change (envelope_fields F st e) with (head_fields e ++ message_fields F st (e_msg e)). apply Forall_app. split; [|done].
    unfold head_fields. repeat (constructor; [names|]); [by apply writable_int|by constructor|by constructor| | |constructor].
    + apply writable_map. intros k a Hk. destruct (Hd k a Hk). split; [done|]. by apply dec_enc_value.
    + apply writable_map. intros k a Hk. destruct (Hg k a Hk). split; [done|]. by constructor.
Qed.
Lemma mapM_back {A B} (enc : A -> B) (dec : B -> option A) l : Forall (fun x => dec (enc x) = Some x) l -> mapM dec (enc <$> l) = Some l.
Proof. induction 1 as [|x l Hx _ IH]; [done|]. cbn. rewrite Hx. cbn. by rewrite IH. Qed.
Lemma dec_enc_read l : emit_defaults st = true -> Forall sendable l -> dec_read F (enc_read F st l) = Some l /\ writable (enc_read F st l).
Proof.
  intros He Hl. split.
  - unfold dec_read, enc_read. rewrite with_enc by done.
    apply (get_enc st (Fld "envelopes" "envelopes" false (enc_object st [Fld "batch" "batch" (bool_decide (l = [])) (JArr (enc_envelope F st <$> l))])));
      [done|by left|done|done|done| |done].
    intros _. cbn [f_json]. rewrite with_enc by done.
    apply (get_enc st (Fld "batch" "batch" (bool_decide (l = [])) (JArr (enc_envelope F st <$> l)))); [done|by left|done|done| | |done].
    + unfold omitted. by rewrite He, andb_false_r.
    + intros _. cbn [f_json dec_envelopes].
      apply mapM_back. eapply Forall_impl; [exact Hl|]. intros e Hs. by apply dec_enc_envelope.
  - apply writable_fields. constructor; [|done]. names. apply writable_fields. constructor; [|done]. names. constructor.
    apply Forall_fmap. eapply Forall_impl; [exact Hl|]. intros e Hs. by apply dec_enc_envelope.
Qed.
End Messages.

Lemma read_written j r : writable j -> ends r -> read_first (append (write j) r) = Some j.
Proof. intros H Hr. destruct (writable_numeric j H) as [Hn Ht]. rewrite first_write by done. by rewrite Ht. Qed.
Lemma read_write_response F o l r : exact_floats F -> Forall sendable l -> ends r -> read_response F (append (write_response F (Style o true) l) r) = Some l.
Proof.
  intros HF Hl Hr. destruct (dec_enc_read (Style o true) F HF l eq_refl Hl) as [Hd Hw]. unfold read_response, write_response.
  by rewrite read_written.
Qed.
Lemma read_write_meta st m r : sendable_meta m -> ends r -> read_meta_response (append (write_meta_response st m) r) = Some m.
Proof.
  intros Hm Hr. destruct (dec_enc_meta st m Hm) as [Hd Hw]. unfold read_meta_response, write_meta_response. by rewrite read_written.
Qed.
