(** The written messages have the shape of Json/SpecShape.v. *)
From Coq Require Import Ascii String.
From stdpp Require Import prelude strings list gmap.
From Verif.Base Require Import Envelope Str Dec.
From Verif.Marshaler Require Import Model.
From Verif.Http Require Import Model.
From Verif.Json Require Import Text Spec TextProofs ValueProofs Pb SpecPb PbProofs MessageProofs SpecBase64 Base64 SpecShape Codec CodecProofs.
Open Scope string_scope.
Open Scope list_scope.
Open Scope Z_scope.

Lemma quoted_int n : int64 n -> quoted n (JStr (format_int n)).
Proof. intros H. eexists. split; [done|]. split; [|by apply int_number]. by apply parse_int_spec, parse_format_int. Qed.
Lemma quoted_uint n : uint64 n -> quoted n (JStr (format_uint n)).
Proof. intros H. eexists. split; [done|]. split; [|by apply uint_number]. left. by apply format_uint_numeral. Qed.
Lemma shape_bytes s : bytes s (match s with EmptyString => JNull | _ => JStr (encode64 s) end).
Proof. destruct s as [|c s]; [by left|]. right. split; [done|]. eexists. split; [done|]. apply encode64_rfc. Qed.
Lemma shape_map {A} (P : A -> json -> Prop) f m : (forall k a, m !! k = Some a -> P a (f a)) -> mapped P m (enc_map f m).
Proof.
  intros H. eexists. split; [done|].
  assert (E : ((λ ka : string * A, (ka.1, f ka.2)) <$> map_to_list m).*1 = (map_to_list m).*1).
  { rewrite <- list_fmap_compose. by apply list_fmap_ext. }
  split; [rewrite E; apply NoDup_fst_map_to_list|]. split.
  - intros k. rewrite E. rewrite elem_of_list_fmap. split.
    + intros ([k' a] & -> & Hin). apply elem_of_map_to_list in Hin. by eexists.
    + intros [a Ha]. exists (k, a). split; [done|]. by apply elem_of_map_to_list.
  - intros k v Hin. apply elem_of_list_fmap in Hin as ([k' a] & [= -> ->] & Hin). apply elem_of_map_to_list in Hin. exists a. split; [done|]. by apply (H k').
Qed.
Lemma shape_float F f : exact_floats F -> double f -> number F f (enc_float F f).
Proof.
  intros HF [Hr _]. unfold number, enc_float. destruct (is_nan f) eqn:E1; [done|]. destruct (Z.eqb_spec f inf); [done|].
  destruct (Z.eqb_spec f minus_inf); [done|]. destruct (HF f) as [H1 H2]; eauto.
Qed.
(** The gateway's style *)
Lemma names_true fs : (enc_fields gateway_style fs).*1 = f_orig <$> fs.
Proof. induction fs as [|f fs IH]; [done|]. rewrite enc_fields_cons, fmap_app, IH. unfold enc_field, omitted. cbn [emit_defaults gateway_style]. by rewrite andb_false_r. Qed.
Lemma in_true fs f : f ∈ fs -> (f_orig f, f_json f) ∈ enc_fields gateway_style fs.
Proof.
  induction fs as [|g fs IH]; intros H; [by apply elem_of_nil in H|]. rewrite enc_fields_cons, elem_of_app.
  apply elem_of_cons in H as [->|H]; [left|right; by apply IH]. unfold enc_field, omitted. cbn [emit_defaults gateway_style]. rewrite andb_false_r. by left.
Qed.
Definition distinct (fs : list pbfield) : bool := bool_decide (NoDup (f_orig <$> fs)).
Lemma member_true fs i f k v : distinct fs = true -> fs !! i = Some f -> f_orig f = k -> f_json f = v -> member (enc_object gateway_style fs) k v.
Proof.
  intros Hd Hi <- <-. eexists. split; [done|]. split; [rewrite names_true; by apply bool_decide_eq_true in Hd|].
  apply in_true. by eapply elem_of_list_lookup_2.
Qed.
Lemma no_member_true fs k : k ∉ f_orig <$> fs -> no_member (enc_object gateway_style fs) k.
Proof. intros H. eexists. split; [done|]. by rewrite names_true. Qed.
Ltac here n := eapply (member_true _ n); [by vm_compute|reflexivity|reflexivity|reflexivity].

Lemma shape_gauge F g : exact_floats F -> double (gv_value g) -> gauge_shape F g (enc_gauge F gateway_style g).
Proof. intros HF Hd. split; [here 0%nat|]. eexists. split; [here 1%nat|]. by apply shape_float. Qed.
Ltac others := let k := fresh in let H := fresh in let Hn := fresh in let Hin := fresh in intros k H Hn; apply no_member_true;
  intros Hin; cbn in Hin; rewrite ?elem_of_cons, elem_of_nil in Hin; rewrite ?elem_of_cons, elem_of_nil in H;
  repeat (destruct H as [-> | H]; [by repeat (destruct Hin as [Hin | Hin]; [by try discriminate Hin|])|]); destruct H.
Lemma shape_envelope F e : exact_floats F -> sendable e -> envelope_shape F e (enc_envelope F gateway_style e).
Proof.
  intros HF (Hts & Hs & Hi & Hdt & Htags & Hm). destruct e as [ts src inst dt tags m]. cbn in *. unfold enc_envelope.
  assert (Hd : distinct (envelope_fields F gateway_style (mk_env ts src inst dt tags m)) = true) by (destruct m; by vm_compute).
  do 3 eexists. split; [eapply (member_true _ 0); [exact Hd|reflexivity|reflexivity|reflexivity]|]. split; [by apply quoted_int|].
  split; [eapply (member_true _ 1); [exact Hd|reflexivity|reflexivity|reflexivity]|].
  split; [eapply (member_true _ 2); [exact Hd|reflexivity|reflexivity|reflexivity]|].
  split; [eapply (member_true _ 3); [exact Hd|reflexivity|reflexivity|reflexivity]|].
  split. { apply shape_map. intros k a _. eexists. split; [done|]. split; [apply NoDup_singleton|by left]. }
  split; [eapply (member_true _ 4); [exact Hd|reflexivity|reflexivity|reflexivity]|].
  split; [by apply shape_map|]. clear Hts Hs Hi Hdt Htags.
  destruct m as [payload err|name delta total|metrics|name start stop|title body|]; cbn [message_shape e_msg].
  - split; [eexists; split; [eapply (member_true _ 5); [exact Hd|reflexivity|reflexivity|reflexivity]|]|unfold kinds; others].
    eexists. split; [here 0%nat|]. split; [apply shape_bytes|here 1%nat].
  - destruct Hm as (_ & H1 & H2).
    split; [eexists; split; [eapply (member_true _ 5); [exact Hd|reflexivity|reflexivity|reflexivity]|]|unfold kinds; others].
    do 2 eexists. split; [here 0%nat|]. split; [here 1%nat|]. split; [by apply quoted_uint|]. split; [here 2%nat|by apply quoted_uint].
  - split; [eexists; split; [eapply (member_true _ 5); [exact Hd|reflexivity|reflexivity|reflexivity]|]|unfold kinds; others].
    eexists. split; [here 0%nat|]. apply shape_map. intros k g Hg. apply shape_gauge; [done|]. by apply (Hm k).
  - destruct Hm as (_ & H1 & H2).
    split; [eexists; split; [eapply (member_true _ 5); [exact Hd|reflexivity|reflexivity|reflexivity]|]|unfold kinds; others].
    do 2 eexists. split; [here 0%nat|]. split; [here 1%nat|]. split; [by apply quoted_int|]. split; [here 2%nat|by apply quoted_int].
  - split; [eexists; split; [eapply (member_true _ 5); [exact Hd|reflexivity|reflexivity|reflexivity]|]|unfold kinds; others].
    split; [here 0%nat|here 1%nat].
  - intros k Hk. apply no_member_true. unfold kinds in Hk. rewrite ?elem_of_cons, elem_of_nil in Hk. 
    destruct Hk as [->|[->|[->|[->|[->|[]]]]]]; cbn; rewrite ?not_elem_of_cons; repeat split; try done; apply not_elem_of_nil.
Qed.
Lemma shape_read F l : exact_floats F -> Forall sendable l -> exists batch,
  read_whole (write_response F gateway_style l) = Some (JObj [("envelopes", JObj [("batch", JArr batch)])]) /\ Forall2 (envelope_shape F) l batch.
Proof.
  intros HF Hl. exists (enc_envelope F gateway_style <$> l). split.
  - destruct (dec_enc_read gateway_style F HF l eq_refl Hl) as [_ Hw]. unfold write_response.
    rewrite whole_written by done.
    unfold enc_read, enc_object, enc_fields, enc_field, omitted. cbn [fmap list_fmap f_zero f_json f_orig emit_defaults gateway_style andb negb].
    rewrite andb_false_r. done.
  - apply Forall2_fmap_r. apply Forall_Forall2_diag. eapply Forall_impl; [exact Hl|]. intros e He. by apply shape_envelope.
Qed.
Lemma shape_info' i : int64 (mi_count i) -> int64 (mi_expired i) -> int64 (mi_oldest i) -> int64 (mi_newest i) -> info_shape' i (enc_meta_info gateway_style i).
Proof.
  intros H1 H2 H3 H4. do 4 eexists. split; [here 0%nat|]. split; [by apply quoted_int|]. split; [here 1%nat|]. split; [by apply quoted_int|].
  split; [here 2%nat|]. split; [by apply quoted_int|]. split; [here 3%nat|by apply quoted_int].
Qed.
Lemma whole_meta st m : sendable_meta m -> read_whole (write_meta_response st m) = Some (enc_meta st m).
Proof.
  intros H. destruct (dec_enc_meta st m H) as [_ Hw]. unfold write_meta_response.
  by apply whole_written.
Qed.
Lemma shape_meta' m : sendable_meta m -> exists rows,
  read_whole (write_meta_response gateway_style m) = Some (JObj [("meta", rows)]) /\ mapped info_shape' m rows.
Proof.
  intros H. eexists. split.
  - rewrite whole_meta by done. unfold enc_meta, enc_object, enc_fields, enc_field, omitted. cbn [fmap list_fmap f_zero f_json f_orig map_field emit_defaults gateway_style].
    rewrite andb_false_r. reflexivity.
  - apply shape_map. intros k i Hi. destruct (H k i Hi) as (_ & H1 & H2 & H3 & H4). by apply shape_info'.
Qed.
(** The proxy's *)
Lemma camel_names fs k : k ∈ (enc_fields proxy_style fs).*1 -> exists f, f ∈ fs /\ f_zero f = false /\ k = f_camel f.
Proof.
  induction fs as [|f fs IH]; intros H; [by apply elem_of_nil in H|]. rewrite enc_fields_cons, fmap_app, elem_of_app in H.
  destruct H as [H|H]; [|destruct (IH H) as (g & Hg & Hz & ->); exists g; split; [by right|done]].
  unfold enc_field, omitted in H. cbn [emit_defaults proxy_style] in H. rewrite andb_true_r in H. destruct (f_zero f) eqn:E; [by apply elem_of_nil in H|].
  apply elem_of_list_singleton in H. exists f. split; [by left|done].
Qed.
Lemma camel_nodup fs : NoDup (f_camel <$> fs) -> NoDup (enc_fields proxy_style fs).*1.
Proof.
  induction fs as [|f fs IH]; intros H; [constructor|]. rewrite enc_fields_cons, fmap_app. cbn in H. apply NoDup_cons in H as [H1 H2].
  unfold enc_field, omitted. cbn [emit_defaults proxy_style]. rewrite andb_true_r. destruct (f_zero f) eqn:E; [by apply IH|]. cbn. apply NoDup_cons.
  split; [|by apply IH]. intros (g & Hg & _ & Hk)%camel_names. apply H1. rewrite Hk. apply elem_of_list_fmap. by exists g.
Qed.
Lemma camel_in fs f : f ∈ fs -> f_zero f = false -> (f_camel f, f_json f) ∈ enc_fields proxy_style fs.
Proof.
  induction fs as [|g fs IH]; intros H Hz; [by apply elem_of_nil in H|]. rewrite enc_fields_cons, elem_of_app.
  apply elem_of_cons in H as [->|H]; [left|right; by apply IH]. unfold enc_field, omitted. rewrite Hz. by left.
Qed.
Lemma nonzero_int fs i o c n : bool_decide (NoDup (f_camel <$> fs)) = true -> fs !! i = Some (int_field o c n) -> int64 n ->
  nonzero (enc_object proxy_style fs) c n.
Proof.
  intros Hd Hi Hn. apply bool_decide_eq_true in Hd. unfold nonzero. destruct (Z.eqb_spec n 0) as [->|Hz]; [left|right]; (split; [done|]).
  - eexists. split; [done|]. intros (f & Hf & Hf0 & Hk)%camel_names. apply elem_of_list_lookup in Hf as [j Hj].
    assert (j = i) as ->.
    { eapply (NoDup_lookup (f_camel <$> fs)); [done|rewrite list_lookup_fmap, Hj; done|rewrite list_lookup_fmap, Hi; cbn; by rewrite <- Hk]. }
    rewrite Hi in Hj. injection Hj as <-. done.
  - exists (JStr (format_int n)). split; [|by apply quoted_int]. eexists. split; [done|]. split; [by apply camel_nodup|].
    apply (camel_in fs (int_field o c n)); [by eapply elem_of_list_lookup_2|]. cbn. by apply Z.eqb_neq.
Qed.
Lemma shape_info i : int64 (mi_count i) -> int64 (mi_expired i) -> int64 (mi_oldest i) -> int64 (mi_newest i) -> info_shape i (enc_meta_info proxy_style i).
Proof.
  intros H1 H2 H3 H4. split; [eapply (nonzero_int _ 0); [by vm_compute|reflexivity|done]|]. split; [eapply (nonzero_int _ 1); [by vm_compute|reflexivity|done]|].
  split; [eapply (nonzero_int _ 2); [by vm_compute|reflexivity|done]|eapply (nonzero_int _ 3); [by vm_compute|reflexivity|done]].
Qed.
Lemma shape_meta m : sendable_meta m ->
  (m = ∅ /\ read_whole (write_meta_response proxy_style m) = Some (JObj [])) \/
  (m <> ∅ /\ exists rows, read_whole (write_meta_response proxy_style m) = Some (JObj [("meta", rows)]) /\ mapped info_shape m rows).
Proof.
  intros H. rewrite whole_meta by done. destruct (decide (m = ∅)) as [->|Hm]; [left|right]; (split; [done|]).
  - done.
  - eexists. split.
    + unfold enc_meta, enc_object, enc_fields, enc_field, omitted. cbn [fmap list_fmap f_zero f_json f_camel map_field emit_defaults proxy_style].
      rewrite bool_decide_false by (by rewrite map_to_list_empty_iff). reflexivity.
    + apply shape_map. intros k i Hi. destruct (H k i Hi) as (_ & H1 & H2 & H3 & H4). by apply shape_info.
Qed.
