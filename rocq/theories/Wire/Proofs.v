(** Every message is read as it was written. *)
From Coq Require Import Ascii String.
From stdpp Require Import prelude strings list gmap.
From Verif.Base Require Import GoInt Envelope.
From Verif.Routing Require Import Model.
From Verif.Gateway Require Import Model.
From Verif.Http Require Import Model.
From Verif.Json Require Import Text Pb Spec SpecPb.
From Verif.Wire Require Import Format Model Spec FormatProofs.
Open Scope string_scope.
Open Scope list_scope.
Open Scope Z_scope.

(** ** Sizes *)
Definition num_ok (f : field) : Prop := 1 <= f.1 < 2^29 /\ match f.2 with Bytes _ => True | w => wire_ok w end.
Definition small (fs : list field) : Prop := fits (write_fields fs).

Lemma small_app a b : small (a ++ b) -> small a /\ small b.
Proof. unfold small, fits. rewrite write_fields_app, app_length. lia. Qed.
Lemma small_in fs k gs : small fs -> (k, Bytes (write_fields gs)) ∈ fs -> small gs.
Proof. intros H Hin. apply bytes_fit in Hin. unfold small, fits in *. lia. Qed.
Lemma small_msg k gs : small (put_msg k gs) -> small gs.
Proof. intros H. eapply small_in; [exact H|]. unfold put_msg. left. Qed.
Lemma ok_fields fs : Forall num_ok fs -> small fs -> Forall field_ok fs.
Proof.
  intros Hn Hs. apply Forall_forall. intros [k w] Hin. rewrite Forall_forall in Hn. destruct (Hn _ Hin) as [H1 H2].
  split; [done|]. cbn [snd] in *. destruct w; try done. cbn. apply bytes_fit in Hin. unfold small, fits in Hs. lia.
Qed.
Lemma merge_write {A} (step : reader A) a fs : Forall num_ok fs -> small fs -> merge step a (write_fields fs) = read_on step a fs.
Proof. intros Hn Hs. unfold merge. rewrite read_write_fields by by apply ok_fields. done. Qed.
Lemma read_on_app {A} (step : reader A) a fs gs : read_on step a (fs ++ gs) = a' ← read_on step a fs; read_on step a' gs.
Proof. revert a. induction fs as [|f fs IH]; intros a; [done|]. cbn. destruct (step a f); [|done]. cbn. apply IH. Qed.
Lemma read_on_then {A} (step : reader A) a b fs gs : read_on step a fs = Some b -> read_on step a (fs ++ gs) = read_on step b gs.
Proof. intros H. by rewrite read_on_app, H. Qed.

(** ** Single values *)
Lemma wrap_mod n : int64 n -> wrap64 (n mod 2^64) = n.
Proof.
  unfold int64, wrap64. intros H. rewrite Zplus_mod_idemp_l. rewrite Z.mod_small by lia. lia.
Qed.
Lemma mod_uint n : uint64 n -> n mod 2^64 = n.
Proof. unfold uint64. intros H. by apply Z.mod_small. Qed.
Lemma read_put_int {A} (step : reader A) k n a b :
  step a (k, Varint (n mod 2^64)) = Some b -> (n = 0 -> a = b) -> read_on step a (put_int k n) = Some b.
Proof.
  intros H1 H2. unfold put_int. destruct (n =? 0) eqn:E.
  - apply Z.eqb_eq in E. cbn. by rewrite (H2 E).
  - cbn [read_on]. by rewrite H1.
Qed.
Lemma read_put_bool {A} (step : reader A) k (x : bool) a b :
  (x = true -> step a (k, Varint 1) = Some b) -> (x = false -> a = b) -> read_on step a (put_bool k x) = Some b.
Proof. intros H1 H2. destruct x; cbn; [by rewrite H1|by rewrite H2]. Qed.
Lemma read_put_double {A} (step : reader A) k f a b :
  step a (k, Fixed64 f) = Some b -> (f = 0 -> a = b) -> read_on step a (put_double k f) = Some b.
Proof.
  intros H1 H2. unfold put_double. destruct (f =? 0) eqn:E.
  - apply Z.eqb_eq in E. cbn. by rewrite (H2 E).
  - cbn [read_on]. by rewrite H1.
Qed.
Lemma read_put_text {A} (step : reader A) k s a b :
  step a (k, Bytes s) = Some b -> (s = "" -> a = b) -> read_on step a (put_text k s) = Some b.
Proof. intros H1 H2. destruct s; cbn [put_text read_on]; [by rewrite H2|by rewrite H1]. Qed.
Lemma num_int k n : 1 <= k < 2^29 -> Forall num_ok (put_int k n).
Proof.
  intros H. unfold put_int. destruct (n =? 0); repeat constructor; try (cbn; lia).
  all: cbn; pose proof (Z.mod_pos_bound n (2^64) ltac:(lia)); lia.
Qed.
Lemma num_bool k b : 1 <= k < 2^29 -> Forall num_ok (put_bool k b).
Proof. intros H. destruct b; repeat constructor; cbn; lia. Qed.
Lemma num_double k f : 1 <= k < 2^29 -> uint64 f -> Forall num_ok (put_double k f).
Proof. unfold uint64. intros H Hf. unfold put_double. destruct (f =? 0); repeat constructor; cbn; lia. Qed.
Lemma num_text k s : 1 <= k < 2^29 -> Forall num_ok (put_text k s).
Proof. intros H. destruct s; repeat constructor; cbn; lia. Qed.
Lemma num_msg k fs : 1 <= k < 2^29 -> Forall num_ok (put_msg k fs).
Proof. intros H. repeat constructor; cbn; lia. Qed.
Lemma num_bind {X} (l : list X) (f : X -> list field) : (forall x, x ∈ l -> Forall num_ok (f x)) -> Forall num_ok (l ≫= f).
Proof.
  intros H. apply Forall_forall. intros g Hg. apply elem_of_list_bind in Hg as (x & Hg & Hx).
  specialize (H _ Hx). rewrite Forall_forall in H. by apply H.
Qed.
Lemma num_map {V} k (f : V -> wire) m : 1 <= k < 2^29 -> Forall num_ok (put_map k f m).
Proof. intros H. apply num_bind. intros x _. by apply num_msg. Qed.
Ltac nums := repeat first
  [ apply Forall_nil_2 | apply Forall_app_2 | apply num_int; lia | apply num_bool; lia | apply num_text; lia | apply num_msg; lia
  | apply num_map; lia ].

Lemma text_step {A} s (a : A) set : valid s = true -> get_text (Bytes s) a set = Some (set s).
Proof. intros H. cbn. by rewrite H. Qed.
Lemma msg_step {A B} (step : reader B) b b' fs (a : A) set :
  Forall num_ok fs -> small fs -> read_on step b fs = Some b' -> get_msg step b (Bytes (write_fields fs)) a set = Some (set b').
Proof. intros H1 H2 H3. cbn [get_msg]. rewrite merge_write by done. by rewrite H3. Qed.

(** ** Maps *)
Lemma entry_read {A V} (getv : V -> wire -> option V) zero key w v (m : gmap string V) (a : A) set :
  valid key = true -> getv zero w = Some v -> wire_ok w -> small [(1, Bytes key); (2, w)] ->
  get_entry getv zero (Bytes (write_fields [(1, Bytes key); (2, w)])) m a set = Some (set (<[key := v]> m)).
Proof.
  intros Hk Hv Hw Hs. unfold get_entry. rewrite (msg_step _ _ (key, v)); [done| |exact Hs|].
  - repeat constructor; cbn; try lia. by destruct w.
  - cbn [read_on entry_step]. change (1 =? 1) with true. cbn [get_text]. rewrite Hk. cbn [mbind option_bind snd].
    change (2 =? 1) with false. change (2 =? 2) with true. cbn [fst snd]. by rewrite Hv.
Qed.
Lemma read_entries {A V} (step : reader A) (put : gmap string V -> A) k (f : V -> wire) l m0 :
  NoDup l.*1 ->
  (forall m key v, (key, v) ∈ l -> step (put m) (k, Bytes (write_fields [(1, Bytes key); (2, f v)])) = Some (put (<[key := v]> m))) ->
  read_on step (put m0) (l ≫= fun kv => put_entry k kv.1 (f kv.2)) = Some (put (list_to_map l ∪ m0)).
Proof.
  revert m0. induction l as [|[key v] l IH]; intros m0 Hnd Hst.
  - cbn. by rewrite (left_id_L ∅ (∪)).
  - cbn in Hnd. apply NoDup_cons in Hnd as [Hn Hnd]. cbn [mbind list_bind put_entry put_msg app read_on fst snd].
    rewrite Hst by left. cbn [mbind option_bind].
    rewrite IH; [|done|]; [|by intros; apply Hst; right]. f_equal. f_equal. cbn [list_to_map foldr].
    change (foldr _ ∅ l) with (list_to_map l : gmap string V).
    apply map_eq. intros i. destruct (decide (i = key)) as [->|Hi].
    + rewrite lookup_union_r; [|by apply not_elem_of_list_to_map_1]. rewrite lookup_insert. symmetry. apply lookup_union_Some_l. by rewrite lookup_insert.
    + destruct ((list_to_map l : gmap string V) !! i) as [x|] eqn:Hx.
      * erewrite lookup_union_Some_l by done. symmetry. apply lookup_union_Some_l. by rewrite lookup_insert_ne.
      * rewrite lookup_union_r by done. rewrite lookup_insert_ne by done. symmetry. rewrite lookup_union_r; [done|]. by rewrite lookup_insert_ne.
Qed.
Lemma read_put_map {A V} (step : reader A) (put : gmap string V -> A) k (f : V -> wire) m :
  (forall m0 key v, m !! key = Some v -> step (put m0) (k, Bytes (write_fields [(1, Bytes key); (2, f v)])) = Some (put (<[key := v]> m0))) ->
  read_on step (put ∅) (put_map k f m) = Some (put m).
Proof.
  intros H. unfold put_map. rewrite read_entries.
  - by rewrite (right_id_L ∅ (∪)), list_to_map_to_list.
  - apply NoDup_fst_map_to_list.
  - intros m0 key v Hin. apply H. by apply elem_of_map_to_list.
Qed.
Lemma small_entry {V} k (f : V -> wire) m key v :
  small (put_map k f m) -> m !! key = Some v -> small [(1, Bytes key); (2, f v)].
Proof.
  intros H Hv. eapply (small_in _ k); [exact H|]. unfold put_map. apply elem_of_list_bind. exists (key, v).
  split; [left|by apply elem_of_map_to_list].
Qed.
Lemma small_value fs key gs : small fs -> fs = [(1, Bytes key); (2, Bytes (write_fields gs))] -> small gs.
Proof. intros H ->. eapply small_in; [exact H|]. right. left. Qed.

(** ** Envelopes *)
Lemma valid_all texts t : forallb valid texts = true -> t ∈ texts -> valid t = true.
Proof. intros H Hin. rewrite forallb_forall in H. apply H. by apply elem_of_list_In. Qed.
Lemma wire_ok_bytes s : fits s -> wire_ok (Bytes s).
Proof. unfold fits. cbn. lia. Qed.
Lemma small_fits k s fs : small fs -> (k, Bytes s) ∈ fs -> fits s.
Proof. intros H Hin. apply bytes_fit in Hin. unfold small, fits in *. lia. Qed.

Lemma dec_enc_value t : valid t = true -> small [(1, Bytes t)] -> dec_value "" (enc_value t) = Some t.
Proof.
  intros Hv Hs. unfold dec_value, enc_value. erewrite msg_step; [reflexivity| |exact Hs|].
  - repeat constructor; cbn; lia.
  - cbn [read_on value_step]. change (1 =? 1) with true. cbn iota. rewrite text_step by done. done.
Qed.
Lemma dec_enc_gv g : valid (gv_unit g) = true -> uint64 (gv_value g) -> small (put_text 1 (gv_unit g) ++ put_double 2 (gv_value g)) ->
  dec_gv (mk_gv "" 0) (enc_gv g) = Some g.
Proof.
  destruct g as [u x]. cbn [gv_unit gv_value]. intros Hv Hx Hs. unfold dec_gv, enc_gv. cbn [gv_unit gv_value].
  rewrite (msg_step _ _ (mk_gv u x)); [done| |exact Hs|].
  - nums. apply num_double; [lia|done].
  - rewrite (read_on_then _ _ (mk_gv u 0)).
    + apply read_put_double; [done|]. by intros ->.
    + apply read_put_text; [cbn -[valid]; by rewrite Hv|]. by intros ->.
Qed.

Lemma get_msg_at {A B} (step : reader B) b b' k fs (a : A) set :
  small (put_msg k fs) -> Forall num_ok fs -> read_on step b fs = Some b' ->
  get_msg step b (Bytes (write_fields fs)) a set = Some (set b').
Proof. intros H1 H2 H3. apply msg_step; [done| |done]. by eapply small_msg. Qed.

Lemma read_message e m : e_msg e = MNone -> sized_message m -> forallb valid (message_texts m) = true -> small (enc_message m) ->
  read_on envelope_step e (enc_message m) = Some (set_msg e m).
Proof.
  intros He Hz Ht Hs. destruct m as [payload err|name delta total|metrics|name start stop|title body|]; cbn [enc_message] in *.
  - unfold put_msg at 1. cbn [read_on]. change (envelope_step e (4, ?w)) with (get_msg log_step ("", false) w e (fun l => set_msg e (MLog l.1 l.2))).
    rewrite (get_msg_at _ _ (payload, err) 4); [done|done|nums|].
    rewrite (read_on_then _ _ (payload, false)).
    + apply read_put_bool; [by intros ->|by intros ->].
    + apply read_put_text; [done|by intros ->].
  - destruct Hz as [H1 H2]. assert (Hn : valid name = true) by (apply (valid_all _ _ Ht); left).
    unfold put_msg at 1. cbn [read_on]. change (envelope_step e (5, ?w)) with (get_msg counter_step ("", 0, 0) w e (fun c => set_msg e (MCounter c.1.1 c.1.2 c.2))).
    rewrite (get_msg_at _ _ (name, delta, total) 5); [done|done|nums|].
    rewrite (read_on_then _ _ (name, 0, 0)); [rewrite (read_on_then _ _ (name, delta, 0))|].
    + apply read_put_int; [|by intros ->]. rewrite mod_uint by done. done.
    + apply read_put_int; [|by intros ->]. rewrite mod_uint by done. done.
    + apply read_put_text; [|by intros ->]. cbn -[valid]. by rewrite Hn.
  - unfold put_msg at 1. cbn [read_on]. change (envelope_step e (6, ?w)) with (get_msg gauge_step ∅ w e (fun m => set_msg e (MGauge m))).
    rewrite (get_msg_at _ _ metrics 6); [done|done|nums|].
    apply (read_put_map gauge_step id). intros m0 key v Hv. unfold id. cbn [gauge_step]. change (1 =? 1) with true. cbn iota.
    pose proof (small_entry _ _ _ _ _ (small_msg _ _ Hs) Hv) as Hse.
    assert (Hin : (key, v) ∈ map_to_list metrics) by by apply elem_of_map_to_list.
    rewrite (entry_read _ _ _ _ v); [done| | | |exact Hse].
    + apply (valid_all _ _ Ht). cbn [message_texts]. apply elem_of_list_bind. exists (key, v). split; [left|done].
    + apply dec_enc_gv; [|by eapply Hz|].
      * apply (valid_all _ _ Ht). cbn [message_texts]. apply elem_of_list_bind. exists (key, v). split; [right; left|done].
      * eapply small_in; [exact Hse|]. right. left.
    + apply wire_ok_bytes. eapply small_fits; [exact Hse|]. right. left.
  - destruct Hz as [H1 H2]. assert (Hn : valid name = true) by (apply (valid_all _ _ Ht); left).
    unfold put_msg at 1. cbn [read_on]. change (envelope_step e (7, ?w)) with (get_msg timer_step ("", 0, 0) w e (fun t => set_msg e (MTimer t.1.1 t.1.2 t.2))).
    rewrite (get_msg_at _ _ (name, start, stop) 7); [done|done|nums|].
    rewrite (read_on_then _ _ (name, 0, 0)); [rewrite (read_on_then _ _ (name, start, 0))|].
    + apply read_put_int; [|by intros ->]. cbn [timer_step]. cbn [Z.eqb Pos.eqb get_int]. by rewrite wrap_mod.
    + apply read_put_int; [|by intros ->]. cbn [timer_step]. cbn [Z.eqb Pos.eqb get_int]. by rewrite wrap_mod.
    + apply read_put_text; [|by intros ->]. cbn -[valid]. by rewrite Hn.
  - assert (H1 : valid title = true) by (apply (valid_all _ _ Ht); left).
    assert (H2 : valid body = true) by (apply (valid_all _ _ Ht); right; left).
    unfold put_msg at 1. cbn [read_on]. change (envelope_step e (10, ?w)) with (get_msg event_step ("", "") w e (fun v => set_msg e (MEvent v.1 v.2))).
    rewrite (get_msg_at _ _ (title, body) 10); [done|done|nums|].
    rewrite (read_on_then _ _ (title, "")).
    + apply read_put_text; [|by intros ->]. cbn -[valid]. by rewrite H2.
    + apply read_put_text; [|by intros ->]. cbn -[valid]. by rewrite H1.
  - cbn. by destruct e; cbn in *; subst.
Qed.

Lemma num_message m : Forall num_ok (enc_message m).
Proof. destruct m; cbn [enc_message]; nums. Qed.
Lemma num_envelope e : Forall num_ok (enc_envelope e).
Proof. unfold enc_envelope. repeat apply Forall_app_2; nums. apply num_message. Qed.

Lemma text_entry m key v t : m !! key = Some v -> t = key \/ t = v -> t ∈ map_texts m.
Proof.
  intros H Ht. unfold map_texts. apply elem_of_list_bind. exists (key, v). split; [|by apply elem_of_map_to_list].
  destruct Ht as [->| ->]; [left|right; left].
Qed.
Lemma read_envelope e : sized e -> forallb valid (envelope_texts e) = true -> small (enc_envelope e) ->
  read_on envelope_step no_envelope (enc_envelope e) = Some e.
Proof.
  intros [Hts Hm] Ht Hs. unfold envelope_texts in Ht. rewrite !forallb_app in Ht.
  apply andb_prop in Ht as [Ht1 Ht]. apply andb_prop in Ht as [Ht2 Ht]. apply andb_prop in Ht as [Ht3 Ht4].
  unfold enc_envelope in *. destruct e as [ts src inst old tags m].
  cbn [e_ts e_source e_instance e_deprecated_tags e_tags e_msg] in *.
  apply small_app in Hs as [_ Hs]. apply small_app in Hs as [_ Hs]. apply small_app in Hs as [Hs1 Hs].
  apply small_app in Hs as [Hs2 Hs]. apply small_app in Hs as [_ Hs3].
  rewrite (read_on_then _ _ (mk_env ts "" "" ∅ ∅ MNone)).
  2:{ apply read_put_int; [|by intros ->]. unfold envelope_step. cbn [Z.eqb Pos.eqb get_int]. by rewrite wrap_mod. }
  rewrite (read_on_then _ _ (mk_env ts src "" ∅ ∅ MNone)).
  2:{ apply read_put_text; [|by intros ->]. unfold envelope_step. cbn [Z.eqb Pos.eqb]. rewrite text_step; [done|]. apply (valid_all _ _ Ht1). left. }
  rewrite (read_on_then _ _ (mk_env ts src "" old ∅ MNone)).
  2:{ apply (read_put_map envelope_step (fun x => mk_env ts src "" x ∅ MNone)). intros m0 key v Hv.
      unfold envelope_step. cbn [Z.eqb Pos.eqb e_ts e_source e_instance e_deprecated_tags e_tags e_msg].
      pose proof (small_entry _ _ _ _ _ Hs1 Hv) as Hse. rewrite (entry_read _ _ _ _ v); [done| | | |exact Hse].
      - apply (valid_all _ _ Ht2). eapply text_entry; [done|by left].
      - apply dec_enc_value.
        + apply (valid_all _ _ Ht2). eapply text_entry; [done|by right].
        + eapply small_in; [exact Hse|]. right. left.
      - apply wire_ok_bytes. eapply small_fits; [exact Hse|]. right. left. }
  rewrite (read_on_then _ _ (mk_env ts src "" old ∅ m)).
  2:{ rewrite read_message by done. done. }
  rewrite (read_on_then _ _ (mk_env ts src inst old ∅ m)).
  2:{ apply read_put_text; [|by intros ->]. unfold envelope_step. cbn [Z.eqb Pos.eqb]. rewrite text_step; [done|]. apply (valid_all _ _ Ht1). right. left. }
  apply (read_put_map envelope_step (fun x => mk_env ts src inst old x m)). intros m0 key v Hv.
  unfold envelope_step. cbn [Z.eqb Pos.eqb e_ts e_source e_instance e_deprecated_tags e_tags e_msg].
  pose proof (small_entry _ _ _ _ _ Hs3 Hv) as Hse. rewrite (entry_read _ _ _ _ v); [done| | | |exact Hse].
  - apply (valid_all _ _ Ht3). eapply text_entry; [done|by left].
  - unfold get_text_value. rewrite text_step; [done|]. apply (valid_all _ _ Ht3). eapply text_entry; [done|by right].
  - apply wire_ok_bytes. eapply small_fits; [exact Hse|]. right. left.
Qed.

(** ** Lists of messages *)
Lemma read_list {A X} (step : reader (list A)) k (f : X -> list field) (g : X -> A) xs acc :
  (forall x acc, x ∈ xs -> step acc (k, Bytes (write_fields (f x))) = Some (acc ++ [g x])) ->
  read_on step acc (xs ≫= fun x => put_msg k (f x)) = Some (acc ++ (g <$> xs)).
Proof.
  revert acc. induction xs as [|x xs IH]; intros acc H; [cbn; by rewrite (right_id_L [] (++))|].
  cbn [mbind list_bind put_msg app read_on]. rewrite H by left. cbn [mbind option_bind].
  rewrite IH by (intros; apply H; by right). by rewrite <-(assoc_L (++)).
Qed.
Lemma small_elem {X} k (f : X -> list field) xs x : small (xs ≫= fun x => put_msg k (f x)) -> x ∈ xs -> small (f x).
Proof. intros H Hx. eapply (small_in _ k); [exact H|]. apply elem_of_list_bind. exists x. split; [left|done]. Qed.
Lemma read_batch es acc : (forall e, e ∈ es -> sized e) -> forallb valid (es ≫= envelope_texts) = true -> small (enc_batch es) ->
  read_on batch_step acc (enc_batch es) = Some (acc ++ es).
Proof.
  intros Hz Ht Hs. unfold enc_batch in *. erewrite (read_list batch_step 1 enc_envelope id); [by rewrite list_fmap_id|].
  intros e acc' He. unfold batch_step. cbn [Z.eqb Pos.eqb].
  rewrite (msg_step _ _ e); [done|apply num_envelope|by eapply (small_elem 1 enc_envelope)|].
  apply read_envelope; [by apply Hz| |by eapply (small_elem 1 enc_envelope)].
  rewrite forallb_forall in Ht |- *. intros t Hin. apply Ht. apply elem_of_list_In. apply elem_of_list_bind. exists e.
  split; [by apply elem_of_list_In|done].
Qed.
Lemma num_batch es : Forall num_ok (enc_batch es).
Proof. apply num_bind. intros. nums. Qed.

(** ** The messages *)
Lemma marshal_inv texts fs s : marshal texts fs = Some s -> forallb valid texts = true /\ s = write_fields fs.
Proof. unfold marshal. destruct (forallb _ _); [|done]. by intros [= <-]. Qed.
Lemma send_round r s : sized_batch (sr_envelopes r) -> marshal_send r = Some s -> fits s -> unmarshal_send s = Some r.
Proof.
  intros Hz Hm Hs. apply marshal_inv in Hm as [Ht ->]. change (small (enc_send r)) in Hs. destruct r as [local b]. unfold unmarshal_send, enc_send in *.
  cbn [sr_envelopes sr_local_only] in *. destruct (small_app _ _ Hs) as [Hs1 _].
  rewrite merge_write; [|nums|done].
  2:{ destruct b; cbn [put_batch]; nums. }
  rewrite (read_on_then _ _ (mk_send false b)).
  2:{ destruct b as [es|]; [|done]. cbn [put_batch]. unfold put_msg. cbn [read_on send_step]. cbn [Z.eqb Pos.eqb sr_envelopes default].
      rewrite (msg_step _ _ es); [done|apply num_batch|by eapply small_msg|].
      rewrite read_batch; [done|by intros; eapply Hz|done|by eapply small_msg]. }
  apply read_put_bool; [by intros ->|by intros ->].
Qed.
Lemma read_response_round b s : sized_batch b -> marshal_read_response b = Some s -> fits s -> unmarshal_read_response s = Some b.
Proof.
  intros Hz Hm Hs. apply marshal_inv in Hm as [Ht ->]. change (small (enc_read_response b)) in Hs. unfold unmarshal_read_response, enc_read_response in *.
  rewrite merge_write; [|destruct b; cbn [put_batch]; nums|done].
  destruct b as [es|]; [|done]. cbn [put_batch] in *. unfold put_msg in *. cbn [read_on read_response_step]. cbn [Z.eqb Pos.eqb default].
  rewrite (msg_step _ _ es); [done|apply num_batch|by eapply small_msg|].
  rewrite read_batch; [done|by intros; eapply Hz|done|by eapply small_msg].
Qed.
Lemma wrap32_mod n : int32 n -> wrap32 (n mod 2^64) = n.
Proof.
  unfold int32, wrap32. intros H. destruct (Z.leb_spec 0 n).
  - rewrite (Z.mod_small n) by lia. rewrite Z.mod_small by lia. lia.
  - replace (n mod 2^64) with (n + 2^64) by (rewrite <-(Z.mod_unique n (2^64) (-1) (n + 2^64)); lia).
    replace (n + 2^64 + 2^31) with (n + 2^31 + 2^32 * 2^32) by lia. rewrite Z.mod_add by lia. rewrite Z.mod_small by lia. lia.
Qed.
Lemma get_type_num t : sized_type t -> get_type (type_num t mod 2^64) = t.
Proof.
  destruct t as [| | | | | |n]; try done. cbn [sized_type type_num]. intros [H1 H2]. unfold get_type. rewrite wrap32_mod by done. unfold type_number.
  repeat match goal with |- context [?a =? ?b] => destruct (Z.eqb_spec a b) as [E|?]; [exfalso; apply H2; rewrite E; clear; lia|] end. reflexivity.
Qed.
Lemma unpack_pack ns k : (String.length (pack ns) <= k)%nat -> unpack k (pack ns) = Some ((fun n => n mod 2^64) <$> ns).
Proof.
  revert k. induction ns as [|n ns IH]; intros k Hk; [by destruct k|]. cbn [pack foldr] in *. fold (pack ns) in *.
  rewrite app_length in Hk. pose proof (write_varint_length (n mod 2^64)) as Hl.
  destruct k as [|k]; [lia|]. destruct (write_varint (n mod 2^64) +:+ pack ns) as [|c x] eqn:E.
  { apply (f_equal String.length) in E. rewrite app_length in E. change (String.length "") with 0%nat in E. lia. }
  cbn [unpack]. rewrite <-E, read_write_varint by (apply Z.mod_pos_bound; lia). cbn [mbind option_bind]. rewrite IH by lia. done.
Qed.
Lemma read_round r s : sized_read r -> marshal_read r = Some s -> fits s -> unmarshal_read s = Some r.
Proof.
  intros (H1 & H2 & H3 & H4) Hm Hs. apply marshal_inv in Hm as [Ht ->]. change (small (enc_read r)) in Hs. unfold unmarshal_read, enc_read in *.
  destruct r as [src st en lim ts desc nf]. cbn [rr_source rr_start rr_end rr_limit rr_types rr_desc rr_name] in *.
  assert (V1 : valid src = true) by (apply (valid_all _ _ Ht); left).
  assert (V2 : valid nf = true) by (apply (valid_all _ _ Ht); right; left).
  rewrite merge_write; [|nums|done].
  2:{ destruct ts; cbn [put_types]; nums. repeat constructor; cbn; lia. }
  rewrite (read_on_then _ _ (mk_rr src 0 0 0 [] false "")).
  2:{ apply read_put_text; [|by intros ->]. unfold read_step. cbn [Z.eqb Pos.eqb]. by rewrite text_step. }
  rewrite (read_on_then _ _ (mk_rr src st 0 0 [] false "")).
  2:{ apply read_put_int; [|by intros ->]. unfold read_step. cbn [Z.eqb Pos.eqb get_int]. by rewrite wrap_mod. }
  rewrite (read_on_then _ _ (mk_rr src st en 0 [] false "")).
  2:{ apply read_put_int; [|by intros ->]. unfold read_step. cbn [Z.eqb Pos.eqb get_int]. by rewrite wrap_mod. }
  rewrite (read_on_then _ _ (mk_rr src st en lim [] false "")).
  2:{ apply read_put_int; [|by intros ->]. unfold read_step. cbn [Z.eqb Pos.eqb get_int]. by rewrite wrap_mod. }
  rewrite (read_on_then _ _ (mk_rr src st en lim ts false "")).
  2:{ destruct ts as [|t ts]; [done|]. remember (t :: ts) as tt eqn:E. assert (Htt : put_types 5 tt = [(5, Bytes (pack (type_num <$> tt)))]) by by subst.
      rewrite Htt. cbn [read_on read_step]. cbn [Z.eqb Pos.eqb]. rewrite unpack_pack by done. cbn [mbind option_bind rr_types app].
      do 2 f_equal. rewrite <-!list_fmap_compose. clear -H4. induction H4 as [|x l Hx _ IH]; [done|]. cbn [fmap list_fmap]. f_equal; [|exact IH].
      cbn. by apply get_type_num. }
  rewrite (read_on_then _ _ (mk_rr src st en lim ts desc "")).
  2:{ apply read_put_bool; [by intros ->|by intros ->]. }
  apply read_put_text; [|by intros ->]. unfold read_step. cbn [Z.eqb Pos.eqb]. by rewrite text_step.
Qed.
Lemma meta_round r s : marshal_meta r = Some s -> fits s -> unmarshal_meta s = Some r.
Proof.
  intros Hm Hs. apply marshal_inv in Hm as [_ ->]. change (small (enc_meta r)) in Hs. unfold unmarshal_meta, enc_meta in *. destruct r as [b].
  rewrite merge_write; [|nums|done]. apply read_put_bool; cbn; [by intros ->|by intros ->].
Qed.
Lemma dec_enc_info i : sized_info i -> fits (match enc_info i with Bytes s => s | _ => "" end) ->
  dec_info (MetaInfo 0 0 0 0) (enc_info i) = Some i.
Proof.
  destruct i as [a b c d]. intros (H1 & H2 & H3 & H4) Hs. cbn [mi_count mi_expired mi_oldest mi_newest] in *. unfold dec_info, enc_info in *.
  cbn [mi_count mi_expired mi_oldest mi_newest] in *. rewrite (msg_step _ _ (MetaInfo a b c d)); [done|nums|exact Hs|].
  rewrite (read_on_then _ _ (MetaInfo a 0 0 0)).
  2:{ apply read_put_int; [|by intros ->]. unfold info_step. cbn [Z.eqb Pos.eqb get_int]. by rewrite wrap_mod. }
  rewrite (read_on_then _ _ (MetaInfo a b 0 0)).
  2:{ apply read_put_int; [|by intros ->]. unfold info_step. cbn [Z.eqb Pos.eqb get_int]. by rewrite wrap_mod. }
  rewrite (read_on_then _ _ (MetaInfo a b c 0)).
  2:{ apply read_put_int; [|by intros ->]. unfold info_step. cbn [Z.eqb Pos.eqb get_int]. by rewrite wrap_mod. }
  apply read_put_int; [|by intros ->]. unfold info_step. cbn [Z.eqb Pos.eqb get_int]. by rewrite wrap_mod.
Qed.
Lemma key_text {V} (m : gmap string V) key v : m !! key = Some v -> key ∈ (map_to_list m).*1.
Proof. intros H. apply elem_of_list_fmap. exists (key, v). split; [done|by apply elem_of_map_to_list]. Qed.
Lemma meta_response_round m s : (forall k i, m !! k = Some i -> sized_info i) -> marshal_meta_response m = Some s -> fits s ->
  unmarshal_meta_response s = Some m.
Proof.
  intros Hz Hm Hs. apply marshal_inv in Hm as [Ht ->]. change (small (enc_meta_response m)) in Hs. unfold unmarshal_meta_response, enc_meta_response in *.
  rewrite merge_write; [|nums|done]. apply (read_put_map meta_response_step id). intros m0 key v Hv. unfold id, meta_response_step. cbn [Z.eqb Pos.eqb].
  pose proof (small_entry _ _ _ _ _ Hs Hv) as Hse. rewrite (entry_read _ _ _ _ v); [done| | | |exact Hse].
  - apply (valid_all _ _ Ht). by eapply key_text.
  - apply dec_enc_info; [by eapply Hz|]. unfold enc_info. eapply small_fits; [exact Hse|]. right. left.
  - apply wire_ok_bytes. eapply small_fits; [exact Hse|]. right. left.
Qed.
Lemma read_range r : sized_range r -> read_on range_step (mk_range 0 0) (enc_range r) = Some r.
Proof.
  destruct r as [a b]. intros [H1 H2]. cbn [r_start r_end] in *. unfold enc_range. cbn [r_start r_end].
  rewrite (read_on_then _ _ (mk_range a 0)).
  all: apply read_put_int; [|by intros ->]; unfold range_step; cbn [Z.eqb Pos.eqb get_int]; by rewrite mod_uint.
Qed.
Lemma num_range r : Forall num_ok (enc_range r).
Proof. unfold enc_range. nums. Qed.
Lemma read_ranges rs : Forall sized_range rs -> small (enc_ranges rs) -> read_on ranges_step [] (enc_ranges rs) = Some rs.
Proof.
  intros Hz Hs. unfold enc_ranges in *. erewrite (read_list ranges_step 1 enc_range id); [by rewrite list_fmap_id|].
  intros r acc' Hr. unfold ranges_step. cbn [Z.eqb Pos.eqb].
  rewrite (msg_step _ _ r); [done|apply num_range|by eapply (small_elem 1 enc_range)|].
  apply read_range. rewrite Forall_forall in Hz. by apply Hz.
Qed.
Lemma num_ranges rs : Forall num_ok (enc_ranges rs).
Proof. apply num_bind. intros. nums. Qed.
Lemma ranges_round rs s : Forall sized_range rs -> marshal_ranges rs = Some s -> fits s -> unmarshal_ranges s = Some rs.
Proof.
  intros Hz Hm Hs. apply marshal_inv in Hm as [_ ->]. change (small (enc_ranges rs)) in Hs. unfold unmarshal_ranges.
  rewrite merge_write; [by apply read_ranges|apply num_ranges|done].
Qed.
Lemma range_round r s : (forall x, r = Some x -> sized_range x) -> marshal_range r = Some s -> fits s -> unmarshal_range s = Some r.
Proof.
  intros Hz Hm Hs. apply marshal_inv in Hm as [_ ->]. change (small (enc_one_range r)) in Hs. unfold unmarshal_range.
  rewrite merge_write; [|destruct r; cbn [enc_one_range]; nums|done]. destruct r as [r|]; [|done]. cbn [enc_one_range] in *. unfold put_msg in *.
  cbn [read_on one_range_step]. cbn [Z.eqb Pos.eqb default].
  rewrite (msg_step _ _ r); [done|apply num_range|by eapply small_msg|]. apply read_range. by apply Hz.
Qed.
Lemma table_round m s : (forall k rs, m !! k = Some rs -> Forall sized_range rs) -> marshal_table m = Some s -> fits s -> unmarshal_table s = Some m.
Proof.
  intros Hz Hm Hs. apply marshal_inv in Hm as [Ht ->]. change (small (enc_table m)) in Hs. unfold unmarshal_table, enc_table in *.
  rewrite merge_write; [|nums|done]. apply (read_put_map table_step id). intros m0 key v Hv. unfold id, table_step. cbn [Z.eqb Pos.eqb].
  pose proof (small_entry _ _ _ _ _ Hs Hv) as Hse. rewrite (entry_read _ _ _ _ v); [done| | | |exact Hse].
  - apply (valid_all _ _ Ht). by eapply key_text.
  - assert (small (enc_ranges v)) by (eapply small_in; [exact Hse|]; right; left).
    unfold dec_ranges. rewrite (msg_step _ _ v); [done|apply num_ranges|done|]. apply read_ranges; [by eapply Hz|done].
  - apply wire_ok_bytes. eapply small_fits; [exact Hse|]. right. left.
Qed.
Lemma instant_round r s : marshal_instant r = Some s -> fits s -> unmarshal_instant s = Some r.
Proof.
  intros Hm Hs. apply marshal_inv in Hm as [Ht ->]. change (small (enc_instant r)) in Hs. unfold unmarshal_instant, enc_instant in *.
  destruct r as [q t]. cbn [iq_query iq_time] in *.
  rewrite merge_write; [|nums|done]. rewrite (read_on_then _ _ (Instant q "")).
  all: apply read_put_text; [|by intros ->]; unfold instant_step; cbn [Z.eqb Pos.eqb]; rewrite text_step; [done|]; apply (valid_all _ _ Ht).
  - right. left.
  - left.
Qed.
Lemma range_query_round r s : marshal_range_query r = Some s -> fits s -> unmarshal_range_query s = Some r.
Proof.
  intros Hm Hs. apply marshal_inv in Hm as [Ht ->]. change (small (enc_range_query r)) in Hs. unfold unmarshal_range_query, enc_range_query in *.
  destruct r as [q a b c]. cbn [rg_query rg_start rg_end rg_step] in *.
  rewrite merge_write; [|nums|done]. rewrite (read_on_then _ _ (Gateway.Model.Range q "" "" "")); [rewrite (read_on_then _ _ (Gateway.Model.Range q a "" "")); [rewrite (read_on_then _ _ (Gateway.Model.Range q a b ""))|]|].
  all: apply read_put_text; [|by intros ->]; unfold range_query_step; cbn [Z.eqb Pos.eqb]; rewrite text_step; [done|]; apply (valid_all _ _ Ht).
  - do 3 right. left.
  - do 2 right. left.
  - right. left.
  - left.
Qed.
