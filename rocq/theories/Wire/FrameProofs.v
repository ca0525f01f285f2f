(** Frames, and the sizes of messages. *)
From Coq Require Import Ascii String.
From stdpp Require Import prelude strings list gmap.
From Verif.Base Require Import GoInt Envelope.
From Verif.Store Require Import Model Spec.
From Verif.Routing Require Import Model Spec.
From Verif.Whole Require Import SpecFull ProofsFull.
From Verif.Http Require Import Model.
From Verif.Json Require Import Spec SpecPb.
From Verif.Wire Require Import Format Model Spec FormatProofs Proofs Received Node SpecNode NodeProofs Numbers Frame SpecFrame.
Open Scope Z_scope.

(** ** Frames *)
Lemma four n : 0 <= n < 2^32 -> n / 2^24 mod 256 * 2^24 + n / 2^16 mod 256 * 2^16 + n / 2^8 mod 256 * 2^8 + n mod 256 = n.
Proof.
  intros H. replace (2^16) with (2^8 * 2^8) by done. replace (2^24) with (2^8 * 2^8 * 2^8) by done. rewrite <- !Z.div_div by lia. change (2^8) with 256 in *.
  pose proof (Z.div_mod n 256 ltac:(lia)). pose proof (Z.div_mod (n / 256) 256 ltac:(lia)). pose proof (Z.div_mod (n / 256 / 256) 256 ltac:(lia)).
  assert (0 <= n / 256 / 256 / 256 < 256).
  { rewrite !Z.div_div by lia. split; [apply Z.div_pos; lia|]. apply Z.div_lt_upper_bound; lia. }
  rewrite (Z.mod_small (n / 256 / 256 / 256) 256) by done. lia.
Qed.
Lemma recv_frame b s rest limit : frame b = Some s -> bytes b <= limit -> recv_msg limit (s +:+ rest) = Some (b, rest).
Proof.
  unfold frame, bytes. destruct (Z.leb_spec (Z.of_nat (String.length b)) max_send) as [H|H]; [|done]. intros [= <-] Hl. unfold max_send in H.
  set (n := Z.of_nat (String.length b)) in *. unfold header. rewrite !app_cons. cbn [recv_msg].
  assert (0 <= n) by (unfold n; lia).
  rewrite !value_byte by (try apply Z.mod_pos_bound; lia). rewrite four by lia.
  destruct (Z.ltb_spec limit n); [lia|]. change (0 =? 0) with true. cbn match. unfold n. rewrite Nat2Z.id. apply cut_app.
Qed.
Lemma recv_large b s rest limit : frame b = Some s -> limit < bytes b -> recv_msg limit (s +:+ rest) = None.
Proof.
  unfold frame, bytes. destruct (Z.leb_spec (Z.of_nat (String.length b)) max_send) as [H|H]; [|done]. intros [= <-] Hl. unfold max_send in H.
  set (n := Z.of_nat (String.length b)) in *. unfold header. rewrite !app_cons. cbn [recv_msg].
  assert (0 <= n) by (unfold n; lia).
  rewrite !value_byte by (try apply Z.mod_pos_bound; lia). rewrite four by lia.
  destruct (Z.ltb_spec limit n); [done|lia].
Qed.
Lemma carried_small b : takes b -> carried b = Some b.
Proof.
  unfold takes. change (4 * 1024 * 1024) with max_receive. intros H. unfold carried. destruct (frame b) as [s|] eqn:E.
  - cbn [mbind option_bind]. pose proof (recv_frame b s "" max_receive E H) as R. rewrite FormatProofs.app_nil_r in R. by rewrite R.
  - exfalso. unfold frame in E. unfold bytes, max_receive in H. destruct (Z.leb_spec (Z.of_nat (String.length b)) max_send) as [H'|H']; [done|]. unfold max_send in H'. lia.
Qed.
Lemma carried_large b : ~ takes b -> carried b = None.
Proof.
  unfold takes. change (4 * 1024 * 1024) with max_receive. intros H. unfold carried. destruct (frame b) as [s|] eqn:E; [|done].
  cbn [mbind option_bind]. assert (max_receive < bytes b) as H' by lia. pose proof (recv_large b s "" max_receive E H') as R. rewrite FormatProofs.app_nil_r in R. by rewrite R.
Qed.
Lemma carried_iff b b' : carried b = Some b' <-> b' = b /\ takes b.
Proof.
  destruct (decide (takes b)) as [H|H].
  - rewrite carried_small by done. split; [by intros [= <-]|by intros [-> _]].
  - rewrite carried_large by done. split; [done|by intros [_ ?]].
Qed.
Lemma over_iff peer b r : over peer b = Some r <-> takes b /\ peer b = Some r /\ takes r.
Proof.
  unfold over. destruct (decide (takes b)) as [H|H].
  - rewrite carried_small by done. cbn [mbind option_bind]. destruct (peer b) as [r'|]; cbn [mbind option_bind]; [|by split; [|intros (_ & ? & _)]].
    rewrite carried_iff. split; [by intros [-> ?]|]. by intros (_ & [= ->] & ?).
  - rewrite carried_large by done. by split; [|intros [? _]].
Qed.

(** ** A port *)
Lemma port_call_eq compile mine c s : port_call compile mine c s =
  if decide (small c) then '(s', a) ← node_call compile mine c s; Some (s', b ← a; if decide (takes b) then Some b else None) else Some (s, None).
Proof.
  assert (G : forall a : option string, a ≫= carried = b ← a; if decide (takes b) then Some b else None).
  { intros [b|]; [|done]. cbn [mbind option_bind]. case_decide; [by apply carried_small|by apply carried_large]. }
  destruct c as [now b|now b|b|now n pri]; unfold port_call; cbn [small].
  1-3: case_decide as H; [rewrite carried_small by done; cbn match beta; destruct (node_call _ _ _ s) as [[s' a]|]; [|done]; cbn [mbind option_bind]; by rewrite <- G|by rewrite carried_large].
  rewrite decide_True by done. cbn [node_call]. by destruct (truncate n pri now s).
Qed.
Lemma port_run_eq compile mine cs s : port_run compile mine cs s = node_run compile mine (filter small cs) s.
Proof.
  revert s. induction cs as [|c cs IH]; intros s; [done|]. cbn [port_run]. rewrite port_call_eq, filter_cons. case_decide; [|apply IH].
  cbn [node_run]. destruct (node_call compile mine c s) as [[s' a]|]; [|done]. cbn [mbind option_bind]. apply IH.
Qed.

(** ** Sizes *)
Notation len := String.length.
Lemma put_varint_mono k a b : 0 <= a <= b -> (len (put_varint k a) <= len (put_varint k b))%nat.
Proof.
  revert a b. induction k as [|k IH]; intros a b H; cbn [put_varint]; [done|]. destruct (Z.ltb_spec a 128); destruct (Z.ltb_spec b 128); cbn [len]; try lia.
  assert (len (put_varint k (a / 128)) <= len (put_varint k (b / 128)))%nat; [|lia]. apply IH. split; [apply Z.div_pos; lia|]. apply Z.div_le_mono; lia.
Qed.
Lemma bytes_mono k a b : (len a <= len b)%nat -> (len (write_field (k, Bytes a)) <= len (write_field (k, Bytes b)))%nat.
Proof.
  intros H. unfold write_field. cbn [fst snd wire_type write_wire]. rewrite !app_length. pose proof (put_varint_mono 10 (Z.of_nat (len a)) (Z.of_nat (len b)) ltac:(lia)) as M.
  unfold write_varint in *. lia.
Qed.
Lemma sub_size {A} (g : A -> list field) l l' : l' ⊆+ l -> (len (write_fields (l' ≫= g)) <= len (write_fields (l ≫= g)))%nat.
Proof.
  induction 1 as [|x l1 l2 _ IH|x y l|x l1 l2 _ IH|l1 l2 l3 _ IH1 _ IH2]; cbn [mbind list_bind] in *; rewrite ?write_fields_app, ?app_length; lia.
Qed.
Lemma projects_size nf e e' : projects nf e e' -> encoded_size e' <= encoded_size e.
Proof.
  intros [e0|m e0 n d t Em _|m e0 n a b Em _|m e0 ms ms' Em Hms _]; try done. unfold encoded_size, bytes, enc_envelope. cbn [e_ts e_source e_instance e_deprecated_tags e_tags e_msg].
  rewrite Em. cbn [enc_message]. unfold put_msg. rewrite !write_fields_app, !app_length. cbn [write_fields]. rewrite !app_length. cbn [len].
  assert (len (write_field (6%Z, Bytes (write_fields (put_map 1%Z enc_gv ms')))) <= len (write_field (6%Z, Bytes (write_fields (put_map 1%Z enc_gv ms)))))%nat; [|lia].
  apply bytes_mono. apply sub_size. apply map_to_list_submseteq. apply map_subseteq_spec. intros k v. rewrite Hms. by destruct (m k).
Qed.
Lemma write_bytes_length k s : (k < 16)%Z -> 0 <= k -> (len (write_field (k, Bytes s)) <= len s + 11)%nat.
Proof.
  intros H H0. unfold write_field. cbn [fst snd wire_type write_wire]. rewrite !app_length. pose proof (write_varint_length (Z.of_nat (len s))).
  assert (len (write_varint (k * 8 + 2)) = 1)%nat; [|lia]. unfold write_varint. cbn [put_varint]. destruct (Z.ltb_spec (k * 8 + 2) 128); [done|lia].
Qed.
Lemma batch_size es n : Forall (fun e => encoded_size e <= n) es -> bytes (write_fields (enc_batch es)) <= Z.of_nat (length es) * (n + 11).
Proof.
  unfold bytes, enc_batch. induction 1 as [|e es He _ IH]; [done|]. cbn [mbind list_bind length]. rewrite write_fields_app, app_length. unfold put_msg at 1. cbn [write_fields].
  rewrite app_length. cbn [len]. pose proof (write_bytes_length 1 (write_fields (enc_envelope e)) ltac:(lia) ltac:(lia)). unfold encoded_size, bytes in He. lia.
Qed.
Lemma answer_size es n b : Forall (fun e => encoded_size e <= n) es -> marshal_read_response (Some es) = Some b -> bytes b <= Z.of_nat (length es) * (n + 11) + 11.
Proof.
  intros H. unfold marshal_read_response, marshal. case_match; [|done]. intros [= <-]. unfold enc_read_response, put_batch, put_msg. cbn [write_fields].
  pose proof (batch_size es n H) as Hb. unfold bytes in *. rewrite app_length. cbn [len]. pose proof (write_bytes_length 1 (write_fields (enc_batch es)) ltac:(lia) ltac:(lia)). lia.
Qed.
Lemma field_at_least k s : (len s <= len (write_field (k, Bytes s)))%nat.
Proof. unfold write_field. cbn [fst snd write_wire]. rewrite !app_length. lia. Qed.
Lemma batch_at_least es : (list_sum (len ∘ write_fields ∘ enc_envelope <$> es) <= len (write_fields (enc_batch es)))%nat.
Proof.
  induction es as [|e es IH]; [done|]. change (enc_batch (e :: es)) with (put_msg 1 (enc_envelope e) ++ enc_batch es). rewrite write_fields_app, app_length.
  change (list_sum (len ∘ write_fields ∘ enc_envelope <$> e :: es)) with (len (write_fields (enc_envelope e)) + list_sum (len ∘ write_fields ∘ enc_envelope <$> es))%nat.
  unfold put_msg. cbn [write_fields]. rewrite app_length. pose proof (field_at_least 1 (write_fields (enc_envelope e))). lia.
Qed.
Lemma log_at_least ts src inst old tags p err : (len p <= len (write_fields (enc_envelope (mk_env ts src inst old tags (MLog p err)))))%nat.
Proof.
  assert (H0 : (len p <= len (write_fields (put_text 1 p ++ put_bool 2 err)))%nat).
  { destruct p as [|c p]; [cbn; lia|]. cbn [put_text]. rewrite write_fields_app, app_length. cbn [write_fields]. rewrite app_length. pose proof (field_at_least 1 (String c p)). lia. }
  unfold enc_envelope. cbn [e_ts e_source e_instance e_deprecated_tags e_tags e_msg enc_message]. unfold put_msg. revert H0. generalize (write_fields (put_text 1 p ++ put_bool 2 err)) as x. intros x H0.
  rewrite !write_fields_app, !app_length. cbn [write_fields]. rewrite app_length. pose proof (field_at_least 4 x) as H. lia.
Qed.
Lemma same_batch lo b s s' : marshal_send (mk_send lo b) = Some s -> marshal_read_response b = Some s' -> takes s -> takes s'.
Proof.
  unfold marshal_send, marshal_read_response, marshal. cbn [sr_envelopes]. case_match; [|done]. intros [= <-] [= <-]. unfold takes, bytes, enc_send, enc_read_response. cbn [sr_envelopes sr_local_only].
  rewrite write_fields_app, app_length. lia.
Qed.
Lemma meta_at_least m s : marshal_meta_response m = Some s -> (list_sum (len ∘ fst <$> map_to_list m) + 4 * size m <= len s)%nat.
Proof.
  unfold marshal_meta_response, marshal. case_match; [|done]. intros [= <-]. unfold enc_meta_response, put_map. change (size m) with (length (map_to_list m)). clear.
  induction (map_to_list m) as [|[k i] l IH]; [done|]. cbn [mbind list_bind fmap list_fmap length fst snd compose]. unfold put_entry at 1, put_msg. rewrite write_fields_app, !app_length. cbn [write_fields].
  rewrite !app_length. cbn [len].
  assert (H : forall j s0, (len s0 + 2 <= len (write_field (j, Bytes s0)))%nat).
  { intros j s0. unfold write_field. cbn [fst snd write_wire]. rewrite !app_length. pose proof (write_varint_length (j * 8 + wire_type (Bytes s0))). pose proof (write_varint_length (Z.of_nat (len s0))). lia. }
  pose proof (H 1 (write_field (1, Bytes k) +:+ write_field (2, enc_info i) +:+ "")) as H1. rewrite !app_length in H1. pose proof (H 1 k). cbn [len] in *.
  change (list_sum (len k :: (len ∘ fst <$> l))) with (len k + list_sum ((len ∘ fst) <$> l))%nat. lia.
Qed.

(** what a source holds was sent *)
Lemma hold_sent mine m src cs l : may_hold mine m src cs l -> forall e, e ∈ l -> e ∈ sent_for mine src cs.
Proof.
  assert (K : forall es l e, e ∈ foldl (keep m) l es -> e ∈ l \/ e ∈ es).
  { induction es as [|x es IH]; intros l0 e; cbn [foldl]; [by left|]. intros H. apply IH in H as [H|H]; [|right; by right].
    pose proof (keep_sub m l0 x) as Hs. apply (elem_of_submseteq _ _ e) in Hs; [|done].
    apply elem_of_app in Hs as [Hs|Hs]; [by left|]. apply elem_of_list_singleton in Hs as ->. right. by left. }
  assert (A : forall cs c e, e ∈ sent_for mine src (cs ++ [c]) <-> e ∈ sent_for mine src cs \/ e ∈ of_source src (brought mine c)).
  { intros cs0 c e. unfold sent_for, brought_all. rewrite bind_app. cbn [mbind list_bind]. rewrite List.app_nil_r. unfold of_source. rewrite filter_app. apply elem_of_app. }
  induction 1 as [|cs older newer now n pri _ IH|cs l c _ _ IH]; intros e He; [by apply elem_of_nil in He|..]; rewrite A.
  - left. apply IH. apply elem_of_app. by right.
  - apply K in He as [He|He]; [left; by apply IH|by right].
Qed.
