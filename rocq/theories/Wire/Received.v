(** What was received can be passed on. *)
From Coq Require Import Ascii String.
From stdpp Require Import prelude strings list gmap.
From Verif.Base Require Import GoInt Envelope.
From Verif.Routing Require Import Model.
From Verif.Gateway Require Import Model.
From Verif.Http Require Import Model.
From Verif.Json Require Import Text Pb Spec SpecPb TextProofs.
From Verif.Wire Require Import Format Model Spec FormatProofs Proofs.
Open Scope string_scope.
Open Scope list_scope.
Open Scope Z_scope.

Lemma valid_iff s : valid s = true <-> utf8 s.
Proof. unfold valid. rewrite bool_decide_eq_true. by rewrite utf8_iff. Qed.

(** ** Numbers that were read *)
Definition read_ok (w : wire) : Prop := match w with Varint n | Fixed64 n => uint64 n | _ => True end.
Lemma get_varint_pos k s n r : get_varint k s = Some (n, r) -> 0 <= n.
Proof.
  revert s n r. induction k as [|k IH]; intros s n r H; [done|]. destruct s as [|c s]; [done|]. rewrite get_varint_S in H.
  pose proof (value_range c). destruct (value c <? 128) eqn:E; [by injection H as <- <-; lia|]. apply Z.ltb_ge in E.
  destruct (get_varint k s) as [[m r']|] eqn:G; [|done]. cbn in H. injection H as <- <-. apply IH in G. lia.
Qed.
Lemma read_varint_ok s n r : read_varint s = Some (n, r) -> uint64 n.
Proof.
  unfold read_varint, uint64. destruct (get_varint 10 s) as [[m r']|] eqn:G; [|done]. cbn [mbind option_bind].
  destruct (m <? 2^64) eqn:E; [|done]. intros [= <- <-]. apply Z.ltb_lt in E. apply get_varint_pos in G. lia.
Qed.
Lemma get_fixed_ok k s n r : get_fixed k s = Some (n, r) -> 0 <= n < 256 ^ Z.of_nat k.
Proof.
  revert s n r. induction k as [|k IH]; intros s n r H; [injection H as <- <-; done|]. destruct s as [|c s]; [done|]. cbn [get_fixed] in H.
  destruct (get_fixed k s) as [[m r']|] eqn:G; [|done]. cbn [mbind option_bind] in H. injection H as <- <-. apply IH in G.
  pose proof (value_range c). replace (Z.of_nat (S k)) with (1 + Z.of_nat k) by lia. rewrite Z.pow_add_r by lia. lia.
Qed.
Lemma read_wire_ok t s w r : read_wire t s = Some (w, r) -> read_ok w.
Proof.
  unfold read_wire. repeat case_match.
  - destruct (read_varint s) as [[n r']|] eqn:G; [|done]. intros [= <- <-]. by apply read_varint_ok in G.
  - destruct (get_fixed 8 s) as [[n r']|] eqn:G; [|done]. intros [= <- <-]. by apply get_fixed_ok in G.
  - destruct (read_varint s) as [[n r']|]; [|done]. cbn [mbind option_bind]. case_match; [|done]. destruct (cut _ _) as [[a b]|]; [|done]. by intros [= <- <-].
  - destruct (get_fixed 4 s) as [[n r']|] eqn:G; [|done]. by intros [= <- <-].
  - done.
Qed.
Lemma read_fields_ok s fs : read_fields s = Some fs -> Forall (fun f => read_ok f.2) fs.
Proof.
  unfold read_fields. generalize (String.length s). intros k. revert s fs. induction k as [|k IH]; intros s fs H.
  - destruct s; [|done]. injection H as <-. apply Forall_nil_2.
  - destruct s as [|c s]; [injection H as <-; apply Forall_nil_2|]. cbn [read_some] in H.
    destruct (read_field (String c s)) as [[f r]|] eqn:F; [|done]. cbn [mbind option_bind] in H.
    destruct (read_some k r) as [gs|] eqn:G; [|done]. injection H as <-. constructor; [|by eapply IH].
    unfold read_field in F. destruct (read_varint _) as [[x r1]|]; [|done]. cbn [mbind option_bind] in F. case_match; [done|].
    destruct (read_wire _ _) as [[w r2]|] eqn:W; [|done]. injection F as <- <-. by apply read_wire_ok in W.
Qed.
(** an invariant of the fields holds of the message *)
Lemma merge_inv {A} (step : reader A) (P : A -> Prop) a b s :
  (forall a f b, read_ok f.2 -> P a -> step a f = Some b -> P b) -> P a -> merge step a s = Some b -> P b.
Proof.
  intros Hst. unfold merge. destruct (read_fields s) as [fs|] eqn:R; [|done]. cbn [mbind option_bind]. apply read_fields_ok in R.
  revert a. induction R as [|f fs Hf _ IH]; intros a Ha H; [by injection H as <-|]. cbn [read_on] in H.
  destruct (step a f) as [a'|] eqn:E; [|done]. cbn [mbind option_bind] in H. eapply IH; [|exact H]. by eapply Hst.
Qed.
Lemma get_msg_inv {A B} (step : reader B) (Q : B -> Prop) (P : A -> Prop) b w a set c :
  (forall a f b, read_ok f.2 -> Q a -> step a f = Some b -> Q b) -> Q b -> P a -> (forall x, Q x -> P (set x)) ->
  get_msg step b w a set = Some c -> P c.
Proof.
  intros Hst Hb Ha Hs. destruct w; cbn [get_msg]; try by intros [= <-]. destruct (merge step b s) as [x|] eqn:M; [|done]. intros [= <-].
  apply Hs. by eapply merge_inv.
Qed.
Lemma get_text_inv {A} (P : A -> Prop) w a set c : P a -> (forall x, utf8 x -> P (set x)) -> get_text w a set = Some c -> P c.
Proof. intros Ha Hs. destruct w; cbn [get_text]; try by intros [= <-]. destruct (valid s) eqn:V; [|done]. intros [= <-]. apply Hs. by apply valid_iff. Qed.
Lemma get_int_inv {A} (P : A -> Prop) w a set c : read_ok w -> P a -> (forall x, uint64 x -> P (set x)) -> get_int w a set = Some c -> P c.
Proof. intros Hw Ha Hs. destruct w; cbn [get_int]; try by intros [= <-]. intros [= <-]. by apply Hs. Qed.
Lemma get_entry_inv {A V} (getv : V -> wire -> option V) zero (Q : V -> Prop) (P : A -> Prop) w m a set c :
  (forall v w u, read_ok w -> Q v -> getv v w = Some u -> Q u) -> Q zero -> P a ->
  (forall k v, utf8 k -> Q v -> P (set (<[k := v]> m))) -> get_entry getv zero w m a set = Some c -> P c.
Proof.
  intros Hv Hz Ha Hs. unfold get_entry. apply (get_msg_inv _ (fun kv => utf8 kv.1 /\ Q kv.2)); [|split; [by apply valid_iff|done]|done|].
  - intros [k v] [n w'] [k' v'] Hr [H1 H2] H. cbn [fst snd] in *. unfold entry_step in H. repeat case_match.
    + apply (get_text_inv (fun kv : string * V => utf8 kv.1 /\ Q kv.2) _ _ _ (k', v')) in H; [done|done|by intros].
    + cbn [fst snd] in H. destruct (getv v w') as [u|] eqn:G; [|done]. injection H as <- <-. split; [done|]. by eapply Hv.
    + by injection H as <- <-.
  - intros [k v] [H1 H2]. by apply Hs.
Qed.

(** ** Envelopes *)
Lemma wrap64_int n : int64 (wrap64 n).
Proof. pose proof (wrap64_range n). unfold in64, int64 in *. lia. Qed.
Definition good_texts (m : gmap string string) : Prop := forall k v, m !! k = Some v -> utf8 k /\ utf8 v.
Definition good_message (m : message) : Prop :=
  match m with
  | MLog _ _ | MNone => True
  | MCounter name delta total => utf8 name /\ uint64 delta /\ uint64 total
  | MTimer name a b => utf8 name /\ int64 a /\ int64 b
  | MGauge ms => forall k g, ms !! k = Some g -> utf8 k /\ utf8 (gv_unit g) /\ uint64 (gv_value g)
  | MEvent a b => utf8 a /\ utf8 b
  end.
Definition good (e : envelope) : Prop :=
  int64 (e_ts e) /\ utf8 (e_source e) /\ utf8 (e_instance e) /\ good_texts (e_deprecated_tags e) /\ good_texts (e_tags e) /\ good_message (e_msg e).
Lemma good_insert m k v : good_texts m -> utf8 k -> utf8 v -> good_texts (<[k := v]> m).
Proof. intros H Hk Hv i x. rewrite lookup_insert_Some. intros [[<- <-]|[_ Hx]]; [done|by apply H]. Qed.
Lemma utf8_nil : utf8 "".
Proof. by apply valid_iff. Qed.
Lemma zero_uint : uint64 0.
Proof. done. Qed.
Lemma zero_int : int64 0.
Proof. done. Qed.
Lemma value_good v w u : read_ok w -> utf8 v -> dec_value v w = Some u -> utf8 u.
Proof.
  intros _ Hv. apply (get_msg_inv _ utf8); [|done|done|done]. intros a [k x] b Hr Ha H. unfold value_step in H. case_match.
  - by eapply (get_text_inv utf8); [| |exact H].
  - by injection H as <-.
Qed.
Lemma text_good v w u : read_ok w -> utf8 v -> get_text_value v w = Some u -> utf8 u.
Proof. intros _ Hv. by apply (get_text_inv utf8). Qed.
Definition good_gv (g : gauge_value) : Prop := utf8 (gv_unit g) /\ uint64 (gv_value g).
Lemma gv_good v w u : read_ok w -> good_gv v -> dec_gv v w = Some u -> good_gv u.
Proof.
  intros _ Hv. apply (get_msg_inv _ good_gv); [|done|done|done]. intros a [k x] b Hr [H1 H2] H. unfold gv_step in H. repeat case_match.
  - eapply (get_text_inv good_gv); [| |exact H]; [done|]. by intros y Hy.
  - injection H as <-. done.
  - injection H as <-. by split.
  - by injection H as <-.
  - by injection H as <-.
  - by injection H as <-.
Qed.
Lemma good_set e m : good e -> good_message m -> good (set_msg e m).
Proof. intros (H1 & H2 & H3 & H4 & H5 & _) Hm. done. Qed.
Lemma envelope_good e f e' : read_ok f.2 -> good e -> envelope_step e f = Some e' -> good e'.
Proof.
  intros Hr Hg H. pose proof Hg as (H1 & H2 & H3 & H4 & H5 & H6). destruct f as [k w]. cbn [snd] in Hr. unfold envelope_step in H. repeat case_match.
  - eapply (get_int_inv good); [done| | |exact H]; [done|]. intros x _. split; [apply wrap64_int|done].
  - eapply (get_text_inv good); [| |exact H]; [done|]. by intros x Hx.
  - eapply (get_entry_inv dec_value "" utf8 good); [apply value_good|apply utf8_nil| | |exact H]; [done|].
    intros key v Hk Hv. do 3 (split; [done|]). split; [by apply good_insert|done].
  - eapply (get_msg_inv log_step (fun _ => True) good); [done|done| | |exact H]; [done|]. intros x _. by apply good_set.
  - eapply (get_msg_inv counter_step (fun c => utf8 c.1.1 /\ uint64 c.1.2 /\ uint64 c.2) good ("", 0, 0)); [|by split; [apply utf8_nil|]| | |exact H]; [|done|].
    + intros [[a b] c] [n x] [[a' b'] c'] Hx (G1 & G2 & G3) Hs. cbn [fst snd] in *. unfold counter_step in Hs. repeat case_match.
      * apply (get_text_inv (fun c : string * Z * Z => utf8 c.1.1 /\ uint64 c.1.2 /\ uint64 c.2) _ _ _ (a', b', c')) in Hs; [done|done|by intros].
      * apply (get_int_inv (fun c : string * Z * Z => utf8 c.1.1 /\ uint64 c.1.2 /\ uint64 c.2) _ _ _ (a', b', c')) in Hs; [done|done|done|by intros].
      * apply (get_int_inv (fun c : string * Z * Z => utf8 c.1.1 /\ uint64 c.1.2 /\ uint64 c.2) _ _ _ (a', b', c')) in Hs; [done|done|done|by intros].
      * by injection Hs as <- <- <-.
    + intros [[a b] c] Hc. by apply good_set.
  - eapply (get_msg_inv gauge_step (fun ms => good_message (MGauge ms)) good ∅); [|by intros ??; rewrite lookup_empty| | |exact H]; [|done|].
    + intros ms [n x] ms' Hx Hms Hs. unfold gauge_step in Hs. case_match; [|by injection Hs as <-].
      eapply (get_entry_inv dec_gv (mk_gv "" 0) good_gv (fun ms => good_message (MGauge ms))); [apply gv_good|by split; [apply utf8_nil|]| | |exact Hs]; [done|].
      intros key v Hk [Hv1 Hv2] i g. unfold id. rewrite lookup_insert_Some. intros [[<- <-]|[_ Hi]]; [done|by apply Hms].
    + intros ms Hms. by apply good_set.
  - eapply (get_msg_inv timer_step (fun c => utf8 c.1.1 /\ int64 c.1.2 /\ int64 c.2) good ("", 0, 0)); [|by split; [apply utf8_nil|]| | |exact H]; [|done|].
    + intros [[a b] c] [n x] [[a' b'] c'] Hx (G1 & G2 & G3) Hs. cbn [fst snd] in *. unfold timer_step in Hs. repeat case_match.
      * apply (get_text_inv (fun c : string * Z * Z => utf8 c.1.1 /\ int64 c.1.2 /\ int64 c.2) _ _ _ (a', b', c')) in Hs; [done|done|by intros].
      * apply (get_int_inv (fun c : string * Z * Z => utf8 c.1.1 /\ int64 c.1.2 /\ int64 c.2) _ _ _ (a', b', c')) in Hs; [done|done|done|].
        intros y _. cbn [fst snd]. split; [done|]. split; [apply wrap64_int|done].
      * apply (get_int_inv (fun c : string * Z * Z => utf8 c.1.1 /\ int64 c.1.2 /\ int64 c.2) _ _ _ (a', b', c')) in Hs; [done|done|done|].
        intros y _. cbn [fst snd]. split; [done|]. split; [done|apply wrap64_int].
      * by injection Hs as <- <- <-.
    + intros [[a b] c] Hc. by apply good_set.
  - eapply (get_text_inv good); [| |exact H]; [done|]. by intros x Hx.
  - eapply (get_entry_inv get_text_value "" utf8 good); [apply text_good|apply utf8_nil| | |exact H]; [done|].
    intros key v Hk Hv. do 4 (split; [done|]). split; [by apply good_insert|done].
  - eapply (get_msg_inv event_step (fun c => utf8 c.1 /\ utf8 c.2) good ("", "")); [|by split; apply utf8_nil| | |exact H]; [|done|].
    + intros [a b] [n x] [a' b'] Hx (G1 & G2) Hs. cbn [fst snd] in *. unfold event_step in Hs. repeat case_match.
      * apply (get_text_inv (fun c : string * string => utf8 c.1 /\ utf8 c.2) _ _ _ (a', b')) in Hs; [done|done|by intros].
      * apply (get_text_inv (fun c : string * string => utf8 c.1 /\ utf8 c.2) _ _ _ (a', b')) in Hs; [done|done|by intros].
      * by injection Hs as <- <-.
    + intros [a b] Hc. by apply good_set.
  - by injection H as <-.
Qed.
Lemma no_envelope_good : good no_envelope.
Proof.
  split; [done|]. split; [apply utf8_nil|]. split; [apply utf8_nil|]. split; [by intros k v H; change ((∅ : gmap string string) !! k = Some v) in H; rewrite lookup_empty in H|].
  split; [by intros k v H; change ((∅ : gmap string string) !! k = Some v) in H; rewrite lookup_empty in H|]. done.
Qed.
Lemma batch_good es f es' : read_ok f.2 -> Forall good es -> batch_step es f = Some es' -> Forall good es'.
Proof.
  intros Hr Hg H. destruct f as [k w]. unfold batch_step in H. case_match; [|by injection H as <-].
  eapply (get_msg_inv envelope_step good (Forall good)); [apply envelope_good|apply no_envelope_good| | |exact H]; [done|].
  intros e He. apply Forall_app_2; [done|]. apply Forall_cons_2; [done|apply Forall_nil_2].
Qed.
Lemma send_good s r : unmarshal_send s = Some r -> Forall good (default [] (sr_envelopes r)).
Proof.
  unfold unmarshal_send. apply (merge_inv _ (fun r => Forall good (default [] (sr_envelopes r)))); [|apply Forall_nil_2].
  intros a f b Hr Ha H. destruct f as [k w]. unfold send_step in H. repeat case_match.
  - eapply (get_msg_inv batch_step (Forall good) (fun r => Forall good (default [] (sr_envelopes r)))); [apply batch_good| | | |exact H]; done.
  - eapply (get_int_inv (fun r => Forall good (default [] (sr_envelopes r)))); [done| | |exact H]; done.
  - by injection H as <-.
Qed.
Lemma response_good s b : unmarshal_read_response s = Some b -> Forall good (default [] b).
Proof.
  unfold unmarshal_read_response. apply (merge_inv _ (fun b => Forall good (default [] b))); [|apply Forall_nil_2].
  intros a f b' Hr Ha H. destruct f as [k w]. unfold read_response_step in H. repeat case_match.
  - eapply (get_msg_inv batch_step (Forall good) (fun b => Forall good (default [] b))); [apply batch_good| | | |exact H]; done.
  - by injection H as <-.
Qed.

(** ** The texts of an envelope *)
Lemma texts_iff e t : t ∈ envelope_texts e <-> text_of e t.
Proof.
  unfold envelope_texts, map_texts. rewrite !elem_of_app, !elem_of_list_bind. split.
  - intros [H|[([k v] & H & Hin)|[([k v] & H & Hin)|H]]].
    + apply elem_of_cons in H as [->|H]; [constructor|]. apply elem_of_list_singleton in H as ->. constructor.
    + apply elem_of_map_to_list in Hin. eapply in_old_tag; [done|]. apply elem_of_cons in H as [->|H]; [by left|]. apply elem_of_list_singleton in H as ->. by right.
    + apply elem_of_map_to_list in Hin. eapply in_tag; [done|]. apply elem_of_cons in H as [->|H]; [by left|]. apply elem_of_list_singleton in H as ->. by right.
    + destruct (e_msg e) as [| | | | |] eqn:E; cbn [message_texts] in H; try by apply elem_of_nil in H.
      * apply elem_of_list_singleton in H as ->. by eapply in_counter.
      * apply elem_of_list_bind in H as ([k g] & H & Hin). apply elem_of_map_to_list in Hin. eapply in_gauge; [done..|].
        apply elem_of_cons in H as [->|H]; [by left|]. apply elem_of_list_singleton in H as ->. by right.
      * apply elem_of_list_singleton in H as ->. by eapply in_timer.
      * eapply in_event; [done|]. apply elem_of_cons in H as [->|H]; [by left|]. apply elem_of_list_singleton in H as ->. by right.
  - intros [| |k v Hv t' Ht|k v Hv t' Ht|name d t' E|name a b E|m k g E Hg t' Ht|title body E t' Ht].
    + left. left.
    + left. right. left.
    + right. right. left. exists (k, v). split; [|by apply elem_of_map_to_list]. destruct Ht as [->| ->]; [left|right; left].
    + right. left. exists (k, v). split; [|by apply elem_of_map_to_list]. destruct Ht as [->| ->]; [left|right; left].
    + do 3 right. rewrite E. left.
    + do 3 right. rewrite E. left.
    + do 3 right. rewrite E. cbn [message_texts]. apply elem_of_list_bind. exists (k, g). split; [|by apply elem_of_map_to_list].
      destruct Ht as [->| ->]; [left|right; left].
    + do 3 right. rewrite E. cbn [message_texts]. destruct Ht as [->| ->]; [left|right; left].
Qed.
Lemma good_sized e : good e -> sized e /\ forall t, text_of e t -> utf8 t.
Proof.
  intros (H1 & H2 & H3 & H4 & H5 & H6). split.
  - split; [done|]. destruct (e_msg e); cbn in *; try done; [naive_solver|intros k g Hg; by apply (H6 k g)|naive_solver].
  - intros t Ht. destruct Ht as [| |k v Hv t' Ht|k v Hv t' Ht|name d t' E|name a b E|m k g E Hg t' Ht|title body E t' Ht]; try done.
    + destruct (H5 _ _ Hv). by destruct Ht as [->| ->].
    + destruct (H4 _ _ Hv). by destruct Ht as [->| ->].
    + rewrite E in H6. by destruct H6.
    + rewrite E in H6. by destruct H6.
    + rewrite E in H6. destruct (H6 _ _ Hg) as (? & ? & _). by destruct Ht as [->| ->].
    + rewrite E in H6. destruct H6. by destruct Ht as [->| ->].
Qed.
Lemma batch_texts_iff b t : t ∈ batch_texts b <-> exists es e, b = Some es /\ e ∈ es /\ text_of e t.
Proof.
  unfold batch_texts. rewrite elem_of_list_bind. split.
  - intros (e & Ht & He). destruct b as [es|]; [|by apply elem_of_nil in He]. exists es, e. rewrite <-texts_iff. done.
  - intros (es & e & -> & He & Ht). exists e. by rewrite texts_iff.
Qed.
Lemma marshal_none texts fs : marshal texts fs = None <-> exists t, t ∈ texts /\ ~ utf8 t.
Proof.
  unfold marshal. destruct (forallb valid texts) eqn:E; split; try done.
  - intros (t & Ht & Hu). destruct Hu. apply valid_iff. by eapply valid_all.
  - intros _. apply not_true_iff_false in E. rewrite forallb_forall in E.
    destruct (decide (Exists (fun t => valid t = false) texts)) as [H|H].
    + apply Exists_exists in H as (t & Ht & Hv). exists t. split; [done|]. intros Hu. apply valid_iff in Hu. congruence.
    + destruct E. intros t Ht. destruct (valid t) eqn:V; [done|]. destruct H. apply Exists_exists. exists t. split; [by apply elem_of_list_In|done].
Qed.
Lemma marshal_some texts fs : (forall t, t ∈ texts -> utf8 t) -> marshal texts fs = Some (write_fields fs).
Proof.
  intros H. destruct (marshal texts fs) as [s|] eqn:E; [by apply marshal_inv in E as [_ ->]|].
  apply marshal_none in E as (t & Ht & Hu). by destruct (Hu (H t Ht)).
Qed.
