(** Single fields: their numbers and types are those of the .proto files. *)
From Coq Require Import Ascii String.
From stdpp Require Import prelude strings list gmap.
From Verif.Base Require Import GoInt Envelope.
From Verif.Routing Require Import Model.
From Verif.Gateway Require Import Model.
From Verif.Http Require Import Model.
From Verif.Json Require Import Text Pb Spec SpecPb.
From Verif.Wire Require Import Format Model Spec FormatProofs Proofs Order Received.
Open Scope string_scope.
Open Scope list_scope.
Open Scope Z_scope.

Lemma put_varint_length k m : (String.length (put_varint k m) <= k)%nat.
Proof. revert m. induction k as [|k IH]; intros m; cbn [put_varint]; [done|]. destruct (m <? 128); cbn; [lia|]. pose proof (IH (m / 128)). lia. Qed.
Lemma put_fixed_length k m : String.length (put_fixed k m) = k.
Proof. revert m. induction k as [|k IH]; intros m; cbn [put_fixed]; [done|]. cbn. by rewrite IH. Qed.
Definition wsize (w : wire) : nat := match w with Bytes s => String.length s | _ => 0 end.
Lemma write_field_bound k w : (String.length (write_field (k, w)) <= 20 + wsize w)%nat.
Proof.
  unfold write_field. cbn [fst snd]. rewrite app_length. pose proof (write_varint_length (k * 8 + wire_type w)).
  destruct w as [n|n|s|n]; cbn [write_wire wsize].
  - pose proof (write_varint_length n). lia.
  - rewrite put_fixed_length. lia.
  - rewrite app_length. pose proof (write_varint_length (Z.of_nat (String.length s))). lia.
  - rewrite put_fixed_length. lia.
Qed.
Fixpoint fsize (fs : list field) : nat := match fs with [] => 0 | (k, w) :: fs => 20 + wsize w + fsize fs end.
Lemma write_fields_bound fs : (String.length (write_fields fs) <= fsize fs)%nat.
Proof. induction fs as [|[k w] fs IH]; [done|]. cbn [write_fields fsize]. rewrite app_length. pose proof (write_field_bound k w). lia. Qed.
Lemma get_msg_legal {A B} (step : reader B) b fs (a : A) set : legal fs ->
  get_msg step b (Bytes (write_fields fs)) a set = b' ← read_on step b fs; Some (set b').
Proof. intros H. cbn [get_msg]. by rewrite merge_legal. Qed.
Ltac bound t := lazymatch goal with H : (String.length (write_fields t) <= _)%nat |- _ => fail | _ =>
  let H := fresh in pose proof (write_fields_bound t) as H; cbn [fsize wsize entry] in H end.
Ltac bounds := repeat (match goal with |- context [String.length (write_fields ?t)] => bound t
  | _ : context [String.length (write_fields ?t)] |- _ => bound t end).
Ltac legals := unfold legal, entry, short in *;
  repeat (apply Forall_cons_2; [split; [cbn [fst]; lia|cbn [snd carries]; try assumption; bounds; lia]|]); apply Forall_nil_2.
Ltac reading := repeat (first
  [ rewrite merge_legal by legals
  | rewrite get_msg_legal by legals
  | progress cbn [read_on Z.eqb Pos.eqb mbind option_bind fst snd get_int get_bytes]
  | rewrite text_step by assumption ]).
Lemma entry_legal {A V} (getv : V -> wire -> option V) zero k w v (m : gmap string V) (a : A) set :
  valid k = true -> getv zero w = Some v -> legal [(1, Bytes k); (2, w)] ->
  get_entry getv zero (Bytes (write_fields [(1, Bytes k); (2, w)])) m a set = Some (set (<[k := v]> m)).
Proof.
  intros Hk Hv Hl. unfold get_entry. rewrite get_msg_legal by done. cbn [read_on entry_step Z.eqb Pos.eqb]. rewrite text_step by done.
  cbn [mbind option_bind fst snd Z.eqb Pos.eqb]. by rewrite Hv.
Qed.

Section fields.
Context (a n m : Z) (s t k : string).
Context (Ha : uint64 a) (Hn : uint64 n) (Hm : uint64 m) (Hs : valid s = true) (Ht : valid t = true) (Hk : valid k = true).
Context (Ss : short s) (St : short t) (Sk : short k).
Notation reads fs e := (unmarshal_envelope (write_fields fs) = Some e).
Notation msg fs := (Bytes (write_fields fs)).
Lemma field1 : reads [(1, Varint n)] (mk_env (wrap64 n) "" "" ∅ ∅ MNone).
Proof. unfold unmarshal_envelope. rewrite merge_legal by legals. done. Qed.
Lemma field2 : reads [(2, Bytes s)] (mk_env 0 s "" ∅ ∅ MNone).
Proof. unfold unmarshal_envelope. rewrite merge_legal by legals. unfold envelope_step. cbn [read_on Z.eqb Pos.eqb]. by rewrite text_step. Qed.
Lemma field8 : reads [(8, Bytes s)] (mk_env 0 "" s ∅ ∅ MNone).
Proof. unfold unmarshal_envelope. rewrite merge_legal by legals. unfold envelope_step. cbn [read_on Z.eqb Pos.eqb]. by rewrite text_step. Qed.
Lemma field3 : reads [(3, entry k (msg [(1, Bytes s)]))] (mk_env 0 "" "" {[k := s]} ∅ MNone).
Proof.
  unfold unmarshal_envelope. rewrite merge_legal by legals. unfold envelope_step. cbn [read_on Z.eqb Pos.eqb entry].
  unfold entry. rewrite (entry_legal _ _ _ _ s); [done|done| |legals].
  unfold dec_value. rewrite get_msg_legal by legals. cbn [read_on value_step Z.eqb Pos.eqb]. by rewrite text_step.
Qed.
Lemma field9 : reads [(9, entry k (Bytes s))] (mk_env 0 "" "" ∅ {[k := s]} MNone).
Proof.
  unfold unmarshal_envelope. rewrite merge_legal by legals. unfold envelope_step. cbn [read_on Z.eqb Pos.eqb entry].
  unfold entry. rewrite (entry_legal _ _ _ _ s); [done|done| |legals]. unfold get_text_value. by rewrite text_step.
Qed.
Lemma field4 : reads [(4, msg [(1, Bytes s); (2, Varint n)])] (mk_env 0 "" "" ∅ ∅ (MLog s (n =? 1))).
Proof.
  unfold unmarshal_envelope. rewrite merge_legal by legals. unfold envelope_step. cbn [read_on Z.eqb Pos.eqb].
  rewrite get_msg_legal by legals. done.
Qed.
Lemma field5 : reads [(5, msg [(1, Bytes s); (2, Varint n); (3, Varint m)])] (mk_env 0 "" "" ∅ ∅ (MCounter s n m)).
Proof.
  unfold unmarshal_envelope. rewrite merge_legal by legals. unfold envelope_step. cbn [read_on Z.eqb Pos.eqb].
  rewrite get_msg_legal by legals. cbn [read_on counter_step Z.eqb Pos.eqb]. by rewrite text_step.
Qed.
Lemma field7 : reads [(7, msg [(1, Bytes s); (2, Varint n); (3, Varint m)])] (mk_env 0 "" "" ∅ ∅ (MTimer s (wrap64 n) (wrap64 m))).
Proof.
  unfold unmarshal_envelope. rewrite merge_legal by legals. unfold envelope_step. cbn [read_on Z.eqb Pos.eqb].
  rewrite get_msg_legal by legals. cbn [read_on timer_step Z.eqb Pos.eqb]. by rewrite text_step.
Qed.
Lemma field10 : reads [(10, msg [(1, Bytes s); (2, Bytes t)])] (mk_env 0 "" "" ∅ ∅ (MEvent s t)).
Proof.
  unfold unmarshal_envelope. rewrite merge_legal by legals. unfold envelope_step. cbn [read_on Z.eqb Pos.eqb].
  rewrite get_msg_legal by legals. cbn [read_on event_step Z.eqb Pos.eqb]. rewrite text_step by done. cbn [mbind option_bind event_step Z.eqb Pos.eqb].
  by rewrite text_step.
Qed.
Lemma field6 : reads [(6, msg [(1, entry k (msg [(1, Bytes s); (2, Fixed64 a)]))])] (mk_env 0 "" "" ∅ ∅ (MGauge {[k := mk_gv s a]})).
Proof.
  unfold unmarshal_envelope. rewrite merge_legal by legals. unfold envelope_step. cbn [read_on Z.eqb Pos.eqb].
  rewrite get_msg_legal by legals. cbn [read_on gauge_step Z.eqb Pos.eqb entry].
  unfold entry. rewrite (entry_legal _ _ _ _ (mk_gv s a)); [done|done| |legals].
  unfold dec_gv. rewrite get_msg_legal by legals. cbn [read_on gv_step Z.eqb Pos.eqb]. by rewrite text_step.
Qed.

(** the requests *)
Lemma read1 : unmarshal_read (write_fields [(1, Bytes s); (7, Bytes t)]) = Some (mk_rr s 0 0 0 [] false t).
Proof.
  unfold unmarshal_read. rewrite merge_legal by legals. unfold read_step. cbn [read_on Z.eqb Pos.eqb]. rewrite text_step by done.
  cbn [mbind option_bind Z.eqb Pos.eqb]. by rewrite text_step.
Qed.
Lemma read2 : unmarshal_read (write_fields [(2, Varint n); (3, Varint m); (4, Varint a)]) = Some (mk_rr "" (wrap64 n) (wrap64 m) (wrap64 a) [] false "").
Proof. unfold unmarshal_read. rewrite merge_legal by legals. done. Qed.
Lemma read5 : unmarshal_read (write_fields [(5, Varint n); (5, Varint m); (6, Varint a)]) = Some (mk_rr "" 0 0 0 [get_type n; get_type m] (negb (a =? 0)) "").
Proof. unfold unmarshal_read. rewrite merge_legal by legals. done. Qed.
Lemma send1 e : merge envelope_step no_envelope s = Some e ->
  unmarshal_send (write_fields [(1, msg [(1, Bytes s)]); (2, Varint n)]) = Some (mk_send (negb (n =? 0)) (Some [e])).
Proof.
  intros He. unfold unmarshal_send. rewrite merge_legal by legals. unfold send_step. cbn [read_on Z.eqb Pos.eqb].
  rewrite get_msg_legal by legals. cbn [read_on batch_step Z.eqb Pos.eqb get_msg]. by rewrite He.
Qed.
Lemma response1 e : merge envelope_step no_envelope s = Some e ->
  unmarshal_read_response (write_fields [(1, msg [(1, Bytes s)])]) = Some (Some [e]).
Proof.
  intros He. unfold unmarshal_read_response. rewrite merge_legal by legals. unfold read_response_step. cbn [read_on Z.eqb Pos.eqb].
  rewrite get_msg_legal by legals. cbn [read_on batch_step Z.eqb Pos.eqb get_msg]. by rewrite He.
Qed.
Lemma meta1 : unmarshal_meta (write_fields [(1, Varint n)]) = Some (MetaReq (negb (n =? 0))).
Proof. unfold unmarshal_meta. rewrite merge_legal by legals. done. Qed.
Lemma meta_response1 b : uint64 b ->
  unmarshal_meta_response (write_fields [(1, entry k (msg [(1, Varint a); (2, Varint b); (3, Varint n); (4, Varint m)]))]) =
  Some {[k := MetaInfo (wrap64 a) (wrap64 b) (wrap64 n) (wrap64 m)]}.
Proof.
  intros Hb. unfold unmarshal_meta_response. rewrite merge_legal by legals. cbn [read_on meta_response_step Z.eqb Pos.eqb entry].
  unfold entry. rewrite (entry_legal _ _ _ _ (MetaInfo (wrap64 a) (wrap64 b) (wrap64 n) (wrap64 m))); [done|done| |legals].
  unfold dec_info. rewrite get_msg_legal by legals. done.
Qed.
Lemma range1 : unmarshal_range (write_fields [(1, msg [(1, Varint n); (2, Varint m)])]) = Some (Some (mk_range n m)).
Proof.
  unfold unmarshal_range. rewrite merge_legal by legals. cbn [read_on one_range_step Z.eqb Pos.eqb]. rewrite get_msg_legal by legals. done.
Qed.
Lemma ranges1 : unmarshal_ranges (write_fields [(1, msg [(1, Varint n); (2, Varint m)])]) = Some [mk_range n m].
Proof.
  unfold unmarshal_ranges. rewrite merge_legal by legals. cbn [read_on ranges_step Z.eqb Pos.eqb]. rewrite get_msg_legal by legals. done.
Qed.
Lemma table1 : unmarshal_table (write_fields [(1, entry k (msg [(1, msg [(1, Varint n); (2, Varint m)])]))]) = Some {[k := [mk_range n m]]}.
Proof.
  unfold unmarshal_table. rewrite merge_legal by legals. cbn [read_on table_step Z.eqb Pos.eqb entry].
  unfold entry. rewrite (entry_legal _ _ _ _ [mk_range n m]); [done|done| |legals].
  unfold dec_ranges. rewrite get_msg_legal by legals. cbn [read_on ranges_step Z.eqb Pos.eqb]. rewrite get_msg_legal by legals. done.
Qed.
Lemma instant1 : unmarshal_instant (write_fields [(1, Bytes s); (2, Bytes t)]) = Some (Instant s t).
Proof.
  unfold unmarshal_instant. rewrite merge_legal by legals. unfold instant_step. cbn [read_on Z.eqb Pos.eqb]. rewrite text_step by done.
  cbn [mbind option_bind Z.eqb Pos.eqb]. by rewrite text_step.
Qed.
Lemma range_query1 u : valid u = true -> short u ->
  unmarshal_range_query (write_fields [(1, Bytes s); (2, Bytes t); (3, Bytes k); (4, Bytes u)]) = Some (Gateway.Model.Range s t k u).
Proof.
  intros Hu Su. unfold unmarshal_range_query. rewrite merge_legal by legals. unfold range_query_step. cbn [read_on Z.eqb Pos.eqb].
  do 3 (rewrite text_step by done; cbn [mbind option_bind Z.eqb Pos.eqb]). by rewrite text_step.
Qed.
End fields.
