(** What travels over gRPC: C163 to C165; the hidden field behind C51. *)
From Coq Require Import Ascii String.
From stdpp Require Import prelude strings list gmap.
From Verif.Base Require Import GoInt Envelope Str Url.
From Verif.Store Require Import Spec.
From Verif.Routing Require Import Model.
From Verif.Gateway Require Import Model Spec.
From Verif.Http Require Import Model.
From Verif.Json Require Import Text Pb Spec SpecPb.
From Verif.Auth Require Import Model System Spec Trace Local Global Safety Run.
From Verif.Props Require Import AuthProps GatewayProps.
From Verif.Wire Require Import Format Model Spec FormatProofs Proofs Order Received Numbers.
Open Scope string_scope.
Open Scope list_scope.
Open Scope Z_scope.

(** ** C163 *)
(** Every message is received as it was sent: whatever its numbers, its texts, its maps and its lists. *)
Theorem C163_send : forall r s, sized_batch (sr_envelopes r) -> marshal_send r = Some s -> fits s -> unmarshal_send s = Some r.
Proof. exact send_round. Qed.
Print Assumptions C163_send.
Theorem C163_read : forall r s, sized_read r -> marshal_read r = Some s -> fits s -> unmarshal_read s = Some r.
Proof. exact read_round. Qed.
Print Assumptions C163_read.
Theorem C163_read_response : forall b s, sized_batch b -> marshal_read_response b = Some s -> fits s -> unmarshal_read_response s = Some b.
Proof. exact read_response_round. Qed.
Print Assumptions C163_read_response.
Theorem C163_meta : forall r s, marshal_meta r = Some s -> fits s -> unmarshal_meta s = Some r.
Proof. exact meta_round. Qed.
Print Assumptions C163_meta.
Theorem C163_meta_response : forall m s, (forall k i, m !! k = Some i -> sized_info i) ->
  marshal_meta_response m = Some s -> fits s -> unmarshal_meta_response s = Some m.
Proof. exact meta_response_round. Qed.
Print Assumptions C163_meta_response.
(** the routing tables and ranges of the orchestration API *)
Theorem C163_table : forall m s, (forall k rs, m !! k = Some rs -> Forall sized_range rs) ->
  marshal_table m = Some s -> fits s -> unmarshal_table s = Some m.
Proof. exact table_round. Qed.
Print Assumptions C163_table.
Theorem C163_ranges : forall rs s, Forall sized_range rs -> marshal_ranges rs = Some s -> fits s -> unmarshal_ranges s = Some rs.
Proof. exact ranges_round. Qed.
Print Assumptions C163_ranges.
Theorem C163_range : forall r s, (forall x, r = Some x -> sized_range x) -> marshal_range r = Some s -> fits s -> unmarshal_range s = Some r.
Proof. exact range_round. Qed.
Print Assumptions C163_range.
Theorem C163_queries : (forall r s, marshal_instant r = Some s -> fits s -> unmarshal_instant s = Some r) /\
  forall r s, marshal_range_query r = Some s -> fits s -> unmarshal_range_query s = Some r.
Proof. split; [exact instant_round|exact range_query_round]. Qed.
Print Assumptions C163_queries.
(** ... and it is sent, unless a text in it is not UTF-8 *)
Theorem C163_refused :
  (forall r, marshal_send r = None <-> exists es e t, sr_envelopes r = Some es /\ e ∈ es /\ text_of e t /\ ~ utf8 t) /\
  (forall b, marshal_read_response b = None <-> exists es e t, b = Some es /\ e ∈ es /\ text_of e t /\ ~ utf8 t) /\
  (forall r, marshal_read r = None <-> ~ (utf8 (rr_source r) /\ utf8 (rr_name r))) /\
  (forall m, marshal_meta_response m = None <-> exists k, is_Some (m !! k) /\ ~ utf8 k) /\
  (forall m, marshal_table m = None <-> exists k, is_Some (m !! k) /\ ~ utf8 k) /\
  (forall r, is_Some (marshal_meta r)) /\ (forall r, is_Some (marshal_range r)) /\ (forall rs, is_Some (marshal_ranges rs)).
Proof.
  assert (Hb : forall b fs, marshal (batch_texts b) fs = None <-> exists es e t, b = Some es /\ e ∈ es /\ text_of e t /\ ~ utf8 t).
  { intros b fs. rewrite marshal_none. setoid_rewrite batch_texts_iff. naive_solver. }
  assert (Hm : forall V (m : gmap string V) fs, marshal (map_to_list m).*1 fs = None <-> exists k, is_Some (m !! k) /\ ~ utf8 k).
  { intros V m fs. rewrite marshal_none. split.
    - intros (t & Ht & Hu). apply elem_of_list_fmap in Ht as ([k v] & -> & Hin). exists k. split; [|done]. exists v. by apply elem_of_map_to_list.
    - intros (k & [v Hv] & Hu). exists k. split; [by eapply key_text|done]. }
  split; [intros r; apply Hb|]. split; [intros b; apply Hb|]. split.
  { intros r. unfold marshal_read. rewrite marshal_none. split.
    - intros (t & Ht & Hu) [H1 H2]. apply elem_of_cons in Ht as [->|Ht]; [done|]. by apply elem_of_list_singleton in Ht as ->.
    - intros H. destruct (valid (rr_source r)) eqn:E1.
      + exists (rr_name r). split; [right; left|]. intros H2. apply H. split; [by apply valid_iff|done].
      + exists (rr_source r). split; [left|]. intros H1. apply valid_iff in H1. congruence. }
  split; [intros m; apply Hm|]. split; [intros m; apply Hm|]. split; [|split]; intros; by eexists.
Qed.
Print Assumptions C163_refused.

Definition a_gauge : envelope :=
  mk_env (-5) "app" "3" {["old" := "x"]} {["k" := "v"; "k2" := ""]} (MGauge {["cpu" := mk_gv "%" 4607182418800017408; "mem" := mk_gv "" 0]}).
Definition a_counter : envelope := mk_env (2^63 - 1) "é" "" ∅ ∅ (MCounter "c" 0 (2^64 - 1)).
Definition a_send : send_request := mk_send true (Some [a_gauge; a_counter; mk_env 0 "" "" ∅ ∅ MNone]).
Example C163_case : exists s, marshal_send a_send = Some s /\ fits s /\ unmarshal_send s = Some a_send /\ sized_batch (sr_envelopes a_send).
Proof.
  assert (H : forallb valid (batch_texts (sr_envelopes a_send)) = true) by (vm_compute; reflexivity).
  exists (write_fields (enc_send a_send)).
  assert (Hm : marshal_send a_send = Some (write_fields (enc_send a_send))) by (unfold marshal_send, marshal; rewrite H; reflexivity).
  assert (Hf : fits (write_fields (enc_send a_send))).
  { unfold fits. assert (E : (Z.of_nat (String.length (write_fields (enc_send a_send))) <? 2^63) = true) by (vm_compute; reflexivity).
    apply Z.ltb_lt in E. exact E. }
  assert (Hs : sized_batch (sr_envelopes a_send)).
  { intros es e Hes. injection Hes as <-. revert e. apply Forall_forall. apply Forall_cons_2; [|apply Forall_cons_2; [|apply Forall_cons_2; [|apply Forall_nil_2]]].
    - split; [unfold int64; cbn [a_gauge e_ts]; lia|].
      apply (map_Forall_insert_2 (fun _ g => uint64 (gv_value g))); [unfold uint64; cbn [gv_value]; lia|].
      apply map_Forall_singleton. unfold uint64. cbn [gv_value]. lia.
    - split; [unfold int64; cbn [a_counter e_ts]; lia|]. cbn [a_counter e_msg sized_message]. unfold uint64. lia.
    - split; [unfold int64; cbn [e_ts]; lia|]. cbn [e_msg sized_message]. exact I. }
  split; [exact Hm|]. split; [exact Hf|]. split; [|exact Hs]. exact (C163_send _ _ Hs Hm Hf).
Qed.

(** ** C164 *)
(** Peers of other versions and other languages are understood.  The bytes of the fields may come in any order, as long as
    every field gets the same values in the same order, ... *)
Theorem C164_order :
  (forall fs gs, legal fs -> legal gs -> alike id fs gs -> unmarshal_send (write_fields fs) = unmarshal_send (write_fields gs)) /\
  (forall fs gs, legal fs -> legal gs -> alike id fs gs -> unmarshal_read (write_fields fs) = unmarshal_read (write_fields gs)) /\
  (forall fs gs, legal fs -> legal gs -> alike payload fs gs -> unmarshal_envelope (write_fields fs) = unmarshal_envelope (write_fields gs)) /\
  (forall fs gs, legal fs -> legal gs -> alike id fs gs -> unmarshal_instant (write_fields fs) = unmarshal_instant (write_fields gs)) /\
  (forall fs gs, legal fs -> legal gs -> alike id fs gs -> unmarshal_range_query (write_fields fs) = unmarshal_range_query (write_fields gs)).
Proof.
  repeat split; intros fs gs H1 H2 Ha; (eapply same_fields; [|done|done|exact Ha]); intros f g Hne.
  - by apply send_commute.
  - by apply read_commute.
  - by apply envelope_commute.
  - by apply instant_commute.
  - by apply range_query_commute.
Qed.
Print Assumptions C164_order.
(** ... fields that are not known are skipped, ... *)
Theorem C164_unknown : forall k w fs gs, legal (fs ++ (k, w) :: gs) ->
  (~ 1 <= k <= 2 -> unmarshal_send (write_fields (fs ++ (k, w) :: gs)) = unmarshal_send (write_fields (fs ++ gs))) /\
  (~ 1 <= k <= 7 -> unmarshal_read (write_fields (fs ++ (k, w) :: gs)) = unmarshal_read (write_fields (fs ++ gs))) /\
  (~ 1 <= k <= 10 -> unmarshal_envelope (write_fields (fs ++ (k, w) :: gs)) = unmarshal_envelope (write_fields (fs ++ gs))) /\
  (k <> 1 -> unmarshal_meta (write_fields (fs ++ (k, w) :: gs)) = unmarshal_meta (write_fields (fs ++ gs))) /\
  (k <> 1 -> unmarshal_read_response (write_fields (fs ++ (k, w) :: gs)) = unmarshal_read_response (write_fields (fs ++ gs))) /\
  (k <> 1 -> unmarshal_meta_response (write_fields (fs ++ (k, w) :: gs)) = unmarshal_meta_response (write_fields (fs ++ gs))) /\
  (k <> 1 -> unmarshal_table (write_fields (fs ++ (k, w) :: gs)) = unmarshal_table (write_fields (fs ++ gs))) /\
  (~ 1 <= k <= 2 -> unmarshal_instant (write_fields (fs ++ (k, w) :: gs)) = unmarshal_instant (write_fields (fs ++ gs))) /\
  (~ 1 <= k <= 4 -> unmarshal_range_query (write_fields (fs ++ (k, w) :: gs)) = unmarshal_range_query (write_fields (fs ++ gs))).
Proof.
  intros k w fs gs H. repeat split; intros Hk; (apply same_skip; [|exact H]).
  - by apply send_unknown.
  - by apply read_unknown.
  - by apply envelope_unknown.
  - by apply meta_unknown.
  - revert Hk. unfold read_response_step. unknown.
  - revert Hk. unfold meta_response_step. unknown.
  - revert Hk. unfold table_step. unknown.
  - by apply instant_unknown.
  - by apply range_query_unknown.
Qed.
Print Assumptions C164_unknown.
(** ... a known field of a type that is not expected too, ... *)
Definition scalar_at (k : Z) (w : wire) : Prop := k = 1 /\ (forall n, w <> Varint n) \/ k = 2 /\ (forall s, w <> Bytes s) \/ (3 <= k <= 10 /\ forall s, w <> Bytes s).
Theorem C164_mistyped : forall k w fs gs, legal (fs ++ (k, w) :: gs) -> scalar_at k w ->
  unmarshal_envelope (write_fields (fs ++ (k, w) :: gs)) = unmarshal_envelope (write_fields (fs ++ gs)).
Proof.
  intros k w fs gs H Hw. apply same_skip; [|exact H]. intros b. unfold envelope_step, get_entry.
  repeat match goal with |- context [?k =? ?n] => destruct (Z.eqb_spec k n) as [->|?] end; try done.
  all: destruct w; try done; exfalso; destruct Hw as [[? Hw]|[[? Hw]|[? Hw]]]; try lia; by eapply Hw.
Qed.
Print Assumptions C164_mistyped.
(** ... and the entries of a map are read in any order: neighbours with different keys can change places. *)
Theorem C164_map_order : forall key1 w1 key2 w2 fs gs k, key1 <> key2 -> carries w1 -> carries w2 ->
  fits (write_fields [(1, Bytes key1); (2, w1)]) -> fits (write_fields [(1, Bytes key2); (2, w2)]) -> legal fs -> legal gs ->
  (k = 3 \/ k = 9 ->
   unmarshal_envelope (write_fields (fs ++ (k, entry key1 w1) :: (k, entry key2 w2) :: gs)) =
   unmarshal_envelope (write_fields (fs ++ (k, entry key2 w2) :: (k, entry key1 w1) :: gs))) /\
  unmarshal_meta_response (write_fields (fs ++ (1, entry key1 w1) :: (1, entry key2 w2) :: gs)) =
  unmarshal_meta_response (write_fields (fs ++ (1, entry key2 w2) :: (1, entry key1 w1) :: gs)) /\
  unmarshal_table (write_fields (fs ++ (1, entry key1 w1) :: (1, entry key2 w2) :: gs)) =
  unmarshal_table (write_fields (fs ++ (1, entry key2 w2) :: (1, entry key1 w1) :: gs)).
Proof.
  intros key1 w1 key2 w2 fs gs k Hne Hw1 Hw2 Hf1 Hf2 Hfs Hgs.
  assert (Hl : forall k, 1 <= k < 2^29 -> legal (fs ++ (k, entry key1 w1) :: (k, entry key2 w2) :: gs) /\
                         legal (fs ++ (k, entry key2 w2) :: (k, entry key1 w1) :: gs)).
  { intros n Hn. unfold legal, fits, entry in *. rewrite !Forall_app, !Forall_cons. cbn [fst snd carries].
    split; (split; [done|]; split; [split; [done|]; lia|]; split; [split; [done|]; lia|]; done). }
  split; [|split].
  - intros Hk. destruct (Hl k) as [L1 L2]; [lia|]. unfold unmarshal_envelope. rewrite !merge_legal by done.
    apply swap_adjacent. destruct Hk as [-> | ->]; [by apply old_tags_commute|by apply tags_commute].
  - destruct (Hl 1) as [L1 L2]; [lia|]. unfold unmarshal_meta_response. rewrite !merge_legal by done. apply swap_adjacent. by apply meta_response_commute.
  - destruct (Hl 1) as [L1 L2]; [lia|]. unfold unmarshal_table. rewrite !merge_legal by done. apply swap_adjacent. by apply table_commute.
Qed.
Print Assumptions C164_map_order.
(** Every field has the number and the type of the .proto files: those of envelopes, ... *)
Theorem C164_envelope_numbers : forall a n m s t k,
  uint64 a -> uint64 n -> uint64 m -> utf8 s -> utf8 t -> utf8 k -> short s -> short t -> short k ->
  let reads fs e := unmarshal_envelope (write_fields fs) = Some e in
  let msg fs := Bytes (write_fields fs) in
  reads [(1, Varint n)] (mk_env (wrap64 n) "" "" ∅ ∅ MNone) /\
  reads [(2, Bytes s)] (mk_env 0 s "" ∅ ∅ MNone) /\
  reads [(3, entry k (msg [(1, Bytes s)]))] (mk_env 0 "" "" {[k := s]} ∅ MNone) /\
  reads [(4, msg [(1, Bytes s); (2, Varint n)])] (mk_env 0 "" "" ∅ ∅ (MLog s (n =? 1))) /\
  reads [(5, msg [(1, Bytes s); (2, Varint n); (3, Varint m)])] (mk_env 0 "" "" ∅ ∅ (MCounter s n m)) /\
  reads [(6, msg [(1, entry k (msg [(1, Bytes s); (2, Fixed64 a)]))])] (mk_env 0 "" "" ∅ ∅ (MGauge {[k := mk_gv s a]})) /\
  reads [(7, msg [(1, Bytes s); (2, Varint n); (3, Varint m)])] (mk_env 0 "" "" ∅ ∅ (MTimer s (wrap64 n) (wrap64 m))) /\
  reads [(8, Bytes s)] (mk_env 0 "" s ∅ ∅ MNone) /\
  reads [(9, entry k (Bytes s))] (mk_env 0 "" "" ∅ {[k := s]} MNone) /\
  reads [(10, msg [(1, Bytes s); (2, Bytes t)])] (mk_env 0 "" "" ∅ ∅ (MEvent s t)).
Proof.
  intros a n m s t k Ha Hn Hm Hs%valid_iff Ht%valid_iff Hk%valid_iff Ss St Sk reads msg.
  split; [by apply field1|]. split; [by apply field2|]. split; [by apply field3|]. split; [by apply field4|]. split; [by apply field5|].
  split; [by apply field6|]. split; [by apply field7|]. split; [by apply field8|]. split; [by apply field9|by apply field10].
Qed.
Print Assumptions C164_envelope_numbers.
(** ... and those of the requests and responses (an envelope being the bytes [s]). *)
Theorem C164_request_numbers : forall a b n m s t k u e,
  uint64 a -> uint64 b -> uint64 n -> uint64 m -> utf8 s -> utf8 t -> utf8 k -> utf8 u -> short s -> short t -> short k -> short u ->
  let msg fs := Bytes (write_fields fs) in
  unmarshal_read (write_fields [(1, Bytes s); (7, Bytes t)]) = Some (mk_rr s 0 0 0 [] false t) /\
  unmarshal_read (write_fields [(2, Varint n); (3, Varint m); (4, Varint a)]) = Some (mk_rr "" (wrap64 n) (wrap64 m) (wrap64 a) [] false "") /\
  (n < 2^31 -> m < 2^31 ->
   unmarshal_read (write_fields [(5, Varint n); (5, Varint m); (6, Varint a)]) =
   Some (mk_rr "" 0 0 0 [type_number n; type_number m] (bool_decide (a <> 0)) "")) /\
  unmarshal_meta (write_fields [(1, Varint n)]) = Some (MetaReq (bool_decide (n <> 0))) /\
  (unmarshal_envelope s = Some e ->
   unmarshal_send (write_fields [(1, msg [(1, Bytes s)]); (2, Varint n)]) = Some (mk_send (bool_decide (n <> 0)) (Some [e])) /\
   unmarshal_read_response (write_fields [(1, msg [(1, Bytes s)])]) = Some (Some [e])) /\
  unmarshal_meta_response (write_fields [(1, entry k (msg [(1, Varint a); (2, Varint b); (3, Varint n); (4, Varint m)]))]) =
    Some {[k := MetaInfo (wrap64 a) (wrap64 b) (wrap64 n) (wrap64 m)]} /\
  unmarshal_range (write_fields [(1, msg [(1, Varint n); (2, Varint m)])]) = Some (Some (mk_range n m)) /\
  unmarshal_ranges (write_fields [(1, msg [(1, Varint n); (2, Varint m)])]) = Some [mk_range n m] /\
  unmarshal_table (write_fields [(1, entry k (msg [(1, msg [(1, Varint n); (2, Varint m)])]))]) = Some {[k := [mk_range n m]]} /\
  unmarshal_instant (write_fields [(1, Bytes s); (2, Bytes t)]) = Some (Instant s t) /\
  unmarshal_range_query (write_fields [(1, Bytes s); (2, Bytes t); (3, Bytes k); (4, Bytes u)]) = Some (Gateway.Model.Range s t k u).
Proof.
  intros a b n m s t k u e Ha Hb Hn Hm Hs%valid_iff Ht%valid_iff Hk%valid_iff Hu%valid_iff Ss St Sk Su msg.
  assert (Hnz : forall x, negb (x =? 0) = bool_decide (x <> 0)).
  { intros x. case_bool_decide as E; destruct (Z.eqb_spec x 0); done. }
  split; [by apply read1|]. split; [by apply read2|]. split.
  { intros Hn' Hm'. rewrite read5 by done. rewrite Hnz. unfold get_type. assert (Hw : forall x, uint64 x -> x < 2^31 -> wrap32 x = x).
    { intros x Hx Hx'. unfold wrap32, uint64 in *. rewrite Z.mod_small by lia. lia. }
    by rewrite !Hw. }
  split; [by rewrite meta1, Hnz|]. split; [intros He; split; [rewrite <-Hnz; by apply (send1 n s t k)|by apply (response1 s t k)]|].
  split; [by apply meta_response1|]. split; [by apply range1|]. split; [by apply ranges1|]. split; [by apply table1|].
  split; [by apply instant1|by apply range_query1].
Qed.
Print Assumptions C164_request_numbers.
(** The bytes themselves are those of the format's documentation: 150 is 96 01, the field 2 with the text "testing" is
    12 07 74 65 73 74 69 6e 67 (developers.google.com/protocol-buffers/docs/encoding). *)
Example C164_bytes :
  write_fields [(1, Varint 150)] = String (byte 8) (String (byte 150) (String (byte 1) "")) /\
  write_fields [(2, Bytes "testing")] = String (byte 18) (String (byte 7) "testing").
Proof. split; vm_compute; reflexivity. Qed.
(** a peer that writes the source before the time and knows a field 11 *)
Example C164_case :
  unmarshal_envelope (write_fields [(2, Bytes "app"); (11, Fixed32 7); (1, Varint 5); (9, entry "b" (Bytes "2")); (9, entry "a" (Bytes "1"))]) =
  Some (mk_env 5 "app" "" ∅ {["a" := "1"; "b" := "2"]} MNone) /\
  legal [(2, Bytes "app"); (11, Fixed32 7); (1, Varint 5)] /\
  alike payload [(2, Bytes "app"); (1, Varint 5)] [(1, Varint 5); (2, Bytes "app")].
Proof.
  split; [|split].
  - apply (bool_decide_eq_true_1 (unmarshal_envelope (write_fields [(2, Bytes "app"); (11, Fixed32 7); (1, Varint 5); (9, entry "b" (Bytes "2")); (9, entry "a" (Bytes "1"))]) =
      Some (mk_env 5 "app" "" ∅ {["a" := "1"; "b" := "2"]} MNone))). vm_compute. reflexivity.
  - repeat constructor; cbn; lia.
  - intros k. rewrite !filter_cons. cbn [fst]. change (payload 2) with 2. change (payload 1) with 1. rewrite !filter_nil.
    destruct (decide (2 = k)), (decide (1 = k)); try done. lia.
Qed.

(** ** C165 *)
(** Whatever a node was sent it can pass on and serve: a batch that is put together from envelopes it received, or from what
    a name filter leaves of them, is encoded, and received as it is. *)
Definition received (e : envelope) : Prop := exists s r es, unmarshal_send s = Some r /\ sr_envelopes r = Some es /\ e ∈ es.
Lemma projects_good nf e e' : projects nf e e' -> good e -> good e'.
Proof.
  destruct 1 as [e| | |m e ms ms' E Hms _]; try done. intros (H1 & H2 & H3 & H4 & H5 & H6). do 5 (split; [done|]). rewrite E in H6.
  intros k g Hg. cbn [e_msg] in Hg. rewrite Hms in Hg. destruct (m k); [|done]. by apply H6.
Qed.
Lemma received_good e : received e -> good e.
Proof.
  intros (s & r & es & Hr & Hes & He). apply send_good in Hr. rewrite Hes in Hr. cbn in Hr. rewrite Forall_forall in Hr. by apply Hr.
Qed.
Theorem C165_forward : forall es local, (forall e, e ∈ es -> received e) ->
  exists s, marshal_send (mk_send local (Some es)) = Some s /\ (fits s -> unmarshal_send s = Some (mk_send local (Some es))).
Proof.
  intros es local H. eexists. split.
  - apply marshal_some. intros t Ht. apply batch_texts_iff in Ht as (es' & e & [= <-] & He & Ht).
    by eapply (proj2 (good_sized e (received_good e (H e He)))).
  - intros Hf. apply send_round; [|apply marshal_some|done].
    + intros es' e [= <-] He. apply (good_sized e). by apply received_good, H.
    + intros t Ht. apply batch_texts_iff in Ht as (es' & e & [= <-] & He & Ht). by eapply (proj2 (good_sized e (received_good e (H e He)))).
Qed.
Print Assumptions C165_forward.
Theorem C165_serve : forall es nf, (forall e', e' ∈ es -> exists e, received e /\ projects nf e e') ->
  exists s, marshal_read_response (Some es) = Some s /\ (fits s -> unmarshal_read_response s = Some (Some es)).
Proof.
  intros es nf H.
  assert (Hg : forall e, e ∈ es -> good e).
  { intros e' He'. destruct (H e' He') as (e & He & Hp). eapply projects_good; [exact Hp|]. by apply received_good. }
  assert (Ht : forall t, t ∈ batch_texts (Some es) -> utf8 t).
  { intros t Ht. apply batch_texts_iff in Ht as (es' & e & [= <-] & He & Ht). by eapply (proj2 (good_sized e (Hg e He))). }
  eexists. split; [by apply marshal_some|]. intros Hf. apply read_response_round; [|by apply marshal_some|done].
  intros es' e [= <-] He. by apply (good_sized e), Hg.
Qed.
Print Assumptions C165_serve.
Example C165_case : received a_gauge /\ received a_counter.
Proof. destruct C163_case as (s & _ & _ & H & _). split; exists s, a_send; eexists; (split; [exact H|]); (split; [reflexivity|]); [left|right; left]. Qed.

(** ** C51 *)
(** The last of C51's conditions is needed as well.  A library that finds the struct field XXX_unrecognized puts its bytes
    behind the message, where the backend reads them as further fields: a later source id replaces the one in the path.
    Here the user asks for their own source and is served "secret", which CAPI never listed. *)
Definition hidden_gw : gwlib :=
  GwLib false false false true decode64
    (fun b r => default r (unmarshal_read (write_fields (enc_read r) +:+ b)))
    (fun b r => default r (unmarshal_instant (write_fields (enc_instant r) +:+ b)))
    (fun b r => default r (unmarshal_range_query (write_fields (enc_range_query r) +:+ b)))
    (fun b r => default r (unmarshal_meta (write_fields (enc_meta r) +:+ b))).
Definition hidden_query : string := "XXX_unrecognized=CgZzZWNyZXQ%3D".
Definition hidden_request : Auth.Model.request := Auth.Model.Request "/api/v1/read/app-b" hidden_query "Bearer good".
Definition hidden_script : list (choice toy) :=
  startup ++ [Arrive (KServe hidden_request)] ++ go 2 ([◦; at_time 101; ◦] ++ listing 102 ++ [at_time 103]).
Lemma hidden_params : parse_query hidden_query = {["XXX_unrecognized" := ["CgZzZWNyZXQ="]]}.
Proof. apply (bool_decide_eq_true_1 (parse_query hidden_query = {["XXX_unrecognized" := ["CgZzZWNyZXQ="]]})). vm_compute. reflexivity. Qed.
Theorem C51_hidden_field_refuted : exists G L C clock i r p q s rr,
  json_names G = false /\ bracket_keys G = false /\ raw_fields G = true /\ base64 G = decode64 /\
  (forall b r r', unmarshal_read (write_fields (enc_read r) +:+ b) = Some r' -> wire_read G b r = r') /\
  rq_path r = append "/api/v1/read/" "app-b" /\ finishes L C clock i (KServe r) (RHttp (Forward p q)) s /\
  serves G p q (AskRead rr) /\
  (forall c, vouched L (s_log s) i (rq_auth r) c -> ~ admin c) /\
  ~ authorised L C (s_log s) i (rq_auth r) (rr_source rr).
Proof.
  destruct (scripted_finishes toy_config 100 hidden_script (Step 2 ◦) 2 (KServe hidden_request)
              (fun o s => forwards "/api/v1/read/app-b" hidden_query o && never_lists "secret" (s_log s))) as (o & s & Hf & Ht).
  { vm_compute. reflexivity. }
  apply andb_prop in Ht as [Ho Hn]. destruct o as [[| | |p q|]| | |]; try done. cbn in Ho. apply andb_prop in Ho as [E1 E2].
  apply bool_decide_eq_true in E1 as ->. apply bool_decide_eq_true in E2 as ->.
  exists hidden_gw, toy, toy_config, 100, 2%nat, hidden_request, "/api/v1/read/app-b", hidden_query, s.
  exists (mk_rr "secret" 0 0 0 [] false ""). split; [done|]. split; [done|]. split; [done|]. split; [done|].
  split; [intros b r r' E; cbn [wire_read hidden_gw]; by rewrite E|]. split; [done|]. split; [exact Hf|]. split.
  { exists [("XXX_unrecognized", ["CgZzZWNyZXQ="])]. split; [|vm_compute; reflexivity].
    rewrite hidden_params. by rewrite map_to_list_singleton. }
  split; [intros c; apply toy_user|by apply never_authorised].
Qed.
Print Assumptions C51_hidden_field_refuted.
