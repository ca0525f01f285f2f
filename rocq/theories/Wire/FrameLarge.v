(** Large envelopes: accepted one by one, not answered together. *)
From Coq Require Import Ascii String.
From stdpp Require Import prelude strings list gmap.
From Verif.Base Require Import GoInt Envelope.
From Verif.Store Require Import Model Spec ProofsBase ProofsHist.
From Verif.Routing Require Import Model Spec.
From Verif.Whole Require Import SpecFull ProofsFull.
From Verif.Http Require Import Model.
From Verif.Json Require Import Text Spec SpecPb.
From Verif.Client Require Import WalkStore.
From Verif.Wire Require Import Format Model Spec FormatProofs Proofs Received Node SpecNode NodeProofs Numbers Frame SpecFrame FrameProofs.
Open Scope Z_scope.

Lemma many_length c n : 0 <= n -> bytes (many c n) = n.
Proof.
  intros H. unfold bytes, many. rewrite <- (Z2Nat.id n) at 2 by done. f_equal. generalize (Z.to_nat n). intros k. induction k as [|k IH]; [done|]. cbn [letters String.length]. by rewrite IH.
Qed.
Lemma many_utf8 n : utf8 (many "a" n).
Proof. unfold many. generalize (Z.to_nat n). intros k. induction k as [|k IH]; [constructor|]. cbn [letters]. apply utf8_1; [|done]. unfold Json.Spec.range; change (nat_of_ascii "a") with 97%nat; lia. Qed.
Lemma send_one_size lo ts src n b : 0 <= n -> marshal_send (mk_send lo (Some [big_log ts src n])) = Some b -> bytes b <= n + bytes src + 200.
Proof.
  intros Hn E0. apply marshal_inv in E0 as [_ ->].
  pose proof (many_length "x" n Hn) as Hm.
  change (enc_send (mk_send lo (Some [big_log ts src n]))) with (put_msg 1 (put_msg 1 (enc_envelope (big_log ts src n)) ++ []) ++ put_bool 2 lo). rewrite List.app_nil_r.
  unfold bytes in *. set (L := put_text 1 (many "x" n) ++ put_bool 2 false).
  change (enc_envelope (big_log ts src n)) with (put_int 1 ts ++ put_text 2 src ++ put_map 3 enc_value ∅ ++ put_msg 4 L ++ put_text 8 "" ++ put_map 9 Bytes ∅).
  set (E := put_int 1 ts ++ put_text 2 src ++ put_map 3 enc_value ∅ ++ put_msg 4 L ++ put_text 8 "" ++ put_map 9 Bytes ∅).
  assert (HL : (len (write_fields L) <= 20 + len (many "x" n))%nat).
  { pose proof (write_fields_bound L) as HB. unfold L in *. destruct (many "x" n) as [|c x]; cbn [put_text put_bool app fsize wsize] in HB |- *; lia. }
  assert (HE : (len (write_fields E) <= 60 + len src + len (write_fields L))%nat).
  { pose proof (write_fields_bound E) as HB. unfold E in *. change (put_map 3 enc_value ∅) with (@nil field) in *. change (put_map 9 Bytes ∅) with (@nil field) in *.
    unfold put_int, put_msg in *. clearbody L. destruct (ts =? 0); destruct src as [|c x]; cbn [put_text app fsize wsize] in HB |- *; lia. }
  clearbody E L.
  pose proof (write_fields_bound (put_msg 1 E)) as HB1. unfold put_msg at 2 in HB1. cbn [fsize wsize] in HB1.
  pose proof (write_fields_bound (put_msg 1 (put_msg 1 E) ++ put_bool 2 lo)) as HB2. unfold put_msg at 3 in HB2. unfold put_bool in *. destruct lo; cbn [app fsize wsize] in HB2; lia.
Qed.
Lemma big_good ts src n : int64 ts -> utf8 src -> sized (big_log ts src n) /\ forall t, text_of (big_log ts src n) t -> utf8 t.
Proof.
  intros Hts Hs. split; [by split|]. intros t Ht. destruct Ht as [| |k v Hk|k v Hk|nm d t E|nm a b E|m k g E|ti bo E]; cbn in *; try done; try constructor.
Qed.
Lemma send_one lo ts src n : int64 ts -> utf8 src -> 0 <= n -> n + bytes src + 200 <= 4194304 ->
  exists b, marshal_send (mk_send lo (Some [big_log ts src n])) = Some b /\ takes b /\ unmarshal_send b = Some (mk_send lo (Some [big_log ts src n])).
Proof.
  intros Hts Hs Hn Hl. destruct (big_good ts src n Hts Hs) as [Hz Ht].
  assert (E : exists b, marshal_send (mk_send lo (Some [big_log ts src n])) = Some b).
  { eexists. apply marshal_some. intros t Hin. apply batch_texts_iff in Hin as (es & e & [= <-] & He & Hte). apply elem_of_list_singleton in He as ->. by apply Ht. }
  destruct E as [b E]. exists b. split; [done|]. pose proof (send_one_size _ _ _ _ _ Hn E). assert (takes b) by (unfold takes; lia). split; [done|].
  eapply send_round; [|exact E|]; [|unfold fits; unfold takes, bytes in *; lia]. intros es e [= <-] He. apply elem_of_list_singleton in He as ->. done.
Qed.

(** ** Two of them *)
Definition is_tick (c : call) : Prop := match c with Tick _ _ _ => True | _ => False end.
Lemma hold_calls mine m src cs l : may_hold mine m src cs l -> Forall (fun c => ~ is_tick c) cs ->
  l = foldl (fun l c => foldl (keep m) l (of_source src (brought mine c))) [] cs.
Proof.
  induction 1 as [|cs older newer now n pri _ IH|cs l c _ _ IH]; intros Hc; [done|..]; apply Forall_app in Hc as [Hc1 Hc2]; apply Forall_cons in Hc2 as [Hc2 _]; [by destruct Hc2|].
  rewrite foldl_app. cbn [foldl]. by rewrite <- IH.
Qed.
Section Two.
Context (compile : string -> option (string -> bool)).
Definition all_mine : string -> bool := fun _ => true.
Lemma brought_one now b e : unmarshal_send b = Some (mk_send false (Some [e])) -> brought all_mine (CallSend now b) = [e].
Proof. intros E. unfold brought. rewrite E. cbn [sr_local_only]. change (get_batch (mk_send false (Some [e]))) with [e]. by rewrite filter_cons, decide_True. Qed.
Lemma two_sends e1 e2 b1 b2 : unmarshal_send b1 = Some (mk_send false (Some [e1])) -> unmarshal_send b2 = Some (mk_send false (Some [e2])) -> takes b1 -> takes b2 ->
  exists s1 s, port_call compile all_mine (CallSend 5 b1) (new_store 5) = Some (s1, Some "") /\ port_call compile all_mine (CallSend 6 b2) s1 = Some (s, Some "") /\
    node_run compile all_mine [CallSend 5 b1; CallSend 6 b2] (new_store 5) = Some s.
Proof.
  intros E1 E2 T1 T2.
  assert (N : forall now b e, unmarshal_send b = Some (mk_send false (Some [e])) -> ~ no_batch (CallSend now b) /\ ~ odd_type (CallSend now b)).
  { intros now b e E. split; [intros (x & y & [= <- <-] & H); by rewrite E in H|by intros (x & y & r & k & ? & _)]. }
  destruct (node_up compile all_mine 5 [CallSend 5 b1; CallSend 6 b2]) as [s Hs]; [lia|left; lia| |repeat constructor; by eapply N|].
  { unfold brought_all. cbn [mbind list_bind]. rewrite (brought_one _ _ _ E1), (brought_one _ _ _ E2). cbn. lia. }
  pose proof Hs as Hs'. cbn [node_run] in Hs'. destruct (node_call compile all_mine (CallSend 5 b1) (new_store 5)) as [[s1 a1]|] eqn:C1; [|done]. cbn [mbind option_bind] in Hs'.
  destruct (node_call compile all_mine (CallSend 6 b2) s1) as [[s2 a2]|] eqn:C2; [|done]. cbn [mbind option_bind] in Hs'. injection Hs' as ->.
  assert (A : forall now b e s0 s' a, unmarshal_send b = Some (mk_send false (Some [e])) -> node_call compile all_mine (CallSend now b) s0 = Some (s', a) -> a = Some "").
  { intros now b e s0 s' a E. cbn [node_call]. rewrite node_send_spec by (by eapply N). rewrite E. destruct (run s0 _); [|done]. by intros [= _ <-]. }
  pose proof (A _ _ _ _ _ _ E1 C1) as ->. pose proof (A _ _ _ _ _ _ E2 C2) as ->.
  assert (T0 : takes "") by (unfold takes, bytes; cbn; lia).
  exists s1, s. split; [|split; [|done]]; rewrite port_call_eq, decide_True by done; [rewrite C1|rewrite C2]; cbn [mbind option_bind]; by rewrite decide_True.
Qed.
Lemma two_held src ts1 ts2 x1 x2 b1 b2 s : let e1 := mk_env ts1 src "" ∅ ∅ x1 in let e2 := mk_env ts2 src "" ∅ ∅ x2 in ts1 < ts2 -> in64 ts1 -> in64 ts2 ->
  unmarshal_send b1 = Some (mk_send false (Some [e1])) -> unmarshal_send b2 = Some (mk_send false (Some [e2])) ->
  node_run compile all_mine [CallSend 5 b1; CallSend 6 b2] (new_store 5) = Some s -> inv s /\ entries s src = keyed [e1; e2].
Proof.
  intros e1 e2 Hts H1 H2 E1 E2 Hr.
  assert (Hs : sent_for all_mine src [CallSend 5 b1; CallSend 6 b2] = [e1; e2]).
  { unfold sent_for, brought_all. cbn [mbind list_bind]. rewrite (brought_one _ _ _ E1), (brought_one _ _ _ E2). cbn [app]. unfold of_source.
    rewrite !filter_cons, filter_nil. by repeat rewrite decide_True by done. }
  destruct (node_held compile all_mine 5 src _ s ltac:(lia) Hr) as (Hi & _ & H). split; [done|]. destruct H as (l & Hl & He & _).
  { rewrite Hs. split; [apply Forall_cons_2; [exact H1|apply Forall_cons_2; [exact H2|constructor]]|]. cbn. apply NoDup_cons. split; [|apply NoDup_singleton]. intros Hin%elem_of_list_singleton. lia. }
  apply hold_calls in Hl; [|by repeat constructor; intros []]. rewrite He. f_equal. rewrite Hl. cbn [foldl]. rewrite (brought_one _ _ _ E1), (brought_one _ _ _ E2).
  unfold of_source. rewrite !filter_cons, !filter_nil. repeat rewrite decide_True by done. cbn [foldl]. unfold keep. change (5 <=? Z.of_nat (length [])) with false. cbn [by_time].
  change (5 <=? Z.of_nat (length [e1])) with false. cbn [by_time]. change (e_ts e1) with ts1. change (e_ts e2) with ts2.
  destruct (ts2 <? ts1) eqn:E; [apply Z.ltb_lt in E; lia|].
  done.
Qed.
(** what the store finds, the wire does not carry *)
Lemma two_read n b1 b2 s now b rq : 2097152 <= n ->
  unmarshal_send b1 = Some (mk_send false (Some [big_log 1 "a" n])) -> unmarshal_send b2 = Some (mk_send false (Some [big_log 2 "a" n])) ->
  node_run compile all_mine [CallSend 5 b1; CallSend 6 b2] (new_store 5) = Some s ->
  unmarshal_read b = Some rq -> rr_source rq = "a" -> rr_start rq <= 1 -> (rr_end rq = 0 /\ 2 < now) \/ 2 < rr_end rq -> rr_limit rq = 0 \/ 2 <= rr_limit rq <= 1000 ->
  rr_types rq = [] -> rr_name rq = "" ->
  local_read compile now rq s = ReadOk (if rr_desc rq then [big_log 2 "a" n; big_log 1 "a" n] else [big_log 1 "a" n; big_log 2 "a" n]) /\
  exists s', port_call compile all_mine (CallRead now b) s = Some (s', None).
Proof.
  intros Hn E1 E2 Hr Eb Hsrc Hst Hen Hlim Hty Hnm.
  destruct (two_held "a" 1 2 _ _ b1 b2 s ltac:(lia) ltac:(unfold in64; lia) ltac:(unfold in64; lia) E1 E2 Hr) as [Hi He].
  fold (big_log 1 "a" n) in He. fold (big_log 2 "a" n) in He.
  assert (Hacc : acceptable compile rq). { split; [lia|]. split; [lia|by left]. }
  assert (Hen' : enum_types (rr_types rq)). { rewrite Hty. intros t k Ht. by apply elem_of_nil in Ht. }
  rewrite <- Hsrc in He at 1. destruct (local_read_keyed compile now rq s _ Hi He Hacc Hen') as (q & all & Hq & Hw & Ha & El).
  destruct Hq as [Q1 [Q2 Q2'] [Q3 Q3'] Q4 [Q5 _]]. specialize (Q5 Hnm).
  assert (Hsel : forall ts, ts = 1 \/ ts = 2 -> selected q (big_log ts "a" n) (big_log ts "a" n)).
  { intros ts Hts. split; [|split].
    - cbn [e_ts big_log]. rewrite Q1. destruct (decide (rr_end rq = 0)) as [Z0|Z0]; [rewrite (Q2' Z0)|rewrite (Q2 Z0)]; lia.
    - rewrite Q5. constructor.
    - apply Hw. left. rewrite Hty. intros t Ht. by apply elem_of_nil in Ht. }
  assert (Hall : all = if rr_desc rq then [big_log 2 "a" n; big_log 1 "a" n] else [big_log 1 "a" n; big_log 2 "a" n]).
  { eapply answers_unique; [exact Ha|]. rewrite Q4. destruct (rr_desc rq); cbn [reverse rev_append]; repeat (apply ans_keep; [apply Hsel; lia|]); constructor. }
  assert (Hq2 : 2 <= q_limit q). { destruct (decide (rr_limit rq = 0)) as [Z0|Z0]; [rewrite (Q3' Z0); lia|rewrite (Q3 Z0); lia]. }
  rewrite (take_ge all) in El; [|rewrite Hall; destruct (rr_desc rq); cbn [length]; lia]. rewrite Hall in El. split; [done|].
  rewrite port_call_eq. case_decide as Hsm; [|by eexists]. cbn [node_call]. unfold node_read. rewrite Eb. rewrite Hsrc.
  change (read_route_of (alone all_mine "a") 1 0 0) with (Some (CallNode 0)). cbn [mbind option_bind]. rewrite El. cbn [mbind option_bind].
  set (es := if rr_desc rq then _ else _) in *. eexists. f_equal. f_equal.
  destruct (marshal_read_response (Some es)) as [r|] eqn:Er; [|done]. cbn [mbind option_bind]. apply decide_False. apply marshal_inv in Er as [_ ->].
  unfold takes, bytes. unfold enc_read_response, put_batch, put_msg. cbn [write_fields]. rewrite app_length. pose proof (field_at_least 1 (write_fields (enc_batch es))).
  pose proof (batch_at_least es) as Hb. pose proof (many_length "x" n ltac:(lia)) as Hx. unfold bytes in Hx.
  pose proof (log_at_least 1 "a" "" ∅ ∅ (many "x" n) false) as L1. pose proof (log_at_least 2 "a" "" ∅ ∅ (many "x" n) false) as L2.
  fold (big_log 1 "a" n) in L1. fold (big_log 2 "a" n) in L2. unfold es in Hb at 1.
  assert (Hsum : (2 * len (many "x" n) <= len (write_fields (enc_batch es)))%nat).
  { etransitivity; [|exact Hb]. destruct (rr_desc rq); cbn [fmap list_fmap list_sum foldr]; unfold compose; lia. }
  assert (len (many "x" n) >= 1)%nat by lia.
  assert (Hpos : (len (write_fields (enc_batch es)) + 2 <= len (write_field (1%Z, Bytes (write_fields (enc_batch es)))))%nat).
  { unfold write_field. cbn [fst snd write_wire]. rewrite !app_length. pose proof (write_varint_length (1 * 8 + wire_type (Bytes (write_fields (enc_batch es))))).
    pose proof (write_varint_length (Z.of_nat (len (write_fields (enc_batch es))))). lia. }
  lia.
Qed.
(** nor is the batch of both accepted *)
Lemma two_batch n b s now lo : 2097152 <= n -> marshal_send (mk_send lo (Some [big_log 1 "a" n; big_log 2 "a" n])) = Some b ->
  port_call compile all_mine (CallSend now b) s = Some (s, None).
Proof.
  intros Hn E. rewrite port_call_eq. rewrite decide_False; [done|]. apply marshal_inv in E as [_ ->]. cbn [small]. unfold takes, bytes, enc_send. cbn [sr_envelopes put_batch].
  rewrite write_fields_app, app_length. unfold put_msg. cbn [write_fields]. rewrite app_length. set (es := [big_log 1 "a" n; big_log 2 "a" n]).
  pose proof (batch_at_least es) as Hb. pose proof (many_length "x" n ltac:(lia)) as Hx. unfold bytes in Hx.
  pose proof (log_at_least 1 "a" "" ∅ ∅ (many "x" n) false) as L1. pose proof (log_at_least 2 "a" "" ∅ ∅ (many "x" n) false) as L2.
  fold (big_log 1 "a" n) in L1. fold (big_log 2 "a" n) in L2. unfold es in Hb at 1. cbn [fmap list_fmap list_sum foldr] in Hb. unfold compose in Hb.
  assert (Hpos : (len (write_fields (enc_batch es)) + 2 <= len (write_field (1%Z, Bytes (write_fields (enc_batch es)))))%nat).
  { unfold write_field. cbn [fst snd write_wire]. rewrite !app_length. pose proof (write_varint_length (1 * 8 + wire_type (Bytes (write_fields (enc_batch es))))).
    pose proof (write_varint_length (Z.of_nat (len (write_fields (enc_batch es))))). lia. }
  lia.
Qed.
(** ** Meta *)
Lemma sum_perm (l l' : list nat) : l ≡ₚ l' -> list_sum l = list_sum l'.
Proof. induction 1; cbn [list_sum foldr] in *; unfold list_sum in *; lia. Qed.
Lemma two_keys {A} (m : gmap string A) k1 k2 : k1 <> k2 -> is_Some (m !! k1) -> is_Some (m !! k2) -> (len k1 + len k2 <= list_sum (len ∘ fst <$> map_to_list m))%nat.
Proof.
  intros Hne [i1 H1] [i2 H2]. pose proof (map_to_list_delete m k1 i1 H1) as P1.
  assert (H2' : delete k1 m !! k2 = Some i2) by (by rewrite lookup_delete_ne).
  pose proof (map_to_list_delete (delete k1 m) k2 i2 H2') as P2. rewrite <- P2 in P1.
  rewrite <- (sum_perm _ _ (fmap_Permutation (len ∘ fst) _ _ P1)). cbn [fmap list_fmap list_sum foldr]. unfold compose at 1 2. cbn [fst]. lia.
Qed.
Lemma meta_large s b : 4194304 < Z.of_nat (list_sum (len ∘ fst <$> map_to_list (Store.Model.meta s))) -> port_call compile all_mine (CallMeta b) s = Some (s, None).
Proof.
  intros H. rewrite port_call_eq. case_decide; [|done]. cbn [node_call]. unfold node_meta. destruct (unmarshal_meta b); [|done]. cbn [mbind option_bind]. f_equal. f_equal.
  destruct (marshal_meta_response _) as [r|] eqn:E; [|done]. cbn [mbind option_bind]. apply decide_False. apply meta_at_least in E. unfold takes, bytes.
  rewrite map_to_list_fmap in E. rewrite <- list_fmap_compose in E.
  replace (list_sum ((len ∘ fst ∘ prod_map id to_info) <$> map_to_list (Store.Model.meta s))) with (list_sum (len ∘ fst <$> map_to_list (Store.Model.meta s))) in E; [lia|].
  f_equal.
Qed.
Lemma two_sources k1 k2 x1 x2 b1 b2 s : k1 <> k2 -> let e1 := mk_env 1 k1 "" ∅ ∅ x1 in let e2 := mk_env 2 k2 "" ∅ ∅ x2 in
  unmarshal_send b1 = Some (mk_send false (Some [e1])) -> unmarshal_send b2 = Some (mk_send false (Some [e2])) ->
  node_run compile all_mine [CallSend 5 b1; CallSend 6 b2] (new_store 5) = Some s -> is_Some (Store.Model.meta s !! k1) /\ is_Some (Store.Model.meta s !! k2).
Proof.
  intros Hne e1 e2 E1 E2 Hr.
  assert (G : forall k e, sent_for all_mine k [CallSend 5 b1; CallSend 6 b2] = [e] -> in64 (e_ts e) ->
    foldl (fun l c => foldl (keep 5) l (of_source k (brought all_mine c))) [] [CallSend 5 b1; CallSend 6 b2] = [e] -> is_Some (Store.Model.meta s !! k)).
  { intros k e Hs H64 Hf. destruct (node_held compile all_mine 5 k _ s ltac:(lia) Hr) as (Hi & _ & H). destruct H as (l & Hl & He & _).
    { rewrite Hs. split; [by apply Forall_singleton|apply NoDup_singleton]. }
    apply hold_calls in Hl; [|by repeat constructor; intros []]. rewrite Hf in Hl. subst l. unfold entries in He. unfold Store.Model.meta. rewrite lookup_fmap.
    destruct (st_index s !! k); [by eexists|done]. }
  assert (B : sent_for all_mine k1 [CallSend 5 b1; CallSend 6 b2] = [e1] /\ sent_for all_mine k2 [CallSend 5 b1; CallSend 6 b2] = [e2]).
  { unfold sent_for, brought_all. cbn [mbind list_bind]. rewrite (brought_one _ _ _ E1), (brought_one _ _ _ E2). cbn [app]. unfold of_source. rewrite !filter_cons, !filter_nil.
    change (e_source e1) with k1. change (e_source e2) with k2. rewrite (decide_True (P := k1 = k1)), (decide_True (P := k2 = k2)) by done.
    rewrite (decide_False (P := k2 = k1)), (decide_False (P := k1 = k2)) by done. done. }
  split; [apply (G k1 e1)|apply (G k2 e2)]; try apply B; try (unfold in64; cbn; lia); cbn [foldl]; rewrite (brought_one _ _ _ E1), (brought_one _ _ _ E2); unfold of_source; rewrite !filter_cons, !filter_nil;
    change (e_source e1) with k1; change (e_source e2) with k2.
  - rewrite (decide_True (P := k1 = k1)), (decide_False (P := k2 = k1)) by done. done.
  - rewrite (decide_True (P := k2 = k2)), (decide_False (P := k1 = k2)) by done. done.
Qed.
End Two.
Lemma node_exact_marshal compile mine m cs s now b rq : 1 <= m → node_run compile mine cs (new_store m) = Some s →
  unmarshal_read b = Some rq → mine (rr_source rq) = true → acceptable compile rq → enum_types (rr_types rq) →
  distinct_times (sent_for mine (rr_source rq) cs) →
  ∃ l q all s' b', may_hold mine m (rr_source rq) cs l ∧ resolved compile now rq q ∧
    (∀ e, wanted_type (q_types q) e ↔ requested_type (rr_types rq) e) ∧
    Store.Spec.answers q (if q_desc q then reverse l else l) all ∧
    node_call compile mine (CallRead now b) s = Some (s', Some b') ∧
    marshal_read_response (Some (take (Z.to_nat (q_limit q)) all)) = Some b' ∧
    (fits b' → unmarshal_read_response b' = Some (Some (take (Z.to_nat (q_limit q)) all))).
Proof.
  intros Hm Hr Eb Hmine Hacc Hen D. destruct (node_held compile mine m (rr_source rq) cs s Hm Hr) as (Hi & _ & H). destruct (H D) as (l & Hl & He & _).
  destruct (local_read_keyed compile now rq s l Hi He Hacc Hen) as (q & all & Hq & Hw & Ha & E).
  assert (Ec : node_call compile mine (CallRead now b) s =
    Some (add_egress (Z.of_nat (length (take (Z.to_nat (q_limit q)) all))) s, marshal_read_response (Some (take (Z.to_nat (q_limit q)) all)))).
  { cbn [node_call]. unfold node_read. rewrite Eb, route_alone, Hmine. cbn [mbind option_bind]. by rewrite E. }
  destruct (node_answer _ _ _ _ _ _ _ _ _ _ Hm Hr Eb Hmine Ec) as [[_ Hn]|(q' & es & b' & Eb' & _ & _ & _ & E2 & Hf)]; [done|].
  rewrite E in E2. injection E2 as <-. rewrite Eb' in Ec. exists l, q, all. eexists _, b'. done.
Qed.
