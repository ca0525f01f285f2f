(** Properties of the client library's Walk and Window (C42-C46), each followed by a case meeting its
    hypotheses.  Vocabulary: Client/WalkSpec.v, Store/Spec.v, Routing/Spec.v.  Programs: Client/Walk.v. *)
From stdpp Require Import prelude gmap strings list.
From Coq Require Import Sorted.
From Verif.Base Require Import GoInt Envelope.
From Verif.Store Require Import Model Spec Witness.
From Verif.Routing Require Import Model Spec.
From Verif.Client Require Import Walk WalkSpec WalkProofs WalkProofs2 WalkStore.
Open Scope Z_scope.

(** ** C42 *)
Lemma walk_sound {B} (bk : backoff B) b c reader visitor content horizon clock n evs out :
  ascending content -> Forall sane_time content -> not_after_end c (w_start c) ->
  serves c content horizon clock reader ->
  walk bk c reader visitor n b = (evs, out) ->
  ∃ rest, filter (in_window c) content = concat (deliveries evs) ++ rest ∧
    Forall (fun es => es ≠ []) (deliveries evs) ∧
    (out = WEndReached -> rest = []) ∧
    (out = WGaveUpEmpty ->
       Forall (fun e => wrap64 (clock (reads evs - 1)%nat - w_delay c) < e_ts e ∨
                        (w_end c = None ∧ horizon (reads evs - 1)%nat <= e_ts e)) rest).
Proof. intros H1 H2 H3 H4 H5. by apply (walk_loop_sound c reader content horizon clock H1 H2 H4 bk visitor n 0 b (w_start c) false [] evs out H3). Qed.

Theorem C42_walk_once_in_order : ∀ B (bk : backoff B) b c reader visitor content horizon clock n evs out,
  ascending content -> Forall sane_time content -> not_after_end c (w_start c) ->
  serves c content horizon clock reader ->
  walk bk c reader visitor n b = (evs, out) ->
  ∃ rest, filter (in_window c) content = concat (deliveries evs) ++ rest ∧
    Forall (fun es => es ≠ []) (deliveries evs) ∧
    (out = WEndReached -> rest = []) ∧
    (out = WGaveUpEmpty ->
       Forall (fun e => wrap64 (clock (reads evs - 1)%nat - w_delay c) < e_ts e ∨
                        (w_end c = None ∧ horizon (reads evs - 1)%nat <= e_ts e)) rest).
Proof. exact @walk_sound. Qed.
Print Assumptions C42_walk_once_in_order.

Lemma walk_complete c reader content horizon clock n :
  ascending content -> Forall sane_time content -> not_after_end c (w_start c) ->
  serves c content horizon clock reader ->
  (∀ i e, e ∈ filter (in_window c) content ->
     e_ts e <= wrap64 (clock i - w_delay c) ∧ (w_end c = None -> e_ts e < horizon i)) ->
  (length (filter (in_window c) content) < n)%nat ->
  concat (deliveries (walk always_done c reader (fun _ _ => true) n ()).1) = filter (in_window c) content ∧
  (walk always_done c reader (fun _ _ => true) n ()).2 ∈ [WGaveUpEmpty; WEndReached].
Proof.
  intros H1 H2 H3 H4 H5 H6.
  apply (walk_loop_complete c reader content horizon clock n H1 H2 H4 0 (w_start c) false [] H3 eq_refl); [|exact H6].
  intros j e He Ht. destruct (H5 j e He) as [Ha Hb]. destruct Ht as [Ht|[Hn Ht]]; [lia|]. specialize (Hb Hn). lia.
Qed.
Theorem C42_walk_complete : ∀ c reader content horizon clock n,
  ascending content -> Forall sane_time content -> not_after_end c (w_start c) ->
  serves c content horizon clock reader ->
  (∀ i e, e ∈ filter (in_window c) content ->
     e_ts e <= wrap64 (clock i - w_delay c) ∧ (w_end c = None -> e_ts e < horizon i)) ->
  (length (filter (in_window c) content) < n)%nat ->
  concat (deliveries (walk always_done c reader (fun _ _ => true) n ()).1) = filter (in_window c) content ∧
  (walk always_done c reader (fun _ _ => true) n ()).2 ∈ [WGaveUpEmpty; WEndReached].
Proof. exact walk_complete. Qed.
Print Assumptions C42_walk_complete.

Lemma walk_store compile node_clock clock m ops s src c q content n :
  1 <= m -> run (new_store m) ops = Some s ->
  (∀ x, Forall sane_time (puts_to x ops)) -> (∀ x, NoDup (e_ts <$> puts_to x ops)) ->
  walk_ok compile c -> wants compile c q -> answers q (stored s src).*2 content ->
  (∀ i e, e ∈ filter (in_window c) content ->
     e_ts e <= wrap64 (clock i - w_delay c) ∧ (w_end c = None -> e_ts e < node_clock i)) ->
  (length (filter (in_window c) content) < n)%nat ->
  concat (deliveries (walk always_done c (store_reader compile node_clock clock s src) (fun _ _ => true) n ()).1)
    = filter (in_window c) content ∧
  (walk always_done c (store_reader compile node_clock clock s src) (fun _ _ => true) n ()).2
    ∈ [WGaveUpEmpty; WEndReached].
Proof.
  intros H1 H2 H3 H4 H5 H6 H7 H8 H9.
  destruct (stored_ascending m ops s src H1 H2 H3 H4) as [Ha Hs].
  destruct (answers_ascending _ _ _ H7) as [Hc1 Hc2].
  apply (walk_complete c _ content node_clock clock); auto.
  - apply Forall_forall. intros e He. destruct (Hc1 e He) as (e0 & He0 & Ets).
    rewrite Forall_forall in Hs. specialize (Hs e0 He0). unfold sane_time in *. by rewrite Ets.
  - apply H5.
  - by eapply store_serves.
Qed.
Theorem C42_walk_store : ∀ compile node_clock clock m ops s src c q content n,
  1 <= m -> run (new_store m) ops = Some s ->
  (∀ x, Forall sane_time (puts_to x ops)) -> (∀ x, NoDup (e_ts <$> puts_to x ops)) ->
  walk_ok compile c -> wants compile c q -> answers q (stored s src).*2 content ->
  (∀ i e, e ∈ filter (in_window c) content ->
     e_ts e <= wrap64 (clock i - w_delay c) ∧ (w_end c = None -> e_ts e < node_clock i)) ->
  (length (filter (in_window c) content) < n)%nat ->
  concat (deliveries (walk always_done c (store_reader compile node_clock clock s src) (fun _ _ => true) n ()).1)
    = filter (in_window c) content ∧
  (walk always_done c (store_reader compile node_clock clock s src) (fun _ _ => true) n ()).2
    ∈ [WGaveUpEmpty; WEndReached].
Proof. exact walk_store. Qed.
Print Assumptions C42_walk_store.

Definition no_regexp (_ : string) : option (string -> bool) := None.
Definition five : list op := [putA 9; putA 3; putA 7; putA 5; putA 1].
Definition walk5 : walk_config := mk_walk 2 (Some 9) (Some 2) None 10 "".
Example C42_example :
  (∀ x, Forall sane_time (puts_to x five)) ∧ (∀ x, NoDup (e_ts <$> puts_to x five)) ∧
  walk_ok no_regexp walk5 ∧
  match run (new_store 5) five with
  | Some s =>
      let '(evs, out) := walk always_done walk5 (store_reader no_regexp (fun _ => 1000) (fun _ => 1000) s "a") (fun _ _ => true) 4 () in
      (map e_ts <$> deliveries evs) = [[3; 5]; [7]] ∧ reads evs = 3%nat ∧ out = WGaveUpEmpty
  | None => False end.
Proof.
  split; [|split; [|split]].
  - intros x. unfold puts_to. simpl. case_decide; repeat constructor; unfold sane_time, in64; simpl; lia.
  - intros x. unfold puts_to. simpl. case_decide; [|constructor]. simpl.
    repeat (apply NoDup_cons_2; [rewrite ?elem_of_cons, elem_of_nil; lia|]). constructor.
  - unfold walk_ok; simpl. split; [lia|]. split; [congruence|]. split; [unfold not_after_end; simpl; lia|].
    split; [intros t n Ht; by apply elem_of_nil in Ht|by left].
  - vm_compute. done.
Qed.

(** ** C43 *)
Lemma walk_orderly {B} (bk : backoff B) b c reader visitor n evs out :
  orderly reader -> walk bk c reader visitor n b = (evs, out) ->
  Forall (in_window c) (concat (deliveries evs)) ∧
  time_sorted (concat (deliveries evs)) ∧
  Forall (fun es => es ≠ []) (deliveries evs) ∧
  (∀ pre es mid es' post, deliveries evs = pre ++ es :: mid ++ es' :: post ->
     ∀ e e', e ∈ es -> e' ∈ es' -> e_ts e < e_ts e') ∧
  (∀ pre r post, evs = pre ++ EvRead r :: post ->
     r = read_of c (resume (w_start c) (concat (deliveries pre)))).
Proof.
  intros Ho E. destruct (walk_loop_orderly bk c reader visitor Ho n 0 b (w_start c) false [] evs out E) as (H1 & H2 & H3 & H4).
  split; [exact H1|]. split; [exact H2|]. split; [|done].
  destruct (walk_loop_any bk c reader visitor n 0 b (w_start c) false [] evs out E) as (H & _).
  eapply Forall_impl; [exact H|]. intros es (l & Hl & _) ->. discriminate Hl.
Qed.
Theorem C43_walk_window : ∀ B (bk : backoff B) b c reader visitor n evs out,
  orderly reader -> walk bk c reader visitor n b = (evs, out) ->
  Forall (in_window c) (concat (deliveries evs)) ∧
  time_sorted (concat (deliveries evs)) ∧
  Forall (fun es => es ≠ []) (deliveries evs) ∧
  (∀ pre es mid es' post, deliveries evs = pre ++ es :: mid ++ es' :: post ->
     ∀ e e', e ∈ es -> e' ∈ es' -> e_ts e < e_ts e') ∧
  (∀ pre r post, evs = pre ++ EvRead r :: post ->
     r = read_of c (resume (w_start c) (concat (deliveries pre)))).
Proof. exact @walk_orderly. Qed.
Print Assumptions C43_walk_window.

Lemma walk_any {B} (bk : backoff B) b c reader visitor n evs out :
  walk bk c reader visitor n b = (evs, out) ->
  Forall (fun es => ∃ l, last es = Some l ∧ match w_end c with Some t => e_ts l < t | None => True end) (deliveries evs) ∧
  (reads evs <= n)%nat ∧ (out = WRunning -> reads evs = n) ∧
  (length (deliveries evs) <= reads evs)%nat.
Proof. apply walk_loop_any. Qed.
(** Whatever the reader returns: no empty batch, and each batch ends before the end time. *)
Theorem C43_any_reader : ∀ B (bk : backoff B) b c reader visitor n evs out,
  walk bk c reader visitor n b = (evs, out) ->
  Forall (fun es => ∃ l, last es = Some l ∧ match w_end c with Some t => e_ts l < t | None => True end) (deliveries evs) ∧
  (reads evs <= n)%nat ∧ (out = WRunning -> reads evs = n) ∧
  (length (deliveries evs) <= reads evs)%nat.
Proof. exact @walk_any. Qed.
Print Assumptions C43_any_reader.

(** an orderly reader with errors and envelopes from beyond the end and from the future *)
Definition fickle (i : nat) (r : walk_read) : answer :=
  mk_answer
    (match i with
     | O => Some (filter (fun e => wr_start r <= e_ts e) [log_at 10 "0"; log_at 11 "0"; log_at 5000 "0"])
     | S O => None
     | _ => Some (filter (fun e => wr_start r <= e_ts e) [log_at 11 "2"; log_at 13 "0"; log_at 13 "1"; log_at 2005 "0"])
     end) false 4000.
Definition walkf : walk_config := mk_walk 10 (Some 14) None (Some [T_LOG]) 1000 "".
Example C43_example :
  orderly fickle ∧
  let '(evs, out) := walk always_retry walkf fickle (fun _ _ => true) 6 () in
  (map e_ts <$> deliveries evs) = [[10; 11]; [13; 13]] ∧ reads evs = 3%nat ∧ out = WEndReached.
Proof.
  split; [|vm_compute; done].
  intros i r es. destruct i as [|[|i]]; simpl; [|done|]; intros [= <-]; rewrite !filter_cons;
    repeat case_decide; simpl in *; repeat split; repeat constructor; simpl; unfold sane_time, in64; simpl; try lia.
Qed.
(** an answer in the wrong order does bring an envelope from beyond the end *)
Example C43_disorder :
  let rd := fun (_ : nat) (_ : walk_read) => mk_answer (Some [log_at 25 "0"; log_at 12 "0"]) false 4000 in
  deliveries (walk always_done walkf rd (fun _ _ => true) 1 ()).1 = [[log_at 25 "0"; log_at 12 "0"]].
Proof. vm_compute. done. Qed.

(** ** C44 (refuted: the limit splits a group of equal timestamps and the rest of the group is skipped;
    what does hold is C42_walk_store) *)
Definition split_group : list op := putA <$> [1; 2; 2; 4; 9].
Definition walk10 : walk_config := mk_walk 0 (Some 10) (Some 2) None 10 "".
Lemma walk_loses :
  ∃ m ops s src c n evs,
    1 <= m ∧ uncrowded m ops ∧ run (new_store m) ops = Some s ∧ walk_ok no_regexp c ∧
    time_sorted (stored s src).*2 ∧
    (∀ e, e ∈ (stored s src).*2 -> in_window c e ∧ e_ts e <= 1000 - w_delay c) ∧
    walk always_done c (store_reader no_regexp (fun _ => 1000) (fun _ => 1000) s src) (fun _ _ => true) n () = (evs, WEndReached) ∧
    (length (concat (deliveries evs)) < length (stored s src))%nat.
Proof.
  assert (H : (match run (new_store 10) split_group with
     | Some s =>
         let '(evs, out) := walk always_done walk10 (store_reader no_regexp (fun _ => 1000) (fun _ => 1000) s "a") (fun _ _ => true) 9 () in
         (match out with WEndReached => true | _ => false end) &&
         bool_decide ((stored s "a").*2 = [log_at 1 "0"; log_at 2 "0"; log_at 2 "0"; log_at 4 "0"; log_at 9 "0"]) &&
         bool_decide (length (concat (deliveries evs)) < 5)%nat
     | None => false end) = true) by (vm_compute; reflexivity).
  apply opt_witness in H as (s & Hs & H).
  destruct (walk always_done walk10 (store_reader no_regexp (fun _ => 1000) (fun _ => 1000) s "a") (fun _ _ => true) 9 ()) as [evs out] eqn:E.
  apply andb_prop in H as [H H3]. apply andb_prop in H as [H1 H2].
  apply bool_decide_eq_true in H2, H3. destruct out; try discriminate H1.
  exists 10, split_group, s, "a", walk10, 9%nat, evs.
  split; [lia|]. split; [left; lia|]. split; [exact Hs|]. split.
  { unfold walk_ok; simpl. split; [lia|]. split; [congruence|]. split; [unfold not_after_end; simpl; lia|].
    split; [intros t n Ht; by apply elem_of_nil in Ht|by left]. }
  rewrite H2. clear Hs. split; [simpl; repeat split; repeat constructor; simpl; lia|]. split.
  { intros e He. unfold in_window; simpl.
    repeat (apply elem_of_cons in He as [->|He]; [simpl; lia|]). by apply elem_of_nil in He. }
  split; [exact E|]. apply (f_equal length) in H2. rewrite fmap_length in H2. rewrite H2. exact H3.
Qed.
Theorem C44_walk_loses_refuted :
  ∃ m ops s src c n evs,
    1 <= m ∧ uncrowded m ops ∧ run (new_store m) ops = Some s ∧ walk_ok no_regexp c ∧
    time_sorted (stored s src).*2 ∧
    (∀ e, e ∈ (stored s src).*2 -> in_window c e ∧ e_ts e <= 1000 - w_delay c) ∧
    walk always_done c (store_reader no_regexp (fun _ => 1000) (fun _ => 1000) s src) (fun _ _ => true) n () = (evs, WEndReached) ∧
    (length (concat (deliveries evs)) < length (stored s src))%nat.
Proof. exact walk_loses. Qed.
Print Assumptions C44_walk_loses_refuted.

(** ** C45 *)
(** [fruitless evs] counts the reads since the last delivery.  A retrying back-off lets the walk go on
    exactly while there are fewer than max 1 maxCount of them. *)
Theorem C45_retry_bound : ∀ m c reader visitor n evs out,
  walk (retry_backoff m false) c reader visitor n 0 = (evs, out) ->
  (out = WRunning -> Z.of_nat (fruitless evs) < Z.max 1 m) ∧
  (out ∈ [WGaveUpErr; WGaveUpEmpty] -> Z.of_nat (fruitless evs) = Z.max 1 m).
Proof. intros m c reader visitor n evs out E. by apply (walk_loop_retry m c reader visitor n 0 0 (w_start c) false [] evs out 0 E); [|lia]. Qed.
Print Assumptions C45_retry_bound.
Theorem C45_retry_on_error_bound : ∀ m c reader visitor n evs out,
  walk (retry_backoff m true) c reader visitor n 0 = (evs, out) ->
  Z.of_nat (fruitless evs) <= Z.max 1 m ∧
  (out = WRunning -> Z.of_nat (fruitless evs) < Z.max 1 m) ∧
  (out = WGaveUpErr -> Z.of_nat (fruitless evs) = Z.max 1 m).
Proof. intros m c reader visitor n evs out E. by apply (walk_loop_retry_err m c reader visitor n 0 0 (w_start c) false [] evs out 0 E); [|lia]. Qed.
Print Assumptions C45_retry_on_error_bound.
Theorem C45_always_done : ∀ c reader visitor n evs out,
  walk always_done c reader visitor n () = (evs, out) ->
  (fruitless evs <= 1)%nat ∧ (out = WRunning -> fruitless evs = 0%nat) ∧
  (out ∈ [WGaveUpErr; WGaveUpEmpty] -> fruitless evs = 1%nat).
Proof. intros c reader visitor n evs out E. exact (walk_loop_done c reader visitor n 0 (w_start c) false [] evs out E). Qed.
Print Assumptions C45_always_done.
Example C45_example :
  let '(evs, out) := walk (retry_backoff 3 false) default_walk (fun _ _ => mk_answer None false 0) (fun _ _ => true) 9 0 in
  reads evs = 3%nat ∧ out = WGaveUpErr.
Proof. vm_compute. done. Qed.

(** ** C46 *)
Lemma windows walker visitor width interval now start n l r :
  window walker visitor width interval now start n = (l, r) ->
  let s0 := match start with Some t => t | None => now - width end in
  (∀ k a b es, l !! k = Some (a, b, es) ->
     a = s0 + Z.of_nat k * interval ∧ b = a + width ∧ es = walker k a b) ∧
  (length l <= n)%nat ∧ (r = true -> length l = n) ∧
  (0 < interval -> ∀ t, s0 <= t < s0 + Z.of_nat (length l) * interval ->
     (interval <= width -> ∃ k a b es, l !! k = Some (a, b, es) ∧ a <= t < b) ∧
     (width <= interval -> ∀ k a b es k' a' b' es', l !! k = Some (a, b, es) -> l !! k' = Some (a', b', es') ->
        a <= t < b -> a' <= t < b' -> k = k')).
Proof.
  intros E s0. unfold window in E. fold s0 in E.
  destruct (window_loop_spec walker visitor width interval n 0 s0 l r E) as (H1 & H2 & H3 & _).
  assert (H1' : ∀ k a b es, l !! k = Some (a, b, es) ->
     a = s0 + Z.of_nat k * interval ∧ b = a + width ∧ es = walker k a b).
  { intros k a b es Hk. destruct (H1 k a b es Hk) as (? & ? & ? & _). done. }
  split; [exact H1'|]. split; [done|]. split; [done|].
  intros Hi t Ht. split.
  - intros Hw. set (k := Z.to_nat ((t - s0) / interval)).
    assert (Hk : Z.of_nat k = (t - s0) / interval).
    { unfold k. rewrite Z2Nat.id; [done|]. apply Z.div_pos; lia. }
    assert (Hlt : (k < length l)%nat).
    { apply Nat2Z.inj_lt. rewrite Hk. apply Z.div_lt_upper_bound; lia. }
    destruct (lookup_lt_is_Some_2 _ _ Hlt) as [[[a b] es] Hl]. exists k, a, b, es. split; [done|].
    destruct (H1' k a b es Hl) as (-> & -> & _). rewrite Hk.
    pose proof (Z.div_mod (t - s0) interval ltac:(lia)). pose proof (Z.mod_pos_bound (t - s0) interval Hi). lia.
  - intros Hw k a b es k' a' b' es' Hk Hk' Hta Hta'.
    destruct (H1' _ _ _ _ Hk) as (-> & -> & _). destruct (H1' _ _ _ _ Hk') as (-> & -> & _).
    destruct (Z.lt_trichotomy (Z.of_nat k) (Z.of_nat k')) as [Hc|[Hc|Hc]]; [|lia|].
    + exfalso. assert ((Z.of_nat k + 1) * interval <= Z.of_nat k' * interval) by (apply Z.mul_le_mono_nonneg_r; lia). lia.
    + exfalso. assert ((Z.of_nat k' + 1) * interval <= Z.of_nat k * interval) by (apply Z.mul_le_mono_nonneg_r; lia). lia.
Qed.
Theorem C46_windows : ∀ walker visitor width interval now start n l r,
  window walker visitor width interval now start n = (l, r) ->
  let s0 := match start with Some t => t | None => now - width end in
  (∀ k a b es, l !! k = Some (a, b, es) ->
     a = s0 + Z.of_nat k * interval ∧ b = a + width ∧ es = walker k a b) ∧
  (length l <= n)%nat ∧ (r = true -> length l = n) ∧
  (0 < interval -> ∀ t, s0 <= t < s0 + Z.of_nat (length l) * interval ->
     (interval <= width -> ∃ k a b es, l !! k = Some (a, b, es) ∧ a <= t < b) ∧
     (width <= interval -> ∀ k a b es k' a' b' es', l !! k = Some (a, b, es) -> l !! k' = Some (a', b', es') ->
        a <= t < b -> a' <= t < b' -> k = k')).
Proof. exact windows. Qed.
Print Assumptions C46_windows.

(** With BuildWalker over unchanging sources every window is handed over completely. *)
Lemma window_contents readers contents horizon clock visitor width interval now start n nreads l r :
  let walker := fun i => build_walker (readers i) nreads in
  window walker visitor width interval now start n = (l, r) -> 0 <= width ->
  (∀ i, ascending (contents i) ∧ Forall sane_time (contents i) ∧ (length (contents i) < nreads)%nat) ->
  (∀ i a b, serves (mk_walk a (Some b) None None 1000000000 "") (contents i) (horizon i) (clock i) (readers i)) ->
  (∀ i j e, e ∈ contents i -> e_ts e <= wrap64 (clock i j - 1000000000)) ->
  ∀ k a b es, l !! k = Some (a, b, es) -> es = filter (fun e => a <= e_ts e < b) (contents k).
Proof.
  intros walker E Hw Hc Hs Hold k a b es Hk.
  destruct (windows _ _ _ _ _ _ _ _ _ E) as (H1 & _).
  destruct (H1 k a b es Hk) as (Ea & Eb & ->). unfold walker, build_walker.
  destruct (Hc k) as (Ha & Hsane & Hn).
  destruct (walk_complete (mk_walk a (Some b) None None 1000000000 "") (readers k) (contents k) (horizon k) (clock k) nreads) as [H _].
  - done.
  - done.
  - unfold not_after_end. simpl. lia.
  - apply Hs.
  - intros i e He. simpl. split; [|done]. apply Hold. by apply elem_of_list_filter in He as [_ ?].
  - eapply Nat.le_lt_trans; [apply filter_length|exact Hn].
  - rewrite H. apply list_filter_iff. intros e. unfold in_window. simpl. done.
Qed.
Theorem C46_window_contents : ∀ readers contents horizon clock visitor width interval now start n nreads l r,
  let walker := fun i => build_walker (readers i) nreads in
  window walker visitor width interval now start n = (l, r) -> 0 <= width ->
  (∀ i, ascending (contents i) ∧ Forall sane_time (contents i) ∧ (length (contents i) < nreads)%nat) ->
  (∀ i a b, serves (mk_walk a (Some b) None None 1000000000 "") (contents i) (horizon i) (clock i) (readers i)) ->
  (∀ i j e, e ∈ contents i -> e_ts e <= wrap64 (clock i j - 1000000000)) ->
  ∀ k a b es, l !! k = Some (a, b, es) -> es = filter (fun e => a <= e_ts e < b) (contents k).
Proof. exact window_contents. Qed.
Print Assumptions C46_window_contents.
Example C46_example :
  match run (new_store 5) five with
  | Some s =>
      let w := fun i => build_walker (store_reader no_regexp (fun _ => 2000000000) (fun _ => 2000000000) s "a") 9 in
      let '(l, r) := Walk.window w (fun _ _ => true) 4 4 12 None 2 in
      map (fun p : Z * Z * list envelope => (p.1.1, p.1.2, map e_ts p.2)) l = [(8, 12, [9]); (12, 16, [])] ∧ r = true
  | None => False end.
Proof. vm_compute. done. Qed.
