(** Properties of the single-node store (C01-C19), each followed by a case meeting its hypotheses.
    Vocabulary: Store/Spec.v.  Programs: Store/Model.v. *)
From stdpp Require Import prelude gmap strings.
From Coq Require Import Sorted.
From Verif.Base Require Import GoInt Envelope.
From Verif.Store Require Import Avl AvlProofs Model Spec Witness.
From Verif.Store Require Import ProofsAcct ProofsGet ProofsOrder ProofsFinal Refuted ProofsLimit.
Open Scope Z_scope.

(** The history used as the non-trivial case: two sources, an eviction, equal timestamps, a
    truncation, a Get and a Meta. *)
Example small_history_meets_hypotheses :
  uncrowded 3 small_history ∧ Forall op_ok small_history ∧ Z.of_nat (length small_history) < 2^63 ∧
  (match run (new_store 3) small_history with
   | Some s => (stored s "a").*1 = [7; 9; 12] ∧ st_expired s = 3
   | None => False end).
Proof. split; [left; lia|]. split; [repeat constructor|]. split; [simpl; lia|]. vm_compute. done. Qed.

(** C01 *)
Theorem C01_capacity : ∀ m ops s src,
  1 <= m -> run (new_store m) ops = Some s ->
  Z.of_nat (length (stored s src)) <= m ∧
  ∀ mi, meta s !! src = Some mi -> m_count mi = Z.of_nat (length (stored s src)).
Proof. exact capacity. Qed.
Print Assumptions C01_capacity.

(** C02 *)
Theorem C02_isolation : ∀ e src now s s' src' q,
  put_env e src now s = Some s' -> src' ≠ src ->
  get_env src' q s' = get_env src' q s ∧ meta s' !! src' = meta s !! src'.
Proof. exact isolation. Qed.
Print Assumptions C02_isolation.
Example C02_example :
  match run (new_store 3) small_history with
  | Some s => match put_env (log_at 6 "z") "b" 7 s with
              | Some s' => (stored s' "a").*1 = [7; 9; 12] ∧ (stored s "b").*1 = [] ∧ (stored s' "b").*1 = [6]
              | None => False end
  | None => False end.
Proof. vm_compute. done. Qed.

(** C03 *)
Theorem C03_put : ∀ m ops s e src now,
  1 <= m -> run (new_store m) ops = Some s -> room s src e ->
  ∃ s' f, put_env e src now s = Some s' ∧ 0 <= f < 4000 ∧
    let k := wrap64 (e_ts e + f) in
    let kept := if m <=? Z.of_nat (length (stored s src)) then tail (stored s src) else stored s src in
    k ∉ kept.*1 ∧ (∀ i, 0 <= i < f -> wrap64 (e_ts e + i) ∈ kept.*1) ∧
    stored s' src ≡ₚ (k, e) :: kept ∧ key_sorted (stored s' src) ∧ key_sorted (stored s src) ∧
    ∀ src', src' ≠ src -> stored s' src' = stored s src'.
Proof. exact put_stores. Qed.
Print Assumptions C03_put.
Example C03_example :
  match run (new_store 3) small_history with
  | Some s => (kept_on_put s "a").*1 = [9; 12] ∧ wrap64 (9 + 1) = 10 ∧ length (stored s "a") = 3%nat
  | None => False end.
Proof. vm_compute. done. Qed.

(** C04 (refuted: the 4002nd envelope around one timestamp overwrites another) *)
Theorem C04_write_destroys_refuted :
  ∃ m ops s e src now s' x,
    run (new_store m) ops = Some s ∧ Z.of_nat (length (stored s src)) < m ∧
    put_env e src now s = Some s' ∧ x ∈ stored s src ∧ x ∉ stored s' src.
Proof. exact write_destroys. Qed.
Print Assumptions C04_write_destroys_refuted.

(** C05 *)
Theorem C05_get_sound : ∀ src q s res,
  get_env src q s = Some res ->
  ∃ sub, sublist sub (if q_desc q then reverse (stored s src) else stored s src) ∧
         Forall2 (fun p e' => selected q p.2 e') sub res.
Proof. exact get_sound. Qed.
Print Assumptions C05_get_sound.
Example C05_example :
  match run (new_store 3) small_history with
  | Some s => match get_env "a" (mk_query 8 13 (Some [T_LOG]) None 10 true) s with
              | Some res => e_ts <$> res = [12; 9] | None => False end
  | None => False end.
Proof. vm_compute. done. Qed.

(** C06 *)
Theorem C06_get_exact : ∀ m ops s src q res,
  1 <= m -> run (new_store m) ops = Some s ->
  (∀ x, Forall (fun e => in64 (e_ts e)) (puts_to x ops)) ->
  (∀ x, NoDup (e_ts <$> puts_to x ops)) ->
  known_types (q_types q) -> 1 <= q_limit q -> get_env src q s = Some res ->
  ∃ all, answers q (if q_desc q then reverse (stored s src).*2 else (stored s src).*2) all ∧
         res = take (Z.to_nat (q_limit q)) all.
Proof. exact get_exact_answers. Qed.
Print Assumptions C06_get_exact.
Example C06_example :
  let ops := [putA 9; putA 3; putA 7; putA 5; putA 1] in
  (∀ x, Forall (fun e => in64 (e_ts e)) (puts_to x ops)) ∧ (∀ x, NoDup (e_ts <$> puts_to x ops)) ∧
  match run (new_store 4) ops with
  | Some s => match get_env "a" (mk_query 3 9 None None 2 true) s with
              | Some res => e_ts <$> res = [7; 5] | None => False end
  | None => False end.
Proof.
  split; [|split].
  - intros x. unfold puts_to. simpl. case_decide; repeat constructor; unfold in64; simpl; lia.
  - intros x. unfold puts_to. simpl. case_decide; [|constructor]. simpl.
    repeat (apply NoDup_cons_2; [rewrite ?elem_of_cons, elem_of_nil; lia|]). constructor.
  - vm_compute. done.
Qed.

(** C07 *)
Theorem C07_get_prefix : ∀ src q s res,
  time_sorted (stored s src).*2 -> known_types (q_types q) -> get_env src q s = Some res ->
  ∃ rest, answers q (if q_desc q then reverse (stored s src).*2 else (stored s src).*2) (res ++ rest) ∧
    (rest = [] ∨ q_limit q <= Z.of_nat (length res)).
Proof. exact get_prefix_answers. Qed.
Print Assumptions C07_get_prefix.
Example C07_example :
  match run (new_store 10) (putA <$> [1; 1; 1; 2; 3]) with
  | Some s => e_ts <$> (stored s "a").*2 = [1; 1; 1; 2; 3] ∧
              match get_env "a" (window 0 100 1) s with Some res => e_ts <$> res = [1] | None => False end
  | None => False end.
Proof. vm_compute. done. Qed.

(** C08 (refuted: overlapping runs of equal timestamps hide a later envelope) *)
Theorem C08_get_misses_refuted :
  ∃ m ops s src q res k e,
    1 <= m ∧ uncrowded m ops ∧ run (new_store m) ops = Some s ∧
    q_types q = None ∧ q_name q = None ∧ q_desc q = false ∧
    Z.of_nat (length (stored s src)) < q_limit q ∧
    get_env src q s = Some res ∧
    (k, e) ∈ stored s src ∧ q_start q <= e_ts e < q_end q ∧ e ∉ res.
Proof. exact get_misses. Qed.
Print Assumptions C08_get_misses_refuted.

(** C09 (refuted: limit 1 on timestamps 1,1,1,2,3 returns one of the three) *)
Theorem C09_limit_splits_group_refuted :
  ∃ m ops s src q res e' k e,
    1 <= m ∧ uncrowded m ops ∧ run (new_store m) ops = Some s ∧
    time_sorted (stored s src).*2 ∧
    q_types q = None ∧ q_name q = None ∧ q_desc q = false ∧
    get_env src q s = Some res ∧ last res = Some e' ∧
    (k, e) ∈ stored s src ∧ q_start q <= e_ts e < q_end q ∧ e_ts e = e_ts e' ∧ e ∉ res.
Proof. exact limit_splits_group. Qed.
Print Assumptions C09_limit_splits_group_refuted.

(** C10 *)
Theorem C10_name_filter_sound : ∀ src q m s res,
  q_name q = Some m -> get_env src q s = Some res ->
  ∀ e', e' ∈ res -> ∃ k e, (k, e) ∈ stored s src ∧ projects (Some m) e e'.
Proof. exact name_filter_sound. Qed.
Print Assumptions C10_name_filter_sound.

Theorem C10_name_filter_exact : ∀ src q s res,
  time_sorted (stored s src).*2 -> known_types (q_types q) ->
  Z.of_nat (length (stored s src)) < q_limit q -> get_env src q s = Some res ->
  ∀ e', e' ∈ res ↔ ∃ k e, (k, e) ∈ stored s src ∧ selected q e e'.
Proof. exact name_filter_exact. Qed.
Print Assumptions C10_name_filter_exact.
Example C10_example :
  let g := mk_env 2 "a" "" ∅ ∅ (MGauge (<["cpu" := mk_gv "%" 1]> (<["mem" := mk_gv "b" 2]> ∅))) in
  let c := mk_env 3 "a" "" ∅ ∅ (MCounter "hits" 1 1) in
  match run (new_store 10) [putA 1; OPut g "a" 5; OPut c "a" 5] with
  | Some s => e_ts <$> (stored s "a").*2 = [1; 2; 3] ∧
      get_env "a" (mk_query 0 10 None (Some (String.eqb "cpu")) 10 false) s =
      Some [mk_env 2 "a" "" ∅ ∅ (MGauge (<["cpu" := mk_gv "%" 1]> ∅))]
  | None => False end.
Proof. vm_compute. done. Qed.

(** C11 *)
Theorem C11_truncation : ∀ m ops s q pri now,
  1 <= m -> uncrowded m ops -> Forall op_ok ops -> Z.of_nat (length ops) < 2^63 ->
  run (new_store m) ops = Some s ->
  ∃ s' removed, truncate q pri now s = Some s' ∧
    all_stored s ≡ₚ removed ++ all_stored s' ∧
    Z.of_nat (length removed) = Z.max 0 (Z.min q (Z.of_nat (length (all_stored s)))) ∧
    (∀ x y, x ∈ removed -> y ∈ all_stored s' -> x.2.1 <= y.2.1) ∧
    (∀ src, ∃ r, stored s src = r ++ stored s' src) ∧
    (∀ src, known s' src ↔ stored s' src ≠ []).
Proof. exact truncation. Qed.
Print Assumptions C11_truncation.

(** C12 *)
Theorem C12_size_exact : ∀ m ops s,
  1 <= m -> uncrowded m ops -> Forall op_ok ops -> Z.of_nat (length ops) < 2^63 ->
  run (new_store m) ops = Some s ->
  st_size s = Z.of_nat (length (all_stored s)) ∧ st_count s = Z.of_nat (length (all_stored s)).
Proof. exact size_exact. Qed.
Print Assumptions C12_size_exact.

(** C13 (refuted) *)
Theorem C13_size_drifts_refuted :
  ∃ m ops s, 1 <= m ∧ Forall op_ok ops ∧ run (new_store m) ops = Some s ∧
    st_size s ≠ Z.of_nat (length (all_stored s)).
Proof. exact size_drifts. Qed.
Print Assumptions C13_size_drifts_refuted.

(** C14 *)
Theorem C14_meta : ∀ m ops s g src,
  1 <= m -> uncrowded m ops -> Forall op_ok ops -> Z.of_nat (length ops) < 2^63 ->
  run_written (new_store m) (fun _ => []) ops = Some (s, g) ->
  match meta s !! src with
  | None => stored s src = [] ∧ g src = []
  | Some mi =>
      m_count mi = Z.of_nat (length (stored s src)) ∧
      (∃ e l, stored s src = (m_oldest mi, e) :: l) ∧
      m_newest mi = newest_of (g src) ∧
      m_count mi + m_expired mi = Z.of_nat (length (g src))
  end.
Proof. exact meta_accounting. Qed.
Print Assumptions C14_meta.
Example C14_example :
  match run_written (new_store 3) (fun _ => []) small_history with
  | Some (s, g) => meta s !! "a" = Some (mk_meta 3 2 7 12) ∧ length (g "a") = 5%nat ∧ meta s !! "b" = None
  | None => False end.
Proof. vm_compute. done. Qed.

(** C15 *)
Theorem C15_no_panic : ∀ m ops,
  1 <= m -> uncrowded m ops -> Forall op_ok ops -> Z.of_nat (length ops) < 2^63 ->
  ∃ s, run (new_store m) ops = Some s.
Proof. exact no_panic. Qed.
Print Assumptions C15_no_panic.

(** C16 (refuted, three ways) *)
Theorem C16_truncate_panics_refuted :
  ∃ m ops, 1 <= m ∧ Forall op_ok ops ∧ run (new_store m) ops = None.
Proof. exact truncate_panics. Qed.
Print Assumptions C16_truncate_panics_refuted.
Theorem C16_zero_limit_panics_refuted : ∀ e src now, put_env e src now (new_store 0) = None.
Proof. exact zero_limit_panics. Qed.
Print Assumptions C16_zero_limit_panics_refuted.
Theorem C16_unknown_type_panics_refuted :
  ∃ m ops s src q, 1 <= m ∧ run (new_store m) ops = Some s ∧ get_env src q s = None.
Proof. exact unknown_type_panics. Qed.
Print Assumptions C16_unknown_type_panics_refuted.

(** C17 (refuted, and what does hold) *)
Theorem C17_clock_skips_oldest_refuted :
  ∃ m ops s src k e,
    1 <= m ∧ uncrowded m ops ∧ (∃ q pri now, last ops = Some (OTruncate q pri now) ∧ q ≠ 0) ∧
    run (new_store m) ops = Some s ∧ (src, (k, e)) ∈ all_stored s ∧ k < st_oldest s.
Proof. exact clock_skips_oldest. Qed.
Print Assumptions C17_clock_skips_oldest_refuted.
Theorem C17_clock_is_some_oldest_partial : ∀ m ops s q pri now s',
  1 <= m -> uncrowded m ops -> Forall op_ok ops -> Z.of_nat (length ops) < 2^63 ->
  run (new_store m) ops = Some s -> q ≠ 0 -> truncate q pri now s = Some s' -> all_stored s' ≠ [] ->
  ∃ src e l, stored s' src = (st_oldest s', e) :: l.
Proof. exact clock_is_some_oldest. Qed.
Print Assumptions C17_clock_is_some_oldest_partial.

(** C18 *)
Theorem C18_conservation : ∀ m ops s,
  1 <= m -> uncrowded m ops -> Forall op_ok ops -> Z.of_nat (length ops) < 2^63 ->
  run (new_store m) ops = Some s ->
  Z.of_nat (length (filter (fun o => is_put o = true) ops)) =
    Z.of_nat (length (all_stored s)) + st_expired s ∧
  st_ingress s = Z.of_nat (length (all_stored s)) + st_expired s.
Proof. exact conservation. Qed.
Print Assumptions C18_conservation.

(** C19 *)
Theorem C19_index : ∀ (V : Type) (ops : list (tree_op V)),
  ∃ t, tree_run avl_new ops = Some t ∧
    StronglySorted (fun a b => a.1 < b.1) (inorder (av_root t)) ∧
    inorder (av_root t) ≡ₚ map_to_list (map_run ∅ ops) ∧
    (∀ k, avl_get k t = map_run ∅ ops !! k) ∧
    avl_left t = head (inorder (av_root t)) ∧
    av_size t = Z.of_nat (size (map_run ∅ ops)) ∧
    2 ^ Z.of_nat (height (av_root t)) <= (av_size t + 1) ^ 2.
Proof. exact @index_ok. Qed.
Print Assumptions C19_index.

(** C67 (refuted: limit 2 returns six envelopes; exact bound without collisions is C06) *)
Theorem C67_limit_exceeded_refuted :
  ∃ m ops s src q res,
    1 <= m ∧ uncrowded m ops ∧ run (new_store m) ops = Some s ∧
    get_env src q s = Some res ∧ 1 <= q_limit q < Z.of_nat (length res).
Proof. exact limit_exceeded. Qed.
Print Assumptions C67_limit_exceeded_refuted.
(** An answer exceeds its limit by at most twice the number of envelopes the source holds under another
    time than their own, having found their own taken when they were written. *)
Theorem C67_excess_partial : ∀ src q s res, 1 <= q_limit q -> get_env src q s = Some res ->
  Z.of_nat (length res) <= q_limit q + 2 * Z.of_nat (length (filter (fun p => e_ts p.2 ≠ p.1) (stored s src))).
Proof. exact get_limit. Qed.
Print Assumptions C67_excess_partial.
Example C67_case :
  match run (new_store 100) (putA <$> [1; 1; 4; 5; 6; 7]) with
  | Some s => length (filter (fun p => e_ts p.2 ≠ p.1) (stored s "a")) = 1%nat ∧
      match get_env "a" (window 0 100 2) s with Some res => length res = 3%nat | None => False end
  | None => False end.
Proof. vm_compute. done. Qed.

(** C68 (refuted in general, and what does hold: without evictions the source holds its writes in the
    order of writing, and a Get returns the first matches in that order) *)
Definition late_overtake : list op := putA <$> [5; 5; 5; 5; 6; 6].
Lemma order_broken :
  ∃ m ops s src q res,
    1 <= m ∧ uncrowded m ops ∧ run (new_store m) ops = Some s ∧ Forall (fun o => is_truncate o = false) ops ∧
    time_sorted (puts_to src ops) ∧ q_desc q = false ∧ get_env src q s = Some res ∧ ¬ time_sorted res.
Proof.
  assert (H : (match run (new_store 4) late_overtake with
     | Some s => bool_decide (get_env "a" (everything 10) s = Some [log_at 6 "0"; log_at 5 "0"; log_at 5 "0"; log_at 6 "0"])
     | None => false end) = true) by (vm_compute; reflexivity).
  apply opt_witness in H as (s & Hs & H). apply bool_decide_eq_true in H.
  exists 4, late_overtake, s, "a", (everything 10), [log_at 6 "0"; log_at 5 "0"; log_at 5 "0"; log_at 6 "0"].
  split; [lia|]. split; [left; lia|]. split; [exact Hs|]. clear Hs. split; [by repeat constructor|].
  split; [unfold puts_to; simpl; repeat split; repeat constructor; simpl; lia|]. split; [done|]. split; [exact H|].
  simpl. intros (HF & _). apply Forall_cons in HF as [HF _]. simpl in HF. lia.
Qed.
Theorem C68_order_broken_refuted :
  ∃ m ops s src q res,
    1 <= m ∧ uncrowded m ops ∧ run (new_store m) ops = Some s ∧ Forall (fun o => is_truncate o = false) ops ∧
    time_sorted (puts_to src ops) ∧ q_desc q = false ∧ get_env src q s = Some res ∧ ¬ time_sorted res.
Proof. exact order_broken. Qed.
Print Assumptions C68_order_broken_refuted.

Lemma in_order_reads m ops s src q res :
  1 <= m -> run (new_store m) ops = Some s -> uncrowded m ops ->
  Forall (fun o => is_truncate o = false) ops ->
  (∀ x, Z.of_nat (length (puts_to x ops)) <= m) ->
  (∀ x, Forall (fun e => in64 (e_ts e) ∧ in64 (e_ts e + 4000)) (puts_to x ops)) ->
  (∀ x, time_sorted (puts_to x ops)) ->
  known_types (q_types q) -> get_env src q s = Some res ->
  (stored s src).*2 = puts_to src ops ∧
  ∃ rest, answers q (if q_desc q then reverse (puts_to src ops) else puts_to src ops) (res ++ rest) ∧
    (rest = [] ∨ q_limit q <= Z.of_nat (length res)).
Proof.
  intros H1 H2 H3 H4 H5 H6 H7 H8 H9. pose proof (in_order_history m ops s src H1 H2 H3 H4 H5 H6 H7) as E.
  split; [done|]. rewrite <-E. apply get_prefix_answers; auto. by rewrite E.
Qed.
Theorem C68_in_order_partial : ∀ m ops s src q res,
  1 <= m -> run (new_store m) ops = Some s -> uncrowded m ops ->
  Forall (fun o => is_truncate o = false) ops ->
  (∀ x, Z.of_nat (length (puts_to x ops)) <= m) ->
  (∀ x, Forall (fun e => in64 (e_ts e) ∧ in64 (e_ts e + 4000)) (puts_to x ops)) ->
  (∀ x, time_sorted (puts_to x ops)) ->
  known_types (q_types q) -> get_env src q s = Some res ->
  (stored s src).*2 = puts_to src ops ∧
  ∃ rest, answers q (if q_desc q then reverse (puts_to src ops) else puts_to src ops) (res ++ rest) ∧
    (rest = [] ∨ q_limit q <= Z.of_nat (length res)).
Proof. exact in_order_reads. Qed.
Print Assumptions C68_in_order_partial.
Example C68_example :
  (∀ x, time_sorted (puts_to x late_overtake)) ∧ (∀ x, Z.of_nat (length (puts_to x late_overtake)) <= 6) ∧
  match run (new_store 6) late_overtake with
  | Some s => get_env "a" (everything 10) s = Some (log_at 5 "0" :: log_at 5 "0" :: log_at 5 "0" :: log_at 5 "0" :: log_at 6 "0" :: [log_at 6 "0"])
  | None => False end.
Proof.
  split; [|split].
  - intros x. unfold puts_to. simpl. case_decide; simpl; repeat split; repeat constructor; simpl; lia.
  - intros x. unfold puts_to. simpl. case_decide; simpl; lia.
  - vm_compute. done.
Qed.
