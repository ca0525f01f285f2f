(** Properties of reading requests, routing, the scheduler and the cluster (C26-C41, C69-C74), each
    followed by a case meeting its hypotheses.  Vocabulary: Routing/Spec.v and Store/Spec.v.
    Programs: Routing/Model.v. *)
From stdpp Require Import prelude gmap strings list.
From Verif.Base Require Import GoInt Envelope.
From Verif.Store Require Import Model Spec Witness ProofsAcct ProofsGet.
From Verif.Routing Require Import Model Spec ProofsRanges ProofsTable ProofsProxy ProofsRead ProofsCluster.
Open Scope Z_scope.

(** ** Local reads *)

Lemma read_validation compile now rq s :
  (local_read compile now rq s = ReadError ↔ ¬ acceptable compile rq) ∧
  (acceptable compile rq ->
   ∃ q, resolved compile now rq q ∧ 1 <= q_limit q <= 1000 ∧
        (∀ e, wanted_type (q_types q) e ↔ requested_type (rr_types rq) e) ∧
        local_read compile now rq s =
          match get_env (rr_source rq) q s with Some es => ReadOk es | None => ReadPanic end).
Proof.
  pose proof (to_query_spec compile now rq) as HS.
  pose proof (to_query_types compile now rq) as HT.
  unfold local_read. destruct (to_query compile now rq) as [q|].
  - destruct HS as (Ha & Hr & Hl & _). split.
    + destruct (get_env (rr_source rq) q s); split; intros H; done.
    + intros _. exists q. split; [done|]. split; [done|]. split; [intros e; by apply HT|].
      by destruct (get_env (rr_source rq) q s).
  - split; [done|]. intros ?. done.
Qed.

(** C26 *)
Theorem C26_read_validation : ∀ compile now rq s,
  (local_read compile now rq s = ReadError ↔ ¬ acceptable compile rq) ∧
  (acceptable compile rq ->
   ∃ q, resolved compile now rq q ∧ 1 <= q_limit q <= 1000 ∧
        (∀ e, wanted_type (q_types q) e ↔ requested_type (rr_types rq) e) ∧
        local_read compile now rq s =
          match get_env (rr_source rq) q s with Some es => ReadOk es | None => ReadPanic end).
Proof. exact read_validation. Qed.
Print Assumptions C26_read_validation.
Definition no_regexp (_ : string) : option (string -> bool) := None.
Example C26_example :
  acceptable no_regexp (mk_rr "a" 0 0 0 [T_ANY] false "") ∧
  ¬ acceptable no_regexp (mk_rr "a" 0 0 1001 [] false "") ∧
  ¬ acceptable no_regexp (mk_rr "a" 0 0 0 [] false "(") ∧
  match run (new_store 3) [putA 1; putA 2; putA 7] with
  | Some s => local_read no_regexp 5 (mk_rr "a" 2 0 0 [T_ANY] false "") s = ReadOk [log_at 2 "0"] ∧
              local_read no_regexp 5 (mk_rr "a" 2 1 0 [T_ANY] false "") s = ReadError
  | None => False end.
Proof.
  unfold acceptable; simpl. split; [split; [by left|split; [lia|by left]]|].
  split; [intros (_ & ? & _); lia|]. split; [intros (_ & _ & [?|[? ?]]); done|]. vm_compute. done.
Qed.

(** C27 *)
Theorem C27_type_filter : ∀ compile now rq s es,
  local_read compile now rq s = ReadOk es -> ∀ e, e ∈ es -> requested_type (rr_types rq) e.
Proof. exact read_types_sound. Qed.
Print Assumptions C27_type_filter.
Theorem C27_type_filter_exact : ∀ compile now rq m ops s es,
  1 <= m -> run (new_store m) ops = Some s ->
  (∀ x, Forall (fun e => in64 (e_ts e)) (puts_to x ops)) ->
  (∀ x, NoDup (e_ts <$> puts_to x ops)) ->
  enum_types (rr_types rq) -> local_read compile now rq s = ReadOk es ->
  ∃ q all, resolved compile now rq q ∧
    (∀ e, wanted_type (q_types q) e ↔ requested_type (rr_types rq) e) ∧
    answers q (if q_desc q then reverse (stored s (rr_source rq)).*2 else (stored s (rr_source rq)).*2) all ∧
    es = take (Z.to_nat (q_limit q)) all.
Proof. exact read_exact. Qed.
Print Assumptions C27_type_filter_exact.
Example C27_example :
  let c := mk_env 3 "a" "" ∅ ∅ (MCounter "hits" 1 1) in
  match run (new_store 10) [putA 1; OPut c "a" 5; putA 7] with
  | Some s =>
      local_read no_regexp 9 (mk_rr "a" 0 0 0 [T_ANY; T_COUNTER] false "") s = ReadOk [c] ∧
      local_read no_regexp 9 (mk_rr "a" 0 0 0 [T_ANY; T_ANY] false "") s = ReadOk [log_at 1 "0"; c; log_at 7 "0"]
  | None => False end.
Proof. vm_compute. done. Qed.

(** C69 (refuted, and what does hold) *)
Lemma read_unknown_type_panics :
  ∃ compile now rq m ops s,
    1 <= m ∧ uncrowded m ops ∧ run (new_store m) ops = Some s ∧ acceptable compile rq ∧
    local_read compile now rq s = ReadPanic.
Proof.
  assert (H : (match run (new_store 100) [putA 1] with
     | Some s => match local_read no_regexp 9 (mk_rr "a" 0 0 0 [T_UNKNOWN 9] false "") s with ReadPanic => true | _ => false end
     | None => false end) = true) by (vm_compute; reflexivity).
  apply opt_witness in H as (s & Hs & H).
  eexists no_regexp, 9, _, 100, [putA 1], s. split; [lia|]. split; [left; lia|]. split; [exact Hs|].
  split; [|destruct (local_read no_regexp 9 (mk_rr "a" 0 0 0 [T_UNKNOWN 9] false "") s) eqn:E; [discriminate H|discriminate H|exact E]].
  split; [by left|]. split; [simpl; lia|by left].
Qed.
Theorem C69_unknown_type_crashes_refuted :
  ∃ compile now rq m ops s,
    1 <= m ∧ uncrowded m ops ∧ run (new_store m) ops = Some s ∧ acceptable compile rq ∧
    local_read compile now rq s = ReadPanic.
Proof. exact read_unknown_type_panics. Qed.
Print Assumptions C69_unknown_type_crashes_refuted.
Lemma read_enum_no_panic compile now rq s :
  enum_types (rr_types rq) -> local_read compile now rq s ≠ ReadPanic.
Proof.
  intros Hen. unfold local_read. pose proof (to_query_spec compile now rq) as HS.
  destruct (to_query compile now rq) as [q|]; [|done]. destruct HS as (_ & _ & _ & Ht).
  destruct (get_env_known (rr_source rq) q s) as [res ->]; [|done].
  rewrite Ht. unfold known_types.
  destruct (filter _ _) as [|t0 ts] eqn:Ef; [done|]. apply Forall_forall. intros t Hin n.
  apply Hen. rewrite <-Ef in Hin. by apply elem_of_list_filter in Hin as [_ ?].
Qed.
Theorem C69_enum_types_answered_partial : ∀ compile now rq s,
  enum_types (rr_types rq) -> local_read compile now rq s ≠ ReadPanic.
Proof. exact read_enum_no_panic. Qed.
Print Assumptions C69_enum_types_answered_partial.

(** ** Scheduler and static lookup *)

(** C28 *)
Theorem C28_partition : ∀ n,
  1 <= n <= 2 ^ 32 -> ∃ rs, sched_ranges n = Some rs ∧ length rs = Z.to_nat n ∧ partition rs.
Proof.
  intros n Hn. destruct (sched_total n ltac:(lia)) as [rs Hrs]. exists rs. split; [exact Hrs|].
  exact (sched_partition n rs Hn Hrs).
Qed.
Print Assumptions C28_partition.
Example C28_example : sched_ranges 3 = Some
  [mk_range 0 6148914691236517205; mk_range 6148914691236517206 12297829382473034411;
   mk_range 12297829382473034412 18446744073709551615].
Proof. vm_compute. reflexivity. Qed.

(** C29 (refuted for 2^32+1 ranges: the last range starts at 0; and 0 ranges divide by zero) *)
Lemma sched_overflow : ∃ n rs, 0 < n < 2 ^ 63 ∧ sched_ranges n = Some rs ∧ ¬ partition rs.
Proof.
  destruct (sched_total (2 ^ 32 + 1) ltac:(lia)) as [rs Hrs].
  exists (2 ^ 32 + 1), rs. split; [lia|]. split; [exact Hrs|]. exact (sched_wraps _ rs eq_refl Hrs).
Qed.
Theorem C29_any_count_refuted : ∃ n rs, 0 < n < 2 ^ 63 ∧ sched_ranges n = Some rs ∧ ¬ partition rs.
Proof. exact sched_overflow. Qed.
Print Assumptions C29_any_count_refuted.
Theorem C29_zero_count_panics_refuted : sched_ranges 0 = None.
Proof. reflexivity. Qed.
Print Assumptions C29_zero_count_panics_refuted.

(** C41 *)
Lemma static_cover n :
  0 < n < 2 ^ 63 ->
  ∃ t, new_static n = Some t ∧
    (∀ h, is_hash h -> ∃ i, static_lookup t h = Some i ∧ 0 <= i < n) ∧
    (∀ h i, is_hash h -> static_lookup t h = Some i <-> static_owner n h i) ∧
    (∀ h h' i j, is_hash h -> is_hash h' -> h <= h' ->
       static_lookup t h = Some i -> static_lookup t h' = Some j -> i <= j) ∧
    (∀ i, 0 <= i < n -> ∃ h, is_hash h ∧ static_lookup t h = Some i).
Proof.
  intros Hn. destruct (static_spec n Hn) as (t & Ht & H). exists t. split; [exact Ht|].
  assert (Hiff : ∀ h i, is_hash h -> static_lookup t h = Some i <-> static_owner n h i).
  { intros h i Hh. destruct (H h Hh) as (j & Hj & Ho). rewrite Hj. split; [by intros [= ->]|].
    intros Ho'. f_equal. by eapply static_owner_unique. }
  split; [|split; [done|split]].
  - intros h Hh. destruct (H h Hh) as (i & Hi & Hb & _). eauto.
  - intros h h' i j Hh Hh' Hle Hi Hj. apply Hiff in Hi, Hj; [|done|done]. by eapply (static_owner_mono n h h').
  - intros i Hi. assert (HM : max_uint64 = 2 ^ 64 - 1) by reflexivity.
    assert (Hx : 0 < max_uint64 / n) by (apply Z.div_str_pos; lia).
    assert (Hx1 : n * (max_uint64 / n) <= max_uint64) by (apply Z.mul_div_le; lia).
    assert (i * (max_uint64 / n) <= (n - 1) * (max_uint64 / n)) by (apply Z.mul_le_mono_nonneg_r; lia).
    assert (0 <= i * (max_uint64 / n)) by (apply Z.mul_nonneg_nonneg; lia).
    exists (i * (max_uint64 / n)). assert (Hh : is_hash (i * (max_uint64 / n))) by (unfold is_hash; lia).
    split; [done|]. apply Hiff; [done|]. split; [lia|]. split; [lia|]. lia.
Qed.
Theorem C41_static_cover : ∀ n,
  0 < n < 2 ^ 63 ->
  ∃ t, new_static n = Some t ∧
    (∀ h, is_hash h -> ∃ i, static_lookup t h = Some i ∧ 0 <= i < n) ∧
    (∀ h i, is_hash h -> static_lookup t h = Some i <-> static_owner n h i) ∧
    (∀ h h' i j, is_hash h -> is_hash h' -> h <= h' ->
       static_lookup t h = Some i -> static_lookup t h' = Some j -> i <= j) ∧
    (∀ i, 0 <= i < n -> ∃ h, is_hash h ∧ static_lookup t h = Some i).
Proof. exact static_cover. Qed.
Print Assumptions C41_static_cover.
Example C41_example :
  match new_static 4 with
  | Some t => map (static_lookup t) [0; 4611686018427387902; 4611686018427387903; 2^64 - 1] = [Some 0; Some 0; Some 1; Some 3]
  | None => False end.
Proof. vm_compute. reflexivity. Qed.

(** ** Routing table *)

Definition two_nodes : list string := ["x"; "y"].
Definition two_ranges : gmap string (list range) :=
  <["x" := [mk_range 0 9; mk_range 20 29]]> (<["y" := [mk_range 5 19]]> ∅).
Definition two_table : list rinfo := isort (table_entries two_nodes (map_to_list two_ranges)).
Example two_nodes_meet_hypotheses :
  NoDup two_nodes ∧ known_addrs two_nodes two_ranges ∧ no_overlap two_ranges ∧ set_ranges two_nodes [] two_ranges two_table ∧
  Model.lookup 7 two_table = [0%nat; 1%nat] ∧ Model.lookup 25 two_table = [0%nat] ∧ Model.lookup 30 two_table = [].
Proof.
  split; [apply (bool_decide_unpack _); by vm_compute|]. split.
  { intros a [rs Ha]. unfold two_ranges in Ha. unfold two_nodes.
    destruct (decide (a = "x")) as [->|]; [set_solver|]. rewrite lookup_insert_ne in Ha by done.
    destruct (decide (a = "y")) as [->|]; [set_solver|]. rewrite lookup_insert_ne in Ha by done. done. }
  split.
  { intros a rs Ha h i j r r' Hi Hj Hc Hc'. unfold two_ranges in Ha.
    destruct (decide (a = "x")) as [->|].
    - rewrite lookup_insert in Ha. injection Ha as <-.
      destruct i as [|[|i]], j as [|[|j]]; simpl in *; simplify_eq; unfold covers in *; simpl in *; try done; lia.
    - rewrite lookup_insert_ne in Ha by done. destruct (decide (a = "y")) as [->|].
      + rewrite lookup_insert in Ha. injection Ha as <-.
        destruct i as [|i], j as [|j]; simpl in *; simplify_eq; done.
      + by rewrite lookup_insert_ne in Ha. }
  split; [apply set_ranges_exists|]. vm_compute. done.
Qed.

(** C30 *)
Theorem C30_lookup_exact : ∀ addrs old req t h,
  NoDup addrs -> known_addrs addrs req -> set_ranges addrs old req t ->
  (∀ i, i ∈ Model.lookup h t ↔ owns addrs req h i) ∧ lookup_all h t = Some (Model.lookup h t).
Proof.
  intros addrs old req t h Hnd Hk Hs. split; [|exact (lookup_all_spec h t)].
  intros i. exact (lookup_owns addrs old req t h i Hnd Hk Hs).
Qed.
Print Assumptions C30_lookup_exact.

(** C31 *)
Lemma last_request_decides addrs reqs1 reqs2 req t1 t2 h :
  table_after addrs (reqs1 ++ [req]) t1 -> table_after addrs (reqs2 ++ [req]) t2 ->
  Model.lookup h t1 = Model.lookup h t2.
Proof.
  intros H1 H2. inversion H1 as [E|r1 o1 q1 t1' Ha1 Hs1 E]; [by destruct reqs1|].
  inversion H2 as [E'|r2 o2 q2 t2' Ha2 Hs2 E']; [by destruct reqs2|].
  apply app_inj_tail in E as [_ ->]. apply app_inj_tail in E' as [_ ->]. subst.
  by eapply set_ranges_lookup_det.
Qed.
Theorem C31_last_request_decides : ∀ addrs reqs1 reqs2 req t1 t2 h,
  table_after addrs (reqs1 ++ [req]) t1 -> table_after addrs (reqs2 ++ [req]) t2 ->
  Model.lookup h t1 = Model.lookup h t2.
Proof. exact last_request_decides. Qed.
Print Assumptions C31_last_request_decides.
Example C31_example :
  ∃ t1 t2, table_after two_nodes ([two_ranges] ++ [two_ranges]) t1 ∧ table_after two_nodes ([] ++ [two_ranges]) t2 ∧
    Model.lookup 7 t2 = [0%nat; 1%nat].
Proof.
  exists two_table, two_table. split; [|split; [|by vm_compute]].
  - eapply ta_set; [eapply (ta_set _ [] []); [constructor|apply set_ranges_exists]|apply set_ranges_exists].
  - eapply ta_set; [constructor|apply set_ranges_exists].
Qed.

(** C32 (refuted: the range of an unknown address is routed to node 0) *)
Lemma unknown_addr_routed :
  ∃ addrs req t h i, NoDup addrs ∧ table_after addrs [req] t ∧ i ∈ Model.lookup h t ∧ ¬ owns addrs req h i.
Proof.
  exists ["x"; "y"], (<["z" := [mk_range 0 9]]> ∅), (isort (table_entries ["x"; "y"] (map_to_list (<["z" := [mk_range 0 9]]> ∅)))), 3, 0%nat.
  split; [apply (bool_decide_unpack _); by vm_compute|].
  split; [eapply (ta_set _ [] []); [constructor|apply set_ranges_exists]|].
  split; [apply (bool_decide_unpack _); by vm_compute|].
  intros (a & rs & r & Ha & Hr & _). simpl in Ha. injection Ha as <-. by rewrite lookup_insert_ne in Hr.
Qed.
Theorem C32_unknown_addr_routed_refuted :
  ∃ addrs req t h i, NoDup addrs ∧ table_after addrs [req] t ∧ i ∈ Model.lookup h t ∧ ¬ owns addrs req h i.
Proof. exact unknown_addr_routed. Qed.
Print Assumptions C32_unknown_addr_routed_refuted.
(** Which node is chosen, for any assignment: the nodes that own the hash, and besides them node 0 when an
    address that is not in the list owns it.  So no node but node 0 is affected. *)
Lemma unknown_addr_exact addrs old req t h i : NoDup addrs -> set_ranges addrs old req t ->
  i ∈ Model.lookup h t ↔
  owns addrs req h i ∨ (i = 0%nat ∧ ∃ a rs r, a ∉ addrs ∧ req !! a = Some rs ∧ r ∈ rs ∧ covers r h).
Proof.
  intros Hnd Hs. rewrite elem_of_lookup. setoid_rewrite (set_ranges_elem _ _ _ _ _ _ Hs). unfold owns. split.
  - intros (r & (a & rs & Ha & Hr & ->) & Hc). destruct (decide (a ∈ addrs)) as [Hin|Hin].
    + left. apply elem_of_list_lookup in Hin as [j Hj]. exists a, rs, r.
      rewrite (proj2 (addr_index_spec addrs a j Hnd) Hj). done.
    + right. rewrite (addr_index_none addrs a Hin). split; [done|]. by exists a, rs, r.
  - intros [(a & rs & r & Hi & Ha & Hr & Hc)|(-> & a & rs & r & Hin & Ha & Hr & Hc)]; exists r; (split; [|done]); exists a, rs.
    + rewrite (proj2 (addr_index_spec addrs a i Hnd) Hi). done.
    + rewrite (addr_index_none addrs a Hin). done.
Qed.
Theorem C32_other_nodes_partial : ∀ addrs old req t h i, NoDup addrs -> set_ranges addrs old req t ->
  i ∈ Model.lookup h t ↔
  owns addrs req h i ∨ (i = 0%nat ∧ ∃ a rs r, a ∉ addrs ∧ req !! a = Some rs ∧ r ∈ rs ∧ covers r h).
Proof. exact unknown_addr_exact. Qed.
Print Assumptions C32_other_nodes_partial.

(** C70 *)
Theorem C70_schedule_routes : ∀ n rs ws addrs old t h,
  1 <= n <= 2 ^ 32 -> sched_ranges n = Some rs -> NoDup addrs -> NoDup ws.*1 ->
  (∀ a tasks, (a, tasks) ∈ ws -> a ∈ addrs ∧ NoDup tasks ∧ ∀ r, r ∈ tasks -> r ∈ rs) ->
  set_ranges addrs old (convert_worker_state ws) t -> is_hash h ->
  NoDup (Model.lookup h t) ∧
  ∃ r, r ∈ rs ∧ covers r h ∧
    ∀ i, i ∈ Model.lookup h t ↔ ∃ a tasks, (a, tasks) ∈ ws ∧ r ∈ tasks ∧ addrs !! i = Some a.
Proof. exact pipeline. Qed.
Print Assumptions C70_schedule_routes.
Example C70_example :
  let r1 := mk_range 0 9223372036854775807 in let r2 := mk_range 9223372036854775808 18446744073709551615 in
  let ws := [("y", [r2; r1]); ("x", [r1])] in
  sched_ranges 2 = Some [r1; r2] ∧
  set_ranges two_nodes [] (convert_worker_state ws) (isort (table_entries two_nodes (map_to_list (convert_worker_state ws)))) ∧
  Model.lookup 5 (isort (table_entries two_nodes (map_to_list (convert_worker_state ws)))) = [1%nat; 0%nat] ∧
  Model.lookup (2^63) (isort (table_entries two_nodes (map_to_list (convert_worker_state ws)))) = [1%nat].
Proof. split; [by vm_compute|]. split; [apply set_ranges_exists|]. by vm_compute. Qed.

(** ** Proxies *)

(** C33 *)
Lemma ingress_distribution lk n localIdx batch out :
  (∀ e i, e ∈ batch -> i ∈ lk (e_source e) -> (i < n)%nat) ->
  send_calls lk n localIdx (mk_send false (Some batch)) out ->
  ∃ calls, out = Some calls ∧
    (∀ c, c ∈ calls -> sr_local_only c.2 = true) ∧
    NoDup calls.*1 ∧
    (∀ i, delivered i calls = e ← batch; replicate (times i (lk (e_source e))) e) ∧
    ((∀ e, e ∈ batch -> NoDup (lk (e_source e))) ->
     ∀ i, delivered i calls = filter (fun e => i ∈ lk (e_source e)) batch).
Proof.
  intros Hn Hs. destruct (send_spec lk n localIdx (mk_send false (Some batch)) batch out eq_refl eq_refl Hn Hs) as (calls & H1 & H2 & H3 & H4).
  exists calls. split; [done|]. split; [done|]. split; [done|]. split; [done|].
  intros Hnd i. rewrite H4. by apply bind_times.
Qed.
Theorem C33_ingress_distribution : ∀ lk n localIdx batch out,
  (∀ e i, e ∈ batch -> i ∈ lk (e_source e) -> (i < n)%nat) ->
  send_calls lk n localIdx (mk_send false (Some batch)) out ->
  ∃ calls, out = Some calls ∧
    (∀ c, c ∈ calls -> sr_local_only c.2 = true) ∧
    NoDup calls.*1 ∧
    (∀ i, delivered i calls = e ← batch; replicate (times i (lk (e_source e))) e) ∧
    ((∀ e, e ∈ batch -> NoDup (lk (e_source e))) ->
     ∀ i, delivered i calls = filter (fun e => i ∈ lk (e_source e)) batch).
Proof. exact ingress_distribution. Qed.
Print Assumptions C33_ingress_distribution.
Lemma ingress_local_only lk n localIdx es out :
  (localIdx < n)%nat -> send_calls lk n localIdx (mk_send true es) out -> out = Some [(localIdx, mk_send true es)].
Proof.
  intros Hl (order & _ & ->). unfold send_with. simpl. apply Nat.ltb_lt in Hl. by rewrite Hl.
Qed.
Theorem C33_local_only : ∀ lk n localIdx es out,
  (localIdx < n)%nat -> send_calls lk n localIdx (mk_send true es) out -> out = Some [(localIdx, mk_send true es)].
Proof. exact ingress_local_only. Qed.
Print Assumptions C33_local_only.
Definition hash_len (s : string) : Z := 7 * Z.of_nat (String.length s).
Example C33_example :
  let lk src := Model.lookup (hash_len src) two_table in
  let e1 := mk_env 1 "abc" "" ∅ ∅ (MLog "p" false) in let e2 := mk_env 2 "a" "" ∅ ∅ (MLog "q" false) in
  let batch := [e1; e2; e1] in
  lk "abc" = [0%nat] ∧ lk "a" = [0%nat; 1%nat] ∧
  map_to_list (envelopes_by_node lk batch) ≡ₚ [(0%nat, [e1; e2; e1]); (1%nat, [e2])].
Proof. split; [by vm_compute|]. split; [by vm_compute|]. vm_compute. done. Qed.

(** C34 *)
Theorem C34_read_routing : ∀ idx n localIdx rnd,
  (∀ i, i ∈ idx -> (i < n)%nat) ->
  ∃ route, read_route_of idx n localIdx rnd = Some route ∧
    (route = Unavailable ↔ idx = []) ∧
    (localIdx ∈ idx -> route = CallNode localIdx) ∧
    (idx ≠ [] -> ∃ i, i ∈ idx ∧ route = CallNode i).
Proof. exact read_route_spec. Qed.
Print Assumptions C34_read_routing.
Example C34_example :
  read_route_of [0%nat; 2%nat] 3 2 5 = Some (CallNode 2) ∧ read_route_of [0%nat; 2%nat] 3 1 5 = Some (CallNode 2) ∧
  read_route_of [0%nat; 2%nat] 3 1 4 = Some (CallNode 0) ∧ read_route_of [] 3 1 4 = Some Unavailable.
Proof. vm_compute. done. Qed.

(** C71 (refuted: line 48 dereferences a missing batch) *)
Lemma send_without_batch lk n localIdx out :
  send_calls lk n localIdx (mk_send false None) out -> out = None.
Proof. intros (order & _ & ->). done. Qed.
Theorem C71_missing_batch_crashes_refuted : ∀ lk n localIdx out,
  send_calls lk n localIdx (mk_send false None) out -> out = None.
Proof. exact send_without_batch. Qed.
Print Assumptions C71_missing_batch_crashes_refuted.
Example C71_example : send_calls (fun _ => [0%nat]) 1 0 (mk_send false None) None.
Proof. exists []. split; [by vm_compute|done]. Qed.
(** With a batch, or marked local-only, a write request never crashes a node whose lookups stay among its
    clients. *)
Lemma send_with_batch lk n localIdx lo batch out :
  (localIdx < n)%nat -> (∀ e i, e ∈ batch -> i ∈ lk (e_source e) -> (i < n)%nat) ->
  send_calls lk n localIdx (mk_send lo (Some batch)) out -> is_Some out.
Proof.
  intros Hl Hn Hs. destruct lo.
  - apply ingress_local_only in Hs as ->; [|done]. by eexists.
  - destruct (ingress_distribution lk n localIdx batch out Hn Hs) as (calls & -> & _). by eexists.
Qed.
Theorem C71_batch_partial : ∀ lk n localIdx lo batch out,
  (localIdx < n)%nat -> (∀ e i, e ∈ batch -> i ∈ lk (e_source e) -> (i < n)%nat) ->
  send_calls lk n localIdx (mk_send lo (Some batch)) out -> is_Some out.
Proof. exact send_with_batch. Qed.
Print Assumptions C71_batch_partial.
Example C71_batch_example :
  send_calls (fun _ => [0%nat]) 1 0 (mk_send false (Some [mk_env 1 "a" "" ∅ ∅ (MLog "p" false)]))
    (Some [(0%nat, mk_send true (Some [mk_env 1 "a" "" ∅ ∅ (MLog "p" false)]))]).
Proof. eexists. split; [reflexivity|]. by vm_compute. Qed.

(** C73 (refuted: a node listed twice for a range is sent every envelope twice) *)
Lemma duplicate_range_duplicates :
  ∃ addrs req t batch calls i,
    NoDup addrs ∧ known_addrs addrs req ∧ table_after addrs [req] t ∧
    send_calls (fun src => Model.lookup (hash_len src) t) 1 0 (mk_send false (Some batch)) (Some calls) ∧
    length batch = 1%nat ∧ length (delivered i calls) = 2%nat.
Proof.
  set (req := <["x" := [mk_range 0 9; mk_range 0 9]]> ∅ : gmap string (list range)).
  set (t := isort (table_entries ["x"] (map_to_list req))).
  set (e := mk_env 1 "a" "" ∅ ∅ (MLog "p" false)).
  exists ["x"], req, t, [e], [(0%nat, mk_send true (Some [e; e]))], 0%nat.
  split; [apply (bool_decide_unpack _); by vm_compute|]. split.
  { intros a [rs Ha]. unfold req in Ha. destruct (decide (a = "x")) as [->|]; [set_solver|]. by rewrite lookup_insert_ne in Ha. }
  split; [eapply (ta_set _ [] []); [constructor|apply set_ranges_exists]|].
  split; [|by vm_compute]. eexists. split; [reflexivity|]. by vm_compute.
Qed.
Theorem C73_duplicate_range_duplicates_refuted :
  ∃ addrs req t batch calls i,
    NoDup addrs ∧ known_addrs addrs req ∧ table_after addrs [req] t ∧
    send_calls (fun src => Model.lookup (hash_len src) t) 1 0 (mk_send false (Some batch)) (Some calls) ∧
    length batch = 1%nat ∧ length (delivered i calls) = 2%nat.
Proof. exact duplicate_range_duplicates. Qed.
Print Assumptions C73_duplicate_range_duplicates_refuted.
(** When no address is given two ranges with a hash in common, every owner is sent every envelope once and
    nobody else is sent any, in the order of the batch. *)
Lemma once_each hash addrs old req t localIdx batch out :
  NoDup addrs -> known_addrs addrs req -> no_overlap req -> set_ranges addrs old req t ->
  send_calls (fun src => Model.lookup (hash src) t) (length addrs) localIdx (mk_send false (Some batch)) out ->
  ∃ calls, out = Some calls ∧ ∀ i (D : ∀ e, Decision (owns addrs req (hash (e_source e)) i)),
    delivered i calls = filter (fun e => owns addrs req (hash (e_source e)) i) batch.
Proof.
  intros Hnd Hk Hno Hs Hc.
  assert (Hlt : ∀ e i, e ∈ batch -> i ∈ Model.lookup (hash (e_source e)) t -> (i < length addrs)%nat).
  { intros e i _ Hi. apply (lookup_owns addrs old req t _ i Hnd Hk Hs) in Hi as (a & rs & r & Ha & _). by eapply lookup_lt_Some. }
  destruct (ingress_distribution _ _ _ _ _ Hlt Hc) as (calls & -> & _ & _ & _ & Hd). exists calls. split; [done|].
  intros i D. rewrite Hd by (intros; by eapply lookup_nodup). apply list_filter_iff. intros e.
  by apply (lookup_owns addrs old req t _ i Hnd Hk Hs).
Qed.
Theorem C73_once_each_partial : ∀ hash addrs old req t localIdx batch out,
  NoDup addrs -> known_addrs addrs req -> no_overlap req -> set_ranges addrs old req t ->
  send_calls (fun src => Model.lookup (hash src) t) (length addrs) localIdx (mk_send false (Some batch)) out ->
  ∃ calls, out = Some calls ∧ ∀ i (D : ∀ e, Decision (owns addrs req (hash (e_source e)) i)),
    delivered i calls = filter (fun e => owns addrs req (hash (e_source e)) i) batch.
Proof. exact once_each. Qed.
Print Assumptions C73_once_each_partial.

(** C74 (refuted: a failed dial shifts every later client) *)
Lemma clients_all_ok dial nodeIndex addrs i :
  (∀ j, dial j = true) -> build_clients dial nodeIndex i addrs = seq i (length addrs).
Proof.
  intros Hd. revert i. induction addrs as [|a l IH]; intros i; [done|]. cbn [build_clients length seq].
  rewrite Hd, andb_false_r. by rewrite IH.
Qed.
Theorem C74_clients_aligned_partial : ∀ dial nodeIndex addrs,
  (∀ j, dial j = true) -> build_clients dial nodeIndex 0 addrs = seq 0 (length addrs).
Proof. intros. by apply clients_all_ok. Qed.
Print Assumptions C74_clients_aligned_partial.
Lemma failed_dial_shifts :
  ∃ dial nodeIndex addrs i j, (nodeIndex < length addrs)%nat ∧
    build_clients dial nodeIndex 0 addrs !! i = Some j ∧ j ≠ i ∧ i ≠ nodeIndex ∧ j ≠ nodeIndex.
Proof.
  exists (fun j => negb (j =? 1)%nat), 0%nat, ["x"; "y"; "z"], 1%nat, 2%nat. vm_compute. repeat split; lia.
Qed.
Theorem C74_failed_dial_shifts_refuted :
  ∃ dial nodeIndex addrs i j, (nodeIndex < length addrs)%nat ∧
    build_clients dial nodeIndex 0 addrs !! i = Some j ∧ j ≠ i ∧ i ≠ nodeIndex ∧ j ≠ nodeIndex.
Proof. exact failed_dial_shifts. Qed.
Print Assumptions C74_failed_dial_shifts_refuted.

(** ** Clusters *)

(** C35 *)
Theorem C35_read_your_writes : ∀ hash compile now rnds addrs req c i j ni batch calls c' rq fuel,
  NoDup addrs -> known_addrs addrs req -> no_overlap req -> same_tables addrs req c ->
  c !! i = Some ni -> (j < length c)%nat -> (2 <= fuel)%nat ->
  send_calls (fun src => Model.lookup (hash src) (n_table ni)) (length c) i (mk_send false (Some batch)) (Some calls) ->
  deliver now calls c = Some c' ->
  let h := hash (rr_source rq) in
  (cluster_read fuel hash compile now rnds j rq c' = Some (CUnavailable, 0%nat) ∧ ∀ i, ¬ owns addrs req h i) ∨
  ∃ k hops es nk nk',
    cluster_read fuel hash compile now rnds j rq c' = Some (CServed k (local_read compile now rq (n_store nk')), hops) ∧
    (hops <= 1)%nat ∧ owns addrs req h k ∧ (owns addrs req h j -> k = j ∧ hops = 0%nat) ∧
    c !! k = Some nk ∧ c' !! k = Some nk' ∧
    run (n_store nk) (writes now es) = Some (n_store nk') ∧
    of_source (rr_source rq) es = of_source (rr_source rq) batch.
Proof. exact cluster_ryw. Qed.
Print Assumptions C35_read_your_writes.
Definition two_cluster : list node := [mk_node two_table (new_store 5); mk_node two_table (new_store 5)].
Definition shared_log : envelope := mk_env 1 "abc" "" ∅ ∅ (MLog "p" false).
Example C35_example :
  same_tables two_nodes two_ranges two_cluster ∧
  send_calls (fun src => Model.lookup (hash_len src) two_table) 2 1 (mk_send false (Some [shared_log]))
    (Some [(0%nat, mk_send true (Some [shared_log]))]) ∧
  match deliver 9 [(0%nat, mk_send true (Some [shared_log]))] two_cluster with
  | Some c' => cluster_read 2 hash_len no_regexp 9 (fun _ => 0%nat) 1 (mk_rr "abc" 0 0 0 [] false "") c' =
               Some (CServed 0 (ReadOk [shared_log]), 1%nat)
  | None => False end.
Proof.
  split; [|split].
  - split; [done|]. intros [|[|i]] n Hn; simpl in Hn; simplify_eq; exists []; simpl; apply set_ranges_exists.
  - eexists. split; [reflexivity|]. by vm_compute.
  - vm_compute. done.
Qed.

(** C36 (refuted: two nodes that name each other forward a read forever) *)
Lemma read_forwarded_forever :
  ∃ c : list node, ∀ hash compile now rnds rq, is_hash (hash (rr_source rq)) ->
    ∀ fuel, cluster_read fuel hash compile now rnds 0 rq c = None.
Proof. exists pingpong. intros hash compile now rnds rq Hh fuel. by destruct (read_loops hash compile now rnds rq fuel Hh). Qed.
Theorem C36_read_forwarded_forever_refuted :
  ∃ c : list node, ∀ hash compile now rnds rq, is_hash (hash (rr_source rq)) ->
    ∀ fuel, cluster_read fuel hash compile now rnds 0 rq c = None.
Proof. exact read_forwarded_forever. Qed.
Print Assumptions C36_read_forwarded_forever_refuted.
(** Whatever else their tables say: if every node a table names for the source's hash is a node of the
    cluster and its own table names it too, every read ends after at most one forwarding, in the name of
    such a node. *)
Lemma read_ends hash compile now rnds c j n rq fuel :
  let owners := fun m : node => Model.lookup (hash (rr_source rq)) (n_table m) in
  (∀ a b m, c !! a = Some m -> b ∈ owners m -> ∃ m', c !! b = Some m' ∧ b ∈ owners m') ->
  c !! j = Some n -> (2 <= fuel)%nat ->
  ∃ ans hops, cluster_read fuel hash compile now rnds j rq c = Some (ans, hops) ∧ (hops <= 1)%nat ∧
    ((ans = CUnavailable ∧ owners n = []) ∨
     ∃ k m, k ∈ owners n ∧ c !! k = Some m ∧ ans = CServed k (local_read compile now rq (n_store m))).
Proof.
  intros owners Hm Hj Hf.
  assert (Hlt : ∀ a m, c !! a = Some m -> ∀ i, i ∈ owners m -> (i < length c)%nat).
  { intros a m Ha i Hi. destruct (Hm a i m Ha Hi) as (m' & H & _). by eapply lookup_lt_Some. }
  assert (Hown : ∀ fuel a m, c !! a = Some m -> a ∈ owners m ->
    cluster_read (S fuel) hash compile now rnds a rq c = Some (CServed a (local_read compile now rq (n_store m)), 0%nat)).
  { intros f a m Ha Hin. cbn [cluster_read]. rewrite Ha.
    destruct (read_route_spec (owners m) (length c) a (rnds f) (Hlt a m Ha)) as (route & Hr & _ & Hl & _).
    unfold owners in Hr. rewrite Hr. rewrite (Hl Hin). by rewrite Nat.eqb_refl. }
  destruct fuel as [|[|fuel]]; [lia|lia|].
  destruct (decide (j ∈ owners n)) as [Hin|Hni].
  { eexists _, _. split; [by apply Hown|]. split; [lia|]. right. by exists j, n. }
  cbn [cluster_read]. rewrite Hj.
  destruct (read_route_spec (owners n) (length c) j (rnds (S fuel)) (Hlt j n Hj)) as (route & Hr & Hu & _ & He).
  unfold owners in Hr. rewrite Hr. destruct (decide (owners n = [])) as [E|Hne].
  { rewrite (proj2 Hu E). eexists _, _. split; [done|]. split; [lia|]. by left. }
  destruct (He Hne) as (k & Hk & ->). destruct (Nat.eqb_spec k j) as [->|_]; [done|].
  destruct (Hm j k n Hj Hk) as (m & Hc & Hkm). change (cluster_read (S fuel) hash compile now rnds k rq c) with (cluster_read (S fuel) hash compile now rnds k rq c).
  pose proof (Hown fuel k m Hc Hkm) as Hx. cbn [cluster_read] in Hx. rewrite Hx. cbn.
  eexists _, _. split; [done|]. split; [lia|]. right. by exists k, m.
Qed.
Theorem C36_mutual_partial : ∀ hash compile now rnds c j n rq fuel,
  let owners := fun m : node => Model.lookup (hash (rr_source rq)) (n_table m) in
  (∀ a b m, c !! a = Some m -> b ∈ owners m -> ∃ m', c !! b = Some m' ∧ b ∈ owners m') ->
  c !! j = Some n -> (2 <= fuel)%nat ->
  ∃ ans hops, cluster_read fuel hash compile now rnds j rq c = Some (ans, hops) ∧ (hops <= 1)%nat ∧
    ((ans = CUnavailable ∧ owners n = []) ∨
     ∃ k m, k ∈ owners n ∧ c !! k = Some m ∧ ans = CServed k (local_read compile now rq (n_store m))).
Proof. exact read_ends. Qed.
Print Assumptions C36_mutual_partial.
Example C36_case : ∀ a b m, two_cluster !! a = Some m -> b ∈ Model.lookup 7 (n_table m) ->
  ∃ m', two_cluster !! b = Some m' ∧ b ∈ Model.lookup 7 (n_table m').
Proof.
  intros a b m Ha Hb. assert (m = mk_node two_table (new_store 5)) as ->.
  { destruct a as [|[|a]]; [by injection Ha as <-..|done]. }
  assert (E : Model.lookup 7 (n_table (mk_node two_table (new_store 5))) = [0%nat; 1%nat]) by (by vm_compute).
  rewrite E in Hb. rewrite !elem_of_cons, elem_of_nil in Hb.
  destruct Hb as [->|[->|[]]]; eexists; (split; [reflexivity|]); rewrite E; set_solver.
Qed.

(** ** Meta *)

(** C37 *)
Lemma meta_aggregation localIdx e cs e' evs i ev :
  meta_run localIdx e cs = (e', evs) -> evs !! i = Some ev -> ev_asked ev = true ->
  if c_local (ev_call ev) then ev_result ev = mjoin (c_answers (ev_call ev) !! localIdx)
  else (ev_result ev = None ↔ Forall (fun a => a = None) (c_answers (ev_call ev))) ∧
       ∀ m, ev_result ev = Some m -> ∀ k, m !! k = last_answer (c_answers (ev_call ev)) k.
Proof.
  revert e e' evs i. induction cs as [|c cs IH]; intros e e' evs i H Hi Ha; cbn [meta_run] in H.
  - by simplify_eq.
  - destruct (egress_meta (c_local c) (c_t1 c) (c_t2 c) localIdx (c_answers c) e) as [[e1 res] asked] eqn:E.
    destruct (meta_run localIdx e1 cs) as [e2 evs2] eqn:E2. injection H as <- <-.
    destruct i as [|i]; simpl in Hi; [|by eapply IH].
    injection Hi as <-. simpl in *.
    destruct (egress_meta_asked _ _ _ _ _ _ _ _ _ E) as (_ & _ & _ & H3 & H4 & _).
    destruct (c_local c); auto.
Qed.
Theorem C37_meta_aggregation : ∀ localIdx e cs e' evs i ev,
  meta_run localIdx e cs = (e', evs) -> evs !! i = Some ev -> ev_asked ev = true ->
  if c_local (ev_call ev) then ev_result ev = mjoin (c_answers (ev_call ev) !! localIdx)
  else (ev_result ev = None ↔ Forall (fun a => a = None) (c_answers (ev_call ev))) ∧
       ∀ m, ev_result ev = Some m -> ∀ k, m !! k = last_answer (c_answers (ev_call ev)) k.
Proof. exact meta_aggregation. Qed.
Print Assumptions C37_meta_aggregation.

(** C38 *)
Lemma meta_cache_fresh d localIdx cs e' evs i ev :
  meta_run localIdx (new_egress d) cs = (e', evs) -> evs !! i = Some ev -> ev_asked ev = false ->
  is_Some (ev_result ev) ∧
  ∃ j ev', (j < i)%nat ∧ evs !! j = Some ev' ∧ ev_asked ev' = true ∧
    c_local (ev_call ev') = c_local (ev_call ev) ∧ ev_result ev' = ev_result ev ∧
    c_t1 (ev_call ev) <= c_t2 (ev_call ev') + d.
Proof.
  intros H Hi Ha. destruct (meta_run_fresh _ _ _ _ _ _ _ H Hi Ha) as [Hs [?|(c & Hc & _)]]; [done|].
  unfold cache_of in Hc. simpl in Hc. by destruct (c_local (ev_call ev)).
Qed.
Theorem C38_meta_cache_fresh : ∀ d localIdx cs e' evs i ev,
  meta_run localIdx (new_egress d) cs = (e', evs) -> evs !! i = Some ev -> ev_asked ev = false ->
  is_Some (ev_result ev) ∧
  ∃ j ev', (j < i)%nat ∧ evs !! j = Some ev' ∧ ev_asked ev' = true ∧
    c_local (ev_call ev') = c_local (ev_call ev) ∧ ev_result ev' = ev_result ev ∧
    c_t1 (ev_call ev) <= c_t2 (ev_call ev') + d.
Proof. exact meta_cache_fresh. Qed.
Print Assumptions C38_meta_cache_fresh.
Example C37_C38_example :
  let mi := mk_meta 1 0 5 5 in let mi' := mk_meta 2 0 4 6 in
  let a := [Some (<["s" := mi]> ∅); None; Some (<["s" := mi']> (<["t" := mi]> ∅))] in
  let cs := [mk_call false 0 1 [None; None; None]; mk_call false 2 3 a; mk_call false 13 14 []; mk_call true 13 14 a; mk_call false 14 15 a] in
  map ev_asked (snd (meta_run 0 (new_egress 10) cs)) = [true; true; false; true; true] ∧
  map (fun ev => option_map (fun m : gmap string meta_info => (m !! "s", m !! "t")) (ev_result ev))
      (snd (meta_run 0 (new_egress 10) cs)) =
    [None; Some (Some mi', Some mi); Some (Some mi', Some mi); Some (Some mi, None); Some (Some mi', Some mi)].
Proof. vm_compute. split; reflexivity. Qed.

(** ** Orchestrator agent *)

(** C39 *)
Lemma orchestrator_ranges grow ps :
  Forall has_range ps ->
  ∃ o, orch_run grow new_orch ps = Some o ∧
       slice_read (o_mem o) (list_ranges o) = Some <$> ranges_spec [] ps.
Proof.
  intros Hf. destruct (orch_run_inv grow ps new_orch [] Hf eq_refl) as (o & E & Hi).
  exists o. split; [exact E|]. by apply orch_inv_read.
Qed.
Theorem C39_orchestrator_ranges : ∀ grow ps,
  Forall has_range ps ->
  ∃ o, orch_run grow new_orch ps = Some o ∧
       slice_read (o_mem o) (list_ranges o) = Some <$> ranges_spec [] ps.
Proof. exact orchestrator_ranges. Qed.
Print Assumptions C39_orchestrator_ranges.
Definition rA := mk_range 0 9. Definition rB := mk_range 10 19. Definition rC := mk_range 20 29.
Example C39_example :
  ranges_spec [] [AddRange (Some rA); AddRange (Some rB); RemoveRange (Some rC); AddRange (Some rA); RemoveRange (Some rA)] = [rB; rA].
Proof. vm_compute. reflexivity. Qed.

(** C40 (refuted, and what does hold) *)
Lemma list_ranges_aliased :
  ∃ grow ps ps' o o', Forall has_range (ps ++ ps') ∧
    orch_run grow new_orch ps = Some o ∧ orch_run grow o ps' = Some o' ∧
    slice_read (o_mem o) (list_ranges o) = Some <$> [rA; rB; rC] ∧
    slice_read (o_mem o') (list_ranges o) = Some <$> [rB; rC; rC].
Proof.
  exists (fun n => n), [AddRange (Some rA); AddRange (Some rB); AddRange (Some rC)], [RemoveRange (Some rA)].
  eexists _, _. split; [repeat (apply Forall_cons_2; [simpl; eauto|]); by apply Forall_nil_2|]. split; [by vm_compute|]. split; [by vm_compute|]. by vm_compute.
Qed.
Theorem C40_answer_changes_refuted :
  ∃ grow ps ps' o o', Forall has_range (ps ++ ps') ∧
    orch_run grow new_orch ps = Some o ∧ orch_run grow o ps' = Some o' ∧
    slice_read (o_mem o) (list_ranges o) = Some <$> [rA; rB; rC] ∧
    slice_read (o_mem o') (list_ranges o) = Some <$> [rB; rC; rC].
Proof. exact list_ranges_aliased. Qed.
Print Assumptions C40_answer_changes_refuted.
Theorem C40_stable_under_additions_partial : ∀ grow ps1 ps2 o1 o2,
  Forall has_range ps1 -> Forall is_add ps2 ->
  orch_run grow new_orch ps1 = Some o1 -> orch_run grow o1 ps2 = Some o2 ->
  slice_read (o_mem o2) (list_ranges o1) = slice_read (o_mem o1) (list_ranges o1).
Proof. exact list_ranges_stable. Qed.
Print Assumptions C40_stable_under_additions_partial.

(** C72 (refuted: requests without a range crash the agent) *)
Lemma missing_range_crashes :
  (∀ grow, orch_run grow new_orch [AddRange None; RemoveRange (Some rA)] = None) ∧
  (∀ grow, orch_run grow new_orch [AddRange (Some rA); RemoveRange None] = None).
Proof. split; intros grow; reflexivity. Qed.
Theorem C72_missing_range_crashes_refuted :
  (∀ grow, orch_run grow new_orch [AddRange None; RemoveRange (Some rA)] = None) ∧
  (∀ grow, orch_run grow new_orch [AddRange (Some rA); RemoveRange None] = None).
Proof. exact missing_range_crashes. Qed.
Print Assumptions C72_missing_range_crashes_refuted.
(** Requests with a range never crash the agent, whatever was added and removed before. *)
Theorem C72_with_range_partial : ∀ grow ps, Forall has_range ps -> is_Some (orch_run grow new_orch ps).
Proof. intros grow ps H. destruct (orchestrator_ranges grow ps H) as (o & -> & _). by eexists. Qed.
Print Assumptions C72_with_range_partial.
Example C72_case : Forall has_range [AddRange (Some rA); RemoveRange (Some rB); RemoveRange (Some rA); RemoveRange (Some rA)].
Proof. repeat (apply Forall_cons; split; [by eexists|]). by apply Forall_nil. Qed.
