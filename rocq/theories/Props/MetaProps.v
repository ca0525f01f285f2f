(** C149: what is said about sources is true of the nodes.  Vocabulary: Whole/SpecMeta.v (describes, asked_nodes),
    Whole/SpecFull.v, Routing/Spec.v (meta_run), Auth/Spec.v. *)
From Coq Require Import Ascii String.
From stdpp Require Import prelude gmap strings list.
From Verif.Base Require Import GoInt Envelope.
From Verif.Store Require Import Model Spec Witness.
From Verif.Routing Require Import Model Spec.
From Verif.Whole Require Import Model Spec SpecFull SpecMeta Proofs ProofsFull ProofsMeta Witness.
From Verif.Auth Require Model System Spec.
From Verif.Props Require Import WholeProps RoutingProps.
From Verif.Props Require AuthProps.
Open Scope Z_scope.

(** Of the node asked, yes: what a node says of a source describes what it holds, and it says nothing only if it holds
    nothing. *)
Theorem C149_node : ∀ hash compile ms src tr c k nd,
  Forall (fun m => 1 <= m) ms -> runs hash compile (start ms) tr c -> c_nodes c !! k = Some nd ->
  distinct_times (arrived k src (life k tr)) ->
  match meta (n_store nd) !! src with
  | None => holds ms k src tr []
  | Some mi => describes ms k src tr mi
  end.
Proof. exact node_meta. Qed.
Print Assumptions C149_node.

(** Of the node that has the source, no: after the source has moved from node 1 to node 0 the cluster still says what
    node 1 knows, although all nodes route the source to node 0 and nothing is on its way. *)
Definition moving : list todo :=
  [ Do (VTable 0 late_table); Do (VTable 1 late_table);
    Do (VSend 0 (mk_send false (Some [log_at 5 "0"; log_at 7 "0"]))); Do (VArrive 1 [log_at 5 "0"; log_at 7 "0"]);
    Do (VTable 0 split_table); Do (VTable 1 split_table);
    Do (VSend 0 (mk_send false (Some [log_at 9 "0"]))); Do (VArrive 0 [log_at 9 "0"]) ].
Definition moved : list event :=
  [ VTable 0 late_table; VTable 1 late_table;
    VSend 0 (mk_send false (Some [log_at 5 "0"; log_at 7 "0"])); VArrive 1 [log_at 5 "0"; log_at 7 "0"];
    VTable 0 split_table; VTable 1 split_table;
    VSend 0 (mk_send false (Some [log_at 9 "0"])); VArrive 0 [log_at 9 "0"] ].
Definition told (c : cluster) : option (gmap string meta_info) :=
  (egress_meta false 0 0 0 ((fun nd => Some (meta (n_store nd))) <$> c_nodes c) (new_egress 100)).1.2.
Local Instance meta_info_eq_dec : EqDecision meta_info.
Proof. solve_decision. Defined.
Lemma moved_run : ∃ c, runs toy_hash (fun _ => None) (start [3; 3]) moved c ∧
  bool_decide (c_flight c = []) && bool_decide ((fun nd => lookup (toy_hash "a") (n_table nd)) <$> c_nodes c = [[0%nat]; [0%nat]]) &&
  bool_decide ((m ← told c; m !! "a"%string) = Some (mk_meta 2 0 5 7)) = true.
Proof.
  destruct (play toy_hash (fun _ => None) [] (start [3; 3]) moving) as [[tr c]|] eqn:E; [|by vm_compute in E].
  exists c. assert (tr = moved) as ->. { vm_compute in E. by injection E as <- _. }
  split; [eapply play_ok; [apply runs_nil|exact E]|].
  vm_compute in E. injection E as <-. vm_compute. reflexivity.
Qed.
Theorem C149_moved_refuted : ∃ hash compile ms tr c k d e' ev m mi,
  Forall (fun m => 1 <= m) ms ∧ runs hash compile (start ms) tr c ∧ c_flight c = [] ∧
  Forall (fun nd => lookup (hash "a"%string) (n_table nd) = [k]) (c_nodes c) ∧
  meta_run 0 (new_egress d) [mk_call false 0 0 ((fun nd => Some (meta (n_store nd))) <$> c_nodes c)] = (e', [ev]) ∧
  ev_result ev = Some m ∧ m !! "a"%string = Some mi ∧ ¬ describes ms k "a" tr mi.
Proof.
  destruct moved_run as (c & Hr & Ht). apply andb_true_iff in Ht as [Ht H3]. apply andb_true_iff in Ht as [H1 H2].
  apply bool_decide_eq_true in H1, H2, H3. unfold told in H3.
  destruct (egress_meta false 0 0 0 ((fun nd => Some (meta (n_store nd))) <$> c_nodes c) (new_egress 100)) as [[e' res] asked] eqn:E.
  cbn in H3. destruct res as [m|]; [|done]. cbn in H3.
  exists toy_hash, (fun _ => None), [3; 3], moved, c, 0%nat, 100, e', (mk_event (mk_call false 0 0 ((fun nd => Some (meta (n_store nd))) <$> c_nodes c)) (Some m) asked), m, (mk_meta 2 0 5 7).
  split; [by repeat constructor|]. split; [done|]. split; [done|]. split.
  { apply Forall_forall. intros nd Hin. apply (elem_of_list_fmap_1 (fun nd => lookup (toy_hash "a") (n_table nd))) in Hin.
    rewrite H2 in Hin. apply elem_of_cons in Hin as [Hin|Hin]; [done|]. apply elem_of_list_singleton in Hin. done. }
  split; [unfold meta_run; cbn [c_local c_t1 c_t2 c_answers]; by rewrite E|]. split; [done|]. split; [done|].
  intros (l & _ & _ & _ & _ & _ & _ & H). destruct H as [H _]; [|by vm_compute in H].
  intros n pri. unfold moved. rewrite elem_of_list_In. vm_compute. naive_solver.
Qed.
Print Assumptions C149_moved_refuted.

(** What is proved: whatever the cluster has been through and whatever is cached, each entry of an answer describes what
    some node held of that source at some moment. *)
Theorem C149_answer_partial : ∀ hash compile ms tr d localIdx cs e' evs i ev m src mi,
  Forall (fun m => 1 <= m) ms -> (∀ c, c ∈ cs -> asked_nodes hash compile ms tr (c_answers c)) ->
  meta_run localIdx (new_egress d) cs = (e', evs) -> evs !! i = Some ev -> ev_result ev = Some m -> m !! src = Some mi ->
  (∀ k pre post, tr = pre ++ post -> distinct_times (arrived k src (life k pre))) ->
  ∃ k pre post, tr = pre ++ post ∧ describes ms k src pre mi.
Proof.
  intros hash compile ms tr d localIdx cs e' evs i ev m src mi Hms Hans Hrun Hi Hres Hm HD.
  assert (Hcall : ∀ j ev', evs !! j = Some ev' -> ev_call ev' ∈ cs).
  { clear Hi Hres Hans. intros j ev'. revert Hrun j ev'. generalize (new_egress d) as e. revert e' evs.
    induction cs as [|c cs IH]; intros e' evs e Hrun j ev' Hj; cbn [meta_run] in Hrun.
    - by injection Hrun as <- <-.
    - destruct (egress_meta _ _ _ _ _ _) as [[e1 res] asked]. destruct (meta_run localIdx e1 cs) as [e2 evs2] eqn:E.
      injection Hrun as <- <-. destruct j as [|j]; [injection Hj as <-; by left|]. right. by eapply IH. }
  assert (H : ∃ j ev', evs !! j = Some ev' ∧ ev_asked ev' = true ∧ ev_result ev' = Some m).
  { destruct (ev_asked ev) eqn:Ea; [by exists i, ev|].
    destruct (C38_meta_cache_fresh d localIdx cs e' evs i ev Hrun Hi Ea) as (_ & j & ev' & _ & Hj & Ha & _ & Hr & _).
    exists j, ev'. split; [done|]. split; [done|]. congruence. }
  destruct H as (j & ev' & Hj & Ha & Hr). pose proof (C37_meta_aggregation localIdx _ cs e' evs j ev' Hrun Hj Ha) as Hagg.
  assert (∃ k a, c_answers (ev_call ev') !! k = Some (Some a) ∧ a !! src = Some mi) as (k & a & Hk & Hmi).
  { destruct (c_local (ev_call ev')).
    - rewrite Hr in Hagg. destruct (c_answers (ev_call ev') !! localIdx) as [[a|]|] eqn:E; try done.
      exists localIdx, a. cbn in Hagg. by injection Hagg as <-.
    - destruct Hagg as [_ Hagg]. specialize (Hagg m Hr src). rewrite Hm in Hagg. by apply last_answer_from. }
  destruct (Hans _ (Hcall _ _ Hj) k a Hk) as (pre & post & c & nd & Etr & Hruns & Hnd & ->).
  exists k, pre, post. split; [done|]. pose proof (node_meta _ _ ms src pre c k nd Hms Hruns Hnd (HD k pre post Etr)) as Hd.
  by rewrite Hmi in Hd.
Qed.
Print Assumptions C149_answer_partial.

(** Through the proxy: an entry a user is given is of a source they may see, and describes what a node held of it.  [dec] reads
    the numbers of an entry of the backend's JSON answer. *)
Theorem C149_user_partial : ∀ L C clock u r mb s (dec : Auth.Model.meta_info L -> meta_info)
    hash compile ms tr d localIdx cs e' evs src x,
  Auth.System.finishes L C clock u (Auth.System.KServe r) (Auth.System.RHttp (Auth.Model.MetaBody mb)) s ->
  mb !! src = Some x ->
  Forall (fun m => 1 <= m) ms -> (∀ c, c ∈ cs -> asked_nodes hash compile ms tr (c_answers c)) ->
  meta_run localIdx (new_egress d) cs = (e', evs) ->
  (∀ b, Auth.System.AMeta (Some b) ∈ Auth.Spec.own u (Auth.System.s_log s) ->
     ∃ i ev, evs !! i = Some ev ∧ ev_result ev = Some (dec <$> b)) ->
  (∀ k pre post, tr = pre ++ post -> distinct_times (arrived k src (life k pre))) ->
  (∃ cl, Auth.Spec.vouched L (Auth.System.s_log s) u (Auth.Model.rq_auth r) cl ∧
     (Auth.Spec.admin cl ∨ ∃ l ids, Auth.Spec.listed L C (Auth.Model.rq_auth r) l ids ∧ src ∈ ids)) ∧
  ∃ k pre post, tr = pre ++ post ∧ describes ms k src pre (dec x).
Proof.
  intros L C clock u r mb s dec hash compile ms tr d localIdx cs e' evs src x Hf Hx Hms Hans Hrun Hb HD.
  destruct (AuthProps.C50_meta L C clock u r mb s Hf) as (cl & l1 & l2 & b & Hv & Hown & Hcase).
  assert (Hbx : b !! src = Some x ∧ (Auth.Spec.admin cl ∨ ∃ l ids, Auth.Spec.listed L C (Auth.Model.rq_auth r) l ids ∧ src ∈ ids)).
  { destruct Hcase as [[Ha ->]|(_ & ids & Hl & Hids)]; [by split; [|left]|].
    rewrite Hids in Hx. destruct (decide (src ∈ ids)) as [Hin|]; [|done]. split; [done|]. right.
    destruct Hl as [Hl|[_ ->]]; [by eauto|]. by apply elem_of_nil in Hin. }
  destruct Hbx as [Hbx Hauth]. split; [by exists cl|].
  destruct (Hb b) as (i & ev & Hi & Hr). { rewrite Hown. apply elem_of_app. right. by left. }
  eapply (C149_answer_partial hash compile ms tr d localIdx cs e' evs i ev (dec <$> b) src (dec x)); try done.
  by rewrite lookup_fmap, Hbx.
Qed.
Print Assumptions C149_user_partial.

(** the cluster above, asked after its last event: every node of it answers, and the timestamps are distinct *)
Example C149_case : ∃ c, runs toy_hash (fun _ => None) (start [3; 3]) moved c ∧
  asked_nodes toy_hash (fun _ => None) [3; 3] moved ((fun nd => Some (meta (n_store nd))) <$> c_nodes c) ∧
  (m ← told c; m !! "a"%string) = Some (mk_meta 2 0 5 7) ∧
  Forall (fun k => distinct_times (arrived k "a" (life k moved))) [0%nat; 1%nat].
Proof.
  destruct moved_run as (c & Hr & Ht). apply andb_true_iff in Ht as [Ht H3]. apply bool_decide_eq_true in H3.
  exists c. split; [done|]. split.
  { intros k a Hk. rewrite list_lookup_fmap in Hk. destruct (c_nodes c !! k) as [nd|] eqn:E; [|done]. injection Hk as <-.
    exists moved, [], c, nd. by rewrite app_nil_r. }
  assert (E0 : arrived 0 "a" (life 0 moved) = [log_at 9 "0"]) by (vm_compute; reflexivity).
  assert (E1 : arrived 1 "a" (life 1 moved) = [log_at 5 "0"; log_at 7 "0"]) by (vm_compute; reflexivity).
  split; [done|]. constructor; [|constructor; [|constructor]]; rewrite ?E0, ?E1.
  - split; [repeat (constructor; [split; vm_compute; done|]); constructor|by apply NoDup_singleton].
  - split; [repeat (constructor; [split; vm_compute; done|]); constructor|].
    apply NoDup_cons. split; [|by apply NoDup_singleton]. intros H. apply elem_of_list_singleton in H. done.
Qed.
