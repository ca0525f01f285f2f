(** Clusters: scheduler to routing, writes and reads through proxies. *)
From stdpp Require Import prelude gmap strings list.
From Coq Require Import ZifyBool.
From Verif.Base Require Import GoInt Envelope.
From Verif.Store Require Import Model Spec.
From Verif.Routing Require Import Model Spec ProofsRanges ProofsTable ProofsProxy.
Open Scope Z_scope.

Lemma lookup_bind h addrs order :
  Model.lookup h (table_entries addrs order) =
  p ← order; (fun _ => default 0%nat (addr_index addrs !! p.1)) <$> filter (fun r => in_range h r = true) p.2.
Proof.
  unfold table_entries. induction order as [|p l IH]; [done|]. cbn [mbind list_bind].
  rewrite <-IH. clear IH. unfold Model.lookup at 1. rewrite omap_app. fold (Model.lookup h).
  f_equal. induction (p.2) as [|r rs IH]; [done|]. rewrite fmap_cons, filter_cons. cbn [omap list_omap].
  simpl ri_range. destruct (in_range h r) eqn:E.
  - rewrite decide_True by done. rewrite fmap_cons. f_equal. done.
  - rewrite decide_False by done. done.
Qed.

Lemma filter_small {A} (P : A -> Prop) `{∀ x, Decision (P x)} l :
  (∀ i j x y, l !! i = Some x -> l !! j = Some y -> P x -> P y -> i = j) ->
  filter P l = [] ∨ ∃ x, filter P l = [x].
Proof.
  induction l as [|x l IH]; intros Hu; [by left|]. rewrite filter_cons. destruct (decide (P x)) as [Hx|Hx].
  - right. exists x. f_equal. destruct (filter P l) as [|y ys] eqn:E; [done|].
    assert (Hy : y ∈ filter P l) by (rewrite E; set_solver).
    apply elem_of_list_filter in Hy as [Hy Hin]. apply elem_of_list_lookup in Hin as [j Hj].
    specialize (Hu 0%nat (S j) x y eq_refl Hj Hx Hy). done.
  - apply IH. intros i j a b Ha Hb Pa Pb. specialize (Hu (S i) (S j) a b Ha Hb Pa Pb). lia.
Qed.

Lemma NoDup_bind' {A B} (f : A -> list B) l :
  (∀ x1 x2 y, x1 ∈ l -> x2 ∈ l -> y ∈ f x1 -> y ∈ f x2 -> x1 = x2) ->
  (∀ x, x ∈ l -> NoDup (f x)) -> NoDup l -> NoDup (l ≫= f).
Proof.
  intros Hi Hf Hnd. induction Hnd as [|x l Hx Hnd IH]; [constructor|]. cbn [mbind list_bind].
  apply NoDup_app. split; [apply Hf; set_solver|]. split.
  - intros y Hy Hin. apply elem_of_list_bind in Hin as (x' & Hy' & Hx').
    assert (x = x'); [|by subst]. apply (Hi x x' y); [set_solver|set_solver|done|done].
  - apply IH; [|set_solver]. intros x1 x2 y H1 H2. apply Hi; set_solver.
Qed.

Lemma lookup_nodup addrs old req t h :
  NoDup addrs -> known_addrs addrs req -> no_overlap req -> set_ranges addrs old req t ->
  NoDup (Model.lookup h t).
Proof.
  intros Hnd Hk Hno (order & Ho & Ht & _). simpl in Ht.
  assert (Hp : Model.lookup h t ≡ₚ Model.lookup h (table_entries addrs order)) by (by apply omap_perm).
  rewrite Hp, lookup_bind.
  assert (Hel : ∀ p, p ∈ order -> req !! p.1 = Some p.2).
  { intros [a rs] Hin. rewrite Ho in Hin. by apply elem_of_map_to_list in Hin. }
  apply NoDup_bind'.
  - intros p1 p2 y H1 H2 Hy1 Hy2.
    apply elem_of_list_fmap in Hy1 as (_ & -> & _). apply elem_of_list_fmap in Hy2 as (_ & Heq & _).
    apply Hel in H1, H2.
    destruct (proj1 (elem_of_list_lookup addrs p1.1) (Hk _ (mk_is_Some _ _ H1))) as [j1 Hj1].
    destruct (proj1 (elem_of_list_lookup addrs p2.1) (Hk _ (mk_is_Some _ _ H2))) as [j2 Hj2].
    rewrite (proj2 (addr_index_spec addrs _ _ Hnd) Hj1), (proj2 (addr_index_spec addrs _ _ Hnd) Hj2) in Heq.
    simpl in Heq. subst j2. destruct p1, p2. simpl in *. congruence.
  - intros [a rs] Hp'. apply Hel in Hp'. simpl in *.
    destruct (filter_small (fun r => in_range h r = true) rs) as [->|[x ->]].
    + intros i j r r' Hi Hj Hr Hr'. apply in_range_covers in Hr, Hr'. by eapply (Hno a rs Hp').
    + constructor.
    + simpl. apply NoDup_singleton.
  - rewrite Ho. apply NoDup_map_to_list.
Qed.

(** ** Scheduler to routing table *)
Lemma convert_lookup ws a rs :
  NoDup ws.*1 -> convert_worker_state ws !! a = Some rs <-> (a, rs) ∈ ws.
Proof.
  unfold convert_worker_state.
  assert (Hg : ∀ m : gmap string (list range), NoDup ws.*1 ->
    foldl (fun m w => <[w.1 := w.2]> m) m ws !! a = Some rs <-> (a, rs) ∈ ws ∨ (a ∉ ws.*1 ∧ m !! a = Some rs)).
  { induction ws as [|[b bs] ws IH]; intros m Hnd; simpl.
    - split; [intros; right; split; [apply not_elem_of_nil|done]|intros [H|[_ ?]]; [by apply elem_of_nil in H|done]].
    - apply NoDup_cons in Hnd as [Hb Hnd]. rewrite IH by done. split.
      + intros [H|[Hn E]]; [left; set_solver|]. destruct (decide (a = b)) as [->|Hne].
        * rewrite lookup_insert in E. simplify_eq. left. set_solver.
        * rewrite lookup_insert_ne in E by done. right. split; [|done]. set_solver.
      + intros [H|[Hn E]].
        * apply elem_of_cons in H as [[= -> ->]|H]; [|by left]. right. split; [done|]. apply lookup_insert.
        * apply not_elem_of_cons in Hn as [Hne Hn]. right. split; [done|]. by rewrite lookup_insert_ne. }
  intros Hnd. rewrite Hg by done. rewrite lookup_empty. naive_solver.
Qed.

Lemma pipeline n rs ws addrs old t h :
  1 <= n <= 2 ^ 32 -> sched_ranges n = Some rs -> NoDup addrs -> NoDup ws.*1 ->
  (∀ a tasks, (a, tasks) ∈ ws -> a ∈ addrs ∧ NoDup tasks ∧ ∀ r, r ∈ tasks -> r ∈ rs) ->
  set_ranges addrs old (convert_worker_state ws) t -> is_hash h ->
  NoDup (Model.lookup h t) ∧
  ∃ r, r ∈ rs ∧ covers r h ∧
    ∀ i, i ∈ Model.lookup h t <-> ∃ a tasks, (a, tasks) ∈ ws ∧ r ∈ tasks ∧ addrs !! i = Some a.
Proof.
  intros Hn Hrs Hnd Hws Hw Hset Hh.
  destruct (sched_partition n rs Hn Hrs) as [_ [Hne Hp]].
  assert (Hk : known_addrs addrs (convert_worker_state ws)).
  { intros a [tasks Ha]. apply convert_lookup in Ha; [|done]. by destruct (Hw a tasks Ha). }
  assert (Huniq : ∀ r r' h, is_hash h -> r ∈ rs -> r' ∈ rs -> covers r h -> covers r' h -> r = r').
  { intros r r' h' Hh' Hr Hr' Hc Hc'. apply elem_of_list_lookup in Hr as [i Hi], Hr' as [j Hj].
    destruct (Hp h' Hh') as (k & rk & Hk' & _ & Hu). pose proof (Hu _ _ Hi Hc). pose proof (Hu _ _ Hj Hc'). congruence. }
  assert (Hbound : ∀ r h, r ∈ rs -> covers r h -> is_hash h).
  { intros r h' Hr [Hc1 Hc2]. apply elem_of_list_lookup in Hr as [i Hi].
    destruct (sched_ranges_spec n rs ltac:(lia) Hrs) as [_ Hs]. destruct (Hs i r Hi) as [H1 H2].
    pose proof (wrapu64_range (Z.of_nat i * (max_uint64 / n + 1))). rewrite <-H1 in H. unfold inu64, is_hash in *.
    destruct (decide _).
    - unfold max_uint64 in *. lia.
    - pose proof (wrapu64_range (r_start r + max_uint64 / n)). unfold inu64 in *. lia. }
  split.
  - apply (lookup_nodup addrs old (convert_worker_state ws) t h Hnd Hk); [|exact Hset].
    intros a tasks Ha h' i j r r' Hi Hj Hc Hc'. apply convert_lookup in Ha; [|done].
    destruct (Hw a tasks Ha) as (_ & Hndt & Hsub).
    assert (Hr : r ∈ rs) by (apply Hsub; by eapply elem_of_list_lookup_2).
    assert (Hr' : r' ∈ rs) by (apply Hsub; by eapply elem_of_list_lookup_2).
    rewrite (Huniq r r' h' (Hbound r h' Hr Hc) Hr Hr' Hc Hc') in Hi.
    by eapply NoDup_lookup.
  - destruct (Hp h Hh) as (k & r & Hk' & Hc & Hu). exists r. split; [by eapply elem_of_list_lookup_2|]. split; [done|].
    intros i. rewrite (lookup_owns addrs old _ t h i Hnd Hk Hset). unfold owns. split.
    + intros (a & tasks & r' & Hi & Ha & Hr' & Hc'). apply convert_lookup in Ha; [|done]. exists a, tasks.
      split; [done|]. split; [|done].
      rewrite (Huniq r r' h Hh); [done|by eapply elem_of_list_lookup_2|by apply (Hw a tasks Ha)|done|done].
    + intros (a & tasks & Ha & Hr & Hi). exists a, tasks, r. split; [done|]. split; [|done]. by apply convert_lookup.
Qed.

(** ** Cluster writes *)
Lemma put_all_run now es s : put_all now es s = run s (writes now es).
Proof.
  revert s. induction es as [|e es IH]; intros s; [done|]. unfold writes. rewrite fmap_cons. cbn [put_all run step].
  destruct (put_env e (e_source e) now s) as [s'|]; [|done]. cbn [mbind option_bind]. apply IH.
Qed.

Lemma delivered_cons i c calls :
  delivered i (c :: calls) = (if decide (c.1 = i) then get_batch c.2 else []) ++ delivered i calls.
Proof. done. Qed.
Lemma delivered_notin i calls : i ∉ calls.*1 -> delivered i calls = [].
Proof.
  induction calls as [|c calls IH]; intros Hn; [done|]. rewrite fmap_cons in Hn. apply not_elem_of_cons in Hn as [? ?].
  rewrite delivered_cons, decide_False by done. by apply IH.
Qed.

Lemma deliver_spec now calls c c' :
  NoDup calls.*1 -> deliver now calls c = Some c' ->
  length c' = length c ∧
  ∀ i n, c !! i = Some n -> ∃ s', c' !! i = Some (mk_node (n_table n) s') ∧
    run (n_store n) (writes now (delivered i calls)) = Some s'.
Proof.
  revert c. induction calls as [|[i0 r] calls IH]; intros c Hnd; cbn [deliver].
  - intros [= <-]. split; [done|]. intros i [t s] Hi. eauto.
  - rewrite fmap_cons in Hnd. apply NoDup_cons in Hnd as [Hi0 Hnd]. simpl in Hi0.
    destruct (c !! i0) as [n0|] eqn:En; cbn [mbind option_bind]; [|done].
    destruct (put_all now (get_batch r) (n_store n0)) as [s0|] eqn:Ep; cbn [mbind option_bind]; [|done].
    intros Hd. destruct (IH _ Hnd Hd) as [Hl Hi]. rewrite insert_length in Hl. split; [done|].
    intros i n Hn. rewrite delivered_cons. simpl. destruct (decide (i0 = i)) as [->|Hne].
    + rewrite En in Hn. injection Hn as <-. destruct (Hi i (mk_node (n_table n0) s0)) as (s' & H1 & H2).
      { apply list_lookup_insert. by eapply lookup_lt_Some. }
      exists s'. split; [done|]. rewrite delivered_notin in H2 by done. simpl in H2. injection H2 as <-.
      rewrite delivered_notin, app_nil_r by done. by rewrite <-put_all_run.
    + apply Hi. by rewrite list_lookup_insert_ne.
Qed.

Lemma delivered_source src k (lk : string -> list nat) batch calls :
  (∀ i, delivered i calls = filter (fun e => i ∈ lk (e_source e)) batch) ->
  k ∈ lk src -> of_source src (delivered k calls) = of_source src batch.
Proof.
  intros Hd Hk. rewrite Hd. unfold of_source. clear Hd. induction batch as [|e batch IH]; [done|].
  rewrite (filter_cons (fun e => k ∈ lk (e_source e))). destruct (decide (k ∈ lk (e_source e))) as [H|H].
  - rewrite !filter_cons. destruct (decide (e_source e = src)); by rewrite IH.
  - rewrite IH. rewrite filter_cons, decide_False; [done|]. intros He. by rewrite He in H.
Qed.

Lemma owns_lt addrs req h i : owns addrs req h i -> (i < length addrs)%nat.
Proof. intros (a & rs & r & Hi & _). by eapply lookup_lt_Some. Qed.

Lemma cluster_read_served hash compile now rnds addrs req c j rq fuel :
  NoDup addrs -> known_addrs addrs req -> same_tables addrs req c -> (j < length c)%nat -> (2 <= fuel)%nat ->
  let h := hash (rr_source rq) in
  (cluster_read fuel hash compile now rnds j rq c = Some (CUnavailable, 0%nat) ∧ ∀ i, ¬ owns addrs req h i) ∨
  ∃ k hops nk, cluster_read fuel hash compile now rnds j rq c = Some (CServed k (local_read compile now rq (n_store nk)), hops) ∧
    (hops <= 1)%nat ∧ owns addrs req h k ∧ c !! k = Some nk ∧ (owns addrs req h j -> k = j ∧ hops = 0%nat).
Proof.
  intros Hnd Hk [Hlen Hst] Hj Hfuel h. destruct fuel as [|[|fuel]]; [lia|lia|].
  assert (Hown : ∀ i n, c !! i = Some n -> ∀ k, k ∈ Model.lookup h (n_table n) <-> owns addrs req h k).
  { intros i n Hn k. destruct (Hst i n Hn) as [old Hs]. by eapply lookup_owns. }
  assert (Hlt : ∀ i n, c !! i = Some n -> ∀ k, k ∈ Model.lookup h (n_table n) -> (k < length c)%nat).
  { intros i n Hn k Hin. apply (Hown i n Hn) in Hin. rewrite Hlen. by eapply owns_lt. }
  destruct (lookup_lt_is_Some_2 c j Hj) as [nj Hnj].
  remember (S fuel) as fuel1 eqn:Ef1.
  cbn [cluster_read]. rewrite Hnj. fold h.
  destruct (read_route_spec (Model.lookup h (n_table nj)) (length c) j (rnds fuel1) (Hlt j nj Hnj))
    as (route & -> & Hun & Hloc & Hrem).
  destruct route as [|k].
  - left. split; [done|]. intros i Hi. apply (Hown j nj Hnj) in Hi.
    rewrite (proj1 Hun eq_refl) in Hi. by apply elem_of_nil in Hi.
  - right. assert (Hne : Model.lookup h (n_table nj) ≠ []). { intros E. apply Hun in E. done. }
    destruct (Hrem Hne) as (k' & Hk' & [= <-]). pose proof (proj1 (Hown j nj Hnj k) Hk') as Hok.
    destruct (Nat.eqb_spec k j) as [->|Hkj].
    + exists j, 0%nat, nj. split; [done|]. split; [lia|]. split; [done|]. done.
    + pose proof (Hlt j nj Hnj k Hk') as Hklt. destruct (lookup_lt_is_Some_2 c k Hklt) as [nk Hnk].
      rewrite Ef1. cbn [cluster_read]. rewrite Hnk. fold h.
      destruct (read_route_spec (Model.lookup h (n_table nk)) (length c) k (rnds fuel) (Hlt k nk Hnk))
        as (route2 & -> & Hun2 & Hloc2 & Hrem2).
      rewrite (Hloc2 (proj2 (Hown k nk Hnk k) Hok)). rewrite Nat.eqb_refl. cbn [mbind option_bind].
      exists k, 1%nat, nk. split; [done|]. split; [lia|]. split; [done|]. split; [done|].
      intros Hoj. apply (Hown j nj Hnj) in Hoj. specialize (Hloc Hoj). simplify_eq.
Qed.

Lemma cluster_ryw hash compile now rnds addrs req c i j ni batch calls c' rq fuel :
  NoDup addrs -> known_addrs addrs req -> no_overlap req -> same_tables addrs req c ->
  c !! i = Some ni -> (j < length c)%nat -> (2 <= fuel)%nat ->
  send_calls (fun src => Model.lookup (hash src) (n_table ni)) (length c) i (mk_send false (Some batch)) (Some calls) ->
  deliver now calls c = Some c' ->
  let h := hash (rr_source rq) in
  (cluster_read fuel hash compile now rnds j rq c' = Some (CUnavailable, 0%nat) ∧ ∀ i, ¬ owns addrs req h i) ∨
  ∃ k hops es nk nk',
    cluster_read fuel hash compile now rnds j rq c' = Some (CServed k (local_read compile now rq (n_store nk')), hops) ∧
    (hops <= 1)%nat ∧ owns addrs req h k ∧ (owns addrs req h j -> k = j ∧ hops = 0%nat) ∧
    c !! k = Some nk ∧ c' !! k = Some nk' ∧
    run (n_store nk) (writes now es) = Some (n_store nk') ∧
    of_source (rr_source rq) es = of_source (rr_source rq) batch.
Proof.
  intros Hnd Hk Hno Hst Hi Hj Hfuel Hsend Hdel h.
  destruct Hst as [Hlen Hst].
  set (lk := fun src => Model.lookup (hash src) (n_table ni)) in *.
  destruct (Hst i ni Hi) as [oldi Hsi].
  assert (Hlk : ∀ src k, k ∈ lk src <-> owns addrs req (hash src) k).
  { intros src k. unfold lk. by eapply lookup_owns. }
  destruct (send_spec lk (length c) i (mk_send false (Some batch)) batch (Some calls) eq_refl eq_refl) as (calls' & [= <-] & _ & Hndc & Hdv).
  { intros e k He Hin. apply Hlk in Hin. rewrite Hlen. by eapply owns_lt. }
  { exact Hsend. }
  assert (Hdv' : ∀ k, delivered k calls = filter (fun e => k ∈ lk (e_source e)) batch).
  { intros k. rewrite Hdv. apply bind_times. intros e He. by apply (lookup_nodup addrs oldi req). }
  destruct (deliver_spec now calls c c' Hndc Hdel) as [Hlen' Hd].
  assert (Hst' : same_tables addrs req c').
  { split; [by rewrite Hlen'|]. intros k n' Hn'.
    destruct (lookup_lt_is_Some_2 c k) as [n Hn]. { rewrite <-Hlen'. by eapply lookup_lt_Some. }
    destruct (Hd k n Hn) as (s' & E & _). rewrite E in Hn'. injection Hn' as <-. simpl. by eapply Hst. }
  destruct (cluster_read_served hash compile now rnds addrs req c' j rq fuel Hnd Hk Hst')
    as [[H1 H2]|(k & hops & nk' & H1 & H2 & H3 & H4 & H5)]; [by rewrite Hlen'|done|by left|].
  right. destruct (lookup_lt_is_Some_2 c k) as [nk Hnk]. { rewrite <-Hlen'. by eapply lookup_lt_Some. }
  destruct (Hd k nk Hnk) as (s' & E & Hrun). rewrite E in H4. injection H4 as <-.
  exists k, hops, (delivered k calls), nk, (mk_node (n_table nk) s').
  split; [exact H1|]. split; [done|]. split; [done|]. split; [done|]. split; [done|]. split; [done|]. split; [exact Hrun|].
  eapply delivered_source; [exact Hdv'|]. by apply Hlk.
Qed.

(** ** Disagreeing tables *)
Definition pingpong : list node :=
  [mk_node [mk_ri (mk_range 0 max_uint64) 1] (new_store 10); mk_node [mk_ri (mk_range 0 max_uint64) 0] (new_store 10)].
Lemma read_loops hash compile now rnds rq fuel :
  is_hash (hash (rr_source rq)) ->
  cluster_read fuel hash compile now rnds 0 rq pingpong = None ∧
  cluster_read fuel hash compile now rnds 1 rq pingpong = None.
Proof.
  intros Hh. induction fuel as [|fuel [IH0 IH1]]; [done|].
  assert (Hl : ∀ k, Model.lookup (hash (rr_source rq)) [mk_ri (mk_range 0 max_uint64) k] = [k]).
  { intros k. rewrite lookup_cons. simpl ri_range.
    rewrite (proj2 (in_range_covers _ _)); [done|]. unfold covers, is_hash in *. simpl. unfold max_uint64. lia. }
  assert (Hr : ∀ k l rnd, k ≠ l -> (k < 2)%nat -> read_route_of [k] 2 l rnd = Some (CallNode k)).
  { intros k l rnd Hkl Hk.
    destruct (read_route_spec [k] 2 l rnd) as (route & E & _ & _ & Hn).
    - intros i Hi. apply elem_of_list_singleton in Hi as ->. done.
    - destruct (Hn ltac:(done)) as (i & Hi & ->). apply elem_of_list_singleton in Hi as ->. done. }
  cbn [cluster_read].
  change (pingpong !! 0%nat) with (Some (mk_node [mk_ri (mk_range 0 max_uint64) 1] (new_store 10))).
  change (pingpong !! 1%nat) with (Some (mk_node [mk_ri (mk_range 0 max_uint64) 0] (new_store 10))).
  cbn [n_table]. rewrite !Hl. change (length pingpong) with 2%nat.
  rewrite !Hr by lia. cbn [Nat.eqb]. rewrite IH0, IH1. done.
Qed.
