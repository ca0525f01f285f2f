(** A node holds what arrived, in time order, up to its bound; nothing that was sent is unaccounted for. *)
From stdpp Require Import prelude gmap strings list.
From Coq Require Import ZifyBool ZifyNat.
From Verif.Base Require Import GoInt Envelope.
From Verif.Store Require Import Avl AvlProofs Model Spec ProofsBase ProofsHist ProofsAcct ProofsGet.
From Verif.Routing Require Import Model Spec ProofsTable ProofsProxy ProofsCluster.
From Verif.Whole Require Import Model Spec SpecFull Proofs.
Open Scope Z_scope.

(** ** The store as a list in time order *)
Definition keyed (l : list envelope) : list (Z * envelope) := (fun e => (e_ts e, e)) <$> l.

Lemma keyed_snd l : (keyed l).*2 = l.
Proof. unfold keyed. induction l; cbn; congruence. Qed.
Lemma keyed_fst l : (keyed l).*1 = e_ts <$> l.
Proof. unfold keyed. induction l; cbn; congruence. Qed.
Lemma keyed_exact l : exact_keys (keyed l).
Proof. unfold exact_keys, keyed. apply Forall_fmap, Forall_forall. done. Qed.

Lemma linsert_by_time e l : e_ts e ∉ e_ts <$> l -> linsert (e_ts e) e (keyed l) = keyed (by_time e l).
Proof.
  induction l as [|x l IH]; intros H; [done|]. cbn in H. apply not_elem_of_cons in H as [H1 H2]. cbn.
  destruct (Z.compare_spec (e_ts e) (e_ts x)) as [|Hlt|Hgt]; [done| |].
  - by destruct (Z.ltb_spec (e_ts e) (e_ts x)); [|lia].
  - destruct (Z.ltb_spec (e_ts e) (e_ts x)); [lia|]. cbn. f_equal. by apply IH.
Qed.
Lemma base_of_keyed m l : base_of m (keyed l) = keyed (if m <=? Z.of_nat (length l) then tail l else l).
Proof. unfold base_of, keyed. rewrite fmap_length. destruct (_ <=? _); [|done]. by destruct l. Qed.

Lemma by_time_perm e l : by_time e l ≡ₚ e :: l.
Proof. induction l as [|x l IH]; cbn; [done|]. destruct (_ <? _); [done|]. rewrite IH. apply Permutation_swap. Qed.
Lemma keep_sub m l e : keep m l e ⊆+ l ++ [e].
Proof.
  unfold keep. rewrite by_time_perm. rewrite (Permutation_app_comm l [e]). cbn. apply submseteq_skip.
  destruct (_ <=? _); [|done]. destruct l; [done|]. cbn. by apply submseteq_cons.
Qed.

Lemma put_keyed e src now s s' l :
  inv s -> in64 (e_ts e) -> e_ts e ∉ e_ts <$> l -> entries s src = keyed l -> put_env e src now s = Some s' ->
  entries s' src = keyed (keep (st_max s) l e) ∧ inv s' ∧ st_max s' = st_max s.
Proof.
  intros Hi H64 Hn Hl Hp.
  destruct (put_env_spec e src now s (inv_max s Hi) (inv_tree s Hi src)) as (f & sg' & Hf & Hocc & _ & _ & Hent & _ & _ & _ & E).
  destruct (step_inv s (OPut e src now) s' Hi) as [Hi' Hm']; [done|]. split; [|done].
  rewrite E in Hp. injection Hp as <-. unfold entries. cbn [st_index]. rewrite lookup_insert.
  assert (Hn' : e_ts e ∉ (base_of (st_max s) (entries s src)).*1).
  { rewrite Hl, base_of_keyed, keyed_fst. intros Hin. apply Hn. revert Hin. clear. destruct (_ <=? _); [|done]. destruct l; [done|]. cbn. intros Hin. by right. }
  assert (f = 0) as ->.
  { destruct (decide (f = 0)); [done|]. exfalso. apply Hn'. specialize (Hocc 0 ltac:(lia)).
    by rewrite Z.add_0_r, wrap64_id in Hocc. }
  rewrite Hent, Z.add_0_r, wrap64_id by done. rewrite Hl, base_of_keyed. rewrite linsert_by_time; [done|].
  by rewrite Hl, base_of_keyed, keyed_fst in Hn'.
Qed.
Lemma put_entries_ne e src now s s' x : x ≠ src -> inv s -> put_env e src now s = Some s' -> entries s' x = entries s x.
Proof.
  intros Hne Hi Hp.
  destruct (put_env_spec e src now s (inv_max s Hi) (inv_tree s Hi src)) as (f & sg' & _ & _ & _ & _ & _ & _ & _ & _ & E).
  rewrite E in Hp. injection Hp as <-. unfold entries. cbn [st_index]. by rewrite lookup_insert_ne.
Qed.

(** the arrivals of one event, put one after the other *)
Lemma put_all_keyed now src es : ∀ s s' l A,
  inv s -> l ⊆+ A -> distinct_times (A ++ of_source src es) -> entries s src = keyed l -> put_all now es s = Some s' ->
  entries s' src = keyed (foldl (keep (st_max s)) l (of_source src es)) ∧ inv s' ∧ st_max s' = st_max s ∧
  foldl (keep (st_max s)) l (of_source src es) ⊆+ A ++ of_source src es.
Proof.
  induction es as [|e es IH]; intros s s' l A Hi Hsub [H64 Hnd] Hl Hp; cbn [put_all] in Hp.
  { injection Hp as <-. cbn. rewrite app_nil_r. done. }
  destruct (put_env e (e_source e) now s) as [s1|] eqn:E1; [|done]. cbn [mbind option_bind] in Hp.
  destruct (step_inv s (OPut e (e_source e) now) s1 Hi E1) as [Hi1 Hm1].
  unfold of_source in *. rewrite filter_cons in *. destruct (decide (e_source e = src)) as [<-|Hne].
  - assert (He : in64 (e_ts e)). { apply Forall_app in H64 as [_ H]. by apply Forall_cons in H as [? _]. }
    assert (Hn : e_ts e ∉ e_ts <$> l).
    { intros Hin. rewrite fmap_app in Hnd. apply NoDup_app in Hnd as (_ & Hnd & _). apply (Hnd (e_ts e)); [|by left].
      eapply elem_of_submseteq; [exact Hin|]. by apply fmap_submseteq. }
    destruct (put_keyed e (e_source e) now s s1 l Hi He Hn Hl E1) as (H1 & _ & _).
    destruct (IH s1 s' (keep (st_max s) l e) (A ++ [e])) as (HA & HB & HC & HD); try done.
    { etransitivity; [apply keep_sub|]. by apply submseteq_app. }
    { split; rewrite <-app_assoc; done. }
    rewrite Hm1 in *. rewrite <-app_assoc in HD. done.
  - destruct (IH s1 s' l A) as (HA & HB & HC & HD); try done.
    { rewrite <-Hl. eapply put_entries_ne; [|exact Hi|exact E1]. done. }
    rewrite Hm1 in *. done.
Qed.

(** ** What a node holds *)
Lemma life_snoc k tr ev :
  life k (tr ++ [ev]) = match ev with VRestart i _ => if decide (i = k) then [] else life k tr ++ [ev] | _ => life k tr ++ [ev] end.
Proof. unfold life. by rewrite foldl_app. Qed.
Lemma arrived_app k src a b : arrived k src (a ++ b) = arrived k src a ++ arrived k src b.
Proof. apply bind_app. Qed.
Lemma arrived_snoc k src tr ev : arrived k src (tr ++ [ev]) = arrived k src tr ++ arrives k src ev.
Proof. rewrite arrived_app. f_equal. unfold arrived. cbn. by rewrite app_nil_r. Qed.
Lemma bound_snoc ms k tr ev :
  bound ms k (tr ++ [ev]) = match ev with VRestart i m => if decide (i = k) then m else bound ms k tr | _ => bound ms k tr end.
Proof. unfold bound. by rewrite foldl_app. Qed.
Lemma distinct_app a b : distinct_times (a ++ b) -> distinct_times a.
Proof. intros [H1 H2]. rewrite fmap_app in H2. apply Forall_app in H1 as [? _]. by apply NoDup_app in H2 as [? _]. Qed.

Lemma add_egress_entries n s src : entries (add_egress n s) src = entries s src.
Proof. done. Qed.
Lemma read_store (o : read_outcome) s src :
  let s' := match o with ReadOk es => add_egress (Z.of_nat (length es)) s | _ => s end in
  entries s' src = entries s src ∧ st_max s' = st_max s ∧ (inv s -> inv s').
Proof. destruct o; cbn; (split; [done|]); (split; [done|]); auto. intros H. by eapply inv_ext; [| |exact H]. Qed.

Definition node_ok ms k src tr (nd : node) : Prop :=
  inv (n_store nd) ∧ st_max (n_store nd) = bound ms k tr ∧
  ∀ (D : distinct_times (arrived k src (life k tr))), ∃ l, holds ms k src tr l ∧ entries (n_store nd) src = keyed l ∧
    l ⊆+ arrived k src (life k tr).

Lemma insert_cases {A} (l : list A) i j x y : <[i := x]> l !! j = Some y -> (i = j ∧ x = y ∧ (i < length l)%nat) ∨ (i ≠ j ∨ (length l <= i)%nat) ∧ l !! j = Some y.
Proof.
  intros H. destruct (decide (i = j)) as [->|Hne].
  - destruct (decide (j < length l)%nat).
    + rewrite list_lookup_insert in H by done. injection H as ->. by left.
    + rewrite list_insert_ge in H by lia. right. split; [right; lia|done].
  - rewrite list_lookup_insert_ne in H by done. right. auto.
Qed.

(** an event that does not touch what node k holds of the source *)
Lemma node_ok_other ms k src tr ev nd nd' :
  match ev with VArrive j _ | VPrune j _ _ | VRestart j _ => j ≠ k | _ => True end ->
  entries (n_store nd') src = entries (n_store nd) src -> st_max (n_store nd') = st_max (n_store nd) ->
  (inv (n_store nd) -> inv (n_store nd')) ->
  node_ok ms k src tr nd -> node_ok ms k src (tr ++ [ev]) nd'.
Proof.
  intros Hev He Hm Hii (Hi & Hb & H). assert (Hlife : life k (tr ++ [ev]) = life k tr ++ [ev]).
  { rewrite life_snoc. destruct ev; try done. by rewrite decide_False. }
  assert (Hb' : bound ms k (tr ++ [ev]) = bound ms k tr).
  { rewrite bound_snoc. destruct ev; try done. by rewrite decide_False. }
  assert (Ha : arrives k src ev = []). { destruct ev; try done. cbn. by rewrite decide_False. }
  split; [auto|]. split; [by rewrite Hb', Hm|]. rewrite Hlife, arrived_snoc, Ha, app_nil_r. intros D.
  destruct (H D) as (l & Hl & E & Hs). exists l. split; [by apply holds_other|]. split; [congruence|done].
Qed.

Lemma node_step hash compile ms src tr c ev c' k :
  step hash compile c ev c' -> (∀ nd, c_nodes c !! k = Some nd -> node_ok ms k src tr nd) ->
  ∀ nd', c_nodes c' !! k = Some nd' -> node_ok ms k src (tr ++ [ev]) nd'.
Proof.
  intros Hs IH nd' Hk.
  destruct Hs as [i r calls nd ns fl Hi Hc|j es now nd s ns fl fl' Hj Hp Hput|j e' ns fl fl' Hp|i t nd ns fl Hi|i n pri now nd s ns fl Hi Ht
                 |i m nd ns fl Hi Hm|k' rq now nd ns fl Hi]; cbn [c_nodes] in *.
  - eapply node_ok_other; [done..|by apply IH].
  - apply insert_cases in Hk as [(-> & <- & Hlt)|[Hne Hk]].
    + destruct (IH _ Hj) as (Hiv & Hb & H). unfold node_ok. cbn [n_store].
      rewrite put_all_run in Hput. destruct (run_inv _ _ _ Hiv Hput) as [Hiv' Hm'].
      split; [done|]. rewrite bound_snoc, life_snoc. split; [congruence|].
      rewrite arrived_snoc. cbn [arrives]. rewrite decide_True by done. intros D.
      destruct (H (distinct_app _ _ D)) as (l & Hl & E & Hsub). rewrite <-put_all_run in Hput.
      destruct (put_all_keyed now src es (n_store nd) s l (arrived k src (life k tr)) Hiv Hsub D E Hput) as (H1 & _ & _ & H4).
      rewrite Hb in H1, H4. eexists. split; [by apply holds_arrive|]. done.
    + eapply node_ok_other; [|done..|by apply IH]. destruct Hne as [?|Hge]; [done|]. apply lookup_lt_Some in Hj. lia.
  - eapply node_ok_other; [done..|by apply IH].
  - apply insert_cases in Hk as [(-> & <- & Hlt)|[Hne Hk]].
    + by apply (node_ok_other _ _ _ _ _ nd); try apply IH.
    + by apply (node_ok_other _ _ _ _ _ nd'); try apply IH.
  - apply insert_cases in Hk as [(-> & <- & Hlt)|[Hne Hk]].
    + destruct (IH _ Hi) as (Hiv & Hb & H). unfold node_ok. cbn [n_store].
      destruct (truncate_inv _ _ _ _ _ Hiv Ht) as [Hiv' Hm']. split; [done|]. rewrite bound_snoc, life_snoc. split; [congruence|].
      rewrite arrived_snoc. cbn [arrives]. rewrite app_nil_r. intros D. destruct (H D) as (l & Hl & E & Hsub).
      destruct (truncate_sub _ _ _ _ _ Hiv Ht src) as [rm Hrm]. rewrite !stored_entries, E in Hrm.
      assert (Hsp : l = take (length rm) l ++ drop (length rm) l) by by rewrite take_drop.
      exists (drop (length rm) l). split; [|split].
      * rewrite Hsp in Hl. by eapply holds_prune.
      * rewrite <-(take_drop (length rm) l) in Hrm at 1. unfold keyed in Hrm. rewrite fmap_app in Hrm.
        apply app_inj_1 in Hrm as [_ Hrm]; [done|]. rewrite fmap_length, take_length.
        apply (f_equal length) in Hrm. rewrite <-fmap_app, take_drop, fmap_length, app_length in Hrm. lia.
      * etransitivity; [|exact Hsub]. rewrite Hsp at 2. by apply submseteq_inserts_l.
    + eapply node_ok_other; [|done..|by apply IH]. destruct Hne as [?|Hge]; [done|]. apply lookup_lt_Some in Hi. lia.
  - apply insert_cases in Hk as [(-> & <- & Hlt)|[Hne Hk]].
    + unfold node_ok. cbn [n_store]. split; [by apply inv_new|]. rewrite bound_snoc, decide_True by done. split; [done|].
      rewrite life_snoc, decide_True by done. intros _. exists []. split; [by apply holds_restart|]. split; [|done].
      unfold entries. cbn. by rewrite lookup_empty.
    + eapply node_ok_other; [|done..|by apply IH]. destruct Hne as [?|Hge]; [done|]. apply lookup_lt_Some in Hi. lia.
  - apply insert_cases in Hk as [(-> & <- & Hlt)|[Hne Hk]].
    + destruct (read_store (local_read compile now rq (n_store nd)) (n_store nd) src) as (H1 & H2 & H3).
      eapply node_ok_other; [done|exact H1|exact H2|exact H3|by apply IH].
    + eapply node_ok_other; [done..|by apply IH].
Qed.

Lemma node_runs hash compile ms src tr c k :
  Forall (fun m => 1 <= m) ms -> runs hash compile (start ms) tr c ->
  ∀ nd, c_nodes c !! k = Some nd -> node_ok ms k src tr nd.
Proof.
  intros Hms Hr. induction Hr as [|tr c1 ev c2 Hr IH Hs].
  - intros nd Hk. cbn in Hk. apply list_lookup_fmap_inv in Hk as (m & -> & Hm). unfold node_ok. cbn [n_store].
    rewrite Forall_forall in Hms. split; [apply inv_new, Hms; by eapply elem_of_list_lookup_2|].
    split; [unfold bound; cbn; by rewrite Hm|]. intros _. exists []. split; [apply holds_start|]. split; [|done].
    unfold entries. cbn. by rewrite lookup_empty.
  - by eapply node_step.
Qed.

(** ** Answers *)
Lemma known_query compile now rq q : enum_types (rr_types rq) -> to_query compile now rq = Some q -> known_types (q_types q).
Proof.
  intros Hen Hq. pose proof (to_query_spec compile now rq) as HS. rewrite Hq in HS. destruct HS as (_ & _ & _ & Ht).
  rewrite Ht. unfold known_types. destruct (filter _ _) as [|t0 ts] eqn:Ef; [done|]. apply Forall_forall. intros t Hin n.
  apply Hen. rewrite <-Ef in Hin. by apply elem_of_list_filter in Hin as [_ ?].
Qed.

Lemma local_read_keyed compile now rq s l :
  inv s -> entries s (rr_source rq) = keyed l -> acceptable compile rq -> enum_types (rr_types rq) ->
  ∃ q all, resolved compile now rq q ∧ (∀ e, wanted_type (q_types q) e ↔ requested_type (rr_types rq) e) ∧
    answers q (if q_desc q then reverse l else l) all ∧
    local_read compile now rq s = ReadOk (take (Z.to_nat (q_limit q)) all).
Proof.
  intros Hi Hl Hacc Hen. pose proof (to_query_spec compile now rq) as HS. unfold local_read.
  destruct (to_query compile now rq) as [q|] eqn:Eq; [|done]. destruct HS as (_ & Hr & Hlim & _).
  pose proof (known_query _ _ _ _ Hen Eq) as Hk. destruct (get_env_known (rr_source rq) q s Hk) as [res Hg]. rewrite Hg.
  rewrite <-stored_entries in Hl.
  pose proof (get_exact (rr_source rq) q s res Hi) as Hx. rewrite Hl, keyed_snd in Hx.
  specialize (Hx (keyed_exact l) ltac:(lia) Hg). exists q. eexists. split; [done|].
  split; [intros e; by apply (to_query_types compile now)|]. split; [by apply answers_pick|]. by rewrite Hx.
Qed.

Lemma answer_held hash compile ms tr k rq now out post c :
  Forall (fun m => 1 <= m) ms -> runs hash compile (start ms) (tr ++ VRead k rq now (ReadOk out) :: post) c ->
  enum_types (rr_types rq) -> distinct_times (arrived k (rr_source rq) (life k tr)) ->
  ∃ q l all, resolved compile now rq q ∧ (∀ e, wanted_type (q_types q) e ↔ requested_type (rr_types rq) e) ∧
    holds ms k (rr_source rq) tr l ∧ answers q (if q_desc q then reverse l else l) all ∧
    out = take (Z.to_nat (q_limit q)) all.
Proof.
  intros Hms Hr Hen D. destruct (runs_split _ _ _ _ _ _ _ Hr) as (c1 & c2 & H1 & H2).
  inversion H2 as [| | | | | |k' rq' now' nd ns fl Hk]; subst. match goal with H : local_read _ _ _ _ = _ |- _ => rename H into E end.
  destruct (node_runs _ _ _ (rr_source rq) _ _ _ Hms H1 nd Hk) as (Hi & _ & H). destruct (H D) as (l & Hl & El & _).
  assert (Hacc : acceptable compile rq).
  { pose proof (to_query_spec compile now rq) as HS. unfold local_read in E. destruct (to_query compile now rq); [|done]. by destruct HS. }
  destruct (local_read_keyed compile now rq _ _ Hi El Hacc Hen) as (q & all & Hq & Hty & Ha & E').
  exists q, l, all. rewrite E' in E. injection E as <-. done.
Qed.

(** ** Nothing is missing *)
Lemma by_time_sorted e l : time_sorted l -> time_sorted (by_time e l).
Proof.
  induction l as [|x l IH]; intros H; [done|]. cbn in *. destruct H as [H1 H2]. destruct (Z.ltb_spec (e_ts e) (e_ts x)); cbn.
  - split; [|done]. constructor; [lia|]. eapply Forall_impl; [exact H1|]. cbn. lia.
  - split; [|by apply IH]. rewrite by_time_perm. constructor; [lia|done].
Qed.
Lemma keep_sorted m l e : time_sorted l -> time_sorted (keep m l e).
Proof. intros H. apply by_time_sorted. destruct (_ <=? _); [|done]. destruct l; [done|]. apply H. Qed.
Lemma keeps_sorted m es : ∀ l, time_sorted l -> time_sorted (foldl (keep m) l es).
Proof. induction es as [|e es IH]; intros l H; [done|]. cbn. by apply IH, keep_sorted. Qed.
Lemma time_sorted_drop a b : time_sorted (a ++ b) -> time_sorted b.
Proof. induction a as [|x a IH]; [done|]. cbn. intros [_ H]. auto. Qed.
Lemma holds_sorted ms k src tr l : holds ms k src tr l -> time_sorted l.
Proof. induction 1; try done; [by apply keeps_sorted|by eapply time_sorted_drop]. Qed.

Lemma keeps_all m es : ∀ l, Z.of_nat (length l + length es) <= m -> foldl (keep m) l es ≡ₚ l ++ es.
Proof.
  induction es as [|e es IH]; intros l H; [by rewrite app_nil_r|]. cbn [foldl length] in *.
  assert (Hk : keep m l e ≡ₚ l ++ [e]).
  { unfold keep. destruct (Z.leb_spec m (Z.of_nat (length l))); [lia|]. rewrite by_time_perm. apply Permutation_cons_append. }
  rewrite IH.
  - rewrite Hk. by rewrite <-app_assoc.
  - rewrite (Permutation_length Hk), app_length. cbn. lia.
Qed.

Definition prunes (k : nat) (ev : event) : Prop := match ev with VPrune j _ _ => j = k | _ => False end.
Lemma holds_all ms k src tr l :
  holds ms k src tr l -> (∀ n pri, VPrune k n pri ∉ life k tr) ->
  Z.of_nat (length (arrived k src (life k tr))) <= bound ms k tr -> l ≡ₚ arrived k src (life k tr).
Proof.
  induction 1 as [|tr l es H IH|tr older newer n pri H IH|tr m|tr l ev Hev H IH]; intros Hp Hb.
  - done.
  - rewrite life_snoc, arrived_snoc in *. cbn [arrives] in *. rewrite decide_True in * by done. rewrite bound_snoc in Hb.
    rewrite app_length in Hb.
    assert (IH' : l ≡ₚ arrived k src (life k tr)).
    { apply IH; [|lia]. intros n pri Hin. eapply Hp. apply elem_of_app. by left. }
    rewrite keeps_all; [by rewrite IH'|]. rewrite (Permutation_length IH'). done.
  - exfalso. rewrite life_snoc in Hp. eapply Hp. apply elem_of_app. right. by left.
  - by rewrite life_snoc, decide_True.
  - assert (Hlife : life k (tr ++ [ev]) = life k tr ++ [ev]).
    { rewrite life_snoc. destruct ev; try done. by rewrite decide_False. }
    assert (Hb' : bound ms k (tr ++ [ev]) = bound ms k tr).
    { rewrite bound_snoc. destruct ev; try done. by rewrite decide_False. }
    assert (Ha : arrives k src ev = []). { destruct ev; try done. cbn. by rewrite decide_False. }
    rewrite Hlife, Hb', arrived_snoc, Ha, app_nil_r in *. apply IH; [|done].
    intros n pri Hin. eapply Hp. apply elem_of_app. by left.
Qed.

(** ** Conservation *)
Lemma table_of_snoc i tr ev :
  table_of i (tr ++ [ev]) = match ev with VTable j t => if decide (j = i) then t else table_of i tr
                            | VRestart j _ => if decide (j = i) then [] else table_of i tr | _ => table_of i tr end.
Proof. unfold table_of. by rewrite foldl_app. Qed.

Lemma table_runs hash compile ms tr c i nd :
  runs hash compile (start ms) tr c -> c_nodes c !! i = Some nd -> n_table nd = table_of i tr.
Proof.
  intros Hr. revert nd. induction Hr as [|tr c1 ev c2 Hr IH Hs]; intros nd' Hk.
  { cbn in Hk. apply list_lookup_fmap_inv in Hk as (m & -> & _). done. }
  rewrite table_of_snoc.
  destruct Hs as [i' r calls nd ns fl Hi Hc|j es now nd s ns fl fl' Hj Hp Hput|j e' ns fl fl' Hp|i' t nd ns fl Hi|i' n pri now nd s ns fl Hi Ht
                 |i' m nd ns fl Hi Hm|k' rq now nd ns fl Hi]; cbn [c_nodes] in *; try by apply IH.
  all: apply insert_cases in Hk as [(-> & <- & Hlt)|[Hne Hk]]; cbn [n_table]; try (by apply IH); rewrite ?decide_True by done; try done.
  all: destruct Hne as [Hne|Hge]; [rewrite ?decide_False by done; by apply IH|].
  all: exfalso; apply lookup_lt_Some in Hi; lia.
Qed.

Lemma lost_snoc src tr ev : lost src (tr ++ [ev]) = lost src tr ++ match ev with VLose _ e => of_source src [e] | _ => [] end.
Proof. unfold lost. rewrite bind_app. f_equal. cbn. by rewrite app_nil_r. Qed.

Lemma flights_source src (calls : list (nat * send_request)) : of_source src (flights calls).*2 = c ← calls; of_source src (get_batch c.2).
Proof.
  induction calls as [|[i r] calls IH]; [done|]. change (flights ((i, r) :: calls)) with ((pair i <$> get_batch r) ++ flights calls).
  rewrite fmap_app, of_source_app, IH. cbn. f_equal. f_equal. rewrite <-list_fmap_compose. apply list_fmap_id.
Qed.

(** only node k is given envelopes of the source *)
Definition only (k : nat) (src : string) (fl : list (nat * envelope)) : Prop := ∀ j e, (j, e) ∈ fl -> e_source e = src -> j = k.
Lemma only_of_source k src fl : only k src fl -> of_source src fl.*2 = of_source src (to_node k fl).
Proof.
  induction fl as [|[j e] fl IH]; intros H; [done|]. change ((j, e) :: fl) with ([(j, e)] ++ fl). rewrite fmap_app, to_node_app, !of_source_app.
  rewrite IH by (intros j' e' Hin; apply H; by right). f_equal.
  change (to_node k [(j, e)]) with ((if decide (j = k) then [e] else []) ++ []). rewrite app_nil_r.
  destruct (decide (j = k)) as [->|Hne]; [done|]. unfold of_source. cbn [fmap list_fmap snd]. rewrite filter_cons, decide_False; [done|]. intros He. apply Hne. eapply H; [by left|done].
Qed.

Lemma routed_app hash k src a b : routed hash k src (a ++ b) -> routed hash k src a.
Proof. intros H pre i r post ->. apply (H pre i r (post ++ b)). by rewrite <-app_assoc. Qed.

Lemma calls_only hash k src i r calls n nd :
  (of_source src (get_batch r) ≠ [] -> if sr_local_only r then i = k else lookup (hash src) (n_table nd) = [k]) ->
  send_calls (fun x => lookup (hash x) (n_table nd)) n i r (Some calls) ->
  only k src (flights calls) ∧ of_source src (to_node k (flights calls)) = of_source src (get_batch r).
Proof.
  intros H Hc. split.
  - intros j e Hin He. apply flights_elem in Hin. pose proof (calls_delivered _ _ _ _ _ _ _ Hc Hin) as Hb.
    assert (Hlk : if sr_local_only r then i = k else lookup (hash src) (n_table nd) = [k]).
    { apply H. intros E. apply (not_elem_of_nil e). rewrite <-E. by apply of_source_elem. }
    rewrite (calls_delivered_all _ _ _ _ _ j Hc) in Hin.
    destruct (sr_local_only r). { subst i. destruct (decide (k = j)); [done|]. by apply elem_of_nil in Hin. } apply elem_of_list_bind in Hin as (x & Hx & _).
    apply elem_of_replicate in Hx as [-> Hx]. rewrite He, Hlk in Hx. unfold times in Hx.
    rewrite filter_cons in Hx. destruct (decide (k = j)) as [->|]; [done|]. cbn in Hx. lia.
  - rewrite to_node_flights. rewrite (calls_delivered_all _ _ _ _ _ k Hc).
    destruct (decide (of_source src (get_batch r) = [])) as [E|E].
    + rewrite E. apply elem_of_nil_inv. intros e Hin. apply (not_elem_of_nil e). rewrite <-E. apply of_source_elem in Hin as [He Hin]. apply of_source_elem. split; [done|].
      rewrite <-(calls_delivered_all _ _ _ _ _ k Hc) in Hin. by eapply calls_delivered.
    + specialize (H E). destruct (sr_local_only r). { subst i. by rewrite decide_True. } rename H into Hlk. clear -Hlk. induction (get_batch r) as [|e l IH]; [done|]. cbn [mbind list_bind]. rewrite of_source_app.
      change (e :: l) with ([e] ++ l). rewrite (of_source_app src [e]). f_equal; [|exact IH].
      destruct (decide (e_source e = src)) as [He|He].
      * rewrite He, Hlk. unfold times. rewrite filter_cons, decide_True by done. done.
      * unfold of_source at 2. rewrite filter_cons, decide_False by done. cbn.
        assert (Em : ∀ m, of_source src (replicate m e) = []); [|apply Em].
        intros m. induction m as [|m IHm]; [done|]. cbn [replicate]. unfold of_source in *. by rewrite filter_cons, decide_False.
Qed.

Lemma only_app k src a b : only k src (a ++ b) <-> only k src a ∧ only k src b.
Proof. unfold only. setoid_rewrite elem_of_app. naive_solver. Qed.
Lemma only_perm k src a b : a ≡ₚ b -> only k src a -> only k src b.
Proof. intros H Ha j e. rewrite <-H. apply Ha. Qed.

Lemma conserved hash compile ms tr c k src :
  runs hash compile (start ms) tr c -> routed hash k src tr ->
  only k src (c_flight c) ∧ (∀ j, j ≠ k -> arrived j src tr = []) ∧
  sent_to src tr ≡ₚ arrived k src tr ++ lost src tr ++ of_source src (to_node k (c_flight c)).
Proof.
  intros Hr. induction Hr as [|tr c1 ev c2 Hr IH Hs]; intros Hro.
  { split; [intros j e H; by apply elem_of_nil in H|]. done. }
  destruct (IH (routed_app _ _ _ _ _ Hro)) as (Ho & Hj & Hc). rewrite sent_to_snoc, arrived_snoc, lost_snoc.
  setoid_rewrite arrived_snoc.
  destruct Hs as [i r calls nd ns fl Hi Hcalls|j es now nd s ns fl fl' Hji Hp Hput|j e' ns fl fl' Hp|i t nd ns fl Hi|i n pri now nd s ns fl Hi Ht
                 |i m nd ns fl Hi Hm|k' rq now nd ns fl Hi]; cbn [c_flight arrives sends] in *; rewrite ?app_nil_r;
    try (split; [done|]; split; [intros j Hne; rewrite ?app_nil_r; by apply Hj|done]).
  - destruct (calls_only hash k src i r calls (length ns) nd) as [H1 H2]; [|done|].
    { intros Hne. pose proof (Hro tr i r [] eq_refl Hne) as Hlk.
      by rewrite (table_runs _ _ _ _ _ i nd Hr Hi). }
    split; [by apply only_app|]. split; [intros j Hne; rewrite app_nil_r; by apply Hj|].
    rewrite to_node_app, of_source_app, H2, Hc. rewrite <-!app_assoc. do 2 f_equiv. apply Permutation_app_comm.
  - pose proof (only_perm _ _ _ _ Hp Ho) as Ho'. apply only_app in Ho' as [Ho1 Ho2]. split; [done|].
    rewrite (of_source_perm src _ _ (to_node_perm k _ _ Hp)), to_node_app, of_source_app, to_node_pair in Hc.
    assert (Hes : j ≠ k -> of_source src es = []).
    { intros Hne. destruct (of_source src es) as [|e l] eqn:E; [done|]. exfalso. apply Hne.
      assert (Hin : e ∈ e :: l) by by left. rewrite <-E in Hin. apply of_source_elem in Hin as [He Hin].
      eapply Ho1; [|exact He]. apply elem_of_list_fmap. eauto. }
    split.
    + intros j' Hne. rewrite Hj by done. cbn. destruct (decide (j = j')) as [->|]; [auto|done].
    + rewrite Hc. destruct (decide (j = k)) as [->|Hne].
      * rewrite <-!app_assoc. f_equiv. rewrite !app_assoc. f_equiv. apply Permutation_app_comm.
      * cbn. rewrite app_nil_r. done.
  - pose proof (only_perm _ _ _ _ Hp Ho) as Ho'. change ((j, e') :: fl') with ([(j, e')] ++ fl') in Ho'. apply only_app in Ho' as [Ho1 Ho2].
    split; [done|]. split; [intros j' Hne; rewrite app_nil_r; by apply Hj|].
    rewrite Hc. rewrite (of_source_perm src _ _ (to_node_perm k _ _ Hp)). change ((j, e') :: fl') with ([(j, e')] ++ fl').
    rewrite to_node_app, of_source_app, <-(only_of_source _ _ _ Ho1). cbn. by rewrite <-!app_assoc.
Qed.

(** ** Reading through any node *)
Lemma read_from hash compile now rnds k j rq ns fuel nk nj :
  ns !! k = Some nk -> ns !! j = Some nj -> lookup (hash (rr_source rq)) (n_table nk) = [k] ->
  lookup (hash (rr_source rq)) (n_table nj) = [k] -> (2 <= fuel)%nat ->
  ∃ hops, (hops <= 1)%nat ∧ cluster_read fuel hash compile now rnds j rq ns = Some (CServed k (local_read compile now rq (n_store nk)), hops).
Proof.
  intros Hk Hj Hlk Hlj Hf. destruct fuel as [|[|fuel]]; [lia|lia|].
  assert (Hkl : (k <? length ns)%nat = true). { apply lookup_lt_Some in Hk. lia. }
  assert (Hself : ∀ f, cluster_read (S f) hash compile now rnds k rq ns = Some (CServed k (local_read compile now rq (n_store nk)), 0%nat)).
  { intros f. cbn [cluster_read]. rewrite Hk, Hlk. unfold read_route_of. cbn [existsb]. rewrite Nat.eqb_refl, Hkl. cbn [orb].
    by rewrite Nat.eqb_refl. }
  destruct (decide (j = k)) as [->|Hne]; [exists 0%nat; split; [lia|apply Hself]|]. exists 1%nat. split; [lia|].
  assert (E : cluster_read (S (S fuel)) hash compile now rnds j rq ns
    = '(a, hops) ← cluster_read (S fuel) hash compile now rnds k rq ns; Some (a, S hops)).
  { remember (S fuel) as f eqn:Ef. cbn [cluster_read]. rewrite Hj, Hlj. unfold read_route_of. cbn [existsb].
    assert (Ejk : (j =? k)%nat = false) by lia. assert (Ekj : (k =? j)%nat = false) by lia. rewrite Ejk. cbn [orb length].
    rewrite Nat.mod_1_r. change ([k] !! 0%nat) with (Some k). cbn [mbind option_bind]. rewrite Hkl. by rewrite Ekj. }
  rewrite E, Hself. done.
Qed.

Lemma all_readable hash compile ms tr c k j m rq now rnds fuel :
  Forall (fun m => 1 <= m) ms -> runs hash compile (start ms) tr c -> routed hash k (rr_source rq) tr ->
  ms !! k = Some m -> (j < length ms)%nat ->
  (∀ m', VRestart k m' ∉ tr) -> (∀ n pri, VPrune k n pri ∉ tr) ->
  lost (rr_source rq) tr = [] -> of_source (rr_source rq) (c_flight c).*2 = [] ->
  distinct_times (sent_to (rr_source rq) tr) -> Z.of_nat (length (sent_to (rr_source rq) tr)) <= m ->
  lookup (hash (rr_source rq)) (table_of k tr) = [k] -> lookup (hash (rr_source rq)) (table_of j tr) = [k] ->
  acceptable compile rq -> enum_types (rr_types rq) -> (2 <= fuel)%nat ->
  ∃ q l all hops, resolved compile now rq q ∧ (∀ e, wanted_type (q_types q) e ↔ requested_type (rr_types rq) e) ∧
    l ≡ₚ sent_to (rr_source rq) tr ∧ time_sorted l ∧ answers q (if q_desc q then reverse l else l) all ∧ (hops <= 1)%nat ∧
    cluster_read fuel hash compile now rnds j rq (c_nodes c) = Some (CServed k (ReadOk (take (Z.to_nat (q_limit q)) all)), hops).
Proof.
  intros Hms Hr Hro Hm Hj Hnr Hnp Hlost Hfl D Hlen Htk Htj Hacc Hen Hf.
  destruct (conserved _ _ _ _ _ _ _ Hr Hro) as (Ho & _ & Hc). rewrite <-(only_of_source _ _ _ Ho), Hlost, Hfl in Hc. cbn in Hc.
  rewrite app_nil_r in Hc.
  assert (Hlife : life k tr = tr ∧ bound ms k tr = m).
  { clear -Hnr Hm. induction tr as [|ev tr IH] using rev_ind; [split; [done|]; unfold bound; cbn; by rewrite Hm|].
    destruct IH as [H1 H2]; [intros m' Hin; apply (Hnr m'); apply elem_of_app; by left|].
    rewrite life_snoc, bound_snoc. destruct ev as [| | | | |i m'|]; try (rewrite H1, H2; done).
    destruct (decide (i = k)) as [->|]; [|by rewrite H1, H2]. exfalso. apply (Hnr m'). apply elem_of_app. right. by left. }
  destruct Hlife as [Hlife Hb].
  assert (Hlens : length (c_nodes c) = length ms).
  { clear -Hr. induction Hr as [|tr c1 ev c2 Hr IH Hs]; [cbn; by rewrite fmap_length|].
    destruct Hs; cbn [c_nodes] in *; rewrite ?insert_length; done. }
  destruct (lookup_lt_is_Some_2 (c_nodes c) k) as [nk Hk]. { rewrite Hlens. by eapply lookup_lt_Some. }
  destruct (lookup_lt_is_Some_2 (c_nodes c) j) as [nj Hnj]. { by rewrite Hlens. }
  destruct (node_runs _ _ _ (rr_source rq) _ _ _ Hms Hr nk Hk) as (Hi & _ & H). rewrite Hlife in H.
  destruct H as (l & Hl & El & _). { destruct D as [D1 D2]. split; [by rewrite <-Hc|by rewrite <-Hc]. }
  destruct (local_read_keyed compile now rq _ _ Hi El Hacc Hen) as (q & all & Hq & Hty & Ha & E').
  destruct (read_from hash compile now rnds k j rq (c_nodes c) fuel nk nj Hk Hnj) as (hops & Hh & Hread); [..|done|].
  { by rewrite (table_runs _ _ _ _ _ k nk Hr Hk). } { by rewrite (table_runs _ _ _ _ _ j nj Hr Hnj). }
  exists q, l, all, hops. split; [done|]. split; [done|]. split.
  { rewrite Hc. pose proof (holds_all _ _ _ _ _ Hl) as HA. rewrite Hlife, Hb, <-(Permutation_length Hc) in HA. by apply HA. }
  split; [by eapply holds_sorted|]. split; [done|]. split; [done|]. by rewrite Hread, E'.
Qed.
