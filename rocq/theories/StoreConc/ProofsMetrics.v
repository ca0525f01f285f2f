(** The store's metrics under any interleaving. *)
From stdpp Require Import prelude gmap strings.
From Coq Require Import ZifyBool ZifyNat.
From Verif.Base Require Import GoInt Envelope.
From Verif.Store Require Import Avl AvlProofs GoHeap GoHeapProofs Model Spec ProofsBase ProofsRoom.
From Verif.StoreConc Require Import Model Spec ProofsLock ProofsTree ProofsLin ProofsAcct ProofsFinal Metrics SpecMetrics.
Open Scope Z_scope.
#[local] Opaque find_fudge avl_put avl_remove avl_left get_tree lookup insert heap_pop heap_push.

(** ** The schedule of the store inside the schedule with metrics *)
Lemma mrun_snoc c ls l c' : mrun c (ls ++ [l]) = Some c' -> ∃ c1, mrun c ls = Some c1 ∧ mstep c1 l = Some c'.
Proof.
  revert c. induction ls as [|x ls IH]; intros c; cbn.
  - destruct (mstep c l) as [c1|] eqn:E; [|done]. cbn. intros [= <-]. by exists c.
  - destruct (mstep c x) as [c1|]; [|done]. cbn. apply IH.
Qed.
Lemma mrun_app c ls1 ls2 : mrun c (ls1 ++ ls2) = c1 ← mrun c ls1; mrun c1 ls2.
Proof. revert c. induction ls1 as [|x ls IH]; intros c; cbn; [done|]. destruct (mstep c x) as [c1|]; [|done]. cbn. apply IH. Qed.

Lemma mstep_cases c l c' : mstep c l = Some c' ->
  (∃ x, l = MStore (LCall x) ∧ c' = mk_mc (mk_cfg (cf_sh (mc_cfg c)) (cf_threads (mc_cfg c) ++ [start_of x])) (mc_size c) (mc_egress c) (mc_pend c)) ∨
  (∃ tid ch th s' th', l = MStore (LStep tid ch) ∧ mc_pend c !! tid = None ∧ cf_threads (mc_cfg c) !! tid = Some th ∧
     tstep tid ch (cf_sh (mc_cfg c)) th = Some (s', th') ∧
     cstep (mc_cfg c) (LStep tid ch) = Some (mk_cfg s' (<[tid:=th']> (cf_threads (mc_cfg c)))) ∧
     c' = mk_mc (mk_cfg s' (<[tid:=th']> (cf_threads (mc_cfg c)))) (mc_size c) (mc_egress c + egress_of th th')
            (if sets_size (cf_sh (mc_cfg c)) th th' then <[tid:=ToLoad]> (mc_pend c) else mc_pend c)) ∨
  (∃ tid, l = MLoad tid ∧ mc_pend c !! tid = Some ToLoad ∧
     c' = mk_mc (mc_cfg c) (mc_size c) (mc_egress c) (<[tid := ToSet (sh_count (cf_sh (mc_cfg c)))]> (mc_pend c))) ∨
  (∃ tid v, l = MSet tid ∧ mc_pend c !! tid = Some (ToSet v) ∧ c' = mk_mc (mc_cfg c) v (mc_egress c) (delete tid (mc_pend c))).
Proof.
  unfold mstep. destruct (existsb is_panicked (cf_threads (mc_cfg c))) eqn:Ep; [done|].
  destruct l as [[x|tid ch]|tid|tid].
  - unfold cstep. rewrite Ep. cbn. intros [= <-]. left. by exists x.
  - destruct (mc_pend c !! tid) eqn:Em; [done|]. destruct (cf_threads (mc_cfg c) !! tid) as [th|] eqn:Et; [|done]. cbn [mbind option_bind].
    destruct (cstep (mc_cfg c) (LStep tid ch)) as [c1|] eqn:Es; [|done]. cbn [mbind option_bind].
    pose proof Es as Es'. unfold cstep in Es'. rewrite Ep, Et in Es'. cbn [mbind option_bind] in Es'.
    destruct (tstep tid ch (cf_sh (mc_cfg c)) th) as [[s' th']|] eqn:Ets; [|done]. cbn [mbind option_bind] in Es'. injection Es' as <-.
    cbn [cf_threads]. rewrite list_lookup_insert by (by eapply lookup_lt_Some). cbn [mbind option_bind].
    intros [= <-]. right; left. exists tid, ch, th, s', th'. done.
  - destruct (mc_pend c !! tid) as [[]|] eqn:Em; try done. intros [= <-]. right; right; left. by exists tid.
  - destruct (mc_pend c !! tid) as [[]|] eqn:Em; try done. intros [= <-]. right; right; right. by exists tid, v.
Qed.

Lemma store_run m ls c : mrun (minitial m) ls = Some c -> crun (initial m) (store_labels ls) = Some (mc_cfg c).
Proof.
  revert c. induction ls as [|l ls IH] using rev_ind; intros c H; [by injection H as <-|].
  apply mrun_snoc in H as (c1 & H1 & H2). specialize (IH _ H1).
  assert (Hstep : ∀ x, l = MStore x -> cstep (mc_cfg c1) x = Some (mc_cfg c)).
  { intros x ->. destruct (mstep_cases _ _ _ H2) as [(y & [= ->] & ->)|[(tid & ch & th & s' & th' & [= ->] & _ & _ & _ & Hs & ->)|[(? & ? & _)|(? & ? & ? & _)]]]; try done.
    unfold mstep in H2. unfold cstep in *. by destruct (existsb is_panicked (cf_threads (mc_cfg c1))). }
  unfold store_labels in *. rewrite bind_app. cbn. destruct l as [x|tid|tid]; cbn.
  - rewrite (crun_app _ _ _). rewrite IH. cbn. rewrite (Hstep x eq_refl). done.
  - rewrite app_nil_r. destruct (mstep_cases _ _ _ H2) as [(y & ? & _)|[(? & ? & ? & ? & ? & ? & _)|[(? & _ & _ & ->)|(? & ? & ? & _)]]]; done.
  - rewrite app_nil_r. destruct (mstep_cases _ _ _ H2) as [(y & ? & _)|[(? & ? & ? & ? & ? & ? & _)|[(? & ? & _)|(? & ? & _ & _ & ->)]]]; done.
Qed.

(** ** The ingress counter *)
Definition begun (ths : list thread) : list unit := ths ≫= (fun th => if put_begun th then [()] else []).
Lemma begun_filter ths : length (begun ths) = length (filter (fun th => put_begun th = true) ths).
Proof.
  unfold begun. induction ths as [|th ths IH]; [done|]. cbn [mbind list_bind]. rewrite app_length, IH, filter_cons.
  destruct (put_begun th); cbn; done.
Qed.
Lemma ingress_step tid ch s th s' th' : tstep tid ch s th = Some (s', th') -> th' ≠ Panicked ->
  sh_ingress s' = sh_ingress s + ((if put_begun th' then 1 else 0) - (if put_begun th then 1 else 0)).
Proof. intros H Hp. destruct th; cbn [tstep] in H; step_cases H; try done; cbn; lia. Qed.
Lemma ingress_reach m ls c : crun (initial m) ls = Some c -> ¬ crashed c ->
  sh_ingress (cf_sh c) = len (begun (cf_threads c)).
Proof.
  revert c. induction ls as [|l ls IH] using rev_ind; intros c H Hnc; [by injection H as <-|].
  apply crun_snoc in H as (c1 & H1 & H2). specialize (IH _ H1 (no_panic_before _ _ _ H2)).
  apply cstep_cases in H2 as [(x & -> & ->)|(tid & ch & th & s' & th' & -> & Ht & Hs & ->)]; cbn [cf_sh cf_threads].
  - rewrite IH. unfold begun. rewrite bind_app, len_app. destruct x; cbn; unfold len; cbn; lia.
  - assert (Hp : th' ≠ Panicked).
    { intros ->. apply Hnc. unfold crashed. cbn. apply elem_of_list_lookup. exists tid. apply list_lookup_insert. by eapply lookup_lt_Some. }
    rewrite (ingress_step _ _ _ _ _ _ Hs Hp), IH.
    destruct (bind_upd (fun th => if put_begun th then [()] else []) (cf_threads c1) tid th th' Ht) as (r & E & E').
    unfold begun. rewrite (len_perm _ _ E), (len_perm _ _ E'), !len_app.
    destruct (put_begun th), (put_begun th'); unfold len; cbn; lia.
Qed.

(** The calls of a schedule and its threads *)
Definition is_putting (th : thread) : bool :=
  match th with PStart _ _ => true | th => put_begun th end.
Lemma puts_reach m ls c : crun (initial m) ls = Some c -> ¬ crashed c ->
  length (filter (fun th => is_putting th = true) (cf_threads c)) = length (puts_called ls).
Proof.
  assert (Hf : ∀ ths, length (filter (fun th => is_putting th = true) ths) = length (ths ≫= (fun th => if is_putting th then [()] else []))).
  { intros ths. induction ths as [|th ths IH]; [done|]. cbn [mbind list_bind]. rewrite app_length, <-IH, filter_cons.
    destruct (is_putting th); cbn; done. }
  revert c. induction ls as [|l ls IH] using rev_ind; intros c H Hnc; [by injection H as <-|].
  apply crun_snoc in H as (c1 & H1 & H2). specialize (IH _ H1 (no_panic_before _ _ _ H2)).
  unfold puts_called in *. rewrite bind_app, app_length. rewrite <-IH. rewrite !Hf.
  apply cstep_cases in H2 as [(x & -> & ->)|(tid & ch & th & s' & th' & -> & Ht & Hs & ->)]; cbn [cf_sh cf_threads].
  - rewrite bind_app, app_length. destruct x; cbn; lia.
  - assert (Hp : th' ≠ Panicked).
    { intros ->. apply Hnc. unfold crashed. cbn. apply elem_of_list_lookup. exists tid. apply list_lookup_insert. by eapply lookup_lt_Some. }
    destruct (bind_upd (fun th => if is_putting th then [()] else []) (cf_threads c1) tid th th' Ht) as (r & E & E').
    rewrite (Permutation_length E), (Permutation_length E'), !app_length. cbn.
    assert (Heq : is_putting th' = is_putting th).
    { destruct th; cbn [tstep] in Hs; step_cases Hs; done. }
    rewrite Heq. lia.
Qed.

Theorem ingress_any m ls c : crun (initial m) ls = Some c -> ¬ crashed c ->
  sh_ingress (cf_sh c) = Z.of_nat (length (filter (fun th => put_begun th = true) (cf_threads c))).
Proof. intros H Hnc. rewrite (ingress_reach _ _ _ H Hnc). unfold len. by rewrite begun_filter. Qed.

Lemma quiescent_ok c : quiescent c -> ¬ crashed c.
Proof. intros Hq Hp. by specialize (Hq _ Hp). Qed.
Theorem ingress_quiescent m ls c : crun (initial m) ls = Some c -> quiescent c ->
  sh_ingress (cf_sh c) = Z.of_nat (length (puts_called ls)).
Proof.
  intros H Hq. rewrite (ingress_any _ _ _ H (quiescent_ok _ Hq)), <-(puts_reach _ _ _ H (quiescent_ok _ Hq)).
  do 2 f_equal. clear H. unfold quiescent in Hq. induction (cf_threads c) as [|th ths IH]; [done|].
  rewrite !filter_cons, IH by (intros x Hx; apply Hq; by constructor).
  assert (Hf := Hq th (elem_of_list_here _ _)). by destruct th.
Qed.
Theorem ingress_balance m ls c : 1 <= m -> spread m ls -> crun (initial m) ls = Some c -> quiescent c ->
  sh_ingress (cf_sh c) = Z.of_nat (length (all_held c)) + sh_expired (cf_sh c).
Proof.
  intros Hm Hsp H Hq. destruct (conservation_conc m ls c Hm Hsp H Hq) as (gone & G1 & G2).
  rewrite (ingress_any _ _ _ H (quiescent_ok _ Hq)), <-G2, <-Nat2Z.inj_add, (Nat.add_comm (length _)), <-app_length, <-(Permutation_length G1).
  f_equal. unfold all_written. clear -Hq. unfold quiescent in Hq. induction (cf_threads c) as [|th ths IH]; [done|].
  cbn [mbind list_bind]. rewrite app_length, <-IH by (intros x Hx; apply Hq; by constructor).
  rewrite filter_cons. assert (Hf := Hq th (elem_of_list_here _ _)). destruct th; cbn in *; try discriminate Hf; done.
Qed.

(** ** The egress counter *)
Theorem egress_any m ls c : mrun (minitial m) ls = Some c -> mc_egress c = Z.of_nat (length (given_out (mc_cfg c))).
Proof.
  revert c. induction ls as [|l ls IH] using rev_ind; intros c H; [by injection H as <-|].
  apply mrun_snoc in H as (c1 & H1 & H2). specialize (IH _ H1).
  apply mstep_cases in H2 as [(x & -> & ->)|[(tid & ch & th & s' & th' & -> & _ & Ht & Hs & _ & ->)|[(tid & -> & _ & ->)|(tid & v & -> & _ & ->)]]]; cbn [mc_egress mc_cfg]; [..|done|done].
  - unfold given_out. cbn. rewrite bind_app, app_length. unfold given_out in IH. rewrite IH. destruct x; cbn; lia.
  - unfold given_out in *. cbn.
    destruct (bind_upd (fun th => match th with GDone _ _ res => res | _ => [] end) (cf_threads (mc_cfg c1)) tid th th' Ht) as (r & E & E').
    rewrite IH, (Permutation_length E), (Permutation_length E'), !app_length.
    destruct th; cbn [tstep] in Hs; step_cases Hs; cbn; lia.
Qed.

(** ** The size gauge *)
Lemma count_changes tid ch s th s' th' : tstep tid ch s th = Some (s', th') -> th' ≠ Panicked ->
  sh_count s' = sh_count s ∨ sets_size s th th' = true ∨ working th' = true.
Proof.
  intros H Hp. destruct th; cbn [tstep] in H; step_cases H; try (by left); try done; right; [left|by right].
  cbn. rewrite H0. apply Z.ltb_lt. apply Z.leb_gt. done.
Qed.
Lemma working_stays tid ch s th s' th' : tstep tid ch s th = Some (s', th') -> working th = true -> th' ≠ Panicked ->
  working th' = true ∨ sets_size s th th' = true.
Proof. intros H Hw Hp. destruct th; try discriminate Hw; cbn [tstep] in H; step_cases H; try done; by auto. Qed.

Record gauge (c : mconfig) : Prop := {
  ga_set : ∀ tid v, mc_pend c !! tid = Some (ToSet v) -> v = sh_count (cf_sh (mc_cfg c));
  ga_size : mc_size c = sh_count (cf_sh (mc_cfg c)) ∨ mc_pend c ≠ ∅ ∨ ∃ th, th ∈ cf_threads (mc_cfg c) ∧ working th = true }.
Lemma gauge_reach m ls c : one_at_a_time m ls -> mrun (minitial m) ls = Some c -> ¬ crashed (mc_cfg c) -> gauge c.
Proof.
  revert c. induction ls as [|l ls IH] using rev_ind; intros c Ho H Hnc.
  { injection H as <-. split; cbn; [|by left]. intros tid v. by rewrite lookup_empty. }
  apply mrun_snoc in H as (c1 & H1 & H2).
  assert (Ho1 : one_at_a_time m ls).
  { intros l1 x l2 a b -> Ha Hb. eapply (Ho l1 x (l2 ++ [l])); [|done|done]. by rewrite <-app_assoc. }
  assert (Hnc1 : ¬ crashed (mc_cfg c1)).
  { intros Hp. unfold mstep in H2. assert (existsb is_panicked (cf_threads (mc_cfg c1)) = true) as E; [|by rewrite E in H2].
    apply existsb_exists. exists Panicked. split; [by apply elem_of_list_In|done]. }
  pose proof (Ho ls l [] c1 c eq_refl H1 H2) as Hch.
  destruct (IH _ Ho1 H1 Hnc1) as [G1 G2]. clear IH.
  apply mstep_cases in H2 as [(x & -> & ->)|[(tid & ch & th & s' & th' & -> & Hn & Ht & Hs & _ & ->)|[(tid & -> & Hn & ->)|(tid & v & -> & Hn & ->)]]]; cbn [mc_cfg mc_size mc_pend cf_sh cf_threads] in *.
  - split; cbn [mc_cfg mc_size mc_pend cf_sh cf_threads]; [done|]. destruct G2 as [?|[?|(th & Hin & Hw)]]; [by left|by right; left|].
    right; right. exists th. split; [|done]. apply elem_of_app. by left.
  - assert (Hp : th' ≠ Panicked).
    { intros ->. apply Hnc. unfold crashed. cbn. apply elem_of_list_lookup. exists tid. apply list_lookup_insert. by eapply lookup_lt_Some. }
    assert (Hin' : th' ∈ <[tid:=th']> (cf_threads (mc_cfg c1))).
    { apply elem_of_list_lookup. exists tid. apply list_lookup_insert. by eapply lookup_lt_Some. }
    split; cbn [mc_cfg mc_size mc_pend cf_sh cf_threads].
    + intros tid2 v Hv. destruct (decide (sh_count s' = sh_count (cf_sh (mc_cfg c1)))) as [E|E].
      * rewrite E. destruct (sets_size _ th th'); [|by eapply G1]. apply lookup_insert_Some in Hv as [[_ ?]|[_ Hv]]; [done|by eapply G1].
      * rewrite (Hch E) in Hv. exfalso. destruct (sets_size _ th th'); [apply lookup_insert_Some in Hv as [[_ ?]|[_ Hv]]; [done|]|]; by rewrite lookup_empty in Hv.
    + destruct (count_changes _ _ _ _ _ _ Hs Hp) as [E|[E|E]].
      * rewrite E. destruct (sets_size _ th th') eqn:Es; [right; left; apply insert_non_empty|].
        destruct G2 as [?|[?|(th0 & Hin & Hw)]]; [by left|by right; left|]. right; right.
        apply elem_of_list_lookup in Hin as [tid0 Hin]. destruct (decide (tid0 = tid)) as [->|Hne].
        -- assert (th0 = th) as -> by congruence. exists th'. split; [done|].
           destruct (working_stays _ _ _ _ _ _ Hs Hw Hp) as [?|?]; [done|congruence].
        -- exists th0. split; [|done]. apply elem_of_list_lookup. exists tid0. by rewrite list_lookup_insert_ne.
      * rewrite E. right; left. apply insert_non_empty.
      * right; right. by exists th'.
  - split; cbn [mc_cfg mc_size mc_pend cf_sh cf_threads].
    + intros tid2 v Hv. apply lookup_insert_Some in Hv as [[_ [= <-]]|[_ Hv]]; [done|by eapply G1].
    + right; left. apply insert_non_empty.
  - split; cbn [mc_cfg mc_size mc_pend cf_sh cf_threads].
    + intros tid2 w Hw. apply lookup_delete_Some in Hw as [_ Hw]. by eapply G1.
    + left. by eapply G1.
Qed.

Theorem gauge_exact m ls c : 1 <= m -> spread m (store_labels ls) -> one_at_a_time m ls -> mrun (minitial m) ls = Some c -> at_rest c ->
  mc_size c = wrap64 (Z.of_nat (length (all_held (mc_cfg c)))).
Proof.
  intros Hm Hsp Ho H [Hq Hp]. pose proof (store_run _ _ _ H) as Hr.
  destruct (gauge_reach _ _ _ Ho H (quiescent_ok _ Hq)) as [_ [E|[E|(th & Hin & Hw)]]].
  - rewrite E. by eapply count_exact.
  - done.
  - specialize (Hq _ Hin). by destruct th.
Qed.

(** The gauge never shows a number that the size counter did not have *)
Theorem gauge_past m ls c : mrun (minitial m) ls = Some c ->
  ∃ l1 l2 c1, ls = l1 ++ l2 ∧ mrun (minitial m) l1 = Some c1 ∧ mc_size c = sh_count (cf_sh (mc_cfg c1)).
Proof.
  assert (Hboth : ∀ ls c, mrun (minitial m) ls = Some c ->
    ∀ v, v = mc_size c ∨ (∃ tid, mc_pend c !! tid = Some (ToSet v)) ->
    ∃ l1 l2 c1, ls = l1 ++ l2 ∧ mrun (minitial m) l1 = Some c1 ∧ v = sh_count (cf_sh (mc_cfg c1))).
  2: { intros H. eapply Hboth; eauto. }
  clear ls c. intros ls. induction ls as [|l ls IH] using rev_ind; intros c H v Hv.
  { injection H as <-. exists [], [], (minitial m). split; [done|]. split; [done|]. destruct Hv as [->|(tid & Hv)]; [done|].
    cbn in Hv. by rewrite lookup_empty in Hv. }
  apply mrun_snoc in H as (c1 & H1 & H2).
  assert (Hold : v = mc_size c1 ∨ (∃ tid, mc_pend c1 !! tid = Some (ToSet v)) ->
    ∃ l1 l2 c2, ls ++ [l] = l1 ++ l2 ∧ mrun (minitial m) l1 = Some c2 ∧ v = sh_count (cf_sh (mc_cfg c2))).
  { intros Hx. destruct (IH _ H1 _ Hx) as (l1 & l2 & c2 & -> & ? & ?). exists l1, (l2 ++ [l]), c2. by rewrite <-app_assoc. }
  apply mstep_cases in H2 as [(x & -> & ->)|[(tid & ch & th & s' & th' & -> & Hn & Ht & Hs & _ & ->)|[(tid & -> & Hn & ->)|(tid & w & -> & Hn & ->)]]]; cbn [mc_cfg mc_size mc_pend cf_sh cf_threads] in *.
  - by apply Hold.
  - apply Hold. destruct Hv as [?|(tid2 & Hv)]; [by left|right]. exists tid2.
    destruct (sets_size _ th th'); [|done]. by apply lookup_insert_Some in Hv as [[_ ?]|[_ Hv]].
  - destruct Hv as [->|(tid2 & Hv)]; [by apply Hold; left|]. apply lookup_insert_Some in Hv as [[_ [= <-]]|[_ Hv]].
    + exists ls, [MLoad tid], c1. done.
    + apply Hold. right. by exists tid2.
  - apply Hold. right. destruct Hv as [->|(tid2 & Hv)]; [by exists tid|]. apply lookup_delete_Some in Hv as [_ Hv]. by exists tid2.
Qed.
