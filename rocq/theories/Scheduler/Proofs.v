(** Proofs about schedulers and the nodes they direct. *)
From stdpp Require Import prelude gmap strings list.
From Verif.Base Require Import GoInt Envelope.
From Verif.Routing Require Import Model Spec ProofsTable ProofsCluster.
From Verif.Scheduler Require Import Model Spec.
Open Scope Z_scope.

Section proofs.
Context (addrs clients : list string).
Notation step := (step addrs clients).
Notation runs := (runs addrs clients).

Lemma runs_app s ls1 s1 ls2 s2 : runs s ls1 s1 -> runs s1 ls2 s2 -> runs s (ls1 ++ ls2) s2.
Proof. induction 1; [done|]. intros. cbn. econstructor; eauto. Qed.

Lemma runs_split s ls1 ls2 s2 : runs s (ls1 ++ ls2) s2 -> ∃ s1, runs s ls1 s1 ∧ runs s1 ls2 s2.
Proof.
  revert s. induction ls1 as [|l ls1 IH]; cbn; intros s H.
  - exists s. split; [constructor|done].
  - inversion H; subst. destruct (IH _ H5) as (x & ? & ?). exists x. split; [econstructor; eauto|done].
Qed.

Lemma runs_cons_inv s l ls s2 : runs s (l :: ls) s2 -> ∃ s1, step s l s1 ∧ runs s1 ls s2.
Proof. inversion 1; subst; eauto. Qed.

Lemma runs_one s l s' : step s l s' -> runs s [l] s'.
Proof. intros. econstructor; [done|constructor]. Qed.

Lemma runs_snoc_ind (P : list label -> sys -> Prop) s0 :
  P [] s0 -> (∀ ls s l s', runs s0 ls s -> P ls s -> step s l s' -> P (ls ++ [l]) s') ->
  ∀ ls s, runs s0 ls s -> P ls s.
Proof.
  intros H0 HS ls. induction ls as [|l ls IH] using rev_ind; intros s H.
  - by inversion H; subst.
  - apply runs_split in H as (s1 & H1 & H2). apply runs_cons_inv in H2 as (s2 & H2 & H3).
    inversion H3; subst. by eapply HS; eauto.
Qed.

Lemma elected_snoc ls l : elected (ls ++ [l]) = match l with LElect x => x | _ => elected ls end.
Proof. unfold elected. rewrite foldl_app. by destruct l. Qed.

(** ** Only a leader changes anything *)

Definition permit (i j : nat) (ls : list label) : Prop :=
  ∃ p q, ls = p ++ LAsk i j true :: q ∧ elected p = Some i ∧ ∀ o rep oc, LCall i j o rep oc ∉ q.
Definition mandate (i : nat) (m : gmap string (list range)) (ls : list label) : Prop :=
  ∃ p ws q, ls = p ++ LDecide i ws true :: q ∧ elected p = Some i ∧ m = convert_worker_state ws ∧ no_decision i q.

Lemma permit_more i j ls l : permit i j ls -> (∀ o rep oc, l ≠ LCall i j o rep oc) -> permit i j (ls ++ [l]).
Proof.
  intros (p & q & -> & Hp & Hq) Hl. exists p, (q ++ [l]). rewrite <- app_assoc. split; [done|]. split; [done|].
  intros o rep oc [H|H%elem_of_list_singleton]%elem_of_app; [by eapply Hq|by eapply Hl].
Qed.
Lemma mandate_more i m ls l : mandate i m ls -> (∀ ws b, l ≠ LDecide i ws b) -> mandate i m (ls ++ [l]).
Proof.
  intros (p & ws & q & -> & Hp & Hm & Hq) Hl. exists p, ws, (q ++ [l]). rewrite <- app_assoc. split_and!; [done..|].
  intros ws' b [H|H%elem_of_list_singleton]%elem_of_app; [by eapply Hq|by eapply Hl].
Qed.

Definition inv (ls : list label) (s : sys) : Prop :=
  sy_leader s = elected ls ∧
  (∀ i c j o, sy_scheds s !! i = Some c -> sc_calls c !! j = Some (Ready o) -> changes o -> permit i j ls) ∧
  (∀ i c todo m, sy_scheds s !! i = Some c -> sc_pub c = Some (todo, m) -> mandate i m ls).

Lemma pending_some todo m todo' m' : pending todo m = Some (todo', m') -> m' = m ∧ todo' = todo.
Proof. destruct todo; cbn; [done|]. by intros [= <- <-]. Qed.

Lemma inv_step ls s l s' : inv ls s -> step s l s' -> inv (ls ++ [l]) s'.
Proof.
  intros (HL & HC & HP) Hst. unfold inv. rewrite elected_snoc.
  destruct l as [ld|a|i o|i j b|i j o rep oc|i ws b|i a m oc]; cbn in Hst.
  - subst s'. cbn. split; [done|]. split.
    + intros. apply permit_more; [eauto|done].
    + intros. apply mandate_more; [eauto|done].
  - destruct Hst as (_ & ->). cbn. split; [done|]. split.
    + intros. apply permit_more; [eauto|done].
    + intros. apply mandate_more; [eauto|done].
  - destruct Hst as (c & Hc & ->). cbn. split; [done|]. split.
    + intros i' c' j o' Hc' Hj Ho. apply permit_more; [|done].
      destruct (decide (i' = i)) as [->|Hne].
      * rewrite list_lookup_insert in Hc' by by eapply lookup_lt_Some. injection Hc' as <-. cbn in Hj.
        apply lookup_app_Some in Hj as [Hj|[_ Hj]]; [eauto|].
        apply list_lookup_singleton_Some in Hj as [_ Hj]. destruct o; cbn in Hj; simplify_eq. done.
      * rewrite list_lookup_insert_ne in Hc' by done. eauto.
    + intros i' c' todo m Hc' Hp. apply mandate_more; [|done].
      destruct (decide (i' = i)) as [->|Hne].
      * rewrite list_lookup_insert in Hc' by by eapply lookup_lt_Some. injection Hc' as <-. eauto.
      * rewrite list_lookup_insert_ne in Hc' by done. eauto.
  - destruct Hst as (c & o & Hc & Hj & Hb & ->). cbn. split; [done|]. split.
    + intros i' c' j' o' Hc' Hj' Ho. destruct (decide (i' = i)) as [->|Hne].
      * rewrite list_lookup_insert in Hc' by by eapply lookup_lt_Some. injection Hc' as <-. cbn in Hj'.
        destruct (decide (j' = j)) as [->|Hnj].
        -- rewrite list_lookup_insert in Hj' by by eapply lookup_lt_Some. destruct b; [|done].
           exists ls, []. split; [done|]. split; [by rewrite <- HL; auto|]. intros ??? H. by inversion H.
        -- rewrite list_lookup_insert_ne in Hj' by done. apply permit_more; [eauto|done].
      * rewrite list_lookup_insert_ne in Hc' by done. apply permit_more; [eauto|done].
    + intros i' c' todo m Hc' Hp. apply mandate_more; [|done].
      destruct (decide (i' = i)) as [->|Hne].
      * rewrite list_lookup_insert in Hc' by by eapply lookup_lt_Some. injection Hc' as <-. eauto.
      * rewrite list_lookup_insert_ne in Hc' by done. eauto.
  - destruct Hst as (c & nodes' & Hc & Hj & Hcall & Hrep & ->). cbn. split; [done|]. split.
    + intros i' c' j' o' Hc' Hj' Ho. destruct (decide (i' = i)) as [->|Hne].
      * rewrite list_lookup_insert in Hc' by by eapply lookup_lt_Some. injection Hc' as <-. cbn in Hj'.
        destruct (decide (j' = j)) as [->|Hnj].
        -- rewrite list_lookup_insert in Hj' by by eapply lookup_lt_Some. done.
        -- rewrite list_lookup_insert_ne in Hj' by done. apply permit_more; [eauto|]. intros ??? [=]. done.
      * rewrite list_lookup_insert_ne in Hc' by done. apply permit_more; [eauto|]. intros ??? [=]. done.
    + intros i' c' todo m Hc' Hp. apply mandate_more; [|done].
      destruct (decide (i' = i)) as [->|Hne].
      * rewrite list_lookup_insert in Hc' by by eapply lookup_lt_Some. injection Hc' as <-. eauto.
      * rewrite list_lookup_insert_ne in Hc' by done. eauto.
  - destruct Hst as (c & Hc & Hnone & Hb & ->). cbn. split; [done|]. split.
    + intros i' c' j' o' Hc' Hj' Ho. apply permit_more; [|done]. destruct (decide (i' = i)) as [->|Hne].
      * rewrite list_lookup_insert in Hc' by by eapply lookup_lt_Some. injection Hc' as <-. eauto.
      * rewrite list_lookup_insert_ne in Hc' by done. eauto.
    + intros i' c' todo m Hc' Hp. destruct (decide (i' = i)) as [->|Hne].
      * rewrite list_lookup_insert in Hc' by by eapply lookup_lt_Some. injection Hc' as <-. cbn in Hp.
        destruct b; [|done]. apply pending_some in Hp as [-> ->].
        exists ls, ws, []. split; [done|]. split; [by rewrite <- HL; auto|]. split; [done|].
        intros ?? H. by inversion H.
      * rewrite list_lookup_insert_ne in Hc' by done. apply mandate_more; [eauto|]. intros ?? [=]. done.
  - destruct Hst as (c & todo & nodes' & Hc & Hpub & Hcall & ->). cbn. split; [done|]. split.
    + intros i' c' j' o' Hc' Hj' Ho. apply permit_more; [|done]. destruct (decide (i' = i)) as [->|Hne].
      * rewrite list_lookup_insert in Hc' by by eapply lookup_lt_Some. injection Hc' as <-. eauto.
      * rewrite list_lookup_insert_ne in Hc' by done. eauto.
    + intros i' c' todo' m' Hc' Hp. apply mandate_more; [|done]. destruct (decide (i' = i)) as [->|Hne].
      * rewrite list_lookup_insert in Hc' by by eapply lookup_lt_Some. injection Hc' as <-. cbn in Hp.
        apply pending_some in Hp as [-> ->]. eauto.
      * rewrite list_lookup_insert_ne in Hc' by done. eauto.
Qed.

Lemma boot_idle nodes k i c : sy_scheds (boot nodes k) !! i = Some c -> c = idle_sched.
Proof. cbn. by intros [-> _]%lookup_replicate_1. Qed.

Lemma inv_runs nodes k ls s : runs (boot nodes k) ls s -> inv ls s.
Proof.
  revert ls s. apply runs_snoc_ind.
  - split; [done|]. split.
    + intros i c j o ->%boot_idle H. done.
    + intros i c todo m ->%boot_idle H. done.
  - intros ls s l s' _ HI Hst. by eapply inv_step.
Qed.

Lemma change_permitted nodes k l1 i j o rep oc l2 s :
  runs (boot nodes k) (l1 ++ LCall i j o rep oc :: l2) s -> changes o -> permit i j l1.
Proof.
  intros (s1 & H1 & H2)%runs_split Ho. apply runs_cons_inv in H2 as (s2 & H2 & _).
  destruct (inv_runs _ _ _ _ H1) as (_ & HC & _). destruct H2 as (c & n' & Hc & Hj & _). eauto.
Qed.
Lemma publish_mandated nodes k l1 i a m oc l2 s :
  runs (boot nodes k) (l1 ++ LPublish i a m oc :: l2) s -> mandate i m l1.
Proof.
  intros (s1 & H1 & H2)%runs_split. apply runs_cons_inv in H2 as (s2 & H2 & _).
  destruct (inv_runs _ _ _ _ H1) as (_ & _ & HP). destruct H2 as (c & todo & n' & Hc & Hj & _). eauto.
Qed.

Lemma elected_in ls i : elected ls = Some i -> LElect (Some i) ∈ ls.
Proof.
  induction ls as [|l ls IH] using rev_ind; [done|]. rewrite elected_snoc, elem_of_app, elem_of_list_singleton.
  destruct l; auto. intros ->. by right.
Qed.

Lemma leader_only nodes k ls s :
  runs (boot nodes k) ls s ->
  (∀ l1 i j o rep oc l2, ls = l1 ++ LCall i j o rep oc :: l2 -> changes o ->
     ∃ p q, l1 = p ++ LAsk i j true :: q ∧ elected p = Some i ∧ ∀ o' rep' oc', LCall i j o' rep' oc' ∉ q) ∧
  (∀ l1 i a m oc l2, ls = l1 ++ LPublish i a m oc :: l2 ->
     ∃ p ws q, l1 = p ++ LDecide i ws true :: q ∧ elected p = Some i ∧ m = convert_worker_state ws ∧ no_decision i q).
Proof.
  intros H. split.
  - intros l1 i j o rep oc l2 -> Ho. by eapply change_permitted.
  - intros l1 i a m oc l2 ->. by eapply publish_mandated.
Qed.

Lemma never_leader nodes k ls s i :
  runs (boot nodes k) ls s -> LElect (Some i) ∉ ls ->
  (∀ j o rep oc, LCall i j o rep oc ∈ ls -> ¬ changes o) ∧ sent i ls = [].
Proof.
  intros H Hi. split.
  - intros j o rep oc (l1 & l2 & ->)%elem_of_list_split Ho.
    destruct (change_permitted _ _ _ _ _ _ _ _ _ _ H Ho) as (p & q & -> & Hp & _).
    apply Hi. apply elected_in in Hp. rewrite !elem_of_app. by left; left.
  - destruct (sent i ls) as [|[a m] r] eqn:Hs; [done|]. exfalso.
    assert (Hin : (a, m) ∈ sent i ls) by (rewrite Hs; left).
    unfold sent in Hin. apply elem_of_list_omap in Hin as (l & Hl & Hm).
    destruct l as [| | | | | |i' a' m' oc]; try done. case_decide; [|done]. subst i'. simplify_eq.
    apply elem_of_list_split in Hl as (l1 & l2 & ->).
    destruct (publish_mandated _ _ _ _ _ _ _ _ _ H) as (p & ws & q & -> & Hp & _).
    apply Hi. apply elected_in in Hp. rewrite !elem_of_app. by left; left.
Qed.

(** Without any leader the nodes stay as they are, but for restarts *)
Lemma no_leader nodes k ls s a :
  runs (boot nodes k) ls s -> (∀ i, LElect (Some i) ∉ ls) ->
  sy_nodes s !! a = nodes !! a ∨ (LRestart a ∈ ls ∧ sy_nodes s !! a = Some fresh_node).
Proof.
  revert ls s. apply (runs_snoc_ind (fun ls s => (∀ i, LElect (Some i) ∉ ls) ->
    sy_nodes s !! a = nodes !! a ∨ (LRestart a ∈ ls ∧ sy_nodes s !! a = Some fresh_node))).
  - by left.
  - intros ls s l s' Hrun IH Hst Hno.
    assert (Hno1 : ∀ i, LElect (Some i) ∉ ls) by (intros i Hi; apply (Hno i), elem_of_app; by left).
    assert (Hkeep : sy_nodes s' !! a = sy_nodes s !! a -> sy_nodes s' !! a = nodes !! a ∨
       (LRestart a ∈ ls ++ [l] ∧ sy_nodes s' !! a = Some fresh_node)).
    { intros ->. destruct (IH Hno1) as [?|[? ?]]; [by left|right]. split; [|done]. apply elem_of_app. by left. }
    assert (Hrun' : runs (boot nodes k) (ls ++ l :: []) s') by (eapply runs_app; [done|by apply runs_one]).
    destruct l as [ld|b|i o|i j b|i j o rep oc|i ws b|i b m oc]; cbn in Hst.
    + subst. by apply Hkeep.
    + destruct Hst as (Hb & ->). destruct (decide (a = b)) as [->|Hne].
      * right. split; [by apply elem_of_app; right; left|]. cbn. by rewrite lookup_insert.
      * apply Hkeep. cbn. by rewrite lookup_insert_ne.
    + destruct Hst as (c & _ & ->). by apply Hkeep.
    + destruct Hst as (c & o & _ & _ & _ & ->). by apply Hkeep.
    + destruct o as [w|w r|w r].
      * destruct Hst as (c & n' & _ & _ & Hcall & _ & ->). apply Hkeep. cbn. cbn in Hcall.
        destruct oc; cbn in Hcall.
        -- destruct Hcall as (n & n1 & Hn & -> & ->). destruct (decide (a = w)) as [->|]; [by rewrite lookup_insert|by rewrite lookup_insert_ne].
        -- by subst.
        -- destruct Hcall as (n & n1 & Hn & -> & ->). destruct (decide (a = w)) as [->|]; [by rewrite lookup_insert|by rewrite lookup_insert_ne].
      * exfalso. destruct (change_permitted _ _ _ _ _ _ _ _ _ _ Hrun' I) as (p & q & -> & Hp & _).
        apply (Hno1 i). apply elem_of_app. left. by apply elected_in.
      * exfalso. destruct (change_permitted _ _ _ _ _ _ _ _ _ _ Hrun' I) as (p & q & -> & Hp & _).
        apply (Hno1 i). apply elem_of_app. left. by apply elected_in.
    + destruct Hst as (c & _ & _ & _ & ->). by apply Hkeep.
    + exfalso. destruct (publish_mandated _ _ _ _ _ _ _ _ _ Hrun') as (p & ws & q & -> & Hp & _).
      apply (Hno1 i). apply elem_of_app. left. by apply elected_in.
Qed.

(** ** What one decision sends *)

Lemma sent_app i l1 l2 : sent i (l1 ++ l2) = sent i l1 ++ sent i l2.
Proof. unfold sent. apply omap_app. Qed.

Lemma no_decision_cons i l ls : no_decision i (l :: ls) -> (∀ ws b, l ≠ LDecide i ws b) ∧ no_decision i ls.
Proof.
  intros H. split.
  - intros ws b ->. apply (H ws b). by left.
  - intros ws b Hin. apply (H ws b). by right.
Qed.

Lemma progress i m ls : ∀ s s' c todo,
  runs s ls s' -> no_decision i ls -> sy_scheds s !! i = Some c -> sc_pub c = pending todo m ->
  ∃ c' todo', sy_scheds s' !! i = Some c' ∧ sc_pub c' = pending todo' m ∧
    (fun a => (a, m)) <$> todo = sent i ls ++ ((fun a => (a, m)) <$> todo').
Proof.
  induction ls as [|l ls IH]; intros s s' c todo Hrun Hno Hc Hp.
  - inversion Hrun; subst. exists c, todo. done.
  - apply runs_cons_inv in Hrun as (s1 & Hst & Hrun). apply no_decision_cons in Hno as [Hl Hno].
    assert (Hsame : ∀ c1, sy_scheds s1 !! i = Some c1 -> sc_pub c1 = pending todo m -> sent i (l :: ls) = sent i ls ->
      ∃ c' todo', sy_scheds s' !! i = Some c' ∧ sc_pub c' = pending todo' m ∧
        (fun a => (a, m)) <$> todo = sent i (l :: ls) ++ ((fun a => (a, m)) <$> todo')).
    { intros c1 Hc1 Hp1 ->. by eapply IH. }
    destruct l as [ld|b|i' o|i' j b|i' j o rep oc|i' ws b|i' b m' oc]; cbn in Hst.
    + subst s1. eapply Hsame; done.
    + destruct Hst as (_ & ->). eapply Hsame; done.
    + destruct Hst as (c1 & Hc1 & ->). destruct (decide (i' = i)) as [->|Hne].
      * eapply Hsame; [cbn; rewrite list_lookup_insert by (by eapply lookup_lt_Some); done| |done]. cbn. congruence.
      * eapply Hsame; [cbn; rewrite list_lookup_insert_ne by done; done|done|done].
    + destruct Hst as (c1 & o & Hc1 & _ & _ & ->). destruct (decide (i' = i)) as [->|Hne].
      * eapply Hsame; [cbn; rewrite list_lookup_insert by (by eapply lookup_lt_Some); done| |done]. cbn. congruence.
      * eapply Hsame; [cbn; rewrite list_lookup_insert_ne by done; done|done|done].
    + destruct Hst as (c1 & n' & Hc1 & _ & _ & _ & ->). destruct (decide (i' = i)) as [->|Hne].
      * eapply Hsame; [cbn; rewrite list_lookup_insert by (by eapply lookup_lt_Some); done| |done]. cbn. congruence.
      * eapply Hsame; [cbn; rewrite list_lookup_insert_ne by done; done|done|done].
    + destruct Hst as (c1 & Hc1 & _ & _ & ->). destruct (decide (i' = i)) as [->|Hne]; [by destruct (Hl ws b)|].
      eapply Hsame; [cbn; rewrite list_lookup_insert_ne by done; done|done|done].
    + destruct Hst as (c1 & todo1 & n' & Hc1 & Hp1 & _ & ->). destruct (decide (i' = i)) as [->|Hne].
      * replace c1 with c in * by congruence. rewrite Hp in Hp1. apply pending_some in Hp1 as [-> <-].
        destruct (IH _ _ (mk_sc (sc_calls c) (pending todo1 m)) todo1 Hrun Hno) as (c' & t' & H1 & H2 & H3).
        { cbn. by rewrite list_lookup_insert by (by eapply lookup_lt_Some). }
        { done. }
        exists c', t'. split; [done|]. split; [done|]. cbn. rewrite decide_True by done. cbn. by rewrite H3.
      * eapply Hsame; [cbn; rewrite list_lookup_insert_ne by done; done|done|].
        cbn. by rewrite decide_False by done.
Qed.

Lemma decided i ws b s s1 : step s (LDecide i ws b) s1 ->
  ∃ c, sy_scheds s1 !! i = Some c ∧ sc_pub c = pending (if b then clients else []) (convert_worker_state ws).
Proof.
  intros (c & Hc & _ & _ & ->). eexists. split.
  - cbn. rewrite list_lookup_insert by by eapply lookup_lt_Some. done.
  - by destruct b.
Qed.

Lemma sent_prefix s l1 i ws b l2 s' :
  runs s (l1 ++ LDecide i ws b :: l2) s' -> no_decision i l2 ->
  ∃ todo, (fun a => (a, convert_worker_state ws)) <$> (if b then clients else []) =
          sent i l2 ++ ((fun a => (a, convert_worker_state ws)) <$> todo).
Proof.
  intros (s1 & _ & H2)%runs_split Hno. apply runs_cons_inv in H2 as (s2 & Hd & H2).
  apply decided in Hd as (c & Hc & Hp). destruct (progress _ _ _ _ _ _ _ H2 Hno Hc Hp) as (_ & todo & _ & _ & H).
  by exists todo.
Qed.

Lemma sent_once s l1 i ws b l2 ws' b' l3 s' :
  runs s (l1 ++ LDecide i ws b :: l2 ++ LDecide i ws' b' :: l3) s' -> no_decision i l2 ->
  sent i l2 = if b then (fun a => (a, convert_worker_state ws)) <$> clients else [].
Proof.
  intros (s1 & _ & H2)%runs_split Hno. apply runs_cons_inv in H2 as (s2 & Hd & H2).
  apply decided in Hd as (c & Hc & Hp). apply runs_split in H2 as (s3 & H2 & H3).
  destruct (progress _ _ _ _ _ _ _ H2 Hno Hc Hp) as (c' & todo & Hc' & Hp' & H).
  apply runs_cons_inv in H3 as (s4 & (c2 & Hc2 & Hn & _) & _).
  replace c2 with c' in * by congruence. rewrite Hp' in Hn. destruct todo; [|done].
  rewrite fmap_nil, app_nil_r in H. rewrite <- H. by destruct b.
Qed.

Lemma sent_all s l1 i ws b l2 s' :
  runs s (l1 ++ LDecide i ws b :: l2) s' -> no_decision i l2 -> at_rest s' ->
  sent i l2 = (fun a => (a, convert_worker_state ws)) <$> (if b then clients else []).
Proof.
  intros (s1 & _ & H2)%runs_split Hno Hrest. apply runs_cons_inv in H2 as (s2 & Hd & H2).
  apply decided in Hd as (c & Hc & Hp).
  destruct (progress _ _ _ _ _ _ _ H2 Hno Hc Hp) as (c' & todo & Hc' & Hp' & H).
  rewrite (Hrest _ _ Hc') in Hp'. destruct todo; [|done]. by rewrite fmap_nil, app_nil_r in H.
Qed.

(** ** Agreement *)

Definition holds (m : gmap string (list range)) (a : string) (s : sys) : Prop :=
  ∃ n old, sy_nodes s !! a = Some n ∧ set_ranges addrs old m (sn_table n).

Lemma calls_other nodes w q oc nodes' a : calls addrs nodes w q oc nodes' -> a ≠ w -> nodes' !! a = nodes !! a.
Proof.
  destruct oc; cbn; [|by intros ->|]; intros (n & n' & _ & _ & ->) Hne; by rewrite lookup_insert_ne.
Qed.
Lemma calls_table nodes o oc nodes' a n : calls addrs nodes (op_worker o) (op_request o) oc nodes' ->
  nodes !! a = Some n -> ∃ n', nodes' !! a = Some n' ∧ sn_table n' = sn_table n.
Proof.
  intros Hc Hn. destruct (decide (a = op_worker o)) as [->|Hne].
  - assert (Hs : ∀ n1 n', nodes !! op_worker o = Some n1 -> serves addrs n1 (op_request o) n' ->
       nodes' = <[op_worker o := n']> nodes -> ∃ n', nodes' !! op_worker o = Some n' ∧ sn_table n' = sn_table n).
    { intros n1 n' Hn1 Hsv ->. exists n'. rewrite lookup_insert. split; [done|]. simplify_eq.
      destruct o; cbn in Hsv; by subst. }
    destruct oc; cbn in Hc.
    + destruct Hc as (n1 & n' & H1 & H2 & H3). eauto.
    + subst. eauto.
    + destruct Hc as (n1 & n' & H1 & H2 & H3). eauto.
  - rewrite <- (calls_other _ _ _ _ _ _ Hc Hne) in Hn. eauto.
Qed.

Lemma keep m a ls : ∀ s s', runs s ls s' -> holds m a s -> LRestart a ∉ ls ->
  (∀ i m' oc, LPublish i a m' oc ∈ ls -> m' = m) -> holds m a s'.
Proof.
  induction ls as [|l ls IH]; intros s s' Hrun Hh Hr Hp; [by inversion Hrun; subst|].
  apply runs_cons_inv in Hrun as (s1 & Hst & Hrun). rewrite not_elem_of_cons in Hr. destruct Hr as [Hr1 Hr2].
  eapply IH; [done| |done|intros i m' oc Hin; eapply (Hp i m' oc); by right].
  destruct Hh as (n & old & Hn & Hs).
  destruct l as [ld|b|i' o|i' j b|i' j o rep oc|i' ws b|i' b m' oc]; cbn in Hst.
  - subst s1. by exists n, old.
  - destruct Hst as (_ & ->). exists n, old. cbn. rewrite lookup_insert_ne by congruence. done.
  - destruct Hst as (c1 & _ & ->). by exists n, old.
  - destruct Hst as (c1 & o & _ & _ & _ & ->). by exists n, old.
  - destruct Hst as (c1 & n' & _ & _ & Hc & _ & ->).
    destruct (calls_table _ _ _ _ _ _ Hc Hn) as (n2 & Hn2 & Ht). exists n2, old. cbn. by rewrite Ht.
  - destruct Hst as (c1 & _ & _ & _ & ->). by exists n, old.
  - destruct Hst as (c1 & todo & n' & _ & _ & Hc & ->). cbn.
    destruct (decide (a = b)) as [->|Hne].
    + assert (m' = m) as -> by (eapply Hp; by left). destruct oc; cbn in Hc.
      * destruct Hc as (n1 & n2 & H1 & (t & Ht & ->) & ->). eexists _, _. cbn. rewrite lookup_insert. split; [done|]. done.
      * subst. by exists n, old.
      * destruct Hc as (n1 & n2 & H1 & (t & Ht & ->) & ->). eexists _, _. cbn. rewrite lookup_insert. split; [done|]. done.
    + exists n, old. cbn. rewrite (calls_other _ _ _ _ _ _ Hc Hne). done.
Qed.

Lemma sent_elem i a m oc ls : LPublish i a m oc ∈ ls -> (a, m) ∈ sent i ls.
Proof. intros H. apply elem_of_list_omap. eexists. split; [done|]. cbn. by rewrite decide_True. Qed.

Lemma sent_request s l1 i ws b l2 s' a m oc :
  runs s (l1 ++ LDecide i ws b :: l2) s' -> no_decision i l2 -> LPublish i a m oc ∈ l2 ->
  m = convert_worker_state ws ∧ a ∈ clients ∧ b = true.
Proof.
  intros Hr Hno Hin%sent_elem. destruct (sent_prefix _ _ _ _ _ _ _ Hr Hno) as (todo & H).
  assert ((a, m) ∈ (fun a => (a, convert_worker_state ws)) <$> (if b then clients else [])) as Hin'.
  { rewrite H. apply elem_of_app. by left. }
  apply elem_of_list_fmap in Hin' as (x & [= -> ->] & Hx). destruct b; [done|by inversion Hx].
Qed.

Lemma installed s l1 i ws b l2 s' a m :
  runs s (l1 ++ LDecide i ws b :: l2) s' -> no_decision i l2 -> sole_publisher i l2 -> LRestart a ∉ l2 ->
  LPublish i a m Arrived ∈ l2 -> holds (convert_worker_state ws) a s'.
Proof.
  intros Hr Hno Hsole Hre Hin.
  destruct (sent_request _ _ _ _ _ _ _ _ _ _ Hr Hno Hin) as (-> & _).
  assert (Hall : ∀ i' m' oc, LPublish i' a m' oc ∈ l2 -> m' = convert_worker_state ws).
  { intros i' m' oc Hin'. assert (i' = i) as -> by by eapply Hsole. by destruct (sent_request _ _ _ _ _ _ _ _ _ _ Hr Hno Hin'). }
  apply elem_of_list_split in Hin as (q1 & q2 & ->).
  rewrite app_comm_cons, app_assoc in Hr. apply runs_split in Hr as (s1 & _ & Hr).
  apply runs_cons_inv in Hr as (s2 & Hst & Hr). eapply (keep _ _ _ _ _ Hr).
  - destruct Hst as (c & todo & n' & _ & _ & Hc & ->). cbn in Hc. destruct Hc as (n1 & n2 & H1 & (t & Ht & ->) & ->).
    eexists _, _. cbn. rewrite lookup_insert. split; [done|]. done.
  - intros H. apply Hre. rewrite elem_of_app, elem_of_cons. auto.
  - intros i' m' oc H. eapply (Hall i' m' oc). rewrite elem_of_app, elem_of_cons. auto.
Qed.

Lemma holds_lookup m a s : holds m a s -> ∃ l, ∀ h, node_lookup s a h = Some (Model.lookup h l).
Proof. intros (n & old & Hn & _). exists (sn_table n). intros h. unfold node_lookup. by rewrite Hn. Qed.

Lemma agreement s l1 i ws b l2 s' :
  runs s (l1 ++ LDecide i ws b :: l2) s' -> no_decision i l2 -> sole_publisher i l2 ->
  ∀ a1 m1 a2 m2, LPublish i a1 m1 Arrived ∈ l2 -> LPublish i a2 m2 Arrived ∈ l2 ->
  LRestart a1 ∉ l2 -> LRestart a2 ∉ l2 ->
  ∀ h, ∃ is, node_lookup s' a1 h = Some is ∧ node_lookup s' a2 h = Some is.
Proof.
  intros Hr Hno Hsole a1 m1 a2 m2 H1 H2 R1 R2 h.
  destruct (installed _ _ _ _ _ _ _ _ _ Hr Hno Hsole R1 H1) as (n1 & o1 & Hn1 & Hs1).
  destruct (installed _ _ _ _ _ _ _ _ _ Hr Hno Hsole R2 H2) as (n2 & o2 & Hn2 & Hs2).
  exists (Model.lookup h (sn_table n1)). unfold node_lookup. rewrite Hn1, Hn2. cbn. split; [done|].
  f_equal. symmetry. by eapply set_ranges_lookup_det.
Qed.

(** ** What is published is what the nodes said *)

Lemma published_listings s l1 i ws b l2 s' a m :
  runs s (l1 ++ LDecide i ws b :: l2) s' -> no_decision i l2 -> sole_publisher i l2 -> LRestart a ∉ l2 ->
  LPublish i a m Arrived ∈ l2 -> NoDup addrs -> NoDup ws.*1 -> honest i ws l1 -> (∀ w, w ∈ ws.*1 -> w ∈ addrs) ->
  ∀ h, ∃ is, node_lookup s' a h = Some is ∧
    ∀ x, x ∈ is <-> ∃ w rs r, addrs !! x = Some w ∧ last_listing i w l1 = Some rs ∧ r ∈ rs ∧ covers r h.
Proof.
  intros Hr Hno Hsole Hre Hin Hnd Hndw Hon Hkn h.
  destruct (installed _ _ _ _ _ _ _ _ _ Hr Hno Hsole Hre Hin) as (n & old & Hn & Hs).
  exists (Model.lookup h (sn_table n)). unfold node_lookup. rewrite Hn. split; [done|].
  intros x. rewrite (lookup_owns addrs old (convert_worker_state ws)); [|done| |done].
  - unfold owns. split.
    + intros (w & rs & r & H1 & H2 & H3 & H4). apply ProofsCluster.convert_lookup in H2; [|done].
      exists w, rs, r. split; [done|]. split; [by apply Hon|done].
    + intros (w & rs & r & H1 & H2 & H3 & H4). exists w, rs, r. split; [done|]. split; [|done].
      apply ProofsCluster.convert_lookup; [done|]. by apply Hon.
  - intros w [rs Hw]. apply ProofsCluster.convert_lookup in Hw; [|done]. apply Hkn.
    apply elem_of_list_fmap. by exists (w, rs).
Qed.

(** The answers are what the nodes held when asked *)
Lemma listing_true s ls s' i w rs :
  runs s ls s' -> last_listing i w ls = Some rs ->
  ∃ p j q mid n, ls = p ++ LCall i j (OpList w) rs Arrived :: q ∧ runs s p mid ∧ sy_nodes mid !! w = Some n ∧ rs = sn_ranges n.
Proof.
  revert ls s'. apply (runs_snoc_ind (fun ls _ => last_listing i w ls = Some rs ->
    ∃ p j q mid n, ls = p ++ LCall i j (OpList w) rs Arrived :: q ∧ runs s p mid ∧ sy_nodes mid !! w = Some n ∧ rs = sn_ranges n)).
  - done.
  - intros ls s1 l s2 Hr IH Hst. unfold last_listing. rewrite foldl_app. fold (last_listing i w ls). cbn.
    assert (Hold : last_listing i w ls = Some rs -> ∃ p j q mid n,
      ls ++ [l] = p ++ LCall i j (OpList w) rs Arrived :: q ∧ runs s p mid ∧ sy_nodes mid !! w = Some n ∧ rs = sn_ranges n).
    { intros (p & j & q & mid & n & -> & H)%IH. exists p, j, (q ++ [l]), mid, n. rewrite <- app_assoc. done. }
    destruct l as [ld|b|i' o|i' j b|i' j o rep oc|i' ws b|i' b m' oc]; try done.
    destruct o as [w'| |]; try done. destruct oc; try done. case_decide as Hd; [|done].
    destruct Hd as [-> ->]. intros [= ->]. destruct Hst as (c & n' & _ & _ & _ & Hrep & _).
    destruct (Hrep eq_refl) as (n & Hn & ->). exists ls, j, [], s1, n. done.
Qed.

(** ** What a node holds *)

Lemma told_cons a l ls r0 : told a (l :: ls) r0 = told a ls (told a [l] r0).
Proof. done. Qed.

Lemma node_told a ls : ∀ s s' n, runs s ls s' -> sy_nodes s !! a = Some n ->
  ∃ n', sy_nodes s' !! a = Some n' ∧ sn_ranges n' = told a ls (sn_ranges n).
Proof.
  induction ls as [|l ls IH]; intros s s' n Hrun Hn; [inversion Hrun; subst; eauto|].
  apply runs_cons_inv in Hrun as (s1 & Hst & Hrun). rewrite told_cons.
  assert (H1 : ∃ n1, sy_nodes s1 !! a = Some n1 ∧ sn_ranges n1 = told a [l] (sn_ranges n)).
  { destruct l as [ld|b|i' o|i' j b|i' j o rep oc|i' ws b|i' b m' oc]; cbn in Hst.
    - subst s1. by exists n.
    - destruct Hst as (_ & ->). cbn. destruct (decide (b = a)) as [->|Hne].
      + exists fresh_node. by rewrite lookup_insert.
      + exists n. by rewrite lookup_insert_ne.
    - destruct Hst as (c1 & _ & ->). by exists n.
    - destruct Hst as (c1 & o & _ & _ & _ & ->). by exists n.
    - destruct Hst as (c1 & n' & _ & _ & Hc & _ & ->). cbn.
      assert (Hserve : ∀ nn n2, sy_nodes s !! op_worker o = Some nn -> serves addrs nn (op_request o) n2 ->
        n' = <[op_worker o := n2]> (sy_nodes s) -> ∃ n1, n' !! a = Some n1 ∧ sn_ranges n1 =
          match o with OpList _ => sn_ranges n
          | OpAdd w r => if decide (w = a) then sn_ranges n ++ [r] else sn_ranges n
          | OpRemove w r => if decide (w = a) then remove_first r (sn_ranges n) else sn_ranges n end).
      { intros nn n2 Hnn Hsv ->. destruct (decide (op_worker o = a)) as [<-|Hne].
        - exists n2. rewrite lookup_insert. split; [done|]. replace nn with n in * by congruence.
          destruct o; cbn in Hsv |- *; subst n2; cbn; try done; by rewrite decide_True by done.
        - exists n. rewrite lookup_insert_ne by done. split; [done|].
          destruct o; cbn in Hne; try done; by rewrite decide_False by done. }
      destruct oc; cbn in Hc.
      + destruct Hc as (nn & n2 & H1 & H2 & H3). destruct (Hserve _ _ H1 H2 H3) as (n1 & Hn1 & Hr1).
        exists n1. split; [done|]. rewrite Hr1. by destruct o.
      + subst n'. exists n. split; [done|]. by destruct o.
      + destruct Hc as (nn & n2 & H1 & H2 & H3). destruct (Hserve _ _ H1 H2 H3) as (n1 & Hn1 & Hr1).
        exists n1. split; [done|]. rewrite Hr1. by destruct o.
    - destruct Hst as (c1 & _ & _ & _ & ->). by exists n.
    - destruct Hst as (c1 & todo & n' & _ & _ & Hc & ->). cbn.
      destruct (decide (a = b)) as [->|Hne].
      + destruct oc; cbn in Hc.
        * destruct Hc as (nn & n2 & H1 & (t & _ & ->) & ->). rewrite lookup_insert. eexists. split; [done|]. cbn. congruence.
        * subst. by exists n.
        * destruct Hc as (nn & n2 & H1 & (t & _ & ->) & ->). rewrite lookup_insert. eexists. split; [done|]. cbn. congruence.
      + exists n. by rewrite (calls_other _ _ _ _ _ _ Hc Hne). }
  destruct H1 as (n1 & Hn1 & <-). by eapply IH.
Qed.

(** ** Restarts *)

Lemma blank_after s l1 a l2 s' :
  runs s (l1 ++ LRestart a :: l2) s' -> (∀ i m oc, LPublish i a m oc ∈ l2 -> oc = FailedBefore) ->
  ∃ n, sy_nodes s' !! a = Some n ∧ sn_table n = [].
Proof.
  intros (s1 & _ & H2)%runs_split. apply runs_cons_inv in H2 as (s2 & Hst & H2).
  assert (H0 : ∃ n, sy_nodes s2 !! a = Some n ∧ sn_table n = []).
  { destruct Hst as (_ & ->). exists fresh_node. cbn. by rewrite lookup_insert. }
  clear Hst s1. revert s2 H2 H0. induction l2 as [|l ls IH]; intros s2 Hrun H0 Hp; [by inversion Hrun; subst|].
  apply runs_cons_inv in Hrun as (s1 & Hst & Hrun).
  eapply IH; [done| |intros i m oc Hin; eapply (Hp i m oc); by right].
  destruct H0 as (n & Hn & Ht).
  destruct l as [ld|b|i' o|i' j b|i' j o rep oc|i' ws b|i' b m' oc]; cbn in Hst.
  - subst s1. by exists n.
  - destruct Hst as (_ & ->). cbn. destruct (decide (a = b)) as [->|Hne].
    + exists fresh_node. by rewrite lookup_insert.
    + exists n. by rewrite lookup_insert_ne by congruence.
  - destruct Hst as (c1 & _ & ->). by exists n.
  - destruct Hst as (c1 & o & _ & _ & _ & ->). by exists n.
  - destruct Hst as (c1 & n' & _ & _ & Hc & _ & ->).
    destruct (calls_table _ _ _ _ _ _ Hc Hn) as (n2 & Hn2 & Ht2). exists n2. cbn. by rewrite Ht2.
  - destruct Hst as (c1 & _ & _ & _ & ->). by exists n.
  - destruct Hst as (c1 & todo & n' & _ & _ & Hc & ->). cbn.
    destruct (decide (a = b)) as [->|Hne].
    + assert (oc = FailedBefore) as -> by (eapply Hp; by left). cbn in Hc. subst. by exists n.
    + exists n. by rewrite (calls_other _ _ _ _ _ _ Hc Hne).
Qed.

End proofs.
