(** Walks over the store of a node. *)
From stdpp Require Import prelude strings list.
From Coq Require Import Sorted.
From Verif.Base Require Import GoInt Envelope.
From Verif.Store Require Import Avl AvlProofs Model Spec ProofsBase ProofsHist ProofsAcct ProofsGet.
From Verif.Routing Require Import Model Spec ProofsProxy ProofsRead.
From Verif.Client Require Import Walk WalkSpec WalkProofs.
Open Scope Z_scope.

Lemma projects_fun nf e e1 e2 : projects nf e e1 -> projects nf e e2 -> e1 = e2.
Proof. rewrite <-!filter_by_name_projects. congruence. Qed.
Lemma projects_ts nf e e' : projects nf e e' -> e_ts e' = e_ts e.
Proof. by destruct 1. Qed.

Lemma answers_unique q l o1 : answers q l o1 -> ∀ o2, answers q l o2 -> o1 = o2.
Proof.
  induction 1 as [|e e' l out Hs Ha IH|e l out Hn Ha IH]; intros o2 H2; inversion H2; subst; auto.
  - f_equal; auto. destruct Hs as (_ & Hp & _).
    match goal with H : selected q e _ |- _ => destruct H as (_ & Hp' & _) end. by eapply projects_fun.
  - exfalso. match goal with H : ∀ e', ¬ selected q e e' |- _ => by eapply H end.
  - exfalso. by eapply Hn.
Qed.

(** Narrowing the window of a query filters its answer. *)
Lemma answers_narrow q q' (P : envelope -> Prop) `{∀ e, Decision (P e)} l out :
  answers q l out -> q_name q' = q_name q ->
  (∀ e, wanted_type (q_types q') e ↔ wanted_type (q_types q) e) ->
  (∀ e, q_start q' <= e_ts e < q_end q' ∧ e ∈ l -> q_start q <= e_ts e < q_end q) ->
  (∀ e, P e ↔ q_start q' <= e_ts e < q_end q') ->
  answers q' l (filter P out).
Proof.
  intros Ha Hn Ht Hw HP. induction Ha as [|e e' l out Hs Ha IH|e l out Hno Ha IH].
  - constructor.
  - destruct Hs as (Hse & Hp & Hty). rewrite filter_cons.
    assert (IH' : answers q' l (filter P out)).
    { apply IH. intros x [Hx Hin]. apply Hw. split; [done|by right]. }
    destruct (decide (P e')) as [HPe|HPe].
    + apply ans_keep; [|done]. apply HP in HPe. rewrite (projects_ts _ _ _ Hp) in HPe.
      split; [done|]. split; [by rewrite Hn|]. by apply Ht.
    + apply ans_skip; [|done]. intros x (Hx & Hpx & _). rewrite Hn in Hpx.
      rewrite (projects_fun _ _ _ _ Hp Hpx) in HPe. apply HPe, HP. by rewrite (projects_ts _ _ _ Hpx).
  - apply ans_skip; [|apply IH; intros x [Hx Hin]; apply Hw; split; [done|by right]].
    intros x (Hx & Hpx & Hty). apply (Hno x). split; [apply Hw; split; [done|by left]|].
    split; [by rewrite <-Hn|]. by apply Ht.
Qed.

Lemma answers_ascending q l out : answers q l out ->
  (∀ e, e ∈ out -> ∃ e0, e0 ∈ l ∧ e_ts e = e_ts e0) ∧ (ascending l -> ascending out).
Proof.
  induction 1 as [|e e' l out Hs Ha [IH1 IH2]|e l out Hn Ha [IH1 IH2]].
  - split; [intros e He; by apply elem_of_nil in He|done].
  - destruct Hs as (_ & Hp & _). split.
    + intros x Hx. apply elem_of_cons in Hx as [->|Hx].
      * exists e. split; [by left|]. by apply projects_ts in Hp.
      * destruct (IH1 x Hx) as (x0 & ? & ?). exists x0. split; [by right|done].
    + intros Hs. apply StronglySorted_inv in Hs as [Hs HF]. constructor; [by apply IH2|].
      apply Forall_forall. intros x Hx. destruct (IH1 x Hx) as (x0 & Hx0 & ->).
      rewrite Forall_forall in HF. rewrite (projects_ts _ _ _ Hp). by apply HF.
  - split.
    + intros x Hx. destruct (IH1 x Hx) as (x0 & ? & ?). exists x0. split; [by right|done].
    + intros Hs. apply StronglySorted_inv in Hs as [Hs HF]. by apply IH2.
Qed.

Lemma stored_ascending m ops s src :
  1 <= m -> run (new_store m) ops = Some s ->
  (∀ x, Forall sane_time (puts_to x ops)) -> (∀ x, NoDup (e_ts <$> puts_to x ops)) ->
  ascending (stored s src).*2 ∧ Forall sane_time (stored s src).*2.
Proof.
  intros Hm Hr H64 Hnd.
  pose proof (run_exact ops (new_store m) [] s (inv_new m Hm) eq_refl ltac:(intros x; constructor)
    ltac:(intros x; eapply Forall_impl; [apply H64|]; by intros ? []) Hnd Hr) as Hex.
  destruct (run_inv ops _ _ (inv_new m Hm) Hr) as [Hi _].
  pose proof (inv_sorted s src Hi) as Hs. rewrite <-stored_entries in Hs. specialize (Hex src).
  split.
  - induction (stored s src) as [|[k e] l IH]; [constructor|].
    destruct Hs as [Hf Hs]. apply Forall_cons in Hex as [[Hk _] Hex]. simpl in Hk. simpl.
    constructor; [by apply IH|]. apply Forall_fmap, Forall_forall. intros [k' e'] Hin. simpl.
    rewrite Forall_forall in Hf, Hex. specialize (Hf _ Hin). specialize (Hex _ Hin). simpl in *. lia.
  - apply Forall_fmap. eapply Forall_impl; [exact Hex|]. intros p [_ Hp]. simpl.
    specialize (H64 src). rewrite Forall_forall in H64. by apply H64.
Qed.

Lemma store_serves compile node_clock clock m ops s src c q content :
  1 <= m -> run (new_store m) ops = Some s ->
  (∀ x, Forall sane_time (puts_to x ops)) -> (∀ x, NoDup (e_ts <$> puts_to x ops)) ->
  walk_ok compile c -> wants compile c q -> answers q (stored s src).*2 content ->
  serves c content node_clock clock (store_reader compile node_clock clock s src).
Proof.
  intros Hm Hr H64 Hnd (Hlim & Hend & _ & Hen & Hname) [Hqw Hqt Hqn] Ha i start Hns r.
  split; [done|].
  destruct (stored_ascending m ops s src Hm Hr H64 Hnd) as [_ Hsane].
  set (rq := mk_rr src (wr_start r) (default 0 (wr_end r)) (default 0 (wr_limit r)) (default [] (wr_types r)) false
    (default "" (wr_name r))).
  assert (Hnm : rr_name rq = w_name c).
  { unfold rq, r, read_of. simpl. case_bool_decide as E; simpl; congruence. }
  assert (Hacc : acceptable compile rq).
  { split; [|split; [exact Hlim|by rewrite Hnm]]. unfold rq, r. simpl. unfold not_after_end in Hns.
    destruct (w_end c) as [t|]; [right; exact Hns|by left]. }
  pose proof (to_query_spec compile (node_clock i) rq) as HS.
  destruct (to_query compile (node_clock i) rq) as [q'|] eqn:Eq; [|by exfalso].
  destruct HS as (_ & Hres & Hl & Htypes).
  assert (Hk : known_types (q_types q')).
  { rewrite Htypes. unfold known_types.
    destruct (filter _ _) as [|t0 ts] eqn:Ef; [done|]. apply Forall_forall. intros t Hin n.
    apply Hen. rewrite <-Ef in Hin. apply elem_of_list_filter in Hin as [_ Hin]. exact Hin. }
  destruct (get_env_known src q' s Hk) as [res Hres'].
  assert (Hread : local_read compile (node_clock i) rq s = ReadOk res).
  { unfold local_read. rewrite Eq. simpl. by rewrite Hres'. }
  destruct (read_exact compile (node_clock i) rq m ops s res Hm Hr) as (q2 & all & Hr2 & Ht2 & Ha2 & ->); [| | |exact Hread|].
  { intros x. eapply Forall_impl; [apply H64|]. by intros ? []. }
  { done. }
  { intros t n Ht. by apply Hen. }
  exists (Z.to_nat (q_limit q2)).
  assert (Hl2 : 1 <= q_limit q2).
  { destruct (rs_limit _ _ _ _ Hr2) as [L1 L2]. destruct Hacc as (_ & L3 & _).
    destruct (decide (rr_limit rq = 0)) as [E|E]; [rewrite L2 by done; lia|rewrite L1 by done; lia]. }
  split; [lia|]. change (a_batch (store_reader compile node_clock clock s src i r)) with (match local_read compile (node_clock i) rq s with ReadOk es => Some es | _ => None end). rewrite Hread. f_equal. f_equal.
  rewrite (rs_desc _ _ _ _ Hr2) in Ha2. simpl in Ha2.
  eapply answers_unique; [exact Ha2|].
  eapply (answers_narrow q); [exact Ha| | | |].
  - destruct (rs_name _ _ _ _ Hr2) as [N1 N2]. rewrite Hnm in N1, N2. destruct Hqn as [M1 M2].
    destruct (decide (w_name c = "")) as [E|E]; [by rewrite N1, M1|by rewrite N2, M2].
  - intros e. rewrite Ht2, Hqt. done.
  - intros e [_ Hin]. rewrite (proj1 Hqw), (proj2 Hqw). rewrite Forall_forall in Hsane.
    destruct (Hsane e Hin) as [Hs _]. exact Hs.
  - intros e. rewrite (rs_start _ _ _ _ Hr2). destruct (rs_end _ _ _ _ Hr2) as [E1 E2].
    unfold visible. unfold rq, r in *. simpl in *. destruct (w_end c) as [t|]; simpl in *.
    + rewrite E1; [done|]. congruence.
    + rewrite E2; done.
Qed.
