(** A read that enters anywhere is answered by the node that has the source, with all of it. *)
From Coq Require Import Ascii String.
From stdpp Require Import prelude strings list gmap.
From Verif.Base Require Import GoInt Envelope.
From Verif.Json Require Import Spec SpecPb.
From Verif.Store Require Import Model Spec ProofsAcct.
From Verif.Routing Require Import Model Spec ProofsProxy ProofsRead.
From Verif.Whole Require Import Model Spec SpecFull Proofs ProofsFull.
From Verif.Http Require Import Model.
From Verif.Wire Require Import Format Model Spec FormatProofs Proofs Received Frame SpecFrame FrameProofs Control Cluster SpecCluster NodeProofs ClusterProofs.
Open Scope Z_scope.

Section bytes.
Context (grow : nat -> nat) (nils : bool) (addrs : list string) (hash : string -> Z) (compile : string -> option (string -> bool)).
Notation bstep := (bstep grow nils addrs hash compile).
Notation bruns := (bruns grow nils addrs hash compile).
Notation runs := (runs hash compile).

Lemma steady_snoc k i src pre mid ev : steady hash k i src pre (mid ++ [ev]) -> steady hash k i src pre mid.
Proof.
  intros H j Hj. destruct (H j Hj) as (H1 & H2 & H3). split; [done|]. split.
  - intros b t Hin. apply (H2 b t), elem_of_app. by left.
  - intros m Hin. apply (H3 m), elem_of_app. by left.
Qed.
Lemma steady_table k i src pre mid j : steady hash k i src pre mid -> j = i \/ j = k ->
  lookup (hash src) (table_of j (messages (pre ++ mid))) = [k].
Proof.
  intros H Hj. induction mid as [|ev mid IH] using rev_ind; [rewrite List.app_nil_r; by apply H|].
  rewrite List.app_assoc, messages_snoc. pose proof (steady_snoc _ _ _ _ _ _ H) as H'. specialize (IH H'). destruct (H j Hj) as (_ & H2 & H3).
  destruct ev; cbn [message_of]; rewrite ?List.app_nil_r, ?table_of_snoc; try exact IH.
  - destruct (said b) as [r|]; [|by rewrite List.app_nil_r]. by rewrite table_of_snoc.
  - case_decide as E; [|done]. subst. exfalso. apply (H2 b t), elem_of_app. right. by left.
  - case_decide as E; [|done]. subst. exfalso. apply (H3 m), elem_of_app. right. by left.
Qed.
Lemma route_owner k i n rnd j : read_route_of [k] n i rnd = Some (CallNode j) -> j = k.
Proof.
  cbn [read_route_of existsb]. rewrite orb_false_r. destruct (Nat.eqb_spec i k) as [->|Hne].
  - destruct (_ <? _)%nat; [|done]. by intros [= <-].
  - cbn [length]. rewrite Nat.mod_1_r. change ([k] !! 0%nat) with (Some k). cbn [mbind option_bind]. destruct (k <? n)%nat; [|done]. by intros [= <-].
Qed.

Definition placed (k i : nat) (rq : read_request) (mid : list bevent) (st : rcall) : Prop :=
  match st with
  | Asked _ j _ => j = i \/ j = k
  | Replied _ None => True
  | Replied _ (Some x) => exists now es, VRead k rq now (ReadOk es) ∈ messages mid /\ (forall e, e ∈ es -> good e) /\ marshal_read_response (Some es) = Some x
  end.
Lemma placed_snoc k i rq mid ev st : placed k i rq mid st -> placed k i rq (mid ++ [ev]) st.
Proof.
  destruct st as [p j b|p [x|]]; cbn; try done. intros (now & es & H1 & H2). exists now, es. split; [|done]. rewrite messages_snoc. apply elem_of_app. by left.
Qed.
Lemma no_ask_app n mid ev : no_ask n (mid ++ [ev]) -> no_ask n mid.
Proof. intros H i b Hin. apply (H i b), elem_of_app. by left. Qed.

Lemma bytes_placed ms btr c : Forall (fun m => 1 <= m) ms -> bruns (bstart ms) btr c ->
  forall n st pre i b mid k rq, b_calls c !! n = Some st -> btr = pre ++ BAsk n i b :: mid -> no_ask n mid ->
    unmarshal_read b = Some rq -> steady hash k i (rr_source rq) pre mid -> placed k i rq mid st.
Proof.
  intros Hms Hr. induction Hr as [|tr c1 ev c2 Hr IH Hs]; [intros n st pre i b mid k rq H; cbn in H; by rewrite lookup_empty in H|].
  assert (Hr2 : bruns (bstart ms) (tr ++ [ev]) c2) by (by eapply bruns_snoc).
  pose proof (bytes_refine _ _ _ _ _ _ _ _ Hms Hr2) as HR2. rewrite messages_snoc in HR2.
  pose proof (bytes_refine _ _ _ _ _ _ _ _ Hms Hr) as HR. pose proof (bytes_tracked _ _ _ _ _ _ _ _ Hms Hr) as HT.
  intros n st pre i b mid k rq Hst E Hno Hb Hsd.
  destruct (decide (mid = [])) as [->|Hmid].
  { apply app_inj_tail in E as [-> ->]. inversion Hs; subst. cbn [b_calls] in Hst. rewrite lookup_insert in Hst. injection Hst as <-. by left. }
  destruct (exists_last Hmid) as (mid0 & ev' & ->). replace (pre ++ BAsk n i b :: mid0 ++ [ev']) with ((pre ++ BAsk n i b :: mid0) ++ [ev']) in E by (by rewrite <-List.app_assoc).
  apply app_inj_tail in E as [-> <-]. pose proof (steady_snoc _ _ _ _ _ _ Hsd) as Hsd0. pose proof (no_ask_app _ _ _ Hno) as Hno0.
  assert (Hev : forall i b, ev <> BAsk n i b). { intros i' b' ->. apply (Hno i' b'), elem_of_app. right. by left. }
  assert (Old : forall st, b_calls c1 !! n = Some st -> placed k i rq mid0 st) by (intros; by eapply IH).
  assert (Keep : forall st, b_calls c1 !! n = Some st -> placed k i rq (mid0 ++ [ev]) st) by (intros; apply placed_snoc; by apply Old).
  assert (Way : forall st, b_calls c1 !! n = Some st -> under_way b mid0 st).
  { intros st' H. destruct (HT _ _ H) as (pre' & i' & b' & mid' & E & Hno' & Hu). by destruct (last_ask _ _ _ _ _ _ _ _ _ E Hno0 Hno') as (<- & <- & <- & <-). }
  assert (Tab : forall j nd, (j = i \/ j = k) -> c_nodes (b_cluster c1) !! j = Some nd -> lookup (hash (rr_source rq)) (n_table nd) = [k]).
  { intros j nd Hj Hnd. rewrite (table_runs _ _ _ _ _ _ _ HR Hnd).
    replace (pre ++ BAsk n i b :: mid0) with ((pre ++ [BAsk n i b]) ++ mid0) by (by rewrite <-List.app_assoc).
    eapply (steady_table k i); [|done]. intros j' Hj'. rewrite messages_snoc. cbn [message_of]. rewrite List.app_nil_r. by apply Hsd0. }
  destruct Hs as [i1 b1 b' r calls nd ns fl cs Hc Hu Hi Hca|i1 b1 c cs Hn|j es now nd s ns fl fl' cs Hj Hp Hput|
    j es b1 b' r calls now nd ns ns' fl fl' cs Hp Hm Hc Hu Hj Hca Hd|j e ns fl fl' cs Hp|i1 b1 b' t o l nd ns fl cs Hi Hc Hcc|i1 n1 pri now nd s ns fl cs Hi Ht|
    i1 m nd ns fl cs Hi Hm|n1 i1 b1 c cs Hn|n1 path i1 b1 b' rq1 rnd j b2 nd ns fl cs Hn Hc Hu Hi Hro Hne Hm|n1 path k1 b1 b' rq1 rnd now nd ns fl cs Hn Hc Hu Hk Hro|
    n1 path i1 b1 c cs Hn|n1 path a c cs Hn|n1 i1 path x x' batch c cs Hn Hc Hu|n1 i1 path c cs Hn|n1 a c cs Hn]; cbn [b_calls b_cluster c_nodes] in *;
    try (by apply Keep).
  - destruct (decide (n1 = n)) as [->|Hnn]; [by destruct (Hev i1 b1)|]. rewrite lookup_insert_ne in Hst by done. by apply Keep.
  - destruct (decide (n1 = n)) as [->|Hnn]; [|rewrite lookup_insert_ne in Hst by done; by apply Keep].
    rewrite lookup_insert in Hst. injection Hst as <-. apply carried_iff in Hc as [-> Ht]. destruct (asks_read _ _ _ (Way _ Hn) Ht Hu) as [_ Hu0].
    rewrite Hb in Hu0. injection Hu0 as <-. rewrite (Tab _ _ (Old _ Hn) Hi) in Hro. apply route_owner in Hro as ->. cbn [placed]. by right.
  - destruct (decide (n1 = n)) as [->|Hnn]; [|rewrite lookup_insert_ne in Hst by done; by apply Keep].
    rewrite lookup_insert in Hst. injection Hst as <-. apply carried_iff in Hc as [-> Ht]. destruct (asks_read _ _ _ (Way _ Hn) Ht Hu) as [_ Hu0].
    rewrite Hb in Hu0. injection Hu0 as <-. rewrite (Tab _ _ (Old _ Hn) Hk) in Hro. apply route_owner in Hro as ->.
    cbn [message_of] in HR2. destruct (local_read compile now rq (n_store nd)) as [|es|] eqn:El; [done| |done].
    destruct (marshal_read_response (Some es)) as [x|] eqn:Ex; [|done]. cbn [placed]. exists now, es. split.
    + rewrite messages_snoc. apply elem_of_app. right. cbn [message_of]. by left.
    + split; [|done]. by eapply served_good.
  - destruct (decide (n1 = n)) as [->|Hnn]; [|rewrite lookup_insert_ne in Hst by done; by apply Keep]. rewrite lookup_insert in Hst. by injection Hst as <-.
  - destruct (decide (n1 = n)) as [->|Hnn]; [|rewrite lookup_insert_ne in Hst by done; by apply Keep]. rewrite lookup_insert in Hst. by injection Hst as <-.
  - destruct (decide (n1 = n)) as [->|Hnn]; [|rewrite lookup_insert_ne in Hst by done; by apply Keep]. rewrite lookup_insert in Hst. injection Hst as <-.
    destruct (Old _ Hn) as (now & es & H1 & H2 & H3). apply carried_iff in Hc as [-> Ht]. rewrite (answer_again _ _ H2 H3 Ht) in Hu. injection Hu as <-.
    rewrite H3. cbn [placed]. exists now, es. split; [|done]. rewrite messages_snoc. apply elem_of_app. by left.
  - destruct (decide (n1 = n)) as [->|Hnn]; [|rewrite lookup_insert_ne in Hst by done; by apply Keep]. rewrite lookup_insert in Hst. by injection Hst as <-.
  - apply lookup_delete_Some in Hst as [Hnn Hst]. by apply Keep.
Qed.

Lemma bytes_owner ms pre n i b mid x post c k rq : Forall (fun m => 1 <= m) ms ->
  bruns (bstart ms) (pre ++ BAsk n i b :: mid ++ BGive n (Some x) :: post) c -> no_ask n mid ->
  unmarshal_read b = Some rq -> steady hash k i (rr_source rq) pre mid ->
  exists now es, VRead k rq now (ReadOk es) ∈ messages mid /\ unmarshal_read_response x = Some (Some es).
Proof.
  intros Hms Hr Hno Hb Hsd. replace (pre ++ BAsk n i b :: mid ++ BGive n (Some x) :: post) with ((pre ++ BAsk n i b :: mid) ++ BGive n (Some x) :: post) in Hr
    by (by rewrite <-List.app_assoc).
  apply bruns_split in Hr as (c1 & c2 & Hr & Hs & _). pose proof (bytes_placed _ _ _ Hms Hr) as HT.
  inversion Hs as [| | | | | | | | | | | | | | |n' a c0 cs Hn E1 [E2 E3]]; subst. cbn [b_calls] in HT.
  destruct a as [x0|]; [|done]. cbn in E3. apply carried_iff in E3 as [-> Ht].
  destruct (HT _ _ _ _ _ _ _ _ Hn eq_refl Hno Hb Hsd) as (now & es & H1 & H2 & H3). exists now, es. split; [done|]. by eapply answer_again.
Qed.

(** ** All of it *)
Lemma life_all k tr : (forall m, VRestart k m ∉ tr) -> life k tr = tr.
Proof.
  induction tr as [|ev tr IH] using rev_ind; [done|]. intros H. rewrite life_snoc. rewrite IH by (intros m Hin; apply (H m), elem_of_app; by left).
  destruct ev as [| | | | |i m|]; try done. case_decide as E; [|done]. subst. exfalso. apply (H m), elem_of_app. right. by left.
Qed.
Lemma bound_all ms k m tr : ms !! k = Some m -> (forall m, VRestart k m ∉ tr) -> bound ms k tr = m.
Proof.
  intros Hm. induction tr as [|ev tr IH] using rev_ind; intros H; [unfold bound; cbn; by rewrite Hm|]. rewrite bound_snoc.
  rewrite IH by (intros m' Hin; apply (H m'), elem_of_app; by left). destruct ev as [| | | | |i m'|]; try done. case_decide as E; [|done]. subst.
  exfalso. apply (H m'), elem_of_app. right. by left.
Qed.
Lemma routed_more k src a b : routed hash k src a -> sent_to src b = [] -> routed hash k src (a ++ b).
Proof.
  intros H Hb pre i r post E Hne. assert (Hd : (exists post', a = pre ++ VSend i r :: post') \/ VSend i r ∈ b).
  { clear -E. revert a E. induction pre as [|p pre IH]; intros [|y a] E; cbn in E.
    - right. rewrite E. by left. - left. injection E as -> _. by exists a. - right. rewrite E. right. apply elem_of_app. right. by left.
    - injection E as -> E. destruct (IH _ E) as [[post' ->]|H]; [left; by exists post'|by right]. }
  destruct Hd as [[post' ->]|Hd]; [by eapply H|]. exfalso. destruct (of_source src (get_batch r)) as [|e l] eqn:Eo; [done|].
  assert (Hin : e ∈ sent_to src b). { unfold sent_to. apply elem_of_list_bind. exists (VSend i r). split; [|done]. rewrite Eo. by left. }
  rewrite Hb in Hin. by apply elem_of_nil in Hin.
Qed.

Lemma bytes_all_at ms pre n i b mid x post c c0 k m rq : Forall (fun m => 1 <= m) ms ->
  bruns (bstart ms) (pre ++ BAsk n i b :: mid ++ BGive n (Some x) :: post) c -> no_ask n mid ->
  unmarshal_read b = Some rq -> steady hash k i (rr_source rq) pre mid ->
  bruns (bstart ms) pre c0 -> routed hash k (rr_source rq) (messages pre) -> ms !! k = Some m ->
  (forall m', BRestart k m' ∉ pre ++ mid) -> (forall d pri, BPrune k d pri ∉ pre ++ mid) ->
  lost (rr_source rq) (messages pre) = [] -> of_source (rr_source rq) (c_flight (b_cluster c0)).*2 = [] -> sent_to (rr_source rq) (messages mid) = [] ->
  distinct_times (sent_to (rr_source rq) (messages pre)) -> Z.of_nat (length (sent_to (rr_source rq) (messages pre))) <= m ->
  enum_types (rr_types rq) ->
  exists now q l all, VRead k rq now (ReadOk (take (Z.to_nat (q_limit q)) all)) ∈ messages mid /\ resolved compile now rq q /\ (forall e, wanted_type (q_types q) e <-> requested_type (rr_types rq) e) /\
    l ≡ₚ sent_to (rr_source rq) (messages pre) /\ time_sorted l /\ Store.Spec.answers q (if q_desc q then reverse l else l) all /\
    unmarshal_read_response x = Some (Some (take (Z.to_nat (q_limit q)) all)).
Proof.
  intros Hms Hr Hno Hb Hsd Hr0 Hro Hm Hnr Hnp Hlost Hfl Hmid HD Hlen Hen.
  destruct (bytes_owner _ _ _ _ _ _ _ _ _ _ _ Hms Hr Hno Hb Hsd) as (now & es & Hin & Hx). apply elem_of_list_split in Hin as (m1 & m2 & Em).
  pose proof (bytes_refine _ _ _ _ _ _ _ _ Hms Hr) as HR. pose proof (bytes_refine _ _ _ _ _ _ _ _ Hms Hr0) as HR0.
  replace (messages (pre ++ BAsk n i b :: mid ++ BGive n (Some x) :: post)) with ((messages pre ++ m1) ++ VRead k rq now (ReadOk es) :: m2 ++ messages post) in HR.
  2:{ rewrite messages_app. change (messages (BAsk n i b :: mid ++ BGive n (Some x) :: post)) with (messages (mid ++ BGive n (Some x) :: post)).
      rewrite messages_app. change (messages (BGive n (Some x) :: post)) with (messages post). rewrite Em, <- !List.app_assoc. done. }
  assert (Sub : forall ev, ev ∈ messages pre ++ m1 -> exists bev, bev ∈ pre ++ mid /\ ev ∈ message_of bev).
  { intros ev Hev. apply elem_of_app in Hev as [Hev|Hev].
    - unfold messages in Hev. apply elem_of_list_bind in Hev as (bev & H1 & H2). exists bev. split; [apply elem_of_app; by left|done].
    - assert (Hev' : ev ∈ messages mid) by (rewrite Em; apply elem_of_app; by left). unfold messages in Hev'.
      apply elem_of_list_bind in Hev' as (bev & H1 & H2). exists bev. split; [apply elem_of_app; by right|done]. }
  assert (NR : forall m', VRestart k m' ∉ messages pre ++ m1).
  { intros m' H. apply Sub in H as (bev & H1 & H2). destruct bev; cbn [message_of] in H2; try (by apply elem_of_nil in H2); try (by apply elem_of_list_singleton in H2).
    - destruct (said b0); [by apply elem_of_list_singleton in H2|by apply elem_of_nil in H2].
    - apply elem_of_list_singleton in H2. injection H2 as -> ->. by eapply Hnr. }
  assert (NP : forall d pri, VPrune k d pri ∉ messages pre ++ m1).
  { intros d pri H. apply Sub in H as (bev & H1 & H2). destruct bev; cbn [message_of] in H2; try (by apply elem_of_nil in H2); try (by apply elem_of_list_singleton in H2).
    - destruct (said b0); [by apply elem_of_list_singleton in H2|by apply elem_of_nil in H2].
    - apply elem_of_list_singleton in H2. injection H2 as -> -> ->. by eapply Hnp. }
  assert (S1 : sent_to (rr_source rq) m1 = []). { rewrite Em, sent_to_app in Hmid. by apply app_nil in Hmid as [? _]. }
  destruct (conserved _ _ _ _ _ _ _ HR0 Hro) as (Ho & _ & Hc0). rewrite <-(only_of_source _ _ _ Ho), Hlost, Hfl in Hc0. cbn in Hc0. rewrite List.app_nil_r in Hc0.
  destruct (runs_split _ _ _ _ _ _ _ HR) as (c1 & c2 & HR1 & _).
  destruct (conserved _ _ _ _ _ _ _ HR1 (routed_more _ _ _ _ Hro S1)) as (_ & _ & Hc1).
  rewrite sent_to_app, S1, List.app_nil_r, arrived_app in Hc1.
  assert (A1 : arrived k (rr_source rq) m1 = []).
  { apply nil_length_inv. apply Permutation_length in Hc0, Hc1. rewrite !List.app_length in Hc1. lia. }
  assert (AA : arrived k (rr_source rq) (life k (messages pre ++ m1)) = arrived k (rr_source rq) (messages pre)).
  { rewrite life_all by done. by rewrite arrived_app, A1, List.app_nil_r. }
  destruct (answer_held _ _ _ _ _ _ _ _ _ _ Hms HR Hen) as (q & l & all & H1 & H2 & H3 & H4 & ->).
  { rewrite AA. destruct HD as [D1 D2]. split; [by rewrite <-Hc0|by rewrite <-Hc0]. }
  exists now, q, l, all. split; [rewrite Em; apply elem_of_app; right; by left|]. split; [done|]. split; [done|]. split.
  { rewrite Hc0, <-AA. eapply holds_all; [exact H3| |].
    - rewrite life_all by done. exact NP.
    - rewrite AA, (bound_all _ _ m) by done. by rewrite <-(Permutation_length Hc0). }
  split; [by eapply holds_sorted|]. done.
Qed.
Lemma bytes_all ms pre n i b mid x post c c0 k m rq : Forall (fun m => 1 <= m) ms ->
  bruns (bstart ms) (pre ++ BAsk n i b :: mid ++ BGive n (Some x) :: post) c -> no_ask n mid ->
  unmarshal_read b = Some rq -> steady hash k i (rr_source rq) pre mid ->
  bruns (bstart ms) pre c0 -> routed hash k (rr_source rq) (messages pre) -> ms !! k = Some m ->
  (forall m', BRestart k m' ∉ pre ++ mid) -> (forall d pri, BPrune k d pri ∉ pre ++ mid) ->
  lost (rr_source rq) (messages pre) = [] -> of_source (rr_source rq) (c_flight (b_cluster c0)).*2 = [] -> sent_to (rr_source rq) (messages mid) = [] ->
  distinct_times (sent_to (rr_source rq) (messages pre)) -> Z.of_nat (length (sent_to (rr_source rq) (messages pre))) <= m ->
  enum_types (rr_types rq) ->
  exists now q l all, resolved compile now rq q /\ (forall e, wanted_type (q_types q) e <-> requested_type (rr_types rq) e) /\
    l ≡ₚ sent_to (rr_source rq) (messages pre) /\ time_sorted l /\ Store.Spec.answers q (if q_desc q then reverse l else l) all /\
    unmarshal_read_response x = Some (Some (take (Z.to_nat (q_limit q)) all)).
Proof.
  intros. destruct (bytes_all_at ms pre n i b mid x post c c0 k m rq) as (now & q & l & all & _ & ?); try done. by exists now, q, l, all.
Qed.

(** the same of the messages, when the read comes at once *)
Lemma held_all ms tr k m rq now es c c0 : Forall (fun m => 1 <= m) ms -> runs (start ms) tr c0 -> runs (start ms) (tr ++ [VRead k rq now (ReadOk es)]) c ->
  routed hash k (rr_source rq) tr -> ms !! k = Some m -> (forall m', VRestart k m' ∉ tr) -> (forall d pri, VPrune k d pri ∉ tr) ->
  lost (rr_source rq) tr = [] -> of_source (rr_source rq) (c_flight c0).*2 = [] ->
  distinct_times (sent_to (rr_source rq) tr) -> Z.of_nat (length (sent_to (rr_source rq) tr)) <= m -> enum_types (rr_types rq) ->
  exists q l all, resolved compile now rq q /\ (forall e, wanted_type (q_types q) e <-> requested_type (rr_types rq) e) /\
    l ≡ₚ sent_to (rr_source rq) tr /\ time_sorted l /\ Store.Spec.answers q (if q_desc q then reverse l else l) all /\
    es = take (Z.to_nat (q_limit q)) all.
Proof.
  intros Hms HR0 HR Hro Hm NR NP Hlost Hfl HD Hlen Hen.
  destruct (conserved _ _ _ _ _ _ _ HR0 Hro) as (Ho & _ & Hc0). rewrite <-(only_of_source _ _ _ Ho), Hlost, Hfl in Hc0. cbn in Hc0. rewrite List.app_nil_r in Hc0.
  assert (AA : arrived k (rr_source rq) (life k tr) = arrived k (rr_source rq) tr) by (by rewrite life_all).
  destruct (answer_held _ _ _ _ _ _ _ _ _ _ Hms HR Hen) as (q & l & all & H1 & H2 & H3 & H4 & ->).
  { rewrite AA. destruct HD as [D1 D2]. split; [by rewrite <-Hc0|by rewrite <-Hc0]. }
  exists q, l, all. split; [done|]. split; [done|]. split.
  { rewrite Hc0, <-AA. eapply holds_all; [exact H3| |].
    - rewrite life_all by done. exact NP.
    - rewrite AA, (bound_all _ _ m) by done. by rewrite <-(Permutation_length Hc0). }
  split; [by eapply holds_sorted|]. done.
Qed.

(** ** And there is an answer *)
Lemma runs_length ms tr c : runs (start ms) tr c -> length (c_nodes c) = length ms.
Proof.
  intros Hr. induction Hr as [|tr c1 ev c2 Hr IH Hs]; [cbn; by rewrite fmap_length|]. destruct Hs; cbn [c_nodes] in *; rewrite ?insert_length; done.
Qed.
Lemma local_read_ok now rq s : acceptable compile rq -> enum_types (rr_types rq) -> exists es, local_read compile now rq s = ReadOk es.
Proof.
  intros Hacc Hen. pose proof (to_query_spec compile now rq) as HS. unfold local_read.
  destruct (to_query compile now rq) as [q|] eqn:Eq; [|done]. pose proof (known_query _ _ _ _ Hen Eq) as Hk.
  destruct (get_env_known (rr_source rq) q s Hk) as [res Hg]. rewrite Hg. by exists res.
Qed.
Lemma bytes_served ms pre c n j k rq b now : Forall (fun m => 1 <= m) ms -> bruns (bstart ms) pre c -> b_calls c !! n = None ->
  (j < length ms)%nat -> (k < length ms)%nat -> lookup (hash (rr_source rq)) (table_of j (messages pre)) = [k] -> lookup (hash (rr_source rq)) (table_of k (messages pre)) = [k] ->
  marshal_read rq = Some b -> takes b -> sized_read rq -> acceptable compile rq -> enum_types (rr_types rq) ->
  exists es x, (exists c0, runs (start ms) (messages pre ++ [VRead k rq now (ReadOk es)]) c0) /\ marshal_read_response (Some es) = Some x /\
    (takes x -> exists mid c', messages mid = [VRead k rq now (ReadOk es)] /\ no_ask n mid /\
       bruns (bstart ms) (pre ++ BAsk n j b :: mid ++ [BGive n (Some x)]) c').
Proof.
  intros Hms Hr Hn Hj Hk Htj Htk Hm Ht Hz Hacc Hen. pose proof (bytes_refine _ _ _ _ _ _ _ _ Hms Hr) as HR.
  assert (Hu : unmarshal_read b = Some rq) by (eapply read_round; [done|done|by apply takes_fits]).
  destruct c as [[ns fl] cs]. cbn [b_calls b_cluster] in *. pose proof (runs_length _ _ _ HR) as HL. cbn [c_nodes] in HL.
  destruct (lookup_lt_is_Some_2 ns k) as [nk Ek]; [lia|]. destruct (lookup_lt_is_Some_2 ns j) as [nj Ej]; [lia|].
  rewrite <-(table_runs _ _ _ _ _ k nk HR Ek) in Htk. rewrite <-(table_runs _ _ _ _ _ j nj HR Ej) in Htj.
  destruct (local_read_ok now rq (n_store nk) Hacc Hen) as [es El].
  assert (Rk : forall rnd, read_route_of (lookup (hash (rr_source rq)) (n_table nk)) (length ns) k rnd = Some (CallNode k)).
  { intros rnd. rewrite Htk. cbn [read_route_of existsb]. rewrite Nat.eqb_refl. cbn [orb]. by destruct (Nat.ltb_spec k (length ns)); [|lia]. }
  pose proof (bruns_snoc _ _ _ _ _ _ _ _ _ _ Hr (b_ask grow nils addrs hash compile n j b (mk_cluster ns fl) cs Hn)) as R1.
  assert (Hc : carried b = Some b) by (by apply carried_small).
  assert (HR2 : runs (start ms) (messages pre ++ [VRead k rq now (ReadOk es)])
    (mk_cluster (<[k := mk_node (n_table nk) (add_egress (Z.of_nat (length es)) (n_store nk))]> ns) fl)).
  { eapply runs_snoc; [exact HR|]. pose proof (step_read hash compile k rq now nk ns fl Ek) as S. by rewrite El in S. }
  assert (Hg : forall e, e ∈ es -> good e) by (by eapply served_good).
  destruct (answer_encodes es Hg) as (x & Ex & _). exists es, x. split; [by eexists|]. split; [done|]. intros Tx.
  assert (Cx : carried x = Some x) by (by apply carried_small).
  destruct (decide (j = k)) as [->|Hne].
  - exists [BServe n k rq now (ReadOk es)]. eexists. split; [done|]. split; [by intros i' b' H%elem_of_list_singleton|].
    pose proof (b_serve grow nils addrs hash compile n [] k b b rq 0 now nk ns fl _ (lookup_insert cs n (Asked [] k b)) Hc Hu Ek (Rk 0%nat)) as S.
    rewrite El in S. cbn [id] in S. rewrite Ex, insert_insert in S. pose proof (bruns_snoc _ _ _ _ _ _ _ _ _ _ R1 S) as R2.
    pose proof (b_give grow nils addrs hash compile n (Some x) (mk_cluster (<[k := mk_node (n_table nk) (add_egress (Z.of_nat (length es)) (n_store nk))]> ns) fl) _
      (lookup_insert cs n (Replied [] (Some x)))) as S3. cbn [mbind option_bind] in S3. rewrite Cx in S3.
    pose proof (bruns_snoc _ _ _ _ _ _ _ _ _ _ R2 S3) as R3. rewrite <- !List.app_assoc in R3. exact R3.
  - exists [BHop n; BServe n k rq now (ReadOk es); BBack n]. eexists. split; [done|].
    split; [intros i' b' H; rewrite !elem_of_cons, elem_of_nil in H; naive_solver|].
    assert (Rj : read_route_of (lookup (hash (rr_source rq)) (n_table nj)) (length ns) j 0 = Some (CallNode k)).
    { rewrite Htj. cbn [read_route_of existsb]. assert (Ejk : (j =? k)%nat = false) by lia. rewrite Ejk. cbn [orb length].
      rewrite Nat.mod_1_r. change ([k] !! 0%nat) with (Some k). cbn [mbind option_bind]. by destruct (Nat.ltb_spec k (length ns)); [|lia]. }
    pose proof (b_hop grow nils addrs hash compile n [] j b b rq 0 k b nj ns fl _ (lookup_insert cs n (Asked [] j b)) Hc Hu Ej Rj (not_eq_sym Hne) Hm) as S1.
    rewrite insert_insert in S1. pose proof (bruns_snoc _ _ _ _ _ _ _ _ _ _ R1 S1) as R2.
    pose proof (b_serve grow nils addrs hash compile n [j] k b b rq 0 now nk ns fl _ (lookup_insert cs n (Asked [j] k b)) Hc Hu Ek (Rk 0%nat)) as S2.
    rewrite El in S2. rewrite Ex, insert_insert in S2. pose proof (bruns_snoc _ _ _ _ _ _ _ _ _ _ R2 S2) as R3.
    set (c4 := mk_cluster (<[k := mk_node (n_table nk) (add_egress (Z.of_nat (length es)) (n_store nk))]> ns) fl) in *.
    pose proof (b_back grow nils addrs hash compile n j [] x x (Some es) c4 _ (lookup_insert cs n (Replied [j] (Some x))) Cx (answer_again _ _ Hg Ex Tx)) as S3.
    rewrite Ex, insert_insert in S3. pose proof (bruns_snoc _ _ _ _ _ _ _ _ _ _ R3 S3) as R4.
    pose proof (b_give grow nils addrs hash compile n (Some x) c4 _ (lookup_insert cs n (Replied [] (Some x)))) as S4. cbn [mbind option_bind] in S4. rewrite Cx in S4.
    pose proof (bruns_snoc _ _ _ _ _ _ _ _ _ _ R4 S4) as R5. rewrite <- !List.app_assoc in R5. exact R5.
Qed.
End bytes.
