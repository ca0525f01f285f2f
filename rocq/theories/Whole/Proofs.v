(** What is stored, on its way or answered has been sent. *)
From stdpp Require Import prelude gmap strings list.
From Verif.Base Require Import GoInt Envelope.
From Verif.Store Require Import Model Spec SpecFrom ProofsBase ProofsHist ProofsAcct ProofsFrom.
From Verif.Routing Require Import Model Spec ProofsTable ProofsCluster.
From Verif.Whole Require Import Model Spec.
Open Scope Z_scope.

Definition to_node (k : nat) (fl : list (nat * envelope)) : list envelope :=
  p ← fl; if decide (p.1 = k) then [p.2] else [].

Lemma to_node_app k a b : to_node k (a ++ b) = to_node k a ++ to_node k b.
Proof. apply bind_app. Qed.
Lemma to_node_perm k a b : a ≡ₚ b -> to_node k a ≡ₚ to_node k b.
Proof. intros H. unfold to_node. by rewrite H. Qed.
Lemma to_node_pair k j es : to_node k (pair j <$> es) = if decide (j = k) then es else [].
Proof.
  induction es as [|e es IH]; [by destruct (decide _)|]. rewrite fmap_cons. unfold to_node in *. cbn. rewrite IH.
  by destruct (decide (j = k)).
Qed.
Lemma to_node_flights k calls : to_node k (flights calls) = delivered k calls.
Proof.
  induction calls as [|[i r] calls IH]; [done|]. change (flights ((i, r) :: calls)) with ((pair i <$> get_batch r) ++ flights calls).
  rewrite to_node_app, to_node_pair, IH. done.
Qed.
Lemma of_source_app src a b : of_source src (a ++ b) = of_source src a ++ of_source src b.
Proof. apply filter_app. Qed.
Lemma of_source_elem src l e : e ∈ of_source src l <-> e_source e = src ∧ e ∈ l.
Proof. unfold of_source. by rewrite elem_of_list_filter. Qed.
Lemma puts_writes src now es : puts_to src (writes now es) = of_source src es.
Proof.
  induction es as [|e es IH]; [done|]. unfold writes. rewrite fmap_cons, puts_to_cons. cbn [put_by].
  unfold of_source in *. rewrite filter_cons. fold (writes now es). rewrite IH. by destruct (decide (e_source e = src)).
Qed.
Lemma sent_to_app src a b : sent_to src (a ++ b) = sent_to src a ++ sent_to src b.
Proof. apply bind_app. Qed.
Definition sends (src : string) (ev : event) : list envelope :=
  match ev with VSend _ r => of_source src (get_batch r) | _ => [] end.
Lemma sent_to_snoc src tr ev : sent_to src (tr ++ [ev]) = sent_to src tr ++ sends src ev.
Proof. rewrite sent_to_app. f_equal. unfold sent_to. cbn. by rewrite app_nil_r. Qed.

(** what a call of Send hands to the clients *)
Lemma calls_delivered_all lk n i r calls k :
  send_calls lk n i r (Some calls) ->
  delivered k calls = (if sr_local_only r then if decide (i = k) then get_batch r else []
                       else e ← get_batch r; replicate (times k (lk (e_source e))) e).
Proof.
  intros (order & Hp & E). unfold send_with in E. destruct (sr_local_only r).
  - destruct (_ <? _)%nat; [|done]. injection E as ->. unfold delivered. cbn. by rewrite app_nil_r.
  - destruct (sr_envelopes r) as [b|] eqn:Hb; [|done]. destruct (forallb _ _); [|done]. injection E as ->.
    rewrite delivered_order, (bind_singleton k _ _ Hp). unfold envelopes_by_node. by rewrite envelopes_by_node_spec, lookup_empty.
Qed.
Lemma calls_delivered lk n i r calls k e :
  send_calls lk n i r (Some calls) -> e ∈ delivered k calls -> e ∈ get_batch r.
Proof.
  intros H. rewrite (calls_delivered_all _ _ _ _ _ k H). destruct (sr_local_only r).
  - destruct (decide _); [done|]. by intros ?%elem_of_nil.
  - intros Hin. apply elem_of_list_bind in Hin as (x & Hx & Hin). by apply elem_of_replicate in Hx as [-> _].
Qed.
Lemma calls_delivered_once lk n i r calls k src :
  send_calls lk n i r (Some calls) -> NoDup (lk src) -> of_source src (delivered k calls) ⊆+ of_source src (get_batch r).
Proof.
  intros H Hnd. rewrite (calls_delivered_all _ _ _ _ _ k H). destruct (sr_local_only r).
  - destruct (decide _); [done|]. apply submseteq_nil_l.
  - clear H. induction (get_batch r) as [|e l IH]; [done|]. cbn [mbind list_bind]. rewrite of_source_app.
    change (e :: l) with ([e] ++ l). rewrite of_source_app. apply submseteq_app; [|done].
    destruct (decide (e_source e = src)) as [He|He].
    + rewrite He, times_nodup by done. destruct (decide _); [done|]. apply submseteq_nil_l.
    + assert (E : ∀ m, of_source src (replicate m e) = []).
      { intros m. induction m as [|m IHm]; [done|]. cbn [replicate]. unfold of_source in *. by rewrite filter_cons, decide_False. }
      rewrite E. apply submseteq_nil_l.
Qed.

(** ** Only what was sent *)
(** the stores are in order and hold part of B *)
Definition nodes_ok (B : nat -> string -> list envelope) (ns : list node) : Prop :=
  ∀ k nd, ns !! k = Some nd -> inv (n_store nd) ∧ within (B k) (n_store nd).

Lemma within_mono B B' s : (∀ src, B src ⊆+ B' src) -> within B s -> within B' s.
Proof. intros H HB src. etransitivity; [apply HB|apply H]. Qed.
Lemma nodes_ok_mono B B' ns : (∀ k src, B k src ⊆+ B' k src) -> nodes_ok B ns -> nodes_ok B' ns.
Proof. intros H Hok k nd Hk. destruct (Hok k nd Hk) as [Hi Hw]. split; [done|]. exact (within_mono (B k) (B' k) _ (H k) Hw). Qed.
Lemma nodes_ok_insert B ns j nd' :
  nodes_ok B ns -> inv (n_store nd') -> within (B j) (n_store nd') -> nodes_ok B (<[j := nd']> ns).
Proof.
  intros Hok Hi Hw k nd Hk. destruct (decide (j = k)) as [->|Hne].
  - destruct (decide (k < length ns)%nat).
    + rewrite list_lookup_insert in Hk by done. by injection Hk as <-.
    + rewrite list_insert_ge in Hk by lia. by apply Hok.
  - rewrite list_lookup_insert_ne in Hk by done. by apply Hok.
Qed.

(** what arrives at node k in this event *)
Definition arrives (k : nat) (src : string) (ev : event) : list envelope :=
  match ev with VArrive j es => if decide (j = k) then of_source src es else [] | _ => [] end.

Lemma step_nodes hash compile B c ev c' :
  step hash compile c ev c' -> nodes_ok B (c_nodes c) -> nodes_ok (fun k src => B k src ++ arrives k src ev) (c_nodes c').
Proof.
  intros Hs Hok.
  assert (Hm : nodes_ok (fun k src => B k src ++ arrives k src ev) (c_nodes c)).
  { eapply nodes_ok_mono; [|exact Hok]. intros k src. by apply submseteq_inserts_r. }
  destruct Hs; cbn [c_nodes] in *; try done; apply nodes_ok_insert; cbn [n_store]; try done;
    match goal with H : _ !! ?k = Some _ |- _ => destruct (Hok _ _ H) as [Hi Hw] end; try done.
  - rewrite put_all_run in *. match goal with H : run _ _ = Some _ |- _ => by destruct (run_within _ _ _ _ Hi Hw H) end.
  - rewrite put_all_run in *. match goal with H : run _ _ = Some _ |- _ => destruct (run_within _ _ _ _ Hi Hw H) as [_ H'] end.
    eapply within_mono; [|exact H']. intros src. cbn [arrives]. rewrite decide_True by done. by rewrite puts_writes.
  - eapply within_mono; [|exact Hw]. intros src. by apply submseteq_inserts_r.
  - by destruct (step_inv _ (OTruncate n pri now) s Hi).
  - match goal with H : truncate _ _ _ _ = Some _ |- _ => exact (step_within _ _ (OTruncate n pri now) _ Hi Hw H) end.
  - apply new_within.
  - unfold local_read. destruct (to_query compile now rq) as [q|] eqn:Eq; [|done].
    destruct (get_env (rr_source rq) q (n_store nd)) as [es|] eqn:Eg; [|done].
    assert (E : Store.Model.step (n_store nd) (OGet (rr_source rq) q) = Some (add_egress (Z.of_nat (length es)) (n_store nd))).
    { cbn. by rewrite Eg. }
    by destruct (step_inv _ _ _ Hi E).
  - assert (Hw' : within (fun src => B k src ++ arrives k src (VRead k rq now (local_read compile now rq (n_store nd)))) (n_store nd)).
    { eapply within_mono; [|exact Hw]. intros src. by apply submseteq_inserts_r. }
    destruct (local_read compile now rq (n_store nd)); exact Hw'.
Qed.

Lemma start_nodes B ms : Forall (fun m => 1 <= m) ms -> nodes_ok B (c_nodes (start ms)).
Proof.
  intros Hms k nd Hk. cbn in Hk. apply list_lookup_fmap_inv in Hk as (m & -> & Hm). cbn [n_store].
  rewrite Forall_forall in Hms. split; [apply inv_new, Hms; by eapply elem_of_list_lookup_2|apply new_within].
Qed.

(** everything stored or on its way was sent *)
Definition known (tr : list event) (c : cluster) : Prop :=
  (∃ B, nodes_ok B (c_nodes c) ∧ ∀ k src e, e ∈ B k src -> e ∈ sent_to src tr) ∧
  ∀ k e, (k, e) ∈ c_flight c -> e ∈ sent_to (e_source e) tr.

Lemma flights_elem calls k e : (k, e) ∈ flights calls <-> e ∈ delivered k calls.
Proof.
  unfold flights, delivered. rewrite !elem_of_list_bind. split.
  - intros ([i r] & Hin & Hc). apply elem_of_list_fmap in Hin as (x & [= -> ->] & Hx). exists (i, r). cbn. by rewrite decide_True.
  - intros ([i r] & Hin & Hc). cbn in Hin. destruct (decide (i = k)) as [->|]; [|by apply elem_of_nil in Hin].
    exists (k, r). split; [|done]. cbn. apply elem_of_list_fmap. eauto.
Qed.

Lemma known_runs hash compile ms tr c :
  Forall (fun m => 1 <= m) ms -> runs hash compile (start ms) tr c -> known tr c.
Proof.
  intros Hms Hr. induction Hr as [|tr c1 ev c2 Hr [(B & Hok & HB) Hfl] Hs].
  { split; [|cbn; by intros k e ?%elem_of_nil]. exists (fun _ _ => []). split; [by apply start_nodes|]. by intros k src e ?%elem_of_nil. }
  assert (Hmono : ∀ src e, e ∈ sent_to src tr -> e ∈ sent_to src (tr ++ [ev])).
  { intros src e H. rewrite sent_to_snoc. apply elem_of_app. by left. }
  split.
  - exists (fun k src => B k src ++ arrives k src ev). split; [by eapply step_nodes|].
    intros k src e [H|H]%elem_of_app; [by eapply Hmono, HB|]. apply Hmono.
    destruct ev as [|j es| | | | |]; cbn in H; try by apply elem_of_nil in H.
    destruct (decide (j = k)) as [->|]; [|by apply elem_of_nil in H]. apply of_source_elem in H as [<- H].
    inversion Hs as [|j' es' now nd s ns fl fl' Hj Hp Hput| | | | |]; subst. eapply Hfl. cbn. rewrite Hp. apply elem_of_app. left.
    apply elem_of_list_fmap. eauto.
  - intros k e H. destruct Hs as [i r calls nd ns fl Hi Hc|j es now nd s ns fl fl' Hj Hp Hput|j e' ns fl fl' Hp| | | |]; cbn in *;
      try by eapply Hmono, Hfl.
    + apply elem_of_app in H as [H|H]; [|by eapply Hmono, Hfl]. apply flights_elem in H.
      rewrite sent_to_snoc. apply elem_of_app. right. cbn. apply of_source_elem. split; [done|]. by eapply calls_delivered.
    + eapply Hmono, Hfl. rewrite Hp. apply elem_of_app. by right.
    + eapply Hmono, Hfl. rewrite Hp. by right.
Qed.

(** ** Nothing twice *)
Definition counted (tr : list event) (c : cluster) : Prop :=
  ∃ B, nodes_ok B (c_nodes c) ∧ ∀ k src, B k src ++ of_source src (to_node k (c_flight c)) ⊆+ sent_to src tr.

Lemma of_source_perm src a b : a ≡ₚ b -> of_source src a ≡ₚ of_source src b.
Proof. intros H. unfold of_source. by rewrite H. Qed.

(** the tables in use were installed *)
Lemma tables hash compile ms tr c k nd :
  runs hash compile (start ms) tr c -> c_nodes c !! k = Some nd -> n_table nd = [] ∨ VTable k (n_table nd) ∈ tr.
Proof.
  intros Hr. revert k nd. induction Hr as [|tr c1 ev c2 Hr IH Hs]; intros k nd Hk.
  { cbn in Hk. apply list_lookup_fmap_inv in Hk as (m & -> & _). by left. }
  assert (Hold : ∀ i nd', c_nodes c1 !! i = Some nd' -> n_table nd' = [] ∨ VTable i (n_table nd') ∈ tr ++ [ev]).
  { intros i nd' H. destruct (IH _ _ H) as [|]; [by left|right]. apply elem_of_app. by left. }
  assert (Hins : ∀ i nd', (n_table nd' = [] ∨ VTable i (n_table nd') ∈ tr ++ [ev]) ->
     <[i := nd']> (c_nodes c1) !! k = Some nd -> n_table nd = [] ∨ VTable k (n_table nd) ∈ tr ++ [ev]).
  { intros i nd' H E. destruct (decide (i = k)) as [->|Hne]; [|rewrite list_lookup_insert_ne in E by done; by apply Hold].
    destruct (decide (k < length (c_nodes c1))%nat); [|rewrite list_insert_ge in E by lia; by apply Hold].
    rewrite list_lookup_insert in E by done. by injection E as <-. }
  destruct Hs; cbn [c_nodes] in *; try (by apply Hold); (eapply Hins; [|exact Hk]); cbn [n_table].
  - by apply (Hold j nd0).
  - right. apply elem_of_app. right. by left.
  - by apply (Hold i nd0).
  - by left.
  - by apply (Hold k0 nd0).
Qed.

Lemma counted_runs hash compile ms tr c :
  Forall (fun m => 1 <= m) ms -> no_double_share tr -> runs hash compile (start ms) tr c -> counted tr c.
Proof.
  intros Hms Hnd Hr. induction Hr as [|tr c1 ev c2 Hr IH Hs].
  { exists (fun _ _ => []). split; [by apply start_nodes|]. intros k src. cbn. done. }
  destruct IH as (B & Hok & HB). { intros i t h H. eapply Hnd. apply elem_of_app. by left. }
  exists (fun k src => B k src ++ arrives k src ev). split; [by eapply step_nodes|].
  intros k src. rewrite sent_to_snoc. specialize (HB k src).
  destruct Hs as [i r calls nd ns fl Hi Hc|j es now nd s ns fl fl' Hj Hp Hput|j e' ns fl fl' Hp| | | |]; cbn [c_flight arrives sends] in *;
    rewrite ?app_nil_r; try done.
  - rewrite to_node_app, of_source_app, to_node_flights.
    rewrite (Permutation_app_comm (of_source src (delivered k calls))), app_assoc. apply submseteq_app; [done|].
    eapply calls_delivered_once; [exact Hc|]. cbn.
    destruct (tables _ _ _ _ _ i nd Hr Hi) as [->|H]; [constructor|]. eapply Hnd. apply elem_of_app. by left.
  - rewrite (of_source_perm src _ _ (to_node_perm k _ _ Hp)), to_node_app, of_source_app, to_node_pair in HB.
    rewrite app_assoc in HB. destruct (decide (j = k)); done.
  - rewrite (of_source_perm src _ _ (to_node_perm k _ _ Hp)) in HB. change ((j, e') :: fl') with ([(j, e')] ++ fl') in HB.
    rewrite to_node_app, of_source_app in HB. etransitivity; [|exact HB]. apply submseteq_app; [done|].
    by apply submseteq_inserts_l.
Qed.

(** ** Answers *)
Lemma runs_split hash compile c tr ev post c' :
  runs hash compile c (tr ++ ev :: post) c' -> ∃ c1 c2, runs hash compile c tr c1 ∧ step hash compile c1 ev c2.
Proof.
  revert c'. induction post as [|p post IH] using rev_ind; intros c' H.
  - inversion H as [E|tr' c1 ev' c2 H1 H2 E]; [by destruct tr|]. apply app_inj_tail in E as [-> ->]. eauto.
  - change (ev :: post ++ [p]) with ((ev :: post) ++ [p]) in H. rewrite app_assoc in H.
    inversion H as [E|tr' c1 ev' c2 H1 H2 E]; [by destruct tr|]. apply app_inj_tail in E as [-> ->]. eauto.
Qed.

Lemma no_double_share_app a b : no_double_share (a ++ b) -> no_double_share a.
Proof. intros H i t h Hin. eapply H. apply elem_of_app. by left. Qed.

Lemma answer_within hash compile c k rq now es c' B :
  step hash compile c (VRead k rq now (ReadOk es)) c' -> nodes_ok B (c_nodes c) ->
  ∃ q, to_query compile now rq = Some q ∧ drawn q (B k (rr_source rq)) es.
Proof.
  intros Hs Hok. inversion Hs as [| | | | | |k' rq' now' nd ns fl Hk]; subst. destruct (Hok _ _ Hk) as [_ Hw]. 
  match goal with H : local_read _ _ _ _ = _ |- _ => rename H into E end. unfold local_read in E.
  destruct (to_query compile now rq) as [q|]; [|done]. destruct (get_env (rr_source rq) q (n_store nd)) as [es'|] eqn:Eg; [|done].
  injection E as <-. exists q. split; [done|]. by eapply get_within.
Qed.

Lemma answered_sent hash compile ms tr k rq now es post c :
  Forall (fun m => 1 <= m) ms -> runs hash compile (start ms) (tr ++ VRead k rq now (ReadOk es) :: post) c ->
  ∃ q, to_query compile now rq = Some q ∧
    ∀ e', e' ∈ es -> ∃ e, e ∈ sent_to (rr_source rq) tr ∧ selected q e e'.
Proof.
  intros Hms Hr. destruct (runs_split _ _ _ _ _ _ _ Hr) as (c1 & c2 & H1 & H2).
  destruct (known_runs _ _ _ _ _ Hms H1) as [(B & Hok & HB) _]. destruct (answer_within _ _ _ _ _ _ _ _ _ H2 Hok) as (q & Hq & Hd).
  exists q. split; [done|]. intros e' He'. destruct (drawn_elem _ _ _ _ Hd He') as (e & He & Hsel). exists e. split; [by eapply HB|done].
Qed.

Lemma answered_once hash compile ms tr k rq now es post c :
  Forall (fun m => 1 <= m) ms -> no_double_share tr ->
  runs hash compile (start ms) (tr ++ VRead k rq now (ReadOk es) :: post) c ->
  ∃ q, to_query compile now rq = Some q ∧ drawn q (sent_to (rr_source rq) tr) es.
Proof.
  intros Hms Hnd Hr. destruct (runs_split _ _ _ _ _ _ _ Hr) as (c1 & c2 & H1 & H2).
  destruct (counted_runs _ _ _ _ _ Hms Hnd H1) as (B & Hok & HB). destruct (answer_within _ _ _ _ _ _ _ _ _ H2 Hok) as (q & Hq & Hd).
  exists q. split; [done|]. eapply drawn_mono; [|exact Hd]. etransitivity; [|apply HB]. by apply submseteq_inserts_r.
Qed.
