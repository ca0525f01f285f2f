(** The answer of a selector does not depend on the order in which Go iterates over its maps. *)
From Coq Require Import Ascii String.
From stdpp Require Import prelude gmap strings list.
From Verif.Base Require Import GoInt Envelope Str.
From Verif.Promql Require Import Model Spec Proofs ProofsSelect ProofsOrder SpecDeterminism.
Open Scope Z_scope.

Lemma value_of_same o1 o2 metric m :
  iterates o1 -> iterates o2 -> one_value m -> value_of o1 metric m = value_of o2 metric m.
Proof.
  intros H1 H2 Hone. destruct (value_of o1 metric m) as [v|] eqn:E.
  - pose proof (value_of_offers _ _ _ _ H1 E) as Hv. destruct (offers_value_of o2 _ _ _ H2 Hv) as [v' E'].
    rewrite E'. f_equal. eapply Hone; [exact Hv|]. by eapply value_of_offers.
  - destruct (value_of o2 metric m) as [v'|] eqn:E'; [|done].
    destruct (offers_value_of o1 metric m v' H1) as [v Ev]; [by eapply value_of_offers|]. congruence.
Qed.

Lemma omap_same o1 o2 ms es :
  iterates o1 -> iterates o2 -> Forall (fun e => one_value (e_msg e)) es ->
  omap (envelope_sample o1 ms) es = omap (envelope_sample o2 ms) es.
Proof.
  intros H1 H2. induction 1 as [|e es He _ IH]; [done|]. cbn [omap list_omap].
  change (omap (envelope_sample o1 ms) es = omap (envelope_sample o2 ms) es) in IH. 
  assert (envelope_sample o1 ms e = envelope_sample o2 ms e) as ->
    by (unfold envelope_sample; by rewrite (value_of_same o1 o2) by done).
  destruct (envelope_sample o2 ms e); [by f_equal|done].
Qed.

Lemma gather_same_orders reader o1 o2 ms ids :
  iterates o1 -> iterates o2 ->
  (forall id es, reader id = Some es -> Forall (fun e => one_value (e_msg e)) es) ->
  gather_samples reader o1 ms ids = gather_samples reader o2 ms ids.
Proof.
  intros H1 H2 Hr. induction ids as [|id ids IH]; [done|]. cbn. destruct (reader id) as [es|] eqn:E; [|done].
  cbn. rewrite IH. rewrite (omap_same o1 o2) by eauto. done.
Qed.

(** the points of one label set come from one source *)
Definition block (reader : string -> option (list envelope)) order ms (l : gmap string string) : list sample_in :=
  match l !! "source_id" with
  | Some src => match reader src with Some es => filter (fun s => s.1 = l) (omap (envelope_sample order ms) es) | None => [] end
  | None => [] end.

Lemma gather_block reader order ms ids samples l :
  NoDup ids ->
  (forall id es, reader id = Some es -> Forall (fun e => e_source e = id) es) ->
  gather_samples reader order ms ids = Some samples ->
  filter (fun s => s.1 = l) samples =
    match l !! "source_id" with Some src => if bool_decide (src ∈ ids) then block reader order ms l else [] | None => [] end.
Proof.
  intros Hnd Hr. revert samples. induction Hnd as [|id ids Hni Hnd IH]; intros samples Hg.
  - injection Hg as <-. cbn. destruct (l !! "source_id"); [|done]. by rewrite bool_decide_false by apply not_elem_of_nil.
  - cbn in Hg. destruct (reader id) as [es|] eqn:Er; [|done]. cbn in Hg.
    destruct (gather_samples reader order ms ids) as [rest|] eqn:Eg; [|done]. cbn in Hg. injection Hg as <-.
    rewrite filter_app, (IH rest eq_refl). pose proof (Hr _ _ Er) as Hsrc.
    assert (Hother : l !! "source_id" <> Some id -> filter (fun s : sample_in => s.1 = l) (omap (envelope_sample order ms) es) = []).
    { intros Hid. apply filter_none. intros [l' p] Hin Heq. cbn in Heq. subst l'. apply Hid.
      apply elem_of_list_omap in Hin as (e & He & Hs). unfold envelope_sample in Hs. destruct (has_labels _ _); [|done].
      destruct (value_of _ _ _); [|done]. cbn in Hs. injection Hs as <- _.
      destruct (sample_tags_ok e) as [-> _]. f_equal. rewrite Forall_forall in Hsrc. auto. }
    unfold block. destruct (l !! "source_id") as [src|] eqn:El; [|by rewrite Hother by done].
    destruct (decide (src = id)) as [->|Hne].
    + rewrite bool_decide_false by done. rewrite bool_decide_true by left. by rewrite Er, app_nil_r.
    + rewrite Hother by congruence. cbn. 
      destruct (bool_decide_reflect (src ∈ ids)) as [Hi|Hi].
      * by rewrite bool_decide_true by (by right).
      * rewrite bool_decide_false; [done|]. intros [->|?]%elem_of_cons; done.
Qed.

Lemma gather_total reader order ms ids :
  is_Some (gather_samples reader order ms ids) <-> forall id, id ∈ ids -> is_Some (reader id).
Proof.
  induction ids as [|id ids IH].
  - split; [intros _ id H; by apply elem_of_nil in H|intros _; by eexists].
  - cbn. destruct (reader id) as [es|] eqn:E; cbn.
    + destruct (gather_samples reader order ms ids) as [r|]; cbn.
      * split; [|intros _; by eexists]. intros _ x [->|Hx]%elem_of_cons; [by rewrite E|]. apply IH; [by eexists|done].
      * split; [by intros [? ?]|]. intros H. assert (G : is_Some (@None (list sample_in))); [|by destruct G].
        apply IH. intros x Hx. apply H. by right.
    + split; [by intros [? ?]|]. intros H. specialize (H id ltac:(left)). rewrite E in H. by destruct H.
Qed.

Lemma build_same names s1 s2 :
  Forall (fun s => clear_labels names s.1) s1 -> Forall (fun s => clear_labels names s.1) s2 ->
  (forall l, filter (fun s : sample_in => s.1 = l) s1 = filter (fun s : sample_in => s.1 = l) s2) ->
  build s1 = build s2.
Proof.
  intros H1 H2 Hf.
  assert (Hdir : forall s1 s2, Forall (fun s => clear_labels names s.1) s1 -> Forall (fun s => clear_labels names s.1) s2 ->
    (forall l, filter (fun s : sample_in => s.1 = l) s1 = filter (fun s : sample_in => s.1 = l) s2) ->
    forall k s, build s1 !! k = Some s -> build s2 !! k = Some s).
  { clear. intros s1 s2 H1 H2 Hf k s Hk. destruct (build_series _ _ _ Hk) as (_ & _ & p & Hin & Hid). subst k.
    rewrite Forall_forall in H1. pose proof (H1 _ Hin) as Hcl. cbn in Hcl. rewrite <- Forall_forall in H1.
    rewrite (build_exact names) in Hk by done. rewrite (build_exact names) by done.
    unfold points_of in *. by rewrite <- Hf. }
  apply map_eq. intros k. destruct (build s1 !! k) as [s|] eqn:E.
  - symmetry. by eapply (Hdir s1 s2).
  - destruct (build s2 !! k) as [s|] eqn:E'; [|done]. rewrite <- E. by eapply (Hdir s2 s1).
Qed.

Lemma gathered_clear names reader order ms ids samples :
  (forall id es e l, reader id = Some es -> e ∈ es -> labels_of e l -> clear_labels names l) ->
  gather_samples reader order ms ids = Some samples -> Forall (fun s => clear_labels names s.1) samples.
Proof.
  intros Hcl Hg. apply Forall_forall. intros [l p] Hin.
  destruct (gather_in _ _ _ _ _ _ _ Hg Hin) as (src & es & e & _ & He & Hin' & Hse).
  eapply Hcl; [done|done|]. unfold envelope_sample in Hse. destruct (has_labels _ _); [|done].
  destruct (value_of _ _ _); [|done]. cbn in Hse. injection Hse as <- _. apply sample_tags_ok.
Qed.

Lemma select_same names reader o1 o2 i1 i2 ms :
  iterates o1 -> iterates o2 -> iterates_ids i1 -> iterates_ids i2 ->
  (forall id es, reader id = Some es -> Forall (fun e => e_source e = id ∧ one_value (e_msg e)) es) ->
  (forall id es e l, reader id = Some es -> e ∈ es -> labels_of e l -> clear_labels names l) ->
  select reader o1 i1 ms = select reader o2 i2 ms.
Proof.
  intros H1 H2 Hi1 Hi2 Hr Hcl. unfold select. set (ids := id_set (selector_ids ms)).
  assert (Hp : i1 ids ≡ₚ i2 ids) by (rewrite (Hi1 ids), (Hi2 ids); done).
  rewrite (Permutation_length Hp). destruct (_ =? _)%nat; [done|].
  rewrite (gather_same_orders reader o1 o2); [|done|done|].
  2:{ intros id es E. eapply Forall_impl; [by eapply Hr|]. by intros e [_ ?]. }
  assert (Hsrc : forall id es, reader id = Some es -> Forall (fun e => e_source e = id) es).
  { intros id es E. eapply Forall_impl; [by eapply Hr|]. by intros e [? _]. }
  destruct (gather_samples reader o2 ms (i1 ids)) as [s1|] eqn:E1.
  - assert (G : is_Some (gather_samples reader o2 ms (i2 ids))).
    { apply gather_total. intros id Hid. apply (gather_total reader o2 ms (i1 ids)); [by rewrite E1|]. by rewrite Hp. }
    destruct G as [s2 E2]. rewrite E2. cbn. f_equal. apply (build_same names); [by eapply gathered_clear..|].
    intros l. rewrite (gather_block reader o2 ms (i1 ids) s1 l), (gather_block reader o2 ms (i2 ids) s2 l); try done.
    + destruct (l !! "source_id") as [src|]; [|done].
      destruct (bool_decide_reflect (src ∈ i1 ids)) as [Hi|Hi].
      * by rewrite bool_decide_true by (by rewrite <- Hp).
      * by rewrite bool_decide_false by (by rewrite <- Hp).
    + rewrite (Hi2 ids). apply NoDup_elements.
    + rewrite (Hi1 ids). apply NoDup_elements.
  - destruct (gather_samples reader o2 ms (i2 ids)) as [s2|] eqn:E2; [|done]. exfalso.
    assert (G : is_Some (gather_samples reader o2 ms (i1 ids))); [|rewrite E1 in G; by destruct G].
    apply gather_total. intros id Hid. apply (gather_total reader o2 ms (i2 ids)); [by rewrite E2|]. by rewrite <- Hp.
Qed.
