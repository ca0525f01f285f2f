(** The points of a series are in time order; iteration. *)
From Coq Require Import Ascii String.
From stdpp Require Import prelude gmap strings list sorting.
From Coq Require Import Sorted.
From Verif.Base Require Import GoInt Envelope Str Url UrlProofs.
From Verif.Store Require Import Spec.
From Verif.Promql Require Import Model Spec Proofs ProofsSelect.
Open Scope Z_scope.

Lemma sample_time_mono a b : a <= b -> sample_time a <= sample_time b.
Proof.
  intros H. unfold sample_time, trunc_second. apply Z.quot_le_mono; [lia|].
  pose proof (Z.div_mod a 1000000000 ltac:(lia)). pose proof (Z.div_mod b 1000000000 ltac:(lia)).
  pose proof (Z.div_le_mono a b 1000000000 ltac:(lia) H). lia.
Qed.

Lemma omap_sorted order ms es (P : sample_in -> Prop) `{!forall x, Decision (P x)} :
  time_sorted es -> times_sorted (filter P (omap (envelope_sample order ms) es)).*2.
Proof.
  induction es as [|e es IH]; [constructor|]. intros [Hall Hs]. specialize (IH Hs). cbn [omap list_omap].
  destruct (envelope_sample order ms e) as [[l p]|] eqn:E; [|done].
  rewrite filter_cons. destruct (decide (P (l, p))); [|done]. cbn. constructor; [done|].
  apply Forall_forall. intros q Hq. apply elem_of_list_fmap in Hq as ([l' q'] & -> & Hq).
  apply elem_of_list_filter in Hq as [_ Hq]. apply elem_of_list_omap in Hq as (e' & He' & Eq).
  rewrite Forall_forall in Hall. specialize (Hall e' He').
  unfold envelope_sample in E, Eq.
  destruct (has_labels (e_tags e) (sel_labels ms)); [|done].
  destruct (has_labels (e_tags e') (sel_labels ms)); [|done].
  destruct (value_of order (sel_metric ms) (e_msg e)); [|done]. destruct (value_of order (sel_metric ms) (e_msg e')); [|done].
  cbn in E, Eq. injection E as <- <-. injection Eq as <- <-. cbn. by apply sample_time_mono.
Qed.

Lemma gather_source reader order ms ids samples l p :
  (forall id es, reader id = Some es -> Forall (fun e => e_source e = id) es) ->
  gather_samples reader order ms ids = Some samples -> (l, p) ∈ samples ->
  exists id, id ∈ ids /\ l !! "source_id" = Some id.
Proof.
  intros Hsrc Hg Hin. destruct (gather_in _ _ _ _ _ _ _ Hg Hin) as (id & es & e & Hid & Hr & He & Hs).
  exists id. split; [done|]. unfold envelope_sample in Hs. destruct (has_labels _ _); [|done].
  destruct (value_of _ _ _); [|done]. cbn in Hs. injection Hs as <- _.
  destruct (sample_tags_ok e) as [-> _]. f_equal. specialize (Hsrc _ _ Hr). rewrite Forall_forall in Hsrc. auto.
Qed.

Lemma filter_none {A} (P : A -> Prop) `{Hd : !forall x, Decision (P x)} (l : list A) :
  (forall x, x ∈ l -> ¬ P x) -> filter P l = [].
Proof.
  induction l as [|x l IH]; intros H; [done|]. rewrite filter_cons, decide_False by (apply H; left).
  apply IH. intros y Hy. apply H. by right.
Qed.

Lemma gather_sorted reader order ms ids samples l :
  NoDup ids ->
  (forall id es, reader id = Some es -> Forall (fun e => e_source e = id) es /\ time_sorted es) ->
  gather_samples reader order ms ids = Some samples ->
  times_sorted (filter (fun s => s.1 = l) samples).*2.
Proof.
  intros Hnd Hr. revert samples. induction Hnd as [|id ids Hni Hnd IH]; intros samples Hg.
  - injection Hg as <-. constructor.
  - cbn in Hg. destruct (reader id) as [es|] eqn:Er; [|done]. cbn in Hg.
    destruct (gather_samples reader order ms ids) as [rest|] eqn:Eg; [|done]. cbn in Hg. injection Hg as <-.
    destruct (Hr _ _ Er) as [Hsrc Hts]. rewrite filter_app.
    destruct (decide (l !! "source_id" = Some id)) as [Hid|Hid].
    + rewrite (filter_none _ rest); [rewrite app_nil_r; by apply omap_sorted|].
      intros [l' p] Hin Heq. cbn in Heq. subst l'.
      destruct (gather_source reader order ms ids rest l p) as (id' & Hid' & Hl'); [intros; by apply Hr|done|done|].
      assert (id' = id) as -> by congruence. done.
    + rewrite (filter_none _ (omap _ es)); [by apply IH|].
      intros [l' p] Hin Heq. cbn in Heq. subst l'. apply Hid.
      apply elem_of_list_omap in Hin as (e & He & Hs). unfold envelope_sample in Hs. destruct (has_labels _ _); [|done].
      destruct (value_of _ _ _); [|done]. cbn in Hs. injection Hs as <- _.
      destruct (sample_tags_ok e) as [-> _]. f_equal. rewrite Forall_forall in Hsrc. auto.
Qed.

Lemma select_sorted reader order oids ms b id s names :
  iterates_ids oids ->
  (forall id es, reader id = Some es -> Forall (fun e => e_source e = id) es /\ time_sorted es) ->
  (forall id es e l, reader id = Some es -> e ∈ es -> labels_of e l -> clear_labels names l) ->
  select reader order oids ms = Some b -> b !! id = Some s -> times_sorted (s_points s).
Proof.
  intros Ho Hr Hcl Hsel Hs. apply select_inv in Hsel as (samples & Hg & ->).
  assert (Hall : forall s, s ∈ samples -> clear_labels names s.1).
  { intros [l p] Hin. destruct (gather_in _ _ _ _ _ _ _ Hg Hin) as (src & es & e & _ & He & Hin' & Hse).
    eapply Hcl; [done|done|]. unfold envelope_sample in Hse. destruct (has_labels _ _); [|done].
    destruct (value_of _ _ _); [|done]. cbn in Hse. injection Hse as <- _. apply sample_tags_ok. }
  destruct (build_series _ _ _ Hs) as (Hps & _ & p & Hin & Hid). rewrite Hps.
  replace (of_id id samples) with (filter (fun s0 : sample_in => s0.1 = s_tags s) samples).
  - eapply gather_sorted; [|done|done]. rewrite (Ho _). apply NoDup_elements.
  - unfold of_id. apply filter_ext_in. intros s0 Hs0. split; [intros ->; done|].
    intros Hid0. eapply series_id_inj; [by apply Hall|exact (Hall _ Hin)|]. congruence.
Qed.

Lemma select_sorted_one reader order oids ms b id s :
  iterates_ids oids ->
  (forall id es, reader id = Some es -> time_sorted es) ->
  (forall x y, asks ms x -> asks ms y -> x = y) ->
  select reader order oids ms = Some b -> b !! id = Some s -> times_sorted (s_points s).
Proof.
  intros Ho Hr Hone Hsel Hs. apply select_inv in Hsel as (samples & Hg & ->).
  destruct (build_series _ _ _ Hs) as (Hps & _ & p & Hin & Hid). rewrite Hps. unfold of_id.
  assert (Hnd : NoDup (oids (id_set (selector_ids ms)))) by (rewrite (Ho _); apply NoDup_elements).
  assert (Hids : forall x y, x ∈ oids (id_set (selector_ids ms)) -> y ∈ oids (id_set (selector_ids ms)) -> x = y).
  { intros x y Hx Hy. apply Hone; eapply asked_in; eauto. }
  destruct (oids (id_set (selector_ids ms))) as [|x [|y r]].
  - injection Hg as <-. by apply elem_of_nil in Hin.
  - cbn in Hg. destruct (reader x) as [es|] eqn:Er; [|done]. cbn in Hg. injection Hg as <-. rewrite app_nil_r.
    apply omap_sorted. by eapply Hr.
  - assert (x = y) as -> by (apply Hids; [left|right; left]). apply NoDup_cons in Hnd as [Hn _]. destruct Hn. left.
Qed.

(** iterating shows every point once, in order, then stops *)
Lemma drain_from ps k n : (k <= length ps)%nat -> (length ps - k < n)%nat ->
  drain n (mk_iter (Z.of_nat k - 1) ps) = Some <$> drop k ps.
Proof.
  revert k. induction n as [|n IH]; intros k Hk Hn; [lia|]. cbn [drain next it_cur it_points].
  replace (Z.of_nat k - 1 + 1) with (Z.of_nat k) by lia.
  destruct (Z.ltb_spec (Z.of_nat k) (Z.of_nat (length ps))).
  - destruct (lookup_lt_is_Some_2 ps k) as [p Hp]; [lia|].
    rewrite (drop_S _ _ _ Hp), fmap_cons. f_equal.
    + unfold at_. cbn [it_cur it_points]. destruct (Z.ltb_spec (Z.of_nat k) 0); [lia|]. by rewrite Nat2Z.id.
    + replace (Z.of_nat k) with (Z.of_nat (S k) - 1) by lia. apply IH; lia.
  - rewrite drop_ge by lia. done.
Qed.
Lemma drain_all ps n : (length ps < n)%nat -> drain n (new_iter ps) = Some <$> ps.
Proof. intros H. apply (drain_from ps 0 n); lia. Qed.
