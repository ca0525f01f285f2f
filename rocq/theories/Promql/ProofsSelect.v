(** Lemmas about Select and the source ids of an expression. *)
From Coq Require Import Ascii String.
From stdpp Require Import prelude gmap strings list.
From Verif.Base Require Import GoInt Envelope Str Url UrlProofs.
From Verif.Promql Require Import Model Spec Proofs.
Open Scope Z_scope.
#[local] Arguments String.append : simpl nomatch.

(** ** Source ids *)
Lemma elem_of_concat {A} (x : A) (ls : list (list A)) : x ∈ concat ls <-> exists l, x ∈ l /\ l ∈ ls.
Proof.
  induction ls as [|l ls IH]; cbn.
  - split; [intros H; by apply elem_of_nil in H|intros (? & _ & H); by apply elem_of_nil in H].
  - rewrite elem_of_app, IH. split.
    + intros [H|(l' & H1 & H2)]; [exists l; split; [done|left]|exists l'; split; [done|by right]].
    + intros (l' & H1 & H2). apply elem_of_cons in H2 as [->|H2]; [by left|right; eauto].
Qed.
Lemma split_clean c s w : w ∈ split c s -> has_char c w = false.
Proof. apply split_elem_clean. Qed.

Lemma alternative_split pattern id : alternative pattern id <-> id ∈ split "|" pattern.
Proof.
  split.
  - intros [? ? ids -> Hc Hin]. unfold split. rewrite split_join; [done|by apply ceqb_refl| |done].
    intros ->. by apply elem_of_nil in Hin.
  - intros H. apply (alt_split _ _ (split "|" pattern)); [by rewrite join_split| |done].
    apply Forall_forall. intros x Hx. by eapply split_clean.
Qed.

Lemma selector_ids_spec ms id : id ∈ selector_ids ms <-> asks ms id.
Proof.
  unfold selector_ids, asks. rewrite elem_of_list_bind. split.
  - intros (m & Hid & Hm). destruct (bool_decide_reflect (lm_name m = "source_id")) as [Hn|]; [|by apply elem_of_nil in Hid].
    exists m. split; [done|]. split; [done|]. unfold matcher_ids in Hid.
    destruct (lm_type m); try by apply elem_of_nil in Hid.
    + apply elem_of_list_singleton in Hid as ->. by left.
    + right. split; [done|]. by apply alternative_split.
  - intros (m & Hm & Hn & H). exists m. split; [|done]. rewrite bool_decide_true by done.
    unfold matcher_ids. destruct H as [[-> <-]|[-> H]]; [left|]. by apply alternative_split.
Qed.

Lemma expr_ind' (P : expr -> Prop) :
  (forall b i ms, P (ESelector b i ms)) -> (forall i cs, Forall P cs -> P (ENode i cs)) -> forall e, P e.
Proof.
  intros H1 H2. fix IH 1. intros [b i ms|i cs]; [apply H1|]. apply H2. induction cs; constructor; auto.
Qed.

Lemma expr_ids_spec e id : id ∈ expr_ids e <-> exists ms, selector_of e ms /\ asks ms id.
Proof.
  induction e as [b i ms|i cs IH] using expr_ind'; cbn [expr_ids]; [|rewrite Forall_forall in IH].
  - rewrite selector_ids_spec. split.
    + intros H. exists ms. split; [constructor|done].
    + intros (ms' & H & Ha). by inversion H; subst.
  - split.
    + intros H. apply elem_of_concat in H as (l & Hid & Hl). apply elem_of_list_fmap in Hl as (c & -> & Hc).
      apply IH in Hid as (ms & Hs & Ha); [|done]. exists ms. split; [by econstructor|done].
    + intros (ms & Hs & Ha). inversion Hs as [|? ? e ? He Hse]; subst.
      apply elem_of_concat. exists (expr_ids e). split; [apply IH; eauto|by apply elem_of_list_fmap_1].
Qed.

(** rewriting a selector's matchers *)
Lemma join_alternatives ids id : Forall (fun x => has_char "|" x = false) ids -> ids <> [] ->
  alternative (join "|" ids) id <-> id ∈ ids.
Proof. intros H Hne. rewrite alternative_split. unfold split. rewrite split_join by (done || apply ceqb_refl). done. Qed.

Lemma type_for_join ids id : Forall (fun x => has_char "|" x = false) ids -> ids <> [] ->
  ((type_for ids = MatchEqual /\ join "|" ids = id) \/ (type_for ids = MatchRegexp /\ alternative (join "|" ids) id)) <-> id ∈ ids.
Proof.
  intros Hc Hne. unfold type_for. destruct ids as [|a [|b ids]]; [done| |].
  - cbn. rewrite elem_of_list_singleton. split; [intros [[_ <-]|[? _]]; done|intros ->; by left].
  - change (1 <? length (a :: b :: ids))%nat with true. rewrite join_alternatives by done.
    split; [by intros [[? _]|[_ ?]]|by right].
Qed.

(** what a rewritten matcher asks for *)
Definition matcher_asks (m : matcher) (id : string) : Prop :=
  (lm_type m = MatchEqual /\ lm_value m = id) \/ (lm_type m = MatchRegexp /\ alternative (lm_value m) id).

Lemma replace_matcher_asks sets m id :
  lm_name m = "source_id" ->
  (forall k ids, sets !! k = Some ids -> Forall (fun x => has_char "|" x = false) ids /\ ids <> []) ->
  (forall x, matcher_asks m x -> is_Some (sets !! x)) ->
  matcher_asks (replace_matcher sets m) id <-> exists x ids, matcher_asks m x /\ sets !! x = Some ids /\ id ∈ ids.
Proof.
  intros Hn Hsets Hall. unfold replace_matcher. rewrite bool_decide_true by done.
  unfold matcher_asks in Hall. unfold matcher_asks.
  destruct (lm_type m) eqn:Et.
  - destruct (Hall (lm_value m)) as [ids Hids]; [by left|].
    unfold replace_equal. rewrite Hids. cbn [lm_type lm_value].
    destruct (Hsets _ _ Hids) as [Hc Hne]. rewrite type_for_join by done. split.
    + intros H. exists (lm_value m), ids. split; [by left|done].
    + intros (x & ids' & [[_ <-]|[? _]] & Hx & Hin); [|done]. congruence.
  - rewrite Et. split; [intros [[? _]|[? _]]; done|]. intros (? & ? & [[? _]|[? _]] & _); done.
  - unfold replace_regexp. cbn [lm_type lm_value].
    set (ids := x ← split "|" (lm_value m); default [] (sets !! x)).
    assert (Hids : forall y, y ∈ ids <-> exists x l, x ∈ split "|" (lm_value m) /\ sets !! x = Some l /\ y ∈ l).
    { intros y. unfold ids. rewrite elem_of_list_bind. split.
      - intros (x & Hy & Hx). destruct (Hall x) as [l Hl]; [right; split; [done|by apply alternative_split]|].
        rewrite Hl in Hy. by exists x, l.
      - intros (x & l & Hx & Hl & Hy). exists x. rewrite Hl. done. }
    assert (Hc : Forall (fun x => has_char "|" x = false) ids).
    { apply Forall_forall. intros y Hy. apply Hids in Hy as (x & l & _ & Hl & Hy).
      destruct (Hsets _ _ Hl) as [Hf _]. rewrite Forall_forall in Hf. auto. }
    assert (Hne : ids <> []).
    { destruct (split "|" (lm_value m)) as [|x r] eqn:Es; [by destruct (split_on_nonempty (ceqb "|") (lm_value m))|].
      destruct (Hall x) as [l Hl]. { right. split; [done|]. apply alternative_split. rewrite Es. left. }
      destruct (Hsets _ _ Hl) as [_ Hln]. destruct l as [|y l]; [done|].
      intros E. assert (Hy : y ∈ ids). { apply Hids. exists x, (y :: l). split; [left|]. split; [done|left]. }
      rewrite E in Hy. by apply elem_of_nil in Hy. }
    rewrite type_for_join by done. rewrite Hids. split.
    + intros (x & l & Hx & Hl & Hy). exists x, l. split; [|done]. right. split; [done|]. by apply alternative_split.
    + intros (x & l & [[? _]|[_ Hx]] & Hl & Hy); [done|]. exists x, l. split; [|done]. by apply alternative_split.
  - rewrite Et. split; [intros [[? _]|[? _]]; done|]. intros (? & ? & [[? _]|[? _]] & _); done.
Qed.

Lemma replace_matcher_name sets m : lm_name (replace_matcher sets m) = lm_name m.
Proof.
  unfold replace_matcher. destruct (bool_decide _); [|done]. destruct (lm_type m); try done.
  unfold replace_equal. by destruct (sets !! lm_value m).
Qed.

(** the ids asked for by the rewritten selectors are the expansions of those asked for originally *)
Lemma replace_selector sets ms id :
  (forall k ids, sets !! k = Some ids -> Forall (fun x => has_char "|" x = false) ids /\ ids <> []) ->
  (forall x, asks ms x -> is_Some (sets !! x)) ->
  asks (replace_matcher sets <$> ms) id <-> exists x ids, asks ms x /\ sets !! x = Some ids /\ id ∈ ids.
Proof.
  intros Hsets Hall. split.
  - intros (m' & Hm & Hn & Ha). apply elem_of_list_fmap in Hm as (m & -> & Hm).
    rewrite replace_matcher_name in Hn.
    apply replace_matcher_asks in Ha as (x & ids & Hx & Hids & Hin); [|done|done|].
    + exists x, ids. split; [|done]. exists m. done.
    + intros x Hx. apply Hall. exists m. done.
  - intros (x & ids & (m & Hm & Hn & Ha) & Hids & Hin).
    exists (replace_matcher sets m). split; [by apply elem_of_list_fmap_1|]. rewrite replace_matcher_name. split; [done|].
    apply (replace_matcher_asks sets m id); [done|done| |].
    + intros y Hy. apply Hall. exists m. done.
    + by exists x, ids.
Qed.

Lemma selector_of_replace sets e ms' :
  selector_of (replace_ids sets e) ms' <-> exists ms, selector_of e ms /\ ms' = replace_matcher sets <$> ms.
Proof.
  induction e as [b i ms|i cs IH] using expr_ind'; cbn [replace_ids]; [|rewrite Forall_forall in IH].
  - split.
    + intros H. inversion H; subst. exists ms. split; [constructor|done].
    + intros (ms0 & H & ->). inversion H; subst. constructor.
  - split.
    + intros H. inversion H as [|? ? e ? He Hse]; subst. clear H.
      apply elem_of_list_fmap in He as (c & -> & Hc). apply IH in Hse as (ms & Hs & ->); [|done].
      exists ms. split; [by econstructor|done].
    + intros (ms & H & ->). inversion H as [|? ? e ? He Hse]; subst. clear H.
      apply (sel_below _ _ (replace_ids sets e)); [by apply elem_of_list_fmap_1|]. apply IH; eauto.
Qed.

(** ** Samples *)
Lemma trunc_ok ts : whole_second_before (sample_time ts) ts.
Proof.
  unfold whole_second_before, sample_time, trunc_second.
  assert (Ht : ts - ts mod 1000000000 = ts / 1000000000 * 1000 * 1000000).
  { pose proof (Z.div_mod ts 1000000000 ltac:(lia)). lia. }
  rewrite Ht, Z.quot_mul by lia. split; [by rewrite Z.mod_mul by lia|].
  pose proof (Z.mod_pos_bound ts 1000000000 ltac:(lia)). lia.
Qed.

Lemma sample_tags_ok e : labels_of e (sample_tags e).
Proof.
  unfold sample_tags, labels_of. destruct (bool_decide_reflect (e_instance e = "")) as [H|H].
  - split; [by rewrite lookup_insert|]. split; [by rewrite lookup_insert_ne by done|].
    intros k Hk _. by rewrite lookup_insert_ne by done.
  - split; [rewrite lookup_insert_ne by done; by rewrite lookup_insert|]. split; [by rewrite lookup_insert|].
    intros k Hk Hi. by rewrite !lookup_insert_ne by done.
Qed.
Lemma labels_of_eq e l : labels_of e l -> l = sample_tags e.
Proof.
  intros (H1 & H2 & H3). destruct (sample_tags_ok e) as (G1 & G2 & G3). apply map_eq. intros k.
  destruct (decide (k = "source_id")) as [->|Hs]; [congruence|].
  destruct (decide (k = "instance_id")) as [->|Hi]; [congruence|]. rewrite H3, G3 by done. done.
Qed.

Lemma value_of_offers order metric m v : iterates order -> value_of order metric m = Some v -> offers metric m v.
Proof.
  intros Ho. destruct m as [pl|n d t|metrics|n a b|ti bo|]; cbn [value_of]; try done.
  - destruct (bool_decide_reflect (sanitize n = metric)); [|done]. intros [= <-]. by constructor.
  - intros H. apply fmap_Some in H as (g & H & ->). unfold check_map in H.
    destruct (filter _ _) as [|[n g'] l] eqn:E; [done|]. cbn in H. injection H as ->.
    assert (Hin : (n, g) ∈ filter (fun kv => sanitize kv.1 = metric) (order metrics)) by (rewrite E; left).
    apply elem_of_list_filter in Hin as [Hs Hin]. cbn in Hs.
    rewrite (Ho metrics) in Hin. apply elem_of_map_to_list in Hin. cbn. by econstructor.
  - destruct (bool_decide_reflect (sanitize n = metric)); [|done]. intros [= <-]. by constructor.
Qed.
Lemma offers_value_of order metric m v : iterates order -> offers metric m v -> exists v', value_of order metric m = Some v'.
Proof.
  intros Ho [n d t Hs|n a b Hs|ms n g Hg Hs]; cbn [value_of].
  - rewrite bool_decide_true by done. eauto.
  - rewrite bool_decide_true by done. eauto.
  - unfold check_map. destruct (filter _ _) as [|[n' g'] l] eqn:E.
    + exfalso. assert (Hin : (n, g) ∈ filter (fun kv => sanitize kv.1 = metric) (order ms)).
      { apply elem_of_list_filter. split; [done|]. rewrite (Ho ms). by apply elem_of_map_to_list. }
      rewrite E in Hin. by apply elem_of_nil in Hin.
    + eexists. done.
Qed.

Lemma sel_metric_spec metric ms :
  (forall m, m ∈ ms -> lm_name m = "__name__" -> lm_value m = metric) ->
  (exists m, m ∈ ms /\ lm_name m = "__name__") -> sel_metric ms = metric.
Proof.
  intros H [m0 [Hm0 Hn0]]. unfold sel_metric.
  enough (G : forall acc, (acc = metric \/ exists m, m ∈ ms /\ lm_name m = "__name__") ->
    foldl (fun acc m => if bool_decide (lm_name m = "__name__") then lm_value m else acc) acc ms = metric).
  { apply G. right. eauto. }
  clear m0 Hm0 Hn0. induction ms as [|m ms IH]; intros acc Hacc; cbn [foldl].
  - destruct Hacc as [->|[m [Hm _]]]; [done|by apply elem_of_nil in Hm].
  - apply IH; [intros; apply H; [by right|done]|].
    destruct (bool_decide_reflect (lm_name m = "__name__")) as [Hn|Hn].
    + left. apply H; [left|done].
    + destruct Hacc as [->|[m' [Hm' Hn']]]; [by left|]. apply elem_of_cons in Hm' as [->|Hm']; [done|]. right. eauto.
Qed.

Lemma sel_labels_spec ms k v : (k, v) ∈ sel_labels ms <->
  exists m, m ∈ ms /\ lm_name m = k /\ lm_value m = v /\ k <> "__name__" /\ k <> "source_id".
Proof.
  unfold sel_labels. rewrite elem_of_list_omap. split.
  - intros (m & Hm & H). exists m. destruct (bool_decide_reflect (lm_name m = "__name__")), (bool_decide_reflect (lm_name m = "source_id")); try done.
    cbn in H. injection H as <- <-. done.
  - intros (m & Hm & <- & <- & H1 & H2). exists m. split; [done|]. rewrite !bool_decide_false by done. done.
Qed.
Lemma has_labels_spec tags ls : has_labels tags ls = true <-> forall k v, (k, v) ∈ ls -> tags !! k = Some v.
Proof.
  unfold has_labels. rewrite forallb_forall. split.
  - intros H k v Hkv. apply elem_of_list_In in Hkv. specialize (H _ Hkv). by apply bool_decide_eq_true in H.
  - intros H [k v] Hkv. apply elem_of_list_In in Hkv. apply bool_decide_eq_true. by apply H.
Qed.

Lemma gather_in reader order ms ids samples l p :
  gather_samples reader order ms ids = Some samples -> (l, p) ∈ samples ->
  exists id es e, id ∈ ids /\ reader id = Some es /\ e ∈ es /\ envelope_sample order ms e = Some (l, p).
Proof.
  revert samples. induction ids as [|id ids IH]; intros samples H Hin; cbn in H.
  - injection H as <-. by apply elem_of_nil in Hin.
  - destruct (reader id) as [es|] eqn:Er; [|done]. cbn in H.
    destruct (gather_samples reader order ms ids) as [rest|]; [|done]. cbn in H. injection H as <-.
    apply elem_of_app in Hin as [Hin|Hin].
    + apply elem_of_list_omap in Hin as (e & He & Hs). exists id, es, e. split; [left|done].
    + destruct (IH rest eq_refl Hin) as (id' & es' & e & Hid & Hr). exists id', es', e. split; [by right|done].
Qed.
Lemma gather_has reader order ms ids samples id es e s :
  gather_samples reader order ms ids = Some samples -> id ∈ ids -> reader id = Some es -> e ∈ es ->
  envelope_sample order ms e = Some s -> s ∈ samples.
Proof.
  revert samples. induction ids as [|id0 ids IH]; intros samples H Hin Hr He Hs; cbn in H; [by apply elem_of_nil in Hin|].
  destruct (reader id0) as [es0|] eqn:Er; [|done]. cbn in H.
  destruct (gather_samples reader order ms ids) as [rest|]; [|done]. cbn in H. injection H as <-.
  apply elem_of_app. apply elem_of_cons in Hin as [->|Hin].
  - left. apply elem_of_list_omap. exists e. split; [|done]. congruence.
  - right. eauto.
Qed.

Lemma select_inv reader order oids ms b : select reader order oids ms = Some b ->
  exists samples, gather_samples reader order ms (oids (id_set (selector_ids ms))) = Some samples /\ b = build samples.
Proof.
  unfold select. destruct (_ =? _)%nat; [done|]. intros H. apply fmap_Some in H as (samples & H & ->). eauto.
Qed.

Lemma asked_in oids ms id : iterates_ids oids -> id ∈ oids (id_set (selector_ids ms)) <-> asks ms id.
Proof.
  intros Ho. rewrite (Ho _). unfold id_set. rewrite elem_of_elements, elem_of_list_to_set. apply selector_ids_spec.
Qed.

Lemma point_sample samples id s p :
  build samples !! id = Some s -> p ∈ s_points s -> exists l, (l, p) ∈ samples /\ series_id l = id.
Proof.
  intros H Hp. apply build_series in H as (Hps & _ & _). rewrite Hps in Hp.
  apply elem_of_list_fmap in Hp as ([l p'] & -> & Hin). unfold of_id in Hin.
  apply elem_of_list_filter in Hin as [Hid Hin]. exists l. done.
Qed.

(** a sample gathered for a plain selector *)
Lemma sample_sound re reader order oids metric ms samples l p :
  iterates order -> iterates_ids oids -> plain_selector re metric ms ->
  (forall id es, reader id = Some es -> Forall (fun e => e_source e = id) es) ->
  gather_samples reader order ms (oids (id_set (selector_ids ms))) = Some samples -> (l, p) ∈ samples ->
  Forall (fun m => lm_name m <> "__name__" -> satisfies re l m) ms /\
  exists src es e, asks ms src /\ reader src = Some es /\ e ∈ es /\ sample_of metric e l p.
Proof.
  intros Ho Hoi Hp Hsrc Hg Hin.
  destruct (gather_in _ _ _ _ _ _ _ Hg Hin) as (src & es & e & Hid & Hr & He & Hs).
  apply asked_in in Hid; [|done].
  unfold envelope_sample in Hs. destruct (has_labels (e_tags e) (sel_labels ms)) eqn:Hl; [|done].
  destruct (value_of order (sel_metric ms) (e_msg e)) as [v|] eqn:Hv; [|done]. cbn in Hs. injection Hs as <- <-.
  rewrite (sel_metric_spec metric) in Hv.
  2:{ intros m Hm Hn. by apply (ps_name _ _ _ Hp). }
  2:{ apply Hp. }
  assert (He' : e_source e = src). { specialize (Hsrc _ _ Hr). rewrite Forall_forall in Hsrc. auto. }
  split.
  - apply Forall_forall. intros m Hm Hn. destruct (sample_tags_ok e) as (G1 & G2 & G3).
    destruct (decide (lm_name m = "source_id")) as [Hms|Hms].
    + destruct Hid as (m' & Hm' & Hn' & Ha). assert (m' = m) as -> by (by apply (ps_source _ _ _ Hp)).
      unfold satisfies, label_value. rewrite Hms, G1. cbn [default]. rewrite He'.
      destruct Ha as [[-> ->]|[Ht Ha]]; [done|]. rewrite Ht. by apply (ps_re _ _ _ Hp).
    + destruct (ps_rest _ _ _ Hp m Hm Hn Hms) as [Ht Hi]. unfold satisfies, label_value. rewrite Ht, G3 by done.
      rewrite has_labels_spec in Hl. rewrite (Hl (lm_name m) (lm_value m)); [done|]. apply sel_labels_spec. eauto 6.
  - exists src, es, e. split; [done|]. split; [done|]. split; [done|]. split; [apply sample_tags_ok|].
    cbn [p_v p_t]. split; [by eapply value_of_offers|apply trunc_ok].
Qed.

Lemma select_sound re reader order oids metric ms b id s :
  iterates order -> iterates_ids oids -> plain_selector re metric ms ->
  (forall id es, reader id = Some es -> Forall (fun e => e_source e = id) es) ->
  select reader order oids ms = Some b -> b !! id = Some s ->
  Forall (fun m => lm_name m <> "__name__" -> satisfies re (s_tags s) m) ms /\
  Forall (fun p => exists l src es e, asks ms src /\ reader src = Some es /\ e ∈ es /\ sample_of metric e l p /\
      Forall (fun m => lm_name m <> "__name__" -> satisfies re l m) ms /\ series_id l = series_id (s_tags s)) (s_points s).
Proof.
  intros Ho Hoi Hp Hsrc Hsel Hs. apply select_inv in Hsel as (samples & Hg & ->). split.
  - destruct (build_series _ _ _ Hs) as (_ & _ & p & Hin & _). eapply sample_sound; eauto.
  - apply Forall_forall. intros p Hpt. destruct (point_sample _ _ _ _ Hs Hpt) as (l & Hin & Hid).
    destruct (sample_sound re reader order oids metric ms samples l p) as (Hsat & src & es & e & H1 & H2 & H3 & H4); try done.
    destruct (build_series _ _ _ Hs) as (_ & _ & _ & _ & Hid'). exists l, src, es, e. repeat (split; [done|]). congruence.
Qed.

Lemma select_complete re reader order oids metric ms b src es e l v :
  iterates order -> iterates_ids oids -> plain_selector re metric ms ->
  Forall (fun m => lm_name m <> "__name__" -> lm_name m <> "source_id" -> lm_value m <> "") ms ->
  select reader order oids ms = Some b ->
  asks ms src -> reader src = Some es -> e ∈ es ->
  labels_of e l -> offers metric (e_msg e) v -> Forall (fun m => lm_name m <> "__name__" -> satisfies re l m) ms ->
  exists s p, b !! series_id l = Some s /\ p ∈ s_points s /\ sample_of metric e l p.
Proof.
  intros Ho Hoi Hp Hne Hsel Hask Hr He Hlab Hoff Hsat. apply select_inv in Hsel as (samples & Hg & ->).
  pose proof (labels_of_eq _ _ Hlab) as ->. rewrite Forall_forall in Hsat, Hne.
  destruct (offers_value_of order _ _ _ Ho Hoff) as [v' Hv'].
  assert (Hs : envelope_sample order ms e = Some (sample_tags e, mk_point (sample_time (e_ts e)) v')).
  { unfold envelope_sample. rewrite (proj2 (has_labels_spec _ _)).
    - rewrite (sel_metric_spec metric); [by rewrite Hv'| |apply Hp]. intros m Hm Hn. by apply (ps_name _ _ _ Hp).
    - intros k x Hkx. apply sel_labels_spec in Hkx as (m & Hm & <- & <- & Hn & Hns).
      destruct (ps_rest _ _ _ Hp m Hm Hn Hns) as [Ht Hi]. specialize (Hsat m Hm Hn). unfold satisfies, label_value in Hsat.
      rewrite Ht in Hsat. destruct Hlab as (_ & _ & G3). rewrite G3 in Hsat by done.
      specialize (Hne m Hm Hn Hns). destruct (e_tags e !! lm_name m); cbn in Hsat; congruence. }
  assert (Hin : (sample_tags e, mk_point (sample_time (e_ts e)) v') ∈ samples).
  { eapply gather_has; eauto. by apply asked_in. }
  assert (Hin' : (sample_tags e, mk_point (sample_time (e_ts e)) v') ∈ of_id (series_id (sample_tags e)) samples).
  { apply elem_of_list_filter. done. }
  rewrite build_lookup. destruct (of_id _ samples) as [|s0 r] eqn:E; [by apply elem_of_nil in Hin'|].
  eexists _, (mk_point (sample_time (e_ts e)) v'). split; [done|]. cbn [s_points]. split.
  - apply elem_of_list_fmap. eexists. split; [|exact Hin']. done.
  - split; [done|]. cbn. split; [by eapply value_of_offers|apply trunc_ok].
Qed.
