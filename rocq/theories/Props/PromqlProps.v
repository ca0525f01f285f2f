(** Properties of the PromQL front end (C57-C61, C77-C80), each followed by a case meeting its hypotheses.
    Vocabulary: Promql/Spec.v, Client/WalkSpec.v.  Programs: Promql/Model.v. *)
From Coq Require Import Ascii String.
From stdpp Require Import prelude gmap strings list.
From Coq Require Import Sorted.
From Verif.Base Require Import GoInt Envelope Str Url UrlProofs.
From Verif.Store Require Import Spec.
From Verif.Client Require Import Walk WalkSpec.
From Verif.Promql Require Import Model Spec SpecText ProofsText Proofs ProofsSelect ProofsRead ProofsOrder.
Open Scope Z_scope.

(** ** C57 *)
Theorem C57_identifier : ∀ s, identifier (sanitize s).
Proof. exact sanitize_identifier. Qed.
Print Assumptions C57_identifier.
(** An identifier is left alone, so sanitising twice is sanitising once. *)
Lemma sanitize_fix : (∀ s, identifier s -> sanitize s = s) ∧ (∀ s, sanitize (sanitize s) = sanitize s).
Proof. split; [exact sanitize_id|intros s; apply sanitize_id, sanitize_identifier]. Qed.
Theorem C57_idempotent : (∀ s, identifier s -> sanitize s = s) ∧ (∀ s, sanitize (sanitize s) = sanitize s).
Proof. exact sanitize_fix. Qed.
Print Assumptions C57_idempotent.
(** A name that is text is translated character by character: as many characters come out as went in. *)
Theorem C57_characters : ∀ cps, Forall scalar cps -> sanitize (utf8 cps) = utf8 (underscored cps).
Proof. exact sanitize_text. Qed.
Print Assumptions C57_characters.
Example C57_characters_case :
  let cps := [57; 104; 46; 233; 8364; 128640; 55]%N in
  Forall scalar cps ∧ sanitize (utf8 cps) = "_h____7".
Proof. split; [|vm_compute; reflexivity]. repeat constructor; unfold scalar; lia. Qed.
Example C57_case : sanitize "9http.latency-p99 µs" = "_http_latency_p99__s".
Proof. vm_compute. reflexivity. Qed.

(** ** C58 *)
(** Whatever the labels: no point is lost or duplicated, points with the same labels share a series, and
    each series carries the labels of one of its points. *)
Lemma conservation : ∀ samples,
  concat ((fun kv => s_points kv.2) <$> map_to_list (build samples)) ≡ₚ samples.*2 ∧
  (∀ l p p', (l, p) ∈ samples -> (l, p') ∈ samples ->
     ∃ k s, build samples !! k = Some s ∧ p ∈ s_points s ∧ p' ∈ s_points s) ∧
  (∀ k s, build samples !! k = Some s -> ∃ p, p ∈ s_points s ∧ (s_tags s, p) ∈ samples).
Proof.
  intros samples. split; [by apply points_perm|]. split.
  - intros l p p' Hp Hp'. exists (series_id l).
    assert (H : forall q, (l, q) ∈ samples -> (l, q) ∈ of_id (series_id l) samples).
    { intros q Hq. by apply elem_of_list_filter. }
    pose proof (H _ Hp) as H1. pose proof (H _ Hp') as H2. rewrite build_lookup.
    destruct (of_id _ samples) as [|s0 r] eqn:E; [by apply elem_of_nil in H1|].
    eexists. split; [done|]. cbn [s_points].
    split; apply elem_of_list_fmap; [exists (l, p)|exists (l, p')]; done.
  - intros k s H. destruct (build_series _ _ _ H) as (Hps & _ & p & Hin & Hid). exists p. split; [|done].
    rewrite Hps. apply elem_of_list_fmap. exists (s_tags s, p). split; [done|]. by apply elem_of_list_filter.
Qed.
Theorem C58_conservation : ∀ samples,
  concat ((fun kv => s_points kv.2) <$> map_to_list (build samples)) ≡ₚ samples.*2 ∧
  (∀ l p p', (l, p) ∈ samples -> (l, p') ∈ samples ->
     ∃ k s, build samples !! k = Some s ∧ p ∈ s_points s ∧ p' ∈ s_points s) ∧
  (∀ k s, build samples !! k = Some s -> ∃ p, p ∈ s_points s ∧ (s_tags s, p) ∈ samples).
Proof. exact conservation. Qed.
Print Assumptions C58_conservation.

(** Different labels may share a series: dashes in values confuse the key. *)
Definition lab1 : gmap string string := {["a" := "b-c-d"]}.
Definition lab2 : gmap string string := {["a" := "b"; "c" := "d"]}.
Lemma collision : ∃ l1 l2 p1 p2 k s, l1 ≠ l2 ∧ p1 ≠ p2 ∧
  build [(l1, p1); (l2, p2)] !! k = Some s ∧ s_points s = [p1; p2].
Proof.
  exists lab1, lab2, (mk_point 1 (FromTimer 1)), (mk_point 1 (FromTimer 2)), "-a-b-c-d".
  eexists. split; [|split; [done|]].
  - intros E. assert (H : lab1 !! "c" = lab2 !! "c") by (by rewrite E). vm_compute in H. done.
  - split; [vm_compute; reflexivity|done].
Qed.
Theorem C58_collision_refuted : ∃ l1 l2 p1 p2 k s, l1 ≠ l2 ∧ p1 ≠ p2 ∧
  build [(l1, p1); (l2, p2)] !! k = Some s ∧ s_points s = [p1; p2].
Proof. exact collision. Qed.
Print Assumptions C58_collision_refuted.

(** With label values that do not mention label names after a dash, two points share a series exactly when
    they have the same labels; a series holds all points of its labels, in the order they came. *)
Lemma grouping names samples :
  Forall (fun s => clear_labels names s.1) samples ->
  ∀ l ps, ps ≠ [] ->
    (∃ k, build samples !! k = Some (mk_series l ps)) ↔ points_of l samples = ps.
Proof.
  intros Hall l ps Hne.
  assert (Hcl : points_of l samples <> [] -> clear_labels names l).
  { unfold points_of. intros H. destruct (filter _ samples) as [|[l' p] r] eqn:E; [done|].
    assert (Hin : (l', p) ∈ filter (fun s : sample_in => s.1 = l) samples) by (rewrite E; left).
    apply elem_of_list_filter in Hin as [Hl Hin]. cbn in Hl. subst l'. rewrite Forall_forall in Hall. exact (Hall _ Hin). }
  split.
  - intros [k Hk]. destruct (build_series _ _ _ Hk) as (_ & _ & p & Hin & Hid). cbn in Hin, Hid. subst k.
    rewrite Forall_forall in Hall. pose proof (Hall _ Hin) as Hl. cbn in Hl.
    rewrite (build_exact names) in Hk; [|by apply Forall_forall|done].
    destruct (points_of l samples); [done|]. by injection Hk.
  - intros <-. exists (series_id l). rewrite (build_exact names) by auto. by destruct (points_of l samples).
Qed.
Theorem C58_grouping_partial : ∀ names samples,
  Forall (fun s => clear_labels names s.1) samples ->
  ∀ l ps, ps ≠ [] ->
    (∃ k, build samples !! k = Some (mk_series l ps)) ↔ points_of l samples = ps.
Proof. exact grouping. Qed.
Print Assumptions C58_grouping_partial.
Definition gnames : gset string := {["source_id"; "instance_id"; "job"]}.
Definition gl1 : gmap string string := {["source_id" := "9c5d-44e1"; "instance_id" := "0"; "job" := "web"]}.
Definition gl2 : gmap string string := {["source_id" := "9c5d-44e1"; "instance_id" := "1"; "job" := "web-eu"]}.
Definition gsamples : list (gmap string string * point) :=
  [(gl1, mk_point 1000 (FromTimer 5)); (gl2, mk_point 1000 (FromTimer 6)); (gl1, mk_point 2000 (FromTimer 5))].
Definition clear_b (names : gset string) (l : gmap string string) : bool :=
  forallb (fun kv => bool_decide (kv.1 ∈ names) && negb (has_char "-" kv.1) &&
                     forallb (fun w => bool_decide (w ∉ names)) (tail (split "-" kv.2))) (map_to_list l).
Lemma clear_b_ok names l : clear_b names l = true -> clear_labels names l.
Proof.
  unfold clear_b. intros H k v Hkv. rewrite forallb_forall in H.
  specialize (H (k, v) ltac:(apply elem_of_list_In; by apply elem_of_map_to_list)). cbn in H.
  apply andb_prop in H as [H H3]. apply andb_prop in H as [H1 H2]. apply bool_decide_eq_true in H1.
  split; [done|]. split; [by apply negb_true_iff|]. intros w Hw. rewrite forallb_forall in H3.
  apply elem_of_list_In in Hw. specialize (H3 w Hw). by apply bool_decide_eq_true in H3.
Qed.
Example C58_case : Forall (fun s => clear_labels gnames s.1) gsamples ∧
  points_of gl1 gsamples = [mk_point 1000 (FromTimer 5); mk_point 2000 (FromTimer 5)].
Proof.
  split; [|vm_compute; reflexivity].
  unfold gsamples. do 3 (apply Forall_cons_2; [apply clear_b_ok; vm_compute; reflexivity|]). by apply Forall_nil_2.
Qed.

(** ** C59 *)
(** Four ways in which a sample that does not satisfy the selector is selected: a negative matcher is taken
    for its opposite, a regular expression is compared literally, an instance_id matcher is compared with the
    tag the sample's own label then replaces, and of two source_id matchers either is enough. *)
Definition read1 (es : list envelope) (id : string) : option (list envelope) :=
  Some (filter (fun e => e_source e = id) es).
Definition ord (m : gmap string gauge_value) := map_to_list m.
Definition oid (s : gset string) := elements s.
Definition counter (src inst name : string) (tags : gmap string string) (ts total : Z) : envelope :=
  mk_env ts src inst ∅ tags (MCounter name 0 total).
Definition base_sel : list matcher := [mk_matcher "__name__" MatchEqual "req"; mk_matcher "source_id" MatchEqual "a"].
Definition picks (ms : list matcher) (e : envelope) : bool :=
  match select (read1 [e]) ord oid ms with
  | Some b => bool_decide ((snd <$> map_to_list b) = [mk_series (sample_tags e) [mk_point (sample_time (e_ts e)) (FromCounter 7)]])
  | None => false
  end.
Lemma picks_ok ms e m re : picks ms e = true -> m ∈ ms -> lm_name m ≠ "__name__" -> ¬ satisfies re (sample_tags e) m ->
  ∃ b k s, select (read1 [e]) ord oid ms = Some b ∧ b !! k = Some s ∧ s_points s ≠ [] ∧
    ¬ Forall (fun m => lm_name m ≠ "__name__" -> satisfies re (s_tags s) m) ms.
Proof.
  unfold picks. intros H Hm Hn Hs. destruct (select _ _ _ _) as [b|]; [|done]. apply bool_decide_eq_true in H.
  destruct (map_to_list b) as [|[k s] r] eqn:E; [done|]. cbn in H. injection H as -> _.
  exists b, k. eexists. split; [done|]. split; [apply elem_of_map_to_list; rewrite E; left|]. split; [done|].
  rewrite Forall_forall. intros Hall. apply Hs. by apply Hall.
Qed.
Definition tag1 (v : string) : gmap string string := {["job" := v]}.
Lemma wrongly_selected : ∀ re, ¬ re "w+" "w+" ->
  (* job!="web" *)
  (∃ es b k s, select (read1 es) ord oid (base_sel ++ [mk_matcher "job" MatchNotEqual "web"]) = Some b ∧ b !! k = Some s ∧
     s_points s ≠ [] ∧ ¬ Forall (fun m => lm_name m ≠ "__name__" -> satisfies re (s_tags s) m) (base_sel ++ [mk_matcher "job" MatchNotEqual "web"])) ∧
  (* job=~"w+" *)
  (∃ es b k s, select (read1 es) ord oid (base_sel ++ [mk_matcher "job" MatchRegexp "w+"]) = Some b ∧ b !! k = Some s ∧
     s_points s ≠ [] ∧ ¬ Forall (fun m => lm_name m ≠ "__name__" -> satisfies re (s_tags s) m) (base_sel ++ [mk_matcher "job" MatchRegexp "w+"])) ∧
  (* instance_id="0" *)
  (∃ es b k s, select (read1 es) ord oid (base_sel ++ [mk_matcher "instance_id" MatchEqual "0"]) = Some b ∧ b !! k = Some s ∧
     s_points s ≠ [] ∧ ¬ Forall (fun m => lm_name m ≠ "__name__" -> satisfies re (s_tags s) m) (base_sel ++ [mk_matcher "instance_id" MatchEqual "0"])) ∧
  (* source_id="a", source_id="b" *)
  (∃ es b k s, select (read1 es) ord oid (base_sel ++ [mk_matcher "source_id" MatchEqual "b"]) = Some b ∧ b !! k = Some s ∧
     s_points s ≠ [] ∧ ¬ Forall (fun m => lm_name m ≠ "__name__" -> satisfies re (s_tags s) m) (base_sel ++ [mk_matcher "source_id" MatchEqual "b"])).
Proof.
  intros re Hre. split; [|split; [|split]].
  - exists [counter "a" "1" "req" (tag1 "web") 5000000000 7].
    eapply (picks_ok _ _ (mk_matcher "job" MatchNotEqual "web")); [vm_compute; reflexivity|right; right; left|done|].
    unfold satisfies. cbn [lm_type lm_name lm_value]. intros H. apply H. vm_compute. reflexivity.
  - exists [counter "a" "1" "req" (tag1 "w+") 5000000000 7].
    eapply (picks_ok _ _ (mk_matcher "job" MatchRegexp "w+")); [vm_compute; reflexivity|right; right; left|done|].
    unfold satisfies. cbn [lm_type lm_name lm_value].
    replace (label_value _ "job") with "w+"; [done|vm_compute; reflexivity].
  - exists [counter "a" "1" "req" {["instance_id" := "0"]} 5000000000 7].
    eapply (picks_ok _ _ (mk_matcher "instance_id" MatchEqual "0")); [vm_compute; reflexivity|right; right; left|done|].
    unfold satisfies. cbn [lm_type lm_name lm_value]. intros H. vm_compute in H. done.
  - exists [counter "a" "1" "req" ∅ 5000000000 7].
    eapply (picks_ok _ _ (mk_matcher "source_id" MatchEqual "b")); [vm_compute; reflexivity|right; right; left|done|].
    unfold satisfies. cbn [lm_type lm_name lm_value]. intros H. vm_compute in H. done.
Qed.
Theorem C59_matchers_refuted : ∀ re, ¬ re "w+" "w+" ->
  (* job!="web" *)
  (∃ es b k s, select (read1 es) ord oid (base_sel ++ [mk_matcher "job" MatchNotEqual "web"]) = Some b ∧ b !! k = Some s ∧
     s_points s ≠ [] ∧ ¬ Forall (fun m => lm_name m ≠ "__name__" -> satisfies re (s_tags s) m) (base_sel ++ [mk_matcher "job" MatchNotEqual "web"])) ∧
  (* job=~"w+" *)
  (∃ es b k s, select (read1 es) ord oid (base_sel ++ [mk_matcher "job" MatchRegexp "w+"]) = Some b ∧ b !! k = Some s ∧
     s_points s ≠ [] ∧ ¬ Forall (fun m => lm_name m ≠ "__name__" -> satisfies re (s_tags s) m) (base_sel ++ [mk_matcher "job" MatchRegexp "w+"])) ∧
  (* instance_id="0" *)
  (∃ es b k s, select (read1 es) ord oid (base_sel ++ [mk_matcher "instance_id" MatchEqual "0"]) = Some b ∧ b !! k = Some s ∧
     s_points s ≠ [] ∧ ¬ Forall (fun m => lm_name m ≠ "__name__" -> satisfies re (s_tags s) m) (base_sel ++ [mk_matcher "instance_id" MatchEqual "0"])) ∧
  (* source_id="a", source_id="b" *)
  (∃ es b k s, select (read1 es) ord oid (base_sel ++ [mk_matcher "source_id" MatchEqual "b"]) = Some b ∧ b !! k = Some s ∧
     s_points s ≠ [] ∧ ¬ Forall (fun m => lm_name m ≠ "__name__" -> satisfies re (s_tags s) m) (base_sel ++ [mk_matcher "source_id" MatchEqual "b"])).
Proof. exact wrongly_selected. Qed.
Print Assumptions C59_matchers_refuted.

(** For a plain selector (equalities, one source_id matcher) every series satisfies all matchers, and each of
    its points is a sample, for the metric asked for, of an envelope of a source asked for, whose labels satisfy
    all matchers. *)
Theorem C59_selected_partial : ∀ re reader order oids metric ms b id s,
  iterates order -> iterates_ids oids -> plain_selector re metric ms ->
  (∀ id es, reader id = Some es -> Forall (fun e => e_source e = id) es) ->
  select reader order oids ms = Some b -> b !! id = Some s ->
  Forall (fun m => lm_name m ≠ "__name__" -> satisfies re (s_tags s) m) ms ∧
  Forall (fun p => ∃ l src es e, asks ms src ∧ reader src = Some es ∧ e ∈ es ∧ sample_of metric e l p ∧
      Forall (fun m => lm_name m ≠ "__name__" -> satisfies re l m) ms ∧ series_id l = series_id (s_tags s)) (s_points s).
Proof. exact select_sound. Qed.
Print Assumptions C59_selected_partial.

(** ** C77: what satisfies the selector is selected *)
(** A sample with instance_id "0" is not found by instance_id="0", because the matcher is compared with the
    envelope's tags only; nor is one lacking a label found by the matcher label="". *)
Lemma missed : ∀ re, ∃ e l ms,
  labels_of e l ∧ offers "req" (e_msg e) (FromCounter 7) ∧ asks ms (e_source e) ∧ Forall (fun m => lm_name m ≠ "__name__" -> satisfies re l m) ms ∧
  ms = base_sel ++ [mk_matcher "instance_id" MatchEqual "0"] ∧
  select (read1 [e]) ord oid ms = Some ∅.
Proof.
  intros re. exists (counter "a" "0" "req" ∅ 5000000000 7), {["source_id" := "a"; "instance_id" := "0"]}.
  eexists. split; [|split; [by constructor|split; [|split; [|split; [reflexivity|]]]]].
  - split; [vm_compute; reflexivity|]. split; [vm_compute; reflexivity|].
    intros k H1 H2. cbn [e_tags counter]. rewrite lookup_empty. by rewrite lookup_insert_ne, lookup_singleton_ne by done.
  - exists (mk_matcher "source_id" MatchEqual "a"). split; [right; left|]. split; [done|]. left. done.
  - apply Forall_cons_2; [done|]. do 2 (apply Forall_cons_2; [intros _; vm_compute; reflexivity|]). by apply Forall_nil_2.
  - vm_compute. reflexivity.
Qed.
Theorem C77_instance_refuted : ∀ re, ∃ e l ms,
  labels_of e l ∧ offers "req" (e_msg e) (FromCounter 7) ∧ asks ms (e_source e) ∧ Forall (fun m => lm_name m ≠ "__name__" -> satisfies re l m) ms ∧
  ms = base_sel ++ [mk_matcher "instance_id" MatchEqual "0"] ∧
  select (read1 [e]) ord oid ms = Some ∅.
Proof. exact missed. Qed.
Print Assumptions C77_instance_refuted.
(** For a plain selector without empty values: every envelope read whose labels satisfy it and that offers the
    metric has a point in the series of its labels. *)
Theorem C77_complete_partial : ∀ re reader order oids metric ms b src es e l v,
  iterates order -> iterates_ids oids -> plain_selector re metric ms ->
  Forall (fun m => lm_name m ≠ "__name__" -> lm_name m ≠ "source_id" -> lm_value m ≠ "") ms ->
  select reader order oids ms = Some b ->
  asks ms src -> reader src = Some es -> e ∈ es ->
  labels_of e l -> offers metric (e_msg e) v -> Forall (fun m => lm_name m ≠ "__name__" -> satisfies re l m) ms ->
  ∃ s p, b !! series_id l = Some s ∧ p ∈ s_points s ∧ sample_of metric e l p.
Proof. exact select_complete. Qed.
Print Assumptions C77_complete_partial.
(** The hypotheses of both, met: two sources asked for by a regexp, an equality on job, three envelopes. *)
Definition sel_ex : list matcher :=
  [mk_matcher "__name__" MatchEqual "http_requests"; mk_matcher "source_id" MatchRegexp "a|b"; mk_matcher "job" MatchEqual "web"].
Definition es_ex : list envelope :=
  [counter "a" "0" "http.requests" (tag1 "web") 5000000000 7; counter "a" "1" "http.requests" (tag1 "db") 5500000000 8;
   counter "b" "0" "http.requests" (tag1 "web") 6100000000 9].
Example C59_C77_case :
  plain_selector alternative "http_requests" sel_ex ∧ iterates ord ∧ iterates_ids oid ∧
  (∀ id es, read1 es_ex id = Some es -> Forall (fun e => e_source e = id) es) ∧
  (snd <$> map_to_list (default ∅ (select (read1 es_ex) ord oid sel_ex))) =
    [mk_series {["source_id" := "b"; "instance_id" := "0"; "job" := "web"]} [mk_point 6000 (FromCounter 9)];
     mk_series {["source_id" := "a"; "instance_id" := "0"; "job" := "web"]} [mk_point 5000 (FromCounter 7)]].
Proof.
  split; [|split; [|split; [|split]]].
  - unfold sel_ex. split.
    + intros m Hm Hn. repeat (apply elem_of_cons in Hm as [->|Hm]; [done|]). by apply elem_of_nil in Hm.
    + eexists. split; [left|done].
    + intros m m' Hm Hm' Hn Hn'.
      repeat (apply elem_of_cons in Hm as [->|Hm]; [try discriminate Hn|]); [|by apply elem_of_nil in Hm].
      repeat (apply elem_of_cons in Hm' as [->|Hm']; [try discriminate Hn'|]); [done|by apply elem_of_nil in Hm'].
    + intros; reflexivity.
    + intros m Hm Hn Hs.
      repeat (apply elem_of_cons in Hm as [->|Hm]; [first [by destruct Hn|by destruct Hs|done]|]). by apply elem_of_nil in Hm.
  - intros m. reflexivity.
  - intros x. reflexivity.
  - intros id es [= <-]. apply Forall_forall. intros e He. by apply elem_of_list_filter in He as [He _].
  - apply (bool_decide_unpack _). vm_compute. exact I.
Qed.

(** ** C60 *)
(** Seek ends, moves to the first point with time at least t and reports whether there is one. *)
Theorem C60_seek : ∀ t it,
  times_sorted (it_points it) ->
  ∃ it' found, seek t it = Some (it', found) ∧ it_points it' = it_points it ∧
    ∃ before after, it_points it = before ++ after ∧
      Forall (fun p => p_t p < t) before ∧ Forall (fun p => t <= p_t p) after ∧
      it_cur it' = Z.of_nat (length before) ∧ at_ it' = head after ∧
      (found = true ↔ after ≠ []).
Proof. exact seek_spec. Qed.
Print Assumptions C60_seek.
(** Next shows every point once, in order, and then reports the end. *)
Theorem C60_iterate : ∀ ps n, (length ps < n)%nat -> drain n (new_iter ps) = Some <$> ps.
Proof. exact drain_all. Qed.
Print Assumptions C60_iterate.
Definition pts : list point := (fun t => mk_point t (FromTimer t)) <$> [1000; 3000; 3000; 7000].
Example C60_case : times_sorted pts ∧
  (fun r => (at_ r.1, r.2)) <$> seek 2000 (new_iter pts) = Some (Some (mk_point 3000 (FromTimer 3000)), true) ∧
  (fun r => (at_ r.1, r.2)) <$> seek 7001 (new_iter pts) = Some (None, false).
Proof.
  split; [|split; vm_compute; reflexivity].
  unfold pts. cbn. repeat constructor; cbn; lia.
Qed.

(** ** C61 *)
(** A reader of an unchanging content that sometimes fails. *)
Definition serves_or_fails (c : walk_config) (content : list envelope) (horizon clock : nat -> Z)
    (reader : nat -> walk_read -> answer) : Prop :=
  ∀ i start, not_after_end c start ->
    let r := read_of c start in
    a_now (reader i r) = clock i ∧
    (a_batch (reader i r) = None ∨
     ∃ k : nat, (1 <= k)%nat ∧ a_batch (reader i r) = Some (take k (filter (visible (horizon i) r) content))).
(** The cache answers the first page and then fails: the part read so far is returned as if it were
    everything (first conjunct); without any failure, what is younger than a second is left out (second). *)
Definition page (ts : Z) : envelope := counter "a" "0" "req" ∅ ts 7.
Definition flaky (i : nat) (r : walk_read) : answer :=
  mk_answer (if (i =? 0)%nat then Some (take 1 (filter (visible 0 r) [page 10; page 20])) else None) false 5000000000.
Definition steady (now : Z) (i : nat) (r : walk_read) : answer :=
  mk_answer (Some (take 1 (filter (visible 0 r) [page 10; page 20]))) false now.
Lemma incomplete :
  (∃ content reader start stop limit types horizon clock n es,
     let c := walking_config start stop limit types in
     ascending content ∧ Forall sane_time content ∧ start <= stop ∧ serves_or_fails c content horizon clock reader ∧
     (∀ i e, e ∈ content -> e_ts e <= clock i - 1000000000) ∧
     (∀ m, (n <= m)%nat -> walking_read reader start stop limit types false m = Some es) ∧
     es ≠ filter (in_window c) content) ∧
  (∃ content reader start stop limit types horizon clock n es,
     let c := walking_config start stop limit types in
     ascending content ∧ Forall sane_time content ∧ start <= stop ∧ serves c content horizon clock reader ∧
     (∀ i, stop <= clock i) ∧
     (∀ m, (n <= m)%nat -> walking_read reader start stop limit types false m = Some es) ∧
     es ≠ filter (in_window c) content).
Proof.
  assert (Hw : ∀ start stop limit types reader n es,
    (walk (retry_backoff 5 true) (walking_config start stop limit types) reader (fun _ _ => true) n 0).2 ≠ WRunning ->
    concat (deliveries (walk (retry_backoff 5 true) (walking_config start stop limit types) reader (fun _ _ => true) n 0).1) = es ->
    ∀ m, (n <= m)%nat -> walking_read reader start stop limit types false m = Some es).
  { intros start stop limit types reader n es Hrun Hes m Hm. unfold walking_read. f_equal. rewrite <-Hes.
    enough (E : ∀ n m i b s re del, (n <= m)%nat ->
      (walk_loop (retry_backoff 5 true) (walking_config start stop limit types) reader (fun _ _ => true) n i b s re del).2 ≠ WRunning ->
      walk_loop (retry_backoff 5 true) (walking_config start stop limit types) reader (fun _ _ => true) m i b s re del =
      walk_loop (retry_backoff 5 true) (walking_config start stop limit types) reader (fun _ _ => true) n i b s re del).
    { unfold walk. rewrite (E n m); done. }
    clear. induction n as [|n IH]; intros m i b s re del Hm Hrun; [done|]. destruct m as [|m]; [lia|].
    cbn [walk_loop] in Hrun |- *.
    destruct (a_batch (reader i (read_of (walking_config start stop limit types) s))) as [es0|].
    - destruct (last _) as [l|].
      + destruct (negb _); [done|]. destruct (match w_end _ with Some _ => _ | None => _ end); [done|].
        rewrite (IH m); [done|lia|]. intros E. apply Hrun. by destruct (walk_loop _ _ _ _ n _ _ _ _ _).
      + destruct (b_empty _ b) as [b' go]. destruct go; [|done].
        rewrite (IH m); [done|lia|]. intros E. apply Hrun. by destruct (walk_loop _ _ _ _ n _ _ _ _ _).
    - destruct (a_cancelled _); [done|]. destruct (b_err _ b) as [b' go]. destruct go; [|done].
      rewrite (IH m); [done|lia|]. intros E. apply Hrun. by destruct (walk_loop _ _ _ _ n _ _ _ _ _). }
  assert (Hasc : ascending [page 10; page 20]) by (repeat constructor; cbn; lia).
  assert (Hsane : Forall sane_time [page 10; page 20]).
  { repeat constructor; unfold in64; cbn; lia. }
  split.
  - exists [page 10; page 20], flaky, 0, 100, 1, [T_COUNTER], (fun _ => 0), (fun _ => 5000000000), 9%nat, [page 10]. cbn zeta.
    split; [exact Hasc|]. split; [exact Hsane|]. split; [lia|]. split.
    { intros i s _. split; [done|]. destruct i as [|i]; [right|by left]. exists 1%nat. split; [lia|done]. }
    split.
    { intros _ e He. repeat (apply elem_of_cons in He as [->|He]; [cbn; lia|]). by apply elem_of_nil in He. }
    split; [apply Hw; [vm_compute; discriminate|vm_compute; reflexivity]|].
    intros E. assert (H : length [page 10] = length (filter (in_window (walking_config 0 100 1 [T_COUNTER])) [page 10; page 20])) by (by rewrite E).
    vm_compute in H. discriminate.
  - exists [page 10; page 20], (steady 1000000015), 0, 100, 1, [T_COUNTER], (fun _ => 0), (fun _ => 1000000015), 9%nat, [page 10]. cbn zeta.
    split; [exact Hasc|]. split; [exact Hsane|]. split; [lia|]. split.
    { intros i s _. split; [done|]. exists 1%nat. split; [lia|done]. }
    split; [intros; lia|].
    split; [apply Hw; [vm_compute; discriminate|vm_compute; reflexivity]|].
    intros E. assert (H : length [page 10] = length (filter (in_window (walking_config 0 100 1 [T_COUNTER])) [page 10; page 20])) by (by rewrite E).
    vm_compute in H. discriminate.
Qed.
Theorem C61_incomplete_refuted :
  (∃ content reader start stop limit types horizon clock n es,
     let c := walking_config start stop limit types in
     ascending content ∧ Forall sane_time content ∧ start <= stop ∧ serves_or_fails c content horizon clock reader ∧
     (∀ i e, e ∈ content -> e_ts e <= clock i - 1000000000) ∧
     (∀ m, (n <= m)%nat -> walking_read reader start stop limit types false m = Some es) ∧
     es ≠ filter (in_window c) content) ∧
  (∃ content reader start stop limit types horizon clock n es,
     let c := walking_config start stop limit types in
     ascending content ∧ Forall sane_time content ∧ start <= stop ∧ serves c content horizon clock reader ∧
     (∀ i, stop <= clock i) ∧
     (∀ m, (n <= m)%nat -> walking_read reader start stop limit types false m = Some es) ∧
     es ≠ filter (in_window c) content).
Proof. exact incomplete. Qed.
Print Assumptions C61_incomplete_refuted.
(** If no read fails and the content of the window is at least a second old, everything is returned. *)
Theorem C61_complete_partial : ∀ reader start stop limit types content horizon clock n,
  let c := walking_config start stop limit types in
  ascending content -> Forall sane_time content -> start <= stop ->
  serves c content horizon clock reader ->
  (∀ i e, e ∈ filter (in_window c) content -> e_ts e <= wrap64 (clock i - 1000000000)) ->
  (length (filter (in_window c) content) < n)%nat ->
  walking_read reader start stop limit types false n = Some (filter (in_window c) content).
Proof. exact walking_read_complete. Qed.
Print Assumptions C61_complete_partial.
Example C61_case :
  serves (walking_config 0 100 1 [T_COUNTER]) [page 10; page 20] (fun _ => 0) (fun _ => 5000000000) (steady 5000000000) ∧
  walking_read (steady 5000000000) 0 100 1 [T_COUNTER] false 3 = Some [page 10; page 20].
Proof.
  split; [|vm_compute; reflexivity]. intros i s _. split; [done|]. exists 1%nat. split; [lia|done].
Qed.

(** ** C78: the points of a series are in time order *)
(** Not if the dashes of a source id make the keys of two sources collide. *)
Definition es_mix : list envelope :=
  [counter "s-z-1" "" "req" ∅ 9000000000 1; counter "s" "" "req" {["z" := "1"]} 5000000000 2].
Definition sel_mix : list matcher :=
  [mk_matcher "__name__" MatchEqual "req"; mk_matcher "source_id" MatchRegexp "s|s-z-1"].
Lemma disorder : ∃ oids, iterates_ids oids ∧
  (∀ id es, read1 es_mix id = Some es -> time_sorted es) ∧
  ∃ b k s, select (read1 es_mix) ord oids sel_mix = Some b ∧ b !! k = Some s ∧ ¬ times_sorted (s_points s).
Proof.
  exists (fun x => reverse (sort_strings (elements x))). split; [|split].
  - intros x. rewrite reverse_Permutation. by rewrite sort_strings_perm.
  - intros id es [= <-]. unfold es_mix. rewrite !filter_cons.
    destruct (decide _) as [<-|]; [rewrite decide_False by done; cbn; done|]. destruct (decide _); cbn; repeat constructor.
  - assert (H : (match select (read1 es_mix) ord (fun x => reverse (sort_strings (elements x))) sel_mix with
                 | Some b => match b !! "-source_id-s-z-1" with
                             | Some s => bool_decide (p_t <$> s_points s = [9000; 5000]) | None => false end
                 | None => false end) = true) by (vm_compute; reflexivity).
    destruct (select _ _ _ _) as [b|]; [|discriminate]. destruct (b !! "-source_id-s-z-1") as [s|] eqn:E; [|discriminate].
    apply bool_decide_eq_true in H. exists b, "-source_id-s-z-1", s. split; [done|]. split; [done|].
    destruct (s_points s) as [|p [|q [|? ?]]]; try discriminate. cbn in H. injection H as Hp Hq.
    intros Hs. inversion Hs as [|? ? ? Hf]; subst. apply Forall_cons in Hf as [Hf _]. lia.
Qed.
Theorem C78_disorder_refuted : ∃ oids, iterates_ids oids ∧
  (∀ id es, read1 es_mix id = Some es -> time_sorted es) ∧
  ∃ b k s, select (read1 es_mix) ord oids sel_mix = Some b ∧ b !! k = Some s ∧ ¬ times_sorted (s_points s).
Proof. exact disorder. Qed.
Print Assumptions C78_disorder_refuted.
(** If reads are in time order: with clear labels, or a single source asked for, every series is in time order. *)
Theorem C78_order_partial : ∀ reader order oids ms b id s names,
  iterates_ids oids ->
  (∀ id es, reader id = Some es -> Forall (fun e => e_source e = id) es ∧ time_sorted es) ->
  (∀ id es e l, reader id = Some es -> e ∈ es -> labels_of e l -> clear_labels names l) ->
  select reader order oids ms = Some b -> b !! id = Some s -> times_sorted (s_points s).
Proof. exact select_sorted. Qed.
Print Assumptions C78_order_partial.
Theorem C78_order_one_source : ∀ reader order oids ms b id s,
  iterates_ids oids ->
  (∀ id es, reader id = Some es -> time_sorted es) ->
  (∀ x y, asks ms x -> asks ms y -> x = y) ->
  select reader order oids ms = Some b -> b !! id = Some s -> times_sorted (s_points s).
Proof. exact select_sorted_one. Qed.
Print Assumptions C78_order_one_source.
Example C78_case :
  (∀ id es, read1 es_ex id = Some es -> Forall (fun e => e_source e = id) es ∧ time_sorted es) ∧
  (∀ id es e l, read1 es_ex id = Some es -> e ∈ es -> labels_of e l -> clear_labels gnames l).
Proof.
  split.
  - intros id es [= <-]. split; [apply Forall_forall; intros e He; by apply elem_of_list_filter in He as [He _]|].
    unfold es_ex. rewrite !filter_cons. repeat (destruct (decide _)); cbn; repeat constructor; cbn; lia.
  - intros id es e l [= <-] He Hl. apply labels_of_eq in Hl as ->. apply elem_of_list_filter in He as [_ He].
    apply clear_b_ok. unfold es_ex in He.
    repeat (apply elem_of_cons in He as [->|He]; [vm_compute; reflexivity|]). by apply elem_of_nil in He.
Qed.

(** ** C79: the source ids of a query *)
Theorem C79_extract : ∀ e id, id ∈ id_set (expr_ids e) ↔ ∃ ms, selector_of e ms ∧ asks ms id.
Proof. intros e id. unfold id_set. rewrite elem_of_list_to_set. apply expr_ids_spec. Qed.
Print Assumptions C79_extract.
(** and the sources Select reads are those its selector asks for: it fails if any of their reads fails, and
    depends on no other. *)
Lemma reads_asked reader reader' order oids ms :
  iterates_ids oids -> (∀ id, asks ms id -> reader id = reader' id) ->
  select reader order oids ms = select reader' order oids ms ∧
  (∀ id, asks ms id -> reader id = None -> select reader order oids ms = None).
Proof.
  intros Ho Hr. split.
  - unfold select. destruct (_ =? _)%nat; [done|]. f_equal.
    assert (H : ∀ id, id ∈ oids (id_set (selector_ids ms)) -> reader id = reader' id).
    { intros id Hid. apply Hr. by eapply asked_in. }
    induction (oids _) as [|id ids IH]; [done|]. cbn. rewrite H by left. rewrite IH; [done|]. intros x Hx. apply H. by right.
  - intros id Ha Hn. unfold select. destruct (_ =? _)%nat; [done|].
    apply (asked_in oids) in Ha; [|done]. induction (oids _) as [|x ids IH]; [by apply elem_of_nil in Ha|]. cbn.
    apply elem_of_cons in Ha as [->|Ha]; [by rewrite Hn|]. destruct (reader x); [|done]. cbn.
    specialize (IH Ha). destruct (gather_samples _ _ _ ids); [done|]. done.
Qed.
Theorem C79_reads_asked : ∀ reader reader' order oids ms,
  iterates_ids oids -> (∀ id, asks ms id -> reader id = reader' id) ->
  select reader order oids ms = select reader' order oids ms ∧
  (∀ id, asks ms id -> reader id = None -> select reader order oids ms = None).
Proof. exact reads_asked. Qed.
Print Assumptions C79_reads_asked.

(** ** C80: rewriting the source ids of a query *)
(** When every id asked for has a non-empty expansion free of '|', each selector of the rewritten query asks
    for exactly the expansions of what the original asked for, and its other matchers are unchanged. *)
Lemma rewritten sets e :
  (∀ k ids, sets !! k = Some ids -> Forall (fun x => has_char "|" x = false) ids ∧ ids ≠ []) ->
  (∀ ms x, selector_of e ms -> asks ms x -> is_Some (sets !! x)) ->
  ∀ ms', selector_of (replace_ids sets e) ms' ->
    ∃ ms, selector_of e ms ∧
      (∀ id, asks ms' id ↔ ∃ x ids, asks ms x ∧ sets !! x = Some ids ∧ id ∈ ids) ∧
      filter (fun m => lm_name m ≠ "source_id") ms' = filter (fun m => lm_name m ≠ "source_id") ms.
Proof.
  intros H1 H2 ms' Hs. apply selector_of_replace in Hs as (ms & Hs & ->). exists ms. split; [done|]. split.
  - intros id. apply replace_selector; [done|]. intros x Hx. by eapply H2.
  - clear. induction ms as [|m ms IH]; [done|]. rewrite fmap_cons, !filter_cons, replace_matcher_name, IH.
    destruct (decide (lm_name m ≠ "source_id")) as [Hn|]; [|done].
    unfold replace_matcher. rewrite bool_decide_false by done. done.
Qed.
Theorem C80_rewrite_partial : ∀ sets e,
  (∀ k ids, sets !! k = Some ids -> Forall (fun x => has_char "|" x = false) ids ∧ ids ≠ []) ->
  (∀ ms x, selector_of e ms -> asks ms x -> is_Some (sets !! x)) ->
  ∀ ms', selector_of (replace_ids sets e) ms' ->
    ∃ ms, selector_of e ms ∧
      (∀ id, asks ms' id ↔ ∃ x ids, asks ms x ∧ sets !! x = Some ids ∧ id ∈ ids) ∧
      filter (fun m => lm_name m ≠ "source_id") ms' = filter (fun m => lm_name m ≠ "source_id") ms.
Proof. exact rewritten. Qed.
Print Assumptions C80_rewrite_partial.
(** An expansion containing '|' is taken for two ids. *)
Lemma bar_expansion : ∃ sets e ms' id, sets !! "app" = Some ["x|victim"; "y"] ∧
  (∀ ms x, selector_of e ms -> asks ms x -> x = "app") ∧
  selector_of (replace_ids sets e) ms' ∧ asks ms' id ∧ id ∉ ["x|victim"; "y"].
Proof.
  exists {["app" := ["x|victim"; "y"]]}, (ESelector false "" [mk_matcher "source_id" MatchEqual "app"]).
  exists [mk_matcher "source_id" MatchRegexp "x|victim|y"], "victim".
  split; [vm_compute; reflexivity|]. split; [|split; [|split]].
  - intros ms x Hs (m & Hm & Hn & H). inversion Hs; subst. apply elem_of_list_singleton in Hm as ->.
    destruct H as [[_ <-]|[? _]]; done.
  - change (replace_ids _ _) with (ESelector false "" [mk_matcher "source_id" MatchRegexp "x|victim|y"]). constructor.
  - eexists. split; [left|]. split; [done|]. right. split; [done|]. apply alternative_split. vm_compute. right; left.
  - rewrite !elem_of_cons, elem_of_nil. intros [?|[?|[]]]; done.
Qed.
Theorem C80_bar_refuted : ∃ sets e ms' id, sets !! "app" = Some ["x|victim"; "y"] ∧
  (∀ ms x, selector_of e ms -> asks ms x -> x = "app") ∧
  selector_of (replace_ids sets e) ms' ∧ asks ms' id ∧ id ∉ ["x|victim"; "y"].
Proof. exact bar_expansion. Qed.
Print Assumptions C80_bar_refuted.
Definition sets_ex : gmap string (list string) := {["app" := ["g1"; "g2"]; "svc" := ["svc"]]}.
Definition expr_ex : expr :=
  ENode "+" [ESelector false "" [mk_matcher "__name__" MatchEqual "m"; mk_matcher "source_id" MatchRegexp "app|svc"];
             ENode "sum" [ESelector true "5m" [mk_matcher "source_id" MatchEqual "svc"; mk_matcher "job" MatchNotEqual "x"]]].
Example C80_case :
  (∀ k ids, sets_ex !! k = Some ids -> Forall (fun x => has_char "|" x = false) ids ∧ ids ≠ []) ∧
  (∀ ms x, selector_of expr_ex ms -> asks ms x -> is_Some (sets_ex !! x)) ∧
  replace_ids sets_ex expr_ex =
  ENode "+" [ESelector false "" [mk_matcher "__name__" MatchEqual "m"; mk_matcher "source_id" MatchRegexp "g1|g2|svc"];
             ENode "sum" [ESelector true "5m" [mk_matcher "source_id" MatchEqual "svc"; mk_matcher "job" MatchNotEqual "x"]]].
Proof.
  split; [|split; [|vm_compute; reflexivity]].
  - intros k ids H. unfold sets_ex in H. apply lookup_insert_Some in H as [[<- <-]|[_ H]]; [split; [repeat constructor|done]|].
    apply lookup_singleton_Some in H as [<- <-]. split; [repeat constructor|done].
  - intros ms x Hs Ha. assert (H : x ∈ expr_ids expr_ex) by (apply expr_ids_spec; eauto).
    vm_compute in H. repeat (apply elem_of_cons in H as [->|H]; [vm_compute; eauto|]). by apply elem_of_nil in H.
Qed.
