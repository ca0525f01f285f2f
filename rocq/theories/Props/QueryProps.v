(** C101-C106: PromQL queries as a whole.  Vocabulary: Query/Spec.v, Promql/Spec.v.
    The evaluation engine, the libraries, the data and Go's map orders are
    arbitrary. *)
From Coq Require Import Ascii String ZArith.
From stdpp Require Import prelude gmap strings list.
From Verif.Base Require Import GoInt Envelope.
From Verif.Store Require Import Model Spec.
From Verif.Client Require Import Walk WalkSpec.
From Verif.Promql Require Import Model Spec.
From Verif.Query Require Import Model Spec Proofs ProofsStore.
From Verif.Times Require Model Spec Proofs.
Open Scope Z_scope.

(** ** A query to try: sum of two selections, one over two sources *)
Definition sel_a : list matcher := [mk_matcher "__name__" MatchEqual "req"; mk_matcher "source_id" MatchEqual "a"].
Definition sel_bc : list matcher := [mk_matcher "__name__" MatchEqual "req"; mk_matcher "source_id" MatchRegexp "b|c"].
Definition sel_none : list matcher := [mk_matcher "__name__" MatchEqual "req"].
Definition count_points (x : list series + string) : Z :=
  match x with inl ss => Z.of_nat (length (ss ≫= s_points)) | inr _ => 0 end.
(** an engine that ignores errors *)
Definition careless (ms1 ms2 : list matcher) (t : Z) : engine :=
  CallSelect (t - 300000) t ms1 (fun x =>
    CallSelect (t - 300000) t ms2 (fun y =>
      Return (inl (VVector [([("job", "sum")], (t, count_points x + count_points y))])))).
Definition toy (ms1 ms2 : list matcher) : libraries := mk_libs
  (fun s => if bool_decide (s = "1000") then inl 1000000000000 else inr "cannot parse")
  (fun s => inr "cannot parse")
  (fun q t => if bool_decide (q = "sum") then inl (careless ms1 ms2 (t / 1000000)) else inr "parse error")
  (fun q a b d => inr "parse error").
Definition try_env (src : string) (ts : Z) : envelope := mk_env ts src "" ∅ ∅ (MCounter "req" 0 7).
Definition try_reader (i : nat) (r : data_read) : list envelope + string :=
  if bool_decide (dr_source r = "c") then inr "unavailable" else inl [try_env (dr_source r) (dr_start r + 5)].
Definition try_order (m : gmap string gauge_value) := map_to_list m.
Definition try_ids (x : gset string) := elements x.
Definition try_series (b : gmap string series) := (map_to_list b).*2.
Definition try (ms1 ms2 : list matcher) (time q : string) :=
  instant_query (fun _ => "") (toy ms1 ms2) try_reader try_order try_ids try_series 7777777777 time q.

(** * C101: failed reads are not taken for missing data *)
(** If a read of the query failed or a selector named no source, the call fails with such an error, whatever the
    engine made of it, and the failure is counted once; otherwise nothing is counted. *)
Lemma finish_trouble reader order oids oser eng conv evs n out :
  iterates_ids oids -> finish conv (exec reader order oids oser eng 0 None) = (evs, n, out) ->
  (trouble evs -> n = 1 ∧ ∃ e, out = Failed e ∧
     (failed_read evs e ∨ ∃ ms, sourceless evs ms ∧ e = no_source_id (sel_metric ms))) ∧
  (¬ trouble evs -> n = 0 ∧ ∃ r, returns eng r ∧ out = conv r).
Proof.
  intros Ho H. destruct (exec reader order oids oser eng 0 None) as [[evs' c] r] eqn:E.
  destruct (exec_trouble _ _ _ _ Ho _ _ _ _ _ _ E) as (H1 & H2 & H3).
  unfold finish in H. destruct c as [e|]; injection H as <- <- <-.
  - split; [|intros Hn; specialize (H2 Hn); discriminate]. intros Ht. split; [done|].
    destruct (H3 Ht) as (e' & He & Hx). injection He as <-. eauto.
  - split; [|eauto]. intros Ht. destruct (H3 Ht) as (e' & He & _). discriminate.
Qed.
Lemma no_trouble : ¬ trouble [].
Proof. intros [(e & r & Hr)|(ms & a & b & Hr & _)]; by apply elem_of_nil in Hr. Qed.
Theorem C101_instant : ∀ fmt L reader order oids oser now time query evs n out,
  iterates_ids oids -> instant_query fmt L reader order oids oser now time query = (evs, n, out) ->
  (trouble evs -> n = 1 ∧ ∃ e, out = Failed e ∧
     (failed_read evs e ∨ ∃ ms, sourceless evs ms ∧ e = no_source_id (sel_metric ms))) ∧
  (¬ trouble evs -> n = 0).
Proof.
  intros fmt L reader order oids oser now time query evs n out Ho H. unfold instant_query in H.
  destruct (if bool_decide _ then _ else _) as [t|e]; [|injection H as <- <- <-; by pose proof no_trouble].
  destruct (lib_instant L query t) as [eng|e]; [|injection H as <- <- <-; by pose proof no_trouble].
  destruct (finish_trouble _ _ _ _ _ _ _ _ _ Ho H) as [H1 H2]. split; [done|]. intros Hn. by destruct (H2 Hn).
Qed.
Print Assumptions C101_instant.
Theorem C101_range : ∀ fmt L reader order oids oser start stop step query evs n out,
  iterates_ids oids -> range_query fmt L reader order oids oser start stop step query = (evs, n, out) ->
  (trouble evs -> n = 1 ∧ ∃ e, out = Failed e ∧
     (failed_read evs e ∨ ∃ ms, sourceless evs ms ∧ e = no_source_id (sel_metric ms))) ∧
  (¬ trouble evs -> n = 0).
Proof.
  intros fmt L reader order oids oser start stop step query evs n out Ho H. unfold range_query in H.
  destruct (lib_step L step) as [d|e]; [|injection H as <- <- <-; by pose proof no_trouble].
  destruct (lib_time L start) as [a|e]; [|injection H as <- <- <-; by pose proof no_trouble].
  destruct (lib_time L stop) as [b|e]; [|injection H as <- <- <-; by pose proof no_trouble].
  destruct (lib_range L query a b d) as [eng|e]; [|injection H as <- <- <-; by pose proof no_trouble].
  destruct (finish_trouble _ _ _ _ _ _ _ _ _ Ho H) as [H1 H2]. split; [done|]. intros Hn. by destruct (H2 Hn).
Qed.
Print Assumptions C101_range.
Example C101_case :
  iterates_ids try_ids ∧
  (try sel_a sel_bc "1000" "sum").2 = Failed "unavailable" ∧ (try sel_a sel_bc "1000" "sum").1.2 = 1 ∧
  (try sel_a sel_none "1000" "sum").2 = Failed "Metric 'req' does not have a 'source_id' label." ∧
  match (try sel_a sel_a "1000" "sum").2 with Answered (RVector [(_, p)]) => pp_value p = 2 | _ => False end.
Proof. split; [by intros x|]. repeat split; vm_compute; reflexivity. Qed.

(** * C102: a query reads the sources it asks for, in its window, and nothing else *)
(** Every read of a query belongs to the last selection the engine made before it: it is for a source that selection asks
    for, from a second before the window up to its end, and only for gauges, counters and timers. *)
Lemma read_of_selection reader order oids oser eng evs c out ok pre r f post :
  iterates_ids oids -> exec reader order oids oser eng 0 None = (evs, c, out) -> selects_only ok eng ->
  evs = pre ++ EvRead r f :: post ->
  ∃ pre1 a b ms mid, pre = pre1 ++ EvSelect a b ms :: mid ∧ Forall is_read mid ∧ ok ms ∧ asks ms (dr_source r) ∧
    (in64 (a * 1000000) -> in64 (a * 1000000 - 1000000000) -> dr_start r = a * 1000000 - 1000000000) ∧
    (in64 (b * 1000000) -> dr_end r = b * 1000000) ∧ ∀ t, t ∈ dr_types r ↔ t = T_GAUGE ∨ t = T_COUNTER ∨ t = T_TIMER.
Proof.
  intros Ho H Hok E. destruct (exec_blocks _ _ _ _ Ho _ _ _ _ _ _ H) as (_ & G).
  destruct (G ok Hok pre r f post E) as (p1 & a & b & ms & mid & -> & H1 & H2 & H3 & H4).
  exists p1, a, b, ms, mid. do 4 (split; [done|]). rewrite H4. unfold select_read. cbn [dr_start dr_end dr_types].
  split; [intros I1 I2; by rewrite (wrap64_id (a * 1000000)), wrap64_id|]. split; [intros I; by rewrite wrap64_id|].
  intros t. rewrite !elem_of_cons, elem_of_nil. intuition.
Qed.
Lemma anything eng : selects_only (fun _ => True) eng.
Proof. induction eng; constructor; auto. Qed.
Lemma of_instant fmt L reader order oids oser now time query evs n out ev :
  instant_query fmt L reader order oids oser now time query = (evs, n, out) -> ev ∈ evs ->
  ∃ eng c r t, lib_instant L query t = inl eng ∧ exec reader order oids oser eng 0 None = (evs, c, r).
Proof.
  intros H Hin. unfold instant_query in H.
  destruct (if bool_decide _ then _ else _) as [t|e]; [|injection H as <- <- <-; by apply elem_of_nil in Hin].
  destruct (lib_instant L query t) as [eng|e] eqn:El; [|injection H as <- <- <-; by apply elem_of_nil in Hin].
  destruct (exec reader order oids oser eng 0 None) as [[evs' c] r] eqn:E. exists eng, c, r, t. split; [done|].
  rewrite E. unfold finish in H. by destruct c; injection H as <- _ _.
Qed.
Lemma of_range fmt L reader order oids oser start stop step query evs n out ev :
  range_query fmt L reader order oids oser start stop step query = (evs, n, out) -> ev ∈ evs ->
  ∃ eng c r a b d, lib_range L query a b d = inl eng ∧ exec reader order oids oser eng 0 None = (evs, c, r).
Proof.
  intros H Hin. unfold range_query in H.
  destruct (lib_step L step) as [d|e]; [|injection H as <- <- <-; by apply elem_of_nil in Hin].
  destruct (lib_time L start) as [a|e]; [|injection H as <- <- <-; by apply elem_of_nil in Hin].
  destruct (lib_time L stop) as [b|e]; [|injection H as <- <- <-; by apply elem_of_nil in Hin].
  destruct (lib_range L query a b d) as [eng|e] eqn:El; [|injection H as <- <- <-; by apply elem_of_nil in Hin].
  destruct (exec reader order oids oser eng 0 None) as [[evs' c] r] eqn:E. exists eng, c, r, a, b, d. split; [done|].
  rewrite E. unfold finish in H. by destruct c; injection H as <- _ _.
Qed.
Lemma in_middle {A} (pre : list A) x post : x ∈ pre ++ x :: post.
Proof. apply elem_of_app. right. left. Qed.
Theorem C102_instant : ∀ fmt L reader order oids oser now time query evs n out pre r f post,
  iterates_ids oids -> instant_query fmt L reader order oids oser now time query = (evs, n, out) ->
  evs = pre ++ EvRead r f :: post ->
  ∃ pre1 a b ms mid, pre = pre1 ++ EvSelect a b ms :: mid ∧ Forall is_read mid ∧ asks ms (dr_source r) ∧
    (in64 (a * 1000000) -> in64 (a * 1000000 - 1000000000) -> dr_start r = a * 1000000 - 1000000000) ∧
    (in64 (b * 1000000) -> dr_end r = b * 1000000) ∧ ∀ t, t ∈ dr_types r ↔ t = T_GAUGE ∨ t = T_COUNTER ∨ t = T_TIMER.
Proof.
  intros fmt L reader order oids oser now time query evs n out pre r f post Ho H E.
  destruct (of_instant _ _ _ _ _ _ _ _ _ _ _ _ (EvRead r f) H) as (eng & c & v & t & _ & Hx); [rewrite E; apply in_middle|].
  destruct (read_of_selection _ _ _ _ _ _ _ _ _ _ _ _ _ Ho Hx (anything eng) E) as (p & a & b & ms & mid & H1 & H2 & _ & H3).
  exists p, a, b, ms, mid. done.
Qed.
Print Assumptions C102_instant.
Theorem C102_range : ∀ fmt L reader order oids oser start stop step query evs n out pre r f post,
  iterates_ids oids -> range_query fmt L reader order oids oser start stop step query = (evs, n, out) ->
  evs = pre ++ EvRead r f :: post ->
  ∃ pre1 a b ms mid, pre = pre1 ++ EvSelect a b ms :: mid ∧ Forall is_read mid ∧ asks ms (dr_source r) ∧
    (in64 (a * 1000000) -> in64 (a * 1000000 - 1000000000) -> dr_start r = a * 1000000 - 1000000000) ∧
    (in64 (b * 1000000) -> dr_end r = b * 1000000) ∧ ∀ t, t ∈ dr_types r ↔ t = T_GAUGE ∨ t = T_COUNTER ∨ t = T_TIMER.
Proof.
  intros fmt L reader order oids oser start stop step query evs n out pre r f post Ho H E.
  destruct (of_range _ _ _ _ _ _ _ _ _ _ _ _ _ (EvRead r f) H) as (eng & c & v & x & y & d & _ & Hx); [rewrite E; apply in_middle|].
  destruct (read_of_selection _ _ _ _ _ _ _ _ _ _ _ _ _ Ho Hx (anything eng) E) as (p & a & b & ms & mid & H1 & H2 & _ & H3).
  exists p, a, b, ms, mid. done.
Qed.
Print Assumptions C102_range.
(** If the engine selects only with the selectors of the expression the query is parsed to, then only source ids are read
    that are extracted from that expression for authorisation. *)
Theorem C102_authorised : ∀ fmt L reader order oids oser now time query ex evs n out r f,
  iterates_ids oids -> (∀ t eng, lib_instant L query t = inl eng -> selects_only (selector_of ex) eng) ->
  instant_query fmt L reader order oids oser now time query = (evs, n, out) ->
  EvRead r f ∈ evs -> dr_source r ∈ id_set (expr_ids ex).
Proof.
  intros fmt L reader order oids oser now time query ex evs n out r f Ho Hok H Hin.
  destruct (of_instant _ _ _ _ _ _ _ _ _ _ _ _ _ H Hin) as (eng & c & v & t & Hl & Hx).
  apply elem_of_list_split in Hin as (pre & post & E).
  destruct (read_of_selection _ _ _ _ _ _ _ _ _ _ _ _ _ Ho Hx (Hok _ _ Hl) E) as (p & a & b & ms & mid & _ & _ & Hs & Ha & _).
  unfold id_set. apply elem_of_list_to_set, ProofsSelect.expr_ids_spec. eauto.
Qed.
Print Assumptions C102_authorised.
Theorem C102_authorised_range : ∀ fmt L reader order oids oser start stop step query ex evs n out r f,
  iterates_ids oids -> (∀ a b d eng, lib_range L query a b d = inl eng -> selects_only (selector_of ex) eng) ->
  range_query fmt L reader order oids oser start stop step query = (evs, n, out) ->
  EvRead r f ∈ evs -> dr_source r ∈ id_set (expr_ids ex).
Proof.
  intros fmt L reader order oids oser start stop step query ex evs n out r f Ho Hok H Hin.
  destruct (of_range _ _ _ _ _ _ _ _ _ _ _ _ _ _ H Hin) as (eng & c & v & x & y & d & Hl & Hx).
  apply elem_of_list_split in Hin as (pre & post & E).
  destruct (read_of_selection _ _ _ _ _ _ _ _ _ _ _ _ _ Ho Hx (Hok _ _ _ _ Hl) E) as (p & a & b & ms & mid & _ & _ & Hs & Ha & _).
  unfold id_set. apply elem_of_list_to_set, ProofsSelect.expr_ids_spec. eauto.
Qed.
Print Assumptions C102_authorised_range.
(** For each selection every source it asks for is read once, unless a read fails; after a failed read nothing more is read
    for it. *)
Theorem C102_each_once : ∀ fmt L reader order oids oser now time query evs n out a b ms rs,
  iterates_ids oids -> instant_query fmt L reader order oids oser now time query = (evs, n, out) ->
  block evs a b ms rs ->
  NoDup (sources rs) ∧ ((∀ e, ¬ failed_read rs e) -> ∀ id, asks ms id ↔ id ∈ sources rs) ∧
  (∀ pre r e post, rs = pre ++ EvRead r (Some e) :: post -> post = []).
Proof.
  intros fmt L reader order oids oser now time query evs n out a b ms rs Ho H Hb.
  destruct (of_instant _ _ _ _ _ _ _ _ _ _ _ _ (EvSelect a b ms) H) as (eng & c & v & t & _ & Hx).
  { destruct Hb as (p & q & -> & _). apply in_middle. }
  exact (exec_block _ _ _ _ Ho _ _ _ _ _ _ Hx a b ms rs Hb).
Qed.
Print Assumptions C102_each_once.
Theorem C102_each_once_range : ∀ fmt L reader order oids oser start stop step query evs n out a b ms rs,
  iterates_ids oids -> range_query fmt L reader order oids oser start stop step query = (evs, n, out) ->
  block evs a b ms rs ->
  NoDup (sources rs) ∧ ((∀ e, ¬ failed_read rs e) -> ∀ id, asks ms id ↔ id ∈ sources rs) ∧
  (∀ pre r e post, rs = pre ++ EvRead r (Some e) :: post -> post = []).
Proof.
  intros fmt L reader order oids oser start stop step query evs n out a b ms rs Ho H Hb.
  destruct (of_range _ _ _ _ _ _ _ _ _ _ _ _ _ (EvSelect a b ms) H) as (eng & c & v & x & y & d & _ & Hx).
  { destruct Hb as (p & q & -> & _). apply in_middle. }
  exact (exec_block _ _ _ _ Ho _ _ _ _ _ _ Hx a b ms rs Hb).
Qed.
Print Assumptions C102_each_once_range.
Example C102_case :
  (∀ t eng, lib_instant (toy sel_a sel_bc) "sum" t = inl eng ->
     selects_only (selector_of (ENode "+" [ESelector false "" sel_a; ESelector false "" sel_bc])) eng) ∧
  (try sel_a sel_bc "1000" "sum").1.1 =
    [EvSelect 700000 1000000 sel_a; EvRead (mk_dr "a" 699000000000 1000000000000 [T_GAUGE; T_COUNTER; T_TIMER]) None;
     EvSelect 700000 1000000 sel_bc; EvRead (mk_dr "b" 699000000000 1000000000000 [T_GAUGE; T_COUNTER; T_TIMER]) None;
     EvRead (mk_dr "c" 699000000000 1000000000000 [T_GAUGE; T_COUNTER; T_TIMER]) (Some "unavailable")].
Proof.
  split; [|vm_compute; reflexivity]. intros t eng H. injection H as <-. unfold careless.
  constructor; [apply sel_below with (ESelector false "" sel_a); [left|constructor]|]. intros x.
  constructor; [apply sel_below with (ESelector false "" sel_bc); [right; left|constructor]|]. intros y. constructor.
Qed.

(** * C103: the answer is what the engine found *)
(** Without trouble the call either failed before reading anything or ends as the evaluation did: an error is passed on, a
    scalar, vector or matrix is answered with the same samples, series and points in the same order, the same labels,
    values and times (written exactly, with three decimals). *)
Definition in_seconds (s : string) (ms : Z) : Prop := Times.Spec.decimal s ms 3.
Lemma exact_times v : Forall (fun t => Z.abs t <= 4 * 10 ^ 15) (times_in v) ->
  Forall (fun t => in_seconds (Times.Model.format_promql_time t) t) (times_in v).
Proof. intros H. eapply Forall_impl; [exact H|]. intros t Ht. by apply Times.Proofs.promql_time_exact. Qed.
Lemma asked L now time t : (if bool_decide (time = "") then inl (trunc_second now) else lib_time L time) = inl t <-> asked_time L now time t.
Proof.
  unfold asked_time. split.
  - case_bool_decide as E; intros H; [left|right; done]. split; [done|]. injection H as <-. unfold trunc_second.
    pose proof (Z.mod_pos_bound now 1000000000 ltac:(lia)). split; [|lia].
    rewrite Zminus_mod, Zmod_mod, Z.sub_diag. done.
  - intros [(-> & Hm & Hr)|[Hne Ht]]; [rewrite bool_decide_true by done|by rewrite bool_decide_false]. f_equal.
    unfold trunc_second. pose proof (Z.div_mod now 1000000000 ltac:(lia)). pose proof (Z.mod_pos_bound now 1000000000 ltac:(lia)).
    pose proof (Z.div_mod t 1000000000 ltac:(lia)). nia.
Qed.
Theorem C103_instant : ∀ L reader order oids oser now time query evs n out,
  iterates_ids oids ->
  instant_query Times.Model.format_promql_time L reader order oids oser now time query = (evs, n, out) -> ¬ trouble evs ->
  (evs = [] ∧ ∃ e, out = Failed e ∧
     ((time ≠ "" ∧ lib_time L time = inr e) ∨ ∃ t, asked_time L now time t ∧ lib_instant L query t = inr e)) ∨
  ∃ t eng r, asked_time L now time t ∧ lib_instant L query t = inl eng ∧ returns eng r ∧
    match r with
    | inr e => out = Failed e
    | inl (VString _ _) => out = Crashed
    | inl v => ∃ res, out = Answered res ∧
        (Forall (fun t => Z.abs t <= 4 * 10 ^ 15) (times_in v) -> carries in_seconds v res)
    end.
Proof.
  intros L reader order oids oser now time query evs n out Ho H Hn. unfold instant_query in H.
  destruct (if bool_decide _ then _ else _) as [t|e] eqn:Et; [apply asked in Et|].
  2:{ injection H as <- <- <-. left. split; [done|]. exists e. split; [done|]. left. by case_bool_decide. }
  destruct (lib_instant L query t) as [eng|e] eqn:El; [|injection H as <- <- <-; left; eauto 8].
  destruct (finish_trouble _ _ _ _ _ _ _ _ _ Ho H) as [_ H2]. destruct (H2 Hn) as (_ & r & Hr & ->).
  right. exists t, eng, r. split; [done|]. split; [done|]. split; [done|]. destruct r as [[t0 v|ss|ss|t0 x]|e]; cbn [to_instant_result]; try done.
  - eexists. split; [done|]. intros Ht. constructor. apply exact_times in Ht. by inversion Ht.
  - eexists. split; [done|]. intros Ht. apply vector_carries. by apply exact_times in Ht.
  - eexists. split; [done|]. intros Ht. apply matrix_carries. by apply exact_times in Ht.
Qed.
Print Assumptions C103_instant.
Theorem C103_range : ∀ L reader order oids oser start stop step query evs n out,
  iterates_ids oids ->
  range_query Times.Model.format_promql_time L reader order oids oser start stop step query = (evs, n, out) -> ¬ trouble evs ->
  (evs = [] ∧ ∃ e, out = Failed e ∧
     ((∃ x, lib_step L step = inr x ∧ e = append "couldn't parse step: " x) ∨
      (∃ x, lib_time L start = inr x ∧ e = append "couldn't parse start: " x) ∨
      (∃ x, lib_time L stop = inr x ∧ e = append "couldn't parse end: " x) ∨
      ∃ a b d, lib_step L step = inl d ∧ lib_time L start = inl a ∧ lib_time L stop = inl b ∧ lib_range L query a b d = inr e)) ∨
  ∃ a b d eng r, lib_step L step = inl d ∧ lib_time L start = inl a ∧ lib_time L stop = inl b ∧
    lib_range L query a b d = inl eng ∧ returns eng r ∧
    match r with
    | inr e => out = Failed e
    | inl (VMatrix ss) => ∃ res, out = Answered res ∧
        (Forall (fun t => Z.abs t <= 4 * 10 ^ 15) (times_in (VMatrix ss)) -> carries in_seconds (VMatrix ss) res)
    | inl _ => out = Crashed
    end.
Proof.
  intros L reader order oids oser start stop step query evs n out Ho H Hn. unfold range_query in H.
  destruct (lib_step L step) as [d|e]; [|injection H as <- <- <-; left; split; [done|]; eexists; split; [done|]; left; by exists e].
  destruct (lib_time L start) as [a|e]; [|injection H as <- <- <-; left; split; [done|]; eexists; split; [done|]; right; left; by exists e].
  destruct (lib_time L stop) as [b|e]; [|injection H as <- <- <-; left; split; [done|]; eexists; split; [done|]; right; right; left; by exists e].
  destruct (lib_range L query a b d) as [eng|e] eqn:El; [|injection H as <- <- <-; left; split; [done|]; eexists; split; [done|]; right; right; right; by exists a, b, d].
  destruct (finish_trouble _ _ _ _ _ _ _ _ _ Ho H) as [_ H2]. destruct (H2 Hn) as (_ & r & Hr & ->).
  right. exists a, b, d, eng, r. do 5 (split; [done|]). destruct r as [[t0 v|ss|ss|t0 x]|e]; cbn [to_range_result]; try done.
  eexists. split; [done|]. intros Ht. apply matrix_carries. by apply exact_times in Ht.
Qed.
Print Assumptions C103_range.
Example C103_case :
  ¬ trouble (try sel_a sel_a "1000" "sum").1.1 ∧
  ∃ res, (try sel_a sel_a "1000" "sum").2 = Answered res ∧ res = RVector [({["job" := "sum"]}, mk_pp "" 2)].
Proof.
  split.
  - assert (E : (try sel_a sel_a "1000" "sum").1.1 =
      [EvSelect 700000 1000000 sel_a; EvRead (mk_dr "a" 699000000000 1000000000000 [T_GAUGE; T_COUNTER; T_TIMER]) None;
       EvSelect 700000 1000000 sel_a; EvRead (mk_dr "a" 699000000000 1000000000000 [T_GAUGE; T_COUNTER; T_TIMER]) None])
      by (vm_compute; reflexivity).
    rewrite E. intros [(e & r & Hr)|(ms & a & b & Hr & Hno)].
    + repeat (apply elem_of_cons in Hr as [Hr|Hr]; [discriminate|]). by apply elem_of_nil in Hr.
    + apply (Hno "a"). exists (mk_matcher "source_id" MatchEqual "a"). split; [|split; [done|left; done]].
      repeat (apply elem_of_cons in Hr as [Hr|Hr]; [first [discriminate | injection Hr as -> -> ->; right; left]|]). by apply elem_of_nil in Hr.
  - eexists. split; vm_compute; reflexivity.
Qed.

(** * C104: a query that is not understood is refused and reads nothing *)
(** Given time, or without one the current time rounded down to a second; if it, the step or the expression is refused, the
    call fails with that error. *)
Theorem C104_instant : ∀ fmt L reader order oids oser now time query,
  (∀ e, time ≠ "" -> lib_time L time = inr e ->
     instant_query fmt L reader order oids oser now time query = ([], 0, Failed e)) ∧
  (∀ t e, asked_time L now time t -> lib_instant L query t = inr e ->
     instant_query fmt L reader order oids oser now time query = ([], 0, Failed e)).
Proof.
  intros fmt L reader order oids oser now time query. unfold instant_query. split.
  - intros e Hne He. rewrite bool_decide_false by done. by rewrite He.
  - intros t e Ht He. apply asked in Ht. by rewrite Ht, He.
Qed.
Print Assumptions C104_instant.
Theorem C104_range : ∀ fmt L reader order oids oser start stop step query,
  (is_Some (match lib_step L step with inr e => Some e | inl _ => None end) ∨
   is_Some (match lib_time L start with inr e => Some e | inl _ => None end) ∨
   is_Some (match lib_time L stop with inr e => Some e | inl _ => None end) ∨
   (∀ a b d, lib_step L step = inl d -> lib_time L start = inl a -> lib_time L stop = inl b -> ∃ e, lib_range L query a b d = inr e)) ->
  ∃ e, range_query fmt L reader order oids oser start stop step query = ([], 0, Failed e).
Proof.
  intros fmt L reader order oids oser start stop step query H. unfold range_query.
  destruct (lib_step L step) as [d|e1]; [|eauto]. destruct (lib_time L start) as [a|e2]; [|eauto].
  destruct (lib_time L stop) as [b|e3]; [|eauto].
  destruct H as [[? ?]|[[? ?]|[[? ?]|H]]]; [done..|]. destruct (H a b d eq_refl eq_refl eq_refl) as [e ->]. eauto.
Qed.
Print Assumptions C104_range.
Example C104_case :
  try sel_a sel_a "noon" "sum" = ([], 0, Failed "cannot parse") ∧ try sel_a sel_a "" "((" = ([], 0, Failed "parse error") ∧
  range_query (fun _ => "") (toy sel_a sel_a) try_reader try_order try_ids try_series "1000" "1000" "1m" "sum" =
    ([], 0, Failed "couldn't parse step: cannot parse").
Proof. repeat split; vm_compute; reflexivity. Qed.

(** * C105: a query ends the process only if it evaluates to something no answer can hold *)
Theorem C105_instant : ∀ fmt L reader order oids oser now time query evs n,
  iterates_ids oids -> instant_query fmt L reader order oids oser now time query = (evs, n, Crashed) ->
  ∃ t eng t' s, lib_instant L query t = inl eng ∧ returns eng (inl (VString t' s)).
Proof.
  intros fmt L reader order oids oser now time query evs n Ho H. unfold instant_query in H.
  destruct (if bool_decide _ then _ else _) as [t|e]; [|discriminate].
  destruct (lib_instant L query t) as [eng|e] eqn:El; [|discriminate].
  destruct (exec reader order oids oser eng 0 None) as [[evs' c] r] eqn:E.
  destruct (exec_trouble _ _ _ _ Ho _ _ _ _ _ _ E) as (Hr & _).
  destruct c; [discriminate|]. cbn in H. destruct r as [[]|]; try discriminate. eauto 6.
Qed.
Print Assumptions C105_instant.
Theorem C105_range : ∀ fmt L reader order oids oser start stop step query evs n,
  iterates_ids oids -> range_query fmt L reader order oids oser start stop step query = (evs, n, Crashed) ->
  ∃ a b d eng v, lib_range L query a b d = inl eng ∧ returns eng (inl v) ∧ ∀ ss, v ≠ VMatrix ss.
Proof.
  intros fmt L reader order oids oser start stop step query evs n Ho H. unfold range_query in H.
  destruct (lib_step L step) as [d|e]; [|discriminate]. destruct (lib_time L start) as [a|e]; [|discriminate].
  destruct (lib_time L stop) as [b|e]; [|discriminate]. destruct (lib_range L query a b d) as [eng|e] eqn:El; [|discriminate].
  destruct (exec reader order oids oser eng 0 None) as [[evs' c] r] eqn:E.
  destruct (exec_trouble _ _ _ _ Ho _ _ _ _ _ _ E) as (Hr & _). exists a, b, d, eng.
  destruct c; [discriminate|]. cbn in H. destruct r as [[]|]; try discriminate; eexists; (split; [done|]); (split; [exact Hr|]); done.
Qed.
Print Assumptions C105_range.
(** And then it does. *)
Definition text_query : libraries := mk_libs (fun _ => inl 0) (fun _ => inl 0) (fun q t => inl (Return (inl (VString 0 "hello"))))
  (fun q a b d => inl (Return (inl (VScalar 0 1)))).
Example C105_case :
  (instant_query (fun _ => "") text_query try_reader try_order try_ids try_series 0 "1" "hello").2 = Crashed ∧
  (range_query (fun _ => "") text_query try_reader try_order try_ids try_series "1" "2" "1" "1").2 = Crashed.
Proof. split; reflexivity. Qed.

(** * C106: what is stored is found by queries *)
(** False: an envelope at exactly the end of the window, the instant a query is evaluated at, is not found. *)
Definition edge_ops : list op := [OPut (try_env "a" 1000000000000) "a" 0].
Definition no_re (s : string) : option (string -> bool) := None.
Definition edge_select (mint maxt : Z) :=
  match run (new_store 5) edge_ops with
  | Some s => Some (select_run (node_reader (fun _ src => store_reader no_re (fun _ => 2000000000000) (fun _ => 2000000000000) s src)
      (fun _ => false) 4) try_order try_ids try_series mint maxt sel_a 0)
  | None => None
  end.
Theorem C106_end_refuted : ∃ s evs,
  run (new_store 5) edge_ops = Some s ∧ (stored s "a").*2 = [try_env "a" (1000000 * 1000000)] ∧
  select_run (node_reader (fun _ src => store_reader no_re (fun _ => 2000000000000) (fun _ => 2000000000000) s src)
      (fun _ => false) 4) try_order try_ids try_series 700000 1000000 sel_a 0 = (evs, inl []).
Proof.
  destruct (run (new_store 5) edge_ops) as [s|] eqn:E; [|exfalso; vm_compute in E; discriminate].
  vm_compute in E. injection E as <-. eexists _, _. split; [reflexivity|]. split; vm_compute; reflexivity.
Qed.
Print Assumptions C106_end_refuted.
(** Over a node's store (of envelopes with distinct times per source, at least a second old), a selection for one metric with
    a plain selector finds exactly the stored gauges, counters and timers of the sources it asks for, from a second before its
    window up to, but without, its end, whose labels satisfy the selector. *)
Theorem C106_found_partial : ∀ compile nclock clock m ops s re order oids oser metric ms mint maxt n i evs r,
  1 <= m -> run (new_store m) ops = Some s ->
  (∀ x, Forall sane_time (puts_to x ops)) -> (∀ x, NoDup (e_ts <$> puts_to x ops)) ->
  (∀ src, Forall (fun e => e_source e = src) (puts_to src ops)) ->
  iterates order -> iterates_ids oids -> iterates_series oser ->
  plain_selector re metric ms -> (∃ id, asks ms id) ->
  in64 (mint * 1000000) -> in64 (mint * 1000000 - 1000000000) -> in64 (maxt * 1000000) -> mint <= maxt -> maxt ≠ 0 ->
  (∀ k j src e, e ∈ (stored s src).*2 -> mint * 1000000 - 1000000000 <= e_ts e < maxt * 1000000 ->
     e_ts e <= wrap64 (clock k j - 1000000000)) ->
  (∀ src, (length (stored s src) < n)%nat) ->
  select_run (node_reader (fun k src => store_reader compile (nclock k) (clock k) s src) (fun _ => false) n)
    order oids oser mint maxt ms i = (evs, r) ->
  ∃ ss, r = inl ss ∧
    (∀ se p, se ∈ ss -> p ∈ s_points se -> ∃ src e l, asks ms src ∧ e ∈ (stored s src).*2 ∧
       mint * 1000000 - 1000000000 <= e_ts e < maxt * 1000000 ∧ sample_of metric e l p ∧
       Forall (fun x => lm_name x ≠ "__name__" -> satisfies re l x) ms ∧ series_id l = series_id (s_tags se)) ∧
    (Forall (fun x => lm_name x ≠ "__name__" -> lm_name x ≠ "source_id" -> lm_value x ≠ "") ms ->
     ∀ src e l v, asks ms src -> e ∈ (stored s src).*2 -> mint * 1000000 - 1000000000 <= e_ts e < maxt * 1000000 ->
       labels_of e l -> offers metric (e_msg e) v -> Forall (fun x => lm_name x ≠ "__name__" -> satisfies re l x) ms ->
       ∃ se p, se ∈ ss ∧ p ∈ s_points se ∧ sample_of metric e l p ∧ series_id l = series_id (s_tags se)).
Proof.
  intros compile nclock clock m ops s re order oids oser metric ms mint maxt n i evs r Hm Hr H1 H2 H3 Ho Hoi Hos Hp Ha B1 B2 B3 Hle H0 Hold Hn.
  by apply (store_select compile nclock clock m ops s Hm Hr H1 H2 re order oids oser Ho Hoi Hos).
Qed.
Print Assumptions C106_found_partial.
Example C106_case :
  plain_selector (fun _ _ => False) "req" sel_a ∧
  match edge_select 999000 1001000 with
  | Some (_, inl [se]) => s_points se = [mk_point 1000000 (FromCounter 7)]
  | _ => False
  end.
Proof.
  split; [|vm_compute; reflexivity]. split.
  - intros x Hx Hn. repeat (apply elem_of_cons in Hx as [->|Hx]; [done|]). by apply elem_of_nil in Hx.
  - eexists. split; [left|done].
  - intros x y Hx Hy Nx Ny. repeat (apply elem_of_cons in Hx as [->|Hx]; [first [discriminate | idtac]|]); [|by apply elem_of_nil in Hx].
    repeat (apply elem_of_cons in Hy as [->|Hy]; [first [discriminate | done]|]). by apply elem_of_nil in Hy.
  - intros x Hx Hn Ht. repeat (apply elem_of_cons in Hx as [->|Hx]; [done|]). by apply elem_of_nil in Hx.
  - intros x Hx N1 N2. repeat (apply elem_of_cons in Hx as [->|Hx]; [done|]). by apply elem_of_nil in Hx.
Qed.
