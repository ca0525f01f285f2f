(** Reads that run out of time. *)
From stdpp Require Import prelude gmap strings list.
From Verif.Base Require Import GoInt Envelope.
From Verif.Client Require Import Walk.
From Verif.Promql Require Import Model Spec.
From Verif.Query Require Import Model Spec Proofs SpecDeadline.
Open Scope Z_scope.

Section Deadline.
Context (reader : data_reader) (order : gmap string gauge_value -> list (string * gauge_value))
  (oids : gset string -> list string) (oser : gmap string series -> list series).
Definition outcome_of (x : list envelope + error) : option error := match x with inl _ => None | inr e => Some e end.

Lemma reads_app a b : reads (a ++ b) = reads a ++ reads b.
Proof. unfold reads. by rewrite omap_app. Qed.
Lemma reads_length evs : length (reads evs) = reads_in evs.
Proof.
  induction evs as [|ev evs IH]; [done|]. destruct ev.
  - change (reads (EvSelect mint maxt ms :: evs)) with (reads evs). rewrite IH. done.
  - change (reads (EvRead r failed :: evs)) with ((r, failed) :: reads evs). cbn [length]. rewrite IH. done.
Qed.
Lemma gather_answers mint maxt ms ids : forall i evs r, gather reader order mint maxt ms i ids = (evs, r) ->
  forall j q o, reads evs !! j = Some (q, o) -> o = outcome_of (reader (i + j)%nat q).
Proof.
  induction ids as [|id ids IH]; intros i evs r H j q o Hj; cbn in H.
  { injection H as <- _. done. }
  destruct (reader i (select_read mint maxt id)) as [es|e] eqn:E.
  - destruct (gather reader order mint maxt ms (S i) ids) as [evs' rest] eqn:Eg. injection H as <- _.
    destruct j as [|j]; cbn in Hj.
    + injection Hj as <- <-. by rewrite Nat.add_0_r, E.
    + rewrite (IH _ _ _ Eg _ _ _ Hj). do 2 f_equal. lia.
  - injection H as <- _. destruct j as [|j]; cbn in Hj; [|done]. injection Hj as <- <-. by rewrite Nat.add_0_r, E.
Qed.
Lemma select_answers mint maxt ms i evs r : select_run reader order oids oser mint maxt ms i = (evs, r) ->
  forall j q o, reads evs !! j = Some (q, o) -> o = outcome_of (reader (i + j)%nat q).
Proof.
  unfold select_run. destruct (length _ =? 0)%nat; [by intros [= <- _]|].
  destruct (gather _ _ _ _ _ _ _) as [evs' r'] eqn:E. intros [= <- _]. by eapply gather_answers.
Qed.
Lemma exec_answers e : forall i c evs c' out, exec reader order oids oser e i c = (evs, c', out) ->
  forall j q o, reads evs !! j = Some (q, o) -> o = outcome_of (reader (i + j)%nat q).
Proof.
  induction e as [r|mint maxt ms k IH]; intros i c evs c' out H j q o Hj; cbn in H.
  { injection H as <- _ _. done. }
  destruct (select_run reader order oids oser mint maxt ms i) as [evs1 r] eqn:Es.
  destruct (exec _ _ _ _ (k r) _ _) as [[evs2 c2] out2] eqn:Ee. injection H as <- _ _.
  change (reads (EvSelect mint maxt ms :: evs1 ++ evs2)) with (reads (evs1 ++ evs2)) in Hj. rewrite reads_app in Hj.
  apply lookup_app_Some in Hj as [Hj|[Hge Hj]]; [by eapply select_answers|].
  rewrite (IH _ _ _ _ _ _ Ee _ _ _ Hj). rewrite reads_length in *. do 2 f_equal. lia.
Qed.
End Deadline.

Lemma reads_elem evs j q e : reads evs !! j = Some (q, Some e) -> failed_read evs e.
Proof.
  intros H. apply elem_of_list_lookup_2, elem_of_list_omap in H as (ev & Hin & E).
  destruct ev; [done|]. injection E as -> ->. by exists q.
Qed.
Lemma node_outcome cache ctx m i q : outcome_of (node_reader cache ctx m i q) = if ctx i then Some "context deadline exceeded" else None.
Proof. unfold node_reader, walking_read. by destruct (ctx i). Qed.
Lemma node_failed cache ctx m order oids oser e i c evs c' out err :
  exec (node_reader cache ctx m) order oids oser e i c = (evs, c', out) ->
  failed_read evs err -> err = "context deadline exceeded" /\ exists j, (j < length (reads evs))%nat /\ ctx (i + j)%nat = true.
Proof.
  intros H [q Hq]. assert (Hin : (q, Some err) ∈ reads evs).
  { apply elem_of_list_omap. eexists. by split. }
  apply elem_of_list_lookup in Hin as [j Hj]. pose proof (exec_answers _ _ _ _ _ _ _ _ _ _ H _ _ _ Hj) as E.
  rewrite node_outcome in E. apply lookup_lt_Some in Hj. destruct (ctx (i + j)%nat) eqn:Ec; [|done]. injection E as ->. eauto.
Qed.

(** ** Readers that answer the same *)
Section Ext.
Context (r1 r2 : data_reader) (order : gmap string gauge_value -> list (string * gauge_value))
  (oids : gset string -> list string) (oser : gmap string series -> list series) (Heq : forall i q, r1 i q = r2 i q).
Lemma gather_ext mint maxt ms ids : forall i, gather r1 order mint maxt ms i ids = gather r2 order mint maxt ms i ids.
Proof. induction ids as [|id ids IH]; intros i; [done|]. cbn. rewrite Heq. destruct (r2 _ _); [|done]. by rewrite IH. Qed.
Lemma exec_ext e : forall i c, exec r1 order oids oser e i c = exec r2 order oids oser e i c.
Proof.
  induction e as [r|mint maxt ms k IH]; intros i c; [done|]. cbn.
  assert (E : select_run r1 order oids oser mint maxt ms i = select_run r2 order oids oser mint maxt ms i).
  { unfold select_run. by rewrite gather_ext. }
  rewrite E. destruct (select_run r2 order oids oser mint maxt ms i) as [evs r]. by rewrite IH.
Qed.
Lemma instant_ext fmt L now time query :
  instant_query fmt L r1 order oids oser now time query = instant_query fmt L r2 order oids oser now time query.
Proof. unfold instant_query. destruct (if bool_decide _ then _ else _); [|done]. destruct (lib_instant L _ _); [|done]. by rewrite exec_ext. Qed.
End Ext.

Lemma trouble_dec evs : trouble evs \/ ~ trouble evs.
Proof.
  induction evs as [|ev evs IH].
  { right. intros [(e & r & Hr)|(ms & a & b & Hr & _)]; by apply elem_of_nil in Hr. }
  destruct IH as [IH|IH].
  { left. destruct IH as [(e & r & Hr)|(ms & a & b & Hr & Hs)].
    - left. exists e, r. by right.
    - right. exists ms, a, b. split; [by right|done]. }
  destruct ev as [a b ms|r [e|]].
  - destruct (selector_ids ms) as [|id ids] eqn:E.
    + left. right. exists ms, a, b. split; [by left|]. intros id H. apply ProofsSelect.selector_ids_spec in H. rewrite E in H. by apply elem_of_nil in H.
    + right. intros [(e & q & Hq)|(ms' & a' & b' & Hq & Hs)].
      * apply elem_of_cons in Hq as [Hq|Hq]; [done|]. apply IH. left. by exists e, q.
      * apply elem_of_cons in Hq as [Hq|Hq].
        -- injection Hq as _ _ ->. apply (Hs id), ProofsSelect.selector_ids_spec. rewrite E. by left.
        -- apply IH. right. by exists ms', a', b'.
  - left. left. exists e, r. by left.
  - right. intros [(e & q & Hq)|(ms' & a' & b' & Hq & Hs)].
    + apply elem_of_cons in Hq as [Hq|Hq]; [done|]. apply IH. left. by exists e, q.
    + apply elem_of_cons in Hq as [Hq|Hq]; [done|]. apply IH. right. by exists ms', a', b'.
Qed.

(** ** Queries *)
Lemma finish_evs conv x evs n out : finish conv x = (evs, n, out) -> exists c r, x = (evs, c, r).
Proof. destruct x as [[evs' [e|]] r]; cbn; intros [= <- _ _]; eauto. Qed.
Lemma instant_exec fmt L reader order oids oser now time query evs n out :
  instant_query fmt L reader order oids oser now time query = (evs, n, out) ->
  evs = [] \/ exists e c r, exec reader order oids oser e 0 None = (evs, c, r).
Proof.
  unfold instant_query. destruct (if bool_decide _ then _ else _) as [t|e]; [|intros [= <- _ _]; by left].
  destruct (lib_instant L query t) as [eng|e]; [|intros [= <- _ _]; by left].
  intros H. apply finish_evs in H as (c & r & E). right. eauto.
Qed.
Lemma range_exec fmt L reader order oids oser start stop step query evs n out :
  range_query fmt L reader order oids oser start stop step query = (evs, n, out) ->
  evs = [] \/ exists e c r, exec reader order oids oser e 0 None = (evs, c, r).
Proof.
  unfold range_query. destruct (lib_step L step) as [d|e]; [|intros [= <- _ _]; by left].
  destruct (lib_time L start) as [a|e]; [|intros [= <- _ _]; by left].
  destruct (lib_time L stop) as [b|e]; [|intros [= <- _ _]; by left].
  destruct (lib_range L query a b d) as [eng|e]; [|intros [= <- _ _]; by left].
  intros H. apply finish_evs in H as (c & r & E). right. eauto.
Qed.

Lemma deadline cache ctx_done m order oids oser evs (n : Z) out :
  evs = [] \/ (exists e c r, exec (node_reader cache ctx_done m) order oids oser e 0 None = (evs, c, r)) ->
  (trouble evs -> n = 1 /\ exists e, out = Failed e /\
     (failed_read evs e \/ exists ms, sourceless evs ms /\ e = no_source_id (sel_metric ms))) ->
  (~ trouble evs -> n = 0) ->
  (forall j, (j < length (reads evs))%nat -> ctx_done j = true -> n = 1 /\ exists e, out = Failed e /\
     (e = "context deadline exceeded" \/ exists ms, sourceless evs ms /\ e = no_source_id (sel_metric ms))) /\
  (n <> 0 -> (exists j, (j < length (reads evs))%nat /\ ctx_done j = true) \/ exists ms, sourceless evs ms).
Proof.
  intros Hx H1 H2.
  assert (Hf : forall e, failed_read evs e -> e = "context deadline exceeded" /\ exists j, (j < length (reads evs))%nat /\ ctx_done j = true).
  { intros e He. destruct Hx as [->|(eng & c & r & Hx)]; [destruct He as [q Hq]; by apply elem_of_nil in Hq|].
    by apply (node_failed _ _ _ _ _ _ _ _ _ _ _ _ _ Hx) in He. }
  split.
  - intros j Hj Hd. destruct Hx as [->|(eng & c & r & Hx)]; [cbn in Hj; lia|].
    destruct (lookup_lt_is_Some_2 (reads evs) j Hj) as [[q o] Ej].
    pose proof (exec_answers _ _ _ _ _ _ _ _ _ _ Hx _ _ _ Ej) as Eo. rewrite node_outcome in Eo. cbn in Eo. rewrite Hd in Eo. subst o.
    destruct H1 as [Hn (e & Ee & He)]; [left; eexists; by eapply reads_elem|]. split; [done|]. exists e. split; [done|].
    destruct He as [He|He]; [left; by apply Hf|by right].
  - intros Hn. destruct (trouble_dec evs) as [[[e He]|Hs]|Ht]; [left; by eapply Hf|by right|exfalso; by apply Hn, H2].
Qed.
