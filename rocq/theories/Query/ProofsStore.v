(** Selections over the store of a node. *)
From Coq Require Import Ascii String.
From stdpp Require Import prelude gmap strings list.
From Coq Require Import Sorted.
From Verif.Base Require Import GoInt Envelope.
From Verif.Store Require Import Avl Model Spec ProofsBase ProofsHist ProofsAcct ProofsGet.
From Verif.Routing Require Import Model Spec.
From Verif.Client Require Import Walk WalkSpec WalkStore.
From Verif.Promql Require Import Model Spec Proofs ProofsSelect ProofsRead.
From Verif.Query Require Import Model Spec Proofs.
Open Scope Z_scope.

(** a reader whose answer depends on the source only *)
Lemma gather_static reader order mint maxt ms (f : string -> option (list envelope)) err ids : forall i evs r,
  (forall j id, reader j (select_read mint maxt id) = match f id with Some es => inl es | None => inr err end) ->
  gather reader order mint maxt ms i ids = (evs, r) ->
  gather_samples f order ms ids = match r with inl ss => Some ss | inr _ => None end.
Proof.
  induction ids as [|id ids IH]; intros i evs r Hf H; cbn [gather gather_samples] in *.
  - by injection H as <- <-.
  - rewrite Hf in H. destruct (f id) as [es|].
    + destruct (gather reader order mint maxt ms (S i) ids) as [evs' r'] eqn:E.
      rewrite (IH _ _ _ Hf E). injection H as <- <-. by destruct r'.
    + by injection H as <- <-.
Qed.
Lemma select_static reader order oids oser mint maxt ms (f : string -> option (list envelope)) err i evs r :
  (forall j id, reader j (select_read mint maxt id) = match f id with Some es => inl es | None => inr err end) ->
  select_run reader order oids oser mint maxt ms i = (evs, r) ->
  match r with inl ss => exists b, select f order oids ms = Some b /\ ss = oser b | inr _ => select f order oids ms = None end.
Proof.
  intros Hf H. unfold select_run in H. unfold select. destruct (length _ =? 0)%nat; [by injection H as <- <-|].
  destruct (gather reader order mint maxt ms i _) as [evs' r'] eqn:E. injection H as <- <-.
  rewrite (gather_static _ _ _ _ _ f err _ _ _ _ Hf E). destruct r' as [ss|e]; cbn; [eauto|done].
Qed.

(** the envelopes a selection reads *)
Definition measured (e : envelope) : Prop :=
  match e_msg e with MCounter _ _ _ | MGauge _ | MTimer _ _ _ => True | _ => False end.
Global Instance measured_dec e : Decision (measured e).
Proof. unfold measured. destruct (e_msg e); apply _. Defined.
Definition three := [T_GAUGE; T_COUNTER; T_TIMER].
Definition all_query : query := mk_query (- 2 ^ 63) (2 ^ 63) (Some three) None 0 false.

Lemma wanted_measured e : wanted_type (Some three) e <-> measured e.
Proof.
  unfold wanted_type, three, measured. split.
  - intros (t & Ht & Hi). repeat (apply elem_of_cons in Ht as [->|Ht]; [unfold is_of_type in Hi; by destruct (e_msg e)|]).
    by apply elem_of_nil in Ht.
  - intros H. destruct (e_msg e) eqn:E; try done.
    + exists T_COUNTER. split; [right; left|]. unfold is_of_type. by rewrite E.
    + exists T_GAUGE. split; [left|]. unfold is_of_type. by rewrite E.
    + exists T_TIMER. split; [right; right; left|]. unfold is_of_type. by rewrite E.
Qed.
Lemma all_answers l : Forall sane_time l -> answers all_query l (filter measured l).
Proof.
  induction l as [|e l IH]; intros H; [constructor|]. apply Forall_cons in H as [[He _] H].
  rewrite filter_cons. destruct (decide (measured e)) as [Hm|Hm].
  - apply ans_keep; [|by apply IH]. split; [exact He|]. split; [constructor|]. by apply wanted_measured.
  - apply ans_skip; [|by apply IH]. intros e' (_ & Hp & Hw). cbn in Hp. inversion Hp; subst. apply wanted_measured in Hw. done.
Qed.
Lemma all_wants compile start stop : wants compile (walking_config start stop 0 three) all_query.
Proof.
  split.
  - done.
  - intros e. cbn [q_types all_query w_types walking_config default]. rewrite wanted_measured. unfold requested_type. split.
    + intros H. right. apply wanted_measured in H as (t & Ht & Hi). exists t. split; [done|]. split; [|done].
      intros ->. repeat (apply elem_of_cons in Ht as [Ht|Ht]; [discriminate|]). by apply elem_of_nil in Ht.
    + intros [H|(t & Ht & _ & Hi)]; [discriminate (H T_GAUGE ltac:(left))|]. apply wanted_measured. by exists t.
  - split; [done|]. intros H. by destruct H.
Qed.

Lemma filter_forall {A} (P Q : A -> Prop) `{forall x, Decision (Q x)} (l : list A) : Forall P l -> Forall P (filter Q l).
Proof. rewrite !Forall_forall. intros Hl x Hx. apply elem_of_list_filter in Hx as [_ Hx]. by apply Hl. Qed.

Lemma window_eq mint maxt id :
  in64 (mint * 1000000) -> in64 (mint * 1000000 - 1000000000) -> in64 (maxt * 1000000) ->
  select_read mint maxt id = mk_dr id (mint * 1000000 - 1000000000) (maxt * 1000000) three.
Proof. intros H1 H2 H3. unfold select_read. rewrite (wrap64_id (mint * 1000000)), !wrap64_id by done. done. Qed.

Section store.
Context (compile : string -> option (string -> bool)) (nclock clock : nat -> nat -> Z) (m : Z) (ops : list op) (s : store).
Context (Hm : 1 <= m) (Hrun : run (new_store m) ops = Some s)
  (Hsane : forall x, Forall sane_time (puts_to x ops)) (Hnd : forall x, NoDup (e_ts <$> puts_to x ops)).

Lemma node_read start stop n src i :
  start <= stop -> stop <> 0 ->
  (forall j e, e ∈ (stored s src).*2 -> start <= e_ts e < stop -> e_ts e <= wrap64 (clock i j - 1000000000)) ->
  (length (stored s src) < n)%nat ->
  walking_read (store_reader compile (nclock i) (clock i) s src) start stop 0 three false n =
    Some (filter (fun e => start <= e_ts e < stop) (filter measured (stored s src).*2)).
Proof using Hm Hrun Hsane Hnd.
  intros Hle H0 Hold Hn. destruct (stored_ascending m ops s src Hm Hrun Hsane Hnd) as [Hasc Hst].
  set (c := walking_config start stop 0 three).
  assert (Hc : ascending (filter measured (stored s src).*2) /\ Forall sane_time (filter measured (stored s src).*2)).
  { split; [|by apply filter_forall]. clear -Hasc. induction (stored s src).*2 as [|e l IH]; [constructor|].
    apply StronglySorted_inv in Hasc as [H1 H2]. rewrite filter_cons. destruct (decide (measured e)); [|by apply IH].
    constructor; [by apply IH|]. by apply filter_forall. }
  assert (Hwin : filter (in_window c) (filter measured (stored s src).*2) =
                 filter (fun e => start <= e_ts e < stop) (filter measured (stored s src).*2)).
  { apply list_filter_iff. intros e. unfold in_window, c. cbn. lia. }
  rewrite (walking_read_complete _ start stop 0 three (filter measured (stored s src).*2) (nclock i) (clock i) n).
  - by f_equal.
  - apply Hc.
  - apply Hc.
  - exact Hle.
  - apply (store_serves compile (nclock i) (clock i) m ops s src c all_query); try done.
    + split; [cbn; lia|]. split; [cbn; congruence|]. split; [exact Hle|]. split; [|by left].
      intros t k Ht. cbn in Ht. repeat (apply elem_of_cons in Ht as [->|Ht]; [done|]). by apply elem_of_nil in Ht.
    + apply all_wants.
    + by apply all_answers.
  - intros j e He. fold c in He. rewrite Hwin in He. apply elem_of_list_filter in He as [Hw He]. apply elem_of_list_filter in He as [_ He].
    by apply Hold.
  - fold c. rewrite Hwin. eapply Nat.le_lt_trans; [|exact Hn].
    etrans; [apply filter_length|]. etrans; [apply filter_length|]. by rewrite fmap_length.
Qed.

Context (re : string -> string -> Prop) (order : gmap string gauge_value -> list (string * gauge_value))
  (oids : gset string -> list string) (oser : gmap string series -> list series).
Context (Ho : iterates order) (Hoi : iterates_ids oids) (Hos : iterates_series oser).

Lemma store_select metric ms mint maxt n i evs r :
  (forall src, Forall (fun e => e_source e = src) (puts_to src ops)) ->
  plain_selector re metric ms -> (exists id, asks ms id) ->
  in64 (mint * 1000000) -> in64 (mint * 1000000 - 1000000000) -> in64 (maxt * 1000000) -> mint <= maxt -> maxt <> 0 ->
  (forall k j src e, e ∈ (stored s src).*2 -> mint * 1000000 - 1000000000 <= e_ts e < maxt * 1000000 ->
     e_ts e <= wrap64 (clock k j - 1000000000)) ->
  (forall src, (length (stored s src) < n)%nat) ->
  select_run (node_reader (fun k src => store_reader compile (nclock k) (clock k) s src) (fun _ => false) n)
    order oids oser mint maxt ms i = (evs, r) ->
  exists ss, r = inl ss /\
    (forall se p, se ∈ ss -> p ∈ s_points se -> exists src e l, asks ms src /\ e ∈ (stored s src).*2 /\
       mint * 1000000 - 1000000000 <= e_ts e < maxt * 1000000 /\ sample_of metric e l p /\
       Forall (fun x => lm_name x <> "__name__" -> satisfies re l x) ms /\ series_id l = series_id (s_tags se)) /\
    (Forall (fun x => lm_name x <> "__name__" -> lm_name x <> "source_id" -> lm_value x <> "") ms ->
     forall src e l v, asks ms src -> e ∈ (stored s src).*2 -> mint * 1000000 - 1000000000 <= e_ts e < maxt * 1000000 ->
       labels_of e l -> offers metric (e_msg e) v -> Forall (fun x => lm_name x <> "__name__" -> satisfies re l x) ms ->
       exists se p, se ∈ ss /\ p ∈ s_points se /\ sample_of metric e l p /\ series_id l = series_id (s_tags se)).
Proof using All.
  intros Hsrc Hp [id0 Hid0] H1 H2 H3 Hle H0 Hold Hn Hr.
  set (a := mint * 1000000 - 1000000000) in *. set (b := maxt * 1000000) in *.
  set (f := fun src : string => Some (filter (fun e => a <= e_ts e < b) (filter measured (stored s src).*2))).
  assert (Hf : forall j id, node_reader (fun k src => store_reader compile (nclock k) (clock k) s src) (fun _ => false) n j (select_read mint maxt id)
     = match f id with Some es => inl es | None => inr "" end).
  { intros j id. rewrite window_eq by done. fold a b. unfold node_reader. cbn [dr_source dr_start dr_end dr_types].
    rewrite node_read; [done|unfold a, b; lia|unfold b; lia| |done]. intros j' e He Hw. by eapply Hold. }
  pose proof (select_static _ _ _ _ _ _ _ f "" _ _ _ Hf Hr) as Hs.
  assert (Hex : exists bl, select f order oids ms = Some bl).
  { unfold select. destruct (length _ =? 0)%nat eqn:El.
    - apply Nat.eqb_eq, nil_length_inv in El. apply (asked_in oids ms id0 Hoi) in Hid0. rewrite El in Hid0. by apply elem_of_nil in Hid0.
    - assert (G : forall ids, exists ss, gather_samples f order ms ids = Some ss).
      { induction ids as [|x ids [ss IH]]; cbn [gather_samples]; [eauto|]. change (f x) with (Some (filter (fun e => a <= e_ts e < b) (filter measured (stored s x).*2))). rewrite IH. cbn. eauto. }
      destruct (G (oids (id_set (selector_ids ms)))) as [ss ->]. cbn. eauto. }
  destruct r as [ss|e]; [|destruct Hex; congruence]. destruct Hs as (bl & Hsel & ->).
  exists (oser bl). split; [done|].
  assert (Hin : forall id es e, f id = Some es -> e ∈ es -> e ∈ (stored s id).*2 /\ a <= e_ts e < b).
  { intros id es e Hf1 He. unfold f in Hf1. injection Hf1 as <-. apply elem_of_list_filter in He as [Hw He].
    apply elem_of_list_filter in He as [_ He]. done. }
  assert (Hfsrc : forall id es, f id = Some es -> Forall (fun e => e_source e = id) es).
  { intros id es Hf1. apply Forall_forall. intros e He. destruct (Hin _ _ _ Hf1 He) as [He' _].
    pose proof (run_exact ops (new_store m) [] s (inv_new m Hm) eq_refl ltac:(intros x; constructor)
      ltac:(intros x; eapply Forall_impl; [apply Hsane|]; by intros ? []) Hnd Hrun) as Hexact.
    specialize (Hexact id). apply elem_of_list_fmap in He' as (p & -> & Hp'). rewrite Forall_forall in Hexact.
    destruct (Hexact _ Hp') as [_ Hput]. specialize (Hsrc id). rewrite Forall_forall in Hsrc. by apply Hsrc. }
  assert (Hser : forall se, se ∈ oser bl <-> exists k, bl !! k = Some se).
  { intros se. rewrite (Hos bl), elem_of_list_fmap. split.
    - intros ([k x] & -> & Hx). exists k. by apply elem_of_map_to_list.
    - intros [k Hk]. exists (k, se). split; [done|]. by apply elem_of_map_to_list. }
  split.
  - intros se p Hse Hpt. apply Hser in Hse as [k Hk].
    destruct (select_sound re f order oids metric ms bl k se Ho Hoi Hp Hfsrc Hsel Hk) as [_ Hall].
    rewrite Forall_forall in Hall. destruct (Hall p Hpt) as (l & src & es & e & G1 & G2 & G3 & G4 & G5 & G6).
    destruct (Hin _ _ _ G2 G3) as [G7 G8]. exists src, e, l. done.
  - intros Hne src e l v Hask He Hw Hlab Hoff Hsat.
    assert (Hmeas : measured e) by (unfold measured; by destruct Hoff).
    destruct (select_complete re f order oids metric ms bl src _ e l v Ho Hoi Hp Hne Hsel Hask eq_refl) as (se & p & G1 & G2 & G3); [|done..|].
    { apply elem_of_list_filter. split; [done|]. apply elem_of_list_filter. done. }
    exists se, p. split; [apply Hser; eauto|]. split; [done|]. split; [done|].
    apply select_inv in Hsel as (samples & Hg & ->). by destruct (build_series _ _ _ G1) as (_ & _ & q & _ & Hq).
Qed.
End store.
