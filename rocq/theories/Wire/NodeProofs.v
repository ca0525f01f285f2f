(** A node behind its port. *)
From Coq Require Import Ascii String.
From stdpp Require Import prelude strings list gmap.
From Verif.Base Require Import GoInt Envelope.
From Verif.Store Require Import Avl AvlProofs Model Spec SpecFrom ProofsBase ProofsHist ProofsAcct ProofsGet ProofsRoom ProofsFrom ProofsFinal.
From Verif.Routing Require Import Model Spec ProofsTable ProofsProxy ProofsRead ProofsCluster.
From Verif.Whole Require Import SpecFull Proofs ProofsFull.
From Verif.Http Require Import Model.
From Verif.Json Require Import Spec SpecPb.
From Verif.Wire Require Import Format Model Spec FormatProofs Proofs Received Node SpecNode.
Open Scope Z_scope.

(** ** Sending *)
Lemma by_node_alone mine es :
  envelopes_by_node (alone mine) es = match filter (fun e => mine (e_source e)) es with [] => ∅ | l => {[0%nat := l]} end.
Proof.
  unfold envelopes_by_node. induction es as [|e es IH] using rev_ind; [done|]. rewrite foldl_app, filter_app, IH. cbn [foldl].
  unfold group_one, alone. rewrite filter_cons, filter_nil. destruct (mine (e_source e)); cbn [foldl].
  - destruct (decide _) as [_|H]; [|done]. destruct (filter _ es) as [|x l]; cbn [app].
    + by rewrite lookup_empty.
    + rewrite lookup_singleton. cbn. by rewrite insert_singleton.
  - destruct (decide _) as [H|_]; [done|]. by rewrite List.app_nil_r.
Qed.
Lemma put_all_run now es s : put_all now es s = run s (writes now es).
Proof.
  revert s. induction es as [|e es IH]; intros s; [done|]. cbn [put_all]. change (writes now (e :: es)) with (OPut e (e_source e) now :: writes now es).
  cbn [run step]. destruct (put_env e (e_source e) now s); [|done]. cbn [mbind option_bind]. apply IH.
Qed.
Lemma deliver_one now r s : deliver now [(0%nat, r)] [mk_node [] s] = s' ← put_all now (get_batch r) s; Some [mk_node [] s'].
Proof. cbn. by destruct (put_all _ _ _). Qed.

(** a Send changes the store as the writes of what it brings do, unless it has no batch *)
Lemma node_send_spec mine now b s : ~ no_batch (CallSend now b) ->
  node_send mine now b s =
  match unmarshal_send b with
  | None => Some (s, None)
  | Some _ => s' ← run s (writes now (brought mine (CallSend now b))); Some (s', Some "")
  end.
Proof.
  intros Hn. unfold node_send, brought. destruct (unmarshal_send b) as [r|] eqn:E; [|done]. unfold send_with. destruct (sr_local_only r) eqn:El.
  - change (0 <? 1)%nat with true. cbn [mbind option_bind]. rewrite deliver_one, put_all_run. destruct (run _ _); done.
  - destruct r as [lo [es|]]; cbn [sr_local_only sr_envelopes get_batch default] in *; [|exfalso; apply Hn; exists now, b; by subst lo].
    cbn [get_batch sr_envelopes default]. rewrite by_node_alone. unfold get_batch. cbn [sr_envelopes default]. change (id es) with es.
    destruct (filter (fun e => mine (e_source e)) es) as [|x l] eqn:Ef.
    + rewrite map_to_list_empty. done.
    + rewrite map_to_list_singleton. replace (forallb _ _) with true by done. cbn [fst snd fmap list_fmap mbind option_bind].
      rewrite deliver_one, put_all_run. unfold get_batch. cbn [sr_envelopes default]. change (id (x :: l)) with (x :: l).
      destruct (run _ _); done.
Qed.
Lemma node_send_no_batch mine c s : no_batch c -> forall compile, node_call compile mine c s = None.
Proof. intros (now & b & -> & E) compile. cbn [node_call]. unfold node_send. rewrite E. done. Qed.

(** ** The store's part in a call *)
Definition ops_of (compile : string -> option (string -> bool)) (mine : string -> bool) (c : call) : list op :=
  match c with
  | CallSend now _ => writes now (brought mine c)
  | CallRead now b =>
      match unmarshal_read b with
      | Some rq => if mine (rr_source rq) then match to_query compile now rq with Some q => [OGet (rr_source rq) q] | None => [] end else []
      | None => []
      end
  | CallMeta _ => []
  | Tick now n pri => [OTruncate n pri now]
  end.
Lemma route_alone mine src : read_route_of (alone mine src) 1 0 0 = Some (if mine src then CallNode 0 else Unavailable).
Proof. unfold alone. by destruct (mine src). Qed.
Lemma node_call_run compile mine c s : ~ no_batch c -> fst <$> node_call compile mine c s = run s (ops_of compile mine c).
Proof.
  intros Hn. destruct c as [now b|now b|b|now n pri]; cbn [node_call ops_of].
  - rewrite node_send_spec by done. destruct (unmarshal_send b) as [r|] eqn:E.
    + by destruct (run _ _).
    + unfold brought. by rewrite E.
  - unfold node_read. destruct (unmarshal_read b) as [rq|]; [|done]. rewrite route_alone. cbn [mbind option_bind].
    destruct (mine (rr_source rq)); [|done]. unfold local_read. destruct (to_query compile now rq) as [q|]; [|done]. cbn [run step].
    destruct (get_env _ q s); done.
  - unfold node_meta. by destruct (unmarshal_meta b).
  - cbn [run step]. by destruct (truncate n pri now s).
Qed.
Lemma run_app s a b : run s (a ++ b) = s' ← run s a; run s' b.
Proof. revert s. induction a as [|o a IH]; intros s; [done|]. cbn. destruct (step s o); [|done]. cbn. apply IH. Qed.
Lemma node_run_run compile mine cs s : Forall (fun c => ~ no_batch c) cs -> node_run compile mine cs s = run s (cs ≫= ops_of compile mine).
Proof.
  intros H. revert s. induction H as [|c cs Hc _ IH]; intros s; [done|]. cbn [node_run mbind list_bind]. rewrite run_app, <-node_call_run by done.
  destruct (node_call _ _ c s) as [[s' a]|]; [|done]. cbn. apply IH.
Qed.
Lemma node_run_batches compile mine cs s s' : node_run compile mine cs s = Some s' -> Forall (fun c => ~ no_batch c) cs.
Proof.
  revert s. induction cs as [|c cs IH]; intros s H; [constructor|]. cbn [node_run] in H. destruct (node_call _ _ c s) as [[s1 a]|] eqn:E; [|done].
  constructor; [|by eapply IH]. intros Hn. rewrite node_send_no_batch in E by done. done.
Qed.
Lemma node_run_app compile mine a b s : node_run compile mine (a ++ b) s = s' ← node_run compile mine a s; node_run compile mine b s'.
Proof. revert s. induction a as [|c a IH]; intros s; [done|]. cbn. destruct (node_call _ _ c s) as [[s' x]|]; [|done]. cbn. apply IH. Qed.

Lemma puts_to_app src a b : puts_to src (a ++ b) = puts_to src a ++ puts_to src b.
Proof. unfold puts_to. apply omap_app. Qed.
Lemma puts_of_call compile mine c src : puts_to src (ops_of compile mine c) = of_source src (brought mine c).
Proof.
  destruct c as [now b|now b|b|now n pri]; cbn [ops_of]; [apply puts_writes| |done|done].
  cbn [brought]. destruct (unmarshal_read b) as [rq|]; [|done]. destruct (mine _); [|done]. by destruct (to_query _ _ _).
Qed.
Lemma puts_of_calls compile mine cs src : puts_to src (cs ≫= ops_of compile mine) = sent_for mine src cs.
Proof.
  induction cs as [|c cs IH]; [done|]. unfold sent_for, brought_all in *. cbn [mbind list_bind]. rewrite puts_to_app, of_source_app, puts_of_call. by f_equal.
Qed.

(** ** What a node needs to stay up *)
Definition put_list (ops : list op) : list (envelope * string) :=
  omap (fun o => match o with OPut e x _ => Some (e, x) | _ => None end) ops.
Lemma put_list_app a b : put_list (a ++ b) = put_list a ++ put_list b.
Proof. apply omap_app. Qed.
Lemma put_list_writes now es : put_list (writes now es) = (fun e => (e, e_source e)) <$> es.
Proof. induction es as [|e es IH]; [done|]. cbn. f_equal. exact IH. Qed.
Lemma put_list_calls compile mine cs : put_list (cs ≫= ops_of compile mine) = (fun e => (e, e_source e)) <$> brought_all mine cs.
Proof.
  induction cs as [|c cs IH]; [done|]. unfold brought_all in *. cbn [mbind list_bind]. rewrite put_list_app, fmap_app, IH. f_equal.
  destruct c as [now b|now b|b|now n pri]; cbn [ops_of]; [apply put_list_writes| |done|done].
  cbn [brought]. destruct (unmarshal_read b) as [rq|]; [|done]. destruct (mine _); [|done]. by destruct (to_query _ _ _).
Qed.
Lemma puts_to_list src ops : puts_to src ops = fst <$> filter (fun p => p.2 = src) (put_list ops).
Proof.
  induction ops as [|o ops IH]; [done|]. rewrite puts_to_cons. unfold put_list in *. destruct o as [e x now| | |]; cbn [put_by omap list_omap]; try exact IH.
  rewrite filter_cons, IH. cbn [snd]. by destruct (decide (x = src)).
Qed.
Lemma puts_of_list src es : fst <$> filter (fun p => p.2 = src) ((fun e => (e, e_source e)) <$> es) = of_source src es.
Proof.
  induction es as [|e es IH]; [done|]. rewrite fmap_cons. unfold of_source in *. rewrite !filter_cons. cbn [snd]. destruct (decide (e_source e = src)); cbn; by rewrite IH.
Qed.
Lemma spread_uncrowded compile mine m cs : spread m (brought_all mine cs) -> uncrowded m (cs ≫= ops_of compile mine).
Proof.
  intros [H|H]; [by left|]. right. intros pre e src now post E.
  assert (Ep : put_list pre ++ (e, src) :: put_list post = (fun e => (e, e_source e)) <$> brought_all mine cs).
  { rewrite <-(put_list_calls compile), E, put_list_app. done. }
  symmetry in Ep. apply fmap_app_inv in Ep as (pre' & post' & E1 & E2 & E3). destruct post' as [|e' post']; [done|].
  cbn in E2. injection E2 as <- -> _. destruct (H _ _ _ E3) as (H1 & H2 & H3). split; [done|]. split; [done|].
  rewrite puts_to_list, E1, puts_of_list. exact H3.
Qed.
Lemma ops_length compile mine cs : (length (cs ≫= ops_of compile mine) <= length cs + length (brought_all mine cs))%nat.
Proof.
  induction cs as [|c cs IH]; [done|]. unfold brought_all in *. cbn [mbind list_bind length]. rewrite !List.app_length.
  assert (length (ops_of compile mine c) <= 1 + length (brought mine c))%nat; [|lia].
  destruct c as [now b|now b|b|now n pri]; cbn [ops_of length]; [unfold writes; rewrite fmap_length; lia| |lia|lia].
  destruct (unmarshal_read b) as [rq|]; [|cbn; lia]. destruct (mine _); [|cbn; lia]. destruct (to_query _ _ _); cbn; lia.
Qed.
Lemma ops_ok compile mine cs : Forall (fun c => ~ odd_type c) cs -> Forall op_ok (cs ≫= ops_of compile mine).
Proof.
  induction 1 as [|c cs Hc _ IH]; [constructor|]. cbn [mbind list_bind]. apply Forall_app_2; [|exact IH].
  destruct c as [now b|now b|b|now n pri]; cbn [ops_of].
  - apply Forall_forall. intros o Ho. apply elem_of_list_fmap in Ho as (e & -> & _). done.
  - destruct (unmarshal_read b) as [rq|] eqn:Eb; [|constructor]. destruct (mine _); [|constructor]. destruct (to_query compile now rq) as [q|] eqn:Eq; [|constructor].
    constructor; [|constructor]. cbn [op_ok]. eapply known_query; [|exact Eq]. intros t n Ht ->. apply Hc. by exists now, b, rq, n.
  - constructor.
  - by repeat constructor.
Qed.
Lemma node_up compile mine m cs : 1 <= m -> spread m (brought_all mine cs) ->
  Z.of_nat (length cs + length (brought_all mine cs)) < 2^63 -> Forall (fun c => ~ no_batch c /\ ~ odd_type c) cs ->
  exists s, node_run compile mine cs (new_store m) = Some s.
Proof.
  intros Hm Hs Hl Hc. rewrite node_run_run by (eapply Forall_impl; [exact Hc|]; by intros c [? _]).
  apply no_panic; [done|by apply spread_uncrowded|apply ops_ok; eapply Forall_impl; [exact Hc|]; by intros c [_ ?]|].
  pose proof (ops_length compile mine cs). lia.
Qed.

(** ** Answers *)
Lemma projected_good nf e e' : projects nf e e' -> good e -> good e'.
Proof.
  destruct 1 as [e| | |m e ms ms' E Hms _]; try done. intros (H1 & H2 & H3 & H4 & H5 & H6). do 5 (split; [done|]). rewrite E in H6.
  intros k g Hg. cbn [e_msg] in Hg. rewrite Hms in Hg. destruct (m k); [|done]. by apply H6.
Qed.
Lemma brought_received mine c e : e ∈ brought mine c -> good e.
Proof.
  destruct c as [now b|now b|b|now n pri]; cbn [brought]; try by intros ?%elem_of_nil. destruct (unmarshal_send b) as [r|] eqn:E; [|by intros ?%elem_of_nil].
  apply send_good in E. rewrite Forall_forall in E. intros H. apply E. destruct (sr_local_only r); [exact H|]. by apply elem_of_list_filter in H as [_ ?].
Qed.
Lemma sent_good mine src cs e : e ∈ sent_for mine src cs -> good e /\ e_source e = src.
Proof.
  unfold sent_for, brought_all. rewrite of_source_elem. intros [Hs H]. apply elem_of_list_bind in H as (c & H & _). split; [|done]. by eapply brought_received.
Qed.
Lemma answer_encodes es : (forall e, e ∈ es -> good e) ->
  exists b, marshal_read_response (Some es) = Some b /\ (fits b -> unmarshal_read_response b = Some (Some es)).
Proof.
  intros Hg.
  assert (Ht : forall t, t ∈ batch_texts (Some es) -> utf8 t).
  { intros t Ht. apply batch_texts_iff in Ht as (es' & e & [= <-] & He & Ht). by eapply (proj2 (good_sized e (Hg e He))). }
  eexists. split; [by apply marshal_some|]. intros Hf. apply read_response_round; [|by apply marshal_some|done].
  intros es' e [= <-] He. by apply (good_sized e), Hg.
Qed.
Lemma node_answer compile mine m cs s now b rq s' a :
  1 <= m -> node_run compile mine cs (new_store m) = Some s -> unmarshal_read b = Some rq -> mine (rr_source rq) = true ->
  node_call compile mine (CallRead now b) s = Some (s', a) ->
  (a = None /\ ~ acceptable compile rq) \/
  exists q es b', a = Some b' /\ resolved compile now rq q /\ (forall e, wanted_type (q_types q) e <-> requested_type (rr_types rq) e) /\
    drawn q (sent_for mine (rr_source rq) cs) es /\ local_read compile now rq s = ReadOk es /\
    (fits b' -> unmarshal_read_response b' = Some (Some es)).
Proof.
  intros Hm Hr Eb Hmine Hc. pose proof (node_run_batches _ _ _ _ _ Hr) as Hb. rewrite node_run_run in Hr by done.
  cbn [node_call] in Hc. unfold node_read in Hc. rewrite Eb, route_alone, Hmine in Hc. cbn [mbind option_bind] in Hc.
  pose proof (to_query_spec compile now rq) as HS. unfold local_read in *. destruct (to_query compile now rq) as [q|] eqn:Eq.
  - destruct HS as (_ & Hq & _). destruct (get_env (rr_source rq) q s) as [es|] eqn:Eg; [|done]. injection Hc as <- <-. right.
    pose proof (get_written _ _ _ _ _ _ Hm Hr Eg) as Hd. rewrite puts_of_calls in Hd.
    destruct (answer_encodes es) as (b' & E' & Hf).
    { intros e' He'. destruct (drawn_elem _ _ _ _ Hd He') as (e & He & Hsel). apply sent_good in He as [He _].
      destruct Hsel as (_ & Hp & _). by eapply projected_good. }
    exists q, es, b'. split; [done|]. split; [done|]. split; [intros e; by apply (to_query_types compile now)|]. done.
  - injection Hc as <- <-. left. done.
Qed.

(** ** What it holds *)
Lemma sent_for_snoc mine src cs c : sent_for mine src (cs ++ [c]) = sent_for mine src cs ++ of_source src (brought mine c).
Proof. unfold sent_for, brought_all. rewrite bind_app, of_source_app. cbn [mbind list_bind]. by rewrite List.app_nil_r. Qed.
Lemma node_held compile mine m src cs s : 1 <= m -> node_run compile mine cs (new_store m) = Some s ->
  inv s /\ st_max s = m /\
  (distinct_times (sent_for mine src cs) ->
   exists l, may_hold mine m src cs l /\ entries s src = keyed l /\ l ⊆+ sent_for mine src cs).
Proof.
  intros Hm. revert s. induction cs as [|c cs IH] using rev_ind; intros s Hr.
  { injection Hr as <-. split; [by apply inv_new|]. split; [done|]. intros _. exists []. split; [constructor|]. split; [|done].
    unfold entries. cbn. by rewrite lookup_empty. }
  pose proof (node_run_batches _ _ _ _ _ Hr) as Hb. apply Forall_app in Hb as [_ Hb]. apply Forall_cons in Hb as [Hb _].
  rewrite node_run_app in Hr. destruct (node_run compile mine cs (new_store m)) as [s0|]; [|done]. cbn [mbind option_bind node_run] in Hr.
  destruct (node_call compile mine c s0) as [[s1 a]|] eqn:Ec; [|done]. injection Hr as ->.
  assert (Er : run s0 (ops_of compile mine c) = Some s) by (rewrite <-node_call_run by done; by rewrite Ec).
  destruct (IH _ eq_refl) as (Hi & Hmax & Hold). rewrite sent_for_snoc.
  destruct c as [now b|now b|b|now n pri].
  - cbn [ops_of] in Er. rewrite <-put_all_run in Er.
    assert (Hi' : inv s /\ st_max s = m).
    { clear -Hi Hmax Er. revert s0 Hi Hmax Er. induction (brought mine (CallSend now b)) as [|e es IHe]; intros s0 Hi Hmax Er; [by injection Er as <-|].
      cbn [put_all] in Er. destruct (put_env _ _ _ _) as [s2|] eqn:E; [|done]. destruct (step_inv s0 (OPut e (e_source e) now) s2 Hi E) as [H1 H2].
      apply (IHe s2); [done|congruence|done]. }
    destruct Hi' as [Hi' Hm']. split; [done|]. split; [done|]. intros D. destruct (Hold (distinct_app _ _ D)) as (l & Hl & He & Hsub).
    destruct (put_all_keyed now src _ _ _ l (sent_for mine src cs) Hi Hsub D He Er) as (H1 & _ & _ & H2). rewrite Hmax in *.
    eexists. split; [apply hold_call; [done|exact Hl]|]. done.
  - assert (Hs : inv s /\ st_max s = m /\ entries s src = entries s0 src).
    { cbn [ops_of] in Er. destruct (unmarshal_read b) as [rq|]; [|by injection Er as <-]. destruct (mine _); [|by injection Er as <-].
      destruct (to_query compile now rq) as [q|]; [|by injection Er as <-]. cbn [run] in Er. destruct (step s0 _) as [s2|] eqn:E; [|done]. cbn [mbind option_bind] in Er. injection Er as ->.
      destruct (step_inv s0 _ s Hi E) as [H1 H2]. split; [done|]. split; [congruence|]. cbn [step] in E. destruct (get_env _ q s0); [|done]. cbn in E. by injection E as <-. }
    destruct Hs as (H1 & H2 & H3). split; [done|]. split; [done|]. cbn [brought]. unfold of_source at 1 2. rewrite filter_nil, List.app_nil_r. intros D.
    destruct (Hold D) as (l & Hl & He & Hsub). exists l. split; [|by rewrite H3]. by apply (hold_call mine m src cs l (CallRead now b)).
  - cbn [ops_of run] in Er. injection Er as <-. split; [done|]. split; [done|]. cbn [brought]. unfold of_source at 1 2. rewrite filter_nil, List.app_nil_r. intros D.
    destruct (Hold D) as (l & Hl & He & Hsub). exists l. split; [|done]. by apply (hold_call mine m src cs l (CallMeta b)).
  - cbn [ops_of run] in Er. destruct (step s0 _) as [s2|] eqn:E; [|done]. cbn [mbind option_bind] in Er. injection Er as ->.
    destruct (step_inv s0 _ s Hi E) as [H1 H2]. split; [done|]. split; [congruence|]. cbn [brought]. unfold of_source at 1 2. rewrite filter_nil, List.app_nil_r. intros D.
    destruct (Hold D) as (l & Hl & He & Hsub). cbn [step] in E. destruct (truncate_sub _ _ _ _ _ Hi E src) as [r Hr].
    rewrite !stored_entries, He in Hr. unfold keyed in Hr. apply fmap_app_inv in Hr as (older & newer & E1 & E2 & ->).
    exists newer. split; [by eapply hold_tick|]. split; [exact E2|]. etransitivity; [|exact Hsub]. by apply submseteq_inserts_l.
Qed.
Lemma node_exact compile mine m cs s now b rq : 1 <= m -> node_run compile mine cs (new_store m) = Some s ->
  unmarshal_read b = Some rq -> mine (rr_source rq) = true -> acceptable compile rq -> enum_types (rr_types rq) ->
  distinct_times (sent_for mine (rr_source rq) cs) ->
  exists l q all s' b', may_hold mine m (rr_source rq) cs l /\ resolved compile now rq q /\
    (forall e, wanted_type (q_types q) e <-> requested_type (rr_types rq) e) /\
    Store.Spec.answers q (if q_desc q then reverse l else l) all /\
    node_call compile mine (CallRead now b) s = Some (s', Some b') /\
    (fits b' -> unmarshal_read_response b' = Some (Some (take (Z.to_nat (q_limit q)) all))).
Proof.
  intros Hm Hr Eb Hmine Hacc Hen D. destruct (node_held compile mine m (rr_source rq) cs s Hm Hr) as (Hi & _ & H). destruct (H D) as (l & Hl & He & _).
  destruct (local_read_keyed compile now rq s l Hi He Hacc Hen) as (q & all & Hq & Hw & Ha & E).
  assert (Ec : node_call compile mine (CallRead now b) s =
    Some (add_egress (Z.of_nat (length (take (Z.to_nat (q_limit q)) all))) s, marshal_read_response (Some (take (Z.to_nat (q_limit q)) all)))).
  { cbn [node_call]. unfold node_read. rewrite Eb, route_alone, Hmine. cbn [mbind option_bind]. by rewrite E. }
  destruct (node_answer _ _ _ _ _ _ _ _ _ _ Hm Hr Eb Hmine Ec) as [[_ Hn]|(q' & es & b' & Eb' & _ & _ & _ & E2 & Hf)]; [done|].
  rewrite E in E2. injection E2 as <-. rewrite Eb' in Ec. exists l, q, all. eexists _, b'. done.
Qed.

(** ** Meta *)
Lemma keys_in64 ops : forall s s', inv s -> (forall src, Forall (fun p => in64 p.1) (stored s src)) -> run s ops = Some s' ->
  forall src, Forall (fun p => in64 p.1) (stored s' src).
Proof.
  induction ops as [|o ops IH]; intros s s' Hi H Hr; [by injection Hr as <-|]. cbn [run] in Hr. destruct (step s o) as [s1|] eqn:E; [|done].
  cbn [mbind option_bind] in Hr. apply (IH s1 s'); [by eapply step_inv| |done]. clear Hr s' IH. intros x. destruct o as [e src now|q pri now|src q|]; cbn [step] in E.
  - destruct (put_env_spec e src now s (inv_max s Hi) (inv_tree s Hi src)) as (f & sg' & _ & _ & _ & _ & Hent & _ & _ & _ & E').
    rewrite E' in E. injection E as <-. destruct (decide (x = src)) as [->|Hne].
    + rewrite stored_insert_eq, Hent. apply Forall_linsert_mono; [apply wrap64_range|]. apply Forall_base_of. rewrite <-stored_entries. apply H.
    + rewrite stored_insert_ne by done. apply H.
  - destruct (truncate_sub _ _ _ _ _ Hi E x) as [r Hr]. specialize (H x). rewrite Hr in H. by apply Forall_app in H as [_ ?].
  - destruct (get_env src q s); [|done]. cbn in E. injection E as <-. apply H.
  - injection E as <-. apply H.
Qed.
Lemma written_within ops : forall s g s' g', run_written s g ops = Some (s', g') -> forall src,
  (length (g' src) <= length (g src) + length ops)%nat /\ forall e, e ∈ g' src -> e ∈ g src \/ e ∈ puts_to src ops.
Proof.
  induction ops as [|o ops IH]; intros s g s' g' H src; [injection H as <- <-; split; [lia|by left]|].
  cbn [run_written] in H. destruct (step s o) as [s1|]; [|done]. cbn [mbind option_bind] in H. destruct (IH _ _ _ _ H src) as [H1 H2]. cbn [length].
  rewrite puts_to_cons. destruct o as [e x now|q pri now|x q|]; cbn [written_step put_by] in *.
  - destruct (decide (src = x)) as [->|Hne].
    + rewrite List.app_length in H1. cbn in H1. split; [lia|]. intros y Hy. destruct (H2 y Hy) as [Hy'|Hy']; [|right; set_solver].
      apply elem_of_app in Hy' as [?|?]; [by left|right]. rewrite decide_True by done. set_solver.
    + split; [lia|]. intros y Hy. rewrite decide_False by done. by apply H2.
  - destruct (st_index s1 !! src).
    + split; [lia|]. intros y Hy. by apply H2.
    + cbn in H1. split; [lia|]. intros y Hy. destruct (H2 y Hy) as [Hn|?]; [by apply elem_of_nil in Hn|by right].
  - split; [lia|]. intros y Hy. by apply H2.
  - split; [lia|]. intros y Hy. by apply H2.
Qed.
Lemma newest_int64 l : Forall (fun e => int64 (e_ts e)) l -> int64 (newest_of l).
Proof. unfold newest_of. induction 1 as [|e l He _ IH]; cbn [foldr]; unfold int64 in *; lia. Qed.
Lemma node_meta_ok compile mine m cs s b : 1 <= m -> node_run compile mine cs (new_store m) = Some s ->
  spread m (brought_all mine cs) -> Z.of_nat (length cs + length (brought_all mine cs)) < 2^63 -> Forall (fun c => ~ odd_type c) cs ->
  is_Some (unmarshal_meta b) ->
  exists b', node_call compile mine (CallMeta b) s = Some (s, Some b') /\
    (fits b' -> unmarshal_meta_response b' = Some (to_info <$> Store.Model.meta s)).
Proof.
  intros Hm Hr Hs Hl Ho [x Eb]. pose proof (node_run_batches _ _ _ _ _ Hr) as Hb. destruct (node_held compile mine m "" cs s Hm Hr) as (Hi & _ & _).
  rewrite node_run_run in Hr by done. set (ops := cs ≫= ops_of compile mine) in *.
  assert (Hlen : Z.of_nat (length ops) < 2^63) by (pose proof (ops_length compile mine cs); subst ops; lia).
  destruct (run_written (new_store m) (fun _ => []) ops) as [[s' g]|] eqn:Ew; pose proof (run_written_run ops (new_store m) (fun _ => [])) as Hw;
    rewrite Ew, Hr in Hw; [|done]. injection Hw as ->.
  assert (Hk : forall k i, (to_info <$> Store.Model.meta s) !! k = Some i -> sized_info i /\ utf8 k).
  { intros k i Hk. rewrite lookup_fmap in Hk. pose proof (meta_accounting m ops s g k Hm (spread_uncrowded _ _ _ _ Hs) (ops_ok _ _ _ Ho) Hlen Ew) as HA.
    destruct (Store.Model.meta s !! k) as [mi|]; [|done]. injection Hk as <-. destruct HA as (H1 & (e & l & H2) & H3 & H4).
    destruct (written_within _ _ _ _ _ Ew k) as [H5 H6]. cbn [length] in H5.
    assert (Hst : (length (stored s k) <= length (sent_for mine k cs))%nat).
    { destruct (run_within ops (fun _ => []) (new_store m) s (inv_new m Hm) (new_within _ _) Hr) as [_ HW]. specialize (HW k). cbn [app] in HW.
      subst ops. rewrite puts_of_calls in HW. apply submseteq_length in HW. by rewrite fmap_length in HW. }
    assert (Hse : (length (sent_for mine k cs) <= length (brought_all mine cs))%nat) by apply filter_length.
    assert (Hin : e ∈ sent_for mine k cs).
    { destruct (run_within ops (fun _ => []) (new_store m) s (inv_new m Hm) (new_within _ _) Hr) as [_ HW]. specialize (HW k). cbn [app] in HW.
      subst ops. rewrite puts_of_calls in HW. eapply elem_of_submseteq; [|exact HW]. rewrite H2. left. }
    split.
    - unfold sized_info, to_info. cbn [mi_count mi_expired mi_oldest mi_newest]. split; [unfold int64; lia|]. split; [unfold int64; lia|]. split.
      + assert (HF : Forall (fun p => in64 p.1) (stored s k)).
        { eapply (keys_in64 ops (new_store m)); [by apply inv_new| |done]. intros src. unfold stored. cbn. rewrite lookup_empty. constructor. }
        rewrite H2 in HF. apply Forall_cons in HF as [HF _]. exact HF.
      + rewrite H3. apply newest_int64. apply Forall_forall. intros y Hy. destruct (H6 y Hy) as [Hn|Hy']; [by apply elem_of_nil in Hn|].
        subst ops. rewrite puts_of_calls in Hy'. apply sent_good in Hy' as [Hg _]. apply good_sized in Hg as [[Hg _] _]. exact Hg.
    - apply sent_good in Hin as [Hg <-]. apply good_sized in Hg as [_ Hg]. apply Hg. constructor. }
  cbn [node_call]. unfold node_meta. rewrite Eb.
  assert (E : exists b', marshal_meta_response (to_info <$> Store.Model.meta s) = Some b').
  { eexists. apply marshal_some. intros t Ht. apply elem_of_list_fmap in Ht as ([k i] & -> & Ht). apply elem_of_map_to_list in Ht. by eapply Hk. }
  destruct E as [b' E]. exists b'. rewrite E. split; [done|]. intros Hf. eapply meta_response_round; [|exact E|exact Hf]. intros k i Hi'. by eapply Hk.
Qed.
