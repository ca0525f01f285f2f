(** How often UAA is asked when requests run concurrently. *)
From Coq Require Import Ascii String.
From stdpp Require Import prelude gmap strings list.
From Verif.Base Require Import Str Url.
From Verif.Promql Require Import Model.
From Verif.Auth Require Import Model System Spec Trace Local Global.
Open Scope string_scope.
Open Scope list_scope.
Open Scope Z_scope.

Section Pace.
Context {L : lib} {C : config}.
Implicit Types (l : list (act L)) (h : list (nat * act L)).
Local Arguments own : simpl never.

(** asking, and setting the time of the last asking, follow a load of that time and a later clock reading *)
Definition pace l (x : act L) : Prop :=
  match x with
  | AUaa _ => exists l1 v l2 t, l = l1 ++ ALastLoad v :: l2 /\ (forall v', ALastLoad v' ∉ l2) /\ ANow t ∈ l2 /\ v + cf_refresh C <= t
  | ALastCas old new _ => exists l1 t, l = l1 ++ [ANow t; ANow new] /\ old + cf_refresh C <= t
  | _ => True
  end.
Lemma pace_mono a l x : pace l x -> pace (a ++ l) x.
Proof.
  destruct x; cbn; try done.
  - intros (l1 & v & l2 & t & -> & ?). exists (a ++ l1), v, l2, t. by rewrite <- app_assoc.
  - intros (l1 & t & -> & ?). exists (a ++ l1), t. by rewrite <- app_assoc.
Qed.
Lemma pace_app a b : each pace a -> each pace b -> each pace (a ++ b).
Proof. apply each_app, pace_mono. Qed.
Notation paced := (holds (each pace)).
Definition plain {X} (e : eff L X) : bool := match e with UaaGet => false | LastCas _ _ => false | _ => true end.
Lemma p_do {X} (e : eff L X) : plain e = true -> paced (do e).
Proof. intros H. apply holds_do; [apply each_nil|]. intros x _. apply each_one. by destruct e. Qed.
Lemma p_ret {A} (a : A) : paced (@Ret L A a).
Proof. apply holds_ret, each_nil. Qed.
Lemma p_panic {A} : paced (@Panic L A).
Proof. apply holds_panic, each_nil. Qed.
Lemma p_bind {A B} (p : prog L A) (f : A -> prog L B) : paced p -> (forall a, paced (f a)) -> paced (bind p f).
Proof. apply holds_bind, pace_app. Qed.
Lemma p_forever {S B} (body : S -> prog L (S + B)) s : (forall s, paced (body s)) -> paced (forever body s).
Proof. apply holds_forever, pace_app. Qed.
Hint Resolve p_ret p_panic : core.
Ltac chain := apply p_bind; [try by apply p_do|intros ?].
Lemma p_store ks : forall cur, paced (store_keys L ks cur).
Proof.
  induction ks as [|[kid v] ks IH]; intros cur; cbn [store_keys]; [done|].
  destruct (bool_decide _); [done|]. destruct (rsa_key L v); [|done]. by chain.
Qed.
Lemma p_delete kids : paced (delete_keys L kids).
Proof. induction kids; cbn; [done|]. by chain. Qed.
Lemma each_short l : (forall x, x ∈ l -> match x with AUaa _ | ALastCas _ _ _ => False | _ => True end) -> each pace l.
Proof. intros H. apply (each_Forall (fun x => match x with AUaa _ | ALastCas _ _ _ => False | _ => True end)); [by intros a []|by apply Forall_forall]. Qed.
Lemma p_refresh : paced (refresh L C).
Proof.
  intros n l q H. unfold refresh in H.
  apply tr_bind in H as [(p' & H & ->)|(l1 & l2 & last & -> & H1 & H)].
  { eapply p_do in H; [done|done]. }
  apply tr_do_ret in H1 as [-> _].
  apply tr_bind in H as [(p' & H & ->)|(l3 & l4 & t & -> & H1 & H)].
  { apply pace_app; [by apply each_one|]. by eapply p_do in H. }
  apply tr_do_ret in H1 as [-> _].
  destruct (bool_decide_reflect (t < last + cf_refresh C)) as [Hlt|Hge].
  { apply tr_inv in H as [-> _]. by apply pace_app; [apply each_one|apply each_one]. }
  apply tr_bind in H as [(p' & H & ->)|(l5 & l6 & t' & -> & H1 & H)].
  { apply pace_app; [by apply each_one|]. apply pace_app; [by apply each_one|]. by eapply p_do in H. }
  apply tr_do_ret in H1 as [-> _].
  set (pre := [ALastLoad last; ANow t; ANow t'] : list (act L)).
  change (each pace (pre ++ l6)).
  assert (Hpre : each pace pre). { apply each_short. intros x Hx. unfold pre in Hx. rewrite !elem_of_cons, elem_of_nil in Hx. by destruct Hx as [->|[->|[->|[]]]]. }
  apply tr_bind in H as [(p' & H & ->)|(l7 & l8 & okk & -> & H1 & H)].
  { apply tr_inv in H as [[-> ->]|(n' & x & l' & -> & -> & _ & H)]; [by rewrite app_nil_r|].
    apply tr_inv in H as [-> _]. intros k y Hy. apply lookup_app_Some in Hy as [Hy|[Hk Hy]].
    - rewrite take_app_le by (apply lookup_lt_Some in Hy; lia). by apply Hpre.
    - apply list_lookup_singleton_Some in Hy as [Ek <-]. rewrite take_app_ge by done.
      replace (k - length pre)%nat with 0%nat by done. cbn. exists [ALastLoad last], t. split; [done|lia]. }
  apply tr_do_ret in H1 as [-> _].
  set (pre2 := pre ++ [ALastCas last t' okk]).
  assert (Hpre2 : each pace pre2).
  { unfold pre2. intros k y Hy. apply lookup_app_Some in Hy as [Hy|[Hk Hy]].
    - rewrite take_app_le by (apply lookup_lt_Some in Hy; lia). by apply Hpre.
    - apply list_lookup_singleton_Some in Hy as [Ek <-]. rewrite take_app_ge by done.
      replace (k - length pre)%nat with 0%nat by done. cbn. exists [ALastLoad last], t. split; [done|lia]. }
  rewrite app_assoc. change (each pace (pre2 ++ l8)).
  assert (Hask : forall r, each pace (pre2 ++ [AUaa r])).
  { intros r k y Hy. apply lookup_app_Some in Hy as [Hy|[Hk Hy]].
    - rewrite take_app_le by (apply lookup_lt_Some in Hy; lia). by apply Hpre2.
    - apply list_lookup_singleton_Some in Hy as [Ek <-]. rewrite take_app_ge by done.
      replace (k - length pre2)%nat with 0%nat by done. exists [], last, [ANow t; ANow t'; ALastCas last t' okk], t.
      split; [done|]. split; [|split; [left|lia]]. intros v Hv. rewrite !elem_of_cons, elem_of_nil in Hv. by destruct Hv as [?|[?|[?|[]]]]. }
  apply tr_bind in H as [(p' & H & ->)|(l9 & l10 & r & -> & H1 & H)].
  { apply tr_inv in H as [[-> ->]|(n' & x & l' & -> & -> & _ & H)]; [by rewrite app_nil_r|].
    apply tr_inv in H as [-> _]. apply Hask. }
  apply tr_do_ret in H1 as [-> _]. rewrite app_assoc. apply pace_app; [apply Hask|]. revert H.
  match goal with |- tr _ ?p _ _ -> _ => assert (Hp : paced p) end.
  { destruct r as [r|]; [|done]. destruct (bool_decide _); [|done]. destruct (json_keys L _); [|done].
    chain. chain; [apply p_store|]. destruct a0; [|done]. chain; [apply p_delete|done]. }
  apply Hp.
Qed.
Lemma p_uaa_read tok : paced (uaa_read L C tok).
Proof.
  unfold uaa_read. destruct (bool_decide _); [done|]. destruct (jose_headers L _) as [[[|alg|] kid]|]; try done.
  - destruct (bool_decide _); [|done]. destruct kid; try done. chain.
    + unfold load_or_fetch. chain. destruct a; [done|]. chain; [apply p_refresh|by apply p_do].
    + destruct a; [|done]. destruct (jose_verify L _ _); [|by chain]. unfold accept. destruct (json_claims L _); [|done].
      chain. by destruct (bool_decide _).
  - by chain.
Qed.
Lemma p_paginated u tok : paced (paginated L u tok).
Proof. apply p_forever. intros s. unfold page_step, do_resource_request, do_request. repeat chain; done. Qed.
Lemma p_available tok : paced (available L C tok).
Proof.
  unfold available. destruct (url_parse L _); [|done]. chain; [apply p_paginated|]. destruct a; [|done].
  destruct (url_parse L _); [|done]. chain; [apply p_paginated|]. by destruct a.
Qed.
Lemma p_fetch id tok r : paced (fetch L C id tok r).
Proof. unfold fetch. chain; [apply p_available|]. chain. by chain. Qed.
Lemma p_authorized id tok : paced (is_authorized L C id tok).
Proof.
  unfold is_authorized. chain. destruct a; [|apply p_fetch]. chain. destruct (bool_decide _); [|apply p_fetch].
  destruct (contained _ _); [done|]. destruct (bool_decide _); [done|]. apply p_fetch.
Qed.
Lemma p_authorize_ids ids tok : paced (authorize_ids L C ids tok).
Proof. induction ids as [|id ids IH]; cbn; [done|]. chain; [apply p_authorized|]. by chain. Qed.
Lemma p_expand c ids : forall sets, paced (expand L C ids sets c).
Proof.
  induction ids as [|id ids IH]; intros sets; cbn; [done|]. destruct (us_admin c); [done|].
  chain; [apply p_authorize_ids|]. by destruct a.
Qed.
Lemma p_related names tok : paced (related L C names tok).
Proof.
  unfold related. destruct names; [done|]. destruct (url_parse L _); [|done]. chain; [apply p_paginated|]. by destruct a.
Qed.
Lemma p_serve r : paced (serve L C r).
Proof.
  unfold serve. destruct (bool_decide _); [|done]. destruct (read_id _) as [id|].
  { unfold read_handler. destruct (bool_decide _); [done|]. chain; [apply p_uaa_read|]. destruct a as [u|]; [|done].
    destruct (us_admin u); [done|]. chain; [apply p_authorized|]. by destruct a. }
  destruct (bool_decide _ || _).
  { unfold query_handler. destruct (bool_decide _); [done|]. destruct (promql_parse L _); [|done]. chain.
    destruct a as [|i ids]; [done|]. chain; [apply p_uaa_read|]. destruct a as [u|]; [|done].
    chain; [apply p_related|]. chain; [apply p_expand|]. by destruct a0. }
  destruct (bool_decide _); [|by destruct (bool_decide _)].
  unfold meta_handler. destruct (bool_decide _); [done|]. chain; [apply p_uaa_read|]. destruct a as [u|]; [|done].
  chain. destruct a as [m|]; [|done]. destruct (us_admin u); [done|]. chain; [apply p_available|done].
Qed.
Lemma p_prune : paced (forever (prune_step L) ()).
Proof.
  apply p_forever. intros s. unfold prune_step. chain. chain. chain; [|done].
  induction a0 as [|[tok e] es IH]; cbn; [done|]. destruct (bool_decide _); [|done]. by chain.
Qed.
Lemma p_start kd : paced (start L C kd).
Proof.
  destruct kd; cbn [start]; (apply p_bind; [|by intros ?]);
    auto using p_serve, p_authorized, p_uaa_read, p_refresh, p_prune.
Qed.

(** ** The clock and the time of the last asking *)
Definition load_pace h (x : nat * act L) : Prop :=
  match x.2 with
  | ALastLoad v => forall j o n, (j, ALastCas o n true) ∈ h -> n <= v
  | ANow t => forall j t', (j, ANow t') ∈ h -> t' <= t
  | _ => True
  end.
Record pinv (s : sys L) : Prop := {
  pi_inv : inv (C := C) s;
  pi_clock : forall i t, (i, ANow t) ∈ s_log s -> t <= m_clock (s_mem s);
  pi_last : forall j o n, (j, ALastCas o n true) ∈ s_log s -> n <= m_last (s_mem s);
  pi_loads : each load_pace (s_log s) }.
Lemma pinv_init clock : pinv (initial L C clock).
Proof.
  split; [apply inv_init| | |apply each_nil]; intros; by (match goal with H : _ ∈ s_log (initial _ _ _) |- _ => apply elem_of_nil in H end).
Qed.
Lemma pinv_step s s' : 0 <= cf_refresh C -> pinv s -> step L C s s' -> pinv s'.
Proof.
  intros Hpos [Hinv Hc Hl Hp] H. assert (Hinv' : inv (C := C) s') by (by eapply inv_step).
  destruct H as [m ts h kd Hkd|m ts h i kd p Hi|m ts h i kd X e k x m' Hi Hs]; [by split|by split|]. cbn in *.
  assert (Hnew : each load_pace (h ++ [(i, act_of e x)])).
  { intros n y Hy. apply lookup_app_Some in Hy as [Hy|[Hge Hy]].
    - rewrite take_app_le by (apply lookup_lt_Some in Hy; lia). by apply Hp.
    - rewrite take_app_ge by done. apply list_lookup_singleton_Some in Hy as [E <-].
      replace (n - length h)%nat with 0%nat by done. cbn [take]. rewrite app_nil_r. unfold load_pace. cbn [snd].
      destruct e; cbn in Hs; try done; destruct Hs as [Hx _]; cbn.
      + intros j t' Ht. apply Hc in Ht. lia.
      + subst x. intros j o n0 Hn. by eapply Hl. }
  split; [done| | |done]; cbn.
  - intros j t Ht. apply elem_of_app in Ht as [Ht|Ht].
    + apply Hc in Ht. destruct e; cbn in Hs; try (by subst m'); try (destruct Hs as [_ ->]; done).
      * destruct Hs as [? ->]. cbn. lia.
      * destruct Hs as [-> ->]. by destruct (bool_decide _).
    + apply elem_of_list_singleton in Ht. injection Ht as -> Et. destruct e; try done. cbn in Et, Hs. injection Et as ->. by destruct Hs as [_ ->].
  - intros j o n Hn. apply elem_of_app in Hn as [Hn|Hn].
    + apply Hl in Hn. destruct e; cbn in Hs; try (by subst m'); try (destruct Hs as [_ ->]; done).
      destruct Hs as [-> ->]. destruct (bool_decide_reflect (m_last m = old)) as [<-|]; [|done]. cbn.
      (* old + interval <= t <= new *)
      destruct (inv_threads _ Hinv i _ _ Hi) as [n' Ht]. cbn in Ht.
      apply (tr_snoc_vis _ _ _ _ _ true) in Ht; [|done].
      apply p_start in Ht. cbn in Ht. apply each_mid in Ht as (l1 & t & El & Hle).
      replace (l1 ++ [ANow t; ANow new]) with ((l1 ++ [ANow t]) ++ [ANow new]) in El by (by rewrite <- app_assoc).
      apply own_split in El as (h1 & h2 & -> & Eh1 & _).
      pose proof (each_mid _ _ _ _ Hp) as Hr. cbn in Hr.
      specialize (Hr i t). assert (t <= new); [|lia]. apply Hr. apply own_elem. rewrite Eh1. apply elem_of_app. right. left.
    + apply elem_of_list_singleton in Hn. injection Hn as -> En. destruct e; try done. cbn in En, Hs. injection En as -> -> <-.
      destruct Hs as [_ ->]. done.
Qed.
Lemma pinv_reachable clock s : 0 <= cf_refresh C -> reachable L C clock s -> pinv s.
Proof. intros H. induction 1; [apply pinv_init|by eapply pinv_step]. Qed.

(** Whoever loads the time of the last asking after it was set, and then asks, does so an interval later *)
Lemma pace_ok clock s h1 j o n h2 i v h3 r h4 : 0 <= cf_refresh C -> reachable L C clock s ->
  s_log s = h1 ++ (j, ALastCas o n true) :: h2 ++ (i, ALastLoad v) :: h3 ++ (i, AUaa r) :: h4 ->
  (forall v', (i, ALastLoad v') ∉ h3) ->
  exists t, (i, ANow t) ∈ h3 /\ n + cf_refresh C <= t.
Proof.
  intros Hpos Hr E Hno. apply pinv_reachable in Hr as [Hinv _ _ Hp]; [|done].
  assert (Hv : n <= v).
  { rewrite E in Hp. replace (h1 ++ (j, ALastCas o n true) :: h2 ++ (i, ALastLoad v) :: h3 ++ (i, AUaa r) :: h4)
      with ((h1 ++ (j, ALastCas o n true) :: h2) ++ (i, ALastLoad v) :: h3 ++ (i, AUaa r) :: h4) in Hp by (by rewrite <- app_assoc).
    apply each_mid in Hp. cbn in Hp. eapply Hp. apply elem_of_app. right. left. }
  set (a := h1 ++ (j, ALastCas o n true) :: h2).
  assert (Eo : own i (s_log s) = (own i a ++ ALastLoad v :: own i h3) ++ AUaa r :: own i h4).
  { rewrite E. replace (h1 ++ (j, ALastCas o n true) :: h2 ++ (i, ALastLoad v) :: h3 ++ (i, AUaa r) :: h4)
      with (a ++ [(i, ALastLoad v)] ++ h3 ++ [(i, AUaa r)] ++ h4) by (unfold a; by rewrite <- app_assoc).
    rewrite !own_app, !own_one_eq. by rewrite <- app_assoc. }
  assert (Hx : (i, AUaa r) ∈ s_log s). { rewrite E. rewrite !elem_of_app, !elem_of_cons, !elem_of_app, !elem_of_cons, !elem_of_app, elem_of_cons. auto 10. }
  destruct (inv_fresh s Hinv _ _ Hx) as [[kd p] Hi]. destruct (inv_threads s Hinv _ _ _ Hi) as [n' Ht].
  apply p_start in Ht. rewrite Eo in Ht. apply each_mid in Ht as (l1 & v' & l2 & t & El & Hno' & Ht & Hle).
  assert (Hu : l1 = own i a /\ v' = v /\ l2 = own i h3).
  { clear -El Hno Hno'. revert l1 El. generalize (own i a). intros b. assert (Hno3 : forall v, ALastLoad v ∉ own i h3) by (intros w Hw; by apply own_elem, Hno in Hw).
    revert Hno3. generalize (own i h3). intros c Hno3. induction b as [|x b IH]; intros [|y l1] E; cbn in E.
    - by simplify_eq.
    - injection E as <- ->. exfalso. apply (Hno3 v'). apply elem_of_app. right. left.
    - injection E as -> <-. exfalso. apply (Hno' v). apply elem_of_app. right. left.
    - injection E as -> E. apply IH in E as (-> & -> & ->). done. }
  destruct Hu as (-> & -> & ->). exists t. split; [by apply own_elem|lia].
Qed.
End Pace.
