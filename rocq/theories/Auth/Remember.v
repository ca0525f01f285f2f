(** The token cache over time: what was listed for a token stays known until the lifetime is over. *)
From Coq Require Import Ascii String.
From stdpp Require Import prelude gmap strings list.
From Verif.Base Require Import Str Url.
From Verif.Promql Require Import Model Spec.
From Verif.Auth Require Import Model System Spec SpecRemember Trace Local Global Complete.
Open Scope string_scope.
Open Scope list_scope.
Open Scope Z_scope.

Section Remember.
Context {L : lib} {C : config}.
Implicit Types (l : list (act L)) (h : list (nat * act L)).
Local Arguments own : simpl never.

(** ** Only the pruner deletes *)
Definition undeleted (x : act L) : Prop := match x with ACacheDelete _ => False | _ => True end.
Notation quiet := (holds (Forall undeleted)).
Definition calm_eff {X} (e : eff L X) : bool := match e with CacheDelete _ => false | _ => true end.
Lemma d_do {X} (e : eff L X) : calm_eff e = true -> quiet (do e).
Proof. intros H. apply holds_do; [constructor|]. intros x _. constructor; [|constructor]. by destruct e. Qed.
Lemma d_ret {A} (a : A) : quiet (@Ret L A a).
Proof. apply holds_ret. constructor. Qed.
Lemma d_panic {A} : quiet (@Panic L A).
Proof. apply holds_panic. constructor. Qed.
Lemma d_bind {A B} (p : prog L A) (f : A -> prog L B) : quiet p -> (forall a, quiet (f a)) -> quiet (bind p f).
Proof. apply holds_bind. intros. by apply Forall_app. Qed.
Lemma d_forever {S B} (body : S -> prog L (S + B)) s : (forall s, quiet (body s)) -> quiet (forever body s).
Proof. apply holds_forever. intros. by apply Forall_app. Qed.
Hint Resolve d_ret d_panic : core.
Ltac chain := apply d_bind; [try by apply d_do|intros ?].
Lemma d_store ks : forall cur, quiet (store_keys L ks cur).
Proof.
  induction ks as [|[kid v] ks IH]; intros cur; cbn [store_keys]; [done|].
  destruct (bool_decide _); [done|]. destruct (rsa_key L v); [|done]. by chain.
Qed.
Lemma d_delete kids : quiet (delete_keys L kids).
Proof. induction kids; cbn; [done|]. by chain. Qed.
Lemma d_refresh : quiet (refresh L C).
Proof.
  unfold refresh. chain. chain. destruct (bool_decide _); [done|]. chain. chain. chain. destruct a3 as [r|]; [|done].
  destruct (bool_decide _); [|done]. destruct (json_keys L _); [|done].
  chain. chain; [apply d_store|]. destruct a4; [|done]. chain; [apply d_delete|done].
Qed.
Lemma d_uaa_read t : quiet (uaa_read L C t).
Proof.
  unfold uaa_read. destruct (bool_decide _); [done|]. destruct (jose_headers L _) as [[[|alg|] kid]|]; try done.
  - destruct (bool_decide _); [|done]. destruct kid; try done. chain.
    + unfold load_or_fetch. chain. destruct a; [done|]. chain; [apply d_refresh|by apply d_do].
    + destruct a; [|done]. destruct (jose_verify L _ _); [|by chain]. unfold accept. destruct (json_claims L _); [|done].
      chain. by destruct (bool_decide _).
  - by chain.
Qed.
Lemma d_paginated u tok : quiet (paginated L u tok).
Proof. apply d_forever. intros s. unfold page_step, do_resource_request, do_request. chain; [|done]. chain; [|done]. chain. chain. by chain. Qed.
Lemma d_available tok : quiet (available L C tok).
Proof.
  unfold available. destruct (url_parse L _); [|done]. chain; [apply d_paginated|]. destruct a; [|done].
  destruct (url_parse L _); [|done]. chain; [apply d_paginated|]. by destruct a.
Qed.
Lemma d_related names tok : quiet (related L C names tok).
Proof.
  unfold related. destruct names; [done|]. destruct (url_parse L _); [|done]. chain; [apply d_paginated|]. by destruct a.
Qed.
Lemma d_fetch id tok r : quiet (fetch L C id tok r).
Proof. unfold fetch. chain; [apply d_available|]. chain. by chain. Qed.
Lemma d_authorized id tok : quiet (is_authorized L C id tok).
Proof.
  unfold is_authorized. chain. destruct a; [|apply d_fetch]. chain. destruct (bool_decide _); [|apply d_fetch].
  destruct (contained _ _); [done|]. destruct (bool_decide _); [done|]. apply d_fetch.
Qed.
Lemma d_authorize_ids ids tok : quiet (authorize_ids L C ids tok).
Proof. induction ids as [|id ids IH]; cbn; [done|]. chain; [apply d_authorized|]. by chain. Qed.
Lemma d_expand c ids : forall sets, quiet (expand L C ids sets c).
Proof.
  induction ids as [|id ids IH]; intros sets; cbn; [done|]. destruct (us_admin c); [done|].
  chain; [apply d_authorize_ids|]. by destruct a.
Qed.
Lemma d_serve r : quiet (serve L C r).
Proof.
  unfold serve. destruct (bool_decide _); [|done]. destruct (read_id _) as [id|].
  { unfold read_handler. destruct (bool_decide _); [done|]. chain; [by apply d_uaa_read|]. destruct a as [u|]; [|done].
    destruct (us_admin u); [done|]. chain; [apply d_authorized|]. by destruct a. }
  destruct (bool_decide _ || _).
  { unfold query_handler. destruct (bool_decide _); [done|]. destruct (promql_parse L _); [|done]. chain.
    destruct a as [|i ids]; [done|]. chain; [by apply d_uaa_read|]. destruct a as [u|]; [|done].
    chain; [apply d_related|]. chain; [apply d_expand|]. by destruct a0. }
  destruct (bool_decide _); [|by destruct (bool_decide _)].
  unfold meta_handler. destruct (bool_decide _); [done|]. chain; [by apply d_uaa_read|]. destruct a as [u|]; [|done].
  chain. destruct a as [m|]; [|done]. destruct (us_admin u); [done|]. chain; [apply d_available|done].
Qed.

(** ... what it saw expired *)
Definition outdated l (x : act L) : Prop :=
  match x with
  | ACacheDelete tok => exists la now es lb e, l = la ++ ANow now :: ACacheRange es :: lb /\
      (tok, e) ∈ es /\ en_expires e < now
  | _ => True
  end.
Lemma outdated_mono a l x : outdated l x -> outdated (a ++ l) x.
Proof.
  destruct x; cbn; try done. intros (la & now & es & lb & e & -> & ?). exists (a ++ la), now, es, lb, e. by rewrite <- app_assoc.
Qed.
Lemma outdated_app a b : each outdated a -> each outdated b -> each outdated (a ++ b).
Proof. apply each_app, outdated_mono. Qed.
Lemma quiet_outdated {A} (p : prog L A) : quiet p -> holds (each outdated) p.
Proof. intros H n l q Hp. apply H in Hp. revert Hp. apply each_Forall. by intros a []. Qed.
Definition expired now (es : list (string * entry)) (x : act L) : Prop :=
  exists tok e, x = ACacheDelete tok /\ (tok, e) ∈ es /\ en_expires e < now.
Lemma prune_entries_tr now es : forall es', (forall x, x ∈ es' -> x ∈ es) -> holds (Forall (expired now es)) (prune_entries L now es').
Proof.
  induction es' as [|[tok e] es' IH]; intros Hin; cbn; [apply holds_ret; constructor|].
  assert (IH' : holds (Forall (expired now es)) (prune_entries L now es')) by (apply IH; intros x Hx; apply Hin; by right).
  destruct (bool_decide_reflect (en_expires e < now)); [|done].
  apply holds_bind; [intros; by apply Forall_app| |done]. apply holds_do; [constructor|]. intros x _. constructor; [|constructor].
  exists tok, e. split; [done|]. split; [|done]. apply Hin. left.
Qed.
Lemma prune_outdated : holds (each outdated) (forever (prune_step L) ()).
Proof.
  apply holds_forever; [apply outdated_app|]. intros s n l q H. unfold prune_step in H.
  assert (H1 : forall l, Forall undeleted l -> each outdated l) by (intros l0; apply each_Forall; by intros a []).
  apply tr_bind in H as [(p' & H & _)|(l1 & l2 & now & -> & H2 & H)].
  { apply H1. eapply d_do; [|exact H]. done. }
  apply tr_do_ret in H2 as [-> _]. apply tr_bind in H as [(p' & H & _)|(l3 & l4 & es & -> & H2 & H)].
  { apply H1. apply Forall_app. split; [by repeat constructor|]. eapply d_do; [|exact H]. done. }
  apply tr_do_ret in H2 as [-> _]. cbn [act_of].
  assert (Hl : Forall (expired now es) l4).
  { apply tr_bind in H as [(p' & H & _)|(l5 & l6 & u & -> & H2 & H)].
    - eapply prune_entries_tr; [|exact H]. done.
    - apply tr_inv in H as [-> _]. rewrite app_nil_r. eapply prune_entries_tr; [|exact H2]. done. }
  intros i x Hx. change ([ANow now] ++ [ACacheRange es] ++ l4) with ([ANow now; ACacheRange es] ++ l4) in *.
  apply lookup_app_Some in Hx as [Hx|[Hge Hx]].
  { destruct i as [|[|i]]; by simplify_eq/=. }
  rewrite Forall_lookup in Hl. apply Hl in Hx as (tok & e & -> & Hin & Hlt). cbn [length] in Hge.
  rewrite take_app_ge by (cbn; lia). exists [], now, es, (take (i - 2) l4), e. done.
Qed.
Lemma start_outdated kd : holds (each outdated) (start L C kd).
Proof.
  destruct kd; cbn [start]; (apply holds_bind; [apply outdated_app| |intros ?; try done; try apply quiet_outdated, d_ret]).
  - apply quiet_outdated, d_serve.
  - apply quiet_outdated, d_authorized.
  - apply quiet_outdated, d_uaa_read.
  - apply quiet_outdated, d_refresh.
  - apply prune_outdated.
Qed.
Lemma own_outdated s i a x b : inv (L := L) (C := C) s -> own i (s_log s) = a ++ x :: b -> outdated a x.
Proof.
  intros Hinv E. assert (Hx : (i, x) ∈ s_log s). { apply own_elem. rewrite E. apply elem_of_app. right. left. }
  destruct (inv_fresh s Hinv _ _ Hx) as [[kd p] Hi]. destruct (inv_threads s Hinv _ _ _ Hi) as [n Ht].
  apply start_outdated in Ht. rewrite E in Ht. by eapply each_mid.
Qed.

(** ** The cache is what the history made of it *)
Definition upd (m : gmap string entry) (x : nat * act L) : gmap string entry :=
  match x.2 with ACacheStore t e => <[t := e]> m | ACacheDelete t => delete t m | _ => m end.
Definition cache_of h : gmap string entry := foldl upd ∅ h.
Local Arguments cache_of : simpl never.
Lemma cache_snoc h x : cache_of (h ++ [x]) = upd (cache_of h) x.
Proof. unfold cache_of. by rewrite foldl_app. Qed.
Definition seen h (x : nat * act L) : Prop :=
  match x.2 with
  | ACacheLoad t o => o = cache_of h !! t
  | ACacheRange es => es ≡ₚ map_to_list (cache_of h)
  | ANow t => forall j t', (j, ANow t') ∈ h -> t' <= t
  | _ => True
  end.
Record rinv (s : sys L) : Prop := {
  ri_inv : inv (C := C) s;
  ri_clock : forall i t, (i, ANow t) ∈ s_log s -> t <= m_clock (s_mem s);
  ri_cache : m_cache (s_mem s) = cache_of (s_log s);
  ri_seen : each seen (s_log s) }.
Lemma rinv_init clock : rinv (initial L C clock).
Proof.
  split; [apply inv_init| |done|apply each_nil]. intros i t H. by apply elem_of_nil in H.
Qed.
Lemma rinv_step s s' : rinv s -> step L C s s' -> rinv s'.
Proof.
  intros [Hinv Hc Hm Hp] H. assert (Hinv' : inv (C := C) s') by (by eapply inv_step).
  destruct H as [m ts h kd Hkd|m ts h i kd p Hi|m ts h i kd X e k x m' Hi Hs]; [by split|by split|]. cbn in *.
  split; [done| | |]; cbn.
  - intros j t Ht. apply elem_of_app in Ht as [Ht|Ht].
    + apply Hc in Ht. destruct e; cbn in Hs; try (by subst m'); try (destruct Hs as [_ ->]; done).
      * destruct Hs as [? ->]. cbn. lia.
      * destruct Hs as [-> ->]. by destruct (bool_decide _).
    + apply elem_of_list_singleton in Ht. injection Ht as -> Et. destruct e; try done. cbn in Et, Hs. injection Et as ->. by destruct Hs as [_ ->].
  - rewrite cache_snoc, <- Hm. unfold upd. cbn [snd]. destruct e; cbn in Hs |- *; try (by subst m'); try (destruct Hs as [_ ->]; done).
    destruct Hs as [-> ->]. by destruct (bool_decide _).
  - intros n y Hy. apply lookup_app_Some in Hy as [Hy|[Hge Hy]].
    + rewrite take_app_le by (apply lookup_lt_Some in Hy; lia). by apply Hp.
    + rewrite take_app_ge by done. apply list_lookup_singleton_Some in Hy as [E <-].
      replace (n - length h)%nat with 0%nat by done. cbn [take]. rewrite app_nil_r. unfold seen. cbn [snd]. rewrite <- Hm.
      destruct e; cbn in Hs |- *; try done; try (by destruct Hs).
      destruct Hs as [Hx _]. intros j t' Ht. apply Hc in Ht. lia.
Qed.
Lemma rinv_reachable clock s : reachable L C clock s -> rinv s.
Proof. induction 1; [apply rinv_init|by eapply rinv_step]. Qed.

Lemma cache_of_only h tok e :
  (forall k, (k, ACacheDelete tok) ∉ h) -> (forall k e', (k, ACacheStore tok e') ∈ h -> e' = e) ->
  cache_of h !! tok = None /\ (forall k e', (k, ACacheStore tok e') ∉ h) \/ cache_of h !! tok = Some e.
Proof.
  induction h as [|[k x] h IH] using rev_ind; intros Hd Hs.
  { left. split; [apply lookup_empty|]. intros k e' H. by apply elem_of_nil in H. }
  rewrite cache_snoc. unfold upd. cbn [snd].
  assert (IH' : cache_of h !! tok = None /\ (forall k e', (k, ACacheStore tok e') ∉ h) \/ cache_of h !! tok = Some e).
  { apply IH; intros; [intros Hk; eapply Hd|eapply Hs]; apply elem_of_app; by left. }
  assert (Hx : (k, x) ∈ h ++ [(k, x)]) by (apply elem_of_app; right; by left).
  assert (Hkeep : x = ACacheDelete tok \/ (exists e', x = ACacheStore tok e') \/
    (forall e', x <> ACacheStore tok e') /\ x <> ACacheDelete tok).
  { destruct x; try (right; right; done).
    - destruct (decide (token = tok)) as [->|]; [right; left; eauto|]. right; right. split; [|done]. intros e' [= -> ->]. done.
    - destruct (decide (token = tok)) as [->|]; [by left|]. right; right. split; [done|]. intros [= ->]. done. }
  destruct Hkeep as [->|[(e' & ->)|[H1 H2]]].
  - exfalso. by eapply Hd.
  - right. rewrite lookup_insert. f_equal. by eapply Hs.
  - assert (E : match x with ACacheStore t e0 => <[t := e0]> (cache_of h) | ACacheDelete t => delete t (cache_of h) | _ => cache_of h end !! tok
               = cache_of h !! tok).
    { destruct x; try done; [apply lookup_insert_ne|apply lookup_delete_ne]; intros ->; [by eapply H1|done]. }
    rewrite E. destruct IH' as [[E1 E2]|E1]; [|by right]. left. split; [done|]. intros k' e' H.
    apply elem_of_app in H as [H|H]; [by eapply E2|]. apply elem_of_list_singleton in H. injection H as -> <-. by eapply H1.
Qed.

(** If all that was ever stored for the token is e, then whoever loads it and later sees a clock at which e has
    not expired, has loaded e *)
Lemma still_there s h i tok o h' j t h'' e k0 :
  rinv s -> s_log s = h ++ (i, ACacheLoad tok o) :: h' ++ (j, ANow t) :: h'' ->
  (forall k e', (k, ACacheStore tok e') ∈ h -> e' = e) -> (k0, ACacheStore tok e) ∈ h -> t <= en_expires e ->
  o = Some e.
Proof.
  intros [Hinv _ _ Hseen] E Hst H0 Ht.
  assert (Eo : o = cache_of h !! tok). { rewrite E in Hseen. by apply each_mid in Hseen. }
  destruct (cache_of_only h tok e) as [[_ Hn]|Hs]; [|done| |by rewrite Eo].
  2:{ exfalso. by eapply Hn. }
  intros k Hk. apply elem_of_list_split in Hk as (a & b & Eh).
  assert (Ek : own k (s_log s) = own k a ++ ACacheDelete tok :: own k (b ++ (i, ACacheLoad tok o) :: h' ++ (j, ANow t) :: h'')).
  { rewrite E, Eh. rewrite <- app_assoc. cbn [app]. rewrite own_app.
    change ((k, ACacheDelete tok) :: b ++ (i, ACacheLoad tok o) :: h' ++ (j, ANow t) :: h'')
      with ([(k, ACacheDelete tok)] ++ (b ++ (i, ACacheLoad tok o) :: h' ++ (j, ANow t) :: h'')).
    rewrite own_app, own_one_eq. done. }
  destruct (own_outdated _ _ _ _ _ Hinv Ek) as (la & now & es & lb & e' & El & Hin & Hlt).
  replace (la ++ ANow now :: ACacheRange es :: lb) with ((la ++ [ANow now]) ++ ACacheRange es :: lb) in El by (by rewrite <- app_assoc).
  apply own_split in El as (a1 & a2 & -> & Ea1 & _).
  assert (Hnow : (k, ANow now) ∈ a1). { apply own_elem. rewrite Ea1. apply elem_of_app. right. left. }
  assert (Hle : now <= t).
  { assert (Es : s_log s = (h ++ (i, ACacheLoad tok o) :: h') ++ (j, ANow t) :: h'') by (rewrite E; by rewrite <- app_assoc).
    rewrite Es in Hseen. apply each_mid in Hseen. cbn in Hseen. apply (Hseen k). rewrite Eh. rewrite !elem_of_app. auto. }
  assert (Hr : es ≡ₚ map_to_list (cache_of a1)).
  { rewrite E, Eh in Hseen. rewrite <- !app_assoc in Hseen. cbn [app] in Hseen. by apply each_mid in Hseen. }
  rewrite Hr in Hin. apply elem_of_map_to_list in Hin.
  assert (Hsub : forall x, x ∈ a1 -> x ∈ h). { intros x Hx. rewrite Eh, !elem_of_app. auto. }
  assert (Hee : e' = e).
  { assert (Hex : forall h0, cache_of h0 !! tok = Some e' -> exists k', (k', ACacheStore tok e') ∈ h0).
    { clear. induction h0 as [|[k x] h0 IH] using rev_ind; [unfold cache_of; cbn; by rewrite lookup_empty|]. rewrite cache_snoc. unfold upd. cbn [snd].
      intros H. assert (Hc : x = ACacheStore tok e' \/ cache_of h0 !! tok = Some e').
      { destruct x; auto.
        - apply lookup_insert_Some in H as [[-> ->]|[_ ?]]; auto.
        - apply lookup_delete_Some in H as [_ ?]; auto. }
      destruct Hc as [->|Hc]; [exists k; apply elem_of_app; right; by left|].
      apply IH in Hc as [k' Hk']. exists k'. apply elem_of_app. by left. }
    apply Hex in Hin as [k' Hk']. eapply Hst, Hsub, Hk'. }
  subst e'. lia.
Qed.

(** ** A listing says one thing *)
Lemma pages_unique tok : forall u cs1 rs1, pages L tok u cs1 rs1 -> forall cs2 rs2 r1 r2, pages L tok u cs2 rs2 ->
  cs1 ++ r1 = cs2 ++ r2 -> rs1 = rs2 /\ cs1 = cs2 /\ r1 = r2.
Proof.
  induction 1 as [u body rs Hj|u body rs href v cs rs' Hj Hh Hv Hp IH]; intros cs2 rs2 r1 r2 H2 E; destruct H2 as [u body2 rs2 Hj2|u body2 rs2 href2 v2 cs2 rs2' Hj2 Hh2 Hv2 Hp2];
    cbn in E; simplify_eq; try done.
  match goal with H : cs ++ _ = cs2 ++ _ |- _ => destruct (IH _ _ _ _ Hp2 H) as (-> & -> & ->) end. done.
Qed.
Lemma pages_not_fail tok : forall u cs1 rs1, pages L tok u cs1 rs1 -> forall cs2 r1 r2, pages_fail L tok u cs2 -> cs1 ++ r1 = cs2 ++ r2 -> False.
Proof.
  induction 1 as [u body rs Hj|u body rs href v cs rs' Hj Hh Hv Hp IH]; intros cs2 r1 r2 H2 E; destruct H2 as [u r Hb|u body2 rs2 href2 v2 cs2 Hj2 Hh2 Hv2 Hp2];
    cbn in E; simplify_eq; try done.
  - destruct Hb as [?|[?|(? & ? & ? & ? & ?)]]; cbn in *; by simplify_eq.
  - destruct Hb as [?|[?|(? & ? & ? & ? & ?)]]; cbn in *; by simplify_eq.
  - by eapply IH.
Qed.
Lemma listed_unique tok cs ids1 ids2 : listed L C tok cs ids1 -> list_answer L C tok cs ids2 -> ids1 = ids2.
Proof.
  intros (u & v & c1 & c2 & rs1 & rs2 & Hu & Hv & -> & Hp1 & Hp2 & ->) [(u' & v' & d1 & d2 & ss1 & ss2 & Hu' & Hv' & E & Hq1 & Hq2 & ->)|[Hf _]].
  - simplify_eq. destruct (pages_unique _ _ _ _ Hp1 _ _ _ _ Hq1 E) as (-> & -> & ->).
    destruct (pages_unique _ _ _ _ Hp2 _ _ [] [] Hq2) as (-> & _); done.
  - exfalso. unfold list_fails in Hf. rewrite Hu, Hv in Hf. destruct Hf as [Hf|(d1 & d2 & rs & E & Hq1 & Hf)].
    + eapply (pages_not_fail _ _ _ _ Hp1 _ c2 []); [done|]. by rewrite app_nil_r.
    + destruct (pages_unique _ _ _ _ Hp1 _ _ _ _ Hq1 E) as (-> & -> & ->). by eapply (pages_not_fail _ _ _ _ Hp2 _ [] []).
Qed.
Lemma answer_asks tok cs ids : url_parse L (append (cf_capi C) "/v3/apps") <> None -> list_answer L C tok cs ids ->
  exists u r, (u, tok, r) ∈ cs.
Proof.
  intros Hu. assert (Hp : forall u cs rs, pages L tok u cs rs -> exists v r, (v, tok, r) ∈ cs).
  { intros u cs0 rs [|]; eexists _, _; left. }
  intros [(u & v & c1 & c2 & rs1 & rs2 & _ & _ & -> & Hp1 & _ & _)|[Hf _]].
  - apply Hp in Hp1 as (w & r & H). exists w, r. apply elem_of_app. by left.
  - unfold list_fails in Hf. destruct (url_parse L _) as [u|]; [|done]. destruct Hf as [Hf|(d1 & d2 & rs & -> & Hq1 & _)].
    + destruct Hf; eexists _, _; left.
    + apply Hp in Hq1 as (w & r & H). exists w, r. apply elem_of_app. by left.
Qed.

(** ** Asking about one source *)
Definition aside (x : act L) : Prop :=
  match x with ACapi _ _ _ | ACacheStore _ _ => False | _ => True end.
Lemma a_calls l : Forall aside l -> calls l = [].
Proof. induction 1 as [|x l Hx Hl IH]; [done|]. by destruct x. Qed.
Notation off := (holds (Forall aside)).
Definition off_eff {X} (e : eff L X) : bool := match e with CapiGet _ _ | CacheStore _ _ => false | _ => true end.
Lemma a_do {X} (e : eff L X) : off_eff e = true -> off (do e).
Proof. intros H. apply holds_do; [constructor|]. intros x _. constructor; [|constructor]. by destruct e. Qed.
Lemma a_ret {A} (a : A) : off (@Ret L A a).
Proof. apply holds_ret. constructor. Qed.
Lemma a_panic {A} : off (@Panic L A).
Proof. apply holds_panic. constructor. Qed.
Lemma a_bind {A B} (p : prog L A) (f : A -> prog L B) : off p -> (forall a, off (f a)) -> off (bind p f).
Proof. apply holds_bind. intros. by apply Forall_app. Qed.
Hint Resolve a_ret a_panic : core.
Ltac go := apply a_bind; [try by apply a_do|intros ?].
Lemma a_store ks : forall cur, off (store_keys L ks cur).
Proof.
  induction ks as [|[kid v] ks IH]; intros cur; cbn [store_keys]; [done|].
  destruct (bool_decide _); [done|]. destruct (rsa_key L v); [|done]. by go.
Qed.
Lemma a_delete kids : off (delete_keys L kids).
Proof. induction kids; cbn; [done|]. by go. Qed.
Lemma a_refresh : off (refresh L C).
Proof.
  unfold refresh. go. go. destruct (bool_decide _); [done|]. go. go. go. destruct a3 as [r|]; [|done].
  destruct (bool_decide _); [|done]. destruct (json_keys L _); [|done].
  go. go; [apply a_store|]. destruct a4; [|done]. go; [apply a_delete|done].
Qed.
Lemma a_uaa_read t : off (uaa_read L C t).
Proof.
  unfold uaa_read. destruct (bool_decide _); [done|]. destruct (jose_headers L _) as [[[|alg|] kid]|]; try done.
  - destruct (bool_decide _); [|done]. destruct kid; try done. go.
    + unfold load_or_fetch. go. destruct a; [done|]. go; [apply a_refresh|by apply a_do].
    + destruct a; [|done]. destruct (jose_verify L _ _); [|by go]. unfold accept. destruct (json_claims L _); [|done].
      go. by destruct (bool_decide _).
  - by go.
Qed.
Lemma asks_tr n kd id tok l o : asks_source kd id tok -> tr n (start L C kd) l (Ret o) ->
  exists l1 l2, l = l1 ++ l2 /\ Forall aside l1 /\
    (l2 = [] /\ o <> RBool false \/ exists b, tr n (is_authorized L C id tok) l2 (Ret b) /\
       (o = RBool b \/ exists r, o = RHttp (if b then Forward (rq_path r) (rq_query r) else Status 404))).
Proof.
  intros [->|(r & -> & Hp & Hn & <-)] H; cbn [start] in H; apply tr_bind_ret in H as (l1 & l2 & a & -> & H1 & H2); apply tr_ret in H2 as [-> ->]; rewrite app_nil_r.
  - exists [], l1. split; [done|]. split; [constructor|]. right. exists a. eauto.
  - unfold serve in H1. destruct (bool_decide _).
    2:{ apply tr_ret in H1 as [-> ->]. exists [], []. split; [done|]. split; [constructor|]. by left. }
    rewrite (proj2 (read_id_spec _ _) (conj Hp Hn)) in H1. unfold read_handler in H1. destruct (bool_decide _).
    { apply tr_ret in H1 as [-> ->]. exists [], []. split; [done|]. split; [constructor|]. by left. }
    apply tr_bind_ret in H1 as (l2 & l3 & c & -> & H2 & H1). pose proof (a_uaa_read _ _ _ _ H2) as H2'.
    destruct c as [c|].
    2:{ apply tr_ret in H1 as [-> ->]. exists l2, []. split; [done|]. split; [done|]. by left. }
    apply uaa_read_tr in H2 as (_ & Et & _).
    destruct (us_admin c).
    { apply tr_ret in H1 as [-> ->]. exists l2, []. split; [done|]. split; [done|]. by left. }
    apply tr_bind_ret in H1 as (l4 & l5 & b & -> & H3 & H1). exists l2, l4.
    assert (l5 = []) as ->. { by destruct b; apply tr_ret in H1 as [-> _]. }
    rewrite app_nil_r. split; [done|]. split; [done|]. right. exists b. split; [by rewrite <- Et|]. right. exists r.
    by destruct b; apply tr_ret in H1 as [_ ->].
Qed.
(** A complete run of IsAuthorized: out of the cache, or with a listing that is stored *)
Lemma authorized_tr n id tok l b : tr n (is_authorized L C id tok) l (Ret b) ->
  (exists e t, l = [ACacheLoad tok (Some e); ANow t] /\ b = contained (en_ids e) id) \/
  exists o l0 l1 ts e, l = ACacheLoad tok o :: l0 ++ l1 ++ [ANow ts; ACacheStore tok e] /\
    (o = None /\ l0 = [] \/ exists e0 t, o = Some e0 /\ l0 = [ANow t] /\ (en_expires e0 <= t \/ contained (en_ids e0) id = false)) /\
    Forall unstored l1 /\ list_answer L C tok (calls l1) (en_ids e) /\ en_expires e = ts + cf_cache C /\ b = contained (en_ids e) id.
Proof.
  intros H. unfold is_authorized in H. apply tr_bind_ret in H as (l1 & l2 & o & -> & H1 & H). apply tr_do_ret in H1 as [-> _]. cbn [act_of].
  assert (Hf : forall m retry l3, tr m (fetch L C id tok retry) l3 (Ret b) -> exists l1 ts e, l3 = l1 ++ [ANow ts; ACacheStore tok e] /\
    Forall unstored l1 /\ list_answer L C tok (calls l1) (en_ids e) /\ en_expires e = ts + cf_cache C /\ b = contained (en_ids e) id).
  { intros m retry l3 H0. unfold fetch in H0. apply tr_bind_ret in H0 as (l4 & l5 & ids & -> & H1 & H0).
    pose proof (q_available _ _ _ _ H1) as Hq. apply available_tr in H1.
    apply tr_bind_ret in H0 as (l6 & l7 & ts & -> & H2 & H0). apply tr_do_ret in H2 as [-> _].
    apply tr_bind_ret in H0 as (l8 & l9 & [] & -> & H2 & H0). apply tr_do_ret in H2 as [-> _].
    apply tr_ret in H0 as [-> ->]. exists l4, ts, (Entry ids retry (ts + cf_cache C)). cbn [act_of app en_ids en_expires]. split_and!; try done. }
  destruct o as [e|].
  - apply tr_bind_ret in H as (l3 & l4 & t & -> & H1 & H). apply tr_do_ret in H1 as [-> _]. cbn [act_of].
    destruct (bool_decide_reflect (t < en_expires e)).
    + destruct (contained (en_ids e) id) eqn:Ec.
      { apply tr_ret in H as [-> ->]. left. exists e, t. by rewrite Ec. }
      destruct (bool_decide _).
      { apply tr_ret in H as [-> ->]. left. exists e, t. by rewrite Ec. }
      apply Hf in H as (l5 & ts & e' & -> & H). right. exists (Some e), [ANow t], l5, ts, e'. split; [done|]. split; [|done].
      right. exists e, t. auto.
    + apply Hf in H as (l5 & ts & e' & -> & H). right. exists (Some e), [ANow t], l5, ts, e'. split; [done|]. split; [|done].
      right. exists e, t. split; [done|]. split; [done|]. left. lia.
  - apply Hf in H as (l5 & ts & e' & -> & H). right. exists None, [], l5, ts, e'. split; [done|]. split; [by left|done].
Qed.

(** ** The history only grows *)
Lemma step_log s s' : step L C s s' -> exists h, s_log s' = s_log s ++ h.
Proof. destruct 1; cbn; [by exists []; rewrite app_nil_r|by exists []; rewrite app_nil_r|eauto]. Qed.
Lemma steps_log s s' : rtc (step L C) s s' -> exists h, s_log s' = s_log s ++ h.
Proof.
  induction 1 as [s|s s1 s2 H _ [h IH]]; [by exists []; rewrite app_nil_r|]. apply step_log in H as [h0 E].
  exists (h0 ++ h). by rewrite IH, E, app_assoc.
Qed.
Lemma steps_reachable clock s s' : reachable L C clock s -> rtc (step L C) s s' -> reachable L C clock s'.
Proof. intros H. induction 1; [done|]. apply IHrtc. by econstructor. Qed.

Lemma last_clock (w : list (act L)) ts ts' tok e : forall pre a, pre ++ [ANow ts'; ACacheStore tok e] = a ++ ANow ts :: w ->
  (forall t, ANow t ∉ w) -> ts' = ts.
Proof.
  induction pre as [|x pre IH]; intros [|y a] E Hw; cbn in E.
  - by injection E as -> _.
  - injection E as _ E. destruct a as [|z a]; [done|]. injection E as _ E. by destruct a.
  - injection E as _ <-. exfalso. apply (Hw ts'). apply elem_of_app. right. left.
  - injection E as _ E. by eapply IH.
Qed.
Lemma contained_spec ids id : contained ids id = true <-> id ∈ ids.
Proof.
  apply bool_decide_eq_true.
Qed.

Lemma remembered clock s0 j kd0 id0 tok o0 ids h1 ts h2 s i kd id o :
  reachable L C clock s0 -> asks_source kd0 id0 tok -> s_threads s0 !! j = Some (kd0, Ret o0) ->
  listed L C tok (calls (own j (s_log s0))) ids -> id ∈ ids ->
  s_log s0 = h1 ++ (j, ANow ts) :: h2 -> (forall t, (j, ANow t) ∉ h2) ->
  rtc (step L C) s0 s -> (length (s_threads s0) <= i)%nat -> asks_source kd id tok -> s_threads s !! i = Some (kd, Ret o) ->
  (forall k u r, (k, ACapi u tok r) ∈ s_log s -> k = j \/ k = i) ->
  (forall t, (i, ANow t) ∈ s_log s -> t < ts + cf_cache C) ->
  calls (own i (s_log s)) = [] /\ o <> RBool false.
Proof.
  intros Hr Hk0 Hj Hl Hid E0 Hlast Hrtc Hi Hk Hio Honly Hclk.
  pose proof (rinv_reachable _ _ Hr) as R0. pose proof (steps_reachable _ _ _ Hr Hrtc) as Hr'. pose proof (rinv_reachable _ _ Hr') as R.
  destruct (steps_log _ _ Hrtc) as [h' Eh'].
  pose proof (ri_inv _ R0) as I0. pose proof (ri_inv _ R) as I.
  assert (Hij : i <> j). { pose proof (lookup_lt_Some (s_threads s0 : list (thread L)) _ _ Hj). lia. }
  assert (Hfresh : own i (s_log s0) = []).
  { apply own_fresh. intros x Hx. apply (inv_fresh _ I0) in Hx as [? Hx]. apply (lookup_lt_Some (s_threads s0 : list (thread L))) in Hx. lia. }
  (* what j did *)
  destruct (inv_threads _ I0 _ _ _ Hj) as [n Ht]. apply (asks_tr _ _ _ _ _ _ Hk0) in Ht as (l1 & l2 & Eo & Hq1 & Hl2).
  assert (Hcalls : calls (own j (s_log s0)) = calls l2). { by rewrite Eo, calls_app, (a_calls _ Hq1). }
  rewrite Hcalls in Hl.
  assert (Hne : calls l2 <> []).
  { destruct Hl as (u & v & c1 & c2 & rs1 & rs2 & _ & _ & -> & Hp1 & _). apply pages_nonempty in Hp1. by destruct c1. }
  assert (Hparse : url_parse L (append (cf_capi C) "/v3/apps") <> None).
  { destruct Hl as (u & v & c1 & c2 & rs1 & rs2 & E & _). by rewrite E. }
  destruct Hl2 as [[-> _]|(b0 & Hb0 & _)]; [done|].
  apply authorized_tr in Hb0 as [(e & t & -> & _)|(o1 & l0 & la & ts' & e & El2 & Hl0 & Hq & Ha & He & _)]; [done|].
  assert (Ec : calls l2 = calls la).
  { rewrite El2. change (ACacheLoad tok o1 :: l0 ++ la ++ [ANow ts'; ACacheStore tok e]) with ([ACacheLoad tok o1] ++ l0 ++ la ++ [ANow ts'; ACacheStore tok e]).
    rewrite !calls_app. replace (calls l0) with (@nil call). 2:{ destruct Hl0 as [[_ ->]|(? & ? & _ & -> & _)]; done. }
    cbn. by rewrite app_nil_r. }
  rewrite Ec in Hl. pose proof (listed_unique _ _ _ _ Hl Ha) as ->.
  (* the clock j looked at last *)
  set (pre := l1 ++ ACacheLoad tok o1 :: l0 ++ la).
  assert (Eown : own j (s_log s0) = pre ++ [ANow ts'; ACacheStore tok e]).
  { rewrite Eo, El2. unfold pre. rewrite <- app_assoc. cbn [app]. by rewrite <- !app_assoc. }
  assert (Ets : ts' = ts).
  { assert (Eown' : own j (s_log s0) = own j h1 ++ ANow ts :: own j h2).
    { rewrite E0. change ((j, ANow ts) :: h2) with ([(j, ANow ts)] ++ h2). by rewrite !own_app, own_one_eq. }
    assert (Hn2 : forall t, ANow t ∉ own j h2) by (intros t H; by apply own_elem, Hlast in H).
    rewrite Eown in Eown'. by eapply last_clock. }
  subst ts'.
  (* what i did *)
  destruct (inv_threads _ I _ _ _ Hio) as [n' Ht']. apply (asks_tr _ _ _ _ _ _ Hk) in Ht' as (m1 & m2 & Em & Hqm & Hm2).
  destruct Hm2 as [[-> Ho]|(b & Hb & Ho)].
  { split; [|done]. rewrite Em, calls_app, (a_calls _ Hqm). done. }
  (* all that is ever stored before i stores something *)
  assert (Hstore : (j, ACacheStore tok e) ∈ s_log s0).
  { apply own_elem. rewrite Eown. apply elem_of_app. right. right. left. }
  assert (Hwho : forall k e' a b, own k (s_log s) = a ++ ACacheStore tok e' :: b -> exists u r, ACapi u tok r ∈ a).
  { intros k e' a b' Ek. destruct (own_memo _ _ _ _ _ I Ek) as (a1 & o' & a2 & t & -> & _ & Hans & _).
    apply (answer_asks _ _ _ Hparse) in Hans as (u & r & Hc). apply calls_elem in Hc. exists u, r.
    rewrite elem_of_app, elem_of_cons, elem_of_app. auto. }
  assert (Hj0 : own j (s_log s) = own j (s_log s0)).
  { assert (Hd : forall s1 s2, rtc (step L C) s1 s2 -> s_threads s1 !! j = Some (kd0, Ret o0) -> own j (s_log s2) = own j (s_log s1)).
    { clear. induction 1 as [s1|s1 s2 s3 H _ IH]; intros Hj; [done|].
      assert (H2 : s_threads s2 !! j = Some (kd0, Ret o0) /\ own j (s_log s2) = own j (s_log s1)).
      { destruct H as [m ts h kd Hkd|m ts h i' kd p Hi'|m ts h i' kd X ef k x m' Hi' Hs]; cbn in *.
        - split; [by apply lookup_app_l_Some|done].
        - split; [|done]. destruct (decide (i' = j)) as [->|]; [congruence|by rewrite list_lookup_insert_ne].
        - destruct (decide (i' = j)) as [->|Hne]; [congruence|]. split.
          + apply lookup_app_l_Some. by rewrite list_lookup_insert_ne.
          + by rewrite own_app, own_one_ne, app_nil_r. }
      destruct H2 as [H2 <-]. by apply IH. }
    by apply Hd. }
  assert (Hsole : forall h a b0 l3 x, s_log s = h ++ a -> own i h = b0 -> Forall aside b0 -> own i (s_log s) = b0 ++ x :: l3 ->
     forall k e', (k, ACacheStore tok e') ∈ h -> e' = e).
  { intros h a b1 l3 x Eh Ehi Hb1 _ k e' Hke. apply elem_of_list_split in Hke as (g1 & g2 & Eg).
    assert (Ek : own k (s_log s) = own k g1 ++ ACacheStore tok e' :: own k (g2 ++ a)).
    { rewrite Eh, Eg. rewrite <- app_assoc. cbn [app]. change ((k, ACacheStore tok e') :: g2 ++ a) with ([(k, ACacheStore tok e')] ++ (g2 ++ a)).
      by rewrite !own_app, own_one_eq. }
    destruct (Hwho _ _ _ _ Ek) as (u & r & Hc). apply own_elem in Hc.
    destruct (Honly k u r) as [->| ->].
    { rewrite Eh, Eg, !elem_of_app. auto. }
    - rewrite Hj0, Eown in Ek. unfold pre in Ek.
      assert (Hin : ACacheStore tok e' ∈ (l1 ++ ACacheLoad tok o1 :: l0 ++ la) ++ [ANow ts; ACacheStore tok e]) by (rewrite Ek; apply elem_of_app; right; left).
      rewrite !elem_of_app, !elem_of_cons, !elem_of_app, elem_of_nil in Hin.
      destruct Hin as [[Hin|[Hin|[Hin|Hin]]]|[Hin|[Hin|[]]]]; try done.
      + exfalso. rewrite Forall_forall in Hq1. by apply Hq1 in Hin.
      + exfalso. destruct Hl0 as [[_ ->]|(? & ? & _ & -> & _)]; [by apply elem_of_nil in Hin|by apply elem_of_list_singleton in Hin].
      + exfalso. rewrite Forall_forall in Hq. by apply Hq in Hin.
      + by injection Hin as ->.
    - exfalso. assert (Hin : ACacheStore tok e' ∈ b1). { rewrite <- Ehi. apply own_elem. rewrite Eg. apply elem_of_app. right. left. }
      rewrite Forall_forall in Hb1. by apply Hb1 in Hin. }
  assert (Hload : forall oo m3 t m4, own i (s_log s) = m1 ++ ACacheLoad tok oo :: m3 ++ ANow t :: m4 -> oo = Some e).
  { intros oo m3 t m4 E. apply own_split in E as E'. destruct E' as (g1 & g2 & Eg & Eg1 & Eg2).
    apply own_split in Eg2 as (g3 & g4 & -> & _ & _).
    eapply (still_there s g1 i tok oo g3 i t g4 e j R); [done| | |].
    - eapply (Hsole g1 _ m1); [exact Eg|done|done|exact E].
    - (* g1 extends the log of s0 *)
      rewrite Eh' in Eg. assert (Hle : (length (s_log s0) <= length g1)%nat).
      { destruct (decide (length (s_log s0) <= length g1)%nat) as [|Hlt]; [done|exfalso].
        assert (Hx : (s_log s0 ++ h') !! length g1 = Some (i, ACacheLoad tok oo)). { rewrite Eg, lookup_app_r, Nat.sub_diag by lia. done. }
        rewrite lookup_app_l in Hx by lia. apply elem_of_list_lookup_2 in Hx. apply own_elem in Hx. rewrite Hfresh in Hx. by apply elem_of_nil in Hx. }
      assert (Hx : exists p, (s_log s0) !! p = Some (j, ACacheStore tok e)) by (by apply elem_of_list_lookup_1).
      destruct Hx as [p Hp]. pose proof (lookup_lt_Some _ _ _ Hp) as Hlt. apply (elem_of_list_lookup_2 _ p).
      rewrite <- (lookup_app_l g1 ((i, ACacheLoad tok oo) :: g3 ++ (i, ANow t) :: g4)) by lia. rewrite <- Eg. by rewrite lookup_app_l by lia.
    - rewrite He. apply Z.lt_le_incl, Hclk. apply own_elem. rewrite E. rewrite !elem_of_app, !elem_of_cons, !elem_of_app, elem_of_cons. auto 10. }
  apply authorized_tr in Hb as [(e1 & t & -> & ->)|(oo & k0 & k1 & t1 & e1 & -> & Hk0' & Hqk & _ & _ & _)].
  - specialize (Hload (Some e1) [] t [] Em) as [= ->]. rewrite Em, calls_app, (a_calls _ Hqm). split; [done|].
    rewrite (proj2 (contained_spec _ _) Hid) in Ho. destruct Ho as [->|[r ->]]; done.
  - exfalso. assert (oo = Some e) as ->.
    { eapply (Hload oo (k0 ++ k1) t1 [ACacheStore tok e1]). rewrite Em. by rewrite <- app_assoc. }
    destruct Hk0' as [[? _]|(e2 & t & [= <-] & -> & Hor)]; [done|].
    destruct Hor as [Hex|Hc]; [|by rewrite (proj2 (contained_spec _ _) Hid) in Hc].
    assert (t < ts + cf_cache C); [|lia]. apply Hclk, own_elem. rewrite Em. rewrite elem_of_app, elem_of_cons. right. right. left.
Qed.
End Remember.
