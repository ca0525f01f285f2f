(** Where CAPI requests go, what makes a goroutine panic, and when a listing ends. *)
From Coq Require Import Ascii String.
From stdpp Require Import prelude gmap strings list.
From Verif.Base Require Import Str Url.
From Verif.Promql Require Import Model.
From Verif.Auth Require Import Model System Spec Trace Local Global.
Open Scope string_scope.
Open Scope list_scope.
Open Scope Z_scope.

Section Safety.
Context {L : lib} {C : config}.
Implicit Types (l : list (act L)) (h : list (nat * act L)).

(** ** CAPI requests *)
(** A request to the configured CAPI *)
Definition to_capi (u : url) : Prop :=
  exists path v, path ∈ ["/v3/apps"; "/v3/service_instances"] /\ url_parse L (append (cf_capi C) path) = Some v /\
    u_scheme u = u_scheme v /\ u_host u = u_host v.
Section Confined.
Context (tok : string).
Definition fine (x : act L) : Prop := match x with ACapi u t _ => t = tok /\ to_capi u | _ => True end.
Notation conf := (holds (Forall fine)).
Lemma c_do {X} (e : eff L X) : match e with CapiGet _ _ => false | _ => true end = true -> conf (do e).
Proof. intros H. apply holds_do; [constructor|]. intros x _. constructor; [|constructor]. by destruct e. Qed.
Lemma c_ret {A} (a : A) : conf (@Ret L A a).
Proof. apply holds_ret. constructor. Qed.
Lemma c_panic {A} : conf (@Panic L A).
Proof. apply holds_panic. constructor. Qed.
Lemma c_bind {A B} (p : prog L A) (f : A -> prog L B) : conf p -> (forall a, conf (f a)) -> conf (bind p f).
Proof. apply holds_bind. intros. by apply Forall_app. Qed.
Lemma c_forever {S B} (body : S -> prog L (S + B)) s : (forall s, conf (body s)) -> conf (forever body s).
Proof. apply holds_forever. intros. by apply Forall_app. Qed.
Hint Resolve c_ret c_panic : core.
Ltac chain := apply c_bind; [try by apply c_do|intros ?].
Lemma c_store ks : forall cur, conf (store_keys L ks cur).
Proof.
  induction ks as [|[kid v] ks IH]; intros cur; cbn [store_keys]; [done|].
  destruct (bool_decide _); [done|]. destruct (rsa_key L v); [|done]. by chain.
Qed.
Lemma c_delete kids : conf (delete_keys L kids).
Proof. induction kids; cbn; [done|]. by chain. Qed.
Lemma c_refresh : conf (refresh L C).
Proof.
  unfold refresh. chain. chain. destruct (bool_decide _); [done|]. chain. chain. chain. destruct a3 as [r|]; [|done].
  destruct (bool_decide _); [|done]. destruct (json_keys L _); [|done].
  chain. chain; [apply c_store|]. destruct a4; [|done]. chain; [apply c_delete|done].
Qed.
Lemma c_uaa_read t : conf (uaa_read L C t).
Proof.
  unfold uaa_read. destruct (bool_decide _); [done|]. destruct (jose_headers L _) as [[[|alg|] kid]|]; try done.
  - destruct (bool_decide _); [|done]. destruct kid; try done. chain.
    + unfold load_or_fetch. chain. destruct a; [done|]. chain; [apply c_refresh|by apply c_do].
    + destruct a; [|done]. destruct (jose_verify L _ _); [|by chain]. unfold accept. destruct (json_claims L _); [|done].
      chain. by destruct (bool_decide _).
  - by chain.
Qed.
Lemma c_paginated u : to_capi u -> conf (paginated L u tok).
Proof.
  intros (path & v & Hp & Hv & Hsc & Hh) n l q H. unfold paginated in H. apply paginated_tr in H as [H _].
  apply Forall_forall. intros x Hx. destruct x; try done.
  assert (Hc : (u0, token, r) ∈ calls l). { unfold calls. apply elem_of_list_omap. eauto. }
  rewrite Forall_forall in H. destruct (H _ Hc) as (E1 & E2 & E3). cbn in E1, E2, E3. split; [done|].
  exists path, v. split; [done|]. split; [done|]. split; congruence.
Qed.
Lemma to_capi_apps u : url_parse L (append (cf_capi C) "/v3/apps") = Some u -> forall q, to_capi (Url (u_scheme u) (u_host u) (u_path u) q).
Proof. intros E q. exists "/v3/apps", u. split; [left|]. by split. Qed.
Lemma to_capi_self path u : path ∈ ["/v3/apps"; "/v3/service_instances"] -> url_parse L (append (cf_capi C) path) = Some u -> to_capi u.
Proof. intros H E. by exists path, u. Qed.
Lemma c_available : conf (available L C tok).
Proof.
  unfold available. destruct (url_parse L _) eqn:E; [|done]. chain.
  { apply c_paginated. eapply to_capi_self; [|exact E]. left. }
  destruct a; [|done]. destruct (url_parse L (append (cf_capi C) "/v3/service_instances")) eqn:E2; [|done]. chain.
  { apply c_paginated. eapply to_capi_self; [|exact E2]. right; left. }
  by destruct a.
Qed.
Lemma c_fetch id r : conf (fetch L C id tok r).
Proof. unfold fetch. chain; [apply c_available|]. chain. by chain. Qed.
Lemma c_authorized id : conf (is_authorized L C id tok).
Proof.
  unfold is_authorized. chain. destruct a; [|apply c_fetch]. chain. destruct (bool_decide _); [|apply c_fetch].
  destruct (contained _ _); [done|]. destruct (bool_decide _); [done|]. apply c_fetch.
Qed.
Lemma c_authorize_ids ids : conf (authorize_ids L C ids tok).
Proof. induction ids as [|id ids IH]; cbn; [done|]. chain; [apply c_authorized|]. by chain. Qed.
Lemma c_expand c ids : us_token c = tok -> forall sets, conf (expand L C ids sets c).
Proof.
  intros Et. induction ids as [|id ids IH]; intros sets; cbn; [done|]. destruct (us_admin c); [done|].
  rewrite Et. chain; [apply c_authorize_ids|]. by destruct a.
Qed.
Lemma c_related names : conf (related L C names tok).
Proof.
  unfold related. destruct names; [done|]. destruct (url_parse L _) eqn:E; [|done].
  chain; [by apply c_paginated, to_capi_apps|]. by destruct a.
Qed.
End Confined.
Notation conf tok := (holds (Forall (fine tok))).
Lemma c_after_read tok {B} (f : option user -> prog L B) :
  conf tok (f None) -> (forall u : user, us_token u = tok -> conf tok (f (Some u))) -> conf tok (bind (uaa_read L C tok) f).
Proof.
  intros Hn Hs n l q H. apply tr_bind in H as [(p' & H & _)|(l1 & l2 & a & -> & H1 & H2)].
  - by eapply c_uaa_read.
  - apply Forall_app. split; [by eapply c_uaa_read|]. destruct a as [u|]; [|by eapply Hn].
    apply uaa_read_tr in H1 as (_ & Et & _). by eapply Hs.
Qed.
Lemma c_serve r : conf (rq_auth r) (serve L C r).
Proof.
  pose proof (@c_ret (rq_auth r)) as Hret.
  unfold serve. destruct (bool_decide _); [|done]. destruct (read_id _) as [id|].
  { unfold read_handler. destruct (bool_decide _); [done|]. apply c_after_read; [done|]. intros u Et.
    destruct (us_admin u); [done|]. rewrite Et. apply c_bind; [apply c_authorized|done]. }
  destruct (bool_decide _ || _).
  { unfold query_handler. destruct (bool_decide _); [done|]. destruct (promql_parse L _); [|done].
    apply c_bind; [by apply c_do|intros a].
    destruct a as [|i ids]; [done|]. apply c_after_read; [done|]. intros u Et.
    apply c_bind; [apply c_related|intros a]. apply c_bind; [by apply c_expand|intros b]. by destruct b. }
  destruct (bool_decide _); [|by destruct (bool_decide _)].
  unfold meta_handler. destruct (bool_decide _); [done|]. apply c_after_read; [done|]. intros u Et.
  apply c_bind; [by apply c_do|intros a]. destruct a as [m|]; [|done]. destruct (us_admin u); [done|].
  apply c_bind; [apply c_available|done].
Qed.
Lemma c_prune tok : conf tok (forever (prune_step L) ()).
Proof.
  pose proof (@c_ret tok) as Hret.
  apply c_forever. intros s. unfold prune_step. apply c_bind; [by apply c_do|intros now]. apply c_bind; [by apply c_do|intros es].
  apply c_bind; [|done]. induction es as [|[t e] es IH]; cbn; [done|]. destruct (bool_decide _); [|done].
  apply c_bind; [by apply c_do|done].
Qed.
(** the token a goroutine was given *)
Definition kind_token (kd : kind) : string :=
  match kd with KServe r => rq_auth r | KAuthorize _ tok => tok | KRead tok => tok | _ => "" end.
Lemma c_start kd : conf (kind_token kd) (start L C kd).
Proof.
  pose proof (@c_ret (kind_token kd)) as Hret.
  destruct kd; cbn [start kind_token] in *; (apply c_bind; [|by intros ?]);
    auto using c_serve, c_authorized, c_uaa_read, c_refresh, c_prune.
Qed.
Lemma capi_confined clock s i u tok r : reachable L C clock s -> (i, ACapi u tok r) ∈ s_log s ->
  to_capi u /\ exists kd p, s_threads s !! i = Some (kd, p) /\ kind_token kd = tok.
Proof.
  intros Hr Hin. apply (inv_reachable clock) in Hr as Hinv. destruct (inv_fresh s Hinv _ _ Hin) as [[kd p] Hi].
  destruct (inv_threads s Hinv _ _ _ Hi) as [n Ht]. apply c_start in Ht. rewrite Forall_forall in Ht.
  apply own_elem, Ht in Hin as [-> Hc]. split; [done|]. by exists kd, p.
Qed.

(** ** Panics *)
Definition calm {A} (p : prog L A) : Prop := forall n l, ~ tr n p l Panic.
Lemma calm_ret {A} (a : A) : calm (@Ret L A a).
Proof. intros n l H. by apply tr_inv in H as [_ ?]. Qed.
Lemma calm_do {X} (e : eff L X) : calm (do e).
Proof.
  intros n l H. apply tr_inv in H as [[_ E]|(n' & x & l' & _ & _ & _ & H)]; [done|]. by apply tr_inv in H as [_ ?].
Qed.
Lemma bind_is_panic {A B} (p : prog L A) (f : A -> prog L B) : bind p f = Panic -> p = Panic \/ exists a, p = Ret a /\ f a = Panic.
Proof.
  destruct p as [a| |p|X e k]; rewrite ?bind_ret, ?bind_panic, ?bind_tau, ?bind_vis; intros E; [|by left|done|done].
  right. by exists a.
Qed.
Lemma calm_bind {A B} (p : prog L A) (f : A -> prog L B) : calm p -> (forall a, calm (f a)) -> calm (bind p f).
Proof.
  intros Hp Hf n l H. apply tr_bind in H as [(p' & H & E)|(l1 & l2 & a & -> & H1 & H2)].
  - symmetry in E. apply bind_is_panic in E as [->|(a & -> & E)]; [by eapply Hp|].
    apply (Hf a 0%nat []). rewrite E. constructor.
  - by eapply Hf.
Qed.
Lemma calm_forever {S B} (body : S -> prog L (S + B)) s : (forall s, calm (body s)) -> calm (forever body s).
Proof.
  intros Hb n. unfold forever. revert s. induction n as [n IH] using lt_wf_ind. intros s l H.
  apply tr_loop in H as [(p' & H & E)|[(b & H & E)|(n' & l1 & l2 & s' & -> & -> & H1 & H2)]]; [|done|].
  - destruct p' as [[s'|b]| |p'|X e k]; rewrite ?loop_inl, ?loop_inr, ?loop_panic, ?loop_tau, ?loop_vis in E; try done.
    by eapply Hb.
  - eapply (IH n'); [lia|done].
Qed.
Hint Resolve calm_ret calm_do : core.
Ltac chain := apply calm_bind; [try done|intros ?].
Lemma calm_store ks : forall cur, calm (store_keys L ks cur).
Proof.
  induction ks as [|[kid v] ks IH]; intros cur; cbn [store_keys]; [done|].
  destruct (bool_decide _); [done|]. destruct (rsa_key L v); [|done]. by chain.
Qed.
Lemma calm_delete kids : calm (delete_keys L kids).
Proof. induction kids; cbn; [done|]. by chain. Qed.
Lemma calm_refresh : calm (refresh L C).
Proof.
  unfold refresh. chain. chain. destruct (bool_decide _); [done|]. chain. chain. chain. destruct a3 as [r|]; [|done].
  destruct (bool_decide _); [|done]. destruct (json_keys L _); [|done].
  chain. chain; [apply calm_store|]. destruct a4; [|done]. chain; [apply calm_delete|done].
Qed.
(** The header of the token: an algorithm and, for RS256, a key id, both strings *)
Definition proper_header (auth : string) : Prop :=
  forall token alg kid, carries auth token -> jose_headers L token = Some (alg, kid) ->
    exists a, alg = HString a /\ (a = "RS256" -> exists k, kid = HString k).
Lemma calm_uaa_read t : (t <> "" -> proper_header t) -> calm (uaa_read L C t).
Proof.
  unfold uaa_read. intros Hp. destruct (bool_decide_reflect (t = "")); [done|]. specialize (Hp n). specialize (fun alg kid => Hp _ alg kid (trim_bearer_spec t)) as Hp'.
  destruct (jose_headers L _) as [[alg kid]|]; [|by chain].
  destruct (Hp' _ _ eq_refl) as (a & -> & Hk). destruct (bool_decide_reflect (a = "RS256")); [|done].
  destruct Hk as [k ->]; [done|]. chain.
  - unfold load_or_fetch. chain. destruct a0; [done|]. chain; [apply calm_refresh|done].
  - destruct a0; [|done]. destruct (jose_verify L _ _); [|by chain]. unfold accept. destruct (json_claims L _); [|done].
    chain. by destruct (bool_decide _).
Qed.
Lemma calm_paginated u tok : calm (paginated L u tok).
Proof. apply calm_forever. intros s. unfold page_step, do_resource_request, do_request. repeat chain; done. Qed.
Lemma calm_available tok : calm (available L C tok).
Proof.
  unfold available. destruct (url_parse L _); [|done]. chain; [apply calm_paginated|]. destruct a; [|done].
  destruct (url_parse L _); [|done]. chain; [apply calm_paginated|]. by destruct a.
Qed.
Lemma calm_fetch id tok r : calm (fetch L C id tok r).
Proof. unfold fetch. chain; [apply calm_available|]. chain. by chain. Qed.
Lemma calm_authorized id tok : calm (is_authorized L C id tok).
Proof.
  unfold is_authorized. chain. destruct a; [|apply calm_fetch]. chain. destruct (bool_decide _); [|apply calm_fetch].
  destruct (contained _ _); [done|]. destruct (bool_decide _); [done|]. apply calm_fetch.
Qed.
Lemma calm_authorize_ids ids tok : calm (authorize_ids L C ids tok).
Proof. induction ids as [|id ids IH]; cbn; [done|]. chain; [apply calm_authorized|]. by chain. Qed.
Lemma calm_expand c ids : forall sets, calm (expand L C ids sets c).
Proof.
  induction ids as [|id ids IH]; intros sets; cbn; [done|]. destruct (us_admin c); [done|].
  chain; [apply calm_authorize_ids|]. by destruct a.
Qed.
Lemma calm_related names tok : calm (related L C names tok).
Proof.
  unfold related. destruct names; [done|]. destruct (url_parse L _); [|done]. chain; [apply calm_paginated|]. by destruct a.
Qed.
Lemma calm_serve r : (rq_auth r <> "" -> proper_header (rq_auth r)) -> calm (serve L C r).
Proof.
  intros Hp. unfold serve. destruct (bool_decide _); [|done]. destruct (read_id _) as [id|].
  { unfold read_handler. destruct (bool_decide _); [done|]. chain; [by apply calm_uaa_read|]. destruct a as [u|]; [|done].
    destruct (us_admin u); [done|]. chain; [apply calm_authorized|]. by destruct a. }
  destruct (bool_decide _ || _).
  { unfold query_handler. destruct (bool_decide _); [done|]. destruct (promql_parse L _); [|done]. chain.
    destruct a as [|i ids]; [done|]. chain; [by apply calm_uaa_read|]. destruct a as [u|]; [|done].
    chain; [apply calm_related|]. chain; [apply calm_expand|]. by destruct a0. }
  destruct (bool_decide _); [|by destruct (bool_decide _)].
  unfold meta_handler. destruct (bool_decide _); [done|]. chain; [by apply calm_uaa_read|]. destruct a as [u|]; [|done].
  chain. destruct a as [m|]; [|done]. destruct (us_admin u); [done|]. chain; [apply calm_available|done].
Qed.
Lemma calm_prune : calm (forever (prune_step L) ()).
Proof.
  apply calm_forever. intros s. unfold prune_step. chain. chain. chain; [|done].
  induction a0 as [|[tok e] es IH]; cbn; [done|]. destruct (bool_decide _); [|done]. by chain.
Qed.
(** the Authorization header a goroutine reads *)
Definition kind_auth (kd : kind) : string :=
  match kd with KServe r => rq_auth r | KRead tok => tok | _ => "" end.
Lemma calm_start kd : (kind_auth kd <> "" -> proper_header (kind_auth kd)) -> calm (start L C kd).
Proof.
  intros Hp. destruct kd; cbn [start kind_auth] in *; (apply calm_bind; [|by intros ?]);
    auto using calm_serve, calm_authorized, calm_uaa_read, calm_refresh, calm_prune.
Qed.
Lemma no_panic clock s i kd : reachable L C clock s -> (kind_auth kd <> "" -> proper_header (kind_auth kd)) ->
  s_threads s !! i <> Some (kd, Panic).
Proof.
  intros Hr Hp Hi. apply (inv_reachable clock) in Hr as Hinv. destruct (inv_threads s Hinv _ _ _ Hi) as [n Ht].
  by apply calm_start in Ht.
Qed.

(** ** Listings end if the pages do *)
Lemma listing_step n tok u acc l q : tr n (forever (page_step L tok) (u, acc)) l q ->
  calls l = [] \/ (exists r, calls l = [(u, tok, r)]) \/
  exists r rs v l2 n', calls l = (u, tok, r) :: calls l2 /\ page_of L u r = Some (rs, Some v) /\
    tr n' (forever (page_step L tok) (v, acc ++ rs)) l2 q.
Proof.
  intros H. unfold forever in H. apply tr_loop in H as [(p' & H & ->)|[(b & H & ->)|(n' & l1 & l2 & s & -> & -> & H1 & H2)]].
  - apply page_step_tr in H as [[_ [Hc|[r Hc]]]|(r & Hc & _)]; eauto.
  - apply page_step_tr in H as [[_ [Hc|[r Hc]]]|(r & Hc & _)]; eauto.
  - apply page_step_tr in H1 as [[Hq Hc]|(r & Hc & E)]; [by destruct (Hq (inl s))|].
    destruct (page_of L u r) as [[rs [u'|]]|] eqn:Ep; [|done|done]. injection E as ->.
    right; right. exists r, rs, u', l2, n'. by rewrite calls_app, Hc.
Qed.
Lemma page_more u body rs href v : json_page L body = Some (rs, href) -> href <> "" -> url_parse L href = Some v ->
  page_of L u (Some (Reply 200 body)) = Some (rs, Some (Url (u_scheme u) (u_host u) (u_path v) (u_query v))).
Proof. intros Hj Hh Hv. unfold page_of. cbn [r_status r_body]. rewrite bool_decide_true, Hj, bool_decide_false, Hv by done. done. Qed.
(** If CAPI's answers do not change (f) and the pages from u on end, or one of them fails, then no listing
    asks for more than those pages. *)
Lemma listing_prefix (f : url -> option reply) tok u cs :
  ((exists rs, pages L tok u cs rs) \/ pages_fail L tok u cs) -> (forall v t r, (v, t, r) ∈ cs -> f v = r) ->
  forall n acc l q, tr n (forever (page_step L tok) (u, acc)) l q -> (forall v t r, (v, t, r) ∈ calls l -> f v = r) ->
  calls l `prefix_of` cs.
Proof.
  intros Hch. 
  assert (Hs : forall u r cs', (forall v t r2, (v, t, r2) ∈ (u, tok, r) :: cs' -> f v = r2) ->
     (forall rs v, page_of L u r = Some (rs, Some v) -> forall n acc l q, tr n (forever (page_step L tok) (v, acc)) l q ->
        (forall v t r, (v, t, r) ∈ calls l -> f v = r) -> calls l `prefix_of` cs') ->
     forall n acc l q, tr n (forever (page_step L tok) (u, acc)) l q -> (forall v t r, (v, t, r) ∈ calls l -> f v = r) ->
       calls l `prefix_of` ((u, tok, r) :: cs')).
  { intros u0 r0 cs' Hf Hn n acc l q H Hl. apply listing_step in H as [E|[[r E]|(r & rs & v & l2 & n' & E & Ep & H)]].
    - rewrite E. apply prefix_nil.
    - assert (r = r0). { rewrite <- (Hl u0 tok r) by (rewrite E; left). apply (Hf u0 tok). left. }
      subst. rewrite E. apply prefix_cons, prefix_nil.
    - assert (r = r0). { rewrite <- (Hl u0 tok r) by (rewrite E; left). apply (Hf u0 tok). left. }
      subst. rewrite E. apply prefix_cons. eapply Hn; [done|done|]. intros v' t' r' Hin. apply (Hl v' t' r'). rewrite E. by right. }
  destruct Hch as [[rs Hp]|Hp].
  - induction Hp as [u body rs Hj|u body rs href v cs rs' Hj Hh Hv Hp IH]; intros Hf; apply Hs; try done.
    + intros rs2 v2. unfold page_of. cbn. rewrite Hj. done.
    + intros rs2 v2. erewrite page_more by done. intros [= _ <-]. apply IH.
      intros v' t' r' Hin. apply (Hf v' t' r'). by right.
  - induction Hp as [u r Hb|u body rs href v cs Hj Hh Hv Hp IH]; intros Hf; apply Hs; try done.
    + intros rs2 v2. unfold page_of. destruct r as [[st body]|]; [|done]. cbn in *.
      destruct (bool_decide_reflect (st = 200)) as [->|]; [|done].
      destruct Hb as [?|[->|(rs1 & href & -> & Hh & Hv)]]; [done|done|]. rewrite (bool_decide_false (href = _)), Hv by done. done.
    + intros rs2 v2. erewrite page_more by done. intros [= _ <-]. apply IH.
      intros v' t' r' Hin. apply (Hf v' t' r'). by right.
Qed.
End Safety.
