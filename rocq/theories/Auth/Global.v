(** From what single goroutines do to what the whole system does. *)
From Coq Require Import Ascii String.
From stdpp Require Import prelude gmap strings list.
From Verif.Base Require Import Str Url.
From Verif.Promql Require Import Model Spec ProofsSelect.
From Verif.Auth Require Import Model System Spec Trace Local.
Open Scope string_scope.
Open Scope list_scope.
Open Scope Z_scope.

Section Global.
Context {L : lib} {C : config}.
Implicit Types (h : list (nat * act L)) (s : sys L).
Local Arguments own : simpl never.
Ltac lia := unfold thread in *; Lia.lia.

Lemma own_app i h1 h2 : own i (h1 ++ h2) = own i h1 ++ own i h2.
Proof. unfold own. by rewrite filter_app, fmap_app. Qed.
Lemma own_one_eq i (x : act L) : own i [(i, x)] = [x].
Proof. unfold own. rewrite filter_cons_True by done. done. Qed.
Lemma own_one_ne i j (x : act L) : j <> i -> own i [(j, x)] = [].
Proof. intros H. unfold own. rewrite filter_cons_False by done. done. Qed.
Lemma own_elem i x h : x ∈ own i h <-> (i, x) ∈ h.
Proof.
  unfold own. rewrite elem_of_list_fmap. split.
  - intros ([j y] & -> & H). apply elem_of_list_filter in H as [E ?]. cbn in *. by subst.
  - intros H. exists (i, x). split; [done|]. by apply elem_of_list_filter.
Qed.
Lemma own_split i h : forall a x b, own i h = a ++ x :: b ->
  exists h1 h2, h = h1 ++ (i, x) :: h2 /\ own i h1 = a /\ own i h2 = b.
Proof.
  induction h as [|[j y] h IH]; intros a x b H; [by destruct a|].
  change ((j, y) :: h) with ([(j, y)] ++ h) in *. rewrite own_app in H.
  destruct (decide (j = i)) as [->|Hn].
  - rewrite own_one_eq in H. destruct a as [|z a].
    + injection H as -> H. exists [], h. done.
    + injection H as -> H. destruct (IH _ _ _ H) as (h1 & h2 & -> & <- & <-).
      exists ((i, z) :: h1), h2. split; [done|]. split; [|done].
      change ((i, z) :: h1) with ([(i, z)] ++ h1). by rewrite own_app, own_one_eq.
  - rewrite own_one_ne in H by done. destruct (IH _ _ _ H) as (h1 & h2 & -> & <- & <-).
    exists ((j, y) :: h1), h2. split; [done|]. split; [|done].
    change ((j, y) :: h1) with ([(j, y)] ++ h1). by rewrite own_app, own_one_ne.
Qed.

(** An effect's result in the system is one it may have by itself *)
Lemma sem_possible {X} (e : eff L X) m x m' : sem e m x m' -> possible e x.
Proof. destruct e; cbn; try done. by intros [? _]. Qed.

(** ** The invariant *)
Definition stored_key h kid k := exists j, (j, AKeyStore kid k) ∈ h.
Definition stored_entry h tok e := exists j, (j, ACacheStore tok e) ∈ h.
Definition load_ok h (x : nat * act L) : Prop :=
  match x.2 with
  | AKeyLoad kid (Some k) => stored_key h kid k
  | ACacheLoad tok (Some e) => stored_entry h tok e
  | _ => True
  end.
Record inv (s : sys L) : Prop := {
  inv_threads : forall i kd p, s_threads s !! i = Some (kd, p) -> exists n, tr n (start L C kd) (own i (s_log s)) p;
  inv_fresh : forall i x, (i, x) ∈ s_log s -> is_Some (s_threads s !! i);
  inv_keys : forall kid k, m_keys (s_mem s) !! kid = Some k -> stored_key (s_log s) kid k;
  inv_cache : forall tok e, m_cache (s_mem s) !! tok = Some e -> stored_entry (s_log s) tok e;
  inv_loads : each load_ok (s_log s) }.

Lemma tr_snoc_tau {A} n (p : prog L A) l q : tr n p l (Tau q) -> tr (S n) p l q.
Proof.
  intros H. remember (Tau q) as q' eqn:E. induction H as [n p|n p l q' H IH|n X e k x l q' Hx H IH].
  - subst. by do 2 constructor.
  - constructor. auto.
  - constructor; auto.
Qed.
Lemma tr_snoc_vis {A X} n (p : prog L A) l (e : eff L X) k x : tr n p l (Vis e k) -> possible e x ->
  tr (S n) p (l ++ [act_of e x]) (k x).
Proof.
  intros H Hx. remember (Vis e k) as q' eqn:E. induction H as [n p|n p l q' H IH|n Y e' k' x' l q' Hx' H IH].
  - subst. constructor; [done|constructor].
  - constructor. auto.
  - cbn. constructor; auto.
Qed.
Lemma own_fresh i h : (forall x, (i, x) ∉ h) -> own i h = [].
Proof.
  intros H. destruct (own i h) as [|x l] eqn:E; [done|]. exfalso. apply (H x), own_elem. rewrite E. left.
Qed.

Lemma inv_init clock : inv (initial L C clock).
Proof.
  split.
  - intros i kd p H. exists 0%nat. destruct i as [|[|i]]; cbn in H; [injection H as <- <-; constructor..|done].
  - intros i x H. by apply elem_of_nil in H.
  - intros kid k H. cbn in H. by rewrite lookup_empty in H.
  - intros tok e H. cbn in H. by rewrite lookup_empty in H.
  - apply each_nil.
Qed.

Lemma stored_key_app h h' kid k : stored_key h kid k -> stored_key (h ++ h') kid k.
Proof. intros [j H]. exists j. apply elem_of_app. by left. Qed.
Lemma stored_entry_app h h' tok e : stored_entry h tok e -> stored_entry (h ++ h') tok e.
Proof. intros [j H]. exists j. apply elem_of_app. by left. Qed.

Lemma inv_step s s' : inv s -> step L C s s' -> inv s'.
Proof.
  intros [Ht Hf Hk Hc Hl] H. destruct H as [m ts h kd Hkd|m ts h i kd p Hi|m ts h i kd X e k x m' Hi Hs]; cbn in *.
  - split; cbn; try done.
    + intros j kd' p Hj. apply lookup_app_Some in Hj as [Hj|[Hge Hj]]; [by eapply Ht|].
      apply list_lookup_singleton_Some in Hj as [E [= <- <-]]. exists 0%nat.
      rewrite own_fresh; [constructor|]. intros x Hx. destruct (Hf _ _ Hx) as [y Hy].
      apply lookup_lt_Some in Hy. lia.
    + intros j x Hj. destruct (Hf j x Hj) as [y Hy]. exists y. by apply lookup_app_l_Some.
  - split; cbn; try done.
    + intros j kd' q Hj. destruct (decide (j = i)) as [->|Hn].
      * rewrite list_lookup_insert in Hj by (by eapply lookup_lt_Some). injection Hj as <- <-.
        destruct (Ht _ _ _ Hi) as [n Hn]. exists (S n). by apply tr_snoc_tau.
      * rewrite list_lookup_insert_ne in Hj by done. by eapply Ht.
    + intros j x Hj. destruct (decide (j = i)) as [->|Hn].
      * rewrite list_lookup_insert by (by eapply lookup_lt_Some). done.
      * rewrite list_lookup_insert_ne by done. by eapply Hf.
  - assert (Hsp : forall j kd' q, spawned L C e !! j = Some (kd', q) -> q = start L C kd').
    { intros j kd' q Hj. destruct e; cbn in Hj; try done. apply list_lookup_singleton_Some in Hj as [_ [= <- <-]]. done. }
    assert (Hlen : length (<[i:=(kd, k x)]> ts) = length ts) by apply insert_length.
    assert (Hnext : forall y, y ∈ h ++ [(i, act_of e x)] -> (y.1 < length ts)%nat).
    { intros [j y] Hy. apply elem_of_app in Hy as [Hy|Hy].
      - destruct (Hf _ _ Hy) as [z Hz]. by eapply lookup_lt_Some.
      - apply elem_of_list_singleton in Hy as [= -> ->]. cbn. by eapply lookup_lt_Some. }
    split; cbn.
    + intros j kd' q Hj. apply lookup_app_Some in Hj as [Hj|[Hge Hj]].
      * rewrite own_app. destruct (decide (j = i)) as [->|Hn].
        -- rewrite list_lookup_insert in Hj by (by eapply lookup_lt_Some). injection Hj as <- <-.
           destruct (Ht _ _ _ Hi) as [n Hn]. exists (S n). rewrite own_one_eq. apply tr_snoc_vis; [done|].
           by eapply sem_possible.
        -- rewrite list_lookup_insert_ne in Hj by done. rewrite own_one_ne by done. rewrite app_nil_r. by eapply Ht.
      * apply Hsp in Hj as ->. exists 0%nat. rewrite own_fresh; [constructor|]. intros y Hy. apply Hnext in Hy. cbn in Hy. lia.
    + intros j y Hy. apply Hnext in Hy. cbn in Hy. rewrite lookup_app_l by lia. apply lookup_lt_is_Some. lia.
    + intros kid key Hkey. assert (Hold : m_keys m !! kid = Some key -> stored_key (h ++ [(i, act_of e x)]) kid key)
        by (intros ?; apply stored_key_app; auto).
      destruct e; cbn in Hs; (lazymatch type of Hs with _ /\ _ => destruct Hs as [_ ->] | _ => subst m' end); cbn in Hkey; try auto.
      * apply lookup_insert_Some in Hkey as [[<- <-]|[_ ?]]; [|by auto]. exists i. apply elem_of_app. right.
        by apply elem_of_list_singleton.
      * apply lookup_delete_Some in Hkey as [_ ?]. auto.
      * apply Hold. by destruct x.
    + intros tok en Hen. assert (Hold : m_cache m !! tok = Some en -> stored_entry (h ++ [(i, act_of e x)]) tok en)
        by (intros ?; apply stored_entry_app; auto).
      destruct e; cbn in Hs; (lazymatch type of Hs with _ /\ _ => destruct Hs as [_ ->] | _ => subst m' end); cbn in Hen; try auto.
      * apply Hold. by destruct x.
      * apply lookup_insert_Some in Hen as [[<- <-]|[_ ?]]; [|by auto]. exists i. apply elem_of_app. right.
        by apply elem_of_list_singleton.
      * apply lookup_delete_Some in Hen as [_ ?]. auto.
    + intros n y Hy. apply lookup_app_Some in Hy as [Hy|[Hge Hy]].
      * rewrite take_app_le by (apply lookup_lt_Some in Hy; lia). by apply Hl.
      * rewrite take_app_ge by done. apply list_lookup_singleton_Some in Hy as [E <-].
        replace (n - length h)%nat with 0%nat by done. cbn [take]. rewrite app_nil_r. unfold load_ok. cbn [snd].
        destruct e; cbn in Hs; try done; destruct Hs as [-> _]; cbn.
        -- destruct (m_keys m !! kid) eqn:Ek; [by apply Hk|done].
        -- destruct (m_cache m !! token) eqn:Ek; [by apply Hc|done].
Qed.
Lemma inv_reachable clock s : reachable L C clock s -> inv s.
Proof. induction 1; [apply inv_init|by eapply inv_step]. Qed.
Lemma finishes_inv clock i kd o s : finishes L C clock i kd o s ->
  inv s /\ exists n, tr n (start L C kd) (own i (s_log s)) (Ret o).
Proof.
  intros (Hi & s0 & Hr & Hs & _). assert (Hinv : inv s) by (eapply inv_step; [by eapply inv_reachable|done]).
  split; [done|]. by eapply inv_threads.
Qed.

(** ** Evidence in the history *)
Lemma own_evidence s i a x b : inv s -> own i (s_log s) = a ++ x :: b -> evidence (L := L) (C := C) a x.
Proof.
  intros Hinv E. assert (Hx : (i, x) ∈ s_log s). { apply own_elem. rewrite E. apply elem_of_app. right. left. }
  destruct (inv_fresh s Hinv _ _ Hx) as [[kd p] Hi]. destruct (inv_threads s Hinv _ _ _ Hi) as [n Ht].
  apply start_sound in Ht. rewrite E in Ht. by eapply each_mid.
Qed.
Lemma key_published s i kid k : inv s -> (i, AKeyLoad kid (Some k)) ∈ s_log s -> published L (s_log s) kid k.
Proof.
  intros Hinv Hi. apply elem_of_list_split in Hi as (h1 & h2 & E).
  pose proof (inv_loads s Hinv) as Hl. rewrite E in Hl. apply each_mid in Hl. destruct Hl as [j Hj].
  assert (Hj' : AKeyStore kid k ∈ own j (s_log s)).
  { apply own_elem. rewrite E. apply elem_of_app. by left. }
  apply elem_of_list_split in Hj' as (a & b & Eo).
  destruct (own_evidence s j _ _ _ Hinv Eo) as [(body & ks & pem & Hu & ? & ? & ?) _].
  exists j, body, ks, pem. split; [|done]. apply own_elem. rewrite Eo. apply elem_of_app. by left.
Qed.
Lemma good_vouched s i auth c : inv s -> good_token (own i (s_log s)) auth c -> vouched L (s_log s) i auth c.
Proof.
  intros Hinv (token & kid & k & payload & t & ? & ? & Hk & ? & ? & Ht & ?).
  exists token, kid, k, payload, t. split; [done|]. split; [done|]. split; [|split; [done|split; [done|split; [|done]]]].
  - eapply key_published; [done|]. by apply own_elem in Hk.
  - by apply own_elem.
Qed.
Lemma local_authorised s i tok id : inv s -> auth_local (C := C) (own i (s_log s)) tok id -> authorised L C (s_log s) i tok id.
Proof.
  intros Hinv [(la & e & lb & t & Eo & Ht & Hlt & Hid)|(la & ts & lb & before & cs & ids & Eo & Ec & Hl & Hid)].
  - apply own_split in Eo as (h1 & h2 & E & _ & Elb).
    pose proof (inv_loads s Hinv) as Hlo. rewrite E in Hlo. apply each_mid in Hlo. destruct Hlo as [j Hj].
    apply elem_of_list_split in Hj as (ha & hb & Eh1).
    assert (Ej : own j (s_log s) = own j ha ++ ACacheStore tok e :: own j (hb ++ (i, ACacheLoad tok (Some e)) :: h2)).
    { rewrite E, Eh1, <- app_assoc, own_app. f_equal.
      change (((j, ACacheStore tok e) :: hb) ++ (i, ACacheLoad tok (Some e)) :: h2)
        with ([(j, ACacheStore tok e)] ++ (hb ++ (i, ACacheLoad tok (Some e)) :: h2)).
      by rewrite own_app, own_one_eq. }
    destruct (own_evidence s j _ _ _ Hinv Ej) as [_ (l0 & ts & El & Ex & Hids)].
    apply own_split in El as (hc & hd & -> & El0 & _).
    destruct Hids as [E0|(before & cs & Ec & Hli)]; [rewrite E0 in Hid; by apply elem_of_nil in Hid|].
    exists j, hc, ts, (hd ++ (j, ACacheStore tok e) :: hb ++ (i, ACacheLoad tok (Some e)) :: h2), before, cs, (en_ids e).
    split. { rewrite E, Eh1. by rewrite <- !app_assoc. }
    split; [by rewrite El0|]. split; [done|]. split; [done|]. right. exists t. split; [|lia].
    assert (Hin : (i, ANow t) ∈ h2). { apply own_elem. by rewrite Elb. }
    rewrite !elem_of_app, elem_of_cons, elem_of_app, elem_of_cons. auto 10.
  - apply own_split in Eo as (h1 & h2 & E & Ea & _).
    exists i, h1, ts, h2, before, cs, ids. split; [done|]. split; [by rewrite Ea|]. split; [done|]. split; [done|]. by left.
Qed.

(** ** The properties *)
Lemma serve_not_redirect n r l o : tr n (serve L C r) l (Ret o) -> o <> Redirect ->
  tr n (match read_id (rq_path r) with
    | Some id => read_handler L C id r
    | None =>
        if bool_decide (rq_path r = "/api/v1/query") || bool_decide (rq_path r = "/api/v1/query_range")
        then query_handler L C r
        else if bool_decide (rq_path r = "/api/v1/meta") then meta_handler L C r
        else if bool_decide (rq_path r = "/api/v1/info") then Ret (Forward (rq_path r) (rq_query r))
        else Ret (Status 404)
    end) l (Ret o).
Proof. unfold serve. destruct (bool_decide _); [done|]. intros H. by apply tr_ret in H as [_ ->]. Qed.
Lemma read_id_spec path id : read_id path = Some id <-> path = append "/api/v1/read/" id /\ has_char newline id = false.
Proof.
  unfold read_id. destruct (strip_prefix _ path) as [x|] eqn:E.
  - apply UrlProofs.strip_prefix_some in E as ->. destruct (has_char newline x) eqn:En.
    + split; [done|]. intros [E H]. apply (inj (append _)) in E. congruence.
    + split; [by intros [= <-]|]. intros [E _]. by apply (inj (append _)) in E as ->.
  - split; [done|]. intros [-> _]. by rewrite UrlProofs.strip_prefix_app in E.
Qed.
Lemma read_ok clock i r p q s id : rq_path r = append "/api/v1/read/" id -> has_char newline id = false ->
  finishes L C clock i (KServe r) (RHttp (Forward p q)) s ->
  p = rq_path r /\ q = rq_query r /\
  exists c, vouched L (s_log s) i (rq_auth r) c /\ (admin c \/ authorised L C (s_log s) i (rq_auth r) id).
Proof.
  intros Hp Hnl H. assert (Hid : read_id (rq_path r) = Some id) by (by apply read_id_spec).
  apply finishes_inv in H as [Hinv [n H]]. apply serve_tr, serve_not_redirect in H; [|done].
  rewrite Hid in H.
  apply read_handler_tr in H as (-> & -> & c & Hg & Ha). split; [done|]. split; [done|].
  exists c. split; [by apply good_vouched|]. destruct Ha as [?|?]; [by left|right]. by apply local_authorised.
Qed.
Lemma forward_routes clock i r p q s : finishes L C clock i (KServe r) (RHttp (Forward p q)) s ->
  (exists id, rq_path r = append "/api/v1/read/" id /\ has_char newline id = false) \/
  rq_path r ∈ ["/api/v1/query"; "/api/v1/query_range"; "/api/v1/info"].
Proof.
  intros H. apply finishes_inv in H as [Hinv [n H]]. apply serve_tr, serve_not_redirect in H; [|done].
  destruct (read_id (rq_path r)) as [id|] eqn:E.
  { left. exists id. by apply read_id_spec. }
  right. destruct (bool_decide_reflect (rq_path r = "/api/v1/query")) as [->|]; [by left|].
  destruct (bool_decide_reflect (rq_path r = "/api/v1/query_range")) as [->|]; [by right; left|].
  cbn [orb] in H. destruct (bool_decide (rq_path r = "/api/v1/meta")).
  { exfalso. revert H. generalize (own i (s_log s)). intros l H. unfold meta_handler in H. destruct (bool_decide _); [by apply tr_ret in H as [_ ?]|].
    apply tr_bind_ret in H as (l1 & l2 & o & -> & H1 & H). destruct o as [u|]; [|by apply tr_ret in H as [_ ?]].
    apply tr_bind_ret in H as (l3 & l4 & o & -> & _ & H). destruct o as [m|]; [|by apply tr_ret in H as [_ ?]].
    destruct (us_admin u); [by apply tr_ret in H as [_ ?]|]. apply tr_bind_ret in H as (l5 & l6 & o & -> & _ & H).
    by apply tr_ret in H as [_ ?]. }
  destruct (bool_decide_reflect (rq_path r = "/api/v1/info")) as [->|]; [by right; right; left|].
  by apply tr_ret in H as [_ ?].
Qed.
Lemma meta_ok clock i r m s : finishes L C clock i (KServe r) (RHttp (MetaBody m)) s ->
  exists c l1 l2 backend, vouched L (s_log s) i (rq_auth r) c /\
    own i (s_log s) = l1 ++ AMeta (Some backend) :: l2 /\
    ((admin c /\ m = backend) \/
     (~ admin c /\ exists ids, (listed L C (rq_auth r) (calls l2) ids \/ (list_fails L C (rq_auth r) (calls l2) /\ ids = [])) /\
        forall id, m !! id = if decide (id ∈ ids) then backend !! id else None)).
Proof.
  intros H. apply finishes_inv in H as [Hinv [n H]]. apply serve_tr, serve_not_redirect in H; [|done].
  assert (Hm : tr n (meta_handler L C r) (own i (s_log s)) (Ret (MetaBody m))).
  { destruct (read_id (rq_path r)) as [id|].
    { exfalso. revert H. generalize (own i (s_log s)). intros l H. unfold read_handler in H. destruct (bool_decide _); [by apply tr_ret in H as [_ ?]|].
      apply tr_bind_ret in H as (l1 & l2 & o & -> & H1 & H). destruct o as [u|]; [|by apply tr_ret in H as [_ ?]].
      destruct (us_admin u); [by apply tr_ret in H as [_ ?]|]. apply tr_bind_ret in H as (l5 & l6 & o & -> & _ & H).
      destruct o; by apply tr_ret in H as [_ ?]. }
    destruct (bool_decide _ || _).
    { exfalso. revert H. generalize (own i (s_log s)). intros l H. unfold query_handler in H. destruct (bool_decide _); [by apply tr_ret in H as [_ ?]|].
      destruct (promql_parse L _); [|by apply tr_ret in H as [_ ?]].
      apply tr_bind_ret in H as (l1 & l2 & o & -> & H1 & H). destruct o as [|? ?]; [by apply tr_ret in H as [_ ?]|].
      apply tr_bind_ret in H as (l3 & l4 & o' & -> & _ & H). destruct o' as [u|]; [|by apply tr_ret in H as [_ ?]].
      apply tr_bind_ret in H as (l5 & l6 & ? & -> & _ & H). apply tr_bind_ret in H as (l7 & l8 & o' & -> & _ & H).
      destruct o'; by apply tr_ret in H as [_ ?]. }
    destruct (bool_decide _); [done|]. by destruct (bool_decide _); apply tr_ret in H as [_ ?]. }
  apply meta_handler_tr in Hm as (c & la & lb & backend & Hg & E & Ha).
  exists c, la, lb, backend. split; [by apply good_vouched|done].
Qed.
Lemma authorize_ok clock i id tok s : finishes L C clock i (KAuthorize id tok) (RBool true) s ->
  authorised L C (s_log s) i tok id.
Proof.
  intros H. apply finishes_inv in H as [Hinv [n H]]. cbn [start] in H.
  apply tr_bind_ret in H as (l1 & l2 & b & E & H1 & H). apply tr_ret in H as [-> [= <-]]. rewrite app_nil_r in E. subst l1.
  apply local_authorised; [done|]. by eapply is_authorized_tr.
Qed.
Lemma uaa_ok clock i auth u s : finishes L C clock i (KRead auth) (RUser (Some u)) s ->
  us_token u = auth /\ exists c, vouched L (s_log s) i auth c /\ us_expires u = cl_exp c /\ (us_admin u = true <-> admin c).
Proof.
  intros H. apply finishes_inv in H as [Hinv [n H]]. cbn [start] in H.
  apply tr_bind_ret in H as (l1 & l2 & b & E & H1 & H). apply tr_ret in H as [-> [= <-]]. rewrite app_nil_r in E. subst l1.
  apply uaa_read_tr in H1 as (_ & ? & c & Hg & ? & ?). split; [done|]. exists c. split; [by apply good_vouched|done].
Qed.

(** ** Queries *)
(** The source ids CAPI has listed so far are free of '|' *)
Definition plain_guids h : Prop := forall j u tok body rs href x,
  (j, ACapi u tok (Some (Reply 200 body))) ∈ h -> json_page L body = Some (rs, href) -> x ∈ rs_guid <$> rs ->
  has_char "|" x = false.
Lemma page_plain s i x : plain_guids (s_log s) -> page_guid (own i (s_log s)) x -> has_char "|" x = false.
Proof.
  intros Hp (u & tok & body & rs & href & Hin & Hj & Hx). eapply Hp; [|exact Hj|exact Hx]. apply own_elem, Hin.
Qed.
Lemma authorised_plain s i tok x : plain_guids (s_log s) -> authorised L C (s_log s) i tok x -> has_char "|" x = false.
Proof.
  intros Hp (j & h1 & ts & h2 & before & cs & ids & E & Ec & Hl & Hx & _).
  eapply listed_guids in Hl as (v & body & ps & href & Hin & Hj & Hg); [|exact Hx].
  eapply Hp; [|exact Hj|exact Hg]. rewrite E. apply elem_of_app. left. apply own_elem, calls_elem.
  rewrite Ec. apply elem_of_app. by right.
Qed.
Lemma query_forward clock i r p q s :
  rq_path r ∈ ["/api/v1/query"; "/api/v1/query_range"] ->
  finishes L C clock i (KServe r) (RHttp (Forward p q)) s ->
  p = rq_path r /\ forall k, k <> "query" -> parse_query q !! k = parse_query (rq_query r) !! k.
Proof.
  intros Hpath H. apply finishes_inv in H as [Hinv [n H]]. apply serve_tr, serve_not_redirect in H; [|done].
  replace (read_id (rq_path r)) with (@None string) in H.
  2:{ rewrite !elem_of_cons, elem_of_nil in Hpath. destruct Hpath as [->|[->|[]]]; done. }
  replace (bool_decide (rq_path r = "/api/v1/query") || bool_decide (rq_path r = "/api/v1/query_range")) with true in H.
  2:{ rewrite !elem_of_cons, elem_of_nil in Hpath. destruct Hpath as [->|[->|[]]]; done. }
  apply query_handler_tr in H as (-> & e & sets & c & He & -> & Hg & Ha). split; [done|]. intros k Hk.
  rewrite UrlProofs.parse_encode by (apply UrlProofs.vset_nonempty, UrlProofs.parse_query_nonempty).
  unfold vset. by rewrite lookup_insert_ne.
Qed.
Lemma query_ok clock i r p q s e' :
  (forall text e sets e', promql_parse L text = Some e -> promql_parse L (promql_print L (replace_ids sets e)) = Some e' ->
     e' = replace_ids sets e) ->
  plain_guids (s_log s) ->
  rq_path r ∈ ["/api/v1/query"; "/api/v1/query_range"] ->
  finishes L C clock i (KServe r) (RHttp (Forward p q)) s ->
  promql_parse L (vget "query" (parse_query q)) = Some e' ->
  p = rq_path r /\ length (default [] (parse_query q !! "query")) = 1%nat /\
  (forall k, k <> "query" -> parse_query q !! k = parse_query (rq_query r) !! k) /\
  exists c, vouched L (s_log s) i (rq_auth r) c /\
    (admin c \/ forall ms id, selector_of e' ms -> asks ms id -> authorised L C (s_log s) i (rq_auth r) id).
Proof.
  intros Hrt Hpl Hpath H He'. apply finishes_inv in H as [Hinv [n H]]. apply serve_tr, serve_not_redirect in H; [|done].
  replace (read_id (rq_path r)) with (@None string) in H.
  2:{ rewrite !elem_of_cons, elem_of_nil in Hpath. destruct Hpath as [->|[->|[]]]; done. }
  replace (bool_decide (rq_path r = "/api/v1/query") || bool_decide (rq_path r = "/api/v1/query_range")) with true in H.
  2:{ rewrite !elem_of_cons, elem_of_nil in Hpath. destruct Hpath as [->|[->|[]]]; done. }
  apply query_handler_tr in H as (-> & e & sets & c & He & -> & Hg & Ha).
  rewrite UrlProofs.parse_encode in He' |- * by (apply UrlProofs.vset_nonempty, UrlProofs.parse_query_nonempty).
  unfold vget, vset in He' |- *. rewrite lookup_insert in He' |- *. apply (Hrt _ _ _ _ He) in He' as ->.
  split; [done|]. split; [done|]. split; [by intros k Hk; rewrite lookup_insert_ne|].
  exists c. split; [by apply good_vouched|]. destruct Ha as [?|[Hsets Hids]]; [by left|right].
  intros ms' id Hs Hask. apply selector_of_replace in Hs as (ms & Hs & ->).
  apply replace_selector in Hask as (x & ids & Hx & Hsx & Hin).
  - destruct (Hids x) as (out & Eo & _ & Hout); [apply expr_ids_spec; eauto|]. rewrite Eo in Hsx. injection Hsx as <-.
    by apply local_authorised, Hout.
  - intros k ids Hk. destruct (Hsets k ids Hk) as [Hne Hx]. split; [|done]. apply Forall_forall. intros x Hxi.
    destruct (Hx x Hxi) as [Hxx|Hxx]; [by eapply page_plain|]. apply local_authorised in Hxx; [|done].
    by eapply authorised_plain.
  - intros x Hx. destruct (Hids x) as (out & Eo & _); [apply expr_ids_spec; eauto|]. by exists out.
Qed.
End Global.
