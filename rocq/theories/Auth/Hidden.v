(** What the proxy answers to those it does not let in. *)
From Coq Require Import Ascii String.
From stdpp Require Import prelude gmap strings list.
From Verif.Base Require Import Str Url.
From Verif.Promql Require Import Model Spec ProofsSelect.
From Verif.Auth Require Import Model System Spec SpecHidden Trace Local Global.
Open Scope string_scope.
Open Scope list_scope.
Open Scope Z_scope.

Section Hidden.
Context {L : lib} {C : config}.
Implicit Types (l : list (act L)) (h : list (nat * act L)).
Local Arguments own : simpl never.

Definition unasked (x : act L) : Prop := match x with AMeta _ | ACapi _ _ _ => False | _ => True end.
Notation alone := (holds (Forall unasked)).
Definition inner_eff {X} (e : eff L X) : bool := match e with MetaGet | CapiGet _ _ => false | _ => true end.
Lemma a_do {X} (e : eff L X) : inner_eff e = true -> alone (do e).
Proof. intros H. apply holds_do; [constructor|]. intros x _. constructor; [|constructor]. by destruct e. Qed.
Lemma a_ret {A} (a : A) : alone (@Ret L A a).
Proof. apply holds_ret. constructor. Qed.
Lemma a_panic {A} : alone (@Panic L A).
Proof. apply holds_panic. constructor. Qed.
Lemma a_bind {A B} (p : prog L A) (f : A -> prog L B) : alone p -> (forall a, alone (f a)) -> alone (bind p f).
Proof. apply holds_bind. intros. by apply Forall_app. Qed.
Hint Resolve a_ret a_panic : core.
Ltac chain := apply a_bind; [try by apply a_do|intros ?].
Lemma a_store ks : forall cur, alone (store_keys L ks cur).
Proof.
  induction ks as [|[kid v] ks IH]; intros cur; cbn [store_keys]; [done|].
  destruct (bool_decide _); [done|]. destruct (rsa_key L v); [|done]. by chain.
Qed.
Lemma a_delete kids : alone (delete_keys L kids).
Proof. induction kids; cbn; [done|]. by chain. Qed.
Lemma a_refresh : alone (refresh L C).
Proof.
  unfold refresh. chain. chain. destruct (bool_decide _); [done|]. chain. chain. chain. destruct a3 as [r|]; [|done].
  destruct (bool_decide _); [|done]. destruct (json_keys L _); [|done].
  chain. chain; [apply a_store|]. destruct a4; [|done]. chain; [apply a_delete|done].
Qed.
Lemma a_uaa_read t : alone (uaa_read L C t).
Proof.
  unfold uaa_read. destruct (bool_decide _); [done|]. destruct (jose_headers L _) as [[[|alg|] kid]|]; try done.
  - destruct (bool_decide _); [|done]. destruct kid; try done. chain.
    + unfold load_or_fetch. chain. destruct a; [done|]. chain; [apply a_refresh|by apply a_do].
    + destruct a; [|done]. destruct (jose_verify L _ _); [|by chain]. unfold accept. destruct (json_claims L _); [|done].
      chain. by destruct (bool_decide _).
  - by chain.
Qed.

Lemma senseless_ids r e : rq_path r ∈ ["/api/v1/query"; "/api/v1/query_range"] -> rq_auth r <> "" ->
  promql_parse L (vget "query" (parse_query (rq_query r))) = Some e ->
  (senseless L r <-> forall x, x ∉ id_set (expr_ids e)).
Proof.
  intros Hp Ha He. unfold senseless. split.
  - intros (_ & _ & H) x Hx. unfold id_set in Hx. apply elem_of_list_to_set, expr_ids_spec in Hx as (ms & Hm & Hx). by eapply H.
  - intros H. do 2 (split; [done|]). intros e' He' ms id Hs Hx. rewrite He in He'. injection He' as <-.
    apply (H id). unfold id_set. apply elem_of_list_to_set, expr_ids_spec. by exists ms.
Qed.

(** The answer of each handler, in the goroutine's own actions *)
Lemma stranger_tr n r l o : clean_path L (rq_path r) = rq_path r -> rq_path r <> "/api/v1/info" ->
  (forall c, ~ good_token (L := L) l (rq_auth r) c) -> tr n (serve L C r) l (Ret o) -> told_nothing L r o /\ Forall unasked l.
Proof.
  intros Hc Hi Hs H. unfold serve in H. rewrite bool_decide_true in H by done.
  assert (Hread : forall n l1 l2 l3 u, l = l1 ++ l2 ++ l3 -> tr n (uaa_read L C (rq_auth r)) l2 (Ret (Some u)) -> False).
  { intros n' l1 l2 l3 u -> H1. apply uaa_read_tr in H1 as (_ & _ & c & Hg & _). apply (Hs c). by apply good_token_app. }
  assert (Hq : rq_path r ∉ ["/api/v1/query"; "/api/v1/query_range"] -> ~ senseless L r) by (intros Hn [? _]; done).
  destruct (read_id (rq_path r)) as [id|] eqn:Eid.
  { assert (Hns : ~ senseless L r).
    { apply Hq. apply read_id_spec in Eid as [-> _]. rewrite !elem_of_cons, elem_of_nil. intros [E|[E|[]]]; discriminate E. }
    unfold read_handler in H. destruct (bool_decide_reflect (rq_auth r = "")) as [_|Hne].
    { apply tr_ret in H as [-> ->]. split; [by right|done]. }
    apply tr_bind_ret in H as (l1 & l2 & u & -> & H1 & H). destruct u as [u|].
    { exfalso. by eapply (Hread _ [] l1 l2). }
    apply tr_ret in H as [-> ->]. split; [by right|]. rewrite app_nil_r. by eapply a_uaa_read. }
  destruct (bool_decide (rq_path r = "/api/v1/query") || bool_decide (rq_path r = "/api/v1/query_range")) eqn:Eq.
  { assert (Hpath : rq_path r ∈ ["/api/v1/query"; "/api/v1/query_range"]).
    { apply orb_true_iff in Eq as [E|E]; apply bool_decide_eq_true in E; rewrite E; set_solver. }
    unfold query_handler in H. destruct (bool_decide_reflect (rq_auth r = "")) as [E|Hne].
    { apply tr_ret in H as [-> ->]. split; [|done]. right. split; [|done]. by intros (_ & ? & _). }
    destruct (promql_parse L (vget "query" (parse_query (rq_query r)))) as [e|] eqn:Ep.
    2:{ apply tr_ret in H as [-> ->]. split; [|done]. left. split; [|done]. split; [done|]. split; [done|]. intros e He. congruence. }
    apply tr_bind_ret in H as (l1 & l2 & ids & -> & H1 & H). apply tr_do_ret in H1 as [-> Hids]. cbn in Hids.
    destruct ids as [|id ids].
    { apply tr_ret in H as [-> ->]. split; [|by repeat constructor]. left. split; [|done]. apply (senseless_ids _ e); [done..|].
      intros x Hx. assert (Hin : x ∈ elements (id_set (expr_ids e))) by (by apply elem_of_elements). rewrite <- Hids in Hin. by apply elem_of_nil in Hin. }
    apply tr_bind_ret in H as (l3 & l4 & u & -> & H1 & H). destruct u as [u|].
    { exfalso. by eapply (Hread _ _ l3 l4). }
    apply tr_ret in H as [-> ->]. split.
    - right. split; [|done]. intros Hse. pose proof (proj1 (senseless_ids _ e Hpath Hne Ep) Hse id) as Hid. apply Hid.
      apply elem_of_elements. rewrite <- Hids. by left.
    - apply Forall_app. split; [by repeat constructor|]. rewrite app_nil_r. by eapply a_uaa_read. }
  assert (Hns : ~ senseless L r).
  { apply Hq. apply orb_false_iff in Eq as [E1 E2]. apply bool_decide_eq_false in E1, E2. set_solver. }
  destruct (bool_decide (rq_path r = "/api/v1/meta")).
  { unfold meta_handler in H. destruct (bool_decide_reflect (rq_auth r = "")) as [_|Hne].
    { apply tr_ret in H as [-> ->]. split; [by right|done]. }
    apply tr_bind_ret in H as (l1 & l2 & u & -> & H1 & H). destruct u as [u|].
    { exfalso. by eapply (Hread _ [] l1 l2). }
    apply tr_ret in H as [-> ->]. split; [by right|]. rewrite app_nil_r. by eapply a_uaa_read. }
  rewrite bool_decide_false in H by done. apply tr_ret in H as [-> ->]. split; [by right|done].
Qed.

Lemma stranger_told clock i r o s : clean_path L (rq_path r) = rq_path r -> rq_path r <> "/api/v1/info" ->
  finishes L C clock i (KServe r) (RHttp o) s -> stranger L (s_log s) i r -> told_nothing L r o /\ asked_nobody L (s_log s) i.
Proof.
  intros Hc Hi H Hs. apply finishes_inv in H as [Hinv [n H]]. apply serve_tr in H.
  apply stranger_tr in H as [Ht Hu]; [|done|done|].
  - split; [done|]. intros x Hx. rewrite Forall_forall in Hu. apply (Hu x). by apply own_elem.
  - intros c Hg. apply (Hs c). by apply (good_vouched (C := C)).
Qed.

(** A user who is let in, but not to this source *)
Lemma hidden_read clock i r o s id : clean_path L (rq_path r) = rq_path r ->
  rq_path r = append "/api/v1/read/" id -> has_char newline id = false ->
  finishes L C clock i (KServe r) (RHttp o) s ->
  (forall c, vouched L (s_log s) i (rq_auth r) c -> ~ admin c) -> ~ authorised L C (s_log s) i (rq_auth r) id -> o = Status 404.
Proof.
  intros Hc Hp Hn H Hadm Hau. pose proof H as Hf. apply finishes_inv in H as [Hinv [n H]]. apply serve_tr in H.
  unfold serve in H. rewrite bool_decide_true in H by done.
  rewrite (proj2 (read_id_spec _ _) (conj Hp Hn)) in H. unfold read_handler in H.
  assert (Hfw : forall p q, o <> Forward p q).
  { intros p q ->. destruct (read_ok _ _ _ _ _ _ _ Hp Hn Hf) as (_ & _ & c & Hv & [Ha|Ha]); [by eapply Hadm|done]. }
  revert H. generalize (own i (s_log s)). intros l H.
  destruct (bool_decide (rq_auth r = "")); [by apply tr_ret in H as [_ ->]|].
  apply tr_bind_ret in H as (l1 & l2 & u & -> & H1 & H). destruct u as [u|]; [|by apply tr_ret in H as [_ ->]].
  destruct (us_admin u); [apply tr_ret in H as [_ ->]; by destruct (Hfw (rq_path r) (rq_query r))|].
  apply tr_bind_ret in H as (l3 & l4 & ok & -> & _ & H). apply tr_ret in H as [_ ->]. destruct ok; [|done].
  by destruct (Hfw (rq_path r) (rq_query r)).
Qed.

(** The statuses there are *)
Lemma statuses clock i r code s : finishes L C clock i (KServe r) (RHttp (Status code)) s ->
  code = 404 \/
  (code = 502 /\ rq_path r = "/api/v1/meta" /\ (i, AMeta None) ∈ s_log s /\ exists c, vouched L (s_log s) i (rq_auth r) c).
Proof.
  intros H. apply finishes_inv in H as [Hinv [n H]]. apply serve_tr, serve_not_redirect in H; [|done].
  assert (Hq : forall l c, l = own i (s_log s) -> good_token (L := L) l (rq_auth r) c -> vouched L (s_log s) i (rq_auth r) c).
  { intros l c -> Hg. by apply (good_vouched (C := C)). }
  assert (Hm : forall l, l = own i (s_log s) -> AMeta None ∈ l -> (i, AMeta None) ∈ s_log s).
  { intros l -> Hx. by apply own_elem. }
  revert H. remember (own i (s_log s)) as l eqn:El. intros H.
  destruct (read_id (rq_path r)) as [id|].
  { left. unfold read_handler in H. destruct (bool_decide _); [by apply tr_ret in H as [_ [= ->]]|].
    apply tr_bind_ret in H as (l1 & l2 & o & E & H1 & H). destruct o as [u|]; [|by apply tr_ret in H as [_ [= ->]]].
    destruct (us_admin u); [by apply tr_ret in H as [_ ?]|]. apply tr_bind_ret in H as (l5 & l6 & o & _ & _ & H).
    destruct o; apply tr_ret in H as [_ H]; [done|by injection H as ->]. }
  destruct (bool_decide _ || _).
  { left. unfold query_handler in H. destruct (bool_decide _); [by apply tr_ret in H as [_ [= ->]]|].
    destruct (promql_parse L _); [|by apply tr_ret in H as [_ ?]].
    apply tr_bind_ret in H as (l1 & l2 & o & E & H1 & H). destruct o as [|? ?]; [by apply tr_ret in H as [_ ?]|].
    apply tr_bind_ret in H as (l3 & l4 & o' & _ & _ & H). destruct o' as [u|]; [|by apply tr_ret in H as [_ [= ->]]].
    apply tr_bind_ret in H as (l5 & l6 & ? & _ & _ & H). apply tr_bind_ret in H as (l7 & l8 & o' & _ & _ & H).
    destruct o'; apply tr_ret in H as [_ H]; [done|by injection H as ->]. }
  destruct (bool_decide_reflect (rq_path r = "/api/v1/meta")) as [Hp|_].
  { unfold meta_handler in H. destruct (bool_decide _); [left; by apply tr_ret in H as [_ [= ->]]|].
    apply tr_bind_ret in H as (l1 & l2 & o & E & H1 & H). destruct o as [u|]; [|left; by apply tr_ret in H as [_ [= ->]]].
    apply uaa_read_tr in H1 as (_ & _ & c & Hg & _).
    apply tr_bind_ret in H as (l3 & l4 & m & E2 & H2 & H). apply tr_do_ret in H2 as [-> _]. destruct m as [m|].
    { destruct (us_admin u); [by apply tr_ret in H as [_ ?]|]. apply tr_bind_ret in H as (l5 & l6 & o & _ & _ & H).
      by apply tr_ret in H as [_ ?]. }
    apply tr_ret in H as [-> [= ->]]. right. split; [done|]. split; [done|]. split.
    - apply (Hm l eq_refl). rewrite E, E2. rewrite !elem_of_app. right. left. by left.
    - exists c. apply (Hq l c eq_refl). rewrite E. by apply (good_token_app []). }
  destruct (bool_decide _); apply tr_ret in H as [_ H]; [done|left; by injection H as ->].
Qed.
End Hidden.
