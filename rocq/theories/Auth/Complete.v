(** Refusals have reasons, and queries are expanded to all their user may see. *)
From Coq Require Import Ascii String.
From stdpp Require Import prelude gmap strings list.
From Verif.Base Require Import Str Url.
From Verif.Promql Require Import Model Spec ProofsSelect.
From Verif.Auth Require Import Model System Spec Trace Local Global.
Open Scope string_scope.
Open Scope list_scope.
Open Scope Z_scope.

Section Complete.
Context {L : lib} {C : config}.
Implicit Types (l : list (act L)) (h : list (nat * act L)).
Local Arguments own : simpl never.
Notation answer := (list_answer L C).

(** ** What the cache remembers *)
Definition memo l (x : act L) : Prop :=
  match x with
  | ACacheStore tok e => exists la o lb ts, l = la ++ ACacheLoad tok o :: lb ++ [ANow ts] /\
      en_expires e = ts + cf_cache C /\ answer tok (calls lb) (en_ids e) /\
      (en_retry e = 0 \/ exists e0, o = Some e0 /\ en_retry e = en_retry e0 + 1)
  | _ => True
  end.
Lemma memo_mono a l x : memo l x -> memo (a ++ l) x.
Proof.
  destruct x; cbn; try done. intros (la & o & lb & ts & -> & ?). exists (a ++ la), o, lb, ts. by rewrite <- app_assoc.
Qed.
Lemma memo_app a b : each memo a -> each memo b -> each memo (a ++ b).
Proof. apply each_app, memo_mono. Qed.
Notation kept := (holds (each memo)).
Definition unstored (x : act L) : Prop := match x with ACacheStore _ _ => False | _ => True end.
Lemma each_unstored l : Forall unstored l -> each memo l.
Proof. apply each_Forall. by intros a []. Qed.
Notation quiet := (holds (Forall unstored)).
Definition calm_eff {X} (e : eff L X) : bool := match e with CacheStore _ _ => false | _ => true end.
Lemma q_do {X} (e : eff L X) : calm_eff e = true -> quiet (do e).
Proof. intros H. apply holds_do; [constructor|]. intros x _. constructor; [|constructor]. by destruct e. Qed.
Lemma q_ret {A} (a : A) : quiet (@Ret L A a).
Proof. apply holds_ret. constructor. Qed.
Lemma q_panic {A} : quiet (@Panic L A).
Proof. apply holds_panic. constructor. Qed.
Lemma q_bind {A B} (p : prog L A) (f : A -> prog L B) : quiet p -> (forall a, quiet (f a)) -> quiet (bind p f).
Proof. apply holds_bind. intros. by apply Forall_app. Qed.
Lemma q_forever {S B} (body : S -> prog L (S + B)) s : (forall s, quiet (body s)) -> quiet (forever body s).
Proof. apply holds_forever. intros. by apply Forall_app. Qed.
Hint Resolve q_ret q_panic : core.
Ltac chain := apply q_bind; [try by apply q_do|intros ?].
Lemma q_store ks : forall cur, quiet (store_keys L ks cur).
Proof.
  induction ks as [|[kid v] ks IH]; intros cur; cbn [store_keys]; [done|].
  destruct (bool_decide _); [done|]. destruct (rsa_key L v); [|done]. by chain.
Qed.
Lemma q_delete kids : quiet (delete_keys L kids).
Proof. induction kids; cbn; [done|]. by chain. Qed.
Lemma q_refresh : quiet (refresh L C).
Proof.
  unfold refresh. chain. chain. destruct (bool_decide _); [done|]. chain. chain. chain. destruct a3 as [r|]; [|done].
  destruct (bool_decide _); [|done]. destruct (json_keys L _); [|done].
  chain. chain; [apply q_store|]. destruct a4; [|done]. chain; [apply q_delete|done].
Qed.
Lemma q_uaa_read t : quiet (uaa_read L C t).
Proof.
  unfold uaa_read. destruct (bool_decide _); [done|]. destruct (jose_headers L _) as [[[|alg|] kid]|]; try done.
  - destruct (bool_decide _); [|done]. destruct kid; try done. chain.
    + unfold load_or_fetch. chain. destruct a; [done|]. chain; [apply q_refresh|by apply q_do].
    + destruct a; [|done]. destruct (jose_verify L _ _); [|by chain]. unfold accept. destruct (json_claims L _); [|done].
      chain. by destruct (bool_decide _).
  - by chain.
Qed.
Lemma q_paginated u tok : quiet (paginated L u tok).
Proof. apply q_forever. intros s. unfold page_step, do_resource_request, do_request. chain; [|done]. chain; [|done]. chain. chain. by chain. Qed.
Lemma q_available tok : quiet (available L C tok).
Proof.
  unfold available. destruct (url_parse L _); [|done]. chain; [apply q_paginated|]. destruct a; [|done].
  destruct (url_parse L _); [|done]. chain; [apply q_paginated|]. by destruct a.
Qed.
Lemma q_related names tok : quiet (related L C names tok).
Proof.
  unfold related. destruct names; [done|]. destruct (url_parse L _); [|done]. chain; [apply q_paginated|]. by destruct a.
Qed.
Lemma q_prune : quiet (forever (prune_step L) ()).
Proof.
  apply q_forever. intros s. unfold prune_step. chain. chain. chain; [|done].
  induction a0 as [|[tok e] es IH]; cbn; [done|]. destruct (bool_decide _); [|done]. by chain.
Qed.
Lemma quiet_kept {A} (p : prog L A) : quiet p -> kept p.
Proof. intros H n l q Hp. eapply each_unstored, H, Hp. Qed.

Lemma unstored_at l i tok e : Forall unstored l -> l !! i = Some (ACacheStore tok e) -> False.
Proof. intros H Hi. rewrite Forall_lookup in H. by apply H in Hi. Qed.
Lemma fetch_stores n id tok retry l q : tr n (fetch L C id tok retry) l q ->
  forall i tok' e, l !! i = Some (ACacheStore tok' e) ->
    tok' = tok /\ en_retry e = retry /\ exists lb ts, take i l = lb ++ [ANow ts] /\ en_expires e = ts + cf_cache C /\
      answer tok (calls lb) (en_ids e).
Proof.
  intros H i tok' e Hi. unfold fetch in H.
  apply tr_bind in H as [(p' & H & _)|(l1 & l2 & ids & -> & H1 & H)].
  { exfalso. eapply unstored_at; [|exact Hi]. by eapply q_available. }
  pose proof (q_available _ _ _ _ H1) as Hq. apply available_tr in H1.
  apply lookup_app_Some in Hi as [Hi|[Hge Hi]]; [exfalso; by eapply unstored_at|].
  apply tr_bind in H as [(p' & H & _)|(l3 & l4 & t & -> & H2 & H)].
  { exfalso. eapply unstored_at; [|exact Hi]. eapply q_do; [|exact H]. done. }
  apply tr_do_ret in H2 as [-> _]. cbn [act_of] in *.
  apply tr_bind in H as [(p' & H & _)|(l5 & l6 & [] & -> & H2 & H)].
  - apply tr_inv in H as [[-> _]|(n' & [] & l' & _ & -> & _ & H)].
    + destruct (i - length l1)%nat as [|[|k]]; done.
    + apply tr_inv in H as [-> _]. destruct (i - length l1)%nat as [|[|k]] eqn:Ei; cbn in Hi; try done.
      injection Hi as <- <-. split; [done|]. split; [done|]. exists l1, t.
      rewrite take_app_ge by lia. rewrite Ei. done.
  - apply tr_do_ret in H2 as [-> _]. apply tr_inv in H as [-> _].
    destruct (i - length l1)%nat as [|[|k]] eqn:Ei; cbn in Hi; try done.
    injection Hi as <- <-. split; [done|]. split; [done|]. exists l1, t.
    rewrite take_app_ge by lia. rewrite Ei. done.
Qed.
Lemma is_authorized_kept id tok : kept (is_authorized L C id tok).
Proof.
  intros n l q H. unfold is_authorized in H.
  apply tr_bind in H as [(p' & H & _)|(l1 & l2 & o & -> & H1 & H)].
  { eapply quiet_kept; [|exact H]. by apply q_do. }
  apply tr_do_ret in H1 as [-> _]. cbn [act_of].
  assert (Hf : forall l0 l3 retry m, tr m (fetch L C id tok retry) l3 q -> Forall unstored l0 -> calls l0 = [] ->
     (retry = 0 \/ exists e0, o = Some e0 /\ retry = en_retry e0 + 1) ->
     each memo ([ACacheLoad tok o] ++ l0 ++ l3)).
  { intros l0 l3 retry m Hft Hq Hc Hr i x Hi. destruct x; try done.
    apply lookup_app_Some in Hi as [Hi|[Hge Hi]]; [by apply list_lookup_singleton_Some in Hi as [_ ?]|].
    apply lookup_app_Some in Hi as [Hi|[Hge' Hi]]; [exfalso; by eapply unstored_at|].
    destruct (fetch_stores _ _ _ _ _ _ Hft _ _ _ Hi) as (-> & Er & lb & ts & Et & Ee & Ha). cbn [length] in *.
    exists [], o, (l0 ++ lb), ts. split.
    - rewrite take_app_ge by (cbn; lia). rewrite take_app_ge by (cbn; lia). cbn [length app]. rewrite Et. by rewrite app_assoc.
    - split; [done|]. rewrite calls_app, Hc. split; [done|]. by rewrite Er. }
  destruct o as [e|].
  - apply tr_bind in H as [(p' & H & _)|(l3 & l4 & t & -> & H1 & H)].
    { apply memo_app; [by apply each_unstored; repeat constructor|]. eapply quiet_kept; [|exact H]. by apply q_do. }
    apply tr_do_ret in H1 as [-> _]. cbn [act_of].
    assert (Hu : Forall unstored [ANow t]) by repeat constructor.
    assert (Hfin : each memo ([ACacheLoad tok (Some e)] ++ [ANow t] ++ [])) by (apply each_unstored; repeat constructor).
    destruct (bool_decide (t < _)).
    + destruct (contained _ _). { by apply tr_inv in H as [-> _]. }
      destruct (bool_decide _). { by apply tr_inv in H as [-> _]. }
      eapply Hf; [exact H|done|done|]. right. eauto.
    + eapply Hf; [exact H|done|done|]. by left.
  - apply (Hf [] _ 0 n); [done|constructor|done|by left].
Qed.
Lemma kept_bind {A B} (p : prog L A) (f : A -> prog L B) : kept p -> (forall a, kept (f a)) -> kept (bind p f).
Proof. apply holds_bind, memo_app. Qed.
Lemma kept_ret {A} (a : A) : kept (@Ret L A a).
Proof. apply quiet_kept, q_ret. Qed.
Hint Resolve kept_ret : core.
Lemma authorize_ids_kept tok ids : kept (authorize_ids L C ids tok).
Proof.
  induction ids as [|id ids IH]; cbn; [done|]. apply kept_bind; [apply is_authorized_kept|intros a].
  by apply kept_bind.
Qed.
Lemma expand_kept c : forall ids sets, kept (expand L C ids sets c).
Proof.
  induction ids as [|id ids IH]; intros sets; cbn; [done|]. destruct (us_admin c); [apply IH|].
  apply kept_bind; [apply authorize_ids_kept|intros a]. destruct a; [done|apply IH].
Qed.
Lemma serve_kept r : kept (serve L C r).
Proof.
  unfold serve. destruct (bool_decide _); [|done]. destruct (read_id _) as [id|].
  { unfold read_handler. destruct (bool_decide _); [done|]. apply kept_bind; [apply quiet_kept, q_uaa_read|].
    intros [u|]; [|done]. destruct (us_admin u); [done|]. apply kept_bind; [apply is_authorized_kept|done]. }
  destruct (bool_decide _ || _).
  { unfold query_handler. destruct (bool_decide _); [done|]. destruct (promql_parse L _); [|done].
    apply kept_bind; [by apply quiet_kept, q_do|]. intros [|i ids]; [done|].
    apply kept_bind; [apply quiet_kept, q_uaa_read|]. intros [u|]; [|done].
    apply kept_bind; [apply quiet_kept, q_related|]. intros sets. apply kept_bind; [apply expand_kept|]. by intros [?|]. }
  destruct (bool_decide _); [|by destruct (bool_decide _)].
  unfold meta_handler. destruct (bool_decide _); [done|]. apply kept_bind; [apply quiet_kept, q_uaa_read|]. intros [u|]; [|done].
  apply kept_bind; [by apply quiet_kept, q_do|]. intros [m|]; [|done]. destruct (us_admin u); [done|].
  apply kept_bind; [apply quiet_kept, q_available|done].
Qed.
Lemma start_kept kd : kept (start L C kd).
Proof.
  destruct kd; cbn [start]; (apply kept_bind; [|by intros ?]).
  - apply serve_kept.
  - apply is_authorized_kept.
  - apply quiet_kept, q_uaa_read.
  - apply quiet_kept, q_refresh.
  - apply quiet_kept, q_prune.
Qed.
Lemma own_memo s i a x b : inv (L := L) (C := C) s -> own i (s_log s) = a ++ x :: b -> memo a x.
Proof.
  intros Hinv E. assert (Hx : (i, x) ∈ s_log s). { apply own_elem. rewrite E. apply elem_of_app. right. left. }
  destruct (inv_fresh s Hinv _ _ Hx) as [[kd p] Hi]. destruct (inv_threads s Hinv _ _ _ Hi) as [n Ht].
  apply start_kept in Ht. rewrite E in Ht. by eapply each_mid.
Qed.

(** ** Counting listings *)
Lemma times_listed_app h1 h2 tok : times_listed L C (h1 ++ h2) tok = (times_listed L C h1 tok + times_listed L C h2 tok)%nat.
Proof. unfold times_listed. by rewrite filter_app, app_length. Qed.
Lemma times_listed_in h i u tok r : url_parse L (append (cf_capi C) "/v3/apps") = Some u -> (i, ACapi u tok r) ∈ h ->
  (1 <= times_listed L C h tok)%nat.
Proof.
  intros Hu Hin. unfold times_listed.
  assert (H : (i, ACapi u tok r) ∈ filter (fun x => first_page L C tok x) h).
  { apply elem_of_list_filter. split; [|done]. unfold first_page. cbn [snd]. rewrite Hu, !bool_decide_true by done. done. }
  destruct (filter _ h); [by apply elem_of_nil in H|cbn; lia].
Qed.
Lemma answer_first tok cs ids u : url_parse L (append (cf_capi C) "/v3/apps") = Some u -> answer tok cs ids ->
  exists r, (u, tok, r) ∈ cs.
Proof.
  intros Hu [(u' & v & c1 & c2 & rs1 & rs2 & Hu' & _ & -> & Hp & _)|[Hf _]].
  - rewrite Hu in Hu'. injection Hu' as <-. destruct Hp; eexists; left.
  - unfold list_fails in Hf. rewrite Hu in Hf. destruct Hf as [Hf|(c1 & c2 & rs & -> & Hp & _)].
    + destruct Hf; eexists; left.
    + destruct Hp; eexists; left.
Qed.
(** an entry stored after n refreshes: the list was asked for n + 1 times before *)
Lemma stored_times s u : inv (L := L) (C := C) s -> url_parse L (append (cf_capi C) "/v3/apps") = Some u ->
  forall n h1 j tok e h2, (length h1 <= n)%nat -> s_log s = h1 ++ (j, ACacheStore tok e) :: h2 ->
    en_retry e + 1 <= Z.of_nat (times_listed L C h1 tok).
Proof.
  intros Hinv Hu. induction n as [n IH] using lt_wf_ind. intros h1 j tok e h2 Hn E.
  assert (Ej : own j (s_log s) = own j h1 ++ ACacheStore tok e :: own j h2).
  { rewrite E, own_app. f_equal. change ((j, ACacheStore tok e) :: h2) with ([(j, ACacheStore tok e)] ++ h2).
    by rewrite own_app, own_one_eq. }
  destruct (own_memo s j _ _ _ Hinv Ej) as (la & o & lb & ts & El & _ & Ha & Hr).
  apply own_split in El as (ha & hb & -> & _ & Eb).
  destruct (answer_first _ _ _ _ Hu Ha) as [r Hin]. apply calls_elem in Hin.
  assert (Hreq : (j, ACapi u tok r) ∈ hb). { apply own_elem. rewrite Eb. apply elem_of_app. by left. }
  rewrite times_listed_app. change ((j, ACacheLoad tok o) :: hb) with ([(j, ACacheLoad tok o)] ++ hb).
  rewrite times_listed_app. pose proof (times_listed_in _ _ _ _ _ Hu Hreq) as H1.
  destruct Hr as [->|(e0 & -> & ->)]; [lia|].
  assert (Hl : stored_entry ha tok e0).
  { pose proof (inv_loads s Hinv) as Hlo. rewrite E, <- app_assoc in Hlo. apply each_mid in Hlo. exact Hlo. }
  destruct Hl as [j0 Hj0]. apply elem_of_list_split in Hj0 as (hc & hd & Ec).
  assert (H0 : en_retry e0 + 1 <= Z.of_nat (times_listed L C hc tok)).
  { eapply (IH (length hc)); [|done|].
    - rewrite Ec in Hn. clear -Hn. repeat (rewrite app_length in Hn; cbn [length] in Hn). lia.
    - rewrite E, Ec, <- !app_assoc. cbn. reflexivity. }
  rewrite Ec, times_listed_app. lia.
Qed.

(** ** Refusals *)
Definition refuse_local l (tok id : string) : Prop :=
  (exists la e lb t, l = la ++ ACacheLoad tok (Some e) :: lb /\ ANow t ∈ lb /\ t < en_expires e /\ 3 <= en_retry e /\ id ∉ en_ids e) \/
  (exists la ts lb before cs ids, l = la ++ ANow ts :: lb /\ calls la = before ++ cs /\ answer tok cs ids /\ id ∉ ids).
Lemma refuse_local_app l1 l2 l3 tok id : refuse_local l2 tok id -> refuse_local (l1 ++ l2 ++ l3) tok id.
Proof.
  intros [(la & e & lb & t & -> & Ht & ? & ?)|(la & ts & lb & before & cs & ids & -> & Hc & ? & ?)].
  - left. exists (l1 ++ la), e, (lb ++ l3), t. rewrite <- !app_assoc. split; [done|]. split; [apply elem_of_app; by left|done].
  - right. exists (l1 ++ la), ts, (lb ++ l3), (calls l1 ++ before), cs, ids. rewrite <- !app_assoc. split; [done|].
    split; [by rewrite calls_app, Hc|done].
Qed.
Lemma fetch_refuses n id tok retry l : tr n (fetch L C id tok retry) l (Ret false) -> refuse_local l tok id.
Proof.
  unfold fetch. intros H. apply tr_bind_ret in H as (l1 & l2 & ids & -> & H1 & H).
  apply tr_bind_ret in H as (l3 & l4 & t & -> & H2 & H). apply tr_do_ret in H2 as [-> _].
  apply tr_bind_ret in H as (l5 & l6 & [] & -> & H2 & H). apply tr_ret in H as [-> E].
  unfold contained in E. symmetry in E. apply bool_decide_eq_false in E.
  apply available_tr in H1. right. exists l1, t, (l5 ++ []), [], (calls l1), ids. done.
Qed.
Lemma is_authorized_refuses n id tok l : tr n (is_authorized L C id tok) l (Ret false) -> refuse_local l tok id.
Proof.
  unfold is_authorized. intros H. apply tr_bind_ret in H as (l1 & l2 & o & -> & H1 & H).
  apply tr_do_ret in H1 as [-> _]. destruct o as [e|].
  2:{ apply fetch_refuses in H. rewrite <- (app_nil_r l2). by apply refuse_local_app. }
  apply tr_bind_ret in H as (l3 & l4 & t & -> & H2 & H). apply tr_do_ret in H2 as [-> _].
  assert (Hf : forall r, tr n (fetch L C id tok r) l4 (Ret false) ->
     refuse_local ([act_of (CacheLoad tok) (Some e)] ++ [act_of Now t] ++ l4) tok id).
  { intros r Hr. apply fetch_refuses in Hr. rewrite app_assoc, <- (app_nil_r l4). by apply refuse_local_app. }
  destruct (bool_decide_reflect (t < en_expires e)); [|by eapply Hf].
  destruct (contained _ _) eqn:Ec; [by apply tr_ret in H as [_ ?]|].
  destruct (bool_decide_reflect (3 <= en_retry e)); [|by eapply Hf].
  apply tr_ret in H as [-> _]. left. exists [], e, [ANow t], t. split; [done|]. split; [by apply elem_of_list_singleton|].
  split; [done|]. split; [done|]. unfold contained in Ec. by apply bool_decide_eq_false in Ec.
Qed.
Lemma local_refused s i tok id : inv (L := L) (C := C) s -> refuse_local (own i (s_log s)) tok id -> refused L C (s_log s) i tok id.
Proof.
  intros Hinv [(la & e & lb & t & Eo & Ht & Hlt & Hre & Hid)|(la & ts & lb & before & cs & ids & Eo & Ec & Hl & Hid)].
  - apply own_split in Eo as (h1 & h2 & E & _ & Elb).
    pose proof (inv_loads s Hinv) as Hlo. rewrite E in Hlo. apply each_mid in Hlo. destruct Hlo as [j Hj].
    apply elem_of_list_split in Hj as (ha & hb & Eh1).
    assert (Es : s_log s = ha ++ (j, ACacheStore tok e) :: hb ++ (i, ACacheLoad tok (Some e)) :: h2).
    { by rewrite E, Eh1, <- app_assoc. }
    assert (Ej : own j (s_log s) = own j ha ++ ACacheStore tok e :: own j (hb ++ (i, ACacheLoad tok (Some e)) :: h2)).
    { rewrite Es, own_app. f_equal.
      change ((j, ACacheStore tok e) :: hb ++ (i, ACacheLoad tok (Some e)) :: h2)
        with ([(j, ACacheStore tok e)] ++ (hb ++ (i, ACacheLoad tok (Some e)) :: h2)).
      by rewrite own_app, own_one_eq. }
    destruct (own_memo s j _ _ _ Hinv Ej) as (lc & o & ld & ts & El & Ex & Ha & _).
    change (lc ++ ACacheLoad tok o :: ld ++ [ANow ts]) with (lc ++ (ACacheLoad tok o :: ld) ++ [ANow ts]) in El.
    rewrite app_assoc in El. apply own_split in El as (hc & hd & Eha & El0 & _).
    exists j, hc, ts, (hd ++ (j, ACacheStore tok e) :: hb ++ (i, ACacheLoad tok (Some e)) :: h2), (calls lc), (calls ld), (en_ids e).
    split. { rewrite Es, Eha. by rewrite <- !app_assoc. }
    split. { rewrite El0, calls_app. f_equal. }
    split; [done|]. split; [done|]. right. split.
    + exists t. split; [|lia]. assert (Hin : (i, ANow t) ∈ h2). { apply own_elem. by rewrite Elb. }
      rewrite !elem_of_app, elem_of_cons, elem_of_app, elem_of_cons. auto 10.
    + intros Hu. destruct (url_parse L _) as [u|] eqn:Eu; [|done].
      pose proof (stored_times s u Hinv Eu _ _ _ _ _ _ (le_n _) Es) as Hst. rewrite Es, times_listed_app. lia.
  - apply own_split in Eo as (h1 & h2 & E & Ea & _).
    exists i, h1, ts, h2, before, cs, ids. split; [done|]. split; [by rewrite Ea|]. split; [done|]. split; [done|]. by left.
Qed.

(** ** Tokens that are not accepted *)
Definition doubt_local l (auth : string) : Prop :=
  exists token, carries auth token /\
    (jose_headers L token = None \/
     (exists alg kid, jose_headers L token = Some (alg, kid) /\ alg <> HString "RS256") \/
     exists kid, jose_headers L token = Some (HString "RS256", HString kid) /\
       (AKeyLoad kid None ∈ l \/
        exists k, AKeyLoad kid (Some k) ∈ l /\
          (jose_verify L token k = None \/
           exists payload, jose_verify L token k = Some payload /\
             (json_claims L payload = None \/
              exists c t, json_claims L payload = Some c /\ ANow t ∈ l /\ cl_exp c * 1000000000 < t)))).
Lemma load_or_fetch_none n kid l : tr n (load_or_fetch L C kid) l (Ret None) -> AKeyLoad kid None ∈ l.
Proof.
  unfold load_or_fetch. intros H. apply tr_bind_ret in H as (l1 & l2 & o & -> & H1 & H).
  destruct o as [k|]; [by apply tr_ret in H as [_ ?]|]. apply tr_do_ret in H1 as [-> _]. by left.
Qed.
Lemma uaa_read_none n auth l : auth <> "" -> tr n (uaa_read L C auth) l (Ret None) -> doubt_local l auth.
Proof.
  unfold uaa_read. intros Hne H. rewrite bool_decide_false in H by done. exists (trim_bearer auth). split; [apply trim_bearer_spec|].
  destruct (jose_headers L _) as [[[|alg|] kid]|] eqn:Eh.
  - by apply tr_inv in H as [_ ?].
  - destruct (bool_decide_reflect (alg = "RS256")) as [->|Ha].
    + right; right. destruct kid as [|kid|]; [by apply tr_inv in H as [_ ?]| |by apply tr_inv in H as [_ ?]].
      exists kid. split; [done|]. apply tr_bind_ret in H as (l1 & l2 & o & -> & H1 & H). destruct o as [k|].
      2:{ left. apply load_or_fetch_none in H1. apply elem_of_app. by left. }
      right. exists k. apply load_or_fetch_tr in H1. split; [apply elem_of_app; by left|].
      destruct (jose_verify L _ k) as [payload|]; [|by left]. right. exists payload. split; [done|].
      unfold accept in H. destruct (json_claims L payload) as [c|]; [|by left]. right.
      apply tr_bind_ret in H as (l3 & l4 & t & -> & H2 & H). apply tr_do_ret in H2 as [-> _].
      destruct (bool_decide_reflect (cl_exp c * 1000000000 < t)); [|by apply tr_ret in H as [_ ?]].
      exists c, t. split; [done|]. split; [|done]. rewrite !elem_of_app. right. left. left.
    + right; left. exists (HString alg), kid. split; [done|]. by intros [= ?].
  - by apply tr_inv in H as [_ ?].
  - by left.
Qed.
Lemma doubt_app l1 l2 l3 auth : doubt_local l2 auth -> doubt_local (l1 ++ l2 ++ l3) auth.
Proof.
  intros (token & ? & H). exists token. split; [done|].
  destruct H as [?|[?|(kid & ? & H)]]; [by left|by right; left|]. right; right. exists kid. split; [done|].
  destruct H as [H|(k & Hk & H)]; [left; rewrite !elem_of_app; auto|]. right. exists k. split; [rewrite !elem_of_app; auto|].
  destruct H as [?|(payload & ? & H)]; [by left|]. right. exists payload. split; [done|].
  destruct H as [?|(c & t & ? & Ht & ?)]; [by left|]. right. exists c, t. split; [done|]. split; [rewrite !elem_of_app; auto|done].
Qed.
Lemma local_doubted s i auth : inv (L := L) (C := C) s -> doubt_local (own i (s_log s)) auth -> doubted L (s_log s) i auth.
Proof.
  intros Hinv (token & ? & H). exists token. split; [done|].
  destruct H as [?|[?|(kid & ? & H)]]; [by left|by right; left|]. right; right. exists kid. split; [done|].
  destruct H as [H|(k & Hk & H)]; [left; by apply own_elem|]. right. exists k.
  split; [eapply (key_published (C := C)); [done|]; by apply own_elem in Hk|].
  destruct H as [?|(payload & ? & H)]; [by left|]. right. exists payload. split; [done|].
  destruct H as [?|(c & t & ? & Ht & ?)]; [by left|]. right. exists c, t. split; [done|]. split; [by apply own_elem|done].
Qed.

Lemma authorize_no clock i id tok s : finishes L C clock i (KAuthorize id tok) (RBool false) s ->
  refused L C (s_log s) i tok id.
Proof.
  intros H. apply finishes_inv in H as [Hinv [n H]]. cbn [start] in H.
  apply tr_bind_ret in H as (l1 & l2 & b & E & H1 & H). apply tr_ret in H as [-> [= <-]]. rewrite app_nil_r in E. subst l1.
  apply local_refused; [done|]. by eapply is_authorized_refuses.
Qed.
Lemma read_no clock i r s id : rq_path r = append "/api/v1/read/" id -> has_char newline id = false ->
  finishes L C clock i (KServe r) (RHttp (Status 404)) s ->
  rq_auth r = "" \/ doubted L (s_log s) i (rq_auth r) \/
  exists c, vouched L (s_log s) i (rq_auth r) c /\ ~ admin c /\ refused L C (s_log s) i (rq_auth r) id.
Proof.
  intros Hp Hn H. apply finishes_inv in H as [Hinv [n H]]. apply serve_tr, serve_not_redirect in H; [|done].
  rewrite (proj2 (read_id_spec _ _) (conj Hp Hn)) in H. unfold read_handler in H.
  destruct (bool_decide_reflect (rq_auth r = "")) as [?|Hne]; [by left|right].
  apply tr_bind_ret in H as (l1 & l2 & o & E & H1 & H). destruct o as [u|].
  2:{ left. apply local_doubted; [done|]. rewrite E. apply (doubt_app []). by eapply uaa_read_none. }
  right. apply uaa_read_tr in H1 as (_ & Et & c & Hg & _ & Ha). exists c.
  split. { apply (good_vouched (C := C)); [done|]. rewrite E. by apply (good_token_app []). }
  destruct (us_admin u) eqn:Eu; [by apply tr_ret in H as [_ ?]|]. split; [intros Hc; apply Ha in Hc; congruence|].
  apply tr_bind_ret in H as (l3 & l4 & ok & -> & H1 & H). apply tr_ret in H as [-> H]. destruct ok; [done|].
  apply local_refused; [done|]. rewrite E, Et in *. apply refuse_local_app. by eapply is_authorized_refuses.
Qed.

(** ** Queries *)
Definition named (rs : list resource) (k : string) : list string := rs_guid <$> filter (fun r => rs_name r = k) rs.
Lemma fold_named rs k : default [] (foldl add_guid ∅ rs !! k) = named rs k.
Proof.
  assert (H : forall m, default [] (foldl add_guid m rs !! k) = default [] (m !! k) ++ named rs k).
  { unfold named. induction rs as [|r rs IH]; intros m; cbn [foldl]; [by rewrite app_nil_r|]. rewrite IH. unfold add_guid.
    rewrite filter_cons. destruct (decide (rs_name r = k)) as [<-|Hn].
    - rewrite lookup_insert. cbn. by rewrite <- app_assoc.
    - by rewrite lookup_insert_ne. }
  rewrite H. by rewrite lookup_empty.
Qed.
Lemma related_apps n names tok l sets : names <> [] -> tr n (related L C names tok) l (Ret sets) ->
  exists rs, apps_named L C tok names (calls l) rs /\ (forall k, default [] (sets !! k) = named rs k) /\
    (forall k ids, sets !! k = Some ids -> ids <> []).
Proof.
  intros Hne H. unfold related in H. unfold apps_named. destruct names as [|nm names]; [done|]. set (ns := nm :: names) in *.
  assert (H0 : forall k, default [] ((∅ : gmap string (list string)) !! k) = named [] k) by (intros k; by rewrite lookup_empty).
  assert (H1 : forall k ids, (∅ : gmap string (list string)) !! k = Some ids -> ids <> []) by (intros k ids E; by rewrite lookup_empty in E).
  destruct (url_parse L _) as [u|].
  2:{ apply tr_ret in H as [-> ->]. by exists []. }
  apply tr_bind_ret in H as (l1 & l2 & o & -> & H2 & H). apply paginated_tr in H2 as [_ Hr]. specialize (Hr _ eq_refl).
  assert (Hq : parse_query (names_query (u_query u) ns) !! "names" = Some [join "," ns]).
  { unfold names_query. rewrite UrlProofs.parse_encode.
    - unfold vset. rewrite lookup_insert_ne by done. by rewrite lookup_insert.
    - by apply UrlProofs.vset_nonempty, UrlProofs.vset_nonempty, UrlProofs.parse_query_nonempty. }
  destruct o as [rs|].
  - apply tr_ret in H as [-> ->]. destruct Hr as (rs' & -> & Hp). cbn [app]. exists rs'. rewrite app_nil_r. split.
    + exists (names_query (u_query u) ns). split; [done|]. by left.
    + split; [intros k; apply fold_named|]. intros k ids E. by apply fold_guids in E as [? _].
  - apply tr_ret in H as [-> ->]. exists []. rewrite app_nil_r. split; [|done].
    exists (names_query (u_query u) ns). split; [done|]. by right.
Qed.
Lemma authorize_ids_all n tok : forall ids l out, tr n (authorize_ids L C ids tok) l (Ret out) ->
  (forall x, x ∈ out -> x ∈ ids) /\ forall x, x ∈ ids -> x ∈ out \/ refuse_local l tok x.
Proof.
  induction ids as [|id ids IH]; intros l out H; cbn in H.
  - apply tr_ret in H as [-> ->]. split; [done|]. intros x Hx. by apply elem_of_nil in Hx.
  - apply tr_bind_ret in H as (l1 & l2 & ok & -> & H1 & H).
    apply tr_bind_ret in H as (l3 & l4 & rest & -> & H2 & H). apply tr_ret in H as [-> ->].
    destruct (IH _ _ H2) as [Hs Hc].
    assert (Hc' : forall x, x ∈ ids -> x ∈ rest \/ refuse_local (l1 ++ l3 ++ []) tok x).
    { intros x Hx. destruct (Hc x Hx) as [?|?]; [by left|]. right. by apply refuse_local_app. }
    destruct ok; split.
    + intros x Hx. apply elem_of_cons in Hx as [->|Hx]; [left|right; auto].
    + intros x Hx. apply elem_of_cons in Hx as [->|Hx]; [left; left|]. destruct (Hc' x Hx); [left; by right|by right].
    + intros x Hx. right. auto.
    + intros x Hx. apply elem_of_cons in Hx as [->|Hx]; [|auto]. right. apply (refuse_local_app []). by eapply is_authorized_refuses.
Qed.
Lemma expand_all n c : forall ids l sets sets', NoDup ids -> tr n (expand L C ids sets c) l (Ret (Some sets')) ->
  (forall k, k ∉ ids -> sets' !! k = sets !! k) /\
  (forall k, k ∈ ids -> exists out, sets' !! k = Some out /\ out <> [] /\
     (forall x, x ∈ out -> x ∈ default [] (sets !! k) \/ x = k) /\
     (forall x, x ∈ default [] (sets !! k) \/ x = k -> x ∈ out \/ (us_admin c = false /\ refuse_local l (us_token c) x))).
Proof.
  induction ids as [|id ids IH]; intros l sets sets' Hd H; cbn in H.
  - apply tr_ret in H as [-> [= ->]]. split; [done|]. intros k Hk. by apply elem_of_nil in Hk.
  - apply NoDup_cons in Hd as [Hni Hd].
    assert (Hall : forall x, x ∈ default [] (sets !! id) ++ [id] <-> x ∈ default [] (sets !! id) \/ x = id).
    { intros x. by rewrite elem_of_app, elem_of_list_singleton. }
    assert (Hrest : forall m l1 l2 out, tr m (expand L C ids (<[id:=out]> sets) c) l2 (Ret (Some sets')) -> m = n -> out <> [] ->
       (forall x, x ∈ out -> x ∈ default [] (sets !! id) \/ x = id) ->
       (forall x, x ∈ default [] (sets !! id) \/ x = id -> x ∈ out \/ (us_admin c = false /\ refuse_local l1 (us_token c) x)) ->
       (forall k, k ∉ id :: ids -> sets' !! k = sets !! k) /\
       (forall k, k ∈ id :: ids -> exists out, sets' !! k = Some out /\ out <> [] /\
         (forall x, x ∈ out -> x ∈ default [] (sets !! k) \/ x = k) /\
         (forall x, x ∈ default [] (sets !! k) \/ x = k -> x ∈ out \/ (us_admin c = false /\ refuse_local (l1 ++ l2) (us_token c) x)))).
    { intros m l1 l2 out Ht -> Hne Ha Hb. apply IH in Ht as [Hn Hi]; [|done]. split.
      - intros k Hk. rewrite not_elem_of_cons in Hk. destruct Hk. rewrite Hn by done. by rewrite lookup_insert_ne.
      - intros k Hk. apply elem_of_cons in Hk as [->|Hk].
        + exists out. rewrite Hn by done. rewrite lookup_insert. split; [done|]. split; [done|]. split; [done|].
          intros x Hx. destruct (Hb x Hx) as [?|[? ?]]; [by left|]. right. split; [done|]. by apply (refuse_local_app []).
        + assert (k <> id) by (by intros ->). destruct (Hi k Hk) as (o & Ho & Hone & H1 & H2).
          rewrite lookup_insert_ne in H1, H2 by done. exists o. split; [done|]. split; [done|]. split; [done|].
          intros x Hx. destruct (H2 x Hx) as [?|[? ?]]; [by left|]. right. split; [done|].
          rewrite <- (app_nil_r l2). by apply refuse_local_app. }
    destruct (us_admin c) eqn:Eu.
    + change l with ([] ++ l). eapply Hrest; [exact H|done|by destruct (default _ _)| |].
      * intros x. apply Hall.
      * intros x Hx. left. by apply Hall.
    + apply tr_bind_ret in H as (l1 & l2 & out & -> & H1 & H). apply authorize_ids_all in H1 as [Hs Hc].
      destruct out as [|y out]; [by apply tr_ret in H as [_ ?]|]. eapply Hrest; [exact H|done|done| |].
      * intros x Hx. by apply Hall, Hs.
      * intros x Hx. apply Hall, Hc in Hx as [?|?]; auto.
Qed.
Lemma query_handler_all n r l p q : tr n (query_handler L C r) l (Ret (Forward p q)) ->
  exists e sets c ids l1 l2 l3 rs,
    promql_parse L (vget "query" (parse_query (rq_query r))) = Some e /\
    q = encode_query (vset "query" (promql_print L (replace_ids sets e)) (parse_query (rq_query r))) /\
    good_token l (rq_auth r) c /\ l = l1 ++ l2 ++ l3 /\
    (forall x, x ∈ ids <-> x ∈ expr_ids e) /\ NoDup ids /\ apps_named L C (rq_auth r) ids (calls l2) rs /\
    (forall k out, sets !! k = Some out -> out <> [] /\ forall x, x ∈ out -> x ∈ named rs k \/ (x = k /\ k ∈ ids)) /\
    (forall k, k ∈ ids -> exists out, sets !! k = Some out /\
       forall x, x ∈ named rs k \/ x = k -> x ∈ out \/ (~ admin c /\ refuse_local l (rq_auth r) x)) /\
    (admin c \/ forall k out x, k ∈ ids -> sets !! k = Some out -> x ∈ out -> auth_local (C := C) l (rq_auth r) x).
Proof.
  unfold query_handler. intros H. destruct (bool_decide_reflect (rq_auth r = "")); [by apply tr_ret in H as [_ ?]|].
  destruct (promql_parse L _) as [e|] eqn:Ee; [|by apply tr_ret in H as [_ ?]].
  apply tr_bind_ret in H as (l1 & l2 & ids & -> & H1 & H). apply tr_do_ret in H1 as [-> Hids]. cbn in Hids.
  destruct ids as [|i0 ids0]; [by apply tr_ret in H as [_ ?]|].
  assert (Hne : i0 :: ids0 <> []) by done. set (ids := i0 :: ids0) in *. clearbody ids.
  apply tr_bind_ret in H as (l3 & l4 & o & -> & H1 & H).
  destruct o as [u|]; [|by apply tr_ret in H as [_ ?]].
  apply uaa_read_tr in H1 as (_ & Et & c & Hg & _ & Ha).
  apply tr_bind_ret in H as (l5 & l6 & sets0 & -> & H1 & H).
  apply related_apps in H1 as (rs & Happs & Hd & Hsne); [|done].
  apply tr_bind_ret in H as (l7 & l8 & o & -> & H2 & H).
  destruct o as [sets|]; [|by apply tr_ret in H as [_ ?]].
  apply tr_ret in H as [-> [= -> ->]].
  assert (Hmem : forall x, x ∈ ids <-> x ∈ expr_ids e).
  { intros x. rewrite Hids. unfold id_set. by rewrite elem_of_elements, elem_of_list_to_set. }
  assert (Hnd : NoDup ids). { rewrite Hids. apply NoDup_elements. }
  pose proof H2 as H3. eapply expand_all in H3 as [Hn Hi]; [|done].
  exists e, sets, c, ids, (act_of (Order (id_set (expr_ids e))) ids :: l3), l5, (l7 ++ []), rs.
  split; [done|]. split; [done|]. split; [by apply good_token_app|]. split; [done|]. split; [done|]. split; [done|]. split; [done|].
  split; [|split].
  - intros k out E. destruct (decide (k ∈ ids)) as [Hk|Hk].
    + destruct (Hi k Hk) as (out' & E' & ? & Hx & _). rewrite E in E'. injection E' as <-. split; [done|]. intros x Hxo.
      rewrite <- Hd. destruct (Hx x Hxo); auto.
    + rewrite Hn in E by done. split; [by eapply Hsne|]. intros x Hxo. left. rewrite <- Hd, E. done.
  - intros k Hk. destruct (Hi k Hk) as (out & Eo & ? & _ & Hx). exists out. split; [done|]. intros x Hxk.
    rewrite <- Hd in Hxk. destruct (Hx x Hxk) as [?|[Hu Hr]]; [by left|]. right. split.
    + intros Hc. apply Ha in Hc. congruence.
    + rewrite (app_assoc l3), app_assoc. apply refuse_local_app. by rewrite <- Et.
  - destruct (us_admin u) eqn:Eu; [left; by apply Ha|right].
    eapply expand_tr in H2 as [_ Hi']; [|done]. intros k out x Hk Eo Hx.
    destruct (Hi' k Hk) as (out' & Eo' & _ & Hal). rewrite Eo in Eo'. injection Eo' as <-.
    rewrite (app_assoc l3), app_assoc. apply auth_local_app. rewrite <- Et. auto.
Qed.
Lemma rewritten_replace (R : list matcher -> list matcher -> Prop) sets e :
  (forall ms, selector_of e ms -> R ms (replace_matcher sets <$> ms)) -> rewritten R e (replace_ids sets e).
Proof.
  induction e as [b i ms|i cs IH] using expr_ind'; intros H; cbn [replace_ids]; constructor.
  - apply H. constructor.
  - rewrite Forall_forall in IH. clear -IH H. 
    assert (H' : forall c ms, c ∈ cs -> selector_of c ms -> R ms (replace_matcher sets <$> ms)).
    { intros c ms Hc Hs. apply H. by econstructor. }
    clear H. induction cs as [|c cs IHc]; cbn; constructor.
    + apply IH; [left|]. intros ms. apply H'. left.
    + apply IHc; [intros; apply IH; [by right|done]|]. intros c' ms Hc. apply H'. by right.
Qed.
Lemma replace_others sets (ms : list matcher) :
  filter (fun m => lm_name m <> "source_id") (replace_matcher sets <$> ms) = filter (fun m => lm_name m <> "source_id") ms.
Proof.
  induction ms as [|m ms IH]; [done|]. cbn [fmap list_fmap]. rewrite !filter_cons, IH.
  destruct (decide (lm_name m <> "source_id")) as [Hn|Hn].
  - unfold replace_matcher. rewrite bool_decide_false by done. by rewrite decide_True.
  - rewrite decide_False; [done|]. by rewrite replace_matcher_name.
Qed.
Lemma query_expanded clock i r p q s e' :
  (forall text e sets e', promql_parse L text = Some e -> promql_parse L (promql_print L (replace_ids sets e)) = Some e' ->
     e' = replace_ids sets e) ->
  plain_guids (s_log s) ->
  rq_path r ∈ ["/api/v1/query"; "/api/v1/query_range"] ->
  finishes L C clock i (KServe r) (RHttp (Forward p q)) s ->
  promql_parse L (vget "query" (parse_query q)) = Some e' ->
  exists e names before cs after rs c,
    promql_parse L (vget "query" (parse_query (rq_query r))) = Some e /\
    vouched L (s_log s) i (rq_auth r) c /\
    (forall n, n ∈ names <-> exists ms, selector_of e ms /\ asks ms n) /\
    calls (own i (s_log s)) = before ++ cs ++ after /\ apps_named L C (rq_auth r) names cs rs /\
    ((forall n, n ∈ names -> has_char "|" n = false) ->
     rewritten (fun ms ms' =>
       filter (fun m => lm_name m <> "source_id") ms' = filter (fun m => lm_name m <> "source_id") ms /\
       (forall x, asks ms' x -> exists n, asks ms n /\ (x = n \/ Resource x n ∈ rs)) /\
       (forall n x, asks ms n -> x = n \/ Resource x n ∈ rs ->
          asks ms' x \/ (~ admin c /\ refused L C (s_log s) i (rq_auth r) x))) e e').
Proof.
  intros Hrt Hpl Hpath H He'. apply finishes_inv in H as [Hinv [m H]]. apply serve_tr, serve_not_redirect in H; [|done].
  replace (read_id (rq_path r)) with (@None string) in H.
  2:{ rewrite !elem_of_cons, elem_of_nil in Hpath. destruct Hpath as [->|[->|[]]]; done. }
  replace (bool_decide (rq_path r = "/api/v1/query") || bool_decide (rq_path r = "/api/v1/query_range")) with true in H.
  2:{ rewrite !elem_of_cons, elem_of_nil in Hpath. destruct Hpath as [->|[->|[]]]; done. }
  apply query_handler_all in H as (e & sets & c & ids & l1 & l2 & l3 & rs & He & -> & Hg & El & Hids & Hnd & Happs & Hsets & Hin & Hauth).
  rewrite UrlProofs.parse_encode in He' by (apply UrlProofs.vset_nonempty, UrlProofs.parse_query_nonempty).
  unfold vget, vset in He'. rewrite lookup_insert in He'. apply (Hrt _ _ _ _ He) in He' as ->.
  exists e, ids, (calls l1), (calls l2), (calls l3), rs, c. split; [done|]. split; [by apply (good_vouched (C := C))|].
  split; [intros n; rewrite Hids; apply expr_ids_spec|]. split; [by rewrite El, !calls_app|]. split; [done|]. intros Hbar.
  assert (Hnamed : forall x k, x ∈ named rs k <-> Resource x k ∈ rs).
  { intros x k. unfold named. rewrite elem_of_list_fmap. split.
    - intros ([g nm] & -> & Hr). apply elem_of_list_filter in Hr as [<- ?]. done.
    - intros Hr. exists (Resource x k). split; [done|]. by apply elem_of_list_filter. }
  assert (Hplain : forall x k, x ∈ named rs k -> has_char "|" x = false).
  { intros x k Hx. apply Hnamed in Hx. revert Happs. unfold apps_named. destruct (url_parse L _) as [u|].
    2:{ intros [_ ->]. by apply elem_of_nil in Hx. }
    intros (qq & _ & [Hp|[_ ->]]); [|by apply elem_of_nil in Hx].
    eapply pages_guids in Hp as (v & body & ps & href & Hc & Hj & Hgu).
    2:{ apply elem_of_list_fmap. exists (Resource x k). split; [done|exact Hx]. }
    eapply Hpl; [|exact Hj|exact Hgu]. apply own_elem, calls_elem. rewrite El, !calls_app, !elem_of_app. right. left. exact Hc. }
  apply rewritten_replace. intros ms Hs.
  assert (Hok : forall k out, sets !! k = Some out -> Forall (fun x => has_char "|" x = false) out /\ out <> []).
  { intros k out E. destruct (Hsets k out E) as [Hne Hx]. split; [|done]. apply Forall_forall. intros x Hxo.
    destruct (Hx x Hxo) as [?|[-> ?]]; [by eapply Hplain|by apply Hbar]. }
  assert (Hsome : forall x, asks ms x -> x ∈ ids).
  { intros x Hx. apply Hids, expr_ids_spec. eauto. }
  assert (Hall : forall x, asks ms x -> is_Some (sets !! x)).
  { intros x Hx. destruct (Hin x (Hsome x Hx)) as (out & -> & _). done. }
  split; [apply replace_others|]. split.
  - intros x Hx. apply replace_selector in Hx as (k & out & Hk & Ek & Hxo); [|done|done]. exists k. split; [done|].
    destruct (Hsets k out Ek) as [_ Hx]. destruct (Hx x Hxo) as [Hn|[-> _]]; [right; by apply Hnamed|by left].
  - intros n x Hn Hx. destruct (Hin n (Hsome n Hn)) as (out & Eo & Hout).
    assert (Hx' : x ∈ named rs n \/ x = n). { destruct Hx as [->|Hx]; [by right|]. left. by apply Hnamed. }
    destruct (Hout x Hx') as [?|[? ?]].
    + left. apply replace_selector; [done|done|]. eauto.
    + right. split; [done|]. by apply local_refused.
Qed.
End Complete.
