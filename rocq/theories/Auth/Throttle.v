(** Uninterrupted runs: how often UAA is asked, and what a refresh leaves behind. *)
From Coq Require Import Ascii String.
From stdpp Require Import prelude gmap strings list.
From Verif.Base Require Import Str Url.
From Verif.Promql Require Import Model.
From Verif.Auth Require Import Model System Spec Trace.
Open Scope string_scope.
Open Scope list_scope.
Open Scope Z_scope.

Section Throttle.
Context {L : lib} {C : config}.
Implicit Types (l : list (act L)) (m : mem L).

(** ** Runs and program structure *)
Fixpoint rn {A} (n : nat) (p : prog L A) m l m' (a : A) : Prop :=
  match p with
  | Ret b => l = [] /\ m' = m /\ a = b
  | Panic => False
  | Tau q => match n with O => False | S n => rn n q m l m' a end
  | Vis e k => match n with
               | O => False
               | S n => exists x m1 l', l = act_of e x :: l' /\ sem e m x m1 /\ rn n (k x) m1 l' m' a
               end
  end.
Lemma runs_rn {A} (p : prog L A) m l m' a : runs p m l m' a -> exists n, rn n p m l m' a.
Proof.
  induction 1 as [a m|p m l m' a H [n IH]|X e k m x m1 l m' a Hs H [n IH]].
  - by exists 0%nat.
  - by exists (S n).
  - exists (S n). cbn. eauto 10.
Qed.
Lemma rn_mono {A} n : forall k (p : prog L A) m l m' a, rn n p m l m' a -> (n <= k)%nat -> rn k p m l m' a.
Proof.
  induction n as [|n IH]; intros k p m l m' a H Hk.
  - destruct k, p; cbn in *; done.
  - destruct k as [|k]; [lia|]. destruct p; cbn in *; try done.
    + apply IH; [done|lia].
    + destruct H as (x & m1 & l' & -> & Hs & H). exists x, m1, l'. split; [done|]. split; [done|]. apply IH; [done|lia].
Qed.
Lemma rn_bind {A B} n (f : A -> prog L B) : forall (p : prog L A) m l m' b, rn n (bind p f) m l m' b ->
  exists l1 l2 m1 a, l = l1 ++ l2 /\ rn n p m l1 m1 a /\ rn n (f a) m1 l2 m' b.
Proof.
  induction n as [|n IH]; intros p m l m' b H;
    (destruct p as [a| |p|X e k]; rewrite ?bind_ret, ?bind_panic, ?bind_tau, ?bind_vis in H; try (by destruct H));
    try (exists [], l, m, a; split; [done|]; split; [done|exact H]).
  - cbn in H. apply IH in H as (l1 & l2 & m1 & a & -> & H1 & H2). exists l1, l2, m1, a.
    split; [done|]. split; [done|]. eapply rn_mono; [done|lia].
  - cbn in H. destruct H as (x & m1 & l' & -> & Hs & H). apply IH in H as (l1 & l2 & m2 & a & -> & H1 & H2).
    exists (act_of e x :: l1), l2, m2, a. split; [done|]. split; [cbn; eauto 10|]. eapply rn_mono; [done|lia].
Qed.
Lemma rn_loop {S B} (body : S -> prog L (S + B)) n : forall p m l m' b, rn n (loop body p) m l m' b ->
  exists l1 l2 m1 x, l = l1 ++ l2 /\ rn n p m l1 m1 x /\
    ((x = inr b /\ l2 = [] /\ m1 = m') \/ exists s n', x = inl s /\ (n' < n)%nat /\ rn n' (loop body (body s)) m1 l2 m' b).
Proof.
  induction n as [|n IH]; intros p m l m' b H;
    (destruct p as [[s1|b1]| |p|X e k]; rewrite ?loop_inl, ?loop_inr, ?loop_panic, ?loop_tau, ?loop_vis in H; try (by destruct H)).
  - destruct H as (-> & -> & ->). exists [], [], m, (inr b1). split; [done|]. split; [done|]. by left.
  - cbn in H. exists [], l, m, (inl s1). split; [done|]. split; [done|]. right. exists s1, n. auto.
  - destruct H as (-> & -> & ->). exists [], [], m, (inr b1). split; [done|]. split; [done|]. by left.
  - cbn in H. apply IH in H as (l1 & l2 & m1 & x & -> & H1 & H2). exists l1, l2, m1, x. split; [done|]. split; [done|].
    destruct H2 as [?|(s & n' & ? & ? & ?)]; [by left|right]. exists s, n'. auto.
  - cbn in H. destruct H as (x & m1 & l' & -> & Hs & H). apply IH in H as (l1 & l2 & m2 & y & -> & H1 & H2).
    exists (act_of e x :: l1), l2, m2, y. split; [done|]. split; [cbn; eauto 10|].
    destruct H2 as [?|(s & n' & ? & ? & ?)]; [by left|right]. exists s, n'. auto.
Qed.
Lemma rn_ret {A} n (b : A) m l m' a : rn n (Ret b) m l m' a -> l = [] /\ m' = m /\ a = b.
Proof. by destruct n. Qed.
Lemma rn_do {X} n (e : eff L X) m l m' a : rn n (do e) m l m' a -> l = [act_of e a] /\ sem e m a m'.
Proof.
  destruct n as [|n]; [done|]. cbn. intros (x & m1 & l' & -> & Hs & H). apply rn_ret in H as (-> & -> & ->). done.
Qed.

(** ** A property of every finished run *)
Section Sat.
Context (Φ : mem L -> list (act L) -> mem L -> Prop).
Context (Φnil : forall m, Φ m [] m) (Φapp : forall m1 l1 m2 l2 m3, Φ m1 l1 m2 -> Φ m2 l2 m3 -> Φ m1 (l1 ++ l2) m3).
Definition sat {A} (p : prog L A) : Prop := forall n m l m' a, rn n p m l m' a -> Φ m l m'.
Lemma sat_ret {A} (a : A) : sat (Ret a).
Proof. intros n m l m' b H. by apply rn_ret in H as (-> & -> & _). Qed.
Lemma sat_panic {A} : sat (@Panic L A).
Proof. intros n m l m' b H. by destruct n. Qed.
Lemma sat_do {X} (e : eff L X) : (forall m x m', sem e m x m' -> Φ m [act_of e x] m') -> sat (do e).
Proof. intros He n m l m' x H. apply rn_do in H as [-> H]. auto. Qed.
Lemma sat_bind {A B} (p : prog L A) (f : A -> prog L B) : sat p -> (forall a, sat (f a)) -> sat (bind p f).
Proof. intros Hp Hf n m l m' b H. apply rn_bind in H as (l1 & l2 & m1 & a & -> & H1 & H2). eapply Φapp; [by eapply Hp|by eapply Hf]. Qed.
Lemma sat_forever {S B} (body : S -> prog L (S + B)) s : (forall s, sat (body s)) -> sat (forever body s).
Proof.
  intros Hb n. revert s. unfold forever. induction n as [n IH] using lt_wf_ind. intros s m l m' b H.
  apply rn_loop in H as (l1 & l2 & m1 & x & -> & H1 & [(-> & -> & ->)|(s1 & n' & -> & Hn & H2)]).
  - rewrite app_nil_r. by eapply Hb.
  - eapply Φapp; [by eapply Hb|]. by eapply IH.
Qed.
End Sat.

(** ** Throttling *)
(** UAA is asked only when the interval since the last time is over, and that time is then advanced *)
Inductive spaced : Z -> list (act L) -> Z -> Prop :=
| spaced_nil t : spaced t [] t
| spaced_skip t x l t' : (forall r, x <> AUaa r) -> spaced t l t' -> spaced t (x :: l) t'
| spaced_ask last t r l t' : last + cf_refresh C <= t -> spaced t l t' ->
    spaced last (ANow t :: ALastCas last t true :: AUaa r :: l) t'.
Lemma spaced_app t1 l1 t2 l2 t3 : spaced t1 l1 t2 -> spaced t2 l2 t3 -> spaced t1 (l1 ++ l2) t3.
Proof. induction 1; intros H'; cbn; [done|apply spaced_skip; auto|apply spaced_ask; auto]. Qed.
Notation Φ := (fun m l m' => spaced (m_last m) l (m_last m')).
Notation good := (sat Φ).
Lemma g_bind {A B} (p : prog L A) (f : A -> prog L B) : good p -> (forall a, good (f a)) -> good (bind p f).
Proof. apply sat_bind. intros *. apply spaced_app. Qed.
Lemma g_ret {A} (a : A) : good (@Ret L A a).
Proof. apply sat_ret. intros m. constructor. Qed.
Lemma g_panic {A} : good (@Panic L A).
Proof. apply sat_panic. Qed.
Definition quiet {X} (e : eff L X) : bool := match e with UaaGet => false | LastCas _ _ => false | _ => true end.
Lemma g_do {X} (e : eff L X) : quiet e = true -> good (do e).
Proof.
  intros Hq. apply sat_do. intros m x m' Hs.
  assert (E : m_last m' = m_last m) by (destruct e; cbn in Hs; try done; (lazymatch type of Hs with _ /\ _ => destruct Hs as [_ ->] | _ => subst m' end); done).
  rewrite E. apply spaced_skip; [|constructor]. by destruct e.
Qed.
Lemma g_forever {S B} (body : S -> prog L (S + B)) s : (forall s, good (body s)) -> good (forever body s).
Proof. apply sat_forever. intros *. apply spaced_app. Qed.
Hint Resolve g_ret g_panic : core.
Ltac chain := apply g_bind; [try by apply g_do|intros ?].
Lemma g_store ks : forall cur, good (store_keys L ks cur).
Proof.
  induction ks as [|[kid v] ks IH]; intros cur; cbn [store_keys]; [done|].
  destruct (bool_decide _); [done|]. destruct (rsa_key L v); [|done]. by chain.
Qed.
Lemma g_delete kids : good (delete_keys L kids).
Proof. induction kids; cbn; [done|]. by chain. Qed.
Lemma g_refresh : good (refresh L C).
Proof.
  intros n m l m' b H. unfold refresh in H.
  apply rn_bind in H as (l1 & l2 & m1 & last & -> & H1 & H). apply rn_do in H1 as [-> [-> ->]].
  apply rn_bind in H as (l3 & l4 & m1 & t & -> & H1 & H). apply rn_do in H1 as [-> [Ht ->]].
  cbn [act_of app]. do 2 (apply spaced_skip; [done|]). cbn [m_last] in H.
  destruct (bool_decide_reflect (t < m_last m + cf_refresh C)).
  { apply rn_ret in H as (-> & -> & _). constructor. }
  apply rn_bind in H as (l5 & l6 & m1 & t' & -> & H1 & H). apply rn_do in H1 as [-> [Ht' ->]]. cbn in Ht', H |- *.
  apply rn_bind in H as (l7 & l8 & m1 & ok & -> & H1 & H). apply rn_do in H1 as [-> [-> ->]]. cbn [m_last act_of] in *.
  rewrite bool_decide_true in * by done.
  apply rn_bind in H as (l9 & l10 & m1 & r & -> & H1 & H). apply rn_do in H1 as [-> ->]. cbn [act_of app].
  apply spaced_ask; [lia|].
  match type of H with rn _ ?q (Mem _ ?z _ _) _ _ _ => assert (Hg : good q) end.
  { destruct r as [r|]; [|done]. destruct (bool_decide _); [|done]. destruct (json_keys L _); [|done].
    chain. chain; [apply g_store|]. destruct a0; [|done]. chain; [apply g_delete|done]. }
  apply Hg in H. done.
Qed.
Lemma g_uaa_read tok : good (uaa_read L C tok).
Proof.
  unfold uaa_read. destruct (bool_decide _); [done|]. destruct (jose_headers L _) as [[[|alg|] kid]|]; try done.
  - destruct (bool_decide _); [|done]. destruct kid; try done. chain.
    + unfold load_or_fetch. chain. destruct a; [done|]. chain; [apply g_refresh|by apply g_do].
    + destruct a; [|done]. destruct (jose_verify L _ _); [|by chain]. unfold accept. destruct (json_claims L _); [|done].
      chain. by destruct (bool_decide _).
  - by chain.
Qed.
Lemma g_paginated u tok : good (paginated L u tok).
Proof. apply g_forever. intros s. unfold page_step, do_resource_request, do_request. repeat chain; done. Qed.
Lemma g_available tok : good (available L C tok).
Proof.
  unfold available. destruct (url_parse L _); [|done]. chain; [apply g_paginated|]. destruct a; [|done].
  destruct (url_parse L _); [|done]. chain; [apply g_paginated|]. by destruct a.
Qed.
Lemma g_fetch id tok r : good (fetch L C id tok r).
Proof. unfold fetch. chain; [apply g_available|]. chain. by chain. Qed.
Lemma g_authorized id tok : good (is_authorized L C id tok).
Proof.
  unfold is_authorized. chain. destruct a; [|apply g_fetch]. chain. destruct (bool_decide _); [|apply g_fetch].
  destruct (contained _ _); [done|]. destruct (bool_decide _); [done|]. apply g_fetch.
Qed.
Lemma g_authorize_ids ids tok : good (authorize_ids L C ids tok).
Proof. induction ids as [|id ids IH]; cbn; [done|]. chain; [apply g_authorized|]. by chain. Qed.
Lemma g_expand c ids : forall sets, good (expand L C ids sets c).
Proof.
  induction ids as [|id ids IH]; intros sets; cbn; [done|]. destruct (us_admin c); [done|].
  chain; [apply g_authorize_ids|]. by destruct a.
Qed.
Lemma g_related names tok : good (related L C names tok).
Proof.
  unfold related. destruct names; [done|]. destruct (url_parse L _); [|done]. chain; [apply g_paginated|]. by destruct a.
Qed.
Lemma g_serve r : good (serve L C r).
Proof.
  unfold serve. destruct (bool_decide _); [|done]. destruct (read_id _) as [id|].
  { unfold read_handler. destruct (bool_decide _); [done|]. chain; [apply g_uaa_read|]. destruct a as [u|]; [|done].
    destruct (us_admin u); [done|]. chain; [apply g_authorized|]. by destruct a. }
  destruct (bool_decide _ || _).
  { unfold query_handler. destruct (bool_decide _); [done|]. destruct (promql_parse L _); [|done]. chain.
    destruct a as [|i ids]; [done|]. chain; [apply g_uaa_read|]. destruct a as [u|]; [|done].
    chain; [apply g_related|]. chain; [apply g_expand|]. by destruct a0. }
  destruct (bool_decide _); [|by destruct (bool_decide _)].
  unfold meta_handler. destruct (bool_decide _); [done|]. chain; [apply g_uaa_read|]. destruct a as [u|]; [|done].
  chain. destruct a as [m|]; [|done]. destruct (us_admin u); [done|]. chain; [apply g_available|done].
Qed.
Lemma g_prune : good (forever (prune_step L) ()).
Proof.
  apply g_forever. intros s. unfold prune_step. chain. chain. chain; [|done].
  induction a0 as [|[tok e] es IH]; cbn; [done|]. destruct (bool_decide _); [|done]. by chain.
Qed.
Lemma g_start kd : good (start L C kd).
Proof.
  destruct kd; cbn [start]; (apply g_bind; [|by intros ?]);
    auto using g_serve, g_authorized, g_uaa_read, g_refresh, g_prune.
Qed.

(** Calls one after the other *)
Inductive session : mem L -> list (act L) -> mem L -> Prop :=
| session_nil m : session m [] m
| session_call kd m l m1 o l' m' : runs (start L C kd) m l m1 o -> session m1 l' m' -> session m (l ++ l') m'.
Lemma session_spaced m l m' : session m l m' -> spaced (m_last m) l (m_last m').
Proof.
  induction 1 as [m|kd m l m1 o l' m' H Hs IH]; [constructor|]. eapply spaced_app; [|done].
  apply runs_rn in H as [n H]. by apply g_start in H.
Qed.

(** The clock reading before each time UAA was asked: t was the last reading before it *)
Definition no_reading l : Prop := forall t, ANow t ∉ l.
Lemma spaced_reading t0 l t' : spaced t0 l t' -> forall b r c, l = b ++ AUaa r :: c -> ~ no_reading b.
Proof.
  induction 1 as [t0|t0 x l t' Hx Hs IH|last t r l t' Hle Hs IH]; intros b r' c E Hb.
  - by destruct b.
  - destruct b as [|y b]; injection E as -> E; [by destruct (Hx r')|].
    eapply IH; [exact E|]. intros t Ht. apply (Hb t). by right.
  - destruct b as [|y b]; [done|]. injection E as <- E. apply (Hb t). left.
Qed.
Lemma spaced_first t0 l t' : 0 <= cf_refresh C -> spaced t0 l t' -> forall a t b r c,
  l = a ++ ANow t :: b ++ AUaa r :: c -> no_reading b -> t0 + cf_refresh C <= t.
Proof.
  intros Hpos. induction 1 as [t0|t0 x l t' Hx Hs IH|last t r l t' Hle Hs IH]; intros a t1 b r' c E Hb.
  - by destruct a.
  - destruct a as [|y a]; injection E as -> E; [|by eapply IH]. by destruct (spaced_reading _ _ _ Hs _ _ _ E).
  - destruct a as [|y [|z [|w a]]]; [by injection E as -> _|done|done|]. injection E as _ _ _ E.
    assert (t + cf_refresh C <= t1) by (by eapply IH). lia.
Qed.
Lemma spaced_two t0 l t' : 0 <= cf_refresh C -> spaced t0 l t' -> forall a t1 b1 r1 a2 t2 b2 r2 c,
  l = a ++ ANow t1 :: b1 ++ AUaa r1 :: a2 ++ ANow t2 :: b2 ++ AUaa r2 :: c -> no_reading b1 -> no_reading b2 ->
  t1 + cf_refresh C <= t2.
Proof.
  intros Hpos. induction 1 as [t0|t0 x l t' Hx Hs IH|last t r l t' Hle Hs IH]; intros a t1 b1 r1 a2 t2 b2 r2 c E H1 H2.
  - by destruct a.
  - destruct a as [|y a]; injection E as -> E; [|by eapply IH]. by destruct (spaced_reading _ _ _ Hs _ _ _ E).
  - destruct a as [|y [|z [|w a]]]; [|done|done|injection E as _ _ _ E; by eapply IH].
    injection E as -> E. destruct b1 as [|y [|z b1]]; [done| |].
    + injection E as _ _ E. by eapply (spaced_first _ _ _ Hpos Hs).
    + injection E as <- <- E. exfalso. eapply (spaced_reading _ _ _ Hs); [exact E|].
      intros t3 H3. apply (H1 t3). by do 2 right.
Qed.

(** ** What a refresh leaves behind *)
(** the key a list gives to a key id: the last entry counts *)
Inductive gives : list (string * string) -> string -> key L -> Prop :=
| gives_last ks1 kid pem k ks2 : rsa_key L pem = Some k -> kid ∉ ks2.*1 -> gives (ks1 ++ (kid, pem) :: ks2) kid k.
Lemma store_keys_rn n ks : forall cur m l m' out, rn n (store_keys L ks cur) m l m' (Some out) ->
  (forall kid, m_keys m' !! kid = match decide (kid ∈ ks.*1) with
                                  | left _ => m_keys m' !! kid | right _ => m_keys m !! kid end) /\
  (forall kid, kid ∈ ks.*1 -> exists k, m_keys m' !! kid = Some k /\ gives ks kid k) /\
  out = filter (fun x => x ∉ ks.*1) cur.
Proof.
  induction ks as [|[kid v] ks IH]; intros cur m l m' out H; cbn [store_keys] in H.
  - apply rn_ret in H as (-> & -> & [= <-]). split; [|split].
    + intros kid. by destruct (decide _).
    + intros kid Hk. by apply elem_of_nil in Hk.
    + induction out as [|x out IHo]; [done|]. rewrite filter_cons, decide_True by (apply not_elem_of_nil). by f_equal.
  - destruct (bool_decide _); [by apply rn_ret in H as (_ & _ & ?)|].
    destruct (rsa_key L v) as [k|] eqn:Ek; [|by apply rn_ret in H as (_ & _ & ?)].
    apply rn_bind in H as (l1 & l2 & m1 & [] & -> & H1 & H). apply rn_do in H1 as [-> ->].
    apply IH in H as (Hold & Hnew & ->). split; [|split].
    + intros kid'. destruct (decide (kid' ∈ ((kid, v) :: ks).*1)) as [Hin|Hin]; [done|].
      cbn in Hin. apply not_elem_of_cons in Hin as [Hne Hin].
      specialize (Hold kid'). rewrite decide_False in Hold by done. rewrite Hold. cbn. by rewrite lookup_insert_ne.
    + intros kid' Hin. cbn in Hin. destruct (decide (kid' ∈ ks.*1)) as [Hi|Hi].
      * destruct (Hnew kid' Hi) as (k' & Ek' & Hg). exists k'. split; [done|].
        destruct Hg as [ks1 kid' pem k' ks2 Hr Hn]. by apply (gives_last ((kid, v) :: ks1)).
      * apply elem_of_cons in Hin as [->|?]; [|done]. exists k. specialize (Hold kid). rewrite decide_False in Hold by done.
        rewrite Hold. cbn. rewrite lookup_insert. split; [done|]. by apply (gives_last []).
    + rewrite list_filter_filter. apply list_filter_iff. intros x. cbn. rewrite not_elem_of_cons. tauto.
Qed.
Lemma delete_keys_rn n kids : forall m l m' u, rn n (delete_keys L kids) m l m' u ->
  forall kid, m_keys m' !! kid = if decide (kid ∈ kids) then None else m_keys m !! kid.
Proof.
  induction kids as [|k kids IH]; intros m l m' u H kid; cbn [delete_keys] in H.
  - by apply rn_ret in H as (-> & -> & _).
  - apply rn_bind in H as (l1 & l2 & m1 & [] & -> & H1 & H). apply rn_do in H1 as [-> ->].
    rewrite (IH _ _ _ _ H kid). destruct (decide (kid ∈ kids)) as [Hi|Hi].
    + by rewrite decide_True by (by right).
    + cbn. destruct (decide (kid = k)) as [->|Hn].
      * rewrite decide_True by left. apply lookup_delete.
      * rewrite decide_False by (rewrite elem_of_cons; naive_solver). by rewrite lookup_delete_ne.
Qed.
Lemma gives_fun ks kid k k' : gives ks kid k -> gives ks kid k' -> k = k'.
Proof.
  intros H H'. destruct H as [a kid pem k b Hr Hn]. remember (a ++ (kid, pem) :: b) as ks eqn:E.
  destruct H' as [a' kid pem' k' b' Hr' Hn']. revert a' E. induction a as [|x a IH]; intros [|y a'] E; cbn in E.
  - simplify_eq. congruence.
  - injection E as _ <-. destruct Hn. rewrite fmap_app, fmap_cons. apply elem_of_app. right. left.
  - injection E as _ ->. destruct Hn'. rewrite fmap_app, fmap_cons. apply elem_of_app. right. left.
  - injection E as _ E. by eapply IH.
Qed.
Definition silent (m : mem L) l (m' : mem L) : Prop := forall r, AUaa r ∉ l.
Lemma silent_nil m : silent m [] m.
Proof. intros r Hr. by apply elem_of_nil in Hr. Qed.
Lemma silent_app m1 l1 m2 l2 m3 : silent m1 l1 m2 -> silent m2 l2 m3 -> silent m1 (l1 ++ l2) m3.
Proof. intros H1 H2 r Hr. apply elem_of_app in Hr as [Hr|Hr]; [by apply (H1 r)|by apply (H2 r)]. Qed.
Lemma silent_do {X} (e : eff L X) : quiet e = true -> sat silent (do e).
Proof. intros Hq. apply sat_do. intros m x m' _ r Hr. apply elem_of_list_singleton in Hr. by destruct e. Qed.
Lemma silent_store ks : forall cur, sat silent (store_keys L ks cur).
Proof.
  induction ks as [|[kid v] ks IH]; intros cur; cbn [store_keys]; [apply sat_ret, silent_nil|].
  destruct (bool_decide _); [apply sat_ret, silent_nil|]. destruct (rsa_key L v); [|apply sat_ret, silent_nil].
  apply sat_bind; [apply silent_app|by apply silent_do|intros _; apply IH].
Qed.
Lemma silent_delete kids : sat silent (delete_keys L kids).
Proof.
  induction kids as [|k kids IH]; cbn [delete_keys]; [apply sat_ret, silent_nil|].
  apply sat_bind; [apply silent_app|by apply silent_do|intros _; apply IH].
Qed.
Lemma refresh_keys m l m' body ks : runs (refresh L C) m l m' true -> AUaa (Some (Reply 200 body)) ∈ l ->
  json_keys L body = Some ks ->
  forall kid k, m_keys m' !! kid = Some k <-> gives ks kid k.
Proof.
  intros H Hin Hks. apply runs_rn in H as [n H]. unfold refresh in H.
  apply rn_bind in H as (l1 & l2 & m1 & last & -> & H1 & H). apply rn_do in H1 as [-> [-> ->]].
  apply rn_bind in H as (l3 & l4 & m1 & t & -> & H1 & H). apply rn_do in H1 as [-> [Ht ->]].
  destruct (bool_decide _).
  { apply rn_ret in H as (-> & -> & _). exfalso. cbn in Hin. rewrite !elem_of_cons, elem_of_nil in Hin. naive_solver. }
  apply rn_bind in H as (l5 & l6 & m1 & t' & -> & H1 & H). apply rn_do in H1 as [-> [Ht' ->]].
  apply rn_bind in H as (l7 & l8 & m1 & okk & -> & H1 & H). apply rn_do in H1 as [-> [-> ->]].
  apply rn_bind in H as (l9 & l10 & m1 & r & -> & H1 & H). apply rn_do in H1 as [-> ->].
  destruct r as [r|]; [|by apply rn_ret in H as (_ & _ & ?)].
  destruct (bool_decide_reflect (r_status r = 200)) as [Est|]; [|by apply rn_ret in H as (_ & _ & ?)].
  destruct (json_keys L (r_body r)) as [ks'|] eqn:Ej; [|by apply rn_ret in H as (_ & _ & ?)].
  match goal with H : rn _ _ ?mm _ _ _ |- _ => set (m0 := mm) in H; assert (Hrest : forall kid, is_Some (m_keys m0 !! kid) -> kid ∈ (map_to_list (m_keys m0)).*1) end.
  { intros kid [k Hk]. apply elem_of_list_fmap. exists (kid, k). split; [done|]. by apply elem_of_map_to_list. }
  clearbody m0.
  apply rn_bind in H as (l11 & l12 & m1 & cur & -> & H1 & H). apply rn_do in H1 as [-> [Hcur ->]].
  apply rn_bind in H as (l13 & l14 & m1 & left & -> & H1 & H).
  destruct left as [out|]; [|by apply rn_ret in H as (_ & _ & ?)].
  apply rn_bind in H as (l15 & l16 & m2 & [] & -> & H2 & H). apply rn_ret in H as (-> & -> & _).
  assert (E : ks' = ks).
  { cbn in Hin. rewrite !elem_of_cons, !elem_of_app in Hin. pose proof (silent_store ks' cur _ _ _ _ _ H1) as S1.
    pose proof (silent_delete out _ _ _ _ _ H2) as S2.
    destruct Hin as [?|[?|[?|[?|[Hr|[?|[Hin|[Hin|Hin]]]]]]]]; try done.
    - injection Hr as <-. cbn in Ej. congruence.
    - by destruct (S1 _ Hin). - by destruct (S2 _ Hin). - by apply elem_of_nil in Hin. }
  subst ks'. apply store_keys_rn in H1 as (Hold & Hnew & ->).
  intros kid k. rewrite (delete_keys_rn _ _ _ _ _ _ H2 kid).
  destruct (decide (kid ∈ ks.*1)) as [Hi|Hi].
  - rewrite decide_False.
    2:{ intros Hf. apply elem_of_list_filter in Hf as [Hf _]. done. }
    destruct (Hnew kid Hi) as (k1 & -> & Hg). split; [by intros [= <-]|]. intros Hg'. f_equal. by eapply gives_fun.
  - split.
    + destruct (decide _) as [Hd|Hd]; [done|]. specialize (Hold kid). rewrite decide_False in Hold by done. rewrite Hold.
      intros Hk. destruct Hd. apply elem_of_list_filter. split; [done|]. rewrite Hcur. apply Hrest. by exists k.
    + intros Hg. destruct Hi. destruct Hg. rewrite fmap_app, fmap_cons. apply elem_of_app. right. left.
Qed.
End Throttle.
