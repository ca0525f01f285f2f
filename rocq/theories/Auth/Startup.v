(** When a refresh of the keys reports success, and what a failing one leaves. *)
From Coq Require Import Ascii String.
From stdpp Require Import prelude gmap strings list.
From Verif.Promql Require Import Model.
From Verif.Auth Require Import Model System Spec Trace Local Global Throttle SpecStartup.
Open Scope string_scope.
Open Scope list_scope.
Open Scope Z_scope.

Section Startup.
Context {L : lib} {C : config}.
Lemma store_keys_result n ks : forall cur m l m' out, rn n (store_keys L ks cur) m l m' out ->
  (is_Some out <-> usable L ks) /\
  forall kid k, m_keys m !! kid = Some k -> exists k', m_keys m' !! kid = Some k' /\
    (k' = k \/ exists pem, (kid, pem) ∈ ks /\ rsa_key L pem = Some k').
Proof.
  induction ks as [|[kid v] ks IH]; intros cur m l m' out H; cbn [store_keys] in H.
  - apply rn_ret in H as (-> & -> & ->). split; [|eauto]. split; [|by eexists]. intros _ kid pem Hin. by apply elem_of_nil in Hin.
  - destruct (bool_decide_reflect (v = "")) as [->|Hv].
    { apply rn_ret in H as (-> & -> & ->). split; [|eauto]. split; [by intros []|]. intros Hu. by destruct (Hu kid "" ltac:(by left)). }
    destruct (rsa_key L v) as [k|] eqn:Ek.
    2:{ apply rn_ret in H as (-> & -> & ->). split; [|eauto]. split; [by intros []|]. intros Hu. destruct (Hu kid v ltac:(by left)) as [_ [x Hx]]. congruence. }
    apply rn_bind in H as (l1 & l2 & m1 & [] & -> & H1 & H). apply rn_do in H1 as [-> ->].
    apply IH in H as (Hout & Hold). split.
    + rewrite Hout. split.
      * intros Hu kid' pem [[= -> ->]|Hin]%elem_of_cons; [by split; [|eexists]|by apply (Hu kid')].
      * intros Hu kid' pem Hin. apply (Hu kid'). by right.
    + intros kid' k' Hk. destruct (decide (kid' = kid)) as [->|Hne].
      * destruct (Hold kid k) as (k2 & E2 & Hk2); [cbn; apply lookup_insert|]. exists k2. split; [done|]. right.
        destruct Hk2 as [->|(pem & Hin & Hr)]; [exists v; split; [by left|done]|exists pem; split; [by right|done]].
      * destruct (Hold kid' k') as (k2 & E2 & Hk2); [cbn; by rewrite lookup_insert_ne|]. exists k2. split; [done|].
        destruct Hk2 as [->|(pem & Hin & Hr)]; [by left|right; exists pem; split; [by right|done]].
Qed.
(** A refresh: throttled, without a list of keys, or with one *)
Lemma refresh_cases m l m' ok : runs (refresh L C) m l m' ok ->
  (throttled L C m l /\ m_keys m' = m_keys m /\ ok = true) \/
  (~ throttled L C m l /\ (forall body ks, ~ listed L l body ks) /\ m_keys m' = m_keys m /\ ok = false) \/
  (~ throttled L C m l /\ exists body ks, listed L l body ks /\ (forall body' ks', listed L l body' ks' -> ks' = ks) /\ (ok = true <-> usable L ks) /\
    (ok = false -> forall kid k, m_keys m !! kid = Some k -> exists k', m_keys m' !! kid = Some k' /\
       (k' = k \/ exists pem, (kid, pem) ∈ ks /\ rsa_key L pem = Some k'))).
Proof.
  intros H. apply runs_rn in H as [n H]. unfold refresh in H.
  apply rn_bind in H as (l1 & l2 & m1 & last & -> & H1 & H). apply rn_do in H1 as [-> [-> ->]].
  apply rn_bind in H as (l3 & l4 & m1 & t & -> & H1 & H). apply rn_do in H1 as [-> [Ht ->]].
  destruct (bool_decide_reflect (t < m_last m + cf_refresh C)) as [Hlt|Hlt].
  { apply rn_ret in H as (-> & -> & ->). left. split; [|done]. split.
    - intros r Hr. cbn in Hr. rewrite !elem_of_cons, elem_of_nil in Hr. naive_solver.
    - exists t. split; [|done]. cbn. right. by left. }
  right.
  apply rn_bind in H as (l5 & l6 & m1 & t' & -> & H1 & H). apply rn_do in H1 as [-> [Ht' ->]].
  apply rn_bind in H as (l7 & l8 & m1 & okk & -> & H1 & H). apply rn_do in H1 as [-> [-> ->]].
  apply rn_bind in H as (l9 & l10 & m1 & r & -> & H1 & H). apply rn_do in H1 as [-> ->].
  match goal with |- context [throttled L C m ?ll] => assert (Hth : ~ throttled L C m ll) end.
  { intros [Hno _]. apply (Hno r). cbn. rewrite !elem_of_cons. tauto. }
  match goal with H : rn _ _ ?mm _ _ _ |- _ => set (m0 := mm) in H; assert (Hm0 : m_keys m0 = m_keys m) end.
  { unfold m0. cbn. by destruct (bool_decide _). }
  clearbody m0.
  match goal with |- context [listed L ?ll _ _] => assert (Hl : forall body ks, listed L ll body ks ->
    r = Some (Reply 200 body) \/ AUaa (Some (Reply 200 body)) ∈ l10) end.
  { intros body ks [Hin _]. cbn in Hin. rewrite !elem_of_cons in Hin. naive_solver. }
  assert (Hnil : forall l, l = [] -> forall r, AUaa (L:=L) r ∉ l) by (intros ? -> ? Hr; by apply elem_of_nil in Hr).
  destruct r as [r|].
  2:{ left. apply rn_ret in H as (-> & -> & ->). split; [done|]. split; [|by rewrite <- Hm0]. intros body ks Hx. destruct (Hl _ _ Hx) as [?|Hi]; [done|]. by apply elem_of_nil in Hi. }
  destruct (bool_decide_reflect (r_status r = 200)) as [Est|Est].
  2:{ left. apply rn_ret in H as (-> & -> & ->). split; [done|]. split; [|done]. intros body ks Hx. destruct (Hl _ _ Hx) as [[= ->]|Hi]; [done|]. by apply elem_of_nil in Hi. }
  destruct r as [st body]. cbn in Est. subst st. cbn [r_body] in H.
  destruct (json_keys L body) as [ks|] eqn:Ej.
  2:{ left. apply rn_ret in H as (-> & -> & ->). split; [done|]. split; [|done]. intros body' ks Hx. pose proof Hx as [_ Hj]. destruct (Hl _ _ Hx) as [[= ->]|Hi]; [congruence|]. by apply elem_of_nil in Hi. }
  right. split; [done|]. exists body, ks.
  apply rn_bind in H as (l11 & l12 & m1 & cur & -> & H1 & H). apply rn_do in H1 as [-> [Hcur ->]].
  apply rn_bind in H as (l13 & l14 & m1 & left & -> & H1 & H).
  pose proof (silent_store ks cur _ _ _ _ _ H1) as S1.
  destruct (store_keys_result _ _ _ _ _ _ _ H1) as [Hu Hold].
  assert (S2 : (forall r, AUaa r ∉ l14) /\ (ok = true <-> is_Some left) /\ (ok = false -> m' = m1)).
  { destruct left as [out|].
    - apply rn_bind in H as (l15 & l16 & m2 & [] & -> & H2 & H). apply rn_ret in H as (-> & -> & ->).
      pose proof (silent_delete out _ _ _ _ _ H2) as S2. split; [|split; [split; [by eexists|done]|done]]. intros r Hr. apply elem_of_app in Hr as [Hr|Hr]; [by apply (S2 r)|by apply elem_of_nil in Hr].
    - apply rn_ret in H as (-> & -> & ->). split; [intros r Hr; by apply elem_of_nil in Hr|]. split; [split; [done|by intros []]|done]. }
  destruct S2 as (S2 & Hok & Hm'). split; [|split; [|split]].
  - split; [|done]. cbn. rewrite !elem_of_cons. tauto.
  - intros body' ks' Hx. pose proof Hx as [_ Hj]. destruct (Hl _ _ Hx) as [[= <-]|Hi]; [congruence|]. exfalso.
    rewrite !elem_of_app in Hi. destruct Hi as [Hi|[Hi|Hi]]; [by apply elem_of_list_singleton in Hi|by apply (S1 _ Hi)|by apply (S2 _ Hi)].
  - by rewrite Hok.
  - intros E kid k Hk. rewrite (Hm' E). apply Hold. by rewrite Hm0.
Qed.
Lemma refresh_soon m l m' ok : runs (refresh L C) m l m' ok ->
  (forall t, ANow t ∈ l -> t < m_last m + cf_refresh C) -> (forall r, AUaa r ∉ l) /\ m_keys m' = m_keys m /\ ok = true.
Proof.
  intros H. apply runs_rn in H as [n H]. unfold refresh in H.
  apply rn_bind in H as (l1 & l2 & m1 & last & -> & H1 & H). apply rn_do in H1 as [-> [-> ->]].
  apply rn_bind in H as (l3 & l4 & m1 & t & -> & H1 & H). apply rn_do in H1 as [-> [Ht ->]].
  intros Hall. specialize (Hall t ltac:(right; by left)). rewrite bool_decide_true in H by done. apply rn_ret in H as (-> & -> & ->).
  split; [|done]. intros r Hr. cbn in Hr. rewrite !elem_of_cons, elem_of_nil in Hr. naive_solver.
Qed.
End Startup.
