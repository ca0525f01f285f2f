(** What a read request gets when nothing interferes: the decision is exact. *)
From Coq Require Import Ascii String.
From stdpp Require Import prelude gmap strings list.
From Verif.Base Require Import Str Url.
From Verif.Promql Require Import Model.
From Verif.Auth Require Import Model System Spec Trace Local Global Throttle.
Open Scope string_scope.
Open Scope list_scope.
Open Scope Z_scope.

Section Decide.
Context {L : lib} {C : config}.
Implicit Types (l : list (act L)) (m : mem L).

Lemma rn_tr {A} n : forall (p : prog L A) m l m' a, rn n p m l m' a -> tr n p l (Ret a).
Proof.
  induction n as [|n IH]; intros p m l m' a H; destruct p as [b| |p|X e k]; cbn in H; try done.
  - destruct H as (-> & _ & ->). constructor.
  - destruct H as (-> & _ & ->). constructor.
  - constructor. by eapply IH.
  - destruct H as (x & m1 & l' & -> & Hs & H). constructor; [by eapply sem_possible|]. by eapply IH.
Qed.
Lemma same_letters_length s t : same_letters s t -> String.length s = String.length t.
Proof. induction 1; cbn; congruence. Qed.
Lemma carries_fun auth token : carries auth token -> trim_bearer auth = token.
Proof.
  intros H. destruct H as [word spaces token Hw Hne Hsp Htok|s Hbare]; unfold trim_bearer.
  - rewrite (strip_word_complete "bearer" word _ bearer_lower Hw). destruct spaces as [|c spaces]; [done|].
    change (append (String c spaces) token) with (String c (append spaces token)). cbn in Hsp. cbn. rewrite re_white.
    destruct (white c) eqn:Ec; [|done]. clear Hne Hw. induction spaces as [|d spaces IH].
    + change (append "" token) with token. destruct token as [|d rest]; [done|]. cbn. by rewrite re_white, (Htok d rest eq_refl).
    + cbn in Hsp. destruct (white d) eqn:Ed; [|done].
      change (append (String d spaces) token) with (String d (append spaces token)). cbn. rewrite re_white, Ed. by apply IH.
  - destruct (strip_word "bearer" s) as [[|c r]|] eqn:E; [done| |done].
    apply strip_word_spec in E as (w & -> & Hw); [|exact bearer_lower]. by rewrite re_white, (Hbare w c r eq_refl Hw).
Qed.

Lemma read_good auth token kid k payload c m :
  carries auth token -> auth <> "" -> jose_headers L token = Some (HString "RS256", HString kid) ->
  m_keys m !! kid = Some k -> jose_verify L token k = Some payload -> json_claims L payload = Some c ->
  forall n l m' (u : option user), rn n (uaa_read L C auth) m l m' u -> (forall t, ANow t ∈ l -> t <= cl_exp c * 1000000000) ->
  calls l = [] /\ m_cache m' = m_cache m /\ u = Some (User (existsb admin_scope (cl_scopes c)) auth (cl_exp c)).
Proof.
  intros Hca Hne Hh Hk Hv Hj n l m' u H Ht. unfold uaa_read in H. rewrite bool_decide_false in H by done.
  rewrite (carries_fun _ _ Hca), Hh in H. rewrite bool_decide_true in H by done.
  apply rn_bind in H as (l1 & l2 & m1 & o & -> & H1 & H). unfold load_or_fetch in H1.
  apply rn_bind in H1 as (l3 & l4 & m2 & o' & -> & H2 & H1). apply rn_do in H2 as [-> [-> ->]]. rewrite Hk in H1.
  apply rn_ret in H1 as (-> & -> & ->). rewrite Hv in H. unfold accept in H. rewrite Hj in H.
  apply rn_bind in H as (l5 & l6 & m2 & t & -> & H2 & H). apply rn_do in H2 as [-> [Hc ->]].
  assert (t <= cl_exp c * 1000000000). { apply Ht. rewrite !elem_of_app. right. left. left. }
  rewrite bool_decide_false in H by lia. apply rn_ret in H as (-> & -> & ->). done.
Qed.
Lemma serve_read r id : clean_path L (rq_path r) = rq_path r -> rq_path r = append "/api/v1/read/" id ->
  has_char newline id = false -> serve L C r = read_handler L C id r.
Proof.
  intros Hcl Hp Hnl. unfold serve. rewrite bool_decide_true by done.
  replace (read_id (rq_path r)) with (Some id); [done|]. symmetry. by apply read_id_spec.
Qed.

(** the user's token is good *)
Definition good_user m (auth : string) (c : claims) : Prop :=
  exists token kid k payload, carries auth token /\ auth <> "" /\ jose_headers L token = Some (HString "RS256", HString kid) /\
    m_keys m !! kid = Some k /\ jose_verify L token k = Some payload /\ json_claims L payload = Some c.
Lemma decide_read r id m l m' o c : clean_path L (rq_path r) = rq_path r -> rq_path r = append "/api/v1/read/" id ->
  has_char newline id = false -> good_user m (rq_auth r) c -> m_cache m !! rq_auth r = None ->
  runs (serve L C r) m l m' o -> (forall t, ANow t ∈ l -> t <= cl_exp c * 1000000000) ->
  (admin c /\ o = Forward (rq_path r) (rq_query r)) \/
  (~ admin c /\
   ((exists ids, listed L C (rq_auth r) (calls l) ids /\
       o = if decide (id ∈ ids) then Forward (rq_path r) (rq_query r) else Status 404) \/
    (list_fails L C (rq_auth r) (calls l) /\ o = Status 404))).
Proof.
  intros Hcl Hp Hnl (token & kid & k & payload & Hca & Hne & Hh & Hk & Hv & Hj) Hc H Ht.
  apply runs_rn in H as [n H]. rewrite (serve_read r id) in H by done. unfold read_handler in H.
  rewrite bool_decide_false in H by done. apply rn_bind in H as (l1 & l2 & m1 & u & -> & H1 & H).
  eapply read_good in H1 as (E1 & Em & Eu); [|done..|]; [|intros t Hin; apply Ht, elem_of_app; by left]. subst u.
  cbn [us_admin us_token] in H. destruct (existsb admin_scope (cl_scopes c)) eqn:Ea.
  { apply rn_ret in H as (-> & -> & ->). left. split; [by apply admin_spec|done]. }
  right. split; [intros Hadm; apply admin_spec in Hadm; congruence|].
  apply rn_bind in H as (l3 & l4 & m2 & okk & -> & H1 & H). apply rn_ret in H as (-> & -> & ->).
  unfold is_authorized in H1. apply rn_bind in H1 as (l5 & l6 & m3 & e & -> & H2 & H1). apply rn_do in H2 as [-> [-> ->]].
  rewrite Em, Hc in H1. unfold fetch in H1.
  apply rn_bind in H1 as (l7 & l8 & m4 & ids & -> & H2 & H1).
  apply rn_bind in H1 as (l9 & l10 & m5 & t & -> & H3 & H1). apply rn_do in H3 as [-> _].
  apply rn_bind in H1 as (l11 & l12 & m6 & [] & -> & H3 & H1). apply rn_do in H3 as [-> _].
  apply rn_ret in H1 as (-> & -> & ->). apply rn_tr in H2. apply available_tr in H2.
  assert (E : calls (l1 ++ ([act_of (CacheLoad (rq_auth r)) (m_cache m !! rq_auth r)] ++ l7 ++ [act_of Now t] ++
      [act_of (CacheStore (rq_auth r) (Entry ids 0 (t + cf_cache C))) ()] ++ []) ++ []) = calls l7).
  { rewrite !calls_app, E1. cbn. by rewrite !app_nil_r. }
  rewrite <- Em in E. rewrite E. unfold contained. destruct H2 as [H2|[H2 ->]].
  - left. exists ids. split; [done|]. destruct (decide (id ∈ ids)) as [Hi|Hi]; [by rewrite bool_decide_true|by rewrite bool_decide_false].
  - right. split; [done|]. rewrite bool_decide_false; [done|]. apply not_elem_of_nil.
Qed.
Lemma decide_cached r id m l m' o c e : clean_path L (rq_path r) = rq_path r -> rq_path r = append "/api/v1/read/" id ->
  has_char newline id = false -> good_user m (rq_auth r) c -> m_cache m !! rq_auth r = Some e -> id ∈ en_ids e ->
  runs (serve L C r) m l m' o -> (forall t, ANow t ∈ l -> t <= cl_exp c * 1000000000 /\ t < en_expires e) ->
  calls l = [] /\ o = Forward (rq_path r) (rq_query r).
Proof.
  intros Hcl Hp Hnl (token & kid & k & payload & Hca & Hne & Hh & Hk & Hv & Hj) Hc Hid H Ht.
  apply runs_rn in H as [n H]. rewrite (serve_read r id) in H by done. unfold read_handler in H.
  rewrite bool_decide_false in H by done. apply rn_bind in H as (l1 & l2 & m1 & u & -> & H1 & H).
  eapply read_good in H1 as (E1 & Em & Eu); [|done..|]; [|intros t Hin; apply Ht, elem_of_app; by left]. subst u.
  cbn [us_admin us_token] in H. destruct (existsb admin_scope (cl_scopes c)) eqn:Ea.
  { apply rn_ret in H as (-> & -> & ->). by rewrite app_nil_r. }
  apply rn_bind in H as (l3 & l4 & m2 & okk & -> & H1 & H). apply rn_ret in H as (-> & -> & ->).
  unfold is_authorized in H1. apply rn_bind in H1 as (l5 & l6 & m3 & e' & -> & H2 & H1). apply rn_do in H2 as [-> [-> ->]].
  rewrite Em, Hc in H1. apply rn_bind in H1 as (l7 & l8 & m4 & t & -> & H2 & H1). apply rn_do in H2 as [-> _].
  destruct (Ht t) as [_ Hlt]. { rewrite !elem_of_app. right. left. right. left. left. }
  rewrite bool_decide_true in H1 by done. unfold contained in H1. rewrite bool_decide_true in H1 by done.
  apply rn_ret in H1 as (-> & -> & ->). rewrite !calls_app, E1. done.
Qed.
End Decide.
