(** Every request is logged before it is authorised. *)
From Coq Require Import Ascii String.
From stdpp Require Import prelude gmap strings list.
From Verif.Base Require Import Str Url.
From Verif.AccessLog Require Import Spec Model Proofs.
From Verif.Auth Require Import Model System.
From Verif.Proxy Require Import Model.
Open Scope string_scope.
Open Scope list_scope.
Open Scope Z_scope.

Section Proofs.
Context (L : lib) (C : config) (lg : logging).

Lemma reachable_sys clock x : preachable L C lg clock x -> reachable L C clock (x_sys x).
Proof.
  induction 1 as [|x x' _ IH Hs]; [apply reach_init|]. destruct Hs as [| |rs ws s s' Hs _]; cbn in *; [done| |].
  - eapply reach_step; [exact IH|]. by apply step_arrive.
  - by eapply reach_step.
Qed.

(** threads keep what they were started for *)
Lemma step_threads s s' : step L C s s' -> (length (s_threads s) <= length (s_threads s'))%nat /\
  forall i kd q, s_threads s !! i = Some (kd, q) -> exists q', s_threads s' !! i = Some (kd, q').
Proof.
  destruct 1 as [m ts h kd _|m ts h i kd p Hi|m ts h i kd X e k y m' Hi _]; cbn.
  - rewrite app_length. split; [lia|]. intros i kd' q Hi. exists q. by apply lookup_app_l_Some.
  - rewrite insert_length. split; [lia|]. intros j kd' q Hj. destruct (decide (i = j)) as [->|Hne].
    + simplify_eq. eexists. rewrite list_lookup_insert by (by eapply lookup_lt_Some). done.
    + rewrite list_lookup_insert_ne by done. eauto.
  - rewrite app_length, insert_length. split; [lia|]. intros j kd' q Hj.
    destruct (decide (i = j)) as [->|Hne].
    + simplify_eq. eexists. apply lookup_app_l_Some. rewrite list_lookup_insert by (by eapply lookup_lt_Some). done.
    + eexists. apply lookup_app_l_Some. rewrite list_lookup_insert_ne by done. done.
Qed.

Record pinv (x : proxy L) : Prop := {
  (* the requests at the middleware have come through the log *)
  pi_threads i r q : s_threads (x_sys x) !! i = Some (KServe r, q) -> exists n p, x_reqs x !! n = Some (p, Some i) /\ handed p = r;
  pi_lt n p i : x_reqs x !! n = Some (p, Some i) -> exists q, s_threads (x_sys x) !! i = Some (KServe (handed p), q);
  pi_inj n n' p p' i : x_reqs x !! n = Some (p, Some i) -> x_reqs x !! n' = Some (p', Some i) -> n = n';
  (* one Write each *)
  pi_once : NoDup (w_req <$> x_writes x);
  pi_write n : n ∈ w_req <$> x_writes x <-> exists p i, x_reqs x !! n = Some (p, Some i);
  pi_text w p o : w ∈ x_writes x -> x_reqs x !! w_req w = Some (p, o) -> wrote lg (p_log p) (w_time w) (w_text w) (w_ok w) }.

Lemma pinv_step x x' : pinv x -> pstep L C lg x x' -> pinv x'.
Proof.
  intros [H1 H2 H3 H4 H5 H6] Hs.
  destruct Hs as [p rs ws s|n p t w ok rs ws m ts h Hn Hw|rs ws s s' Hs Hq]; cbn [x_reqs x_writes x_sys] in *.
  - assert (Hold : forall n p' i, (rs ++ [(p, None)]) !! n = Some (p', Some i) -> rs !! n = Some (p', Some i)).
    { intros n p' i H. apply lookup_app_Some in H as [H|[_ H]]; [done|]. apply list_lookup_singleton_Some in H as [_ H]. done. }
    split; cbn [x_reqs x_writes x_sys].
    + intros i r q H. destruct (H1 _ _ _ H) as (n & p' & Hn & Hp). exists n, p'. split; [by apply lookup_app_l_Some|done].
    + intros n p' i H. eauto.
    + intros n n' p' p'' i Ha Hb. eauto.
    + done.
    + intros n. rewrite H5. split; intros (p' & i & H); exists p', i; [by apply lookup_app_l_Some|eauto].
    + intros w p' o Hw H. apply lookup_app_Some in H as [H|[Hge H]]; [by eauto|].
      exfalso. assert (Hin : w_req w ∈ w_req <$> ws) by (apply elem_of_list_fmap; eauto).
      apply H5 in Hin as (p0 & i & Hi). apply lookup_lt_Some in Hi. lia.
  - assert (Hlt : (n < length rs)%nat) by (by eapply lookup_lt_Some).
    assert (Hold : forall n' p' i, <[n := (p, Some (length ts))]> rs !! n' = Some (p', Some i) ->
      (n' = n /\ p' = p /\ i = length ts) \/ (n' <> n /\ rs !! n' = Some (p', Some i))).
    { intros n' p' i H. destruct (decide (n = n')) as [->|Hne].
      - rewrite list_lookup_insert in H by done. injection H as -> ->. by left.
      - rewrite list_lookup_insert_ne in H by done. right. split; [congruence|done]. }
    assert (Hfresh : forall n' p' i, rs !! n' = Some (p', Some i) -> (i < length ts)%nat).
    { intros n' p' i H. destruct (H2 _ _ _ H) as [q Hq]. by eapply lookup_lt_Some. }
    split; cbn [x_reqs x_writes x_sys].
    + intros i r q H. apply lookup_app_Some in H as [H|[Hge H]].
      * destruct (H1 _ _ _ H) as (n' & p' & Hn' & Hp). exists n', p'. split; [|done].
        rewrite list_lookup_insert_ne; [done|]. intros <-. simplify_eq.
      * apply list_lookup_singleton_Some in H as [Hi E]. injection E as <- _. exists n, p. split; [|done].
        rewrite list_lookup_insert by done. assert (E : (length ts <= i)%nat /\ (i - length ts = 0)%nat) by (split; [exact Hge|exact Hi]). replace (length ts) with i by lia. done.
    + intros n' p' i H. apply Hold in H as [(-> & -> & ->)|[_ H]].
      * eexists. apply list_lookup_middle. done.
      * destruct (H2 _ _ _ H) as [q Hq]. exists q. by apply lookup_app_l_Some.
    + intros a b p' p'' i Ha Hb. apply Hold in Ha as [(-> & -> & ->)|[_ Ha]], Hb as [(-> & -> & E)|[_ Hb]]; try done.
      * apply Hfresh in Hb. lia.
      * subst i. apply Hfresh in Ha. lia.
      * eauto.
    + rewrite fmap_app. apply NoDup_app. split; [done|]. split; [|apply NoDup_singleton].
      intros a Ha Hb. cbn in Hb. apply elem_of_list_singleton in Hb as ->. apply H5 in Ha as (p' & i & Ha). simplify_eq.
    + intros a. rewrite fmap_app, elem_of_app, H5. cbn. rewrite elem_of_list_singleton. split.
      * intros [(p' & i & Ha)| ->].
        -- exists p', i. rewrite list_lookup_insert_ne; [done|]. intros <-. simplify_eq.
        -- exists p, (length ts). by rewrite list_lookup_insert.
      * intros (p' & i & Ha). apply Hold in Ha as [(-> & _)|[_ Ha]]; [by right|left; eauto].
    + intros w' p' o Hin H. apply elem_of_app in Hin as [Hin|Hin].
      * destruct (decide (n = w_req w')) as [E|Hne].
        -- exfalso. assert (Hin' : w_req w' ∈ w_req <$> ws) by (apply elem_of_list_fmap; eauto).
           apply H5 in Hin' as (p0 & i & Hi). rewrite <-E in Hi. simplify_eq.
        -- rewrite list_lookup_insert_ne in H by done. eauto.
      * apply elem_of_list_singleton in Hin as ->. cbn [w_req w_time w_text w_ok] in *. rewrite list_lookup_insert in H by done.
        injection H as <- _. done.
  - destruct (step_threads _ _ Hs) as [_ Hkeep]. split; cbn [x_reqs x_writes x_sys]; try done.
    + intros i r q H. destruct (Hq _ _ _ H) as [q' Hq']. eauto.
    + intros n p i H. destruct (H2 _ _ _ H) as [q Hi]. eauto.
Qed.

Lemma pinv_reachable clock x : preachable L C lg clock x -> pinv x.
Proof.
  induction 1 as [|x x' _ IH Hs]; [|by eapply pinv_step]. split; cbn; try (intros; done).
  - intros i r q H. destruct i as [|[|i]]; done.
  - constructor.
  - intros n. split; [by intros ?%elem_of_nil|]. by intros (p & i & ?).
Qed.

(** ** The file *)
Lemma file_app a b : file (a ++ b) = append (file a) (file b).
Proof. induction a as [|w a IH]; [done|]. unfold file in *. cbn [foldr app]. change (foldr _ _ ((w :: a) ++ b)) with (append (w_text w) (foldr (fun w s => append (w_text w) s) "" (a ++ b))). by rewrite IH, append_assoc. Qed.

Lemma file_lines (ws : list entry_written) :
  lines (file ws) = foldr (fun w n => (lines (w_text w) + n)%nat) 0%nat ws.
Proof.
  induction ws as [|w ws IH]; [done|]. change (file (w :: ws)) with (append (w_text w) (file ws)). cbn [foldr]. unfold lines in *. by rewrite count_append, IH.
Qed.

(** ** Any execution behind the log is possible with the log *)
(** how a request is made for a goroutine that serves r *)
Definition request_of (r : request) : preq := PReq (AReq (rq_path r) (rq_query r) "GET" "" "" "") (rq_auth r).
Lemma handed_of r : handed (request_of r) = r. Proof. by destruct r. Qed.

Lemma lift clock s ok :
  (ok = false -> lg <> None) ->
  reachable L C clock s -> exists x, preachable L C lg clock x /\ x_sys x = s /\
    Forall (fun w => w_ok w = ok /\ (ok = false -> w_text w = "")) (x_writes x) /\ Forall (fun y => y.1 = request_of (handed y.1) /\ is_Some y.2) (x_reqs x).
Proof.
  intros Hok. induction 1 as [|s s' _ (x & Hx & Ex & Hw & Hn) Hs].
  { exists (pinitial L C clock). split; [apply preach_init|]. split; [done|]. split; [constructor|]. constructor. }
  subst s. destruct x as [rs ws s]. cbn [x_sys x_writes x_reqs] in *.
  assert (Hother : no_request_arrives L s s' -> exists x, preachable L C lg clock x /\ x_sys x = s' /\
    Forall (fun w => w_ok w = ok /\ (ok = false -> w_text w = "")) (x_writes x) /\ Forall (fun y => y.1 = request_of (handed y.1) /\ is_Some y.2) (x_reqs x)).
  { intros Hno. exists (Proxy rs ws s'). split; [eapply preach_step; [exact Hx|]; by apply pstep_sys|]. done. }
  destruct Hs as [m ts h kd Hkd|m ts h i kd p Hi|m ts h i kd X e k y m' Hi Hsem].
  - destruct kd as [r|id tok|tok| |].
    2: { apply Hother. intros i r q H. cbn in *. apply lookup_app_Some in H as [H|[_ H]]; [by eauto|]. by apply list_lookup_singleton_Some in H as [_ H]. }
    2: { apply Hother. intros i r q H. cbn in *. apply lookup_app_Some in H as [H|[_ H]]; [by eauto|]. by apply list_lookup_singleton_Some in H as [_ H]. }
    2: { apply Hother. intros i r q H. cbn in *. apply lookup_app_Some in H as [H|[_ H]]; [by eauto|]. by apply list_lookup_singleton_Some in H as [_ H]. }
    2: { done. }
    set (w := if ok then match lg with Some (host, port) => log_access (p_log (request_of r)) 0 host port | None => "" end else "").
    exists (Proxy (<[length rs := (request_of r, Some (length ts))]> (rs ++ [(request_of r, None)])) (ws ++ [Wrote (length rs) 0 w ok])
      (Sys m (ts ++ [(KServe (handed (request_of r)), System.start L C (KServe (handed (request_of r))))]) h)).
    split; [|split; [|split]].
    + eapply preach_step; [eapply preach_step; [exact Hx|apply (pstep_arrive _ _ _ (request_of r))]|]. apply pstep_log.
      * by rewrite list_lookup_middle.
      * unfold wrote, w. destruct lg as [[host port]|]; destruct ok; try done; [by eexists|]. exfalso. by apply Hok.
    + cbn. by rewrite handed_of.
    + cbn [x_writes]. apply Forall_app. split; [done|]. constructor; [|constructor]. cbn [w_ok w_text]. split; [done|]. by intros ->.
    + cbn [x_reqs]. rewrite insert_app_r_alt by lia. rewrite Nat.sub_diag. cbn [insert list_insert]. apply Forall_app. split; [done|].
      constructor; [|constructor]. cbn [fst snd]. by rewrite handed_of.
  - apply Hother. intros j r q H. cbn in *. destruct (decide (i = j)) as [->|Hne].
    + rewrite list_lookup_insert in H by (by eapply lookup_lt_Some). injection H as -> ->. eauto.
    + rewrite list_lookup_insert_ne in H by done. eauto.
  - apply Hother. intros j r q H. cbn in *. apply lookup_app_Some in H as [H|[_ H]].
    + destruct (decide (i = j)) as [->|Hne].
      * rewrite list_lookup_insert in H by (by eapply lookup_lt_Some). injection H as -> _. eauto.
      * rewrite list_lookup_insert_ne in H by done. eauto.
    + exfalso. destruct e; cbn in H; try (by apply lookup_nil_inv in H); try done.
      apply list_lookup_singleton_Some in H as [_ H]. done.
Qed.
End Proofs.
