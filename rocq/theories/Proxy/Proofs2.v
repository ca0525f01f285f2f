(** What is in the log file; requests that were passed on. *)
From Coq Require Import Ascii String.
From stdpp Require Import prelude gmap strings list.
From Verif.Base Require Import Str Url UrlProofs.
From Verif.AccessLog Require Import Spec Model Proofs.
From Verif.Auth Require Import Model System Trace Local Global.
From Verif.Proxy Require Import Model Proofs Spec.
Open Scope string_scope.
Open Scope list_scope.
Open Scope Z_scope.

Section Proofs2.
Context (L : lib) (C : config) (lg : logging).

Lemma passed_app a b : passed_on (a ++ b) = passed_on a ++ passed_on b.
Proof. unfold passed_on. by rewrite omap_app. Qed.

Lemma records clock x : preachable L C lg clock x -> exists l : list (areq * Z),
  Forall2 (fun w y => wrote lg y.1 y.2 (w_text w) (w_ok w)) (x_writes x) l /\ l.*1 ≡ₚ passed_on (x_reqs x).
Proof.
  induction 1 as [|x x' _ (l & Hl & Hp) Hs]; [exists []; split; [constructor|done]|].
  destruct Hs as [p rs ws s|n p t w ok rs ws m ts h Hn Hw|rs ws s s' Hs _]; cbn [x_reqs x_writes] in *.
  - exists l. split; [done|]. rewrite passed_app. cbn. by rewrite app_nil_r.
  - exists (l ++ [(p_log p, t)]). split; [apply Forall2_app; [done|]; by repeat constructor|].
    apply elem_of_list_split_length in Hn as (l1 & l2 & -> & ->).
    rewrite insert_app_r_alt by lia. rewrite Nat.sub_diag. cbn [insert list_insert].
    rewrite fmap_app. cbn [fmap list_fmap fst]. rewrite Hp, !passed_app. cbn. rewrite <-Permutation_middle, app_nil_r. apply Permutation_middle.
  - eauto.
Qed.

End Proofs2.
Section Proofs3.
Context (L : lib) (C : config).

Lemma records_written host port ws (l : list (areq * Z)) :
  Forall2 (fun w y => wrote (Some (host, port)) y.1 y.2 (w_text w) (w_ok w)) ws l -> Forall (fun w => w_ok w = true) ws ->
  file ws = concat_text ((fun y => log_access y.1 y.2 host port) <$> l).
Proof.
  induction 1 as [|w y ws l Hw _ IH]; [done|]. intros Hok. inversion Hok as [|? ? H1 H2]; subst.
  unfold wrote in Hw. rewrite H1 in Hw. change (file (w :: ws)) with (append (w_text w) (file ws)).
  rewrite Hw, IH by done. done.
Qed.

Lemma concat_lines l : lines (concat_text l) = sum_list (lines <$> l).
Proof. induction l as [|a l IH]; [done|].
  change (concat_text (a :: l)) with (append a (concat_text l)). change (sum_list (lines <$> a :: l)) with (lines a + sum_list (lines <$> l))%nat.
  rewrite <-IH. unfold lines. by rewrite count_append. Qed.

Lemma lines_of host port (l : list (areq * Z)) :
  Forall (fun y : areq * Z => one_line y.1 host port) l ->
  lines (concat_text ((fun y => log_access y.1 y.2 host port) <$> l)) = length l.
Proof.
  intros H. rewrite concat_lines. induction H as [|[r t] l [H1 H2] _ IH]; [done|].
  cbn [fmap list_fmap sum_list sum_list_with length fst snd]. change (sum_list_with id ?k) with (sum_list k) in *.
  rewrite IH. rewrite log_lines by done. cbn in H2 |- *. rewrite H2. lia.
Qed.

Lemma passed_forall (P : areq -> Prop) (l : list (areq * Z)) rs : l.*1 ≡ₚ passed_on rs ->
  Forall P (passed_on rs) -> Forall (fun y : areq * Z => P y.1) l.
Proof. intros Hp H. rewrite <-Hp in H. apply Forall_forall. intros y Hy. eapply (proj1 (Forall_forall _ _) H),  elem_of_list_fmap. eauto. Qed.

(** whole lines *)
Lemma concat_ends (l : list (areq * Z)) host port :
  let s := concat_text ((fun y => log_access y.1 y.2 host port) <$> l) in
  s = "" \/ exists s', s = append s' (String newline "").
Proof.
  induction l as [|y l IH] using rev_ind; [by left|]. right. cbn.
  rewrite fmap_app. unfold concat_text. rewrite foldr_app. cbn. fold concat_text.
  clear IH. induction l as [|z l IH]; cbn.
  - unfold log_access. exists (cef y.1 y.2 host port). by rewrite append_nil.
  - destruct IH as [s' ->]. exists (append (log_access z.1 z.2 host port) s'). by rewrite append_assoc.
Qed.

Lemma at_line clock host port x n p i :
  preachable L C (Some (host, port)) clock x -> Forall (fun w => w_ok w = true) (x_writes x) ->
  x_reqs x !! n = Some (p, Some i) ->
  exists t before after, whole_lines before /\
    file (x_writes x) = append before (append (log_access (p_log p) t host port) after).
Proof.
  intros Hx Hok Hn. destruct (pinv_reachable L C _ _ _ Hx) as [_ _ _ _ H5 H6].
  assert (Hin : n ∈ w_req <$> x_writes x) by (apply H5; eauto).
  apply elem_of_list_fmap in Hin as (w & -> & Hin).
  pose proof (H6 _ _ _ Hin Hn) as Hw. rewrite Forall_forall in Hok. unfold wrote in Hw. rewrite (Hok _ Hin) in Hw.
  rewrite <-Forall_forall in Hok.
  apply elem_of_list_split in Hin as (w1 & w2 & E).
  destruct (records L C _ clock x Hx) as (l & Hl & _). rewrite E in Hl, Hok.
  apply Forall2_app_inv_l in Hl as (l1 & l2 & Hl1 & Hl2 & ->).
  apply Forall_app in Hok as [Hok1 _].
  exists (w_time w), (file w1), (file w2). split.
  - rewrite (records_written host port w1 l1) by done. apply concat_ends.
  - rewrite E, file_app. change (file (w :: w2)) with (append (w_text w) (file w2)). by rewrite Hw.
Qed.

(** ** Results *)
Lemma finished clock s : reachable L C clock s -> forall i r o,
  s_threads s !! i = Some (KServe r, Ret o) -> exists s', finishes L C clock i (KServe r) o s'.
Proof.
  induction 1 as [|s s' Hr IH Hs]; intros i r o Hi.
  - cbn in Hi. by destruct i as [|[|i]].
  - destruct (s_threads s !! i) as [[kd p]|] eqn:E.
    + destruct p as [o'| |p'|X e k].
      * assert (E' : s_threads s' !! i = Some (kd, Ret o')).
        { clear -E Hs. destruct Hs as [m ts h kd' _|m ts h j kd' p Hj|m ts h j kd' X e k y m' Hj _]; cbn in *.
          { by apply lookup_app_l_Some. }
          { rewrite list_lookup_insert_ne; [done|]. intros ->. pose proof (eq_trans (eq_sym Hj) E). done. }
          apply lookup_app_l_Some. rewrite list_lookup_insert_ne; [done|]. intros ->. pose proof (eq_trans (eq_sym Hj) E). done. }
        rewrite Hi in E'. injection E' as <- <-. by eapply IH.
      * exists s'. split; [done|]. exists s. split; [done|]. split; [done|]. intros E'. pose proof (eq_trans (eq_sym E) E'). done.
      * exists s'. split; [done|]. exists s. split; [done|]. split; [done|]. intros E'. pose proof (eq_trans (eq_sym E) E'). done.
      * exists s'. split; [done|]. exists s. split; [done|]. split; [done|]. intros E'. pose proof (eq_trans (eq_sym E) E'). done.
    + exists s'. split; [done|]. exists s. split; [done|]. split; [done|]. intros E'. pose proof (eq_trans (eq_sym E) E'). done.
Qed.

Lemma forward_path clock i r p q s : finishes L C clock i (KServe r) (RHttp (Forward p q)) s -> p = rq_path r.
Proof.
  intros H. apply finishes_inv in H as [Hinv [n H]]. apply serve_tr, serve_not_redirect in H; [|done].
  destruct (read_id (rq_path r)) as [id|] eqn:E; [by apply read_handler_tr in H as [-> _]|].
  destruct (bool_decide _ || _); [by apply query_handler_tr in H as [-> _]|].
  destruct (bool_decide (rq_path r = "/api/v1/meta")).
  { exfalso. revert H. generalize (Auth.Spec.own i (s_log s)). intros l H. unfold meta_handler in H. destruct (bool_decide _); [by apply tr_ret in H as [_ ?]|].
    apply tr_bind_ret in H as (l1 & l2 & o & -> & H1 & H). destruct o as [u|]; [|by apply tr_ret in H as [_ ?]].
    apply tr_bind_ret in H as (l3 & l4 & o & -> & _ & H). destruct o as [m|]; [|by apply tr_ret in H as [_ ?]].
    destruct (us_admin u); [by apply tr_ret in H as [_ ?]|]. apply tr_bind_ret in H as (l5 & l6 & o & -> & _ & H).
    by apply tr_ret in H as [_ ?]. }
  destruct (bool_decide_reflect (rq_path r = "/api/v1/info")); by apply tr_ret in H as [_ [=]].
Qed.

Lemma route_lines path :
  (exists id, path = append "/api/v1/read/" id /\ has_char newline id = false) \/
  path ∈ ["/api/v1/query"; "/api/v1/query_range"; "/api/v1/info"] -> lines path = 0%nat /\ exists rest, path = append "/" rest /\ rest <> "".
Proof.
  intros [(id & -> & H)|H].
  - split; [|by eexists]. unfold lines. rewrite count_append. change (count (ascii_of_nat 10) id) with (lines id). apply has_count in H. unfold lines. change (ascii_of_nat 10) with newline. by rewrite H.
  - rewrite !elem_of_cons, elem_of_nil in H. destruct H as [->|[->|[->|[]]]]; (split; [done|by eexists]).
Qed.

Lemma director_plain tp p q rest : tp = "" \/ tp = "/" -> p = append "/" rest ->
  director tp "" p q = (p, q).
Proof. intros [->| ->] ->; unfold director; rewrite bool_decide_true by done; done. Qed.
End Proofs3.
