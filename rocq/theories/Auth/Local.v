(** What each program of the proxy may do. *)
From Coq Require Import Ascii String.
From stdpp Require Import prelude gmap strings list.
From Verif.Base Require Import Str Url.
From Verif.Promql Require Import Model Spec ProofsSelect.
From Verif.Auth Require Import Model System Spec Trace.
Open Scope string_scope.
Open Scope list_scope.
Open Scope Z_scope.

Ltac norm H :=
  unfold do in H;
  repeat first [rewrite bind_ret in H | rewrite bind_vis in H | rewrite bind_panic in H | progress cbn beta iota in H].

(** ** Facts about every action, given what came before *)
Section Each.
Context {T : Type} (E : list T -> T -> Prop).
Definition each (l : list T) : Prop := forall i x, l !! i = Some x -> E (take i l) x.
Context (Emono : forall a l x, E l x -> E (a ++ l) x).
Lemma each_nil : each [].
Proof. intros i x H. by rewrite lookup_nil in H. Qed.
Lemma each_app a b : each a -> each b -> each (a ++ b).
Proof.
  intros Ha Hb i x H. apply lookup_app_Some in H as [H|[Hi H]].
  - rewrite take_app_le by (apply lookup_lt_Some in H; lia). by apply Ha.
  - rewrite take_app_ge by lia. by apply Emono, Hb.
Qed.
Lemma each_cons x l : E [] x -> (forall i y, l !! i = Some y -> E (x :: take i l) y) -> each (x :: l).
Proof.
  intros Hx Hl [|i] y H; cbn in *; [by injection H as <-|]. by apply Hl.
Qed.
Lemma each_mid a x b : each (a ++ x :: b) -> E a x.
Proof.
  intros H. specialize (H (length a) x). rewrite take_app in H. apply H.
  rewrite lookup_app_r by lia. by rewrite Nat.sub_diag.
Qed.
End Each.
Lemma each_Forall {T} (P : T -> Prop) (E : list T -> T -> Prop) l :
  (forall a x, P x -> E a x) -> Forall P l -> each E l.
Proof. intros H Hl i x Hi. apply H. rewrite Forall_lookup in Hl. eauto. Qed.

Section Local.
Context {L : lib} {C : config}.
Implicit Types (l : list (act L)) (u : url).

Lemma calls_app l1 l2 : calls (l1 ++ l2) = calls l1 ++ calls l2.
Proof. unfold calls. apply omap_app. Qed.

(** ** Paging *)
Lemma page_of_some u r rs next : page_of L u r = Some (rs, next) ->
  exists body href, r = Some (Reply 200 body) /\ json_page L body = Some (rs, href) /\
    ((href = "" /\ next = None) \/
     exists v, href <> "" /\ url_parse L href = Some v /\ next = Some (Url (u_scheme u) (u_host u) (u_path v) (u_query v))).
Proof.
  unfold page_of. destruct r as [[st body]|]; [|done]. cbn [r_status r_body].
  destruct (bool_decide_reflect (st = 200)) as [->|]; [|done].
  destruct (json_page L body) as [[rs' href]|] eqn:E; [|done].
  destruct (bool_decide_reflect (href = "")) as [->|].
  - intros [= -> <-]. exists body, "". auto.
  - destruct (url_parse L href) as [v|] eqn:Ev; [|done]. intros [= -> <-]. exists body, href.
    split; [done|]. split; [done|]. right. by exists v.
Qed.
Lemma page_of_none u r : page_of L u r = None -> bad_answer L r.
Proof.
  unfold page_of, bad_answer. destruct r as [[st body]|]; [|done]. cbn [r_status r_body].
  destruct (bool_decide_reflect (st = 200)) as [->|]; [|by left].
  destruct (json_page L body) as [[rs' href]|] eqn:E; [|by auto].
  destruct (bool_decide_reflect (href = "")) as [->|]; [done|].
  destruct (url_parse L href) as [v|] eqn:Ev; [done|]. intros _. right; right. by exists rs', href.
Qed.

Lemma page_step_tr n tok u acc l q : tr n (page_step L tok (u, acc)) l q ->
  ((forall a, q <> Ret a) /\ (calls l = [] \/ exists r, calls l = [(u, tok, r)])) \/
  exists r, calls l = [(u, tok, r)] /\
    q = Ret (match page_of L u r with
             | None => inr None
             | Some (rs, None) => inr (Some (acc ++ rs))
             | Some (rs, Some u) => inl (u, acc ++ rs)
             end).
Proof.
  unfold page_step, do_resource_request, do_request. cbn [fst snd]. intros H. norm H.
  apply tr_inv in H as [[-> ->]|(n1 & t1 & l1 & -> & -> & _ & H)]; [by left; split; [|left]|]. norm H.
  apply tr_inv in H as [[-> ->]|(n2 & r & l2 & -> & -> & _ & H)]; [by left; split; [|left]|]. norm H.
  apply tr_inv in H as [[-> ->]|(n3 & t2 & l3 & -> & -> & _ & H)]; [by left; split; [|right; exists r]|]. norm H.
  apply tr_inv in H as [-> ->]. right. by exists r.
Qed.

Lemma not_ret_loop {S B} (body : S -> prog L (S + B)) p b :
  (forall a, p <> Ret a) -> loop body p <> Ret b.
Proof.
  destruct p as [a| |p|X e k]; intros Hp; [by destruct (Hp a)| | |].
  - by rewrite loop_panic. - by rewrite loop_tau. - by rewrite loop_vis.
Qed.

Definition confined tok u (c : call) : Prop :=
  c.1.2 = tok /\ u_host c.1.1 = u_host u /\ u_scheme c.1.1 = u_scheme u.
Lemma paginated_tr n : forall tok u acc l q, tr n (forever (page_step L tok) (u, acc)) l q ->
  Forall (confined tok u) (calls l) /\
  (forall o, q = Ret o ->
     match o with
     | Some rs => exists rs', rs = acc ++ rs' /\ pages L tok u (calls l) rs'
     | None => pages_fail L tok u (calls l)
     end).
Proof.
  induction n as [n IH] using lt_wf_ind. intros tok u acc l q H.
  unfold forever in H. apply tr_loop in H as [(p' & H & ->)|[(b & H & ->)|(n' & l1 & l2 & s & -> & -> & H1 & H2)]].
  - apply page_step_tr in H as [[Hq Hc]|(r & Hc & ->)].
    + split; [destruct Hc as [->|[r ->]]; by repeat constructor|].
      intros o E. by apply not_ret_loop in E.
    + rewrite Hc. split; [by repeat constructor|]. intros o E.
      destruct (page_of L u r) as [[rs [u'|]]|] eqn:Ep.
      * by rewrite loop_inl in E.
      * rewrite loop_inr in E. injection E as <-. exists rs. split; [done|].
        apply page_of_some in Ep as (body & href & -> & Hj & [[-> _]|(v & _ & _ & [=])]). by constructor.
      * rewrite loop_inr in E. injection E as <-. apply fail_here. by eapply page_of_none.
  - apply page_step_tr in H as [[Hq Hc]|(r & Hc & E)]; [by destruct (Hq (inr b))|].
    rewrite Hc. split; [by repeat constructor|]. intros o [= <-].
    destruct (page_of L u r) as [[rs [u'|]]|] eqn:Ep; [done| |].
    + injection E as ->. exists rs. split; [done|].
      apply page_of_some in Ep as (body & href & -> & Hj & [[-> _]|(v & _ & _ & [=])]). by constructor.
    + injection E as ->. apply fail_here. by eapply page_of_none.
  - apply page_step_tr in H1 as [[Hq Hc]|(r & Hc & E)]; [by destruct (Hq (inl s))|].
    destruct (page_of L u r) as [[rs [u'|]]|] eqn:Ep; [|done|done]. injection E as ->.
    apply page_of_some in Ep as (body & href & -> & Hj & [[_ [=]]|(v & Hh & Hv & [= ->])]).
    apply (IH n') in H2 as [Hf Hr]; [|lia]. rewrite calls_app, Hc. split.
    + constructor; [done|]. eapply Forall_impl; [exact Hf|]. done.
    + intros o Eo. specialize (Hr o Eo). destruct o as [rs'|].
      * destruct Hr as (rs'' & -> & Hp). exists (rs ++ rs''). split; [by rewrite app_assoc|].
        by eapply pages_more.
      * by eapply fail_later.
Qed.

(** ** AvailableSourceIDs *)
Lemma pages_nonempty tok u cs rs : pages L tok u cs rs -> cs <> [].
Proof. by destruct 1. Qed.

Lemma available_tr n tok l ids : tr n (available L C tok) l (Ret ids) ->
  listed L C tok (calls l) ids \/ (list_fails L C tok (calls l) /\ ids = []).
Proof.
  unfold available, listed, list_fails. intros H.
  destruct (url_parse L _) as [u|] eqn:Eu.
  2:{ apply tr_ret in H as [-> ->]. by right. }
  apply tr_bind_ret in H as (l1 & l2 & o & -> & H1 & H).
  apply paginated_tr in H1 as [_ Hr]. specialize (Hr o eq_refl). rewrite calls_app.
  destruct o as [apps|].
  2:{ apply tr_ret in H as [-> ->]. right. split; [|done]. left. by rewrite app_nil_r. }
  destruct Hr as (rs & -> & Hp). cbn [app] in H.
  destruct (url_parse L (append (cf_capi C) "/v3/service_instances")) as [v|] eqn:Ev.
  2:{ apply tr_ret in H as [-> ->]. right. split; [|done]. right. exists (calls l1), [], rs. done. }
  apply tr_bind_ret in H as (l3 & l4 & o & -> & H1 & H).
  apply paginated_tr in H1 as [_ Hr]. specialize (Hr o eq_refl). rewrite calls_app.
  destruct o as [sis|].
  2:{ apply tr_ret in H as [-> ->]. right. split; [|done]. right. exists (calls l1), (calls l3), rs.
      by rewrite app_nil_r. }
  destruct Hr as (rs' & -> & Hp'). apply tr_ret in H as [-> ->]. left.
  exists u, v, (calls l1), (calls l3), rs, rs'. split_and!; try done.
  - change (calls l1 ++ calls l3 ++ [] = calls l1 ++ calls l3). by rewrite app_nil_r.
  - change (rs_guid <$> [] ++ rs') with (rs_guid <$> rs'). by rewrite fmap_app.
Qed.

(** ** The token *)
Definition all_bytes : list ascii := map ascii_of_nat (seq 0 256).
Lemma in_all_bytes c : c ∈ all_bytes.
Proof.
  apply elem_of_list_fmap. exists (nat_of_ascii c). split; [by rewrite ascii_nat_embedding|].
  apply elem_of_seq. pose proof (nat_ascii_bounded c). lia.
Qed.
Definition same_letter_b (a b : ascii) : bool :=
  bool_decide (a = b) || bool_decide ((a, b) ∈ letter_cases) || bool_decide ((b, a) ∈ letter_cases).
Lemma same_letter_lower a b : same_letter a b <-> lower a = lower b.
Proof.
  assert (H : forallb (fun a => forallb (fun b => Bool.eqb (same_letter_b a b) (bool_decide (lower a = lower b))) all_bytes) all_bytes = true)
    by (vm_compute; reflexivity).
  rewrite forallb_forall in H. specialize (H a (proj1 (elem_of_list_In _ _) (in_all_bytes a))).
  rewrite forallb_forall in H. specialize (H b (proj1 (elem_of_list_In _ _) (in_all_bytes b))).
  apply Bool.eqb_prop in H. unfold same_letter_b in H. unfold same_letter.
  rewrite <- (bool_decide_eq_true (lower a = lower b)), <- H, !orb_true_iff, !bool_decide_eq_true. tauto.
Qed.
Lemma re_white c : re_space c = white c.
Proof.
  assert (H : forallb (fun c => Bool.eqb (re_space c) (white c)) all_bytes = true) by (vm_compute; reflexivity).
  rewrite forallb_forall in H. apply Bool.eqb_prop, H, elem_of_list_In, in_all_bytes.
Qed.
Lemma strip_word_spec w s r : (forall c, has_char c w = true -> lower c = c) -> strip_word w s = Some r ->
  exists w', s = append w' r /\ same_letters w' w.
Proof.
  revert s. induction w as [|a w IH]; intros s Hw H; cbn in H.
  - injection H as ->. exists "". split; [done|constructor].
  - destruct s as [|b s]; [done|]. unfold ceqb in H. destruct (bool_decide_reflect (a = lower b)) as [E|]; [|done].
    apply IH in H as (w' & -> & Hs).
    + exists (String b w'). split; [done|]. constructor; [|done]. apply same_letter_lower. rewrite <- E. symmetry. apply Hw. cbn. by rewrite UrlProofs.ceqb_refl.
    + intros c Hc. apply Hw. rewrite UrlProofs.has_char_cons, Hc. by destruct (ceqb c a).
Qed.
Lemma strip_word_complete w : forall w' r, (forall c, has_char c w = true -> lower c = c) -> same_letters w' w ->
  strip_word w (append w' r) = Some r.
Proof.
  induction w as [|a w IH]; intros w' r Hw H; inversion H as [|b ? s ? E Hs]; subst; [done|]. apply same_letter_lower in E.
  change (append (String b s) r) with (String b (append s r)). cbn.
  assert (Ha : lower a = a). { apply Hw. cbn. by rewrite UrlProofs.ceqb_refl. }
  unfold ceqb. rewrite bool_decide_true by congruence. apply IH; [|done].
  intros c Hc. apply Hw. rewrite UrlProofs.has_char_cons, Hc. by destruct (ceqb c a).
Qed.
Lemma bearer_lower c : has_char c "bearer" = true -> lower c = c.
Proof.
  intros H. unfold has_char in H. cbn in H.
  repeat (apply orb_true_iff in H as [H|H]; [apply UrlProofs.ceqb_true in H; by subst|]). done.
Qed.
Lemma skip_spaces_spec s : exists sp, s = append sp (skip_spaces s) /\ str_all white sp = true /\
  forall c rest, skip_spaces s = String c rest -> white c = false.
Proof.
  induction s as [|c s (sp & E & Ha & Hn)]; [by exists ""|]. cbn. rewrite re_white. destruct (white c) eqn:Ec.
  - exists (String c sp). split; [|split; [cbn; by rewrite Ec|done]].
    change (append (String c sp) (skip_spaces s)) with (String c (append sp (skip_spaces s))). congruence.
  - exists "". split; [done|]. split; [done|]. by intros ? ? [= <- <-].
Qed.
Lemma trim_bearer_spec s : carries s (trim_bearer s).
Proof.
  unfold trim_bearer. destruct (strip_word "bearer" s) as [[|c r]|] eqn:E.
  - apply carries_bare. intros w c rest -> Hw. exfalso.
    rewrite (strip_word_complete "bearer" w (String c rest) bearer_lower Hw) in E. done.
  - rewrite re_white. destruct (white c) eqn:Ec.
    + apply strip_word_spec in E as (w & -> & Hw); [|exact bearer_lower].
      destruct (skip_spaces_spec r) as (sp & Er & Ha & Hn).
      replace (String c r) with (append (String c sp) (skip_spaces r)).
      2:{ change (append (String c sp) (skip_spaces r)) with (String c (append sp (skip_spaces r))). congruence. }
      apply carries_bearer; [done|done| |done]. cbn. by rewrite Ec.
    + apply carries_bare. intros w c' rest -> Hw.
      rewrite (strip_word_complete "bearer" w (String c' rest) bearer_lower Hw) in E. by injection E as -> ->.
  - apply carries_bare. intros w c' rest -> Hw.
    by rewrite (strip_word_complete "bearer" w (String c' rest) bearer_lower Hw) in E.
Qed.

Lemma admin_spec c : existsb admin_scope (cl_scopes c) = true <-> admin c.
Proof.
  unfold admin. rewrite existsb_exists. unfold admin_scope. split.
  - intros (s & Hs & H). apply elem_of_list_In in Hs. apply orb_true_iff in H as [H|H]; apply bool_decide_eq_true in H; subst; auto.
  - intros [H|H]; [exists "logs.admin"|exists "doppler.firehose"]; (split; [by apply elem_of_list_In|done]).
Qed.

(** a token found good, in the goroutine's own actions *)
Definition good_token l (auth : string) (c : claims) : Prop :=
  exists token kid k payload t,
    carries auth token /\ jose_headers L token = Some (HString "RS256", HString kid) /\
    AKeyLoad kid (Some k) ∈ l /\ jose_verify L token k = Some payload /\ json_claims L payload = Some c /\
    ANow t ∈ l /\ t <= cl_exp c * 1000000000.
Lemma good_token_app l1 l2 l3 auth c : good_token l2 auth c -> good_token (l1 ++ l2 ++ l3) auth c.
Proof.
  intros (token & kid & k & payload & t & ? & ? & ? & ? & ? & ? & ?). exists token, kid, k, payload, t.
  rewrite !elem_of_app. naive_solver.
Qed.
Lemma load_or_fetch_tr n kid l k : tr n (load_or_fetch L C kid) l (Ret (Some k)) -> AKeyLoad kid (Some k) ∈ l.
Proof.
  unfold load_or_fetch. intros H. apply tr_bind_ret in H as (l1 & l2 & o & -> & H1 & H).
  apply tr_do_ret in H1 as [-> _]. apply elem_of_app. destruct o as [k'|].
  - apply tr_ret in H as [-> [= ->]]. left. by apply elem_of_list_singleton.
  - apply tr_bind_ret in H as (l3 & l4 & b & -> & _ & H). apply tr_do_ret in H as [-> _].
    right. apply elem_of_app. right. by apply elem_of_list_singleton.
Qed.
Lemma uaa_read_tr n auth l (u : user) : tr n (uaa_read L C auth) l (Ret (Some u)) ->
  auth <> "" /\ us_token u = auth /\ exists c, good_token l auth c /\ us_expires u = cl_exp c /\ (us_admin u = true <-> admin c).
Proof.
  unfold uaa_read. intros H.
  destruct (bool_decide_reflect (auth = "")); [by apply tr_ret in H as [_ ?]|]. split; [done|].
  destruct (jose_headers L _) as [[[|alg|] kid]|] eqn:Eh.
  - by apply tr_inv in H as [_ ?].
  - destruct (bool_decide_reflect (alg = "RS256")) as [->|]; [|by apply tr_ret in H as [_ ?]].
    destruct kid as [|kid|]; [by apply tr_inv in H as [_ ?]| |by apply tr_inv in H as [_ ?]].
    apply tr_bind_ret in H as (l1 & l2 & o & -> & H1 & H).
    destruct o as [k|]; [|by apply tr_ret in H as [_ ?]].
    apply load_or_fetch_tr in H1.
    destruct (jose_verify L _ k) as [payload|] eqn:Ev.
    + unfold accept in H. destruct (json_claims L payload) as [c|] eqn:Ec; [|by apply tr_ret in H as [_ ?]].
      apply tr_bind_ret in H as (l3 & l4 & t & -> & H2 & H). apply tr_do_ret in H2 as [-> _].
      destruct (bool_decide_reflect (cl_exp c * 1000000000 < t)); [by apply tr_ret in H as [_ ?]|].
      apply tr_ret in H as [-> [= ->]]. cbn. split; [done|]. exists c. split; [|split; [done|apply admin_spec]].
      exists (trim_bearer auth), kid, k, payload, t. split; [apply trim_bearer_spec|].
      rewrite !elem_of_app, elem_of_list_singleton. split; [done|]. split; [by left|]. do 2 (split; [done|]).
      split; [by right; left|lia].
    + apply tr_bind_ret in H as (l3 & l4 & [] & -> & _ & H). by apply tr_ret in H as [_ ?].
  - by apply tr_inv in H as [_ ?].
  - apply tr_bind_ret in H as (l3 & l4 & [] & -> & _ & H). by apply tr_ret in H as [_ ?].
Qed.

(** ** IsAuthorized *)
Definition auth_local l (tok id : string) : Prop :=
  (exists la e lb t, l = la ++ ACacheLoad tok (Some e) :: lb /\ ANow t ∈ lb /\ t < en_expires e /\ id ∈ en_ids e) \/
  (exists la ts lb before cs ids, l = la ++ ANow ts :: lb /\ calls la = before ++ cs /\ listed L C tok cs ids /\ id ∈ ids).
Lemma auth_local_app l1 l2 l3 tok id : auth_local l2 tok id -> auth_local (l1 ++ l2 ++ l3) tok id.
Proof.
  intros [(la & e & lb & t & -> & Ht & ? & ?)|(la & ts & lb & before & cs & ids & -> & Hc & ? & ?)].
  - left. exists (l1 ++ la), e, (lb ++ l3), t. rewrite <- !app_assoc. split; [done|]. split; [apply elem_of_app; by left|done].
  - right. exists (l1 ++ la), ts, (lb ++ l3), (calls l1 ++ before), cs, ids. rewrite <- !app_assoc. split; [done|].
    split; [by rewrite calls_app, Hc|done].
Qed.
Lemma fetch_tr n id tok retry l : tr n (fetch L C id tok retry) l (Ret true) -> auth_local l tok id.
Proof.
  unfold fetch. intros H. apply tr_bind_ret in H as (l1 & l2 & ids & -> & H1 & H).
  apply tr_bind_ret in H as (l3 & l4 & t & -> & H2 & H). apply tr_do_ret in H2 as [-> _].
  apply tr_bind_ret in H as (l5 & l6 & [] & -> & H2 & H). apply tr_ret in H as [-> E].
  unfold contained in E. symmetry in E. apply bool_decide_eq_true in E.
  apply available_tr in H1 as [H1|[_ ->]]; [|by apply elem_of_nil in E].
  right. exists l1, t, (l5 ++ []), [], (calls l1), ids. done.
Qed.
Lemma is_authorized_tr n id tok l : tr n (is_authorized L C id tok) l (Ret true) -> auth_local l tok id.
Proof.
  unfold is_authorized. intros H. apply tr_bind_ret in H as (l1 & l2 & o & -> & H1 & H).
  apply tr_do_ret in H1 as [-> _]. destruct o as [e|].
  2:{ apply fetch_tr in H. rewrite <- (app_nil_r l2). by apply auth_local_app. }
  apply tr_bind_ret in H as (l3 & l4 & t & -> & H2 & H). apply tr_do_ret in H2 as [-> _].
  assert (Hf : forall r, tr n (fetch L C id tok r) l4 (Ret true) ->
                         auth_local ([act_of (CacheLoad tok) (Some e)] ++ [act_of Now t] ++ l4) tok id).
  { intros r Hr. apply fetch_tr in Hr. rewrite <- (app_nil_r l4), app_assoc. by apply auth_local_app. }
  destruct (bool_decide_reflect (t < en_expires e)); [|by eapply Hf].
  destruct (contained (en_ids e) id) eqn:Ec.
  - apply tr_ret in H as [-> _]. left. exists [], e, [ANow t], t. split; [done|]. split; [by apply elem_of_list_singleton|].
    split; [done|]. by apply bool_decide_eq_true in Ec.
  - destruct (bool_decide (3 <= en_retry e)); [by apply tr_ret in H as [_ ?]|]. by eapply Hf.
Qed.

(** ** The handlers *)
Lemma read_handler_tr n id r l p q : tr n (read_handler L C id r) l (Ret (Forward p q)) ->
  p = rq_path r /\ q = rq_query r /\ exists c, good_token l (rq_auth r) c /\ (admin c \/ auth_local l (rq_auth r) id).
Proof.
  unfold read_handler. intros H. destruct (bool_decide_reflect (rq_auth r = "")); [by apply tr_ret in H as [_ ?]|].
  apply tr_bind_ret in H as (l1 & l2 & o & -> & H1 & H).
  destruct o as [u|]; [|by apply tr_ret in H as [_ ?]].
  apply uaa_read_tr in H1 as (_ & Et & c & Hg & _ & Ha).
  assert (Hg' : good_token (l1 ++ l2) (rq_auth r) c) by (by apply (good_token_app [])).
  destruct (us_admin u) eqn:Ea.
  - apply tr_ret in H as [-> [= -> ->]]. split; [done|]. split; [done|]. exists c. split; [done|]. left. by apply Ha.
  - apply tr_bind_ret in H as (l3 & l4 & [] & -> & H2 & H).
    2:{ by apply tr_ret in H as [_ ?]. }
    apply tr_ret in H as [-> [= -> ->]]. split; [done|]. split; [done|]. exists c. split; [done|]. right.
    apply is_authorized_tr in H2. rewrite Et in H2. by apply auth_local_app.
Qed.

Lemma intersection_spec ids (m : gmap string (meta_info L)) id :
  intersection L ids m !! id = if decide (id ∈ ids) then m !! id else None.
Proof.
  unfold intersection. set (f := fun acc id => match m !! id with Some v => <[id := v]> acc | None => acc end).
  assert (H : forall acc, (forall x, acc !! x = None \/ acc !! x = m !! x) ->
            foldl f acc ids !! id = if decide (id ∈ ids) then m !! id else acc !! id).
  { induction ids as [|i ids IH]; intros acc Hacc; [done|]. cbn [foldl]. rewrite IH.
    - unfold f at 1. destruct (decide (id ∈ ids)) as [Hi|Hi].
      + by rewrite decide_True by (by right).
      + destruct (decide (i = id)) as [->|Hn].
        * rewrite decide_True by left. destruct (m !! id) eqn:E; [by rewrite lookup_insert|].
          destruct (Hacc id); congruence.
        * rewrite decide_False by (rewrite elem_of_cons; naive_solver).
          destruct (m !! i); [by rewrite lookup_insert_ne|done].
    - intros x. unfold f. destruct (m !! i) eqn:E; [|done]. destruct (decide (i = x)) as [->|Hn].
      + right. by rewrite lookup_insert, E.
      + rewrite lookup_insert_ne by done. apply Hacc. }
  rewrite H; [|by left]. by rewrite lookup_empty.
Qed.
Lemma meta_handler_tr n r l m : tr n (meta_handler L C r) l (Ret (MetaBody m)) ->
  exists c la lb backend, good_token l (rq_auth r) c /\ l = la ++ AMeta (Some backend) :: lb /\
    ((admin c /\ m = backend) \/
     (~ admin c /\ exists ids, (listed L C (rq_auth r) (calls lb) ids \/ (list_fails L C (rq_auth r) (calls lb) /\ ids = [])) /\
        forall id, m !! id = if decide (id ∈ ids) then backend !! id else None)).
Proof.
  unfold meta_handler. intros H. destruct (bool_decide_reflect (rq_auth r = "")); [by apply tr_ret in H as [_ ?]|].
  apply tr_bind_ret in H as (l1 & l2 & o & -> & H1 & H).
  destruct o as [u|]; [|by apply tr_ret in H as [_ ?]].
  apply uaa_read_tr in H1 as (_ & Et & c & Hg & _ & Ha).
  apply tr_bind_ret in H as (l3 & l4 & o & -> & H1 & H). apply tr_do_ret in H1 as [-> _].
  destruct o as [backend|]; [|by apply tr_ret in H as [_ ?]].
  exists c, l1, l4, backend. split; [by apply (good_token_app [])|]. split; [done|].
  destruct (us_admin u) eqn:Ea.
  - apply tr_ret in H as [-> [= ->]]. left. split; [by apply Ha|done].
  - apply tr_bind_ret in H as (l5 & l6 & ids & -> & H2 & H). apply tr_ret in H as [-> [= ->]].
    right. split; [by rewrite <- Ha|]. exists ids. rewrite app_nil_r. split; [by eapply available_tr|].
    intros id. apply intersection_spec.
Qed.

(** ** Queries *)
Definition page_guid l (x : string) : Prop :=
  exists u tok body rs href, ACapi u tok (Some (Reply 200 body)) ∈ l /\ json_page L body = Some (rs, href) /\
    x ∈ rs_guid <$> rs.
Lemma page_guid_app l1 l2 l3 x : page_guid l2 x -> page_guid (l1 ++ l2 ++ l3) x.
Proof. intros (u & tok & body & rs & href & ? & ? & ?). exists u, tok, body, rs, href. rewrite !elem_of_app. naive_solver. Qed.
Lemma calls_elem l u tok r : (u, tok, r) ∈ calls l -> ACapi u tok r ∈ l.
Proof.
  unfold calls. rewrite elem_of_list_omap. intros (a & Ha & E). destruct a; try done. by injection E as <- <- <-.
Qed.
Lemma pages_guids tok u cs rs x : pages L tok u cs rs -> x ∈ rs_guid <$> rs ->
  exists v body ps href, (v, tok, Some (Reply 200 body)) ∈ cs /\ json_page L body = Some (ps, href) /\ x ∈ rs_guid <$> ps.
Proof.
  induction 1 as [u body rs Hj|u body rs href v cs rs' Hj Hh Hv Hp IH]; intros Hx.
  - exists u, body, rs, "". split; [by left|done].
  - rewrite fmap_app in Hx. apply elem_of_app in Hx as [Hx|Hx].
    + exists u, body, rs, href. split; [by left|done].
    + apply IH in Hx as (v' & b' & ps & h' & ? & ? & ?). exists v', b', ps, h'. split; [by right|done].
Qed.
Lemma listed_guids tok cs ids x : listed L C tok cs ids -> x ∈ ids ->
  exists v body ps href, (v, tok, Some (Reply 200 body)) ∈ cs /\ json_page L body = Some (ps, href) /\ x ∈ rs_guid <$> ps.
Proof.
  intros (u & v & c1 & c2 & rs1 & rs2 & _ & _ & -> & H1 & H2 & ->) Hx. rewrite fmap_app in Hx.
  apply elem_of_app in Hx as [Hx|Hx].
  - eapply pages_guids in H1 as (v' & b & ps & h & ? & ? & ?); [|exact Hx]. exists v', b, ps, h. rewrite elem_of_app. eauto.
  - eapply pages_guids in H2 as (v' & b & ps & h & ? & ? & ?); [|exact Hx]. exists v', b, ps, h. rewrite elem_of_app. eauto.
Qed.

(** the expansions CAPI gives: never empty, and made of guids it listed *)
Definition sets_ok l (sets : gmap string (list string)) : Prop :=
  forall k ids, sets !! k = Some ids -> ids <> [] /\ forall x, x ∈ ids -> page_guid l x.
Lemma fold_guids rs k ids : foldl add_guid ∅ rs !! k = Some ids -> ids <> [] /\ forall x, x ∈ ids -> x ∈ rs_guid <$> rs.
Proof.
  assert (H : forall m, (forall k ids, m !! k = Some ids -> ids <> []) ->
     forall k ids, foldl add_guid m rs !! k = Some ids ->
       ids <> [] /\ forall x, x ∈ ids -> x ∈ rs_guid <$> rs \/ exists ids', m !! k = Some ids' /\ x ∈ ids').
  { induction rs as [|r rs IH]; intros m Hm k' ids' E; cbn [foldl] in E.
    - split; [by eapply Hm|]. intros x Hx. right. eauto.
    - apply IH in E as [Hne Hx].
      + split; [done|]. intros x Hi. rewrite fmap_cons, elem_of_cons. destruct (Hx x Hi) as [?|(i & E & Hi')]; [by auto|].
        unfold add_guid in E. destruct (decide (rs_name r = k')) as [<-|Hn].
        * rewrite lookup_insert in E. injection E as <-. apply elem_of_app in Hi' as [Hi'|Hi'].
          -- destruct (m !! rs_name r) eqn:Em; cbn in Hi'; [by eauto|by apply elem_of_nil in Hi'].
          -- apply elem_of_list_singleton in Hi'. auto.
        * rewrite lookup_insert_ne in E by done. eauto.
      + intros k2 i2 E2. unfold add_guid in E2. destruct (decide (rs_name r = k2)) as [<-|Hn].
        * rewrite lookup_insert in E2. injection E2 as <-. by destruct (default _ _).
        * rewrite lookup_insert_ne in E2 by done. by eapply Hm. }
  intros E. apply H in E as [Hne Hx]; [|done]. split; [done|]. intros x Hi.
  destruct (Hx x Hi) as [?|(? & E & _)]; [done|]. by rewrite lookup_empty in E.
Qed.
Lemma related_tr n names tok l sets : tr n (related L C names tok) l (Ret sets) -> sets_ok l sets.
Proof.
  unfold related. intros H. assert (Hempty : sets_ok l ∅) by (intros k ids E; by rewrite lookup_empty in E).
  destruct names as [|nm names]; [by apply tr_ret in H as [-> ->]|].
  destruct (url_parse L _) as [u|]; [|by apply tr_ret in H as [-> ->]].
  apply tr_bind_ret in H as (l1 & l2 & o & -> & H1 & H).
  destruct o as [rs|]; [|by apply tr_ret in H as [-> ->]].
  apply tr_ret in H as [-> ->]. apply paginated_tr in H1 as [_ Hr]. destruct (Hr _ eq_refl) as (rs' & -> & Hp).
  intros k ids E. apply fold_guids in E as [Hne Hx]. split; [done|]. intros x Hi.
  eapply pages_guids in Hp as (v & body & ps & href & Hc & Hj & Hg); [|by apply Hx].
  exists v, tok, body, ps, href. rewrite app_nil_r. split; [by apply calls_elem|done].
Qed.
Lemma authorize_ids_tr n tok : forall ids l out, tr n (authorize_ids L C ids tok) l (Ret out) ->
  forall x, x ∈ out -> x ∈ ids /\ auth_local l tok x.
Proof.
  induction ids as [|id ids IH]; intros l out H x Hx; cbn in H.
  - apply tr_ret in H as [-> ->]. by apply elem_of_nil in Hx.
  - apply tr_bind_ret in H as (l1 & l2 & ok & -> & H1 & H).
    apply tr_bind_ret in H as (l3 & l4 & rest & -> & H2 & H). apply tr_ret in H as [-> ->].
    assert (Hrest : x ∈ rest -> x ∈ id :: ids /\ auth_local (l1 ++ l3 ++ []) tok x).
    { intros Hr. apply (IH _ _ H2) in Hr as [? ?]. split; [by right|]. by apply auth_local_app. }
    destruct ok; [|by apply Hrest]. apply elem_of_cons in Hx as [->|Hx]; [|by apply Hrest].
    split; [left|]. apply is_authorized_tr in H1. apply (auth_local_app []). done.
Qed.
Lemma expand_tr n c : us_admin c = false -> forall ids l sets sets', tr n (expand L C ids sets c) l (Ret (Some sets')) ->
  (forall k, k ∉ ids -> sets' !! k = sets !! k) /\
  (forall k, k ∈ ids -> exists out, sets' !! k = Some out /\ out <> [] /\ forall x, x ∈ out -> auth_local l (us_token c) x).
Proof.
  intros Ha ids. induction ids as [|id ids IH]; intros l sets sets' H; cbn in H.
  - apply tr_ret in H as [-> [= ->]]. split; [done|]. intros k Hk. by apply elem_of_nil in Hk.
  - rewrite Ha in H. apply tr_bind_ret in H as (l1 & l2 & out & -> & H1 & H).
    destruct out as [|y out]; [by apply tr_ret in H as [_ ?]|].
    apply IH in H as [Hn Hi]. split.
    + intros k Hk. apply not_elem_of_cons in Hk as [? ?]. rewrite Hn by done. by rewrite lookup_insert_ne.
    + intros k Hk. destruct (decide (k ∈ ids)) as [Hk'|Hk'].
      * destruct (Hi k Hk') as (o & ? & ? & Hx). exists o. split; [done|]. split; [done|]. intros x Hxo.
        rewrite <- (app_nil_r l2). apply auth_local_app. auto.
      * apply elem_of_cons in Hk as [->|?]; [|done]. rewrite Hn, lookup_insert by done. exists (y :: out).
        split; [done|]. split; [done|]. intros x Hx. apply (auth_local_app []).
        by eapply authorize_ids_tr in Hx as [_ ?].
Qed.
Lemma query_handler_tr n r l p q : tr n (query_handler L C r) l (Ret (Forward p q)) ->
  p = rq_path r /\ exists e sets c,
    promql_parse L (vget "query" (parse_query (rq_query r))) = Some e /\
    q = encode_query (vset "query" (promql_print L (replace_ids sets e)) (parse_query (rq_query r))) /\
    good_token l (rq_auth r) c /\
    (admin c \/
     (forall k ids, sets !! k = Some ids -> ids <> [] /\ forall x, x ∈ ids -> page_guid l x \/ auth_local l (rq_auth r) x) /\
     (forall id, id ∈ expr_ids e -> exists out, sets !! id = Some out /\ out <> [] /\ forall x, x ∈ out -> auth_local l (rq_auth r) x)).
Proof.
  unfold query_handler. intros H. destruct (bool_decide_reflect (rq_auth r = "")); [by apply tr_ret in H as [_ ?]|].
  destruct (promql_parse L _) as [e|] eqn:Ee; [|by apply tr_ret in H as [_ ?]].
  apply tr_bind_ret in H as (l1 & l2 & ids & -> & H1 & H). apply tr_do_ret in H1 as [-> Hids]. cbn in Hids.
  destruct ids as [|i0 ids0]; [by apply tr_ret in H as [_ ?]|]. set (ids := i0 :: ids0) in *. clearbody ids.
  apply tr_bind_ret in H as (l3 & l4 & o & -> & H1 & H).
  destruct o as [u|]; [|by apply tr_ret in H as [_ ?]].
  apply uaa_read_tr in H1 as (_ & Et & c & Hg & _ & Ha).
  apply tr_bind_ret in H as (l5 & l6 & sets0 & -> & H1 & H).
  apply related_tr in H1.
  apply tr_bind_ret in H as (l7 & l8 & o & -> & H2 & H).
  destruct o as [sets|]; [|by apply tr_ret in H as [_ ?]].
  apply tr_ret in H as [-> [= -> ->]]. split; [done|]. exists e, sets, c. split; [done|]. split; [done|].
  split. { by apply good_token_app. }
  destruct (us_admin u) eqn:Eu; [left; by apply Ha|right].
  eapply expand_tr in H2 as [Hn Hi]; [|done].
  assert (Hmem : forall x, x ∈ ids <-> x ∈ expr_ids e).
  { intros x. rewrite Hids. unfold id_set. by rewrite elem_of_elements, elem_of_list_to_set. }
  assert (Hin : forall id, id ∈ ids -> exists out, sets !! id = Some out /\ out <> [] /\
     forall x, x ∈ out -> auth_local ([act_of (Order (id_set (expr_ids e))) ids] ++ l3 ++ l5 ++ l7 ++ []) (rq_auth r) x).
  { intros id Hid. destruct (Hi id Hid) as (out & ? & ? & Hx). exists out. split; [done|]. split; [done|].
    intros x Hxo. rewrite (app_assoc l3), app_assoc. apply auth_local_app. rewrite <- Et. auto. }
  split.
  - intros k out E. destruct (decide (k ∈ ids)) as [Hk|Hk].
    + destruct (Hin k Hk) as (out' & E' & ? & Hx). rewrite E in E'. injection E' as <-. split; [done|]. intros x Hxo. right. auto.
    + rewrite Hn in E by done. apply H1 in E as [? Hx]. split; [done|]. intros x Hxo. left.
      rewrite app_assoc. apply page_guid_app. auto.
  - intros id Hid. apply Hin. by apply Hmem.
Qed.

(** ** Keys and cache entries that get stored *)
Definition key_evidence l (x : act L) : Prop :=
  match x with
  | AKeyStore kid k => exists body ks pem, AUaa (Some (Reply 200 body)) ∈ l /\ json_keys L body = Some ks /\
                         (kid, pem) ∈ ks /\ rsa_key L pem = Some k
  | _ => True
  end.
Definition cache_evidence l (x : act L) : Prop :=
  match x with
  | ACacheStore tok e => exists l0 ts, l = l0 ++ [ANow ts] /\ en_expires e = ts + cf_cache C /\
                           (en_ids e = [] \/ exists before cs, calls l0 = before ++ cs /\ listed L C tok cs (en_ids e))
  | _ => True
  end.
Definition evidence l x := key_evidence l x /\ cache_evidence l x.
Lemma evidence_mono a l x : evidence l x -> evidence (a ++ l) x.
Proof.
  intros [Hk Hc]. split; destruct x; try done; cbn in *.
  - destruct Hk as (body & ks & pem & ? & ?). exists body, ks, pem. rewrite elem_of_app. auto.
  - destruct Hc as (l0 & ts & -> & ? & Hc). exists (a ++ l0), ts. rewrite app_assoc. split; [done|]. split; [done|].
    destruct Hc as [?|(before & cs & Ec & ?)]; [by left|]. right. exists (calls a ++ before), cs.
    by rewrite calls_app, Ec, app_assoc.
Qed.
Lemma evidence_app a b : each evidence a -> each evidence b -> each evidence (a ++ b).
Proof. apply each_app, evidence_mono. Qed.
Notation sound := (holds (each evidence)).

Lemma each_one (E : list (act L) -> act L -> Prop) x : E [] x -> each E [x].
Proof. intros H. apply each_cons; [done|]. intros i y Hy. by rewrite lookup_nil in Hy. Qed.
Lemma sound_do {X} (e : eff L X) : (forall x, evidence [] (act_of e x)) -> sound (do e).
Proof. intros H. apply holds_do; [apply each_nil|]. intros x _. by apply each_one. Qed.
Lemma sound_ret {A} (a : A) : sound (@Ret L A a).
Proof. apply holds_ret, each_nil. Qed.
Lemma sound_panic {A} : sound (@Panic L A).
Proof. apply holds_panic, each_nil. Qed.
Lemma sound_bind {A B} (p : prog L A) (f : A -> prog L B) : sound p -> (forall a, sound (f a)) -> sound (bind p f).
Proof. apply holds_bind, evidence_app. Qed.
Lemma sound_forever {S B} (body : S -> prog L (S + B)) s : (forall s, sound (body s)) -> sound (forever body s).
Proof. apply holds_forever, evidence_app. Qed.
Hint Resolve sound_ret sound_panic : core.
Ltac quiet := apply sound_do; done.
Ltac chain := apply sound_bind; [try quiet|intros ?].

Definition stores (ks : list (string * string)) (x : act L) : Prop :=
  exists kid pem k, x = AKeyStore kid k /\ (kid, pem) ∈ ks /\ rsa_key L pem = Some k.
Lemma store_keys_stores n : forall ks cur l q, tr n (store_keys L ks cur) l q -> Forall (stores ks) l.
Proof.
  induction ks as [|[kid pem] ks IH]; intros cur l q H; cbn in H.
  - by apply tr_inv in H as [-> _].
  - destruct (bool_decide (pem = "")); [by apply tr_inv in H as [-> _]|].
    destruct (rsa_key L pem) as [k|] eqn:Ek; [|by apply tr_inv in H as [-> _]].
    assert (H0 : stores ((kid, pem) :: ks) (act_of (KeyStore kid k) ())).
    { exists kid, pem, k. split; [done|]. split; [left|done]. }
    apply tr_bind in H as [(p' & H & _)|(l1 & l2 & [] & -> & H1 & H)].
    + apply tr_inv in H as [[-> _]|(n' & [] & l' & _ & -> & _ & H)]; [done|]. apply tr_inv in H as [-> _]. by constructor.
    + apply tr_do_ret in H1 as [-> _]. constructor; [done|]. apply IH in H. eapply Forall_impl; [exact H|].
      intros x (kid' & pem' & k' & -> & ? & ?). exists kid', pem', k'. split; [done|]. split; [by right|done].
Qed.
Lemma delete_keys_sound kids : sound (delete_keys L kids).
Proof. induction kids as [|k ks IH]; cbn; [done|]. by chain. Qed.
Lemma delete_keys_deletes n : forall kids l q, tr n (delete_keys L kids) l q -> Forall (fun x => exists k, x = AKeyDelete k) l.
Proof.
  induction kids as [|k kids IH]; intros l q H; cbn in H; [by apply tr_inv in H as [-> _]|].
  apply tr_bind in H as [(p' & H & _)|(l1 & l2 & [] & -> & H1 & H)].
  - apply tr_inv in H as [[-> _]|(n' & [] & l' & _ & -> & _ & H)]; [done|]. apply tr_inv in H as [-> _].
    constructor; [by exists k|done].
  - apply tr_do_ret in H1 as [-> _]. constructor; [by exists k|]. by eapply IH.
Qed.
Lemma refresh_sound : sound (refresh L C).
Proof.
  unfold refresh. chain. chain. destruct (bool_decide _); [done|]. chain. chain.
  intros n l q H. norm H. apply tr_inv in H as [[-> _]|(n1 & r & l1 & -> & -> & _ & H)]; [apply each_nil|].
  norm H. apply each_cons; [done|].
  assert (Hd : forall l', l' = [] -> forall i y, l' !! i = Some y -> evidence (act_of UaaGet r :: take i l') y).
  { intros l' -> i y Hy. by rewrite lookup_nil in Hy. }
  destruct r as [[st body]|]; [|apply tr_inv in H as [-> _]; by apply Hd]. cbn [r_status r_body] in H.
  destruct (bool_decide_reflect (st = 200)) as [->|]; [|apply tr_inv in H as [-> _]; by apply Hd].
  destruct (json_keys L body) as [ks|] eqn:Ej; [|apply tr_inv in H as [-> _]; by apply Hd].
  assert (Hev : Forall (fun x => stores ks x \/ (forall a, evidence a x)) l1).
  { norm H. apply tr_inv in H as [[-> _]|(n2 & cur & l2 & -> & -> & _ & H)]; [done|]. norm H.
    constructor; [by right|].
    apply tr_bind in H as [(p' & H & _)|(l3 & l4 & o & -> & H1 & H)].
    - apply store_keys_stores in H. eapply Forall_impl; [exact H|]. auto.
    - apply Forall_app. split.
      + apply store_keys_stores in H1. eapply Forall_impl; [exact H1|]. auto.
      + destruct o as [left|]; [|by apply tr_inv in H as [-> _]].
        apply tr_bind in H as [(p' & H & _)|(l5 & l6 & [] & -> & H2 & H)].
        * apply delete_keys_deletes in H. eapply Forall_impl; [exact H|]. intros x [k ->]. by right.
        * apply tr_inv in H as [-> _]. rewrite app_nil_r.
          apply delete_keys_deletes in H2. eapply Forall_impl; [exact H2|]. intros x [k ->]. by right. }
  intros i y Hy. rewrite Forall_lookup in Hev. destruct (Hev i y Hy) as [(kid & pem & k & -> & ? & ?)|Hq]; [|apply Hq].
  split; [|done]. exists body, ks, pem. split; [left|done].
Qed.
Lemma paginated_sound u tok : sound (paginated L u tok).
Proof.
  apply sound_forever. intros [v acc]. unfold page_step, do_resource_request, do_request. chain; [|done].
  chain; [|done]. chain. chain. by chain.
Qed.
Lemma available_sound tok : sound (available L C tok).
Proof.
  unfold available. destruct (url_parse L _); [|done]. chain; [apply paginated_sound|].
  destruct a; [|done]. destruct (url_parse L _); [|done]. chain; [apply paginated_sound|]. by destruct a.
Qed.
Lemma related_sound names tok : sound (related L C names tok).
Proof.
  unfold related. destruct names; [done|]. destruct (url_parse L _); [|done]. chain; [apply paginated_sound|]. by destruct a.
Qed.
Lemma fetch_sound id tok retry : sound (fetch L C id tok retry).
Proof.
  intros n l q H. unfold fetch in H.
  apply tr_bind in H as [(p' & H & _)|(l1 & l2 & ids & -> & H1 & H)]; [by eapply available_sound|].
  pose proof (available_sound _ _ _ _ H1) as Hs. apply available_tr in H1. norm H.
  apply tr_inv in H as [[-> _]|(n1 & t & l3 & -> & -> & _ & H)]; [by rewrite app_nil_r|]. norm H.
  apply tr_inv in H as [[-> _]|(n2 & [] & l4 & -> & -> & _ & H)]; [apply evidence_app; [done|by apply each_one]|].
  norm H. apply tr_inv in H as [-> _].
  intros i x Hi. apply lookup_app_Some in Hi as [Hi|[Hi Hx]].
  - rewrite take_app_le by (apply lookup_lt_Some in Hi; lia). by apply Hs.
  - rewrite take_app_ge by lia. destruct (i - length l1)%nat as [|[|j]]; cbn in Hx; [by injection Hx as <-| |done].
    injection Hx as <-. split; [done|]. exists l1, t. split; [done|]. split; [done|]. cbn.
    destruct H1 as [H1|[_ ->]]; [|by left]. right. exists [], (calls l1). done.
Qed.
Lemma is_authorized_sound id tok : sound (is_authorized L C id tok).
Proof.
  unfold is_authorized. chain. destruct a as [e|]; [|apply fetch_sound]. chain.
  destruct (bool_decide _); [|apply fetch_sound]. destruct (contained _ _); [done|]. destruct (bool_decide _); [done|apply fetch_sound].
Qed.
Lemma uaa_read_sound tok : sound (uaa_read L C tok).
Proof.
  unfold uaa_read. destruct (bool_decide _); [done|]. destruct (jose_headers L _) as [[[|alg|] kid]|]; [done| |done|by chain].
  destruct (bool_decide _); [|done]. destruct kid as [|kid|]; [done| |done]. chain.
  { unfold load_or_fetch. chain. destruct a; [done|]. chain; [apply refresh_sound|quiet]. }
  destruct a as [k|]; [|done]. destruct (jose_verify L _ k); [|by chain]. unfold accept. destruct (json_claims L s); [|done].
  chain. by destruct (bool_decide _).
Qed.
Lemma authorize_ids_sound tok ids : sound (authorize_ids L C ids tok).
Proof. induction ids as [|id ids IH]; cbn; [done|]. chain; [apply is_authorized_sound|]. by chain. Qed.
Lemma expand_sound c : forall ids sets, sound (expand L C ids sets c).
Proof.
  induction ids as [|id ids IH]; intros sets; cbn; [done|]. destruct (us_admin c); [apply IH|].
  chain; [apply authorize_ids_sound|]. destruct a; [done|apply IH].
Qed.
Lemma serve_sound r : sound (serve L C r).
Proof.
  unfold serve. destruct (bool_decide _); [|done]. destruct (read_id _) as [id|].
  { unfold read_handler. destruct (bool_decide _); [done|]. chain; [apply uaa_read_sound|]. destruct a as [u|]; [|done].
    destruct (us_admin u); [done|]. chain; [apply is_authorized_sound|]. by destruct a. }
  destruct (bool_decide _ || _).
  { unfold query_handler. destruct (bool_decide _); [done|]. destruct (promql_parse L _); [|done]. chain.
    destruct a as [|i ids]; [done|]. chain; [apply uaa_read_sound|]. destruct a as [u|]; [|done].
    chain; [apply related_sound|]. chain; [apply expand_sound|]. by destruct a0. }
  destruct (bool_decide _); [|by destruct (bool_decide _)].
  unfold meta_handler. destruct (bool_decide _); [done|]. chain; [apply uaa_read_sound|]. destruct a as [u|]; [|done].
  chain. destruct a as [m|]; [|done]. destruct (us_admin u); [done|]. chain; [apply available_sound|done].
Qed.
Lemma prune_sound : sound (forever (prune_step L) ()).
Proof.
  apply sound_forever. intros s. unfold prune_step. chain. chain. chain; [|done].
  induction a0 as [|[tok e] es IH]; cbn; [done|]. destruct (bool_decide _); [|done]. by chain.
Qed.
Lemma start_sound kd : sound (start L C kd).
Proof.
  destruct kd; cbn [start]; (apply sound_bind; [|by intros ?]);
    auto using serve_sound, is_authorized_sound, uaa_read_sound, refresh_sound, prune_sound.
Qed.

(** what a finished request did *)
Lemma serve_tr n r l o : tr n (start L C (KServe r)) l (Ret (RHttp o)) -> tr n (serve L C r) l (Ret o).
Proof.
  cbn [start]. intros H. apply tr_bind_ret in H as (l1 & l2 & o' & -> & H1 & H). apply tr_ret in H as [-> [= ->]].
  by rewrite app_nil_r.
Qed.
End Local.
