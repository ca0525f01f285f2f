(** A cluster that talks in bytes does what the cluster of messages does. *)
From Coq Require Import Ascii String.
From stdpp Require Import prelude strings list gmap.
From Verif.Base Require Import GoInt Envelope.
From Verif.Json Require Import Spec SpecPb.
From Verif.Store Require Import Model Spec.
From Verif.Routing Require Import Model Spec ProofsProxy.
From Verif.Whole Require Import Model Spec Proofs.
From Verif.Http Require Import Model.
From Verif.Wire Require Import Format Model Spec FormatProofs Proofs Received Frame SpecFrame FrameProofs Control Cluster SpecCluster NodeProofs.
Open Scope Z_scope.

(** ** Reads that were received *)
Definition good_read (r : read_request) : Prop := sized_read r /\ utf8 (rr_source r) /\ utf8 (rr_name r).
Lemma wrap32_int n : int32 (wrap32 n).
Proof. unfold int32, wrap32. pose proof (Z.mod_pos_bound (n + 2^31) (2^32) ltac:(done)). lia. Qed.
Lemma get_type_sized n : sized_type (get_type n).
Proof.
  unfold get_type. pose proof (wrap32_int n) as H. generalize dependent (wrap32 n). clear n. intros n H. unfold Gateway.Model.type_number.
  repeat (case_match; try done). split; [done|]. repeat match goal with E : (_ =? _) = false |- _ => apply Z.eqb_neq in E end. lia.
Qed.
Lemma good_rr src a b l ts d nf : int64 a -> int64 b -> int64 l -> Forall sized_type ts -> utf8 src -> utf8 nf -> good_read (mk_rr src a b l ts d nf).
Proof. intros. split; [|done]. unfold sized_read. cbn [rr_start rr_end rr_limit rr_types]. done. Qed.
Lemma read_good s r : unmarshal_read s = Some r -> good_read r.
Proof.
  unfold unmarshal_read. apply (merge_inv _ good_read).
  2:{ apply good_rr; try done; apply utf8_nil. }
  intros a f b Hr Ha H. destruct Ha as ((H1 & H2 & H3 & H4) & H5 & H6). destruct f as [k w]. unfold read_step in H. cbn [snd] in Hr.
  destruct (k =? 1). { eapply (get_text_inv good_read); [| |exact H]; [done|]. intros x Hx. by apply good_rr. }
  destruct (k =? 2). { eapply (get_int_inv good_read); [exact Hr| | |exact H]; [done|]. intros x Hx. apply good_rr; try done; apply wrap64_int. }
  destruct (k =? 3). { eapply (get_int_inv good_read); [exact Hr| | |exact H]; [done|]. intros x Hx. apply good_rr; try done; apply wrap64_int. }
  destruct (k =? 4). { eapply (get_int_inv good_read); [exact Hr| | |exact H]; [done|]. intros x Hx. apply good_rr; try done; apply wrap64_int. }
  destruct (k =? 5).
  { destruct w as [n|n|n|s0]; try (by injection H as <-).
    - injection H as <-. apply good_rr; try done. apply Forall_app_2; [done|]. apply Forall_cons_2; [apply get_type_sized|apply Forall_nil_2].
    - destruct (unpack _ _) as [ns|]; [|done]. injection H as <-. apply good_rr; try done. apply Forall_app_2; [done|].
      apply Forall_fmap, Forall_true. intros x. apply get_type_sized. }
  destruct (k =? 6). { eapply (get_int_inv good_read); [exact Hr| | |exact H]; [done|]. intros x Hx. by apply good_rr. }
  destruct (k =? 7). { eapply (get_text_inv good_read); [| |exact H]; [done|]. intros x Hx. by apply good_rr. }
  by injection H as <-.
Qed.
Lemma takes_fits s : takes s -> fits s.
Proof. unfold takes, fits, bytes. lia. Qed.
Lemma read_again rq b : good_read rq -> marshal_read rq = Some b -> takes b -> unmarshal_read b = Some rq.
Proof. intros (H & _) Hm Ht. eapply read_round; [done|done|by apply takes_fits]. Qed.
Lemma read_encodes rq : good_read rq -> exists b, marshal_read rq = Some b.
Proof. intros (_ & H1 & H2). eexists. apply marshal_some. intros t. rewrite !elem_of_cons, elem_of_nil. naive_solver. Qed.

(** ** Envelopes that were received *)
Lemma answer_again es x : (forall e, e ∈ es -> good e) -> marshal_read_response (Some es) = Some x -> takes x -> unmarshal_read_response x = Some (Some es).
Proof. intros Hg Hx Ht. destruct (answer_encodes es Hg) as (b & Hb & H). rewrite Hx in Hb. injection Hb as <-. by apply H, takes_fits. Qed.
Lemma batch_again lo es b : (forall e, e ∈ es -> good e) -> marshal_send (mk_send lo (Some es)) = Some b -> takes b -> unmarshal_send b = Some (mk_send lo (Some es)).
Proof.
  intros Hg Hm Ht. eapply send_round; [|done|by apply takes_fits]. cbn [sr_envelopes]. intros es' e [= <-] He. by apply (good_sized e), Hg.
Qed.

Lemma messages_snoc tr ev : messages (tr ++ [ev]) = messages tr ++ message_of ev.
Proof. unfold messages. rewrite bind_app. cbn [mbind list_bind]. by rewrite List.app_nil_r. Qed.
Lemma messages_app a b : messages (a ++ b) = messages a ++ messages b.
Proof. unfold messages. by rewrite bind_app. Qed.
Lemma said_good b r : said b = Some r -> forall e, e ∈ get_batch r -> good e.
Proof. unfold said. case_decide; [|done]. intros Hb. apply send_good in Hb. rewrite Forall_forall in Hb. exact Hb. Qed.
Lemma messages_good tr src e : e ∈ sent_to src (messages tr) -> good e.
Proof.
  unfold sent_to, messages. intros H. apply elem_of_list_bind in H as (ev & Hev & Hin0). apply elem_of_list_bind in Hin0 as (bev & Hin & _). rename Hev into H.
  destruct bev; cbn [message_of] in Hin; try (apply elem_of_list_singleton in Hin as ->; by apply elem_of_nil in H); try (by apply elem_of_nil in Hin).
  destruct (said b) as [r|] eqn:E; [|by apply elem_of_nil in Hin]. apply elem_of_list_singleton in Hin as ->. apply of_source_elem in H as [_ H].
  by eapply said_good.
Qed.

Section bytes.
Context (grow : nat -> nat) (nils : bool) (addrs : list string) (hash : string -> Z) (compile : string -> option (string -> bool)).
Notation bstep := (bstep grow nils addrs hash compile).
Notation bruns := (bruns grow nils addrs hash compile).
Notation runs := (runs hash compile).

Lemma runs_one ms tr c ev c' : runs (start ms) tr c -> Whole.Model.step hash compile c ev c' -> runs (start ms) (tr ++ [ev]) c'.
Proof. intros. by eapply runs_snoc. Qed.

Lemma local_calls lk n i r calls : sr_local_only r = true -> send_calls lk n i r (Some calls) -> calls = [(i, r)].
Proof. intros E (order & _ & H). unfold send_with in H. rewrite E in H. destruct (_ <? _)%nat; [|done]. by injection H as ->. Qed.

Lemma bytes_refine ms btr c : Forall (fun m => 1 <= m) ms -> bruns (bstart ms) btr c -> runs (start ms) (messages btr) (b_cluster c).
Proof.
  intros Hms Hr. induction Hr as [|tr c1 ev c2 Hr IH Hs]; [apply runs_nil|]. rewrite messages_snoc.
  destruct Hs as [i b b' r calls nd ns fl cs Hc Hu Hi Hca|i b c cs Hn|j es now nd s ns fl fl' cs Hj Hp Hput|
    j es b b' r calls now nd ns ns' fl fl' cs Hp Hm Hc Hu Hj Hca Hd|j e ns fl fl' cs Hp|i b b' t o l nd ns fl cs Hi Hc Hcc|i n pri now nd s ns fl cs Hi Ht|
    i m nd ns fl cs Hi Hm|n i b c cs Hn|n path i b b' rq rnd j b2 nd ns fl cs Hn Hc Hu Hi Hro Hne Hm|n path k b b' rq rnd now nd ns fl cs Hn Hc Hu Hk Hro|
    | | | |]; cbn [message_of b_cluster] in *; rewrite ?List.app_nil_r; try exact IH.
  - apply carried_iff in Hc as [-> Ht]. unfold said. rewrite decide_True, Hu by done. eapply runs_one; [exact IH|]. by eapply step_send.
  - unfold said. destruct (decide (takes b)) as [Ht|Ht]; [|by rewrite List.app_nil_r].
    rewrite carried_small in Hn by done. cbn in Hn. by rewrite Hn, List.app_nil_r.
  - eapply runs_one; [exact IH|]. by eapply step_arrive.
  - apply carried_iff in Hc as [-> Ht]. assert (Hg : forall e, e ∈ es -> good e).
    { intros e He. destruct (known_runs _ _ _ _ _ Hms IH) as [_ Hk]. eapply messages_good, (Hk j e). cbn [c_flight]. rewrite Hp. apply elem_of_app. left.
      apply elem_of_list_fmap. eauto. }
    rewrite (batch_again _ _ _ Hg Hm Ht) in Hu. injection Hu as <-. apply local_calls in Hca as ->; [|done].
    cbn [deliver] in Hd. rewrite Hj in Hd. cbn [mbind option_bind] in Hd. unfold get_batch in Hd. cbn [sr_envelopes default] in Hd. change (id es) with es in Hd.
    destruct (put_all now es (n_store nd)) as [s|] eqn:Eput; [|done]. cbn [mbind option_bind] in Hd. injection Hd as <-.
    eapply runs_one; [exact IH|]. by eapply step_arrive.
  - eapply runs_one; [exact IH|]. by eapply step_lose.
  - eapply runs_one; [exact IH|]. by eapply step_table.
  - eapply runs_one; [exact IH|]. by eapply step_prune.
  - eapply runs_one; [exact IH|]. by eapply step_restart.
  - eapply runs_one; [exact IH|]. by eapply step_read.
Qed.

(** ** The reads under way *)
(** b is what the client sent, or what a node made of it *)
Definition asks (b0 b : string) : Prop := b = b0 \/ exists rq, takes b0 /\ unmarshal_read b0 = Some rq /\ marshal_read rq = Some b.
Lemma asks_read b0 b rq : asks b0 b -> takes b -> unmarshal_read b = Some rq -> takes b0 /\ unmarshal_read b0 = Some rq.
Proof.
  intros [->|(rq' & Ht & Hu & Hm)] Htb Hub; [done|]. split; [done|]. rewrite Hu. f_equal. pose proof (read_good _ _ Hu) as Hg.
  rewrite (read_again _ _ Hg Hm Htb) in Hub. by injection Hub.
Qed.
Definition under_way (b0 : string) (mid : list bevent) (st : rcall) : Prop :=
  match st with
  | Asked _ _ b => asks b0 b
  | Replied _ None => True
  | Replied _ (Some x) => exists rq k now es, takes b0 /\ unmarshal_read b0 = Some rq /\ VRead k rq now (ReadOk es) ∈ messages mid /\
      (forall e, e ∈ es -> good e) /\ marshal_read_response (Some es) = Some x
  end.
Lemma under_way_snoc b0 mid ev st : under_way b0 mid st -> under_way b0 (mid ++ [ev]) st.
Proof.
  destruct st as [p i b|p [x|]]; cbn; try done. intros (rq & k & now & es & H1 & H2 & H3 & H4 & H5). exists rq, k, now, es.
  split; [done|]. split; [done|]. split; [|done]. rewrite messages_snoc. apply elem_of_app. by left.
Qed.
Definition tracked (btr : list bevent) (cs : gmap nat rcall) : Prop :=
  forall n st, cs !! n = Some st -> exists pre i b mid, btr = pre ++ BAsk n i b :: mid /\ no_ask n mid /\ under_way b mid st.
Lemma no_ask_snoc n mid ev : no_ask n mid -> (forall i b, ev <> BAsk n i b) -> no_ask n (mid ++ [ev]).
Proof. intros H Hne i b Hin. apply elem_of_app in Hin as [Hin|Hin%elem_of_list_singleton]; [by eapply H|by eapply Hne]. Qed.

Lemma served_good ms btr c k rq now es : Forall (fun m => 1 <= m) ms ->
  runs (start ms) (messages btr ++ [VRead k rq now (ReadOk es)]) c -> forall e, e ∈ es -> good e.
Proof.
  intros Hms Hr e' He'. destruct (answered_sent _ _ _ _ _ _ _ _ [] _ Hms Hr) as (q & _ & H). destruct (H _ He') as (e & He & _ & Hp & _).
  eapply projected_good; [exact Hp|]. by eapply messages_good.
Qed.

Lemma bytes_tracked ms btr c : Forall (fun m => 1 <= m) ms -> bruns (bstart ms) btr c -> tracked btr (b_calls c).
Proof.
  intros Hms Hr. induction Hr as [|tr c1 ev c2 Hr IH Hs]; [intros n st H; cbn in H; by rewrite lookup_empty in H|].
  assert (Keep : forall n st, b_calls c1 !! n = Some st -> (forall i b, ev <> BAsk n i b) ->
    exists pre i b mid, tr ++ [ev] = pre ++ BAsk n i b :: mid /\ no_ask n mid /\ under_way b mid st).
  { intros n st H Hne. destruct (IH n st H) as (pre & i & b & mid & -> & Hno & Hu). exists pre, i, b, (mid ++ [ev]).
    split; [by rewrite <-List.app_assoc|]. split; [by apply no_ask_snoc|by apply under_way_snoc]. }
  assert (Upd : forall n st st', b_calls c1 !! n = Some st -> (forall n' i b, ev <> BAsk n' i b) ->
    (forall b mid, under_way b mid st -> under_way b (mid ++ [ev]) st') -> tracked (tr ++ [ev]) (<[n := st']> (b_calls c1))).
  { intros n st st' H Hne Himp n' st'' Hn'. apply lookup_insert_Some in Hn' as [[<- <-]|[Hnn Hn']]; [|by apply Keep].
    destruct (IH n st H) as (pre & i & b & mid & -> & Hno & Hu). exists pre, i, b, (mid ++ [ev]).
    split; [by rewrite <-List.app_assoc|]. split; [by apply no_ask_snoc|by apply Himp]. }
  assert (Hr2 : bruns (bstart ms) (tr ++ [ev]) c2) by (by eapply bruns_snoc).
  pose proof (bytes_refine _ _ _ Hms Hr2) as HR. rewrite messages_snoc in HR.
  destruct Hs as [i b b' r calls nd ns fl cs Hc Hu Hi Hca|i b c cs Hn|j es now nd s ns fl fl' cs Hj Hp Hput|
    j es b b' r calls now nd ns ns' fl fl' cs Hp Hm Hc Hu Hj Hca Hd|j e ns fl fl' cs Hp|i b b' t o l nd ns fl cs Hi Hc Hcc|i n pri now nd s ns fl cs Hi Ht|
    i m nd ns fl cs Hi Hm|n i b c cs Hn|n path i b b' rq rnd j b2 nd ns fl cs Hn Hc Hu Hi Hro Hne Hm|n path k b b' rq rnd now nd ns fl cs Hn Hc Hu Hk Hro|
    n path i b c cs Hn|n path a c cs Hn|n i path x x' batch c cs Hn Hc Hu|n i path c cs Hn|n a c cs Hn]; cbn [b_calls] in *;
    try (by intros n' st Hn'; apply Keep).
  - intros n' st Hn'. apply lookup_insert_Some in Hn' as [[<- <-]|[Hnn Hn']].
    + exists tr, i, b, []. split; [done|]. split; [by intros ? ? ?%elem_of_nil|]. by left.
    + apply Keep; [done|]. intros i' b' [= ->]. done.
  - eapply Upd; [exact Hn|done|]. intros b0 mid Ha. apply carried_iff in Hc as [-> Ht]. destruct (asks_read _ _ _ Ha Ht Hu) as [Ht0 Hu0].
    right. by exists rq.
  - eapply Upd; [exact Hn|done|]. intros b0 mid Ha. apply carried_iff in Hc as [-> Ht]. destruct (asks_read _ _ _ Ha Ht Hu) as [Ht0 Hu0].
    cbn [message_of] in HR. destruct (local_read compile now rq (n_store nd)) as [|es|] eqn:El; [done| |done].
    destruct (marshal_read_response (Some es)) as [x|] eqn:Ex; [|done]. cbn [under_way]. exists rq, k, now, es. split; [done|]. split; [done|]. split.
    + rewrite messages_snoc. apply elem_of_app. right. cbn [message_of]. by left.
    + split; [|done]. by eapply served_good.
  - eapply Upd; [exact Hn|done|done].
  - eapply Upd; [exact Hn|done|done].
  - eapply Upd; [exact Hn|done|]. intros b0 mid (rq & k & now & es & H1 & H2 & H3 & H4 & H5). apply carried_iff in Hc as [-> Ht].
    rewrite (answer_again _ _ H4 H5 Ht) in Hu. injection Hu as <-. rewrite H5. cbn [under_way]. exists rq, k, now, es.
    split; [done|]. split; [done|]. split; [|done]. rewrite messages_snoc. apply elem_of_app. by left.
  - eapply Upd; [exact Hn|done|done].
  - intros n' st Hn'. apply lookup_delete_Some in Hn' as [_ Hn']. by apply Keep.
Qed.

Lemma bruns_split c tr ev post c' : bruns c (tr ++ ev :: post) c' -> exists c1 c2, bruns c tr c1 /\ bstep c1 ev c2 /\ exists c3, bruns c (tr ++ [ev]) c3.
Proof.
  revert c'. induction post as [|p post IH] using rev_ind; intros c' H.
  - inversion H as [E|tr' c1 ev' c2 H1 H2 E]; [by destruct tr|]. apply app_inj_tail in E as [-> ->]. exists c1, c'. split; [done|]. split; [done|]. by exists c'.
  - change (ev :: post ++ [p]) with ((ev :: post) ++ [p]) in H. rewrite List.app_assoc in H.
    inversion H as [E|tr' c1 ev' c2 H1 H2 E]; [by destruct tr|]. apply app_inj_tail in E as [-> ->]. eauto.
Qed.
Lemma last_ask n pre i b mid pre' i' b' mid' : pre ++ BAsk n i b :: mid = pre' ++ BAsk n i' b' :: mid' -> no_ask n mid -> no_ask n mid' ->
  pre = pre' /\ i = i' /\ b = b' /\ mid = mid'.
Proof.
  revert pre'. induction pre as [|x pre IH]; intros [|y pre'] E H H'; cbn in E.
  - by injection E as -> -> ->.
  - injection E as <- ->. exfalso. eapply (H i' b'). apply elem_of_app. right. by left.
  - injection E as -> <-. exfalso. eapply (H' i b). apply elem_of_app. right. by left.
  - injection E as -> E. destruct (IH _ E H H') as (-> & -> & -> & ->). done.
Qed.

Lemma bytes_answer ms pre n i b mid x post c : Forall (fun m => 1 <= m) ms ->
  bruns (bstart ms) (pre ++ BAsk n i b :: mid ++ BGive n (Some x) :: post) c -> no_ask n mid ->
  exists rq k now es, takes b /\ unmarshal_read b = Some rq /\ VRead k rq now (ReadOk es) ∈ messages mid /\
    takes x /\ unmarshal_read_response x = Some (Some es) /\ forall e, e ∈ es -> good e.
Proof.
  intros Hms Hr Hno. replace (pre ++ BAsk n i b :: mid ++ BGive n (Some x) :: post) with ((pre ++ BAsk n i b :: mid) ++ BGive n (Some x) :: post) in Hr
    by (by rewrite <-List.app_assoc).
  apply bruns_split in Hr as (c1 & c2 & Hr & Hs & _). pose proof (bytes_tracked _ _ _ Hms Hr) as HT.
  inversion Hs as [| | | | | | | | | | | | | | |n' a c0 cs Hn E1 [E2 E3]]; subst. cbn [b_calls] in HT.
  destruct a as [x0|]; [|done]. cbn in E3. apply carried_iff in E3 as [-> Ht].
  destruct (HT _ _ Hn) as (pre' & i' & b' & mid' & E & Hno' & Hu). destruct (last_ask _ _ _ _ _ _ _ _ _ E Hno Hno') as (<- & <- & <- & <-).
  destruct Hu as (rq & k & now & es & H1 & H2 & H3 & H4 & H5). exists rq, k, now, es. split; [done|]. split; [done|]. split; [done|]. split; [done|].
  split; [by eapply answer_again|done].
Qed.
End bytes.
