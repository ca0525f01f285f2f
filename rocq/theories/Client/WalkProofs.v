(** Lemmas about walks and windows. *)
From stdpp Require Import prelude strings list.
From Coq Require Import Sorted.
From Verif.Base Require Import GoInt Envelope.
From Verif.Store Require Import Avl AvlProofs Model Spec ProofsBase ProofsHist ProofsAcct ProofsGet.
From Verif.Routing Require Import Model Spec ProofsCluster.
From Verif.Client Require Import Walk WalkSpec.
Open Scope Z_scope.

(** ** Trimming *)
Lemma cut_snoc drop l e n : n = length l ->
  cut drop (S n) (l ++ [e]) = if drop e then cut drop n l else l ++ [e].
Proof.
  intros ->. cbn [cut]. rewrite lookup_app_r, Nat.sub_diag by lia. simpl.
  destruct (drop e); [|done]. rewrite take_app_alt by done. done.
Qed.

Lemma trim_snoc drop l e : trim drop (l ++ [e]) = if drop e then trim drop l else l ++ [e].
Proof. unfold trim. rewrite app_length. simpl. rewrite Nat.add_1_r. by apply cut_snoc. Qed.

Lemma trim_spec drop es : ∃ gone, es = trim drop es ++ gone ∧ Forall (fun e => drop e = true) gone ∧
  (∀ e, last (trim drop es) = Some e -> drop e = false).
Proof.
  induction es as [|e l IH] using rev_ind.
  - exists []. split; [done|]. split; [by constructor|]. done.
  - rewrite trim_snoc. destruct (drop e) eqn:Ed.
    + destruct IH as (gone & E & HF & HL). exists (gone ++ [e]). rewrite app_assoc, <-E.
      split; [done|]. split; [|done]. apply Forall_app. split; [done|]. by constructor.
    + exists []. rewrite app_nil_r. split; [done|]. split; [by constructor|].
      intros x. rewrite last_snoc. by intros [= <-].
Qed.

Lemma trim_keep drop es : Forall (fun e => drop e = false) es -> trim drop es = es.
Proof.
  intros H. destruct (trim_spec drop es) as (gone & E & HF & _).
  destruct gone as [|g gone]; [by rewrite app_nil_r in E|].
  exfalso. rewrite E in H. apply Forall_app in H as [_ H]. inversion H; inversion HF; congruence.
Qed.

(** ** Sorted lists *)
Lemma sorted_app_inv {A} (R : A -> A -> Prop) l1 l2 : StronglySorted R (l1 ++ l2) ->
  StronglySorted R l1 ∧ StronglySorted R l2 ∧ ∀ a b, a ∈ l1 -> b ∈ l2 -> R a b.
Proof.
  induction l1 as [|x l1 IH]; simpl; intros H.
  - split; [constructor|]. split; [done|]. intros a b Ha. by apply elem_of_nil in Ha.
  - apply StronglySorted_inv in H as [H HF]. destruct (IH H) as (H1 & H2 & H3).
    apply Forall_app in HF as [HF1 HF2]. split; [by constructor|]. split; [done|].
    intros a b Ha Hb. apply elem_of_cons in Ha as [->|Ha]; [|by apply H3].
    rewrite Forall_forall in HF2. by apply HF2.
Qed.

Lemma sorted_filter {A} (R : A -> A -> Prop) (P : A -> Prop) `{∀ x, Decision (P x)} l :
  StronglySorted R l -> StronglySorted R (filter P l).
Proof.
  induction l as [|x l IH]; intros Hs; [constructor|].
  apply StronglySorted_inv in Hs as [Hs HF]. rewrite filter_cons. case_decide; [|by apply IH].
  constructor; [by apply IH|]. apply Forall_forall. intros y Hy. apply elem_of_list_filter in Hy as [_ Hy].
  rewrite Forall_forall in HF. by apply HF.
Qed.

Lemma filter_split {A} (P Q : A -> Prop) `{∀ x, Decision (P x)} `{∀ x, Decision (Q x)} l l1 l2 :
  filter P l = l1 ++ l2 -> (∀ x, Q x -> P x) -> (∀ x, x ∈ l1 -> ¬ Q x) -> (∀ x, x ∈ l2 -> Q x) ->
  filter Q l = l2.
Proof.
  intros E HQP H1 H2.
  assert (filter Q l = filter Q (filter P l)) as ->.
  { clear -HQP. induction l as [|x l IH]; [done|].
    rewrite (filter_cons P), (filter_cons Q x l). destruct (decide (P x)) as [HP|HP].
    - rewrite filter_cons. by rewrite IH.
    - rewrite IH. destruct (decide (Q x)) as [HQ|HQ]; [|done]. by apply HQP in HQ. }
  rewrite E, filter_app.
  assert (filter Q l1 = []) as ->.
  { clear -H1. induction l1 as [|x l1 IH]; [done|]. rewrite filter_cons.
    rewrite decide_False by (apply H1; left). apply IH. intros y Hy. apply H1. by right. }
  simpl. clear -H2. induction l2 as [|x l2 IH]; [done|]. rewrite filter_cons.
  rewrite decide_True by (apply H2; left). rewrite IH; [done|]. intros y Hy. apply H2. by right.
Qed.

Lemma filter_nil {A} (P : A -> Prop) `{∀ x, Decision (P x)} l : (∀ x, x ∈ l -> ¬ P x) -> filter P l = [].
Proof.
  induction l as [|x l IH]; [done|]. intros Hno. rewrite filter_cons, decide_False by (apply Hno; left).
  apply IH. intros y Hy. apply Hno. by right.
Qed.

Lemma filter_partition {A} (R : A -> A -> Prop) (P Q : A -> Prop) `{∀ x, Decision (P x)} `{∀ x, Decision (Q x)} l :
  StronglySorted R l -> (∀ x, Q x -> P x) -> (∀ x y, R x y -> P x -> ¬ Q x -> ¬ Q y) ->
  filter P l = filter Q l ++ filter (fun x => P x ∧ ¬ Q x) l.
Proof.
  intros Hs HQP HR. induction Hs as [|x l Hs IH HF]; [done|].
  rewrite !filter_cons. rewrite Forall_forall in HF.
  destruct (decide (P x)) as [HP|HP].
  - destruct (decide (Q x)) as [HQ|HQ].
    + rewrite decide_False by tauto. by rewrite IH.
    + rewrite decide_True by tauto. rewrite IH.
      rewrite (filter_nil Q l); [done|]. intros y Hy. eapply HR; eauto.
  - rewrite decide_False by (intros HQ; by apply HP, HQP). rewrite decide_False by tauto. done.
Qed.

(** ** Walks over an unchanging source *)
Definition wnd (c : walk_config) (start : Z) (e : envelope) : Prop :=
  start <= e_ts e ∧ match w_end c with Some t => e_ts e < t | None => True end.
Global Instance wnd_dec c s e : Decision (wnd c s e).
Proof. unfold wnd. destruct (w_end c); apply _. Defined.

Section unchanging.
Context (c : walk_config) (reader : nat -> walk_read -> answer)
  (content : list envelope) (horizon clock : nat -> Z).
Context (Hasc : ascending content) (Hsane : Forall sane_time content) (Hserves : serves c content horizon clock reader).

Definition too_new (i : nat) (e : envelope) : Prop :=
  wrap64 (clock i - w_delay c) < e_ts e ∨ (w_end c = None ∧ horizon i <= e_ts e).

(** One answer: a beginning of what is left; if nothing is usable everything left is too new. *)
Lemma answer_split i start re es0 :
  not_after_end c start ->
  a_batch (reader i (read_of c start)) = Some es0 ->
  ∃ rest, filter (wnd c start) content = usable c re (a_now (reader i (read_of c start))) es0 ++ rest ∧
    (usable c re (a_now (reader i (read_of c start))) es0 = [] -> Forall (too_new i) rest).
Proof using Hasc Hserves.
  intros Hns Ea. destruct (Hserves i start Hns) as (Hn & k & Hk & Eb). rewrite Hn.
  rewrite Ea in Eb. injection Eb as ->.
  set (V := filter (visible (horizon i) (read_of c start)) content).
  assert (EW : filter (wnd c start) content =
     V ++ filter (fun x => wnd c start x ∧ ¬ visible (horizon i) (read_of c start) x) content).
  { apply (filter_partition _ _ _ _ Hasc).
    - intros x. unfold visible, wnd. simpl. destruct (w_end c); lia.
    - intros x y. unfold visible, wnd. simpl. destruct (w_end c); lia. }
  assert (Hfut : ∀ e, e ∈ filter (fun x => wnd c start x ∧ ¬ visible (horizon i) (read_of c start) x) content ->
     too_new i e).
  { intros e He. apply elem_of_list_filter in He as [[H1 H2] _]. right. clear -H1 H2.
    unfold visible, wnd in *. simpl in *. destruct (w_end c); [tauto|]. split; [done|lia]. }
  set (fut := filter (fun x => wnd c start x ∧ ¬ visible (horizon i) (read_of c start) x) content) in EW, Hfut. clearbody fut.
  assert (Hend : ∀ t, w_end c = Some t -> ∀ e, e ∈ V -> e_ts e < t).
  { intros t Ew e He. apply elem_of_list_filter in He as [He _]. unfold visible in He. simpl in He.
    rewrite Ew in He. lia. }
  assert (Hsv : ascending V) by (by apply sorted_filter). clearbody V.
  assert (Htrim : ∀ l, (∀ e, e ∈ l -> e ∈ V) ->
    match w_end c with Some t => trim (fun e => t <=? e_ts e) l | None => l end = l).
  { intros l Hl. destruct (w_end c) as [t|] eqn:Ew; [|done].
    apply trim_keep, Forall_forall. intros e He. apply Z.leb_gt. eapply Hend; eauto. }
  assert (HtV : ∀ e, e ∈ take k V -> e ∈ V).
  { intros e He. rewrite <-(take_drop k V). apply elem_of_app. by left. }
  unfold usable. cbn zeta.
  destruct ((match w_end c with None => true | _ => false end) || negb re).
  - destruct (trim_spec (fun e => wrap64 (clock i - w_delay c) <? e_ts e) (take k V)) as (gone & Eg & HFg & HLg).
    rewrite Htrim; [|intros e He; apply HtV; rewrite Eg; apply elem_of_app; by left].
    exists (gone ++ drop k V ++ fut). rewrite EW. split.
    + transitivity ((take k V ++ drop k V) ++ fut); [by rewrite take_drop|]. rewrite Eg at 1. by rewrite <-!app_assoc.
    + intros Enil. rewrite Enil in Eg. simpl in Eg.
      destruct k as [|k]; [lia|]. destruct V as [|v V].
      { rewrite <-Eg. simpl. by apply Forall_forall. }
      simpl in Eg. rewrite <-Eg in HFg |- *. simpl in HFg. apply Forall_cons in HFg as [Hv _].
      apply Z.ltb_lt in Hv. apply StronglySorted_inv in Hsv as [_ HF].
      rewrite Forall_forall in HF.
      rewrite app_assoc. simpl. rewrite take_drop.
      change (v :: V ++ fut) with ((v :: V) ++ fut).
      apply Forall_app. split; [|by apply Forall_forall].
      constructor; [by left|]. apply Forall_forall. intros e He. left. specialize (HF e He). simpl in HF. lia.
  - rewrite Htrim by done. exists (drop k V ++ fut). rewrite EW. split.
    + by rewrite app_assoc, take_drop.
    + intros Enil. destruct V as [|v V].
      * rewrite drop_nil. simpl. by apply Forall_forall.
      * destruct k; [lia|]. done.
Qed.

(** What is left after a delivery. *)
Lemma left_after start es rest l :
  filter (wnd c start) content = es ++ rest -> last es = Some l ->
  wrap64 (e_ts l + 1) = e_ts l + 1 ∧ start <= e_ts l ∧ filter (wnd c (e_ts l + 1)) content = rest ∧
  (∀ t, w_end c = Some t -> t <= e_ts l + 1 -> rest = []).
Proof using Hasc Hsane.
  intros E Hl.
  assert (Hin : l ∈ filter (wnd c start) content).
  { rewrite E. apply elem_of_app. left. by apply last_Some_elem_of. }
  apply elem_of_list_filter in Hin as [Hw Hin].
  pose proof (sorted_filter _ (wnd c start) _ Hasc) as Hs. rewrite E in Hs.
  pose proof Hl as Hl'. apply last_Some in Hl' as [es' ->].
  rewrite Forall_forall in Hsane. destruct (Hsane l Hin) as [_ H64].
  split; [by apply wrap64_id|]. split; [by destruct Hw|].
  destruct (sorted_app_inv _ _ _ Hs) as (H1 & H2 & H3).
  destruct (sorted_app_inv _ _ _ H1) as (_ & _ & H4).
  split.
  - eapply (filter_split (wnd c start) (wnd c (e_ts l + 1)) content (es' ++ [l]) rest E).
    + unfold wnd. destruct Hw. intros x. destruct (w_end c); lia.
    + intros x Hx [Hx' _]. apply elem_of_app in Hx as [Hx|Hx].
      * specialize (H4 x l Hx ltac:(by left)). simpl in H4. lia.
      * apply elem_of_list_singleton in Hx as ->. lia.
    + intros x Hx. assert (Hw' : wnd c start x).
      { assert (x ∈ filter (wnd c start) content) as Hx' by (rewrite E; apply elem_of_app; by right).
        by apply elem_of_list_filter in Hx' as [? _]. }
      assert (e_ts l < e_ts x) by (apply H3; [apply elem_of_app; right; by left|done]).
      clear -Hw Hw' H. unfold wnd in *. destruct (w_end c); lia.
  - intros t Ew Ht. destruct rest as [|x rest]; [done|]. exfalso.
    assert (Hw' : wnd c start x).
    { assert (x ∈ filter (wnd c start) content) as Hx' by (rewrite E; apply elem_of_app; right; by left).
      by apply elem_of_list_filter in Hx' as [? _]. }
    assert (e_ts l < e_ts x) by (apply H3; [apply elem_of_app; right; by left|by left]).
    unfold wnd in Hw'. rewrite Ew in Hw'. lia.
Qed.

Lemma walk_loop_sound {B} (bk : backoff B) visitor n : ∀ i b start re del evs out,
  not_after_end c start ->
  walk_loop bk c reader visitor n i b start re del = (evs, out) ->
  ∃ rest, filter (wnd c start) content = concat (deliveries evs) ++ rest ∧
    Forall (fun es => es ≠ []) (deliveries evs) ∧
    (out = WEndReached -> rest = []) ∧
    (out = WGaveUpEmpty -> Forall (too_new (i + reads evs - 1)) rest).
Proof using Hasc Hsane Hserves.
  induction n as [|n IH]; intros i b start re del evs out; cbn [walk_loop].
  { intros _ [= <- <-]. eexists. split; [done|]. split; [by constructor|]. split; done. }
  intros Hns.
  destruct (a_batch (reader i (read_of c start))) as [es0|] eqn:Ea.
  - destruct (answer_split i start re es0 Hns Ea) as (rest & EW & Hempty).
    set (es := usable c re (a_now (reader i (read_of c start))) es0) in *. clearbody es.
    destruct (last es) as [l|] eqn:El.
    + destruct (left_after start es rest l EW El) as (Hwr & _ & Erest & Hend).
      assert (Hne : es ≠ []) by (intros ->; discriminate El).
      assert (Hnext : (match w_end c with Some t => t <=? e_ts l + 1 | None => false end) = false ->
        not_after_end c (e_ts l + 1)).
      { unfold not_after_end. destruct (w_end c); [lia|done]. }
      destruct (visitor del es); cbn [negb].
      * rewrite Hwr. destruct (match w_end c with Some t => t <=? e_ts l + 1 | None => false end) eqn:Eend.
        -- intros [= <- <-]. exists rest. simpl. rewrite app_nil_r. split; [done|].
           split; [by repeat constructor|]. split; [|done]. intros _.
           destruct (w_end c) as [t|]; [|done]. apply (Hend t); [done|lia].
        -- destruct (walk_loop bk c reader visitor n (S i) (b_reset bk b) (e_ts l + 1) false (del ++ [es])) as [evs' out'] eqn:E'.
           intros [= <- <-]. destruct (IH _ _ _ _ _ _ _ (Hnext eq_refl) E') as (rest' & E2 & HF & He & Hg).
           exists rest'. simpl. rewrite <-app_assoc, <-E2, Erest. split; [done|].
           split; [by constructor|]. split; [done|]. intros Ho. specialize (Hg Ho).
           unfold reads. rewrite filter_cons, decide_True by done. rewrite filter_cons, decide_False by done.
           simpl. fold (reads evs'). replace (i + S (reads evs') - 1)%nat with (S i + reads evs' - 1)%nat by lia. done.
      * intros [= <- <-]. exists rest. simpl. rewrite app_nil_r. split; [done|].
        split; [by repeat constructor|]. split; done.
    + apply last_None in El as ->. destruct (b_empty bk b) as [b' [|]].
      * destruct (walk_loop bk c reader visitor n (S i) b' start true del) as [evs' out'] eqn:E'.
        intros [= <- <-]. destruct (IH _ _ _ _ _ _ _ Hns E') as (rest' & E2 & HF & He & Hg).
        exists rest'. simpl. split; [done|]. split; [done|]. split; [done|]. intros Ho. specialize (Hg Ho).
        unfold reads. rewrite filter_cons, decide_True by done. simpl. fold (reads evs').
        replace (i + S (reads evs') - 1)%nat with (S i + reads evs' - 1)%nat by lia. done.
      * intros [= <- <-]. exists rest. simpl. split; [done|]. split; [by constructor|]. split; [done|].
        intros _. change (reads [EvRead (read_of c start)]) with 1%nat. replace (i + 1 - 1)%nat with i by lia. by apply Hempty.
  - exfalso. destruct (Hserves i start Hns) as (_ & k & _ & Eb). rewrite Ea in Eb. discriminate Eb.
Qed.
End unchanging.

(** Against an unchanging source whose envelopes are all old enough, a default walk ends and
    delivers everything. *)
Lemma walk_loop_complete c reader content horizon clock n :
  ascending content -> Forall sane_time content -> serves c content horizon clock reader ->
  ∀ i start re del,
  not_after_end c start -> re = false ->
  (∀ j e, e ∈ filter (wnd c start) content -> ¬ too_new c horizon clock j e) ->
  (length (filter (wnd c start) content) < n)%nat ->
  concat (deliveries (walk_loop always_done c reader (fun _ _ => true) n i () start re del).1) = filter (wnd c start) content ∧
  (walk_loop always_done c reader (fun _ _ => true) n i () start re del).2 ∈ [WGaveUpEmpty; WEndReached].
Proof.
  intros Hasc Hsane Hs. induction n as [|n IH]; intros i start re del Hns Hre Hold Hn; [lia|].
  cbn [walk_loop].
  destruct (a_batch (reader i (read_of c start))) as [es0|] eqn:Ea.
  - destruct (answer_split c reader content horizon clock Hasc Hs i start re es0 Hns Ea) as (rest & EW & Hempty).
    set (es := usable c re (a_now (reader i (read_of c start))) es0) in *. clearbody es.
    destruct (last es) as [l|] eqn:El.
    + destruct (left_after c content Hasc Hsane start es rest l EW El) as (Hwr & _ & Erest & Hend).
      assert (Hne : es ≠ []) by (intros ->; discriminate El).
      assert (Hnext : (match w_end c with Some t => t <=? e_ts l + 1 | None => false end) = false ->
        not_after_end c (e_ts l + 1)).
      { unfold not_after_end. destruct (w_end c); [lia|done]. }
      cbn [negb]. rewrite Hwr.
      destruct (match w_end c with Some t => t <=? e_ts l + 1 | None => false end) eqn:Eend.
      * simpl. rewrite EW, app_nil_r. destruct (w_end c) as [t|]; [|done].
        rewrite (Hend t) by (done || lia). rewrite app_nil_r. split; [done|]. right. by left.
      * specialize (IH (S i) (e_ts l + 1) false (del ++ [es]) (Hnext eq_refl) eq_refl).
        rewrite Erest in IH. cbn [always_done b_reset].
        destruct IH as [IH1 IH2].
        { intros j e He. apply Hold. rewrite EW. apply elem_of_app. by right. }
        { rewrite EW, app_length in Hn. destruct es; [done|]. simpl in Hn. lia. }
        destruct (walk_loop always_done c reader _ n (S i) () (e_ts l + 1) false (del ++ [es])) as [evs' out'] eqn:E'.
        simpl in *. rewrite IH1, EW. done.
    + apply last_None in El as ->. simpl. rewrite EW. simpl.
      split; [|by left]. specialize (Hempty eq_refl).
      destruct rest as [|x rest]; [done|]. exfalso. apply Forall_cons in Hempty as [Hx _].
      eapply (Hold i x); [|exact Hx]. rewrite EW. by left.
  - exfalso. destruct (Hs i start Hns) as (_ & k & _ & Eb). rewrite Ea in Eb. discriminate Eb.
Qed.
