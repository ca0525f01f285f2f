(** Lemmas about walks: windows of orderly readers, back-offs, windows, walks over the store. *)
From stdpp Require Import prelude strings list.
From Coq Require Import Sorted.
From Verif.Base Require Import GoInt Envelope.
From Verif.Store Require Import Avl AvlProofs Model Spec ProofsBase ProofsHist ProofsAcct ProofsGet.
From Verif.Routing Require Import Model Spec ProofsCluster.
From Verif.Client Require Import Walk WalkSpec WalkProofs.
Open Scope Z_scope.

Lemma usable_sub c re now es : ∃ gone, es = usable c re now es ++ gone.
Proof.
  unfold usable. cbn zeta.
  match goal with |- context [if ?b then trim ?d es else es] => set (es1 := if b then trim d es else es) end.
  assert (∃ g, es = es1 ++ g) as [g Eg].
  { unfold es1. destruct (_ || _); [|exists []; by rewrite app_nil_r].
    destruct (trim_spec (fun e => wrap64 (now - w_delay c) <? e_ts e) es) as (g & ? & _). eauto. }
  clearbody es1. destruct (w_end c) as [t|]; [|eauto].
  destruct (trim_spec (fun e => t <=? e_ts e) es1) as (g' & Eg' & _).
  exists (g' ++ g). rewrite app_assoc, <-Eg'. done.
Qed.

Lemma usable_last c re now es e t : last (usable c re now es) = Some e -> w_end c = Some t -> e_ts e < t.
Proof.
  unfold usable. intros Hl Ew. rewrite Ew in Hl. cbn zeta in Hl.
  match type of Hl with last (trim ?d ?l) = _ => destruct (trim_spec d l) as (_ & _ & _ & H) end.
  specialize (H e Hl). simpl in H. lia.
Qed.

Lemma time_sorted_last l e : time_sorted l -> last l = Some e -> Forall (fun x => e_ts x <= e_ts e) l.
Proof.
  intros Hs Hl. apply last_Some in Hl as [l' ->]. apply time_sorted_app in Hs as (_ & _ & H).
  apply Forall_app. split; [|by repeat constructor].
  apply Forall_forall. intros x Hx. apply H; [done|by left].
Qed.

Section orderly.
Context {B : Type} (bk : backoff B) (c : walk_config) (reader : nat -> walk_read -> answer)
  (visitor : list (list envelope) -> list envelope -> bool).
Context (Ho : orderly reader).

Lemma walk_loop_orderly n : ∀ i b start re del evs out,
  walk_loop bk c reader visitor n i b start re del = (evs, out) ->
  Forall (wnd c start) (concat (deliveries evs)) ∧
  time_sorted (concat (deliveries evs)) ∧
  (∀ pre es mid es' post, deliveries evs = pre ++ es :: mid ++ es' :: post ->
     ∀ e e', e ∈ es -> e' ∈ es' -> e_ts e < e_ts e') ∧
  (∀ pre r post, evs = pre ++ EvRead r :: post -> r = read_of c (resume start (concat (deliveries pre)))).
Proof using Ho.
  induction n as [|n IH]; intros i b start re del evs out; cbn [walk_loop].
  { intros [= <- <-]. simpl. split; [constructor|]. split; [done|].
    split; intros [] *; discriminate. }
  assert (Hsimple : ∀ (o : walk_end), ([EvRead (read_of c start)], o) = (evs, out) ->
    Forall (wnd c start) (concat (deliveries evs)) ∧
    time_sorted (concat (deliveries evs)) ∧
    (∀ pre es mid es' post, deliveries evs = pre ++ es :: mid ++ es' :: post ->
       ∀ e e', e ∈ es -> e' ∈ es' -> e_ts e < e_ts e') ∧
    (∀ pre r post, evs = pre ++ EvRead r :: post -> r = read_of c (resume start (concat (deliveries pre))))).
  { intros o [= <- <-]. simpl. split; [constructor|]. split; [done|].
    split; [intros [] *; discriminate|]. intros [|x pre] r post E; [by injection E as <-|].
    simpl in E. injection E as _ E. by destruct pre. }
  assert (Hskip : ∀ i' b' re', 
    (let '(evs0, out0) := walk_loop bk c reader visitor n i' b' start re' del in (EvRead (read_of c start) :: evs0, out0)) = (evs, out) ->
    Forall (wnd c start) (concat (deliveries evs)) ∧
    time_sorted (concat (deliveries evs)) ∧
    (∀ pre es mid es' post, deliveries evs = pre ++ es :: mid ++ es' :: post ->
       ∀ e e', e ∈ es -> e' ∈ es' -> e_ts e < e_ts e') ∧
    (∀ pre r post, evs = pre ++ EvRead r :: post -> r = read_of c (resume start (concat (deliveries pre))))).
  { intros i' b' re'. destruct (walk_loop bk c reader visitor n i' b' start re' del) as [evs' out'] eqn:E'.
    intros [= <- <-]. destruct (IH _ _ _ _ _ _ _ E') as (H1 & H2 & H3 & H4).
    simpl. split; [done|]. split; [done|]. split; [done|].
    intros [|x pre] r post E; [by injection E as <-|].
    simpl in E. injection E as <- E. simpl. by apply H4 with post. }
  destruct (a_batch (reader i (read_of c start))) as [es0|] eqn:Ea.
  - destruct (Ho _ _ _ Ea) as [Hs0 HF0]. simpl in HF0.
    destruct (usable_sub c re (a_now (reader i (read_of c start))) es0) as [gone Egone].
    pose proof (usable_last c re (a_now (reader i (read_of c start))) es0) as HL.
    set (es := usable c re (a_now (reader i (read_of c start))) es0) in *. clearbody es.
    destruct (last es) as [l|] eqn:El.
    + rewrite Egone in Hs0, HF0. apply time_sorted_app in Hs0 as (Hs & _ & _).
      apply Forall_app in HF0 as [HF _]. clear Egone.
      assert (Hl : l ∈ es) by (by apply last_Some_elem_of).
      assert (Hwr : wrap64 (e_ts l + 1) = e_ts l + 1).
      { rewrite Forall_forall in HF. destruct (HF l Hl) as (_ & _ & ?). by apply wrap64_id. }
      pose proof (time_sorted_last es l Hs El) as Hmax.
      assert (Hw : Forall (wnd c start) es).
      { apply Forall_forall. intros e He. rewrite Forall_forall in HF, Hmax.
        specialize (HF e He). specialize (Hmax e He). simpl in *.
        unfold wnd. destruct (w_end c) as [t|]; [|tauto]. specialize (HL l t eq_refl eq_refl). lia. }
      assert (Hone : ∀ o, (EvRead (read_of c start) :: EvDeliver es :: [], o) = (evs, out) ->
        Forall (wnd c start) (concat (deliveries evs)) ∧
        time_sorted (concat (deliveries evs)) ∧
        (∀ pre es mid es' post, deliveries evs = pre ++ es :: mid ++ es' :: post ->
           ∀ e e', e ∈ es -> e' ∈ es' -> e_ts e < e_ts e') ∧
        (∀ pre r post, evs = pre ++ EvRead r :: post -> r = read_of c (resume start (concat (deliveries pre))))).
      { intros o [= <- <-]. simpl. rewrite app_nil_r. split; [done|]. split; [done|]. split.
        - intros [|x pre] a mid b' post E; simpl in E.
          + injection E as <- E. by destruct mid.
          + injection E as _ E. by destruct pre.
        - intros [|x [|y pre]] r post E; simpl in E; [by injection E as <-|by inversion E|].
          injection E as _ _ E. by destruct pre. }
      destruct (visitor del es); cbn [negb].
      * rewrite Hwr. destruct (match w_end c with Some t => t <=? e_ts l + 1 | None => false end).
        -- intros E. by eapply Hone.
        -- destruct (walk_loop bk c reader visitor n (S i) (b_reset bk b) (e_ts l + 1) false (del ++ [es])) as [evs' out'] eqn:E'.
           intros [= <- <-]. destruct (IH _ _ _ _ _ _ _ E') as (H1 & H2 & H3 & H4). clear IH Hone Hskip Hsimple.
           assert (Hlt : ∀ e e', e ∈ es -> e' ∈ concat (deliveries evs') -> e_ts e < e_ts e').
           { intros e e' He He'. rewrite Forall_forall in H1, Hmax. specialize (H1 e' He') as [H1 _].
             specialize (Hmax e He). simpl in Hmax. lia. }
           simpl. split; [|split; [|split]].
           ++ apply Forall_app. split; [done|]. eapply Forall_impl; [exact H1|].
              intros e [He1 He2]. split; [|done]. rewrite Forall_forall in HF. specialize (HF l Hl). simpl in HF. lia.
           ++ apply time_sorted_app. split; [done|]. split; [done|]. intros e e' He He'.
              specialize (Hlt e e' He He'). lia.
           ++ intros [|x pre] a mid b' post E e e' He He'; simpl in E.
              ** injection E as <- E. apply Hlt; [done|]. rewrite E, concat_app. simpl.
                 apply elem_of_app. right. apply elem_of_app. by left.
              ** injection E as _ E. by eapply H3.
           ++ intros [|x [|y pre]] r post E; simpl in E; [by injection E as <-|by inversion E|].
              injection E as <- <- E. simpl. rewrite (H4 pre r post E). f_equal. unfold resume.
              rewrite last_app. destruct (last (concat (deliveries pre))); [done|]. by rewrite El.
      * intros E. by eapply Hone.
    + destruct (b_empty bk b) as [b' [|]]; [apply Hskip|apply Hsimple].
  - destruct (a_cancelled (reader i (read_of c start))); [apply Hsimple|].
    destruct (b_err bk b) as [b' [|]]; [apply Hskip|apply Hsimple].
Qed.
End orderly.

(** Whatever the reader does: no empty batch, last envelope before the end, reads with the configured
    options. *)
Lemma walk_loop_any {B} (bk : backoff B) c reader visitor n : ∀ i b start re del evs out,
  walk_loop bk c reader visitor n i b start re del = (evs, out) ->
  Forall (fun es => ∃ l, last es = Some l ∧ match w_end c with Some t => e_ts l < t | None => True end) (deliveries evs) ∧
  (reads evs <= n)%nat ∧ (out = WRunning -> reads evs = n) ∧
  (length (deliveries evs) <= reads evs)%nat.
Proof.
  induction n as [|n IH]; intros i b start re del evs out; cbn [walk_loop].
  { intros [= <- <-]. simpl. split; [constructor|]. unfold reads. simpl. lia. }
  assert (Hr : ∀ l, reads (EvRead (read_of c start) :: l) = S (reads l)) by done.
  assert (Hd : ∀ es l, reads (EvDeliver es :: l) = reads l) by done.
  destruct (a_batch (reader i (read_of c start))) as [es0|] eqn:Ea.
  - pose proof (usable_last c re (a_now (reader i (read_of c start))) es0) as HL.
    set (es := usable c re (a_now (reader i (read_of c start))) es0) in *. clearbody es.
    destruct (last es) as [l|] eqn:El.
    + assert (Hes : ∃ l0, last es = Some l0 ∧ match w_end c with Some t => e_ts l0 < t | None => True end).
      { exists l. split; [done|]. destruct (w_end c) as [t|]; [|done]. by apply HL. }
      destruct (visitor del es); cbn [negb].
      * destruct (match w_end c with Some t => t <=? wrap64 (e_ts l + 1) | None => false end).
        -- intros [= <- <-]. simpl. split; [by repeat constructor|]. rewrite Hr, Hd. unfold reads; simpl. split; [lia|]. split; [done|lia].
        -- destruct (walk_loop bk c reader visitor n (S i) (b_reset bk b) (wrap64 (e_ts l + 1)) false (del ++ [es])) as [evs' out'] eqn:E'.
           intros [= <- <-]. destruct (IH _ _ _ _ _ _ _ E') as (H1 & H2 & H3 & H4).
           simpl. split; [by constructor|]. rewrite Hr, Hd. split; [lia|]. split; [|lia]. intros Hx. by rewrite H3.
      * intros [= <- <-]. simpl. split; [by repeat constructor|]. rewrite Hr, Hd. unfold reads; simpl. split; [lia|]. split; [done|lia].
    + destruct (b_empty bk b) as [b' [|]].
      * destruct (walk_loop bk c reader visitor n (S i) b' start true del) as [evs' out'] eqn:E'.
        intros [= <- <-]. destruct (IH _ _ _ _ _ _ _ E') as (H1 & H2 & H3 & H4).
        simpl. split; [done|]. rewrite Hr. split; [lia|]. split; [|lia]. intros Hx. by rewrite H3.
      * intros [= <- <-]. simpl. split; [constructor|]. rewrite Hr. unfold reads; simpl. split; [lia|]. split; [done|lia].
  - destruct (a_cancelled (reader i (read_of c start))).
    + intros [= <- <-]. simpl. split; [constructor|]. rewrite Hr. unfold reads; simpl. split; [lia|]. split; [done|lia].
    + destruct (b_err bk b) as [b' [|]].
      * destruct (walk_loop bk c reader visitor n (S i) b' start re del) as [evs' out'] eqn:E'.
        intros [= <- <-]. destruct (IH _ _ _ _ _ _ _ E') as (H1 & H2 & H3 & H4).
        simpl. split; [done|]. rewrite Hr. split; [lia|]. split; [|lia]. intros Hx. by rewrite H3.
      * intros [= <- <-]. simpl. split; [constructor|]. rewrite Hr. unfold reads; simpl. split; [lia|]. split; [done|lia].
Qed.

(** ** Back-offs *)
Definition fr (n : nat) (evs : list event) : nat := foldl (fun n ev => if is_read ev then S n else O) n evs.
Lemma fr_cons n ev evs : fr n (ev :: evs) = fr (if is_read ev then S n else O) evs.
Proof. done. Qed.

Lemma walk_loop_retry m c reader visitor n : ∀ i count start re del evs out k,
  walk_loop (retry_backoff m false) c reader visitor n i count start re del = (evs, out) ->
  count = Z.of_nat k -> Z.of_nat k < Z.max 1 m ->
  (out = WRunning -> Z.of_nat (fr k evs) < Z.max 1 m) ∧
  (out ∈ [WGaveUpErr; WGaveUpEmpty] -> Z.of_nat (fr k evs) = Z.max 1 m).
Proof.
  induction n as [|n IH]; intros i count start re del evs out k; cbn [walk_loop].
  { intros [= <- <-] -> Hk. split; [done|]. intros Hx. by repeat (apply elem_of_cons in Hx as [?|Hx]; [done|]); apply elem_of_nil in Hx. }
  assert (Hno : ∀ o, o ∈ [WGaveUpErr; WGaveUpEmpty] -> o = WVisitorDone ∨ o = WEndReached ∨ o = WCancelled -> False).
  { intros o Hx. repeat (apply elem_of_cons in Hx as [->|Hx]); [naive_solver..|]. by apply elem_of_nil in Hx. }
  destruct (a_batch (reader i (read_of c start))) as [es0|] eqn:Ea.
  - set (es := usable c re (a_now (reader i (read_of c start))) es0) in *. clearbody es.
    destruct (last es) as [l|] eqn:El.
    + intros H -> Hk.
      destruct (visitor del es); cbn [negb] in H.
      * destruct (match w_end c with Some t => t <=? wrap64 (e_ts l + 1) | None => false end).
        -- injection H as <- <-. split; [done|]. intros Hx. exfalso. eapply Hno; [exact Hx|tauto].
        -- cbn [retry_backoff b_reset] in H.
           destruct (walk_loop (retry_backoff m false) c reader visitor n (S i) 0 (wrap64 (e_ts l + 1)) false (del ++ [es])) as [evs' out'] eqn:E'.
           injection H as <- <-. rewrite !fr_cons. cbn [is_read].
           apply (IH _ _ _ _ _ _ _ 0%nat E'); [done|lia].
      * injection H as <- <-. split; [done|]. intros Hx. exfalso. eapply Hno; [exact Hx|tauto].
    + cbn [retry_backoff b_empty]. intros H -> Hk.
      destruct (m <=? Z.of_nat k + 1) eqn:Em.
      * injection H as <- <-. split; [done|]. intros _. unfold fr. simpl. lia.
      * destruct (walk_loop (retry_backoff m false) c reader visitor n (S i) (Z.of_nat k + 1) start true del) as [evs' out'] eqn:E'.
        injection H as <- <-. rewrite !fr_cons. cbn [is_read]. apply (IH _ _ _ _ _ _ _ (S k) E'); lia.
  - destruct (a_cancelled (reader i (read_of c start))).
    + intros [= <- <-] -> Hk. split; [done|]. intros Hx. exfalso. eapply Hno; [exact Hx|tauto].
    + cbn [retry_backoff b_err]. intros H -> Hk.
      destruct (m <=? Z.of_nat k + 1) eqn:Em.
      * injection H as <- <-. split; [done|]. intros _. unfold fr. simpl. lia.
      * destruct (walk_loop (retry_backoff m false) c reader visitor n (S i) (Z.of_nat k + 1) start re del) as [evs' out'] eqn:E'.
        injection H as <- <-. rewrite !fr_cons. cbn [is_read]. apply (IH _ _ _ _ _ _ _ (S k) E'); lia.
Qed.

(** only-on-error back-off: stops on the first empty answer, otherwise as above *)
Lemma walk_loop_retry_err m c reader visitor n : ∀ i count start re del evs out k,
  walk_loop (retry_backoff m true) c reader visitor n i count start re del = (evs, out) ->
  count = Z.of_nat k -> Z.of_nat k < Z.max 1 m ->
  Z.of_nat (fr k evs) <= Z.max 1 m ∧
  (out = WRunning -> Z.of_nat (fr k evs) < Z.max 1 m) ∧
  (out = WGaveUpErr -> Z.of_nat (fr k evs) = Z.max 1 m).
Proof.
  induction n as [|n IH]; intros i count start re del evs out k; cbn [walk_loop].
  { intros [= <- <-] -> Hk. simpl. split; [lia|]. done. }
  destruct (a_batch (reader i (read_of c start))) as [es0|] eqn:Ea.
  - set (es := usable c re (a_now (reader i (read_of c start))) es0) in *. clearbody es.
    destruct (last es) as [l|] eqn:El.
    + intros H -> Hk.
      destruct (visitor del es); cbn [negb] in H.
      * destruct (match w_end c with Some t => t <=? wrap64 (e_ts l + 1) | None => false end).
        -- injection H as <- <-. split; [unfold fr; simpl; lia|done].
        -- cbn [retry_backoff b_reset] in H.
           destruct (walk_loop (retry_backoff m true) c reader visitor n (S i) 0 (wrap64 (e_ts l + 1)) false (del ++ [es])) as [evs' out'] eqn:E'.
           injection H as <- <-. rewrite !fr_cons. cbn [is_read].
           apply (IH _ _ _ _ _ _ _ 0%nat E'); [done|lia].
      * injection H as <- <-. split; [unfold fr; simpl; lia|done].
    + cbn [retry_backoff b_empty]. intros H -> Hk.
      injection H as <- <-. split; [unfold fr; simpl; lia|done].
  - destruct (a_cancelled (reader i (read_of c start))).
    + intros [= <- <-] -> Hk. split; [unfold fr; simpl; lia|done].
    + cbn [retry_backoff b_err]. intros H -> Hk.
      destruct (m <=? Z.of_nat k + 1) eqn:Em.
      * injection H as <- <-. unfold fr. simpl. split; [lia|]. split; [done|lia].
      * destruct (walk_loop (retry_backoff m true) c reader visitor n (S i) (Z.of_nat k + 1) start re del) as [evs' out'] eqn:E'.
        injection H as <- <-. rewrite !fr_cons. cbn [is_read]. apply (IH _ _ _ _ _ _ _ (S k) E'); lia.
Qed.

Lemma walk_loop_done c reader visitor n : ∀ i start re del evs out,
  walk_loop always_done c reader visitor n i () start re del = (evs, out) ->
  (fr 0 evs <= 1)%nat ∧ (out = WRunning -> fr 0 evs = 0%nat) ∧
  (out ∈ [WGaveUpErr; WGaveUpEmpty] -> fr 0 evs = 1%nat).
Proof.
  induction n as [|n IH]; intros i start re del evs out; cbn [walk_loop].
  { intros [= <- <-]. split; [simpl; lia|]. split; [done|]. intros Hx. by repeat (apply elem_of_cons in Hx as [?|Hx]; [done|]); apply elem_of_nil in Hx. }
  destruct (a_batch (reader i (read_of c start))) as [es0|] eqn:Ea.
  - set (es := usable c re (a_now (reader i (read_of c start))) es0) in *. clearbody es.
    destruct (last es) as [l|] eqn:El.
    + destruct (visitor del es); cbn [negb].
      * destruct (match w_end c with Some t => t <=? wrap64 (e_ts l + 1) | None => false end).
        -- intros [= <- <-]. split; [unfold fr; simpl; lia|]. split; [done|].
           intros Hx. by repeat (apply elem_of_cons in Hx as [?|Hx]; [done|]); apply elem_of_nil in Hx.
        -- cbn [always_done b_reset].
           destruct (walk_loop always_done c reader visitor n (S i) () (wrap64 (e_ts l + 1)) false (del ++ [es])) as [evs' out'] eqn:E'.
           intros [= <- <-]. rewrite !fr_cons. cbn [is_read]. by apply (IH _ _ _ _ _ _ E').
      * intros [= <- <-]. split; [unfold fr; simpl; lia|]. split; [done|].
        intros Hx. by repeat (apply elem_of_cons in Hx as [?|Hx]; [done|]); apply elem_of_nil in Hx.
    + simpl. intros [= <- <-]. unfold fr. simpl. split; [lia|]. done.
  - destruct (a_cancelled (reader i (read_of c start))); cbn [always_done b_err]; intros [= <- <-]; unfold fr; simpl.
    + split; [lia|]. split; [discriminate|done].
    + split; [lia|]. split; [discriminate|done].
Qed.

(** ** Windows *)
Lemma window_loop_spec walker visitor width interval n : ∀ i start l r,
  window_loop walker visitor width interval n i start = (l, r) ->
  (∀ k a b es, l !! k = Some (a, b, es) ->
     a = start + Z.of_nat k * interval ∧ b = a + width ∧ es = walker (i + k)%nat a b ∧
     (visitor (i + k)%nat es = true ∨ (r = false ∧ S k = length l))) ∧
  (length l <= n)%nat ∧ (r = true -> length l = n) ∧
  (r = false -> ∃ a b es, last l = Some (a, b, es) ∧ visitor (i + length l - 1)%nat es = false).
Proof.
  induction n as [|n IH]; intros i start l r; cbn [window_loop].
  { intros [= <- <-]. simpl. split; [intros [] *; discriminate|]. split; [lia|done]. }
  destruct (visitor i (walker i start (start + width))) eqn:Ev.
  - destruct (window_loop walker visitor width interval n (S i) (start + interval)) as [l' r'] eqn:E'.
    intros [= <- <-]. destruct (IH _ _ _ _ E') as (H1 & H2 & H3 & H4). split; [|split; [|split]].
    + intros [|k] a b es Hk; simpl in Hk.
      * injection Hk as <- <- <-. rewrite Nat.add_0_r. split; [lia|]. split; [done|]. split; [done|]. by left.
      * destruct (H1 k a b es Hk) as (-> & -> & -> & Hv). rewrite Nat.add_succ_r.
        split; [lia|]. split; [done|]. split; [done|]. destruct Hv as [Hv|[-> Hv]]; [left; done|right]. split; [done|]. simpl. lia.
    + simpl. lia.
    + intros Hr. simpl. by rewrite H3.
    + intros Hr. destruct (H4 Hr) as (a & b & es & Hl & Hv). exists a, b, es.
      destruct l' as [|p l']; [done|]. split; [done|].
      rewrite <-Hv. f_equal. simpl. lia.
  - intros [= <- <-]. split; [|simpl; split; [lia|split; [done|]]].
    + intros [|k] a b es Hk; simpl in Hk; [|done]. injection Hk as <- <- <-. rewrite Nat.add_0_r.
      split; [lia|]. split; [done|]. split; [done|]. by right.
    + intros _. eexists _, _, _. split; [done|]. by replace (i + 1 - 1)%nat with i by lia.
Qed.
