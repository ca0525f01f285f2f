(** Invariants of the running syslog server. *)
From Coq Require Import NArith.
From stdpp Require Import prelude gmap strings list.
From Verif.Base Require Import GoInt Envelope.
From Verif.Nozzle Require Import Spec Model Observe Proofs ProofsNozzle.
From Verif.Syslog Require Import Model Spec Proofs Server SpecServer.
Open Scope Z_scope.

(** ** lists *)
Lemma omap_insert {A B} (f : A -> option B) (l : list A) i x y : l !! i = Some y ->
  omap f (<[i := x]> l) ++ option_list (f y) ≡ₚ omap f l ++ option_list (f x).
Proof.
  intros H. pose proof (lookup_lt_Some _ _ _ H).
  rewrite <-(take_drop_middle l i y H) at 2. rewrite insert_take_drop by done.
  rewrite !omap_app. cbn. destruct (f x), (f y); cbn; solve_Permutation || idtac.
Qed.

Definition env_of (c : conn) : option envelope :=
  match c with Entering e | HasIndex e _ | Stepped e _ => Some e | _ => None end.
Lemma entering_env s : entering s = omap env_of (s_conns s).
Proof. done. Qed.
Lemma received_snoc tr ev : received (tr ++ [ev]) = received tr ++ match ev with EResult _ _ (Converted e) => [e] | _ => [] end.
Proof. unfold received. rewrite omap_app. f_equal. destruct ev as [| | |c r [] | | | | | |]; done. Qed.
Lemma useless_snoc tr ev : useless (tr ++ [ev]) = (useless tr + match ev with EResult _ _ Invalid | EEnd _ _ true => 1 | _ => 0 end)%nat.
Proof. unfold useless. rewrite omap_app, app_length. f_equal. by destruct ev as [| | |c r [] | | | |c ? []| |]. Qed.

(** ** nothing is invented or doubled *)
Definition slots (d : diode envelope) : list envelope := (map_to_list (d_buf d)).*2.*2.
Lemma slots_insert d i x w r :
  slots (Diode (<[i := x]> (d_buf d)) w r) ⊆+ x.2 :: slots d.
Proof.
  unfold slots. cbn [d_buf]. rewrite <-insert_delete_insert.
  rewrite (map_to_list_insert (delete i (d_buf d)) i x) by apply lookup_delete. cbn. apply submseteq_skip.
  destruct (d_buf d !! i) as [y|] eqn:E.
  - rewrite <-(insert_delete (d_buf d) i y E) at 2. rewrite map_to_list_insert by apply lookup_delete. cbn. by apply submseteq_cons.
  - rewrite delete_notin by done. done.
Qed.
Lemma slots_try n d d' o a : diode_try n d = (d', o, a) -> option_list o ++ slots d' ⊆+ slots d.
Proof.
  unfold diode_try. destruct (d_buf d !! _) as [[q x]|] eqn:E; [|by intros [= <- <- <-]].
  assert (H : slots d ≡ₚ x :: (map_to_list (delete (d_r d `mod` n)%N (d_buf d))).*2.*2).
  { unfold slots. rewrite <-(insert_delete (d_buf d) _ _ E) at 1. by rewrite map_to_list_insert by apply lookup_delete. }
  rewrite H. destruct (q <? d_r d)%N; [|destruct (d_r d <? q)%N]; intros [= <- <- <-]; cbn; [by apply submseteq_cons|done|done].
Qed.
Definition in_client (b : bic envelope) : list envelope := concat (map pr_envs (b_reqs b)) ++ b_batch b ++ slots (b_ring b).
Lemma write_in_client b ok : in_client (write_batch b ok) = in_client b.
Proof.
  unfold in_client, write_batch. destruct (b_batch b) as [|e l] eqn:E; [by rewrite E|]. cbn.
  rewrite map_app, concat_app. cbn. by rewrite app_nil_r, <-app_assoc.
Qed.
Lemma loop_in_client n size b lapsed ok : in_client (bic_loop n size b lapsed ok) ⊆+ in_client b.
Proof.
  unfold bic_loop. destruct (diode_try n (b_ring b)) as [[d o] a] eqn:E. pose proof (slots_try _ _ _ _ _ E) as H.
  destruct o as [e|]; cbn in H.
  - set (b' := Bic d (b_batch b ++ [e]) (b_reqs b) _).
    assert (Hb : in_client b' ⊆+ in_client b).
    { unfold in_client, b'. cbn. apply submseteq_app; [done|]. rewrite <-app_assoc. by apply submseteq_app. }
    destruct (decide _); [by rewrite write_in_client|]. by destruct lapsed; [rewrite write_in_client|].
  - assert (Hb : forall k, in_client (Bic d (b_batch b) (b_reqs b) k) ⊆+ in_client b).
    { intros k. unfold in_client. cbn. apply submseteq_app; [done|]. by apply submseteq_app. }
    by destruct lapsed; [rewrite write_in_client|].
Qed.

Section run.
Context (pf : string -> option f64) (idle t0 : Z).

Lemma with_conn_entering c x y s : s_conns s !! c = Some y ->
  entering (with_conn c x s) ++ option_list (env_of y) ≡ₚ entering s ++ option_list (env_of x).
Proof. intros H. rewrite !entering_env. by apply omap_insert. Qed.

Definition account (tr : list event) (s : server) : Prop :=
  in_client (s_client s) ++ entering s ⊆+ received tr /\
  (N.to_nat (s_ingress s) + length (entering s) = length (received tr))%nat /\
  N.to_nat (s_invalid s) = useless tr.

Definition fresh (ev : event) : list envelope := match ev with EResult _ _ (Converted e) => [e] | _ => [] end.
Lemma flow_step s ev s' : step pf idle s ev s' ->
  in_client (s_client s') ++ entering s' ⊆+ (in_client (s_client s) ++ entering s) ++ fresh ev /\
  (N.to_nat (s_ingress s') + length (entering s') = N.to_nat (s_ingress s) + length (entering s) + length (fresh ev))%nat /\
  N.to_nat (s_invalid s') = (N.to_nat (s_invalid s) + match ev with EResult _ _ Invalid | EEnd _ _ true => 1 | _ => 0 end)%nat.
Proof.
  intros Hs.
  assert (Hsame : forall c x y, s_conns s !! c = Some y -> env_of x = env_of y -> entering (with_conn c x s) ≡ₚ entering s).
  { intros c x y Hc E. pose proof (with_conn_entering c x y s Hc) as Hp. rewrite E in Hp.
    eapply Permutation_app_inv_r; exact Hp. }
  destruct Hs as [s Ha Hl|s Ha Hl|s c d Ha Hc Hd|s c d Ha Hc Hd|s c d msg order Ha Hc Hd Ho He|s c d msg order Ha Hc Hd Ho He
    |s c d msg order e Ha Hc Hd Ho He|s c e Ha Hc|s c e w Ha Hc|s c e w Ha Hc|s c d x t Ha Hc Hd|s a b Ha|s t Ht];
    cbn [fresh length]; rewrite ?app_nil_r, ?Nat.add_0_r.
  - split_and!; try done; rewrite entering_env in *; cbn; rewrite omap_app; cbn; by rewrite app_nil_r.
  - done.
  - done.
  - pose proof (Hsame c (Reading (s_now s + idle)) _ Hc eq_refl) as Hp. change (entering (with_conn c ?x (count_invalid s))) with (entering (with_conn c x s)).
    rewrite Hp. split_and!; [done|done|]. cbn. lia.
  - pose proof (Hsame c (Reading (s_now s + idle)) _ Hc eq_refl) as Hp. change (entering (with_conn c ?x (count_invalid s))) with (entering (with_conn c x s)).
    rewrite Hp. split_and!; [done|done|]. cbn. lia.
  - done.
  - pose proof (with_conn_entering c (Entering e) _ s Hc) as Hp. cbn in Hp. rewrite app_nil_r in Hp. rewrite Hp.
    split_and!; [|rewrite !app_length; cbn; lia|done]. by rewrite app_assoc.
  - pose proof (Hsame c (HasIndex e (d_w (ring s))) _ Hc eq_refl) as Hp. rewrite Hp. done.
  - pose proof (Hsame c (Stepped e w) _ Hc eq_refl) as Hp.
    change (entering (with_conn c ?x (with_ring ?d s))) with (entering (with_conn c x s)). rewrite Hp. done.
  - pose proof (with_conn_entering c (Reading (s_now s + idle)) _ s Hc) as Hp. cbn in Hp. rewrite app_nil_r in Hp.
    cbn zeta. match goal with |- context [entering ?x] => change (entering x) with (entering (with_conn c (Reading (s_now s + idle)) s)) end.
    rewrite <-Hp. split_and!; [|rewrite app_length; cbn; lia|done].
    rewrite (Permutation_app_comm _ [e]), (app_assoc _ [e]). apply submseteq_app; [|done].
    cbn [s_client with_conn with_ring]. unfold in_client. cbn [b_reqs b_batch b_ring].
    rewrite <-!app_assoc. apply submseteq_app; [done|]. apply submseteq_app; [done|].
    rewrite slots_insert. cbn. unfold ring. by rewrite (Permutation_app_comm _ [e]).
  - pose proof (Hsame c Gone _ Hc eq_refl) as Hp.
    assert (entering (with_conn c Gone (if t then count_invalid s else s)) = entering (with_conn c Gone s)) as -> by (by destruct t).
    rewrite Hp. destruct t; cbn; (split_and!; [done|done|lia]).
  - split_and!; [|done|done]. cbn. apply submseteq_app; [apply loop_in_client|done].
  - done.
Qed.
Lemma account_step tr s ev s' : account tr s -> step pf idle s ev s' -> account (tr ++ [ev]) s'.
Proof.
  unfold account. rewrite received_snoc, useless_snoc. intros (H1 & H2 & H3) Hs.
  destruct (flow_step _ _ _ Hs) as (K1 & K2 & K3). fold (fresh ev). split_and!.
  - etrans; [exact K1|]. by apply submseteq_app.
  - rewrite app_length. lia.
  - lia.
Qed.
Lemma flow_runs s tr s' : runs pf idle s tr s' ->
  in_client (s_client s') ++ entering s' ⊆+ (in_client (s_client s) ++ entering s) ++ received tr.
Proof.
  induction 1 as [|tr s1 ev s2 H IH Hs]; [by rewrite app_nil_r|]. rewrite received_snoc. fold (fresh ev).
  etrans; [exact (proj1 (flow_step _ _ _ Hs))|]. rewrite app_assoc. by apply submseteq_app.
Qed.
Lemma account_runs tr s : runs pf idle (srv0 t0) tr s -> account tr s.
Proof.
  induction 1 as [|tr s1 ev s2 H IH Hs]; [|by eapply account_step]. split_and!; [|done|done].
  cbn. unfold in_client, slots. cbn. done.
Qed.

(** ** one message at a time *)
Definition setw (w : N) (b : bic envelope) : bic envelope :=
  Bic (Diode (d_buf (b_ring b)) w (d_r (b_ring b))) (b_batch b) (b_reqs b) (b_dropped b).
Lemma setw_id (b : bic envelope) : setw (d_w (b_ring b)) b = b.
Proof. by destruct b as [[]]. Qed.
Lemma setw_write w b ok : setw w (write_batch b ok) = write_batch (setw w b) ok.
Proof. unfold write_batch. cbn. by destruct (b_batch b). Qed.
Lemma setw_loop n size w b lapsed ok : setw w (bic_loop n size b lapsed ok) = bic_loop n size (setw w b) lapsed ok.
Proof.
  unfold bic_loop, diode_try. cbn [setw b_ring d_buf d_r d_w b_batch b_reqs b_dropped].
  destruct (d_buf (b_ring b) !! _) as [[q x]|]; [destruct (q <? _)%N; [|destruct (_ <? q)%N]|];
    cbn [b_batch b_reqs b_ring b_dropped]; repeat (destruct (decide _) || destruct lapsed); rewrite ?setw_write; done.
Qed.
Lemma write_w (b : bic envelope) ok : d_w (b_ring (write_batch b ok)) = d_w (b_ring b).
Proof. unfold write_batch. by destruct (b_batch b). Qed.
Lemma loop_w n size (b : bic envelope) lapsed ok : d_w (b_ring (bic_loop n size b lapsed ok)) = d_w (b_ring b).
Proof.
  unfold bic_loop, diode_try.
  destruct (d_buf (b_ring b) !! _) as [[q x]|]; [destruct (q <? _)%N; [|destruct (_ <? q)%N]|];
    cbn [b_batch b_reqs b_ring b_dropped]; repeat (destruct (decide _) || destruct lapsed); rewrite ?write_w; done.
Qed.

Definition busy (c : conn) : Prop := is_Some (env_of c).
Definition at_ring (w : N) (b : bic envelope) (c : conn) : Prop :=
  match c with
  | HasIndex _ w' => w = w' /\ d_w (b_ring b) = w'
  | Stepped _ w' => w = (w' + 1)%N /\ d_w (b_ring b) = w'
  | _ => True
  end.
Record single (tr : list event) (s : server) (ls : list (blabel envelope)) : Prop := {
  sg_client : s_client s = setw (d_w (ring s)) (brun ring_size batch_size ls);
  sg_acc : accepted ls ++ entering s = received tr;
  sg_one : forall c c' x x', s_conns s !! c = Some x -> s_conns s !! c' = Some x' -> busy x -> busy x' -> c = c';
  sg_at : forall c x, s_conns s !! c = Some x -> at_ring (d_w (ring s)) (brun ring_size batch_size ls) x;
  sg_free : (forall c e w, s_conns s !! c <> Some (Stepped e w)) -> d_w (ring s) = d_w (b_ring (brun ring_size batch_size ls)) }.

Lemma entering_nil s : (forall c x, s_conns s !! c = Some x -> ~ busy x) <-> entering s = [].
Proof.
  rewrite entering_env. generalize (s_conns s) as l. intros l. split.
  - intros H. induction l as [|x l IH]; [done|]. cbn. destruct (env_of x) eqn:E.
    + exfalso. apply (H 0%nat x eq_refl). unfold busy; by rewrite E.
    + apply IH. intros c. apply (H (S c)).
  - induction l as [|y l IH]; intros H c x Hc; [done|]. cbn in H. destruct (env_of y) eqn:E; [done|].
    destruct c as [|c]; cbn in Hc; [|by apply (IH H c x)]. injection Hc as <-. unfold busy. rewrite E. by intros [].
Qed.
Lemma entering_one s c x e : s_conns s !! c = Some x -> env_of x = Some e ->
  (forall c' x', s_conns s !! c' = Some x' -> busy x' -> c' = c) -> entering s = [e].
Proof.
  rewrite entering_env. generalize (s_conns s) as l. intros l. revert c. induction l as [|y l IH]; intros c Hc He H; [done|].
  destruct c as [|c]; cbn in Hc |- *.
  - injection Hc as ->. rewrite He. f_equal.
    assert (forall c' x', l !! c' = Some x' -> ~ busy x') as Hl.
    { intros c' x' Hx Hb. by specialize (H (S c') x' Hx Hb). }
    clear -Hl. induction l as [|z l IH]; [done|]. cbn. destruct (env_of z) eqn:E.
    + exfalso. apply (Hl 0%nat z eq_refl). unfold busy; by rewrite E.
    + apply IH. intros c'. apply (Hl (S c')).
  - destruct (env_of y) eqn:E.
    + assert (busy y) by (unfold busy; by rewrite E). by specialize (H 0%nat y eq_refl ltac:(done)).
    + apply (IH c Hc He). intros c' x' Hx Hb. specialize (H (S c') x' Hx Hb). lia.
Qed.

Lemma single_step tr s ls ev s' : single tr s ls -> step pf idle s ev s' ->
  (forall c r e, ev = EResult c r (Converted e) -> entering s = []) -> exists ls', single (tr ++ [ev]) s' ls'.
Proof.
  intros [G1 G2 G3 G4 G5] Hs Hq.
  assert (Hplain : forall c d x, s_conns s !! c = Some (Reading d) -> env_of x = None -> entering (with_conn c x s) = entering s /\
    (forall c0 c' y y', <[c:=x]> (s_conns s) !! c0 = Some y -> <[c:=x]> (s_conns s) !! c' = Some y' -> busy y -> busy y' -> c0 = c') /\
    (forall c0 y, <[c:=x]> (s_conns s) !! c0 = Some y -> at_ring (d_w (ring s)) (brun ring_size batch_size ls) y) /\
    ((forall c0 e w, <[c:=x]> (s_conns s) !! c0 <> Some (Stepped e w)) -> d_w (ring s) = d_w (b_ring (brun ring_size batch_size ls)))).
  { intros c d x Hc Hx. pose proof (lookup_lt_Some _ _ _ Hc) as Hlt. split_and!.
    - rewrite !entering_env. cbn. rewrite insert_take_drop by done. rewrite <-(take_drop_middle (s_conns s) c _ Hc) at 3.
      rewrite !omap_app. cbn. by rewrite Hx.
    - intros c0 c' y y' H1 H2 Hb Hb'. rewrite list_lookup_insert_Some in H1, H2.
      destruct H1 as [(-> & <- & _)|[? H1]]; [unfold busy in Hb; rewrite Hx in Hb; by destruct Hb|].
      destruct H2 as [(-> & <- & _)|[? H2]]; [unfold busy in Hb'; rewrite Hx in Hb'; by destruct Hb'|]. eauto.
    - intros c0 y H1. rewrite list_lookup_insert_Some in H1. destruct H1 as [(-> & <- & _)|[? H1]]; [by destruct x|eauto].
    - intros H. apply G5. intros c0 e w H1. destruct (decide (c0 = c)) as [->|Hne]; [congruence|].
      apply (H c0 e w). by rewrite list_lookup_insert_ne. }
  destruct Hs as [s Ha Hl|s Ha Hl|s c d Ha Hc Hd|s c d Ha Hc Hd|s c d msg order Ha Hc Hd Ho He|s c d msg order Ha Hc Hd Ho He
    |s c d msg order e Ha Hc Hd Ho He|s c e Ha Hc|s c e w Ha Hc|s c e w Ha Hc|s c d x t Ha Hc Hd|s a b Ha|s t Ht].
  - exists ls. split; cbn [s_client s_conns]; try done.
    + rewrite received_snoc, app_nil_r, <-G2. f_equal. rewrite !entering_env. cbn. rewrite omap_app. cbn. by rewrite app_nil_r.
    + intros c c' x x' H1 H2 Hb Hb'. apply lookup_app_Some in H1, H2.
      destruct H1 as [H1|[? H1]]; [|apply list_lookup_singleton_Some in H1 as [_ <-]; by destruct Hb].
      destruct H2 as [H2|[? H2]]; [|apply list_lookup_singleton_Some in H2 as [_ <-]; by destruct Hb']. eauto.
    + intros c x H1. apply lookup_app_Some in H1 as [H1|[? H1]]; [by eapply G4|by apply list_lookup_singleton_Some in H1 as [_ <-]].
    + intros H. apply G5. intros c e w H1. apply (H c e w). by apply lookup_app_l_Some.
  - exists ls. split; try done. by rewrite received_snoc, app_nil_r.
  - exists ls. split; try done. by rewrite received_snoc, app_nil_r.
  - exists ls. destruct (Hplain c d (Reading (s_now s + idle)) Hc eq_refl) as (K1 & K2 & K3 & K4). split; try done.
    rewrite received_snoc, app_nil_r, <-G2. f_equal. exact K1.
  - exists ls. destruct (Hplain c d (Reading (s_now s + idle)) Hc eq_refl) as (K1 & K2 & K3 & K4). split; try done.
    rewrite received_snoc, app_nil_r, <-G2. f_equal. exact K1.
  - exists ls. split; try done. by rewrite received_snoc, app_nil_r.
  - exists ls. pose proof (Hq _ _ _ eq_refl) as Hn. pose proof (proj2 (entering_nil s) Hn) as Hi.
    pose proof (lookup_lt_Some _ _ _ Hc) as Hlt.
    assert (K2 : forall c' x', s_conns (with_conn c (Entering e) s) !! c' = Some x' -> busy x' -> c' = c).
    { intros c' x' H1 Hb. cbn in H1. rewrite list_lookup_insert_Some in H1. destruct H1 as [(-> & _ & _)|[? H1]]; [done|].
      by destruct (Hi _ _ H1). }
    split; try done.
    + rewrite received_snoc, <-G2, Hn, app_nil_r. f_equal.
      apply (entering_one _ c (Entering e)); [by apply list_lookup_insert|done|done].
    + intros c1 c2 x1 x2 H1 H2 B1 B2. rewrite (K2 _ _ H1 B1), (K2 _ _ H2 B2). done.
    + intros c' x' H1. cbn in H1. rewrite list_lookup_insert_Some in H1. destruct H1 as [(-> & <- & _)|[? H1]]; [done|].
      by eapply G4.
    + intros H. apply G5. intros c' e' w' H1. apply (Hi _ _ H1). by eexists.
  - exists ls. pose proof (lookup_lt_Some _ _ _ Hc) as Hlt.
    assert (K1 : forall c' x', s_conns s !! c' = Some x' -> busy x' -> c' = c) by (intros c' x' H1 Hb; eapply G3; [done|done|done|by eexists]).
    assert (Hw : d_w (ring s) = d_w (b_ring (brun ring_size batch_size ls))).
    { apply G5. intros c' e' w' H1. assert (c' = c) as -> by (eapply K1; [done|by eexists]). congruence. }
    assert (K2 : forall c' x', s_conns (with_conn c (HasIndex e (d_w (ring s))) s) !! c' = Some x' -> busy x' -> c' = c).
    { intros c' x' H1 Hb. cbn in H1. rewrite list_lookup_insert_Some in H1. destruct H1 as [(-> & _ & _)|[? H1]]; [done|]. eauto. }
    split; try done.
    + rewrite received_snoc, app_nil_r, <-G2. f_equal. rewrite (entering_one s c _ e Hc eq_refl K1).
      apply (entering_one _ c (HasIndex e (d_w (ring s)))); [by apply list_lookup_insert|done|done].
    + intros c1 c2 x1 x2 H1 H2 B1 B2. rewrite (K2 _ _ H1 B1), (K2 _ _ H2 B2). done.
    + intros c' x' H1. cbn in H1. rewrite list_lookup_insert_Some in H1. destruct H1 as [(-> & <- & _)|[? H1]]; [by split|].
      by eapply G4.
  - exists ls. pose proof (lookup_lt_Some _ _ _ Hc) as Hlt.
    assert (K1 : forall c' x', s_conns s !! c' = Some x' -> busy x' -> c' = c) by (intros c' x' H1 Hb; eapply G3; [done|done|done|by eexists]).
    destruct (G4 _ _ Hc) as [Hw1 Hw2].
    assert (K2 : forall c' x', <[c := Stepped e w]> (s_conns s) !! c' = Some x' -> busy x' -> c' = c).
    { intros c' x' H1 Hb. rewrite list_lookup_insert_Some in H1. destruct H1 as [(-> & _ & _)|[? H1]]; [done|]. eauto. }
    split.
    + cbn. unfold ring. rewrite G1. done.
    + rewrite received_snoc, app_nil_r, <-G2. f_equal. rewrite (entering_one s c _ e Hc eq_refl K1).
      apply (entering_one _ c (Stepped e w)); [by apply list_lookup_insert|done|done].
    + intros c1 c2 x1 x2 H1 H2 B1 B2. rewrite (K2 _ _ H1 B1), (K2 _ _ H2 B2). done.
    + intros c' x' H1. cbn in H1. pose proof H1 as H1'. rewrite list_lookup_insert_Some in H1. destruct H1 as [(-> & <- & _)|[Hne H1]]; [by split|].
      destruct x'; try done; (destruct Hne; symmetry; eapply K1; [done|by eexists]).
    + intros H. exfalso. apply (H c e w). by apply list_lookup_insert.
  - exists (ls ++ [BSend [e]]). pose proof (lookup_lt_Some _ _ _ Hc) as Hlt.
    assert (K1 : forall c' x', s_conns s !! c' = Some x' -> busy x' -> c' = c) by (intros c' x' H1 Hb; eapply G3; [done|done|done|by eexists]).
    destruct (G4 _ _ Hc) as [Hw1 Hw2].
    assert (K2 : forall c' x', <[c := Reading (s_now s + idle)]> (s_conns s) !! c' = Some x' -> ~ busy x').
    { intros c' x' H1 Hb. rewrite list_lookup_insert_Some in H1. destruct H1 as [(-> & <- & _)|[Hne H1]]; [by destruct Hb|].
      destruct Hne; symmetry; eapply K1; done. }
    assert (Hb : brun ring_size batch_size (ls ++ [BSend [e]]) = bic_send ring_size (brun ring_size batch_size ls) [e])
      by (unfold brun; by rewrite foldl_app).
    split; cbn zeta.
    + cbn. rewrite Hb. unfold setw. cbn. unfold ring. rewrite G1. cbn. rewrite Hw2. done.
    + rewrite received_snoc, app_nil_r, <-G2, accepted_app. rewrite (entering_one s c _ e Hc eq_refl K1).
      match goal with |- context [entering ?x] => assert (entering x = []) as -> end; [|cbn; by rewrite app_nil_r].
      apply entering_nil. exact K2.
    + intros c1 c2 x1 x2 H1 H2 B1 B2. by destruct (K2 _ _ H1).
    + intros c' x' H1. destruct x'; try done; destruct (K2 _ _ H1); by eexists.
    + intros _. cbn. rewrite Hb. cbn. rewrite Hw2. done.
  - exists ls. destruct (Hplain c d Gone Hc eq_refl) as (K1 & K2 & K3 & K4).
    assert (He : s_client (with_conn c Gone (if t then count_invalid s else s)) = s_client s) by (by destruct t).
    assert (Hc' : s_conns (with_conn c Gone (if t then count_invalid s else s)) = <[c := Gone]> (s_conns s)) by (by destruct t).
    assert (Hr : ring (with_conn c Gone (if t then count_invalid s else s)) = ring s) by (by destruct t).
    split; rewrite ?He, ?Hc', ?Hr; try done.
    rewrite received_snoc, app_nil_r, <-G2. f_equal. etrans; [|exact K1]. by destruct t.
  - exists (ls ++ [BLoop a b]).
    assert (Hb : brun ring_size batch_size (ls ++ [BLoop a b]) = bic_loop ring_size batch_size (brun ring_size batch_size ls) a b)
      by (unfold brun; by rewrite foldl_app).
    assert (Hr : d_w (b_ring (bic_loop ring_size batch_size (s_client s) a b)) = d_w (ring s)) by apply loop_w.
    split; unfold ring; cbn [s_client s_conns]; rewrite ?Hr; try done.
    + rewrite Hb, setw_loop. rewrite <-G1. done.
    + rewrite received_snoc, app_nil_r, <-G2, accepted_app. cbn. by rewrite app_nil_r.
    + intros c x H1. rewrite Hb. pose proof (G4 c x H1) as H. unfold at_ring in *. by rewrite loop_w.
    + intros H. rewrite Hb, loop_w. by apply G5.
  - exists ls. split; try done. by rewrite received_snoc, app_nil_r.
Qed.

Lemma single_runs tr s : runs pf idle (srv0 t0) tr s ->
  (forall tr1 c r e tr2 s1, tr = tr1 ++ EResult c r (Converted e) :: tr2 -> runs pf idle (srv0 t0) tr1 s1 -> entering s1 = []) ->
  exists ls, single tr s ls.
Proof.
  induction 1 as [|tr s1 ev s2 H IH Hs]; intros Hq.
  - exists []. split; cbn; try done.
  - destruct IH as [ls Hls].
    { intros tr1 c r e tr2 s' -> Hr. eapply (Hq tr1 c r e (tr2 ++ [ev])); [by rewrite <-app_assoc|done]. }
    eapply single_step; [done|done|]. intros c r e ->. by eapply (Hq tr c r e []).
Qed.

Lemma one_at_a_time tr s : runs pf idle (srv0 t0) tr s ->
  (forall tr1 c r e tr2 s1, tr = tr1 ++ EResult c r (Converted e) :: tr2 -> runs pf idle (srv0 t0) tr1 s1 -> entering s1 = []) ->
  entering s = [] ->
  exists seen waiting os, received tr = seen ++ waiting /\ explains seen os /\
    (waiting = [] <-> (diode_try ring_size (ring s)).1.2 = None) /\
    got os = requested s ++ b_batch (s_client s) /\ (length (b_batch (s_client s)) < batch_size)%nat /\
    b_dropped (s_client s) = dropped os.
Proof.
  intros H Hq He. destruct (single_runs tr s H Hq) as [ls [G1 G2 G3 G4 G5]].
  assert (Hw : d_w (ring s) = d_w (b_ring (brun ring_size batch_size ls))).
  { apply G5. intros c e w Hc. pose proof (proj2 (entering_nil s) He _ _ Hc) as Hb. apply Hb. by eexists. }
  rewrite Hw, setw_id in G1. rewrite He, app_nil_r in G2.
  destruct (bic_accounting ring_size batch_size ls) as (seen & waiting & os & H1 & H2 & H3 & H4 & H5 & _ & H7); [done|unfold batch_size; lia|].
  exists seen, waiting, os. unfold requested, ring. rewrite G1, <-G2. done.
Qed.

(** A server with a single connection handles one message at a time. *)
Lemma conns_accepts tr s : runs pf idle (srv0 t0) tr s -> length (s_conns s) = accepts tr.
Proof.
  induction 1 as [|tr s1 ev s2 H IH Hs]; [done|]. unfold accepts in *. rewrite omap_app, !app_length, <-IH.
  destruct Hs; cbn -[ring_size]; rewrite ?app_length, ?insert_length; cbn; try lia. by destruct trailing; cbn; lia.
Qed.
Lemma step_reading s c r e s' : step pf idle s (EResult c r (Converted e)) s' -> exists d, s_conns s !! c = Some (Reading d).
Proof. inversion 1; eauto. Qed.
Lemma runs_inv s0 tr ev s : runs pf idle s0 (tr ++ [ev]) s -> exists s1, runs pf idle s0 tr s1 /\ step pf idle s1 ev s.
Proof.
  intros H. remember (tr ++ [ev]) as l eqn:E. destruct H as [|tr' s1 ev' s2 H1 H2].
  - symmetry in E. by apply app_eq_nil in E as [_ ?].
  - apply app_inj_tail in E as [-> ->]. eauto.
Qed.
Lemma runs_nil_inv s0 s : runs pf idle s0 [] s -> s = s0.
Proof.
  intros H. remember [] as l eqn:E. destruct H as [|tr' s1 ev' s2 H1 H2]; [done|]. by apply app_eq_nil in E as [_ ?].
Qed.
Lemma runs_app_inv s0 tr1 tr2 s : runs pf idle s0 (tr1 ++ tr2) s -> exists s1, runs pf idle s0 tr1 s1 /\ runs pf idle s1 tr2 s.
Proof.
  revert s. induction tr2 as [|ev tr2 IH] using rev_ind; intros s H.
  - rewrite app_nil_r in H. exists s. split; [done|constructor].
  - rewrite app_assoc in H. apply runs_inv in H as (s2 & H1 & H2).
    destruct (IH _ H1) as (s' & ? & ?). exists s'. split; [done|]. by econstructor.
Qed.
Lemma runs_app s0 tr1 s1 tr2 s : runs pf idle s0 tr1 s1 -> runs pf idle s1 tr2 s -> runs pf idle s0 (tr1 ++ tr2) s.
Proof.
  intros H1 H2. induction H2 as [|tr s2 ev s3 H IH Hs]; [by rewrite app_nil_r|]. rewrite app_assoc. by econstructor.
Qed.
Lemma runs_one s ev s' : runs pf idle s [ev] s' -> step pf idle s ev s'.
Proof. intros H. apply (runs_inv s []) in H as (s1 & H1 & H2). by rewrite <-(runs_nil_inv _ _ H1). Qed.
Lemma step_det s ev s1 s2 : step pf idle s ev s1 -> step pf idle s ev s2 -> s1 = s2.
Proof. destruct 1; inversion 1; subst; try congruence. Qed.
Lemma runs_det s0 tr s1 s2 : runs pf idle s0 tr s1 -> runs pf idle s0 tr s2 -> s1 = s2.
Proof.
  intros H. revert s2. induction H as [|tr s1 ev s1' H IH Hs]; intros s2 H2.
  - by rewrite (runs_nil_inv _ _ H2).
  - apply runs_inv in H2 as (s3 & H3 & H4). rewrite <-(IH _ H3) in H4. by eapply step_det.
Qed.
Lemma one_connection tr s : runs pf idle (srv0 t0) tr s -> (accepts tr <= 1)%nat ->
  forall tr1 c r e tr2 s1, tr = tr1 ++ EResult c r (Converted e) :: tr2 -> runs pf idle (srv0 t0) tr1 s1 -> entering s1 = [].
Proof.
  intros H Ha tr1 c r e tr2 s1 -> H1. apply runs_app_inv in H as (s1' & H1' & H2).
  pose proof (runs_det _ _ _ _ H1 H1') as <-.
  change (EResult c r (Converted e) :: tr2) with ([EResult c r (Converted e)] ++ tr2) in H2.
  apply runs_app_inv in H2 as (s2 & H2 & _). apply runs_one, step_reading in H2 as [d Hd].
  pose proof (conns_accepts _ _ H1) as Hl. unfold accepts in *. rewrite omap_app, app_length in Ha.
  apply entering_nil. intros c' x Hc' Hb. assert (c' = c) as ->.
  { apply lookup_lt_Some in Hc', Hd. lia. }
  rewrite Hd in Hc'. injection Hc' as <-. by destruct Hb.
Qed.

(** ** deadlines *)
Lemma clock_snoc tr ev : clock t0 (tr ++ [ev]) = match ev with EClock t => t | _ => clock t0 tr end.
Proof. unfold clock. rewrite omap_app. destruct ev; cbn; rewrite ?app_nil_r; try done. by rewrite last_snoc. Qed.
Lemma now_clock tr s : runs pf idle (srv0 t0) tr s -> s_now s = clock t0 tr.
Proof.
  induction 1 as [|tr s1 ev s2 H IH Hs]; [done|]. rewrite clock_snoc, <-IH. destruct Hs; try done. by destruct trailing.
Qed.
Lemma clock_mono tr s p q : runs pf idle (srv0 t0) tr s -> tr = p ++ q -> clock t0 p <= clock t0 tr.
Proof.
  intros H. revert q. induction H as [|tr s1 ev s2 H IH Hs]; intros q E.
  - destruct p; [done|done].
  - destruct q as [|ev' q' _] using rev_ind; [rewrite app_nil_r in E; by rewrite E|].
    rewrite app_assoc in E. apply app_inj_tail in E as [E ->]. etrans; [by eapply IH|].
    rewrite clock_snoc. destruct ev'; try lia. rewrite <-(now_clock _ _ H). by inversion Hs.
Qed.
Lemma snoc_cases {A} (tr : list A) ev p e q : tr ++ [ev] = p ++ e :: q ->
  (q = [] /\ p = tr /\ e = ev) \/ exists q', q = q' ++ [ev] /\ tr = p ++ e :: q'.
Proof.
  intros E. destruct q as [|x q' _] using rev_ind.
  - apply app_inj_tail in E as [-> ->]. by left.
  - right. exists q'. change (p ++ e :: q' ++ [x]) with (p ++ (e :: q') ++ [x]) in E. rewrite app_assoc in E.
    apply app_inj_tail in E as [-> ->]. done.
Qed.
Definition due (tr : list event) (c : nat) (d : Z) : Prop :=
  (forall p ev q, tr = p ++ ev :: q -> completes c p ev -> clock t0 p + idle <= d) /\
  (exists p ev q, tr = p ++ ev :: q /\ completes c p ev /\ d = clock t0 p + idle).
Lemma due_snoc tr c d ev : due tr c d -> ~ completes c tr ev -> due (tr ++ [ev]) c d.
Proof.
  intros [H1 (p & e & q & H2 & H3 & H4)] Hn. split.
  - intros p' e' q' E Hc. apply snoc_cases in E as [(-> & -> & ->)|(q'' & -> & ->)]; [done|]. by eapply H1.
  - exists p, e, (q ++ [ev]). subst tr. by rewrite <-app_assoc.
Qed.
Lemma due_now tr s c ev : runs pf idle (srv0 t0) tr s -> completes c tr ev -> due (tr ++ [ev]) c (s_now s + idle).
Proof.
  intros H Hc. rewrite (now_clock _ _ H). split.
  - intros p' e' q' E Hc'. apply snoc_cases in E as [(-> & -> & ->)|(q'' & -> & ->)]; [done|].
    pose proof (clock_mono _ _ p' (e' :: q'') H eq_refl). lia.
  - by exists tr, ev, [].
Qed.
Lemma deadlines tr s : runs pf idle (srv0 t0) tr s -> forall c d, s_conns s !! c = Some (Reading d) -> due tr c d.
Proof.
  induction 1 as [|tr s ev s2 H IH Hs]; intros c0 d0 Hc0; [done|].
  pose proof (conns_accepts _ _ H) as Hl.
  assert (Hins : forall c x, (<[c := x]> (s_conns s)) !! c0 = Some (Reading d0) -> (c0 = c /\ x = Reading d0) \/ (c0 <> c /\ s_conns s !! c0 = Some (Reading d0))).
  { intros c x Hx. apply list_lookup_insert_Some in Hx as [(-> & -> & _)|[? ?]]; auto. }
  destruct Hs as [s Ha Hl'|s Ha Hl'|s c d Ha Hc Hd|s c d Ha Hc Hd|s c d msg order Ha Hc Hd Ho He|s c d msg order Ha Hc Hd Ho He
    |s c d msg order e Ha Hc Hd Ho He|s c e Ha Hc|s c e w Ha Hc|s c e w Ha Hc|s c d x t Ha Hc Hd|s a b Ha|s t Ht].
  - cbn in Hc0. apply lookup_app_Some in Hc0 as [Hc0|[Hge Hc0]].
    + apply due_snoc; [by apply IH|]. intros [[_ E]|[[r E]|E]]; [|done|done]. apply lookup_lt_Some in Hc0. lia.
    + apply list_lookup_singleton_Some in Hc0 as [Hlen [= <-]]. apply due_now; [done|]. left. split; [done|lia].
  - apply due_snoc; [by apply IH|]. intros [[E _]|[[r E]|E]]; done.
  - apply due_snoc; [by apply IH|]. intros [[E _]|[[r E]|E]]; done.
  - apply Hins in Hc0 as [[-> [= <-]]|[Hne Hc0]].
    + apply due_now; [done|]. right; left; eauto.
    + apply due_snoc; [by apply IH|]. intros [[E _]|[[r E]|E]]; [done|congruence|done].
  - apply Hins in Hc0 as [[-> [= <-]]|[Hne Hc0]].
    + apply due_now; [done|]. right; left; eauto.
    + apply due_snoc; [by apply IH|]. intros [[E _]|[[r E]|E]]; [done|congruence|done].
  - apply due_snoc; [by apply IH|]. intros [[E _]|[[r E]|E]]; done.
  - apply Hins in Hc0 as [[-> ?]|[Hne Hc0]]; [done|]. apply due_snoc; [by apply IH|]. intros [[E _]|[[r E]|E]]; done.
  - apply Hins in Hc0 as [[-> ?]|[Hne Hc0]]; [done|]. apply due_snoc; [by apply IH|]. intros [[E _]|[[r E]|E]]; done.
  - apply Hins in Hc0 as [[-> ?]|[Hne Hc0]]; [done|]. apply due_snoc; [by apply IH|]. intros [[E _]|[[r E]|E]]; done.
  - cbn in Hc0. apply Hins in Hc0 as [[-> [= <-]]|[Hne Hc0]].
    + apply due_now; [done|]. by right; right.
    + apply due_snoc; [by apply IH|]. intros [[E _]|[[r E]|E]]; [done|done|congruence].
  - assert (Hx : <[c := Gone]> (s_conns s) !! c0 = Some (Reading d0)) by (by destruct t).
    apply Hins in Hx as [[-> ?]|[Hne Hc1]]; [done|]. apply due_snoc; [by apply IH|]. intros [[E _]|[[r E]|E]]; done.
  - apply due_snoc; [by apply IH|]. intros [[E _]|[[r E]|E]]; done.
  - apply due_snoc; [by apply IH|]. intros [[E _]|[[r E]|E]]; done.
Qed.
Lemma expired_idle tr1 c b tr2 s : runs pf idle (srv0 t0) (tr1 ++ EEnd c true b :: tr2) s ->
  forall p ev q, tr1 = p ++ ev :: q -> completes c p ev -> clock t0 p + idle <= clock t0 tr1.
Proof.
  intros H p ev q E Hc. apply runs_app_inv in H as (s1 & H1 & H2).
  change (EEnd c true b :: tr2) with ([EEnd c true b] ++ tr2) in H2. apply runs_app_inv in H2 as (s2 & H2 & _).
  apply runs_one in H2. rewrite <-(now_clock _ _ H1). inversion H2 as [| | | | | | | | | |s' c' d x t Ha Hc' Hd| |]; subst.
  cbn in Hd. destruct (deadlines _ _ H1 _ _ Hc') as [Hdl _]. pose proof (Hdl p ev q eq_refl Hc). lia.
Qed.
Lemma idle_ends tr s c d : runs pf idle (srv0 t0) tr s -> s_alive s = true -> s_conns s !! c = Some (Reading d) ->
  ((forall p ev q, tr = p ++ ev :: q -> completes c p ev -> clock t0 p + idle <= clock t0 tr) ->
    (exists s', step pf idle s (EEnd c true false) s' /\ s_conns s' !! c = Some Gone) /\ forall r o s', ~ step pf idle s (EResult c r o) s') /\
  (forall p ev q, tr = p ++ ev :: q -> completes c p ev -> clock t0 tr < clock t0 p + idle ->
    forall b s', ~ step pf idle s (EEnd c true b) s').
Proof.
  intros H Ha Hc. destruct (deadlines _ _ H _ _ Hc) as [D1 (p0 & e0 & q0 & E0 & C0 & D2)]. split.
  - intros Hi. pose proof (Hi _ _ _ E0 C0) as Hle. rewrite <-(now_clock _ _ H), <-D2 in Hle. split.
    + eexists. split; [by eapply (step_end _ _ s c d true false)|]. cbn. apply list_lookup_insert. by eapply lookup_lt_Some.
    + intros r o s' Hs. inversion Hs; subst; rewrite Hc in *; simplify_eq; lia.
  - intros p ev q E Cc Hlt b s' Hs. pose proof (D1 _ _ _ E Cc). rewrite <-(now_clock _ _ H) in Hlt.
    inversion Hs; subst; rewrite Hc in *; simplify_eq; cbn in *; lia.
Qed.
End run.
