(** Properties of the running syslog server: many connections, deadlines, and the batching client behind it
    (C151-C153).  Vocabulary: Syslog/SpecServer.v, Syslog/Spec.v, Nozzle/Spec.v.  Executions: Syslog/Server.v. *)
From Coq Require Import Ascii String NArith.
From stdpp Require Import prelude gmap strings list.
From Verif.Base Require Import GoInt Envelope.
From Verif.Nozzle Require Import Spec Model Proofs.
From Verif.Syslog Require Import Model Spec Proofs Server SpecServer ProofsServer.
Open Scope string_scope.
Open Scope list_scope.
Open Scope Z_scope.

(** Messages used in the examples *)
Definition hello (app : string) : smessage := mk_smsg (Some 14) (Some 5) (Some app) (Some "[APP/0]") (Some "hello") None.
Definition hello_env (app : string) : envelope := mk_env 5 app "0" ∅ {["source_type" := "APP"]} (MLog "hello" false).
Lemma hello_converts pf order app : convert pf order (hello app) = Converted (hello_env app).
Proof. unfold convert, hello, hello_env. cbn -[trim_space source_type_inst wrap64]. by vm_compute. Qed.
Definition some_order : gmap string (gmap string string) -> list (string * gmap string string) := map_to_list.
Lemma some_order_ok : any_order some_order.
Proof. by intros d. Qed.

(** ** C151 *)
(** Whatever the connections do and however their goroutines interleave: every envelope made from a message says
    what the message says; every message is counted as ingress once it was handed to the client, every error and
    unusable message as invalid; and Log Cache is sent nothing but envelopes of messages, none more often than it was
    received. *)
Theorem C151_account : ∀ pf idle t0 tr s, runs pf idle (srv0 t0) tr s ->
  (∀ c msg e, EResult c (Some msg) (Converted e) ∈ tr -> means pf msg e) ∧
  (N.to_nat (s_ingress s) + length (entering s) = length (received tr))%nat ∧
  N.to_nat (s_invalid s) = useless tr ∧
  requested s ⊆+ received tr.
Proof.
  intros pf idle t0 tr s H. destruct (account_runs _ _ _ _ _ H) as (H1 & H2 & H3). split_and!; [|done|done|].
  - intros c msg e Hin. apply elem_of_list_split in Hin as (p & q & ->). apply runs_app_inv in H as (s1 & _ & H).
    change (EResult c (Some msg) (Converted e) :: q) with ([EResult c (Some msg) (Converted e)] ++ q) in H.
    apply runs_app_inv in H as (s2 & H & _). apply runs_one in H. inversion H; subst. by eapply convert_means.
  - etrans; [|exact H1]. unfold in_client. rewrite <-app_assoc. by apply submseteq_inserts_r.
Qed.
Print Assumptions C151_account.

(** False: that a message counted as ingress is sent on or counted as dropped.  Two connections which hand over a
    message at the same time: both are counted, and whatever happens afterwards one of them is not sent to Log
    Cache, nor is it counted as dropped. *)
Definition race : list event :=
  [EAccept; EAccept; EResult 0 (Some (hello "a")) (Converted (hello_env "a")); EResult 1 (Some (hello "b")) (Converted (hello_env "b"));
   EIndex 0; EIndex 1; EIncrement 0; EIncrement 1; EStore 0; EStore 1].
Definition raced (idle : Z) : server :=
  mk_srv 0 true true [Reading (0 + idle); Reading (0 + idle)] 2 0 (Bic (Diode (<[(0 `mod` ring_size)%N := (0%N, hello_env "b")]> (<[(0 `mod` ring_size)%N := (0%N, hello_env "a")]> ∅)) 1 0) [] [] 0).
Lemma raced_buf idle : d_buf (ring (raced idle)) = {[0%N := (0%N, hello_env "b")]}.
Proof. cbn -[N.modulo insert singletonM]. rewrite insert_insert, insert_empty. done. Qed.
Ltac stepping := repeat (eapply runs_snoc with (tr := _ :: _) || eapply (runs_snoc _ _ _ [])).
Lemma race_runs pf idle : 0 < idle -> runs pf idle (srv0 0) race (raced idle).
Proof.
  intros Hi. assert (Hs : forall tr s1 ev s2, runs pf idle (srv0 0) tr s1 -> step pf idle s1 ev s2 -> runs pf idle (srv0 0) (tr ++ [ev]) s2)
    by (intros; by econstructor).
  change race with ((((((((((([] ++ [EAccept]) ++ [EAccept]) ++ [EResult 0 (Some (hello "a")) (Converted (hello_env "a"))]) ++
    [EResult 1 (Some (hello "b")) (Converted (hello_env "b"))]) ++ [EIndex 0]) ++ [EIndex 1]) ++ [EIncrement 0]) ++ [EIncrement 1]) ++ [EStore 0]) ++ [EStore 1])).
  eapply Hs; [eapply Hs; [eapply Hs; [eapply Hs; [eapply Hs; [eapply Hs; [eapply Hs; [eapply Hs; [eapply Hs; [eapply Hs; [apply runs_nil|]|]|]|]|]|]|]|]|]|].
  - by apply step_accept.
  - by apply step_accept.
  - eapply step_send; [done|done|cbn; lia|apply some_order_ok|apply hello_converts].
  - eapply step_send; [done|done|cbn; lia|apply some_order_ok|apply hello_converts].
  - eapply step_index; done.
  - eapply step_index; done.
  - eapply step_increment; done.
  - eapply step_increment; done.
  - by eapply step_store.
  - match goal with |- step _ _ ?s _ _ => replace (raced idle) with
      (let s' := with_conn 1 (Reading (s_now s + idle))
                   (with_ring (Diode (<[(0 `mod` ring_size)%N := (0%N, hello_env "b")]> (d_buf (ring s))) (d_w (ring s)) (d_r (ring s))) s) in
       mk_srv (s_now s') (s_listening s') (s_alive s') (s_conns s') (s_ingress s' + 1)%N (s_invalid s') (s_client s')) end.
    + by eapply step_store.
    + done.
Qed.
Lemma raced_dropped pf idle tr s : runs pf idle (raced idle) tr s -> received tr = [] -> b_dropped (s_client s) = 0%N.
Proof.
  intros H Hr. enough (entering s = [] ∧ b_dropped (s_client s) = 0%N ∧
    ((d_buf (ring s) = {[0%N := (0%N, hello_env "b")]} ∧ d_r (ring s) = 0%N) ∨ d_buf (ring s) = ∅)) by naive_solver.
  induction H as [|tr s1 ev s2 H IH Hs]; [split_and!; [done|done|left; split; [apply raced_buf|done]]|].
  rewrite received_snoc in Hr. apply app_eq_nil in Hr as [Hr Hev]. destruct (IH Hr) as (I1 & I2 & I3).
  pose proof (proj2 (entering_nil s1) I1) as Hq.
  destruct (flow_step _ _ _ _ _ Hs) as (_ & _ & _).
  assert (He : entering s2 = []).
  { apply entering_nil. intros c x Hc Hb. destruct Hs; cbn in Hc;
      try (apply list_lookup_insert_Some in Hc as [(-> & <- & _)|[_ Hc]]; [by destruct Hb|]; by apply (Hq _ _ Hc));
      try (by apply (Hq _ _ Hc)); try done.
    - apply lookup_app_Some in Hc as [Hc|[_ Hc]]; [by apply (Hq _ _ Hc)|]. apply list_lookup_singleton_Some in Hc as [_ <-]. by destruct Hb.
    - match goal with H : s_conns _ !! _ = Some (Entering _) |- _ => apply (Hq _ _ H); by eexists end.
    - match goal with H : s_conns _ !! _ = Some (HasIndex _ _) |- _ => apply (Hq _ _ H); by eexists end.
    - destruct trailing; cbn in Hc; (apply list_lookup_insert_Some in Hc as [(-> & <- & _)|[_ Hc]]; [by destruct Hb|]; by apply (Hq _ _ Hc)). }
  split; [done|].
  destruct Hs; try done; try (by destruct trailing);
    try (match goal with H : s_conns _ !! _ = Some _ |- _ => destruct (Hq _ _ H); by eexists end).
  cbn [s_client]. unfold ring in *. cbn [s_client].
  unfold bic_loop, diode_try. destruct I3 as [[E1 E2]|E1].
  - rewrite E1, E2. change (0 mod ring_size)%N with 0%N. rewrite lookup_singleton.
    change (0 <? 0)%N with false. cbn [b_batch b_reqs b_ring b_dropped default]. rewrite delete_singleton.
    repeat (destruct (decide _) || destruct lapsed); unfold write_batch; cbn; try (destruct (b_batch (s_client s) ++ _));
      cbn; (split; [lia|by right]).
  - rewrite E1, lookup_empty. cbn [b_batch b_reqs b_ring b_dropped default].
    destruct lapsed; unfold write_batch; cbn; try (destruct (b_batch (s_client s))); cbn; (split; [lia|by right]).
Qed.
Theorem C151_race_refuted : ∀ pf idle, 0 < idle -> ∃ tr s, runs pf idle (srv0 0) tr s ∧
  received tr = [hello_env "a"; hello_env "b"] ∧ s_ingress s = 2%N ∧ entering s = [] ∧
  ∀ tr' s', runs pf idle s tr' s' ->
    requested s' ⊆+ hello_env "b" :: received tr' ∧ (received tr' = [] -> b_dropped (s_client s') = 0%N).
Proof.
  intros pf idle Hi. exists race, (raced idle). split_and!; [by apply race_runs|done|done|done|].
  intros tr' s' H. split; [|by apply (raced_dropped pf idle tr')].
  assert (E : in_client (s_client (raced idle)) = [hello_env "b"]).
  { unfold in_client, slots. change (b_ring (s_client (raced idle))) with (ring (raced idle)). rewrite raced_buf, map_to_list_singleton. done. }
  change (hello_env "b" :: received tr') with ([hello_env "b"] ++ received tr'). rewrite <-E.
  rewrite <-(app_nil_r (in_client (s_client (raced idle)))).
  change [] with (entering (raced idle)).
  etrans; [|exact (flow_runs _ _ _ _ _ H)]. unfold in_client. rewrite <-app_assoc. by apply submseteq_inserts_r.
Qed.
Print Assumptions C151_race_refuted.

(** When no connection hands over a message while another one does, the requests to Log Cache carry, in order, what
    was received except what is counted as dropped, what waits in the buffer and fewer than 512 envelopes waiting for
    a full batch.  Missing: messages at the same time. *)
Theorem C151_in_turn_partial : ∀ pf idle t0 tr s, runs pf idle (srv0 t0) tr s ->
  (∀ tr1 c r e tr2 s1, tr = tr1 ++ EResult c r (Converted e) :: tr2 -> runs pf idle (srv0 t0) tr1 s1 -> entering s1 = []) ->
  entering s = [] ->
  ∃ seen waiting os, received tr = seen ++ waiting ∧ explains seen os ∧
    (waiting = [] ↔ (diode_try ring_size (ring s)).1.2 = None) ∧
    got os = requested s ++ b_batch (s_client s) ∧ (length (b_batch (s_client s)) < batch_size)%nat ∧
    b_dropped (s_client s) = dropped os.
Proof. exact one_at_a_time. Qed.
Print Assumptions C151_in_turn_partial.

(** That is so as long as there is only one connection. *)
Theorem C151_one_connection_partial : ∀ pf idle t0 tr s, runs pf idle (srv0 t0) tr s -> (accepts tr <= 1)%nat ->
  ∀ tr1 c r e tr2 s1, tr = tr1 ++ EResult c r (Converted e) :: tr2 -> runs pf idle (srv0 t0) tr1 s1 -> entering s1 = [].
Proof. exact one_connection. Qed.
Print Assumptions C151_one_connection_partial.

(** One connection, one message, one batch *)
Definition plain : list event :=
  [EAccept; EResult 0 (Some (hello "a")) (Converted (hello_env "a")); EIndex 0; EIncrement 0; EStore 0; ELoop false true; ELoop true true].
Lemma plain_runs pf idle : 0 < idle -> ∃ s, runs pf idle (srv0 0) plain s ∧ s_alive s = true ∧ s_listening s = true ∧
  s_conns s = [Reading (0 + idle)] ∧ entering s = [] ∧ s_ingress s = 1%N ∧ b_reqs (s_client s) = [PeerReq true [hello_env "a"] true] ∧
  (diode_try ring_size (ring s)).1.2 = None ∧ b_batch (s_client s) = [] ∧ b_dropped (s_client s) = 0%N.
Proof.
  intros Hi. assert (Hs : forall tr s1 ev s2, runs pf idle (srv0 0) tr s1 -> step pf idle s1 ev s2 -> runs pf idle (srv0 0) (tr ++ [ev]) s2)
    by (intros; by econstructor).
  change plain with ((((((([] ++ [EAccept]) ++ [EResult 0 (Some (hello "a")) (Converted (hello_env "a"))]) ++
    [EIndex 0]) ++ [EIncrement 0]) ++ [EStore 0]) ++ [ELoop false true]) ++ [ELoop true true]).
  eexists. split.
  { eapply Hs; [eapply Hs; [eapply Hs; [eapply Hs; [eapply Hs; [eapply Hs; [eapply Hs; [apply runs_nil|]|]|]|]|]|]|].
    - by apply step_accept.
    - eapply step_send; [done|done|cbn; lia|apply some_order_ok|apply hello_converts].
    - eapply step_index; done.
    - eapply step_increment; done.
    - by eapply step_store.
    - by apply step_loop.
    - by apply step_loop. }
  split_and!; by vm_compute.
Qed.
Example C151_case : ∀ pf, ∃ s, runs pf 100 (srv0 0) plain s ∧ (accepts plain <= 1)%nat ∧ entering s = [] ∧ s_ingress s = 1%N ∧
  requested s = [hello_env "a"].
Proof.
  intros pf. destruct (plain_runs pf 100) as (s & H & _ & _ & _ & He & Hn & Hq & _); [lia|]. exists s.
  split_and!; try done. unfold requested. by rewrite Hq.
Qed.

(** ** C152 *)
(** False: that a connection on which data arrives is kept open.  A message that takes longer than the idle timeout
    to arrive is cut off however steadily its bytes come in: a nanosecond after the last of them the connection is
    closed. *)
Theorem C152_busy_refuted : ∀ pf idle, 0 < idle -> ∃ p s,
  runs pf idle (srv0 0) (p ++ [EBytes 0; EClock (clock 0 p + 1); EEnd 0 true false]) s ∧
  ∀ t, 0 <= t < idle -> ∃ p1 q1, p ++ [EBytes 0] = p1 ++ EBytes 0 :: q1 ∧ clock 0 p1 = t.
Proof.
  intros pf idle Hi. 
  assert (Hk : forall k, Z.of_nat k < idle -> ∃ p s, runs pf idle (srv0 0) p s ∧ s_alive s = true ∧ s_conns s = [Reading idle] ∧
    clock 0 p = Z.of_nat k ∧ s_now s = Z.of_nat k ∧ ∀ t, 0 <= t <= Z.of_nat k -> ∃ p1 q1, p ++ [EBytes 0] = p1 ++ EBytes 0 :: q1 ∧ clock 0 p1 = t).
  { induction k as [|k IH]; intros Hlt.
    - eexists [EAccept], _. split_and!.
      + eapply (runs_snoc _ _ _ []); [constructor|by apply step_accept].
      + done.
      + done.
      + done.
      + done.
      + intros t Ht. assert (t = 0) as -> by lia. exists [EAccept], []. done.
    - destruct IH as (p & s & Hr & Ha & Hc & Hp & Hn & Hall); [lia|].
      eexists ((p ++ [EBytes 0]) ++ [EClock (Z.of_nat (S k))]), _. split_and!.
      + econstructor; [econstructor; [exact Hr|]|].
        * apply (step_bytes _ _ s 0%nat idle); [done|by rewrite Hc|lia].
        * apply step_clock. lia.
      + done.
      + done.
      + by rewrite clock_snoc.
      + done.
      + intros t Ht. destruct (decide (t = Z.of_nat (S k))) as [->|Hne].
        * eexists _, []. split; [done|]. by rewrite clock_snoc.
        * destruct (Hall t) as (p1 & q1 & E & Et); [lia|]. exists p1, (q1 ++ [EClock (Z.of_nat (S k)); EBytes 0]). split; [|done].
          rewrite E. by rewrite <-!app_assoc. }
  destruct (Hk (Z.to_nat (idle - 1))) as (p & s & Hr & Ha & Hc & Hp & Hn & Hall); [lia|].
  eexists p, _. split.
  - change [EBytes 0; EClock (clock 0 p + 1); EEnd 0 true false] with ([EBytes 0] ++ [EClock (clock 0 p + 1)] ++ [EEnd 0 true false]).
    rewrite !app_assoc. econstructor; [econstructor; [econstructor; [exact Hr|]|]|].
    + apply (step_bytes _ _ s 0%nat idle); [done|by rewrite Hc|lia].
    + apply step_clock. lia.
    + eapply step_end; [done|by cbn; rewrite Hc|cbn; lia].
  - intros t Ht. apply Hall. lia.
Qed.
Print Assumptions C152_busy_refuted.

(** A connection is closed for idleness only if for the whole idle timeout it was not begun and no message on it was
    completed.  Missing: messages that take longer than that. *)
Theorem C152_idle_partial : ∀ pf idle t0 tr1 c b tr2 s, runs pf idle (srv0 t0) (tr1 ++ EEnd c true b :: tr2) s ->
  ∀ p ev q, tr1 = p ++ ev :: q -> completes c p ev -> clock t0 p + idle <= clock t0 tr1.
Proof. exact expired_idle. Qed.
Print Assumptions C152_idle_partial.

(** And after that time it is closed, and is not listened to any longer. *)
Theorem C152_closed : ∀ pf idle t0 tr s c d, runs pf idle (srv0 t0) tr s -> s_alive s = true -> s_conns s !! c = Some (Reading d) ->
  ((∀ p ev q, tr = p ++ ev :: q -> completes c p ev -> clock t0 p + idle <= clock t0 tr) ->
    (∃ s', step pf idle s (EEnd c true false) s' ∧ s_conns s' !! c = Some Gone) ∧ ∀ r o s', ¬ step pf idle s (EResult c r o) s') ∧
  (∀ p ev q, tr = p ++ ev :: q -> completes c p ev -> clock t0 tr < clock t0 p + idle ->
    ∀ b s', ¬ step pf idle s (EEnd c true b) s').
Proof. exact idle_ends. Qed.
Print Assumptions C152_closed.

(** A connection that brings a message, falls silent and is closed *)
Example C152_case : ∀ pf, ∃ s, runs pf 100 (srv0 0) ((plain ++ [EClock 100]) ++ [EEnd 0 true false]) s ∧
  s_conns s = [Gone] ∧ completes 0 (take 4 plain) (EStore 0) ∧ clock 0 (take 4 plain) = 0.
Proof.
  intros pf. destruct (plain_runs pf 100) as (s & H & Ha & _ & Hc & _); [lia|]. eexists. split.
  - econstructor; [econstructor; [exact H|]|].
    + apply step_clock. pose proof (now_clock _ _ _ _ _ H) as Hn. cbn in Hn. lia.
    + eapply step_end; [done|by cbn; rewrite Hc|cbn; lia].
  - split_and!; [cbn; by rewrite Hc|by right; right|done].
Qed.

(** ** C153 *)
(** False: that a running server accepts connections.  After one failing Accept (too many open files, say) it never
    accepts another one, while the process and its open connections live on. *)
Theorem C153_accept_refuted : ∀ pf idle, ∃ s, runs pf idle (srv0 0) [EAcceptFails] s ∧ s_alive s = true ∧
  ∀ tr s', runs pf idle s tr s' -> EAccept ∉ tr.
Proof.
  intros pf idle. eexists. split_and!.
  - eapply (runs_snoc _ _ _ []); [constructor|by apply step_accept_fails].
  - done.
  - intros tr s' H. enough (EAccept ∉ tr ∧ s_listening s' = false) by naive_solver.
    induction H as [|tr s1 ev s2 H IH Hs]; [split; [apply not_elem_of_nil|done]|]. destruct IH as [I1 I2]. split.
    + rewrite elem_of_app, elem_of_list_singleton. intros [?|<-]; [done|]. inversion Hs; congruence.
    + destruct Hs; cbn in *; try congruence. by destruct trailing.
Qed.
Print Assumptions C153_accept_refuted.

(** Until Accept fails or a message brings the process down, a new connection can be accepted, whatever the others are
    doing, and whatever message comes on an open connection is handled; and an accepted connection stays open until its
    own parser ends: it is read from, or the message it brought is being handed over. *)
Theorem C153_serving_partial : ∀ pf idle t0 tr s, runs pf idle (srv0 t0) tr s ->
  EAcceptFails ∉ tr -> (∀ c r, EResult c r Crash ∉ tr) ->
  (∃ s', step pf idle s EAccept s') ∧
  (∀ c d msg, s_conns s !! c = Some (Reading d) -> s_now s < d -> ∃ o s', step pf idle s (EResult c (Some msg) o) s') ∧
  (∀ c, (c < accepts tr)%nat -> (∀ e b, EEnd c e b ∉ tr) ->
    (∃ d, s_conns s !! c = Some (Reading d)) ∨ ∃ ev s', ev ∈ [EIndex c; EIncrement c; EStore c] ∧ step pf idle s ev s').
Proof.
  intros pf idle t0 tr s H Hf Hc. assert (s_alive s = true ∧ s_listening s = true) as [Ha Hl].
  { revert Hf Hc. induction H as [|tr s1 ev s2 H IH Hs]; intros Hf Hc; [done|].
    destruct IH as [I1 I2]. { set_solver. } { set_solver. }
    destruct Hs; cbn in *; try done; try (by destruct trailing).
    - exfalso. apply Hf. set_solver.
    - exfalso. apply (Hc c (Some msg)). set_solver. }
  split; [|split].
  - eexists. by apply step_accept.
  - intros c d msg Hcd Hd. destruct (convert pf some_order msg) as [| |e] eqn:E.
    + eexists _, _. eapply step_crash; [done|done|done|apply some_order_ok|done].
    + eexists _, _. eapply step_invalid; [done|done|done|apply some_order_ok|done].
    + eexists _, _. eapply step_send; [done|done|done|apply some_order_ok|done].
  - intros c Hlt He. rewrite <-(conns_accepts _ _ _ _ _ H) in Hlt. destruct (lookup_lt_is_Some_2 _ _ Hlt) as [x Hx].
    assert (x <> Gone).
    { intros ->. clear -H He Hx. induction H as [|tr s1 ev s2 H IH Hs]; [done|]. assert (He1 : ∀ e b, EEnd c e b ∉ tr) by set_solver.
      specialize (IH He1). assert (Hev : ∀ e b, ev <> EEnd c e b) by (intros e b ->; apply (He e b); set_solver).
      assert (Hi : forall c' y (l : list conn), (<[c' := y]> l) !! c = Some Gone -> y <> Gone \/ c' <> c -> l !! c = Some Gone).
      { intros c' y l Hl. apply list_lookup_insert_Some in Hl as [(-> & -> & _)|[? ?]]; naive_solver. }
      destruct Hs; cbn -[ring_size] in *; try (by apply IH); try (apply IH; eapply Hi; [exact Hx|by left]).
      - apply IH. apply lookup_app_Some in Hx as [?|[_ Hx]]; [done|]. by apply list_lookup_singleton_Some in Hx as [_ ?].
      - apply IH. destruct trailing; (eapply Hi; [exact Hx|right; intros ->; by eapply Hev]). }
    destruct x as [d|e|e w|e w|]; [eauto|..|done]; right; eexists _, _.
    + split; [by left|]. by eapply step_index.
    + split; [by right; left|]. by eapply step_increment.
    + split; [by right; right; left|]. by eapply step_store.
Qed.
Print Assumptions C153_serving_partial.

Example C153_case : ∀ pf, ∃ s, runs pf 100 (srv0 0) plain s ∧ EAcceptFails ∉ plain ∧ ∀ c r, EResult c r Crash ∉ plain.
Proof.
  intros pf. destruct (plain_runs pf 100) as (s & H & _); [lia|]. exists s. split_and!; [done|..].
  - unfold plain. rewrite !elem_of_cons, elem_of_nil. naive_solver.
  - intros c r. unfold plain. rewrite !elem_of_cons, elem_of_nil. naive_solver.
Qed.
