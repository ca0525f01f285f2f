(** Messages and their sizes on a gRPC connection: C173. *)
From Coq Require Import Ascii String.
From stdpp Require Import prelude strings list gmap.
From Verif.Base Require Import GoInt Envelope.
From Verif.Store Require Import Model Spec.
From Verif.Routing Require Import Model Spec.
From Verif.Whole Require Import SpecFull.
From Verif.Http Require Import Model.
From Verif.Json Require Import Text Spec SpecPb.
From Verif.Client Require Import Walk.
From Verif.Wire Require Import Format Model Spec Received Node SpecNode NodeProofs Frame SpecFrame FrameProofs FrameLarge.
Open Scope string_scope.
Open Scope list_scope.
Open Scope Z_scope.

(** ** C173 *)
(** A message of up to 4 MiB comes out of its frame as it went in, whatever follows it on the connection; a larger one does not come out *)
Theorem C173_frame : ∀ b s rest, frame b = Some s →
  (takes b → recv_msg max_receive (s +:+ rest) = Some (b, rest)) ∧ (¬ takes b → recv_msg max_receive (s +:+ rest) = None).
Proof.
  intros b s rest E. split; intros H; [by apply recv_frame|]. apply (recv_large b); [done|]. unfold takes in H. unfold max_receive. lia.
Qed.
Print Assumptions C173_frame.
(** A call is answered over a connection exactly if its request and its answer are no larger than that *)
Theorem C173_call : ∀ peer b r, over peer b = Some r ↔ takes b ∧ peer b = Some r ∧ takes r.
Proof. exact over_iff. Qed.
Print Assumptions C173_call.
(** ... and a node's store is what its smaller requests made it *)
Theorem C173_history : ∀ compile mine cs s, port_run compile mine cs s = node_run compile mine (filter small cs) s.
Proof. exact port_run_eq. Qed.
Print Assumptions C173_history.
(** Two logs of 3 MB for one source are accepted one after the other.  From then on no read that covers them both, with the
    default limit or any of 2 or more, is answered, though the store finds them. *)
Theorem C173_read_refuted : ∀ compile, ∃ b1 b2 s1 s, let e1 := big_log 1 "a" 3000000 in let e2 := big_log 2 "a" 3000000 in
  marshal_send (mk_send false (Some [e1])) = Some b1 ∧ marshal_send (mk_send false (Some [e2])) = Some b2 ∧
  port_call compile (λ _, true) (CallSend 5 b1) (new_store 5) = Some (s1, Some "") ∧ port_call compile (λ _, true) (CallSend 6 b2) s1 = Some (s, Some "") ∧
  ∀ now b rq, unmarshal_read b = Some rq → rr_source rq = "a" → rr_start rq <= 1 → (rr_end rq = 0 ∧ 2 < now) ∨ 2 < rr_end rq →
    rr_limit rq = 0 ∨ 2 <= rr_limit rq <= 1000 → rr_types rq = [] → rr_name rq = "" →
    local_read compile now rq s = ReadOk (if rr_desc rq then [e2; e1] else [e1; e2]) ∧ ∃ s', port_call compile (λ _, true) (CallRead now b) s = Some (s', None).
Proof.
  intros compile. assert (Ha : utf8 "a") by (apply utf8_1; [unfold Json.Spec.range; change (nat_of_ascii "a") with 97%nat; lia|constructor]).
  destruct (send_one false 1 "a" 3000000 ltac:(unfold int64; lia) Ha ltac:(lia) ltac:(unfold bytes; cbn; lia)) as (b1 & M1 & T1 & U1).
  destruct (send_one false 2 "a" 3000000 ltac:(unfold int64; lia) Ha ltac:(lia) ltac:(unfold bytes; cbn; lia)) as (b2 & M2 & T2 & U2).
  destruct (two_sends compile _ _ b1 b2 U1 U2 T1 T2) as (s1 & s & C1 & C2 & Hr). exists b1, b2, s1, s. cbv zeta.
  split; [exact M1|]. split; [exact M2|]. split; [exact C1|]. split; [exact C2|]. intros now b rq. apply (two_read compile 3000000 b1 b2); [lia|exact U1|exact U2|exact Hr].
Qed.
Print Assumptions C173_read_refuted.
(** Sent together, as the nozzle and the nodes send what they have collected, neither is accepted *)
Theorem C173_batch_refuted : ∀ compile s now lo b, marshal_send (mk_send lo (Some [big_log 1 "a" 3000000; big_log 2 "a" 3000000])) = Some b →
  port_call compile (λ _, true) (CallSend now b) s = Some (s, None).
Proof. intros compile s now lo b. apply two_batch. lia. Qed.
Print Assumptions C173_batch_refuted.
(** A walk from the start that is to go on after errors reads the same for ever and delivers nothing *)
Definition port_reader (compile : string → option (string → bool)) (node_clock clock : nat → Z) (s : store) (src : string) (i : nat) (r : walk_read) : answer :=
  mk_answer
    (match marshal_read (mk_rr src (wr_start r) (default 0 (wr_end r)) (default 0 (wr_limit r)) (default [] (wr_types r)) false (default "" (wr_name r))) with
     | Some b => match port_call compile (λ _, true) (CallRead (node_clock i) b) s with
                 | Some (_, Some b') => x ← unmarshal_read_response b'; x
                 | _ => None
                 end
     | None => None
     end) false (clock i).
Theorem C173_walk_refuted : ∀ compile, ∃ b1 b2 s1 s, let e1 := big_log 1 "a" 3000000 in let e2 := big_log 2 "a" 3000000 in
  marshal_send (mk_send false (Some [e1])) = Some b1 ∧ marshal_send (mk_send false (Some [e2])) = Some b2 ∧
  port_call compile (λ _, true) (CallSend 5 b1) (new_store 5) = Some (s1, Some "") ∧ port_call compile (λ _, true) (CallSend 6 b2) s1 = Some (s, Some "") ∧
  ∀ node_clock clock visitor n, (∀ i, 2 < node_clock i) →
    walk always_retry default_walk (port_reader compile node_clock clock s "a") visitor n () = (replicate n (EvRead (read_of default_walk 0)), WRunning).
Proof.
  intros compile. destruct (C173_read_refuted compile) as (b1 & b2 & s1 & s & M1 & M2 & C1 & C2 & H). exists b1, b2, s1, s. cbv zeta.
  split; [exact M1|]. split; [exact M2|]. split; [exact C1|]. split; [exact C2|]. intros node_clock clock visitor n Hc.
  assert (R : ∀ i, a_batch (port_reader compile node_clock clock s "a" i (read_of default_walk 0)) = None ∧ a_cancelled (port_reader compile node_clock clock s "a" i (read_of default_walk 0)) = false).
  { intros i. split; [|done]. unfold port_reader. cbn [a_batch]. destruct (marshal_read _) as [b|] eqn:Eb; [|done].
    assert (Ub : unmarshal_read b = Some (mk_rr "a" 0 0 0 [] false "")).
    { revert Eb. intros Eb. vm_compute in Eb. injection Eb as <-. by vm_compute. }
    destruct (H (node_clock i) b _ Ub eq_refl ltac:(cbn; lia) (or_introl (conj eq_refl (Hc i))) (or_introl eq_refl) eq_refl eq_refl) as [_ [s' Hs']]. by rewrite Hs'. }
  assert (L : ∀ n u i re dl, walk_loop always_retry default_walk (port_reader compile node_clock clock s "a") visitor n i u 0 re dl = (replicate n (EvRead (read_of default_walk 0)), WRunning)).
  { clear n. induction n as [|n IH]; intros u i re dl; [done|]. cbn [walk_loop replicate]. destruct (R i) as [-> ->]. cbn [b_err always_retry]. by rewrite IH. }
  apply L.
Qed.
Print Assumptions C173_walk_refuted.
(** Meta is not answered as soon as the source ids come to more than 4 MiB, and accepted sends can bring a node there *)
Theorem C173_meta : ∀ compile s b, 4 * 1024 * 1024 < Z.of_nat (list_sum (String.length ∘ fst <$> map_to_list (Store.Model.meta s))) →
  port_call compile (λ _, true) (CallMeta b) s = Some (s, None).
Proof. intros compile s b H. apply meta_large. exact H. Qed.
Print Assumptions C173_meta.
Theorem C173_meta_refuted : ∀ compile, ∃ b1 b2 s1 s,
  port_call compile (λ _, true) (CallSend 5 b1) (new_store 5) = Some (s1, Some "") ∧ port_call compile (λ _, true) (CallSend 6 b2) s1 = Some (s, Some "") ∧
  ∀ b, port_call compile (λ _, true) (CallMeta b) s = Some (s, None).
Proof.
  intros compile. pose proof (many_length "a" 3000000 ltac:(lia)) as Hl. pose proof (many_length "a" 2999999 ltac:(lia)) as Hl'.
  destruct (send_one false 1 (many "a" 3000000) 0 ltac:(unfold int64; lia) (many_utf8 _) ltac:(lia) ltac:(rewrite Hl; lia)) as (b1 & _ & T1 & U1).
  destruct (send_one false 2 (many "a" 2999999) 0 ltac:(unfold int64; lia) (many_utf8 _) ltac:(lia) ltac:(rewrite Hl'; lia)) as (b2 & _ & T2 & U2).
  destruct (two_sends compile _ _ b1 b2 U1 U2 T1 T2) as (s1 & s & C1 & C2 & Hr). exists b1, b2, s1, s. split; [exact C1|]. split; [exact C2|]. intros b.
  assert (Hne : many "a" 3000000 ≠ many "a" 2999999) by (intros E; rewrite E, Hl' in Hl; lia).
  destruct (two_sources compile _ _ _ _ b1 b2 s Hne U1 U2 Hr) as [K1 K2]. apply C173_meta. pose proof (two_keys compile _ _ _ Hne K1 K2) as K. unfold bytes in *. lia.
Qed.
Print Assumptions C173_meta_refuted.
(** What is small enough is answered: n envelopes of at most k bytes each, if n (k + 11) + 11 bytes are no more than 4 MiB ... *)
Theorem C173_fits : ∀ es n k b, Forall (λ e, encoded_size e <= k) es → Z.of_nat (length es) <= n → 0 <= k → n * (k + 11) + 11 <= 4 * 1024 * 1024 →
  marshal_read_response (Some es) = Some b → carried b = Some b.
Proof.
  intros es n k b He Hn Hk Hs E. apply carried_small. pose proof (answer_size es k b He E). unfold takes. nia.
Qed.
Print Assumptions C173_fits.
(** ... what was sent in one batch can be answered in one ... *)
Theorem C173_batch : ∀ lo es b r, marshal_send (mk_send lo (Some es)) = Some b → takes b → marshal_read_response (Some es) = Some r → carried r = Some r.
Proof. intros lo es b r Hb Ht Hr. apply carried_small. by eapply same_batch. Qed.
Print Assumptions C173_batch.
(** ... so a node to which no envelope larger than k was sent answers every acceptable read of the size that goes with it
    (1000 envelopes for 4183 bytes, 100 for 41931) with what it holds and the request selects *)
Theorem C173_node_partial : ∀ compile mine m cs s now b rq k, 1 <= m → port_run compile mine cs (new_store m) = Some s →
  unmarshal_read b = Some rq → takes b → mine (rr_source rq) = true → acceptable compile rq → enum_types (rr_types rq) →
  let sent := sent_for mine (rr_source rq) (filter small cs) in
  distinct_times sent → 0 <= k → Forall (λ e, encoded_size e <= k) sent → (if rr_limit rq =? 0 then 100 else rr_limit rq) * (k + 11) + 11 <= 4 * 1024 * 1024 →
  ∃ l q all s' b', may_hold mine m (rr_source rq) (filter small cs) l ∧ resolved compile now rq q ∧
    (∀ e, wanted_type (q_types q) e ↔ requested_type (rr_types rq) e) ∧
    Store.Spec.answers q (if q_desc q then reverse l else l) all ∧
    port_call compile mine (CallRead now b) s = Some (s', Some b') ∧ unmarshal_read_response b' = Some (Some (take (Z.to_nat (q_limit q)) all)).
Proof.
  intros compile mine m cs s now b rq k Hm Hr Eb Hb Hmine Hacc Hen sent D Hk Hs Hsize. rewrite port_run_eq in Hr.
  destruct (node_exact_marshal compile mine m _ s now b rq Hm Hr Eb Hmine Hacc Hen D) as (l & q & all & s' & b' & Hl & Hq & Hw & Ha & Hc & Hmr & Hu).
  exists l, q, all, s', b'. split; [done|]. split; [done|]. split; [done|]. split; [done|].
  assert (Hall : Forall (λ e, encoded_size e <= k) all).
  { assert (Hin : ∀ e, e ∈ (if q_desc q then reverse l else l) → encoded_size e <= k).
    { intros e He. assert (He' : e ∈ l) by (destruct (q_desc q); [by apply elem_of_reverse|done]). eapply hold_sent in He'; [|exact Hl]. rewrite Forall_forall in Hs. by apply Hs. }
    clear -Ha Hin. induction Ha as [|e e' l0 out (_ & Hp & _) _ IH|e l0 out _ _ IH]; [constructor|..].
    - constructor; [|apply IH; intros x Hx; apply Hin; by right]. apply projects_size in Hp. etransitivity; [exact Hp|]. apply Hin. left.
    - apply IH. intros x Hx. apply Hin. by right. }
  assert (Ht : takes b').
  { pose proof (answer_size (take (Z.to_nat (q_limit q)) all) k b' ltac:(by apply Forall_take) Hmr) as Hz. rewrite take_length in Hz.
    destruct (rs_limit _ _ _ _ Hq) as [Hl1 Hl2]. destruct Hacc as (_ & Hlo & _). unfold takes. destruct (Z.eqb_spec (rr_limit rq) 0) as [E0|E0]; [rewrite (Hl2 E0) in Hz|rewrite (Hl1 E0) in Hz]; nia. }
  rewrite port_call_eq, decide_True by done. rewrite Hc. cbn [mbind option_bind]. rewrite decide_True by done. split; [done|]. apply Hu. unfold takes, bytes, fits in *. lia.
Qed.
Print Assumptions C173_node_partial.

(** Examples *)
Example C173_frame_ex : frame "ab" = Some (String "000" (String "000" (String "000" (String "000" (String "002" "ab"))))) ∧
  recv_msg max_receive (String "000" (String "000" (String "000" (String "000" (String "002" "abc"))))) = Some ("ab", "c") ∧
  recv_msg max_receive (String "001" (String "000" (String "000" (String "000" (String "002" "abc"))))) = None ∧
  recv_msg max_receive (String "000" (String "000" (String "064" (String "000" (String "001" "abc"))))) = None.
Proof. repeat split; vm_compute; reflexivity. Qed.
(** 1000 envelopes of up to 4183 bytes, 100 of up to 41931 *)
Example C173_fits_ex : 1000 * (4183 + 11) + 11 <= 4 * 1024 * 1024 ∧ 100 * (41931 + 11) + 11 <= 4 * 1024 * 1024.
Proof. lia. Qed.
(** a node that was sent two small logs of a source answers a read of it over the connection *)
Example C173_node_ex : ∃ b b1 s s' out, marshal_read (mk_rr "a" 0 9 10 [] false "") = Some b ∧ takes b ∧
  marshal_send (mk_send false (Some [big_log 1 "a" 3; big_log 2 "a" 4])) = Some b1 ∧
  port_run (λ _, None) (λ _, true) [CallSend 5 b1] (new_store 3) = Some s ∧
  sent_for (λ _, true) "a" (filter small [CallSend 5 b1]) = [big_log 1 "a" 3; big_log 2 "a" 4] ∧
  Forall (λ e, encoded_size e <= 20) [big_log 1 "a" 3; big_log 2 "a" 4] ∧
  port_call (λ _, None) (λ _, true) (CallRead 8 b) s = Some (s', Some out) ∧ unmarshal_read_response out = Some (Some [big_log 1 "a" 3; big_log 2 "a" 4]).
Proof.
  destruct (marshal_read (mk_rr "a" 0 9 10 [] false "")) as [b|] eqn:E; [|by vm_compute in E].
  destruct (marshal_send (mk_send false (Some [big_log 1 "a" 3; big_log 2 "a" 4]))) as [b1|] eqn:E1; [|by vm_compute in E1].
  destruct (port_run (λ _, None) (λ _, true) [CallSend 5 b1] (new_store 3)) as [s|] eqn:Es; [|vm_compute in E1; injection E1 as <-; by vm_compute in Es].
  destruct (port_call (λ _, None) (λ _, true) (CallRead 8 b) s) as [[s' [out|]]|] eqn:Ec.
  2,3: vm_compute in E1; injection E1 as <-; vm_compute in E; injection E as <-; vm_compute in Es; injection Es as <-; by vm_compute in Ec.
  exists b, b1, s, s', out. vm_compute in E. injection E as <-. vm_compute in E1. injection E1 as <-. split; [reflexivity|]. split; [by vm_compute|]. split; [reflexivity|]. split; [exact Es|]. split; [by vm_compute|].
  split; [repeat (apply Forall_cons_2; [by vm_compute|]); constructor|]. split; [exact Ec|].
  vm_compute in Es. injection Es as <-. vm_compute in Ec. injection Ec as <- <-. by vm_compute.
Qed.
