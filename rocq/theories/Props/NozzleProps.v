(** Properties of the nozzle, the bounded buffer and the batching client.
    Vocabulary: Nozzle/Spec.v and Nozzle/Observe.v. *)
From stdpp Require Import prelude gmap.
From Coq Require Import NArith.
From Verif.Nozzle Require Import Spec Model Observe Proofs ProofsNozzle.
Open Scope nat_scope.

(** * C63: the nozzle forwards every received envelope exactly once, in order,
      in batches no larger than its limit, leaving nothing behind when it
      flushes. *)

(** False in general: with the constants of the code, an envelope is received,
    no call fails, nothing is reported, everything comes to rest, and the
    envelope was never sent.  The batch that met a full channel is gone. *)
Theorem C63_lost_refuted :
  exists (ls : list (nlabel nat)) s, nrun nozzle_cfg (noz_new 2) ls = Some s /\
    (z_envs s = [] /\ z_ch s = [] /\ Forall (fun w => w = None) (z_workers s) /\
     (diode_try 100000 (z_ring s)).1.2 = None) /\
    z_ingress s = 513%N /\ z_egress s = 512%N /\ z_err s = 0%N /\ z_missed s = 0%N /\
    received ls = seq 0 513 /\ concat (map fst (z_sent s)) = seq 0 512.
Proof. exact flood_loses. Qed.
Print Assumptions C63_lost_refuted.

(** False in general: two workers deliver two batches in the wrong order. *)
Theorem C63_order_refuted :
  exists (ls : list (nlabel nat)) s, nrun nozzle_cfg (noz_new 2) ls = Some s /\
    received ls = [1; 2] /\ z_err s = 0%N /\ map fst (z_sent s) = [[2]; [1]].
Proof. exact workers_reorder. Qed.
Print Assumptions C63_order_refuted.

(** What holds of every run.  The received envelopes are a prefix [seen] taken
    out of the ring buffer and the [waiting] ones.  Each of [seen] was either
    reported as missed or went, in order, into a batch [fl] or the slice being
    filled; no batch is empty or larger than the limit.  The marked batches are,
    each once, those sent, those being sent and those in the channel; the others
    were thrown away.  The three counters count what they say.
    Missing for the full property: order between workers and an account of the
    batches thrown away, which the code does not give. *)
Theorem C63_accounting_partial : forall {E} (c : ncfg) k (ls : list (nlabel E)) s,
  (0 < n_ring c)%N -> 0 < n_batch c -> nrun c (noz_new k) ls = Some s ->
  exists seen waiting os (fl : list (bool * list E)),
    received ls = seen ++ waiting /\ explains seen os /\
    (waiting = [] <-> (diode_try (n_ring c) (z_ring s)).1.2 = None) /\
    got os = concat (map snd fl) ++ z_envs s /\
    (forall m b, (m, b) ∈ fl -> 0 < length b <= n_batch c) /\
    marked fl ≡ₚ map fst (z_sent s) ++ in_flight s ++ z_ch s /\
    z_missed s = dropped os /\
    z_ingress s = N.of_nat (length (received ls)) /\
    z_egress s = N.of_nat (length (concat (acked s))) /\
    z_err s = N.of_nat (length (failed s)).
Proof. exact @nozzle_accounting. Qed.
Print Assumptions C63_accounting_partial.

(** While the channel has room and the buffer is not overrun, every received
    envelope is sent exactly once; with one worker also in order. *)
Theorem C63_forwarded_partial : forall {E} (c : ncfg) k (ls : list (nlabel E)) s,
  (0 < n_ring c)%N -> 0 < n_batch c -> nrun c (noz_new k) ls = Some s ->
  roomy c k ls -> z_missed s = 0%N -> at_rest c s ->
  concat (map fst (z_sent s)) ≡ₚ received ls /\
  (k <= 1 -> concat (map fst (z_sent s)) = received ls).
Proof. exact @nozzle_forwards. Qed.
Print Assumptions C63_forwarded_partial.

(** A flush leaves nothing behind, and everything it held is in the channel if
    that has room. *)
Theorem C63_flush : forall {E} (c : ncfg) (s s' : noz E),
  nstep c s (NSelect true) = Some s' ->
  z_envs s' = [] /\
  (length (z_ch s) < n_chan c -> concat (z_ch s') = concat (z_ch s) ++ z_envs s).
Proof. exact @nozzle_flush. Qed.
Print Assumptions C63_flush.

(** A run that meets the hypotheses of the two theorems above: a full batch and
    a flushed one, one send failing. *)
Definition example_run : list (nlabel nat) :=
  [NRecv 1; NRecv 2; NRecv 3; NPoll; NSelect false; NPoll; NSelect false; NPoll; NSelect true;
   NPoll; NSelect true; NTake 0; NAnswer 0 true; NTake 0; NAnswer 0 false].
Example C63_example :
  let c := NCfg 4 2 3 in
  exists s, nrun c (noz_new 1) example_run = Some s /\
    z_missed s = 0%N /\ at_rest c s /\ z_sent s = [([1; 2], true); ([3], false)].
Proof.
  eexists. split; [vm_compute; reflexivity|]. split; [done|]. split; [|done].
  split; [vm_compute; done|]. split; [done|]. split; [done|]. by repeat constructor.
Qed.
Example C63_example_roomy : roomy (NCfg 4 2 3) 1 example_run.
Proof.
  intros l1 l2 s1 Hl Hr.
  assert (Hl1 : l1 = take (length l1) example_run) by (rewrite Hl; symmetry; apply take_app).
  rewrite Hl1 in Hr.
  assert (Hlen : length l1 <= 15) by (apply (f_equal length) in Hl; rewrite app_length in Hl; cbn in Hl; lia).
  clear Hl Hl1. revert Hr. generalize dependent (length l1). intros m Hm Hr.
  do 16 (destruct m as [|m]; [vm_compute in Hr; injection Hr as <-; cbn; lia|]). lia.
Qed.

(** * C64: every envelope put in the nozzle's ring buffer is either delivered
      once in order or counted as dropped. *)

(** For every interleaving of one producer and one consumer and every buffer
    size: what was put is a prefix accounted for in order, delivered or counted
    at the place where it is missing, and a rest still in the buffer; the next
    read finds nothing exactly when there is no rest. *)
Theorem C64_accounting : forall {A} (n : N) (ops : list (bufop A)) d os,
  (0 < n)%N -> diode_run n diode_new ops = (d, os) ->
  exists seen rest, puts ops = seen ++ rest /\ explains seen os /\
    ((diode_try n d).1.2 = None <-> rest = []).
Proof. exact @run_accounting. Qed.
Print Assumptions C64_accounting.

(** Nothing is dropped while at most [n] envelopes wait. *)
Theorem C64_no_loss : forall {A} (n : N) (ops : list (bufop A)),
  (0 < n)%N ->
  (forall ops1 ops2, ops = ops1 ++ ops2 ->
     N.of_nat (length (puts ops1)) <= N.of_nat (length (got (diode_run n diode_new ops1).2)) + n)%N ->
  dropped (diode_run n (@diode_new A) ops).2 = 0%N.
Proof. exact @run_no_loss. Qed.
Print Assumptions C64_no_loss.

Example C64_example :
  (diode_run 2 diode_new [Put 1; Put 2; Next; Put 3; Put 4; Put 5; Next; Next; Next]).2
  = [Got 1; Dropped 2; Got 4; Got 5].
Proof. vm_compute. reflexivity. Qed.

(** * C82: envelopes handed to the batching client reach the peer once, in order
      and marked as local, or are counted as dropped. *)

(** False in general: Send may be called by several goroutines, but the buffer
    is written for one producer.  Two envelopes are accepted, one is read, and
    none is ever counted as dropped, however often the consumer polls. *)
Theorem C82_race_refuted :
  let s0 := Racy diode_new [PIdle [1]; PIdle [2]] in
  exists (is : list nat) s,
    rrun 10000 s0 is = Some s /\ y_prods s = [PIdle []; PIdle []] /\
    forall m, (diode_run 10000 (y_ring s) (replicate (S m) Next)).2 = [Got 2].
Proof. exact race_loses. Qed.
Print Assumptions C82_race_refuted.

(** Nor is a request repeated or counted that the peer rejects: the envelope is never delivered and nothing
    is dropped as far as the metric knows, whatever the client does from then on. *)
Lemma rejected_stays : forall more : list (bool * bool),
  let s := brun 10000 2 ([BSend [1]; BLoop true false] ++ map (fun x => BLoop x.1 x.2) more) in
  b_reqs s = [PeerReq true [1] false] /\ b_batch s = [] /\ b_dropped s = 0%N /\
  (diode_try 10000 (b_ring s)).1.2 = None.
Proof.
  intros more. cbv zeta. unfold brun. rewrite foldl_app.
  set (s0 := foldl (bstep 10000 2) bic_new [BSend [1]; BLoop true false]).
  assert (E : foldl (bstep 10000 2) s0 (map (fun x => BLoop x.1 x.2) more) = s0).
  { induction more as [|[a b] more IH]; [done|]. cbn [map foldl fst snd].
    assert (bstep 10000 2 s0 (BLoop a b) = s0) as -> by (destruct a, b; vm_compute; reflexivity). exact IH. }
  rewrite E. vm_compute. done.
Qed.
Theorem C82_rejected_refuted : forall more : list (bool * bool),
  let s := brun 10000 2 ([BSend [1]; BLoop true false] ++ map (fun x => BLoop x.1 x.2) more) in
  b_reqs s = [PeerReq true [1] false] /\ b_batch s = [] /\ b_dropped s = 0%N /\
  (diode_try 10000 (b_ring s)).1.2 = None.
Proof. exact rejected_stays. Qed.
Print Assumptions C82_rejected_refuted.

(** With one caller at a time.  The requests to the peer carry, in order, all
    accepted envelopes except those counted as dropped, those still in the
    buffer, and fewer than [size] waiting for a full batch.  Every request is
    marked local and carries between one and [size] envelopes.
    Missing for the full property: concurrent callers and requests the peer
    rejects, both refuted above. *)
Theorem C82_accounting_partial : forall {E} (n : N) size (ls : list (blabel E)),
  (0 < n)%N -> 0 < size ->
  exists seen waiting os,
    accepted ls = seen ++ waiting /\ explains seen os /\
    (waiting = [] <-> (diode_try n (b_ring (brun n size ls))).1.2 = None) /\
    got os = concat (map pr_envs (b_reqs (brun n size ls))) ++ b_batch (brun n size ls) /\
    length (b_batch (brun n size ls)) < size /\
    (forall r, r ∈ b_reqs (brun n size ls) -> pr_local r = true /\ 0 < length (pr_envs r) <= size) /\
    b_dropped (brun n size ls) = dropped os.
Proof. exact @bic_accounting. Qed.
Print Assumptions C82_accounting_partial.

Example C82_example :
  b_reqs (brun 4 2 [BSend [1; 2; 3]; BLoop false true; BLoop false false; BLoop false true; BLoop true true])
  = [PeerReq true [1; 2] false; PeerReq true [3] true].
Proof. vm_compute. reflexivity. Qed.
