(** The bounded ring buffer between a producer and a consumer, the nozzle that
    forwards envelopes from the firehose to Log Cache, and the batching client
    a node uses towards its peers.

    The ring buffer (go-diodes OneToOne) and the batcher (go-batching) are
    libraries that are not part of /repo.  They are modelled here from their
    published source because the code in /repo is only meaningful with them;
    this is part of the trusted base (see DESIGN.md). *)
From Coq Require Import NArith String.
From stdpp Require Import prelude gmap.
From Verif.Nozzle Require Import Spec.
Open Scope string_scope.
Open Scope list_scope.
Open Scope nat_scope.

(** * go-diodes OneToOne (used by internal/nozzle/nozzle.go:68 and
      internal/routing/batched_ingress_client.go:41)

    type OneToOne struct \{ buffer []unsafe.Pointer; writeIndex, readIndex uint64;
    alerter Alerter \}.  A slot is absent from [d_buf] when its pointer is nil.
    The indices are uint64 in the library; they are unbounded here (2^64 writes
    do not happen in practice). *)
Record diode (A : Type) := Diode {
  d_buf : gmap N (N * A);   (* index -> bucket{seq, data} *)
  d_w : N;                  (* writeIndex *)
  d_r : N                   (* readIndex *)
}.
Arguments Diode {A} _ _ _.
Arguments d_buf {A} _.
Arguments d_w {A} _.
Arguments d_r {A} _.

(** NewOneToOne(size, alerter). *)
Definition diode_new {A} : diode A := Diode ∅ 0 0.

(** func (d *OneToOne) Set(data): idx := writeIndex % len; bucket\{data, seq:
    writeIndex\}; writeIndex++; atomic.StorePointer(&buffer[idx], bucket).
    With one producer only the store is visible to the consumer, so the call is
    one step.  [n] is len(d.buffer). *)
Definition diode_set {A} (n : N) (d : diode A) (x : A) : diode A :=
  Diode (<[(d_w d `mod` n)%N := (d_w d, x)]> (d_buf d)) (d_w d + 1) (d_r d).

(** func (d *OneToOne) TryNext(): idx := readIndex % len; result :=
    atomic.SwapPointer(&buffer[idx], nil); nil → no value; seq < readIndex → no
    value; seq > readIndex → alerter.Alert(seq - readIndex), readIndex = seq;
    readIndex++; return the data.  The second component is the value returned,
    the third the argument of the call to Alert, if it is made. *)
Definition diode_try {A} (n : N) (d : diode A) : diode A * option A * option N :=
  let idx := (d_r d `mod` n)%N in
  match d_buf d !! idx with
  | None => (d, None, None)
  | Some (seq, x) =>
      let buf := delete idx (d_buf d) in
      if (seq <? d_r d)%N then (Diode buf (d_w d) (d_r d), None, None)
      else if (d_r d <? seq)%N then (Diode buf (d_w d) (seq + 1), Some x, Some (seq - d_r d)%N)
      else (Diode buf (d_w d) (d_r d + 1), Some x, None)
  end.

(** A history of calls by one producer and one consumer, in the order of the
    atomic accesses to the slots, and what the consumer observes of it. *)
Fixpoint diode_run {A} (n : N) (d : diode A) (ops : list (bufop A)) : diode A * list (obs A) :=
  match ops with
  | [] => (d, [])
  | Put x :: ops => diode_run n (diode_set n d x) ops
  | Next :: ops =>
      let '(d, o, a) := diode_try n d in
      let '(d', os) := diode_run n d ops in
      (d', match a with Some k => [Dropped k] | None => [] end ++
           match o with Some x => [Got x] | None => [] end ++ os)
  end.

(** * The nozzle (internal/nozzle/nozzle.go) *)

(** Constants of a nozzle: the size of the ring buffer (nozzle.go:68, 100000),
    the batch limit and the capacity of the channel (both BATCH_CHANNEL_SIZE,
    nozzle.go:42) and the number of workers (2*runtime.NumCPU(),
    nozzle.go:109). *)
Record ncfg := NCfg { n_ring : N; n_batch : nat; n_chan : nat }.
Definition nozzle_cfg : ncfg := NCfg 100000 512 512.

Section Nozzle.
Context {E : Type}.

(** The state of a started nozzle.  [z_flush] says whether envelopeBatcher is at
    the select (nozzle.go:130) rather than at the top of its loop
    (nozzle.go:124).  [z_workers] has, for each envelopeWriter, the batch it is
    sending.  [z_sent] is the history of completed calls of Send on Log Cache,
    with their success, in order of completion.  The counters are float64 in
    the code; they are exact integers here (exact below 2^53). *)
Record noz := Noz {
  z_ring : diode E;
  z_envs : list E;                    (* envelopes, nozzle.go:121 *)
  z_flush : bool;
  z_ch : list (list E);               (* ch, nozzle.go:107 *)
  z_workers : list (option (list E));
  z_sent : list (list E * bool);
  z_ingress : N;                      (* nozzle_ingress *)
  z_egress : N;                       (* nozzle_egress *)
  z_err : N;                          (* nozzle_err *)
  z_missed : N                        (* sum of "stream buffer dropped %d points" *)
}.

(** Start (nozzle.go:91-116) with [k] workers. *)
Definition noz_new (k : nat) : noz :=
  Noz diode_new [] false [] (replicate k None) [] 0 0 0 0.

(** What can happen next: the reader receives an envelope; the batcher polls the
    ring buffer; the batcher executes the select, its timer having fired or not;
    worker [i] receives from the channel; Log Cache answers worker [i]. *)
Inductive nlabel :=
  | NRecv (e : E)
  | NPoll
  | NSelect (fired : bool)
  | NTake (i : nat)
  | NAnswer (i : nat) (ok : bool).

(** The inner select (nozzle.go:133-140, 144-149): [case ch <- envelopes] is
    taken iff the buffered channel has room; else the envelopes are dropped. *)
Definition offer (c : ncfg) (s : noz) : noz :=
  if decide (length (z_ch s) < n_chan c) then
    Noz (z_ring s) [] false (z_ch s ++ [z_envs s]) (z_workers s) (z_sent s)
        (z_ingress s) (z_egress s) (z_err s) (z_missed s)
  else
    Noz (z_ring s) [] false (z_ch s) (z_workers s) (z_sent s)
        (z_ingress s) (z_egress s) (z_err s) (z_missed s).

Definition no_offer (s : noz) : noz :=
  Noz (z_ring s) (z_envs s) false (z_ch s) (z_workers s) (z_sent s)
      (z_ingress s) (z_egress s) (z_err s) (z_missed s).

(** One step; None when the step is not enabled.
    - NRecv: envelopeReader, nozzle.go:180-188.
    - NPoll: nozzle.go:124-128.
    - NSelect: nozzle.go:130-155 (the sleep is a delay without effect).
    - NTake: nozzle.go:162.
    - NAnswer: nozzle.go:164-176. *)
Definition nstep (c : ncfg) (s : noz) (l : nlabel) : option noz :=
  match l with
  | NRecv e =>
      Some (Noz (diode_set (n_ring c) (z_ring s) e) (z_envs s) (z_flush s) (z_ch s)
                (z_workers s) (z_sent s) (z_ingress s + 1)%N (z_egress s) (z_err s) (z_missed s))
  | NPoll =>
      if z_flush s then None else
      let '(d, o, a) := diode_try (n_ring c) (z_ring s) in
      Some (Noz d (match o with Some e => z_envs s ++ [e] | None => z_envs s end) true
                (z_ch s) (z_workers s) (z_sent s) (z_ingress s) (z_egress s) (z_err s)
                (z_missed s + default 0 a)%N)
  | NSelect fired =>
      if negb (z_flush s) then None else
      Some (if fired then
              if decide (0 < length (z_envs s)) then offer c s else no_offer s
            else
              if decide (n_batch c <= length (z_envs s)) then offer c s else no_offer s)
  | NTake i =>
      match z_workers s !! i, z_ch s with
      | Some None, b :: ch =>
          Some (Noz (z_ring s) (z_envs s) (z_flush s) ch (<[i := Some b]> (z_workers s))
                    (z_sent s) (z_ingress s) (z_egress s) (z_err s) (z_missed s))
      | _, _ => None
      end
  | NAnswer i ok =>
      match z_workers s !! i with
      | Some (Some b) =>
          Some (Noz (z_ring s) (z_envs s) (z_flush s) (z_ch s) (<[i := None]> (z_workers s))
                    (z_sent s ++ [(b, ok)]) (z_ingress s)
                    (if ok then z_egress s + N.of_nat (length b) else z_egress s)%N
                    (if ok then z_err s else z_err s + 1)%N (z_missed s))
      | _ => None
      end
  end.

Fixpoint nrun (c : ncfg) (s : noz) (ls : list nlabel) : option noz :=
  match ls with
  | [] => Some s
  | l :: ls => s' ← nstep c s l; nrun c s' ls
  end.

End Nozzle.
Arguments noz : clear implicits.
Arguments nlabel : clear implicits.

(** buildBatchReq (nozzle.go:218-230) with selectorTypes (nozzle.go:190-216):
    a selector name that is not in the map appends a nil selector. *)
Inductive selector := SelLog | SelGauge | SelCounter | SelTimer | SelEvent.
Definition selector_types (name : string) : option selector :=
  if String.eqb name "log" then Some SelLog
  else if String.eqb name "gauge" then Some SelGauge
  else if String.eqb name "counter" then Some SelCounter
  else if String.eqb name "timer" then Some SelTimer
  else if String.eqb name "event" then Some SelEvent
  else None.
Record batch_req := BatchReq {
  br_shard : string; br_preferred : bool; br_selectors : list (option selector) }.
Definition build_batch_req (shard : string) (selectors : list string) : batch_req :=
  BatchReq shard true (map selector_types selectors).

(** * The batching client (internal/routing/batched_ingress_client.go) *)
Section Client.
Context {E : Type}.

(** A request the client sends to its peer: LocalOnly, the envelopes, and
    whether the peer answered without error. *)
Record peer_req := PeerReq { pr_local : bool; pr_envs : list E; pr_ok : bool }.

Record bic := Bic {
  b_ring : diode E;             (* buffer, 10000 slots *)
  b_batch : list E;             (* the batcher's batch *)
  b_reqs : list peer_req;       (* calls made on the peer *)
  b_dropped : N                 (* incDroppedMetric *)
}.
Definition bic_new : bic := Bic diode_new [] [] 0.

(** Send (batched_ingress_client.go:53-59): one Set per envelope of the batch.
    It always answers with an empty response and no error. *)
Definition bic_send (n : N) (s : bic) (es : list E) : bic :=
  Bic (foldl (diode_set n) (b_ring s) es) (b_batch s) (b_reqs s) (b_dropped s).

(** batcher.writeBatch with the writer of batched_ingress_client.go:74-89:
    nothing for an empty batch; an error of the peer is only logged. *)
Definition write_batch (s : bic) (ok : bool) : bic :=
  match b_batch s with
  | [] => s
  | b => Bic (b_ring s) [] (b_reqs s ++ [PeerReq true b ok]) (b_dropped s)
  end.

(** One iteration of start (batched_ingress_client.go:61-72).  [lapsed] is
    whether the interval has lapsed since the last write, [ok] what the peer
    answers if it is called.  batcher.Write appends and writes the batch when it
    is full or the interval lapsed; batcher.Flush writes it when the interval
    lapsed. *)
Definition bic_loop (n : N) (size : nat) (s : bic) (lapsed ok : bool) : bic :=
  let '(d, o, a) := diode_try n (b_ring s) in
  let dropped := (b_dropped s + default 0 a)%N in
  match o with
  | None =>
      let s := Bic d (b_batch s) (b_reqs s) dropped in
      if lapsed then write_batch s ok else s
  | Some e =>
      let s := Bic d (b_batch s ++ [e]) (b_reqs s) dropped in
      if decide (size <= length (b_batch s)) then write_batch s ok
      else if lapsed then write_batch s ok else s
  end.

Inductive blabel := BSend (es : list E) | BLoop (lapsed ok : bool).
Definition bstep (n : N) (size : nat) (s : bic) (l : blabel) : bic :=
  match l with
  | BSend es => bic_send n s es
  | BLoop lapsed ok => bic_loop n size s lapsed ok
  end.
Definition brun (n : N) (size : nat) (ls : list blabel) : bic :=
  foldl (bstep n size) bic_new ls.

End Client.
Arguments peer_req : clear implicits.
Arguments bic : clear implicits.
Arguments blabel : clear implicits.

(** ** Send called by several goroutines

    The gRPC server calls Send concurrently (internal/routing/
    ingress_reverse_proxy.go is served by grpc, one goroutine per request), while
    Set is written for one producer: it reads writeIndex, increments it and
    stores the bucket in separate, unsynchronised steps.  A producer is either
    before the call with the envelopes it still has to put, or has read
    writeIndex, or has incremented it. *)
Section Racy.
Context {E : Type}.
Inductive producer :=
  | PIdle (todo : list E)
  | PRead (x : E) (w : N) (todo : list E)    (* bucket built with seq w *)
  | PInc (x : E) (w : N) (todo : list E).    (* writeIndex := w + 1 done *)
Record racy := Racy { y_ring : diode E; y_prods : list producer }.

Definition rstep (n : N) (s : racy) (i : nat) : option racy :=
  let d := y_ring s in
  match y_prods s !! i with
  | Some (PIdle (x :: todo)) => Some (Racy d (<[i := PRead x (d_w d) todo]> (y_prods s)))
  | Some (PRead x w todo) =>
      Some (Racy (Diode (d_buf d) (w + 1)%N (d_r d)) (<[i := PInc x w todo]> (y_prods s)))
  | Some (PInc x w todo) =>
      Some (Racy (Diode (<[(w `mod` n)%N := (w, x)]> (d_buf d)) (d_w d) (d_r d))
                 (<[i := PIdle todo]> (y_prods s)))
  | _ => None
  end.
Fixpoint rrun (n : N) (s : racy) (is : list nat) : option racy :=
  match is with
  | [] => Some s
  | i :: is => s' ← rstep n s i; rrun n s' is
  end.
End Racy.
Arguments producer : clear implicits.
Arguments racy : clear implicits.
