(** Model of the running syslog server (internal/syslog/server.go) with its connections, deadlines and the batching
    client it writes to (cmd/syslog-server/main.go:49-61, internal/routing/batched_ingress_client.go).  What the parser makes
    of the bytes of a connection and the TLS handshake are not part of the model: a connection brings results. *)
From Coq Require Import NArith.
From stdpp Require Import prelude gmap strings list.
From Verif.Base Require Import GoInt Envelope.
From Verif.Nozzle Require Import Spec Model.
From Verif.Syslog Require Import Model Spec.
Open Scope Z_scope.

(** A connection: its goroutine reads until the deadline; or it is in the diode's Set with an envelope, which reads
    writeIndex, increments it and stores the bucket in separate steps (Nozzle/Model.v, section Racy); or it has returned. *)
Inductive conn :=
| Reading (deadline : Z)
| Entering (e : envelope)
| HasIndex (e : envelope) (w : N)
| Stepped (e : envelope) (w : N)
| Gone.

Record server := mk_srv {
  s_now : Z;                   (* nanoseconds *)
  s_listening : bool;          (* Start is in its loop (server.go:92-99) *)
  s_alive : bool;              (* the process *)
  s_conns : list conn;
  s_ingress : N; s_invalid : N;
  s_client : bic envelope }.
Definition srv0 (now : Z) : server := mk_srv now true true [] 0 0 bic_new.

(** What the parser hands to the listener: an error, or a message, and what became of it *)
Inductive event :=
| EAccept                                     (* Accept returns a connection *)
| EAcceptFails                                (* Accept returns an error *)
| EBytes (c : nat)                            (* bytes arrive on c that do not complete a message *)
| EResult (c : nat) (r : sresult) (o : converted)
| EIndex (c : nat)                            (* Set of c's envelope reads writeIndex, ... *)
| EIncrement (c : nat)                        (* ... increments it ... *)
| EStore (c : nat)                            (* ... and stores the bucket *)
| EEnd (c : nat) (expired trailing : bool)    (* the parser returns: the deadline has passed, or the peer is gone or sent
                                                 what is no frame; [trailing]: it hands over one more error *)
| ELoop (lapsed ok : bool)                    (* a turn of the batching client's loop *)
| EClock (t : Z).                             (* time passes *)

(** cmd/syslog-server/main.go:20-22 BATCH_CHANNEL_SIZE; batched_ingress_client.go:42 *)
Definition ring_size : N := 10000.
Definition batch_size : nat := 512.

Definition with_conn (c : nat) (x : conn) (s : server) : server :=
  mk_srv (s_now s) (s_listening s) (s_alive s) (<[c := x]> (s_conns s)) (s_ingress s) (s_invalid s) (s_client s).
Definition count_invalid (s : server) : server :=
  mk_srv (s_now s) (s_listening s) (s_alive s) (s_conns s) (s_ingress s) (s_invalid s + 1)%N (s_client s).
Definition with_ring (d : diode envelope) (s : server) : server :=
  mk_srv (s_now s) (s_listening s) (s_alive s) (s_conns s) (s_ingress s) (s_invalid s)
    (Bic d (b_batch (s_client s)) (b_reqs (s_client s)) (b_dropped (s_client s))).
Definition ring (s : server) : diode envelope := b_ring (s_client s).

(** [idle]: WithIdleTimeout (server.go:74-78), in nanoseconds. *)
Inductive step (pf : string -> option f64) (idle : Z) : server -> event -> server -> Prop :=
(** server.go:92-101, 104-106 *)
| step_accept s : s_alive s = true -> s_listening s = true ->
    step pf idle s EAccept
      (mk_srv (s_now s) true true (s_conns s ++ [Reading (s_now s + idle)]) (s_ingress s) (s_invalid s) (s_client s))
(** server.go:94-98, 284-292: Start returns, the deferred Stop closes the listener; main does not notice
    (cmd/syslog-server/main.go:60) *)
| step_accept_fails s : s_alive s = true -> s_listening s = true ->
    step pf idle s EAcceptFails
      (mk_srv (s_now s) false true (s_conns s) (s_ingress s) (s_invalid s) (s_client s))
| step_bytes s c d : s_alive s = true -> s_conns s !! c = Some (Reading d) -> s_now s < d ->
    step pf idle s (EBytes c) s
(** server.go:113-118, 127-131: an error result is counted and the deadline moves *)
| step_error s c d : s_alive s = true -> s_conns s !! c = Some (Reading d) -> s_now s < d ->
    step pf idle s (EResult c None Invalid) (with_conn c (Reading (s_now s + idle)) (count_invalid s))
(** server.go:133-137 *)
| step_invalid s c d msg order : s_alive s = true -> s_conns s !! c = Some (Reading d) -> s_now s < d ->
    any_order order -> convert pf order msg = Invalid ->
    step pf idle s (EResult c (Some msg) Invalid) (with_conn c (Reading (s_now s + idle)) (count_invalid s))
(** server.go:133, 154-187: a nil dereference in any connection's goroutine ends the process *)
| step_crash s c d msg order : s_alive s = true -> s_conns s !! c = Some (Reading d) -> s_now s < d ->
    any_order order -> convert pf order msg = Crash ->
    step pf idle s (EResult c (Some msg) Crash)
      (mk_srv (s_now s) (s_listening s) false (s_conns s) (s_ingress s) (s_invalid s) (s_client s))
(** server.go:139-146; batched_ingress_client.go:53-56 *)
| step_send s c d msg order e : s_alive s = true -> s_conns s !! c = Some (Reading d) -> s_now s < d ->
    any_order order -> convert pf order msg = Converted e ->
    step pf idle s (EResult c (Some msg) (Converted e)) (with_conn c (Entering e) s)
| step_index s c e : s_alive s = true -> s_conns s !! c = Some (Entering e) ->
    step pf idle s (EIndex c) (with_conn c (HasIndex e (d_w (ring s))) s)
| step_increment s c e w : s_alive s = true -> s_conns s !! c = Some (HasIndex e w) ->
    step pf idle s (EIncrement c)
      (with_conn c (Stepped e w) (with_ring (Diode (d_buf (ring s)) (w + 1)%N (d_r (ring s))) s))
(** the bucket is stored, Send returns nil (batched_ingress_client.go:58), the message is counted (server.go:151) and the
    deadline moves (server.go:116) *)
| step_store s c e w : s_alive s = true -> s_conns s !! c = Some (Stepped e w) ->
    step pf idle s (EStore c)
      (let s' := with_conn c (Reading (s_now s + idle))
                   (with_ring (Diode (<[(w `mod` ring_size)%N := (w, e)]> (d_buf (ring s))) (d_w (ring s)) (d_r (ring s))) s) in
       mk_srv (s_now s') (s_listening s') (s_alive s') (s_conns s') (s_ingress s' + 1)%N (s_invalid s') (s_client s'))
(** server.go:104-111: Parse returns, the connection is closed *)
| step_end s c d (expired trailing : bool) : s_alive s = true -> s_conns s !! c = Some (Reading d) ->
    (if expired then d <= s_now s else s_now s < d) ->
    step pf idle s (EEnd c expired trailing) (with_conn c Gone (if trailing then count_invalid s else s))
| step_loop s lapsed ok : s_alive s = true ->
    step pf idle s (ELoop lapsed ok)
      (mk_srv (s_now s) (s_listening s) (s_alive s) (s_conns s) (s_ingress s) (s_invalid s)
         (bic_loop ring_size batch_size (s_client s) lapsed ok))
| step_clock s t : s_now s <= t ->
    step pf idle s (EClock t)
      (mk_srv t (s_listening s) (s_alive s) (s_conns s) (s_ingress s) (s_invalid s) (s_client s)).

Inductive runs (pf : string -> option f64) (idle : Z) (s : server) : list event -> server -> Prop :=
| runs_nil : runs pf idle s [] s
| runs_snoc tr s1 ev s2 : runs pf idle s tr s1 -> step pf idle s1 ev s2 -> runs pf idle s (tr ++ [ev]) s2.
