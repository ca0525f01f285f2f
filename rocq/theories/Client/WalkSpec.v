(** Vocabulary of the walk and window properties. *)
From stdpp Require Import prelude strings list.
From Coq Require Import Sorted.
From Verif.Base Require Import GoInt Envelope.
From Verif.Store Require Import Model Spec.
From Verif.Routing Require Import Model Spec.
From Verif.Client Require Import Walk.
Open Scope Z_scope.

(** The window of a walk. *)
Definition in_window (c : walk_config) (e : envelope) : Prop :=
  w_start c <= e_ts e ∧ match w_end c with Some t => e_ts e < t | None => True end.
Global Instance in_window_dec c e : Decision (in_window c e).
Proof. unfold in_window. destruct (w_end c); apply _. Defined.

(** Strictly increasing timestamps below the largest int64. *)
Definition ascending (l : list envelope) : Prop := StronglySorted (fun a b => e_ts a < e_ts b) l.
Definition sane_time (e : envelope) : Prop := in64 (e_ts e) ∧ in64 (e_ts e + 1).

(** A reader that serves an unchanging list of envelopes to the requests of walk c that do not start
    after their end: each answer is the beginning (at least one envelope if there is any, otherwise of
    any length) of what lies between the requested start and the requested end, or the server's time
    [horizon] if no end is given.  [clock] is the walker's clock. *)
Definition visible (horizon : Z) (r : walk_read) (e : envelope) : Prop :=
  wr_start r <= e_ts e ∧ match wr_end r with Some t => e_ts e < t | None => e_ts e < horizon end.
Global Instance visible_dec h r e : Decision (visible h r e).
Proof. unfold visible. destruct (wr_end r); apply _. Defined.
Definition not_after_end (c : walk_config) (start : Z) : Prop :=
  match w_end c with Some t => start <= t | None => True end.
Definition serves (c : walk_config) (content : list envelope) (horizon clock : nat -> Z)
    (reader : nat -> walk_read -> answer) : Prop :=
  ∀ i start, not_after_end c start ->
    let r := read_of c start in
    a_now (reader i r) = clock i ∧
    ∃ k : nat, (1 <= k)%nat ∧ a_batch (reader i r) = Some (take k (filter (visible (horizon i) r) content)).

(** A reader whose answers are in time order and not before the requested start; it may fail, and
    return whatever it likes otherwise. *)
Definition orderly (reader : nat -> walk_read -> answer) : Prop :=
  ∀ i r es, a_batch (reader i r) = Some es ->
    time_sorted es ∧ Forall (fun e => wr_start r <= e_ts e ∧ sane_time e) es.

(** Number of reads made. *)
Definition is_read (ev : event) : bool := match ev with EvRead _ => true | EvDeliver _ => false end.
Definition reads (evs : list event) : nat := length (filter (fun ev => is_read ev = true) evs).

(** Where to continue after having delivered l. *)
Definition resume (start : Z) (l : list envelope) : Z :=
  match last l with Some e => e_ts e + 1 | None => start end.

(** Reads after the last delivery: all of them failed or came back without anything to deliver. *)
Definition fruitless (evs : list event) : nat :=
  foldl (fun n ev => if is_read ev then S n else O) O evs.

(** The stored envelopes of a source as walk c presents them: those of the wanted types, reduced to the
    matching metrics if there is a name filter. *)
Record wants (compile : string -> option (string -> bool)) (c : walk_config) (q : query) : Prop := {
  wt_window : q_start q = - 2^63 ∧ q_end q = 2^63;
  wt_types : ∀ e, wanted_type (q_types q) e ↔ requested_type (default [] (w_types c)) e;
  wt_name : (w_name c = "" -> q_name q = None) ∧ (w_name c ≠ "" -> q_name q = compile (w_name c))
}.
(** The walk's options are acceptable to the server. *)
Definition walk_ok (compile : string -> option (string -> bool)) (c : walk_config) : Prop :=
  0 <= default 0 (w_limit c) <= 1000 ∧ w_end c ≠ Some 0 ∧ not_after_end c (w_start c) ∧
  enum_types (default [] (w_types c)) ∧ (w_name c = "" ∨ is_Some (compile (w_name c))).

(** The reader an application gets for one source of a store: client.Read (client.go:100-152,
    199-239) ends up as this request at the node, whose clock reads [node_clock i] at the i-th read
    ([clock]: the walker's own). *)
Definition store_reader (compile : string -> option (string -> bool)) (node_clock clock : nat -> Z)
    (s : store) (src : string) (i : nat) (r : walk_read) : answer :=
  mk_answer
    (match local_read compile (node_clock i)
       (mk_rr src (wr_start r) (default 0 (wr_end r)) (default 0 (wr_limit r)) (default [] (wr_types r)) false
          (default "" (wr_name r))) s with
     | ReadOk es => Some es | _ => None end)
    false (clock i).
