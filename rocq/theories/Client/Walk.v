(** Model of pkg/client/walk.go and pkg/client/window.go.
    The world answers: a reader is an arbitrary function of the number of reads made so far and of the
    request; a visitor is an arbitrary function of what was delivered so far and of the batch.  Loops
    run for a given number of iterations, so that statements about every number cover walks that never
    end.  Logging and sleeping are left out. *)
From stdpp Require Import prelude strings.
From Verif.Base Require Import GoInt Envelope.
Open Scope Z_scope.

(** walk.go:304-313 walkConfig without the logger and the backoff.  [w_end = None] is end.IsZero(),
    [Some t] has t = end.UnixNano(). *)
Record walk_config := mk_walk {
  w_start : Z; w_end : option Z; w_limit : option Z; w_types : option (list etype);
  w_delay : Z; w_name : string }.

(** One call of the reader (walk.go:39-54, 59): start time and read options; [None]: option not given *)
Record walk_read := mk_wread {
  wr_start : Z; wr_end : option Z; wr_limit : option Z; wr_types : option (list etype);
  wr_name : option string }.
Definition read_of (c : walk_config) (start : Z) : walk_read :=
  mk_wread start (w_end c) (w_limit c) (w_types c)
    (if bool_decide (w_name c = "") then None else Some (w_name c)).

(** What comes back: [None] is an error; whether ctx.Err() is set at walk.go:60; the clock at
    walk.go:75 *)
Record answer := mk_answer { a_batch : option (list envelope); a_cancelled : bool; a_now : Z }.

(** walk.go:76-84 and 88-94: for i := len(es)-1; i >= 0; i-- { if keep(es[i]) break; es = es[:i] } *)
Fixpoint cut (drop : envelope -> bool) (n : nat) (es : list envelope) : list envelope :=
  match n with
  | O => es
  | S i => match es !! i with
           | Some e => if drop e then cut drop i (take i es) else es
           | None => es
           end
  end.
Definition trim (drop : envelope -> bool) (es : list envelope) : list envelope := cut drop (length es) es.

(** What an onlooker sees of a walk *)
Inductive event := EvRead (r : walk_read) | EvDeliver (es : list envelope).

(** Why a walk is over; [WRunning] when the iterations are used up *)
Inductive walk_end :=
| WRunning | WCancelled | WGaveUpErr | WGaveUpEmpty | WVisitorDone | WEndReached.

(** walk.go:190-194 Backoff: any implementation, as a state with three operations *)
Record backoff (B : Type) := mk_backoff {
  b_err : B -> B * bool; b_empty : B -> B * bool; b_reset : B -> B }.
Arguments mk_backoff {B}. Arguments b_err {B}. Arguments b_empty {B}. Arguments b_reset {B}.

Section walk.
Context {B : Type} (bk : backoff B) (c : walk_config)
  (reader : nat -> walk_read -> answer) (visitor : list (list envelope) -> list envelope -> bool).

(** walk.go:73-95: the envelopes of an answer that may be delivered; int64 arithmetic wraps *)
Definition usable (received_empty : bool) (now : Z) (es : list envelope) : list envelope :=
  let es1 := if (match w_end c with None => true | _ => false end) || negb received_empty
             then trim (fun e => wrap64 (now - w_delay c) <? e_ts e) es else es in
  match w_end c with
  | Some t => trim (fun e => t <=? e_ts e) es1
  | None => es1
  end.

(** walk.go:58-115 the loop; [n] iterations remain, [i] were made; the delivered batches so far are
    only passed to the visitor *)
Fixpoint walk_loop (n i : nat) (b : B) (start : Z) (received_empty : bool)
    (delivered : list (list envelope)) : list event * walk_end :=
  match n with
  | O => ([], WRunning)
  | S n' =>
      let a := reader i (read_of c start) in
      let '(evs, out) :=
        match a_batch a with
        | None =>
            if a_cancelled a then ([], WCancelled)
            else let '(b', go) := b_err bk b in
                 if (go : bool) then walk_loop n' (S i) b' start received_empty delivered
                 else ([], WGaveUpErr)
        | Some es0 =>
            let es := usable received_empty (a_now a) es0 in
            match last es with
            | None =>
                let '(b', go) := b_empty bk b in
                if (go : bool) then walk_loop n' (S i) b' start true delivered
                else ([], WGaveUpEmpty)
            | Some l =>
                let b' := b_reset bk b in
                let '(evs, out) :=
                  if negb (visitor delivered es) then ([], WVisitorDone)
                  else if (match w_end c with Some t => t <=? wrap64 (e_ts l + 1) | None => false end)
                  then ([], WEndReached)
                  else walk_loop n' (S i) b' (wrap64 (e_ts l + 1)) false (delivered ++ [es]) in
                (EvDeliver es :: evs, out)
            end
        end in
      (EvRead (read_of c start) :: evs, out)
  end.

(** walk.go:28-116 Walk, observed for n reads; [b] is the initial backoff *)
Definition walk (n : nat) (b : B) : list event * walk_end := walk_loop n 0 b (w_start c) false [].
End walk.

(** walk.go:196-210 AlwaysDoneBackoff *)
Definition always_done : backoff unit := mk_backoff (fun b => (b, false)) (fun b => (b, false)) (fun b => b).
(** walk.go:212-238 AlwaysRetryBackoff *)
Definition always_retry : backoff unit := mk_backoff (fun b => (b, true)) (fun b => (b, true)) (fun b => b).
(** walk.go:240-296 RetryBackoff; the state is count, which stays at most maxCount and does not wrap *)
Definition retry_backoff (maxCount : Z) (onlyErr : bool) : backoff Z :=
  let bump := fun count => if maxCount <=? count + 1 then (count + 1, false) else (count + 1, true) in
  mk_backoff bump (fun count => if onlyErr then (count, false) else bump count) (fun _ => 0).

(** walk.go:29-33 default configuration: start 0, no end, one second *)
Definition default_walk : walk_config := mk_walk 0 None None None 1000000000 "".

(** window.go:54-67 BuildWalker: all batches of one walk over [start, end), joined *)
Definition deliveries (evs : list event) : list (list envelope) :=
  omap (fun ev => match ev with EvDeliver es => Some es | _ => None end) evs.
Definition build_walker (reader : nat -> walk_read -> answer) (n : nat) (start stop : Z) : list envelope :=
  concat (deliveries (walk always_done (mk_walk start (Some stop) None None 1000000000 "")
    reader (fun _ _ => true) n ()).1).

(** window.go:16-43 Window for n ticks: the windows walked, with what the visitor was given, and
    whether it is still running.  time.Time arithmetic is exact in this range.  [None] as start is the
    zero time. *)
Section window.
Context (walker : nat -> Z -> Z -> list envelope) (visitor : nat -> list envelope -> bool) (width interval : Z).
Fixpoint window_loop (n i : nat) (start : Z) : list (Z * Z * list envelope) * bool :=
  match n with
  | O => ([], true)
  | S n' =>
      let es := walker i start (start + width) in
      if visitor i es
      then let '(l, r) := window_loop n' (S i) (start + interval) in ((start, start + width, es) :: l, r)
      else ([(start, start + width, es)], false)
  end.
Definition window (now : Z) (start : option Z) (n : nat) : list (Z * Z * list envelope) * bool :=
  window_loop n 0 (match start with None => now - width | Some t => t end).
End window.
