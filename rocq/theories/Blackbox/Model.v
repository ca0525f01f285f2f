(** The blackbox: test metrics and the reliability computed from what is read back
    (internal/blackbox/blackbox.go, cmd/blackbox/main.go). *)
From Coq Require Import ZArith.
From Coq Require Import Ascii String.
From Flocq Require Import Core BinarySingleNaN.
From stdpp Require Import prelude gmap strings list pretty.
From Verif.Base Require Import GoInt Envelope.
From Verif.Prune Require Import Model.
From Verif.Query Require Import Model.
Open Scope string_scope.
Open Scope list_scope.
Open Scope Z_scope.

Definition magic : string := "blackbox_test_metric". (* blackbox.go:19 *)

(** time.Time.Truncate of the Go standard library, for a time in nanoseconds since 1970: down to a multiple of d since the
    year 1; 0 or less leaves the time *)
Definition year_one : Z := 62135596800 * 1000000000.
Definition truncate (t d : Z) : Z := if d <=? 0 then t else t - (t + year_one) mod d.

(** ** Test metrics *)
(** blackbox.go:105-123: the batch.  The value is 10, as its bits (IEEE 754). *)
Definition ten : gauge_value := mk_gv "ms" 0x4024000000000000.
Definition test_batch (src : string) (ts : Z) : list envelope :=
  [mk_env ts src "" ∅ ∅ (MGauge {[ magic := ten ]})].
(** blackbox.go:128-140: Send, up to five times; [ok i] tells whether the i-th attempt succeeds.  What is sent. *)
Fixpoint send_retrying (retries : nat) (ok : nat -> bool) (i : nat) (batch : list envelope) : list (list envelope) :=
  match retries with
  | O => []
  | S n => batch :: (if ok i then [] else send_retrying n ok (S i) batch)
  end.
(** blackbox.go:142-144 looks at the outer [err], which 130 does not assign: what is logged *)
Definition emit (src : string) (ok : nat -> bool) (ts : Z) : list (list envelope) * list string :=
  (send_retrying 5 ok 0 (test_batch src ts), []).
(** blackbox.go:85-102: one tick per element of [nows], the clock; [last] is the zero time at first.  The sends of each tick
    and whether it warned of a missed emission. *)
Fixpoint emitting (src : string) (interval : Z) (ok : nat -> nat -> bool) (last : option Z) (j : nat) (nows : list Z)
  : list (list (list envelope) * bool) :=
  match nows with
  | [] => []
  | now :: nows' =>
      let ts := truncate now interval in
      ((emit src (ok j) ts).1, match last with None => false | Some l => negb (l + interval =? ts) end)
        :: emitting src interval ok (Some ts) (S j) nows'
  end.

(** ** Reliability *)
Definition fadd (x y : f64) : f64 := Bplus mode_NE x y.
(** time.Duration.Seconds of the Go standard library *)
Definition seconds (d : Z) : f64 := fadd (of_int (Z.quot d 1000000000)) (fdiv (of_int (Z.rem d 1000000000)) (of_int 1000000000)).
(** blackbox.go:228-230 *)
Definition expected_samples (window interval : Z) : f64 := fdiv (seconds window) (seconds interval).

(** blackbox.go:263: the query, with fmt's %.0f (to the nearest whole number, ties to even); a window of no negative length *)
Definition query_seconds (window : Z) : Z := Btrunc (Bnearbyint mode_NE (seconds window)).
Definition query_text (src : string) (window : Z) : string :=
  (magic ++ "{source_id=""" ++ src ++ """}[" ++ pretty (query_seconds window) ++ "s]")%string.
(** blackbox.go:262-291 CountMetricPoints on what the client's PromQL returned; the log lines are left out *)
Definition count_points (answer : option result + error) : Z + error :=
  match answer with
  | inr e => inr e
  | inl (Some (RMatrix ((_, points) :: _))) => inl (Z.of_nat (length points))
  | inl _ => inr "couldn't find series"
  end.
(** blackbox.go:207-226 Calculate, for the one magic metric.  None: the conversion of the expected number to int is
    undefined (Go specification). *)
Definition calculate (window interval : Z) (answer : option result + error) : option (f64 + error) :=
  match count_points answer with
  | inr e => Some (inr e)
  | inl n =>
      match to_int (expected_samples window interval) with
      | Some m => Some (inl (fdiv (of_int n) (of_int m)))
      | None => None
      end
  end.

(** ** One sample *)
(** blackbox.go:147-196 EmitMeasuredMetrics: nothing sent, a panic, or one envelope with these values sent.  [up] is what
    LogCacheVMUptime returns (client.go: -1 with an error); None: there is no client. *)
Inductive tick_end := NothingSent | Panicked | Reported (m : gmap string f64).
Definition emit_measured (client : option Z) (m : gmap string f64) : tick_end :=
  if bool_decide (m = ∅) then NothingSent
  else match client with
       | None => Panicked
       | Some up => if (0 <=? up) && (up <? 600) then NothingSent else Reported m
       end.
(** main.go:61-81: [grpc] and [http] are what Calculate returned, [up] what the HTTP client says of the uptime *)
Definition tick (enabled : bool) (grpc http : f64 + error) (up : Z) : tick_end :=
  let m := match grpc with inl v => {[ "blackbox.grpc_reliability" := v ]} | inr _ => ∅ end in
  let m := if enabled then match http with inl v => <[ "blackbox.http_reliability" := v ]> m | inr _ => m end else m in
  emit_measured (if enabled then Some up else None) m.
