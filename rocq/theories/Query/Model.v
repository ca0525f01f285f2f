(** Model of the PromQL queries as a whole: InstantQuery and RangeQuery
    (internal/promql/promql.go:59-269), the querier the engine works with
    (271-345) and the data reader behind it (data_reader/walking_data_reader.go).
    The evaluation engine is a library of Prometheus, not part of the repository:
    here it is any program that calls Select and then returns something. *)
From Coq Require Import Ascii String.
From stdpp Require Import prelude gmap strings list.
From Verif.Base Require Import GoInt Envelope.
From Verif.Promql Require Import Model.
From Verif.Client Require Import Walk.
Open Scope Z_scope.

Notation error := string (only parsing).

(** ** What the engine returns: promql.Value of Prometheus.  Labels are a list of
    names and values, times are milliseconds, values float64 bits. *)
Inductive value :=
| VScalar (t : Z) (v : f64)
| VVector (samples : list (list (string * string) * (Z * f64)))
| VMatrix (series : list (list (string * string) * list (Z * f64)))
| VString (t : Z) (s : string).

(** An evaluation: calls of Select on a querier for the window [mint, maxt]
    (milliseconds), each answered with the series found or an error, and in the
    end a value or an error.  What it does with an answer is its own business. *)
Inductive engine :=
| Return (r : value + error)
| CallSelect (mint maxt : Z) (ms : list matcher) (k : list series + error -> engine).

(** ** The querier *)

(** One read of one source: DataReader.Read of promql.go:329-339 for the request
    [data_read]; [i] is the number of reads made before. *)
Notation data_reader := (nat -> data_read -> list envelope + error).

(** What can be observed of an evaluation: the selections and the reads made for
    each, with their outcome. *)
Inductive event :=
| EvSelect (mint maxt : Z) (ms : list matcher)
| EvRead (r : data_read) (failed : option error).

(** promql.go:327-395 the loop over the source ids, from the [i]-th read on: the
    samples of all sources, or the first error *)
Fixpoint gather (reader : data_reader) (order : gmap string gauge_value -> list (string * gauge_value))
    (mint maxt : Z) (ms : list matcher) (i : nat) (ids : list string)
  : list event * (list (gmap string string * point) + error) :=
  match ids with
  | [] => ([], inl [])
  | id :: ids' =>
      let r := select_read mint maxt id in
      match reader i r with
      | inr e => ([EvRead r (Some e)], inr e)
      | inl es =>
          let '(evs, rest) := gather reader order mint maxt ms (S i) ids' in
          (EvRead r None :: evs,
           match rest with
           | inl samples => inl (omap (envelope_sample order ms) es ++ samples)
           | inr e => inr e
           end)
      end
  end.

(** promql.go:321-325 *)
Definition no_source_id (metric : string) : error :=
  append "Metric '" (append metric "' does not have a 'source_id' label.").

(** promql.go:299-398 Select.  [oids] and [oser] are the orders in which Go
    iterates over the source ids and over the series. *)
Definition select_run (reader : data_reader) (order : gmap string gauge_value -> list (string * gauge_value))
    (oids : gset string -> list string) (oser : gmap string series -> list series)
    (mint maxt : Z) (ms : list matcher) (i : nat) : list event * (list series + error) :=
  let ids := oids (id_set (selector_ids ms)) in
  if (length ids =? 0)%nat then ([], inr (no_source_id (sel_metric ms)))
  else
    let '(evs, r) := gather reader order mint maxt ms i ids in
    (evs, match r with inl samples => inl (oser (build samples)) | inr e => inr e end).

(** ** Queries *)

(** qq.Exec (promql.go:90, 213): the evaluation, with errf (promql.go:70, 187)
    overwriting closureErr, here [closure]; [i] reads were made before. *)
Definition reads_in (evs : list event) : nat :=
  length (filter (fun ev => match ev with EvRead _ _ => true | EvSelect _ _ _ => false end = true) evs).
Fixpoint exec (reader : data_reader) (order : gmap string gauge_value -> list (string * gauge_value))
    (oids : gset string -> list string) (oser : gmap string series -> list series)
    (e : engine) (i : nat) (closure : option error) : list event * option error * (value + error) :=
  match e with
  | Return r => ([], closure, r)
  | CallSelect mint maxt ms k =>
      let '(evs, r) := select_run reader order oids oser mint maxt ms i in
      let closure' := match r with inr err => Some err | inl _ => closure end in
      let '(evs', c, out) := exec reader order oids oser (k r) (i + reads_in evs)%nat closure' in
      (EvSelect mint maxt ms :: evs ++ evs', c, out)
  end.

(** The messages of promql.proto that answer a query: times are texts, labels a
    map *)
Record ppoint := mk_pp { pp_time : string; pp_value : f64 }.
Inductive result :=
| RScalar (time : string) (v : f64)
| RVector (samples : list (gmap string string * ppoint))
| RMatrix (series : list (gmap string string * list ppoint)).

(** How a call ends: an answer, an error, or a panic (log.Panicf) that ends the
    process *)
Inductive outcome := Answered (r : result) | Failed (e : error) | Crashed.

Section conversion.
(** formatPromqlTime (promql.go:743-745), see Times/Model.v *)
Context (fmt : Z -> string).

(** promql.go:122-125, 146-149, 232-235: later labels overwrite earlier ones *)
Definition metric_map (ls : list (string * string)) : gmap string string :=
  foldl (fun m kv => <[kv.1 := kv.2]> m) ∅ ls.
Definition to_point (p : Z * f64) : ppoint := mk_pp (fmt p.1) p.2.

(** promql.go:101-174 toInstantQueryResult *)
Definition to_instant_result (r : value + error) : outcome :=
  match r with
  | inr e => Failed e
  | inl (VScalar t v) => Answered (RScalar (fmt t) v)
  | inl (VVector ss) => Answered (RVector (map (fun s => (metric_map s.1, to_point s.2)) ss))
  | inl (VMatrix ss) => Answered (RMatrix (map (fun s => (metric_map s.1, map to_point s.2)) ss))
  | inl (VString _ _) => Crashed
  end.
(** promql.go:224-262 toRangeQueryResult *)
Definition to_range_result (r : value + error) : outcome :=
  match r with
  | inr e => Failed e
  | inl (VMatrix ss) => Answered (RMatrix (map (fun s => (metric_map s.1, map to_point s.2)) ss))
  | inl _ => Crashed
  end.

(** The libraries: ParseTime and ParseStep in nanoseconds (parsing.go, see
    Times/Model.v), which fail with an error text, and NewInstantQuery and
    NewRangeQuery of Prometheus. *)
Record libraries := mk_libs {
  lib_time : string -> Z + error;
  lib_step : string -> Z + error;
  lib_instant : string -> Z -> engine + error;
  lib_range : string -> Z -> Z -> Z -> engine + error
}.
Context (L : libraries) (reader : data_reader)
  (order : gmap string gauge_value -> list (string * gauge_value))
  (oids : gset string -> list string) (oser : gmap string series -> list series).

(** What a query does: events, by how much the failure counter goes up, and how
    the call ends.  promql.go:93-98, 216-221: *)
Definition finish (conv : value + error -> outcome) (x : list event * option error * (value + error))
  : list event * Z * outcome :=
  match x with
  | (evs, Some e, _) => (evs, 1, Failed e)
  | (evs, None, r) => (evs, 0, conv r)
  end.

(** promql.go:59-99 InstantQuery; [now] is the clock in nanoseconds *)
Definition instant_query (now : Z) (time query : string) : list event * Z * outcome :=
  match (if bool_decide (time = "") then inl (trunc_second now) else lib_time L time) with
  | inr e => ([], 0, Failed e)
  | inl t =>
      match lib_instant L query t with
      | inr e => ([], 0, Failed e)
      | inl eng => finish to_instant_result (exec reader order oids oser eng 0 None)
      end
  end.

(** promql.go:177-222 RangeQuery *)
Definition range_query (start stop step query : string) : list event * Z * outcome :=
  match lib_step L step with
  | inr e => ([], 0, Failed (append "couldn't parse step: " e))
  | inl d =>
      match lib_time L start with
      | inr e => ([], 0, Failed (append "couldn't parse start: " e))
      | inl a =>
          match lib_time L stop with
          | inr e => ([], 0, Failed (append "couldn't parse end: " e))
          | inl b =>
              match lib_range L query a b d with
              | inr e => ([], 0, Failed e)
              | inl eng => finish to_range_result (exec reader order oids oser eng 0 None)
              end
          end
      end
  end.
End conversion.

(** log_cache.go:233-241 and data_reader/walking_data_reader.go:22-49: the reader
    a node uses, over a cache that may answer each read of each call differently
    ([cache i src j r]: the j-th answer to the i-th call, for source src), for at
    most [n] answers per call; [ctx_done i]: the five seconds of promql.go:328 are
    over when the i-th walk ends.  The request has no limit. *)
Definition node_reader (cache : nat -> string -> nat -> walk_read -> answer) (ctx_done : nat -> bool) (n : nat)
    (i : nat) (r : data_read) : list envelope + error :=
  match walking_read (cache i (dr_source r)) (dr_start r) (dr_end r) 0 (dr_types r) (ctx_done i) n with
  | Some es => inl es
  | None => inr "context deadline exceeded"
  end.
