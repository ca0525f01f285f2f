(** The JSON of envelopes and of the list of sources, as README.md ("Response Body") and the JSON mapping of protobuf
    have it: 64-bit numbers are quoted, bytes are base 64. *)
From Coq Require Import Ascii String.
From stdpp Require Import prelude strings list gmap.
From Verif.Base Require Import Envelope Str Dec.
From Verif.Marshaler Require Import Model.
From Verif.Http Require Import Model.
From Verif.Json Require Import Text Spec Pb SpecBase64.
Open Scope string_scope.
Open Scope list_scope.
Open Scope Z_scope.

(** The object j has the member k, once, with the value v *)
Definition member (j : json) (k : string) (v : json) : Prop :=
  exists l, j = JObj l /\ NoDup l.*1 /\ (k, v) ∈ l.
Definition no_member (j : json) (k : string) : Prop := exists l, j = JObj l /\ k ∉ l.*1.
(** A quoted number without sign + or leading zeros *)
Definition quoted (n : Z) (j : json) : Prop := exists t, j = JStr t /\ signed_numeral t n /\ number_text t.
(** An object with one member for every entry of a map *)
Definition mapped {A} (P : A -> json -> Prop) (m : gmap string A) (j : json) : Prop :=
  exists l, j = JObj l /\ NoDup l.*1 /\ (forall k, k ∈ l.*1 <-> is_Some (m !! k)) /\
  forall k v, (k, v) ∈ l -> exists a, m !! k = Some a /\ P a v.
Definition plain_text (s : string) (j : json) : Prop := j = JStr s.
Definition tagged (s : string) (j : json) : Prop := member j "text" (JStr s).
Definition bytes (s : string) (j : json) : Prop :=
  (s = "" /\ j = JNull) \/ (s <> "" /\ exists t, j = JStr t /\ base64_text s t).
(** A number, or its name in quotes if it is none *)
Definition number (F : floats) (f : f64) (j : json) : Prop :=
  if is_nan f then j = JStr "NaN" else if f =? inf then j = JStr "Infinity" else if f =? minus_inf then j = JStr "-Infinity"
  else exists t, j = JNum t /\ number_text t /\ read_float F t = Some f.
Definition gauge_shape (F : floats) (g : gauge_value) (j : json) : Prop :=
  member j "unit" (JStr (gv_unit g)) /\ exists v, member j "value" v /\ number F (gv_value g) v.
Definition kinds : list string := ["log"; "counter"; "gauge"; "timer"; "event"].
(** What the envelope carries: one member of that name, and none of the other four *)
Definition message_shape (F : floats) (m : message) (j : json) : Prop :=
  let only k P := (exists v, member j k v /\ P v) /\ forall k', k' ∈ kinds -> k' <> k -> no_member j k' in
  match m with
  | MLog payload err => only "log" (fun v => exists p, member v "payload" p /\ bytes payload p /\ member v "type" (JStr (if err then "ERR" else "OUT")))
  | MCounter name delta total => only "counter" (fun v => exists d t, member v "name" (JStr name) /\ member v "delta" d /\ quoted delta d /\
      member v "total" t /\ quoted total t)
  | MGauge metrics => only "gauge" (fun v => exists ms, member v "metrics" ms /\ mapped (gauge_shape F) metrics ms)
  | MTimer name start stop => only "timer" (fun v => exists a b, member v "name" (JStr name) /\ member v "start" a /\ quoted start a /\
      member v "stop" b /\ quoted stop b)
  | MEvent title body => only "event" (fun v => member v "title" (JStr title) /\ member v "body" (JStr body))
  | MNone => forall k, k ∈ kinds -> no_member j k
  end.
Definition envelope_shape (F : floats) (e : envelope) (j : json) : Prop :=
  exists ts dt tags,
    member j "timestamp" ts /\ quoted (e_ts e) ts /\
    member j "source_id" (JStr (e_source e)) /\ member j "instance_id" (JStr (e_instance e)) /\
    member j "deprecated_tags" dt /\ mapped tagged (e_deprecated_tags e) dt /\
    member j "tags" tags /\ mapped plain_text (e_tags e) tags /\
    message_shape F (e_msg e) j.

(** A number in the member k, which is left out if the number is zero *)
Definition nonzero (j : json) (k : string) (n : Z) : Prop :=
  (n = 0 /\ no_member j k) \/ (n <> 0 /\ exists v, member j k v /\ quoted n v).
(** README.md, "GET /api/v1/meta": count, expired ("if present"), oldestTimestamp, newestTimestamp *)
Definition info_shape (i : meta_info) (j : json) : Prop :=
  nonzero j "count" (mi_count i) /\ nonzero j "expired" (mi_expired i) /\
  nonzero j "oldestTimestamp" (mi_oldest i) /\ nonzero j "newestTimestamp" (mi_newest i).
(** The gateway's variant: names with underscores, zeros written *)
Definition info_shape' (i : meta_info) (j : json) : Prop :=
  exists c x o n, member j "count" c /\ quoted (mi_count i) c /\ member j "expired" x /\ quoted (mi_expired i) x /\
    member j "oldest_timestamp" o /\ quoted (mi_oldest i) o /\ member j "newest_timestamp" n /\ quoted (mi_newest i) n.
