(** Vocabulary: the envelopes and metadata that can be told over HTTP. *)
From Coq Require Import Ascii String.
From stdpp Require Import prelude strings list gmap.
From Verif.Base Require Import Envelope.
From Verif.Marshaler Require Import Model.
From Verif.Http Require Import Model.
From Verif.Json Require Import Text Spec Pb.
Open Scope Z_scope.

Definition int64 (n : Z) : Prop := - 2^63 <= n < 2^63.
Definition uint64 (n : Z) : Prop := 0 <= n < 2^64.
(** A double: any bits, except that of all NaNs only Go's is told from others *)
Definition double (f : f64) : Prop := 0 <= f < 2^64 /\ (is_nan f = true -> f = nan).
Definition text_map (m : gmap string string) : Prop := forall k x, m !! k = Some x -> utf8 k /\ utf8 x.
Definition sendable_message (m : message) : Prop :=
  match m with
  | MLog payload err => True
  | MCounter name delta total => utf8 name /\ uint64 delta /\ uint64 total
  | MGauge metrics => forall k g, metrics !! k = Some g -> utf8 k /\ utf8 (gv_unit g) /\ double (gv_value g)
  | MTimer name start stop => utf8 name /\ int64 start /\ int64 stop
  | MEvent title body => utf8 title /\ utf8 body
  | MNone => True
  end.
(** Strings are UTF-8, as protobuf demands, and numbers have their size.  Payloads of logs are any bytes. *)
Definition sendable (e : envelope) : Prop :=
  int64 (e_ts e) /\ utf8 (e_source e) /\ utf8 (e_instance e) /\ text_map (e_deprecated_tags e) /\ text_map (e_tags e) /\
  sendable_message (e_msg e).
Definition sendable_meta (m : gmap string meta_info) : Prop := forall k i, m !! k = Some i ->
  utf8 k /\ int64 (mi_count i) /\ int64 (mi_expired i) /\ int64 (mi_oldest i) /\ int64 (mi_newest i).
(** strconv: a finite float64 is written as a number, and it is the number read *)
Definition exact_floats (F : floats) : Prop := forall f, 0 <= f < 2^64 -> is_nan f = false -> f <> inf -> f <> minus_inf ->
  number_text (write_float F f) /\ read_float F (write_float F f) = Some f.
(** The library functions of the marshaler (Marshaler/Model.v): encoding/json replaces what is not UTF-8,
    "%.3f" of a finite number is a JSON number and strconv writes ASCII *)
Definition go_lib (L : lib) : Prop :=
  (forall s, clean L s = utf8_clean s) /\ (forall t, finite L t = true -> number_text (fmt3 L t)) /\ (forall v, utf8 (fmt_short L v)).
