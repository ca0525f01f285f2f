(** loggregator_v2.Envelope (imported at internal/cache/store/store.go:11) and
    logcache_v1.EnvelopeType (api/v1/egress.proto). *)
From stdpp Require Import prelude gmap strings.
Open Scope Z_scope.

(** A float64 field is kept as its IEEE-754 bit pattern: the cache only copies it. *)
Definition f64 := Z.

(** loggregator_v2.GaugeValue {Unit, Value}. *)
Record gauge_value := mk_gv { gv_unit : string; gv_value : f64 }.

(** The oneof field Envelope.Message.  A Go map is a [gmap].  [MNone] is an unset oneof.
    Simplification: a oneof wrapper holding a nil message pointer (which protobuf never decodes to)
    is not represented. *)
Inductive message :=
| MLog (payload : string) (err : bool)
| MCounter (name : string) (delta total : Z)
| MGauge (metrics : gmap string gauge_value)
| MTimer (name : string) (start stop : Z)
| MEvent (title body : string)
| MNone.

(** loggregator_v2.Envelope.  DeprecatedTags values are kept as opaque strings. *)
Record envelope := mk_env {
  e_ts : Z;
  e_source : string;
  e_instance : string;
  e_deprecated_tags : gmap string string;
  e_tags : gmap string string;
  e_msg : message
}.

(** logcache_v1.EnvelopeType; proto3 enums are open, [T_UNKNOWN n] is any other number. *)
Inductive etype := T_ANY | T_LOG | T_COUNTER | T_GAUGE | T_TIMER | T_EVENT | T_UNKNOWN (n : Z).

Global Instance etype_eq_dec : EqDecision etype.
Proof. solve_decision. Defined.
Global Instance gauge_value_eq_dec : EqDecision gauge_value.
Proof. solve_decision. Defined.
Global Instance message_eq_dec : EqDecision message.
Proof. solve_decision. Defined.
Global Instance envelope_eq_dec : EqDecision envelope.
Proof. solve_decision. Defined.
