(** Times and steps of PromQL queries as texts: internal/promql/parsing.go,
    formatPromqlTime (internal/promql/promql.go:743-745) and
    formatDecimalTimeWithMillis (pkg/client/client.go:418-420), in IEEE 754
    binary64 arithmetic (f64, of_int, fmul, fdiv, fgt and to_int are those of
    Prune/Model.v). *)
From Coq Require Import Ascii String ZArith Reals.
From Flocq Require Import Core BinarySingleNaN.
From Verif.Base Require Import Dec.
From Verif.Prune Require Import Model.
Open Scope Z_scope.

(** fmt.Sprintf("%.3f", x) for finite x: the nearest number of thousandths,
    ties to even, with a sign if x has one. *)
Definition print3 (neg : bool) (n : Z) : string :=
  append (if neg then "-" else "")
    (append (format_uint (n / 1000))
       (String "." (String (digit_char (n mod 1000 / 100))
          (String (digit_char (n mod 100 / 10)) (String (digit_char (n mod 10)) EmptyString))))).
Definition fixed3 (x : f64) : string := print3 (Bsign x) (ZnearestE (1000 * Rabs (B2R x))).

(** formatPromqlTime (promql.go:743-745): the time of a point in milliseconds. *)
Definition format_promql_time (ms : Z) : string := fixed3 (fdiv (of_int ms) (of_int 1000)).

(** formatDecimalTimeWithMillis (client.go:418-420): a time in nanoseconds,
    t.UnixNano(). *)
Definition format_decimal_time (ns : Z) : string := fixed3 (fdiv (of_int ns) (of_int 1000000000)).

(** What a text is taken for.  [Accepted None]: accepted, and the conversion of
    the number to an integer is implementation-dependent (Go specification,
    "Conversions"). *)
Inductive parsed := Accepted (v : option Z) | Refused.

(** strconv.ParseFloat(_, 64), model.ParseDuration (Prometheus) and
    time.Parse(RFC3339Nano, _): None on an error; the latter two in nanoseconds. *)
Record parsers := Parsers {
  parse_float : string -> option f64;
  parse_duration : string -> option Z;
  parse_rfc3339 : string -> option Z
}.

(** ParseTime (parsing.go:35-43), in nanoseconds since the epoch.  The number
    1e9 is a constant of type float64. *)
Definition parse_time (L : parsers) (s : string) : parsed :=
  match parse_float L s with
  | Some x => Accepted (to_int (fmul x (of_int 1000000000)))
  | None => match parse_rfc3339 L s with Some t => Accepted (Some t) | None => Refused end
  end.

(** ParseStep (parsing.go:12-24), in nanoseconds.  float64(math.MaxInt64) is
    of_int (2^63 - 1).  ParseDuration (parsing.go:26-33) passes on
    model.ParseDuration. *)
Definition parse_step (L : parsers) (s : string) : parsed :=
  match parse_float L s with
  | Some x =>
      let ns := fmul x (of_int 1000000000) in
      if orb (fgt ns (of_int (2 ^ 63 - 1))) (fgt (of_int (- 2 ^ 63)) ns) then Refused
      else Accepted (to_int ns)
  | None => match parse_duration L s with Some d => Accepted (Some d) | None => Refused end
  end.

(** The millisecond the query engine takes from a time (Prometheus,
    pkg/timestamp.FromTime: t.Unix()*1000 + t.Nanosecond()/1e6, where Nanosecond
    is not negative). *)
Definition from_time (ns : Z) : Z := ns / 1000000.
