(** The Prometheus-style JSON encoding of query results
    (pkg/marshaler/marshaler.go).

    JSON documents are trees here: printing and parsing the text is done by
    encoding/json, which is trusted to give back the tree it printed, except
    that it replaces invalid UTF-8 in strings ([clean]).  The decoder of a tree
    into Go values is modelled.  Floating point text conversion is strconv's. *)
From Coq Require Import String.
From stdpp Require Import prelude gmap strings.
Open Scope string_scope.
Open Scope list_scope.

(** The library functions the code uses. *)
Record lib := Lib {
  flt : Type;                          (* float64, all NaNs being one value *)
  parse_float : string -> option flt;  (* strconv.ParseFloat(s, 64); None on error *)
  finite : flt -> bool;
  fmt3 : flt -> string;                (* "%.3f" and FormatFloat(f, 'f', 3, 64) *)
  fmt_short : flt -> string;           (* FormatFloat(f, 'f', -1, 64) *)
  clean : string -> string             (* encoding/json: invalid UTF-8 -> U+FFFD *)
}.

Inductive json :=
  | JNull
  | JBool (b : bool)
  | JNum (text : string)
  | JStr (s : string)
  | JArr (l : list json)
  | JObj (l : list (string * json)).

Section Marshaler.
Context (L : lib).

(** The protobuf messages (api/v1/promql.proto:34-75).  None stands for a nil
    pointer or a nil map. *)
Record point := Point { p_time : string; p_value : flt L }.
Record sample := Sample { s_metric : option (gmap string string); s_point : option point }.
Record series := Series { r_metric : option (gmap string string); r_points : list (option point) }.
Inductive result :=
  | RScalar (p : option point)
  | RVector (v : option (list (option sample)))
  | RMatrix (m : option (list (option series))).
(** PromQL_InstantQueryResult: None when no member of the oneof is set.  A
    PromQL_RangeQueryResult is one whose result is a matrix or not set. *)
Definition query_result := option result.

(** A point read through nil-safe getters: GetTime and GetValue of nil give "" and 0.
    The value is not used when parsing the time fails, so nil is an error. *)
Definition get_time (p : option point) : string := match p with Some p => p_time p | None => "" end.

(** assemblePoint (marshaler.go:213-223).  json.RawMessage(formattedTime) makes
    the later json.Marshal fail when it is not JSON, that is for NaN and
    infinities; that error is raised here. *)
Definition assemble_point (p : option point) : option json :=
  t ← parse_float L (get_time p);
  if finite L t then
    v ← p;
    Some (JArr [JNum (fmt3 L t); JStr (fmt_short L (p_value v))])
  else None.

(** A map[string]string as JSON.  encoding/json writes the keys in order; the
    order matters to the decoder only for equal keys. *)
Definition enc_metric (m : gmap string string) : json :=
  JObj ((fun kv : string * string => (clean L kv.1, JStr (clean L kv.2))) <$> map_to_list m).

(** assembleScalarResultData, assembleVectorResultData, assembleMatrixResultData
    (marshaler.go:112-211): the result type and the result. *)
Definition scalar_data (p : option point) : option (string * json) :=
  j ← assemble_point p; Some ("scalar", j).

Definition enc_sample (s : option sample) : option json :=
  p ← assemble_point (s ≫= s_point);
  Some (JObj [("metric", enc_metric (default ∅ (s ≫= s_metric))); ("value", p)]).
Definition vector_data (v : option (list (option sample))) : option (string * json) :=
  js ← mapM enc_sample (default [] v); Some ("vector", JArr js).

Definition enc_series (s : option series) : option json :=
  ps ← mapM assemble_point (from_option r_points [] s);
  Some (JObj [("metric", enc_metric (default ∅ (s ≫= r_metric)));
              ("values", match ps with [] => JNull | _ => JArr ps end)]).
Definition matrix_data (m : option (list (option series))) : option (string * json) :=
  js ← mapM enc_series (default [] m); Some ("matrix", JArr js).

(** Marshal and the encoder (marshaler.go:24-45, 70-110, 225-250).  Result has
    the option omitempty: it is left out when no member is set. *)
Definition marshal (r : query_result) : option json :=
  match r with
  | None => Some (JObj [("status", JStr "success"); ("data", JObj [("resultType", JStr "")])])
  | Some r =>
      d ← match r with
          | RScalar p => scalar_data p
          | RVector v => vector_data v
          | RMatrix m => matrix_data m
          end;
      Some (JObj [("status", JStr "success");
                  ("data", JObj [("resultType", JStr d.1); ("result", d.2)])])
  end.

(** Decoding.  A field of an object: the last occurrence counts.  (encoding/json
    also accepts other capitalisations of a field name; this is left out.) *)
Fixpoint field (k : string) (l : list (string * json)) : option json :=
  match l with
  | [] => None
  | (k', j) :: l => match field k l with Some j' => Some j' | None => if decide (k' = k) then Some j else None end
  end.

(** Decoding into a map[string]string: null gives nil, a null value "". *)
Definition dec_string (j : json) : option string :=
  match j with JStr s => Some s | JNull => Some "" | _ => None end.
Fixpoint dec_entries (l : list (string * json)) (m : gmap string string) : option (gmap string string) :=
  match l with
  | [] => Some m
  | (k, j) :: l => s ← dec_string j; dec_entries l (<[k := s]> m)
  end.
Definition dec_metric (j : option json) : option (option (gmap string string)) :=
  match j with
  | None | Some JNull => Some None
  | Some (JObj l) => m ← dec_entries l ∅; Some (Some m)
  | _ => None
  end.

(** disassemblePoint (marshaler.go:395-418). *)
Definition dec_point (j : option json) : option point :=
  match j with
  | Some (JArr [JNum t; JStr v]) =>
      t ← parse_float L t; v ← parse_float L v; Some (Point (fmt3 L t) v)
  | _ => None
  end.

(** unmarshalVectorResultData (marshaler.go:346-369). *)
Definition dec_sample (j : json) : option (option sample) :=
  match j with
  | JObj l =>
      m ← dec_metric (field "metric" l);
      p ← dec_point (field "value" l);
      Some (Some (Sample m (Some p)))
  | _ => None
  end.
Definition dec_list {A} (f : json -> option A) (j : option json) : option (list A) :=
  match j with
  | Some JNull => Some []
  | Some (JArr l) => mapM f l
  | _ => None
  end.

(** unmarshalMatrixResultData (marshaler.go:371-404). *)
Definition dec_series (j : json) : option (option series) :=
  match j with
  | JObj l =>
      m ← dec_metric (field "metric" l);
      ps ← match field "values" l with
           | None => Some []
           | j => dec_list (fun j => p ← dec_point (Some j); Some (Some p)) j
           end;
      Some (Some (Series m ps))
  | JNull => Some (Some (Series None []))
  | _ => None
  end.

(** Unmarshal and the decoder (marshaler.go:254-344, 420-456) for an instant
    query; a range query accepts "matrix" only.  Result is a json.RawMessage: an
    absent result is no bytes, which no decoder accepts. *)
Definition dec_data (range : bool) (j : json) : option query_result :=
  match j with
  | JObj l =>
      match field "resultType" l with
      | Some (JStr ty) =>
          if decide (ty = "matrix") then
            m ← dec_list dec_series (field "result" l); Some (Some (RMatrix (Some m)))
          else if range then None
          else if decide (ty = "scalar") then
            p ← dec_point (field "result" l); Some (Some (RScalar (Some p)))
          else if decide (ty = "vector") then
            v ← dec_list dec_sample (field "result" l); Some (Some (RVector (Some v)))
          else None
      | _ => None
      end
  | _ => None
  end.
Definition unmarshal (range : bool) (j : json) : option query_result :=
  match j with
  | JObj l => d ← field "data" l; dec_data range d
  | _ => None
  end.

End Marshaler.
Arguments Point {L} _ _.
Arguments p_time {L} _.
Arguments p_value {L} _.
Arguments Sample {L} _ _.
Arguments s_metric {L} _.
Arguments s_point {L} _.
Arguments Series {L} _ _.
Arguments r_metric {L} _.
Arguments r_points {L} _.
Arguments RScalar {L} _.
Arguments RVector {L} _.
Arguments RMatrix {L} _.
