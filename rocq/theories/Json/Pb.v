(** The JSON of the responses to Read and Meta, as github.com/golang/protobuf/jsonpb writes and reads it.
    The package is not in the repository; this is transcribed from its published source (v1.3).  Written by
    the gateway with the options OrigName and EmitDefaults (internal/gateway/gateway.go:126-128), by the
    proxy without options (internal/auth/cf_auth_middleware.go:23, 206), read by the client
    (pkg/client/client.go:147, 275).  The messages are those of api/v1/egress.proto:40-58 and of
    loggregator-api's v2/envelope.proto. *)
From Coq Require Import Ascii String.
From stdpp Require Import prelude strings list gmap.
From Verif.Base Require Import Envelope Str Dec.
From Verif.Marshaler Require Import Model.
From Verif.Http Require Import Model.
From Verif.Json Require Import Text.
Open Scope string_scope.
Open Scope list_scope.
Open Scope Z_scope.

(** ** encoding/base64, StdEncoding *)
Definition sextet : Type := (bool * bool * bool * bool * bool * bool).
Definition bit (b : bool) (n : nat) : nat := if b then n else 0.
Definition sextet_val (x : sextet) : nat :=
  let '(a, b, c, d, e, f) := x in (bit a 32 + bit b 16 + bit c 8 + bit d 4 + bit e 2 + bit f 1)%nat.
Definition char64 (x : sextet) : ascii :=
  let n := sextet_val x in
  ascii_of_nat (if (n <? 26)%nat then 65 + n else if (n <? 52)%nat then 71 + n else if (n <? 62)%nat then n - 4 else if (n =? 62)%nat then 43 else 47).
Definition bools : list bool := [false; true].
Definition sextets : list sextet :=
  a ← bools; b ← bools; c ← bools; d ← bools; e ← bools; f ← bools; [(a, b, c, d, e, f)].
Definition unchar64 (c : ascii) : option sextet := snd <$> list_find (fun x => char64 x = c) sextets.
Definition pad : string := "=".
Fixpoint encode64 (s : string) : string :=
  match s with
  | EmptyString => ""
  | String (Ascii a0 a1 a2 a3 a4 a5 a6 a7) EmptyString =>
      String (char64 (a7, a6, a5, a4, a3, a2)) (String (char64 (a1, a0, false, false, false, false)) (append pad pad))
  | String (Ascii a0 a1 a2 a3 a4 a5 a6 a7) (String (Ascii b0 b1 b2 b3 b4 b5 b6 b7) EmptyString) =>
      String (char64 (a7, a6, a5, a4, a3, a2)) (String (char64 (a1, a0, b7, b6, b5, b4)) (String (char64 (b3, b2, b1, b0, false, false)) pad))
  | String (Ascii a0 a1 a2 a3 a4 a5 a6 a7) (String (Ascii b0 b1 b2 b3 b4 b5 b6 b7) (String (Ascii c0 c1 c2 c3 c4 c5 c6 c7) r)) =>
      String (char64 (a7, a6, a5, a4, a3, a2)) (String (char64 (a1, a0, b7, b6, b5, b4))
        (String (char64 (b3, b2, b1, b0, c7, c6)) (String (char64 (c5, c4, c3, c2, c1, c0)) (encode64 r))))
  end.
(** Decode skips line breaks; surplus bits of the last character are ignored *)
Fixpoint no_breaks (s : string) : string :=
  match s with
  | EmptyString => ""
  | String c r => if (nat_of_ascii c =? 10)%nat || (nat_of_ascii c =? 13)%nat then no_breaks r else String c (no_breaks r)
  end.
Fixpoint decode_quads (s : string) : option string :=
  match s with
  | EmptyString => Some ""
  | String w (String x (String y (String z r))) =>
      '(a7, a6, a5, a4, a3, a2) ← unchar64 w;
      '(a1, a0, b7, b6, b5, b4) ← unchar64 x;
      let a := Ascii a0 a1 a2 a3 a4 a5 a6 a7 in
      if ceqb y "=" then (if ceqb z "=" && bool_decide (r = "") then Some (String a "") else None)
      else
        '(b3, b2, b1, b0, c7, c6) ← unchar64 y;
        let b := Ascii b0 b1 b2 b3 b4 b5 b6 b7 in
        if ceqb z "=" then (if bool_decide (r = "") then Some (String a (String b "")) else None)
        else
          '(c5, c4, c3, c2, c1, c0) ← unchar64 z;
          rest ← decode_quads r;
          Some (String a (String b (String (Ascii c0 c1 c2 c3 c4 c5 c6 c7) rest)))
  | _ => None
  end.
Definition decode64 (s : string) : option string := decode_quads (no_breaks s).

(** ** float64 *)
(** strconv: the text of a finite float64 and the number of a text.  A float64 is its bit pattern
    (Base/Envelope.v). *)
Record floats := Floats { write_float : f64 -> string; read_float : string -> option f64 }.
Definition inf : f64 := 2047 * 2^52.
Definition minus_inf : f64 := 2^63 + inf.
(** math.NaN() *)
Definition nan : f64 := inf + 2^51 + 1.
Definition is_nan (f : f64) : bool := inf <? f mod 2^63.

(** ** Writing *)
(** jsonpb.Marshaler: OrigName and EmitDefaults *)
Record style := Style { orig_name : bool; emit_defaults : bool }.
(** A field: its names in the .proto file and in JSON, whether it has the zero value, its JSON *)
Record pbfield := Fld { f_orig : string; f_camel : string; f_zero : bool; f_json : json }.
(** marshalObject *)
Definition omitted (st : style) (f : pbfield) : bool := f_zero f && negb (emit_defaults st).
Definition enc_field (st : style) (f : pbfield) : list (string * json) :=
  if omitted st f then [] else [(if orig_name st then f_orig f else f_camel f, f_json f)].
Definition enc_fields (st : style) (fs : list pbfield) : list (string * json) := concat (enc_field st <$> fs).
Definition enc_object (st : style) (fs : list pbfield) : json := JObj (enc_fields st fs).

(** marshalValue: 64-bit integers are quoted, a nil []byte is null, a map is written with its keys sorted
    (here: in some order, which is of no consequence to the reader) *)
Definition int_field (o c : string) (n : Z) : pbfield := Fld o c (n =? 0) (JStr (format_int n)).
Definition uint_field (o c : string) (n : Z) : pbfield := Fld o c (n =? 0) (JStr (format_uint n)).
Definition str_field (o c s : string) : pbfield := Fld o c (bool_decide (s = "")) (JStr s).
Definition bytes_field (o c s : string) : pbfield :=
  Fld o c (bool_decide (s = "")) (match s with EmptyString => JNull | _ => JStr (encode64 s) end).
Definition enc_map {A} (f : A -> json) (m : gmap string A) : json := JObj ((fun ka : string * A => (ka.1, f ka.2)) <$> map_to_list m).
Definition map_field {A} (o c : string) (f : A -> json) (m : gmap string A) : pbfield :=
  Fld o c (bool_decide (map_to_list m = [] :> list (string * A))) (enc_map f m).

Section Envelopes.
Context (F : floats).
Definition enc_float (f : f64) : json :=
  if is_nan f then JStr "NaN" else if f =? inf then JStr "Infinity" else if f =? minus_inf then JStr "-Infinity" else JNum (write_float F f).
(** minus zero is a zero *)
Definition float_field (o c : string) (f : f64) : pbfield := Fld o c (f mod 2^63 =? 0) (enc_float f).

Context (st : style).
Definition enc_gauge (g : gauge_value) : json :=
  enc_object st [str_field "unit" "unit" (gv_unit g); float_field "value" "value" (gv_value g)].
(** the member of the oneof; an unset one is not written, whatever the options *)
Definition message_fields (m : message) : list pbfield :=
  match m with
  | MLog payload err => [Fld "log" "log" false (enc_object st
      [bytes_field "payload" "payload" payload; Fld "type" "type" (negb err) (JStr (if err then "ERR" else "OUT"))])]
  | MCounter name delta total => [Fld "counter" "counter" false (enc_object st
      [str_field "name" "name" name; uint_field "delta" "delta" delta; uint_field "total" "total" total])]
  | MGauge metrics => [Fld "gauge" "gauge" false (enc_object st [map_field "metrics" "metrics" enc_gauge metrics])]
  | MTimer name start stop => [Fld "timer" "timer" false (enc_object st
      [str_field "name" "name" name; int_field "start" "start" start; int_field "stop" "stop" stop])]
  | MEvent title body => [Fld "event" "event" false (enc_object st [str_field "title" "title" title; str_field "body" "body" body])]
  | MNone => []
  end.
(** Simplification: deprecated tags have text values only *)
Definition enc_value (s : string) : json := JObj [("text", JStr s)].
Definition envelope_fields (e : envelope) : list pbfield :=
  [int_field "timestamp" "timestamp" (e_ts e); str_field "source_id" "sourceId" (e_source e);
   str_field "instance_id" "instanceId" (e_instance e);
   map_field "deprecated_tags" "deprecatedTags" enc_value (e_deprecated_tags e); map_field "tags" "tags" JStr (e_tags e)] ++
  message_fields (e_msg e).
Definition enc_envelope (e : envelope) : json := enc_object st (envelope_fields e).
(** ReadResponse: the node always sets Envelopes (internal/routing/local_store_reader.go:91-95) *)
Definition enc_read (l : list envelope) : json :=
  enc_object st [Fld "envelopes" "envelopes" false
    (enc_object st [Fld "batch" "batch" (bool_decide (l = [])) (JArr (enc_envelope <$> l))])].
Definition enc_meta_info (i : meta_info) : json :=
  enc_object st [int_field "count" "count" (mi_count i); int_field "expired" "expired" (mi_expired i);
    int_field "oldest_timestamp" "oldestTimestamp" (mi_oldest i); int_field "newest_timestamp" "newestTimestamp" (mi_newest i)].
Definition enc_meta (m : gmap string meta_info) : json := enc_object st [map_field "meta" "meta" enc_meta_info m].

(** ** Reading *)
(** unmarshal of a message: both names of a field are accepted, JSON's first; an unknown field is an error
    (the client does not set AllowUnknownFields) *)
Definition look (o c : string) (l : list (string * json)) : option json :=
  match field c l with Some j => Some j | None => field o l end.
Definition known (names : list string) (l : list (string * json)) : bool := forallb (fun kj => bool_decide (kj.1 ∈ names)) l.
Definition with_object {A} (names : list string) (f : list (string * json) -> option A) (j : json) : option A :=
  match j with
  | JObj l => if known names l then f l else None
  | JNull => f []
  | _ => None
  end.
(** an absent field keeps its zero value, null leaves it too *)
Definition get {A} (o c : string) (l : list (string * json)) (zero : A) (dec : json -> option A) : option A :=
  match look o c l with None | Some JNull => Some zero | Some j => dec j end.
(** quotes around a number are dropped and what is inside is read as JSON.  Simplification: what is inside
    is taken after its escapes are resolved. *)
Definition dec_number {A} (zero : A) (num : string -> option A) (j : json) : option A :=
  match j with
  | JNum t => num t
  | JStr s => match read_whole s with Some (JNum t) => num t | Some JNull => Some zero | _ => None end
  | _ => None
  end.
Definition dec_int : json -> option Z := dec_number 0 parse_int.
Definition dec_uint : json -> option Z := dec_number 0 parse_uint.
Definition dec_str (j : json) : option string := match j with JStr s => Some s | _ => None end.
(** Simplification: an array of numbers, which is accepted too, is not *)
Definition dec_bytes (j : json) : option string := match j with JStr s => decode64 s | _ => None end.
Definition dec_float (j : json) : option f64 :=
  match j with
  | JStr s => if bool_decide (s = "NaN") then Some nan else if bool_decide (s = "Infinity") then Some inf
              else if bool_decide (s = "-Infinity") then Some minus_inf else dec_number 0 (read_float F) j
  | _ => dec_number 0 (read_float F) j
  end.
(** Simplification: numbers that are no value of the enum, which are accepted, are not *)
Definition dec_type (j : json) : option bool :=
  match j with
  | JStr s => if bool_decide (s = "OUT") then Some false else if bool_decide (s = "ERR") then Some true else None
  | JNum t => n ← parse_int t; if n =? 0 then Some false else if n =? 1 then Some true else None
  | _ => None
  end.
(** of equal keys the last counts *)
Definition dec_map {A} (f : json -> option A) (j : json) : option (gmap string A) :=
  match j with
  | JObj l => kvs ← mapM (fun kj : string * json => a ← f kj.2; Some (kj.1, a)) l; Some (list_to_map (reverse kvs))
  | _ => None
  end.
Definition dec_gauge : json -> option gauge_value := with_object ["unit"; "value"] (fun l =>
  u ← get "unit" "unit" l "" dec_str; v ← get "value" "value" l 0 dec_float; Some (mk_gv u v)).
Definition dec_log : json -> option message := with_object ["payload"; "type"] (fun l =>
  p ← get "payload" "payload" l "" dec_bytes; t ← get "type" "type" l false dec_type; Some (MLog p t)).
Definition dec_counter : json -> option message := with_object ["name"; "delta"; "total"] (fun l =>
  n ← get "name" "name" l "" dec_str; d ← get "delta" "delta" l 0 dec_uint; t ← get "total" "total" l 0 dec_uint; Some (MCounter n d t)).
Definition dec_gauges : json -> option message := with_object ["metrics"] (fun l =>
  m ← get "metrics" "metrics" l ∅ (dec_map dec_gauge); Some (MGauge m)).
Definition dec_timer : json -> option message := with_object ["name"; "start"; "stop"] (fun l =>
  n ← get "name" "name" l "" dec_str; a ← get "start" "start" l 0 dec_int; b ← get "stop" "stop" l 0 dec_int; Some (MTimer n a b)).
Definition dec_event : json -> option message := with_object ["title"; "body"] (fun l =>
  t ← get "title" "title" l "" dec_str; b ← get "body" "body" l "" dec_str; Some (MEvent t b)).
(** Simplification: null as a member of the oneof and several members, of which an arbitrary one wins, are errors *)
Definition dec_message (l : list (string * json)) : option message :=
  match omap (fun nd : string * (json -> option message) => j ← look nd.1 nd.1 l; Some (nd.2, j))
          [("log", dec_log); ("counter", dec_counter); ("gauge", dec_gauges); ("timer", dec_timer); ("event", dec_event)] with
  | [] => Some MNone
  | [(_, JNull)] => None
  | [(d, j)] => d j
  | _ => None
  end.
Definition dec_value : json -> option string := with_object ["text"] (fun l => get "text" "text" l "" dec_str).
(** Simplification: a null envelope, accepted as a nil one, is an error *)
Definition dec_envelope (j : json) : option envelope :=
  match j with
  | JNull => None
  | _ => with_object ["timestamp"; "source_id"; "sourceId"; "instance_id"; "instanceId"; "deprecated_tags"; "deprecatedTags"; "tags";
                      "log"; "counter"; "gauge"; "timer"; "event"] (fun l =>
      ts ← get "timestamp" "timestamp" l 0 dec_int;
      src ← get "source_id" "sourceId" l "" dec_str;
      inst ← get "instance_id" "instanceId" l "" dec_str;
      dt ← get "deprecated_tags" "deprecatedTags" l ∅ (dec_map dec_value);
      tags ← get "tags" "tags" l ∅ (dec_map dec_str);
      m ← dec_message l;
      Some (mk_env ts src inst dt tags m)) j
  end.
Definition dec_envelopes (j : json) : option (list envelope) := match j with JArr l => mapM dec_envelope l | _ => None end.
(** client.go:147-151: the batch of the response, none if there is no response in it *)
Definition dec_read : json -> option (list envelope) := with_object ["envelopes"] (fun l =>
  get "envelopes" "envelopes" l [] (with_object ["batch"] (fun l => get "batch" "batch" l [] dec_envelopes))).
Definition dec_meta_info (j : json) : option meta_info :=
  match j with
  | JNull => None
  | _ => with_object ["count"; "expired"; "oldest_timestamp"; "oldestTimestamp"; "newest_timestamp"; "newestTimestamp"] (fun l =>
      c ← get "count" "count" l 0 dec_int; x ← get "expired" "expired" l 0 dec_int;
      o ← get "oldest_timestamp" "oldestTimestamp" l 0 dec_int; n ← get "newest_timestamp" "newestTimestamp" l 0 dec_int;
      Some (MetaInfo c x o n)) j
  end.
Definition dec_meta : json -> option (gmap string meta_info) := with_object ["meta"] (fun l =>
  get "meta" "meta" l ∅ (dec_map dec_meta_info)).
End Envelopes.
(** jsonpb.Unmarshal: the first value of the body *)
Definition read_response (F : floats) (s : string) : option (list envelope) := read_first s ≫= dec_read F.
Definition read_meta_response (s : string) : option (gmap string meta_info) := read_first s ≫= dec_meta.
Definition write_response (F : floats) (st : style) (l : list envelope) : string := write (enc_read F st l).
Definition write_meta_response (st : style) (m : gmap string meta_info) : string := write (enc_meta st m).
