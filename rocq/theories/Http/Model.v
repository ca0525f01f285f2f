(** Model of the client library over HTTP (pkg/client/client.go) and of what the gateway answers it
    (internal/gateway/gateway.go).  Routing and parameters are those of Gateway/Model.v, JSON trees and
    query results those of Marshaler/Model.v. *)
From Coq Require Import Ascii String.
From stdpp Require Import prelude strings gmap list.
From Verif.Base Require Import GoInt Envelope Str Url Dec.
From Verif.Routing Require Import Model.
From Verif.Gateway Require Import Model.
From Verif.Marshaler Require Import Model.
Open Scope string_scope.
Open Scope list_scope.
Open Scope Z_scope.

(** ** github.com/blang/semver (client.go:301, 345 use GTE and Parse).  Not in the repository; transcribed
    from its published source (v3.5, v4.0).  Build metadata is checked and dropped: comparisons ignore it. *)
Record version := Version { v_major : Z; v_minor : Z; v_patch : Z; v_pre : list string }.
Definition letter_or_dash (c : ascii) : bool :=
  let n := nat_of_ascii c in
  ((97 <=? n)%nat && (n <=? 122)%nat) || ((65 <=? n)%nat && (n <=? 90)%nat) || (n =? 45)%nat.
Definition alphanum (c : ascii) : bool := letter_or_dash c || is_digit c.
(** containsOnly(numbers), hasLeadingZeroes, strconv.ParseUint *)
Definition leading_zero (s : string) : bool :=
  match s with String c (String _ _) => ceqb c "0" | _ => false end.
Definition semver_number (s : string) : option Z := if leading_zero s then None else parse_uint s.
(** NewPRVersion: is this part of a prerelease accepted? *)
Definition pre_ok (s : string) : bool :=
  match s with
  | EmptyString => false
  | _ => if str_all is_digit s then bool_decide (is_Some (semver_number s)) else str_all alphanum s
  end.
Definition build_ok (s : string) : bool := match s with EmptyString => false | _ => str_all alphanum s end.
(** the part before the first c, and the dot-separated parts after it *)
Definition cut_tail (c : ascii) (s : string) : string * list string :=
  match cut c s with Some (a, b) => (a, split "." b) | None => (s, []) end.
(** Parse: strings.SplitN(s, ".", 3), then the build metadata and the prerelease are cut off the patch *)
Definition semver_parse (s : string) : option version :=
  '(ma, r) ← cut "." s;
  '(mi, r) ← cut "." r;
  major ← semver_number ma;
  minor ← semver_number mi;
  let '(r, build) := cut_tail "+" r in
  let '(pa, pre) := cut_tail "-" r in
  patch ← semver_number pa;
  if forallb pre_ok pre && forallb build_ok build then Some (Version major minor patch pre) else None.
(** Version.GTE(2.0.0): Compare goes through major, minor and patch; of two equal versions the one with a
    prerelease is the lower (client.go:719-723 FIRST_LOG_CACHE_VERSION_AFTER_API_MOVE) *)
Definition gte_2_0_0 (v : version) : bool :=
  if negb (v_major v =? 2) then 2 <? v_major v
  else if negb (v_minor v =? 0) then 0 <? v_minor v
  else if negb (v_patch v =? 0) then 0 <? v_patch v
  else match v_pre v with [] => true | _ => false end.

(** ** Talking HTTP *)

(** Status and body *)
Notation response := (Z * string)%type.
(** Path and query of a GET.  The configured address is taken to parse and to have no query. *)
Notation request := (string * string)%type.
(** What a function of the client does: requests, one after the other, and what becomes of the answers.
    None: httpClient.Do returned an error.  Redirections are followed by net/http and not seen here. *)
Inductive talk (A : Type) := Ret (a : A) | Get (r : request) (k : option response -> talk A).
Arguments Ret {A} _.
Arguments Get {A} _ _.

(** The errors a caller gets *)
Inductive fault := Unreachable | BadStatus (code : Z) | Undecodable | BadVersion | NoUptime.
Inductive res (A : Type) := Ok (a : A) | Err (e : fault).
Arguments Ok {A} _.
Arguments Err {A} _.

(** The metadata of a source (egress.pb.go MetaInfo): count, expired, oldest and newest timestamp *)
Record meta_info := MetaInfo { mi_count : Z; mi_expired : Z; mi_oldest : Z; mi_newest : Z }.

(** Library functions.  [first_json]: json.NewDecoder(body).Decode, the first value of a text;
    [whole_json]: json.Unmarshal, [write_json]: json.Marshal; jsonpb for the responses to Read and Meta;
    [write_time]: formatDecimalTimeWithMillis (client.go:418-420, Times/Model.v);
    [http_status]: runtime.HTTPStatusFromCode. *)
Record codec := Codec {
  first_json : string -> option json;
  whole_json : string -> option json;
  write_json : json -> string;
  read_envelopes : string -> option (list envelope);
  write_envelopes : list envelope -> string;
  read_meta : string -> option (gmap string meta_info);
  write_meta : gmap string meta_info -> string;
  write_time : Z -> string;
  http_status : Z -> Z }.

(** encoding/json, decoding into a string field of a struct: absent and null leave it empty.
    (Other capitalisations of the field's name are accepted by the library; this is left out.) *)
Definition string_field (k : string) (j : json) : option string :=
  match j with
  | JObj l => match field k l with Some (JStr s) => Some s | Some JNull | None => Some "" | _ => None end
  | JNull => Some ""
  | _ => None
  end.

Section Client.
Context (D : codec).

Definition info_request : request := ("/api/v1/info", "").
(** client.go:308-346 LogCacheVersion; LAST_LOG_CACHE_VERSION_WITHOUT_INFO (client.go:714-718): what it
    makes of the answer *)
Definition version_of (o : option response) : res version :=
  match o with
  | None => Err Unreachable
  | Some (status, body) =>
      if status =? 404 then Ok (Version 1 4 7 [])
      else if negb (status =? 200) then Err (BadStatus status)
      else match first_json D body ≫= string_field "version" with
           | None => Err Undecodable
           | Some s => match semver_parse s with Some v => Ok v | None => Err BadVersion end
           end
  end.
Definition log_cache_version : talk (res version) := Get info_request (fun o => Ret (version_of o)).
(** client.go:291-306 getBaseApiPath, and what is done with the path: the field baseApiPath is never set *)
Definition with_base {A} (k : string -> talk (res A)) : talk (res A) :=
  Get info_request (fun o =>
    match version_of o with
    | Ok v => k (if gte_2_0_0 v then "/api/v1" else "/v1")
    | Err e => Ret (Err e)
    end).

(** The tail shared by Read and Meta: anything but 200 is an error *)
Definition on_200 {A} (decode : string -> option A) (o : option response) : res A :=
  match o with
  | None => Err Unreachable
  | Some (status, body) =>
      if negb (status =? 200) then Err (BadStatus status)
      else match decode body with Some a => Ok a | None => Err Undecodable end
  end.
(** client.go:99-149 Read without a gRPC client *)
Definition read (source : string) (start : Z) (opts : list option_) : talk (res (list envelope)) :=
  with_base (fun base => Get (http_read base source start opts) (fun o => Ret (on_200 (read_envelopes D) o))).
(** client.go:242-280 Meta without a gRPC client *)
Definition meta : talk (res (gmap string meta_info)) :=
  with_base (fun base => Get (append base "/meta", "") (fun o => Ret (on_200 (read_meta D) o))).

(** client.go:348-391 LogCacheVMUptime; Err stands for -1 and an error *)
Definition vm_uptime : talk (res Z) :=
  Get info_request (fun o => Ret
    match o with
    | None => Err Unreachable
    | Some (status, body) =>
        if negb (status =? 200) then Err (BadStatus status)
        else match first_json D body ≫= string_field "vm_uptime" with
             | None => Err Undecodable
             | Some s => if bool_decide (s = "") then Err NoUptime
                         else match parse_int s with Some n => Ok n | None => Err Undecodable end
             end
    end).

(** client.go:393-426: the options of a query.  Times are UnixNano. *)
Inductive promql_option := PTime (ns : Z) | PStart (ns : Z) | PEnd (ns : Z) | PStep (s : string).
Definition apply_promql (v : values) (o : promql_option) : values :=
  match o with
  | PTime t => vset "time" (write_time D t) v
  | PStart t => vset "start" (write_time D t) v
  | PEnd t => vset "end" (write_time D t) v
  | PStep s => vset "step" s v
  end.
(** client.go:436-449, 513-526, 576-589, 646-659: path and query of the requests of PromQL, PromQLRaw, PromQLRange and
    PromQLRangeRaw *)
Definition http_query (path query : string) (opts : list promql_option) : request :=
  (path, encode_query (foldl apply_promql (vset "query" query ∅) opts)).
(** client.go:618-639 grpcPromQL and client.go:477-506 grpcPromQLRange: the request sent *)
Definition first_of (k : string) (v : values) : string := match v !! k with Some (x :: _) => x | _ => "" end.
Definition grpc_instant (query : string) (opts : list promql_option) : instant_request :=
  let v := foldl apply_promql (∅ : values) opts in Instant query (first_of "time" v).
Definition grpc_range (query : string) (opts : list promql_option) : range_request :=
  let v := foldl apply_promql (∅ : values) opts in Range query (first_of "start" v) (first_of "end" v) (first_of "step" v).

(** client.go:569-616 PromQL and client.go:429-475 PromQLRange without a gRPC client *)
Definition promql (L : lib) (query : string) (opts : list promql_option) : talk (res (query_result L)) :=
  Get (http_query "/api/v1/query" query opts)
      (fun o => Ret (on_200 (fun body => first_json D body ≫= unmarshal L false) o)).
Definition promql_range (L : lib) (query : string) (opts : list promql_option) : talk (res (query_result L)) :=
  Get (http_query "/api/v1/query_range" query opts)
      (fun o => Ret (on_200 (fun body => first_json D body ≫= unmarshal L true) o)).

(** client.go:701-711 PromQLQueryResult and PromQLResultData; Result is raw JSON, None when absent *)
Record raw_result := Raw {
  rw_status : string; rw_type : string; rw_result : option json; rw_error_type : string; rw_error : string }.
(** json.Unmarshal into a PromQLQueryResult *)
Definition dec_raw (j : json) : option raw_result :=
  match j with
  | JNull => Some (Raw "" "" None "" "")
  | JObj l =>
      status ← string_field "status" j;
      ety ← string_field "errorType" j;
      err ← string_field "error" j;
      match field "data" l with
      | None | Some JNull => Some (Raw status "" None ety err)
      | Some (JObj d) => ty ← string_field "resultType" (JObj d); Some (Raw status ty (field "result" d) ety err)
      | _ => None
      end
  | _ => None
  end.
(** client.go:508-566 PromQLRangeRaw and client.go:641-699 PromQLRaw *)
Definition promql_raw (path query : string) (opts : list promql_option) : talk (res raw_result) :=
  Get (http_query path query opts) (fun o => Ret
    match o with
    | None => Err Unreachable
    | Some (status, body) =>
        if status =? 404 then Err (BadStatus 404)
        else if negb (status =? 200) && negb (status =? 400) && negb (status =? 500) then Err (BadStatus status)
        else match whole_json D body ≫= dec_raw with Some r => Ok r | None => Err Undecodable end
    end).
End Client.

(** A function talks to a server that may answer in any of the ways [srv] allows: what was said, and the
    result. *)
Inductive talks {A} (srv : request -> option response -> Prop) : talk A -> list (request * option response) -> A -> Prop :=
| talks_ret a : talks srv (Ret a) [] a
| talks_get r k o tr a : srv r o -> talks srv (k o) tr a -> talks srv (Get r k) ((r, o) :: tr) a.

(** ** The gateway *)

(** What the backend says to a gRPC request *)
Inductive outcome (A : Type) := Done (a : A) | Failed (code : Z) (msg : string).
Arguments Done {A} _.
Arguments Failed {A} _ _.

Record gateway (L : lib) := Gateway {
  g_lib : gwlib;
  g_version : string;                  (* gateway.go:86-90 WithGatewayVersion *)
  g_uptime : Z -> Prop;                (* what uptimeFn may return (gateway.go:94-98) *)
  b_read : read_request -> outcome (list envelope) -> Prop;
  b_meta : meta_request -> outcome (gmap string meta_info) -> Prop;
  b_instant : instant_request -> outcome (query_result L) -> Prop;
  b_range : range_request -> outcome (query_result L) -> Prop }.
Arguments g_lib {L} _.
Arguments g_version {L} _.
Arguments g_uptime {L} _ _.
Arguments b_read {L} _ _ _.
Arguments b_meta {L} _ _ _.
Arguments b_instant {L} _ _ _.
Arguments b_range {L} _ _ _.

Definition quote : string := String (ascii_of_nat 34) "".
(** gateway.go:166-168 handleInfoEndpoint: fmt.Sprintf, the version is not escaped *)
Definition info_doc (v : string) (uptime : Z) : string :=
  append "{" (append quote (append "version" (append quote (append ":" (append quote (append v (append quote
  (append "," (append quote (append "vm_uptime" (append quote (append ":" (append quote (append (format_int uptime) (append quote
  (append "}" (String (ascii_of_nat 10) ""))))))))))))))))).

Section Serving.
Context (D : codec) (L : lib) (W : gateway L).

(** gateway.go:175-179 errorBody as json.Marshal writes it *)
Definition error_doc (msg : string) : json :=
  JObj [("status", JStr "error"); ("errorType", JStr "internal"); ("error", JStr (clean L msg))].
(** gateway.go:181-220 httpErrorHandler: DefaultHTTPError writes some body.  Marshalling the error body
    does not fail (json.Marshal of three strings). *)
Definition error_answer (path : string) (code : Z) (msg : string) (resp : response) : Prop :=
  resp.1 = http_status D code /\
  (path = "/api/v1/query" \/ path = "/api/v1/query_range" -> resp.2 = write_json D (error_doc msg)).

(** The runtime's handlers (egress.pb.gw.go:125-180, promql.pb.gw.go:112-160): the backend's response is
    marshalled and forwarded; a marshalling error has the code Unknown (2), a bad parameter
    InvalidArgument (3), a backend error never the code OK (0). *)
Inductive answers (r : request) : option response -> Prop :=
| an_lost : answers r None
| an_moved o : serves (g_lib W) r.1 r.2 Moved -> answers r o
| an_info u : serves (g_lib W) r.1 r.2 InfoPage -> g_uptime W u -> answers r (Some (200, info_doc (g_version W) u))
| an_no_route body : serves (g_lib W) r.1 r.2 NoRoute -> answers r (Some (404, body))
| an_invalid msg resp : serves (g_lib W) r.1 r.2 Invalid -> error_answer r.1 3 msg resp -> answers r (Some resp)
| an_read q l : serves (g_lib W) r.1 r.2 (AskRead q) -> b_read W q (Done l) -> answers r (Some (200, write_envelopes D l))
| an_read_failed q code msg resp : serves (g_lib W) r.1 r.2 (AskRead q) -> b_read W q (Failed code msg) -> code <> 0 ->
    error_answer r.1 code msg resp -> answers r (Some resp)
| an_meta q m : serves (g_lib W) r.1 r.2 (AskMeta q) -> b_meta W q (Done m) -> answers r (Some (200, write_meta D m))
| an_meta_failed q code msg resp : serves (g_lib W) r.1 r.2 (AskMeta q) -> b_meta W q (Failed code msg) -> code <> 0 ->
    error_answer r.1 code msg resp -> answers r (Some resp)
| an_instant q a j : serves (g_lib W) r.1 r.2 (AskInstant q) -> b_instant W q (Done a) -> marshal L a = Some j ->
    answers r (Some (200, write_json D j))
| an_instant_unwritable q a msg resp : serves (g_lib W) r.1 r.2 (AskInstant q) -> b_instant W q (Done a) -> marshal L a = None ->
    error_answer r.1 2 msg resp -> answers r (Some resp)
| an_instant_failed q code msg resp : serves (g_lib W) r.1 r.2 (AskInstant q) -> b_instant W q (Failed code msg) -> code <> 0 ->
    error_answer r.1 code msg resp -> answers r (Some resp)
| an_range q a j : serves (g_lib W) r.1 r.2 (AskRange q) -> b_range W q (Done a) -> marshal L a = Some j ->
    answers r (Some (200, write_json D j))
| an_range_unwritable q a msg resp : serves (g_lib W) r.1 r.2 (AskRange q) -> b_range W q (Done a) -> marshal L a = None ->
    error_answer r.1 2 msg resp -> answers r (Some resp)
| an_range_failed q code msg resp : serves (g_lib W) r.1 r.2 (AskRange q) -> b_range W q (Failed code msg) -> code <> 0 ->
    error_answer r.1 code msg resp -> answers r (Some resp).
End Serving.
