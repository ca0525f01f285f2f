(** Model of the HTTP gateway (internal/gateway/gateway.go, pkg/rpc/logcache_v1/{egress,promql}.pb.gw.go)
    and of the request which the client library builds from its options (pkg/client/client.go).

    The generated code leaves routing and parameter decoding to grpc-gateway's runtime package, which is
    not in the repository; the functions below marked "runtime" are transcribed from its published source
    (v1.4 to v1.9).  Where those versions differ, the difference is a field of [gwlib]. *)
From Coq Require Import Ascii String.
From stdpp Require Import prelude strings gmap list.
From Verif.Base Require Import GoInt Envelope Str Url Dec.
From Verif.Routing Require Import Model.
Open Scope string_scope.
Open Scope list_scope.
Open Scope Z_scope.

(** egress.pb.go ReadRequest is [read_request] of Routing/Model.v; promql.pb.go InstantQueryRequest,
    RangeQueryRequest; egress.pb.go MetaRequest. *)
Record instant_request := Instant { iq_query : string; iq_time : string }.
Record range_request := Range { rg_query : string; rg_start : string; rg_end : string; rg_step : string }.
Record meta_request := MetaReq { mr_local : bool }.

Record gwlib := GwLib {
  json_names : bool;      (* a field is found under its JSON name too: sourceId for source_id *)
  bracket_keys : bool;    (* name[x]=y means the values x, y for name *)
  colon_in_id : bool;     (* a verb no pattern knows is put back into the path *)
  raw_fields : bool;      (* the struct field XXX_unrecognized is found as well *)
  base64 : string -> option string;
  (* what the backend decodes when these bytes follow the message *)
  wire_read : string -> read_request -> read_request;
  wire_instant : string -> instant_request -> instant_request;
  wire_range : string -> range_request -> range_request;
  wire_meta : string -> meta_request -> meta_request }.

(** ** strconv *)

(** digits in a base up to 16; the value continues from acc *)
Definition base_digit (base : Z) (c : ascii) : option Z :=
  d ← unhex c; if Z.of_nat d <? base then Some (Z.of_nat d) else None.
Fixpoint base_digits (base acc : Z) (s : string) : option Z :=
  match s with
  | EmptyString => Some acc
  | String c s' => d ← base_digit base c; base_digits base (acc * base + d) s'
  end.
(** strconv.ParseUint(s, 0, 64) (Go 1.11): 0x is hexadecimal, a leading 0 octal *)
Definition parse_uint0 (s : string) : option Z :=
  n ← (match s with
       | EmptyString => None
       | String c s' =>
           if ceqb c "0" then
             match s' with
             | String x s'' =>
                 if ceqb x "x" || ceqb x "X"
                 then match s'' with EmptyString => None | _ => base_digits 16 0 s'' end
                 else base_digits 8 0 s'
             | EmptyString => Some 0
             end
           else base_digits 10 0 s
       end);
  if n <? 2^64 then Some n else None.
(** strconv.ParseInt(s, 0, 64) = runtime.Int64 *)
Definition parse_int0 (s : string) : option Z :=
  match s with
  | EmptyString => None
  | String c s' =>
      if ceqb c "-" then (n ← parse_uint0 s'; if 2^63 <? n then None else Some (- n))
      else n ← parse_uint0 (if ceqb c "+" then s' else s); if 2^63 <=? n then None else Some n
  end.
(** strconv.ParseBool = runtime.Bool *)
Definition parse_bool (s : string) : option bool :=
  if bool_decide (s ∈ ["1"; "t"; "T"; "TRUE"; "true"; "True"]) then Some true
  else if bool_decide (s ∈ ["0"; "f"; "F"; "FALSE"; "false"; "False"]) then Some false
  else None.

(** ** Enum names: egress.pb.go EnvelopeType_name, EnvelopeType_value *)
Definition type_number (n : Z) : etype :=
  if n =? 0 then T_ANY else if n =? 1 then T_LOG else if n =? 2 then T_COUNTER else if n =? 3 then T_GAUGE
  else if n =? 4 then T_TIMER else if n =? 5 then T_EVENT else T_UNKNOWN n.
(** EnvelopeType.String(): proto.EnumName *)
Definition type_string (t : etype) : string :=
  match t with
  | T_ANY => "ANY" | T_LOG => "LOG" | T_COUNTER => "COUNTER" | T_GAUGE => "GAUGE" | T_TIMER => "TIMER"
  | T_EVENT => "EVENT" | T_UNKNOWN n => format_int n
  end.
Definition type_value (s : string) : option etype :=
  if bool_decide (s = "ANY") then Some T_ANY
  else if bool_decide (s = "LOG") then Some T_LOG
  else if bool_decide (s = "COUNTER") then Some T_COUNTER
  else if bool_decide (s = "GAUGE") then Some T_GAUGE
  else if bool_decide (s = "TIMER") then Some T_TIMER
  else if bool_decide (s = "EVENT") then Some T_EVENT
  else None.
(** runtime populateFieldEnum: a name, or the number of a known value *)
Definition parse_type (s : string) : option etype :=
  match type_value s with
  | Some t => Some t
  | None => n ← parse_int s; if (0 <=? n) && (n <=? 5) then Some (type_number n) else None
  end.

(** ** runtime PopulateQueryParameters *)

(** strings.LastIndex and slicing: (before, after) the last byte c *)
Fixpoint cut_last (c : ascii) (s : string) : option (string * string) :=
  match s with
  | EmptyString => None
  | String d s' =>
      match cut_last c s' with
      | Some (a, b) => Some (String d a, b)
      | None => if ceqb c d then Some (EmptyString, s') else None
      end
  end.
Definition newline : ascii := ascii_of_nat 10.
(** the regular expression that takes name[x] apart: anything, an opening bracket, anything and a closing
    bracket at the end, none of it a newline, the first part as long as possible *)
Definition bracket (k : string) : option (string * string) :=
  if has_char newline k then None
  else match cut_last "]" k with
       | Some (k', EmptyString) => cut_last "[" k'
       | _ => None
       end.

Section Populate.
Context (G : gwlib).

(** One query parameter.  [skip] is the filter, [field] finds a field and says how its values are set.
    An unknown name is ignored; a dotted name below a scalar or repeated field is an error. *)
Definition populate1 {M} (skip : string -> bool) (field : string -> option (list string -> M -> option M))
    (kv : string * list string) (m : M) : option M :=
  let '(k, vs) := match (if bracket_keys G then bracket kv.1 else None) with
                  | Some (a, b) => (a, b :: kv.2)
                  | None => kv
                  end in
  match split "." k with
  | [] => Some m
  | f :: rest =>
      if skip f then Some m
      else match field f with
           | None => Some m
           | Some set => match rest with [] => set vs m | _ => None end
           end
  end.
(** All of them, in the order the map iteration gives *)
Fixpoint populate {M} (skip : string -> bool) (field : string -> option (list string -> M -> option M))
    (kvs : list (string * list string)) (m : M) : option M :=
  match kvs with
  | [] => Some m
  | kv :: kvs => m' ← populate1 skip field kv m; populate skip field kvs m'
  end.

(** runtime fieldByProtoName *)
Definition is_field (f orig json : string) : bool :=
  bool_decide (f = orig) || (json_names G && bool_decide (f = json)).
(** populateField: the first value; too many are only logged *)
Definition scalar {M X} (parse : string -> option X) (set : X -> M -> M) (vs : list string) (m : M) : option M :=
  match vs with [] => None | v :: _ => x ← parse v; Some (set x m) end.
(** the bytes of XXX_unrecognized, beside the message *)
Definition raw {M} (f : string) : option (list string -> M * string -> option (M * string)) :=
  if raw_fields G && bool_decide (f = "XXX_unrecognized")
  then Some (scalar (base64 G) (fun b m => (m.1, b))) else None.

(** egress.pb.go:63-74 ReadRequest *)
Definition read_field (f : string) : option (list string -> read_request * string -> option (read_request * string)) :=
  if is_field f "source_id" "sourceId" then
    Some (scalar Some (fun x '(r, b) => (mk_rr x (rr_start r) (rr_end r) (rr_limit r) (rr_types r) (rr_desc r) (rr_name r), b)))
  else if is_field f "start_time" "startTime" then
    Some (scalar parse_int0 (fun x '(r, b) => (mk_rr (rr_source r) x (rr_end r) (rr_limit r) (rr_types r) (rr_desc r) (rr_name r), b)))
  else if is_field f "end_time" "endTime" then
    Some (scalar parse_int0 (fun x '(r, b) => (mk_rr (rr_source r) (rr_start r) x (rr_limit r) (rr_types r) (rr_desc r) (rr_name r), b)))
  else if is_field f "limit" "limit" then
    Some (scalar parse_int0 (fun x '(r, b) => (mk_rr (rr_source r) (rr_start r) (rr_end r) x (rr_types r) (rr_desc r) (rr_name r), b)))
  else if is_field f "envelope_types" "envelopeTypes" then
    Some (fun vs '(r, b) => ts ← mapM parse_type vs;
            Some (mk_rr (rr_source r) (rr_start r) (rr_end r) (rr_limit r) ts (rr_desc r) (rr_name r), b))
  else if is_field f "descending" "descending" then
    Some (scalar parse_bool (fun x '(r, b) => (mk_rr (rr_source r) (rr_start r) (rr_end r) (rr_limit r) (rr_types r) x (rr_name r), b)))
  else if is_field f "name_filter" "nameFilter" then
    Some (scalar Some (fun x '(r, b) => (mk_rr (rr_source r) (rr_start r) (rr_end r) (rr_limit r) (rr_types r) (rr_desc r) x, b)))
  else raw f.
(** promql.pb.go InstantQueryRequest *)
Definition instant_field (f : string) : option (list string -> instant_request * string -> option (instant_request * string)) :=
  if is_field f "query" "query" then Some (scalar Some (fun x '(r, b) => (Instant x (iq_time r), b)))
  else if is_field f "time" "time" then Some (scalar Some (fun x '(r, b) => (Instant (iq_query r) x, b)))
  else raw f.
(** promql.pb.go RangeQueryRequest *)
Definition range_field (f : string) : option (list string -> range_request * string -> option (range_request * string)) :=
  if is_field f "query" "query" then Some (scalar Some (fun x '(r, b) => (Range x (rg_start r) (rg_end r) (rg_step r), b)))
  else if is_field f "start" "start" then Some (scalar Some (fun x '(r, b) => (Range (rg_query r) x (rg_end r) (rg_step r), b)))
  else if is_field f "end" "end" then Some (scalar Some (fun x '(r, b) => (Range (rg_query r) (rg_start r) x (rg_step r), b)))
  else if is_field f "step" "step" then Some (scalar Some (fun x '(r, b) => (Range (rg_query r) (rg_start r) (rg_end r) x, b)))
  else raw f.

(** egress.pb.go:187-192 MetaRequest *)
Definition meta_field (f : string) : option (list string -> meta_request * string -> option (meta_request * string)) :=
  if is_field f "local_only" "localOnly" then Some (scalar parse_bool (fun x '(_, b) => (MetaReq x, b)))
  else raw f.

(** The bytes follow the message on the wire *)
Definition sent {M} (wire : string -> M -> M) (m : M * string) : M :=
  match m.2 with EmptyString => m.1 | b => wire b m.1 end.

(** egress.pb.gw.go:31-63 request_Egress_Read_0.  Its filter_Egress_Read_0 holds just source_id.
    The list is the query parameters in map iteration order; None: InvalidArgument. *)
Definition request_read (source : string) (kvs : list (string * list string)) : option read_request :=
  sent (wire_read G) <$> populate (fun f => bool_decide (f = "source_id")) read_field kvs
                           (mk_rr source 0 0 0 [] false "", "").
(** promql.pb.gw.go:31-45 request_PromQLQuerier_InstantQuery_0: nothing is filtered *)
Definition request_instant (kvs : list (string * list string)) : option instant_request :=
  sent (wire_instant G) <$> populate (fun _ => false) instant_field kvs (Instant "" "", "").
(** promql.pb.gw.go:48-63 request_PromQLQuerier_RangeQuery_0 *)
Definition request_range (kvs : list (string * list string)) : option range_request :=
  sent (wire_range G) <$> populate (fun _ => false) range_field kvs (Range "" "" "" "", "").
(** egress.pb.gw.go:66-81 request_Egress_Meta_0 *)
Definition request_meta (kvs : list (string * list string)) : option meta_request :=
  sent (wire_meta G) <$> populate (fun _ => false) meta_field kvs (MetaReq false, "").

(** ** Routing *)

(** path.Clean on a rooted path *)
Definition clean_step (acc : list string) (w : string) : list string :=
  if bool_decide (w = "") || bool_decide (w = ".") then acc
  else if bool_decide (w = "..") then tail acc
  else w :: acc.
Definition path_clean (p : string) : string := String "/" (join "/" (rev (foldl clean_step [] (split "/" p)))).
(** net/http cleanPath *)
Definition ends_in_slash (p : string) : bool :=
  match cut_last "/" p with Some (_, EmptyString) => true | _ => false end.
Definition http_clean (p : string) : string :=
  let p := match p with String c _ => if ceqb c "/" then p else String "/" p | EmptyString => "/" end in
  let np := path_clean p in
  if ends_in_slash p && negb (bool_decide (np = "/")) then append np "/" else np.

(** runtime ServeMux.ServeHTTP: the components and the verb.  None: 404 at once. *)
Fixpoint split_verb (cs : list string) : option (list string * string) :=
  match cs with
  | [] => Some ([], "")
  | [c] => match cut_last ":" c with
           | None => Some ([c], "")
           | Some (EmptyString, _) => None
           | Some (a, v) => Some ([a], v)
           end
  | c :: cs => '(cs, v) ← split_verb cs; Some (c :: cs, v)
  end.
(** runtime Pattern.Match on the verb, every pattern here having none *)
Definition components (path : string) : option (list string) :=
  match path with
  | String c p =>
      if ceqb c "/" then
        '(cs, v) ← split_verb (split "/" p);
        if bool_decide (v = "") then Some cs
        else if colon_in_id G then Some (split "/" p) else None
      else None
  | EmptyString => None
  end.

(** What happens to a request: 301, the info page, 404, 400, or a gRPC request to the backend *)
Inductive served :=
| Moved | InfoPage | NoRoute | Invalid
| AskRead (r : read_request)
| AskMeta (r : meta_request)
| AskInstant (r : instant_request)
| AskRange (r : range_request).

Definition or_invalid {M} (f : M -> served) (o : option M) : served :=
  match o with Some m => f m | None => Invalid end.
(** egress.pb.gw.go:183,185 and promql.pb.gw.go:165,167: the patterns.  The deep wildcard takes any number
    of components, none included.  Methods are left out: a GET, or a POST which
    the library lets through to the GET handlers. *)
Definition route (cs : list string) (kvs : list (string * list string)) : served :=
  match cs with
  | a :: v :: rest =>
      if bool_decide (a = "api") && bool_decide (v = "v1") then
        match rest with
        | [] => NoRoute
        | w :: rest =>
            if bool_decide (w = "read") then or_invalid AskRead (request_read (join "/" rest) kvs)
            else match rest with
                 | [] => if bool_decide (w = "meta") then or_invalid AskMeta (request_meta kvs)
                         else if bool_decide (w = "query") then or_invalid AskInstant (request_instant kvs)
                         else if bool_decide (w = "query_range") then or_invalid AskRange (request_range kvs)
                         else NoRoute
                 | _ :: _ => NoRoute
                 end
        end
      else NoRoute
  | _ => NoRoute
  end.
(** gateway.go:124-164 listenAndServe: net/http's ServeMux in front of the runtime's *)
Definition serve (path : string) (kvs : list (string * list string)) : served :=
  if negb (bool_decide (http_clean path = path)) then Moved
  else if bool_decide (path = "/api/v1/info") then InfoPage
  else match components path with
       | None => NoRoute
       | Some cs => route cs kvs
       end.
(** The parameters come from URL.Query() and are visited in any order *)
Definition serves (path query : string) (o : served) : Prop :=
  exists kvs, kvs ≡ₚ map_to_list (parse_query query) /\ serve path kvs = o.

End Populate.

(** ** pkg/client/client.go *)

(** client.go:157-197: the exported options.  Times are UnixNano. *)
Inductive option_ :=
| WithEndTime (t : Z)
| WithLimit (n : Z)
| WithEnvelopeTypes (ts : list etype)
| WithDescending
| WithNameFilter (s : string).
Definition apply_option (v : values) (o : option_) : values :=
  match o with
  | WithEndTime t => vset "end_time" (format_int t) v
  | WithLimit n => vset "limit" (format_int n) v
  | WithEnvelopeTypes ts => foldl (fun v t => vadd "envelope_types" (type_string t) v) v ts
  | WithDescending => vset "descending" "true" v
  | WithNameFilter s => vset "name_filter" s v
  end.
(** client.go:100-131 Read: path and query string of the request.  The configured address is taken to
    have no query of its own; [base] is what getBaseApiPath returns. *)
Definition http_read (base source : string) (start : Z) (opts : list option_) : string * string :=
  (append base (append "/read/" source),
   encode_query (foldl apply_option (vset "start_time" (format_int start) ∅) opts)).
(** client.go:199-233 grpcRead: the request sent.  On a syntax error ParseInt returns 0; range errors
    cannot happen to what an option wrote. *)
Definition grpc_read (source : string) (start : Z) (opts : list option_) : read_request :=
  let q := foldl apply_option (∅ : values) opts in
  let int k := match q !! k with Some (x :: _) => default 0 (parse_int x) | _ => 0 end in
  mk_rr source start (int "end_time") (int "limit")
        ((fun s => default T_ANY (type_value s)) <$> default [] (q !! "envelope_types"))
        (bool_decide (is_Some (q !! "descending")))
        (match q !! "name_filter" with Some (x :: _) => x | _ => "" end).
