(** The messages that travel between the processes: api/v1/{egress,ingress,orchestration}.proto with the field
    numbers of the struct tags in pkg/rpc/logcache_v1/{egress,ingress,orchestration}.pb.go, and the envelope of
    loggregator-api v2/envelope.proto (imported at store.go:11; the field numbers are those of its published source).

    Writing (golang/protobuf v1.3 table_marshal.go): a number 0, false and an empty text are left out, a member of a
    oneof and a message that is there are not, a map is one entry message (key 1, value 2) after the other, an enum
    list is packed, and text that is not UTF-8 is refused, and with it the message.
    Reading (table_unmarshal.go): field by field, a later number, text or member of a oneof replaces an earlier one,
    a list and a message go on, a field that is not known or has another wire type is skipped, text that is not UTF-8
    fails the message.
    Simplifications: fields are written in the order of their numbers (the library puts oneofs last, and maps in any
    order: C164 shows that no reader can tell); a map entry without its value holds the empty message rather than a nil
    pointer; skipped fields are forgotten rather than kept in XXX_unrecognized; DeprecatedTags hold texts, and a log's
    type is ERR or not, as in Base/Envelope.v. *)
From Coq Require Import Ascii String.
From stdpp Require Import prelude strings list gmap.
From Verif.Base Require Import GoInt Envelope.
From Verif.Routing Require Import Model.
From Verif.Marshaler Require Import Model.
From Verif.Gateway Require Import Model.
From Verif.Http Require Import Model.
From Verif.Json Require Import Text Pb.
From Verif.Wire Require Import Format.
Open Scope string_scope.
Open Scope list_scope.
Open Scope Z_scope.

(** ** Values *)
Definition valid (s : string) : bool := bool_decide (utf8_clean s = s).
(** table_marshal.go makeMarshal…: proto3 leaves out what is zero *)
Definition put_int (k n : Z) : list field := if n =? 0 then [] else [(k, Varint (n mod 2^64))].
Definition put_bool (k : Z) (b : bool) : list field := if b then [(k, Varint 1)] else [].
Definition put_double (k : Z) (f : f64) : list field := if f =? 0 then [] else [(k, Fixed64 f)].
Definition put_text (k : Z) (s : string) : list field := match s with EmptyString => [] | _ => [(k, Bytes s)] end.
Definition put_msg (k : Z) (fs : list field) : list field := [(k, Bytes (write_fields fs))].
(** appendMapItem: key and value are always written *)
Definition put_entry (k : Z) (key : string) (v : wire) : list field := put_msg k [(1, Bytes key); (2, v)].
Definition put_map {V} (k : Z) (f : V -> wire) (m : gmap string V) : list field :=
  map_to_list m ≫= fun kv => put_entry k kv.1 (f kv.2).

(** ** Reading field by field *)
Definition reader (A : Type) : Type := A -> field -> option A.
Fixpoint read_on {A} (step : reader A) (a : A) (fs : list field) : option A :=
  match fs with [] => Some a | f :: fs => a' ← step a f; read_on step a' fs end.
(** table_unmarshal.go (u *unmarshalInfo) unmarshal into [a] *)
Definition merge {A} (step : reader A) (a : A) (s : string) : option A :=
  fs ← read_fields s; read_on step a fs.
(** checkers of one field: [skip] for another wire type *)
Definition get_int {A} (w : wire) (a : A) (set : Z -> A) : option A :=
  match w with Varint n => Some (set n) | _ => Some a end.
Definition get_bytes {A} (w : wire) (a : A) (set : string -> A) : option A :=
  match w with Bytes s => Some (set s) | _ => Some a end.
Definition get_text {A} (w : wire) (a : A) (set : string -> A) : option A :=
  match w with Bytes s => if valid s then Some (set s) else None | _ => Some a end.
Definition get_msg {A B} (step : reader B) (b : B) (w : wire) (a : A) (set : B -> A) : option A :=
  match w with Bytes s => b' ← merge step b s; Some (set b') | _ => Some a end.

(** a map entry: makeUnmarshalMap *)
Definition entry_step {V} (getv : V -> wire -> option V) : reader (string * V) := fun kv '(k, w) =>
  if k =? 1 then get_text w kv (fun x => (x, kv.2))
  else if k =? 2 then v ← getv kv.2 w; Some (kv.1, v)
  else Some kv.
Definition get_entry {A V} (getv : V -> wire -> option V) (zero : V) (w : wire) (m : gmap string V) (a : A)
    (set : gmap string V -> A) : option A :=
  get_msg (entry_step getv) ("", zero) w a (fun kv => set (<[kv.1 := kv.2]> m)).
Definition get_text_value (v : string) (w : wire) : option string := get_text w v id.

(** ** loggregator_v2.Envelope *)
(** message Value { oneof data { string text = 1; … } } *)
Definition value_step : reader string := fun t '(k, w) => if k =? 1 then get_text w t id else Some t.
Definition enc_value (t : string) : wire := Bytes (write_fields [(1, Bytes t)]).
Definition dec_value (t : string) (w : wire) : option string := get_msg value_step t w t id.
(** message GaugeValue { string unit = 1; double value = 2; } *)
Definition enc_gv (g : gauge_value) : wire := Bytes (write_fields (put_text 1 (gv_unit g) ++ put_double 2 (gv_value g))).
Definition gv_step : reader gauge_value := fun g '(k, w) =>
  if k =? 1 then get_text w g (fun u => mk_gv u (gv_value g))
  else if k =? 2 then match w with Fixed64 f => Some (mk_gv (gv_unit g) f) | _ => Some g end
  else Some g.
Definition dec_gv (g : gauge_value) (w : wire) : option gauge_value := get_msg gv_step g w g id.

(** message Log { bytes payload = 1; Type type = 2; } with OUT = 0, ERR = 1 *)
Definition log_step : reader (string * bool) := fun l '(k, w) =>
  if k =? 1 then get_bytes w l (fun p => (p, l.2))
  else if k =? 2 then get_int w l (fun n => (l.1, n =? 1))
  else Some l.
(** message Counter { string name = 1; uint64 delta = 2; uint64 total = 3; } *)
Definition counter_step : reader (string * Z * Z) := fun '(name, delta, total) '(k, w) =>
  if k =? 1 then get_text w (name, delta, total) (fun x => (x, delta, total))
  else if k =? 2 then get_int w (name, delta, total) (fun x => (name, x, total))
  else if k =? 3 then get_int w (name, delta, total) (fun x => (name, delta, x))
  else Some (name, delta, total).
(** message Gauge { map<string, GaugeValue> metrics = 1; } *)
Definition gauge_step : reader (gmap string gauge_value) := fun m '(k, w) =>
  if k =? 1 then get_entry dec_gv (mk_gv "" 0) w m m id else Some m.
(** message Timer { string name = 1; int64 start = 2; int64 stop = 3; } *)
Definition timer_step : reader (string * Z * Z) := fun '(name, start, stop) '(k, w) =>
  if k =? 1 then get_text w (name, start, stop) (fun x => (x, start, stop))
  else if k =? 2 then get_int w (name, start, stop) (fun x => (name, wrap64 x, stop))
  else if k =? 3 then get_int w (name, start, stop) (fun x => (name, start, wrap64 x))
  else Some (name, start, stop).
(** message Event { string title = 1; string body = 2; } *)
Definition event_step : reader (string * string) := fun '(title, body) '(k, w) =>
  if k =? 1 then get_text w (title, body) (fun x => (x, body))
  else if k =? 2 then get_text w (title, body) (fun x => (title, x))
  else Some (title, body).

(** oneof message { Log log = 4; Counter counter = 5; Gauge gauge = 6; Timer timer = 7; Event event = 10; } *)
Definition enc_message (m : message) : list field :=
  match m with
  | MLog payload err => put_msg 4 (put_text 1 payload ++ put_bool 2 err)
  | MCounter name delta total => put_msg 5 (put_text 1 name ++ put_int 2 delta ++ put_int 3 total)
  | MGauge metrics => put_msg 6 (put_map 1 enc_gv metrics)
  | MTimer name start stop => put_msg 7 (put_text 1 name ++ put_int 2 start ++ put_int 3 stop)
  | MEvent title body => put_msg 10 (put_text 1 title ++ put_text 2 body)
  | MNone => []
  end.
(** message Envelope { int64 timestamp = 1; string source_id = 2; map<string, Value> deprecated_tags = 3;
    string instance_id = 8; map<string, string> tags = 9; } *)
Definition enc_envelope (e : envelope) : list field :=
  put_int 1 (e_ts e) ++ put_text 2 (e_source e) ++ put_map 3 enc_value (e_deprecated_tags e) ++
  enc_message (e_msg e) ++ put_text 8 (e_instance e) ++ put_map 9 Bytes (e_tags e).
Definition set_msg (e : envelope) (m : message) : envelope :=
  mk_env (e_ts e) (e_source e) (e_instance e) (e_deprecated_tags e) (e_tags e) m.
(** makeUnmarshalOneof: a member starts afresh *)
Definition envelope_step : reader envelope := fun e '(k, w) =>
  if k =? 1 then get_int w e (fun n => mk_env (wrap64 n) (e_source e) (e_instance e) (e_deprecated_tags e) (e_tags e) (e_msg e))
  else if k =? 2 then get_text w e (fun x => mk_env (e_ts e) x (e_instance e) (e_deprecated_tags e) (e_tags e) (e_msg e))
  else if k =? 3 then get_entry dec_value "" w (e_deprecated_tags e) e
                        (fun m => mk_env (e_ts e) (e_source e) (e_instance e) m (e_tags e) (e_msg e))
  else if k =? 4 then get_msg log_step ("", false) w e (fun l => set_msg e (MLog l.1 l.2))
  else if k =? 5 then get_msg counter_step ("", 0, 0) w e (fun c => set_msg e (MCounter c.1.1 c.1.2 c.2))
  else if k =? 6 then get_msg gauge_step ∅ w e (fun m => set_msg e (MGauge m))
  else if k =? 7 then get_msg timer_step ("", 0, 0) w e (fun t => set_msg e (MTimer t.1.1 t.1.2 t.2))
  else if k =? 8 then get_text w e (fun x => mk_env (e_ts e) (e_source e) x (e_deprecated_tags e) (e_tags e) (e_msg e))
  else if k =? 9 then get_entry get_text_value "" w (e_tags e) e
                        (fun m => mk_env (e_ts e) (e_source e) (e_instance e) (e_deprecated_tags e) m (e_msg e))
  else if k =? 10 then get_msg event_step ("", "") w e (fun v => set_msg e (MEvent v.1 v.2))
  else Some e.
Definition no_envelope : envelope := mk_env 0 "" "" ∅ ∅ MNone.

(** message EnvelopeBatch { repeated Envelope batch = 1; } *)
Definition enc_batch (es : list envelope) : list field := es ≫= fun e => put_msg 1 (enc_envelope e).
Definition batch_step : reader (list envelope) := fun es '(k, w) =>
  if k =? 1 then get_msg envelope_step no_envelope w es (fun e => es ++ [e]) else Some es.
(** a field that holds a batch, or nil *)
Definition put_batch (k : Z) (b : option (list envelope)) : list field :=
  match b with Some es => put_msg k (enc_batch es) | None => [] end.

(** ** ingress.proto: ingress.pb.go:27-33 SendRequest { EnvelopeBatch envelopes = 1; bool local_only = 2; } *)
Definition enc_send (r : send_request) : list field := put_batch 1 (sr_envelopes r) ++ put_bool 2 (sr_local_only r).
Definition send_step : reader send_request := fun r '(k, w) =>
  if k =? 1 then get_msg batch_step (default [] (sr_envelopes r)) w r (fun es => mk_send (sr_local_only r) (Some es))
  else if k =? 2 then get_int w r (fun n => mk_send (negb (n =? 0)) (sr_envelopes r))
  else Some r.

(** ** egress.proto *)
(** egress.pb.go:24-31 EnvelopeType *)
Definition type_num (t : etype) : Z :=
  match t with
  | T_ANY => 0 | T_LOG => 1 | T_COUNTER => 2 | T_GAUGE => 3 | T_TIMER => 4 | T_EVENT => 5 | T_UNKNOWN n => n
  end.
(** an enum is an int32: unmarshalInt32 *)
Definition wrap32 (z : Z) : Z := (z + 2^31) mod 2^32 - 2^31.
Definition get_type (n : Z) : etype := type_number (wrap32 n).
(** table_marshal.go appendInt32PackedSlice *)
Definition pack (ns : list Z) : string := foldr (fun n s => write_varint (n mod 2^64) +:+ s) "" ns.
Fixpoint unpack (fuel : nat) (s : string) : option (list Z) :=
  match s, fuel with
  | EmptyString, _ => Some []
  | _, O => None
  | _, S fuel => '(n, r) ← read_varint s; ns ← unpack fuel r; Some (n :: ns)
  end.
(** egress.pb.go:63-74 ReadRequest *)
Definition put_types (k : Z) (ts : list etype) : list field :=
  match ts with [] => [] | _ => [(k, Bytes (pack (type_num <$> ts)))] end.
Definition enc_read (r : read_request) : list field :=
  put_text 1 (rr_source r) ++ put_int 2 (rr_start r) ++ put_int 3 (rr_end r) ++ put_int 4 (rr_limit r) ++
  put_types 5 (rr_types r) ++ put_bool 6 (rr_desc r) ++ put_text 7 (rr_name r).
Definition read_step : reader read_request := fun r '(k, w) =>
  if k =? 1 then get_text w r (fun x => mk_rr x (rr_start r) (rr_end r) (rr_limit r) (rr_types r) (rr_desc r) (rr_name r))
  else if k =? 2 then get_int w r (fun n => mk_rr (rr_source r) (wrap64 n) (rr_end r) (rr_limit r) (rr_types r) (rr_desc r) (rr_name r))
  else if k =? 3 then get_int w r (fun n => mk_rr (rr_source r) (rr_start r) (wrap64 n) (rr_limit r) (rr_types r) (rr_desc r) (rr_name r))
  else if k =? 4 then get_int w r (fun n => mk_rr (rr_source r) (rr_start r) (rr_end r) (wrap64 n) (rr_types r) (rr_desc r) (rr_name r))
  else if k =? 5 then
    (* unmarshalInt32Slice: packed or one by one *)
    match w with
    | Varint n => Some (mk_rr (rr_source r) (rr_start r) (rr_end r) (rr_limit r) (rr_types r ++ [get_type n]) (rr_desc r) (rr_name r))
    | Bytes s => ns ← unpack (String.length s) s;
                 Some (mk_rr (rr_source r) (rr_start r) (rr_end r) (rr_limit r) (rr_types r ++ (get_type <$> ns)) (rr_desc r) (rr_name r))
    | _ => Some r
    end
  else if k =? 6 then get_int w r (fun n => mk_rr (rr_source r) (rr_start r) (rr_end r) (rr_limit r) (rr_types r) (negb (n =? 0)) (rr_name r))
  else if k =? 7 then get_text w r (fun x => mk_rr (rr_source r) (rr_start r) (rr_end r) (rr_limit r) (rr_types r) (rr_desc r) x)
  else Some r.
Definition no_read : read_request := mk_rr "" 0 0 0 [] false "".

(** egress.pb.go:149-154 ReadResponse { EnvelopeBatch envelopes = 1; } *)
Definition enc_read_response (b : option (list envelope)) : list field := put_batch 1 b.
Definition read_response_step : reader (option (list envelope)) := fun b '(k, w) =>
  if k =? 1 then get_msg batch_step (default [] b) w b Some else Some b.

(** egress.pb.go:187-192 MetaRequest { bool local_only = 1; } *)
Definition enc_meta (r : meta_request) : list field := put_bool 1 (mr_local r).
Definition meta_step : reader meta_request := fun r '(k, w) =>
  if k =? 1 then get_int w r (fun n => MetaReq (negb (n =? 0))) else Some r.

(** egress.pb.go:263-271 MetaInfo { int64 count = 1, expired = 2, oldest_timestamp = 3, newest_timestamp = 4; } *)
Definition enc_info (i : meta_info) : wire :=
  Bytes (write_fields (put_int 1 (mi_count i) ++ put_int 2 (mi_expired i) ++ put_int 3 (mi_oldest i) ++ put_int 4 (mi_newest i))).
Definition info_step : reader meta_info := fun i '(k, w) =>
  if k =? 1 then get_int w i (fun n => MetaInfo (wrap64 n) (mi_expired i) (mi_oldest i) (mi_newest i))
  else if k =? 2 then get_int w i (fun n => MetaInfo (mi_count i) (wrap64 n) (mi_oldest i) (mi_newest i))
  else if k =? 3 then get_int w i (fun n => MetaInfo (mi_count i) (mi_expired i) (wrap64 n) (mi_newest i))
  else if k =? 4 then get_int w i (fun n => MetaInfo (mi_count i) (mi_expired i) (mi_oldest i) (wrap64 n))
  else Some i.
Definition dec_info (i : meta_info) (w : wire) : option meta_info := get_msg info_step i w i id.
(** egress.pb.go:225-230 MetaResponse { map<string, MetaInfo> meta = 1; } *)
Definition enc_meta_response (m : gmap string meta_info) : list field := put_map 1 enc_info m.
Definition meta_response_step : reader (gmap string meta_info) := fun m '(k, w) =>
  if k =? 1 then get_entry dec_info (MetaInfo 0 0 0 0) w m m id else Some m.

(** ** orchestration.proto *)
(** orchestration.pb.go:26-34 Range { uint64 start = 1; uint64 end = 2; } *)
Definition enc_range (r : range) : list field := put_int 1 (r_start r) ++ put_int 2 (r_end r).
Definition range_step : reader range := fun r '(k, w) =>
  if k =? 1 then get_int w r (fun n => mk_range n (r_end r))
  else if k =? 2 then get_int w r (fun n => mk_range (r_start r) n)
  else Some r.
(** orchestration.pb.go:74-79 Ranges { repeated Range ranges = 1; }, :278-283 ListRangesResponse likewise;
    :112-117 AddRangeRequest { Range range = 1; }, :180-185 RemoveRangeRequest likewise *)
Definition enc_ranges (rs : list range) : list field := rs ≫= fun r => put_msg 1 (enc_range r).
Definition ranges_step : reader (list range) := fun rs '(k, w) =>
  if k =? 1 then get_msg range_step (mk_range 0 0) w rs (fun r => rs ++ [r]) else Some rs.
Definition enc_one_range (r : option range) : list field := match r with Some r => put_msg 1 (enc_range r) | None => [] end.
Definition one_range_step : reader (option range) := fun r '(k, w) =>
  if k =? 1 then get_msg range_step (default (mk_range 0 0) r) w r Some else Some r.
(** orchestration.pb.go:317-322 SetRangesRequest { map<string, Ranges> ranges = 1; } *)
Definition enc_table (m : gmap string (list range)) : list field := put_map 1 (fun rs => Bytes (write_fields (enc_ranges rs))) m.
Definition dec_ranges (rs : list range) (w : wire) : option (list range) := get_msg ranges_step rs w rs id.
Definition table_step : reader (gmap string (list range)) := fun m '(k, w) =>
  if k =? 1 then get_entry dec_ranges [] w m m id else Some m.

(** ** promql.proto: the requests *)
(** promql.pb.go:57-63 InstantQueryRequest { string query = 1, time = 2; } *)
Definition enc_instant (r : instant_request) : list field := put_text 1 (iq_query r) ++ put_text 2 (iq_time r).
Definition instant_step : reader instant_request := fun r '(k, w) =>
  if k =? 1 then get_text w r (fun x => Instant x (iq_time r))
  else if k =? 2 then get_text w r (fun x => Instant (iq_query r) x)
  else Some r.
(** promql.pb.go:103-111 RangeQueryRequest { string query = 1, start = 2, end = 3, step = 4; } *)
Definition enc_range_query (r : range_request) : list field :=
  put_text 1 (rg_query r) ++ put_text 2 (rg_start r) ++ put_text 3 (rg_end r) ++ put_text 4 (rg_step r).
Definition range_query_step : reader range_request := fun r '(k, w) =>
  if k =? 1 then get_text w r (fun x => Gateway.Model.Range x (rg_start r) (rg_end r) (rg_step r))
  else if k =? 2 then get_text w r (fun x => Gateway.Model.Range (rg_query r) x (rg_end r) (rg_step r))
  else if k =? 3 then get_text w r (fun x => Gateway.Model.Range (rg_query r) (rg_start r) x (rg_step r))
  else if k =? 4 then get_text w r (fun x => Gateway.Model.Range (rg_query r) (rg_start r) (rg_end r) x)
  else Some r.

(** ** proto.Marshal and proto.Unmarshal *)
(** the fields of type string, which table_marshal.go refuses if they are not UTF-8 (errInvalidUTF8) *)
Definition message_texts (m : message) : list string :=
  match m with
  | MLog _ _ | MNone => []
  | MCounter name _ _ | MTimer name _ _ => [name]
  | MGauge metrics => map_to_list metrics ≫= fun kv => [kv.1; gv_unit kv.2]
  | MEvent title body => [title; body]
  end.
Definition map_texts (m : gmap string string) : list string := map_to_list m ≫= fun kv => [kv.1; kv.2].
Definition envelope_texts (e : envelope) : list string :=
  [e_source e; e_instance e] ++ map_texts (e_deprecated_tags e) ++ map_texts (e_tags e) ++ message_texts (e_msg e).
Definition batch_texts (b : option (list envelope)) : list string := default [] b ≫= envelope_texts.

Definition marshal (texts : list string) (fs : list field) : option string :=
  if forallb valid texts then Some (write_fields fs) else None.
Definition marshal_send (r : send_request) : option string := marshal (batch_texts (sr_envelopes r)) (enc_send r).
Definition unmarshal_send (s : string) : option send_request := merge send_step (mk_send false None) s.
Definition marshal_read (r : read_request) : option string := marshal [rr_source r; rr_name r] (enc_read r).
Definition unmarshal_read (s : string) : option read_request := merge read_step no_read s.
Definition marshal_read_response (b : option (list envelope)) : option string := marshal (batch_texts b) (enc_read_response b).
Definition unmarshal_read_response (s : string) : option (option (list envelope)) := merge read_response_step None s.
Definition marshal_meta (r : meta_request) : option string := marshal [] (enc_meta r).
Definition unmarshal_meta (s : string) : option meta_request := merge meta_step (MetaReq false) s.
Definition marshal_meta_response (m : gmap string meta_info) : option string := marshal (map_to_list m).*1 (enc_meta_response m).
Definition unmarshal_meta_response (s : string) : option (gmap string meta_info) := merge meta_response_step ∅ s.
Definition marshal_range (r : option range) : option string := marshal [] (enc_one_range r).
Definition unmarshal_range (s : string) : option (option range) := merge one_range_step None s.
Definition marshal_ranges (rs : list range) : option string := marshal [] (enc_ranges rs).
Definition unmarshal_ranges (s : string) : option (list range) := merge ranges_step [] s.
Definition marshal_table (m : gmap string (list range)) : option string := marshal (map_to_list m).*1 (enc_table m).
Definition unmarshal_table (s : string) : option (gmap string (list range)) := merge table_step ∅ s.
Definition marshal_instant (r : instant_request) : option string := marshal [iq_query r; iq_time r] (enc_instant r).
Definition unmarshal_instant (s : string) : option instant_request := merge instant_step (Instant "" "") s.
Definition marshal_range_query (r : range_request) : option string :=
  marshal [rg_query r; rg_start r; rg_end r; rg_step r] (enc_range_query r).
Definition unmarshal_range_query (s : string) : option range_request :=
  merge range_query_step (Gateway.Model.Range "" "" "" "") s.
(** An envelope by itself: an element of a batch *)
Definition unmarshal_envelope (s : string) : option envelope := merge envelope_step no_envelope s.
