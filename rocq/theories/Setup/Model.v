(** Configuration: how the commands read their environment (cmd/*/config.go, with go-envstruct), and how a node
    wires itself from what it read (cmd/log-cache/main.go, internal/cache/log_cache.go). *)
From Coq Require Import Ascii String.
From stdpp Require Import prelude gmap strings list.
From Verif.Base Require Import GoInt Envelope Str Dec.
From Verif.Store Require Import Model.
From Verif.Routing Require Import Model.
Open Scope string_scope.
Open Scope list_scope.
Open Scope Z_scope.

(** ** go-envstruct *)
(** The package is not in the repository; this is what its documentation says of Load.  os.Getenv: a variable that
    is not set reads as the empty text, so an environment is a function. *)
Definition environment := string -> string.
Inductive kind := KText | KInt | KUint | KBool | KDuration | KList.
Inductive setting := SText (s : string) | SInt (n : Z) | SBool (b : bool) | SList (l : list string).
(** a field of a Config struct with its env tag, and what it was set to before Load *)
Record field := mk_field { f_name : string; f_required : bool; f_kind : kind; f_default : setting }.

(** strings.TrimSpace; blanks beyond ASCII are left out *)
Definition blank_char (c : ascii) : bool := let n := nat_of_ascii c in (n =? 32)%nat || ((9 <=? n)%nat && (n <=? 13)%nat).
Fixpoint trim_left (s : string) : string := match s with String c r => if blank_char c then trim_left r else s | EmptyString => s end.
Fixpoint trim_right (s : string) : string :=
  match s with
  | EmptyString => ""
  | String c r => match trim_right r with EmptyString => if blank_char c then "" else String c "" | t => String c t end
  end.
Definition trim (s : string) : string := trim_right (trim_left s).

Section Load.
(** time.ParseDuration, in nanoseconds *)
Context (duration : string -> option Z).

(** setField: int and uint are 64 bits wide; a bool is true for "true" and "1" *)
Definition read_setting (k : kind) (s : string) : option setting :=
  match k with
  | KText => Some (SText s)
  | KInt => SInt <$> parse_int s
  | KUint => SInt <$> parse_uint s
  | KBool => Some (SBool (bool_decide (s = "true") || bool_decide (s = "1")))
  | KDuration => SInt <$> duration s
  | KList => Some (SList (trim <$> split "," s))
  end.
(** Load: the first text that does not parse ends it; otherwise the required variables that are not set are named,
    if there are any *)
Inductive loaded := Invalid (name : string) | Missing (names : list string) | Loaded (l : list setting).
Fixpoint load_fields (fs : list field) (env : environment) : string + (list string * list setting) :=
  match fs with
  | [] => inr ([], [])
  | f :: fs =>
      let text := env (f_name f) in
      if bool_decide (text = "") then
        match load_fields fs env with
        | inl n => inl n
        | inr (ms, l) => if f_required f then inr (f_name f :: ms, f_default f :: l) else inr (ms, f_default f :: l)
        end
      else
        match read_setting (f_kind f) text with
        | None => inl (f_name f)
        | Some v => match load_fields fs env with inl n => inl n | inr (ms, l) => inr (ms, v :: l) end
        end
  end.
Definition load (fs : list field) (env : environment) : loaded :=
  match load_fields fs env with
  | inl n => Invalid n
  | inr ([], l) => Loaded l
  | inr (ms, _) => Missing ms
  end.
End Load.

(** ** The commands *)
Definition second : Z := 1000000000.
(** internal/tls/tls.go:13-17 *)
Definition tls_fields : list field :=
  [mk_field "CA_PATH" true KText (SText ""); mk_field "CERT_PATH" true KText (SText ""); mk_field "KEY_PATH" true KText (SText "")].
(** cmd/log-cache/config.go:11-59 *)
Definition log_cache_fields : list field :=
  [mk_field "ADDR" true KText (SText ":8080"); mk_field "HEALTH_PORT" false KInt (SInt 6060);
   mk_field "QUERY_TIMEOUT" false KDuration (SInt (10 * second)); mk_field "MEMORY_LIMIT_PERCENT" false KUint (SInt 50);
   mk_field "MAX_PER_SOURCE" false KInt (SInt 100000); mk_field "NODE_INDEX" false KInt (SInt 0);
   mk_field "NODE_ADDRS" false KList (SList [])] ++ tls_fields.
(** cmd/scheduler/config.go:11-42 *)
Definition scheduler_fields : list field :=
  [mk_field "HEALTH_PORT" false KInt (SInt 6064); mk_field "INTERVAL" false KDuration (SInt (60 * second));
   mk_field "COUNT" false KInt (SInt 100); mk_field "REPLICATION_FACTOR" false KInt (SInt 1);
   mk_field "NODE_ADDRS" false KList (SList []); mk_field "LEADER_ELECTION_ENDPOINT" false KText (SText "")] ++ tls_fields.
(** cmd/gateway/config.go:11-39; Version is the build's *)
Definition gateway_fields : list field :=
  [mk_field "ADDR" true KText (SText ":8081"); mk_field "LOG_CACHE_ADDR" true KText (SText "localhost:8080");
   mk_field "HEALTH_PORT" false KInt (SInt 6063); mk_field "PROXY_CERT_PATH" true KText (SText "");
   mk_field "PROXY_KEY_PATH" true KText (SText "")] ++ tls_fields.
(** cmd/nozzle/config.go:9-42 *)
Definition nozzle_fields : list field :=
  [mk_field "LOGS_PROVIDER_ADDR" true KText (SText ""); mk_field "LOGS_PROVIDER_CA_FILE_PATH" true KText (SText "");
   mk_field "LOGS_PROVIDER_CERT_FILE_PATH" true KText (SText ""); mk_field "LOGS_PROVIDER_KEY_FILE_PATH" true KText (SText "");
   mk_field "LOG_CACHE_ADDR" true KText (SText ":8080"); mk_field "HEALTH_PORT" false KInt (SInt 6061);
   mk_field "SHARD_ID" true KText (SText "log-cache");
   mk_field "SELECTORS" true KList (SList ["log"; "gauge"; "counter"; "timer"; "event"])] ++ tls_fields.
(** cmd/syslog-server/config.go:10-36 *)
Definition syslog_server_fields : list field :=
  [mk_field "LOG_CACHE_ADDR" true KText (SText ":8080"); mk_field "SYSLOG_PORT" true KInt (SInt 8888);
   mk_field "HEALTH_PORT" false KInt (SInt 6061)] ++ tls_fields ++
  [mk_field "SYSLOG_TLS_CERT_PATH" true KText (SText ""); mk_field "SYSLOG_TLS_KEY_PATH" true KText (SText "");
   mk_field "SYSLOG_IDLE_TIMEOUT" false KDuration (SInt (120 * second))].
(** cmd/cf-auth-proxy/config.go:9-56 *)
Definition cf_auth_proxy_fields : list field :=
  [mk_field "LOG_CACHE_GATEWAY_ADDR" true KText (SText "localhost:8081"); mk_field "ADDR" true KText (SText ":8083");
   mk_field "INTERNAL_IP" false KText (SText "0.0.0.0"); mk_field "HEALTH_PORT" false KInt (SInt 6065);
   mk_field "EXTERNAL_CERT" true KText (SText ""); mk_field "EXTERNAL_KEY" true KText (SText "");
   mk_field "SKIP_CERT_VERIFY" false KBool (SBool false); mk_field "PROXY_CA_PATH" true KText (SText "");
   mk_field "SECURITY_EVENT_LOG" false KText (SText ""); mk_field "TOKEN_PRUNING_INTERVAL" false KDuration (SInt (60 * second));
   mk_field "CACHE_EXPIRATION_INTERVAL" false KDuration (SInt (60 * second));
   mk_field "CAPI_ADDR" true KText (SText ""); mk_field "CAPI_CA_PATH" true KText (SText ""); mk_field "CAPI_COMMON_NAME" true KText (SText "");
   mk_field "UAA_CLIENT_ID" true KText (SText ""); mk_field "UAA_CLIENT_SECRET" true KText (SText "");
   mk_field "UAA_ADDR" true KText (SText ""); mk_field "UAA_CA_PATH" true KText (SText "")].
(** cmd/blackbox/config.go:10-40 *)
Definition blackbox_fields : list field :=
  [mk_field "EMISSION_INTERVAL" true KDuration (SInt 0); mk_field "SAMPLE_INTERVAL" true KDuration (SInt 0);
   mk_field "WINDOW_INTERVAL" true KDuration (SInt 0); mk_field "WINDOW_LAG" true KDuration (SInt 0);
   mk_field "SOURCE_ID" true KText (SText ""); mk_field "CF_BLACKBOX_ENABLED" false KBool (SBool false);
   mk_field "DATA_SOURCE_HTTP_ADDR" false KText (SText ""); mk_field "UAA_ADDR" false KText (SText "");
   mk_field "CLIENT_ID" false KText (SText ""); mk_field "CLIENT_SECRET" false KText (SText "");
   mk_field "SKIP_TLS_VERIFY" false KBool (SBool false); mk_field "DATA_SOURCE_GRPC_ADDR" false KText (SText "localhost:8080")] ++ tls_fields.

(** ** A node *)
(** what a node is built from; the rest of the settings is not about storing *)
Record node_config := mk_config { nc_addr : string; nc_addrs : list string; nc_index : Z; nc_max : Z }.
(** cmd/log-cache/main.go:46-60 and log_cache.go:57-79 New: without addresses the node's own is the only one *)
Definition node_settings (duration : string -> option Z) (env : environment) : option node_config :=
  match load duration log_cache_fields env with
  | Loaded [SText addr; _; _; _; SInt most; SInt index; SList addrs; _; _; _] =>
      Some (mk_config addr (match addrs with [] => [addr] | _ => addrs end) index most)
  | _ => None
  end.
(** cmd/scheduler/main.go:29-53 and scheduler.go: count, replication factor and addresses *)
Record scheduler_config := mk_sconfig { sc_count : Z; sc_replicas : Z; sc_interval : Z; sc_addrs : list string; sc_endpoint : string }.
Definition scheduler_settings (duration : string -> option Z) (env : environment) : option scheduler_config :=
  match load duration scheduler_fields env with
  | Loaded [_; SInt interval; SInt count; SInt replicas; SList addrs; SText endpoint; _; _; _] =>
      Some (mk_sconfig count replicas interval addrs endpoint)
  | _ => None
  end.

(** log_cache.go:195-228: the clients of a node, one per address; a peer whose dial fails has none *)
Inductive peer := Here | There (addr : string).
Fixpoint peers (dial : string -> bool) (index i : Z) (addrs : list string) : list peer :=
  match addrs with
  | [] => []
  | a :: l =>
      if i =? index then Here :: peers dial index (i + 1) l
      else if dial a then There a :: peers dial index (i + 1) l
      else peers dial index (i + 1) l
  end.
(** log_cache.go:189, 217: localIdx is the node's index if the list reaches it, and 0 otherwise *)
Definition local_index (index : Z) (addrs : list string) : nat :=
  if (0 <=? index) && (index <? Z.of_nat (length addrs)) then Z.to_nat index else 0%nat.
(** a running node: clients, localIdx, routing table, store *)
Record live := mk_live { l_peers : list peer; l_local : nat; l_table : list rinfo; l_store : store }.
(** log_cache.go:165-252: empty, without a table *)
Definition start (dial : string -> bool) (c : node_config) : live :=
  mk_live (peers dial (nc_index c) 0 (nc_addrs c)) (local_index (nc_index c) (nc_addrs c)) [] (new_store (nc_max c)).

(** ** Nodes and what is on its way between them *)
(** Nodes by the address they listen on.  A client of another node sends later, from a goroutine of its own
    (batched_ingress_client.go:66-89), always local-only; here one message per call: that the client collects the
    envelopes of several calls, and can drop some, is in Nozzle/ and Whole/. *)
Record net := mk_net { w_nodes : gmap string live; w_wire : list (string * list envelope) }.
(** the calls of one Send on the clients of a node, in order; None is a panic *)
Fixpoint carry (now : Z) (d : live) (calls : list (nat * send_request)) : option (live * list (string * list envelope)) :=
  match calls with
  | [] => Some (d, [])
  | (i, r) :: calls =>
      match l_peers d !! i with
      | None => None
      | Some Here =>
          s ← put_all now (get_batch r) (l_store d);
          carry now (mk_live (l_peers d) (l_local d) (l_table d) s) calls
      | Some (There b) => '(d', w) ← carry now d calls; Some (d', (b, get_batch r) :: w)
      end
  end.
(** ingress_reverse_proxy.go:41-69 on a node as it is wired; [order] is the iteration order of the map *)
Definition send_at (hash : string -> Z) (now : Z) (a : string) (r : send_request) (order : list (nat * list envelope)) (w : net) : option net :=
  d ← w_nodes w !! a;
  calls ← send_with (fun src => lookup (hash src) (l_table d)) (length (l_peers d)) (l_local d) r order;
  '(d', out) ← carry now d calls;
  Some (mk_net (<[a := d']> (w_nodes w)) (w_wire w ++ out)).
(** the k-th message arrives; where nobody listens it is lost *)
Definition arrive (hash : string -> Z) (now : Z) (k : nat) (w : net) : option net :=
  '(b, es) ← w_wire w !! k;
  let w' := mk_net (w_nodes w) (take k (w_wire w) ++ drop (S k) (w_wire w)) in
  match w_nodes w !! b with
  | None => Some w'
  | Some _ => send_at hash now b (mk_send true (Some es)) [] w'
  end.
Fixpoint arrivals (hash : string -> Z) (now : Z) (ks : list nat) (w : net) : option net :=
  match ks with [] => Some w | k :: ks => w' ← arrive hash now k w; arrivals hash now ks w' end.

(** egress_reverse_proxy.go:54-65 on nodes as they are wired; the answer and the address that served it.  None: out
    of fuel *)
Inductive net_answer := NUnavailable | NPanic | NNobody | NServed (a : string) (o : read_outcome).
Fixpoint net_read (fuel : nat) (hash : string -> Z) (compile : string -> option (string -> bool)) (now : Z)
    (rnds : nat -> nat) (a : string) (rq : read_request) (w : net) : option net_answer :=
  match fuel with
  | O => None
  | S fuel =>
      match w_nodes w !! a with
      | None => Some NNobody
      | Some d =>
          match read_route_of (lookup (hash (rr_source rq)) (l_table d)) (length (l_peers d)) (l_local d) (rnds fuel) with
          | None => Some NPanic
          | Some Unavailable => Some NUnavailable
          | Some (CallNode j) =>
              match l_peers d !! j with
              | None => Some NPanic
              | Some Here => Some (NServed a (local_read compile now rq (l_store d)))
              | Some (There b) => net_read fuel hash compile now rnds b rq w
              end
          end
      end
  end.
