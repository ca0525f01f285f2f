(** Model of internal/syslog/server.go from the parsed message on.  The octet counting framing is in Octet.v, the RFC 5424
    parser in Message.v (both of github.com/influxdata/go-syslog), deadlines in Server.v; TLS is not modelled.  Here a
    connection is the list of results the parser hands to the listener. *)
From Coq Require Import Ascii String.
From stdpp Require Import prelude gmap strings list.
From Verif.Base Require Import GoInt Envelope Str Dec.
Open Scope Z_scope.

(** go-syslog Message: every accessor returns a pointer that is nil when the field is absent.  The time is
    in nanoseconds since 1970. *)
Record smessage := mk_smsg {
  sm_priority : option Z; sm_time : option Z; sm_app : option string; sm_proc : option string;
  sm_text : option string; sm_data : option (gmap string (gmap string string)) }.
(** go-syslog Result: an error, or a message *)
Definition sresult := option smessage.

(** strings.Trim(pid, "[]") *)
Definition bracket (c : ascii) : bool := ceqb c "[" || ceqb c "]".
Fixpoint trim_left (p : ascii -> bool) (s : string) : string :=
  match s with
  | String c s' => if p c then trim_left p s' else s
  | EmptyString => EmptyString
  end.
Fixpoint trim_right (p : ascii -> bool) (s : string) : string :=
  match s with
  | EmptyString => EmptyString
  | String c s' => if str_all p s then EmptyString else String c (trim_right p s')
  end.
Definition trim_brackets (s : string) : string := trim_right bracket (trim_left bracket s).

(** server.go:271-280 sourceTypeInstIdFromPID *)
Definition source_type_inst (pid : string) : string * string :=
  let toks := split "/" (trim_brackets pid) in
  (default EmptyString (head toks), default EmptyString (last toks)).

(** strings.TrimSpace: unicode.IsSpace on UTF-8; the width of the space at the head of s, 0 if there is
    none.  9-13, 32, U+0085, U+00A0, U+1680, U+2000-200A, U+2028, U+2029, U+202F, U+205F, U+3000 *)
Definition byte (c : ascii) : nat := nat_of_ascii c.
Definition space_width (s : string) : nat :=
  match s with
  | EmptyString => 0
  | String a r =>
      if ((9 <=? byte a) && (byte a <=? 13)) || (byte a =? 32) then 1
      else match r with
      | EmptyString => 0
      | String b r2 =>
          if (byte a =? 194) && ((byte b =? 133) || (byte b =? 160)) then 2
          else match r2 with
          | EmptyString => 0
          | String c _ =>
              if ((byte a =? 225) && (byte b =? 154) && (byte c =? 128))
                 || ((byte a =? 226) && (byte b =? 128) &&
                     (((128 <=? byte c) && (byte c <=? 138)) || (byte c =? 168) || (byte c =? 169) || (byte c =? 175)))
                 || ((byte a =? 226) && (byte b =? 129) && (byte c =? 159))
                 || ((byte a =? 227) && (byte b =? 128) && (byte c =? 128)) then 3 else 0
          end
      end
  end%nat.
Fixpoint skip (n : nat) (s : string) : string :=
  match n, s with
  | S n', String _ s' => skip n' s'
  | _, _ => s
  end.
Fixpoint trim_space_left (fuel : nat) (s : string) : string :=
  match fuel, space_width s with
  | S f, S w => trim_space_left f (skip (S w) s)
  | _, _ => s
  end.
(** is s made of spaces only? *)
Definition all_space (s : string) : bool := bool_decide (trim_space_left (String.length s) s = EmptyString).
Fixpoint trim_space_right (s : string) : string :=
  match s with
  | EmptyString => EmptyString
  | String c s' => if all_space s then EmptyString else String c (trim_space_right s')
  end.
Definition trim_space (s : string) : string := trim_space_right (trim_space_left (String.length s) s).

(** server.go:263-269 typeFromPriority; [true] is ERR *)
Definition err_priority (p : Z) : bool := p =? 11.

(** What happens to one message: a nil dereference (the process dies, there is no recover), an error, or
    an envelope *)
Inductive converted := Crash | Invalid | Converted (e : envelope).

Section convert.
(** strconv.ParseFloat(s, 64) *)
Context (parse_float : string -> option f64).
(** the order in which Go iterates over the structured data *)
Context (order : gmap string (gmap string string) -> list (string * gmap string string)).

Definition param (m : gmap string string) (k : string) : string := default EmptyString (m !! k).
Definition opt_conv (o : option envelope) : converted := match o with Some e => Converted e | None => Invalid end.
Definition with_msg (e : envelope) (m : message) : envelope :=
  mk_env (e_ts e) (e_source e) (e_instance e) (e_deprecated_tags e) (e_tags e) m.

(** server.go:189-209 convertTimer *)
Definition convert_timer (env : envelope) (m : gmap string string) : option envelope :=
  start ← parse_int (param m "start"); stop ← parse_int (param m "stop");
  Some (with_msg env (MTimer (param m "name") start stop)).
(** server.go:211-220 convertEvent *)
Definition convert_event (env : envelope) (m : gmap string string) : option envelope :=
  Some (with_msg env (MEvent (param m "title") (param m "body"))).
(** server.go:222-239 convertCounter *)
Definition convert_counter (env : envelope) (m : gmap string string) : option envelope :=
  delta ← parse_uint (param m "delta"); total ← parse_uint (param m "total");
  Some (with_msg env (MCounter (param m "name") delta total)).
(** server.go:241-261 convertGauge *)
Definition convert_gauge (env : envelope) (m : gmap string string) : option envelope :=
  unit ← m !! "unit"; v ← parse_float (param m "value");
  Some (with_msg env (MGauge {[param m "name" := mk_gv unit v]})).

Definition has_prefix (p s : string) : bool := match strip_prefix p s with Some _ => true | None => false end.

(** server.go:162-177: the first element of the structured data decides *)
Definition convert_data (env : envelope) (kind : string) (m : gmap string string) : option envelope :=
  if has_prefix "counter" kind then convert_counter env m
  else if has_prefix "gauge" kind then convert_gauge env m
  else if has_prefix "event" kind then convert_event env m
  else if has_prefix "timer" kind then convert_timer env m
  else None.

(** server.go:154-187 convertToEnvelope; UnixNano is modulo 2^64 *)
Definition convert (msg : smessage) : converted :=
  match sm_proc msg with
  | None => Crash
  | Some pid =>
      let '(source_type, instance) := source_type_inst pid in
      match sm_app msg, sm_time msg with
      | Some app, Some t =>
          let env := mk_env (wrap64 t) app instance ∅ ∅ MNone in
          match (d ← sm_data msg; head (order d)) with
          | Some (kind, payload) => opt_conv (convert_data env kind payload)
          | None =>
              match sm_text msg, sm_priority msg with
              | Some text, Some p =>
                  Converted (mk_env (wrap64 t) app instance ∅ {["source_type" := source_type]}
                               (MLog (trim_space text) (err_priority p)))
              | _, _ => Crash
              end
          end
      | _, _ => Crash
      end
  end.

(** server.go:125-152 parseListener over the results of a connection.  [send_ok i e]: does the i-th Send
    succeed?  The state: counters ingress and invalid_ingress, the messages dropped, what was sent, and
    whether the process is still alive. *)
Record sserver := mk_server { sv_ingress : nat; sv_invalid : nat; sv_dropped : nat; sv_sent : list envelope; sv_alive : bool }.
Definition listen (send_ok : nat -> envelope -> bool) (s : sserver) (r : sresult) : sserver :=
  if negb (sv_alive s) then s else
  match r with
  | None => mk_server (sv_ingress s) (S (sv_invalid s)) (sv_dropped s) (sv_sent s) true
  | Some msg =>
      match convert msg with
      | Crash => mk_server (sv_ingress s) (sv_invalid s) (sv_dropped s) (sv_sent s) false
      | Invalid => mk_server (sv_ingress s) (S (sv_invalid s)) (sv_dropped s) (sv_sent s) true
      | Converted e =>
          if send_ok (length (sv_sent s)) e
          then mk_server (S (sv_ingress s)) (sv_invalid s) (sv_dropped s) (sv_sent s ++ [e]) true
          else mk_server (sv_ingress s) (sv_invalid s) (S (sv_dropped s)) (sv_sent s ++ [e]) true
      end
  end.
Definition serve (send_ok : nat -> envelope -> bool) (rs : list sresult) : sserver :=
  foldl (listen send_ok) (mk_server 0 0 0 [] true) rs.
End convert.
