(** TLS configurations of the components (internal/tls/tls.go, cmd/*/main.go, internal/cfauthproxy/cf_auth_proxy.go,
    internal/gateway/gateway.go, internal/blackbox/blackbox.go) and what crypto/tls does with them. *)
From Coq Require Import ZArith.
From Coq Require Import Ascii String.
From stdpp Require Import prelude gmap strings list.
From Verif.Base Require Import GoInt.
Open Scope string_scope.
Open Scope Z_scope.

(** Certificates and pools are opaque: what crypto/x509 says of them is a parameter where it is needed. *)
Definition pem := string.
Record cert := mk_cert { cert_der : string; cert_key : string }. (* the certificate and its public key *)
Global Instance cert_eq_dec : EqDecision cert. Proof. solve_decision. Defined.

Inductive client_auth := NoClientCert | RequestClientCert | RequireAnyClientCert | VerifyClientCertIfGiven | RequireAndVerifyClientCert.

(** crypto/tls Config: the fields this repository sets, and those that decide who is accepted.  [None] roots: the system's. *)
Record config := mk_config {
  c_certs : list cert;
  c_roots : option pem;
  c_name : string;
  c_insecure : bool;
  c_min : Z;                     (* 0: the default of the Go release *)
  c_suites : option (list Z);    (* None: the default of the Go release *)
  c_auth : client_auth;
  c_client_cas : option pem }.
(** The zero value: every field the code does not set. *)
Definition zero_config : config := mk_config [] None "" false 0 None NoClientCert None.

Definition tls10 : Z := 0x0301.
Definition tls12 : Z := 0x0303.
Definition tls13 : Z := 0x0304.

(** tls.go:77-80 *)
Definition supported_suites : list Z := [0xc02f; 0xc030].
(** tls.go:69-75 NewBaseTLSConfig *)
Definition base_config : config := mk_config [] None "" false tls12 (Some supported_suites) NoClientCert None.

(** The files: what they contain.  [pair] is tls.LoadX509KeyPair on two contents, [ca_ok] tells whether
    AppendCertsFromPEM finds a certificate. *)
Record files := mk_files { f_read : string -> option string; f_pair : string -> string -> option cert; f_ca_ok : string -> bool }.
Definition load_pair (F : files) (certPath keyPath : string) : option cert :=
  match f_read F certPath, f_read F keyPath with Some c, Some k => f_pair F c k | _, _ => None end.
(** tls.go:42-67 NewMutualTLSConfig; None: an error *)
Definition mutual_config (F : files) (caPath certPath keyPath cn : string) : option config :=
  match load_pair F certPath keyPath with
  | None => None
  | Some cert =>
      match f_read F caPath with
      | None => None
      | Some ca =>
          if f_ca_ok F ca then
            Some (mk_config [cert] (Some ca) cn (c_insecure base_config) (c_min base_config) (c_suites base_config)
                    (c_auth base_config) (c_client_cas base_config))
          else None
      end
  end.

(** tls.go:13-17 *)
Record tls_env := mk_tls { t_ca : string; t_cert : string; t_key : string }.
(** tls.go:19-26 Credentials, and 28-40; None: log.Fatalf ends the process *)
Definition credentials (F : files) (t : tls_env) (cn : string) : option config := mutual_config F (t_ca t) (t_cert t) (t_key t) cn.

(** ** What each process dials the nodes with, and serves with *)
Inductive component := Node | Gateway | Nozzle | Scheduler | SyslogServer | Blackbox.
(** cmd/log-cache/main.go:54-60, cmd/gateway/main.go:27-30, cmd/nozzle/main.go:61-65, cmd/scheduler/main.go:33-35,
    cmd/syslog-server/main.go:41-46, cmd/blackbox/main.go:24-40: the same call in each *)
Definition node_dial (F : files) (comp : component) (t : tls_env) : option config := credentials F t "log-cache".
(** cmd/log-cache/main.go:61 *)
Definition node_serve (F : files) (t : tls_env) : option config := credentials F t "log-cache".

(** cmd/cf-auth-proxy/main.go:166-180 loadCA; None: Fatal *)
Definition load_ca (F : files) (path : string) : option pem :=
  match f_read F path with Some ca => if f_ca_ok F ca then Some ca else None | None => None end.
Definition with_roots (c : config) (roots : option pem) (insecure : bool) (name : string) : config :=
  mk_config (c_certs c) roots name insecure (c_min c) (c_suites c) (c_auth c) (c_client_cas c).
(** main.go:129-145 buildUAAClient *)
Definition uaa_dial (F : files) (skip : bool) (caPath : string) : option config :=
  match load_ca F caPath with Some ca => Some (with_roots base_config (Some ca) skip "") | None => None end.
(** main.go:147-164 buildCAPIClient *)
Definition capi_dial (F : files) (skip : bool) (caPath cn : string) : option config :=
  match load_ca F caPath with Some ca => Some (with_roots base_config (Some ca) skip cn) | None => None end.
(** cf_auth_proxy.go:119-137 NewTransportWithRootCA: the reverse proxy (111-115) and the Meta client (main.go:76-84) *)
Definition gateway_dial (F : files) (caPath : string) : option config :=
  match load_ca F caPath with Some ca => Some (with_roots zero_config (Some ca) false "") | None => None end.
(** cf_auth_proxy.go:94-105 Start; ServeTLS adds the pair *)
Definition proxy_serve (F : files) (certPath keyPath : string) : option config :=
  match load_pair F certPath keyPath with
  | Some c => Some (mk_config [c] None "" false (c_min base_config) (c_suites base_config) NoClientCert None)
  | None => None
  end.
(** gateway.go:160-163 *)
Definition gateway_serve (F : files) (certPath keyPath : string) : option config :=
  match load_pair F certPath keyPath with
  | Some c => Some (mk_config [c] None "" false 0 None NoClientCert None)
  | None => None
  end.

(** ** crypto/tls (Go standard library)
    A peer is whatever is at the other end: the keys it has, the versions and suites it is ready to use.  [verifies roots name c]
    is x509's judgement of a chain; [default_min] the least version of the Go release. *)
Record peer := mk_peer { p_certs : list cert; p_keys : string -> Prop; p_versions : Z -> Prop; p_suites : Z -> Prop }.
Definition min_of (default_min : Z) (c : config) : Z := if c_min c =? 0 then default_min else c_min c.

Section crypto.
  Context (verifies : option pem -> string -> cert -> Prop) (default_min : Z) (default_suites : Z -> Prop).
  Definition version_ok (c : config) (p : peer) (v : Z) : Prop := min_of default_min c <= v <= tls13 /\ p_versions p v.
  (** suites are negotiated up to TLS 1.2; those of 1.3 cannot be configured *)
  Definition suite_ok (c : config) (p : peer) (v suite : Z) : Prop :=
    p_suites p suite /\ (v <= tls12 -> match c_suites c with Some l => suite ∈ l | None => default_suites suite end).
  (** A client that dialled [host] (its name without port) goes on after the handshake: the peer proved that it has the
      key of the certificate it showed, and the certificate verifies. *)
  Definition client_accepts (c : config) (host : string) (p : peer) (v suite : Z) : Prop :=
    version_ok c p v /\ suite_ok c p v suite /\
    exists shown, shown ∈ p_certs p /\ p_keys p (cert_key shown) /\
      (c_insecure c = false -> verifies (c_roots c) (if decide (c_name c = "") then host else c_name c) shown).
  (** A server goes on: what it asks of the client is by ClientAuth. *)
  Definition server_accepts (c : config) (p : peer) (v suite : Z) : Prop :=
    version_ok c p v /\ suite_ok c p v suite /\ c_certs c <> [] /\
    match c_auth c with
    | NoClientCert | RequestClientCert | VerifyClientCertIfGiven => True
    | RequireAnyClientCert => exists shown, shown ∈ p_certs p /\ p_keys p (cert_key shown)
    | RequireAndVerifyClientCert => exists shown, shown ∈ p_certs p /\ p_keys p (cert_key shown) /\ verifies (c_client_cas c) "" shown
    end.
End crypto.
