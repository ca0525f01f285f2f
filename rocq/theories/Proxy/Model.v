(** The proxy process: the access log in front of the authorisation middleware, in front of the reverse proxy
    (internal/cfauthproxy/cf_auth_proxy.go, internal/auth/access_middleware.go, cmd/cf-auth-proxy/main.go). *)
From Coq Require Import Ascii String.
From stdpp Require Import prelude gmap strings list.
From Verif.Base Require Import Str Url.
From Verif.AccessLog Require Import Model.
From Verif.Auth Require Import Model System.
Open Scope string_scope.
Open Scope list_scope.
Open Scope Z_scope.

(** An HTTP request: what the log looks at, and the Authorization header. *)
Record preq := PReq { p_log : areq; p_auth : string }.
(** access_middleware.go:53: the same *http.Request is handed on *)
Definition handed (p : preq) : request := Request (a_path (p_log p)) (a_query (p_log p)) (p_auth p).

(** Where the log goes: host and port are main.go's configuration; None: no SecurityEventLog is configured, and the
    middleware of cf_auth_proxy.go:45 writes nothing. *)
Definition logging := option (string * string).

(** [wrote lg r t w]: at time t, [w] may reach the log file for request r (access_logger.go:19-23, 34-36).  The file is
    opened with O_APPEND (main.go:113), so what one Write writes is in one piece; a Write that fails has written any
    beginning of the record, perhaps nothing. *)
Definition wrote (lg : logging) (r : areq) (t : Z) (w : string) (ok : bool) : Prop :=
  match lg with
  | None => w = "" /\ ok = true
  | Some (host, port) =>
      if ok then w = log_access r t host port else exists rest, log_access r t host port = append w rest
  end.

(** One Write: for which request, when, what reached the file, and whether it succeeded *)
Record entry_written := Wrote { w_req : nat; w_time : Z; w_text : string; w_ok : bool }.

Section Proxy.
Context (L : lib) (C : config) (lg : logging).

(** The requests in order of arrival, with the goroutine of Auth/System.v that authorises them once they are logged;
    the writes in order; the rest of the process. *)
Record proxy := Proxy { x_reqs : list (preq * option nat); x_writes : list entry_written; x_sys : sys L }.

(** what is in the log file *)
Definition file (ws : list entry_written) : string := foldr (fun w s => append (w_text w) s) "" ws.

(** No request reaches the middleware but through the access log. *)
Definition no_request_arrives (s s' : sys L) : Prop :=
  forall i r q, s_threads s' !! i = Some (KServe r, q) -> exists q', s_threads s !! i = Some (KServe r, q').

Inductive pstep : proxy -> proxy -> Prop :=
(** net/http Server: a goroutine per request *)
| pstep_arrive p rs ws s : pstep (Proxy rs ws s) (Proxy (rs ++ [(p, None)]) ws s)
(** access_middleware.go:48-54 ServeHTTP: the record is written, an error only printed, and the request handed to the
    authorisation middleware (cf_auth_proxy.go:92) *)
| pstep_log n p t w ok rs ws m ts h :
    rs !! n = Some (p, None) -> wrote lg (p_log p) t w ok ->
    pstep (Proxy rs ws (Sys m ts h))
          (Proxy (<[n := (p, Some (length ts))]> rs) (ws ++ [Wrote n t w ok])
                 (Sys m (ts ++ [(KServe (handed p), System.start L C (KServe (handed p)))]) h))
(** everything behind the access log goes on *)
| pstep_sys rs ws s s' : step L C s s' -> no_request_arrives s s' -> pstep (Proxy rs ws s) (Proxy rs ws s').

(** main.go:29-133 *)
Definition pinitial (clock : Z) : proxy := Proxy [] [] (initial L C clock).
Inductive preachable (clock : Z) : proxy -> Prop :=
| preach_init : preachable clock (pinitial clock)
| preach_step x x' : preachable clock x -> pstep x x' -> preachable clock x'.

End Proxy.
Arguments Proxy {_}. Arguments x_reqs {_}. Arguments x_writes {_}. Arguments x_sys {_}.

(** ** The reverse proxy *)
(** net/http/httputil singleJoiningSlash *)
Fixpoint has_suffix_slash (a : string) : bool :=
  match a with EmptyString => false | String c EmptyString => ceqb c "/" | String _ a' => has_suffix_slash a' end.
Definition has_prefix_slash (b : string) : bool := match b with String c _ => ceqb c "/" | EmptyString => false end.
Definition drop1 (b : string) : string := match b with String _ b' => b' | EmptyString => "" end.
Definition single_joining_slash (a b : string) : string :=
  if has_suffix_slash a && has_prefix_slash b then append a (drop1 b)
  else if negb (has_suffix_slash a) && negb (has_prefix_slash b) then append a (append "/" b)
  else append a b.
(** net/http/httputil NewSingleHostReverseProxy: the director.  [tp] and [tq] are path and query of the gateway's URL
    (cf_auth_proxy.go:111-115), [p] and [q] those of the request. *)
Definition director (tp tq p q : string) : string * string :=
  (single_joining_slash tp p,
   if bool_decide (tq = "") || bool_decide (q = "") then append tq q else append tq (append "&" q)).
